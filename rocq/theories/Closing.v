(** Model of close() of the clients: kiel/clients/client.py, single.py, grouped.py. *)
From Coq Require Import ZArith List Bool.
From Verif Require Import PyBase Cluster Zookeeper.
Import ListNotations.
Open Scope Z_scope.

(** close(), client.py:33-45, from the moment wind_down() is over with result [wound_down]; the flag it sets first is
    the label [Close] of Consumer.v and the closing flag of Producer.v *)
Definition client_close (wound_down : res unit) (k : cluster) : res unit * cluster :=
  match wound_down with
  | Ok _ => (Ok tt, Cluster.stop k)
  | Err e => (Err e, k)
  end.
(** SingleConsumer.wind_down(), single.py:123-127 *)
Definition single_wind_down : res unit := Ok tt.
(** GroupedConsumer.wind_down(), grouped.py:286-290: the result of the future allocator.stop() returns, which is done by
    then.  [W]: the state of Zookeeper and of the connection to it. *)
Definition grouped_wind_down {W} (leave conn_stop conn_close : @step W) (w : W) : res unit * W :=
  let '(f, w1) := Zookeeper.stop leave conn_stop conn_close w in
  (match f_result f with Some r => r | None => Ok tt end, w1).
