(** A whole consumer (kiel/clients/consumer.py, single.py, grouped.py, client.py, cluster.py and connection.py together):
    Full.v over Stack.v.  Nothing is assumed about its cluster: the tables start empty and are what start(), heal() and
    stop() make of the metadata responses that arrive. *)
From Coq Require Import ZArith List Bool.
From Verif Require Import PyBase Messages Cluster Zookeeper Heals Consumer Stack Full.
From Verif Require Connection.
Import ListNotations.
Open Scope Z_scope.

(** the events that are the consumer's own: a coroutine is called or goes on after a heal() (the model allows this at any
    time), the allocation changes, the consumer is closed, a future is done *)
Definition sown (e : sevent) : bool := match e with SLabel (Cluster_ _) _ | SLabel (Arrive _ _ _) _ => false | SLabel _ _ => true | SDone _ _ _ => true | _ => false end.
Definition scl {V} (S : stack V) : cluster := c_cluster (k_cons S).
Definition stables (k : cluster) : sevent := SLabel (Cluster_ k) (fun _ => None).

Section FullConsumer.
  Context {V : Type}.
  Variable cfg : config V.
  Variable C : codec.
  Variable depth : nat.
  Variable neg_read : Z -> bytes -> bytes * bytes.
  Definition cfstep : full (stack V) -> fevent sevent -> full (stack V) :=
    fstep (sstep cfg C depth neg_read) scl (@k_link V) (@k_last V) stables SConn SMeta sown.
  Definition cfrun (evs : list (fevent sevent)) (F : full (stack V)) : full (stack V) := fold_left cfstep evs F.
  (** Client.__init__ and Cluster.__init__, client.py:19-24 and cluster.py:26-31; [last] is request.py's last id *)
  Definition cfinit (name : text) (last : Z) : full (stack V) := full_init (stack_init cluster_init name last).
End FullConsumer.
