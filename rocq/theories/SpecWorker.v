(** Vocabulary for C100: all workers (examples/worker.py) that a group ever has. *)
From Coq Require Import ZArith String List Bool.
From Verif Require Import PyBase Constants Cluster Zookeeper Consumer SpecConsumer SpecGroup SpecLog SpecGroupLog SpecTeam Worker.
Import ListNotations.
Open Scope Z_scope.

Section SpecWorker.
  Context {V : Type}.
  Variable t : text.
  Variable log : Z -> list (Z * pymsg).
  Variable start : Z -> Z.
  Variable cf : Z -> config V.
  Variable k0 : Z -> cluster.

  (** worker [x] after a history of the group *)
  Definition at_work (x : Z) (es : history) : worker V := wrun (cf x) (own x es) (worker_init (k0 x) (name_of cf x)).
  (** every call is one that the program makes *)
  Definition workers (es : history) : Prop := forall es1 x l es2, es = es1 ++ (x, l) :: es2 -> may t (at_work x es1) l.
  (** worker [x] has processed the message, if it can deserialize it and the value is not falsy *)
  Definition processed (x : Z) (es : history) (m : pymsg) : Prop :=
    forall v, deser (cf x) (msg_value m) = Ok v -> truthy (cf x) v = true -> In v (w_done (at_work x es)).

  (** what is asked of the brokers, the coordinator and ZooKeeper *)
  Definition spares (cfg : config V) (w : worker V) (l : label) : Prop :=
    let s := w_c w in
    (* the brokers serve the logs *)
    match l with Arrive i b (Ok r) => forall rq, waits_for s i b rq -> answers rq r = true -> serves_group t log rq r | _ => True end /\
    (* a rebalance comes neither while consume() looks up offsets, nor between the end of a consume() that returns messages and
       the commit *)
    (rebalances cfg s l -> (forall i, ~ looks_up s i t) /\ next_call t w <> Some (OpCommit None)) /\
    (* no commit is sent again *)
    ((forall i o, l <> Call i o) -> forall p c, ~ commits_at t cfg s l p c).
  Definition spared (es : history) : Prop := forall es1 x l es2, es = es1 ++ (x, l) :: es2 -> spares (cf x) (at_work x es1) l /\ recalls t start cf k0 es1 x l.
End SpecWorker.
