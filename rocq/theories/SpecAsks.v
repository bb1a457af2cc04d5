(** Vocabulary for C91: the partitions a request of a consumer is about. *)
From Coq Require Import ZArith List.
From Verif Require Import PyBase Cluster Zookeeper Consumer.
Import ListNotations.
Open Scope Z_scope.

(** a fetch or an offset request asks for data of partition [p] of topic [t] *)
Definition asks_for (rq : request) (t : text) (p : Z) : Prop :=
  match rq with RFetch _ _ _ t' parts => t' = t /\ In p (map fst parts) | ROffset _ t' parts => t' = t /\ In p (map fst parts) | _ => False end.
