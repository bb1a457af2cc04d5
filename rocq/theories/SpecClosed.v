(** Vocabulary for the properties C66 and C67. *)
From Coq Require Import ZArith List Bool.
From Verif Require Import PyBase Cluster Consumer SpecConsumer.
Import ListNotations.
Open Scope Z_scope.

(** a step is one of call [i]: it is made, or something it waits for happens *)
Definition of_call (i : Z) (l : label) : Prop := (exists o, l = Call i o) \/ (exists b r, l = Arrive i b r) \/ (exists r, l = Healed i r).
(** reading requests: for messages or for positions *)
Definition reads (rq : request) : Prop := exists t, is_fetch t rq \/ is_lookup t rq.
(** no messages *)
Definition nothing {V} (r : res (rv V)) : Prop := r = Ok RvNone \/ r = Ok (RvList []) \/ exists e, r = Err e.
(** what has ended since there were [n] results *)
Definition ended_from {V} (n : nat) (s : consumer V) := skipn n (c_ended s).
(** the connections of a cluster, by broker; closed or not *)
Definition conn_of (k : cluster) (b : Z) (id : nat) (closed : bool) : Prop :=
  exists c, dget (k_conns k) b = Some c /\ cc_id c = id /\ cc_closing c = closed.
