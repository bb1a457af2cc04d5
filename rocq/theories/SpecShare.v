(** Vocabulary for the property C65. *)
From Coq Require Import ZArith List Bool.
From Verif Require Import PyBase Cluster Zookeeper SpecZk Consumer SpecConsumer.
Import ListNotations.
Open Scope Z_scope.

(** what ZooKeeper told a consumer during a history *)
Definition notified (ls : list label) : list aevent := flat_map (fun l => match l with Alloc ev => [ev] | _ => [] end) ls.
(** two histories end with the same view of the group *)
Definition agree (ls1 ls2 : list label) : Prop :=
  same_set (last_members (notified ls1)) (last_members (notified ls2)) /\ same_set (last_partitions (notified ls1)) (last_partitions (notified ls2)).
(** the names of the partitions ZooKeeper tells of are those clients put there: '<topic>:<id>' *)
Definition well_named (ls : list label) : Prop :=
  forall ev, In (Alloc ev) ls -> good_event (fun p => exists t i, no_colon t /\ p = partition_string (t, i)) ev.
(** a request asks for messages of a partition, or commits a position of it *)
Definition touches (rq : request) (t : text) (p : Z) : Prop :=
  (exists r mw mb parts o x, rq = RFetch r mw mb t parts /\ In (p, (o, x)) parts) \/
  (exists g topics parts o x, rq = RCommit g topics /\ In (t, parts) topics /\ In (p, (o, x)) parts).
