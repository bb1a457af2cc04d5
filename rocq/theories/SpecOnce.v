(** Vocabulary for C101: the members of a group between two rebalances. *)
From Coq Require Import ZArith String List Bool.
From Verif Require Import PyBase Constants Cluster Zookeeper Consumer SpecConsumer SpecGroup SpecLog SpecGroupLog SpecShare Group SpecGroupRun Crew SpecCrew.
From Verif Require SpecTeam.
Import ListNotations.
Open Scope Z_scope.

Section SpecOnce.
  Context {V : Type}.
  Variable t : text.
  Variable log : Z -> list (Z * pymsg).

  (** a member's time with the topic between two rebalances, SpecGroupLog.turn: it has its positions at the start, no rebalance reaches it,
      its consume(t) calls do not overlap and none of them raises; autocommit may be on or off, and the
      partitions are allocated by the library's allocator function or any other that answers for everybody *)
  Definition undisturbed_turn (T : turn (V := V)) : Prop :=
    (exists g fn ac name, SpecTeam.full_allocator fn /\ md (tn_cfg T) = Grouped g fn ac name) /\ at_start t (tn_cfg T) (tn_start T) /\
    each_step (tn_cfg T) (undisturbed t log (tn_cfg T)) (tn_steps T) (tn_start T) /\ none_raised t (tn_start T) (tn_end T).
  (** the partitions allocated to the member *)
  Definition owns (T : turn (V := V)) (p : Z) : Prop := In p (alloc_of (tn_cfg T) (tn_start T) t).
  (** no partition is allocated to two of the members *)
  Definition shared_out (Ts : list (turn (V := V))) : Prop :=
    forall i j T T' p, nth_error Ts i = Some T -> nth_error Ts j = Some T' -> owns T p -> owns T' p -> i = j.
  (** [D], a list of partition, offset and value, is what the member delivers in its turn: the truthy values are those its calls returned, in order,
      followed by those that a call still running holds *)
  Definition delivers (T : turn (V := V)) (D : list (Z * (Z * V))) : Prop :=
    exists pending, filter (truthy (tn_cfg T)) (values D) = tn_gave t T ++ pending /\ (~ busy (tn_end T) t -> pending = []).
  (** the member that delivers a message, and which message it is *)
  Definition message_of (d : Z * (Z * V)) : Z * Z := (fst d, fst (snd d)).
  (** the turn of consumer [c] of the group [w], SpecCrew: the consumer has noticed every change of the group and no rebalance reaches it between [w] and the turn *)
  Definition turn_after (cf : Z -> config V) (w : crew V) (c : Z) (T : turn (V := V)) : Prop :=
    tn_cfg T = cf c /\ up_to_date w c /\
    exists s ls, runs w c s /\ each_step (cf c) (fun s l => ~ rebalances (cf c) s l) ls s /\ tn_start T = crun (cf c) ls s.
End SpecOnce.
