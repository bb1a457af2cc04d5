(** Vocabulary for C111: a group over many rebalances, when partitions are handed over clean. *)
From Coq Require Import ZArith String List Bool.
From Verif Require Import PyBase Constants Cluster Zookeeper Consumer SpecConsumer SpecGroup SpecLog SpecGroupLog SpecOnce.
Import ListNotations.
Open Scope Z_scope.

Section SpecHandover.
  Context {V : Type}.
  Variable t : text.
  (** what the members do between two rebalances, SpecOnce *)
  Definition epoch := list (turn (V := V)).
  (** Partition [p] goes from hand to hand, from position [a] on to position [b]: whoever has it after a rebalance begins at the position at
      which the one before stopped.  This is the case if that one committed its position when no call was running any more.
      Between two rebalances the partition may be nobody's. *)
  Inductive handed_over (p : Z) : Z -> list epoch -> Z -> Prop :=
  | over_end a : handed_over p a [] a
  | over_to T Ts Es b : In T Ts -> owns t T p -> handed_over p (position (tn_end T) t p) Es b -> handed_over p (position (tn_start T) t p) (Ts :: Es) b
  | over_none Ts Es a b : (forall T, In T Ts -> ~ owns t T p) -> handed_over p a Es b -> handed_over p a (Ts :: Es) b.
  (** the step is one of call [i] *)
  Definition part_of (l : label) (i : Z) : Prop := match l with Call j _ | Arrive j _ _ | Healed j _ => j = i | _ => False end.
  (** In its turn the member commits offset [o] for [p], when the only consume() of the topic that may still run is the one that commits,
      and calls consume() of the topic no more. *)
  Definition commits_last (T : turn (V := V)) (p o : Z) : Prop := exists ls l ls', tn_steps T = ls ++ l :: ls' /\ let s := crun (tn_cfg T) ls (tn_start T) in
    commits_at t (tn_cfg T) s l p o /\ (forall i op pc, dget (c_calls (cstep (tn_cfg T) s l)) i = Some (op, pc) -> on_topic t op -> part_of l i) /\
    (forall i start, ~ In (Call i (OpConsume t start)) ls').
  (** The group's coordinator keeps the offset committed for [p], [a] to begin with, and whoever has the partition after a rebalance begins there.
      The members commit as above, or do not get on with the partition; the one that has it last may do as it likes and gets to [b]. *)
  Inductive kept_offset (p : Z) : Z -> list epoch -> Z -> Prop :=
  | kept_end a : kept_offset p a [] a
  | kept_last T Ts : In T Ts -> owns t T p -> kept_offset p (position (tn_start T) t p) [Ts] (position (tn_end T) t p)
  | kept_commit T Ts Es o b : In T Ts -> owns t T p -> commits_last T p o -> kept_offset p o Es b -> kept_offset p (position (tn_start T) t p) (Ts :: Es) b
  | kept_still T Ts Es b : In T Ts -> owns t T p -> position (tn_end T) t p = position (tn_start T) t p -> kept_offset p (position (tn_start T) t p) Es b -> kept_offset p (position (tn_start T) t p) (Ts :: Es) b
  | kept_none Ts Es a b : (forall T, In T Ts -> ~ owns t T p) -> kept_offset p a Es b -> kept_offset p a (Ts :: Es) b.
End SpecHandover.
