(** Vocabulary for C81-C83: a member of a group reading logs, what it commits, and members taking over from each other. *)
From Coq Require Import ZArith String List Bool.
From Verif Require Import PyBase Constants Cluster Zookeeper Consumer SpecConsumer SpecGroup SpecLog.
Import ListNotations.
Open Scope Z_scope.

Section SpecGroupLog.
  Context {V : Type}.
  Variable t : text.
  Variable log : Z -> list (Z * pymsg).

  (** the answers of SpecLog.serves; answers about stored offsets are about the topic asked for *)
  Definition serves_group (rq : request) (r : response) : Prop :=
    serves t log rq r /\ match rq, r with ROffsetFetch _ t' _, POffsetFetch ((t'', _) :: _) => t'' = t' | _, _ => True end.
  (** a step between two rebalances: such answers, and no consume(t) while another one runs *)
  Definition undisturbed (cfg : config V) (s : consumer V) (l : label) : Prop :=
    ~ rebalances cfg s l /\
    match l with
    | Call _ (OpConsume t' _) => t' = t -> ~ busy s t
    | Arrive i b (Ok r) => forall rq, waits_for s i b rq -> answers rq r = true -> serves_group rq r
    | _ => True
    end.

  (** the consumer has its positions in [t], and no consume(t) runs but one that with this very step goes on from looking them up to fetching *)
  Definition at_start (cfg : config V) (s : consumer V) : Prop :=
    reachable cfg s /\ In t (c_synced s) /\
    (~ busy s t \/
     exists s' l i, reachable cfg s' /\ s = cstep cfg s' l /\ looks_up s' i t /\ fetches s i t /\ forall j o p, dget (c_calls s) j = Some (o, p) -> on_topic t o -> j = i).

  (** a commit request sent by a step names offset [o] for partition [p] *)
  Definition commits_at (cfg : config V) (s : consumer V) (l : label) (p o : Z) : Prop :=
    exists b g topics parts x, In (b, RCommit g topics) (sent cfg s l) /\ In (t, parts) topics /\ In (p, (o, x)) parts.
  Definition commit_running (s : consumer V) : Prop := exists i m p, dget (c_calls s) i = Some (OpCommit m, p).
  (** the program does not let consume(t) and commit_offsets() overlap *)
  Definition apart (s : consumer V) (l : label) : Prop :=
    match l with
    | Call _ (OpConsume t' _) => t' = t -> ~ commit_running s
    | Call _ (OpCommit _) => ~ busy s t
    | _ => True
    end.

  (** ** members taking over a partition *)
  (** a member's time with the topic: from where it has its positions to where it stops, is stopped or dies *)
  Record turn := Turn { tn_cfg : config V; tn_start : consumer V; tn_steps : list label }.
  Definition tn_end (T : turn) : consumer V := crun (tn_cfg T) (tn_steps T) (tn_start T).
  (** what it returned to its program *)
  Definition tn_gave (T : turn) : list V := returned t (tn_start T) (tn_end T).
  (** autocommit is off; the calls do not overlap and none raises *)
  Definition fair_turn (T : turn) : Prop :=
    (exists g fn name, md (tn_cfg T) = Grouped g fn false name) /\ at_start (tn_cfg T) (tn_start T) /\ ~ commit_running (tn_start T) /\
    each_step (tn_cfg T) (undisturbed (tn_cfg T)) (tn_steps T) (tn_start T) /\ each_step (tn_cfg T) apart (tn_steps T) (tn_start T) /\
    none_raised t (tn_start T) (tn_end T).
  (** a message was returned to the program in a turn, if it can be deserialized and is not falsy *)
  Definition returned_in (T : turn) (m : pymsg) : Prop :=
    forall v, deser (tn_cfg T) (msg_value m) = Ok v -> truthy (tn_cfg T) v = true -> In v (tn_gave T).
  Definition committed_in (T : turn) (p o : Z) : Prop :=
    exists ls l ls', tn_steps T = ls ++ l :: ls' /\ commits_at (tn_cfg T) (crun (tn_cfg T) ls (tn_start T)) l p o.
  (** turns, the latest first: each begins at [start] or at an offset that an earlier one committed *)
  Inductive turns (p start : Z) : list turn -> Prop :=
  | turns_nil : turns p start []
  | turns_next T ts : turns p start ts -> fair_turn T ->
      (position (tn_start T) t p = start \/ exists T', In T' ts /\ committed_in T' p (position (tn_start T) t p)) -> turns p start (T :: ts).
End SpecGroupLog.
