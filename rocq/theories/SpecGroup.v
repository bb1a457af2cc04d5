(** Vocabulary for the properties C48-C52. *)
From Coq Require Import ZArith String List Bool.
From Verif Require Import PyBase Constants Cluster Zookeeper SpecZk Consumer SpecConsumer.
Import ListNotations.
Open Scope Z_scope.

(** the partitions a commit answer acknowledges *)
Definition acknowledged (t : text) (topics : list (text * list (Z * Z))) : Prop := exists parts p, In (t, parts) topics /\ In (p, no_error) parts.
Definition all_known (topics : list (text * list (Z * Z))) : Prop := forall t parts p code, In (t, parts) topics -> In (p, code) parts -> known_code code.

Section Spec.
  Context {V : Type}.
  Variable cfg : config V.
  (** the allocator function of a group returns dicts *)
  Definition returns_dicts : Prop := forall g fn ac name ms ps mp, md cfg = Grouped g fn ac name -> fn ms ps = Ok mp -> proper mp.
  (** this step takes an answer that acknowledges a commit of [t] *)
  Definition acks (t : text) (s : consumer V) (l : label) : Prop :=
    exists i b rq topics, l = Arrive i b (Ok (PCommit topics)) /\ waits_for s i b rq /\ is_commit rq /\ all_known topics /\ acknowledged t topics.
  (** this step ends a consume() on [t], or makes it wait for its autocommit *)
  Definition finishes (t : text) (s : consumer V) (l : label) : Prop :=
    exists i start, (l = Call i (OpConsume t start) \/ exists p, dget (c_calls s) i = Some (OpConsume t start, p)) /\
      let s' := cstep cfg s l in
      (exists r, c_ended s' = c_ended s ++ [(i, OpConsume t start, r)]) \/ (exists b rq, waits_for s' i b rq /\ is_commit rq).

  (** this step tells the consumer of a rebalance *)
  Definition rebalances (s : consumer V) (l : label) : Prop := exists ev, l = Alloc ev /\ a_callbacks (c_alloc (cstep cfg s l)) <> a_callbacks (c_alloc s).
  (** the consume() call [i] on [t] is past its lookup and not yet done: it waits for answers to its fetch requests, for the
      heal that follows them, or for the heal of a topic without partitions *)
  Definition fetches (s : consumer V) (i : Z) (t : text) : Prop := exists start p, dget (c_calls s) i = Some (OpConsume t start, p) /\
    ((exists b rq, waits_for s i b rq /\ is_fetch t rq) \/ (exists rs, p = PHeal (KFetch t) rs) \/ p = PTopicHeal t).
  (** the consume() call [i] on [t] waits for offsets, or for the heal that follows *)
  Definition looks_up (s : consumer V) (i : Z) (t : text) : Prop := exists start rq, (exists w rs, dget (c_calls s) i = Some (OpConsume t start, PSend (KOffsets t rq) w rs)) \/
    (exists rs, dget (c_calls s) i = Some (OpConsume t start, PHeal (KOffsets t rq) rs)).
  (** the consume() call [i] on [t] waits for the heal of a topic without partitions *)
  Definition heals_topic (s : consumer V) (i : Z) (t : text) : Prop := exists start, dget (c_calls s) i = Some (OpConsume t start, PTopicHeal t).
  (** this step takes an answer to an offset fetch for [t] in which no partition has an error *)
  Definition loads (t : text) (s : consumer V) (l : label) : Prop := exists i b rq t' parts rest,
    l = Arrive i b (Ok (POffsetFetch ((t', parts) :: rest))) /\ waits_for s i b rq /\ is_lookup t rq /\ forall p code o, In (p, (code, o)) parts -> code = no_error.
End Spec.

Section SpecCoord.
  Context {V : Type}.
  Variable cfg : config V.
  (** codes after which offsets are asked for again: errors.retriable or offsets_load_in_progress *)
  Definition asks_again (code : Z) : Prop := is_retriable code = true \/ code = offsets_load_in_progress.
  (** some partition of a commit answer has code [code] with property [P] *)
  Definition some_part (P : Z -> Prop) (topics : list (text * list (Z * Z))) : Prop := exists t parts p code, In (t, parts) topics /\ In (p, code) parts /\ P code.
  (** all metadata in a commit request is [m] *)
  Definition metadata_is (m : text) (rq : request) : Prop := forall g topics t parts p o x, rq = RCommit g topics -> In (t, parts) topics -> In (p, (o, x)) parts -> x = m.
  (** partition [p] of [t] is allotted to the consumer, and its coordinator [b] can be written to *)
  Definition can_commit (s : consumer V) (b : Z) (t : text) (p : Z) : Prop := c_coord s = Some b /\ open_conn s b = true /\ In p (alloc_of cfg s t).
  (** this step sends broker [b] a commit of the position of partition [p] of [t], with metadata [m] *)
  Definition commits (s : consumer V) (l : label) (b : Z) (t : text) (p : Z) (m : text) : Prop :=
    exists g topics parts, sent cfg s l = [(b, RCommit g topics)] /\ In (t, parts) topics /\ In (p, (position s t p, m)) parts.
  (** the broker a determine_coordinator() call [i] turns to in this step *)
  Definition turns_to (i : Z) (s : consumer V) (l : label) : list Z :=
    match dget (c_calls s) i with
    | Some (_, PSend _ _ _) => []
    | _ => match dget (c_calls (cstep cfg s l)) i with Some (OpCoordinator, PSend _ w _) => dkeys w | _ => [] end
    end.
  Fixpoint turned_to (i : Z) (ls : list label) (s : consumer V) : list Z :=
    match ls with [] => [] | l :: ls' => turns_to i s l ++ turned_to i ls' (cstep cfg s l) end.
  (** other error codes *)
  Definition fatal (code : Z) : Prop := known_code code /\ code <> no_error /\ ~ asks_again code.
  (** the brokers of the cluster, in order *)
  Definition brokers (s : consumer V) : list Z := dkeys (k_conns (c_cluster s)).
End SpecCoord.
