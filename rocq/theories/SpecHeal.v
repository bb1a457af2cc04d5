(** Vocabulary for property C69: which answers say that the client's view of the cluster is out of date. *)
From Coq Require Import ZArith String List Bool.
From Verif Require Import PyBase Constants Cluster Zookeeper Consumer SpecConsumer.
Import ListNotations.
Open Scope Z_scope.

(** The Kafka error codes that go away by themselves or with new metadata: corrupt message, unknown topic or partition,
    leader not available, not the leader, timed out, offsets loading, coordinator not available, not the coordinator, not
    enough replicas, not enough replicas after append. *)
Definition passing : list Z := [2; 3; 5; 6; 7; 14; 15; 16; 19; 20].
(** the codes of a response that are looked at: kiel asks for one topic at a time, except when it commits *)
Definition codes (r : response) : list Z :=
  match r with
  | PFetch ((_, parts) :: _) => map (fun part => fst (snd part)) parts
  | POffset ((_, parts) :: _) => map (fun part => fst (snd part)) parts
  | POffsetFetch ((_, parts) :: _) => map (fun part => fst (snd part)) parts
  | PCommit topics => flat_map (fun topic => map snd (snd topic)) topics
  | PCoordinator code _ => [code]
  | _ => []
  end.
(** The request failed other than by the connection being closed from this side, or its answer has a passing error.  When
    committed offsets are fetched, "offsets loading" only means that one has to ask again. *)
Definition trouble (r : res response) : Prop :=
  match r with
  | Err e => e <> EStreamClosed
  | Ok resp => exists code, In code (codes resp) /\ In code passing /\ match resp with POffsetFetch _ => code <> 14 | _ => True end
  end.
(** The answer is one the client has a rule for: it is about a topic, its codes exist, and an offset lookup found offsets or has
    a passing error.  On other answers the call raises or gives up. *)
Definition regular (r : res response) : Prop :=
  match r with
  | Err _ => True
  | Ok resp =>
      match resp with
      | PFetch [] | POffset [] | POffsetFetch [] => False
      | PFetch _ | PCommit _ => forall code, In code (codes resp) -> known_code code
      | POffset ((_, parts) :: _) => forall p code offs, In (p, (code, offs)) parts -> (code = 0 /\ offs <> []) \/ In code passing
      | POffsetFetch _ => forall code, In code (codes resp) -> code = 0 \/ In code passing
      | PCoordinator _ _ => True
      end
  end.

Section Spec.
  Context {V : Type}.
  (** call [i] waits for the cluster to be healed after a round of requests *)
  Definition heals (s : consumer V) (i : Z) : Prop := exists o k rs, dget (c_calls s) i = Some (o, PHeal k rs).
  Definition waits (s : consumer V) (i : Z) : Prop := exists b rq, waits_for s i b rq.
  (** a label about call [i] *)
  Definition about (i : Z) (l : label) : Prop :=
    match l with Call j _ => j = i | Arrive j _ _ => j = i | Healed j _ => j = i | _ => False end.
  (** no heal ends with success *)
  Definition unhealed (l : label) : Prop := forall i u, l <> Healed i (Ok u).
  (** call [i] gets nothing but answers it has a rule for *)
  Definition answered_only (i : Z) (l : label) : Prop :=
    match l with Call j _ | Healed j _ => j <> i | Arrive j _ r => j = i -> regular r | _ => True end.
  Definition untroubled (l : label) : Prop := match l with Arrive _ _ r => ~ trouble r | _ => True end.
End Spec.
