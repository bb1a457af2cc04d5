(** Vocabulary for C95: the consumers of a group together. *)
From Coq Require Import ZArith String List Bool.
From Verif Require Import PyBase Cluster Zookeeper SpecZk Consumer SpecConsumer SpecShare Group SpecGroupRun Crew.
Import ListNotations.
Open Scope Z_scope.

Section Spec.
  Context {V : Type}.
  Variable fn : list text -> list text -> res mapping.
  Variable cf : Z -> config V.
  (** consumers of one group with one allocator function; no two have the same name *)
  Definition one_group (gname : text) : Prop :=
    (forall c, exists ac name, md (cf c) = Grouped gname fn ac name) /\ forall c c', own_name cf c = own_name cf c' -> c = c'.
  (** a process makes a consumer once; topics have no colon in their name; the shared set holds names of partitions *)
  Definition news (es : list wevent) : list Z := flat_map (fun e => match e with WNew c _ => [c] | _ => [] end) es.
  Definition fine_event (e : wevent) : Prop :=
    match e with
    | WNew _ k => forall t ps, In (t, ps) (k_topics k) -> no_colon t
    | WGroup ev => fine ev
    | WDo _ _ => True
    end.
  Definition wreachable (w : crew V) : Prop :=
    exists es, (forall e, In e es -> fine_event e) /\ NoDup (news es) /\ w = wrun fn cf es crew_init.
  (** consumer [c] runs, in state [s], and has noticed every change of its group *)
  Definition runs (w : crew V) (c : Z) (s : consumer V) : Prop := dget (w_cons w) c = Some s.
  Definition up_to_date (w : crew V) (c : Z) : Prop := exists cl, dget (g_clients (w_group w)) c = Some cl /\ settled cl.
  Definition partition_of_group (w : crew V) (t : text) (p : Z) : Prop := In (partition_string (t, p)) (g_items (w_group w)).
  Definition group_members (w : crew V) : list text := members (w_group w).
End Spec.
