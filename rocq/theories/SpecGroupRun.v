(** Vocabulary for C78 and C79: what the members of a group end up with. *)
From Coq Require Import ZArith String List Bool.
From Verif Require Import PyBase Zookeeper SpecZk Group.
Import ListNotations.
Open Scope Z_scope.

Definition member_name (cl : client) : text := a_name (g_alloc cl).
(** it has noticed every change *)
Definition settled (cl : client) : Prop := g_wm cl = Quiet /\ g_wp cl = Quiet.
(** reading the allocation gives partition [p] of topic [t] *)
Definition has (cl : client) (t : text) (p : Z) : Prop :=
  exists tm ps, fst (allocation (g_alloc cl)) = Ok tm /\ dget tm t = Some ps /\ In p ps.
Definition members (g : group) : list text := dkeys (g_children g).
(** topics have no colon in their name; the shared set holds names of partitions, each once *)
Definition named (p : text) : Prop := exists t i, no_colon t /\ p = partition_string (t, i).
Definition fine (ev : gevent) : Prop :=
  match ev with
  | GNew _ _ seed => forall t ps, In (t, ps) seed -> no_colon t
  | GItems items => NoDup items /\ forall p, In p items -> named p
  | _ => True
  end.
Definition new_names (evs : list gevent) : list text := flat_map (fun ev => match ev with GNew _ name _ => [name] | _ => [] end) evs.
(** the groups of consumers with different names that use the default allocator *)
Definition greachable (g : group) : Prop :=
  exists evs, (forall ev, In ev evs -> fine ev) /\ NoDup (new_names evs) /\ g = grun naive_allocator evs group_init.
(** how many partitions it has *)
Definition share_size (cl : client) : nat := match fst (allocation (g_alloc cl)) with Ok tm => List.length (flat_map snd tm) | Err _ => 0 end.
