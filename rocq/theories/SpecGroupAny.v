(** Vocabulary for C107: groups whose consumers are given an allocator function of the user's
    (docs/clients/zkgrouped.rst, "Customizing"). *)
From Coq Require Import ZArith String List Bool.
From Verif Require Import PyBase Zookeeper SpecZk Group SpecGroupRun.
Import ListNotations.
Open Scope Z_scope.

(** What the documentation asks of an allocator function, and what makes the function one that shares the partitions out.  That
    it is stable is that it is a function. *)
Record shares_out (fn : list text -> list text -> res mapping) : Prop := {
  (** it returns for all arguments, also when there are no members *)
  so_returns : forall ms ps, (forall p, In p ps -> named p) -> exists mp, fn ms ps = Ok mp;
  (** the result is keyed on member name: each member is in it, or it answers for every name *)
  so_keyed : forall ms ps mp, NoDup ms -> fn ms ps = Ok mp -> forall m, In m ms -> dget (mp_tab mp) m <> None \/ mp_default mp = true;
  (** each partition is given to one member *)
  so_each : forall ms ps mp, NoDup ms -> ms <> [] -> NoDup ps -> (forall p, In p ps -> named p) -> fn ms ps = Ok mp ->
    forall t p, In (partition_string (t, p)) ps -> exists m, In m ms /\ In p (gives_to mp m t) /\ forall m', In p (gives_to mp m' t) -> m' = m;
  (** nothing else is given, and to nobody else *)
  so_only : forall ms ps mp, NoDup ms -> NoDup ps -> (forall p, In p ps -> named p) -> fn ms ps = Ok mp ->
    forall m t p, In p (gives_to mp m t) -> In m ms /\ In (partition_string (t, p)) ps
}.
(** the result answers for every name, as a defaultdict does *)
Definition answers_all (fn : list text -> list text -> res mapping) : Prop := forall ms ps mp, fn ms ps = Ok mp -> mp_default mp = true.
(** the groups of consumers with different names that all use [fn] *)
Definition reaches (fn : list text -> list text -> res mapping) (g : group) : Prop :=
  exists evs, (forall ev, In ev evs -> fine ev) /\ NoDup (new_names evs) /\ g = grun fn evs group_init.
