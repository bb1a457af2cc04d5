(** Vocabulary for C96 and C97: the callbacks of an allocator and its consumer in several threads. *)
From Coq Require Import ZArith String List Bool.
From Verif Require Import PyBase Cluster Zookeeper SpecZk Threads.
Import ListNotations.
Open Scope Z_scope.

(** the shared set holds names of partitions, each once *)
Definition good_call (good : text -> Prop) (ev : tevent) : Prop :=
  match ev with TCall _ Partitions new => NoDup new /\ forall p, In p new -> good p | _ => True end.
(** the sets the callbacks were called with, after those an allocator has at first *)
Definition told_of (w : which) (evs : list tevent) : list (list text) :=
  [] :: flat_map (fun ev => match ev, w with TCall _ Members new, Members => [mkset new] | TCall _ Partitions new, Partitions => [new] | _, _ => [] end) evs.
(** the calls made *)
Definition calls (evs : list tevent) : list (which * list text) := flat_map (fun ev => match ev with TCall _ w new => [(w, new)] | _ => [] end) evs.
(** the partitions of topic [t] the allocation of member [m] names *)
Definition allots (s : shared) (m t : text) : list Z := gives_to (cur_map s) m t.
(** the allocation is that of the members and partitions the allocator knows *)
Definition right (s : shared) : Prop :=
  exists mp, naive_allocator (sorted (h_members s)) (sorted (h_partitions s)) = Ok mp /\ forall m t, allots s m t = gives_to mp m t.
Section Steps.
  Variable name : text.
  (** [P] holds of each step, where it is taken *)
  Fixpoint steps (P : shared -> tevent -> Prop) (evs : list tevent) (s : shared) : Prop :=
    match evs with
    | [] => True
    | ev :: r => P s ev /\ steps P r (tstep naive_allocator name s ev)
    end.
End Steps.
(** a callback is called when no other one runs *)
Definition alone (s : shared) (ev : tevent) : Prop := match ev with TCall _ _ _ => h_threads s = [] | _ => True end.
(** moreover no callback runs while consume() does *)
Definition apart_from_consume (s : shared) (ev : tevent) : Prop :=
  match ev with
  | TCall _ _ _ => h_threads s = [] /\ h_consumer s = Idle
  | TRun _ => True
  | UCall _ | URun | UAnswer => h_threads s = []
  end.
(** the set a callback was called with last *)
Definition last_of (w : which) (evs : list tevent) : list text := last (told_of w evs) [].
(** the partitions whose offsets were looked up at some time of the run *)
Fixpoint ever_known (name : text) (evs : list tevent) (s : shared) : list (text * Z) :=
  h_known s ++ match evs with [] => [] | ev :: r => ever_known name r (tstep naive_allocator name s ev) end.
