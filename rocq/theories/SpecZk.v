(** Vocabulary for the properties C45-C47 and C53-C59. *)
From Coq Require Import ZArith String List Bool Permutation.
From Verif Require Import PyBase Iterables Zookeeper SpecJson.
Import ListNotations.
Open Scope Z_scope.

(** ** allocations *)
(** the partitions of topic [t] a mapping gives to member [m] *)
Definition gives_to (mp : mapping) (m t : text) : list Z :=
  match dget (mp_tab mp) m with
  | Some tm => match dget tm t with Some ps => ps | None => [] end
  | None => []
  end.
(** what a member gets is a dict: no topic occurs twice in it *)
Definition proper (mp : mapping) : Prop := forall m tm, dget (mp_tab mp) m = Some tm -> NoDup (dkeys tm).
(** how many partitions member [m] has *)
Definition load (mp : mapping) (m : text) : nat :=
  match dget (mp_tab mp) m with Some tm => List.length (flat_map snd tm) | None => 0 end.
(** '<topic>:<id>' *)
Definition partition_string (tp : text * Z) : text := fst tp ++ txt ":" ++ str_of_int (snd tp).
Definition no_colon (t : text) : Prop := ~ In 58 t.

(** ** what an allocator has been told last *)
Definition last_members (evs : list aevent) : list text :=
  fold_left (fun acc ev => match ev with EvMembers ms => ms | _ => acc end) evs [].
Definition last_partitions (evs : list aevent) : list text :=
  fold_left (fun acc ev => match ev with EvPartitions (Some ps) => ps | _ => acc end) evs [].
Definition same_set (a b : list text) : Prop := forall x, In x a <-> In x b.
(** an allocator function that works on the sets in question: it does not raise, and what it returns can be asked
    for this member *)
Definition serves (fn : list text -> list text -> res mapping) (name : text) (good : text -> Prop) : Prop :=
  forall ms ps, (forall p, In p ps -> good p) ->
    exists mp, fn ms ps = Ok mp /\ (mp_default mp = true \/ dmem (mp_tab mp) name = true).
(** all partition sets notified consist of good names, and sets have no duplicates *)
Definition good_event (good : text -> Prop) (ev : aevent) : Prop :=
  match ev with EvPartitions (Some ps) => NoDup ps /\ forall p, In p ps -> good p | _ => True end.

(** ** the shared set *)
(** executing the operations one after another *)
Fixpoint after (ops : list sop) (P : text -> Prop) : text -> Prop :=
  match ops with
  | [] => P
  | Add items :: r => after r (fun x => P x \/ In x items)
  | Remove items :: r => after r (fun x => P x /\ ~ In x items)
  end.
(** the operations that took effect, in lock order *)
Definition effective (s : shared) : list (Z * sop) := map fst (filter snd (z_order s)).
Inductive subseq {A} : list A -> list A -> Prop :=
| sub_nil l : subseq [] l
| sub_skip x l1 l2 : subseq l1 l2 -> subseq l1 (x :: l2)
| sub_take x l1 l2 : subseq l1 l2 -> subseq (x :: l1) (x :: l2).
Definition clean_label (l : slabel) : Prop :=
  match l with Call _ (Add items) => forall t, In t items -> clean t | _ => True end.
(** the set that the data of a znode means: nothing at all is the empty set, otherwise it is a JSON array of the items *)
Definition holds (data : text) (P : text -> Prop) : Prop :=
  (data = [] /\ forall x, ~ P x) \/ exists items, json_array items data /\ forall x, In x items <-> P x.

(** ** drain *)
Definition puts {A} (ls : list (dlabel A)) : list A := flat_map (fun l => match l with Put x => [x] | Next => [] end) ls.
