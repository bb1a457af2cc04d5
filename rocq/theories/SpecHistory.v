(** Property C60: the position of a consumer as a function of the answers it got. *)
From Coq Require Import ZArith String List Bool.
From Verif Require Import PyBase Constants Cluster Zookeeper Consumer SpecConsumer.
Import ListNotations.
Open Scope Z_scope.

(** the part of a list before the first element that is at fault *)
Fixpoint before {A} (fault : A -> bool) (l : list A) : list A :=
  match l with
  | [] => []
  | x :: l' => if fault x then [] else x :: before fault l'
  end.
Definition last_of (l : list Z) (old : Z) : Z := match rev l with o :: _ => o | [] => old end.
Definition unknown_code (code : Z) : bool := match error_name code with Ok _ => false | Err _ => true end.

Section SpecHistory.
  Context {V : Type}.
  Variable cfg : config V.

  (** What an answer does to the position of partition [p] of topic [t], which was [old].  Parts of an answer are handled
      in order, until one raises: a code the library does not know; and in lookups any other code that is neither success
      nor retriable, or success without an offset.
      A fetch answer puts the position one past the last readable message; an offset answer of a SingleConsumer puts it
      at the first offset listed, unless negative; an offset-fetch answer of a GroupedConsumer at the committed offset. *)
  Definition position_after (t : text) (p : Z) (r : response) (old : Z) : Z :=
    match r with
    | PFetch ((t', parts) :: _) =>
        if eqb t' t then one_past_last (accepted cfg (before (fun part => unknown_code (fst (snd part))) parts) p) old else old
    | POffset ((t', parts) :: _) =>
        if eqb t' t then
          last_of (flat_map (fun part => match snd part with (code, o :: _) => if (fst part =? p) && (code =? no_error) && (0 <=? o) then [o] else [] | _ => [] end)
            (before (fun part => match snd part with (code, offs) => if code =? no_error then match offs with [] => true | _ => false end else negb (is_retriable code) end) parts)) old
        else old
    | POffsetFetch ((t', parts) :: _) =>
        if eqb t' t then
          last_of (flat_map (fun part => if (fst part =? p) && (fst (snd part) =? no_error) then [snd (snd part)] else [])
            (before (fun part => negb ((fst (snd part) =? no_error) || is_retriable (fst (snd part)))) parts)) old
        else old
    | _ => old
    end.

  (** the answers the calls of a consumer take during a run, in order *)
  Definition answered (s : consumer V) (l : label) : list response := match l with Arrive i _ _ => takes s i l | _ => [] end.
  Fixpoint history (ls : list label) (s : consumer V) : list response :=
    match ls with
    | [] => []
    | l :: ls' => answered s l ++ history ls' (cstep cfg s l)
    end.
  Definition replay (t : text) (p : Z) (rs : list response) (old : Z) : Z := fold_left (fun o r => position_after t p r o) rs old.
End SpecHistory.
