(** Vocabulary for C76: a broker that keeps its messages in sets.  Messages that a producer wrote as one compressed set
    stay one; a fetch is answered with whole sets, beginning with the one that holds the offset asked for. *)
From Coq Require Import ZArith String List Bool.
From Verif Require Import PyBase Constants Cluster Consumer SpecConsumer SpecLog.
Import ListNotations.
Open Scope Z_scope.

Section SpecSets.
  Context {V : Type}.
  Variable t : text.
  Variable sets : Z -> list (list (Z * pymsg)).

  (** the messages of a partition *)
  Definition stored (p : Z) : list (Z * pymsg) := concat (sets p).
  (** the sets from the first one on that has a message with the offset or a later one *)
  Fixpoint reaching (o : Z) (ss : list (list (Z * pymsg))) : list (list (Z * pymsg)) :=
    match ss with
    | [] => []
    | s :: r => if forallb (fun om => fst om <? o) s then reaching o r else ss
    end.
  (** as [serves] in SpecLog.v, but in whole sets *)
  Definition serves_sets (rq : request) (r : response) : Prop :=
    match rq, r with
    | RFetch _ _ _ t' asked, PFetch ((t'', parts) :: _) =>
        t'' = t' /\
        (t' = t -> NoDup (map fst parts) /\
          forall p code ms, In (p, (code, ms)) parts -> code <> offset_out_of_range /\
            (code = no_error -> exists o limit n, In (p, (o, limit)) asked /\ ms = concat (firstn n (reaching o (sets p)))))
    | ROffset _ t' _, POffset ((t'', _) :: _) => t'' = t'
    | _, _ => True
    end.
  Definition orderly_sets (s : consumer V) (l : label) : Prop :=
    match l with
    | Call _ (OpConsume t' _) => t' = t -> ~ busy s t
    | Arrive i b (Ok r) => forall rq, waits_for s i b rq -> answers rq r = true -> serves_sets rq r
    | _ => True
    end.
  (** no set holds messages on both sides of an offset *)
  Definition between_sets (p o : Z) : Prop := forall s, In s (sets p) -> (forall om, In om s -> fst om < o) \/ (forall om, In om s -> o <= fst om).
End SpecSets.
