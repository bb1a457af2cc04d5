(** Model of kiel/iterables.py (lines 3-28): drain(). *)
From Coq Require Import ZArith List Bool Lia.
From Verif Require Import PyBase.
Import ListNotations.

(** the containers drain() is written for.  Which one it is decides the method used to take an item
    (lines 14-22): a deque has popleft(), a dict has popitem(), lists and sets have pop(). *)
Inductive kind := KList | KDeque | KDict | KSet.

Section Drain.
  Context {A : Type}.
  (** set.pop() removes an arbitrary element: [choose] picks its index *)
  Variable choose : list A -> nat.

  Fixpoint remove_nth (n : nat) (l : list A) : option (A * list A) :=
    match l, n with
    | [], _ => None
    | x :: r, O => Some (x, r)
    | x :: r, S m => match remove_nth m r with Some (y, r') => Some (y, x :: r') | None => None end
    end.
  (** next_item(coll), lines 14-22; [None]: IndexError or KeyError, caught on line 27.  The contents are a list:
      items of a list or deque from left to right, of a dict in insertion order (popitem() takes the newest,
      Python 3.7), of a set in any order. *)
  Definition next_item (k : kind) (c : list A) : option (A * list A) :=
    match k with
    | KDeque => match c with [] => None | x :: r => Some (x, r) end
    | KList | KDict => match rev c with [] => None | x :: r => Some (x, rev r) end
    | KSet => match c with [] => None | _ => remove_nth (Nat.modulo (choose c) (List.length c)) c end
    end.

  (** an iteration over drain(c): the generator is asked for an item, or the loop body (or anything else running
      meanwhile) puts an item into the container; after the generator returned, asking again gives nothing *)
  Inductive dlabel := Next | Put (x : A).
  Record dstate := D { d_coll : list A; d_out : list A; d_stopped : bool }.
  (** append(x) for list and deque, d[k] = v for a new key, add(x) *)
  Definition dstep (k : kind) (s : dstate) (l : dlabel) : dstate :=
    match l with
    | Put x => D (d_coll s ++ [x]) (d_out s) (d_stopped s)
    | Next =>
        if d_stopped s then s
        else match next_item k (d_coll s) with
             | None => D (d_coll s) (d_out s) true
             | Some (x, c) => D c (d_out s ++ [x]) false
             end
    end.
  Definition drun (k : kind) (ls : list dlabel) (s : dstate) : dstate := fold_left (dstep k) ls s.
  Definition dinit (c : list A) : dstate := D c [] false.
End Drain.
Arguments dlabel : clear implicits.
Arguments dstate : clear implicits.
