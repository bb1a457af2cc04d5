(** Python building blocks shared by all model files: exceptions as values,
    text / byte strings, insertion ordered dictionaries, dynamic values.
    Nothing in this file is specific to kiel; it models the part of the Python
    language the code in /repo/kiel is written in. *)
From Coq Require Import ZArith List Bool String Ascii Lia.
Import ListNotations.
Open Scope Z_scope.

(** Exceptions that code in /repo can raise or see (kiel/exc.py:1-42 for the
    project's own; the others are Python / library exceptions).  The message
    text is not modelled. *)
Inductive exn :=
| EStruct        (* struct.error *)
| EType          (* TypeError *)
| EValue         (* ValueError *)
| EKey           (* KeyError *)
| EIndex         (* IndexError *)
| EAttr          (* AttributeError *)
| EUnicodeEnc    (* UnicodeEncodeError *)
| ERecursion     (* RecursionError *)
| ERuntime       (* RuntimeError, e.g. optional library missing *)
| EUnbound       (* UnboundLocalError *)
| EBrokerConn    (* kiel.exc.BrokerConnectionError *)
| EStreamClosed  (* tornado.iostream.StreamClosedError *)
| ENoBrokers     (* kiel.exc.NoBrokersError *)
| ENoOffsets     (* kiel.exc.NoOffsetsError *)
| EUnhandled     (* kiel.exc.UnhandledResponseError *)
| EExit          (* kazoo / interpreter level, anything else *)
| EOther (n : Z).

Inductive res (A : Type) :=
| Ok (a : A)
| Err (e : exn).
Arguments Ok {A} a.
Arguments Err {A} e.

Definition bind {A B} (r : res A) (f : A -> res B) : res B :=
  match r with Ok a => f a | Err e => Err e end.

Declare Scope res_scope.
Delimit Scope res_scope with res.
Notation "x <- e ;; k" := (bind e (fun x => k))
  (at level 61, e at next level, right associativity) : res_scope.
Notation "' p <- e ;; k" := (bind e (fun p => k))
  (at level 61, p pattern, e at next level, right associativity) : res_scope.
Open Scope res_scope.

(** Byte strings are lists of integers 0..255; text is a list of code points. *)
Definition bytes := list Z.
Definition text := list Z.

Definition is_byte (b : Z) : Prop := 0 <= b < 256.
Definition byte_ok (b : Z) : bool := (0 <=? b) && (b <? 256).

(** len() *)
Definition zlen {A} (l : list A) : Z := Z.of_nat (List.length l).

(** Literal helper: ASCII string literal as text. *)
Fixpoint txt (s : string) : text :=
  match s with
  | EmptyString => []
  | String c r => Z.of_nat (nat_of_ascii c) :: txt r
  end.

(** Decidable equality used for dictionary keys. *)
Class EqB (K : Type) := {
  eqb : K -> K -> bool;
  eqb_spec : forall x y, eqb x y = true <-> x = y
}.

Lemma eqb_true {K} `{EqB K} (x y : K) : eqb x y = true -> x = y.
Proof. apply eqb_spec. Qed.

Lemma eqb_refl {K} `{EqB K} (x : K) : eqb x x = true.
Proof. now apply eqb_spec. Qed.

Global Program Instance EqB_Z : EqB Z := {| eqb := Z.eqb |}.
Next Obligation. apply Z.eqb_eq. Qed.

Global Program Instance EqB_bool : EqB bool := {| eqb := Bool.eqb |}.
Next Obligation. apply Bool.eqb_true_iff. Qed.

Global Program Instance EqB_string : EqB string := {| eqb := String.eqb |}.
Next Obligation. apply String.eqb_eq. Qed.

Fixpoint list_eqb {K} `{EqB K} (a b : list K) : bool :=
  match a, b with
  | [], [] => true
  | x :: a', y :: b' => eqb x y && list_eqb a' b'
  | _, _ => false
  end.

Lemma list_eqb_spec {K} `{EqB K} : forall a b : list K, list_eqb a b = true <-> a = b.
Proof.
  induction a as [|x a IH]; destruct b as [|y b]; simpl; split; intro E; try easy.
  - apply andb_true_iff in E as [E1 E2]. apply eqb_true in E1. apply IH in E2. subst; reflexivity.
  - injection E as -> ->. apply andb_true_iff; split; [apply eqb_refl | now apply IH].
Qed.

Global Instance EqB_list {K} `{EqB K} : EqB (list K) :=
  {| eqb := list_eqb; eqb_spec := list_eqb_spec |}.

Global Program Instance EqB_prod {A B} `{EqB A} `{EqB B} : EqB (A * B) :=
  {| eqb := fun x y => eqb (fst x) (fst y) && eqb (snd x) (snd y) |}.
Next Obligation.
  destruct H as [ea ha], H0 as [eb hb]; simpl. rewrite andb_true_iff, ha, hb.
  split; [intros [-> ->]; reflexivity | intros E; injection E as -> ->; auto].
Qed.

Definition option_eqb {A} `{EqB A} (x y : option A) : bool :=
  match x, y with
  | None, None => true
  | Some a, Some b => eqb a b
  | _, _ => false
  end.

Lemma option_eqb_spec {A} `{EqB A} : forall x y : option A, option_eqb x y = true <-> x = y.
Proof.
  intros [a|] [b|]; simpl; split; intro E; try discriminate; try reflexivity.
  - apply eqb_true in E. now subst.
  - injection E as ->. apply eqb_refl.
Qed.

Global Instance EqB_option {A} `{EqB A} : EqB (option A) :=
  {| eqb := option_eqb; eqb_spec := option_eqb_spec |}.

(** Python [dict]: an association list in insertion order.  Assigning an
    existing key keeps its place; a new key is appended (CPython >= 3.6, and
    the language from 3.7). *)
Definition dict (K V : Type) := list (K * V).

Section Dict.
  Context {K V : Type} `{EqB K}.

  Fixpoint dget (d : dict K V) (k : K) : option V :=
    match d with
    | [] => None
    | (k', v) :: r => if eqb k' k then Some v else dget r k
    end.

  Fixpoint dset (d : dict K V) (k : K) (v : V) : dict K V :=
    match d with
    | [] => [(k, v)]
    | (k', v') :: r => if eqb k' k then (k', v) :: r else (k', v') :: dset r k v
    end.

  Fixpoint ddel (d : dict K V) (k : K) : dict K V :=
    match d with
    | [] => []
    | (k', v') :: r => if eqb k' k then r else (k', v') :: ddel r k
    end.

  Definition dmem (d : dict K V) (k : K) : bool :=
    match dget d k with Some _ => true | None => false end.

  Definition dkeys (d : dict K V) : list K := map fst d.

  (** d[k]: KeyError when absent *)
  Definition dindex (d : dict K V) (k : K) : res V :=
    match dget d k with Some v => Ok v | None => Err EKey end.

  (** collections.defaultdict access d[k]: inserts the default when absent *)
  Definition ddefault (dflt : V) (d : dict K V) (k : K) : V * dict K V :=
    match dget d k with Some v => (v, d) | None => (dflt, dset d k dflt) end.
End Dict.

(** Python set, as a duplicate free list (iteration order unspecified; wherever
    the code iterates over a set the model says so). *)
Section SetOps.
  Context {K : Type} `{EqB K}.
  Fixpoint smem (s : list K) (k : K) : bool :=
    match s with [] => false | x :: r => eqb x k || smem r k end.
  Definition sadd (s : list K) (k : K) : list K := if smem s k then s else s ++ [k].
  Definition sdiscard (s : list K) (k : K) : list K := filter (fun x => negb (eqb x k)) s.
End SetOps.

(** Dynamic values that flow through the protocol layer. *)
Inductive pyval :=
| PNone
| PInt (z : Z)
| PFloat (repr : text)           (* a float; only its str() matters here *)
| PStr (t : text)
| PBytes (b : bytes)
| PList (vs : list pyval)
| PObj (attrs : list (string * pyval))  (* a Part instance: its attributes *)
| PMsgSet (ms : list (pyval * pymsg))   (* a MessageSet instance: (offset, message) *)
with pymsg :=
| Msg (crc magic attributes key value : pyval). (* a Message instance *)

Definition m_crc (m : pymsg) := let (c, _, _, _, _) := m in c.
Definition m_magic (m : pymsg) := let (_, g, _, _, _) := m in g.
Definition m_attributes (m : pymsg) := let (_, _, a, _, _) := m in a.
Definition m_key (m : pymsg) := let (_, _, _, k, _) := m in k.
Definition m_value (m : pymsg) := let (_, _, _, _, v) := m in v.

(** Decimal rendering of an integer, [str(int)].  [dec_pos] peels digits; the fuel is the
    binary size, which bounds the number of decimal digits (PyBaseLemmas.dec_fuel_ok). *)
Fixpoint dec_digits (fuel : nat) (n : Z) (acc : text) : text :=
  match fuel with
  | O => acc
  | S f => let acc' := (48 + n mod 10) :: acc in
           if n / 10 =? 0 then acc' else dec_digits f (n / 10) acc'
  end.
Definition dec_fuel (n : Z) : nat := S (Z.to_nat (Z.log2 (Z.abs n))).
Definition str_of_int (n : Z) : text :=
  if n <? 0 then 45 :: dec_digits (dec_fuel n) (- n) [] else dec_digits (dec_fuel n) n [].

(** [str(value)] for the values that can reach it.  Simplification: str() of
    None, lists and objects is not modelled (EOther 1); kiel never stringifies
    those on the wire. *)
Definition py_str (v : pyval) : res text :=
  match v with
  | PInt z => Ok (str_of_int z)
  | PFloat r => Ok r
  | PStr t => Ok t
  | _ => Err (EOther 1)
  end.
