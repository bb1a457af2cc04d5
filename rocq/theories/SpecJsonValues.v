(** Property C68: JSON documents (RFC 8259), and equality of Python values. *)
From Coq Require Import ZArith String List Permutation.
From Verif Require Import PyBase SpecJson JsonValues.
Import ListNotations.
Open Scope Z_scope.

(** ** numbers *)
Definition digit (c : Z) : Prop := 48 <= c <= 57.
Definition digits_of (s : text) : Prop := s <> [] /\ Forall digit s.
Definition number (s : text) : Z := fold_left (fun a c => 10 * a + (c - 48)) s 0.
(** no leading zeros *)
Definition natural (s : text) : Prop := digits_of s /\ (s = [48] \/ exists c r, s = c :: r /\ c <> 48).
Inductive integer : Z -> text -> Prop :=
| I_pos s : natural s -> integer (number s) s
| I_neg s : natural s -> integer (- number s) (45 :: s).
Definition fraction (s : text) : Prop := exists d, digits_of d /\ s = 46 :: d.
Definition exponent (s : text) : Prop := exists e sg d, (e = 101 \/ e = 69) /\ (sg = [] \/ sg = [43] \/ sg = [45]) /\ digits_of d /\ s = e :: sg ++ d.
(** a number with a fraction, an exponent or both *)
Definition floating (s : text) : Prop := exists z i f e, integer z i /\ s = i ++ f ++ e /\
  ((fraction f /\ e = []) \/ (f = [] /\ exponent e) \/ (fraction f /\ exponent e)).

(** ** documents *)
(** floats RFC 8259 has no number for, by their repr(), and the names Python adds to the grammar for them *)
Definition float_names : list (text * text) := [(txt "nan", txt "NaN"); (txt "inf", txt "Infinity"); (txt "-inf", txt "-Infinity")].
Definition quoted (t s : text) : Prop := exists body, spelled t body /\ s = 34 :: body ++ [34].
Section Documents.
  (** repr(float(s)) *)
  Variable float_repr : text -> text.
  Inductive json_value : jv -> text -> Prop :=
  | V_null : json_value JNull (txt "null")
  | V_true : json_value (JBool true) (txt "true")
  | V_false : json_value (JBool false) (txt "false")
  | V_int z s : integer z s -> json_value (JInt z) s
  | V_float s : floating s -> json_value (JFloat (float_repr s)) s
  | V_str t s : quoted t s -> json_value (JStr t) s
  | V_no_list b : blank b -> json_value (JList []) (91 :: b ++ [93])
  | V_list vs s : json_values vs s -> json_value (JList vs) (91 :: s ++ [93])
  | V_no_dict b : blank b -> json_value (JDict []) (123 :: b ++ [125])
  | V_dict d s : NoDup (map fst d) -> json_members d s -> json_value (JDict d) (123 :: s ++ [125])
  | V_name r w : In (r, w) float_names -> json_value (JFloat r) w
  with json_values : list jv -> text -> Prop :=
  | VS_one v s w1 w2 : json_value v s -> blank w1 -> blank w2 -> json_values [v] (w1 ++ s ++ w2)
  | VS_more v vs s r w1 w2 : json_value v s -> blank w1 -> blank w2 -> json_values vs r -> json_values (v :: vs) ((w1 ++ s ++ w2) ++ 44 :: r)
  with json_members : list (text * jv) -> text -> Prop :=
  | MS_one k v m : json_member k v m -> json_members [(k, v)] m
  | MS_more k v d m r : json_member k v m -> json_members d r -> json_members ((k, v) :: d) (m ++ 44 :: r)
  with json_member : text -> jv -> text -> Prop :=
  | MS k ks v s w1 w2 w3 w4 : quoted k ks -> json_value v s -> blank w1 -> blank w2 -> blank w3 -> blank w4 ->
      json_member k v ((w1 ++ ks ++ w2) ++ 58 :: w3 ++ s ++ w4).
  Definition json_text (v : jv) (s : text) : Prop := exists w1 body w2, blank w1 /\ blank w2 /\ json_value v body /\ s = w1 ++ body ++ w2.

  (** what can be said in JSON: strings without lone surrogates; floats that repr() writes with a point or an exponent and
      which float() reads back, NaN and the infinities; dicts have one value for a key *)
  Inductive sayable : jv -> Prop :=
  | Y_null : sayable JNull
  | Y_bool b : sayable (JBool b)
  | Y_int z : sayable (JInt z)
  | Y_float r : floating r -> float_repr r = r -> sayable (JFloat r)
  | Y_str t : clean t -> sayable (JStr t)
  | Y_list l : Forall sayable l -> sayable (JList l)
  | Y_dict d : NoDup (map fst d) -> Forall (fun kv => clean (fst kv) /\ sayable (snd kv)) d -> sayable (JDict d)
  | Y_name r w : In (r, w) float_names -> sayable (JFloat r).
End Documents.

(** == of Python: the order of a dict's items does not matter; except that here NaN, too, is equal to itself *)
Inductive equal : jv -> jv -> Prop :=
| Q_null : equal JNull JNull
| Q_bool b : equal (JBool b) (JBool b)
| Q_int z : equal (JInt z) (JInt z)
| Q_float r : equal (JFloat r) (JFloat r)
| Q_str t : equal (JStr t) (JStr t)
| Q_list l1 l2 : Forall2 equal l1 l2 -> equal (JList l1) (JList l2)
| Q_dict d1 d2 d : Permutation d d2 -> Forall2 (fun a b => fst a = fst b /\ equal (snd a) (snd b)) d1 d -> equal (JDict d1) (JDict d2).

(** ** the grammar of RFC 8259, whatever a document means, and the three names for floats that Python adds to it *)
Inductive string_part : text -> Prop :=
| SP_plain c : 32 <= c -> c <> 34 -> c <> 92 -> string_part [c]
| SP_short e : In e [34; 92; 47; 98; 102; 110; 114; 116] -> string_part [92; e]
| SP_hex n s : four_hex n s -> string_part s.
Definition is_string (s : text) : Prop := exists parts, Forall string_part parts /\ s = 34 :: concat parts ++ [34].
Inductive is_value : text -> Prop :=
| G_word w : In w [txt "null"; txt "true"; txt "false"] -> is_value w
| G_name w : In w [txt "NaN"; txt "Infinity"; txt "-Infinity"] -> is_value w
| G_int z s : integer z s -> is_value s
| G_float s : floating s -> is_value s
| G_str s : is_string s -> is_value s
| G_no_list b : blank b -> is_value (91 :: b ++ [93])
| G_list s : is_values s -> is_value (91 :: s ++ [93])
| G_no_dict b : blank b -> is_value (123 :: b ++ [125])
| G_dict s : is_members s -> is_value (123 :: s ++ [125])
with is_values : text -> Prop :=
| GS_one s w1 w2 : is_value s -> blank w1 -> blank w2 -> is_values (w1 ++ s ++ w2)
| GS_more s r w1 w2 : is_value s -> blank w1 -> blank w2 -> is_values r -> is_values ((w1 ++ s ++ w2) ++ 44 :: r)
with is_members : text -> Prop :=
| GM_one m : is_member m -> is_members m
| GM_more m r : is_member m -> is_members r -> is_members (m ++ 44 :: r)
with is_member : text -> Prop :=
| GM ks s w1 w2 w3 w4 : is_string ks -> is_value s -> blank w1 -> blank w2 -> blank w3 -> blank w4 -> is_member ((w1 ++ ks ++ w2) ++ 58 :: w3 ++ s ++ w4).
Definition is_json (s : text) : Prop := exists w1 body w2, blank w1 /\ blank w2 /\ is_value body /\ s = w1 ++ body ++ w2.
