(** JSON arrays of strings, as RFC 8259 has them: what the data of a shared set's znode means (C53, C54). *)
From Coq Require Import ZArith List.
From Verif Require Import PyBase.
Import ListNotations.
Open Scope Z_scope.

(** characters a Python str can have and that are not surrogates *)
Definition scalar (c : Z) : Prop := 0 <= c <= 1114111 /\ ~ (55296 <= c <= 57343).
Definition clean (t : text) : Prop := forall c, In c t -> scalar c.

(** 0-9, a-f, A-F *)
Definition hex_digit (c n : Z) : Prop :=
  (0 <= n <= 9 /\ c = 48 + n) \/ (10 <= n <= 15 /\ c = 97 + (n - 10)) \/ (10 <= n <= 15 /\ c = 65 + (n - 10)).
(** \uXXXX *)
Definition four_hex (n : Z) (s : text) : Prop := exists a b c d w x y z,
  hex_digit a w /\ hex_digit b x /\ hex_digit c y /\ hex_digit d z /\ n = ((w * 16 + x) * 16 + y) * 16 + z /\ s = [92; 117; a; b; c; d].
(** the ways to write a character inside a string *)
Inductive written : Z -> text -> Prop :=
| W_plain c : scalar c -> 32 <= c -> c <> 34 -> c <> 92 -> written c [c]
| W_short c e : In (c, e) [(34, 34); (92, 92); (47, 47); (8, 98); (12, 102); (10, 110); (13, 114); (9, 116)] -> written c [92; e]
| W_hex c s : scalar c -> c < 65536 -> four_hex c s -> written c s
| W_pair c hi lo s1 s2 : scalar c -> 55296 <= hi <= 56319 -> 56320 <= lo <= 57343 -> c = 65536 + (hi - 55296) * 1024 + (lo - 56320) ->
    four_hex hi s1 -> four_hex lo s2 -> written c (s1 ++ s2).
Definition spelled (t body : text) : Prop := exists parts, Forall2 written t parts /\ body = concat parts.
Definition blank (s : text) : Prop := forall c, In c s -> c = 32 \/ c = 9 \/ c = 10 \/ c = 13.
Definition json_string (t s : text) : Prop := exists body w1 w2, spelled t body /\ blank w1 /\ blank w2 /\ s = w1 ++ 34 :: body ++ 34 :: w2.
(** strings with commas between them *)
Inductive json_elems : list text -> text -> Prop :=
| E_one t s : json_string t s -> json_elems [t] s
| E_more t ts s r : json_string t s -> json_elems ts r -> json_elems (t :: ts) (s ++ 44 :: r).
Definition json_array (ts : list text) (s : text) : Prop := exists w1 w2 body, blank w1 /\ blank w2 /\
  s = w1 ++ 91 :: body ++ 93 :: w2 /\ ((ts = [] /\ blank body) \/ json_elems ts body).
