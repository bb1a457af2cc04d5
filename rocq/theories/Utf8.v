(** str.encode("utf-8") and bytes.decode("utf-8") (strict), as used by
    kiel/protocol/primitives.py:83 and :108.  These are CPython built-ins; the
    definitions follow RFC 3629 (no overlong forms, no surrogates, at most
    U+10FFFF), which is what CPython implements. *)
From Coq Require Import ZArith List Bool.
From Verif Require Import PyBase.
Import ListNotations.
Open Scope Z_scope.

Definition is_scalar (c : Z) : bool :=
  ((0 <=? c) && (c <? 55296)) || ((57344 <=? c) && (c <=? 1114111)).

(** A code point to its bytes; None for lone surrogates (UnicodeEncodeError). *)
Definition utf8_enc1 (c : Z) : option bytes :=
  if negb (is_scalar c) then None
  else if c <? 128 then Some [c]
  else if c <? 2048 then Some [192 + c / 64; 128 + c mod 64]
  else if c <? 65536 then Some [224 + c / 4096; 128 + (c / 64) mod 64; 128 + c mod 64]
  else Some [240 + c / 262144; 128 + (c / 4096) mod 64; 128 + (c / 64) mod 64; 128 + c mod 64].

Fixpoint utf8_encode (t : text) : option bytes :=
  match t with
  | [] => Some []
  | c :: r =>
    match utf8_enc1 c, utf8_encode r with
    | Some b, Some br => Some (b ++ br)
    | _, _ => None
    end
  end.

Definition cont (b : Z) : bool := (128 <=? b) && (b <=? 191).

Definition ocons (c : Z) (o : option text) : option text :=
  match o with Some t => Some (c :: t) | None => None end.

(** None models UnicodeDecodeError. *)
Fixpoint utf8_decode (bs : bytes) : option text :=
  match bs with
  | [] => Some []
  | b0 :: r0 =>
    if b0 <? 128 then ocons b0 (utf8_decode r0)
    else match r0 with
    | [] => None
    | b1 :: r1 =>
      if (194 <=? b0) && (b0 <=? 223) && cont b1 then
        ocons ((b0 - 192) * 64 + (b1 - 128)) (utf8_decode r1)
      else match r1 with
      | [] => None
      | b2 :: r2 =>
        if (224 <=? b0) && (b0 <=? 239) && cont b1 && cont b2 then
          let c := (b0 - 224) * 4096 + (b1 - 128) * 64 + (b2 - 128) in
          if (2048 <=? c) && is_scalar c then ocons c (utf8_decode r2) else None
        else match r2 with
        | [] => None
        | b3 :: r3 =>
          if (240 <=? b0) && (b0 <=? 244) && cont b1 && cont b2 && cont b3 then
            let c := (b0 - 240) * 262144 + (b1 - 128) * 4096 + (b2 - 128) * 64 + (b3 - 128) in
            if (65536 <=? c) && is_scalar c then ocons c (utf8_decode r3) else None
          else None
        end
      end
    end
  end.
