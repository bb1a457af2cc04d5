(** The [struct] module (network byte order) as used by kiel/protocol.
    A format string such as "!hh3si" is a list of tokens; format strings are only ever
    built by concatenation (part.py:47-50, primitives.py:87,206-209), which is list append. *)
From Coq Require Import ZArith List Bool.
From Verif Require Import PyBase.
Import ListNotations.
Open Scope Z_scope.

Inductive tok := Fb | Fh | Fi | Fq | Fs (n : Z).

(** struct.calcsize("!...") per token *)
Definition tok_size (t : tok) : Z :=
  match t with Fb => 1 | Fh => 2 | Fi => 4 | Fq => 8 | Fs n => n end.

Fixpoint calcsize (f : list tok) : Z :=
  match f with [] => 0 | t :: r => tok_size t + calcsize r end.

(** struct.calcsize without the "!" prefix uses native alignment: each item starts at a
    multiple of its own size (x86-64/arm64 C ABI).  Used by messages.py:80. *)
Definition tok_align (t : tok) : Z :=
  match t with Fb => 1 | Fh => 2 | Fi => 4 | Fq => 8 | Fs _ => 1 end.
Definition align_up (o a : Z) : Z := (o + a - 1) / a * a.
Fixpoint calcsize_native_from (o : Z) (f : list tok) : Z :=
  match f with
  | [] => o
  | t :: r => calcsize_native_from (align_up o (tok_align t) + tok_size t) r
  end.
Definition calcsize_native (f : list tok) : Z := calcsize_native_from 0 f.

(** big-endian two's complement *)
Fixpoint be_enc (w : nat) (z : Z) : bytes :=
  match w with
  | O => []
  | S w' => be_enc w' (z / 256) ++ [z mod 256]
  end.

Definition be_dec_u (bs : bytes) : Z := fold_left (fun acc b => acc * 256 + b) bs 0.

Definition sign (w : nat) (u : Z) : Z :=
  let m := 256 ^ Z.of_nat w in if 2 * u <? m then u else u - m.

Definition be_dec (w : nat) (bs : bytes) : Z := sign w (be_dec_u bs).

Definition in_range (w : nat) (z : Z) : bool :=
  let m := 256 ^ Z.of_nat w in (- m <=? 2 * z) && (2 * z <? m).

Definition int_width (t : tok) : nat :=
  match t with Fb => 1 | Fh => 2 | Fi => 4 | Fq => 8 | Fs _ => 0 end.

(** pad or cut to n bytes: the "s" conversion *)
Definition fit (n : Z) (b : bytes) : bytes :=
  firstn (Z.to_nat n) b ++ repeat 0 (Z.to_nat (n - zlen b)).

(** struct.pack of one argument *)
Definition pack1 (t : tok) (v : pyval) : res bytes :=
  match t, v with
  | Fs n, PBytes b => Ok (fit n b)
  | Fs _, _ => Err EStruct
  | _, PInt z => if in_range (int_width t) z then Ok (be_enc (int_width t) z) else Err EStruct
  | _, _ => Err EStruct
  end.

(** struct.pack(fmt, *data): the number of arguments must match *)
Fixpoint pack (f : list tok) (d : list pyval) : res bytes :=
  match f, d with
  | [], [] => Ok []
  | t :: f', v :: d' =>
    b <- pack1 t v ;;
    bs <- pack f' d' ;;
    Ok (b ++ bs)
  | _, _ => Err EStruct
  end.

(** buff[off : off + n] *)
Definition slice (buff : bytes) (off n : Z) : bytes :=
  firstn (Z.to_nat n) (skipn (Z.to_nat off) buff).

(** Struct("!<t>").unpack_from(buff, off)[0] together with Struct.size.
    Simplification: negative offsets (which Python counts from the end) are an error;
    the code starts at 0 and only moves forward.  A negative count for "s" makes
    struct.Struct itself raise struct.error (primitives.py:103). *)
Definition unpack1 (t : tok) (buff : bytes) (off : Z) : res pyval :=
  if (off <? 0) || (tok_size t <? 0) || (zlen buff - off <? tok_size t) then Err EStruct
  else
    let bs := slice buff off (tok_size t) in
    match t with
    | Fs _ => Ok (PBytes bs)
    | _ => Ok (PInt (be_dec (int_width t) bs))
    end.
