(** kiel/protocol/primitives.py: scalar and variable-length primitives.
    [render] returns the struct format (list of tokens) and the list of arguments. *)
From Coq Require Import ZArith List Bool.
From Verif Require Import PyBase Utf8 Struct.
Import ListNotations.
Open Scope Z_scope.

Definition rendered := (list tok * list pyval)%type.

Inductive prim := Int8 | Int16 | Int32 | Int64 | String_ | Bytes_.

(** fmt class attributes, primitives.py:121,128,135,142 *)
Definition int_fmt (p : prim) : tok :=
  match p with Int8 => Fb | Int16 => Fh | Int32 => Fi | Int64 => Fq | String_ => Fh | Bytes_ => Fi end.

(** size_primitive class attributes: String uses Int16 (:149), Bytes uses Int32 (:159).
    [int_fmt] gives that token for the variable primitives. *)

(** VariablePrimitive.render, primitives.py:60-89 *)
Definition var_render (sz : tok) (v : pyval) : res rendered :=
  match v with
  | PNone => Ok ([sz], [PInt (-1)])
  | PBytes b => Ok ([sz; Fs (zlen b)], [PInt (zlen b); PBytes b])
  | _ =>
    t <- py_str v ;;
    match utf8_encode t with
    | None => Err EUnicodeEnc
    | Some b => Ok ([sz; Fs (zlen b)], [PInt (zlen b); PBytes b])
    end
  end.

(** Primitive.render, primitives.py:20-27, and the override above *)
Definition prim_render (p : prim) (v : pyval) : res rendered :=
  match p with
  | String_ | Bytes_ => var_render (int_fmt p) v
  | _ => Ok ([int_fmt p], [v])
  end.

(** Primitive.parse, primitives.py:29-42 *)
Definition int_parse (t : tok) (buff : bytes) (off : Z) : res (pyval * Z) :=
  v <- unpack1 t buff off ;; Ok (v, off + tok_size t).

(** value.decode("utf-8") if it decodes, else the bytes, primitives.py:107-110 *)
Definition maybe_decode (b : bytes) : pyval :=
  match utf8_decode b with Some t => PStr t | None => PBytes b end.

(** VariablePrimitive.parse, primitives.py:91-114 *)
Definition var_parse (sz : tok) (buff : bytes) (off : Z) : res (pyval * Z) :=
  '(s, off1) <- int_parse sz buff off ;;
  match s with
  | PInt n =>
    if n =? -1 then Ok (PNone, off1)
    else
      v <- unpack1 (Fs n) buff off1 ;;
      match v with
      | PBytes b => Ok (maybe_decode b, off1 + n)
      | _ => Err EType
      end
  | _ => Err EType
  end.

Definition prim_parse (p : prim) (buff : bytes) (off : Z) : res (pyval * Z) :=
  match p with
  | String_ | Bytes_ => var_parse (int_fmt p) buff off
  | _ => int_parse (int_fmt p) buff off
  end.
