(** kiel/protocol/part.py and Array: a generic interpreter for the declared wire layouts.
    A protocol class is a value of type [ty]. *)
From Coq Require Import ZArith String List Bool.
From Verif Require Import PyBase Utf8 Struct Primitives Messages.
Import ListNotations.
Open Scope Z_scope.

Inductive ty :=
| TPrim (p : prim)
| TArray (item : ty)
| TPart (fields : list (string * ty))
| TMsgSet.

(** getattr(self, name, None), part.py:41,43 *)
Definition attr (attrs : list (string * pyval)) (name : string) : pyval :=
  match dget attrs name with Some v => v | None => PNone end.

(** Iterating over an array value, primitives.py:192-199: None counts as empty; str and bytes are
    iterable too; anything else has no len() (TypeError). *)
Definition array_items (v : pyval) : res (list pyval) :=
  match v with
  | PNone => Ok []
  | PList vs => Ok vs
  | PStr t => Ok (map (fun c => PStr [c]) t)
  | PBytes b => Ok (map PInt b)
  | _ => Err EType
  end.

Fixpoint render_items (f : pyval -> res rendered) (vs : list pyval) : res rendered :=
  match vs with
  | [] => Ok ([], [])
  | v :: r =>
    '(a, d) <- f v ;;
    '(a', d') <- render_items f r ;;
    Ok (a ++ a', d ++ d')
  end.

(** Part.render (part.py:23-50), Array.render (primitives.py:184-209), MessageSet.render.
    Simplification: an object stored in a part field is taken to be an instance of the declared
    class; a value that is not an object has no render() (AttributeError). *)
Fixpoint render (t : ty) (v : pyval) : res rendered :=
  match t with
  | TPrim p => prim_render p v
  | TArray it =>
    vs <- array_items v ;;
    '(f, d) <- render_items (render it) vs ;;
    Ok (Fi :: f, PInt (zlen vs) :: d)
  | TPart fs =>
    match v with
    | PObj attrs =>
      (fix go (fs : list (string * ty)) : res rendered :=
         match fs with
         | [] => Ok ([], [])
         | (name, t') :: r =>
           '(f, d) <- render t' (attr attrs name) ;;
           '(f', d') <- go r ;;
           Ok (f ++ f', d ++ d')
         end) fs
    | _ => Err EAttr
    end
  | TMsgSet =>
    match v with
    | PMsgSet ms => ms_render ms
    | _ => Err EAttr
    end
  end.

(** for _ in range(count), with an early exit on exceptions *)
Fixpoint iterP {S} (p : positive) (f : S -> res S) (s : S) : res S :=
  match p with
  | xH => f s
  | xO p' => s1 <- iterP p' f s ;; iterP p' f s1
  | xI p' => s0 <- f s ;; s1 <- iterP p' f s0 ;; iterP p' f s1
  end.

(** loop body of Array.parse, primitives.py:222-226 (values collected in reverse) *)
Definition array_step (pf : Z -> res (pyval * Z)) (s : list pyval * Z) : res (list pyval * Z) :=
  '(v, o) <- pf (snd s) ;; Ok (v :: fst s, o).

(** Part.parse (part.py:52-68), Array.parse (primitives.py:211-228), MessageSet.parse *)
Fixpoint parse (C : codec) (depth : nat) (t : ty) (buff : bytes) (off : Z) : res (pyval * Z) :=
  match t with
  | TPrim p => prim_parse p buff off
  | TArray it =>
    '(c, o1) <- prim_parse Int32 buff off ;;
    match c with
    | PInt (Zpos n) =>
      '(vs, o2) <- iterP n (array_step (parse C depth it buff)) ([], o1) ;;
      Ok (PList (rev vs), o2)
    | PInt _ => Ok (PList [], o1)
    | _ => Err EType
    end
  | TPart fs =>
    '(attrs, o) <-
      (fix go (fs : list (string * ty)) (off : Z) : res (list (string * pyval) * Z) :=
         match fs with
         | [] => Ok ([], off)
         | (name, t') :: r =>
           '(v, o1) <- parse C depth t' buff off ;;
           '(vs, o2) <- go r o1 ;;
           Ok ((name, v) :: vs, o2)
         end) fs off ;;
    Ok (PObj attrs, o)
  | TMsgSet =>
    '(ms, o) <- ms_parse C depth buff off ;;
    Ok (PMsgSet ms, o)
  end.

(** Field loops under their own names (equal to the local fixpoints above by computation). *)
Fixpoint render_fields (fs : list (string * ty)) (attrs : list (string * pyval)) : res rendered :=
  match fs with
  | [] => Ok ([], [])
  | (name, t') :: r =>
    '(f, d) <- render t' (attr attrs name) ;;
    '(f', d') <- render_fields r attrs ;;
    Ok (f ++ f', d ++ d')
  end.

Fixpoint parse_fields (C : codec) (depth : nat) (fs : list (string * ty)) (buff : bytes) (off : Z)
  : res (list (string * pyval) * Z) :=
  match fs with
  | [] => Ok ([], off)
  | (name, t') :: r =>
    '(v, o1) <- parse C depth t' buff off ;;
    '(vs, o2) <- parse_fields C depth r buff o1 ;;
    Ok ((name, v) :: vs, o2)
  end.

(** Rendering to bytes: struct.pack("!" + fmt, *data), as done at the top level. *)
Definition to_bytes (t : ty) (v : pyval) : res bytes :=
  '(f, d) <- render t v ;; pack f d.

(** Response.deserialize, response.py:13-24 *)
Definition deserialize (C : codec) (depth : nat) (t : ty) (raw : bytes) : res pyval :=
  '(v, _) <- parse C depth t raw 0 ;; Ok v.
