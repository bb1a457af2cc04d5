(** The JSON encoding SharedSet uses (kiel/zookeeper/shared_set.py:84-94): json.dumps of a list of strings and
    json.loads, from Python's json package (json/encoder.py py_encode_basestring_ascii and json/decoder.py
    py_scanstring).  Simplification: json.loads is modelled for arrays of strings; every other document is an
    error (EValue), although json.loads accepts them. *)
From Coq Require Import ZArith List Bool Lia.
From Verif Require Import PyBase.
Import ListNotations.
Open Scope Z_scope.

(** '\\u{0:04x}' *)
Definition hexd (n : Z) : Z := if n <? 10 then 48 + n else 87 + n.
Definition hex4 (n : Z) : text := [hexd (n / 4096 mod 16); hexd (n / 256 mod 16); hexd (n / 16 mod 16); hexd (n mod 16)].
Definition u_escape (n : Z) : text := 92 :: 117 :: hex4 n.
(** ESCAPE_DCT; everything but printable ASCII is escaped (ESCAPE_ASCII) *)
Definition jchar (c : Z) : text :=
  if c =? 92 then [92; 92]
  else if c =? 34 then [92; 34]
  else if c =? 8 then [92; 98]
  else if c =? 12 then [92; 102]
  else if c =? 10 then [92; 110]
  else if c =? 13 then [92; 114]
  else if c =? 9 then [92; 116]
  else if (32 <=? c) && (c <=? 126) then [c]
  else if c <? 65536 then u_escape c
  else u_escape (55296 + (c - 65536) / 1024 mod 1024) ++ u_escape (56320 + (c - 65536) mod 1024).
Definition jstring (t : text) : text := 34 :: flat_map jchar t ++ [34].
Fixpoint jitems (ts : list text) : text :=
  match ts with
  | [] => []
  | [t] => jstring t
  | t :: r => jstring t ++ [44; 32] ++ jitems r
  end.
(** json.dumps(list) *)
Definition json_dumps (ts : list text) : text := 91 :: jitems ts ++ [93].

Definition unhex (c : Z) : option Z :=
  if (48 <=? c) && (c <=? 57) then Some (c - 48)
  else if (97 <=? c) && (c <=? 102) then Some (c - 87)
  else if (65 <=? c) && (c <=? 70) then Some (c - 55)
  else None.
(** the rest after an expected character *)
Definition eat (c : Z) (s : text) : option text :=
  match s with x :: r => if x =? c then Some r else None | [] => None end.
(** four hex digits *)
Definition take_hex (s : text) : option (Z * text) :=
  match s with
  | a :: b :: c :: d :: r =>
      match unhex a, unhex b, unhex c, unhex d with
      | Some a, Some b, Some c, Some d => Some (a * 4096 + b * 256 + c * 16 + d, r)
      | _, _, _, _ => None
      end
  | _ => None
  end.
(** the escapes after a backslash (BACKSLASH) *)
Definition unescape (c : Z) : option Z :=
  if c =? 34 then Some 34 else if c =? 92 then Some 92 else if c =? 47 then Some 47
  else if c =? 98 then Some 8 else if c =? 102 then Some 12 else if c =? 110 then Some 10
  else if c =? 114 then Some 13 else if c =? 116 then Some 9 else None.
(** one character of a string: [None] error; [Some (None, rest)] end of string *)
Definition scan_char (s : text) : option (option Z * text) :=
  match s with
  | [] => None
  | c :: r =>
      if c =? 34 then Some (None, r)
      else if c =? 92 then
        match r with
        | [] => None
        | e :: r' =>
            if e =? 117 then
              match take_hex r' with
              | None => None
              | Some (u, r1) =>
                  if (55296 <=? u) && (u <=? 56319) then
                    match match eat 92 r1 with Some r2 => eat 117 r2 | None => None end with
                    | Some r2 =>
                        match take_hex r2 with
                        | None => None
                        | Some (v, r3) =>
                            if (56320 <=? v) && (v <=? 57343)
                            then Some (Some (65536 + (u - 55296) * 1024 + (v - 56320)), r3)
                            else Some (Some u, r1)
                        end
                    | None => Some (Some u, r1)
                    end
                  else Some (Some u, r1)
              end
            else match unescape e with Some x => Some (Some x, r') | None => None end
        end
      else if c <? 32 then None
      else Some (Some c, r)
  end.
Fixpoint scan_string (fuel : nat) (s : text) : option (text * text) :=
  match fuel with
  | O => None
  | S f =>
      match scan_char s with
      | None => None
      | Some (None, r) => Some ([], r)
      | Some (Some c, r) => match scan_string f r with Some (t, r') => Some (c :: t, r') | None => None end
      end
  end.
Fixpoint skip_ws (s : text) : text :=
  match s with
  | c :: r => if (c =? 32) || (c =? 9) || (c =? 10) || (c =? 13) then skip_ws r else s
  | [] => []
  end.
(** the items after '[' or ',' *)
Fixpoint scan_items (fuel : nat) (s : text) : option (list text * text) :=
  match fuel with
  | O => None
  | S f =>
      match eat 34 (skip_ws s) with
      | None => None
      | Some r =>
          match scan_string (S (length r)) r with
          | None => None
          | Some (t, r1) =>
              match eat 44 (skip_ws r1), eat 93 (skip_ws r1) with
              | Some r2, _ => match scan_items f r2 with Some (ts, r3) => Some (t :: ts, r3) | None => None end
              | None, Some r2 => Some ([t], r2)
              | None, None => None
              end
          end
      end
  end.
Definition json_loads (s : text) : res (list text) :=
  match eat 91 (skip_ws s) with
  | None => Err EValue
  | Some r =>
      match match eat 93 (skip_ws r) with Some r1 => Some ([], r1) | None => scan_items (S (length r)) r end with
      | None => Err EValue
      | Some (ts, r1) => match skip_ws r1 with [] => Ok ts | _ => Err EValue end
      end
  end.
