(** The default serializer and deserializer: json.dumps(message, sort_keys=True) (kiel/clients/producer.py:47-48) and
    json.loads (kiel/clients/consumer.py:38), from Python's json package (json/encoder.py _make_iterencode,
    json/scanner.py py_make_scanner, json/decoder.py JSONObject and JSONArray).
    Simplifications: tuples and dict keys that are no strings, which json.dumps turns into lists and strings, are not
    modelled; there is no limit on the depth of nesting. *)
From Coq Require Import ZArith String List Bool.
From Verif Require Import PyBase Cluster Json Zookeeper.
Import ListNotations.
Open Scope Z_scope.

(** the values: None, bool, int, float (by its repr()), str, list, dict *)
Inductive jv :=
| JNull | JBool (b : bool) | JInt (z : Z) | JFloat (repr : text) | JStr (t : text) | JList (l : list jv) | JDict (d : list (text * jv)).

(** sorted(dct.items()): by key, for the keys differ *)
Fixpoint insert_key {A} (x : text * A) (l : list (text * A)) : list (text * A) :=
  match l with [] => [x] | y :: r => if lex_leb (fst x) (fst y) then x :: l else y :: insert_key x r end.
Fixpoint sort_keys {A} (l : list (text * A)) : list (text * A) :=
  match l with [] => [] | x :: r => insert_key x (sort_keys r) end.
(** ', '.join() *)
Fixpoint comma (l : list text) : text :=
  match l with
  | [] => []
  | [t] => t
  | t :: r => t ++ [44; 32] ++ comma r
  end.
(** floatstr(): NaN and the infinities are written by names JSON does not know (allow_nan) *)
Definition float_text (r : text) : text :=
  if eqb r (txt "nan") then txt "NaN" else if eqb r (txt "inf") then txt "Infinity" else if eqb r (txt "-inf") then txt "-Infinity" else r.
(** json.dumps(v, sort_keys=True) *)
Fixpoint jdumps (v : jv) : text :=
  match v with
  | JNull => txt "null"
  | JBool true => txt "true"
  | JBool false => txt "false"
  | JInt z => str_of_int z
  | JFloat r => float_text r
  | JStr t => jstring t
  | JList l => 91 :: comma (map jdumps l) ++ [93]
  | JDict d =>
      123 :: comma (map (fun kt => jstring (fst kt) ++ [58; 32] ++ snd kt)
                        (sort_keys (map (fun kv => (fst kv, jdumps (snd kv))) d))) ++ [125]
  end.

(** NUMBER_RE: an optional minus, 0 or digits not starting with 0; then a point and digits; then e or E, a sign and digits *)
Fixpoint span_digits (s : text) : text * text :=
  match s with
  | c :: r => if (48 <=? c) && (c <=? 57) then let '(ds, q) := span_digits r in (c :: ds, q) else ([], s)
  | [] => ([], [])
  end.
Definition scan_int (s : text) : option (text * text) :=
  match s with
  | c :: r =>
      if c =? 48 then Some ([48], r)
      else if (49 <=? c) && (c <=? 57) then let '(ds, q) := span_digits r in Some (c :: ds, q)
      else None
  | [] => None
  end.
Definition scan_frac (s : text) : text * text :=
  match eat 46 s with
  | Some r => match span_digits r with ([], _) => ([], s) | (ds, q) => (46 :: ds, q) end
  | None => ([], s)
  end.
Definition scan_exp (s : text) : text * text :=
  match s with
  | c :: r =>
      if (c =? 101) || (c =? 69) then
        let '(sg, q) := match r with x :: r' => if (x =? 43) || (x =? 45) then ([x], r') else ([], r) | [] => ([], r) end in
        match span_digits q with ([], _) => ([], s) | (ds, q') => (c :: sg ++ ds, q') end
      else ([], s)
  | [] => ([], s)
  end.

Section Loads.
  (** repr(float(s)) *)
  Variable float_repr : text -> text.

  Definition scan_number (s : text) : option (jv * text) :=
    let '(neg, s1) := match eat 45 s with Some r => (true, r) | None => (false, s) end in
    match scan_int s1 with
    | None => None
    | Some (ds, s2) =>
        let '(fr, s3) := scan_frac s2 in
        let '(ex, s4) := scan_exp s3 in
        match fr ++ ex with
        | [] => match digits 0 ds with Some n => Some (JInt (if neg then - n else n), s4) | None => None end
        | _ => Some (JFloat (float_repr ((if neg then [45] else []) ++ ds ++ fr ++ ex)), s4)
        end
    end.
  (** s[idx:idx + 4] == 'null' and so on *)
  Fixpoint eat_word (w s : text) : option text :=
    match w with [] => Some s | c :: w' => match eat c s with Some r => eat_word w' r | None => None end end.
  (** a number, or one of the names (_CONSTANTS) *)
  Definition scan_other (s : text) : option (jv * text) :=
    match scan_number s with
    | Some x => Some x
    | None =>
    match eat_word (txt "NaN") s with
    | Some r1 => Some (JFloat (txt "nan"), r1)
    | None =>
    match eat_word (txt "Infinity") s with
    | Some r1 => Some (JFloat (txt "inf"), r1)
    | None =>
    match eat_word (txt "-Infinity") s with
    | Some r1 => Some (JFloat (txt "-inf"), r1)
    | None => None
    end end end end.
  (** scan_once(), JSONArray() after '[' or ',', JSONObject() after '{' or ',' *)
  Fixpoint scan_val (fuel : nat) (s : text) : option (jv * text) :=
    match fuel with
    | O => None
    | S f =>
        match s with
        | [] => None
        | c :: r =>
            if c =? 34 then match scan_string (S (length r)) r with Some (t, r1) => Some (JStr t, r1) | None => None end
            else if c =? 123 then
              match eat 125 (skip_ws r) with
              | Some r1 => Some (JDict [], r1)
              | None => match scan_members f r with
                        | Some (d, r1) => Some (JDict (fold_left (fun m kv => dset m (fst kv) (snd kv)) d []), r1)
                        | None => None
                        end
              end
            else if c =? 91 then
              match eat 93 (skip_ws r) with
              | Some r1 => Some (JList [], r1)
              | None => match scan_vals f r with Some (l, r1) => Some (JList l, r1) | None => None end
              end
            else match eat_word (txt "null") s with
            | Some r1 => Some (JNull, r1)
            | None =>
            match eat_word (txt "true") s with
            | Some r1 => Some (JBool true, r1)
            | None =>
            match eat_word (txt "false") s with
            | Some r1 => Some (JBool false, r1)
            | None => scan_other s
            end end end
        end
    end
  with scan_vals (fuel : nat) (s : text) : option (list jv * text) :=
    match fuel with
    | O => None
    | S f =>
        match scan_val f (skip_ws s) with
        | None => None
        | Some (v, r1) =>
            match eat 44 (skip_ws r1), eat 93 (skip_ws r1) with
            | Some r2, _ => match scan_vals f r2 with Some (vs, r3) => Some (v :: vs, r3) | None => None end
            | None, Some r2 => Some ([v], r2)
            | None, None => None
            end
        end
    end
  with scan_members (fuel : nat) (s : text) : option (list (text * jv) * text) :=
    match fuel with
    | O => None
    | S f =>
        match eat 34 (skip_ws s) with
        | None => None
        | Some q =>
            match scan_string (S (length q)) q with
            | None => None
            | Some (k, r1) =>
                match eat 58 (skip_ws r1) with
                | None => None
                | Some r2 =>
                    match scan_val f (skip_ws r2) with
                    | None => None
                    | Some (v, r3) =>
                        match eat 44 (skip_ws r3), eat 125 (skip_ws r3) with
                        | Some r4, _ => match scan_members f r4 with Some (d, r5) => Some ((k, v) :: d, r5) | None => None end
                        | None, Some r4 => Some ([(k, v)], r4)
                        | None, None => None
                        end
                    end
                end
            end
        end
    end.
  (** json.loads(s); the fuel is enough for every document: each step of nesting takes a character *)
  Definition jloads (s : text) : res jv :=
    match scan_val (S (2 * length s)) (skip_ws s) with
    | Some (v, r) => match skip_ws r with [] => Ok v | _ => Err EValue end
    | None => Err EValue
    end.
  (** the deserializer called with a message's value (consumer.py:190): json.loads raises TypeError for None.
      Simplification: for a value that is no UTF-8 text, which json.loads decodes itself since Python 3.6, too *)
  Definition default_deser (v : pyval) : res jv := match v with PStr t => jloads t | _ => Err EType end.
End Loads.
(** the serializer (producer.py:47-48) *)
Definition default_ser (v : jv) : pyval := PStr (jdumps v).
(** bool(v), which decides whether consume() returns a value (consumer.py:134-138) *)
Definition truth (v : jv) : bool :=
  match v with
  | JNull => false
  | JBool b => b
  | JInt z => negb (z =? 0)
  | JFloat r => negb (eqb r (txt "0.0") || eqb r (txt "-0.0"))
  | JStr t => negb (eqb t [])
  | JList l => match l with [] => false | _ => true end
  | JDict d => match d with [] => false | _ => true end
  end.
