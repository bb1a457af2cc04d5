(** kiel/protocol/messages.py: Message and MessageSet. *)
From Coq Require Import ZArith String List Bool.
From Verif Require Import PyBase Utf8 Struct Primitives Crc32 Snappy.
Import ListNotations.
Open Scope Z_scope.

(** constants.py:3-6 *)
Definition GZIP : Z := 1.
Definition SNAPPY : Z := 2.

(** Libraries the message layer calls: the stdlib gzip module and python-snappy
    (compression/gzip.py:8-42, compression/snappy.py:5-9). *)
Record codec := {
  gz_compress : bytes -> bytes;
  gz_decompress : bytes -> res bytes;
  sn_available : bool;
  sn_compress : bytes -> bytes;
  sn_uncompress : bytes -> res bytes
}.

(** Message.render, messages.py:168-182.  Part.render of parts[1:] is spelled out: the four
    fields magic, attributes, key, value in order (part.py:39-48). *)
Definition msg_render (m : pymsg) : res rendered :=
  k <- prim_render Bytes_ (m_key m) ;;
  v <- prim_render Bytes_ (m_value m) ;;
  let fmt := [Fb; Fb] ++ fst k ++ fst v in
  let data := [m_magic m; m_attributes m] ++ snd k ++ snd v in
  payload <- pack fmt data ;;
  let crc := crc32 payload in
  let crc := if 2 ^ 31 <? crc then crc - 2 ^ 32 else crc in
  Ok ([Fi; Fs (zlen payload)], [PInt crc; PBytes payload]).

(** the loop of MessageSet.render, messages.py:76-91; returns format, data and total size *)
Fixpoint ms_render_loop (ms : list (pyval * pymsg)) : res (list tok * list pyval * Z) :=
  match ms with
  | [] => Ok ([], [], 0)
  | (o, m) :: r =>
    '(mf, md) <- msg_render m ;;
    let msize := calcsize_native mf in
    let f := [Fq; Fi] ++ mf in
    '(rf, rd, rsize) <- ms_render_loop r ;;
    Ok (f ++ rf, [o; PInt msize] ++ md ++ rd, calcsize f + rsize)
  end.

(** MessageSet.render, messages.py:64-95 *)
Definition ms_render (ms : list (pyval * pymsg)) : res rendered :=
  '(f, d, total) <- ms_render_loop ms ;;
  Ok (Fi :: f, PInt total :: d).

(** MessageSet.compressed, messages.py:26-62.  [compression] is None/0 (falsy) or a code; a code
    other than GZIP and SNAPPY leaves compressed_set unbound (UnboundLocalError). *)
Definition ms_compressed (C : codec) (compression : Z) (msgs : list pymsg)
  : res (list (pyval * pymsg)) :=
  let plain := map (fun m => (PInt (-1), m)) msgs in
  if compression =? 0 then Ok plain
  else
    '(f, d) <- ms_render plain ;;
    raw <- pack (tl f) (tl d) ;;
    c <- (if compression =? GZIP then Ok (gz_compress C raw)
          else if compression =? SNAPPY then snappy_compress (sn_available C) (sn_compress C) raw
          else Err EUnbound) ;;
    Ok [(PInt (-1), Msg PNone (PInt 0) (PInt compression) PNone (PBytes c))].

(** gzip.decompress, compression/gzip.py:29-42, on any value: BytesIO(None) is empty,
    BytesIO(str) is a TypeError *)
Definition gz_decompress_v (C : codec) (v : pyval) : res pyval :=
  match v with
  | PBytes b => r <- gz_decompress C b ;; Ok (PBytes r)
  | PNone => r <- gz_decompress C [] ;; Ok (PBytes r)
  | _ => Err EType
  end.

(** snappy.decompress on any value: for str, len() works but unpack_from raises TypeError as
    soon as the loop body runs (snappy.py:66-73) *)
Definition sn_decompress_v (C : codec) (v : pyval) : res pyval :=
  if negb (sn_available C) then Err ERuntime
  else match v with
  | PBytes b => r <- snappy_decompress (sn_available C) (sn_uncompress C) b ;; Ok (PBytes r)
  | PStr t => if zlen t - zlen raw_header <? zlen raw_header then Ok (PBytes []) else Err EType
  | _ => Err EType
  end.

(** Message.parse, messages.py:184-208 (with Part.parse over parts :160-166 spelled out) *)
Definition msg_parse (C : codec) (buff : bytes) (off : Z) : res (pymsg * Z) :=
  '(crc, o1) <- prim_parse Int32 buff off ;;
  '(magic, o2) <- prim_parse Int8 buff o1 ;;
  '(attr, o3) <- prim_parse Int8 buff o2 ;;
  '(key, o4) <- prim_parse Bytes_ buff o3 ;;
  '(value, o5) <- prim_parse Bytes_ buff o4 ;;
  match attr with
  | PInt a =>
    let compression := Z.land a 3 in
    if compression =? 0 then Ok (Msg crc magic attr key value, o5)
    else
      value' <- (if compression =? GZIP then gz_decompress_v C value
                 else if compression =? SNAPPY then sn_decompress_v C value
                 else Ok value) ;;
      Ok (Msg crc magic attr key value', o5)
  | _ => Err EType
  end.

(** One pass through the try block of MessageSet.parse, messages.py:130-136.  A struct.error
    breaks out of the loop with whatever offset had been reached. *)
Inductive entry :=
| Entry (moff : pyval) (m : pymsg) (off : Z)
| Cut (off : Z)
| Raise (e : exn).

Definition parse_entry (C : codec) (buff : bytes) (off : Z) : entry :=
  match prim_parse Int64 buff off with
  | Err EStruct => Cut off
  | Err e => Raise e
  | Ok (mo, o1) =>
    match prim_parse Int32 buff o1 with
    | Err EStruct => Cut o1
    | Err e => Raise e
    | Ok (_, o2) =>
      match msg_parse C buff o2 with
      | Err EStruct => Cut o2
      | Err e => Raise e
      | Ok (m, o3) => Entry mo m o3
      end
    end
  end.

(** The while loop of MessageSet.parse, messages.py:128-143, parametrised by the recursive call
    for nested sets.  [fuel] bounds the iterations; the caller passes the buffer length + 1, each
    completed iteration consumes at least 26 bytes (MessagesProofs.ms_loop_no_fuel_error). *)
Section Loop.
  Variable C : codec.
  Variable nested : pyval -> res (list (pyval * pymsg)).

  Fixpoint ms_loop (fuel : nat) (buff : bytes) (off end_ : Z) : res (list (pyval * pymsg) * Z) :=
    if off =? end_ then Ok ([], off)
    else match fuel with
    | O => Err (EOther 99)
    | S f =>
      match parse_entry C buff off with
      | Cut o => Ok ([], o)
      | Raise e => Err e
      | Entry mo m o =>
        here <- (match m_attributes m with
                 | PInt 0 => Ok [(mo, m)]
                 | _ => nested (m_value m)
                 end) ;;
        '(rest, o') <- ms_loop f buff o end_ ;;
        Ok (here ++ rest, o')
      end
    end.
End Loop.

(** cls.parse(message.value, 0, size=len(message.value)), messages.py:139-140, for a message value
    of any type.  [depth] is the remaining Python recursion depth. *)
Fixpoint ms_parse_nested (C : codec) (depth : nat) (v : pyval) : res (list (pyval * pymsg)) :=
  match depth with
  | O => Err ERecursion
  | S d =>
    match v with
    | PBytes b =>
      '(ms, _) <- ms_loop C (ms_parse_nested C d) (S (length b)) b 0 (zlen b) ;;
      Ok ms
    | PStr [] => Ok []
    | _ => Err EType
    end
  end.

(** MessageSet.parse with size=None, messages.py:110-145 *)
Definition ms_parse (C : codec) (depth : nat) (buff : bytes) (off : Z)
  : res (list (pyval * pymsg) * Z) :=
  '(s, o1) <- prim_parse Int32 buff off ;;
  match s with
  | PInt size => ms_loop C (ms_parse_nested C depth) (S (length buff)) buff o1 (o1 + size)
  | _ => Err EType
  end.
