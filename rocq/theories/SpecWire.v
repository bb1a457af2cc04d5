(** Specification side of the wire format: which values are legal for a layout ([canon]), and a
    declarative grammar for the bytes that stand for a value ([wire]).  Nothing here refers to the
    model's render/parse functions. *)
From Coq Require Import ZArith String List Bool.
From Verif Require Import PyBase Utf8 Crc32 Primitives Protocol.
Import ListNotations.
Open Scope Z_scope.

(** Two's complement big-endian, [n] bytes. *)
Fixpoint big_endian (n : nat) (z : Z) : bytes :=
  match n with
  | O => []
  | S n' => (z / 256 ^ Z.of_nat n') mod 256 :: big_endian n' z
  end.

Definition bits_of (p : prim) : Z :=
  match p with Int8 => 8 | Int16 => 16 | Int32 => 32 | Int64 => 64 | String_ => 16 | Bytes_ => 32 end.

Definition fits (bits z : Z) : Prop := - 2 ^ (bits - 1) <= z < 2 ^ (bits - 1).

(** A legal String/Bytes value with a [bits]-bit length prefix: null, text, or bytes that are not
    themselves the encoding of a text. *)
Definition canon_var (bits : Z) (v : pyval) : Prop :=
  match v with
  | PNone => True
  | PStr t => exists b, utf8_encode t = Some b /\ zlen b < 2 ^ (bits - 1)
  | PBytes b => Forall is_byte b /\ utf8_decode b = None /\ zlen b < 2 ^ (bits - 1)
  | _ => False
  end.

Definition canon_prim (p : prim) (v : pyval) : Prop :=
  match p with
  | String_ | Bytes_ => canon_var (bits_of p) v
  | _ => exists z, v = PInt z /\ fits (bits_of p) z
  end.

(** Bytes of a length-prefixed value: length -1 for null. *)
Inductive wire_var (w : nat) : pyval -> bytes -> Prop :=
| wv_null : wire_var w PNone (big_endian w (-1))
| wv_text t b : utf8_encode t = Some b -> wire_var w (PStr t) (big_endian w (zlen b) ++ b)
| wv_bytes b : wire_var w (PBytes b) (big_endian w (zlen b) ++ b).

(** The checksummed part of a message: magic, attributes, key, value. *)
Inductive wire_payload : pymsg -> bytes -> Prop :=
| wp crc g a k v kb vb :
    wire_var 4 k kb -> wire_var 4 v vb ->
    wire_payload (Msg crc (PInt g) (PInt a) k v) (big_endian 1 g ++ big_endian 1 a ++ kb ++ vb).

(** signed reading of an unsigned 32 bit number *)
Definition signed32 (u : Z) : Z := if u <? 2 ^ 31 then u else u - 2 ^ 32.

(** offset, size, crc, payload *)
Inductive wire_entries : list (pyval * pymsg) -> bytes -> Prop :=
| we_nil : wire_entries [] []
| we_cons o m p r rb :
    wire_payload m p -> wire_entries r rb ->
    wire_entries ((PInt o, m) :: r)
      (big_endian 8 o ++ big_endian 4 (4 + zlen p) ++ big_endian 4 (signed32 (crc32 p)) ++ p ++ rb).

(** A legal uncompressed message as a consumer sees it: the stored checksum is right.  The
    checksum value 2^31 is excluded; see PropsWire (finding). *)
Definition canon_msg (m : pymsg) : Prop :=
  match m with
  | Msg (PInt crc) (PInt g) (PInt 0) k v =>
    fits 8 g /\ canon_var 32 k /\ canon_var 32 v /\
    exists p, wire_payload m p /\ crc = signed32 (crc32 p) /\ crc32 p <> 2 ^ 31 /\
              4 + zlen p < 2 ^ 31
  | _ => False
  end.

Definition canon_set (ms : list (pyval * pymsg)) : Prop :=
  Forall (fun om => (exists o, fst om = PInt o /\ fits 64 o) /\ canon_msg (snd om)) ms /\
  exists b, wire_entries ms b /\ zlen b < 2 ^ 31.

(** Field names of every part are distinct. *)
Fixpoint distinct (t : ty) : Prop :=
  match t with
  | TPrim _ | TMsgSet => True
  | TArray it => distinct it
  | TPart fs =>
    NoDup (map fst fs) /\
    (fix go (fs : list (string * ty)) : Prop :=
       match fs with [] => True | (_, t') :: r => distinct t' /\ go r end) fs
  end.

(** Values of a layout, given which message sets are admitted. *)
Fixpoint conforms (okset : list (pyval * pymsg) -> Prop) (t : ty) (v : pyval) : Prop :=
  match t with
  | TPrim p => canon_prim p v
  | TArray it => exists vs, v = PList vs /\ Forall (conforms okset it) vs /\ zlen vs < 2 ^ 31
  | TPart fs =>
    exists attrs, v = PObj attrs /\
    (fix go (fs : list (string * ty)) (attrs : list (string * pyval)) : Prop :=
       match fs, attrs with
       | [], [] => True
       | (n, t') :: r, (n', v') :: r' => n = n' /\ conforms okset t' v' /\ go r r'
       | _, _ => False
       end) fs attrs
  | TMsgSet => exists ms, v = PMsgSet ms /\ okset ms
  end.

Definition canon : ty -> pyval -> Prop := conforms canon_set.

(** Like [canon_set], for messages with any attributes (compressed envelopes included) and without
    saying what the stored checksum attribute is. *)
Definition legal_msg (m : pymsg) : Prop :=
  match m with
  | Msg _ (PInt g) (PInt a) k v => fits 8 g /\ fits 8 a /\ canon_var 32 k /\ canon_var 32 v
  | _ => False
  end.
Definition legal_set (ms : list (pyval * pymsg)) : Prop :=
  Forall (fun om => (exists o, fst om = PInt o /\ fits 64 o) /\ legal_msg (snd om)) ms /\
  exists b, wire_entries ms b /\ zlen b < 2 ^ 31.
Definition legal : ty -> pyval -> Prop := conforms legal_set.

(** What a reader gets for a value given to a field: text and null as they are, byte strings that
    happen to be UTF-8 as text, other scalars as their str(), a missing array as an empty one, a
    missing attribute as null. *)
Definition var_reads (v v' : pyval) : Prop :=
  match v with
  | PNone => v' = PNone
  | PStr t => v' = PStr t
  | PBytes b => match utf8_decode b with Some t => v' = PStr t | None => v' = PBytes b end
  | PInt z => v' = PStr (str_of_int z)
  | PFloat r => v' = PStr r
  | _ => False
  end.

Definition items_of (v : pyval) (vs : list pyval) : Prop :=
  match v with
  | PNone => vs = []
  | PList l => vs = l
  | PStr t => vs = map (fun c => PStr [c]) t
  | PBytes b => vs = map PInt b
  | _ => False
  end.

Definition msg_reads (m m' : pymsg) : Prop :=
  m_magic m' = m_magic m /\ m_attributes m' = m_attributes m /\
  var_reads (m_key m) (m_key m') /\ var_reads (m_value m) (m_value m').

Definition lookup_attr (attrs : list (string * pyval)) (n : string) : pyval :=
  match find (fun p => String.eqb (fst p) n) attrs with Some p => snd p | None => PNone end.

Fixpoint reads_as (t : ty) (v v' : pyval) : Prop :=
  match t with
  | TPrim String_ | TPrim Bytes_ => var_reads v v'
  | TPrim _ => v' = v
  | TArray it => exists vs vs', items_of v vs /\ v' = PList vs' /\ Forall2 (reads_as it) vs vs'
  | TPart fs =>
    exists attrs attrs', v = PObj attrs /\ v' = PObj attrs' /\
    (fix go (fs : list (string * ty)) (attrs' : list (string * pyval)) : Prop :=
       match fs, attrs' with
       | [], [] => True
       | (n, t') :: r, (n', v') :: r' => n = n' /\ reads_as t' (lookup_attr attrs n) v' /\ go r r'
       | _, _ => False
       end) fs attrs'
  | TMsgSet =>
    exists ms ms', v = PMsgSet ms /\ v' = PMsgSet ms' /\
    Forall2 (fun om om' => fst om' = fst om /\ msg_reads (snd om) (snd om')) ms ms'
  end.

(** Byte strings really consist of bytes (a property of Python's bytes type). *)
Fixpoint bytes_ok (v : pyval) : Prop :=
  match v with
  | PBytes b => Forall is_byte b
  | PList vs => (fix go (l : list pyval) : Prop := match l with [] => True | x :: r => bytes_ok x /\ go r end) vs
  | PObj attrs =>
    (fix go (l : list (string * pyval)) : Prop :=
       match l with [] => True | (_, x) :: r => bytes_ok x /\ go r end) attrs
  | PMsgSet ms =>
    (fix go (l : list (pyval * pymsg)) : Prop :=
       match l with
       | [] => True
       | (o, m) :: r => match m with Msg _ g a k w => bytes_ok k /\ bytes_ok w end /\ go r
       end) ms
  | _ => True
  end.

(** The declared layout as a grammar. *)
Inductive wire : ty -> pyval -> bytes -> Prop :=
| w_int p z n :
    (p = Int8 /\ n = 1 \/ p = Int16 /\ n = 2 \/ p = Int32 /\ n = 4 \/ p = Int64 /\ n = 8)%nat ->
    wire (TPrim p) (PInt z) (big_endian n z)
| w_string v b : wire_var 2 v b -> wire (TPrim String_) v b
| w_bytes v b : wire_var 4 v b -> wire (TPrim Bytes_) v b
| w_array it vs b :
    wire_items it vs b -> wire (TArray it) (PList vs) (big_endian 4 (zlen vs) ++ b)
| w_part fs attrs b : wire_fields fs attrs b -> wire (TPart fs) (PObj attrs) b
| w_set ms b : wire_entries ms b -> wire TMsgSet (PMsgSet ms) (big_endian 4 (zlen b) ++ b)
with wire_items : ty -> list pyval -> bytes -> Prop :=
| wi_nil it : wire_items it [] []
| wi_cons it v vs b bs : wire it v b -> wire_items it vs bs -> wire_items it (v :: vs) (b ++ bs)
with wire_fields : list (string * ty) -> list (string * pyval) -> bytes -> Prop :=
| wf_nil : wire_fields [] [] []
| wf_cons n t fs v attrs b bs :
    wire t v b -> wire_fields fs attrs bs ->
    wire_fields ((n, t) :: fs) ((n, v) :: attrs) (b ++ bs).

(** A layout without message sets (every request/response except produce requests and fetch
    responses). *)
Fixpoint no_msgset (t : ty) : Prop :=
  match t with
  | TPrim _ => True
  | TMsgSet => False
  | TArray it => no_msgset it
  | TPart fs =>
    (fix go (fs : list (string * ty)) : Prop :=
       match fs with [] => True | (_, t') :: r => no_msgset t' /\ go r end) fs
  end.

(** Messages as a broker stores and returns them, uncompressed: the stored checksum is the CRC-32
    of the payload, any value. *)
Definition received_msg (m : pymsg) : Prop :=
  match m with
  | Msg (PInt crc) (PInt g) (PInt 0) k v =>
    fits 8 g /\ canon_var 32 k /\ canon_var 32 v /\
    exists p, wire_payload m p /\ crc = signed32 (crc32 p)
  | _ => False
  end.
Definition received_set (ms : list (pyval * pymsg)) : Prop :=
  Forall (fun om => (exists o, fst om = PInt o /\ fits 64 o) /\ received_msg (snd om)) ms /\
  exists b, wire_entries ms b /\ zlen b < 2 ^ 31.
Definition received : ty -> pyval -> Prop := conforms received_set.

(** Bytes of a structure whose very last message set the broker cut off in the middle of a message
    (of any kind): the announced size covers the bytes that are there. *)
Inductive wire_cut : ty -> pyval -> bytes -> Prop :=
| wc_set ms b o m p c rest :
    wire_entries ms b ->
    fits 64 o -> legal_msg m -> wire_payload m p -> 4 + zlen p < 2 ^ 31 ->
    wire_entries [(PInt o, m)] (c ++ rest) -> rest <> [] -> zlen b + zlen c < 2 ^ 31 ->
    wire_cut TMsgSet (PMsgSet ms) (big_endian 4 (zlen b + zlen c) ++ b ++ c)
| wc_array it vs v b bc :
    wire_items it vs b -> wire_cut it v bc ->
    wire_cut (TArray it) (PList (vs ++ [v])) (big_endian 4 (zlen vs + 1) ++ b ++ bc)
| wc_part fs attrs n t v b bc :
    wire_fields fs attrs b -> wire_cut t v bc ->
    wire_cut (TPart (fs ++ [(n, t)])) (PObj (attrs ++ [(n, v)])) (b ++ bc).

(** The same with any number of message sets cut off, anywhere in the structure. *)
Inductive wire_cuts : ty -> pyval -> bytes -> Prop :=
| wcs_whole t v b : wire t v b -> wire_cuts t v b
| wcs_set ms b : wire_cut TMsgSet (PMsgSet ms) b -> wire_cuts TMsgSet (PMsgSet ms) b
| wcs_array it vs b :
    cuts_items it vs b -> wire_cuts (TArray it) (PList vs) (big_endian 4 (zlen vs) ++ b)
| wcs_part fs attrs b : cuts_fields fs attrs b -> wire_cuts (TPart fs) (PObj attrs) b
with cuts_items : ty -> list pyval -> bytes -> Prop :=
| cui_nil it : cuts_items it [] []
| cui_cons it v vs b bs : wire_cuts it v b -> cuts_items it vs bs -> cuts_items it (v :: vs) (b ++ bs)
with cuts_fields : list (string * ty) -> list (string * pyval) -> bytes -> Prop :=
| cuf_nil : cuts_fields [] [] []
| cuf_cons n t fs v attrs b bs :
    wire_cuts t v b -> cuts_fields fs attrs bs ->
    cuts_fields ((n, t) :: fs) ((n, v) :: attrs) (b ++ bs).
