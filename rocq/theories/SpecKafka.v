(** Properties C73 to C75: the bytes of Kafka's responses and produce requests, written down from Kafka's protocol
    guide (version 0 of each api, magic 0 messages) and not from kiel's classes.  Integers are big-endian two's
    complement, strings carry a 16 bit length, byte strings and arrays a 32 bit one; -1 stands for null. *)
From Coq Require Import ZArith String List Bool.
From Verif Require Import PyBase Utf8 Crc32 Messages SpecWire.
Import ListNotations.
Open Scope Z_scope.

(** ** Building blocks *)
Definition kw_int (w : nat) (z : Z) (b : bytes) : Prop := fits (8 * Z.of_nat w) z /\ b = big_endian w z.
Definition kw_string (t : text) (b : bytes) : Prop := exists u, utf8_encode t = Some u /\ zlen u < 2 ^ 15 /\ b = big_endian 2 (zlen u) ++ u.
Definition kw_null_string (t : option text) (b : bytes) : Prop := match t with Some t => kw_string t b | None => b = big_endian 2 (-1) end.
Definition kw_array {A} (item : A -> bytes -> Prop) (xs : list A) (b : bytes) : Prop :=
  exists bs, Forall2 item xs bs /\ zlen xs < 2 ^ 31 /\ b = big_endian 4 (zlen xs) ++ concat bs.
(** an array whose last item is of another form *)
Definition kw_array_end {A} (item last : A -> bytes -> Prop) (xs : list A) (b : bytes) : Prop :=
  exists xs0 x bs bx, xs = xs0 ++ [x] /\ Forall2 item xs0 bs /\ last x bx /\ zlen xs < 2 ^ 31 /\ b = big_endian 4 (zlen xs) ++ concat bs ++ bx.

(** ** Messages: a key and a value, each a byte string or null *)
Record kmsg := KMsg { km_key : option bytes; km_value : option bytes }.
Definition kw_blob (v : option bytes) : bytes := match v with None => big_endian 4 (-1) | Some b => big_endian 4 (zlen b) ++ b end.
Definition all_bytes (v : option bytes) : Prop := match v with None => True | Some b => Forall is_byte b end.
(** magic byte, attributes, key, value *)
Definition kw_body (attributes : Z) (m : kmsg) : bytes := [0] ++ big_endian 1 attributes ++ kw_blob (km_key m) ++ kw_blob (km_value m).
(** offset, size, checksum, body *)
Definition kw_entry (offset attributes : Z) (m : kmsg) (b : bytes) : Prop :=
  fits 64 offset /\ all_bytes (km_key m) /\ all_bytes (km_value m) /\ 4 + zlen (kw_body attributes m) < 2 ^ 31 /\
  b = big_endian 8 offset ++ big_endian 4 (4 + zlen (kw_body attributes m)) ++ big_endian 4 (crc32 (kw_body attributes m)) ++ kw_body attributes m.
(** entries one after another *)
Definition kw_plain (ms : list (Z * kmsg)) (b : bytes) : Prop := exists bs, Forall2 (fun om => kw_entry (fst om) 0 (snd om)) ms bs /\ b = concat bs.

Section Codec.
  Variable C : codec.
  (** the least size of the last block of snappy data: 0 in Kafka; kiel drops a last block of less than 12 bytes (C10),
      so what kiel has to read takes 12 here *)
  Variable least : Z.

  (** gzip data begins with 31, 139; snappy data is framed as xerial's library does: a header, then blocks with their sizes *)
  Definition kw_packed (attributes : Z) (z raw : bytes) : Prop :=
    (attributes = 1 /\ gz_decompress C z = Ok raw /\ exists r, z = 31 :: 139 :: r) \/
    (attributes = 2 /\ sn_available C = true /\ exists blocks parts,
       Forall2 (fun c part => sn_uncompress C c = Ok part /\ zlen c < 2 ^ 31) blocks parts /\ raw = concat parts /\
       z = ([130] ++ txt "SNAPPY" ++ [0] ++ big_endian 4 1 ++ big_endian 4 1) ++ concat (map (fun c => big_endian 4 (zlen c) ++ c) blocks) /\
       (forall front c, blocks = front ++ [c] -> least <= zlen c)).

  (** a message set: plain entries, and entries whose value is a compressed run of plain entries *)
  Inductive kw_set : list (Z * kmsg) -> bytes -> Prop :=
  | ks_end : kw_set [] []
  | ks_plain offset m b ms rest : kw_entry offset 0 m b -> kw_set ms rest -> kw_set ((offset, m) :: ms) (b ++ rest)
  | ks_packed offset attributes key z raw inner b ms rest :
      kw_packed attributes z raw -> kw_plain inner raw -> kw_entry offset attributes (KMsg key (Some z)) b -> kw_set ms rest ->
      kw_set (inner ++ ms) (b ++ rest).
  (** a broker cuts a set off at the size asked for, in the middle of an entry if need be *)
  Definition kw_set_cut (ms : list (Z * kmsg)) (b : bytes) : Prop :=
    exists whole offset attributes m c rest, kw_set ms whole /\ kw_entry offset attributes m (c ++ rest) /\ rest <> [] /\ fits 8 attributes /\ b = whole ++ c.

  (** ** Responses *)
  (** [TopicName [part]] *)
  Definition kw_topic {A} (part : A -> bytes -> Prop) (tp : text * list A) (b : bytes) : Prop :=
    exists nb pb, kw_string (fst tp) nb /\ kw_array part (snd tp) pb /\ b = nb ++ pb.
  Definition kw_topics {A} (part : A -> bytes -> Prop) : list (text * list A) -> bytes -> Prop := kw_array (kw_topic part).

  (** Partition ErrorCode HighwaterMarkOffset MessageSetSize MessageSet *)
  Definition kw_fetch_part_of (set : list (Z * kmsg) -> bytes -> Prop) (p : Z * (Z * list (Z * kmsg))) (b : bytes) : Prop :=
    exists pb cb highwater hb s, kw_int 4 (fst p) pb /\ kw_int 2 (fst (snd p)) cb /\ kw_int 8 highwater hb /\
      set (snd (snd p)) s /\ zlen s < 2 ^ 31 /\ b = pb ++ cb ++ hb ++ big_endian 4 (zlen s) ++ s.
  Definition kw_fetch_part := kw_fetch_part_of kw_set.
  (** the last set of all may be cut off *)
  Definition kw_fetch (r : list (text * list (Z * (Z * list (Z * kmsg))))) (b : bytes) : Prop :=
    kw_topics kw_fetch_part r b \/
    kw_array_end (kw_topic kw_fetch_part)
      (fun tp b => exists nb pb, kw_string (fst tp) nb /\ kw_array_end kw_fetch_part (kw_fetch_part_of kw_set_cut) (snd tp) pb /\ b = nb ++ pb) r b.

  (** Partition ErrorCode [Offset] *)
  Definition kw_offset_part (p : Z * (Z * list Z)) (b : bytes) : Prop :=
    exists pb cb ob, kw_int 4 (fst p) pb /\ kw_int 2 (fst (snd p)) cb /\ kw_array (kw_int 8) (snd (snd p)) ob /\ b = pb ++ cb ++ ob.
  Definition kw_offset := kw_topics kw_offset_part.
  (** Partition Offset Metadata ErrorCode *)
  Definition kw_offset_fetch_part (p : Z * (Z * Z)) (b : bytes) : Prop :=
    exists pb ob metadata mb cb, kw_int 4 (fst p) pb /\ kw_int 8 (snd (snd p)) ob /\ kw_null_string metadata mb /\ kw_int 2 (fst (snd p)) cb /\
      b = pb ++ ob ++ mb ++ cb.
  Definition kw_offset_fetch := kw_topics kw_offset_fetch_part.
  (** Partition ErrorCode *)
  Definition kw_commit_part (p : Z * Z) (b : bytes) : Prop := exists pb cb, kw_int 4 (fst p) pb /\ kw_int 2 (snd p) cb /\ b = pb ++ cb.
  Definition kw_commit := kw_topics kw_commit_part.
  (** ErrorCode CoordinatorId CoordinatorHost CoordinatorPort *)
  Definition kw_coordinator (code id : Z) (b : bytes) : Prop :=
    exists cb ib host hb port pb, kw_int 2 code cb /\ kw_int 4 id ib /\ kw_string host hb /\ kw_int 4 port pb /\ b = cb ++ ib ++ hb ++ pb.
  (** Partition ErrorCode Offset *)
  Definition kw_produced_part (p : Z * Z) (b : bytes) : Prop :=
    exists pb cb offset ob, kw_int 4 (fst p) pb /\ kw_int 2 (snd p) cb /\ kw_int 8 offset ob /\ b = pb ++ cb ++ ob.
  Definition kw_produced := kw_topics kw_produced_part.

  (** brokers: NodeId Host Port; topics: ErrorCode TopicName [partition]; partitions: ErrorCode PartitionId Leader [Replica] [Isr] *)
  Record kpart := KPart { kp_code : Z; kp_id : Z; kp_leader : Z }.
  Definition kw_broker (br : Z * text * Z) (b : bytes) : Prop :=
    exists ib hb pb, kw_int 4 (fst (fst br)) ib /\ kw_string (snd (fst br)) hb /\ kw_int 4 (snd br) pb /\ b = ib ++ hb ++ pb.
  Definition kw_meta_part (p : kpart) (b : bytes) : Prop :=
    exists cb ib lb replicas rb isrs sb, kw_int 2 (kp_code p) cb /\ kw_int 4 (kp_id p) ib /\ kw_int 4 (kp_leader p) lb /\
      kw_array (kw_int 4) replicas rb /\ kw_array (kw_int 4) isrs sb /\ b = cb ++ ib ++ lb ++ rb ++ sb.
  Definition kw_meta_topic (tp : Z * text * list kpart) (b : bytes) : Prop :=
    exists cb nb pb, kw_int 2 (fst (fst tp)) cb /\ kw_string (snd (fst tp)) nb /\ kw_array kw_meta_part (snd tp) pb /\ b = cb ++ nb ++ pb.
  Definition kw_metadata (brokers : list (Z * text * Z)) (topics : list (Z * text * list kpart)) (b : bytes) : Prop :=
    exists bb tb, kw_array kw_broker brokers bb /\ kw_array kw_meta_topic topics tb /\ b = bb ++ tb.

  (** ** Produce requests: RequiredAcks Timeout [TopicName [Partition MessageSetSize MessageSet]] *)
  Definition kw_produce_part (p : Z * list (Z * kmsg)) (b : bytes) : Prop :=
    exists pb s, kw_int 4 (fst p) pb /\ kw_set (snd p) s /\ zlen s < 2 ^ 31 /\ b = pb ++ big_endian 4 (zlen s) ++ s.
  Definition kw_produce (acks timeout : Z) (topics : list (text * list (Z * list (Z * kmsg)))) (b : bytes) : Prop :=
    exists ab mb tb, kw_int 2 acks ab /\ kw_int 4 timeout mb /\ kw_topics kw_produce_part topics tb /\ b = ab ++ mb ++ tb.
End Codec.

(** ** Messages as kiel's Message objects: keys and values that are UTF-8 become strings; the checksum is a signed number *)
Definition kw_field (v : option bytes) : pyval :=
  match v with None => PNone | Some b => match utf8_decode b with Some t => PStr t | None => PBytes b end end.
Definition kw_read (m : kmsg) : pymsg := Msg (PInt (signed32 (crc32 (kw_body 0 m)))) (PInt 0) (PInt 0) (kw_field (km_key m)) (kw_field (km_value m)).
Definition kw_read_set (ms : list (Z * kmsg)) : list (Z * pymsg) := map (fun om => (fst om, kw_read (snd om))) ms.
