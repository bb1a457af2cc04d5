(** Property C63: produce requests as Kafka reads them.  Kafka's protocol guide, api 0 version 0:
    ProduceRequest => RequiredAcks Timeout [TopicName [Partition MessageSetSize MessageSet]]. *)
From Coq Require Import ZArith String List Bool.
From Verif Require Import PyBase Utf8 Primitives Constants Messages SpecWire Cluster Producer.
Import ListNotations.
Open Scope Z_scope.

Section SpecProduced.
  Variable C : codec.
  Variable compression : Z.

  (** the stream xerial's SnappyInputStream reads: header, then compressed blocks with their sizes *)
  Definition xerial (raw z : bytes) : Prop := exists blocks, concat blocks = raw /\
    z = ([130] ++ txt "SNAPPY" ++ [0] ++ big_endian 4 1 ++ big_endian 4 1) ++
        concat (map (fun b => big_endian 4 (zlen (sn_compress C b)) ++ sn_compress C b) blocks).
  (** a message set: its size and its entries; the entries may be compressed into the value of a single one, whose
      attributes say how (1: gzip, 2: snappy) *)
  Definition set_bytes (msgs : list pymsg) (b : bytes) : Prop := exists out entries outer,
    Forall2 (fun m om => fst om = PInt (-1) /\ msg_reads m (snd om)) msgs out /\ wire_entries out entries /\
    b = big_endian 4 (zlen outer) ++ outer /\
    if compression =? 0 then outer = entries
    else exists crc z, wire_entries [(PInt (-1), Msg crc (PInt 0) (PInt compression) PNone (PBytes z))] outer /\
           ((compression = 1 /\ z = gz_compress C entries) \/ (compression = 2 /\ xerial entries z)).
  Definition partition_bytes (pm : Z * list pmsg) (b : bytes) : Prop := exists sb,
    b = big_endian 4 (fst pm) ++ sb /\ fits 32 (fst pm) /\ set_bytes (map pm_msg (snd pm)) sb.
  Definition topic_bytes (tp : text * dict Z (list pmsg)) (b : bytes) : Prop := exists n pbs,
    utf8_encode (fst tp) = Some n /\ zlen n < 2 ^ 15 /\ Forall2 partition_bytes (snd tp) pbs /\
    b = big_endian 2 (zlen n) ++ n ++ big_endian 4 (zlen (snd tp)) ++ concat pbs.
  Definition payload_bytes (acks timeout : Z) (topics : dict text (dict Z (list pmsg))) (b : bytes) : Prop := exists tbs,
    fits 16 acks /\ fits 32 timeout /\ Forall2 topic_bytes topics tbs /\
    b = big_endian 2 acks ++ big_endian 4 timeout ++ big_endian 4 (zlen topics) ++ concat tbs.
End SpecProduced.

(** the messages given to produce() are made from byte strings, strings, numbers or None by key_maker and serializer *)
Definition usable (v : pyval) : Prop := match v with PNone | PStr _ | PInt _ | PFloat _ => True | PBytes b => Forall is_byte b | _ => False end.
Definition made (m : pymsg) : Prop := exists k v, m = Msg PNone (PInt 0) (PInt 0) k v /\ usable k /\ usable v.
Definition makes (s : producer) (ev : pevent) : Prop :=
  match ev with EvProduce _ _ (Ok m) | EvResume _ _ (Ok m) => made m | _ => True end.
