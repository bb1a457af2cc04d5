(** Property theorems C01-C13: the wire format.  Specification: SpecWire.v, SpecCodec.v,
    SpecRequest.v, SpecDocs.v.  The proofs proper are in the *Proofs files and WireProps.v; beside
    each theorem an example shows its hypotheses can be met. *)
From Coq Require Import ZArith String List Bool Lia.
From Verif Require Import PyBase BaseLemmas Utf8 Utf8Proofs Struct StructProofs Crc32 Primitives Snappy Messages
  Protocol SpecWire ProtocolProofs WireMore MessagesProofs SnappyProofs SpecCodec CompressProofs
  Request Schemas SpecDocs SpecRequest Constants RequestProofs WireProps.
Import ListNotations.
Open Scope Z_scope.

(** A codec obeying the laws, used in examples. *)
Definition demo_codec : codec :=
  {| gz_compress := fun b => 31 :: 139 :: b; gz_decompress := fun b => Ok (skipn 2 b);
     sn_available := true; sn_compress := fun b => b; sn_uncompress := fun b => Ok b |}.
Example demo_codec_laws : codec_laws demo_codec.
Proof.
  unfold codec_laws. repeat split; auto.
  - intro b. exists b. reflexivity.
  - intros b H. repeat constructor; auto; lia.
Qed.

(** * C01 Protocol structures survive the wire *)
Theorem C01_roundtrip : forall t v, distinct t -> canon t v ->
  exists bs, wire t v bs /\ to_bytes t v = Ok bs /\
    forall C depth pre post, parse C depth t (pre ++ bs ++ post) (zlen pre) = Ok (v, zlen pre + zlen bs).
Proof.
  intros t v D Cv. destruct (roundtrip_all t D v Cv) as (bs & W & f & d & R & P & _ & Pa).
  exists bs. split; [exact W|]. split; [unfold to_bytes; rewrite R; exact P|exact Pa].
Qed.

(** every protocol class is a layout the theorem applies to *)
Theorem C01_every_class : forall m c ps fs,
  In (m, c, ps) classes -> unpack_parts ps = Ok fs -> distinct (TPart fs).
Proof. exact every_class_distinct. Qed.

Ltac canon_example :=
  repeat first
    [ match goal with |- canon_var _ _ => cbn [canon_var] end
    | match goal with |- exists b, utf8_encode ?t = Some b /\ _ =>
        let r := eval vm_compute in (utf8_encode t) in
        match r with Some ?b => exists b; split; [vm_compute; reflexivity|vm_compute; reflexivity] end end
    | match goal with |- exists _, PInt ?z = _ /\ _ => exists z; split; [reflexivity|unfold fits; lia] end
    | match goal with |- exists _, PList ?z = _ /\ _ => exists z end
    | match goal with |- exists _, PObj ?z = _ /\ _ => exists z end
    | match goal with |- Forall _ _ => constructor end
    | match goal with |- _ /\ _ => split end
    | match goal with |- _ < _ => vm_compute; reflexivity end
    | match goal with |- @eq string _ _ => reflexivity end
    | match goal with |- @eq pyval (PList _) _ => reflexivity end
    | match goal with |- @eq pyval (PObj _) _ => reflexivity end
    | exact I ].

Definition demo_metadata : pyval :=
  (PObj [("brokers", PList [PObj [("broker_id", PInt 1); ("host", PStr (txt "kafka01")); ("port", PInt 9092)]]);
         ("topics", PList [PObj [("error_code", PInt 0); ("name", PStr [233; 8364]);
            ("partitions", PList [PObj [("error_code", PInt (-1)); ("partition_id", PInt 0); ("leader", PInt 1);
                                        ("replicas", PList [PInt 1; PInt 2]); ("isrs", PList [])]])]])])%string.
Example C01_example : distinct (TPart MetadataResponse) /\ canon (TPart MetadataResponse) demo_metadata.
Proof.
  split; [apply (C01_every_class "metadata" "MetadataResponse" (pairs MetadataResponse)); [cbn; tauto|reflexivity]|].
  unfold canon, demo_metadata. cbn [conforms MetadataResponse Broker TopicMetadata PartitionMetadata Str I32 I16 canon_prim canon_var bits_of].
  canon_example.
Qed.

(** * C02 Text, bytes and null stay distinct *)
Definition prefix_bytes (p : prim) : nat := match p with String_ => 2 | _ => 4 end.

Theorem C02_null : forall p C depth pre post, p = String_ \/ p = Bytes_ ->
  to_bytes (TPrim p) PNone = Ok (big_endian (prefix_bytes p) (-1)) /\
  parse C depth (TPrim p) (pre ++ big_endian (prefix_bytes p) (-1) ++ post) (zlen pre)
    = Ok (PNone, zlen pre + Z.of_nat (prefix_bytes p)).
Proof.
  intros p C depth pre post HP.
  pose proof (null_bytes p HP). pose proof (null_parse p C depth pre post HP).
  destruct HP as [-> | ->]; auto.
Qed.

Theorem C02_text : forall p t b C depth pre post, p = String_ \/ p = Bytes_ ->
  utf8_encode t = Some b -> zlen b < 2 ^ (bits_of p - 1) ->
  to_bytes (TPrim p) (PStr t) = Ok (big_endian (prefix_bytes p) (zlen b) ++ b) /\
  parse C depth (TPrim p) (pre ++ (big_endian (prefix_bytes p) (zlen b) ++ b) ++ post) (zlen pre)
    = Ok (PStr t, zlen pre + Z.of_nat (prefix_bytes p) + zlen b).
Proof.
  intros p t b C depth pre post HP E L.
  rewrite (text_bytes p t b HP E), (var_bytes_render p b HP L).
  pose proof (var_bytes_parse p b C depth pre post HP L) as X.
  rewrite (utf8_decode_encode _ _ E), zlen_app, big_endian_len, Z.add_assoc in X.
  destruct HP as [-> | ->]; auto.
Qed.

Theorem C02_bytes : forall p b C depth pre post, p = String_ \/ p = Bytes_ ->
  Forall is_byte b -> zlen b < 2 ^ (bits_of p - 1) ->
  to_bytes (TPrim p) (PBytes b) = Ok (big_endian (prefix_bytes p) (zlen b) ++ b) /\
  exists v, parse C depth (TPrim p) (pre ++ (big_endian (prefix_bytes p) (zlen b) ++ b) ++ post) (zlen pre)
              = Ok (v, zlen pre + Z.of_nat (prefix_bytes p) + zlen b) /\
    ((exists t, v = PStr t /\ utf8_encode t = Some b) \/
     (v = PBytes b /\ forall t, utf8_encode t <> Some b)).
Proof.
  intros p b C depth pre post HP FB L.
  rewrite (var_bytes_render p b HP L).
  pose proof (var_bytes_parse p b C depth pre post HP L) as X.
  rewrite zlen_app, big_endian_len, Z.add_assoc in X.
  split; [destruct HP as [-> | ->]; reflexivity|].
  exists (match utf8_decode b with Some t => PStr t | None => PBytes b end).
  split; [destruct HP as [-> | ->]; exact X|].
  destruct (utf8_decode b) as [t|] eqn:E.
  - left. exists t. split; [reflexivity|]. now apply utf8_encode_decode.
  - right. split; [reflexivity|]. intros t Et. apply utf8_decode_encode in Et. congruence.
Qed.

Example C02_example :
  utf8_encode [233; 8364; 128512] = Some [195; 169; 226; 130; 172; 240; 159; 152; 128] /\
  utf8_decode [255; 254] = None /\ 9 < 2 ^ (bits_of String_ - 1).
Proof. repeat split. Qed.

(** * C03 No silent truncation when serializing: whatever is produced stands for the given value *)
Theorem C03_no_silent_truncation : forall t v bs, bytes_ok v -> to_bytes t v = Ok bs ->
  exists v', reads_as t v v' /\ legal t v' /\ wire t v' bs.
Proof.
  intros t v bs B E. unfold to_bytes in E. destruct (render t v) as [[f d]|] eqn:R; [|discriminate].
  destruct (all_legal t v f d bs B R E) as (_ & v' & R1 & W & L). eauto.
Qed.

(** and, without message sets, decodes to that value *)
Theorem C03_decodes : forall t v bs, no_msgset t -> bytes_ok v -> to_bytes t v = Ok bs ->
  exists v', reads_as t v v' /\
    forall C depth pre post, parse C depth t (pre ++ bs ++ post) (zlen pre) = Ok (v', zlen pre + zlen bs).
Proof.
  intros t v bs NM B E. destruct (C03_no_silent_truncation t v bs B E) as (v' & R & L & W).
  exists v'. split; [exact R|]. intros. apply reads_back_all; [|exact W].
  eapply conforms_no_msgset; eauto.
Qed.

Theorem C03_out_of_range_raises : forall p z, p <> String_ -> p <> Bytes_ ->
  ~ fits (bits_of p) z -> to_bytes (TPrim p) (PInt z) = Err EStruct.
Proof. exact int_out_of_range. Qed.

Theorem C03_too_long_raises : forall p b, p = String_ \/ p = Bytes_ ->
  2 ^ (bits_of p - 1) <= zlen b -> to_bytes (TPrim p) (PBytes b) = Err EStruct /\
  forall t, utf8_encode t = Some b -> to_bytes (TPrim p) (PStr t) = Err EStruct.
Proof.
  intros p b HP L. split; [now apply var_too_long|].
  intros t E. rewrite (text_bytes p t b HP E). now apply var_too_long.
Qed.

Theorem C03_missing_raises : forall p, p <> String_ -> p <> Bytes_ -> to_bytes (TPrim p) PNone = Err EStruct.
Proof. intros [] H1 H2; try congruence; reflexivity. Qed.

Example C03_example : bytes_ok (PObj [("name", PBytes [255]); ("partitions", PList [PInt 1])])%string /\
  exists bs, to_bytes (TPart ofetch_TopicRequest) (PObj [("name", PBytes [255]); ("partitions", PList [PInt 1])])%string = Ok bs.
Proof. split; [cbn; repeat constructor; lia|]. eexists. vm_compute. reflexivity. Qed.
Example C03_example2 : ~ fits (bits_of Int32) (2 ^ 31) /\
  exists b, 2 ^ (bits_of String_ - 1) <= zlen b /\ utf8_encode (repeat 97 (Z.to_nat 32768)) = Some b.
Proof.
  split; [unfold fits, bits_of; lia|].
  assert (V : match utf8_encode (repeat 97 (Z.to_nat 32768)) with Some b => 32768 <=? zlen b | None => false end = true)
    by (vm_compute; reflexivity).
  destruct (utf8_encode (repeat 97 (Z.to_nat 32768))) as [b|]; [|discriminate].
  exists b. split; [apply Z.leb_le in V; exact V|reflexivity].
Qed.

(** * C04 Truncated responses are rejected, never mis-read *)
Theorem C04_truncated_rejected : forall t v bs c rest C depth pre,
  no_msgset t -> received t v -> wire t v bs -> bs = c ++ rest -> rest <> [] ->
  parse C depth t (pre ++ c) (zlen pre) = Err EStruct.
Proof. exact truncated_rejected. Qed.

(** any bytes: never reads outside the buffer (the model has no other error than Python's) *)
Theorem C04_within_buffer : forall C depth t b off v o, clean_codec C ->
  0 <= off <= zlen b -> parse C depth t b off = Ok (v, o) -> off <= o <= zlen b.
Proof. intros C depth t b off v o CC H. apply (proj2 (parse_total C depth t CC b off H)). Qed.

(** full property: for every layout; proved without message sets *)
Theorem C04_local_partial : forall C depth t b off v o b', no_msgset t ->
  0 <= off <= zlen b -> parse C depth t b off = Ok (v, o) ->
  firstn (Z.to_nat o) b' = firstn (Z.to_nat o) b -> parse C depth t b' off = Ok (v, o).
Proof.
  intros C depth t b off v o b' NM H E A.
  apply (proj2 (parse_local C depth t NM b off v o H E)). symmetry. exact A.
Qed.

(** with message sets the result does depend on what follows *)
Theorem C04_local_refuted : exists C depth b off v o b',
  0 <= off <= zlen b /\ parse C depth TMsgSet b off = Ok (v, o) /\
  firstn (Z.to_nat o) b' = firstn (Z.to_nat o) b /\ parse C depth TMsgSet b' off <> Ok (v, o).
Proof.
  exists demo_codec, O, [0; 0; 0; 1; 0], 0, (PMsgSet []), 4, ([0; 0; 0; 1; 0] ++ repeat 0 30%nat).
  split; [vm_compute; split; discriminate|]. split; [reflexivity|]. split; [reflexivity|].
  vm_compute. discriminate.
Qed.

Example C04_example : exists bs, wire (TPart OffsetFetchRequest)
    (PObj [("group_name", PStr (txt "g")); ("topics", PList [])])%string bs /\ bs <> [] /\
  received (TPart OffsetFetchRequest) (PObj [("group_name", PStr (txt "g")); ("topics", PList [])])%string /\
  no_msgset (TPart OffsetFetchRequest).
Proof.
  eexists. split; [|split; [|split]].
  - constructor. eapply wf_cons; [constructor; apply wv_text; reflexivity|].
    eapply wf_cons; [constructor; apply wi_nil|]. apply wf_nil.
  - vm_compute. discriminate.
  - unfold received. cbn [conforms OffsetFetchRequest ofetch_TopicRequest Str I32 canon_prim canon_var bits_of]. canon_example.
  - cbn. tauto.
Qed.

(** * C05 Request framing *)
Theorem C05_request_framing : forall api fs kw last attrs last' bs,
  In (api, fs) request_classes -> NoDup (map fst kw) -> bytes_ok (PObj kw) ->
  request_init api fs kw last = Ok (attrs, last') -> request_bytes fs attrs = Ok bs ->
  exists key payload v',
    In (api, key) kafka_api_numbers /\
    bs = request_frame key last' payload /\
    last' = last + 1 /\ fits 32 last' /\ fits 32 (zlen (request_body key last' payload)) /\
    reads_as (TPart fs) (PObj kw) v' /\ wire (TPart fs) v' payload /\ legal (TPart fs) v'.
Proof. exact request_framing_classes. Qed.

(** the frame determines the api, the correlation id and the payload *)
Theorem C05_frame_readable : forall a1 k1 c1 p1 a2 k2 c2 p2,
  In (a1, k1) kafka_api_numbers -> In (a2, k2) kafka_api_numbers -> fits 32 c1 -> fits 32 c2 ->
  request_frame k1 c1 p1 = request_frame k2 c2 p2 -> a1 = a2 /\ k1 = k2 /\ c1 = c2 /\ p1 = p2.
Proof. exact frame_readable. Qed.

(** requests with legal field values are serialized *)
Theorem C05_legal_requests_serialize : forall api fs kw last,
  In (api, fs) request_classes -> NoDup (map fst kw) -> incl (map fst kw) (map fst fs) ->
  canon (TPart fs) (PObj (map (fun nt => (fst nt, lookup_attr kw (fst nt))) fs)) ->
  fits 32 (last + 1) ->
  (forall payload, wire (TPart fs) (PObj (map (fun nt => (fst nt, lookup_attr kw (fst nt))) fs)) payload ->
     zlen payload + 14 < 2 ^ 31) ->
  exists attrs key payload,
    request_init api fs kw last = Ok (attrs, last + 1) /\ In (api, key) kafka_api_numbers /\
    wire (TPart fs) (PObj (map (fun nt => (fst nt, lookup_attr kw (fst nt))) fs)) payload /\
    request_bytes fs attrs = Ok (request_frame key (last + 1) payload).
Proof. exact legal_requests_serialize. Qed.

Example C05_example : exists attrs bs,
  request_init "metadata" MetadataRequest [("topics"%string, PList [PStr (txt "t")])] 41 = Ok (attrs, 42) /\
  request_bytes MetadataRequest attrs = Ok bs /\ In ("metadata"%string, MetadataRequest) request_classes.
Proof.
  do 2 eexists. split; [reflexivity|]. split; [vm_compute; reflexivity|]. cbn. tauto.
Qed.

(** * C06 Message checksum *)
Theorem C06_checksum_partial : forall m f d bs, bytes_ok (m_key m) -> bytes_ok (m_value m) ->
  msg_render m = Ok (f, d) -> pack f d = Ok bs ->
  exists payload, bs = big_endian 4 (signed32 (crc32 payload)) ++ payload /\
    Forall is_byte payload /\ 0 <= crc32 payload < 2 ^ 32.
Proof. intros m f d bs Bk Bv. apply message_checksum. split; assumption. Qed.

(** missing: "every message": a message whose checksum is exactly 2^31 cannot be serialized *)
Theorem C06_every_message_refuted : exists m p, legal_msg m /\ wire_payload m p /\
  to_bytes TMsgSet (PMsgSet [(PInt 0, m)]) = Err EStruct.
Proof.
  exists (Msg PNone (PInt 0) (PInt 0) PNone (PStr [34; 117; 117; 111; 104; 111; 118; 109; 34])).
  eexists. split; [|split; [|vm_compute; reflexivity]].
  - cbn [legal_msg canon_var]. split; [unfold fits; lia|]. split; [unfold fits; lia|]. split; [exact I|].
    exists [34; 117; 117; 111; 104; 111; 118; 109; 34]. split; vm_compute; reflexivity.
  - constructor; [apply wv_null|apply wv_text; reflexivity].
Qed.

Example C06_example : exists f d bs, msg_render (Msg PNone (PInt 0) (PInt 0) (PStr (txt "k")) (PBytes [1; 2; 255])) = Ok (f, d)
  /\ pack f d = Ok bs.
Proof. do 3 eexists. split; vm_compute; reflexivity. Qed.

(** * C07 Message sets survive the wire *)
Theorem C07_message_sets : forall C depth ms b,
  Forall (fun om => bytes_ok (m_key (snd om)) /\ bytes_ok (m_value (snd om)) /\ m_attributes (snd om) = PInt 0) ms ->
  to_bytes TMsgSet (PMsgSet ms) = Ok b ->
  exists out entries, b = big_endian 4 (zlen entries) ++ entries /\ wire_entries out entries /\
    Forall2 (fun om om' => fst om' = fst om /\ msg_reads (snd om) (snd om')) ms out /\
    forall pre post, parse C depth TMsgSet (pre ++ b ++ post) (zlen pre) = Ok (PMsgSet out, zlen pre + zlen b).
Proof.
  intros C depth ms b F. apply set_read_back. eapply Forall_impl; [|exact F].
  intros om (A & B & D). split; [split; assumption|exact D].
Qed.

(** sets whose checksums are not the exceptional value do serialize, and read back identically *)
Theorem C07_sets_serialize : forall ms, canon_set ms ->
  exists b, wire TMsgSet (PMsgSet ms) b /\ to_bytes TMsgSet (PMsgSet ms) = Ok b /\
    forall C depth pre post, parse C depth TMsgSet (pre ++ b ++ post) (zlen pre) = Ok (PMsgSet ms, zlen pre + zlen b).
Proof. intros ms H. apply (C01_roundtrip TMsgSet (PMsgSet ms)); [exact I|]. exists ms. auto. Qed.

Example C07_example : exists b, to_bytes TMsgSet
  (PMsgSet [(PInt (-1), Msg PNone (PInt 0) (PInt 0) PNone (PStr (txt "a")));
            (PInt 7, Msg PNone (PInt 0) (PInt 0) (PBytes [200]) PNone)]) = Ok b.
Proof. eexists. vm_compute. reflexivity. Qed.

(** * C08 Compression is transparent *)
Theorem C08_compression_partial : forall C comp msgs ms b depth,
  codec_laws C -> comp = 0 \/ comp = 1 \/ comp = 2 ->  (* none, gzip, snappy *)
  Forall (fun m => bytes_ok (m_key m) /\ bytes_ok (m_value m) /\ m_attributes m = PInt 0) msgs ->
  (comp = 2 -> forall inner raw,
     Forall2 (fun m om => fst om = PInt (-1) /\ msg_reads m (snd om)) msgs inner -> wire_entries inner raw ->
     last_block_ok C raw) ->
  ms_compressed C comp msgs = Ok ms -> to_bytes TMsgSet (PMsgSet ms) = Ok b ->
  exists out, Forall2 (fun m om => fst om = PInt (-1) /\ msg_reads m (snd om)) msgs out /\
    forall pre post, parse C (S depth) TMsgSet (pre ++ b ++ post) (zlen pre) = Ok (PMsgSet out, zlen pre + zlen b).
Proof.
  intros C comp msgs ms b depth CL HC F SL. apply compressed_read_back; auto.
  - eapply Forall_impl; [|exact F]. intros m (A & B & D). split; [split; assumption|exact D].
  - intros E raw (inner & F2 & W). eapply SL; eauto.
Qed.

(** with gzip (and uncompressed) there is no side condition *)
Theorem C08_gzip : forall C comp msgs ms b depth,
  codec_laws C -> comp = 0 \/ comp = 1 ->
  Forall (fun m => bytes_ok (m_key m) /\ bytes_ok (m_value m) /\ m_attributes m = PInt 0) msgs ->
  ms_compressed C comp msgs = Ok ms -> to_bytes TMsgSet (PMsgSet ms) = Ok b ->
  exists out, Forall2 (fun m om => fst om = PInt (-1) /\ msg_reads m (snd om)) msgs out /\
    forall pre post, parse C (S depth) TMsgSet (pre ++ b ++ post) (zlen pre) = Ok (PMsgSet out, zlen pre + zlen b).
Proof.
  intros C comp msgs ms b depth CL HC F. apply C08_compression_partial; auto; [tauto|].
  intros ->. destruct HC; discriminate.
Qed.

(** the side condition for snappy is needed: the producer's messages vanish without an error *)
Definition vanishing : list pymsg :=
  [Msg PNone (PInt 0) (PInt 0) PNone (PBytes (repeat 97 (Z.to_nat 32743)))].
Definition vanishing_check (C : codec) (msgs : list pymsg) : bool :=
  match ms_compressed C SNAPPY msgs with
  | Ok ms => match to_bytes TMsgSet (PMsgSet ms) with
    | Ok b => match parse C 5 TMsgSet b 0 with
      | Ok (PMsgSet [], o) => o =? zlen b | _ => false end
    | _ => false end
  | _ => false end.
Lemma vanishing_sound C msgs : vanishing_check C msgs = true -> exists ms b,
  ms_compressed C SNAPPY msgs = Ok ms /\ to_bytes TMsgSet (PMsgSet ms) = Ok b /\
  parse C 5 TMsgSet b 0 = Ok (PMsgSet [], zlen b).
Proof.
  intro V. unfold vanishing_check in V.
  destruct (ms_compressed C SNAPPY msgs) as [ms|] eqn:E1; [|discriminate V].
  destruct (to_bytes TMsgSet (PMsgSet ms)) as [b|] eqn:E2; [|discriminate V].
  destruct (parse C 5 TMsgSet b 0) as [[v o]|] eqn:E3; [|discriminate V].
  destruct v as [| | | | | | |[|]]; try discriminate V. apply Z.eqb_eq in V. subst o.
  exists ms, b. auto.
Qed.
Theorem C08_snappy_refuted : exists C msgs ms b,
  codec_laws C /\ msgs <> [] /\
  Forall (fun m => bytes_ok (m_key m) /\ bytes_ok (m_value m) /\ m_attributes m = PInt 0) msgs /\
  ms_compressed C 2 msgs = Ok ms /\ to_bytes TMsgSet (PMsgSet ms) = Ok b /\
  parse C 5 TMsgSet b 0 = Ok (PMsgSet [], zlen b).
Proof.
  assert (V : vanishing_check demo_codec vanishing = true) by (vm_compute; reflexivity).
  destruct (vanishing_sound _ _ V) as (ms & b & H).
  exists demo_codec, vanishing, ms, b. split; [apply demo_codec_laws|]. split; [discriminate|].
  split; [|exact H]. constructor; [|constructor]. cbn [m_key m_value m_attributes bytes_ok].
  split; [exact I|]. split; [|reflexivity]. apply Forall_forall. intros x Hx. apply repeat_spec in Hx. subst. split; lia.
Qed.

Example C08_example : exists ms b,
  ms_compressed demo_codec GZIP [Msg PNone (PInt 0) (PInt 0) PNone (PStr (txt "x"))] = Ok ms /\
  to_bytes TMsgSet (PMsgSet ms) = Ok b.
Proof.
  do 2 eexists. split; [vm_compute; reflexivity|].
  match goal with |- to_bytes ?a ?b = _ => let x := eval vm_compute in (to_bytes a b) in change (to_bytes a b) with x end.
  reflexivity.
Qed.
Example C08_example_snappy : exists ms b,
  ms_compressed demo_codec SNAPPY [Msg PNone (PInt 0) (PInt 0) PNone (PStr (txt "x"))] = Ok ms /\
  to_bytes TMsgSet (PMsgSet ms) = Ok b /\ last_block_ok demo_codec (repeat 1 (Z.to_nat 27)).
Proof. do 2 eexists. split; [vm_compute; reflexivity|]. split; [vm_compute; reflexivity|]. right. vm_compute. discriminate. Qed.

(** * C09 Partial trailing messages are tolerated *)
Theorem C09_trailing_cut_partial : forall t v bs, wire_cut t v bs -> received t v ->
  forall C depth pre, exists o, parse C depth t (pre ++ bs) (zlen pre) = Ok (v, o).
Proof. exact cut_parse. Qed.

(** missing: cuts in any other partition than the last.  There the parser reads on into the bytes
    of the next partition: here it makes up the message "lo\0\0" at offset 7 and loses partition 1. *)
Definition cut_partition (k : nat) : bytes :=
  firstn k (big_endian 8 7 ++ big_endian 4 18 ++
            (let p := [0; 0] ++ big_endian 4 (-1) ++ big_endian 4 4 ++ txt "lost" in
             big_endian 4 (signed32 (crc32 p)) ++ p)).
Definition kept_msg : pymsg :=
  Msg (PInt (signed32 (crc32 ([0; 0] ++ big_endian 4 (-1) ++ big_endian 4 4 ++ txt "kept"))))
      (PInt 0) (PInt 0) PNone (PStr (txt "kept")).
Definition cut_response_value : pyval :=
  (PObj [("topics", PList [PObj [("name", PStr (txt "t")); ("partitions", PList [
     PObj [("partition_id", PInt 0); ("error_code", PInt 0); ("highwater_mark_offset", PInt 10); ("message_set", PMsgSet [])];
     PObj [("partition_id", PInt 1); ("error_code", PInt 0); ("highwater_mark_offset", PInt 10);
           ("message_set", PMsgSet [(PInt 3, kept_msg)])]])]])])%string.

Theorem C09_any_partition_refuted : exists v bs out,
  wire_cuts (TPart FetchResponse) v bs /\ received (TPart FetchResponse) v /\
  deserialize demo_codec 3 (TPart FetchResponse) bs = Ok out /\ out <> v /\
  exists m, In (PInt 7, m) (match lookup_attr (match lookup_attr (match out with PObj a => a | _ => [] end) "topics" with
      PList [PObj a] => a | _ => [] end) "partitions" with
      PList (PObj a :: _) => match lookup_attr a "message_set" with PMsgSet ms => ms | _ => [] end | _ => [] end)%string
    /\ m_value m = PStr [108; 111; 0; 0].
Proof.
  exists cut_response_value. eexists. eexists. split; [|split; [|split; [|split]]].
  - unfold cut_response_value. apply wcs_part.
    eapply cuf_cons; [|apply cuf_nil]. apply wcs_array. eapply cui_cons; [|apply cui_nil].
    apply wcs_part. eapply cuf_cons; [apply wcs_whole; constructor; apply wv_text; reflexivity|].
    eapply cuf_cons; [|apply cuf_nil]. apply wcs_array.
    eapply cui_cons; [|eapply cui_cons; [|apply cui_nil]].
    + apply wcs_part.
      eapply cuf_cons; [apply wcs_whole; apply (w_int Int32 0 4); tauto|].
      eapply cuf_cons; [apply wcs_whole; apply (w_int Int16 0 2); tauto|].
      eapply cuf_cons; [apply wcs_whole; apply (w_int Int64 10 8); tauto|].
      eapply cuf_cons; [|apply cuf_nil]. apply wcs_set.
      eapply (wc_set [] [] 7 (Msg PNone (PInt 0) (PInt 0) PNone (PStr (txt "lost"))) _ (cut_partition 28)
               (txt "st")).
      * constructor.
      * unfold fits; lia.
      * cbn [legal_msg canon_var]. split; [unfold fits; lia|]. split; [unfold fits; lia|]. split; [exact I|].
        exists (txt "lost"). split; vm_compute; reflexivity.
      * constructor; [apply wv_null|apply wv_text; reflexivity].
      * vm_compute. reflexivity.
      * eapply (eq_ind _ (wire_entries _)).
        { eapply we_cons; [|apply we_nil]. constructor; [apply wv_null|apply wv_text; reflexivity]. }
        vm_compute. reflexivity.
      * discriminate.
      * vm_compute. reflexivity.
    + apply wcs_whole. constructor.
      eapply wf_cons; [apply (w_int Int32 1 4); tauto|].
      eapply wf_cons; [apply (w_int Int16 0 2); tauto|].
      eapply wf_cons; [apply (w_int Int64 10 8); tauto|].
      eapply wf_cons; [|apply wf_nil]. apply w_set. eapply we_cons; [|apply we_nil].
      constructor; [apply wv_null|apply wv_text; reflexivity].
  - unfold received, cut_response_value.
    cbn [conforms FetchResponse fetch_TopicResponse fetch_PartitionResponse Str I32 I16 I64 canon_prim canon_var bits_of].
    canon_example.
    + exists []. split; [reflexivity|]. split; [constructor|]. exists []. split; [constructor|reflexivity].
    + exists [(PInt 3, kept_msg)]. split; [reflexivity|].
      assert (W : wire_payload kept_msg ((big_endian 1 0 ++ big_endian 1 0 ++ big_endian 4 (-1) ++ (big_endian 4 4 ++ txt "kept")))).
      { apply (wp _ 0 0 PNone (PStr (txt "kept")) (big_endian 4 (-1)) (big_endian 4 4 ++ txt "kept")).
        - apply wv_null. - apply (wv_text 4 (txt "kept") (txt "kept")). reflexivity. }
      split.
      * constructor; [|constructor]. split; [exists 3; split; [reflexivity|unfold fits; lia]|].
        unfold kept_msg. cbn [snd received_msg canon_var]. split; [unfold fits; lia|]. split; [exact I|].
        split; [exists (txt "kept"); split; vm_compute; reflexivity|].
        eexists. split; [exact W|]. reflexivity.
      * eexists. split; [eapply we_cons; [exact W|apply we_nil]|]. vm_compute. reflexivity.
  - vm_compute. reflexivity.
  - vm_compute. discriminate.
  - eexists. split; [vm_compute; left; reflexivity|]. reflexivity.
Qed.

Example C09_example : exists bs, wire_cut TMsgSet (PMsgSet []) bs /\ received TMsgSet (PMsgSet []) /\ zlen bs = 32.
Proof.
  eexists. split; [|split; [|]].
  - eapply (wc_set [] [] 7 (Msg PNone (PInt 0) (PInt 0) PNone (PStr (txt "lost"))) _ (cut_partition 28) (txt "st")).
      * constructor.
      * unfold fits; lia.
      * cbn [legal_msg canon_var]. split; [unfold fits; lia|]. split; [unfold fits; lia|]. split; [exact I|].
        exists (txt "lost"). split; vm_compute; reflexivity.
      * constructor; [apply wv_null|apply wv_text; reflexivity].
      * vm_compute. reflexivity.
      * eapply (eq_ind _ (wire_entries _)).
        { eapply we_cons; [|apply we_nil]. constructor; [apply wv_null|apply wv_text; reflexivity]. }
        vm_compute. reflexivity.
      * discriminate.
      * vm_compute. reflexivity.
  - exists []. split; [reflexivity|]. split; [constructor|]. exists []. split; [constructor|reflexivity].
  - vm_compute. reflexivity.
Qed.

(** * C10 Snappy framing round trip *)
Theorem C10_framing_partial : forall comp unc data z,
  (forall b, Forall is_byte b -> unc (comp b) = Ok b) -> Forall is_byte data ->
  data = [] \/ 12 <= zlen (comp (last (chunks data) [])) ->
  snappy_compress true comp data = Ok z -> snappy_decompress true unc z = Ok data.
Proof. intros comp unc data z H. apply snappy_rt; exact H. Qed.

(** missing: a last block whose compressed form is shorter than 12 bytes is dropped without error *)
Theorem C10_short_block_refuted : forall comp unc data z,
  data <> [] -> zlen data <= 32768 -> zlen (comp data) < 12 ->
  snappy_compress true comp data = Ok z -> snappy_decompress true unc z = Ok [].
Proof. intros. eapply snappy_short_block_lost; eauto. Qed.

Example C10_example : exists z, snappy_compress true (fun b => b) (repeat 5 20%nat) = Ok z /\
  12 <= zlen (last (chunks (repeat 5 20%nat)) []).
Proof. eexists. split; vm_compute; [reflexivity|discriminate]. Qed.
Example C10_example_refuted : exists z, snappy_compress true (fun b => b) [1; 2; 3] = Ok z.
Proof. eexists. vm_compute. reflexivity. Qed.

(** * C11 Correlation ids are unique *)
Theorem C11_unique : forall n machine pid, NoDup (first_ids n (seed machine pid)).
Proof. intros. apply first_ids_nodup. Qed.

Theorem C11_fit_partial : forall n machine pid, Z.of_nat n < 2 ^ 31 - 2 ^ 24 ->
  Forall (fits 32) (first_ids n (seed machine pid)).
Proof. exact first_ids_fit. Qed.

(** missing: after about two billion requests the id no longer fits and no request can be sent *)
Theorem C11_fit_refuted : forall machine pid, exists n id,
  In id (first_ids n (seed machine pid)) /\ ~ fits 32 id /\
  forall api fs kw attrs, In (api, fs) request_classes -> NoDup (map fst kw) -> bytes_ok (PObj kw) ->
    request_init api fs kw (id - 1) = Ok (attrs, id) -> forall bs, request_bytes fs attrs <> Ok bs.
Proof. exact ids_overflow. Qed.

Example C11_example : first_ids 3 (seed 16777214 1) = [16777216; 16777217; 16777218].
Proof. vm_compute. reflexivity. Qed.

(** * C12 Declared wire layouts match their documented grammar *)
Theorem C12_layouts_partial : forall m c ps, In (m, c, ps) classes -> ~ In (m, c) undocumented_layout ->
  exists fs ds, documented m c = Some ds /\ unpack_parts ps = Ok fs /\ matches_fields m ds fs.
Proof. exact layouts_documented. Qed.

Theorem C12_construct_partial : forall m c ps ds kw, In (m, c, ps) classes -> ~ In (m, c) undocumented_layout ->
  documented m c = Some ds -> NoDup (map fst kw) -> incl (map fst kw) (map fst ds) ->
  exists attrs, class_init ps kw = Ok attrs /\ forall n, lookup_attr attrs n = lookup_attr kw n.
Proof. exact documented_construct. Qed.

(** every documented class is covered *)
Theorem C12_all_classes : map fst docs = map fst classes.
Proof. vm_compute. reflexivity. Qed.

(** missing classes: no heartbeat can be built or parsed; a v1 offset commit has one partition
    where an array is documented; the coordinator request refuses its documented field *)
Theorem C12_heartbeat_refuted : forall kw,
  class_init HeartbeatRequest kw = Err EType /\ class_init HeartbeatResponse kw = Err EType /\
  unpack_parts HeartbeatRequest = Err EValue /\ unpack_parts HeartbeatResponse = Err EValue.
Proof. intro kw. repeat split; reflexivity. Qed.
Theorem C12_commit_v1_refuted : forall ds, documented "offset_commit" "TopicV1Request" = Some ds ->
  ~ matches_fields "offset_commit" ds commit_TopicV1Request.
Proof. exact commit_v1_mismatch. Qed.
Theorem C12_coordinator_refuted : exists ds, documented "coordinator" "GroupCoordinatorRequest" = Some ds /\
  In "group_id"%string (map fst ds) /\ forall v, class_init (pairs GroupCoordinatorRequest) [("group_id"%string, v)] = Err EValue.
Proof. eexists. split; [reflexivity|]. split; [left; reflexivity|]. intro v. reflexivity. Qed.

(** * C13 Error codes are classified consistently *)
Theorem C13_retriable_exactly_documented : forall c, is_retriable c = true <-> exists n, In (c, n) kafka_retriable.
Proof. exact retriable_iff_documented. Qed.
Theorem C13_retriable_names : forall c n, In (c, n) kafka_retriable -> error_name c = Ok n.
Proof. exact retriable_names. Qed.
Theorem C13_names : forall c n, error_name c = Ok n <-> In (c, n) kafka_errors.
Proof. exact error_names_documented. Qed.
(** the codes the clients compare with are those of their names *)
Theorem C13_constants : incl
  [(no_error, "no_error"); (offset_out_of_range, "offset_out_of_range"); (unknown_topic_or_partition, "unknown_topic_or_partition"); (leader_not_available, "leader_not_available");
   (replica_not_available, "replica_not_available"); (offset_metadata_too_large, "offset_metadata_too_large"); (offsets_load_in_progress, "offsets_load_in_progress")]%string kafka_errors.
Proof. intros x H. cbn [In] in H. repeat (destruct H as [<-|H]; [cbn; tauto|]). destruct H. Qed.
Theorem C13_disjoint : forall c, c = no_error -> is_retriable c = false /\ error_name c = Ok "no_error"%string.
Proof. intros c ->. split; reflexivity. Qed.
Theorem C13_unknown_codes : forall c, (forall n, error_name c <> Ok n) -> c <> no_error /\ is_retriable c = false.
Proof. exact unknown_codes. Qed.
Example C13_example : error_name 13 = Err EKey /\ is_retriable 5 = true /\ error_name 5 = Ok "leader_not_available"%string.
Proof. repeat split. Qed.

Print Assumptions C01_roundtrip.
Print Assumptions C03_decodes.
Print Assumptions C04_truncated_rejected.
Print Assumptions C05_request_framing.
Print Assumptions C05_legal_requests_serialize.
Print Assumptions C07_message_sets.
Print Assumptions C08_compression_partial.
Print Assumptions C09_trailing_cut_partial.
Print Assumptions C10_framing_partial.
Print Assumptions C12_layouts_partial.
