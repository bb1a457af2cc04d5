(** What kiel writes to produce messages is a produce request in Kafka's grammar (SpecKafka.v). *)
From Coq Require Import ZArith String List Bool Lia ZifyBool.
From Verif Require Import PyBase BaseLemmas Utf8 Utf8Proofs Struct StructProofs Crc32 Primitives Messages Snappy SnappyProofs Protocol ProtocolProofs Constants Schemas Request SpecWire WireMore MessagesProofs SpecRequest RequestProofs SpecCodec CompressProofs WireProps Cluster Producer ProducerWire SpecProduced ProducerBytes SpecKafka KafkaProofs.
Import ListNotations.
Open Scope Z_scope.

Lemma blob_of v b : canon_var 32 v -> wire_var 4 v b -> exists o, b = kw_blob o /\ all_bytes o /\ kw_field o = v.
Proof.
  intros C W. inversion W as [|t u U|u]; subst.
  - exists None. repeat split.
  - exists (Some u). split; [reflexivity|]. split; [now apply utf8_encode_bytes in U|]. cbn. now rewrite (utf8_decode_encode _ _ U).
  - cbn [canon_var] in C. destruct C as (B & N & _). exists (Some u). split; [reflexivity|]. split; [exact B|]. cbn. now rewrite N.
Qed.
(** a message as kiel's object, its stored checksum aside *)
Definition shows (a : Z) (m : pymsg) (km : kmsg) : Prop :=
  m_magic m = PInt 0 /\ m_attributes m = PInt a /\ m_key m = kw_field (km_key km) /\ m_value m = kw_field (km_value km).
Lemma body_of a m p : m_magic m = PInt 0 -> m_attributes m = PInt a -> legal_msg m -> wire_payload m p -> exists km, p = kw_body a km /\ all_bytes (km_key km) /\ all_bytes (km_value km) /\ shows a m km.
Proof.
  intros G A L W. inversion W as [c g a' k v kb vb Wk Wv]; subst. cbn in G, A. injection G as ->. injection A as ->. destruct L as (_ & _ & Ck & Cv).
  destruct (blob_of _ _ Ck Wk) as (ko & -> & Bk & Ek). destruct (blob_of _ _ Cv Wv) as (vo & -> & Bv & Ev). exists (KMsg ko vo). unfold kw_body. cbn [km_key km_value]. rewrite big_endian_0. repeat split; auto.
Qed.
Lemma entry_of a o m p : m_magic m = PInt 0 -> m_attributes m = PInt a -> fits 64 o -> legal_msg m -> wire_payload m p -> 4 + zlen p < 2 ^ 31 ->
  exists km, kw_entry o a km (big_endian 8 o ++ big_endian 4 (4 + zlen p) ++ big_endian 4 (signed32 (crc32 p)) ++ p) /\ shows a m km.
Proof.
  intros G A F L W S. destruct (body_of a m p G A L W) as (km & -> & Bk & Bv & SH). exists km. split; [|exact SH]. unfold kw_entry. rewrite big_endian_signed. auto 6.
Qed.
Definition ready (a : Z) (om : pyval * pymsg) : Prop :=
  m_magic (snd om) = PInt 0 /\ m_attributes (snd om) = PInt a /\ (exists o, fst om = PInt o /\ fits 64 o) /\ legal_msg (snd om) /\ exists p, wire_payload (snd om) p /\ 4 + zlen p < 2 ^ 31.
Lemma payload_unique m p p' : wire_payload m p -> wire_payload m p' -> p = p'.
Proof.
  assert (V : forall v b b', wire_var 4 v b -> wire_var 4 v b' -> b = b'). { intros v b b' H H'. inversion H; subst; inversion H'; subst; congruence. }
  intros H H'. inversion H; subst. inversion H'; subst. f_equal. f_equal. f_equal; eapply V; eassumption.
Qed.
Lemma plain_of out raw : wire_entries out raw -> Forall (ready 0) out ->
  exists kms, kw_plain kms raw /\ Forall2 (fun om km => fst om = PInt (fst km) /\ shows 0 (snd om) (snd km)) out kms.
Proof.
  induction 1 as [|o m p r rb W E IH]; intros F; inversion F as [|? ? H F']; subst.
  - exists []. split; [exists []; split; [constructor|reflexivity]|constructor].
  - destruct (IH F') as (kms & (bs & FB & ->) & FS). destruct H as (G & A & (o' & Eo & Fo) & L & p' & W' & S). cbn [fst snd] in *. injection Eo as <-. rewrite (payload_unique _ _ _ W' W) in S.
    destruct (entry_of 0 o m p G A Fo L W S) as (km & K & SH). exists ((o, km) :: kms). split; [|constructor; auto].
    eexists (_ :: bs). split; [constructor; [exact K|exact FB]|]. cbn [concat]. rewrite <- !app_assoc. reflexivity.
Qed.
Lemma plain_set C least kms raw : kw_plain kms raw -> kw_set C least kms raw.
Proof. intros (bs & F & ->). induction F as [|[o m] b kms bs E F IH]; cbn [concat]; [constructor|]. apply ks_plain; assumption. Qed.

Lemma made_attrs m : made m -> msg_bytes_ok m /\ m_attributes m = PInt 0 /\ m_magic m = PInt 0.
Proof. intros (k & v & -> & Uk & Uv). repeat split; now apply usable_ok. Qed.
Lemma shows_reads m om km : msg_reads m om -> shows 0 om km -> msg_reads m (kw_read km).
Proof. intros (A & B & K & V) (A' & B' & K' & V'). unfold msg_reads, kw_read. cbn [m_magic m_attributes m_key m_value]. rewrite <- A, <- B, <- K', <- V'. auto. Qed.

Section Produced.
  Variable C : codec.
  Variable comp : Z.
  Hypothesis CL : codec_laws C.
  Hypothesis SUP : comp = 0 \/ comp = GZIP \/ comp = SNAPPY.

  (** the messages of a set: without offsets (-1), each reading as what was produced *)
  Definition kept (m : pymsg) (om : Z * kmsg) : Prop := fst om = -1 /\ msg_reads m (kw_read (snd om)).
  Lemma loop_plain msgs f d n raw : Forall made msgs -> ms_render_loop (map (fun m => (PInt (-1), m)) msgs) = Ok (f, d, n) -> pack f d = Ok raw ->
    exists kms, kw_plain kms raw /\ Forall2 kept msgs kms.
  Proof using Type.
    intros M R P. assert (B : Forall (fun om => msg_bytes_ok (snd om)) (map (fun m => (PInt (-1), m)) msgs)). { apply Forall_map. eapply Forall_impl; [|exact M]. intros m H. now apply made_attrs. }
    destruct (ms_loop_legal _ _ _ _ _ B R P) as (_ & _ & out & F2 & W & Lg & Sz).
    assert (G : Forall (ready 0) out /\ Forall2 (fun m om => fst om = PInt (-1) /\ msg_reads m (snd om)) msgs out).
    { clear - M F2 Lg Sz. revert out F2 Lg Sz. induction M as [|m msgs H M IH]; intros out F2 Lg Sz; inversion F2 as [|? om ? out' [E1 E2] F2']; subst; [split; constructor|].
      inversion Lg as [|? ? L1 Lg']; subst. inversion Sz as [|? ? S1 Sz']; subst. destruct (IH _ F2' Lg' Sz') as [G1 G2]. cbn [fst snd] in *. destruct (made_attrs _ H) as (_ & A & Mg).
      split; constructor; auto. destruct L1 as [L1 L2]. destruct E2 as (E2 & E3 & _). unfold ready. rewrite E2, E3. auto 6. }
    destruct G as [G1 G2]. destruct (plain_of _ _ W G1) as (kms & K & FS). exists kms. split; [exact K|]. clear - G2 FS. revert kms FS. induction G2 as [|m om msgs out [E1 E2] G2 IH]; intros kms FS; inversion FS as [|? km ? kms' [S1 S2] FS']; subst; constructor; auto.
    split; [congruence|]. eapply shows_reads; eassumption.
  Qed.
  Lemma envelope_entry cc z b : fits 8 cc -> Forall is_byte z -> utf8_decode z = None -> to_bytes TMsgSet (PMsgSet [(PInt (-1), Msg PNone (PInt 0) (PInt cc) PNone (PBytes z))]) = Ok b ->
    exists outer, b = big_endian 4 (zlen outer) ++ outer /\ zlen outer < 2 ^ 31 /\ kw_entry (-1) cc (KMsg None (Some z)) outer.
  Proof using Type.
    intros Fc FB ND TB. assert (BO : Forall (fun om : pyval * pymsg => msg_bytes_ok (snd om)) [(PInt (-1), Msg PNone (PInt 0) (PInt cc) PNone (PBytes z))]) by (constructor; [|constructor]; split; [exact I|exact FB]).
    destruct (ms_to_bytes _ _ TB BO) as (ms' & bb & -> & LB & W & F2 & Lg & Sz). inversion F2 as [|? om' ? r' [E1 E2] F2']; subst. inversion F2'; subst. destruct om' as [o' m']. cbn [fst snd] in *. subst o'.
    inversion Lg as [|? ? [_ L1] _]; subst. inversion Sz as [|? ? (p & W1 & S1) _]; subst. cbn [snd] in *. destruct E2 as (E2 & E3 & E4 & E5). cbn [m_magic m_attributes m_key m_value] in E2, E3, E4, E5. cbn [var_reads] in E4, E5. rewrite ND in E5.
    exists bb. split; [reflexivity|]. split; [exact LB|]. inversion W as [|o m q r rb Wp Wr]; subst. inversion Wr; subst. rewrite app_nil_r. rewrite (payload_unique _ _ _ W1 Wp) in S1.
    destruct (entry_of cc (-1) m' q E2 E3 ltac:(unfold fits; lia) L1 Wp S1) as ([k v] & K & (_ & _ & Ek & Ev)). cbn [km_key km_value] in Ek, Ev. rewrite E4 in Ek. rewrite E5 in Ev.
    destruct k as [k|]; [exfalso; cbn in Ek; destruct (utf8_decode k); discriminate|]. destruct v as [v|]; [|discriminate]. cbn in Ev. destruct (utf8_decode v); [discriminate|]. injection Ev as <-. exact K.
  Qed.
  Lemma set_produced msgs ms b : Forall made msgs -> ms_compressed C comp msgs = Ok ms -> to_bytes TMsgSet (PMsgSet ms) = Ok b ->
    exists kms s, b = big_endian 4 (zlen s) ++ s /\ zlen s < 2 ^ 31 /\ kw_set C 0 kms s /\ Forall2 kept msgs kms.
  Proof using CL SUP.
    intros M MC TB. unfold ms_compressed in MC. destruct (comp =? 0) eqn:C0.
    - apply Ok_inj in MC. subst ms. unfold to_bytes in TB. cbn [render] in TB. unfold ms_render in TB. destruct (ms_render_loop _) as [[[f d] n]|] eqn:R; [|discriminate]. cbn [bind] in TB.
      change (Fi :: f) with ([Fi] ++ f) in TB. change (PInt n :: d) with ([PInt n] ++ d) in TB. apply pack_app_inv in TB as (b1 & s & P1 & P2 & ->); [|reflexivity]. apply pack_i in P1 as [Fn ->].
      destruct (loop_plain _ _ _ _ _ M R P2) as (kms & K & FK). assert (B : Forall (fun om => msg_bytes_ok (snd om)) (map (fun m => (PInt (-1), m)) msgs)). { apply Forall_map. eapply Forall_impl; [|exact M]. intros m H. now apply made_attrs. }
      destruct (ms_loop_legal _ _ _ _ _ B R P2) as (_ & -> & _). exists kms, s. split; [reflexivity|]. split; [exact (proj2 Fn)|]. split; [now apply plain_set|exact FK].
    - destruct (ms_render (map (fun m => (PInt (-1), m)) msgs)) as [[f0 d0]|] eqn:R0; [|discriminate]. cbn [bind] in MC. unfold ms_render in R0. destruct (ms_render_loop _) as [[[f d] n]|] eqn:R; [|discriminate]. cbn [bind] in R0. apply Ok_inj in R0. injection R0 as <- <-. cbn [tl] in MC.
      destruct (pack f d) as [raw|] eqn:P; [|discriminate]. cbn [bind] in MC. destruct (loop_plain _ _ _ _ _ M R P) as (kms & K & FK).
      assert (RB : Forall is_byte raw). { eapply plain_raw_bytes; [|exact R|exact P]. eapply Forall_impl; [|exact M]. intros m H. destruct (made_attrs m H) as (? & ? & _). auto. }
      destruct CL as (GR & GM & GB & SA & SR & SB). exists kms.
      assert (ENV : forall cc z, fits 8 cc -> Forall is_byte z -> utf8_decode z = None -> kw_packed C 0 cc z raw -> to_bytes TMsgSet (PMsgSet [(PInt (-1), Msg PNone (PInt 0) (PInt cc) PNone (PBytes z))]) = Ok b ->
        exists s, b = big_endian 4 (zlen s) ++ s /\ zlen s < 2 ^ 31 /\ kw_set C 0 kms s /\ Forall2 kept msgs kms).
      { intros cc z Fc Bz Nz PK TB'. destruct (envelope_entry cc z b Fc Bz Nz TB') as (s & -> & Ls & E). exists s. split; [reflexivity|]. split; [exact Ls|]. split; [|exact FK]. rewrite <- (app_nil_r kms), <- (app_nil_r s). eapply ks_packed; [exact PK|exact K|exact E|constructor]. }
      destruct SUP as [-> | [-> | ->]]; [discriminate| |].
      + change (GZIP =? GZIP) with true in MC. cbn [bind] in MC. apply Ok_inj in MC. subst ms. apply (ENV GZIP (gz_compress C raw)); [unfold fits, GZIP; lia|now apply GB|destruct (GM raw) as [r ->]; apply utf8_decode_gzip| |exact TB].
        left. split; [reflexivity|]. split; [now apply GR|apply GM].
      + change (SNAPPY =? GZIP) with false in MC. change (SNAPPY =? SNAPPY) with true in MC. rewrite SA in MC. destruct (snappy_compress true (sn_compress C) raw) as [z|] eqn:SC; [|discriminate]. cbn [bind] in MC. apply Ok_inj in MC. subst ms.
        unfold snappy_compress in SC. cbn [negb] in SC. destruct (comp_blocks (sn_compress C) (length raw) raw) as [q|] eqn:CQ; [|discriminate]. cbn [bind] in SC. apply Ok_inj in SC. destruct (comp_blocks_inv _ _ _ _ CQ) as (Eq & SM & CC).
        assert (BB : Forall (Forall is_byte) (chunks_of (length raw) raw)) by (rewrite <- Forall_concat, CC; exact RB).
        apply (ENV SNAPPY z); [unfold fits, SNAPPY; lia| |subst z; reflexivity| |exact TB].
        * subst z. apply Forall_app. split; [unfold raw_header; repeat constructor; lia|]. subst q. rewrite body_xerial. rewrite Forall_concat. apply Forall_map, Forall_forall. intros x Hx. rewrite big_endian_be. apply Forall_app. split; [apply be_enc_bytes|]. apply SB. rewrite Forall_forall in BB. now apply BB.
        * right. split; [reflexivity|]. split; [exact SA|]. exists (map (sn_compress C) (chunks_of (length raw) raw)), (chunks_of (length raw) raw). split; [|split; [now rewrite CC|split; [|intros; apply zlen_nonneg]]].
          -- clear - SM BB SR. induction SM as [|c l S SM IH]; cbn [map]; [constructor|]. inversion BB; subst. constructor; [split; [now apply SR|exact S]|now apply IH].
          -- rewrite xerial_header. subst z q. rewrite body_xerial, map_map. reflexivity.
  Qed.

  Lemma array_bytes_count it vs b : to_bytes (TArray it) (PList vs) = Ok b -> zlen vs < 2 ^ 31.
  Proof using Type.
    unfold to_bytes at 1. cbn [render array_items bind]. intros H. destruct (render_items (render it) vs) as [[f d]|] eqn:R; [|discriminate]. cbn [bind] in H. change (Fi :: f) with ([Fi] ++ f) in H. change (PInt (zlen vs) :: d) with ([PInt (zlen vs)] ++ d) in H.
    apply pack_app_inv in H as (b1 & b2 & P1 & P2 & ->); [|reflexivity]. apply pack_i in P1 as [F _]. exact (proj2 F).
  Qed.
  (** the items of a list, each written with a value of its own *)
  Lemma items_said {A B D} (f : A -> res B) (w : B -> bytes -> Prop) (R : A -> D -> Prop) (K : D -> bytes -> Prop) l vs bs :
    Forall2 (fun x y => f x = Ok y) l vs -> Forall2 w vs bs -> (forall a v b, In a l -> f a = Ok v -> w v b -> exists d, R a d /\ K d b) -> exists ds, Forall2 R l ds /\ Forall2 K ds bs.
  Proof using Type.
    intros F. revert bs. induction F as [|a v l vs X F IH]; intros bs G H; inversion G as [|? b ? bs' W G']; subst; [exists []; split; constructor|].
    destruct (H a v b (or_introl eq_refl) X W) as (d & Rd & Kd). destruct (IH bs' G') as (ds & RD & KD); [intros; eapply H; [now right|eassumption..]|]. exists (d :: ds). split; constructor; assumption.
  Qed.
  Definition part_kept (pm : Z * list pmsg) (d : Z * list (Z * kmsg)) : Prop := fst d = fst pm /\ Forall2 (fun m om => kept (pm_msg m) om) (snd pm) (snd d).
  Definition topic_kept (tp : text * dict Z (list pmsg)) (d : text * list (Z * list (Z * kmsg))) : Prop := fst d = fst tp /\ Forall2 part_kept (snd tp) (snd d).
  Lemma produce_said rq bs : (forall t d p ms m, In (t, d) (pq_topics rq) -> In (p, ms) d -> In m ms -> made (pm_msg m)) -> produce_wire C comp rq = Ok bs ->
    exists payload d, bs = request_frame 0 (pq_corr rq) payload /\ kw_produce C 0 (pq_acks rq) (pq_timeout rq) d payload /\ Forall2 topic_kept (pq_topics rq) d.
  Proof using CL SUP.
    intros MD H. unfold produce_wire in H. destruct (produce_kwargs C comp rq) as [kw|] eqn:K; [|discriminate]. cbn [bind] in H. destruct (request_init "produce" ProduceRequest kw (pq_corr rq - 1)) as [[attrs last']|] eqn:RI; [|discriminate]. cbn [bind] in H.
    unfold produce_kwargs in K. destruct (map_res (topic_object C comp) (pq_topics rq)) as [ts|] eqn:T; [|discriminate]. cbn [bind] in K. injection K as <-.
    destruct (request_payload "produce" ProduceRequest _ _ _ _ _ produce_names (produce_names_distinct _ _ _) RI H) as (key & payload & EK & TB & -> & FC & FB). vm_compute in EK. injection EK as <-. replace (pq_corr rq - 1 + 1) with (pq_corr rq) in * by lia.
    exists payload. apply part_bytes_inv in TB as (l & -> & F1). unfold ProduceRequest in F1.
    inversion F1 as [|? x1 ? l1 X1 F2]; subst. inversion F2 as [|? x2 ? l2 X2 F3]; subst. inversion F3 as [|? x3 ? l3 X3 F4]; subst. inversion F4; subst. clear F1 F2 F3 F4. cbn [fst snd] in X1, X2, X3.
    change (to_bytes I16 (PInt (pq_acks rq)) = Ok x1) in X1. change (to_bytes I32 (PInt (pq_timeout rq)) = Ok x2) in X2. change (to_bytes (TArray (TPart produce_TopicRequest)) (PList ts) = Ok x3) in X3.
    apply int_bytes_inv in X1 as [-> A1]; [|discriminate..]. apply int_bytes_inv in X2 as [-> A2]; [|discriminate..]. pose proof (array_bytes_count _ _ _ X3) as CT. apply array_bytes_inv in X3 as (tbs & -> & FT). apply map_res_inv in T.
    destruct (items_said (topic_object C comp) _ topic_kept (kw_topic (kw_produce_part C 0)) _ _ _ T FT) as (ds & RD & KD).
    2: { exists ds. split; [reflexivity|]. split; [|exact RD]. exists (big_endian 2 (pq_acks rq)), (big_endian 4 (pq_timeout rq)), (big_endian 4 (zlen ts) ++ concat tbs). split; [now split|]. split; [now split|]. split; [|cbn [concat int_fmt int_width]; now rewrite app_nil_r].
         assert (Z1 : zlen ds = zlen ts) by (rewrite (same_len _ _ _ RD), (same_len _ _ _ T); reflexivity). exists tbs. rewrite Z1. auto. }
    clear T FT. intros [t d] v tb Hin TO TB. unfold topic_object in TO. cbn [fst snd] in TO. destruct (map_res (partition_object C comp) d) as [ps|] eqn:E; [|discriminate]. cbn [bind] in TO. injection TO as <-.
    apply part_bytes_inv in TB as (l & -> & F1). unfold produce_TopicRequest in F1. inversion F1 as [|? y1 ? m1 Y1 F2]; subst. inversion F2 as [|? y2 ? m2 Y2 F3]; subst. inversion F3; subst. clear F1 F2 F3. cbn [fst snd] in Y1, Y2.
    change (to_bytes (TPrim String_) (PStr t) = Ok y1) in Y1. change (to_bytes (TArray (TPart produce_PartitionRequest)) (PList ps) = Ok y2) in Y2. apply text_bytes_inv in Y1 as (n & En & Ln & ->). pose proof (array_bytes_count _ _ _ Y2) as CP. apply array_bytes_inv in Y2 as (pbs & -> & FP). apply map_res_inv in E.
    destruct (items_said (partition_object C comp) _ part_kept (kw_produce_part C 0) _ _ _ E FP) as (ds & RD & KD).
    2: { exists (t, ds). split; [split; [reflexivity|exact RD]|]. exists (big_endian 2 (zlen n) ++ n), (big_endian 4 (zlen ps) ++ concat pbs). cbn [fst snd]. split; [now exists n|]. split; [|cbn [concat]; now rewrite app_nil_r].
         assert (Z1 : zlen ds = zlen ps) by (rewrite (same_len _ _ _ RD), (same_len _ _ _ E); reflexivity). exists pbs. rewrite Z1. auto. }
    clear E FP. intros [p ms] v pb Hp PO PB. unfold partition_object in PO. cbn [fst snd] in PO. destruct (set_of C comp ms) as [s|] eqn:ES; [|discriminate]. cbn [bind] in PO. injection PO as <-.
    apply part_bytes_inv in PB as (l & -> & F1). unfold produce_PartitionRequest in F1. inversion F1 as [|? z1 ? k1 Z1 F2]; subst. inversion F2 as [|? z2 ? k2 Z2 F3]; subst. inversion F3; subst. clear F1 F2 F3. cbn [fst snd] in Z1, Z2.
    change (to_bytes I32 (PInt p) = Ok z1) in Z1. change (to_bytes TMsgSet (PMsgSet s) = Ok z2) in Z2. apply int_bytes_inv in Z1 as [-> A3]; [|discriminate..].
    destruct (set_produced (map pm_msg ms) s z2) as (kms & sb & -> & Ls & KS & FK); [|exact ES|exact Z2|].
    { apply Forall_map, Forall_forall. intros m Hm. eapply MD; eassumption. }
    exists (p, kms). split; [split; [reflexivity|]|].
    - cbn [snd]. clear - FK. revert kms FK. induction ms as [|m ms IH]; intros kms FK; inversion FK; subst; constructor; auto.
    - exists (big_endian 4 p), sb. cbn [fst snd concat]. rewrite app_nil_r. split; [now split|]. auto.
  Qed.
End Produced.
