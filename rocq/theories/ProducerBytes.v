(** Proofs for C63: from the rendered request to the documented bytes. *)
From Coq Require Import ZArith String List Bool Lia.
From Verif Require Import PyBase BaseLemmas Utf8 Utf8Proofs Struct StructProofs Primitives Messages Snappy SnappyProofs Protocol ProtocolProofs Constants Schemas Request SpecWire WireMore MessagesProofs SpecRequest RequestProofs SpecCodec CompressProofs WireProps Cluster Producer ProducerWire SpecProduced.
Import ListNotations.
Open Scope Z_scope.

Lemma part_bytes_inv fs attrs : forall b, to_bytes (TPart fs) (PObj attrs) = Ok b ->
  exists bs, b = concat bs /\ Forall2 (fun nt b => to_bytes (snd nt) (attr attrs (fst nt)) = Ok b) fs bs.
Proof.
  unfold to_bytes. rewrite render_part_fields. induction fs as [|[n t] fs IH]; intros b H; cbn [render_fields bind] in H.
  - cbn in H. injection H as <-. exists []. split; [reflexivity|constructor].
  - destruct (render t (attr attrs n)) as [[f d]|] eqn:R; [|discriminate]. cbn [bind] in H. destruct (render_fields fs attrs) as [[f' d']|] eqn:R'; [|discriminate]. cbn [bind] in H.
    apply pack_app_inv in H as (b1 & b2 & P1 & P2 & ->); [|eapply render_lengths; exact R]. destruct (IH b2) as (bs & -> & F). { cbn [bind]. exact P2. } exists (b1 :: bs). split; [reflexivity|]. constructor; [|exact F]. cbn [snd fst]. rewrite R. exact P1.
Qed.
Lemma items_bytes_inv it vs : forall f d b, render_items (render it) vs = Ok (f, d) -> pack f d = Ok b -> exists bs, b = concat bs /\ Forall2 (fun v b => to_bytes it v = Ok b) vs bs.
Proof.
  induction vs as [|v vs IH]; intros f d b R P; cbn [render_items] in R.
  - injection R as <- <-. cbn in P. injection P as <-. exists []. split; [reflexivity|constructor].
  - destruct (render it v) as [[f1 d1]|] eqn:R1; [|discriminate]. cbn [bind] in R. destruct (render_items (render it) vs) as [[f2 d2]|] eqn:R2; [|discriminate]. cbn [bind] in R. injection R as <- <-.
    apply pack_app_inv in P as (b1 & b2 & P1 & P2 & ->); [|eapply render_lengths; exact R1]. destruct (IH _ _ _ eq_refl P2) as (bs & -> & F). exists (b1 :: bs). split; [reflexivity|]. constructor; [|exact F]. unfold to_bytes. rewrite R1. exact P1.
Qed.
Lemma array_bytes_inv it vs b : to_bytes (TArray it) (PList vs) = Ok b -> exists bs, b = big_endian 4 (zlen vs) ++ concat bs /\ Forall2 (fun v b => to_bytes it v = Ok b) vs bs.
Proof.
  unfold to_bytes at 1. cbn [render array_items bind]. intros H. destruct (render_items (render it) vs) as [[f d]|] eqn:R; [|discriminate]. cbn [bind] in H. change (Fi :: f) with ([Fi] ++ f) in H. change (PInt (zlen vs) :: d) with ([PInt (zlen vs)] ++ d) in H.
  apply pack_app_inv in H as (b1 & b2 & P1 & P2 & ->); [|reflexivity]. apply pack_i in P1 as [_ ->]. destruct (items_bytes_inv _ _ _ _ _ R P2) as (bs & -> & F). exists bs. split; [reflexivity|exact F].
Qed.
Lemma int_bytes_inv p z b : p <> String_ -> p <> Bytes_ -> to_bytes (TPrim p) (PInt z) = Ok b -> b = big_endian (int_width (int_fmt p)) z /\ fits (bits_of p) z.
Proof.
  intros N1 N2. unfold to_bytes. cbn [render]. intros H. destruct p; try congruence; cbn [prim_render bind pack int_fmt] in H;
    match type of H with context [pack1 ?f ?v] => destruct (pack1 f v) as [x|] eqn:P; [|discriminate] end; cbn [bind] in H; injection H as <-; rewrite app_nil_r;
    first [apply (pack1_int_inv Int8) in P|apply (pack1_int_inv Int16) in P|apply (pack1_int_inv Int32) in P|apply (pack1_int_inv Int64) in P]; destruct P as (z' & E & F & ->); injection E as <-; rewrite ?big_endian_be; auto.
Qed.
Lemma text_bytes_inv t b : to_bytes (TPrim String_) (PStr t) = Ok b -> exists n, utf8_encode t = Some n /\ zlen n < 2 ^ 15 /\ b = big_endian 2 (zlen n) ++ n.
Proof.
  intros H. assert (B : bytes_ok (PStr t)) by exact I. unfold to_bytes in H. destruct (render (TPrim String_) (PStr t)) as [[f d]|] eqn:R; [|discriminate]. cbn [bind] in H.
  destruct (all_legal _ _ _ _ _ B R H) as (_ & v & RV & W & L). cbn [reads_as var_reads] in RV. subst v. inversion W as [|? ? W1| | | | ]; subst. inversion W1 as [|? n E|]; subst. exists n. split; [exact E|]. split; [|reflexivity].
  cbn [legal conforms canon_prim canon_var bits_of] in L. destruct L as (b' & E' & L'). rewrite E in E'. injection E' as <-. exact L'.
Qed.

(** a request's bytes: the frame around the bytes of its fields *)
Lemma request_payload api fs kw last attrs last' bs : (forall n, In n (map fst fs) -> ~ In n reserved) -> NoDup (map fst kw) ->
  request_init api fs kw last = Ok (attrs, last') -> request_bytes fs attrs = Ok bs ->
  exists key payload, dget api_keys api = Some key /\ to_bytes (TPart fs) (PObj kw) = Ok payload /\ bs = request_frame key (last + 1) payload /\ fits 32 (last + 1) /\ fits 32 (zlen (request_body key (last + 1) payload)).
Proof.
  intros NR ND RI RB. destruct (request_init_inv _ _ _ _ _ _ ND RI) as (-> & I & key & K & A1 & A2 & A3 & A4 & AO).
  unfold request_bytes in RB. destruct (serialize fs attrs) as [body|] eqn:S; [|discriminate]. cbn [bind] in RB. unfold framed in RB. destruct (pack [Fi] [PInt (zlen body)]) as [h|] eqn:PH; [|discriminate]. cbn [bind] in RB. apply Ok_inj in RB. apply pack_i in PH as [FB ->].
  unfold serialize in S. destruct (render_fields preamble_parts attrs) as [[f d]|] eqn:R1; [|discriminate]. cbn [bind] in S. destruct (render_fields fs attrs) as [[f' d']|] eqn:R2; [|discriminate]. cbn [bind] in S.
  assert (R1' : render (TPart preamble_parts) (PObj attrs) = Ok (f, d)) by (rewrite render_part_fields; exact R1).
  apply pack_app_inv in S as (b1 & b2 & P1 & P2 & ->); [|eapply render_lengths; exact R1'].
  assert (T1 : to_bytes (TPart preamble_parts) (PObj attrs) = Ok b1) by (unfold to_bytes; rewrite R1'; exact P1).
  destruct (part_bytes_inv _ _ _ T1) as (l & -> & F1). unfold preamble_parts in F1. cbn [fst snd] in F1.
  inversion F1 as [|? x1 ? l1 X1 F2]; subst. inversion F2 as [|? x2 ? l2 X2 F3]; subst. inversion F3 as [|? x3 ? l3 X3 F4]; subst. inversion F4 as [|? x4 ? l4 X4 F5]; subst. inversion F5; subst. clear F1 F2 F3 F4 F5.
  cbn [fst snd] in X1, X2, X3, X4. rewrite A1 in X1. rewrite A2 in X2. rewrite A3 in X3. rewrite A4 in X4.
  apply int_bytes_inv in X1 as [-> _]; [|discriminate..]. apply int_bytes_inv in X2 as [-> _]; [|discriminate..]. apply int_bytes_inv in X3 as [-> FC]; [|discriminate..].
  assert (E4 : x4 = big_endian 2 4 ++ [107; 105; 101; 108]) by (vm_compute in X4; injection X4 as <-; reflexivity). subst x4.
  exists key, b2. split; [exact K|]. split.
  { unfold to_bytes. rewrite render_part_fields. replace (render_fields fs kw) with (render_fields fs attrs); [rewrite R2; exact P2|]. clear - AO NR. induction fs as [|[n t] fs IH]; [reflexivity|]. cbn [render_fields]. rewrite AO by (apply NR; now left). rewrite IH; [reflexivity|]. intros m Hm. apply NR. now right. }
  match type of FB with fits _ (zlen ?x) => assert (E : x = request_body key (last + 1) b2) end.
  { unfold request_body. cbn [concat int_fmt int_width]. rewrite app_nil_r, <- !app_assoc. reflexivity. }
  rewrite E in FB |- *. unfold request_frame. cbv zeta. auto.
Qed.

Section Bytes.
  Variable C : codec.
  Variable comp : Z.
  Hypothesis CL : codec_laws C.
  Hypothesis SUP : comp = 0 \/ comp = GZIP \/ comp = SNAPPY.

  Lemma usable_ok v : usable v -> bytes_ok v.
  Proof. destruct v; cbn; auto; contradiction. Qed.
  Lemma envelope_bytes cc z b : Forall is_byte z -> utf8_decode z = None -> to_bytes TMsgSet (PMsgSet [(PInt (-1), Msg PNone (PInt 0) (PInt cc) PNone (PBytes z))]) = Ok b ->
    exists crc outer, b = big_endian 4 (zlen outer) ++ outer /\ wire_entries [(PInt (-1), Msg crc (PInt 0) (PInt cc) PNone (PBytes z))] outer.
  Proof.
    intros FB ND TB. assert (BO : Forall (fun om : pyval * pymsg => msg_bytes_ok (snd om)) [(PInt (-1), Msg PNone (PInt 0) (PInt cc) PNone (PBytes z))]) by (constructor; [|constructor]; split; [exact I|exact FB]).
    destruct (ms_to_bytes _ _ TB BO) as (ms' & bb & -> & _ & W & F2 & _). inversion F2 as [|? om' ? r' [E1 E2] F2']; subst. inversion F2'; subst. destruct om' as [o' m']. cbn [fst snd] in *. subst o'. destruct m' as [c' g' a' k' v']. destruct E2 as (E2 & E3 & E4 & E5).
    cbn [m_magic m_attributes m_key m_value var_reads] in *. subst g' a' k'. rewrite ND in E5. subst v'. exists c', bb. split; [reflexivity|exact W].
  Qed.
  Lemma body_xerial blocks : body (sn_compress C) blocks = concat (map (fun b => big_endian 4 (zlen (sn_compress C b)) ++ sn_compress C b) blocks).
  Proof. induction blocks as [|b bl IH]; [reflexivity|]. cbn [body map concat]. rewrite IH, big_endian_be, <- app_assoc. reflexivity. Qed.
  Lemma set_of_bytes msgs ms b : Forall (fun m => msg_bytes_ok m /\ m_attributes m = PInt 0) msgs -> ms_compressed C comp msgs = Ok ms -> to_bytes TMsgSet (PMsgSet ms) = Ok b -> set_bytes C comp msgs b.
  Proof using CL SUP.
    intros F MC TB. unfold ms_compressed in MC. unfold set_bytes. destruct (comp =? 0) eqn:C0.
    - apply Ok_inj in MC. subst ms. assert (F' : Forall (fun om => msg_bytes_ok (snd om) /\ m_attributes (snd om) = PInt 0) (map (fun m => (PInt (-1), m)) msgs)) by (apply Forall_map; exact F).
      destruct (set_read_back C O _ _ F' TB) as (out & bb & -> & W & F2 & _). exists out, bb, bb. split; [|auto]. clear - F2. revert out F2. induction msgs; intros out F2; inversion F2; subst; constructor; auto.
    - destruct (ms_render (map (fun m => (PInt (-1), m)) msgs)) as [[f0 d0]|] eqn:R0; [|discriminate]. cbn [bind] in MC. unfold ms_render in R0. destruct (ms_render_loop _) as [[[f d] n]|] eqn:R; [|discriminate]. cbn [bind] in R0. apply Ok_inj in R0. injection R0 as <- <-. cbn [tl] in MC.
      destruct (pack f d) as [raw|] eqn:P; [|discriminate]. cbn [bind] in MC. destruct (plain_wire msgs f d n raw F R P) as (out & FO & WO). pose proof (plain_raw_bytes msgs f d n raw F R P) as RB. destruct CL as (GR & GM & GB & SA & SR & SB).
      exists out, raw. destruct SUP as [-> | [-> | ->]]; [discriminate| |].
      + change (GZIP =? GZIP) with true in MC. cbn [bind] in MC. apply Ok_inj in MC. subst ms. destruct (fun A B => envelope_bytes GZIP (gz_compress C raw) b A B TB) as (crc & outer & -> & W); [now apply GB|destruct (GM raw) as [r ->]; apply utf8_decode_gzip|].
        exists outer. split; [exact FO|]. split; [exact WO|]. split; [reflexivity|]. exists crc, (gz_compress C raw). split; [exact W|]. left. auto.
      + change (SNAPPY =? GZIP) with false in MC. change (SNAPPY =? SNAPPY) with true in MC. rewrite SA in MC. destruct (snappy_compress true (sn_compress C) raw) as [z|] eqn:SC; [|discriminate]. cbn [bind] in MC. apply Ok_inj in MC. subst ms.
        unfold snappy_compress in SC. cbn [negb] in SC. destruct (comp_blocks (sn_compress C) (length raw) raw) as [q|] eqn:CQ; [|discriminate]. cbn [bind] in SC. apply Ok_inj in SC. destruct (comp_blocks_inv _ _ _ _ CQ) as (Eq & _ & CC).
        assert (X : xerial C raw z). { exists (chunks_of (length raw) raw). split; [exact CC|]. subst z q. rewrite body_xerial. reflexivity. }
        assert (Bz : Forall is_byte z). { subst z. apply Forall_app. split; [unfold raw_header; repeat constructor; lia|]. subst q. rewrite body_xerial. rewrite Forall_concat. apply Forall_map, Forall_forall. intros x Hx. rewrite big_endian_be. apply Forall_app. split; [apply be_enc_bytes|]. apply SB. rewrite <- CC, Forall_concat, Forall_forall in RB. now apply RB. }
        destruct (fun A B => envelope_bytes SNAPPY z b A B TB) as (crc & outer & -> & W); [exact Bz|subst z; reflexivity|]. exists outer. split; [exact FO|]. split; [exact WO|]. split; [reflexivity|]. exists crc, z. split; [exact W|]. right. auto.
  Qed.

  Lemma map_res_inv {A B} (f : A -> res B) l ys : map_res f l = Ok ys -> Forall2 (fun x y => f x = Ok y) l ys.
  Proof.
    revert ys. induction l as [|x l IH]; intros ys H; cbn [map_res] in H; [injection H as <-; constructor|]. destruct (f x) eqn:E; [|discriminate]. cbn [bind] in H. destruct (map_res f l); [|discriminate]. cbn [bind] in H. injection H as <-. constructor; [exact E|now apply IH].
  Qed.
  Lemma two_steps {A B D} (P : A -> B -> Prop) (Q : B -> D -> Prop) (R : A -> D -> Prop) l m n : Forall2 P l m -> Forall2 Q m n -> (forall a b d, In a l -> P a b -> Q b d -> R a d) -> Forall2 R l n.
  Proof.
    intros F. revert n. induction F as [|a b l m X F IH]; intros n G H; inversion G; subst; constructor; [eapply H; [now left|eassumption..]|]. apply IH; [assumption|]. intros; eapply H; [now right|eassumption..].
  Qed.
  Lemma same_len {A B} (P : A -> B -> Prop) l m : Forall2 P l m -> zlen m = zlen l.
  Proof. induction 1; [reflexivity|]. rewrite !zlen_cons. congruence. Qed.

  Lemma produce_names n : In n (map fst ProduceRequest) -> ~ In n reserved.
  Proof. cbn [map fst ProduceRequest]. unfold reserved. intros [<-|[<-|[<-|[]]]] [E|[E|[E|[E|[]]]]]; discriminate E. Qed.
  Lemma produce_names_distinct (a b c : pyval) : NoDup (map fst [("required_acks", a); ("timeout", b); ("topics", c)]%string).
  Proof. cbn [map fst]. repeat constructor; cbn [In]; intros H; repeat destruct H as [H|H]; try discriminate H; contradiction. Qed.
  Lemma produce_bytes rq bs : (forall t d p ms m, In (t, d) (pq_topics rq) -> In (p, ms) d -> In m ms -> made (pm_msg m)) -> produce_wire C comp rq = Ok bs ->
    exists payload, bs = request_frame 0 (pq_corr rq) payload /\ fits 32 (pq_corr rq) /\ fits 32 (zlen (request_body 0 (pq_corr rq) payload)) /\ payload_bytes C comp (pq_acks rq) (pq_timeout rq) (pq_topics rq) payload.
  Proof using CL SUP.
    intros MD H. unfold produce_wire in H. destruct (produce_kwargs C comp rq) as [kw|] eqn:K; [|discriminate]. cbn [bind] in H. destruct (request_init "produce" ProduceRequest kw (pq_corr rq - 1)) as [[attrs last']|] eqn:RI; [|discriminate]. cbn [bind] in H.
    unfold produce_kwargs in K. destruct (map_res (topic_object C comp) (pq_topics rq)) as [ts|] eqn:T; [|discriminate]. cbn [bind] in K. injection K as <-.
    destruct (request_payload "produce" ProduceRequest _ _ _ _ _ produce_names (produce_names_distinct _ _ _) RI H) as (key & payload & EK & TB & -> & FC & FB). vm_compute in EK. injection EK as <-. replace (pq_corr rq - 1 + 1) with (pq_corr rq) in * by lia.
    exists payload. split; [reflexivity|]. split; [exact FC|]. split; [exact FB|]. apply part_bytes_inv in TB as (l & -> & F1). unfold ProduceRequest in F1.
    inversion F1 as [|? x1 ? l1 X1 F2]; subst. inversion F2 as [|? x2 ? l2 X2 F3]; subst. inversion F3 as [|? x3 ? l3 X3 F4]; subst. inversion F4; subst. clear F1 F2 F3 F4. cbn [fst snd] in X1, X2, X3.
    change (to_bytes I16 (PInt (pq_acks rq)) = Ok x1) in X1. change (to_bytes I32 (PInt (pq_timeout rq)) = Ok x2) in X2. change (to_bytes (TArray (TPart produce_TopicRequest)) (PList ts) = Ok x3) in X3.
    apply int_bytes_inv in X1 as [-> A1]; [|discriminate..]. apply int_bytes_inv in X2 as [-> A2]; [|discriminate..]. apply array_bytes_inv in X3 as (tbs & -> & FT). apply map_res_inv in T. rewrite (same_len _ _ _ T).
    exists tbs. split; [exact A1|]. split; [exact A2|]. split; [|cbn [concat]; rewrite app_nil_r; reflexivity].
    eapply two_steps; [exact T|exact FT|]. clear T FT. intros [t d] v tb Hin TO TB. unfold topic_object in TO. cbn [fst snd] in TO. destruct (map_res (partition_object C comp) d) as [ps|] eqn:E; [|discriminate]. cbn [bind] in TO. injection TO as <-.
    apply part_bytes_inv in TB as (l & -> & F1). unfold produce_TopicRequest in F1. inversion F1 as [|? y1 ? m1 Y1 F2]; subst. inversion F2 as [|? y2 ? m2 Y2 F3]; subst. inversion F3; subst. clear F1 F2 F3. cbn [fst snd] in Y1, Y2.
    change (to_bytes (TPrim String_) (PStr t) = Ok y1) in Y1. change (to_bytes (TArray (TPart produce_PartitionRequest)) (PList ps) = Ok y2) in Y2. apply text_bytes_inv in Y1 as (n & En & Ln & ->). apply array_bytes_inv in Y2 as (pbs & -> & FP). apply map_res_inv in E. rewrite (same_len _ _ _ E).
    exists n, pbs. cbn [fst snd]. split; [exact En|]. split; [exact Ln|]. split; [|cbn [concat]; rewrite app_nil_r, <- app_assoc; reflexivity].
    eapply two_steps; [exact E|exact FP|]. clear E FP. intros [p ms] v pb Hp PO PB. unfold partition_object in PO. cbn [fst snd] in PO. destruct (set_of C comp ms) as [s|] eqn:ES; [|discriminate]. cbn [bind] in PO. injection PO as <-.
    apply part_bytes_inv in PB as (l & -> & F1). unfold produce_PartitionRequest in F1. inversion F1 as [|? z1 ? k1 Z1 F2]; subst. inversion F2 as [|? z2 ? k2 Z2 F3]; subst. inversion F3; subst. clear F1 F2 F3. cbn [fst snd] in Z1, Z2.
    change (to_bytes I32 (PInt p) = Ok z1) in Z1. change (to_bytes TMsgSet (PMsgSet s) = Ok z2) in Z2. apply int_bytes_inv in Z1 as [-> A3]; [|discriminate..]. exists z2. cbn [fst snd concat]. rewrite app_nil_r. split; [reflexivity|]. split; [exact A3|].
    eapply set_of_bytes; [|exact ES|exact Z2]. apply Forall_map, Forall_forall. intros m Hm. destruct (MD _ _ _ _ _ Hin Hp Hm) as (k & v & -> & Uk & Uv). split; [|reflexivity]. split; now apply usable_ok.
  Qed.
End Bytes.
