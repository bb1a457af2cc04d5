(** C08: compressed message sets. *)
From Coq Require Import ZArith String List Bool Lia ZifyBool.
From Verif Require Import PyBase BaseLemmas Utf8 Utf8Proofs Struct StructProofs Crc32 Primitives Snappy
  Messages Protocol SpecWire ProtocolProofs WireMore MessagesProofs SnappyProofs SpecCodec.
Import ListNotations.
Open Scope Z_scope.

Lemma Forall_firstn_ {A} (P : A -> Prop) n l : Forall P l -> Forall P (firstn n l).
Proof. intro F. rewrite <- (firstn_skipn n l) in F. now apply Forall_app in F. Qed.
Lemma Forall_skipn_ {A} (P : A -> Prop) n l : Forall P l -> Forall P (skipn n l).
Proof. intro F. rewrite <- (firstn_skipn n l) in F. now apply Forall_app in F. Qed.

Lemma ms_to_bytes ms b : to_bytes TMsgSet (PMsgSet ms) = Ok b ->
  Forall (fun om => msg_bytes_ok (snd om)) ms ->
  exists ms' bb, b = big_endian 4 (zlen bb) ++ bb /\ zlen bb < 2 ^ 31 /\ wire_entries ms' bb /\
    Forall2 (fun om om' => fst om' = fst om /\ msg_reads (snd om) (snd om')) ms ms' /\
    Forall (fun om => (exists o, fst om = PInt o /\ fits 64 o) /\ legal_msg (snd om)) ms' /\
    Forall (fun om => exists p, wire_payload (snd om) p /\ 4 + zlen p < 2 ^ 31) ms'.
Proof.
  intros E B. unfold to_bytes in E. cbn [render] in E. unfold ms_render in E.
  destruct (ms_render_loop ms) as [[[f d] n]|] eqn:R; [|discriminate]. cbn [bind] in E.
  change (Fi :: f) with ([Fi] ++ f) in E. change (PInt n :: d) with ([PInt n] ++ d) in E.
  apply pack_app_inv in E as (b0 & bb & P0 & P1 & ->); [|reflexivity].
  destruct (ms_loop_legal ms f d n bb B R P1) as (_ & -> & ms' & F2 & W & Lg & Sz).
  cbn [pack] in P0. destruct (pack1 Fi (PInt (zlen bb))) as [bz|] eqn:Ez; [|discriminate].
  cbn [bind] in P0. rewrite app_nil_r in P0. apply Ok_inj in P0. subst b0.
  apply (pack1_int_inv Int32) in Ez as (z & Ez & Fz & ->). injection Ez as <-.
  exists ms', bb. unfold fits, bits_of in Fz. repeat split; auto. lia.
Qed.

Lemma reads_readable m o m' :
  m_attributes m = PInt 0 -> msg_reads m m' -> legal_msg m' ->
  (exists p, wire_payload m' p /\ 4 + zlen p < 2 ^ 31) -> fits 64 o -> readable (PInt o, m').
Proof.
  intros A (_ & A' & _) L S F. repeat split; cbn [fst snd]; eauto. congruence.
Qed.

Definition same_content (m : pymsg) (om : pyval * pymsg) : Prop := msg_reads m (snd om).

Lemma stored_reads m om om' : msg_reads m (snd om) -> stored om om' -> fst om' = fst om /\ msg_reads m (snd om').
Proof. intros R S. inversion S; subst. split; [reflexivity|exact R]. Qed.

(** The uncompressed case and the inner sets: bytes written for plain messages read back as the
    same messages. *)
Lemma plain_read_back C nested msgs raw f d n pre post fuel :
  Forall (fun m => msg_bytes_ok m /\ m_attributes m = PInt 0) msgs ->
  ms_render_loop (map (fun m => (PInt (-1), m)) msgs) = Ok (f, d, n) -> pack f d = Ok raw ->
  (length raw <= fuel)%nat ->
  exists out, Forall2 (fun m om => fst om = PInt (-1) /\ same_content m om) msgs out /\
    ms_loop C nested fuel (pre ++ raw ++ post) (zlen pre) (zlen pre + zlen raw) = Ok (out, zlen pre + zlen raw).
Proof.
  intros F R P LF.
  assert (B : Forall (fun om => msg_bytes_ok (snd om)) (map (fun m => (PInt (-1), m)) msgs)).
  { apply Forall_map. eapply Forall_impl; [|exact F]. intros m H. exact (proj1 H). }
  destruct (ms_loop_legal _ f d n raw B R P) as (_ & _ & ms' & F2 & W & Lg & Sz).
  assert (RD : Forall readable ms').
  { clear - F F2 Lg Sz. revert ms' F2 Lg Sz. induction F as [|m msgs [_ A] F IH]; intros ms' F2 Lg Sz;
      cbn [map] in F2; inversion F2 as [|? om ? r [E1 E2] F2']; subst; [constructor|].
    inversion Lg as [|? ? [_ L1] Lg']; subst. inversion Sz as [|? ? S1 Sz']; subst.
    constructor; [|now apply IH]. destruct om as [o' m']. cbn [fst snd] in *. subst o'.
    apply (reads_readable m); auto. unfold fits; lia. }
  destruct (ms_loop_all C nested ms' raw pre post fuel RD W) as (out & FS & E).
  { pose proof (wire_entries_count _ _ W) as CT. unfold zlen in CT. lia. }
  exists out. split; [|exact E].
  clear - F2 FS. revert ms' out F2 FS. induction msgs as [|m msgs IH]; intros ms' out F2 FS;
    cbn [map] in F2; inversion F2 as [|? om ? r [E1 E2] F2']; subst; inversion FS as [|? om' ? r' S FS']; subst;
    constructor; [|eapply IH; eauto].
  cbn [fst snd] in *. destruct (stored_reads m om om' E2 S) as [G1 G2]. split; [congruence|exact G2].
Qed.

(** what the messages of an uncompressed set look like on the wire *)
Definition plain_bytes (msgs : list pymsg) (raw : bytes) : Prop :=
  exists inner, Forall2 (fun m om => fst om = PInt (-1) /\ msg_reads m (snd om)) msgs inner /\
                wire_entries inner raw.

Lemma plain_wire msgs f d n raw :
  Forall (fun m => msg_bytes_ok m /\ m_attributes m = PInt 0) msgs ->
  ms_render_loop (map (fun m => (PInt (-1), m)) msgs) = Ok (f, d, n) -> pack f d = Ok raw ->
  plain_bytes msgs raw.
Proof.
  intros F R P.
  assert (B : Forall (fun om => msg_bytes_ok (snd om)) (map (fun m => (PInt (-1), m)) msgs)).
  { apply Forall_map. eapply Forall_impl; [|exact F]. intros m H. exact (proj1 H). }
  destruct (ms_loop_legal _ f d n raw B R P) as (_ & _ & ms' & F2 & W & _).
  exists ms'. split; [|exact W]. clear - F2. revert ms' F2.
  induction msgs; intros ms' F2; cbn [map] in F2; inversion F2; subst; constructor; auto.
Qed.

Lemma wire_entries_bytes ms b :
  wire_entries ms b -> Forall (fun om => legal_msg (snd om)) ms -> Forall is_byte b.
Proof.
  induction 1 as [|o m p r rb Wp Wr IH]; intro F; [constructor|]. inversion F as [|? ? L F']; subst.
  cbn [snd] in L. assert (Bp : Forall is_byte p).
  { inversion Wp; subst. cbn [legal_msg] in L. destruct L as (_ & _ & Ck & Cv). eapply wire_payload_bytes; eauto. }
  rewrite !big_endian_be. repeat (apply Forall_app; split); auto using be_enc_bytes.
Qed.

Lemma plain_raw_bytes msgs f d n raw :
  Forall (fun m => msg_bytes_ok m /\ m_attributes m = PInt 0) msgs ->
  ms_render_loop (map (fun m => (PInt (-1), m)) msgs) = Ok (f, d, n) -> pack f d = Ok raw ->
  Forall is_byte raw.
Proof.
  intros F R P.
  assert (B : Forall (fun om => msg_bytes_ok (snd om)) (map (fun m => (PInt (-1), m)) msgs)).
  { apply Forall_map. eapply Forall_impl; [|exact F]. intros m H. exact (proj1 H). }
  destruct (ms_loop_legal _ f d n raw B R P) as (_ & _ & ms' & F2 & W & Lg & _).
  eapply wire_entries_bytes; [exact W|]. eapply Forall_impl; [|exact Lg]. intros om H. exact (proj2 H).
Qed.

(** one compressed envelope *)
Lemma envelope_read_back C comp c raw out b depth :
  codec_laws C -> comp = GZIP \/ comp = SNAPPY ->
  Forall is_byte c -> utf8_decode c = None ->
  (if comp =? GZIP then gz_decompress_v C (PBytes c) else sn_decompress_v C (PBytes c)) = Ok (PBytes raw) ->
  ms_parse_nested C (S depth) (PBytes raw) = Ok out ->
  to_bytes TMsgSet (PMsgSet [(PInt (-1), Msg PNone (PInt 0) (PInt comp) PNone (PBytes c))]) = Ok b ->
  forall pre post, parse C (S depth) TMsgSet (pre ++ b ++ post) (zlen pre) = Ok (PMsgSet out, zlen pre + zlen b).
Proof.
  intros CL HC FB ND DC NS TB pre post.
  assert (BO : Forall (fun om : pyval * pymsg => msg_bytes_ok (snd om))
                 [(PInt (-1), Msg PNone (PInt 0) (PInt comp) PNone (PBytes c))]).
  { constructor; [|constructor]. split; [exact I|exact FB]. }
  destruct (ms_to_bytes _ _ TB BO) as (ms' & bb & -> & L & W & F2 & Lg & Sz).
  inversion F2 as [|? om' ? r' [E1 E2] F2']; subst. inversion F2'; subst. clear F2 F2'.
  destruct om' as [o' m']. cbn [fst snd] in *. subst o'.
  destruct m' as [c' g' a' k' v']. destruct E2 as (E2 & E3 & E4 & E5).
  cbn [m_magic m_attributes m_key m_value var_reads] in *. subst g' a' k'. rewrite ND in E5. subst v'.
  inversion Lg as [|? ? [_ LM] _]; subst. cbn [snd] in LM. simpl in LM. destruct LM as (Fg & Fa & Ck & Cv).
  inversion Sz as [|? ? (p & Wp & Lp) _]; subst. cbn [snd] in Wp.
  inversion W as [|? ? p' ? rb Wp' Wn]; subst. inversion Wn; subst. clear W Wn.
  rewrite (wire_payload_det _ _ _ Wp' Wp) in *. clear p' Wp'. rewrite app_nil_r in *.
  assert (Bp : Forall is_byte p) by (eapply wire_payload_bytes; eauto).
  pose proof (crc32_bound p Bp) as CB. pose proof (zlen_nonneg p) as Np.
  change (big_endian 8 (-1) ++ big_endian 4 (4 + zlen p) ++ big_endian 4 (signed32 (crc32 p)) ++ p)
    with (entry_bytes (-1) (4 + zlen p) (signed32 (crc32 p)) p) in *.
  set (E := entry_bytes (-1) (4 + zlen p) (signed32 (crc32 p)) p) in *.
  assert (LE : zlen E = 16 + zlen p) by apply entry_bytes_len.
  cbn [parse]. unfold ms_parse. rewrite <- app_assoc.
  pose proof (int_at Int32 (zlen E) pre (E ++ post)) as H. cbn [int_fmt int_width] in H.
  rewrite H by (discriminate || (unfold fits, bits_of; lia)). cbn [bind]. rewrite app_assoc.
  set (pre' := pre ++ big_endian 4 (zlen E)).
  assert (L2 : (2 <= S (length (pre' ++ E ++ post)))%nat).
  { rewrite !app_length. unfold zlen in LE, Np. unfold zlen in LE. lia. }
  destruct (S (length (pre' ++ E ++ post))) as [|[|fuel]]; [lia|lia|].
  change (ms_loop C (ms_parse_nested C (S depth)) (S (S fuel)) (pre' ++ E ++ post) (zlen pre') (zlen pre' + zlen E))
    with (if zlen pre' =? zlen pre' + zlen E then Ok ([], zlen pre')
      else match parse_entry C (pre' ++ E ++ post) (zlen pre') with
      | Cut o => Ok ([], o)
      | Raise e => Err e
      | Entry mo m o =>
        here <- (match m_attributes m with
                 | PInt 0 => Ok [(mo, m)]
                 | _ => ms_parse_nested C (S depth) (m_value m)
                 end) ;;
        '(rest, o') <- ms_loop C (ms_parse_nested C (S depth)) (S fuel) (pre' ++ E ++ post) o (zlen pre' + zlen E) ;;
        Ok (here ++ rest, o')
      end).
  replace (zlen pre' =? zlen pre' + zlen E) with false by lia.
  unfold E at 1.
  assert (X1 : fits 64 (-1)) by (unfold fits; lia).
  assert (X2 : fits 32 (4 + zlen p)) by (unfold fits; lia).
  pose proof (signed32_fits _ CB) as X3.
  rewrite (parse_entry_raw C (-1) (4 + zlen p) (signed32 (crc32 p)) 0 comp PNone (PBytes c) c' p pre' post
             X1 X2 X3 Fg Fa Ck Cv Wp).
  fold E.
  replace (let compression := Z.land comp 3 in
      if compression =? 0 then Ok (PBytes c)
      else if compression =? GZIP then gz_decompress_v C (PBytes c)
      else if compression =? SNAPPY then sn_decompress_v C (PBytes c) else Ok (PBytes c))
    with (Ok (PBytes raw)).
  2:{ destruct HC as [-> | ->]; symmetry; exact DC. }
  cbn [m_attributes m_value].
  replace (match comp with 0 => Ok [(PInt (-1), Msg (PInt (signed32 (crc32 p))) (PInt 0) (PInt comp) PNone (PBytes raw))]
           | _ => ms_parse_nested C (S depth) (PBytes raw) end) with (Ok out).
  2:{ destruct HC as [-> | ->]; symmetry; exact NS. }
  cbn [bind ms_loop]. rewrite zlen_app, Z.eqb_refl. cbn [bind]. rewrite app_nil_r.
  unfold pre'. rewrite !zlen_app. do 2 f_equal. lia.
Qed.

Lemma compressed_read_back C comp msgs ms b depth :
  codec_laws C -> comp = 0 \/ comp = GZIP \/ comp = SNAPPY ->
  Forall (fun m => msg_bytes_ok m /\ m_attributes m = PInt 0) msgs ->
  (comp = SNAPPY -> forall raw, plain_bytes msgs raw -> last_block_ok C raw) ->
  ms_compressed C comp msgs = Ok ms -> to_bytes TMsgSet (PMsgSet ms) = Ok b ->
  exists out, Forall2 (fun m om => fst om = PInt (-1) /\ same_content m om) msgs out /\
    forall pre post, parse C (S depth) TMsgSet (pre ++ b ++ post) (zlen pre)
                     = Ok (PMsgSet out, zlen pre + zlen b).
Proof.
  intros CL HC F SL MC TB. unfold ms_compressed in MC.
  destruct (comp =? 0) eqn:C0.
  - (* plain *)
    apply Ok_inj in MC. subst ms. unfold to_bytes in TB. cbn [render] in TB. unfold ms_render in TB.
    destruct (ms_render_loop _) as [[[f d] n]|] eqn:R; [|discriminate]. cbn [bind] in TB.
    change (Fi :: f) with ([Fi] ++ f) in TB. change (PInt n :: d) with ([PInt n] ++ d) in TB.
    apply pack_app_inv in TB as (b0 & bb & P0 & P1 & ->); [|reflexivity].
    assert (B : Forall (fun om => msg_bytes_ok (snd om)) (map (fun m => (PInt (-1), m)) msgs)).
    { apply Forall_map. eapply Forall_impl; [|exact F]. intros m H. exact (proj1 H). }
    destruct (ms_loop_legal _ f d n bb B R P1) as (_ & -> & _).
    cbn [pack] in P0. destruct (pack1 Fi (PInt (zlen bb))) as [bz|] eqn:Ez; [|discriminate].
    cbn [bind] in P0. rewrite app_nil_r in P0. apply Ok_inj in P0. subst b0.
    apply (pack1_int_inv Int32) in Ez as (z & Ez & Fz & ->). injection Ez as <-. cbn [int_fmt int_width].
    assert (G : forall pre post fuel, (length bb <= fuel)%nat -> exists out,
       Forall2 (fun m om => fst om = PInt (-1) /\ same_content m om) msgs out /\
       ms_loop C (ms_parse_nested C (S depth)) fuel (pre ++ bb ++ post) (zlen pre) (zlen pre + zlen bb)
         = Ok (out, zlen pre + zlen bb)).
    { intros pre post fuel LF. eapply plain_read_back; eauto. }
    (* the messages read do not depend on the surroundings *)
    assert (B' : plain_bytes msgs bb) by (eapply plain_wire; eauto).
    destruct (ms_loop_legal _ f d (zlen bb) bb B R P1) as (_ & _ & ms' & F2 & W & Lg & Sz).
    assert (RD : Forall readable ms').
    { clear - F F2 Lg Sz. revert ms' F2 Lg Sz. induction F as [|m msgs [_ A] F IH]; intros ms' F2 Lg Sz;
        cbn [map] in F2; inversion F2 as [|? om ? r [E1 E2] F2']; subst; [constructor|].
      inversion Lg as [|? ? [_ L1] Lg']; subst. inversion Sz as [|? ? S1 Sz']; subst.
      constructor; [|now apply IH]. destruct om as [o' m']. cbn [fst snd] in *. subst o'.
      apply (reads_readable m); auto. unfold fits; lia. }
    destruct (G [] [] (length bb) (Nat.le_refl _)) as (out & FO & EO).
    exists out. split; [exact FO|]. intros pre post. cbn [parse]. unfold ms_parse. rewrite <- app_assoc.
    pose proof (int_at Int32 (zlen bb) pre (bb ++ post)) as H. cbn [int_fmt int_width] in H.
    rewrite H by (discriminate || exact Fz). cbn [bind]. rewrite app_assoc.
    set (pre' := pre ++ big_endian 4 (zlen bb)).
    assert (CT : (length ms' <= length bb)%nat).
    { pose proof (wire_entries_count _ _ W) as CT. unfold zlen in CT. lia. }
    destruct (ms_loop_all C (ms_parse_nested C (S depth)) ms' bb pre' post (S (length (pre' ++ bb ++ post))) RD W)
      as (o1 & S1 & E1).
    { rewrite !app_length. lia. }
    destruct (ms_loop_all C (ms_parse_nested C (S depth)) ms' bb [] [] (length bb) RD W) as (o2 & S2 & E2).
    { lia. }
    assert (o1 = o2).
    { clear - S1 S2. revert o2 S2. induction S1 as [|x y l l' S S1 IH]; intros o2 S2; inversion S2; subst; [reflexivity|].
      f_equal; [eapply stored_det; eauto|now apply IH]. }
    subst o2. rewrite EO in E2. apply Ok_inj in E2. injection E2 as <-.
    rewrite E1. cbn [bind]. unfold pre'. rewrite !zlen_app. do 2 f_equal. lia.
  - destruct (ms_render (map (fun m => (PInt (-1), m)) msgs)) as [[f0 d0]|] eqn:R0; [|discriminate].
    cbn [bind] in MC. unfold ms_render in R0.
    destruct (ms_render_loop _) as [[[f d] n]|] eqn:R; [|discriminate]. cbn [bind] in R0.
    apply Ok_inj in R0. injection R0 as <- <-. cbn [tl] in MC.
    destruct (pack f d) as [raw|] eqn:P; [|discriminate]. cbn [bind] in MC.
    pose proof (plain_wire msgs f d n raw F R P) as PW.
    pose proof (plain_raw_bytes msgs f d n raw F R P) as RB.
    destruct CL as (GR & GM & GB & SA & SR & SB).
    destruct (plain_read_back C (ms_parse_nested C depth) msgs raw f d n [] [] (S (length raw)) F R P) as (out & FO & EO).
    { lia. }
    exists out. split; [exact FO|].
    assert (NS : ms_parse_nested C (S depth) (PBytes raw) = Ok out).
    { cbn [ms_parse_nested]. cbn [app] in EO. rewrite app_nil_r in EO. change (zlen (@nil Z)) with 0 in EO.
      rewrite Z.add_0_l in EO. now rewrite EO. }
    destruct HC as [-> | [-> | ->]]; [discriminate| |].
    + change (GZIP =? GZIP) with true in MC. cbn [bind] in MC. apply Ok_inj in MC. subst ms.
      apply (envelope_read_back C GZIP (gz_compress C raw) raw out b depth); auto.
      * repeat split; auto.
      * destruct (GM raw) as [r ->]. apply utf8_decode_gzip.
      * change (GZIP =? GZIP) with true. cbn [gz_decompress_v]. now rewrite (GR raw RB).
    + change (SNAPPY =? GZIP) with false in MC. change (SNAPPY =? SNAPPY) with true in MC. rewrite SA in MC.
      destruct (snappy_compress true (sn_compress C) raw) as [z|] eqn:SC; [|discriminate]. cbn [bind] in MC.
      apply Ok_inj in MC. subst ms.
      assert (exists r, z = 130 :: r /\ Forall is_byte z) as (r & Er & Bz).
      { unfold snappy_compress in SC. cbn [negb] in SC.
        destruct (comp_blocks (sn_compress C) (length raw) raw) as [q|] eqn:CQ; [|discriminate]. cbn [bind] in SC.
        apply Ok_inj in SC. subst z. eexists. split; [reflexivity|].
        apply Forall_app. split.
        - unfold raw_header, is_byte. repeat constructor; lia.
        - apply comp_blocks_inv in CQ as (-> & _ & _).
          assert (CB : Forall (Forall is_byte) (chunks_of (length raw) raw)).
          { clear - RB. generalize (length raw) as n. intro n. revert raw RB.
            induction n as [|n IH]; intros [|x r] RB; cbn [chunks_of]; try constructor.
            - now apply Forall_firstn_.
            - apply IH. now apply Forall_skipn_. }
          revert CB. generalize (chunks_of (length raw) raw). induction l as [|x l IH]; intro CB; [constructor|].
          inversion CB; subst. cbn [body]. repeat (apply Forall_app; split); auto using be_enc_bytes. }
      apply (envelope_read_back C SNAPPY z raw out b depth); auto.
      * repeat split; auto.
      * rewrite Er. apply utf8_decode_snappy.
      * change (SNAPPY =? GZIP) with false. cbn [sn_decompress_v]. unfold sn_decompress_v. rewrite SA. cbn [negb].
        rewrite (snappy_rt (sn_compress C) (sn_uncompress C) SR raw z RB (SL eq_refl raw PW) SC). reflexivity.
Qed.
