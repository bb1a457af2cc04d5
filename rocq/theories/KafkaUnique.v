(** Kafka's grammar is unambiguous: bytes stand for at most one produce request. *)
From Coq Require Import ZArith String List Bool Lia ZifyBool.
From Verif Require Import PyBase BaseLemmas Utf8 Utf8Proofs Struct StructProofs Crc32 Primitives Messages SpecWire ProtocolProofs RequestProofs SpecKafka KafkaProofs.
Import ListNotations.
Open Scope Z_scope.

(** what begins some bytes is determined by them *)
Definition pfx {A} (R : A -> bytes -> Prop) : Prop := forall x x' b b' r r', R x b -> R x' b' -> b ++ r = b' ++ r' -> x = x' /\ b = b'.

Lemma split_same {A} (b b' r r' : list A) : zlen b = zlen b' -> b ++ r = b' ++ r' -> b = b' /\ r = r'.
Proof.
  revert b'. induction b as [|x b IH]; intros [|y b'] L E; cbn in *; auto; try (unfold zlen in L; cbn in L; lia).
  injection E as -> E. destruct (IH b') as [-> ->]; auto. unfold zlen in *. cbn in L. lia.
Qed.
Lemma pfx_exact {A} (R : A -> bytes -> Prop) x x' b : pfx R -> R x b -> R x' b -> x = x'.
Proof. intros P H H'. now apply (P x x' b b [] []). Qed.

Lemma int_pfx p : p <> String_ -> p <> Bytes_ -> pfx (kw_int (int_width (int_fmt p))).
Proof.
  intros N1 N2 x x' b b' r r' [F ->] [F' ->] E. apply split_same in E as [E _]; [|now rewrite !big_endian_len].
  split; [|exact E]. apply (big_endian_inj p); auto; destruct p; try congruence; assumption.
Qed.
Lemma i8_pfx : pfx (kw_int 1). Proof. apply (int_pfx Int8); discriminate. Qed.
Lemma i16_pfx : pfx (kw_int 2). Proof. apply (int_pfx Int16); discriminate. Qed.
Lemma i32_pfx : pfx (kw_int 4). Proof. apply (int_pfx Int32); discriminate. Qed.
Lemma i64_pfx : pfx (kw_int 8). Proof. apply (int_pfx Int64); discriminate. Qed.
Lemma be4 z z' r r' : fits 32 z -> fits 32 z' -> big_endian 4 z ++ r = big_endian 4 z' ++ r' -> z = z' /\ r = r'.
Proof.
  intros F F' E. destruct (i32_pfx z z' (big_endian 4 z) (big_endian 4 z') r r') as [-> _]; [now split|now split|exact E|]. split; [reflexivity|]. eapply app_inv_head, E.
Qed.
Lemma be2 z z' r r' : fits 16 z -> fits 16 z' -> big_endian 2 z ++ r = big_endian 2 z' ++ r' -> z = z' /\ r = r'.
Proof.
  intros F F' E. destruct (i16_pfx z z' (big_endian 2 z) (big_endian 2 z') r r') as [-> _]; [now split|now split|exact E|]. split; [reflexivity|]. eapply app_inv_head, E.
Qed.

Lemma string_pfx : pfx kw_string.
Proof.
  intros t t' b b' r r' (u & U & L & ->) (u' & U' & L' & ->) E. rewrite <- !app_assoc in E. pose proof (zlen_nonneg u). pose proof (zlen_nonneg u').
  apply be2 in E as [Z E]; [|unfold fits; lia|unfold fits; lia]. rewrite Z.
  apply split_same in E as [-> _]; [|exact Z]. split; [|reflexivity]. apply utf8_decode_encode in U, U'. congruence.
Qed.
Lemma array_pfx {A} (item : A -> bytes -> Prop) : pfx item -> pfx (kw_array item).
Proof.
  intros P xs xs' b b' r r' (bs & F & L & ->) (bs' & F' & L' & ->) E. rewrite <- !app_assoc in E. pose proof (zlen_nonneg xs). pose proof (zlen_nonneg xs').
  apply be4 in E as [Z E]; [|unfold fits; lia|unfold fits; lia]. rewrite Z. clear L L' H H0.
  assert (G : xs = xs' /\ concat bs = concat bs'); [|destruct G as [-> ->]; auto].
  revert xs' bs' F' Z E. induction F as [|x b xs bs I F IH]; intros xs' bs' F' Z E; inversion F' as [|x' b' xs1 bs1 I' F1]; subst; try (unfold zlen in Z; cbn in Z; lia); auto.
  cbn [concat] in *. rewrite <- !app_assoc in E. destruct (P _ _ _ _ _ _ I I' E) as [-> ->]. apply app_inv_head in E.
  destruct (IH xs1 bs1 F1) as [-> ->]; auto. unfold zlen in *. cbn in Z. lia.
Qed.
Lemma topic_pfx {A} (part : A -> bytes -> Prop) : pfx part -> pfx (kw_topic part).
Proof.
  intros P [n xs] [n' xs'] b b' r r' (nb & pb & Kn & Kp & ->) (nb' & pb' & Kn' & Kp' & ->) E. cbn [fst snd] in *. rewrite <- !app_assoc in E.
  destruct (string_pfx _ _ _ _ _ _ Kn Kn' E) as [-> ->]. apply app_inv_head in E. destruct (array_pfx part P _ _ _ _ _ _ Kp Kp' E) as [-> ->]. auto.
Qed.

(** messages *)
Lemma blob_pfx v v' r r' : zlen (kw_blob v) < 2 ^ 31 -> zlen (kw_blob v') < 2 ^ 31 -> kw_blob v ++ r = kw_blob v' ++ r' -> v = v' /\ r = r'.
Proof.
  unfold bytes in *. intros L L' E. destruct v as [b|], v' as [b'|]; cbn [kw_blob] in *; rewrite ?zlen_app, ?big_endian_len in L; rewrite ?zlen_app, ?big_endian_len in L'; rewrite <- ?app_assoc in E;
    try (pose proof (zlen_nonneg b)); try (pose proof (zlen_nonneg b')).
  - apply be4 in E as [Z E]; try (unfold fits; lia). apply split_same in E as [-> ->]; auto.
  - apply be4 in E as [Z E]; (unfold fits; lia) || lia.
  - apply be4 in E as [Z E]; (unfold fits; lia) || lia.
  - apply be4 in E as [Z E]; auto; unfold fits; lia.
Qed.
Lemma blobs_small a m : 4 + zlen (kw_body a m) < 2 ^ 31 -> zlen (kw_blob (km_key m)) < 2 ^ 31 /\ zlen (kw_blob (km_value m)) < 2 ^ 31.
Proof.
  intros L. unfold kw_body in L. rewrite !zlen_app in L. pose proof (zlen_nonneg (kw_blob (km_key m))). pose proof (zlen_nonneg (kw_blob (km_value m))). rewrite big_endian_len in L.
  change (zlen [0]) with 1 in L. lia.
Qed.
Lemma entry_pfx o o' a a' m m' b b' r r' : kw_entry o a m b -> kw_entry o' a' m' b' -> fits 8 a -> fits 8 a' -> b ++ r = b' ++ r' -> o = o' /\ a = a' /\ m = m' /\ b = b'.
Proof.
  intros (Fo & K & V & L & ->) (Fo' & K' & V' & L' & ->) Fa Fa' E. pose proof (blobs_small _ _ L) as [S1 S2]. pose proof (blobs_small _ _ L') as [S1' S2'].
  rewrite <- !app_assoc in E. destruct (i64_pfx o o' _ _ _ _ (conj Fo eq_refl) (conj Fo' eq_refl) E) as [-> _]. apply app_inv_head in E.
  pose proof (zlen_nonneg (kw_body a m)). pose proof (zlen_nonneg (kw_body a' m')). apply be4 in E as [Z E]; [|unfold fits; lia|unfold fits; lia].
  apply split_same in E as [_ E]; [|now rewrite !big_endian_len]. apply split_same in E as [E _]; [|lia].
  assert (G : a = a' /\ m = m'); [|destruct G as [-> ->]; auto].
  unfold kw_body in E. apply app_inv_head in E. destruct (i8_pfx a a' _ _ _ _ (conj Fa eq_refl) (conj Fa' eq_refl) E) as [-> _]. apply app_inv_head in E.
  split; [reflexivity|]. apply blob_pfx in E as [EK E]; auto. rewrite <- (app_nil_r (kw_blob (km_value m))), <- (app_nil_r (kw_blob (km_value m'))) in E.
  apply blob_pfx in E as [EV _]; auto. destruct m, m'. cbn in *. congruence.
Qed.
Lemma plain_unique ms ms' b : kw_plain ms b -> kw_plain ms' b -> ms = ms'.
Proof.
  intros (bs & F & ->) (bs' & F' & E). revert ms' bs' F' E. induction F as [|[o m] x ms bs K F IH]; intros ms' bs' F' E; inversion F' as [|[o' m'] x' ms1 bs1 K' F1]; subst; auto.
  - exfalso. cbn [concat] in E. pose proof (entry_len _ _ _ _ K'). destruct x'; [unfold zlen in *; cbn in *; lia|discriminate].
  - exfalso. cbn [concat] in E. pose proof (entry_len _ _ _ _ K). destruct x; [unfold zlen in *; cbn in *; lia|discriminate].
  - cbn [concat fst snd] in *. destruct (entry_pfx _ _ _ _ _ _ _ _ _ _ K K' ltac:(unfold fits; lia) ltac:(unfold fits; lia) E) as (-> & _ & -> & ->). apply app_inv_head in E. f_equal. eapply IH; eauto.
Qed.
Lemma packed_unique C least a z raw raw' : kw_packed C least a z raw -> kw_packed C least a z raw' -> raw = raw'.
Proof.
  intros [(-> & G & _)|(-> & _ & bl & ps & F & -> & -> & _)] [(A & G' & _)|(A & _ & bl' & ps' & F' & -> & E & _)]; try discriminate; [congruence|].
  apply app_inv_head in E. f_equal. revert bl' ps' F' E. induction F as [|c p bl ps [U L] F IH]; intros bl' ps' F' E; inversion F' as [|c' p' bl1 ps1 [U' L'] F1]; subst; auto; cbn [map concat] in E.
  - exfalso. apply (f_equal zlen) in E. rewrite !zlen_app, big_endian_len in E. pose proof (zlen_nonneg c'). change (zlen []) with 0 in E.
    pose proof (zlen_nonneg (concat (map (fun c => big_endian 4 (zlen c) ++ c) bl1))). lia.
  - exfalso. apply (f_equal zlen) in E. rewrite !zlen_app, big_endian_len in E. pose proof (zlen_nonneg c). pose proof (zlen_nonneg (concat (map (fun c => big_endian 4 (zlen c) ++ c) bl))). change (zlen []) with 0 in E. lia.
  - rewrite <- !app_assoc in E. pose proof (zlen_nonneg c). pose proof (zlen_nonneg c'). apply be4 in E as [Z E]; [|unfold fits; lia|unfold fits; lia]. apply split_same in E as [-> E]; [|exact Z].
    rewrite U in U'. injection U' as <-. f_equal. eapply IH; eauto.
Qed.
Lemma packed_attr C least a z raw : kw_packed C least a z raw -> fits 8 a /\ a <> 0.
Proof. intros [(-> & _)|(-> & _)]; unfold fits; lia. Qed.
Lemma set_unique C least ms b : kw_set C least ms b -> forall ms', kw_set C least ms' b -> ms = ms'.
Proof.
  assert (Z0 : fits 8 0) by (unfold fits; lia).
  induction 1 as [|o m b ms rest E S IH|o a key z raw inner b ms rest P PL E S IH]; intros ms' K.
  - inversion K as [|o m b ms rest E S EQ1 EQ2|o a key z raw inner b ms rest P PL E S EQ1 EQ2]; [reflexivity| |]; exfalso; pose proof (entry_len _ _ _ _ E); destruct b; (unfold zlen in *; cbn in *; lia) || discriminate.
  - inversion K as [EQ1 EQ2|o' m' b' ms1 rest' E' S' EQ1 EQ2|o' a' key' z' raw' inner' b' ms1 rest' P' PL' E' S' EQ1 EQ2]; subst.
    + exfalso. pose proof (entry_len _ _ _ _ E). destruct b; [unfold zlen in *; cbn in *; lia|discriminate].
    + destruct (entry_pfx _ _ _ _ _ _ _ _ _ _ E' E Z0 Z0 EQ2) as (-> & _ & -> & ->). apply app_inv_head in EQ2. subst. f_equal. now apply IH.
    + exfalso. destruct (packed_attr _ _ _ _ _ P') as [Fa NZ]. destruct (entry_pfx _ _ _ _ _ _ _ _ _ _ E' E Fa Z0 EQ2) as (_ & A & _). congruence.
  - destruct (packed_attr _ _ _ _ _ P) as [Fa NZ].
    inversion K as [EQ1 EQ2|o' m' b' ms1 rest' E' S' EQ1 EQ2|o' a' key' z' raw' inner' b' ms1 rest' P' PL' E' S' EQ1 EQ2]; subst.
    + exfalso. pose proof (entry_len _ _ _ _ E). destruct b; [unfold zlen in *; cbn in *; lia|discriminate].
    + exfalso. destruct (entry_pfx _ _ _ _ _ _ _ _ _ _ E' E Z0 Fa EQ2) as (_ & A & _). congruence.
    + destruct (packed_attr _ _ _ _ _ P') as [Fa' _]. destruct (entry_pfx _ _ _ _ _ _ _ _ _ _ E' E Fa' Fa EQ2) as (-> & -> & M & ->). injection M as -> ->. apply app_inv_head in EQ2. subst.
      rewrite (packed_unique _ _ _ _ _ _ P' P) in PL'. rewrite (plain_unique _ _ _ PL PL'). f_equal. now apply IH.
Qed.
Lemma produce_part_pfx C least : pfx (kw_produce_part C least).
Proof.
  intros [p ms] [p' ms'] b b' r r' (pb & s & Kp & Ks & L & ->) (pb' & s' & Kp' & Ks' & L' & ->) E. cbn [fst snd] in *. rewrite <- !app_assoc in E.
  destruct (i32_pfx _ _ _ _ _ _ Kp Kp' E) as [-> ->]. apply app_inv_head in E. pose proof (zlen_nonneg s). pose proof (zlen_nonneg s'). apply be4 in E as [Z E]; [|unfold fits; lia|unfold fits; lia].
  apply split_same in E as [-> _]; [|exact Z]. rewrite (set_unique _ _ _ _ Ks _ Ks'). auto.
Qed.
Lemma produce_unique C least acks timeout topics acks' timeout' topics' b :
  kw_produce C least acks timeout topics b -> kw_produce C least acks' timeout' topics' b -> acks = acks' /\ timeout = timeout' /\ topics = topics'.
Proof.
  intros (ab & mb & tb & Ka & Km & Kt & ->) (ab' & mb' & tb' & Ka' & Km' & Kt' & E).
  destruct (i16_pfx _ _ _ _ _ _ Ka Ka' E) as [-> ->]. apply app_inv_head in E. destruct (i32_pfx _ _ _ _ _ _ Km Km' E) as [-> ->]. apply app_inv_head in E. subst tb'.
  rewrite (pfx_exact _ _ _ _ (array_pfx _ (topic_pfx _ (produce_part_pfx C least))) Kt Kt'). auto.
Qed.
