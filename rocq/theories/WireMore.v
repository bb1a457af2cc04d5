(** No silent truncation (C03), locality and prefix rejection (C04). *)
From Coq Require Import ZArith String List Bool Lia ZifyBool.
From Verif Require Import PyBase BaseLemmas Utf8 Utf8Proofs Struct StructProofs Crc32 Primitives
  Messages Protocol SpecWire ProtocolProofs.
Import ListNotations.
Open Scope Z_scope.

(** ** C03 *)
Lemma attr_lookup attrs n : attr attrs n = lookup_attr attrs n.
Proof.
  unfold attr, lookup_attr. induction attrs as [|[k v] r IH]; [reflexivity|]. simpl.
  destruct (String.eqb k n); [reflexivity|]. exact IH.
Qed.

Lemma pack1_int_inv p v b :
  pack1 (int_fmt p) v = Ok b ->
  exists z, v = PInt z /\ fits (bits_of p) z /\ b = big_endian (int_width (int_fmt p)) z.
Proof.
  intro E. destruct v; try (destruct p; discriminate).
  assert (E' : (if in_range (int_width (int_fmt p)) z then Ok (be_enc (int_width (int_fmt p)) z)
                else Err EStruct) = Ok b) by (destruct p; exact E).
  destruct (in_range (int_width (int_fmt p)) z) eqn:R; [|discriminate].
  apply Ok_inj in E'. exists z. split; [reflexivity|]. split; [now apply fits_range|].
  now rewrite big_endian_be.
Qed.

Lemma var_legal p v f d bs :
  p = String_ \/ p = Bytes_ -> bytes_ok v ->
  var_render (int_fmt p) v = Ok (f, d) -> pack f d = Ok bs ->
  length f = length d /\
  exists v', var_reads v v' /\ wire_var (var_width p) v' bs /\ canon_var (bits_of p) v' /\
             Forall is_byte bs.
Proof.
  intros Hp B R P. unfold var_width.
  assert (SZ : forall b, Forall is_byte b ->
     pack [int_fmt p; Fs (zlen b)] [PInt (zlen b); PBytes b] = Ok bs ->
     bs = big_endian (int_width (int_fmt p)) (zlen b) ++ b /\ zlen b < 2 ^ (bits_of p - 1) /\
     Forall is_byte bs).
  { intros b Fb E. cbn [pack] in E.
    destruct (pack1 (int_fmt p) (PInt (zlen b))) as [b1|] eqn:E1; [|discriminate].
    apply pack1_int_inv in E1 as (z & Ez & Fz & ->). injection Ez as <-.
    cbn [bind pack1] in E. rewrite fit_exact in E. rewrite app_nil_r in E. apply Ok_inj in E. subst bs.
    split; [reflexivity|]. split; [unfold fits in Fz; lia|].
    apply Forall_app. split; [rewrite big_endian_be; apply be_enc_bytes|exact Fb]. }
  assert (TXT : forall t b, utf8_encode t = Some b ->
     pack [int_fmt p; Fs (zlen b)] [PInt (zlen b); PBytes b] = Ok bs ->
     wire_var (int_width (int_fmt p)) (PStr t) bs /\ canon_var (bits_of p) (PStr t) /\ Forall is_byte bs).
  { intros t b E PP. destruct (SZ b (utf8_encode_bytes _ _ E) PP) as (-> & L & FB).
    split; [now constructor|]. split; [|exact FB]. exists b. auto. }
  destruct v as [|z|r|t|b|l|o|ms]; unfold var_render in R; cbn [py_str bind] in R; try discriminate.
  - injection R as <- <-. split; [reflexivity|]. exists PNone. split; [reflexivity|].
    assert (bs = big_endian (int_width (int_fmt p)) (-1)) as ->.
    { rewrite big_endian_be. cbn [pack] in P. destruct (pack1 (int_fmt p) (PInt (-1))) as [b1|] eqn:E1; [|discriminate].
      apply pack1_int_inv in E1 as (z & Ez & Fz & ->). injection Ez as <-.
      cbn [bind] in P. rewrite app_nil_r in P. apply Ok_inj in P. now rewrite <- P, big_endian_be. }
    split; [constructor|]. split; [exact I|]. rewrite big_endian_be. apply be_enc_bytes.
  - destruct (utf8_encode (str_of_int z)) as [b|] eqn:E; [|discriminate].
    injection R as <- <-. split; [reflexivity|]. exists (PStr (str_of_int z)).
    split; [reflexivity|]. now apply (TXT _ b).
  - destruct (utf8_encode r) as [b|] eqn:E; [|discriminate].
    injection R as <- <-. split; [reflexivity|]. exists (PStr r).
    split; [reflexivity|]. now apply (TXT _ b).
  - destruct (utf8_encode t) as [b|] eqn:E; [|discriminate].
    injection R as <- <-. split; [reflexivity|]. exists (PStr t).
    split; [reflexivity|]. now apply (TXT _ b).
  - injection R as <- <-. split; [reflexivity|]. cbn [bytes_ok] in B.
    destruct (utf8_decode b) as [t|] eqn:D.
    + exists (PStr t). cbn [var_reads]. rewrite D. split; [reflexivity|].
      apply (TXT _ b); [now apply utf8_encode_decode|exact P].
    + exists (PBytes b). cbn [var_reads]. rewrite D. split; [reflexivity|].
      destruct (SZ b B P) as (-> & L & FB). split; [constructor|]. split; [|exact FB].
      repeat split; assumption.
Qed.

Lemma prim_legal p v f d bs :
  bytes_ok v -> prim_render p v = Ok (f, d) -> pack f d = Ok bs ->
  length f = length d /\
  exists v', reads_as (TPrim p) v v' /\ wire (TPrim p) v' bs /\ canon_prim p v'.
Proof.
  intros B R P.
  assert (INT : forall n, p <> String_ -> p <> Bytes_ ->
     (p = Int8 /\ n = 1 \/ p = Int16 /\ n = 2 \/ p = Int32 /\ n = 4 \/ p = Int64 /\ n = 8)%nat ->
     length f = length d /\
     exists v', reads_as (TPrim p) v v' /\ wire (TPrim p) v' bs /\ canon_prim p v').
  { intros n N1 N2 W. assert (R' : Ok ([int_fmt p], [v]) = Ok (f, d)) by (destruct p; congruence || exact R).
    injection R' as <- <-. split; [reflexivity|]. cbn [pack] in P.
    destruct (pack1 (int_fmt p) v) as [b1|] eqn:E1; [|discriminate].
    apply pack1_int_inv in E1 as (z & -> & Fz & ->). cbn [bind] in P. rewrite app_nil_r in P.
    apply Ok_inj in P. subst bs. exists (PInt z). split; [destruct p; congruence || reflexivity|].
    split.
    - constructor. destruct p; simpl; intuition congruence.
    - destruct p; try congruence; (exists z; split; [reflexivity|exact Fz]). }
  destruct p.
  - apply (INT 1%nat); try discriminate; tauto.
  - apply (INT 2%nat); try discriminate; tauto.
  - apply (INT 4%nat); try discriminate; tauto.
  - apply (INT 8%nat); try discriminate; tauto.
  - destruct (var_legal String_ v f d bs) as (L & v' & R1 & W & Cv & _); auto.
    split; [exact L|]. exists v'. split; [exact R1|]. split; [now constructor|exact Cv].
  - destruct (var_legal Bytes_ v f d bs) as (L & v' & R1 & W & Cv & _); auto.
    split; [exact L|]. exists v'. split; [exact R1|]. split; [now constructor|exact Cv].
Qed.

Definition msg_bytes_ok (m : pymsg) : Prop := bytes_ok (m_key m) /\ bytes_ok (m_value m).

Lemma msg_render_inv m f d :
  msg_bytes_ok m -> msg_render m = Ok (f, d) ->
  exists g a k' v' p,
    m_magic m = PInt g /\ m_attributes m = PInt a /\
    var_reads (m_key m) k' /\ var_reads (m_value m) v' /\
    fits 8 g /\ fits 8 a /\ canon_var 32 k' /\ canon_var 32 v' /\
    wire_payload (Msg (m_crc m) (PInt g) (PInt a) k' v') p /\ Forall is_byte p /\
    f = [Fi; Fs (zlen p)] /\
    d = [PInt (if 2 ^ 31 <? crc32 p then crc32 p - 2 ^ 32 else crc32 p); PBytes p].
Proof.
  intros [Bk Bv] R. unfold msg_render in R.
  destruct (prim_render Bytes_ (m_key m)) as [[fk dk]|] eqn:Rk; [|discriminate].
  destruct (prim_render Bytes_ (m_value m)) as [[fv dv]|] eqn:Rv; [|discriminate].
  cbn [bind fst snd] in R.
  destruct (pack ([Fb; Fb] ++ fk ++ fv) ([m_magic m; m_attributes m] ++ dk ++ dv)) as [p|] eqn:P;
    [|discriminate].
  cbn [bind] in R. injection R as <- <-.
  apply pack_app_inv in P as (b0 & b' & P0 & P' & ->); [|reflexivity].
  cbn [pack] in P0.
  destruct (pack1 Fb (m_magic m)) as [bg|] eqn:Eg; [|discriminate]. cbn [bind] in P0.
  destruct (pack1 Fb (m_attributes m)) as [ba|] eqn:Ea; [|discriminate]. cbn [bind] in P0.
  rewrite app_nil_r in P0. apply Ok_inj in P0. subst b0.
  apply (pack1_int_inv Int8) in Eg as (g & Eg & Fg & ->).
  apply (pack1_int_inv Int8) in Ea as (a & Ea & Fa & ->).
  assert (Lk : length fk = length dk).
  { cbn [prim_render] in Rk. unfold var_render in Rk.
    destruct (m_key m); cbn [py_str bind] in Rk; try discriminate;
      try (destruct (utf8_encode _); [|discriminate]); injection Rk as <- <-; reflexivity. }
  apply pack_app_inv in P' as (kb & vb & Pk & Pv & ->); [|exact Lk].
  destruct (var_legal Bytes_ (m_key m) fk dk kb) as (_ & k' & Rk' & Wk & Ck & FBk); auto.
  destruct (var_legal Bytes_ (m_value m) fv dv vb) as (_ & v' & Rv' & Wv & Cv & FBv); auto.
  exists g, a, k', v', ((big_endian 1 g ++ big_endian 1 a) ++ kb ++ vb).
  repeat (split; [assumption || reflexivity|]).
  split; [|split; [|split; [reflexivity|reflexivity]]].
  - rewrite <- app_assoc. now constructor.
  - rewrite !big_endian_be. repeat (apply Forall_app; split); auto using be_enc_bytes.
Qed.

Lemma ms_loop_legal ms f d n bs :
  Forall (fun om => msg_bytes_ok (snd om)) ms ->
  ms_render_loop ms = Ok (f, d, n) -> pack f d = Ok bs ->
  length f = length d /\ n = zlen bs /\
  exists ms', Forall2 (fun om om' => fst om' = fst om /\ msg_reads (snd om) (snd om')) ms ms' /\
    wire_entries ms' bs /\
    Forall (fun om => (exists o, fst om = PInt o /\ fits 64 o) /\ legal_msg (snd om)) ms' /\
    Forall (fun om => exists p, wire_payload (snd om) p /\ 4 + zlen p < 2 ^ 31) ms'.
Proof.
  revert f d n bs. induction ms as [|[o m] r IH]; intros f d n bs B R P.
  - injection R as <- <- <-. injection P as <-. split; [reflexivity|]. split; [reflexivity|].
    exists []. repeat constructor.
  - inversion B as [|? ? Bm Br]; subst. cbn [snd] in Bm. cbn [ms_render_loop] in R.
    destruct (msg_render m) as [[mf md]|] eqn:Rm; [|discriminate]. cbn [bind] in R.
    destruct (ms_render_loop r) as [[[rf rd] rs]|] eqn:Rr; [|discriminate]. cbn [bind] in R.
    destruct (msg_render_inv m mf md Bm Rm)
      as (g & a & k' & v' & p & Eg & Ea & Rk & Rv & Fg & Fa & Ck & Cv & Wp & FB & -> & ->).
    rewrite calcsize_native_msg in R. cbn [app] in R.
    apply Ok_inj in R.
    assert (Hf : f = [Fq; Fi; Fi; Fs (zlen p)] ++ rf) by exact (eq_sym (f_equal (fun x => fst (fst x)) R)).
    assert (Hd : d = [o; PInt (4 + zlen p);
                  PInt (if 2 ^ 31 <? crc32 p then crc32 p - 2 ^ 32 else crc32 p); PBytes p] ++ rd)
      by exact (eq_sym (f_equal (fun x => snd (fst x)) R)).
    assert (Hn : n = 16 + zlen p + rs).
    { assert (E : calcsize [Fq; Fi; Fi; Fs (zlen p)] + rs = n) by exact (f_equal snd R).
      rewrite <- E. cbn [calcsize tok_size]. lia. }
    subst f d n. clear R.
    apply pack_app_inv in P as (b0 & rb & P0 & Pr & ->); [|reflexivity].
    destruct (IH rf rd rs rb Br eq_refl Pr) as (Lr & -> & ms' & F2 & Wr & Lg & Sz).
    cbn [pack] in P0.
    destruct (pack1 Fq o) as [bo|] eqn:Eo; [|discriminate]. cbn [bind] in P0.
    destruct (pack1 Fi (PInt (4 + zlen p))) as [bz|] eqn:Ez; [|discriminate]. cbn [bind] in P0.
    destruct (pack1 Fi (PInt (if 2 ^ 31 <? crc32 p then crc32 p - 2 ^ 32 else crc32 p))) as [bc|] eqn:Ec;
      [|discriminate]. cbn [bind pack1] in P0. rewrite fit_exact, app_nil_r in P0.
    apply Ok_inj in P0. subst b0.
    apply (pack1_int_inv Int64) in Eo as (oz & -> & Fo & ->).
    apply (pack1_int_inv Int32) in Ez as (sz & Esz & Fsz & ->). injection Esz as <-.
    apply (pack1_int_inv Int32) in Ec as (cz & Ecz & Fcz & ->). injection Ecz as Ecz.
    pose proof (crc32_bound p FB) as CB.
    assert (NC : crc32 p <> 2 ^ 31).
    { intro E. rewrite E in Ecz. change (2 ^ 31 <? 2 ^ 31) with false in Ecz. cbv iota in Ecz.
      subst cz. unfold fits, bits_of in Fcz. lia. }
    rewrite crc_code_spec in Ecz by assumption. subst cz.
    split; [rewrite !app_length; simpl; lia|]. split.
    { rewrite !zlen_app, !big_endian_len. cbn [int_fmt int_width].
      change (Z.of_nat 8) with 8. change (Z.of_nat 4) with 4. lia. }
    exists ((PInt oz, Msg (m_crc m) (PInt g) (PInt a) k' v') :: ms').
    split; [|split; [|split]].
    + constructor; [|exact F2]. cbn [fst snd]. split; [reflexivity|].
      unfold msg_reads. cbn [m_magic m_attributes m_key m_value]. now rewrite Eg, Ea.
    + cbn [int_fmt int_width].
      replace ((big_endian 8 oz ++ big_endian 4 (4 + zlen p) ++ big_endian 4 (signed32 (crc32 p)) ++ p) ++ rb)
        with (big_endian 8 oz ++ big_endian 4 (4 + zlen p) ++ big_endian 4 (signed32 (crc32 p)) ++ p ++ rb)
        by (rewrite <- !app_assoc; reflexivity).
      now constructor.
    + constructor; [|exact Lg]. cbn [fst snd]. split; [eauto|]. repeat split; assumption || apply Fg || apply Fa.
    + constructor; [|exact Sz]. cbn [snd]. exists p. split; [exact Wp|]. unfold fits, bits_of in Fsz. lia.
Qed.

Definition legal_render (t : ty) : Prop := forall v f d bs, bytes_ok v ->
  render t v = Ok (f, d) -> pack f d = Ok bs ->
  length f = length d /\ exists v', reads_as t v v' /\ wire t v' bs /\ legal t v'.

Lemma render_lengths t v f d : render t v = Ok (f, d) -> length f = length d.
Proof.
  revert v f d. induction t as [p|it IH|fs IH|] using ty_ind'; intros v f1 d1 R1.
  - cbn [render] in R1. destruct p; cbn [prim_render int_fmt] in R1;
      try (injection R1 as <- <-; reflexivity);
      unfold var_render in R1; destruct v; cbn [py_str bind] in R1; try discriminate;
      try (destruct (utf8_encode _); [|discriminate]); injection R1 as <- <-; reflexivity.
  - cbn [render] in R1. destruct (array_items v) as [vs|]; [|discriminate]. cbn [bind] in R1.
    destruct (render_items (render it) vs) as [[f d]|] eqn:E; [|discriminate]. cbn [bind] in R1.
    injection R1 as <- <-. simpl. f_equal. revert f d E.
    induction vs as [|x vs IHv]; intros f d E; cbn [render_items] in E.
    + injection E as <- <-. reflexivity.
    + destruct (render it x) as [[fa da]|] eqn:Ex; [|discriminate]. cbn [bind] in E.
      destruct (render_items (render it) vs) as [[fb db]|] eqn:Ev; [|discriminate]. cbn [bind] in E.
      injection E as <- <-. rewrite !app_length. rewrite (IH _ _ _ Ex), (IHv _ _ eq_refl). reflexivity.
  - destruct v; try discriminate. rewrite render_part in R1. revert f1 d1 R1.
    induction IH as [|[n t] r Ht F IHF]; intros f1 d1 R1; cbn [render_fields] in R1.
    + injection R1 as <- <-. reflexivity.
    + destruct (render t (attr attrs n)) as [[fa da]|] eqn:Ex; [|discriminate]. cbn [bind] in R1.
      destruct (render_fields r attrs) as [[fb db]|] eqn:Ev; [|discriminate]. cbn [bind] in R1.
      injection R1 as <- <-. rewrite !app_length. rewrite (Ht _ _ _ Ex), (IHF _ _ eq_refl). reflexivity.
  - destruct v as [| | | | | | |ms]; try discriminate. cbn [render] in R1. unfold ms_render in R1.
    destruct (ms_render_loop ms) as [[[f d] n]|] eqn:E; [|discriminate]. cbn [bind] in R1.
    injection R1 as <- <-. simpl. f_equal. revert f d n E.
    induction ms as [|[o m] ms IHm]; intros f d n E; cbn [ms_render_loop] in E.
    + injection E as <- <- <-. reflexivity.
    + destruct (msg_render m) as [[fa da]|] eqn:Em; [|discriminate]. cbn [bind] in E.
      destruct (ms_render_loop ms) as [[[fb db] nb]|] eqn:Er; [|discriminate]. cbn [bind] in E.
      injection E as <- <- <-. simpl. rewrite !app_length, (IHm _ _ _ eq_refl).
      unfold msg_render in Em.
      destruct (prim_render Bytes_ (m_key m)); [|discriminate]. cbn [bind] in Em.
      destruct (prim_render Bytes_ (m_value m)); [|discriminate]. cbn [bind] in Em.
      destruct (pack _ _); [|discriminate]. cbn [bind] in Em. injection Em as <- <-. reflexivity.
Qed.

Lemma items_legal it : legal_render it -> forall vs f d bs, Forall bytes_ok vs ->
  render_items (render it) vs = Ok (f, d) -> pack f d = Ok bs ->
  length f = length d /\
  exists vs', Forall2 (reads_as it) vs vs' /\ wire_items it vs' bs /\ Forall (legal it) vs'.
Proof.
  intro H. induction vs as [|v vs IH]; intros f d bs B R P.
  - injection R as <- <-. injection P as <-. split; [reflexivity|]. exists []. repeat constructor.
  - inversion B; subst. cbn [render_items] in R.
    destruct (render it v) as [[f1 d1]|] eqn:R1; [|discriminate]. cbn [bind] in R.
    destruct (render_items (render it) vs) as [[f2 d2]|] eqn:R2; [|discriminate]. cbn [bind] in R.
    injection R as <- <-.
    pose proof (render_lengths _ _ _ _ R1) as LL.
    apply pack_app_inv in P as (b1 & b2 & P1 & P2 & ->); [|exact LL].
    destruct (H v f1 d1 b1) as (_ & v' & Rv & Wv & Lv); auto.
    destruct (IH f2 d2 b2) as (L2 & vs' & F2 & W2 & Lg); auto.
    split; [rewrite !app_length; lia|]. exists (v' :: vs').
    split; [now constructor|]. split; [now constructor|now constructor].
Qed.

Lemma bytes_ok_list vs : bytes_ok (PList vs) <-> Forall bytes_ok vs.
Proof.
  simpl. induction vs as [|x r IH]; [split; constructor|].
  rewrite Forall_cons_iff, IH. tauto.
Qed.

Lemma bytes_ok_obj attrs n : bytes_ok (PObj attrs) -> bytes_ok (lookup_attr attrs n).
Proof.
  unfold lookup_attr. induction attrs as [|[k x] r IH]; intro H; [exact I|]. simpl in H.
  destruct H as [Hx Hr]. simpl. destruct (String.eqb k n); [exact Hx|]. apply IH. exact Hr.
Qed.

Lemma bytes_ok_set ms : bytes_ok (PMsgSet ms) -> Forall (fun om => msg_bytes_ok (snd om)) ms.
Proof.
  induction ms as [|[o m] r IH]; intro H; constructor.
  - destruct m. simpl in H. exact (proj1 H).
  - apply IH. simpl in H. exact (proj2 H).
Qed.

Lemma items_bytes_ok v vs : bytes_ok v -> array_items v = Ok vs -> Forall bytes_ok vs /\ items_of v vs.
Proof.
  intros B E. destruct v; try discriminate; simpl in E; injection E as <-; simpl.
  - split; constructor.
  - split; [|reflexivity]. apply Forall_forall. intros x Hx. apply in_map_iff in Hx as (c & <- & _). exact I.
  - split; [|reflexivity]. apply Forall_forall. intros x Hx. apply in_map_iff in Hx as (c & <- & _). exact I.
  - split; [|reflexivity]. now apply bytes_ok_list.
Qed.

Fixpoint reads_fields (attrs : list (string * pyval)) (fs : list (string * ty))
  (attrs' : list (string * pyval)) : Prop :=
  match fs, attrs' with
  | [], [] => True
  | (n, t') :: r, (n', v') :: r' => n = n' /\ reads_as t' (lookup_attr attrs n) v' /\ reads_fields attrs r r'
  | _, _ => False
  end.

Lemma reads_part fs attrs attrs' :
  reads_fields attrs fs attrs' -> reads_as (TPart fs) (PObj attrs) (PObj attrs').
Proof.
  intro H. simpl. exists attrs, attrs'. split; [reflexivity|]. split; [reflexivity|].
  revert attrs' H. induction fs as [|[n t] r IH]; intros [|[n' v'] r'] H; simpl in *; try tauto.
  destruct H as (H1 & H2 & H3). split; [exact H1|]. split; [exact H2|]. now apply IH.
Qed.

Lemma Forall2_len {A B} (R : A -> B -> Prop) l l' : Forall2 R l l' -> length l = length l'.
Proof. induction 1; simpl; congruence. Qed.

Lemma all_legal t : legal_render t.
Proof.
  induction t as [p|it IH|fs IH|] using ty_ind'; intros v f d bs B R P.
  - destruct (prim_legal p v f d bs B R P) as (L & v' & R1 & W & Cv).
    split; [exact L|]. exists v'. auto.
  - split; [eapply render_lengths; eauto|]. cbn [render] in R.
    destruct (array_items v) as [vs|] eqn:Ea; [|discriminate]. cbn [bind] in R.
    destruct (render_items (render it) vs) as [[f1 d1]|] eqn:Ri; [|discriminate]. cbn [bind] in R.
    injection R as <- <-.
    change (Fi :: f1) with ([Fi] ++ f1) in P. change (PInt (zlen vs) :: d1) with ([PInt (zlen vs)] ++ d1) in P.
    apply pack_app_inv in P as (b0 & b1 & P0 & P1 & ->); [|reflexivity].
    destruct (items_bytes_ok v vs B Ea) as [Bv Iv].
    destruct (items_legal it IH vs f1 d1 b1 Bv Ri P1) as (L1 & vs' & F2 & W & Lg).
    cbn [pack] in P0. destruct (pack1 Fi (PInt (zlen vs))) as [bz|] eqn:Ez; [|discriminate].
    cbn [bind] in P0. rewrite app_nil_r in P0. apply Ok_inj in P0. subst b0.
    apply (pack1_int_inv Int32) in Ez as (z & Ez & Fz & ->). injection Ez as <-.
    assert (LE : zlen vs' = zlen vs).
    { unfold zlen. f_equal. symmetry. eapply Forall2_len; eauto. }
    exists (PList vs'). split; [|split].
    + simpl. exists vs, vs'. auto.
    + rewrite <- LE. now constructor.
    + simpl. exists vs'. split; [reflexivity|]. split; [exact Lg|]. rewrite LE. unfold fits, bits_of in Fz. lia.
  - split; [eapply render_lengths; eauto|].
    destruct v as [| | | | | |attrs|]; try discriminate. rewrite render_part in R.
    assert (G : forall fs, Forall (fun nt => legal_render (snd nt)) fs ->
      forall f d bs, render_fields fs attrs = Ok (f, d) -> pack f d = Ok bs ->
      exists attrs', reads_fields attrs fs attrs' /\ wire_fields fs attrs' bs /\
                     conforms_fields legal_set fs attrs').
    { clear - B. induction 1 as [|[n t] r Ht F IHF]; intros f d bs R P; cbn [render_fields] in R.
      - injection R as <- <-. injection P as <-. exists []. repeat constructor.
      - destruct (render t (attr attrs n)) as [[fa da]|] eqn:Ex; [|discriminate]. cbn [bind] in R.
        destruct (render_fields r attrs) as [[fb db]|] eqn:Ev; [|discriminate]. cbn [bind] in R.
        injection R as <- <-.
        apply pack_app_inv in P as (b1 & b2 & P1 & P2 & ->); [|eapply render_lengths; eauto].
        rewrite attr_lookup in Ex. cbn [snd] in Ht.
        destruct (Ht (lookup_attr attrs n) fa da b1 (bytes_ok_obj _ _ B) Ex P1) as (_ & v' & Rv & Wv & Lv).
        destruct (IHF _ _ b2 eq_refl P2) as (attrs' & Rr & Wr & Lr).
        exists ((n, v') :: attrs'). split; [|split].
        + simpl. auto.
        + now constructor.
        + simpl. auto. }
    destruct (G fs IH f d bs R P) as (attrs' & Rr & Wr & Lr).
    exists (PObj attrs'). split; [now apply reads_part|]. split; [now constructor|].
    apply conforms_part. eauto.
  - split; [eapply render_lengths; eauto|].
    destruct v as [| | | | | | |ms]; try discriminate. cbn [render] in R. unfold ms_render in R.
    destruct (ms_render_loop ms) as [[[f1 d1] n]|] eqn:E; [|discriminate]. cbn [bind] in R.
    injection R as <- <-.
    change (Fi :: f1) with ([Fi] ++ f1) in P. change (PInt n :: d1) with ([PInt n] ++ d1) in P.
    apply pack_app_inv in P as (b0 & b1 & P0 & P1 & ->); [|reflexivity].
    destruct (ms_loop_legal ms f1 d1 n b1 (bytes_ok_set _ B) E P1) as (_ & -> & ms' & F2 & W & Lg & _).
    cbn [pack] in P0. destruct (pack1 Fi (PInt (zlen b1))) as [bz|] eqn:Ez; [|discriminate].
    cbn [bind] in P0. rewrite app_nil_r in P0. apply Ok_inj in P0. subst b0.
    apply (pack1_int_inv Int32) in Ez as (z & Ez & Fz & ->). injection Ez as <-.
    exists (PMsgSet ms'). split; [|split].
    + simpl. exists ms, ms'. auto.
    + now constructor.
    + simpl. exists ms'. split; [reflexivity|]. split; [exact Lg|]. exists b1. split; [exact W|].
      unfold fits, bits_of in Fz. lia.
Qed.

(** ** C04: locality *)
Definition agree (k : Z) (b1 b2 : bytes) : Prop := firstn (Z.to_nat k) b1 = firstn (Z.to_nat k) b2.

Lemma agree_le k k' b1 b2 : k' <= k -> agree k b1 b2 -> agree k' b1 b2.
Proof.
  unfold agree. intros L E.
  replace (firstn (Z.to_nat k') b1) with (firstn (Z.to_nat k') (firstn (Z.to_nat k) b1)).
  2:{ rewrite firstn_firstn. f_equal. lia. }
  rewrite E, firstn_firstn. f_equal. lia.
Qed.

Definition local_parser (P : bytes -> Z -> res (pyval * Z)) : Prop :=
  forall b1 off v o, 0 <= off <= zlen b1 -> P b1 off = Ok (v, o) ->
    off <= o <= zlen b1 /\ forall b2, agree o b1 b2 -> P b2 off = Ok (v, o).

Lemma int_parse_local t : (forall n, t <> Fs n) -> local_parser (int_parse t).
Proof.
  intros NS b1 off v o H E. unfold int_parse in E.
  destruct (unpack1 t b1 off) as [w|] eqn:U; [|discriminate]. cbn [bind] in E.
  injection E as <- <-. pose proof (unpack1_ok_bounds _ _ _ _ U).
  split; [lia|]. intros b2 A. unfold int_parse.
  now rewrite (unpack1_local _ _ _ _ _ _ U (Z.le_refl _) A).
Qed.

Lemma var_parse_local sz : (forall n, sz <> Fs n) -> local_parser (var_parse sz).
Proof.
  intros NS b1 off v o H E. unfold var_parse in E.
  destruct (int_parse sz b1 off) as [[s o1]|] eqn:E1; [|discriminate]. cbn [bind] in E.
  destruct (int_parse_local sz NS _ _ _ _ H E1) as [B1 A1].
  destruct s as [|n| | | | | |]; try discriminate.
  destruct (n =? -1) eqn:N.
  - injection E as <- <-. split; [exact B1|]. intros b2 A. unfold var_parse.
    rewrite (A1 _ A). cbn [bind]. now rewrite N.
  - destruct (unpack1 (Fs n) b1 o1) as [w|] eqn:U; [|discriminate]. cbn [bind] in E.
    destruct w; try discriminate. injection E as <- <-.
    pose proof (unpack1_ok_bounds _ _ _ _ U) as BU. cbn [tok_size] in BU.
    split; [lia|]. intros b2 A. unfold var_parse.
    rewrite (A1 b2) by (eapply agree_le; [|exact A]; lia). cbn [bind]. rewrite N.
    rewrite (unpack1_local _ _ b2 _ _ (o1 + n) U); [reflexivity|cbn [tok_size]; lia|exact A].
Qed.

Lemma prim_parse_local p : local_parser (prim_parse p).
Proof.
  destruct p; cbn [prim_parse]; apply int_parse_local || apply var_parse_local; intros n; discriminate.
Qed.

Lemma parse_local C depth t : no_msgset t -> local_parser (parse C depth t).
Proof.
  induction t as [p|it IH|fs IH|] using ty_ind'; intro NM.
  - apply prim_parse_local.
  - simpl in NM. specialize (IH NM). intros b1 off v o H E. cbn [parse] in E.
    destruct (prim_parse Int32 b1 off) as [[c o1]|] eqn:E1; [|discriminate]. cbn [bind] in E.
    destruct (prim_parse_local Int32 _ _ _ _ H E1) as [B1 A1].
    destruct c as [|z| | | | | |]; try discriminate.
    assert (LOOP : forall n acc off acc' o, 0 <= off <= zlen b1 ->
       iterN n (array_step (parse C depth it b1)) (acc, off) = Ok (acc', o) ->
       off <= o <= zlen b1 /\
       forall b2, agree o b1 b2 -> iterN n (array_step (parse C depth it b2)) (acc, off) = Ok (acc', o)).
    { clear - IH. induction n as [|n IHn]; intros acc off acc' o H E; cbn [iterN] in E.
      - injection E as <- <-. split; [lia|]. reflexivity.
      - unfold array_step at 1 in E. cbn [fst snd] in E.
        destruct (parse C depth it b1 off) as [[v o1]|] eqn:E1; [|discriminate]. cbn [bind] in E.
        destruct (IH _ _ _ _ H E1) as [B1 A1].
        assert (H1 : 0 <= o1 <= zlen b1) by lia.
        destruct (IHn _ _ _ _ H1 E) as (B2 & A2).
        split; [lia|]. intros b2 A. cbn [iterN]. unfold array_step at 1. cbn [fst snd].
        rewrite (A1 b2) by (eapply agree_le; [|exact A]; lia). cbn [bind]. now apply A2. }
    destruct z as [|n|n].
    + injection E as <- <-. split; [exact B1|]. intros b2 A. cbn [parse]. now rewrite (A1 _ A).
    + destruct (iterP n (array_step (parse C depth it b1)) ([], o1)) as [[vs o2]|] eqn:EI; [|discriminate].
      cbn [bind] in E. injection E as <- <-. rewrite iterP_N in EI.
      assert (H1 : 0 <= o1 <= zlen b1) by lia.
      destruct (LOOP _ _ _ _ _ H1 EI) as (B2 & A2).
      split; [lia|]. intros b2 A. cbn [parse].
      rewrite (A1 b2) by (eapply agree_le; [|exact A]; lia). cbn [bind].
      rewrite iterP_N, (A2 b2 A). reflexivity.
    + injection E as <- <-. split; [exact B1|]. intros b2 A. cbn [parse]. now rewrite (A1 _ A).
  - apply nomsg_part in NM.
    assert (G : forall b1 off vs o, 0 <= off <= zlen b1 -> parse_fields C depth fs b1 off = Ok (vs, o) ->
       off <= o <= zlen b1 /\
       forall b2, agree o b1 b2 -> parse_fields C depth fs b2 off = Ok (vs, o)).
    { revert NM. induction IH as [|[n t] r Ht F IHF]; intros NM b1 off vs o H E; cbn [parse_fields] in E.
      - injection E as <- <-. split; [lia|]. reflexivity.
      - cbn [nomsg_fields] in NM. destruct NM as [NM1 NM2]. cbn [snd] in Ht.
        destruct (parse C depth t b1 off) as [[v o1]|] eqn:E1; [|discriminate]. cbn [bind] in E.
        destruct (parse_fields C depth r b1 o1) as [[vs' o2]|] eqn:E2; [|discriminate]. cbn [bind] in E.
        injection E as <- <-.
        destruct (Ht NM1 _ _ _ _ H E1) as [B1 A1].
        assert (H1 : 0 <= o1 <= zlen b1) by lia.
        destruct (IHF NM2 _ _ _ _ H1 E2) as (B2 & A2).
        split; [lia|]. intros b2 A. cbn [parse_fields].
        rewrite (A1 b2) by (eapply agree_le; [|exact A]; lia). cbn [bind].
        now rewrite (A2 _ A). }
    intros b1 off v o H E. rewrite parse_part in E.
    destruct (parse_fields C depth fs b1 off) as [[vs o']|] eqn:E1; [|discriminate]. cbn [bind] in E.
    injection E as <- <-. destruct (G _ _ _ _ H E1) as (B1 & A).
    split; [exact B1|]. intros b2 Ab. rewrite parse_part. now rewrite (A b2 Ab).
  - destruct NM.
Qed.

(** ** C04: errors of layouts without message sets *)
Definition only_struct (P : bytes -> Z -> res (pyval * Z)) : Prop :=
  forall b off e, P b off = Err e -> e = EStruct.

Lemma int_parse_struct t : only_struct (int_parse t).
Proof.
  intros b off e E. unfold int_parse in E.
  destruct (unpack1 t b off) eqn:U; [discriminate|]. cbn [bind] in E.
  apply unpack1_err in U. congruence.
Qed.

Lemma int_parse_val t b off v o : (forall n, t <> Fs n) -> int_parse t b off = Ok (v, o) -> exists z, v = PInt z.
Proof.
  intros NS E. unfold int_parse in E.
  destruct (unpack1 t b off) as [w|] eqn:U; [|discriminate]. cbn [bind] in E. injection E as <- <-.
  unfold unpack1 in U. destruct (_ || _); [discriminate|].
  destruct t; try (injection U as <-; eauto). exfalso. eapply NS; reflexivity.
Qed.

Lemma var_parse_struct sz : (forall n, sz <> Fs n) -> only_struct (var_parse sz).
Proof.
  intros NS b off e E. unfold var_parse in E.
  destruct (int_parse sz b off) as [[s o]|e'] eqn:E1.
  2:{ cbn [bind] in E. apply int_parse_struct in E1. congruence. }
  cbn [bind] in E. destruct (int_parse_val _ _ _ _ _ NS E1) as [n ->].
  destruct (n =? -1); [discriminate|].
  destruct (unpack1 (Fs n) b o) as [w|e'] eqn:U.
  2:{ cbn [bind] in E. apply unpack1_err in U. congruence. }
  cbn [bind] in E. unfold unpack1 in U. destruct (_ || _); [discriminate|]. injection U as <-. discriminate.
Qed.

Lemma prim_parse_struct p : only_struct (prim_parse p).
Proof. destruct p; cbn [prim_parse]; try apply int_parse_struct; apply var_parse_struct; discriminate. Qed.

Lemma parse_only_struct C depth t : no_msgset t -> only_struct (parse C depth t).
Proof.
  induction t as [p|it IH|fs IH|] using ty_ind'; intro NM.
  - apply prim_parse_struct.
  - simpl in NM. specialize (IH NM). intros b off e E. cbn [parse] in E.
    destruct (prim_parse Int32 b off) as [[c o]|e'] eqn:E1.
    2:{ cbn [bind] in E. apply prim_parse_struct in E1. congruence. }
    cbn [bind] in E. destruct (int_parse_val Fi b off c o) as [z ->]; [discriminate|exact E1|].
    destruct z as [|n|n]; try discriminate.
    destruct (iterP n _ _) as [[vs o2]|e'] eqn:EI; [discriminate|]. cbn [bind] in E.
    assert (e' = e) as -> by congruence. clear E. rewrite iterP_N in EI. revert EI.
    generalize (@nil pyval) o. induction (Pos.to_nat n) as [|k IHk]; intros acc off' EI; [discriminate|].
    cbn [iterN] in EI. unfold array_step at 1 in EI. cbn [fst snd] in EI.
    destruct (parse C depth it b off') as [[v o2]|e'] eqn:Ep.
    + cbn [bind] in EI. eauto.
    + cbn [bind] in EI. apply IH in Ep. congruence.
  - apply nomsg_part in NM. intros b off e E. rewrite parse_part in E.
    destruct (parse_fields C depth fs b off) as [[vs o]|e'] eqn:Ef; [discriminate|].
    cbn [bind] in E. assert (e' = e) as -> by congruence. clear E. revert off Ef NM.
    induction IH as [|[n t] r Ht F IHF]; intros off Ef NM; cbn [parse_fields] in Ef; [discriminate|].
    cbn [nomsg_fields] in NM. destruct NM as [NM1 NM2]. cbn [snd] in Ht.
    destruct (parse C depth t b off) as [[v o]|e'] eqn:Ep.
    2:{ cbn [bind] in Ef. apply (Ht NM1) in Ep. congruence. }
    cbn [bind] in Ef. destruct (parse_fields C depth r b o) as [[vs o2]|e'] eqn:E2; [discriminate|].
    cbn [bind] in Ef. eapply IHF; [|exact NM2]. rewrite E2. congruence.
  - destruct NM.
Qed.

(** every strict prefix of what was consumed is rejected with struct.error *)
Lemma parse_prefix_rejected C depth t b off v o k :
  no_msgset t -> 0 <= off -> off <= k < o -> k <= zlen b -> parse C depth t b off = Ok (v, o) ->
  parse C depth t (firstn (Z.to_nat k) b) off = Err EStruct.
Proof.
  intros NM H K Kb E.
  destruct (parse C depth t (firstn (Z.to_nat k) b) off) as [[v' o']|e] eqn:E'.
  2:{ f_equal. eapply parse_only_struct; eauto. }
  exfalso. assert (L : zlen (firstn (Z.to_nat k) b) = k).
  { unfold zlen in *. rewrite firstn_length. lia. }
  assert (H2 : 0 <= off <= zlen (firstn (Z.to_nat k) b)) by lia.
  destruct (parse_local C depth t NM _ _ _ _ H2 E') as [B A].
  rewrite (A b) in E.
  - injection E as -> ->. lia.
  - unfold agree. rewrite firstn_firstn. f_equal. lia.
Qed.
