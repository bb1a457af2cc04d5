(** Facts about struct packing and unpacking. *)
From Coq Require Import ZArith List Bool Lia ZifyBool.
From Verif Require Import PyBase BaseLemmas Struct.
Import ListNotations.
Open Scope Z_scope.

Lemma be_enc_length w z : length (be_enc w z) = w.
Proof. revert z. induction w; intro z; simpl; [reflexivity|]. rewrite app_length, IHw. simpl. lia. Qed.

Lemma be_enc_zlen w z : zlen (be_enc w z) = Z.of_nat w.
Proof. unfold zlen. now rewrite be_enc_length. Qed.

Lemma be_enc_bytes w z : Forall is_byte (be_enc w z).
Proof.
  revert z. induction w; intro z; simpl; [constructor|].
  apply Forall_app. split; [apply IHw|]. constructor; [|constructor].
  unfold is_byte. apply Z.mod_pos_bound. lia.
Qed.

Lemma be_dec_u_app a b : be_dec_u (a ++ [b]) = be_dec_u a * 256 + b.
Proof. unfold be_dec_u. now rewrite fold_left_app. Qed.

Lemma be_dec_u_enc w z : be_dec_u (be_enc w z) = z mod 256 ^ Z.of_nat w.
Proof.
  revert z. induction w; intro z.
  - simpl. now rewrite Z.mod_1_r.
  - simpl be_enc. rewrite be_dec_u_app, IHw.
    rewrite Nat2Z.inj_succ, Z.pow_succ_r by lia.
    assert (0 < 256 ^ Z.of_nat w) by (apply Z.pow_pos_nonneg; lia).
    rewrite Z.rem_mul_r by lia. lia.
Qed.

Lemma in_range_spec w z :
  in_range w z = true <-> - (256 ^ Z.of_nat w) <= 2 * z < 256 ^ Z.of_nat w.
Proof. unfold in_range. lia. Qed.

Lemma pow256_even w : (0 < w)%nat -> exists h, 256 ^ Z.of_nat w = 2 * h /\ 0 < h.
Proof.
  intro W. destruct w; [lia|]. rewrite Nat2Z.inj_succ, Z.pow_succ_r by lia.
  assert (0 < 256 ^ Z.of_nat w) by (apply Z.pow_pos_nonneg; lia).
  exists (128 * 256 ^ Z.of_nat w). lia.
Qed.

Lemma be_dec_enc w z : in_range w z = true -> be_dec w (be_enc w z) = z.
Proof.
  intro R. apply in_range_spec in R. unfold be_dec, sign. rewrite be_dec_u_enc.
  set (m := 256 ^ Z.of_nat w) in *.
  assert (0 < m) by (apply Z.pow_pos_nonneg; lia).
  destruct (Z.ltb_spec z 0) as [N|P].
  - assert (E : z mod m = z + m).
    { symmetry. apply Z.mod_unique with (-1); lia. }
    rewrite E. destruct (2 * (z + m) <? m) eqn:T; lia.
  - rewrite Z.mod_small by lia. destruct (2 * z <? m) eqn:T; lia.
Qed.

Lemma be_dec_u_bound bs : Forall is_byte bs -> 0 <= be_dec_u bs < 256 ^ zlen bs.
Proof.
  induction bs as [|b bs IH] using rev_ind; intro F.
  - cbv. split; congruence.
  - apply Forall_app in F as [F1 F2]. specialize (IH F1). inversion F2 as [|? ? B _]; subst.
    rewrite be_dec_u_app, zlen_app. unfold is_byte in B.
    change (zlen [b]) with 1.
    pose proof (zlen_nonneg bs). rewrite Z.pow_add_r by lia. lia.
Qed.

Lemma be_dec_range w bs :
  (0 < w)%nat -> Forall is_byte bs -> length bs = w -> in_range w (be_dec w bs) = true.
Proof.
  intros W F L. apply in_range_spec. unfold be_dec, sign.
  pose proof (be_dec_u_bound bs F) as B. unfold zlen in B. rewrite L in B.
  destruct (pow256_even w W) as (h & E & H). rewrite E in *.
  destruct (2 * be_dec_u bs <? 2 * h) eqn:T; lia.
Qed.

Lemma be_enc_dec_u bs : Forall is_byte bs -> be_enc (length bs) (be_dec_u bs) = bs.
Proof.
  induction bs as [|b bs IH] using rev_ind; intro F; [reflexivity|].
  apply Forall_app in F as [F1 F2]. specialize (IH F1). inversion F2 as [|? ? B _]; subst.
  rewrite app_length, Nat.add_1_r. simpl be_enc. rewrite be_dec_u_app. unfold is_byte in B.
  replace ((be_dec_u bs * 256 + b) / 256) with (be_dec_u bs).
  2:{ apply Z.div_unique with b; lia. }
  replace ((be_dec_u bs * 256 + b) mod 256) with b.
  2:{ apply Z.mod_unique with (be_dec_u bs); lia. }
  now rewrite IH.
Qed.

Lemma be_enc_mod w z k : be_enc w (z + k * 256 ^ Z.of_nat w) = be_enc w z.
Proof.
  revert z k. induction w; intros z k; [reflexivity|].
  simpl be_enc. rewrite Nat2Z.inj_succ, Z.pow_succ_r by lia.
  replace (z + k * (256 * 256 ^ Z.of_nat w)) with (z + (k * 256 ^ Z.of_nat w) * 256) by lia.
  rewrite Z.div_add, Z.mod_add by lia. now rewrite IHw.
Qed.

Lemma be_enc_dec bs : Forall is_byte bs -> be_enc (length bs) (be_dec (length bs) bs) = bs.
Proof.
  intro F. unfold be_dec, sign.
  destruct (2 * be_dec_u bs <? _); [now apply be_enc_dec_u|].
  set (m := 256 ^ Z.of_nat (length bs)).
  replace (be_dec_u bs - m) with (be_dec_u bs + (-1) * m) by lia.
  unfold m. rewrite be_enc_mod. now apply be_enc_dec_u.
Qed.

Lemma fit_exact b : fit (zlen b) b = b.
Proof.
  unfold fit. rewrite zlen_to_nat, firstn_all, Z.sub_diag. simpl. apply app_nil_r.
Qed.

Lemma fit_len n b : 0 <= n -> zlen (fit n b) = n.
Proof.
  intro H. unfold fit, zlen. rewrite app_length, firstn_length, repeat_length. lia.
Qed.

Lemma tok_size_width t : (forall n, t <> Fs n) -> tok_size t = Z.of_nat (int_width t).
Proof. destruct t; intro H; try reflexivity. exfalso. now apply (H n). Qed.

Lemma pack_app f1 d1 f2 d2 b1 b2 :
  pack f1 d1 = Ok b1 -> pack f2 d2 = Ok b2 -> pack (f1 ++ f2) (d1 ++ d2) = Ok (b1 ++ b2).
Proof.
  revert d1 b1. induction f1 as [|t f1 IH]; intros [|v d1] b1 H1 H2; simpl in *; try discriminate.
  - injection H1 as <-. exact H2.
  - destruct (pack1 t v); simpl in *; [|discriminate].
    destruct (pack f1 d1) eqn:E; simpl in *; [|discriminate]. injection H1 as <-.
    rewrite (IH _ _ E H2). simpl. now rewrite app_assoc.
Qed.

Lemma pack_app_inv f1 d1 f2 d2 b :
  length f1 = length d1 -> pack (f1 ++ f2) (d1 ++ d2) = Ok b ->
  exists b1 b2, pack f1 d1 = Ok b1 /\ pack f2 d2 = Ok b2 /\ b = b1 ++ b2.
Proof.
  revert d1 b. induction f1 as [|t f1 IH]; intros [|v d1] b L H; simpl in *; try discriminate.
  - eauto.
  - destruct (pack1 t v); simpl in *; [|discriminate].
    destruct (pack (f1 ++ f2) (d1 ++ d2)) eqn:E; simpl in *; [|discriminate]. injection H as <-.
    apply IH in E as (b1 & b2 & -> & -> & ->); [|lia].
    simpl. do 2 eexists. repeat split. now rewrite app_assoc.
Qed.

Lemma pack1_size t v b : 0 <= tok_size t -> pack1 t v = Ok b -> zlen b = tok_size t.
Proof.
  intros N E. destruct t; simpl in E; destruct v; try discriminate;
    try (destruct (in_range _ _); [|discriminate]; injection E as <-; reflexivity).
  injection E as <-. now apply fit_len.
Qed.

Lemma pack_size f d b :
  Forall (fun t => 0 <= tok_size t) f -> pack f d = Ok b -> zlen b = calcsize f.
Proof.
  revert d b. induction f as [|t f IH]; intros [|v d] b N E; simpl in *; try discriminate.
  - injection E as <-. reflexivity.
  - inversion N; subst. destruct (pack1 t v) eqn:E1; simpl in *; [|discriminate].
    destruct (pack f d) eqn:E2; simpl in *; [|discriminate]. injection E as <-.
    rewrite zlen_app. rewrite (IH _ _ H2 E2). now rewrite (pack1_size _ _ _ H1 E1).
Qed.

Lemma calcsize_app f1 f2 : calcsize (f1 ++ f2) = calcsize f1 + calcsize f2.
Proof. induction f1; simpl; lia. Qed.

(** Reading back exactly what was written, wherever it is. *)
Lemma slice_mid pre b post : slice (pre ++ b ++ post) (zlen pre) (zlen b) = b.
Proof.
  unfold slice. rewrite !zlen_to_nat, skipn_app, skipn_all, Nat.sub_diag. simpl.
  rewrite firstn_app, firstn_all, Nat.sub_diag. simpl. now rewrite app_nil_r.
Qed.

Lemma unpack1_int t z pre post :
  (forall n, t <> Fs n) -> in_range (int_width t) z = true ->
  unpack1 t (pre ++ be_enc (int_width t) z ++ post) (zlen pre) = Ok (PInt z).
Proof.
  intros NS R. unfold unpack1.
  rewrite !zlen_app, be_enc_zlen, <- (tok_size_width t NS).
  pose proof (zlen_nonneg pre). pose proof (zlen_nonneg post).
  assert (0 <= tok_size t) by (rewrite (tok_size_width t NS); lia).
  replace ((zlen pre <? 0) || (tok_size t <? 0)
           || (zlen pre + (tok_size t + zlen post) - zlen pre <? tok_size t)) with false by lia.
  replace (slice (pre ++ be_enc (int_width t) z ++ post) (zlen pre) (tok_size t))
    with (be_enc (int_width t) z).
  2:{ rewrite (tok_size_width t NS), <- (be_enc_zlen (int_width t) z). now rewrite slice_mid. }
  destruct t; try (now rewrite be_dec_enc). exfalso. now apply (NS n).
Qed.

Lemma unpack1_bytes b pre post :
  unpack1 (Fs (zlen b)) (pre ++ b ++ post) (zlen pre) = Ok (PBytes b).
Proof.
  unfold unpack1. simpl tok_size. rewrite !zlen_app.
  pose proof (zlen_nonneg pre). pose proof (zlen_nonneg post). pose proof (zlen_nonneg b).
  replace ((zlen pre <? 0) || (zlen b <? 0)
           || (zlen pre + (zlen b + zlen post) - zlen pre <? zlen b)) with false by lia.
  now rewrite slice_mid.
Qed.

(** Unpacking needs the bytes to be there, and looks at nothing else. *)
Lemma unpack1_ok_bounds t buff off v :
  unpack1 t buff off = Ok v -> 0 <= off /\ 0 <= tok_size t /\ off + tok_size t <= zlen buff.
Proof.
  unfold unpack1.
  destruct ((off <? 0) || (tok_size t <? 0) || (zlen buff - off <? tok_size t)) eqn:E; [discriminate|].
  lia.
Qed.

Lemma unpack1_err t buff off e : unpack1 t buff off = Err e -> e = EStruct.
Proof.
  unfold unpack1.
  destruct ((off <? 0) || (tok_size t <? 0) || (zlen buff - off <? tok_size t)).
  - now intros [= <-].
  - destruct t; discriminate.
Qed.

Lemma firstn_skipn_firstn {A} (l : list A) a b c :
  (a + b <= c)%nat -> firstn b (skipn a (firstn c l)) = firstn b (skipn a l).
Proof.
  intro H. rewrite skipn_firstn_comm, firstn_firstn. now rewrite Nat.min_l by lia.
Qed.

Lemma slice_firstn buff off n k :
  0 <= off -> 0 <= n -> off + n <= k -> slice (firstn (Z.to_nat k) buff) off n = slice buff off n.
Proof. intros. unfold slice. apply firstn_skipn_firstn. lia. Qed.

Lemma zlen_firstn {A} (l : list A) k : 0 <= k -> zlen (firstn (Z.to_nat k) l) = Z.min k (zlen l).
Proof. intros. unfold zlen. rewrite firstn_length. lia. Qed.

(** Locality: two buffers that agree up to [k] give the same result for any read inside. *)
Lemma unpack1_local t b1 b2 off v k :
  unpack1 t b1 off = Ok v -> off + tok_size t <= k ->
  firstn (Z.to_nat k) b1 = firstn (Z.to_nat k) b2 -> unpack1 t b2 off = Ok v.
Proof.
  intros U K E. pose proof (unpack1_ok_bounds _ _ _ _ U) as (B1 & B2 & B3).
  assert (L : off + tok_size t <= zlen b2).
  { assert (X : zlen (firstn (Z.to_nat k) b1) = zlen (firstn (Z.to_nat k) b2)) by now rewrite E.
    rewrite !zlen_firstn in X by lia. lia. }
  unfold unpack1 in *.
  replace ((off <? 0) || (tok_size t <? 0) || (zlen b1 - off <? tok_size t)) with false in U by lia.
  replace ((off <? 0) || (tok_size t <? 0) || (zlen b2 - off <? tok_size t)) with false by lia.
  rewrite <- (slice_firstn b1 off (tok_size t) k) in U by lia.
  rewrite <- (slice_firstn b2 off (tok_size t) k) by lia.
  now rewrite <- E.
Qed.

(** native calcsize of the only format it is used on *)
Lemma calcsize_native_msg n : calcsize_native [Fi; Fs n] = 4 + n.
Proof.
  unfold calcsize_native, calcsize_native_from, align_up, tok_align, tok_size.
  replace ((0 + 4 - 1) / 4 * 4) with 0 by reflexivity.
  rewrite Z.div_1_r. lia.
Qed.

Lemma pack1_not_str t v b : pack1 t v = Ok b -> (exists z, v = PInt z) \/ (exists x, v = PBytes x).
Proof. destruct t, v; simpl; intro E; try discriminate; eauto. Qed.

Lemma pack_bytes f d b :
  (forall x, In (PBytes x) d -> Forall is_byte x) -> pack f d = Ok b -> Forall is_byte b.
Proof.
  revert d b. induction f as [|t f IH]; intros [|v d] b H E; simpl in E; try discriminate.
  - injection E as <-. constructor.
  - destruct (pack1 t v) as [b1|] eqn:E1; simpl in E; [|discriminate].
    destruct (pack f d) as [b2|] eqn:E2; simpl in E; [|discriminate]. injection E as <-.
    apply Forall_app. split.
    + destruct t, v; cbv beta iota delta [pack1] in E1; try discriminate;
        try (destruct (in_range _ _); [|discriminate]; apply Ok_inj in E1; subst b1; apply be_enc_bytes).
      injection E1 as <-. unfold fit. apply Forall_app. split.
      * assert (X : Forall is_byte b) by (apply H; now left).
        clear - X. revert b X. induction (Z.to_nat n); intros b X; [constructor|].
        destruct X; simpl; constructor; auto.
      * generalize (Z.to_nat (n - zlen b)). induction n0; simpl; constructor; auto. unfold is_byte; lia.
    + apply (IH d); [|exact E2]. intros x I. apply H. now right.
Qed.
