(** Round trip, range and locality lemmas for the generic protocol interpreter. *)
From Coq Require Import ZArith String List Bool Lia ZifyBool.
From Verif Require Import PyBase BaseLemmas Utf8 Utf8Proofs Struct StructProofs Crc32 Primitives
  Messages Protocol SpecWire.
Import ListNotations.
Open Scope Z_scope.

Section TyInd.
  Variable P : ty -> Prop.
  Hypothesis Hprim : forall p, P (TPrim p).
  Hypothesis Harr : forall it, P it -> P (TArray it).
  Hypothesis Hpart : forall fs, Forall (fun nt => P (snd nt)) fs -> P (TPart fs).
  Hypothesis Hset : P TMsgSet.
  Fixpoint ty_ind' (t : ty) : P t :=
    match t with
    | TPrim p => Hprim p
    | TArray it => Harr it (ty_ind' it)
    | TPart fs =>
      Hpart fs ((fix go (fs : list (string * ty)) : Forall (fun nt => P (snd nt)) fs :=
        match fs with
        | [] => Forall_nil _
        | nt :: r => Forall_cons nt (ty_ind' (snd nt)) (go r)
        end) fs)
    | TMsgSet => Hset
    end.
End TyInd.

(** ** spec encodings agree with struct's *)
Lemma big_endian_be n z : big_endian n z = be_enc n z.
Proof.
  revert z. induction n as [|n IH]; intro z; [reflexivity|].
  simpl be_enc. cbn [big_endian].
  assert (G : forall n z, be_enc n (z / 256) ++ [z mod 256] =
                     (z / 256 ^ Z.of_nat n) mod 256 :: be_enc n z).
  { clear. induction n as [|n IH]; intro z.
    - simpl. now rewrite Z.div_1_r.
    - change (be_enc (S n) (z / 256)) with (be_enc n (z / 256 / 256) ++ [(z / 256) mod 256]).
      change (be_enc (S n) z) with (be_enc n (z / 256) ++ [z mod 256]).
      rewrite IH. simpl. f_equal.
      rewrite Nat2Z.inj_succ, Z.pow_succ_r by lia.
      rewrite Z.div_div by (try apply Z.pow_pos_nonneg; lia). reflexivity. }
  rewrite G, IH. reflexivity.
Qed.

#[global] Arguments big_endian : simpl never.
#[global] Arguments be_enc : simpl never.
#[global] Arguments zlen : simpl never.
#[global] Opaque big_endian be_enc.

Lemma big_endian_len n z : zlen (big_endian n z) = Z.of_nat n.
Proof. rewrite big_endian_be. apply be_enc_zlen. Qed.

Lemma fits_range p z :
  fits (bits_of p) z <-> in_range (int_width (int_fmt p)) z = true.
Proof.
  rewrite in_range_spec. unfold fits. destruct p; simpl;
    change (Z.of_nat 1) with 1; change (Z.of_nat 2) with 2; change (Z.of_nat 4) with 4;
    change (Z.of_nat 8) with 8; lia.
Qed.

Lemma int_fmt_not_s p n : int_fmt p <> Fs n.
Proof. destruct p; discriminate. Qed.

(** ** iteration *)
Fixpoint iterN {S} (n : nat) (f : S -> res S) (s : S) : res S :=
  match n with O => Ok s | Datatypes.S n' => s1 <- f s ;; iterN n' f s1 end.

Lemma iterN_add {S} a b (f : S -> res S) s :
  iterN (a + b) f s = bind (iterN a f s) (iterN b f).
Proof.
  revert s. induction a; intro s; simpl; [reflexivity|].
  destruct (f s); simpl; auto.
Qed.

Lemma iterP_N {S} p (f : S -> res S) s : iterP p f s = iterN (Pos.to_nat p) f s.
Proof.
  revert s. induction p; intro s; cbn [iterP].
  - rewrite Pos2Nat.inj_xI. cbn [iterN]. destruct (f s) as [s0|]; simpl; [|reflexivity].
    replace (2 * Pos.to_nat p)%nat with (Pos.to_nat p + Pos.to_nat p)%nat by lia.
    rewrite iterN_add, IHp. destruct (iterN (Pos.to_nat p) f s0); cbn [bind]; [rewrite ?Nat.add_0_r; apply IHp|reflexivity].
  - rewrite Pos2Nat.inj_xO.
    replace (2 * Pos.to_nat p)%nat with (Pos.to_nat p + Pos.to_nat p)%nat by lia.
    rewrite iterN_add, IHp. destruct (iterN (Pos.to_nat p) f s); cbn [bind]; [rewrite ?Nat.add_0_r; apply IHp|reflexivity].
  - change (Pos.to_nat 1) with 1%nat. simpl. destruct (f s); reflexivity.
Qed.

(** ** round trip *)
Definition RT (r : res rendered) (P : bytes -> Z -> res (pyval * Z)) (v : pyval) (bs : bytes) : Prop :=
  exists f d, r = Ok (f, d) /\ pack f d = Ok bs /\ length f = length d /\
    (forall pre post, P (pre ++ bs ++ post) (zlen pre) = Ok (v, zlen pre + zlen bs)).

Lemma int_parse_mid t z pre post :
  (forall n, t <> Fs n) -> in_range (int_width t) z = true ->
  int_parse t (pre ++ be_enc (int_width t) z ++ post) (zlen pre)
  = Ok (PInt z, zlen pre + zlen (be_enc (int_width t) z)).
Proof.
  intros NS R. unfold int_parse. rewrite unpack1_int by assumption. simpl.
  rewrite be_enc_zlen, (tok_size_width t NS). reflexivity.
Qed.

Lemma var_parse_mid sz b pre post :
  (forall n, sz <> Fs n) -> in_range (int_width sz) (zlen b) = true ->
  var_parse sz (pre ++ (be_enc (int_width sz) (zlen b) ++ b) ++ post) (zlen pre)
  = Ok (maybe_decode b, zlen pre + zlen (be_enc (int_width sz) (zlen b) ++ b)).
Proof.
  intros NS R. unfold var_parse. rewrite <- !app_assoc.
  rewrite int_parse_mid by assumption. simpl.
  pose proof (zlen_nonneg b). replace (zlen b =? -1) with false by lia.
  rewrite <- zlen_app, (app_assoc pre). rewrite unpack1_bytes. simpl. f_equal. f_equal.
  rewrite !zlen_app. lia.
Qed.

Lemma var_parse_null sz pre post :
  (forall n, sz <> Fs n) -> in_range (int_width sz) (-1) = true ->
  var_parse sz (pre ++ be_enc (int_width sz) (-1) ++ post) (zlen pre)
  = Ok (PNone, zlen pre + zlen (be_enc (int_width sz) (-1))).
Proof.
  intros NS R. unfold var_parse. rewrite int_parse_mid by assumption. reflexivity.
Qed.

Definition var_width (p : prim) : nat := int_width (int_fmt p).

Lemma maybe_decode_text t b : utf8_encode t = Some b -> maybe_decode b = PStr t.
Proof. intro E. unfold maybe_decode. now rewrite (utf8_decode_encode _ _ E). Qed.

Lemma range_len p n : 0 <= n < 2 ^ (bits_of p - 1) -> in_range (int_width (int_fmt p)) n = true.
Proof. intro H. apply fits_range. unfold fits. split; [|apply H]. destruct p; simpl in *; lia. Qed.

Lemma range_m1 p : in_range (int_width (int_fmt p)) (-1) = true.
Proof. destruct p; reflexivity. Qed.

Lemma var_rt p v :
  p = String_ \/ p = Bytes_ -> canon_var (bits_of p) v ->
  exists bs, wire_var (var_width p) v bs /\
  RT (var_render (int_fmt p) v) (var_parse (int_fmt p)) v bs /\ Forall is_byte bs.
Proof.
  intros Hp Cv. unfold var_width. pose proof (int_fmt_not_s p) as NS.
  assert (PK : forall b, zlen b < 2 ^ (bits_of p - 1) ->
    pack [int_fmt p; Fs (zlen b)] [PInt (zlen b); PBytes b] =
    Ok (be_enc (int_width (int_fmt p)) (zlen b) ++ b)).
  { intros b L. pose proof (zlen_nonneg b). pose proof (range_len p (zlen b) (conj H L)) as R.
    unfold pack, pack1. destruct Hp as [-> | ->]; cbn [int_fmt] in *; cbn [bind];
      rewrite R; cbn [bind]; rewrite fit_exact, app_nil_r; reflexivity. }
  destruct v as [| | |t|b| | |]; simpl in Cv; try contradiction.
  - exists (be_enc (int_width (int_fmt p)) (-1)). split; [|split].
    + rewrite <- big_endian_be. constructor.
    + exists [int_fmt p], [PInt (-1)]. repeat split.
      * destruct Hp as [-> | ->]; reflexivity.
      * intros. apply var_parse_null; [exact NS|apply range_m1].
    + apply be_enc_bytes.
  - destruct Cv as (b & E & L).
    exists (be_enc (int_width (int_fmt p)) (zlen b) ++ b). split; [|split].
    + rewrite <- big_endian_be. now constructor.
    + exists [int_fmt p; Fs (zlen b)], [PInt (zlen b); PBytes b]. repeat split.
      * unfold var_render. simpl. now rewrite E.
      * now apply PK.
      * intros. rewrite var_parse_mid; [|exact NS|].
        -- now rewrite (maybe_decode_text _ _ E).
        -- apply range_len. pose proof (zlen_nonneg b). lia.
    + apply Forall_app. split; [apply be_enc_bytes|]. eapply utf8_encode_bytes; eauto.
  - destruct Cv as (F & D & L).
    exists (be_enc (int_width (int_fmt p)) (zlen b) ++ b). split; [|split].
    + rewrite <- big_endian_be. constructor.
    + exists [int_fmt p; Fs (zlen b)], [PInt (zlen b); PBytes b]. repeat split.
      * now apply PK.
      * intros. rewrite var_parse_mid; [|exact NS|].
        -- unfold maybe_decode. now rewrite D.
        -- apply range_len. pose proof (zlen_nonneg b). lia.
    + apply Forall_app. split; [apply be_enc_bytes|exact F].
Qed.

Lemma prim_rt p v :
  canon_prim p v ->
  exists bs, wire (TPrim p) v bs /\ RT (prim_render p v) (prim_parse p) v bs /\ Forall is_byte bs.
Proof.
  assert (INT : forall n, p <> String_ -> p <> Bytes_ ->
     (p = Int8 /\ n = 1 \/ p = Int16 /\ n = 2 \/ p = Int32 /\ n = 4 \/ p = Int64 /\ n = 8)%nat ->
     canon_prim p v ->
     exists bs, wire (TPrim p) v bs /\ RT (prim_render p v) (prim_parse p) v bs /\ Forall is_byte bs).
  { intros n N1 N2 W Cv.
    assert (Cz : exists z, v = PInt z /\ fits (bits_of p) z) by (destruct p; try congruence; exact Cv).
    destruct Cz as (z & -> & F). apply fits_range in F.
    exists (be_enc (int_width (int_fmt p)) z). split; [|split].
    - rewrite <- big_endian_be. constructor. destruct p; simpl; intuition congruence.
    - exists [int_fmt p], [PInt z]. repeat split.
      + destruct p; try congruence; reflexivity.
      + unfold pack, pack1. destruct p; try congruence; cbn [int_fmt] in *;
          rewrite F; cbn [bind]; now rewrite app_nil_r.
      + intros. assert (E : prim_parse p = int_parse (int_fmt p)) by (destruct p; congruence || reflexivity).
        rewrite E. apply int_parse_mid; [apply int_fmt_not_s|exact F].
    - apply be_enc_bytes. }
  intro Cv. destruct p.
  - apply (INT 1%nat); try discriminate; tauto.
  - apply (INT 2%nat); try discriminate; tauto.
  - apply (INT 4%nat); try discriminate; tauto.
  - apply (INT 8%nat); try discriminate; tauto.
  - destruct (var_rt String_ v) as (bs & W & R & F); [tauto|exact Cv|].
    exists bs. split; [now constructor|now split].
  - destruct (var_rt Bytes_ v) as (bs & W & R & F); [tauto|exact Cv|].
    exists bs. split; [now constructor|now split].
Qed.

(** uniqueness of wire_var *)
Lemma wire_var_det w v b1 b2 : wire_var w v b1 -> wire_var w v b2 -> b1 = b2.
Proof.
  intros H1 H2. inversion H1; subst; inversion H2; subst; try reflexivity; congruence.
Qed.

(** ** CRC range *)
Lemma lxor_bound a b n : 0 <= n -> 0 <= a < 2 ^ n -> 0 <= b < 2 ^ n -> 0 <= Z.lxor a b < 2 ^ n.
Proof.
  intros Hn Ha Hb. split; [apply Z.lxor_nonneg; lia|].
  destruct (Z.eq_dec (Z.lxor a b) 0) as [->|N]; [lia|].
  apply Z.log2_lt_pow2. { assert (0 <= Z.lxor a b) by (apply Z.lxor_nonneg; lia). lia. }
  eapply Z.le_lt_trans; [apply Z.log2_lxor; lia|].
  destruct (Z.eq_dec n 0) as [->|Nn].
  { exfalso. apply N. replace a with 0 by lia. replace b with 0 by lia. reflexivity. }
  apply Z.max_lub_lt.
  - destruct (Z.eq_dec a 0) as [->|]; [simpl; lia|]. apply Z.log2_lt_pow2; lia.
  - destruct (Z.eq_dec b 0) as [->|]; [simpl; lia|]. apply Z.log2_lt_pow2; lia.
Qed.

Lemma crc_bit_bound c : 0 <= c < 2 ^ 32 -> 0 <= crc_bit c < 2 ^ 32.
Proof.
  intro H. unfold crc_bit.
  assert (S : 0 <= Z.shiftr c 1 < 2 ^ 32).
  { rewrite Z.shiftr_div_pow2 by lia. change (2 ^ 1) with 2. split.
    - apply Z.div_pos; lia.
    - apply Z.div_lt_upper_bound; lia. }
  destruct (Z.odd c); [|exact S].
  apply lxor_bound; [lia|exact S|]. unfold crc_poly. lia.
Qed.

Lemma crc_byte_bound c b : 0 <= c < 2 ^ 32 -> is_byte b -> 0 <= crc_byte c b < 2 ^ 32.
Proof.
  intros Hc Hb. unfold crc_byte. do 8 apply crc_bit_bound.
  apply lxor_bound; [lia|exact Hc|]. unfold is_byte in Hb. lia.
Qed.

Lemma crc32_bound bs : Forall is_byte bs -> 0 <= crc32 bs < 2 ^ 32.
Proof.
  intro F. unfold crc32. apply lxor_bound; [lia| |lia].
  assert (G : forall c, 0 <= c < 2 ^ 32 -> 0 <= fold_left crc_byte bs c < 2 ^ 32).
  { induction F as [|b bs Hb F IH]; intros c Hc; simpl; [exact Hc|].
    apply IH. now apply crc_byte_bound. }
  apply G. lia.
Qed.

(** ** messages *)
Lemma wire_payload_bytes m p :
  wire_payload m p -> canon_var 32 (m_key m) -> canon_var 32 (m_value m) -> Forall is_byte p.
Proof.
  intros W Ck Cv. inversion W as [c g a k v kb vb Wk Wv]; subst. simpl in *.
  destruct (var_rt Bytes_ k) as (b1 & W1 & _ & F1); [tauto|exact Ck|].
  destruct (var_rt Bytes_ v) as (b2 & W2 & _ & F2); [tauto|exact Cv|].
  rewrite (wire_var_det _ _ _ _ Wk W1), (wire_var_det _ _ _ _ Wv W2).
  rewrite !big_endian_be. repeat (apply Forall_app; split); auto using be_enc_bytes.
Qed.

Lemma msg_render_ok m crc g a k v :
  m = Msg crc (PInt g) (PInt a) k v ->
  fits 8 g -> fits 8 a -> canon_var 32 k -> canon_var 32 v ->
  exists p, wire_payload m p /\ Forall is_byte p /\
    msg_render m = Ok ([Fi; Fs (zlen p)],
      [PInt (if 2 ^ 31 <? crc32 p then crc32 p - 2 ^ 32 else crc32 p); PBytes p]).
Proof.
  intros -> Fg Fa Ck Cv.
  destruct (var_rt Bytes_ k) as (kb & Wk & (fk & dk & Rk & Pk & Lk & _) & Bk); [tauto|exact Ck|].
  destruct (var_rt Bytes_ v) as (vb & Wv & (fv & dv & Rv & Pv & Lv & _) & Bv); [tauto|exact Cv|].
  exists (big_endian 1 g ++ big_endian 1 a ++ kb ++ vb).
  assert (W : wire_payload (Msg crc (PInt g) (PInt a) k v) (big_endian 1 g ++ big_endian 1 a ++ kb ++ vb))
    by (constructor; assumption).
  split; [exact W|]. split; [eapply wire_payload_bytes; eauto|].
  unfold msg_render. cbn [m_key m_value m_magic m_attributes]. unfold prim_render.
  rewrite Rk, Rv. cbn [bind fst snd].
  assert (PK : pack ([Fb; Fb] ++ fk ++ fv) ([PInt g; PInt a] ++ dk ++ dv)
               = Ok (big_endian 1 g ++ big_endian 1 a ++ kb ++ vb)).
  { rewrite (app_assoc (big_endian 1 g)). apply pack_app; [|now apply pack_app].
    rewrite !big_endian_be. unfold pack, pack1.
    apply (proj1 (fits_range Int8 g)) in Fg. apply (proj1 (fits_range Int8 a)) in Fa.
    cbn [int_fmt] in Fg, Fa. rewrite Fg, Fa. cbn [bind]. now rewrite app_nil_r. }
  rewrite PK. reflexivity.
Qed.

Lemma signed32_fits u : 0 <= u < 2 ^ 32 -> fits 32 (signed32 u).
Proof. intro H. unfold fits, signed32. destruct (u <? 2 ^ 31) eqn:E; lia. Qed.

Lemma crc_code_spec u : 0 <= u < 2 ^ 32 -> u <> 2 ^ 31 ->
  (if 2 ^ 31 <? u then u - 2 ^ 32 else u) = signed32 u.
Proof. intros H N. unfold signed32. destruct (2 ^ 31 <? u) eqn:E1, (u <? 2 ^ 31) eqn:E2; lia. Qed.

Lemma prim_parse_mid p v bs pre post :
  RT (prim_render p v) (prim_parse p) v bs ->
  prim_parse p (pre ++ bs ++ post) (zlen pre) = Ok (v, zlen pre + zlen bs).
Proof. intros (f & d & _ & _ & _ & H). apply H. Qed.

Lemma int_at p z pre post :
  p <> String_ -> p <> Bytes_ -> fits (bits_of p) z ->
  prim_parse p (pre ++ big_endian (int_width (int_fmt p)) z ++ post) (zlen pre)
  = Ok (PInt z, zlen (pre ++ big_endian (int_width (int_fmt p)) z)).
Proof.
  intros N1 N2 F. rewrite zlen_app. apply fits_range in F.
  assert (E : prim_parse p = int_parse (int_fmt p)) by (destruct p; congruence || reflexivity).
  rewrite E, big_endian_be. apply int_parse_mid; [apply int_fmt_not_s|exact F].
Qed.

Lemma var_at p v bs pre post :
  p = String_ \/ p = Bytes_ -> canon_var (bits_of p) v -> wire_var (var_width p) v bs ->
  prim_parse p (pre ++ bs ++ post) (zlen pre) = Ok (v, zlen (pre ++ bs)).
Proof.
  intros Hp Cv W. destruct (var_rt p v Hp Cv) as (b' & W' & (f & d & _ & _ & _ & H) & _).
  rewrite (wire_var_det _ _ _ _ W W'), zlen_app.
  assert (E : prim_parse p = var_parse (int_fmt p)) by (destruct Hp as [-> | ->]; reflexivity).
  rewrite E. apply H.
Qed.

(** Reading back the body (crc + payload) of a message of any attributes. *)
Lemma msg_parse_raw C crc g a k v crc0 p pre post :
  fits 32 crc -> fits 8 g -> fits 8 a -> canon_var 32 k -> canon_var 32 v ->
  wire_payload (Msg crc0 (PInt g) (PInt a) k v) p ->
  msg_parse C (pre ++ (big_endian 4 crc ++ p) ++ post) (zlen pre) =
  (let compression := Z.land a 3 in
   let o := zlen (pre ++ big_endian 4 crc ++ p) in
   if compression =? 0 then Ok (Msg (PInt crc) (PInt g) (PInt a) k v, o)
   else
     value' <- (if compression =? GZIP then gz_decompress_v C v
                 else if compression =? SNAPPY then sn_decompress_v C v
                 else Ok v) ;;
     Ok (Msg (PInt crc) (PInt g) (PInt a) k value', o)).
Proof.
  intros Fc Fg Fa Ck Cv W. inversion W as [c' g' a' k' v' kb vb Wk Wv]; subst. clear W.
  unfold msg_parse.
  set (B4 := big_endian 4 crc). set (Bg := big_endian 1 g). set (Ba := big_endian 1 a).
  replace (pre ++ (B4 ++ Bg ++ Ba ++ kb ++ vb) ++ post)
    with (pre ++ B4 ++ (Bg ++ Ba ++ kb ++ vb ++ post)) by (rewrite <- !app_assoc; reflexivity).
  pose proof (int_at Int32 crc pre (Bg ++ Ba ++ kb ++ vb ++ post)) as Hc.
  change (big_endian (int_width (int_fmt Int32)) crc) with B4 in Hc.
  rewrite Hc by (discriminate || exact Fc). cbn [bind].
  replace (pre ++ B4 ++ Bg ++ Ba ++ kb ++ vb ++ post)
    with ((pre ++ B4) ++ Bg ++ (Ba ++ kb ++ vb ++ post)) by (rewrite <- !app_assoc; reflexivity).
  pose proof (int_at Int8 g (pre ++ B4) (Ba ++ kb ++ vb ++ post)) as Hg.
  change (big_endian (int_width (int_fmt Int8)) g) with Bg in Hg.
  rewrite Hg by (discriminate || exact Fg). cbn [bind].
  replace ((pre ++ B4) ++ Bg ++ Ba ++ kb ++ vb ++ post)
    with (((pre ++ B4) ++ Bg) ++ Ba ++ (kb ++ vb ++ post)) by (rewrite <- !app_assoc; reflexivity).
  pose proof (int_at Int8 a ((pre ++ B4) ++ Bg) (kb ++ vb ++ post)) as Ha.
  change (big_endian (int_width (int_fmt Int8)) a) with Ba in Ha.
  rewrite Ha by (discriminate || exact Fa). cbn [bind].
  replace (((pre ++ B4) ++ Bg) ++ Ba ++ kb ++ vb ++ post)
    with ((((pre ++ B4) ++ Bg) ++ Ba) ++ kb ++ (vb ++ post)) by (rewrite <- !app_assoc; reflexivity).
  rewrite (var_at Bytes_ k kb) by (tauto || assumption). cbn [bind].
  replace ((((pre ++ B4) ++ Bg) ++ Ba) ++ kb ++ vb ++ post)
    with (((((pre ++ B4) ++ Bg) ++ Ba) ++ kb) ++ vb ++ post) by (rewrite <- !app_assoc; reflexivity).
  rewrite (var_at Bytes_ v vb) by (tauto || assumption). cbn [bind].
  replace (((((pre ++ B4) ++ Bg) ++ Ba) ++ kb) ++ vb)
    with (pre ++ B4 ++ Bg ++ Ba ++ kb ++ vb) by (rewrite <- !app_assoc; reflexivity).
  reflexivity.
Qed.

(** One entry (offset, size, message) of a set. *)
Definition entry_bytes (o sz crc : Z) (p : bytes) : bytes :=
  big_endian 8 o ++ big_endian 4 sz ++ big_endian 4 crc ++ p.

Lemma entry_bytes_len o sz crc p : zlen (entry_bytes o sz crc p) = 16 + zlen p.
Proof. unfold entry_bytes. rewrite !zlen_app, !big_endian_len. lia. Qed.

Lemma parse_entry_raw C o sz crc g a k v crc0 p pre post :
  fits 64 o -> fits 32 sz -> fits 32 crc -> fits 8 g -> fits 8 a -> canon_var 32 k -> canon_var 32 v ->
  wire_payload (Msg crc0 (PInt g) (PInt a) k v) p ->
  parse_entry C (pre ++ entry_bytes o sz crc p ++ post) (zlen pre) =
  match (let compression := Z.land a 3 in
         if compression =? 0 then Ok v
         else if compression =? GZIP then gz_decompress_v C v
         else if compression =? SNAPPY then sn_decompress_v C v
         else Ok v) with
  | Ok v' => Entry (PInt o) (Msg (PInt crc) (PInt g) (PInt a) k v') (zlen (pre ++ entry_bytes o sz crc p))
  | Err EStruct => Cut (zlen pre + 12)
  | Err e => Raise e
  end.
Proof.
  intros Fo Fs Fc Fg Fa Ck Cv W. unfold parse_entry, entry_bytes.
  set (B8 := big_endian 8 o). set (Bs := big_endian 4 sz).
  replace (pre ++ (B8 ++ Bs ++ big_endian 4 crc ++ p) ++ post)
    with (pre ++ B8 ++ (Bs ++ (big_endian 4 crc ++ p) ++ post)) by (rewrite <- !app_assoc; reflexivity).
  pose proof (int_at Int64 o pre (Bs ++ (big_endian 4 crc ++ p) ++ post)) as Ho.
  change (big_endian (int_width (int_fmt Int64)) o) with B8 in Ho.
  rewrite Ho by (discriminate || exact Fo).
  replace (pre ++ B8 ++ Bs ++ (big_endian 4 crc ++ p) ++ post)
    with ((pre ++ B8) ++ Bs ++ ((big_endian 4 crc ++ p) ++ post)) by (rewrite <- !app_assoc; reflexivity).
  pose proof (int_at Int32 sz (pre ++ B8) ((big_endian 4 crc ++ p) ++ post)) as Hs.
  change (big_endian (int_width (int_fmt Int32)) sz) with Bs in Hs.
  rewrite Hs by (discriminate || exact Fs).
  replace ((pre ++ B8) ++ Bs ++ (big_endian 4 crc ++ p) ++ post)
    with (((pre ++ B8) ++ Bs) ++ (big_endian 4 crc ++ p) ++ post) by (rewrite <- !app_assoc; reflexivity).
  rewrite (msg_parse_raw C crc g a k v crc0 p) by assumption.
  assert (L : zlen ((pre ++ B8) ++ Bs) = zlen pre + 12).
  { rewrite !zlen_app. unfold B8, Bs. rewrite !big_endian_len. lia. }
  replace (((pre ++ B8) ++ Bs) ++ big_endian 4 crc ++ p)
    with (pre ++ B8 ++ Bs ++ big_endian 4 crc ++ p) by (rewrite <- !app_assoc; reflexivity).
  cbv zeta. rewrite L.
  destruct (Z.land a 3 =? 0); [reflexivity|].
  destruct (if Z.land a 3 =? GZIP then _ else _) as [v'|e]; cbn [bind]; [reflexivity|].
  destruct e; reflexivity.
Qed.

Lemma we_entry o m p r rb :
  big_endian 8 o ++ big_endian 4 (4 + zlen p) ++ big_endian 4 (signed32 (crc32 p)) ++ p ++ rb
  = entry_bytes o (4 + zlen p) (signed32 (crc32 p)) p ++ rb ->
  wire_payload m p -> wire_entries r rb ->
  wire_entries ((PInt o, m) :: r) (entry_bytes o (4 + zlen p) (signed32 (crc32 p)) p ++ rb).
Proof. intros E W1 W2. rewrite <- E. now constructor. Qed.

Lemma wire_payload_det m p1 p2 : wire_payload m p1 -> wire_payload m p2 -> p1 = p2.
Proof.
  intros H1 H2. inversion H1; subst. inversion H2; subst.
  repeat match goal with
         | A : wire_var _ ?v _, B : wire_var _ ?v _ |- _ =>
           pose proof (wire_var_det _ _ _ _ A B); subst; clear A
         end.
  reflexivity.
Qed.

Lemma wire_entries_det ms b1 b2 : wire_entries ms b1 -> wire_entries ms b2 -> b1 = b2.
Proof.
  intro H1. revert b2. induction H1 as [|o m p r rb W1 W2 IH]; intros b2 H2; inversion H2; subst.
  - reflexivity.
  - match goal with A : wire_payload m ?q |- _ => rewrite (wire_payload_det _ _ _ W1 A) end.
    match goal with A : wire_entries r ?q |- _ => rewrite (IH _ A) end. reflexivity.
Qed.

Lemma wire_payload_min m p : wire_payload m p -> 10 <= zlen p.
Proof.
  intro H. inversion H; subst.
  assert (G : forall v b, wire_var 4 v b -> 4 <= zlen b).
  { intros v0 b0 W. inversion W as [|t b E|b]; subst; rewrite ?zlen_app, big_endian_len.
    - lia.
    - pose proof (zlen_nonneg b). lia.
    - pose proof (zlen_nonneg b). lia. }
  rewrite !zlen_app, !big_endian_len.
  pose proof (G _ _ H0). pose proof (G _ _ H1). lia.
Qed.

Lemma ms_render_loop_ok ms b :
  Forall (fun om => (exists o, fst om = PInt o /\ fits 64 o) /\ canon_msg (snd om)) ms ->
  wire_entries ms b ->
  exists f d, ms_render_loop ms = Ok (f, d, zlen b) /\ pack f d = Ok b /\ length f = length d.
Proof.
  intros F W. revert F. induction W as [|o m p r rb Wp Wr IH]; intro F.
  - exists [], []. repeat split.
  - inversion F as [|? ? [(o' & Eo & Fo) Cm] F']; subst. simpl in Eo, Cm. injection Eo as <-.
    destruct (IH F') as (f & d & R & P & L).
    destruct m as [c g a k v]. simpl in Cm.
    destruct c as [|crc| | | | | |]; try contradiction. destruct g as [|g| | | | | |]; try contradiction.
    destruct a as [|a| | | | | |]; try contradiction. destruct a; try contradiction.
    destruct Cm as (Fg & Ck & Cv & p' & Wp' & Ec & Nc & Lp).
    rewrite (wire_payload_det _ _ _ Wp' Wp) in *. clear Wp' p'.
    destruct (msg_render_ok (Msg (PInt crc) (PInt g) (PInt 0) k v) (PInt crc) g 0 k v) as (p' & Wp' & Bp & Rm);
      [reflexivity|exact Fg|unfold fits; lia|exact Ck|exact Cv|].
    rewrite (wire_payload_det _ _ _ Wp' Wp) in *. clear Wp' p'.
    pose proof (crc32_bound p Bp) as CB.
    rewrite crc_code_spec in Rm by assumption.
    cbn [ms_render_loop]. rewrite Rm. cbn [bind]. rewrite R. cbn [bind].
    pose proof (zlen_nonneg p) as NNp.
    do 2 eexists. split; [|split].
    + f_equal. f_equal. rewrite !zlen_app, !big_endian_len. cbn [app calcsize tok_size].
      change (Z.of_nat 8) with 8. change (Z.of_nat 4) with 4. lia.
    + rewrite calcsize_native_msg.
      replace (big_endian 8 o ++ big_endian 4 (4 + zlen p) ++ big_endian 4 (signed32 (crc32 p)) ++ p ++ rb)
        with ((big_endian 8 o ++ big_endian 4 (4 + zlen p) ++ big_endian 4 (signed32 (crc32 p)) ++ p) ++ rb)
        by (rewrite <- !app_assoc; reflexivity).
      change ([PInt o; PInt (4 + zlen p)] ++ [PInt (signed32 (crc32 p)); PBytes p] ++ d)
        with ([PInt o; PInt (4 + zlen p); PInt (signed32 (crc32 p)); PBytes p] ++ d).
      apply pack_app; [|exact P].
      rewrite !big_endian_be. cbn [app]. unfold pack, pack1. cbn [int_width].
      replace (in_range 8 o) with true by (symmetry; apply (fits_range Int64); exact Fo).
      replace (in_range 4 (4 + zlen p)) with true
        by (symmetry; apply (fits_range Int32); unfold fits, bits_of; lia).
      replace (in_range 4 (signed32 (crc32 p))) with true
        by (symmetry; apply (fits_range Int32); apply signed32_fits; exact CB).
      cbn [bind]. rewrite fit_exact, app_nil_r. reflexivity.
    + rewrite !app_length. simpl. lia.
Qed.

Lemma ms_loop_ok C nested ms b pre post fuel :
  Forall (fun om => (exists o, fst om = PInt o /\ fits 64 o) /\ canon_msg (snd om)) ms ->
  wire_entries ms b -> (length ms < fuel)%nat ->
  ms_loop C nested fuel (pre ++ b ++ post) (zlen pre) (zlen pre + zlen b) = Ok (ms, zlen pre + zlen b).
Proof.
  intros F W. revert fuel pre F. induction W as [|o m p r rb Wp Wr IH]; intros fuel pre F L.
  - destruct fuel; [lia|]. cbn [ms_loop]. replace (zlen pre + zlen []) with (zlen pre) by (rewrite zlen_nil; lia).
    now rewrite Z.eqb_refl.
  - destruct fuel as [|fuel]; [simpl in L; lia|]. cbn [ms_loop].
    inversion F as [|? ? [(o' & Eo & Fo) Cm] F']; subst. simpl in Eo, Cm. injection Eo as <-.
    destruct m as [c g a k v]. simpl in Cm.
    destruct c as [|crc| | | | | |]; try contradiction. destruct g as [|g| | | | | |]; try contradiction.
    destruct a as [|a| | | | | |]; try contradiction. destruct a; try contradiction.
    destruct Cm as (Fg & Ck & Cv & p' & Wp' & Ec & Nc & Lp).
    rewrite (wire_payload_det _ _ _ Wp' Wp) in *. clear Wp' p'. subst crc.
    pose proof (wire_payload_min _ _ Wp) as Mp. pose proof (zlen_nonneg rb) as Nrb.
    assert (Bp : Forall is_byte p) by (eapply wire_payload_bytes; eauto).
    pose proof (crc32_bound p Bp) as CB.
    assert (EB : forall x, big_endian 8 o ++ big_endian 4 (4 + zlen p) ++ big_endian 4 (signed32 (crc32 p)) ++ p ++ x
            = entry_bytes o (4 + zlen p) (signed32 (crc32 p)) p ++ x)
      by (intro x; unfold entry_bytes; rewrite <- !app_assoc; reflexivity).
    rewrite EB.
    set (E := entry_bytes o (4 + zlen p) (signed32 (crc32 p)) p) in *.
    assert (LE : zlen E = 16 + zlen p) by apply entry_bytes_len.
    rewrite (zlen_app E rb).
    replace (zlen pre =? zlen pre + (zlen E + zlen rb)) with false by lia.
    rewrite <- app_assoc. unfold E at 1.
    rewrite (parse_entry_raw C o (4 + zlen p) (signed32 (crc32 p)) g 0 k v (PInt (signed32 (crc32 p))) p).
    2: exact Fo. 2:{ unfold fits; lia. } 2:{ apply signed32_fits; exact CB. } 2: exact Fg.
    2:{ unfold fits; lia. } 2: exact Ck. 2: exact Cv. 2: exact Wp.
    cbv zeta. change (Z.land 0 3 =? 0) with true. cbv iota. cbn [m_attributes bind]. fold E.
    rewrite app_assoc.
    replace (zlen pre + (zlen E + zlen rb)) with (zlen (pre ++ E) + zlen rb) by (rewrite zlen_app; lia).
    rewrite IH; [reflexivity|exact F'|simpl in L; lia].
Qed.

Lemma wire_entries_count ms b : wire_entries ms b -> 26 * zlen ms <= zlen b.
Proof.
  induction 1 as [|o m p r rb Wp Wr IH]; [reflexivity|].
  rewrite zlen_cons, !zlen_app, !big_endian_len. pose proof (wire_payload_min _ _ Wp). lia.
Qed.

Lemma ms_rt C depth ms :
  canon_set ms ->
  exists b, wire_entries ms b /\ exists f d, ms_render ms = Ok (f, d) /\
    pack f d = Ok (big_endian 4 (zlen b) ++ b) /\ length f = length d /\
    (forall pre post, ms_parse C depth (pre ++ (big_endian 4 (zlen b) ++ b) ++ post) (zlen pre)
       = Ok (ms, zlen pre + zlen (big_endian 4 (zlen b) ++ b))).
Proof.
  intros (F & b & W & L). exists b. split; [exact W|].
  destruct (ms_render_loop_ok ms b F W) as (f & d & R & P & LL).
  pose proof (zlen_nonneg b) as Nb.
  assert (Fb' : fits 32 (zlen b)) by (unfold fits; lia).
  exists (Fi :: f), (PInt (zlen b) :: d).
  split; [|split; [|split]].
  - unfold ms_render. rewrite R. reflexivity.
  - change (Fi :: f) with ([Fi] ++ f). change (PInt (zlen b) :: d) with ([PInt (zlen b)] ++ d).
    apply pack_app; [|exact P]. unfold pack, pack1. cbn [int_width].
    replace (in_range 4 (zlen b)) with true by (symmetry; now apply (fits_range Int32)).
    cbn [bind]. now rewrite app_nil_r, big_endian_be.
  - simpl. lia.
  - intros pre post. unfold ms_parse. rewrite <- app_assoc.
    pose proof (int_at Int32 (zlen b) pre (b ++ post)) as H.
    cbn [int_fmt int_width] in H. rewrite H by (discriminate || exact Fb'). cbn [bind].
    rewrite app_assoc.
    rewrite (ms_loop_ok C _ ms b (pre ++ big_endian 4 (zlen b)) post).
    + f_equal. f_equal. rewrite !zlen_app. lia.
    + exact F.
    + exact W.
    + pose proof (wire_entries_count _ _ W) as CT. unfold zlen in CT. rewrite !app_length. lia.
Qed.

(** ** local fixpoints under their names *)
Lemma render_part fs attrs : render (TPart fs) (PObj attrs) = render_fields fs attrs.
Proof.
  simpl. induction fs as [|[n t] r IH]; [reflexivity|]. simpl.
  destruct (render t (attr attrs n)) as [[f d]|]; simpl; [|reflexivity]. now rewrite IH.
Qed.

Lemma parse_part C depth fs buff off :
  parse C depth (TPart fs) buff off =
  bind (parse_fields C depth fs buff off) (fun '(attrs, o) => Ok (PObj attrs, o)).
Proof.
  simpl. f_equal. revert off. induction fs as [|[n t] r IH]; intro off; [reflexivity|]. simpl.
  destruct (parse C depth t buff off) as [[v o]|]; simpl; [|reflexivity]. now rewrite IH.
Qed.

Section Conforms.
  Variable okset : list (pyval * pymsg) -> Prop.
  Fixpoint conforms_fields (fs : list (string * ty)) (attrs : list (string * pyval)) : Prop :=
    match fs, attrs with
    | [], [] => True
    | (n, t') :: r, (n', v') :: r' => n = n' /\ conforms okset t' v' /\ conforms_fields r r'
    | _, _ => False
    end.

  Lemma conforms_part fs v :
    conforms okset (TPart fs) v <-> exists attrs, v = PObj attrs /\ conforms_fields fs attrs.
  Proof.
    assert (G : forall fs attrs,
      (fix go (fs : list (string * ty)) (attrs : list (string * pyval)) : Prop :=
         match fs, attrs with
         | [], [] => True
         | (n, t') :: r, (n', v') :: r' => n = n' /\ conforms okset t' v' /\ go r r'
         | _, _ => False
         end) fs attrs <-> conforms_fields fs attrs).
    { clear. induction fs as [|[n t] r IH]; intros [|[n' v'] r']; simpl; tauto || (now rewrite IH). }
    simpl. split; intros (attrs & E & H); exists attrs; (split; [exact E|]); now apply G.
  Qed.
End Conforms.
Notation canon_fields := (conforms_fields canon_set).

Fixpoint distinct_fields (fs : list (string * ty)) : Prop :=
  match fs with [] => True | (_, t') :: r => distinct t' /\ distinct_fields r end.
Lemma distinct_part fs : distinct (TPart fs) <-> NoDup (map fst fs) /\ distinct_fields fs.
Proof.
  simpl. split; intros [H G]; (split; [exact H|]); clear H;
    induction fs as [|[n t] r IH]; simpl in *; try tauto.
Qed.

Fixpoint nomsg_fields (fs : list (string * ty)) : Prop :=
  match fs with [] => True | (_, t') :: r => no_msgset t' /\ nomsg_fields r end.
Lemma nomsg_part fs : no_msgset (TPart fs) <-> nomsg_fields fs.
Proof. simpl. induction fs as [|[n t] r IH]; simpl in *; tauto. Qed.

(** ** the general round trip *)
Definition full_rt (t : ty) : Prop := forall v, canon t v ->
  exists bs, wire t v bs /\
    exists f d, render t v = Ok (f, d) /\ pack f d = Ok bs /\ length f = length d /\
      forall C depth pre post, parse C depth t (pre ++ bs ++ post) (zlen pre) = Ok (v, zlen pre + zlen bs).

Lemma items_rt it : full_rt it -> forall vs, Forall (canon it) vs ->
  exists bs, wire_items it vs bs /\
    exists f d, render_items (render it) vs = Ok (f, d) /\ pack f d = Ok bs /\ length f = length d /\
      forall C depth pre post acc,
        iterN (length vs) (array_step (parse C depth it (pre ++ bs ++ post))) (acc, zlen pre)
        = Ok (rev vs ++ acc, zlen pre + zlen bs).
Proof.
  intros RTit vs F. induction F as [|v vs Cv F IH].
  - exists []. split; [constructor|]. exists [], []. repeat split.
    intros. cbn [length iterN rev app]. do 2 f_equal. rewrite zlen_nil. lia.
  - destruct IH as (bs & W & f & d & R & P & L & Pa).
    destruct (RTit v Cv) as (b1 & W1 & f1 & d1 & R1 & P1 & L1 & Pa1).
    exists (b1 ++ bs). split; [now constructor|].
    exists (f1 ++ f), (d1 ++ d). split; [|split; [|split]].
    + simpl. rewrite R1. cbn [bind]. rewrite R. reflexivity.
    + now apply pack_app.
    + rewrite !app_length. lia.
    + intros. cbn [length iterN]. unfold array_step at 1. cbn [snd fst].
      rewrite <- app_assoc, Pa1. cbn [bind].
      rewrite <- zlen_app. rewrite app_assoc, Pa. cbn [rev]. rewrite <- app_assoc. cbn [app].
      do 2 f_equal. rewrite !zlen_app. lia.
Qed.

Lemma attr_cons_same n v attrs : attr ((n, v) :: attrs) n = v.
Proof. unfold attr. simpl. now rewrite String.eqb_refl. Qed.

Lemma render_fields_skip fs n v attrs :
  ~ In n (map fst fs) -> render_fields fs ((n, v) :: attrs) = render_fields fs attrs.
Proof.
  induction fs as [|[n' t'] r IH]; intro NI; [reflexivity|]. cbn [render_fields].
  simpl in NI. rewrite IH by tauto.
  assert (E : attr ((n, v) :: attrs) n' = attr attrs n').
  { unfold attr. simpl. destruct (String.eqb_spec n n'); [subst; tauto|reflexivity]. }
  now rewrite E.
Qed.

Lemma fields_rt fs : Forall (fun nt => distinct (snd nt) -> full_rt (snd nt)) fs ->
  NoDup (map fst fs) -> distinct_fields fs -> forall attrs, canon_fields fs attrs ->
  exists bs, wire_fields fs attrs bs /\
    exists f d, render_fields fs attrs = Ok (f, d) /\ pack f d = Ok bs /\ length f = length d /\
      forall C depth pre post,
        parse_fields C depth fs (pre ++ bs ++ post) (zlen pre) = Ok (attrs, zlen pre + zlen bs).
Proof.
  induction 1 as [|[n t] r Ht F IH]; intros ND DF attrs CF.
  - destruct attrs; [|contradiction]. exists []. split; [constructor|]. exists [], []. repeat split.
    intros. cbn [parse_fields]. do 2 f_equal. rewrite zlen_nil. lia.
  - destruct attrs as [|[n' v] attrs]; [contradiction|]. cbn [conforms_fields] in CF.
    destruct CF as (<- & Cv & CF). cbn [distinct_fields] in DF. destruct DF as [Dt DF].
    inversion ND as [|? ? NI ND']; subst. cbn [snd] in Ht.
    destruct (IH ND' DF attrs CF) as (bs & W & f & d & R & P & L & Pa).
    destruct (Ht Dt v Cv) as (b1 & W1 & f1 & d1 & R1 & P1 & L1 & Pa1).
    exists (b1 ++ bs). split; [now constructor|].
    exists (f1 ++ f), (d1 ++ d). split; [|split; [|split]].
    + cbn [render_fields]. rewrite attr_cons_same, R1. cbn [bind].
      rewrite render_fields_skip by exact NI. rewrite R. reflexivity.
    + now apply pack_app.
    + rewrite !app_length. lia.
    + intros. cbn [parse_fields]. rewrite <- app_assoc, Pa1. cbn [bind].
      rewrite <- zlen_app, app_assoc, Pa. cbn [bind]. do 2 f_equal. rewrite !zlen_app. lia.
Qed.

Lemma roundtrip_all t : distinct t -> full_rt t.
Proof.
  induction t as [p|it IH|fs IH|] using ty_ind'; intro D.
  - intros v Cv. destruct (prim_rt p v Cv) as (bs & W & (f & d & R & P & L & Pa) & _).
    exists bs. split; [exact W|]. exists f, d. repeat split; auto.
  - intros v (vs & -> & F & L). simpl in D.
    destruct (items_rt it (IH D) vs F) as (bs & W & f & d & R & P & LL & Pa).
    exists (big_endian 4 (zlen vs) ++ bs). split; [now constructor|].
    pose proof (zlen_nonneg vs) as NN.
    assert (Fv : fits 32 (zlen vs)) by (unfold fits; lia).
    exists (Fi :: f), (PInt (zlen vs) :: d). split; [|split; [|split]].
    + cbn [render array_items bind]. rewrite R. reflexivity.
    + change (Fi :: f) with ([Fi] ++ f). change (PInt (zlen vs) :: d) with ([PInt (zlen vs)] ++ d).
      apply pack_app; [|exact P]. unfold pack, pack1. cbn [int_width].
      replace (in_range 4 (zlen vs)) with true by (symmetry; now apply (fits_range Int32)).
      cbn [bind]. now rewrite app_nil_r, big_endian_be.
    + simpl. lia.
    + intros. cbn [parse]. rewrite <- app_assoc.
      pose proof (int_at Int32 (zlen vs) pre (bs ++ post)) as H.
      cbn [int_fmt int_width] in H. rewrite H by (discriminate || exact Fv). cbn [bind].
      destruct (zlen vs) as [|n|n] eqn:EZ; [| |lia].
      * apply zlen_0_nil in EZ. subst vs. inversion W; subst. do 2 f_equal. now rewrite app_nil_r, zlen_app.
      * rewrite iterP_N. replace (Pos.to_nat n) with (length vs) by (unfold zlen in EZ; lia).
        rewrite app_assoc, Pa. cbn [bind]. rewrite app_nil_r, rev_involutive.
        do 2 f_equal. rewrite !zlen_app. lia.
  - intros v Cv. apply conforms_part in Cv as (attrs & -> & CF). apply distinct_part in D as [ND DF].
    destruct (fields_rt fs IH ND DF attrs CF) as (bs & W & f & d & R & P & L & Pa).
    exists bs. split; [now constructor|]. exists f, d. split; [|split; [|split]]; auto.
    + rewrite render_part. exact R.
    + intros. rewrite parse_part, Pa. reflexivity.
  - intros v (ms & -> & Cs). exists (let b := match ms_render ms with Ok (f, d) =>
        match pack f d with Ok b => b | _ => [] end | _ => [] end in b).
    destruct (ms_rt (Build_codec (fun x => x) (fun x => Ok x) true (fun x => x) (fun x => Ok x)) 0 ms Cs)
      as (b & W & f & d & R & P & L & _).
    rewrite R, P. split; [now constructor|]. exists f, d. split; [|split; [|split]]; auto.
    intros. destruct (ms_rt C depth ms Cs) as (b' & W' & f' & d' & R' & P' & _ & Pa').
    rewrite (wire_entries_det _ _ _ W W'). cbn [parse]. rewrite Pa'. reflexivity.
Qed.
