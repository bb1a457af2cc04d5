(** The UTF-8 encoder and the strict decoder are mutually inverse. *)
From Coq Require Import ZArith List Bool Lia ZifyBool.
From Verif Require Import PyBase BaseLemmas Utf8.
Import ListNotations.
Open Scope Z_scope.

Ltac Zify.zify_post_hook ::= Z.to_euclidean_division_equations.

Lemma is_scalar_spec c :
  is_scalar c = true <-> (0 <= c < 55296 \/ 57344 <= c <= 1114111).
Proof. unfold is_scalar. lia. Qed.

Lemma utf8_enc1_some c : is_scalar c = true -> exists b, utf8_enc1 c = Some b.
Proof.
  intro S. unfold utf8_enc1. rewrite S. simpl.
  destruct (c <? 128); [eauto|]. destruct (c <? 2048); [eauto|].
  destruct (c <? 65536); eauto.
Qed.

Lemma utf8_enc1_scalar c b : utf8_enc1 c = Some b -> is_scalar c = true.
Proof. unfold utf8_enc1. destruct (is_scalar c); [reflexivity|discriminate]. Qed.

Lemma utf8_decode_enc1 c b r :
  utf8_enc1 c = Some b -> utf8_decode (b ++ r) = ocons c (utf8_decode r).
Proof.
  unfold utf8_enc1. destruct (is_scalar c) eqn:S; [|discriminate]. simpl.
  pose proof (proj1 (is_scalar_spec c) S) as S'.
  destruct (c <? 128) eqn:E1.
  { intro E; injection E as <-. simpl. now rewrite E1. }
  destruct (c <? 2048) eqn:E2.
  { intro E; injection E as <-.
    change ([192 + c / 64; 128 + c mod 64] ++ r) with (192 + c / 64 :: 128 + c mod 64 :: r).
    cbn [utf8_decode].
    replace (192 + c / 64 <? 128) with false by lia.
    replace ((194 <=? 192 + c / 64) && (192 + c / 64 <=? 223) && cont (128 + c mod 64))
      with true by (unfold cont; lia).
    f_equal. lia. }
  destruct (c <? 65536) eqn:E3.
  { intro E; injection E as <-.
    change ([224 + c / 4096; 128 + (c / 64) mod 64; 128 + c mod 64] ++ r)
      with (224 + c / 4096 :: 128 + (c / 64) mod 64 :: 128 + c mod 64 :: r).
    cbn [utf8_decode].
    replace (224 + c / 4096 <? 128) with false by lia.
    replace ((194 <=? 224 + c / 4096) && (224 + c / 4096 <=? 223) && cont (128 + (c / 64) mod 64))
      with false by (unfold cont; lia).
    replace ((224 <=? 224 + c / 4096) && (224 + c / 4096 <=? 239) && cont (128 + (c / 64) mod 64)
             && cont (128 + c mod 64)) with true by (unfold cont; lia).
    replace ((224 + c / 4096 - 224) * 4096 + (128 + (c / 64) mod 64 - 128) * 64
             + (128 + c mod 64 - 128)) with c by lia.
    rewrite S. replace (2048 <=? c) with true by lia. reflexivity. }
  intro E; injection E as <-.
  change ([240 + c / 262144; 128 + (c / 4096) mod 64; 128 + (c / 64) mod 64; 128 + c mod 64] ++ r)
    with (240 + c / 262144 :: 128 + (c / 4096) mod 64 :: 128 + (c / 64) mod 64 :: 128 + c mod 64 :: r).
  cbn [utf8_decode].
  replace (240 + c / 262144 <? 128) with false by lia.
  replace ((194 <=? 240 + c / 262144) && (240 + c / 262144 <=? 223) && cont (128 + (c / 4096) mod 64))
    with false by (unfold cont; lia).
  replace ((224 <=? 240 + c / 262144) && (240 + c / 262144 <=? 239) && cont (128 + (c / 4096) mod 64)
           && cont (128 + (c / 64) mod 64)) with false by (unfold cont; lia).
  replace ((240 <=? 240 + c / 262144) && (240 + c / 262144 <=? 244) && cont (128 + (c / 4096) mod 64)
           && cont (128 + (c / 64) mod 64) && cont (128 + c mod 64)) with true by (unfold cont; lia).
  replace ((240 + c / 262144 - 240) * 262144 + (128 + (c / 4096) mod 64 - 128) * 4096
           + (128 + (c / 64) mod 64 - 128) * 64 + (128 + c mod 64 - 128)) with c by lia.
  rewrite S. replace (65536 <=? c) with true by lia. reflexivity.
Qed.

Theorem utf8_decode_encode : forall t b, utf8_encode t = Some b -> utf8_decode b = Some t.
Proof.
  induction t as [|c t IH]; intros b E; simpl in E.
  - injection E as <-. reflexivity.
  - destruct (utf8_enc1 c) as [b1|] eqn:E1; [|discriminate].
    destruct (utf8_encode t) as [b2|] eqn:E2; [|discriminate].
    injection E as <-. rewrite (utf8_decode_enc1 _ _ _ E1), (IH _ eq_refl). reflexivity.
Qed.

Lemma utf8_encode_total t : Forall (fun c => is_scalar c = true) t -> exists b, utf8_encode t = Some b.
Proof.
  induction 1 as [|c t S F IH]; simpl; [eauto|].
  destruct IH as [b ->]. destruct (utf8_enc1_some c S) as [b1 ->]. eauto.
Qed.

Lemma utf8_encode_scalar t b : utf8_encode t = Some b -> Forall (fun c => is_scalar c = true) t.
Proof.
  revert b. induction t as [|c t IH]; intros b E; [constructor|]. simpl in E.
  destruct (utf8_enc1 c) as [b1|] eqn:E1; [|discriminate].
  destruct (utf8_encode t) as [b2|] eqn:E2; [|discriminate].
  constructor; [eapply utf8_enc1_scalar; eauto|eauto].
Qed.

Lemma ocons_some c o t : ocons c o = Some t -> exists t', o = Some t' /\ t = c :: t'.
Proof. destruct o; simpl; [|discriminate]. intro E; injection E as <-; eauto. Qed.

Theorem utf8_encode_decode : forall b t,
  Forall is_byte b -> utf8_decode b = Some t -> utf8_encode t = Some b.
Proof.
  assert (G : forall n b t, (length b <= n)%nat -> Forall is_byte b ->
                       utf8_decode b = Some t -> utf8_encode t = Some b).
  { induction n as [|n IH]; intros b t L F D.
    { destruct b; [|simpl in L; lia]. injection D as <-. reflexivity. }
    destruct b as [|b0 r0]; [injection D as <-; reflexivity|].
    assert (B0 : is_byte b0) by (inversion F; auto).
    assert (F0 : Forall is_byte r0) by (inversion F; auto).
    simpl in L. unfold is_byte in B0. simpl in D.
    destruct (b0 <? 128) eqn:E0.
    { apply ocons_some in D as (t' & D & ->). apply IH in D; [|lia|exact F0].
      simpl. rewrite D. unfold utf8_enc1.
      replace (is_scalar b0) with true by (unfold is_scalar; lia). rewrite E0. reflexivity. }
    destruct r0 as [|b1 r1]; [discriminate|].
    assert (F1 : Forall is_byte r1) by (inversion F0; auto). simpl in L.
    destruct ((194 <=? b0) && (b0 <=? 223) && cont b1) eqn:C1.
    { apply ocons_some in D as (t' & D & ->). apply IH in D; [|lia|exact F1].
      cbn [utf8_encode]. rewrite D. unfold utf8_enc1, cont in *.
      set (c := (b0 - 192) * 64 + (b1 - 128)).
      replace (is_scalar c) with true by (unfold is_scalar; subst c; lia).
      replace (c <? 128) with false by (subst c; lia).
      replace (c <? 2048) with true by (subst c; lia). simpl.
      replace (192 + c / 64) with b0 by (subst c; lia).
      replace (128 + c mod 64) with b1 by (subst c; lia). reflexivity. }
    destruct r1 as [|b2 r2]; [discriminate|].
    assert (F2 : Forall is_byte r2) by (inversion F1; auto). simpl in L.
    destruct ((224 <=? b0) && (b0 <=? 239) && cont b1 && cont b2) eqn:C2.
    { set (c := (b0 - 224) * 4096 + (b1 - 128) * 64 + (b2 - 128)) in *.
      destruct ((2048 <=? c) && is_scalar c) eqn:SC; [|discriminate].
      apply andb_true_iff in SC as [SC1 SC2].
      apply ocons_some in D as (t' & D & ->). apply IH in D; [|lia|exact F2].
      cbn [utf8_encode]. rewrite D. unfold utf8_enc1. rewrite SC2. unfold cont in *.
      replace (c <? 128) with false by lia.
      replace (c <? 2048) with false by lia.
      replace (c <? 65536) with true by (subst c; lia). simpl.
      replace (224 + c / 4096) with b0 by (subst c; lia).
      replace (128 + (c / 64) mod 64) with b1 by (subst c; lia).
      replace (128 + c mod 64) with b2 by (subst c; lia). reflexivity. }
    destruct r2 as [|b3 r3]; [discriminate|].
    assert (F3 : Forall is_byte r3) by (inversion F2; auto). simpl in L.
    destruct ((240 <=? b0) && (b0 <=? 244) && cont b1 && cont b2 && cont b3) eqn:C3; [|discriminate].
    set (c := (b0 - 240) * 262144 + (b1 - 128) * 4096 + (b2 - 128) * 64 + (b3 - 128)) in *.
    destruct ((65536 <=? c) && is_scalar c) eqn:SC; [|discriminate].
    apply andb_true_iff in SC as [SC1 SC2].
    apply ocons_some in D as (t' & D & ->). apply IH in D; [|lia|exact F3].
    cbn [utf8_encode]. rewrite D. unfold utf8_enc1. rewrite SC2. unfold cont in *.
    replace (c <? 128) with false by lia.
    replace (c <? 2048) with false by lia.
    replace (c <? 65536) with false by lia. simpl.
    replace (240 + c / 262144) with b0 by (subst c; lia).
    replace (128 + (c / 4096) mod 64) with b1 by (subst c; lia).
    replace (128 + (c / 64) mod 64) with b2 by (subst c; lia).
    replace (128 + c mod 64) with b3 by (subst c; lia). reflexivity. }
  intros b t F D. eapply G; eauto.
Qed.

Lemma utf8_enc1_bytes c b : utf8_enc1 c = Some b -> Forall is_byte b.
Proof.
  unfold utf8_enc1. destruct (is_scalar c) eqn:S; [|discriminate]. simpl.
  apply is_scalar_spec in S.
  destruct (c <? 128) eqn:E1; [|destruct (c <? 2048) eqn:E2; [|destruct (c <? 65536) eqn:E3]];
    intro E; injection E as <-; repeat constructor; unfold is_byte; lia.
Qed.

Lemma utf8_encode_bytes t b : utf8_encode t = Some b -> Forall is_byte b.
Proof.
  revert b. induction t as [|c t IH]; intros b E; simpl in E.
  - injection E as <-. constructor.
  - destruct (utf8_enc1 c) as [b1|] eqn:E1; [|discriminate].
    destruct (utf8_encode t) as [b2|] eqn:E2; [|discriminate].
    injection E as <-. apply Forall_app. split; [eapply utf8_enc1_bytes; eauto|auto].
Qed.

(** The first byte of a gzip stream is followed by 0x8b, a continuation byte: never UTF-8. *)
Lemma utf8_decode_gzip r : utf8_decode (31 :: 139 :: r) = None.
Proof.
  simpl. destruct r as [|b2 [|b3 [|b4 r]]]; reflexivity.
Qed.

(** A snappy frame starts with 0x82, a continuation byte: never UTF-8. *)
Lemma utf8_decode_snappy r : utf8_decode (130 :: r) = None.
Proof. simpl. destruct r as [|b1 [|b2 [|b3 r]]]; reflexivity. Qed.
