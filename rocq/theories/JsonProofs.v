(** json.loads reads exactly the JSON arrays of strings. *)
From Coq Require Import ZArith List Bool Lia.
From Verif Require Import PyBase BaseLemmas Json SpecJson.
Import ListNotations.
Open Scope Z_scope.

Lemma unhex_spec c n : unhex c = Some n <-> hex_digit c n.
Proof.
  unfold unhex, hex_digit.
  destruct (Z.leb_spec 48 c), (Z.leb_spec c 57), (Z.leb_spec 97 c), (Z.leb_spec c 102), (Z.leb_spec 65 c), (Z.leb_spec c 70); cbn [andb];
    (split; [intros E; first [discriminate E|injection E as <-; lia]|intros HH; first [f_equal; lia|exfalso; lia]]).
Qed.
Lemma take_hex_complete n s r : four_hex n s -> exists h, s = 92 :: 117 :: h /\ take_hex (h ++ r) = Some (n, r).
Proof.
  intros (a & b & c & d & w & x & y & z & A & B & C & D & -> & ->). eexists. split; [reflexivity|]. cbn [app take_hex].
  apply unhex_spec in A, B, C, D. rewrite A, B, C, D. f_equal. f_equal. ring.
Qed.
Lemma take_hex_sound s n r : take_hex s = Some (n, r) -> exists h, s = h ++ r /\ four_hex n (92 :: 117 :: h) /\ length h = 4%nat.
Proof.
  destruct s as [|a [|b [|c [|d s]]]]; try discriminate. cbn [take_hex].
  destruct (unhex a) as [w|] eqn:A; [|discriminate]. destruct (unhex b) as [x|] eqn:B; [|discriminate].
  destruct (unhex c) as [y|] eqn:C; [|discriminate]. destruct (unhex d) as [z|] eqn:D; [|discriminate].
  intros E. injection E as <- <-. exists [a; b; c; d]. split; [reflexivity|]. split; [|reflexivity].
  apply unhex_spec in A, B, C, D. exists a, b, c, d, w, x, y, z. repeat split; try assumption. ring.
Qed.
Lemma unescape_spec e c : unescape e = Some c <-> In (c, e) [(34, 34); (92, 92); (47, 47); (8, 98); (12, 102); (10, 110); (13, 114); (9, 116)].
Proof.
  unfold unescape. split.
  - repeat match goal with |- context [?a =? ?b] => destruct (Z.eqb_spec a b) as [->|] end; intros E; try discriminate E; injection E as <-; cbn; tauto.
  - intros H. cbn [In] in H. repeat (destruct H as [H|H]; [injection H as <- <-; reflexivity|]). destruct H.
Qed.
Lemma scan_written c s r : written c s -> scan_char (s ++ r) = Some (Some c, r).
Proof.
  intros W. destruct W as [c SC G N1 N2|c e H|c s SC L H|c hi lo s1 s2 SC Hh Hl E H1 H2].
  - cbn [app scan_char]. rewrite (proj2 (Z.eqb_neq c 34)), (proj2 (Z.eqb_neq c 92)) by assumption. destruct (Z.ltb_spec c 32); [lia|reflexivity].
  - pose proof H as H'. apply unescape_spec in H. cbn [app scan_char]. change (92 =? 34) with false. change (92 =? 92) with true. cbv iota.
    destruct (Z.eqb_spec e 117) as [->|N]; [discriminate H|]. now rewrite H.
  - destruct (take_hex_complete _ _ r H) as (h & -> & T). cbn [app scan_char]. change (92 =? 34) with false. change (92 =? 92) with true. change (117 =? 117) with true. cbv iota.
    rewrite T. destruct SC as [_ SC]. replace ((55296 <=? c) && (c <=? 56319)) with false; [reflexivity|].
    symmetry. apply andb_false_iff. lia.
  - destruct (take_hex_complete _ _ (s2 ++ r) H1) as (h & -> & T). destruct (take_hex_complete _ _ r H2) as (h2 & -> & T2).
    rewrite <- app_assoc. cbn [app scan_char]. change (92 =? 34) with false. change (92 =? 92) with true. change (117 =? 117) with true. cbv iota.
    cbn [app] in T. rewrite T. replace ((55296 <=? hi) && (hi <=? 56319)) with true by (symmetry; apply andb_true_iff; lia).
    unfold eat. rewrite !Z.eqb_refl. rewrite T2. replace ((56320 <=? lo) && (lo <=? 57343)) with true by (symmetry; apply andb_true_iff; lia).
    now rewrite E.
Qed.
Lemma hex_range n s : four_hex n s -> 0 <= n < 65536.
Proof. intros (a & b & c & d & w & x & y & z & A & B & C & D & -> & _). unfold hex_digit in *. lia. Qed.
Lemma scan_char_sound s c r : scan_char s = Some (Some c, r) -> scalar c -> exists w, s = w ++ r /\ written c w /\ w <> [].
Proof.
  destruct s as [|a s]; [discriminate|]. cbn [scan_char]. destruct (Z.eqb_spec a 34) as [|N1]; [discriminate|]. destruct (Z.eqb_spec a 92) as [->|N2].
  - destruct s as [|e s]; [discriminate|]. destruct (Z.eqb_spec e 117) as [->|N3].
    + destruct (take_hex s) as [[u r1]|] eqn:T; [|discriminate]. destruct (take_hex_sound _ _ _ T) as (h & -> & F & _). pose proof (hex_range _ _ F).
      assert (LONE : Some (Some u, r1) = Some (Some c, r) -> scalar c -> exists w, 92 :: 117 :: h ++ r1 = w ++ r /\ written c w /\ w <> []).
      { intros E SC. injection E as -> ->. exists (92 :: 117 :: h). split; [reflexivity|]. split; [|discriminate]. apply W_hex; [exact SC|lia|exact F]. }
      destruct ((55296 <=? u) && (u <=? 56319)) eqn:HI; [|exact LONE]. apply andb_true_iff in HI as [HI1 HI2]. apply Z.leb_le in HI1, HI2.
      destruct (match eat 92 r1 with Some r2 => eat 117 r2 | None => None end) as [r2|] eqn:EE; [|exact LONE].
      assert (R1 : r1 = 92 :: 117 :: r2).
      { unfold eat in EE. destruct r1 as [|x [|y q]]; try discriminate EE; destruct (Z.eqb_spec x 92) as [->|]; try discriminate EE. destruct (Z.eqb_spec y 117) as [->|]; [|discriminate EE]. now injection EE as <-. }
      destruct (take_hex r2) as [[v r3]|] eqn:T2; [|discriminate]. destruct (take_hex_sound _ _ _ T2) as (h2 & -> & F2 & _).
      destruct ((56320 <=? v) && (v <=? 57343)) eqn:LO; [|exact LONE]. apply andb_true_iff in LO as [LO1 LO2]. apply Z.leb_le in LO1, LO2.
      intros E SC. injection E as <- <-. exists ((92 :: 117 :: h) ++ (92 :: 117 :: h2)). split; [subst r1; cbn [app]; now rewrite <- app_assoc|]. split; [|discriminate].
      eapply W_pair; [exact SC| | |reflexivity|exact F|exact F2]; lia.
    + destruct (unescape e) as [x|] eqn:U; [|discriminate]. intros E _. injection E as -> ->. exists [92; e]. split; [reflexivity|]. split; [|discriminate]. apply W_short. now apply unescape_spec.
  - destruct (Z.ltb_spec a 32); [discriminate|]. intros E SC. injection E as -> ->. exists [c]. split; [reflexivity|]. split; [|discriminate]. now apply W_plain.
Qed.
Lemma written_len c s : written c s -> (1 <= length s)%nat.
Proof.
  intros W. destruct W as [| |c s SC L (a & b & e & d & w & x & y & z & A & B & C & D & _ & ->)|c hi lo s1 s2 SC Hh Hl E (a & b & e & d & w & x & y & z & A & B & C & D & _ & ->) H2]; cbn; lia.
Qed.
Lemma written_scalar c s : written c s -> scalar c.
Proof.
  intros W. destruct W as [|c e H| |]; try assumption. unfold scalar. cbn [In] in H. repeat (destruct H as [H|H]; [injection H as <- <-; lia|]). destruct H.
Qed.
Lemma scan_string_complete t parts r : Forall2 written t parts -> forall fuel, (length (concat parts) < fuel)%nat -> scan_string fuel (concat parts ++ 34 :: r) = Some (t, r).
Proof.
  induction 1 as [|c w t parts W F IH]; intros fuel L.
  - destruct fuel; [cbn in L; lia|]. reflexivity.
  - cbn [concat] in *. rewrite <- app_assoc. rewrite app_length in L. pose proof (written_len _ _ W). destruct fuel; [lia|]. cbn [scan_string].
    rewrite (scan_written _ _ _ W). now rewrite IH by lia.
Qed.
Lemma scan_string_sound fuel : forall s t r, scan_string fuel s = Some (t, r) -> clean t -> exists parts, Forall2 written t parts /\ s = concat parts ++ 34 :: r.
Proof.
  induction fuel as [|f IH]; [discriminate|]. intros s t r. cbn [scan_string]. destruct (scan_char s) as [[[c|] s1]|] eqn:SC; [| |discriminate].
  - destruct (scan_string f s1) as [[t' r']|] eqn:SS; [|discriminate]. intros E CL. injection E as <- <-.
    destruct (scan_char_sound _ _ _ SC) as (w & -> & W & _); [apply CL; now left|].
    destruct (IH _ _ _ SS) as (parts & F & ->); [intros x Hx; apply CL; now right|]. exists (w :: parts). split; [now constructor|]. cbn [concat]. now rewrite app_assoc.
  - intros E _. injection E as <- <-. exists []. split; [constructor|]. destruct s as [|a s]; [discriminate|]. cbn [scan_char] in SC.
    destruct (Z.eqb_spec a 34) as [->|N1]; [injection SC as ->; reflexivity|]. exfalso. revert SC.
    destruct (a =? 92); [|destruct (a <? 32); discriminate]. destruct s as [|e s]; [discriminate|]. destruct (e =? 117); [|destruct (unescape e); discriminate].
    destruct (take_hex s) as [[u r1]|]; [|discriminate]. destruct ((55296 <=? u) && (u <=? 56319)); [|discriminate].
    destruct (match eat 92 r1 with Some r2 => eat 117 r2 | None => None end) as [r2|]; [|discriminate].
    destruct (take_hex r2) as [[v r3]|]; [|discriminate]. destruct ((56320 <=? v) && (v <=? 57343)); discriminate.
Qed.

(** ** blanks *)
Lemma skip_blank w : forall s, blank w -> skip_ws (w ++ s) = skip_ws s.
Proof.
  induction w as [|c w IH]; intros s B; [reflexivity|]. cbn [app skip_ws].
  assert (E : (c =? 32) || (c =? 9) || (c =? 10) || (c =? 13) = true) by (destruct (B c (or_introl eq_refl)) as [->|[->|[->| ->]]]; reflexivity).
  rewrite E. apply IH. intros x Hx. apply B. now right.
Qed.
Lemma skip_all w : blank w -> skip_ws w = [].
Proof. intros B. rewrite <- (app_nil_r w). now rewrite skip_blank. Qed.
Lemma skip_sound s : exists w, blank w /\ s = w ++ skip_ws s.
Proof.
  induction s as [|c s (w & B & E)]; [exists []; split; [intros x []|reflexivity]|]. cbn [skip_ws].
  destruct ((c =? 32) || (c =? 9) || (c =? 10) || (c =? 13)) eqn:H; [|exists []; split; [intros x []|reflexivity]].
  exists (c :: w). split; [|cbn [app]; now f_equal]. intros x [<-|Hx]; [|now apply B].
  rewrite !orb_true_iff in H. rewrite !Z.eqb_eq in H. tauto.
Qed.
Lemma eat_spec c s r : eat c s = Some r <-> s = c :: r.
Proof.
  unfold eat. destruct s as [|x s]; [split; discriminate|]. destruct (Z.eqb_spec x c) as [->|N]; split; intros E; try discriminate E; try congruence; now injection E as ->.
Qed.
Lemma skip_mark c s : c = 34 \/ c = 44 \/ c = 91 \/ c = 93 -> skip_ws (c :: s) = c :: s.
Proof. intros [->|[->|[->| ->]]]; reflexivity. Qed.

(** ** items *)
Lemma elems_len ts s : json_elems ts s -> (length ts <= length s)%nat.
Proof.
  induction 1 as [t s (b & w1 & w2 & _ & _ & _ & ->)|t ts s r (b & w1 & w2 & _ & _ & _ & ->) H IH]; cbn [length] in *; repeat (rewrite app_length; cbn [length]); lia.
Qed.
Lemma scan_items_complete ts s : json_elems ts s -> forall r fuel, (length ts <= fuel)%nat -> scan_items fuel (s ++ 93 :: r) = Some (ts, r).
Proof.
  induction 1 as [t s H|t ts s s' H HE IH]; intros r fuel L; (destruct fuel; [cbn in L; lia|]); cbn [scan_items].
  - destruct H as (body & w1 & w2 & (parts & F & ->) & B1 & B2 & ->). rewrite <- app_assoc. rewrite skip_blank by exact B1. cbn [app]. rewrite skip_mark by tauto.
    rewrite (proj2 (eat_spec 34 _ _) eq_refl). rewrite <- app_assoc. cbn [app]. rewrite (scan_string_complete _ _ _ F) by (rewrite app_length; lia).
    rewrite skip_blank by exact B2. rewrite skip_mark by tauto. reflexivity.
  - destruct H as (body & w1 & w2 & (parts & F & ->) & B1 & B2 & ->). rewrite <- !app_assoc. rewrite skip_blank by exact B1. cbn [app]. rewrite skip_mark by tauto.
    rewrite (proj2 (eat_spec 34 _ _) eq_refl). rewrite <- !app_assoc. cbn [app]. rewrite (scan_string_complete _ _ _ F) by (rewrite app_length; lia).
    rewrite <- ?app_assoc. rewrite skip_blank by exact B2. cbn [app]. rewrite skip_mark by tauto. cbn [eat]. change (44 =? 44) with true. cbv iota.
    rewrite IH by (cbn [length] in L; lia). reflexivity.
Qed.
Lemma scan_items_sound fuel : forall s ts r, scan_items fuel s = Some (ts, r) -> (forall t, In t ts -> clean t) -> exists body, json_elems ts body /\ s = body ++ 93 :: r.
Proof.
  induction fuel as [|f IH]; [discriminate|]. intros s ts r. cbn [scan_items]. destruct (skip_sound s) as (w1 & B1 & E1).
  destruct (eat 34 (skip_ws s)) as [q|] eqn:Q; [|discriminate]. apply eat_spec in Q. rewrite Q in E1.
  destruct (scan_string (S (length q)) q) as [[t r1]|] eqn:SS; [|discriminate]. destruct (skip_sound r1) as (w2 & B2 & E2).
  destruct (eat 44 (skip_ws r1)) as [r2|] eqn:C1.
  - apply eat_spec in C1. rewrite C1 in E2. destruct (scan_items f r2) as [[ts' r3]|] eqn:SI; [|discriminate]. intros E CL. injection E as <- <-.
    destruct (scan_string_sound _ _ _ _ SS) as (parts & F & Eq); [apply CL; now left|].
    destruct (IH _ _ _ SI) as (body & HB & Er); [intros x Hx; apply CL; now right|].
    exists ((w1 ++ 34 :: concat parts ++ 34 :: w2) ++ 44 :: body). split.
    + apply E_more; [|exact HB]. exists (concat parts), w1, w2. repeat split; try assumption. now exists parts.
    + rewrite E1, Eq, E2, Er. repeat (rewrite <- ?app_assoc; cbn [app]). reflexivity.
  - destruct (eat 93 (skip_ws r1)) as [r2|] eqn:C2; [|discriminate]. apply eat_spec in C2. rewrite C2 in E2. intros E CL. injection E as <- <-.
    destruct (scan_string_sound _ _ _ _ SS) as (parts & F & Eq); [apply CL; now left|].
    exists (w1 ++ 34 :: concat parts ++ 34 :: w2). split.
    + apply E_one. exists (concat parts), w1, w2. repeat split; try assumption. now exists parts.
    + rewrite E1, Eq, E2. repeat (rewrite <- ?app_assoc; cbn [app]). reflexivity.
Qed.
Theorem json_loads_complete ts s : json_array ts s -> json_loads s = Ok ts.
Proof.
  intros (w1 & w2 & body & B1 & B2 & -> & H). unfold json_loads. rewrite skip_blank by exact B1. rewrite skip_mark by tauto. rewrite (proj2 (eat_spec 91 _ _) eq_refl).
  destruct H as [[-> B]|H].
  - rewrite skip_blank by exact B. rewrite skip_mark by tauto. rewrite (proj2 (eat_spec 93 _ _) eq_refl). now rewrite skip_all.
  - assert (N : eat 93 (skip_ws (body ++ 93 :: w2)) = None).
    { destruct H as [t s (b & v1 & v2 & _ & V1 & _ & ->)|t ts s r (b & v1 & v2 & _ & V1 & _ & ->) _]; rewrite <- ?app_assoc; rewrite skip_blank by exact V1; cbn [app]; rewrite skip_mark by tauto; reflexivity. }
    rewrite N. pose proof (elems_len _ _ H). rewrite (scan_items_complete _ _ H) by (rewrite app_length; lia). now rewrite skip_all.
Qed.
Theorem json_loads_sound ts s : json_loads s = Ok ts -> (forall t, In t ts -> clean t) -> json_array ts s.
Proof.
  unfold json_loads. destruct (skip_sound s) as (w1 & B1 & E1). destruct (eat 91 (skip_ws s)) as [q|] eqn:Q; [|discriminate]. apply eat_spec in Q. rewrite Q in E1.
  destruct (eat 93 (skip_ws q)) as [r1|] eqn:C1.
  - apply eat_spec in C1. destruct (skip_sound q) as (w & B & E2). rewrite C1 in E2. destruct (skip_ws r1) eqn:E3; [|discriminate]. intros E _. injection E as <-.
    destruct (skip_sound r1) as (w2 & B2 & E4). rewrite E3, app_nil_r in E4. exists w1, w2, w. rewrite E1, E2, E4. repeat split; try assumption. now left.
  - destruct (scan_items (S (length q)) q) as [[l r1]|] eqn:SI; [|discriminate]. destruct (skip_ws r1) eqn:E3; [|discriminate]. intros E CL. injection E as <-.
    destruct (scan_items_sound _ _ _ _ SI CL) as (body & HB & E2). destruct (skip_sound r1) as (w2 & B2 & E4). rewrite E3, app_nil_r in E4.
    exists w1, w2, body. rewrite E1, E2, E4. repeat split; try assumption. now right.
Qed.
Lemma elems_clean ts s : json_elems ts s -> forall t, In t ts -> clean t.
Proof.
  assert (ONE : forall t s, json_string t s -> clean t).
  { intros t q (b & w1 & w2 & (parts & F & _) & _). induction F as [|c w t parts W F IH]; [intros x []|]. intros x [<-|Hx]; [exact (written_scalar _ _ W)|now apply IH]. }
  induction 1 as [t s H|t ts s r H HE IH]; intros x [<-|Hx]; [eapply ONE, H|destruct Hx|eapply ONE, H|now apply IH].
Qed.
Lemma array_clean ts s : json_array ts s -> forall t, In t ts -> clean t.
Proof. intros (w1 & w2 & b & _ & _ & _ & [[-> _]|H]); [intros t []|exact (elems_clean _ _ H)]. Qed.
