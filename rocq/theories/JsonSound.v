(** Proofs for C68: the reader accepts nothing but JSON. *)
From Coq Require Import ZArith Lia String List Bool.
From Verif Require Import PyBase BaseLemmas Cluster Zookeeper Json SpecJson JsonValues SpecJsonValues JsonProofs JsonValueProofs.
Import ListNotations.
Open Scope Z_scope.

Lemma eat_inv c s r : eat c s = Some r -> s = c :: r.
Proof. destruct s as [|x s]; [discriminate|]. cbn. destruct (Z.eqb_spec x c) as [->|]; [|discriminate]. intros E. now injection E as ->. Qed.
Lemma skip_ws_inv s : exists w, blank w /\ s = w ++ skip_ws s.
Proof.
  induction s as [|c s (w & B & E)]; [exists []; split; [intros ? []|reflexivity]|]. cbn [skip_ws]. destruct (_ || _) eqn:K; [|exists []; split; [intros ? []|reflexivity]].
  exists (c :: w). split; [|cbn; congruence]. intros x [<-|H]; [|now apply B]. rewrite !orb_true_iff, !Z.eqb_eq in K. tauto.
Qed.
Lemma eat_word_inv w : forall s r, eat_word w s = Some r -> s = w ++ r.
Proof. induction w as [|c w IH]; intros s r H; cbn in *; [congruence|]. destruct (eat c s) as [q|] eqn:E; [|discriminate H]. apply eat_inv in E. subst s. f_equal. now apply IH. Qed.
Lemma unhex_inv c n : unhex c = Some n -> hex_digit c n.
Proof.
  unfold unhex, hex_digit. intros H. destruct ((48 <=? c) && (c <=? 57)) eqn:A; [injection H as <-; apply andb_true_iff in A; left; lia|]. destruct ((97 <=? c) && (c <=? 102)) eqn:B; [injection H as <-; apply andb_true_iff in B; right; left; lia|].
  destruct ((65 <=? c) && (c <=? 70)) eqn:C; [injection H as <-; apply andb_true_iff in C; right; right; lia|discriminate H].
Qed.
Lemma take_hex_inv s n r : take_hex s = Some (n, r) -> exists h, four_hex n (92 :: 117 :: h) /\ s = h ++ r.
Proof.
  destruct s as [|a [|b [|c [|d q]]]]; try discriminate. cbn. destruct (unhex a) as [w|] eqn:A; [|discriminate]. destruct (unhex b) as [x|] eqn:B; [|discriminate]. destruct (unhex c) as [y|] eqn:C; [|discriminate]. destruct (unhex d) as [z|] eqn:D; [|discriminate].
  intros H. injection H as <- <-. exists [a; b; c; d]. split; [|reflexivity]. exists a, b, c, d, w, x, y, z. repeat (split; [now apply unhex_inv|]). split; [lia|reflexivity].
Qed.
Lemma scan_char_inv s o r : scan_char s = Some (o, r) -> match o with None => s = 34 :: r | Some _ => exists parts, Forall string_part parts /\ s = concat parts ++ r end.
Proof.
  unfold scan_char. destruct s as [|c q]; [discriminate|]. destruct (Z.eqb_spec c 34) as [->|N1]; [intros H; now injection H as <- <-|]. destruct (Z.eqb_spec c 92) as [->|N2].
  - destruct q as [|e q]; [discriminate|]. destruct (Z.eqb_spec e 117) as [->|N3].
    + destruct (take_hex q) as [[u r1]|] eqn:E; [|discriminate]. apply take_hex_inv in E as (h & F & ->). assert (ONE : exists parts, Forall string_part parts /\ 92 :: 117 :: h ++ r1 = concat parts ++ r1).
      { exists [92 :: 117 :: h]. split; [constructor; [now apply (SP_hex u)|constructor]|]. cbn. now rewrite app_nil_r. }
      destruct (_ && _); [|intros H; injection H as <- <-; exact ONE]. destruct (eat 92 r1) as [r2|] eqn:E1; [|intros H; injection H as <- <-; exact ONE]. destruct (eat 117 r2) as [r3|] eqn:E2; [|intros H; injection H as <- <-; exact ONE].
      apply eat_inv in E1. apply eat_inv in E2. subst r1 r2. destruct (take_hex r3) as [[v r4]|] eqn:E; [|discriminate]. apply take_hex_inv in E as (h2 & F2 & ->). destruct (_ && _); intros H; injection H as <- <-; [|exact ONE].
      exists [92 :: 117 :: h; 92 :: 117 :: h2]. split; [constructor; [now apply (SP_hex u)|constructor; [now apply (SP_hex v)|constructor]]|]. cbn. now rewrite app_nil_r, <- app_assoc.
    + destruct (unescape e) as [x|] eqn:E; [|discriminate]. intros H. injection H as <- <-. exists [[92; e]]. split; [|reflexivity]. constructor; [|constructor]. apply SP_short. unfold unescape in E. cbn.
      destruct (Z.eqb_spec e 34); [auto|]. destruct (Z.eqb_spec e 92); [auto|]. destruct (Z.eqb_spec e 47); [auto|]. destruct (Z.eqb_spec e 98); [auto|]. destruct (Z.eqb_spec e 102); [auto 10|]. destruct (Z.eqb_spec e 110); [auto 10|]. destruct (Z.eqb_spec e 114); [auto 10|]. destruct (Z.eqb_spec e 116); [auto 10|discriminate E].
  - destruct (Z.ltb_spec c 32); [discriminate|]. intros H0. injection H0 as <- <-. exists [[c]]. split; [|reflexivity]. constructor; [now apply SP_plain|constructor].
Qed.
Lemma scan_string_inv f : forall s t r, scan_string f s = Some (t, r) -> exists parts, Forall string_part parts /\ s = concat parts ++ 34 :: r.
Proof.
  induction f as [|f IH]; intros s t r H; [discriminate H|]. cbn in H. destruct (scan_char s) as [[o q]|] eqn:E; [|discriminate H]. apply scan_char_inv in E. destruct o as [c|].
  - destruct (scan_string f q) as [[t' r']|] eqn:F; [|discriminate H]. injection H as <- <-. destruct E as (p1 & A & ->). destruct (IH _ _ _ F) as (p2 & B & ->). exists (p1 ++ p2). split; [now apply Forall_app|]. now rewrite concat_app, app_assoc.
  - injection H as <- <-. exists []. split; [constructor|exact E].
Qed.
Lemma scan_string_is f q t r : scan_string f q = Some (t, r) -> exists s, is_string s /\ 34 :: q = s ++ r.
Proof. intros H. apply scan_string_inv in H as (p & F & ->). exists (34 :: concat p ++ [34]). split; [now exists p|]. cbn. now rewrite <- app_assoc. Qed.
Lemma span_inv s : forall ds q, span_digits s = (ds, q) -> s = ds ++ q /\ Forall digit ds.
Proof.
  induction s as [|c s IH]; intros ds q H; cbn in H; [injection H as <- <-; now split|]. destruct (_ && _) eqn:K; [|injection H as <- <-; now split]. destruct (span_digits s) as [d0 q0]. injection H as <- <-. destruct (IH d0 q0 eq_refl) as (-> & F). split; [reflexivity|]. constructor; [|exact F]. apply andb_true_iff in K. unfold digit. lia.
Qed.
Lemma scan_int_inv s ds q : scan_int s = Some (ds, q) -> s = ds ++ q /\ natural ds.
Proof.
  unfold scan_int. destruct s as [|c r]; [discriminate|]. destruct (Z.eqb_spec c 48) as [->|N].
  - intros H. injection H as <- <-. split; [reflexivity|]. split; [split; [discriminate|repeat constructor; lia]|now left].
  - destruct (_ && _) eqn:K; [|discriminate]. destruct (span_digits r) as [d q0] eqn:E. intros H. injection H as <- <-. apply span_inv in E as (-> & F). split; [reflexivity|]. split; [split; [discriminate|constructor; [unfold digit; apply andb_true_iff in K; lia|exact F]]|]. right. eauto.
Qed.
Lemma scan_frac_inv s f q : scan_frac s = (f, q) -> s = f ++ q /\ (f = [] \/ fraction f).
Proof.
  unfold scan_frac. destruct (eat 46 s) as [r|] eqn:E; [|intros H; injection H as <- <-; auto]. apply eat_inv in E. subst s. destruct (span_digits r) as [ds q0] eqn:E. apply span_inv in E as (-> & F). destruct ds as [|d ds]; intros H; injection H as <- <-; [auto|].
  split; [reflexivity|]. right. exists (d :: ds). split; [split; [discriminate|exact F]|reflexivity].
Qed.
Lemma scan_exp_inv s e q : scan_exp s = (e, q) -> s = e ++ q /\ (e = [] \/ exponent e).
Proof.
  unfold scan_exp. destruct s as [|c r]; [intros H; injection H as <- <-; auto|]. destruct ((c =? 101) || (c =? 69)) eqn:K; [|intros H; injection H as <- <-; auto].
  assert (SG : exists sg q0, match r with x :: r' => if (x =? 43) || (x =? 45) then ([x], r') else ([], r) | [] => ([], r) end = (sg, q0) /\ r = sg ++ q0 /\ (sg = [] \/ sg = [43] \/ sg = [45])).
  { destruct r as [|x r]; [exists [], []; auto|]. destruct ((x =? 43) || (x =? 45)) eqn:X; [|exists [], (x :: r); auto]. exists [x], r. split; [reflexivity|]. split; [reflexivity|]. rewrite orb_true_iff, !Z.eqb_eq in X. destruct X as [-> | ->]; auto. }
  destruct SG as (sg & q0 & -> & -> & S). destruct (span_digits q0) as [ds q1] eqn:E. apply span_inv in E as (-> & F). destruct ds as [|d ds]; intros H; injection H as <- <-; [auto|]. split; [cbn; now rewrite <- !app_assoc|]. right. exists c, sg, (d :: ds).
  split; [rewrite orb_true_iff, !Z.eqb_eq in K; tauto|]. split; [exact S|]. split; [split; [discriminate|exact F]|reflexivity].
Qed.
Section Sound.
  Variable float_repr : text -> text.
  Lemma scan_number_inv s v r : scan_number float_repr s = Some (v, r) -> exists body, is_value body /\ s = body ++ r.
  Proof.
    unfold scan_number. assert (SG : exists neg sg s1, match eat 45 s with Some r => (true, r) | None => (false, s) end = (neg, s1) /\ s = sg ++ s1 /\ sg = (if neg : bool then [45] else [])).
    { destruct (eat 45 s) as [q|] eqn:E; [apply eat_inv in E; exists true, [45], q; auto|exists false, [], s; auto]. }
    destruct SG as (neg & sg & s1 & -> & -> & ES). destruct (scan_int s1) as [[ds s2]|] eqn:E1; [|discriminate]. apply scan_int_inv in E1 as (-> & N). destruct (scan_frac s2) as [fr s3] eqn:E2. apply scan_frac_inv in E2 as (-> & F). destruct (scan_exp s3) as [ex s4] eqn:E3. apply scan_exp_inv in E3 as (-> & X).
    assert (IN : exists z, integer z (sg ++ ds)). { rewrite ES. destruct neg; eexists; [now apply I_neg|now apply I_pos]. } destruct IN as (z & IN).
    destruct (fr ++ ex) eqn:FE.
    - destruct (digits 0 ds); [|discriminate]. intros H. injection H as <- <-. apply app_eq_nil in FE as (-> & ->). exists (sg ++ ds). split; [now apply (G_int z)|]. now rewrite <- app_assoc.
    - intros H. injection H as <- <-. exists (sg ++ ds ++ fr ++ ex). split; [|now rewrite <- !app_assoc]. apply G_float. exists z, (sg ++ ds), fr, ex. split; [exact IN|]. split; [now rewrite <- !app_assoc|]. destruct F as [->|F], X as [->|X]; [discriminate FE|right; left; now split|left; now split|right; right; now split].
  Qed.
  Lemma scan_val_S f s : scan_val float_repr (S f) s =
        match s with
        | [] => None
        | c :: r =>
            if c =? 34 then match scan_string (S (length r)) r with Some (t, r1) => Some (JStr t, r1) | None => None end
            else if c =? 123 then
              match eat 125 (skip_ws r) with
              | Some r1 => Some (JDict [], r1)
              | None => match scan_members float_repr f r with
                        | Some (d, r1) => Some (JDict (fold_left (fun m kv => dset m (fst kv) (snd kv)) d []), r1)
                        | None => None
                        end
              end
            else if c =? 91 then
              match eat 93 (skip_ws r) with
              | Some r1 => Some (JList [], r1)
              | None => match scan_vals float_repr f r with Some (l, r1) => Some (JList l, r1) | None => None end
              end
            else match eat_word (txt "null") s with
            | Some r1 => Some (JNull, r1)
            | None =>
            match eat_word (txt "true") s with
            | Some r1 => Some (JBool true, r1)
            | None =>
            match eat_word (txt "false") s with
            | Some r1 => Some (JBool false, r1)
            | None => scan_other float_repr s
            end end end
        end.
  Proof. reflexivity. Qed.
  Lemma scan_vals_S f s : scan_vals float_repr (S f) s =
        match scan_val float_repr f (skip_ws s) with
        | None => None
        | Some (v, r1) =>
            match eat 44 (skip_ws r1), eat 93 (skip_ws r1) with
            | Some r2, _ => match scan_vals float_repr f r2 with Some (vs, r3) => Some (v :: vs, r3) | None => None end
            | None, Some r2 => Some ([v], r2)
            | None, None => None
            end
        end.
  Proof. reflexivity. Qed.
  Lemma scan_inv f : (forall s v r, scan_val float_repr f s = Some (v, r) -> exists body, is_value body /\ s = body ++ r) /\
    (forall s l r, scan_vals float_repr f s = Some (l, r) -> exists body, is_values body /\ s = body ++ 93 :: r) /\
    (forall s d r, scan_members float_repr f s = Some (d, r) -> exists body, is_members body /\ s = body ++ 125 :: r).
  Proof.
    induction f as [|f (IV & IL & IM)]; [repeat split; intros; discriminate|]. split; [|split].
    - intros s v r H. rewrite scan_val_S in H. destruct s as [|c q]; [discriminate H|]. destruct (Z.eqb_spec c 34) as [->|N1].
      { destruct (scan_string _ q) as [[t r1]|] eqn:E; [|discriminate H]. injection H as _ <-. apply scan_string_is in E as (s & S & E). exists s. split; [now apply G_str|exact E]. }
      destruct (Z.eqb_spec c 123) as [->|N2].
      { destruct (eat 125 (skip_ws q)) as [r1|] eqn:E.
        - injection H as _ <-. apply eat_inv in E. destruct (skip_ws_inv q) as (w & B & Q). rewrite E in Q. exists (123 :: w ++ [125]). split; [now apply G_no_dict|]. rewrite Q. cbn. now rewrite <- app_assoc.
        - destruct (scan_members float_repr f q) as [[d r1]|] eqn:M; [|discriminate H]. injection H as _ <-. apply IM in M as (b & B & ->). exists (123 :: b ++ [125]). split; [now apply G_dict|]. cbn. now rewrite <- app_assoc. }
      destruct (Z.eqb_spec c 91) as [->|N3].
      { destruct (eat 93 (skip_ws q)) as [r1|] eqn:E.
        - injection H as _ <-. apply eat_inv in E. destruct (skip_ws_inv q) as (w & B & Q). rewrite E in Q. exists (91 :: w ++ [93]). split; [now apply G_no_list|]. rewrite Q. cbn. now rewrite <- app_assoc.
        - destruct (scan_vals float_repr f q) as [[l r1]|] eqn:M; [|discriminate H]. injection H as _ <-. apply IL in M as (b & B & ->). exists (91 :: b ++ [93]). split; [now apply G_list|]. cbn. now rewrite <- app_assoc. }
      destruct (eat_word (txt "null") (c :: q)) as [r1|] eqn:E1; [injection H as _ <-; apply eat_word_inv in E1; exists (txt "null"); split; [apply G_word; cbn; auto|exact E1]|].
      destruct (eat_word (txt "true") (c :: q)) as [r1|] eqn:E2; [injection H as _ <-; apply eat_word_inv in E2; exists (txt "true"); split; [apply G_word; cbn; auto|exact E2]|].
      destruct (eat_word (txt "false") (c :: q)) as [r1|] eqn:E3; [injection H as _ <-; apply eat_word_inv in E3; exists (txt "false"); split; [apply G_word; cbn; auto|exact E3]|].
      unfold scan_other in H. destruct (scan_number float_repr (c :: q)) as [[v' r']|] eqn:EN; [injection H as _ <-; now apply scan_number_inv in EN|].
      destruct (eat_word (txt "NaN") (c :: q)) as [r1|] eqn:E4; [injection H as _ <-; apply eat_word_inv in E4; exists (txt "NaN"); split; [apply G_name; cbn; auto|exact E4]|].
      destruct (eat_word (txt "Infinity") (c :: q)) as [r1|] eqn:E5; [injection H as _ <-; apply eat_word_inv in E5; exists (txt "Infinity"); split; [apply G_name; cbn; auto|exact E5]|].
      destruct (eat_word (txt "-Infinity") (c :: q)) as [r1|] eqn:E6; [injection H as _ <-; apply eat_word_inv in E6; exists (txt "-Infinity"); split; [apply G_name; cbn; auto|exact E6]|discriminate H].
    - intros s l r H. rewrite scan_vals_S in H. destruct (skip_ws_inv s) as (w1 & B1 & Q1). destruct (scan_val float_repr f (skip_ws s)) as [[v r1]|] eqn:E; [|discriminate H]. apply IV in E as (b & B & E). rewrite E in Q1. destruct (skip_ws_inv r1) as (w2 & B2 & Q2).
      destruct (eat 44 (skip_ws r1)) as [r2|] eqn:E2.
      + destruct (scan_vals float_repr f r2) as [[vs r3]|] eqn:E3; [|discriminate H]. injection H as _ <-. apply IL in E3 as (b3 & B3 & ->). apply eat_inv in E2. rewrite E2 in Q2. exists ((w1 ++ b ++ w2) ++ 44 :: b3). split; [now apply GS_more|]. rewrite Q1, Q2. rewrite <- !app_assoc. reflexivity.
      + destruct (eat 93 (skip_ws r1)) as [r2|] eqn:E3; [|discriminate H]. injection H as _ <-. apply eat_inv in E3. rewrite E3 in Q2. exists (w1 ++ b ++ w2). split; [now apply GS_one|]. rewrite Q1, Q2. now rewrite <- !app_assoc.
    - intros s d r H. rewrite scan_members_S in H. destruct (skip_ws_inv s) as (w1 & B1 & Q1). destruct (eat 34 (skip_ws s)) as [q|] eqn:E; [|discriminate H]. apply eat_inv in E. rewrite E in Q1. destruct (scan_string _ q) as [[k r1]|] eqn:E1; [|discriminate H]. apply scan_string_is in E1 as (ks & K & E1). rewrite E1 in Q1.
      destruct (skip_ws_inv r1) as (w2 & B2 & Q2). destruct (eat 58 (skip_ws r1)) as [r2|] eqn:E2; [|discriminate H]. apply eat_inv in E2. rewrite E2 in Q2. destruct (skip_ws_inv r2) as (w3 & B3 & Q3). destruct (scan_val float_repr f (skip_ws r2)) as [[v r3]|] eqn:E3; [|discriminate H]. apply IV in E3 as (b & B & E3). rewrite E3 in Q3.
      destruct (skip_ws_inv r3) as (w4 & B4 & Q4). destruct (eat 44 (skip_ws r3)) as [r4|] eqn:E4.
      + destruct (scan_members float_repr f r4) as [[d' r5]|] eqn:E5; [|discriminate H]. injection H as _ <-. apply IM in E5 as (b5 & B5 & ->). apply eat_inv in E4. rewrite E4 in Q4. exists (((w1 ++ ks ++ w2) ++ 58 :: w3 ++ b ++ w4) ++ 44 :: b5). split; [apply GM_more; [now apply GM|exact B5]|].
        rewrite Q1, Q2, Q3, Q4. rewrite <- !app_assoc. cbn [app]. now rewrite <- !app_assoc.
      + destruct (eat 125 (skip_ws r3)) as [r4|] eqn:E5; [|discriminate H]. injection H as _ <-. apply eat_inv in E5. rewrite E5 in Q4. exists ((w1 ++ ks ++ w2) ++ 58 :: w3 ++ b ++ w4). split; [apply GM_one; now apply GM|]. rewrite Q1, Q2, Q3, Q4. rewrite <- !app_assoc. cbn [app]. now rewrite <- !app_assoc.
  Qed.
  Lemma jloads_json s v : jloads float_repr s = Ok v -> is_json s.
  Proof.
    unfold jloads. destruct (skip_ws_inv s) as (w1 & B1 & Q1). destruct (scan_val _ _ _) as [[v' r]|] eqn:E; [|discriminate]. apply (proj1 (scan_inv _)) in E as (b & B & E). rewrite E in Q1. destruct (skip_ws_inv r) as (w2 & B2 & Q2). destruct (skip_ws r); [|discriminate]. intros _.
    exists w1, b, w2. split; [exact B1|]. split; [exact B2|]. split; [exact B|]. rewrite app_nil_r in Q2. now rewrite Q1, <- Q2.
  Qed.
End Sound.

(** ** and everything that is JSON *)
Lemma part_head p : string_part p -> exists c q, p = c :: q /\ c <> 34 /\ (c = 92 -> (exists e, q = [e] /\ In e [34; 92; 47; 98; 102; 110; 114; 116]) \/ exists n, four_hex n p).
Proof.
  intros [c A B C|e E|n s H].
  - exists c, []. split; [reflexivity|]. split; [exact B|]. congruence.
  - exists 92, [e]. split; [reflexivity|]. split; [discriminate|]. intros _. left. eauto.
  - pose proof H as H'. destruct H' as (a & b & c & d & w & x & y & z & _ & _ & _ & _ & _ & ->). exists 92, [117; a; b; c; d]. split; [reflexivity|]. split; [discriminate|]. intros _. right. eauto.
Qed.
Lemma hex_scan n s r : four_hex n s -> exists h, s = 92 :: 117 :: h /\ List.length h = 4%nat /\ take_hex (h ++ r) = Some (n, r).
Proof. intros H. destruct (take_hex_complete n s r H) as (h & -> & T). exists h. split; [reflexivity|]. split; [|exact T]. destruct H as (a & b & c & d & w & x & y & z & _ & _ & _ & _ & _ & E). injection E as ->. reflexivity. Qed.
Lemma scan_parts n : forall parts r fuel, (List.length parts <= n)%nat -> Forall string_part parts -> (List.length (concat parts) < fuel)%nat -> exists t, scan_string fuel (concat parts ++ 34 :: r) = Some (t, r).
Proof.
  induction n as [|n IH]; intros parts r fuel L F FU; (destruct fuel as [|f]; [lia|]); (destruct parts as [|p parts]; [exists []; reflexivity|]); [cbn in L; lia|]. cbn [List.length] in L. inversion F as [|? ? P FP]; subst. cbn [concat] in *. rewrite app_length in FU. rewrite <- app_assoc.
  destruct P as [c A B C|e E|u s H]; cbn [List.length] in FU.
  - cbn [app scan_string scan_char]. rewrite (proj2 (Z.eqb_neq c 34) B), (proj2 (Z.eqb_neq c 92) C), (proj2 (Z.ltb_ge c 32) A). destruct (IH parts r f) as (t & ->); [lia|exact FP|lia|]. eauto.
  - cbn [app scan_string scan_char]. change (92 =? 34) with false. change (92 =? 92) with true. cbv iota. destruct (IH parts r f) as (t & T); [lia|exact FP|lia|].
    cbn in E. destruct E as [<-|[<-|[<-|[<-|[<-|[<-|[<-|[<-|[]]]]]]]]]; cbn; rewrite T; eauto.
  - destruct (hex_scan u s (concat parts ++ 34 :: r) H) as (h & -> & HL & T). cbn [app List.length] in *. cbn [scan_string scan_char]. change (92 =? 34) with false. change (92 =? 92) with true. change (117 =? 117) with true. cbv iota. rewrite T.
    destruct (IH parts r f) as (t & TT); [lia|exact FP|lia|].
    destruct (_ && _); [|rewrite TT; eauto].
    destruct parts as [|p2 parts]; [cbn [concat app eat]; change (34 =? 92) with false; cbv iota; cbn [concat app] in TT; rewrite TT; eauto|]. inversion FP as [|? ? P2 FP2]; subst. destruct (part_head p2 P2) as (c & q & -> & N & K).
    cbn [concat app] in TT |- *. cbn [eat]. destruct (Z.eqb_spec c 92) as [->|NE]; [|rewrite TT; eauto]. destruct (K eq_refl) as [(e & -> & IE)|(v & H2)].
    + cbn [app eat] in TT |- *. replace (e =? 117) with false; [rewrite TT; eauto|]. symmetry. apply Z.eqb_neq. cbn in IE. intuition lia.
    + destruct (hex_scan v (92 :: q) (concat parts ++ 34 :: r) H2) as (h2 & E2 & HL2 & T2). injection E2 as ->. cbn [app eat] in TT |- *. change (117 =? 117) with true. cbv iota. rewrite <- !app_assoc in TT |- *. rewrite T2. destruct (_ && _); [|rewrite TT; eauto].
      destruct (IH parts r f) as (t' & ->); [cbn in L; lia|exact FP2|cbn [concat] in FU; rewrite app_length in FU; cbn in FU; lia|]. eauto.
Qed.
Section Complete.
  Variable float_repr : text -> text.
  Notation scan_val := (scan_val float_repr).
  Notation scan_vals := (scan_vals float_repr).
  Notation scan_members := (scan_members float_repr).
  Scheme is_value_ind' := Minimality for is_value Sort Prop
    with is_values_ind' := Minimality for is_values Sort Prop
    with is_members_ind' := Minimality for is_members Sort Prop
    with is_member_ind' := Minimality for is_member Sort Prop.
  Definition taken_value (s : text) : Prop := (exists c q, s = c :: q /\ ~ In c [32; 9; 10; 13; 93; 125]) /\ forall r fuel, ends r -> (2 * List.length s + 1 <= fuel)%nat -> exists v, scan_val fuel (s ++ r) = Some (v, r).
  Definition taken_values (s : text) : Prop := (forall r, eat 93 (skip_ws (s ++ r)) = None) /\
    forall r fuel, (2 * List.length s + 2 <= fuel)%nat -> exists l, scan_vals fuel (s ++ 93 :: r) = Some (l, r).
  Definition taken_members (s : text) : Prop := (forall r, eat 125 (skip_ws (s ++ r)) = None) /\
    forall r fuel, (2 * List.length s + 2 <= fuel)%nat -> exists d, scan_members fuel (s ++ 125 :: r) = Some (d, r).
  Definition taken_member (m : text) : Prop := (forall r, eat 125 (skip_ws (m ++ r)) = None) /\
    forall c r f, c = 44 \/ c = 125 -> (2 * List.length m + 1 <= f)%nat -> exists k v q r1 r2 r3,
      eat 34 (skip_ws (m ++ c :: r)) = Some q /\ scan_string (S (List.length q)) q = Some (k, r1) /\ eat 58 (skip_ws r1) = Some r2 /\
      scan_val f (skip_ws r2) = Some (v, r3) /\ skip_ws r3 = c :: r.
  Lemma skip_taken s r : taken_value s -> skip_ws (s ++ r) = s ++ r.
  Proof using.
    intros ((c & q & -> & N) & _). cbn [app skip_ws]. cbn [In] in N.
    replace ((c =? 32) || (c =? 9) || (c =? 10) || (c =? 13)) with false; [reflexivity|]. symmetry. rewrite !orb_false_iff, !Z.eqb_neq. intuition lia.
  Qed.
  Lemma takes s : is_value s -> taken_value s.
  Proof using.
    apply (is_value_ind' taken_value taken_values taken_members taken_member); clear s.
    - intros w W. cbn [In] in W. split; [destruct W as [<-|[<-|[<-|[]]]]; (eexists _, _; split; [reflexivity|cbn; intuition discriminate])|]. intros r [|f] R L; [lia|]. destruct W as [<-|[<-|[<-|[]]]]; eexists; reflexivity.
    - intros w W. cbn [In] in W. split; [destruct W as [<-|[<-|[<-|[]]]]; (eexists _, _; split; [reflexivity|cbn; intuition discriminate])|]. intros r [|f] R L; [lia|]. destruct W as [<-|[<-|[<-|[]]]]; eexists; reflexivity.
    - intros z s I. destruct (number_start _ _ I) as (c & q & E & D). split; [exists c, q; split; [exact E|]; unfold digit in D; cbn; intuition lia|]. intros r [|f] R L; [lia|]. exists (JInt z). rewrite E, scan_number_branch by exact D. rewrite <- E. unfold scan_other. now rewrite (scan_integer _ _ _ _ I).
    - intros s F. pose proof F as F'. destruct F' as (z & i & fr & e & I & E & _). destruct (number_start _ _ I) as (c & q & Ei & D). rewrite Ei in E. cbn [app] in E. split; [exists c, (q ++ fr ++ e); split; [exact E|]; unfold digit in D; cbn; intuition lia|].
      intros r [|f] R L; [lia|]. exists (JFloat (float_repr s)). rewrite E, scan_number_branch by exact D. rewrite <- E. unfold scan_other. now rewrite scan_floating.
    - intros s (parts & F & ->). split; [eexists _, _; split; [reflexivity|cbn; intuition discriminate]|]. intros r [|f] R L; [lia|]. rewrite scan_val_S. cbn [app]. change (34 =? 34) with true. cbv iota. rewrite <- app_assoc. cbn [app].
      destruct (scan_parts _ parts r (S (List.length (concat parts ++ 34 :: r))) (le_n _) F) as (t & ->); [rewrite app_length; lia|]. eauto.
    - intros b B. split; [eexists _, _; split; [reflexivity|cbn; intuition discriminate]|]. intros r [|f] R L; [lia|]. rewrite scan_val_S. cbn [app]. change (91 =? 34) with false. change (91 =? 123) with false. change (91 =? 91) with true. cbv iota.
      rewrite <- app_assoc. cbn [app]. rewrite skip_to by (cbn; tauto). eexists. reflexivity.
    - intros s _ (E & H). split; [eexists _, _; split; [reflexivity|cbn; intuition discriminate]|]. intros r [|f] R L; [lia|]. rewrite scan_val_S. cbn [app]. change (91 =? 34) with false. change (91 =? 123) with false. change (91 =? 91) with true. cbv iota.
      rewrite <- app_assoc. cbn [app]. rewrite E. destruct (H r f) as (l & ->); [cbn [List.length] in L; rewrite app_length in L; cbn [List.length] in L; lia|]. eauto.
    - intros b B. split; [eexists _, _; split; [reflexivity|cbn; intuition discriminate]|]. intros r [|f] R L; [lia|]. rewrite scan_val_S. cbn [app]. change (123 =? 34) with false. change (123 =? 123) with true. cbv iota.
      rewrite <- app_assoc. cbn [app]. rewrite skip_to by (cbn; tauto). eexists. reflexivity.
    - intros s _ (E & H). split; [eexists _, _; split; [reflexivity|cbn; intuition discriminate]|]. intros r [|f] R L; [lia|]. rewrite scan_val_S. cbn [app]. change (123 =? 34) with false. change (123 =? 123) with true. cbv iota.
      rewrite <- app_assoc. cbn [app]. rewrite E. destruct (H r f) as (d & ->); [cbn [List.length] in L; rewrite app_length in L; cbn [List.length] in L; lia|]. eauto.
    - intros s w1 w2 _ V B1 B2. split.
      + intros r. rewrite <- !app_assoc. rewrite skip_blank by exact B1. rewrite (skip_taken _ _ V). destruct V as ((c & q & -> & N) & _). cbn [app eat]. now rewrite (proj2 (Z.eqb_neq c 93)) by (cbn in N; intuition lia).
      + intros r [|f] L; [lia|]. rewrite scan_vals_S. rewrite <- !app_assoc. rewrite skip_blank by exact B1. rewrite (skip_taken _ _ V).
        destruct (proj2 V (w2 ++ 93 :: r) f) as (v & ->); [apply ends_after; [exact B2|cbn; tauto]|rewrite !app_length in L; lia|]. rewrite skip_to by (first [exact B2|cbn; tauto]). eexists. reflexivity.
    - intros s r w1 w2 _ V B1 B2 _ (E & H). split.
      + intros r'. rewrite <- !app_assoc. rewrite skip_blank by exact B1. rewrite (skip_taken _ _ V). destruct V as ((c & q & -> & N) & _). cbn [app eat]. now rewrite (proj2 (Z.eqb_neq c 93)) by (cbn in N; intuition lia).
      + intros r' [|f] L; [lia|]. rewrite !app_length in L. cbn [List.length] in L. rewrite scan_vals_S. rewrite <- !app_assoc. rewrite skip_blank by exact B1. rewrite (skip_taken _ _ V). cbn [app].
        destruct (proj2 V (w2 ++ 44 :: r ++ 93 :: r') f) as (v & ->); [apply ends_after; [exact B2|cbn; tauto]|lia|]. rewrite skip_to by (first [exact B2|cbn; tauto]). cbn [eat]. change (44 =? 44) with true. cbv iota.
        destruct (H r' f) as (l & ->); [lia|]. eauto.
    - intros m _ (E & H). split; [exact E|]. intros r [|f] L; [lia|]. rewrite scan_members_S.
      destruct (H 125 r f) as (k & v & q & r1 & r2 & r3 & X1 & X2 & X3 & X4 & X5); [now right|lia|]. rewrite X1, X2, X3, X4, X5. eexists. reflexivity.
    - intros m r _ (E & H) _ (E2 & H2). split; [intros r'; rewrite <- app_assoc; apply E|]. intros r' [|f] L; [lia|]. rewrite app_length in L. cbn [List.length] in L. rewrite scan_members_S.
      rewrite <- app_assoc. cbn [app]. destruct (H 44 (r ++ 125 :: r') f) as (k & v & q & r1 & r2 & r3 & X1 & X2 & X3 & X4 & X5); [now left|lia|]. rewrite X1, X2, X3, X4, X5. cbn [eat]. change (44 =? 44) with true. cbv iota.
      destruct (H2 r' f) as (d & ->); [lia|]. eauto.
    - intros ks s w1 w2 w3 w4 (parts & F & ->) _ V B1 B2 B3 B4.
      assert (SH : forall x, ((w1 ++ (34 :: concat parts ++ [34]) ++ w2) ++ 58 :: w3 ++ s ++ w4) ++ x = w1 ++ 34 :: concat parts ++ 34 :: w2 ++ 58 :: w3 ++ s ++ w4 ++ x).
      { intros x. repeat (rewrite <- ?app_assoc; cbn [app]). reflexivity. }
      split.
      + intros r. rewrite SH. rewrite skip_to by (first [exact B1|cbn; tauto]). reflexivity.
      + intros c r f C L. rewrite SH. rewrite skip_to by (first [exact B1|cbn; tauto]).
        set (q := concat parts ++ 34 :: w2 ++ 58 :: w3 ++ s ++ w4 ++ c :: r). destruct (scan_parts _ parts (w2 ++ 58 :: w3 ++ s ++ w4 ++ c :: r) (S (List.length q)) (le_n _) F) as (k & EK); [unfold q; rewrite app_length; lia|].
        destruct (proj2 V (w4 ++ c :: r) f) as (v & EV); [apply ends_after; [exact B4|cbn; intuition]|rewrite !app_length in L; cbn [List.length] in L; rewrite !app_length in L; lia|].
        exists k, v. eexists _, _, _, _. split; [reflexivity|]. split; [exact EK|]. rewrite skip_to by (first [exact B2|cbn; tauto]). split; [reflexivity|].
        rewrite skip_blank by exact B3. rewrite (skip_taken _ _ V). split; [exact EV|]. apply skip_to; [exact B4|cbn; intuition].
  Qed.
  Lemma json_jloads s : is_json s -> exists v, jloads float_repr s = Ok v.
  Proof using.
    intros (w1 & b & w2 & B1 & B2 & V & ->). apply takes in V. unfold jloads. rewrite skip_blank by exact B1. rewrite (skip_taken _ _ V).
    destruct (proj2 V w2 (S (2 * List.length (w1 ++ b ++ w2)))) as (v & ->); [now apply ends_blank|rewrite !app_length; lia|]. rewrite skip_all by exact B2. eauto.
  Qed.
End Complete.
