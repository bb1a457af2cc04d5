(** json.dumps writes JSON and json.loads reads it. *)
From Coq Require Import ZArith String List Bool Lia Permutation Sorting.Sorted.
From Verif Require Import PyBase BaseLemmas Cluster Json Zookeeper SpecJson JsonProofs ZkProofs ZkAlloc JsonValues SpecJsonValues.
Import ListNotations.
Open Scope Z_scope.
Set Default Proof Using "Type".

(** ** numbers *)
Definition nodigit (r : text) : Prop := match r with [] => True | c :: _ => ~ digit c end.
Definition ends (r : text) : Prop := match r with [] => True | c :: _ => In c [32; 9; 10; 13; 44; 93; 125] end.
Lemma digitb c : ((48 <=? c) && (c <=? 57))%bool = true <-> digit c.
Proof. unfold digit. rewrite andb_true_iff, !Z.leb_le. tauto. Qed.
Lemma span_all d r : Forall digit d -> nodigit r -> span_digits (d ++ r) = (d, r).
Proof.
  induction 1 as [|c d D F IH]; intros N; cbn [app span_digits].
  - destruct r as [|c r]; [reflexivity|]. cbn [span_digits]. destruct ((48 <=? c) && (c <=? 57)) eqn:E; [apply digitb in E; contradiction|reflexivity].
  - rewrite (proj2 (digitb c) D), IH by exact N. reflexivity.
Qed.
Lemma scan_natural s r : natural s -> nodigit r -> scan_int (s ++ r) = Some (s, r).
Proof.
  intros [[NE D] [->|(c & q & -> & N)]] R; [reflexivity|]. inversion D as [|? ? Dc Dq]; subst. cbn [app scan_int]. rewrite (proj2 (Z.eqb_neq c 48) N).
  unfold digit in Dc. replace ((49 <=? c) && (c <=? 57)) with true by (symmetry; apply andb_true_iff; lia). now rewrite span_all.
Qed.
Lemma digits_number s : Forall digit s -> forall a, digits a s = Some (fold_left (fun a c => 10 * a + (c - 48)) s a).
Proof.
  induction 1 as [|c s D F IH]; intros a; [reflexivity|]. cbn [digits fold_left]. rewrite (proj2 (digitb c) D), IH. do 2 f_equal. lia.
Qed.
Lemma ends_nodigit r : ends r -> nodigit r.
Proof. destruct r as [|c r]; [auto|]. unfold ends, nodigit, digit. cbn [In]. intuition lia. Qed.
Lemma frac_none r : match r with 46 :: _ => False | _ => True end -> scan_frac r = ([], r).
Proof.
  unfold scan_frac, eat. destruct r as [|c r]; [reflexivity|]. intros H. destruct (Z.eqb_spec c 46) as [->|]; [destruct H|reflexivity].
Qed.
Lemma frac_some f r : fraction f -> nodigit r -> scan_frac (f ++ r) = (f, r).
Proof.
  intros (d & [NE D] & ->) N. unfold scan_frac. cbn [app eat]. change (46 =? 46) with true. cbv iota. rewrite span_all by assumption. destruct d; [congruence|reflexivity].
Qed.
Lemma exp_none r : match r with c :: _ => c <> 101 /\ c <> 69 | [] => True end -> scan_exp r = ([], r).
Proof.
  destruct r as [|c r]; [reflexivity|]. intros [H1 H2]. cbn [scan_exp]. now rewrite (proj2 (Z.eqb_neq _ _) H1), (proj2 (Z.eqb_neq _ _) H2).
Qed.
Lemma exp_some e r : exponent e -> nodigit r -> scan_exp (e ++ r) = (e, r).
Proof.
  intros (c & sg & d & C & SG & [NE D] & ->) N. cbn [app scan_exp]. replace ((c =? 101) || (c =? 69)) with true by (destruct C; subst; reflexivity).
  assert (E : match (sg ++ d) ++ r with x :: r' => if (x =? 43) || (x =? 45) then ([x], r') else ([], (sg ++ d) ++ r) | [] => ([], (sg ++ d) ++ r) end = (sg, d ++ r)).
  { destruct SG as [->|[->| ->]]; cbn [app]; try reflexivity. destruct d as [|x d]; [congruence|]. cbn [app]. inversion D as [|? ? Dx _]; subst. unfold digit in Dx.
    replace ((x =? 43) || (x =? 45)) with false; [reflexivity|]. symmetry. apply orb_false_iff. split; apply Z.eqb_neq; lia. }
  rewrite E. rewrite span_all by assumption. destruct d; [congruence|reflexivity].
Qed.
Lemma exp_head e r : exponent e -> match e ++ r with c :: _ => c = 101 \/ c = 69 | [] => False end.
Proof. intros (c & sg & d & C & _ & _ & ->). exact C. Qed.
Lemma natural_no_minus s : natural s -> forall r, eat 45 (s ++ r) = None.
Proof.
  intros [[NE D] _] r. destruct s as [|c s]; [congruence|]. inversion D as [|? ? Dc _]; subst. unfold digit in Dc. cbn [app eat]. now rewrite (proj2 (Z.eqb_neq c 45)) by lia.
Qed.

  Lemma ends_after w c r : blank w -> In c [44; 93; 125] -> ends (w ++ c :: r).
  Proof.
    intros B C. destruct w as [|x w]; cbn [app ends]; [cbn [In] in *; intuition lia|]. specialize (B x (or_introl eq_refl)). cbn [In]. intuition lia.
  Qed.
  Lemma ends_blank w : blank w -> ends w.
  Proof. intros B. destruct w as [|x w]; [exact Logic.I|]. specialize (B x (or_introl eq_refl)). cbn. intuition lia. Qed.
  Lemma skip_to w c r : blank w -> In c [44; 93; 125; 34; 58] -> skip_ws (w ++ c :: r) = c :: r.
  Proof. intros B C. rewrite skip_blank by exact B. cbn [In] in C. repeat (destruct C as [<-|C]; [reflexivity|]). destruct C. Qed.
  Lemma fold_dset (d : list (text * jv)) : forall acc, NoDup (map fst (acc ++ d)) -> fold_left (fun m kv => dset m (fst kv) (snd kv)) d acc = acc ++ d.
  Proof.
    induction d as [|[k v] d IH]; intros acc N; cbn [fold_left]; [now rewrite app_nil_r|]. cbn [fst snd].
    assert (D : dget acc k = None).
    { apply dget_None_notin. intros I. rewrite map_app in N. cbn [map fst] in N. apply NoDup_remove_2 in N. apply N, in_or_app. left. exact I. }
    rewrite dset_new by exact D. rewrite IH; rewrite <- app_assoc; cbn [app]; [reflexivity|exact N].
  Qed.
  Lemma number_start z i : integer z i -> exists c q, i = c :: q /\ (c = 45 \/ digit c).
  Proof. intros [s [[NE D] _]|s N]; [|eauto]. destruct s as [|c s]; [congruence|]. inversion D; subst. eauto. Qed.

Section Reads.
  Variable float_repr : text -> text.
  Notation scan_number := (scan_number float_repr).
  Notation scan_val := (scan_val float_repr).
  Notation scan_vals := (scan_vals float_repr).
  Notation scan_members := (scan_members float_repr).
  Notation json_value := (json_value float_repr).
  Notation json_values := (json_values float_repr).
  Notation json_members := (json_members float_repr).
  Notation json_member := (json_member float_repr).

  Lemma scan_integer z s r : integer z s -> ends r -> scan_number (s ++ r) = Some (JInt z, r).
  Proof.
    intros I R. pose proof (ends_nodigit _ R) as ND.
    assert (F : scan_frac r = ([], r)) by (apply frac_none; destruct r as [|c r]; [exact Logic.I|]; unfold ends in R; cbn [In] in R; destruct (Z.eq_dec c 46) as [->|N]; [intuition lia|]; destruct c as [|p|p]; try exact Logic.I; do 6 (destruct p as [p|p|]; try exact Logic.I); congruence).
    assert (X : scan_exp r = ([], r)) by (apply exp_none; destruct r as [|c r]; [exact Logic.I|]; unfold ends in R; cbn [In] in R; intuition lia).
    destruct I as [s N|s N]; unfold JsonValues.scan_number.
    - rewrite natural_no_minus by exact N. rewrite scan_natural by assumption. rewrite F, X. cbn [app]. rewrite digits_number by apply N. reflexivity.
    - cbn [app eat]. change (45 =? 45) with true. cbv iota beta. rewrite scan_natural by assumption. rewrite F, X. cbn [app]. rewrite digits_number by apply N. reflexivity.
  Qed.
  Lemma scan_floating s r : floating s -> ends r -> scan_number (s ++ r) = Some (JFloat (float_repr s), r).
  Proof.
    intros (z & i & f & e & I & -> & H) R. pose proof (ends_nodigit _ R) as ND.
    assert (X : scan_exp r = ([], r)) by (apply exp_none; destruct r as [|c r]; [exact Logic.I|]; unfold ends in R; cbn [In] in R; intuition lia).
    assert (G : exists q, f ++ e ++ r = q /\ nodigit q /\ scan_frac q = (f, e ++ r) /\ scan_exp (e ++ r) = (e, r) /\ f ++ e <> []).
    { eexists. split; [reflexivity|]. destruct H as [[F ->]|[[-> E]|[F E]]].
      - cbn [app]. repeat split; [destruct F as (d & _ & ->); cbn; unfold digit; lia|now apply frac_some|exact X|destruct F as (d & _ & ->); discriminate].
      - pose proof (exp_head _ r E) as EH. cbn [app]. repeat split; [destruct (e ++ r); [exact Logic.I|]; unfold nodigit, digit; lia| |now apply exp_some|destruct E as (? & ? & ? & _ & _ & _ & ->); discriminate].
        apply frac_none. destruct (e ++ r) as [|c q]; [exact Logic.I|]. destruct EH as [->| ->]; exact Logic.I.
      - pose proof (exp_head _ r E) as EH. repeat split; [destruct F as (d & _ & ->); cbn; unfold digit; lia| |now apply exp_some|destruct F as (d & _ & ->); discriminate].
        apply frac_some; [exact F|]. destruct (e ++ r); [exact Logic.I|]. unfold nodigit, digit. lia. }
    destruct G as (q & Eq & NQ & GF & GE & NE). rewrite <- !app_assoc, Eq. unfold JsonValues.scan_number.
    destruct I as [s N|s N].
    - rewrite natural_no_minus by exact N. rewrite scan_natural by assumption. rewrite GF, GE. destruct (f ++ e) eqn:FE; [congruence|]. reflexivity.
    - cbn [app eat]. change (45 =? 45) with true. cbv iota beta. rewrite scan_natural by assumption. rewrite GF, GE. destruct (f ++ e) eqn:FE; [congruence|]. reflexivity.
  Qed.
  Lemma value_head v s : json_value v s -> exists c q, s = c :: q /\ ~ In c [32; 9; 10; 13; 93; 125].
  Proof.
    intros V. destruct V as [| | |z s I|s (z & i & f & e & I & -> & _)|t s (b & _ & ->)| | | | |r w N]; try (eexists _, _; split; [reflexivity|cbn; intuition discriminate]).
    - destruct (number_start _ _ I) as (c & q & -> & D). exists c, q. split; [reflexivity|]. unfold digit in D. cbn. intuition lia.
    - destruct (number_start _ _ I) as (c & q & -> & D). exists c, (q ++ f ++ e). split; [reflexivity|]. unfold digit in D. cbn. intuition lia.
    - cbn [float_names In] in N. destruct N as [N|[N|[N|[]]]]; injection N as _ <-; (eexists _, _; split; [reflexivity|cbn; intuition discriminate]).
  Qed.
  Lemma skip_value v s r : json_value v s -> skip_ws (s ++ r) = s ++ r.
  Proof.
    intros V. destruct (value_head _ _ V) as (c & q & -> & N). cbn [app skip_ws]. cbn [In] in N.
    replace ((c =? 32) || (c =? 9) || (c =? 10) || (c =? 13)) with false; [reflexivity|]. symmetry. rewrite !orb_false_iff, !Z.eqb_neq. intuition lia.
  Qed.
  Lemma scan_number_branch c q f r : c = 45 \/ digit c -> scan_val (S f) ((c :: q) ++ r) = scan_other float_repr ((c :: q) ++ r).
  Proof.
    intros H. assert (N : c <> 34 /\ c <> 123 /\ c <> 91 /\ c <> 110 /\ c <> 116 /\ c <> 102) by (unfold digit in H; lia). destruct N as (N1 & N2 & N3 & N4 & N5 & N6).
    cbn [app JsonValues.scan_val]. rewrite (proj2 (Z.eqb_neq _ _) N1), (proj2 (Z.eqb_neq _ _) N2), (proj2 (Z.eqb_neq _ _) N3).
    assert (W : forall x w, c <> x -> eat_word (x :: w) (c :: q ++ r) = None) by (intros x w N; cbn [eat_word eat]; now rewrite (proj2 (Z.eqb_neq _ _) N)).
    change (txt "null") with [110; 117; 108; 108]. change (txt "true") with [116; 114; 117; 101]. change (txt "false") with [102; 97; 108; 115; 101].
    now rewrite !W by assumption.
  Qed.

  Scheme value_ind' := Minimality for SpecJsonValues.json_value Sort Prop
    with values_ind' := Minimality for SpecJsonValues.json_values Sort Prop
    with members_ind' := Minimality for SpecJsonValues.json_members Sort Prop
    with member_ind' := Minimality for SpecJsonValues.json_member Sort Prop.

  Lemma scan_members_S f s : scan_members (S f) s =
    match eat 34 (skip_ws s) with
    | None => None
    | Some q => match scan_string (S (length q)) q with
      | None => None
      | Some (k, r1) => match eat 58 (skip_ws r1) with
        | None => None
        | Some r2 => match scan_val f (skip_ws r2) with
          | None => None
          | Some (v, r3) =>
              match eat 44 (skip_ws r3), eat 125 (skip_ws r3) with
              | Some r4, _ => match scan_members f r4 with Some (d, r5) => Some ((k, v) :: d, r5) | None => None end
              | None, Some r4 => Some ([(k, v)], r4)
              | None, None => None
              end
          end
        end
      end
    end.
  Proof. reflexivity. Qed.
  Definition reads_value (v : jv) (s : text) : Prop := forall r fuel, ends r -> (2 * length s + 1 <= fuel)%nat -> scan_val fuel (s ++ r) = Some (v, r).
  Definition reads_values (vs : list jv) (s : text) : Prop := vs <> [] /\ (forall r, eat 93 (skip_ws (s ++ r)) = None) /\
    forall r fuel, (2 * length s + 2 <= fuel)%nat -> scan_vals fuel (s ++ 93 :: r) = Some (vs, r).
  Definition reads_members (d : list (text * jv)) (s : text) : Prop := (forall r, eat 125 (skip_ws (s ++ r)) = None) /\
    forall r fuel, (2 * length s + 2 <= fuel)%nat -> scan_members fuel (s ++ 125 :: r) = Some (d, r).
  Definition reads_member (k : text) (v : jv) (m : text) : Prop := (forall r, eat 125 (skip_ws (m ++ r)) = None) /\
    forall c r f, c = 44 \/ c = 125 -> (2 * length m + 1 <= f)%nat -> exists q r1 r2 r3,
      eat 34 (skip_ws (m ++ c :: r)) = Some q /\ scan_string (S (length q)) q = Some (k, r1) /\ eat 58 (skip_ws r1) = Some r2 /\
      scan_val f (skip_ws r2) = Some (v, r3) /\ skip_ws r3 = c :: r.
  Lemma reads v s : json_value v s -> reads_value v s.
  Proof.
    apply (value_ind' float_repr reads_value reads_values reads_members reads_member); clear v s.
    - intros r [|f] R L; [lia|]. reflexivity.
    - intros r [|f] R L; [lia|]. reflexivity.
    - intros r [|f] R L; [lia|]. reflexivity.
    - intros z s I r [|f] R L; [lia|]. destruct (number_start _ _ I) as (c & q & E & D). rewrite E, scan_number_branch by exact D. rewrite <- E. unfold scan_other. now rewrite (scan_integer _ _ _ I).
    - intros s F r [|f] R L; [lia|]. pose proof F as F'. destruct F' as (z & i & fr & e & I & E & _). destruct (number_start _ _ I) as (c & q & Ei & D).
      rewrite Ei in E. cbn [app] in E. rewrite E, scan_number_branch by exact D. rewrite <- E. unfold scan_other. now rewrite scan_floating.
    - intros t s (b & (parts & F & ->) & ->) r [|f] R L; [lia|]. cbn [app JsonValues.scan_val]. change (34 =? 34) with true. cbv iota. rewrite <- app_assoc. cbn [app].
      rewrite (scan_string_complete _ _ _ F) by (rewrite app_length; lia). reflexivity.
    - intros b B r [|f] R L; [lia|]. cbn [app JsonValues.scan_val]. change (91 =? 34) with false. change (91 =? 123) with false. change (91 =? 91) with true. cbv iota.
      rewrite <- app_assoc. cbn [app]. rewrite skip_to by (cbn; tauto). reflexivity.
    - intros vs s _ (NE & E & H) r [|f] R L; [lia|]. cbn [app JsonValues.scan_val]. change (91 =? 34) with false. change (91 =? 123) with false. change (91 =? 91) with true. cbv iota.
      rewrite <- app_assoc. cbn [app]. rewrite E. rewrite H by (cbn [length] in L; rewrite app_length in L; cbn [length] in L; lia). reflexivity.
    - intros b B r [|f] R L; [lia|]. cbn [app JsonValues.scan_val]. change (123 =? 34) with false. change (123 =? 123) with true. cbv iota.
      rewrite <- app_assoc. cbn [app]. rewrite skip_to by (cbn; tauto). reflexivity.
    - intros d s N _ (E & H) r [|f] R L; [lia|]. cbn [app JsonValues.scan_val]. change (123 =? 34) with false. change (123 =? 123) with true. cbv iota.
      rewrite <- app_assoc. cbn [app]. rewrite E. rewrite H by (cbn [length] in L; rewrite app_length in L; cbn [length] in L; lia). now rewrite fold_dset.
    - intros x w N r [|f] R L; [lia|]. cbn [float_names In] in N. destruct N as [N|[N|[N|[]]]]; injection N as <- <-; reflexivity.
    - (* one value *) intros v s w1 w2 V IV B1 B2. split; [discriminate|]. split.
      + intros r. rewrite <- !app_assoc. rewrite skip_blank by exact B1. rewrite (skip_value _ _ _ V). destruct (value_head _ _ V) as (c & q & -> & N). cbn [app eat]. now rewrite (proj2 (Z.eqb_neq c 93)) by (cbn in N; intuition lia).
      + intros r [|f] L; [lia|]. cbn [JsonValues.scan_vals]. rewrite <- !app_assoc. rewrite skip_blank by exact B1. rewrite (skip_value _ _ _ V).
        rewrite IV; [|apply ends_after; [exact B2|cbn; tauto]|rewrite !app_length in L; lia]. rewrite skip_to by (first [exact B2|cbn; tauto]). reflexivity.
    - (* more values *) intros v vs s r w1 w2 V IV B1 B2 _ (NE & E & H). split; [discriminate|]. split.
      + intros r'. rewrite <- !app_assoc. rewrite skip_blank by exact B1. rewrite (skip_value _ _ _ V). destruct (value_head _ _ V) as (c & q & -> & N). cbn [app eat]. now rewrite (proj2 (Z.eqb_neq c 93)) by (cbn in N; intuition lia).
      + intros r' [|f] L; [lia|]. rewrite !app_length in L. cbn [length] in L. cbn [JsonValues.scan_vals]. rewrite <- !app_assoc. rewrite skip_blank by exact B1. rewrite (skip_value _ _ _ V). cbn [app].
        rewrite IV; [|apply ends_after; [exact B2|cbn; tauto]|lia]. rewrite skip_to by (first [exact B2|cbn; tauto]). cbn [eat]. change (44 =? 44) with true. cbv iota.
        now rewrite H by lia.
    - (* one member *) intros k v m _ (E & H). split; [exact E|]. intros r [|f] L; [lia|]. rewrite scan_members_S.
      destruct (H 125 r f) as (q & r1 & r2 & r3 & X1 & X2 & X3 & X4 & X5); [now right|lia|]. now rewrite X1, X2, X3, X4, X5.
    - (* more members *) intros k v d m r _ (E & H) _ (E2 & H2). split; [intros r'; rewrite <- app_assoc; apply E|]. intros r' [|f] L; [lia|]. rewrite app_length in L. cbn [length] in L. rewrite scan_members_S.
      rewrite <- app_assoc. cbn [app]. destruct (H 44 (r ++ 125 :: r') f) as (q & r1 & r2 & r3 & X1 & X2 & X3 & X4 & X5); [now left|lia|]. rewrite X1, X2, X3, X4, X5. cbn [eat]. change (44 =? 44) with true. cbv iota.
      now rewrite H2 by lia.
    - (* a member *) intros k ks v s w1 w2 w3 w4 (b & (parts & F & ->) & ->) V IV B1 B2 B3 B4.
      assert (SH : forall x, ((w1 ++ (34 :: concat parts ++ [34]) ++ w2) ++ 58 :: w3 ++ s ++ w4) ++ x = w1 ++ 34 :: concat parts ++ 34 :: w2 ++ 58 :: w3 ++ s ++ w4 ++ x).
      { intros x. repeat (rewrite <- ?app_assoc; cbn [app]). reflexivity. }
      split.
      + intros r. rewrite SH. rewrite skip_to by (first [exact B1|cbn; tauto]). reflexivity.
      + intros c r f C L. rewrite SH. rewrite skip_to by (first [exact B1|cbn; tauto]). eexists _, _, _, _. split; [reflexivity|].
        split; [apply (scan_string_complete _ _ _ F); rewrite app_length; lia|]. rewrite skip_to by (first [exact B2|cbn; tauto]). split; [reflexivity|].
        rewrite skip_blank by exact B3. rewrite (skip_value _ _ _ V). split.
        * apply IV; [apply ends_after; [exact B4|cbn; intuition]|]. rewrite !app_length in L. cbn [length] in L. rewrite !app_length in L. lia.
        * apply skip_to; [exact B4|cbn; intuition].
  Qed.
  Theorem jloads_reads v s : json_text float_repr v s -> jloads float_repr s = Ok v.
  Proof.
    intros (w1 & b & w2 & B1 & B2 & V & ->). unfold jloads. rewrite skip_blank by exact B1. rewrite (skip_value _ _ _ V).
    rewrite (reads _ _ V); [|now apply ends_blank|rewrite !app_length; lia]. now rewrite skip_all.
  Qed.
End Reads.

(** ** writing *)
Lemma jv_ind' (P : jv -> Prop) : P JNull -> (forall b, P (JBool b)) -> (forall z, P (JInt z)) -> (forall r, P (JFloat r)) -> (forall t, P (JStr t)) ->
  (forall l, Forall P l -> P (JList l)) -> (forall d, Forall (fun kv => P (snd kv)) d -> P (JDict d)) -> forall v, P v.
Proof.
  intros H1 H2 H3 H4 H5 H6 H7. fix IH 1. intros [|b|z|r|t|l|d]; [exact H1|apply H2|apply H3|apply H4|apply H5|apply H6|apply H7].
  - induction l as [|x l IL]; constructor; [apply IH|exact IL].
  - induction d as [|[k x] d ID]; constructor; [apply IH|exact ID].
Qed.
Lemma insert_key_perm {A} (x : text * A) l : Permutation (insert_key x l) (x :: l).
Proof.
  induction l as [|y l IH]; cbn [insert_key]; [reflexivity|]. destruct (lex_leb (fst x) (fst y)); [reflexivity|]. rewrite IH. apply perm_swap.
Qed.
Lemma sort_keys_perm {A} (l : list (text * A)) : Permutation (sort_keys l) l.
Proof. induction l as [|x l IH]; [reflexivity|]. cbn [sort_keys]. rewrite insert_key_perm. now constructor. Qed.
Lemma sort_keys_same {A B} (R : A -> B -> Prop) (a : list (text * A)) (b : list (text * B)) : Forall2 (fun x y => fst x = fst y /\ R (snd x) (snd y)) a b ->
  Forall2 (fun x y => fst x = fst y /\ R (snd x) (snd y)) (sort_keys a) (sort_keys b).
Proof.
  assert (INS : forall x y a b, fst x = fst y /\ R (snd x) (snd y) -> Forall2 (fun x y => fst x = fst y /\ R (snd x) (snd y)) a b ->
    Forall2 (fun x y => fst x = fst y /\ R (snd x) (snd y)) (insert_key x a) (insert_key y b)).
  { clear. intros x y a b XY F. induction F as [|p q a b PQ F IH]; cbn [insert_key]; [now repeat constructor|]. destruct XY as [X1 X2], PQ as [P1 P2]. rewrite <- X1, <- P1.
    destruct (lex_leb (fst x) (fst p)); [constructor; [now split|constructor; [now split|exact F]]|]. constructor; [now split|exact IH]. }
  induction 1 as [|x y a b XY F IH]; cbn [sort_keys]; [constructor|]. now apply INS.
Qed.
(** sorting again changes nothing *)
Lemma insert_first {A} (x : text * A) l : Forall (fun y => lex_leb (fst x) (fst y) = true) l -> insert_key x l = x :: l.
Proof. destruct 1 as [|y l E F]; [reflexivity|]. cbn [insert_key]. now rewrite E. Qed.
Definition ascending {A} (l : list (text * A)) : Prop := StronglySorted (fun x y => lex_leb (fst x) (fst y) = true) l.
Lemma insert_ascending {A} (x : text * A) l : ascending l -> ascending (insert_key x l).
Proof.
  unfold ascending. induction 1 as [|y l S IH F]; [repeat constructor|]. cbn [insert_key]. destruct (lex_leb (fst x) (fst y)) eqn:E.
  - constructor; [now constructor|]. constructor; [exact E|]. rewrite Forall_forall in *. intros z Hz. now apply (lex_trans (fst x) (fst y) (fst z)), F.
  - constructor; [exact IH|]. rewrite Forall_forall in *. intros z Hz. apply (Permutation_in _ (insert_key_perm x l)) in Hz as [<-|Hz]; [|now apply F].
    destruct (lex_total (fst x) (fst y)) as [H|H]; [congruence|exact H].
Qed.
Lemma sort_ascending {A} (l : list (text * A)) : ascending (sort_keys l).
Proof. induction l as [|x l IH]; [constructor|]. now apply insert_ascending. Qed.
Lemma sort_sorted {A} (l : list (text * A)) : ascending l -> sort_keys l = l.
Proof. unfold ascending. induction 1 as [|x l S IH F]; [reflexivity|]. cbn [sort_keys]. rewrite IH. now apply insert_first. Qed.
Lemma sort_map {A B} (f : A -> B) (l : list (text * A)) : sort_keys (map (fun kv => (fst kv, f (snd kv))) l) = map (fun kv => (fst kv, f (snd kv))) (sort_keys l).
Proof.
  assert (INS : forall x l, insert_key (fst x, f (snd x)) (map (fun kv => (fst kv, f (snd kv))) l) = map (fun kv => (fst kv, f (snd kv))) (insert_key x l)).
  { clear l. intros x l. induction l as [|y l IH]; [reflexivity|]. cbn [map insert_key fst]. destruct (lex_leb (fst x) (fst y)); [reflexivity|]. cbn [map]. now rewrite IH. }
  induction l as [|x l IH]; [reflexivity|]. cbn [map sort_keys]. now rewrite IH, INS.
Qed.
Lemma jchar_written c : scalar c -> written c (jchar c).
Proof.
  intros S. pose proof S as [R N]. unfold jchar.
  destruct (Z.eqb_spec c 92) as [->|N1]; [apply W_short; cbn; tauto|]. destruct (Z.eqb_spec c 34) as [->|N2]; [apply W_short; cbn; tauto|].
  destruct (Z.eqb_spec c 8) as [->|N3]; [apply W_short; cbn; tauto|]. destruct (Z.eqb_spec c 12) as [->|N4]; [apply W_short; cbn; tauto|].
  destruct (Z.eqb_spec c 10) as [->|N5]; [apply W_short; cbn; tauto|]. destruct (Z.eqb_spec c 13) as [->|N6]; [apply W_short; cbn; tauto|].
  destruct (Z.eqb_spec c 9) as [->|N7]; [apply W_short; cbn; tauto|].
  assert (HD : forall n, 0 <= n < 16 -> hex_digit (hexd n) n) by (intros n Hn; apply unhex_spec, unhex_hexd, Hn).
  assert (HX : forall n, 0 <= n < 65536 -> four_hex n (u_escape n)).
  { intros n Hn. pose proof (take_hex4 n [] Hn) as T. rewrite app_nil_r in T. destruct (take_hex_sound _ _ _ T) as (h & E & F & _). rewrite app_nil_r in E. unfold u_escape. rewrite E. exact F. }
  destruct ((32 <=? c) && (c <=? 126)) eqn:P.
  - apply andb_true_iff in P as [P1 P2]. apply Z.leb_le in P1, P2. now apply W_plain.
  - destruct (Z.ltb_spec c 65536); [apply W_hex; [exact S|lia|apply HX; lia]|].
    assert (D : 0 <= (c - 65536) / 1024 < 1024) by (split; [apply Z.div_pos; lia|apply Z.div_lt_upper_bound; lia]).
    assert (L : 0 <= (c - 65536) mod 1024 < 1024) by (apply Z.mod_pos_bound; lia). pose proof (Z.div_mod (c - 65536) 1024 ltac:(lia)).
    rewrite (Z.mod_small ((c - 65536) / 1024)) by exact D.
    eapply W_pair; [exact S| | | |apply HX|apply HX]; try lia.
Qed.
Lemma jstring_quoted t : clean t -> quoted t (jstring t).
Proof.
  intros C. exists (flat_map jchar t). split; [|reflexivity]. exists (map jchar t). split; [|apply flat_map_concat_map].
  induction t as [|c t IH]; cbn [map]; constructor; [apply jchar_written, C; now left|]. apply IH. intros x Hx. apply C. now right.
Qed.
Lemma dec_natural n : 0 <= n -> natural (dec_digits (dec_fuel n) n []) /\ number (dec_digits (dec_fuel n) n []) = n.
Proof.
  intros N. destruct (fuel_enough n N) as [B F]. pose proof (dec_digits_value _ n N B F) as V.
  assert (D : Forall digit (dec_digits (dec_fuel n) n [])) by (apply dec_digits_digit; [exact N|constructor]).
  split; [split; [split; [now apply dec_digits_nonempty|exact D]|]|].
  - assert (H : forall f m acc, 0 < m -> m < 2 ^ Z.of_nat f -> exists c r, dec_digits f m acc = c :: r /\ c <> 48).
    { induction f as [|f IH]; intros m acc Hm Hb; [cbn in Hb; lia|]. cbn [dec_digits]. pose proof (Z.mod_pos_bound m 10 ltac:(lia)). pose proof (Z.div_mod m 10 ltac:(lia)).
      destruct (Z.eqb_spec (m / 10) 0) as [E|E]; [exists (48 + m mod 10), acc; split; [reflexivity|lia]|]. pose proof (Z.div_pos m 10). apply IH; [lia|].
      rewrite Nat2Z.inj_succ, Z.pow_succ_r in Hb by lia. apply Z.div_lt_upper_bound; lia. }
    destruct (Z.eq_dec n 0) as [->|NZ]; [left; reflexivity|right]. apply H; [lia|exact B].
  - rewrite digits_number in V by exact D. now injection V.
Qed.
Lemma str_of_int_integer z : integer z (str_of_int z).
Proof.
  unfold str_of_int. destruct (Z.ltb_spec z 0).
  - destruct (dec_natural (- z)) as [N V]; [lia|]. rewrite dec_fuel_opp in *. replace z with (- number (dec_digits (dec_fuel z) (- z) [])) at 1 by lia. now constructor.
  - destruct (dec_natural z) as [N V]; [lia|]. rewrite <- V at 1. now constructor.
Qed.

Section Writes.
  Variable float_repr : text -> text.
  Lemma comma_values vs ss : Forall2 (json_value float_repr) vs ss -> vs <> [] -> forall w, blank w -> json_values float_repr vs (w ++ comma ss).
  Proof.
    induction 1 as [|v s vs ss V F IH]; intros NE w B; [congruence|]. assert (B0 : blank []) by (intros x []). destruct F as [|v' s' vs ss V' F].
    - cbn [comma]. rewrite <- (app_nil_r s). now apply VS_one.
    - change (comma (s :: s' :: ss)) with (s ++ [44; 32] ++ comma (s' :: ss)). replace (w ++ s ++ [44; 32] ++ comma (s' :: ss)) with ((w ++ s ++ []) ++ 44 :: [32] ++ comma (s' :: ss)) by (rewrite app_nil_r, <- app_assoc; reflexivity).
      apply VS_more; [exact V|exact B|exact B0|]. apply IH; [discriminate|]. intros x [<-|[]]. now left.
  Qed.
  Lemma comma_members d ts : Forall2 (fun kv kt => fst kv = fst kt /\ json_value float_repr (snd kv) (snd kt)) d ts -> Forall (fun kv => clean (fst kv)) d -> d <> [] ->
    forall w, blank w -> json_members float_repr d (w ++ comma (map (fun kt => jstring (fst kt) ++ [58; 32] ++ snd kt) ts)).
  Proof.
    induction 1 as [|[k v] [k' s] d ts [E V] F IH]; intros C NE w B; [congruence|]. cbn [fst snd] in *. subst k'. inversion C as [|? ? Ck C']; subst. cbn [fst] in Ck.
    assert (B0 : blank []) by (intros x []). assert (B1 : blank [32]) by (intros x [<-|[]]; now left).
    assert (M : json_member float_repr k v (w ++ jstring k ++ [58; 32] ++ s)).
    { replace (w ++ jstring k ++ [58; 32] ++ s) with ((w ++ jstring k ++ []) ++ 58 :: [32] ++ s ++ []) by (rewrite !app_nil_r, <- app_assoc; reflexivity).
      apply MS; try assumption. now apply jstring_quoted. }
    destruct F as [|[k2 v2] [k2' s2] d ts E2 F].
    - cbn [map comma fst snd]. now apply MS_one.
    - assert (EQ : forall x y l, comma (x :: y :: l) = x ++ [44; 32] ++ comma (y :: l)) by reflexivity.
      cbn [map fst snd] in *. rewrite EQ.
      assert (EE : forall tl, w ++ (jstring k ++ [58; 32] ++ s) ++ [44; 32] ++ tl = (w ++ jstring k ++ [58; 32] ++ s) ++ 44 :: [32] ++ tl) by (intros tl; rewrite <- !app_assoc; reflexivity).
      rewrite EE.
      apply MS_more; [exact M|]. apply IH; [exact C'|discriminate|exact B1].
  Qed.
  Lemma float_text_plain r : floating r -> float_text r = r.
  Proof using.
    intros (z & i & f & e & I & -> & _). unfold float_text. assert (H : exists c q, i = c :: q /\ (digit c \/ c = 45 /\ exists d q', q = d :: q' /\ digit d)).
    { destruct I as [s ((NE & F) & _)|s ((NE & F) & _)]; destruct s as [|d q]; try congruence; inversion F; subst; [exists d, q; auto|exists 45, (d :: q); split; [reflexivity|]; right; eauto]. }
    destruct H as (c & q & -> & H). cbn [app]. assert (N : forall w, match w with a :: b :: _ => c <> a \/ exists d q', q = d :: q' /\ d <> b | _ => False end -> eqb (c :: q ++ f ++ e) w = false).
    { intros w Hw. destruct (eqb (c :: q ++ f ++ e) w) eqn:E; [|reflexivity]. apply list_eqb_spec in E. subst w. destruct q as [|d q]; cbn [app] in Hw.
      - destruct (f ++ e); [destruct Hw|]. destruct Hw as [Hw|(d & q' & X & _)]; [congruence|discriminate X].
      - destruct Hw as [Hw|(d' & q' & X & Hw)]; [congruence|]. injection X as -> ->. congruence. }
    unfold digit in H. change (txt "nan") with [110; 97; 110]. change (txt "inf") with [105; 110; 102]. change (txt "-inf") with [45; 105; 110; 102].
    rewrite !N; [reflexivity| | |]; destruct H as [H|(-> & d & q' & -> & H)]; try (left; lia); right; exists d, q'; split; [reflexivity|lia].
  Qed.
  Lemma float_text_name r w : In (r, w) float_names -> float_text r = w.
  Proof using. intros H. cbn [float_names In] in H. destruct H as [H|[H|[H|[]]]]; injection H as <- <-; reflexivity. Qed.
  Theorem jdumps_writes v : sayable float_repr v -> exists w, equal v w /\ json_value float_repr w (jdumps v) /\ jdumps w = jdumps v.
  Proof.
    induction v as [|b|z|r|t|l IH|d IH] using jv_ind'; intros Y.
    - exists JNull. repeat split; constructor.
    - exists (JBool b). split; [constructor|]. split; [|reflexivity]. destruct b; constructor.
    - exists (JInt z). split; [constructor|]. split; [|reflexivity]. constructor. apply str_of_int_integer.
    - exists (JFloat r). split; [constructor|]. split; [|reflexivity]. inversion Y as [| | |? F E| | | |? w N]; subst; cbn [jdumps]; [rewrite (float_text_plain r F); rewrite <- E at 1; now constructor|]. apply V_name. rewrite (float_text_name r w N). exact N.
    - exists (JStr t). split; [constructor|]. split; [|reflexivity]. constructor. inversion Y; subst. now apply jstring_quoted.
    - inversion Y as [| | | | |? YL| |]; subst. assert (X : exists ws, Forall2 equal l ws /\ Forall2 (json_value float_repr) ws (map jdumps l) /\ map jdumps ws = map jdumps l).
      { clear Y. induction IH as [|v l H IH IHl]; [exists []; repeat split; constructor|]. inversion YL as [|? ? Yv Yl]; subst. destruct (H Yv) as (w & E & V & D). destruct (IHl Yl) as (ws & Es & Vs & Ds).
        exists (w :: ws). split; [now constructor|]. split; [now constructor|]. cbn [map]. now rewrite D, Ds. }
      destruct X as (ws & E & V & D). exists (JList ws). split; [now constructor|]. split; [|cbn [jdumps]; now rewrite D]. cbn [jdumps]. destruct E as [|v w l ws Ev E].
      + apply (V_no_list _ []). intros x [].
      + apply V_list. apply (comma_values _ _ V) with (w := []); [discriminate|intros x []].
    - inversion Y as [| | | | | |? ND YD|]; subst.
      assert (X : exists e, Forall2 (fun a b => fst a = fst b /\ equal (snd a) (snd b)) d e /\
        Forall2 (fun a b => fst a = fst b /\ json_value float_repr (snd a) (snd b)) e (map (fun kv => (fst kv, jdumps (snd kv))) d) /\ map fst e = map fst d /\
        map (fun kv => (fst kv, jdumps (snd kv))) e = map (fun kv => (fst kv, jdumps (snd kv))) d).
      { clear Y ND. induction IH as [|[k v] d H IH IHd]; [exists []; repeat split; constructor|]. inversion YD as [|? ? [_ Yv] Yd]; subst. cbn [snd] in *. destruct (H Yv) as (w & E & V & D).
        destruct (IHd Yd) as (e & Es & Vs & Ks & Ds). exists ((k, w) :: e). cbn [map fst]. repeat split; [constructor; [now split|exact Es]|constructor; [now split|exact Vs]|now rewrite Ks|cbn [snd]; now rewrite D, Ds]. }
      destruct X as (e & E & V & K & D). exists (JDict (sort_keys e)). split; [apply (Q_dict _ _ e); [symmetry; apply sort_keys_perm|exact E]|].
      split; [|cbn [jdumps]; rewrite sort_map, sort_sorted, <- sort_map, D by apply sort_ascending; reflexivity].
      pose proof (sort_keys_same _ _ _ V) as SV. cbn [jdumps].
      assert (NK : NoDup (map fst (sort_keys e))) by (eapply Permutation_NoDup; [apply Permutation_map; symmetry; apply sort_keys_perm|]; now rewrite K).
      assert (CK : Forall (fun kv : text * jv => clean (fst kv)) (sort_keys e)).
      { apply Forall_forall. intros [k w] I. cbn [fst]. assert (Ik : In k (map fst d)) by (rewrite <- K; apply in_map_iff; exists (k, w); split; [reflexivity|]; eapply Permutation_in; [apply sort_keys_perm|exact I]).
        apply in_map_iff in Ik as ([k' v] & Ek & I'). cbn [fst] in Ek. subst k'. rewrite Forall_forall in YD. exact (proj1 (YD _ I')). }
      destruct (sort_keys e) as [|x l] eqn:SE.
      + inversion SV as [HH|]. cbn [map comma app]. apply (V_no_dict _ []). intros y [].
      + apply V_dict; [exact NK|]. apply (comma_members _ _ SV CK) with (w := []); [discriminate|intros y []].
  Qed.
End Writes.
