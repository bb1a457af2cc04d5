(** Proofs about naive_allocator, rebalancing and partition names. *)
From Coq Require Import ZArith String List Bool Lia Permutation Sorting.Sorted.
From Verif Require Import PyBase BaseLemmas Cluster Iterables Zookeeper SpecZk ZkProofs.
Import ListNotations.
Open Scope Z_scope.
Set Default Proof Using "Type".

(** * str(int) and int(str) *)
Definition isdigit (c : Z) : Prop := 48 <= c <= 57.
Lemma dec_digits_acc fuel : forall n acc, dec_digits fuel n acc = dec_digits fuel n [] ++ acc.
Proof.
  induction fuel as [|f IH]; intros n acc; [reflexivity|]. cbn [dec_digits].
  destruct (n / 10 =? 0); [reflexivity|]. rewrite IH, (IH _ [_]), <- app_assoc. reflexivity.
Qed.
Lemma dec_digits_digit fuel : forall n acc, 0 <= n -> Forall isdigit acc -> Forall isdigit (dec_digits fuel n acc).
Proof.
  induction fuel as [|f IH]; intros n acc N A; [exact A|]. cbn [dec_digits].
  pose proof (Z.mod_pos_bound n 10 ltac:(lia)).
  assert (A' : Forall isdigit ((48 + n mod 10) :: acc)) by (constructor; [unfold isdigit; lia|exact A]).
  destruct (n / 10 =? 0); [exact A'|]. apply IH; [apply Z.div_pos; lia|exact A'].
Qed.
Lemma digits_app a b : forall acc x, digits acc a = Some x -> digits acc (a ++ b) = digits x b.
Proof.
  induction a as [|c a IH]; intros acc x H; cbn [app digits] in *; [now injection H as <-|].
  destruct ((48 <=? c) && (c <=? 57)); [now apply IH|discriminate].
Qed.
Lemma dec_digits_value fuel : forall n, 0 <= n -> (n < 2 ^ Z.of_nat fuel) -> (1 <= fuel)%nat -> digits 0 (dec_digits fuel n []) = Some n.
Proof.
  induction fuel as [|f IH]; intros n N B F; [lia|]. cbn [dec_digits]. pose proof (Z.mod_pos_bound n 10 ltac:(lia)) as M.
  pose proof (Z.div_mod n 10 ltac:(lia)) as DM.
  assert (ONE : forall acc, digits acc [48 + n mod 10] = Some (acc * 10 + n mod 10)).
  { intros acc. cbn [digits]. replace ((48 <=? 48 + n mod 10) && (48 + n mod 10 <=? 57)) with true by (symmetry; apply andb_true_iff; lia). f_equal. lia. }
  destruct (Z.eqb_spec (n / 10) 0) as [E|E].
  - rewrite ONE. f_equal. lia.
  - rewrite dec_digits_acc, (digits_app _ _ 0 (n / 10)).
    + rewrite ONE. f_equal. lia.
    + apply IH.
      * apply Z.div_pos; lia.
      * rewrite Nat2Z.inj_succ, Z.pow_succ_r in B by lia. apply Z.div_lt_upper_bound; lia.
      * destruct f; [|lia]. cbn in B. assert (n = 0 \/ n = 1) as [-> | ->] by lia; now elim E.
Qed.
Lemma fuel_enough n : 0 <= n -> n < 2 ^ Z.of_nat (dec_fuel n) /\ (1 <= dec_fuel n)%nat.
Proof.
  intros N. unfold dec_fuel. split; [|lia]. rewrite Nat2Z.inj_succ. rewrite Z.abs_eq by exact N.
  rewrite Z2Nat.id by apply Z.log2_nonneg. destruct (Z.eq_dec n 0) as [->|NZ]; [reflexivity|]. apply Z.log2_spec. lia.
Qed.
Lemma dec_fuel_opp n : dec_fuel (- n) = dec_fuel n.
Proof. unfold dec_fuel. now rewrite Z.abs_opp. Qed.
Lemma dec_digits_nonempty fuel n : (1 <= fuel)%nat -> dec_digits fuel n [] <> [].
Proof.
  intros F H. destruct fuel; [lia|]. cbn [dec_digits] in H. destruct (n / 10 =? 0); [discriminate|]. rewrite dec_digits_acc in H.
  now destruct (dec_digits fuel (n / 10) []).
Qed.
Lemma int_of_dec n : 0 <= n -> int_of_text (dec_digits (dec_fuel n) n []) = Ok n.
Proof.
  intros N. destruct (fuel_enough n N) as [B F]. unfold int_of_text. pose proof (dec_digits_nonempty (dec_fuel n) n F) as NE.
  destruct (dec_digits (dec_fuel n) n []) eqn:E; [congruence|]. rewrite <- E, dec_digits_value by assumption. reflexivity.
Qed.
Theorem py_int_str n : py_int (str_of_int n) = Ok n.
Proof.
  unfold str_of_int. destruct (Z.ltb_spec n 0) as [N|N].
  - cbn [py_int]. change (45 =? 45) with true. cbv iota. rewrite <- dec_fuel_opp, int_of_dec by lia. cbn [bind]. f_equal. lia.
  - pose proof (int_of_dec n N) as I. pose proof (dec_digits_digit (dec_fuel n) n [] N (Forall_nil _)) as D.
    destruct (dec_digits (dec_fuel n) n []) as [|c r]; [discriminate I|]. cbn [py_int]. inversion D as [|? ? Dc _]; subst. unfold isdigit in Dc.
    rewrite (proj2 (Z.eqb_neq c 45)), (proj2 (Z.eqb_neq c 43)) by lia. exact I.
Qed.
Lemma str_no_colon n : ~ In 58 (str_of_int n).
Proof.
  unfold str_of_int. destruct (Z.ltb_spec n 0) as [N|N]; intros H.
  - destruct H as [H|H]; [discriminate H|].
    pose proof (dec_digits_digit (dec_fuel n) (- n) [] ltac:(lia) (Forall_nil _)) as D. rewrite Forall_forall in D. specialize (D _ H). unfold isdigit in D. lia.
  - pose proof (dec_digits_digit (dec_fuel n) n [] N (Forall_nil _)) as D. rewrite Forall_forall in D. specialize (D _ H). unfold isdigit in D. lia.
Qed.
Lemma str_of_int_inj a b : str_of_int a = str_of_int b -> a = b.
Proof. intros E. pose proof (py_int_str a) as A. rewrite E, py_int_str in A. now injection A. Qed.
Lemma split_none t : ~ In 58 t -> split_colon t = [t].
Proof.
  induction t as [|c t IH]; intros N; [reflexivity|]. cbn [split_colon]. cbn in N.
  rewrite (proj2 (Z.eqb_neq c 58)) by (intros ->; tauto). now rewrite IH by tauto.
Qed.
Lemma split_one t s : no_colon t -> ~ In 58 s -> split_colon (t ++ 58 :: s) = [t; s].
Proof.
  unfold no_colon. induction t as [|c t IH]; intros N M; cbn [app split_colon].
  - now rewrite split_none.
  - cbn in N. rewrite (proj2 (Z.eqb_neq c 58)) by (intros ->; tauto). now rewrite IH by tauto.
Qed.
Lemma partition_string_name tp : partition_string tp = part_name (fst tp) (snd tp).
Proof. reflexivity. Qed.
Lemma split_partition t p : no_colon t -> split_colon (partition_string (t, p)) = [t; str_of_int p].
Proof. intros N. apply split_one; [exact N|apply str_no_colon]. Qed.
(** names determine topic and id, whatever the topic *)
Lemma last_colon a b s r : ~ In 58 s -> ~ In 58 r -> a ++ 58 :: s = b ++ 58 :: r -> a = b /\ s = r.
Proof.
  revert b. induction a as [|x a IH]; intros b S R E; destruct b as [|y b]; cbn [app] in E.
  - injection E as ->. auto.
  - injection E as <- E. exfalso. apply S. rewrite E. apply in_or_app. right. now left.
  - injection E as -> E. exfalso. apply R. rewrite <- E. apply in_or_app. right. now left.
  - injection E as <- E. destruct (IH b S R E) as [-> ->]. auto.
Qed.
Theorem part_name_inj t p t' p' : part_name t p = part_name t' p' -> t = t' /\ p = p'.
Proof.
  unfold part_name. cbn [app]. intros E. apply last_colon in E as [-> E]; [|apply str_no_colon|apply str_no_colon]. split; [reflexivity|]. now apply str_of_int_inj.
Qed.

(** * naive_allocator *)
Definition tab_gives (tab : mapping_tab) (m t : text) : list Z := gives_to (Mp true tab) m t.
Definition tab_load (tab : mapping_tab) (m : text) : nat := load (Mp true tab) m.
Lemma map_add_gives mp m t p m' t' :
  tab_gives (map_add mp m t p) m' t' = tab_gives mp m' t' ++ (if list_eqb m' m && list_eqb t' t then [p] else []).
Proof.
  unfold tab_gives, gives_to, map_add. cbn [mp_tab].
  destruct (list_eqb m' m) eqn:Em.
  - apply list_eqb_spec in Em. subst m'. rewrite dget_dset_same. cbn [andb].
    destruct (list_eqb t' t) eqn:Et.
    + apply list_eqb_spec in Et. subst t'. rewrite dget_dset_same. unfold ddefault.
      destruct (dget mp m) as [tm|] eqn:Gm; cbn [fst]; [|reflexivity]. destruct (dget tm t); reflexivity.
    + assert (N : t' <> t) by (intros ->; rewrite (proj2 (list_eqb_spec t t) eq_refl) in Et; discriminate).
      rewrite dget_dset_other by exact N. unfold ddefault. destruct (dget mp m) as [tm|] eqn:Gm; cbn [fst]; rewrite app_nil_r; reflexivity.
  - assert (N : m' <> m) by (intros ->; rewrite (proj2 (list_eqb_spec m m) eq_refl) in Em; discriminate).
    rewrite dget_dset_other by exact N. cbn [andb]. now rewrite app_nil_r.
Qed.
Lemma flat_dset (d : topic_map) t ps p : dget d t = Some ps \/ (dget d t = None /\ ps = []) ->
  length (flat_map snd (dset d t (ps ++ [p]))) = S (length (flat_map snd d)).
Proof.
  induction d as [|[t0 q] d IH]; intros H.
  - cbn [dget] in H. destruct H as [H|[_ ->]]; [discriminate H|reflexivity].
  - cbn [dget dset] in *. destruct (eqb t0 t).
    + destruct H as [H|[H _]]; [|discriminate H]. injection H as ->. cbn [flat_map snd]. rewrite !app_length. cbn [length]. lia.
    + cbn [flat_map snd]. rewrite !app_length, IH by exact H. lia.
Qed.
Lemma map_add_load mp m t p m' : tab_load (map_add mp m t p) m' = (tab_load mp m' + (if list_eqb m' m then 1 else 0))%nat.
Proof.
  unfold tab_load, load, map_add. cbn [mp_tab]. destruct (list_eqb m' m) eqn:Em.
  - apply list_eqb_spec in Em. subst m'. rewrite dget_dset_same.
    destruct (dget mp m) as [tm|] eqn:Gm.
    + assert (E : fst (@ddefault text topic_map _ [] mp m) = tm) by (unfold ddefault; now rewrite Gm). rewrite E.
      unfold ddefault. destruct (dget tm t) as [ps|] eqn:Gt; cbn [fst]; rewrite flat_dset by auto; lia.
    + assert (E : fst (@ddefault text topic_map _ [] mp m) = []) by (unfold ddefault; now rewrite Gm). rewrite E. reflexivity.
  - assert (N : m' <> m) by (intros ->; rewrite (proj2 (list_eqb_spec m m) eq_refl) in Em; discriminate).
    rewrite dget_dset_other by exact N. lia.
Qed.

(** what the loop does: the i-th pair goes to owner i *)
Definition owned (m t : text) (ops : list (text * (text * Z))) : list Z :=
  map (fun x => snd (snd x)) (filter (fun x => list_eqb m (fst x) && list_eqb t (fst (snd x))) ops).
Lemma allocate_spec members pairs : members <> [] -> (forall t p, In (t, p) pairs -> no_colon t) ->
  forall cur mp, incl cur members -> exists owners mp',
    allocate members cur (map partition_string pairs) mp = Ok mp' /\ length owners = length pairs /\ incl owners members /\
    forall m t, tab_gives mp' m t = tab_gives mp m t ++ owned m t (combine owners pairs).
Proof.
  intros NE. induction pairs as [|[t p] pairs IH]; intros NC cur mp IC.
  - exists [], mp. split; [reflexivity|]. split; [reflexivity|]. split; [intros x []|]. intros m t. cbn. now rewrite app_nil_r.
  - cbn [map allocate]. set (c := match cur with [] => members | _ => cur end).
    assert (IC' : incl c members) by (unfold c; destruct cur; [apply incl_refl|exact IC]).
    assert (NC' : c <> []) by (unfold c; destruct cur; [exact NE|discriminate]).
    destruct c as [|m cur']; [congruence|]. rewrite split_partition by (apply (NC t p); now left).
    rewrite py_int_str. cbn [bind].
    destruct (IH (fun t0 p0 H => NC t0 p0 (or_intror H)) cur' (map_add mp m t p)) as (owners & mp' & E & L & IO & G); [intros x Hx; apply IC'; now right|].
    exists (m :: owners), mp'. split; [exact E|]. split; [cbn; congruence|]. split; [intros x [<-|Hx]; [apply IC'; now left|now apply IO]|].
    intros m' t'. rewrite G, map_add_gives, <- app_assoc. f_equal. unfold owned. cbn [combine filter fst snd].
    destruct (list_eqb m' m && list_eqb t' t); reflexivity.
Qed.
Lemma allocate_even members pairs : NoDup members -> (forall t p, In (t, p) pairs -> no_colon t) ->
  forall pre cur mp q mp', members = pre ++ cur -> (forall m, In m pre -> tab_load mp m = S q) -> (forall m, In m cur -> tab_load mp m = q) ->
    allocate members cur (map partition_string pairs) mp = Ok mp' ->
    exists q', forall m, In m members -> tab_load mp' m = q' \/ tab_load mp' m = S q'.
Proof.
  intros ND. induction pairs as [|[t p] pairs IH]; intros NC pre cur mp q mp' EM HP HC E.
  - cbn in E. injection E as <-. exists q. intros m Hm. rewrite EM in Hm. apply in_app_or in Hm as [Hm|Hm]; auto.
  - cbn [map allocate] in E.
    assert (STEP : forall pre m cur' q, members = pre ++ m :: cur' -> (forall x, In x pre -> tab_load mp x = S q) -> (forall x, In x (m :: cur') -> tab_load mp x = q) ->
      allocate members cur' (map partition_string pairs) (map_add mp m t p) = Ok mp' ->
      exists q', forall x, In x members -> tab_load mp' x = q' \/ tab_load mp' x = S q').
    { clear pre cur q EM HP HC E. intros pre m cur' q EM HP HC E.
      assert (NI : ~ In m pre /\ ~ In m cur').
      { rewrite EM in ND. apply NoDup_remove_2 in ND. rewrite in_app_iff in ND. tauto. }
      apply (IH (fun t0 p0 H => NC t0 p0 (or_intror H)) (pre ++ [m]) cur' (map_add mp m t p) q mp'); [now rewrite <- app_assoc| | |exact E].
      - intros x Hx. rewrite map_add_load. apply in_app_or in Hx as [Hx|[<-|[]]].
        + destruct (list_eqb x m) eqn:Ex; [apply list_eqb_spec in Ex; subst; tauto|]. rewrite HP by exact Hx. lia.
        + rewrite (proj2 (list_eqb_spec m m) eq_refl), HC by now left. lia.
      - intros x Hx. rewrite map_add_load. destruct (list_eqb x m) eqn:Ex; [apply list_eqb_spec in Ex; subst; tauto|]. rewrite HC by now right. lia. }
    destruct cur as [|m cur'].
    + destruct members as [|m cur'] eqn:EMM.
      * injection E as <-. exists q. intros x [].
      * rewrite split_partition in E by (apply (NC t p); now left). rewrite py_int_str in E. cbn [bind] in E.
        rewrite app_nil_r in EM. apply (STEP [] m cur' (S q)); [reflexivity|intros x []|intros x Hx; apply HP; now rewrite <- EM|exact E].
    + rewrite split_partition in E by (apply (NC t p); now left). rewrite py_int_str in E. cbn [bind] in E.
      apply (STEP pre m cur' q); assumption.
Qed.
Lemma allocate_ok members pairs : (forall t p, In (t, p) pairs -> no_colon t) -> exists mp, naive_allocator members (map partition_string pairs) = Ok mp /\ mp_default mp = true.
Proof.
  intros NC. unfold naive_allocator. destruct members as [|m ms].
  - destruct pairs as [|tp pairs]; cbn; eauto.
  - destruct (allocate_spec (m :: ms) pairs ltac:(discriminate) NC [] []) as (ow & mp' & E & _); [intros x []|]. rewrite E. cbn [bind]. eauto.
Qed.
Lemma in_combine_nodup {A B} (l : list A) (k : list B) a a' b : NoDup k -> In (a, b) (combine l k) -> In (a', b) (combine l k) -> a = a'.
Proof.
  revert k. induction l as [|x l IH]; intros k N H H'; [destruct H|]. destruct k as [|y k]; [destruct H|]. cbn in H, H'. inversion N as [|? ? N1 N2]; subst.
  destruct H as [H|H], H' as [H'|H'].
  - congruence.
  - injection H as _ ->. exfalso. apply N1. now apply in_combine_r in H'.
  - injection H' as _ ->. exfalso. apply N1. now apply in_combine_r in H.
  - now apply (IH k).
Qed.
Lemma in_owned m t ops p : In p (owned m t ops) <-> In (m, (t, p)) ops.
Proof.
  unfold owned. rewrite in_map_iff. split.
  - intros ([m' [t' p']] & E & H). apply filter_In in H as [H F]. cbn [fst snd] in *. apply andb_true_iff in F as [F1 F2].
    apply list_eqb_spec in F1, F2. now subst.
  - intros H. exists (m, (t, p)). split; [reflexivity|]. apply filter_In. split; [exact H|]. cbn [fst snd]. apply andb_true_iff. split; now apply list_eqb_spec.
Qed.
Lemma nodup_owned m t (owners : list text) pairs : NoDup pairs -> NoDup (owned m t (combine owners pairs)).
Proof.
  revert pairs. induction owners as [|o owners IH]; intros pairs N; [constructor|]. destruct pairs as [|[t' p'] pairs]; [constructor|].
  inversion N as [|? ? N1 N2]; subst. unfold owned in *. cbn [combine filter fst snd]. specialize (IH pairs N2).
  destruct (list_eqb m o && list_eqb t t') eqn:F; [|exact IH]. cbn [map snd]. constructor; [|exact IH].
  apply andb_true_iff in F as [F1 F2]. apply list_eqb_spec in F1, F2. subst. intros H.
  change (In p' (owned o t' (combine owners pairs))) in H. apply in_owned, in_combine_r in H. contradiction.
Qed.

(** * sorting *)
Definition lex_le (a b : text) : Prop := lex_leb a b = true.
Lemma lex_refl a : lex_leb a a = true.
Proof. induction a as [|x a IH]; [reflexivity|]. cbn. now rewrite Z.eqb_refl. Qed.
Lemma lex_total a b : lex_leb a b = true \/ lex_leb b a = true.
Proof.
  revert b. induction a as [|x a IH]; intros b; [now left|]. destruct b as [|y b]; [now right|]. cbn.
  rewrite (Z.eqb_sym y x). destruct (Z.eqb_spec x y) as [->|N]; [apply IH|]. destruct (Z.ltb_spec x y), (Z.ltb_spec y x); auto; lia.
Qed.
Lemma lex_antisym a b : lex_leb a b = true -> lex_leb b a = true -> a = b.
Proof.
  revert b. induction a as [|x a IH]; intros b; destruct b as [|y b]; cbn; try discriminate; [reflexivity|].
  rewrite (Z.eqb_sym y x). destruct (Z.eqb_spec x y) as [->|N]; [intros H1 H2; f_equal; now apply IH|].
  intros H1 H2. apply Z.ltb_lt in H1, H2. lia.
Qed.
Lemma lex_trans a b c : lex_leb a b = true -> lex_leb b c = true -> lex_leb a c = true.
Proof.
  revert b c. induction a as [|x a IH]; intros b c; [reflexivity|]. destruct b as [|y b]; [discriminate|]. destruct c as [|z c]; [cbn; discriminate|]. cbn.
  destruct (Z.eqb_spec x y) as [->|N1].
  - destruct (Z.eqb_spec y z) as [->|N2]; [apply IH|auto].
  - intros H1. apply Z.ltb_lt in H1. destruct (Z.eqb_spec y z) as [->|N2]; intros H2.
    + rewrite (proj2 (Z.eqb_neq x z)) by lia. now apply Z.ltb_lt.
    + apply Z.ltb_lt in H2. rewrite (proj2 (Z.eqb_neq x z)) by lia. apply Z.ltb_lt. lia.
Qed.
Lemma insert_perm x l : Permutation (insert_sorted x l) (x :: l).
Proof.
  induction l as [|y l IH]; [reflexivity|]. cbn. destruct (lex_leb x y); [reflexivity|]. rewrite IH. apply perm_swap.
Qed.
Lemma sorted_perm l : Permutation (sorted l) l.
Proof. induction l as [|x l IH]; [reflexivity|]. cbn. rewrite insert_perm. now constructor. Qed.
Lemma insert_strong x l : StronglySorted lex_le l -> StronglySorted lex_le (insert_sorted x l).
Proof.
  induction 1 as [|y l S IH F]; [repeat constructor|]. cbn. destruct (lex_leb x y) eqn:E.
  - constructor; [now constructor|]. constructor; [exact E|]. rewrite Forall_forall in *. intros z Hz. now apply (lex_trans x y z), F.
  - constructor; [exact IH|]. rewrite Forall_forall in *. intros z Hz. apply (Permutation_in _ (insert_perm x l)) in Hz as [<-|Hz]; [|now apply F].
    unfold lex_le. destruct (lex_total x y) as [H|H]; [congruence|exact H].
Qed.
Lemma sorted_strong l : StronglySorted lex_le (sorted l).
Proof. induction l as [|x l IH]; [constructor|]. now apply insert_strong. Qed.
Lemma strong_unique l : forall l', StronglySorted lex_le l -> StronglySorted lex_le l' -> Permutation l l' -> l = l'.
Proof.
  induction l as [|x l IH]; intros l' S S' P; [now apply Permutation_nil in P|]. destruct l' as [|y l']; [now apply Permutation_sym, Permutation_nil in P|].
  inversion S as [|? ? S1 F1]; subst. inversion S' as [|? ? S2 F2]; subst. rewrite Forall_forall in F1, F2.
  assert (x = y) as ->.
  { assert (Hx : In x (y :: l')) by (apply (Permutation_in _ P); now left). assert (Hy : In y (x :: l)) by (apply (Permutation_in _ (Permutation_sym P)); now left).
    destruct Hx as [->|Hx]; [reflexivity|]. destruct Hy as [->|Hy]; [reflexivity|]. apply lex_antisym; [now apply F1|now apply F2]. }
  f_equal. apply IH; [exact S1|exact S2|]. now apply Permutation_cons_inv in P.
Qed.
Theorem sorted_canonical a b : NoDup a -> NoDup b -> same_set a b -> sorted a = sorted b.
Proof.
  intros NA NB S. apply strong_unique; [apply sorted_strong|apply sorted_strong|]. rewrite !sorted_perm. now apply NoDup_Permutation.
Qed.
Lemma in_sorted l x : In x (sorted l) <-> In x l.
Proof. split; apply Permutation_in; [|symmetry]; apply sorted_perm. Qed.

(** * the allocator object *)
Lemma gives_default (tab : mapping_tab) (name m t : text) : gives_to (Mp true (dset tab name [])) m t = gives_to (Mp true tab) m t \/ dget tab name <> None.
Proof.
  destruct (dget tab name) eqn:G; [right; discriminate|left]. unfold gives_to. cbn [mp_tab]. destruct (list_eqb m name) eqn:E.
  - apply list_eqb_spec in E. subst m. rewrite dget_dset_same. cbn [dget]. unfold mapping_tab in *. destruct (dget tab name); [discriminate G|reflexivity].
  - rewrite dget_dset_other; [reflexivity|]. intros ->. rewrite (proj2 (list_eqb_spec name name) eq_refl) in E. discriminate.
Qed.
Lemma allocation_gives s : let s' := snd (allocation s) in
  (forall m t, gives_to (a_mapping s') m t = gives_to (a_mapping s) m t) /\ a_name s' = a_name s /\ a_members s' = a_members s /\ a_partitions s' = a_partitions s /\
  a_members_collected s' = a_members_collected s /\ a_partitions_collected s' = a_partitions_collected s /\ a_connected s' = a_connected s /\
  a_rebalances s' = a_rebalances s /\ a_callbacks s' = a_callbacks s.
Proof.
  cbv zeta. unfold allocation. destruct (dget (mp_tab (a_mapping s)) (a_name s)) eqn:G; [cbn; auto 10|].
  destruct (mp_default (a_mapping s)) eqn:D; [|cbn; auto 10]. cbn. split; [|auto 10]. intros m t.
  destruct (gives_default (mp_tab (a_mapping s)) (a_name s) m t) as [E|E]; [|congruence]. rewrite E. reflexivity.
Qed.
Section Agree.
  Variable fn : list text -> list text -> res mapping.
  Variable cb : bool.
  Variable good : text -> Prop.
  Definition total : Prop := forall ms ps, (forall p, In p ps -> good p) -> exists mp, fn ms ps = Ok mp.
  (** the mapping is the one for the sets last seen *)
  Record linv (lm lp : list text) (s : allocator) : Prop := {
    l_m : same_set (a_members s) lm; l_p : same_set (a_partitions s) lp;
    l_mn : NoDup (a_members s); l_pn : NoDup (a_partitions s);
    l_good : forall p, In p (a_partitions s) -> good p;
    l_map : (a_members s = [] /\ a_partitions s = [] /\ forall m t, gives_to (a_mapping s) m t = []) \/
            exists mp, fn (sorted (a_members s)) (sorted (a_partitions s)) = Ok mp /\ forall m t, gives_to (a_mapping s) m t = gives_to mp m t
  }.
  Lemma rebalance_spec s : total -> (forall p, In p (a_partitions s) -> good p) ->
    let s' := snd (rebalance fn cb s) in
    a_name s' = a_name s /\ a_members s' = a_members s /\ a_partitions s' = a_partitions s /\ a_connected s' = a_connected s /\
    a_rebalances s' = a_rebalances s ++ [(sorted (a_members s), sorted (a_partitions s))] /\
    exists mp, fn (sorted (a_members s)) (sorted (a_partitions s)) = Ok mp /\ (forall m t, gives_to (a_mapping s') m t = gives_to mp m t) /\
      (mp_default mp = true \/ dmem (mp_tab mp) (a_name s) = true ->
        fst (rebalance fn cb s) = Ok tt /\ a_callbacks s' = a_callbacks s + (if cb then 1 else 0)) /\
      (mp_default mp = false -> dmem (mp_tab mp) (a_name s) = false -> fst (rebalance fn cb s) = Err EKey /\ a_callbacks s' = a_callbacks s).
  Proof.
    intros T G. cbv zeta. unfold rebalance. destruct (T (sorted (a_members s)) (sorted (a_partitions s))) as (mp & E).
    { intros p Hp. apply G. now apply in_sorted. }
    rewrite E. set (s1 := Al _ _ _ mp _ _ _ _ _). pose proof (allocation_gives s1) as A. cbv zeta in A.
    assert (AF : fst (allocation s1) = if (if mp_default mp then true else dmem (mp_tab mp) (a_name s)) then Ok match dget (mp_tab mp) (a_name s) with Some tm => tm | None => [] end else Err EKey).
    { unfold allocation. cbn [s1 a_mapping a_name]. unfold dmem. destruct (dget (mp_tab mp) (a_name s)); [now destruct (mp_default mp)|]. now destruct (mp_default mp). }
    destruct (allocation s1) as [r s2]. cbn [fst snd] in *. destruct A as (A1 & A2 & A3 & A4 & A5 & A6 & A7 & A8 & A9).
    rewrite AF. destruct (if mp_default mp then true else dmem (mp_tab mp) (a_name s)) eqn:C; cbn [fst snd a_name a_members a_partitions a_connected a_rebalances a_mapping a_callbacks];
      repeat (split; [assumption|]); exists mp; (split; [reflexivity|]); (split; [exact A1|]); split.
    - intros _. split; [reflexivity|]. now rewrite A9.
    - intros D F. rewrite D in C. congruence.
    - intros [D|D]; [now rewrite D in C|]. destruct (mp_default mp); congruence.
    - intros _ _. split; [reflexivity|exact A9].
  Qed.
  Lemma same_mkset l : same_set (mkset l) l.
  Proof. intros x. apply in_mkset. Qed.
  Lemma linv_step lm lp s ev : total -> good_event good ev -> linv lm lp s ->
    linv (match ev with EvMembers ms => ms | _ => lm end) (match ev with EvPartitions (Some ps) => ps | _ => lp end) (astep fn cb s ev).
  Proof.
    intros T G L. destruct ev as [ms|[ps|]|st|]; cbn [astep].
    - unfold on_members. destruct (set_eqb (mkset ms) (a_members s)) eqn:E.
      + apply set_eqb_spec in E. destruct L. constructor; try assumption. intros x. rewrite <- (in_mkset ms x). symmetry. apply E.
      + set (s0 := with_members (mkset ms) s). pose proof (rebalance_spec s0 T (l_good _ _ _ L)) as R. cbv zeta in R.
        destruct (rebalance fn cb s0) as [r s1]. cbn [fst snd] in R. destruct R as (R1 & R2 & R3 & R4 & R5 & mp & R6 & R7 & _).
        assert (X : linv ms lp s1).
        { constructor; rewrite ?R2, ?R3; try apply L; [apply same_mkset|apply nodup_mkset|]. right. exists mp. auto. }
        destruct r; [|exact X]. cbn [snd]. destruct X. constructor; assumption.
    - unfold on_partitions. cbn in G. destruct G as [GN GG]. destruct (set_eqb ps (a_partitions s)) eqn:E.
      + apply set_eqb_spec in E. destruct L. constructor; try assumption. intros x. symmetry. apply E.
      + set (s0 := with_partitions ps s). pose proof (rebalance_spec s0 T GG) as R. cbv zeta in R.
        destruct (rebalance fn cb s0) as [r s1]. cbn [fst snd] in R. destruct R as (R1 & R2 & R3 & R4 & R5 & mp & R6 & R7 & _).
        assert (X : linv lm ps s1).
        { constructor; rewrite ?R2, ?R3; try apply L; [intros x; reflexivity|exact GN|exact GG|]. right. exists mp. auto. }
        destruct r; [|exact X]. cbn [snd]. destruct X. constructor; assumption.
    - exact L.
    - destruct L. constructor; assumption.
    - pose proof (allocation_gives s) as A. cbv zeta in A. destruct A as (A1 & A2 & A3 & A4 & _). destruct L as [L1 L2 L3 L4 L5 L6]. constructor; rewrite ?A3, ?A4; try assumption.
      destruct L6 as [(E1 & E2 & E3)|(mp & E1 & E2)]; [left|right].
      + split; [exact E1|]. split; [exact E2|]. intros m t. now rewrite A1.
      + exists mp. split; [exact E1|]. intros m t. now rewrite A1.
  Qed.
  Lemma arun_linv evs : total -> (forall ev, In ev evs -> good_event good ev) -> forall lm lp s, linv lm lp s ->
    linv (fold_left (fun acc ev => match ev with EvMembers ms => ms | _ => acc end) evs lm)
         (fold_left (fun acc ev => match ev with EvPartitions (Some ps) => ps | _ => acc end) evs lp) (arun fn cb evs s).
  Proof.
    intros T. induction evs as [|ev evs IH]; intros G lm lp s L; [exact L|]. cbn [fold_left arun]. apply IH; [intros e He; apply G; now right|].
    apply linv_step; [exact T|apply G; now left|exact L].
  Qed.
  Lemma linv_init name : linv [] [] (allocator_init name).
  Proof. constructor; cbn; try constructor; tauto. Qed.
End Agree.
