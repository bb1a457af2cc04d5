(** Property theorems C45-C47 and C53-C59: allocation, the ZooKeeper recipes, drain.  Specification: SpecZk.v. *)
From Coq Require Import ZArith String List Bool Lia Permutation Sorting.Sorted.
From Verif Require Import PyBase BaseLemmas Cluster Json Iterables Zookeeper SpecJson JsonProofs SpecZk ZkProofs ZkAlloc.
Import ListNotations.
Open Scope Z_scope.

(** * C45 Default allocation is an exact, even cover *)
Theorem C45_exact_even_cover : forall members pairs, NoDup members -> members <> [] -> NoDup pairs ->
  (forall t p, In (t, p) pairs -> no_colon t) ->
  exists mp, naive_allocator members (map partition_string pairs) = Ok mp /\
    (* every partition has exactly one owner, and is listed once *)
    (forall t p, In (t, p) pairs -> exists m, In m members /\ In p (gives_to mp m t) /\ forall m', In p (gives_to mp m' t) -> m' = m) /\
    (forall m t, NoDup (gives_to mp m t)) /\
    (* only listed partitions, only to members *)
    (forall m t p, In p (gives_to mp m t) -> In m members /\ In (t, p) pairs) /\
    (* evenly *)
    (forall m1 m2, In m1 members -> In m2 members -> (load mp m1 <= load mp m2 + 1)%nat).
Proof.
  intros members pairs NM NE NP NC. destruct (allocate_spec members pairs NE NC [] []) as (owners & tab & E & L & IO & G); [intros x []|].
  exists (Mp true tab). unfold naive_allocator. rewrite E. cbn [bind]. split; [reflexivity|].
  assert (G' : forall m t, gives_to (Mp true tab) m t = owned m t (combine owners pairs)) by (intros m t; apply (G m t)).
  split; [|split; [|split]].
  - intros t p H. assert (O : exists m, In (m, (t, p)) (combine owners pairs)).
    { clear -H L. revert owners L. induction pairs as [|x pairs IH]; intros owners L; [destruct H|]. destruct owners as [|o owners]; [discriminate L|].
      cbn. destruct H as [->|H]; [exists o; now left|]. destruct (IH H owners) as (m & Hm); [now injection L|]. exists m. now right. }
    destruct O as (m & O). exists m. split; [apply IO; now apply in_combine_l in O|]. split; [rewrite G'; now apply in_owned|].
    intros m' H'. rewrite G' in H'. apply in_owned in H'. now apply (in_combine_nodup _ _ _ _ _ NP H' O).
  - intros m t. rewrite G'. now apply nodup_owned.
  - intros m t p H. rewrite G' in H. apply in_owned in H. split; [apply IO; now apply in_combine_l in H|now apply in_combine_r in H].
  - assert (E' : allocate members members (map partition_string pairs) [] = Ok tab).
    { rewrite <- E. destruct members; [congruence|]. destruct pairs; reflexivity. }
    destruct (allocate_even members pairs NM NC [] members [] 0 tab eq_refl) as (q & Q); [intros m []|reflexivity|exact E'|].
    intros m1 m2 H1 H2. apply Q in H1, H2. unfold tab_load in *. lia.
Qed.
Theorem C45_no_members : forall partitions, naive_allocator [] partitions = Ok (Mp true []).
Proof. intros [|p ps]; reflexivity. Qed.
Example C45_example : let pairs := [(txt "a", 0); (txt "a", 1); (txt "b", 10); (txt "b", 9); (txt "c", 0)] in
  match naive_allocator [txt "m1"; txt "m2"] (map partition_string pairs) with
  | Ok mp => gives_to mp (txt "m1") (txt "a") = [0] /\ gives_to mp (txt "m2") (txt "b") = [9] /\ load mp (txt "m1") = 3%nat /\ load mp (txt "m2") = 2%nat
  | Err _ => False
  end.
Proof. vm_compute. repeat split. Qed.
(** outside the hypotheses: a topic name with a colon (Kafka allows none) makes it raise *)
Example C45_colon : naive_allocator [txt "m1"] [partition_string (txt "a:b", 0)] = Err EValue.
Proof. reflexivity. Qed.

(** * C46 Group members agree *)
(** for every deterministic allocator function that does not raise on the partitions in question *)
Theorem C46_agree : forall fn (good : text -> Prop) cb1 cb2 n1 n2 evs1 evs2,
  (forall ms ps, (forall p, In p ps -> good p) -> exists mp, fn ms ps = Ok mp) ->
  (forall mp m t, fn [] [] = Ok mp -> gives_to mp m t = []) ->
  (forall ev, In ev evs1 \/ In ev evs2 -> good_event good ev) ->
  same_set (last_members evs1) (last_members evs2) -> same_set (last_partitions evs1) (last_partitions evs2) ->
  forall m t, gives_to (a_mapping (arun fn cb1 evs1 (allocator_init n1))) m t =
              gives_to (a_mapping (arun fn cb2 evs2 (allocator_init n2))) m t.
Proof.
  intros fn good cb1 cb2 n1 n2 evs1 evs2 T Z G SM SP m t.
  pose proof (arun_linv fn cb1 good evs1 T (fun ev H => G ev (or_introl H)) [] [] _ (linv_init fn good n1)) as L1.
  pose proof (arun_linv fn cb2 good evs2 T (fun ev H => G ev (or_intror H)) [] [] _ (linv_init fn good n2)) as L2.
  fold (last_members evs1) in L1. fold (last_partitions evs1) in L1. fold (last_members evs2) in L2. fold (last_partitions evs2) in L2.
  set (s1 := arun fn cb1 evs1 _) in *. set (s2 := arun fn cb2 evs2 _) in *.
  assert (EM : sorted (a_members s1) = sorted (a_members s2)).
  { apply sorted_canonical; [apply L1|apply L2|]. intros x. rewrite (l_m _ _ _ _ _ L1 x), (l_m _ _ _ _ _ L2 x). apply SM. }
  assert (EP : sorted (a_partitions s1) = sorted (a_partitions s2)).
  { apply sorted_canonical; [apply L1|apply L2|]. intros x. rewrite (l_p _ _ _ _ _ L1 x), (l_p _ _ _ _ _ L2 x). apply SP. }
  destruct (l_map _ _ _ _ _ L1) as [(M1 & P1 & X1)|(mp1 & F1 & X1)], (l_map _ _ _ _ _ L2) as [(M2 & P2 & X2)|(mp2 & F2 & X2)]; rewrite X1, X2.
  - reflexivity.
  - rewrite <- EM, <- EP, M1, P1 in F2. symmetry. now apply Z.
  - rewrite EM, EP, M2, P2 in F1. now apply Z.
  - rewrite EM, EP, F2 in F1. now injection F1 as ->.
Qed.
Definition good_name (p : text) : Prop := exists t i, no_colon t /\ p = partition_string (t, i).
Lemma good_pairs ps : NoDup ps -> (forall p, In p ps -> good_name p) -> exists pairs, ps = map partition_string pairs /\ NoDup pairs /\ forall t p, In (t, p) pairs -> no_colon t.
Proof.
  induction ps as [|p ps IH]; intros N G; [exists []; repeat split; [constructor|intros t p []]|]. inversion N as [|? ? N1 N2]; subst.
  destruct (IH N2) as (pairs & -> & NP & NC); [intros x Hx; apply G; now right|]. destruct (G p) as (t & i & C & ->); [now left|].
  exists ((t, i) :: pairs). split; [reflexivity|]. split.
  - constructor; [|exact NP]. intros H. apply N1. now apply in_map.
  - intros t' p' [E|H]; [injection E as <- <-; exact C|now apply (NC t' p')].
Qed.
Lemma naive_total ms ps : (forall p, In p ps -> good_name p) -> exists mp, naive_allocator ms ps = Ok mp.
Proof.
  intros G. assert (X : exists pairs, ps = map partition_string pairs /\ forall t p, In (t, p) pairs -> no_colon t).
  { induction ps as [|p ps IH]; [exists []; split; [reflexivity|intros t p []]|]. destruct IH as (pairs & -> & NC); [intros x Hx; apply G; now right|].
    destruct (G p) as (t & i & C & ->); [now left|]. exists ((t, i) :: pairs). split; [reflexivity|]. intros t' p' [E|H]; [injection E as <- <-; exact C|now apply (NC t' p')]. }
  destruct X as (pairs & -> & NC). destruct (allocate_ok ms pairs NC) as (mp & E & _). eauto.
Qed.
(** with the default allocator, members with the same view never hold the same partition *)
Theorem C46_disjoint : forall cb1 cb2 n1 n2 evs1 evs2,
  (forall ev, In ev evs1 \/ In ev evs2 -> good_event good_name ev) ->
  same_set (last_members evs1) (last_members evs2) -> same_set (last_partitions evs1) (last_partitions evs2) -> n1 <> n2 ->
  forall t p, In p (gives_to (a_mapping (arun naive_allocator cb1 evs1 (allocator_init n1))) n1 t) ->
            ~ In p (gives_to (a_mapping (arun naive_allocator cb2 evs2 (allocator_init n2))) n2 t).
Proof.
  intros cb1 cb2 n1 n2 evs1 evs2 G SM SP NE t p H1 H2.
  rewrite <- (C46_agree naive_allocator good_name cb1 cb2 n1 n2 evs1 evs2 naive_total) in H2; [|intros mp m t' E; injection E as <-; reflexivity|exact G|exact SM|exact SP].
  pose proof (arun_linv naive_allocator cb1 good_name evs1 naive_total (fun ev H => G ev (or_introl H)) [] [] _ (linv_init naive_allocator good_name n1)) as L1.
  set (s1 := arun naive_allocator cb1 evs1 _) in *. destruct (l_map _ _ _ _ _ L1) as [(_ & _ & X1)|(mp & F1 & X1)]; rewrite X1 in H1, H2; [destruct H1|].
  assert (NS : NoDup (sorted (a_partitions s1))) by (eapply Permutation_NoDup; [symmetry; apply sorted_perm|apply L1]).
  assert (NM : NoDup (sorted (a_members s1))) by (eapply Permutation_NoDup; [symmetry; apply sorted_perm|apply L1]).
  destruct (good_pairs (sorted (a_partitions s1)) NS) as (pairs & EP & NP & NC); [intros q Hq; apply (l_good _ _ _ _ _ L1); now apply in_sorted|].
  destruct (sorted (a_members s1)) as [|m0 ms0] eqn:ES.
  - rewrite EP in F1. unfold naive_allocator in F1. destruct pairs; injection F1 as <-; destruct H1.
  - destruct (C45_exact_even_cover (m0 :: ms0) pairs NM ltac:(discriminate) NP NC) as (mp' & F' & A1 & _ & A3 & _). rewrite <- EP in F'. rewrite F' in F1. injection F1 as ->.
    destruct (A3 _ _ _ H1) as [_ Hp]. destruct (A1 t p Hp) as (m & _ & _ & U). rewrite (U n1 H1) in NE. apply NE. symmetry. now apply U.
Qed.
Example C46_example : let p0 := partition_string (txt "a", 0) in let p1 := partition_string (txt "a", 1) in
  let e1 := [EvMembers [txt "m1"]; EvPartitions (Some [p0; p1]); EvMembers [txt "m2"; txt "m1"]] in
  let e2 := [EvPartitions (Some [p1]); EvMembers [txt "m1"; txt "m2"; txt "m3"]; EvMembers [txt "m1"; txt "m2"]; EvPartitions (Some [p1; p0])] in
  gives_to (a_mapping (arun naive_allocator true e1 (allocator_init (txt "m1")))) (txt "m1") (txt "a") = [0] /\
  gives_to (a_mapping (arun naive_allocator true e2 (allocator_init (txt "m2")))) (txt "m2") (txt "a") = [1] /\
  same_set (last_members e1) (last_members e2) /\ same_set (last_partitions e1) (last_partitions e2).
Proof. split; [reflexivity|]. split; [reflexivity|]. split; intros x; cbn; tauto. Qed.

(** * C47 Rebalance happens exactly on change *)
Lemma served_total fn name good : serves fn name good -> forall ms ps, (forall p, In p ps -> good p) -> exists mp, fn ms ps = Ok mp.
Proof. intros S ms ps G. destruct (S ms ps G) as (mp & E & _). eauto. Qed.
Lemma step_name fn cb s ev : a_name (astep fn cb s ev) = a_name s.
Proof.
  assert (R : forall s0, a_name (snd (rebalance fn cb s0)) = a_name s0).
  { intros s0. unfold rebalance. destruct (fn _ _) as [mp|e]; [|reflexivity]. set (s1 := Al _ _ _ _ _ _ _ _ _). pose proof (allocation_gives s1) as A. cbv zeta in A.
    destruct (allocation s1) as [[r|e] s2]; cbn [snd] in *; apply A. }
  destruct ev as [ms|[ps|]|st|]; cbn [astep]; try reflexivity.
  - unfold on_members. destruct (set_eqb _ _); [reflexivity|]. specialize (R (with_members (mkset ms) s)). destruct (rebalance fn cb _) as [[r|e] s1]; exact R.
  - unfold on_partitions. destruct (set_eqb _ _); [reflexivity|]. specialize (R (with_partitions ps s)). destruct (rebalance fn cb _) as [[r|e] s1]; exact R.
  - apply (allocation_gives s).
Qed.
Lemma run_name fn cb evs : forall s, a_name (arun fn cb evs s) = a_name s.
Proof. induction evs as [|ev evs IH]; intros s; [reflexivity|]. cbn [arun fold_left]. etransitivity; [apply IH|apply step_name]. Qed.

(** the calls of allocator_fn and of on_rebalance caused by one notification *)
Definition rebalanced_to (s s' : allocator) (ms ps : list text) : Prop :=
  a_callbacks s' = a_callbacks s + 1 /\
  exists a b, a_rebalances s' = a_rebalances s ++ [(a, b)] /\ same_set a ms /\ same_set b ps /\ NoDup a /\ StronglySorted lex_le a /\ StronglySorted lex_le b.
Definition not_rebalanced (s s' : allocator) : Prop :=
  a_callbacks s' = a_callbacks s /\ a_rebalances s' = a_rebalances s /\ a_mapping s' = a_mapping s.
Theorem C47_exactly_on_change_partial : forall fn (good : text -> Prop) name evs ev, serves fn name good ->
  (forall e, In e (evs ++ [ev]) -> good_event good e) ->
  let s := arun fn true evs (allocator_init name) in
  let s' := arun fn true (evs ++ [ev]) (allocator_init name) in
  match ev with
  | EvMembers ms =>
      (same_set ms (last_members evs) -> not_rebalanced s s') /\
      (~ same_set ms (last_members evs) -> rebalanced_to s s' ms (last_partitions evs))
  | EvPartitions (Some ps) =>
      (same_set ps (last_partitions evs) -> not_rebalanced s s') /\
      (~ same_set ps (last_partitions evs) -> rebalanced_to s s' (last_members evs) ps)
  | EvPartitions None | EvState _ => not_rebalanced s s'
  | EvRead => a_callbacks s' = a_callbacks s /\ a_rebalances s' = a_rebalances s
  end.
Proof.
  intros fn good name evs ev S G s s'. unfold s'. clear s'. unfold arun at 1 2 3 4 5 6 7 8. rewrite ?fold_left_app. cbn [fold_left].
  change (fold_left (astep fn true) evs (allocator_init name)) with s. pose proof (served_total _ _ _ S) as T.
  pose proof (arun_linv fn true good evs T (fun e H => G e (in_or_app _ _ _ (or_introl H))) [] [] _ (linv_init fn good name)) as L.
  fold (last_members evs) in L. fold (last_partitions evs) in L. fold s in L.
  assert (N : a_name s = name) by apply run_name. assert (GE : good_event good ev) by (apply G, in_or_app; right; now left).
  assert (RB : forall s0, (forall p, In p (a_partitions s0) -> good p) -> a_name s0 = name ->
    fst (rebalance fn true s0) = Ok tt /\ a_callbacks (snd (rebalance fn true s0)) = a_callbacks s0 + 1 /\
    a_rebalances (snd (rebalance fn true s0)) = a_rebalances s0 ++ [(sorted (a_members s0), sorted (a_partitions s0))]).
  { intros s0 G0 N0. destruct (S (sorted (a_members s0)) (sorted (a_partitions s0))) as (mp0 & E0 & D0); [intros p Hp; apply G0; now apply in_sorted|].
    destruct (rebalance_spec fn true good s0 T G0) as (_ & _ & _ & _ & R & mp & E & _ & C & _). rewrite E0 in E. injection E as <-.
    rewrite N0 in C. destruct (C D0) as [C1 C2]. auto. }
  destruct ev as [ms|[ps|]|st|]; cbn [astep].
  - unfold on_members. destruct (set_eqb (mkset ms) (a_members s)) eqn:E.
    + apply set_eqb_spec in E. split; [intros _; repeat split|]. intros H. exfalso. apply H. intros x. rewrite <- (l_m _ _ _ _ _ L x), <- (E x). symmetry. apply in_mkset.
    + split; [intros H; exfalso; assert (set_eqb (mkset ms) (a_members s) = true); [|congruence]; apply set_eqb_spec; intros x; rewrite in_mkset, (l_m _ _ _ _ _ L x); apply H|].
      intros _. destruct (RB (with_members (mkset ms) s) (l_good _ _ _ _ _ L) N) as (R1 & R2 & R3). destruct (rebalance fn true _) as [r s1]. cbn [fst snd] in *. subst r. cbn [snd].
      split; [exact R2|]. exists (sorted (mkset ms)), (sorted (a_partitions s)). split; [exact R3|].
      split; [intros x; rewrite in_sorted; apply in_mkset|]. split; [intros x; rewrite in_sorted; apply L|].
      split; [eapply Permutation_NoDup; [symmetry; apply sorted_perm|apply nodup_mkset]|]. split; apply sorted_strong.
  - unfold on_partitions. destruct GE as [GN GG]. destruct (set_eqb ps (a_partitions s)) eqn:E.
    + apply set_eqb_spec in E. split; [intros _; repeat split|]. intros H. exfalso. apply H. intros x. rewrite <- (l_p _ _ _ _ _ L x). apply E.
    + split; [intros H; exfalso; assert (set_eqb ps (a_partitions s) = true); [|congruence]; apply set_eqb_spec; intros x; rewrite (l_p _ _ _ _ _ L x); apply H|].
      intros _. destruct (RB (with_partitions ps s) GG N) as (R1 & R2 & R3). destruct (rebalance fn true _) as [r s1]. cbn [fst snd] in *. subst r. cbn [snd].
      split; [exact R2|]. exists (sorted (a_members s)), (sorted ps). split; [exact R3|].
      split; [intros x; rewrite in_sorted; apply L|]. split; [intros x; apply in_sorted|].
      split; [eapply Permutation_NoDup; [symmetry; apply sorted_perm|apply L]|]. split; apply sorted_strong.
  - repeat split.
  - repeat split.
  - pose proof (allocation_gives s) as A. cbv zeta in A. tauto.
Qed.
(** the default allocator serves every member *)
Theorem C47_default_serves : forall name, serves naive_allocator name good_name.
Proof.
  intros name ms ps G. destruct (naive_total ms ps G) as (mp & E). exists mp. split; [exact E|left]. unfold naive_allocator in E.
  destruct (allocate ms [] ps []); [|discriminate E]. cbn in E. now injection E as <-.
Qed.
(** an allocator function that returns a plain dict with only the members that got something: a member without
    partitions gets KeyError out of its watcher, and on_rebalance is not called *)
Definition plain (members partitions : list text) : res mapping :=
  match naive_allocator members partitions with Ok mp => Ok (Mp false (mp_tab mp)) | Err e => Err e end.
Theorem C47_plain_dict_refuted : let p0 := partition_string (txt "a", 0) in
  let s := arun plain true [EvMembers [txt "m1"; txt "m2"]; EvPartitions (Some [p0])] (allocator_init (txt "m2")) in
  a_callbacks s = 0 /\ length (a_rebalances s) = 2%nat /\ a_partitions_collected s = false /\ fst (allocation s) = Err EKey.
Proof. vm_compute. repeat split. Qed.
Example C47_example : let p0 := partition_string (txt "a", 0) in
  let s := arun naive_allocator true [EvMembers [txt "m1"; txt "m2"]; EvPartitions (Some [p0]); EvMembers [txt "m2"; txt "m1"]; EvPartitions (Some [p0])] (allocator_init (txt "m2")) in
  a_callbacks s = 2 /\ a_rebalances s = [([txt "m1"; txt "m2"], []); ([txt "m1"; txt "m2"], [p0])].
Proof. vm_compute. repeat split. Qed.

(** * C53 Shared set updates are atomic *)
Definition in_section (ph : phase) : Prop := match ph with Idle | Wanting _ => False | Holding _ | Got _ _ | Leaving _ => True end.
(** however the steps of any number of clients interleave, and wherever clients die *)
Theorem C53_atomic : forall set_order data P0 ls, (forall l, Permutation (set_order l) l) ->
  holds data P0 -> (forall l, In l ls -> clean_label l) ->
  let s := srun set_order ls (shared_init data) in
  (* the znode holds what executing the effective calls one after another gives, in lock order *)
  holds (z_data s) (after (map snd (effective s)) P0) /\
  (* calls that returned took effect, once each, in that order *)
  subseq (z_returned s) (effective s) /\
  (* at most one client is between taking the lock and giving it back *)
  (forall c1 c2, in_section (z_phase s c1) -> in_section (z_phase s c2) -> c1 = c2).
Proof.
  intros so data P0 ls OP D CL s. assert (I : sinv P0 s) by (apply srun_inv; [exact OP|now apply sinv_init|exact CL]).
  split; [|split].
  - destruct (v_data _ _ I) as (items & E & X & C). exact (reads_holds _ _ _ E X C).
  - destruct (z_lock s) as [h|] eqn:L; [|now apply (v_free _ _ I)]. pose proof (v_lock _ _ I h) as V. destruct (z_phase s h); try tauto; try congruence.
    destruct V as (_ & pre & E & S). rewrite E. now apply subseq_snoc.
  - intros c1 c2 H1 H2. pose proof (v_lock _ _ I c1) as V1. pose proof (v_lock _ _ I c2) as V2.
    assert (L1 : z_lock s = Some c1) by (destruct (z_phase s c1); try destruct H1; apply V1).
    assert (L2 : z_lock s = Some c2) by (destruct (z_phase s c2); try destruct H2; apply V2). congruence.
Qed.
(** as long as nobody dies no call is lost: when the lock is free, all that ever took it returned, in that order *)
Theorem C53_none_lost : forall set_order data P0 ls, (forall l, Permutation (set_order l) l) ->
  holds data P0 -> (forall l, In l ls -> clean_label l) ->
  (forall c, ~ In (Die c) ls) ->
  let s := srun set_order ls (shared_init data) in
  z_lock s = None -> z_returned s = map fst (z_order s) /\ holds (z_data s) (after (map snd (z_returned s)) P0).
Proof.
  intros so data P0 ls OP D CL ND s LF. assert (I : sinv P0 s) by (apply srun_inv; [exact OP|now apply sinv_init|exact CL]).
  assert (A : ainv s).
  { apply (srun_alive so OP P0); [now apply sinv_init| |].
    - constructor; [intros _; split; [intros x []|reflexivity]|]. intros c. exact Logic.I.
    - intros l Hl. split; [now apply CL|]. destruct l; try exact Logic.I. exact (ND _ Hl). }
  destruct (w_free _ A LF) as [W1 W2].
  assert (E : effective s = map fst (z_order s)).
  { unfold effective. f_equal. clear -W1. induction (z_order s) as [|x l IH]; [reflexivity|]. cbn [filter]. rewrite W1 by now left. f_equal. apply IH. intros; apply W1; now right. }
  split; [now rewrite W2|]. rewrite W2. destruct (v_data _ _ I) as (items & E' & X & C). exact (reads_holds _ _ _ E' X C).
Qed.
Definition two_clients : list slabel :=
  [Call 1 (Add [txt "a:0"; txt "a:1"]); Call 2 (Add [txt "b:0"]); Acquire 2; Acquire 1; Get 2; Call 3 (Remove [txt "b:0"]); Update 2; Get 1; Release 2;
   Acquire 3; Get 3; Update 3; Release 3; Acquire 1; Get 1; Update 1; Release 1].
Example C53_example : let s := srun (fun l => l) two_clients (shared_init []) in
  deserialize (z_data s) = Ok [txt "a:0"; txt "a:1"] /\ map fst (z_returned s) = [2; 3; 1] /\ z_lock s = None /\ z_writes s = 3.
Proof. vm_compute. repeat split. Qed.
(** a new znode has no data: an empty set *)
Example C53_new_znode : holds [] (fun _ => False).
Proof. left. split; [reflexivity|]. intros _ []. Qed.
(** and the data may be any spelling of the array, here [[ "a:0","\/"]] *)
Example C53_spelling : holds (txt "[ ""\u0061:0"",""\/""]") (fun x => x = txt "a:0" \/ x = txt "/").
Proof.
  right. exists [txt "a:0"; txt "/"]. split.
  - apply json_loads_sound; [vm_compute; reflexivity|]. intros t [<-|[<-|[]]] c Hc; unfold scalar; vm_compute in Hc; intuition lia.
  - intros x. cbn [In]. intuition congruence.
Qed.

(** * C54 No needless writes *)
(** a step writes the znode only if the set in it changes by it; the call's items decide *)
Theorem C54_no_needless_writes : forall set_order data P0 ls l, (forall l, Permutation (set_order l) l) ->
  holds data P0 -> (forall x, In x (l :: ls) -> clean_label x) ->
  let s := srun set_order ls (shared_init data) in
  let s' := sstep set_order s l in
  (z_writes s' = z_writes s /\ z_data s' = z_data s) \/
  (z_writes s' = z_writes s + 1 /\ exists c op ex, l = Update c /\ z_phase s c = Got op ex /\
     exists P, holds (z_data s) P /\
       match op with
       | Add its => exists x, In x its /\ ~ P x
       | Remove its => exists x, In x its /\ P x
       end).
Proof.
  intros so data P0 ls l OP D CL s s'. assert (I : sinv P0 s) by (apply srun_inv; [exact OP|now apply sinv_init|intros x Hx; apply CL; now right]).
  unfold s'. destruct l as [c op|c|c|c|c|c]; cbn [sstep]; try (left; destruct (z_phase s c); now split).
  - left. destruct (z_phase s c); try now split. destruct (z_lock s); now split.
  - left. destruct (z_phase s c); try now split. destruct (deserialize (z_data s)); now split.
  - destruct (z_phase s c) as [|op|op|op ex|op] eqn:P; try (left; now split). pose proof (v_lock _ _ I c) as V. rewrite P in V. destruct V as (_ & _ & _ & GX).
    destruct (v_data _ _ I) as (items & E & _ & CI). specialize (GX items E). assert (HO : holds (z_data s) (fun x => In x items)) by (apply (reads_holds _ _ items E); [reflexivity|exact CI]). destruct op as [its|its]; cbn [update].
    + destruct (subset its ex) eqn:SB; [left; now split|right]. split; [reflexivity|]. exists c, (Add its), ex. split; [reflexivity|]. split; [first [exact P|reflexivity]|]. exists (fun x => In x items). split; [exact HO|].
      assert (X : exists x, In x its /\ smem ex x = false).
      { unfold subset in SB. clear -SB. induction its as [|y its IH]; [discriminate SB|]. cbn in SB. destruct (smem ex y) eqn:Y; [|exists y; split; [now left|exact Y]].
        destruct (IH SB) as (x & H1 & H2). exists x. split; [now right|exact H2]. }
      destruct X as (x & X1 & X2). exists x. split; [exact X1|]. rewrite <- GX. now apply smem_false.
    + destruct (disjointb its ex) eqn:SB; [left; now split|right]. split; [reflexivity|]. exists c, (Remove its), ex. split; [reflexivity|]. split; [first [exact P|reflexivity]|]. exists (fun x => In x items). split; [exact HO|].
      unfold disjointb in SB. apply negb_false_iff, existsb_exists in SB as (x & X1 & X2). exists x. split; [exact X1|]. apply GX. now apply smem_In.
Qed.
(** and conversely a call that changes nothing returns without a write *)
Theorem C54_unchanged_not_written : forall set_order data P0 ls c op ex, (forall l, Permutation (set_order l) l) ->
  holds data P0 -> (forall x, In x ls -> clean_label x) ->
  let s := srun set_order ls (shared_init data) in
  let s' := sstep set_order s (Update c) in
  z_phase s c = Got op ex -> forall P, holds (z_data s) P ->
  match op with
  | Add its => ((forall x, In x its -> P x) <-> z_writes s' = z_writes s)
  | Remove its => ((forall x, In x its -> ~ P x) <-> z_writes s' = z_writes s)
  end.
Proof.
  intros so data P0 ls c op ex OP D CL s s' P Q HQ. assert (I : sinv P0 s) by (apply srun_inv; [exact OP|now apply sinv_init|exact CL]).
  unfold s'. cbn [sstep]. rewrite P. pose proof (v_lock _ _ I c) as V. rewrite P in V. destruct V as (_ & _ & _ & GX).
  destruct (holds_reads _ _ HQ) as (items & E & X & _). specialize (GX items E). assert (GQ : forall x, In x ex <-> Q x) by (intros x; rewrite GX; apply X). clear GX. rename GQ into GX.
  destruct op as [its|its]; cbn [update].
  - destruct (subset its ex) eqn:SB; cbn [z_writes].
    + split; [reflexivity|]. intros _ x Hx. apply subset_spec in SB. now apply GX, SB.
    + split; [|intros H; lia]. intros H. assert (subset its ex = true) by (apply subset_spec; intros x Hx; now apply GX, H). congruence.
  - destruct (disjointb its ex) eqn:SB; cbn [z_writes].
    + split; [reflexivity|]. intros _ x Hx Hy. apply (proj1 (disjointb_spec its ex) SB x Hx). now apply GX.
    + split; [|intros H; lia]. intros H. assert (disjointb its ex = true) by (apply disjointb_spec; intros x Hx Hy; now apply (H x Hx), GX). congruence.
Qed.
Example C54_example : let s := srun (fun l => l) (two_clients ++ [Call 1 (Add [txt "a:1"]); Acquire 1; Get 1; Update 1; Release 1]) (shared_init []) in
  z_writes s = 3 /\ length (z_returned s) = 4%nat.
Proof. vm_compute. repeat split. Qed.

(** * C55 Party membership ownership *)
Lemma path_inj path n1 n2 : member_path path n1 = member_path path n2 -> n1 = n2.
Proof. unfold member_path. intros E. apply app_inv_head in E. now injection E. Qed.
(** join(), if nobody touches the member's znode between its exists() and its create() or transaction; [z1] and [z2]
    are the znodes at these two moments *)
Theorem C55_join_partial : forall path name sid z1 z2, let p := member_path path name in
  dget z2 p = dget z1 p ->
  exists z', join_act path name sid (join_look path name z1) z2 = (Ok tt, z') /\
    dget z' p = Some (Some sid) /\
    (forall q, q <> p -> dget z' q = dget z2 q) /\
    (dget z1 p = Some (Some sid) -> z' = z2).
Proof.
  intros path name sid z1 z2 p H. unfold join_act, join_look. fold p. rewrite <- H. unfold dmem. destruct (dget z2 p) as [owner|] eqn:G.
  - destruct (option_eqb owner (Some sid)) eqn:E.
    + exists z2. apply option_eqb_spec in E. subst owner. auto.
    + exists (dset (ddel z2 p) p (Some sid)). split; [reflexivity|]. split; [apply dget_dset_same|]. split.
      * intros q N. rewrite dget_dset_other by exact N. now apply dget_ddel_other.
      * intros X. injection X as ->. rewrite (proj2 (option_eqb_spec (Some sid) (Some sid)) eq_refl) in E. discriminate.
  - exists (dset z2 p (Some sid)). split; [reflexivity|]. split; [apply dget_dset_same|]. split; [|discriminate]. intros q N. now apply dget_dset_other.
Qed.
(** a join() that found no node and returns has created it, whatever happened in between *)
Theorem C55_join_new : forall path name sid z1 z2 z', dget z1 (member_path path name) = None ->
  join_act path name sid (join_look path name z1) z2 = (Ok tt, z') -> dget z' (member_path path name) = Some (Some sid).
Proof.
  intros path name sid z1 z2 z' H. unfold join_act, join_look. rewrite H. destruct (dmem z2 _); [discriminate|]. intros E. injection E as <-. apply dget_dset_same.
Qed.
(** but: a node of an older session of the same member expires between exists() and the transaction; the transaction
    fails, join() returns normally and the member is not in the party *)
Theorem C55_join_race_refuted : let p := member_path (txt "/g/members") (txt "m1") in
  let z1 := [(p, Some 7)] in let z2 : znodes := [] in
  join_act (txt "/g/members") (txt "m1") 8 (join_look (txt "/g/members") (txt "m1") z1) z2 = (Ok tt, []) /\ dget z2 p = None.
Proof. split; reflexivity. Qed.
Theorem C55_leave : forall path name z, NoDup (dkeys z) -> exists z', leave path name z = (Ok tt, z') /\
  dget z' (member_path path name) = None /\ forall q, q <> member_path path name -> dget z' q = dget z q.
Proof.
  intros path name z N. eexists. split; [reflexivity|]. split; [now apply dget_ddel_same|]. intros q Hq. now apply dget_ddel_other.
Qed.
(** different members of a party have different znodes *)
Theorem C55_other_members : forall path n1 n2, n1 <> n2 -> member_path path n1 <> member_path path n2.
Proof. intros path n1 n2 N E. apply N. now apply path_inj in E. Qed.
Example C55_example : let z := [(member_path (txt "/p") (txt "a"), Some 7); (member_path (txt "/p") (txt "b"), Some 9)] in
  snd (join (txt "/p") (txt "a") 8 z) = [(member_path (txt "/p") (txt "b"), Some 9); (member_path (txt "/p") (txt "a"), Some 8)] /\
  snd (leave (txt "/p") (txt "c") z) = z.
Proof. vm_compute. repeat split. Qed.

(** * C56 Adding and removing partitions *)
Lemma in_add_items d : forall acc x, In x (fold_left (fun acc tp => set_union acc (mkset (map (part_name (fst tp)) (snd tp)))) d acc) <->
  In x acc \/ exists t ids p, In (t, ids) d /\ In p ids /\ x = partition_string (t, p).
Proof.
  induction d as [|[t ids] d IH]; intros acc x; cbn [fold_left fst snd].
  - split; [auto|]. intros [H|(t & ids & p & [] & _)]; exact H.
  - rewrite IH, in_union, in_mkset, in_map_iff. split.
    + intros [[H|(p & <- & H)]|(t' & ids' & p & H1 & H2 & H3)]; [now left|right; exists t, ids, p; split; [now left|]; split; [exact H|reflexivity]|].
      right. exists t', ids', p. split; [now right|]. auto.
    + intros [H|(t' & ids' & p & [H1|H1] & H2 & H3)]; [auto| |right; eauto 6]. injection H1 as <- <-. left. right. exists p. auto.
Qed.
Theorem C56_add_exact : forall partitions x,
  In x (add_items_of partitions) <-> exists t ids p, In (t, ids) partitions /\ In p ids /\ x = partition_string (t, p).
Proof. intros d x. unfold add_items_of. rewrite in_add_items. cbn. tauto. Qed.
(** the strings tell the partitions apart *)
Theorem C56_names_distinct : forall t p t' p', partition_string (t, p) = partition_string (t', p') -> t = t' /\ p = p'.
Proof. intros t p t' p'. apply part_name_inj. Qed.
(** remove_partitions() raises TypeError for the argument its documentation asks for *)
Theorem C56_remove_refuted : forall t ids rest, remove_items_of ((t, IdList ids) :: rest) = Err EType.
Proof. reflexivity. Qed.
(** it works for a dict of topic -> one partition id, given as a string *)
Theorem C56_remove_partial : forall partitions, (forall t a, In (t, a) partitions -> exists p, a = IdStr (str_of_int p)) ->
  exists items, remove_items_of partitions = Ok items /\
    forall x, In x items <-> exists t p, In (t, IdStr (str_of_int p)) partitions /\ x = partition_string (t, p).
Proof.
  induction partitions as [|[t a] d IH]; intros H; [exists []; split; [reflexivity|]; intros x; split; [intros []|intros (t & p & [] & _)]|].
  destruct (H t a) as (p & ->); [now left|]. destruct IH as (items & E & X); [intros t' a' H'; apply (H t' a'); now right|]. cbn [remove_items_of]. rewrite E. cbn [bind].
  eexists. split; [reflexivity|]. intros x. cbn [In]. rewrite X. split.
  - intros [<-|(t' & p' & H1 & H2)]; [exists t, p; split; [now left|reflexivity]|exists t', p'; auto].
  - intros (t' & p' & [H1|H1] & H2); [left|right; eauto]. injection H1 as -> E'. subst x. unfold partition_string. cbn [fst snd]. now rewrite <- E'.
Qed.
Example C56_example : add_items_of [(txt "a", [0; 1; 0]); (txt "b", [12])] = [txt "a:0"; txt "a:1"; txt "b:12"].
Proof. reflexivity. Qed.

(** * C57 Start/stop report the first failure *)
(** running steps one after another until one raises *)
Fixpoint until_failure {W} (steps : list (W -> res unit * W)) (w : W) : res unit * W :=
  match steps with
  | [] => (Ok tt, w)
  | f :: rest => match f w with (Ok _, w') => until_failure rest w' | (Err e, w') => (Err e, w') end
  end.
Lemma attempts {W} (f : W -> res unit * W) fu w : attempt f (fu, w) = if f_done fu then (fu, w) else match f w with (Ok _, w1) => (fu, w1) | (Err e, w1) => (f_set (Err e) fu, w1) end.
Proof. reflexivity. Qed.
Theorem C57_stop : forall W (leave stop_conn close : W -> res unit * W) w,
  exists f w', stop leave stop_conn close w = (f, w') /\ f_completed f = 1%nat /\
    until_failure [leave; stop_conn; close] w = match f_result f with Some r => (r, w') | None => (Ok tt, w) end /\ f_result f <> None.
Proof.
  intros W a b c w. unfold stop. rewrite attempts. cbn [f_done fresh f_result until_failure]. destruct (a w) as [[[]|e] w1].
  2: { do 2 eexists. split; [reflexivity|]. repeat split; discriminate. }
  rewrite attempts. cbn [f_done fresh f_result]. destruct (b w1) as [[[]|e] w2].
  2: { do 2 eexists. split; [reflexivity|]. repeat split; discriminate. }
  rewrite attempts. cbn [f_done fresh f_result]. destruct (c w2) as [[[]|e] w3]; (do 2 eexists; split; [reflexivity|]; repeat split; discriminate).
Qed.
(** start(): if it returns, its future has the first failure, nothing ran after it, and it was completed once *)
Theorem C57_start_partial : forall W conn mc pc (a b c d e : W -> res unit * W) w f w',
  start conn mc pc a b c d e w = (Some f, w') ->
  f_completed f = 1%nat /\ exists r, f_result f = Some r /\ until_failure [a; b; c; d; e] w = (r, w').
Proof.
  intros W conn mc pc a b c d e w f w'. unfold start. rewrite attempts. cbn [f_done fresh f_result until_failure].
  destruct (a w) as [[[]|x] w1].
  2: { destruct (negb (conn w1)); [discriminate|]. cbn. intros E. injection E as <- <-. cbn. eauto. }
  destruct (negb (conn w1)); [discriminate|].
  rewrite attempts. cbn [f_done fresh f_result]. destruct (b w1) as [[[]|x] w2].
  2: { cbn. intros E. injection E as <- <-. cbn. eauto. }
  rewrite attempts. cbn [f_done fresh f_result]. destruct (c w2) as [[[]|x] w3].
  2: { cbn. intros E. injection E as <- <-. cbn. eauto. }
  rewrite attempts. cbn [f_done fresh f_result]. destruct (d w3) as [[[]|x] w4].
  2: { cbn. intros E. injection E as <- <-. cbn. eauto. }
  rewrite attempts. cbn [f_done fresh f_result]. destruct (e w4) as [[[]|x] w5].
  2: { cbn. intros E. injection E as <- <-. cbn. eauto. }
  cbn [f_done fresh f_result]. destruct (negb (mc w5)); [discriminate|]. destruct (negb (pc w5)); [discriminate|]. intros E. injection E as <- <-. cbn. eauto.
Qed.
(** it returns if the events it waits for come *)
Theorem C57_start_returns : forall W conn mc pc (a b c d e : W -> res unit * W) w,
  (forall w, conn w = true) -> (forall w, mc w = true) -> (forall w, pc w = true) -> exists f w', start conn mc pc a b c d e w = (Some f, w').
Proof.
  intros W conn mc pc a b c d e w H1 H2 H3. unfold start. destruct (attempt a _) as [f w1]. rewrite H1. cbn [negb].
  destruct (attempt e _) as [f2 w2]. destruct (f_done f2); [eauto|]. rewrite H2, H3. cbn. eauto.
Qed.
(** it does not report a failure to connect: it waits for a connection that never comes *)
Theorem C57_connect_failure_refuted : exists (conn : unit -> bool) (a : unit -> res unit * unit),
  a tt = (Err (EOther 3), tt) /\ forall mc pc b c d e, start conn mc pc a b c d e tt = (None, tt).
Proof. exists (fun _ => false), (fun w => (Err (EOther 3), w)). split; reflexivity. Qed.
Example C57_example : let st n := fun w : list nat => (if Nat.eqb n 3 then Err EValue else Ok tt, w ++ [n]) in
  start (fun _ => true) (fun _ => true) (fun _ => true) (st 1%nat) (st 2%nat) (st 3%nat) (st 4%nat) (st 5%nat) [] = (Some (Fut (Some (Err EValue)) 1), [1; 2; 3]%nat) /\
  stop (st 7%nat) (st 8%nat) (st 9%nat) [] = (Fut (Some (Ok tt)) 1, [7; 8; 9]%nat).
Proof. split; reflexivity. Qed.

(** * C58 Connected flag follows the session state *)
Definition last_state (evs : list aevent) : option kstate := fold_left (fun acc ev => match ev with EvState st => Some st | _ => acc end) evs None.
Theorem C58_connected_flag : forall fn cb name evs,
  a_connected (arun fn cb evs (allocator_init name)) = true <-> exists st, last_state evs = Some st /\ st <> LOST /\ st <> SUSPENDED.
Proof.
  intros fn cb name evs.
  assert (R : forall s0, a_connected (snd (rebalance fn cb s0)) = a_connected s0).
  { intros s0. unfold rebalance. destruct (fn _ _) as [mp|e]; [|reflexivity]. set (s1 := Al _ _ _ _ _ _ _ _ _). pose proof (allocation_gives s1) as A. cbv zeta in A.
    destruct (allocation s1) as [[r|e] s2]; cbn [snd] in *; apply A. }
  assert (G : forall s acc, (a_connected s = true <-> exists st, acc = Some st /\ st <> LOST /\ st <> SUSPENDED) ->
    (a_connected (arun fn cb evs s) = true <-> exists st, fold_left (fun acc ev => match ev with EvState st => Some st | _ => acc end) evs acc = Some st /\ st <> LOST /\ st <> SUSPENDED)).
  { induction evs as [|ev evs IH]; intros s acc H; [exact H|]. cbn [arun fold_left]. apply IH. destruct ev as [ms|[ps|]|st|]; cbn [astep].
    - replace (a_connected _) with (a_connected s); [exact H|]. unfold on_members. destruct (set_eqb _ _); [reflexivity|].
      specialize (R (with_members (mkset ms) s)). destruct (rebalance fn cb _) as [[r|e] s1]; symmetry; exact R.
    - replace (a_connected _) with (a_connected s); [exact H|]. unfold on_partitions. destruct (set_eqb _ _); [reflexivity|].
      specialize (R (with_partitions ps s)). destruct (rebalance fn cb _) as [[r|e] s1]; symmetry; exact R.
    - exact H.
    - cbn [on_connection a_connected]. split; [intros E; exists st; destruct st; try discriminate E; repeat split; discriminate|]. intros (st' & E & N1 & N2). injection E as <-. destruct st; congruence.
    - replace (a_connected _) with (a_connected s); [exact H|]. symmetry. apply (allocation_gives s). }
  apply G. cbn. split; [discriminate|]. intros (st & E & _). discriminate E.
Qed.
Example C58_example : a_connected (arun naive_allocator true [EvState CONNECTED; EvState SUSPENDED; EvState CONNECTED; EvMembers [txt "a"]] (allocator_init (txt "a"))) = true.
Proof. reflexivity. Qed.

(** * C59 drain yields everything once and empties *)
Section Drain.
  Context {A : Type}.
  Variable choose : list A -> nat.
  Lemma remove_nth_perm n : forall (l : list A), (n < length l)%nat -> exists x r, remove_nth n l = Some (x, r) /\ Permutation (x :: r) l.
  Proof using.
    induction n as [|n IH]; intros [|y l] L; cbn in L; try lia; [exists y, l; split; reflexivity|].
    destruct (IH l) as (x & r & E & P); [lia|]. exists x, (y :: r). cbn. rewrite E. split; [reflexivity|]. rewrite perm_swap. now constructor.
  Qed.
  Lemma next_item_spec k (c : list A) : match next_item choose k c with
    | None => c = []
    | Some (x, c') => Permutation (x :: c') c /\ match k with KDeque => c = x :: c' | KList | KDict => c = c' ++ [x] | KSet => True end
    end.
  Proof using.
    destruct k; cbn [next_item].
    - destruct (rev c) as [|x r] eqn:E; [rewrite <- (rev_involutive c), E; reflexivity|]. assert (C : c = rev r ++ [x]) by (rewrite <- (rev_involutive c), E; reflexivity).
      split; [rewrite C; now apply Permutation_cons_append|exact C].
    - destruct c; [reflexivity|split; reflexivity].
    - destruct (rev c) as [|x r] eqn:E; [rewrite <- (rev_involutive c), E; reflexivity|]. assert (C : c = rev r ++ [x]) by (rewrite <- (rev_involutive c), E; reflexivity).
      split; [rewrite C; now apply Permutation_cons_append|exact C].
    - destruct c as [|y c]; [reflexivity|]. destruct (remove_nth_perm (Nat.modulo (choose (y :: c)) (length (y :: c))) (y :: c)) as (x & r & E & P).
      + apply Nat.mod_upper_bound. discriminate.
      + rewrite E. auto.
  Qed.
  (** whatever is put into the container meanwhile: items yielded and items left are the items there were and those
      put in; the generator stops only when it finds the container empty *)
  Theorem C59_nothing_lost : forall k ls (c : list A), let s := drun choose k ls (dinit c) in
    Permutation (d_out s ++ d_coll s) (c ++ puts ls) /\
    (d_stopped s = false -> (d_stopped (dstep choose k s Next) = true <-> d_coll s = [])).
  Proof using.
    intros k ls c s. split.
    - assert (G : forall s0, Permutation (d_out (drun choose k ls s0) ++ d_coll (drun choose k ls s0)) (d_out s0 ++ d_coll s0 ++ puts ls)).
      { clear s. induction ls as [|l ls IH]; intros s0; [cbn; now rewrite app_nil_r|]. cbn [drun fold_left]. etransitivity; [apply IH|]. destruct l as [|x]; cbn [dstep].
        - destruct (d_stopped s0); [reflexivity|]. pose proof (next_item_spec k (d_coll s0)) as N. destruct (next_item choose k (d_coll s0)) as [[x c']|]; cbn [d_out d_coll].
          + destruct N as [N _]. change (puts (Next :: ls)) with (puts ls). rewrite <- N, <- app_assoc. reflexivity.
          + reflexivity.
        - cbn [d_out d_coll]. change (puts (Put x :: ls)) with (x :: puts ls). now rewrite <- app_assoc. }
      apply G.
    - intros NS. cbn [dstep]. rewrite NS. pose proof (next_item_spec k (d_coll s)) as N. destruct (next_item choose k (d_coll s)) as [[x c']|]; cbn [d_stopped].
      + split; [discriminate|]. intros E. rewrite E in N. destruct N as [N _]. apply Permutation_sym, Permutation_nil in N. discriminate N.
      + tauto.
  Qed.
  (** iterating to the end *)
  Theorem C59_drained : forall k (c : list A) n, (length c < n)%nat -> let s := drun choose k (repeat Next n) (dinit c) in
    d_coll s = [] /\ d_stopped s = true /\
    match k with KDeque => d_out s = c | KList | KDict => d_out s = rev c | KSet => Permutation (d_out s) c end.
  Proof using.
    intros k c n L.
    assert (ST : forall n s0, d_stopped s0 = true -> drun choose k (repeat Next n) s0 = s0).
    { induction n0 as [|n0 IH]; intros s0 S0; [reflexivity|]. cbn [repeat drun fold_left dstep]. rewrite S0. now apply IH. }
    assert (G : forall n c out, (length c < n)%nat -> let s := drun choose k (repeat Next n) (D c out false) in
      d_coll s = [] /\ d_stopped s = true /\ match k with KDeque => d_out s = out ++ c | KList | KDict => d_out s = out ++ rev c | KSet => Permutation (d_out s) (out ++ c) end).
    { clear n c L. induction n as [|n IH]; intros c out L; [lia|]. cbn [repeat drun fold_left dstep d_stopped d_coll d_out]. pose proof (next_item_spec k c) as N.
      destruct (next_item choose k c) as [[x c']|].
      - destruct N as [P N]. assert (L' : (length c' < n)%nat) by (apply Permutation_length in P; cbn in P; lia). destruct (IH c' (out ++ [x]) L') as (A1 & A2 & A3).
        split; [exact A1|]. split; [exact A2|]. destruct k.
        + rewrite N, rev_app_distr. cbn [rev app]. unfold drun in A3. rewrite A3, <- app_assoc. reflexivity.
        + rewrite N. unfold drun in A3. rewrite A3, <- app_assoc. reflexivity.
        + rewrite N, rev_app_distr. cbn [rev app]. unfold drun in A3. rewrite A3, <- app_assoc. reflexivity.
        + rewrite A3, <- app_assoc. apply Permutation_app_head. exact P.
      - change (fold_left (dstep choose k) (repeat Next n) (D c out true)) with (drun choose k (repeat Next n) (D c out true)). rewrite ST by reflexivity. cbn [d_coll d_stopped d_out]. subst c. cbn [rev]. rewrite app_nil_r. destruct k; auto. }
    apply (G n c []). exact L.
  Qed.
End Drain.
Example C59_example : let c := [1; 2; 3] in
  d_out (drun (fun _ => 1%nat) KList (repeat Next 4) (dinit c)) = [3; 2; 1] /\ d_out (drun (fun _ => 1%nat) KDeque [Next; Put 4; Next; Next; Next; Next] (dinit c)) = [1; 2; 3; 4] /\
  d_out (drun (fun _ => 4%nat) KSet (repeat Next 4) (dinit c)) = [2; 1; 3].
Proof. vm_compute. repeat split. Qed.

Print Assumptions C45_exact_even_cover.
Print Assumptions C45_no_members.
Print Assumptions C46_agree.
Print Assumptions C46_disjoint.
Print Assumptions C47_exactly_on_change_partial.
Print Assumptions C47_default_serves.
Print Assumptions C47_plain_dict_refuted.
Print Assumptions C53_atomic.
Print Assumptions C53_none_lost.
Print Assumptions C54_no_needless_writes.
Print Assumptions C54_unchanged_not_written.
Print Assumptions C55_join_partial.
Print Assumptions C55_join_new.
Print Assumptions C55_join_race_refuted.
Print Assumptions C55_leave.
Print Assumptions C55_other_members.
Print Assumptions C56_add_exact.
Print Assumptions C56_names_distinct.
Print Assumptions C56_remove_refuted.
Print Assumptions C56_remove_partial.
Print Assumptions C57_stop.
Print Assumptions C57_start_partial.
Print Assumptions C57_start_returns.
Print Assumptions C57_connect_failure_refuted.
Print Assumptions C58_connected_flag.
Print Assumptions C59_nothing_lost.
Print Assumptions C59_drained.
