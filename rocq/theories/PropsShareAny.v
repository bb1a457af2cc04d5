(** Property C107, the requests: the members of a group share out the partitions as their allocator function says.  Specification: SpecGroupAny.v. *)
From Coq Require Import ZArith String List Bool Lia Permutation.
From Verif Require Import PyBase BaseLemmas Constants Cluster Zookeeper SpecZk ZkProofs ZkAlloc PropsZk Consumer SpecConsumer SpecGroup SpecShare ConsumerProofs ConsumerSteps ConsumerRuns AllocRuns PropsConsumer PropsGroup.
From Verif Require Import SpecGroupRun SpecGroupAny PropsShare PropsGroupAny.
Import ListNotations.
Open Scope Z_scope.
Set Default Proof Using "All".

Section Any.
Variable fn : list text -> list text -> res mapping.
Hypothesis SO : shares_out fn.
Hypothesis PR : forall ms ps mp, fn ms ps = Ok mp -> proper mp.
(** the partitions of a member are those an allocator with the same view gives it *)
Lemma alloc_view {V} (cfg : config V) k name ls g ac nm : md cfg = Grouped g fn ac nm -> well_named ls ->
  linv fn good_name (last_members (notified ls)) (last_partitions (notified ls)) (c_alloc (crun cfg ls (consumer_init k name))) /\
  forall t, alloc_of cfg (crun cfg ls (consumer_init k name)) t = gives_to (a_mapping (c_alloc (crun cfg ls (consumer_init k name)))) name t.
Proof.
  intros M N. destruct (linv_run cfg good_name g fn ac nm ls M (any_total fn SO) (consumer_init k name) [] [] (inv_init cfg k name) N (linv_init fn good_name name)) as [L E].
  split; [exact L|]. intros t. unfold alloc_of. rewrite M, E. reflexivity.
Qed.
Lemma dicts {V} (cfg : config V) g ac nm : md cfg = Grouped g fn ac nm -> returns_dicts cfg.
Proof. intros M g' fn' ac' nm' ms ps mp M' E. rewrite M in M'. injection M' as <- <- <- <-. eapply PR, E. Qed.
(** what a step touches is allocated *)
Lemma touches_own {V} (cfg : config V) (s : consumer V) l b rq t p g ac nm : md cfg = Grouped g fn ac nm -> reachable cfg s -> In (b, rq) (sent cfg s l) -> touches rq t p -> In p (alloc_of cfg (cstep cfg s l) t).
Proof.
  intros M R H [(r & mw & mb & parts & o & x & -> & IP)|(g' & topics & parts & o & x & -> & IT & IP)].
  - assert (F : is_fetch t (RFetch r mw mb t parts)) by (do 4 eexists; reflexivity). destruct (C41_fetch_requests cfg s l t b _ R H F) as (A & _).
    destruct (A _ _ H) as (_ & parts' & _ & E & B & _). injection E as _ _ _ <-. now apply (B p o x).
  - assert (F : is_commit (RCommit g' topics)) by (do 2 eexists; reflexivity). destruct (C49_commit_requests cfg s l b _ (dicts cfg g ac nm M) R H F) as (topics' & m & (g1 & fn1 & ac1 & n1 & _ & E) & _ & _ & _ & A & _).
    injection E as _ <-. destruct (A t parts IT) as (_ & <- & _). apply in_map_iff. exists (p, (o, x)). auto.
Qed.
(** the mapping two allocators with one view come to *)
Lemma views_map lm1 lp1 lm2 lp2 a1 a2 : linv fn good_name lm1 lp1 a1 -> linv fn good_name lm2 lp2 a2 -> same_set lm1 lm2 -> same_set lp1 lp2 ->
  forall m t, gives_to (a_mapping a1) m t = gives_to (a_mapping a2) m t.
Proof.
  intros [A1 A2 A3 A4 A5 A6] [B1 B2 B3 B4 B5 B6] SM SP m t.
  assert (EM : sorted (a_members a1) = sorted (a_members a2)) by (apply sorted_canonical; auto; intros x; rewrite (A1 x), (SM x); symmetry; apply B1).
  assert (EP : sorted (a_partitions a1) = sorted (a_partitions a2)) by (apply sorted_canonical; auto; intros x; rewrite (A2 x), (SP x); symmetry; apply B2).
  assert (Z : forall mp, fn [] [] = Ok mp -> gives_to mp m t = []).
  { intros mp F. destruct (gives_to mp m t) as [|p l] eqn:EG; [reflexivity|]. destruct (so_only fn SO [] [] mp (NoDup_nil _) (NoDup_nil _) (fun q H => match H with end) F m t p) as ([] & _). rewrite EG. now left. }
  destruct A6 as [(E1 & E2 & E3)|(mp1 & F1 & G1)], B6 as [(E4 & E5 & E6)|(mp2 & F2 & G2)].
  - now rewrite E3, E6.
  - rewrite E1, E2 in *. rewrite <- EM, <- EP in F2. rewrite E3, G2, (Z _ F2). reflexivity.
  - rewrite E4, E5 in *. rewrite EM, EP in F1. rewrite E6, G1, (Z _ F1). reflexivity.
  - rewrite EM, EP in F1. rewrite F1 in F2. injection F2 as <-. now rewrite G1, G2.
Qed.
(** the owners by one view *)
Lemma view_owners lm lp a : linv fn good_name lm lp a ->
  (forall m m' t p, In p (gives_to (a_mapping a) m t) -> In p (gives_to (a_mapping a) m' t) -> m = m') /\
  (lm <> [] -> forall t p, In (partition_string (t, p)) lp -> exists m, In m lm /\ In p (gives_to (a_mapping a) m t)).
Proof.
  intros [L1 L2 L3 L4 L5 L6].
  assert (NS : NoDup (sorted (a_partitions a))) by (eapply Permutation_NoDup; [symmetry; apply sorted_perm|exact L4]).
  assert (NM : NoDup (sorted (a_members a))) by (eapply Permutation_NoDup; [symmetry; apply sorted_perm|exact L3]).
  assert (NA : forall q, In q (sorted (a_partitions a)) -> named q) by (intros q Hq; apply L5; now apply in_sorted).
  destruct L6 as [(E1 & E2 & E3)|(mp & F1 & X1)].
  - split; [intros m m' t p H; rewrite E3 in H; destruct H|].
    intros NE. exfalso. destruct lm as [|x lm]; [now apply NE|]. assert (H : In x (a_members a)) by (apply L1; now left). rewrite E1 in H. destruct H.
  - split.
    + intros m m' t p H H'. rewrite X1 in H, H'. destruct (so_only fn SO _ _ mp NM NS NA F1 m t p H) as [Hm Hp].
      assert (NE : sorted (a_members a) <> []) by (intros E; rewrite E in Hm; destruct Hm).
      destruct (so_each fn SO _ _ mp NM NE NS NA F1 t p Hp) as (m1 & _ & _ & U). now rewrite (U m H), (U m' H').
    + intros NL t p H. assert (NE : sorted (a_members a) <> []).
      { intros E. destruct lm as [|x lm]; [now apply NL|]. assert (K : In x (sorted (a_members a))) by (apply in_sorted, L1; now left). rewrite E in K. destruct K. }
      destruct (so_each fn SO _ _ mp NM NE NS NA F1 t p) as (m & Hm & Hg & _); [apply in_sorted, L2, H|]. exists m. rewrite X1. split; [apply L1, in_sorted, Hm|exact Hg].
Qed.

(** Two members of a group, each with its own history, whose views of the group agree: no partition is fetched by both or
    committed by both, or fetched by one and committed by the other. *)
Lemma requests_disjoint : forall V1 V2 (cfg1 : config V1) (cfg2 : config V2) g ac1 ac2 n1 n2 k1 k2 ls1 ls2 l1 l2 b1 b2 rq1 rq2 t p,
  md cfg1 = Grouped g fn ac1 n1 -> md cfg2 = Grouped g fn ac2 n2 -> n1 <> n2 ->
  well_named ls1 -> well_named ls2 -> agree ls1 ls2 ->
  In (b1, rq1) (sent cfg1 (crun cfg1 ls1 (consumer_init k1 n1)) l1) -> In (b2, rq2) (sent cfg2 (crun cfg2 ls2 (consumer_init k2 n2)) l2) ->
  ~ (touches rq1 t p /\ touches rq2 t p).
Proof.
  intros V1 V2 cfg1 cfg2 g ac1 ac2 n1 n2 k1 k2 ls1 ls2 l1 l2 b1 b2 rq1 rq2 t p M1 M2 NE W1 W2 [SM SP] S1 S2 [T1 T2]. apply NE.
  assert (X : forall V (cfg : config V) g ac n k ls l b rq, md cfg = Grouped g fn ac n -> well_named ls -> In (b, rq) (sent cfg (crun cfg ls (consumer_init k n)) l) -> touches rq t p ->
    exists a, linv fn good_name (last_members (notified ls)) (last_partitions (notified ls)) a /\ In p (gives_to (a_mapping a) n t)).
  { clear - SO PR. intros V cfg g ac n k ls l b rq M W S T. assert (R : reachable cfg (crun cfg ls (consumer_init k n))) by (do 3 eexists; reflexivity).
    pose proof (touches_own cfg _ l b rq t p g ac n M R S T) as H. pose proof (sends_no_alloc cfg _ l b rq R S) as NA.
    assert (E : cstep cfg (crun cfg ls (consumer_init k n)) l = crun cfg (ls ++ [l]) (consumer_init k n)) by (unfold crun; now rewrite fold_left_app). rewrite E in H.
    assert (W' : well_named (ls ++ [l])) by (intros ev HE; apply in_app_or in HE as [HE|[HE|[]]]; [now apply W|exfalso; eapply NA, HE]).
    destruct (alloc_view cfg k n (ls ++ [l]) g ac n M W') as [L A]. rewrite A in H.
    assert (EN : notified (ls ++ [l]) = notified ls) by (unfold notified; rewrite flat_map_app; destruct l as [| | | |ev|]; cbn; try apply app_nil_r; destruct (NA ev eq_refl)). rewrite EN in L. eexists. split; [exact L|exact H]. }
  destruct (X _ _ _ _ _ _ _ _ _ _ M1 W1 S1 T1) as (a1 & L1 & H1). destruct (X _ _ _ _ _ _ _ _ _ _ M2 W2 S2 T2) as (a2 & L2 & H2).
  rewrite <- (views_map _ _ _ _ _ _ L1 L2 SM SP) in H2. eapply (proj1 (view_owners _ _ _ L1)); eassumption.
Qed.
(** No partition is left out: each partition the group knows of belongs to one of its members, by the view of every member
    that agrees. *)
Lemma requests_cover : forall ls t p, well_named ls -> last_members (notified ls) <> [] ->
  In (partition_string (t, p)) (last_partitions (notified ls)) ->
  exists m, In m (last_members (notified ls)) /\
    forall V' (cfg' : config V') g' ac' k' ls', md cfg' = Grouped g' fn ac' m -> well_named ls' -> agree ls ls' ->
      In p (alloc_of cfg' (crun cfg' ls' (consumer_init k' m)) t).
Proof.
  intros ls t p W NE IN.
  assert (G : forall ev, In ev (notified ls) -> good_event good_name ev) by (intros ev H; apply in_flat_map in H as (l & HL & H); destruct l as [| | | |ev'|]; try contradiction H; destruct H as [<-|[]]; now apply W).
  pose proof (arun_linv fn true good_name (notified ls) (any_total fn SO) G [] [] _ (linv_init fn good_name [])) as L. change (linv fn good_name (last_members (notified ls)) (last_partitions (notified ls)) (arun fn true (notified ls) (allocator_init []))) in L.
  destruct (view_owners _ _ _ L) as (_ & X). destruct (X NE t p IN) as (m & IM & H).
  exists m. split; [exact IM|]. intros V' cfg' g' ac' k' ls' M' W' [SM SP]. destruct (alloc_view cfg' k' m ls' g' ac' m M' W') as [L' ->]. now rewrite <- (views_map _ _ _ _ _ _ L L' SM SP).
Qed.
End Any.

(** Two members of a group with one function, each with its own history, whose views of the group agree: no partition is
    fetched by both or committed by both, or fetched by one and committed by the other. *)
Theorem C107_requests_disjoint : forall fn, shares_out fn -> (forall ms ps mp, fn ms ps = Ok mp -> proper mp) ->
  forall V1 V2 (cfg1 : config V1) (cfg2 : config V2) g ac1 ac2 n1 n2 k1 k2 ls1 ls2 l1 l2 b1 b2 rq1 rq2 t p,
  md cfg1 = Grouped g fn ac1 n1 -> md cfg2 = Grouped g fn ac2 n2 -> n1 <> n2 ->
  well_named ls1 -> well_named ls2 -> agree ls1 ls2 ->
  In (b1, rq1) (sent cfg1 (crun cfg1 ls1 (consumer_init k1 n1)) l1) -> In (b2, rq2) (sent cfg2 (crun cfg2 ls2 (consumer_init k2 n2)) l2) ->
  ~ (touches rq1 t p /\ touches rq2 t p).
Proof. exact requests_disjoint. Qed.
(** No partition is left out. *)
Theorem C107_requests_cover : forall fn, shares_out fn -> (forall ms ps mp, fn ms ps = Ok mp -> proper mp) ->
  forall ls t p, well_named ls -> last_members (notified ls) <> [] -> In (partition_string (t, p)) (last_partitions (notified ls)) ->
  exists m, In m (last_members (notified ls)) /\
    forall V' (cfg' : config V') g' ac' k' ls', md cfg' = Grouped g' fn ac' m -> well_named ls' -> agree ls ls' ->
      In p (alloc_of cfg' (crun cfg' ls' (consumer_init k' m)) t).
Proof. exact requests_cover. Qed.

(** two members with the plain dicts of PropsGroupAny.v, told of each other in different orders, fetching one partition each *)
Lemma plain_proper ms ps mp : plain_allocator ms ps = Ok mp -> proper mp.
Proof.
  unfold plain_allocator. destruct (naive_allocator ms ps) as [mp0|e] eqn:E; [|discriminate]. cbn [bind]. intros [= <-] m tm D. cbn [mp_tab] in D. rewrite dget_plain in D. destruct (existsb _ _); [|discriminate D]. injection D as <-.
  destruct (dget (mp_tab mp0) m) as [tm|] eqn:D; [|constructor]. exact (naive_proper ms ps mp0 E m tm D).
Qed.
Definition plain_cfg (name : text) : config Z := ex_cfg (Grouped (txt "g") plain_allocator true name).
Example C107_requests_example : shares_out plain_allocator /\ (forall ms ps mp, plain_allocator ms ps = Ok mp -> proper mp) /\ me <> you /\
  well_named share_me /\ well_named share_you /\ agree share_me share_you /\
  sent (plain_cfg me) (crun (plain_cfg me) share_me (consumer_init ex_cluster me)) share_loaded = [(1, RFetch (-1) 1000 1 tt_ [(0, (5, 1000))])] /\
  sent (plain_cfg you) (crun (plain_cfg you) share_you (consumer_init ex_cluster you)) share_loaded = [(2, RFetch (-1) 1000 1 tt_ [(1, (7, 1000))])].
Proof.
  split; [exact plain_shares|]. split; [exact plain_proper|]. split; [discriminate|]. split; [apply share_named; intros l H; apply in_or_app; now left|]. split; [apply share_named; intros l H; apply in_or_app; right; apply in_or_app; now left|].
  split; [split; intros x; cbn; tauto|]. split; vm_compute; reflexivity.
Qed.

Print Assumptions C107_requests_disjoint.
Print Assumptions C107_requests_cover.
