(** Property C65: the members of a group share out the partitions. *)
From Coq Require Import ZArith String List Bool Lia Permutation.
From Verif Require Import PyBase BaseLemmas Constants Cluster Zookeeper SpecZk ZkProofs ZkAlloc PropsZk Consumer SpecConsumer SpecGroup SpecShare ConsumerProofs ConsumerSteps ConsumerRuns AllocRuns PropsConsumer PropsGroup.
Import ListNotations.
Open Scope Z_scope.
Set Default Proof Using "Type".

(** the partitions of a member are those an allocator with the same view gives it *)
Lemma alloc_view {V} (cfg : config V) k name ls g ac nm : md cfg = Grouped g naive_allocator ac nm -> well_named ls ->
  linv naive_allocator good_name (last_members (notified ls)) (last_partitions (notified ls)) (c_alloc (crun cfg ls (consumer_init k name))) /\
  forall t, alloc_of cfg (crun cfg ls (consumer_init k name)) t = gives_to (a_mapping (c_alloc (crun cfg ls (consumer_init k name)))) name t.
Proof.
  intros M N. destruct (linv_run cfg good_name g naive_allocator ac nm ls M naive_total (consumer_init k name) [] [] (inv_init cfg k name) N (linv_init naive_allocator good_name name)) as [L E].
  split; [exact L|]. intros t. unfold alloc_of. rewrite M, E. reflexivity.
Qed.
(** what a step touches is allocated *)
Lemma touches_dicts {V} (cfg : config V) (s : consumer V) l b rq t p : returns_dicts cfg -> reachable cfg s -> In (b, rq) (sent cfg s l) -> touches rq t p -> In p (alloc_of cfg (cstep cfg s l) t).
Proof.
  intros M R H [(r & mw & mb & parts & o & x & -> & IP)|(g' & topics & parts & o & x & -> & IT & IP)].
  - assert (F : is_fetch t (RFetch r mw mb t parts)) by (do 4 eexists; reflexivity). destruct (C41_fetch_requests cfg s l t b _ R H F) as (A & _).
    destruct (A _ _ H) as (_ & parts' & _ & E & B & _). injection E as _ _ _ <-. now apply (B p o x).
  - assert (F : is_commit (RCommit g' topics)) by (do 2 eexists; reflexivity). destruct (C49_commit_requests cfg s l b _ M R H F) as (topics' & m & (g1 & fn & ac1 & n1 & _ & E) & _ & _ & _ & A & _).
    injection E as _ <-. destruct (A t parts IT) as (_ & <- & _). apply in_map_iff. exists (p, (o, x)). auto.
Qed.
Lemma touches_own {V} (cfg : config V) (s : consumer V) l b rq t p g ac nm : md cfg = Grouped g naive_allocator ac nm -> reachable cfg s -> In (b, rq) (sent cfg s l) -> touches rq t p -> In p (alloc_of cfg (cstep cfg s l) t).
Proof. intros M. exact (touches_dicts cfg s l b rq t p (C49_default_returns_dicts V cfg g ac nm M)). Qed.
Lemma sends_no_alloc {V} (cfg : config V) (s : consumer V) l b rq : reachable cfg s -> In (b, rq) (sent cfg s l) -> forall ev, l <> Alloc ev.
Proof.
  intros R H ev ->. assert (NE : sent cfg s (Alloc ev) <> []) by (intros X; rewrite X in H; destruct H).
  destruct (sent_cases cfg s _ (reach_inv cfg s R) NE) as (i & o & look & s1 & ns & A). destruct A as [_ _ _ _ [(X & _)|[(b' & r & k & w & rs & rq' & X & _)|[(r & k & rs & X & _)|(r & t & X & _)]]]]; discriminate X.
Qed.
(** the mapping two allocators with one view come to *)
Lemma views_map lm1 lp1 lm2 lp2 a1 a2 : linv naive_allocator good_name lm1 lp1 a1 -> linv naive_allocator good_name lm2 lp2 a2 -> same_set lm1 lm2 -> same_set lp1 lp2 ->
  forall m t, gives_to (a_mapping a1) m t = gives_to (a_mapping a2) m t.
Proof.
  intros [A1 A2 A3 A4 A5 A6] [B1 B2 B3 B4 B5 B6] SM SP m t.
  assert (EM : sorted (a_members a1) = sorted (a_members a2)) by (apply sorted_canonical; auto; intros x; rewrite (A1 x), (SM x); symmetry; apply B1).
  assert (EP : sorted (a_partitions a1) = sorted (a_partitions a2)) by (apply sorted_canonical; auto; intros x; rewrite (A2 x), (SP x); symmetry; apply B2).
  assert (Z : forall mp, naive_allocator [] [] = Ok mp -> gives_to mp m t = []) by (intros mp [= <-]; reflexivity).
  destruct A6 as [(E1 & E2 & E3)|(mp1 & F1 & G1)], B6 as [(E4 & E5 & E6)|(mp2 & F2 & G2)].
  - now rewrite E3, E6.
  - rewrite E1, E2 in *. rewrite <- EM, <- EP in F2. rewrite E3, G2, (Z _ F2). reflexivity.
  - rewrite E4, E5 in *. rewrite EM, EP in F1. rewrite E6, G1, (Z _ F1). reflexivity.
  - rewrite EM, EP in F1. rewrite F1 in F2. injection F2 as <-. now rewrite G1, G2.
Qed.
(** the owners by one view *)
Lemma view_owners lm lp a : linv naive_allocator good_name lm lp a ->
  (forall m m' t p, In p (gives_to (a_mapping a) m t) -> In p (gives_to (a_mapping a) m' t) -> m = m') /\
  (forall m t p, In p (gives_to (a_mapping a) m t) -> In m lm /\ In (partition_string (t, p)) lp) /\
  (lm <> [] -> forall t p, In (partition_string (t, p)) lp -> exists m, In m lm /\ In p (gives_to (a_mapping a) m t)).
Proof.
  intros [L1 L2 L3 L4 L5 L6].
  assert (NS : NoDup (sorted (a_partitions a))) by (eapply Permutation_NoDup; [symmetry; apply sorted_perm|exact L4]).
  assert (NM : NoDup (sorted (a_members a))) by (eapply Permutation_NoDup; [symmetry; apply sorted_perm|exact L3]).
  destruct (good_pairs (sorted (a_partitions a)) NS) as (pairs & EP & NP & NC); [intros q Hq; apply L5; now apply in_sorted|].
  destruct L6 as [(E1 & E2 & E3)|(mp & F1 & X1)].
  - split; [intros m m' t p H; rewrite E3 in H; destruct H|]. split; [intros m t p H; rewrite E3 in H; destruct H|].
    intros NE. exfalso. destruct lm as [|x lm]; [now apply NE|]. assert (H : In x (a_members a)) by (apply L1; now left). rewrite E1 in H. destruct H.
  - destruct (sorted (a_members a)) as [|m0 ms0] eqn:ES.
    + assert (EM : forall m t, gives_to mp m t = []) by (intros m t; rewrite EP in F1; unfold naive_allocator in F1; destruct pairs; injection F1 as <-; reflexivity).
      split; [intros m m' t p H; rewrite X1, EM in H; destruct H|]. split; [intros m t p H; rewrite X1, EM in H; destruct H|].
      intros NE. exfalso. destruct lm as [|x lm]; [now apply NE|]. assert (H : In x (sorted (a_members a))) by (apply in_sorted, L1; now left). rewrite ES in H. destruct H.
    + destruct (C45_exact_even_cover (m0 :: ms0) pairs NM ltac:(discriminate) NP NC) as (mp' & F' & A1 & _ & A3 & _). rewrite <- EP in F'. rewrite F' in F1. injection F1 as ->.
      assert (IM : forall m, In m (m0 :: ms0) <-> In m lm) by (intros m; rewrite <- ES, in_sorted; apply L1).
      assert (IP : forall t p, In (t, p) pairs -> In (partition_string (t, p)) lp).
      { intros t p H. apply L2, in_sorted. rewrite EP. now apply in_map. }
      split; [|split].
      * intros m m' t p H H'. rewrite X1 in H, H'. destruct (A3 _ _ _ H) as [_ Hp]. destruct (A1 t p Hp) as (m1 & _ & _ & U). now rewrite (U m H), (U m' H').
      * intros m t p H. rewrite X1 in H. destruct (A3 _ _ _ H) as [Hm Hp]. split; [now apply IM|now apply IP].
      * intros _ t p H. assert (HP : In (t, p) pairs).
        { apply L2, in_sorted in H. rewrite EP in H. apply in_map_iff in H as ([t' p'] & E & H). destruct (C56_names_distinct _ _ _ _ E) as [-> ->]. exact H. }
        destruct (A1 t p HP) as (m & Hm & Hg & _). exists m. rewrite X1. split; [now apply IM|exact Hg].
Qed.

(** Two members of a group, each with its own history, whose views of the group agree: no partition is fetched by both or
    committed by both, or fetched by one and committed by the other. *)
Theorem C65_no_partition_shared : forall V1 V2 (cfg1 : config V1) (cfg2 : config V2) g ac1 ac2 n1 n2 k1 k2 ls1 ls2 l1 l2 b1 b2 rq1 rq2 t p,
  md cfg1 = Grouped g naive_allocator ac1 n1 -> md cfg2 = Grouped g naive_allocator ac2 n2 -> n1 <> n2 ->
  well_named ls1 -> well_named ls2 -> agree ls1 ls2 ->
  In (b1, rq1) (sent cfg1 (crun cfg1 ls1 (consumer_init k1 n1)) l1) -> In (b2, rq2) (sent cfg2 (crun cfg2 ls2 (consumer_init k2 n2)) l2) ->
  ~ (touches rq1 t p /\ touches rq2 t p).
Proof.
  intros V1 V2 cfg1 cfg2 g ac1 ac2 n1 n2 k1 k2 ls1 ls2 l1 l2 b1 b2 rq1 rq2 t p M1 M2 NE W1 W2 [SM SP] S1 S2 [T1 T2]. apply NE.
  assert (X : forall V (cfg : config V) g ac n k ls l b rq, md cfg = Grouped g naive_allocator ac n -> well_named ls -> In (b, rq) (sent cfg (crun cfg ls (consumer_init k n)) l) -> touches rq t p ->
    exists a, linv naive_allocator good_name (last_members (notified ls)) (last_partitions (notified ls)) a /\ In p (gives_to (a_mapping a) n t)).
  { clear. intros V cfg g ac n k ls l b rq M W S T. assert (R : reachable cfg (crun cfg ls (consumer_init k n))) by (do 3 eexists; reflexivity).
    pose proof (touches_own cfg _ l b rq t p g ac n M R S T) as H. pose proof (sends_no_alloc cfg _ l b rq R S) as NA.
    assert (E : cstep cfg (crun cfg ls (consumer_init k n)) l = crun cfg (ls ++ [l]) (consumer_init k n)) by (unfold crun; now rewrite fold_left_app). rewrite E in H.
    assert (W' : well_named (ls ++ [l])) by (intros ev HE; apply in_app_or in HE as [HE|[HE|[]]]; [now apply W|exfalso; eapply NA, HE]).
    destruct (alloc_view cfg k n (ls ++ [l]) g ac n M W') as [L A]. rewrite A in H.
    assert (EN : notified (ls ++ [l]) = notified ls) by (unfold notified; rewrite flat_map_app; destruct l as [| | | |ev|]; cbn; try apply app_nil_r; destruct (NA ev eq_refl)). rewrite EN in L. eexists. split; [exact L|exact H]. }
  destruct (X _ _ _ _ _ _ _ _ _ _ M1 W1 S1 T1) as (a1 & L1 & H1). destruct (X _ _ _ _ _ _ _ _ _ _ M2 W2 S2 T2) as (a2 & L2 & H2).
  rewrite <- (views_map _ _ _ _ _ _ L1 L2 SM SP) in H2. eapply (proj1 (view_owners _ _ _ L1)); eassumption.
Qed.
(** No partition is left out: each partition the group knows of belongs to one of its members, by the view of every member
    that agrees. *)
Theorem C65_no_partition_left_out : forall ls t p, well_named ls -> last_members (notified ls) <> [] ->
  In (partition_string (t, p)) (last_partitions (notified ls)) ->
  exists m, In m (last_members (notified ls)) /\
    forall V' (cfg' : config V') g' ac' k' ls', md cfg' = Grouped g' naive_allocator ac' m -> well_named ls' -> agree ls ls' ->
      In p (alloc_of cfg' (crun cfg' ls' (consumer_init k' m)) t).
Proof.
  intros ls t p W NE IN.
  assert (G : forall ev, In ev (notified ls) -> good_event good_name ev) by (intros ev H; apply in_flat_map in H as (l & HL & H); destruct l as [| | | |ev'|]; try contradiction H; destruct H as [<-|[]]; now apply W).
  pose proof (arun_linv naive_allocator true good_name (notified ls) naive_total G [] [] _ (linv_init naive_allocator good_name [])) as L. change (linv naive_allocator good_name (last_members (notified ls)) (last_partitions (notified ls)) (arun naive_allocator true (notified ls) (allocator_init []))) in L.
  destruct (view_owners _ _ _ L) as (_ & _ & X). destruct (X NE t p IN) as (m & IM & H).
  exists m. split; [exact IM|]. intros V' cfg' g' ac' k' ls' M' W' [SM SP]. destruct (alloc_view cfg' k' m ls' g' ac' m M' W') as [L' ->]. now rewrite <- (views_map _ _ _ _ _ _ L L' SM SP).
Qed.

(** Two members of one group, told of each other in different orders, fetching one partition each; and the refused case:
    while their views differ both may fetch the same partition. *)
Definition you : text := txt "you".
Definition you_cfg : config Z := ex_cfg (Grouped (txt "g") naive_allocator true you).
Definition share_parts : option (list text) := Some [part_name tt_ 0; part_name tt_ 1].
Definition share_me : list label := [Alloc (EvMembers [me]); Alloc (EvPartitions share_parts); Alloc (EvMembers [me; you]); Call 1 OpCoordinator; Arrive 1 1 (Ok (PCoordinator 0 2)); Call 2 (OpConsume tt_ None)].
Definition share_you : list label := [Alloc (EvPartitions share_parts); Alloc (EvMembers [you; me]); Call 1 OpCoordinator; Arrive 1 1 (Ok (PCoordinator 0 2)); Call 2 (OpConsume tt_ None)].
Definition share_late : list label := [Alloc (EvPartitions share_parts); Alloc (EvMembers [you]); Call 1 OpCoordinator; Arrive 1 1 (Ok (PCoordinator 0 2)); Call 2 (OpConsume tt_ None)].
Definition share_loaded : label := Arrive 2 2 (Ok (POffsetFetch [(tt_, [(0, (0, 5)); (1, (0, 7))])])).
Lemma share_named ls : (forall l, In l ls -> In l (share_me ++ share_you ++ share_late)) -> well_named ls.
Proof.
  assert (G : forall p i, In p [part_name tt_ 0; part_name tt_ 1] -> i = p -> exists t i, no_colon t /\ p = partition_string (t, i)).
  { intros p i [<-|[<-|[]]] _; [exists tt_, 0|exists tt_, 1]; (split; [intros H; cbn in H; intuition discriminate|reflexivity]). }
  assert (ND : NoDup [part_name tt_ 0; part_name tt_ 1]) by (repeat constructor; cbn; intuition discriminate).
  intros H ev HE. specialize (H _ HE). unfold share_me, share_you, share_late in H. cbn [In app] in H.
  repeat (destruct H as [H|H]; [first [discriminate H|injection H as <-; first [exact I|split; [exact ND|intros p Hp; eapply G; [exact Hp|reflexivity]]]]|]). destruct H.
Qed.
Example C65_example : md (ex_grouped true) = Grouped (txt "g") naive_allocator true me /\ md you_cfg = Grouped (txt "g") naive_allocator true you /\ me <> you /\
  well_named share_me /\ well_named share_you /\ agree share_me share_you /\
  In (partition_string (tt_, 1)) (last_partitions (notified share_me)) /\
  sent (ex_grouped true) (crun (ex_grouped true) share_me (consumer_init ex_cluster me)) share_loaded = [(1, RFetch (-1) 1000 1 tt_ [(0, (5, 1000))])] /\
  sent you_cfg (crun you_cfg share_you (consumer_init ex_cluster you)) share_loaded = [(2, RFetch (-1) 1000 1 tt_ [(1, (7, 1000))])].
Proof.
  split; [reflexivity|]. split; [reflexivity|]. split; [discriminate|]. split; [apply share_named; intros l H; apply in_or_app; now left|]. split; [apply share_named; intros l H; apply in_or_app; right; apply in_or_app; now left|].
  split; [split; intros x; cbn; tauto|]. split; [right; left; reflexivity|]. split; vm_compute; reflexivity.
Qed.
Example C65_views_matter : ~ agree share_me share_late /\
  sent (ex_grouped true) (crun (ex_grouped true) share_me (consumer_init ex_cluster me)) share_loaded = [(1, RFetch (-1) 1000 1 tt_ [(0, (5, 1000))])] /\
  In (1, RFetch (-1) 1000 1 tt_ [(0, (5, 1000))]) (sent you_cfg (crun you_cfg share_late (consumer_init ex_cluster you)) share_loaded).
Proof.
  split; [intros [H _]; assert (X : In me (last_members (notified share_late))) by (apply H; left; reflexivity); vm_compute in X; destruct X as [X|[]]; discriminate X|]. split; [vm_compute; reflexivity|]. vm_compute. auto.
Qed.

Print Assumptions C65_no_partition_shared.
Print Assumptions C65_no_partition_left_out.
