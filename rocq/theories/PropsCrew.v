(** Property C95: the consumers of a group, working together. *)
From Coq Require Import ZArith Lia String List Bool Permutation.
From Verif Require Import PyBase BaseLemmas Constants Cluster Iterables Zookeeper SpecZk ZkProofs ZkAlloc PropsZk Consumer SpecConsumer SpecGroup SpecShare ConsumerProofs ConsumerSteps ConsumerRuns AllocRuns PropsConsumer PropsGroup PropsShare Group SpecGroupRun SpecGroupAny GroupAny GroupOpen PropsGroupAny PropsShareAny Crew SpecCrew CrewProofs CrewSettle.
Import ListNotations.
Open Scope Z_scope.

Section Notice.
Context {fn : list text -> list text -> res mapping}.
Notation nrun := (arun fn true).
Lemma run_name evs s : a_name (nrun evs s) = a_name s.
Proof. revert s. induction evs as [|e evs IH]; intros s; [reflexivity|]. change (nrun (e :: evs) s) with (nrun evs (astep fn true s e)). rewrite IH. apply step_name. Qed.
Lemma alloc_same {V} (cfg : config V) s l g ac name : md cfg = Grouped g fn ac name -> ConsumerRuns.inv cfg s -> (forall ev, l <> Alloc ev) -> forall t, alloc_of cfg (cstep cfg s l) t = alloc_of cfg s t.
Proof.
  intros M I N t. destruct (alloc_step cfg s l I) as [(g' & fn' & ac' & nm & ev & _ & -> & _)|(_ & AR)]; [now destruct (N ev)|]. unfold alloc_of. rewrite M. rewrite (ar_name _ _ AR). apply (ar_gives _ _ AR).
Qed.

(** only kazoo's threads work: they look at what changed and call the allocators *)
Definition notice (ev : gevent) : Prop := exists c, ev = GLookM c \/ ev = GCallM c \/ ev = GLookP c \/ ev = GCallP c.
Definition ready (cl : client) : Prop := g_at cl = Started /\ a_connected (g_alloc cl) = true.
Lemma fine_notice ev : notice ev -> fine ev.
Proof. intros (c & [->|[->|[->| ->]]]); exact Logic.I. Qed.
Lemma deliver_notice c ev : In ev (deliver c) -> notice ev.
Proof. intros H. exists c. cbn in H. intuition auto. Qed.
Lemma no_names evs : (forall ev, In ev evs -> notice ev) -> new_names evs = [].
Proof. induction evs as [|e evs IH]; intros H; [reflexivity|]. assert (X : new_names evs = []) by (apply IH; intros ev X; apply H; now right). destruct (H e (in_eq _ _)) as (c & [->|[->|[->| ->]]]); exact X. Qed.
Lemma greach_more g evs : reaches fn g -> (forall ev, In ev evs -> notice ev) -> reaches fn (grun fn evs g).
Proof.
  intros (es & F & N & ->) H. exists (es ++ evs). split; [intros ev X; apply in_app_or in X as [X|X]; [now apply F|now apply fine_notice, H]|]. split; [|unfold grun; now rewrite fold_left_app].
  unfold new_names in *. rewrite flat_map_app. fold (new_names evs). rewrite (no_names evs H), app_nil_r. exact N.
Qed.
Lemma all_delivered cs : ZkAlloc.total fn good_name -> forall g, reaches fn g -> exists evs, (forall ev, In ev evs -> notice ev) /\
  let g' := grun fn evs g in g_children g' = g_children g /\ g_items g' = g_items g /\
  (forall c cl, dget (g_clients g) c = Some cl -> exists cl', dget (g_clients g') c = Some cl' /\ (settled cl -> settled cl') /\ (ready cl -> ready cl' /\ (In c cs -> settled cl'))).
Proof.
  intros TOT. induction cs as [|c cs IH]; intros g R.
  - exists []. split; [intros ev []|]. cbn. split; [reflexivity|]. split; [reflexivity|]. intros c cl D. exists cl. split; [exact D|]. split; [auto|]. intros X. split; [exact X|intros []].
  - assert (STEP : exists evs, (forall ev, In ev evs -> notice ev) /\ let g' := grun fn evs g in g_children g' = g_children g /\ g_items g' = g_items g /\
      (forall c' cl, dget (g_clients g) c' = Some cl -> exists cl', dget (g_clients g') c' = Some cl' /\ (settled cl -> settled cl') /\ (ready cl -> ready cl' /\ (c' = c -> settled cl')))).
    { destruct (dget (g_clients g) c) as [k|] eqn:Dc.
      2: { exists []. split; [intros ev []|]. cbn. split; [reflexivity|]. split; [reflexivity|]. intros c' cl D. exists cl. split; [exact D|]. split; [auto|]. intros X. split; [exact X|]. intros ->. congruence. }
      assert (DEC : ready k \/ ~ ready k).
      { unfold ready. destruct (a_connected (g_alloc k)); [|right; intros (_ & X); discriminate X]. destruct (g_at k); try (right; intros (X & _); discriminate X). now left. }
      destruct DEC as [[EA EC]|NR].
      - exists (deliver c). split; [apply deliver_notice|]. destruct (delivered fn TOT g c k R Dc EA EC) as ((K1 & K2 & K3) & cl' & D' & S' & A' & C'). cbv zeta in *. split; [exact K1|]. split; [exact K2|].
        intros c' cl D. destruct (Z.eq_dec c' c) as [->|N]; [exists cl'; split; [exact D'|]; split; [auto|]; intros _; split; [now split|auto]|]. exists cl. rewrite (K3 c' N). split; [exact D|]. split; [auto|]. intros X. split; [exact X|]. intros ->. congruence.
      - exists []. split; [intros ev []|]. cbn. split; [reflexivity|]. split; [reflexivity|]. intros c' cl D. exists cl. split; [exact D|]. split; [auto|]. intros X. split; [exact X|]. intros ->. rewrite Dc in D. injection D as <-. contradiction. }
    destruct STEP as (e1 & N1 & A1 & A2 & A3). destruct (IH _ (greach_more g e1 R N1)) as (e2 & N2 & B1 & B2 & B3). cbv zeta in *. exists (e1 ++ e2). split; [intros ev X; apply in_app_or in X as [X|X]; auto|].
    replace (grun fn (e1 ++ e2) g) with (grun fn e2 (grun fn e1 g)) by (unfold grun; now rewrite fold_left_app). split; [now rewrite B1|]. split; [now rewrite B2|].
    intros c' cl D. destruct (A3 c' cl D) as (k1 & D1 & S1 & X1). destruct (B3 c' k1 D1) as (k2 & D2 & S2 & X2). exists k2. split; [exact D2|]. split; [auto|]. intros RD. destruct (X1 RD) as (R1 & Y1). destruct (X2 R1) as (R2 & Y2). split; [exact R2|]. intros [->|H]; [apply S2; now apply Y1|now apply Y2].
Qed.

End Notice.

(** * C95 The consumers of a group, whatever its allocator function *)
Section C95.
  Context {V : Type}.
  Variable fn : list text -> list text -> res mapping.
  Hypothesis SO : shares_out fn.
  Hypothesis PR : forall ms ps mp, fn ms ps = Ok mp -> proper mp.
  Variable cf : Z -> config V.
  Variable gname : text.
  Hypothesis OG : one_group fn cf gname.

  (** Every consumer is one of the clients of the group and the other way round; it runs as a consumer alone does, so that
      all that is proved of single consumers holds of it; and it reads from the partitions the group gives it. *)
  Theorem C95_one_allocator : forall w, wreachable fn cf w ->
    reaches fn (w_group w) /\
    (forall c cl, dget (g_clients (w_group w)) c = Some cl -> exists s, runs w c s) /\
    (forall c s, runs w c s -> reachable (cf c) s /\ exists cl, dget (g_clients (w_group w)) c = Some cl /\ member_name cl = own_name cf c /\ forall t p, In p (alloc_of (cf c) s t) <-> has cl t p).
  Proof using SO PR OG.
    intros w R. destruct (wreach_inv cf gname OG w R) as (seen & I). split; [exact (wi_g _ _ _ I)|]. split.
    - intros c cl D. pose proof (wi_cons _ _ _ I c) as F. unfold follows in F. rewrite D in F. unfold runs. destruct (dget (w_cons w) c) as [s|]; [eauto|contradiction].
    - intros c s D. pose proof (wi_cons _ _ _ I c) as F. unfold follows, runs in *. rewrite D in F. destruct (dget (g_clients (w_group w)) c) as [cl|]; [|contradiction]. destruct F as (k & ls & -> & WN & E).
      split; [now exists k, (own_name cf c), ls|]. exists cl. split; [reflexivity|]. assert (NM : a_name (g_alloc cl) = own_name cf c) by (rewrite E; apply run_name). split; [exact NM|].
      intros t p. destruct (cf_md cf gname OG c) as (ac & MD). destruct (alloc_view fn SO PR (cf c) k (own_name cf c) ls gname ac (own_name cf c) MD WN) as (L & A). rewrite A, has_given, NM.
      assert (G : forall ev, In ev (notified ls) -> good_event good_name ev) by (intros ev H; apply in_flat_map in H as (l & HL & H); destruct l as [| | | |ev'|]; try contradiction H; destruct H as [<-|[]]; now apply WN).
      pose proof (arun_linv fn true good_name (notified ls) (any_total fn SO) G [] [] _ (linv_init fn good_name (own_name cf c))) as L2. rewrite <- E in L2.
      rewrite (views_map fn SO PR _ _ _ _ _ _ L L2 (fun x => iff_refl _) (fun x => iff_refl _)). reflexivity.
  Qed.
  (** What a consumer that has noticed every change of its group fetches or commits is a partition of the group, and it is a
      member; and no other consumer that has noticed every change fetches or commits it. *)
  Theorem C95_exclusive : forall w, wreachable fn cf w -> group_members w <> [] -> forall c1 s1 l1 b1 rq1 t p,
    runs w c1 s1 -> up_to_date w c1 -> In (b1, rq1) (sent (cf c1) s1 l1) -> touches rq1 t p ->
    partition_of_group w t p /\ In (own_name cf c1) (group_members w) /\
    forall c2 s2 l2 b2 rq2, runs w c2 s2 -> up_to_date w c2 -> In (b2, rq2) (sent (cf c2) s2 l2) -> touches rq2 t p -> c1 = c2.
  Proof using SO PR OG.
    intros w R NE c1 s1 l1 b1 rq1 t p D1 (k1 & Dk1 & S1) IN1 T1. destruct (C95_one_allocator w R) as (GR & _ & X).
    assert (NC : g_children (w_group w) <> []) by (intros E; apply NE; unfold group_members, members; now rewrite E).
    assert (H : forall c s l b rq k, runs w c s -> dget (g_clients (w_group w)) c = Some k -> In (b, rq) (sent (cf c) s l) -> touches rq t p -> has k t p /\ member_name k = own_name cf c).
    { intros c s l b rq k D Dk IN T. destruct (X c s D) as (RE & cl & Dcl & NM & HA). rewrite Dk in Dcl. injection Dcl as <-. split; [|exact NM]. apply HA. destruct (cf_md cf gname OG c) as (ac & MD).
      rewrite <- (alloc_same (cf c) s l gname ac _ MD (ConsumerRuns.reach_inv (cf c) s RE) (sends_no_alloc (cf c) s l b rq RE IN)). exact (touches_own fn SO PR (cf c) s l b rq t p gname ac _ MD RE IN T). }
    destruct (H c1 s1 l1 b1 rq1 k1 D1 Dk1 IN1 T1) as (H1 & N1). destruct (C107_disjoint fn SO (w_group w) GR NC c1 c1 k1 k1 Dk1 S1 Dk1 S1) as (_ & Y). destruct (Y t p H1) as (A & B & _).
    split; [exact A|]. split; [unfold group_members; now rewrite <- N1|]. intros c2 s2 l2 b2 rq2 D2 (k2 & Dk2 & S2) IN2 T2. destruct (H c2 s2 l2 b2 rq2 k2 D2 Dk2 IN2 T2) as (H2 & _).
    destruct (C107_disjoint fn SO (w_group w) GR NC c1 c2 k1 k2 Dk1 S1 Dk2 S2) as (_ & Z). now apply (Z t p H1).
  Qed.
  (** Once all members have noticed every change, each partition of the group has exactly one of the consumers, and a
      consume() of that one, as far as it gets to send fetch requests, asks for the partition if it can reach its leader. *)
  Theorem C95_covered : forall w, wreachable fn cf w -> group_members w <> [] ->
    (forall n, In n (group_members w) -> exists c, own_name cf c = n /\ up_to_date w c) ->
    forall t p, partition_of_group w t p ->
    exists c s, runs w c s /\ up_to_date w c /\ In p (alloc_of (cf c) s t) /\
      (forall c' s', runs w c' s' -> up_to_date w c' -> In p (alloc_of (cf c') s' t) -> c' = c) /\
      (forall l b rq, In (b, rq) (sent (cf c) s l) -> is_fetch t rq -> let s' := cstep (cf c) s l in c_ended s' = c_ended s ->
         exists b', leader_of s' t p = Some b' /\ (open_conn s' b' = true -> In p (asked (sent (cf c) s l)))).
  Proof using SO PR OG.
    intros w R NE ALL t p P. destruct (C95_one_allocator w R) as (GR & CL & X).
    assert (NC : g_children (w_group w) <> []) by (intros E; apply NE; unfold group_members, members; now rewrite E).
    assert (ALL' : forall n, In n (members (w_group w)) -> exists c cl, dget (g_clients (w_group w)) c = Some cl /\ member_name cl = n /\ settled cl).
    { intros n Hn. destruct (ALL n Hn) as (c & E & cl & D & S). exists c, cl. split; [exact D|]. split; [|exact S]. destruct (CL c cl D) as (s & Ds). destruct (X c s Ds) as (_ & cl' & D' & NM & _). rewrite D in D'. injection D' as <-. congruence. }
    destruct (@reached_inv fn _ GR) as (used & I). destruct (any_total fn SO (sorted (members (w_group w))) (sorted (g_items (w_group w)))) as (mp & E); [intros q Hq; apply (proj2 (gi_items _ _ I)); now apply in_sorted|].
    destruct (cover_any fn SO used _ I NC mp E) as (A & _). destruct (A t p P) as (m & M & G & _). destruct (ALL' m M) as (c & cl & D & N & S). destruct (share_any fn SO used _ c cl I D S NC) as (mp' & E' & H & _). rewrite E in E'. injection E' as <-.
    assert (HC : has cl t p) by (apply H; now rewrite N). destruct (CL c cl D) as (s & Ds). destruct (X c s Ds) as (RE & cl' & D' & NM & HA). rewrite D in D'. injection D' as <-.
    exists c, s. split; [exact Ds|]. split; [now exists cl|]. split; [now apply HA|]. split.
    - intros c' s' Ds' (k' & Dk' & S') H'. destruct (X c' s' Ds') as (_ & cl'' & D'' & _ & HA'). rewrite Dk' in D''. injection D'' as <-. destruct (C107_disjoint fn SO (w_group w) GR NC c c' cl k' D S Dk' S') as (_ & U). symmetry. apply (U t p HC). now apply HA'.
    - intros l b rq IN F s' EE. destruct (cf_md cf gname OG c) as (ac & MD). destruct (C41_fetch_requests (cf c) s l t b rq RE IN F) as (_ & _ & _ & Y). cbv zeta in Y. apply Y; [exact EE|].
      rewrite (alloc_same (cf c) s l gname ac _ MD (ConsumerRuns.reach_inv (cf c) s RE) (sends_no_alloc (cf c) s l b rq RE IN)). now apply HA.
  Qed.
  Lemma notices_run evs : (forall ev, In ev evs -> notice ev) -> forall w, w_group (wrun fn cf (map WGroup evs) w) = grun fn evs (w_group w).
  Proof using. induction evs as [|e evs IH]; intros H w; [reflexivity|]. change (wrun fn cf (map WGroup (e :: evs)) w) with (wrun fn cf (map WGroup evs) (wstep fn cf w (WGroup e))). rewrite IH by (intros ev X; apply H; now right). change (grun fn (e :: evs) (w_group w)) with (grun fn evs (gstep fn (w_group w) e)). f_equal. destruct (H e (in_eq _ _)) as (c & [->|[->|[->| ->]]]); reflexivity. Qed.
  (** Wherever a group is, when it changes no more the consumers that have started and are connected come to notice all:
      it takes only kazoo's watches, whose calls run to the end, and changes neither the group nor its partitions.  If all
      members are such consumers each partition has its one consumer from then on (C95_covered). *)
  Theorem C95_settles : forall w, wreachable fn cf w -> exists evs, (forall ev, In ev evs -> notice ev) /\
    let w' := wrun fn cf (map WGroup evs) w in
    wreachable fn cf w' /\ group_members w' = group_members w /\ (forall t p, partition_of_group w' t p <-> partition_of_group w t p) /\
    forall c cl, dget (g_clients (w_group w)) c = Some cl -> ready cl -> up_to_date w' c /\ exists s, runs w' c s.
  Proof using SO PR OG.
    intros w R. destruct (C95_one_allocator w R) as (GR & _). destruct (all_delivered (dkeys (g_clients (w_group w))) (any_total fn SO) _ GR) as (evs & N & A1 & A2 & A3). cbv zeta in *. exists evs. split; [exact N|].
    assert (R' : wreachable fn cf (wrun fn cf (map WGroup evs) w)).
    { destruct R as (es & F & ND & ->). exists (es ++ map WGroup evs). split; [|split].
      - intros e X. apply in_app_or in X as [X|X]; [now apply F|]. apply in_map_iff in X as (ev & <- & X). apply fine_notice. now apply N.
      - unfold news in *. rewrite flat_map_app. replace (flat_map _ (map WGroup evs)) with (@nil Z); [now rewrite app_nil_r|]. clear. induction evs as [|e evs IH]; [reflexivity|exact IH].
      - unfold wrun. now rewrite fold_left_app. }
    split; [exact R'|]. unfold group_members, members, partition_of_group, up_to_date. rewrite (notices_run evs N w), A1, A2. split; [reflexivity|]. split; [reflexivity|].
    intros c cl D RD. destruct (A3 c cl D) as (cl' & D' & _ & X). destruct (X RD) as (_ & Y). split; [exists cl'; split; [exact D'|]; apply Y; exact (dget_Some_in _ _ _ D)|].
    destruct (C95_one_allocator _ R') as (_ & CL & _). apply (CL c cl'). rewrite (notices_run evs N w). exact D'.
  Qed.
End C95.

(** Two consumers share the two partitions of topic t: each fetches its own, and when the second dies and its session ends
    the first comes to fetch both. *)
Definition crew_name (c : Z) : text := txt "m" ++ [c].
Definition crew_cf (c : Z) : config Z := ex_cfg (Grouped (txt "g") naive_allocator true (crew_name c)).
Definition crew_start : list wevent :=
  [WNew 1 ex_cluster; WNew 2 ex_cluster] ++ map WGroup ([GConnect 1; GConnect 2] ++ repeat (GStep 1) 9 ++ deliver 1 ++ repeat (GStep 2) 9).
Definition crew_shared : list wevent := crew_start ++ map WGroup (deliver 1 ++ deliver 2).
Definition crew_work : list wevent :=
  flat_map (fun c => [WDo c (Call 1 OpCoordinator); WDo c (Arrive 1 1 (Ok (PCoordinator 0 2))); WDo c (Call 2 (OpConsume tt_ None))]) [1; 2].
Lemma crew_one : one_group naive_allocator crew_cf (txt "g").
Proof. split; [intros c; exists true, (crew_name c); reflexivity|]. intros c c' H. unfold own_name, crew_cf, crew_name in H. cbn in H. injection H as H. exact H. Qed.
Lemma crew_fine es : forallb (fun e => match e with WNew _ k => forallb (fun tp => forallb (fun x => negb (x =? 58)) (fst tp)) (k_topics k) | WGroup (GNew _ _ _ | GItems _) => false | _ => true end) es = true -> forall e, In e es -> fine_event e.
Proof.
  intros H e X. rewrite forallb_forall in H. specialize (H e X). destruct e as [c k|ev|c l]; [|destruct ev; try discriminate H; exact Logic.I|exact Logic.I].
  intros t ps Y. rewrite forallb_forall in H. specialize (H _ Y). cbn [fst] in H. rewrite forallb_forall in H. intros Z. specialize (H _ Z). discriminate H.
Qed.
Definition opt_alloc (w : crew Z) (c : Z) : option (list Z) := match dget (w_cons w) c with Some s => Some (alloc_of (crew_cf c) s tt_) | None => None end.
Definition opt_sent (w : crew Z) (c : Z) (l : label) : list (Z * request) := match dget (w_cons w) c with Some s => sent (crew_cf c) s l | None => [] end.
Definition stored_at (n : Z) : label := Arrive 2 2 (Ok (POffsetFetch [(tt_, [(0, (0, n)); (1, (0, n))])])).
Example C95_example :
  let w := wrun naive_allocator crew_cf (crew_shared ++ crew_work) crew_init in
  wreachable naive_allocator crew_cf w /\ group_members w = [crew_name 1; crew_name 2] /\
  (forall n, In n (group_members w) -> exists c, own_name crew_cf c = n /\ up_to_date w c) /\ partition_of_group w tt_ 0 /\ partition_of_group w tt_ 1 /\
  opt_sent w 1 (stored_at 5) = [(1, RFetch (-1) 1000 1 tt_ [(0, (5, 1000))])] /\ opt_sent w 2 (stored_at 7) = [(2, RFetch (-1) 1000 1 tt_ [(1, (7, 1000))])].
Proof.
  cbv zeta. split; [exists (crew_shared ++ crew_work); split; [apply crew_fine; vm_compute; reflexivity|split; [|reflexivity]]|].
  { change (NoDup [1; 2]). repeat constructor; cbn; intuition discriminate. }
  split; [vm_compute; reflexivity|]. assert (M : group_members (wrun naive_allocator crew_cf (crew_shared ++ crew_work) crew_init) = [crew_name 1; crew_name 2]) by (vm_compute; reflexivity). rewrite M. split.
  { intros n [<-|[<-|[]]]; [exists 1|exists 2]; (split; [reflexivity|]); eexists; (split; [vm_compute; reflexivity|]); repeat split. }
  split; [vm_compute; tauto|]. split; [vm_compute; tauto|]. split; vm_compute; reflexivity.
Qed.
(** A consumer that has not noticed the second one yet still fetches everything; the watches end that. *)
Example C95_changes :
  opt_alloc (wrun naive_allocator crew_cf crew_start crew_init) 1 = Some [0; 1] /\ opt_alloc (wrun naive_allocator crew_cf crew_shared crew_init) 1 = Some [0] /\ opt_alloc (wrun naive_allocator crew_cf crew_shared crew_init) 2 = Some [1] /\
  opt_alloc (wrun naive_allocator crew_cf (crew_shared ++ map WGroup (GDie 2 :: GEnd 1 :: deliver 1)) crew_init) 1 = Some [0; 1].
Proof. vm_compute. repeat split. Qed.

(** the default function is one C95 holds for; so is one that returns plain dicts, with which two consumers that start at once
    share the partitions out, too *)
Definition plain_cf (c : Z) : config Z := ex_cfg (Grouped (txt "g") plain_allocator true (crew_name c)).
Definition plain_shared : list wevent :=
  [WNew 1 ex_cluster; WNew 2 ex_cluster] ++
  map WGroup ([GConnect 1; GConnect 2] ++ repeat (GStep 1) 5 ++ repeat (GStep 2) 5 ++ repeat (GStep 1) 4 ++ repeat (GStep 2) 4 ++ deliver 1 ++ deliver 2).
Example C95_functions :
  (shares_out naive_allocator /\ (forall ms ps mp, naive_allocator ms ps = Ok mp -> proper mp) /\ one_group naive_allocator crew_cf (txt "g")) /\
  (shares_out plain_allocator /\ (forall ms ps mp, plain_allocator ms ps = Ok mp -> proper mp) /\ one_group plain_allocator plain_cf (txt "g")) /\
  let w := wrun plain_allocator plain_cf plain_shared crew_init in
  wreachable plain_allocator plain_cf w /\ group_members w = [crew_name 1; crew_name 2] /\ opt_alloc w 1 = Some [0] /\ opt_alloc w 2 = Some [1].
Proof.
  split; [|split; [|cbv zeta; split]].
  - split; [exact naive_shares|]. split; [exact naive_proper|exact crew_one].
  - split; [exact plain_shares|]. split; [exact plain_proper|]. split; [intros c; exists true, (crew_name c); reflexivity|]. intros c c' H. unfold own_name, plain_cf, crew_name in H. cbn in H. injection H as H. exact H.
  - exists plain_shared. split; [apply crew_fine; vm_compute; reflexivity|split; [|reflexivity]]. change (NoDup [1; 2]). repeat constructor; cbn; intuition discriminate.
  - vm_compute. repeat split.
Qed.

Print Assumptions C95_one_allocator.
Print Assumptions C95_exclusive.
Print Assumptions C95_covered.
Print Assumptions C95_settles.
