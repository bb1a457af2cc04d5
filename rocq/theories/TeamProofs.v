(** Proofs for C99: the phases of a member - without positions, looking them up, healing after a lookup, dropping what it
    fetches after a rebalance, reading - and what survives each step of it. *)
From Coq Require Import ZArith String List Bool Lia.
From Verif Require Import PyBase BaseLemmas Constants Cluster Zookeeper SpecZk ZkAlloc Consumer SpecConsumer ConsumerProofs ConsumerSteps ConsumerRuns ConsumerSync PropsConsumer SpecGroup GroupProofs PropsZk PropsGroup PropsCoord SpecHistory PropsHistory SpecLog FollowRuns PropsLog AllocRuns SpecShare PropsShare SpecGroupLog PropsGroupLog SpecTeam.
Import ListNotations.
Open Scope Z_scope.
Set Default Proof Using "Type".

(** ** the allocation changes only with a rebalance *)
Lemma naive_answers : full_allocator naive_allocator.
Proof. split; [|exact naive_proper]. intros ms ps mp. unfold naive_allocator. destruct (allocate _ _ _ _) as [tab|]; [|discriminate]. cbn. intros E. now injection E as <-. Qed.
Lemma rebalance_calls_back fn (AA : full_allocator fn) s : let s' := snd (rebalance fn true s) in a_callbacks s' = a_callbacks s -> forall m t, gives_to (a_mapping s') m t = gives_to (a_mapping s) m t.
Proof.
  cbv zeta. unfold rebalance. destruct (fn (sorted (a_members s)) (sorted (a_partitions s))) as [mp|e] eqn:E; [|reflexivity].
  set (s1 := Al _ _ _ mp _ _ _ _ _). pose proof (allocation_gives s1) as A. cbv zeta in A. assert (AF : exists x, fst (allocation s1) = Ok x).
  { unfold allocation. cbn [s1 a_mapping a_name]. rewrite (proj1 AA _ _ _ E). destruct (dget (mp_tab mp) (a_name s)); eexists; reflexivity. }
  destruct (allocation s1) as [r s2]. cbn [fst snd] in *. destruct AF as [x ->]. destruct A as (_ & _ & _ & _ & _ & _ & _ & _ & A9). cbn. rewrite A9. cbn. lia.
Qed.
Lemma astep_calls_back fn (AA : full_allocator fn) s ev : let s' := astep fn true s ev in a_callbacks s' = a_callbacks s -> forall m t, gives_to (a_mapping s') m t = gives_to (a_mapping s) m t.
Proof.
  cbv zeta. destruct ev as [ms|[ps|]|st|]; cbn [astep].
  - unfold on_members. destruct (set_eqb (mkset ms) (a_members s)); [reflexivity|]. pose proof (rebalance_calls_back fn AA (with_members (mkset ms) s)) as R. cbv zeta in R. destruct (rebalance fn true (with_members (mkset ms) s)) as [[u|e] s1]; cbn in *; exact R.
  - unfold on_partitions. destruct (set_eqb ps (a_partitions s)); [reflexivity|]. pose proof (rebalance_calls_back fn AA (with_partitions ps s)) as R. cbv zeta in R. destruct (rebalance fn true (with_partitions ps s)) as [[u|e] s1]; cbn in *; exact R.
  - reflexivity.
  - reflexivity.
  - intros _ m t. apply allocation_gives.
Qed.

Section Ends.
  Context {V : Type}.
  Variable cfg : config V.
  Notation st := (consumer V).
  (** a step ends at most one call, which then no longer runs *)
  Lemma step_ends (s : st) l : inv cfg s -> c_ended (cstep cfg s l) = c_ended s \/
    exists i o r, c_ended (cstep cfg s l) = c_ended s ++ [(i, o, r)] /\ dget (c_calls (cstep cfg s l)) i = None /\ (((forall j o', l <> Call j o') /\ exists p, dget (c_calls s) i = Some (o, p)) \/ l = Call i o).
  Proof.
    intros I0. pose proof (cstep_did cfg s l I0) as DD. remember (cstep cfg s l) as s' eqn:ES. clear ES.
    assert (CONT : forall j o (ns : next V * st) s1, c_ended s1 = c_ended s -> c_calls s1 = c_calls s -> (exists lk ex, moves cfg lk o ex s1 (snd ns)) -> (((forall j o', l <> Call j o') /\ exists p, dget (c_calls s) j = Some (o, p)) \/ l = Call j o) ->
      c_ended (continue j o ns) = c_ended s \/ exists i o0 r, c_ended (continue j o ns) = c_ended s ++ [(i, o0, r)] /\ dget (c_calls (continue j o ns)) i = None /\ (((forall j o', l <> Call j o') /\ exists p, dget (c_calls s) i = Some (o0, p)) \/ l = Call i o0)).
    { intros j o ns s1 E1 C1 (lk & ex & M) W. destruct (continue_calls j o ns j) as [_ X]; [rewrite (p_calls _ _ _ _ _ _ M), C1; apply I0|]. rewrite Z.eqb_refl in X. rewrite continue_ended, (p_ended _ _ _ _ _ _ M), E1.
      destruct (fst ns) as [p|v|e]; [left; apply app_nil_r|right; exists j, o, (Ok v); auto|right; exists j, o, (Err e); auto]. }
    destruct DD as [l _|j o1 ns D1 E1 P|j b r o1 k w rs rq1 D1 F1 W IA HF NE F'|j b r o1 k w rs rq1 ns D1 F1 W IA E1 P|j r o1 k rs s1 ns D1 F1 E1 P|j r t1 st1 ns D1 E1 P|k|g' fn' ac' name ev M|]; try (left; reflexivity).
    - destruct P as [(ex & M & _) _ _ _]. eapply CONT; eauto.
    - left. rewrite continue_ended. cbn [fst snd]. rewrite app_nil_r. apply answer_state_same.
    - destruct (paid_some cfg k rs) as [lv PD]. destruct (P lv PD) as [(ex & M & _) _ _ _]. destruct (answer_state_same cfg r s) as (C1 & E2 & _). eapply (CONT j o1 ns (answer_state cfg r s)); eauto. left. split; [discriminate|eauto].
    - destruct (paid_some cfg k rs) as [lv PD]. destruct (P lv PD) as [(ex & M & _) _ _ _]. eapply (CONT j o1 ns s1); eauto; try (destruct E1 as [(u & _ & -> & _)|(e & _ & -> & _)]; reflexivity). left. split; [discriminate|eauto].
    - destruct P as [(ex & M & _) _ _ _]. eapply CONT; eauto. left. split; [discriminate|eauto].
  Qed.
  (** while no consume(t) runs, none raises *)
  Lemma free_quiet t (s : st) l : inv cfg s -> ~ busy s t -> (forall j o, l = Call j o -> ~ on_topic t o) -> none_raised t s (cstep cfg s l).
  Proof.
    intros I0 NB NC. unfold none_raised, ended_since. destruct (step_ends s l I0) as [->|(i & o & r & E & DN & W)]; [rewrite skipn_all; intros i o e []|].
    rewrite E, skipn_app, skipn_all, Nat.sub_diag. cbn. intros i' o' e' [H|[]] OT. injection H as -> -> ->. destruct W as [[_ (p1 & D1)]|EL]; [apply NB; now exists i', o', p1|now apply (NC i' o')].
  Qed.
End Ends.

Section Member.
  Context {V : Type}.
  Variable cfg : config V.
  Variable t : text.
  Variable log : Z -> list (Z * pymsg).
  Hypothesis LOG : forall p, is_log (log p).
  Variables (g nm : text).
  Variable af : list text -> list text -> res mapping.
  Hypothesis AA : full_allocator af.
  Hypothesis MD : md cfg = Grouped g af false nm.
  Notation st := (consumer V).

  Lemma alloc_still (s : st) l : inv cfg s -> ~ rebalances cfg s l -> alloc_of cfg (cstep cfg s l) t = alloc_of cfg s t.
  Proof using AA MD.
    intros I0 NR. destruct (alloc_step cfg s l I0) as [(g' & fn & ac' & nm' & ev & M & E & EA)|(_ & AR)].
    - rewrite MD in M. injection M as <- <- <- <-. subst l. unfold alloc_of. rewrite MD, EA. rewrite step_name. apply (astep_calls_back _ AA). rewrite <- EA.
      destruct (Z.eq_dec (a_callbacks (c_alloc (cstep cfg s (Alloc ev)))) (a_callbacks (c_alloc s))) as [X|X]; [exact X|]. destruct NR. now exists ev.
    - unfold alloc_of. rewrite MD, (ar_name _ _ AR). apply (ar_gives _ _ AR).
  Qed.

  Lemma dicts : returns_dicts cfg.
  Proof using AA MD. intros g' fn' ac' nm' ms ps mp M' E. rewrite MD in M'. injection M' as <- <- <- <-. eapply (proj2 AA), E. Qed.

  (** ** at most one consume(t) *)
  Definition single (s : st) : Prop := forall i j o o' p p', dget (c_calls s) i = Some (o, p) -> on_topic t o -> dget (c_calls s) j = Some (o', p') -> on_topic t o' -> i = j.
  Lemma single_step s l : inv cfg s -> single s -> careful t log cfg s l -> single (cstep cfg s l).
  Proof.
    intros I0 S (CL & _) i j o o' p p' D O D' O'. destruct (calls_step cfg s l i o p I0 D) as [(p0 & D0)|E0], (calls_step cfg s l j o' p' I0 D') as [(p1 & D1)|E1].
    - exact (S _ _ _ _ _ _ D0 O D1 O').
    - exfalso. subst l. destruct o' as [t' st'|m|]; try contradiction. cbn in O', CL. apply (CL O'). now exists i, o, p0.
    - exfalso. subst l. destruct o as [t' st'|m|]; try contradiction. cbn in O, CL. apply (CL O). now exists j, o', p1.
    - rewrite E0 in E1. now injection E1.
  Qed.
  (** ** commit_offsets() runs only where it was called *)
  (** ** the phases *)
  Variable C : Z -> Z -> Prop.
  Definition asked_of (p : pc V) : option request := match p with PSend (KOffsets _ rq) _ _ | PHeal (KOffsets _ rq) _ => rq | _ => None end.
  Definition asks (s : st) : Prop := forall j o p rq, dget (c_calls s) j = Some (o, p) -> on_topic t o -> asked_of p = Some rq -> rq = ROffsetFetch g t (alloc_of cfg s t).
  Definition lost (s : st) : Prop := unloaded t s /\ asks s.
  Definition healing (s : st) : Prop := ~ In t (c_synced s) /\ (exists i start rq rs, dget (c_calls s) i = Some (OpConsume t start, PHeal (KOffsets t (Some rq)) rs) /\ forall b v, In (b, v) rs -> v = HBool false) /\
    forall p, In p (alloc_of cfg s t) -> C p (position s t p).
  (** a turn with the topic, from where the positions are known to here *)
  Definition steady_turn (s0 : st) (ls : list label) : Prop := at_start t cfg s0 /\ each_step cfg (undisturbed t log cfg) ls s0 /\ none_raised t s0 (crun cfg ls s0).
  Definition reading (s : st) : Prop := exists s0 ls, s = crun cfg ls s0 /\ steady_turn s0 ls /\ forall p, In p (alloc_of cfg s t) -> C p (position s0 t p).
  Definition phase (s : st) : Prop := (lost s \/ healing s \/ exists i, dropping t i s) \/ reading s.

  (** a call goes on with the request it has *)
  Definition same_rq (rq : request) (n : next V) : Prop := forall p rq', n = Await p -> asked_of p = Some rq' -> rq' = rq.
  Lemma end_rq rq n : (forall p, n <> Await p) -> same_rq rq n.
  Proof. intros H p rq' E. now destruct (H p). Qed.
  Lemma done_rq rq t' v s : same_rq rq (fst (base_done cfg t' v s)).
  Proof using AA MD. unfold base_done. rewrite MD. destruct (negb (smem (c_synced s) t')); apply end_rq; discriminate. Qed.
  Lemma raised_rq rq k e s : same_rq rq (fst (raised cfg k e s)).
  Proof using AA MD. destruct k; try (apply end_rq; discriminate). destruct e; try (apply end_rq; discriminate). apply done_rq. Qed.
  Lemma send_one_rq rq t' b s : same_rq rq (fst (send_one cfg (KOffsets t' (Some rq)) b rq s)).
  Proof. unfold send_one. destruct b as [b|]; [|apply end_rq; discriminate]. destruct (send_all cfg [(b, rq)] s) as [[u|e] s1]; [|apply end_rq; discriminate]. cbn [fst]. intros p rq' E A. injection E as <-. cbn in A. now injection A. Qed.
  Lemma fetch_rq rq t' s : same_rq rq (fst (fetch cfg t' s)).
  Proof using AA MD.
    destruct (fetch_spec cfg t' s) as [(e & ex & -> & _)|[(_ & s1 & _ & ->)|(_ & rqs & ex & -> & _)]]; [apply end_rq; discriminate|apply done_rq|]. intros p rq' E A. injection E as <-. discriminate A.
  Qed.
  Lemma after_rq rq t' s : same_rq rq (fst (after_offsets cfg t' s)).
  Proof using AA MD.
    destruct (after_offsets_spec cfg t' s) as [(s1 & _ & _ & ->)|[(e & ex & -> & _)|(-> & _)]]; [apply fetch_rq|apply end_rq; discriminate|]. intros p rq' E A. injection E as <-. discriminate A.
  Qed.
  Lemma resume_rq rq t' rs s : same_rq rq (fst (resume cfg (KOffsets t' (Some rq)) rs s)).
  Proof using AA MD.
    cbn [resume]. rewrite MD. destruct (coord_result rs s) as [v|e]; [|apply raised_rq]. assert (X : same_rq rq (fst (after_offsets cfg t' (set_synced (sadd (c_synced s) t') s)))) by apply after_rq.
    destruct v as [|l|[|]|a b]; try exact X. pose proof (send_one_rq rq t' (c_coord s) s) as Y. destruct (send_one cfg (KOffsets t' (Some rq)) (c_coord s) rq s) as [[p|v|e] s1]; [exact Y|exact Y|apply raised_rq].
  Qed.
  Lemma send_end_rq rq t' rs s : same_rq rq (fst (send_end cfg (KOffsets t' (Some rq)) rs s)).
  Proof using AA MD. unfold send_end. destruct (c_heal s); [|apply resume_rq]. intros p rq' E A. injection E as <-. cbn in A. now injection A. Qed.
  Lemma arrive_rq rq t' w rs b r s : same_rq rq (fst (arrive cfg (KOffsets t' (Some rq)) w rs b r s)).
  Proof using AA MD.
    assert (P : forall w' rs' (s' : st), same_rq rq (fst (Await (PSend (KOffsets t' (Some rq)) w' rs'), s'))) by (intros w' rs' s' p rq' E A; injection E as <-; cbn in A; now injection A).
    unfold arrive. destruct r as [resp|e].
    - destruct (handle cfg resp s) as [[v|e] s1]; [|apply raised_rq]. destruct (ddel w b); [apply send_end_rq|apply P].
    - destruct (ddel w b); [apply send_end_rq|apply P].
  Qed.
  Lemma consume_rq start s : ~ In t (c_synced s) -> same_rq (ROffsetFetch g t (alloc_of cfg s t)) (fst (consume cfg t start s)).
  Proof using AA MD.
    intros NS. unfold consume. destruct (c_closing s); [apply done_rq|]. destruct (smem (c_synced s) t) eqn:SM; [exfalso; apply NS; now apply smem_In|]. unfold determine_offsets. rewrite MD.
    destruct (alloc_index_spec cfg t s) as [_ A]. destruct (alloc_index cfg t s) as [[ps|e] s1]; cbn [fst] in A; [|apply raised_rq]. rewrite <- (A ps eq_refl).
    pose proof (send_one_rq (ROffsetFetch g t ps) t (c_coord s1) s1) as Y. destruct (send_one cfg _ (c_coord s1) _ s1) as [[p|v|e] s2]; [exact Y|exact Y|apply raised_rq].
  Qed.

  (** ** without positions *)
  Lemma asks_step s l : inv cfg s -> lost s -> single s -> careful t log cfg s l -> asks (cstep cfg s l).
  Proof using AA MD.
    intros I0 [[NS LO] AS] SG (CL & CR) j o p rq D OT AQ.
    assert (OLD : forall p0, dget (c_calls s) j = Some (o, p0) -> asked_of p0 = Some rq -> rq = ROffsetFetch g t (alloc_of cfg (cstep cfg s l) t)).
    { intros p0 D0 A0. rewrite alloc_still; [exact (AS _ _ _ _ D0 OT A0)|exact I0|]. intros RB. apply (CR RB j). specialize (LO j o p0 D0 OT). destruct o as [t' st'|m|]; try contradiction. cbn in OT. subst t'.
      destruct p0 as [k w rs|k rs|t'']; try destruct LO; destruct k as [t1 [rq1|]|t1|m1 ret|a1 r1]; cbn in LO; try contradiction; destruct LO as [-> _]; exists st', (Some rq1); eauto. }
    assert (CONT : forall p0 (ns : next V * st) s1, dget (c_calls s) j = Some (o, p0) -> cstep cfg s l = continue j o ns -> c_calls s1 = c_calls s -> c_calls (snd ns) = c_calls s1 -> (forall rq0, asked_of p0 = Some rq0 -> same_rq rq0 (fst ns)) -> loading t p0 -> rq = ROffsetFetch g t (alloc_of cfg (cstep cfg s l) t)).
    { intros p0 ns s1 D0 E C1 C2 SR L. assert (X : exists rq0, asked_of p0 = Some rq0) by (destruct p0 as [k w rs|k rs|t'']; try destruct L; destruct k as [t1 [rq1|]|t1|m1 ret|a1 r1]; cbn in L; try contradiction; eexists; reflexivity). destruct X as [rq0 A0].
      rewrite E in D. destruct (continue_calls j o ns j) as [_ X]; [rewrite C2, C1; apply I0|]. rewrite X, Z.eqb_refl in D. destruct (fst ns) as [p1|v|e] eqn:FN; try discriminate D. injection D as ->. apply (OLD p0 D0). rewrite A0. f_equal. symmetry. exact (SR rq0 A0 p rq eq_refl AQ). }
    destruct (calls_step cfg s l j o p I0 D) as [(p0 & D0)|E0].
    - pose proof (LO j o p0 D0 OT) as L0. assert (SAME : c_calls (cstep cfg s l) = c_calls s -> rq = ROffsetFetch g t (alloc_of cfg (cstep cfg s l) t)) by (intros E; rewrite E in D; exact (OLD p D AQ)).
      assert (OTH : (forall i, addresses l i -> i <> j) -> rq = ROffsetFetch g t (alloc_of cfg (cstep cfg s l) t)).
      { intros NA. rewrite (others cfg s l j I0) in D; [exact (OLD p D AQ)|]. intros AD. now apply (NA j AD). }
      pose proof (cstep_did cfg s l I0) as DD. remember (cstep cfg s l) as s' eqn:EQ.
      destruct DD as [l _|i o1 ns D1 E1 P|i b r o1 k w rs rq1 D1 F1 W IA HF NE F'|i b r o1 k w rs rq1 ns D1 F1 W IA E1 P|i r o1 k rs s1 ns D1 F1 E1 P|i r t1 st1 ns D1 E1 P|k|g1 fn ac name ev M|]; try (apply SAME; reflexivity).
      + apply OTH. intros i' AD. cbn in AD. subst i'. intros ->. congruence.
      + destruct (Z.eq_dec i j) as [->|N]; [|apply OTH; intros i' AD; cbn in AD; now subst i']. rewrite D0 in D1. injection D1 as <- ->. apply (CONT _ _ (answer_state cfg r s) D0 eq_refl); [apply answer_state_calls|reflexivity| |exact L0].
        destruct k as [t1 [rq0|]|t1|m1 ret|a1 r1]; cbn in L0; try contradiction. intros rq2 A2 p1 rq' E A. injection E as <-. cbn in A, A2. congruence.
      + destruct (Z.eq_dec i j) as [->|N]; [|apply OTH; intros i' AD; cbn in AD; now subst i']. rewrite D0 in D1. injection D1 as <- ->. destruct (paid_some cfg k rs) as [lv PD]. destruct (P lv PD) as [(ex & MV & _) _ _ _].
        apply (CONT _ ns (answer_state cfg r s) D0 eq_refl); [apply answer_state_calls|apply MV| |exact L0]. destruct k as [t1 [rq0|]|t1|m1 ret|a1 r1]; cbn in L0; try contradiction. intros rq2 A2. cbn in A2. injection A2 as <-.
        destruct E1 as [(_ & _ & ->)|(e & _ & ->)]; [apply send_end_rq|apply raised_rq].
      + destruct (Z.eq_dec i j) as [->|N]; [|apply OTH; intros i' AD; cbn in AD; now subst i']. rewrite D0 in D1. injection D1 as <- ->. destruct (paid_some cfg k rs) as [lv PD]. destruct (P lv PD) as [(ex & MV & _) _ _ _].
        assert (C1 : c_calls s1 = c_calls s) by (destruct E1 as [(u & _ & -> & _)|(e & _ & -> & _)]; reflexivity). apply (CONT _ ns s1 D0 eq_refl C1); [apply MV| |exact L0].
        destruct k as [t1 [rq0|]|t1|m1 ret|a1 r1]; cbn in L0; try contradiction. intros rq2 A2. cbn in A2. injection A2 as <-. destruct E1 as [(u & _ & _ & ->)|(e & _ & _ & ->)]; [apply resume_rq|apply raised_rq].
      + apply OTH. intros i' AD. cbn in AD. subst i'. intros ->. rewrite D0 in D1. injection D1 as _ ->. destruct L0.
    - subst l. destruct o as [t' start|m|]; try contradiction. cbn in OT. subst t'. pose proof (CL eq_refl) as NB. cbn [cstep] in *. unfold dmem in *. destruct (dget (c_calls s) j) as [[o0 p0]|] eqn:D0.
      + rewrite D0 in D. exact (OLD p D AQ).
      + pose proof (consume_piece cfg t start s) as [(ex & MV & _) _ _ _]. destruct (continue_calls j (OpConsume t start) (consume cfg t start s) j) as [_ X]; [rewrite (p_calls _ _ _ _ _ _ MV); apply I0|]. rewrite X, Z.eqb_refl in D.
        destruct (continue_views cfg j (OpConsume t start) (consume cfg t start s)) as (_ & _ & AL & _). cbv zeta in AL. rewrite AL, (p_alloc _ _ _ _ _ _ MV). destruct (fst (consume cfg t start s)) as [p1|v|e] eqn:FN; try discriminate D. injection D as ->.
        apply (consume_rq start s NS p rq); [exact FN|exact AQ].
  Qed.

  (** ** the end of a lookup *)
  Lemma resume_calls o k rs (s1 : st) : fits_cont cfg o k -> c_calls (snd (resume cfg k rs s1)) = c_calls s1.
  Proof. intros F. destruct (paid_some cfg k rs) as [lv PD]. destruct (resume_piece cfg o lv k rs s1 F PD) as [(ex & MV & _) _ _ _]. apply MV. Qed.
  Lemma healed_dec (l : label) i : (exists r, l = Healed i r) \/ forall r, l <> Healed i r.
  Proof. destruct l as [j o|j b r|j r|k|ev|]; try (right; discriminate). destruct (Z.eq_dec j i) as [->|N]; [left; eauto|]. right. intros r' E. injection E as E _. now apply N. Qed.
  Lemma idle_dec (s : st) j b r : (exists o k w rs rq, dget (c_calls s) j = Some (o, PSend k w rs) /\ dget w b = Some rq /\ answers rq r = true) \/ cstep cfg s (Arrive j b (Ok r)) = s.
  Proof.
    cbn [cstep]. destruct (dget (c_calls s) j) as [[o [k w rs|k rs|t']]|]; auto. destruct (dget w b) as [rq|] eqn:W; auto. destruct (answers rq r) eqn:A; auto. left. exists o, k, w, rs, rq. auto.
  Qed.
  (** an answer about [t] belongs to a consume(t) *)
  Lemma named_topic (s : st) j b r o k w rs rq : inv cfg s -> dget (c_calls s) j = Some (o, PSend k w rs) -> dget w b = Some rq -> answers rq r = true -> serves_group t log rq r -> named r = Some t -> on_topic t o.
  Proof using AA MD.
    intros I0 D W A S NM. destruct (proj2 I0 _ _ _ D) as [FC WF]. pose proof (ws_asks _ _ _ _ WF _ _ (dget_In _ _ _ W)) as AK.
    destruct r as [[|[t1 p1] ts]|[|[t1 p1] ts]|[|[t1 p1] ts]|ts|c0 id]; cbn in NM; try discriminate NM; injection NM as ->; destruct rq as [a1 a2 a3 t2 a4|a1 t2 a4|a1 t2 a4|a1 a4|a1]; try discriminate A.
    - destruct S as [[S _] _]. subst t2. destruct o as [t' st'|m|]; destruct k as [t3 [rq0|]|t3|m3 ret|a0 r0]; cbn in FC, AK; try contradiction.
      + destruct FC as [-> F]. rewrite MD in F. destruct F as [ps F]. injection F as ->. discriminate AK.
      + destruct AK as [ps X]. discriminate X.
      + destruct AK as [ps X]. injection X as _ _ _ -> _. cbn. now symmetry.
      + destruct AK as (? & ? & X). discriminate X.
      + destruct AK as (? & ? & X). discriminate X.
      + destruct AK as (_ & ? & X). discriminate X.
    - destruct S as [S _]. cbn in S. subst t2. destruct o as [t' st'|m|]; destruct k as [t3 [rq0|]|t3|m3 ret|a0 r0]; cbn in FC, AK; try contradiction.
      + destruct FC as [-> F]. rewrite MD in F. destruct F as [ps F]. injection F as ->. discriminate AK.
      + destruct AK as [ps X]. injection X as _ -> _. cbn. destruct FC as [-> _]. reflexivity.
      + destruct AK as [ps X]. discriminate X.
      + destruct AK as (? & ? & X). discriminate X.
      + destruct AK as (? & ? & X). discriminate X.
      + destruct AK as (_ & ? & X). discriminate X.
    - destruct S as [_ S]. cbn in S. subst t2. destruct o as [t' st'|m|]; destruct k as [t3 [rq0|]|t3|m3 ret|a0 r0]; cbn in FC, AK; try contradiction.
      + destruct FC as [-> F]. rewrite MD in F. destruct F as [ps F]. injection F as ->. injection AK as _ -> _. reflexivity.
      + destruct AK as [ps X]. discriminate X.
      + destruct AK as [ps X]. discriminate X.
      + destruct AK as (? & ? & X). discriminate X.
      + destruct AK as (? & ? & X). discriminate X.
      + destruct AK as (_ & ? & X). discriminate X.
  Qed.
  Lemma ended_lost s' : (forall j o p, dget (c_calls s') j = Some (o, p) -> ~ on_topic t o) -> ~ In t (c_synced s') -> lost s'.
  Proof. intros N NS. split; [split; [exact NS|]|]; intros j o p; intros; exfalso; eapply N; eassumption. Qed.
  Lemma turn_begins s0 : at_start t cfg s0 -> (forall p, In p (alloc_of cfg s0 t) -> C p (position s0 t p)) -> reading s0.
  Proof using AA MD.
    intros AS CP. exists s0, []. split; [reflexivity|]. split; [|exact CP]. split; [exact AS|]. split; [exact I|]. intros i o e H. unfold ended_since in H. cbn in H. rewrite skipn_all in H. destruct H.
  Qed.
  Lemma lookup_ends s l i start p0 rq rs s1 : reachable cfg s -> single s -> (forall j o, l <> Call j o) ->
    dget (c_calls s) i = Some (OpConsume t start, p0) -> looks_up s i t -> c_calls s1 = c_calls s -> ~ In t (c_synced s1) -> (forall b v, In (b, v) rs -> v = HBool false) ->
    cstep cfg s l = continue i (OpConsume t start) (resume cfg (KOffsets t (Some rq)) rs s1) -> c_calls (snd (resume cfg (KOffsets t (Some rq)) rs s1)) = c_calls s1 ->
    (forall p, In p (alloc_of cfg (cstep cfg s l) t) -> C p (position (cstep cfg s l) t p)) -> phase (cstep cfg s l).
  Proof using AA MD.
    intros R SG NL D LU C1 NS RS E C2 CP. pose proof (reach_inv cfg s R) as I0. set (ns := resume cfg (KOffsets t (Some rq)) rs s1) in *.
    assert (ON : forall j o p, dget (c_calls (cstep cfg s l)) j = Some (o, p) -> on_topic t o -> j = i /\ o = OpConsume t start /\ fst ns = Await p).
    { intros j o p DJ OT. destruct (calls_step cfg s l j o p I0 DJ) as [(p1 & D1)|X]; [|now destruct (NL j o)]. assert (j = i) as -> by (eapply SG; eauto; reflexivity). split; [reflexivity|]. rewrite D in D1. injection D1 as <- _. split; [reflexivity|].
      rewrite E in DJ. destruct (continue_calls i (OpConsume t start) ns i) as [_ X]; [rewrite C2, C1; apply I0|]. rewrite X, Z.eqb_refl in DJ. destruct (fst ns); try discriminate DJ. now injection DJ as <-. }
    destruct (continue_same i (OpConsume t start) ns) as (_ & SY & _). rewrite <- E in SY.
    assert (ENDS : (forall p, fst ns <> Await p) -> c_synced (snd ns) = c_synced s1 -> phase (cstep cfg s l)).
    { intros NA ES. left. left. apply ended_lost; [|now rewrite SY, ES]. intros j o p DJ OT. destruct (ON j o p DJ OT) as (_ & _ & X). exact (NA p X). }
    assert (RE : ns = match coord_result rs s1 with Err e => raised cfg (KOffsets t (Some rq)) e s1 | Ok (HBool true) => match send_one cfg (KOffsets t (Some rq)) (c_coord s1) rq s1 with (Raise_ e, s2) => raised cfg (KOffsets t (Some rq)) e s2 | r => r end | Ok _ => after_offsets cfg t (set_synced (sadd (c_synced s1) t) s1) end).
    { unfold ns. cbn [resume]. now rewrite MD. }
    destruct (coord_result rs s1) as [v|e] eqn:CO.
    - assert (VF : v = HBool false). { unfold coord_result in CO. destruct (c_coord s1) as [b|]; [|discriminate CO]. unfold dindex in CO. destruct (dget rs b) as [v'|] eqn:DB; [|discriminate CO]. injection CO as ->. exact (RS b v (dget_In _ _ _ DB)). }
      rewrite VF in RE. set (s2 := set_synced (sadd (c_synced s1) t) s1) in *. right. apply turn_begins; [|exact CP].
      split; [now apply reach_step|]. split; [rewrite SY, RE, after_offsets_synced; cbn [s2 set_synced c_synced]; apply in_sadd; now left|].
      destruct (busy_dec cfg t (cstep cfg s l) (inv_step cfg s l I0)) as [(j & o & p & DJ & OT)|NB]; [|now left]. right. exists s, l, i. split; [exact R|]. split; [reflexivity|]. split; [exact LU|]. destruct (ON j o p DJ OT) as (-> & -> & FN).
      split; [|intros j o p' DJ' OT'; now destruct (ON j o p' DJ' OT')]. exists start, p. split; [exact DJ|]. rewrite RE in FN.
      destruct (after_offsets_spec cfg t s2) as [(s3 & _ & AN & X)|[(e & ex & X & _)|(X & _)]]; [|rewrite X in FN; discriminate FN|rewrite X in FN; injection FN as <-; auto]. rewrite X in FN.
      destruct (fetch_spec cfg t s3) as [(e & ex & Y & _)|[(AN' & _)|(_ & rqs & ex & Y & _ & _ & FE & _)]]; [rewrite Y in FN; discriminate FN|now destruct AN|]. rewrite Y in FN. injection FN as <-. left. destruct FE as (NE & _ & _ & L). destruct rqs as [|[b1 rq1] rqs]; [now destruct NE|].
      destruct (L b1 rq1 (or_introl eq_refl)) as (parts & _ & -> & _). exists b1. eexists. split; [do 4 eexists; split; [exact DJ|cbn; rewrite Z.eqb_refl; reflexivity]|]. do 4 eexists. reflexivity.
    - assert (RA : exists n, raised cfg (KOffsets t (Some rq)) e s1 = (n, s1) /\ forall p, n <> Await p).
      { cbn [raised]. destruct e; try (eexists; split; [reflexivity|discriminate]). rewrite (base_done_drops cfg g af false nm MD t (RvList []) s1 NS). eexists; split; [reflexivity|discriminate]. }
      destruct RA as (n & RA & NA). rewrite RA in RE. apply ENDS; rewrite RE; [exact NA|reflexivity].
  Qed.

  Lemma ofetch_all_ok t' parts : forall acc (s : st), (forall p code o, In (p, (code, o)) parts -> code = no_error) -> fst (handle_ofetch_parts t' parts acc s) = Ok acc.
  Proof. induction parts as [|[p [code o]] parts IH]; intros acc s H; [reflexivity|]. cbn [handle_ofetch_parts]. rewrite (H p code o) by now left. cbn. apply IH. intros q c x I1. apply (H q c x). now right. Qed.
  (** the answers to lookups are good *)
  Definition told_well (s : st) (l : label) : Prop := forall i b g' asked parts rest, l = Arrive i b (Ok (POffsetFetch ((t, parts) :: rest))) -> waits_for s i b (ROffsetFetch g' t asked) ->
    NoDup (map fst parts) /\ (forall p, In p asked -> In p (map fst parts)) /\ forall p o, In (p, (no_error, o)) parts -> C p o.
  Lemma load_step s l : reachable cfg s -> single s -> lost s -> careful t log cfg s l -> told_well s l -> loads t s l -> phase (cstep cfg s l).
  Proof using AA MD.
    intros R SG [[NS LO] AS] (CL & _) TW (i & b & rq & t' & parts & rest & -> & WF & LK & NE). pose proof (reach_inv cfg s R) as I0.
    destruct (lookup_call cfg g af false nm MD s i b rq t I0 WF LK) as (start & w & rs & ps & -> & D & W). assert (PS : ps = alloc_of cfg s t) by (pose proof (AS i (OpConsume t start) _ _ D eq_refl eq_refl) as X; now injection X).
    pose proof (CL _ WF eq_refl) as SV. assert (t' = t) as -> by apply SV. destruct (TW i b g ps parts rest eq_refl WF) as (ND & CO & GO). set (l := Arrive i b (Ok (POffsetFetch ((t, parts) :: rest)))) in *. set (r := Ok (POffsetFetch ((t, parts) :: rest))) in *.
    assert (AL : alloc_of cfg (cstep cfg s l) t = alloc_of cfg s t) by (apply alloc_still; [exact I0|intros (ev & X & _); discriminate X]).
    assert (CP : forall p, In p (alloc_of cfg (cstep cfg s l) t) -> C p (position (cstep cfg s l) t p)).
    { intros p IP. rewrite AL, <- PS in IP. apply CO in IP. apply in_map_iff in IP as ([q [code o]] & E & IP). cbn in E. subst q. pose proof (NE p code o IP) as ->. unfold l, r. rewrite (C84_stored_partial cfg s i b g t ps parts rest p o R WF ND NE IP). now apply GO. }
    assert (OK : fst (handle cfg (POffsetFetch ((t, parts) :: rest)) s) = Ok (HBool false)). { cbn [handle]. pose proof (ofetch_all_ok t parts false s NE) as X. destruct (handle_ofetch_parts t parts false s) as [[x|x] s1]; cbn in X; [|discriminate X]. injection X as ->. reflexivity. }
    assert (E : cstep cfg s l = continue i (OpConsume t start) (send_end cfg (KOffsets t (Some (ROffsetFetch g t ps))) [(b, HBool false)] (answer_state cfg r s))).
    { unfold l. rewrite (solo_answer cfg s i b r _ _ _ _ _ R D eq_refl W eq_refl). unfold handler_fails, answer_results, r. rewrite OK. reflexivity. }
    assert (C1 : c_calls (answer_state cfg r s) = c_calls s) by apply answer_state_calls. assert (NS1 : ~ In t (c_synced (answer_state cfg r s))) by (intros X; now apply answer_synced in X).
    unfold send_end in E. destruct (c_heal (answer_state cfg r s)).
    - left. right. left. split; [|split; [|exact CP]].
      + destruct (continue_same i (OpConsume t start) (Await (PHeal (KOffsets t (Some (ROffsetFetch g t ps))) [(b, HBool false)]), answer_state cfg r s)) as (_ & SY & _). rewrite E, SY. exact NS1.
      + exists i, start, (ROffsetFetch g t ps), [(b, HBool false)]. split; [|intros b' v [X|[]]; now injection X]. rewrite E. match goal with |- dget (c_calls (continue i _ ?ns)) i = _ => destruct (continue_calls i (OpConsume t start) ns i) as [_ X]; [cbn [snd]; rewrite C1; apply I0|] end. rewrite X, Z.eqb_refl. reflexivity.
    - refine (lookup_ends s l i start _ (ROffsetFetch g t ps) [(b, HBool false)] (answer_state cfg r s) R SG _ D _ C1 NS1 _ E _ CP).
      + discriminate.
      + exists start, (Some (ROffsetFetch g t ps)). left. eauto.
      + intros b' v [X|[]]; now injection X.
      + apply resume_calls with (o := OpConsume t start). exact (proj1 (proj2 I0 _ _ _ D)).
  Qed.
  Lemma healed_step s l : reachable cfg s -> single s -> healing s -> careful t log cfg s l -> phase (cstep cfg s l).
  Proof using AA MD.
    intros R SG (NS & (i & start & rq & rs & D & RS) & CP) CA. pose proof CA as (CL & CR). pose proof (reach_inv cfg s R) as I0.
    assert (LU : looks_up s i t) by (exists start, (Some rq); right; eauto). assert (BU : busy s t) by (exists i, (OpConsume t start); eexists; split; [exact D|reflexivity]).
    assert (NR : ~ rebalances cfg s l) by (intros RB; now apply (CR RB i)). assert (AL := alloc_still s l I0 NR).
    destruct (healed_dec l i) as [[r ->]|NH].
    - assert (PO : forall p, position (cstep cfg s (Healed i r)) t p = position s t p).
      { intros p. destruct (Z.eq_dec (position (cstep cfg s (Healed i r)) t p) (position s t p)) as [X|X]; [exact X|]. destruct (C38_only_answers_move cfg s _ t p R X) as (? & ? & ? & Y & _). discriminate Y. }
      assert (CP' : forall p, In p (alloc_of cfg (cstep cfg s (Healed i r)) t) -> C p (position (cstep cfg s (Healed i r)) t p)) by (intros p; rewrite AL, PO; apply CP).
      pose proof (proj1 (proj2 I0 _ _ _ D) : fits_cont cfg (OpConsume t start) (KOffsets t (Some rq))) as FC. assert (E : cstep cfg s (Healed i r) = match r with Ok _ => continue i (OpConsume t start) (resume cfg (KOffsets t (Some rq)) rs (set_heal false s)) | Err e => continue i (OpConsume t start) (raised cfg (KOffsets t (Some rq)) e s) end) by (cbn [cstep]; now rewrite D).
      destruct r as [u|e].
      + refine (lookup_ends s (Healed i (Ok u)) i start _ rq rs (set_heal false s) R SG _ D LU eq_refl NS RS E _ CP'); [discriminate|]. exact (resume_calls (OpConsume t start) _ rs _ FC).
      + left. left. assert (RA : exists n, raised cfg (KOffsets t (Some rq)) e s = (n, s) /\ forall p, n <> Await p).
        { cbn [raised]. destruct e; try (eexists; split; [reflexivity|discriminate]). rewrite (base_done_drops cfg g af false nm MD t (RvList []) s NS). eexists; split; [reflexivity|discriminate]. }
        destruct RA as (n & RA & NA). rewrite RA in E. destruct (continue_same i (OpConsume t start) (n, s)) as (_ & SY & _). rewrite <- E in SY. apply ended_lost; [|now rewrite SY].
        intros j o p DJ OT. destruct (calls_step cfg s _ j o p I0 DJ) as [(p1 & D1)|X]; [|discriminate X]. assert (j = i) as -> by (eapply SG; eauto; reflexivity). rewrite E in DJ. destruct (continue_calls i (OpConsume t start) (n, s) i) as [_ X]; [apply I0|]. rewrite X, Z.eqb_refl in DJ. cbn [fst] in DJ. destruct n; try discriminate DJ. now destruct (NA p0).
    - left. right. left. split; [|split].
      + destruct (step_cases cfg s l I0) as [(j & op & look & s1 & ns & ex & A)|H].
        * assert (S1 : ~ In t (c_synced s1)). { destruct A as [_ _ _ _ FR]. destruct FR as [(_ & _ & -> & _)|[(b & r & k & w & rs1 & rq1 & _ & _ & _ & _ & -> & _)|[(r & k & rs1 & _ & _ & [->| ->] & _)|(r & t' & _ & _ & -> & _)]]]; try exact NS. intros X. now apply answer_synced in X. }
          assert (NO : ~ on_topic t op). { intros OT. destruct A as [_ _ _ _ FR]. destruct FR as [(X & _)|[(b & r & k & w & rs1 & rq1 & X & D1 & _)|[(r & k & rs1 & X & D1 & _)|(r & t' & X & D1 & _)]]].
            - subst l. destruct op as [t' st'|m|]; try contradiction. cbn in CL, OT. now apply (CL OT).
            - assert (j = i) as -> by (eapply SG; eauto; reflexivity). rewrite D in D1. discriminate D1.
            - assert (j = i) as -> by (eapply SG; eauto; reflexivity). now apply (NH r).
            - assert (j = i) as -> by (eapply SG; eauto; reflexivity). now apply (NH r). }
          destruct A as [E M S _ _]. rewrite E. destruct (continue_same j op ns) as (_ & -> & _). exact (proj1 (other_topic cfg t op look s1 ns ex M S NO S1)).
        * destruct H as [(-> & _)|[(k & _ & ->)|[(_ & ->)|(g' & fn & ac & name & ev & _ & _ & ->)]]]; try exact NS. cbn. destruct (_ =? _); [exact NS|intros []].
      + exists i, start, rq, rs. split; [|exact RS]. now apply heal_waits.
      + intros p IP. rewrite AL in IP. assert (PO : position (cstep cfg s l) t p = position s t p); [|rewrite PO; now apply CP].
        destruct (Z.eq_dec (position (cstep cfg s l) t p) (position s t p)) as [X|X]; [exact X|]. exfalso. destruct (C38_only_answers_move cfg s l t p R X) as (j & b & r & -> & NM).
        destruct (idle_dec s j b r) as [(o & k & w & rs1 & rq1 & D1 & W1 & IA)|ID]; [|now rewrite ID in X].
        assert (WF : waits_for s j b rq1) by (exists o, k, w, rs1; auto). specialize (CL rq1 WF IA).
        assert (NO : ~ on_topic t o) by (intros OT; assert (j = i) as -> by (eapply SG; eauto; reflexivity); rewrite D in D1; discriminate D1).
        apply NO. exact (named_topic s j b r o k w rs1 rq1 I0 D1 W1 IA CL NM).
  Qed.

  (** ** reading *)
  Lemma turn_view s0 ls : steady_turn s0 ls -> let s := crun cfg ls s0 in In t (c_synced s) /\ forall i o p, dget (c_calls s) i = Some (o, p) -> on_topic t o -> fetchy t p.
  Proof using LOG AA MD.
    intros (AS & UN & NR). cbv zeta.
    destruct (follows_runs cfg t s0 (serves_group t log) (in_log cfg t log s0) (in_log_ext cfg t log s0) (group_fetch t log) (fun _ _ _ _ _ _ H => proj1 H) (or_intror (fun _ _ _ _ _ _ H => proj2 H))
      (fun D f f' x mw mb asked parts rest L P S G => in_log_step cfg t log s0 LOG D f f' x mw mb asked parts rest L P (proj1 S) G) ls [] s0
      (follows_at_start cfg t s0 (in_log cfg t log s0) (in_log_start cfg t log s0) AS) (undisturbed_steady t log cfg ls s0 UN) NR) as (D & F).
    split; [apply (f_sync _ _ _ _ _ _ F)|]. intros i o p DI OT. destruct (f_pc _ _ _ _ _ _ F i o p DI OT) as [W _]. pose proof (proj2 (f_inv _ _ _ _ _ _ F) _ _ _ DI) as FI. destruct o as [t' st'|m|]; try contradiction. cbn in OT. subst t'.
    destruct p as [[t' rq|t'|m ret|a r] w rs|[t' rq|t'|m ret|a r] rs|t']; cbn in W, FI |- *; try contradiction.
    - apply FI.
    - destruct FI as [(? & ? & ? & X) _]. rewrite MD in X. discriminate X.
    - apply FI.
    - destruct FI as [(? & ? & ? & X) _]. rewrite MD in X. discriminate X.
    - destruct FI as (x & E). now injection E.
  Qed.
  Lemma each_snoc (P : st -> label -> Prop) ls l : forall s, each_step cfg P ls s -> P (crun cfg ls s) l -> each_step cfg P (ls ++ [l]) s.
  Proof. induction ls as [|l1 ls IH]; intros s H1 H2; [split; [exact H2|exact I]|]. destruct H1 as [A B]. split; [exact A|]. now apply IH. Qed.
  Lemma turn_goes_on s0 ls l : steady_turn s0 ls -> careful t log cfg (crun cfg ls s0) l -> ~ rebalances cfg (crun cfg ls s0) l -> none_raised t (crun cfg ls s0) (cstep cfg (crun cfg ls s0) l) -> steady_turn s0 (ls ++ [l]).
  Proof using LOG AA MD.
    intros FT (CL & CR) NR NE. destruct (turn_view s0 ls FT) as [SY _]. destruct FT as (AS & UN & RA). split; [exact AS|]. split.
    - apply each_snoc; [exact UN|]. split; [exact NR|]. destruct l as [i [t' st'|m|]|i b [r|e]|i r|k|ev|]; try exact I; exact CL.
    - pose proof (reach_inv cfg s0 (proj1 AS)) as I0. destruct (ended_run cfg ls s0 I0) as [x E]. destruct (ended_step cfg (crun cfg ls s0) l (inv_run cfg ls s0 I0)) as [y F].
      assert (G : crun cfg (ls ++ [l]) s0 = cstep cfg (crun cfg ls s0) l) by (unfold crun; now rewrite fold_left_app). rewrite G. intros i o e H OT. unfold ended_since in H. rewrite F, E, <- app_assoc, skipn_app, skipn_all, Nat.sub_diag in H. cbn in H. apply in_app_iff in H as [H|H].
      + apply (RA i o e); [|exact OT]. unfold ended_since. rewrite E, skipn_app, skipn_all, Nat.sub_diag. exact H.
      + apply (NE i o e); [|exact OT]. unfold ended_since. rewrite F, skipn_app, skipn_all, Nat.sub_diag. exact H.
  Qed.
  Lemma raise_dec s l : inv cfg s -> single s -> careful t log cfg s l -> none_raised t s (cstep cfg s l) \/ (raises t cfg s l /\ ~ busy (cstep cfg s l) t).
  Proof.
    intros I0 SG (CL & _). unfold none_raised, raises, ended_since. destruct (step_ends cfg s l I0) as [->|(i & o & r & E & DN & W)]; [left; rewrite skipn_all; intros i o e []|].
    rewrite E, skipn_app, skipn_all, Nat.sub_diag. cbn. destruct r as [v|e]; [left; intros i' o' e' [H|[]]; discriminate H|]. assert (CASE : on_topic t o \/ ~ on_topic t o) by apply on_topic_dec.
    destruct CASE as [OT|OT]; [|left; intros i' o' e' [H|[]]; injection H as <- <- <-; exact OT]. right. split; [exists i, o, e; auto|]. intros (j & o' & p & D & OT').
    destruct (calls_step cfg s l j o' p I0 D) as [(p0 & D0)|EL].
    - destruct W as [[_ (p1 & D1)]|EL]; [rewrite (SG _ _ _ _ _ _ D0 OT' D1 OT), DN in D; discriminate D|]. subst l. destruct o as [t' st'|m|]; try contradiction. cbn in CL, OT. apply (CL OT). now exists j, o', p0.
    - destruct W as [[NC _]|EL']; [now apply (NC j o')|]. rewrite EL in EL'. injection EL' as -> ->. rewrite DN in D. discriminate D.
  Qed.
  (** after a consume() that knew its positions has raised: the topic is read on from the positions, or looked up again *)
  Definition adrift (s : st) : Prop := exists s0 ls, s = crun cfg ls s0 /\ steady_turn s0 ls.
  Lemma after_raise s : reachable cfg s -> ~ busy s t -> phase s \/ adrift s.
  Proof.
    intros R NB. destruct (in_dec (fun a b : text => eqb_dec a b) t (c_synced s)) as [SY|NS].
    - right. exists s, []. split; [reflexivity|]. split; [split; [exact R|split; [exact SY|now left]]|]. split; [exact Logic.I|]. intros i o e H. unfold ended_since in H. cbn in H. rewrite skipn_all in H. destruct H.
    - left. left. left. apply ended_lost; [|exact NS]. intros j o p D OT. apply NB. now exists j, o, p.
  Qed.
  Lemma reach_on s l : reachable cfg s -> reachable cfg (cstep cfg s l).
  Proof. intros (k & n & ls & ->). exists k, n, (ls ++ [l]). unfold crun. now rewrite fold_left_app. Qed.
  Lemma adrift_rebalanced s l : adrift s -> inv cfg s -> careful t log cfg s l -> rebalances cfg s l -> phase (cstep cfg s l).
  Proof using LOG AA MD.
    intros (s0 & ls & -> & FT) I0 CA RB. set (s := crun cfg ls s0) in *. destruct (turn_view s0 ls FT) as [SY FY]. fold s in SY, FY. left. destruct (rebalanced cfg s l RB) as (RC & _ & _ & RS & _). destruct CA as (_ & CR). pose proof (CR RB) as NL.
    destruct (busy_dec cfg t s I0) as [(i & o & p & D & OT)|NB].
    - right. right. exists i. constructor; [rewrite RS; intros []| |]; rewrite RC; intros; [eapply fetchy_past, FY; eassumption|eapply FY; eassumption].
    - left. apply ended_lost; [|rewrite RS; intros []]. intros j o p D OT. apply NB. rewrite RC in D. now exists j, o, p.
  Qed.
  Lemma adrift_step s l : adrift s -> reachable cfg s -> single s -> careful t log cfg s l -> ~ rebalances cfg s l -> phase (cstep cfg s l) \/ adrift (cstep cfg s l).
  Proof using LOG AA MD.
    intros AD R SG CA NR. destruct (raise_dec s l (reach_inv cfg _ R) SG CA) as [NE|[_ NB]]; [|apply after_raise; [now apply reach_on|exact NB]].
    destruct AD as (s0 & ls & -> & FT). right. exists s0, (ls ++ [l]). split; [unfold crun; now rewrite fold_left_app|]. now apply turn_goes_on.
  Qed.
  Lemma rebalance_dec s l : (exists ev, l = Alloc ev) \/ (forall ev, l <> Alloc ev) -> rebalances cfg s l \/ ~ rebalances cfg s l.
  Proof.
    intros KL. destruct KL as [(ev & ->)|N]; [|right; intros (ev & X & _); now apply (N ev)]. destruct (Z.eq_dec (a_callbacks (c_alloc (cstep cfg s (Alloc ev)))) (a_callbacks (c_alloc s))) as [X|X]; [right; intros (ev' & _ & Y); now apply Y|left; exists ev; auto].
  Qed.
  Lemma reading_step s l : reading s -> reachable cfg s -> single s -> careful t log cfg s l -> (exists ev, l = Alloc ev) \/ (forall ev, l <> Alloc ev) -> phase (cstep cfg s l) \/ (In t (c_synced s) /\ raises t cfg s l /\ adrift (cstep cfg s l)).
  Proof using LOG AA MD.
    intros RE R SG CA KL. pose proof (reach_inv cfg _ R) as I0. destruct (rebalance_dec s l KL) as [RB|NR].
    - left. destruct RE as (s0 & ls & ES & FT & _). apply adrift_rebalanced; auto. now exists s0, ls.
    - destruct RE as (s0 & ls & ES & FT & CP). subst s. set (s := crun cfg ls s0) in *. destruct (raise_dec s l I0 SG CA) as [NE|[RA NB]].
      + left. right. exists s0, (ls ++ [l]). split; [unfold crun; now rewrite fold_left_app|]. split; [now apply turn_goes_on|]. intros p IP. apply CP. now rewrite <- (alloc_still s l I0 NR).
      + destruct (after_raise _ (reach_on s l R) NB) as [PH|AD]; [now left|]. right. split; [apply (turn_view s0 ls FT)|]. auto.
  Qed.
  Lemma alloc_dec (l : label) : (exists ev, l = Alloc ev) \/ forall ev, l <> Alloc ev.
  Proof. destruct l; try (right; discriminate). left. eauto. Qed.

  Theorem phase_step s l : reachable cfg s -> single s -> careful t log cfg s l -> told_well s l -> phase s -> phase (cstep cfg s l) \/ (In t (c_synced s) /\ raises t cfg s l /\ adrift (cstep cfg s l)).
  Proof using LOG AA MD.
    intros R SG CA TW PH. pose proof (reach_inv cfg s R) as I0.
    assert (LOST : lost s -> phase (cstep cfg s l)).
    { intros LO. destruct (loads_dec t s l) as [LD|NL]; [now apply load_step|]. left. destruct LO as [U AS]. left. split; [exact (proj2 (unloaded_step cfg g af false nm MD t s l I0 U NL))|]. apply asks_step; auto. split; assumption. }
    destruct PH as [[LO|[HE|(i & DR)]]|RE].
    - left. exact (LOST LO).
    - left. exact (healed_step s l R SG HE CA).
    - left. destruct (busy_dec cfg t s I0) as [BU|NB].
      + left. right. right. exists i. refine (proj1 (dropping_step cfg g af false nm MD t i s l I0 DR _)). intros j start ->. now apply (proj1 CA eq_refl).
      + apply LOST. apply ended_lost; [|apply DR]. intros j o p D OT. apply NB. now exists j, o, p.
    - apply (reading_step s l RE R SG CA), alloc_dec.
  Qed.
  Lemma phase_init k : phase (consumer_init k nm).
  Proof. left. left. apply ended_lost; [intros j o p D; discriminate D|intros []]. Qed.

  Lemma steady_returned s0 ls p o m : steady_turn s0 ls -> let s := crun cfg ls s0 in ~ busy s t -> In (o, m) (log p) -> position s0 t p <= o < position s t p -> returned_in t (Turn cfg s0 ls) m.
  Proof using LOG.
    intros (AS & UN & NR) s NB IN RG v DV TV. unfold tn_gave, tn_end in *. cbn [tn_cfg tn_start tn_steps] in *. destruct (C81_follows_log cfg t log s0 ls LOG AS UN NR) as (D & pe & G & PE & L). fold s in G, PE, L. rewrite (PE NB), app_nil_r in G. fold s. rewrite <- G. apply filter_In. split; [|exact TV].
    destruct (L p) as (L1 & _). assert (IR : In (o, v) (of_partition p D)). { rewrite L1. unfold readable. apply in_flat_map. exists (o, m). split; [apply filter_In; split; [exact IN|cbn; lia]|]. cbn. rewrite DV. now left. }
    unfold of_partition in IR. apply in_map_iff in IR as ([q [o' v']] & EQ & IR). cbn in EQ. injection EQ as -> ->. apply filter_In in IR as [IR _]. unfold values. apply in_map_iff. now exists (q, (o, v)).
  Qed.
  Lemma call_sends (s : st) j o b g' topics : inv cfg s -> In (b, RCommit g' topics) (sent cfg s (Call j o)) -> exists m, o = OpCommit m.
  Proof using AA MD.
    intros I0 H. destruct (sent_cases cfg s (Call j o) I0) as (i & op & look & s1 & ns & A); [intros E; rewrite E in H; destruct H|]. destruct A as [_ _ S _ FR].
    assert (op = o) as -> by (destruct FR as [(E & _)|[(b' & r & k & w & rs & rq & E & _)|[(r & k & rs & E & _)|(r & t' & E & _)]]]; try discriminate E; now injection E). remember (sent cfg s _) as ex eqn:EX. clear EX.
    destruct S as [|t' start rqs pre post O FE RE D ex X|t' start rqs pre post _ _ O L RE D ex X|t' start b0 g1 fn ac nm1 ps _ _ _ _ _ _|m ret b0 g1 fn ac nm1 am MD1 NA NC CB OB OM N|b0 rest g1 fn ac nm1 _ _ _ _].
    - destruct H.
    - exfalso. subst ex. apply filter_In in H as [H _]. assert (HR : In (b, RCommit g' topics) rqs) by (rewrite RE; apply in_app_iff; now left). destruct FE as (_ & _ & _ & L). destruct (L _ _ HR) as (? & _ & X & _). discriminate X.
    - exfalso. subst ex. apply filter_In in H as [H _]. assert (HR : In (b, RCommit g' topics) rqs) by (rewrite RE; apply in_app_iff; now left). destruct L as (_ & _ & L). destruct (L _ _ HR) as (? & _ & X & _). discriminate X.
    - exfalso. destruct H as [H|[]]. discriminate H.
    - destruct o as [t0 st0|m0|]; [rewrite (NA t0 st0 eq_refl), MD in MD1; discriminate MD1|eauto|now destruct NC].
    - exfalso. destruct H as [H|[]]. discriminate H.
  Qed.
  (** what a member commits *)
  Theorem commit_step s l p c : reachable cfg s -> careful t log cfg s l -> ~ busy s t -> In t (c_synced s) -> phase s -> commits_at t cfg s l p c ->
    exists s0 ls, cstep cfg s l = crun cfg (ls ++ [l]) s0 /\ reachable cfg s0 /\ C p (position s0 t p) /\ forall o m, In (o, m) (log p) -> position s0 t p <= o < c -> returned_in t (Turn cfg s0 (ls ++ [l])) m.
  Proof using LOG AA MD.
    intros R CA NB IS PH CM. pose proof (reach_inv cfg s R) as I0. destruct (commit_position cfg t s l p c I0 CM) as (EC & i & op & p' & D & NA & NO).
    assert (CR' : exists m, op = OpCommit m) by (destruct op as [t' start|m|]; [destruct (NA t' start eq_refl) as (? & ? & ? & X); rewrite MD in X; discriminate X|eauto|now destruct NO]). destruct CR' as [m ->].
    destruct PH as [PH|(s0 & ls & ES & FT & CP)]; [exfalso; destruct PH as [[[X _] _]|[(X & _)|(j & [X _ _])]]; now apply X|].
    subst s. pose proof CM as (b & g' & topics & parts & x & HS & HT & HP). pose proof (sends_no_alloc cfg _ l b _ R HS) as NAL. assert (NR : ~ rebalances cfg (crun cfg ls s0) l) by (intros (ev & X & _); now apply (NAL ev)).
    assert (ES : crun cfg (ls ++ [l]) s0 = cstep cfg (crun cfg ls s0) l) by (unfold crun; now rewrite fold_left_app). exists s0, ls. split; [now symmetry|]. pose proof FT as (AS & _). split; [apply AS|]. assert (NE : none_raised t (crun cfg ls s0) (cstep cfg (crun cfg ls s0) l)) by (apply free_quiet; auto; intros j o1 -> OT; destruct (call_sends _ j o1 b g' topics I0 HS) as [m1 ->]; destruct OT).
    pose proof (turn_goes_on s0 ls l FT CA NR NE) as FT'. split.
    - apply CP. rewrite <- (alloc_still _ l I0 NR). refine (touches_dicts cfg _ l b _ t p dicts R HS _). right. exists g', topics, parts, c, x. auto.
    - intros o m' IN RG. apply (steady_returned s0 (ls ++ [l]) p o m' FT'); [|exact IN|rewrite ES, <- EC; exact RG]. rewrite ES. intros (j & o1 & p1 & D1 & OT). destruct (calls_step cfg _ l j o1 p1 I0 D1) as [(p2 & D2)|E]; [apply NB; now exists j, o1, p2|].
      subst l. destruct (call_sends _ j o1 b g' topics I0 HS) as [m1 ->]. destruct OT.
  Qed.
  (** how far it has read *)
  Lemma read_here s p : reachable cfg s -> phase s -> In t (c_synced s) -> ~ busy s t -> In p (alloc_of cfg s t) ->
    exists s0 ls, s = crun cfg ls s0 /\ reachable cfg s0 /\ C p (position s0 t p) /\ forall o m, In (o, m) (log p) -> position s0 t p <= o < position s t p -> returned_in t (Turn cfg s0 ls) m.
  Proof using LOG AA MD.
    intros R PH SY NB IP. destruct PH as [[[[X _] _]|[(X & _)|(j & [X _ _])]]|(s0 & ls & ES & FT & CP)]; try now destruct X. exists s0, ls. split; [exact ES|]. split; [apply FT|]. split; [now apply CP|]. intros o m IN RG.
    refine (steady_returned s0 ls p o m FT _ IN _); now rewrite <- ES.
  Qed.
End Member.

Lemma phase_mono {V} (cfg : config V) t log g (C C' : Z -> Z -> Prop) s : (forall p c, C p c -> C' p c) -> phase cfg t log g C s -> phase cfg t log g C' s.
Proof.
  intros H [[LO|[(A & B & E)|DR]]|(s0 & ls & A & B & E)].
  - left. auto.
  - left. right. left. split; [exact A|]. split; [exact B|]. auto.
  - left. auto.
  - right. exists s0, ls. auto.
Qed.

Section Team.
  Context {V : Type}.
  Variable t : text.
  Variable log : Z -> list (Z * pymsg).
  Hypothesis LOG : forall p, is_log (log p).
  Variable start : Z -> Z.
  Variable cf : Z -> config V.
  Variable k0 : Z -> cluster.
  Hypothesis PLAIN : plain_members cf.
  Notation member := (member cf k0).
  Notation got := (got t cf k0).
  Notation read_to := (read_to t log start cf k0).
  Notation committed := (committed t cf k0).

  Lemma own_snoc x es y l : own x (es ++ [(y, l)]) = if y =? x then own x es ++ [l] else own x es.
  Proof. unfold own. rewrite filter_app, map_app. cbn. destruct (y =? x); [reflexivity|apply app_nil_r]. Qed.
  Lemma member_same x es l : member x (es ++ [(x, l)]) = cstep (cf x) (member x es) l.
  Proof. unfold SpecTeam.member. rewrite own_snoc, Z.eqb_refl. unfold crun. now rewrite fold_left_app. Qed.
  Lemma member_other x y es l : y <> x -> member x (es ++ [(y, l)]) = member x es.
  Proof. intros N. unfold SpecTeam.member. rewrite own_snoc. now apply Z.eqb_neq in N as ->. Qed.
  Lemma member_reach x es : reachable (cf x) (member x es).
  Proof. unfold SpecTeam.member. eexists _, _, _. reflexivity. Qed.
  Lemma got_snoc x es e m : got x es m -> got x (es ++ [e]) m.
  Proof.
    intros G v D T. specialize (G v D T). destruct e as [y l]. destruct (Z.eq_dec y x) as [->|N]; [|now rewrite member_other].
    rewrite member_same. destruct (ended_step (cf x) (member x es) l (reach_inv _ _ (member_reach x es))) as [z E]. rewrite E, flat_map_app. apply in_app_iff. now left.
  Qed.
  Lemma snoc_inj {A} (a b c : list A) (x y : A) : a ++ [x] = b ++ y :: c -> (exists c', c = c' ++ [x] /\ a = b ++ y :: c') \/ (c = [] /\ a = b /\ x = y).
  Proof.
    destruct c as [|z c] using rev_ind; intros E.
    - right. apply app_inj_tail in E as [-> ->]. auto.
    - left. replace (b ++ y :: c ++ [z]) with ((b ++ y :: c) ++ [z]) in E by (rewrite <- app_assoc; reflexivity). apply app_inj_tail in E as [-> ->]. exists c. auto.
  Qed.
  Lemma committed_snoc es y l p o : committed (es ++ [(y, l)]) p o -> committed es p o \/ commits_at t (cf y) (member y es) l p o.
  Proof.
    intros (es1 & x & l' & es2 & E & H). apply snoc_inj in E as [(c & -> & ->)|(-> & -> & E)]; [left; exists es1, x, l', c; auto|]. right. injection E as -> ->. exact H.
  Qed.
  Lemma returned_got x es m s0 ls : member x es = crun (cf x) ls s0 -> reachable (cf x) s0 -> returned_in t (Turn (cf x) s0 ls) m -> got x es m.
  Proof.
    intros E R H v D T. specialize (H v D T). unfold tn_gave, tn_end in H. cbn [tn_cfg tn_start tn_steps] in H. unfold returned, ended_since in H.
    destruct (ended_run (cf x) ls s0 (reach_inv _ _ R)) as [z F]. rewrite E, F, flat_map_app. apply in_app_iff. right. rewrite F, skipn_app, skipn_all, Nat.sub_diag in H. exact H.
  Qed.
  Lemma well_prefix es e : well_behaved t log start cf k0 (es ++ [e]) -> well_behaved t log start cf k0 es.
  Proof. intros W es1 x l es2 ->. apply (W es1 x l (es2 ++ [e])). now rewrite <- app_assoc. Qed.

  Lemma failed_now x es l : In t (c_synced (member x es)) -> raises t (cf x) (member x es) l -> failed t cf k0 (es ++ [(x, l)]) x.
  Proof. intros SY RA. exists es, l, []. split; [reflexivity|]. split; [exact SY|]. split; [exact RA|]. intros es3 l' es4 E. now destruct es3. Qed.
  Lemma failed_still x es y l : failed t cf k0 es x -> (y = x -> ~ rebalances (cf x) (member x es) l) -> failed t cf k0 (es ++ [(y, l)]) x.
  Proof.
    intros (es1 & l1 & es2 & -> & SY & RA & NR) NB. exists es1, l1, (es2 ++ [(y, l)]). split; [now rewrite <- app_assoc|]. split; [exact SY|]. split; [exact RA|]. intros es3 l' es4 E.
    destruct (snoc_inj _ _ _ _ _ E) as [(c & -> & E')|(-> & -> & E')]; [apply (NR es3 l' c E')|]. injection E' as -> ->. now apply NB.
  Qed.

  Lemma never_raised es x : (forall i o e, In (i, o, Err e) (c_ended (member x es)) -> ~ on_topic t o) -> ~ failed t cf k0 es x.
  Proof.
    intros N (es1 & l & es2 & -> & _ & (i & o & e & H & OT) & _). apply (N i o e); [|exact OT]. rewrite <- (member_same x es1 l) in H. unfold ended_since in H. assert (H' : In (i, o, Err e) (c_ended (member x (es1 ++ [(x, l)])))) by (rewrite <- (firstn_skipn (List.length (c_ended (member x es1)))); apply in_app_iff; now right).
    clear H N. replace (es1 ++ (x, l) :: es2) with ((es1 ++ [(x, l)]) ++ es2) by (rewrite <- app_assoc; reflexivity). revert H'. generalize (es1 ++ [(x, l)]). induction es2 as [|[y k] es2 IH]; intros es H'; [now rewrite app_nil_r|].
    replace (es ++ (y, k) :: es2) with ((es ++ [(y, k)]) ++ es2) by (rewrite <- app_assoc; reflexivity). apply IH. destruct (Z.eq_dec y x) as [->|NE]; [|now rewrite member_other]. rewrite member_same.
    destruct (ended_step (cf x) (member x es) k (reach_inv _ _ (member_reach x es))) as [z ->]. apply in_app_iff. now left.
  Qed.

  (** what the program of a member has: what consume() returned to it (C99), or what it has done with it (C100) *)
  Variable G : Z -> history -> pymsg -> Prop.
  Definition covered (es : history) (p c : Z) : Prop := forall o m, In (o, m) (log p) -> start p <= o < c -> exists x, G x es m.
  (** the histories in question *)
  Variable K : history -> Prop.
  Hypothesis KPRE : forall es e, K (es ++ [e]) -> K es.
  Hypothesis KWELL : forall es, K es -> well_behaved t log start cf k0 es.
  Hypothesis MORE : forall x es e m, G x es m -> G x (es ++ [e]) m.
  Hypothesis HAS : forall es y l p c m, K (es ++ [(y, l)]) -> commits_at t (cf y) (member y es) l p c -> got y (es ++ [(y, l)]) m -> G y (es ++ [(y, l)]) m.
  Lemma covered_snoc es e p c : covered es p c -> covered (es ++ [e]) p c.
  Proof using MORE. intros R o m IN RG. destruct (R o m IN RG) as [x H]. exists x. now apply MORE. Qed.
  Definition team (es : history) : Prop :=
    (forall x g fn name, full_allocator fn -> md (cf x) = Grouped g fn false name -> single t (member x es) /\ (phase (cf x) t log g (covered es) (member x es) \/ (failed t cf k0 es x /\ adrift (cf x) t log (member x es)))) /\
    (forall p o, committed es p o -> covered es p o).
  Theorem team_runs es : K es -> team es.
  Proof using LOG PLAIN KPRE KWELL MORE HAS.
    induction es as [|[y l] es IH] using rev_ind; intros W.
    - split.
      + intros x g fn name AA M. unfold SpecTeam.member, name_of. cbn. rewrite M. split; [intros i j o o' p p' D; discriminate D|left; apply phase_init].
      + intros p o (es1 & x & l & es2 & E & _). now destruct es1.
    - destruct (IH (KPRE es _ W)) as [PH CO]. destruct (KWELL _ W es y l [] eq_refl) as (CA & RE & CW). split.
      + intros x g fn name AA M. destruct (PH x g fn name AA M) as [SG P]. destruct (Z.eq_dec y x) as [->|N].
        * rewrite member_same. split; [apply (single_step (cf x) t log); auto; apply reach_inv, member_reach|]. destruct P as [P|[FA AD]].
          -- apply (phase_mono _ _ _ _ _ (covered (es ++ [(x, l)]))) in P; [|intros p c; apply covered_snoc].
             destruct (phase_step (cf x) t log LOG g name fn AA M (covered (es ++ [(x, l)])) (member x es) l (member_reach x es) SG CA) as [P'|(SY & RA & AD)]; [|exact P|now left|right; split; [now apply failed_now|exact AD]].
             intros i b g' asked parts rest EL WF. destruct (RE i b g' asked parts rest EL WF) as (ND & AL & OF). split; [exact ND|]. split; [exact AL|]. intros p o IP. apply covered_snoc. destruct (OF p o IP) as [->|H]; [intros o' m _ RG; lia|now apply CO].
          -- destruct (rebalance_dec (cf x) (member x es) l (alloc_dec l)) as [RB|NR]; [left; apply (adrift_rebalanced (cf x) t log LOG g name fn AA M); auto; apply reach_inv, member_reach|].
             destruct (adrift_step (cf x) t log LOG g name fn AA M (covered (es ++ [(x, l)])) _ l AD (member_reach x es) SG CA NR) as [P'|AD']; [now left|]. right. split; [now apply failed_still|exact AD'].
        * rewrite member_other by exact N. split; [exact SG|]. destruct P as [P|[FA AD]]; [left; apply (phase_mono _ _ _ _ _ (covered (es ++ [(y, l)]))) in P; [exact P|intros p c; apply covered_snoc]|]. right. split; [|exact AD]. apply failed_still; [exact FA|]. intros E. now destruct N.
      + intros p c H. apply committed_snoc in H as [H|H]; [apply covered_snoc; auto|]. destruct (PLAIN y) as (g & fn & name & AA & M). destruct (PH y g fn name AA M) as [SG P].
        destruct (CW p c H) as (NB & SY & NF). destruct P as [P|[FA _]]; [|now destruct NF].
        destruct (commit_step (cf y) t log LOG g name fn AA M (covered es) (member y es) l p c (member_reach y es) CA NB SY P H) as (s0 & ls & E & R0 & C0 & RT). intros o m IN RG.
        destruct (Z_lt_le_dec o (position s0 t p)) as [L|L]; [destruct (C0 o m IN) as [x G0]; [lia|]; exists x; now apply MORE|].
        exists y. apply (HAS es y l p c m W H). apply (returned_got y _ m s0 (ls ++ [l])); [now rewrite member_same|exact R0|]. apply (RT o m IN). lia.
  Qed.
End Team.

Section TeamGot.
  Context {V : Type}.
  Variable t : text.
  Variable log : Z -> list (Z * pymsg).
  Hypothesis LOG : forall p, is_log (log p).
  Variable start : Z -> Z.
  Variable cf : Z -> config V.
  Variable k0 : Z -> cluster.
  Hypothesis PLAIN : plain_members cf.
  Notation member := (member cf k0).
  Notation read_to := (read_to t log start cf k0).
  Theorem team_got es : well_behaved t log start cf k0 es -> team t log start cf k0 (got t cf k0) es.
  Proof using LOG PLAIN. apply (team_runs t log LOG start cf k0 PLAIN) with (K := well_behaved t log start cf k0); [apply well_prefix|auto|apply got_snoc|auto]. Qed.
  Theorem team_positions es x p : well_behaved t log start cf k0 es -> In t (c_synced (member x es)) -> ~ busy (member x es) t -> ~ failed t cf k0 es x -> In p (alloc_of (cf x) (member x es) t) -> read_to es p (position (member x es) t p).
  Proof using LOG PLAIN.
    intros W SY NB NF IP. destruct (team_got es W) as [PH _]. destruct (PLAIN x) as (g & fn & name & AA & M). destruct (PH x g fn name AA M) as [SG [P|[FA _]]]; [|now destruct NF].
    destruct (read_here (cf x) t log LOG g name fn AA M _ (member x es) p (member_reach cf k0 x es) P SY NB IP) as (s0 & ls & E & R0 & C0 & RT). intros o m IN RG.
    destruct (Z_lt_le_dec o (position s0 t p)) as [L|L]; [apply (C0 o m IN); lia|]. exists x. apply (returned_got t cf k0 x _ m s0 ls E R0). apply (RT o m IN). lia.
  Qed.
End TeamGot.
