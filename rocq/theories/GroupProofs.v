(** Proofs about the group consumer: which topics are to be committed, what a rebalance does to running calls, and when
    group offsets are loaded. *)
From Coq Require Import ZArith String List Bool Lia Permutation.
From Verif Require Import PyBase BaseLemmas Constants Cluster Zookeeper SpecZk ZkProofs ZkAlloc Consumer SpecConsumer SpecGroup ConsumerProofs ConsumerSteps ConsumerRuns ConsumerSync.
Import ListNotations.
Open Scope Z_scope.
Set Default Proof Using "Type".

Section Group.
  Context {V : Type}.
  Variable cfg : config V.
  Notation st := (consumer V).

  (** ** topics to be committed *)
  Definition in_commit (n : next V) : Prop := forall p, n = Await p -> exists m ret w, p = PSend (KCommit m ret) w [].
  Definition counts (s : st) (ns : next V * st) : Prop := c_tocommit (snd ns) = c_tocommit s \/ in_commit (fst ns).
  Lemma quietw_tocommit s s' ex : quietw cfg s s' ex -> c_tocommit s' = c_tocommit s.
  Proof. intros [Q _]. exact (q_tocommit _ _ _ Q). Qed.
  Lemma counts_pre s s1 ns : c_tocommit s1 = c_tocommit s -> counts s1 ns -> counts s ns.
  Proof. intros E [H|H]; [left; congruence|now right]. Qed.
  Lemma commit_tocommit m ret s : c_tocommit (snd (commit_offsets cfg m ret s)) = c_tocommit s /\ in_commit (fst (commit_offsets cfg m ret s)).
  Proof.
    destruct (commit_offsets_spec cfg m ret s) as (ex & Q & D). split; [eapply quietw_tocommit, Q|]. intros p H. destruct D as [(e & D & _)|(g & fn & ac & name & b & am & _ & _ & _ & D & _)]; rewrite H in D; [discriminate D|]. injection D as ->. eauto.
  Qed.
  Lemma base_done_in_commit t v s : in_commit (fst (base_done cfg t v s)).
  Proof. unfold base_done. destruct (md cfg) as [|g fn ac name]; [discriminate|]. destruct (negb (smem (c_synced s) t)); [discriminate|]. destruct ac; [apply commit_tocommit|discriminate]. Qed.
  Lemma raised_counts k e s : counts s (raised cfg k e s).
  Proof. unfold raised. destruct k; try (now left). destruct e; try (now left). right. apply base_done_in_commit. Qed.
  Lemma fetch_counts t s : counts s (fetch cfg t s).
  Proof.
    destruct (fetch_spec cfg t s) as [(e & ex & E & Q & _)|[(_ & s1 & Q & ->)|(_ & rqs & ex & E & Q & _)]]; [left; eapply quietw_tocommit, Q|right; apply base_done_in_commit|left; eapply quietw_tocommit, Q].
  Qed.
  Lemma after_offsets_counts t s : counts s (after_offsets cfg t s).
  Proof.
    destruct (after_offsets_spec cfg t s) as [(s1 & Q & _ & ->)|[(e & ex & E & Q)|(E & Q)]]; [eapply counts_pre; [apply (q_tocommit _ _ _ Q)|apply fetch_counts]|left; eapply quietw_tocommit, Q|left; apply (q_tocommit _ _ _ Q)].
  Qed.
  Lemma send_one_tocommit k b rq s : c_tocommit (snd (send_one cfg k b rq s)) = c_tocommit s.
  Proof. destruct (send_one_spec cfg k b rq s) as (ex & Q & _). eapply quietw_tocommit, Q. Qed.
  Lemma resume_counts k rs s : counts s (resume cfg k rs s).
  Proof.
    destruct k as [t rq|t|m ret|a r]; cbn [resume].
    - assert (AO : counts s (after_offsets cfg t (set_synced (sadd (c_synced s) t) s))) by (eapply counts_pre; [|apply after_offsets_counts]; reflexivity).
      destruct (md cfg); [exact AO|]. destruct rq as [rq|]; [|exact AO]. destruct (coord_result rs s) as [[| |[|]|]|e]; try exact AO; [|apply raised_counts].
      pose proof (send_one_tocommit (KOffsets t (Some rq)) (c_coord s) rq s) as SO. destruct (send_one cfg (KOffsets t (Some rq)) (c_coord s) rq s) as [[p|v|e] s1]; cbn [snd] in SO; [now left|now left|]. eapply counts_pre; [exact SO|apply raised_counts].
    - right. apply base_done_in_commit.
    - destruct (coord_result rs s) as [[| | |[|] b]|e]; try (now left). left. apply commit_tocommit.
    - destruct (dindex rs a) as [[| |[|]|]|e]; try (now left); destruct (md cfg); try (now left); unfold coord_next; destruct (match r with [] => _ | _ => r end); try (now left); left; apply send_one_tocommit.
  Qed.
  Lemma send_end_counts k rs s : counts s (send_end cfg k rs s).
  Proof. unfold send_end. destruct (c_heal s); [now left|apply resume_counts]. Qed.
  Lemma send_all_tocommit rqs s : c_tocommit (snd (send_all cfg rqs s)) = c_tocommit s.
  Proof. destruct (send_all_spec cfg rqs s) as (pre & post & _ & -> & _). reflexivity. Qed.
  Lemma determine_counts t start s : counts s (determine_offsets cfg t start s).
  Proof.
    unfold determine_offsets. destruct (alloc_index_spec cfg t s) as [Q _]. destruct (md cfg) as [|g fn ac name].
    - destruct (alloc_index cfg t s) as [[ps|e] s1]; cbn [fst snd] in *; [|left; apply (q_tocommit _ _ _ Q)].
      set (time := start_to_timestamp cfg _). clearbody time. destruct (offset_requests_leaders t time ps [] s1) as [O1 _]. cbn [map] in O1. destruct (order_leaders_spec cfg t ps [] s1) as [Q3 _]. rewrite <- O1 in Q3. clear O1.
      destruct (offset_requests t time ps [] s1) as [[rqs|e] s2]; cbn [fst snd] in *; [|left; cbn [snd]; rewrite (q_tocommit _ _ _ Q3); apply (q_tocommit _ _ _ Q)].
      assert (T2 : c_tocommit (snd (send_all cfg rqs s2)) = c_tocommit s) by (rewrite send_all_tocommit, (q_tocommit _ _ _ Q3); apply (q_tocommit _ _ _ Q)).
      destruct (send_all cfg rqs s2) as [[[]|e] s3]; cbn [snd] in T2; [|now left]. destruct rqs; [|now left]. eapply counts_pre; [exact T2|apply send_end_counts].
    - destruct (alloc_index cfg t s) as [[ps|e] s1]; cbn [fst snd] in *; [|left; apply (q_tocommit _ _ _ Q)]. left. rewrite send_one_tocommit. apply (q_tocommit _ _ _ Q).
  Qed.
  Lemma consume_counts t start s : counts s (consume cfg t start s).
  Proof.
    unfold consume. destruct (c_closing s); [right; apply base_done_in_commit|]. destruct (smem (c_synced s) t); [apply after_offsets_counts|].
    set (x := match md cfg with Single => start | _ => None end). clearbody x. pose proof (determine_counts t x s) as C. destruct (determine_offsets cfg t x s) as [[p|v|e] s1]; try exact C.
    destruct C as [C|C]; cbn [snd] in C; [eapply counts_pre; [exact C|apply raised_counts]|]. right. unfold raised. destruct e; try (intros p H; discriminate H). apply base_done_in_commit.
  Qed.
  Lemma begin_counts o s : counts s (begin cfg o s).
  Proof.
    destruct o as [t start|m|]; cbn [begin]; [apply consume_counts|left; apply commit_tocommit|]. destruct (md cfg); [now left|]. unfold coord_next. destruct (dkeys _); [now left|]. left. apply send_one_tocommit.
  Qed.
  Lemma in_sdiscard (l : list text) x y : In x (sdiscard l y) -> In x l /\ x <> y.
  Proof. unfold sdiscard. intros H. apply filter_In in H as [H1 H2]. split; [exact H1|]. intros ->. now rewrite eqb_refl in H2. Qed.
  Lemma commit_parts_drop t parts : forall acc (s : st), (forall p code, In (p, code) parts -> known_code code) ->
    (forall x, In x (c_tocommit (snd (handle_commit_parts t parts acc s))) -> In x (c_tocommit s)) /\
    ((exists p, In (p, no_error) parts) -> ~ In t (c_tocommit (snd (handle_commit_parts t parts acc s)))) /\ exists acc', fst (handle_commit_parts t parts acc s) = Ok acc'.
  Proof.
    induction parts as [|[p code] parts IH]; intros acc s K; cbn [handle_commit_parts].
    - split; [auto|]. split; [intros (p & [])|eexists; reflexivity].
    - assert (K' : forall p code, In (p, code) parts -> known_code code) by (intros; eapply K; right; eassumption).
      destruct (code =? no_error) eqn:C0.
      + destruct (IH acc (set_tocommit (sdiscard (c_tocommit s) t) s) K') as (A & B & C). split; [|split; [|exact C]].
        * intros x H. apply A in H. cbn in H. now apply in_sdiscard in H.
        * intros _ H. apply A in H. cbn in H. now apply in_sdiscard in H.
      + assert (NE : (exists p0, In (p0, no_error) ((p, code) :: parts)) -> exists p0, In (p0, no_error) parts).
        { intros (p0 & [H|H]); [|eauto]. injection H as _ ->. now rewrite Z.eqb_refl in C0. }
        destruct (is_retriable code); [destruct (IH (true, snd acc) (set_heal true s) K') as (A & B & C); split; [exact A|split; [auto|exact C]]|].
        destruct (code =? offset_metadata_too_large); [destruct (IH (true, true) s K') as (A & B & C); split; [exact A|split; [auto|exact C]]|].
        destruct (K p code (or_introl eq_refl)) as [nm ->]. destruct (IH acc s K') as (A & B & C). split; [exact A|split; [auto|exact C]].
  Qed.
  Lemma commit_topics_drop topics : forall acc (s : st), all_known topics ->
    (forall x, In x (c_tocommit (snd (handle_commit_topics topics acc s))) -> In x (c_tocommit s) /\ ~ acknowledged x topics) /\ exists acc', fst (handle_commit_topics topics acc s) = Ok acc'.
  Proof.
    induction topics as [|[t parts] topics IH]; intros acc s K; cbn [handle_commit_topics].
    - split; [intros x H; split; [exact H|intros (ps & p & [] & _)]|eexists; reflexivity].
    - destruct (commit_parts_drop t parts acc s) as (A & B & (acc1 & C)); [intros p code H; eapply K; [now left|exact H]|].
      destruct (handle_commit_parts t parts acc s) as [r s1]. cbn [fst snd] in *. subst r. destruct (IH acc1 s1) as (D & E); [intros t0 ps p code H; eapply K; right; exact H|]. split; [|exact E].
      intros x H. destruct (D x H) as [D1 D2]. split; [auto|]. intros (ps & p & [H1|H1] & H2); [|apply D2; exists ps, p; auto]. injection H1 as <- <-. apply B; [now exists p|exact D1].
  Qed.

  Lemma tocommit_step t s l : inv cfg s -> In t (c_tocommit (cstep cfg s l)) -> (In t (c_tocommit s) /\ ~ acks t s l) \/ finishes cfg t s l.
  Proof.
    intros I0 H. pose proof (cstep_did cfg s l I0) as D. pose proof H as H0.
    assert (FIN : forall i o s1 ns look lv, (l = Call i o \/ exists p, dget (c_calls s) i = Some (o, p)) -> cstep cfg s l = continue i o ns -> c_calls s1 = c_calls s -> c_ended s1 = c_ended s ->
       piece cfg look o lv s1 ns -> counts s1 ns -> In t (c_tocommit s1) \/ finishes cfg t s l).
    { intros i o s1 ns look lv W EQ C1 E1 [(ex & M & S) PF _ _] CO. rewrite EQ in H. destruct (continue_same i o ns) as (_ & _ & _ & _ & _ & _ & _ & TC & _). rewrite TC in H.
      destruct CO as [CO|CO]; [left; congruence|]. destruct (p_tocommit _ _ _ _ _ _ M) as [P|(t' & start & -> & P & _)]; [left; congruence|]. rewrite P in H. apply in_sadd in H as [->|H]; [|now left]. right.
      exists i, start. split; [exact W|]. cbv zeta. rewrite EQ. destruct (fst ns) as [p|v|e] eqn:FN.
      - right. destruct (CO p eq_refl) as (m & ret & w & ->). cbn in PF. destruct PF as [_ [WS WN WA _ _ _]]. destruct w as [|[b rq] w]; [now destruct WS|]. exists b, rq. split; [|exact (WA b rq (or_introl eq_refl))].
        assert (N' : NoDup (dkeys (c_calls (snd ns)))) by (rewrite (p_calls _ _ _ _ _ _ M), C1; apply I0). destruct (continue_calls i (OpConsume t' start) ns i N') as [_ CC]. rewrite Z.eqb_refl, FN in CC.
        exists (OpConsume t' start). do 3 eexists. split; [exact CC|]. cbn. now rewrite Z.eqb_refl.
      - left. exists (Ok v). now rewrite continue_ended, FN, (p_ended _ _ _ _ _ _ M), E1.
      - left. exists (Err e). now rewrite continue_ended, FN, (p_ended _ _ _ _ _ _ M), E1. }
    assert (NA : forall l, (forall i b topics, l <> Arrive i b (Ok (PCommit topics))) -> ~ acks t s l) by (intros l0 X (i & b & rq & topics & -> & _); eapply X; reflexivity).
    assert (AN : forall i b r o k w rs rq, l = Arrive i b r -> dget (c_calls s) i = Some (o, PSend k w rs) -> dget w b = Some rq -> is_answer rq r = true -> In t (c_tocommit (answer_state cfg r s)) -> In t (c_tocommit s) /\ ~ acks t s l).
    { intros i b r o k w rs rq -> D1 D2 IA HT. destruct r as [resp|e]; cbn [answer_state] in HT; [|destruct (sets_heal e); (split; [exact HT|apply NA; intros; discriminate])].
      pose proof (handle_handled cfg resp s) as HH. split; [now apply (h_tocommit _ _ _ HH)|]. intros (i' & b' & rq' & topics & EQ & W & _ & K & A). injection EQ as <- <- ->. cbn [handle] in HT.
      destruct (commit_topics_drop topics (false, false) s K) as [X _]. destruct (handle_commit_topics topics (false, false) s) as [[[]|e] s1]; now destruct (X t HT). }
    remember (cstep cfg s l) as s' eqn:EQ.
    destruct D as [l ID|i o ns D E P|i b r o k w rs rq D FI W IA HF NE F'|i b r o k w rs rq ns D FI W IA E P|i r o k rs s1 ns D FI E P|i r t' start ns D E P|k|g fn ac name ev M|].
    - left. split; [exact H|]. intros (i & b & rq & topics & -> & (o & k & w & rs & D1 & D2) & (g & ts & ->) & _). specialize (ID o k w rs _ D1 D2). discriminate ID.
    - destruct (FIN i o s ns true [] (or_introl eq_refl) eq_refl eq_refl eq_refl P) as [X|X]; [subst ns; apply begin_counts| |now right]. left. split; [exact X|apply NA; intros; discriminate].
    - left. eapply AN; eauto.
    - destruct (answer_state_same cfg r s) as (C1 & E1 & _). destruct (paid_some cfg k rs) as [lv PD]. specialize (P lv PD).
      destruct (FIN i o _ ns _ _ (or_intror (ex_intro _ _ D)) eq_refl C1 E1 P) as [X|X]; [destruct E as [(_ & _ & ->)|(e & _ & ->)]; [apply send_end_counts|apply raised_counts]| |now right]. left. eapply AN; eauto.
    - destruct (paid_some cfg k rs) as [lv PD]. specialize (P lv PD). assert (S1 : c_calls s1 = c_calls s /\ c_ended s1 = c_ended s /\ c_tocommit s1 = c_tocommit s) by (destruct E as [(u & _ & -> & _)|(e & _ & -> & _)]; auto). destruct S1 as (C1 & E1 & T1).
      destruct (FIN i o s1 ns _ _ (or_intror (ex_intro _ _ D)) eq_refl C1 E1 P) as [X|X]; [destruct E as [(u & _ & _ & ->)|(e & _ & _ & ->)]; [apply resume_counts|apply raised_counts]| |now right]. left. split; [congruence|apply NA; intros; discriminate].
    - destruct (FIN i (OpConsume t' start) s ns _ _ (or_intror (ex_intro _ _ D)) eq_refl eq_refl eq_refl P) as [X|X]; [destruct E as [(u & _ & ->)|(e & _ & ->)]; [apply fetch_counts|now left]| |now right]. left. split; [exact X|apply NA; intros; discriminate].
    - left. split; [exact H|apply NA; intros; discriminate].
    - left. split; [exact H|apply NA; intros; discriminate].
    - left. split; [exact H|apply NA; intros; discriminate].
  Qed.

  (** ** a rebalance while a fetch is in progress *)
  Definition fetchy (t : text) (p : pc V) : Prop := match p with PSend (KFetch t') _ _ | PHeal (KFetch t') _ | PTopicHeal t' => t' = t | _ => False end.
  Definition past (p : pc V) : Prop := late_pc p \/ exists t, p = PTopicHeal t.
  Lemma fetchy_past t p : fetchy t p -> past p.
  Proof. destruct p as [[t' rq|t'|m ret|a r] w rs|[t' rq|t'|m ret|a r] rs|t']; cbn; intros H; try contradiction; [left; exact I|left; exact I|right; eauto]. Qed.
  Record dropping (t : text) (i : Z) (s : st) : Prop := {
    d_synced : ~ In t (c_synced s);
    d_past : forall j o p, dget (c_calls s) j = Some (o, p) -> on_topic t o -> past p;
    d_call : forall o p, dget (c_calls s) i = Some (o, p) -> on_topic t o -> fetchy t p }.
  Definition nothing (r : res (rv V)) : Prop := r = Ok (RvList []) \/ exists e, r = Err e.
  (** what the rest of a fetch on a topic that is not synced does *)
  Record drops (t : text) (s : st) (ns : next V * st) : Prop := {
    dr_synced : c_synced (snd ns) = c_synced s; dr_tocommit : c_tocommit (snd ns) = c_tocommit s;
    dr_next : match fst ns with Await p => fetchy t p | Return v => v = RvList [] | Raise_ _ => True end }.
  Section Drops.
    Variables (g : text) (fn : list text -> list text -> res mapping) (ac : bool) (name : text).
    Hypothesis MD : md cfg = Grouped g fn ac name.
    Lemma base_done_drops t v s : ~ In t (c_synced s) -> base_done cfg t v s = (Return (RvList []), s).
    Proof using MD. intros N. unfold base_done. rewrite MD. destruct (smem (c_synced s) t) eqn:E; [exfalso; apply N; now apply smem_In|reflexivity]. Qed.
    Lemma fetch_drops t s : ~ In t (c_synced s) -> drops t s (fetch cfg t s).
    Proof using MD.
      intros N. destruct (fetch_spec cfg t s) as [(e & ex & E & Q & _)|[(_ & s1 & Q & ->)|(_ & rqs & ex & E & Q & _)]].
      - pose proof (qw_quiet _ _ _ _ Q) as Q'. constructor; [exact (q_synced _ _ _ Q')|exact (q_tocommit _ _ _ Q')|now rewrite E].
      - rewrite base_done_drops by (rewrite (q_synced _ _ _ Q); exact N). constructor; [exact (q_synced _ _ _ Q)|exact (q_tocommit _ _ _ Q)|reflexivity].
      - pose proof (qw_quiet _ _ _ _ Q) as Q'. constructor; [exact (q_synced _ _ _ Q')|exact (q_tocommit _ _ _ Q')|now rewrite E].
    Qed.
    Lemma resume_drops t rs s : ~ In t (c_synced s) -> drops t s (resume cfg (KFetch t) rs s).
    Proof using MD. intros N. cbn [resume]. rewrite base_done_drops by exact N. constructor; reflexivity. Qed.
    Lemma send_end_drops t rs s : ~ In t (c_synced s) -> drops t s (send_end cfg (KFetch t) rs s).
    Proof using MD. intros N. unfold send_end. destruct (c_heal s); [constructor; reflexivity|now apply resume_drops]. Qed.
    Lemma raised_drops t e s : drops t s (raised cfg (KFetch t) e s).
    Proof using Type. constructor; reflexivity || exact I. Qed.

    (** a call that waits for its commit *)
    Lemma commit_rest m ret rs s : c_tocommit (snd (resume cfg (KCommit m ret) rs s)) = c_tocommit s.
    Proof using Type. cbn [resume]. destruct (coord_result rs s) as [[| | |[|] b]|e]; try reflexivity. apply commit_tocommit. Qed.

    Lemma dropping_step t i s l : inv cfg s -> dropping t i s -> (forall j start, l <> Call j (OpConsume t start)) ->
      dropping t i (cstep cfg s l) /\ (In t (c_tocommit (cstep cfg s l)) -> In t (c_tocommit s)) /\
      (forall start r, In (i, OpConsume t start, r) (c_ended (cstep cfg s l)) -> In (i, OpConsume t start, r) (c_ended s) \/ nothing r).
    Proof using MD.
      intros I0 DP NC. pose proof (cstep_did cfg s l I0) as D. remember (cstep cfg s l) as s' eqn:EQ.
      (* the piece of call j *)
      assert (AR : forall j o s1 ns, (exists p, dget (c_calls s) j = Some (o, p)) \/ ~ on_topic t o -> c_calls s1 = c_calls s -> c_ended s1 = c_ended s -> (forall x, In x (c_tocommit s1) -> In x (c_tocommit s)) ->
        c_calls (snd ns) = c_calls s1 -> c_ended (snd ns) = c_ended s1 -> ~ In t (c_synced (snd ns)) -> (In t (c_tocommit (snd ns)) -> In t (c_tocommit s1)) ->
        (on_topic t o -> (forall p, fst ns = Await p -> past p) /\ (j = i -> match fst ns with Await p => fetchy t p | Return v => v = RvList [] | Raise_ _ => True end)) ->
        s' = continue j o ns -> dropping t i s' /\ (In t (c_tocommit s') -> In t (c_tocommit s)) /\ (forall start r, In (i, OpConsume t start, r) (c_ended s') -> In (i, OpConsume t start, r) (c_ended s) \/ nothing r)).
      { intros j o s1 ns W C1 E1 T1 C2 E2 N2 T2 FN ->. assert (N' : NoDup (dkeys (c_calls (snd ns)))) by (rewrite C2, C1; apply I0).
        destruct (continue_same j o ns) as (_ & CS & _ & _ & _ & _ & _ & TC & _). split; [|split].
        - constructor; [now rewrite CS| |].
          + intros j' o' p H T. destruct (continue_calls j o ns j' N') as [_ CC]. rewrite CC in H. destruct (Z.eqb_spec j' j) as [->|NJ].
            * destruct (fst ns) as [p0|v|e]; [|discriminate H|discriminate H]. injection H as <- <-. now apply (proj1 (FN T)).
            * rewrite C2, C1 in H. exact (d_past _ _ _ DP _ _ _ H T).
          + intros o' p H T. destruct (continue_calls j o ns i N') as [_ CC]. rewrite CC in H. destruct (Z.eqb_spec i j) as [<-|NJ].
            * destruct (fst ns) as [p0|v|e]; [|discriminate H|discriminate H]. injection H as <- <-. exact (proj2 (FN T) eq_refl).
            * rewrite C2, C1 in H. exact (d_call _ _ _ DP _ _ H T).
        - rewrite TC. auto.
        - intros start r H. rewrite continue_ended, E2, E1 in H. apply in_app_iff in H as [H|H]; [now left|]. right. destruct (fst ns) as [p0|v|e]; [destruct H| |].
          + destruct H as [H|[]]. injection H as -> -> <-. left. f_equal. exact (proj2 (FN eq_refl) eq_refl).
          + destruct H as [H|[]]. injection H as _ _ <-. right. eauto. }
      assert (OT : forall look j o s1 ns ex, ~ on_topic t o -> c_calls s1 = c_calls s -> c_ended s1 = c_ended s -> (forall x, In x (c_tocommit s1) -> In x (c_tocommit s)) -> ~ In t (c_synced s1) -> moves cfg look o ex s1 (snd ns) -> s' = continue j o ns ->
        dropping t i s' /\ (In t (c_tocommit s') -> In t (c_tocommit s)) /\ (forall start r, In (i, OpConsume t start, r) (c_ended s') -> In (i, OpConsume t start, r) (c_ended s) \/ nothing r)).
      { intros look j o s1 ns ex T C1 E1 T1 N1 M EQ'. apply (AR j o s1 ns); auto; try apply M.
        - destruct (p_synced _ _ _ _ _ _ M) as [->|(_ & t' & start & -> & ->)]; [exact N1|]. intros H. apply in_sadd in H as [->|H]; [now apply T|contradiction].
        - destruct (p_tocommit _ _ _ _ _ _ M) as [->|(t' & start & -> & -> & _)]; [auto|]. intros H. apply in_sadd in H as [->|H]; [exfalso; now apply T|exact H].
        - intros X. contradiction. }
      assert (KC : forall o k, fits_cont cfg o k -> on_topic t o -> late k -> k = KFetch t \/ exists m ret, k = KCommit m ret).
      { intros [t' start|m|] [t1 rq|t1|m1 ret|a r] F T L; cbn in F, T, L; try contradiction; [left; congruence|eauto]. }
      destruct D as [l ID|j o ns D E P|j b r o k w rs rq D FI W IA HF NE F'|j b r o k w rs rq ns D FI W IA E P|j r o k rs s1 ns D FI E P|j r t' start ns D E P|k|g' fn' ac' name' ev M|].
      - split; [exact DP|]. split; [auto|]. intros. now left.
      - destruct (on_topic_dec t o) as [T|T]; [destruct o as [t' start|m|]; try contradiction; cbn in T; subst t'; now destruct (NC j start)|].
        destruct P as [(ex & M & S) _ _ _]. apply (OT true j o s ns ex); auto. apply DP.
      - destruct (answer_state_same cfg r s) as (C1 & E1 & _). assert (T1 : forall x, In x (c_tocommit (answer_state cfg r s)) -> In x (c_tocommit s)) by (destruct r as [resp|e]; cbn [answer_state]; [apply (h_tocommit _ _ _ (handle_handled cfg resp s))|destruct (sets_heal e); auto]).
        apply (AR j o (answer_state cfg r s) (Await (PSend k (ddel w b) (answer_results cfg b r rs s)), answer_state cfg r s)); cbn [fst snd]; auto; [left; eauto|intros H; apply answer_synced in H; now apply DP|].
        intros T. pose proof (d_past _ _ _ DP _ _ _ D T) as [L|(x & X)]; [|discriminate X]. split.
        + intros p H. injection H as <-. left. exact L.
        + intros ->. pose proof (d_call _ _ _ DP _ _ D T) as F. exact F.
      - destruct (answer_state_same cfg r s) as (C1 & E1 & _). assert (T1 : forall x, In x (c_tocommit (answer_state cfg r s)) -> In x (c_tocommit s)) by (destruct r as [resp|e]; cbn [answer_state]; [apply (h_tocommit _ _ _ (handle_handled cfg resp s))|destruct (sets_heal e); auto]).
        assert (N1 : ~ In t (c_synced (answer_state cfg r s))) by (intros H; apply answer_synced in H; now apply DP).
        destruct (paid_some cfg k rs) as [lv PD]. destruct (P lv PD) as [(ex & M & S) _ _ _]. destruct (on_topic_dec t o) as [T|T]; [|now apply (OT _ j o _ ns ex T C1 E1 T1 N1 M)].
        pose proof (d_past _ _ _ DP _ _ _ D T) as [L|(x & X)]; [|discriminate X]. cbn in L. destruct (KC o k (proj1 FI) T L) as [->|(m & ret & ->)].
        + assert (DR : drops t (answer_state cfg r s) ns) by (destruct E as [(_ & _ & ->)|(e & _ & ->)]; [now apply send_end_drops|apply raised_drops]). destruct DR as [S1 TC NX].
          apply (AR j o (answer_state cfg r s) ns); auto; [left; eauto|apply M|apply M|now rewrite S1|now rewrite TC|]. intros _. split; [intros p H; rewrite H in NX; eapply fetchy_past, NX|auto].
        + assert (WI : winds (answer_state cfg r s) ns) by (destruct E as [(_ & _ & ->)|(e & _ & ->)]; [now apply send_end_winds|now apply raised_winds]).
          assert (TC : c_tocommit (snd ns) = c_tocommit (answer_state cfg r s)) by (destruct E as [(_ & _ & ->)|(e & _ & ->)]; [|reflexivity]; unfold send_end; destruct (c_heal _); [reflexivity|apply commit_rest]).
          apply (AR j o (answer_state cfg r s) ns); auto; [left; eauto|apply M|apply M|now rewrite (w_synced _ _ WI)|now rewrite TC|]. intros _. split; [intros p H; left; now apply (w_next _ _ WI)|]. intros ->. destruct (d_call _ _ _ DP _ _ D T).
      - assert (S1 : c_calls s1 = c_calls s /\ c_ended s1 = c_ended s /\ c_tocommit s1 = c_tocommit s /\ c_synced s1 = c_synced s) by (destruct E as [(u & _ & -> & _)|(e & _ & -> & _)]; auto). destruct S1 as (C1 & E1 & T1 & Y1).
        assert (N1 : ~ In t (c_synced s1)) by (rewrite Y1; apply DP). assert (T1' : forall x, In x (c_tocommit s1) -> In x (c_tocommit s)) by now rewrite T1.
        destruct (paid_some cfg k rs) as [lv PD]. destruct (P lv PD) as [(ex & M & S) _ _ _]. destruct (on_topic_dec t o) as [T|T]; [|now apply (OT _ j o _ ns ex T C1 E1 T1' N1 M)].
        pose proof (d_past _ _ _ DP _ _ _ D T) as [L|(x & X)]; [|discriminate X]. cbn in L. destruct (KC o k (proj1 FI) T L) as [->|(m & ret & ->)].
        + assert (DR : drops t s1 ns) by (destruct E as [(u & _ & _ & ->)|(e & _ & _ & ->)]; [now apply resume_drops|apply raised_drops]). destruct DR as [S1 TC NX].
          apply (AR j o s1 ns); auto; [left; eauto|apply M|apply M|now rewrite S1|now rewrite TC|]. intros _. split; [intros p H; rewrite H in NX; eapply fetchy_past, NX|auto].
        + assert (WI : winds s1 ns) by (destruct E as [(u & _ & _ & ->)|(e & _ & _ & ->)]; [now apply resume_winds|now apply raised_winds]).
          assert (TC : c_tocommit (snd ns) = c_tocommit s1) by (destruct E as [(u & _ & _ & ->)|(e & _ & _ & ->)]; [apply commit_rest|reflexivity]).
          apply (AR j o s1 ns); auto; [left; eauto|apply M|apply M|now rewrite (w_synced _ _ WI)|now rewrite TC|]. intros _. split; [intros p H; left; now apply (w_next _ _ WI)|]. intros ->. destruct (d_call _ _ _ DP _ _ D T).
      - destruct P as [(ex & M & S) _ _ _]. destruct (on_topic_dec t (OpConsume t' start)) as [T|T]; [|apply (OT false j (OpConsume t' start) s ns ex T); auto; apply DP]. cbn in T. subst t'.
        assert (DR : drops t s ns) by (destruct E as [(u & _ & ->)|(e & _ & ->)]; [apply fetch_drops, DP|constructor; reflexivity || exact I]). destruct DR as [S1 TC NX].
        apply (AR j (OpConsume t start) s ns); auto; [left; eauto|apply M|apply M|rewrite S1; apply DP|now rewrite TC|]. intros _. split; [intros p H; rewrite H in NX; eapply fetchy_past, NX|auto].
      - split; [destruct DP; constructor; assumption|]. split; [auto|]. intros. now left.
      - split; [destruct DP as [A B C]; constructor; [|exact B|exact C]|]; [cbn; destruct (_ =? _); [exact A|intros []]|]. split; [auto|]. intros. now left.
      - split; [destruct DP; constructor; assumption|]. split; [auto|]. intros. now left.
    Qed.
    Lemma dropping_run t i ls : forall s, inv cfg s -> dropping t i s -> (forall j start, ~ In (Call j (OpConsume t start)) ls) ->
      dropping t i (crun cfg ls s) /\ (In t (c_tocommit (crun cfg ls s)) -> In t (c_tocommit s)) /\
      (forall start r, In (i, OpConsume t start, r) (c_ended (crun cfg ls s)) -> In (i, OpConsume t start, r) (c_ended s) \/ nothing r).
    Proof using MD.
      induction ls as [|l ls IH]; intros s I0 D N; [cbn; auto|]. cbn [crun fold_left]. destruct (dropping_step t i s l I0 D) as (A & B & C); [intros j start ->; eapply N; now left|].
      destruct (IH (cstep cfg s l) (inv_step cfg s l I0) A) as (A' & B' & C'); [intros j start H; eapply N; right; exact H|]. split; [exact A'|]. split; [auto|]. intros start r H. destruct (C' start r H) as [X|X]; [now apply C|now right].
    Qed.

    (** ** before group offsets are loaded *)
    Definition again (rs : dict Z (hval V)) : Prop := forall b v, In (b, v) rs -> v = HBool true.
    Definition loading (t : text) (p : pc V) : Prop := match p with PSend (KOffsets t' (Some _)) _ rs | PHeal (KOffsets t' (Some _)) rs => t' = t /\ again rs | _ => False end.
    Definition unloaded (t : text) (s : st) : Prop := ~ In t (c_synced s) /\ forall j o p, dget (c_calls s) j = Some (o, p) -> on_topic t o -> loading t p.
    (** what a piece of a lookup does *)
    Definition stays (t : text) (s : st) (ns : next V * st) : Prop := c_synced (snd ns) = c_synced s /\ (exists ex, c_wire (snd ns) = c_wire s ++ ex /\ no_fetch t ex) /\ forall p, fst ns = Await p -> loading t p.
    Lemma no_fetch_nil t : no_fetch t [].
    Proof using Type. intros b rq []. Qed.
    Lemma stays_end t s n : (forall p, n <> Await p) -> stays t s (n, s).
    Proof using Type. intros H. split; [reflexivity|]. split; [exists []; split; [now rewrite app_nil_r|apply no_fetch_nil]|]. intros p E. now destruct (H p). Qed.
    Lemma raised_stays t rq e s : ~ In t (c_synced s) -> stays t s (raised cfg (KOffsets t rq) e s).
    Proof using MD. intros N. unfold raised. destruct e; try (apply stays_end; discriminate). rewrite base_done_drops by exact N. apply stays_end. discriminate. Qed.
    Lemma stays_pre t s s1 ns : c_synced s1 = c_synced s -> (exists ex, c_wire s1 = c_wire s ++ ex /\ no_fetch t ex) -> stays t s1 ns -> stays t s ns.
    Proof using Type.
      intros E (ex & W & N) (A & (ex' & W' & N') & C). split; [congruence|]. split; [|exact C]. exists (ex ++ ex'). split; [now rewrite W', W, app_assoc|]. intros b rq H. apply in_app_iff in H as [H|H]; [exact (N b rq H)|exact (N' b rq H)].
    Qed.
    Lemma send_one_stays t b g' ps s : ~ In t (c_synced s) -> stays t s (match send_one cfg (KOffsets t (Some (ROffsetFetch g' t ps))) b (ROffsetFetch g' t ps) s with (Raise_ e, s1) => raised cfg (KOffsets t (Some (ROffsetFetch g' t ps))) e s1 | r => r end).
    Proof using MD.
      intros N. destruct (send_one_spec cfg (KOffsets t (Some (ROffsetFetch g' t ps))) b (ROffsetFetch g' t ps) s) as (ex & Q & _ & _ & D). destruct (send_one cfg _ _ _ s) as [n s1]. cbn [fst snd] in *.
      assert (NF : no_fetch t ex). { intros b' rq H (r & mw & mb & parts & ->). destruct D as [(e & _ & ->)|(b1 & _ & _ & ->)]; [destruct H|]. destruct (open_conn s b1); [|destruct H]. destruct H as [H|[]]. discriminate H. }
      pose proof (q_synced _ _ _ (qw_quiet _ _ _ _ Q)) as SY. cbn in SY. destruct n as [p|v|e].
      - split; [exact SY|]. split; [exists ex; split; [apply Q|exact NF]|]. intros p' E. injection E as <-. destruct D as [(e & D & _)|(b1 & _ & D & _)]; [discriminate D|]. injection D as ->. split; [reflexivity|intros ? ? []].
      - destruct D as [(e & D & _)|(b1 & _ & D & _)]; discriminate D.
      - eapply stays_pre; [exact SY|exists ex; split; [apply Q|exact NF]|]. apply raised_stays. now rewrite SY.
    Qed.
    Lemma resume_stays t rq rs s : (exists g' ps, rq = ROffsetFetch g' t ps) -> ~ In t (c_synced s) -> again rs -> stays t s (resume cfg (KOffsets t (Some rq)) rs s).
    Proof using MD.
      intros (g' & ps & ->) N A. cbn [resume]. rewrite MD. destruct (coord_result rs s) as [v|e] eqn:CR; [|now apply raised_stays].
      assert (V1 : v = HBool true). { unfold coord_result in CR. destruct (c_coord s) as [b|]; [|discriminate CR]. unfold dindex in CR. destruct (dget rs b) as [v'|] eqn:D; [|discriminate CR]. injection CR as ->. apply dget_In in D. exact (A _ _ D). }
      subst v. now apply send_one_stays.
    Qed.
    Lemma send_end_stays t rq rs s : (exists g' ps, rq = ROffsetFetch g' t ps) -> ~ In t (c_synced s) -> again rs -> stays t s (send_end cfg (KOffsets t (Some rq)) rs s).
    Proof using MD.
      intros R N A. unfold send_end. destruct (c_heal s); [|now apply resume_stays]. split; [reflexivity|]. split; [exists []; split; [now rewrite app_nil_r|apply no_fetch_nil]|]. intros p E. injection E as <-. split; [reflexivity|exact A].
    Qed.
    Lemma consume_stays t start s : ~ In t (c_synced s) -> stays t s (consume cfg t start s).
    Proof using MD.
      intros N. unfold consume. destruct (c_closing s); [rewrite base_done_drops by exact N; apply stays_end; discriminate|]. destruct (smem (c_synced s) t) eqn:E; [exfalso; apply N; now apply smem_In|].
      rewrite MD. unfold determine_offsets. rewrite MD. destruct (alloc_index_spec cfg t s) as [Q _]. destruct (alloc_index cfg t s) as [[ps|e] s1]; cbn [fst snd] in *.
      - assert (N1 : ~ In t (c_synced s1)) by now rewrite (q_synced _ _ _ Q). eapply stays_pre; [apply (q_synced _ _ _ Q)|exists []; split; [rewrite app_nil_r; apply (q_wire _ _ _ Q)|apply no_fetch_nil]|].
        pose proof (send_one_stays t (c_coord s1) g ps s1 N1) as S. destruct (send_one cfg (KOffsets t (Some (ROffsetFetch g t ps))) (c_coord s1) (ROffsetFetch g t ps) s1) as [[p|v|e] s2]; exact S.
      - eapply stays_pre; [apply (q_synced _ _ _ Q)|exists []; split; [rewrite app_nil_r; apply (q_wire _ _ _ Q)|apply no_fetch_nil]|]. apply raised_stays. now rewrite (q_synced _ _ _ Q).
    Qed.
    Lemma ofetch_result t parts : forall acc (s : st) r, fst (handle_ofetch_parts t parts acc s) = Ok r -> r = false -> acc = false /\ forall p code o, In (p, (code, o)) parts -> code = no_error.
    Proof using Type.
      induction parts as [|[p [code o]] parts IH]; intros acc s r E F; cbn [handle_ofetch_parts] in E; [injection E as <-; split; [exact F|intros ? ? ? []]|].
      destruct (code =? no_error) eqn:C0.
      - destruct (IH _ _ _ E F) as [A B]. split; [exact A|]. intros p' code' o' [H|H]; [injection H as _ <- _; now apply Z.eqb_eq|exact (B _ _ _ H)].
      - destruct (code =? offsets_load_in_progress); [destruct (IH _ _ _ E F) as [A _]; discriminate A|]. destruct (is_retriable code); [destruct (IH _ _ _ E F) as [A _]; discriminate A|]. destruct (error_name code); discriminate E.
    Qed.
    Lemma again_answer t s i b r o rq w rs rq' : inv cfg s -> on_topic t o -> dget (c_calls s) i = Some (o, PSend (KOffsets t (Some rq)) w rs) -> dget w b = Some rq' -> is_answer rq' r = true -> again rs -> ~ loads t s (Arrive i b r) ->
      handler_fails cfg r s = None -> again (answer_results cfg b r rs s).
    Proof using MD.
      intros I0 T D W IA A NL HF. destruct (proj2 I0 _ _ _ D) as [FC WS]. destruct o as [t' start|m|]; try contradiction. cbn in T. subst t'. destruct FC as (_ & FC). rewrite MD in FC. destruct FC as (ps & FC). injection FC as ->.
      pose proof (ws_asks _ _ _ _ WS b _ (dget_In _ _ _ W)) as AS. cbn in AS. subst rq'. destruct r as [resp|e]; cbn [is_answer answer_results handler_fails] in *; [|exact A].
      destruct resp as [ts|ts|ts|ts|code id]; try discriminate IA. cbn [handle] in *. destruct ts as [|[t' parts] ts]; [discriminate HF|].
      destruct (fst (handle_ofetch_parts t' parts false s)) as [bb|e] eqn:HR; destruct (handle_ofetch_parts t' parts false s) as [[b0|e0] s1] eqn:HH; cbn [fst] in *; try discriminate HF; try discriminate HR.
      destruct b0.
      - intros b' v H. apply in_app_iff in H as [H|[H|[]]]; [exact (A _ _ H)|]. injection H as _ <-. reflexivity.
      - exfalso. apply NL. pose proof (ofetch_result t' parts false s false) as X. rewrite HH in X. destruct (X eq_refl eq_refl) as [_ C]. exists i, b, (ROffsetFetch g t ps), t', parts, ts. split; [reflexivity|]. split; [do 4 eexists; split; [exact D|exact W]|]. split; [right; eauto|exact C].
    Qed.
    Lemma unloaded_step t s l : inv cfg s -> unloaded t s -> ~ loads t s l -> no_fetch t (sent cfg s l) /\ unloaded t (cstep cfg s l).
    Proof using MD.
      intros I0 U NL. pose proof (cstep_did cfg s l I0) as D.
      assert (WI : forall ex, c_wire (cstep cfg s l) = c_wire s ++ ex -> sent cfg s l = ex) by (intros; now apply sent_eq).
      remember (cstep cfg s l) as s' eqn:EQ. remember (sent cfg s l) as ex0 eqn:EX0. clear EX0.
      assert (AR : forall j o s1 ns, c_calls s1 = c_calls s -> c_wire s1 = c_wire s -> c_calls (snd ns) = c_calls s1 -> ~ In t (c_synced (snd ns)) -> (exists ex, c_wire (snd ns) = c_wire s1 ++ ex /\ no_fetch t ex) ->
        (on_topic t o -> forall p, fst ns = Await p -> loading t p) -> s' = continue j o ns -> no_fetch t ex0 /\ unloaded t s').
      { intros j o s1 ns C1 W1 C2 N2 (ex & W2 & NF) FN ->. assert (N' : NoDup (dkeys (c_calls (snd ns)))) by (rewrite C2, C1; apply I0). destruct (continue_same j o ns) as (_ & CS & _ & _ & _ & _ & _ & _ & CW).
        rewrite (WI ex) by (rewrite CW, W2, W1; reflexivity). split; [exact NF|]. split; [now rewrite CS|].
        intros j' o' p H T. destruct (continue_calls j o ns j' N') as [_ CC]. rewrite CC in H. destruct (Z.eqb_spec j' j) as [->|NJ].
        - destruct (fst ns) as [p0|v|e]; [|discriminate H|discriminate H]. injection H as <- <-. now apply (FN T).
        - rewrite C2, C1 in H. exact (proj2 U _ _ _ H T). }
      assert (ST : forall j o s1 ns, c_calls s1 = c_calls s -> c_wire s1 = c_wire s -> c_calls (snd ns) = c_calls s1 -> ~ In t (c_synced s1) -> stays t s1 ns -> s' = continue j o ns -> no_fetch t ex0 /\ unloaded t s').
      { intros j o s1 ns C1 W1 C2 N1 (A & B & C) E. apply (AR j o s1 ns); auto. now rewrite A. }
      assert (OT : forall look j o s1 ns ex, ~ on_topic t o -> c_calls s1 = c_calls s -> c_wire s1 = c_wire s -> ~ In t (c_synced s1) -> moves cfg look o ex s1 (snd ns) -> sends cfg o look (snd ns) (fst ns) ex -> s' = continue j o ns -> no_fetch t ex0 /\ unloaded t s').
      { intros look j o s1 ns ex T C1 W1 N1 M S E. destruct (other_topic cfg t o look s1 ns ex M S T N1) as [N2 NF]. apply (AR j o s1 ns); auto; [apply M|exists ex; split; [apply M|exact NF]|]. intros X. contradiction. }
      assert (KL : forall p k w rs, (p = PSend k w rs \/ p = PHeal k rs) -> loading t p -> exists rq, k = KOffsets t (Some rq) /\ again rs).
      { intros p k w rs [->| ->] L; cbn in L; destruct k as [t' [rq|]|t'|m ret|a r]; try contradiction; destruct L as [-> L]; eauto. }
      assert (RQ : forall o rq, fits_cont cfg o (KOffsets t (Some rq)) -> exists g' ps, rq = ROffsetFetch g' t ps).
      { intros o rq F. destruct o; try contradiction. destruct F as (<- & F). rewrite MD in F. destruct F as (ps & F). injection F as ->. eauto. }
      destruct D as [l ID|j o ns D E P|j b r o k w rs rq D FI W IA HF NE F'|j b r o k w rs rq ns D FI W IA E P|j r o k rs s1 ns D FI E P|j r t' start ns D E P|k|g' fn' ac' name' ev M|].
      - rewrite (WI []) by now rewrite app_nil_r. split; [apply no_fetch_nil|exact U].
      - destruct P as [(ex & M & S) _ _ _]. destruct (on_topic_dec t o) as [T|T]; [|apply (OT true j o s ns ex); auto; apply U]. destruct o as [t' start|m|]; try contradiction. cbn in T. subst t'. cbn [begin] in E. subst ns.
        apply (ST j (OpConsume t start) s (consume cfg t start s)); auto; [apply M|apply U|apply consume_stays, U].
      - destruct (answer_state_same cfg r s) as (C1 & _ & _ & _ & _ & W1). assert (N1 : ~ In t (c_synced (answer_state cfg r s))) by (intros H; apply answer_synced in H; now apply U).
        apply (AR j o (answer_state cfg r s) (Await (PSend k (ddel w b) (answer_results cfg b r rs s)), answer_state cfg r s)); cbn [fst snd]; auto; [exists []; split; [now rewrite app_nil_r|apply no_fetch_nil]|].
        intros T p H. injection H as <-. destruct (KL _ k w rs (or_introl eq_refl) (proj2 U _ _ _ D T)) as (rq0 & -> & A). split; [reflexivity|]. eapply (again_answer t s j b r o rq0 w rs rq); eauto.
      - destruct (answer_state_same cfg r s) as (C1 & _ & _ & _ & _ & W1). assert (N1 : ~ In t (c_synced (answer_state cfg r s))) by (intros H; apply answer_synced in H; now apply U).
        destruct (paid_some cfg k rs) as [lv PD]. destruct (P lv PD) as [(ex & M & S) _ _ _]. destruct (on_topic_dec t o) as [T|T]; [|now apply (OT (look_of k) j o _ ns ex T C1 W1 N1 M S)].
        destruct (KL _ k w rs (or_introl eq_refl) (proj2 U _ _ _ D T)) as (rq0 & -> & A). apply (ST j o (answer_state cfg r s) ns); auto; [apply M|].
        destruct E as [(HF & _ & ->)|(e & _ & ->)]; [|now apply raised_stays]. apply send_end_stays; [apply (RQ o), FI|exact N1|]. eapply (again_answer t s j b r o rq0 w rs rq); eauto.
      - assert (S1 : c_calls s1 = c_calls s /\ c_wire s1 = c_wire s /\ c_synced s1 = c_synced s) by (destruct E as [(u & _ & -> & _)|(e & _ & -> & _)]; auto). destruct S1 as (C1 & W1 & Y1).
        assert (N1 : ~ In t (c_synced s1)) by (rewrite Y1; apply U).
        destruct (paid_some cfg k rs) as [lv PD]. destruct (P lv PD) as [(ex & M & S) _ _ _]. destruct (on_topic_dec t o) as [T|T]; [|now apply (OT (look_of k) j o _ ns ex T C1 W1 N1 M S)].
        destruct (KL _ k [] rs (or_intror eq_refl) (proj2 U _ _ _ D T)) as (rq0 & -> & A). apply (ST j o s1 ns); auto; [apply M|].
        destruct E as [(u & _ & _ & ->)|(e & _ & _ & ->)]; [|now apply raised_stays]. apply resume_stays; [apply (RQ o), FI|exact N1|exact A].
      - destruct P as [(ex & M & S) _ _ _]. destruct (on_topic_dec t (OpConsume t' start)) as [T|T]; [destruct (proj2 U _ _ _ D T)|apply (OT false j (OpConsume t' start) s ns ex T); auto; apply U].
      - rewrite (WI []) by now rewrite app_nil_r. split; [apply no_fetch_nil|exact U].
      - rewrite (WI []) by (cbn; now rewrite app_nil_r). split; [apply no_fetch_nil|]. split; [cbn; destruct (_ =? _); [apply U|intros []]|apply U].
      - rewrite (WI []) by now rewrite app_nil_r. split; [apply no_fetch_nil|exact U].
    Qed.
  End Drops.

  (** ** a call that waits for a heal is left alone *)
  Lemma heal_waits i o k rs s l : inv cfg s -> dget (c_calls s) i = Some (o, PHeal k rs) -> (forall r, l <> Healed i r) -> dget (c_calls (cstep cfg s l)) i = Some (o, PHeal k rs).
  Proof.
    intros I0 H NH. pose proof (cstep_did cfg s l I0) as D.
    assert (CC : forall j o' (ns : next V * st) s1, j <> i -> c_calls s1 = c_calls s -> c_calls (snd ns) = c_calls s1 -> dget (c_calls (continue j o' ns)) i = Some (o, PHeal k rs)).
    { intros j o' ns s1 NJ C1 C2. assert (N' : NoDup (dkeys (c_calls (snd ns)))) by (rewrite C2, C1; apply I0). destruct (continue_calls j o' ns i N') as [_ ->]. destruct (Z.eqb_spec i j) as [->|_]; [now destruct NJ|]. now rewrite C2, C1. }
    remember (cstep cfg s l) as s' eqn:EQ.
    destruct D as [l ID|j o' ns D E P|j b r o' k' w rs' rq D FI W IA HF NE F'|j b r o' k' w rs' rq ns D FI W IA E P|j r o' k' rs' s1 ns D FI E P|j r t' start ns D E P|k'|g fn ac name ev M|]; try exact H.
    - destruct P as [(ex & M & S) _ _ _]. apply (CC j o' ns s); [intros ->; congruence|reflexivity|apply M].
    - destruct (answer_state_same cfg r s) as (C1 & _). apply (CC j o' _ (answer_state cfg r s)); [intros ->; congruence|exact C1|reflexivity].
    - destruct (answer_state_same cfg r s) as (C1 & _). destruct (paid_some cfg k' rs') as [lv PD]. destruct (P lv PD) as [(ex & M & S) _ _ _]. apply (CC j o' ns (answer_state cfg r s)); [intros ->; congruence|exact C1|apply M].
    - destruct (paid_some cfg k' rs') as [lv PD]. destruct (P lv PD) as [(ex & M & S) _ _ _]. apply (CC j o' ns s1); [intros ->; now destruct (NH r)|destruct E as [(u & _ & -> & _)|(e & _ & -> & _)]; reflexivity|apply M].
    - destruct P as [(ex & M & S) _ _ _]. apply (CC j _ ns s); [intros ->; congruence|reflexivity|apply M].
  Qed.
  Lemma heal_waits_run i o k rs ls : forall s, inv cfg s -> dget (c_calls s) i = Some (o, PHeal k rs) -> (forall r, ~ In (Healed i r) ls) -> dget (c_calls (crun cfg ls s)) i = Some (o, PHeal k rs).
  Proof.
    induction ls as [|l ls IH]; intros s I0 H N; [exact H|]. cbn [crun fold_left]. apply IH; [now apply inv_step|apply heal_waits; [exact I0|exact H|intros r ->; eapply N; now left]|intros r X; eapply N; right; exact X].
  Qed.

  (** ** calls that talk to one broker at a time *)
  Definition to_one (k : cont V) : bool := match k with KFetch _ | KOffsets _ None => false | _ => true end.
  Definition meta_ok (k : cont V) (rq : request) : Prop :=
    match k with KCommit m _ => forall g topics t ps p o x, rq = RCommit g topics -> In (t, ps) topics -> In (p, (o, x)) ps -> x = m | _ => True end.
  Definition alone (p : pc V) : Prop := match p with PSend k w rs => to_one k = true -> (exists b rq, w = [(b, rq)] /\ meta_ok k rq) /\ rs = [] | _ => True end.
  Definition alone_next (n : next V) : Prop := forall p, n = Await p -> alone p.
  Definition solo (s : st) : Prop := forall j o p, dget (c_calls s) j = Some (o, p) -> alone p.
  Lemma alone_end n : (forall p, n <> Await p) -> alone_next n.
  Proof. intros H p E. now destruct (H p). Qed.
  Lemma send_one_alone k b rq s : meta_ok k rq -> alone_next (fst (send_one cfg k b rq s)).
  Proof. intros MO. unfold send_one. destruct b as [b|]; [|apply alone_end; discriminate]. destruct (send_all cfg [(b, rq)] s) as [[u|e] s1]; [|apply alone_end; discriminate]. cbn [fst]. intros p E. injection E as <-. intros _. eauto 6. Qed.
  Lemma commit_alone m ret s : alone_next (fst (commit_offsets cfg m ret s)).
  Proof.
    destruct (commit_offsets_spec cfg m ret s) as (ex & _ & [(e & -> & _)|(g & fn & ac & name & b & am & _ & _ & _ & -> & _)]); [apply alone_end; discriminate|].
    intros p E. injection E as <-. intros _. split; [|reflexivity]. do 2 eexists. split; [reflexivity|]. intros g' topics t ps p' o x H HT HP. injection H as _ <-. apply in_map_iff in HT as ([t1 ps1] & E1 & _). injection E1 as _ <-. apply in_map_iff in HP as (p1 & E1 & _). now injection E1 as _ _ <-.
  Qed.
  Lemma base_done_alone t v s : alone_next (fst (base_done cfg t v s)).
  Proof. unfold base_done. destruct (md cfg) as [|g fn ac name]; [apply alone_end; discriminate|]. destruct (negb _); [apply alone_end; discriminate|]. destruct ac; [apply commit_alone|apply alone_end; discriminate]. Qed.
  Lemma raised_alone k e s : alone_next (fst (raised cfg k e s)).
  Proof. unfold raised. destruct k as [t rq|t|m ret|a r]; try (apply alone_end; discriminate). destruct e; try (apply alone_end; discriminate). apply base_done_alone. Qed.
  Lemma fetch_alone t s : alone_next (fst (fetch cfg t s)).
  Proof.
    unfold fetch. destruct (allocated cfg t s) as [[[]|e] s1]; [|apply base_done_alone|apply alone_end; discriminate]. destruct (alloc_index cfg t s1) as [[ps|e] s2]; [|apply alone_end; discriminate].
    destruct (order_leaders t ps [] s2) as [[ord|e] s3]; [|apply alone_end; discriminate]. destruct (fetch_requests cfg t ord s3) as [rqs s4]. destruct (send_all cfg rqs s4) as [[u|e] s5]; [|apply alone_end; discriminate].
    cbn [fst]. intros p E. injection E as <-. cbn. discriminate.
  Qed.
  Lemma after_offsets_alone t s : alone_next (fst (after_offsets cfg t s)).
  Proof. unfold after_offsets. destruct (allocated cfg t s) as [[[]|e] s1]; [apply fetch_alone| |apply alone_end; discriminate]. cbn [fst]. intros p E. injection E as <-. exact I. Qed.
  Lemma coord_next_alone g rest s : alone_next (fst (coord_next cfg g rest s)).
  Proof. unfold coord_next. destruct (match rest with [] => _ | _ => _ end); [apply alone_end; discriminate|now apply send_one_alone]. Qed.
  Lemma resume_alone k rs s : alone_next (fst (resume cfg k rs s)).
  Proof.
    destruct k as [t rq|t|m ret|a r]; cbn [resume].
    - destruct (md cfg); [apply after_offsets_alone|]. destruct rq as [rq|]; [|apply after_offsets_alone]. destruct (coord_result rs s) as [[|?|[]|?]|e]; try apply after_offsets_alone; [|apply raised_alone].
      pose proof (send_one_alone (KOffsets t (Some rq)) (c_coord s) rq s I) as A. destruct (send_one cfg (KOffsets t (Some rq)) (c_coord s) rq s) as [[p|v|e] s1]; [exact A|exact A|apply raised_alone].
    - apply base_done_alone.
    - destruct (coord_result rs s) as [[|?|?|[] ?]|e]; try (apply alone_end; discriminate). apply commit_alone.
    - destruct (dindex rs a) as [[|?|[]|?]|e]; try (apply alone_end; discriminate); (destruct (md cfg); [apply alone_end; discriminate|apply coord_next_alone]).
  Qed.
  Lemma send_end_alone k rs s : alone_next (fst (send_end cfg k rs s)).
  Proof. unfold send_end. destruct (c_heal s); [|apply resume_alone]. cbn [fst]. intros p E. injection E as <-. exact I. Qed.
  Lemma determine_alone t start s : alone_next (fst (determine_offsets cfg t start s)).
  Proof.
    unfold determine_offsets. destruct (md cfg).
    - destruct (alloc_index cfg t s) as [[ps|e] s1]; [|apply alone_end; discriminate]. destruct (offset_requests t _ ps [] s1) as [[rqs|e] s2]; [|apply alone_end; discriminate].
      destruct (send_all cfg rqs s2) as [[u|e] s3]; [|apply alone_end; discriminate]. destruct rqs; [apply send_end_alone|]. cbn [fst]. intros p' E. injection E as <-. cbn. discriminate.
    - destruct (alloc_index cfg t s) as [[ps|e] s1]; [|apply alone_end; discriminate]. now apply send_one_alone.
  Qed.
  Lemma consume_alone t start s : alone_next (fst (consume cfg t start s)).
  Proof.
    unfold consume. destruct (c_closing s); [apply base_done_alone|]. destruct (smem (c_synced s) t); [apply after_offsets_alone|]. set (start' := match md cfg with Single => start | Grouped _ _ _ _ => None end). pose proof (determine_alone t start' s) as A.
    destruct (determine_offsets cfg t start' s) as [[p|v|e] s1]; [exact A|exact A|apply raised_alone].
  Qed.
  Lemma begin_alone o s : alone_next (fst (begin cfg o s)).
  Proof. destruct o as [t start|m|]; cbn [begin]; [apply consume_alone|apply commit_alone|]. destruct (md cfg); [apply alone_end; discriminate|apply coord_next_alone]. Qed.
  Lemma solo_step s l : inv cfg s -> solo s -> solo (cstep cfg s l).
  Proof.
    intros I0 S0. pose proof (cstep_did cfg s l I0) as D.
    assert (CC : forall j o' (ns : next V * st) s1, c_calls s1 = c_calls s -> c_calls (snd ns) = c_calls s1 -> alone_next (fst ns) -> solo (continue j o' ns)).
    { intros j o' ns s1 C1 C2 A j' o p H. assert (N' : NoDup (dkeys (c_calls (snd ns)))) by (rewrite C2, C1; apply I0). destruct (continue_calls j o' ns j' N') as [_ X]. rewrite X in H. destruct (j' =? j); [|rewrite C2, C1 in H; exact (S0 _ _ _ H)].
      destruct (fst ns) as [p0|v|e]; try discriminate H. injection H as <- <-. now apply A. }
    remember (cstep cfg s l) as s' eqn:EQ.
    destruct D as [l ID|j o' ns D E P|j b r o' k' w rs' rq D FI W IA HF NE F'|j b r o' k' w rs' rq ns D FI W IA E P|j r o' k' rs' s1 ns D FI E P|j r t' start ns D E P|k'|g fn ac name ev M|]; try exact S0.
    - destruct P as [(ex & M & S) _ _ _]. subst ns. apply (CC j o' _ s); [reflexivity|apply M|apply begin_alone].
    - destruct (answer_state_same cfg r s) as (C1 & _). apply (CC j o' _ (answer_state cfg r s)); [exact C1|reflexivity|]. cbn [fst]. intros p E. injection E as <-. intros T. exfalso. destruct (S0 _ _ _ D T) as [(b1 & rq1 & -> & _) _]. apply NE. cbn in W |- *. destruct (b1 =? b); [reflexivity|discriminate W].
    - destruct (answer_state_same cfg r s) as (C1 & _). destruct (paid_some cfg k' rs') as [lv PD]. destruct (P lv PD) as [(ex & M & S) _ _ _]. apply (CC j o' ns (answer_state cfg r s)); [exact C1|apply M|].
      destruct E as [(_ & _ & ->)|(e & _ & ->)]; [apply send_end_alone|apply raised_alone].
    - destruct (paid_some cfg k' rs') as [lv PD]. destruct (P lv PD) as [(ex & M & S) _ _ _]. apply (CC j o' ns s1); [destruct E as [(u & _ & -> & _)|(e & _ & -> & _)]; reflexivity|apply M|].
      destruct E as [(u & _ & _ & ->)|(e & _ & _ & ->)]; [apply resume_alone|apply raised_alone].
    - destruct P as [(ex & M & S) _ _ _]. apply (CC j _ ns s); [reflexivity|apply M|]. destruct E as [(u & _ & ->)|(e & _ & ->)]; [apply fetch_alone|apply alone_end; discriminate].
  Qed.
  Lemma reach_solo s : reachable cfg s -> solo s.
  Proof.
    intros (k & name & ls & ->). assert (G : forall ls s, inv cfg s -> solo s -> solo (crun cfg ls s)).
    { intros ls0. induction ls0 as [|l ls0 IH]; intros s I0 S0; [exact S0|]. cbn [crun fold_left]. apply IH; [now apply inv_step|now apply solo_step]. }
    apply G; [apply inv_init|]. intros j o p H. discriminate H.
  Qed.
  (** an answer to such a call is its only one *)
  Lemma solo_answer s i b r o k w rs rq : reachable cfg s -> dget (c_calls s) i = Some (o, PSend k w rs) -> to_one k = true -> dget w b = Some rq -> is_answer rq r = true ->
    cstep cfg s (Arrive i b r) = continue i o (match handler_fails cfg r s with Some e => raised cfg k e (answer_state cfg r s) | None => send_end cfg k (answer_results cfg b r [] s) (answer_state cfg r s) end).
  Proof.
    intros R D T W IA. destruct (reach_solo s R _ _ _ D T) as [(b1 & rq1 & -> & _) ->]. cbn [cstep]. rewrite D, W. change (match r with Ok resp => answers rq resp | Err _ => true end) with (is_answer rq r). rewrite IA. rewrite arrive_eq by reflexivity.
    replace (ddel [(b1, rq1)] b) with (@nil (Z * request)); [reflexivity|]. cbn in W |- *. destruct (b1 =? b); [reflexivity|discriminate W].
  Qed.
  (** ** commits that are to be repeated *)
  Lemma tocommit_keeps t s l : inv cfg s -> In t (c_tocommit s) -> (forall i b ts, l <> Arrive i b (Ok (PCommit ts))) -> In t (c_tocommit (cstep cfg s l)).
  Proof.
    intros I0 H NC. pose proof (cstep_did cfg s l I0) as D.
    assert (CC : forall j o look ex s1 (ns : next V * st), In t (c_tocommit s1) -> moves cfg look o ex s1 (snd ns) -> In t (c_tocommit (continue j o ns))).
    { intros j o look ex s1 ns H1 M. destruct (continue_same j o ns) as (_ & _ & _ & _ & _ & _ & _ & -> & _). destruct (p_tocommit _ _ _ _ _ _ M) as [->|(t' & start & _ & -> & _)]; [exact H1|]. apply in_sadd. now right. }
    assert (AN : forall r, (forall ts, r <> Ok (PCommit ts)) -> In t (c_tocommit (answer_state cfg r s))).
    { intros r N. destruct r as [resp|e]; cbn [answer_state]; [|destruct (sets_heal e); exact H]. rewrite (h_tocommit_same _ _ _ (handle_handled cfg resp s)); [exact H|]. intros ts ->. now apply (N ts). }
    remember (cstep cfg s l) as s' eqn:EQ.
    destruct D as [l ID|j o' ns D E P|j b r o' k' w rs' rq D FI W IA HF NE F'|j b r o' k' w rs' rq ns D FI W IA E P|j r o' k' rs' s1 ns D FI E P|j r t' start ns D E P|k'|g fn ac name ev M|]; try exact H.
    - destruct P as [(ex & M & S) _ _ _]. eapply CC; [exact H|exact M].
    - destruct (continue_same j o' (Await (PSend k' (ddel w b) (answer_results cfg b r rs' s)), answer_state cfg r s)) as (_ & _ & _ & _ & _ & _ & _ & -> & _). apply AN. intros ts ->. now apply (NC j b ts).
    - destruct (paid_some cfg k' rs') as [lv PD]. destruct (P lv PD) as [(ex & M & S) _ _ _]. eapply CC; [|exact M]. apply AN. intros ts ->. now apply (NC j b ts).
    - destruct (paid_some cfg k' rs') as [lv PD]. destruct (P lv PD) as [(ex & M & S) _ _ _]. eapply CC; [|exact M]. destruct E as [(u & _ & -> & _)|(e & _ & -> & _)]; exact H.
    - destruct P as [(ex & M & S) _ _ _]. eapply CC; [exact H|exact M].
  Qed.
  Lemma tocommit_keeps_run t ls : forall s, inv cfg s -> In t (c_tocommit s) -> (forall i b ts, ~ In (Arrive i b (Ok (PCommit ts))) ls) -> In t (c_tocommit (crun cfg ls s)).
  Proof.
    induction ls as [|l ls IH]; intros s I0 H N; [exact H|]. cbn [crun fold_left]. apply IH; [now apply inv_step|apply tocommit_keeps; [exact I0|exact H|intros i b ts ->; eapply N; now left]|intros i b ts X; eapply N; right; exact X].
  Qed.
  Definition some_code (f : Z -> bool) (topics : list (text * list (Z * Z))) : bool := existsb (fun tp => existsb (fun pc => f (snd pc)) (snd tp)) topics.
  Definition too_large (code : Z) : bool := code =? offset_metadata_too_large.
  Lemma commit_parts_result t parts : forall acc (s : st), (forall p code, In (p, code) parts -> known_code code) -> let r := handle_commit_parts t parts acc s in
    fst r = Ok (fst acc || existsb (fun pc => is_retriable (snd pc) || too_large (snd pc)) parts, snd acc || existsb (fun pc => too_large (snd pc)) parts) /\
    c_heal (snd r) = c_heal s || existsb (fun pc => is_retriable (snd pc)) parts /\ c_coord (snd r) = c_coord s /\
    forall x, In x (c_tocommit s) -> (x = t -> ~ exists p, In (p, no_error) parts) -> In x (c_tocommit (snd r)).
  Proof.
    cbv zeta. induction parts as [|[p code] parts IH]; intros acc s K; cbn [handle_commit_parts].
    - cbn [existsb fst snd]. rewrite !orb_false_r. destruct acc. auto.
    - assert (K' : forall p code, In (p, code) parts -> known_code code) by (intros; eapply K; right; eassumption).
      assert (NE : forall x, (x = t -> ~ exists p0, In (p0, no_error) ((p, code) :: parts)) -> x = t -> ~ exists p0, In (p0, no_error) parts) by (intros x X E (p0 & H); apply (X E); exists p0; now right).
      cbn [existsb snd]. destruct (Z.eqb_spec code no_error) as [->|C0].
      + destruct (IH acc (set_tocommit (sdiscard (c_tocommit s) t) s) K') as (A & B & C & D). cbn [set_tocommit c_heal c_coord c_tocommit] in B, C, D. split; [rewrite A; reflexivity|]. split; [rewrite B; reflexivity|]. split; [exact C|].
        intros x H X. apply D; [|now apply NE]. assert (XT : x <> t) by (intros ->; apply X; [reflexivity|exists p; now left]). apply filter_In. split; [exact H|]. apply negb_true_iff. now apply eqb_false.
      + destruct (is_retriable code) eqn:RC.
        * destruct (IH (true, snd acc) (set_heal true s) K') as (A & B & C & D). cbn [set_heal c_heal c_coord c_tocommit fst snd orb] in A, B, C, D. assert (TL : too_large code = false) by (unfold too_large; destruct (Z.eqb_spec code offset_metadata_too_large) as [->|]; [discriminate RC|reflexivity]).
          rewrite TL. cbn [orb]. rewrite !orb_true_r. split; [exact A|]. split; [exact B|]. split; [exact C|]. intros x H X. apply D; [exact H|now apply NE].
        * cbn [orb]. change (code =? offset_metadata_too_large) with (too_large code). destruct (too_large code) eqn:TL; cbn [orb].
          -- destruct (IH (true, true) s K') as (A & B & C & D). cbn [fst snd orb] in A. rewrite !orb_true_r. split; [exact A|]. split; [exact B|]. split; [exact C|]. intros x H X. apply D; [exact H|now apply NE].
          -- destruct (K p code (or_introl eq_refl)) as [nm ->]. destruct (IH acc s K') as (A & B & C & D). split; [exact A|]. split; [exact B|]. split; [exact C|]. intros x H X. apply D; [exact H|now apply NE].
  Qed.
  Lemma commit_topics_result topics : forall acc (s : st), all_known topics -> let r := handle_commit_topics topics acc s in
    fst r = Ok (fst acc || some_code (fun c => is_retriable c || too_large c) topics, snd acc || some_code too_large topics) /\
    c_heal (snd r) = c_heal s || some_code is_retriable topics /\ c_coord (snd r) = c_coord s /\ forall x, In x (c_tocommit s) -> ~ acknowledged x topics -> In x (c_tocommit (snd r)).
  Proof.
    cbv zeta. induction topics as [|[t parts] topics IH]; intros acc s K; cbn [handle_commit_topics].
    - cbn. rewrite !orb_false_r. destruct acc. auto.
    - destruct (commit_parts_result t parts acc s) as (A & B & C & D); [intros p code H; eapply K; [now left|exact H]|]. destruct (handle_commit_parts t parts acc s) as [r s1]. cbn [fst snd] in *. subst r.
      destruct (IH (fst acc || existsb (fun pc => is_retriable (snd pc) || too_large (snd pc)) parts, snd acc || existsb (fun pc => too_large (snd pc)) parts) s1) as (A' & B' & C' & D'); [intros t0 ps p code H; eapply K; right; exact H|].
      cbn [some_code existsb snd fst] in *. unfold some_code in *. rewrite !orb_assoc. split; [exact A'|]. split; [rewrite B', B; reflexivity|]. split; [congruence|].
      intros x H X. apply D'; [|intros (ps & p & H1 & H2); apply X; exists ps, p; split; [now right|exact H2]]. apply D; [exact H|]. intros -> (p & H1). apply X. exists parts, p. split; [now left|exact H1].
  Qed.
  Lemma commit_ok m ret s g fn ac name b am : md cfg = Grouped g fn ac name -> own_map s = Some am -> c_coord s = Some b -> open_conn s b = true -> (forall rq, unsendable cfg rq = None) ->
    let r := commit_offsets cfg (Some m) ret s in c_wire (snd r) = c_wire s ++ [(b, RCommit g (commit_of s m am))].
  Proof.
    cbv zeta. intros MD OM CB OC US. destruct (commit_offsets_spec cfg (Some m) ret s) as (ex & Q & D). destruct D as [(e & D & _)|(g' & fn' & ac' & name' & b' & am' & MD' & CB' & OM' & D & EX)].
    - exfalso. unfold commit_offsets in D. rewrite MD in D. unfold alloc_map, allocation in D. rewrite MD in D. unfold own_map in OM. rewrite OM in D.
      set (s1 := set_alloc (c_alloc s) s) in D. destruct (commit_topics_spec cfg am m s1) as (Q2 & C2 & _). destruct (commit_topics am m s1) as [ts s2]. cbn [fst snd] in *. rewrite (q_coord _ _ _ Q2) in D. cbn [s1 set_alloc c_coord] in D. rewrite CB in D. cbn [send_one send_all] in D.
      rewrite (q_conns _ _ _ Q2) in D. cbn [s1 set_alloc c_cluster] in D. unfold open_conn in OC. destruct (dget (k_conns (c_cluster s)) b) as [cn|]; [|discriminate OC]. apply negb_true_iff in OC. rewrite OC, US in D. discriminate D.
    - rewrite (qw_wire _ _ _ _ Q), EX. rewrite CB in CB'. injection CB' as <-. rewrite OC. rewrite MD in MD'. injection MD' as <- <- <- <-.
      assert (AE : am' = am). { pose proof D as D0. clear D. unfold commit_offsets in OM'. rewrite MD in OM'. unfold alloc_map, allocation in OM'. rewrite MD in OM'. pose proof OM as OM0. unfold own_map in OM0. rewrite OM0 in OM'.
        set (s1 := set_alloc (c_alloc s) s) in OM'. destruct (commit_topics_spec cfg am m s1) as (Q2 & C2 & _). destruct (commit_topics am m s1) as [ts s2]. cbn [fst snd] in *.
        destruct (send_one_spec cfg (KCommit m ret) (c_coord s2) (RCommit g ts) s2) as (_ & _ & _ & C3 & _). unfold own_map in OM'. rewrite C3, C2 in OM'. cbn [s1 set_alloc c_alloc] in OM'. rewrite OM0 in OM'. now injection OM' as ->. }
      subst am'. f_equal. f_equal. f_equal. f_equal. unfold commit_of. pose proof (qw_quiet _ _ _ _ Q) as QQ. replace (c_tocommit (snd (commit_offsets cfg (Some m) ret s))) with (c_tocommit s) by (symmetry; exact (q_tocommit _ _ _ QQ)). apply map_ext. intros [t ps]. cbn [fst snd]. f_equal. apply map_ext. intros p. f_equal. f_equal. exact (q_pos _ _ _ QQ t p).
  Qed.

  (** ** a call that only commits before it returns *)
  Definition only_commits (ret : rv V) (p : pc V) : Prop := match p with PSend (KCommit _ r) _ _ | PHeal (KCommit _ r) _ => r = ret | _ => False end.
  Definition commit_next (ret : rv V) (n : next V) : Prop := match n with Await p => only_commits ret p | Return v => v = ret | Raise_ _ => True end.
  Definition winding (ret : rv V) (i : Z) (s : st) : Prop := (forall o p, dget (c_calls s) i = Some (o, p) -> only_commits ret p) /\ forall o v, In (i, o, Ok v) (c_ended s) -> v = ret.
  Lemma commit_offsets_next m ret s : commit_next ret (fst (commit_offsets cfg m ret s)).
  Proof. destruct (commit_offsets_spec cfg m ret s) as (ex & _ & [(e & -> & _)|(g & fn & ac & name & b & am & _ & _ & _ & -> & _)]); [exact I|reflexivity]. Qed.
  Lemma resume_commit_next m ret rs s : commit_next ret (fst (resume cfg (KCommit m ret) rs s)).
  Proof. cbn [resume]. destruct (coord_result rs s) as [[|?|?|[] ?]|e]; try exact I; [apply commit_offsets_next|reflexivity]. Qed.
  Lemma send_end_commit_next m ret rs s : commit_next ret (fst (send_end cfg (KCommit m ret) rs s)).
  Proof. unfold send_end. destruct (c_heal s); [reflexivity|apply resume_commit_next]. Qed.
  Lemma winding_step ret i s l : inv cfg s -> winding ret i s -> (forall o, l <> Call i o) -> winding ret i (cstep cfg s l).
  Proof.
    intros I0 W0 NC. pose proof (cstep_did cfg s l I0) as D.
    assert (CC : forall j o' (ns : next V * st) s1, c_calls s1 = c_calls s -> c_ended s1 = c_ended s -> c_calls (snd ns) = c_calls s1 -> c_ended (snd ns) = c_ended s1 -> (j = i -> commit_next ret (fst ns)) -> winding ret i (continue j o' ns)).
    { intros j o' ns s1 C1 E1 C2 E2 A. assert (N' : NoDup (dkeys (c_calls (snd ns)))) by (rewrite C2, C1; apply I0). destruct (continue_calls j o' ns i N') as [_ X]. split.
      - intros o p H. rewrite X in H. destruct (Z.eqb_spec i j) as [->|NJ]; [|rewrite C2, C1 in H; exact (proj1 W0 _ _ H)]. specialize (A eq_refl). destruct (fst ns) as [p0|v|e]; try discriminate H. injection H as <- <-. exact A.
      - intros o v H. rewrite continue_ended, E2, E1 in H. apply in_app_iff in H as [H|H]; [exact (proj2 W0 _ _ H)|]. destruct (fst ns) as [p0|v0|e]; [destruct H| |destruct H as [H|[]]; discriminate H]. destruct H as [H|[]]. injection H as -> _ <-. exact (A eq_refl). }
    remember (cstep cfg s l) as s' eqn:EQ.
    destruct D as [l ID|j o' ns D E P|j b r o' k' w rs' rq D FI W IA HF NE F'|j b r o' k' w rs' rq ns D FI W IA E P|j r o' k' rs' s1 ns D FI E P|j r t' start ns D E P|k'|g fn ac name ev M|]; try exact W0.
    - destruct P as [(ex & M & S) _ _ _]. apply (CC j o' ns s); auto; [apply M|apply M|]. intros ->. now destruct (NC o').
    - destruct (answer_state_same cfg r s) as (C1 & E1 & _). apply (CC j o' _ (answer_state cfg r s)); auto. intros ->. pose proof (proj1 W0 _ _ D) as X. exact X.
    - destruct (answer_state_same cfg r s) as (C1 & E1 & _). destruct (paid_some cfg k' rs') as [lv PD]. destruct (P lv PD) as [(ex & M & S) _ _ _]. apply (CC j o' ns (answer_state cfg r s)); auto; [apply M|apply M|].
      intros ->. pose proof (proj1 W0 _ _ D) as X. destruct k' as [t rq0|t|m ret'|a r0]; try contradiction. cbn in X. subst ret'. destruct E as [(_ & _ & ->)|(e & _ & ->)]; [apply send_end_commit_next|exact I].
    - destruct (paid_some cfg k' rs') as [lv PD]. destruct (P lv PD) as [(ex & M & S) _ _ _]. assert (X1 : c_calls s1 = c_calls s /\ c_ended s1 = c_ended s) by (destruct E as [(u & _ & -> & _)|(e & _ & -> & _)]; auto). destruct X1 as [C1 E1]. apply (CC j o' ns s1); auto; [apply M|apply M|].
      intros ->. pose proof (proj1 W0 _ _ D) as X. destruct k' as [t rq0|t|m ret'|a r0]; try contradiction. cbn in X. subst ret'. destruct E as [(u & _ & _ & ->)|(e & _ & _ & ->)]; [apply resume_commit_next|exact I].
    - destruct P as [(ex & M & S) _ _ _]. apply (CC j _ ns s); auto; [apply M|apply M|]. intros ->. destruct (proj1 W0 _ _ D).
  Qed.
  Lemma winding_run ret i ls : forall s, inv cfg s -> winding ret i s -> (forall o, ~ In (Call i o) ls) -> winding ret i (crun cfg ls s).
  Proof.
    induction ls as [|l ls IH]; intros s I0 H N; [exact H|]. cbn [crun fold_left]. apply IH; [now apply inv_step|apply winding_step; [exact I0|exact H|intros o ->; eapply N; now left]|intros o X; eapply N; right; exact X].
  Qed.
End Group.
