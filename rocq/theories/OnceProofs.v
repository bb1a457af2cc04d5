(** Proofs for C101: a member asks for, and so delivers, only what is allocated to it. *)
From Coq Require Import ZArith Lia String List Bool Permutation.
From Verif Require Import PyBase BaseLemmas Constants Cluster Zookeeper SpecZk ZkAlloc PropsZk Consumer SpecConsumer ConsumerProofs ConsumerSteps ConsumerRuns ConsumerSync PropsConsumer AllocRuns SpecGroup GroupProofs GroupRuns PropsGroup SpecLog FollowRuns PropsLog SpecGroupLog PropsGroupLog TeamProofs SpecOnce.
Import ListNotations.
Open Scope Z_scope.
Set Default Proof Using "Type".

Section Owned.
  Context {V : Type}.
  Variable cfg : config V.
  Variable t : text.
  Notation st := (consumer V).

  (** the requests ask only for partitions in [A] *)
  Definition within (A : list Z) (w : dict Z request) : Prop :=
    forall b x mw mb t' parts p, In (b, RFetch x mw mb t' parts) w -> In p (map fst parts) -> In p A.
  (** a piece that waits for fetches has asked only for what is allocated *)
  Definition fair_next (ns : next V * st) : Prop := forall w rs, fst ns = Await (PSend (KFetch t) w rs) -> within (alloc_of cfg (snd ns) t) w.
  Lemma fetching_within (s : st) w : fetching cfg s t w -> within (alloc_of cfg s t) w.
  Proof.
    intros (_ & _ & P & _) b x mw mb t' parts p I1 I2. eapply Permutation_in; [exact P|]. apply in_flat_map. exists (b, RFetch x mw mb t' parts). auto.
  Qed.
  Lemma send_one_fair k c rq (s : st) : k <> KFetch t -> fair_next (send_one cfg k c rq s).
  Proof.
    intros K w rs E. unfold send_one in *. destruct c as [b|]; [|discriminate E]. destruct (send_all cfg _ s) as [[u|e] s1]; [|discriminate E]. cbn in E. injection E as E _ _. now destruct K.
  Qed.
  Lemma commit_fair m ret (s : st) : fair_next (commit_offsets cfg m ret s).
  Proof.
    unfold commit_offsets. destruct (md cfg) as [|g fn ac name]; [intros w rs E; discriminate E|]. destruct (alloc_map cfg s) as [[al|e] s1]; [|intros w rs E; discriminate E]. destruct (commit_topics al _ s1) as [topics s2].
    apply send_one_fair. discriminate.
  Qed.
  Lemma base_fair t' v (s : st) : fair_next (base_done cfg t' v s).
  Proof.
    unfold base_done. destruct (md cfg) as [|g fn ac name]; [intros w rs E; discriminate E|]. destruct (negb _); [intros w rs E; discriminate E|]. destruct ac; [apply commit_fair|intros w rs E; discriminate E].
  Qed.
  Lemma fetch_fair t' (s : st) : fair_next (fetch cfg t' s).
  Proof.
    destruct (fetch_spec cfg t' s) as [(e & ex & E & _)|[(_ & s1 & _ & ->)|(_ & rqs & ex & E & _ & _ & F & _)]].
    - intros w rs E'. congruence.
    - apply base_fair.
    - intros w rs E'. rewrite E in E'. injection E' as -> <- <-. now apply fetching_within.
  Qed.
  Lemma after_fair t' (s : st) : fair_next (after_offsets cfg t' s).
  Proof.
    destruct (after_offsets_spec cfg t' s) as [(s1 & _ & _ & ->)|[(e & ex & E & _)|(E & _)]]; [apply fetch_fair|intros w rs E'; congruence..].
  Qed.
  Lemma raised_fair k e (s : st) : fair_next (raised cfg k e s).
  Proof. unfold raised. destruct k; [destruct e|..]; try apply base_fair; intros w rs E; discriminate E. Qed.
  Lemma coord_next_fair g rest (s : st) : fair_next (coord_next cfg g rest s).
  Proof. unfold coord_next. destruct (match rest with [] => _ | _ => _ end); [intros w rs E; discriminate E|]. apply send_one_fair. discriminate. Qed.
  Lemma resume_fair k rs (s : st) : fair_next (resume cfg k rs s).
  Proof.
    unfold resume. destruct k as [t' rq|t'|m ret|asked rest].
    - destruct (md cfg) as [|g fn ac name]; [apply after_fair|]. destruct rq as [rq|]; [|apply after_fair].
      destruct (coord_result rs s) as [v|e]; [|apply raised_fair]. destruct v as [|l|[]|x y]; try apply after_fair.
      assert (F : fair_next (send_one cfg (KOffsets t' (Some rq)) (c_coord s) rq s)) by (apply send_one_fair; discriminate).
      destruct (send_one _ _ _ _ _) as [[]]; try exact F. apply raised_fair.
    - apply base_fair.
    - destruct (coord_result rs s) as [v|e]; [|intros w rs' E; discriminate E]. destruct v as [|l|x|retry adjust]; try (intros w rs' E; discriminate E). destruct retry; [apply commit_fair|intros w rs' E; discriminate E].
    - destruct (dindex rs asked) as [v|e]; [|intros w rs' E; discriminate E]. destruct v as [|l|[]|x y], (md cfg) as [|g fn ac name]; try (intros w rs' E; discriminate E); apply coord_next_fair.
  Qed.
  Lemma send_end_fair k rs (s : st) : fair_next (send_end cfg k rs s).
  Proof. unfold send_end. destruct (c_heal s); [intros w rs' E; discriminate E|apply resume_fair]. Qed.
  Lemma determine_fair t' start (s : st) : fair_next (determine_offsets cfg t' start s).
  Proof.
    unfold determine_offsets. destruct (md cfg) as [|g fn ac name].
    - cbv zeta. destruct (alloc_index cfg t' s) as [[ps|e] s1]; [|intros w rs E; discriminate E]. destruct (offset_requests _ _ _ _ s1) as [[rqs|e] s2]; [|intros w rs E; discriminate E].
      destruct (send_all cfg rqs s2) as [[u|e] s3]; [|intros w rs E; discriminate E]. destruct rqs; [apply send_end_fair|intros w rs E; discriminate E].
    - destruct (alloc_index cfg t' s) as [[ps|e] s1]; [|intros w rs E; discriminate E]. apply send_one_fair. discriminate.
  Qed.
  Lemma begin_fair o (s : st) : fair_next (begin cfg o s).
  Proof.
    destruct o as [t' start|m|]; cbn [begin].
    - unfold consume. destruct (c_closing s); [apply base_fair|]. destruct (smem (c_synced s) t'); [apply after_fair|].
      pose proof (determine_fair t' (match md cfg with Single => start | _ => None end) s) as F. destruct (determine_offsets _ _ _ _) as [[]]; try exact F. apply raised_fair.
    - apply commit_fair.
    - destruct (md cfg) as [|g fn ac name]; [intros w rs E; discriminate E|apply coord_next_fair].
  Qed.

  Lemma continue_fair i o (ns : next V * st) (s : st) j o1 w rs : NoDup (dkeys (c_calls s)) -> c_calls (snd ns) = c_calls s -> fair_next ns -> dget (c_calls (continue i o ns)) j = Some (o1, PSend (KFetch t) w rs) ->
    dget (c_calls s) j = Some (o1, PSend (KFetch t) w rs) \/ within (alloc_of cfg (continue i o ns) t) w.
  Proof.
    intros ND C F D. destruct (continue_calls i o ns j) as [_ X]; [now rewrite C|]. rewrite X in D. destruct (Z.eqb_spec j i) as [->|NE].
    - right. destruct ns as [n s1]. cbn [fst] in D. destruct n as [p|v|e]; try discriminate D. injection D as -> ->. exact (F _ _ eq_refl).
    - left. now rewrite C in D.
  Qed.
  (** the partitions a fetch asks for are allocated when it is sent *)
  Lemma within_step (s : st) l j o w rs : inv cfg s -> dget (c_calls (cstep cfg s l)) j = Some (o, PSend (KFetch t) w rs) ->
    (exists w0 rs0, dget (c_calls s) j = Some (o, PSend (KFetch t) w0 rs0) /\ forall x, In x w -> In x w0) \/ within (alloc_of cfg (cstep cfg s l) t) w.
  Proof.
    intros I0 D0. pose proof (cstep_did cfg s l I0) as DD. remember (cstep cfg s l) as s' eqn:ES. assert (ND : NoDup (dkeys (c_calls s))) by apply I0.
    assert (OLD : forall s1, c_calls s1 = c_calls s -> dget (c_calls s1) j = Some (o, PSend (KFetch t) w rs) -> exists w0 rs0, dget (c_calls s) j = Some (o, PSend (KFetch t) w0 rs0) /\ forall x, In x w -> In x w0).
    { intros s1 E X. rewrite E in X. exists w, rs. auto. }
    assert (CONT : forall i o1 ns, c_calls (snd ns) = c_calls s -> fair_next ns -> s' = continue i o1 ns -> (exists w0 rs0, dget (c_calls s) j = Some (o, PSend (KFetch t) w0 rs0) /\ forall x, In x w -> In x w0) \/ within (alloc_of cfg s' t) w).
    { intros i o1 ns E F ->. destruct (continue_fair i o1 ns s j o w rs ND E F D0) as [X|X]; [left; eauto|auto]. }
    clear ES. destruct DD as [l _|i o1 ns D1 E1 P|i b r o1 k w1 rs1 rq1 D1 F1 W IA HF NE F'|i b r o1 k w1 rs1 rq1 ns D1 F1 W IA E1 P|i r o1 k rs1 s1 ns D1 F1 E1 P|i r t1 st1 ns D1 E1 P|k|g fn ac name ev M|].
    - left. eauto.
    - apply (CONT i o1 ns); [|subst ns; apply begin_fair|reflexivity]. destruct P as [(ex & M & _) _ _ _]. exact (p_calls _ _ _ _ _ _ M).
    - destruct (continue_calls i o1 (Await (PSend k (ddel w1 b) (answer_results cfg b r rs1 s)), answer_state cfg r s) j) as [_ X]; [cbn [snd]; now rewrite answer_state_calls|].
      rewrite X in D0. cbn [fst snd] in D0. rewrite answer_state_calls in D0. left. destruct (Z.eqb_spec j i) as [->|N]; [|exists w, rs; auto].
      injection D0 as <- -> <- <-. exists w1, rs1. split; [exact D1|]. intros [b' rq'] H. eapply in_ddel, H.
    - apply (CONT i o1 ns); [| |reflexivity].
      + destruct (paid_some cfg k rs1) as [lv PD]. destruct (P lv PD) as [(ex & M & _) _ _ _]. rewrite (p_calls _ _ _ _ _ _ M). apply answer_state_calls.
      + destruct E1 as [(_ & _ & ->)|(e & _ & ->)]; [apply send_end_fair|apply raised_fair].
    - apply (CONT i o1 ns); [| |reflexivity].
      + destruct (paid_some cfg k rs1) as [lv PD]. destruct (P lv PD) as [(ex & M & _) _ _ _]. rewrite (p_calls _ _ _ _ _ _ M). destruct E1 as [(u & _ & -> & _)|(e & _ & -> & _)]; reflexivity.
      + destruct E1 as [(u & _ & _ & ->)|(e & _ & _ & ->)]; [apply resume_fair|apply raised_fair].
    - apply (CONT i (OpConsume t1 st1) ns); [| |reflexivity].
      + destruct P as [(ex & M & _) _ _ _]. exact (p_calls _ _ _ _ _ _ M).
      + destruct E1 as [(u & _ & ->)|(e & _ & ->)]; [apply fetch_fair|intros w' rs' E; discriminate E].
    - left. eauto.
    - left. eauto.
    - left. eauto.
  Qed.
End Owned.

(** ** a turn *)
Section Turn.
  Context {V : Type}.
  Variable cfg : config V.
  Variable t : text.
  Variable log : Z -> list (Z * pymsg).
  Variable MD : exists g fn ac name, SpecTeam.full_allocator fn /\ md cfg = Grouped g fn ac name.
  Notation st := (consumer V).

  Lemma alloc_stays (s : st) l : inv cfg s -> ~ rebalances cfg s l -> alloc_of cfg (cstep cfg s l) t = alloc_of cfg s t.
  Proof using MD.
    intros I0 NR. destruct MD as (g & af & ac & nm & AA & M0). destruct (alloc_step cfg s l I0) as [(g' & fn & ac' & nm' & ev & M & E & EA)|(_ & AR)].
    - rewrite M0 in M. injection M as <- <- <- <-. subst l. unfold alloc_of. rewrite M0, EA. rewrite step_name. apply (astep_calls_back _ AA). rewrite <- EA.
      destruct (Z.eq_dec (a_callbacks (c_alloc (cstep cfg s (Alloc ev)))) (a_callbacks (c_alloc s))) as [X|X]; [exact X|]. destruct NR. now exists ev.
    - unfold alloc_of. rewrite M0, (ar_name _ _ AR). apply (ar_gives _ _ AR).
  Qed.
  Definition own (A : list Z) (s : st) : Prop := forall j o w rs, dget (c_calls s) j = Some (o, PSend (KFetch t) w rs) -> within A w.
  Lemma within_sub A (w w0 : dict Z request) : (forall x, In x w -> In x w0) -> within A w0 -> within A w.
  Proof. intros S H b x mw mb t' parts p I1 I2. eapply H; [apply S, I1|exact I2]. Qed.
  Lemma own_step (s : st) l : inv cfg s -> ~ rebalances cfg s l -> own (alloc_of cfg s t) s -> own (alloc_of cfg s t) (cstep cfg s l).
  Proof using MD.
    intros I0 NR O j o w rs D. destruct (within_step cfg t s l j o w rs I0 D) as [(w0 & rs0 & D0 & S)|W]; [exact (within_sub _ _ _ S (O _ _ _ _ D0))|]. now rewrite <- (alloc_stays s l I0 NR).
  Qed.
  Lemma kfetch_topic o (k : cont V) w rs : fits cfg o (PSend k w rs) -> k = KFetch t -> on_topic t o.
  Proof. intros [F _] ->. destruct o as [t' st'|m|]; cbn in F; try contradiction. now subst. Qed.
  Lemma own_start (s : st) : at_start t cfg s -> own (alloc_of cfg s t) s.
  Proof.
    intros (R & _ & H) j o w rs D. pose proof (ConsumerRuns.reach_inv cfg s R) as I0. pose proof (kfetch_topic o _ w rs (proj2 I0 _ _ _ D) eq_refl) as OT.
    destruct H as [NB|(s' & l & i & R' & E & LU & _ & ONE)]; [destruct NB; now exists j, o, (PSend (KFetch t) w rs)|].
    pose proof (ONE _ _ _ D OT) as ->. rewrite E in D |- *. destruct (within_step cfg t s' l i o w rs (ConsumerRuns.reach_inv cfg s' R') D) as [(w0 & rs0 & D0 & _)|W]; [|exact W].
    destruct LU as (start & rq & [(w1 & rs1 & D1)|(rs1 & D1)]); rewrite D1 in D0; discriminate D0.
  Qed.
  (** the answers, knowing what was asked for *)
  Definition serves_own (A : list Z) (rq : request) (r : response) : Prop :=
    serves_group t log rq r /\ forall x mw mb parts p, rq = RFetch x mw mb t parts -> In p (map fst parts) -> In p A.
  Lemma waits_own A (s : st) i b x mw mb parts p : inv cfg s -> own A s -> waits_for s i b (RFetch x mw mb t parts) -> In p (map fst parts) -> In p A.
  Proof.
    clear MD. intros [_ F] O (o & k & w & rs & D & W) IP. apply dget_In in W. pose proof (F _ _ _ D) as [FC WF]. pose proof (ws_asks _ _ _ _ WF _ _ W) as AK.
    assert (EK : k = KFetch t).
    { destruct k as [t' [rq|]|t'|m ret|a rest]; cbn in AK.
      - subst rq. destruct o as [t1 s1|m|]; cbn in FC; try contradiction. destruct FC as (_ & FC). destruct (md cfg); [discriminate FC|]. destruct FC as (ps & FC). discriminate FC.
      - destruct AK as (ps & X). discriminate X.
      - destruct AK as (ps & X). now injection X as _ _ _ -> _.
      - destruct AK as (g & ts & X). discriminate X.
      - destruct AK as (_ & g & X). discriminate X. }
    subst k. exact (O _ _ _ _ D _ _ _ _ _ _ _ W IP).
  Qed.
  Lemma own_steady A ls : forall s, inv cfg s -> own A s -> alloc_of cfg s t = A -> each_step cfg (undisturbed t log cfg) ls s -> each_step cfg (steady_ cfg t (serves_own A)) ls s.
  Proof using MD.
    induction ls as [|l ls IH]; intros s I0 O EA UN; [exact I|]. pose proof (undisturbed_steady t log cfg (l :: ls) s UN) as ST. destruct UN as [[NR U1] U2], ST as [[OR AL] _]. split.
    - split; [|exact AL]. destruct l as [i [t' start|m|]|i b [r|e]|i r|k|ev|]; try exact I; [exact OR|]. intros rq W AN. split; [exact (OR rq W AN)|]. intros x mw mb parts p -> IP. exact (waits_own A s i b x mw mb parts p I0 O W IP).
    - apply IH; [now apply inv_step| |now rewrite (alloc_stays s l I0 NR)|exact U2]. rewrite <- EA in O |- *. now apply own_step.
  Qed.
End Turn.

(** ** what a member delivers in its turn is from its own partitions *)
Lemma turn_delivers {V} t log (T : turn (V := V)) : (forall p, is_log (log p)) -> undisturbed_turn t log T ->
  exists D, delivers t T D /\ (forall d, In d D -> owns t T (fst d)) /\
    forall p, of_partition p D = readable (tn_cfg T) (between (position (tn_start T) t p) (position (tn_end T) t p) (log p)).
Proof.
  intros LOG (MD & AS & UN & NR). destruct T as [cfg s0 ls]. unfold delivers, owns, tn_gave, tn_end in *. cbn [tn_cfg tn_start tn_steps] in *. set (A := alloc_of cfg s0 t). set (s := crun cfg ls s0) in *.
  set (books := fun D f => in_log cfg t log s0 D f /\ forall d, In d D -> In (fst d) A).
  assert (R0 : inv cfg s0) by (apply ConsumerRuns.reach_inv, AS).
  assert (B0 : books [] (position s0 t)) by (split; [apply in_log_start|intros d []]).
  destruct (follows_runs cfg t s0 (serves_own t log A) books) with (ls := ls) (D := @nil (Z * (Z * V))) (s := s0) as (D & F).
  - intros D f g E (L & O). split; [now apply (in_log_ext cfg t log s0 D f g E)|exact O].
  - intros x mw mb t' asked t'' parts rest (S & _). exact (group_fetch t log x mw mb t' asked t'' parts rest S).
  - intros x t' asked t'' parts rest (S & _). exact (proj1 S).
  - right. intros g t' asked t'' parts rest (S & _). exact (proj2 S).
  - intros D f f' x mw mb asked parts rest (L & O) P (S & OWN) G. split; [exact (in_log_step cfg t log s0 LOG D f f' x mw mb asked parts rest L P (proj1 S) G)|].
    intros d I0. apply in_app_iff in I0 as [I0|I0]; [now apply O|]. unfold got_of in I0. apply in_flat_map in I0 as ([p [code ms]] & I1 & I2). cbn [fst snd] in I2. destruct (Z.eqb_spec code no_error) as [->|NE]; [|destruct I2].
    apply in_map_iff in I2 as (y & <- & _). cbn [fst]. destruct (group_fetch t log _ _ _ _ _ _ _ _ S) as [_ GF]. destruct (GF eq_refl) as [_ GP]. destruct (GP _ _ _ I1) as [_ IA]. exact (OWN x mw mb asked p eq_refl (IA eq_refl)).
  - now apply follows_at_start.
  - now apply own_steady; [| |apply own_start| |].
  - exact NR.
  - exists D. destruct (f_log _ _ _ _ _ _ F) as [L O]. split; [|split; [exact O|intros p; apply (L p)]]. destruct (busy_dec cfg t s (f_inv _ _ _ _ _ _ F)) as [(i & o & p & DD & OT)|B].
    + destruct (f_pc _ _ _ _ _ _ F i o p DD OT) as [_ G]. exists (held cfg p). split; [exact G|]. intros N. destruct N. now exists i, o, p.
    + exists []. rewrite app_nil_r. split; [now apply (f_free _ _ _ _ _ _ F)|auto].
Qed.

(** ** the group *)
Lemma of_partition_none {V} p (D : list (Z * (Z * V))) : (forall d, In d D -> fst d <> p) -> of_partition p D = [].
Proof.
  intros H. unfold of_partition. induction D as [|d D IH]; [reflexivity|]. cbn [filter]. destruct (Z.eqb_spec (fst d) p) as [E|_]; [destruct (H d (or_introl eq_refl) E)|]. apply IH. intros d' I0. apply H. now right.
Qed.
Lemma readable_offsets {V} (cfg : config V) l : NoDup (map fst l) -> NoDup (map fst (readable cfg l)) /\ incl (map fst (readable cfg l)) (map fst l).
Proof.
  induction l as [|[o m] l IH]; intros N; [split; [constructor|intros x []]|]. cbn [map fst] in N. inversion N as [|? ? N1 N2]; subst. destruct (IH N2) as [IH1 IH2]. rewrite readable_cons. destruct (deser cfg (msg_value m)) as [v|e]; cbn [app map fst].
  - split; [constructor; [intros X; now apply N1, IH2|exact IH1]|]. intros x [<-|X]; [now left|right; now apply IH2].
  - split; [exact IH1|]. intros x X. right. now apply IH2.
Qed.
Lemma log_nodup log a b : is_log log -> NoDup (map fst (between a b log)).
Proof.
  intros [S _]. unfold between. induction log as [|[o m] log IH]; [constructor|]. cbn [map fst] in S. inversion S as [|? ? S1 S2]; subst. specialize (IH S1). cbn [filter fst]. destruct ((a <=? o) && (o <? b)); [|exact IH]. cbn [map fst]. constructor; [|exact IH].
  intros X. apply in_map_iff in X as ([o' m'] & <- & X). apply filter_In in X as [X _]. rewrite Forall_forall in S2. apply (in_map fst) in X. apply S2 in X. cbn in X. lia.
Qed.
Lemma messages_nodup {V} (D : list (Z * (Z * V))) : (forall p, NoDup (map fst (of_partition p D))) -> NoDup (map message_of D).
Proof.
  induction D as [|[p [o v]] D IH]; intros H; [constructor|]. cbn [map]. constructor.
  - intros X. apply in_map_iff in X as ([p' [o' v']] & E & X). unfold message_of in E. cbn in E. injection E as -> ->. specialize (H p). unfold of_partition in H. cbn [filter fst] in H. rewrite Z.eqb_refl in H. cbn [map snd fst] in H. inversion H as [|? ? H1 _]; subst.
    apply H1. apply in_map_iff. exists (o, v'). split; [reflexivity|]. apply in_map_iff. exists (p, (o, v')). split; [reflexivity|]. apply filter_In. split; [exact X|apply Z.eqb_refl].
  - apply IH. intros q. specialize (H q). unfold of_partition in *. cbn [filter fst] in H. destruct (p =? q); [|exact H]. cbn [map] in H. now inversion H.
Qed.
Lemma shared_tail {V} t (T : turn (V := V)) Ts : shared_out t (T :: Ts) -> shared_out t Ts /\ forall T' p, In T' Ts -> owns t T p -> owns t T' p -> False.
Proof.
  intros H. split.
  - intros i j T1 T2 p E1 E2 O1 O2. specialize (H (S i) (S j) T1 T2 p E1 E2 O1 O2). congruence.
  - intros T' p I0 O O'. apply In_nth_error in I0 as (n & E). specialize (H 0%nat (S n) T T' p eq_refl E O O'). discriminate H.
Qed.
Lemma group_delivers {V} t log (Ts : list (turn (V := V))) : (forall p, is_log (log p)) -> Forall (undisturbed_turn t log) Ts -> shared_out t Ts ->
  exists Ds, Forall2 (delivers t) Ts Ds /\
    (forall T p, In T Ts -> owns t T p -> of_partition p (concat Ds) = readable (tn_cfg T) (between (position (tn_start T) t p) (position (tn_end T) t p) (log p))) /\
    (forall d, In d (concat Ds) -> exists T, In T Ts /\ owns t T (fst d)).
Proof.
  intros LOG. induction Ts as [|T Ts IH]; intros F S; [exists []; split; [constructor|split; [intros T p []|intros d []]]|]. inversion F as [|? ? F1 F2]; subst. destruct (shared_tail t T Ts S) as [S1 S2].
  destruct (IH F2 S1) as (Ds & A1 & A2 & A3). destruct (turn_delivers t log T LOG F1) as (D & B1 & B2 & B3). exists (D :: Ds). split; [now constructor|]. cbn [concat]. split.
  - intros T' p [<-|I0] O; rewrite of_partition_app.
    + rewrite (of_partition_none p (concat Ds)); [rewrite app_nil_r; apply B3|]. intros d I1 E. subst p. destruct (A3 d I1) as (T' & I2 & O'). exact (S2 _ _ I2 O O').
    + rewrite (of_partition_none p D); [cbn [app]; now apply A2|]. intros d I1 E. subst p. exact (S2 _ _ I0 (B2 _ I1) O).
  - intros d I0. apply in_app_iff in I0 as [I0|I0]; [exists T; split; [now left|now apply B2]|]. destruct (A3 d I0) as (T' & I1 & O). exists T'. split; [now right|exact O].
Qed.
Lemma group_once {V} t log (Ts : list (turn (V := V))) Ds : (forall p, is_log (log p)) ->
  (forall T p, In T Ts -> owns t T p -> of_partition p (concat Ds) = readable (tn_cfg T) (between (position (tn_start T) t p) (position (tn_end T) t p) (log p))) ->
  (forall d, In d (concat Ds) -> exists T, In T Ts /\ owns t T (fst d)) -> NoDup (map message_of (concat Ds)).
Proof.
  intros LOG A2 A3. apply messages_nodup. intros p. destruct (in_dec Z.eq_dec p (map fst (concat Ds))) as [I0|NI].
  - apply in_map_iff in I0 as (d & <- & I0). destruct (A3 d I0) as (T & I1 & O). rewrite (A2 T (fst d) I1 O). apply readable_offsets, log_nodup, LOG.
  - rewrite of_partition_none; [constructor|]. intros d I0 E. apply NI. rewrite <- E. now apply in_map.
Qed.
