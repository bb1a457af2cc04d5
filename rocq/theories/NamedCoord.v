(** Which broker a group member takes for its coordinator (proof file, over Consumer.v and Stack.v). *)
From Coq Require Import ZArith String List Bool Lia.
From Verif Require Import PyBase BaseLemmas Constants Messages Protocol Request Cluster Zookeeper ResponseRead Consumer SpecConsumer ConsumerProofs ConsumerSteps ConsumerRuns SpecConn ConnStream ConnProofs SpecKafka Stack SpecStack StackHeld StackWire StackProofs PropsStack.
From Verif Require Connection.
Import ListNotations.
Open Scope Z_scope.

Section Step.
  Context {V : Type}.
  Variable cfg : config V.
  Notation st := (consumer V).
  Definition group_of : option text := match md cfg with Grouped g _ _ _ => Some g | Single => None end.
  Lemma sent_coord (s : st) l b rq : ConsumerRuns.inv cfg s -> In (b, rq) (sent cfg s l) ->
    match rq with RCommit g _ | ROffsetFetch g _ _ => group_of = Some g /\ c_coord (cstep cfg s l) = Some b | _ => True end.
  Proof.
    intros I H. destruct (step_cases cfg s l I) as [(i & o & look & s1 & ns & ex & AC)|X].
    - destruct (acts_sent _ _ _ _ _ _ _ _ _ AC) as [E _]. rewrite E in H. rewrite (ac_step _ _ _ _ _ _ _ _ _ AC). destruct (ConsumerRuns.continue_same i o ns) as (_ & _ & _ & _ & _ & CC & _).
      unfold group_of. destruct (ac_sends _ _ _ _ _ _ _ _ _ AC) as [|t' start rqs pre post _ F -> _ ex ->|t' start rqs pre post _ _ _ F -> _ ex ->|t' start b' g fn ac name ps _ MD _ CO _ _|m ret b' g fn ac name am MD _ _ CO _ _ _|b' rest g fn ac name _ _ _ _]; [destruct H| | |destruct H as [H|[]]; injection H as <- <-..].
      + apply filter_In in H as [H _]. destruct F as (_ & _ & _ & F). destruct (F b rq) as (parts & _ & -> & _); [apply in_or_app; now left|exact Logic.I].
      + apply filter_In in H as [H _]. destruct F as (_ & _ & F). destruct (F b rq) as (parts & _ & -> & _); [apply in_or_app; now left|exact Logic.I].
      + rewrite MD, CC. auto.
      + rewrite MD, CC. auto.
      + exact Logic.I.
    - exfalso. assert (E : c_wire (cstep cfg s l) = c_wire s) by (destruct X as [(-> & _)|[(k & _ & ->)|[(_ & ->)|(g & fn & ac & name & ev & _ & _ & ->)]]]; reflexivity). unfold sent in H. rewrite E, skipn_all in H. destruct H.
  Qed.
  Lemma coord_step (s : st) l b : ConsumerRuns.inv cfg s -> single cfg s -> c_coord (cstep cfg s l) = Some b -> c_coord s = Some b \/
    exists i b' g, l = Arrive i b' (Ok (PCoordinator no_error b)) /\ waits_for s i b' (RCoordinator g) /\ group_of = Some g.
  Proof.
    intros I SG H. destruct (step_cases cfg s l I) as [(i & o & look & s1 & ns & ex & AC)|X].
    - rewrite (ac_step _ _ _ _ _ _ _ _ _ AC) in H. destruct (ConsumerRuns.continue_same i o ns) as (_ & _ & _ & _ & _ & CC & _). rewrite CC, (p_coord _ _ _ _ _ _ (ac_moves _ _ _ _ _ _ _ _ _ AC)) in H.
      destruct (ac_from _ _ _ _ _ _ _ _ _ AC) as [(_ & _ & -> & _)|[(b' & r & k & w & rs & rq & -> & D & W & IA & -> & _)|[(r & k & rs & _ & _ & [-> | ->] & _)|(r & t & _ & _ & -> & _)]]]; try (left; exact H).
      unfold answer_state in H. destruct r as [resp|e]; [|left; destruct e; exact H]. pose proof (handle_handled cfg resp s) as HS.
      destruct resp as [topics|topics|topics|topics|code id]; try (left; rewrite <- H; symmetry; apply (h_coord _ _ _ HS); discriminate).
      cbn [handle] in H. destruct (Z.eqb_spec code no_error) as [->|NE]; [|destruct (is_retriable code); left; exact H]. cbn in H. injection H as ->.
      destruct rq; try discriminate IA. right. exists i, b', group. split; [reflexivity|]. split; [exists o, k, w, rs; auto|].
      destruct I as [_ I]. destruct (I _ _ _ D) as [FC WF]. pose proof (ws_asks _ _ _ _ WF b' _ (dget_In _ _ _ W)) as AS. unfold group_of. destruct k as [t [rq0|]|t|m ret|a0 rest]; cbn [asks] in AS.
      + exfalso. subst rq0. destruct o; try contradiction. destruct FC as [_ FC]. destruct (md cfg); [discriminate FC|destruct FC as (ps & X); discriminate X].
      + destruct AS as (? & X); discriminate X.
      + destruct AS as (? & X); discriminate X.
      + destruct AS as (? & ? & X); discriminate X.
      + destruct o; try contradiction. cbn in FC. destruct (md cfg) as [|g fn ac name] eqn:MD; [now elim FC|]. assert (CR : cont_rq cfg (KCoord a0 rest) = Some (RCoordinator g)) by (cbn; now rewrite MD). destruct (SG _ _ _ _ _ _ D CR) as [b0 ->]. cbn [dget] in W. destruct (eqb b0 b'); [|discriminate W]. now injection W as <-.
    - left. destruct X as [(E & _)|[(k & _ & E)|[(_ & E)|(g & fn & ac & name & ev & _ & _ & E)]]]; rewrite E in H; exact H.
  Qed.
End Step.

Section Named.
  Context {V : Type}.
  Variable cfg : config V.
  Variable C : codec.
  Variable depth : nat.
  Variable neg_read : Z -> bytes -> bytes * bytes.
  Variable frames : nat -> list (Z * bytes).
  Hypothesis OK : forall n, Forall frame_ok (frames n).
  Notation sstep := (sstep cfg C depth neg_read).
  Notation srun := (srun cfg C depth neg_read).
  Notation stack_inv := (stack_inv cfg C depth frames).

  Lemma outcome_came S i b r rq : stack_inv S -> hears frames S -> outcome_of S i b = Some (Ok r) -> waits_for (k_cons S) i b rq ->
    exists n f id raw, In (f, (id, rq)) (l_asked (k_link S n)) /\ came (frames n) (l_in (k_link S n)) (id, raw) /\ read_response C depth rq raw = Some (Ok r).
  Proof.
    intros [I PL L W _ _] HE O WF. unfold outcome_of in O. destruct (find (is_wait i b) (k_wait S)) as [[[i' b'] [n f]]|] eqn:FW; [|discriminate O]. apply find_some in FW as [FW IW]. unfold is_wait in IW. cbn [fst snd] in IW. apply andb_true_iff in IW as [E1 E2]. apply Z.eqb_eq in E1, E2. subst i' b'.
    destruct (find _ (Connection.c_done (l_conn (k_link S n)))) as [[f' o]|] eqn:FD; [|discriminate O]. apply find_some in FD as [FD EF]. cbn [fst] in EF. apply Nat.eqb_eq in EF. subst f'.
    destruct o as [api corr v|e]; [|discriminate O]. destruct (view_response api v) as [r'|] eqn:VR; [|discriminate O]. injection O as ->.
    destruct (L n) as [A B D E WA WO]. destruct (W _ _ _ _ _ FW WF) as [(id & HA)|(e & HF)].
    2:{ exfalso. pose proof (i_d1 _ _ _ _ A) as ND. unfold completed in ND. assert (X : Connection.Fail e = Connection.Got api corr v); [|discriminate X]. eapply nodup_fst_eq; [exact ND|exact HF|exact FD]. }
    destruct (D _ _ _ HA) as (obj & IO & CO & AO & _). pose proof (i_d2 _ _ _ _ A) as GD. rewrite Forall_forall in GD. destruct (GD _ FD) as (obj' & IO' & CO' & AO' & _). cbn [fst] in IO'.
    assert (obj' = obj) as -> by (eapply nodup_fst_eq; [apply (i_nd _ _ _ _ A)|exact IO'|exact IO]). destruct (HE n) as (_ & more & EM). destruct (E (ex_intro _ more EM)) as [_ FR]. rewrite Forall_forall in FR. destruct (FR _ FD) as (raw & CM & DE). cbn [snd] in *.
    exists n, f, id, raw. split; [exact HA|]. split; [congruence|]. apply decodes_iff in DE as (fs & DG & DS). eapply view_read; [rewrite <- AO, AO'; exact DG|exact DS|rewrite <- AO, AO'; exact VR].
  Qed.

  (** a coordinator response naming [b] arrived *)
  Definition told_of (S : stack V) (b : Z) : Prop := exists g n f id raw, group_of cfg = Some g /\ In (f, (id, RCoordinator g)) (l_asked (k_link S n)) /\
    came (frames n) (l_in (k_link S n)) (id, raw) /\ read_response C depth (RCoordinator g) raw = Some (Ok (PCoordinator no_error b)).
  Definition coord_inv (S : stack V) : Prop := (forall b, c_coord (k_cons S) = Some b -> told_of S b) /\
    forall b rq, In (b, rq) (c_wire (k_cons S)) -> match rq with RCommit g _ | ROffsetFetch g _ _ => group_of cfg = Some g /\ told_of S b | _ => True end.
  Lemma told_more S S' b : links_le S S' -> told_of S b -> told_of S' b.
  Proof.
    intros (_ & L) (g & n & f & id & raw & G & A & B & D). exists g, n, f, id, raw. destruct (L n) as ((x & E) & AS & _). split; [exact G|]. split; [now apply AS|]. split; [rewrite E; now apply came_more|exact D].
  Qed.
  Lemma coord_run evs k name last : let S := srun evs (stack_init k name last) in hears frames S -> coord_inv S.
  Proof.
    induction evs as [|ev evs IH] using rev_ind; cbv zeta.
    - intros _. split; [intros b H; discriminate H|intros b rq []].
    - unfold Stack.srun. rewrite fold_left_app. cbn [fold_left]. fold (srun evs (stack_init k name last)). intros H. cbv zeta in IH. set (S := srun evs (stack_init k name last)) in *.
      assert (SI : stack_inv S) by (apply srun_ok; [exact OK|now apply stack_inv_init]). destruct (sstep_ok cfg C depth neg_read frames OK ev S SI) as (E & SI' & LE). pose proof (PropsStack.hears_before _ _ _ LE H) as H0. destruct (IH H0) as [A B]. pose proof (fun b => told_more S (sstep S ev) b LE) as UP.
      assert (IF : ConsumerRuns.inv cfg (with_flags S)) by (apply inv_flags, SI). assert (SF : single cfg (with_flags S)) by exact (si_single _ _ _ _ _ SI).
      assert (SAME : c_coord (k_cons (sstep S ev)) = c_coord (k_cons S) -> c_wire (k_cons (sstep S ev)) = c_wire (k_cons S) -> coord_inv (sstep S ev)).
      { intros X Y. split; rewrite ?X, ?Y; [intros b Q; now apply UP, A|]. intros b rq Q. specialize (B b rq Q). destruct rq; try exact Logic.I; destruct B; split; auto. }
      assert (ONE : forall l, k_cons (sstep S ev) = cstep cfg (with_flags S) l -> (forall i b' b g, l = Arrive i b' (Ok (PCoordinator no_error b)) -> waits_for (with_flags S) i b' (RCoordinator g) -> group_of cfg = Some g -> told_of S b) -> coord_inv (sstep S ev)).
      { intros l X Y. assert (CO : forall b, c_coord (k_cons (sstep S ev)) = Some b -> told_of (sstep S ev) b).
        { intros b Q. rewrite X in Q. apply UP. destruct (coord_step cfg (with_flags S) l b IF SF Q) as [Q'|(i & b' & g & -> & W & G)]; [now apply A|]. now apply (Y i b' b g). }
        split; [exact CO|]. intros b rq Q. rewrite X, (step_wire cfg (with_flags S) l IF) in Q. apply in_app_iff in Q as [Q|Q].
        - specialize (B b rq Q). destruct rq; try exact Logic.I; destruct B; split; auto.
        - pose proof (sent_coord cfg (with_flags S) l b rq IF Q) as Z. destruct rq; try exact Logic.I; (destruct Z as [Z1 Z2]; split; [exact Z1|]; apply CO; now rewrite X). }
      destruct ev as [l wr|n ev|n topics wr|i b wr].
      + destruct l as [i o|i b r|i r|k0|ev|]; cbn [labels_of] in E; cbn [crun fold_left] in E; try (apply SAME; now rewrite E); match type of E with _ = cstep _ _ ?l => apply (ONE l); [exact E|intros; discriminate] end.
      + apply SAME; now rewrite E.
      + apply SAME; now rewrite E.
      + cbn [labels_of] in E. destruct (outcome_of S i b) as [r|] eqn:OC; cbn [crun fold_left] in E; [|apply SAME; now rewrite E]. apply (ONE (Arrive i b r)); [exact E|].
        intros i' b' b0 g X W G. injection X as <- <- ->. destruct (outcome_came S i b _ _ SI H0 OC W) as (n & f & id & raw & X1 & X2 & X3). exists g, n, f, id, raw. auto.
  Qed.
End Named.
