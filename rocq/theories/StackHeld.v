(** Which calls hold on to a request object they may send again (for StackProofs.v). *)
From Coq Require Import ZArith String List Bool Lia.
From Verif Require Import PyBase BaseLemmas Messages Cluster Zookeeper Consumer SpecConsumer ConsumerProofs ConsumerSteps ConsumerRuns ResponseRead Stack.
Import ListNotations.
Open Scope Z_scope.

Section Held.
  Context {V : Type}.
  Variable cfg : config V.
  Notation st := (consumer V).

  Definition cont_rq (k : cont V) : option request :=
    match k with KOffsets _ (Some rq) => Some rq | KCoord _ _ => match md cfg with Single => None | Grouped g _ _ _ => Some (RCoordinator g) end | _ => None end.
  Definition held_rq (p : pc V) : option request := match p with PSend k _ _ | PHeal k _ => cont_rq k | PTopicHeal _ => None end.
  Lemma held_some o p : ConsumerSteps.fits cfg o p -> (held p = true <-> exists rq, held_rq p = Some rq).
  Proof.
    assert (K : forall k, fits_cont cfg o k -> (match k with KOffsets _ (Some _) | KCoord _ _ => true | _ => false end = true <-> exists rq, cont_rq k = Some rq)).
    { intros k F. destruct k as [t [rq|]|t|m ret|a b]; cbn; try (split; [discriminate|intros (rq' & H); discriminate H]); [split; [eauto|reflexivity]|]. destruct o; try contradiction. cbn in F. destruct (md cfg); [congruence|]. split; [eauto|reflexivity]. }
    intros F. destruct p as [k w rs|k rs|t].
    - destruct F as [F _]. specialize (K k F). destruct k as [t [rq|]|t|m ret|a b]; exact K.
    - destruct F as [F _]. specialize (K k F). destruct k as [t [rq|]|t|m ret|a b]; exact K.
    - cbn. split; [discriminate|intros (rq & H); discriminate H].
  Qed.

  (** a send() of such a request is to one broker *)
  Definition single (s : st) : Prop := forall i o k w rs rq, dget (c_calls s) i = Some (o, PSend k w rs) -> cont_rq k = Some rq -> exists b, w = [(b, rq)].

  Definition tame (n : next V) : Prop := match n with Await p => held_rq p = None | _ => True end.
  Lemma tame_commit m ret (s : st) : tame (fst (commit_offsets cfg m ret s)).
  Proof.
    unfold commit_offsets. destruct (md cfg) as [|g fn ac name]; [exact I|]. destruct (alloc_map cfg s) as [[mp|e] s1]; [|exact I]. destruct (commit_topics mp _ s1) as [topics s2].
    destruct (send_one_spec cfg (KCommit match m with Some m => m | None => txt "committed by " ++ name end ret) (c_coord s2) (RCommit g topics) s2) as (ex & _ & _ & _ & [(e & -> & _)|(b & _ & -> & _)]); exact I || reflexivity.
  Qed.
  Lemma tame_base t v (s : st) : tame (fst (base_done cfg t v s)).
  Proof. unfold base_done. destruct (md cfg) as [|g fn ac name]; [exact I|]. destruct (negb _); [exact I|]. destruct ac; [apply tame_commit|exact I]. Qed.
  Lemma tame_fetch t (s : st) : tame (fst (fetch cfg t s)).
  Proof.
    unfold fetch. destruct (allocated cfg t s) as [[[|]|e] s1]; [|apply tame_base|exact I]. destruct (alloc_index cfg t s1) as [[ps|e] s2]; [|exact I]. destruct (order_leaders t ps [] s2) as [[ord|e] s3]; [|exact I].
    destruct (fetch_requests cfg t ord s3) as [rqs s4]. destruct (send_all cfg rqs s4) as [[u|e] s5]; [reflexivity|exact I].
  Qed.
  Lemma tame_after t (s : st) : tame (fst (after_offsets cfg t s)).
  Proof. unfold after_offsets. destruct (allocated cfg t s) as [[[|]|e] s1]; [apply tame_fetch|reflexivity|exact I]. Qed.
  Lemma tame_raised k e (s : st) : tame (fst (raised cfg k e s)).
  Proof. unfold raised. destruct k; try exact I. destruct e; try exact I. apply tame_base. Qed.

  (** what comes after the send() of [k] sends the same request, or none of this kind *)
  Definition follows (k : cont V) (n : next V) : Prop :=
    tame n \/ (exists rs, n = Await (PHeal k rs)) \/ exists k' b rq, n = Await (PSend k' [(b, rq)] []) /\ cont_rq k = Some rq /\ cont_rq k' = Some rq.
  Lemma coord_follows g fn ac name rest k (s : st) : md cfg = Grouped g fn ac name -> cont_rq k = Some (RCoordinator g) -> follows k (fst (coord_next cfg g rest s)).
  Proof.
    intros M E. unfold coord_next. destruct (match rest with [] => _ | _ => rest end) as [|b r]; [now left|].
    destruct (send_one_spec cfg (KCoord b r) (Some b) (RCoordinator g) s) as (ex & _ & _ & _ & [(e & -> & _)|(b' & _ & -> & _)]); [now left|]. right. right. exists (KCoord b r), b', (RCoordinator g). cbn. rewrite M. auto.
  Qed.
  Lemma resume_follows k rs (s : st) : follows k (fst (resume cfg k rs s)).
  Proof.
    destruct k as [t rq|t|m ret|asked rest]; cbn [resume].
    - destruct (md cfg) as [|g fn ac name] eqn:M; [left; apply tame_after|]. destruct rq as [rq|]; [|left; apply tame_after]. destruct (coord_result rs s) as [h|e]; [|left; apply tame_raised].
      destruct h as [|l|[|]|a b]; try (left; apply tame_after).
      destruct (send_one_spec cfg (KOffsets t (Some rq)) (c_coord s) rq s) as (ex & _ & _ & _ & D). destruct (send_one cfg (KOffsets t (Some rq)) (c_coord s) rq s) as [n s1]. cbn [fst] in D. destruct D as [(e & -> & _)|(b & _ & -> & _)]; [left; apply tame_raised|].
      right. right. exists (KOffsets t (Some rq)), b, rq. auto.
    - left. apply tame_base.
    - destruct (coord_result rs s) as [h|e]; [|now left]. destruct h as [|l|b|[|] b]; try (now left). left. apply tame_commit.
    - destruct (dindex rs asked) as [h|e]; [|now left]. destruct (md cfg) as [|g fn ac name] eqn:M; destruct h as [|l|[|]|a b]; try (now left); (eapply coord_follows; [exact M|cbn; now rewrite M]).
  Qed.
  Lemma send_end_follows k rs (s : st) : follows k (fst (send_end cfg k rs s)).
  Proof. unfold send_end. destruct (c_heal s); [right; left; exists rs; reflexivity|apply resume_follows]. Qed.
  Lemma arrive_follows k w rs b r (s : st) : ddel w b = [] -> follows k (fst (arrive cfg k w rs b r s)).
  Proof.
    intros W. unfold arrive. rewrite W. destruct r as [resp|e]; [|apply send_end_follows]. destruct (handle cfg resp s) as [[v|e] s1]; [apply send_end_follows|left; apply tame_raised].
  Qed.
  Lemma determine_single t start (s : st) p rq : fst (determine_offsets cfg t start s) = Await p -> held_rq p = Some rq -> exists k b, p = PSend k [(b, rq)] [].
  Proof.
    unfold determine_offsets. destruct (md cfg) as [|g fn ac name] eqn:M.
    - destruct (alloc_index cfg t s) as [[ps|e] s1]; [|discriminate]. destruct (offset_requests t _ ps [] s1) as [[rqs|e] s2]; [|discriminate]. destruct (send_all cfg rqs s2) as [[u|e] s3]; [|discriminate]. destruct rqs as [|x rqs].
      + intros E H. pose proof (send_end_follows (KOffsets t None) [] s3) as F. rewrite E in F. destruct F as [F|[(rs & F)|(k' & b & rq' & F & X & _)]]; [cbn in F; congruence|injection F as ->; discriminate H|discriminate X].
      + intros E H. injection E as <-. discriminate H.
    - destruct (alloc_index cfg t s) as [[ps|e] s1]; [|discriminate]. destruct (send_one_spec cfg (KOffsets t (Some (ROffsetFetch g t ps))) (c_coord s1) (ROffsetFetch g t ps) s1) as (ex & _ & _ & _ & [(e & -> & _)|(b & _ & -> & _)]); [discriminate|].
      intros E H. injection E as <-. cbn in H. injection H as <-. eauto.
  Qed.
  Lemma consume_single t start (s : st) p rq : fst (consume cfg t start s) = Await p -> held_rq p = Some rq -> exists k b, p = PSend k [(b, rq)] [].
  Proof.
    unfold consume. intros E H. destruct (c_closing s); [pose proof (tame_base t RvNone s) as T; rewrite E in T; cbn in T; congruence|]. destruct (smem (c_synced s) t); [pose proof (tame_after t s) as T; rewrite E in T; cbn in T; congruence|].
    destruct (determine_offsets cfg t match md cfg with Single => start | _ => None end s) as [n s1] eqn:D. destruct n as [p'|v|e]; cbn [fst] in E; [|discriminate E|].
    - injection E as <-. eapply determine_single; [rewrite D; reflexivity|exact H].
    - pose proof (tame_raised (KOffsets t None) e s1) as T. rewrite E in T. cbn in T. congruence.
  Qed.

  (** the calls after a step *)
  Lemma continue_same i o (ns : next V * st) s : NoDup (dkeys (c_calls s)) -> c_calls (snd ns) = c_calls s ->
    forall j, dget (c_calls (continue i o ns)) j = if j =? i then match fst ns with Await p => Some (o, p) | _ => None end else dget (c_calls s) j.
  Proof. intros N E j. destruct (continue_calls i o ns j) as [_ X]; [now rewrite E|]. rewrite X, E. reflexivity. Qed.
  Definition only_new (n : next V) : Prop := forall k w rs rq, n = Await (PSend k w rs) -> cont_rq k = Some rq -> exists b, w = [(b, rq)].
  Lemma tame_new n : tame n -> only_new n.
  Proof. intros T k w rs rq -> E. cbn in T. congruence. Qed.
  Lemma follows_new k n : follows k n -> only_new n.
  Proof.
    intros [T|[(rs & ->)|(k' & b & rq & -> & E & E')]]; [now apply tame_new|intros k1 w1 rs1 rq1 H; discriminate H|]. intros k1 w1 rs1 rq1 H X. injection H as <- <- <-. exists b. congruence.
  Qed.
  Lemma begin_single o (s : st) p rq : fst (begin cfg o s) = Await p -> held_rq p = Some rq -> exists k b, p = PSend k [(b, rq)] [].
  Proof.
    destruct o as [t start|m|]; cbn [begin]; [apply consume_single| |].
    - intros E H. pose proof (tame_commit m RvNone s) as T. rewrite E in T. cbn in T. congruence.
    - destruct (md cfg) as [|g fn ac name] eqn:M; [discriminate|]. intros E H. destruct (coord_follows g fn ac name [] (KCoord 0 []) s M) as [T|[(rs & F)|(k' & b & rq' & F & X & Y)]]; [cbn; now rewrite M|rewrite E in T; cbn in T; congruence| |].
      + exfalso. unfold coord_next in F. destruct (dkeys (k_conns (c_cluster s))) as [|b r]; [discriminate F|]. destruct (send_one_spec cfg (KCoord b r) (Some b) (RCoordinator g) s) as (ex & _ & _ & _ & [(e & Y & _)|(b' & _ & Y & _)]); rewrite Y in F; discriminate F.
      + rewrite E in F. injection F as ->. cbn [held_rq] in H. exists k', b. congruence.
  Qed.
  Lemma moves_calls look o l (s : st) ns : ConsumerSteps.piece cfg look o l s ns -> c_calls (snd ns) = c_calls s.
  Proof. intros [(ex & M & _) _ _ _]. apply M. Qed.
  (** what a call holds after a step of its own it held before *)
  Lemma held_step (s : st) l : ConsumerRuns.inv cfg s -> single s -> single (cstep cfg s l) /\
    forall i o p o' p' rq, dget (c_calls s) i = Some (o, p) -> dget (c_calls (cstep cfg s l)) i = Some (o', p') -> held_rq p' = Some rq -> held_rq p = Some rq.
  Proof.
    intros I0 SG. pose proof (cstep_did cfg s l I0) as D. remember (cstep cfg s l) as s' eqn:EQ. clear EQ. destruct I0 as [ND FI].
    assert (KEY : forall i o ns, c_calls (snd ns) = c_calls s -> only_new (fst ns) -> (forall o0 p0 p rq, dget (c_calls s) i = Some (o0, p0) -> fst ns = Await p -> held_rq p = Some rq -> held_rq p0 = Some rq) -> s' = continue i o ns ->
      single s' /\ forall i o p o' p' rq, dget (c_calls s) i = Some (o, p) -> dget (c_calls s') i = Some (o', p') -> held_rq p' = Some rq -> held_rq p = Some rq).
    { intros i o ns CC ON HK ->. split.
      - intros j o' k w rs rq H. rewrite (continue_same i o ns s ND CC j) in H. destruct (j =? i); [|now apply (SG j o' k w rs)]. destruct (fst ns) as [p|v|e] eqn:FN; try discriminate H. injection H as <- ->. now apply (ON k w rs rq).
      - intros j o1 p1 o2 p2 rq H1 H2. rewrite (continue_same i o ns s ND CC j) in H2. destruct (Z.eqb_spec j i) as [->|]; [|congruence]. destruct (fst ns) as [p|v|e] eqn:FN; try discriminate H2. injection H2 as <- ->. intros H. eapply HK; [exact H1|reflexivity|exact H]. }
    assert (ID : c_calls s' = c_calls s -> single s' /\ forall i o p o' p' rq, dget (c_calls s) i = Some (o, p) -> dget (c_calls s') i = Some (o', p') -> held_rq p' = Some rq -> held_rq p = Some rq).
    { intros E. split; [unfold single; rewrite E; exact SG|]. rewrite E. congruence. }
    assert (FOL : forall k n p rq, follows k n -> n = Await p -> held_rq p = Some rq -> cont_rq k = Some rq).
    { intros k n p rq [T|[(rs & ->)|(k' & b & rq' & -> & E & E')]] H; [subst n; cbn in T; congruence|injection H as <-; auto|injection H as <-; cbn; congruence]. }
    assert (TAM : forall n p rq, tame n -> n = Await p -> held_rq p = Some rq -> False) by (intros n p rq T -> H; cbn in T; congruence).
    inversion D as [l0 IL E1 E2|i o ns D0 NS P E1 E2|i b r o k w rs rq0 D0 F W IA HF NE F' E1 E2|i b r o k w rs rq0 ns D0 F W IA E P E1 E2|i r o k rs s1 ns D0 F E P E1 E2|i r t start ns D0 E P E1 E2|k E1 E2|g fn ac name ev M E1 E2|E1 E2]; clear D; try rewrite E2.
    - subst s'. split; [exact SG|congruence].
    - apply (KEY i o ns); [eapply moves_calls, P| | |congruence].
      + intros k w rs rq X Y. subst ns. destruct (begin_single o s _ rq X Y) as (k' & b & Z). injection Z as -> -> ->. eauto.
      + congruence.
    - assert (NH : cont_rq k = None).
      { destruct (cont_rq k) as [rq|] eqn:K; [|reflexivity]. exfalso. destruct (SG _ _ _ _ _ _ D0 K) as (b0 & ->). cbn in W, NE. destruct (b0 =? b) eqn:B; [now apply NE|discriminate W]. }
      eapply (KEY i o (Await (PSend k (ddel w b) (answer_results cfg b r rs s)), answer_state cfg r s)); [apply answer_state_same| | |congruence].
      + cbn [fst]. intros k1 w1 rs1 rq1 X Y. injection X as <- <- <-. congruence.
      + cbn [fst]. intros o0 p0 p rq _ X Y. injection X as <-. cbn in Y. congruence.
    - destruct (paid_some cfg k rs) as (lv & PA). specialize (P lv PA). assert (CC : c_calls (snd ns) = c_calls s) by (rewrite (moves_calls _ _ _ _ _ P); apply answer_state_same).
      assert (FO : tame (fst ns) \/ follows k (fst ns)) by (destruct E as [(_ & _ & ->)|(e & _ & ->)]; [right; apply send_end_follows|left; apply tame_raised]).
      apply (KEY i o ns); [exact CC|destruct FO; [now apply tame_new|eapply follows_new; eassumption]| |congruence]. intros o0 p0 p rq H X Y. rewrite D0 in H. injection H as <- <-. cbn. destruct FO as [T|T]; [destruct (TAM _ _ _ T X Y)|eapply FOL; eassumption].
    - destruct (paid_some cfg k rs) as (lv & PA). specialize (P lv PA). assert (CC : c_calls (snd ns) = c_calls s) by (rewrite (moves_calls _ _ _ _ _ P); destruct E as [(u & _ & -> & _)|(e & _ & -> & _)]; reflexivity).
      assert (FO : tame (fst ns) \/ follows k (fst ns)) by (destruct E as [(u & _ & _ & ->)|(e & _ & _ & ->)]; [right; apply resume_follows|left; apply tame_raised]).
      apply (KEY i o ns); [exact CC|destruct FO; [now apply tame_new|eapply follows_new; eassumption]| |congruence]. intros o0 p0 p rq H X Y. rewrite D0 in H. injection H as <- <-. cbn. destruct FO as [T|T]; [destruct (TAM _ _ _ T X Y)|eapply FOL; eassumption].
    - assert (T : tame (fst ns)) by (destruct E as [(u & _ & ->)|(e & _ & ->)]; [apply tame_fetch|exact I]).
      apply (KEY i (OpConsume t start) ns); [eapply moves_calls, P|now apply tame_new| |congruence]. intros o0 p0 p rq _ X Y. destruct (TAM _ _ _ T X Y).
    - apply ID. rewrite <- E2. reflexivity.
    - apply ID. rewrite <- E2. reflexivity.
    - apply ID. rewrite <- E2. reflexivity.
  Qed.
  Lemma single_init k name : single (consumer_init k name).
  Proof. intros i o k0 w rs rq H. discriminate H. Qed.
End Held.
