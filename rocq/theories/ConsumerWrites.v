(** What a piece of the consumer writes: when it ends in a send(), exactly the requests of that send() whose connection is
    not closing, all of which serialize() accepts and all of whose brokers are known. *)
From Coq Require Import ZArith String List Bool Lia.
From Verif Require Import PyBase BaseLemmas Constants Cluster Zookeeper Consumer SpecConsumer ConsumerProofs ConsumerSteps ConsumerRuns.
Import ListNotations.
Open Scope Z_scope.
Set Default Proof Using "Type".

Section Writes.
  Context {V : Type}.
  Variable cfg : config V.
  Notation st := (consumer V).
  Definition out_of (s : st) (w : list (Z * request)) : list (Z * request) := filter (fun br => open_conn s (fst br)) w.
  Definition new_send (n : next V) (P : dict Z request -> Prop) : Prop := match n with Await (PSend _ w _) => P w | _ => True end.
  Definition writes (s : st) (ns : next V * st) : Prop := exists ex,
    c_wire (snd ns) = c_wire s ++ ex /\ k_conns (c_cluster (snd ns)) = k_conns (c_cluster s) /\
    (forall b rq, In (b, rq) ex -> unsendable cfg rq = None /\ open_conn s b = true) /\
    new_send (fst ns) (fun w => ex = out_of s w /\ forall b rq, In (b, rq) w -> dget (k_conns (c_cluster s)) b <> None).
  Definition still (s s' : st) : Prop := c_wire s' = c_wire s /\ k_conns (c_cluster s') = k_conns (c_cluster s).
  Lemma still_trans s1 s2 s3 : still s1 s2 -> still s2 s3 -> still s1 s3.
  Proof. intros [A B] [C D]. split; congruence. Qed.
  Lemma still_quiet s s' : quiet cfg s s' -> still s s'.
  Proof. intros Q. split; apply Q. Qed.
  Lemma out_still s s' w : k_conns (c_cluster s') = k_conns (c_cluster s) -> out_of s' w = out_of s w.
  Proof. intros E. unfold out_of. apply filter_ext. intros [b rq]. unfold open_conn. now rewrite E. Qed.
  Lemma writes_pre s s1 ns : still s s1 -> writes s1 ns -> writes s ns.
  Proof.
    intros [A B] (ex & W & K & U & N). exists ex. split; [congruence|]. split; [congruence|]. split.
    - intros b rq H. destruct (U b rq H) as [U1 U2]. split; [exact U1|]. revert U2. unfold open_conn. now rewrite B.
    - unfold new_send in *. destruct (fst ns) as [[k w rs|k rs|t]|v|e]; auto. rewrite (out_still s s1 w B) in N. now rewrite B in N.
  Qed.
  Lemma writes_none s s' n : still s s' -> new_send n (fun _ => False) -> writes s (n, s').
  Proof. intros [A B] N. exists []. rewrite app_nil_r. split; [exact A|]. split; [exact B|]. split; [intros b rq []|]. cbn [fst]. destruct n as [[k w rs|k rs|t]|v|e]; [destruct N|..]; exact I. Qed.
  Lemma still_refl s : still s s.
  Proof. now split. Qed.
  Hint Resolve still_refl : core.
  Ltac nothing := apply writes_none; [|exact I].

  Lemma send_all_writes rqs : forall (s : st), exists ex, c_wire (snd (send_all cfg rqs s)) = c_wire s ++ ex /\ k_conns (c_cluster (snd (send_all cfg rqs s))) = k_conns (c_cluster s) /\
    (forall b rq, In (b, rq) ex -> unsendable cfg rq = None /\ open_conn s b = true) /\
    (fst (send_all cfg rqs s) = Ok tt -> ex = out_of s rqs /\ forall b rq, In (b, rq) rqs -> dget (k_conns (c_cluster s)) b <> None).
  Proof.
    induction rqs as [|[b rq] rqs IH]; intros s; cbn [send_all].
    - exists []. rewrite app_nil_r. split; [reflexivity|]. split; [reflexivity|]. split; [intros b rq []|]. intros _. split; [reflexivity|intros b rq []].
    - assert (N : forall e, exists ex, c_wire (snd (@Err unit e, s)) = c_wire s ++ ex /\ k_conns (c_cluster (snd (@Err unit e, s))) = k_conns (c_cluster s) /\
        (forall b rq, In (b, rq) ex -> unsendable cfg rq = None /\ open_conn s b = true) /\
        (fst (@Err unit e, s) = Ok tt -> ex = out_of s ((b, rq) :: rqs) /\ forall b0 rq0, In (b0, rq0) ((b, rq) :: rqs) -> dget (k_conns (c_cluster s)) b0 <> None)).
      { intros e. exists []. rewrite app_nil_r. split; [reflexivity|]. split; [reflexivity|]. split; [intros b0 rq0 []|discriminate]. }
      destruct (dget (k_conns (c_cluster s)) b) as [cn|] eqn:G; [|apply N]. destruct (cc_closing cn) eqn:CC.
      + destruct (IH s) as (ex & W & K & U & X). exists ex. split; [exact W|]. split; [exact K|]. split; [exact U|]. intros H. destruct (X H) as [X1 X2]. split.
        * unfold out_of in *. cbn [filter fst]. replace (open_conn s b) with false by (unfold open_conn; now rewrite G, CC). exact X1.
        * intros b0 rq0 [E|E]; [injection E as <- <-; congruence|eapply X2, E].
      + destruct (unsendable cfg rq) as [e|] eqn:US; [apply N|]. destruct (IH (set_wire (c_wire s ++ [(b, rq)]) s)) as (ex & W & K & U & X). exists ((b, rq) :: ex).
        assert (OB : open_conn s b = true) by (unfold open_conn; now rewrite G, CC). split; [rewrite W; cbn [set_wire c_wire]; now rewrite <- app_assoc|]. split; [exact K|]. split.
        * intros b0 rq0 [E|E]; [injection E as <- <-; auto|now apply U].
        * intros H. destruct (X H) as [X1 X2]. split; [unfold out_of in *; cbn [filter fst]; rewrite OB; f_equal; exact X1|]. intros b0 rq0 [E|E]; [injection E as <- <-; congruence|eapply X2, E].
  Qed.
  Lemma send_all_end rqs s n : (forall u, fst (send_all cfg rqs s) = Ok u -> new_send n (fun w => w = rqs)) -> (forall e, fst (send_all cfg rqs s) = Err e -> new_send n (fun _ => False)) -> writes s (n, snd (send_all cfg rqs s)).
  Proof.
    intros A B. destruct (send_all_writes rqs s) as (ex & W & K & U & X). exists ex. cbn [fst snd]. split; [exact W|]. split; [exact K|]. split; [exact U|].
    destruct n as [[k w rs|k rs|t]|v|e]; try exact I. cbn [new_send] in *. destruct (fst (send_all cfg rqs s)) as [[]|e]; [|destruct (B _ eq_refl)]. specialize (A tt eq_refl). subst w. now apply X.
  Qed.
  Lemma send_one_writes k b rq s : writes s (send_one cfg k b rq s).
  Proof.
    unfold send_one. destruct b as [b|]; [|nothing; auto]. pose proof (send_all_end [(b, rq)] s) as H. destruct (send_all cfg [(b, rq)] s) as [[u|e] s1]; cbn [fst snd] in H; apply H; try discriminate; cbn; auto.
  Qed.
  Lemma commit_writes m ret s : writes s (commit_offsets cfg m ret s).
  Proof.
    unfold commit_offsets. destruct (md cfg) as [|g fn ac name]; [nothing; auto|]. pose proof (alloc_map_quiet cfg s) as Q. destruct (alloc_map cfg s) as [[am|e] s1]; cbn [snd] in Q; [|nothing; now apply still_quiet].
    set (m' := match m with Some x => x | None => _ end). destruct (commit_topics_spec cfg am m' s1) as (Q2 & _). destruct (commit_topics am m' s1) as [topics s2]. cbn [snd] in Q2.
    eapply writes_pre; [|apply send_one_writes]. eapply still_trans; apply still_quiet; eassumption.
  Qed.
  Lemma base_done_writes t v s : writes s (base_done cfg t v s).
  Proof. unfold base_done. destruct (md cfg) as [|g fn ac name]; [nothing; auto|]. destruct (negb (smem (c_synced s) t)); [nothing; auto|]. destruct ac; [|nothing; now split]. eapply writes_pre; [|apply commit_writes]. now split. Qed.
  Lemma fetch_writes t s : writes s (fetch cfg t s).
  Proof.
    unfold fetch. destruct (allocated_spec cfg t s) as (Q1 & _). destruct (allocated cfg t s) as [[[|]|e] s1]; cbn [snd] in Q1; apply still_quiet in Q1; [|eapply writes_pre; [exact Q1|apply base_done_writes]|nothing; exact Q1].
    destruct (alloc_index_spec cfg t s1) as (Q2 & _). destruct (alloc_index cfg t s1) as [[ps|e] s2]; cbn [snd] in Q2; apply still_quiet in Q2; pose proof (still_trans _ _ _ Q1 Q2) as Q12; [|nothing; exact Q12].
    destruct (order_leaders_spec cfg t ps [] s2) as (Q3 & _). destruct (order_leaders t ps [] s2) as [[ord|e] s3]; cbn [snd] in Q3; apply still_quiet in Q3; pose proof (still_trans _ _ _ Q12 Q3) as Q13; [|nothing; exact Q13].
    destruct (fetch_requests_spec cfg t ord s3) as (Q4 & _). destruct (fetch_requests cfg t ord s3) as [rqs s4]. cbn [snd] in Q4. apply still_quiet in Q4. eapply writes_pre; [exact (still_trans _ _ _ Q13 Q4)|].
    pose proof (send_all_end rqs s4) as H. destruct (send_all cfg rqs s4) as [[u|e] s5]; cbn [fst snd] in H; apply H; try discriminate; cbn; auto.
  Qed.
  Lemma after_writes t s : writes s (after_offsets cfg t s).
  Proof.
    unfold after_offsets. destruct (allocated_spec cfg t s) as (Q1 & _). destruct (allocated cfg t s) as [[[|]|e] s1]; cbn [snd] in Q1; apply still_quiet in Q1; [eapply writes_pre; [exact Q1|apply fetch_writes]|nothing; exact Q1|nothing; exact Q1].
  Qed.
  Lemma raised_writes k e s : writes s (raised cfg k e s).
  Proof. unfold raised. destruct k; try (nothing; now auto). destruct e; try (nothing; now auto). apply base_done_writes. Qed.
  Lemma coord_next_writes g rest s : writes s (coord_next cfg g rest s).
  Proof. unfold coord_next. destruct (match rest with [] => _ | _ => rest end) as [|b r]; [nothing; auto|apply send_one_writes]. Qed.
  Lemma send_one_raise k b rq s e s1 : send_one cfg k b rq s = (Raise_ e, s1) -> still s s1.
  Proof.
    intros E. unfold send_one in E. destruct b as [b|]; [|injection E as _ <-; auto]. cbn [send_all] in E. destruct (dget (k_conns (c_cluster s)) b) as [cn|]; [|injection E as _ <-; auto]. destruct (cc_closing cn); [discriminate E|].
    destruct (unsendable cfg rq); [injection E as _ <-; auto|discriminate E].
  Qed.
  Lemma resume_writes k rs s : writes s (resume cfg k rs s).
  Proof.
    assert (A : forall t, writes s (after_offsets cfg t (set_synced (sadd (c_synced s) t) s))) by (intros t; eapply writes_pre; [|apply after_writes]; now split).
    destruct k as [t rq|t|m ret|asked rest]; cbn [resume].
    - destruct (md cfg) as [|g fn ac name]; [apply A|]. destruct rq as [rq|]; [|apply A]. destruct (coord_result rs s) as [h|e]; [|apply raised_writes]. destruct h as [|l|[|]|a b]; try apply A.
      pose proof (send_one_writes (KOffsets t (Some rq)) (c_coord s) rq s) as W. destruct (send_one cfg _ _ _ s) as [[p|v|e] s1] eqn:E; try exact W. eapply writes_pre; [eapply send_one_raise, E|apply raised_writes].
    - apply base_done_writes.
    - destruct (coord_result rs s) as [h|e]; [|nothing; auto]. destruct h as [|l|b|[|] b]; try (nothing; now auto). apply commit_writes.
    - destruct (dindex rs asked) as [h|e]; [|nothing; auto]. destruct h as [|l|[|]|a b]; destruct (md cfg) as [|g fn ac name]; try (nothing; now auto); apply coord_next_writes.
  Qed.
  Lemma send_end_writes k rs s : writes s (send_end cfg k rs s).
  Proof. unfold send_end. destruct (c_heal s); [nothing; auto|apply resume_writes]. Qed.
  Lemma determine_writes t start s : writes s (determine_offsets cfg t start s).
  Proof.
    unfold determine_offsets. destruct (alloc_index_spec cfg t s) as [Q1 _]. destruct (md cfg) as [|g fn ac name].
    - destruct (alloc_index cfg t s) as [[ps|e] s1]; cbn [snd] in Q1; apply still_quiet in Q1; [|nothing; exact Q1]. set (time := start_to_timestamp cfg _). pose proof (offset_requests_quiet cfg t time ps [] s1) as Q2.
      destruct (offset_requests t time ps [] s1) as [[rqs|e] s2]; cbn [snd] in Q2; apply still_quiet in Q2; pose proof (still_trans _ _ _ Q1 Q2) as Q12; [|nothing; exact Q12]. eapply writes_pre; [exact Q12|].
      destruct rqs as [|r rqs]; [cbn [send_all]; apply send_end_writes|]. pose proof (send_all_end (r :: rqs) s2) as H. destruct (send_all cfg (r :: rqs) s2) as [[u|e] s3]; cbn [fst snd] in H; apply H; try discriminate; cbn; auto.
    - destruct (alloc_index cfg t s) as [[ps|e] s1]; cbn [snd] in Q1; apply still_quiet in Q1; [|nothing; exact Q1]. cbv zeta. eapply writes_pre; [exact Q1|apply send_one_writes].
  Qed.
  Lemma consume_writes t start s : writes s (consume cfg t start s).
  Proof.
    unfold consume. destruct (c_closing s); [apply base_done_writes|]. destruct (smem (c_synced s) t); [apply after_writes|]. set (start' := match md cfg with Single => start | _ => None end).
    pose proof (determine_writes t start' s) as W. pose proof (determine_raise cfg t start' s) as DR. destruct (determine_offsets cfg t start' s) as [[p|v|e] s1]; try exact W. destruct (md cfg) as [|g fn ac name] eqn:M.
    - assert (E : exists n, raised cfg (KOffsets t None) e s1 = (n, s1) /\ new_send n (fun _ => False)) by (unfold raised, base_done; rewrite M; destruct e; eexists; (split; [reflexivity|exact I])). destruct E as (n & -> & N).
      destruct W as (ex & W & K & U & _). exists ex. cbn [fst snd] in *. split; [exact W|]. split; [exact K|]. split; [exact U|]. destruct n as [[k w rs|k rs|t']|v|e']; [destruct N|..]; exact I.
    - eapply writes_pre; [apply still_quiet; eapply DR; reflexivity|apply raised_writes].
  Qed.
  Lemma begin_writes o s : writes s (begin cfg o s).
  Proof. destruct o as [t start|m|]; cbn [begin]; [apply consume_writes|apply commit_writes|]. destruct (md cfg) as [|g fn ac name]; [nothing; auto|apply coord_next_writes]. Qed.

  (** ** a step *)
  Lemma answer_still r s : still s (answer_state cfg r s).
  Proof. destruct (answer_state_same cfg r s) as (_ & _ & _ & A & _ & B). split; [exact B|now rewrite A]. Qed.
  (** what a step writes, and what the call waits for after it *)
  Record step_writes (s : st) (i : Z) (s' : st) : Prop := {
    sw_wire : exists ex, c_wire s' = c_wire s ++ ex /\ (forall b rq, In (b, rq) ex -> unsendable cfg rq = None /\ open_conn s b = true) /\
      (forall o k w rs, dget (c_calls s') i = Some (o, PSend k w rs) -> ex = out_of s w /\ forall b rq, In (b, rq) w -> dget (k_conns (c_cluster s)) b <> None);
    sw_conns : k_conns (c_cluster s') = k_conns (c_cluster s) }.
  Lemma continue_writes s s1 i o ns : ConsumerRuns.inv cfg s1 -> c_calls (snd ns) = c_calls s1 -> still s s1 -> writes s1 ns -> step_writes s i (continue i o ns).
  Proof.
    intros I CC ST W. apply (writes_pre s) in W; [|exact ST]. destruct W as (ex & W & K & U & N). assert (ND : NoDup (dkeys (c_calls (snd ns)))) by (rewrite CC; apply I).
    destruct (continue_same i o ns) as (_ & _ & _ & _ & CL & _ & _ & _ & CW). constructor; [|congruence]. exists ex. split; [congruence|]. split; [exact U|].
    intros o' k w rs D. destruct (continue_calls i o ns i ND) as [_ X]. rewrite D, Z.eqb_refl in X. destruct (fst ns) as [p|v|e]; try discriminate X. injection X as <- <-. exact N.
  Qed.
  (** no broker is written to twice *)
  Lemma nodup_filter_keys (P : Z * request -> bool) (l : dict Z request) : NoDup (map fst l) -> NoDup (map fst (filter P l)).
  Proof.
    induction l as [|[b rq] l IH]; intros N; [constructor|]. inversion N as [|? ? N1 N2]; subst. cbn [filter]. destruct (P (b, rq)); [|auto]. cbn [map fst]. constructor; [|auto].
    intros H. apply N1. apply in_map_iff in H as ([b' rq'] & E & H). apply filter_In in H as [H _]. apply in_map_iff. exists (b', rq'). auto.
  Qed.
  Lemma nodup_prefix {A B} (l a b : list (A * B)) : NoDup (map fst l) -> l = a ++ b -> NoDup (map fst a).
  Proof. intros N ->. rewrite map_app in N. revert N. generalize (map fst b). clear b. intros b. induction (map fst a) as [|x l' IH]; intros N; [constructor|]. inversion N as [|? ? N1 N2]; subst. constructor; [intros H; apply N1; apply in_app_iff; now left|auto]. Qed.
  Lemma sends_nodup o look s' n ex : sends cfg o look s' n ex -> NoDup (map fst ex).
  Proof.
    intros S. inversion S; subst; try (cbn; repeat constructor; now intros []).
    - apply nodup_filter_keys. match goal with F : fetching _ _ _ _ |- _ => destruct F as (_ & ND & _) end. eapply nodup_prefix; [exact ND|reflexivity].
    - apply nodup_filter_keys. match goal with F : looking _ _ _ _ _ |- _ => destruct F as (ND & _) end. eapply nodup_prefix; [exact ND|reflexivity].
  Qed.
  Lemma sent_nodup s l : ConsumerRuns.inv cfg s -> NoDup (map fst (sent cfg s l)).
  Proof.
    intros I. destruct (step_cases cfg s l I) as [(i & o & look & s1 & ns & ex & A)|H].
    - destruct (acts_sent _ _ _ _ _ _ _ _ _ A) as [-> _]. eapply sends_nodup. apply (ac_sends _ _ _ _ _ _ _ _ _ A).
    - replace (sent cfg s l) with (@nil (Z * request)); [constructor|]. symmetry. apply sent_eq. rewrite app_nil_r. destruct H as [(-> & _)|[(k & _ & ->)|[(_ & ->)|(g & fn & ac & name & ev & _ & _ & ->)]]]; reflexivity.
  Qed.

  (** the calls whose piece runs *)
  Lemma call_writes s i o : ConsumerRuns.inv cfg s -> dget (c_calls s) i = None -> step_writes s i (cstep cfg s (Call i o)).
  Proof.
    intros I D. pose proof (cstep_did cfg s (Call i o) I) as H. remember (cstep cfg s (Call i o)) as s' eqn:EQ. inversion H as [l ID E1 E2|i0 o0 ns D0 E P E1 E2| | | | | | |]; clear H; [exfalso; apply ID; rewrite <- E2; exact D|].
    subst i0 o0 ns. destruct P as [(ex & M & _) _ _ _]. eapply continue_writes; [exact I|apply M|apply still_refl|apply begin_writes].
  Qed.
  Lemma healed_writes s i r o p : ConsumerRuns.inv cfg s -> dget (c_calls s) i = Some (o, p) -> (forall k w rs, p <> PSend k w rs) -> step_writes s i (cstep cfg s (Healed i r)).
  Proof.
    intros I D NP. pose proof (cstep_did cfg s (Healed i r) I) as H. remember (cstep cfg s (Healed i r)) as s' eqn:EQ. inversion H as [l ID E1 E2| | | |i0 r0 o0 k rs s1 ns D0 F E P E1 E2|i0 r0 t start ns D0 E P E1 E2| | |]; clear H.
    - exfalso. rewrite E2 in D. destruct (ID _ _ D) as (k & w & rs & X). now apply (NP k w rs).
    - subst i0 r0. destruct (paid_some cfg k rs) as [lv PD]. destruct (P lv PD) as [(ex & M & _) _ _ _].
      assert (W : writes s1 ns) by (destruct E as [(u & _ & _ & ->)|(e & _ & _ & ->)]; [apply resume_writes|apply raised_writes]). assert (S1 : still s s1 /\ c_calls s1 = c_calls s) by (destruct E as [(u & _ & -> & _)|(e & _ & -> & _)]; now split).
      destruct S1 as [S1 S2]. eapply (continue_writes s s1); [|apply M|exact S1|exact W]. destruct I as [I1 I2]. split; rewrite S2; assumption.
    - subst i0 r0. destruct P as [(ex & M & _) _ _ _]. eapply continue_writes; [exact I|apply M|apply still_refl|]. destruct E as [(u & _ & ->)|(e & _ & ->)]; [apply fetch_writes|apply writes_none; [apply still_refl|exact Logic.I]].
  Qed.
  Lemma arrive_writes s i b r o k w rs rq : ConsumerRuns.inv cfg s -> dget (c_calls s) i = Some (o, PSend k w rs) -> dget w b = Some rq -> is_answer rq r = true ->
    (step_writes s i (cstep cfg s (Arrive i b r)) /\ (handler_fails cfg r s <> None \/ ddel w b = [])) \/
    (handler_fails cfg r s = None /\ ddel w b <> [] /\ still s (cstep cfg s (Arrive i b r)) /\ exists rs', dget (c_calls (cstep cfg s (Arrive i b r))) i = Some (o, PSend k (ddel w b) rs')).
  Proof.
    intros I D W IA. pose proof (cstep_did cfg s (Arrive i b r) I) as H. remember (cstep cfg s (Arrive i b r)) as s' eqn:EQ.
    inversion H as [l ID E1 E2| |i0 b0 r0 o0 k0 w0 rs0 rq0 D0 F W0 IA0 HF NE F' E1 E2|i0 b0 r0 o0 k0 w0 rs0 rq0 ns D0 F W0 IA0 E P E1 E2| | | | |]; clear H.
    - exfalso. rewrite E2 in D. rewrite (ID _ _ _ _ _ D W) in IA. discriminate IA.
    - subst i0 b0 r0. rewrite D in D0. injection D0 as <- <- <- <-. right. split; [exact HF|]. split; [exact NE|].
      destruct (continue_same i o (Await (PSend k (ddel w b) (answer_results cfg b r rs s)), answer_state cfg r s)) as (_ & _ & _ & _ & CL & _ & _ & _ & CW). cbn [snd] in *. destruct (answer_still r s) as [A1 A2]. split; [split; congruence|].
      exists (answer_results cfg b r rs s). assert (ND : NoDup (dkeys (c_calls (answer_state cfg r s)))) by (rewrite answer_state_calls; apply I).
      destruct (continue_calls i o (Await (PSend k (ddel w b) (answer_results cfg b r rs s)), answer_state cfg r s) i ND) as [_ X]. now rewrite Z.eqb_refl in X.
    - subst i0 b0 r0. rewrite D in D0. injection D0 as <- <- <- <-. left. destruct (paid_some cfg k rs) as [lv PD]. destruct (P lv PD) as [(ex & M & _) _ _ _]. split.
      + eapply (continue_writes s (answer_state cfg r s)); [|apply M|apply answer_still|].
        * destruct I as [I1 I2]. split; rewrite answer_state_calls; assumption.
        * destruct E as [(_ & _ & ->)|(e & _ & ->)]; [apply send_end_writes|apply raised_writes].
      + destruct E as [(_ & E & _)|(e & E & _)]; [now right|left; congruence].
  Qed.
End Writes.
