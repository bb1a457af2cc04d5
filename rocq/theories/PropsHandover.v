(** Property C111: with clean hand-overs a group delivers each message once, over all its rebalances. *)
From Coq Require Import ZArith Lia String List Bool Sorting.Sorted.
From Verif Require Import GroupProofs PyBase BaseLemmas Constants Cluster Zookeeper SpecZk ZkAlloc Consumer SpecConsumer ConsumerProofs ConsumerSteps ConsumerRuns PropsConsumer SpecGroup PropsGroup SpecLog FollowRuns PropsLog SpecGroupLog PropsGroupLog SpecShare Group SpecGroupRun GroupRuns SpecGroupAny PropsGroupAny Crew SpecCrew CrewProofs PropsCrew SpecOnce OnceProofs PropsOnce SpecHandover.
From Verif Require SpecTeam TeamProofs.
Import ListNotations.
Open Scope Z_scope.

Lemma turn_forward {V} t log (T : turn (V := V)) p : (forall p, is_log (log p)) -> undisturbed_turn t log T -> position (tn_start T) t p <= position (tn_end T) t p.
Proof.
  intros LOG (_ & AS & UN & NR). destruct (forward (tn_cfg T) t log (tn_start T) (tn_steps T) [] p LOG AS) as [H _]; [now rewrite app_nil_r|rewrite app_nil_r; exact NR|exact H].
Qed.
Lemma over_forward {V} t log p a (Es : list (epoch (V := V))) b : (forall p, is_log (log p)) -> Forall (Forall (undisturbed_turn t log)) Es -> handed_over t p a Es b -> a <= b.
Proof.
  intros LOG F H. induction H as [a|T Ts Es b IT O H IH|Ts Es a b N H IH]; [lia| |].
  - inversion F as [|? ? F1 F2]; subst. specialize (IH F2). rewrite Forall_forall in F1. pose proof (turn_forward t log T p LOG (F1 T IT)). lia.
  - inversion F; subst. auto.
Qed.
Lemma same_readable {V} (c c' : config V) l : deser c = deser c' -> readable c l = readable c' l.
Proof. intros E. unfold readable. now rewrite E. Qed.
Lemma readable_split {V} (c : config V) l l' : readable c (l ++ l') = readable c l ++ readable c l'.
Proof. unfold readable. apply flat_map_app. Qed.

(** A group over any number of rebalances: between two of them its members do whatever they do, and the partitions are
    shared out among them (C101).  What all of them deliver, over the whole time, from a partition that is handed over clean from
    position [a] to position [b] is exactly the readable messages of its log between [a] and [b], in order, none missing.
    If every partition is handed over clean, no message is delivered twice. *)
Theorem C111_exactly_once {V} (c : config V) t log Es : (forall p, is_log (log p)) ->
  Forall (Forall (undisturbed_turn t log)) Es -> Forall (shared_out t) Es -> (forall Ts T, In Ts Es -> In T Ts -> deser (tn_cfg T) = deser c) ->
  exists Dss, Forall2 (Forall2 (delivers t)) Es Dss /\ let all := concat (map (@concat _) Dss) in
    (forall p a b, handed_over t p a Es b -> of_partition p all = readable c (between a b (log p))) /\
    ((forall p, exists a b, handed_over t p a Es b) -> NoDup (map message_of all)).
Proof.
  intros LOG F S DE.
  assert (X : exists Dss, Forall2 (Forall2 (delivers t)) Es Dss /\ forall p a b, handed_over t p a Es b -> of_partition p (concat (map (@concat _) Dss)) = readable c (between a b (log p))).
  { induction Es as [|Ts Es IH]. { exists []. split; [constructor|]. intros p a b H. inversion H; subst. cbn [map concat]. replace (between b b (log p)) with (@nil (Z * pymsg)); [reflexivity|]. symmetry. unfold between. clear. induction (log p) as [|[o m] l IH]; [reflexivity|]. cbn [filter fst]. destruct (Z.leb_spec b o), (Z.ltb_spec o b); try lia; exact IH. }
    inversion F as [|? ? F1 F2]; subst. inversion S as [|? ? S1 S2]; subst. destruct (IH F2 S2) as (Dss & A & B); [intros Ts' T H; apply DE; now right|].
    destruct (C101_exactly_once t log Ts LOG F1 S1) as (Ds & D1 & D2 & D3 & _). exists (Ds :: Dss). split; [now constructor|]. intros p a b H. cbn [map concat]. rewrite of_partition_app.
    inversion H as [|T ? ? ? IT O H'|? ? ? ? N H']; subst.
    - rewrite (D2 T p IT O), (B _ _ _ H'), (same_readable (tn_cfg T) c _ (DE Ts T (or_introl eq_refl) IT)), <- readable_split. f_equal. symmetry. apply between_split; [apply LOG| |exact (over_forward t log p _ Es b LOG F2 H')]. rewrite Forall_forall in F1. exact (turn_forward t log T p LOG (F1 T IT)).
    - rewrite (of_partition_none p (concat Ds)); [exact (B _ _ _ H')|]. intros d I0 E. destruct (D3 d I0) as (T & IT & O). rewrite E in O. exact (N T IT O). }
  destruct X as (Dss & A & B). exists Dss. split; [exact A|]. cbv zeta. split; [exact B|]. intros AL. apply messages_nodup. intros p. destruct (AL p) as (a & b & H). rewrite (B p a b H). apply readable_offsets, log_nodup, LOG.
Qed.

(** When a partition is handed over clean: a member whose program commits with autocommit off while no consume(t) runs, and then calls
    consume(t) no more until the rebalance, has committed the position at which it stops.  Whoever looks up this offset
    next goes on there. *)
Section Clean.
  Context {V : Type}.
  Variable cfg : config V.
  Variable t : text.
  Variable log : Z -> list (Z * pymsg).
  Variables (g nm : text) (fn : list text -> list text -> res mapping).
  Hypothesis AA : SpecTeam.full_allocator fn.
  Hypothesis MD : md cfg = Grouped g fn false nm.
  Notation st := (consumer V).
  Lemma free_position (s : st) l p : reachable cfg s -> undisturbed t log cfg s l -> ~ busy s t -> position (cstep cfg s l) t p = position s t p.
  Proof using AA MD.
    intros R [_ U] NB. destruct (Z.eq_dec (position (cstep cfg s l) t p) (position s t p)) as [X|X]; [exact X|]. exfalso. destruct (C38_only_answers_move cfg s l t p R X) as (j & b & r & -> & NM).
    destruct (TeamProofs.idle_dec cfg s j b r) as [(o & k & w & rs & rq & D & W & A)|ID]; [|now rewrite ID in X]. assert (WF : waits_for s j b rq) by (exists o, k, w, rs; auto). specialize (U rq WF A).
    apply NB. exists j, o, (PSend k w rs). split; [exact D|]. exact (TeamProofs.named_topic cfg t log g nm fn AA MD s j b r o k w rs rq (ConsumerRuns.reach_inv cfg s R) D W A U NM).
  Qed.
  Lemma free_step (s : st) l : inv cfg s -> ~ busy s t -> (forall i start, l <> Call i (OpConsume t start)) -> ~ busy (cstep cfg s l) t.
  Proof.
    intros I0 NB NC (i & o & p & D & OT). destruct (calls_step cfg s l i o p I0 D) as [(p' & D')|E]; [apply NB; now exists i, o, p'|]. destruct o as [t' start|m|]; try contradiction OT. cbn in OT. rewrite OT in E. exact (NC i start E).
  Qed.
  Lemma free_run ls p : forall s : st, reachable cfg s -> each_step cfg (undisturbed t log cfg) ls s -> ~ busy s t -> (forall i start, ~ In (Call i (OpConsume t start)) ls) -> position (crun cfg ls s) t p = position s t p.
  Proof using AA MD.
    induction ls as [|l ls IH]; intros s R U NB NC; [reflexivity|]. destruct U as [U1 U2]. change (crun cfg (l :: ls) s) with (crun cfg ls (cstep cfg s l)). rewrite IH; [now apply free_position| |exact U2| |intros i start H; apply (NC i start); now right].
    - destruct R as (k & n & ls0 & ->). exists k, n, (ls0 ++ [l]). unfold crun. now rewrite fold_left_app.
    - apply free_step; [now apply ConsumerRuns.reach_inv|exact NB|]. intros i start ->. apply (NC i start). now left.
  Qed.
End Clean.
Lemma steps_after {V} (cfg : config V) P ls ls' s : each_step cfg P (ls ++ ls') s -> each_step cfg P ls' (crun cfg ls s).
Proof. revert s. induction ls as [|l ls IH]; intros s H; [exact H|]. destruct H as [_ H]. apply IH, H. Qed.
Theorem C111_clean_commit {V} t log (T : turn (V := V)) ls l ls' p o :
  (exists g fn name, SpecTeam.full_allocator fn /\ md (tn_cfg T) = Grouped g fn false name) -> at_start t (tn_cfg T) (tn_start T) -> each_step (tn_cfg T) (undisturbed t log (tn_cfg T)) (tn_steps T) (tn_start T) ->
  tn_steps T = ls ++ l :: ls' -> ~ busy (crun (tn_cfg T) ls (tn_start T)) t -> (forall i start, ~ In (Call i (OpConsume t start)) (l :: ls')) ->
  commits_at t (tn_cfg T) (crun (tn_cfg T) ls (tn_start T)) l p o -> position (tn_end T) t p = o.
Proof.
  intros (g & fn & nm & AA & MD) AS U E NB NC CM. unfold tn_end. rewrite E in U |- *. apply steps_after in U. set (s := crun (tn_cfg T) ls (tn_start T)) in *.
  assert (R : reachable (tn_cfg T) s). { destruct AS as ((k & n & ls0 & E0) & _). exists k, n, (ls0 ++ ls). unfold s. rewrite E0. unfold crun. now rewrite fold_left_app. }
  replace (crun (tn_cfg T) (ls ++ l :: ls') (tn_start T)) with (crun (tn_cfg T) (l :: ls') s) by (unfold s, crun; now rewrite fold_left_app).
  rewrite (free_run (tn_cfg T) t log g nm fn AA MD (l :: ls') p s R U NB NC). destruct (commit_position (tn_cfg T) t s l p o (ConsumerRuns.reach_inv _ _ R) CM) as [-> _]. symmetry. apply (free_position (tn_cfg T) t log g nm fn AA MD s l p R (proj1 U) NB).
Qed.

Section Committing.
  Context {V : Type}.
  Variable cfg : config V.
  Variable t : text.
  Variable log : Z -> list (Z * pymsg).
  Variables (g nm : text) (fn : list text -> list text -> res mapping) (ac : bool).
  Hypothesis MD : md cfg = Grouped g fn ac nm.
  Notation st := (consumer V).
  Lemma answer_topic (s : st) j b r o k w rs rq : inv cfg s -> dget (c_calls s) j = Some (o, PSend k w rs) -> dget w b = Some rq -> answers rq r = true -> serves_group t log rq r -> ConsumerRuns.named r = Some t -> on_topic t o.
  Proof using MD.
    intros I0 D W A S NM. destruct (proj2 I0 _ _ _ D) as [FC WF]. pose proof (ws_asks _ _ _ _ WF _ _ (dget_In _ _ _ W)) as AK.
    destruct r as [[|[t1 p1] ts]|[|[t1 p1] ts]|[|[t1 p1] ts]|ts|c0 id]; cbn in NM; try discriminate NM; injection NM as ->; destruct rq as [a1 a2 a3 t2 a4|a1 t2 a4|a1 t2 a4|a1 a4|a1]; try discriminate A.
    - destruct S as [[S _] _]. subst t2. destruct o as [t' st'|m|]; destruct k as [t3 [rq0|]|t3|m3 ret|a0 r0]; cbn in FC, AK; try contradiction.
      + destruct FC as [-> F]. rewrite MD in F. destruct F as [ps F]. injection F as ->. discriminate AK.
      + destruct AK as [ps X]. discriminate X.
      + destruct AK as [ps X]. injection X as _ _ _ -> _. cbn. now symmetry.
      + destruct AK as (? & ? & X). discriminate X.
      + destruct AK as (? & ? & X). discriminate X.
      + destruct AK as (_ & ? & X). discriminate X.
    - destruct S as [S _]. cbn in S. subst t2. destruct o as [t' st'|m|]; destruct k as [t3 [rq0|]|t3|m3 ret|a0 r0]; cbn in FC, AK; try contradiction.
      + destruct FC as [-> F]. rewrite MD in F. destruct F as [ps F]. injection F as ->. discriminate AK.
      + destruct AK as [ps X]. injection X as _ -> _. cbn. destruct FC as [-> _]. reflexivity.
      + destruct AK as [ps X]. discriminate X.
      + destruct AK as (? & ? & X). discriminate X.
      + destruct AK as (? & ? & X). discriminate X.
      + destruct AK as (_ & ? & X). discriminate X.
    - destruct S as [_ S]. cbn in S. subst t2. destruct o as [t' st'|m|]; destruct k as [t3 [rq0|]|t3|m3 ret|a0 r0]; cbn in FC, AK; try contradiction.
      + destruct FC as [-> F]. rewrite MD in F. destruct F as [ps F]. injection F as ->. injection AK as _ -> _. reflexivity.
      + destruct AK as [ps X]. discriminate X.
      + destruct AK as [ps X]. discriminate X.
      + destruct AK as (? & ? & X). discriminate X.
      + destruct AK as (? & ? & X). discriminate X.
      + destruct AK as (_ & ? & X). discriminate X.
  Qed.
  (** every consume(t) that runs has its messages and only commits before it returns *)
  Definition committing (s : st) : Prop := forall i o p, dget (c_calls s) i = Some (o, p) -> on_topic t o -> exists ret, only_commits ret p.
  Lemma committing_position (s : st) l p : reachable cfg s -> undisturbed t log cfg s l -> committing s -> position (cstep cfg s l) t p = position s t p.
  Proof using MD.
    intros R [_ U] Q. destruct (Z.eq_dec (position (cstep cfg s l) t p) (position s t p)) as [X|X]; [exact X|]. exfalso. destruct (C38_only_answers_move cfg s l t p R X) as (j & b & r & -> & NM).
    destruct (TeamProofs.idle_dec cfg s j b r) as [(o & k & w & rs & rq & D & W & A)|ID]; [|now rewrite ID in X]. assert (WF : waits_for s j b rq) by (exists o, k, w, rs; auto). specialize (U rq WF A).
    pose proof (ConsumerRuns.reach_inv cfg s R) as I0. pose proof (answer_topic s j b r o k w rs rq I0 D W A U NM) as OT. destruct (Q _ _ _ D OT) as [ret C]. destruct (proj2 I0 _ _ _ D) as [_ WS]. pose proof (ws_asks _ _ _ _ WS _ _ (dget_In _ _ _ W)) as AK.
    destruct k as [t3 rq0|t3|m3 ret3|a0 r0]; try contradiction C. destruct AK as (? & ? & ->). destruct r; cbn in A, NM; discriminate.
  Qed.
  Lemma committing_step (s : st) l : inv cfg s -> committing s -> (forall i start, l <> Call i (OpConsume t start)) -> committing (cstep cfg s l).
  Proof.
    intros I0 Q NC. pose proof (cstep_did cfg s l I0) as D.
    assert (CC : forall j o' (ns : Consumer.next V * st) s1, c_calls s1 = c_calls s -> c_calls (snd ns) = c_calls s1 -> (on_topic t o' -> exists ret, commit_next ret (fst ns)) -> committing (continue j o' ns)).
    { intros j o' ns s1 C1 C2 A i o p H OT. assert (N' : NoDup (dkeys (c_calls (snd ns)))) by (rewrite C2, C1; apply I0). destruct (continue_calls j o' ns i N') as [_ X].
      rewrite X in H. destruct (Z.eqb_spec i j) as [->|NJ]; [|rewrite C2, C1 in H; exact (Q _ _ _ H OT)]. destruct (fst ns) as [p0|v|e] eqn:E; try discriminate H. injection H as <- <-. exact (A OT). }
    remember (cstep cfg s l) as s' eqn:EQ.
    destruct D as [l ID|j o' ns D E P|j b r o' k' w rs' rq D FI W IA HF NE F'|j b r o' k' w rs' rq ns D FI W IA E P|j r o' k' rs' s1 ns D FI E P|j r t' start ns D E P|k'|g' fn' ac' name ev M|]; try exact Q.
    - destruct P as [(ex & M & S) _ _ _]. apply (CC j o' ns s); auto; [apply M|]. intros OT. destruct o' as [t' start|m|]; try contradiction OT. cbn in OT. subst t'. now destruct (NC j start).
    - destruct (answer_state_same cfg r s) as (C1 & _). apply (CC j o' _ (answer_state cfg r s)); auto. intros OT. destruct (Q _ _ _ D OT) as [ret X]. exists ret. exact X.
    - destruct (answer_state_same cfg r s) as (C1 & _). destruct (paid_some cfg k' rs') as [lv PD]. destruct (P lv PD) as [(ex & M & S) _ _ _]. apply (CC j o' ns (answer_state cfg r s)); auto; [apply M|].
      intros OT. destruct (Q _ _ _ D OT) as [ret X]. exists ret. destruct k' as [t0 rq0|t0|m ret'|a r0]; try contradiction. cbn in X. subst ret'. destruct E as [(_ & _ & ->)|(e & _ & ->)]; [apply send_end_commit_next|exact I].
    - destruct (paid_some cfg k' rs') as [lv PD]. destruct (P lv PD) as [(ex & M & S) _ _ _]. assert (C1 : c_calls s1 = c_calls s) by (destruct E as [(u & _ & -> & _)|(e & _ & -> & _)]; auto). apply (CC j o' ns s1); auto; [apply M|].
      intros OT. destruct (Q _ _ _ D OT) as [ret X]. exists ret. destruct k' as [t0 rq0|t0|m ret'|a r0]; try contradiction. cbn in X. subst ret'. destruct E as [(u & _ & _ & ->)|(e & _ & _ & ->)]; [apply resume_commit_next|exact I].
    - destruct P as [(ex & M & S) _ _ _]. apply (CC j _ ns s); auto; [apply M|]. intros OT. destruct (Q _ _ _ D OT) as [ret X]. destruct X.
  Qed.
  Lemma committing_run ls p : forall s : st, reachable cfg s -> each_step cfg (undisturbed t log cfg) ls s -> committing s -> (forall i start, ~ In (Call i (OpConsume t start)) ls) -> position (crun cfg ls s) t p = position s t p.
  Proof using MD.
    induction ls as [|l ls IH]; intros s R U Q NC; [reflexivity|]. destruct U as [U1 U2]. change (crun cfg (l :: ls) s) with (crun cfg ls (cstep cfg s l)). rewrite IH; [now apply committing_position| |exact U2| |intros i start H; apply (NC i start); now right].
    - destruct R as (k & n & ls0 & ->). exists k, n, (ls0 ++ [l]). unfold crun. now rewrite fold_left_app.
    - apply committing_step; [now apply ConsumerRuns.reach_inv|exact Q|]. intros i start ->. apply (NC i start). now left.
  Qed.
  (** the call whose step sends a commit only commits from then on *)
  Lemma commit_committing (s : st) l p o : inv cfg s -> commits_at t cfg s l p o -> forall j o' p', dget (c_calls (cstep cfg s l)) j = Some (o', p') -> part_of l j -> exists ret, only_commits ret p'.
  Proof.
    intros I0 (b & g0 & topics & parts & x & H & HT & HP) j o' p' DJ PO. destruct (sent_cases cfg s l I0) as (i & op & look & s1 & ns & A); [intros E; rewrite E in H; destruct H|].
    assert (EI : j = i). { destruct (ac_from _ _ _ _ _ _ _ _ _ A) as [(-> & _)|[(b1 & r1 & k1 & w1 & rs1 & rq1 & -> & _)|[(r1 & k1 & rs1 & -> & _)|(r1 & t1 & -> & _)]]]; cbn in PO; now symmetry. } subst j. clear PO.
    pose proof (acts_before _ _ _ _ _ _ _ _ _ A) as (C1 & _). destruct A as [E M S _ _]. rewrite E in DJ. pose proof (p_calls _ _ _ _ _ _ M) as C. rewrite C1 in C.
    destruct (continue_calls i op ns i) as [_ X]; [rewrite C; apply I0|]. rewrite Z.eqb_refl in X. rewrite X in DJ. clear X.
    remember (sent cfg s l) as ex eqn:EX. clear EX. destruct S as [|t' start rqs pre post O FE RE D ex X|t' start rqs pre post _ _ O L RE D ex X|t' start b0 g1 fn1 ac1 nm1 ps _ _ _ _ _ _|m ret b0 g1 fn1 ac1 nm1 am MD1 NA NC CB OB OM N|b0 rest g1 fn1 ac1 nm1 _ _ _ _].
    - destruct H.
    - exfalso. subst ex. apply filter_In in H as [H _]. assert (HR : In (b, RCommit g0 topics) rqs) by (rewrite RE; apply in_app_iff; now left). destruct FE as (_ & _ & _ & L). destruct (L _ _ HR) as (? & _ & X & _). discriminate X.
    - exfalso. subst ex. apply filter_In in H as [H _]. assert (HR : In (b, RCommit g0 topics) rqs) by (rewrite RE; apply in_app_iff; now left). destruct L as (_ & _ & L). destruct (L _ _ HR) as (? & _ & X & _). discriminate X.
    - destruct H as [H|[]]. discriminate H.
    - rewrite N in DJ. injection DJ as <- <-. exists ret. reflexivity.
    - destruct H as [H|[]]. discriminate H.
  Qed.
End Committing.
(** A commit at which every consume(t) is over, or is itself the one that commits, and no consume(t) after it: the consumer stops at the committed offset. *)
Theorem C111_clean_autocommit {V} t log (T : turn (V := V)) ls l ls' p o :
  (exists g fn ac name, md (tn_cfg T) = Grouped g fn ac name) -> at_start t (tn_cfg T) (tn_start T) -> each_step (tn_cfg T) (undisturbed t log (tn_cfg T)) (tn_steps T) (tn_start T) ->
  tn_steps T = ls ++ l :: ls' -> let s := crun (tn_cfg T) ls (tn_start T) in commits_at t (tn_cfg T) s l p o ->
  (forall i op pc, dget (c_calls (cstep (tn_cfg T) s l)) i = Some (op, pc) -> on_topic t op -> part_of l i) -> (forall i start, ~ In (Call i (OpConsume t start)) ls') ->
  position (tn_end T) t p = o.
Proof.
  intros (g & fn & ac & nm & MD) AS U E s CM OWN NC. unfold tn_end. rewrite E in U |- *. apply steps_after in U. fold s in U. destruct U as [_ U].
  assert (R : reachable (tn_cfg T) s). { destruct AS as ((k & n & ls0 & E0) & _). exists k, n, (ls0 ++ ls). unfold s. rewrite E0. unfold crun. now rewrite fold_left_app. }
  pose proof (ConsumerRuns.reach_inv _ _ R) as I0.
  assert (R' : reachable (tn_cfg T) (cstep (tn_cfg T) s l)). { destruct R as (k & n & ls0 & ->). exists k, n, (ls0 ++ [l]). unfold crun. now rewrite fold_left_app. }
  replace (crun (tn_cfg T) (ls ++ l :: ls') (tn_start T)) with (crun (tn_cfg T) ls' (cstep (tn_cfg T) s l)) by (unfold s, crun; now rewrite fold_left_app).
  rewrite (committing_run (tn_cfg T) t log g nm fn ac MD ls' p _ R' U); [|intros i op pc D OT; exact (commit_committing (tn_cfg T) t s l p o I0 CM i op pc D (OWN i op pc D OT))|exact NC].
  symmetry. exact (proj1 (commit_position (tn_cfg T) t s l p o I0 CM)).
Qed.

Lemma kept_over {V} t log p a (Es : list (epoch (V := V))) b : Forall (Forall (undisturbed_turn t log)) Es -> kept_offset t p a Es b -> handed_over t p a Es b.
Proof.
  intros F H. induction H as [a|T Ts IT O|T Ts Es o b IT O C H IH|T Ts Es b IT O C H IH|Ts Es a b N H IH].
  - apply over_end.
  - apply (over_to t p T); [exact IT|exact O|apply over_end].
  - inversion F as [|? ? F1 F2]; subst. specialize (IH F2). rewrite Forall_forall in F1. destruct (F1 T IT) as ((g & fn & ac & nm & _ & MD) & AS & U & _). destruct C as (ls & l & ls' & E & CM & OWN & NC).
    apply (over_to t p T); [exact IT|exact O|]. rewrite (C111_clean_autocommit t log T ls l ls' p o (ex_intro _ g (ex_intro _ fn (ex_intro _ ac (ex_intro _ nm MD)))) AS U E CM OWN NC). exact IH.
  - inversion F as [|? ? F1 F2]; subst. apply (over_to t p T); [exact IT|exact O|]. rewrite C. exact (IH F2).
  - inversion F as [|? ? F1 F2]; subst. apply over_none; [exact N|exact (IH F2)].
Qed.
(** The coordinator keeps what is committed, and the members commit when they are done: then the group delivers each message once. *)
Theorem C111_from_commits {V} (c : config V) t log Es : (forall p, is_log (log p)) ->
  Forall (Forall (undisturbed_turn t log)) Es -> Forall (shared_out t) Es -> (forall Ts T, In Ts Es -> In T Ts -> deser (tn_cfg T) = deser c) ->
  exists Dss, Forall2 (Forall2 (delivers t)) Es Dss /\ let all := concat (map (@concat _) Dss) in
    (forall p a b, kept_offset t p a Es b -> of_partition p all = readable c (between a b (log p))) /\
    ((forall p, exists a b, kept_offset t p a Es b) -> NoDup (map message_of all)).
Proof.
  intros LOG F S DE. destruct (C111_exactly_once c t log Es LOG F S DE) as (Dss & A & B & C). exists Dss. split; [exact A|]. split.
  - intros p a b H. apply B. exact (kept_over t log p a Es b F H).
  - intros H. apply C. intros p. destruct (H p) as (a & b & K). exists a, b. exact (kept_over t log p a Es b F K).
Qed.

(** ** Examples *)
(** The two consumers of C101, and the group once more after a rebalance: each begins where the stored offset is, at which the partition was left. *)
Definition over_one : turn := once_first.
Definition over_two : turn := Turn (crew_cf 2) (tn_start once_second) (tn_steps once_second ++ [Arrive 2 2 (Ok (PCommit [(tt_, [(1, 0)])]))]).
Definition over_three : turn := Turn (crew_cf 1) (crun (crew_cf 1) [stored_at 9] (once_state 1)) [Arrive 2 1 (Ok (PFetch [(tt_, [(0, (0, [(9, msg 4)]))])])); Arrive 2 2 (Ok (PCommit [(tt_, [(0, 0)])]))].
Definition over_four : turn := Turn (crew_cf 2) (crun (crew_cf 2) [stored_at 8] (once_state 2)) [Arrive 2 2 (Ok (PFetch [(tt_, [(1, (0, [(8, msg 6)]))])]))].
Definition over_epochs : list (epoch (V := Z)) := [[over_one; over_two]; [over_three; over_four]].
Lemma over_calm T : In T [over_two; over_three; over_four] -> none_raised tt_ (tn_start T) (tn_end T).
Proof. intros H i o e X. repeat (destruct H as [<-|H]; [vm_compute in X; repeat (destruct X as [X|X]; [discriminate X|]); destruct X|]). destruct H. Qed.
Lemma over_two_turn : undisturbed_turn tt_ ex_log over_two.
Proof.
  split; [eexists _, _, _, _; (split; [exact TeamProofs.naive_answers|reflexivity])|]. split; [apply (once_start 2 7 2); auto|]. split; [|apply over_calm; cbn; auto].
  cbn [over_two once_second app tn_cfg tn_start tn_steps each_step]. split; [split; [ex_norebalance|ex_fetch 1%nat 7]|]. split; [split; [ex_norebalance|ex_plain]|]. exact I.
Qed.
Lemma over_three_turn : undisturbed_turn tt_ ex_log over_three.
Proof.
  split; [eexists _, _, _, _; (split; [exact TeamProofs.naive_answers|reflexivity])|]. split; [apply (once_start 1 9 1); auto|]. split; [|apply over_calm; cbn; auto].
  cbn [over_three tn_cfg tn_start tn_steps each_step]. split; [split; [ex_norebalance|ex_fetch 1%nat 9]|]. split; [split; [ex_norebalance|ex_plain]|]. exact I.
Qed.
Lemma over_four_turn : undisturbed_turn tt_ ex_log over_four.
Proof.
  split; [eexists _, _, _, _; (split; [exact TeamProofs.naive_answers|reflexivity])|]. split; [apply (once_start 2 8 2); auto|]. split; [|apply over_calm; cbn; auto].
  cbn [over_four tn_cfg tn_start tn_steps each_step]. split; [split; [ex_norebalance|ex_fetch 1%nat 8]|]. exact I.
Qed.
Lemma over_first T p : In T [over_one; over_three] -> (owns tt_ T p <-> p = 0).
Proof. intros H. unfold owns. repeat (destruct H as [<-|H]; [vm_compute; intuition|]). destruct H. Qed.
Lemma over_other T p : In T [over_two; over_four] -> (owns tt_ T p <-> p = 1).
Proof. intros H. unfold owns. repeat (destruct H as [<-|H]; [vm_compute; intuition|]). destruct H. Qed.
Lemma two_shared (T T' : turn (V := Z)) : (forall p, owns tt_ T p -> p = 0) -> (forall p, owns tt_ T' p -> p = 1) -> shared_out tt_ [T; T'].
Proof.
  intros H H' i j X Y p E E' O O'. destruct i as [|[|i]], j as [|[|j]]; cbn in E, E'; try reflexivity; try (destruct i; discriminate E); try (destruct j; discriminate E'); exfalso; injection E as <-; injection E' as <-.
  - apply H in O. apply H' in O'. lia.
  - apply H' in O. apply H in O'. lia.
Qed.
Lemma over_at p (T : turn (V := Z)) Ts Es a a' b : position (tn_start T) tt_ p = a -> position (tn_end T) tt_ p = a' -> In T Ts -> owns tt_ T p -> handed_over tt_ p a' Es b -> handed_over tt_ p a (Ts :: Es) b.
Proof. intros <- <- IT O H. now apply over_to with (T := T). Qed.
Lemma over_zero : handed_over tt_ 0 5 over_epochs 10.
Proof.
  refine (over_at 0 over_one [over_one; over_two] [[over_three; over_four]] 5 9 10 _ _ (or_introl eq_refl) _ _); [vm_compute; reflexivity|vm_compute; reflexivity|exact (proj2 (over_first over_one 0 (or_introl eq_refl)) eq_refl)|].
  refine (over_at 0 over_three [over_three; over_four] [] 9 10 10 _ _ (or_introl eq_refl) _ _); [vm_compute; reflexivity|vm_compute; reflexivity|exact (proj2 (over_first over_three 0 (or_intror (or_introl eq_refl))) eq_refl)|constructor].
Qed.
Lemma over_unit : handed_over tt_ 1 7 over_epochs 9.
Proof.
  refine (over_at 1 over_two [over_one; over_two] [[over_three; over_four]] 7 8 9 _ _ (or_intror (or_introl eq_refl)) _ _); [vm_compute; reflexivity|vm_compute; reflexivity|exact (proj2 (over_other over_two 1 (or_introl eq_refl)) eq_refl)|].
  refine (over_at 1 over_four [over_three; over_four] [] 8 9 9 _ _ (or_intror (or_introl eq_refl)) _ _); [vm_compute; reflexivity|vm_compute; reflexivity|exact (proj2 (over_other over_four 1 (or_intror (or_introl eq_refl))) eq_refl)|constructor].
Qed.
Example C111_example : Forall (Forall (undisturbed_turn tt_ ex_log)) over_epochs /\ Forall (shared_out tt_) over_epochs /\ (forall Ts T, In Ts over_epochs -> In T Ts -> deser (tn_cfg T) = deser (crew_cf 1)) /\
  (forall p, exists a b, handed_over tt_ p a over_epochs b) /\ handed_over tt_ 0 5 over_epochs 10 /\ handed_over tt_ 1 7 over_epochs 9 /\
  map (tn_gave tt_) (concat over_epochs) = [[2; 3]; [5]; [4]; []] /\ map fst (between 5 10 (ex_log 0)) = [5; 8; 9].
Proof.
  pose proof over_zero as H0. pose proof over_unit as H1.
  split; [constructor; [constructor; [exact once_first_turn|constructor; [exact over_two_turn|constructor]]|constructor; [constructor; [exact over_three_turn|constructor; [exact over_four_turn|constructor]]|constructor]]|].
  assert (I1 : forall A (x y : A), In y [x; y]) by (intros A x y; right; left; reflexivity). assert (I0 : forall A (x y : A), In x [x; y]) by (intros A x y; left; reflexivity).
  split; [constructor; [exact (two_shared _ _ (fun p => proj1 (over_first over_one p (I0 _ _ _))) (fun p => proj1 (over_other over_two p (I0 _ _ _))))|constructor; [exact (two_shared _ _ (fun p => proj1 (over_first over_three p (I1 _ _ _))) (fun p => proj1 (over_other over_four p (I1 _ _ _))))|constructor]]|].
  split; [intros Ts T H H'; cbn [over_epochs In] in H; repeat (destruct H as [<-|H]; [repeat (destruct H' as [<-|H']; [reflexivity|]); destruct H'|]); destruct H|].
  split; [|split; [exact H0|split; [exact H1|split; vm_compute; reflexivity]]].
  intros p. destruct (Z.eq_dec p 0) as [->|N0]; [eauto|]. destruct (Z.eq_dec p 1) as [->|N1]; [eauto|]. exists 0, 0.
  apply over_none; [|apply over_none; [|apply over_end]]; intros T [<-|[<-|[]]] O.
  - exact (N0 (proj1 (over_first over_one p (I0 _ _ _)) O)).
  - exact (N1 (proj1 (over_other over_two p (I0 _ _ _)) O)).
  - exact (N0 (proj1 (over_first over_three p (I1 _ _ _)) O)).
  - exact (N1 (proj1 (over_other over_four p (I1 _ _ _)) O)).
Qed.
(** The first member of C99's example reads, commits when nothing runs, and reads no more. *)
Definition over_clean : turn := Turn (ex_grouped false) (ex_told false 5 7) (firstn 4 (tn_steps ex_first)).
Example C111_clean_example : at_start tt_ (tn_cfg over_clean) (tn_start over_clean) /\ each_step (tn_cfg over_clean) (undisturbed tt_ ex_log (tn_cfg over_clean)) (tn_steps over_clean) (tn_start over_clean) /\
  let s := crun (tn_cfg over_clean) (firstn 2 (tn_steps ex_first)) (tn_start over_clean) in
  tn_steps over_clean = firstn 2 (tn_steps ex_first) ++ Call 3 (OpCommit None) :: [Arrive 3 2 (Ok (PCommit [(tt_, [(0, 0); (1, 0)])]))] /\ ~ busy s tt_ /\ commits_at tt_ (tn_cfg over_clean) s (Call 3 (OpCommit None)) 0 6 /\
  tn_gave tt_ over_clean = [2; 5] /\ position (tn_start ex_second) tt_ 0 = 6.
Proof.
  split; [apply ex_told_start|]. split.
  { cbn [over_clean ex_first firstn tn_cfg tn_start tn_steps each_step]. split; [split; [ex_norebalance|ex_fetch 1%nat 5]|]. split; [split; [ex_norebalance|ex_fetch 1%nat 7]|]. split; [split; [ex_norebalance|exact I]|]. split; [split; [ex_norebalance|ex_plain]|]. exact I. }
  cbv zeta. split; [reflexivity|]. split; [ex_nobusy|]. split; [|split; vm_compute; reflexivity].
  do 5 eexists. split; [vm_compute; left; reflexivity|]. split; [left; reflexivity|]. left. reflexivity.
Qed.
(** The second member of C101's example, which commits by itself. *)
Example C111_autocommit_example : at_start tt_ (tn_cfg over_two) (tn_start over_two) /\ each_step (tn_cfg over_two) (undisturbed tt_ ex_log (tn_cfg over_two)) (tn_steps over_two) (tn_start over_two) /\
  exists l l', tn_steps over_two = [] ++ l :: [l'] /\ commits_at tt_ (tn_cfg over_two) (tn_start over_two) l 1 8 /\ position (tn_start over_two) tt_ 1 = 7 /\ busy (cstep (tn_cfg over_two) (tn_start over_two) l) tt_ /\
  (forall i op pc, dget (c_calls (cstep (tn_cfg over_two) (tn_start over_two) l)) i = Some (op, pc) -> on_topic tt_ op -> part_of l i).
Proof.
  destruct over_two_turn as (_ & AS & U & _). split; [exact AS|]. split; [exact U|]. clear AS U. do 2 eexists. split; [reflexivity|].
  split; [do 5 eexists; split; [vm_compute; left; reflexivity|]; split; [left; reflexivity|]; left; reflexivity|]. split; [vm_compute; reflexivity|].
  split; [eexists 2, _, _; split; [vm_compute; reflexivity|reflexivity]|].
  intros i op pc D _. apply dget_In in D. vm_compute in D. repeat (destruct D as [D|D]; [injection D as <- _ _; reflexivity|]). destruct D.
Qed.
Lemma kept_at p (T : turn (V := Z)) Ts Es a o b : position (tn_start T) tt_ p = a -> In T Ts -> owns tt_ T p -> commits_last tt_ T p o -> kept_offset tt_ p o Es b -> kept_offset tt_ p a (Ts :: Es) b.
Proof. intros <- IT O C H. now apply kept_commit with (T := T) (o := o). Qed.
Lemma kept_then p (T : turn (V := Z)) Ts a b : position (tn_start T) tt_ p = a -> position (tn_end T) tt_ p = b -> In T Ts -> owns tt_ T p -> kept_offset tt_ p a [Ts] b.
Proof. intros <- <- IT O. now apply kept_last. Qed.
(** In the history of C111_example partition 1 is kept this way: the offset 8 is committed by itself, and the next member begins there. *)
Example C111_from_commits_example : Forall (Forall (undisturbed_turn tt_ ex_log)) over_epochs /\ Forall (shared_out tt_) over_epochs /\ kept_offset tt_ 1 7 over_epochs 9.
Proof.
  split; [exact (proj1 C111_example)|]. split; [exact (proj1 (proj2 C111_example))|].
  refine (kept_at 1 over_two [over_one; over_two] [[over_three; over_four]] 7 8 9 _ (or_intror (or_introl eq_refl)) (proj2 (over_other over_two 1 (or_introl eq_refl)) eq_refl) _ _); [vm_compute; reflexivity| |].
  - destruct C111_autocommit_example as (_ & _ & l & l' & E & CM & _ & _ & OWN). exists [], l, [l']. split; [exact E|]. split; [exact CM|]. split; [exact OWN|]. intros i start [H|[]]. injection E as _ <-. discriminate H.
  - refine (kept_then 1 over_four [over_three; over_four] 8 9 _ _ (or_intror (or_introl eq_refl)) (proj2 (over_other over_four 1 (or_intror (or_introl eq_refl))) eq_refl)); vm_compute; reflexivity.
Qed.

Print Assumptions C111_exactly_once.
Print Assumptions C111_clean_commit.
Print Assumptions C111_clean_autocommit.
Print Assumptions C111_from_commits.
