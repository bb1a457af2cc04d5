(** Properties C81-C83: a group member reading logs, and what its commits mean.  Specification: SpecGroupLog.v. *)
From Coq Require Import ZArith String List Bool Lia Permutation Sorting.Sorted.
From Verif Require Import PyBase BaseLemmas Constants Cluster Zookeeper SpecZk Consumer SpecConsumer ConsumerProofs ConsumerSteps ConsumerRuns ConsumerSync PropsConsumer SpecGroup GroupProofs PropsGroup PropsCoord SpecHistory PropsHistory SpecLog FollowRuns PropsLog SpecGroupLog.
Import ListNotations.
Open Scope Z_scope.
Set Default Proof Using "Type".

Section Steady.
  Context {V : Type}.
  Variable t : text.
  Variable log : Z -> list (Z * pymsg).
  Variable cfg : config V.
  Notation st := (consumer V).
  Lemma undisturbed_steady ls : forall s, each_step cfg (undisturbed t log cfg) ls s -> each_step cfg (steady_ cfg t (serves_group t log)) ls s.
  Proof.
    induction ls as [|l ls IH]; intros s H; [exact I|]. destruct H as [[NR H1] H2]. split; [|now apply IH]. split; [destruct l as [i [t' start|m|]|i b [r|e]|i r|k|ev|]; try exact I; exact H1|].
    destruct l as [| | | |ev|]; try exact I. intros SY. cbn [cstep] in *. destruct (md cfg) as [|g fn ac name] eqn:M; [exact SY|]. cbn [set_synced c_synced].
    destruct (a_callbacks (astep fn true (c_alloc s) ev) =? a_callbacks (c_alloc s)) eqn:E; [exact SY|]. exfalso. apply NR. exists ev. split; [reflexivity|]. cbn [cstep]. rewrite M. cbn. now apply Z.eqb_neq in E.
  Qed.
  Lemma group_fetch x mw mb t' asked t'' parts rest : serves_group t log (RFetch x mw mb t' asked) (PFetch ((t'', parts) :: rest)) -> t'' = t' /\
    (t' = t -> NoDup (map fst parts) /\ forall p code ms, In (p, (code, ms)) parts -> code <> offset_out_of_range /\ (code = no_error -> In p (map fst asked))).
  Proof. intros [H _]. now apply (serves_fetch t log) in H. Qed.
End Steady.

(** ** where the books are opened *)
Section Start.
  Context {V : Type}.
  Variable cfg : config V.
  Variable t : text.
  Notation st := (consumer V).
  Lemma lookup_pc (s : st) i : looks_up s i t -> exists start rq p, dget (c_calls s) i = Some (OpConsume t start, p) /\ ((exists w rs, p = PSend (KOffsets t rq) w rs) \/ exists rs, p = PHeal (KOffsets t rq) rs).
  Proof. intros (start & rq & [(w & rs & D)|(rs & D)]); exists start, rq; eexists; (split; [exact D|eauto]). Qed.
  Lemma fetches_pc (s : st) i o p : inv cfg s -> fetches s i t -> dget (c_calls s) i = Some (o, p) ->
    (exists w rs, p = PSend (KFetch t) w rs) \/ (exists rs, p = PHeal (KFetch t) rs) \/ p = PTopicHeal t.
  Proof.
    intros [_ INV] (start & p1 & D1 & F) D. rewrite D in D1. injection D1 as -> <-. destruct F as [(b & rq & (o & k & w & rs & D2 & W) & x & mw & mb & parts & ->)|[F|F]]; auto. rewrite D in D2. injection D2 as <- ->. left.
    destruct (INV _ _ _ D) as [FC WF]. pose proof (ws_asks _ _ _ _ WF _ _ (dget_In _ _ _ W)) as A. destruct k as [t' [rq0|]|t'|m ret|a r]; cbn in A, FC.
    - subst rq0. destruct FC as [_ FC]. destruct (md cfg); [discriminate FC|]. destruct FC as [? FC]. discriminate FC.
    - destruct A as [? A]. discriminate A.
    - subst t'. eauto.
    - destruct A as (? & ? & A). discriminate A.
    - destruct FC.
  Qed.
  Lemma loaded_start s l i : inv cfg s -> looks_up s i t -> let s0 := cstep cfg s l in fetches s0 i t -> forall o p, dget (c_calls s0) i = Some (o, p) -> waiting_at cfg t s0 p /\ held cfg p = [].
  Proof.
    intros I0 LU s0 FE o p D0. pose proof (inv_step cfg s l I0) as I1. fold s0 in I1. pose proof (fetches_pc s0 i o p I1 FE D0) as PC. destruct (lookup_pc s i LU) as (start & rq & p0 & D & P0).
    assert (SAME : forall o', dget (c_calls s0) i = Some (o', p0) -> False).
    { intros o' E. rewrite D0 in E. injection E as _ ->. destruct P0 as [(w & rs & ->)|(rs & ->)]; destruct PC as [(? & ? & X)|[(? & X)|X]]; discriminate X. }
    assert (KOF : forall w rs, p = PSend (KOffsets t rq) w rs -> False) by (intros w rs ->; destruct PC as [(? & ? & X)|[(? & X)|X]]; discriminate X).
    assert (CONT : forall o1 (ns : next V * st) s1, c_calls s1 = c_calls s -> s0 = continue i o1 ns -> piece cfg true o1 [] s1 ns -> waiting_at cfg t s0 p /\ held cfg p = []).
    { intros o1 ns s1 C1 E [(ex & M & S) FI NW PY]. pose proof (p_calls _ _ _ _ _ _ M) as C. rewrite C1 in C. destruct (continue_calls i o1 ns i) as [_ X]; [rewrite C; apply I0|]. rewrite E, X, Z.eqb_refl in D0.
      destruct (fst ns) as [p1|v|e]; try discriminate D0. injection D0 as <- ->. cbn in PY. destruct PC as [(w & rs & ->)|[(rs & ->)| ->]]; cbn in *.
      - destruct NW as [-> FT]. split; [|reflexivity]. apply fetching_aligned in FT. eapply aligned_pos; [|exact FT]. intros q. rewrite E. apply (continue_views cfg i o1 ns).
      - split; [exact I|]. symmetry. exact PY.
      - split; [exact I|reflexivity]. }
    assert (OTHER : forall j o1 (ns : next V * st) s1, j <> i -> c_calls s1 = c_calls s -> (exists lk ex, moves cfg lk o1 ex s1 (snd ns)) -> s0 = continue j o1 ns -> False).
    { intros j o1 ns s1 N C1 (lk & ex & M) E. pose proof (p_calls _ _ _ _ _ _ M) as C. rewrite C1 in C. destruct (continue_calls j o1 ns i) as [_ X]; [rewrite C; apply I0|]. destruct (Z.eqb_spec i j) as [<-|_]; [now apply N|].
      rewrite C, D in X. apply (SAME (OpConsume t start)). rewrite E. exact X. }
    pose proof (cstep_did cfg s l I0) as DD. fold s0 in DD. remember s0 as s' eqn:ES. clear ES.
    destruct DD as [l _|j o1 ns D1 E1 P|j b r o1 k w rs rq1 D1 F1 W IA HF NE F'|j b r o1 k w rs rq1 ns D1 F1 W IA E1 P|j r o1 k rs s1 ns D1 F1 E1 P|j r t1 st1 ns D1 E1 P|k|g fn ac name ev M|].
    - destruct (SAME _ D).
    - exfalso. destruct P as [(ex & M & _) _ _ _]. apply (OTHER j o1 ns s); eauto. intros ->. congruence.
    - exfalso. destruct (Z.eq_dec j i) as [->|N].
      + rewrite D in D1. injection D1 as <- ->. assert (EK : k = KOffsets t rq) by (destruct P0 as [(? & ? & X)|(? & X)]; [now injection X as -> _ _|discriminate X]). subst k.
        destruct (continue_calls i (OpConsume t start) (Await (PSend (KOffsets t rq) (ddel w b) (answer_results cfg b r rs s)), answer_state cfg r s) i) as [_ X]; [cbn [snd]; rewrite answer_state_calls; apply I0|].
        rewrite X, Z.eqb_refl in D0. cbn [fst] in D0. injection D0 as _ <-. now apply (KOF _ _ eq_refl).
      + eapply (OTHER j o1 _ (answer_state cfg r s) N); [apply answer_state_calls| |reflexivity]. exists true, []. apply moves_refl.
    - destruct (Z.eq_dec j i) as [->|N].
      + rewrite D in D1. injection D1 as <- ->. assert (EK : k = KOffsets t rq) by (destruct P0 as [(? & ? & X)|(? & X)]; [now injection X as -> _ _|discriminate X]). subst k.
        apply (CONT (OpConsume t start) ns (answer_state cfg r s)); [apply answer_state_calls|reflexivity|]. specialize (P [] eq_refl). cbn [app] in P. destruct F1 as [FC WF].
        assert (AV : answer_vals cfg r = []); [|rewrite AV in P; exact P]. destruct r as [resp|e]; [|reflexivity]. cbn in IA |- *. rewrite (answer_none cfg _ _ _ _ _ FC (ws_asks _ _ _ _ WF _ _ (dget_In _ _ _ W)) IA) by discriminate. reflexivity.
      + exfalso. destruct (paid_some cfg k rs) as [lv PD]. destruct (P lv PD) as [(ex & M & _) _ _ _]. eapply (OTHER j o1 ns (answer_state cfg r s) N); [apply answer_state_calls|eauto|reflexivity].
    - assert (C1 : c_calls s1 = c_calls s) by (destruct E1 as [(u & _ & -> & _)|(e & _ & -> & _)]; reflexivity). destruct (Z.eq_dec j i) as [->|N].
      + rewrite D in D1. injection D1 as <- ->. assert (EK : k = KOffsets t rq) by (destruct P0 as [(? & ? & X)|(? & X)]; [discriminate X|now injection X as -> _]). subst k.
        apply (CONT (OpConsume t start) ns s1 C1 eq_refl). exact (P [] eq_refl).
      + exfalso. destruct (paid_some cfg k rs) as [lv PD]. destruct (P lv PD) as [(ex & M & _) _ _ _]. eapply (OTHER j o1 ns s1 N C1); [eauto|reflexivity].
    - exfalso. destruct P as [(ex & M & _) _ _ _]. apply (OTHER j (OpConsume t1 st1) ns s); eauto. intros ->. rewrite D in D1. injection D1 as _ _ ->. destruct P0 as [(? & ? & X)|(? & X)]; discriminate X.
    - destruct (SAME _ D).
    - destruct (SAME _ D).
    - destruct (SAME _ D).
  Qed.
  Lemma follows_at_start s0 (books : list (Z * (Z * V)) -> (Z -> Z) -> Prop) : books [] (position s0 t) -> at_start t cfg s0 -> follows cfg t s0 books [] s0.
  Proof.
    intros B0 (R & SY & [NB|(s & l & i & R' & E & LU & FE & ONE)]); [apply follows_start; auto; now apply reach_inv|].
    assert (RT : returned t s0 s0 = []) by (unfold returned, ended_since; now rewrite skipn_all). rewrite E in FE. pose proof (loaded_start s l i (reach_inv cfg s R') LU FE) as LS. cbv zeta in LS. rewrite <- E in LS.
    constructor; auto.
    - now apply reach_inv.
    - intros j k o o' p p' D O D' O'. rewrite (ONE _ _ _ D O), (ONE _ _ _ D' O'). reflexivity.
    - intros j o p D O. pose proof (ONE _ _ _ D O) as ->. destruct (LS o p D) as [W H]. split; [exact W|]. now rewrite RT, H.
    - exists []. now rewrite app_nil_r.
  Qed.
End Start.

(** A member of a group that has loaded its positions follows the logs of its partitions as C37 says, until the next
    rebalance: the messages delivered from each partition are exactly the readable messages of its log from the start
    position up to the position reached, in order, none missing and none twice; what the calls returned, followed by
    what a running call holds (while it fetches, heals or commits), are the truthy values among these deliveries. *)
Theorem C81_follows_log {V} (cfg : config V) t log s0 ls :
  (forall p, is_log (log p)) -> at_start t cfg s0 -> each_step cfg (undisturbed t log cfg) ls s0 ->
  let s := crun cfg ls s0 in none_raised t s0 s ->
  exists D pending,
    filter (truthy cfg) (values D) = returned t s0 s ++ pending /\
    (~ busy s t -> pending = []) /\
    forall p, of_partition p D = readable cfg (between (position s0 t p) (position s t p) (log p)) /\
      position s t p = one_past_last (map fst (of_partition p D)) (position s0 t p) /\ position s0 t p <= position s t p.
Proof.
  intros LOG AS OR s NR.
  destruct (follows_runs cfg t s0 (serves_group t log) (in_log cfg t log s0) (in_log_ext cfg t log s0) (group_fetch t log) (fun _ _ _ _ _ _ H => proj1 H) (or_intror (fun _ _ _ _ _ _ H => proj2 H))
    (fun D f f' x mw mb asked parts rest L P S G => in_log_step cfg t log s0 LOG D f f' x mw mb asked parts rest L P (proj1 S) G) ls [] s0
    (follows_at_start cfg t s0 (in_log cfg t log s0) (in_log_start cfg t log s0) AS) (undisturbed_steady t log cfg ls s0 OR) NR) as (D & F). exists D.
  assert (L : forall p, of_partition p D = readable cfg (between (position s0 t p) (position s t p) (log p)) /\ position s t p = one_past_last (map fst (of_partition p D)) (position s0 t p) /\ position s0 t p <= position s t p) by (intros p; destruct (f_log _ _ _ _ _ _ F p) as (A & B & C); auto).
  destruct (busy_dec cfg t s (f_inv _ _ _ _ _ _ F)) as [B|B].
  - destruct B as (i & o & p & DD & OT). destruct (f_pc _ _ _ _ _ _ F i o p DD OT) as [_ G]. exists (held cfg p). split; [exact G|]. split; [|exact L]. intros N. destruct N. now exists i, o, p.
  - exists []. rewrite app_nil_r. split; [now apply (f_free _ _ _ _ _ _ F)|]. auto.
Qed.

(** ** commits *)
Section Commits.
  Context {V : Type}.
  Variable cfg : config V.
  Variable t : text.
  Notation st := (consumer V).
  (** a committed offset is the position; with autocommit off a commit_offsets() call then runs *)
  Lemma commit_position (s : st) l p o : inv cfg s -> commits_at t cfg s l p o -> o = position (cstep cfg s l) t p /\
    exists i op p', dget (c_calls (cstep cfg s l)) i = Some (op, p') /\ (forall t' start, op = OpConsume t' start -> exists g fn name, md cfg = Grouped g fn true name) /\ op <> OpCoordinator.
  Proof.
    intros I0 (b & g & topics & parts & x & H & HT & HP). destruct (sent_cases cfg s l I0) as (i & op & look & s1 & ns & A); [intros E; rewrite E in H; destruct H|].
    pose proof (acts_before _ _ _ _ _ _ _ _ _ A) as (C1 & _). destruct A as [E M S _ _]. rewrite E. pose proof (p_calls _ _ _ _ _ _ M) as C. rewrite C1 in C. destruct (continue_views cfg i op ns) as (PO & _). cbv zeta in PO.
    remember (sent cfg s l) as ex eqn:EX. clear EX. destruct S as [|t' start rqs pre post O FE RE D ex X|t' start rqs pre post _ _ O L RE D ex X|t' start b0 g1 fn ac nm ps _ _ _ _ _ _|m ret b0 g1 fn ac nm am MD NA NC CB OB OM N|b0 rest g1 fn ac nm _ _ _ _].
    - destruct H.
    - exfalso. subst ex. apply filter_In in H as [H _]. assert (HR : In (b, RCommit g topics) rqs) by (rewrite RE; apply in_app_iff; now left). destruct FE as (_ & _ & _ & L). destruct (L _ _ HR) as (? & _ & X & _). discriminate X.
    - exfalso. subst ex. apply filter_In in H as [H _]. assert (HR : In (b, RCommit g topics) rqs) by (rewrite RE; apply in_app_iff; now left). destruct L as (_ & _ & L). destruct (L _ _ HR) as (? & _ & X & _). discriminate X.
    - destruct H as [H|[]]. discriminate H.
    - destruct H as [H|[]]. injection H as _ _ <-. unfold commit_of in HT. apply in_map_iff in HT as ([t1 ps] & E1 & H). cbn [fst snd] in E1. injection E1 as -> <-. apply in_map_iff in HP as (p' & E1 & _). injection E1 as -> <- _. rewrite PO. split; [reflexivity|].
      destruct (continue_calls i op ns i) as [_ X]; [rewrite C; apply I0|]. rewrite Z.eqb_refl, N in X. exists i, op. eexists. split; [exact X|]. split; [|exact NC]. intros t' start ->. rewrite (NA t' start eq_refl) in MD. eauto.
    - destruct H as [H|[]]. discriminate H.
  Qed.
  (** the calls that run ran before, or were just called *)
  Lemma calls_step (s : st) l i o p' : inv cfg s -> dget (c_calls (cstep cfg s l)) i = Some (o, p') -> (exists p, dget (c_calls s) i = Some (o, p)) \/ l = Call i o.
  Proof.
    intros I0 D. destruct (step_cases cfg s l I0) as [(j & op & look & s1 & ns & ex & A)|H].
    - pose proof (acts_before _ _ _ _ _ _ _ _ _ A) as (C1 & _). destruct A as [E M _ _ FR]. pose proof (p_calls _ _ _ _ _ _ M) as C. rewrite C1 in C. rewrite E in D. destruct (continue_calls j op ns i) as [_ X]; [rewrite C; apply I0|]. rewrite X in D.
      destruct (Z.eqb_spec i j) as [->|N]; [|left; rewrite C in D; eauto]. destruct (fst ns) as [p1|v|e]; try discriminate D. injection D as -> _.
      destruct FR as [(-> & _)|[(b' & r & k & w & rs & rq & -> & D & _)|[(r & k & rs & -> & D & _)|(r & t' & -> & D & _)]]]; eauto.
    - left. exists p'. rewrite <- D. f_equal. destruct H as [(-> & _)|[(k & _ & ->)|[(_ & ->)|(g & fn & ac & name & ev & _ & _ & ->)]]]; reflexivity.
  Qed.
  Lemma apart_step (s : st) l : inv cfg s -> ~ (busy s t /\ commit_running s) -> apart t s l -> ~ (busy (cstep cfg s l) t /\ commit_running (cstep cfg s l)).
  Proof.
    intros I0 N AP [(i & o & p & D & OT) (j & m & p' & D')]. destruct (calls_step s l i o p I0 D) as [(p0 & D0)|E0], (calls_step s l j (OpCommit m) p' I0 D') as [(p1 & D1)|E'].
    - apply N. split; [now exists i, o, p0|now exists j, m, p1].
    - subst l. cbn in AP. apply AP. now exists i, o, p0.
    - subst l. destruct o as [t' start|m'|]; cbn in AP, OT; try contradiction. apply AP; [exact OT|now exists j, m, p1].
    - rewrite E0 in E'. injection E' as -> ->. destruct OT.
  Qed.
  Lemma apart_run ls : forall s, inv cfg s -> ~ (busy s t /\ commit_running s) -> each_step cfg (apart t) ls s -> ~ (busy (crun cfg ls s) t /\ commit_running (crun cfg ls s)).
  Proof. induction ls as [|l ls IH]; intros s I0 N AP; [exact N|]. destruct AP as [A1 A2]. apply (IH (cstep cfg s l)); auto; [now apply inv_step|now apply apart_step]. Qed.
  Lemma ended_step (s : st) l : inv cfg s -> exists x, c_ended (cstep cfg s l) = c_ended s ++ x.
  Proof.
    intros I0. destruct (step_cases cfg s l I0) as [(j & op & look & s1 & ns & ex & A)|H].
    - pose proof (acts_before _ _ _ _ _ _ _ _ _ A) as (_ & C1 & _). destruct A as [E M _ _ _]. pose proof (p_ended _ _ _ _ _ _ M) as C. rewrite E, continue_ended, C, C1. eauto.
    - exists []. rewrite app_nil_r. destruct H as [(-> & _)|[(k & _ & ->)|[(_ & ->)|(g & fn & ac & name & ev & _ & _ & ->)]]]; reflexivity.
  Qed.
  Lemma ended_run ls : forall s, inv cfg s -> exists x, c_ended (crun cfg ls s) = c_ended s ++ x.
  Proof.
    induction ls as [|l ls IH]; intros s I0; [exists []; now rewrite app_nil_r|]. destruct (ended_step s l I0) as [x E]. destruct (IH (cstep cfg s l) (inv_step cfg s l I0)) as [y F]. exists (x ++ y). change (crun cfg (l :: ls) s) with (crun cfg ls (cstep cfg s l)). now rewrite F, E, app_assoc.
  Qed.
  Lemma since_prefix s0 ls1 ls2 : inv cfg s0 -> exists x, ended_since s0 (crun cfg (ls1 ++ ls2) s0) = ended_since s0 (crun cfg ls1 s0) ++ x.
  Proof.
    intros I0. destruct (ended_run ls1 s0 I0) as [x E]. destruct (ended_run ls2 (crun cfg ls1 s0) (inv_run cfg ls1 s0 I0)) as [y F]. exists y.
    assert (G : crun cfg (ls1 ++ ls2) s0 = crun cfg ls2 (crun cfg ls1 s0)) by (unfold crun; now rewrite fold_left_app). unfold ended_since. rewrite G, F, E, <- app_assoc, !skipn_app, !skipn_all, Nat.sub_diag. reflexivity.
  Qed.
  Lemma each_prefix (P : st -> label -> Prop) a b : forall s, each_step cfg P (a ++ b) s -> each_step cfg P a s.
  Proof. induction a as [|l a IH]; intros s H; [exact I|]. destruct H as [H1 H2]. split; [exact H1|now apply IH]. Qed.
End Commits.

Section Turns.
  Context {V : Type}.
  Variable t : text.
  Variable log : Z -> list (Z * pymsg).
  Hypothesis LOG : forall p, is_log (log p).
  Notation turn := (@turn V).

  (** up to any point of a turn at which no consume(t) runs *)
  Lemma turn_returned (T : turn) ls ls' p o m : fair_turn t log T -> tn_steps T = ls ++ ls' -> let s := crun (tn_cfg T) ls (tn_start T) in ~ busy s t ->
    In (o, m) (log p) -> position (tn_start T) t p <= o < position s t p -> returned_in t T m.
  Proof using LOG.
    intros (_ & AS & _ & UN & _ & NR) E s NB IN RG v DV TV. destruct T as [cfg s0 steps]. unfold tn_gave, tn_end in *. cbn [tn_cfg tn_start tn_steps] in *. subst steps. pose proof (reach_inv cfg s0 (proj1 AS)) as I0.
    destruct (since_prefix cfg s0 ls ls' I0) as [x SP]. unfold returned. rewrite SP, flat_map_app. apply in_app_iff. left.
    assert (NR' : none_raised t s0 s) by (intros i o' e H; apply (NR i o' e); rewrite SP; apply in_app_iff; now left).
    destruct (C81_follows_log cfg t log s0 ls LOG AS (each_prefix cfg _ ls ls' s0 UN) NR') as (D & pe & G & PE & L). fold s in G, PE, L. rewrite (PE NB), app_nil_r in G. change (In v (returned t s0 s)). rewrite <- G. apply filter_In. split; [|exact TV].
    destruct (L p) as (L1 & _). assert (IR : In (o, v) (of_partition p D)). { rewrite L1. unfold readable. apply in_flat_map. exists (o, m). split; [apply filter_In; split; [exact IN|cbn; lia]|]. cbn. rewrite DV. now left. }
    unfold of_partition in IR. apply in_map_iff in IR as ([q [o' v']] & EQ & IR). cbn in EQ. injection EQ as -> ->. apply filter_In in IR as [IR _]. unfold values. apply in_map_iff. now exists (q, (o, v)).
  Qed.
  (** up to any offset that it committed *)
  Lemma turn_committed (T : turn) p c o m : fair_turn t log T -> committed_in t T p c -> In (o, m) (log p) -> position (tn_start T) t p <= o < c -> returned_in t T m.
  Proof using LOG.
    intros FT (ls & l & ls' & E & CM) IN RG. pose proof FT as ((g & fn & name & MD) & AS & NC & UN & AP & NR). set (cfg := tn_cfg T) in *. set (s0 := tn_start T) in *. pose proof (reach_inv cfg s0 (proj1 AS)) as I0.
    destruct (commit_position cfg t _ l p c (inv_run cfg ls s0 I0) CM) as [EC (i & op & p' & D & NA & NCO)].
    assert (E2 : tn_steps T = (ls ++ [l]) ++ ls') by now rewrite <- app_assoc. assert (ES : crun cfg (ls ++ [l]) s0 = cstep cfg (crun cfg ls s0) l) by (unfold crun; now rewrite fold_left_app). rewrite <- ES in EC, D.
    refine (turn_returned T (ls ++ [l]) ls' p o m FT E2 _ IN _); fold cfg s0; [|now rewrite <- EC]. intros B. rewrite E2 in AP. apply (apart_run cfg t (ls ++ [l]) s0 I0 (fun H => NC (proj2 H)) (each_prefix cfg _ _ _ _ AP)). split; [exact B|].
    destruct op as [t' start|m'|]; [|now exists i, m', p'|now destruct NCO]. destruct (NA t' start eq_refl) as (g' & fn' & name' & MD'). congruence.
  Qed.

  (** Whatever offset a turn committed for a partition: every message of its log from where the first turn began up to that
      offset was returned to a program by one of the turns so far. *)
  Lemma before_start p start (ts : list turn) : turns t log p start ts -> forall T o m, In T ts -> In (o, m) (log p) -> start <= o < position (tn_start T) t p -> exists T', In T' ts /\ returned_in t T' m.
  Proof using LOG.
    induction 1 as [|T ts TS IH FT BE]; [intros T o m []|]. intros T1 o m [<-|I1] IN RG.
    - destruct BE as [E|(T' & I' & CM)]; [lia|]. destruct (Z_lt_le_dec o (position (tn_start T') t p)) as [LT|GE].
      + destruct (IH T' o m I' IN ltac:(lia)) as (T2 & I2 & R). exists T2. split; [now right|exact R].
      + exists T'. split; [now right|]. apply (turn_committed T' p (position (tn_start T) t p) o m); auto; [|lia]. clear - TS I'. induction TS as [|T ts TS IH FT BE]; [destruct I'|]. destruct I' as [<-|I']; auto.
    - destruct (IH T1 o m I1 IN RG) as (T2 & I2 & R). exists T2. split; [now right|exact R].
  Qed.
  Lemma turns_fair p start (ts : list turn) : turns t log p start ts -> forall T, In T ts -> fair_turn t log T.
  Proof. induction 1 as [|T ts TS IH FT BE]; intros T1 []; [now subst|auto]. Qed.
End Turns.

(** What is committed was returned: with autocommit off, and consume(t) and commit_offsets() not overlapping, every
    message of the log from where the first turn began up to an offset that a turn committed was returned to a program. *)
Theorem C82_committed_returned {V} t log p start (ts : list (@turn V)) T c o m : (forall p, is_log (log p)) -> turns t log p start ts -> In T ts -> committed_in t T p c ->
  In (o, m) (log p) -> start <= o < c -> exists T', In T' ts /\ returned_in t T' m.
Proof.
  intros LOG TS IT CM IN RG. destruct (Z_lt_le_dec o (position (tn_start T) t p)) as [LT|GE].
  - apply (before_start t log LOG p start ts TS T o m IT IN). lia.
  - exists T. split; [exact IT|]. apply (turn_committed t log LOG T p c o m); auto; [|lia]. eapply turns_fair; eassumption.
Qed.
(** At least once: members of a group take over a partition from each other, each beginning where an earlier one committed
    (or at [start]), and each stopping anywhere.  When no consume(t) runs in the latest of them, every message of the log
    between [start] and its position was returned by one of the turns.
    Missing for the English claim: autocommit (refuted below), overlapping calls, consume() calls that raise. *)
Theorem C82_at_least_once_partial {V} t log p start (T : @turn V) ts o m : (forall p, is_log (log p)) -> turns t log p start (T :: ts) -> ~ busy (tn_end T) t ->
  In (o, m) (log p) -> start <= o < position (tn_end T) t p -> exists T', In T' (T :: ts) /\ returned_in t T' m.
Proof.
  intros LOG TS NB IN RG. destruct (Z_lt_le_dec o (position (tn_start T) t p)) as [LT|GE].
  - apply (before_start t log LOG p start _ TS T o m (or_introl eq_refl) IN). lia.
  - exists T. split; [now left|]. apply (turn_returned t log LOG T (tn_steps T) [] p o m); [eapply turns_fair; [eassumption|now left]|now rewrite app_nil_r|exact NB|exact IN|]. unfold tn_end in RG. lia.
Qed.

(** ** commits do not go back *)
Section Forward.
  Context {V : Type}.
  Variable cfg : config V.
  Variable t : text.
  Variable log : Z -> list (Z * pymsg).
  Variable s0 : consumer V.
  Hypothesis LOG : forall p, is_log (log p).
  Variable K : Z -> Z.
  Definition beyond (D : list (Z * (Z * V))) (f : Z -> Z) : Prop := in_log cfg t log s0 D f /\ forall p, K p <= f p.
  Lemma beyond_ext D f g : (forall p, g p = f p) -> beyond D f -> beyond D g.
  Proof. intros E [A B]. split; [now apply (in_log_ext cfg t log s0 D f)|]. intros p. rewrite E. apply B. Qed.
  Lemma beyond_step D f f' x mw mb asked parts rest : beyond D f -> (forall p o limit, In (p, (o, limit)) asked -> o = f p) -> serves t log (RFetch x mw mb t asked) (PFetch ((t, parts) :: rest)) ->
    (forall p, f' p = one_past_last (filter (fun o => 0 <=? o) (map fst (of_partition p (got_of cfg parts)))) (f p)) -> beyond (D ++ got_of cfg parts) f'.
  Proof using LOG.
    intros [L B] POS SV PG. split; [eapply (in_log_step cfg t log s0 LOG); eauto|]. intros p. specialize (B p). destruct SV as [_ H]. destruct (H eq_refl) as [NDP PARTS]. rewrite PG. destruct (got_present cfg p parts NDP) as [G|(ms & I & G)]; rewrite G; [exact B|].
    destruct (PARTS _ _ _ I) as [_ S]. destruct (S eq_refl) as (o & limit & n & IA2 & ->). apply POS in IA2. subst o. destruct (log_step cfg (log p) (f p) (f p) n (LOG p) (Z.le_refl _)) as (LE' & _ & NN). rewrite NN. lia.
  Qed.
End Forward.
(** positions do not go back *)
Lemma forward {V} (cfg : config V) t log s0 ls1 ls2 p : (forall p, is_log (log p)) -> at_start t cfg s0 -> each_step cfg (undisturbed t log cfg) (ls1 ++ ls2) s0 -> none_raised t s0 (crun cfg (ls1 ++ ls2) s0) ->
  position s0 t p <= position (crun cfg ls1 s0) t p <= position (crun cfg (ls1 ++ ls2) s0) t p.
Proof.
  intros LOG AS UN NR. set (s1 := crun cfg ls1 s0). assert (G : crun cfg (ls1 ++ ls2) s0 = crun cfg ls2 s1) by (unfold s1, crun; now rewrite fold_left_app).
  assert (NR1 : none_raised t s0 s1) by (destruct (since_prefix cfg s0 ls1 ls2 (reach_inv cfg s0 (proj1 AS))) as [x E]; intros i o e H; apply (NR i o e); rewrite E; apply in_app_iff; now left).
  destruct (follows_runs cfg t s0 (serves_group t log) (in_log cfg t log s0) (in_log_ext cfg t log s0) (group_fetch t log) (fun _ _ _ _ _ _ H => proj1 H) (or_intror (fun _ _ _ _ _ _ H => proj2 H))
    (fun D f f' x mw mb asked parts rest L P S G => in_log_step cfg t log s0 LOG D f f' x mw mb asked parts rest L P (proj1 S) G) ls1 [] s0
    (follows_at_start cfg t s0 (in_log cfg t log s0) (in_log_start cfg t log s0) AS) (undisturbed_steady t log cfg ls1 s0 (each_prefix cfg _ _ _ _ UN)) NR1) as (D & F). fold s1 in F.
  split; [now destruct (f_log _ _ _ _ _ _ F p)|]. rewrite G.
  assert (UN2 : each_step cfg (undisturbed t log cfg) ls2 s1).
  { unfold s1. clear - UN. revert s0 UN. induction ls1 as [|l ls IH]; intros s U; [exact U|]. destruct U as [_ U]. exact (IH _ U). }
  destruct F as [F1 F2 F3 F4 F5 F6 F7].
  destruct (follows_runs cfg t s0 (serves_group t log) (beyond cfg t log s0 (position s1 t)) (beyond_ext cfg t log s0 (position s1 t)) (group_fetch t log) (fun _ _ _ _ _ _ H => proj1 H) (or_intror (fun _ _ _ _ _ _ H => proj2 H))
    (fun D f f' x mw mb asked parts rest L P S G => beyond_step cfg t log s0 LOG (position s1 t) D f f' x mw mb asked parts rest L P (proj1 S) G) ls2 D s1) as (D2 & G2).
  - constructor; auto. split; [exact F7|]. intros q. lia.
  - now apply undisturbed_steady.
  - now rewrite <- G.
  - destruct (f_log _ _ _ _ _ _ G2) as [_ X]. apply X.
Qed.
(** Between two rebalances a consumer's commits do not go back: each names at least the offset it started from and at
    least the offset committed before.
    Missing for the English claim: rebalances (refuted below), consume() calls that raise. *)
Theorem C83_commits_forward_partial {V} (cfg : config V) t log s0 ls1 l1 ls2 l2 ls3 p o1 o2 : let ls := ls1 ++ l1 :: ls2 ++ l2 :: ls3 in
  (forall p, is_log (log p)) -> at_start t cfg s0 -> each_step cfg (undisturbed t log cfg) ls s0 -> none_raised t s0 (crun cfg ls s0) ->
  commits_at t cfg (crun cfg ls1 s0) l1 p o1 -> commits_at t cfg (crun cfg (ls1 ++ l1 :: ls2) s0) l2 p o2 -> position s0 t p <= o1 <= o2.
Proof.
  intros ls LOG AS UN NR C1 C2. pose proof (reach_inv cfg s0 (proj1 AS)) as I0. destruct (commit_position cfg t _ l1 p o1 (inv_run cfg ls1 s0 I0) C1) as [E1 _]. destruct (commit_position cfg t _ l2 p o2 (inv_run cfg _ s0 I0) C2) as [E2 _].
  assert (X : ls = ((ls1 ++ [l1]) ++ (ls2 ++ [l2])) ++ ls3) by (unfold ls; rewrite <- !app_assoc; reflexivity). rewrite X in UN, NR.
  assert (Y1 : o1 = position (crun cfg (ls1 ++ [l1]) s0) t p) by (rewrite E1; unfold crun; now rewrite fold_left_app).
  assert (Y2 : o2 = position (crun cfg ((ls1 ++ [l1]) ++ (ls2 ++ [l2])) s0) t p).
  { rewrite E2. replace ((ls1 ++ [l1]) ++ ls2 ++ [l2]) with ((ls1 ++ l1 :: ls2) ++ [l2]) by (rewrite <- !app_assoc; reflexivity). unfold crun at 2. rewrite fold_left_app. reflexivity. }
  rewrite Y1, Y2. apply (forward cfg t log s0 _ _ p LOG AS (each_prefix cfg _ _ _ _ UN)).
  destruct (since_prefix cfg s0 ((ls1 ++ [l1]) ++ ls2 ++ [l2]) ls3 I0) as [x E]. intros i o e H. apply (NR i o e). rewrite E. apply in_app_iff. now left.
Qed.

(** ** a group without offsets *)
(** A group whose stored offsets the brokers report goes on from exactly those.
    Missing for the English claim: groups without stored offsets (refuted below). *)
Theorem C84_stored_partial {V} (cfg : config V) (s : consumer V) i b g t asked parts rest p o : reachable cfg s -> waits_for s i b (ROffsetFetch g t asked) ->
  NoDup (map fst parts) -> (forall q code x, In (q, (code, x)) parts -> code = no_error) -> In (p, (no_error, o)) parts ->
  position (cstep cfg s (Arrive i b (Ok (POffsetFetch ((t, parts) :: rest))))) t p = o.
Proof.
  intros R (op & k & w & rs & D & W) ND NE IN. set (l := Arrive i b (Ok (POffsetFetch ((t, parts) :: rest)))). pose proof (C60_positions cfg s [l] t p R) as X. change (crun cfg [l] s) with (cstep cfg s l) in X. rewrite X.
  assert (H : history cfg [l] s = [POffsetFetch ((t, parts) :: rest)]) by (unfold l; cbn [history answered takes]; rewrite Z.eqb_refl, D, W; reflexivity). rewrite H. cbn [replay fold_left position_after].
  replace (eqb t t) with true by (symmetry; now apply list_eqb_spec).
  assert (BF : forall l0 : list (Z * (Z * Z)), (forall q code x, In (q, (code, x)) l0 -> code = no_error) -> before (fun part => negb ((fst (snd part) =? no_error) || is_retriable (fst (snd part)))) l0 = l0).
  { induction l0 as [|[q [code x]] l0 IH]; intros A; [reflexivity|]. cbn [before fst snd]. rewrite (A q code x) by now left. cbn. f_equal. apply IH. intros q' code' x' I. apply (A q' code' x'). now right. }
  rewrite (BF parts NE). apply in_split in IN as (l1 & l2 & ->). rewrite flat_map_app. cbn [flat_map fst snd]. rewrite !Z.eqb_refl. cbn [andb app].
  assert (NO : forall l0 : list (Z * (Z * Z)), ~ In p (map fst l0) -> flat_map (fun part => if (fst part =? p) && (fst (snd part) =? no_error) then [snd (snd part)] else []) l0 = []).
  { induction l0 as [|[q [code x]] l0 IH]; intros A; [reflexivity|]. cbn [flat_map fst snd map] in *. destruct (Z.eqb_spec q p) as [->|N]; [destruct A; now left|]. cbn. apply IH. intros I. apply A. now right. }
  rewrite map_app in ND. cbn [map fst] in ND. apply NoDup_remove_2 in ND. rewrite !NO; [reflexivity|intros I; apply ND, in_app_iff; now right|intros I; apply ND, in_app_iff; now left].
Qed.
(** As long as the answers to a group's offset fetches for [t] have an error code for some partition (unknown group:
    code 3), the consumer fetches nothing of [t] and returns nothing of it, however often it is asked to. *)
Section NewGroup.
  Context {V : Type}.
  Variable cfg : config V.
  Variable t : text.
  Notation st := (consumer V).
  Variables (g : text) (fn : list text -> list text -> res mapping) (ac : bool) (nm : text).
  Hypothesis MD : md cfg = Grouped g fn ac nm.
  Lemma quiet_step (s : st) l : inv cfg s -> unloaded t s -> exists x, c_ended (cstep cfg s l) = c_ended s ++ x /\ flat_map (gave t) x = [].
  Proof using Type.
    intros I0 [_ U]. pose proof (cstep_did cfg s l I0) as DD. remember (cstep cfg s l) as s' eqn:ES. clear ES.
    assert (CONT : forall j o (ns : next V * st) s1, c_ended s1 = c_ended s -> (exists lk ex, moves cfg lk o ex s1 (snd ns)) -> (on_topic t o -> nextpay cfg [] (fst ns)) -> exists x, c_ended (continue j o ns) = c_ended s ++ x /\ flat_map (gave t) x = []).
    { intros j o ns s1 E1 (lk & ex & M) PY. rewrite continue_ended, (p_ended _ _ _ _ _ _ M), E1. eexists. split; [reflexivity|]. destruct (fst ns) as [p|v|e]; cbn; try reflexivity; [|destruct o; reflexivity]. rewrite app_nil_r.
      destruct o as [t' start|m|]; try reflexivity. destruct v as [|l0]; [reflexivity|]. change (list_eqb t' t) with (eqb t' t). destruct (eqb t' t) eqn:ET; [|reflexivity]. apply list_eqb_spec in ET. specialize (PY ET). cbn in PY. destruct PY as [PY|[[_ PY]|[PY _]]]; [now injection PY|now injection PY|discriminate PY]. }
    assert (IDLE : c_ended s' = c_ended s -> exists x, c_ended s' = c_ended s ++ x /\ flat_map (gave t) x = []) by (intros ->; exists []; now rewrite app_nil_r).
    destruct DD as [l _|j o1 ns D1 E1 P|j b r o1 k w rs rq1 D1 F1 W IA HF NE F'|j b r o1 k w rs rq1 ns D1 F1 W IA E1 P|j r o1 k rs s1 ns D1 F1 E1 P|j r t1 st1 ns D1 E1 P|k|g' fn' ac' name ev M|]; try (apply IDLE; reflexivity).
    - destruct P as [(ex & M & _) _ _ PY]. eapply CONT; [reflexivity|eauto|auto].
    - exists []. rewrite continue_ended. cbn [fst snd]. split; [|reflexivity]. rewrite !app_nil_r. apply answer_state_same.
    - destruct (paid_some cfg k rs) as [lv PD]. destruct (P lv PD) as [(ex & M & _) _ _ PY]. eapply (CONT j o1 ns (answer_state cfg r s)); [apply answer_state_same|eauto|]. intros OT. pose proof (U _ _ _ D1 OT) as LD.
      destruct k as [t' rq0|t'|m ret|a b']; cbn in LD; try contradiction. cbn in PD. subst lv. destruct F1 as [FC WF]. assert (AV : answer_vals cfg r = []); [|rewrite AV in PY; exact PY].
      destruct r as [resp|e]; [|reflexivity]. cbn in IA |- *. rewrite (answer_none cfg _ _ _ _ _ FC (ws_asks _ _ _ _ WF _ _ (dget_In _ _ _ W)) IA) by discriminate. reflexivity.
    - destruct (paid_some cfg k rs) as [lv PD]. destruct (P lv PD) as [(ex & M & _) _ _ PY]. eapply (CONT j o1 ns s1); [destruct E1 as [(u & _ & -> & _)|(e & _ & -> & _)]; reflexivity|eauto|]. intros OT. pose proof (U _ _ _ D1 OT) as LD.
      destruct k as [t' rq0|t'|m ret|a b']; cbn in LD; try contradiction. cbn in PD. subst lv. exact PY.
    - destruct P as [(ex & M & _) _ _ PY]. eapply CONT; [reflexivity|eauto|auto].
  Qed.
  Lemma quiet_run ls : forall s : st, inv cfg s -> unloaded t s -> (forall b rq, In (b, rq) (c_wire s) -> ~ is_fetch t rq) -> each_step cfg (fun s l => ~ loads t s l) ls s ->
    exists x, c_ended (crun cfg ls s) = c_ended s ++ x /\ flat_map (gave t) x = [] /\ forall b rq, In (b, rq) (c_wire (crun cfg ls s)) -> ~ is_fetch t rq.
  Proof using MD.
    induction ls as [|l ls IH]; intros s I0 U NW ES; [exists []; rewrite app_nil_r; auto|]. destruct ES as [NL ES]. destruct (unloaded_step cfg g fn ac nm MD t s l I0 U NL) as [NF U']. destruct (quiet_step s l I0 U) as (x & E & GX).
    destruct (IH (cstep cfg s l) (inv_step cfg s l I0) U') as (y & EY & GY & NW').
    - intros b rq H. rewrite (step_wire cfg s l I0) in H. apply in_app_iff in H as [H|H]; [now apply (NW b)|]. intros F. exact (NF b rq H F).
    - exact ES.
    - exists (x ++ y). change (crun cfg (l :: ls) s) with (crun cfg ls (cstep cfg s l)). rewrite EY, E, app_assoc, flat_map_app, GX, GY. auto.
  Qed.
End NewGroup.
Theorem C84_unknown_group_refuted {V} (cfg : config V) t k name ls : md cfg <> Single ->
  let s0 := consumer_init k name in let s := crun cfg ls s0 in
  each_step cfg (fun s l => forall i b rq t' parts rest, l = Arrive i b (Ok (POffsetFetch ((t', parts) :: rest))) -> waits_for s i b rq -> is_lookup t rq -> exists p code o, In (p, (code, o)) parts /\ code <> no_error) ls s0 ->
  (forall b rq, In (b, rq) (c_wire s) -> ~ is_fetch t rq) /\ returned t s0 s = [].
Proof.
  intros MS s0 s ES. destruct (md cfg) as [|g fn ac nm] eqn:MD; [now destruct MS|].
  assert (ES' : each_step cfg (fun s l => ~ loads t s l) ls s0).
  { revert ES. generalize s0. clear. induction ls as [|l ls IH]; intros s H; [exact I|]. destruct H as [H1 H2]. split; [|now apply IH]. intros (i & b & rq & t' & parts & rest & -> & W & L & A). destruct (H1 _ _ _ _ _ _ eq_refl W L) as (p & code & o & IN & NE). apply NE. eapply A, IN. }
  destruct (quiet_run cfg t g fn ac nm MD ls s0) as (x & E & GX & NW); [apply inv_init|split; [intros []|intros j o p D; discriminate D]|intros b rq []|exact ES'|]. split; [exact NW|]. unfold returned, ended_since. fold s in E. rewrite E. exact GX.
Qed.

(** ** examples *)
(** a member of the group of PropsGroup.v that has been told where the group is *)
Definition ex_told (ac : bool) (a b : Z) : consumer Z := crun (ex_grouped ac) [Call 2 (OpConsume tt_ None); Arrive 2 2 (Ok (POffsetFetch [(tt_, [(0, (0, a)); (1, (0, b))])]))] (ex_member ac).
Lemma ex_told_start ac a b : at_start tt_ (ex_grouped ac) (ex_told ac a b).
Proof.
  assert (R : forall ls, reachable (ex_grouped ac) (crun (ex_grouped ac) ls (ex_member ac))) by (intros ls; exists ex_cluster, me, (ex_joined ++ ls); unfold ex_member, crun; now rewrite fold_left_app).
  split; [apply R|]. split; [destruct ac; vm_compute; now left|]. right. exists (crun (ex_grouped ac) [Call 2 (OpConsume tt_ None)] (ex_member ac)), (Arrive 2 2 (Ok (POffsetFetch [(tt_, [(0, (0, a)); (1, (0, b))])]))), 2.
  split; [apply R|]. split; [unfold ex_told, crun; cbn [fold_left]; reflexivity|]. split; [eexists _, _; left; do 2 eexists; destruct ac; vm_compute; reflexivity|].
  split; [eexists _, _; split; [destruct ac; vm_compute; reflexivity|]; left; exists 1; eexists; split; [do 4 eexists; split; destruct ac; vm_compute; reflexivity|do 4 eexists; reflexivity]|].
  intros j o p D OT. destruct (Z.eq_dec j 2) as [->|N]; [reflexivity|]. exfalso. destruct ac; vm_compute in D; destruct j as [|[q|[q|q|]|]|q]; try discriminate D; now apply N.
Qed.
(** the member returns what it fetched, commits, goes on, and dies before its next consume() returns *)
Definition ex_first : turn := Turn (ex_grouped false) (ex_told false 5 7)
  [Arrive 2 1 (Ok (PFetch [(tt_, [(0, (0, [(5, msg 2)]))])])); Arrive 2 2 (Ok (PFetch [(tt_, [(1, (0, [(7, msg 5)]))])])); Call 3 (OpCommit None); Arrive 3 2 (Ok (PCommit [(tt_, [(0, 0); (1, 0)])]));
   Call 4 (OpConsume tt_ None); Arrive 4 1 (Ok (PFetch [(tt_, [(0, (0, [(8, msg 3)]))])]))].
(** the next one begins where the first committed *)
Definition ex_second : turn := Turn (ex_grouped false) (ex_told false 6 8)
  [Arrive 2 1 (Ok (PFetch [(tt_, [(0, (0, [(8, msg 3); (9, msg 4)]))])])); Arrive 2 2 (Ok (PFetch [(tt_, [(1, (0, [(8, msg 6)]))])]))].
Ltac ex_norebalance := let ev := fresh in let H := fresh in intros (ev & H & _); discriminate H.
Ltac ex_nobusy := let H := fresh in intros (? & ? & ? & H & _); vm_compute in H; match type of H with context [match ?i with _ => _ end] => destruct i as [|[?|[?|?|]|]|?]; discriminate H | _ => discriminate H end.
Ltac ex_fetch n o := let H := fresh in let W := fresh in intros ? (? & ? & ? & ? & H & W) _; vm_compute in H; injection H as <- <- <- <-; vm_compute in W; injection W as <-; split; [|exact I]; cbn; split; [reflexivity|]; intros _;
  split; [repeat constructor; intros []|]; let X := fresh in intros ? ? ? [X|[]]; injection X as <- <- <-; split; [discriminate|]; intros _; exists o, 1000, n; split; [now left|reflexivity].
Ltac ex_plain := let H := fresh in let W := fresh in intros ? (? & ? & ? & ? & H & W) _; vm_compute in H; injection H as <- <- <- <-; vm_compute in W; injection W as <-; split; exact I.
Lemma ex_first_fair : fair_turn tt_ ex_log ex_first.
Proof.
  split; [do 3 eexists; reflexivity|]. split; [apply ex_told_start|]. split; [intros (i & m & p & D); vm_compute in D; destruct i as [|[q|[q|q|]|]|q]; discriminate D|].
  cbn [ex_first tn_cfg tn_start tn_steps each_step]. split.
  { split; [split; [ex_norebalance|ex_fetch 1%nat 5]|]. split; [split; [ex_norebalance|ex_fetch 1%nat 7]|]. split; [split; [ex_norebalance|exact I]|]. split; [split; [ex_norebalance|ex_plain]|].
    split; [split; [ex_norebalance|intros _; ex_nobusy]|]. split; [split; [ex_norebalance|ex_fetch 1%nat 6]|]. exact I. }
  split; [|intros i o e H; vm_compute in H; repeat (destruct H as [H|H]; [discriminate H|]); destruct H].
  split; [exact I|]. split; [exact I|]. split; [unfold apart; ex_nobusy|]. split; [exact I|]. split; [unfold apart; intros _ (i & m & p & D); vm_compute in D; discriminate D|]. split; [exact I|]. exact I.
Qed.
Lemma ex_second_fair : fair_turn tt_ ex_log ex_second.
Proof.
  split; [do 3 eexists; reflexivity|]. split; [apply ex_told_start|]. split; [intros (i & m & p & D); vm_compute in D; destruct i as [|[q|[q|q|]|]|q]; discriminate D|].
  cbn [ex_second tn_cfg tn_start tn_steps each_step]. split.
  { split; [split; [ex_norebalance|ex_fetch 2%nat 6]|]. split; [split; [ex_norebalance|ex_fetch 1%nat 8]|]. exact I. }
  split; [|intros i o e H; vm_compute in H; repeat (destruct H as [H|H]; [discriminate H|]); destruct H]. repeat split.
Qed.
Lemma ex_first_commits : committed_in tt_ ex_first 0 6.
Proof.
  exists (firstn 2 (tn_steps ex_first)), (Call 3 (OpCommit None)), (skipn 3 (tn_steps ex_first)). split; [reflexivity|]. do 5 eexists. split; [vm_compute; left; reflexivity|]. split; [left; reflexivity|left; reflexivity].
Qed.
Example C81_example : let cfg := tn_cfg ex_first in let s0 := tn_start ex_first in
  at_start tt_ cfg s0 /\ busy s0 tt_ /\ each_step cfg (undisturbed tt_ ex_log cfg) (tn_steps ex_first) s0 /\ none_raised tt_ s0 (tn_end ex_first) /\
  tn_gave tt_ ex_first = [2; 5] /\ busy (tn_end ex_first) tt_ /\ position (tn_end ex_first) tt_ 0 = 9 /\ position (tn_end ex_first) tt_ 1 = 8.
Proof.
  cbv zeta. destruct ex_first_fair as (_ & A & _ & U & _ & N). split; [exact A|]. split; [exists 2; do 2 eexists; split; [vm_compute; reflexivity|reflexivity]|]. split; [exact U|]. split; [exact N|]. split; [vm_compute; reflexivity|].
  split; [exists 4; do 2 eexists; split; [vm_compute; reflexivity|reflexivity]|]. vm_compute. auto.
Qed.
Example C82_example : turns tt_ ex_log 0 5 [ex_second; ex_first] /\ committed_in tt_ ex_first 0 6 /\ ~ busy (tn_end ex_second) tt_ /\ position (tn_end ex_second) tt_ 0 = 10 /\ tn_gave tt_ ex_first = [2; 5] /\ tn_gave tt_ ex_second = [3; 4; 6].
Proof.
  split; [|split; [exact ex_first_commits|split; [ex_nobusy|vm_compute; auto]]]. apply turns_next; [apply turns_next; [apply turns_nil|exact ex_first_fair|now left]|exact ex_second_fair|]. right. exists ex_first. split; [now left|exact ex_first_commits].
Qed.
(** With autocommit the claim is false: consume() commits before it returns.  A member that dies in between has committed
    an offset beyond a message that no program ever saw. *)
Theorem C82_autocommit_refuted : exists (cfg : config Z) s ls l p c o m, (exists g fn name, md cfg = Grouped g fn true name) /\ at_start tt_ cfg s /\
  each_step cfg (undisturbed tt_ ex_log cfg) (ls ++ [l]) s /\ each_step cfg (apart tt_) (ls ++ [l]) s /\ none_raised tt_ s (crun cfg (ls ++ [l]) s) /\
  commits_at tt_ cfg (crun cfg ls s) l p c /\ In (o, m) (ex_log p) /\ position s tt_ p <= o < c /\ (exists v, deser cfg (msg_value m) = Ok v /\ truthy cfg v = true) /\ returned tt_ s (crun cfg (ls ++ [l]) s) = [].
Proof.
  exists (ex_grouped true), (ex_told true 5 7), [Arrive 2 1 (Ok (PFetch [(tt_, [(0, (0, [(5, msg 2)]))])]))], (Arrive 2 2 (Ok (PFetch [(tt_, [(1, (0, [(7, msg 5)]))])]))), 0, 6, 5, (msg 2).
  split; [do 3 eexists; reflexivity|]. split; [apply ex_told_start|]. split.
  { split; [split; [ex_norebalance|ex_fetch 1%nat 5]|]. split; [split; [ex_norebalance|ex_fetch 1%nat 7]|]. exact I. }
  split; [repeat split|]. split; [intros i o e H; vm_compute in H; destruct H|]. split; [do 5 eexists; split; [vm_compute; left; reflexivity|split; [left; reflexivity|left; reflexivity]]|].
  split; [vm_compute; auto|]. split; [vm_compute; split; [discriminate|reflexivity]|]. split; [eexists; split; reflexivity|vm_compute; reflexivity].
Qed.
(** Without autocommit it is false when commit_offsets() is called while consume() waits: it commits what consume() has
    not returned yet. *)
Theorem C82_overlap_refuted : exists (cfg : config Z) s ls l p c o m, (exists g fn name, md cfg = Grouped g fn false name) /\ at_start tt_ cfg s /\
  each_step cfg (undisturbed tt_ ex_log cfg) (ls ++ [l]) s /\ none_raised tt_ s (crun cfg (ls ++ [l]) s) /\
  commits_at tt_ cfg (crun cfg ls s) l p c /\ In (o, m) (ex_log p) /\ position s tt_ p <= o < c /\ (exists v, deser cfg (msg_value m) = Ok v /\ truthy cfg v = true /\ ~ In v (returned tt_ s (crun cfg (ls ++ [l]) s))).
Proof.
  exists (ex_grouped false), (ex_told false 5 7),
    [Arrive 2 1 (Ok (PFetch [(tt_, [(0, (0, [(5, msg 2)]))])])); Arrive 2 2 (Ok (PFetch [(tt_, [(1, (0, [(7, msg 5)]))])])); Call 4 (OpConsume tt_ None); Arrive 4 1 (Ok (PFetch [(tt_, [(0, (0, [(8, msg 3)]))])]))],
    (Call 5 (OpCommit None)), 0, 9, 8, (msg 3).
  split; [do 3 eexists; reflexivity|]. split; [apply ex_told_start|]. split.
  { split; [split; [ex_norebalance|ex_fetch 1%nat 5]|]. split; [split; [ex_norebalance|ex_fetch 1%nat 7]|]. split; [split; [ex_norebalance|intros _; ex_nobusy]|]. split; [split; [ex_norebalance|ex_fetch 1%nat 6]|]. split; [split; [ex_norebalance|exact I]|]. exact I. }
  split; [intros i o e H; vm_compute in H; repeat (destruct H as [H|H]; [discriminate H|]); destruct H|]. split; [do 5 eexists; split; [vm_compute; left; reflexivity|split; [left; reflexivity|left; reflexivity]]|].
  split; [vm_compute; auto|]. split; [vm_compute; split; [discriminate|reflexivity]|]. exists 3. split; [reflexivity|]. split; [reflexivity|]. vm_compute. intros [H|[H|[]]]; discriminate H.
Qed.
Example C83_example : let ls := tn_steps ex_first ++ [Arrive 4 2 (Ok (PFetch [(tt_, [(1, (0, [(8, msg 6)]))])])); Call 5 (OpCommit None)] in
  commits_at tt_ (ex_grouped false) (crun (ex_grouped false) (firstn 2 ls) (ex_told false 5 7)) (Call 3 (OpCommit None)) 0 6 /\
  commits_at tt_ (ex_grouped false) (crun (ex_grouped false) (firstn 7 ls) (ex_told false 5 7)) (Call 5 (OpCommit None)) 0 9.
Proof. split; (do 5 eexists; split; [vm_compute; left; reflexivity|split; [left; reflexivity|left; reflexivity]]). Qed.
(** After a rebalance commits go back: commit_offsets() before the next consume() commits 0 for a partition that the
    consumer was just given, that it never asked the brokers about, and that others have consumed and committed. *)
Theorem C83_after_rebalance_refuted : exists (cfg : config Z) s l l', reachable cfg s /\ rebalances cfg s l /\ alloc_of cfg s tt_ = [0] /\ (forall i o p, dget (c_calls s) i <> Some (o, p)) /\
  (forall b rq p, In (b, rq) (c_wire s) -> In p (match rq with RFetch _ _ _ _ parts => map fst parts | ROffsetFetch _ _ ps => ps | _ => [] end) -> p = 0) /\
  l' = Call 9 (OpCommit None) /\ commits_at tt_ cfg (cstep cfg s l) l' 1 0.
Proof.
  exists (ex_grouped false), (crun (ex_grouped false) (ex_small ++ [Arrive 2 2 (Ok (POffsetFetch [(tt_, [(0, (0, 5))])])); Arrive 2 1 (Ok (PFetch [(tt_, [(0, (0, [(5, msg 2)]))])]))]) (consumer_init ex_cluster me)), ex_grow, (Call 9 (OpCommit None)).
  split; [do 3 eexists; reflexivity|]. split; [eexists; split; [reflexivity|]; vm_compute; discriminate|]. split; [vm_compute; reflexivity|]. split; [intros i o p H; vm_compute in H; destruct i as [|[q|[q|q|]|]|q]; discriminate H|].
  split; [|split; [reflexivity|do 5 eexists; split; [vm_compute; left; reflexivity|split; [left; reflexivity|right; left; reflexivity]]]].
  intros b rq p H I. vm_compute in H. repeat (destruct H as [H|H]; [injection H as <- <-; cbn in I; try (destruct I as [I|[]]; [now subst p]); try contradiction|]); destruct H.
Qed.
(** a group that never committed: the answers have code 3 (unknown topic or partition, retriable); the consumer asks again and again *)
Definition ex_unknown : list label := ex_joined ++ [Call 2 (OpConsume tt_ None); Arrive 2 2 (Ok (POffsetFetch [(tt_, [(0, (3, -1)); (1, (3, -1))])])); Healed 2 (Ok tt); Arrive 2 2 (Ok (POffsetFetch [(tt_, [(0, (3, -1)); (1, (3, -1))])])); Healed 2 (Ok tt)].
Example C84_example : let s := crun (ex_grouped true) ex_unknown (consumer_init ex_cluster me) in busy s tt_ /\ returned tt_ (consumer_init ex_cluster me) s = [] /\
  c_wire s = [(1, RCoordinator (txt "g")); (2, ROffsetFetch (txt "g") tt_ [0; 1]); (2, ROffsetFetch (txt "g") tt_ [0; 1]); (2, ROffsetFetch (txt "g") tt_ [0; 1])].
Proof. split; [exists 2; do 2 eexists; split; [vm_compute; reflexivity|reflexivity]|]. vm_compute. auto. Qed.
(** If the brokers say "-1" and no error instead, the consumer fetches from -1, is told that this is out of range, returns
    nothing, and does the same again at its next consume(). *)
Definition ex_round (i : Z) : list label :=
  [Call i (OpConsume tt_ None); Arrive i 2 (Ok (POffsetFetch [(tt_, [(0, (0, -1)); (1, (0, -1))])])); Arrive i 1 (Ok (PFetch [(tt_, [(0, (offset_out_of_range, []))])])); Arrive i 2 (Ok (PFetch [(tt_, [(1, (offset_out_of_range, []))])]))].
Theorem C84_minus_one_refuted : let cfg := ex_grouped false in let s := ex_member false in let s1 := crun cfg (ex_round 2) s in let s2 := crun cfg (ex_round 3) s1 in
  reachable cfg s /\ In (1, RFetch (-1) 1000 1 tt_ [(0, (-1, 1000))]) (c_wire s1) /\ ended_since s s1 = [(2, OpConsume tt_ None, Ok (RvList []))] /\
  ended_since s1 s2 = [(3, OpConsume tt_ None, Ok (RvList []))] /\ c_offsets s2 = c_offsets s1 /\ c_synced s2 = c_synced s1 /\ c_calls s2 = c_calls s1 /\ c_alloc s2 = c_alloc s1 /\ c_cluster s2 = c_cluster s1.
Proof. cbv zeta. split; [exists ex_cluster, me, ex_joined; reflexivity|]. vm_compute. repeat split. auto 10. Qed.

Print Assumptions C81_follows_log.
Print Assumptions C82_committed_returned.
Print Assumptions C82_at_least_once_partial.
Print Assumptions C82_autocommit_refuted.
Print Assumptions C82_overlap_refuted.
Print Assumptions C83_commits_forward_partial.
Print Assumptions C83_after_rebalance_refuted.
Print Assumptions C84_stored_partial.
Print Assumptions C84_unknown_group_refuted.
Print Assumptions C84_minus_one_refuted.
