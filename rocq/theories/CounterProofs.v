(** Proofs for C102. *)
From Coq Require Import ZArith Lia String List Bool Permutation.
From Verif Require Import PyBase BaseLemmas Constants Cluster Zookeeper Consumer SpecConsumer ConsumerProofs ConsumerSteps ConsumerRuns ConsumerSync PropsConsumer SpecLog FollowRuns PropsLog PropsGroupLog TeamProofs Counter SpecCounter.
Import ListNotations.
Open Scope Z_scope.
Set Default Proof Using "Type".

(** ** until the consumer knows its positions *)
Section Open.
  Context {V : Type}.
  Variable cfg : config V.
  Variable t : text.
  Hypothesis MD : md cfg = Single.
  Notation st := (consumer V).

  Lemma answer_state_ended r (s : st) : c_ended (answer_state cfg r s) = c_ended s.
  Proof. apply (answer_state_same cfg r s). Qed.
  Definition looking (p : pc V) : Prop := exists rq, (exists w rs, p = PSend (KOffsets t rq) w rs) \/ exists rs, p = PHeal (KOffsets t rq) rs.
  Definition opens (ns : next V * st) : Prop :=
    match fst ns with
    | Return v => gives v = []
    | Raise_ _ => True
    | Await p => (In t (c_synced (snd ns)) /\ waiting_at cfg t (snd ns) p /\ held cfg p = []) \/ (~ In t (c_synced (snd ns)) /\ looking p)
    end.
  Lemma base_opens (s : st) : opens (base_done cfg t (RvList []) s).
  Proof using MD. unfold base_done. rewrite MD. reflexivity. Qed.
  Lemma starts_opens (ns : next V * st) : starts cfg t ns -> In t (c_synced (snd ns)) -> opens ns.
  Proof. unfold starts, opens. destruct (fst ns); [intros [A B] C; left; auto|auto|auto]. Qed.
  Lemma quietw_synced (s s' : st) ex : quietw cfg s s' ex -> c_synced s' = c_synced s.
  Proof. intros [Q _]. exact (q_synced _ _ _ Q). Qed.
  Lemma fetch_synced (s : st) : c_synced (snd (fetch cfg t s)) = c_synced s.
  Proof using MD.
    destruct (fetch_spec cfg t s) as [(e & ex & _ & Q & _)|[(_ & s1 & Q & ->)|(_ & rqs & ex & _ & Q & _)]]; [exact (quietw_synced _ _ _ Q)| |exact (quietw_synced _ _ _ Q)]. unfold base_done. rewrite MD. exact (q_synced _ _ _ Q).
  Qed.
  Lemma after_synced (s : st) : c_synced (snd (after_offsets cfg t s)) = c_synced s.
  Proof using MD.
    destruct (after_offsets_spec cfg t s) as [(s1 & Q & _ & ->)|[(e & ex & _ & Q)|(_ & Q)]]; [rewrite fetch_synced; exact (q_synced _ _ _ Q)|exact (quietw_synced _ _ _ Q)|exact (q_synced _ _ _ Q)].
  Qed.
  Lemma after_opens (s : st) : In t (c_synced s) -> opens (after_offsets cfg t s).
  Proof using MD. intros H. apply starts_opens; [apply after_starts|now rewrite after_synced]. Qed.
  Lemma raised_opens rq e (s : st) : opens (raised cfg (KOffsets t rq) e s).
  Proof using MD. unfold raised. destruct e; try exact I. apply base_opens. Qed.
  Lemma resume_opens rq rs (s : st) : opens (resume cfg (KOffsets t rq) rs s).
  Proof using MD. unfold resume. rewrite MD. apply after_opens. cbn. apply in_sadd. now left. Qed.
  Lemma end_opens rq rs (s : st) : ~ In t (c_synced s) -> opens (send_end cfg (KOffsets t rq) rs s).
  Proof using MD. intros N. unfold send_end. destruct (c_heal s); [|apply resume_opens]. right. split; [exact N|]. exists rq. right. now exists rs. Qed.
  Lemma determine_opens start (s : st) : ~ In t (c_synced s) -> opens (determine_offsets cfg t start s).
  Proof using MD.
    intros N. unfold determine_offsets. destruct (alloc_index_spec cfg t s) as [Q1 _]. rewrite MD. destruct (alloc_index cfg t s) as [[ps|e] s1]; [|exact I]. cbn [snd] in Q1.
    set (time := start_to_timestamp cfg _). pose proof (offset_requests_quiet cfg t time ps [] s1) as Q2. destruct (offset_requests t time ps [] s1) as [[rqs|e] s2]; [|exact I]. cbn [snd] in Q2.
    destruct (send_all_spec cfg rqs s2) as (pre & post & _ & E & _). destruct (send_all cfg rqs s2) as [[u|e] s3]; [|exact I]. cbn [snd] in E.
    assert (N3 : ~ In t (c_synced s3)) by (subst s3; cbn; rewrite (q_synced _ _ _ Q2), (q_synced _ _ _ Q1); exact N).
    destruct rqs; [now apply end_opens|]. right. split; [exact N3|]. exists None. left. now exists (p :: rqs), [].
  Qed.
  Lemma consume_opens start (s : st) : ~ In t (c_synced s) -> opens (consume cfg t start s).
  Proof using MD.
    intros N. unfold consume. destruct (c_closing s); [unfold base_done; rewrite MD; reflexivity|]. destruct (smem (c_synced s) t) eqn:SM; [apply smem_In in SM; contradiction|].
    pose proof (determine_opens (match md cfg with Single => start | _ => None end) s N) as F. destruct (determine_offsets _ _ _ _) as [[]]; try exact F. apply raised_opens.
  Qed.
  Lemma answer_unsynced r (s : st) : ~ In t (c_synced s) -> ~ In t (c_synced (answer_state cfg r s)).
  Proof.
    intros N H. apply N. destruct r as [resp|e]; cbn [answer_state] in H; [exact (h_synced _ _ _ (handle_handled cfg resp s) t H)|]. destruct (sets_heal e); exact H.
  Qed.

  (** the program's calls: consume(t), one at a time *)
  Definition alone (s : st) : Prop := (forall i o p, dget (c_calls s) i = Some (o, p) -> o = OpConsume t None) /\ (forall i j o o' p p', dget (c_calls s) i = Some (o, p) -> dget (c_calls s) j = Some (o', p') -> i = j) /\ forall i o r, In (i, o, r) (c_ended s) -> o = OpConsume t None.
  Lemma alone_step color (s : st) l : inv cfg s -> alone s -> may t color s l -> alone (cstep cfg s l).
  Proof.
    intros I0 (A & B & C) MA. pose proof (fun i o p' => calls_step cfg s l i o p' I0) as CS.
    assert (A' : forall i o p, dget (c_calls (cstep cfg s l)) i = Some (o, p) -> o = OpConsume t None).
    { intros i o p D. destruct (CS i o p D) as [(p0 & D0)|E]; [exact (A _ _ _ D0)|]. rewrite E in MA. apply MA. }
    split; [exact A'|]. split.
    - intros i j o o' p p' D D'. destruct (CS i o p D) as [(p0 & D0)|E], (CS j o' p' D') as [(p1 & D1)|E']; [exact (B _ _ _ _ _ _ D0 D1)| | |congruence].
      + rewrite E' in MA. destruct MA as (_ & EC & _). rewrite EC in D0. discriminate D0.
      + rewrite E in MA. destruct MA as (_ & EC & _). rewrite EC in D1. discriminate D1.
    - intros i o r H. destruct (step_ends cfg s l I0) as [E|(j & o' & r' & E & _ & W)]; rewrite E in H; [exact (C _ _ _ H)|]. apply in_app_iff in H as [H|[H|[]]]; [exact (C _ _ _ H)|]. injection H as <- <- <-.
      destruct W as [(_ & p & W)|W]; [exact (A _ _ _ W)|]. rewrite W in MA. apply MA.
  Qed.
  Definition shut (s : st) : Prop := ~ In t (c_synced s) /\ (forall i o p, dget (c_calls s) i = Some (o, p) -> looking p) /\ flat_map (gave t) (c_ended s) = [].
  Definition ready_at (s : st) : Prop := In t (c_synced s) /\ (forall i o p, dget (c_calls s) i = Some (o, p) -> waiting_at cfg t s p /\ held cfg p = []) /\ flat_map (gave t) (c_ended s) = [].
  Lemma gave_gives i r : gives r = [] -> gave t (i, OpConsume t None, Ok r) = [] :> list V.
  Proof. cbn. destruct r as [|l]; [reflexivity|]. cbn. intros ->. now destruct (list_eqb t t). Qed.
  Lemma continue_opens i (ns : next V * st) (s : st) : NoDup (dkeys (c_calls s)) -> c_calls (snd ns) = c_calls s -> c_ended (snd ns) = c_ended s -> flat_map (gave t) (c_ended s) = [] ->
    (forall j o p, dget (c_calls s) j = Some (o, p) -> j = i) -> opens ns -> shut (continue i (OpConsume t None) ns) \/ ready_at (continue i (OpConsume t None) ns).
  Proof.
    intros ND C E G ONE O. destruct ns as [n s1]. cbn [fst snd] in *.
    assert (CALLS : forall j o p, dget (c_calls (continue i (OpConsume t None) (n, s1))) j = Some (o, p) -> n = Await p).
    { intros j o p D. destruct (continue_calls i (OpConsume t None) (n, s1) j) as [_ X]; [cbn; now rewrite C|]. rewrite X in D. cbn [fst snd] in D. destruct (Z.eqb_spec j i) as [->|NE]; [destruct n; try discriminate D; now injection D as _ ->|]. rewrite C in D. destruct NE. exact (ONE _ _ _ D). }
    assert (GE : flat_map (gave t) (c_ended (continue i (OpConsume t None) (n, s1))) = []).
    { destruct n as [p|v|e]; cbn [continue set_calls set_ended c_ended]; rewrite E; [exact G|..]; rewrite flat_map_app, G; cbn [app flat_map]; rewrite app_nil_r; [now apply gave_gives|reflexivity]. }
    assert (SY : c_synced (continue i (OpConsume t None) (n, s1)) = c_synced s1) by (destruct n; reflexivity).
    assert (DEC : In t (c_synced s1) \/ ~ In t (c_synced s1)) by (destruct (smem (c_synced s1) t) eqn:SM; [left; now apply smem_In|right; intros H; apply smem_In in H; congruence]).
    destruct DEC as [H|H].
    - right. split; [now rewrite SY|]. split; [|exact GE]. intros j o p D. pose proof (CALLS _ _ _ D) as ->. destruct O as [(_ & W & HE)|(N & _)]; [|contradiction]. split; [|exact HE]. eapply waiting_pos; [|exact W]. reflexivity.
    - left. split; [now rewrite SY|]. split; [|exact GE]. intros j o p D. pose proof (CALLS _ _ _ D) as ->. destruct O as [(N & _)|(_ & L)]; [contradiction|exact L].
  Qed.
  Lemma shut_step color (s : st) l : inv cfg s -> alone s -> shut s -> may t color s l -> shut (cstep cfg s l) \/ ready_at (cstep cfg s l).
  Proof using MD.
    intros I0 (A & B & _) (NS & L & G) MA. assert (ND : NoDup (dkeys (c_calls s))) by apply I0. pose proof (cstep_did cfg s l I0) as DD. remember (cstep cfg s l) as s' eqn:ES. clear ES.
    destruct DD as [l _|i o1 ns D1 E1 P|i b r o1 k w1 rs1 rq1 D1 F1 W IA HF NE F'|i b r o1 k w1 rs1 rq1 ns D1 F1 W IA E1 P|i r o1 k rs1 s1 ns D1 F1 E1 P|i r t1 st1 ns D1 E1 P|k|g fn ac name ev M|].
    - left. split; auto.
    - destruct MA as (-> & EC & _). destruct P as [(ex & M & _) _ _ _]. apply (continue_opens i ns s ND); [exact (p_calls _ _ _ _ _ _ M)|exact (p_ended _ _ _ _ _ _ M)|exact G| |subst ns; now apply consume_opens].
      intros j o p D. rewrite EC in D. discriminate D.
    - left. pose proof (A _ _ _ D1) as ->. destruct (L _ _ _ D1) as (rq & [(w' & rs' & EQ)|(rs' & EQ)]); [|discriminate EQ]. injection EQ as -> <- <-. pose proof (answer_unsynced r s NS) as N1. split; [exact N1|]. split.
      + intros j o p D. destruct (continue_calls i (OpConsume t None) (Await (PSend (KOffsets t rq) (ddel w1 b) (answer_results cfg b r rs1 s)), answer_state cfg r s) j) as [_ X]; [cbn [snd]; now rewrite answer_state_calls|].
        rewrite X in D. cbn [fst snd] in D. rewrite answer_state_calls in D. destruct (Z.eqb_spec j i) as [->|N]; [|exact (L _ _ _ D)]. injection D as <- <-. exists rq. left. eauto.
      + cbn [continue set_calls c_ended]. now rewrite answer_state_ended.
    - pose proof (A _ _ _ D1) as ->. destruct (L _ _ _ D1) as (rq & [(w' & rs' & EQ)|(rs' & EQ)]); [|discriminate EQ]. injection EQ as -> <- <-. pose proof (answer_unsynced r s NS) as N1.
      destruct (paid_some cfg (KOffsets t rq) rs1) as [lv PD]. destruct (P lv PD) as [(ex & M & _) _ _ _]. apply (continue_opens i ns s ND).
      + rewrite (p_calls _ _ _ _ _ _ M). apply answer_state_calls.
      + rewrite (p_ended _ _ _ _ _ _ M). apply answer_state_ended.
      + exact G.
      + intros j o p D. exact (B _ _ _ _ _ _ D D1).
      + destruct E1 as [(_ & _ & ->)|(e & _ & ->)]; [now apply end_opens|apply raised_opens].
    - pose proof (A _ _ _ D1) as ->. destruct (L _ _ _ D1) as (rq & [(w' & rs' & EQ)|(rs' & EQ)]); [discriminate EQ|]. injection EQ as -> <-.
      destruct (paid_some cfg (KOffsets t rq) rs1) as [lv PD]. destruct (P lv PD) as [(ex & M & _) _ _ _].
      assert (S1 : c_calls s1 = c_calls s /\ c_ended s1 = c_ended s) by (destruct E1 as [(u & _ & -> & _)|(e & _ & -> & _)]; split; reflexivity). destruct S1 as [C1 C2]. apply (continue_opens i ns s ND).
      + now rewrite (p_calls _ _ _ _ _ _ M).
      + now rewrite (p_ended _ _ _ _ _ _ M).
      + exact G.
      + intros j o p D. exact (B _ _ _ _ _ _ D D1).
      + destruct E1 as [(u & _ & _ & ->)|(e & _ & _ & ->)]; [apply resume_opens|apply raised_opens].
    - exfalso. destruct (L _ _ _ D1) as (rq & [(w' & rs' & EQ)|(rs' & EQ)]); discriminate EQ.
    - left. split; auto.
    - rewrite MD in M. discriminate M.
    - left. split; auto.
  Qed.
End Open.

(** ** the counter *)
Section Tally.
  Context {V : Type}.
  Variable t : text.
  Variable color : V -> option text.

  Lemma count_dset c x y n : count (dset c x n) y = if eqb x y then n else count c y.
  Proof.
    unfold count. destruct (eqb x y) eqn:E; [apply eqb_true in E; subst y; now rewrite dget_dset_same|]. rewrite dget_dset_other; [reflexivity|]. intros ->. now rewrite eqb_refl in E.
  Qed.
  Lemma count_update xs y : forall c, count (update c xs) y = count c y + zlen (filter (fun x => eqb x y) xs).
  Proof.
    induction xs as [|x xs IH]; intros c; [cbn; unfold zlen; cbn; lia|]. unfold update in *. cbn [fold_left]. rewrite IH, count_dset. cbn [filter]. destruct (eqb x y) eqn:E; [apply eqb_true in E; subst y|]; unfold zlen; cbn [length]; lia.
  Qed.
  Lemma colors_having y ms xs : colors color ms = Some xs -> zlen (filter (fun x => eqb x y) xs) = having color y ms.
  Proof.
    revert xs. induction ms as [|m ms IH]; intros xs E; cbn [colors] in E; [injection E as <-; reflexivity|]. unfold having in *. cbn [filter]. destruct (color m) as [c|]; [|discriminate E]. destruct (colors color ms) as [cs|]; [|discriminate E]. injection E as <-.
    specialize (IH cs eq_refl). cbn [filter]. unfold zlen in *. destruct (eqb c y); cbn [length]; lia.
  Qed.
  Lemma having_app y a b : having color y (a ++ b) = having color y a + having color y b.
  Proof. unfold having, zlen. rewrite filter_app, app_length. lia. Qed.
  Lemma tally_counts es : (forall i o r, In (i, o, r) es -> o = OpConsume t None) -> forall c c', tally color es c = Some c' -> forall y, count c' y = count c y + having color y (flat_map (gave t) es).
  Proof.
    induction es as [|[[i o] r] es IH]; intros A c c' T y; cbn [tally] in T; [injection T as <-; cbn; unfold having, zlen; cbn; lia|]. destruct r as [[|ms]|e]; try discriminate T. destruct (colors color ms) as [xs|] eqn:E; [|discriminate T].
    rewrite (A i o _ (or_introl eq_refl)). rewrite (IH (fun i' o' r' H => A i' o' r' (or_intror H)) _ _ T), count_update, (colors_having y ms xs E). cbn [flat_map]. rewrite having_app. cbn [gave]. rewrite eqb_refl. lia.
  Qed.
  Lemma tally_prefix a b : forall c, tally color (a ++ b) c <> None -> tally color a c <> None.
  Proof.
    induction a as [|[[i o] r] a IH]; intros c H; [discriminate|]. cbn [app tally] in *. destruct r as [[|ms]|e]; try (now destruct H). destruct (colors color ms); [now apply IH|now destruct H].
  Qed.
  Lemma tally_raised es : forall c, tally color es c <> None -> forall i o e, ~ In (i, o, Err e) es.
  Proof.
    induction es as [|[[i o] r] es IH]; intros c H i' o' e X; [destruct X|]. destruct X as [X|X].
    - injection X as _ _ ->. cbn in H. now destruct H.
    - cbn [tally] in H. destruct r as [[|ms]|e']; try (now destruct H). destruct (colors color ms) as [xs|]; [exact (IH _ H _ _ _ X)|now destruct H].
  Qed.
End Tally.

Section Run.
  Context {V : Type}.
  Variable cfg : config V.
  Variable t : text.
  Variable color : V -> option text.
  Variable log : Z -> list (Z * pymsg).
  Variable k : cluster.
  Variable name : text.
  Hypothesis MD : md cfg = Single.
  Hypothesis LOG : forall p, is_log (log p).
  Notation st := (consumer V).
  Notation at_ ls := (crun cfg ls (consumer_init k name)).
  Notation books s0 := (in_log cfg t log s0).

  Lemma at_snoc ls l : at_ (ls ++ [l]) = cstep cfg (at_ ls) l.
  Proof. unfold crun. now rewrite fold_left_app. Qed.
  Lemma counting_snoc ls l : counting t color log cfg k name (ls ++ [l]) -> counting t color log cfg k name ls /\ counts_on t color log cfg (at_ ls) l.
  Proof.
    unfold counting. generalize (consumer_init k name : st) as s. induction ls as [|x ls IH]; intros s H; cbn [app each_step] in *; [split; [exact I|apply H]|]. destruct H as [H1 H2]. destruct (IH _ H2) as [A B]. split; [now split|exact B].
  Qed.
  Lemma ready_follows s : inv cfg s -> alone t s -> ready_at cfg t s -> follows cfg t s (books s) [] s.
  Proof.
    intros I0 (A & B & _) (SY & W & _). assert (RT : returned t s s = []) by (unfold returned, ended_since; now rewrite skipn_all). constructor; auto.
    - intros i j o o' p p' D _ D' _. exact (B _ _ _ _ _ _ D D').
    - intros i o p D _. destruct (W _ _ _ D) as [W1 W2]. split; [exact W1|]. now rewrite RT, W2.
    - exists []. now rewrite app_nil_r.
    - apply in_log_start.
  Qed.
  Definition counted_well (ls : list label) : Prop :=
    shut t (at_ ls) \/ exists s0 D, learns t cfg k name ls s0 /\ flat_map (gave t) (c_ended s0) = [] /\ follows cfg t s0 (books s0) D (at_ ls).
  Lemma alive_before ls l : color_counter color (at_ (ls ++ [l])) <> None -> color_counter color (at_ ls) <> None.
  Proof.
    unfold color_counter. rewrite at_snoc. destruct (step_ends cfg (at_ ls) l) as [E|(i & o & r & E & _)]; [apply inv_run, inv_init|now rewrite E|]. rewrite E. apply tally_prefix.
  Qed.
  Lemma counts_well ls : counting t color log cfg k name ls -> alone t (at_ ls) /\ (color_counter color (at_ ls) <> None -> counted_well ls).
  Proof using MD LOG.
    induction ls as [|l ls IH] using rev_ind; intros C.
    - split; [split; [intros i o p D; discriminate D|split; [intros i j o o' p p' D; discriminate D|intros i o r []]]|]. intros _. left. split; [intros []|]. split; [intros i o p D; discriminate D|reflexivity].
    - apply counting_snoc in C as [C (MA & SV)]. destruct (IH C) as [AL CW]. assert (I0 : inv cfg (at_ ls)) by apply inv_run, inv_init. assert (AL' : alone t (at_ (ls ++ [l]))) by (rewrite at_snoc; exact (alone_step cfg t color _ l I0 AL MA)).
      split; [exact AL'|]. intros AV. pose proof (alive_before ls l AV) as AV0. destruct (CW AV0) as [SH|(s0 & D & (ls0 & l0 & ls1 & E & N & ES & SY) & G & F)].
      + rewrite at_snoc in AL'. unfold counted_well. rewrite at_snoc. destruct (shut_step cfg t MD color (at_ ls) l I0 AL SH MA) as [SH'|RD]; [left; exact SH'|]. right. exists (cstep cfg (at_ ls) l), []. split.
        * exists ls, l, []. split; [reflexivity|]. split; [apply SH|]. split; [now rewrite at_snoc|apply RD].
        * split; [apply RD|]. apply ready_follows; [now apply inv_step|exact AL'|exact RD].
      + right.
        assert (OR : each_step cfg (orderly_ t (serves t log)) [l] (at_ ls)).
        { split; [|exact I]. destruct l as [i [t' start|m|]|i b [r|e]|i r|k'|ev|]; try exact I; [|exact SV]. intros _ (j & o & p & D0 & _). destruct MA as (_ & EC & _). rewrite EC in D0. discriminate D0. }
        assert (NR : none_raised t s0 (crun cfg [l] (at_ ls))).
        { intros i o e H. exfalso. unfold color_counter in AV. apply (tally_raised color _ _ AV i o e). rewrite at_snoc. unfold ended_since in H. rewrite <- (firstn_skipn (length (c_ended s0))). apply in_app_iff. right. exact H. }
        destruct (follows_run cfg t s0 (serves t log) (books s0) (in_log_ext cfg t log s0) (serves_fetch t log) (fun _ _ _ _ _ _ H => H) (or_introl MD) (in_log_step cfg t log s0 LOG) [l] MD D (at_ ls) F OR NR) as (D' & F').
        exists s0, D'. split; [exists ls0, l0, (ls1 ++ [l]); split; [rewrite E, <- app_assoc; reflexivity|auto]|]. split; [exact G|]. rewrite at_snoc. exact F'.
  Qed.
End Run.
