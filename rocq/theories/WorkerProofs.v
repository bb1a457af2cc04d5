(** Proofs for C100. *)
From Coq Require Import ZArith String List Bool Lia.
From Verif Require Import PyBase BaseLemmas Constants Cluster Zookeeper SpecZk ZkAlloc Consumer SpecConsumer ConsumerProofs ConsumerSteps ConsumerRuns ConsumerSync PropsConsumer SpecGroup GroupProofs PropsGroup PropsCoord SpecHistory PropsHistory SpecLog FollowRuns PropsLog SpecGroupLog PropsGroupLog SpecTeam TeamProofs Worker SpecWorker.
Import ListNotations.
Open Scope Z_scope.
Set Default Proof Using "Type".

Section Ends.
  Context {V : Type}.
  Variable cfg : config V.
  Notation st := (consumer V).
  Variable t : text.
  Variables (g : text) (fn : list text -> list text -> res mapping) (nm : text).
  Hypothesis MD : md cfg = Grouped g fn false nm.
  (** a consume(t) that returns messages leaves the topic among those with known positions *)
  Lemma returns_synced (s : st) l i start x ms : inv cfg s -> c_ended (cstep cfg s l) = c_ended s ++ [(i, OpConsume t start, Ok (RvList (x :: ms)))] -> In t (c_synced (cstep cfg s l)).
  Proof using MD.
    intros I0. pose proof (cstep_did cfg s l I0) as DD. remember (cstep cfg s l) as s' eqn:ES. clear ES.
    assert (NOT : c_ended s = c_ended s ++ [(i, OpConsume t start, Ok (RvList (x :: ms)))] -> In t (c_synced s')). { intros E. apply (f_equal (@length _)) in E. rewrite app_length in E. cbn in E. lia. }
    assert (CONT : forall j o (ns : next V * st) s1, c_ended s1 = c_ended s -> (exists lk ex, moves cfg lk o ex s1 (snd ns)) -> (on_topic t o -> nextpay cfg [] (fst ns) \/ (forall v, fst ns = Return v -> v = RvList [] \/ In t (c_synced (snd ns)))) ->
      c_ended (continue j o ns) = c_ended s ++ [(i, OpConsume t start, Ok (RvList (x :: ms)))] -> In t (c_synced (continue j o ns))).
    { intros j o ns s1 E1 (lk & ex & M) PY. rewrite continue_ended, (p_ended _ _ _ _ _ _ M), E1. intros E. apply app_inv_head in E. destruct (ConsumerRuns.continue_same j o ns) as (_ & SY & _). rewrite SY.
      destruct (fst ns) as [p|v|e]; [discriminate E| |discriminate E]. injection E as _ -> ->. destruct (PY eq_refl) as [PY'|PY']; [cbn in PY'; destruct PY' as [PY'|[[_ PY']|[PY' _]]]; [discriminate PY'|discriminate PY'|discriminate PY']|]. destruct (PY' _ eq_refl) as [X|X]; [discriminate X|exact X]. }
    assert (BASE : forall v (s1 : st) w, fst (base_done cfg t v s1) = Return w -> w = RvList [] \/ In t (c_synced (snd (base_done cfg t v s1)))).
    { intros v s1 w. unfold base_done. rewrite MD. destruct (smem (c_synced s1) t) eqn:SM; cbn; [|intros E; left; now injection E]. intros _. right. now apply smem_In. }
    destruct DD as [l _|j o1 ns D1 E1 P|j b r o1 k w rs rq1 D1 F1 W IA HF NE F'|j b r o1 k w rs rq1 ns D1 F1 W IA E1 P|j r o1 k rs s1 ns D1 F1 E1 P|j r t1 st1 ns D1 E1 P|k|g' fn' ac' name ev M|]; try exact NOT.
    - destruct P as [(ex & M & _) _ _ PY]. eapply CONT; [reflexivity|eauto|auto].
    - rewrite continue_ended. cbn [fst snd]. rewrite app_nil_r. destruct (answer_state_same cfg r s) as (_ & -> & _). intros E. apply (f_equal (@length _)) in E. rewrite app_length in E. cbn in E. lia.
    - destruct (paid_some cfg k rs) as [lv PD]. destruct (P lv PD) as [(ex & M & _) _ _ PY]. apply (CONT j o1 ns (answer_state cfg r s)); [apply answer_state_same|eauto|]. intros OT. destruct F1 as [FC WF]. destruct o1 as [t1 st1|m1|]; try contradiction. cbn in OT. subst t1.
      pose proof FC as FC0. destruct k as [t' rq0|t'|m ret|a b']; cbn in FC.
      + left. cbn in PD. subst lv. assert (AV : answer_vals cfg r = []); [|rewrite AV in PY; exact PY]. destruct r as [resp|e]; [|reflexivity]. cbn in IA |- *. rewrite (answer_none cfg _ _ _ _ _ FC0 (ws_asks _ _ _ _ WF _ _ (dget_In _ _ _ W)) IA) by discriminate. reflexivity.
      + right. subst t'. destruct E1 as [(_ & _ & ->)|(e & _ & ->)]; [|intros v E; discriminate E]. unfold send_end. destruct (c_heal _); [intros v E; discriminate E|]. cbn [resume]. intros v. apply BASE.
      + destruct FC as (? & ? & ? & X). rewrite MD in X. discriminate X.
      + destruct FC.
    - destruct (paid_some cfg k rs) as [lv PD]. destruct (P lv PD) as [(ex & M & _) _ _ PY]. apply (CONT j o1 ns s1); [destruct E1 as [(u & _ & -> & _)|(e & _ & -> & _)]; reflexivity|eauto|]. intros OT. destruct F1 as [FC WF]. destruct o1 as [t1 st1|m1|]; try contradiction. cbn in OT. subst t1.
      destruct k as [t' rq0|t'|m ret|a b']; cbn in FC.
      + left. cbn in PD. subst lv. exact PY.
      + right. subst t'. destruct E1 as [(u & _ & _ & ->)|(e & _ & _ & ->)]; [|intros v E; discriminate E]. cbn [resume]. intros v. apply BASE.
      + destruct FC as (? & ? & ? & X). rewrite MD in X. discriminate X.
      + destruct FC.
    - destruct P as [(ex & M & _) _ _ PY]. eapply CONT; [reflexivity|eauto|auto].
  Qed.
End Ends.

(** a step at a time *)
Section Loop.
  Context {V : Type}.
  Variable t : text.
  Variable cfg : config V.
  Variables (g nm : text).
  Variable af : list text -> list text -> res mapping.
  Hypothesis AA : full_allocator af.
  Hypothesis MD : md cfg = Grouped g af false nm.
  Notation wk := (worker V).
  Definition pending (w : wk) : list V := match msgs_of w with Some ms => ms | None => [] end.

  Lemma result_in (c : consumer V) i r : result_of c i = Some r -> exists o, In (i, o, r) (c_ended c).
  Proof.
    unfold result_of. destruct (find _ _) as [[[j o] r']|] eqn:F; [|discriminate]. cbn. intros E. injection E as ->. apply find_some in F as [F E]. cbn in E. apply Z.eqb_eq in E as ->. eauto.
  Qed.
  Lemma result_not (c : consumer V) i : result_of c i = None -> forall o r, ~ In (i, o, r) (c_ended c).
  Proof.
    unfold result_of. destruct (find _ _) eqn:F; [discriminate|]. intros _ o r H. pose proof (find_none _ _ F _ H) as X. cbn in X. now rewrite Z.eqb_refl in X.
  Qed.
  Lemma find_snoc {A} (f : A -> bool) l x : find f (l ++ [x]) = match find f l with Some y => Some y | None => if f x then Some x else None end.
  Proof. induction l as [|a l IH]; cbn; [reflexivity|]. now destruct (f a). Qed.
  Lemma result_snoc (c c' : consumer V) j o r i : c_ended c' = c_ended c ++ [(j, o, r)] -> result_of c' i = match result_of c i with Some x => Some x | None => if j =? i then Some r else None end.
  Proof.
    intros E. unfold result_of. rewrite E, find_snoc. destruct (find _ _); [reflexivity|]. cbn. now destruct (j =? i).
  Qed.
  Lemma result_same (c c' : consumer V) i : c_ended c' = c_ended c -> result_of c' i = result_of c i.
  Proof. intros E. unfold result_of. now rewrite E. Qed.

  (** where the program is, and what its consumer does *)
  Record on_duty (w : wk) : Prop := {
    d_calls : forall i o p, dget (c_calls (w_c w)) i = Some (o, p) -> on_topic t o -> w_at w = WConsume i;
    d_run : forall i o p, w_at w = WConsume i -> dget (c_calls (w_c w)) i = Some (o, p) -> o = OpConsume t None;
    d_ended : forall i o r, w_at w = WConsume i -> In (i, o, r) (c_ended (w_c w)) -> dget (c_calls (w_c w)) i = None /\ o = OpConsume t None;
    d_gave : flat_map (gave t) (c_ended (w_c w)) = w_done w ++ pending w;
    d_dead : forall i o e, In (i, o, Err e) (c_ended (w_c w)) -> on_topic t o -> exists j e', w_at w = WConsume j /\ result_of (w_c w) j = Some (Err e') }.

  Lemma duty_init k name : on_duty (worker_init k name).
  Proof. split; cbn; try discriminate; [reflexivity|intros i o e []]. Qed.

  Lemma duty_free w o : on_duty w -> next_call t w = Some o -> ~ busy (w_c w) t.
  Proof.
    intros D N (i & o' & p & DI & OT). pose proof (d_calls _ D _ _ _ DI OT) as AT. unfold next_call in N. rewrite AT in N. destruct (msgs_of w) as [ms|] eqn:M; [|discriminate N]. unfold msgs_of in M. rewrite AT in M.
    destruct (result_of (w_c w) i) as [r|] eqn:R; [|discriminate M]. apply result_in in R as [o1 R]. destruct (d_ended _ D _ _ _ AT R) as [X _]. rewrite X in DI. discriminate DI.
  Qed.
  Lemma next_pending w i st : next_call t w = Some (OpConsume i st) -> pending w = [].
  Proof. unfold next_call, pending. destruct (w_at w) eqn:AT; unfold msgs_of; rewrite AT; try reflexivity. destruct (result_of _ _) as [[[|ms]|e]|]; try discriminate; try reflexivity. destruct ms; [reflexivity|discriminate]. Qed.

  Lemma pending_same w (c' : consumer V) a d : c_ended c' = c_ended (w_c w) -> a = w_at w -> pending (Wk c' a d) = pending w.
  Proof. intros E ->. unfold pending, msgs_of. cbn. destruct (w_at w); try reflexivity. now rewrite (result_same _ _ _ E). Qed.

  Lemma gave_off i o r : ~ on_topic t o -> gave t (i, o, r) = [] :> list V.
  Proof. intros N. destruct o as [t' st'|m|]; try reflexivity. cbn. destruct r as [[|l]|e]; try reflexivity. destruct (list_eqb t' t) eqn:EB; [apply list_eqb_spec in EB; now destruct N|reflexivity]. Qed.

  Lemma duty_env w l0 : inv cfg (w_c w) -> on_duty w -> (forall j o, l0 <> Call j o) -> on_duty (Wk (cstep cfg (w_c w) l0) (w_at w) (w_done w)).
  Proof.
    intros I0 D NC. pose proof (step_ends cfg (w_c w) l0 I0) as SE. pose proof (fun i o p' => calls_step cfg (w_c w) l0 i o p' I0) as CS.
    assert (RUN : forall j o p', dget (c_calls (cstep cfg (w_c w) l0)) j = Some (o, p') -> exists p, dget (c_calls (w_c w)) j = Some (o, p)) by (intros j o p' DJ; destruct (CS j o p' DJ) as [X|X]; [exact X|now destruct (NC j o)]).
    assert (GONE : forall j, dget (c_calls (w_c w)) j = None -> dget (c_calls (cstep cfg (w_c w) l0)) j = None) by (intros j DJ; destruct (dget (c_calls (cstep cfg (w_c w) l0)) j) as [[o p']|] eqn:E; [destruct (RUN j o p' E) as [p X]; rewrite X in DJ; discriminate DJ|reflexivity]).
    split; cbn [w_c w_at w_done].
    5: { destruct SE as [E|(j & o & r1 & E & DJ & W)].
      { rewrite E. intros i o e H OT. destruct (d_dead _ D i o e H OT) as (j & e' & AT & R). exists j, e'. split; [exact AT|]. now rewrite (result_same _ _ _ E). }
      rewrite E. intros i o' e H OT. apply in_app_iff in H as [H|[H|[]]].
      - destruct (d_dead _ D i o' e H OT) as (j' & e' & AT & R). exists j', e'. split; [exact AT|]. now rewrite (result_snoc _ _ _ _ _ j' E), R.
      - injection H as -> -> ->. destruct W as [[_ [p W]]|W]; [|now destruct (NC i o')]. pose proof (d_calls _ D _ _ _ W OT) as AT. exists i, e. split; [exact AT|]. rewrite (result_snoc _ _ _ _ _ i E), Z.eqb_refl.
        destruct (result_of (w_c w) i) as [r2|] eqn:R2; [|reflexivity]. apply result_in in R2 as [o2 R2]. destruct (d_ended _ D _ _ _ AT R2) as [X _]. rewrite X in W. discriminate W. }
    - (intros j o p' DJ OT; destruct (RUN j o p' DJ) as [p X]; now apply (d_calls _ D j o p)).
    - (intros j o p' AT DJ; destruct (RUN j o p' DJ) as [p X]; now apply (d_run _ D j o p)).
    - (intros j o r' AT IN; destruct SE as [E|(j' & o' & r1 & E & DJ & W)]; rewrite E in IN; [destruct (d_ended _ D j o r' AT IN); auto|apply in_app_iff in IN as [IN|[IN|[]]]; [destruct (d_ended _ D j o r' AT IN); auto|injection IN as -> -> ->; split; [exact DJ|destruct W as [[_ [p W]]|W]; [now apply (d_run _ D j o p)|now destruct (NC j o)]]]]).
    - destruct SE as [E|(j & o & r1 & E & DJ & W)]; [rewrite E, (pending_same w _ _ _ E eq_refl); apply (d_gave _ D)|].
    destruct W as [[_ [p W]]|W]; [|now destruct (NC j o)].
    rewrite E, flat_map_app, (d_gave _ D), <- app_assoc; f_equal; cbn [flat_map]; rewrite app_nil_r.
    assert (CASE : on_topic t o \/ ~ on_topic t o) by (destruct o as [t' st'|m|]; cbn; [|right; intros []|right; intros []]; destruct (list_eqb t' t) eqn:EB; [left; now apply list_eqb_spec|right; intros ->; rewrite (proj2 (list_eqb_spec t t) eq_refl) in EB; discriminate EB]).
    destruct CASE as [OT|OT].
    { (pose proof (d_calls _ D _ _ _ W OT) as AT; pose proof (d_run _ D _ _ _ AT W) as ->; unfold pending, msgs_of; cbn [w_at w_c]; rewrite AT, (result_snoc _ _ _ _ _ j E), Z.eqb_refl;
      destruct (result_of (w_c w) j) as [r2|] eqn:R2; [apply result_in in R2 as [o2 R2]; destruct (d_ended _ D _ _ _ AT R2) as [X _]; rewrite X in W; discriminate W|cbn; destruct r1 as [[|ms]|e]; try reflexivity; now rewrite (proj2 (list_eqb_spec t t) eq_refl)]). }
    rewrite (gave_off j o r1 OT), app_nil_r; unfold pending, msgs_of; cbn [w_at w_c]; destruct (w_at w) as [|i0|i0|] eqn:AT; try reflexivity.
    rewrite (result_snoc _ _ _ _ _ i0 E); destruct (result_of (w_c w) i0) as [r2|] eqn:R2; [reflexivity|].
    destruct (Z.eqb_spec j i0) as [->|N]; [|reflexivity].
    exfalso; apply OT; rewrite (d_run _ D _ _ _ AT W); reflexivity.
  Qed.

  Lemma duty_step w l : inv cfg (w_c w) -> on_duty w -> may t w l -> on_duty (wstep cfg w l).
  Proof.
    intros I0 D MA. pose proof (step_ends cfg (w_c w) l I0) as SE. pose proof (fun i o p' => calls_step cfg (w_c w) l i o p' I0) as CS.
    destruct l as [i o|i b r|i r|k|ev|].
    { destruct MA as (NC & DN & RN). pose proof (duty_free w o D NC) as FREE.
      assert (OLD : forall j o' p', dget (c_calls (cstep cfg (w_c w) (Call i o))) j = Some (o', p') -> on_topic t o' -> j = i /\ o' = o).
      { intros j o' p' DJ OT. destruct (CS j o' p' DJ) as [[p X]|X]; [|now injection X]. exfalso. apply FREE. now exists j, o', p. }
      assert (SE' : c_ended (cstep cfg (w_c w) (Call i o)) = c_ended (w_c w) \/ exists r, c_ended (cstep cfg (w_c w) (Call i o)) = c_ended (w_c w) ++ [(i, o, r)] /\ dget (c_calls (cstep cfg (w_c w) (Call i o))) i = None).
      { destruct SE as [E|(j & o' & r & E & DJ & W)]; [now left|]. right. destruct W as [[W _]|W]; [now destruct (W i o)|]. injection W as <- <-. eauto. }
      assert (LIVE : forall i0 o0 e0, In (i0, o0, Err e0) (c_ended (w_c w)) -> ~ on_topic t o0).
      { intros i0 o0 e0 H OT. destruct (d_dead _ D i0 o0 e0 H OT) as (j & e' & AT & R). unfold next_call, msgs_of in NC. rewrite AT, R in NC. discriminate NC. }
      clear SE. destruct o as [t' st'|m|].
      - assert (t' = t /\ st' = None) as [-> ->]. { unfold next_call in NC. destruct (w_at w); [discriminate NC|destruct (result_of _ _) as [[v|e]|]; try discriminate NC; now injection NC|destruct (msgs_of w) as [[|x ms]|]; try discriminate NC; now injection NC|now injection NC]. }
        pose proof (next_pending w _ _ NC) as PE. pose proof (d_gave _ D) as GV. rewrite PE, app_nil_r in GV. split; cbn [wstep w_c w_at w_done].
        + intros j o' p' DJ OT. now destruct (OLD j o' p' DJ OT) as [-> _].
        + intros j o' p' E DJ. injection E as <-. destruct (CS i o' p' DJ) as [[p X]|X]; [rewrite X in DN; discriminate DN|now injection X].
        + intros j o' r' E IN. injection E as <-. destruct SE' as [E|(r & E & DJ)]; rewrite E in IN; [now apply (result_not _ _ RN) in IN|]. apply in_app_iff in IN as [IN|[IN|[]]]; [now apply (result_not _ _ RN) in IN|]. now injection IN as <- <-.
        + unfold pending, msgs_of. cbn [w_at w_c]. destruct SE' as [E|(r & E & DJ)].
          * rewrite E, (result_same _ _ _ E), RN, app_nil_r. exact GV.
          * rewrite E, (result_snoc _ _ _ _ _ i E), RN, Z.eqb_refl, flat_map_app, GV. cbn. f_equal. rewrite app_nil_r. destruct r as [[|ms]|e]; try reflexivity. now rewrite (proj2 (list_eqb_spec t t) eq_refl).
        + intros i0 o0 e0 H OT. destruct SE' as [E|(r & E & DJ)]; rewrite E in H; [now apply LIVE in H|]. apply in_app_iff in H as [H|[H|[]]]; [now apply LIVE in H|]. injection H as <- <- ->. exists i, e0. split; [reflexivity|]. now rewrite (result_snoc _ _ _ _ _ i E), RN, Z.eqb_refl.
      - pose proof (d_gave _ D) as GV. split; cbn [wstep w_c w_at w_done]; try discriminate.
        + intros j o' p' DJ OT. destruct (OLD j o' p' DJ OT) as [_ ->]. destruct OT.
        + unfold pending at 1, msgs_of at 2. cbn [w_at]. rewrite app_nil_r. fold (pending w). rewrite <- GV. destruct SE' as [->|(r & -> & _)]; [reflexivity|]. rewrite flat_map_app. cbn. now rewrite app_nil_r.
        + intros i0 o0 e0 H OT. destruct SE' as [E|(r & E & DJ)]; rewrite E in H; [now apply LIVE in H|]. apply in_app_iff in H as [H|[H|[]]]; [now apply LIVE in H|]. injection H as <- <- ->. destruct OT.
      - pose proof (d_gave _ D) as GV. assert (PE : pending w = []). { unfold next_call in NC. unfold pending, msgs_of. destruct (w_at w); try reflexivity. destruct (msgs_of w) as [[|x ms]|]; discriminate NC. }
        rewrite PE, app_nil_r in GV. split; cbn [wstep w_c w_at w_done]; try discriminate.
        + intros j o' p' DJ OT. destruct (OLD j o' p' DJ OT) as [_ ->]. destruct OT.
        + unfold pending, msgs_of. cbn [w_at]. rewrite app_nil_r, <- GV. destruct SE' as [->|(r & -> & _)]; [reflexivity|]. rewrite flat_map_app. cbn. now rewrite app_nil_r.
        + intros i0 o0 e0 H OT. destruct SE' as [E|(r & E & DJ)]; rewrite E in H; [now apply LIVE in H|]. apply in_app_iff in H as [H|[H|[]]]; [now apply LIVE in H|]. injection H as <- <- ->. destruct OT. }
    all: apply duty_env; auto; discriminate.
  Qed.

  Lemma next_commit (w : wk) m : next_call t w = Some (OpCommit m) -> m = None /\ exists i x ms, w_at w = WConsume i /\ result_of (w_c w) i = Some (Ok (RvList (x :: ms))).
  Proof.
    unfold next_call. destruct (w_at w) as [|i|i|] eqn:AT; try discriminate; [destruct (result_of _ _) as [[v|e]|]; discriminate|]. unfold msgs_of. rewrite AT. destruct (result_of (w_c w) i) as [[[|[|x ms]]|e]|] eqn:RR; try discriminate. intros E. injection E as <-. split; [reflexivity|]. now exists i, x, ms.
  Qed.
  Lemma commit_next (w : wk) i x ms : w_at w = WConsume i -> result_of (w_c w) i = Some (Ok (RvList (x :: ms))) -> next_call t w = Some (OpCommit None).
  Proof. unfold next_call, msgs_of. now intros -> ->. Qed.

  (** before a commit, either the messages were there before, and nothing was called, or a consume() has just returned them *)
  Lemma commit_soon w l : inv cfg (w_c w) -> on_duty w -> may t w l -> next_call t (wstep cfg w l) = Some (OpCommit None) ->
    (next_call t w = Some (OpCommit None) /\ forall i o, l <> Call i o) \/ exists i x ms, c_ended (cstep cfg (w_c w) l) = c_ended (w_c w) ++ [(i, OpConsume t None, Ok (RvList (x :: ms)))].
  Proof.
    intros I0 D MA N. pose proof (duty_step w l I0 D MA) as D'. apply next_commit in N as (_ & i & x & ms & AT & R). assert (WC : w_c (wstep cfg w l) = cstep cfg (w_c w) l) by (destruct l as [i0 [t' st'|m|]|i0 b r|i0 r|k|ev|]; reflexivity).
    pose proof (result_in _ _ _ R) as [o0 RI]. rewrite WC in R. destruct (d_ended _ D' _ _ _ AT RI) as [_ ->]. rewrite WC in RI.
    assert (ADD : result_of (w_c w) i = None -> exists i x ms, c_ended (cstep cfg (w_c w) l) = c_ended (w_c w) ++ [(i, OpConsume t None, Ok (RvList (x :: ms)))]).
    { intros RN. destruct (step_ends cfg (w_c w) l I0) as [E|(j & o & r & E & _)]; rewrite E in RI; [now apply (result_not _ _ RN) in RI|]. apply in_app_iff in RI as [RI|[RI|[]]]; [now apply (result_not _ _ RN) in RI|]. injection RI as -> -> ->. eauto. }
    assert (NOT : (forall j o, l <> Call j o) -> w_at w = WConsume i -> (next_call t w = Some (OpCommit None) /\ forall i o, l <> Call i o) \/ exists i x ms, c_ended (cstep cfg (w_c w) l) = c_ended (w_c w) ++ [(i, OpConsume t None, Ok (RvList (x :: ms)))]).
    { intros NC AT0. destruct (result_of (w_c w) i) as [r|] eqn:R0; [|right; now apply ADD]. left. split; [|exact NC]. apply (commit_next w i x ms AT0). rewrite R0. destruct (step_ends cfg (w_c w) l I0) as [E|(j & o & r1 & E & _)]; [rewrite (result_same _ _ _ E) in R|rewrite (result_snoc _ _ _ _ _ i E), R0 in R]; congruence. }
    destruct l as [j [t' st'|m|]|j b r|j r|k|ev|]; cbn in AT; try discriminate AT; try (apply NOT; [discriminate|exact AT]).
    injection AT as ->. right. apply ADD. apply MA.
  Qed.

  Lemma duty_live w o : on_duty w -> next_call t w = Some o -> forall i0 o0 e0, In (i0, o0, Err e0) (c_ended (w_c w)) -> ~ on_topic t o0.
  Proof. intros D NC i0 o0 e0 H OT. destruct (d_dead _ D i0 o0 e0 H OT) as (j & e' & AT & R). unfold next_call, msgs_of in NC. rewrite AT, R in NC. discriminate NC. Qed.
  Lemma duty_careful log w l : on_duty w -> may t w l -> spares t log cfg w l -> careful t log cfg (w_c w) l.
  Proof.
    intros D MA (SV & RB & NS). split.
    - destruct l as [i [t' st'|m|]|i b [r|e]|i r|k|ev|]; try exact Logic.I; [|exact SV]. intros _. apply (duty_free w _ D (proj1 MA)).
    - intros R. apply (RB R).
  Qed.
  Lemma duty_commits log w l p c : inv cfg (w_c w) -> on_duty w -> may t w l -> spares t log cfg w l -> commits_at t cfg (w_c w) l p c -> ~ busy (w_c w) t /\ next_call t w = Some (OpCommit None) /\ exists i, l = Call i (OpCommit None).
  Proof using AA MD.
    intros I0 D MA (_ & _ & NS) CA. destruct l as [i o|i b r|i r|k|ev|]; try (exfalso; now apply (NS ltac:(discriminate) p c)).
    destruct CA as (b & gr & topics & parts & x0 & HS & _). destruct (call_sends cfg g nm af AA MD (w_c w) i o b gr topics I0 HS) as [m ->]. destruct MA as (NC & _ & _). split; [now apply (duty_free w _ D NC)|]. destruct (next_commit _ _ NC) as [-> _]. eauto.
  Qed.
End Loop.

(** all workers *)
Section Workers.
  Context {V : Type}.
  Variable t : text.
  Variable log : Z -> list (Z * pymsg).
  Hypothesis LOG : forall p, is_log (log p).
  Variable start : Z -> Z.
  Variable cf : Z -> config V.
  Variable k0 : Z -> cluster.
  Hypothesis PLAIN : plain_members cf.
  Notation member := (SpecTeam.member cf k0).
  Notation at_work := (SpecWorker.at_work cf k0).

  Lemma work_same x es l : at_work x (es ++ [(x, l)]) = wstep (cf x) (at_work x es) l.
  Proof. unfold SpecWorker.at_work. rewrite own_snoc, Z.eqb_refl. unfold wrun. now rewrite fold_left_app. Qed.
  Lemma work_other x y es l : y <> x -> at_work x (es ++ [(y, l)]) = at_work x es.
  Proof. intros N. unfold SpecWorker.at_work. rewrite own_snoc. now apply Z.eqb_neq in N as ->. Qed.
  Lemma work_c (cfg : config V) w l : w_c (wstep cfg w l) = cstep cfg (w_c w) l.
  Proof. destruct l as [i0 [t' st'|m|]|i0 b r|i0 r|k|ev|]; reflexivity. Qed.
  Lemma work_member x es : w_c (at_work x es) = member x es.
  Proof.
    unfold SpecWorker.at_work, SpecTeam.member. generalize (own x es). intros ls. assert (G : forall w, w_c (wrun (cf x) ls w) = crun (cf x) ls (w_c w)); [|apply G].
    induction ls as [|l ls IH]; intros w; [reflexivity|]. change (wrun (cf x) (l :: ls) w) with (wrun (cf x) ls (wstep (cf x) w l)). rewrite IH, work_c. reflexivity.
  Qed.
  Lemma work_prefix es e : workers t cf k0 (es ++ [e]) -> workers t cf k0 es.
  Proof. intros W es1 x l es2 E. apply (W es1 x l (es2 ++ [e])). rewrite E, <- app_assoc. reflexivity. Qed.
  Lemma spared_prefix es e : spared t log start cf k0 (es ++ [e]) -> spared t log start cf k0 es.
  Proof. intros W es1 x l es2 E. apply (W es1 x l (es2 ++ [e])). rewrite E, <- app_assoc. reflexivity. Qed.

  Lemma work_before es es2 : workers t cf k0 (es ++ es2) -> workers t cf k0 es.
  Proof. intros W es1 x l es3 E. apply (W es1 x l (es3 ++ es2)). rewrite E, <- app_assoc. reflexivity. Qed.
  Lemma work_duty es : workers t cf k0 es -> forall x, on_duty t (at_work x es).
  Proof.
    induction es as [|[y l] es IH] using rev_ind; intros W x; [apply duty_init|]. specialize (IH (work_prefix _ _ W)). destruct (Z.eq_dec y x) as [->|N]; [|now rewrite work_other]. rewrite work_same. apply duty_step; [|apply IH|exact (W es x l [] eq_refl)].
    rewrite work_member. apply (reach_inv _ _ (member_reach cf k0 x es)).
  Qed.

  Lemma work_well es : workers t cf k0 es -> spared t log start cf k0 es ->
    well_behaved t log start cf k0 es /\ forall x, on_duty t (at_work x es) /\ (next_call t (at_work x es) = Some (OpCommit None) -> In t (c_synced (member x es))).
  Proof using LOG PLAIN.
    induction es as [|[y l] es IH] using rev_ind; intros W S.
    - split; [intros es1 x l es2 E; now destruct es1|]. intros x. split; [apply duty_init|discriminate].
    - destruct (IH (work_prefix _ _ W) (spared_prefix _ _ S)) as [WB DU]. destruct (DU y) as [D SY]. pose proof (W es y l [] eq_refl) as MA. destruct (S es y l [] eq_refl) as [SP RE]. destruct (PLAIN y) as (g & fn & nm & AA & MD).
      pose proof (reach_inv _ _ (member_reach cf k0 y es)) as I0. rewrite <- work_member in I0, SY. pose proof (duty_careful t (cf y) log _ l D MA SP) as CA.
      assert (LIVE : forall x o, next_call t (at_work x es) = Some o -> ~ failed t cf k0 es x). { intros x o NC. apply never_raised. rewrite <- work_member. exact (duty_live t _ o (proj1 (DU x)) NC). } split.
      + intros es1 x l' es2 E. destruct (snoc_inj _ _ _ _ _ E) as [(c' & -> & E')|(-> & -> & E')]; [apply (WB es1 x l' c' E')|]. injection E' as -> ->. rewrite work_member in CA. split; [exact CA|]. split; [exact RE|]. intros p c CM. rewrite <- work_member in CM |- *.
        destruct (duty_commits t (cf x) g nm fn AA MD log _ l' p c I0 D MA SP CM) as (NB & NC & _). split; [exact NB|]. split; [exact (SY NC)|exact (LIVE x _ NC)].
      + intros x. destruct (Z.eq_dec y x) as [->|N]; [|rewrite work_other, member_other by exact N; apply DU]. rewrite work_same. split; [now apply duty_step|]. intros NC. rewrite member_same, <- work_member.
        destruct (commit_soon t (cf x) _ l I0 D MA NC) as [[NW NL]|(i & v & ms & E)]; [|now apply (returns_synced (cf x) t g fn nm MD _ l i None v ms I0 E)].
        assert (NR : ~ rebalances (cf x) (w_c (at_work x es)) l) by (intros R; now apply (proj2 (proj1 (proj2 SP) R))). pose proof (free_quiet (cf x) t _ l I0 (duty_free t _ _ D NW) (fun i o E => False_ind _ (NL i o E))) as NE.
        destruct (team_got t log LOG start cf k0 PLAIN es WB) as [PH _]. destruct (PH x g fn nm AA MD) as [_ [P|[FA _]]]; [|now destruct (LIVE x _ NW)]. specialize (SY NW). rewrite work_member in *.
        destruct P as [[[[X _] _]|[(X & _)|(j & [X _ _])]]|(s0 & ls & E & ST & _)]; try now destruct X. rewrite E in CA, NR, NE |- *. pose proof (turn_goes_on (cf x) t log LOG g nm fn AA MD s0 ls l ST CA NR NE) as ST'.
        destruct (turn_view (cf x) t log LOG g nm fn AA MD s0 _ ST') as [X _]. unfold crun in X |- *. rewrite fold_left_app in X. exact X.
  Qed.

  Theorem work_covers es : workers t cf k0 es -> spared t log start cf k0 es -> team t log start cf k0 (processed cf k0) es.
  Proof using LOG PLAIN.
    intros W S. apply (team_runs t log LOG start cf k0 PLAIN (processed cf k0)) with (K := fun es => workers t cf k0 es /\ spared t log start cf k0 es); [| | | |now split].
    - intros es0 e [A B]. split; [now apply work_prefix in A|now apply spared_prefix in B].
    - intros es0 [A B]. now apply work_well.
    - intros x es0 [y l] m P v DV TV. specialize (P v DV TV). destruct (Z.eq_dec y x) as [->|N]; [|now rewrite work_other]. rewrite work_same. destruct l as [i0 [t' st'|m0|]|i0 b r|i0 r|k|ev|]; try exact P. cbn. apply in_app_iff. now left.
    - intros es0 y l p c m [A B] CA G v DV TV. specialize (G v DV TV). rewrite <- work_member in G, CA. rewrite work_same in *.
      destruct (work_well es0 (work_prefix _ _ A) (spared_prefix _ _ B)) as [_ DU]. destruct (DU y) as [D _]. pose proof (A es0 y l [] eq_refl) as MA. destruct (B es0 y l [] eq_refl) as [(_ & _ & NS) _].
      pose proof (reach_inv _ _ (member_reach cf k0 y es0)) as I0. rewrite <- work_member in I0. destruct (PLAIN y) as (g & fn & nm & AA & MD). rewrite (d_gave _ _ (duty_step t (cf y) _ l I0 D MA)) in G.
      destruct l as [i o|i b r|i r|k|ev|]; try (exfalso; now apply (NS ltac:(discriminate) p c)). destruct CA as (b & gr & topics & parts & x0 & HS & _). destruct (call_sends (cf y) g nm fn AA MD _ i o b gr topics I0 HS) as [m' ->].
      unfold pending, msgs_of in G. cbn in G |- *. rewrite app_nil_r in G. exact G.
  Qed.
End Workers.
