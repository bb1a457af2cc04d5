(** Property C60: where fetches start. *)
From Coq Require Import ZArith String List Bool Lia Permutation.
From Verif Require Import PyBase BaseLemmas Constants Cluster Zookeeper Consumer SpecConsumer ConsumerProofs ConsumerSteps ConsumerRuns ConsumerSync PropsConsumer SpecHistory SpecGroup PropsGroup.
Import ListNotations.
Open Scope Z_scope.
Set Default Proof Using "Type".

Section C60.
  Context {V : Type}.
  Variable cfg : config V.
  Notation st := (consumer V).

  Lemma retriable_known code : is_retriable code = true -> unknown_code code = false.
  Proof. unfold is_retriable. intros H. apply smem_In in H. unfold retriable_set in H. cbn [In] in H. repeat (destruct H as [<-|H]; [reflexivity|]). destruct H. Qed.
  Lemma last_of_cons o l old : last_of (o :: l) old = last_of l o.
  Proof. unfold last_of. cbn [rev]. destruct (rev l); reflexivity. Qed.
  Lemma fetch_position t p parts : forall s : st, position (snd (handle_fetch_parts cfg t parts s)) t p = one_past_last (accepted cfg (before (fun part => unknown_code (fst (snd part))) parts) p) (position s t p).
  Proof.
    induction parts as [|[q [code ms]] parts IH]; intros s; [reflexivity|]. cbn [handle_fetch_parts before fst snd]. destruct (code =? no_error) eqn:E0.
    - apply Z.eqb_eq in E0. subst code. change (unknown_code no_error) with false. cbn iota. destruct (deserialize_spec cfg t q ms s) as (_ & _ & C & D). destruct (deserialize_messages cfg t q ms s) as [vs s1]. cbn [fst snd] in *.
      assert (S2 : snd (match handle_fetch_parts cfg t parts s1 with (Err e, s2) => (Err e, s2) | (Ok ws, s2) => (Ok (vs ++ ws), s2) end) = snd (handle_fetch_parts cfg t parts s1)) by (destruct (handle_fetch_parts cfg t parts s1) as [[ws|e] s2]; reflexivity).
      rewrite S2, IH. unfold accepted. cbn [flat_map fst snd]. rewrite one_past_app. f_equal. rewrite Z.eqb_refl, andb_true_r. destruct (q =? p) eqn:EQ.
      + apply Z.eqb_eq in EQ. subst q. now rewrite C, pos_after_eq.
      + apply Z.eqb_neq in EQ. rewrite D by (right; congruence). reflexivity.
    - assert (SK : accepted cfg ((q, (code, ms)) :: before (fun part => unknown_code (fst (snd part))) parts) p = accepted cfg (before (fun part => unknown_code (fst (snd part))) parts) p) by (unfold accepted; cbn [flat_map fst snd]; rewrite E0, andb_false_r; reflexivity).
      destruct (is_retriable code) eqn:E1; [rewrite (retriable_known _ E1), SK, IH; reflexivity|]. destruct (code =? offset_out_of_range) eqn:E2; [apply Z.eqb_eq in E2; subst code; change (unknown_code offset_out_of_range) with false; cbn iota; rewrite SK, IH; reflexivity|].
      destruct (error_name code) as [nm|e] eqn:E3; [replace (unknown_code code) with false by (unfold unknown_code; now rewrite E3); rewrite SK; apply IH|replace (unknown_code code) with true by (unfold unknown_code; now rewrite E3); reflexivity].
  Qed.
  Lemma offset_position t p parts : forall s : st, position (snd (handle_offset_parts t parts s)) t p =
    last_of (flat_map (fun part => match snd part with (code, o :: _) => if (fst part =? p) && (code =? no_error) && (0 <=? o) then [o] else [] | _ => [] end)
            (before (fun part => match snd part with (code, offs) => if code =? no_error then match offs with [] => true | _ => false end else negb (is_retriable code) end) parts)) (position s t p).
  Proof.
    induction parts as [|[q [code offs]] parts IH]; intros s; [reflexivity|]. cbn [handle_offset_parts before fst snd]. destruct (code =? no_error) eqn:E0.
    - destruct offs as [|o offs]; [reflexivity|]. rewrite IH. cbn [flat_map fst snd]. rewrite E0, andb_true_r. destruct (0 <=? o) eqn:E1; [|now rewrite andb_false_r].
      destruct (offset_set_spec t q o s) as (P1 & P2 & _). destruct (q =? p) eqn:EQ; cbn [andb app].
      + apply Z.eqb_eq in EQ. subst q. now rewrite P1, last_of_cons.
      + apply Z.eqb_neq in EQ. rewrite P2 by (right; congruence). reflexivity.
    - destruct (is_retriable code) eqn:E1; cbn [negb].
      + rewrite IH. cbn [flat_map fst snd]. rewrite E0, andb_false_r. destruct offs; reflexivity.
      + destruct (error_name code); reflexivity.
  Qed.
  Lemma ofetch_position t p parts : forall retry (s : st), position (snd (handle_ofetch_parts t parts retry s)) t p =
    last_of (flat_map (fun part => if (fst part =? p) && (fst (snd part) =? no_error) then [snd (snd part)] else [])
            (before (fun part => negb ((fst (snd part) =? no_error) || is_retriable (fst (snd part)))) parts)) (position s t p).
  Proof.
    induction parts as [|[q [code o]] parts IH]; intros retry s; [reflexivity|]. cbn [handle_ofetch_parts before fst snd]. destruct (code =? no_error) eqn:E0; cbn [orb negb].
    - rewrite IH. cbn [flat_map fst snd]. rewrite E0, andb_true_r. destruct (offset_set_spec t q o s) as (P1 & P2 & _). destruct (q =? p) eqn:EQ; cbn [app].
      + apply Z.eqb_eq in EQ. subst q. now rewrite P1, last_of_cons.
      + apply Z.eqb_neq in EQ. rewrite P2 by (right; congruence). reflexivity.
    - destruct (code =? offsets_load_in_progress) eqn:E2.
      + apply Z.eqb_eq in E2. subst code. change (is_retriable offsets_load_in_progress) with true. cbn [negb]. rewrite IH. cbn [flat_map fst snd]. rewrite E0, andb_false_r. reflexivity.
      + destruct (is_retriable code) eqn:E1; cbn [negb]; [rewrite IH; cbn [flat_map fst snd]; rewrite E0, andb_false_r; reflexivity|]. destruct (error_name code); reflexivity.
  Qed.
  Lemma handle_position r (s : st) t p : position (snd (handle cfg r s)) t p = position_after cfg t p r (position s t p).
  Proof.
    pose proof (h_pos _ _ _ (handle_handled cfg r s) t p) as O. destruct r as [[|[t' parts] ts]|[|[t' parts] ts]|[|[t' parts] ts]|ts|code id]; cbn [named position_after] in *; try (apply O; discriminate); destruct (eqb t' t) eqn:ET; try (apply O; intros X; injection X as ->; rewrite eqb_refl in ET; discriminate ET);
      apply eqb_true in ET; subst t'; cbn [handle].
    - rewrite <- fetch_position. destruct (handle_fetch_parts cfg t parts s) as [[|] ?]; reflexivity.
    - rewrite <- offset_position. destruct (handle_offset_parts t parts s) as [[|] ?]; reflexivity.
    - rewrite <- (ofetch_position t p parts false). destruct (handle_ofetch_parts t parts false s) as [[|] ?]; reflexivity.
  Qed.
  Lemma position_step s l t p : inv cfg s -> position (cstep cfg s l) t p = replay cfg t p (answered s l) (position s t p).
  Proof.
    intros I0. pose proof (cstep_did cfg s l I0) as DI.
    assert (MV : forall look o l0 s1 i (ns : next V * st), piece cfg look o l0 s1 ns -> position (continue i o ns) t p = position s1 t p).
    { intros look o l0 s1 i ns P. destruct (continue_views cfg i o ns) as (CP & _). rewrite CP. destruct (pi_moves _ _ _ _ _ _ P) as (ex & M & _). apply M. }
    assert (AN : forall i b r o k w rs rq, dget (c_calls s) i = Some (o, PSend k w rs) -> dget w b = Some rq -> is_answer rq r = true -> position (answer_state cfg r s) t p = replay cfg t p (answered s (Arrive i b r)) (position s t p)).
    { intros i b r o k w rs rq D W IA. cbn [answered takes]. destruct r as [resp|e]; [|cbn; destruct (sets_heal e); reflexivity]. cbn [is_answer answer_state] in *. rewrite Z.eqb_refl, D, W, IA. cbn. apply handle_position. }
    destruct DI as [l ID|i o ns DD E P|i b r o k w rs rq DD F W IA HF NE F'|i b r o k w rs rq ns DD F W IA E P|i r o k rs s1 ns DD F E P|i r t1 start ns DD E P|k|g fn ac name ev M|]; try reflexivity.
    - destruct l as [i o|i b r|i r|k|ev|]; try reflexivity. cbn [answered takes idle] in *. destruct r as [resp|e]; [|reflexivity]. rewrite Z.eqb_refl. destruct (dget (c_calls s) i) as [[o [k w rs|k rs|t']]|]; try reflexivity. destruct (dget w b) as [rq|] eqn:W; [|reflexivity].
      specialize (ID o k w rs rq eq_refl W). cbn [is_answer] in ID. now rewrite ID.
    - apply (MV _ _ _ _ i _ P).
    - destruct (continue_views cfg i o (Await (PSend k (ddel w b) (answer_results cfg b r rs s)), answer_state cfg r s)) as (CP & _). rewrite CP. cbn [snd]. eapply AN; eassumption.
    - destruct (paid_some cfg k rs) as (lv & PL). rewrite (MV _ _ _ _ i _ (P lv PL)). eapply AN; eassumption.
    - destruct (paid_some cfg k rs) as (lv & PL). rewrite (MV _ _ _ _ i _ (P lv PL)). destruct E as [(u & _ & -> & _)|(e & _ & -> & _)]; reflexivity.
    - apply (MV _ _ _ _ i _ P).
  Qed.

  (** At any time the position is what the answers received so far make of the position at the start of the run. *)
  Theorem C60_positions : forall (s : st) ls t p, reachable cfg s -> position (crun cfg ls s) t p = replay cfg t p (history cfg ls s) (position s t p).
  Proof.
    intros s ls t p R. apply reach_inv in R. revert s R. induction ls as [|l ls IH]; intros s I0; [reflexivity|]. cbn [crun fold_left history]. unfold replay. rewrite fold_left_app. fold (replay cfg t p (answered s l) (position s t p)).
    rewrite <- position_step by exact I0. apply IH. now apply inv_step.
  Qed.
  (** So every fetch request a consumer ever sends asks each partition for the offset its history says: 0 at first, the
      offset of a lookup once one is answered, one past the last readable message once one is fetched. *)
  Theorem C60_fetches : forall k name ls l t b parts r mw mb p o limit, let s0 := consumer_init k name in
    In (b, RFetch r mw mb t parts) (sent cfg (crun cfg ls s0) l) -> In (p, (o, limit)) parts -> o = replay cfg t p (history cfg (ls ++ [l]) s0) 0.
  Proof.
    intros k name ls l t b parts r mw mb p o limit s0 H HP.
    assert (R : reachable cfg (crun cfg ls s0)) by (exists k, name, ls; reflexivity). destruct (C41_fetch_requests cfg _ l t b _ R H) as (A & _); [now exists r, mw, mb, parts|].
    destruct (A _ _ H) as (_ & parts' & _ & E & PP & _). injection E as _ _ _ ->. destruct (PP _ _ _ HP) as (_ & _ & ->). assert (R0 : reachable cfg s0) by (exists k, name, []; reflexivity).
    pose proof (C60_positions s0 (ls ++ [l]) t p R0) as X. unfold crun in *. rewrite fold_left_app in X. exact X.
  Qed.
End C60.

(** A SingleConsumer: the lookup says 5 and 7, the fetch answer brings messages 5, 6 (unreadable) and 8: the next fetch asks for 9 and 7. *)
Definition ex_told : list label := ex_looked_up ++ [Arrive 1 1 (Ok (PFetch [(tt_, [(0, (0, [(5, msg 1); (6, bad); (8, msg 2)]))])])); Arrive 1 2 (Err EStreamClosed)].
Example C60_example : let l := Call 2 (OpConsume tt_ None) in
  sent (ex_cfg Single) (crun (ex_cfg Single) ex_told ex_single) l = [(1, RFetch (-1) 1000 1 tt_ [(0, (9, 1000))]); (2, RFetch (-1) 1000 1 tt_ [(1, (7, 1000))])] /\
  history (ex_cfg Single) (ex_told ++ [l]) ex_single = [POffset [(tt_, [(0, (0, [5]))])]; POffset [(tt_, [(1, (0, [7]))])]; PFetch [(tt_, [(0, (0, [(5, msg 1); (6, bad); (8, msg 2)]))])]].
Proof. vm_compute. auto. Qed.
(** lookups that report a negative offset, a retriable error, a fatal error, no offset; and the committed offset of a group *)
Example C60_example_answers :
  position_after (ex_cfg Single) tt_ 0 (POffset [(tt_, [(0, (0, [-1])); (1, (0, [3]))])]) 4 = 4 /\
  position_after (ex_cfg Single) tt_ 1 (POffset [(tt_, [(0, (6, [])); (1, (0, [3; 2]))])]) 4 = 3 /\
  position_after (ex_cfg Single) tt_ 1 (POffset [(tt_, [(0, (3, [])); (1, (6, [])); (1, (0, [3]))])]) 4 = 3 /\
  position_after (ex_cfg Single) tt_ 1 (POffset [(tt_, [(0, (1, [])); (1, (0, [3]))])]) 4 = 4 /\
  position_after (ex_cfg Single) tt_ 1 (POffset [(tt_, [(0, (0, [])); (1, (0, [3]))])]) 4 = 4 /\
  position_after (ex_cfg Single) tt_ 1 (POffsetFetch [(tt_, [(0, (0, 8)); (1, (0, -1))])]) 4 = -1.
Proof. vm_compute. auto 6. Qed.

Print Assumptions C60_positions.
Print Assumptions C60_fetches.
