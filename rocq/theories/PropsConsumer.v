(** Properties C38-C44: positions, delivery, fetch requests and offset lookups of the consumers. *)
From Coq Require Import ZArith String List Bool Lia Permutation.
From Verif Require Import PyBase BaseLemmas Constants Cluster Zookeeper SpecZk Consumer SpecConsumer ConsumerProofs ConsumerSteps ConsumerRuns ConsumerSync.
Import ListNotations.
Open Scope Z_scope.
Set Default Proof Using "Type".

(** ** a concrete consumer for the examples: values are numbers, 0 is falsy, other bytes do not deserialize *)
Definition ex_cfg (m : mode) : config Z :=
  Cfg Z (fun v => match v with PBytes [n] => Ok n | _ => Err EValue end) (fun n => negb (n =? 0)) (fun _ => txt "1.5") 1000 1 1000 (fun _ => None) m.
Definition tt_ : text := txt "t".
Definition ex_cluster : cluster := Cl [(1, CC (txt "a") 9092 1 false); (2, CC (txt "b") 9092 2 false)] [(tt_, [0; 1])] [(tt_, [(0, 1); (1, 2)])] 2 0 [].
Definition msg (n : Z) : pymsg := Msg (PInt 0) (PInt 0) (PInt 0) PNone (PBytes [n]).
Definition bad : pymsg := Msg (PInt 0) (PInt 0) (PInt 0) PNone PNone.
Definition ex_single : consumer Z := consumer_init ex_cluster (txt "me").
(** consume(t) with its offset lookup answered: partition 0 starts at 5, partition 1 at 7 *)
Definition ex_looked_up : list label :=
  [Call 1 (OpConsume tt_ None); Arrive 1 1 (Ok (POffset [(tt_, [(0, (0, [5]))])])); Arrive 1 2 (Ok (POffset [(tt_, [(1, (0, [7]))])]))].
Definition ex_fetching : consumer Z := crun (ex_cfg Single) ex_looked_up ex_single.
Example ex_fetching_state :
  position ex_fetching tt_ 0 = 5 /\ position ex_fetching tt_ 1 = 7 /\ waits_for ex_fetching 1 1 (RFetch (-1) 1000 1 tt_ [(0, (5, 1000))]) /\ waits_for ex_fetching 1 2 (RFetch (-1) 1000 1 tt_ [(1, (7, 1000))]).
Proof. vm_compute. split; [reflexivity|]. split; [reflexivity|]. split; do 4 eexists; split; reflexivity. Qed.

(** ** C38: the position update rule *)
Section C38.
  Context {V : Type}.
  Variable cfg : config V.
  Notation st := (consumer V).

  Lemma one_past_app a b old : one_past_last (a ++ b) old = one_past_last b (one_past_last a old).
  Proof. unfold one_past_last. rewrite rev_app_distr. destruct (rev b); reflexivity. Qed.
  Lemma pos_after_eq old ms : pos_after cfg old ms = one_past_last (filter (fun o => 0 <=? o) (map fst (readable cfg ms))) old.
  Proof.
    unfold pos_after. revert old. induction (readable cfg ms) as [|[o v] l IH]; intros old; [reflexivity|]. cbn [fold_left map fst filter]. rewrite IH.
    destruct (0 <=? o); [|reflexivity]. symmetry. apply (one_past_app [o]).
  Qed.
  Lemma pos_parts_eq p parts : forall old, pos_parts cfg old p parts = one_past_last (accepted cfg parts p) old.
  Proof.
    unfold pos_parts, accepted. induction parts as [|[q [code ms]] parts IH]; intros old; [reflexivity|]. cbn [fold_left flat_map fst snd]. rewrite IH, one_past_app.
    destruct ((q =? p) && (code =? no_error)); [now rewrite pos_after_eq|reflexivity].
  Qed.

  (** parts are handled in order, up to the first with a code the library does not know *)
  Theorem C38_position_rule : forall (s : st) i b rq t parts ts, reachable cfg s -> waits_for s i b rq -> answers rq (PFetch ((t, parts) :: ts)) = true ->
    let s' := cstep cfg s (Arrive i b (Ok (PFetch ((t, parts) :: ts)))) in
    exists done rest, parts = done ++ rest /\ (rest = [] \/ exists p code ms rest', rest = (p, (code, ms)) :: rest' /\ ~ known_code code) /\
      (forall p, position s' t p = one_past_last (accepted cfg done p) (position s t p)) /\
      (forall t' p, t' <> t -> position s' t' p = position s t' p).
  Proof.
    intros s i b rq t parts ts R (o & k & w & rs & D & W) A. cbv zeta.
    destruct (arrive_acts cfg s i b (Ok (PFetch ((t, parts) :: ts))) o k w rs rq (reach_inv cfg s R) D W A) as (ns & ex & AC & _).
    destruct (continue_views cfg i o ns) as (PO & _). destruct AC as [E M _ _ _]. rewrite E.
    assert (P : forall x p, position (continue i o ns) x p = position (snd (handle cfg (PFetch ((t, parts) :: ts)) s)) x p) by (intros; rewrite PO; apply (p_pos _ _ _ _ _ _ M)).
    cbn [handle] in P. destruct (handle_fetch_spec cfg t parts s) as (done & rest & PE & RE & _ & _ & _ & PP & OT). destruct (handle_fetch_parts cfg t parts s) as [r s1]. cbn [fst snd] in *.
    assert (P' : forall x p, position (continue i o ns) x p = position s1 x p) by (destruct r; exact P).
    exists done, rest. split; [exact PE|]. split.
    { destruct r as [vs|e]; [left; apply RE|right]. destruct RE as (p & code & ms & rest' & RE & N & _). exists p, code, ms, rest'. split; [exact RE|]. intros (nm & K). congruence. }
    split; [intros p; rewrite P', PP; apply pos_parts_eq|]. intros t' p N. rewrite P'. now apply OT.
  Qed.
  (** if it knows them all *)
  Theorem C38_positions : forall (s : st) i b rq t parts ts, reachable cfg s -> waits_for s i b rq -> answers rq (PFetch ((t, parts) :: ts)) = true ->
    Forall (fun part => known_code (fst (snd part))) parts ->
    let s' := cstep cfg s (Arrive i b (Ok (PFetch ((t, parts) :: ts)))) in
    (forall p, position s' t p = one_past_last (accepted cfg parts p) (position s t p)) /\ (forall t' p, t' <> t -> position s' t' p = position s t' p).
  Proof.
    intros s i b rq t parts ts R WF A K. destruct (C38_position_rule s i b rq t parts ts R WF A) as (done & rest & PE & RE & P & O). cbv zeta in *.
    destruct RE as [->|(p & code & ms & rest' & -> & N)]; [rewrite app_nil_r in PE; subst done; auto|]. exfalso. apply N. rewrite PE in K. apply Forall_app in K as [_ K]. inversion K; subst. assumption.
  Qed.
  (** nothing but fetch answers and offset lookups moves a position *)
  Theorem C38_only_answers_move : forall (s : st) l t p, reachable cfg s -> position (cstep cfg s l) t p <> position s t p ->
    exists i b r, l = Arrive i b (Ok r) /\ named r = Some t.
  Proof.
    intros s l t p R N. destruct (step_cases cfg s l (reach_inv cfg s R)) as [(i & o & look & s1 & ns & ex & [E M _ _ FR])|H].
    - assert (PS : position (cstep cfg s l) t p = position s1 t p) by (rewrite E; destruct (continue_views cfg i o ns) as (PO & _); rewrite PO; apply (p_pos _ _ _ _ _ _ M)).
      rewrite PS in N. destruct FR as [(_ & _ & -> & _)|[(b & r & k & w & rs & rq & -> & _ & _ & _ & -> & _)|[(r & k & rs & _ & _ & [->| ->] & _)|(r & t' & _ & _ & -> & _)]]]; try (exfalso; apply N; reflexivity).
      destruct r as [resp|e]; cbn [answer_state] in N; [|destruct (sets_heal e); exfalso; now apply N]. exists i, b, resp. split; [reflexivity|].
      destruct (handle_handled cfg resp s). destruct (named resp) as [x|] eqn:NM; [|exfalso; apply N, h_pos; discriminate]. destruct (eqb_dec x t) as [->|NE]; [reflexivity|]. exfalso. apply N, h_pos. congruence.
    - exfalso. apply N. destruct H as [(-> & _)|[(k & _ & ->)|[(_ & ->)|(g & fn & ac & name & ev & _ & _ & ->)]]]; reflexivity.
  Qed.
End C38.
(** a partition with an unreadable message in the middle and a negative offset, and one with an error *)
Example C38_example : let r := PFetch [(tt_, [(0, (0, [(5, msg 1); (6, bad); (8, msg 2); (-3, msg 3)]))])] in let s' := cstep (ex_cfg Single) ex_fetching (Arrive 1 1 (Ok r)) in
  position s' tt_ 0 = 9 /\ position s' tt_ 1 = 7 /\ position (cstep (ex_cfg Single) ex_fetching (Arrive 1 2 (Ok (PFetch [(tt_, [(1, (6, []))])])))) tt_ 1 = 7.
Proof. vm_compute. auto. Qed.

(** ** C39: what consume() returns *)
Section C39.
  Context {V : Type}.
  Variable cfg : config V.
  Notation st := (consumer V).
  Variable i : Z.
  Definition gotten (rs : list response) : list V := filter (truthy cfg) (flat_map (response_values cfg) rs).
  Definition told (L : list V) (s : st) : Prop :=
    (forall o p, dget (c_calls s) i = Some (o, p) -> paid_pc cfg p L) /\
    (forall o r, In (i, o, r) (c_ended s) -> dget (c_calls s) i = None /\ forall v, r = Ok v -> pay cfg L v).
  Lemma told_continue (s s1 : st) o ns L : inv cfg s -> c_calls s1 = c_calls s -> c_ended s1 = c_ended s -> c_calls (snd ns) = c_calls s1 -> c_ended (snd ns) = c_ended s1 ->
    (forall o r, ~ In (i, o, r) (c_ended s)) -> nextpay cfg L (fst ns) -> told L (continue i o ns).
  Proof.
    intros I C1 E1 C2 E2 NE NP. assert (N' : NoDup (dkeys (c_calls (snd ns)))) by (rewrite C2, C1; apply I). destruct (continue_calls i o ns i N') as [_ CC]. rewrite Z.eqb_refl in CC. split.
    - intros o' p H. rewrite CC in H. destruct (fst ns); try discriminate H. injection H as <- <-. exact NP.
    - intros o' r H. rewrite continue_ended, E2, E1 in H. apply in_app_iff in H as [H|H]; [now destruct (NE o' r)|]. rewrite CC. destruct (fst ns); [destruct H| |]; (destruct H as [H|[]]; injection H as <- <-; split; [reflexivity|]); intros v' HV; [|discriminate HV]. injection HV as <-. exact NP.
  Qed.
  Lemma told_other (s s1 : st) j o ns L : inv cfg s -> j <> i -> c_calls s1 = c_calls s -> c_ended s1 = c_ended s -> c_calls (snd ns) = c_calls s1 -> c_ended (snd ns) = c_ended s1 ->
    told L s -> told L (continue j o ns).
  Proof.
    intros I J C1 E1 C2 E2 [T1 T2]. assert (N' : NoDup (dkeys (c_calls (snd ns)))) by (rewrite C2, C1; apply I). destruct (continue_calls j o ns i N') as [_ CC].
    assert (JI : (i =? j) = false) by (apply Z.eqb_neq; congruence). rewrite JI, C2, C1 in CC. split.
    - intros o' p H. rewrite CC in H. eapply T1, H.
    - intros o' r H. rewrite continue_ended, E2, E1 in H. rewrite CC. apply in_app_iff in H as [H|H]; [now apply (T2 o')|]. exfalso. destruct (fst ns); [destruct H| |]; destruct H as [H|[]]; injection H as H _ _; now apply J.
  Qed.
  Lemma told_step s l L : inv cfg s -> (forall o, l <> Call i o) -> told L s -> told (L ++ gotten (takes s i l)) (cstep cfg s l).
  Proof.
    intros I NC T. pose proof (cstep_did cfg s l I) as D.
    assert (NI : forall o p, dget (c_calls s) i = Some (o, p) -> forall o' r, ~ In (i, o', r) (c_ended s)) by (intros o p H o' r H'; destruct (proj2 T o' r H'); congruence).
    assert (NT : takes s i l = [] -> L ++ gotten (takes s i l) = L) by (intros ->; apply app_nil_r).
    assert (TK : forall j b r o k w rs rq, l = Arrive j b r -> dget (c_calls s) j = Some (o, PSend k w rs) -> dget w b = Some rq -> is_answer rq r = true -> takes s i l = if j =? i then match r with Ok resp => [resp] | Err _ => [] end else []).
    { intros j b r o k w rs rq -> D1 D2 D3. unfold takes. destruct r as [resp|e]; [|now destruct (j =? i)]. destruct (j =? i) eqn:JI; [|reflexivity]. apply Z.eqb_eq in JI. subst j. rewrite D1, D2. cbn in D3. now rewrite D3. }
    assert (GV : forall r, gotten (match r with Ok resp => [resp] | Err _ => [] end) = answer_vals cfg r) by (intros [resp|e]; unfold gotten; cbn; [now rewrite app_nil_r|reflexivity]).
    remember (cstep cfg s l) as s' eqn:EQ.
    destruct D as [l ID|j o ns D E P|j b r o k w rs rq D F W IA HF NE F'|j b r o k w rs rq ns D F W IA E P|j r o k rs s1 ns D F E P|j r t start ns D E P|k|g fn ac name ev M|].
    - rewrite NT; [exact T|]. unfold takes. destruct l as [|j b [resp|e]| | | |]; try reflexivity. destruct (j =? i) eqn:JI; [|reflexivity]. apply Z.eqb_eq in JI. subst j.
      destruct (dget (c_calls s) i) as [[o [k w rs|k rs|t]]|] eqn:D1; try reflexivity. destruct (dget w b) as [rq|] eqn:D2; [|reflexivity]. cbn in ID. rewrite (ID o k w rs rq D1 D2). reflexivity.
    - rewrite NT by reflexivity. destruct P as [(ex & M & _) _ _ _]. eapply (told_other s s); auto; [|apply M|apply M]. intros ->. now apply (NC o).
    - rewrite (TK j b r o k w rs rq eq_refl D W IA). destruct (answer_state_same cfg r s) as (C1 & E1 & _). destruct (j =? i) eqn:JI.
      + apply Z.eqb_eq in JI. subst j. rewrite GV. eapply (told_continue s); eauto. cbn. eapply paid_answer; eauto; [apply F|eapply (ws_asks _ _ _ _ (proj2 F)), dget_In, W|]. exact (proj1 T _ _ D).
      + apply Z.eqb_neq in JI. cbn [gotten flat_map filter]. rewrite app_nil_r. eapply (told_other s); eauto.
    - rewrite (TK j b r o k w rs rq eq_refl D W IA). destruct (answer_state_same cfg r s) as (C1 & E1 & _). destruct (paid_some cfg k rs) as [lv0 PD0]. destruct (P lv0 PD0) as [(ex0 & M0 & _) _ _ _]. destruct (j =? i) eqn:JI.
      + apply Z.eqb_eq in JI. subst j. rewrite GV. destruct (P L (proj1 T _ _ D)) as [(ex & M & _) _ _ PY]. eapply (told_continue s); eauto; apply M.
      + apply Z.eqb_neq in JI. cbn [gotten flat_map filter]. rewrite app_nil_r. eapply (told_other s); eauto; apply M0.
    - rewrite NT by reflexivity. assert (S1 : c_calls s1 = c_calls s /\ c_ended s1 = c_ended s) by (destruct E as [(u & _ & -> & _)|(e & _ & -> & _)]; split; reflexivity). destruct S1 as [C1 E1].
      destruct (paid_some cfg k rs) as [lv0 PD0]. destruct (P lv0 PD0) as [(ex0 & M0 & _) _ _ _]. destruct (Z.eq_dec j i) as [->|JI].
      + destruct (P L (proj1 T _ _ D)) as [(ex & M & _) _ _ PY]. eapply (told_continue s); eauto; apply M.
      + eapply (told_other s); eauto; apply M0.
    - rewrite NT by reflexivity. destruct P as [(ex & M & _) _ _ PY]. destruct (Z.eq_dec j i) as [->|JI].
      + pose proof (proj1 T _ _ D) as PD. cbn in PD. subst L. eapply (told_continue s s); eauto; apply M.
      + eapply (told_other s s); eauto; apply M.
    - rewrite NT by reflexivity. exact T.
    - rewrite NT by reflexivity. exact T.
    - rewrite NT by reflexivity. exact T.
  Qed.
  Lemma told_run ls : forall s L, inv cfg s -> (forall o, ~ In (Call i o) ls) -> told L s -> told (L ++ gotten (taken cfg i ls s)) (crun cfg ls s).
  Proof.
    induction ls as [|l ls IH]; intros s L I NC T; cbn [taken]; [cbn; now rewrite app_nil_r|].
    unfold gotten. rewrite flat_map_app, filter_app, app_assoc. cbn [crun fold_left]. apply IH; [now apply inv_step|intros o H; apply (NC o); now right|]. apply told_step; [exact I|intros o ->; apply (NC o); now left|exact T].
  Qed.
End C39.
(** A consume() that returns returns the truthy values of the readable messages in the responses it took, in the order they
    came (a group member may return nothing instead, see C48).  Missing from the full statement: the falsy values. *)
Theorem C39_returned_partial : forall V (cfg : config V) s i t start ls l, reachable cfg s -> dget (c_calls s) i = None -> (forall o r, ~ In (i, o, r) (c_ended s)) -> (forall o, ~ In (Call i o) ls) ->
  let run := Call i (OpConsume t start) :: ls in
  In (i, OpConsume t start, Ok (RvList l)) (c_ended (crun cfg run s)) ->
  l = filter (truthy cfg) (flat_map (response_values cfg) (taken cfg i run s)) \/ (md cfg <> Single /\ l = []).
Proof.
  intros V cfg s i t start ls l R D NE NC run H. pose proof (reach_inv cfg s R) as I.
  assert (T0 : told cfg i [] (cstep cfg s (Call i (OpConsume t start)))).
  { cbn [cstep]. unfold dmem. rewrite D. destruct (begin_piece cfg (OpConsume t start) s) as [(ex & M & _) _ _ PY]. cbn [begin] in *. eapply (told_continue cfg i s s); eauto; apply M. }
  pose proof (told_run cfg i ls _ [] (inv_step cfg s (Call i (OpConsume t start)) I) NC T0) as [_ T]. destruct (T _ _ H) as [_ T']. specialize (T' _ eq_refl). cbn [app] in T'.
  destruct T' as [T'|[(MD & T')|(T' & _)]]; [left|right|discriminate T']; injection T' as ->; [reflexivity|auto].
Qed.
(** in particular every truthy value of a single consumer *)
Corollary C39_nothing_truthy_lost_partial : forall V (cfg : config V) s i t start ls l r v, md cfg = Single -> reachable cfg s -> dget (c_calls s) i = None -> (forall o r, ~ In (i, o, r) (c_ended s)) -> (forall o, ~ In (Call i o) ls) ->
  let run := Call i (OpConsume t start) :: ls in
  In (i, OpConsume t start, Ok (RvList l)) (c_ended (crun cfg run s)) ->
  In r (taken cfg i run s) -> In v (response_values cfg r) -> truthy cfg v = true -> In v l.
Proof.
  intros V cfg s i t start ls l r v MD R D NE NC run H HR HV TV. destruct (C39_returned_partial V cfg s i t start ls l R D NE NC H) as [->|[N _]]; [|congruence].
  apply filter_In. split; [|exact TV]. apply in_flat_map. eauto.
Qed.
Definition ex_answers : list label :=
  [Arrive 1 2 (Ok (PFetch [(tt_, [(1, (0, [(7, msg 30); (8, bad); (9, msg 0)]))])])); Arrive 1 1 (Ok (PFetch [(tt_, [(0, (0, [(5, msg 10); (6, msg 20)]))])]))].
Example C39_example : c_ended (crun (ex_cfg Single) (ex_looked_up ++ ex_answers) ex_single) = [(1, OpConsume tt_ None, Ok (RvList [30; 10; 20]))] /\
  flat_map (response_values (ex_cfg Single)) (taken (ex_cfg Single) 1 (ex_looked_up ++ ex_answers) ex_single) = [30; 0; 10; 20].
Proof. vm_compute. auto. Qed.
(** the value 0 was fetched, the position moved past it, and consume() left it out *)
Theorem C39_falsy_dropped_refuted : exists (cfg : config Z) s ls l r v, md cfg = Single /\ reachable cfg s /\
  let s' := crun cfg ls s in c_ended s' = [(1, OpConsume tt_ None, Ok (RvList l))] /\ In r (taken cfg 1 ls s) /\ In v (response_values cfg r) /\ ~ In v l /\ position s' tt_ 1 = 10.
Proof.
  exists (ex_cfg Single), ex_single, (ex_looked_up ++ ex_answers), [30; 10; 20], (PFetch [(tt_, [(1, (0, [(7, msg 30); (8, bad); (9, msg 0)]))])]), 0. split; [reflexivity|]. split; [exists ex_cluster, (txt "me"), []; reflexivity|].
  cbv zeta. split; [vm_compute; reflexivity|]. split; [vm_compute; right; right; left; reflexivity|]. split; [right; left; reflexivity|]. split; [intros [H|[H|[H|[]]]]; discriminate H|vm_compute; reflexivity].
Qed.
(** and if cluster.heal() raises after the answers came, consume() raises, the position stays moved and the messages are gone *)
Definition ex_heal_fails : list label :=
  [Arrive 1 2 (Ok (PFetch [(tt_, [(1, (6, []))])])); Arrive 1 1 (Ok (PFetch [(tt_, [(0, (0, [(5, msg 10); (6, msg 20)]))])])); Healed 1 (Err ENoBrokers)].
Theorem C39_heal_failure_refuted : exists (cfg : config Z) s ls, md cfg = Single /\ reachable cfg s /\
  let s' := crun cfg ls s in c_ended s' = [(1, OpConsume tt_ None, Err ENoBrokers)] /\ flat_map (response_values cfg) (taken cfg 1 ls s) = [10; 20] /\ position s' tt_ 0 = 7 /\ c_calls s' = [] /\ In tt_ (c_synced s').
Proof.
  exists (ex_cfg Single), ex_single, (ex_looked_up ++ ex_heal_fails). split; [reflexivity|]. split; [exists ex_cluster, (txt "me"), []; reflexivity|]. vm_compute. repeat split. now left.
Qed.

(** ** C40: messages that do not deserialize *)
(** the same response without the messages that do not deserialize *)
Definition without_bad {V} (cfg : config V) (parts : list (Z * (Z * list (Z * pymsg)))) : list (Z * (Z * list (Z * pymsg))) :=
  map (fun part => (fst part, (fst (snd part), filter (fun om => match deser cfg (msg_value (snd om)) with Ok _ => true | Err _ => false end) (snd (snd part))))) parts.
Section C40.
  Context {V : Type}.
  Variable cfg : config V.
  Notation st := (consumer V).
  Lemma deserialize_without t p ms : forall s : st, deserialize_messages cfg t p (filter (fun om => match deser cfg (msg_value (snd om)) with Ok _ => true | Err _ => false end) ms) s = deserialize_messages cfg t p ms s.
  Proof.
    induction ms as [|[o [cr mg at_ key value]] ms IH]; intros s; [reflexivity|]. cbn [filter snd msg_value]. destruct (deser cfg value) as [v|e] eqn:D; cbn [deserialize_messages]; rewrite D; [now rewrite IH|apply IH].
  Qed.
  Lemma handle_without t parts : forall s : st, handle_fetch_parts cfg t (without_bad cfg parts) s = handle_fetch_parts cfg t parts s.
  Proof.
    induction parts as [|[p [code ms]] parts IH]; intros s; [reflexivity|]. cbn [without_bad map fst snd handle_fetch_parts]. rewrite deserialize_without. fold (without_bad cfg parts).
    destruct (code =? no_error); [destruct (deserialize_messages cfg t p ms s) as [vs s1]; now rewrite IH|]. destruct (is_retriable code); [apply IH|]. destruct (code =? offset_out_of_range); [apply IH|]. destruct (error_name code); [apply IH|reflexivity].
  Qed.
  (** they make no difference at all: the consumer goes on as if they had not been in the response *)
  Theorem C40_left_out : forall (s : st) i b t parts ts,
    cstep cfg s (Arrive i b (Ok (PFetch ((t, parts) :: ts)))) = cstep cfg s (Arrive i b (Ok (PFetch ((t, without_bad cfg parts) :: ts)))).
  Proof.
    intros s i b t parts ts. cbn [cstep]. destruct (dget (c_calls s) i) as [[o [k w rs|k rs|t']]|]; try reflexivity. destruct (dget w b) as [rq|]; [|reflexivity].
    assert (A : answers rq (PFetch ((t, without_bad cfg parts) :: ts)) = answers rq (PFetch ((t, parts) :: ts))) by now destruct rq. rewrite A. destruct (answers rq _); [|reflexivity].
    unfold arrive. cbn [handle]. now rewrite handle_without.
  Qed.
  (** and the position passes them as soon as a later message of the answer deserializes *)
  Theorem C40_passed_partial : forall (s : st) i b rq t p pre bad_offset m post o v rest, reachable cfg s -> waits_for s i b rq ->
    let ms := pre ++ (bad_offset, m) :: post in
    answers rq (PFetch ((t, [(p, (no_error, ms))]) :: rest)) = true ->
    (exists e, deser cfg (msg_value m) = Err e) -> Sorted.StronglySorted Z.lt (map fst ms) -> 0 <= bad_offset ->
    In (o, v) (readable cfg post) -> bad_offset < position (cstep cfg s (Arrive i b (Ok (PFetch ((t, [(p, (no_error, ms))]) :: rest))))) t p.
  Proof.
    intros s i b rq t p pre bo m post o v rest R W ms A _ SO BO RD.
    assert (K : Forall (fun part : Z * (Z * list (Z * pymsg)) => known_code (fst (snd part))) [(p, (no_error, ms))]) by (constructor; [eexists; reflexivity|constructor]).
    destruct (C38_positions cfg s i b rq t [(p, (no_error, ms))] rest R W A K) as [P _]. cbv zeta in P. rewrite P. clear P. unfold accepted. cbn [flat_map fst snd]. rewrite Z.eqb_refl. cbn [andb Z.eqb no_error]. rewrite app_nil_r.
    assert (RA : readable cfg ms = readable cfg (pre ++ [(bo, m)]) ++ readable cfg post) by (unfold ms, readable; rewrite <- flat_map_app, <- app_assoc; reflexivity). rewrite RA, map_app, filter_app, one_past_app.
    assert (GT : forall o', In o' (map fst (readable cfg post)) -> bo < o').
    { intros o' H. assert (H' : In o' (map fst post)).
      { apply in_map_iff in H as ([o1 v1] & <- & H). unfold readable in H. apply in_flat_map in H as ([o2 m2] & H2 & H3). cbn [fst snd] in H3. destruct (deser cfg (msg_value m2)); [|destruct H3]. destruct H3 as [H3|[]]. injection H3 as <- _. apply in_map_iff. exists (o2, m2). auto. }
      unfold ms in SO. rewrite map_app in SO. cbn [map fst] in SO. clear -SO H'. induction (map fst pre) as [|x l IH]; cbn [app] in SO; inversion SO as [|a b' S' F]; subst; [|now apply IH]. rewrite Forall_forall in F. now apply F. }
    assert (IO : In o (filter (fun o => 0 <=? o) (map fst (readable cfg post)))).
    { apply filter_In. assert (H : In o (map fst (readable cfg post))) by (apply in_map_iff; exists (o, v); auto). split; [exact H|]. apply Z.leb_le. specialize (GT o H). lia. }
    unfold one_past_last at 1. destruct (rev (filter (fun o => 0 <=? o) (map fst (readable cfg post)))) as [|z l] eqn:E.
    - apply in_rev in IO. rewrite E in IO. destruct IO.
    - assert (IZ : In z (filter (fun o => 0 <=? o) (map fst (readable cfg post)))) by (apply in_rev; rewrite E; now left). apply filter_In in IZ as [IZ _]. specialize (GT z IZ). lia.
  Qed.
  (** otherwise it stays: however many messages there are, if none deserializes the next fetch asks for the same ones *)
  Theorem C40_stuck : forall (s : st) i b rq t p ms rest, reachable cfg s -> waits_for s i b rq -> answers rq (PFetch ((t, [(p, (no_error, ms))]) :: rest)) = true ->
    (forall o m, In (o, m) ms -> exists e, deser cfg (msg_value m) = Err e) ->
    forall q, position (cstep cfg s (Arrive i b (Ok (PFetch ((t, [(p, (no_error, ms))]) :: rest))))) t q = position s t q.
  Proof.
    intros s i b rq t p ms rest R W A B q.
    assert (K : Forall (fun part : Z * (Z * list (Z * pymsg)) => known_code (fst (snd part))) [(p, (no_error, ms))]) by (constructor; [eexists; reflexivity|constructor]).
    destruct (C38_positions cfg s i b rq t [(p, (no_error, ms))] rest R W A K) as [P _]. cbv zeta in P. rewrite P. clear P.
    assert (RA : readable cfg ms = []). { clear -B. induction ms as [|[o m] ms IH]; [reflexivity|]. rewrite readable_cons. destruct (B o m (or_introl eq_refl)) as [e ->]. apply IH. intros o' m' H. apply (B o'). now right. }
    unfold accepted. cbn [flat_map fst snd]. rewrite RA. cbn. now destruct ((p =? q) && true).
  Qed.
End C40.
Example C40_example : let r := PFetch [(tt_, [(0, (0, [(5, bad); (6, msg 20)]))])] in let s' := cstep (ex_cfg Single) ex_fetching (Arrive 1 1 (Ok r)) in position s' tt_ 0 = 7.
Proof. reflexivity. Qed.
(** a bad message at the end of the log: after three consume() calls the consumer still asks for it *)
Definition ex_bad_tail (i : Z) : list label := [Call i (OpConsume tt_ None); Arrive i 1 (Ok (PFetch [(tt_, [(0, (0, [(5, bad)]))])])); Arrive i 2 (Ok (PFetch [(tt_, [(1, (0, []))])]))].
Theorem C40_continues_past_refuted : exists (cfg : config Z) s ls, md cfg = Single /\ reachable cfg s /\
  let s' := crun cfg ls s in c_ended s' = [(1, OpConsume tt_ None, Ok (RvList [])); (2, OpConsume tt_ None, Ok (RvList [])); (3, OpConsume tt_ None, Ok (RvList []))] /\
    position s' tt_ 0 = 5 /\ sent cfg s' (Call 4 (OpConsume tt_ None)) = [(1, RFetch (-1) 1000 1 tt_ [(0, (5, 1000))]); (2, RFetch (-1) 1000 1 tt_ [(1, (7, 1000))])].
Proof.
  exists (ex_cfg Single), ex_single, (ex_looked_up ++ tl (ex_bad_tail 1) ++ ex_bad_tail 2 ++ ex_bad_tail 3). split; [reflexivity|]. split; [exists ex_cluster, (txt "me"), []; reflexivity|]. vm_compute. auto.
Qed.

(** ** C41: the fetch requests *)
Section C41.
  Context {V : Type}.
  Variable cfg : config V.
  Notation st := (consumer V).

  Lemma total_same (l : list Z) x : (forall y, In y l -> y = x) -> total l = zlen l * x.
  Proof.
    induction l as [|y l IH]; intros H; [reflexivity|]. cbn [total fold_right]. fold (total l). rewrite (H y (or_introl eq_refl)), IH by (intros z Hz; apply H; now right). unfold zlen. cbn [length]. lia.
  Qed.
  Lemma shares (l : list Z) m : 0 <= m -> (forall y, In y l -> y = Z.quot m (zlen l)) -> total l <= m.
  Proof.
    intros M H. rewrite (total_same l _ H). destruct l as [|a l]; [exact M|]. assert (P : 0 < zlen (a :: l)) by (unfold zlen; cbn [length]; lia). rewrite Z.quot_div_nonneg by lia. apply Z.mul_div_le. exact P.
  Qed.
  Lemma asked_app a b : asked (a ++ b) = asked a ++ asked b.
  Proof. apply flat_map_app. Qed.
  Lemma nodup_app_l {A} (a b : list A) : NoDup (a ++ b) -> NoDup a.
  Proof. induction a as [|x a IH]; intros N; [constructor|]. inversion N; subst. constructor; [intros H; apply H1, in_app_iff; now left|now apply IH]. Qed.
  Lemma asked_filter f rqs : NoDup (asked rqs) -> NoDup (asked (filter f rqs)).
  Proof.
    induction rqs as [|[b rq] rqs IH]; intros N; [exact N|]. change ((b, rq) :: rqs) with ([(b, rq)] ++ rqs) in N. rewrite asked_app in N. cbn [filter].
    assert (T : NoDup (asked (filter f rqs))). { apply IH. clear -N. induction (asked [(b, rq)]) as [|x l IH]; [exact N|]. inversion N; auto. }
    destruct (f (b, rq)); [|exact T]. change ((b, rq) :: filter f rqs) with ([(b, rq)] ++ filter f rqs). rewrite asked_app.
    assert (S : forall x, In x (asked (filter f rqs)) -> In x (asked rqs)). { intros x H. unfold asked in *. apply in_flat_map in H as (br & H1 & H2). apply filter_In in H1 as [H1 _]. apply in_flat_map. eauto. }
    clear -N T S. induction (asked [(b, rq)]) as [|x l IH]; [exact T|]. cbn [app] in *. inversion N; subst. constructor; [|auto]. intros H. apply H1. apply in_app_iff in H as [H|H]; apply in_app_iff; auto.
  Qed.
  Lemma in_asked p rqs : In p (asked rqs) <-> exists b r mw mb t parts x, In (b, RFetch r mw mb t parts) rqs /\ In (p, x) parts.
  Proof.
    unfold asked. rewrite in_flat_map. split.
    - intros ([b rq] & H & P). destruct rq as [r mw mb t parts| | | |]; try destruct P. cbn in P. apply in_map_iff in P as ([p' x] & <- & P). exists b, r, mw, mb, t, parts, x. auto.
    - intros (b & r & mw & mb & t & parts & x & H & P). exists (b, RFetch r mw mb t parts). split; [exact H|]. cbn. apply in_map_iff. exists (p, x). auto.
  Qed.

  (** A step that sends a fetch request on a topic sends nothing but fetch requests on it, at most one to each broker, each
      over an open connection and for partitions of the allocation that broker leads, from their positions, with byte limits
      adding up to at most max_bytes.  No partition is asked for twice.  If the call then waits for the answers, every
      partition of the allocation has a leader and is asked for there, unless that leader's connection is closing. *)
  Theorem C41_fetch_requests : forall (s : st) l t b rq, reachable cfg s -> In (b, rq) (sent cfg s l) -> is_fetch t rq -> let s' := cstep cfg s l in
    (forall b' rq', In (b', rq') (sent cfg s l) -> open_conn s' b' = true /\ exists parts, parts <> [] /\ rq' = RFetch (-1) (max_wait cfg) (min_bytes cfg) t parts /\
       (forall p o mb, In (p, (o, mb)) parts -> In p (alloc_of cfg s' t) /\ leader_of s' t p = Some b' /\ o = position s' t p) /\
       (0 <= max_bytes cfg -> total (byte_limits rq') <= max_bytes cfg)) /\
    NoDup (map fst (sent cfg s l)) /\
    (NoDup (alloc_of cfg s' t) -> NoDup (asked (sent cfg s l))) /\
    (c_ended s' = c_ended s -> forall p, In p (alloc_of cfg s' t) -> exists b', leader_of s' t p = Some b' /\ (open_conn s' b' = true -> In p (asked (sent cfg s l)))).
  Proof.
    intros s l t b rq R H F s'. destruct (sent_cases cfg s l (reach_inv cfg s R)) as (i & o & look & s1 & ns & A); [intros E; rewrite E in H; destruct H|].
    pose proof (acts_before _ _ _ _ _ _ _ _ _ A) as (_ & EN & _). destruct A as [E M S _ _]. unfold s'. rewrite E.
    destruct (continue_views cfg i o ns) as (PO & LE & AL & OC & _). cbv zeta in *.
    assert (EE : c_ended (continue i o ns) = c_ended s -> exists p, fst ns = Await p).
    { rewrite continue_ended, (p_ended _ _ _ _ _ _ M), EN. intros X. destruct (fst ns) as [p|v|e]; [eauto| |]; exfalso; apply (f_equal (@length _)) in X; rewrite app_length in X; cbn in X; lia. }
    remember (sent cfg s l) as ex eqn:EX. clear EX. destruct S as [|t' start rqs pre post O FE RE D ex X|t' start rqs pre post _ _ O L RE D ex X|t' start b0 g fn ac name ps _ _ _ _ _ _|m ret b0 g fn ac name am _ _ _ _ _ _ _|b0 rest g fn ac name _ _ _ _].
    - destruct H.
    - destruct FE as (NE & ND & PE & AS).
      assert (TT : t' = t). { subst ex. apply filter_In in H as [H _]. assert (HR : In (b, rq) rqs) by (rewrite RE; apply in_app_iff; now left). destruct (AS b rq HR) as (parts & _ & -> & _). destruct F as (r & mw & mb & ps & F). injection F as _ _ _ F _. exact F. }
      subst t'. fold (asked rqs) in PE.
      assert (IN : forall b' rq', In (b', rq') ex -> In (b', rq') rqs /\ open_conn (snd ns) b' = true) by (intros b' rq' HI; subst ex; apply filter_In in HI as [HI HO]; split; [rewrite RE; apply in_app_iff; now left|exact HO]).
      split; [|split; [|split]].
      + intros b' rq' HI. destruct (IN b' rq' HI) as [HI' HO]. rewrite OC. split; [exact HO|]. destruct (AS b' rq' HI') as (parts & NP & -> & PP). exists parts. split; [exact NP|]. split; [reflexivity|]. split.
        * intros p o' mb HP. rewrite AL, LE, PO. destruct (PP p o' mb HP) as (L1 & L2 & _). split; [|split; assumption]. eapply Permutation_in; [exact PE|]. apply in_asked. do 6 eexists. exists (o', mb). split; [exact HI'|exact HP].
        * intros MB. cbn [byte_limits]. apply shares; [exact MB|]. unfold zlen. rewrite map_length. intros y HY. apply in_map_iff in HY as ([p [o' mb]] & <- & HP). destruct (PP p o' mb HP) as (_ & _ & L3). exact L3.
      + assert (NP : NoDup (map fst pre)) by (rewrite RE in ND; unfold dkeys in ND; rewrite map_app in ND; eapply nodup_app_l, ND). subst ex. clear -NP.
        induction pre as [|[b0 r0] pre IH]; [constructor|]. inversion NP; subst. cbn [filter fst]. destruct (open_conn (snd ns) b0); [|auto]. cbn [map fst]. constructor; [|auto]. intros HB. apply H1. apply in_map_iff in HB as (x & HX & HB). apply filter_In in HB as [HB _]. apply in_map_iff. eauto.
      + intros NA. rewrite AL in NA. subst ex. apply asked_filter. eapply Permutation_NoDup in NA; [|apply Permutation_sym, PE]. rewrite RE, asked_app in NA. eapply nodup_app_l, NA.
      + intros CE p HP. destruct (EE CE) as [p' AW]. destruct D as [(PN & D & _)|D]; [|now destruct (D p')]. subst post. rewrite app_nil_r in RE. subst pre.
        rewrite AL in HP. eapply Permutation_in in HP; [|apply Permutation_sym, PE]. apply in_asked in HP as (b' & r & mw & mb & t0 & parts & [o' x] & HI & HX). destruct (AS b' _ HI) as (parts' & _ & EQ & PP). injection EQ as -> -> -> -> ->.
        exists b'. rewrite LE, OC. destruct (PP p o' x HX) as (L1 & _ & _). split; [exact L1|]. intros HO. apply in_asked. do 6 eexists. exists (o', x). split; [|exact HX]. subst ex. apply filter_In. split; [exact HI|exact HO].
    - exfalso. subst ex. apply filter_In in H as [H _]. assert (HR : In (b, rq) rqs) by (rewrite RE; apply in_app_iff; now left). destruct L as (_ & _ & L). destruct (L b rq HR) as (parts & _ & -> & _). destruct F as (? & ? & ? & ? & F). discriminate F.
    - exfalso. destruct H as [H|[]]. injection H as _ <-. destruct F as (? & ? & ? & ? & F). discriminate F.
    - exfalso. destruct H as [H|[]]. injection H as _ <-. destruct F as (? & ? & ? & ? & F). discriminate F.
    - exfalso. destruct H as [H|[]]. injection H as _ <-. destruct F as (? & ? & ? & ? & F). discriminate F.
  Qed.

  (** ** the requests are made *)
  Lemma allocated_ok t (s : st) : alloc_of cfg s t <> [] -> fst (allocated cfg t s) = Ok true.
  Proof.
    intros A. unfold allocated, alloc_map, alloc_of in *. destruct (md cfg) as [|g fn ac name] eqn:M.
    - destruct (dget (k_topics (c_cluster s)) t) as [ps|] eqn:D; [|now destruct A]. unfold dmem. rewrite D. unfold alloc_index. rewrite M. unfold ddefault. rewrite D. cbn. destruct ps; [now destruct A|reflexivity].
    - unfold gives_to in A. unfold allocation. destruct (dget (mp_tab (a_mapping (c_alloc s))) (a_name (c_alloc s))) as [tm|] eqn:D; [|now destruct A].
      destruct (dget tm t) as [ps|] eqn:D2; [|now destruct A]. unfold dmem. cbn. rewrite D2. unfold alloc_index. rewrite M. cbn. unfold allocation. rewrite D. cbn. rewrite D2. cbn. destruct ps; [now destruct A|reflexivity].
  Qed.
  Lemma alloc_index_ok t (s : st) : alloc_of cfg s t <> [] -> exists ps, fst (alloc_index cfg t s) = Ok ps.
  Proof.
    intros A. unfold alloc_index, alloc_of in *. destruct (md cfg) as [|g fn ac name] eqn:M.
    - destruct (ddefault [] (k_topics (c_cluster s)) t). eexists. reflexivity.
    - unfold gives_to in A. unfold allocation. destruct (dget (mp_tab (a_mapping (c_alloc s))) (a_name (c_alloc s))) as [tm|] eqn:D; [|now destruct A].
      destruct (dget tm t) as [ps|] eqn:D2; [|now destruct A]. eexists. reflexivity.
  Qed.
  Lemma order_leaders_ok t ps : forall acc (s : st), (forall p, In p ps -> leader_of s t p <> None) -> exists ord, fst (order_leaders t ps acc s) = Ok ord.
  Proof using cfg.
    induction ps as [|p ps IH]; intros acc s L; cbn [order_leaders]; [eexists; reflexivity|]. destruct (get_leader_spec cfg t p s) as [Q G]. cbv zeta in *. destruct (get_leader t p (c_cluster s)) as [r k]. cbn [fst snd] in *.
    destruct (leader_of s t p) as [b|] eqn:LP; [|destruct (L p (or_introl eq_refl) LP)]. rewrite (proj2 (G b) eq_refl). destruct (ddefault [] acc b) as [q acc1]. apply IH. intros p' H. rewrite (q_leader _ _ _ Q). apply L. now right.
  Qed.
  Lemma send_all_ok rqs : forall s : st, (forall b rq, In (b, rq) rqs -> dget (k_conns (c_cluster s)) b <> None /\ unsendable cfg rq = None) -> fst (send_all cfg rqs s) = Ok tt.
  Proof.
    induction rqs as [|[b rq] rqs IH]; intros s H; cbn [send_all]; [reflexivity|]. destruct (H b rq (or_introl eq_refl)) as [C U]. destruct (dget (k_conns (c_cluster s)) b) as [cn|]; [|now destruct C].
    assert (H' : forall b rq, In (b, rq) rqs -> dget (k_conns (c_cluster s)) b <> None /\ unsendable cfg rq = None) by (intros; apply H; now right).
    destruct (cc_closing cn); [now apply IH|]. rewrite U. apply IH. exact H'.
  Qed.
  Lemma fetch_ok t (s : st) : alloc_of cfg s t <> [] -> (forall p, In p (alloc_of cfg s t) -> exists b, leader_of s t p = Some b /\ dget (k_conns (c_cluster s)) b <> None) -> (forall rq, unsendable cfg rq = None) ->
    exists rqs, fst (fetch cfg t s) = Await (PSend (KFetch t) rqs []).
  Proof.
    intros A L U. destruct (fetch_spec cfg t s) as [(e & ex & E & Q & D)|[(N & _)|(_ & rqs & ex & E & _)]]; [|now destruct A|eauto]. exfalso. clear Q D. revert E. unfold fetch.
    pose proof (allocated_spec cfg t s) as (Q1 & _). pose proof (allocated_ok t s A) as K1. destruct (allocated cfg t s) as [r1 s1]. cbn [fst snd] in *. subst r1.
    assert (A1 : alloc_of cfg s1 t <> []) by now rewrite (q_alloc _ _ _ Q1). destruct (alloc_index_ok t s1 A1) as [ps K2]. destruct (alloc_index_spec cfg t s1) as [Q2 PS]. destruct (alloc_index cfg t s1) as [r2 s2]. cbn [fst snd] in *. subst r2. specialize (PS ps eq_refl).
    pose proof (quiet_trans cfg _ _ _ Q1 Q2) as Q12. assert (L2 : forall p, In p ps -> leader_of s2 t p <> None) by (intros p HP; subst ps; rewrite (q_alloc _ _ _ Q1) in HP; destruct (L p HP) as (b & LB & _); rewrite (q_leader _ _ _ Q12), LB; discriminate).
    destruct (order_leaders_ok t ps [] s2 L2) as [ord K3]. destruct (order_leaders_spec cfg t ps [] s2) as [Q3 O3]. destruct (order_leaders t ps [] s2) as [r3 s3]. cbn [fst snd] in *. subst r3.
    destruct (O3 ord eq_refl) as (_ & NE & _ & OL); [constructor|intros ? ? []|]. destruct (fetch_requests_spec cfg t ord s3) as [Q4 R4]. destruct (fetch_requests cfg t ord s3) as [rqs s4]. cbn [fst snd] in *.
    pose proof (quiet_trans cfg _ _ _ Q12 (quiet_trans cfg _ _ _ Q3 Q4)) as Q14.
    assert (K5 : fst (send_all cfg rqs s4) = Ok tt).
    { apply send_all_ok. intros b rq H. split; [|apply U]. rewrite (q_conns _ _ _ Q14). subst rqs. apply in_map_iff in H as ([l q] & H & HO). cbn [fst snd] in H. injection H as <- _. specialize (NE l q HO). destruct q as [|p q]; [now destruct NE|].
      destruct (proj1 (OL l p)) as [(q' & [] & _)|(HP & LP)]; [exists (p :: q); split; [exact HO|now left]|]. subst ps. rewrite (q_alloc _ _ _ Q1) in HP. destruct (L p HP) as (b & LB & CB). rewrite (q_leader _ _ _ Q12), LB in LP. injection LP as <-. exact CB. }
    destruct (send_all cfg rqs s4) as [r5 s5]. cbn [fst] in K5. subst r5. discriminate.
  Qed.
  (** A consume() on a topic whose offsets are known, called when every partition of the allocation has a leader in the
      cluster and requests serialize, asks each leader that has an open connection for its partitions right away. *)
  Theorem C41_all_asked : forall (s : st) i t start, reachable cfg s -> dget (c_calls s) i = None -> c_closing s = false -> In t (c_synced s) -> alloc_of cfg s t <> [] ->
    (forall p, In p (alloc_of cfg s t) -> exists b, leader_of s t p = Some b /\ dget (k_conns (c_cluster s)) b <> None) -> (forall rq, unsendable cfg rq = None) ->
    forall p b, In p (alloc_of cfg s t) -> leader_of s t p = Some b -> open_conn s b = true -> exists parts mb, In (b, RFetch (-1) (max_wait cfg) (min_bytes cfg) t parts) (sent cfg s (Call i (OpConsume t start))) /\ In (p, (position s t p, mb)) parts.
  Proof.
    intros s i t start R D CL SY A L U p b HP LB OB.
    cbn [cstep sent] in *. pose proof (allocated_spec cfg t s) as (Q1 & _). pose proof (allocated_ok t s A) as K1.
    assert (CO : consume cfg t start s = fetch cfg t (snd (allocated cfg t s))) by (unfold consume, after_offsets; apply smem_In in SY; rewrite CL, SY; destruct (allocated cfg t s) as [r1 s1]; cbn [fst] in K1; now subst r1).
    set (s1 := snd (allocated cfg t s)) in *. clearbody s1.
    assert (F : exists rqs, fst (fetch cfg t s1) = Await (PSend (KFetch t) rqs [])).
    { apply fetch_ok; [now rewrite (q_alloc _ _ _ Q1)| |exact U]. intros p' H. rewrite (q_alloc _ _ _ Q1) in H. rewrite (q_leader _ _ _ Q1), (q_conns _ _ _ Q1). now apply L. }
    destruct F as [rqs F]. destruct (fetch_spec cfg t s1) as [(e & ex & E & _)|[(N & _)|(_ & rqs' & ex & E & Q & X & FE & _)]]; [congruence|rewrite (q_alloc _ _ _ Q1) in N; now destruct A|].
    assert (SE : sent cfg s (Call i (OpConsume t start)) = ex).
    { apply sent_eq. cbn [cstep]. unfold dmem. rewrite D, CO. destruct (continue_same i (OpConsume t start) (fetch cfg t s1)) as (_ & _ & _ & _ & _ & _ & _ & _ & ->). rewrite (qw_wire _ _ _ _ Q), (q_wire _ _ _ Q1). reflexivity. }
    rewrite SE. destruct FE as (_ & _ & PE & AS). pose proof (quietw_moves cfg false (OpConsume t start) _ _ _ Q) as MV. fold (asked rqs') in PE.
    rewrite (p_alloc _ _ _ _ _ _ MV), (q_alloc _ _ _ Q1) in PE. eapply Permutation_in in HP; [|apply Permutation_sym, PE]. apply in_asked in HP as (b' & r & mw & mb & t0 & parts & [o' x] & HI & HX).
    destruct (AS b' _ HI) as (parts' & _ & EQ & PP). injection EQ as -> -> -> -> ->. destruct (PP p o' x HX) as (L1 & L2 & _). rewrite (p_leader _ _ _ _ _ _ MV), (q_leader _ _ _ Q1), LB in L1. injection L1 as <-.
    exists parts', x. rewrite (p_pos _ _ _ _ _ _ MV), (q_pos _ _ _ Q1) in L2. subst o'. split; [|exact HX]. subst ex. apply filter_In. split; [exact HI|]. cbn [fst]. now rewrite (open_conn_quiet cfg _ _ Q1).
  Qed.
End C41.
(** three partitions, two of them led by broker 1; broker 3 leads nothing *)
Definition ex_three : cluster := Cl [(1, CC (txt "a") 9092 1 false); (2, CC (txt "b") 9092 2 false); (3, CC (txt "c") 9092 3 false)] [(tt_, [0; 1; 2])] [(tt_, [(0, 1); (1, 2); (2, 1)])] 2 0 [].
Definition ex_three_up : consumer Z := crun (ex_cfg Single) (removelast ex_looked_up) (consumer_init ex_three (txt "me")).
Example C41_example : sent (ex_cfg Single) ex_three_up (last ex_looked_up Close) = [(1, RFetch (-1) 1000 1 tt_ [(0, (5, 500)); (2, (0, 500))]); (2, RFetch (-1) 1000 1 tt_ [(1, (7, 1000))])].
Proof. reflexivity. Qed.
Example C41_example_synced : let s := ex_fetching in let s1 := crun (ex_cfg Single) ex_answers s in dget (c_calls s1) 2 = None /\ c_closing s1 = false /\ In tt_ (c_synced s1) /\ alloc_of (ex_cfg Single) s1 tt_ = [0; 1] /\
  sent (ex_cfg Single) s1 (Call 2 (OpConsume tt_ None)) = [(1, RFetch (-1) 1000 1 tt_ [(0, (7, 1000))]); (2, RFetch (-1) 1000 1 tt_ [(1, (10, 1000))])].
Proof. vm_compute. auto 6. Qed.

(** ** C42: when offsets are looked up *)
Section C42.
  Context {V : Type}.
  Variable cfg : config V.
  Notation st := (consumer V).
  Lemma out_of_range_forgotten (s : st) i b rq t parts ts : inv cfg s -> waits_for s i b rq -> is_fetch t rq -> Forall (fun part => known_code (fst (snd part))) parts -> out_of_range_in parts ->
    (forall j o p, dget (c_calls s) j = Some (o, p) -> on_topic t o -> j = i) -> forgotten t (cstep cfg s (Arrive i b (Ok (PFetch ((t, parts) :: ts))))).
  Proof.
    intros I0 (o & k & w & rs & D & W) IF K OR ON. set (r := PFetch ((t, parts) :: ts)).
    assert (IA : is_answer rq (Ok r) = true) by (destruct IF as (? & ? & ? & ? & ->); reflexivity).
    pose proof (proj2 I0 _ _ _ D) as [FC WS]. assert (LK : late k).
    { pose proof (ws_asks _ _ _ _ WS b rq (dget_In _ _ _ W)) as A. destruct IF as (r0 & mw & mb & ps & ->). destruct k as [t' [q|]|t'|m ret|a rest]; cbn in A; try exact I.
      - destruct o as [t1 start|x|]; try contradiction. destruct FC as (_ & FC). destruct (md cfg); [discriminate FC|]. destruct FC as (ps' & FC). injection FC as ->. discriminate A.
      - destruct A as (? & A). discriminate A.
      - destruct A as (_ & g & A). discriminate A. }
    destruct (arrive_acts cfg s i b (Ok r) o k w rs rq I0 D W IA) as (ns & ex & AC & EN). pose proof (ac_step _ _ _ _ _ _ _ _ _ AC) as E. rewrite E.
    assert (SY : ~ In t (c_synced (answer_state cfg (Ok r) s))).
    { cbn [answer_state r handle]. destruct (handle_fetch_spec cfg t parts s) as (done & rest & PE & RE & _ & SY & _). destruct (handle_fetch_parts cfg t parts s) as [[vs|e] s1]; cbn [fst snd] in *.
      - destruct RE as (-> & _). rewrite app_nil_r in PE. subst done. intros H. apply SY in H as [_ H]. apply H. auto.
      - exfalso. destruct RE as (p & code & ms & rest' & -> & N & _). rewrite PE in K. apply Forall_app in K as [_ K]. inversion K as [|? ? [nm KN]]; subst. cbn in KN. congruence. }
    assert (WD : winds (answer_state cfg (Ok r) s) ns).
    { rewrite EN, arrive_eq by (eapply ws_apart; [exact WS|]; eapply dget_Some_in; exact W). destruct (handler_fails cfg (Ok r) s); [now apply raised_winds|]. destruct (ddel w b) as [|x0 w0]; [now apply send_end_winds|]. apply winds_refl. intros p H. injection H as <-. exact LK. }
    destruct (acts_before _ _ _ _ _ _ _ _ _ AC) as (C1 & _). destruct (continue_same i o ns) as (_ & CS & _). split; [rewrite CS, (w_synced _ _ WD); exact SY|].
    intros j o' p H T. assert (C2 : c_calls (snd ns) = c_calls s) by (rewrite (p_calls _ _ _ _ _ _ (ac_moves _ _ _ _ _ _ _ _ _ AC)); exact C1).
    assert (N' : NoDup (dkeys (c_calls (snd ns)))) by (rewrite C2; apply I0). destruct (continue_calls i o ns j N') as [_ CC]. rewrite CC in H. destruct (j =? i) eqn:JI; [|rewrite C2 in H; apply Z.eqb_neq in JI; now destruct (JI (ON _ _ _ H T))].
    destruct (fst ns) as [p'|v|e] eqn:FN; try discriminate H. injection H as <- <-. exact (w_next _ _ WD _ FN).
  Qed.
End C42.
(** After an out-of-range answer, if no other call on the topic runs, no fetch request on it is sent, whatever happens, before
    some call waits for the answer to an offset lookup.  Missing: the lookup may fail (C42_failed_lookup_refuted); calls made
    while the topic has no partitions (C60). *)
Theorem C42_lookup_before_fetch_partial : forall V (cfg : config V) s i b rq t parts ts ls l b' rq',
  reachable cfg s -> waits_for s i b rq -> is_fetch t rq -> Forall (fun part => known_code (fst (snd part))) parts -> out_of_range_in parts ->
  (forall j o p, dget (c_calls s) j = Some (o, p) -> on_topic t o -> j = i) ->
  let s' := cstep cfg s (Arrive i b (Ok (PFetch ((t, parts) :: ts)))) in
  each_step cfg (fun s l => forall i start, l = Call i (OpConsume t start) -> alloc_of cfg s t <> []) (ls ++ [l]) s' ->
  In (b', rq') (sent cfg (crun cfg ls s') l) -> is_fetch t rq' ->
  exists ls1 ls2 j b'' rq'', ls = ls1 ++ ls2 /\ waits_for (crun cfg ls1 s') j b'' rq'' /\ is_lookup t rq''.
Proof.
  intros V cfg s i b rq t parts ts ls l b' rq' R W IF K OR ON s' ES H F. pose proof (reach_inv cfg s R) as I0. pose proof (out_of_range_forgotten cfg s i b rq t parts ts I0 W IF K OR ON) as FO. fold s' in FO.
  assert (I1 : inv cfg s') by now apply inv_step.
  assert (ES' : forall ls s, each_step cfg (fun s l => forall i start, l = Call i (OpConsume t start) -> alloc_of cfg s t <> []) (ls ++ [l]) s -> each_step cfg (fun s l => forall i start, l = Call i (OpConsume t start) -> alloc_of cfg s t <> []) ls s /\ forall i start, l = Call i (OpConsume t start) -> alloc_of cfg (crun cfg ls s) t <> []).
  { clear. induction ls as [|x ls IH]; intros s E; cbn [app each_step] in *; [destruct E as [E _]; split; [exact I|exact E]|]. destruct E as [E1 E2]. destruct (IH _ E2) as [E3 E4]. split; [split; assumption|exact E4]. }
  destruct (ES' ls s' ES) as [E1 E2]. destruct (forgotten_run cfg t ls s' I1 FO E1) as [F2|X]; [|exact X]. exfalso. destruct (forgotten_step cfg t (crun cfg ls s') l (inv_run cfg ls s' I1) F2 E2) as [NF _]. exact (NF b' rq' H F).
Qed.
(** Once a fetch request on a topic was sent, later consume() calls on it do not look offsets up, until an answer says that
    an offset is out of range or a lookup met a retriable error, or the group is rebalanced.  (A fetch that was sent when the
    heal of an unknown topic ended does not count, as another call may have met such an answer meanwhile.) *)
Theorem C42_not_asked_again : forall V (cfg : config V) s l t b rq ls i start b' rq', reachable cfg s -> In (b, rq) (sent cfg s l) -> is_fetch t rq -> (forall j r, l <> Healed j r) ->
  each_step cfg (fun _ l => ~ forgets t l) ls (cstep cfg s l) ->
  In (b', rq') (sent cfg (crun cfg ls (cstep cfg s l)) (Call i (OpConsume t start))) -> ~ is_lookup t rq'.
Proof.
  intros V cfg s l t b rq ls i start b' rq' R H F NH ES H'. pose proof (reach_inv cfg s R) as I0. assert (SY : In t (c_synced (cstep cfg s l))) by (eapply fetch_shows_known; eauto).
  assert (I1 : inv cfg (cstep cfg s l)) by now apply inv_step. eapply known_asks_no_lookup; [|apply known_run; eassumption|exact H']. now apply inv_run.
Qed.
Definition ex_out_of_range : list label := [Arrive 1 1 (Ok (PFetch [(tt_, [(0, (1, []))])])); Arrive 1 2 (Ok (PFetch [(tt_, [(1, (0, []))])]))].
Example C42_example : let s := ex_fetching in
  (forall j o p, dget (c_calls s) j = Some (o, p) -> on_topic tt_ o -> j = 1) /\ waits_for s 1 1 (RFetch (-1) 1000 1 tt_ [(0, (5, 1000))]) /\
  let s1 := crun (ex_cfg Single) ex_out_of_range s in
  sent (ex_cfg Single) s1 (Call 2 (OpConsume tt_ (Some (StInt (-2))))) = [(1, ROffset (-1) tt_ [(0, (PInt (-2), 1))]); (2, ROffset (-1) tt_ [(1, (PInt (-2), 1))])] /\
  sent (ex_cfg Single) (crun (ex_cfg Single) ex_answers s) (Call 2 (OpConsume tt_ None)) = [(1, RFetch (-1) 1000 1 tt_ [(0, (7, 1000))]); (2, RFetch (-1) 1000 1 tt_ [(1, (10, 1000))])].
Proof.
  split; [|split; [apply ex_fetching_state|vm_compute; auto]]. intros j o p H _. vm_compute in H. destruct j as [|j|j]; try discriminate H. destruct j; try discriminate H. reflexivity.
Qed.
(** the offset is out of range; the next consume() looks offsets up, but the connection to the leader fails: the same offset is fetched again *)
Theorem C42_failed_lookup_refuted : exists (cfg : config Z) s ls l, md cfg = Single /\ reachable cfg s /\ position s tt_ 0 = 5 /\
  ls = ex_out_of_range ++ [Call 2 (OpConsume tt_ None); Arrive 2 1 (Err EStreamClosed)] /\ l = Arrive 2 2 (Ok (POffset [(tt_, [(1, (0, [7]))])])) /\
  In (1, RFetch (-1) 1000 1 tt_ [(0, (5, 1000))]) (sent cfg (crun cfg ls s) l).
Proof.
  exists (ex_cfg Single), ex_fetching. eexists. eexists. split; [reflexivity|]. split; [exists ex_cluster, (txt "me"), ex_looked_up; reflexivity|]. split; [reflexivity|]. split; [reflexivity|]. split; [reflexivity|]. vm_compute. auto.
Qed.

(** ** C43: retriable errors of a lookup *)
Section C43.
  Context {V : Type}.
  Variable cfg : config V.
  Notation st := (consumer V).
  Lemma offset_heals t parts : forall s : st, (exists p code offs, In (p, (code, offs)) parts /\ is_retriable code = true) ->
    (forall p code offs, In (p, (code, offs)) parts -> is_retriable code = true \/ (code = no_error /\ offs <> [])) ->
    fst (handle_offset_parts t parts s) = Ok tt /\ c_heal (snd (handle_offset_parts t parts s)) = true.
  Proof.
    assert (H0 : forall parts (s : st), c_heal s = true -> (forall p code offs, In (p, (code, offs)) parts -> is_retriable code = true \/ (code = no_error /\ offs <> [])) ->
      fst (handle_offset_parts t parts s) = Ok tt /\ c_heal (snd (handle_offset_parts t parts s)) = true).
    { clear. induction parts as [|[p [code offs]] parts IH]; intros s H A; [split; [reflexivity|exact H]|]. assert (A' : forall p code offs, In (p, (code, offs)) parts -> is_retriable code = true \/ (code = no_error /\ offs <> [])) by (intros ? ? ? X; eapply A; right; exact X).
      cbn [handle_offset_parts]. destruct (code =? no_error) eqn:C.
      - apply Z.eqb_eq in C. destruct (A p code offs (or_introl eq_refl)) as [X|(_ & X)]; [subst code; discriminate X|]. destruct offs as [|o offs]; [now destruct X|]. apply IH; [|exact A']. destruct (0 <=? o); [|exact H]. destruct (offset_set_spec t p o s) as (_ & _ & x & ->). exact H.
      - destruct (A p code offs (or_introl eq_refl)) as [X|(X & _)]; [|subst code; discriminate C]. rewrite X. apply IH; [reflexivity|exact A']. }
    induction parts as [|[p [code offs]] parts IH]; intros s (p0 & c0 & o0 & HI & HR) A; [destruct HI|]. assert (A' : forall p code offs, In (p, (code, offs)) parts -> is_retriable code = true \/ (code = no_error /\ offs <> [])) by (intros ? ? ? X; eapply A; right; exact X).
    cbn [handle_offset_parts]. destruct (code =? no_error) eqn:C.
    - apply Z.eqb_eq in C. destruct HI as [HI|HI]; [injection HI as -> -> ->; subst c0; discriminate HR|]. destruct (A p code offs (or_introl eq_refl)) as [X|(_ & X)]; [subst code; discriminate X|]. destruct offs as [|o offs]; [now destruct X|]. apply IH; [eauto|exact A'].
    - destruct (A p code offs (or_introl eq_refl)) as [X|(X & _)]; [|subst code; discriminate C]. rewrite X. apply H0; [reflexivity|exact A'].
  Qed.
End C43.
(** What a retriable error does lead to: nothing is sent before the cluster was healed.  Missing: the new lookup, see
    C43_looked_up_again_refuted. *)
Theorem C43_heal_first_partial : forall V (cfg : config V) s i b rq t parts ts, md cfg = Single -> reachable cfg s -> waits_for s i b rq -> is_lookup t rq ->
  (exists p code offs, In (p, (code, offs)) parts /\ is_retriable code = true) -> (forall p code offs, In (p, (code, offs)) parts -> is_retriable code = true \/ (code = no_error /\ offs <> [])) ->
  let l := Arrive i b (Ok (POffset ((t, parts) :: ts))) in sent cfg s l = [] /\ c_ended (cstep cfg s l) = c_ended s /\ c_heal (cstep cfg s l) = true.
Proof.
  intros V cfg s i b rq t parts ts MD R (o & k & w & rs & D & W) IL HR A l. pose proof (reach_inv cfg s R) as I0. pose proof (proj2 I0 _ _ _ D) as [FC WS].
  assert (RQ : exists r ps, rq = ROffset r t ps).
  { destruct IL as [X|(g & ps & ->)]; [exact X|]. pose proof (ws_asks _ _ _ _ WS b _ (dget_In _ _ _ W)) as X. destruct k as [t' [q|]|t'|m ret|a rest]; cbn in X; [|destruct X as (? & X); discriminate X..|destruct X as (? & ? & X); discriminate X|destruct X as (_ & ? & X); discriminate X].
    destruct o as [t1 start|x|]; try contradiction. destruct FC as (_ & FC). rewrite MD in FC. discriminate FC. }
  destruct RQ as (r0 & ps & ->). assert (IA : is_answer (ROffset r0 t ps) (Ok (POffset ((t, parts) :: ts))) = true) by reflexivity.
  destruct (offset_heals t parts s HR A) as [H1 H2]. destruct (answer_state_same cfg (Ok (POffset ((t, parts) :: ts))) s) as (_ & C2 & _ & _ & _ & C6). unfold l.
  assert (E : exists p, cstep cfg s l = continue i o (Await p, answer_state cfg (Ok (POffset ((t, parts) :: ts))) s)).
  { unfold l. cbn [cstep]. rewrite D, W. cbn [answers]. rewrite arrive_eq by (eapply ws_apart; [exact WS|]; eapply dget_Some_in; exact W). cbn [handler_fails handle answer_results answer_state].
    destruct (handle_offset_parts t parts s) as [[[]|e] s1]; cbn [fst snd] in *; [|discriminate H1]. unfold send_end. rewrite H2. destruct (ddel w b); eexists; reflexivity. }
  destruct E as [p E]. split; [|split].
  - apply sent_eq. fold l. rewrite E. cbn. rewrite app_nil_r. exact C6.
  - fold l. rewrite E. exact C2.
  - fold l. rewrite E. cbn [continue set_calls c_heal answer_state handle]. destruct (handle_offset_parts t parts s) as [[[]|e] s1]; exact H2.
Qed.
(** the lookup for partition 0 fails with a retriable code; after the heal the partition is fetched from 0, and the next
    consume() fetches as well *)
Definition ex_retriable : list label :=
  [Call 1 (OpConsume tt_ (Some (StInt (-1)))); Arrive 1 1 (Ok (POffset [(tt_, [(0, (6, []))])])); Arrive 1 2 (Ok (POffset [(tt_, [(1, (0, [7]))])])); Healed 1 (Ok tt);
   Arrive 1 1 (Ok (PFetch [(tt_, [(0, (0, []))])])); Arrive 1 2 (Ok (PFetch [(tt_, [(1, (0, []))])]))].
Theorem C43_looked_up_again_refuted : exists (cfg : config Z) s, md cfg = Single /\ reachable cfg s /\ is_retriable 6 = true /\
  let s' := crun cfg ex_retriable s in c_ended s' = [(1, OpConsume tt_ (Some (StInt (-1))), Ok (RvList []))] /\
  sent cfg s' (Call 2 (OpConsume tt_ (Some (StInt (-1))))) = [(1, RFetch (-1) 1000 1 tt_ [(0, (0, 1000))]); (2, RFetch (-1) 1000 1 tt_ [(1, (7, 1000))])].
Proof. exists (ex_cfg Single), ex_single. split; [reflexivity|]. split; [exists ex_cluster, (txt "me"), []; reflexivity|]. vm_compute. auto. Qed.
Example C43_example : waits_for (crun (ex_cfg Single) [Call 1 (OpConsume tt_ None)] ex_single) 1 1 (ROffset (-1) tt_ [(0, (PInt (-1), 1))]).
Proof. do 4 eexists. split; reflexivity. Qed.


Print Assumptions C38_position_rule.
Print Assumptions C38_positions.
Print Assumptions C38_only_answers_move.
Print Assumptions C39_returned_partial.
Print Assumptions C39_falsy_dropped_refuted.
Print Assumptions C39_heal_failure_refuted.
Print Assumptions C40_left_out.
Print Assumptions C40_passed_partial.
Print Assumptions C40_stuck.
Print Assumptions C40_continues_past_refuted.
Print Assumptions C41_fetch_requests.
Print Assumptions C41_all_asked.
Print Assumptions C42_lookup_before_fetch_partial.
Print Assumptions C42_not_asked_again.
Print Assumptions C42_failed_lookup_refuted.
Print Assumptions C43_heal_first_partial.
Print Assumptions C43_looked_up_again_refuted.
