(** The consumer machine as a whole: what each step does, and the invariant of the running calls. *)
From Coq Require Import ZArith String List Bool Lia Permutation Sorting.Sorted.
From Verif Require Import PyBase BaseLemmas Constants Cluster Zookeeper SpecZk ZkProofs ZkAlloc Consumer SpecConsumer ConsumerProofs ConsumerSteps.
Import ListNotations.
Open Scope Z_scope.
Set Default Proof Using "Type".

Section Runs.
  Context {V : Type}.
  Variable cfg : config V.
  Notation st := (consumer V).

  (** ** what handlers change *)
  Definition named (r : response) : option text :=
    match r with PFetch ((t, _) :: _) | POffset ((t, _) :: _) | POffsetFetch ((t, _) :: _) => Some t | _ => None end.
  Record handled (r : response) (s s' : st) : Prop := {
    h_calls : c_calls s' = c_calls s; h_ended : c_ended s' = c_ended s; h_closing : c_closing s' = c_closing s;
    h_cluster : c_cluster s' = c_cluster s; h_alloc : c_alloc s' = c_alloc s; h_wire : c_wire s' = c_wire s;
    h_heal : c_heal s = true -> c_heal s' = true;
    h_coord : (forall code id, r <> PCoordinator code id) -> c_coord s' = c_coord s;
    h_synced : forall x, In x (c_synced s') -> In x (c_synced s);
    h_synced_other : forall x, named r <> Some x -> In x (c_synced s) -> In x (c_synced s');
    h_tocommit : forall x, In x (c_tocommit s') -> In x (c_tocommit s);
    h_tocommit_same : (forall ts, r <> PCommit ts) -> c_tocommit s' = c_tocommit s;
    h_pos : forall x p, named r <> Some x -> position s' x p = position s x p }.
  Lemma handled_refl r s : handled r s s.
  Proof. constructor; auto. Qed.
  Lemma handled_trans r s1 s2 s3 : handled r s1 s2 -> handled r s2 s3 -> handled r s1 s3.
  Proof. intros [] []. constructor; intros; try congruence; auto; [rewrite h_coord1, h_coord0 by assumption|rewrite h_tocommit_same1, h_tocommit_same0 by assumption|rewrite h_pos1, h_pos0 by assumption]; reflexivity. Qed.
  Lemma handled_heal r (s : st) : handled r s (set_heal true s).
  Proof. constructor; auto. Qed.
  Lemma handled_discard r t (s : st) : named r = Some t -> handled r s (set_synced (sdiscard (c_synced s) t) s).
  Proof. intros N. constructor; auto; cbn [set_synced c_synced]; intros x; [intros H; apply in_sdiscard in H; tauto|intros H1 H2; apply in_sdiscard; split; [congruence|exact H2]]. Qed.
  Lemma handled_offset r t p v (s : st) : named r = Some t -> handled r s (offset_set t p v s).
  Proof.
    intros N. destruct (offset_set_spec t p v s) as (_ & O & o & E). cbv zeta in *. rewrite E in *. constructor; auto. intros x p' H. apply O. left. congruence.
  Qed.
  Lemma handled_tocommit ts t (s : st) : handled (PCommit ts) s (set_tocommit (sdiscard (c_tocommit s) t) s).
  Proof. constructor; auto; cbn [set_tocommit c_tocommit]; [intros x H; apply in_sdiscard in H; tauto|intros H; now destruct (H ts)]. Qed.
  Lemma handle_offset_handled r t parts : named r = Some t -> forall (s : st), handled r s (snd (handle_offset_parts t parts s)).
  Proof.
    intros N. induction parts as [|[p [code offs]] parts IH]; intros s; cbn [handle_offset_parts]; [apply handled_refl|].
    destruct (code =? no_error).
    - destruct offs as [|o offs]; [apply handled_refl|]. eapply handled_trans; [|apply IH]. destruct (0 <=? o); [now apply handled_offset|apply handled_refl].
    - destruct (is_retriable code); [eapply handled_trans; [|apply IH]; eapply handled_trans; [apply handled_heal|now apply (handled_discard r t (set_heal true s))]|]. destruct (error_name code); apply handled_refl.
  Qed.
  Lemma handle_ofetch_handled r t parts : named r = Some t -> forall b (s : st), handled r s (snd (handle_ofetch_parts t parts b s)).
  Proof.
    intros N. induction parts as [|[p [code o]] parts IH]; intros b s; cbn [handle_ofetch_parts]; [apply handled_refl|].
    destruct (code =? no_error); [eapply handled_trans; [|apply IH]; now apply handled_offset|]. destruct (code =? offsets_load_in_progress); [apply IH|].
    destruct (is_retriable code); [eapply handled_trans; [|apply IH]; apply handled_heal|]. destruct (error_name code); apply handled_refl.
  Qed.
  Lemma handle_commit_handled ts t parts : forall acc (s : st), handled (PCommit ts) s (snd (handle_commit_parts t parts acc s)).
  Proof.
    induction parts as [|[p code] parts IH]; intros acc s; cbn [handle_commit_parts]; [apply handled_refl|].
    destruct (code =? no_error); [eapply handled_trans; [|apply IH]; apply handled_tocommit|].
    destruct (is_retriable code); [eapply handled_trans; [|apply IH]; apply handled_heal|]. destruct (code =? offset_metadata_too_large); [apply IH|]. destruct (error_name code); [apply IH|apply handled_refl].
  Qed.
  Lemma handle_commit_topics_handled ts topics : forall acc (s : st), handled (PCommit ts) s (snd (handle_commit_topics topics acc s)).
  Proof.
    induction topics as [|[t parts] topics IH]; intros acc s; cbn [handle_commit_topics]; [apply handled_refl|].
    pose proof (handle_commit_handled ts t parts acc s) as H. destruct (handle_commit_parts t parts acc s) as [[acc1|e] s1]; cbn [snd] in *; [|exact H]. eapply handled_trans; [exact H|apply IH].
  Qed.
  Lemma handle_handled r (s : st) : handled r s (snd (handle cfg r s)).
  Proof.
    destruct r as [[|[t parts] ts]|[|[t parts] ts]|[|[t parts] ts]|ts|code id]; cbn [handle]; try apply handled_refl.
    - destruct (handle_fetch_spec cfg t parts s) as (done & rest & _ & _ & (o & y & h & F) & SY & HE & PO & OT). destruct (handle_fetch_parts cfg t parts s) as [[vs|e] s1]; cbn [fst snd] in *; rewrite F in *;
      (constructor; try reflexivity; cbn [set_offsets set_synced set_heal c_heal c_synced c_tocommit] in *; [tauto|intros x H; now apply SY in H|intros x N H; apply SY; split; [exact H|intros (-> & _); now apply N]|auto|intros x p N; apply OT; intros ->; now apply N]).
    - pose proof (handle_offset_handled (POffset ((t, parts) :: ts)) t parts eq_refl s) as H. destruct (handle_offset_parts t parts s) as [[u|e] s1]; exact H.
    - pose proof (handle_ofetch_handled (POffsetFetch ((t, parts) :: ts)) t parts eq_refl false s) as H. destruct (handle_ofetch_parts t parts false s) as [[u|e] s1]; exact H.
    - pose proof (handle_commit_topics_handled ts ts (false, false) s) as H. destruct (handle_commit_topics ts (false, false) s) as [[[a b]|e] s1]; exact H.
    - destruct (code =? no_error); [|destruct (is_retriable code); [apply handled_heal|apply handled_refl]]. constructor; auto. intros H. now destruct (H code id).
  Qed.

  (** ** one answer *)
  Definition answer_state (r : res response) (s : st) : st :=
    match r with Ok resp => snd (handle cfg resp s) | Err e => if sets_heal e then set_heal true s else s end.
  Definition answer_vals (r : res response) : list V := match r with Ok resp => filter (truthy cfg) (response_values cfg resp) | Err _ => [] end.
  Definition answer_results (b : Z) (r : res response) (rs : dict Z (hval V)) (s : st) : dict Z (hval V) :=
    match r with Ok resp => match fst (handle cfg resp s) with Ok v => rs ++ [(b, v)] | Err _ => rs end | Err _ => rs end.
  Definition is_answer (rq : request) (r : res response) : bool := match r with Ok resp => answers rq resp | Err _ => true end.
  Definition handler_fails (r : res response) (s : st) : option exn := match r with Ok resp => match fst (handle cfg resp s) with Err e => Some e | Ok _ => None end | Err _ => None end.
  (** the handlers' results are of the kind the caller expects, and hold the values of the response *)
  Lemma handle_result resp (s : st) v : fst (handle cfg resp s) = Ok v ->
    match resp with
    | PFetch _ => v = HMsgs (response_values cfg resp)
    | POffset _ => v = HNone
    | POffsetFetch _ | PCoordinator _ _ => exists b, v = HBool b
    | PCommit _ => exists a b, v = HPair a b
    end.
  Proof.
    destruct resp as [[|[t parts] ts]|[|[t parts] ts]|[|[t parts] ts]|ts|code id]; cbn [handle]; try discriminate.
    - destruct (handle_fetch_spec cfg t parts s) as (done & rest & P & R & _). destruct (handle_fetch_parts cfg t parts s) as [[vs|e] s1]; cbn [fst snd] in *; [|discriminate].
      destruct R as (-> & ->). rewrite app_nil_r in P. subst. intros H. now injection H as <-.
    - destruct (handle_offset_parts t parts s) as [[u|e] s1]; cbn [fst]; [|discriminate]. intros H. now injection H as <-.
    - destruct (handle_ofetch_parts t parts false s) as [[u|e] s1]; cbn [fst]; [|discriminate]. intros H. injection H as <-. eauto.
    - destruct (handle_commit_topics ts (false, false) s) as [[[a b]|e] s1]; cbn [fst]; [|discriminate]. intros H. injection H as <-. eauto.
    - destruct (code =? no_error); [|destruct (is_retriable code)]; cbn [fst]; intros H; injection H as <-; eauto.
  Qed.
  Lemma answer_form o k b rq resp : fits_cont cfg o k -> asks cfg k b rq -> answers rq resp = true ->
    match k with
    | KOffsets t None => exists ts, resp = POffset ts
    | KOffsets t (Some rq0) => exists ts, resp = POffsetFetch ts
    | KFetch t => exists ts, resp = PFetch ts
    | KCommit m ret => exists ts, resp = PCommit ts
    | KCoord asked rest => exists code id, resp = PCoordinator code id
    end.
  Proof.
    intros F A W.
    assert (KO : forall t rq0, k = KOffsets t (Some rq0) -> exists g ps, rq0 = ROffsetFetch g t ps).
    { intros t rq0 ->. destruct o as [t' start|x|]; cbn in F; try contradiction. destruct F as (-> & F). destruct (md cfg); [discriminate F|]. destruct F as (ps & F). injection F as ->. eauto. }
    destruct k as [t [rq0|]|t|m ret|asked rest]; cbn in A; [destruct (KO t rq0 eq_refl) as (g & ps & ->); subst rq|destruct A as (parts & ->)|destruct A as (parts & ->)|destruct A as (g & topics & ->)|destruct A as (-> & g & ->)];
      destruct resp; cbn in W; try discriminate W; eauto.
  Qed.
  Lemma answer_none o k b rq resp : fits_cont cfg o k -> asks cfg k b rq -> answers rq resp = true -> (forall t, k <> KFetch t) -> response_values cfg resp = [].
  Proof. intros F A W N. pose proof (answer_form o k b rq resp F A W) as H. destruct k as [t [rq0|]|t|m ret|asked rest]; try (destruct H as (ts & ->); reflexivity); [now destruct (N t)|]. destruct H as (c & id & ->). reflexivity. Qed.
  Lemma answer_kind o k b rq resp (s : st) v : fits_cont cfg o k -> asks cfg k b rq -> answers rq resp = true -> fst (handle cfg resp s) = Ok v ->
    val_kind k v /\ match v with HMsgs l => l | _ => [] end = response_values cfg resp.
  Proof.
    intros F A W E. apply handle_result in E. pose proof (answer_form o k b rq resp F A W) as H.
    destruct k as [t [rq0|]|t|m ret|asked rest]; [destruct H as (ts & ->)..|destruct H as (c & id & ->)]; [destruct E as (x & ->)| | |destruct E as (x & y & ->)|destruct E as (x & ->)]; try subst v; split; reflexivity || exact I.
  Qed.
  Lemma vals_of_app (a b : dict Z (hval V)) : vals_of (a ++ b) = vals_of a ++ vals_of b.
  Proof. apply flat_map_app. Qed.
  Lemma paid_answer o k b rq r rs (s : st) lv : fits_cont cfg o k -> asks cfg k b rq -> is_answer rq r = true -> handler_fails r s = None ->
    paid cfg k rs lv -> paid cfg k (answer_results b r rs s) (lv ++ answer_vals r).
  Proof.
    intros F A W HF P. destruct r as [resp|e]; cbn [answer_results answer_vals is_answer handler_fails] in *; [|now rewrite app_nil_r].
    destruct (fst (handle cfg resp s)) as [v|e] eqn:E; [|discriminate HF]. destruct (answer_kind o k b rq resp s v F A W E) as [_ VV].
    destruct k as [t rq0|t|m ret|asked rest]; cbn [paid] in *; try (rewrite (answer_none o _ b rq resp F A W) by discriminate; cbn; rewrite app_nil_r; exact P).
    subst lv. rewrite vals_of_app. cbn [vals_of flat_map snd]. rewrite app_nil_r, VV. now rewrite filter_app.
  Qed.
  Lemma answer_results_wf o k w rs b rq r (s : st) : fits cfg o (PSend k w rs) -> dget w b = Some rq -> is_answer rq r = true ->
    let rs' := answer_results b r rs s in
    NoDup (dkeys rs') /\ (forall b' v, In (b', v) rs' -> val_kind k v) /\ forall b', In b' (dkeys (ddel w b)) -> dget rs' b' = None.
  Proof.
    intros [F [S N A P R VK]] D W. cbv zeta. assert (IB : In b (dkeys w)) by (eapply dget_Some_in; eassumption).
    assert (AP : forall b', In b' (dkeys (ddel w b)) -> b' <> b /\ dget rs b' = None) by (intros b' H; apply in_dkeys_ddel_iff in H as [H1 H2]; [split; [exact H1|now apply P]|exact N]).
    destruct r as [resp|e]; cbn [answer_results is_answer] in *; [|split; [exact R|]; split; [exact VK|]; intros b' H; now apply AP].
    destruct (fst (handle cfg resp s)) as [v|e] eqn:E; [|split; [exact R|]; split; [exact VK|]; intros b' H; now apply AP].
    destruct (answer_kind o k b rq resp s v F (A b rq (dget_In _ _ _ D)) W E) as [KV _]. rewrite <- (dset_new rs b v (P b IB)).
    split; [now apply nodup_dset|]. split; [|intros b' H; apply AP in H as [H1 H2]; now rewrite dget_dset_other].
    rewrite (dset_new rs b v (P b IB)). intros b' v' H. apply in_app_iff in H as [H|[H|[]]]; [now apply (VK b')|]. injection H as <- <-. exact KV.
  Qed.
  Lemma arrive_eq k w rs b r (s : st) : dget rs b = None ->
    arrive cfg k w rs b r s =
      match handler_fails r s with
      | Some e => raised cfg k e (answer_state r s)
      | None => match ddel w b with [] => send_end cfg k (answer_results b r rs s) (answer_state r s) | _ => (Await (PSend k (ddel w b) (answer_results b r rs s)), answer_state r s) end
      end.
  Proof.
    intros D. unfold arrive, handler_fails, answer_results, answer_state. destruct r as [resp|e]; [|reflexivity]. destruct (handle cfg resp s) as [[v|e] s1]; cbn [fst snd]; [|reflexivity]. now rewrite (dset_new rs b v D).
  Qed.

  (** ** one step *)
  Definition inv (s : st) : Prop := NoDup (dkeys (c_calls s)) /\ forall i o p, dget (c_calls s) i = Some (o, p) -> fits cfg o p.
  Definition begin (o : op) (s : st) : next V * st :=
    match o with
    | OpConsume t start => consume cfg t start s
    | OpCommit metadata => commit_offsets cfg metadata RvNone s
    | OpCoordinator => match md cfg with Single => (Raise_ EAttr, s) | Grouped group _ _ _ => coord_next cfg group [] s end
    end.
  (** a label that does not apply *)
  Definition idle (s : st) (l : label) : Prop :=
    match l with
    | Call i o => dget (c_calls s) i <> None
    | Arrive i b r => forall o k w rs rq, dget (c_calls s) i = Some (o, PSend k w rs) -> dget w b = Some rq -> is_answer rq r = false
    | Healed i r => forall o p, dget (c_calls s) i = Some (o, p) -> exists k w rs, p = PSend k w rs
    | Alloc _ => md cfg = Single
    | _ => False
    end.
  Inductive did (s : st) : label -> st -> Prop :=
  | D_idle l : idle s l -> did s l s
  | D_call i o ns : dget (c_calls s) i = None -> ns = begin o s -> piece cfg true o [] s ns -> did s (Call i o) (continue i o ns)
  | D_more i b r o k w rs rq : dget (c_calls s) i = Some (o, PSend k w rs) -> fits cfg o (PSend k w rs) -> dget w b = Some rq -> is_answer rq r = true ->
      handler_fails r s = None -> ddel w b <> [] -> fits cfg o (PSend k (ddel w b) (answer_results b r rs s)) ->
      did s (Arrive i b r) (continue i o (Await (PSend k (ddel w b) (answer_results b r rs s)), answer_state r s))
  | D_last i b r o k w rs rq ns : dget (c_calls s) i = Some (o, PSend k w rs) -> fits cfg o (PSend k w rs) -> dget w b = Some rq -> is_answer rq r = true ->
      (handler_fails r s = None /\ ddel w b = [] /\ ns = send_end cfg k (answer_results b r rs s) (answer_state r s)) \/
        (exists e, handler_fails r s = Some e /\ ns = raised cfg k e (answer_state r s)) ->
      (forall lv, paid cfg k rs lv -> piece cfg (look_of k) o (lv ++ answer_vals r) (answer_state r s) ns) ->
      did s (Arrive i b r) (continue i o ns)
  | D_healed i r o k rs s1 ns : dget (c_calls s) i = Some (o, PHeal k rs) -> fits cfg o (PHeal k rs) ->
      (exists u, r = Ok u /\ s1 = set_heal false s /\ ns = resume cfg k rs s1) \/ (exists e, r = Err e /\ s1 = s /\ ns = raised cfg k e s1) ->
      (forall lv, paid cfg k rs lv -> piece cfg (look_of k) o lv s1 ns) -> did s (Healed i r) (continue i o ns)
  | D_topic i r t start ns : dget (c_calls s) i = Some (OpConsume t start, PTopicHeal t) ->
      (exists u, r = Ok u /\ ns = fetch cfg t s) \/ (exists e, r = Err e /\ ns = (Raise_ e, s)) ->
      piece cfg false (OpConsume t start) [] s ns -> did s (Healed i r) (continue i (OpConsume t start) ns)
  | D_cluster k : did s (Cluster_ k) (set_cluster k s)
  | D_alloc g fn ac name ev : md cfg = Grouped g fn ac name ->
      did s (Alloc ev) (set_synced (if a_callbacks (astep fn true (c_alloc s) ev) =? a_callbacks (c_alloc s) then c_synced s else []) (set_alloc (astep fn true (c_alloc s) ev) s))
  | D_close : did s Close (set_closing true s).

  Lemma begin_piece o (s : st) : piece cfg true o [] s (begin o s).
  Proof.
    destruct o as [t start|m|]; cbn [begin]; [apply consume_piece|apply commit_piece; [right; eauto|right; right; split; reflexivity]|].
    destruct (md cfg) as [|g fn ac name] eqn:M; [apply piece_raise|eapply coord_next_piece; exact M].
  Qed.
  Lemma cstep_did s l : inv s -> did s l (cstep cfg s l).
  Proof.
    intros [ND INV]. destruct l as [i o|i b r|i r|k|ev|]; cbn [cstep].
    - unfold dmem. destruct (dget (c_calls s) i) eqn:D; [apply D_idle; cbn; congruence|]. apply D_call; [exact D|reflexivity|apply begin_piece].
    - destruct (dget (c_calls s) i) as [[o [k w rs|k rs|t]]|] eqn:D; try (apply D_idle; cbn; congruence). destruct (dget w b) as [rq|] eqn:W; [|apply D_idle; cbn; congruence].
      pose proof (INV _ _ _ D) as F. change (match r with Ok resp => answers rq resp | Err _ => true end) with (is_answer rq r). destruct (is_answer rq r) eqn:IA; [|apply D_idle; cbn; congruence].
      destruct F as [FC WF] eqn:FE. clear FE. pose proof WF as [S N A P R VK]. assert (IB : In b (dkeys w)) by (eapply dget_Some_in; eassumption).
      destruct (answer_results_wf o k w rs b rq r s (conj FC WF) W IA) as (N1 & V1 & A1). rewrite arrive_eq by now apply P.
      destruct (handler_fails r s) as [e|] eqn:HF.
      + eapply D_last; eauto. intros lv PD. apply raised_piece; [exact FC|]. intros t rq0 ->. cbn in PD. subst lv. cbn. destruct r as [resp|e']; [|reflexivity]. cbn in IA |- *.
        rewrite (answer_none o (KOffsets t rq0) b rq resp FC (A b rq (dget_In _ _ _ W)) IA) by discriminate. reflexivity.
      + destruct (ddel w b) as [|x w'] eqn:DW.
        * eapply D_last; eauto. intros lv PD. apply send_end_piece; auto. eapply paid_answer; eauto. eapply A, dget_In, W.
        * assert (NW : ddel w b <> []) by (rewrite DW; discriminate). rewrite <- DW. eapply D_more; eauto. split; [exact FC|]. constructor; [exact NW|now apply nodup_ddel|intros b' rq' H; apply A; eapply in_ddel, H|rewrite DW; exact A1|exact N1|exact V1].
    - destruct (dget (c_calls s) i) as [[o [k w rs|k rs|t]]|] eqn:D; try (apply D_idle; cbn; intros o' p' H; rewrite D in H; try discriminate H; injection H as <- <-; eauto; fail); pose proof (INV _ _ _ D) as F.
      + pose proof F as (FC & N & VK). destruct r as [u|e].
        * eapply D_healed; eauto. intros lv PD. eapply resume_piece; eauto.
        * eapply D_healed; eauto. intros lv PD. apply raised_piece; [exact FC|]. intros t rq0 ->. exact PD.
      + destruct F as (start & ->). destruct r as [u|e]; eapply D_topic; eauto; [apply fetch_piece|apply piece_raise].
    - apply D_cluster.
    - destruct (md cfg) as [|g fn ac name] eqn:M; [now apply D_idle|]. eapply D_alloc; eauto.
    - apply D_close.
  Qed.
  Lemma answer_state_calls r (s : st) : c_calls (answer_state r s) = c_calls s.
  Proof. destruct r as [resp|e]; cbn [answer_state]; [apply handle_handled|destruct (sets_heal e); reflexivity]. Qed.
  Lemma continue_calls i o (ns : next V * st) j : NoDup (dkeys (c_calls (snd ns))) ->
    NoDup (dkeys (c_calls (continue i o ns))) /\
    dget (c_calls (continue i o ns)) j = if j =? i then match fst ns with Await p => Some (o, p) | _ => None end else dget (c_calls (snd ns)) j.
  Proof.
    intros N. destruct ns as [n s]. cbn [fst snd] in *. destruct (j =? i) eqn:JI; [apply Z.eqb_eq in JI; subst j|apply Z.eqb_neq in JI]; destruct n; cbn [continue set_calls set_ended c_calls];
      (split; [first [now apply nodup_dset|now apply nodup_ddel]|]); first [apply dget_dset_same|now apply dget_ddel_same|now apply dget_dset_other|now apply dget_ddel_other].
  Qed.
  Lemma inv_continue s i o ns s1 : inv s -> c_calls s1 = c_calls s -> c_calls (snd ns) = c_calls s1 -> fits_next cfg o (fst ns) -> inv (continue i o ns).
  Proof.
    intros [N F] E1 E2 FN. rewrite E1 in E2. assert (N' : NoDup (dkeys (c_calls (snd ns)))) by now rewrite E2. split; [apply (continue_calls i o ns 0 N')|].
    intros j o' p H. destruct (continue_calls i o ns j N') as [_ H']. rewrite H' in H. clear H'. destruct (j =? i); [destruct (fst ns) as [p'| |]; try discriminate H; injection H as <- <-; exact FN|]. rewrite E2 in H. now apply (F j).
  Qed.
  Lemma paid_some k (rs : dict Z (hval V)) : exists lv, paid cfg k rs lv.
  Proof. destruct k as [t rq|t|m [|l]|a r]; cbn; eauto; [exists []; right; right; auto|exists l; now left]. Qed.
  Lemma inv_step s l : inv s -> inv (cstep cfg s l).
  Proof.
    intros I. pose proof (cstep_did s l I) as D. destruct D as [l ID|i o ns D E P|i b r o k w rs rq D F W IA HF NE F'|i b r o k w rs rq ns D F W IA E P|i r o k rs s1 ns D F E P|i r t start ns D E P|k|g fn ac name ev M|]; try exact I.
    - destruct P as [(ex & M & _) FI _ _]. eapply (inv_continue s); [exact I|reflexivity|apply M|exact FI].
    - eapply (inv_continue s); [exact I|apply answer_state_calls|reflexivity|exact F'].
    - destruct (paid_some k rs) as [lv PD]. destruct (P lv PD) as [(ex & M & _) FI _ _]. eapply (inv_continue s); [exact I|apply answer_state_calls|apply M|exact FI].
    - destruct (paid_some k rs) as [lv PD]. destruct (P lv PD) as [(ex & M & _) FI _ _]. eapply (inv_continue s); [exact I| |apply M|exact FI]. destruct E as [(u & _ & -> & _)|(e & _ & -> & _)]; reflexivity.
    - destruct P as [(ex & M & _) FI _ _]. eapply (inv_continue s); [exact I|reflexivity|apply M|exact FI].
  Qed.
  Lemma inv_run ls : forall s, inv s -> inv (crun cfg ls s).
  Proof. induction ls as [|l ls IH]; intros s I; [exact I|]. apply IH. now apply inv_step. Qed.
  Lemma inv_init k name : inv (@consumer_init V k name).
  Proof. split; [constructor|]. intros i o p H. discriminate H. Qed.
  Lemma reach_inv s : reachable cfg s -> inv s.
  Proof. intros (k & name & ls & ->). apply inv_run, inv_init. Qed.
  Lemma reach_step s l : reachable cfg s -> reachable cfg (cstep cfg s l).
  Proof. intros (k & name & ls & ->). exists k, name, (ls ++ [l]). unfold crun. rewrite fold_left_app. reflexivity. Qed.
  Lemma reach_run ls : forall s, reachable cfg s -> reachable cfg (crun cfg ls s).
  Proof. induction ls as [|l ls IH]; intros s R; [exact R|]. apply IH. now apply reach_step. Qed.

  (** a step is a piece of a call, or leaves the calls alone *)
  Record acts (s : st) (l : label) (i : Z) (o : op) (look : bool) (s1 : st) (ns : next V * st) (ex : list (Z * request)) : Prop := {
    ac_step : cstep cfg s l = continue i o ns;
    ac_moves : moves cfg look o ex s1 (snd ns);
    ac_sends : sends cfg o look (snd ns) (fst ns) ex;
    ac_fits : fits_next cfg o (fst ns);
    ac_from : (l = Call i o /\ dget (c_calls s) i = None /\ s1 = s /\ ns = begin o s) \/
              (exists b r k w rs rq, l = Arrive i b r /\ dget (c_calls s) i = Some (o, PSend k w rs) /\ dget w b = Some rq /\ is_answer rq r = true /\ s1 = answer_state r s /\ look = look_of k) \/
              (exists r k rs, l = Healed i r /\ dget (c_calls s) i = Some (o, PHeal k rs) /\ (s1 = s \/ s1 = set_heal false s) /\ look = look_of k) \/
              (exists r t, l = Healed i r /\ dget (c_calls s) i = Some (o, PTopicHeal t) /\ s1 = s /\ look = false) }.
  Lemma step_cases s l : inv s -> (exists i o look s1 ns ex, acts s l i o look s1 ns ex) \/
    ((cstep cfg s l = s /\ idle s l) \/ (exists k, l = Cluster_ k /\ cstep cfg s l = set_cluster k s) \/ (l = Close /\ cstep cfg s l = set_closing true s) \/
     exists g fn ac name ev, md cfg = Grouped g fn ac name /\ l = Alloc ev /\
       cstep cfg s l = set_synced (if a_callbacks (astep fn true (c_alloc s) ev) =? a_callbacks (c_alloc s) then c_synced s else []) (set_alloc (astep fn true (c_alloc s) ev) s)).
  Proof.
    intros I. pose proof (cstep_did s l I) as D. remember (cstep cfg s l) as s' eqn:EQ.
    destruct D as [l ID|i o ns D E P|i b r o k w rs rq D F W IA HF NE F'|i b r o k w rs rq ns D F W IA E P|i r o k rs s1 ns D F E P|i r t start ns D E P|k|g fn ac name ev M|].
    - right. left. auto.
    - left. destruct P as [(ex & M & S) FI _ _]. exists i, o, true, s, ns, ex. constructor; auto.
    - left. exists i, o, (look_of k), (answer_state r s). eexists. exists []. constructor; [symmetry; exact EQ|apply moves_refl|apply S_none|exact F'|]. right. left. exists b, r, k, w, rs, rq. auto 8.
    - left. destruct (paid_some k rs) as [lv PD]. destruct (P lv PD) as [(ex & M & S) FI _ _]. exists i, o, (look_of k), (answer_state r s), ns, ex. constructor; auto. right. left. exists b, r, k, w, rs, rq. auto 8.
    - left. destruct (paid_some k rs) as [lv PD]. destruct (P lv PD) as [(ex & M & S) FI _ _]. exists i, o, (look_of k), s1, ns, ex. constructor; auto. right. right. left. exists r, k, rs. split; [reflexivity|]. split; [exact D|].
      split; [|reflexivity]. destruct E as [(u & _ & -> & _)|(e & _ & -> & _)]; auto.
    - left. destruct P as [(ex & M & S) FI _ _]. exists i, (OpConsume t start), false, s, ns, ex. constructor; auto. right. right. right. exists r, t. auto.
    - right. right. left. eauto.
    - right. right. right. right. exists g, fn, ac, name, ev. auto.
    - right. right. right. left. auto.
  Qed.
  (** what does not depend on calls and results *)
  Lemma continue_same i o (ns : next V * st) : let s' := continue i o ns in
    c_offsets s' = c_offsets (snd ns) /\ c_synced s' = c_synced (snd ns) /\ c_heal s' = c_heal (snd ns) /\ c_closing s' = c_closing (snd ns) /\ c_cluster s' = c_cluster (snd ns) /\
    c_coord s' = c_coord (snd ns) /\ c_alloc s' = c_alloc (snd ns) /\ c_tocommit s' = c_tocommit (snd ns) /\ c_wire s' = c_wire (snd ns).
  Proof. destruct ns as [n s]. destruct n; repeat split. Qed.
  Lemma same_views (s s' : st) : c_offsets s' = c_offsets s -> c_cluster s' = c_cluster s -> c_alloc s' = c_alloc s ->
    (forall t p, position s' t p = position s t p) /\ (forall t p, leader_of s' t p = leader_of s t p) /\ (forall t, alloc_of cfg s' t = alloc_of cfg s t) /\ (forall b, open_conn s' b = open_conn s b) /\ own_map s' = own_map s.
  Proof. intros A B C. unfold position, leader_of, alloc_of, open_conn, own_map. rewrite A, B, C. auto. Qed.
  Lemma continue_views i o (ns : next V * st) : let s' := continue i o ns in let s := snd ns in
    (forall t p, position s' t p = position s t p) /\ (forall t p, leader_of s' t p = leader_of s t p) /\ (forall t, alloc_of cfg s' t = alloc_of cfg s t) /\ (forall b, open_conn s' b = open_conn s b) /\ own_map s' = own_map s.
  Proof. cbv zeta. apply same_views; apply (continue_same i o ns). Qed.
  Lemma answer_state_same r (s : st) : let s' := answer_state r s in
    c_calls s' = c_calls s /\ c_ended s' = c_ended s /\ c_closing s' = c_closing s /\ c_cluster s' = c_cluster s /\ c_alloc s' = c_alloc s /\ c_wire s' = c_wire s.
  Proof. cbv zeta. destruct r as [resp|e]; cbn [answer_state]; [destruct (handle_handled resp s); auto 8|destruct (sets_heal e); repeat split]. Qed.
  Lemma acts_before s l i o look s1 ns ex : acts s l i o look s1 ns ex ->
    c_calls s1 = c_calls s /\ c_ended s1 = c_ended s /\ c_closing s1 = c_closing s /\ c_cluster s1 = c_cluster s /\ c_alloc s1 = c_alloc s /\ c_wire s1 = c_wire s.
  Proof.
    intros []. destruct ac_from0 as [(_ & _ & -> & _)|[(b & r & k & w & rs & rq & _ & _ & _ & _ & -> & _)|[(r & k & rs & _ & _ & [->| ->] & _)|(r & t & _ & _ & -> & _)]]]; try (repeat split; fail). apply answer_state_same.
  Qed.
  Lemma sent_eq s l ex : c_wire (cstep cfg s l) = c_wire s ++ ex -> sent cfg s l = ex.
  Proof. intros E. unfold sent. rewrite E. rewrite skipn_app, Nat.sub_diag, skipn_all. reflexivity. Qed.
  Lemma acts_sent s l i o look s1 ns ex : acts s l i o look s1 ns ex -> sent cfg s l = ex /\ c_wire (cstep cfg s l) = c_wire s ++ ex.
  Proof.
    intros A. destruct (acts_before _ _ _ _ _ _ _ _ A) as (_ & _ & _ & _ & _ & W). destruct A.
    assert (E : c_wire (cstep cfg s l) = c_wire s ++ ex) by (rewrite ac_step0; destruct (continue_same i o ns) as (_ & _ & _ & _ & _ & _ & _ & _ & ->); rewrite (p_wire _ _ _ _ _ _ ac_moves0), W; reflexivity).
    split; [now apply sent_eq|exact E].
  Qed.
  Lemma sent_cases s l : inv s -> sent cfg s l <> [] -> exists i o look s1 ns, acts s l i o look s1 ns (sent cfg s l).
  Proof.
    intros I N. destruct (step_cases s l I) as [(i & o & look & s1 & ns & ex & A)|H].
    - exists i, o, look, s1, ns. destruct (acts_sent _ _ _ _ _ _ _ _ A) as [-> _]. exact A.
    - exfalso. apply N, sent_eq. rewrite app_nil_r. destruct H as [(-> & _)|[(k & _ & ->)|[(_ & ->)|(g & fn & ac & name & ev & _ & _ & ->)]]]; reflexivity.
  Qed.
  Lemma step_wire s l : inv s -> c_wire (cstep cfg s l) = c_wire s ++ sent cfg s l.
  Proof.
    intros I. destruct (step_cases s l I) as [(i & o & look & s1 & ns & ex & A)|H].
    - destruct (acts_sent _ _ _ _ _ _ _ _ A) as [-> ->]. reflexivity.
    - assert (E : c_wire (cstep cfg s l) = c_wire s) by (destruct H as [(-> & _)|[(k & _ & ->)|[(_ & ->)|(g & fn & ac & name & ev & _ & _ & ->)]]]; reflexivity).
      unfold sent. rewrite E, skipn_all, app_nil_r. reflexivity.
  Qed.
  Lemma continue_ended i o (ns : next V * st) : c_ended (continue i o ns) = c_ended (snd ns) ++ match fst ns with Await _ => [] | Return v => [(i, o, Ok v)] | Raise_ e => [(i, o, Err e)] end.
  Proof. destruct ns as [n s]. destruct n; cbn; [now rewrite app_nil_r|reflexivity..]. Qed.
  Lemma arrive_acts s i b r o k w rs rq : inv s -> dget (c_calls s) i = Some (o, PSend k w rs) -> dget w b = Some rq -> is_answer rq r = true ->
    exists ns ex, acts s (Arrive i b r) i o (look_of k) (answer_state r s) ns ex /\ ns = arrive cfg k w rs b r s.
  Proof.
    intros I D W A. assert (E : cstep cfg s (Arrive i b r) = continue i o (arrive cfg k w rs b r s)) by (cbn [cstep]; rewrite D, W; unfold is_answer in A; rewrite A; reflexivity).
    destruct (proj2 I _ _ _ D) as [FC WF]. assert (IB : In b (dkeys w)) by (eapply dget_Some_in; eassumption). assert (RB : dget rs b = None) by now apply WF.
    destruct (answer_results_wf o k w rs b rq r s (conj FC WF) W A) as (N1 & V1 & A1).
    assert (FR : (exists b0 r0 k0 w0 rs0 rq0, Arrive i b r = Arrive i b0 r0 /\ dget (c_calls s) i = Some (o, PSend k0 w0 rs0) /\ dget w0 b0 = Some rq0 /\ is_answer rq0 r0 = true /\ answer_state r s = answer_state r0 s /\ look_of k = look_of k0)) by (exists b, r, k, w, rs, rq; auto 8).
    rewrite arrive_eq in * by exact RB. destruct (handler_fails r s) as [e|] eqn:HF; [|destruct (ddel w b) as [|x w'] eqn:DW].
    - destruct (raised_piece cfg (look_of k) o (match k with KOffsets _ _ => [] | _ => [] end) k e (answer_state r s) FC) as [(ex & M & S) FI _ _]; [intros t rq0 ->; reflexivity|].
      eexists. exists ex. split; [|reflexivity]. constructor; auto.
    - destruct (paid_some k (answer_results b r rs s)) as [lv PD]. destruct (send_end_piece cfg o lv k (answer_results b r rs s) (answer_state r s) FC N1 V1 PD) as [(ex & M & S) FI _ _].
      eexists. exists ex. split; [|reflexivity]. constructor; auto.
    - eexists. exists []. split; [|reflexivity]. constructor; [exact E|apply moves_refl|apply S_none| |auto]. split; [exact FC|]. rewrite <- DW. destruct WF. constructor; auto; [rewrite DW; discriminate|now apply nodup_ddel| |rewrite DW; exact A1]. intros b' rq' H. apply ws_asks. eapply in_ddel, H.
  Qed.
End Runs.
