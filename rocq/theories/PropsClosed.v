(** Properties C66 and C67: closed clients. *)
From Coq Require Import ZArith String List Bool Lia.
From Verif Require Import PyBase BaseLemmas Constants Cluster Zookeeper SpecZk Consumer Closing SpecConsumer SpecClosed ConsumerProofs ConsumerSteps ConsumerRuns PropsConsumer PropsGroup.
Import ListNotations.
Open Scope Z_scope.
Set Default Proof Using "Type".

(** ** C66: a closed consumer reads nothing *)
Section C66.
  Context {V : Type}.
  Variable cfg : config V.
  Notation st := (consumer V).

  (** a consume() that began on a closed consumer only waits for its commit *)
  Definition calm_pc (o : op) (p : pc V) : Prop :=
    match o, p with
    | OpConsume _ _, (PSend (KCommit _ ret) _ _ | PHeal (KCommit _ ret) _) => ret = RvNone
    | OpConsume _ _, _ => False
    | _, _ => True
    end.
  Definition calm_next (o : op) (n : next V) : Prop :=
    match n with Await p => calm_pc o p | Return v => match o with OpConsume _ _ => v = RvNone \/ v = RvList [] | _ => True end | Raise_ _ => True end.
  Definition no_reads (ex : list (Z * request)) : Prop := forall b rq, In (b, rq) ex -> ~ reads rq.
  Definition calm (o : op) (s : st) (ns : next V * st) : Prop := (exists ex, c_wire (snd ns) = c_wire s ++ ex /\ no_reads ex) /\ calm_next o (fst ns).

  Lemma no_reads_nil : no_reads [].
  Proof. intros b rq []. Qed.
  Lemma commit_no_read rq : is_commit rq -> ~ reads rq.
  Proof. intros (g & ts & ->) (t & [(r & mw & mb & ps & H)|[(r & ps & H)|(g' & ps & H)]]); discriminate H. Qed.
  Lemma coord_no_read g : ~ reads (RCoordinator g).
  Proof. intros (t & [(r & mw & mb & ps & H)|[(r & ps & H)|(g' & ps & H)]]); discriminate H. Qed.
  Lemma calm_end o s n : calm_next o n -> calm o s (n, s).
  Proof. intros H. split; [exists []; split; [now rewrite app_nil_r|apply no_reads_nil]|exact H]. Qed.
  Lemma sends_calm o look s' n ex : (forall t start, o <> OpConsume t start) -> sends cfg o look s' n ex -> no_reads ex.
  Proof.
    intros O S. destruct S as [|t start rqs pre post E|t start rqs pre post _ _ E|t start b g fn ac name ps _ _ E|m ret b g fn ac name am M|b rest g fn ac name M]; try (exfalso; eapply O, E).
    - apply no_reads_nil.
    - intros b' rq [[= <- <-]|[]]. apply commit_no_read. now do 2 eexists.
    - intros b' rq [[= <- <-]|[]]. apply coord_no_read.
  Qed.
  Lemma commit_calm o m (s : st) : calm o s (commit_offsets cfg m RvNone s).
  Proof.
    destruct (commit_offsets_spec cfg m RvNone s) as (ex & Q & D). split.
    - exists ex. split; [apply (p_wire _ _ _ _ _ _ (quietw_moves _ false o _ _ _ Q))|].
      destruct D as [(e & E & ->)|(g & fn & ac & name & b & am & M & C & OM & E & ->)]; [apply no_reads_nil|].
      destruct (open_conn s b); [|apply no_reads_nil]. intros b' rq [[= <- <-]|[]]. apply commit_no_read. now do 2 eexists.
    - destruct D as [(e & -> & _)|(g & fn & ac & name & b & am & M & C & OM & -> & _)]; cbn; [exact I|]. destruct o; cbn; auto.
  Qed.
  Lemma base_done_calm t start v (s : st) : v = RvNone -> calm (OpConsume t start) s (base_done cfg t v s).
  Proof.
    intros ->. unfold base_done. destruct (md cfg) as [|g fn ac name]; [apply calm_end; now left|]. destruct (negb (smem (c_synced s) t)); [apply calm_end; now right|].
    destruct ac; [|apply (calm_end (OpConsume t start) (set_tocommit (sadd (c_tocommit s) t) s) (Return RvNone)); now left].
    apply (commit_calm (OpConsume t start) None (set_tocommit (sadd (c_tocommit s) t) s)).
  Qed.
  Lemma raised_calm o m ret e (s : st) : calm o s (raised cfg (KCommit m ret) e s).
  Proof. apply calm_end. exact I. Qed.
  Lemma resume_calm o m rs (s : st) : calm o s (resume cfg (KCommit m RvNone) rs s).
  Proof.
    cbn [resume]. destruct (coord_result rs s) as [[| | |retry adjust]|e]; try (apply calm_end; exact I). destruct retry; [apply commit_calm|]. apply calm_end. destruct o; cbn; auto.
  Qed.
  Lemma send_end_calm o m rs (s : st) : calm o s (send_end cfg (KCommit m RvNone) rs s).
  Proof. unfold send_end. destruct (c_heal s); [|apply resume_calm]. apply calm_end. destruct o; cbn; auto. Qed.

  (** the calls of a closed consumer *)
  Definition winding (i : Z) (s : st) : Prop := c_closing s = true /\ forall o p, dget (c_calls s) i = Some (o, p) -> calm_pc o p.
  Definition new_results (i : Z) (s s' : st) : Prop := exists more, c_ended s' = c_ended s ++ more /\ forall t start r, In (i, OpConsume t start, r) more -> nothing r.

  Lemma calm_step i s l j o s1 ns (IV : inv cfg s) : winding i s -> cstep cfg s l = continue j o ns ->
    (c_calls s1 = c_calls s /\ c_ended s1 = c_ended s /\ c_closing s1 = c_closing s /\ c_wire s1 = c_wire s) ->
    (exists look ex, moves cfg look o ex s1 (snd ns)) -> (j = i -> calm o s1 ns) -> (of_call i l -> j = i) ->
    winding i (cstep cfg s l) /\ new_results i s (cstep cfg s l) /\ (of_call i l -> no_reads (sent cfg s l)).
  Proof.
    intros [CL W] E (C1 & E1 & K1 & W1) (look & ex & MV) CA OC. destruct (continue_same j o ns) as (_ & _ & _ & KC & _ & _ & _ & _ & KW).
    assert (ND : NoDup (dkeys (c_calls (snd ns)))) by (rewrite (p_calls _ _ _ _ _ _ MV), C1; apply IV).
    split; [|split].
    - rewrite E. split; [rewrite KC, (p_closing _ _ _ _ _ _ MV), K1; exact CL|]. intros o' p H. destruct (continue_calls j o ns i ND) as [_ HC]. rewrite HC in H. clear HC.
      destruct (i =? j) eqn:IJ; [apply Z.eqb_eq in IJ|rewrite (p_calls _ _ _ _ _ _ MV), C1 in H; eapply W, H].
      destruct (CA (eq_sym IJ)) as [_ CN]. destruct (fst ns) as [p'| |]; try discriminate H. injection H as <- <-. exact CN.
    - rewrite E. unfold new_results. rewrite continue_ended, (p_ended _ _ _ _ _ _ MV), E1. eexists. split; [reflexivity|]. intros t start r H.
      destruct (fst ns) as [p|v|e] eqn:F; [destruct H| |]; destruct H as [H|[]]; injection H as H1 H2 H3; subst r.
      + destruct (CA H1) as [_ CN]. rewrite F in CN. subst o. destruct CN as [->| ->]; [now left|right; now left].
      + right. right. eauto.
    - intros H. destruct (CA (OC H)) as [(ex' & EW & NR) _]. rewrite (sent_eq cfg s l ex'); [exact NR|]. rewrite E, KW, EW, W1. reflexivity.
  Qed.
  Lemma of_call_self i j (l : label) : (exists o, l = Call j o) \/ (exists b r, l = Arrive j b r) \/ (exists r, l = Healed j r) -> of_call i l -> j = i.
  Proof. intros [(o & ->)|[(b & r & ->)|(r & ->)]] [(o' & H)|[(b' & r' & H)|(r' & H)]]; congruence. Qed.
  Lemma piece_moves look o lv s ns : piece cfg look o lv s ns -> exists look ex, moves cfg look o ex s (snd ns).
  Proof. intros [(ex & M & _) _ _ _]. eauto. Qed.
  Lemma piece_calm look o lv s ns : (forall t start, o <> OpConsume t start) -> piece cfg look o lv s ns -> calm o s ns.
  Proof.
    intros O [(ex & M & S) _ _ _]. split; [exists ex; split; [apply M|eapply sends_calm; eassumption]|]. destruct o as [t start|m|]; [exfalso; eapply O; reflexivity| |]; destruct (fst ns); exact I.
  Qed.
  Lemma winding_step i s l : inv cfg s -> winding i s -> winding i (cstep cfg s l) /\ new_results i s (cstep cfg s l) /\ (of_call i l -> no_reads (sent cfg s l)).
  Proof.
    intros IV W. pose proof (cstep_did cfg s l IV) as D. remember (cstep cfg s l) as s' eqn:EQ.
    destruct D as [l ID|j o ns DD E P|j b r o k w rs rq DD F WQ IA HF NE F'|j b r o k w rs rq ns DD F WQ IA E P|j r o k rs s1 ns DD F E P|j r t start ns DD E P|k|g fn ac name ev M|].
    - assert (S : sent cfg s l = []) by (apply sent_eq; rewrite <- EQ, app_nil_r; reflexivity). split; [exact W|]. split; [exists []; split; [now rewrite app_nil_r|intros t start r []]|]. intros _. rewrite S. apply no_reads_nil.
    - rewrite EQ. apply (calm_step i s _ j o s ns IV W (eq_sym EQ)); auto; [eapply piece_moves, P| |apply of_call_self; eauto].
      intros ->. destruct o as [t start|m|]; [|eapply piece_calm; [|exact P]; discriminate..]. subst ns. cbn [begin]. unfold consume. rewrite (proj1 W). now apply base_done_calm.
    - pose proof (answer_state_same cfg r s) as (A1 & A2 & A3 & A4 & A5 & A6). rewrite EQ. eapply (calm_step i s _ j o (answer_state cfg r s) _ IV W (eq_sym EQ)); auto; [exists false, []; apply moves_refl| |apply of_call_self; eauto 6].
      intros ->. pose proof (proj2 W _ _ DD) as CP. split; [exists []; split; [now rewrite app_nil_r|apply no_reads_nil]|exact CP].
    - pose proof (answer_state_same cfg r s) as (A1 & A2 & A3 & A4 & A5 & A6). rewrite EQ. destruct (paid_some cfg k rs) as [lv PD]. eapply (calm_step i s _ j o (answer_state cfg r s) _ IV W (eq_sym EQ)); auto; [eapply piece_moves, P, PD| |apply of_call_self; eauto 6].
      intros ->. pose proof (proj2 W _ _ DD) as CP. destruct o as [t start|m|]; [|eapply piece_calm; [|eapply P, PD]; discriminate..].
      destruct k as [| |m ret|]; try contradiction CP. cbn in CP. subst ret. destruct E as [(_ & _ & ->)|(e & _ & ->)]; [apply send_end_calm|apply raised_calm].
    - assert (SS : c_calls s1 = c_calls s /\ c_ended s1 = c_ended s /\ c_closing s1 = c_closing s /\ c_wire s1 = c_wire s) by (destruct E as [(u & _ & -> & _)|(e & _ & -> & _)]; auto).
      rewrite EQ. destruct (paid_some cfg k rs) as [lv PD]. eapply (calm_step i s _ j o s1 _ IV W (eq_sym EQ)); auto; [eapply piece_moves, P, PD| |apply of_call_self; eauto 6].
      intros ->. pose proof (proj2 W _ _ DD) as CP. destruct o as [t start|m|]; [|eapply piece_calm; [|eapply P, PD]; discriminate..].
      destruct k as [| |m ret|]; try contradiction CP. cbn in CP. subst ret. destruct E as [(u & _ & _ & ->)|(e & _ & _ & ->)]; [apply resume_calm|apply raised_calm].
    - rewrite EQ. eapply (calm_step i s _ j _ s _ IV W (eq_sym EQ)); auto; [eapply piece_moves, P| |apply of_call_self; eauto 6]. intros ->. destruct (proj2 W _ _ DD).
    - split; [exact W|]. split; [exists []; split; [cbn; now rewrite app_nil_r|intros t start r []]|]. intros [(o & H)|[(b & r & H)|(r & H)]]; discriminate H.
    - split; [exact W|]. split; [exists []; split; [cbn; now rewrite app_nil_r|intros t start r []]|]. intros [(o & H)|[(b & r & H)|(r & H)]]; discriminate H.
    - split; [split; [reflexivity|apply W]|]. split; [exists []; split; [cbn; now rewrite app_nil_r|intros t start r []]|]. intros [(o & H)|[(b & r & H)|(r & H)]]; discriminate H.
  Qed.
  Lemma winding_run i ls : forall s, inv cfg s -> winding i s -> winding i (crun cfg ls s) /\ new_results i s (crun cfg ls s).
  Proof.
    induction ls as [|l ls IH]; intros s IV W; [split; [exact W|exists []; split; [cbn; now rewrite app_nil_r|intros t start r []]]|].
    destruct (winding_step i s l IV W) as (W1 & (m1 & E1 & N1) & _). destruct (IH _ (inv_step cfg s l IV) W1) as (W2 & (m2 & E2 & N2)). split; [exact W2|].
    exists (m1 ++ m2). split; [change (crun cfg (l :: ls) s) with (crun cfg ls (cstep cfg s l)); rewrite E2, E1; now rewrite app_assoc|]. intros t start r H. apply in_app_or in H as [H|H]; eauto.
  Qed.

  (** A call made after close() never asks for messages or positions.  If it is a consume(), it returns None or no
      messages, or raises.  Nothing opens the consumer again. *)
  Theorem C66_closed : forall (s : st) i ls, reachable cfg s -> c_closing s = true -> dget (c_calls s) i = None ->
    let s' := crun cfg ls s in
    c_closing s' = true /\
    (forall l b rq, of_call i l -> In (b, rq) (sent cfg s' l) -> ~ reads rq) /\
    (forall t start r, In (i, OpConsume t start, r) (ended_from (length (c_ended s)) s') -> nothing r).
  Proof.
    intros s i ls R CL DN s'. assert (IV : inv cfg s) by (destruct R as (k & name & ls0 & ->); apply inv_run, inv_init).
    assert (W : winding i s) by (split; [exact CL|intros o p H; congruence]). destruct (winding_run i ls s IV W) as (W' & more & E & N). split; [apply W'|]. split.
    - intros l b rq OC. apply (winding_step i s' l); [now apply inv_run|exact W'|exact OC].
    - intros t start r. unfold ended_from, s'. rewrite E, skipn_app, Nat.sub_diag, skipn_all. apply N.
  Qed.
  (** In particular a consumer closed while no call was running reads nothing any more. *)
  Theorem C66_reads_nothing : forall (s : st) ls l b rq, reachable cfg s -> c_closing s = true -> c_calls s = [] ->
    In (b, rq) (sent cfg (crun cfg ls s) l) -> ~ reads rq.
  Proof.
    intros s ls l b rq R CL C H. assert (IV : inv cfg s) by (destruct R as (k & name & ls0 & ->); apply inv_run, inv_init).
    assert (NE : sent cfg (crun cfg ls s) l <> []) by (intros X; rewrite X in H; destruct H).
    destruct (sent_cases cfg _ l (inv_run cfg ls s IV) NE) as (i & o & look & s1 & ns & A).
    destruct (C66_closed s i ls R CL) as (_ & X & _); [now rewrite C|]. apply (X l b rq); [|exact H].
    destruct (ac_from _ _ _ _ _ _ _ _ _ A) as [(-> & _)|[(b' & r & k & w & rs & rq' & -> & _)|[(r & k & rs & -> & _)|(r & t & -> & _)]]]; unfold of_call; eauto 6.
  Qed.
  (** A closed SingleConsumer has nothing more to do with calls made then: consume() returns None at once and sends
      nothing. *)
  Theorem C66_single : forall (s : st) i t start, reachable cfg s -> c_closing s = true -> dget (c_calls s) i = None -> md cfg = Single ->
    sent cfg s (Call i (OpConsume t start)) = [] /\ c_ended (cstep cfg s (Call i (OpConsume t start))) = c_ended s ++ [(i, OpConsume t start, Ok RvNone)] /\
    dget (c_calls (cstep cfg s (Call i (OpConsume t start)))) i = None.
  Proof.
    intros s i t start R CL DN M. assert (E : cstep cfg s (Call i (OpConsume t start)) = continue i (OpConsume t start) (Return RvNone, s)).
    { cbn [cstep]. unfold dmem. rewrite DN. unfold consume, base_done. rewrite CL, M. reflexivity. }
    split; [apply sent_eq; rewrite E, app_nil_r; reflexivity|]. rewrite E. split; [reflexivity|]. cbn.
    assert (IV : inv cfg s) by (destruct R as (k & name & ls0 & ->); apply inv_run, inv_init). apply dget_ddel_same, IV.
  Qed.
End C66.

(** A group member closed between two consume() calls, having read messages before. *)
Example C66_example : let s := crun (ex_grouped false) (ex_consumed ++ [Arrive 2 2 (Ok (PFetch [(tt_, [(1, (0, [(7, msg 3)]))])])); Close]) (ex_member false) in
  reachable (ex_grouped false) s /\ c_closing s = true /\ c_calls s = [] /\ In (2, OpConsume tt_ None, Ok (RvList [1; 2; 3])) (c_ended s) /\
  sent (ex_grouped false) s (Call 3 (OpConsume tt_ None)) = [] /\
  In (3, OpConsume tt_ None, Ok RvNone) (ended_from (length (c_ended s)) (cstep (ex_grouped false) s (Call 3 (OpConsume tt_ None)))).
Proof.
  split; [exists ex_cluster, me, (ex_joined ++ (ex_consumed ++ [Arrive 2 2 (Ok (PFetch [(tt_, [(1, (0, [(7, msg 3)]))])])); Close])); unfold crun at 2; rewrite fold_left_app; reflexivity|].
  vm_compute. auto 10.
Qed.
(** What it may still send: a group member with autocommit commits its positions again in each consume() after close(). *)
Theorem C66_commits_after_close_refuted : exists (cfg : config Z) s, reachable cfg s /\ c_closing s = true /\ c_calls s = [] /\
  sent cfg s (Call 3 (OpConsume tt_ None)) = [(2, RCommit (txt "g") [(tt_, [(0, (7, txt "committed by me")); (1, (8, txt "committed by me"))])])].
Proof.
  exists (ex_grouped true), (crun (ex_grouped true) (ex_joined ++ (ex_consumed ++ [Arrive 2 2 (Ok (PFetch [(tt_, [(1, (0, [(7, msg 3)]))])])); Arrive 2 2 (Ok (PCommit [(tt_, [(0, 0); (1, 0)])])); Close])) (consumer_init ex_cluster me)).
  split; [do 3 eexists; reflexivity|]. vm_compute. auto.
Qed.

(** ** C67: close() closes every connection *)
Lemma stop_fold l : forall k, NoDup (dkeys l) -> let k' := fold_left (fun k' bc => emit (XClose (cc_id (snd bc))) (set_conns k' (dset (k_conns k') (fst bc) (shut (snd bc))))) l k in
  (forall b, dget (k_conns k') b = match dget l b with Some c => Some (shut c) | None => dget (k_conns k) b end) /\
  k_log k' = k_log k ++ map (fun bc => XClose (cc_id (snd bc))) l /\ k_topics k' = k_topics k /\ k_leaders k' = k_leaders k /\
  (incl (dkeys l) (dkeys (k_conns k)) -> dkeys (k_conns k') = dkeys (k_conns k)).
Proof.
  induction l as [|[b0 c0] l IH]; intros k ND k'; [cbn in *; rewrite app_nil_r; auto|]. inversion ND as [|x y NI ND' EQ]; subst. cbn [fold_left] in k'.
  destruct (IH (emit (XClose (cc_id c0)) (set_conns k (dset (k_conns k) b0 (shut c0)))) ND') as (A & B & C & D & F). subst k'. cbn [fst snd] in *.
  split; [|split; [|split; [|split]]].
  - intros b. rewrite A. cbn [dget]. change (@eqb Z _ b0 b) with (b0 =? b). cbn [emit set_conns k_conns].
    destruct (b0 =? b) eqn:E; [apply Z.eqb_eq in E; subst b0|apply Z.eqb_neq in E].
    + destruct (dget l b) as [c|] eqn:G; [exfalso; apply NI; eapply dget_Some_in, G|]. apply dget_dset_same.
    + destruct (dget l b); [reflexivity|]. apply dget_dset_other. congruence.
  - rewrite B. cbn [emit set_conns k_log map fst snd]. rewrite <- app_assoc. reflexivity.
  - rewrite C. reflexivity.
  - rewrite D. reflexivity.
  - intros IN. cbn [emit set_conns k_conns] in F. assert (K : dkeys (dset (k_conns k) b0 (shut c0)) = dkeys (k_conns k)) by (rewrite dkeys_dset; unfold dmem; destruct (dget (k_conns k) b0) eqn:G; [reflexivity|]; exfalso; apply (proj1 (dget_None_notin _ _) G), IN; now left). rewrite F, K; [reflexivity|]. rewrite K. intros b H. apply IN. now right.
Qed.

(** close(), once the wind-down went well: every connection the client has is closed, each once and in order, and the
    client knows them as closed.  A SingleConsumer's wind-down cannot fail. *)
Theorem C67_closes_partial : forall k k' r, NoDup (dkeys (k_conns k)) -> client_close (Ok tt) k = (r, k') ->
  r = Ok tt /\ k_log k' = k_log k ++ map (fun bc => XClose (cc_id (snd bc))) (k_conns k) /\ dkeys (k_conns k') = dkeys (k_conns k) /\
  (forall b id closed, conn_of k b id closed -> conn_of k' b id true) /\ (forall b id closed, conn_of k' b id closed -> closed = true).
Proof.
  intros k k' r ND [= <- <-]. unfold Cluster.stop. destruct (stop_fold (k_conns k) k ND) as (A & B & _ & _ & D). split; [reflexivity|]. split; [exact B|]. split; [apply D, incl_refl|]. split.
  - intros b id closed (c & G & I & _). exists (shut c). rewrite A, G. auto.
  - intros b id closed (c & G & _ & <-). rewrite A in G. destruct (dget (k_conns k) b); [injection G as <-; reflexivity|discriminate G].
Qed.
Theorem C67_single_partial : forall k, fst (client_close single_wind_down k) = Ok tt.
Proof. reflexivity. Qed.

Section C67.
  Context {V : Type}.
  Variable cfg : config V.
  Notation st := (consumer V).

  Lemma closed_silent (s : st) l : inv cfg s -> (forall b, open_conn s b = false) -> sent cfg s l = [].
  Proof.
    intros IV O. destruct (sent cfg s l) as [|x xs] eqn:E; [reflexivity|exfalso]. assert (NE : sent cfg s l <> []) by (rewrite E; discriminate).
    destruct (sent_cases cfg s l IV NE) as (i & o & look & s1 & ns & A). rewrite E in A. destruct (acts_before _ _ _ _ _ _ _ _ _ A) as (_ & _ & _ & EK & _ & _). destruct A as [_ MV SD _ _].
    assert (O' : forall b, open_conn (snd ns) b = false) by (intros b; rewrite (open_conn_w s1 (snd ns) (p_conns _ _ _ _ _ _ MV)); unfold open_conn; rewrite EK; apply O).
    inversion SD as [|t start rqs pre post _ _ _ _ ex EX|t start rqs pre post _ _ _ _ _ _ ex EX|t start b g fn ac name ps _ _ _ _ OC|m ret b g fn ac name am _ _ _ _ OC|b rest g fn ac name _ _ OC]; subst; try (rewrite O' in OC; discriminate OC).
    all: assert (F : forall l : list (Z * request), filter (fun br => open_conn (snd ns) (fst br)) l = []) by (intros l'; induction l' as [|y l' IH]; [reflexivity|]; cbn; rewrite O'; exact IH); rewrite F in EX; discriminate EX.
  Qed.
  Lemma conns_step (s : st) l : inv cfg s -> (forall k, l <> Cluster_ k) -> k_conns (c_cluster (cstep cfg s l)) = k_conns (c_cluster s).
  Proof.
    intros IV NC. destruct (step_cases cfg s l IV) as [(i & o & look & s1 & ns & ex & A)|[(-> & _)|[(k & -> & _)|[(_ & ->)|(g & fn & ac & name & ev & _ & _ & ->)]]]]; try reflexivity; [|destruct (NC k eq_refl)].
    destruct (acts_before _ _ _ _ _ _ _ _ _ A) as (_ & _ & _ & EK & _ & _). destruct A as [ST MV _ _ _]. rewrite ST. destruct (continue_same i o ns) as (_ & _ & _ & _ & -> & _). rewrite (p_conns _ _ _ _ _ _ MV), EK. reflexivity.
  Qed.
  (** Afterwards nothing is written any more, whatever was running and whatever happens, as long as no heal that was
      still running opens connections. *)
  Theorem C67_silent_partial : forall (s : st) ls, reachable cfg s -> NoDup (dkeys (k_conns (c_cluster s))) -> (forall k, ~ In (Cluster_ k) ls) ->
    let s' := cstep cfg s (Cluster_ (snd (client_close (Ok tt) (c_cluster s)))) in
    c_wire (crun cfg ls s') = c_wire s.
  Proof.
    intros s ls R ND NC s'. assert (IV : inv cfg s) by (destruct R as (k & name & ls0 & ->); apply inv_run, inv_init).
    assert (O : forall b, open_conn s' b = false).
    { intros b. destruct (client_close (Ok tt) (c_cluster s)) as [r k'] eqn:E. destruct (C67_closes_partial _ _ _ ND E) as (_ & _ & _ & _ & C). unfold s', open_conn. cbn [snd cstep set_cluster c_cluster].
      destruct (dget (k_conns k') b) as [c|] eqn:G; [|reflexivity]. rewrite (C b (cc_id c) (cc_closing c)); [reflexivity|]. exists c. auto. }
    assert (IV' : inv cfg s') by now apply inv_step. change (c_wire s) with (c_wire s'). clearbody s'. clear s IV R ND. revert s' O IV'. induction ls as [|l ls IH]; intros s O IV; [reflexivity|].
    change (crun cfg (l :: ls) s) with (crun cfg ls (cstep cfg s l)). rewrite IH.
    - rewrite (step_wire cfg s l IV), (closed_silent s l IV O). apply app_nil_r.
    - intros k H. apply (NC k). now right.
    - intros b. rewrite (open_conn_w s _ (conns_step s l IV (fun k H => NC k (or_introl H)))). apply O.
    - now apply inv_step.
  Qed.
End C67.

(** Two brokers; a consume() is waiting for the second when the consumer is closed. *)
Example C67_example : let s := crun (ex_grouped true) ex_consumed (ex_member true) in let k := c_cluster s in
  NoDup (dkeys (k_conns k)) /\ (exists id1 id2, conn_of k 1 id1 false /\ conn_of k 2 id2 false /\ k_log (snd (client_close (Ok tt) k)) = k_log k ++ [XClose id1; XClose id2]) /\
  waits_for s 2 2 (RFetch (-1) 1000 1 tt_ [(1, (7, 1000))]).
Proof.
  split; [repeat constructor; cbn; intuition discriminate|]. split; [do 2 eexists; split; [eexists; split; [vm_compute; reflexivity|split; reflexivity]|split; [eexists; split; [vm_compute; reflexivity|split; reflexivity]|vm_compute; reflexivity]]|].
  do 4 eexists. split; vm_compute; reflexivity.
Qed.
(** A group member whose leaving the group fails in ZooKeeper: close() raises that error, the connection to ZooKeeper is
    neither stopped nor closed and every connection to a broker stays open. *)
Inductive zk_call := ZkLeave | ZkStop | ZkClose.
Theorem C67_zookeeper_failure_refuted : exists (e : exn) (leave conn_stop conn_close : list zk_call -> res unit * list zk_call) k,
  (forall w, conn_stop w = (Ok tt, w ++ [ZkStop])) /\ (forall w, conn_close w = (Ok tt, w ++ [ZkClose])) /\ conn_of k 1 0 false /\
  let '(r, w) := grouped_wind_down leave conn_stop conn_close [] in
  r = Err e /\ w = [ZkLeave] /\ client_close r k = (Err e, k).
Proof.
  exists EExit, (fun w => (Err EExit, w ++ [ZkLeave])), (fun w => (Ok tt, w ++ [ZkStop])), (fun w => (Ok tt, w ++ [ZkClose])), (Cl [(1, CC [] 0 0 false)] [] [] 1 0 []).
  split; [reflexivity|]. split; [reflexivity|]. split; [eexists; split; [reflexivity|auto]|]. vm_compute. auto.
Qed.

Print Assumptions C66_closed.
Print Assumptions C66_reads_nothing.
Print Assumptions C66_single.
Print Assumptions C66_commits_after_close_refuted.
Print Assumptions C67_closes_partial.
Print Assumptions C67_single_partial.
Print Assumptions C67_silent_partial.
Print Assumptions C67_zookeeper_failure_refuted.
