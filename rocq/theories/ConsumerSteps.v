(** The steps of the consumer machine: where calls can wait, what they then ask, and what a piece of code changes. *)
From Coq Require Import ZArith String List Bool Lia Permutation Sorting.Sorted.
From Verif Require Import PyBase BaseLemmas Constants Cluster Zookeeper SpecZk ZkProofs ZkAlloc Consumer SpecConsumer ConsumerProofs.
Import ListNotations.
Open Scope Z_scope.
Set Default Proof Using "Type".

Section Steps.
  Context {V : Type}.
  Variable cfg : config V.
  Notation st := (consumer V).

  (** ** where the code of each operation can wait, and for what *)
  Definition fits_cont (o : op) (k : cont V) : Prop :=
    match o, k with
    | OpConsume t _, KOffsets t' rq => t' = t /\ match md cfg with Single => rq = None | Grouped g _ _ _ => exists ps, rq = Some (ROffsetFetch g t ps) end
    | OpConsume t _, KFetch t' => t' = t
    | OpConsume _ _, KCommit _ _ => exists g fn name, md cfg = Grouped g fn true name
    | OpCommit _, KCommit _ ret => md cfg <> Single /\ ret = RvNone
    | OpCoordinator, KCoord _ _ => md cfg <> Single
    | _, _ => False
    end.
  Definition asks (k : cont V) (b : Z) (rq : request) : Prop :=
    match k with
    | KOffsets t None => exists parts, rq = ROffset CONSUMER_REPLICA_ID t parts
    | KOffsets t (Some rq0) => rq = rq0
    | KFetch t => exists parts, rq = RFetch CONSUMER_REPLICA_ID (max_wait cfg) (min_bytes cfg) t parts
    | KCommit m _ => exists g topics, rq = RCommit g topics
    | KCoord asked _ => b = asked /\ exists g, rq = RCoordinator g
    end.
  Definition val_kind (k : cont V) (v : hval V) : Prop :=
    match k, v with
    | KOffsets _ None, HNone | KOffsets _ (Some _), HBool _ | KFetch _, HMsgs _ | KCommit _ _, HPair _ _ | KCoord _ _, HBool _ => True
    | _, _ => False
    end.
  Record wf_send (k : cont V) (w : dict Z request) (rs : dict Z (hval V)) : Prop := {
    ws_some : w <> []; ws_nodup : NoDup (dkeys w); ws_asks : forall b rq, In (b, rq) w -> asks k b rq;
    ws_apart : forall b, In b (dkeys w) -> dget rs b = None; ws_rs : NoDup (dkeys rs);
    ws_vals : forall b v, In (b, v) rs -> val_kind k v }.
  Definition fits (o : op) (p : pc V) : Prop :=
    match p with
    | PSend k w rs => fits_cont o k /\ wf_send k w rs
    | PHeal k rs => fits_cont o k /\ NoDup (dkeys rs) /\ forall b v, In (b, v) rs -> val_kind k v
    | PTopicHeal t => exists start, o = OpConsume t start
    end.
  Definition fits_next (o : op) (n : next V) : Prop := match n with Await p => fits o p | _ => True end.
  Lemma wf_one k b rq : asks k b rq -> wf_send k [(b, rq)] [].
  Proof. intros A. constructor; try discriminate; cbn; try reflexivity; try (constructor; fail); [constructor; [intros []|constructor]|intros b' rq' [H|[]]; injection H as <- <-; exact A|intros b' v []]. Qed.

  (** ** what a piece of code changes: [look] says whether it can mark the topic of its consume() as synced *)
  Record moves (look : bool) (o : op) (ex : list (Z * request)) (s s' : st) : Prop := {
    p_calls : c_calls s' = c_calls s; p_ended : c_ended s' = c_ended s; p_closing : c_closing s' = c_closing s;
    p_heal : c_heal s' = c_heal s; p_coord : c_coord s' = c_coord s;
    p_pos : forall t p, position s' t p = position s t p;
    p_conns : k_conns (c_cluster s') = k_conns (c_cluster s);
    p_leader : forall t p, leader_of s' t p = leader_of s t p;
    p_alloc : forall t, alloc_of cfg s' t = alloc_of cfg s t;
    p_callbacks : a_callbacks (c_alloc s') = a_callbacks (c_alloc s);
    p_name : a_name (c_alloc s') = a_name (c_alloc s);
    p_gives : forall m t, gives_to (a_mapping (c_alloc s')) m t = gives_to (a_mapping (c_alloc s)) m t;
    p_members : a_members (c_alloc s') = a_members (c_alloc s);
    p_partitions : a_partitions (c_alloc s') = a_partitions (c_alloc s);
    p_proper : proper (a_mapping (c_alloc s)) -> proper (a_mapping (c_alloc s'));
    p_wire : c_wire s' = c_wire s ++ ex;
    p_synced : c_synced s' = c_synced s \/ (look = true /\ exists t start, o = OpConsume t start /\ c_synced s' = sadd (c_synced s) t);
    p_tocommit : c_tocommit s' = c_tocommit s \/ (exists t start, o = OpConsume t start /\ c_tocommit s' = sadd (c_tocommit s) t /\ In t (c_synced s')) }.
  Lemma quietw_moves look o s s' e : quietw cfg s s' e -> moves look o e s s'.
  Proof. intros [[] W]. constructor; cbn [set_wire] in *; auto. Qed.
  Lemma quiet_moves look o s s' : quiet cfg s s' -> moves look o [] s s'.
  Proof. intros Q. eapply quietw_moves, quietw_quiet, Q. Qed.
  Lemma moves_refl look o s : moves look o [] s s.
  Proof. apply quiet_moves, quiet_refl. Qed.
  Lemma sadd_idem (l : list text) t : sadd (sadd l t) t = sadd l t.
  Proof. unfold sadd at 1. assert (H : smem (sadd l t) t = true) by (apply smem_In, in_sadd; now left). now rewrite H. Qed.
  Lemma moves_trans look o ex s1 s2 s3 : moves look o [] s1 s2 -> moves look o ex s2 s3 -> moves look o ex s1 s3.
  Proof.
    intros [] []. constructor; try (clear p_proper0 p_proper1; intros; congruence); try (intros; etransitivity; eauto; fail); try (intros; auto; fail).
    - rewrite p_wire1, p_wire0, app_nil_r. reflexivity.
    - destruct p_synced0 as [A|(L & t1 & st1 & T1 & A)], p_synced1 as [B|(L' & t2 & st2 & T & B)]; rewrite ?A in B; [left; congruence|right; eauto 6|right; split; [exact L|]; exists t1, st1; split; [exact T1|congruence]|].
      rewrite T in T1. injection T1 as <- <-. right. split; [exact L|]. exists t2, st2. split; [exact T|]. rewrite B. apply sadd_idem.
    - assert (MO : forall x, In x (c_synced s2) -> In x (c_synced s3)) by (intros x H; destruct p_synced1 as [->|(_ & t2 & st2 & _ & ->)]; [exact H|apply in_sadd; now right]).
      destruct p_tocommit0 as [A|(t1 & st1 & T1 & A & I1)], p_tocommit1 as [B|(t2 & st2 & T & B & I2)]; rewrite ?A in B; [left; congruence|right; eauto 6|right; exists t1, st1; split; [exact T1|]; split; [congruence|auto]|].
      rewrite T in T1. injection T1 as <- <-. right. exists t2, st2. split; [exact T|]. split; [rewrite B; apply sadd_idem|exact I2].
  Qed.
  Lemma moves_look look o ex s s' : moves false o ex s s' -> moves look o ex s s'.
  Proof. intros []. constructor; auto. destruct p_synced0 as [H|(L & _)]; [now left|discriminate L]. Qed.

  (** ** what it sends *)
  Inductive sends (o : op) (look : bool) (s' : st) (n : next V) : list (Z * request) -> Prop :=
  | S_none : sends o look s' n []
  | S_fetch t start rqs pre post : o = OpConsume t start -> fetching cfg s' t rqs -> rqs = pre ++ post ->
      ((post = [] /\ n = Await (PSend (KFetch t) rqs []) /\ forall b rq, In (b, rq) rqs -> dget (k_conns (c_cluster s')) b <> None) \/ forall p, n <> Await p) ->
      forall ex, ex = filter (fun br => open_conn s' (fst br)) pre -> sends o look s' n ex
  | S_lookup t start rqs pre post : look = true -> md cfg = Single -> o = OpConsume t start ->
      looking cfg s' t (start_to_timestamp cfg (match start with Some x => x | None => StInt END_ end)) rqs -> rqs = pre ++ post ->
      ((post = [] /\ n = Await (PSend (KOffsets t None) rqs []) /\ forall b rq, In (b, rq) rqs -> dget (k_conns (c_cluster s')) b <> None) \/ forall p, n <> Await p) ->
      forall ex, ex = filter (fun br => open_conn s' (fst br)) pre -> sends o look s' n ex
  | S_offsets t start b g fn ac name ps : look = true -> md cfg = Grouped g fn ac name -> o = OpConsume t start -> c_coord s' = Some b -> open_conn s' b = true ->
      n = Await (PSend (KOffsets t (Some (ROffsetFetch g t ps))) [(b, ROffsetFetch g t ps)] []) -> sends o look s' n [(b, ROffsetFetch g t ps)]
  | S_commit m ret b g fn ac name am : md cfg = Grouped g fn ac name -> (forall t start, o = OpConsume t start -> ac = true) -> o <> OpCoordinator ->
      c_coord s' = Some b -> open_conn s' b = true -> own_map s' = Some am ->
      n = Await (PSend (KCommit m ret) [(b, RCommit g (commit_of s' m am))] []) -> sends o look s' n [(b, RCommit g (commit_of s' m am))]
  | S_coord b rest g fn ac name : md cfg = Grouped g fn ac name -> o = OpCoordinator -> open_conn s' b = true ->
      n = Await (PSend (KCoord b rest) [(b, RCoordinator g)] []) -> sends o look s' n [(b, RCoordinator g)].
  Lemma sends_look look o s' n ex : sends o false s' n ex -> sends o look s' n ex.
  Proof. intros S. inversion S; subst; try discriminate; [apply S_none|eapply S_fetch; eauto|eapply S_commit; eauto|eapply S_coord; eauto]. Qed.

  (** what is awaited anew *)
  Definition new_wait (s' : st) (n : next V) : Prop :=
    match n with
    | Await (PSend (KFetch t) w rs) => rs = [] /\ fetching cfg s' t w
    | Await (PSend (KOffsets t None) w rs) => rs = [] /\ exists start, looking cfg s' t (start_to_timestamp cfg start) w
    | Await (PHeal _ _) => c_heal s' = true
    | _ => True
    end.
  (** what a consume() that has received the values [l] returns *)
  Definition pay (l : list V) (v : rv V) : Prop := v = RvList l \/ (md cfg <> Single /\ v = RvList []) \/ (v = RvNone /\ l = []).
  Definition vals_of (rs : dict Z (hval V)) : list V := flat_map (fun bv => match snd bv with HMsgs l => l | _ => [] end) rs.
  (** what the call of [k] has received so far, given the answers in [rs] *)
  Definition paid (k : cont V) (rs : dict Z (hval V)) (l : list V) : Prop :=
    match k with
    | KFetch _ => l = filter (truthy cfg) (vals_of rs)
    | KCommit _ ret => pay l ret
    | _ => l = []
    end.
  Definition paid_pc (p : pc V) (l : list V) : Prop := match p with PSend k _ rs | PHeal k rs => paid k rs l | PTopicHeal _ => l = [] end.
  Definition nextpay (l : list V) (n : next V) : Prop := match n with Return v => pay l v | Await p => paid_pc p l | Raise_ _ => True end.
  Record piece (look : bool) (o : op) (l : list V) (s : st) (ns : next V * st) : Prop := {
    pi_moves : exists ex, moves look o ex s (snd ns) /\ sends o look (snd ns) (fst ns) ex;
    pi_fits : fits_next o (fst ns); pi_new : new_wait (snd ns) (fst ns); pi_pay : nextpay l (fst ns) }.

  Lemma piece_pre look o l s s1 ns : moves look o [] s s1 -> piece look o l s1 ns -> piece look o l s ns.
  Proof. intros M [(ex & M1 & S) F N P]. constructor; auto. exists ex. split; [eapply moves_trans; eassumption|exact S]. Qed.
  Lemma piece_look look o l s ns : piece false o l s ns -> piece look o l s ns.
  Proof. intros [(ex & M & S) F N P]. constructor; auto. exists ex. split; [now apply moves_look|now apply sends_look]. Qed.
  Lemma piece_end look o l s s' n : moves look o [] s s' -> match n with Return v => pay l v | Raise_ _ => True | Await _ => False end -> piece look o l s (n, s').
  Proof. intros M H. destruct n as [p|v|e]; [destruct H| |]; (constructor; cbn; auto; exists []; split; [exact M|apply S_none]). Qed.
  Lemma piece_raise look o l s e : piece look o l s (Raise_ e, s).
  Proof. apply piece_end; [apply moves_refl|exact I]. Qed.
  Lemma open_conn_w (s s' : st) : k_conns (c_cluster s') = k_conns (c_cluster s) -> forall b, open_conn s' b = open_conn s b.
  Proof. intros E b. unfold open_conn. now rewrite E. Qed.

  Lemma commit_piece look o l m ret (s : st) : (exists t start g fn name, o = OpConsume t start /\ md cfg = Grouped g fn true name) \/ (exists x, o = OpCommit x /\ ret = RvNone) ->
    pay l ret -> piece look o l s (commit_offsets cfg m ret s).
  Proof.
    intros H P. destruct (commit_offsets_spec cfg m ret s) as (ex & Q & D). destruct (commit_offsets cfg m ret s) as [n s']. cbn [fst snd] in *.
    destruct D as [(e & -> & ->)|(g & fn & ac & name & b & am & M & C & OM & -> & ->)]; [apply piece_end; [now apply quietw_moves|exact I]|]. pose proof (quietw_moves look o _ _ _ Q) as MV.
    assert (OC : open_conn s' b = open_conn s b) by apply (open_conn_w s s'), (p_conns _ _ _ _ _ MV).
    constructor; cbn [fst snd fits_next new_wait nextpay]; auto.
    - eexists. split; [exact MV|]. rewrite <- OC. destruct (open_conn s' b) eqn:OE; [|apply S_none]. eapply S_commit; eauto; [|destruct H as [(? & ? & ? & ? & ? & -> & _)|(? & -> & _)]; discriminate|now rewrite (p_coord _ _ _ _ _ MV)].
      intros t start ->. destruct H as [(t' & start' & g' & fn' & name' & E & M')|(x & E & _)]; [congruence|discriminate E].
    - split; [|apply wf_one; cbn; eauto]. destruct H as [(t & start & g' & fn' & name' & -> & M')|(x & -> & R)]; cbn; [eauto|]. split; [congruence|exact R].
  Qed.
  Lemma base_done_piece look t start l v (s : st) : pay l v -> piece look (OpConsume t start) l s (base_done cfg t v s).
  Proof.
    intros P. unfold base_done. destruct (md cfg) as [|g fn ac name] eqn:M; [apply piece_end; [apply moves_refl|exact P]|].
    destruct (smem (c_synced s) t) eqn:SY; cbn [negb]; [|apply piece_end; [apply moves_refl|right; left; split; [congruence|reflexivity]]].
    assert (MV : moves look (OpConsume t start) [] s (set_tocommit (sadd (c_tocommit s) t) s)).
    { constructor; try reflexivity; try exact (fun H => H); [cbn; now rewrite app_nil_r|now left|]. right. exists t, start. split; [reflexivity|]. split; [reflexivity|]. now apply smem_In in SY. }
    destruct ac; [|apply piece_end; [exact MV|exact P]]. eapply piece_pre; [exact MV|]. apply commit_piece; [|exact P]. left. exists t, start, g, fn, name. auto.
  Qed.
  Lemma pay_nil : pay [] (RvList []).
  Proof. now left. Qed.
  Lemma fetch_piece look t start (s : st) : piece look (OpConsume t start) [] s (fetch cfg t s).
  Proof.
    destruct (fetch_spec cfg t s) as [(e & ex & E & Q & D)|[(_ & s1 & Q & ->)|(_ & rqs & ex & E & Q & X & F & C)]].
    2: { eapply piece_pre; [apply quiet_moves, Q|apply base_done_piece, pay_nil]. }
    - destruct (fetch cfg t s) as [n s']. cbn [fst snd] in *. subst n. pose proof (quietw_moves look (OpConsume t start) _ _ _ Q) as MV. constructor; cbn; auto. exists ex. split; [exact MV|].
      destruct D as [->|(rqs & pre & post & R & -> & F)]; [apply S_none|].
      eapply (S_fetch _ _ _ _ t start rqs pre post); auto; [right; discriminate|]. apply filter_ext. intros [b rq]. symmetry. apply open_conn_w, (p_conns _ _ _ _ _ MV).
    - destruct (fetch cfg t s) as [n s']. cbn [fst snd] in *. subst n. pose proof (quietw_moves look (OpConsume t start) _ _ _ Q) as MV. constructor; cbn; auto.
      + exists ex. split; [exact MV|]. subst ex. eapply (S_fetch _ _ _ _ t start rqs rqs []); [reflexivity|exact F|now rewrite app_nil_r| |apply filter_ext; intros [b rq]; symmetry; apply open_conn_w, (p_conns _ _ _ _ _ MV)].
        left. split; [reflexivity|]. split; [reflexivity|]. now rewrite (p_conns _ _ _ _ _ MV).
      + split; [reflexivity|]. destruct F as (NE & ND & _ & A). constructor; auto; [|cbn; constructor|intros b v []]. intros b rq H. destruct (A b rq H) as (parts & _ & -> & _). exists parts. reflexivity.
  Qed.
  Lemma after_offsets_piece look t start (s : st) : piece look (OpConsume t start) [] s (after_offsets cfg t s).
  Proof.
    destruct (after_offsets_spec cfg t s) as [(s1 & Q & _ & ->)|[(e & ex & E & Q)|(E & Q)]].
    - eapply piece_pre; [apply quiet_moves, Q|apply fetch_piece].
    - unfold after_offsets in *. destruct (allocated_spec cfg t s) as (Q1 & _). destruct (allocated cfg t s) as [[[|]|e'] s1]; cbn [fst snd] in *; try discriminate E.
      + eapply piece_pre; [apply quiet_moves, Q1|apply fetch_piece].
      + apply piece_end; [now apply quiet_moves|exact I].
    - destruct (after_offsets cfg t s) as [n s']. cbn [fst snd] in *. subst n. constructor; cbn; auto; [|eauto]. exists []. split; [now apply quiet_moves|apply S_none].
  Qed.
  Lemma raised_piece look o l k e (s : st) : fits_cont o k -> (forall t rq, k = KOffsets t rq -> l = []) -> piece look o l s (raised cfg k e s).
  Proof.
    intros F L. unfold raised. destruct k; try apply piece_raise. destruct e; try apply piece_raise. rewrite (L _ _ eq_refl). destruct o as [t start|x|]; try contradiction. destruct F as (-> & _). apply base_done_piece, pay_nil.
  Qed.
  Lemma coord_next_piece look g fn ac name rest (s : st) : md cfg = Grouped g fn ac name -> piece look OpCoordinator [] s (coord_next cfg g rest s).
  Proof.
    intros M. unfold coord_next. destruct (match rest with [] => _ | _ => rest end) as [|b r]; [apply piece_raise|].
    destruct (send_one_spec cfg (KCoord b r) (Some b) (RCoordinator g) s) as (ex & Q & C & _ & D). destruct (send_one cfg _ _ _ s) as [n s']. cbn [fst snd] in *. pose proof (quietw_moves look OpCoordinator _ _ _ Q) as MV.
    destruct D as [(e & -> & ->)|(b' & B & -> & ->)]; [apply piece_end; [exact MV|exact I]|]. injection B as <-. constructor; cbn; auto.
    - eexists. split; [exact MV|]. unfold open_conn at 1. rewrite <- C. fold (open_conn s' b). destruct (open_conn s' b) eqn:OE; [|apply S_none]. eapply S_coord; eauto.
    - split; [congruence|]. apply wf_one. cbn. eauto.
  Qed.
  Definition look_of (k : cont V) : bool := match k with KOffsets _ _ => true | _ => false end.
  Lemma moves_synced t start (s : st) : moves true (OpConsume t start) [] s (set_synced (sadd (c_synced s) t) s).
  Proof. constructor; try reflexivity; try exact (fun H => H); [cbn; now rewrite app_nil_r|right; eauto|now left]. Qed.
  Lemma resume_piece o l k rs (s : st) : fits_cont o k -> paid k rs l -> piece (look_of k) o l s (resume cfg k rs s).
  Proof.
    intros F P.
    assert (A : forall t start, piece true (OpConsume t start) [] s (after_offsets cfg t (set_synced (sadd (c_synced s) t) s))) by (intros t start; eapply piece_pre; [apply moves_synced|apply after_offsets_piece]).
    destruct k as [t rq|t|m ret|asked rest]; cbn [resume look_of paid] in *.
    - subst l. destruct o as [t' start|x|]; try contradiction. pose proof F as F0. destruct F as (-> & F).
      destruct (md cfg) as [|g fn ac name] eqn:M; [apply A|]. destruct rq as [rq|]; [|apply A]. destruct (coord_result rs s) as [h|e]; [|apply raised_piece; auto].
      destruct h as [|l|[|]|a b]; try apply A.
      destruct (send_one_spec cfg (KOffsets t' (Some rq)) (c_coord s) rq s) as (ex & Q & C & _ & D). destruct (send_one _ _ _ _ s) as [n s1]. cbn [fst snd] in *. pose proof (quietw_moves true (OpConsume t' start) _ _ _ Q) as MV.
      destruct D as [(e & -> & ->)|(b & B & -> & ->)]; [eapply piece_pre; [exact MV|apply raised_piece; auto]|]. constructor; cbn; auto.
      + eexists. split; [exact MV|]. unfold open_conn at 1. rewrite <- C. fold (open_conn s1 b). destruct (open_conn s1 b) eqn:OE; [|apply S_none]. destruct F as (ps & F). injection F as ->. eapply S_offsets; eauto. now rewrite (p_coord _ _ _ _ _ MV).
      + split; [rewrite M; auto|]. apply wf_one. reflexivity.
    - destruct o as [t' start|x|]; try contradiction. cbn in F. subst t'. apply base_done_piece. subst l. now left.
    - destruct (coord_result rs s) as [h|e]; [|apply piece_raise]. destruct h as [|l'|b|[|] b]; try apply piece_raise; [|apply piece_end; [apply moves_refl|exact P]]. apply commit_piece; [|exact P].
      destruct o as [t' start|x|]; [left|right|destruct F]; [destruct F as (g & fn & name & F); exists t', start, g, fn, name; auto|exists x; destruct F; auto].
    - subst l. destruct (dindex rs asked) as [h|e]; [|apply piece_raise]. destruct o as [t' start|x|]; try contradiction.
      destruct h as [|l'|[|]|a b]; destruct (md cfg) as [|g fn ac name] eqn:M; try apply piece_raise; try (eapply coord_next_piece; exact M); (apply piece_end; [apply moves_refl|]; right; right; split; reflexivity).
  Qed.
  Lemma send_end_piece o l k rs (s : st) : fits_cont o k -> NoDup (dkeys rs) -> (forall b v, In (b, v) rs -> val_kind k v) -> paid k rs l -> piece (look_of k) o l s (send_end cfg k rs s).
  Proof.
    intros F N VK P. unfold send_end. destruct (c_heal s) eqn:CH; [|now apply resume_piece]. constructor; cbn; auto. exists []. split; [apply moves_refl|apply S_none].
  Qed.
  Lemma set_wire_moves look o (s : st) e : moves look o e s (set_wire (c_wire s ++ e) s).
  Proof. eapply quietw_moves, quiet_w. Qed.
  Lemma quiet_set_wire (s s' : st) w : quiet cfg s s' -> forall t time rqs, looking cfg s' t time rqs -> looking cfg (set_wire w s') t time rqs.
  Proof. intros _ t time rqs L. exact L. Qed.
  Lemma sends_ended o look s' e n ex : sends o look s' (Raise_ e) ex -> (forall p, n <> Await p) -> sends o look s' n ex.
  Proof. intros S N. inversion S; subst; try discriminate; [apply S_none|eapply S_fetch; eauto|eapply S_lookup; eauto]. Qed.
  Lemma determine_piece t start (s : st) : piece true (OpConsume t start) [] s (determine_offsets cfg t (match md cfg with Single => start | _ => None end) s).
  Proof.
    unfold determine_offsets. destruct (alloc_index_spec cfg t s) as [Q1 A1]. destruct (md cfg) as [|g fn ac name] eqn:M.
    - destruct (alloc_index cfg t s) as [[ps|e] s1]; cbn [fst snd] in *; [|apply piece_end; [now apply quiet_moves|exact I]].
      set (time := start_to_timestamp cfg _). pose proof (offset_requests_quiet cfg t time ps [] s1) as Q2. pose proof (offset_requests_spec cfg t time ps s1) as L.
      destruct (offset_requests t time ps [] s1) as [[rqs|e] s2]; cbn [fst snd] in *; [|apply piece_end; [eapply quiet_moves, quiet_trans; eassumption|exact I]].
      specialize (L rqs eq_refl). specialize (A1 ps eq_refl). rewrite (q_alloc _ _ _ Q1) in L. specialize (L (eq_sym A1)).
      pose proof (quiet_trans cfg _ _ _ Q1 Q2) as Q12. destruct (send_all_spec cfg rqs s2) as (pre & post & R & E & C). destruct (send_all cfg rqs s2) as [[[]|e] s3]; cbn [fst snd] in *; subst s3.
      + eapply piece_pre; [apply quiet_moves, Q12|]. destruct (C eq_refl) as [PO CO].
        destruct rqs as [|r rqs].
        * destruct pre; [|discriminate R]. cbn [filter]. rewrite app_nil_r. replace (set_wire (c_wire s2) s2) with s2 by now destruct s2.
          apply (send_end_piece (OpConsume t start) [] (KOffsets t None)); try discriminate; cbn; auto; [rewrite M; auto|constructor|intros b v []].
        * constructor; cbn [fst snd fits_next new_wait nextpay paid_pc paid]; auto.
          -- eexists. split; [apply set_wire_moves|]. eapply (S_lookup _ _ _ _ t start (r :: rqs) pre post); auto.
          -- split; [cbn; rewrite M; auto|]. destruct L as (ND & _ & A). constructor; auto; [discriminate| |cbn; constructor|intros b v []]. intros b rq H. destruct (A b rq H) as (parts & _ & -> & _). now exists parts.
          -- split; [reflexivity|]. eexists. exact L.
      + constructor; cbn; auto. eexists. split; [eapply moves_trans; [apply quiet_moves, Q12|apply set_wire_moves]|].
        eapply (S_lookup _ _ _ _ t start rqs pre post); auto. right. discriminate.
    - destruct (alloc_index cfg t s) as [[ps|e] s1]; cbn [fst snd] in *; [|apply piece_end; [now apply quiet_moves|exact I]]. cbv zeta.
      destruct (send_one_spec cfg (KOffsets t (Some (ROffsetFetch g t ps))) (c_coord s1) (ROffsetFetch g t ps) s1) as (ex & Q & C & _ & D). destruct (send_one cfg _ _ _ s1) as [n s']. cbn [fst snd] in *.
      pose proof (moves_trans true (OpConsume t start) _ _ _ _ (quiet_moves _ _ _ _ Q1) (quietw_moves true (OpConsume t start) _ _ _ Q)) as MV.
      destruct D as [(e & -> & ->)|(b & B & -> & ->)]; [apply piece_end; [exact MV|exact I]|]. constructor; cbn; auto.
      + eexists. split; [exact MV|]. unfold open_conn at 1. rewrite <- C. fold (open_conn s' b). destruct (open_conn s' b) eqn:OE; [|apply S_none]. eapply S_offsets; eauto. rewrite (p_coord _ _ _ _ _ MV). rewrite <- B. symmetry. apply Q1.
      + split; [rewrite M; eauto|]. apply wf_one. reflexivity.
  Qed.
  Lemma determine_raise t start (s : st) g fn ac name e : md cfg = Grouped g fn ac name -> fst (determine_offsets cfg t start s) = Raise_ e -> quiet cfg s (snd (determine_offsets cfg t start s)).
  Proof.
    intros M. unfold determine_offsets. rewrite M. destruct (alloc_index_spec cfg t s) as [Q1 A1]. destruct (alloc_index cfg t s) as [[ps|e'] s1]; cbn [fst snd] in *; [|intros _; exact Q1]. cbv zeta.
    destruct (send_one_spec cfg (KOffsets t (Some (ROffsetFetch g t ps))) (c_coord s1) (ROffsetFetch g t ps) s1) as (ex & Q & C & _ & D). destruct (send_one cfg _ _ _ s1) as [n s']. cbn [fst snd] in *.
    destruct D as [(e' & -> & ->)|(b & B & -> & ->)]; [|discriminate]. intros _. destruct Q as [Q W]. rewrite app_nil_r in W. eapply quiet_trans; [exact Q1|]. rewrite <- W in Q. now destruct s'.
  Qed.
  Lemma consume_piece t start (s : st) : piece true (OpConsume t start) [] s (consume cfg t start s).
  Proof.
    unfold consume. destruct (c_closing s); [apply base_done_piece; right; right; split; reflexivity|]. destruct (smem (c_synced s) t); [apply after_offsets_piece|].
    assert (RP : forall e s1, piece true (OpConsume t start) [] s1 (raised cfg (KOffsets t None) e s1)).
    { intros e s1. unfold raised. destruct e; try apply piece_raise. apply base_done_piece, pay_nil. }
    pose proof (determine_piece t start s) as P. set (start' := match md cfg with Single => start | _ => None end) in *. pose proof (determine_raise t start' s) as DR.
    destruct (determine_offsets cfg t start' s) as [n s1]. destruct n as [p|v|e]; try exact P. cbn [fst snd] in DR. destruct (md cfg) as [|g fn ac name] eqn:M.
    - destruct P as [(ex & MV & S) _ _ _]. cbn [fst snd] in *. destruct (RP e s1) as [_ FI NW PA].
      assert (EQ : snd (raised cfg (KOffsets t None) e s1) = s1 /\ forall p, fst (raised cfg (KOffsets t None) e s1) <> Await p) by (unfold raised, base_done; rewrite M; destruct e; split; try reflexivity; discriminate).
      destruct EQ as [EQ NA]. constructor; auto. exists ex. rewrite EQ. split; [exact MV|]. eapply sends_ended; eassumption.
    - eapply piece_pre; [apply quiet_moves; eapply DR; reflexivity|apply RP].
  Qed.
End Steps.
