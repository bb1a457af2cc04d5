(** A whole client, generic over the client proper (proof file, over Full.v): its tables and connections come from metadata
    responses that arrived, and what is written respects them. *)
From Coq Require Import ZArith String List Bool Lia.
From Verif Require Import PyBase BaseLemmas Messages Protocol Schemas Request Cluster SpecCluster Heals ResponseRead SpecConn SpecRequest ConnStream ConnProofs Stack StackProofs ProducerStackProofs HealOrigin Full.
From Verif Require Connection ProducerProofs.
Import ListNotations.
Open Scope Z_scope.

(** the same tables and connections, as far as answers of brokers are concerned *)
Definition same_net (k k' : cluster) : Prop :=
  k_log k' = k_log k /\ k_opened k' = k_opened k /\ (forall t p l, leader k' t p l -> leader k t p l) /\
  forall b c, In (b, c) (k_conns k') -> exists c0, In (b, c0) (k_conns k) /\ cc_host c0 = cc_host c /\ cc_port c0 = cc_port c /\ cc_id c0 = cc_id c.
Lemma same_net_refl k : same_net k k.
Proof. split; [reflexivity|]. split; [reflexivity|]. split; [auto|]. eauto. Qed.
Lemma same_net_trans a b c : same_net a b -> same_net b c -> same_net a c.
Proof.
  intros (A1 & A2 & A3 & A4) (B1 & B2 & B3 & B4). split; [congruence|]. split; [congruence|]. split; [auto|].
  intros x cn H. destruct (B4 _ _ H) as (c1 & H1 & X1 & X2 & X3). destruct (A4 _ _ H1) as (c2 & H2 & Y1 & Y2 & Y3). exists c2. repeat split; congruence.
Qed.
Lemma same_net_flags ls k : same_net k (flags ls k).
Proof.
  split; [reflexivity|]. split; [reflexivity|]. split; [auto|]. intros b c H. cbn [flags k_conns] in H. apply in_map_iff in H as ([b0 c0] & E & H). injection E as <- <-. exists c0. auto.
Qed.
Lemma conns_from_same (P : mresp -> Prop) k k' : same_net k k' -> conns_from P k -> conns_from P k'.
Proof. intros (L & _ & _ & S) H b c X. destruct (S _ _ X) as (c0 & X0 & <- & <- & <-). rewrite L. exact (H _ _ X0). Qed.
Lemma leaders_from_same (P : mresp -> Prop) k k' : same_net k k' -> leaders_from P k -> leaders_from P k'.
Proof. intros (_ & _ & S & _) [H|(r & PR & H)]; [left; intros t p l X; exact (H t p l (S _ _ _ X))|right; exists r; auto]. Qed.
Lemma call_from_same (P : mresp -> Prop) k k' c : k_log k' = k_log k -> call_from P k c -> call_from P k' c.
Proof. intros L. destruct c; [auto|]. cbn [call_from]. now rewrite L. Qed.
Lemma origin_more (P P' : mresp -> Prop) s : (forall r, P r -> P' r) -> origin P s -> origin P' s.
Proof.
  intros I [A B D]. constructor.
  - intros b c H. destruct (A b c H) as [(r & PR & X) Y]. split; [exists r; auto|exact Y].
  - destruct B as [B|(r & PR & X)]; [now left|right; exists r; auto].
  - intros i c H. specialize (D i c H). destruct c; [exact D|]. destruct D as (X & Y). split; [auto|exact Y].
Qed.
Lemma meta_object_api topics last obj : meta_object topics last = Ok obj -> Connection.rq_api obj = "metadata"%string.
Proof.
  unfold meta_object. destruct (Connection.request_of _ _ _ _) as [[o l']|e] eqn:E; [|discriminate]. intros [= <-].
  destruct (meta_facts 0 (fun _ x => (x, x)) _ _ _ _ E) as (_ & _ & A & _). exact A.
Qed.

Section Full.
  Variables (C : codec) (depth : nat) (neg_read : Z -> bytes -> bytes * bytes) (frames : nat -> list (Z * bytes)).
  Hypothesis OK : forall n, Forall frame_ok (frames n).
  Notation happens := (happens C depth neg_read).
  Notation hearing := (hearing frames).
  Context {B E : Type}.
  Variable bstep : B -> E -> B.
  Variable cl : B -> cluster.
  Variable ln : B -> nat -> link.
  Variable last : B -> Z.
  Variable e_cluster : cluster -> E.
  Variable e_conn : nat -> Connection.event -> E.
  Variable e_meta : nat -> list text -> option exn -> E.
  Variable own : E -> bool.
  Notation perform := (perform bstep ln last e_conn e_meta).
  Notation becomes := (becomes bstep cl ln last e_cluster e_conn e_meta).
  Notation heal_piece := (heal_piece bstep cl ln last e_cluster e_conn e_meta).
  Notation boot_next := (boot_next bstep cl ln last e_cluster e_conn e_meta).
  Notation now := (now cl ln).
  Notation meta_answer := (meta_answer ln).
  Notation fstep := (fstep bstep cl ln last e_cluster e_conn e_meta own).
  Notation frun := (frun bstep cl ln last e_cluster e_conn e_meta own).

  (** what is asked of the client below *)
  Variable G : B -> Prop.
  Hypothesis G_link : forall b n, G b -> link_ok C depth frames n (ln b n) (last b).
  (** what it wrote *)
  Context {Wr : Type}.
  Variable pw : B -> list Wr.
  Hypothesis G_cluster : forall b k, G b -> let b' := bstep b (e_cluster k) in G b' /\ cl b' = k /\ ln b' = ln b /\ pw b' = pw b.
  Hypothesis G_conn : forall b n ev, G b -> (forall rq wr, ev <> Connection.EvSend rq wr) ->
    let b' := bstep b (e_conn n ev) in G b' /\ cl b' = cl b /\ pw b' = pw b /\ ln b' = put n (happens ev (ln b n)) (ln b).
  Hypothesis G_meta : forall b n topics wr, G b -> let b' := bstep b (e_meta n topics wr) in
    G b' /\ cl b' = cl b /\ pw b' = pw b /\ ln b' = match meta_object topics (last b) with Ok obj => put n (happens (Connection.EvSend obj wr) (ln b n)) (ln b) | Err _ => ln b end.
  Hypothesis G_own : forall b e, G b -> own e = true -> let b' := bstep b e in G b' /\ same_net (cl b) (cl b') /\ incl (pw b) (pw b') /\ grows (ln b) (ln b').

  (** a metadata response arrived *)
  Definition heard (ls : nat -> link) (r : mresp) : Prop := exists n f obj raw,
    In (f, obj) (l_iss (ls n)) /\ (exists topics lst, meta_object topics lst = Ok obj) /\ came (frames n) (l_in (ls n)) (Connection.rq_corr obj, raw) /\ read_metadata C depth raw = Some (Ok r).
  Lemma heard_more ls ls' r : grows ls ls' -> heard ls r -> heard ls' r.
  Proof. intros X (n & f & obj & raw & A & A1 & A2 & A3). exists n, f, obj, raw. destruct (X n) as [(x & E0) I0]. split; [now apply I0|]. split; [exact A1|]. split; [rewrite E0; now apply came_more|exact A3]. Qed.

  (** what is said of the bytes written on a connection: it may speak of the answers that arrived and of what the cluster
      did; it has to hold of what the client's own steps write *)
  Variable rt : (mresp -> Prop) -> list effect -> list Wr -> nat -> bytes -> Prop.
  Hypothesis rt_more : forall (P P' : mresp -> Prop) lg lg' ws ws' n w, (forall r, P r -> P' r) -> incl lg lg' -> incl ws ws' -> rt P lg ws n w -> rt P' lg' ws' n w.
  Hypothesis rt_meta : forall P lg ws n topics lst obj w, meta_object topics lst = Ok obj -> (p <- Connection.rq_payload obj ;; framed p) = Ok w -> rt P lg ws n w.
  Hypothesis rt_own : forall P b e, G b -> own e = true -> conns_from P (cl b) -> leaders_from P (cl b) ->
    forall n f w, In (f, w) (l_out (ln (bstep b e) n)) -> In (f, w) (l_out (ln b n)) \/ rt P (k_log (cl b)) (pw (bstep b e)) n w.

  Definition waits_meta (F : full B) : Prop := forall i n f, In (i, (n, f)) (f_wait F) -> exists obj, In (f, obj) (l_iss (ln (f_base F) n)) /\ exists topics lst, meta_object topics lst = Ok obj.
  Definition all_rt (ls : nat -> link) (lg : list effect) (ws : list Wr) : Prop := forall n f w, In (f, w) (l_out (ls n)) -> rt (heard ls) lg ws n w.
  Record finv (F : full B) : Prop := {
    fi_base : G (f_base F);
    fi_wait : waits_meta F;
    fi_from : hearing (ln (f_base F)) -> origin (heard (ln (f_base F))) (HS (cl (f_base F)) (f_calls F) (f_ended F));
    fi_rt : hearing (ln (f_base F)) -> all_rt (ln (f_base F)) (k_log (cl (f_base F))) (pw (f_base F)) }.

  Lemma origin_calls P k calls calls' e e' : incl calls' calls -> origin P (HS k calls e) -> origin P (HS k calls' e').
  Proof. intros I [A B0 D]. constructor; cbn [h_k h_calls] in *; auto. intros i c H. exact (D i c (I _ H)). Qed.
  Lemma fails_inv i e F : finv F -> finv (fails i e F).
  Proof.
    intros [A W O R]. constructor; cbn [fails f_base f_wait f_calls f_ended]; auto.
    - intros j n f H. apply in_ddel in H. exact (W j n f H).
    - intros H. refine (origin_calls _ _ _ _ _ _ _ (O H)). intros [j c] X. eapply in_ddel, X.
  Qed.
  Lemma less_boots F bs ws : finv F -> incl ws (f_wait F) -> finv (Full (f_base F) bs (f_calls F) (f_ended F) ws).
  Proof. intros [A W O R] I. constructor; cbn [f_base f_wait f_calls f_ended]; auto. intros i n f H. exact (W i n f (I _ H)). Qed.

  (** the steps below that only add to the connections *)
  Lemma grown_inv b F : finv F -> G b -> same_net (cl (f_base F)) (cl b) -> incl (pw (f_base F)) (pw b) -> grows (ln (f_base F)) (ln b) ->
    (hearing (ln b) -> forall n f w, In (f, w) (l_out (ln b n)) -> In (f, w) (l_out (ln (f_base F) n)) \/ rt (heard (ln b)) (k_log (cl b)) (pw b) n w) -> finv (with_base b F).
  Proof.
    intros [A W O R] G' S PW GR NEW. assert (HM : forall r, heard (ln (f_base F)) r -> heard (ln b) r) by (intros r; now apply heard_more).
    constructor; cbn [with_base f_base f_wait f_calls f_ended]; auto.
    - intros i n f H. destruct (W i n f H) as (obj & X & Y). exists obj. split; [now apply GR|exact Y].
    - intros H. assert (H0 : hearing (ln (f_base F))) by (eapply hearing_less; eassumption). apply (origin_more _ _ _ HM). destruct (O H0) as [O1 O2 O3]. constructor; cbn [h_k h_calls] in *.
      + eapply conns_from_same; eassumption.
      + eapply leaders_from_same; eassumption.
      + intros i c X. eapply call_from_same; [|eauto]. apply S.
    - intros H n f w X. destruct (NEW H n f w X) as [Y|Y]; [|exact Y]. assert (H0 : hearing (ln (f_base F))) by (eapply hearing_less; eassumption).
      eapply rt_more; [exact HM| |exact PW|exact (R H0 n f w Y)]. destruct S as (-> & _). apply incl_refl.
  Qed.
  Lemma conn_inv n ev F : (forall rq wr, ev <> Connection.EvSend rq wr) -> finv F -> finv (with_base (bstep (f_base F) (e_conn n ev)) F).
  Proof.
    intros N I. destruct (G_conn _ n ev (fi_base _ I) N) as (A & D & PW & L). apply grown_inv; [exact I|exact A|rewrite D; apply same_net_refl|rewrite PW; apply incl_refl|rewrite L; apply grows_put|].
    intros _ m f w H. left. rewrite L in H. destruct (Nat.eq_dec m n) as [->|X]; [rewrite put_same in H|rewrite put_other in H by assumption; exact H]. now rewrite (proj2 (happens_quiet C depth neg_read _ _ N)) in H.
  Qed.
  Lemma put_out n ev ls m f w : In (f, w) (l_out (put n (happens ev (ls n)) ls m)) -> In (f, w) (l_out (ls m)) \/ (m = n /\ In (f, w) (l_out (happens ev (ls n)))).
  Proof. destruct (Nat.eq_dec m n) as [->|X]; [rewrite put_same; auto|rewrite put_other by assumption; auto]. Qed.
  Lemma meta_base_inv n topics wr F : finv F -> finv (with_base (bstep (f_base F) (e_meta n topics wr)) F).
  Proof.
    intros I. destruct (G_meta _ n topics wr (fi_base _ I)) as (A & D & PW & L). apply grown_inv; [exact I|exact A|rewrite D; apply same_net_refl|rewrite PW; apply incl_refl| |].
    - rewrite L. destruct (meta_object _ _); [apply grows_put|apply grows_refl].
    - intros _ m f w H. rewrite L in H. destruct (meta_object topics (last (f_base F))) as [obj|e] eqn:MO; [|now left].
      apply put_out in H as [H|[-> H]]; [now left|]. destruct (happens_send C 0 depth neg_read frames OK obj wr (ln (f_base F) n)) as ([X0|(f' & w' & _ & _ & PY & X0)] & _ & _); rewrite X0 in H; [now left|].
      apply in_app_iff in H as [H|[H|[]]]; [now left|]. injection H as <- <-. right. eapply rt_meta; eassumption.
  Qed.
  Lemma perform_inv i wr F x : finv F -> finv (perform i wr F x).
  Proof.
    intros I. destruct x as [id h p|id|id e|id ts|id r|id e|id|id]; cbn [Full.perform]; try exact I; try (apply conn_inv; [discriminate|exact I]).
    pose proof (meta_base_inv id ts wr F I) as J. destruct (meta_future ts wr (last (f_base F)) (ln (f_base F) id)) as [f|e] eqn:MF; [|now apply fails_inv].
    destruct J as [A W O R]. constructor; cbn [f_base f_wait f_calls f_ended with_base] in *; auto.
    intros j n f' H. apply in_dset_at in H as [[-> H]|H]; [|exact (W j n f' H)]. injection H as E1 E2. subst n f'.
    unfold meta_future in MF. destruct (meta_object ts (last (f_base F))) as [obj|e] eqn:MO; [|discriminate MF]. cbn [bind] in MF. exists obj. split; [|eauto].
    destruct (G_meta _ id ts wr (fi_base _ I)) as (_ & _ & _ & L). cbv zeta in L; cbn [f_base]; rewrite L, MO, put_same. destruct (happens_send C 0 depth neg_read frames OK obj wr (ln (f_base F) id)) as (_ & X & _). rewrite X, MF. apply in_app_iff. right. now left.
  Qed.
  Lemma performs_inv i wr xs : forall F, finv F -> finv (fold_left (perform i wr) xs F).
  Proof. induction xs as [|x xs IH]; intros F I; [exact I|]. cbn [fold_left]. now apply IH, perform_inv. Qed.

  Lemma perform_grows i wr F x : finv F -> grows (ln (f_base F)) (ln (f_base (perform i wr F x))).
  Proof.
    intros I. assert (CG : forall n ev, (forall rq wr, ev <> Connection.EvSend rq wr) -> grows (ln (f_base F)) (ln (bstep (f_base F) (e_conn n ev)))).
    { intros n ev N. destruct (G_conn _ n ev (fi_base _ I) N) as (_ & _ & _ & L). rewrite L. apply grows_put. }
    destruct x as [id h p|id|id e|id ts|id r|id e|id|id]; cbn [Full.perform]; try apply grows_refl; try (apply CG; discriminate).
    assert (MG : grows (ln (f_base F)) (ln (bstep (f_base F) (e_meta id ts wr)))) by (destruct (G_meta _ id ts wr (fi_base _ I)) as (_ & _ & _ & L); rewrite L; destruct (meta_object _ _); [apply grows_put|apply grows_refl]).
    destruct (meta_future _ _ _ _); exact MG.
  Qed.
  Lemma performs_grows i wr xs : forall F, finv F -> grows (ln (f_base F)) (ln (f_base (fold_left (perform i wr) xs F))).
  Proof. induction xs as [|x xs IH]; intros F I; [apply grows_refl|]. cbn [fold_left]. eapply grows_trans; [now apply perform_grows|]. apply IH. now apply perform_inv. Qed.
  (** the cluster becomes [k] *)
  Lemma becomes_ok i wr k F : finv F -> forall bs calls ended ws, incl ws (f_wait F) -> (hearing (ln (f_base F)) -> incl (k_log (cl (f_base F))) (k_log k)) ->
    (hearing (ln (f_base F)) -> origin (heard (ln (f_base F))) (HS k calls ended)) ->
    let F' := becomes i wr k (Full (f_base F) bs calls ended ws) in finv F' /\ grows (ln (f_base F)) (ln (f_base F')).
  Proof.
    intros [A W O R] bs calls ended ws IW IL OK'. cbv zeta. unfold Full.becomes. cbn [f_base]. destruct (G_cluster _ k A) as (A' & D & L & PW).
    assert (J : finv (with_base (bstep (f_base F) (e_cluster k)) (Full (f_base F) bs calls ended ws))).
    { constructor; cbn [with_base f_base f_wait f_calls f_ended]; rewrite ?D, ?L, ?PW; auto.
      - intros j n f H. cbn [with_base f_base f_wait] in *. rewrite L. exact (W j n f (IW _ H)).
      - intros H n f w X. eapply rt_more; [intros r Y; exact Y|exact (IL H)|apply incl_refl|exact (R H n f w X)]. }
    split; [now apply performs_inv|]. rewrite <- L. exact (performs_grows i wr _ _ J).
  Qed.
  Lemma becomes_inv i wr k F : finv F -> forall bs calls ended ws, incl ws (f_wait F) -> (hearing (ln (f_base F)) -> incl (k_log (cl (f_base F))) (k_log k)) ->
    (hearing (ln (f_base F)) -> origin (heard (ln (f_base F))) (HS k calls ended)) -> finv (becomes i wr k (Full (f_base F) bs calls ended ws)).
  Proof. intros I bs calls ended ws IW IL OK'. now apply becomes_ok. Qed.
  Lemma origin_now F : finv F -> hearing (ln (f_base F)) -> origin (heard (ln (f_base F))) (HS (now F) (f_calls F) (f_ended F)).
  Proof.
    intros I H. destruct (fi_from _ I H) as [O1 O2 O3]. pose proof (same_net_flags (ln (f_base F)) (cl (f_base F))) as S. constructor; cbn [h_k h_calls] in *; [eapply conns_from_same; eassumption|eapply leaders_from_same; eassumption|].
    intros i c X. eapply call_from_same; [|eauto]. reflexivity.
  Qed.
  Lemma origin_ext P k k' lg calls ended : k_conns k' = k_conns k -> k_leaders k' = k_leaders k -> k_log k' = k_log k ++ lg -> origin P (HS k calls ended) -> origin P (HS k' calls ended).
  Proof.
    intros EC EL LG [A B0 D]. constructor; cbn [h_k h_calls] in *.
    - apply (conns_from_ext P k k' lg); [rewrite EC; apply incl_refl|exact LG|exact A].
    - exact (leaders_from_ext P k k' EL B0).
    - intros i c H. apply (call_from_ext P k k' lg); [exact LG|eauto].
  Qed.
  Lemma heal_piece_inv i wr l F ws : finv F -> incl ws (f_wait F) -> (hearing (ln (f_base F)) -> told_to (heard (ln (f_base F))) l) ->
    forall bs, finv (heal_piece i wr l (Full (f_base F) bs (f_calls F) (f_ended F) ws)).
  Proof.
    intros I IW T bs. unfold Full.heal_piece. cbv zeta. cbn [f_base f_boots f_calls f_ended f_wait].
    assert (X : hearing (ln (f_base F)) -> origin (heard (ln (f_base F))) (hstep (HS (now F) (f_calls F) (f_ended F)) l) /\ exists lg, k_log (h_k (hstep (HS (now F) (f_calls F) (f_ended F)) l)) = k_log (cl (f_base F)) ++ lg).
    { intros H. destruct (hstep_from _ _ l (origin_now F I H) (T H)) as (Y & lg & Z0). split; [exact Y|]. exists lg. exact Z0. }
    apply (becomes_inv i wr (h_k (hstep (HS (now F) (f_calls F) (f_ended F)) l)) F I); [exact IW| |].
    - intros H. destruct (X H) as (_ & lg & E0). rewrite E0. apply incl_appl, incl_refl.
    - intros H. destruct (X H) as (Y & _). destruct (hstep _ _) as [k c e]. exact Y.
  Qed.
  Lemma boot_next_inv i hosts k F lg : finv F -> k_conns k = k_conns (now F) -> k_leaders k = k_leaders (now F) -> k_log k = k_log (now F) ++ lg -> finv (boot_next i hosts k F).
  Proof.
    intros I EC EL LG. assert (IL : incl (k_log (cl (f_base F))) (k_log k)) by (rewrite LG; apply incl_appl, incl_refl).
    assert (O : hearing (ln (f_base F)) -> origin (heard (ln (f_base F))) (HS k (f_calls F) (f_ended F))) by (intros H; apply (origin_ext _ (now F) k lg); auto using origin_now).
    assert (B0 : finv (becomes i None k F)) by (destruct F as [b bs cs es ws]; apply (becomes_inv i None k (Full b bs cs es ws) I); [apply incl_refl|auto|exact O]).
    destruct hosts as [|h rest]; cbn [Full.boot_next]; [now apply fails_inv|]. destruct (parse_host h) as [[host port]|e]; [|now apply fails_inv].
    apply (becomes_inv i None (opening host port k) F I); [apply incl_refl| |].
    - intros _. cbn [opening k_log]. now apply incl_appl.
    - intros H. apply (origin_ext _ k _ [XConnect (k_opened k) host port]); [reflexivity|reflexivity|reflexivity|auto].
  Qed.
  (** the response a start() or heal() is resumed with arrived *)
  Lemma meta_answer_heard F i r : finv F -> hearing (ln (f_base F)) -> meta_answer F i = Some (Ok r) -> heard (ln (f_base F)) r.
  Proof.
    intros I H A. unfold Full.meta_answer in A. destruct (dget (f_wait F) i) as [[n f]|] eqn:D; [|discriminate A]. apply dget_In in D. destruct (fi_wait _ I _ _ _ D) as (obj & IO & ts & lst & MO). pose proof (meta_object_api _ _ _ MO) as OA.
    destruct (find _ _) as [[f' o]|] eqn:FD; [|discriminate A]. apply find_some in FD as [FD EF]. cbn [fst] in EF. apply Nat.eqb_eq in EF. subst f'. destruct o as [api corr v|e]; [|discriminate A].
    destruct (metadata_view v) as [r'|] eqn:MV; [|discriminate A]. injection A as ->. pose proof (G_link _ n (fi_base _ I)) as LK. pose proof (lk_inv _ _ _ _ _ _ LK) as CI.
    pose proof (i_d2 _ _ _ _ CI) as GD. rewrite Forall_forall in GD. destruct (GD _ FD) as (obj' & IO' & CO' & AO' & _). cbn [fst] in IO'.
    assert (obj' = obj) as -> by (eapply nodup_fst_eq; [apply (i_nd _ _ _ _ CI)|exact IO'|exact IO]). destruct (lk_reads _ _ _ _ _ _ LK (H n)) as [_ FR]. rewrite Forall_forall in FR. destruct (FR _ FD) as (raw & CM & DE). pose proof (came_in _ _ _ CM) as IR. cbn [snd] in *.
    exists n, f, obj, raw. split; [exact IO|]. split; [eauto|]. split; [rewrite CO'; exact CM|]. apply decodes_iff in DE as (fs & DG & DS). rewrite <- AO', OA in DG. cbn in DG. injection DG as <-. unfold read_metadata, look. now rewrite DS, MV.
  Qed.

  Lemma fstep_inv F ev : finv F -> finv (fstep F ev).
  Proof.
    intros I. pose proof (incl_refl (f_wait F)) as IW. destruct ev as [e|n ev|i hosts|i wr|i alt wr|i r wr|n topics|]; cbn [Full.fstep].
    - destruct (own e) eqn:OE; [|exact I]. destruct (G_own _ e (fi_base _ I) OE) as (A & S & PW & GR). apply grown_inv; auto. intros H n f w X.
      assert (H0 : hearing (ln (f_base F))) by (eapply hearing_less; eassumption). destruct (fi_from _ I H0) as [O1 O2 _]. destruct (rt_own _ _ _ (fi_base _ I) OE O1 O2 n f w X) as [Y|Y]; [now left|right].
      eapply rt_more; [| | |exact Y]; [intros r; now apply heard_more|destruct S as (-> & _); apply incl_refl|apply incl_refl].
    - destruct ev; try exact I; (destruct (Nat.ltb _ _); [apply conn_inv; [discriminate|exact I]|exact I]).
    - destruct (dmem (f_boots F) i || dmem (f_calls F) i); [exact I|]. apply (boot_next_inv _ _ _ _ []); auto. now rewrite app_nil_r.
    - destruct (dmem (f_boots F) i); [exact I|]. pose proof (heal_piece_inv i wr (Heal i None) F _ I IW (fun _ => Logic.I) (f_boots F)) as X. destruct F; exact X.
    - destruct (meta_answer F i) as [r|] eqn:MA; [|exact I]. destruct (dget (f_boots F) i) as [[rest id|id]|] eqn:D; [exact I| |].
      + destruct r as [resp|e].
        * set (k := emit (XClose id) (emit (XAnswer id resp) (now F))). assert (J : finv (becomes i wr k F) /\ grows (ln (f_base F)) (ln (f_base (becomes i wr k F)))).
          { pose proof (becomes_ok i wr k F I (f_boots F) (f_calls F) (f_ended F) (f_wait F) IW) as X. destruct F as [b bs cs es ws]; apply X.
            - intros _ x Y. unfold k. cbn [emit k_log flags Full.now f_base]. apply in_or_app. left. apply in_or_app. now left.
            - intros H. apply (origin_ext _ (now (Full b bs cs es ws)) k [XAnswer id resp; XClose id]); [reflexivity|reflexivity|unfold k; cbn [emit k_log]; now rewrite <- app_assoc|apply (origin_now _ I H)]. }
          destruct J as [J GR]. apply heal_piece_inv; [exact J|intros x Y; eapply in_ddel, Y|]. intros H. cbn [told_to].
          eapply heard_more; [exact GR|]. eapply meta_answer_heard; [exact I|eapply hearing_less; eassumption|exact MA].
        * apply fails_inv. pose proof (becomes_inv i wr (emit (XAskFailed id e) (now F)) F I (f_boots F) (f_calls F) (f_ended F) (f_wait F) IW) as X. destruct F as [b bs cs es ws]; apply X.
          -- intros _ x Y. cbn [emit k_log flags Full.now f_base]. apply in_or_app. now left.
          -- intros H. apply (origin_ext _ (now (Full b bs cs es ws)) _ [XAskFailed id e]); [reflexivity|reflexivity|reflexivity|apply (origin_now _ I H)].
      + apply heal_piece_inv; [exact I|intros x Y; eapply in_ddel, Y|]. intros H. destruct r as [r|e]; cbn [told_to]; [|exact Logic.I]. eapply meta_answer_heard; eassumption.
    - destruct (dget (f_boots F) i) as [[rest id|id]|] eqn:D; [| exact I|].
      + destruct r as [u|e].
        * apply becomes_inv; [exact I|exact IW| |].
          -- intros _ x Y. cbn [emit k_log flags Full.now f_base]. apply in_or_app. left. apply in_or_app. now left.
          -- intros H. apply (origin_ext _ (now F) _ [XConnected id; XAsk id []]); [reflexivity|reflexivity|cbn [emit k_log]; now rewrite <- app_assoc|apply (origin_now _ I H)].
        * apply (boot_next_inv _ _ _ _ [XConnectFailed id e]); auto.
      + pose proof (heal_piece_inv i wr (Connected i r) F _ I IW (fun _ => Logic.I) (f_boots F)) as X. destruct F; exact X.
    - destruct (Connection.c_closing _); [now apply meta_base_inv|exact I].
    - pose proof (heal_piece_inv 0 None Stop F _ I IW (fun _ => Logic.I) (f_boots F)) as X. destruct F; exact X.
  Qed.
  Lemma frun_inv evs : forall F, finv F -> finv (frun evs F).
  Proof. induction evs as [|ev evs IH]; intros F I; [exact I|]. cbn [Full.frun fold_left]. apply IH. now apply fstep_inv. Qed.
  Lemma full_init_inv b : G b -> (forall n, l_out (ln b n) = []) -> k_conns (cl b) = [] -> (forall t p l, ~ leader (cl b) t p l) -> finv (full_init b).
  Proof.
    intros A NO NC NL. constructor; cbn [full_init f_base f_wait f_calls f_ended]; [exact A|intros i n f []| |].
    - intros _. constructor; cbn [h_k h_calls]; [intros x c H; rewrite NC in H; destruct H|now left|intros i c []].
    - intros _ n f w H. rewrite NO in H. destruct H.
  Qed.

  (** the client below goes through a history of its own *)
  Section Below.
    Variable Q : E -> Prop.
    Hypothesis Q_cluster : forall k, Q (e_cluster k).
    Hypothesis Q_conn : forall n ev, Q (e_conn n ev).
    Hypothesis Q_meta : forall n ts wr, Q (e_meta n ts wr).
    Definition below (b b' : B) : Prop := exists es, Forall Q es /\ b' = fold_left bstep es b.
    Lemma below_refl b : below b b.
    Proof. exists []. split; [constructor|reflexivity]. Qed.
    Lemma below_one b e : Q e -> below b (bstep b e).
    Proof. intros H. exists [e]. split; [now constructor|reflexivity]. Qed.
    Lemma below_trans a b c : below a b -> below b c -> below a c.
    Proof. intros (x & A1 & A2) (y & B1 & B2). exists (x ++ y). split; [apply Forall_app; auto|]. now rewrite fold_left_app, <- A2. Qed.
    Lemma perform_below i wr F x : below (f_base F) (f_base (perform i wr F x)).
    Proof. destruct x; cbn [Full.perform]; try apply below_refl; try (apply below_one; auto). destruct (meta_future _ _ _ _); apply below_one; auto. Qed.
    Lemma performs_below i wr xs : forall F, below (f_base F) (f_base (fold_left (perform i wr) xs F)).
    Proof. induction xs as [|x xs IH]; intros F; [apply below_refl|]. cbn [fold_left]. eapply below_trans; [apply perform_below|apply IH]. Qed.
    Lemma becomes_below i wr k F : below (f_base F) (f_base (becomes i wr k F)).
    Proof. unfold Full.becomes. eapply below_trans; [|apply performs_below]. apply below_one. auto. Qed.
    Lemma boot_next_below i hosts k F : below (f_base F) (f_base (boot_next i hosts k F)).
    Proof. destruct hosts as [|h rest]; cbn [Full.boot_next]; [apply becomes_below|]. destruct (parse_host h) as [[host port]|e]; [|apply becomes_below]. refine (becomes_below _ _ _ (Full _ _ _ _ _)). Qed.
    Lemma heal_piece_below i wr l F : below (f_base F) (f_base (heal_piece i wr l F)).
    Proof. unfold Full.heal_piece. refine (becomes_below _ _ _ (Full _ _ _ _ _)). Qed.
    Lemma fstep_below F ev : match ev with FOwn e => own e = true -> Q e | _ => True end -> below (f_base F) (f_base (fstep F ev)).
    Proof.
      destruct ev as [e|n ev|i hosts|i wr|i alt wr|i r wr|n topics|]; intros H; cbn [Full.fstep].
      - destruct (own e); [apply below_one; auto|apply below_refl].
      - destruct ev; try apply below_refl; (destruct (Nat.ltb _ _); [apply below_one; auto|apply below_refl]).
      - destruct (_ || _); [apply below_refl|apply boot_next_below].
      - destruct (dmem _ _); [apply below_refl|apply heal_piece_below].
      - destruct (meta_answer F i) as [r|]; [|apply below_refl]. destruct (dget (f_boots F) i) as [[rest id|id]|]; [apply below_refl| |refine (heal_piece_below _ _ _ (Full _ _ _ _ _))].
        destruct r as [resp|e]; [|apply becomes_below]. eapply below_trans; [apply becomes_below|refine (heal_piece_below _ _ _ (Full _ _ _ _ _))].
      - destruct (dget (f_boots F) i) as [[rest id|id]|]; [|apply below_refl|apply heal_piece_below]. destruct r; [refine (becomes_below _ _ _ (Full _ _ _ _ _))|apply boot_next_below].
      - destruct (Connection.c_closing _); [apply below_one; auto|apply below_refl].
      - apply heal_piece_below.
    Qed.
    Lemma frun_below evs : forall F, Forall (fun ev => match ev with FOwn e => own e = true -> Q e | _ => True end) evs -> below (f_base F) (f_base (frun evs F)).
    Proof. induction evs as [|ev evs IH]; intros F H; [apply below_refl|]. inversion H as [|? ? H1 H2]; subst. cbn [Full.frun fold_left]. eapply below_trans; [apply fstep_below, H1|apply IH, H2]. Qed.
  End Below.
End Full.
