(** start() in a whole client (proof file, over Full.v): how far it is in its list of hosts. *)
From Coq Require Import ZArith String List Bool Lia Sorted.
From Verif Require Import PyBase BaseLemmas Messages Protocol Schemas Request Cluster SpecCluster Heals ResponseRead Stack StackProofs HealOrigin Full FullProofs SpecStart.
From Verif Require Connection PropsCluster.
Import ListNotations.
Open Scope Z_scope.

(** the record of the cluster goes on, connections are only added *)
Definition ext (k k' : cluster) : Prop := (exists lg, k_log k' = k_log k ++ lg) /\ (k_opened k <= k_opened k')%nat.
Lemma ext_refl k : ext k k.
Proof. split; [exists []; now rewrite app_nil_r|lia]. Qed.
Lemma ext_trans a b c : ext a b -> ext b c -> ext a c.
Proof. intros [(x & X) A] [(y & Y) B]. split; [|lia]. exists (x ++ y). now rewrite Y, X, app_assoc. Qed.
Lemma ext_emit x k : ext k (emit x k).
Proof. split; [exists [x]; reflexivity|cbn; lia]. Qed.
Lemma ext_same k k' : k_log k' = k_log k -> k_opened k' = k_opened k -> ext k k'.
Proof. intros A B. split; [exists []; now rewrite app_nil_r|lia]. Qed.
Lemma ext_abort k b : ext k (abort_conn k b).
Proof. unfold abort_conn. destruct (dget (k_conns k) b) as [c|]; [|apply ext_refl]. destruct (cc_closing c); [apply ext_refl|]. split; [exists [XAbort (cc_id c)]; reflexivity|cbn; lia]. Qed.
Lemma ext_abort_all drop : forall k r k', abort_all drop k = (r, k') -> ext k k'.
Proof.
  induction drop as [|b drop IH]; intros k r k'; cbn [abort_all]; [intros [= _ <-]; apply ext_refl|]. destruct (dget (k_conns k) b); [|intros [= _ <-]; apply ext_refl].
  intros H. eapply ext_trans; [apply ext_abort|eapply IH, H].
Qed.
Lemma ext_ask first topics keys bs : forall k, ext k (snd (ask_from first topics keys bs k)).
Proof. induction bs as [|b bs IH]; intros k; cbn [ask_from]; [apply ext_refl|]. destruct (dget (k_conns k) b) as [c|]; [|apply IH]. destruct (cc_closing c); [apply IH|apply ext_emit]. Qed.
Lemma ext_finish missing drop r k : ext k (snd (finish missing drop r k)).
Proof.
  unfold finish. destruct (abort_all drop k) as [[u|e] k1] eqn:E; [|eapply ext_abort_all, E]. apply ext_abort_all in E. unfold process_topics. destruct (fold_left _ _ _) as [[topics leaders] mt].
  eapply ext_trans; [exact E|]. set (k2 := Cl _ _ _ _ _ _). assert (X : ext k1 k2) by (apply ext_same; reflexivity). destruct missing; [destruct mt; [exact X|]|]; (eapply ext_trans; [exact X|]); unfold ask_metadata; apply ext_ask.
Qed.
Lemma ext_brokers bs : forall missing drop r k, ext k (snd (brokers_from bs missing drop r k)).
Proof.
  induction bs as [|b bs IH]; intros missing drop r k; cbn [brokers_from]; [apply ext_finish|]. destruct (dmem (k_conns k) (mb_id b)); [apply IH|].
  split; [exists [XConnect (k_opened k) (mb_host b) (mb_port b)]; reflexivity|cbn; lia].
Qed.
Lemma ext_stop k : ext k (Cluster.stop k) /\ exists lg, k_log (Cluster.stop k) = k_log k ++ lg /\ Forall (fun x => exists id, x = XClose id) lg.
Proof.
  unfold Cluster.stop. assert (H : forall d k, ext k (fold_left (fun k' bc => emit (XClose (cc_id (snd bc))) (set_conns k' (dset (k_conns k') (fst bc) (shut (snd bc))))) d k) /\
    exists lg, k_log (fold_left (fun k' bc => emit (XClose (cc_id (snd bc))) (set_conns k' (dset (k_conns k') (fst bc) (shut (snd bc))))) d k) = k_log k ++ lg /\ Forall (fun x => exists id, x = XClose id) lg); [|apply H].
  clear k. intros d. induction d as [|[b c] d IH]; intros k; cbn [fold_left]; [split; [apply ext_refl|exists []; split; [now rewrite app_nil_r|constructor]]|].
  set (k1 := emit _ _). destruct (IH k1) as [A (lg & L & Q)]. split; [eapply ext_trans; [|exact A]; split; [exists [XClose (cc_id c)]; reflexivity|cbn; lia]|].
  exists (XClose (cc_id c) :: lg). split; [rewrite L; cbn [k1 emit set_conns k_log]; now rewrite <- app_assoc|constructor; eauto].
Qed.
Lemma hcontinue_ext i s k0 nk : ext (h_k s) k0 -> ext k0 (snd nk) -> let s' := hcontinue i s nk in ext (h_k s) (h_k s') /\ incl (h_ended s) (h_ended s').
Proof. intros A B. destruct nk as [[p| |e] k]; cbn in *; (split; [eapply ext_trans; eassumption|]); auto using incl_refl, incl_appl. Qed.
Lemma hstep_ext s l : ext (h_k s) (h_k (hstep s l)) /\ incl (h_ended s) (h_ended (hstep s l)).
Proof.
  assert (ID : ext (h_k s) (h_k s) /\ incl (h_ended s) (h_ended s)) by (split; [apply ext_refl|apply incl_refl]).
  destruct l as [i [r|]|i r alt|i r|id|]; cbn [hstep].
  - destruct (dmem (h_calls s) i); [exact ID|]. apply (hcontinue_ext i s (cull (h_k s))); [apply ext_same; reflexivity|apply ext_brokers].
  - destruct (dmem (h_calls s) i); [exact ID|]. apply (hcontinue_ext i s (h_k s)); [apply ext_refl|apply ext_ask].
  - destruct (dget (h_calls s) i) as [[first topics keys rest id|]|]; [|exact ID|exact ID]. destruct r as [r|e].
    + apply (hcontinue_ext i s (if first then cull (emit (XAnswer id r) (h_k s)) else emit (XAnswer id r) (h_k s))); [|apply ext_brokers]. destruct first; [eapply ext_trans; [apply ext_emit|apply ext_same; reflexivity]|apply ext_emit].
    + apply (hcontinue_ext i s (emit (XAskFailed id e) (h_k s))); [apply ext_emit|]. destruct (skips e); [|apply ext_refl]. destruct (negb _); [apply ext_refl|apply ext_ask].
  - destruct (dget (h_calls s) i) as [[|b rest missing drop id resp]|]; [exact ID| |exact ID]. destruct r as [u|e].
    + apply (hcontinue_ext i s (set_conns (emit (XConnected id) (h_k s)) (dset (k_conns (emit (XConnected id) (h_k s))) (mb_id b) (CC (mb_host b) (mb_port b) id false)))); [|apply ext_brokers]. split; [exists [XConnected id]; reflexivity|cbn; lia].
    + apply (hcontinue_ext i s (emit (XConnectFailed id e) (h_k s))); [apply ext_emit|apply ext_brokers].
  - cbn [h_k h_ended]. split; [apply ext_same; reflexivity|apply incl_refl].
  - cbn [h_k h_ended]. split; [apply ext_stop|apply incl_refl].
Qed.

(** connections that are read stay so *)
Definition wakes (ls ls' : nat -> link) : Prop := forall n, awake (ls n) -> awake (ls' n).
Lemma wakes_refl ls : wakes ls ls.
Proof. intros n H; exact H. Qed.
Lemma wakes_trans a b c : wakes a b -> wakes b c -> wakes a c.
Proof. intros A B n H. apply B, A, H. Qed.

Section Start.
  Context {B E : Type}.
  Variable bstep : B -> E -> B.
  Variable cl : B -> cluster.
  Variable ln : B -> nat -> link.
  Variable last : B -> Z.
  Variable e_cluster : cluster -> E.
  Variable e_conn : nat -> Connection.event -> E.
  Variable e_meta : nat -> list text -> option exn -> E.
  Variable own : E -> bool.
  Notation perform := (perform bstep ln last e_conn e_meta).
  Notation becomes := (becomes bstep cl ln last e_cluster e_conn e_meta).
  Notation heal_piece := (heal_piece bstep cl ln last e_cluster e_conn e_meta).
  Notation boot_next := (boot_next bstep cl ln last e_cluster e_conn e_meta).
  Notation now := (now cl ln).
  Notation meta_answer := (meta_answer ln).
  Notation fstep := (fstep bstep cl ln last e_cluster e_conn e_meta own).
  Notation frun := (frun bstep cl ln last e_cluster e_conn e_meta own).
  Variable G : B -> Prop.
  Hypothesis G_cluster : forall b k, G b -> G (bstep b (e_cluster k)) /\ cl (bstep b (e_cluster k)) = k /\ ln (bstep b (e_cluster k)) = ln b.
  Hypothesis G_conn : forall b n ev, G b -> (forall rq wr, ev <> Connection.EvSend rq wr) ->
    G (bstep b (e_conn n ev)) /\ cl (bstep b (e_conn n ev)) = cl b /\ wakes (ln b) (ln (bstep b (e_conn n ev))) /\ (ev = Connection.EvConnected -> awake (ln (bstep b (e_conn n ev)) n)).
  Hypothesis G_meta : forall b n topics wr, G b -> G (bstep b (e_meta n topics wr)) /\ cl (bstep b (e_meta n topics wr)) = cl b /\ wakes (ln b) (ln (bstep b (e_meta n topics wr))).
  Hypothesis G_own : forall b e, G b -> own e = true -> G (bstep b e) /\ k_log (cl (bstep b e)) = k_log (cl b) /\ k_opened (cl (bstep b e)) = k_opened (cl b) /\ wakes (ln b) (ln (bstep b e)).

  Variable i : Z.
  Definition ok (F : full B) : Prop := G (f_base F) /\ NoDup (dkeys (f_boots F)).
  (** from [F] on nothing is lost *)
  Record later (F F' : full B) : Prop := {
    lt_ok : ok F';
    lt_ext : ext (cl (f_base F)) (cl (f_base F'));
    lt_ended : incl (f_ended F) (f_ended F') }.
  Lemma later_refl F : ok F -> later F F.
  Proof. intros H. constructor; [exact H|apply ext_refl|apply incl_refl]. Qed.
  Lemma later_trans F1 F2 F3 : later F1 F2 -> later F2 F3 -> later F1 F3.
  Proof. intros [A1 A2 A3] [B1 B2 B3]. constructor; [exact B1|eapply ext_trans; eassumption|eapply incl_tran; eassumption]. Qed.
  Definition asks (x : effect) : bool := match x with XAsk _ _ => true | _ => false end.
  (** the place of start() [i] is the same unless it raised *)
  Definition place (j : Z) (a : bool) (F F' : full B) : Prop :=
    (a = false \/ j <> i -> dget (f_boots F') i = dget (f_boots F) i) /\ (dget (f_boots F) i = None -> dget (f_boots F') i = None) /\
    (dget (f_boots F') i = dget (f_boots F) i \/ (dget (f_boots F') i = None /\ exists e, In (i, Err e) (f_ended F'))).
  Lemma place_same j a F F' : dget (f_boots F') i = dget (f_boots F) i -> place j a F F'.
  Proof. intros H. split; [auto|]. split; [congruence|now left]. Qed.
  Lemma place_trans j a b F1 F2 F3 : incl (f_ended F2) (f_ended F3) -> place j a F1 F2 -> place j b F2 F3 -> place j (a || b) F1 F3.
  Proof.
    intros I (A1 & A2 & A3) (B1 & B2 & B3). split; [|split].
    - intros H. rewrite B1, A1; auto; destruct H as [H|H]; auto; apply orb_false_iff in H as [H1 H2]; auto.
    - auto.
    - destruct B3 as [B3|B3]; [|now right]. destruct A3 as [A3|(A3 & e & A4)]; [left; congruence|]. right. split; [congruence|]. exists e. now apply I.
  Qed.
  Lemma fails_ok j e F : ok F -> later F (fails j e F) /\ place j true F (fails j e F) /\ dget (f_boots (fails j e F)) j = None /\ In (j, Err e) (f_ended (fails j e F)).
  Proof.
    intros [H ND]. cbn [fails f_base f_boots f_ended]. split; [constructor; cbn [f_base f_ended]; [split; [exact H|now apply nodup_ddel]|apply ext_refl|apply incl_appl, incl_refl]|].
    split; [|split; [now apply dget_ddel_same|apply in_or_app; right; apply in_eq]]. destruct (Z.eq_dec j i) as [->|N]; [|apply place_same; cbn [fails f_boots]; apply dget_ddel_other; congruence].
    split; [intros [X|N]; [discriminate X|now destruct N]|]. split; [intros _; now apply dget_ddel_same|]. right. split; [now apply dget_ddel_same|]. exists e. cbn [fails f_ended]. apply in_or_app; right; apply in_eq.
  Qed.
  Lemma perform_later j wr F x : ok F -> let F' := perform j wr F x in later F F' /\ cl (f_base F') = cl (f_base F) /\ place j (asks x) F F'.
  Proof.
    intros [H ND]. assert (C : forall n ev, (forall rq wr, ev <> Connection.EvSend rq wr) -> let F' := with_base (bstep (f_base F) (e_conn n ev)) F in later F F' /\ cl (f_base F') = cl (f_base F)).
    { intros n ev N. destruct (G_conn _ n ev H N) as (A1 & A2 & A4 & _). cbn [with_base f_base]. split; [|exact A2]. constructor; [split; [exact A1|exact ND]|cbn [with_base f_base]; rewrite A2; apply ext_refl|apply incl_refl]. }
    assert (I0 : later F F /\ cl (f_base F) = cl (f_base F)) by (split; [now apply later_refl|reflexivity]).
    destruct x as [id h p|id|id e|id ts|id r|id e|id|id]; cbn [Full.perform asks]; cbv zeta; try (match goal with |- later F ?X /\ _ => assert (Q : later F X /\ cl (f_base X) = cl (f_base F)) by (first [exact I0|apply C; discriminate]) end; destruct Q as [Q1 Q2]; split; [exact Q1|]; split; [exact Q2|]; apply place_same; reflexivity).
    destruct (G_meta _ id ts wr H) as (A1 & A2 & A4).
    assert (L : forall ws, later F (Full (bstep (f_base F) (e_meta id ts wr)) (f_boots F) (f_calls F) (f_ended F) ws)) by (intros ws; constructor; [split; [exact A1|exact ND]|cbn [f_base]; rewrite A2; apply ext_refl|apply incl_refl]).
    destruct (meta_future ts wr (last (f_base F)) (ln (f_base F) id)) as [f|e]; [split; [apply L|]; split; [exact A2|apply place_same; reflexivity]|].
    destruct (fails_ok j e (with_base (bstep (f_base F) (e_meta id ts wr)) F)) as (B1 & B2 & _); [split; [exact A1|exact ND]|]. split; [eapply later_trans; [apply (L (f_wait F))|exact B1]|]. split; [exact A2|]. exact B2.
  Qed.
  Lemma performs_later j wr xs : forall F, ok F -> let F' := fold_left (perform j wr) xs F in later F F' /\ cl (f_base F') = cl (f_base F) /\ place j (existsb asks xs) F F'.
  Proof.
    induction xs as [|x xs IH]; intros F H; cbn [fold_left existsb]; [split; [now apply later_refl|]; split; [reflexivity|apply place_same; reflexivity]|].
    destruct (perform_later j wr F x H) as (A1 & A2 & A3). destruct (IH (perform j wr F x) (lt_ok _ _ A1)) as (B1 & B2 & B3). cbv zeta in *.
    split; [eapply later_trans; eassumption|]. split; [congruence|]. eapply place_trans; [exact (lt_ended _ _ B1)|exact A3|exact B3].
  Qed.
  Lemma becomes_later j wr k F lg : ok F -> k_log k = k_log (cl (f_base F)) ++ lg -> (k_opened (cl (f_base F)) <= k_opened k)%nat ->
    let F' := becomes j wr k F in later F F' /\ cl (f_base F') = k /\ place j (existsb asks lg) F F'.
  Proof.
    intros [H ND] L O. cbv zeta. unfold Full.becomes. rewrite L, skipn_app, skipn_all, Nat.sub_diag. cbn [app skipn]. destruct (G_cluster _ k H) as (A1 & A2 & _).
    destruct (performs_later j wr lg (with_base (bstep (f_base F) (e_cluster k)) F)) as (B1 & B2 & B3); [split; [exact A1|exact ND]|]. cbn [with_base f_base] in B2. rewrite A2 in B2. split; [|split; [exact B2|exact B3]].
    eapply later_trans; [|exact B1]. constructor; [split; [exact A1|exact ND]|cbn [with_base f_base]; rewrite A2; split; [exists lg; exact L|exact O]|apply incl_refl].
  Qed.
  Lemma now_ext F : k_log (now F) = k_log (cl (f_base F)) /\ k_opened (now F) = k_opened (cl (f_base F)).
  Proof. split; reflexivity. Qed.
  Lemma heal_piece_later j wr l F : ok F -> let F' := heal_piece j wr l F in later F F' /\ (l = Stop \/ j <> i -> dget (f_boots F') i = dget (f_boots F) i) /\ (dget (f_boots F) i = None -> dget (f_boots F') i = None).
  Proof.
    intros H. cbv zeta. unfold Full.heal_piece. cbv zeta. set (h := hstep _ _). destruct (hstep_ext (HS (now F) (f_calls F) (f_ended F)) l) as [[(lg & L) O] I]. fold h in L, O, I. cbn [h_k h_ended] in L, O, I.
    set (F1 := Full (f_base F) (f_boots F) (h_calls h) (h_ended h) (f_wait F)). assert (H1 : ok F1) by exact H. assert (L1 : later F F1) by (constructor; [exact H|apply ext_refl|exact I]).
    destruct (becomes_later j wr (h_k h) F1 lg H1 L O) as (A1 & A2 & A3 & A4 & A5). split; [eapply later_trans; eassumption|]. split; [|exact A4].
    intros [->|N]; [|apply A3; now right]. apply A3. left. unfold h in L. cbn [hstep h_k] in L. destruct (ext_stop (now F)) as [_ (lg' & L' & Q)]. rewrite L' in L. apply app_inv_head in L. subst lg'.
    clear - Q. induction Q as [|x lg [id ->] Q IH]; [reflexivity|exact IH].
  Qed.
  Variables (n0 : nat) (hosts : list text).
  Definition sinv (F : full B) : Prop := ok F /\ start_stage cl n0 hosts i F /\ match dget (f_boots F) i with Some (BConn _ id) => (id < k_opened (cl (f_base F)))%nat | _ => True end.
  Lemma attempted_more lg lg' h id : incl lg lg' -> attempted lg h id -> attempted lg' h id.
  Proof. intros I (a & p & X & Y). exists a, p. auto. Qed.
  Lemma refused_more lg lg' hs ids : incl lg lg' -> refused lg hs ids -> refused lg' hs ids.
  Proof. intros I [A S]. split; [|exact S]. clear S. induction A as [|h id hs ids [X (e & Y)] A IH]; constructor; auto. split; [eapply attempted_more; eassumption|exists e; auto]. Qed.
  Lemma ext_incl k k' : ext k k' -> incl (k_log k) (k_log k').
  Proof. intros [(lg & ->) _]. apply incl_appl, incl_refl. Qed.
  Lemma sinv_later F F' : sinv F -> later F F' -> dget (f_boots F') i = dget (f_boots F) i -> sinv F'.
  Proof.
    intros (OK & (past & ahead & ids & E0 & R & M & S) & Bd) [A1 A2 A3] D. pose proof (ext_incl _ _ A2) as I. split; [exact A1|]. rewrite D. split.
    - exists past, ahead, ids. split; [exact E0|]. split; [eapply refused_more; eassumption|]. split; [exact M|]. rewrite D. destruct (dget (f_boots F) i) as [[more id|id]|].
      + destruct S as (h & S1 & S2 & S3). exists h. split; [exact S1|]. split; [eapply attempted_more; eassumption|exact S3].
      + destruct S as (h & more & S1 & S2 & S3 & S4). exists h, more. split; [exact S1|]. split; [eapply attempted_more; eassumption|]. auto.
      + destruct S as [(S1 & S2)|(h & more & S1 & S2)]; [left; auto|right]. exists h, more. split; [exact S1|]. destruct S2 as [(e & S2 & S3)|(id & S2 & S3 & S4 & S5 & S6)]; [left; exists e; auto|right].
        exists id. split; [eapply attempted_more; eassumption|]. split; [auto|]. split; [exact S4|]. split; [exact S5|]. destruct S6 as [(e & S6)|(r & S6)]; [left; eauto|right; eauto].
    - destruct (dget (f_boots F) i) as [[more id|id]|]; auto. destruct A2 as [_ A2]. lia.
  Qed.
  (** start() goes to the next host *)
  Lemma boot_next_sinv past ahead ids k lg F : ok F -> hosts = past ++ ahead -> k_log k = k_log (cl (f_base F)) ++ lg -> existsb asks lg = false -> (k_opened (cl (f_base F)) <= k_opened k)%nat ->
    refused (k_log k) past ids -> Forall (fun n => n0 <= n)%nat ids -> Forall (fun n => n < k_opened k)%nat ids -> (n0 <= k_opened k)%nat -> sinv (boot_next i ahead k F).
  Proof.
    intros OKF E0 L NA O R M LT N. destruct (becomes_later i None k F lg OKF L O) as (A1 & A2 & A3). assert (FE : forall e, In (i, Err e) (f_ended (fails i e (becomes i None k F))) /\ dget (f_boots (fails i e (becomes i None k F))) i = None /\ ok (fails i e (becomes i None k F)) /\ cl (f_base (fails i e (becomes i None k F))) = k).
    { intros e. destruct (fails_ok i e (becomes i None k F) (lt_ok _ _ A1)) as (B1 & _ & B3 & B4). split; [exact B4|]. split; [exact B3|]. split; [exact (lt_ok _ _ B1)|exact A2]. }
    destruct ahead as [|h rest]; cbn [Full.boot_next].
    - destruct (FE ENoBrokers) as (X1 & X2 & X3 & X4). split; [exact X3|]. rewrite X2. split; [|exact Logic.I]. exists past, [], ids. split; [exact E0|]. rewrite X4. split; [exact R|]. split; [exact M|]. rewrite X2. left. split; [reflexivity|exact X1].
    - pose proof (PropsCluster.parse_host_spec h) as PH. destruct (parse_host h) as [[host port]|e].
      + set (F1 := Full _ _ _ _ _). assert (OK1 : ok F1) by (split; [exact (proj1 OKF)|cbn; apply nodup_dset, (proj2 OKF)]).
        destruct (becomes_later i None (opening host port k) F1 (lg ++ [XConnect (k_opened k) host port]) OK1) as (B1 & B2 & B3 & _).
        { cbn [opening k_log F1 f_base]. rewrite L. now rewrite app_assoc. } { cbn [opening k_opened F1 f_base]. lia. }
        assert (D : dget (f_boots (becomes i None (opening host port k) F1)) i = Some (BConn rest (k_opened k))) by (rewrite B3; [cbn [F1 f_boots]; apply dget_dset_same|left; rewrite existsb_app, NA; reflexivity]).
        split; [exact (lt_ok _ _ B1)|]. rewrite D. split; [|rewrite B2; cbn [opening k_opened]; lia]. exists past, (h :: rest), ids. split; [exact E0|]. rewrite B2, D. cbn [opening k_log].
        split; [eapply refused_more; [|exact R]; apply incl_appl, incl_refl|]. split; [exact M|]. exists h. split; [reflexivity|]. split; [exists host, port; split; [exact PH|apply in_or_app; right; apply in_eq]|]. auto.
      + destruct (FE e) as (X1 & X2 & X3 & X4). split; [exact X3|]. rewrite X2. split; [|exact Logic.I]. exists past, (h :: rest), ids. split; [exact E0|]. rewrite X4. split; [exact R|]. split; [exact M|]. rewrite X2. right. exists h, rest. split; [reflexivity|]. left. exists e. split; [apply PH|exact X1].
  Qed.
  Lemma sorted_snoc (l : list nat) n : StronglySorted lt l -> Forall (fun x => x < n)%nat l -> StronglySorted lt (l ++ [n]).
  Proof. induction 1 as [|a l S IH A]; intros F; cbn; [repeat constructor|]. inversion F; subst. constructor; [now apply IH|]. apply Forall_app. split; [exact A|now constructor]. Qed.
  Lemma fstep_sinv F ev : sinv F -> not_again i ev -> sinv (fstep F ev).
  Proof.
    intros V NA. pose proof V as (OKF & ST & Bd). pose proof OKF as [HG ND].
    destruct ev as [e|n ev|j hs|j wr|j alt wr|j r wr|n topics|]; cbn [Full.fstep].
    - destruct (own e) eqn:O; [|exact V]. destruct (G_own _ e HG O) as (A1 & A2 & A3 & _). apply (sinv_later F); [exact V| |reflexivity]. constructor; [split; [exact A1|exact ND]|now apply ext_same|apply incl_refl].
    - assert (X : forall ev, (forall rq wr, ev <> Connection.EvSend rq wr) -> sinv (if Nat.ltb n (k_opened (cl (f_base F))) then with_base (bstep (f_base F) (e_conn n ev)) F else F)).
      { intros ev' N. destruct (Nat.ltb _ _); [|exact V]. destruct (G_conn _ n ev' HG N) as (A1 & A2 & _). apply (sinv_later F); [exact V| |reflexivity]. constructor; [split; [exact A1|exact ND]|cbn [with_base f_base]; rewrite A2; apply ext_refl|apply incl_refl]. }
      destruct ev; try exact V; apply X; discriminate.
    - cbn [not_again] in NA. destruct (dmem (f_boots F) j || dmem (f_calls F) j); [exact V|]. destruct hs as [|h rest]; cbn [Full.boot_next].
      + destruct (becomes_later j None (now F) F [] OKF) as (A1 & A2 & A3 & _); [now rewrite app_nil_r|apply Nat.le_refl|]. destruct (fails_ok j ENoBrokers (becomes j None (now F) F) (lt_ok _ _ A1)) as (B1 & (B2 & _) & _).
        apply (sinv_later F); [exact V|eapply later_trans; eassumption|]. rewrite B2, A3; auto.
      + destruct (parse_host h) as [[host port]|e].
        * set (F1 := Full _ _ _ _ _). assert (OK1 : ok F1) by (split; [exact HG|cbn; apply nodup_dset, ND]). destruct (becomes_later j None (opening host port (now F)) F1 [XConnect (k_opened (now F)) host port] OK1) as (B1 & B2 & B3 & _); [reflexivity|cbn; lia|].
          apply (sinv_later F); [exact V|eapply later_trans; [|exact B1]; constructor; [exact OK1|apply ext_refl|apply incl_refl]|]. rewrite B3 by auto. cbn [F1 f_boots]. apply dget_dset_other. congruence.
        * destruct (becomes_later j None (now F) F [] OKF) as (A1 & A2 & A3 & _); [now rewrite app_nil_r|apply Nat.le_refl|]. destruct (fails_ok j e (becomes j None (now F) F) (lt_ok _ _ A1)) as (B1 & (B2 & _) & _).
          apply (sinv_later F); [exact V|eapply later_trans; eassumption|]. rewrite B2, A3; auto.
    - cbn [not_again] in NA. destruct (dmem (f_boots F) j); [exact V|]. destruct (heal_piece_later j wr (Heal j None) F OKF) as (A1 & A2 & _). apply (sinv_later F); [exact V|exact A1|]. apply A2. now right.
    - destruct (meta_answer F j) as [r|] eqn:MA; [|exact V]. destruct (dget (f_boots F) j) as [[more id|id]|] eqn:D; [exact V| |].
      + destruct r as [resp|e].
        * set (F1 := becomes j wr _ F). destruct (becomes_later j wr (emit (XClose id) (emit (XAnswer id resp) (now F))) F [XAnswer id resp; XClose id] OKF) as (A1 & A2 & A3 & _); [cbn; now rewrite <- app_assoc|cbn; lia|]. fold F1 in A1, A2, A3.
          set (F2 := Full (f_base F1) (ddel (f_boots F1) j) (f_calls F1) (f_ended F1) (ddel (f_wait F1) j)). destruct (lt_ok _ _ A1) as [G1 ND1]. assert (OK2 : ok F2) by (split; [exact G1|now apply nodup_ddel]).
          assert (L2 : later F F2) by (eapply later_trans; [exact A1|]; constructor; [exact OK2|apply ext_refl|apply incl_refl]).
          destruct (heal_piece_later j wr (Heal j (Some resp)) F2 OK2) as (C1 & C2 & C3). pose proof (later_trans _ _ _ L2 C1) as L3.
          destruct (Z.eq_dec j i) as [->|N]; [|apply (sinv_later F); [exact V|exact L3|]; rewrite C2 by auto; cbn [F2 f_boots]; rewrite dget_ddel_other by congruence; apply A3; auto].
          assert (D2 : dget (f_boots F2) i = None) by (cbn [F2 f_boots]; now apply dget_ddel_same).
          assert (V2 : sinv F2).
          { destruct ST as (past & ahead & ids & E0 & R & M & S). rewrite D in S. destruct S as (h & more & S1 & S2 & S3 & S4). pose proof (ext_incl _ _ (lt_ext _ _ L2)) as IL.
            split; [exact OK2|]. rewrite D2. split; [|exact Logic.I]. exists past, ahead, ids. split; [exact E0|]. split; [eapply refused_more; eassumption|]. split; [exact M|]. rewrite D2. right. exists h, more. split; [exact S1|]. right. exists id.
            split; [eapply attempted_more; eassumption|]. split; [auto|]. split; [apply S4|]. split; [apply S4|]. right. exists resp. cbn [F2 f_base]. rewrite A2. cbn [emit k_log]. apply in_or_app. left. apply in_or_app. right. apply in_eq. }
          apply (sinv_later F2); [exact V2|exact C1|]. rewrite D2. now apply C3.
        * destruct (becomes_later j wr (emit (XAskFailed id e) (now F)) F [XAskFailed id e] OKF) as (A1 & A2 & A3 & _); [reflexivity|cbn; lia|]. destruct (fails_ok j e _ (lt_ok _ _ A1)) as (B1 & (B2 & _) & B3 & B4). pose proof (later_trans _ _ _ A1 B1) as L3.
          destruct (Z.eq_dec j i) as [->|N]; [|apply (sinv_later F); [exact V|exact L3|]; rewrite B2, A3; auto].
          destruct ST as (past & ahead & ids & E0 & R & M & S). rewrite D in S. destruct S as (h & more & S1 & S2 & S3 & S4). pose proof (ext_incl _ _ (lt_ext _ _ L3)) as IL.
          split; [exact (lt_ok _ _ B1)|]. rewrite B3. split; [|exact Logic.I]. exists past, ahead, ids. split; [exact E0|]. split; [eapply refused_more; eassumption|]. split; [exact M|]. rewrite B3. right. exists h, more. split; [exact S1|]. right. exists id.
          split; [eapply attempted_more; eassumption|]. split; [auto|]. split; [apply S4|]. split; [apply S4|]. left. exists e. exact B4.
      + set (F1 := Full (f_base F) (f_boots F) (f_calls F) (f_ended F) (ddel (f_wait F) j)). assert (OK1 : ok F1) by exact OKF. destruct (heal_piece_later j wr (Answered j r alt) F1 OK1) as (A1 & A2 & A3).
        apply (sinv_later F); [exact V|destruct A1; constructor; assumption|]. destruct (Z.eq_dec j i) as [->|N]; [rewrite A3; [now rewrite D|exact D]|rewrite A2; auto].
    - destruct (dget (f_boots F) j) as [[more id|id]|] eqn:D; [|exact V|].
      + destruct r as [u|e].
        * set (F1 := Full (f_base F) (dset (f_boots F) j (BAsk id)) (f_calls F) (f_ended F) (f_wait F)). assert (OK1 : ok F1) by (split; [exact HG|cbn; apply nodup_dset, ND]).
          assert (L1 : later F F1) by (constructor; [exact OK1|apply ext_refl|apply incl_refl]).
          destruct (becomes_later j wr (emit (XAsk id []) (emit (XConnected id) (now F))) F1 [XConnected id; XAsk id []] OK1) as (B1 & B2 & B3 & B4 & B5); [cbn; now rewrite <- app_assoc|cbn; lia|]. pose proof (later_trans _ _ _ L1 B1) as L3.
          destruct (Z.eq_dec j i) as [->|N]; [|apply (sinv_later F); [exact V|exact L3|]; rewrite B3 by auto; cbn [F1 f_boots]; apply dget_dset_other; congruence].
          cbn [F1 f_boots] in B5. rewrite dget_dset_same in B5. rewrite D in Bd. destruct ST as (past & ahead & ids & E0 & R & M & S). rewrite D in S. destruct S as (h & S1 & S2 & S3). pose proof (ext_incl _ _ (lt_ext _ _ L3)) as IL.
          assert (XC : In (XConnected id) (k_log (cl (f_base (becomes i wr (emit (XAsk id []) (emit (XConnected id) (now F))) F1))))) by (rewrite B2; cbn [emit k_log]; apply in_or_app; left; apply in_or_app; right; apply in_eq).
          destruct B5 as [B5|(B5 & e & B6)]; (split; [exact (lt_ok _ _ B1)|]); rewrite B5; (split; [|exact Logic.I]); exists past, ahead, ids; (split; [exact E0|]); (split; [eapply refused_more; eassumption|]); (split; [exact M|]); rewrite B5.
          -- exists h, more. split; [exact S1|]. split; [eapply attempted_more; eassumption|]. split; [exact XC|exact S3].
          -- right. exists h, more. split; [exact S1|]. right. exists id. split; [eapply attempted_more; eassumption|]. split; [exact XC|]. split; [apply S3|]. split; [apply S3|]. left. eauto.
        * destruct (Z.eq_dec j i) as [->|N].
          -- rewrite D in Bd. destruct ST as (past & ahead & ids & E0 & R & M & S). rewrite D in S. destruct S as (h & S1 & S2 & S3 & S4). subst ahead.
             assert (IL : incl (k_log (cl (f_base F))) (k_log (emit (XConnectFailed id e) (now F)))) by (apply incl_appl, incl_refl).
             apply (boot_next_sinv (past ++ [h]) more (ids ++ [id]) _ [XConnectFailed id e]); [exact OKF|rewrite <- app_assoc; exact E0|reflexivity|reflexivity|cbn; lia| | | |cbn [emit k_opened now Full.now flags]; lia].
             ++ destruct (refused_more _ _ _ _ IL R) as [R1 R2]. split; [|now apply sorted_snoc]. apply Forall2_app; [exact R1|]. constructor; [|constructor]. split; [eapply attempted_more; eassumption|]. exists e. cbn [emit k_log]. apply in_or_app. right. apply in_eq.
             ++ apply Forall_app. split; [exact M|]. constructor; [exact S4|constructor].
             ++ cbn [emit k_opened now Full.now flags]. apply Forall_app. split; [eapply Forall_impl; [|exact S3]; cbn; intros a X; lia|]. constructor; [exact Bd|constructor].
          -- set (k := emit (XConnectFailed id e) (now F)). destruct (becomes_later j None k F [XConnectFailed id e] OKF) as (A1 & A2 & A3 & _); [reflexivity|cbn; lia|]. destruct more as [|h rest]; cbn [Full.boot_next].
             ++ destruct (fails_ok j ENoBrokers (becomes j None k F) (lt_ok _ _ A1)) as (B1 & (B2 & _) & _). apply (sinv_later F); [exact V|eapply later_trans; eassumption|]. rewrite B2, A3; auto.
             ++ destruct (parse_host h) as [[host port]|e'].
                ** set (F1 := Full _ _ _ _ _). assert (OK1 : ok F1) by (split; [exact HG|cbn; apply nodup_dset, ND]). destruct (becomes_later j None (opening host port k) F1 [XConnectFailed id e; XConnect (k_opened k) host port] OK1) as (B1 & B2 & B3 & _); [cbn; now rewrite <- app_assoc|cbn; lia|].
                   apply (sinv_later F); [exact V|eapply later_trans; [|exact B1]; constructor; [exact OK1|apply ext_refl|apply incl_refl]|]. rewrite B3 by auto. cbn [F1 f_boots]. apply dget_dset_other. congruence.
                ** destruct (fails_ok j e' (becomes j None k F) (lt_ok _ _ A1)) as (B1 & (B2 & _) & _). apply (sinv_later F); [exact V|eapply later_trans; eassumption|]. rewrite B2, A3; auto.
      + destruct (heal_piece_later j wr (Connected j r) F OKF) as (A1 & A2 & A3). apply (sinv_later F); [exact V|exact A1|]. destruct (Z.eq_dec j i) as [->|N]; [rewrite A3; [now rewrite D|exact D]|rewrite A2; auto].
    - destruct (Connection.c_closing _); [|exact V]. destruct (G_meta _ n topics None HG) as (A1 & A2 & _). apply (sinv_later F); [exact V| |reflexivity]. constructor; [split; [exact A1|exact ND]|cbn [with_base f_base]; rewrite A2; apply ext_refl|apply incl_refl].
    - destruct (heal_piece_later 0 None Stop F OKF) as (A1 & A2 & _). apply (sinv_later F); [exact V|exact A1|]. apply A2. now left.
  Qed.
  Lemma frun_sinv evs : forall F, sinv F -> Forall (not_again i) evs -> sinv (frun evs F).
  Proof. induction evs as [|ev evs IH]; intros F V NA; [exact V|]. inversion NA; subst. cbn [Full.frun fold_left]. apply IH; [now apply fstep_sinv|assumption]. Qed.
  (** start() is called *)
  Lemma start_sinv F : ok F -> dmem (f_boots F) i = false -> dmem (f_calls F) i = false -> n0 = k_opened (cl (f_base F)) -> sinv (fstep F (FStart i hosts)).
  Proof.
    intros OKF D1 D2 N. cbn [Full.fstep]. rewrite D1, D2. cbn [orb]. apply (boot_next_sinv [] hosts [] (now F) []); auto; [now rewrite app_nil_r|split; constructor|]. subst n0. apply Nat.le_refl.
  Qed.

  (** * every connection that was made is read *)
  Definition listening (F : full B) : Prop := forall n, In (XConnected n) (k_log (cl (f_base F))) -> awake (ln (f_base F) n).
  Lemma perform_awake j wr F x : ok F -> let F' := perform j wr F x in wakes (ln (f_base F)) (ln (f_base F')) /\ (forall n, x = XConnected n -> awake (ln (f_base F') n)).
  Proof.
    intros [H ND]. destruct x as [id h p|id|id e|id ts|id r|id e|id|id]; cbn [Full.perform]; cbv zeta; try (split; [apply wakes_refl|discriminate]).
    - destruct (G_conn _ id Connection.EvConnected H) as (_ & _ & A & A'); [discriminate|]. split; [exact A|]. intros n [= <-]. now apply A'.
    - destruct (G_meta _ id ts wr H) as (_ & _ & A). destruct (meta_future _ _ _ _); (split; [exact A|discriminate]).
    - destruct (G_conn _ id (Connection.EvAbort None) H) as (_ & _ & A & _); [discriminate|]. split; [exact A|discriminate].
    - destruct (G_conn _ id Connection.EvClose H) as (_ & _ & A & _); [discriminate|]. split; [exact A|discriminate].
  Qed.
  Lemma performs_awake j wr xs : forall F, ok F -> let F' := fold_left (perform j wr) xs F in wakes (ln (f_base F)) (ln (f_base F')) /\ (forall n, In (XConnected n) xs -> awake (ln (f_base F') n)).
  Proof.
    induction xs as [|x xs IH]; intros F H; cbn [fold_left]; [split; [apply wakes_refl|intros n []]|]. destruct (perform_later j wr F x H) as (A1 & _). destruct (perform_awake j wr F x H) as [W1 W2]. destruct (IH _ (lt_ok _ _ A1)) as [W3 W4]. cbv zeta in *.
    split; [eapply wakes_trans; eassumption|]. intros n [X|X]; [apply W3, W2, X|now apply W4].
  Qed.
  Lemma becomes_listens j wr k F lg : ok F -> listening F -> k_log k = k_log (cl (f_base F)) ++ lg -> (k_opened (cl (f_base F)) <= k_opened k)%nat -> listening (becomes j wr k F).
  Proof.
    intros OKF LI L O. destruct (becomes_later j wr k F lg OKF L O) as (_ & EK & _). revert EK. cbv zeta. intros EK n X. rewrite EK in X. revert X. unfold Full.becomes. rewrite L, skipn_app, skipn_all, Nat.sub_diag. cbn [app skipn]. destruct OKF as [H ND].
    destruct (G_cluster _ k H) as (A1 & A2 & A3). destruct (performs_awake j wr lg (with_base (bstep (f_base F) (e_cluster k)) F)) as [W1 W2]; [split; [exact A1|exact ND]|]. cbv zeta in W1, W2. cbn [with_base f_base] in W1. rewrite A3 in W1.
    intros X. apply in_app_or in X as [X|X]; [apply W1, LI, X|now apply W2].
  Qed.
  Lemma heal_piece_listens j wr l F : ok F -> listening F -> listening (heal_piece j wr l F).
  Proof.
    intros H LI. unfold Full.heal_piece. cbv zeta. set (h := hstep _ _). destruct (hstep_ext (HS (now F) (f_calls F) (f_ended F)) l) as [[(lg & L) O] I]. fold h in L, O. cbn [h_k] in L, O. now apply (becomes_listens j wr (h_k h) (Full (f_base F) (f_boots F) (h_calls h) (h_ended h) (f_wait F)) lg).
  Qed.
  Lemma boot_next_listens j hs k F lg : ok F -> listening F -> k_log k = k_log (cl (f_base F)) ++ lg -> (k_opened (cl (f_base F)) <= k_opened k)%nat -> ok (boot_next j hs k F) /\ listening (boot_next j hs k F).
  Proof.
    intros OKF LI L O. destruct (becomes_later j None k F lg OKF L O) as (A1 & _). pose proof (becomes_listens j None k F lg OKF LI L O) as LB.
    destruct hs as [|h rest]; cbn [Full.boot_next]; [split; [apply (fails_ok j ENoBrokers _ (lt_ok _ _ A1))|exact LB]|]. destruct (parse_host h) as [[host port]|e]; [|split; [apply (fails_ok j e _ (lt_ok _ _ A1))|exact LB]].
    set (F1 := Full _ _ _ _ _). assert (OK1 : ok F1) by (split; [exact (proj1 OKF)|cbn; apply nodup_dset, (proj2 OKF)]). assert (L1 : k_log (opening host port k) = k_log (cl (f_base F1)) ++ (lg ++ [XConnect (k_opened k) host port])) by (cbn [opening k_log F1 f_base]; rewrite L; now rewrite app_assoc).
    assert (O1 : (k_opened (cl (f_base F1)) <= k_opened (opening host port k))%nat) by (cbn [opening k_opened F1 f_base]; lia).
    split; [apply (lt_ok _ _ (proj1 (becomes_later j None _ F1 _ OK1 L1 O1)))|exact (becomes_listens j None _ F1 _ OK1 LI L1 O1)].
  Qed.
  Lemma fstep_listens F ev : ok F -> listening F -> ok (fstep F ev) /\ listening (fstep F ev).
  Proof.
    intros OKF LI. pose proof OKF as [HG ND]. assert (V : ok F /\ listening F) by auto. assert (HP : forall j wr l, ok (heal_piece j wr l F) /\ listening (heal_piece j wr l F)) by (intros j wr l; split; [apply (lt_ok _ _ (proj1 (heal_piece_later j wr l F OKF)))|now apply heal_piece_listens]).
    destruct ev as [e|n ev|j hs|j wr|j alt wr|j r wr|n topics|]; cbn [Full.fstep].
    - destruct (own e) eqn:O; [|exact V]. destruct (G_own _ e HG O) as (A1 & A2 & A3 & A4). split; [split; [exact A1|exact ND]|]. intros n X. cbn [with_base f_base] in *. rewrite A2 in X. apply A4, LI, X.
    - assert (X : forall ev, (forall rq wr, ev <> Connection.EvSend rq wr) -> let F' := if Nat.ltb n (k_opened (cl (f_base F))) then with_base (bstep (f_base F) (e_conn n ev)) F else F in ok F' /\ listening F').
      { intros ev' N. destruct (Nat.ltb _ _); [|exact V]. destruct (G_conn _ n ev' HG N) as (A1 & A2 & A3 & _). split; [split; [exact A1|exact ND]|]. intros m X. cbn [with_base f_base] in *. rewrite A2 in X. apply A3, LI, X. }
      destruct ev; try exact V; apply X; discriminate.
    - destruct (_ || _); [exact V|]. exact (boot_next_listens j hs (now F) F [] OKF LI (eq_sym (app_nil_r _)) (Nat.le_refl _)).
    - destruct (dmem (f_boots F) j); [exact V|apply HP].
    - destruct (meta_answer F j) as [r|]; [|exact V]. destruct (dget (f_boots F) j) as [[more id|id]|]; [exact V| |].
      + destruct r as [resp|e].
        * set (k := emit (XClose id) _). assert (L : k_log k = k_log (cl (f_base F)) ++ [XAnswer id resp; XClose id]) by (cbn; now rewrite <- app_assoc). assert (O : (k_opened (cl (f_base F)) <= k_opened k)%nat) by (cbn; lia).
          destruct (becomes_later j wr k F _ OKF L O) as (A1 & _). pose proof (becomes_listens j wr k F _ OKF LI L O) as LB. set (F2 := Full _ _ _ _ _). destruct (lt_ok _ _ A1) as [G1 ND1]. assert (OK2 : ok F2) by (split; [exact G1|now apply nodup_ddel]). assert (LI2 : listening F2) by exact LB.
          split; [apply (lt_ok _ _ (proj1 (heal_piece_later j wr (Heal j (Some resp)) F2 OK2)))|now apply heal_piece_listens].
        * set (k := emit (XAskFailed id e) _). assert (L : k_log k = k_log (cl (f_base F)) ++ [XAskFailed id e]) by reflexivity. assert (O : (k_opened (cl (f_base F)) <= k_opened k)%nat) by (cbn; lia).
          destruct (becomes_later j wr k F _ OKF L O) as (A1 & _). split; [apply (fails_ok j e _ (lt_ok _ _ A1))|exact (becomes_listens j wr k F _ OKF LI L O)].
      + set (F1 := Full _ _ _ _ _). assert (OK1 : ok F1) by exact OKF. assert (LI1 : listening F1) by exact LI. split; [apply (lt_ok _ _ (proj1 (heal_piece_later j wr (Answered j r alt) F1 OK1)))|now apply heal_piece_listens].
    - destruct (dget (f_boots F) j) as [[more id|id]|]; [|exact V|apply HP]. destruct r as [u|e].
      + set (F1 := Full _ _ _ _ _). assert (OK1 : ok F1) by (split; [exact HG|cbn; apply nodup_dset, ND]). assert (LI1 : listening F1) by exact LI. set (k := emit (XAsk id []) _). assert (L : k_log k = k_log (cl (f_base F1)) ++ [XConnected id; XAsk id []]) by (cbn; now rewrite <- app_assoc).
        assert (O : (k_opened (cl (f_base F1)) <= k_opened k)%nat) by (cbn; lia). split; [apply (lt_ok _ _ (proj1 (becomes_later j wr k F1 _ OK1 L O)))|exact (becomes_listens j wr k F1 _ OK1 LI1 L O)].
      + exact (boot_next_listens j more (emit (XConnectFailed id e) (now F)) F [XConnectFailed id e] OKF LI eq_refl (Nat.le_refl _)).
    - destruct (Connection.c_closing _); [|exact V]. destruct (G_meta _ n topics None HG) as (A1 & A2 & A3). split; [split; [exact A1|exact ND]|]. intros m X. cbn [with_base f_base] in *. rewrite A2 in X. apply A3, LI, X.
    - apply HP.
  Qed.
  Lemma frun_listens evs : forall F, ok F -> listening F -> ok (frun evs F) /\ listening (frun evs F).
  Proof. induction evs as [|ev evs IH]; intros F V LI; [auto|]. cbn [Full.frun fold_left]. destruct (fstep_listens F ev V LI). now apply IH. Qed.
End Start.

(** what happens on a connection, in particular a send(), does not end the reading *)
Section Awake.
  Variables (C : codec) (depth : nat) (neg_read : Z -> bytes -> bytes * bytes).
  Notation happens := (happens C depth neg_read).
  Definition started (st : Connection.conn) : Prop := Connection.c_phase st <> Connection.PNotStarted.
  Lemma started_abort exc st : started st -> started (Connection.conn_abort exc st).
  Proof. unfold started, Connection.conn_abort. destruct (Connection.c_closing st); auto. Qed.
  Lemma started_error e st : started st -> started (Connection.on_error e st).
  Proof. intros H. unfold Connection.on_error. destruct e; try exact H; now apply started_abort. Qed.
  Lemma started_send rq wr st : started st -> started (snd (Connection.conn_send rq wr st)).
  Proof.
    intros H. unfold Connection.conn_send. destruct (Connection.c_closing st) eqn:CL; [exact H|]. destruct (p <- Connection.rq_payload rq;; framed p) as [bs|e]; [|exact H].
    destruct (Connection.c_closed st); [exact H|]. destruct wr as [e|]; [|exact H]. cbn [snd]. apply started_error. exact H.
  Qed.
  Lemma started_read n st k : started st -> (forall b st', started (k b st')) -> started (Connection.with_read neg_read n st k).
  Proof. intros H K. unfold Connection.with_read. destruct (Connection.read_bytes neg_read n st); [apply K|intros X; discriminate X|exact H]. Qed.
  Lemma started_step ev st : started st -> started (Connection.step C depth neg_read ev st).
  Proof.
    intros H. destruct ev; cbn [Connection.step]; auto using started_send, started_error, started_abort.
    - unfold started in *. destruct (Connection.c_phase st) eqn:P; try (rewrite P; exact H). intros X; discriminate X.
    - destruct (Connection.c_closed st); exact H.
    - unfold Connection.read_step. destruct (Connection.c_phase st) eqn:P; try exact H.
      + destruct (Connection.c_closing st); intros X; discriminate X.
      + apply started_read; [exact H|]. intros b st'. destruct (Connection.unpack_i b); intros X; discriminate X.
      + apply started_read; [exact H|]. intros b st'. destruct (Connection.unpack_i b); intros X; discriminate X.
      + apply started_read; [exact H|]. intros b st'. destruct (dget _ _); [|intros X; discriminate X]. destruct (dget _ _); [|intros X; discriminate X]. destruct (deserialize _ _ _ _); intros X; discriminate X.
      + destruct (dget _ _); intros X; discriminate X.
      + intros X; discriminate X.
  Qed.
  Lemma awake_happens ev l : awake l -> awake (happens ev l).
  Proof. apply started_step. Qed.
  Lemma wakes_put n ev ls : wakes ls (put n (happens ev (ls n)) ls).
  Proof. intros m H. unfold put. destruct (Nat.eqb m n) eqn:E0; [|exact H]. apply Nat.eqb_eq in E0. subst m. now apply awake_happens. Qed.
  Lemma awake_connected n ls : awake (put n (happens Connection.EvConnected (ls n)) ls n).
  Proof. unfold put. rewrite Nat.eqb_refl. unfold awake. cbn [Stack.happens l_conn Connection.step]. destruct (Connection.c_phase (l_conn (ls n))) eqn:P; try (rewrite P; discriminate); discriminate. Qed.
End Awake.
