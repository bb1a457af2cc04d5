(** When topics are fetched: only after their offsets were looked up. *)
From Coq Require Import ZArith String List Bool Lia Permutation.
From Verif Require Import PyBase BaseLemmas Constants Cluster Zookeeper SpecZk ZkProofs ZkAlloc Consumer SpecConsumer ConsumerProofs ConsumerSteps ConsumerRuns.
Import ListNotations.
Open Scope Z_scope.
Set Default Proof Using "Type".

Section Sync.
  Context {V : Type}.
  Variable cfg : config V.
  Notation st := (consumer V).

  (** ** after the fetch there are only commits *)
  Definition late (k : cont V) : Prop := match k with KFetch _ | KCommit _ _ => True | _ => False end.
  Definition late_pc (p : pc V) : Prop := match p with PSend k _ _ | PHeal k _ => late k | PTopicHeal _ => False end.
  Record winds (s : st) (ns : next V * st) : Prop := {
    w_synced : c_synced (snd ns) = c_synced s;
    w_wire : exists ex, c_wire (snd ns) = c_wire s ++ ex /\ forall b rq, In (b, rq) ex -> is_commit rq;
    w_next : forall p, fst ns = Await p -> late_pc p }.
  Lemma winds_refl s n : (forall p, n = Await p -> late_pc p) -> winds s (n, s).
  Proof. intros H. constructor; auto. exists []. split; [now rewrite app_nil_r|intros b rq []]. Qed.
  Lemma commit_winds m ret s : winds s (commit_offsets cfg m ret s).
  Proof.
    destruct (commit_offsets_spec cfg m ret s) as (ex & Q & D). pose proof (quietw_moves cfg false OpCoordinator _ _ _ Q) as MV. constructor.
    - destruct (p_synced _ _ _ _ _ _ MV) as [H|(H & _)]; [exact H|discriminate H].
    - exists ex. split; [apply (p_wire _ _ _ _ _ _ MV)|]. destruct D as [(e & _ & ->)|(g & fn & ac & name & b & am & _ & _ & _ & _ & ->)]; [intros b rq []|]. destruct (open_conn s b); intros b' rq [H|[]] || intros b' rq []. injection H as _ <-. eexists _, _. reflexivity.
    - intros p H. destruct D as [(e & D & _)|(g & fn & ac & name & b & am & _ & _ & _ & D & _)]; rewrite H in D; [discriminate D|]. injection D as ->. exact I.
  Qed.
  Lemma base_done_winds t v s : winds s (base_done cfg t v s).
  Proof.
    unfold base_done. destruct (md cfg) as [|g fn [|] name]; [apply winds_refl; discriminate| |]; (destruct (negb (smem (c_synced s) t)); [apply winds_refl; discriminate|]).
    - destruct (commit_winds None v (set_tocommit (sadd (c_tocommit s) t) s)) as [A B C]. constructor; auto.
    - constructor; auto; [exists []; split; [cbn; now rewrite app_nil_r|intros b rq []]|discriminate].
  Qed.
  Lemma resume_winds k rs s : late k -> winds s (resume cfg k rs s).
  Proof.
    destruct k as [t rq|t|m ret|a r]; intros L; try contradiction; cbn [resume]; [apply base_done_winds|].
    destruct (coord_result rs s) as [[|l|b|[|] b]|e]; try (apply winds_refl; discriminate). apply commit_winds.
  Qed.
  Lemma send_end_winds k rs s : late k -> winds s (send_end cfg k rs s).
  Proof. intros L. unfold send_end. destruct (c_heal s); [apply winds_refl; intros p H; injection H as <-; exact L|now apply resume_winds]. Qed.
  Lemma raised_winds k e s : late k -> winds s (raised cfg k e s).
  Proof. destruct k; intros L; try contradiction; apply winds_refl; discriminate. Qed.

  (** ** a lookup is begun *)
  Definition begins (s : st) (t : text) (ns : next V * st) : Prop :=
    c_synced (snd ns) = c_synced s /\ (exists ex, c_wire (snd ns) = c_wire s ++ ex /\ forall b rq, In (b, rq) ex -> is_lookup t rq) /\
    match fst ns with
    | Await (PSend (KOffsets t' rq0) w rs) => t' = t /\ rs = [] /\ exists b rq, dget w b = Some rq /\ is_lookup t rq
    | Await _ => False
    | _ => True
    end.
  Lemma determine_begins t start (s : st) : alloc_of cfg s t <> [] -> begins s t (determine_offsets cfg t start s).
  Proof.
    intros A. unfold determine_offsets. destruct (alloc_index_spec cfg t s) as [Q1 A1]. destruct (md cfg) as [|g fn ac name] eqn:M.
    - assert (E0 : forall e s', quiet cfg s s' -> begins s t (Raise_ e, s')) by (intros e s' Q; split; [apply Q|]; split; [exists []; split; [rewrite app_nil_r; apply Q|intros b rq []]|exact I]).
      destruct (alloc_index cfg t s) as [[ps|e] s1]; cbn [fst snd] in *; [|now apply E0].
      set (time := start_to_timestamp cfg _). pose proof (offset_requests_quiet cfg t time ps [] s1) as Q2. pose proof (offset_requests_spec cfg t time ps s1) as L.
      destruct (offset_requests t time ps [] s1) as [[rqs|e] s2]; cbn [fst snd] in *; [|apply E0; eapply quiet_trans; eassumption].
      specialize (L rqs eq_refl). specialize (A1 ps eq_refl). rewrite (q_alloc _ _ _ Q1) in L. specialize (L (eq_sym A1)). pose proof (quiet_trans cfg _ _ _ Q1 Q2) as Q12.
      destruct L as (ND & PE & AS). destruct (send_all_spec cfg rqs s2) as (pre & post & R & E & C). destruct (send_all cfg rqs s2) as [r3 s3]. cbn [fst snd] in *. subst s3.
      assert (IL : forall b rq, In (b, rq) rqs -> is_lookup t rq) by (intros b rq H; destruct (AS b rq H) as (parts & _ & -> & _); left; eauto).
      assert (W : exists ex, c_wire (set_wire (c_wire s2 ++ filter (fun br => open_conn s2 (fst br)) pre) s2) = c_wire s ++ ex /\ forall b rq, In (b, rq) ex -> is_lookup t rq).
      { eexists. cbn [set_wire c_wire]. rewrite (q_wire _ _ _ Q12). split; [reflexivity|]. intros b rq H. apply filter_In in H as [H _]. apply (IL b). rewrite R. apply in_app_iff. now left. }
      destruct r3 as [[]|e].
      + destruct rqs as [|[b rq] rqs].
        * exfalso. cbn in PE. apply Permutation_nil in PE. rewrite (q_alloc _ _ _ Q12) in PE. now apply A.
        * split; [apply Q12|]. split; [exact W|]. cbn [fst]. split; [reflexivity|]. split; [reflexivity|]. exists b, rq. split; [cbn; now rewrite Z.eqb_refl|apply (IL b); now left].
      + split; [apply Q12|]. split; [exact W|exact I].
    - destruct (alloc_index cfg t s) as [[ps|e] s1]; cbn [fst snd] in *.
      2: { split; [apply Q1|]. split; [exists []; split; [rewrite app_nil_r; apply Q1|intros b rq []]|exact I]. }
      cbv zeta. destruct (send_one_spec cfg (KOffsets t (Some (ROffsetFetch g t ps))) (c_coord s1) (ROffsetFetch g t ps) s1) as (ex & Q & C & _ & D). destruct (send_one cfg _ _ _ s1) as [n s']. cbn [fst snd] in *.
      pose proof (quiet_quietw cfg _ _ _ _ Q1 Q) as QW. pose proof (quietw_moves cfg false OpCoordinator _ _ _ QW) as MV.
      split; [destruct (p_synced _ _ _ _ _ _ MV) as [H|(H & _)]; [exact H|discriminate H]|]. split.
      + exists ex. split; [apply (p_wire _ _ _ _ _ _ MV)|]. intros b rq H. right. destruct D as [(e & _ & ->)|(b' & _ & _ & ->)]; [destruct H|]. destruct (open_conn s1 b'); [|destruct H]. destruct H as [H|[]]. injection H as _ <-. eauto.
      + destruct D as [(e & -> & _)|(b' & _ & -> & _)]; [exact I|]. split; [reflexivity|]. split; [reflexivity|]. exists b', (ROffsetFetch g t ps). split; [cbn; now rewrite Z.eqb_refl|right; eauto].
  Qed.
  Lemma raised_quiet t e (s : st) : ~ In t (c_synced s) -> exists n, raised cfg (KOffsets t None) e s = (n, s) /\ forall p, n <> Await p.
  Proof.
    intros N. unfold raised. destruct e; try (eexists; split; [reflexivity|discriminate]). unfold base_done. assert (E : smem (c_synced s) t = false) by (destruct (smem (c_synced s) t) eqn:E; [apply smem_In in E; contradiction|reflexivity]). rewrite E. cbn [negb].
    destruct (md cfg) as [|g fn ac name]; eexists; split; try reflexivity; discriminate.
  Qed.
  Lemma consume_begins t start (s : st) : ~ In t (c_synced s) -> alloc_of cfg s t <> [] -> begins s t (consume cfg t start s).
  Proof.
    intros N A. assert (E : smem (c_synced s) t = false) by (destruct (smem (c_synced s) t) eqn:E; [apply smem_In in E; contradiction|reflexivity]).
    unfold consume. rewrite E. assert (R0 : forall v, begins s t (Return v, s)) by (intros v; split; [reflexivity|]; split; [exists []; split; [now rewrite app_nil_r|intros b rq []]|exact I]).
    destruct (c_closing s); [unfold base_done; rewrite E; cbn [negb]; destruct (md cfg); apply R0|].
    set (start' := match md cfg with Single => start | _ => None end). pose proof (determine_begins t start' s A) as (B1 & B2 & B3). destruct (determine_offsets cfg t start' s) as [n s1]. cbn [fst snd] in *. destruct n as [p|v|e]; try (split; [exact B1|]; split; [exact B2|exact B3]).
    assert (N1 : ~ In t (c_synced s1)) by now rewrite B1. destruct (raised_quiet t e s1 N1) as (n & -> & NA). split; [exact B1|]. split; [exact B2|]. cbn [fst]. destruct n as [p|v|e']; [now destruct (NA p)|exact I..].
  Qed.

  (** ** a topic whose offsets are not known *)
  Definition forgotten (t : text) (s : st) : Prop := ~ In t (c_synced s) /\ forall j o p, dget (c_calls s) j = Some (o, p) -> on_topic t o -> late_pc p.
  Definition no_fetch (t : text) (rqs : list (Z * request)) : Prop := forall b rq, In (b, rq) rqs -> ~ is_fetch t rq.
  Lemma forgotten_continue t s s1 i o ns : inv cfg s -> forgotten t s -> c_calls s1 = c_calls s -> c_calls (snd ns) = c_calls s1 -> ~ In t (c_synced (snd ns)) -> (on_topic t o -> forall p, fst ns = Await p -> late_pc p) -> forgotten t (continue i o ns).
  Proof.
    intros I0 [_ F] C1 C2 NS W. destruct (continue_same i o ns) as (_ & SY & _). split; [now rewrite SY|]. intros j o' p H T.
    assert (N' : NoDup (dkeys (c_calls (snd ns)))) by (rewrite C2, C1; apply I0). destruct (continue_calls i o ns j N') as [_ CC]. rewrite CC in H. destruct (j =? i); [|rewrite C2, C1 in H; eapply F; eassumption].
    destruct (fst ns) as [p'|v|e] eqn:FN; try discriminate H. injection H as <- <-. now apply W.
  Qed.
  Lemma other_topic t o look s1 ns ex : moves cfg look o ex s1 (snd ns) -> sends cfg o look (snd ns) (fst ns) ex -> ~ on_topic t o -> ~ In t (c_synced s1) -> ~ In t (c_synced (snd ns)) /\ no_fetch t ex.
  Proof.
    intros M S NT N. split.
    - destruct (p_synced _ _ _ _ _ _ M) as [->|(_ & t' & start & -> & ->)]; [exact N|]. intros H. apply in_sadd in H as [H|H]; [|contradiction]. apply NT. cbn. congruence.
    - intros b rq H (r & mw & mb & parts & ->). destruct S as [|t' start rqs pre post -> FE RE D ex X|t' start rqs pre post _ _ -> L RE D ex X|t' start b0 g fn ac name ps _ _ _ _ _ _|m ret b0 g fn ac name am _ _ _ _ _ _ _|b0 rest g fn ac name _ _ _ _].
      + destruct H.
      + subst ex. apply filter_In in H as [H _]. assert (HR : In (b, RFetch r mw mb t parts) rqs) by (rewrite RE; apply in_app_iff; now left). destruct FE as (_ & _ & _ & FE). destruct (FE _ _ HR) as (parts' & _ & E & _). injection E as _ _ _ E _. apply NT. cbn. congruence.
      + subst ex. apply filter_In in H as [H _]. assert (HR : In (b, RFetch r mw mb t parts) rqs) by (rewrite RE; apply in_app_iff; now left). destruct L as (_ & _ & L). destruct (L _ _ HR) as (parts' & _ & E & _). discriminate E.
      + destruct H as [H|[]]. discriminate H.
      + destruct H as [H|[]]. discriminate H.
      + destruct H as [H|[]]. discriminate H.
  Qed.
  Lemma late_topic t o look s1 ns : winds s1 ns -> ~ In t (c_synced s1) -> forall ex, moves cfg look o ex s1 (snd ns) -> ~ In t (c_synced (snd ns)) /\ no_fetch t ex.
  Proof.
    intros [WS (ex' & WW & WC) _] N ex M. split; [now rewrite WS|]. rewrite (p_wire _ _ _ _ _ _ M) in WW. apply app_inv_head in WW. subst ex'. intros b rq H (r & mw & mb & parts & ->). destruct (WC b _ H) as (g & ts & E). discriminate E.
  Qed.
  Lemma on_topic_dec t o : on_topic t o \/ ~ on_topic t o.
  Proof. destruct o as [t' start|m|]; cbn; auto. destruct (eqb_dec t' t); auto. Qed.
  Lemma answer_synced r (s : st) x : In x (c_synced (answer_state cfg r s)) -> In x (c_synced s).
  Proof. destruct r as [resp|e]; cbn [answer_state]; [apply handle_handled|destruct (sets_heal e); auto]. Qed.
  Lemma forgotten_step t s l : inv cfg s -> forgotten t s -> (forall i start, l = Call i (OpConsume t start) -> alloc_of cfg s t <> []) ->
    no_fetch t (sent cfg s l) /\ (forgotten t (cstep cfg s l) \/ exists j b rq, waits_for (cstep cfg s l) j b rq /\ is_lookup t rq).
  Proof.
    intros I0 F A. pose proof (cstep_did cfg s l I0) as D.
    assert (WI : forall ex, c_wire (cstep cfg s l) = c_wire s ++ ex -> sent cfg s l = ex) by (intros; now apply sent_eq).
    remember (cstep cfg s l) as s' eqn:EQ. remember (sent cfg s l) as ex0 eqn:EX0. clear EX0.
    assert (NF0 : no_fetch t []) by (intros b rq []).
    assert (AR : forall o i s1 ns ex look, c_calls s1 = c_calls s -> c_wire s1 = c_wire s -> ~ In t (c_synced s1) -> moves cfg look o ex s1 (snd ns) -> sends cfg o look (snd ns) (fst ns) ex ->
      (on_topic t o -> winds s1 ns) -> s' = continue i o ns -> no_fetch t ex0 /\ forgotten t s').
    { intros o i s1 ns ex look C1 W1 N1 M S WI' ->. assert (E : ex0 = ex) by (apply WI; destruct (continue_same i o ns) as (_ & _ & _ & _ & _ & _ & _ & _ & ->); rewrite (p_wire _ _ _ _ _ _ M), W1; reflexivity). subst ex.
      destruct (on_topic_dec t o) as [T|T].
      - destruct (late_topic t o look s1 ns (WI' T) N1 ex0 M) as [N2 NF]. split; [exact NF|]. eapply (forgotten_continue t s s1); eauto; [apply M|]. intros _. apply (WI' T).
      - destruct (other_topic t o look s1 ns ex0 M S T N1) as [N2 NF]. split; [exact NF|]. eapply (forgotten_continue t s s1); eauto; [apply M|]. contradiction. }
    destruct D as [l ID|i o ns D E P|i b r o k w rs rq D FI W IA HF NE F'|i b r o k w rs rq ns D FI W IA E P|i r o k rs s1 ns D FI E P|i r t' start ns D E P|k|g fn ac name ev M|].
    - rewrite (WI []) by now rewrite app_nil_r. auto.
    - destruct (on_topic_dec t o) as [T|T].
      + destruct o as [t' start|m|]; try contradiction. cbn in T. subst t'. cbn [begin] in E. subst ns. destruct (consume_begins t start s (proj1 F) (A i start eq_refl)) as (B1 & (ex & B2 & B3) & B4).
        pose proof P as [(ex' & M & _) _ _ _]. destruct (continue_same i (OpConsume t start) (consume cfg t start s)) as (_ & _ & _ & _ & _ & _ & _ & _ & CW).
        assert (E : ex0 = ex) by (apply WI; rewrite CW; exact B2). subst ex. split.
        * intros b rq H (r & mw & mb & parts & ->). destruct (B3 b _ H) as [(? & ? & X)|(? & ? & X)]; discriminate X.
        * destruct (fst (consume cfg t start s)) as [p|v|e] eqn:FN.
          -- right. destruct p as [[t' rq0|t'|m ret|a r] w rs|k rs|t']; try contradiction. destruct B4 as (-> & -> & b & rq & DW & IL). exists i, b, rq. split; [|exact IL].
             assert (N' : NoDup (dkeys (c_calls (snd (consume cfg t start s))))) by (rewrite (p_calls _ _ _ _ _ _ M); apply I0). destruct (continue_calls i (OpConsume t start) (consume cfg t start s) i N') as [_ CC]. rewrite Z.eqb_refl, FN in CC. eexists _, _, _, _. split; [exact CC|exact DW].
          -- left. eapply (forgotten_continue t s s); eauto; [apply M|rewrite B1; apply F|]. rewrite FN. discriminate.
          -- left. eapply (forgotten_continue t s s); eauto; [apply M|rewrite B1; apply F|]. rewrite FN. discriminate.
      + destruct P as [(ex & M & S) _ _ _]. destruct (AR o i s ns ex true eq_refl eq_refl (proj1 F) M S (fun H => False_ind _ (T H)) eq_refl). auto.
    - destruct (answer_state_same cfg r s) as (C1 & _ & _ & _ & _ & W1). destruct (AR o i (answer_state cfg r s) (Await (PSend k (ddel w b) (answer_results cfg b r rs s)), answer_state cfg r s) [] false C1 W1) as [R1 R2]; auto; [intros H; apply answer_synced in H; now apply F|apply moves_refl|apply S_none|].
      intros T. apply winds_refl. intros p H. injection H as <-. exact (proj2 F _ _ _ D T).
    - destruct (answer_state_same cfg r s) as (C1 & _ & _ & _ & _ & W1). destruct (paid_some cfg k rs) as [lv PD]. destruct (P lv PD) as [(ex & M & S) _ _ _].
      destruct (AR o i (answer_state cfg r s) ns ex (look_of k) C1 W1) as [R1 R2]; auto; [intros H; apply answer_synced in H; now apply F|].
      intros T. pose proof (proj2 F _ _ _ D T) as L. cbn in L. destruct E as [(_ & _ & ->)|(e & _ & ->)]; [now apply send_end_winds|now apply raised_winds].
    - destruct (paid_some cfg k rs) as [lv PD]. destruct (P lv PD) as [(ex & M & S) _ _ _].
      assert (S1 : s1 = s \/ s1 = set_heal false s) by (destruct E as [(u & _ & -> & _)|(e & _ & -> & _)]; auto).
      destruct (AR o i s1 ns ex (look_of k)) as [R1 R2]; auto; try (destruct S1 as [->| ->]; (reflexivity || apply F)).
      intros T. pose proof (proj2 F _ _ _ D T) as L. cbn in L. destruct E as [(u & _ & _ & ->)|(e & _ & _ & ->)]; [now apply resume_winds|now apply raised_winds].
    - destruct P as [(ex & M & S) _ _ _]. destruct (AR (OpConsume t' start) i s ns ex false) as [R1 R2]; auto; [apply F|]. intros T. destruct (proj2 F _ _ _ D T).
    - rewrite (WI []) by now rewrite app_nil_r. split; [exact NF0|]. left. exact F.
    - rewrite (WI []) by (cbn; now rewrite app_nil_r). split; [exact NF0|]. left. split; [|apply F]. cbn. destruct (_ =? _); [apply F|intros []].
    - rewrite (WI []) by now rewrite app_nil_r. split; [exact NF0|]. left. exact F.
  Qed.
  Lemma forgotten_run t ls : forall s, inv cfg s -> forgotten t s ->
    each_step cfg (fun s l => forall i start, l = Call i (OpConsume t start) -> alloc_of cfg s t <> []) ls s ->
    forgotten t (crun cfg ls s) \/ exists ls1 ls2 j b rq, ls = ls1 ++ ls2 /\ waits_for (crun cfg ls1 s) j b rq /\ is_lookup t rq.
  Proof.
    induction ls as [|l ls IH]; intros s I0 F E; [left; exact F|]. destruct E as [E1 E2]. destruct (forgotten_step t s l I0 F E1) as [_ [F'|(j & b & rq & W & IL)]].
    - destruct (IH _ (inv_step cfg s l I0) F' E2) as [F2|(ls1 & ls2 & j & b & rq & -> & W & IL)]; [left; exact F2|]. right. exists (l :: ls1), ls2, j, b, rq. auto.
    - right. exists [l], ls, j, b, rq. auto.
  Qed.

  (** ** a topic whose offsets are known *)
  Definition forgets (t : text) (l : label) : Prop :=
    match l with
    | Arrive _ _ (Ok (PFetch ((t', parts) :: _))) => t' = t /\ out_of_range_in parts
    | Arrive _ _ (Ok (POffset ((t', parts) :: _))) => t' = t /\ exists p code offs, In (p, (code, offs)) parts /\ is_retriable code = true
    | Alloc _ => True
    | _ => False
    end.
  Lemma offset_keeps t parts : forall s : st, ~ (exists p code offs, In (p, (code, offs)) parts /\ is_retriable code = true) -> c_synced (snd (handle_offset_parts t parts s)) = c_synced s.
  Proof.
    induction parts as [|[p [code offs]] parts IH]; intros s N; [reflexivity|]. assert (N' : ~ (exists p code offs, In (p, (code, offs)) parts /\ is_retriable code = true)) by (intros (p' & c' & o' & H & H'); apply N; exists p', c', o'; split; [now right|exact H']).
    cbn [handle_offset_parts]. destruct (code =? no_error).
    - destruct offs as [|o offs]; [reflexivity|]. rewrite IH by exact N'. destruct (0 <=? o); [|reflexivity]. destruct (offset_set_spec t p o s) as (_ & _ & x & ->). reflexivity.
    - destruct (is_retriable code) eqn:R; [exfalso; apply N; exists p, code, offs; split; [now left|exact R]|]. destruct (error_name code); reflexivity.
  Qed.
  Lemma handle_keeps t r (s : st) : (forall i b, ~ forgets t (Arrive i b (Ok r))) -> In t (c_synced s) -> In t (c_synced (snd (handle cfg r s))).
  Proof.
    intros N H. specialize (N 0 0). destruct (handle_handled cfg r s) as [_ _ _ _ _ _ _ _ _ SO _ _ _]. destruct (named r) as [x|] eqn:NM; [|apply SO; [discriminate|exact H]]. destruct (eqb_dec x t) as [->|NE]; [|apply SO; [congruence|exact H]]. clear SO.
    destruct r as [[|[t' parts] ts]|[|[t' parts] ts]|[|[t' parts] ts]|ts|code id]; cbn in NM; try discriminate NM; injection NM as ->; cbn [handle].
    - destruct (handle_fetch_spec cfg t parts s) as (done & rest & PE & _ & _ & SY & _). cbn in N. destruct (handle_fetch_parts cfg t parts s) as [[vs|e] s1]; cbn [snd] in *; apply SY; (split; [exact H|]); intros (_ & p & ms & HI); apply N; (split; [reflexivity|]); exists p, ms; rewrite PE; apply in_app_iff; now left.
    - cbn in N. pose proof (offset_keeps t parts s) as K. destruct (handle_offset_parts t parts s) as [[u|e] s1]; cbn [snd] in *; (rewrite K; [exact H|]); intros X; apply N; auto.
    - assert (K : forall b (s : st), c_synced (snd (handle_ofetch_parts t parts b s)) = c_synced s).
      { clear. induction parts as [|[p [code o]] parts IH]; intros b s; [reflexivity|]. cbn [handle_ofetch_parts]. destruct (code =? no_error); [rewrite IH; destruct (offset_set_spec t p o s) as (_ & _ & x & ->); reflexivity|]. destruct (code =? offsets_load_in_progress); [apply IH|]. destruct (is_retriable code); [now rewrite IH|]. destruct (error_name code); reflexivity. }
      specialize (K false s). destruct (handle_ofetch_parts t parts false s) as [[u|e] s1]; cbn [snd] in *; now rewrite K.
  Qed.
  Lemma known_step t s l : inv cfg s -> In t (c_synced s) -> ~ forgets t l -> In t (c_synced (cstep cfg s l)).
  Proof.
    intros I0 H N. destruct (step_cases cfg s l I0) as [(i & o & look & s1 & ns & ex & A)|C].
    - destruct A as [E M _ _ FR]. rewrite E. destruct (continue_same i o ns) as (_ & -> & _).
      assert (H1 : In t (c_synced s1)).
      { destruct FR as [(_ & _ & -> & _)|[(b & r & k & w & rs & rq & -> & _ & _ & _ & -> & _)|[(r & k & rs & _ & _ & [->| ->] & _)|(r & t' & _ & _ & -> & _)]]]; try exact H. destruct r as [resp|e]; cbn [answer_state]; [|destruct (sets_heal e); exact H].
        apply handle_keeps; [|exact H]. intros i' b'. exact N. }
      destruct (p_synced _ _ _ _ _ _ M) as [->|(_ & t' & start & _ & ->)]; [exact H1|]. apply in_sadd. now right.
    - destruct C as [(-> & _)|[(k & _ & ->)|[(_ & ->)|(g & fn & ac & name & ev & _ & -> & _)]]]; try exact H. destruct N. exact I.
  Qed.
  Lemma known_run t ls : forall s, inv cfg s -> In t (c_synced s) -> each_step cfg (fun _ l => ~ forgets t l) ls s -> In t (c_synced (crun cfg ls s)).
  Proof. induction ls as [|l ls IH]; intros s I0 H E; [exact H|]. destruct E as [E1 E2]. apply IH; [now apply inv_step| |exact E2]. now apply known_step. Qed.

  (** what is sent once offsets are known *)
  Lemma after_offsets_synced t (s : st) : c_synced (snd (after_offsets cfg t s)) = c_synced s.
  Proof. destruct (after_offsets_piece cfg false t None s) as [(ex & M & _) _ _ _]. destruct (p_synced _ _ _ _ _ _ M) as [H|(H & _)]; [exact H|discriminate H]. Qed.
  Lemma known_asks_no_lookup t start (s : st) i : inv cfg s -> In t (c_synced s) -> forall b rq, In (b, rq) (sent cfg s (Call i (OpConsume t start))) -> ~ is_lookup t rq.
  Proof.
    intros I0 H b rq HI HL. assert (NL : forall ex, c_wire (cstep cfg s (Call i (OpConsume t start))) = c_wire s ++ ex -> sent cfg s (Call i (OpConsume t start)) = ex) by (intros; now apply sent_eq).
    cbn [cstep] in NL. unfold dmem in NL. destruct (dget (c_calls s) i) as [x|] eqn:D; [rewrite (NL []) in HI by (now rewrite app_nil_r); destruct HI|].
    destruct (continue_same i (OpConsume t start) (consume cfg t start s)) as (_ & _ & _ & _ & _ & _ & _ & _ & CW). rewrite CW in NL. clear CW. revert NL. unfold consume. apply smem_In in H. rewrite H. destruct (c_closing s).
    - intros NL. destruct (base_done_winds t RvNone s) as [_ (ex & W & C) _]. rewrite (NL ex W) in HI. destruct (C b rq HI) as (g & ts & ->). destruct HL as [(? & ? & X)|(? & ? & X)]; discriminate X.
    - intros NL. destruct (after_offsets_piece cfg false t start s) as [(ex & M & S) _ _ _]. rewrite (NL ex (p_wire _ _ _ _ _ _ M)) in HI.
      destruct S as [|t' start' rqs pre post _ (_ & _ & _ & FE) RE _ ex X|t' start' rqs pre post X0 _ _ _ _ _ ex X|t' start' b0 g fn ac name ps X0 _ _ _ _ _|m ret b0 g fn ac name am _ _ _ _ _ _ _|b0 rest g fn ac name _ _ _ _]; try discriminate X0.
      + destruct HI.
      + subst ex. apply filter_In in HI as [HI _]. destruct (FE b rq) as (parts & _ & -> & _); [rewrite RE; apply in_app_iff; now left|]. destruct HL as [(? & ? & X)|(? & ? & X)]; discriminate X.
      + destruct HI as [HI|[]]. injection HI as _ <-. destruct HL as [(? & ? & X)|(? & ? & X)]; discriminate X.
      + destruct HI as [HI|[]]. injection HI as _ <-. destruct HL as [(? & ? & X)|(? & ? & X)]; discriminate X.
  Qed.
  (** a fetch shows that they are *)
  Definition shows (t : text) (s : st) (ns : next V * st) : Prop := forall ex b rq, c_wire (snd ns) = c_wire s ++ ex -> In (b, rq) ex -> is_fetch t rq -> In t (c_synced (snd ns)).
  Lemma winds_shows t s ns : winds s ns -> shows t s ns.
  Proof. intros [_ (ex & W & C) _] ex' b rq W' H F. rewrite W in W'. apply app_inv_head in W'. subst ex'. destruct (C b rq H) as (g & ts & ->). destruct F as (? & ? & ? & ? & X). discriminate X. Qed.
  Lemma shows_pre t s s1 ns : c_wire s1 = c_wire s -> shows t s1 ns -> shows t s ns.
  Proof. intros W S ex b rq WW H F. rewrite <- W in WW. eapply S; eassumption. Qed.
  Lemma raised_shows t rq e s : shows t s (raised cfg (KOffsets t rq) e s).
  Proof. unfold raised; destruct e; try (apply winds_shows, winds_refl; discriminate); apply winds_shows, base_done_winds. Qed.
  Lemma resume_shows t rq rs (s : st) : (forall r, rq = Some r -> ~ is_fetch t r) -> shows t s (resume cfg (KOffsets t rq) rs s).
  Proof.
    intros NF. assert (A : shows t s (after_offsets cfg t (set_synced (sadd (c_synced s) t) s))) by (intros ex b r _ _ _; rewrite after_offsets_synced; cbn; apply in_sadd; now left).
    cbn [resume]. destruct (md cfg) as [|g fn ac name]; [exact A|]. destruct rq as [rq|]; [|exact A]. destruct (coord_result rs s) as [[|l|[|]|a b]|e]; try exact A; [|apply raised_shows].
    destruct (send_one_spec cfg (KOffsets t (Some rq)) (c_coord s) rq s) as (ex & Q & _ & _ & D).
    destruct (send_one cfg (KOffsets t (Some rq)) (c_coord s) rq s) as [n s1]. cbn [fst snd] in *. destruct D as [(e & -> & ->)|(b & _ & -> & ->)].
    - eapply shows_pre; [|apply raised_shows]. rewrite (qw_wire _ _ _ _ Q), app_nil_r. reflexivity.
    - intros ex b' r W H F. cbn [snd] in W. rewrite (qw_wire _ _ _ _ Q) in W. apply app_inv_head in W. subst ex. destruct (open_conn s b); [|destruct H]. destruct H as [H|[]]. injection H as _ <-. now destruct (NF rq eq_refl).
  Qed.
  Lemma send_end_shows t rq rs (s : st) : (forall r, rq = Some r -> ~ is_fetch t r) -> shows t s (send_end cfg (KOffsets t rq) rs s).
  Proof.
    intros NF. unfold send_end. destruct (c_heal s); [|now apply resume_shows]. intros ex b r W H F. cbn [snd] in W. rewrite <- (app_nil_r (c_wire s)) in W at 1. apply app_inv_head in W. subst ex. destruct H.
  Qed.
  Lemma fetch_on_topic t o look (s1 : st) ns ex b rq : sends cfg o look (snd ns) (fst ns) ex -> In (b, rq) ex -> is_fetch t rq -> on_topic t o /\ alloc_of cfg (snd ns) t <> [].
  Proof.
    intros S H (r & mw & mb & parts & ->). destruct S as [|t' start rqs pre post -> FE RE D ex X|t' start rqs pre post _ _ -> L RE D ex X|t' start b0 g fn ac name ps _ _ _ _ _ _|m ret b0 g fn ac name am _ _ _ _ _ _ _|b0 rest g fn ac name _ _ _ _]; try (destruct H as [H|[]]; discriminate H).
    - destruct H.
    - subst ex. apply filter_In in H as [H _]. assert (HR : In (b, RFetch r mw mb t parts) rqs) by (rewrite RE; apply in_app_iff; now left). destruct FE as (_ & _ & PE & FE). destruct (FE _ _ HR) as (parts' & NP & E & _). injection E as -> -> -> -> ->. split; [reflexivity|].
      intros X. rewrite X in PE. apply Permutation_sym, Permutation_nil in PE. destruct parts' as [|[p x] ps]; [now apply NP|]. assert (IP : In p []) by (rewrite <- PE; apply in_flat_map; eexists; split; [exact HR|now left]). destruct IP.
    - subst ex. apply filter_In in H as [H _]. assert (HR : In (b, RFetch r mw mb t parts) rqs) by (rewrite RE; apply in_app_iff; now left). destruct L as (_ & _ & L). destruct (L _ _ HR) as (parts' & _ & E & _). discriminate E.
  Qed.
  Lemma fits_no_fetch o t rq : fits_cont cfg o (KOffsets t rq) -> forall r, rq = Some r -> ~ is_fetch t r.
  Proof. intros F r -> (? & ? & ? & ? & ->). destruct o as [t' start|m|]; try contradiction. destruct F as (_ & F). destruct (md cfg); [discriminate F|]. destruct F as (ps & F). discriminate F. Qed.
  Lemma fetch_shows_known t s l b rq : inv cfg s -> In (b, rq) (sent cfg s l) -> is_fetch t rq -> (forall i o t', dget (c_calls s) i = Some (o, PTopicHeal t') -> forall r, l <> Healed i r) -> In t (c_synced (cstep cfg s l)).
  Proof.
    intros I0 H F NH. pose proof (cstep_did cfg s l I0) as D. assert (NE : sent cfg s l <> []) by (intros E; rewrite E in H; destruct H).
    assert (WI : c_wire (cstep cfg s l) = c_wire s ++ sent cfg s l) by now apply step_wire.
    remember (cstep cfg s l) as s' eqn:EQ. remember (sent cfg s l) as ex0 eqn:EX0.
    assert (SH : forall i o s1 ns, c_wire s1 = c_wire s -> shows t s1 ns -> s' = continue i o ns -> In t (c_synced s')).
    { intros i o s1 ns W1 S ->. destruct (continue_same i o ns) as (_ & -> & _ & _ & _ & _ & _ & _ & CW). eapply S; [|exact H|exact F]. rewrite W1, <- CW. exact WI. }
    assert (NN : c_wire s' = c_wire s -> False) by (intros E; rewrite E in WI; rewrite <- (app_nil_r (c_wire s)) in WI at 1; apply app_inv_head in WI; now apply NE).
    destruct D as [l ID|i o ns D E P|i b' r o k w rs rq' D FI W IA HF NE' F'|i b' r o k w rs rq' ns D FI W IA E P|i r o k rs s1 ns D FI E P|i r t' start ns D E P|k|g fn ac name ev M|]; try (destruct (NN eq_refl); fail).
    - destruct P as [(ex & M & S) _ _ _]. destruct (continue_same i o ns) as (_ & CS & _ & _ & _ & _ & _ & _ & CW). rewrite CS. rewrite CW, (p_wire _ _ _ _ _ _ M) in WI. apply app_inv_head in WI. subst ex.
      destruct (fetch_on_topic t o true s ns ex0 b rq S H F) as [T A]. destruct o as [t' start|m|]; try contradiction. cbn in T. subst t'.
      destruct (in_dec (list_eq_dec Z.eq_dec) t (c_synced s)) as [I1|I1]; [destruct (p_synced _ _ _ _ _ _ M) as [->|(_ & t' & start' & _ & ->)]; [exact I1|apply in_sadd; now right]|].
      exfalso. rewrite (p_alloc _ _ _ _ _ _ M) in A. cbn [begin] in E. subst ns. destruct (consume_begins t start s I1 A) as (_ & (ex & B2 & B3) & _). rewrite (p_wire _ _ _ _ _ _ M) in B2. apply app_inv_head in B2. subst ex.
      destruct (B3 b rq H) as [(? & ? & ->)|(? & ? & ->)]; destruct F as (? & ? & ? & ? & X); discriminate X.
    - exfalso. apply NN. cbn. apply answer_state_same.
    - destruct (answer_state_same cfg r s) as (_ & _ & _ & _ & _ & W1). apply (SH i o (answer_state cfg r s) ns W1); [|reflexivity]. destruct FI as [FC _]. destruct (paid_some cfg k rs) as [lv PD]. destruct (P lv PD) as [(ex & M & S) _ _ _].
      destruct k as [t' rq0|t'|m ret|a r0].
      + intros ex' b1 r1 W2 H2 F2. rewrite (p_wire _ _ _ _ _ _ M) in W2. apply app_inv_head in W2. subst ex'. destruct (fetch_on_topic t o _ s ns ex b1 r1 S H2 F2) as [T _]. destruct o as [t1 start|m|]; try contradiction. cbn in T. subst t1. destruct FC as (TE & FC). subst t'.
        assert (SS : shows t (answer_state cfg r s) ns) by (destruct E as [(_ & _ & ->)|(e & _ & ->)]; [apply send_end_shows; apply (fits_no_fetch (OpConsume t start)); split; auto|apply raised_shows]). eapply SS; [apply (p_wire _ _ _ _ _ _ M)|exact H2|exact F2].
      + apply winds_shows. destruct E as [(_ & _ & ->)|(e & _ & ->)]; [now apply send_end_winds|now apply raised_winds].
      + apply winds_shows. destruct E as [(_ & _ & ->)|(e & _ & ->)]; [now apply send_end_winds|now apply raised_winds].
      + intros ex' b1 r1 W2 H2 F2. rewrite (p_wire _ _ _ _ _ _ M) in W2. apply app_inv_head in W2. subst ex'. destruct (fetch_on_topic t o _ s ns ex b1 r1 S H2 F2) as [T _]. destruct o as [t1 start|m|]; contradiction.
    - assert (S1 : s1 = s \/ s1 = set_heal false s) by (destruct E as [(u & _ & -> & _)|(e & _ & -> & _)]; auto). apply (SH i o s1 ns); [destruct S1 as [->| ->]; reflexivity| |reflexivity]. destruct FI as [FC _]. destruct (paid_some cfg k rs) as [lv PD]. destruct (P lv PD) as [(ex & M & S) _ _ _].
      destruct k as [t' rq0|t'|m ret|a r0].
      + intros ex' b1 r1 W2 H2 F2. rewrite (p_wire _ _ _ _ _ _ M) in W2. apply app_inv_head in W2. subst ex'. destruct (fetch_on_topic t o _ s ns ex b1 r1 S H2 F2) as [T _]. destruct o as [t1 start|m|]; try contradiction. cbn in T. subst t1. destruct FC as (TE & FC). subst t'.
        assert (SS : shows t s1 ns) by (destruct E as [(u & _ & _ & ->)|(e & _ & _ & ->)]; [apply resume_shows; apply (fits_no_fetch (OpConsume t start)); split; auto|apply raised_shows]). eapply SS; [apply (p_wire _ _ _ _ _ _ M)|exact H2|exact F2].
      + apply winds_shows. destruct E as [(u & _ & _ & ->)|(e & _ & _ & ->)]; [now apply resume_winds|now apply raised_winds].
      + apply winds_shows. destruct E as [(u & _ & _ & ->)|(e & _ & _ & ->)]; [now apply resume_winds|now apply raised_winds].
      + intros ex' b1 r1 W2 H2 F2. rewrite (p_wire _ _ _ _ _ _ M) in W2. apply app_inv_head in W2. subst ex'. destruct (fetch_on_topic t o _ s ns ex b1 r1 S H2 F2) as [T _]. destruct o as [t1 start|m|]; contradiction.
    - exfalso. exact (NH _ _ _ D _ eq_refl).
  Qed.
End Sync.
