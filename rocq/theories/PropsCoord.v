(** Properties C50-C52: repeated commits, coordinator discovery, loading of group offsets. *)
From Coq Require Import ZArith String List Bool Lia Permutation.
From Verif Require Import PyBase BaseLemmas Constants Cluster Zookeeper SpecZk Consumer SpecConsumer SpecGroup ConsumerProofs ConsumerSteps ConsumerRuns ConsumerSync GroupProofs PropsConsumer PropsGroup.
Import ListNotations.
Open Scope Z_scope.
Set Default Proof Using "Type".

(** ** C52 *)
Section C52.
  Context {V : Type}.
  Variable cfg : config V.
  Notation st := (consumer V).
  Lemma loads_dec t (s : st) l : loads t s l \/ ~ loads t s l.
  Proof.
    destruct l as [j o|i b [[ts|ts|[|[t' parts] rest]|ts|c id]|e]|i r|k|ev|]; try (right; intros (i0 & b0 & rq & t1 & ps & rest0 & E & _); discriminate E).
    destruct (dget (c_calls s) i) as [[o [k w rs|k rs|t0]]|] eqn:D; try (right; intros (i0 & b0 & rq & t1 & ps & rest0 & E & (o1 & k1 & w1 & rs1 & D1 & _) & _); injection E as <- <- _ _ _; congruence).
    destruct (dget w b) as [rq|] eqn:W; [|right; intros (i0 & b0 & rq & t1 & ps & rest0 & E & (o1 & k1 & w1 & rs1 & D1 & W1) & _); injection E as <- <- _ _ _; congruence].
    assert (IL : is_lookup t rq \/ ~ is_lookup t rq).
    { unfold is_lookup. destruct rq as [| r t1 ps|g1 t1 ps| |].
      - right. intros [(? & ? & E)|(? & ? & E)]; discriminate E.
      - destruct (eqb t1 t) eqn:TE; [apply eqb_true in TE; subst; left; left; eauto|right; intros [(? & ? & E)|(? & ? & E)]; [injection E as _ -> _; now rewrite eqb_refl in TE|discriminate E]].
      - destruct (eqb t1 t) eqn:TE; [apply eqb_true in TE; subst; left; right; eauto|right; intros [(? & ? & E)|(? & ? & E)]; [discriminate E|injection E as _ -> _; now rewrite eqb_refl in TE]].
      - right. intros [(? & ? & E)|(? & ? & E)]; discriminate E.
      - right. intros [(? & ? & E)|(? & ? & E)]; discriminate E. }
    destruct IL as [IL|IL]; [|right; intros (i0 & b0 & rq1 & t1 & ps & rest0 & E & (o1 & k1 & w1 & rs1 & D1 & W1) & IL1 & _); injection E as <- <- _ _ _; apply IL; congruence].
    destruct (forallb (fun x : Z * (Z * Z) => fst (snd x) =? no_error) parts) eqn:F.
    - left. exists i, b, rq, t', parts, rest. split; [reflexivity|]. split; [do 4 eexists; eauto|]. split; [exact IL|]. rewrite forallb_forall in F. intros p code o0 H. specialize (F _ H). cbn in F. now apply Z.eqb_eq.
    - right. intros (i0 & b0 & rq1 & t1 & ps & rest0 & E & _ & _ & N). injection E as _ _ _ <- _. rewrite (proj2 (forallb_forall _ _)) in F; [discriminate F|]. intros [p [code o0]] H. cbn. apply Z.eqb_eq. eapply N, H.
  Qed.
  (** A grouped consumer that fetches a topic has loaded the offsets of that topic before: it took an answer to an offset
      fetch in which no partition had an error. *)
  Theorem C52_loaded_first : forall k name ls l b rq t, md cfg <> Single -> In (b, rq) (sent cfg (crun cfg ls (consumer_init k name)) l) -> is_fetch t rq ->
    exists ls1 l1 ls2, ls ++ [l] = ls1 ++ l1 :: ls2 /\ loads t (crun cfg ls1 (consumer_init k name)) l1.
  Proof.
    intros k name ls l b rq t MS H F. destruct (md cfg) as [|g fn ac nm] eqn:MD; [now destruct MS|]. clear MS.
    assert (G : forall ls, (exists ls1 l1 ls2, ls = ls1 ++ l1 :: ls2 /\ loads t (crun cfg ls1 (consumer_init k name)) l1) \/ unloaded t (crun cfg ls (consumer_init k name))).
    { clear H l ls. intros ls. induction ls as [|l ls IH] using rev_ind; [right; split; [intros []|intros j o p D; discriminate D]|].
      destruct IH as [(ls1 & l1 & ls2 & -> & L)|U]; [left; exists ls1, l1, (ls2 ++ [l]); split; [now rewrite <- app_assoc|exact L]|].
      destruct (loads_dec t (crun cfg ls (consumer_init k name)) l) as [L|L]; [left; exists ls, l, []; auto|]. right. unfold crun. rewrite fold_left_app. cbn [fold_left]. eapply unloaded_step; eauto. apply inv_run, inv_init. }
    destruct (G ls) as [(ls1 & l1 & ls2 & -> & L)|U]; [exists ls1, l1, (ls2 ++ [l]); split; [now rewrite <- app_assoc|exact L]|].
    destruct (loads_dec t (crun cfg ls (consumer_init k name)) l) as [L|L]; [exists ls, l, []; auto|]. exfalso.
    destruct (unloaded_step cfg g fn ac nm MD t (crun cfg ls (consumer_init k name)) l) as [NF _]; [apply inv_run, inv_init|exact U|exact L|]. now destruct (NF b rq H).
  Qed.

  Section Answer.
    Variables (g : text) (fn : list text -> list text -> res mapping) (ac : bool) (nm : text).
    Hypothesis MD : md cfg = Grouped g fn ac nm.
    Lemma ofetch_again t parts : forall acc (s : st), (forall p code o, In (p, (code, o)) parts -> code = no_error \/ asks_again code) -> let r := handle_ofetch_parts t parts acc s in
      fst r = Ok (acc || existsb (fun x => negb (fst (snd x) =? no_error)) parts) /\ c_coord (snd r) = c_coord s /\ (c_heal (snd r) = true <-> c_heal s = true \/ exists p code o, In (p, (code, o)) parts /\ code <> offsets_load_in_progress /\ is_retriable code = true).
    Proof.
      cbv zeta. induction parts as [|[p [code o]] parts IH]; intros acc s K; cbn [handle_ofetch_parts existsb fst snd].
      - rewrite orb_false_r. split; [reflexivity|]. split; [reflexivity|]. split; [auto|intros [H|(? & ? & ? & [] & _)]; exact H].
      - assert (K' : forall p code o, In (p, (code, o)) parts -> code = no_error \/ asks_again code) by (intros; eapply K; right; eassumption).
        assert (EX : forall P : Z -> Prop, (exists p0 code0 o0, In (p0, (code0, o0)) ((p, (code, o)) :: parts) /\ P code0) <-> P code \/ exists p0 code0 o0, In (p0, (code0, o0)) parts /\ P code0).
        { intros P. split; [intros (p0 & c0 & o0 & [H|H] & X); [injection H as <- <- <-; now left|right; eauto 6]|intros [X|(p0 & c0 & o0 & H & X)]; [exists p, code, o; split; [now left|exact X]|exists p0, c0, o0; split; [now right|exact X]]]. }
        rewrite (EX (fun c => c <> offsets_load_in_progress /\ is_retriable c = true)). destruct (Z.eqb_spec code no_error) as [->|C0].
        + destruct (IH acc (offset_set t p o s) K') as (A & B & C). assert (HC : c_heal (offset_set t p o s) = c_heal s /\ c_coord (offset_set t p o s) = c_coord s) by (unfold offset_set; destruct (ddefault _ _ _); auto). destruct HC as [HC CC].
          rewrite HC in C. rewrite CC in B. cbn [negb orb]. split; [exact A|]. split; [exact B|]. rewrite C. split; [intros [X|X]; auto|intros [X|[[_ X]|X]]; auto; discriminate X].
        + destruct (K p code o (or_introl eq_refl)) as [X|AG]; [contradiction|]. cbn [negb orb]. rewrite orb_true_r. destruct (Z.eqb_spec code offsets_load_in_progress) as [->|CL].
          * destruct (IH true s K') as (A & B & C). split; [exact A|]. split; [exact B|]. rewrite C. split; [intros [X|X]; auto|intros [X|[[X _]|X]]; auto; now destruct X].
          * destruct AG as [AG|AG]; [|contradiction]. rewrite AG. destruct (IH true (set_heal true s) K') as (A & B & C). split; [exact A|]. split; [exact B|]. rewrite C. cbn. split; [intros _; auto|auto].
    Qed.
    (** the waiting call of an offset fetch *)
    Lemma lookup_call (s : st) i b rq t : inv cfg s -> waits_for s i b rq -> is_lookup t rq -> exists start w rs ps, rq = ROffsetFetch g t ps /\ dget (c_calls s) i = Some (OpConsume t start, PSend (KOffsets t (Some rq)) w rs) /\ dget w b = Some rq.
    Proof using MD.
      intros I0 (o & k & w & rs & D & W) IL. destruct (proj2 I0 _ _ _ D) as [FC WS]. pose proof (ws_asks _ _ _ _ WS b _ (dget_In _ _ _ W)) as A.
      destruct k as [t' [rq0|]|t'|m ret|a r0]; cbn in A.
      - subst rq0. destruct o; try contradiction. destruct FC as (-> & FC). rewrite MD in FC. destruct FC as (ps & FC). injection FC as ->. destruct IL as [(? & ? & E)|(? & ? & E)]; [discriminate E|]. injection E as _ -> _. eauto 8.
      - destruct o; try contradiction. destruct FC as (_ & FC). rewrite MD in FC. destruct FC as (? & FC). discriminate FC.
      - destruct A as (? & ->). destruct IL as [(? & ? & E)|(? & ? & E)]; discriminate E.
      - destruct A as (? & ? & ->). destruct IL as [(? & ? & E)|(? & ? & E)]; discriminate E.
      - destruct A as (? & ? & ->). destruct IL as [(? & ? & E)|(? & ? & E)]; discriminate E.
    Qed.
    Lemma send_one_sends k b rq (s : st) : open_conn s b = true -> unsendable cfg rq = None -> c_wire (snd (send_one cfg k (Some b) rq s)) = c_wire s ++ [(b, rq)] /\ fst (send_one cfg k (Some b) rq s) = Await (PSend k [(b, rq)] []).
    Proof. intros OC US. unfold send_one, send_all. unfold open_conn in OC. destruct (dget (k_conns (c_cluster s)) b) as [cn|]; [|discriminate OC]. apply negb_true_iff in OC. rewrite OC, US. auto. Qed.
    Lemma lookup_resent t rq (s : st) i o b : c_coord s = Some b -> open_conn s b = true -> unsendable cfg rq = None -> (exists ps, rq = ROffsetFetch g t ps) ->
      let ns := resume cfg (KOffsets t (Some rq)) [(b, HBool true)] s in c_wire (continue i o ns) = c_wire s ++ [(b, rq)] /\ (NoDup (dkeys (c_calls s)) -> waits_for (continue i o ns) i b rq).
    Proof using MD.
      cbv zeta. intros CB OC US (ps & ->). cbn [resume]. rewrite MD. unfold coord_result. rewrite CB. unfold dindex. cbn [dget]. rewrite eqb_refl. cbn match.
      destruct (send_one_sends (KOffsets t (Some (ROffsetFetch g t ps))) b (ROffsetFetch g t ps) s OC US) as [W F]. destruct (send_one_spec cfg (KOffsets t (Some (ROffsetFetch g t ps))) (Some b) (ROffsetFetch g t ps) s) as (ex & Q & _).
      destruct (send_one cfg _ _ _ s) as [n s1]. cbn [fst snd] in *. subst n. split; [destruct (continue_same i o (Await (PSend (KOffsets t (Some (ROffsetFetch g t ps))) [(b, ROffsetFetch g t ps)] []), s1)) as (_ & _ & _ & _ & _ & _ & _ & _ & ->); exact W|].
      intros N. do 4 eexists. split; [cbn [continue set_calls c_calls]; apply dget_dset_same|]. cbn [dget]. now rewrite eqb_refl.
    Qed.
  End Answer.
  (** If the codes of an answer to an offset fetch are no_error or retriable, and one is not no_error, the same request is
      sent to the coordinator again: after a heal if one is due, and at once otherwise. *)
  Theorem C52_asked_again : forall (s : st) i b rq t t' parts rest, md cfg <> Single -> reachable cfg s -> waits_for s i b rq -> is_lookup t rq ->
    (forall p code o, In (p, (code, o)) parts -> code = no_error \/ asks_again code) -> (exists p code o, In (p, (code, o)) parts /\ code <> no_error) -> unsendable cfg rq = None ->
    let l := Arrive i b (Ok (POffsetFetch ((t', parts) :: rest))) in
    let heals := c_heal s = true \/ exists p code o, In (p, (code, o)) parts /\ code <> offsets_load_in_progress /\ is_retriable code = true in
    (heals -> sent cfg s l = [] /\ forall ls, (forall r, ~ In (Healed i r) ls) -> let s2 := crun cfg ls (cstep cfg s l) in
       c_coord s2 = Some b -> open_conn s2 b = true -> sent cfg s2 (Healed i (Ok tt)) = [(b, rq)] /\ waits_for (cstep cfg s2 (Healed i (Ok tt))) i b rq) /\
    (~ heals -> c_coord s = Some b -> open_conn s b = true -> sent cfg s l = [(b, rq)] /\ waits_for (cstep cfg s l) i b rq).
  Proof.
    intros s i b rq t t' parts rest MS R WF IL OKC (p1 & c1 & o1 & H1 & N1) US l heals. destruct (md cfg) as [|g fn ac nm] eqn:MD; [now destruct MS|]. clear MS.
    destruct (lookup_call g fn ac nm MD s i b rq t (reach_inv cfg s R) WF IL) as (start & w & rs & ps & RQ & D & W).
    destruct (ofetch_again t' parts false s OKC) as (HR & HC & HH). assert (EB : existsb (fun x : Z * (Z * Z) => negb (fst (snd x) =? no_error)) parts = true).
    { apply existsb_exists. exists (p1, (c1, o1)). split; [exact H1|]. cbn. apply negb_true_iff. now apply Z.eqb_neq. }
    rewrite EB in HR. cbn [orb] in HR.
    pose proof (solo_answer cfg s i b (Ok (POffsetFetch ((t', parts) :: rest))) _ _ w rs rq R D eq_refl W) as ST. fold l in ST.
    destruct (answer_state_same cfg (Ok (POffsetFetch ((t', parts) :: rest))) s) as (A1 & A2 & A3 & A4 & A5 & A6).
    unfold handler_fails, answer_results, answer_state in *. cbn [handle] in *. destruct (handle_ofetch_parts t' parts false s) as [r0 s1]. cbn [fst snd] in *. subst r0. cbn [fst snd app] in *.
    assert (ST' : cstep cfg s l = continue i (OpConsume t start) (send_end cfg (KOffsets t (Some rq)) [(b, HBool true)] s1)) by (apply ST; rewrite RQ; reflexivity). clear ST.
    unfold send_end in ST'. split.
    - intros HE. assert (H2 : c_heal s1 = true) by now apply HH. rewrite H2 in ST'. split; [apply sent_eq; rewrite ST'; cbn; rewrite A6; now rewrite app_nil_r|]. intros ls NH. set (s2 := crun cfg ls (cstep cfg s l)). intros C2 O2.
      assert (D1 : dget (c_calls (cstep cfg s l)) i = Some (OpConsume t start, PHeal (KOffsets t (Some rq)) [(b, HBool true)])) by (rewrite ST'; cbn; apply dget_dset_same).
      assert (D2 : dget (c_calls s2) i = Some (OpConsume t start, PHeal (KOffsets t (Some rq)) [(b, HBool true)])) by (apply heal_waits_run; [apply reach_inv, reach_step, R|exact D1|exact NH]).
      assert (E2 : cstep cfg s2 (Healed i (Ok tt)) = continue i (OpConsume t start) (resume cfg (KOffsets t (Some rq)) [(b, HBool true)] (set_heal false s2))) by (cbn [cstep]; rewrite D2; reflexivity).
      destruct (lookup_resent g fn ac nm MD t rq (set_heal false s2) i (OpConsume t start) b) as [X Y]; [exact C2|exact O2|exact US|eauto|]. cbv zeta in X, Y. rewrite <- E2 in X, Y. split; [now apply sent_eq|]. apply Y. apply (reach_inv cfg s2). apply reach_run, reach_step, R.
    - intros NH CB OC. assert (H2 : c_heal s1 = false) by (destruct (c_heal s1); [exfalso; apply NH, HH; reflexivity|reflexivity]). rewrite H2 in ST'.
      destruct (lookup_resent g fn ac nm MD t rq s1 i (OpConsume t start) b) as [X Y]; [congruence|unfold open_conn; rewrite A4; exact OC|exact US|eauto|]. cbv zeta in X, Y. rewrite <- ST' in X, Y. split; [apply sent_eq; now rewrite X, A6|]. apply Y. rewrite A1. apply (reach_inv cfg s R).
  Qed.
  (** If the answer has a code that is neither, the consume() call fetches nothing, neither then nor later, and if it returns a
      value, that is an empty list.  It returns at once, unless an overlapping consume() on the topic has finished its lookup;
      then it goes on to its autocommit first. *)
  Lemma ofetch_fatal t parts : forall acc (s : st), (forall p code o, In (p, (code, o)) parts -> known_code code) -> (exists p code o, In (p, (code, o)) parts /\ fatal code) -> fst (handle_ofetch_parts t parts acc s) = Err ENoOffsets.
  Proof.
    induction parts as [|[p [code o]] parts IH]; intros acc s K (p1 & c1 & o1 & H1 & F1); [destruct H1|]. cbn [handle_ofetch_parts].
    assert (K' : forall p code o, In (p, (code, o)) parts -> known_code code) by (intros; eapply K; right; eassumption).
    assert (T : ~ fatal code -> exists p2 c2 o2, In (p2, (c2, o2)) parts /\ fatal c2). { intros NF. destruct H1 as [H1|H1]; [injection H1 as _ -> _; contradiction|eauto 6]. }
    destruct (Z.eqb_spec code no_error) as [->|C0]; [apply IH; [exact K'|apply T; intros (_ & X & _); now destruct X]|].
    destruct (Z.eqb_spec code offsets_load_in_progress) as [->|CL]; [apply IH; [exact K'|apply T; intros (_ & _ & X); apply X; now right]|].
    destruct (is_retriable code) eqn:RC; [apply IH; [exact K'|apply T; intros (_ & _ & X); apply X; now left]|].
    destruct (K p code o (or_introl eq_refl)) as [nm ->]. reflexivity.
  Qed.
  Theorem C52_fatal : forall (s : st) i b rq t t' parts rest, md cfg <> Single -> reachable cfg s -> waits_for s i b rq -> is_lookup t rq ->
    (forall p code o, In (p, (code, o)) parts -> known_code code) -> (exists p code o, In (p, (code, o)) parts /\ fatal code) ->
    let l := Arrive i b (Ok (POffsetFetch ((t', parts) :: rest))) in
    (forall b' rq', In (b', rq') (sent cfg s l) -> ~ is_fetch t rq') /\
    (~ In t (c_synced s) -> sent cfg s l = [] /\ exists start, c_ended (cstep cfg s l) = c_ended s ++ [(i, OpConsume t start, Ok (RvList []))]) /\
    (forall ls, (forall o, ~ In (Call i o) ls) -> (forall o r, ~ In (i, o, r) (c_ended s)) -> let s2 := crun cfg ls (cstep cfg s l) in
      (forall b' rq', waits_for s2 i b' rq' -> is_commit rq') /\ forall o v, In (i, o, Ok v) (c_ended s2) -> v = RvList []).
  Proof.
    intros s i b rq t t' parts rest MS R WF IL KC FC l. destruct (md cfg) as [|g fn ac nm] eqn:MD; [now destruct MS|]. clear MS.
    destruct (lookup_call g fn ac nm MD s i b rq t (reach_inv cfg s R) WF IL) as (start & w & rs & ps & RQ & D & W).
    pose proof (ofetch_fatal t' parts false s KC FC) as HR.
    pose proof (solo_answer cfg s i b (Ok (POffsetFetch ((t', parts) :: rest))) _ _ w rs rq R D eq_refl W) as ST. fold l in ST.
    destruct (answer_state_same cfg (Ok (POffsetFetch ((t', parts) :: rest))) s) as (A1 & A2 & A3 & A4 & A5 & A6). pose proof (h_synced _ _ _ (handle_handled cfg (POffsetFetch ((t', parts) :: rest)) s)) as HS.
    unfold handler_fails, answer_results, answer_state in *. cbn [handle] in *. destruct (handle_ofetch_parts t' parts false s) as [r0 s1]. cbn [fst snd] in *. subst r0. cbn [fst snd app] in *.
    assert (ST' : cstep cfg s l = continue i (OpConsume t start) (base_done cfg t (RvList []) s1)) by (apply ST; rewrite RQ; reflexivity). clear ST.
    assert (BW : exists ex, quietw cfg (if negb (smem (c_synced s1) t) then s1 else set_tocommit (sadd (c_tocommit s1) t) s1) (snd (base_done cfg t (RvList []) s1)) ex /\ (forall b' rq', In (b', rq') ex -> is_commit rq') /\ commit_next (RvList []) (fst (base_done cfg t (RvList []) s1))).
    { unfold base_done. rewrite MD. destruct (negb (smem (c_synced s1) t)); [exists []; split; [apply quietw_quiet, quiet_refl|split; [intros ? ? []|reflexivity]]|]. destruct ac; [|exists []; split; [apply quietw_quiet, quiet_refl|split; [intros ? ? []|reflexivity]]].
      destruct (commit_offsets_spec cfg None (RvList []) (set_tocommit (sadd (c_tocommit s1) t) s1)) as (ex & Q & X). exists ex. split; [exact Q|]. split; [|apply commit_offsets_next].
      intros b' rq'. destruct X as [(e & _ & ->)|(g1 & fn1 & ac1 & n1 & b1 & am & _ & _ & _ & _ & ->)]; [intros []|]. destruct (open_conn _ b1); [|intros []]. intros [X|[]]. injection X as _ <-. do 2 eexists. reflexivity. }
    destruct BW as (ex & Q & NF & CN).
    assert (WI : c_wire (snd (base_done cfg t (RvList []) s1)) = c_wire s1 ++ ex) by (rewrite (qw_wire _ _ _ _ Q); now destruct (negb _)).
    assert (EN : c_ended (snd (base_done cfg t (RvList []) s1)) = c_ended s1) by (transitivity (c_ended (if negb (smem (c_synced s1) t) then s1 else set_tocommit (sadd (c_tocommit s1) t) s1)); [exact (q_ended _ _ _ (qw_quiet _ _ _ _ Q))|now destruct (negb _)]).
    assert (CA : c_calls (snd (base_done cfg t (RvList []) s1)) = c_calls s1) by (transitivity (c_calls (if negb (smem (c_synced s1) t) then s1 else set_tocommit (sadd (c_tocommit s1) t) s1)); [exact (q_calls _ _ _ (qw_quiet _ _ _ _ Q))|now destruct (negb _)]).
    split; [|split].
    - intros b' rq' H (r & mw & mb & parts' & ->). rewrite (sent_eq cfg s l ex) in H; [destruct (NF _ _ H) as (? & ? & X); discriminate X|]. rewrite ST'. destruct (continue_same i (OpConsume t start) (base_done cfg t (RvList []) s1)) as (_ & _ & _ & _ & _ & _ & _ & _ & ->). now rewrite WI, A6.
    - intros NS. rewrite (base_done_drops cfg g fn ac nm MD) in ST' by (intros X; now apply NS, HS). split; [apply sent_eq; rewrite ST'; cbn; now rewrite A6, app_nil_r|]. exists start. rewrite ST', continue_ended. cbn [fst snd]. now rewrite A2.
    - intros ls NC NE. assert (W0 : winding (RvList []) i (cstep cfg s l)).
      { rewrite ST'. assert (N' : NoDup (dkeys (c_calls (snd (base_done cfg t (RvList []) s1))))) by (rewrite CA, A1; apply (reach_inv cfg s R)). destruct (continue_calls i (OpConsume t start) (base_done cfg t (RvList []) s1) i N') as [_ X]. rewrite Z.eqb_refl in X. split.
        - intros o p H. rewrite X in H. destruct (fst (base_done cfg t (RvList []) s1)); try discriminate H. injection H as _ <-. exact CN.
        - intros o v H. rewrite continue_ended, EN, A2 in H. apply in_app_iff in H as [H|H]; [now destruct (NE o (Ok v))|]. destruct (fst (base_done cfg t (RvList []) s1)) as [p0|v0|e]; [destruct H| |destruct H as [H|[]]; discriminate H]. destruct H as [H|[]]. injection H as _ <-. exact CN. }
      destruct (winding_run cfg (RvList []) i ls (cstep cfg s l)) as [X Y]; [apply reach_inv, reach_step, R|exact W0|exact NC|]. split; [|exact Y].
      intros b' rq' (o & k & w' & rs' & D' & W'). specialize (X _ _ D'). assert (R2 : reachable cfg (crun cfg ls (cstep cfg s l))) by apply reach_run, reach_step, R. destruct (proj2 (reach_inv cfg _ R2) _ _ _ D') as [_ WS]. pose proof (ws_asks _ _ _ _ WS b' _ (dget_In _ _ _ W')) as A.
      destruct k as [t0 rq0|t0|m ret|a r0]; try contradiction. exact A.
  Qed.
End C52.
Example C52_example : let s := crun (ex_grouped true) (firstn 1 ex_loaded) (ex_member true) in
  waits_for s 2 2 (ROffsetFetch (txt "g") tt_ [0; 1]) /\ is_lookup tt_ (ROffsetFetch (txt "g") tt_ [0; 1]) /\
  sent (ex_grouped true) s (Arrive 2 2 (Ok (POffsetFetch [(tt_, [(0, (0, 5)); (1, (offsets_load_in_progress, -1))])]))) = [(2, ROffsetFetch (txt "g") tt_ [0; 1])] /\
  sent (ex_grouped true) (cstep (ex_grouped true) s (Arrive 2 2 (Ok (POffsetFetch [(tt_, [(0, (0, 5)); (1, (16, -1))])])))) (Healed 2 (Ok tt)) = [(2, ROffsetFetch (txt "g") tt_ [0; 1])] /\
  c_ended (cstep (ex_grouped true) s (Arrive 2 2 (Ok (POffsetFetch [(tt_, [(0, (0, 5)); (1, (30, -1))])])))) = c_ended s ++ [(2, OpConsume tt_ None, Ok (RvList []))].
Proof. cbv zeta. split; [do 4 eexists; split; vm_compute; reflexivity|]. split; [right; do 2 eexists; reflexivity|]. vm_compute. auto. Qed.

(** ** C50 *)
Section C50.
  Context {V : Type}.
  Variable cfg : config V.
  Notation st := (consumer V).
  Lemma commit_call (s : st) i b rq : reachable cfg s -> waits_for s i b rq -> is_commit rq ->
    md cfg <> Single /\ exists o m ret w rs, dget (c_calls s) i = Some (o, PSend (KCommit m ret) w rs) /\ dget w b = Some rq /\ metadata_is m rq.
  Proof.
    intros R (o & k & w & rs & D & W) (g & topics & ->). destruct (proj2 (reach_inv cfg s R) _ _ _ D) as [FC WS]. pose proof (ws_asks _ _ _ _ WS b _ (dget_In _ _ _ W)) as A.
    destruct k as [t' [rq0|]|t'|m ret|a r0]; cbn in A.
    - subst rq0. destruct o; try contradiction. destruct FC as (_ & FC). destruct (md cfg); [discriminate FC|]. destruct FC as (? & FC). discriminate FC.
    - destruct A as (? & A). discriminate A.
    - destruct A as (? & A). discriminate A.
    - split; [destruct o; try contradiction; [destruct FC as (? & ? & ? & ->); discriminate|apply FC]|]. exists o, m, ret, w, rs. split; [exact D|]. split; [exact W|].
      destruct (reach_solo cfg s R _ _ _ D eq_refl) as [(b1 & rq1 & -> & MO) ->]. cbn in W. destruct (b1 =? b); [|discriminate W]. injection W as ->. exact MO.
    - destruct A as (_ & ? & A). discriminate A.
  Qed.
  Lemma some_code_part f topics : some_code f topics = true <-> some_part (fun c => f c = true) topics.
  Proof.
    unfold some_code, some_part. rewrite existsb_exists. split.
    - intros ([t parts] & H & X). apply existsb_exists in X as ([p code] & H2 & X). cbn in *. exists t, parts, p, code. auto.
    - intros (t & parts & p & code & H1 & H2 & X). exists (t, parts). split; [exact H1|]. apply existsb_exists. exists (p, code). auto.
  Qed.
  Lemma recommits (s : st) m ret b t p : md cfg <> Single -> can_commit cfg s b t p -> In t (c_tocommit s) -> (forall rq, unsendable cfg rq = None) ->
    exists g topics parts, c_wire (snd (commit_offsets cfg (Some m) ret s)) = c_wire s ++ [(b, RCommit g topics)] /\ In (t, parts) topics /\ In (p, (position s t p, m)) parts.
  Proof.
    intros MS (CB & OC & AL) TC US. destruct (md cfg) as [|g fn ac nm] eqn:MD; [now destruct MS|]. unfold alloc_of, gives_to in AL. rewrite MD in AL.
    destruct (dget (mp_tab (a_mapping (c_alloc s))) (a_name (c_alloc s))) as [am|] eqn:OM; [|destruct AL]. destruct (dget am t) as [ps|] eqn:DP; [|destruct AL].
    exists g, (commit_of s m am), (map (fun p => (p, (position s t p, m))) ps). split; [exact (commit_ok cfg m ret s g fn ac nm b am MD OM CB OC US)|]. split.
    - unfold commit_of. apply in_map_iff. exists (t, ps). split; [reflexivity|]. apply filter_In. split; [now apply dget_In|]. now apply smem_In.
    - apply in_map_iff. exists p. auto.
  Qed.
  (** When a commit is answered with a retriable code or offset_metadata_too_large for some partition of a topic, and none of
      the topic's partitions is acknowledged, the commit is sent again: after a heal if one is due, and at once otherwise.  It
      holds the position every partition of the topic then has, with empty metadata if some partition was answered
      offset_metadata_too_large, and with the metadata of the first request otherwise. *)
  Theorem C50_again_partial : forall (s : st) i b rq topics t, reachable cfg s -> waits_for s i b rq -> is_commit rq -> all_known topics ->
    some_part (fun code => is_retriable code = true \/ code = offset_metadata_too_large) topics -> ~ acknowledged t topics -> In t (c_tocommit s) -> (forall rq, unsendable cfg rq = None) ->
    let l := Arrive i b (Ok (PCommit topics)) in
    let heals := c_heal s = true \/ some_part (fun code => is_retriable code = true) topics in
    exists m, (some_part (fun code => code = offset_metadata_too_large) topics -> m = []) /\ (~ some_part (fun code => code = offset_metadata_too_large) topics -> metadata_is m rq) /\
    (heals -> sent cfg s l = [] /\ forall ls p, (forall r, ~ In (Healed i r) ls) -> (forall i' b' ts, ~ In (Arrive i' b' (Ok (PCommit ts))) ls) -> let s2 := crun cfg ls (cstep cfg s l) in
       can_commit cfg s2 b t p -> commits cfg s2 (Healed i (Ok tt)) b t p m) /\
    (~ heals -> forall p, can_commit cfg s b t p -> commits cfg s l b t p m).
  Proof.
    intros s i b rq topics t R WF IC KN SP NA TC US l heals. destruct (commit_call s i b rq R WF IC) as (MS & o & m0 & ret & w & rs & D & W & MI).
    destruct (commit_topics_result topics (false, false) s KN) as (HR & HH & HC & HT). cbn [fst snd orb] in HR.
    pose proof (solo_answer cfg s i b (Ok (PCommit topics)) _ _ w rs rq R D eq_refl W) as ST. fold l in ST.
    destruct (answer_state_same cfg (Ok (PCommit topics)) s) as (A1 & A2 & A3 & A4 & A5 & A6). pose proof (h_pos _ _ _ (handle_handled cfg (PCommit topics) s)) as HP.
    assert (RT : some_code (fun c => is_retriable c || too_large c) topics = true).
    { apply some_code_part. destruct SP as (t1 & ps1 & p1 & c1 & S1 & S2 & S3). exists t1, ps1, p1, c1. split; [exact S1|]. split; [exact S2|]. destruct S3 as [->| ->]; [reflexivity|]. vm_compute. reflexivity. }
    rewrite RT in HR. unfold handler_fails, answer_results, answer_state in *. cbn [handle] in *. destruct (handle_commit_topics topics (false, false) s) as [r0 s1]. cbn [fst snd] in *. subst r0. cbn [fst snd app named] in *.
    set (adj := some_code too_large topics) in *. exists (if adj then [] else m0).
    assert (ADJ : adj = true <-> some_part (fun code => code = offset_metadata_too_large) topics).
    { unfold adj. rewrite some_code_part. unfold some_part, too_large. split; intros (t1 & ps1 & p1 & c1 & S1 & S2 & S3); exists t1, ps1, p1, c1; (split; [exact S1|]; split; [exact S2|]); now apply Z.eqb_eq. }
    split; [intros X; apply ADJ in X; now rewrite X|]. split; [intros X; destruct adj; [exfalso; apply X, ADJ; reflexivity|exact MI]|].
    assert (ST' : cstep cfg s l = continue i o (send_end cfg (KCommit m0 ret) [(b, HPair true adj)] s1)) by (apply ST; destruct IC as (g & ts & ->); reflexivity). clear ST. unfold send_end in ST'.
    assert (HE : c_heal s1 = true <-> heals) by (rewrite HH, orb_true_iff, some_code_part; reflexivity).
    assert (T1 : In t (c_tocommit s1)) by now apply HT.
    assert (RS : forall s0, c_coord s0 = Some b -> resume cfg (KCommit m0 ret) [(b, HPair true adj)] s0 = commit_offsets cfg (Some (if adj then [] else m0)) ret s0).
    { intros s0 CB. cbn [resume]. unfold coord_result. rewrite CB. unfold dindex. cbn [dget]. rewrite eqb_refl. reflexivity. }
    split.
    - intros X. apply HE in X. rewrite X in ST'. split; [apply sent_eq; rewrite ST'; cbn; now rewrite A6, app_nil_r|]. intros ls p NH NP. set (s2 := crun cfg ls (cstep cfg s l)). intros CC.
      assert (D1 : dget (c_calls (cstep cfg s l)) i = Some (o, PHeal (KCommit m0 ret) [(b, HPair true adj)])) by (rewrite ST'; cbn; apply dget_dset_same).
      assert (D2 : dget (c_calls s2) i = Some (o, PHeal (KCommit m0 ret) [(b, HPair true adj)])) by (apply heal_waits_run; [apply reach_inv, reach_step, R|exact D1|exact NH]).
      assert (T2 : In t (c_tocommit s2)) by (apply tocommit_keeps_run; [apply reach_inv, reach_step, R|rewrite ST'; exact T1|exact NP]).
      assert (E2 : cstep cfg s2 (Healed i (Ok tt)) = continue i o (resume cfg (KCommit m0 ret) [(b, HPair true adj)] (set_heal false s2))) by (cbn [cstep]; rewrite D2; reflexivity).
      rewrite RS in E2 by apply CC. destruct (recommits (set_heal false s2) (if adj then [] else m0) ret b t p MS CC T2 US) as (g & ts & parts & X1 & X2 & X3). exists g, ts, parts. split; [|split; [exact X2|exact X3]].
      apply sent_eq. rewrite E2. destruct (continue_same i o (commit_offsets cfg (Some (if adj then [] else m0)) ret (set_heal false s2))) as (_ & _ & _ & _ & _ & _ & _ & _ & ->). exact X1.
    - intros X p (CB & OC & AL). assert (H2 : c_heal s1 = false) by (destruct (c_heal s1); [exfalso; apply X, HE; reflexivity|reflexivity]). rewrite H2 in ST'. rewrite RS in ST' by congruence.
      destruct (recommits s1 (if adj then [] else m0) ret b t p MS) as (g & ts & parts & X1 & X2 & X3); [split; [congruence|]; split; [unfold open_conn; rewrite A4; exact OC|unfold alloc_of in *; rewrite A4, A5; exact AL]|exact T1|exact US|].
      exists g, ts, parts. split; [|split; [exact X2|rewrite HP in X3 by discriminate; exact X3]]. apply sent_eq. rewrite ST'. destruct (continue_same i o (commit_offsets cfg (Some (if adj then [] else m0)) ret s1)) as (_ & _ & _ & _ & _ & _ & _ & _ & ->). rewrite <- A6. exact X1.
  Qed.
End C50.
(** a member that waits for the answer to the autocommit of both its partitions *)
Definition ex_committing : consumer Z := crun (ex_grouped true) (ex_consumed ++ [Arrive 2 2 (Ok (PFetch [(tt_, [(1, (0, [(7, msg 3)]))])]))]) (ex_member true).
Definition ex_commit_rq : request := RCommit (txt "g") [(tt_, [(0, (7, txt "committed by me")); (1, (8, txt "committed by me"))])].
Example C50_example : waits_for ex_committing 2 2 ex_commit_rq /\ In tt_ (c_tocommit ex_committing) /\
  sent (ex_grouped true) (cstep (ex_grouped true) ex_committing (Arrive 2 2 (Ok (PCommit [(tt_, [(0, 16); (1, 16)])])))) (Healed 2 (Ok tt)) = [(2, ex_commit_rq)] /\
  sent (ex_grouped true) ex_committing (Arrive 2 2 (Ok (PCommit [(tt_, [(0, offset_metadata_too_large); (1, offset_metadata_too_large)])]))) = [(2, RCommit (txt "g") [(tt_, [(0, (7, [])); (1, (8, []))])])].
Proof. split; [do 4 eexists; split; vm_compute; reflexivity|]. vm_compute. auto. Qed.
(** A partition with a retriable code is not committed again if another partition of its topic is acknowledged: the repeated
    commit then holds no topic at all. *)
Theorem C50_partly_acknowledged_refuted : exists (cfg : config Z) s, reachable cfg s /\ waits_for s 2 2 ex_commit_rq /\ c_coord s = Some 2 /\
  let s1 := cstep cfg s (Arrive 2 2 (Ok (PCommit [(tt_, [(0, no_error); (1, 16)])]))) in is_retriable 16 = true /\ alloc_of cfg s1 tt_ = [0; 1] /\
  sent cfg s1 (Healed 2 (Ok tt)) = [(2, RCommit (txt "g") [])] /\
  let s2 := crun cfg [Healed 2 (Ok tt); Arrive 2 2 (Ok (PCommit []))] s1 in
  c_ended s2 = c_ended s ++ [(2, OpConsume tt_ None, Ok (RvList [1; 2; 3]))] /\ sent cfg s2 (Call 3 (OpCommit None)) = [(2, RCommit (txt "g") [])].
Proof.
  exists (ex_grouped true), ex_committing. split; [unfold ex_committing, ex_member; exists ex_cluster, me; eexists; unfold crun; rewrite <- fold_left_app; reflexivity|].
  split; [do 4 eexists; split; vm_compute; reflexivity|]. vm_compute. auto 8.
Qed.

(** ** C51 *)
Section C51.
  Context {V : Type}.
  Variable cfg : config V.
  Notation st := (consumer V).
  Definition addresses (l : label) (i : Z) : Prop := match l with Call j _ | Arrive j _ _ | Healed j _ => j = i | _ => False end.
  Lemma others (s : st) l i : inv cfg s -> ~ addresses l i -> dget (c_calls (cstep cfg s l)) i = dget (c_calls s) i.
  Proof.
    intros I0 NA. pose proof (cstep_did cfg s l I0) as D.
    assert (CC : forall j o' (ns : next V * st) s1, j <> i -> c_calls s1 = c_calls s -> c_calls (snd ns) = c_calls s1 -> dget (c_calls (continue j o' ns)) i = dget (c_calls s) i).
    { intros j o' ns s1 NJ C1 C2. assert (N' : NoDup (dkeys (c_calls (snd ns)))) by (rewrite C2, C1; apply I0). destruct (continue_calls j o' ns i N') as [_ ->]. destruct (Z.eqb_spec i j) as [->|_]; [now destruct NJ|]. now rewrite C2, C1. }
    remember (cstep cfg s l) as s' eqn:EQ.
    destruct D as [l ID|j o' ns D E P|j b r o' k' w rs' rq D FI W IA HF NE F'|j b r o' k' w rs' rq ns D FI W IA E P|j r o' k' rs' s1 ns D FI E P|j r t' start ns D E P|k'|g fn ac name ev M|]; try reflexivity; cbn in NA.
    - destruct P as [(ex & M & S) _ _ _]. apply (CC j o' ns s); [exact NA|reflexivity|apply M].
    - destruct (answer_state_same cfg r s) as (C1 & _). apply (CC j o' _ (answer_state cfg r s)); [exact NA|exact C1|reflexivity].
    - destruct (answer_state_same cfg r s) as (C1 & _). destruct (paid_some cfg k' rs') as [lv PD]. destruct (P lv PD) as [(ex & M & S) _ _ _]. apply (CC j o' ns (answer_state cfg r s)); [exact NA|exact C1|apply M].
    - destruct (paid_some cfg k' rs') as [lv PD]. destruct (P lv PD) as [(ex & M & S) _ _ _]. apply (CC j o' ns s1); [exact NA|destruct E as [(u & _ & -> & _)|(e & _ & -> & _)]; reflexivity|apply M].
    - destruct P as [(ex & M & S) _ _ _]. apply (CC j _ ns s); [exact NA|reflexivity|apply M].
  Qed.
  Variables (g : text) (fn : list text -> list text -> res mapping) (ac : bool) (nm : text).
  Hypothesis MD : md cfg = Grouped g fn ac nm.
  (** where a determine_coordinator() call is in its loop over the brokers [ks], having turned to the brokers in [L] *)
  Definition in_turn (ks L : list Z) (a : Z) (rest : list Z) : Prop := exists m done, ks = done ++ a :: rest /\ L = concat (repeat ks m) ++ done ++ [a].
  Definition turning (ks : list Z) (i : Z) (L : list Z) (s : st) : Prop :=
    match dget (c_calls s) i with
    | Some (o, PSend (KCoord a rest) w _) => o = OpCoordinator /\ in_turn ks L a rest /\ w = [(a, RCoordinator g)]
    | Some (o, PHeal (KCoord a rest) _) => o = OpCoordinator /\ in_turn ks L a rest
    | Some _ => False
    | None => exists m done rest, ks = done ++ rest /\ L = concat (repeat ks m) ++ done
    end.
  Lemma in_turn_some ks L a rest : in_turn ks L a rest -> exists m done rest, ks = done ++ rest /\ L = concat (repeat ks m) ++ done.
  Proof. intros (m & done & E1 & E2). exists m, (done ++ [a]), rest. split; [now rewrite <- app_assoc|exact E2]. Qed.
  Lemma coord_next_turns ks L rest (s : st) : brokers s = ks -> (exists m done, ks = done ++ rest /\ L = concat (repeat ks m) ++ done) ->
    match coord_next cfg g rest s with
    | (Await p, _) => exists a rest', p = PSend (KCoord a rest') [(a, RCoordinator g)] [] /\ in_turn ks (L ++ [a]) a rest' /\ In a ks
    | (Return _, _) => False
    | (Raise_ e, _) => e = ENoBrokers /\ ks = [] \/ unsendable cfg (RCoordinator g) = Some e
    end.
  Proof using MD.
    intros BK (m & done & E1 & E2). unfold coord_next. fold (brokers s). rewrite BK.
    assert (NX : exists m done, ks = done ++ match rest with [] => ks | _ => rest end /\ L = concat (repeat ks m) ++ done).
    { destruct rest as [|a rest']; [|eauto]. exists (S m), []. split; [reflexivity|]. rewrite app_nil_r in E1. subst done. rewrite app_nil_r. rewrite E2. clear. induction m as [|m IH]; cbn [repeat concat app]; [now rewrite app_nil_r|]. rewrite <- app_assoc, IH. reflexivity. }
    destruct NX as (m' & done' & E3 & E4). destruct (match rest with [] => ks | _ => rest end) as [|a rest'] eqn:ER.
    - left. split; [reflexivity|]. destruct rest; [exact ER|discriminate ER].
    - assert (IK : In a ks) by (rewrite E3; apply in_app_iff; right; now left). unfold send_one, send_all. rewrite <- BK in IK. unfold brokers in IK. apply in_dkeys_dget in IK as (cn & IK). rewrite IK.
      assert (TT : exists m done, ks = done ++ a :: rest' /\ L ++ [a] = concat (repeat ks m) ++ done ++ [a]) by (exists m', done'; split; [exact E3|rewrite E4; now rewrite <- app_assoc]).
      assert (IK' : In a ks) by (rewrite E3; apply in_app_iff; right; now left).
      destruct (cc_closing cn); [exists a, rest'; auto|]. destruct (unsendable cfg (RCoordinator g)) eqn:US; [now right|exists a, rest'; auto].
  Qed.
  Lemma turning_step ks i L (s : st) l : reachable cfg s -> brokers s = ks -> (forall o, l <> Call i o) -> turning ks i L s -> turning ks i (L ++ turns_to cfg i s l) (cstep cfg s l).
  Proof using MD.
    intros R BK NC T. pose proof (reach_inv cfg s R) as I0.
    assert (OTH : dget (c_calls (cstep cfg s l)) i = dget (c_calls s) i -> turning ks i (L ++ turns_to cfg i s l) (cstep cfg s l)).
    { intros E. assert (TN : turns_to cfg i s l = []). { unfold turns_to. rewrite E. destruct (dget (c_calls s) i) as [[o [k w rs|k rs|t]]|]; try reflexivity; destruct o; reflexivity. } rewrite TN, app_nil_r. unfold turning in *. now rewrite E. }
    destruct l as [j o|j b r|j r|k|ev|]; try (apply OTH; reflexivity).
    - apply OTH, others; [exact I0|]. cbn. intros ->. now destruct (NC o).
    - destruct (Z.eqb_spec j i) as [->|NJ]; [|apply OTH, others; [exact I0|exact NJ]]. unfold turning in T.
      destruct (dget (c_calls s) i) as [[o [k w rs|k rs|t]]|] eqn:D; try (apply OTH; cbn [cstep]; now rewrite D). destruct k as [t rq|t|m ret|a rest]; try contradiction. destruct T as (-> & T & ->).
      destruct (dget [(a, RCoordinator g)] b) as [rq|] eqn:W; [|apply OTH; cbn [cstep]; now rewrite D, W].
      destruct (is_answer rq r) eqn:IA; [|apply OTH; cbn [cstep]; rewrite D, W; change (match r with Ok resp => answers rq resp | Err _ => true end) with (is_answer rq r); rewrite IA; exact D].
      pose proof (solo_answer cfg s i b r _ _ _ rs rq R D eq_refl W IA) as ST. assert (TN : turns_to cfg i s (Arrive i b r) = []) by (unfold turns_to; now rewrite D). rewrite TN, app_nil_r.
      cbn in W. destruct (Z.eqb_spec a b) as [->|]; [|discriminate W]. injection W as <-.
      assert (GEN : forall ns : next V * st, (forall p, fst ns <> Await p) \/ (exists rs', fst ns = Await (PHeal (KCoord b rest) rs')) -> c_calls (snd ns) = c_calls (answer_state cfg r s) -> turning ks i L (continue i OpCoordinator ns)).
      { intros ns H C2. destruct (answer_state_same cfg r s) as (C1 & _). assert (N' : NoDup (dkeys (c_calls (snd ns)))) by (rewrite C2, C1; apply I0). destruct (continue_calls i OpCoordinator ns i N') as [_ X]. rewrite Z.eqb_refl in X. unfold turning. rewrite X.
        destruct H as [H|(rs' & H)]; [|rewrite H; auto]. destruct (fst ns); [now destruct (H p)|eapply in_turn_some, T|eapply in_turn_some, T]. }
      rewrite ST. destruct r as [resp|e]; cbn [handler_fails answer_results answer_state] in *.
      + destruct resp as [ts|ts|ts|ts|code id]; try discriminate IA. cbn [handle] in *. unfold send_end. destruct (code =? no_error); [|destruct (is_retriable code)]; cbn [fst snd set_coord set_heal c_heal app resume dindex dget] in *.
        * destruct (c_heal s); [apply GEN; [right; eexists; reflexivity|reflexivity]|]. unfold dindex. cbn [dget]. rewrite eqb_refl. apply GEN; [left; discriminate|reflexivity].
        * apply GEN; [right; eexists; reflexivity|reflexivity].
        * destruct (c_heal s); [apply GEN; [right; eexists; reflexivity|reflexivity]|]. unfold dindex. cbn [dget]. rewrite eqb_refl. apply GEN; [left; discriminate|reflexivity].
      + unfold send_end. destruct (c_heal _); [apply GEN; [right; eexists; reflexivity|reflexivity]|]. cbn [resume dindex dget]. unfold dindex. cbn [dget]. apply GEN; [left; discriminate|reflexivity].
    - destruct (Z.eqb_spec j i) as [->|NJ]; [|apply OTH, others; [exact I0|exact NJ]]. unfold turning in T.
      destruct (dget (c_calls s) i) as [[o [k w rs|k rs|t]]|] eqn:D; try (apply OTH; cbn [cstep]; now rewrite D). destruct k as [t rq|t|m ret|a rest]; try contradiction. destruct T as (-> & T).
      assert (EN : forall v, cstep cfg s (Healed i r) = continue i OpCoordinator v -> c_calls (snd v) = c_calls s -> (forall p, fst v <> Await p) -> turning ks i (L ++ turns_to cfg i s (Healed i r)) (cstep cfg s (Healed i r))).
      { intros v E C N. assert (N' : NoDup (dkeys (c_calls (snd v)))) by (rewrite C; apply I0). destruct (continue_calls i OpCoordinator v i N') as [_ X]. rewrite Z.eqb_refl in X. rewrite <- E in X.
        assert (X' : dget (c_calls (cstep cfg s (Healed i r))) i = None) by (rewrite X; destruct (fst v); [now destruct (N p)|reflexivity..]).
        unfold turns_to. rewrite D, X'. rewrite app_nil_r. unfold turning. rewrite X'. eapply in_turn_some, T. }
      destruct r as [u|e]; [|apply (EN (Raise_ e, s)); [cbn [cstep]; rewrite D; reflexivity|reflexivity|discriminate]].
      assert (E : cstep cfg s (Healed i (Ok u)) = continue i OpCoordinator (resume cfg (KCoord a rest) rs (set_heal false s))) by (cbn [cstep]; rewrite D; reflexivity).
      destruct (dindex rs a) as [v|e] eqn:DI; [|apply (EN (Raise_ e, set_heal false s)); [rewrite E; cbn [resume]; rewrite DI; reflexivity|reflexivity|discriminate]].
      destruct (match v with HBool true => true | _ => false end) eqn:VB.
      + apply (EN (Return RvNone, set_heal false s)); [|reflexivity|discriminate]. rewrite E. cbn [resume]. rewrite DI. destruct v as [|?|[]|?]; try discriminate VB. reflexivity.
      + assert (E' : resume cfg (KCoord a rest) rs (set_heal false s) = coord_next cfg g rest (set_heal false s)) by (cbn [resume]; rewrite DI, MD; destruct v as [|?|[]|?]; try discriminate VB; reflexivity). rewrite E' in E.
        destruct (paid_some cfg (KCoord a rest) rs) as [lv PD]. destruct (resume_piece cfg OpCoordinator lv (KCoord a rest) rs (set_heal false s)) as [(ex & M & _) _ _ _]; [apply (proj2 I0 _ _ _ D)|exact PD|]. rewrite E' in M.
        destruct T as (m & done & T1 & T2). pose proof (coord_next_turns ks L rest (set_heal false s) BK) as CN. assert (T3 : exists m done, ks = done ++ rest /\ L = concat (repeat ks m) ++ done) by (exists m, (done ++ [a]); split; [now rewrite <- app_assoc|exact T2]). specialize (CN T3).
        destruct (coord_next cfg g rest (set_heal false s)) as [n s1] eqn:CE. cbn [fst snd] in *. destruct n as [p|v0|e0]; [|contradiction|apply (EN (Raise_ e0, s1)); [exact E|apply M|discriminate]].
        destruct CN as (a' & rest' & -> & IT & IK). assert (X : dget (c_calls (cstep cfg s (Healed i (Ok u)))) i = Some (OpCoordinator, PSend (KCoord a' rest') [(a', RCoordinator g)] [])) by (rewrite E; cbn [continue set_calls c_calls]; apply dget_dset_same).
        unfold turns_to, turning. rewrite D, X. cbn [dkeys map fst]. auto.
    - apply OTH, others; [exact I0|intros []].
  Qed.
  Lemma turning_run ks i ls : forall L (s : st), reachable cfg s -> brokers s = ks -> each_step cfg (fun s l => brokers (cstep cfg s l) = ks) ls s -> (forall o, ~ In (Call i o) ls) -> turning ks i L s ->
    turning ks i (L ++ turned_to cfg i ls s) (crun cfg ls s).
  Proof using MD.
    induction ls as [|l ls IH]; intros L s R BK ES NC T; [cbn [turned_to crun fold_left]; now rewrite app_nil_r|]. destruct ES as [E1 E2]. cbn [turned_to crun fold_left]. rewrite app_assoc. apply IH; [now apply reach_step|exact E1|exact E2|intros o X; apply (NC o); now right|].
    apply turning_step; [exact R|exact BK|intros o ->; apply (NC o); now left|exact T].
  Qed.
  Lemma turning_start ks i (s : st) : reachable cfg s -> brokers s = ks -> dget (c_calls s) i = None -> turning ks i (turns_to cfg i s (Call i OpCoordinator)) (cstep cfg s (Call i OpCoordinator)).
  Proof using MD.
    intros R BK D. pose proof (reach_inv cfg s R) as I0. assert (E : cstep cfg s (Call i OpCoordinator) = continue i OpCoordinator (coord_next cfg g [] s)) by (cbn [cstep]; unfold dmem; rewrite D, MD; reflexivity).
    pose proof (coord_next_turns ks [] [] s BK) as CN. assert (T3 : exists m done, ks = done ++ [] /\ @nil Z = concat (repeat ks m) ++ done \/ True) by (exists O, []; now right).
    assert (NB : match match @nil Z with [] => dkeys (k_conns (c_cluster s)) | r => r end with [] => ks = [] | a :: rest' => ks = a :: rest' end) by (fold (brokers s); rewrite BK; destruct ks; reflexivity).
    clear CN T3. rewrite E. unfold turns_to. rewrite D, E. unfold coord_next in *. destruct (dkeys (k_conns (c_cluster s))) as [|a rest'] eqn:DK.
    - cbn [continue set_ended set_calls c_calls]. rewrite dget_ddel_same by apply I0. unfold turning. cbn [set_ended set_calls c_calls continue]. rewrite dget_ddel_same by apply I0. exists O, [], ks. auto.
    - assert (DN : exists cn, dget (k_conns (c_cluster s)) a = Some cn) by (apply in_dkeys_dget; rewrite DK; now left). destruct DN as [cn DN]. unfold send_one, send_all. rewrite DN.
      assert (IT : in_turn ks [a] a rest') by (exists O, []; split; [exact NB|reflexivity]).
      assert (AW : forall s0 : st, turning ks i (match dget (c_calls (continue i OpCoordinator (Await (PSend (KCoord a rest') [(a, RCoordinator g)] []), s0))) i with Some (OpCoordinator, PSend _ w _) => dkeys w | _ => [] end) (continue i OpCoordinator (Await (PSend (KCoord a rest') [(a, RCoordinator g)] []), s0))).
      { intros s0. cbn [continue set_calls c_calls]. rewrite dget_dset_same. unfold turning. cbn [set_calls c_calls]. rewrite dget_dset_same. auto. }
      destruct (cc_closing cn); [apply AW|]. destruct (unsendable cfg (RCoordinator g)); [|apply AW].
      cbn [continue set_ended set_calls c_calls]. rewrite dget_ddel_same by apply I0. unfold turning. cbn [set_ended set_calls c_calls continue]. rewrite dget_ddel_same by apply I0. exists O, [], ks. auto.
  Qed.
  (** While the cluster's list of brokers stays the same, a determine_coordinator() call turns to them in turn, and starts over
      after the last one. *)
  Theorem C51_in_turn : forall ks (s : st) i ls, reachable cfg s -> dget (c_calls s) i = None -> brokers s = ks -> each_step cfg (fun s l => brokers (cstep cfg s l) = ks) ls (cstep cfg s (Call i OpCoordinator)) -> (forall o, ~ In (Call i o) ls) ->
    exists m done rest, ks = done ++ rest /\ turned_to cfg i (Call i OpCoordinator :: ls) s = concat (repeat ks m) ++ done.
  Proof using MD.
    intros ks s i ls R D BK ES NC. pose proof (turning_start ks i s R BK D) as T0. cbn [turned_to].
    assert (BK1 : brokers (cstep cfg s (Call i OpCoordinator)) = ks).
    { destruct (step_cases cfg s (Call i OpCoordinator) (reach_inv cfg s R)) as [(j & o & look & s1 & ns & ex & A)|[(-> & _)|[(k & E & _)|[(E & _)|(g0 & fn0 & ac0 & name & ev & _ & E & _)]]]]; [|exact BK|discriminate E|discriminate E|discriminate E].
      destruct (acts_before _ _ _ _ _ _ _ _ _ A) as (_ & _ & _ & CL & _). destruct A as [E M _ _ _]. rewrite E. unfold brokers in *. destruct (continue_same j o ns) as (_ & _ & _ & _ & -> & _). now rewrite (p_conns _ _ _ _ _ _ M), CL. }
    pose proof (turning_run ks i ls _ _ (reach_step cfg s (Call i OpCoordinator) R) BK1 ES NC T0) as T. revert T. unfold turning. destruct (dget (c_calls (crun cfg ls (cstep cfg s (Call i OpCoordinator)))) i) as [[o [k w rs|k rs|t]]|]; try contradiction; [destruct k; try contradiction; intros (_ & T & _); eapply in_turn_some, T|destruct k; try contradiction; intros (_ & T); eapply in_turn_some, T|auto].
  Qed.
  Lemma coord_call (s : st) i b g0 : reachable cfg s -> waits_for s i b (RCoordinator g0) -> exists rest w rs, dget (c_calls s) i = Some (OpCoordinator, PSend (KCoord b rest) w rs) /\ dget w b = Some (RCoordinator g0).
  Proof using MD.
    intros R (o & k & w & rs & D & W). destruct (proj2 (reach_inv cfg s R) _ _ _ D) as [FC WS]. pose proof (ws_asks _ _ _ _ WS b _ (dget_In _ _ _ W)) as A.
    destruct k as [t' [rq0|]|t'|m ret|a r0]; cbn in A.
    - subst rq0. destruct o; try contradiction. destruct FC as (_ & FC). rewrite MD in FC. destruct FC as (? & FC). discriminate FC.
    - destruct A as (? & A). discriminate A.
    - destruct A as (? & A). discriminate A.
    - destruct A as (? & ? & A). discriminate A.
    - destruct A as (<- & _). destruct o; try contradiction. eauto 6.
  Qed.
  (** An answer without error sets the coordinator, and the call returns: at once, or after the heal that is due. *)
  Theorem C51_found : forall (s : st) i b g0 id, reachable cfg s -> waits_for s i b (RCoordinator g0) -> let l := Arrive i b (Ok (PCoordinator no_error id)) in
    c_coord (cstep cfg s l) = Some id /\ sent cfg s l = [] /\
    (c_heal s = false -> c_ended (cstep cfg s l) = c_ended s ++ [(i, OpCoordinator, Ok RvNone)]) /\
    (c_heal s = true -> forall ls, (forall r, ~ In (Healed i r) ls) -> let s2 := crun cfg ls (cstep cfg s l) in
       sent cfg s2 (Healed i (Ok tt)) = [] /\ c_ended (cstep cfg s2 (Healed i (Ok tt))) = c_ended s2 ++ [(i, OpCoordinator, Ok RvNone)]).
  Proof using MD.
    intros s i b g0 id R WF l. destruct (coord_call s i b g0 R WF) as (rest & w & rs & D & W).
    pose proof (solo_answer cfg s i b (Ok (PCoordinator no_error id)) _ _ w rs (RCoordinator g0) R D eq_refl W eq_refl) as ST. fold l in ST. cbn [handler_fails answer_results answer_state handle Z.eqb no_error fst snd app] in ST. unfold send_end in ST. cbn [set_coord c_heal] in ST.
    destruct (c_heal s) eqn:HE.
    - split; [now rewrite ST|]. split; [apply sent_eq; rewrite ST; cbn; now rewrite app_nil_r|]. split; [discriminate|]. intros _ ls NH. set (s2 := crun cfg ls (cstep cfg s l)).
      assert (D1 : dget (c_calls (cstep cfg s l)) i = Some (OpCoordinator, PHeal (KCoord b rest) [(b, HBool true)])) by (rewrite ST; cbn; apply dget_dset_same).
      assert (D2 : dget (c_calls s2) i = Some (OpCoordinator, PHeal (KCoord b rest) [(b, HBool true)])) by (apply heal_waits_run; [apply reach_inv, reach_step, R|exact D1|exact NH]).
      assert (E2 : cstep cfg s2 (Healed i (Ok tt)) = continue i OpCoordinator (Return RvNone, set_heal false s2)) by (cbn [cstep]; rewrite D2; cbn [resume dindex dget]; unfold dindex; cbn [dget]; rewrite eqb_refl; reflexivity).
      split; [apply sent_eq; rewrite E2; cbn; now rewrite app_nil_r|rewrite E2; reflexivity].
    - cbn [resume] in ST. unfold dindex in ST. cbn [dget] in ST. rewrite eqb_refl in ST. split; [now rewrite ST|]. split; [apply sent_eq; rewrite ST; cbn; now rewrite app_nil_r|]. split; [intros _; rewrite ST; reflexivity|discriminate].
  Qed.
  (** After an answer with a retriable code the call waits for a heal, and then turns to a broker of the cluster again. *)
  Theorem C51_goes_on_partial : forall ks (s0 : st) i ls b g0 code id ls2, reachable cfg s0 -> dget (c_calls s0) i = None -> brokers s0 = ks -> (forall o, ~ In (Call i o) (ls ++ ls2)) -> (forall r, ~ In (Healed i r) ls2) -> unsendable cfg (RCoordinator g) = None ->
    let s := crun cfg (Call i OpCoordinator :: ls) s0 in let l := Arrive i b (Ok (PCoordinator code id)) in let s2 := crun cfg ls2 (cstep cfg s l) in
    each_step cfg (fun s l => brokers (cstep cfg s l) = ks) (Call i OpCoordinator :: ls ++ l :: ls2) s0 -> waits_for s i b (RCoordinator g0) -> is_retriable code = true ->
    sent cfg s l = [] /\ exists b', In b' ks /\ waits_for (cstep cfg s2 (Healed i (Ok tt))) i b' (RCoordinator g) /\ (open_conn s2 b' = true -> sent cfg s2 (Healed i (Ok tt)) = [(b', RCoordinator g)]).
  Proof using MD.
    intros ks s0 i ls b g0 code id ls2 R0 D0 BK NC NH US s l s2 [ES0 ES] WF RT.
    assert (R : reachable cfg s) by (apply reach_run; exact R0).
    assert (SP : forall l1 (s' : st) l2, each_step cfg (fun s l => brokers (cstep cfg s l) = ks) (l1 ++ l2) s' -> each_step cfg (fun s l => brokers (cstep cfg s l) = ks) l1 s' /\ each_step cfg (fun s l => brokers (cstep cfg s l) = ks) l2 (crun cfg l1 s')).
    { intros l1. induction l1 as [|x l1 IH]; intros s' l2 H; [split; [exact I|exact H]|]. destruct H as [H1 H2]. destruct (IH _ _ H2) as [A B]. split; [split; [exact H1|exact A]|exact B]. }
    destruct (SP ls _ (l :: ls2) ES) as [ES1 [ES2 ES3]]. change (crun cfg ls (cstep cfg s0 (Call i OpCoordinator))) with s in ES2, ES3.
    pose proof (turning_run ks i ls _ _ (reach_step cfg s0 (Call i OpCoordinator) R0) ES0 ES1 (fun o X => NC o (proj2 (in_app_iff _ _ _) (or_introl X))) (turning_start ks i s0 R0 BK D0)) as T. change (crun cfg ls (cstep cfg s0 (Call i OpCoordinator))) with s in T.
    assert (BS : brokers s = ks).
    { clear - ES0 ES1. unfold s. cbn [crun fold_left]. revert ES0 ES1. generalize (cstep cfg s0 (Call i OpCoordinator)). induction ls as [|x ls IH]; intros s' B H; [exact B|]. destruct H as [H1 H2]. now apply (IH (cstep cfg s' x)). }
    destruct (coord_call s i b g0 R WF) as (rest & w & rs & D & W).
    pose proof (solo_answer cfg s i b (Ok (PCoordinator code id)) _ _ w rs (RCoordinator g0) R D eq_refl W eq_refl) as ST. fold l in ST. cbn [handler_fails answer_results answer_state handle] in ST.
    assert (C0 : (code =? no_error) = false) by (destruct (Z.eqb_spec code no_error) as [->|]; [discriminate RT|reflexivity]). rewrite C0, RT in ST. cbn [fst snd app] in ST. unfold send_end in ST. cbn [set_heal c_heal] in ST.
    split; [apply sent_eq; rewrite ST; cbn; now rewrite app_nil_r|].
    assert (D1 : dget (c_calls (cstep cfg s l)) i = Some (OpCoordinator, PHeal (KCoord b rest) [(b, HBool false)])) by (rewrite ST; cbn; apply dget_dset_same).
    assert (D2 : dget (c_calls s2) i = Some (OpCoordinator, PHeal (KCoord b rest) [(b, HBool false)])) by (apply heal_waits_run; [apply reach_inv, reach_step, R|exact D1|exact NH]).
    unfold turning in T. rewrite D in T. destruct T as (_ & (m & done & T1 & T2) & _).
    assert (B2 : brokers (set_heal false s2) = ks).
    { change (brokers (set_heal false s2)) with (brokers s2). clear - ES2 ES3. unfold s2. revert ES2 ES3. generalize (cstep cfg s l). induction ls2 as [|x ls2 IH]; intros s' B H; [exact B|]. destruct H as [H1 H2]. now apply (IH (cstep cfg s' x)). }
    pose proof (coord_next_turns ks (concat (repeat ks m) ++ done ++ [b]) rest (set_heal false s2) B2) as CN. assert (T3 : exists m' done', ks = done' ++ rest /\ concat (repeat ks m) ++ done ++ [b] = concat (repeat ks m') ++ done') by (exists m, (done ++ [b]); split; [now rewrite <- app_assoc|reflexivity]). specialize (CN T3).
    assert (E2 : cstep cfg s2 (Healed i (Ok tt)) = continue i OpCoordinator (coord_next cfg g rest (set_heal false s2))) by (cbn [cstep]; rewrite D2; cbn [resume]; unfold dindex; cbn [dget]; rewrite eqb_refl, MD; reflexivity).
    assert (SW : forall a, open_conn s2 a = true -> forall rest', fst (coord_next cfg g rest (set_heal false s2)) = Await (PSend (KCoord a rest') [(a, RCoordinator g)] []) -> c_wire (snd (coord_next cfg g rest (set_heal false s2))) = c_wire s2 ++ [(a, RCoordinator g)]).
    { intros a OC rest'. unfold coord_next. destruct (match rest with [] => _ | _ => _ end) as [|a1 r1]; [discriminate|]. unfold send_one, send_all. cbn [set_heal c_cluster]. destruct (dget (k_conns (c_cluster s2)) a1) as [cn|] eqn:DC; [|discriminate].
      destruct (cc_closing cn) eqn:CL; cbn [fst snd].
      - intros X. injection X as -> _. exfalso. unfold open_conn in OC. rewrite DC, CL in OC. discriminate OC.
      - rewrite US. cbn [fst snd]. intros X. injection X as -> _. reflexivity. }
    destruct (coord_next cfg g rest (set_heal false s2)) as [n s3] eqn:CE. cbn [fst snd] in SW. destruct n as [p|v|e]; [|contradiction|].
    - destruct CN as (a & rest' & -> & _ & IK). exists a. split; [exact IK|]. rewrite E2. split; [do 4 eexists; split; [cbn [continue set_calls c_calls]; apply dget_dset_same|cbn [dget]; now rewrite eqb_refl]|].
      intros OC. apply sent_eq. rewrite E2. cbn. exact (SW a OC rest' eq_refl).
    - exfalso. destruct CN as [[_ CN]|CN]; [|congruence]. rewrite T1 in CN. destruct done; discriminate CN.
  Qed.
  Theorem C51_no_brokers : forall (s : st) i, dget (c_calls s) i = None -> brokers s = [] -> c_ended (cstep cfg s (Call i OpCoordinator)) = c_ended s ++ [(i, OpCoordinator, Err ENoBrokers)] /\ sent cfg s (Call i OpCoordinator) = [].
  Proof using MD.
    intros s i D BK. assert (E : cstep cfg s (Call i OpCoordinator) = continue i OpCoordinator (Raise_ ENoBrokers, s)) by (cbn [cstep]; unfold dmem; rewrite D, MD; unfold coord_next; unfold brokers in BK; rewrite BK; reflexivity).
    split; [rewrite E; reflexivity|apply sent_eq; rewrite E; cbn; now rewrite app_nil_r].
  Qed.
End C51.
(** a cluster with brokers 1 and 2: broker 1 does not know the coordinator yet, broker 2 does *)
Definition ex_unjoined : consumer Z := consumer_init ex_cluster me.
Definition ex_search : list label := [Arrive 1 1 (Ok (PCoordinator 15 (-1))); Healed 1 (Ok tt); Arrive 1 2 (Ok (PCoordinator 15 (-1))); Healed 1 (Ok tt)].
Example C51_example : let cfg := ex_grouped true in brokers ex_unjoined = [1; 2] /\ is_retriable 15 = true /\
  turned_to cfg 1 (Call 1 OpCoordinator :: ex_search) ex_unjoined = [1; 2; 1] /\
  sent cfg (crun cfg (Call 1 OpCoordinator :: firstn 1 ex_search) ex_unjoined) (Healed 1 (Ok tt)) = [(2, RCoordinator (txt "g"))] /\
  let s := crun cfg (Call 1 OpCoordinator :: ex_search) ex_unjoined in waits_for s 1 1 (RCoordinator (txt "g")) /\ c_ended (cstep cfg s (Arrive 1 1 (Ok (PCoordinator 0 2)))) = [(1, OpCoordinator, Ok RvNone)].
Proof. cbv zeta. split; [vm_compute; reflexivity|]. split; [reflexivity|]. split; [vm_compute; reflexivity|]. split; [vm_compute; reflexivity|]. split; [do 4 eexists; split; vm_compute; reflexivity|vm_compute; reflexivity]. Qed.
(** A broker whose connection fails is not passed over: the call raises KeyError, and broker 2 is not asked. *)
Theorem C51_connection_failure_refuted : exists (cfg : config Z) s ls e, reachable cfg s /\ brokers s = [1; 2] /\ waits_for s 1 1 (RCoordinator (txt "g")) /\ ls = [Arrive 1 1 (Err e); Healed 1 (Ok tt)] /\
  c_ended (crun cfg ls s) = [(1, OpCoordinator, Err EKey)] /\ c_wire (crun cfg ls s) = [(1, RCoordinator (txt "g"))].
Proof.
  exists (ex_grouped true), (crun (ex_grouped true) [Call 1 OpCoordinator] ex_unjoined), [Arrive 1 1 (Err EBrokerConn); Healed 1 (Ok tt)], EBrokerConn. split; [exists ex_cluster, me, [Call 1 OpCoordinator]; reflexivity|].
  split; [vm_compute; reflexivity|]. split; [do 4 eexists; split; vm_compute; reflexivity|]. split; [reflexivity|]. split; vm_compute; reflexivity.
Qed.
(** An answer with a code that is not retriable ends the call although no coordinator is known; the next consume() raises
    KeyError. *)
Theorem C51_fatal_code_refuted : exists (cfg : config Z) s, reachable cfg s /\ waits_for s 1 1 (RCoordinator (txt "g")) /\
  let s1 := crun cfg [Arrive 1 1 (Ok (PCoordinator 30 (-1))); Call 2 (OpConsume tt_ None)] s in c_coord s1 = None /\ c_ended s1 = [(1, OpCoordinator, Ok RvNone); (2, OpConsume tt_ None, Err EKey)].
Proof.
  exists (ex_grouped true), (crun (ex_grouped true) (firstn 3 ex_joined) ex_unjoined). split; [exists ex_cluster, me, (firstn 3 ex_joined); reflexivity|]. split; [do 4 eexists; split; vm_compute; reflexivity|]. vm_compute. auto.
Qed.

Print Assumptions C50_again_partial.
Print Assumptions C50_partly_acknowledged_refuted.
Print Assumptions C51_in_turn.
Print Assumptions C51_found.
Print Assumptions C51_goes_on_partial.
Print Assumptions C51_no_brokers.
Print Assumptions C51_connection_failure_refuted.
Print Assumptions C51_fatal_code_refuted.
Print Assumptions C52_loaded_first.
Print Assumptions C52_asked_again.
Print Assumptions C52_fatal.
