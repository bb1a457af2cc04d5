(** Properties C48-C52: the group consumer. *)
From Coq Require Import ZArith String List Bool Lia Permutation.
From Verif Require Import PyBase BaseLemmas Constants Cluster Zookeeper SpecZk Consumer SpecConsumer SpecGroup ConsumerProofs ConsumerSteps ConsumerRuns ConsumerSync GroupProofs AllocRuns PropsConsumer.
Import ListNotations.
Open Scope Z_scope.
Set Default Proof Using "Type".

(** ** C49: commit requests *)
Section C49.
  Context {V : Type}.
  Variable cfg : config V.
  Notation st := (consumer V).
  (** A commit request goes to the coordinator, over an open connection; it names the topics to be committed that have
      partitions, each once, and for each of them exactly the allocated partitions with their positions. *)
  Theorem C49_commit_requests : forall (s : st) l b rq, returns_dicts cfg -> reachable cfg s -> In (b, rq) (sent cfg s l) -> is_commit rq -> let s' := cstep cfg s l in
    exists topics m, (exists g fn ac name, md cfg = Grouped g fn ac name /\ rq = RCommit g topics) /\ c_coord s' = Some b /\ open_conn s' b = true /\ NoDup (map fst topics) /\
      (forall t parts, In (t, parts) topics -> In t (c_tocommit s') /\ map fst parts = alloc_of cfg s' t /\ forall p o x, In (p, (o, x)) parts -> o = position s' t p /\ x = m) /\
      (forall t, In t (c_tocommit s') -> alloc_of cfg s' t <> [] -> exists parts, In (t, parts) topics).
  Proof.
    intros s l b rq RD R H (g0 & topics0 & ->) s'. pose proof (proper_reach cfg s' RD (reach_step cfg s l R)) as ND. destruct (sent_cases cfg s l (reach_inv cfg s R)) as (i & o & look & s1 & ns & A); [intros E; rewrite E in H; destruct H|].
    destruct A as [E M S _ _]. unfold s' in *. clear s'. rewrite E in *. destruct (continue_views cfg i o ns) as (PO & LE & AL & OC & OW). destruct (continue_same i o ns) as (_ & _ & _ & _ & _ & CO & CA & TC & _). cbv zeta in *.
    remember (sent cfg s l) as ex eqn:EX. clear EX. destruct S as [|t' start rqs pre post O FE RE D ex X|t' start rqs pre post _ _ O L RE D ex X|t' start b0 g fn ac name ps _ _ _ _ _ _|m ret b0 g fn ac name am MD _ _ CB OB OM _|b0 rest g fn ac name _ _ _ _].
    - destruct H.
    - exfalso. subst ex. apply filter_In in H as [H _]. assert (HR : In (b, RCommit g0 topics0) rqs) by (rewrite RE; apply in_app_iff; now left). destruct FE as (_ & _ & _ & L). destruct (L _ _ HR) as (parts & _ & X & _). discriminate X.
    - exfalso. subst ex. apply filter_In in H as [H _]. assert (HR : In (b, RCommit g0 topics0) rqs) by (rewrite RE; apply in_app_iff; now left). destruct L as (_ & _ & L). destruct (L _ _ HR) as (parts & _ & X & _). discriminate X.
    - destruct H as [H|[]]. discriminate H.
    - destruct H as [H|[]]. injection H as <- <- <-. assert (N : NoDup (dkeys am)) by (rewrite CA in ND; eapply ND, OM). clear ND.
      assert (AG : forall t, alloc_of cfg (continue i o ns) t = match dget am t with Some ps => ps | None => [] end).
      { intros t. rewrite AL. unfold alloc_of, gives_to. rewrite MD. unfold own_map in OM. rewrite OM. reflexivity. }
      exists (commit_of (snd ns) m am), m. split; [eauto 6|]. split; [congruence|]. split; [now rewrite OC|].
      assert (FK : forall t ps, In (t, ps) (filter (fun tp => smem (c_tocommit (snd ns)) (fst tp)) am) <-> dget am t = Some ps /\ In t (c_tocommit (snd ns))).
      { intros t ps. rewrite filter_In. cbn [fst]. rewrite smem_In. split; intros [A B]; (split; [|exact B]); [now apply In_dget_nodup|now apply dget_In]. }
      split; [|split].
      + unfold commit_of. rewrite map_map. cbn [fst]. unfold dkeys in N. clear - N. induction am as [|[t ps] am IH]; [constructor|]. cbn [map fst] in N. inversion N; subst. cbn [filter fst]. destruct (smem _ t); [|now apply IH]. cbn [map fst]. constructor; [|now apply IH].
        intros X. apply H1. apply in_map_iff in X as (y & Y & HY). apply filter_In in HY as [HY _]. apply in_map_iff. eauto.
      + intros t parts H. unfold commit_of in H. apply in_map_iff in H as ([t1 ps] & E1 & H). cbn [fst snd] in E1. injection E1 as -> <-. apply FK in H as [H1 H2]. rewrite TC. split; [exact H2|]. rewrite AG, H1. rewrite map_map. cbn [fst]. rewrite map_id. split; [reflexivity|].
        intros p o' x HP. apply in_map_iff in HP as (p' & E1 & _). injection E1 as <- <- <-. rewrite PO. auto.
      + intros t HT HA. rewrite TC in HT. rewrite AG in HA. destruct (dget am t) as [ps|] eqn:DA; [|now destruct HA]. eexists. unfold commit_of. apply in_map_iff. exists (t, ps). split; [reflexivity|]. apply FK. auto.
    - destruct H as [H|[]]. discriminate H.
  Qed.
  (** The topics to be committed are those a consume() finished on since a commit of them was last acknowledged. *)
  Lemma tocommit_run k name t ls : In t (c_tocommit (crun cfg ls (consumer_init k name))) ->
    exists ls1 l1 ls2, ls = ls1 ++ l1 :: ls2 /\ finishes cfg t (crun cfg ls1 (consumer_init k name)) l1 /\ each_step cfg (fun s l => ~ acks t s l) ls2 (crun cfg (ls1 ++ [l1]) (consumer_init k name)).
  Proof.
    induction ls as [|l ls IH] using rev_ind; [intros []|]. unfold crun in *. rewrite fold_left_app. cbn [fold_left]. intros H.
    destruct (tocommit_step cfg t _ l (inv_run cfg ls _ (inv_init cfg k name)) H) as [[H1 H2]|H1].
    - destruct (IH H1) as (ls1 & l1 & ls2 & -> & F & E). exists ls1, l1, (ls2 ++ [l]). split; [now rewrite <- app_assoc|]. split; [exact F|].
      replace (ls1 ++ l1 :: ls2) with ((ls1 ++ [l1]) ++ ls2) in H2 by now rewrite <- app_assoc. unfold crun in H2; rewrite fold_left_app in H2. revert E H2. generalize (fold_left (cstep cfg) (ls1 ++ [l1]) (consumer_init k name)). clear. induction ls2 as [|x ls2 IH]; intros s E N; cbn [app each_step fold_left] in *; [auto|]. destruct E. auto.
    - exists ls, l, []. split; [reflexivity|]. split; [exact H1|exact I].
  Qed.
  Theorem C49_consumed_since : forall k name ls l b g topics t parts, In (b, RCommit g topics) (sent cfg (crun cfg ls (consumer_init k name)) l) -> In (t, parts) topics ->
    exists ls1 l1 ls2, ls ++ [l] = ls1 ++ l1 :: ls2 /\ finishes cfg t (crun cfg ls1 (consumer_init k name)) l1 /\ each_step cfg (fun s l => ~ acks t s l) ls2 (crun cfg (ls1 ++ [l1]) (consumer_init k name)).
  Proof.
    intros k name ls l b g topics t parts H HT. apply tocommit_run. unfold crun. rewrite fold_left_app. cbn [fold_left]. fold (crun cfg ls (consumer_init k name)).
    set (s := crun cfg ls (consumer_init k name)) in *. assert (I0 : inv cfg s) by apply inv_run, inv_init. clearbody s.
    destruct (sent_cases cfg s l I0) as (i & o & look & s1 & ns & A); [intros E; rewrite E in H; destruct H|]. destruct A as [E M S _ _]. rewrite E. destruct (continue_same i o ns) as (_ & _ & _ & _ & _ & _ & _ & TC & _). rewrite TC.
    remember (sent cfg s l) as ex eqn:EX. clear EX. destruct S as [|t' start rqs pre post O FE RE D ex X|t' start rqs pre post _ _ O L RE D ex X|t' start b0 g1 fn ac nm ps _ _ _ _ _ _|m ret b0 g1 fn ac nm am MD _ _ CB OB OM _|b0 rest g1 fn ac nm _ _ _ _].
    - destruct H.
    - exfalso. subst ex. apply filter_In in H as [H _]. assert (HR : In (b, RCommit g topics) rqs) by (rewrite RE; apply in_app_iff; now left). destruct FE as (_ & _ & _ & L). destruct (L _ _ HR) as (? & _ & X & _). discriminate X.
    - exfalso. subst ex. apply filter_In in H as [H _]. assert (HR : In (b, RCommit g topics) rqs) by (rewrite RE; apply in_app_iff; now left). destruct L as (_ & _ & L). destruct (L _ _ HR) as (? & _ & X & _). discriminate X.
    - destruct H as [H|[]]. discriminate H.
    - destruct H as [H|[]]. injection H as _ _ <-. unfold commit_of in HT. apply in_map_iff in HT as ([t1 ps] & E1 & H). injection E1 as -> _. apply filter_In in H as [_ H]. now apply smem_In in H.
    - destruct H as [H|[]]. discriminate H.
  Qed.
  (** With autocommit off, only commit_offsets() calls send commit requests. *)
  Theorem C49_no_autocommit : forall (s : st) l b rq g fn name, md cfg = Grouped g fn false name -> reachable cfg s -> In (b, rq) (sent cfg s l) -> is_commit rq ->
    exists i m, l = Call i (OpCommit m) \/ ((exists p, dget (c_calls s) i = Some (OpCommit m, p)) /\ ((exists r, l = Healed i r) \/ exists b' r, l = Arrive i b' r)).
  Proof.
    intros s l b rq g fn name MD0 R H (g0 & topics0 & ->). destruct (sent_cases cfg s l (reach_inv cfg s R)) as (i & o & look & s1 & ns & A); [intros E; rewrite E in H; destruct H|]. destruct A as [E M S _ FR].
    remember (sent cfg s l) as ex eqn:EX. clear EX.
    assert (O : exists m, o = OpCommit m).
    { destruct S as [|t' start rqs pre post O FE RE D ex X|t' start rqs pre post _ _ O L RE D ex X|t' start b0 g1 fn1 ac nm ps _ _ _ _ _ _|m ret b0 g1 fn1 ac nm am MD NA NC CB OB OM _|b0 rest g1 fn1 ac nm _ _ _ _].
      - destruct H.
      - exfalso. subst ex. apply filter_In in H as [H _]. assert (HR : In (b, RCommit g0 topics0) rqs) by (rewrite RE; apply in_app_iff; now left). destruct FE as (_ & _ & _ & L). destruct (L _ _ HR) as (? & _ & X & _). discriminate X.
      - exfalso. subst ex. apply filter_In in H as [H _]. assert (HR : In (b, RCommit g0 topics0) rqs) by (rewrite RE; apply in_app_iff; now left). destruct L as (_ & _ & L). destruct (L _ _ HR) as (? & _ & X & _). discriminate X.
      - destruct H as [H|[]]. discriminate H.
      - rewrite MD0 in MD. injection MD as _ _ <- _. destruct o as [t start|m0|]; [discriminate (NA t start eq_refl)|eauto|now destruct NC].
      - destruct H as [H|[]]. discriminate H. }
    destruct O as [m ->]. exists i, m. destruct FR as [(-> & _)|[(b' & r & k & w & rs & rq & -> & D & _)|[(r & k & rs & -> & D & _)|(r & t & -> & D & _)]]]; eauto 8.
  Qed.
End C49.
(** the default allocator returns dicts *)
Theorem C49_default_returns_dicts : forall V (cfg : config V) g ac name, md cfg = Grouped g naive_allocator ac name -> returns_dicts cfg.
Proof. intros V cfg g ac name M g' fn ac' name' ms ps mp M'. rewrite M in M'. injection M' as <- <- <- <-. apply naive_proper. Qed.
(** a group consumer whose coordinator is broker 2; it is allotted both partitions *)
Definition me : text := txt "me".
Definition ex_grouped (ac : bool) : config Z := ex_cfg (Grouped (txt "g") naive_allocator ac me).
Definition ex_joined : list label :=
  [Alloc (EvMembers [me]); Alloc (EvPartitions (Some [part_name tt_ 0; part_name tt_ 1])); Call 1 OpCoordinator; Arrive 1 1 (Ok (PCoordinator 0 2))].
Definition ex_member (ac : bool) : consumer Z := crun (ex_grouped ac) ex_joined (consumer_init ex_cluster me).
Definition ex_loaded : list label := [Call 2 (OpConsume tt_ None); Arrive 2 2 (Ok (POffsetFetch [(tt_, [(0, (0, 5)); (1, (0, 7))])]))].
Definition ex_consumed : list label := ex_loaded ++ [Arrive 2 1 (Ok (PFetch [(tt_, [(0, (0, [(5, msg 1); (6, msg 2)]))])]))].
Example C49_example : c_coord (ex_member true) = Some 2 /\ alloc_of (ex_grouped true) (ex_member true) tt_ = [0; 1] /\
  sent (ex_grouped true) (crun (ex_grouped true) ex_consumed (ex_member true)) (Arrive 2 2 (Ok (PFetch [(tt_, [(1, (0, [(7, msg 3)]))])]))) =
    [(2, RCommit (txt "g") [(tt_, [(0, (7, txt "committed by me")); (1, (8, txt "committed by me"))])])] /\
  sent (ex_grouped false) (crun (ex_grouped false) ex_consumed (ex_member false)) (Arrive 2 2 (Ok (PFetch [(tt_, [(1, (0, [(7, msg 3)]))])]))) = [].
Proof. vm_compute. auto. Qed.

(** ** C48: rebalances *)
Section C48.
  Context {V : Type}.
  Variable cfg : config V.
  Notation st := (consumer V).
  Lemma fetches_fetchy (s : st) i t : inv cfg s -> fetches s i t -> exists start p, dget (c_calls s) i = Some (OpConsume t start, p) /\ fetchy t p.
  Proof.
    intros I0 (start & p & D & [(b & rq & (o & k & w & rs & D1 & D2) & (r & mw & mb & parts & ->))|[(rs & ->)| ->]]); exists start; [|eexists; split; [exact D|reflexivity]|eexists; split; [exact D|reflexivity]].
    rewrite D in D1. injection D1 as <- ->. exists (PSend k w rs). split; [exact D|]. destruct (proj2 I0 _ _ _ D) as [FC WS]. pose proof (ws_asks _ _ _ _ WS b _ (dget_In _ _ _ D2)) as A.
    destruct k as [t' [rq|]|t'|m ret|a r0]; cbn in A, FC; try contradiction.
    - destruct FC as (_ & FC). destruct (md cfg); [discriminate FC|]. destruct FC as (ps & FC). injection FC as ->. discriminate A.
    - destruct A as (? & A). discriminate A.
    - exact FC.
    - destruct A as (? & ? & A). discriminate A.
  Qed.
  Lemma not_looking_past (s : st) t : inv cfg s -> (forall j, ~ looks_up s j t) -> forall j o p, dget (c_calls s) j = Some (o, p) -> on_topic t o -> past p.
  Proof.
    intros I0 N j o p D T. pose proof (proj2 I0 _ _ _ D) as F. destruct o as [t' start|m|]; try contradiction. cbn in T. subst t'.
    destruct p as [[t' rq|t'|m ret|a r] w rs|[t' rq|t'|m ret|a r] rs|t']; cbn in F; try (left; exact I); try (right; eauto; fail); try (exfalso; exact (proj1 F)).
    - exfalso. destruct F as [(-> & _) _]. apply (N j). exists start, rq. left. eauto.
    - exfalso. destruct F as [(-> & _) _]. apply (N j). exists start, rq. right. eauto.
  Qed.
  Lemma rebalanced (s : st) l : rebalances cfg s l -> c_calls (cstep cfg s l) = c_calls s /\ c_ended (cstep cfg s l) = c_ended s /\ c_tocommit (cstep cfg s l) = c_tocommit s /\ c_synced (cstep cfg s l) = [] /\ exists g fn ac name, md cfg = Grouped g fn ac name.
  Proof.
    intros (ev & -> & H). cbn [cstep] in *. destruct (md cfg) as [|g fn ac name] eqn:M; [now destruct H|]. cbn in *. destruct (Z.eqb_spec (a_callbacks (astep fn true (c_alloc s) ev)) (a_callbacks (c_alloc s))) as [E|E]; [now destruct H|]. repeat split. eauto 6.
  Qed.
  Lemma rebalanced_dropping (s : st) l i t : inv cfg s -> rebalances cfg s l -> fetches s i t -> (forall j, ~ looks_up s j t) -> dropping t i (cstep cfg s l).
  Proof.
    intros I0 RB FE NL. destruct (rebalanced s l RB) as (C & _ & _ & S & _). destruct (fetches_fetchy s i t I0 FE) as (start & p & D & F). constructor; [rewrite S; intros []| |]; rewrite C; [now apply not_looking_past|].
    intros o p' D'. rewrite D in D'. injection D' as <- <-. auto.
  Qed.
  Lemma commit_names (s : st) l b g topics t : inv cfg s -> In (b, RCommit g topics) (sent cfg s l) -> In t (map fst topics) -> In t (c_tocommit (cstep cfg s l)).
  Proof.
    intros I0 H HT. destruct (sent_cases cfg s l I0) as (i & o & look & s1 & ns & A); [intros E; rewrite E in H; destruct H|]. destruct A as [E M S _ _]. rewrite E. destruct (continue_same i o ns) as (_ & _ & _ & _ & _ & _ & _ & TC & _). rewrite TC.
    remember (sent cfg s l) as ex eqn:EX. clear EX. destruct S as [|t' start rqs pre post O FE RE D ex X|t' start rqs pre post _ _ O L RE D ex X|t' start b0 g1 fn ac nm ps _ _ _ _ _ _|m ret b0 g1 fn ac nm am MD _ _ CB OB OM _|b0 rest g1 fn ac nm _ _ _ _].
    - destruct H.
    - exfalso. subst ex. apply filter_In in H as [H _]. assert (HR : In (b, RCommit g topics) rqs) by (rewrite RE; apply in_app_iff; now left). destruct FE as (_ & _ & _ & L). destruct (L _ _ HR) as (? & _ & X & _). discriminate X.
    - exfalso. subst ex. apply filter_In in H as [H _]. assert (HR : In (b, RCommit g topics) rqs) by (rewrite RE; apply in_app_iff; now left). destruct L as (_ & _ & L). destruct (L _ _ HR) as (? & _ & X & _). discriminate X.
    - destruct H as [H|[]]. discriminate H.
    - destruct H as [H|[]]. injection H as _ _ <-. unfold commit_of in HT. rewrite map_map in HT. apply in_map_iff in HT as ([t1 ps] & E1 & H). cbn in E1. subst t1. apply filter_In in H as [_ H]. now apply smem_In in H.
    - destruct H as [H|[]]. discriminate H.
  Qed.
  (** If the group is rebalanced while a consume() is past its lookup and before its commit, and no other consume() on the
      topic is looking offsets up, then whatever happens next, short of new consume() calls on the topic: the call returns
      no messages (or raises), and unless the topic was waiting to be committed before, no commit names it. *)
  Theorem C48_dropped_partial : forall (s : st) l i t ls, reachable cfg s -> fetches s i t -> (forall j, ~ looks_up s j t) -> rebalances cfg s l -> (forall j start, ~ In (Call j (OpConsume t start)) ls) ->
    let s' := cstep cfg s l in
    (forall start r, In (i, OpConsume t start, r) (c_ended (crun cfg ls s')) -> In (i, OpConsume t start, r) (c_ended s) \/ r = Ok (RvList []) \/ exists e, r = Err e) /\
    (~ In t (c_tocommit s) -> forall ls1 l1 ls2 b g topics, ls = ls1 ++ l1 :: ls2 -> In (b, RCommit g topics) (sent cfg (crun cfg ls1 s') l1) -> ~ In t (map fst topics)).
  Proof.
    intros s l i t ls R FE NL RB NC s'. pose proof (reach_inv cfg s R) as I0. pose proof (rebalanced_dropping s l i t I0 RB FE NL) as DP. destruct (rebalanced s l RB) as (_ & E & TC & _ & g & fn & ac & name & MD). fold s' in DP, E, TC.
    assert (I1 : inv cfg s') by now apply inv_step. split.
    - intros start r H. destruct (dropping_run cfg g fn ac name MD t i ls s' I1 DP NC) as (_ & _ & C). destruct (C start r H) as [X|X]; [left; congruence|now right].
    - intros NT ls1 l1 ls2 b g' topics -> H HT. pose proof (commit_names (crun cfg ls1 s') l1 b g' topics t (inv_run cfg ls1 s' I1) H HT) as X.
      destruct (dropping_run cfg g fn ac name MD t i (ls1 ++ [l1]) s' I1 DP) as (_ & B & _).
      + intros j start HI. apply (NC j start). apply in_app_iff in HI as [HI|[HI|[]]]; apply in_app_iff; [now left|]. right. left. exact HI.
      + apply NT. rewrite <- TC. apply B. unfold crun. rewrite fold_left_app. exact X.
  Qed.
  (** After a rebalance no fetch request for a topic is sent before its offsets were asked for again, if no consume() on it
      was looking offsets up or healing the topic at that time, and as long as consume() is only called with partitions
      of the topic allocated. *)
  Theorem C48_looked_up_again_partial : forall (s : st) l t ls l' b' rq', reachable cfg s -> rebalances cfg s l -> (forall j, ~ looks_up s j t) -> (forall j, ~ heals_topic s j t) ->
    let s' := cstep cfg s l in
    each_step cfg (fun s l => forall i start, l = Call i (OpConsume t start) -> alloc_of cfg s t <> []) (ls ++ [l']) s' ->
    In (b', rq') (sent cfg (crun cfg ls s') l') -> is_fetch t rq' ->
    exists ls1 ls2 j b'' rq'', ls = ls1 ++ ls2 /\ waits_for (crun cfg ls1 s') j b'' rq'' /\ is_lookup t rq''.
  Proof.
    intros s l t ls l' b' rq' R RB NL NH s' ES H F. pose proof (reach_inv cfg s R) as I0. destruct (rebalanced s l RB) as (C & _ & _ & S & _). assert (I1 : inv cfg s') by now apply inv_step.
    assert (FO : forgotten t s').
    { split; [unfold s'; rewrite S; intros []|]. unfold s'. rewrite C. intros j o p D T. destruct (not_looking_past s t I0 NL j o p D T) as [L|(t' & ->)]; [exact L|]. exfalso. pose proof (proj2 I0 _ _ _ D) as (start & ->). cbn in T. subst t'. apply (NH j). now exists start. }
    assert (ES' : forall ls s, each_step cfg (fun s l => forall i start, l = Call i (OpConsume t start) -> alloc_of cfg s t <> []) (ls ++ [l']) s -> each_step cfg (fun s l => forall i start, l = Call i (OpConsume t start) -> alloc_of cfg s t <> []) ls s /\ forall i start, l' = Call i (OpConsume t start) -> alloc_of cfg (crun cfg ls s) t <> []).
    { clear. induction ls as [|x ls IH]; intros s E; cbn [app each_step] in *; [destruct E as [E _]; split; [exact I|exact E]|]. destruct E as [E1 E2]. destruct (IH _ E2) as [E3 E4]. split; [split; assumption|exact E4]. }
    destruct (ES' ls s' ES) as [E1 E2]. destruct (forgotten_run cfg t ls s' I1 FO E1) as [F2|X]; [|exact X]. exfalso. destruct (forgotten_step cfg t (crun cfg ls s') l' (inv_run cfg ls s' I1) F2 E2) as [NF _]. exact (NF b' rq' H F).
  Qed.
End C48.
Definition ex_rebalance : label := Alloc (EvMembers [me; txt "you"]).
Example C48_example : let s := crun (ex_grouped true) ex_loaded (ex_member true) in fetches s 2 tt_ /\ (forall j, ~ looks_up s j tt_) /\ rebalances (ex_grouped true) s ex_rebalance /\
  c_ended (crun (ex_grouped true) [ex_rebalance; Arrive 2 1 (Ok (PFetch [(tt_, [(0, (0, [(5, msg 1)]))])])); Arrive 2 2 (Ok (PFetch [(tt_, [(1, (0, []))])]))] s) =
    [(1, OpCoordinator, Ok RvNone); (2, OpConsume tt_ None, Ok (RvList []))].
Proof.
  split; [|split; [|split]].
  - eexists _, _. split; [vm_compute; reflexivity|]. left. exists 1. eexists. split; [do 4 eexists; split; vm_compute; reflexivity|]. do 4 eexists. reflexivity.
  - intros j (start & rq & [(w & rs & H)|(rs & H)]); vm_compute in H; destruct j as [|[p|[p|p|]|]|p]; discriminate H.
  - exists (EvMembers [me; txt "you"]). split; [reflexivity|]. vm_compute. discriminate.
  - vm_compute. reflexivity.
Qed.
(** The group is rebalanced while offsets are looked up: the lookup goes on, so that the topic counts as known.  The call
    fetches the partition allocated since from 0, a position nobody looked up, and returns and commits what it finds. *)
Definition ex_small : list label := [Alloc (EvMembers [me]); Alloc (EvPartitions (Some [part_name tt_ 0])); Call 1 OpCoordinator; Arrive 1 1 (Ok (PCoordinator 0 2)); Call 2 (OpConsume tt_ None)].
Definition ex_grow : label := Alloc (EvPartitions (Some [part_name tt_ 0; part_name tt_ 1])).
Definition ex_after_grow : list label :=
  [Arrive 2 2 (Ok (POffsetFetch [(tt_, [(0, (0, 5))])])); Arrive 2 1 (Ok (PFetch [(tt_, [(0, (0, []))])])); Arrive 2 2 (Ok (PFetch [(tt_, [(1, (0, [(0, msg 9)]))])])); Arrive 2 2 (Ok (PCommit [(tt_, [(0, 0); (1, 0)])]))].
Theorem C48_during_lookup_refuted : exists (cfg : config Z) s, reachable cfg s /\ looks_up s 2 tt_ /\ rebalances cfg s ex_grow /\
  let s' := cstep cfg s ex_grow in
  In (2, RFetch (-1) 1000 1 tt_ [(1, (0, 1000))]) (sent cfg s' (hd Close ex_after_grow)) /\
  In (2, OpConsume tt_ None, Ok (RvList [9])) (c_ended (crun cfg ex_after_grow s')) /\
  sent cfg (crun cfg (firstn 2 ex_after_grow) s') (nth 2 ex_after_grow Close) = [(2, RCommit (txt "g") [(tt_, [(0, (5, txt "committed by me")); (1, (1, txt "committed by me"))])])].
Proof.
  exists (ex_grouped true), (crun (ex_grouped true) ex_small (consumer_init ex_cluster me)). split; [now exists ex_cluster, me, ex_small|]. split; [eexists _, _; left; do 2 eexists; vm_compute; reflexivity|].
  split; [eexists; split; [reflexivity|]; vm_compute; discriminate|]. vm_compute. auto 6.
Qed.
(** The group is rebalanced while consume() waits for its autocommit: it returns its messages all the same. *)
Theorem C48_during_commit_refuted : exists (cfg : config Z) s l, reachable cfg s /\ waits_for s 2 2 (RCommit (txt "g") [(tt_, [(0, (7, txt "committed by me")); (1, (8, txt "committed by me"))])]) /\ rebalances cfg s l /\
  In (2, OpConsume tt_ None, Ok (RvList [1; 2; 3])) (c_ended (crun cfg [l; Arrive 2 2 (Ok (PCommit [(tt_, [(0, 0); (1, 0)])]))] s)).
Proof.
  exists (ex_grouped true), (crun (ex_grouped true) (ex_joined ++ ex_consumed ++ [Arrive 2 2 (Ok (PFetch [(tt_, [(1, (0, [(7, msg 3)]))])]))]) (consumer_init ex_cluster me)), ex_rebalance. split; [do 3 eexists; reflexivity|].
  split; [do 4 eexists; split; vm_compute; reflexivity|]. split; [eexists; split; [reflexivity|]; vm_compute; discriminate|]. vm_compute. auto.
Qed.
(** Autocommit is off and an earlier consume() left the topic to be committed.  A second consume() is answered after a
    rebalance: its messages are dropped, but the positions have moved past them, and commit_offsets() commits those. *)
Definition ex_grow2 : label := Alloc (EvPartitions (Some [part_name tt_ 0; part_name tt_ 1; part_name tt_ 2])).
Definition ex_dropped : list label :=
  [Arrive 2 2 (Ok (PFetch [(tt_, [(1, (0, []))])])); Call 3 (OpConsume tt_ None); ex_grow2; Arrive 3 1 (Ok (PFetch [(tt_, [(0, (0, [(7, msg 4)]))])])); Arrive 3 2 (Ok (PFetch [(tt_, [(1, (0, []))])]))].
Theorem C48_dropped_committed_refuted : exists (cfg : config Z) s, reachable cfg s /\ fetches (crun cfg (firstn 2 ex_dropped) s) 3 tt_ /\ rebalances cfg (crun cfg (firstn 2 ex_dropped) s) ex_grow2 /\
  let s' := crun cfg ex_dropped s in
  In (3, OpConsume tt_ None, Ok (RvList [])) (c_ended s') /\
  sent cfg s' (Call 4 (OpCommit (Some []))) = [(2, RCommit (txt "g") [(tt_, [(0, (8, [])); (1, (7, [])); (2, (0, []))])])].
Proof.
  exists (ex_grouped false), (crun (ex_grouped false) (ex_joined ++ ex_consumed) (consumer_init ex_cluster me)). split; [do 3 eexists; reflexivity|].
  split; [eexists _, _; split; [vm_compute; reflexivity|]; left; exists 1; eexists; split; [do 4 eexists; split; vm_compute; reflexivity|]; do 4 eexists; reflexivity|].
  split; [eexists; split; [reflexivity|]; vm_compute; discriminate|]. vm_compute. auto.
Qed.

Print Assumptions C49_commit_requests.
Print Assumptions C49_default_returns_dicts.
Print Assumptions C49_consumed_since.
Print Assumptions C49_no_autocommit.
Print Assumptions C48_dropped_partial.
Print Assumptions C48_looked_up_again_partial.
Print Assumptions C48_during_lookup_refuted.
Print Assumptions C48_during_commit_refuted.
Print Assumptions C48_dropped_committed_refuted.
