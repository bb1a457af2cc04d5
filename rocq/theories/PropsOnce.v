(** Property C101: between two rebalances a group delivers each message once, to one member. *)
From Coq Require Import ZArith Lia String List Bool Permutation.
From Verif Require Import PyBase BaseLemmas Constants Cluster Zookeeper SpecZk ZkAlloc Consumer SpecConsumer ConsumerProofs ConsumerSteps ConsumerRuns PropsConsumer SpecGroup PropsGroup SpecLog PropsLog SpecGroupLog PropsGroupLog SpecShare Group SpecGroupRun GroupRuns PropsGroupRun SpecGroupAny PropsGroupAny PropsShareAny AllocRuns Crew SpecCrew CrewProofs PropsCrew SpecOnce OnceProofs.
From Verif Require SpecTeam TeamProofs.
Import ListNotations.
Open Scope Z_scope.

(** Members of a group among which the partitions are shared out deliver, together and until the next rebalance, from each
    partition exactly the readable messages of its log between its member's start position and the position that member has
    reached: in order, none missing.  No message is delivered twice, be it by one member or by two, and none comes from a
    partition that is allocated to none of them. *)
Theorem C101_exactly_once {V} t log (Ts : list (turn (V := V))) :
  (forall p, is_log (log p)) -> Forall (undisturbed_turn t log) Ts -> shared_out t Ts ->
  exists Ds, Forall2 (delivers t) Ts Ds /\
    (forall T p, In T Ts -> owns t T p -> of_partition p (concat Ds) = readable (tn_cfg T) (between (position (tn_start T) t p) (position (tn_end T) t p) (log p))) /\
    (forall d, In d (concat Ds) -> exists T, In T Ts /\ owns t T (fst d)) /\
    NoDup (map message_of (concat Ds)).
Proof.
  intros LOG F S. destruct (group_delivers t log Ts LOG F S) as (Ds & A1 & A2 & A3). exists Ds. split; [exact A1|]. split; [exact A2|]. split; [exact A3|]. exact (group_once t log Ts Ds LOG A2 A3).
Qed.

Section Settled.
  Context {V : Type}.
  Variable cf : Z -> config V.
  Variable gname : text.
  Variable fn : list text -> list text -> res mapping.
  Hypothesis SO : shares_out fn.
  Hypothesis PA : SpecTeam.full_allocator fn.
  Hypothesis OG : one_group fn cf gname.

  Lemma quiet_alloc c t ls : forall s, inv (cf c) s -> each_step (cf c) (fun s l => ~ rebalances (cf c) s l) ls s -> alloc_of (cf c) (crun (cf c) ls s) t = alloc_of (cf c) s t.
  Proof using SO PA OG.
    destruct (cf_md cf gname OG c) as (ac & MD). induction ls as [|l ls IH]; intros s I0 H; [reflexivity|]. destruct H as [H1 H2]. change (crun (cf c) (l :: ls) s) with (crun (cf c) ls (cstep (cf c) s l)).
    rewrite IH; [|now apply inv_step|exact H2]. apply alloc_stays; [|exact I0|exact H1]. exists gname, fn, ac, (own_name cf c). split; [exact PA|exact MD].
  Qed.
  (** what a member of a settled group has, the group gave it *)
  Lemma turn_has w c T t : wreachable fn cf w -> turn_after cf w c T -> exists cl, dget (g_clients (w_group w)) c = Some cl /\ settled cl /\ member_name cl = own_name cf c /\ forall p, owns t T p <-> has cl t p.
  Proof using SO PA OG.
    intros R (EC & (cl & Dc & S) & s & ls & D & Q & E). destruct (C95_one_allocator fn SO (proj2 PA) cf gname OG w R) as (_ & _ & X). destruct (X c s D) as (RE & cl' & D' & NM & HA). rewrite Dc in D'. injection D' as <-.
    exists cl. split; [exact Dc|]. split; [exact S|]. split; [exact NM|]. intros p. unfold owns. rewrite EC, E, (quiet_alloc c t ls s (ConsumerRuns.reach_inv (cf c) s RE) Q). apply HA.
  Qed.
  Lemma settled_shared w t cs Ts : wreachable fn cf w -> group_members w <> [] -> NoDup cs -> Forall2 (turn_after cf w) cs Ts -> shared_out t Ts.
  Proof using SO PA OG.
    intros R NE ND F i j T T' p E E' O O'. assert (NC : g_children (w_group w) <> []) by (intros X; apply NE; unfold group_members, members; now rewrite X).
    assert (GR := proj1 (C95_one_allocator fn SO (proj2 PA) cf gname OG w R)).
    assert (AT : forall n T, nth_error Ts n = Some T -> exists c, nth_error cs n = Some c /\ turn_after cf w c T).
    { clear - F. induction F as [|c T0 cs Ts F0 F IH]; intros n T E; [destruct n; discriminate E|]. destruct n as [|n]; [injection E as <-; exists c; auto|]. now apply IH. }
    destruct (AT i T E) as (c & Ec & A). destruct (AT j T' E') as (c' & Ec' & A'). destruct (turn_has w c T t R A) as (cl & D & S & _ & H). destruct (turn_has w c' T' t R A') as (cl' & D' & S' & _ & H').
    destruct (C107_disjoint fn SO (w_group w) GR NC c c' cl cl' D S D' S') as (_ & U). apply H in O. apply H' in O'. pose proof (proj2 (proj2 (U t p O)) O') as X.
    apply (proj1 (NoDup_nth_error cs) ND); [apply nth_error_Some; congruence|congruence].
  Qed.

  (** The consumers of a group that has settled, as the allocators and ZooKeeper arrange it: whatever each does until the next
      rebalance, no message is delivered twice among them, and if they are all members of the group then every partition of
      the group is read by one of them, which delivers all its readable messages from its start position on to its position. *)
  Theorem C101_settled_group : forall w t log cs Ts, wreachable fn cf w -> group_members w <> [] -> (forall p, is_log (log p)) ->
    NoDup cs -> Forall2 (turn_after cf w) cs Ts -> Forall (undisturbed_turn t log) Ts ->
    exists Ds, Forall2 (delivers t) Ts Ds /\ NoDup (map message_of (concat Ds)) /\
      (forall T p, In T Ts -> owns t T p -> of_partition p (concat Ds) = readable (tn_cfg T) (between (position (tn_start T) t p) (position (tn_end T) t p) (log p))) /\
      ((forall n, In n (group_members w) -> exists c, In c cs /\ own_name cf c = n) ->
       forall p, partition_of_group w t p -> exists T, In T Ts /\ owns t T p).
  Proof using SO PA OG.
    intros w t log cs Ts R NE LOG ND F U. destruct (C101_exactly_once t log Ts LOG U (settled_shared w t cs Ts R NE ND F)) as (Ds & A1 & A2 & A3 & A4). exists Ds. split; [exact A1|]. split; [exact A4|]. split; [exact A2|].
    intros ALL p P.
    assert (AT : forall c, In c cs -> exists T, In T Ts /\ turn_after cf w c T).
    { clear - F. induction F as [|c T0 cs Ts F0 F IH]; intros c' I0; [destruct I0|]. destruct I0 as [<-|I0]; [exists T0; split; [now left|exact F0]|]. destruct (IH c' I0) as (T & I1 & A). exists T. split; [now right|exact A]. }
    destruct (C95_covered fn SO (proj2 PA) cf gname OG w R NE) with (t := t) (p := p) as (c & s & D & UP & IA & UN & _); [|exact P|].
    { intros n Hn. destruct (ALL n Hn) as (c & I0 & E). exists c. split; [exact E|]. destruct (AT c I0) as (T & _ & _ & UP & _). exact UP. }
    destruct (C95_one_allocator fn SO (proj2 PA) cf gname OG w R) as (GR & _ & X). destruct (X c s D) as (RE & cl & Dc & NM & HA). destruct UP as (cl' & Dc' & S). rewrite Dc in Dc'. injection Dc' as <-.
    assert (NC : g_children (w_group w) <> []) by (intros Y; apply NE; unfold group_members, members; now rewrite Y).
    destruct (C107_disjoint fn SO (w_group w) GR NC c c cl cl Dc S Dc S) as (_ & Y). destruct (Y t p (proj1 (HA t p) IA)) as (_ & B & _). rewrite NM in B. destruct (ALL _ B) as (c' & I0 & E). apply (proj2 OG) in E. subst c'.
    destruct (AT c I0) as (T & I1 & TA). exists T. split; [exact I1|]. destruct (turn_has w c T t R TA) as (k & Dk & _ & _ & H). rewrite Dc in Dk. injection Dk as <-. now apply H, HA.
  Qed.
End Settled.

(** ** the two consumers of C95 *)
Definition once_crew : crew Z := wrun naive_allocator crew_cf (crew_shared ++ crew_work) crew_init.
Definition once_state (c : Z) : consumer Z := match dget (w_cons once_crew) c with Some s => s | None => consumer_init ex_cluster (crew_name c) end.
Definition once_first : turn := Turn (crew_cf 1) (crun (crew_cf 1) [stored_at 5] (once_state 1))
  [Arrive 2 1 (Ok (PFetch [(tt_, [(0, (0, [(5, msg 2); (8, msg 3)]))])])); Arrive 2 2 (Ok (PCommit [(tt_, [(0, 0)])])); Call 3 (OpConsume tt_ None)].
Definition once_second : turn := Turn (crew_cf 2) (crun (crew_cf 2) [stored_at 7] (once_state 2))
  [Arrive 2 2 (Ok (PFetch [(tt_, [(1, (0, [(7, msg 5)]))])]))].
Lemma once_reach : wreachable naive_allocator crew_cf once_crew.
Proof. unfold once_crew. exact (proj1 C95_example). Qed.
Lemma once_start c n b : (c = 1 \/ c = 2) -> b = c -> at_start tt_ (crew_cf c) (crun (crew_cf c) [stored_at n] (once_state c)).
Proof.
  intros H ->. assert (R : reachable (crew_cf c) (once_state c)).
  { pose proof once_reach as W. destruct (C95_one_allocator naive_allocator naive_shares naive_proper crew_cf (txt "g") crew_one once_crew W) as (_ & _ & X). apply X. unfold runs, once_state. destruct H as [-> | ->]; vm_compute; reflexivity. }
  split; [destruct R as (k & nm & ls & E1); exists k, nm, (ls ++ [stored_at n]); rewrite E1; unfold crun; now rewrite fold_left_app|].
  split; [destruct H as [-> | ->]; vm_compute; auto|]. right. exists (once_state c), (stored_at n), 2. split; [exact R|]. split; [reflexivity|].
  split; [destruct H as [-> | ->]; eexists _, _; left; do 2 eexists; vm_compute; reflexivity|]. split.
  - destruct H as [-> | ->]; eexists _, _; (split; [vm_compute; reflexivity|]); left; [exists 1|exists 2]; eexists; (split; [do 4 eexists; split; vm_compute; reflexivity|do 4 eexists; reflexivity]).
  - intros j o p D OT. destruct (Z.eq_dec j 2) as [->|N]; [reflexivity|]. exfalso. destruct H as [-> | ->]; vm_compute in D; destruct j as [|[q|[q|q|]|]|q]; try discriminate D; now apply N.
Qed.
Lemma once_first_turn : undisturbed_turn tt_ ex_log once_first.
Proof.
  split; [eexists _, _, _, _; (split; [exact TeamProofs.naive_answers|reflexivity])|]. split; [apply (once_start 1 5 1); auto|]. split; [|intros i o e H; vm_compute in H; repeat (destruct H as [H|H]; [discriminate H|]); destruct H].
  cbn [once_first tn_cfg tn_start tn_steps each_step]. split; [split; [ex_norebalance|ex_fetch 2%nat 5]|]. split; [split; [ex_norebalance|ex_plain]|]. split; [split; [ex_norebalance|intros _; ex_nobusy]|]. exact I.
Qed.
Lemma once_second_turn : undisturbed_turn tt_ ex_log once_second.
Proof.
  split; [eexists _, _, _, _; (split; [exact TeamProofs.naive_answers|reflexivity])|]. split; [apply (once_start 2 7 2); auto|]. split; [|intros i o e H; vm_compute in H; repeat (destruct H as [H|H]; [discriminate H|]); destruct H].
  cbn [once_second tn_cfg tn_start tn_steps each_step]. split; [split; [ex_norebalance|ex_fetch 1%nat 7]|]. exact I.
Qed.
Lemma once_after c n T : (c = 1 \/ c = 2) -> tn_cfg T = crew_cf c -> tn_start T = crun (crew_cf c) [stored_at n] (once_state c) -> turn_after crew_cf once_crew c T.
Proof.
  intros H E1 E2. split; [exact E1|]. split; [destruct H as [-> | ->]; eexists; (split; [vm_compute; reflexivity|]); repeat split|]. exists (once_state c), [stored_at n].
  split; [unfold runs, once_state; destruct H as [-> | ->]; vm_compute; reflexivity|]. split; [|exact E2]. split; [ex_norebalance|exact I].
Qed.
(** The first consumer has returned two messages of partition 0 and waits for more, the second holds one of partition 1 while it commits. *)
Example C101_example :
  wreachable naive_allocator crew_cf once_crew /\ group_members once_crew = [crew_name 1; crew_name 2] /\ Forall2 (turn_after crew_cf once_crew) [1; 2] [once_first; once_second] /\
  Forall (undisturbed_turn tt_ ex_log) [once_first; once_second] /\ shared_out tt_ [once_first; once_second] /\
  owns tt_ once_first 0 /\ owns tt_ once_second 1 /\ tn_gave tt_ once_first = [2; 3] /\ tn_gave tt_ once_second = [] /\ busy (tn_end once_second) tt_ /\
  position (tn_start once_first) tt_ 0 = 5 /\ position (tn_end once_first) tt_ 0 = 9 /\ position (tn_start once_second) tt_ 1 = 7 /\ position (tn_end once_second) tt_ 1 = 8.
Proof.
  pose proof once_reach as W. assert (M : group_members once_crew = [crew_name 1; crew_name 2]) by (vm_compute; reflexivity).
  assert (F : Forall2 (turn_after crew_cf once_crew) [1; 2] [once_first; once_second]) by (constructor; [apply (once_after 1 5); auto|constructor; [apply (once_after 2 7); auto|constructor]]).
  split; [exact W|]. split; [exact M|]. split; [exact F|]. split; [constructor; [apply once_first_turn|constructor; [apply once_second_turn|constructor]]|].
  assert (NE : group_members once_crew <> []) by (rewrite M; discriminate). assert (ND : NoDup [1; 2]) by (repeat constructor; cbn; intuition discriminate).
  split; [exact (settled_shared crew_cf (txt "g") naive_allocator naive_shares TeamProofs.naive_answers crew_one once_crew tt_ [1; 2] [once_first; once_second] W NE ND F)|].
  split; [vm_compute; auto|]. split; [vm_compute; auto|]. split; [vm_compute; reflexivity|]. split; [vm_compute; reflexivity|]. split; [exists 2; do 2 eexists; split; [vm_compute; reflexivity|reflexivity]|]. vm_compute. auto.
Qed.
(** An allocator function other than the default one: the first member reads everything, the others stand by. *)
Definition leader_allocator (ms ps : list text) : res mapping := naive_allocator (firstn 1 ms) ps.
Example C101_other_allocator : shares_out leader_allocator /\ SpecTeam.full_allocator leader_allocator.
Proof.
  assert (F : forall (ms : list text) m, In m (firstn 1 ms) -> In m ms) by (intros [|a ms] m H; [destruct H|destruct H as [<-|[]]; now left]).
  assert (N : forall ms : list text, NoDup (firstn 1 ms)) by (intros [|a ms]; repeat constructor; intros []).
  destruct TeamProofs.naive_answers as [AA PR]. split; [constructor|split].
  - intros ms ps G. apply (so_returns _ naive_shares), G.
  - intros ms ps mp _ E m _. right. exact (AA _ _ _ E).
  - intros ms ps mp _ NE NP G E t p H. destruct (so_each _ naive_shares (firstn 1 ms) ps mp (N ms) ltac:(destruct ms; [now destruct NE|discriminate]) NP G E t p H) as (m & Hm & X). exists m. split; [now apply F|exact X].
  - intros ms ps mp _ NP G E m t p H. destruct (so_only _ naive_shares (firstn 1 ms) ps mp (N ms) NP G E m t p H) as (X & Y). split; [now apply F|exact Y].
  - intros ms ps mp E. exact (AA _ _ _ E).
  - intros ms ps mp E. exact (PR _ _ _ E).
Qed.
(** Over a rebalance the claim is false: a member that takes a partition over begins where the last commit was, and delivers again what the one before it had delivered since. *)
Theorem C101_over_a_rebalance_refuted : exists T1 T2 : turn (V := Z), turns tt_ ex_log 0 5 [T2; T1] /\ Forall (undisturbed_turn tt_ ex_log) [T1; T2] /\
  exists v, In v (tn_gave tt_ T1) /\ In v (tn_gave tt_ T2) /\ forall p p' o o' m m', In (o, m) (ex_log p) -> In (o', m') (ex_log p') -> deser (tn_cfg T1) (msg_value m) = Ok v -> deser (tn_cfg T2) (msg_value m') = Ok v -> (o, m) = (o', m').
Proof.
  assert (U : undisturbed_turn tt_ ex_log ex_first) by (destruct ex_first_fair as (_ & A & _ & B & _ & N); split; [eexists _, _, _, _; (split; [exact TeamProofs.naive_answers|reflexivity])|auto]).
  exists ex_first, ex_first. split; [apply turns_next; [apply turns_next; [apply turns_nil|exact ex_first_fair|now left]|exact ex_first_fair|now left]|]. split; [constructor; [exact U|constructor; [exact U|constructor]]|].
  exists 2. split; [vm_compute; auto|]. split; [vm_compute; auto|].
  assert (X : forall p o m, In (o, m) (ex_log p) -> deser (tn_cfg ex_first) (msg_value m) = Ok 2 -> (o, m) = (5, msg 2)).
  { intros p o m H D. unfold ex_log in H. destruct (p =? 0); cbn [In] in H; repeat destruct H as [H|H]; try contradiction; injection H as <- <-; vm_compute in D; try discriminate D; reflexivity. }
  intros p p' o o' m m' H H' D D'. now rewrite (X _ _ _ H D), (X _ _ _ H' D').
Qed.

Print Assumptions C101_exactly_once.
Print Assumptions C101_settled_group.
Print Assumptions C101_over_a_rebalance_refuted.
