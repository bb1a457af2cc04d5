(** Property C99: no message is lost by a whole group.  Specification: SpecTeam.v; proofs: TeamProofs.v. *)
From Coq Require Import ZArith String List Bool Lia.
From Verif Require Import PyBase BaseLemmas Constants Cluster Zookeeper SpecZk Consumer SpecConsumer ConsumerProofs PropsConsumer SpecGroup PropsGroup SpecLog PropsLog SpecGroupLog PropsGroupLog SpecTeam TeamProofs.
Import ListNotations.
Open Scope Z_scope.

(** Any number of members, with the default allocator and without autocommit, their steps interleaved in any way, joining,
    leaving and crashing at any point.  The coordinator answers with offsets that were committed - not only the last ones -
    or with where the group began.  Whenever a member commits an offset, each message before it, back to where the group
    began, has been returned by some member's consume() to its program. *)
Theorem C99_committed_read_partial : forall V t log start (cf : Z -> config V) k0 es p c, (forall p, is_log (log p)) -> plain_members cf -> well_behaved t log start cf k0 es ->
  committed t cf k0 es p c -> read_to t log start cf k0 es p c.
Proof. intros V t log start cf k0 es p c LOG PL W. apply (proj2 (team_got t log LOG start cf k0 PL es W)). Qed.
(** The same of the position that a member has, between two consume() calls, in a partition that it owns, if no consume() has
    raised since the last rebalance. *)
Theorem C99_position_read_partial : forall V t log start (cf : Z -> config V) k0 es x p, (forall p, is_log (log p)) -> plain_members cf -> well_behaved t log start cf k0 es ->
  In t (c_synced (member cf k0 x es)) -> ~ busy (member cf k0 x es) t -> ~ failed t cf k0 es x -> In p (alloc_of (cf x) (member cf k0 x es) t) -> read_to t log start cf k0 es p (position (member cf k0 x es) t p).
Proof. intros V t log start cf k0 es x p LOG PL. now apply team_positions. Qed.
(** So when some member, between two calls, has come to the end of a partition that it owns, the programs together have all
    of that partition: each message from the start of the group on has been returned by one of them. *)
Theorem C99_all_read_partial : forall V t log start (cf : Z -> config V) k0 es x p, (forall p, is_log (log p)) -> plain_members cf -> well_behaved t log start cf k0 es ->
  In t (c_synced (member cf k0 x es)) -> ~ busy (member cf k0 x es) t -> ~ failed t cf k0 es x -> In p (alloc_of (cf x) (member cf k0 x es) t) -> (forall o m, In (o, m) (log p) -> o < position (member cf k0 x es) t p) ->
  forall o m, In (o, m) (log p) -> start p <= o -> exists y, got t cf k0 y es m.
Proof. intros V t log start cf k0 es x p LOG PL W SY NB NF IP END o m IN L. apply (team_positions t log LOG start cf k0 PL es x p W SY NB NF IP o m IN). split; [exact L|]. exact (END o m IN). Qed.

(** ** examples *)
Definition you : text := txt "you".
Definition ex_team (x : Z) : config Z := if x =? 0 then ex_grouped false else ex_cfg (Grouped (txt "g") naive_allocator false you).
Lemma ex_plain_team : plain_members ex_team.
Proof. intros x. unfold ex_team. destruct (x =? 0); eexists _, _, _; (split; [exact naive_answers|reflexivity]). Qed.
Definition ex_began (p : Z) : Z := if p =? 0 then 5 else 7.
Definition ex_pair : label := Alloc (EvMembers [me; you]).
Definition ex_parts : label := Alloc (EvPartitions (Some [part_name tt_ 0; part_name tt_ 1])).
(** the first member reads and commits; the second joins while the first fetches, reads what was partition 1 of the first;
    the first drops what it fetched, begins again where it committed, reads to the end and commits *)
Definition ex_day : history :=
  [(0, Alloc (EvMembers [me])); (0, ex_parts); (0, Call 1 OpCoordinator); (0, Arrive 1 1 (Ok (PCoordinator 0 2)));
   (0, Call 2 (OpConsume tt_ None)); (0, Arrive 2 2 (Ok (POffsetFetch [(tt_, [(0, (0, 5)); (1, (0, 7))])])));
   (0, Arrive 2 1 (Ok (PFetch [(tt_, [(0, (0, [(5, msg 2)]))])]))); (0, Arrive 2 2 (Ok (PFetch [(tt_, [(1, (0, [(7, msg 5)]))])])));
   (0, Call 3 (OpCommit None)); (0, Arrive 3 2 (Ok (PCommit [(tt_, [(0, 0); (1, 0)])]))); (0, Call 4 (OpConsume tt_ None)); (0, ex_pair);
   (1, ex_pair); (1, ex_parts); (1, Call 1 OpCoordinator); (1, Arrive 1 1 (Ok (PCoordinator 0 2)));
   (1, Call 2 (OpConsume tt_ None)); (1, Arrive 2 2 (Ok (POffsetFetch [(tt_, [(1, (0, 8))])])));
   (0, Arrive 4 1 (Ok (PFetch [(tt_, [(0, (0, [(8, msg 3)]))])]))); (1, Arrive 2 2 (Ok (PFetch [(tt_, [(1, (0, [(8, msg 6)]))])])));
   (0, Arrive 4 2 (Ok (PFetch [(tt_, [(1, (0, [(8, msg 6)]))])]))); (0, Call 5 (OpConsume tt_ None)); (0, Arrive 5 2 (Ok (POffsetFetch [(tt_, [(0, (0, 6))])])));
   (0, Arrive 5 1 (Ok (PFetch [(tt_, [(0, (0, [(8, msg 3); (9, msg 4)]))])]))); (0, Call 6 (OpCommit None))].
Fixpoint stepwise (t : text) log start (cf : Z -> config Z) k0 (es1 es : history) : Prop :=
  match es with [] => True | (x, l) :: es2 => (careful t log (cf x) (member cf k0 x es1) l /\ recalls t start cf k0 es1 x l /\ commits_well t cf k0 es1 x l) /\ stepwise t log start cf k0 (es1 ++ [(x, l)]) es2 end.
Lemma stepwise_well t log start cf k0 es : stepwise t log start cf k0 [] es -> well_behaved t log start cf k0 es.
Proof.
  assert (H : forall es es0, stepwise t log start cf k0 es0 es -> forall es1 x l es2, es = es1 ++ (x, l) :: es2 -> careful t log (cf x) (member cf k0 x (es0 ++ es1)) l /\ recalls t start cf k0 (es0 ++ es1) x l /\ commits_well t cf k0 (es0 ++ es1) x l).
  { clear es. induction es as [|[y k] es IH]; intros es0 S es1 x l es2 E; [now destruct es1|]. destruct S as [A B]. destruct es1 as [|e es1]; cbn in E; [injection E as -> -> ->; now rewrite app_nil_r|].
    injection E as <- ->. specialize (IH _ B es1 x l es2 eq_refl). rewrite <- app_assoc in IH. exact IH. }
  intros S es1 x l es2 E. exact (H es [] S es1 x l es2 E).
Qed.
Ltac ex_noone := intros ? (? & ? & [(? & ? & D)|(? & D)]); vm_compute in D; repeat match type of D with context [match ?i with _ => _ end] => destruct i end; discriminate D.
Lemma ex_idle (s : consumer Z) : c_calls s = [] -> ~ busy s tt_ /\ ~ commit_running s /\ forall i, ~ looks_up s i tt_.
Proof. intros E. repeat split; [intros (i & o & p & D & _)|intros (i & m & p & D)|intros i (st & rq & [(w & rs & D)|(rs & D)])]; rewrite E in D; discriminate D. Qed.
Ltac ex_free := match goal with |- context [member ?cf ?k ?x ?es] => let E := fresh in assert (E : c_calls (member cf k x es) = []) by (vm_compute; reflexivity); destruct (ex_idle _ E) as (? & ? & ?) end.
Ltac ex_noraise := let H := fresh in intros _ ? ? ? H; vm_compute in H; repeat (destruct H as [H|H]; [discriminate H|]); destruct H.
Ltac ex_notold := let E := fresh in intros ? ? ? ? ? ? E; discriminate E.
Ltac ex_nocommit := let H := fresh in intros ? ? (? & ? & ? & ? & ? & H & _); vm_compute in H; repeat (destruct H as [H|H]; [discriminate H|]); destruct H.
Ltac ex_unfailed := apply never_raised; let H := fresh in intros ? ? ? H; vm_compute in H; repeat (destruct H as [H|H]; [discriminate H|]); destruct H.
Ltac ex_call := split; [split; [first [exact I|ex_free; intros _; auto]|ex_norebalance]|split; [ex_notold|ex_nocommit]].
Ltac ex_quiet := split; [split; [exact I|intros _; ex_free; auto]|split; [ex_notold|ex_nocommit]].
Ltac ex_midway := split; [split; [exact I|intros _; ex_noone]|split; [ex_notold|ex_nocommit]].
Ltac ex_answer k := split; [split; [k|ex_norebalance]|split; [ex_notold|ex_nocommit]].
Ltac ex_commit := split; [split; [exact I|ex_norebalance]|split; [ex_notold|intros ? ? _; ex_free; split; [auto|split; [vm_compute; now left|ex_unfailed]]]].
Ltac ex_named := let H := fresh in let W := fresh in intros ? (? & ? & ? & ? & H & W) _; vm_compute in H; injection H as <- <- <- <-; vm_compute in W; injection W as <-; split; first [exact I|reflexivity].
Ltac ex_lookup k := split; [split; [ex_named|ex_norebalance]|split; [|ex_nocommit]];
  let E := fresh in let H := fresh in let W := fresh in intros ? ? ? ? ? ? E (? & ? & ? & ? & H & W); injection E as <- <- <- <-; vm_compute in H; injection H as <- <- <- <-; vm_compute in W; injection W as <- <-;
  split; [repeat constructor; cbn; intuition discriminate|split; [cbn; tauto|k]].
Ltac ex_committed n p := exists (firstn n ex_day), 0, (Call 3 (OpCommit None)); eexists; split; [reflexivity|]; do 5 eexists; split; [vm_compute; left; reflexivity|split; [left; reflexivity|]]; cbn; auto.
Lemma ex_day_well : well_behaved tt_ ex_log ex_began ex_team (fun _ => ex_cluster) ex_day.
Proof.
  apply stepwise_well. cbn [stepwise ex_day app].
  split; [ex_quiet|]. split; [ex_quiet|]. split; [ex_call|]. split; [ex_answer ex_plain|].
  split; [ex_call|]. split; [ex_lookup ltac:(intros p o [E|[E|[]]]; injection E as <- <-; left; reflexivity)|].
  split; [ex_answer ltac:(ex_fetch 1%nat 5)|]. split; [ex_answer ltac:(ex_fetch 1%nat 7)|].
  split; [ex_commit|]. split; [ex_answer ex_plain|]. split; [ex_call|].
  split; [ex_midway|].
  split; [ex_quiet|]. split; [ex_quiet|]. split; [ex_call|]. split; [ex_answer ex_plain|].
  split; [ex_call|]. split; [ex_lookup ltac:(intros p o [E|[]]; injection E as <- <-; right; ex_committed 8%nat 1)|].
  split; [ex_answer ltac:(ex_fetch 1%nat 6)|]. split; [ex_answer ltac:(ex_fetch 1%nat 8)|]. split; [ex_answer ltac:(ex_fetch 1%nat 8)|].
  split; [ex_call|]. split; [ex_lookup ltac:(intros p o [E|[]]; injection E as <- <-; right; ex_committed 8%nat 0)|].
  split; [ex_answer ltac:(ex_fetch 2%nat 6)|]. split; [ex_commit|]. exact I.
Qed.
Example C99_example : plain_members ex_team /\ well_behaved tt_ ex_log ex_began ex_team (fun _ => ex_cluster) ex_day /\ committed tt_ ex_team (fun _ => ex_cluster) ex_day 0 10 /\
  flat_map (gave tt_) (c_ended (member ex_team (fun _ => ex_cluster) 0 ex_day)) = [2; 5; 3; 4] /\ flat_map (gave tt_) (c_ended (member ex_team (fun _ => ex_cluster) 1 ex_day)) = [6] /\
  let s := member ex_team (fun _ => ex_cluster) 1 ex_day in In tt_ (c_synced s) /\ ~ busy s tt_ /\ alloc_of (ex_team 1) s tt_ = [1] /\ position s tt_ 1 = 9.
Proof.
  split; [exact ex_plain_team|]. split; [exact ex_day_well|]. split; [exists (firstn 24 ex_day), 0, (Call 6 (OpCommit None)), []; split; [reflexivity|]; do 5 eexists; split; [vm_compute; left; reflexivity|split; [left; reflexivity|left; reflexivity]]|].
  split; [vm_compute; reflexivity|]. split; [vm_compute; reflexivity|]. cbv zeta. split; [vm_compute; now left|]. split; [apply ex_idle; vm_compute; reflexivity|]. split; vm_compute; reflexivity.
Qed.
(** What is asked of the program is needed.  A member fetches when the group is rebalanced; the answers come, consume()
    returns none of the messages, and the program then calls commit_offsets() - as it may after every consume() - because
    an earlier consume() left the topic to be committed.  The group's offset is now beyond a message that no program got,
    and that none will get. *)
Definition ex_lost : history :=
  firstn 8 ex_day ++ [(0, Call 4 (OpConsume tt_ None)); (0, ex_pair); (0, Arrive 4 1 (Ok (PFetch [(tt_, [(0, (0, [(8, msg 3)]))])]))); (0, Arrive 4 2 (Ok (PFetch [(tt_, [(1, (0, []))])])))].
Lemma ex_lost_well : well_behaved tt_ ex_log ex_began ex_team (fun _ => ex_cluster) ex_lost.
Proof.
  apply stepwise_well. cbn [stepwise ex_lost ex_day firstn app].
  split; [ex_quiet|]. split; [ex_quiet|]. split; [ex_call|]. split; [ex_answer ex_plain|].
  split; [ex_call|]. split; [ex_lookup ltac:(intros p o [E|[E|[]]]; injection E as <- <-; left; reflexivity)|].
  split; [ex_answer ltac:(ex_fetch 1%nat 5)|]. split; [ex_answer ltac:(ex_fetch 1%nat 7)|]. split; [ex_call|].
  split; [ex_midway|].
  split; [ex_answer ltac:(ex_fetch 1%nat 6)|]. split; [ex_answer ltac:(ex_fetch 0%nat 8)|]. exact I.
Qed.
Theorem C99_commit_after_drop_refuted : exists (cf : Z -> config Z) k0 es l p c o m v, plain_members cf /\ well_behaved tt_ ex_log ex_began cf k0 es /\ (forall x i op q, dget (c_calls (member cf k0 x es)) i <> Some (op, q)) /\
  l = Call 5 (OpCommit None) /\ commits_at tt_ (cf 0) (member cf k0 0 es) l p c /\ In (o, m) (ex_log p) /\ ex_began p <= o < c /\ (forall x, deser (cf x) (msg_value m) = Ok v /\ truthy (cf x) v = true) /\
  forall x, ~ In v (flat_map (gave tt_) (c_ended (member cf k0 x (es ++ [(0, l)])))).
Proof.
  exists ex_team, (fun _ => ex_cluster), ex_lost, (Call 5 (OpCommit None)), 0, 9, 8, (msg 3), 3.
  assert (OT : forall x es, (forall y l, In (y, l) es -> y = 0) -> x <> 0 -> member ex_team (fun _ => ex_cluster) x es = consumer_init ex_cluster (name_of ex_team x)).
  { intros x es A N. unfold member. replace (own x es) with (@nil label); [reflexivity|]. unfold own. induction es as [|[y l] es IH]; [reflexivity|]. cbn. rewrite (A y l (or_introl eq_refl)). destruct (Z.eqb_spec 0 x) as [E|_]; [now destruct N|]. apply IH. intros y' l' IN. apply (A y' l'). now right. }
  assert (Z0 : forall y l, In (y, l) (ex_lost ++ [(0, Call 5 (OpCommit None))]) -> y = 0) by (intros y l H; cbn in H; repeat (destruct H as [H|H]; [now injection H|]); destruct H).
  split; [exact ex_plain_team|]. split; [exact ex_lost_well|]. split.
  { intros x i op q D. destruct (Z.eq_dec x 0) as [->|N]; [vm_compute in D; discriminate D|]. rewrite OT in D; [discriminate D| |exact N]. intros y l H. apply (Z0 y l). apply in_app_iff. now left. }
  split; [reflexivity|]. split; [do 5 eexists; split; [vm_compute; left; reflexivity|split; [left; reflexivity|left; reflexivity]]|]. split; [vm_compute; auto|]. split; [vm_compute; split; [discriminate|reflexivity]|]. split; [intros x; unfold ex_team; destruct (x =? 0); split; reflexivity|].
  intros x. destruct (Z.eq_dec x 0) as [->|N]; [vm_compute; intros [H|[H|[]]]; discriminate H|]. rewrite OT by (exact Z0 || exact N). intros [].
Qed.

(** Nor may a rebalance come while consume() looks up offsets: all steps but that one rebalance are as they should be, and a
    message is lost.  First the member drops, at a rebalance, what it fetched of partition 1, and keeps the position behind
    it.  Then it gets partition 1 back during a lookup that asks about partition 0 only, and goes on from the old position.
    Or it gets it back during a commit_offsets() that, as the broker reports an error, is sent again - by no doing of the
    program - now with the old position. *)
Definition but_one (t : text) log start (cf : Z -> config Z) k0 (es0 : history) (e0 : Z * label) (es : history) : Prop :=
  well_behaved t log start cf k0 es0 /\ rebalances (cf (fst e0)) (member cf k0 (fst e0) es0) (snd e0) /\
  forall es1 x l es2, es = es1 ++ (x, l) :: es2 -> careful t log (cf x) (member cf k0 x (es0 ++ e0 :: es1)) l /\ recalls t start cf k0 (es0 ++ e0 :: es1) x l /\ commits_well t cf k0 (es0 ++ e0 :: es1) x l.
Definition skipped (cf : Z -> config Z) k0 (es : history) : Prop := exists p c o m v, committed tt_ cf k0 es p c /\ In (o, m) (ex_log p) /\ ex_began p <= o < c /\
  (forall x, deser (cf x) (msg_value m) = Ok v /\ truthy (cf x) v = true) /\ forall x, ~ In v (flat_map (gave tt_) (c_ended (member cf k0 x es))).
Definition ex_gone : history := firstn 8 ex_day ++
  [(0, Call 4 (OpConsume tt_ None)); (0, ex_pair); (0, Arrive 4 1 (Ok (PFetch [(tt_, [(0, (0, []))])]))); (0, Arrive 4 2 (Ok (PFetch [(tt_, [(1, (0, [(8, msg 6)]))])]))); (0, Call 5 (OpConsume tt_ None))].
Definition ex_alone : Z * label := (0, Alloc (EvMembers [me])).
Definition ex_goes_on : history :=
  [(0, Arrive 5 2 (Ok (POffsetFetch [(tt_, [(0, (0, 5))])]))); (0, Arrive 5 1 (Ok (PFetch [(tt_, [(0, (0, []))])]))); (0, Arrive 5 2 (Ok (PFetch [(tt_, [(1, (0, []))])]))); (0, Call 6 (OpCommit None))].
Definition ex_gone2 : history := ex_gone ++ [(0, Arrive 5 2 (Ok (POffsetFetch [(tt_, [(0, (0, 5))])]))); (0, Arrive 5 1 (Ok (PFetch [(tt_, [(0, (0, []))])]))); (0, Call 6 (OpCommit None))].
Definition ex_failed : Z * label := (0, Arrive 6 2 (Ok (PCommit [(tt_, [(0, 6)])]))).
Definition ex_again : Z * label := (0, Healed 6 (Ok tt)).
Lemma stepwise_rest t log start cf k0 es : forall es0, stepwise t log start cf k0 es0 es -> forall es1 x l es2, es = es1 ++ (x, l) :: es2 -> careful t log (cf x) (member cf k0 x (es0 ++ es1)) l /\ recalls t start cf k0 (es0 ++ es1) x l /\ commits_well t cf k0 (es0 ++ es1) x l.
Proof.
  induction es as [|[y k] es IH]; intros es0 S es1 x l es2 E; [now destruct es1|]. destruct S as [A B]. destruct es1 as [|e es1]; cbn in E; [injection E as -> -> ->; now rewrite app_nil_r|].
  injection E as <- ->. specialize (IH _ B es1 x l es2 eq_refl). rewrite <- app_assoc in IH. exact IH.
Qed.
Lemma ex_others x es : (forall y l, In (y, l) es -> y = 0) -> x <> 0 -> member ex_team (fun _ => ex_cluster) x es = consumer_init ex_cluster (name_of ex_team x).
Proof.
  intros A N. unfold member. replace (own x es) with (@nil label); [reflexivity|]. unfold own. induction es as [|[y l] es IH]; [reflexivity|]. cbn. rewrite (A y l (or_introl eq_refl)). destruct (Z.eqb_spec 0 x) as [E|_]; [now destruct N|].
  apply IH. intros y' l' IN. apply (A y' l'). now right.
Qed.
Lemma ex_gone_well : well_behaved tt_ ex_log ex_began ex_team (fun _ => ex_cluster) ex_gone.
Proof.
  apply stepwise_well. cbn [stepwise ex_gone ex_day firstn app].
  split; [ex_quiet|]. split; [ex_quiet|]. split; [ex_call|]. split; [ex_answer ex_plain|].
  split; [ex_call|]. split; [ex_lookup ltac:(intros p o [E|[E|[]]]; injection E as <- <-; left; reflexivity)|].
  split; [ex_answer ltac:(ex_fetch 1%nat 5)|]. split; [ex_answer ltac:(ex_fetch 1%nat 7)|]. split; [ex_call|].
  split; [ex_midway|].
  split; [ex_answer ltac:(ex_fetch 0%nat 6)|]. split; [ex_answer ltac:(ex_fetch 1%nat 8)|]. split; [ex_call|]. exact I.
Qed.
Lemma ex_gone2_well : well_behaved tt_ ex_log ex_began ex_team (fun _ => ex_cluster) (ex_gone2 ++ [ex_alone; ex_failed]).
Proof.
  apply stepwise_well. cbn [stepwise ex_alone ex_failed ex_gone2 ex_gone ex_day firstn app].
  split; [ex_quiet|]. split; [ex_quiet|]. split; [ex_call|]. split; [ex_answer ex_plain|].
  split; [ex_call|]. split; [ex_lookup ltac:(intros p o [E|[E|[]]]; injection E as <- <-; left; reflexivity)|].
  split; [ex_answer ltac:(ex_fetch 1%nat 5)|]. split; [ex_answer ltac:(ex_fetch 1%nat 7)|]. split; [ex_call|].
  split; [ex_midway|].
  split; [ex_answer ltac:(ex_fetch 0%nat 6)|]. split; [ex_answer ltac:(ex_fetch 1%nat 8)|]. split; [ex_call|].
  split; [ex_lookup ltac:(intros p o [E|[]]; injection E as <- <-; left; reflexivity)|]. split; [ex_answer ltac:(ex_fetch 0%nat 5)|]. split; [ex_commit|].
  split; [ex_midway|]. split; [ex_answer ex_plain|]. exact I.
Qed.
Ltac ex_skipped es0 l es2 := exists 1, 9, 8, (msg 6), 6; split; [exists es0, 0, l, es2; split; [reflexivity|]; do 5 eexists; split; [vm_compute; left; reflexivity|split; [left; reflexivity|right; left; reflexivity]]|];
  split; [vm_compute; auto|]; split; [vm_compute; split; [discriminate|reflexivity]|]; split; [intros x; unfold ex_team; destruct (x =? 0); split; reflexivity|];
  intros x; let N := fresh in destruct (Z.eq_dec x 0) as [->|N]; [vm_compute; let H := fresh in intros [H|[H|[]]]; discriminate H|]; rewrite ex_others;
  [intros []|let H := fresh in intros y l0 H; cbn in H; repeat (destruct H as [H|H]; [now injection H|]); destruct H|exact N].
Theorem C99_during_lookup_refuted : plain_members ex_team /\ looks_up (member ex_team (fun _ => ex_cluster) 0 ex_gone) 5 tt_ /\ but_one tt_ ex_log ex_began ex_team (fun _ => ex_cluster) ex_gone ex_alone ex_goes_on /\
  skipped ex_team (fun _ => ex_cluster) (ex_gone ++ ex_alone :: ex_goes_on).
Proof.
  split; [exact ex_plain_team|]. split; [do 2 eexists; left; do 2 eexists; vm_compute; reflexivity|]. split.
  - split; [exact ex_gone_well|]. split; [eexists; split; [reflexivity|]; vm_compute; discriminate|]. intros es1 x l es2 E. change (ex_alone :: es1) with ([ex_alone] ++ es1). rewrite app_assoc. apply (stepwise_rest tt_ ex_log ex_began ex_team (fun _ => ex_cluster) ex_goes_on _) with (es2 := es2); [|exact E]. clear.
    cbn [stepwise ex_goes_on ex_gone ex_day firstn app ex_alone]. split; [ex_lookup ltac:(intros p o [E|[]]; injection E as <- <-; left; reflexivity)|].
    split; [ex_answer ltac:(ex_fetch 0%nat 5)|]. split; [ex_answer ltac:(ex_fetch 0%nat 9)|]. split; [ex_commit|]. exact I.
  - ex_skipped (ex_gone ++ ex_alone :: firstn 3 ex_goes_on) (Call 6 (OpCommit None)) (@nil (Z * label)).
Qed.
Theorem C99_during_commit_refuted : plain_members ex_team /\ commit_running (member ex_team (fun _ => ex_cluster) 0 ex_gone2) /\ well_behaved tt_ ex_log ex_began ex_team (fun _ => ex_cluster) (ex_gone2 ++ [ex_alone; ex_failed]) /\
  skipped ex_team (fun _ => ex_cluster) (ex_gone2 ++ [ex_alone; ex_failed; ex_again]).
Proof.
  split; [exact ex_plain_team|]. split; [exists 6; do 2 eexists; vm_compute; reflexivity|]. split; [exact ex_gone2_well|].
  ex_skipped (ex_gone2 ++ [ex_alone; ex_failed]) (Healed 6 (Ok tt)) (@nil (Z * label)).
Qed.
(** Nor may a program that catches what consume() raises commit after it: one broker's messages are fetched, the answer of
    another has an error code that the client does not know (KeyError), and the first ones are dropped, but not their
    positions. *)
Definition ex_raised : history :=
  firstn 8 ex_day ++ [(0, Call 4 (OpConsume tt_ None)); (0, Arrive 4 1 (Ok (PFetch [(tt_, [(0, (0, [(8, msg 3)]))])]))); (0, Arrive 4 2 (Ok (PFetch [(tt_, [(1, (99, []))])])))].
Lemma ex_raised_well : well_behaved tt_ ex_log ex_began ex_team (fun _ => ex_cluster) ex_raised.
Proof.
  apply stepwise_well. cbn [stepwise ex_raised ex_day firstn app].
  split; [ex_quiet|]. split; [ex_quiet|]. split; [ex_call|]. split; [ex_answer ex_plain|].
  split; [ex_call|]. split; [ex_lookup ltac:(intros p o [E|[E|[]]]; injection E as <- <-; left; reflexivity)|].
  split; [ex_answer ltac:(ex_fetch 1%nat 5)|]. split; [ex_answer ltac:(ex_fetch 1%nat 7)|]. split; [ex_call|]. split; [ex_answer ltac:(ex_fetch 1%nat 6)|].
  split; [ex_answer ltac:(let H := fresh in let W := fresh in intros ? (? & ? & ? & ? & H & W) _; vm_compute in H; injection H as <- <- <- <-; vm_compute in W; injection W as <-; split; [|exact I]; cbn; split; [reflexivity|]; intros _;
    split; [repeat constructor; intros []|]; let X := fresh in intros ? ? ? [X|[]]; injection X as <- <- <-; split; discriminate)|]. exact I.
Qed.
Theorem C99_commit_after_raise_refuted : plain_members ex_team /\ well_behaved tt_ ex_log ex_began ex_team (fun _ => ex_cluster) ex_raised /\ ~ busy (member ex_team (fun _ => ex_cluster) 0 ex_raised) tt_ /\
  In tt_ (c_synced (member ex_team (fun _ => ex_cluster) 0 ex_raised)) /\ failed tt_ ex_team (fun _ => ex_cluster) ex_raised 0 /\ skipped ex_team (fun _ => ex_cluster) (ex_raised ++ [(0, Call 5 (OpCommit None))]).
Proof.
  split; [exact ex_plain_team|]. split; [exact ex_raised_well|]. split; [apply ex_idle; vm_compute; reflexivity|]. split; [vm_compute; now left|]. split.
  - exists (firstn 10 ex_raised), (Arrive 4 2 (Ok (PFetch [(tt_, [(1, (99, []))])]))), []. split; [reflexivity|]. split; [vm_compute; now left|]. split; [exists 4, (OpConsume tt_ None), EKey; split; [vm_compute; now left|reflexivity]|]. intros es3 l' es4 E. now destruct es3.
  - exists 0, 9, 8, (msg 3), 3. split; [exists ex_raised, 0, (Call 5 (OpCommit None)), []; split; [reflexivity|]; do 5 eexists; split; [vm_compute; left; reflexivity|split; [left; reflexivity|left; reflexivity]]|].
    split; [vm_compute; auto|]. split; [vm_compute; split; [discriminate|reflexivity]|]. split; [intros x; unfold ex_team; destruct (x =? 0); split; reflexivity|].
    intros x. destruct (Z.eq_dec x 0) as [->|N]; [vm_compute; intros [H|[H|[]]]; discriminate H|]. rewrite ex_others; [intros []| |exact N]. intros y l0 H. cbn in H. repeat (destruct H as [H|H]; [now injection H|]). destruct H.
Qed.

Print Assumptions C99_committed_read_partial.
Print Assumptions C99_position_read_partial.
Print Assumptions C99_all_read_partial.
Print Assumptions C99_commit_after_drop_refuted.
Print Assumptions C99_during_lookup_refuted.
Print Assumptions C99_during_commit_refuted.
Print Assumptions C99_commit_after_raise_refuted.
