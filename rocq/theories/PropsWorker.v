(** Property C100: the workers of a group (examples/worker.py) commit only what they have processed.  Model: Worker.v;
    specification: SpecWorker.v; proofs: WorkerProofs.v. *)
From Coq Require Import ZArith String List Bool Lia.
From Verif Require Import PyBase BaseLemmas Constants Cluster Zookeeper SpecZk Consumer SpecConsumer ConsumerProofs PropsConsumer SpecGroup PropsGroup SpecLog PropsLog SpecGroupLog PropsGroupLog SpecTeam TeamProofs PropsTeam Worker SpecWorker WorkerProofs.
Import ListNotations.
Open Scope Z_scope.

(** Any number of workers, their steps interleaved in any way, joining, leaving and crashing at any point.  The calls are
    those of the program.  Whenever a worker commits an offset, each message before it, back to where the group began, has
    been processed by some worker, in a pass of its loop that it finished: whoever dies then, the message was processed. *)
Theorem C100_committed_processed_partial : forall V t log start (cf : Z -> config V) k0 es p c, (forall p, is_log (log p)) -> plain_members cf -> workers t cf k0 es -> spared t log start cf k0 es ->
  committed t cf k0 es p c -> forall o m, In (o, m) (log p) -> start p <= o < c -> exists x, processed cf k0 x es m.
Proof. intros V t log start cf k0 es p c LOG PL W S. apply (proj2 (work_covers t log LOG start cf k0 PL es W S)). Qed.
(** What a worker has processed is what its consume() calls have returned, in that order and each once: all of it when the
    loop is about to call consume(), and all but the last list when it is about to commit. *)
Theorem C100_processed_once : forall V t (cf : Z -> config V) k0 es x, workers t cf k0 es ->
  flat_map (gave t) (c_ended (member cf k0 x es)) = w_done (at_work cf k0 x es) ++ match msgs_of (at_work cf k0 x es) with Some ms => ms | None => [] end.
Proof. intros V t cf k0 es x W. rewrite <- work_member. apply (d_gave _ _ (work_duty t cf k0 es W x)). Qed.
(** A worker has at most one consume() running, and none while it commits. *)
Theorem C100_one_at_a_time : forall V t (cf : Z -> config V) k0 es x l es2 i o, workers t cf k0 (es ++ (x, l) :: es2) -> l = Call i o -> ~ busy (member cf k0 x es) t.
Proof. intros V t cf k0 es x l es2 i o W ->. rewrite <- work_member. apply (duty_free t _ o (work_duty t cf k0 es (work_before t cf k0 _ _ W) x)). apply (W es x (Call i o) es2 eq_refl). Qed.

(** ** examples *)
Fixpoint on_the_job (t : text) (cf : Z -> config Z) k0 (es1 es : history) : Prop :=
  match es with
  | [] => True
  | (x, l) :: es2 => (may t (at_work cf k0 x es1) l /\ (next_call t (at_work cf k0 x es1) <> Some (OpCommit None) \/ ~ rebalances (cf x) (member cf k0 x es1) l) /\
                      ((forall i o, l <> Call i o) -> forall p c, ~ commits_at t (cf x) (member cf k0 x es1) l p c)) /\ on_the_job t cf k0 (es1 ++ [(x, l)]) es2
  end.
Lemma job_rest t cf k0 es : forall es0, on_the_job t cf k0 es0 es -> forall es1 x l es2, es = es1 ++ (x, l) :: es2 -> may t (at_work cf k0 x (es0 ++ es1)) l /\
  (next_call t (at_work cf k0 x (es0 ++ es1)) <> Some (OpCommit None) \/ ~ rebalances (cf x) (member cf k0 x (es0 ++ es1)) l) /\ ((forall i o, l <> Call i o) -> forall p c, ~ commits_at t (cf x) (member cf k0 x (es0 ++ es1)) l p c).
Proof.
  induction es as [|[y k] es IH]; intros es0 S es1 x l es2 E; [now destruct es1|]. destruct S as [A B]. destruct es1 as [|e es1]; cbn in E; [injection E as -> -> ->; now rewrite app_nil_r|].
  injection E as <- ->. specialize (IH _ B es1 x l es2 eq_refl). rewrite <- app_assoc in IH. exact IH.
Qed.
Lemma job_workers t cf k0 es : on_the_job t cf k0 [] es -> workers t cf k0 es.
Proof. intros J es1 x l es2 E. apply (job_rest t cf k0 es [] J es1 x l es2 E). Qed.
Lemma job_spared t log start cf k0 es : on_the_job t cf k0 [] es -> well_behaved t log start cf k0 es -> spared t log start cf k0 es.
Proof.
  intros J W es1 x l es2 E. destruct (job_rest t cf k0 es [] J es1 x l es2 E) as (_ & B & C). destruct (W es1 x l es2 E) as ((A1 & A2) & R & _). cbn [app] in B, C. split; [|exact R]. unfold spares. rewrite work_member.
  split; [destruct l as [i [t' st'|m|]|i b [r|e]|i r|k|ev|]; try exact Logic.I; exact A1|]. split; [|exact C]. intros RB. split; [now apply A2|]. destruct B as [B|B]; [exact B|now destruct (B RB)].
Qed.
Ltac job_call := split; [split; [vm_compute; reflexivity|split; vm_compute; reflexivity]|split; [right; ex_norebalance|let N := fresh in intros N; exfalso; exact (N _ _ eq_refl)]].
Ltac job_other := split; [exact Logic.I|split; [first [left; vm_compute; discriminate|right; ex_norebalance]|intros _; ex_nocommit]].
Ltac job := repeat (split; [first [job_call|job_other]|]); exact Logic.I.
(** the day of C99 is a day of two workers *)
Lemma ex_day_job : on_the_job tt_ ex_team (fun _ => ex_cluster) [] ex_day.
Proof. cbn [on_the_job ex_day app]. job. Qed.
Example C100_example : plain_members ex_team /\ workers tt_ ex_team (fun _ => ex_cluster) ex_day /\ spared tt_ ex_log ex_began ex_team (fun _ => ex_cluster) ex_day /\ committed tt_ ex_team (fun _ => ex_cluster) ex_day 0 10 /\
  w_done (at_work ex_team (fun _ => ex_cluster) 0 ex_day) = [2; 5; 3; 4] /\ msgs_of (at_work ex_team (fun _ => ex_cluster) 1 ex_day) = Some [6].
Proof.
  split; [exact ex_plain_team|]. split; [exact (job_workers _ _ _ _ ex_day_job)|]. split; [exact (job_spared _ _ _ _ _ _ ex_day_job ex_day_well)|]. split; [exact (proj1 (proj2 (proj2 C99_example)))|]. split; vm_compute; reflexivity.
Qed.

(** The program does not wait for commit_offsets(): the next consume() has fetched part of its messages when the broker reports
    that the commit failed.  It is sent again, now with the positions behind messages that consume() has not returned: if the
    worker dies now, or its consume() drops them, no worker ever processes them. *)
Definition unprocessed (cf : Z -> config Z) k0 (es : history) : Prop := exists p c o m v, committed tt_ cf k0 es p c /\ In (o, m) (ex_log p) /\ ex_began p <= o < c /\
  (forall x, deser (cf x) (msg_value m) = Ok v /\ truthy (cf x) v = true) /\ (forall x, ~ In v (flat_map (gave tt_) (c_ended (member cf k0 x es)))) /\ forall x, ~ In v (w_done (at_work cf k0 x es)).
Definition ex_twice : history := firstn 9 ex_day ++ [(0, Call 4 (OpConsume tt_ None)); (0, Arrive 4 1 (Ok (PFetch [(tt_, [(0, (0, [(8, msg 3)]))])]))); (0, Arrive 3 2 (Ok (PCommit [(tt_, [(0, 6); (1, 6)])])))].
Definition ex_resent : Z * label := (0, Healed 3 (Ok tt)).
Ltac ex_begin := split; [ex_quiet|]; split; [ex_quiet|]; split; [ex_call|]; split; [ex_answer ex_plain|]; split; [ex_call|]; split; [ex_lookup ltac:(intros p o [E|[E|[]]]; injection E as <- <-; left; reflexivity)|];
  split; [ex_answer ltac:(ex_fetch 1%nat 5)|]; split; [ex_answer ltac:(ex_fetch 1%nat 7)|]; split; [ex_commit|].
Lemma ex_twice_well : well_behaved tt_ ex_log ex_began ex_team (fun _ => ex_cluster) ex_twice.
Proof.
  apply stepwise_well. cbn [stepwise ex_twice ex_day firstn app]. ex_begin.
  split; [split; [split; [intros _ (i & o & p & D & OT); apply dget_In in D; vm_compute in D; destruct D as [D|[]]; injection D as <- <- <-; exact OT|ex_norebalance]|split; [ex_notold|ex_nocommit]]|]. split; [ex_answer ltac:(ex_fetch 1%nat 6)|]. split; [ex_answer ex_plain|]. exact Logic.I.
Qed.
Lemma ex_twice_job : on_the_job tt_ ex_team (fun _ => ex_cluster) [] ex_twice.
Proof. cbn [on_the_job ex_twice ex_day firstn app]. job. Qed.
Lemma ex_works x es : (forall y l, In (y, l) es -> y = 0) -> x <> 0 -> w_done (at_work ex_team (fun _ => ex_cluster) x es) = [].
Proof.
  intros A N. unfold at_work. replace (own x es) with (@nil label); [reflexivity|]. unfold own. induction es as [|[y l] es IH]; [reflexivity|]. cbn. rewrite (A y l (or_introl eq_refl)). destruct (Z.eqb_spec 0 x) as [E|_]; [now destruct N|].
  apply IH. intros y' l' IN. apply (A y' l'). now right.
Qed.
Ltac ex_only := let H := fresh in intros ? ? H; cbn in H; repeat (destruct H as [H|H]; [now injection H|]); destruct H.
Ltac ex_nowhere := let H := fresh in vm_compute; intros H; repeat (destruct H as [H|H]; [discriminate H|]); destruct H.
Theorem C100_commit_again_refuted : plain_members ex_team /\ workers tt_ ex_team (fun _ => ex_cluster) ex_twice /\ spared tt_ ex_log ex_began ex_team (fun _ => ex_cluster) ex_twice /\
  workers tt_ ex_team (fun _ => ex_cluster) (ex_twice ++ [ex_resent]) /\ unprocessed ex_team (fun _ => ex_cluster) (ex_twice ++ [ex_resent]).
Proof.
  split; [exact ex_plain_team|]. split; [exact (job_workers _ _ _ _ ex_twice_job)|]. split; [exact (job_spared _ _ _ _ _ _ ex_twice_job ex_twice_well)|]. split.
  - intros es1 x l es2 E. destruct (snoc_inj _ _ _ _ _ E) as [(c & -> & E')|(-> & <- & E')]; [exact (job_workers _ _ _ _ ex_twice_job es1 x l c E')|]. injection E' as <- <-. exact Logic.I.
  - exists 0, 9, 8, (msg 3), 3. split; [exists ex_twice, 0, (snd ex_resent), []; split; [reflexivity|]; do 5 eexists; split; [vm_compute; left; reflexivity|split; [left; reflexivity|left; reflexivity]]|].
    split; [vm_compute; auto|]. split; [vm_compute; split; [discriminate|reflexivity]|]. split; [intros x; unfold ex_team; destruct (x =? 0); split; reflexivity|].
    split; intros x; (destruct (Z.eq_dec x 0) as [->|N]; [ex_nowhere|]); [rewrite ex_others|rewrite ex_works]; try exact N; try ex_only; intros [].
Qed.
(** And a rebalance between the end of consume() and the next pass of the loop lets it commit a position that is not its own:
    one it kept from an earlier rebalance, for a partition that it lost then and has now again, behind messages that it
    dropped. *)
Definition ex_window : history := firstn 12 ex_day ++ [(0, Arrive 4 1 (Ok (PFetch [(tt_, [(0, (0, [(8, msg 3)]))])]))); (0, Arrive 4 2 (Ok (PFetch [(tt_, [(1, (0, [(8, msg 6)]))])])));
  (0, Call 5 (OpConsume tt_ None)); (0, Arrive 5 2 (Ok (POffsetFetch [(tt_, [(0, (0, 6))])]))); (0, Arrive 5 1 (Ok (PFetch [(tt_, [(0, (0, [(8, msg 3)]))])])))].
Definition ex_late : Z * label := (0, Call 6 (OpCommit None)).
Lemma ex_window_well : well_behaved tt_ ex_log ex_began ex_team (fun _ => ex_cluster) ex_window.
Proof.
  apply stepwise_well. cbn [stepwise ex_window ex_day firstn app]. ex_begin. split; [ex_answer ex_plain|]. split; [ex_call|]. split; [ex_midway|].
  split; [ex_answer ltac:(ex_fetch 1%nat 6)|]. split; [ex_answer ltac:(ex_fetch 1%nat 8)|].
  split; [ex_call|]. split; [ex_lookup ltac:(intros p o [E|[]]; injection E as <- <-; right; ex_committed 8%nat 0)|].
  split; [ex_answer ltac:(ex_fetch 1%nat 6)|]. exact Logic.I.
Qed.
Lemma ex_window_job : on_the_job tt_ ex_team (fun _ => ex_cluster) [] ex_window.
Proof. cbn [on_the_job ex_window ex_day firstn app]. job. Qed.
Theorem C100_rebalance_before_commit_refuted : plain_members ex_team /\ spared tt_ ex_log ex_began ex_team (fun _ => ex_cluster) ex_window /\ workers tt_ ex_team (fun _ => ex_cluster) (ex_window ++ [ex_alone; ex_late]) /\
  rebalances (ex_team 0) (member ex_team (fun _ => ex_cluster) 0 ex_window) (snd ex_alone) /\ (forall i, ~ looks_up (member ex_team (fun _ => ex_cluster) 0 ex_window) i tt_) /\ unprocessed ex_team (fun _ => ex_cluster) (ex_window ++ [ex_alone; ex_late]).
Proof.
  split; [exact ex_plain_team|]. split; [exact (job_spared _ _ _ _ _ _ ex_window_job ex_window_well)|]. split.
  - change [ex_alone; ex_late] with ([ex_alone] ++ [ex_late]). rewrite app_assoc. intros es1 x l es2 E. destruct (snoc_inj _ _ _ _ _ E) as [(c & -> & E')|(-> & <- & E')]; [|injection E' as <- <-; split; [vm_compute; reflexivity|split; vm_compute; reflexivity]].
    destruct (snoc_inj _ _ _ _ _ E') as [(c' & -> & E1)|(-> & <- & E1)]; [exact (job_workers _ _ _ _ ex_window_job es1 x l c' E1)|]. injection E1 as <- <-. exact Logic.I.
  - split; [eexists; split; [reflexivity|]; vm_compute; discriminate|]. split; [apply ex_idle; vm_compute; reflexivity|].
    exists 1, 9, 8, (msg 6), 6. split; [exists (ex_window ++ [ex_alone]), 0, (snd ex_late), []; split; [reflexivity|]; do 5 eexists; split; [vm_compute; left; reflexivity|split; [left; reflexivity|right; left; reflexivity]]|].
    split; [vm_compute; auto|]. split; [vm_compute; split; [discriminate|reflexivity]|]. split; [intros x; unfold ex_team; destruct (x =? 0); split; reflexivity|].
    split; intros x; (destruct (Z.eq_dec x 0) as [->|N]; [ex_nowhere|]); [rewrite ex_others|rewrite ex_works]; try exact N; try ex_only; intros [].
Qed.

Print Assumptions C100_committed_processed_partial.
Print Assumptions C100_processed_once.
Print Assumptions C100_one_at_a_time.
Print Assumptions C100_commit_again_refuted.
Print Assumptions C100_rebalance_before_commit_refuted.
