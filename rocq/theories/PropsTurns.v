(** Property C103: a program that waits for each produce() keeps the order of its messages, retries or not. *)
From Coq Require Import ZArith Lia String List Bool Sorting.Sorted.
From Verif Require Import PyBase BaseLemmas Constants Cluster Producer SpecProducer ProducerProofs PropsProducer SpecFlow ProducerRun SpecTurns TurnsProofs.
Import ListNotations.
Open Scope Z_scope.

Lemma pairs_ord {A} (P : A -> A -> Prop) w : (forall a x b y d, w = a ++ x :: b ++ y :: d -> P x y) -> ForallOrdPairs P w.
Proof.
  induction w as [|x w IH]; intros H; [constructor|]. constructor; [|apply IH; intros a y b z d ->; exact (H (x :: a) y b z d eq_refl)]. apply Forall_forall. intros y Y. apply in_split in Y as (b & d & ->). exact (H [] x b y d eq_refl).
Qed.
Lemma pairs_order {A} (P : A -> A -> Prop) l w : in_order l w -> ForallOrdPairs P w -> ForallOrdPairs P l.
Proof.
  induction 1 as [|x l w H IH|x l w H IH]; intros F; [constructor| |]; inversion F as [|? ? F1 F2]; subst; [auto|]. constructor; [|auto]. rewrite Forall_forall in *. intros y Y. apply F1. now apply (in_order_in l w).
Qed.
Lemma sorted_cat (a b : list pmsg) : StronglySorted lt (map pm_id a) -> StronglySorted lt (map pm_id b) -> (forall x y, In x a -> In y b -> (pm_id x < pm_id y)%nat) -> StronglySorted lt (map pm_id (a ++ b)).
Proof.
  induction a as [|x a IH]; intros A B H; [exact B|]. cbn [app map] in *. inversion A as [|? ? A1 A2]; subst. constructor; [apply IH; auto; intros; apply H; [now right|assumption]|]. rewrite map_app. apply Forall_app. split; [exact A2|].
  apply Forall_forall. intros y Y. apply in_map_iff in Y as (z & <- & Z0). apply H; [now left|exact Z0].
Qed.

Section C103.
  Variable batch_size : option Z.
  Variables acks timeout : Z.
  Variable compress_fails : list pmsg -> option exn.
  Variable serialize_fails : prequest -> option exn.
  Notation prun := (prun batch_size acks timeout compress_fails serialize_fails).
  Notation accepted := (accepted batch_size acks timeout compress_fails serialize_fails).
  Notation each_event := (each_event batch_size acks timeout compress_fails serialize_fails).
  Notation refused := (refused batch_size acks timeout compress_fails serialize_fails).

  (** Let the program wait for each call and the partitioner be true to its choices.  Take any of the requests written, in the
      order in which they were written, without those the broker refused for the partition.  What they carry for the partition is,
      in order and each message once, what produce() was given for the topic, with something left out. *)
  Theorem C103_order_kept : forall home evs k corr t p stored, let start := producer_init k corr in
    each_event (waits home) evs start -> in_order stored (p_wire (prun evs start)) -> (forall rq, In rq stored -> ~ refused evs start (pq_corr rq) t p) ->
    in_order (map pm_msg (carried stored t p)) (for_topic t (accepted evs start)) /\ StronglySorted lt (map pm_id (carried stored t p)) /\ (forall m, In m (carried stored t p) -> home t m = p).
  Proof.
    intros home evs k corr t p stored start E O N. pose proof (run_turns batch_size acks timeout compress_fails serialize_fails home t p evs k corr E) as T. fold start in T.
    assert (S : StronglySorted lt (map pm_id (carried stored t p))).
    { pose proof (pairs_order _ _ _ O (pairs_ord (fun r1 r2 => forall m1 m2, In m1 (carried [r1] t p) -> In m2 (carried [r2] t p) -> (pm_id m1 < pm_id m2)%nat \/ refused evs start (pq_corr r1) t p) _ (fun a x b y d H m1 m2 => t_wire _ _ _ _ _ T a x b y d m1 m2 H))) as F.
      pose proof (fun rq (X : In rq stored) => t_each _ _ _ _ _ T rq (in_order_in _ _ _ O X)) as EA. clear O T. induction F as [|r1 l F1 F IH]; [constructor|]. change (r1 :: l) with ([r1] ++ l). rewrite carried_app. apply sorted_cat.
      - apply EA. now left.
      - apply IH; intros rq X; [apply N|apply EA]; now right.
      - intros x y X Y. unfold carried in Y at 1. apply in_flat_map in Y as (r2 & R2 & Y). rewrite Forall_forall in F1. assert (Y2 : In y (carried [r2] t p)) by (unfold carried; cbn [flat_map]; now rewrite app_nil_r).
        destruct (F1 r2 R2 x y X Y2) as [L|L]; [exact L|]. destruct (N r1 (or_introl eq_refl) L). }
    assert (IN : forall m, In m (carried stored t p) -> exists rq, In rq (p_wire (prun evs start)) /\ In m (carried [rq] t p)).
    { intros m Hm. unfold carried in Hm at 1. apply in_flat_map in Hm as (rq & R1 & Hm). exists rq. split; [now apply (in_order_in _ _ _ O)|]. unfold carried. cbn [flat_map]. now rewrite app_nil_r. }
    split; [|split; [exact S|intros m Hm; destruct (IN m Hm) as (rq & X & Y); exact (t_place _ _ _ _ _ T rq m X Y)]]. apply picked_in_order with 0%nat; [exact S|]. intros m Hm. split; [lia|]. rewrite Nat.sub_0_r. apply written_accepted with (p := p). destruct (IN m Hm) as (rq & X & Y).
    apply in_split in X as (a & b & X). fold start. rewrite X, carried_mid. apply in_or_app. right. apply in_or_app. now left.
  Qed.
End C103.

(** message 0 is refused, goes out again before message 2 of its partition, and is then stored *)
Definition turn_home (t : text) (m : pmsg) : Z := if Nat.even (pm_id m) then 0 else 1.
Definition turn_evs : list pevent :=
  [put tp_a 1; EvResponse 42 [(tp_a, [(0, 6)])]; EvHealed; put tp_a 2; EvResponse 43 [(tp_a, [(0, 6); (1, 0)])]; put tp_a 3; EvResponse 44 [(tp_a, [(0, 0)])]; put tp_a 4; EvFail 45 EStreamClosed; put tp_a 5].
Notation one_run := (prun (Some 1) 1 500 never never).
Lemma put_waits part home s n : p_open s = [] -> p_cluster s = demo_cluster -> (p_unsent s = [] \/ exists q, p_unsent s = [(tp_a, q)]) ->
  (forall m q, part m [0; 1] = Ok q -> q = home tp_a m) -> waits home s (EvProduce part tp_a (Ok (demo_msg n))).
Proof.
  intros O K U H. split; [exact O|]. rewrite K. intros t m q X. assert (t = tp_a) as ->; [|apply H].
  destruct (list_eqb t tp_a) eqn:E; [now apply list_eqb_spec in E|]. unfold at_hand in X. rewrite E, app_nil_r in X. unfold queue_of in X. destruct U as [U|[q0 U]]; rewrite U in X; [destruct X|]. cbn [dget] in X. change (eqb tp_a t) with (list_eqb tp_a t) in X.
  destruct (list_eqb tp_a t) eqn:E2; [|destruct X]. apply list_eqb_spec in E2. subst t. vm_compute in E. discriminate.
Qed.
Lemma parity_home m q : parity m [0; 1] = Ok q -> q = turn_home tp_a m.
Proof. unfold parity, turn_home. cbn. intros Y. now injection Y as <-. Qed.
Lemma turn_waits : each_event (Some 1) 1 500 never never (waits turn_home) turn_evs demo_start.
Proof.
  unfold turn_evs, put. cbn [SpecFlow.each_event]. repeat (split; [first [exact I|apply put_waits; [vm_compute; reflexivity|vm_compute; reflexivity|vm_compute; eauto|exact parity_home]]|]). exact I.
Qed.
Definition values_on (l : list prequest) (p : Z) : list pyval := map (fun m => m_value (pm_msg m)) (carried l tp_a p).
Lemma refused_event b a o cf sf evs s0 c t p : refused b a o cf sf evs s0 c t p -> exists resp ps code, In (EvResponse c resp) evs /\ In (t, ps) resp /\ In (p, code) ps /\ retriable_code code = true.
Proof. intros (e1 & resp & e2 & ps & code & -> & _ & X). exists resp, ps, code. split; [apply in_or_app; right; now left|exact X]. Qed.
Ltac not_refused := let H := fresh in intros H; apply refused_event in H as (? & ? & ? & ? & ? & ? & ?);
  repeat match goal with X : In _ (_ :: _) |- _ => destruct X as [X|X]; [try discriminate X; injection X; intros; subst|] | X : In _ [] |- _ => destruct X end; try discriminate.
Lemma in_order_skipn {A} n (l : list A) : in_order (skipn n l) l.
Proof. revert n. induction l as [|x l IH]; intros [|n]; cbn; try constructor; [apply in_order_refl|apply IH]. Qed.
Example C103_example : let w := p_wire (one_run turn_evs demo_start) in
  each_event (Some 1) 1 500 never never (waits turn_home) turn_evs demo_start /\
  values_on w 0 = map PInt [1; 1; 1; 3; 5] /\ values_on w 1 = map PInt [2; 4] /\ in_order (skipn 2 w) w /\
  (forall rq, In rq (skipn 2 w) -> ~ refused (Some 1) 1 500 never never turn_evs demo_start (pq_corr rq) tp_a 0) /\ values_on (skipn 2 w) 0 = map PInt [1; 3; 5].
Proof.
  cbv zeta. split; [exact turn_waits|]. split; [vm_compute; reflexivity|]. split; [vm_compute; reflexivity|]. split; [apply in_order_skipn|]. split; [|vm_compute; reflexivity].
  intros rq X. assert (C : In (pq_corr rq) [44; 45; 46]) by (apply (in_map pq_corr) in X; vm_compute in X; exact X). clear X. unfold turn_evs. destruct C as [<-|[<-|[<-|[]]]]; not_refused.
Qed.

(** It takes both.  A program that does not wait: message 1 is refused while message 2 is on its way. *)
Definition hasty_evs : list pevent := [put tp_a 1; put tp_a 2; put tp_a 3; EvResponse 42 [(tp_a, [(0, 6)])]; EvResponse 43 [(tp_a, [(1, 0)])]; EvResponse 44 [(tp_a, [(0, 0)])]; put tp_a 4].
Definition faithful (home : text -> pmsg -> Z) (s : producer) (ev : pevent) : Prop :=
  match ev with EvProduce part _ _ | EvResume part _ _ | EvFlush part | EvClose part => forall t m q, In m (at_hand s ev t) -> part m (partitions_of (p_cluster s) t) = Ok q -> q = home t m | _ => True end.
Definition alone (s : producer) (ev : pevent) : Prop :=
  match ev with EvProduce _ _ _ | EvResume _ _ _ | EvFlush _ | EvClose _ => p_open s = [] | _ => True end.
Lemma put_faithful part home s n : p_cluster s = demo_cluster -> (p_unsent s = [] \/ exists q, p_unsent s = [(tp_a, q)]) ->
  (forall m q, part m [0; 1] = Ok q -> q = home tp_a m) -> faithful home s (EvProduce part tp_a (Ok (demo_msg n))).
Proof.
  intros K U H. cbn [faithful]. rewrite K. intros t m q X. assert (t = tp_a) as ->; [|apply H].
  destruct (list_eqb t tp_a) eqn:E; [now apply list_eqb_spec in E|]. unfold at_hand in X. rewrite E, app_nil_r in X. unfold queue_of in X. destruct U as [U|[q0 U]]; rewrite U in X; [destruct X|]. cbn [dget] in X. change (eqb tp_a t) with (list_eqb tp_a t) in X.
  destruct (list_eqb tp_a t) eqn:E2; [|destruct X]. apply list_eqb_spec in E2. subst t. vm_compute in E. discriminate.
Qed.
Ltac out_of_order := let H := fresh in intros H; vm_compute in H; repeat match goal with X : in_order (_ :: _) _ |- _ => inversion X; subst; clear X end.
Theorem C103_overlap_refuted : exists evs t p stored, let start := demo_start in
  each_event (Some 1) 1 500 never never (faithful turn_home) evs start /\ in_order stored (p_wire (one_run evs start)) /\ (forall rq, In rq stored -> ~ refused (Some 1) 1 500 never never evs start (pq_corr rq) t p) /\
  ~ in_order (map pm_msg (carried stored t p)) (for_topic t (accepted (Some 1) 1 500 never never evs start)).
Proof.
  exists hasty_evs, tp_a, 0, (skipn 2 (p_wire (one_run hasty_evs demo_start))). cbv zeta. split; [|split; [apply in_order_skipn|split]].
  - unfold hasty_evs, put. cbn [SpecFlow.each_event]. repeat (split; [first [exact I|apply put_faithful; [vm_compute; reflexivity|vm_compute; eauto|exact parity_home]]|]). exact I.
  - intros rq X. assert (C : In (pq_corr rq) [44; 45]) by (apply (in_map pq_corr) in X; vm_compute in X; exact X). clear X. unfold hasty_evs. destruct C as [<-|[<-|[]]]; not_refused.
  - out_of_order.
Qed.
(** A partitioner that chooses anew, as the default one does: message 1 is refused by partition 0 and sent to partition 1, behind
    message 2. *)
Definition to_one : partitioner := fun _ ps => match ps with [] => Err EIndex | _ => Ok 1 end.
Definition moving_evs : list pevent := [put tp_a 1; EvResponse 42 [(tp_a, [(0, 6)])]; put tp_a 2; EvResponse 43 [(tp_a, [(0, 6); (1, 0)])]; EvProduce to_one tp_a (Ok (demo_msg 3))].
Theorem C103_new_choice_refuted : exists evs t p stored, let start := demo_start in
  each_event (Some 1) 1 500 never never alone evs start /\ in_order stored (p_wire (one_run evs start)) /\ (forall rq, In rq stored -> ~ refused (Some 1) 1 500 never never evs start (pq_corr rq) t p) /\
  ~ in_order (map pm_msg (carried stored t p)) (for_topic t (accepted (Some 1) 1 500 never never evs start)).
Proof.
  exists moving_evs, tp_a, 1, (skipn 1 (p_wire (one_run moving_evs demo_start))). cbv zeta. split; [|split; [apply in_order_skipn|split]].
  - unfold moving_evs, put. cbn [SpecFlow.each_event]. repeat (split; [first [exact I|vm_compute; reflexivity]|]). exact I.
  - intros rq X. assert (C : In (pq_corr rq) [43; 44]) by (apply (in_map pq_corr) in X; vm_compute in X; exact X). clear X. unfold moving_evs. destruct C as [<-|[<-|[]]]; not_refused.
  - out_of_order.
Qed.

Print Assumptions C103_order_kept.
Print Assumptions C103_overlap_refuted.
Print Assumptions C103_new_choice_refuted.
