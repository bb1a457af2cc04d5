(** Property C106: a program that waits for each produce(), over connections.  Specification: SpecTurnsStack.v. *)
From Coq Require Import ZArith String List Bool Lia Sorting.Sorted.
From Verif Require Import PyBase BaseLemmas Utf8 Primitives Messages Protocol Schemas Request SpecWire SpecRequest SpecCodec Constants Cluster Producer SpecProducer ProducerProofs SpecFlow ProducerRun ProducerWire SpecProduced ProducerBytes PropsWire PropsProducer PropsFlow Json SpecJson SpecEnd PropsEnd SpecKafka SpecBytes PropsBytes PropsKafka SpecConn Stack ProducerStack SpecProducerStack ProducerStackProofs PropsProducerStack SpecTurns PropsTurns SpecTurnsStack.
From Verif Require Connection.
Import ListNotations.
Open Scope Z_scope.

Lemma climbs_sorted lo l hi : climbs lo l hi -> StronglySorted (fun a b => pq_corr a < pq_corr b) l /\ Forall (fun a => lo < pq_corr a) l.
Proof.
  revert lo. induction l as [|x l IH]; cbn [climbs]; intros lo H; [split; constructor|]. destruct H as [A B]. destruct (IH _ B) as [S F]. split; [now constructor|]. constructor; [exact A|]. eapply Forall_impl; [|exact F]. cbn. intros; lia.
Qed.
(** of two sorted lists, one within the other *)
Lemma sorted_within {A} (f : A -> Z) l W : StronglySorted (fun a b => f a < f b) W -> StronglySorted (fun a b => f a < f b) l -> (forall x, In x l -> In x W) -> in_order l W.
Proof.
  intros SW. revert l. induction SW as [|w W SW IH FW]; intros l SL I.
  - destruct l as [|x l]; [constructor|destruct (I x (or_introl eq_refl))].
  - destruct l as [|x l]; [apply io_skip, IH; [constructor|intros ? []]|]. inversion SL as [|? ? S1 F1]; subst. rewrite Forall_forall in FW, F1. destruct (I x (or_introl eq_refl)) as [<-|X].
    + apply io_take, IH; [exact S1|]. intros y Y. destruct (I y (or_intror Y)) as [<-|Z]; [|exact Z]. apply F1 in Y. lia.
    + apply io_skip, IH; [exact SL|]. intros y Y. destruct (I y Y) as [<-|Z]; [|exact Z]. exfalso. apply FW in X. destruct Y as [->|Y]; [lia|]. apply F1 in Y. lia.
Qed.
Lemma order_sorted {A} (R : A -> A -> Prop) l w : in_order l w -> StronglySorted R w -> StronglySorted R l.
Proof.
  intros O S. induction O as [|x a b O IH|x a b O IH]; [constructor|apply IH; now inversion S|]. inversion S as [|? ? S1 F]; subst. constructor; [now apply IH|]. rewrite Forall_forall in *. intros y Y. apply F. eapply in_order_in; eassumption.
Qed.

Section C106.
  Variable C : codec.
  Variable compression : Z.
  Variable batch_size : option Z.
  Variables acks timeout : Z.
  Variable depth : nat.
  Variable neg_read : Z -> bytes -> bytes * bytes.
  Notation prun := (prun batch_size acks timeout (compress_raises C compression) (serialize_raises C compression)).
  Notation pstep := (pstep batch_size acks timeout (compress_raises C compression) (serialize_raises C compression)).
  Notation yrun := (yrun C compression batch_size acks timeout depth neg_read).
  Notation ystep := (ystep C compression batch_size acks timeout depth neg_read).
  Notation pevents := (pevents C compression batch_size acks timeout depth neg_read).
  Notation pevents_of := (pevents_of).
  Notation accepted := (accepted batch_size acks timeout (compress_raises C compression) (serialize_raises C compression)).
  Notation each_event := (each_event batch_size acks timeout (compress_raises C compression) (serialize_raises C compression)).
  Notation refused := (refused batch_size acks timeout (compress_raises C compression) (serialize_raises C compression)).
  Notation whole := (ProducerStackProofs.whole C compression depth).

  Lemma wire_climbs evs : forall s lo, pinv s -> climbs lo (p_wire s) (p_corr s) -> climbs lo (p_wire (prun evs s)) (p_corr (prun evs s)).
  Proof.
    induction evs as [|ev evs IH]; intros s lo I H; [exact H|]. cbn [Producer.prun fold_left]. apply IH; [now apply pstep_inv|]. destruct (step_sends_some batch_size acks timeout (compress_raises C compression) (serialize_raises C compression) s ev I) as (sends & W & CL & _).
    rewrite W. eapply climbs_app; [exact H|]. now apply climbs_filter.
  Qed.
  Lemma run_grows frames evs : (forall n, Forall frame_ok (frames n)) -> forall Y, whole frames Y -> grows (y_link Y) (y_link (yrun evs Y)).
  Proof.
    intros OK. induction evs as [|ev evs IH]; intros Y W; [apply grows_refl|]. cbn [ProducerStack.yrun fold_left]. destruct (ystep_ok C compression batch_size acks timeout depth neg_read frames OK ev Y W) as (_ & W' & G). eapply grows_trans; [exact G|]. now apply IH.
  Qed.
  (** a response the producer handles is one a future held *)
  Lemma response_done c resp evs : forall Y, In (EvResponse c resp) (pevents evs Y) -> exists e1 e2, evs = e1 ++ YDone c :: e2 /\ answer_to (yrun e1 Y) c = Some (Ok resp).
  Proof.
    induction evs as [|ev evs IH]; intros Y H; [destruct H|]. cbn [ProducerStack.pevents] in H. apply in_app_iff in H as [H|H].
    - exists [], evs. destruct ev as [ev wr|n ev|n topics wr|c']; cbn [ProducerStack.pevents_of] in H.
      + destruct ev; cbn [In] in H; intuition discriminate.
      + destruct H.
      + destruct (Connection.request_of _ _ _ _); cbn [In] in H; intuition discriminate.
      + destruct (answer_to Y c') as [[r|e]|] eqn:A; cbn [In] in H; [|intuition discriminate|destruct H]. destruct H as [H|[]]. injection H as -> ->. split; [reflexivity|exact A].
    - destruct (IH _ H) as (e1 & e2 & -> & A). exists (ev :: e1), e2. split; [reflexivity|exact A].
  Qed.

  (** What the brokers keep of a producer's requests, sent over whatever connections, is what some of the frames written
      say for a partition, in the order in which the requests were made, without those a broker declined to store.  If the
      program waits for each call, these messages were produced for the partition's topic, the partitioner gave them this
      partition, and they are in the order produced, although declined messages were sent again. *)
  Theorem C106_kept_in_order : forall home frames evs k corr t p kept ds, let Y := yrun evs (pstack_init k corr) in let start := producer_init k corr in
    codec_laws C -> compression = 0 \/ compression = 1 \/ compression = 2 -> Forall ymakes evs ->
    phears frames Y -> answers_requests frames Y -> speaks frames Y -> each_event (waits home) (pevents evs (pstack_init k corr)) start ->
    Forall (fun w => exists n, In w (writes Y n) /\ produce_frame w = true) kept -> StronglySorted earlier kept -> (forall w, In w kept -> ~ declined frames Y w t p) -> Forall2 (kreceives C) kept ds ->
    exists ms, Forall2 (fun m km => msg_reads (pm_msg m) (kw_read km)) ms (flat_map (kcarried t p) ds) /\ in_order (map pm_msg ms) (for_topic t (accepted (pevents evs (pstack_init k corr)) start)) /\ (forall m, In m ms -> home t m = p).
  Proof.
    intros home frames evs k corr t p kept ds Y start CL SUP MK HE AR SP WT WR SO DE RC.
    pose proof (phears_ok frames Y HE) as OK. destruct (yrun_ok C compression batch_size acks timeout depth neg_read frames OK evs _ (whole_init C compression depth frames k corr)) as [E WH]. fold Y in E, WH. cbn [pstack_init y_prod] in E. fold start in E.
    pose proof (made_events C compression batch_size acks timeout depth neg_read evs (pstack_init k corr) start MK) as ME.
    assert (SW : StronglySorted (fun a b => pq_corr a < pq_corr b) (p_wire (y_prod Y))). { rewrite E. apply (climbs_sorted corr _ (p_corr (prun (pevents evs (pstack_init k corr)) start))). apply wire_climbs; [apply pinv_init|cbn; lia]. }
    (* the requests that were kept *)
    assert (RQ : exists l, Forall2 (fun rq w => In rq (p_wire (y_prod Y)) /\ produce_wire C compression rq = Ok w) l kept).
    { clear -WR WH. induction WR as [|w kept (n & HW & PF) WR (l & IH)]; [exists []; constructor|]. destruct (writes_out C compression depth frames Y n WH) as (l' & IO & F).
      assert (HF : In w (filter produce_frame (writes Y n))) by (apply filter_In; auto). apply in_split in HF as (a & b & EF). rewrite EF in F. apply Forall2_app_inv_r in F as (l1 & l2 & _ & F2 & ->). inversion F2 as [|rq ? l2' ? PW _]; subst.
      exists (rq :: l). constructor; [|exact IH]. split; [|exact PW]. eapply in_order_in; [exact IO|]. apply in_or_app. right. now left. }
    destruct RQ as (l & RQ).
    assert (PC : forall rq w c payload, produce_wire C compression rq = Ok w -> w = request_frame 0 c payload -> fits 32 c -> pq_corr rq = c).
    { intros rq w c payload PW EW FI. destruct (wire_frame C compression depth neg_read frames OK rq w PW) as (payload' & EW' & FI'). rewrite EW' in EW. destruct (C05_frame_readable "produce"%string 0 (pq_corr rq) payload' "produce"%string 0 c payload) as (_ & _ & X & _); [cbn; auto|cbn; auto|exact FI'|exact FI|exact EW|exact X]. }
    assert (SL : StronglySorted (fun a b => pq_corr a < pq_corr b) l).
    { clear -RQ SO PC. induction RQ as [|rq w l kept [_ PW] RQ IH]; [constructor|]. inversion SO as [|? ? S1 F1]; subst. constructor; [now apply IH|]. clear IH S1 SO. induction RQ as [|rq' w' l kept [_ PW'] RQ IH]; [constructor|]. inversion F1 as [|? ? (c & y & c' & y' & X1 & X2 & X3 & X4 & LT) F2]; subst. constructor; [|now apply IH].
      rewrite (PC _ _ c y PW eq_refl X1), (PC _ _ c' y' PW' eq_refl X2). exact LT. }
    assert (IN : forall rq, In rq l -> In rq (p_wire (y_prod Y)) /\ exists w, In w kept /\ produce_wire C compression rq = Ok w).
    { clear -RQ. induction RQ as [|rq w l kept [H PW] RQ IH]; [intros ? []|]. intros r [<-|X]; [split; [exact H|exists w; split; [now left|exact PW]]|]. destruct (IH r X) as (A & w' & B1 & B2). split; [exact A|]. exists w'. split; [now right|exact B2]. }
    assert (IO : in_order l (p_wire (y_prod Y))) by (apply (sorted_within pq_corr); [exact SW|exact SL|intros x X; now apply IN]).
    (* none was refused *)
    assert (NR : forall rq, In rq l -> ~ refused (pevents evs (pstack_init k corr)) start (pq_corr rq) t p).
    { intros rq X R. destruct (IN rq X) as (HW & w & HK & PW). destruct (refused_event _ _ _ _ _ _ _ _ _ _ R) as (resp & ps & code & HEv & IT & IP & RT). apply response_done in HEv as (e1 & e2 & EE & AN).
      pose proof (proj2 (yrun_ok C compression batch_size acks timeout depth neg_read frames OK e1 _ (whole_init C compression depth frames k corr))) as W1.
      assert (G : grows (y_link (yrun e1 (pstack_init k corr))) (y_link Y)). { unfold Y. rewrite EE. unfold ProducerStack.yrun. rewrite fold_left_app. apply (run_grows frames (YDone (pq_corr rq) :: e2) OK _ W1). }
      destruct (answer_frame C compression depth frames _ (pq_corr rq) resp W1 (hearing_less frames _ _ G (phears_hearing _ _ HE)) AN) as (n & f & obj & raw & B1 & B2 & B3 & B4 & B5). apply (G n) in B1.
      rewrite <- B3 in B4. destruct (frame_meant C compression depth neg_read frames Y n f obj raw OK WH AR B1 B2 B4) as (rq' & w' & D1 & D2 & D3 & D4). rewrite B3 in D2, B4.
      assert (rq' = rq) as ->. { clear -SW HW D1 D2. induction SW as [|x W SW IH F]; [destruct HW|]. rewrite Forall_forall in F. destruct HW as [->|HW], D1 as [->|D1]; [reflexivity|apply F in D1; lia|apply F in HW; lia|now apply IH]. }
      assert (w' = w) as -> by congruence. destruct (wire_frame C compression depth neg_read frames OK rq w PW) as (payload & EW & FI).
      assert (HS : In (request_frame 0 (pq_corr rq) payload) (writes Y n)) by (rewrite <- EW; exact D4). destruct (SP n (pq_corr rq) raw payload B4 HS) as (r & KR). rewrite (C73_produced C depth raw r KR) in B5. injection B5 as ->.
      apply (DE w HK). exists n, (pq_corr rq), payload, raw, resp, ps, code. repeat (split; [assumption|]). exact RT. }
    rewrite E in IO. destruct (C103_order_kept batch_size acks timeout (compress_raises C compression) (serialize_raises C compression) home _ k corr t p l WT IO NR) as (OR & _ & HM).
    exists (carried l t p). split; [|split; [exact OR|exact HM]]. rewrite E in RQ. clear -RQ RC CL SUP ME. revert ds RC. induction RQ as [|rq w l kept [HW PW] RQ IH]; intros ds RC; inversion RC as [|? d ? ds' K1 K2]; subst; [constructor|]. cbn [flat_map]. change (rq :: l) with ([rq] ++ l). rewrite carried_app. apply Forall2_app; [|now apply IH].
    destruct (C75_written C compression batch_size acks timeout _ k corr rq w CL SUP ME HW PW) as [_ KD]. destruct (KD d K1) as [_ KF]. exact (KF t p).
  Qed.
  (** On one connection the frames are in this order: a broker that keeps some of what it reads keeps it in the order produced. *)
  Theorem C106_one_connection : forall home frames evs k corr t p n kept ds, let Y := yrun evs (pstack_init k corr) in let start := producer_init k corr in
    codec_laws C -> compression = 0 \/ compression = 1 \/ compression = 2 -> Forall ymakes evs ->
    phears frames Y -> answers_requests frames Y -> speaks frames Y -> each_event (waits home) (pevents evs (pstack_init k corr)) start ->
    in_order kept (filter produce_frame (writes Y n)) -> (forall w, In w kept -> ~ declined frames Y w t p) -> Forall2 (kreceives C) kept ds ->
    exists ms, Forall2 (fun m km => msg_reads (pm_msg m) (kw_read km)) ms (flat_map (kcarried t p) ds) /\ in_order (map pm_msg ms) (for_topic t (accepted (pevents evs (pstack_init k corr)) start)) /\ (forall m, In m ms -> home t m = p).
  Proof.
    intros home frames evs k corr t p n kept ds Y start CL SUP MK HE AR SP WT IO DE RC. pose proof (phears_ok frames Y HE) as OK. destruct (yrun_ok C compression batch_size acks timeout depth neg_read frames OK evs _ (whole_init C compression depth frames k corr)) as [E WH]. fold Y in E, WH. cbn [pstack_init y_prod] in E. fold start in E.
    apply (C106_kept_in_order home frames evs k corr t p kept ds); try assumption.
    - apply Forall_forall. intros w X. apply (in_order_in _ _ _ IO) in X. apply filter_In in X. now exists n.
    - apply (order_sorted _ _ _ IO). destruct (writes_out C compression depth frames Y n WH) as (l & IL & F).
      assert (SL : StronglySorted (fun a b => pq_corr a < pq_corr b) l). { apply (order_sorted _ _ _ IL). rewrite E. apply (climbs_sorted corr _ (p_corr (prun (pevents evs (pstack_init k corr)) start))). apply wire_climbs; [apply pinv_init|cbn; lia]. }
      clear -F SL OK. induction F as [|rq w l ws PW F IH]; [constructor|]. inversion SL as [|? ? S1 F1]; subst. constructor; [now apply IH|]. clear IH S1 SL. induction F as [|rq' w' l ws PW' F IH]; [constructor|]. inversion F1 as [|? ? LT F2]; subst. constructor; [|now apply IH].
      destruct (wire_frame C compression depth neg_read frames OK rq w PW) as (y & EW & FI), (wire_frame C compression depth neg_read frames OK rq' w' PW') as (y' & EW' & FI'). exists (pq_corr rq), y, (pq_corr rq'), y'. auto.
  Qed.
End C106.

(** The run of [C80_example]: message 1 is declined and sent again with message 3, behind message 2. *)
Definition ys_seen : list pevent :=
  flat_map (fun l => [EvCluster demo_cluster; send_ l]) (firstn 3 words) ++ [EvCluster demo_cluster; EvFlush parity; EvResponse 42 ys_said1; EvCorr] ++
  flat_map (fun l => [EvCluster demo_cluster; send_ l]) (skipn 3 words) ++ [EvCluster demo_cluster; EvFlush parity; EvResponse 44 ys_said2].
Lemma ys_events_seen : ys_events ys_evs (pstack_init demo_cluster 41) = ys_seen.
Proof. vm_compute. reflexivity. Qed.
Lemma ys_call_waits s ev : (exists l, ev = send_ l) \/ ev = EvFlush parity -> p_open s = [] -> p_cluster s = demo_cluster -> (p_unsent s = [] \/ exists q, p_unsent s = [(tp_a, q)]) -> waits turn_home s ev.
Proof.
  intros EV O K U. assert (X : forall t m q, In m (at_hand s ev t) -> parity m (partitions_of demo_cluster t) = Ok q -> q = turn_home t m).
  { intros t m q X. assert (t = tp_a) as ->; [|apply parity_home]. destruct (list_eqb t tp_a) eqn:E; [now apply list_eqb_spec in E|]. 
    assert (X' : In m (queue_of s t)) by (unfold at_hand in X; destruct EV as [[l ->] | ->]; cbn [send_] in X; [unfold send_ in X; rewrite E in X|]; now rewrite app_nil_r in X). unfold queue_of in X'. destruct U as [U|[q0 U]]; rewrite U in X'; [destruct X'|]. cbn [dget] in X'. change (eqb tp_a t) with (list_eqb tp_a t) in X'.
    destruct (list_eqb tp_a t) eqn:E2; [|destruct X']. apply list_eqb_spec in E2. subst t. vm_compute in E. discriminate. }
  destruct EV as [[l ->] | ->]; (split; [exact O|]); rewrite K; exact X.
Qed.
Lemma ys_corr id payload c payload' : 0 <= id < 100 -> SpecWire.fits 32 c -> request_frame 0 id payload = request_frame 0 c payload' -> c = id.
Proof. intros H F E. destruct (C05_frame_readable "produce"%string 0 id payload "produce"%string 0 c payload') as (_ & _ & X & _); [cbn; auto|cbn; auto|now apply ys_id|exact F|exact E|now symmetry]. Qed.
Example C106_example : let kept := [request_frame 0 44 (eb_produce 1 500 1 ys_req2)] in
  codec_laws demo_codec /\ Forall ymakes ys_evs /\ phears ys_frames ys_end /\ answers_requests ys_frames ys_end /\ speaks ys_frames ys_end /\
  each_event (Some 10) 1 500 (compress_raises demo_codec 1) (serialize_raises demo_codec 1) (waits turn_home) (ys_events ys_evs (pstack_init demo_cluster 41)) demo_start /\
  in_order kept (filter produce_frame (writes ys_end 0)) /\ (forall w, In w kept -> ~ declined ys_frames ys_end w tp_a 1) /\ Forall2 (kreceives demo_codec) kept [ys_req2] /\
  declined ys_frames ys_end (request_frame 0 42 (eb_produce 1 500 1 (nth 0 kreqs []))) tp_a 1 /\
  map (fun km => m_value (kw_read km)) (flat_map (kcarried tp_a 1) [ys_req2]) = map (fun l => json_ser l) [nth 1 words []; nth 3 words []].
Proof.
  destruct C80_example as (P & A & T & M & _). cbv zeta. split; [exact demo_codec_laws|]. split; [exact M|]. split; [exact P|]. split; [exact A|].
  assert (SP : speaks ys_frames ys_end).
  { intros [|n] id raw payload HF HW; [|destruct HF]. rewrite ys_writes in HW. cbn [ys_frames In] in HF. destruct HF as [E|[E|[E|[]]]]; injection E as <- <-; [exists ys_said1; apply ys_said_ok; now left| |exists ys_said2; apply ys_said_ok; now right].
    exfalso. destruct HW as [E|[E|[E|[]]]]; symmetry in E; apply ys_same in E as (K & L & _); try (split; vm_compute; congruence); try (cbn; auto; fail); try discriminate K; try discriminate L. }
  split; [exact SP|]. split; [|split; [|split; [|split; [|split]]]].
  - rewrite ys_events_seen. unfold ys_seen, words. cbn [firstn skipn flat_map app SpecFlow.each_event].
    repeat (split; [first [exact I|apply ys_call_waits; [eauto|vm_compute; reflexivity|vm_compute; reflexivity|vm_compute; eauto]]|]). exact I.
  - rewrite ys_writes. apply (in_order_skipn 1 [request_frame 0 42 (eb_produce 1 500 1 (nth 0 kreqs [])); request_frame 0 44 (eb_produce 1 500 1 ys_req2)]).
  - intros w [<-|[]] (n & c & payload & raw & r & ps & code & FI & EW & HW & HF & KR & IT & IP & RT). destruct n as [|n]; [|destruct HF].
    assert (c = 44) as -> by (exact (ys_corr 44 _ c _ ltac:(split; vm_compute; congruence) FI EW)).
    cbn [ys_frames In] in HF. assert (raw = eb_produced ys_said2) as -> by (destruct HF as [X|[X|[X|[]]]]; [discriminate X|discriminate X|injection X as <-; reflexivity]).
    apply (C73_produced demo_codec 1) in KR. rewrite (C73_produced demo_codec 1 _ ys_said2 (ys_said_ok _ (or_intror eq_refl))) in KR. injection KR as <-. destruct IT as [X|[]]. injection X as <-. destruct IP as [X|[]]. injection X as <-. vm_compute in RT. discriminate RT.
  - constructor; [|constructor]. exists 44, 1, 500, (eb_produce 1 500 1 ys_req2). split; [reflexivity|]. apply okp_ok. vm_compute. reflexivity.
  - exists 0%nat, 42, (eb_produce 1 500 1 (nth 0 kreqs [])), (eb_produced ys_said1), ys_said1, [(0, 0); (1, 6)], 6. split; [apply ys_id; lia|]. split; [reflexivity|]. split; [rewrite ys_writes; now left|]. split; [now left|]. split; [apply ys_said_ok; now left|]. split; [now left|]. split; [right; now left|reflexivity].
  - vm_compute. reflexivity.
Qed.

Print Assumptions C106_kept_in_order.
Print Assumptions C106_one_connection.
