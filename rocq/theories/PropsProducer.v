(** Property theorems C28-C36: the producer.  Specification: SpecProducer.v.  The theorems hold for every
    configuration (batch size, acks, timeout), every partitioner and every behaviour of brokers. *)
From Coq Require Import ZArith String List Bool Lia Permutation.
From Verif Require Import PyBase BaseLemmas Constants Cluster Producer SpecProducer ProducerProofs ProducerOrder ProducerAnswers.
Import ListNotations.
Open Scope Z_scope.

(** ** a concrete producer: broker 1 leads partitions 0 and 1 of topic a, broker 2 (not connected) leads 0 of b *)
Definition tp_a : text := txt "a".
Definition tp_b : text := txt "b".
Definition demo_cluster : cluster :=
  Cl [(1, CC (txt "h") 9092 0 false)] [(tp_a, [0; 1]); (tp_b, [0])] [(tp_a, [(0, 1); (1, 1)]); (tp_b, [(0, 2)])] 1 0 [].
Definition demo_msg (n : Z) : pymsg := Msg PNone (PInt 0) (PInt 0) PNone (PInt n).
(** partition: parity of the message number *)
Definition parity : partitioner := fun m ps => match ps with [] => Err EIndex | _ => Ok (if Nat.even (pm_id m) then 0 else if Nat.eqb (length ps) 1 then 0 else 1) end.
Definition never {A} (_ : A) : option exn := None.
Definition drun := prun (Some 10) 1 500 never never.
Definition dstep := pstep (Some 10) 1 500 never never.
Definition put (t : text) (n : Z) : pevent := EvProduce parity t (Ok (demo_msg n)).
Definition demo_start : producer := producer_init demo_cluster 41.
Definition demo_evs : list pevent := [put tp_a 1; put tp_b 2; put tp_a 3; put tp_a 4; EvFlush parity].
Definition demo_s : producer := drun demo_evs demo_start.
Definition ids (l : list pmsg) : list nat := map pm_id l.

Section Props.
  Variable batch_size : option Z.
  Variables acks timeout : Z.
  Variable compress_fails : list pmsg -> option exn.
  Variable serialize_fails : prequest -> option exn.
  Notation flush := (flush acks timeout compress_fails serialize_fails).
  Notation pstep := (pstep batch_size acks timeout compress_fails serialize_fails).
  Notation prun := (prun batch_size acks timeout compress_fails serialize_fails).
  Notation produce := (produce batch_size acks timeout compress_fails serialize_fails).
  Notation produce_resume := (produce_resume batch_size acks timeout compress_fails serialize_fails).
  Notation close_begin := (close_begin acks timeout compress_fails serialize_fails).
  Notation reachable := (reachable batch_size acks timeout compress_fails serialize_fails).
  Notation calm := (calm batch_size acks timeout compress_fails serialize_fails).

  Lemma reach_inv s : reachable s -> pinv s.
  Proof. intros (evs & k & corr & ->). apply prun_inv, pinv_init. Qed.

  (** * C28 Produced messages are accounted for *)
  (** in every run whatsoever: each accepted message is in exactly one of the queue, a request, the settled
      messages, and the messages dropped by a flush that raised *)
  Theorem C28_accounted : forall evs k corr, accounted (prun evs (producer_init k corr)).
  Proof. intros. apply i_acc, prun_inv, pinv_init. Qed.
  (** if lookups succeed, no connection fails and brokers answer what they are asked, the fourth place stays
      empty, the requests are all awaited, and settled messages have a final code *)
  Theorem C28_exactly_one_place : forall evs k corr,
    (forall ms, compress_fails ms = None) -> (forall rq, serialize_fails rq = None) ->
    calm evs (producer_init k corr) ->
    let s := prun evs (producer_init k corr) in
    Permutation (map pm_id (queued s ++ in_flight s ++ settled_msgs s)) (seq 0 (p_next s)) /\
    (forall c t p m, In m (sent_for s c t p) -> In c (p_open s)) /\
    (forall m oc, In (m, oc) (p_settled s) -> exists c, oc = Some c /\ retriable_code c = false).
  Proof.
    intros evs k corr NC NS C s. assert (J : calm_inv s) by (apply calm_run; [exact NC|exact NS|apply calm_init|exact C]).
    split; [|split; [|apply J]].
    - pose proof (i_acc s (j_inv s J)) as A. unfold accounted in A. rewrite (j_lost s J), app_nil_r in A. exact A.
    - intros c t p m Hm. apply (j_open s J). unfold sent_for in Hm. unfold dmem. destruct (dget (p_sent s) c); [reflexivity|destruct Hm].
  Qed.

  (** * C29 Overlapping flushes do not disturb each other *)
  (** requests have distinct correlation ids, so an answer belongs to one request *)
  Theorem C29_one_request_per_id : forall s, reachable s -> NoDup (map pq_corr (p_wire s)) /\ NoDup (p_open s).
  Proof. intros s R. apply reach_inv in R. split; apply R. Qed.
  (** an answer, whatever it contains, or a failure leaves the other requests alone, even if its handler raises *)
  Theorem C29_others_untouched : forall s c ev c' t p, reachable s -> c' <> c ->
    (exists resp, ev = EvResponse c resp) \/ (exists e, ev = EvFail c e) ->
    sent_for (pstep s ev) c' t p = sent_for s c' t p /\
    (In c' (p_open s) <-> In c' (p_open (pstep s ev))) /\
    (forall m, In m (sent_for s c' t p) -> ~ In m (queued (pstep s ev)) /\ ~ In m (settled_msgs (pstep s ev))).
  Proof.
    intros s c ev c' t p R Ne HE.
    assert (A : dget (p_sent (pstep s ev)) c' = dget (p_sent s) c' /\ (In c' (p_open s) <-> In c' (p_open (pstep s ev)))).
    { assert (O : In c' (p_open s) <-> In c' (p_open (answered c s))).
      { cbn. rewrite filter_In. split; [intros H; split; [exact H|]; apply negb_true_iff; now apply Z.eqb_neq|tauto]. }
      destruct HE as [(resp & ->)|(e & ->)]; cbn [Producer.pstep]; destruct (smem (p_open s) c); try tauto.
      destruct (handle_produce_response c resp (answered c s)) as [r s'] eqn:F.
        apply handle_spec in F as (_ & _ & _ & _ & A5 & _ & _ & _ & _ & A10 & _). cbn [snd]. rewrite A5. rewrite A10 by assumption. split; [reflexivity|exact O]. }
    destruct A as [A B]. assert (SF : sent_for (pstep s ev) c' t p = sent_for s c' t p) by (unfold sent_for; now rewrite A).
    split; [exact SF|]. split; [exact B|]. intros m Hm. apply reach_inv in R.
    pose proof (pstep_inv batch_size acks timeout compress_fails serialize_fails s ev R) as I'.
    rewrite <- SF, sent_for_olook in Hm. apply olook_in_flight in Hm. split; intros Hx.
    - exact (queued_not_in_flight _ _ I' Hx Hm).
    - exact (settled_not_in_flight _ _ I' Hm Hx).
  Qed.

  (** * C30 Per-partition order *)
  Theorem C30_flush_order : forall part s rqs s', reachable s -> flush part s = (Ok rqs, s') ->
    (* the messages sent for a partition are those the partitioner sent there, in queue order *)
    (forall t p, carried rqs t p = filter (goes_to part (p_cluster s) t p) (queue_of s t)) /\
    (* requests go to the leader of what they carry *)
    (forall rq t p m, In rq rqs -> In m (carried [rq] t p) ->
       leader_for (p_cluster s) t p = Some (pq_leader rq) /\ connected (p_cluster s) (pq_leader rq) = true) /\
    (* one request per broker *)
    NoDup (map pq_leader rqs) /\
    (* messages whose leader is not connected stay queued, in order, and the cluster is to be healed *)
    (forall t, queue_of s' t = filter (leaderless part (p_cluster s) t) (queue_of s t)) /\
    ((exists t m, In m (queue_of s' t)) -> p_heal s' = true) /\
    (* every queued message is in exactly one request or still queued *)
    Permutation (queued s) (flat_map request_msgs rqs ++ queued s') /\
    (* the requests are on the wire, unless the connection was already closing; and the producer waits for all *)
    (forall rq, In rq rqs -> In (pq_corr rq) (p_open s') /\ pq_acks rq = acks /\ pq_timeout rq = timeout /\
       (In rq (p_wire s') \/ exists c, dget (k_conns (p_cluster s)) (pq_leader rq) = Some c /\ cc_closing c = true)) /\
    (* what is kept for the answers is what was sent *)
    (forall rq t p, In rq rqs -> sent_for s' (pq_corr rq) t p = carried [rq] t p).
  Proof.
    intros part s rqs s' R F. apply reach_inv in R.
    destruct (flush_order _ _ _ _ _ _ _ _ F R) as (A1 & A2 & A3 & A4 & A5 & A6 & A7 & A8 & A9).
    apply flush_spec in F as (_ & _ & _ & _ & _ & _ & _ & _ & B2 & B3 & B4 & _); [|exact R].
    repeat (split; [assumption|]). split.
    - intros rq Hr. destruct (B4 rq Hr) as (_ & C1 & C2 & _). split; [rewrite B3; apply in_or_app; right; now apply in_map|]. auto.
    - intros rq t p Hr. destruct (B4 rq Hr) as (_ & _ & _ & _ & C). rewrite sent_for_olook. unfold olook. rewrite C.
      unfold carried. cbn [flat_map]. rewrite app_nil_r. symmetry. apply (carried_batch (pq_topics rq) t p).
      apply (proj2 A6 (pq_leader rq)). apply in_map_iff. eauto.
  Qed.
  (** and nothing stays queued when all leaders are known and connected *)
  Theorem C30_all_sent : forall part s rqs s', reachable s -> flush part s = (Ok rqs, s') ->
    (forall t m, In m (queue_of s t) -> leaderless part (p_cluster s) t m = false) -> queued s' = [].
  Proof.
    intros part s rqs s' R F H. pose proof (C30_flush_order _ _ _ _ R F) as (_ & _ & _ & Q & _). apply reach_inv in R.
    apply flush_spec in F as (I' & _); [|exact R]. apply queued_nil; [|apply I']. intros t. rewrite Q.
    specialize (H t). induction (queue_of s t) as [|m q IH]; [reflexivity|]. cbn [filter]. rewrite H by now left. apply IH.
    intros; apply H; now right.
  Qed.

  (** * C31 Batching threshold *)
  Lemma count_queued s : unsent_count s = zlen (queued s).
  Proof.
    unfold unsent_count, queued, queue_msgs. induction (p_unsent s) as [|[t q] u IH]; [reflexivity|]. cbn [fold_right flat_map snd].
    rewrite IH. unfold zlen. rewrite app_length. lia.
  Qed.
  Lemma enqueue_ok topic m s : reachable s -> exists s1, enqueue topic (Ok m) s = (Ok tt, s1) /\ pinv s1 /\
    (forall t, queue_of s1 t = queue_of s t ++ (if list_eqb t topic then [PM (p_next s) m] else [])) /\
    p_sent s1 = p_sent s /\ p_open s1 = p_open s /\ p_wire s1 = p_wire s /\ p_cluster s1 = p_cluster s /\ zlen (queued s1) = zlen (queued s) + 1.
  Proof.
    intros R. apply reach_inv in R. destruct (enqueue topic (Ok m) s) as [r s1] eqn:E. pose proof E as E0.
    apply enqueue_spec in E as (I1 & A1 & A2 & A3 & A4 & A5 & A6 & A7 & A8 & A9 & -> & A10 & A11); [|exact R].
    exists s1. repeat (split; [first [reflexivity|assumption]|]). 
    pose proof (Permutation_length (i_acc s1 I1)) as L1. pose proof (Permutation_length (i_acc s R)) as L0.
    unfold settled_msgs, in_flight in *. rewrite A1, A8, A9, A10 in L1.
    rewrite !map_length, !app_length, !seq_length in *. unfold zlen. lia.
  Qed.
  Theorem C31_below_threshold : forall part topic m s n, reachable s -> p_closing s = false ->
    dmem (k_topics (p_cluster s)) topic = true ->
    batch_size = Some n -> n <> 0 -> zlen (queued s) + 1 < n ->
    exists s', produce part topic (Ok m) s = (Through, s') /\
      p_wire s' = p_wire s /\ p_open s' = p_open s /\ p_sent s' = p_sent s /\
      forall t, queue_of s' t = queue_of s t ++ (if list_eqb t topic then [PM (p_next s) m] else []).
  Proof.
    intros part topic m s n R C K B N0 L. destruct (enqueue_ok topic m s R) as (s1 & E & I1 & Q & A1 & A2 & A3 & A4 & Z1).
    exists s1. unfold Producer.produce, Producer.produce_resume. rewrite C, K, E. cbn [negb]. unfold flush_due. rewrite B, count_queued, Z1.
    rewrite (proj2 (Z.eqb_neq n 0) N0). cbn [orb]. destruct (Z.leb_spec n (zlen (queued s) + 1)); [lia|]. auto.
  Qed.
  Theorem C31_at_threshold : forall part topic m s, reachable s -> p_closing s = false ->
    dmem (k_topics (p_cluster s)) topic = true ->
    match batch_size with None => True | Some n => n = 0 \/ n <= zlen (queued s) + 1 end ->
    exists s1, (forall t, queue_of s1 t = queue_of s t ++ (if list_eqb t topic then [PM (p_next s) m] else [])) /\
      p_cluster s1 = p_cluster s /\ p_wire s1 = p_wire s /\ p_open s1 = p_open s /\ p_sent s1 = p_sent s /\
      match flush part s1 with
      | (Ok rqs, s2) => produce part topic (Ok m) s = (Flushing rqs, s2) /\ Permutation (queued s1) (flat_map request_msgs rqs ++ queued s2) /\
          ((forall t x, In x (queue_of s1 t) -> leaderless part (p_cluster s) t x = false) -> queued s2 = [])
      | (Err e, s2) => produce part topic (Ok m) s = (Raised e, s2)
      end.
  Proof.
    intros part topic m s R C K B. destruct (enqueue_ok topic m s R) as (s1 & E & I1 & Q & A1 & A2 & A3 & A4 & Z1).
    exists s1. repeat (split; [assumption|]).
    assert (D : flush_due batch_size s1 = true).
    { unfold flush_due. destruct batch_size as [n|]; [|reflexivity]. rewrite count_queued, Z1. apply orb_true_iff.
      destruct B as [->|B]; [now left|right; now apply Z.leb_le]. }
    assert (P : produce part topic (Ok m) s = match flush part s1 with (Ok rqs, s2) => (Flushing rqs, s2) | (Err e, s2) => (Raised e, s2) end).
    { unfold Producer.produce, Producer.produce_resume. rewrite C, K, E. cbn [negb]. now rewrite D. }
    destruct (flush part s1) as [[rqs|e] s2] eqn:F; [|exact P]. split; [exact P|].
    destruct (flush_order _ _ _ _ _ _ _ _ F I1) as (_ & _ & _ & QQ & _). pose proof F as F0.
    apply flush_spec in F0 as (I2 & _ & _ & _ & _ & _ & _ & _ & B2 & _); [|exact I1]. split; [exact B2|].
    intros H. apply queued_nil; [|apply I2]. intros t. rewrite QQ, A4. specialize (H t).
    clear -H. induction (queue_of s1 t) as [|x q IH]; [reflexivity|]. cbn [filter]. rewrite H by now left. apply IH. intros; apply H; now right.
  Qed.

  (** * C32 Retriable failures are retried *)
  Theorem C32_retried : forall s c resp, reachable s -> In c (p_open s) -> sane_answer s c resp ->
    let s' := pstep s (EvResponse c resp) in
    (* messages of partitions answered with a retriable code are queued again, in the order of the request *)
    (forall t, queue_of s' t = queue_of s t ++ flat_map (sent_for s c t) (retried resp t)) /\
    (* and the cluster is marked for healing, exactly then *)
    p_heal s' = p_heal s || any_retriable resp /\
    (* the others are settled, with the code they got *)
    (forall m oc, In (m, oc) (p_settled s') <-> In (m, oc) (p_settled s) \/
       exists t p ms, content s c t p ms /\ In m ms /\ oc = code_for resp t p /\
         match oc with Some code => retriable_code code = false | None => True end) /\
    (* the request is done with, and every message still is in exactly one place *)
    (forall t p, sent_for s' c t p = []) /\ ~ In c (p_open s') /\ accounted s'.
  Proof.
    intros s c resp R O SA s'. apply reach_inv in R.
    pose proof (pstep_inv batch_size acks timeout compress_fails serialize_fails s (EvResponse c resp) R) as I'. fold s' in I'.
    destruct (handle_exact c resp (answered c s)) as (s1 & st & E & A1 & A2 & A3 & A4 & A5).
    { apply R. } { apply (i_open s R), O. } { now apply (sane_same s). }
    assert (ES : s' = s1) by (unfold s'; cbn [Producer.pstep]; rewrite (proj2 (smem_In (p_open s) c) O), E; reflexivity).
    clearbody s'. subst s'. split; [exact A1|]. split; [exact A2|]. split; [|split; [|split; [|apply I']]].
    - intros m oc. rewrite A4, in_app_iff, A5. reflexivity.
    - intros t p. unfold sent_for. unfold dmem in A3. now destruct (dget (p_sent s1) c).
    - apply handle_spec in E as (_ & _ & _ & _ & E5 & _). rewrite E5. apply not_open_answered.
  Qed.

  (** * C33 No message loss on connection failure *)
  (** what holds: a failed request marks the cluster for healing (unless the stream was closed), and loses
      nothing from the books *)
  Theorem C33_failure_keeps_books_partial : forall s c e, reachable s -> In c (p_open s) ->
    let s' := pstep s (EvFail c e) in
    accounted s' /\ (forall c' t p, sent_for s' c' t p = sent_for s c' t p) /\ (forall t, queue_of s' t = queue_of s t) /\
    (e <> EStreamClosed -> p_heal s' = true).
  Proof.
    intros s c e R O s'. apply reach_inv in R.
    pose proof (pstep_inv batch_size acks timeout compress_fails serialize_fails s (EvFail c e) R) as I'. fold s' in I'.
    split; [apply I'|]. unfold s'. cbn [Producer.pstep]. rewrite (proj2 (smem_In (p_open s) c) O).
    split; [reflexivity|]. split; [reflexivity|]. intros N. cbn [with_heal p_heal]. destruct e; congruence.
  Qed.
  (** what does not: whatever happens afterwards, the messages of the failed request are never queued, never
      settled and never in a request written again *)
  Theorem C33_never_sent_again : forall s c e evs t p m, reachable s -> In c (p_open s) -> In m (sent_for s c t p) ->
    let s' := prun evs (pstep s (EvFail c e)) in
    In m (sent_for s' c t p) /\ ~ In m (queued s') /\ ~ In m (settled_msgs s') /\
    exists w, p_wire s' = p_wire s ++ w /\ forall rq, In rq w -> ~ In m (request_msgs rq).
  Proof.
    intros s c e evs t p m R O Hm s'. apply reach_inv in R.
    pose proof (fail_stuck batch_size acks timeout compress_fails serialize_fails c e s R O) as S0.
    pose proof (stuck_run batch_size acks timeout compress_fails serialize_fails c s evs _ S0) as (I' & _ & _ & Q & w & W1 & W2).
    fold s' in I', Q, W1, W2. assert (Hm' : In m (sent_for s' c t p)).
    { rewrite sent_for_olook in *. unfold olook in *. now rewrite Q. }
    split; [exact Hm'|]. rewrite sent_for_olook in Hm'. apply olook_in_flight in Hm'.
    split; [intros Hx; exact (queued_not_in_flight _ _ I' Hx Hm')|]. split; [intros Hx; exact (settled_not_in_flight _ _ I' Hm' Hx)|].
    exists w. split; [exact W1|]. intros rq Hr Hx. apply (W2 rq m Hr Hx). exists t, p. now rewrite <- sent_for_olook.
  Qed.

  (** * C34 Closing a producer loses nothing *)
  (** holds if every leader is connected and no broker answers with a retriable code: when all requests are
      answered, every message accepted so far is settled *)
  Theorem C34_close_settles_partial : forall evs k corr part rqs s1 answers,
    (forall ms, compress_fails ms = None) -> (forall rq, serialize_fails rq = None) ->
    calm evs (producer_init k corr) ->
    let s := prun evs (producer_init k corr) in
    close_begin part s = (Ok rqs, s1) ->
    (forall t m, In m (queue_of s t) -> leaderless part (p_cluster s) t m = false) ->
    Permutation (map fst answers) (p_open s1) ->
    (forall c resp, In (c, resp) answers -> full_answer s1 c resp /\ any_retriable resp = false) ->
    let s2 := prun (map (fun cr => EvResponse (fst cr) (snd cr)) answers) s1 in
    queued s2 = [] /\ in_flight s2 = [] /\ Permutation (map pm_id (settled_msgs s2)) (seq 0 (p_next s)).
  Proof.
    intros evs k corr part rqs s1 answers NC NS C s CB LL P H s2.
    assert (J : calm_inv s) by (apply calm_run; [exact NC|exact NS|apply calm_init|exact C]).
    unfold Producer.close_begin in CB. match type of CB with Producer.flush _ _ _ _ part ?x = _ => set (s0 := x) in * end.
    assert (I0 : pinv s0).
    { refine (pinv_same s _ _ _ _ _ _ _ _ _ _ (j_inv s J)); try reflexivity; [intros x Hx; exact Hx|apply J]. }
    assert (J0 : calm_inv s0) by (now apply calm_same with s).
    pose proof (calm_flush _ _ _ _ _ _ _ _ CB J0) as J1.
    assert (Q1 : forall t, queue_of s1 t = []).
    { destruct (flush_order _ _ _ _ _ _ _ _ CB I0) as (_ & _ & _ & QQ & _). intros t. rewrite QQ.
      change (queue_of s0 t) with (queue_of s t). change (p_cluster s0) with (p_cluster s). specialize (LL t).
      clear -LL. induction (queue_of s t) as [|x q IH]; [reflexivity|]. cbn [filter]. rewrite LL by now left. apply IH. intros; apply LL; now right. }
    destruct (answer_all batch_size acks timeout compress_fails serialize_fails answers s1 J1 Q1 P H) as (J2 & A1 & A2 & A3). fold s2 in J2, A1, A2, A3.
    split; [exact A1|]. split; [exact A2|].
    assert (N1 : p_next s1 = p_next s) by (apply flush_spec in CB as (_ & _ & B & _); [exact B|exact I0]).
    pose proof (i_acc s2 (j_inv s2 J2)) as A. unfold accounted in A. rewrite A1, A2, (j_lost s2 J2), app_nil_r in A. cbn [app] in A.
    now rewrite A3, N1 in A.
  Qed.

  (** * C35 A failed flush keeps the queued messages *)
  (** a flush only raises if a lookup fails; then the topics not yet drained stay queued as they were and nothing
      is sent, but the topics already drained are lost *)
  Theorem C35_rest_kept_partial : forall part s e s', reachable s -> 
    (forall ms, compress_fails ms = None) -> (forall rq, serialize_fails rq = None) ->
    flush part s = (Err e, s') ->
    ~ lookups_succeed part s /\
    p_wire s' = p_wire s /\ p_open s' = p_open s /\ (forall c t p, sent_for s' c t p = sent_for s c t p) /\
    (forall t, queue_of s' t = queue_of s t \/ queue_of s' t = []) /\
    exists kept dropped, p_unsent s = kept ++ dropped /\ dropped <> [] /\ p_unsent s' = kept /\
      Permutation (p_lost s') (p_lost s ++ queue_msgs dropped).
  Proof.
    intros part s e s' R NC NS F. apply reach_inv in R.
    destruct (flush_raises _ _ _ _ NC NS _ _ _ _ F R) as (kept & dropped & E1 & E2 & E3 & E4 & E5 & E6 & E7 & E8).
    split; [exact E8|]. split; [exact E5|]. split; [exact E6|]. split; [intros; unfold sent_for; now rewrite E4|].
    split; [|exists kept, dropped; auto]. intros t. unfold queue_of. rewrite E3, E1. clear. induction kept as [|[t0 q] kept IH]; [now right|].
    cbn [dget app]. destruct (eqb t0 t); [now left|exact IH].
  Qed.

  (** * C36 Unknown topics and closing producers *)
  Theorem C36_closing_does_nothing : forall part topic mk s, p_closing s = true -> produce part topic mk s = (Through, s).
  Proof. intros part topic mk s H. unfold Producer.produce. now rewrite H. Qed.
  Lemma close_inv s : pinv s -> pinv (Prod (p_unsent s) (p_sent s) (p_heal s) true (p_cluster s) (p_corr s) (p_next s) (p_open s) (p_wire s) (p_settled s) (p_lost s)).
  Proof. intros I. refine (pinv_same s _ _ _ _ _ _ _ _ _ _ I); try reflexivity; [intros x Hx; exact Hx|apply I]. Qed.
  Lemma resume_closing part topic mk s : pinv s -> p_closing (snd (produce_resume part topic mk s)) = p_closing s.
  Proof.
    intros I. unfold Producer.produce_resume. destruct (negb _); [reflexivity|]. destruct (enqueue topic mk s) as [r s1] eqn:E. apply enqueue_spec in E as (I1 & _ & _ & C & _); [|exact I].
    destruct r as [u|e]; [|exact C]. destruct (flush_due batch_size s1); [|exact C]. destruct (flush part s1) as [r2 s2] eqn:F. apply flush_spec in F as (_ & C2 & _); [|exact I1]. destruct r2; cbn [snd]; congruence.
  Qed.
  Lemma closing_step s ev : pinv s -> p_closing (pstep s ev) = match ev with EvClose _ => true | _ => p_closing s end.
  Proof.
    intros I. destruct ev; cbn [Producer.pstep]; try reflexivity.
    - unfold Producer.produce. destruct (p_closing s) eqn:C; [exact C|]. destruct (negb _); [exact C|]. rewrite resume_closing by exact I. exact C.
    - now apply resume_closing.
    - destruct (flush part s) as [r s2] eqn:F. now apply flush_spec in F as (_ & C & _).
    - unfold Producer.close_begin. match goal with |- context [Producer.flush _ _ _ _ part ?x] => set (s0 := x) end. destruct (flush part s0) as [r s2] eqn:F. apply flush_spec in F as (_ & C & _); [exact C|now apply close_inv].
    - destruct (smem (p_open s) corr); [|reflexivity]. destruct (handle_produce_response corr resp (answered corr s)) as [r s2] eqn:F. now apply handle_spec in F as (C & _).
    - destruct (smem (p_open s) corr); reflexivity.
  Qed.
  (** once close() was called, every produce() returns at once and changes nothing, whatever happened in between *)
  Theorem C36_after_close : forall before_ part after k corr part' topic mk, let s := prun (before_ ++ [EvClose part] ++ after) (producer_init k corr) in
    produce part' topic mk s = (Through, s).
  Proof.
    intros before_ part after k corr part' topic mk s. apply C36_closing_does_nothing. unfold s, Producer.prun. rewrite fold_left_app. cbn [app fold_left].
    assert (I : pinv (pstep (prun before_ (producer_init k corr)) (EvClose part))) by (apply pstep_inv, reach_inv; exists before_, k, corr; reflexivity).
    assert (C : p_closing (pstep (prun before_ (producer_init k corr)) (EvClose part)) = true) by (apply closing_step, reach_inv; exists before_, k, corr; reflexivity).
    revert I C. change (fold_left (Producer.pstep batch_size acks timeout compress_fails serialize_fails) before_ (producer_init k corr)) with (prun before_ (producer_init k corr)).
    generalize (pstep (prun before_ (producer_init k corr)) (EvClose part)). clear s. induction after as [|ev after IH]; intros s I C; [exact C|].
    cbn [fold_left]. apply IH; [now apply pstep_inv|]. rewrite closing_step by exact I. destruct ev; [exact C..|reflexivity|exact C|exact C|exact C|exact C|exact C].
  Qed.
  (** an unknown topic: produce() awaits one heal, having changed nothing; [s1] is the state after it, whatever
      happened; if the topic is still unknown nothing is queued, otherwise the message is *)
  Theorem C36_unknown_topic : forall part topic mk s, p_closing s = false -> dmem (k_topics (p_cluster s)) topic = false ->
    produce part topic mk s = (AwaitHeal, s) /\
    forall s1,
      (dmem (k_topics (p_cluster s1)) topic = false -> produce_resume part topic mk s1 = (Through, s1)) /\
      (dmem (k_topics (p_cluster s1)) topic = true -> p_closing s1 = false -> produce_resume part topic mk s1 = produce part topic mk s1) /\
      fst (produce_resume part topic mk s1) <> AwaitHeal.
  Proof.
    intros part topic mk s C K. split; [unfold Producer.produce; now rewrite C, K|]. intros s1.
    split; [intros K1; unfold Producer.produce_resume; now rewrite K1|].
    split; [intros K1 C1; unfold Producer.produce; now rewrite C1, K1|].
    unfold Producer.produce_resume. destruct (negb _); [discriminate|]. destruct (enqueue topic mk s1) as [[u|e] s2]; [|discriminate].
    destruct (flush_due batch_size s2); [|discriminate]. destruct (flush part s2) as [[rqs|e] s3]; discriminate.
  Qed.
  (** a topic of the cluster needs no heal *)
  Theorem C36_known_topic : forall part topic mk s, p_closing s = false -> dmem (k_topics (p_cluster s)) topic = true ->
    fst (produce part topic mk s) <> AwaitHeal.
  Proof.
    intros part topic mk s C K. unfold Producer.produce. rewrite C, K. cbn [negb].
    unfold Producer.produce_resume. destruct (negb _); [discriminate|]. destruct (enqueue topic mk s) as [[u|e] s2]; [|discriminate].
    destruct (flush_due batch_size s2); [|discriminate]. destruct (flush part s2) as [[rqs|e] s3]; discriminate.
  Qed.
End Props.

(** ** the hypotheses are met: concrete runs *)
Example demo_reachable : reachable (Some 10) 1 500 never never demo_s.
Proof. exists demo_evs, demo_cluster, 41. reflexivity. Qed.
(** four messages, one request: messages 0 and 2 for partition 0 of a, 3 for partition 1; message 1 waits for
    its leader *)
Example C28_example : ids (queued demo_s) = [1%nat] /\ ids (in_flight demo_s) = [0; 2; 3]%nat /\ p_next demo_s = 4%nat /\ p_open demo_s = [42].
Proof. vm_compute. repeat split. Qed.
Example C30_example :
  match flush 1 500 never never parity (drun [put tp_a 1; put tp_b 2; put tp_a 3; put tp_a 4] demo_start) with
  | (Ok [rq], s') => ids (carried [rq] tp_a 0) = [0; 2]%nat /\ ids (carried [rq] tp_a 1) = [3%nat] /\ pq_leader rq = 1 /\ ids (queue_of s' tp_b) = [1%nat]
  | _ => False
  end.
Proof. vm_compute. repeat split. Qed.
(** two flushes overlap *)
Definition demo_two : producer := drun [put tp_a 1; EvFlush parity; put tp_a 2; EvFlush parity] demo_start.
Example C29_example : p_open demo_two = [42; 43] /\ ids (sent_for demo_two 42 tp_a 0) = [0%nat] /\ ids (sent_for demo_two 43 tp_a 1) = [1%nat].
Proof. vm_compute. repeat split. Qed.
Example C31_example : dmem (k_topics (p_cluster demo_s)) tp_a = true /\ zlen (queued demo_s) + 1 < 10.
Proof. vm_compute. repeat split. Qed.
Definition demo_answer : presponse := [(tp_a, [(0, 6); (1, 0)])].
Lemma demo_content t p ms : content demo_s 42 t p ms ->
  t = tp_a /\ ((p = 0 /\ ids ms = [0; 2]%nat) \/ (p = 1 /\ ids ms = [3%nat])).
Proof.
  unfold content. assert (E : exists b, dget (p_sent demo_s) 42 = Some b /\ exists d, b = [(tp_a, d)] /\ exists m0 m2 m3, d = [(0, [m0; m2]); (1, [m3])] /\
    ids [m0; m2; m3] = [0; 2; 3]%nat).
  { eexists. split; [vm_compute; reflexivity|]. eexists. split; [reflexivity|]. do 3 eexists. split; [reflexivity|]. reflexivity. }
  destruct E as (b0 & Eb & d0 & -> & m0 & m2 & m3 & -> & Ei). injection Ei as E0 E2 E3. intros (b & d & F1 & F2 & F3). rewrite Eb in F1. injection F1 as <-.
  cbn [dget] in F2. change (eqb tp_a t) with (list_eqb tp_a t) in F2. destruct (list_eqb tp_a t) eqn:Et; [|discriminate F2].
  apply list_eqb_spec in Et. subst t. injection F2 as <-. split; [reflexivity|]. clear Eb. cbn [dget] in F3.
  change (eqb 0 p) with (0 =? p) in F3. change (eqb 1 p) with (1 =? p) in F3.
  destruct (Z.eqb_spec 0 p) as [<-|]; [left; injection F3 as <-; unfold ids; cbn [map]; rewrite E0, E2; auto|].
  destruct (Z.eqb_spec 1 p) as [<-|]; [right; injection F3 as <-; unfold ids; cbn [map]; rewrite E3; auto|discriminate F3].
Qed.
Lemma demo_has p : p = 0 \/ p = 1 -> exists ms, content demo_s 42 tp_a p ms.
Proof. intros [-> | ->]; unfold content; do 3 eexists; (split; [vm_compute; reflexivity|]); split; vm_compute; reflexivity. Qed.
Lemma demo_gives resp c0 c1 t p code : resp = [(tp_a, [(0, c0); (1, c1)])] -> gives resp t p code -> t = tp_a /\ ((p = 0 /\ code = c0) \/ (p = 1 /\ code = c1)).
Proof.
  intros -> (ps & E & F). cbn [dget] in E. change (eqb tp_a t) with (list_eqb tp_a t) in E. destruct (list_eqb tp_a t) eqn:Et; [|discriminate E].
  apply list_eqb_spec in Et. subst t. injection E as <-. split; [reflexivity|]. cbn [dget] in F.
  change (eqb 0 p) with (0 =? p) in F. change (eqb 1 p) with (1 =? p) in F.
  destruct (Z.eqb_spec 0 p) as [<-|]; [left; injection F as <-; auto|]. destruct (Z.eqb_spec 1 p) as [<-|]; [right; injection F as <-; auto|discriminate F].
Qed.
Lemma demo_full c0 c1 : dmem ERROR_CODES c0 = true -> dmem ERROR_CODES c1 = true -> full_answer demo_s 42 [(tp_a, [(0, c0); (1, c1)])].
Proof.
  intros K0 K1. split.
  - split; [repeat constructor; cbn; tauto|]. split.
    + intros t ps [E|[]]. injection E as _ <-. repeat constructor; cbn; intuition lia.
    + intros t p code G. apply (demo_gives _ c0 c1) in G as (-> & G); [|reflexivity]. destruct G as [(-> & ->)|(-> & ->)]; (split; [assumption|]); apply demo_has; auto.
  - intros t p ms Hc. apply demo_content in Hc as (-> & [(-> & _)|(-> & _)]).
    + exists c0. eexists. split; reflexivity.
    + exists c1. eexists. split; reflexivity.
Qed.
Example C32_example : reachable (Some 10) 1 500 never never demo_s /\ In 42 (p_open demo_s) /\ sane_answer demo_s 42 demo_answer /\
  ids (queue_of (dstep demo_s (EvResponse 42 demo_answer)) tp_a) = [0; 2]%nat /\
  p_settled (dstep demo_s (EvResponse 42 demo_answer)) = [(PM 3 (demo_msg 4), Some 0)].
Proof.
  split; [exact demo_reachable|]. split; [vm_compute; auto|]. split; [apply demo_full; reflexivity|]. split; vm_compute; reflexivity.
Qed.

(** C33 fails: the connection dies, the cluster heals, the producer flushes and closes, and message 0 is gone *)
Theorem C33_resent_refuted : exists evs s c t p m, s = drun evs demo_start /\ In c (p_open s) /\ In m (sent_for s c t p) /\
  forall e after, let s' := drun after (dstep s (EvFail c e)) in
    ~ In m (queued s') /\ ~ In m (settled_msgs s') /\ exists w, p_wire s' = p_wire s ++ w /\ forall rq, In rq w -> ~ In m (request_msgs rq).
Proof.
  exists demo_evs, demo_s, 42, tp_a, 0, (PM 0 (demo_msg 1)). split; [reflexivity|].
  assert (O : In 42 (p_open demo_s)) by (vm_compute; auto).
  assert (M : In (PM 0 (demo_msg 1)) (sent_for demo_s 42 tp_a 0)) by (clear; vm_compute; left; reflexivity).
  split; [exact O|]. split; [exact M|]. intros e after.
  exact (proj2 (C33_never_sent_again (Some 10) 1 500 never never demo_s 42 e after tp_a 0 _ demo_reachable O M)).
Qed.

(** C34 fails: close() flushes once; the broker answers "not leader"; close() returns with the messages queued *)
Definition close_evs : list pevent := [put tp_a 1; put tp_a 2; put tp_a 3; put tp_a 4; EvClose parity; EvResponse 42 [(tp_a, [(0, 6); (1, 0)])]].
Theorem C34_close_refuted : let s := drun close_evs demo_start in
  p_closing s = true /\ p_open s = [] /\ ids (queue_of s tp_a) = [0; 2]%nat.
Proof. vm_compute. repeat split. Qed.
(** the case of C34_close_settles_partial: everything acknowledged *)
Definition close_before : list pevent := [put tp_a 1; put tp_a 2; put tp_a 3; put tp_a 4].
Lemma demo_lookup n x : lookup_ok parity demo_cluster tp_a (PM n x).
Proof. exists (if Nat.even n then 0 else 1), 1. split; [vm_compute; now destruct (Nat.even n)|]. now destruct (Nat.even n). Qed.
Lemma demo_queues evs s : evs = close_before -> s = drun evs demo_start -> forall t m, In m (queue_of s t) -> t = tp_a.
Proof.
  intros -> ->. intros t m H. unfold queue_of in H. vm_compute in H. destruct (list_eq_dec Z.eq_dec t tp_a) as [->|N]; [reflexivity|exfalso].
  destruct t as [|x t]; [exact H|]. destruct x; try exact H. repeat (destruct p; try exact H). destruct t; [apply N; reflexivity|exact H].
Qed.
Definition eqb_topic (s : producer) : Prop := forall t m, In m (queue_of s t) -> t = tp_a.
Lemma put_a s n : pinv s -> p_closing s = false -> p_cluster s = demo_cluster -> eqb_topic s -> (length (queued s) < 9)%nat ->
  let s' := dstep s (put tp_a n) in
  calm_event s (put tp_a n) /\ pinv s' /\ p_closing s' = false /\ p_cluster s' = demo_cluster /\ eqb_topic s' /\ length (queued s') = S (length (queued s)).
Proof.
  intros I C K Q L s'. split.
  - cbn [calm_event put]. rewrite K. split; [|intros m _; apply demo_lookup]. intros t m Hm. rewrite K. apply Q in Hm as ->. destruct m. apply demo_lookup.
  - assert (I' : pinv s') by (apply pstep_inv; exact I). split; [exact I'|]. revert I'. unfold s', dstep, put. cbn [pstep]. unfold produce, produce_resume.
    rewrite C, K. change (dmem (k_topics demo_cluster) tp_a) with true. cbn [negb].
    destruct (enqueue tp_a (Ok (demo_msg n)) s) as [r s1] eqn:E. pose proof E as E0.
    apply enqueue_spec in E as (I1 & A1 & A2 & A3 & A4 & A5 & A6 & A7 & A8 & A9 & -> & A10 & A11); [|exact I].
    assert (LQ : length (queued s1) = S (length (queued s))).
    { pose proof (Permutation_length (i_acc s1 I1)) as L1. pose proof (Permutation_length (i_acc s I)) as L0.
      unfold settled_msgs, in_flight in *. rewrite A1, A8, A9, A10 in L1. rewrite !map_length, !app_length, !seq_length in *. lia. }
    assert (D : flush_due (Some 10) s1 = false).
    { unfold flush_due. rewrite count_queued. unfold zlen. destruct (Z.leb_spec 10 (Z.of_nat (length (queued s1)))); [lia|reflexivity]. }
    rewrite D. cbn [snd]. intros _. split; [congruence|]. split; [congruence|]. split; [|exact LQ].
    intros t m Hm. rewrite A11 in Hm. apply in_app_or in Hm as [Hm|Hm]; [now apply Q in Hm|]. destruct (list_eqb t tp_a) eqn:Et; [|destruct Hm].
    now apply list_eqb_spec in Et.
Qed.
Lemma demo_calm : calm (Some 10) 1 500 never never close_before demo_start.
Proof.
  assert (G : forall ns s, pinv s -> p_closing s = false -> p_cluster s = demo_cluster -> eqb_topic s -> (length (queued s) + length ns <= 9)%nat ->
    calm (Some 10) 1 500 never never (map (put tp_a) ns) s).
  { induction ns as [|n ns IH]; intros s I C K Q L; [exact Logic.I|]. cbn [map calm length] in *.
    destruct (put_a s n I C K Q) as (A & B & D & E & F & G); [lia|]. split; [exact A|]. apply IH; try assumption. unfold dstep in G. rewrite G. lia. }
  apply (G [1; 2; 3; 4] demo_start); [apply pinv_init|reflexivity|reflexivity|intros t m []|cbn; lia].
Qed.
Example C28_calm_example : calm (Some 10) 1 500 never never close_before demo_start /\ ids (queued (drun close_before demo_start)) = [0; 1; 2; 3]%nat.
Proof. split; [exact demo_calm|]. vm_compute. reflexivity. Qed.
Example C34_example : let s := drun close_before demo_start in
  exists rqs s1, close_begin 1 500 never never parity s = (Ok rqs, s1) /\ p_open s1 = [42] /\
    ids (settled_msgs (drun [EvResponse 42 [(tp_a, [(0, 0); (1, 0)])]] s1)) = [0; 2; 1; 3]%nat.
Proof. do 2 eexists. split; [vm_compute; reflexivity|]. split; vm_compute; reflexivity. Qed.

(** C35 fails: the partitioner raises for the last topic drained first; its messages are in no queue afterwards *)
Definition moody : partitioner := fun m ps => if Nat.eqb (pm_id m) 2 then Err EIndex else parity m ps.
Theorem C35_kept_refuted : let s := drun [put tp_b 1; put tp_a 2; put tp_a 3] demo_start in
  exists s', flush 1 500 never never moody s = (Err EIndex, s') /\
    ids (queued s) = [0; 1; 2]%nat /\ ids (queued s') = [0%nat] /\ in_flight s' = [] /\ settled_msgs s' = [] /\ p_wire s' = [].
Proof. eexists. split; [vm_compute; reflexivity|]. vm_compute. repeat split. Qed.
Example C36_example : dmem (k_topics (p_cluster demo_s)) (txt "zzz") = false /\ p_closing demo_s = false /\
  fst (produce (Some 10) 1 500 never never parity (txt "zzz") (Ok (demo_msg 1)) demo_s) = AwaitHeal.
Proof. vm_compute. repeat split. Qed.
(** a produce() that awaits its heal while close() runs queues its message after close() has flushed *)
Example C36_resume_after_close :
  let s := drun [EvClose parity; EvCluster demo_cluster; EvResume parity tp_a (Ok (demo_msg 1))] (producer_init cluster_init 41) in
  p_closing s = true /\ ids (queued s) = [0%nat].
Proof. vm_compute. repeat split. Qed.

Print Assumptions C28_accounted.
Print Assumptions C28_exactly_one_place.
Print Assumptions C29_one_request_per_id.
Print Assumptions C29_others_untouched.
Print Assumptions C30_flush_order.
Print Assumptions C30_all_sent.
Print Assumptions C31_below_threshold.
Print Assumptions C31_at_threshold.
Print Assumptions C32_retried.
Print Assumptions C33_failure_keeps_books_partial.
Print Assumptions C33_never_sent_again.
Print Assumptions C33_resent_refuted.
Print Assumptions C34_close_settles_partial.
Print Assumptions C34_close_refuted.
Print Assumptions C35_rest_kept_partial.
Print Assumptions C35_kept_refuted.
Print Assumptions C36_closing_does_nothing.
Print Assumptions C36_after_close.
Print Assumptions C36_unknown_topic.
Print Assumptions C36_known_topic.
