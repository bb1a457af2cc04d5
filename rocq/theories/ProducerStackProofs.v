(** Lemmas for C80: the producer on its connections. *)
From Coq Require Import ZArith String List Bool Lia Permutation.
From Verif Require Import PyBase BaseLemmas Struct StructProofs Constants Messages Protocol Schemas Request SpecWire ProtocolProofs RequestProofs PropsWire Cluster Producer SpecProducer ProducerProofs SpecFlow ProducerRun ProducerWire ProducerBytes SpecConn ConnProofs ConnStream ResponseRead SpecRequest Stack SpecStack StackProofs ProducerStack SpecProducerStack.
From Verif Require Connection.
Import ListNotations.
Open Scope Z_scope.

(** ** the requests of a flush: their ids climb, and those whose connection is open are on the wire *)
Definition is_open (k : cluster) (rq : prequest) : bool :=
  match dget (k_conns k) (pq_leader rq) with Some c => negb (cc_closing c) | None => false end.
Fixpoint climbs (lo : Z) (rqs : list prequest) (hi : Z) : Prop :=
  match rqs with [] => lo <= hi | rq :: r => lo < pq_corr rq /\ climbs (pq_corr rq) r hi end.
Lemma climbs_le lo rqs hi : climbs lo rqs hi -> lo <= hi.
Proof. revert lo; induction rqs as [|rq rqs IH]; cbn; intros lo H; [exact H|]. destruct H as [A B]. apply IH in B. lia. Qed.
Lemma climbs_low lo lo' rqs hi : lo' <= lo -> climbs lo rqs hi -> climbs lo' rqs hi.
Proof. destruct rqs; cbn; [lia|]. intros L [A B]. split; [lia|exact B]. Qed.
Lemma climbs_app lo a b mid hi : climbs lo a mid -> climbs mid b hi -> climbs lo (a ++ b) hi.
Proof.
  revert lo; induction a as [|x a IH]; cbn; intros lo A B; [eapply climbs_low; eassumption|]. destruct A as [A1 A2]. split; [exact A1|]. now apply IH.
Qed.
Lemma climbs_prefix lo a b hi : climbs lo (a ++ b) hi -> climbs lo a hi.
Proof. revert lo; induction a as [|x a IH]; cbn; intros lo H; [eapply climbs_le; exact H|]. destruct H as [A B]. split; [exact A|]. now apply IH. Qed.
Lemma climbs_filter f lo rqs hi : climbs lo rqs hi -> climbs lo (filter f rqs) hi.
Proof.
  revert lo; induction rqs as [|x rqs IH]; cbn; intros lo H; [exact H|]. destruct H as [A B]. destruct (f x); cbn; [split; [exact A|now apply IH]|]. eapply climbs_low; [|apply IH; exact B]. lia.
Qed.

Lemma get_leader_conns t p k : k_conns (snd (get_leader t p k)) = k_conns k.
Proof. unfold get_leader. repeat match goal with |- context [match ?x with _ => _ end] => destruct x end; reflexivity. Qed.
Lemma order_msgs_conns part t msgs : forall o retry k r k', order_msgs part t msgs o retry k = (r, k') -> k_conns k' = k_conns k.
Proof.
  induction msgs as [|m msgs IH]; intros o retry k r k' H; cbn [order_msgs] in H; [now injection H as _ <-|].
  unfold topic_partitions in H. destruct (@ddefault text (list Z) _ [] (k_topics k) t) as [ps tt]. destruct (part m ps) as [p|e]; [|now injection H as _ <-].
  match type of H with context [get_leader t p ?x] => pose proof (get_leader_conns t p x) as G; destruct (get_leader t p x) as [rl k2] end. cbn [snd k_conns] in G. destruct rl as [l|e]; [|injection H as _ <-; exact G].
  destruct (negb (dmem (k_conns k2) l)); [destruct (@ddefault text (list pmsg) _ [] retry t) as [q retry1]|]; apply IH in H; congruence.
Qed.
Lemma order_topics_conns part items : forall o retry k r rest k', order_topics part items o retry k = (r, rest, k') -> k_conns k' = k_conns k.
Proof.
  induction items as [|[t msgs] items IH]; intros o retry k r rest k' H; cbn [order_topics] in H; [now injection H as _ _ <-|].
  destruct (order_msgs part t msgs o retry k) as [[[o1 r1]|e] k1] eqn:E; apply order_msgs_conns in E; [apply IH in H; congruence|injection H as _ _ <-; exact E].
Qed.
Lemma write_all_shape sf rqs k : forall wire r wire', write_all sf rqs k wire = (r, wire') ->
  exists l rest, rqs = l ++ rest /\ wire' = wire ++ filter (is_open k) l /\ match r with Ok _ => rest = [] | Err _ => True end.
Proof.
  induction rqs as [|rq rqs IH]; intros wire r wire' H; cbn [write_all] in H.
  - injection H as <- <-. exists [], []. cbn; rewrite app_nil_r; auto.
  - assert (STOP : forall e, wire' = wire -> r = Err e -> exists l rest, rq :: rqs = l ++ rest /\ wire' = wire ++ filter (is_open k) l /\ match r with Ok _ => rest = [] | Err _ => True end).
    { intros e -> ->. exists [], (rq :: rqs). cbn. rewrite app_nil_r. auto. }
    destruct (dget (k_conns k) (pq_leader rq)) as [c|] eqn:D; [|injection H as <- <-; eapply STOP; reflexivity].
    destruct (cc_closing c) eqn:CC.
    + destruct (IH _ _ _ H) as (l & rest & -> & -> & R). exists (rq :: l), rest. split; [reflexivity|]. split; [|exact R]. cbn [filter]. unfold is_open at 2. rewrite D, CC. reflexivity.
    + destruct (sf rq) as [e|]; [injection H as <- <-; eapply STOP; reflexivity|]. destruct (IH _ _ _ H) as (l & rest & -> & -> & R). exists (rq :: l), rest. split; [reflexivity|]. split; [|exact R].
      cbn [filter]. unfold is_open at 2. rewrite D, CC. cbn [negb]. now rewrite <- app_assoc.
Qed.

Section Flush.
  Variable batch_size : option Z.
  Variables acks timeout : Z.
  Variable compress_fails : list pmsg -> option exn.
  Variable serialize_fails : prequest -> option exn.
  Notation flush := (flush acks timeout compress_fails serialize_fails).
  Notation pstep := (pstep batch_size acks timeout compress_fails serialize_fails).
  Notation build_requests := (build_requests acks timeout compress_fails).

  Lemma build_requests_climb o : forall corr acc sent r corr' sent', build_requests o corr acc sent = (r, corr', sent') ->
    corr <= corr' /\ match r with Ok rqs => exists new, rqs = acc ++ new /\ climbs corr new corr' | Err _ => True end.
  Proof.
    induction o as [|[l b] o IH]; intros corr acc sent r corr' sent' H; cbn [Producer.build_requests] in H.
    - injection H as <- <- <-. split; [lia|]. exists []. rewrite app_nil_r. split; [reflexivity|]. cbn. lia.
    - destruct (build_topics compress_fails (corr + 1) b [] sent) as [[ts|e] s1]; [|injection H as <- <- <-; split; [lia|exact I]].
      apply IH in H as [A B]. split; [lia|]. destruct r as [rqs|e]; [|exact I]. destruct B as (new & -> & CL). rewrite <- app_assoc. eexists. split; [reflexivity|]. cbn. split; [lia|exact CL].
  Qed.

  (** what is kept for retrying a request on the wire, it carries *)
  Definition sent_wire (s : producer) : Prop := forall rq, In rq (p_wire s) -> forall t p ms m, In (p, ms) (slook (p_sent s) (pq_corr rq) t) -> In m ms -> In m (carried [rq] t p).
  Lemma carried_one rq t d p ms m : In (t, d) (pq_topics rq) -> In (p, ms) d -> In m ms -> In m (carried [rq] t p).
  Proof.
    intros A B D. unfold carried. cbn [flat_map]. rewrite app_nil_r. apply in_flat_map. exists (t, d). split; [exact A|]. cbn [fst snd]. replace (list_eqb t t) with true by (symmetry; now apply list_eqb_spec).
    apply in_flat_map. exists (p, ms). split; [exact B|]. cbn [fst snd]. now rewrite Z.eqb_refl.
  Qed.

  (** what a call of flush() sends *)
  Definition sends_of (r : res (list prequest)) (s s' : producer) (sends : list prequest) : Prop :=
    p_wire s' = p_wire s ++ filter (is_open (p_cluster s)) sends /\ climbs (p_corr s) sends (p_corr s') /\ k_conns (p_cluster s') = k_conns (p_cluster s) /\
    match r with Ok rqs => sends = rqs | Err _ => sends = skipn (length (p_wire s)) (p_wire s') end.
  Lemma sends_none s s' r : p_wire s' = p_wire s -> p_corr s <= p_corr s' -> k_conns (p_cluster s') = k_conns (p_cluster s) -> match r with Ok rqs => rqs = [] | Err _ => True end -> sends_of r s s' [].
  Proof. intros W L K R. split; [cbn; now rewrite app_nil_r|]. split; [exact L|]. split; [exact K|]. destruct r; [now symmetry|]. now rewrite W, skipn_all. Qed.
  Lemma skipn_wire {A} (a b : list A) : skipn (length a) (a ++ b) = b.
  Proof. now rewrite skipn_app, skipn_all, Nat.sub_diag. Qed.
  Lemma filter_idem {A} f (l : list A) : filter f (filter f l) = filter f l.
  Proof. induction l as [|x l IH]; [reflexivity|]. cbn. destruct (f x) eqn:E; [cbn; rewrite E; now f_equal|exact IH]. Qed.
  Lemma is_open_conns k k' : k_conns k' = k_conns k -> forall l, filter (is_open k') l = filter (is_open k) l.
  Proof. intros E. assert (X : forall rq, is_open k' rq = is_open k rq) by (intros rq; unfold is_open; now rewrite E). induction l as [|x l IH]; [reflexivity|]. cbn. now rewrite X, IH. Qed.

  Lemma flush_out part s r s' : flush part s = (r, s') -> pinv s -> (exists sends, sends_of r s s' sends) /\ (sent_wire s -> sent_wire s').
  Proof.
    intros H I. pose proof (flush_spec _ _ _ _ _ _ _ _ H I) as (_ & _ & _ & _ & _ & OLD & _). unfold Producer.flush in H. destruct (p_unsent s) as [|u0 us] eqn:EU.
    { injection H as <- <-. split; [|auto]. exists []. apply sends_none; try reflexivity. }
    rewrite <- EU in H. destruct (order_topics part (drain_items (p_unsent s)) [] [] (p_cluster s)) as [[r1 rest] k1] eqn:EO. pose proof (order_topics_conns _ _ _ _ _ _ _ _ EO) as KC.
    destruct r1 as [[o retry]|e]; [|injection H as <- <-; split; [exists []; apply sends_none; cbn; auto; lia|intros S; exact S]].
    cbn [with_cluster with_unsent p_unsent p_sent p_corr p_heal p_closing p_cluster p_next p_open p_wire p_settled p_lost] in H.
    destruct (build_requests o (p_corr s) [] (p_sent s)) as [[r2 corr] sent] eqn:EB. destruct (build_requests_climb _ _ _ _ _ _ _ EB) as [LE CL].
    pose proof (order_topics_nd _ _ _ _ _ _ _ _ _ EO) as NO.
    assert (BS := build_requests_spec acks timeout compress_fails _ _ _ _ _ _ _ EB).
    destruct r2 as [rqs|e].
    2:{ injection H as <- <-. split; [exists []; apply sends_none; cbn; auto|]. intros S rq HW t p ms m Hm. rewrite OLD in Hm by apply (i_wbound s I), HW. now apply (S rq HW). }
    match type of H with context [write_all _ _ (p_cluster ?x)] => set (s3 := x) in * end.
    destruct (retries_spec retry (Prod (rev rest) sent (p_heal s) (p_closing s) k1 corr (p_next s) (p_open s) (p_wire s) (p_settled s) (p_lost s))) as (_ & B2 & B3 & B4 & B5 & B6 & B7 & B8 & _).
    change (p_sent s3 = sent) in B2. change (p_cluster s3 = k1) in B4. change (p_corr s3 = corr) in B5. change (p_wire s3 = p_wire s) in B8. clearbody s3.
    rewrite B4, B8 in H. destruct (write_all serialize_fails rqs k1 (p_wire s)) as [r3 wire] eqn:EW. destruct (write_all_shape _ _ _ _ _ _ EW) as (l & tl & EL & -> & R3).
    destruct CL as (new & EN & CL). cbn in EN. subst new. injection H as <- <-. cbn [p_sent p_wire] in OLD.
    split.
    - exists (match r3 with Ok _ => rqs | Err _ => filter (is_open (p_cluster s)) l end). unfold sends_of. cbn [p_wire p_corr p_cluster]. rewrite ?B4, ?B5. split; [|split; [|split; [exact KC|]]].
      + rewrite (is_open_conns _ _ KC). destruct r3; [subst tl; rewrite app_nil_r in EL; now subst|]. now rewrite filter_idem.
      + destruct r3; [exact CL|]. apply climbs_filter. subst rqs. eapply climbs_prefix. exact CL.
      + destruct r3; [reflexivity|]. rewrite skipn_wire. symmetry. now apply is_open_conns.
    - intros S rq HW t p ms m Hm Hi. cbn [p_wire p_sent] in HW, Hm. rewrite B2 in Hm, OLD. apply in_app_iff in HW as [HW|HW].
      + rewrite OLD in Hm by apply (i_wbound s I), HW. now apply (S rq HW t p ms).
      + apply filter_In in HW as [HW _]. destruct BS as (_ & _ & _ & _ & dn & rs & _ & _ & _ & new & EN & _ & SP & _).
        { intros l0 b Hb. apply NO in Hb; [exact Hb|]. split; [constructor|intros ? ? []]. }
        { apply (i_bound s I). }
        cbn in EN. subst new. assert (HR : In rq rqs) by (rewrite EL; apply in_or_app; now left). destruct (SP rq HR) as (_ & _ & _ & SL). rewrite SL in Hm. unfold getd in Hm. destruct (dget (pq_topics rq) t) as [d|] eqn:DG; [|destruct Hm].
        apply dget_In in DG. eapply carried_one; eassumption.
  Qed.

  (** answers only take away from what is kept *)
  Definition shrinks (s s' : producer) : Prop := forall c t p ms, In (p, ms) (slook (p_sent s') c t) -> In (p, ms) (slook (p_sent s) c t).
  Lemma handle_partitions_shrinks c name ps : forall s r s', handle_partitions c name ps s = (r, s') -> shrinks s s'.
  Proof.
    induction ps as [|[p code] ps IH]; intros s r s' H; cbn [handle_partitions] in H; [injection H as _ <-; intros ? ? ? ? X; exact X|]. destruct (code =? no_error); [eapply IH; eassumption|].
    destruct (is_retriable code); [|destruct (error_name code); [eapply IH; eassumption|injection H as _ <-; intros ? ? ? ? X; exact X]]. destruct (pop_sent (p_sent s) c name p) as [r1 sent] eqn:EP. destruct (pop_sent_spec _ _ _ _ _ _ EP) as (_ & OT & _ & _ & L).
    assert (S2 : forall c' t p ms, In (p, ms) (slook sent c' t) -> In (p, ms) (slook (p_sent s) c' t)).
    { intros c' t p' ms D. destruct (Z.eq_dec c' c) as [->|N]; [|unfold slook, getd in *; now rewrite (OT _ N) in D]. rewrite L in D. destruct (list_eqb t name) eqn:ET; [|exact D]. apply list_eqb_spec in ET. subst t. now apply in_ddel_in in D. }
    destruct r1 as [ms|e]; [|injection H as _ <-; exact S2]. destruct (queue_retries_spec name ms (with_sent sent s)) as (_ & A2 & _). cbv zeta in A2.
    intros c' t p' ms' X. apply (IH _ _ _ H) in X. rewrite A2 in X. now apply S2.
  Qed.
  Lemma handle_topics_shrinks c resp : forall s r s', handle_topics c resp s = (r, s') -> shrinks s s'.
  Proof.
    induction resp as [|[name ps] resp IH]; intros s r s' H; cbn [handle_topics] in H; [injection H as _ <-; intros ? ? ? ? X; exact X|].
    destruct (handle_partitions c name ps s) as [[u|e] s1] eqn:E; apply handle_partitions_shrinks in E; [|injection H as _ <-; exact E]. intros c' t p ms X. apply E. now apply (IH _ _ _ H).
  Qed.
  Lemma handle_shrinks c resp s r s' : handle_produce_response c resp s = (r, s') -> nd_ordered (p_sent s) ->
    shrinks s s' /\ forall m code, In (m, Some code) (p_settled s') -> In (m, Some code) (p_settled s) \/
      exists t p ms, code_for resp t p = Some code /\ In (p, ms) (slook (p_sent s) c t) /\ In m ms.
  Proof.
    unfold handle_produce_response. intros H N. destruct (handle_topics c resp s) as [r1 s1] eqn:E. pose proof (handle_topics_shrinks _ _ _ _ _ E) as SH. apply handle_topics_moves in E as ((_ & _ & _ & _ & _ & _ & ST & _) & _ & NN & _). specialize (NN N).
    destruct r1 as [u|e]; [|injection H as _ <-; split; [exact SH|rewrite ST; auto]]. destruct (dget (p_sent s1) c) as [b|] eqn:D; [|injection H as _ <-; split; [exact SH|rewrite ST; auto]].
    injection H as _ <-. unfold shrinks. cbn [p_sent p_settled]. destruct NN as [N1 N2]. split.
    - intros c' t p ms X. apply SH. destruct (Z.eq_dec c' c) as [->|NE]; unfold slook, getd in *; [rewrite (dget_ddel_same _ _ N1) in X; destruct X|]. now rewrite (dget_ddel_other _ _ _ NE) in X.
    - intros m code X. rewrite ST in X. apply in_app_iff in X as [X|X]; [now left|]. right. unfold settle in X. apply in_flat_map in X as ([t d] & Hb & X). cbn [fst snd] in X. apply in_flat_map in X as ([p ms] & Hd & X). cbn [fst snd] in X.
      apply in_map_iff in X as (m' & EM & Hm). injection EM as -> EC. exists t, p, ms. split; [exact EC|]. split; [|exact Hm]. apply SH. unfold slook, getd. rewrite D. apply dget_In in D. destruct (N2 _ _ D) as [N3 _]. now rewrite (In_dget_nodup _ _ _ N3 Hb).
  Qed.

  Lemma pstep_sent_wire s ev : pinv s -> sent_wire s -> sent_wire (pstep s ev).
  Proof.
    intros I S. assert (FL : forall part s0, pinv s0 -> sent_wire s0 -> sent_wire (snd (flush part s0))). { intros part s0 I0. destruct (flush part s0) as [r s2] eqn:F. now apply (flush_out _ _ _ _ F). }
    assert (RE : forall part t mk, sent_wire (snd (produce_resume batch_size acks timeout compress_fails serialize_fails part t mk s))).
    { intros part t mk. unfold Producer.produce_resume. destruct (negb _); [exact S|]. destruct (enqueue t mk s) as [r s1] eqn:E. destruct (enqueue_spec _ _ _ _ _ E I) as (I1 & S1 & _ & _ & _ & _ & _ & W & _).
      assert (S2 : sent_wire s1) by (unfold sent_wire; rewrite S1, W; exact S). destruct r; [|exact S2]. destruct (flush_due batch_size s1); [|exact S2]. specialize (FL part s1 I1 S2). destruct (flush part s1) as [[r2|e] s2]; exact FL. }
    destruct ev; cbn [Producer.pstep]; try exact S.
    - unfold produce. destruct (p_closing s); [exact S|]. destruct (negb _); [exact S|]. apply RE.
    - apply RE.
    - now apply FL.
    - unfold close_begin. apply FL; [|exact S]. refine (pinv_same s _ _ _ _ _ _ _ _ _ _ I); try reflexivity; [intros x Hx; exact Hx|apply I].
    - destruct (smem (p_open s) corr); [|exact S]. destruct (handle_produce_response corr resp (Producer.answered corr s)) as [r s2] eqn:F. pose proof F as F0. apply handle_shrinks in F0 as [SH _]; [|apply I]. apply handle_spec in F as (_ & _ & _ & _ & _ & W & _).
      cbn [snd]. intros rq HW t p ms m X. rewrite W in HW. apply (S rq HW). now apply SH in X.
    - destruct (smem (p_open s) corr); exact S.
  Qed.

  (** what a step sends *)
  Notation awaited := (fun s ev => match ev with
    | EvProduce part t mk => match fst (produce batch_size acks timeout compress_fails serialize_fails part t mk s) with Flushing rqs => rqs | _ => [] end
    | EvResume part t mk => match fst (produce_resume batch_size acks timeout compress_fails serialize_fails part t mk s) with Flushing rqs => rqs | _ => [] end
    | EvFlush part => match fst (flush part s) with Ok rqs => rqs | Err _ => [] end
    | EvClose part => match fst (close_begin acks timeout compress_fails serialize_fails part s) with Ok rqs => rqs | Err _ => [] end
    | _ => []
    end).
  Definition step_sends (s : producer) (ev : pevent) (sends : list prequest) : Prop :=
    let s' := pstep s ev in
    p_wire s' = p_wire s ++ filter (is_open (p_cluster s)) sends /\ climbs (p_corr s) sends (p_corr s') /\ (sends = [] \/ k_conns (p_cluster s') = k_conns (p_cluster s)) /\
    sends = match awaited s ev with [] => skipn (length (p_wire s)) (p_wire s') | rqs => rqs end.
  Lemma sends_pick r s s' sends : sends_of r s s' sends -> sends = match match r with Ok rqs => rqs | Err _ => [] end with [] => skipn (length (p_wire s)) (p_wire s') | rqs => rqs end.
  Proof. intros (W & _ & _ & R). destruct r as [[|x rqs]|e]; [|exact R|exact R]. subst sends. rewrite W. cbn. now rewrite app_nil_r, skipn_all. Qed.
  Lemma step_sends_some s ev : pinv s -> exists sends, step_sends s ev sends.
  Proof.
    intros I.
    assert (NO : p_wire (pstep s ev) = p_wire s -> p_corr s <= p_corr (pstep s ev) -> awaited s ev = [] -> exists sends, step_sends s ev sends).
    { intros W L A. exists []. unfold step_sends. cbv zeta. rewrite A, W, skipn_all. cbn [filter climbs]. rewrite app_nil_r. auto. }
    assert (FL : forall part s0, pinv s0 -> p_wire s0 = p_wire s -> p_corr s0 = p_corr s -> k_conns (p_cluster s0) = k_conns (p_cluster s) ->
      exists sends, p_wire (snd (flush part s0)) = p_wire s ++ filter (is_open (p_cluster s)) sends /\ climbs (p_corr s) sends (p_corr (snd (flush part s0))) /\ (sends = [] \/ k_conns (p_cluster (snd (flush part s0))) = k_conns (p_cluster s)) /\
        sends = match match fst (flush part s0) with Ok rqs => rqs | Err _ => [] end with [] => skipn (length (p_wire s)) (p_wire (snd (flush part s0))) | rqs => rqs end).
    { intros part s0 I0 W0 C0 K0. destruct (flush part s0) as [r s2] eqn:F. destruct (flush_out _ _ _ _ F I0) as [(sends & SO) _]. pose proof (sends_pick _ _ _ _ SO) as PK. destruct SO as (W & CL & K & R). exists sends. cbn [fst snd].
      rewrite W0 in PK, W. rewrite C0 in CL. rewrite (is_open_conns _ _ K0) in W. rewrite K0 in K. auto. }
    assert (RE : forall part t mk, let x := produce_resume batch_size acks timeout compress_fails serialize_fails part t mk s in
      exists sends, p_wire (snd x) = p_wire s ++ filter (is_open (p_cluster s)) sends /\ climbs (p_corr s) sends (p_corr (snd x)) /\ (sends = [] \/ k_conns (p_cluster (snd x)) = k_conns (p_cluster s)) /\
        sends = match match fst x with Flushing rqs => rqs | _ => [] end with [] => skipn (length (p_wire s)) (p_wire (snd x)) | rqs => rqs end).
    { intros part t mk. unfold Producer.produce_resume. assert (NN : forall s2, p_wire s2 = p_wire s -> p_corr s2 = p_corr s -> exists sends, p_wire s2 = p_wire s ++ filter (is_open (p_cluster s)) sends /\ climbs (p_corr s) sends (p_corr s2) /\ (sends = [] \/ k_conns (p_cluster s2) = k_conns (p_cluster s)) /\ sends = skipn (length (p_wire s)) (p_wire s2)).
      { intros s2 W2 C2. exists []. rewrite W2, C2, skipn_all. cbn [filter climbs]. rewrite app_nil_r. repeat split; auto; lia. }
      destruct (negb _); [cbn; now apply NN|]. destruct (enqueue t mk s) as [r s1] eqn:E. destruct (enqueue_spec _ _ _ _ _ E I) as (I1 & S1 & _ & _ & K1 & C1 & _ & W1 & _). destruct r; [|cbn; now apply NN]. destruct (flush_due batch_size s1); [|cbn; now apply NN].
      assert (K1' : k_conns (p_cluster s1) = k_conns (p_cluster s)) by now rewrite K1. destruct (FL part s1 I1 W1 C1 K1') as (sends & X). exists sends. destruct (flush part s1) as [[rqs|e] s2]; exact X. }
    destruct ev; try (apply NO; cbn; [reflexivity|lia|reflexivity]).
    - assert (X : produce batch_size acks timeout compress_fails serialize_fails part topic mk s = (Through, s) \/ produce batch_size acks timeout compress_fails serialize_fails part topic mk s = (AwaitHeal, s) \/ produce batch_size acks timeout compress_fails serialize_fails part topic mk s = produce_resume batch_size acks timeout compress_fails serialize_fails part topic mk s).
      { unfold produce. destruct (p_closing s); [auto|]. destruct (negb _); auto. }
      unfold step_sends. cbn [Producer.pstep]. cbv zeta beta. destruct X as [X|[X|X]]; rewrite X; [| |apply RE]; (exists []; cbn [fst snd filter climbs]; rewrite app_nil_r, skipn_all; repeat split; auto; lia).
    - unfold step_sends. cbn [Producer.pstep]. cbv zeta beta. apply RE.
    - unfold step_sends. cbn [Producer.pstep]. cbv zeta beta. now apply FL.
    - unfold step_sends. cbn [Producer.pstep]. cbv zeta beta. unfold close_begin. apply FL; try reflexivity. refine (pinv_same s _ _ _ _ _ _ _ _ _ _ I); try reflexivity; [intros x Hx; exact Hx|apply I].
    - apply NO; cbn [Producer.pstep]; try reflexivity; destruct (smem (p_open s) corr); try reflexivity; try lia; destruct (handle_produce_response corr resp (Producer.answered corr s)) as [r s2] eqn:F; apply handle_spec in F as (_ & _ & C & _ & _ & W & _); cbn [snd]; [rewrite W; reflexivity|rewrite C; cbn; lia].
    - apply NO; cbn [Producer.pstep]; try reflexivity; destruct (smem (p_open s) corr); try reflexivity; cbn; lia.
  Qed.

  Lemma pstep_settled s ev : pinv s -> (forall c resp, ev <> EvResponse c resp) -> p_settled (pstep s ev) = p_settled s.
  Proof.
    intros I NE. assert (FL : forall part s0, pinv s0 -> p_settled (snd (flush part s0)) = p_settled s0) by (intros part s0 I0; destruct (flush part s0) as [r s2] eqn:F; apply flush_spec in F as (_ & _ & _ & S & _); [exact S|exact I0]).
    assert (RE : forall part t mk, p_settled (snd (produce_resume batch_size acks timeout compress_fails serialize_fails part t mk s)) = p_settled s).
    { intros part t mk. unfold Producer.produce_resume. destruct (negb _); [reflexivity|]. destruct (enqueue t mk s) as [r s1] eqn:E. destruct (enqueue_spec _ _ _ _ _ E I) as (I1 & _ & _ & _ & _ & _ & _ & _ & ST & _).
      destruct r; [|exact ST]. destruct (flush_due batch_size s1); [|exact ST]. specialize (FL part s1 I1). destruct (flush part s1) as [[r2|e] s2]; cbn [snd] in *; congruence. }
    destruct ev; cbn [Producer.pstep]; try reflexivity.
    - unfold produce. destruct (p_closing s); [reflexivity|]. destruct (negb _); [reflexivity|]. apply RE.
    - apply RE.
    - now apply FL.
    - unfold close_begin. rewrite FL; [reflexivity|]. refine (pinv_same s _ _ _ _ _ _ _ _ _ _ I); try reflexivity; [intros x Hx; exact Hx|apply I].
    - now destruct (NE corr resp).
    - destruct (smem (p_open s) corr); reflexivity.
  Qed.
End Flush.
(** ** the connections *)
Section Conns.
  Variable C : codec.
  Variable compression : Z.
  Variable batch_size : option Z.
  Variables acks timeout : Z.
  Variable depth : nat.
  Variable neg_read : Z -> bytes -> bytes * bytes.
  Variable frames : nat -> list (Z * bytes).
  Variable OK : forall n, Forall frame_ok (frames n).
  Notation happens := (happens C depth neg_read).
  Notation link_ok := (link_ok C depth frames).

  Lemma frame_number key id p api : In (api, key) kafka_api_numbers -> produce_frame (request_frame key id p) = (key =? 0).
  Proof.
    intros H. unfold produce_frame, request_frame, request_body. rewrite skipn_app, (skipn_all2 (n := 4)) by (rewrite big_endian_length; lia). rewrite big_endian_length, Nat.sub_diag. cbn [skipn app].
    rewrite firstn_app, big_endian_length, Nat.sub_diag. rewrite firstn_O, app_nil_r, firstn_all2 by (rewrite big_endian_length; lia).
    cbn in H. repeat (destruct H as [H|H]; [injection H as <- <-; vm_compute; reflexivity|]). destruct H.
  Qed.

  Lemma object_facts rq obj : produce_object C compression rq = Ok obj ->
    Connection.rq_api obj = "produce"%string /\ Connection.rq_corr obj = pq_corr rq /\ (p <- Connection.rq_payload obj;; framed p) = produce_wire C compression rq.
  Proof.
    unfold produce_object, produce_wire, Connection.request_of. destruct (produce_kwargs C compression rq) as [kw|]; [|discriminate]. cbn [bind]. destruct (request_init "produce" ProduceRequest kw (pq_corr rq - 1)) as [[attrs last']|] eqn:RI; [|discriminate]. cbn [bind].
    intros H. injection H as <-. split; [reflexivity|]. split; [|reflexivity]. cbn [Connection.rq_corr].
    unfold request_init, generate_correlation_id in RI. destruct (part_init _ _ _) as [p|e]; cbn [bind] in RI; [|discriminate RI]. destruct (dindex api_keys "produce"%string) as [key|e]; cbn [bind] in RI; [|discriminate RI]. cbn in RI. injection RI as _ <-. lia.
  Qed.
  Lemma wire_frame rq w : produce_wire C compression rq = Ok w -> exists payload, w = request_frame 0 (pq_corr rq) payload /\ SpecWire.fits 32 (pq_corr rq).
  Proof.
    intros H. unfold produce_wire in H. destruct (produce_kwargs C compression rq) as [kw|] eqn:K; [|discriminate]. cbn [bind] in H. destruct (request_init "produce" ProduceRequest kw (pq_corr rq - 1)) as [[attrs last']|] eqn:RI; [|discriminate]. cbn [bind] in H.
    unfold produce_kwargs in K. destruct (map_res (topic_object C compression) (pq_topics rq)) as [ts|] eqn:T; [|discriminate]. cbn [bind] in K. injection K as <-.
    destruct (request_payload "produce" ProduceRequest _ _ _ _ _ produce_names (produce_names_distinct _ _ _) RI H) as (key & payload & EK & TB & -> & FC & FB). vm_compute in EK. injection EK as <-. replace (pq_corr rq - 1 + 1) with (pq_corr rq) in * by lia. eauto.
  Qed.

  Lemma happens_quiet ev l : (forall rq wr, ev <> Connection.EvSend rq wr) -> l_iss (happens ev l) = l_iss l /\ l_out (happens ev l) = l_out l.
  Proof. intros N. destruct ev; try (split; reflexivity). now destruct (N rq wr). Qed.
  Lemma happens_send rq wr l : (l_out (happens (Connection.EvSend rq wr) l) = l_out l \/
      exists f w, Connection.conn_send rq wr (l_conn l) = (Ok f, snd (Connection.conn_send rq wr (l_conn l))) /\ Connection.c_closing (l_conn l) = false /\ (p <- Connection.rq_payload rq;; framed p) = Ok w /\ l_out (happens (Connection.EvSend rq wr) l) = l_out l ++ [(f, w)]) /\
    l_iss (happens (Connection.EvSend rq wr) l) = l_iss l ++ match fst (Connection.conn_send rq wr (l_conn l)) with Ok f => [(f, rq)] | Err _ => [] end /\
    (Connection.c_closing (l_conn l) = true -> Connection.c_closing (l_conn (happens (Connection.EvSend rq wr) l)) = true).
  Proof.
    split; [|split].
    - cbn [Stack.happens l_out]. destruct (written_send rq wr (l_conn l)) as [W|(f & w & SE & PW & W)].
      + left. destruct (Connection.conn_send rq wr (l_conn l)) as [[f|e] st']; [|reflexivity]. cbn [snd] in W. rewrite W, skipn_all, app_nil_r. reflexivity.
      + destruct (Connection.c_closing (l_conn l)) eqn:CC.
        * exfalso. unfold Connection.conn_send in W. rewrite CC in W. cbn in W. apply (f_equal (@length _)) in W. rewrite app_length in W. cbn in W. lia.
        * right. exists f, w. split; [exact SE|]. split; [reflexivity|]. split; [exact PW|]. rewrite SE, W. rewrite skipn_app, skipn_all, Nat.sub_diag. reflexivity.
    - cbn [Stack.happens l_iss]. destruct (fst (Connection.conn_send rq wr (l_conn l))); [reflexivity|now rewrite app_nil_r].
    - intros CC. cbn [Stack.happens l_conn Connection.step]. unfold Connection.conn_send. rewrite CC. reflexivity.
  Qed.
  Lemma meta_facts topics last obj last' : Connection.request_of "metadata"%string MetadataRequest [("topics"%string, PList (map PStr topics))] last = Ok (obj, last') ->
    last' = last + 1 /\ Connection.rq_corr obj = last' /\ Connection.rq_api obj = "metadata"%string /\ forall w, (p <- Connection.rq_payload obj;; framed p) = Ok w -> exists payload, w = request_frame 3 last' payload /\ SpecWire.fits 32 last'.
  Proof.
    unfold Connection.request_of. destruct (request_init "metadata" MetadataRequest _ last) as [[attrs l']|e] eqn:RI; cbn [bind]; [|discriminate]. intros H. injection H as <- <-.
    assert (LA : l' = last + 1) by (unfold request_init, generate_correlation_id in RI; destruct (part_init _ _ _) as [p|e]; cbn [bind] in RI; [|discriminate RI]; destruct (dindex api_keys "metadata"%string) as [key|e]; cbn [bind] in RI; [|discriminate RI]; cbn in RI; injection RI as _ <-; reflexivity).
    split; [exact LA|]. split; [reflexivity|]. split; [reflexivity|]. intros w PWE. cbn [Connection.rq_payload] in PWE.
    destruct (C05_request_framing "metadata" MetadataRequest [("topics"%string, PList (map PStr topics))] last attrs l' w) as (key & payload & v' & IK & -> & _ & FL & _); [cbn; tauto|repeat constructor; intros []| |exact RI|exact PWE|].
    { cbn [bytes_ok]. split; [|exact Logic.I]. clear; induction topics as [|x topics IH]; [exact Logic.I|split; [exact Logic.I|exact IH]]. }
    exists payload. split; [|exact FL]. cbn in IK. repeat (destruct IK as [IK|IK]; [try discriminate IK; injection IK as <-; reflexivity|]). destruct IK.
  Qed.

  (** [W]: the requests on the wire; [last]: the last correlation id given out *)
  Record yinv (W : list prequest) (last : Z) (ls : nat -> link) (wait : list (Z * (nat * nat))) : Prop := {
    yi_link : forall n, link_ok n (ls n) last;
    yi_out : forall n, exists l, in_order l W /\ Forall2 (fun rq fw => produce_wire C compression rq = Ok (snd fw) /\ exists obj, produce_object C compression rq = Ok obj /\ In (fst fw, obj) (l_iss (ls n))) l (filter (fun fw => produce_frame (snd fw)) (l_out (ls n)));
    yi_meta : forall n f w obj, In (f, w) (l_out (ls n)) -> In (f, obj) (l_iss (ls n)) -> produce_frame w = false -> Connection.rq_api obj <> "produce"%string;
    yi_wait : forall c n f, In (c, (n, f)) wait -> exists obj, In (f, obj) (l_iss (ls n)) /\ Connection.rq_api obj = "produce"%string /\ Connection.rq_corr obj = c }.
  Lemma yinv_init : forall corr, yinv [] corr (fun _ => link_init) [].
  Proof. intros corr. constructor; [intros n; apply link_ok_init|intros n; exists []; split; constructor|intros n f w obj []|intros c n f []]. Qed.
  Lemma yinv_more W W' last last' ls wait wait' : (exists x, W' = W ++ x) -> last <= last' -> incl wait' wait -> yinv W last ls wait -> yinv W' last' ls wait'.
  Proof.
    intros (x & ->) L IW [A B D E]. constructor; [intros n; eapply link_ok_last; eauto| |exact D|intros c n f H; apply E, IW, H].
    intros n. destruct (B n) as (l & IO & F). exists l. split; [|exact F]. rewrite <- (app_nil_r l). apply in_order_app; [exact IO|apply in_order_nil].
  Qed.
  Lemma yinv_event W last ls wait n ev : (forall rq wr, ev <> Connection.EvSend rq wr) -> yinv W last ls wait -> yinv W last (put n (happens ev (ls n)) ls) wait.
  Proof.
    intros NS [A B D E]. destruct (happens_quiet ev (ls n) NS) as [EI EO].
    assert (SAME : forall m, l_iss (put n (happens ev (ls n)) ls m) = l_iss (ls m) /\ l_out (put n (happens ev (ls n)) ls m) = l_out (ls m)).
    { intros m. destruct (Nat.eq_dec m n) as [->|N]; [rewrite put_same; auto|rewrite put_other by assumption; auto]. }
    constructor.
    - intros m. destruct (Nat.eq_dec m n) as [->|N]; [rewrite put_same|rewrite put_other by assumption; apply A]. eapply link_ok_happens; [exact OK|apply A|lia|]. intros rq wr X. now destruct (NS rq wr).
    - intros m. destruct (SAME m) as [-> ->]. apply B.
    - intros m. destruct (SAME m) as [-> ->]. apply D.
    - intros c m. destruct (SAME m) as [-> _]. apply E.
  Qed.
  (** a send: of a produce request, or of anything else *)
  Lemma yinv_send W last ls wait n obj wr last' W' new : yinv W last ls wait -> last < Connection.rq_corr obj <= last' ->
    (forall w, (p <- Connection.rq_payload obj;; framed p) = Ok w -> carries w (Connection.rq_corr obj)) ->
    (forall f, fst (Connection.conn_send obj wr (l_conn (ls n))) = Ok f -> forall c m f', In (c, (m, f')) new -> m = n /\ f' = f /\ Connection.rq_api obj = "produce"%string /\ Connection.rq_corr obj = c) ->
    (forall e, fst (Connection.conn_send obj wr (l_conn (ls n))) = Err e -> new = []) ->
    (exists x, W' = W ++ x) ->
    (forall w, Connection.c_closing (l_conn (ls n)) = false -> (p <- Connection.rq_payload obj;; framed p) = Ok w ->
       (produce_frame w = false /\ Connection.rq_api obj <> "produce"%string) \/
       (produce_frame w = true /\ exists rq, W' = W ++ [rq] /\ produce_object C compression rq = Ok obj /\ produce_wire C compression rq = Ok w)) ->
    yinv W' last' (put n (happens (Connection.EvSend obj wr) (ls n)) ls) (new ++ wait).
  Proof.
    intros [A B D E] LA CA NW NE GW FR. destruct (happens_send obj wr (ls n)) as (EO & EI & _).
    assert (GROW : forall m f o, In (f, o) (l_iss (ls m)) -> In (f, o) (l_iss (put n (happens (Connection.EvSend obj wr) (ls n)) ls m))).
    { intros m f o H. destruct (Nat.eq_dec m n) as [->|N]; [rewrite put_same, EI; apply in_or_app; now left|now rewrite put_other]. }
    assert (IOM : forall l, in_order l W -> in_order l W') by (intros l H; destruct GW as (x & ->); rewrite <- (app_nil_r l); apply in_order_app; [exact H|apply in_order_nil]).
    constructor.
    - intros m. destruct (Nat.eq_dec m n) as [->|N]; [rewrite put_same|rewrite put_other by assumption; eapply (link_ok_last C depth neg_read frames OK); [|apply A]; lia]. eapply link_ok_happens; [exact OK|apply A|lia|]. intros rq wr' X. injection X as <- <-. split; [lia|]. split; [|exact CA]. intros f o H X. apply (lk_ids _ _ _ _ _ _ (A n)) in H. lia.
    - intros m. destruct (B m) as (l & IO & F). destruct (Nat.eq_dec m n) as [->|N]; [|exists l; rewrite put_other by assumption; auto]. rewrite put_same.
      assert (F' : Forall2 (fun rq fw => produce_wire C compression rq = Ok (snd fw) /\ exists obj0, produce_object C compression rq = Ok obj0 /\ In (fst fw, obj0) (l_iss (happens (Connection.EvSend obj wr) (ls n)))) l (filter (fun fw => produce_frame (snd fw)) (l_out (ls n)))).
      { eapply Forall2_impl_; [|exact F]. intros rq fw (X1 & o & X2 & X3). split; [exact X1|]. exists o. split; [exact X2|]. rewrite EI. apply in_or_app. now left. }
      destruct EO as [EO|(f & w & SE & CC & PW & EO)]; rewrite EO; [exists l; auto|]. rewrite filter_app. cbn [filter snd].
      destruct (FR w CC PW) as [(PF & _)|(PF & rq & EW & PO & PWI)]; rewrite PF; [rewrite app_nil_r; exists l; auto|]. exists (l ++ [rq]). split; [rewrite EW; apply in_order_app; [exact IO|apply in_order_refl]|]. apply Forall2_app; [exact F'|]. constructor; [|constructor]. cbn [fst snd]. split; [exact PWI|].
      exists obj. split; [exact PO|]. rewrite EI, SE. apply in_or_app. right. now left.
    - intros m f w o HO HI PF. destruct (Nat.eq_dec m n) as [->|N]; [rewrite put_same in *|rewrite put_other in * by assumption; eapply D; eassumption].
      pose proof (A n) as LK. rewrite EI in HI. apply in_app_iff in HI. destruct EO as [EO|(f0 & w0 & SE & CC & PW & EO)]; rewrite EO in HO.
      + destruct HI as [HI|HI]; [eapply D; eassumption|]. destruct (fst (Connection.conn_send obj wr (l_conn (ls n)))) as [f0|e] eqn:FS; [|destruct HI]. destruct HI as [HI|[]]. injection HI as -> ->.
        exfalso. destruct (lk_out _ _ _ _ _ _ LK _ _ HO) as (o' & X & _). apply (i_lt _ _ _ _ (lk_inv _ _ _ _ _ _ LK)) in X. destruct (Connection.conn_send o wr (l_conn (ls n))) as [rr st'] eqn:CS. cbn [fst] in FS. subst rr. apply (send_future _ _ _ _ _) in CS. lia.
      + rewrite SE in HI. cbn [fst] in HI. apply send_future in SE. apply in_app_iff in HO. destruct HO as [HO|[HO|[]]], HI as [HI|[HI|[]]].
        * eapply D; eassumption.
        * injection HI as -> ->. exfalso. destruct (lk_out _ _ _ _ _ _ LK _ _ HO) as (o' & X & _). apply (i_lt _ _ _ _ (lk_inv _ _ _ _ _ _ LK)) in X. lia.
        * injection HO as -> ->. exfalso. apply (i_lt _ _ _ _ (lk_inv _ _ _ _ _ _ LK)) in HI. lia.
        * injection HO as -> ->. injection HI as ->. destruct (FR w CC PW) as [(_ & X)|(X & _)]; [exact X|congruence].
    - intros c m f H. apply in_app_iff in H as [H|H].
      + destruct (fst (Connection.conn_send obj wr (l_conn (ls n)))) as [f0|e] eqn:FS; [|rewrite (NE e eq_refl) in H; destruct H]. destruct (NW f0 eq_refl _ _ _ H) as (-> & -> & X1 & X2). exists obj. split; [|auto]. rewrite put_same, EI. apply in_or_app. right. now left.
      + destruct (E c m f H) as (o & X1 & X2). exists o. split; [now apply GROW|exact X2].
  Qed.

  Definition grows (ls ls' : nat -> link) : Prop := forall n, (exists x, l_in (ls' n) = l_in (ls n) ++ x) /\ incl (l_iss (ls n)) (l_iss (ls' n)).
  Lemma grows_refl ls : grows ls ls.
  Proof. intros n. split; [exists []; now rewrite app_nil_r|apply incl_refl]. Qed.
  Lemma grows_trans a b c : grows a b -> grows b c -> grows a c.
  Proof. intros X Y n. destruct (X n) as [(x & E) I1], (Y n) as [(y & F) I2]. split; [exists (x ++ y); rewrite F, E; now rewrite app_assoc|eapply incl_tran; eassumption]. Qed.
  Lemma grows_put n ev ls : grows ls (put n (happens ev (ls n)) ls).
  Proof.
    intros m. destruct (Nat.eq_dec m n) as [->|N]; [rewrite put_same|rewrite put_other by assumption; split; [exists []; now rewrite app_nil_r|apply incl_refl]].
    split; [|destruct ev; cbn [Stack.happens l_iss]; try apply incl_refl; destruct (fst _); [apply incl_appl|]; apply incl_refl].
    cbn [Stack.happens l_in]. destruct ev; try (exists []; now rewrite app_nil_r). destruct (Connection.c_closed _); [exists []; now rewrite app_nil_r|eauto].
  Qed.
  Definition closing_known (Y : pstack) : Prop := forall b cn, dget (k_conns (p_cluster (y_prod Y))) b = Some cn -> cc_closing cn = true -> Connection.c_closing (l_conn (y_link Y (cc_id cn))) = true.
  Notation send_produce := (send_produce C compression depth neg_read).

  Lemma send_ok wr rq W lo hi Y : yinv W lo (y_link Y) (y_wait Y) -> lo < pq_corr rq <= hi -> closing_known Y -> let Y' := send_produce wr Y rq in
    y_prod Y' = y_prod Y /\ yinv (W ++ filter (is_open (p_cluster (y_prod Y))) [rq]) hi (y_link Y') (y_wait Y') /\ closing_known Y' /\ grows (y_link Y) (y_link Y') /\ exists new, y_wait Y' = new ++ y_wait Y.
  Proof.
    intros I L K. cbv zeta.
    assert (SAME : y_prod Y = y_prod Y /\ yinv (W ++ filter (is_open (p_cluster (y_prod Y))) [rq]) hi (y_link Y) (y_wait Y) /\ closing_known Y /\ grows (y_link Y) (y_link Y) /\ exists new, y_wait Y = new ++ y_wait Y).
    { split; [reflexivity|]. split; [|split; [exact K|]; split; [apply grows_refl|exists []; reflexivity]]. eapply yinv_more; [eexists; reflexivity| |apply incl_refl|exact I]. lia. }
    unfold ProducerStack.send_produce. destruct (dget (k_conns (p_cluster (y_prod Y))) (pq_leader rq)) as [cn|] eqn:D; [|exact SAME]. destruct (produce_object C compression rq) as [obj|e] eqn:PO; [|exact SAME].
    destruct (object_facts _ _ PO) as (OA & OC & OW). set (n := cc_id cn) in *. destruct (fst (Connection.conn_send obj (wr (pq_leader rq)) (l_conn (y_link Y n)))) as [f|e] eqn:FS; [|exact SAME]. cbn [y_prod y_link y_wait].
    split; [reflexivity|]. split; [|split; [|split; [apply grows_put|exists [(pq_corr rq, (n, f))]; reflexivity]]].
    - change ((pq_corr rq, (n, f)) :: y_wait Y) with ([(pq_corr rq, (n, f))] ++ y_wait Y). eapply yinv_send; [exact I|lia| | | | |].
      + intros w PW. rewrite OW in PW. destruct (wire_frame _ _ PW) as (payload & -> & FI). exists "produce"%string, 0, payload. rewrite OC. split; [cbn; tauto|]. auto.
      + intros f0 F0 c m f' [X|[]]. injection X as <- <- <-. rewrite FS in F0. injection F0 as <-. auto.
      + intros e FE. congruence.
      + eexists. reflexivity.
      + intros w CC PW. right. rewrite OW in PW. destruct (wire_frame _ _ PW) as (payload & -> & FI). split; [eapply frame_number; cbn; left; reflexivity|]. exists rq. split; [|auto]. cbn [filter]. unfold is_open. rewrite D. destruct (cc_closing cn) eqn:CN; [|reflexivity].
        pose proof (K _ _ D CN) as X. fold n in X. congruence.
    - intros b cn' D' CN'. specialize (K b cn' D' CN'). destruct (Nat.eq_dec (cc_id cn') n) as [E|N]; cbn [y_link]; [rewrite E in *; rewrite put_same; now apply (happens_send obj (wr (pq_leader rq)) (y_link Y n))|now rewrite put_other].
  Qed.
  Lemma sends_ok wr rqs : forall W lo hi Y, yinv W lo (y_link Y) (y_wait Y) -> climbs lo rqs hi -> closing_known Y -> let Y' := fold_left (send_produce wr) rqs Y in
    y_prod Y' = y_prod Y /\ yinv (W ++ filter (is_open (p_cluster (y_prod Y))) rqs) hi (y_link Y') (y_wait Y') /\ grows (y_link Y) (y_link Y') /\ exists new, y_wait Y' = new ++ y_wait Y.
  Proof.
    induction rqs as [|rq rqs IH]; intros W lo hi Y I L K; cbv zeta.
    - cbn [fold_left filter]. split; [reflexivity|]. split; [eapply yinv_more; [eexists; reflexivity|exact L|apply incl_refl|exact I]|]. split; [apply grows_refl|exists []; reflexivity].
    - cbn [fold_left]. destruct L as [L1 L2]. destruct (send_ok wr rq W lo (pq_corr rq) Y I) as (P & I' & K' & G & new & EW); [lia|exact K|]. destruct (IH _ _ hi _ I' L2 K') as (P2 & I2 & G2 & new2 & EW2).
      split; [congruence|]. split; [|split; [eapply grows_trans; eassumption|exists (new2 ++ new); rewrite EW2, EW; now rewrite app_assoc]]. rewrite P in I2. rewrite <- app_assoc, <- filter_app in I2. exact I2.
  Qed.

  (** ** the whole machine *)
  Notation pstep := (pstep batch_size acks timeout (compress_raises C compression) (serialize_raises C compression)).
  Notation prun := (prun batch_size acks timeout (compress_raises C compression) (serialize_raises C compression)).
  Notation ystep := (ystep C compression batch_size acks timeout depth neg_read).
  Notation yrun := (yrun C compression batch_size acks timeout depth neg_read).
  Notation pevents := (pevents C compression batch_size acks timeout depth neg_read).
  Definition told (Y : pstack) : Prop := forall m code, In (m, Some code) (p_settled (y_prod Y)) -> exists n f obj raw resp t p,
    In (f, obj) (l_iss (y_link Y n)) /\ Connection.rq_api obj = "produce"%string /\ In (Connection.rq_corr obj, raw) (frames n) /\ read_produced C depth raw = Some (Ok resp) /\ code_for resp t p = Some code /\
    forall rq, In rq (p_wire (y_prod Y)) -> pq_corr rq = Connection.rq_corr obj -> In m (carried [rq] t p).
  Definition hearing (ls : nat -> link) : Prop := forall n, exists more, frames_bytes (frames n) = l_in (ls n) ++ more.
  Record whole (Y : pstack) : Prop := {
    wh_p : pinv (y_prod Y);
    wh_s : sent_wire (y_prod Y);
    wh_y : yinv (p_wire (y_prod Y)) (p_corr (y_prod Y)) (y_link Y) (y_wait Y);
    wh_t : hearing (y_link Y) -> told Y }.
  Lemma hearing_less ls ls' : grows ls ls' -> hearing ls' -> hearing ls.
  Proof. intros G H n. destruct (G n) as [(x & E) _], (H n) as (more & F). exists (x ++ more). rewrite F, E. now rewrite <- app_assoc. Qed.
  Lemma told_more Y Y' : told Y -> (forall n, link_ok n (y_link Y n) (p_corr (y_prod Y))) -> p_settled (y_prod Y') = p_settled (y_prod Y) -> grows (y_link Y) (y_link Y') ->
    (forall rq, In rq (p_wire (y_prod Y')) -> In rq (p_wire (y_prod Y)) \/ p_corr (y_prod Y) < pq_corr rq) -> told Y'.
  Proof.
    intros T LK ES G W m code H. rewrite ES in H. destruct (T m code H) as (n & f & obj & raw & resp & t & p & A1 & A2 & A3 & A4 & A5 & A6). exists n, f, obj, raw, resp, t, p. split; [now apply (G n)|]. repeat (split; [assumption|]).
    intros rq HW E. destruct (W rq HW) as [X|X]; [auto|]. apply (lk_ids _ _ _ _ _ _ (LK n)) in A1. lia.
  Qed.
  Lemma climbs_in lo rqs hi rq : climbs lo rqs hi -> In rq rqs -> lo < pq_corr rq.
  Proof. revert lo; induction rqs as [|x rqs IH]; intros lo H X; [destruct X|]. destruct H as [A B]. destruct X as [->|X]; [exact A|]. specialize (IH _ B X). lia. Qed.

  Definition plain_call (ev : pevent) : bool := match ev with EvResponse _ _ | EvFail _ _ | EvCorr => false | _ => true end.
  Lemma ystep_call ev wr Y : plain_call ev = true -> ystep Y (YCall ev wr) =
    let s1 := prod_flags Y in let s2 := pstep s1 ev in
    match awaited C compression batch_size acks timeout s1 ev with
    | [] => PStack s2 (y_link (fold_left (send_produce wr) (skipn (length (p_wire s1)) (p_wire s2)) (PStack s2 (y_link Y) (y_wait Y)))) (y_wait Y)
    | rqs => fold_left (send_produce wr) rqs (PStack s2 (y_link Y) (y_wait Y))
    end.
  Proof. destruct ev; cbn [plain_call]; try discriminate; reflexivity. Qed.
  Lemma flags_closing Y b cn : dget (k_conns (flags (y_link Y) (p_cluster (y_prod Y)))) b = Some cn -> cc_closing cn = true -> Connection.c_closing (l_conn (y_link Y (cc_id cn))) = true.
  Proof. intros D CC. apply dget_In in D. cbn [flags k_conns] in D. apply in_map_iff in D as ([b' c'] & E & _). injection E as <- <-. cbn [cc_id cc_closing] in *. exact CC. Qed.

  Lemma call_ok ev wr Y : plain_call ev = true -> whole Y -> let Y' := ystep Y (YCall ev wr) in
    y_prod Y' = pstep (prod_flags Y) ev /\ whole Y' /\ grows (y_link Y) (y_link Y').
  Proof.
    intros PC [P S I T]. cbv zeta. rewrite ystep_call by exact PC. cbv zeta. set (s1 := prod_flags Y).
    assert (P1 : pinv s1) by exact (pstep_inv batch_size acks timeout (compress_raises C compression) (serialize_raises C compression) (y_prod Y) (EvCluster _) P).
    assert (S1 : sent_wire s1) by exact S. destruct (step_sends_some batch_size acks timeout (compress_raises C compression) (serialize_raises C compression) s1 ev P1) as (sends & W & CL & KC & ES).
    assert (P2 := pstep_inv batch_size acks timeout (compress_raises C compression) (serialize_raises C compression) s1 ev P1).
    assert (S2 := pstep_sent_wire batch_size acks timeout (compress_raises C compression) (serialize_raises C compression) s1 ev P1 S1).
    assert (ST : p_settled (pstep s1 ev) = p_settled (y_prod Y)).
    { change (p_settled (y_prod Y)) with (p_settled s1). apply pstep_settled; [exact P1|]. intros c resp ->. discriminate PC. }
    set (s2 := pstep s1 ev) in *. set (Y1 := PStack s2 (y_link Y) (y_wait Y)).
    assert (F : y_prod (fold_left (send_produce wr) sends Y1) = s2 /\ yinv (p_wire s2) (p_corr s2) (y_link (fold_left (send_produce wr) sends Y1)) (y_wait (fold_left (send_produce wr) sends Y1)) /\ grows (y_link Y) (y_link (fold_left (send_produce wr) sends Y1)) /\ exists new, y_wait (fold_left (send_produce wr) sends Y1) = new ++ y_wait Y).
    { destruct KC as [->|KC].
      - cbn [fold_left]. split; [reflexivity|]. split; [|split; [apply grows_refl|exists []; reflexivity]]. cbn [Y1 y_link y_wait]. eapply yinv_more; [rewrite W; eexists; reflexivity| |apply incl_refl|exact I]. apply climbs_le in CL. exact CL.
      - destruct (sends_ok wr sends (p_wire (y_prod Y)) (p_corr (y_prod Y)) (p_corr s2) Y1) as (A1 & A2 & A3 & A4); [exact I|exact CL| |].
        + intros b cn D CC. cbn [Y1 y_prod y_link] in *. fold s2 in KC. rewrite KC in D. eapply flags_closing; eassumption.
        + split; [exact A1|]. split; [|auto]. fold s2 in W. rewrite W. fold s2 in KC. rewrite <- (is_open_conns _ _ KC). exact A2. }
    destruct F as (A1 & A2 & A3 & new & A4).
    assert (OLD : forall rq, In rq (p_wire s2) -> In rq (p_wire (y_prod Y)) \/ p_corr (y_prod Y) < pq_corr rq).
    { intros rq H. fold s2 in W. rewrite W in H. apply in_app_iff in H as [H|H]; [now left|]. right. apply filter_In in H as [H _]. exact (climbs_in _ _ _ _ CL H). }
    assert (R : forall Y', y_prod Y' = s2 -> y_link Y' = y_link (fold_left (send_produce wr) sends Y1) -> incl (y_wait Y') (y_wait (fold_left (send_produce wr) sends Y1)) -> y_prod Y' = s2 /\ whole Y' /\ grows (y_link Y) (y_link Y')).
    { intros Y' E1 E2 E3. split; [exact E1|]. split; [|rewrite E2; exact A3]. constructor; rewrite ?E1, ?E2; [exact P2|exact S2|eapply yinv_more; [exists []; now rewrite app_nil_r|apply Z.le_refl|exact E3|exact A2]|].
      intros H. eapply told_more; [apply T; eapply hearing_less; eassumption|apply I|rewrite E1; exact ST|rewrite E2; exact A3|rewrite E1; exact OLD]. }
    unfold awaited. fold s2 in ES. destruct (match ev with EvProduce _ _ _ => _ | _ => _ end) as [|x rqs] in ES |- *.
    - rewrite <- ES. apply R; [reflexivity|reflexivity|]. cbn [y_wait]. rewrite A4. apply incl_appr, incl_refl.
    - subst sends. apply R; [exact A1|reflexivity|apply incl_refl].
  Qed.

  Lemma answer_frame Y c resp : whole Y -> hearing (y_link Y) -> answer_to Y c = Some (Ok resp) -> exists n f obj raw, In (f, obj) (l_iss (y_link Y n)) /\ Connection.rq_api obj = "produce"%string /\ Connection.rq_corr obj = c /\ In (c, raw) (frames n) /\ read_produced C depth raw = Some (Ok resp).
  Proof.
    intros [P S I T] H A. unfold answer_to in A. destruct (find (fun w => fst w =? c) (y_wait Y)) as [[c' [n f]]|] eqn:FW; [|discriminate A]. apply find_some in FW as [FW EC]. cbn [fst] in EC. apply Z.eqb_eq in EC. subst c'.
    destruct (find _ (Connection.c_done (l_conn (y_link Y n)))) as [[f' o]|] eqn:FD; [|discriminate A]. apply find_some in FD as [FD EF]. cbn [fst] in EF. apply Nat.eqb_eq in EF. subst f'.
    destruct o as [api corr v|e]; [|discriminate A]. destruct (codes_view v) as [r'|] eqn:VR; [|discriminate A]. injection A as ->.
    destruct (yi_wait _ _ _ _ I _ _ _ FW) as (obj & IO & OA & OC). pose proof (yi_link _ _ _ _ I n) as LK. pose proof (lk_inv _ _ _ _ _ _ LK) as CI.
    pose proof (i_d2 _ _ _ _ CI) as GD. rewrite Forall_forall in GD. destruct (GD _ FD) as (obj' & IO' & CO' & AO' & _). cbn [fst] in IO'.
    assert (obj' = obj) as -> by (eapply nodup_fst_eq; [apply (i_nd _ _ _ _ CI)|exact IO'|exact IO]). destruct (lk_reads _ _ _ _ _ _ LK (H n)) as [_ FR]. rewrite Forall_forall in FR. destruct (FR _ FD) as (raw & CM & DE). pose proof (came_in _ _ _ CM) as IR. cbn [snd] in *.
    exists n, f, obj, raw. split; [exact IO|]. split; [exact OA|]. split; [exact OC|]. split; [congruence|]. apply decodes_iff in DE as (fs & DG & DS). rewrite <- AO', OA in DG. cbn in DG. injection DG as <-. unfold read_produced, look. now rewrite DS, VR.
  Qed.

  Lemma ystep_ok ev Y : whole Y -> y_prod (ystep Y ev) = prun (pevents_of Y ev) (y_prod Y) /\ whole (ystep Y ev) /\ grows (y_link Y) (y_link (ystep Y ev)).
  Proof.
    intros WH. pose proof WH as [P S I T]. assert (ID : whole Y /\ grows (y_link Y) (y_link Y)) by (split; [exact WH|apply grows_refl]).
    destruct ev as [ev wr|n ev|n topics wr|c].
    - destruct (plain_call ev) eqn:PC; [|destruct ev; try discriminate PC; cbn [ProducerStack.ystep pevents_of]; (split; [reflexivity|exact ID])].
      assert (E : pevents_of Y (YCall ev wr) = [EvCluster (flags (y_link Y) (p_cluster (y_prod Y))); ev]) by (destruct ev; try discriminate PC; reflexivity). rewrite E. destruct (call_ok ev wr Y PC WH) as (A & B & D). auto.
    - assert (H : forall ev', (forall rq wr, ev' <> Connection.EvSend rq wr) -> let Y' := PStack (y_prod Y) (put n (happens ev' (y_link Y n)) (y_link Y)) (y_wait Y) in whole Y' /\ grows (y_link Y) (y_link Y')).
      { intros ev' NS. cbv zeta. cbn [y_link]. pose proof (grows_put n ev' (y_link Y)) as G. split; [|exact G]. constructor; cbn [y_prod y_link y_wait]; [exact P|exact S|now apply yinv_event|].
        intros HR. eapply told_more with (Y := Y); [apply T; eapply hearing_less; eassumption|apply I|reflexivity|exact G|auto]. }
      destruct ev; cbn [ProducerStack.ystep pevents_of Producer.prun fold_left]; try (split; [reflexivity|]; apply H; discriminate). auto.
    - cbn [ProducerStack.ystep pevents_of]. destruct (Connection.request_of "metadata" MetadataRequest _ (p_corr (y_prod Y))) as [[obj last']|e] eqn:RO; [|split; [reflexivity|exact ID]].
      destruct (meta_facts _ _ _ _ RO) as (-> & OC & OA & OW). split; [reflexivity|]. pose proof (grows_put n (Connection.EvSend obj wr) (y_link Y)) as G. split; [|exact G].
      constructor; cbn [y_prod y_link y_wait]; [now apply pstep_inv|now apply pstep_sent_wire| |].
      + change (y_wait Y) with ([] ++ y_wait Y). cbn [Producer.pstep p_wire p_corr]. eapply yinv_send; [exact I|lia| | | | |].
        * intros w PW. destruct (OW w PW) as (payload & -> & FI). exists "metadata"%string, 3, payload. rewrite OC. split; [cbn; tauto|]. auto.
        * intros f _ c m f' [].
        * reflexivity.
        * exists []. now rewrite app_nil_r.
        * intros w CC PW. left. destruct (OW w PW) as (payload & -> & FI). split; [rewrite (frame_number 3 _ _ "metadata"%string); [reflexivity|cbn; tauto]|]. rewrite OA. discriminate.
      + intros HR. eapply told_more with (Y := Y); [apply T; eapply hearing_less; eassumption|apply I|reflexivity|exact G|auto].
    - cbn [ProducerStack.ystep pevents_of]. destruct (answer_to Y c) as [[resp|e]|] eqn:A; [| |split; [reflexivity|exact ID]]; (split; [reflexivity|]); (split; [|apply grows_refl]).
      + assert (WS : p_wire (pstep (y_prod Y) (EvResponse c resp)) = p_wire (y_prod Y) /\ p_corr (pstep (y_prod Y) (EvResponse c resp)) = p_corr (y_prod Y)).
        { cbn [Producer.pstep]. destruct (smem _ _); [|auto]. destruct (handle_produce_response c resp (Producer.answered c (y_prod Y))) as [r s2] eqn:F. apply handle_spec in F as (_ & _ & CC & _ & _ & W & _). auto. }
        destruct WS as [W1 W2]. constructor; cbn [y_prod y_link y_wait]; [now apply pstep_inv|now apply pstep_sent_wire| |].
        * rewrite W1, W2. eapply yinv_more; [exists []; now rewrite app_nil_r|apply Z.le_refl| |exact I]. intros x X. now apply filter_In in X.
        * intros HR m code X. cbn [y_prod y_link] in *. destruct (answer_frame Y c resp WH HR A) as (n & f & obj & raw & B1 & B2 & B3 & B4 & B5).
          assert (CASES : In (m, Some code) (p_settled (y_prod Y)) \/ exists t p ms, code_for resp t p = Some code /\ In (p, ms) (slook (p_sent (y_prod Y)) c t) /\ In m ms).
          { cbn [Producer.pstep] in X. destruct (smem _ _); [|now left]. destruct (handle_produce_response c resp (Producer.answered c (y_prod Y))) as [r s2] eqn:F. apply handle_shrinks in F as [_ F]; [|apply P]. apply F in X. exact X. }
          rewrite W1. destruct CASES as [CS|(t & p & ms & C1 & C2 & C3)]; [exact (T HR m code CS)|]. exists n, f, obj, raw, resp, t, p. rewrite B3. repeat (split; [assumption|]). intros rq HW E. subst c. eapply S; [exact HW|rewrite E; exact C2|exact C3].
      + assert (WS : p_wire (pstep (y_prod Y) (EvFail c e)) = p_wire (y_prod Y) /\ p_corr (pstep (y_prod Y) (EvFail c e)) = p_corr (y_prod Y)) by (cbn [Producer.pstep]; destruct (smem _ _); auto).
        destruct WS as [W1 W2]. constructor; cbn [y_prod y_link y_wait]; [now apply pstep_inv|now apply pstep_sent_wire| |].
        * rewrite W1, W2. eapply yinv_more; [exists []; now rewrite app_nil_r|apply Z.le_refl| |exact I]. intros x X. now apply filter_In in X.
        * intros HR. eapply told_more with (Y := Y); [now apply T|apply I|apply pstep_settled; [exact P|discriminate]|apply grows_refl|cbn [y_prod]; rewrite W1; auto].
  Qed.
  Lemma yrun_ok evs : forall Y, whole Y -> y_prod (yrun evs Y) = prun (pevents evs Y) (y_prod Y) /\ whole (yrun evs Y).
  Proof.
    induction evs as [|ev evs IH]; intros Y H; [split; [reflexivity|exact H]|]. cbn [ProducerStack.yrun fold_left ProducerStack.pevents]. destruct (ystep_ok ev Y H) as (A & B & _). destruct (IH _ B) as [E F]. unfold Producer.prun. rewrite fold_left_app. split; [|exact F].
    change (y_prod (yrun evs (ystep Y ev)) = prun (pevents evs (ystep Y ev)) (prun (pevents_of Y ev) (y_prod Y))). rewrite <- A. exact E.
  Qed.
  Lemma whole_init k corr : whole (pstack_init k corr).
  Proof. constructor; cbn [pstack_init y_prod y_link y_wait producer_init p_wire p_corr]; [apply pinv_init|intros rq []|apply yinv_init|intros _ m code []]. Qed.
End Conns.
