(** Property C80: producing over connections.  Specification: SpecProducerStack.v. *)
From Coq Require Import ZArith String List Bool Lia Permutation.
From Verif Require Import PyBase BaseLemmas Utf8 Primitives Messages Protocol Schemas Request SpecWire SpecRequest SpecCodec Constants Cluster Producer SpecProducer ProducerProofs SpecFlow ProducerRun ProducerWire SpecProduced ProducerBytes PropsWire PropsProducer PropsFlow Json SpecJson SpecEnd PropsEnd SpecKafka ResponseRead KafkaProofs PropsKafka KafkaUnique KafkaProduced SpecBytes PropsBytes PropsStack SpecConn ConnProofs ConnStream Stack StackProofs ProducerStack SpecProducerStack ProducerStackProofs.
From Verif Require Connection.
Import ListNotations.
Open Scope Z_scope.

Section C80.
  Variable C : codec.
  Variable compression : Z.
  Variable batch_size : option Z.
  Variables acks timeout : Z.
  Variable depth : nat.
  Variable neg_read : Z -> bytes -> bytes * bytes.
  Notation prun := (prun batch_size acks timeout (compress_raises C compression) (serialize_raises C compression)).
  Notation yrun := (yrun C compression batch_size acks timeout depth neg_read).
  Notation pevents := (pevents C compression batch_size acks timeout depth neg_read).
  Notation accepted := (accepted batch_size acks timeout (compress_raises C compression) (serialize_raises C compression)).
  Notation each_event := (each_event batch_size acks timeout (compress_raises C compression) (serialize_raises C compression)).
  Notation steady := SpecFlow.steady.

  Lemma made_events evs : forall Y s, Forall ymakes evs -> each_event makes (pevents evs Y) s.
  Proof.
    assert (APP : forall a b s, (forall s', each_event makes a s') -> (forall s', each_event makes b s') -> each_event makes (a ++ b) s).
    { intros a b s HA HB. specialize (HA s). revert s HA. induction a as [|x a IH]; intros s HA; [apply HB|]. cbn [app SpecFlow.each_event] in *. destruct HA as [H1 H2]. split; [exact H1|]. now apply IH. }
    induction evs as [|ev evs IH]; intros Y s H; [exact I|]. inversion H as [|? ? H1 H2]; subst. cbn [ProducerStack.pevents]. apply APP; [|intros s'; now apply IH].
    intros s'. destruct ev as [ev wr|n ev|n topics wr|c]; cbn [pevents_of].
    - destruct ev as [part t [m|e]|part t [m|e]|part|part|c r|c e| |k|]; cbn; auto.
    - exact I.
    - destruct (Connection.request_of _ _ _ _); cbn; auto.
    - destruct (answer_to Y c) as [[r|e]|]; cbn; auto.
  Qed.
  Lemma phears_ok frames Y : phears frames Y -> forall n, Forall frame_ok (frames n).
  Proof. intros H n. apply H. Qed.
  Lemma phears_hearing frames Y : phears frames Y -> hearing frames (y_link Y).
  Proof. intros H n. apply H. Qed.
  Lemma writes_out frames Y n : whole C compression depth frames Y -> exists l, in_order l (p_wire (y_prod Y)) /\ Forall2 (fun rq w => produce_wire C compression rq = Ok w) l (filter produce_frame (writes Y n)).
  Proof.
    intros [_ _ I _]. destruct (yi_out _ _ _ _ _ _ _ _ I n) as (l & IO & F). exists l. split; [exact IO|]. unfold writes. rewrite (lk_all _ _ _ _ _ _ (yi_link _ _ _ _ _ _ _ _ I n)). clear IO. revert l F. induction (l_out (y_link Y n)) as [|[f w] out IH]; intros l F; cbn [map filter snd] in *; [inversion F; constructor|].
    destruct (produce_frame w); [|now apply IH]. inversion F as [|? ? ? ? [H1 _] H2]; subst. constructor; [exact H1|now apply IH].
  Qed.
  (** the request a frame with the id of a produce request answers *)
  Lemma frame_meant frames Y n f obj raw : (forall m, Forall frame_ok (frames m)) -> whole C compression depth frames Y -> answers_requests frames Y -> In (f, obj) (l_iss (y_link Y n)) -> Connection.rq_api obj = "produce"%string -> In (Connection.rq_corr obj, raw) (frames n) ->
    exists rq w, In rq (p_wire (y_prod Y)) /\ pq_corr rq = Connection.rq_corr obj /\ produce_wire C compression rq = Ok w /\ In w (writes Y n).
  Proof.
    intros OK [_ _ I _] A IO OA FR. destruct (A n _ raw FR) as (api & key & payload & IK & FI & W). pose proof (yi_link _ _ _ _ _ _ _ _ I n) as LK. unfold writes in W |- *. rewrite (lk_all _ _ _ _ _ _ LK) in W |- *. apply in_map_iff in W as ([f' w] & EW & HO). cbn [snd] in EW. subst w.
    destruct (lk_out _ _ _ _ _ _ LK _ _ HO) as (obj' & IO' & (api' & key' & p' & IK' & FI' & EQ) & _). destruct (C05_frame_readable _ _ _ _ _ _ _ _ IK IK' FI FI' EQ) as (_ & _ & EC & _).
    assert (obj' = obj) as -> by (eapply (i_id _ _ _ _ (lk_inv _ _ _ _ _ _ LK)); [exact IO'|exact IO|congruence]).
     destruct (yi_out _ _ _ _ _ _ _ _ I n) as (l & INO & F). destruct (produce_frame (request_frame key (Connection.rq_corr obj) payload)) eqn:PF; [|exfalso; exact (yi_meta _ _ _ _ _ _ _ _ I n f' _ obj HO IO' PF OA)].
    assert (HF : In (f', request_frame key (Connection.rq_corr obj) payload) (filter (fun fw => produce_frame (snd fw)) (l_out (y_link Y n)))) by (apply filter_In; auto).
    apply in_split in HF as (o1 & o2 & EF). rewrite EF in F. apply Forall2_app_inv_r in F as (l1 & l2 & F1 & F2 & ->). inversion F2 as [|rq ? l2' ? (PW & obj2 & PO & IO2) F3]; subst. cbn [fst snd] in *.
    exists rq, (request_frame key (Connection.rq_corr obj) payload). split; [eapply in_order_in; [exact INO|]; apply in_or_app; right; now left|]. split; [|split; [exact PW|apply in_map_iff; exists (f', request_frame key (Connection.rq_corr obj) payload); auto]].
    assert (obj2 = obj) as -> by (eapply nodup_fst_eq; [apply (i_nd _ _ _ _ (lk_inv _ _ _ _ _ _ LK))|exact IO2|exact IO']). destruct (object_facts C compression depth neg_read frames OK _ _ PO) as (_ & E & _). now symmetry.
  Qed.

  (** An answer handed to the producer for a request is what the connection on which the request's bytes were written
      received under its id. *)
  Theorem C80_own_answer : forall frames evs k corr c resp, let Y := yrun evs (pstack_init k corr) in
    phears frames Y -> answers_requests frames Y -> answer_to Y c = Some (Ok resp) ->
    exists n rq w raw, In rq (p_wire (y_prod Y)) /\ pq_corr rq = c /\ produce_wire C compression rq = Ok w /\ In w (writes Y n) /\
      In (c, raw) (frames n) /\ read_produced C depth raw = Some (Ok resp).
  Proof.
    intros frames evs k corr c resp Y H A AN. destruct (yrun_ok C compression batch_size acks timeout depth neg_read frames (phears_ok _ _ H) evs _ (whole_init C compression depth frames k corr)) as [_ WH]. fold Y in WH.
    destruct (answer_frame C compression depth frames Y c resp WH (phears_hearing _ _ H) AN) as (n & f & obj & raw & B1 & B2 & B3 & B4 & B5). subst c.
    destruct (frame_meant frames Y n f obj raw (phears_ok _ _ H) WH A B1 B2 B4) as (rq & w & D1 & D2 & D3 & D4). exists n, rq, w, raw. repeat (split; [assumption|]). assumption.
  Qed.

  (** The producer is done with a message and takes it to have an error code only if a broker to which the bytes of a
      request with that message went said so about the message's topic and partition. *)
  Theorem C80_told : forall frames evs k corr, let Y := yrun evs (pstack_init k corr) in
    phears frames Y -> answers_requests frames Y -> forall m code, In (m, Some code) (p_settled (y_prod Y)) ->
    exists n rq w raw resp t p, In rq (p_wire (y_prod Y)) /\ produce_wire C compression rq = Ok w /\ In w (writes Y n) /\
      In (pq_corr rq, raw) (frames n) /\ read_produced C depth raw = Some (Ok resp) /\ code_for resp t p = Some code /\
      In m (carried [rq] t p) /\ nth_error (accepted (pevents evs (pstack_init k corr)) (producer_init k corr)) (pm_id m) = Some (t, pm_msg m).
  Proof.
    intros frames evs k corr Y H A m code HM. destruct (yrun_ok C compression batch_size acks timeout depth neg_read frames (phears_ok _ _ H) evs _ (whole_init C compression depth frames k corr)) as [E WH]. fold Y in E, WH.
    destruct (wh_t _ _ _ _ _ WH (phears_hearing _ _ H) m code HM) as (n & f & obj & raw & resp & t & p & B1 & B2 & B3 & B4 & B5 & B6).
    destruct (frame_meant frames Y n f obj raw (phears_ok _ _ H) WH A B1 B2 B3) as (rq & w & D1 & D2 & D3 & D4). exists n, rq, w, raw, resp, t, p. rewrite D2. specialize (B6 rq D1 D2). repeat (split; [assumption|]).
    eapply written_accepted. cbn [pstack_init y_prod] in E. rewrite <- E. apply in_split in D1 as (l1 & l2 & ->). rewrite carried_app. apply in_or_app. right. change (rq :: l2) with ([rq] ++ l2). rewrite carried_app. apply in_or_app. left. exact B6.
  Qed.

  (** What a truthful broker reported without an error is in the log of a partition of its topic. *)
  Theorem C80_stored : forall frames klog evs k corr, let Y := yrun evs (pstack_init k corr) in
    codec_laws C -> compression = 0 \/ compression = 1 \/ compression = 2 -> Forall ymakes evs ->
    phears frames Y -> answers_requests frames Y -> tells_truth C klog frames Y ->
    forall m, In (m, Some 0) (p_settled (y_prod Y)) ->
    exists t p o km, nth_error (accepted (pevents evs (pstack_init k corr)) (producer_init k corr)) (pm_id m) = Some (t, pm_msg m) /\ In (o, km) (klog t p) /\ msg_reads (pm_msg m) (kw_read km).
  Proof.
    intros frames klog evs k corr Y CL SUP MK H A TT m HM. destruct (yrun_ok C compression batch_size acks timeout depth neg_read frames (phears_ok _ _ H) evs _ (whole_init C compression depth frames k corr)) as [E WH]. fold Y in E, WH. cbn [pstack_init y_prod] in E.
    destruct (C80_told frames evs k corr H A m 0 HM) as (n & rq & w & raw & resp & t & p & D1 & D2 & D3 & D4 & D5 & D6 & D7 & D8). fold Y in D1.
    pose proof (made_events evs (pstack_init k corr) (producer_init k corr) MK) as ME. rewrite E in D1.
    destruct (C75_written C compression batch_size acks timeout _ k corr rq w CL SUP ME D1 D2) as [(d & KR) KD]. destruct (KD d KR) as [_ KF]. specialize (KF t p).
    destruct KR as (c' & a' & tm' & payload & EW & KP). destruct (wire_frame C compression depth neg_read frames (phears_ok _ _ H) _ _ D2) as (payload' & EW' & FI). assert (payload' = payload) as -> by (rewrite EW in EW'; now apply frame_payload in EW').
    destruct (TT n (pq_corr rq) raw payload a' tm' d D4) as (r & KRR & ST); [rewrite <- EW'; exact D3|exact KP|]. rewrite (C73_produced C depth raw r KRR) in D5. injection D5 as <-.
    unfold code_for in D6. destruct (dget r t) as [ps|] eqn:G1; [|discriminate D6]. apply dget_In in G1, D6. destruct (ST t ps p G1 D6) as (a & b & EL).
    apply in_split in D7 as (q1 & q2 & EQ). rewrite EQ in KF. apply Forall2_app_inv_l in KF as (k1 & k2 & _ & K2 & EK). inversion K2 as [|? km ? ? MR _]; subst.
    assert (IK : In km (map snd (klog t p))) by (rewrite EL, EK; apply in_or_app; right; apply in_or_app; left; apply in_or_app; right; now left). apply in_map_iff in IK as ([o km'] & E' & IK). cbn [snd] in E'. subst km'. exists t, p, o, km. split; [exact D8|]. split; [exact IK|exact MR].
  Qed.

  (** Nothing gets lost without a trace: if the brokers' answers are answers to what they received, and true, then a
      message produce() has accepted is still queued, or in a request not answered, or was in a flush that raised, or a
      broker reported an error for it (or left it out of its answer), or it is in the log of a partition of its topic,
      with the key and value it was produced with. *)
  Theorem C80_kept : forall frames klog evs k corr, let Y := yrun evs (pstack_init k corr) in let s := y_prod Y in
    codec_laws C -> compression = 0 \/ compression = 1 \/ compression = 2 -> Forall ymakes evs ->
    phears frames Y -> answers_requests frames Y -> tells_truth C klog frames Y ->
    forall i t x, nth_error (accepted (pevents evs (pstack_init k corr)) (producer_init k corr)) i = Some (t, x) ->
    (exists m, pm_id m = i /\ (In m (queued s) \/ In m (in_flight s) \/ In m (p_lost s) \/ exists code, In (m, code) (p_settled s) /\ code <> Some 0)) \/
    exists p o km, In (o, km) (klog t p) /\ msg_reads x (kw_read km).
  Proof.
    intros frames klog evs k corr Y s CL SUP MK H A TT i t x HI. destruct (yrun_ok C compression batch_size acks timeout depth neg_read frames (phears_ok _ _ H) evs _ (whole_init C compression depth frames k corr)) as [E WH]. fold Y in E, WH. cbn [pstack_init y_prod] in E.
    destruct (run_known batch_size acks timeout (compress_raises C compression) (serialize_raises C compression) (pevents evs (pstack_init k corr)) [] _ (pinv_init k corr) (known_init k corr)) as [KL _]. rewrite app_nil_l, <- E in KL.
    pose proof (i_acc _ (wh_p _ _ _ _ _ WH)) as AC. unfold accounted in AC.
    assert (HS : In i (seq 0 (p_next (y_prod Y)))) by (apply in_seq; rewrite <- KL; split; [lia|]; cbn; apply nth_error_Some; congruence).
    apply (Permutation_in _ (Permutation_sym AC)) in HS. apply in_map_iff in HS as (m & EM & HM). rewrite !in_app_iff in HM.
    destruct HM as [HM|[HM|[HM|HM]]]; [left; exists m; auto|left; exists m; auto| |left; exists m; auto]. unfold settled_msgs in HM. apply in_map_iff in HM as ([m' code] & EM' & HM). cbn [fst] in EM'. subst m'.
    assert (DC : code = Some 0 \/ code <> Some 0) by (destruct code as [z|]; [destruct (Z.eq_dec z 0) as [->|N]; [now left|right; congruence]|right; discriminate]). destruct DC as [->|NC]; [|left; exists m; split; [exact EM|]; right; right; right; exists code; auto].
    right. destruct (C80_stored frames klog evs k corr CL SUP MK H A TT m HM) as (t' & p & o & km & N & IK & MR). rewrite EM, HI in N. injection N as <- ->. eauto.
  Qed.

  (** Whatever a broker reads off a connection was produced: the messages of the produce requests written on a
      connection, as Kafka reads them, are messages produce() accepted for the topic.  When nothing has to be sent again
      they are, for each partition, in the order in which they were produced. *)
  Theorem C80_received : forall evs k corr n ds, let Y := yrun evs (pstack_init k corr) in let acc := accepted (pevents evs (pstack_init k corr)) (producer_init k corr) in
    codec_laws C -> compression = 0 \/ compression = 1 \/ compression = 2 -> Forall ymakes evs ->
    (exists ds, Forall2 (kreceives C) (filter produce_frame (writes Y n)) ds) /\
    (Forall2 (kreceives C) (filter produce_frame (writes Y n)) ds -> forall t p, exists xs, Forall2 (fun x km => msg_reads x (kw_read km)) xs (flat_map (kcarried t p) ds) /\
      (forall x, In x xs -> In (t, x) acc) /\ (each_event steady (pevents evs (pstack_init k corr)) (producer_init k corr) -> in_order xs (for_topic t acc))).
  Proof.
    intros evs k corr n ds Y acc CL SUP MK. assert (OK : forall m, Forall frame_ok ((fun _ : nat => @nil (Z * bytes)) m)) by (intros m; constructor).
    destruct (yrun_ok C compression batch_size acks timeout depth neg_read (fun _ => []) OK evs _ (whole_init C compression depth (fun _ => []) k corr)) as [E WH]. fold Y in E, WH. cbn [pstack_init y_prod] in E.
    destruct (writes_out _ Y n WH) as (l & IO & F). pose proof (made_events evs (pstack_init k corr) (producer_init k corr) MK) as ME.
    assert (W : forall rq w, In rq l -> produce_wire C compression rq = Ok w -> (exists d, kreceives C w d) /\ forall d, kreceives C w d -> forall t p, Forall2 (fun m km => msg_reads (pm_msg m) (kw_read km)) (carried [rq] t p) (kcarried t p d)).
    { intros rq w HR PW. apply (in_order_in _ _ _ IO) in HR. rewrite E in HR. destruct (C75_written C compression batch_size acks timeout _ k corr rq w CL SUP ME HR PW) as [X Z]. split; [exact X|]. intros d KD. apply (Z d KD). }
    split.
    - clear IO. induction F as [|rq w l ws PW F IH]; [exists []; constructor|]. destruct IH as (ds' & IH); [intros; apply W; [now right|assumption]|]. destruct (W rq w (or_introl eq_refl) PW) as [(d & KD) _]. exists (d :: ds'). now constructor.
    - intros R t p. exists (map pm_msg (carried l t p)). split; [|split].
      + clear IO. revert ds R. induction F as [|rq w l ws PW F IH]; intros ds R; inversion R as [|? d ? ds' K1 K2]; subst; [constructor|]. cbn [flat_map]. change (rq :: l) with ([rq] ++ l). rewrite carried_app, map_app. apply Forall2_app; [|apply IH; [intros; apply W; [now right|assumption]|exact K2]].
        destruct (W rq w (or_introl eq_refl) PW) as [_ KD]. specialize (KD d K1 t p). clear -KD. induction KD; cbn [map]; constructor; assumption.
      + intros x Hx. apply in_map_iff in Hx as (m & <- & Hm). eapply (C62_only_produced batch_size acks timeout). unfold acc. rewrite <- E. eapply in_order_in; [|exact Hm]. unfold carried. apply in_order_flat. exact IO.
      + intros ST. eapply in_order_trans; [|apply (C62_in_order batch_size acks timeout _ _ _ k corr t p ST)]. rewrite <- E. apply in_order_map. unfold carried. apply in_order_flat. exact IO.
  Qed.
End C80.

(** An example.  Three messages are produced and flushed; the broker keeps those for partition 0 and reports for
    partition 1 that it is not its leader.  The cluster asks for metadata, a fourth message is produced, and the next
    flush sends it together with the message that was refused; its answer and the metadata arrive in two pieces. *)
Definition ys_run := yrun demo_codec 1 (Some 10) 1 500 1 st_neg.
Definition ys_events := pevents demo_codec 1 (Some 10) 1 500 1 st_neg.
Definition eb_produced (r : list (text * list (Z * Z))) : bytes :=
  eb_arr (fun tp => eb_str (fst tp) ++ eb_arr (fun p => big_endian 4 (fst p) ++ big_endian 2 (snd p) ++ big_endian 8 77) (snd tp)) r.
Definition ys_said1 : list (text * list (Z * Z)) := [(tp_a, [(0, 0); (1, 6)])].
Definition ys_said2 : list (text * list (Z * Z)) := [(tp_a, [(1, 0)])].
Definition ys_frames (n : nat) : list (Z * bytes) :=
  match n with O => [(42, eb_produced ys_said1); (43, big_endian 4 0 ++ big_endian 4 0); (44, eb_produced ys_said2)] | _ => [] end.
Definition ys_req2 : list (text * list (Z * list (Z * kmsg))) := [(tp_a, [(1, [(-1, jm [txt "two"; txt "2"]); (-1, jm [[8364; 34]])])])].
Definition ys_log (t : text) (p : Z) : list (Z * kmsg) := if eqb t tp_a then kend_log p else [].
Definition ys_reads : list yevent := repeat (YConn 0%nat Connection.EvRead) 8.
Definition ys_last : bytes := frames_bytes (skipn 1 (ys_frames 0)).
Definition ys_evs : list yevent :=
  [YConn 0%nat Connection.EvConnected] ++ map (fun l => YCall (send_ l) st_none) (firstn 3 words) ++ [YCall (EvFlush parity) st_none; YConn 0%nat (Connection.EvData (frames_bytes (firstn 1 (ys_frames 0))))] ++ ys_reads ++ [YDone 42] ++
  [YMeta 0%nat [tp_a] None] ++ map (fun l => YCall (send_ l) st_none) (skipn 3 words) ++ [YCall (EvFlush parity) st_none; YConn 0%nat (Connection.EvData (firstn 30 ys_last))] ++ ys_reads ++ [YConn 0%nat (Connection.EvData (skipn 30 ys_last))] ++ ys_reads ++ [YDone 44].
Definition ys_end : pstack := ys_run ys_evs (pstack_init demo_cluster 41).
Lemma ys_said_ok r : (r = ys_said1 \/ r = ys_said2) -> kw_produced r (eb_produced r).
Proof.
  intros H. assert (R : exists ps, r = [(tp_a, ps)] /\ (ps = [(0, 0); (1, 6)] \/ ps = [(1, 0)])) by (destruct H as [-> | ->]; eexists; (split; [reflexivity|auto])). destruct R as (ps & -> & HP).
  apply arr_ok; [|vm_compute; reflexivity]. intros tp [<-|[]]. eexists. eexists. split; [exists [97]; split; [vm_compute; reflexivity|]; split; [vm_compute; reflexivity|reflexivity]|]. split; [|reflexivity].
  apply arr_ok; [|destruct HP as [-> | ->]; vm_compute; reflexivity]. intros p IN. cbn [fst snd] in IN |- *. exists (big_endian 4 (fst p)), (big_endian 2 (snd p)), 77, (big_endian 8 77).
  assert (X : p = (0, 0) \/ p = (1, 6) \/ p = (1, 0)) by (destruct HP as [-> | ->]; cbn [In] in IN; intuition). repeat (split; [split; [destruct X as [-> | [-> | ->]]; vm_compute; split; congruence|reflexivity]|]). reflexivity.
Qed.
Definition ys_meta : bytes := big_endian 4 1 ++ eb_str tp_a.
Lemma ys_writes : writes ys_end 0 = [request_frame 0 42 (eb_produce 1 500 1 (nth 0 kreqs [])); request_frame 3 43 ys_meta; request_frame 0 44 (eb_produce 1 500 1 ys_req2)].
Proof. vm_compute. reflexivity. Qed.
Lemma ys_id id : 0 <= id < 100 -> SpecWire.fits 32 id.
Proof. intros H. split; [apply Z.le_trans with 0; [vm_compute; discriminate|apply H]|apply Z.lt_trans with 100; [apply H|vm_compute; reflexivity]]. Qed.
Lemma ys_same key id id' p p' : In key [0; 3] -> 0 <= id < 100 -> 0 <= id' < 100 -> request_frame 0 id p = request_frame key id' p' -> key = 0 /\ id = id' /\ p = p'.
Proof.
  intros K H H' E. assert (K' : exists api, In (api, key) kafka_api_numbers) by (destruct K as [<-|[<-|[]]]; [exists "produce"%string|exists "metadata"%string]; cbn; intuition). destruct K' as (api & K').
  destruct (C05_frame_readable "produce"%string 0 id p api key id' p') as (E1 & E2 & E3 & E4); [cbn; intuition|exact K'|now apply ys_id|now apply ys_id|exact E|]. auto.
Qed.
Lemma ys_truth : tells_truth demo_codec ys_log ys_frames ys_end.
Proof.
  intros [|n] id raw payload acks timeout d HF HW KP; [|destruct HF]. rewrite ys_writes in HW. cbn [ys_frames In] in HF.
  assert (ID : 0 <= id < 100) by (destruct HF as [E|[E|[E|[]]]]; injection E as <- _; split; vm_compute; congruence).
  assert (R : forall payload id', (request_frame 0 id' (eb_produce 1 500 1 (nth 0 kreqs [])) = request_frame 0 id payload \/ request_frame 0 id' (eb_produce 1 500 1 ys_req2) = request_frame 0 id payload) -> 0 <= id' < 100 -> id = id').
  { intros p' id' [E|E] HI; symmetry in E; apply ys_same in E; try assumption; try (now left); apply E. }
  destruct HW as [E|[E|[E|[]]]].
  - assert (id = 42) as -> by (eapply R; [left; exact E|split; vm_compute; congruence]). symmetry in E. apply ys_same in E as (_ & _ & ->); [|now left|split; vm_compute; congruence|split; vm_compute; congruence].
    assert (raw = eb_produced ys_said1) as -> by (destruct HF as [X|[X|[X|[]]]]; [injection X as <-; reflexivity|discriminate X|discriminate X]).
    destruct (produce_unique _ _ _ _ _ _ _ _ _ KP (okp_ok 1 500 1 (nth 0 kreqs []) ltac:(vm_compute; reflexivity))) as (_ & _ & ->).
    exists ys_said1. split; [apply ys_said_ok; now left|]. intros t ps p [X|[]] HP. injection X as <- <-. destruct HP as [Y|[Y|[]]]; [injection Y as <-|discriminate Y]. exists [], []. vm_compute. reflexivity.
  - exfalso. symmetry in E. apply ys_same in E as (K & _); [discriminate K|right; now left|exact ID|split; vm_compute; congruence].
  - assert (id = 44) as -> by (eapply R; [right; exact E|split; vm_compute; congruence]). symmetry in E. apply ys_same in E as (_ & _ & ->); [|now left|split; vm_compute; congruence|split; vm_compute; congruence].
    assert (raw = eb_produced ys_said2) as -> by (destruct HF as [X|[X|[X|[]]]]; [discriminate X|discriminate X|injection X as <-; reflexivity]).
    destruct (produce_unique _ _ _ _ _ _ _ _ _ KP (okp_ok 1 500 1 ys_req2 ltac:(vm_compute; reflexivity))) as (_ & _ & ->).
    exists ys_said2. split; [apply ys_said_ok; now right|]. intros t ps p [X|[]] HP. injection X as <- <-. destruct HP as [Y|[]]; injection Y as <-. exists [], []. vm_compute. reflexivity.
Qed.
Example C80_example : phears ys_frames ys_end /\ answers_requests ys_frames ys_end /\ tells_truth demo_codec ys_log ys_frames ys_end /\ Forall ymakes ys_evs /\
  map (fun mc => (pm_id (fst mc), snd mc)) (p_settled (y_prod ys_end)) = [(0%nat, Some 0); (2%nat, Some 0); (1%nat, Some 0); (3%nat, Some 0)] /\ map produce_frame (writes ys_end 0) = [true; false; true] /\
  map (fun tm => (fst tm, m_value (snd tm))) (SpecFlow.accepted (Some 10) 1 500 (compress_raises demo_codec 1) (serialize_raises demo_codec 1) (ys_events ys_evs (pstack_init demo_cluster 41)) demo_start) = map (fun l => (tp_a, json_ser l)) words /\
  (* when the first answer is still to come *)
  answer_to (ys_run (firstn 14 ys_evs) (pstack_init demo_cluster 41)) 42 = Some (Ok ys_said1).
Proof.
  split; [|split; [|split; [exact ys_truth|split; [|split; [|split; [|split]]]]]].
  - intros [|n]; cbn [ys_frames]; [|split; [constructor|exists []; vm_compute; reflexivity]]. split; [|exists []; vm_compute; reflexivity]. repeat constructor; vm_compute; try reflexivity; try (split; congruence); try congruence.
  - intros [|n] id raw H; [|destruct H]. rewrite ys_writes. cbn [ys_frames In] in H. destruct H as [E|[E|[E|[]]]]; injection E as <- _.
    + exists "produce"%string, 0. eexists. split; [cbn; intuition|]. split; [vm_compute; split; congruence|now left].
    + exists "metadata"%string, 3. eexists. split; [cbn; intuition|]. split; [vm_compute; split; congruence|right; now left].
    + exists "produce"%string, 0. eexists. split; [cbn; intuition|]. split; [vm_compute; split; congruence|right; right; now left].
  - unfold ys_evs, ys_reads, send_. cbn [app map firstn skipn words repeat]. repeat (constructor; [first [exact I|cbn [ymakes]; do 2 eexists; split; [reflexivity|split; exact I]]|]). constructor.
  - vm_compute. reflexivity.
  - vm_compute. reflexivity.
  - vm_compute. reflexivity.
  - vm_compute. reflexivity.
Qed.

Print Assumptions C80_own_answer.
Print Assumptions C80_told.
Print Assumptions C80_stored.
Print Assumptions C80_kept.
Print Assumptions C80_received.
