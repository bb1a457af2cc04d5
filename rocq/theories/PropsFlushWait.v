(** Property C89: what the calls of a producer wait for.  Specification: SpecFlushWait.v. *)
From Coq Require Import ZArith String List Bool Lia.
From Verif Require Import PyBase BaseLemmas Messages Protocol Schemas Request SpecWire SpecRequest SpecCodec Cluster Producer SpecProducer ProducerProofs SpecFlow ProducerRun ProducerWire SpecProduced ProducerBytes PropsWire PropsProducer PropsFlow SpecKafka ResponseRead KafkaUnique KafkaProduced SpecBytes PropsBytes SpecConn ConnProofs ConnStream ParseErrors Stack StackProofs ProducerStack SpecProducerStack ProducerStackProofs PropsProducerStack SpecHang HangProofs SpecFlushWait ProducerHang PropsEnd PropsStack.
From Verif Require Connection.
Import ListNotations.
Open Scope Z_scope.

Section C89.
  Variable C : codec.
  Variable compression : Z.
  Variable batch_size : option Z.
  Variables acks timeout : Z.
  Variable depth : nat.
  Variable neg_read : Z -> bytes -> bytes * bytes.
  Notation ystep := (ystep C compression batch_size acks timeout depth neg_read).
  Notation yrun := (yrun C compression batch_size acks timeout depth neg_read).
  Notation pevents := (pevents C compression batch_size acks timeout depth neg_read).
  Notation awaited := (awaited C compression batch_size acks timeout).

  Lemma reached frames : (forall n, Forall frame_ok (frames n)) -> forall evs k corr, let Y := yrun evs (pstack_init k corr) in ProducerStackProofs.whole C compression depth frames Y /\ listed Y.
  Proof. intros OK evs k corr. apply run_listed; [exact OK|apply ProducerStackProofs.whole_init|reflexivity]. Qed.
  Lemma waits_once frames Y : ProducerStackProofs.whole C compression depth frames Y -> listed Y -> NoDup (map fst (y_wait Y)).
  Proof. intros W L. rewrite L. apply NoDup_rev. apply (i_opnd _ (wh_p _ _ _ _ _ W)). Qed.
  Lemma waiting_iff Y c : listed Y -> waiting Y c <-> exists nf, In (c, nf) (y_wait Y).
  Proof.
    intros L. unfold waiting. rewrite in_rev. rewrite <- L. rewrite in_map_iff. split; [intros ([c' nf] & <- & H); eauto|intros [nf H]; exists (c, nf); auto].
  Qed.
  Lemma find_wait frames Y c n f : ProducerStackProofs.whole C compression depth frames Y -> listed Y -> In (c, (n, f)) (y_wait Y) -> find (fun w => fst w =? c) (y_wait Y) = Some (c, (n, f)).
  Proof.
    intros W L H. destruct (find (fun w => fst w =? c) (y_wait Y)) as [[c' nf]|] eqn:F.
    - apply find_some in F as [F E]. cbn [fst] in E. apply Z.eqb_eq in E. subst c'. f_equal. f_equal. eapply nodup_fst_eq; [eapply waits_once; eassumption|exact F|exact H].
    - exfalso. pose proof (find_none _ _ F _ H) as X. cbn [fst] in X. now rewrite Z.eqb_refl in X.
  Qed.

  (** A flush, of flush(), close() or produce(), waits for a future of each of its requests, made by the connection the
      cluster has for the request's broker. *)
  Theorem C89_awaited : forall evs k corr ev wr rq, let Y := yrun evs (pstack_init k corr) in let Y' := ystep Y (YCall ev wr) in
    In rq (awaited (prod_flags Y) ev) -> waiting Y' (pq_corr rq) /\
    exists n f, option_map cc_id (dget (k_conns (p_cluster (y_prod Y))) (pq_leader rq)) = Some n /\ In (pq_corr rq, (n, f)) (y_wait Y').
  Proof.
    intros evs k corr ev wr rq Y Y' H. assert (PC : plain_call ev = true) by (destruct ev; try reflexivity; destruct H). destruct (reached (fun _ => []) (fun _ => Forall_nil _) evs k corr) as [W _].
    destruct (call_awaits C compression batch_size acks timeout depth neg_read (fun _ => []) (fun _ => Forall_nil _) ev wr Y PC W) as (A & _ & _ & B). split; [|now apply B]. unfold waiting. fold Y' in A. rewrite A. apply in_or_app. right. now apply in_map.
  Qed.

  (** As long as no stream is closed under its connection, none of them waits for nothing: there is a future, and either it
      has a result, with which the event loop resumes the call, or its connection is open and keeps it among the pending
      ones, under the request's id.
      Missing: a stream that is closed under its connection, see [C89_hangs_refuted], and an answer that is not going to
      be sent, see [C89_unacknowledged_refuted]. *)
  Theorem C89_waits_partial : forall evs k corr c, let Y := yrun evs (pstack_init k corr) in
    no_io_codec C -> Forall yunbroken evs -> waiting Y c ->
    exists n f, In (c, (n, f)) (y_wait Y) /\
      ((exists o, In (f, o) (Connection.c_done (l_conn (y_link Y n))) /\
          answer_to Y c = match o with Connection.Fail e => Some (Err e) | Connection.Got _ _ v => option_map Ok (codes_view v) end) \/
       (Connection.c_closing (l_conn (y_link Y n)) = false /\ dget (Connection.c_pending (l_conn (y_link Y n))) c = Some f)).
  Proof.
    intros evs k corr c Y NIO U H. destruct (reached (fun _ => []) (fun _ => Forall_nil _) evs k corr) as [W L]. fold Y in W, L.
    assert (T : forall n, tidy (l_conn (y_link Y n))) by (apply run_tidy_y; [exact NIO|exact U|intros n; apply tidy_init]).
    apply (waiting_iff Y c L) in H as [[n f] H]. exists n, f. split; [exact H|]. pose proof (wh_y _ _ _ _ _ W) as YI. destruct (yi_wait _ _ _ _ _ _ _ _ YI _ _ _ H) as (obj & IO & OA & OC).
    pose proof (lk_inv _ _ _ _ _ _ (yi_link _ _ _ _ _ _ _ _ YI n)) as CI. destruct (i_all _ _ _ _ CI _ _ IO) as [D|D].
    - left. unfold completed in D. apply in_map_iff in D as ([f' o] & E & D). cbn [fst] in E. subst f'. exists o. split; [exact D|]. unfold answer_to. rewrite (find_wait _ _ _ _ _ W L H).
      destruct (find (fun fo => Nat.eqb (fst fo) f) _) as [[f2 o2]|] eqn:FD.
      + apply find_some in FD as [FD EF]. cbn [fst] in EF. apply Nat.eqb_eq in EF. subst f2. replace o2 with o; [destruct o; reflexivity|]. eapply nodup_fst_eq; [apply (i_d1 _ _ _ _ CI)|exact D|exact FD].
      + exfalso. pose proof (find_none _ _ FD _ D) as X. cbn [fst] in X. now rewrite Nat.eqb_refl in X.
    - right. rewrite OC in D. split; [|exact D]. destruct (Connection.c_closing (l_conn (y_link Y n))) eqn:CL; [|reflexivity]. rewrite (td_pending _ (T n) CL) in D. discriminate D.
  Qed.
  (** When the event loop resumes a call with a result, the call no longer waits for it. *)
  Theorem C89_ends : forall Y c r, answer_to Y c = Some r -> ~ waiting (ystep Y (YDone c)) c.
  Proof. intros Y c r A. unfold waiting. rewrite (done_open C compression batch_size acks timeout depth neg_read c Y r A). intros H. apply filter_In in H as [_ H]. now rewrite Z.eqb_refl in H. Qed.

  (** ** refuted otherwise *)
  Lemma kept_slook Y c t p : kept_for Y c t p = getd [] (slook (p_sent (y_prod Y)) c t) p.
  Proof. unfold kept_for, slook, getd. destruct (dget (p_sent (y_prod Y)) c); [|reflexivity]. destruct (dget _ t); reflexivity. Qed.
  Lemma step_waiting frames ev Y c : (forall n, Forall frame_ok (frames n)) -> ProducerStackProofs.whole C compression depth frames Y -> listed Y -> waiting Y c -> (ev = YDone c -> answer_to Y c = None) ->
    waiting (ystep Y ev) c /\ (forall nf, In (c, nf) (y_wait Y) -> In (c, nf) (y_wait (ystep Y ev))) /\ forall t p, kept_for (ystep Y ev) c t p = kept_for Y c t p.
  Proof.
    intros OK W L H A. assert (B : c <= p_corr (y_prod Y)) by (apply (i_bound _ (wh_p _ _ _ _ _ W)), (i_open _ (wh_p _ _ _ _ _ W)), H).
    destruct (ystep_ok C compression batch_size acks timeout depth neg_read frames OK ev Y W) as (EP & W' & _).
    assert (KEEP : forall es s, pinv s -> c <= p_corr s -> Forall (fun e => forall resp, e <> EvResponse c resp) es -> forall t, slook (p_sent (prun batch_size acks timeout (compress_raises C compression) (serialize_raises C compression) es s)) c t = slook (p_sent s) c t).
    { clear. induction es as [|e es IH]; intros s I B F t; [reflexivity|]. inversion F as [|? ? F1 F2]; subst. cbn [prun fold_left]. change (fold_left _ es ?x) with (prun batch_size acks timeout (compress_raises C compression) (serialize_raises C compression) es x).
      rewrite IH; [now apply pstep_slook|now apply pstep_inv| |exact F2]. eapply Z.le_trans; [exact B|]. destruct (step_sends_some batch_size acks timeout (compress_raises C compression) (serialize_raises C compression) s e I) as (sends & _ & CL & _). now apply climbs_le in CL. }
    assert (KE : Forall (fun e => forall resp, e <> EvResponse c resp) (pevents_of Y ev) -> forall t p, kept_for (ystep Y ev) c t p = kept_for Y c t p).
    { intros F t p. rewrite !kept_slook, EP. rewrite KEEP; [reflexivity|apply (wh_p _ _ _ _ _ W)|exact B|exact F]. }
    destruct ev as [ev wr|n ev|n topics wr|c'].
    - destruct (plain_call ev) eqn:PC.
      + destruct (call_awaits C compression batch_size acks timeout depth neg_read frames OK ev wr Y PC W) as (X1 & _ & X3 & _). split; [unfold waiting; rewrite X1; apply in_or_app; now left|]. split; [intros nf HW; now apply X3|]. apply KE. destruct ev; try discriminate PC; cbn [pevents_of]; repeat constructor; discriminate.
      + destruct ev; try discriminate PC; auto.
    - destruct ev; cbn [ProducerStack.ystep y_prod y_wait]; auto.
    - assert (F : Forall (fun e => forall resp, e <> EvResponse c resp) (pevents_of Y (YMeta n topics wr))) by (cbn [pevents_of]; destruct (Connection.request_of _ _ _ _); repeat constructor; discriminate). specialize (KE F).
      split; [|split; [|exact KE]]; cbn [ProducerStack.ystep]; destruct (Connection.request_of _ _ _ _) as [[obj last']|]; auto.
    - destruct (Z.eq_dec c' c) as [->|N]; [cbn [ProducerStack.ystep]; rewrite A by reflexivity; auto|].
      assert (F : Forall (fun e => forall resp, e <> EvResponse c resp) (pevents_of Y (YDone c'))) by (cbn [pevents_of]; destruct (answer_to Y c') as [[r|e]|]; repeat constructor; congruence). specialize (KE F).
      destruct (answer_to Y c') as [r|] eqn:AN; [|cbn [ProducerStack.ystep]; rewrite AN; auto]. split; [|split; [|exact KE]].
      + unfold waiting. rewrite (done_open C compression batch_size acks timeout depth neg_read c' Y r AN). apply filter_In. split; [exact H|]. apply negb_true_iff. apply Z.eqb_neq. congruence.
      + intros nf HW. assert (E : y_wait (ystep Y (YDone c')) = filter (fun w => negb (fst w =? c')) (y_wait Y)) by (cbn [ProducerStack.ystep]; rewrite AN; destruct r; reflexivity). rewrite E. apply filter_In. split; [exact HW|]. cbn [fst]. apply negb_true_iff. apply Z.eqb_neq. congruence.
  Qed.

  (** When the broker has closed the connection of a request and the connection's reader has met that, the flush waits for
      ever, whatever happens afterwards; the request's messages are kept for it for ever, neither queued again nor given
      up. *)
  Theorem C89_hangs_refuted : forall evs k corr c n f, let Y := yrun evs (pstack_init k corr) in
    In (c, (n, f)) (y_wait Y) -> dead (l_conn (y_link Y n)) -> ~ In f (completed (l_conn (y_link Y n))) ->
    forall evs', waiting (yrun evs' Y) c /\ forall t p, kept_for (yrun evs' Y) c t p = kept_for Y c t p.
  Proof.
    intros evs k corr c n f Y H D NC evs'. destruct (reached (fun _ => []) (fun _ => Forall_nil _) evs k corr) as [W L]. fold Y in W, L.
    assert (LT : (f < Connection.c_next (l_conn (y_link Y n)))%nat).
    { destruct (yi_wait _ _ _ _ _ _ _ _ (wh_y _ _ _ _ _ W) _ _ _ H) as (obj & IO & _). eapply i_lt; [|exact IO]. apply (lk_inv _ _ _ _ _ _ (yi_link _ _ _ _ _ _ _ _ (wh_y _ _ _ _ _ W) n)). }
    clearbody Y. revert Y H D NC LT W L. induction evs' as [|ev evs' IH]; intros Y H D NC LT W L.
    - split; [apply (waiting_iff Y c L); eauto|reflexivity].
    - cbn [ProducerStack.yrun fold_left]. assert (NA : answer_to Y c = None).
      { unfold answer_to. rewrite (find_wait _ _ _ _ _ W L H). destruct (find _ _) as [[f' o]|] eqn:FD; [|reflexivity]. exfalso. apply find_some in FD as [FD EF]. cbn [fst] in EF. apply Nat.eqb_eq in EF. subst f'. apply NC. unfold completed. now apply (in_map fst) in FD. }
      destruct (step_waiting (fun _ => []) ev Y c (fun _ => Forall_nil _) W L) as (_ & HW & HK); [apply (waiting_iff Y c L); eauto|auto|].
      destruct (ystep_evolves C compression batch_size acks timeout depth neg_read ev Y n) as (es & _ & EE).
      assert (G : dead (l_conn (y_link (ystep Y ev) n)) /\ ~ In f (completed (l_conn (y_link (ystep Y ev) n))) /\ (f < Connection.c_next (l_conn (y_link (ystep Y ev) n)))%nat).
      { rewrite EE. clear - D NC LT. revert D NC LT. generalize (l_conn (y_link Y n)) as st. induction es as [|e es IH]; intros st D NC LT; [auto|]. destruct (gone_step C depth neg_read e st D) as [G' X]. apply IH; [exact G'| |pose proof (next_mono_step C depth neg_read e st); lia]. intros Z. apply NC. now apply X. }
      destruct G as (G1 & G2 & G3). destruct (IH (ystep Y ev)) as [A B]; [now apply HW|exact G1|exact G2|exact G3| | |].
      + now apply (ystep_ok C compression batch_size acks timeout depth neg_read (fun _ => []) (fun _ => Forall_nil _) ev Y W).
      + now apply (step_listed C compression batch_size acks timeout depth neg_read (fun _ => []) (fun _ => Forall_nil _)).
      + split; [exact A|]. intros t p. rewrite <- HK. apply B.
  Qed.

  (** With required_acks 0, and brokers that keep to the protocol, a flush does not end: as long as the connection is not
      given up, it waits for an answer that is not going to be sent, and so do flush(), close() and produce(). *)
  Theorem C89_unacknowledged_refuted : forall frames evs k corr c n f evs', let Y := yrun evs (pstack_init k corr) in let Y' := yrun evs' Y in
    acks = 0 -> codec_laws C -> compression = 0 \/ compression = 1 \/ compression = 2 -> Forall ymakes (evs ++ evs') ->
    phears frames Y' -> answers_wanted C frames Y' ->
    In (c, (n, f)) (y_wait Y) -> Connection.c_closing (l_conn (y_link Y' n)) = false -> waiting Y' c.
  Proof.
    intros frames evs k corr c n f evs' Y Y' A0 CL SUP MK PH AW H OPEN. pose proof (phears_ok _ _ PH) as OK. destruct (reached frames OK evs k corr) as [W L]. fold Y in W, L.
    assert (EY : Y' = yrun (evs ++ evs') (pstack_init k corr)) by (unfold Y', Y, ProducerStack.yrun; now rewrite fold_left_app).
    destruct (reached frames OK (evs ++ evs') k corr) as [W' L']. rewrite <- EY in W', L'. assert (EP : y_prod Y' = prun batch_size acks timeout (compress_raises C compression) (serialize_raises C compression) (pevents (evs ++ evs') (pstack_init k corr)) (producer_init k corr)).
    { rewrite EY. apply (yrun_ok C compression batch_size acks timeout depth neg_read frames OK (evs ++ evs') _ (ProducerStackProofs.whole_init C compression depth frames k corr)). }
    (* no frame has the id of the request *)
    assert (NF : forall m f' obj raw, In (f', obj) (l_iss (y_link Y' m)) -> Connection.rq_api obj = "produce"%string -> In (Connection.rq_corr obj, raw) (frames m) -> False).
    { intros m f' obj raw IO OA FR. assert (AR : answers_requests frames Y') by (intros n' id r X; destruct (AW n' id r X) as (api & key & payload & X1 & X2 & X3 & _); exists api, key, payload; auto).
      destruct (frame_meant C compression depth neg_read frames Y' m f' obj raw OK W' AR IO OA FR) as (rq & w & D1 & D2 & D3 & D4). destruct (AW m _ raw FR) as (api & key & payload & X1 & X2 & X3 & X4).
      pose proof (yi_link _ _ _ _ _ _ _ _ (wh_y _ _ _ _ _ W') m) as LK. unfold writes in D4, X3. rewrite (lk_all _ _ _ _ _ _ LK) in D4, X3. apply in_map_iff in D4 as ([g1 w1] & E1 & O1), X3 as ([g2 w2] & E2 & O2). cbn [snd] in E1, E2. subst w1 w2.
      destruct (lk_out _ _ _ _ _ _ LK _ _ O1) as (o1 & I1 & _ & PW1). destruct (lk_out _ _ _ _ _ _ LK _ _ O2) as (o2 & I2 & (api2 & key2 & p2 & K2 & F2 & EQ2) & PW2).
      destruct (C05_frame_readable _ _ _ _ _ _ _ _ X1 K2 X2 F2 EQ2) as (_ & _ & EC2 & _).
      destruct (wire_frame C compression depth neg_read frames OK _ _ D3) as (pl & EW & FI). 
      assert (o2 = obj) as -> by (eapply (i_id _ _ _ _ (lk_inv _ _ _ _ _ _ LK)); [exact I2|exact IO|congruence]).
      destruct (lk_out _ _ _ _ _ _ LK _ _ O1) as (o1' & I1' & (api1 & key1 & p1 & K1 & F1 & EQ1) & PW1').
      assert (EC1 : Connection.rq_corr o1' = pq_corr rq) by (rewrite EW in EQ1; destruct (C05_frame_readable "produce"%string 0 _ _ _ _ _ _ ltac:(cbn; tauto) K1 FI F1 EQ1) as (_ & _ & X & _); now symmetry).
      assert (o1' = obj) as -> by (eapply (i_id _ _ _ _ (lk_inv _ _ _ _ _ _ LK)); [exact I1'|exact IO|congruence]). rewrite PW2 in PW1'. injection PW1' as EWW.
      assert (KEY : key = 0 /\ payload = pl).
      { rewrite <- EWW, D2 in EW. destruct (C05_frame_readable _ _ _ _ _ _ _ _ X1 (or_introl eq_refl : In ("produce"%string, 0) kafka_api_numbers) X2 X2 EW) as (_ & X & _ & Z). auto. }
      destruct KEY as [-> ->]. rewrite EP in D1.
      destruct (produce_said C compression CL SUP rq w) with (2 := D3) as (pl' & d & EW' & KP & _).
      { intros t d p ms m0 Q1 Q2 Q3. eapply accepted_made; [apply (made_events C compression batch_size acks timeout depth neg_read (evs ++ evs') (pstack_init k corr) (producer_init k corr) MK)|]. eapply (C62_only_produced batch_size acks timeout).
        apply in_split in D1 as (l1 & l2 & E). rewrite E. rewrite carried_app. apply in_or_app. right. change (rq :: l2) with ([rq] ++ l2). rewrite carried_app. apply in_or_app. left. eapply carried_in_topics; eassumption. }
      assert (pl' = pl) as -> by (rewrite EW in EW'; symmetry; now apply frame_payload in EW').
      assert (AA : pq_acks rq = acks) by (eapply (run_wire_ok batch_size acks timeout (compress_raises C compression) (serialize_raises C compression)); [apply pinv_init|intros ? []|exact D1]).
      apply (X4 eq_refl _ _ _ KP). congruence. }
    assert (FC : forall m, fails_closing (l_conn (y_link Y m))) by (apply (run_keeps C compression batch_size acks timeout depth neg_read (fun _ => fails_closing)); [intros; now apply fc_step|intros m f' e []]).
    clearbody Y. clear EY EP MK W' L'. assert (HR : hearing frames (y_link Y')) by now apply (phears_hearing frames Y').
    subst Y'. revert Y H W L FC OPEN NF HR PH AW. induction evs' as [|ev evs' IH]; intros Y H W L FC OPEN NF HR PH AW; [apply (waiting_iff Y c L); eauto|].
    cbn [ProducerStack.yrun fold_left] in *. change (fold_left ystep evs' (ystep Y ev)) with (yrun evs' (ystep Y ev)) in *. destruct (ystep_ok C compression batch_size acks timeout depth neg_read frames OK ev Y W) as (_ & W1 & G1). 
    assert (G : forall es Y1, ProducerStackProofs.whole C compression depth frames Y1 -> grows (y_link Y1) (y_link (yrun es Y1))).
    { clear - OK. induction es as [|e es IH]; intros Y1 W1; [apply grows_refl|]. cbn [ProducerStack.yrun fold_left]. destruct (ystep_ok C compression batch_size acks timeout depth neg_read frames OK e Y1 W1) as (_ & W2 & G2). eapply grows_trans; [exact G2|]. now apply IH. }
    pose proof (grows_trans _ _ _ G1 (G evs' _ W1)) as GG. assert (NA : answer_to Y c = None).
    { destruct (answer_to Y c) as [[resp|e]|] eqn:AN; [| |reflexivity]; exfalso.
      - destruct (answer_frame C compression depth frames Y c resp W (hearing_less frames _ _ GG HR) AN) as (m & f' & obj & raw & B1 & B2 & B3 & B4 & _). eapply (NF m f' obj raw); [now apply (GG m)|exact B2|now rewrite B3].
      - unfold answer_to in AN. rewrite (find_wait _ _ _ _ _ W L H) in AN. destruct (find _ _) as [[f' [api corr' v|e']]|] eqn:FD; [destruct (codes_view v); discriminate AN| |discriminate AN]. apply find_some in FD as [FD _]. apply FC in FD.
        assert (CC : forall es st, Connection.c_closing st = true -> Connection.c_closing (Connection.run C depth neg_read es st) = true) by (clear; induction es as [|e es IH]; intros st X; [exact X|]; apply IH; now apply closing_mono_step).
        assert (X : forall es Y1, Connection.c_closing (l_conn (y_link Y1 n)) = true -> Connection.c_closing (l_conn (y_link (yrun es Y1) n)) = true).
        { clear - CC. induction es as [|e es IH]; intros Y1 X; [exact X|]. cbn [ProducerStack.yrun fold_left]. apply (IH (ystep Y1 e)). destruct (ystep_evolves C compression batch_size acks timeout depth neg_read e Y1 n) as (es' & _ & ->). now apply CC. }
        pose proof (X (ev :: evs') Y FD) as Z. change (yrun (ev :: evs') Y) with (yrun evs' (ystep Y ev)) in Z. congruence. }
    destruct (step_waiting frames ev Y c OK W L) as (_ & HW & _); [apply (waiting_iff Y c L); eauto|auto|].
    apply IH; [now apply HW|exact W1|now apply (step_listed C compression batch_size acks timeout depth neg_read frames OK)| |exact OPEN|exact NF|exact HR|exact PH|exact AW].
    intros m. destruct (ystep_evolves C compression batch_size acks timeout depth neg_read ev Y m) as (es & _ & ->). generalize (FC m). generalize (l_conn (y_link Y m)). clear. induction es as [|e es IH]; intros st F; [exact F|]. apply IH. now apply fc_step.
  Qed.
End C89.

(** The hypotheses hold of runs: a message is produced and flushed, and the answer is pending; then the connection is
    given up, and an exception is handed to the call. *)
Notation fw_run acks := (yrun demo_codec 0 (Some 10) acks 500 1 st_neg).
Definition fw_open : list yevent := [YConn 0%nat Connection.EvConnected; YConn 0%nat Connection.EvRead; YCall (send_ [txt "one"]) st_none; YCall (EvFlush parity) st_none].
Definition fw_lost : list yevent := fw_open ++ [YConn 0%nat (Connection.EvAbort None)].
Definition fw_gone : list yevent := fw_open ++ [YConn 0%nat Connection.EvRemoteClose; YConn 0%nat Connection.EvRead; YConn 0%nat Connection.EvRead].
Lemma fw_unbroken evs : evs = fw_open \/ evs = fw_lost -> Forall yunbroken evs.
Proof. intros [-> | ->]; repeat constructor; cbn; discriminate. Qed.
Example C89_example : no_io_codec demo_codec /\
  (forall evs, evs = fw_open \/ evs = fw_lost -> Forall yunbroken evs /\ waiting (fw_run 1 evs (pstack_init demo_cluster 41)) 42 /\ y_wait (fw_run 1 evs (pstack_init demo_cluster 41)) = [(42, (0%nat, 0%nat))]) /\
  map pq_corr (awaited demo_codec 0 (Some 10) 1 500 (prod_flags (fw_run 1 (firstn 3 fw_open) (pstack_init demo_cluster 41))) (EvFlush parity)) = [42] /\
  answer_to (fw_run 1 fw_open (pstack_init demo_cluster 41)) 42 = None /\
  answer_to (fw_run 1 fw_lost (pstack_init demo_cluster 41)) 42 = Some (Err EBrokerConn).
Proof.
  split; [unfold no_io_codec; cbn; repeat split; intros; try discriminate; congruence|]. split; [|split; [|split]; vm_compute; reflexivity].
  intros evs E. split; [now apply fw_unbroken|]. unfold waiting. destruct E as [-> | ->]; split; vm_compute; auto.
Qed.

(** it is reached: the broker closes the connection while flush() waits *)
Theorem C89_hangs_reached_refuted : exists evs c, let Y := fw_run 1 evs (pstack_init demo_cluster 41) in
  kept_for Y c tp_a 0 <> [] /\ forall evs', waiting (fw_run 1 evs' Y) c /\ forall t p, kept_for (fw_run 1 evs' Y) c t p = kept_for Y c t p.
Proof.
  exists fw_gone, 42. cbv zeta. split; [vm_compute; discriminate|]. apply (C89_hangs_refuted demo_codec 0 (Some 10) 1 500 1 st_neg fw_gone demo_cluster 41 42 0%nat 0%nat).
  - vm_compute. auto.
  - split; [vm_compute; reflexivity|left; vm_compute; reflexivity].
  - vm_compute. intros [].
Qed.
(** and so is the other: with required_acks 0 nothing is going to arrive *)
Lemma fw_quiet Y : phears (fun _ => []) Y <-> forall n, l_in (y_link Y n) = [].
Proof.
  split; intros H n; [destruct (H n) as [_ (more & E)]; destruct (l_in (y_link Y n)); [reflexivity|discriminate E]|]. split; [constructor|]. exists []. now rewrite (H n).
Qed.
Theorem C89_unacknowledged_reached_refuted : exists evs n, let Y := fw_run 0 evs (pstack_init demo_cluster 41) in
  length (writes Y n) = 1%nat /\ waiting Y 42 /\ Forall ymakes evs /\ phears (fun _ => []) Y /\ answers_wanted demo_codec (fun _ => []) Y /\ Connection.c_closing (l_conn (y_link Y n)) = false /\
  forall evs', Forall ymakes evs' -> let Y' := fw_run 0 evs' Y in phears (fun _ => []) Y' -> Connection.c_closing (l_conn (y_link Y' n)) = false -> waiting Y' 42.
Proof.
  exists fw_open, 0%nat. cbv zeta. split; [vm_compute; reflexivity|]. split; [vm_compute; auto|]. assert (M : Forall ymakes fw_open) by (unfold fw_open, send_; repeat (constructor; [first [exact I|cbn [ymakes]; do 2 eexists; split; [reflexivity|split; exact I]]|]); constructor).
  split; [exact M|]. split; [apply fw_quiet; intros [|n]; vm_compute; reflexivity|]. split; [intros n id raw []|]. split; [vm_compute; reflexivity|]. intros evs' M' PH OP.
  pose proof (C89_unacknowledged_refuted demo_codec 0 (Some 10) 0 500 1 st_neg (fun _ => []) fw_open demo_cluster 41 42 0%nat 0%nat evs') as X. cbv zeta in X.
  specialize (X eq_refl demo_codec_laws (or_introl eq_refl)).
  specialize (X (proj2 (Forall_app _ _ _) (conj M M'))).
  specialize (X PH).
  specialize (X ltac:(intros n id raw [])).
  specialize (X ltac:(vm_compute; auto)).
  specialize (X OP).
  exact X.
Qed.
Print Assumptions C89_awaited.
Print Assumptions C89_waits_partial.
Print Assumptions C89_ends.
Print Assumptions C89_hangs_refuted.
Print Assumptions C89_hangs_reached_refuted.
Print Assumptions C89_unacknowledged_refuted.
Print Assumptions C89_unacknowledged_reached_refuted.
