(** Proofs about what the calls of a producer wait for. *)
From Coq Require Import ZArith String List Bool Lia.
From Verif Require Import PyBase BaseLemmas Messages Protocol Request Schemas SpecWire Cluster ClusterProofs Producer SpecProducer ProducerProofs SpecFlow ProducerOrder ProducerRun ProducerWire SpecKafka SpecConn ConnProofs ConnStream SpecRequest ParseErrors SpecBytes ResponseRead Stack StackWire StackProofs ProducerStack SpecProducerStack ProducerStackProofs SpecHang HangProofs SpecFlushWait.
From Verif Require Connection.
Import ListNotations.
Open Scope Z_scope.

(** ** one connection: an exception is set only when it is closing *)
Section Fails.
  Import Connection.
  Variable C : codec.
  Variable depth : nat.
  Variable neg_read : Z -> bytes -> bytes * bytes.
  Definition fails_closing (st : conn) : Prop := forall f e, In (f, Fail e) (c_done st) -> c_closing st = true.
  Lemma fc_same st st' : c_closing st' = c_closing st -> c_done st' = c_done st -> fails_closing st -> fails_closing st'.
  Proof. intros A B F f e. rewrite A, B. apply F. Qed.
  Lemma fc_closing st : c_closing st = true -> fails_closing st.
  Proof. intros A f e _. exact A. Qed.
  Lemma fc_abort exc st : fails_closing st -> fails_closing (conn_abort exc st).
  Proof. intros F. unfold conn_abort. destruct (c_closing st) eqn:CL; [exact F|]. now apply fc_closing. Qed.
  Lemma fc_error e st : fails_closing st -> fails_closing (on_error e st).
  Proof. intros F. destruct e; try (now apply fc_abort). now apply fc_closing. Qed.
  Lemma fc_send rq wr st : fails_closing st -> fails_closing (snd (conn_send rq wr st)).
  Proof.
    intros F. unfold conn_send. destruct (c_closing st) eqn:CL; [now apply fc_closing|]. destruct (p <- rq_payload rq;; framed p) as [bs|e]; [|exact F].
    set (st1 := Conn _ _ (dset (c_pending st) _ _) _ _ _ _ _ (c_written st)). assert (F' : fails_closing st1) by (eapply fc_same; [| |exact F]; [cbn; now rewrite CL|reflexivity]).
    destruct (c_closed st); [now apply fc_error|]. destruct wr as [e|]; cbn [snd]; [now apply fc_error|]. eapply fc_same; [| |exact F']; reflexivity.
  Qed.
  Lemma fc_with_read n st k : fails_closing st -> (forall b st', fails_closing st' -> fails_closing (k b st')) -> fails_closing (with_read neg_read n st k).
  Proof.
    intros T K. unfold with_read, read_bytes. destruct (n <? 0).
    - destruct (neg_read n (c_inbuf st)) as [b r]. apply K. eapply fc_same; [| |exact T]; reflexivity.
    - destruct (n <=? zlen (c_inbuf st)); [apply K; eapply fc_same; [| |exact T]; reflexivity|]. destruct (c_closed st) eqn:CD; [|exact T]. eapply fc_same; [| |exact T]; reflexivity.
  Qed.
  Lemma fc_read st : fails_closing st -> fails_closing (read_step C depth neg_read st).
  Proof.
    intros T. assert (PH : forall st p, fails_closing st -> fails_closing (set_phase st p)) by (intros s p F; eapply fc_same; [| |exact F]; reflexivity).
    unfold read_step. destruct (c_phase st) eqn:P; try exact T; auto.
    - apply fc_with_read; auto.
    - apply fc_with_read; auto.
    - apply fc_with_read; [exact T|]. clear T P st. intros raw st T. destruct (dget (c_api st) corr) as [api|]; [|auto].
      set (st2 := Conn _ _ _ _ _ _ _ _ _). assert (T2 : fails_closing st2) by (eapply fc_same; [| |exact T]; reflexivity). destruct (dget response_classes api) as [fs|]; [|auto]. destruct (Protocol.deserialize C depth (TPart fs) raw); auto.
    - destruct (dget (c_pending st) corr) as [f|] eqn:PD.
      + intros f' e H. cbn [c_done c_closing] in *. apply in_app_iff in H as [H|[H|[]]]; [exact (T _ _ H)|discriminate H].
      + apply PH. now apply fc_error.
    - apply PH. now apply fc_error.
  Qed.
  Lemma fc_step ev st : fails_closing st -> fails_closing (step C depth neg_read ev st).
  Proof.
    intros T. destruct ev; cbn [step]; try (solve [now apply fc_send|now apply fc_error|now apply fc_read|now apply fc_abort]).
    all: try (destruct (c_phase st) eqn:P; try exact T); try (destruct (c_closed st) eqn:CD; try exact T); try (eapply fc_same; [| |exact T]; reflexivity); try (now apply fc_closing).
  Qed.
End Fails.

(** ** what a flush awaits *)
Section Awaits.
  Variable batch_size : option Z.
  Variables acks timeout : Z.
  Variable compress_fails : list pmsg -> option exn.
  Variable serialize_fails : prequest -> option exn.
  Notation flush := (flush acks timeout compress_fails serialize_fails).
  Notation pstep := (pstep batch_size acks timeout compress_fails serialize_fails).
  Definition all_compress (b : batch) : Prop := forall t d p ms, In (t, d) b -> In (p, ms) d -> compress_fails ms = None.
  Lemma build_partitions_ok c t parts : forall acc sent r sent', build_partitions compress_fails c t parts acc sent = (Ok r, sent') -> (forall p ms, In (p, ms) acc -> compress_fails ms = None) -> forall p ms, In (p, ms) r -> compress_fails ms = None.
  Proof.
    induction parts as [|[p0 ms0] parts IH]; intros acc sent r sent' H A; cbn [build_partitions] in H; [injection H as <- _; exact A|]. destruct (compress_fails ms0) eqn:CF; [discriminate H|]. eapply IH; [exact H|].
    intros p ms X. apply in_app_iff in X as [X|[X|[]]]; [eauto|]. now injection X as _ <-.
  Qed.
  Lemma build_topics_ok c topics : forall acc sent r sent', build_topics compress_fails c topics acc sent = (Ok r, sent') -> all_compress acc -> all_compress r.
  Proof.
    induction topics as [|[t0 parts] topics IH]; intros acc sent r sent' H A; cbn [build_topics] in H; [injection H as <- _; exact A|]. destruct (build_partitions compress_fails c t0 parts [] sent) as [[ps|e] s1] eqn:BP; [|discriminate H].
    eapply IH; [exact H|]. intros t d p ms X Y. apply in_app_iff in X as [X|[X|[]]]; [eapply A; eassumption|]. injection X as _ <-. eapply build_partitions_ok; [exact BP|intros ? ? []|exact Y].
  Qed.
  Lemma build_requests_ok o : forall corr acc sent rqs corr' sent', build_requests acks timeout compress_fails o corr acc sent = (Ok rqs, corr', sent') -> (forall rq, In rq acc -> all_compress (pq_topics rq)) -> forall rq, In rq rqs -> all_compress (pq_topics rq).
  Proof.
    induction o as [|[leader topics] o IH]; intros corr acc sent rqs corr' sent' H A; cbn [build_requests] in H; [injection H as <- _ _; exact A|]. destruct (build_topics compress_fails (corr + 1) topics [] sent) as [[ts|e] s1] eqn:BT; [|discriminate H].
    eapply IH; [exact H|]. intros rq X. apply in_app_iff in X as [X|[X|[]]]; [auto|]. subst rq. cbn [pq_topics]. eapply build_topics_ok; [exact BT|intros ? ? ? ? []].
  Qed.
  Definition sendable (k : cluster) (rq : prequest) : Prop := exists cn, dget (k_conns k) (pq_leader rq) = Some cn /\ (cc_closing cn = true \/ serialize_fails rq = None).
  Lemma write_all_ok rqs k : forall wire u wire', write_all serialize_fails rqs k wire = (Ok u, wire') -> forall rq, In rq rqs -> sendable k rq.
  Proof.
    induction rqs as [|x rqs IH]; intros wire u wire' H rq HI; [destruct HI|]. cbn [write_all] in H. destruct (dget (k_conns k) (pq_leader x)) as [cn|] eqn:D; [|discriminate H].
    destruct (cc_closing cn) eqn:CC.
    - destruct HI as [->|HI]; [exists cn; auto|eapply IH; eassumption].
    - destruct (serialize_fails x) eqn:SF; [discriminate H|]. destruct HI as [->|HI]; [exists cn; auto|eapply IH; eassumption].
  Qed.
  Lemma sendable_conns k k' rq : k_conns k' = k_conns k -> sendable k' rq -> sendable k rq.
  Proof. unfold sendable. now intros ->. Qed.
  Lemma flush_awaits part s rqs s' : flush part s = (Ok rqs, s') -> forall rq, In rq rqs -> sendable (p_cluster s) rq /\ all_compress (pq_topics rq).
  Proof.
    intros H. unfold Producer.flush in H. destruct (p_unsent s) as [|u0 us] eqn:EU; [injection H as <- _; intros rq []|]. rewrite <- EU in H. clear u0 us EU.
    destruct (order_topics part (drain_items (p_unsent s)) [] [] (p_cluster s)) as [[r1 rest] k1] eqn:EO. pose proof (order_topics_conns _ _ _ _ _ _ _ _ EO) as KC. destruct r1 as [[o retry]|e]; [|discriminate H].
    cbn [with_cluster with_unsent p_unsent p_sent p_corr p_heal p_closing p_cluster p_next p_open p_wire p_settled p_lost] in H.
    destruct (build_requests acks timeout compress_fails o (p_corr s) [] (p_sent s)) as [[r2 corr] sent] eqn:EB. destruct r2 as [rqs'|e]; [|discriminate H].
    match type of H with context [write_all _ _ (p_cluster ?x)] => set (s3 := x) in * end.
    destruct (retries_spec retry (Prod (rev rest) sent (p_heal s) (p_closing s) k1 corr (p_next s) (p_open s) (p_wire s) (p_settled s) (p_lost s))) as (_ & _ & _ & B4 & _). change (p_cluster s3 = k1) in B4. clearbody s3.
    destruct (write_all serialize_fails rqs' (p_cluster s3) (p_wire s3)) as [[u|e] wire] eqn:EW; [|discriminate H]. injection H as <- _. intros rq HI. split.
    - eapply sendable_conns; [exact KC|]. rewrite <- B4. eapply write_all_ok; eassumption.
    - eapply build_requests_ok; [exact EB|intros ? []|exact HI].
  Qed.

  Notation awaited s ev := (match ev with
    | EvProduce part t mk => match fst (produce batch_size acks timeout compress_fails serialize_fails part t mk s) with Flushing rqs => rqs | _ => [] end
    | EvResume part t mk => match fst (produce_resume batch_size acks timeout compress_fails serialize_fails part t mk s) with Flushing rqs => rqs | _ => [] end
    | EvFlush part => match fst (flush part s) with Ok rqs => rqs | Err _ => [] end
    | EvClose part => match fst (close_begin acks timeout compress_fails serialize_fails part s) with Ok rqs => rqs | Err _ => [] end
    | _ => []
    end).
  Lemma flush_open part s : pinv s -> p_open (snd (flush part s)) = p_open s ++ map pq_corr (match fst (flush part s) with Ok rqs => rqs | Err _ => [] end).
  Proof.
    intros I. destruct (flush part s) as [[rqs|e] s'] eqn:F; cbn [fst snd].
    - destruct (flush_spec _ _ _ _ _ _ _ _ F I) as (_ & _ & _ & _ & _ & _ & _ & _ & _ & A & _). exact A.
    - rewrite app_nil_r. unfold Producer.flush in F. destruct (p_unsent s) as [|u0 us] eqn:EU; [discriminate F|]. rewrite <- EU in F. clear u0 us EU.
      destruct (order_topics part (drain_items (p_unsent s)) [] [] (p_cluster s)) as [[r1 rest] k1] eqn:EO. destruct r1 as [[o retry]|e']; [|injection F as _ <-; reflexivity].
      cbn [with_cluster with_unsent p_unsent p_sent p_corr p_heal p_closing p_cluster p_next p_open p_wire p_settled p_lost] in F.
      destruct (build_requests acks timeout compress_fails o (p_corr s) [] (p_sent s)) as [[r2 corr] sent] eqn:EB. destruct r2 as [rqs'|e']; [|injection F as _ <-; reflexivity].
      match type of F with context [write_all _ _ (p_cluster ?x)] => set (s3 := x) in * end.
      destruct (retries_spec retry (Prod (rev rest) sent (p_heal s) (p_closing s) k1 corr (p_next s) (p_open s) (p_wire s) (p_settled s) (p_lost s))) as (_ & _ & _ & _ & _ & _ & B7 & _). change (p_open s3 = p_open s) in B7. clearbody s3.
      destruct (write_all serialize_fails rqs' (p_cluster s3) (p_wire s3)) as [[u|e'] wire] eqn:EW; [discriminate F|]. injection F as _ <-. exact B7.
  Qed.
  Lemma resume_open part t mk s : pinv s -> let x := produce_resume batch_size acks timeout compress_fails serialize_fails part t mk s in
    p_open (snd x) = p_open s ++ map pq_corr (match fst x with Flushing rqs => rqs | _ => [] end) /\
    forall rq, In rq (match fst x with Flushing rqs => rqs | _ => [] end) -> sendable (p_cluster s) rq /\ all_compress (pq_topics rq).
  Proof.
    intros I. cbv zeta. unfold Producer.produce_resume. assert (NO : forall s2, p_open s2 = p_open s -> p_open s2 = p_open s ++ [] /\ forall rq : prequest, In rq [] -> sendable (p_cluster s) rq /\ all_compress (pq_topics rq)) by (intros s2 ->; rewrite app_nil_r; split; [reflexivity|intros rq []]).
    destruct (negb _); [now apply NO|]. destruct (enqueue t mk s) as [r s1] eqn:E. destruct (enqueue_spec _ _ _ _ _ E I) as (I1 & S1 & _ & _ & K1 & C1 & O1 & W1 & _). destruct r; [|now apply NO]. destruct (flush_due batch_size s1); [|now apply NO].
    pose proof (flush_open part s1 I1) as FO. pose proof (flush_awaits part s1) as FA. destruct (flush part s1) as [[rqs|e] s2]; cbn [fst snd] in *; [|now apply NO; rewrite FO, app_nil_r].
    rewrite FO, O1. split; [reflexivity|]. intros rq HI. rewrite <- K1. eapply FA; [reflexivity|exact HI].
  Qed.
  Lemma call_open s ev : pinv s -> plain_call ev = true -> p_open (pstep s ev) = p_open s ++ map pq_corr (awaited s ev) /\
    forall rq, In rq (awaited s ev) -> sendable (p_cluster s) rq /\ all_compress (pq_topics rq).
  Proof.
    intros I PC. destruct ev as [part t mk|part t mk|part|part|c r|c e| |k|]; try discriminate PC; cbn [Producer.pstep]; try (rewrite app_nil_r; split; [reflexivity|intros rq []]).
    - unfold Producer.produce. destruct (p_closing s); [cbn; rewrite app_nil_r; split; [reflexivity|intros rq []]|]. destruct (negb _); [cbn; rewrite app_nil_r; split; [reflexivity|intros rq []]|]. now apply resume_open.
    - now apply resume_open.
    - split; [now apply flush_open|]. intros rq HI. destruct (flush part s) as [[rqs|e] s2] eqn:F; [|destruct HI]. eapply flush_awaits; eassumption.
    - unfold close_begin. match goal with |- context [Producer.flush _ _ _ _ _ ?x] => set (s0 := x) end. assert (I0 : pinv s0) by (destruct I; constructor; assumption). split; [exact (flush_open part s0 I0)|].
      intros rq HI. change (p_cluster s) with (p_cluster s0). destruct (flush part s0) as [[rqs|e] s2] eqn:F; [|destruct HI]. eapply flush_awaits; eassumption.
  Qed.
  Lemma pstep_slook s ev c t : pinv s -> c <= p_corr s -> (forall resp, ev <> EvResponse c resp) -> slook (p_sent (pstep s ev)) c t = slook (p_sent s) c t.
  Proof.
    intros I L NE. assert (FL : forall part s0, pinv s0 -> p_sent s0 = p_sent s -> p_corr s0 = p_corr s -> slook (p_sent (snd (flush part s0))) c t = slook (p_sent s) c t).
    { intros part s0 I0 E1 E2. destruct (flush part s0) as [r s2] eqn:F. apply flush_spec in F as (_ & _ & _ & _ & _ & X & _); [|exact I0]. cbn [snd]. rewrite X, E1 by lia. reflexivity. }
    assert (RE : forall part t' mk, slook (p_sent (snd (produce_resume batch_size acks timeout compress_fails serialize_fails part t' mk s))) c t = slook (p_sent s) c t).
    { intros part t' mk. unfold Producer.produce_resume. destruct (negb _); [reflexivity|]. destruct (enqueue t' mk s) as [r s1] eqn:E. destruct (enqueue_spec _ _ _ _ _ E I) as (I1 & S1 & _ & _ & _ & C1 & _).
      destruct r; [|cbn [snd]; now rewrite S1]. destruct (flush_due batch_size s1); [|cbn [snd]; now rewrite S1]. specialize (FL part s1 I1 S1 C1). destruct (flush part s1) as [[r2|e] s2]; exact FL. }
    destruct ev as [part t' mk|part t' mk|part|part|c' r|c' e| |k|]; cbn [Producer.pstep]; try reflexivity.
    - unfold produce. destruct (p_closing s); [reflexivity|]. destruct (negb _); [reflexivity|]. apply RE.
    - apply RE.
    - now apply FL.
    - unfold close_begin. apply FL; try reflexivity. destruct I; constructor; assumption.
    - destruct (smem (p_open s) c'); [|reflexivity]. destruct (handle_produce_response c' r (answered c' s)) as [r2 s2] eqn:F. apply handle_spec in F as (_ & _ & _ & _ & _ & _ & _ & _ & _ & X & _). cbn [snd]. unfold slook, getd. rewrite X; [reflexivity|]. intros ->. now apply (NE r).
    - destruct (smem (p_open s) c'); reflexivity.
  Qed.
End Awaits.

(** ** the producer on its connections *)
Section Conns.
  Variable C : codec.
  Variable compression : Z.
  Variable batch_size : option Z.
  Variables acks timeout : Z.
  Variable depth : nat.
  Variable neg_read : Z -> bytes -> bytes * bytes.
  Variable frames : nat -> list (Z * bytes).
  Variable OK : forall n, Forall frame_ok (frames n).
  Notation CF := (compress_raises C compression).
  Notation SF := (serialize_raises C compression).
  Notation happens := (happens C depth neg_read).
  Notation send_produce := (send_produce C compression depth neg_read).
  Notation pstep := (pstep batch_size acks timeout CF SF).
  Notation prun := (prun batch_size acks timeout CF SF).
  Notation ystep := (ystep C compression batch_size acks timeout depth neg_read).
  Notation yrun := (yrun C compression batch_size acks timeout depth neg_read).
  Notation awaited := (awaited C compression batch_size acks timeout).
  Notation whole := (ProducerStackProofs.whole C compression depth frames).
  Notation crun_ := (Connection.run C depth neg_read).

  Lemma map_res_some {A B} (f : A -> res B) l : (forall x, In x l -> exists y, f x = Ok y) -> exists ys, map_res f l = Ok ys.
  Proof.
    induction l as [|x l IH]; intros H; [eexists; reflexivity|]. destruct (H x (or_introl eq_refl)) as [y E], IH as [ys E']; [intros; apply H; now right|]. exists (y :: ys). cbn [map_res]. rewrite E. cbn [bind]. rewrite E'. reflexivity.
  Qed.
  Lemma object_made rq : all_compress CF (pq_topics rq) -> exists obj, produce_object C compression rq = Ok obj.
  Proof.
    intros A. unfold produce_object, produce_kwargs. destruct (map_res_some (topic_object C compression) (pq_topics rq)) as [ts ->].
    - intros [t d] H. unfold topic_object. cbn [fst snd]. destruct (map_res_some (partition_object C compression) d) as [ps ->]; [|eexists; reflexivity].
      intros [p ms] H'. unfold partition_object. cbn [fst snd]. specialize (A _ _ _ _ H H'). unfold compress_raises in A. destruct (set_of C compression ms); [eexists; reflexivity|discriminate A].
    - cbn [bind]. eexists. unfold Connection.request_of, request_init, generate_correlation_id. cbn. reflexivity.
  Qed.
  Lemma conn_send_some obj wr st : (Connection.c_closing st = true \/ exists w, (p <- Connection.rq_payload obj;; framed p) = Ok w) -> exists f, fst (Connection.conn_send obj wr st) = Ok f.
  Proof.
    intros H. unfold Connection.conn_send. destruct (Connection.c_closing st) eqn:CL; [eexists; reflexivity|]. destruct H as [H|[w ->]]; [discriminate H|]. destruct (Connection.c_closed st); [eexists; reflexivity|]. destruct wr; eexists; reflexivity.
  Qed.
  Definition goes (Y : pstack) (rq : prequest) : Prop := exists cn, dget (k_conns (p_cluster (y_prod Y))) (pq_leader rq) = Some cn /\ (Connection.c_closing (l_conn (y_link Y (cc_id cn))) = true \/ SF rq = None).
  Lemma sends_awaited wr rqs : forall Y, (forall rq, In rq rqs -> goes Y rq /\ all_compress CF (pq_topics rq)) -> let Y' := fold_left (send_produce wr) rqs Y in
    y_prod Y' = y_prod Y /\ map fst (y_wait Y') = rev (map pq_corr rqs) ++ map fst (y_wait Y) /\ (forall w, In w (y_wait Y) -> In w (y_wait Y')) /\
    forall rq, In rq rqs -> exists n f, option_map cc_id (dget (k_conns (p_cluster (y_prod Y))) (pq_leader rq)) = Some n /\ In (pq_corr rq, (n, f)) (y_wait Y').
  Proof.
    induction rqs as [|rq rqs IH]; intros Y H; cbv zeta; [split; [reflexivity|split; [reflexivity|split; [auto|intros ? []]]]|]. cbn [fold_left].
    destruct (H rq (or_introl eq_refl)) as [(cn & D & G) AC]. destruct (object_made rq AC) as [obj PO]. destruct (object_facts C compression depth neg_read frames OK _ _ PO) as (OA & OC & OW).
    destruct (conn_send_some obj (wr (pq_leader rq)) (l_conn (y_link Y (cc_id cn)))) as [f F].
    { destruct G as [G|G]; [now left|right]. unfold serialize_raises in G. destruct (produce_wire C compression rq) as [w|] eqn:PW; [|discriminate G]. exists w. now rewrite OW. }
    assert (E : send_produce wr Y rq = PStack (y_prod Y) (put (cc_id cn) (happens (Connection.EvSend obj (wr (pq_leader rq))) (y_link Y (cc_id cn))) (y_link Y)) ((pq_corr rq, (cc_id cn, f)) :: y_wait Y)).
    { unfold ProducerStack.send_produce. rewrite D, PO, F. reflexivity. }
    set (Y1 := send_produce wr Y rq) in *. destruct (IH Y1) as (P1 & W1 & O1 & A1).
    - intros rq' HI. destruct (H rq' (or_intror HI)) as [(cn' & D' & G') AC']. split; [|exact AC']. exists cn'. rewrite E. cbn [y_prod y_link]. split; [exact D'|]. destruct G' as [G'|G']; [left|now right].
      destruct (Nat.eq_dec (cc_id cn') (cc_id cn)) as [EN|N]; [|now rewrite put_other]. rewrite EN in *. rewrite put_same. cbn [Stack.happens l_conn]. now apply closing_mono_step.
    - split; [rewrite P1, E; reflexivity|]. split; [|split].
      + rewrite W1, E. cbn [y_wait map fst rev]. now rewrite <- app_assoc.
      + intros w HW. apply O1. rewrite E. now right.
      + intros rq' [<-|HI]; [|assert (E0 : y_prod Y1 = y_prod Y) by (rewrite E; reflexivity); rewrite E0 in A1; now apply A1]. exists (cc_id cn), f. rewrite D. split; [reflexivity|]. apply O1. rewrite E. now left.
  Qed.

  Definition listed (Y : pstack) : Prop := map fst (y_wait Y) = rev (p_open (y_prod Y)).
  Lemma filter_fst {A B} (P : A -> bool) (l : list (A * B)) : map fst (filter (fun w => P (fst w)) l) = filter P (map fst l).
  Proof. induction l as [|[a b] l IH]; [reflexivity|]. cbn. destruct (P a); cbn; now rewrite IH. Qed.
  Lemma filter_rev_ {A} (P : A -> bool) l : filter P (rev l) = rev (filter P l).
  Proof. induction l as [|x l IH]; [reflexivity|]. cbn [rev]. rewrite filter_app, IH. cbn. destruct (P x); [reflexivity|]. now rewrite app_nil_r. Qed.
  Lemma answered_open c s : p_open s = filter (fun x => negb (x =? c)) (p_open s) \/ smem (p_open s) c = true.
  Proof.
    destruct (smem (p_open s) c) eqn:M; [now right|left]. unfold smem in M. induction (p_open s) as [|x l IH]; [reflexivity|]. cbn [existsb filter] in *. apply orb_false_iff in M as [M1 M2].
    replace (x =? c) with (eqb x c) by reflexivity. replace (eqb x c) with false by (symmetry; rewrite <- M1; cbn; apply Z.eqb_sym). cbn [negb]. now rewrite <- IH.
  Qed.
  Lemma done_open c Y r : answer_to Y c = Some r -> p_open (y_prod (ystep Y (YDone c))) = filter (fun x => negb (x =? c)) (p_open (y_prod Y)).
  Proof.
    intros A. cbn [ProducerStack.ystep]. rewrite A. destruct (answered_open c (y_prod Y)) as [E|E].
    - destruct (smem (p_open (y_prod Y)) c) eqn:M; [|destruct r; cbn [y_prod Producer.pstep]; rewrite M; exact E].
      destruct r as [resp|e]; cbn [y_prod Producer.pstep]; rewrite M; [|reflexivity]. destruct (handle_produce_response c resp (answered c (y_prod Y))) as [r s2] eqn:F. apply handle_spec in F as (_ & _ & _ & _ & O & _). exact O.
    - destruct r as [resp|e]; cbn [y_prod Producer.pstep]; rewrite E; [|reflexivity]. destruct (handle_produce_response c resp (answered c (y_prod Y))) as [r s2] eqn:F. apply handle_spec in F as (_ & _ & _ & _ & O & _). exact O.
  Qed.
  (** a call *)
  Lemma call_awaits ev wr Y : plain_call ev = true -> whole Y -> let Y' := ystep Y (YCall ev wr) in let rqs := awaited (prod_flags Y) ev in
    p_open (y_prod Y') = p_open (y_prod Y) ++ map pq_corr rqs /\ map fst (y_wait Y') = rev (map pq_corr rqs) ++ map fst (y_wait Y) /\ (forall w, In w (y_wait Y) -> In w (y_wait Y')) /\
    forall rq, In rq rqs -> exists n f, option_map cc_id (dget (k_conns (p_cluster (y_prod Y))) (pq_leader rq)) = Some n /\ In (pq_corr rq, (n, f)) (y_wait Y').
  Proof.
    intros PC WH. cbv zeta. destruct (call_ok C compression batch_size acks timeout depth neg_read frames OK ev wr Y PC WH) as (EP & _ & _). rewrite EP. pose proof WH as [P S I T].
    assert (P1 : pinv (prod_flags Y)) by exact (pstep_inv batch_size acks timeout CF SF (y_prod Y) (EvCluster _) P).
    destruct (call_open batch_size acks timeout CF SF (prod_flags Y) ev P1 PC) as [CO CS]. split; [exact CO|]. clear CO.
    change (match ev with EvProduce _ _ _ => _ | _ => _ end) with (awaited (prod_flags Y) ev) in CS. destruct (step_sends_some batch_size acks timeout CF SF (prod_flags Y) ev P1) as (sends & _ & _ & KC & ES).
    change (match ev with EvProduce _ _ _ => _ | _ => _ end) with (awaited (prod_flags Y) ev) in ES. rewrite ystep_call by exact PC. cbv zeta. destruct (awaited (prod_flags Y) ev) as [|rq0 rqs0] eqn:AW; [cbn; split; [reflexivity|split; [auto|intros ? []]]|].
    destruct KC as [KC|KC]; [rewrite KC in ES; discriminate ES|]. rewrite <- AW in *. clear ES sends.
    assert (DF : forall b, dget (k_conns (p_cluster (y_prod Y))) b = None -> dget (k_conns (p_cluster (prod_flags Y))) b = None).
    { intros b H. cbn [prod_flags p_cluster with_cluster]. rewrite (dget_flags (y_link Y)). now rewrite H. }
    set (Y1 := PStack (pstep (prod_flags Y) ev) (y_link Y) (y_wait Y)). destruct (sends_awaited wr (awaited (prod_flags Y) ev) Y1) as (A1 & A2 & A3 & A4).
    - intros rq HI. destruct (CS rq HI) as [(cn & D & G) AC]. split; [|exact AC]. exists cn. cbn [Y1 y_prod y_link]. rewrite KC. split; [exact D|]. destruct G as [G|G]; [left|now right]. eapply flags_closing; eassumption.
    - split; [exact A2|]. split; [exact A3|]. intros rq HI. destruct (A4 rq HI) as (n & f & E & IN). exists n, f. split; [|exact IN]. cbn [Y1 y_prod] in E. rewrite KC in E. cbn [prod_flags p_cluster with_cluster] in E. rewrite (dget_flags (y_link Y)) in E.
      destruct (dget (k_conns (p_cluster (y_prod Y))) (pq_leader rq)); [exact E|discriminate E].
  Qed.
  Lemma step_listed ev Y : whole Y -> listed Y -> listed (ystep Y ev).
  Proof.
    intros WH L. unfold listed in *. destruct ev as [ev wr|n ev|n topics wr|c].
    - destruct (plain_call ev) eqn:PC; [|destruct ev; try discriminate PC; exact L]. destruct (call_awaits ev wr Y PC WH) as (A & B & _). rewrite A, B, L, rev_app_distr. reflexivity.
    - destruct ev; cbn [ProducerStack.ystep y_wait y_prod]; exact L.
    - cbn [ProducerStack.ystep]. destruct (Connection.request_of _ _ _ _) as [[obj last']|]; exact L.
    - destruct (answer_to Y c) as [r|] eqn:A; [|cbn [ProducerStack.ystep]; rewrite A; exact L]. rewrite (done_open c Y r A).
      assert (E : y_wait (ystep Y (YDone c)) = filter (fun w => negb (fst w =? c)) (y_wait Y)) by (cbn [ProducerStack.ystep]; rewrite A; destruct r; reflexivity).
      rewrite E, (filter_fst (fun x => negb (x =? c))), L. apply filter_rev_.
  Qed.
  Lemma run_listed evs : forall Y, whole Y -> listed Y -> whole (yrun evs Y) /\ listed (yrun evs Y).
  Proof.
    induction evs as [|ev evs IH]; intros Y W L; [auto|]. cbn [ProducerStack.yrun fold_left]. apply (IH (ystep Y ev)); [|now apply step_listed]. now apply (ystep_ok C compression batch_size acks timeout depth neg_read frames OK ev Y W).
  Qed.

  (** what happens on the connections *)
  Definition yevolves (P : Connection.event -> Prop) (Y Y' : pstack) : Prop := forall n, exists evs, Forall P evs /\ l_conn (y_link Y' n) = crun_ evs (l_conn (y_link Y n)).
  Lemma yevolves_same P Y Y' : (forall n, y_link Y' n = y_link Y n) -> yevolves P Y Y'.
  Proof. intros E n. exists []. rewrite E. split; [constructor|reflexivity]. Qed.
  Lemma yevolves_trans P Y1 Y2 Y3 : yevolves P Y1 Y2 -> yevolves P Y2 Y3 -> yevolves P Y1 Y3.
  Proof. intros A B n. destruct (A n) as (e1 & F1 & E1), (B n) as (e2 & F2 & E2). exists (e1 ++ e2). split; [now apply Forall_app|]. rewrite E2, E1. unfold Connection.run. now rewrite fold_left_app. Qed.
  Lemma yevolves_put (P : Connection.event -> Prop) s2 n ev wait' Y l : P ev -> l_conn l = Connection.step C depth neg_read ev (l_conn (y_link Y n)) -> yevolves P Y (PStack s2 (put n l (y_link Y)) wait').
  Proof. intros H E m. cbn [y_link]. destruct (Nat.eq_dec m n) as [->|N]; [exists [ev]; rewrite put_same; split; [auto|exact E]|exists []; rewrite put_other by exact N; split; [constructor|reflexivity]]. Qed.
  Lemma yfold_evolves (P : Connection.event -> Prop) wr rqs : (forall b obj, P (Connection.EvSend obj (wr b))) -> forall Y, yevolves P Y (fold_left (send_produce wr) rqs Y).
  Proof.
    intros H. induction rqs as [|rq rqs IH]; intros Y; cbn [fold_left]; [now apply yevolves_same|]. eapply yevolves_trans; [|apply IH]. unfold ProducerStack.send_produce. destruct (dget _ (pq_leader rq)); [|now apply yevolves_same].
    destruct (produce_object C compression rq); [|now apply yevolves_same]. destruct (fst _); [|now apply yevolves_same]. eapply yevolves_put; [apply H|reflexivity].
  Qed.
  Lemma ystep_evolves ev Y : yevolves (fun e => yunbroken ev -> stream_kept e) Y (ystep Y ev).
  Proof.
    destruct ev as [ev wr|n ev|n topics wr|c].
    - destruct (plain_call ev) eqn:PC; [|destruct ev; try discriminate PC; now apply yevolves_same]. rewrite ystep_call by exact PC. cbv zeta.
      assert (H : forall b obj, yunbroken (YCall ev wr) -> stream_kept (Connection.EvSend obj (wr b))) by (intros b obj U; apply U).
      destruct (awaited (prod_flags Y) ev) as [|rq rqs].
      + intros n. destruct (yfold_evolves (fun e => yunbroken (YCall ev wr) -> stream_kept e) wr (skipn (length (p_wire (prod_flags Y))) (p_wire (pstep (prod_flags Y) ev))) H (PStack (pstep (prod_flags Y) ev) (y_link Y) (y_wait Y)) n) as (es & A & B). exists es. split; [exact A|exact B].
      + intros n. destruct (yfold_evolves (fun e => yunbroken (YCall ev wr) -> stream_kept e) wr (rq :: rqs) H (PStack (pstep (prod_flags Y) ev) (y_link Y) (y_wait Y)) n) as (es & A & B). exists es. split; [exact A|exact B].
    - destruct ev; cbn [ProducerStack.ystep]; try (eapply yevolves_put; [|reflexivity]; intros U; exact U). now apply yevolves_same.
    - cbn [ProducerStack.ystep]. destruct (Connection.request_of _ _ _ _) as [[obj last']|]; [|now apply yevolves_same]. eapply yevolves_put; [|reflexivity]. intros U; exact U.
    - cbn [ProducerStack.ystep]. destruct (answer_to Y c) as [[resp|e]|]; now apply yevolves_same.
  Qed.
  Lemma run_tidy_y (NIO : no_io_codec C) evs : forall Y, Forall yunbroken evs -> (forall n, tidy (l_conn (y_link Y n))) -> forall n, tidy (l_conn (y_link (yrun evs Y) n)).
  Proof.
    induction evs as [|ev evs IH]; intros Y U T; [exact T|]. inversion U as [|? ? U1 U2]; subst. cbn [ProducerStack.yrun fold_left]. apply (IH (ystep Y ev) U2). intros n. destruct (ystep_evolves ev Y n) as (es & F & ->).
    generalize (T n). generalize (l_conn (y_link Y n)) as st. clear - F U1 NIO. induction F as [|e es K F IH]; intros st T; [exact T|]. apply IH. apply tidy_step; [exact NIO|now apply K|exact T].
  Qed.
  (** anything each event of a connection keeps *)
  Lemma run_keeps (R : nat -> Connection.conn -> Prop) : (forall n ev st, R n st -> R n (Connection.step C depth neg_read ev st)) -> forall evs Y, (forall n, R n (l_conn (y_link Y n))) -> forall n, R n (l_conn (y_link (yrun evs Y) n)).
  Proof.
    intros K. assert (KR : forall n es st, R n st -> R n (crun_ es st)) by (intros n es; induction es as [|e es IH]; intros st H; [exact H|]; apply IH, K, H).
    induction evs as [|ev evs IH]; intros Y H; [exact H|]. cbn [ProducerStack.yrun fold_left]. apply (IH (ystep Y ev)). intros n. destruct (ystep_evolves ev Y n) as (es & _ & ->). now apply KR.
  Qed.
End Conns.
