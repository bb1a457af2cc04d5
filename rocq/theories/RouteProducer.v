(** Where a producer's requests go: to the leaders its tables name, on the connections its cluster opened (proof file, over
    ProducerStack.v and Full.v). *)
From Coq Require Import ZArith String List Bool Lia.
From Verif Require Import PyBase BaseLemmas Messages Protocol Schemas Request Cluster SpecCluster Heals ResponseRead Producer ProducerWire SpecProducer ProducerProofs ProducerOrder SpecConn SpecRequest ConnStream ConnProofs Stack StackProofs ProducerStack SpecProducerStack ProducerStackProofs HealOrigin Full FullProofs FullProducer.
From Verif Require Connection.
Import ListNotations.
Open Scope Z_scope.

(** lookups leave the connections, the leaders and the record as they are *)
Definition kept (k k' : cluster) : Prop := k_conns k' = k_conns k /\ k_log k' = k_log k /\ k_opened k' = k_opened k /\ forall t p, leader_for k' t p = leader_for k t p.
Lemma kept_refl k : kept k k.
Proof. repeat split. Qed.
Lemma leader_is k t p l : leader k t p l <-> leader_for k t p = Some l.
Proof. unfold leader, leader_for. split; [intros (d & -> & H); exact H|]. destruct (dget (k_leaders k) t) as [d|]; [eauto|discriminate]. Qed.
Lemma kept_net k k' : kept k k' -> same_net k k'.
Proof. intros (A & B & C & D). split; [exact B|]. split; [exact C|]. split; [intros t p l; rewrite !leader_is, D; auto|]. rewrite A. eauto. Qed.
Lemma order_msgs_log part t msgs : forall o retry k r k', order_msgs part t msgs o retry k = (r, k') -> k_log k' = k_log k /\ k_opened k' = k_opened k.
Proof.
  induction msgs as [|m msgs IH]; intros o retry k r k' H; cbn [order_msgs] in H; [now injection H as _ <-|].
  unfold topic_partitions in H. destruct (@ddefault text (list Z) _ [] (k_topics k) t) as [ps tt]. destruct (part m ps) as [p|e]; [|now injection H as _ <-].
  unfold get_leader in H. destruct (@ddefault text (dict Z Z) _ [] _ t) as [d ld]. destruct (dindex d p) as [l|e]; [|now injection H as _ <-].
  destruct (negb _); [destruct (@ddefault text (list pmsg) _ [] retry t) as [q retry1]|]; apply IH in H; exact H.
Qed.
Lemma order_topics_log part items : forall o retry k r rest k', order_topics part items o retry k = (r, rest, k') -> k_log k' = k_log k /\ k_opened k' = k_opened k.
Proof.
  induction items as [|[t msgs] items IH]; intros o retry k r rest k' H; cbn [order_topics] in H; [now injection H as _ _ <-|].
  destruct (order_msgs part t msgs o retry k) as [[[o1 r1]|e] k1] eqn:E; apply order_msgs_log in E as [E1 E2]; [apply IH in H as [H1 H2]; split; congruence|injection H as _ _ <-; auto].
Qed.

(** the request's messages are for partitions it leads *)
Definition led_by (k : cluster) (rq : prequest) : Prop := forall t p m, In m (carried [rq] t p) -> leader_for k t p = Some (pq_leader rq).

Section Flush.
  Variable batch_size : option Z.
  Variables acks timeout : Z.
  Variable compress_fails : list pmsg -> option exn.
  Variable serialize_fails : prequest -> option exn.
  Notation flush := (flush acks timeout compress_fails serialize_fails).
  Notation pstep := (pstep batch_size acks timeout compress_fails serialize_fails).

  (** the requests a piece of code sends *)
  Definition pick (r : res (list prequest)) (s s' : producer) : list prequest :=
    match match r with Ok rqs => rqs | Err _ => [] end with [] => skipn (length (p_wire s)) (p_wire s') | rqs => rqs end.
  Lemma flush_led part s r s' : flush part s = (r, s') -> pinv s -> kept (p_cluster s) (p_cluster s') /\ forall rq, In rq (pick r s s') -> led_by (p_cluster s) rq.
  Proof.
    intros H I. unfold Producer.flush in H. destruct (p_unsent s) as [|u0 us] eqn:EU.
    { injection H as <- <-. split; [apply kept_refl|]. intros rq X. unfold pick in X. rewrite skipn_all in X. destruct X. }
    rewrite <- EU in H. clear u0 us EU. destruct (order_topics part (drain_items (p_unsent s)) [] [] (p_cluster s)) as [[r1 rest] k1] eqn:EO.
    pose proof (order_topics_log _ _ _ _ _ _ _ _ EO) as [KL KO]. assert (NO' : forall o retry, r1 = Ok (o, retry) -> nd_ordered o) by (intros o retry ->; apply (order_topics_nd _ _ _ _ _ _ _ _ _ EO); split; [constructor|intros ? ? []]).
    assert (NI : NoDup (dkeys (drain_items (p_unsent s)))) by (unfold drain_items; rewrite dkeys_rev; apply nodup_rev, I).
    apply order_topics_look in EO as [T L]; [|exact NI]. assert (KK : kept (p_cluster s) k1) by (destruct T as (T1 & _ & T3); repeat split; auto).
    destruct r1 as [[o retry]|e]; [|injection H as <- <-; split; [exact KK|]; intros rq X; unfold pick in X; cbn [p_wire with_cluster with_unsent] in X; rewrite skipn_all in X; destruct X].
    specialize (NO' o retry eq_refl). destruct L as (_ & L2 & _ & _).
    cbn [with_cluster with_unsent p_unsent p_sent p_corr p_heal p_closing p_cluster p_next p_open p_wire p_settled p_lost] in H.
    destruct (build_requests acks timeout compress_fails o (p_corr s) [] (p_sent s)) as [[r2 corr] sent] eqn:EB.
    destruct r2 as [rqs|e]; [|injection H as <- <-; split; [exact KK|]; intros rq X; unfold pick in X; cbn [p_wire] in X; rewrite skipn_all in X; destruct X].
    destruct (build_requests_spec _ _ _ _ _ _ _ _ _ _ EB (proj2 NO') (i_bound s I)) as (_ & _ & _ & _ & dn & rst & _ & _ & Q3). destruct Q3 as (_ & new & EN & E1 & _ & _ & _). cbn [app] in EN. subst new.
    assert (LED : forall rq, In rq rqs -> led_by (p_cluster s) rq).
    { intros rq Hr t p m Hm. assert (Ho : In (pq_leader rq, pq_topics rq) o) by (rewrite <- E1; apply in_map_iff; eauto).
      unfold carried in Hm. cbn [flat_map] in Hm. rewrite app_nil_r in Hm. fold (carried_in (pq_topics rq) t p) in Hm. rewrite carried_batch in Hm by (apply (proj2 NO' _ _ Ho)).
      assert (Ol : olook o (pq_leader rq) t p = @getd Z (list pmsg) _ [] (@getd text (dict Z (list pmsg)) _ [] (pq_topics rq) t) p).
      { unfold olook, slook. unfold getd at 3. now rewrite (In_dget_nodup o _ _ (proj1 NO') Ho). }
      rewrite <- Ol, L2 in Hm. change (olook [] (pq_leader rq) t p) with (@nil pmsg) in Hm. cbn [app] in Hm. unfold leads in Hm.
      destruct (leader_for (p_cluster s) t p) as [l0|] eqn:El; [|destruct Hm]. destruct (Z.eqb_spec (pq_leader rq) l0) as [->|]; [reflexivity|destruct Hm]. }
    match type of H with context [write_all _ _ (p_cluster ?x)] => set (s3 := x) in * end.
    destruct (retries_spec retry (Prod (rev rest) sent (p_heal s) (p_closing s) k1 corr (p_next s) (p_open s) (p_wire s) (p_settled s) (p_lost s))) as (_ & _ & _ & B4 & _ & _ & _ & B8 & _).
    change (p_cluster s3 = k1) in B4. change (p_wire s3 = p_wire s) in B8. clearbody s3.
    rewrite B4, B8 in H. destruct (write_all serialize_fails rqs k1 (p_wire s)) as [r3 wire] eqn:EW. destruct (write_all_shape _ _ _ _ _ _ EW) as (l & tl & EL & -> & R3).
    injection H as <- <-. split; [exact KK|]. intros rq X. apply LED. unfold pick in X. cbn [p_wire] in X. rewrite skipn_wire in X.
    assert (FI : In rq (filter (is_open k1) l) -> In rq rqs) by (intros Y; apply filter_In in Y as [Y _]; rewrite EL; apply in_or_app; now left).
    destruct r3; [|auto]. destruct rqs; [auto|exact X].
  Qed.

  Notation awaits := (fun s ev => match ev with
    | EvProduce part t mk => match fst (produce batch_size acks timeout compress_fails serialize_fails part t mk s) with Flushing rqs => rqs | _ => [] end
    | EvResume part t mk => match fst (produce_resume batch_size acks timeout compress_fails serialize_fails part t mk s) with Flushing rqs => rqs | _ => [] end
    | EvFlush part => match fst (flush part s) with Ok rqs => rqs | Err _ => [] end
    | EvClose part => match fst (close_begin acks timeout compress_fails serialize_fails part s) with Ok rqs => rqs | Err _ => [] end
    | _ => []
    end).
  Lemma step_led s ev : pinv s -> mine ev = true -> kept (p_cluster s) (p_cluster (pstep s ev)) /\
    forall rq, In rq (match awaits s ev with [] => skipn (length (p_wire s)) (p_wire (pstep s ev)) | rqs => rqs end) -> led_by (p_cluster s) rq.
  Proof.
    intros I M.
    assert (NO : forall s', p_wire s' = p_wire s -> p_cluster s' = p_cluster s -> kept (p_cluster s) (p_cluster s') /\ forall rq, In rq (skipn (length (p_wire s)) (p_wire s')) -> led_by (p_cluster s) rq) by (intros s' W K; rewrite K, W, skipn_all; split; [apply kept_refl|intros rq []]).
    assert (FL : forall part s0, pinv s0 -> p_wire s0 = p_wire s -> p_cluster s0 = p_cluster s -> kept (p_cluster s) (p_cluster (snd (flush part s0))) /\
      forall rq, In rq (match match fst (flush part s0) with Ok rqs => rqs | Err _ => [] end with [] => skipn (length (p_wire s)) (p_wire (snd (flush part s0))) | rqs => rqs end) -> led_by (p_cluster s) rq).
    { intros part s0 I0 W0 K0. destruct (flush part s0) as [r s2] eqn:F. destruct (flush_led _ _ _ _ F I0) as [A B]. rewrite K0 in A, B. unfold pick in B. rewrite W0 in B. cbn [fst snd]. auto. }
    assert (RE : forall part t mk, let x := produce_resume batch_size acks timeout compress_fails serialize_fails part t mk s in kept (p_cluster s) (p_cluster (snd x)) /\
      forall rq, In rq (match match fst x with Flushing rqs => rqs | _ => [] end with [] => skipn (length (p_wire s)) (p_wire (snd x)) | rqs => rqs end) -> led_by (p_cluster s) rq).
    { intros part t mk. unfold Producer.produce_resume. destruct (negb _); [now apply NO|]. destruct (enqueue t mk s) as [r s1] eqn:E. destruct (enqueue_spec _ _ _ _ _ E I) as (I1 & _ & _ & _ & K1 & _ & _ & W1 & _). destruct r; [|now apply NO]. destruct (flush_due batch_size s1); [|now apply NO].
      specialize (FL part s1 I1 W1 K1). destruct (flush part s1) as [[rqs|e] s2]; exact FL. }
    destruct ev; try discriminate M; cbn [Producer.pstep].
    - unfold produce. destruct (p_closing s); [now apply NO|]. destruct (negb _); [now apply NO|]. apply RE.
    - apply RE.
    - now apply FL.
    - unfold close_begin. apply FL; try reflexivity. refine (pinv_same s _ _ _ _ _ _ _ _ _ _ I); try reflexivity; [intros x Hx; exact Hx|apply I].
    - now apply NO.
  Qed.
End Flush.

Section Route.
  Variable C : codec.
  Variable compression : Z.
  Variable batch_size : option Z.
  Variables acks timeout : Z.
  Variable depth : nat.
  Variable neg_read : Z -> bytes -> bytes * bytes.
  Variable frames : nat -> list (Z * bytes).
  Hypothesis OK : forall n, Forall frame_ok (frames n).
  Notation happens := (happens C depth neg_read).
  Notation whole := (whole C compression depth frames).
  Notation send_produce := (send_produce C compression depth neg_read).
  Notation ystep := (ystep C compression batch_size acks timeout depth neg_read).
  Notation pstep := (pstep batch_size acks timeout (compress_raises C compression) (serialize_raises C compression)).

  Lemma send_out wr rqs : forall Y n f w, In (f, w) (l_out (y_link (fold_left (send_produce wr) rqs Y) n)) -> In (f, w) (l_out (y_link Y n)) \/
    exists rq cn, In rq rqs /\ dget (k_conns (p_cluster (y_prod Y))) (pq_leader rq) = Some cn /\ n = cc_id cn /\ produce_wire C compression rq = Ok w /\ Connection.c_closing (l_conn (y_link Y n)) = false.
  Proof.
    induction rqs as [|rq rqs IH]; intros Y n f w H; cbn [fold_left] in H; [now left|]. apply IH in H.
    assert (ONE : y_prod (send_produce wr Y rq) = y_prod Y /\ (Connection.c_closing (l_conn (y_link Y n)) = true -> Connection.c_closing (l_conn (y_link (send_produce wr Y rq) n)) = true) /\
      (In (f, w) (l_out (y_link (send_produce wr Y rq) n)) -> In (f, w) (l_out (y_link Y n)) \/ exists cn, dget (k_conns (p_cluster (y_prod Y))) (pq_leader rq) = Some cn /\ n = cc_id cn /\ produce_wire C compression rq = Ok w /\ Connection.c_closing (l_conn (y_link Y n)) = false)).
    { unfold ProducerStack.send_produce. destruct (dget (k_conns (p_cluster (y_prod Y))) (pq_leader rq)) as [cn|] eqn:D; [|auto]. destruct (produce_object C compression rq) as [obj|e] eqn:PO; [|auto]. destruct (fst (Connection.conn_send obj (wr (pq_leader rq)) (l_conn (y_link Y (cc_id cn))))) as [g|e]; [|auto]. cbn [y_prod y_link].
      destruct (happens_send C 0 depth neg_read frames OK obj (wr (pq_leader rq)) (y_link Y (cc_id cn))) as (HO & _ & HC). split; [reflexivity|]. destruct (Nat.eq_dec n (cc_id cn)) as [->|N]; [rewrite put_same|rewrite put_other by assumption; auto].
      split; [exact HC|]. intros X. destruct HO as [E|(f' & w' & _ & NC & PW & E)]; rewrite E in X; [now left|]. apply in_app_iff in X as [X|[X|[]]]; [now left|]. injection X as <- <-. right. exists cn. destruct (object_facts C compression depth neg_read frames OK _ _ PO) as (_ & _ & EW). repeat split; auto. congruence. }
    destruct ONE as (P1 & P2 & P3). destruct H as [H|(rq' & cn & A & B & D & E & F)].
    - destruct (P3 H) as [X|(cn & X)]; [now left|right]. exists rq, cn. split; [now left|exact X].
    - right. exists rq', cn. rewrite P1 in B. split; [now right|]. repeat split; auto. destruct (Connection.c_closing (l_conn (y_link Y n))); [|reflexivity]. now rewrite P2 in F.
  Qed.

  (** a produce request goes to a connection that was opened to an address an answer gave for its broker, and an answer
      names this broker as the leader for all its messages *)
  Definition prt (P : mresp -> Prop) (lg : list effect) (ws : list prequest) (n : nat) (w : bytes) : Prop := produce_frame w = true ->
    exists rq, In rq ws /\ produce_wire C compression rq = Ok w /\
      (exists host port r, P r /\ In (MBroker (pq_leader rq) host port) (mr_brokers r) /\ In (XConnect n host port) lg) /\
      ((forall t p, carried [rq] t p = []) \/ exists r, P r /\ forall t p m, In m (carried [rq] t p) -> usable (mr_topics r) t p (pq_leader rq)).

  Lemma wire_mono Y ev : whole Y -> exists x, p_wire (y_prod (ystep Y ev)) = p_wire (y_prod Y) ++ x.
  Proof.
    intros WH. assert (ID : exists x, p_wire (y_prod Y) = p_wire (y_prod Y) ++ x) by (exists []; now rewrite app_nil_r). destruct ev as [ev wr|n ev|n topics wr|c].
    - destruct (plain_call ev) eqn:PC; [|destruct ev; try discriminate PC; exact ID]. destruct (call_ok C compression batch_size acks timeout depth neg_read frames OK ev wr Y PC WH) as (E & _ & _). cbv zeta in E. rewrite E.
      assert (P1 : pinv (prod_flags Y)) by exact (pstep_inv batch_size acks timeout (compress_raises C compression) (serialize_raises C compression) (y_prod Y) (EvCluster _) (wh_p _ _ _ _ _ WH)).
      destruct (step_sends_some batch_size acks timeout (compress_raises C compression) (serialize_raises C compression) (prod_flags Y) ev P1) as (sends & W & _). eexists. exact W.
    - destruct ev; exact ID.
    - cbn [ProducerStack.ystep]. destruct (Connection.request_of _ _ _ _) as [[obj l']|e]; exact ID.
    - cbn [ProducerStack.ystep]. destruct (answer_to Y c) as [[resp|e]|]; [| |exact ID]; cbn [y_prod Producer.pstep].
      + destruct (smem (p_open (y_prod Y)) c); [|exact ID]. destruct (handle_produce_response c resp (Producer.answered c (y_prod Y))) as [r s2] eqn:F. apply handle_spec in F as (_ & _ & _ & _ & _ & W & _). cbn [snd]. rewrite W. exact ID.
      + destruct (smem (p_open (y_prod Y)) c); exact ID.
  Qed.
  Lemma flags_dget ls k b cn : dget (k_conns (flags ls k)) b = Some cn -> exists c0, dget (k_conns k) b = Some c0 /\ cc_id c0 = cc_id cn /\ cc_closing cn = Connection.c_closing (l_conn (ls (cc_id cn))).
  Proof.
    cbn [flags k_conns]. induction (k_conns k) as [|[b0 c0] l IH]; cbn [map dget fst snd]; [discriminate|]. destruct (eqb b0 b); [|exact IH]. intros [= <-]. exists c0. auto.
  Qed.
  Lemma own_ok Y e : whole Y -> pown e = true -> same_net (p_cluster (y_prod Y)) (p_cluster (y_prod (ystep Y e))) /\
    forall P, conns_from P (p_cluster (y_prod Y)) -> leaders_from P (p_cluster (y_prod Y)) -> forall n f w, In (f, w) (l_out (y_link (ystep Y e) n)) -> In (f, w) (l_out (y_link Y n)) \/ prt P (k_log (p_cluster (y_prod Y))) (p_wire (y_prod (ystep Y e))) n w.
  Proof.
    intros WH O. destruct e as [ev wr|n ev|n topics wr|c]; try discriminate O; cbn [pown] in O.
    - assert (PC : plain_call ev = true) by (destruct ev; try reflexivity; discriminate O). destruct (call_ok C compression batch_size acks timeout depth neg_read frames OK ev wr Y PC WH) as (E & _ & _). cbv zeta in E. rewrite E.
      assert (P1 : pinv (prod_flags Y)) by exact (pstep_inv batch_size acks timeout (compress_raises C compression) (serialize_raises C compression) (y_prod Y) (EvCluster _) (wh_p _ _ _ _ _ WH)).
      destruct (step_sends_some batch_size acks timeout (compress_raises C compression) (serialize_raises C compression) (prod_flags Y) ev P1) as (sends & W & _ & KC & ES).
      destruct (step_led batch_size acks timeout (compress_raises C compression) (serialize_raises C compression) (prod_flags Y) ev P1 O) as [K LED]. rewrite <- ES in LED.
      split; [eapply same_net_trans; [apply (same_net_flags (y_link Y))|exact (kept_net _ _ K)]|]. intros P CF LF n f w H.
      assert (H' : In (f, w) (l_out (y_link (fold_left (send_produce wr) sends (PStack (pstep (prod_flags Y) ev) (y_link Y) (y_wait Y))) n))).
      { rewrite ystep_call in H by exact PC. cbv zeta in H. unfold awaited in H. destruct (match ev with EvProduce _ _ _ => _ | _ => _ end) as [|x rqs] in ES, H; rewrite ES; exact H. }
      apply send_out in H' as [H'|(rq & cn & A & B & D & PW & NC)]; [now left|right]. cbn [y_prod y_link] in *.
      destruct K as (K1 & K2 & K3 & K4). rewrite K1 in B. destruct (flags_dget _ _ _ _ B) as (c0 & B0 & BI & BC). intros _. exists rq. split; [|split; [exact PW|split]].
      + rewrite W. apply in_or_app. right. apply filter_In. split; [exact A|]. unfold is_open. rewrite B. rewrite BC, <- D, NC. reflexivity.
      + apply dget_In in B0. destruct (CF _ _ B0) as [(r & PR & IB) IL]. exists (cc_host c0), (cc_port c0), r. split; [exact PR|]. split; [exact IB|]. rewrite D, <- BI. exact IL.
      + specialize (LED rq A). destruct LF as [NL|(r & PR & IL)].
        * left. intros t p. destruct (carried [rq] t p) as [|m l] eqn:EC; [reflexivity|]. exfalso. apply (NL t p (pq_leader rq)). apply leader_is. apply (LED t p m). rewrite EC. now left.
        * right. exists r. split; [exact PR|]. intros t p m Hm. apply IL, leader_is. exact (LED t p m Hm).
    - cbn [ProducerStack.ystep]. destruct (answer_to Y c) as [[resp|e]|]; [| |split; [apply same_net_refl|auto]]; cbn [y_prod y_link Producer.pstep].
      + split; [|auto]. destruct (smem (p_open (y_prod Y)) c); [|apply same_net_refl]. destruct (handle_produce_response c resp (Producer.answered c (y_prod Y))) as [r s2] eqn:F. apply handle_spec in F as (_ & K & _). cbn [snd]. rewrite K. apply same_net_refl.
      + split; [|auto]. destruct (smem (p_open (y_prod Y)) c); apply same_net_refl.
  Qed.

  Lemma prt_more (P P' : mresp -> Prop) lg lg' ws ws' n w : (forall r, P r -> P' r) -> incl lg lg' -> incl ws ws' -> prt P lg ws n w -> prt P' lg' ws' n w.
  Proof.
    intros I1 I2 I3 H PF. destruct (H PF) as (rq & A & B & (host & port & r & D1 & D2 & D3) & E). exists rq. split; [auto|]. split; [exact B|]. split; [exists host, port, r; auto|].
    destruct E as [E|(r' & E1 & E2)]; [now left|right; exists r'; auto].
  Qed.
  Lemma prt_meta P lg ws n topics lst obj w : meta_object topics lst = Ok obj -> (p <- Connection.rq_payload obj ;; framed p) = Ok w -> prt P lg ws n w.
  Proof.
    unfold meta_object. destruct (Connection.request_of _ _ _ _) as [[o l']|e] eqn:E; [|discriminate]. intros [= <-] W PF. destruct (meta_facts 0 neg_read _ _ _ _ E) as (_ & _ & _ & X).
    destruct (X w W) as (payload & -> & _). rewrite (frame_number depth neg_read frames OK 3 l' payload "metadata"%string) in PF; [discriminate PF|]. vm_compute. tauto.
  Qed.
  Definition pinvariant : full pstack -> Prop := finv C depth frames pcl y_link whole (fun Y => p_wire (y_prod Y)) prt.
  Lemma pfrun_inv evs corr : pinvariant (pfrun C compression batch_size acks timeout depth neg_read evs (pfinit corr)).
  Proof.
    refine (frun_inv C depth neg_read frames OK _ pcl y_link plast ptables YConn YMeta pown whole _ (fun Y => p_wire (y_prod Y)) _ _ _ _ prt prt_more prt_meta _ evs (pfinit corr) _).
    - intros Y n WH. apply (wh_y _ _ _ _ _ WH).
    - intros Y k WH. destruct (ystep_ok C compression batch_size acks timeout depth neg_read frames OK (ptables k) Y WH) as (E & W & _). split; [exact W|]. cbn [ptables ProducerStack.ystep awaited Producer.pstep prod_flags with_cluster p_wire]. rewrite skipn_all. cbn [fold_left]. auto.
    - intros Y n ev WH N. destruct (ystep_ok C compression batch_size acks timeout depth neg_read frames OK (YConn n ev) Y WH) as (_ & W & _). split; [exact W|]. destruct ev; try (split; [|split]; reflexivity). now destruct (N rq wr).
    - intros Y n topics wr WH. destruct (ystep_ok C compression batch_size acks timeout depth neg_read frames OK (YMeta n topics wr) Y WH) as (_ & W & _). split; [exact W|]. cbn [ProducerStack.ystep]. unfold meta_object, plast. destruct (Connection.request_of _ _ _ _) as [[obj l']|e]; cbn [bind]; auto.
    - intros Y e WH O. destruct (ystep_ok C compression batch_size acks timeout depth neg_read frames OK e Y WH) as (_ & W & GR). split; [exact W|]. split; [now apply own_ok|]. split; [|exact GR]. destruct (wire_mono Y e WH) as (x & ->). apply incl_appl, incl_refl.
    - intros P Y e WH O CF LF. now apply own_ok.
    - apply full_init_inv; [apply whole_init|reflexivity|reflexivity|]. intros t p l (d & D & _). discriminate D.
  Qed.
  (** the producer below goes through a history of ProducerStack.v *)
  Lemma pfrun_below (Q : yevent -> Prop) evs corr : (forall k, Q (ptables k)) -> (forall n ev, Q (YConn n ev)) -> (forall n ts wr, Q (YMeta n ts wr)) -> Forall (fun ev => match ev with FOwn e => pown e = true -> Q e | _ => True end) evs ->
    exists es, Forall Q es /\ f_base (pfrun C compression batch_size acks timeout depth neg_read evs (pfinit corr)) = yrun C compression batch_size acks timeout depth neg_read es (pstack_init cluster_init corr).
  Proof. intros A B D H. exact (frun_below _ pcl y_link plast ptables YConn YMeta pown Q A B D evs (pfinit corr) H). Qed.
End Route.
