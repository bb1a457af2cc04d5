(** Property C90: a producer routes by what the metadata responses say.  Specification: SpecRoute.v. *)
From Coq Require Import ZArith String List Bool Lia.
From Verif Require Import PyBase BaseLemmas Messages Protocol Request SpecWire SpecRequest SpecCodec Cluster SpecCluster Heals Producer SpecProducer ProducerProofs SpecFlow ProducerWire SpecProduced PropsWire PropsProducer SpecEnd PropsEnd SpecKafka PropsKafka SpecBytes PropsBytes SpecConn Stack StackProofs PropsStack ProducerStack SpecProducerStack ProducerStackProofs PropsProducerStack HealOrigin Full FullProducer FullProofs RouteProducer SpecRoute RouteHeard.
From Verif Require Connection.
Import ListNotations.
Open Scope Z_scope.

Section C90.
  Variable C : codec.
  Variable compression : Z.
  Variable batch_size : option Z.
  Variables acks timeout : Z.
  Variable depth : nat.
  Variable neg_read : Z -> bytes -> bytes * bytes.
  Notation pfrun := (pfrun C compression batch_size acks timeout depth neg_read).
  Notation yrun := (yrun C compression batch_size acks timeout depth neg_read).

  Lemma hears_frames frames ls : link_hears frames ls -> forall n, Forall frame_ok (frames n).
  Proof. intros H n. apply H. Qed.
  Lemma hears_hearing frames ls : link_hears frames ls -> hearing frames ls.
  Proof. intros H n. apply H. Qed.

  (** All leaders in the tables are those that one metadata response names whose bytes have all arrived. *)
  Theorem C90_tables : forall frames evs corr, let Y := f_base (pfrun evs (pfinit corr)) in let k := p_cluster (y_prod Y) in
    link_hears frames (y_link Y) -> kafka_answers frames (y_link Y) ->
    forall t0 p0 b0, fst (get_leader t0 p0 k) = Ok b0 ->
    exists brokers topics, metadata_arrived frames (y_link Y) brokers topics /\ forall t p b, fst (get_leader t p k) = Ok b -> names_leader topics t p b.
  Proof.
    intros frames evs corr Y k H A t0 p0 b0 L. pose proof (pfrun_inv C compression batch_size acks timeout depth neg_read frames (hears_frames _ _ H) evs corr) as FI. pose proof (fi_base _ _ _ _ _ _ _ _ _ FI) as WH. fold Y in WH.
    destruct (fi_from _ _ _ _ _ _ _ _ _ FI (hears_hearing _ _ H)) as [_ LF _]. cbn [h_k] in LF. fold Y in LF. change (pcl Y) with k in LF.
    assert (GL : forall t p b, fst (get_leader t p k) = Ok b -> leader k t p b).
    { intros t p b X. destruct (ProducerOrder.get_leader_tabs t p k) as [E _]. rewrite E in X. apply leader_is. destruct (leader_for k t p); congruence. }
    destruct LF as [N|(r & HR & X)]; [destruct (N t0 p0 b0); auto|]. destruct (heard_arrived C depth frames _ _ r (yi_link _ _ _ _ _ _ _ _ (wh_y _ _ _ _ _ WH)) A HR) as (brokers & topics & MA & ->).
    exists brokers, topics. split; [exact MA|]. intros t p b G. eapply as_mresp_leader. apply X, GL, G.
  Qed.

  (** The connection the cluster has for a broker was made for an address that a metadata response gave for this broker. *)
  Theorem C90_connections : forall frames evs corr, let Y := f_base (pfrun evs (pfinit corr)) in let k := p_cluster (y_prod Y) in
    link_hears frames (y_link Y) -> kafka_answers frames (y_link Y) ->
    forall b c, dget (k_conns k) b = Some c -> made_for k (cc_id c) (cc_host c) (cc_port c) /\
    exists brokers topics, metadata_arrived frames (y_link Y) brokers topics /\ puts_at brokers b (cc_host c) (cc_port c).
  Proof.
    intros frames evs corr Y k H A b c D. pose proof (pfrun_inv C compression batch_size acks timeout depth neg_read frames (hears_frames _ _ H) evs corr) as FI. pose proof (fi_base _ _ _ _ _ _ _ _ _ FI) as WH. fold Y in WH.
    destruct (fi_from _ _ _ _ _ _ _ _ _ FI (hears_hearing _ _ H)) as [CF _ _]. cbn [h_k] in CF. fold Y in CF. change (pcl Y) with k in CF.
    apply dget_In in D. destruct (CF b c D) as [(r & HR & X) ML]. split; [exact ML|]. destruct (heard_arrived C depth frames _ _ r (yi_link _ _ _ _ _ _ _ _ (wh_y _ _ _ _ _ WH)) A HR) as (brokers & topics & MA & ->).
    exists brokers, topics. split; [exact MA|]. eapply as_mresp_broker. exact X.
  Qed.

  (** A whole producer's history is, below its cluster, a history of ProducerStack.v: what was proved of those (C80, C89)
      holds of it. *)
  Definition fmakes (ev : fevent yevent) : Prop := match ev with FOwn e => ymakes e | _ => True end.
  Theorem C90_refines : forall evs corr, Forall fmakes evs ->
    exists es, Forall ymakes es /\ f_base (pfrun evs (pfinit corr)) = yrun es (pstack_init cluster_init corr).
  Proof.
    intros evs corr H. refine (pfrun_below C compression batch_size acks timeout depth neg_read ymakes evs corr _ _ _ _); [intros k; exact I|intros n ev; exact I|intros n ts wr; exact I|].
    eapply Forall_impl; [|exact H]. intros [e|n ev|i hosts|i wr|i alt wr|i r wr|n topics|]; cbn [fmakes]; auto.
  Qed.

  (** Every produce request that is written - as Kafka reads it - goes to a broker that a metadata response names as the
      leader of the partitions of all its messages, on a connection to an address that a metadata response gives for this
      broker. *)
  Theorem C90_routed : forall frames evs corr, let Y := f_base (pfrun evs (pfinit corr)) in
    codec_laws C -> compression = 0 \/ compression = 1 \/ compression = 2 -> Forall fmakes evs ->
    link_hears frames (y_link Y) -> kafka_answers frames (y_link Y) ->
    forall n w d t0 p0 km0, In w (writes Y n) -> kreceives C w d -> In km0 (kcarried t0 p0 d) ->
    exists b host port, made_for (p_cluster (y_prod Y)) n host port /\
      (exists brokers topics, metadata_arrived frames (y_link Y) brokers topics /\ puts_at brokers b host port) /\
      exists brokers topics, metadata_arrived frames (y_link Y) brokers topics /\ forall t p km, In km (kcarried t p d) -> names_leader topics t p b.
  Proof.
    intros frames evs corr Y CL SUP MK H A n w d t0 p0 km0 W KR KM. pose proof (hears_frames _ _ H) as OK. pose proof (pfrun_inv C compression batch_size acks timeout depth neg_read frames OK evs corr) as FI. pose proof (fi_base _ _ _ _ _ _ _ _ _ FI) as WH. fold Y in WH.
    pose proof (fi_rt _ _ _ _ _ _ _ _ _ FI (hears_hearing _ _ H)) as RT. fold Y in RT. pose proof (yi_link _ _ _ _ _ _ _ _ (wh_y _ _ _ _ _ WH)) as LK.
    unfold writes in W. rewrite (lk_all _ _ _ _ _ _ (LK n)) in W. apply in_map_iff in W as ([f w'] & E & W). cbn [snd] in E. subst w'.
    assert (PF : produce_frame w = true) by (destruct KR as (c & a & tm & payload & -> & _); rewrite (frame_number depth neg_read frames OK 0 c payload "produce"%string); [reflexivity|vm_compute; tauto]).
    destruct (RT n f w W PF) as (rq & IW & PW & (host & port & r & R1 & R2 & R3) & LD). destruct (C90_refines evs corr MK) as (es & ME & EY). fold Y in EY.
    destruct (yrun_ok C compression batch_size acks timeout depth neg_read frames OK es _ (whole_init C compression depth frames cluster_init corr)) as [EP _]. rewrite <- EY in EP. cbn [pstack_init y_prod] in EP. rewrite EP in IW.
    destruct (C75_written C compression batch_size acks timeout _ cluster_init corr rq w CL SUP (made_events C compression batch_size acks timeout depth neg_read es (pstack_init cluster_init corr) (producer_init cluster_init corr) ME) IW PW) as [_ X]. destruct (X d KR) as [_ MR].
    assert (BACK : forall t p km, In km (kcarried t p d) -> exists m, In m (carried [rq] t p)) by (intros t p km IK; specialize (MR t p); destruct MR; [destruct IK|eexists; now left]).
    exists (pq_leader rq), host, port. split; [exact R3|]. split.
    - destruct (heard_arrived C depth frames _ _ r LK A R1) as (brokers & topics & MA & ->). exists brokers, topics. split; [exact MA|]. eapply as_mresp_broker. exact R2.
    - destruct LD as [NO|(r' & R4 & R5)]; [destruct (BACK _ _ _ KM) as (m & Hm); rewrite NO in Hm; destruct Hm|].
      destruct (heard_arrived C depth frames _ _ r' LK A R4) as (brokers & topics & MA & ->). exists brokers, topics. split; [exact MA|]. intros t p km IK. destruct (BACK t p km IK) as (m & Hm). eapply as_mresp_leader. exact (R5 t p m Hm).
  Qed.
End C90.

(** A producer from start() on: the bootstrap host says that broker 1 leads partition 0 of topic a and broker 2 partition 1;
    both get their messages.  After a heal() that reports broker 2 as leader of both, everything goes there. *)
Definition fr_meta (brokers : list (Z * text * Z)) (topics : list (Z * text * list kpart)) : bytes :=
  eb_arr (fun '(b, h, p) => big_endian 4 b ++ eb_str h ++ big_endian 4 p) brokers ++
  eb_arr (fun '(c, t, ps) => big_endian 2 c ++ eb_str t ++ eb_arr (fun x => big_endian 2 (kp_code x) ++ big_endian 4 (kp_id x) ++ big_endian 4 (kp_leader x) ++ big_endian 4 0 ++ big_endian 4 0) ps) topics.
Definition fr_brokers : list (Z * text * Z) := [(1, txt "h1", 9092); (2, txt "h2", 9093)].
Definition fr_topics1 : list (Z * text * list kpart) := [(0, tp_a, [KPart 0 0 1; KPart 0 1 2])].
Definition fr_topics2 : list (Z * text * list kpart) := [(0, tp_a, [KPart 0 0 2; KPart 0 1 2])].
Definition fr_frames (n : nat) : list (Z * bytes) :=
  match n with O => [(42, fr_meta fr_brokers fr_topics1)] | 1%nat => [(45, fr_meta fr_brokers fr_topics2)] | _ => [] end.
Definition fr_reads (n : nat) : list (fevent yevent) := repeat (FConn n Connection.EvRead) 8.
Definition fr_evs : list (fevent yevent) :=
  [FStart 1 [txt "b"]; FConnected 1 (Ok tt) None; FConn 0%nat (Connection.EvData (frames_bytes (fr_frames 0)))] ++ fr_reads 0 ++
  [FAnswered 1 [] None; FConnected 1 (Ok tt) None; FConnected 1 (Ok tt) None] ++ map (fun l => FOwn (YCall (send_ l) st_none)) (firstn 3 words) ++ [FOwn (YCall (EvFlush parity) st_none)] ++
  [FHeal 2 None; FConn 1%nat (Connection.EvData (frames_bytes (fr_frames 1)))] ++ fr_reads 1 ++ [FAnswered 2 [] None] ++
  map (fun l => FOwn (YCall (send_ l) st_none)) (skipn 3 words ++ firstn 3 words) ++ [FOwn (YCall (EvFlush parity) st_none)].
Notation fr_run evs := (pfrun demo_codec 1 (Some 10) 1 500 1 st_neg evs (pfinit 41)).
Lemma fr_metas topics : topics = fr_topics1 \/ topics = fr_topics2 -> kw_metadata fr_brokers topics (fr_meta fr_brokers topics).
Proof.
  intros H. eexists. eexists. split; [|split; [|reflexivity]].
  - apply arr_ok; [|vm_compute; reflexivity]. intros [[b h] p] [E|[E|[]]]; injection E as <- <- <-; (do 3 eexists; split; [|split; [|split; [|reflexivity]]]; cbn [fst snd]); try (split; [|reflexivity]; vm_compute; split; congruence);
      (eexists; split; [vm_compute; reflexivity|split; [vm_compute; reflexivity|vm_compute; reflexivity]]).
  - assert (TP : forall ps, (forall x, In x ps -> kp_code x = 0 /\ 0 <= kp_id x < 5 /\ 0 <= kp_leader x < 5) -> zlen ps < 5 ->
      kw_meta_topic (0, tp_a, ps) (big_endian 2 0 ++ eb_str tp_a ++ eb_arr (fun x => big_endian 2 (kp_code x) ++ big_endian 4 (kp_id x) ++ big_endian 4 (kp_leader x) ++ big_endian 4 0 ++ big_endian 4 0) ps)).
    { intros ps A L. do 3 eexists. split; [|split; [|split; [|reflexivity]]]; cbn [fst snd]; [split; [vm_compute; split; congruence|reflexivity]|eexists; split; [vm_compute; reflexivity|split; vm_compute; reflexivity]|].
      apply arr_ok; [|lia]. intros x Hx. destruct (A x Hx) as (A1 & A2 & A3). exists (big_endian 2 (kp_code x)), (big_endian 4 (kp_id x)), (big_endian 4 (kp_leader x)), [], (big_endian 4 0), [], (big_endian 4 0).
      assert (EM : kw_array (kw_int 4) [] (big_endian 4 0)) by (apply (arr_ok (kw_int 4) (big_endian 4) []); [intros ? []|vm_compute; reflexivity]).
      rewrite A1. repeat split; try exact EM; try (unfold SpecWire.fits; cbn; lia). }
    destruct H as [-> | ->]; (apply arr_ok; [|vm_compute; reflexivity]; intros [[c t] ps] [E|[]]; injection E as <- <- <-; apply TP; [|vm_compute; reflexivity]; intros x [<-|[<-|[]]]; cbn; lia).
Qed.
Definition fr_req : list (text * list (Z * list (Z * kmsg))) :=
  [(tp_a, [(1, [(-1, jm [[8364; 34]]); (-1, jm [txt "two"; txt "2"])]); (0, [(-1, jm [txt "one"]); (-1, jm [txt "three"])])])].
Definition fr_ask : bytes := big_endian 4 0.
Notation fr_end := (fr_run fr_evs).
Lemma fr_writes0 : written_on (y_link (f_base fr_end)) 0 = [request_frame 3 42 fr_ask].
Proof. vm_compute. reflexivity. Qed.
Lemma fr_writes1 : written_on (y_link (f_base fr_end)) 1 = [request_frame 0 43 (eb_produce 1 500 1 [(tp_a, [(0, [(-1, jm [txt "one"]); (-1, jm [txt "three"])])])]); request_frame 3 45 fr_ask].
Proof. vm_compute. reflexivity. Qed.
Lemma fr_writes2 : written_on (y_link (f_base fr_end)) 2 = [request_frame 0 44 (eb_produce 1 500 1 [(tp_a, [(1, [(-1, jm [txt "two"; txt "2"])])])]); request_frame 0 46 (eb_produce 1 500 1 fr_req)].
Proof. vm_compute. reflexivity. Qed.
Example C90_example : link_hears fr_frames (y_link (f_base fr_end)) /\ kafka_answers fr_frames (y_link (f_base fr_end)) /\ Forall fmakes fr_evs /\
  map (fun p => fst (get_leader tp_a p (p_cluster (y_prod (f_base fr_end))))) [0; 1; 2] = [Ok 2; Ok 2; Err EKey] /\
  map (fun b => option_map (fun c => (cc_id c, cc_host c, cc_port c)) (dget (k_conns (p_cluster (y_prod (f_base fr_end)))) b)) [1; 2] = [Some (1%nat, txt "h1", 9092); Some (2%nat, txt "h2", 9093)] /\
  f_ended fr_end = [(1, Ok tt); (2, Ok tt)] /\
  kreceives demo_codec (request_frame 0 46 (eb_produce 1 500 1 fr_req)) fr_req /\ kcarried tp_a 0 fr_req = [jm [txt "one"]; jm [txt "three"]].
Proof.
  split; [|split; [|split; [|split; [|split; [|split; [|split]]]]]].
  - intros [|[|[|n]]]; cbn [fr_frames]; [| |split; [constructor|exists []; vm_compute; reflexivity]|split; [constructor|exists []; vm_compute; reflexivity]]; (split; [|exists []; vm_compute; reflexivity]); repeat constructor; vm_compute; try reflexivity; try (split; congruence); try congruence.
  - intros [|[|n]] id raw H; [| |destruct H]; cbn [fr_frames In] in H; destruct H as [E|[]]; injection E as <- <-; [rewrite fr_writes0|rewrite fr_writes1]; exists "metadata"%string, 3, fr_ask; (split; [cbn; intuition|]); (split; [vm_compute; split; congruence|]).
    + split; [now left|]. intros _. do 2 eexists. apply (fr_metas fr_topics1). now left.
    + split; [right; now left|]. intros _. do 2 eexists. apply (fr_metas fr_topics2). now right.
  - unfold fr_evs, fr_reads, send_. cbn [app map firstn skipn words repeat]. repeat (constructor; [first [exact I|cbn [fmakes ymakes]; do 2 eexists; split; [reflexivity|split; exact I]]|]). constructor.
  - vm_compute. reflexivity.
  - vm_compute. reflexivity.
  - vm_compute. reflexivity.
  - do 4 eexists. split; [reflexivity|]. apply okp_ok. vm_compute. reflexivity.
  - vm_compute. reflexivity.
Qed.
Print Assumptions C90_tables.
Print Assumptions C90_connections.
Print Assumptions C90_refines.
Print Assumptions C90_routed.
