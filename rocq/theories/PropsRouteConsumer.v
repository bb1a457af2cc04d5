(** Property C91: a consumer routes by what the metadata responses say.  Specification: SpecRoute.v, SpecAsks.v. *)
From Coq Require Import ZArith String List Bool Lia.
From Verif Require Import PyBase BaseLemmas Messages Protocol Request SpecWire SpecRequest SpecCodec Cluster SpecCluster Zookeeper Heals Consumer SpecConsumer ConsumerProofs SpecSent SpecEnd PropsWire PropsProducer PropsEnd SpecKafka PropsKafka SpecBytes PropsBytes SpecConn Stack SpecStack StackWire StackProofs PropsStack ProducerStackProofs HealOrigin Full FullProofs FullConsumer SpecAsks ConsumerNet RouteProducer RouteConsumer SpecRoute RouteHeard PropsRoute.
From Verif Require Connection.
Import ListNotations.
Open Scope Z_scope.

Lemma api_number rq : exists api, In (api, kafka_api rq) kafka_api_numbers.
Proof.
  destruct rq; [exists "fetch"%string|exists "offset"%string|exists "offset_fetch"%string|exists "offset_commit"%string|exists "group_coordinator"%string]; vm_compute; tauto.
Qed.
Lemma metadata_number : In ("metadata"%string, 3) kafka_api_numbers.
Proof. vm_compute. tauto. Qed.

Section C91.
  Context {V : Type}.
  Variable cfg : config V.
  Variable C : codec.
  Variable depth : nat.
  Variable neg_read : Z -> bytes -> bytes * bytes.
  Notation cfrun := (cfrun cfg C depth neg_read).
  Notation srun := (srun cfg C depth neg_read).

  (** All leaders in the tables are those that one metadata response names whose bytes have all arrived. *)
  Theorem C91_tables : forall frames evs name last, let S := f_base (cfrun evs (cfinit name last)) in let k := c_cluster (k_cons S) in
    link_hears frames (k_link S) -> kafka_answers frames (k_link S) ->
    forall t0 p0 b0, fst (get_leader t0 p0 k) = Ok b0 ->
    exists brokers topics, metadata_arrived frames (k_link S) brokers topics /\ forall t p b, fst (get_leader t p k) = Ok b -> names_leader topics t p b.
  Proof.
    intros frames evs name last S k H A t0 p0 b0 L. pose proof (cfrun_inv cfg C depth neg_read frames (PropsRoute.hears_frames _ _ H) evs name last) as FI. destruct (fi_base _ _ _ _ _ _ _ _ _ FI) as [SI _]. fold S in SI.
    destruct (fi_from _ _ _ _ _ _ _ _ _ FI (hears_hearing _ _ H)) as [_ LF _]. cbn [h_k] in LF. fold S in LF. change (scl S) with k in LF.
    assert (GL : forall t p b, fst (get_leader t p k) = Ok b -> leader k t p b).
    { intros t p b X. destruct (ProducerOrder.get_leader_tabs t p k) as [E _]. rewrite E in X. apply leader_is. destruct (SpecProducer.leader_for k t p); congruence. }
    destruct LF as [N|(r & HR & X)]; [destruct (N t0 p0 b0); auto|]. destruct (heard_arrived C depth frames _ _ r (si_links _ _ _ _ _ SI) A HR) as (brokers & topics & MA & ->).
    exists brokers, topics. split; [exact MA|]. intros t p b G. eapply as_mresp_leader. apply X, GL, G.
  Qed.

  (** The connection the cluster has for a broker was made for an address that a metadata response gave for this broker. *)
  Theorem C91_connections : forall frames evs name last, let S := f_base (cfrun evs (cfinit name last)) in let k := c_cluster (k_cons S) in
    link_hears frames (k_link S) -> kafka_answers frames (k_link S) ->
    forall b c, dget (k_conns k) b = Some c -> made_for k (cc_id c) (cc_host c) (cc_port c) /\
    exists brokers topics, metadata_arrived frames (k_link S) brokers topics /\ puts_at brokers b (cc_host c) (cc_port c).
  Proof.
    intros frames evs name last S k H A b c D. pose proof (cfrun_inv cfg C depth neg_read frames (PropsRoute.hears_frames _ _ H) evs name last) as FI. destruct (fi_base _ _ _ _ _ _ _ _ _ FI) as [SI _]. fold S in SI.
    destruct (fi_from _ _ _ _ _ _ _ _ _ FI (hears_hearing _ _ H)) as [CF _ _]. cbn [h_k] in CF. fold S in CF. change (scl S) with k in CF.
    apply dget_In in D. destruct (CF b c D) as [(r & HR & X) ML]. split; [exact ML|]. destruct (heard_arrived C depth frames _ _ r (si_links _ _ _ _ _ SI) A HR) as (brokers & topics & MA & ->).
    exists brokers, topics. split; [exact MA|]. eapply as_mresp_broker. exact X.
  Qed.

  (** A whole consumer's history is, below its cluster, a history of Stack.v: what was proved of those (C77, C79, C85-C88)
      holds of it. *)
  Theorem C91_refines : forall evs name last, exists es, f_base (cfrun evs (cfinit name last)) = srun es (stack_init cluster_init name last).
  Proof.
    intros evs name last. destruct (cfrun_below cfg C depth neg_read (fun _ => True) evs name last) as (es & _ & E); auto; [|eauto].
    apply Forall_forall. intros [e|n ev|i hosts|i wr|i alt wr|i r wr|n topics|] _; auto.
  Qed.

  (** Everything a consumer writes is a metadata request or goes to a connection made for an address that a metadata
      response gives for a broker.  A fetch or offset request goes to the broker that a metadata response names as the
      leader of all the partitions it asks for. *)
  Theorem C91_routed : forall frames evs name last, let S := f_base (cfrun evs (cfinit name last)) in
    link_hears frames (k_link S) -> kafka_answers frames (k_link S) ->
    forall n api key id payload, In (api, key) kafka_api_numbers -> SpecWire.fits 32 id -> key <> 3 -> In (request_frame key id payload) (written_on (k_link S) n) ->
    exists b host port, made_for (c_cluster (k_cons S)) n host port /\
      (exists brokers topics, metadata_arrived frames (k_link S) brokers topics /\ puts_at brokers b host port) /\
      forall rq t0 p0, fits_kafka rq -> key = kafka_api rq -> payload = kafka_payload rq -> asks_for rq t0 p0 ->
      exists brokers topics, metadata_arrived frames (k_link S) brokers topics /\ forall t p, asks_for rq t p -> names_leader topics t p b.
  Proof.
    intros frames evs name last S H A n api key id payload IK FI K3 W. pose proof (PropsRoute.hears_frames _ _ H) as OK. pose proof (cfrun_inv cfg C depth neg_read frames OK evs name last) as INV. destruct (fi_base _ _ _ _ _ _ _ _ _ INV) as [SI _]. fold S in SI.
    pose proof (fi_rt _ _ _ _ _ _ _ _ _ INV (hears_hearing _ _ H)) as RT. fold S in RT. pose proof (si_links _ _ _ _ _ SI) as LK.
    unfold written_on in W. rewrite (lk_all _ _ _ _ _ _ (LK n)) in W. apply in_map_iff in W as ([f w'] & E & W). cbn [snd] in E. subst w'.
    destruct (RT n f _ W) as [(topics & lst & obj & MO & PW)|(b & rq & lst & IW & PL & PW & (host & port & r & R1 & R2 & R3) & LD)].
    - exfalso. unfold meta_object in MO. destruct (Connection.request_of _ _ _ _) as [[o l']|e] eqn:RO; [|discriminate MO]. injection MO as ->. destruct (meta_facts 0 neg_read _ _ _ _ RO) as (_ & _ & _ & X).
      destruct (X _ PW) as (payload' & EF & FI2). pose proof metadata_number as IM. destruct (C05_frame_readable _ _ _ _ _ _ _ _ IK IM FI FI2 EF) as (_ & EK & _). exact (K3 EK).
    - destruct (written_kafka rq lst _ PL PW) as (FK & F2 & EF). exists b, host, port. split; [exact R3|]. split.
      + destruct (heard_arrived C depth frames _ _ r LK A R1) as (brokers & topics & MA & ->). exists brokers, topics. split; [exact MA|]. eapply as_mresp_broker. exact R2.
      + intros rq' t0 p0 FK' EK EP AF. destruct (api_number rq) as [api' IK'].
        destruct (C05_frame_readable _ _ _ _ _ _ _ _ IK IK' FI F2 EF) as (_ & EK' & _ & EP'). assert (rq' = rq) as -> by (apply C77_request_readable; congruence).
        destruct LD as [NO|(r' & R4 & R5)]; [destruct (NO t0 p0 AF)|]. destruct (heard_arrived C depth frames _ _ r' LK A R4) as (brokers & topics & MA & ->). exists brokers, topics. split; [exact MA|]. intros t p AF'. eapply as_mresp_leader. exact (R5 t p AF').
  Qed.
End C91.

(** A consumer from start() on: the bootstrap host says that broker 1 leads partition 0 of topic a and broker 2 partition 1;
    each is asked for the end of its partition.  After a heal() that reports broker 2 as leader of both, the fetch request for
    both goes there. *)
Definition cr_offset (p : Z) : bytes := eb_offset [(tp_a, [(p, (0, [10 + p]))])].
Definition cr_frames (n : nat) : list (Z * bytes) :=
  match n with O => [(42, fr_meta fr_brokers fr_topics1)] | 1%nat => [(43, cr_offset 0); (45, fr_meta fr_brokers fr_topics2)] | 2%nat => [(44, cr_offset 1)] | _ => [] end.
Definition cr_reads (n : nat) : list (fevent sevent) := repeat (FConn n Connection.EvRead) 8.
Definition cr_evs : list (fevent sevent) :=
  [FStart 1 [txt "b"]; FConnected 1 (Ok tt) None; FConn 0%nat (Connection.EvData (frames_bytes (cr_frames 0)))] ++ cr_reads 0 ++
  [FAnswered 1 [] None; FConnected 1 (Ok tt) None; FConnected 1 (Ok tt) None; FOwn (SLabel (Call 1 (OpConsume tp_a None)) st_none); FHeal 2 None; FConn 1%nat (Connection.EvData (frames_bytes (cr_frames 1)))] ++ cr_reads 1 ++ cr_reads 1 ++
  [FConn 2%nat (Connection.EvData (frames_bytes (cr_frames 2)))] ++ cr_reads 2 ++ [FAnswered 2 [] None; FOwn (SDone 1 1 st_none); FOwn (SDone 1 2 st_none)].
Notation cr_end := (cfrun json_cfg demo_codec 1 st_neg cr_evs (cfinit (txt "me") 41)).
Definition cr_lookup (p : Z) : request := ROffset (-1) tp_a [(p, (PInt (-1), 1))].
Lemma cr_writes0 : written_on (k_link (f_base cr_end)) 0 = [request_frame 3 42 fr_ask].
Proof. vm_compute. reflexivity. Qed.
Lemma cr_writes1 : written_on (k_link (f_base cr_end)) 1 = [request_frame 2 43 (kafka_payload (cr_lookup 0)); request_frame 3 45 fr_ask].
Proof. vm_compute. reflexivity. Qed.
Lemma cr_writes2 : written_on (k_link (f_base cr_end)) 2 = [request_frame 2 44 (kafka_payload (cr_lookup 1)); request_frame 1 46 (kafka_payload (st_fetch 10 11))].
Proof. vm_compute. reflexivity. Qed.
Example C91_example : link_hears cr_frames (k_link (f_base cr_end)) /\ kafka_answers cr_frames (k_link (f_base cr_end)) /\
  map (fun p => fst (get_leader tp_a p (c_cluster (k_cons (f_base cr_end))))) [0; 1; 2] = [Ok 2; Ok 2; Err EKey] /\
  map (fun b => option_map (fun c => (cc_id c, cc_host c, cc_port c)) (dget (k_conns (c_cluster (k_cons (f_base cr_end)))) b)) [1; 2] = [Some (1%nat, txt "h1", 9092); Some (2%nat, txt "h2", 9093)] /\
  f_ended cr_end = [(1, Ok tt); (2, Ok tt)] /\
  In (request_frame 1 46 (kafka_payload (st_fetch 10 11))) (written_on (k_link (f_base cr_end)) 2) /\ fits_kafka (st_fetch 10 11) /\ asks_for (st_fetch 10 11) tp_a 0 /\ asks_for (st_fetch 10 11) tp_a 1.
Proof.
  split; [|split; [|split; [|split; [|split; [|split; [|split; [|split]]]]]]].
  - intros [|[|[|n]]]; cbn [cr_frames]; [| | |split; [constructor|exists []; vm_compute; reflexivity]]; (split; [|exists []; vm_compute; reflexivity]); repeat constructor; vm_compute; try reflexivity; try (split; congruence); try congruence.
  - intros [|[|[|n]]] id raw H; cbn [cr_frames In] in H; [destruct H as [E|[]]|destruct H as [E|[E|[]]]|destruct H as [E|[]]|destruct H]; injection E as <- <-; [rewrite cr_writes0|rewrite cr_writes1|rewrite cr_writes1|rewrite cr_writes2].
    + exists "metadata"%string, 3, fr_ask. split; [exact metadata_number|]. split; [vm_compute; split; congruence|]. split; [now left|]. intros _. do 2 eexists. apply (fr_metas fr_topics1). now left.
    + exists "offset"%string, 2, (kafka_payload (cr_lookup 0)). split; [cbn; intuition|]. split; [vm_compute; split; congruence|]. split; [now left|discriminate].
    + exists "metadata"%string, 3, fr_ask. split; [exact metadata_number|]. split; [vm_compute; split; congruence|]. split; [right; now left|]. intros _. do 2 eexists. apply (fr_metas fr_topics2). now right.
    + exists "offset"%string, 2, (kafka_payload (cr_lookup 1)). split; [cbn; intuition|]. split; [vm_compute; split; congruence|]. split; [now left|discriminate].
  - vm_compute. reflexivity.
  - vm_compute. reflexivity.
  - vm_compute. reflexivity.
  - rewrite cr_writes2. right. now left.
  - apply st_fetch_fits; vm_compute; split; congruence.
  - split; [reflexivity|]. cbn. auto.
  - split; [reflexivity|]. cbn. auto.
Qed.
Print Assumptions C91_tables.
Print Assumptions C91_connections.
Print Assumptions C91_refines.
Print Assumptions C91_routed.
