(** Property C87: correlation ids on the wire of one connection. *)
From Coq Require Import ZArith String List Bool Lia.
From Verif Require Import PyBase BaseLemmas Messages Protocol Request SpecWire SpecRequest SpecSent SpecCodec Cluster Zookeeper Consumer SpecConsumer ConsumerProofs SpecConn ConnProofs ResponseRead StackWire Stack SpecStack StackProofs Producer SpecProducer ProducerStack SpecProducerStack ProducerStackProofs PropsWire PropsKafka PropsProducer PropsBytes PropsStack PropsGroupStack.
From Verif Require Connection.
Import ListNotations.
Open Scope Z_scope.

(** the bytes [w] written on a connection are a request Kafka reads as one with correlation id [id] *)
Definition has_id (w : bytes) (id : Z) : Prop := exists api key payload, In (api, key) kafka_api_numbers /\ fits 32 id /\ w = request_frame key id payload.
(** [w] was written on the connection for the caller that got the future [f] *)
Definition written_for (l : link) (f : nat) (w : bytes) : Prop := In (f, w) (l_out l).
Definition has_result (l : link) (f : nat) : Prop := exists o, In (f, o) (Connection.c_done (l_conn l)).
(** of the requests written on the connection each has a caller; two of them with the same id are the same bytes, and as
    long as the connection is open at most one of them is without its result *)
Definition ids_kept (l : link) : Prop :=
  (forall w, In w (Connection.c_written (l_conn l)) <-> exists f, written_for l f w) /\ (forall f w, written_for l f w -> exists id, has_id w id) /\
  forall f w f' w' id, written_for l f w -> written_for l f' w' -> has_id w id -> has_id w' id ->
    w = w' /\ (Connection.c_closing (l_conn l) = false -> f <> f' -> has_result l f \/ has_result l f').

Lemma link_ids C depth frames n l last : link_ok C depth frames n l last -> ids_kept l.
Proof.
  intros [A B D E WA WO]. split; [|split].
  - intros w. rewrite WA, in_map_iff. split; [intros ([f w'] & <- & H); exists f; exact H|intros (f & H); exists (f, w); auto].
  - intros f w H. destruct (WO f w H) as (obj & _ & X & _). eexists. exact X.
  - intros f w f' w' id H H' (a1 & k1 & p1 & K1 & F1 & E1) (a2 & k2 & p2 & K2 & F2 & E2). destruct (WO f w H) as (obj & IO & (a3 & k3 & p3 & K3 & F3 & E3) & PW), (WO f' w' H') as (obj' & IO' & (a4 & k4 & p4 & K4 & F4 & E4) & PW').
    rewrite E1 in E3. rewrite E2 in E4. destruct (C05_frame_readable _ _ _ _ _ _ _ _ K1 K3 F1 F3 E3) as (_ & _ & EC & _), (C05_frame_readable _ _ _ _ _ _ _ _ K2 K4 F2 F4 E4) as (_ & _ & EC' & _).
    assert (obj' = obj) as -> by (eapply (i_id _ _ _ _ A); [exact IO'|exact IO|congruence]). split; [congruence|]. intros CL N.
    assert (R : forall g, In g (completed (l_conn l)) -> has_result l g) by (intros g G; unfold completed in G; apply in_map_iff in G as ([g' o] & <- & G); exists o; exact G).
    destruct (i_o _ _ _ _ A CL _ _ IO) as [X|X]; [left; auto|]. destruct (i_o _ _ _ _ A CL _ _ IO') as [Y|Y]; [right; auto|]. congruence.
Qed.

(** In whatever state a consumer of either kind can get into: requests on one connection with one id are the same bytes,
    and all but one of them have their results. *)
Theorem C87_consumer {V} (cfg : config V) C depth neg_read S n : sreachable cfg C depth neg_read S -> ids_kept (k_link S n).
Proof.
  intros R. assert (OK : forall m : nat, Forall frame_ok (@nil (Z * bytes))) by constructor.
  pose proof (si_links _ _ _ _ _ (reach_stack cfg C depth neg_read (fun _ => []) OK S R)) as L. eapply link_ids, L.
Qed.
Theorem C87_producer C compression batch_size acks timeout depth neg_read evs k corr n : ids_kept (y_link (yrun C compression batch_size acks timeout depth neg_read evs (pstack_init k corr)) n).
Proof.
  assert (OK : forall m : nat, Forall frame_ok (@nil (Z * bytes))) by constructor.
  destruct (yrun_ok C compression batch_size acks timeout depth neg_read (fun _ => []) OK evs _ (whole_init C compression depth (fun _ => []) k corr)) as [_ W].
  eapply link_ids. apply (yi_link _ _ _ _ _ _ _ _ (wh_y _ _ _ _ _ W) n).
Qed.

(** a group member whose coordinator is still loading the offsets asks again with the same bytes, and gets them *)
Definition ri_loading : list (text * list (Z * (Z * Z))) := [(tp_a, [(0, (14, -1)); (1, (0, 4))])].
Definition ri_frames : list (Z * bytes) := [(42, gs_coordinator); (43, eb_stored ri_loading); (43, eb_stored gs_stored); (44, eb_fetch tp_a kparts1)].
Definition ri_frame (j : nat) : list sevent := st_bytes (firstn 1 (skipn j ri_frames)) :: st_reads.
Definition ri_evs : list sevent :=
  [SConn 0%nat Connection.EvConnected; SLabel (Alloc (EvMembers [txt "me"])) st_none; SLabel (Alloc (EvPartitions (Some [part_name tp_a 0; part_name tp_a 1]))) st_none; SLabel (Call 1 OpCoordinator) st_none] ++
  ri_frame 0 ++ [SDone 1 1 st_none; SLabel (Call 2 (OpConsume tp_a None)) st_none] ++ ri_frame 1 ++ [SDone 2 1 st_none].
Definition ri_again : stack (list text) := gs_run ri_evs (stack_init demo_cluster (txt "me") 41).
Definition ri_end : stack (list text) := gs_run (ri_frame 2 ++ [SDone 2 1 st_none] ++ ri_frame 3 ++ [SDone 2 1 st_none]) ri_again.
Example C87_example : let w := request_frame 9 43 (kafka_payload (ROffsetFetch (txt "g") tp_a [0; 1])) in
  sreachable gs_cfg demo_codec 1 st_neg ri_again /\ Connection.c_closing (l_conn (k_link ri_again 0)) = false /\
  has_id w 43 /\ written_for (k_link ri_again 0) 1 w /\ written_for (k_link ri_again 0) 2 w /\ has_result (k_link ri_again 0) 1 /\ ~ has_result (k_link ri_again 0) 2 /\
  map snd (c_ended (k_cons ri_end)) = [Ok RvNone; Ok (RvList [[txt "one"]; [txt "two"; txt "2"]; [[8364; 34]]])].
Proof.
  split; [do 4 eexists; reflexivity|]. split; [vm_compute; reflexivity|].
  split; [exists "offset_fetch"%string, 9; eexists; split; [cbn; intuition|]; split; [vm_compute; split; congruence|reflexivity]|].
  split; [vm_compute; intuition|]. split; [vm_compute; intuition|]. split; [eexists; vm_compute; right; left; reflexivity|].
  split; [intros (o & H); vm_compute in H; repeat (destruct H as [H|H]; [discriminate H|]); destruct H|]. vm_compute. reflexivity.
Qed.
Print Assumptions C87_consumer.
Print Assumptions C87_producer.
