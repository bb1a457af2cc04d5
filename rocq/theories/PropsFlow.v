(** Property theorems C62-C64: what a producer writes, from produce() to the wire and to a consumer.  Specification: SpecFlow.v. *)
From Coq Require Import ZArith String List Bool Lia.
From Verif Require Import PyBase BaseLemmas Utf8 Primitives Messages Protocol Schemas Request SpecWire SpecRequest SpecCodec Constants Cluster Producer SpecProducer ProducerProofs ProducerOrder ProducerAnswers SpecFlow ProducerRun ProducerWire SpecProduced ProducerBytes PropsWire WireProps PropsProducer.
Import ListNotations.
Open Scope Z_scope.

(** * C62 The messages written for a partition were produced for its topic, and are in the order produced *)
Section C62.
  Variable batch_size : option Z.
  Variables acks timeout : Z.
  Variable compress_fails : list pmsg -> option exn.
  Variable serialize_fails : prequest -> option exn.
  Notation prun := (prun batch_size acks timeout compress_fails serialize_fails).
  Notation accepted := (accepted batch_size acks timeout compress_fails serialize_fails).
  Notation each_event := (each_event batch_size acks timeout compress_fails serialize_fails).

  (** in every run whatsoever *)
  Theorem C62_only_produced : forall evs k corr t p m, In m (carried (p_wire (prun evs (producer_init k corr))) t p) ->
    In (t, pm_msg m) (accepted evs (producer_init k corr)).
  Proof. intros evs k corr t p m H. eapply nth_error_In. apply written_accepted with (p := p). exact H. Qed.
  (** in every run in which nothing has to be sent again *)
  Theorem C62_in_order : forall evs k corr t p, each_event steady evs (producer_init k corr) ->
    in_order (map pm_msg (carried (p_wire (prun evs (producer_init k corr))) t p)) (for_topic t (accepted evs (producer_init k corr))).
  Proof. exact (written_in_order batch_size acks timeout compress_fails serialize_fails). Qed.
End C62.

(** three flushes, the first one answered *)
Definition flow_evs : list pevent :=
  [put tp_a 1; put tp_a 2; put tp_a 3; EvFlush parity; put tp_a 4; put tp_a 5; EvResponse 42 [(tp_a, [(0, 0); (1, 0)])]; EvFlush parity; put tp_a 6; put tp_a 7; EvClose parity].
Lemma parity_leads m : leaderless parity demo_cluster tp_a m = false.
Proof. unfold leaderless, parity. cbn -[Nat.even]. now destruct (Nat.even (pm_id m)). Qed.
Lemma steady_a s ev : p_cluster s = demo_cluster -> (p_unsent s = [] \/ exists q, p_unsent s = [(tp_a, q)]) ->
  match ev with EvProduce part t _ => part = parity /\ t = tp_a | EvFlush part | EvClose part => part = parity | EvResponse _ resp => any_retriable resp = false | _ => False end -> steady s ev.
Proof.
  intros K U E. assert (Q : forall t m, In m (queue_of s t) -> leaderless parity (p_cluster s) t m = false).
  { intros t m. rewrite K. unfold queue_of. destruct U as [->|[q ->]]; [intros []|]. cbn [dget]. change (eqb tp_a t) with (list_eqb tp_a t). destruct (list_eqb tp_a t) eqn:ET; [|intros []]. apply list_eqb_spec in ET. subst t. intros _. apply parity_leads. }
  destruct ev; try contradiction; cbn [steady]; [destruct E as [-> ->]; split; [exact Q|intros m _; rewrite K; apply parity_leads]|subst; exact Q|subst; exact Q|exact E].
Qed.
Example C62_example : each_event (Some 10) 1 500 never never steady flow_evs demo_start /\
  map (fun m => m_value (pm_msg m)) (carried (p_wire (drun flow_evs demo_start)) tp_a 0) = map PInt [1; 3; 5; 7] /\
  map m_value (for_topic tp_a (accepted (Some 10) 1 500 never never flow_evs demo_start)) = map PInt [1; 2; 3; 4; 5; 6; 7].
Proof.
  split; [|split; vm_compute; reflexivity]. unfold flow_evs, put.
  repeat (split; [apply steady_a; [vm_compute; reflexivity|vm_compute; eauto|cbn; auto]|]). exact I.
Qed.

(** the order is lost when a broker asks for a retry: message 1 is written again after message 2 *)
Definition retry_evs : list pevent :=
  [put tp_a 1; EvFlush parity; put tp_b 9; put tp_a 2; EvFlush parity; EvResponse 42 [(tp_a, [(0, 6)])]; EvFlush parity].
Theorem C62_retries_reorder : exists evs, let s := drun evs demo_start in
  map (fun m => m_value (pm_msg m)) (carried (p_wire s) tp_a 0) = map PInt [1; 2; 1] /\
  ~ in_order (map pm_msg (carried (p_wire s) tp_a 0)) (for_topic tp_a (accepted (Some 10) 1 500 never never evs demo_start)).
Proof.
  exists retry_evs. split; [vm_compute; reflexivity|]. assert (E : map pm_msg (carried (p_wire (drun retry_evs demo_start)) tp_a 0) = map demo_msg [1; 2; 1]) by (vm_compute; reflexivity).
  assert (E2 : for_topic tp_a (accepted (Some 10) 1 500 never never retry_evs demo_start) = map demo_msg [1; 2]) by (vm_compute; reflexivity). cbv zeta. rewrite E, E2. unfold demo_msg. cbn [map]. intros H.
  repeat match goal with X : in_order (_ :: _) _ |- _ => inversion X; subst; clear X end.
Qed.

(** * C63 Every produce request written can be read by Kafka, and carries the messages produced *)
Section C63.
  Variable C : codec.
  Variable compression : Z.
  Hypothesis CL : codec_laws C.
  Hypothesis SUP : compression = 0 \/ compression = 1 \/ compression = 2.
  Variable batch_size : option Z.
  Variables acks timeout : Z.
  Notation prun := (prun batch_size acks timeout (compress_raises C compression) (serialize_raises C compression)).
  Notation accepted := (accepted batch_size acks timeout (compress_raises C compression) (serialize_raises C compression)).
  Notation each_event := (each_event batch_size acks timeout (compress_raises C compression) (serialize_raises C compression)).

  Lemma accepted_made evs : forall s t m, each_event makes evs s -> In (t, m) (accepted evs s) -> made m.
  Proof.
    induction evs as [|ev evs IH]; intros s t m E H; [destruct H|]. destruct E as [E1 E2]. cbn [SpecFlow.accepted] in H. apply in_app_iff in H as [H|H]; [|eapply IH; eassumption].
    destruct ev as [part t0 [m0|]|part t0 [m0|]| | | | | | |]; cbn [SpecFlow.accepts] in H; try (now destruct H); (destruct (Nat.eqb _ _); [destruct H|]; destruct H as [H|[]]; injection H as <- <-; exact E1).
  Qed.
  Lemma carried_in_topics rq t d p ms m : In (t, d) (pq_topics rq) -> In (p, ms) d -> In m ms -> In m (carried [rq] t p).
  Proof.
    intros A B D. unfold carried. cbn [flat_map]. rewrite app_nil_r. apply in_flat_map. exists (t, d). split; [exact A|]. cbn [fst snd]. rewrite (proj2 (list_eqb_spec t t) eq_refl). apply in_flat_map. exists (p, ms). split; [exact B|]. cbn [fst snd]. rewrite Z.eqb_refl. exact D.
  Qed.
  Theorem C63_requests_readable : forall evs k corr rq, each_event makes evs (producer_init k corr) -> In rq (p_wire (prun evs (producer_init k corr))) ->
    exists payload, produce_wire C compression rq = Ok (request_frame 0 (pq_corr rq) payload) /\ fits 32 (pq_corr rq) /\
      fits 32 (zlen (request_body 0 (pq_corr rq) payload)) /\ payload_bytes C compression acks timeout (pq_topics rq) payload.
  Proof using CL SUP.
    intros evs k corr rq E H. destruct (run_wire_ok batch_size acks timeout (compress_raises C compression) (serialize_raises C compression) evs _ (pinv_init k corr) (fun _ X => match X with end) rq H) as (S & EA & ET).
    unfold serialize_raises in S. destruct (produce_wire C compression rq) as [bs|] eqn:W; [|discriminate]. destruct (produce_bytes C compression CL SUP rq bs) with (2 := W) as (payload & -> & F & F2 & P); [|rewrite EA, ET in P; exists payload; auto].
    intros t d p ms m A B D. eapply accepted_made; [exact E|]. eapply (C62_only_produced batch_size acks timeout).
    apply in_split in H as (l1 & l2 & ->). rewrite carried_app. apply in_or_app. right. change (rq :: l2) with ([rq] ++ l2). rewrite carried_app. apply in_or_app. left. eapply carried_in_topics; eassumption.
  Qed.
End C63.

(** the messages produce() makes meet the hypothesis *)
Theorem C63_messages_made : forall key value m, make_message key value = Ok m -> (forall k, key = Ok k -> usable k) -> (forall v, value = Ok v -> usable v) -> made m.
Proof. intros [k|] [v|] m E K V; try discriminate E. injection E as <-. exists k, v. auto. Qed.
Definition say (n : Z) : pevent := EvProduce parity tp_a (make_message (Ok (if n =? 2 then PBytes [200] else PNone)) (Ok (PBytes [104; 105; n]))).
Definition say_evs : list pevent := [say 1; say 2; say 3; EvFlush parity; say 4; EvClose parity].
Example C63_example : forall comp, comp = 0 \/ comp = 1 \/ comp = 2 ->
  codec_laws demo_codec /\ each_event (Some 10) 1 500 (compress_raises demo_codec comp) (serialize_raises demo_codec comp) makes say_evs demo_start /\
  map pq_corr (p_wire (prun (Some 10) 1 500 (compress_raises demo_codec comp) (serialize_raises demo_codec comp) say_evs demo_start)) = [42; 43].
Proof.
  intros comp H. split; [exact demo_codec_laws|]. split.
  - unfold say_evs. assert (M : forall n, 0 <= n < 256 -> forall s, makes s (say n)). { intros n Hn s. unfold makes, say. destruct (n =? 2); cbn [make_message bind]; do 2 eexists; (split; [reflexivity|]); (split; [|cbn; repeat constructor; lia]); cbn; repeat constructor; lia. }
    cbn [each_event]. repeat (split; [first [apply M; lia|exact I]|]). exact I.
  - destruct H as [-> | [-> | ->]]; vm_compute; reflexivity.
Qed.

Print Assumptions C62_only_produced.
Print Assumptions C62_in_order.
Print Assumptions C62_retries_reorder.
Print Assumptions C63_requests_readable.
