(** Property C110: what Kafka reads of the maker's messages, over connections. *)
From Coq Require Import ZArith String List Bool Lia Sorting.Sorted.
From Verif Require Import PyBase BaseLemmas Utf8 Primitives Messages Protocol Schemas Request SpecWire SpecRequest SpecCodec Constants Cluster Producer SpecProducer ProducerProofs SpecFlow ProducerRun ProducerWire SpecProduced ProducerBytes PropsWire PropsProducer PropsFlow SpecKafka SpecBytes PropsBytes PropsKafka SpecConn Stack PropsStack ProducerStack SpecProducerStack ProducerStackProofs PropsProducerStack SpecTurns TurnsProofs PropsTurns SpecTurnsStack PropsTurnsStack JsonValues Maker PropsMaker.
From Verif Require Connection.
Import ListNotations.
Open Scope Z_scope.

Section C110.
  Variable C : codec.
  Variable compression : Z.
  Variable batch_size : option Z.
  Variables acks timeout : Z.
  Variable depth : nat.
  Variable neg_read : Z -> bytes -> bytes * bytes.
  Notation compress_fails := (compress_raises C compression).
  Notation serialize_fails := (serialize_raises C compression).
  Notation yrun := (yrun C compression batch_size acks timeout depth neg_read).
  Notation pevents := (pevents C compression batch_size acks timeout depth neg_read).
  Notation each_event := (each_event batch_size acks timeout compress_fails serialize_fails).
  Notation maker_runs := (maker_runs batch_size acks timeout compress_fails serialize_fails).
  Notation maker_ends := (maker_ends batch_size acks timeout compress_fails serialize_fails).

  Lemma message_made color n : SpecProduced.made (message_no color n).
  Proof. do 2 eexists. split; [reflexivity|]. split; exact Logic.I. Qed.
  Lemma maker_makes topic color evs : forall st s, maker_runs topic color st evs s -> Forall (makes s) evs.
  Proof.
    intros st s. revert st. generalize s at 2 as s0. revert s. induction evs as [|ev evs IH]; intros s s0 st H; constructor.
    - destruct H as [M _]. destruct ev as [part t [m|e]|part t [m|e]|part|part|c r|c e| |k|]; try exact Logic.I; cbn [maker_may makes] in *; [destruct M as (_ & _ & _ & _ & M)|destruct M as (_ & _ & _ & M)]; injection M as ->; apply message_made.
    - destruct H as [_ H]. eapply IH, H.
  Qed.
  Lemma events_make evs : forall Y s0, Forall (makes s0) (pevents evs Y) -> Forall ymakes evs.
  Proof.
    induction evs as [|ev evs IH]; intros Y s0 H; constructor; cbn [ProducerStack.pevents] in H; apply Forall_app in H as [H1 H2]; [|eapply IH, H2].
    destruct ev as [ev wr|n ev|n topics wr|c]; try exact Logic.I. destruct ev as [part t [m|e]|part t [m|e]|part|part|c r|c e| |k|]; try exact Logic.I; cbn [pevents_of] in H1; inversion H1 as [|? ? _ H3]; subst; inversion H3 as [|? ? H4 _]; subst; exact H4.
  Qed.
  Lemma read_unmap {A B} (R : A -> B -> Prop) (f : Z -> A) ns xs ys : xs = map f ns -> Forall2 R xs ys -> Forall2 (fun n y => R (f n) y) ns ys.
  Proof. intros E F. revert ns E. induction F as [|x y xs ys H F IH]; intros [|n ns] E; try discriminate E; constructor; inversion E; subst; [exact H|now apply IH]. Qed.

  (** The maker runs over connections, on a topic whose partitions stay [ps].  The brokers keep for partition [p] what some of
      the frames written say, in the order the requests were made, without those a broker declined to store there.  What Kafka
      reads of them are messages of the maker with increasing numbers, all belonging to the partition: none twice, none behind a
      later one. *)
  Theorem C110_numbers_increase : forall topic color ps frames evs k corr p kept ds, let Y := yrun evs (pstack_init k corr) in let start := producer_init k corr in let pevs := pevents evs (pstack_init k corr) in
    codec_laws C -> compression = 0 \/ compression = 1 \/ compression = 2 -> phears frames Y -> answers_requests frames Y -> speaks frames Y ->
    maker_runs topic color (0, Making) pevs start -> each_event (partitions_stay topic ps) pevs start ->
    Forall (fun w => exists n, In w (writes Y n) /\ produce_frame w = true) kept -> StronglySorted earlier kept -> (forall w, In w kept -> ~ declined frames Y w topic p) -> Forall2 (kreceives C) kept ds ->
    exists ns, Forall2 (fun n km => msg_reads (message_no color n) (kw_read km)) ns (flat_map (kcarried topic p) ds) /\ StronglySorted Z.lt ns /\
      Forall (fun n => 1 <= n <= fst (maker_ends (0, Making) pevs start) /\ place ps n = p) ns.
  Proof.
    intros topic color ps frames evs k corr p kept ds Y start pevs CL SUP HE AR SP MR PS WR SO DE RC. pose proof (pinv_init k corr) as I. fold start in I.
    assert (MK : Forall ymakes evs) by (eapply events_make, maker_makes, MR).
    assert (W : each_event (waits (maker_home ps)) pevs start). { apply (maker_waits batch_size acks timeout compress_fails serialize_fails topic color ps pevs [] (0, Making) start I); try assumption; [apply known_init|intros [|i] t m X; discriminate X|discriminate]. }
    destruct (C106_kept_in_order C compression batch_size acks timeout depth neg_read (maker_home ps) frames evs k corr topic p kept ds CL SUP MK HE AR SP W WR SO DE RC) as (ms & F2 & IO & HM). fold pevs start in IO.
    destruct (maker_numbers batch_size acks timeout compress_fails serialize_fails topic color pevs (0, Making) start I MR) as (_ & ns & E & S & F).
    assert (FT : for_topic topic (map (fun n => (topic, message_no color n)) ns) = map (message_no color) ns). { unfold for_topic. clear. induction ns as [|n ns IH]; [reflexivity|]. cbn [map filter fst]. rewrite eqb_refl. cbn [map snd]. now rewrite IH. }
    rewrite E, FT in IO. destruct (in_order_unmap _ _ _ IO) as (ns' & E' & IO'). exists ns'. split; [|split; [now apply (in_order_Zsorted _ ns)|]].
    - apply (read_unmap (fun x km => msg_reads x (kw_read km)) (message_no color) ns' (map pm_msg ms) _ E'). clear - F2. induction F2; constructor; assumption.
    - rewrite Forall_forall in *. intros n Hn. split; [exact (F n (in_order_in _ _ _ IO' Hn))|].
      assert (X : In (message_no color n) (map pm_msg ms)) by (rewrite E'; now apply in_map). apply in_map_iff in X as (m & X & Hm). rewrite <- (HM m Hm). unfold maker_home. now rewrite X.
  Qed.
End C110.

(** An example: the maker of [C104_example] over one connection.  Message 1 is declined and sent again with message 2; then
    come the answers and message 3, which is written and not answered yet. *)
Definition mw_run := yrun demo_codec 1 (Some 1) 1 500 1 st_neg.
Definition mw_events := pevents demo_codec 1 (Some 1) 1 500 1 st_neg.
Definition mw_said1 : list (text * list (Z * Z)) := [(tp_a, [(1, 6)])].
Definition mw_said2 : list (text * list (Z * Z)) := [(tp_a, [(1, 0); (0, 0)])].
Definition mw_frames (n : nat) : list (Z * bytes) := match n with O => [(42, eb_produced mw_said1); (43, eb_produced mw_said2)] | _ => [] end.
Definition mw_call (n : Z) : yevent := YCall (EvProduce maker_partitioner tp_a (made n)) st_none.
Definition mw_evs : list yevent :=
  [YConn 0%nat Connection.EvConnected; mw_call 1; YConn 0%nat (Connection.EvData (frames_bytes (firstn 1 (mw_frames 0))))] ++ ys_reads ++ [YDone 42; YCall EvHealed st_none; mw_call 2;
   YConn 0%nat (Connection.EvData (frames_bytes (skipn 1 (mw_frames 0))))] ++ ys_reads ++ [YDone 43; mw_call 3].
Definition mw_end : pstack := mw_run mw_evs (pstack_init demo_cluster 41).
Definition mw_text (v : pyval) : bytes := match v with PStr u => match utf8_encode u with Some b => b | None => [] end | PInt n => match utf8_encode (str_of_int n) with Some b => b | None => [] end | _ => [] end.
Definition mw_msg (n : Z) : kmsg := KMsg (Some (mw_text (PInt n))) (Some (mw_text (m_value (message_no maker_color n)))).
Definition mw_req (k : Z) : list (text * list (Z * list (Z * kmsg))) :=
  if k =? 42 then [(tp_a, [(1, [(-1, mw_msg 1)])])] else if k =? 43 then [(tp_a, [(1, [(-1, mw_msg 1)]); (0, [(-1, mw_msg 2)])])] else [(tp_a, [(1, [(-1, mw_msg 3)])])].
Lemma mw_writes : writes mw_end 0 = [request_frame 0 42 (eb_produce 1 500 1 (mw_req 42)); request_frame 0 43 (eb_produce 1 500 1 (mw_req 43)); request_frame 0 44 (eb_produce 1 500 1 (mw_req 44))].
Proof. vm_compute. reflexivity. Qed.
Definition mw_seen : list pevent :=
  [EvCluster demo_cluster; EvProduce maker_partitioner tp_a (made 1); EvResponse 42 mw_said1; EvCluster demo_cluster; EvHealed; EvCluster demo_cluster; EvProduce maker_partitioner tp_a (made 2); EvResponse 43 mw_said2; EvCluster demo_cluster; EvProduce maker_partitioner tp_a (made 3)].
Lemma mw_events_seen : mw_events mw_evs (pstack_init demo_cluster 41) = mw_seen.
Proof. vm_compute. reflexivity. Qed.
Lemma mw_said_ok r : (r = mw_said1 \/ r = mw_said2) -> kw_produced r (eb_produced r).
Proof.
  intros H. assert (R : exists ps, r = [(tp_a, ps)] /\ (ps = [(1, 6)] \/ ps = [(1, 0); (0, 0)])) by (destruct H as [-> | ->]; eexists; (split; [reflexivity|auto])). destruct R as (ps & -> & HP).
  apply arr_ok; [|vm_compute; reflexivity]. intros tp [<-|[]]. eexists. eexists. split; [exists [97]; split; [vm_compute; reflexivity|]; split; [vm_compute; reflexivity|reflexivity]|]. split; [|reflexivity].
  apply arr_ok; [|destruct HP as [-> | ->]; vm_compute; reflexivity]. intros p IN. cbn [fst snd] in IN |- *. exists (big_endian 4 (fst p)), (big_endian 2 (snd p)), 77, (big_endian 8 77).
  assert (X : p = (1, 6) \/ p = (0, 0) \/ p = (1, 0)) by (destruct HP as [-> | ->]; cbn [In] in IN; intuition). repeat (split; [split; [destruct X as [-> | [-> | ->]]; vm_compute; split; congruence|reflexivity]|]). reflexivity.
Qed.
Example C110_example : let kept := [request_frame 0 43 (eb_produce 1 500 1 (mw_req 43)); request_frame 0 44 (eb_produce 1 500 1 (mw_req 44))] in
  codec_laws demo_codec /\ phears mw_frames mw_end /\ answers_requests mw_frames mw_end /\ speaks mw_frames mw_end /\
  maker_runs (Some 1) 1 500 (compress_raises demo_codec 1) (serialize_raises demo_codec 1) tp_a maker_color (0, Making) (mw_events mw_evs (pstack_init demo_cluster 41)) demo_start /\
  each_event (Some 1) 1 500 (compress_raises demo_codec 1) (serialize_raises demo_codec 1) (partitions_stay tp_a [0; 1]) (mw_events mw_evs (pstack_init demo_cluster 41)) demo_start /\
  Forall (fun w => exists n, In w (writes mw_end n) /\ produce_frame w = true) kept /\ StronglySorted earlier kept /\ (forall w, In w kept -> ~ declined mw_frames mw_end w tp_a 1) /\ Forall2 (kreceives demo_codec) kept [mw_req 43; mw_req 44] /\
  declined mw_frames mw_end (request_frame 0 42 (eb_produce 1 500 1 (mw_req 42))) tp_a 1 /\
  maker_ends (Some 1) 1 500 (compress_raises demo_codec 1) (serialize_raises demo_codec 1) (0, Making) (mw_events mw_evs (pstack_init demo_cluster 41)) demo_start = (3, Making) /\
  flat_map (kcarried tp_a 1) [mw_req 43; mw_req 44] = [mw_msg 1; mw_msg 3] /\ (m_key (kw_read (mw_msg 3)), m_value (kw_read (mw_msg 3))) = (PStr (txt "3"), PStr (txt "{""color"": ""blue"", ""counter"": 3}")).
Proof.
  cbv zeta. split; [exact demo_codec_laws|]. split; [|split; [|split; [|split; [|split; [|split; [|split; [|split; [|split; [|split; [|split; [|split]]]]]]]]]]].
  - intros [|n]; cbn [mw_frames]; [|split; [constructor|exists []; vm_compute; reflexivity]]. split; [|exists []; vm_compute; reflexivity]. repeat constructor; vm_compute; try reflexivity; try (split; congruence); try congruence.
  - intros [|n] id raw H; [|destruct H]. rewrite mw_writes. cbn [mw_frames In] in H. destruct H as [E|[E|[]]]; injection E as <- _; exists "produce"%string, 0; eexists; (split; [cbn; intuition|]); (split; [vm_compute; split; congruence|]); [now left|right; now left].
  - intros [|n] id raw payload HF HW; [|destruct HF]. clear HW. cbn [mw_frames In] in HF. destruct HF as [E|[E|[]]]; injection E as <- <-; [exists mw_said1; apply mw_said_ok; now left|exists mw_said2; apply mw_said_ok; now right].
  - rewrite mw_events_seen. unfold mw_seen. cbn [maker_runs]. repeat (split; [cbn [maker_may]; first [exact Logic.I|repeat split; vm_compute; reflexivity]|]). exact Logic.I.
  - rewrite mw_events_seen. unfold mw_seen. cbn [SpecFlow.each_event]. repeat (split; [first [exact Logic.I|right; vm_compute; reflexivity|left; vm_compute; reflexivity]|]). exact Logic.I.
  - repeat constructor; exists 0%nat; rewrite mw_writes; (split; [|vm_compute; reflexivity]); [right; now left|right; right; now left].
  - constructor; [constructor; constructor|]. constructor; [|constructor]. exists 43, (eb_produce 1 500 1 (mw_req 43)), 44, (eb_produce 1 500 1 (mw_req 44)). repeat split; vm_compute; congruence.
  - intros w IW (n & c & payload & raw & r & ps & code & FI & EW & HW & HF & KR & IT & IP & RT). destruct n as [|n]; [|destruct HF]. destruct IW as [<-|[<-|[]]].
    + assert (c = 43) as -> by (exact (ys_corr 43 _ c _ ltac:(split; vm_compute; congruence) FI EW)).
      cbn [mw_frames In] in HF. assert (raw = eb_produced mw_said2) as -> by (destruct HF as [X|[X|[]]]; [discriminate X|injection X as <-; reflexivity]).
      apply (C73_produced demo_codec 1) in KR. rewrite (C73_produced demo_codec 1 _ mw_said2 (mw_said_ok _ (or_intror eq_refl))) in KR. injection KR as <-. destruct IT as [X|[]]. injection X as <-. destruct IP as [X|[X|[]]]; [|discriminate X]. injection X as <-. vm_compute in RT. discriminate RT.
    + assert (c = 44) as -> by (exact (ys_corr 44 _ c _ ltac:(split; vm_compute; congruence) FI EW)). cbn [mw_frames In] in HF. destruct HF as [X|[X|[]]]; discriminate X.
  - constructor; [|constructor; [|constructor]]; [exists 43, 1, 500, (eb_produce 1 500 1 (mw_req 43))|exists 44, 1, 500, (eb_produce 1 500 1 (mw_req 44))]; (split; [reflexivity|]); apply okp_ok; vm_compute; reflexivity.
  - exists 0%nat, 42, (eb_produce 1 500 1 (mw_req 42)), (eb_produced mw_said1), mw_said1, [(1, 6)], 6. split; [apply ys_id; lia|]. split; [reflexivity|]. split; [rewrite mw_writes; now left|]. split; [now left|]. split; [apply mw_said_ok; now left|]. split; [now left|]. split; [now left|reflexivity].
  - vm_compute. reflexivity.
  - vm_compute. reflexivity.
  - vm_compute. reflexivity.
Qed.

Print Assumptions C110_numbers_increase.
