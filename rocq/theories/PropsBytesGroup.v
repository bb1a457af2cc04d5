(** Property C115: from the bytes of the maker's connections to the values a group returns, with the group's connections. *)
From Coq Require Import ZArith String List Bool Lia Sorting.Sorted.
From Verif Require Import PyBase BaseLemmas Messages Protocol Request SpecWire Cluster Zookeeper SpecCodec Producer SpecProducer SpecFlow SpecProduced ProducerWire ProducerStack SpecProducerStack PropsProducerStack Consumer SpecConsumer SpecGroup SpecLog SpecKafka ConsumerProofs ConsumerSteps ConsumerRuns SpecConn ResponseRead SpecSent SpecRequest SpecBytes StackWire Stack SpecStack StackProofs PropsWire PropsKafka PropsBytes PropsStack Primitives Utf8 PropsProducer Json SpecEnd PropsEnd FollowRuns PropsLog SpecGroupLog PropsGroupLog SpecGroupStack Constants.
From Verif Require Connection.
From Verif Require Import PyBase BaseLemmas Utf8 Primitives Messages Protocol Schemas Request SpecWire SpecRequest SpecCodec Constants Cluster Producer SpecProducer ProducerProofs SpecFlow ProducerRun ProducerWire SpecProduced ProducerBytes PropsWire PropsProducer PropsFlow SpecKafka SpecBytes PropsBytes PropsKafka SpecConn Stack PropsStack ProducerStack SpecProducerStack ProducerStackProofs PropsProducerStack SpecTurns TurnsProofs PropsTurns SpecTurnsStack PropsTurnsStack JsonValues Maker PropsMaker.
From Verif Require Import JsonValues SpecJson SpecJsonValues SpecLog SpecGroupLog PropsRound PropsMakerWork SpecGroupStack PropsGroupStack SpecOnce SpecHandover PropsHandover PropsMakerStack PropsMakerGroup PropsStackGroup PropsHandoverStack.
From Verif Require SpecTeam TeamProofs.
Import ListNotations.
Open Scope Z_scope.

Section C115.
  Variable float_repr : text -> text.
  Variables (C : codec) (compression : Z) (batch_size : option Z) (acks timeout : Z) (depth depth' : nat) (neg_read neg_read' : Z -> bytes -> bytes * bytes).
  Notation pevents := (pevents C compression batch_size acks timeout depth neg_read).
  Notation maker_ends := (maker_ends batch_size acks timeout (compress_raises C compression) (serialize_raises C compression)).
  Theorem C115_bytes_to_values topic color ps frames evs k corr kept ds klog (Cs : list (list (cturn (V := jv)))) :
    written_over C compression batch_size acks timeout depth neg_read topic color ps frames evs k corr kept ds (seen klog) -> (forall p, is_klog (klog p)) ->
    Forall (Forall (over_connections C depth' neg_read' topic klog)) Cs -> let Es := map (map (seen_turn C depth' neg_read')) Cs in
    Forall (shared_out topic) Es -> (forall Ts T, In Ts Cs -> In T Ts -> deser (ct_cfg T) = default_deser float_repr /\ truthy (ct_cfg T) = truth) ->
    let last := fst (maker_ends (0, Making) (pevents evs (pstack_init k corr)) (producer_init k corr)) in
    exists Dss, Forall2 (Forall2 (delivers topic)) Es Dss /\ let all := concat (map (@concat _) Dss) in
      (forall p a b, kept_offset topic p a Es b -> exists ns, StronglySorted Z.lt ns /\ Forall (fun n => 1 <= n <= last /\ place ps n = p) ns /\
        Forall2 (fun n v => equal (made_value color n) v /\ truth v = true) ns (map snd (of_partition p all)) /\
        ((forall o m, In (o, m) (klog p) -> a <= o < b) -> Forall2 (fun n km => msg_reads (message_no color n) (kw_read km)) ns (flat_map (kcarried topic p) (ds p)))) /\
      ((forall p, exists a b, kept_offset topic p a Es b) -> NoDup (map counter_of (values all)) /\ forall v, In v (values all) -> exists n, 1 <= n <= last /\ counter_of v = Some n).
  Proof.
    intros W KL F Es S DT last.
    assert (U : Forall (Forall (undisturbed_turn topic (seen klog))) Es).
    { unfold Es. apply Forall_forall. intros Ts X. apply in_map_iff in X as (Cs' & <- & X). apply Forall_forall. intros T Y. apply in_map_iff in Y as (T' & <- & Y). rewrite Forall_forall in F. specialize (F _ X). rewrite Forall_forall in F. exact (proj1 (seen_undisturbed C depth' neg_read' topic klog T' (F _ Y))). }
    destruct (C113_delivered_once float_repr C compression batch_size acks timeout depth neg_read topic color ps frames evs k corr kept ds (seen klog) Es W U S) as (Dss & A & B & N).
    { intros Ts T X Y. unfold Es in X. apply in_map_iff in X as (Cs' & <- & X). apply in_map_iff in Y as (T' & <- & Y). exact (DT Cs' T' X Y). }
    exists Dss. split; [exact A|]. split; [|exact N]. intros p a b K. destruct (B p a b K) as (ns & B1 & B2 & B3 & B4). exists ns. split; [exact B1|]. split; [exact B2|]. split; [exact B3|].
    intros H. apply B4. intros o m X. unfold seen in X. apply seen_in in X as (km & X & _). exact (H o km X).
  Qed.
End C115.

(** The maker of [C110_example], and a member of a group that reads what its brokers keep. *)
Definition bg_log (p : Z) : list (Z * kmsg) := if p =? 0 then [(0, mw_msg 2)] else if p =? 1 then [(0, mw_msg 1); (1, mw_msg 3)] else [].
Definition bg_parts : list (Z * Z * Z * list (Z * kmsg)) := [(0, 0, 0, [(0, mw_msg 2)]); (1, 0, 1, [(0, mw_msg 1); (1, mw_msg 3)])].
Definition bg_stored : list (text * list (Z * (Z * Z))) := [(tp_a, [(0, (0, 0)); (1, (0, 0))])].
Definition bg_frames (n : nat) : list (Z * bytes) := match n with O => [(42, gs_coordinator); (43, eb_stored bg_stored); (44, eb_fetch tp_a bg_parts)] | _ => [] end.
Definition bg_run := srun (mw_team 0) demo_codec 1 st_neg.
Definition bg_join : list sevent :=
  [SConn 0%nat Connection.EvConnected; SLabel (Alloc (EvMembers [txt "me"])) st_none; SLabel (Alloc (EvPartitions (Some [part_name tp_a 0; part_name tp_a 1]))) st_none;
   SLabel (Call 1 OpCoordinator) st_none; st_bytes (firstn 1 (bg_frames 0))] ++ st_reads ++ [SDone 1 1 st_none; SLabel (Call 2 (OpConsume tp_a None)) st_none; st_bytes (firstn 1 (skipn 1 (bg_frames 0)))] ++ st_reads.
Definition bg_asks : stack jv := bg_run bg_join (stack_init demo_cluster (txt "me") 41).
Definition bg_start : stack jv := bg_run (bg_join ++ [SDone 2 1 st_none]) (stack_init demo_cluster (txt "me") 41).
Definition bg_evs : list sevent := [st_bytes (skipn 2 (bg_frames 0))] ++ st_reads ++ [SDone 2 1 st_none].
Definition bg_end : stack jv := bg_run bg_evs bg_start.
Definition bg_turn : cturn (V := jv) := CTurn (mw_team 0) bg_frames bg_start bg_evs.
Lemma bg_ok n : Forall frame_ok (bg_frames n).
Proof. destruct n as [|n]; [|constructor]. repeat constructor; vm_compute; try reflexivity; try (split; congruence); congruence. Qed.
Lemma bg_at_start : at_start tp_a (mw_team 0) (k_cons bg_start).
Proof.
  assert (RA : SpecConsumer.reachable (mw_team 0) (k_cons bg_asks)) by (apply (sreach_reachable (mw_team 0) demo_codec 0 st_neg bg_frames bg_ok); do 4 eexists; reflexivity).
  set (f := Cluster_ (c_cluster (k_cons bg_asks))). set (l := Arrive 2 1 (Ok (POffsetFetch bg_stored))).
  assert (RF : SpecConsumer.reachable (mw_team 0) (cstep (mw_team 0) (k_cons bg_asks) f)) by (destruct RA as (k & n & ls & ->); exists k, n, (ls ++ [f]); unfold crun; now rewrite fold_left_app).
  assert (E : k_cons bg_start = cstep (mw_team 0) (cstep (mw_team 0) (k_cons bg_asks) f) l) by (vm_compute; reflexivity).
  split; [rewrite E; destruct RF as (k & n & ls & ->); exists k, n, (ls ++ [l]); unfold crun; now rewrite fold_left_app|]. split; [vm_compute; now left|]. right. exists (cstep (mw_team 0) (k_cons bg_asks) f), l, 2.
  split; [exact RF|]. split; [exact E|]. split; [eexists _, _; left; do 2 eexists; vm_compute; reflexivity|].
  split; [eexists _, _; split; [vm_compute; reflexivity|]; left; exists 1; eexists; split; [do 4 eexists; split; vm_compute; reflexivity|do 4 eexists; reflexivity]|].
  intros j o p D OT. destruct (Z.eq_dec j 2) as [->|N]; [reflexivity|]. exfalso. vm_compute in D. destruct j as [|[q|[q|q|]|]|q]; try discriminate D; now apply N.
Qed.
Lemma bg_stored_ok : kw_offset_fetch bg_stored (eb_stored bg_stored).
Proof.
  apply arr_ok; [|vm_compute; reflexivity]. intros tp [<-|[]]. eexists. eexists. split; [exists [97]; split; [vm_compute; reflexivity|]; split; [vm_compute; reflexivity|reflexivity]|]. split; [|reflexivity].
  apply arr_ok; [|vm_compute; reflexivity]. intros p H. cbn [fst snd] in H |- *. destruct H as [<-|[<-|[]]]; (eexists _, _, (Some []), (eb_str []), _; cbn [fst snd]; (split; [split; [vm_compute; split; congruence|reflexivity]|]); (split; [split; [vm_compute; split; congruence|reflexivity]|]);
    (split; [exists []; split; [vm_compute; reflexivity|split; vm_compute; reflexivity]|]); (split; [split; [vm_compute; split; congruence|reflexivity]|reflexivity])).
Qed.
Lemma bg_written {V} api id rq (S : stack V) raw : In (api, kafka_api rq) kafka_api_numbers -> SpecWire.fits 32 id -> fits_kafka rq ->
  In (request_frame (kafka_api rq) id (kafka_payload rq)) (Connection.c_written (l_conn (k_link S 0%nat))) -> kserves_group demo_codec tp_a bg_log rq raw ->
  exists api key payload, In (api, key) kafka_api_numbers /\ SpecWire.fits 32 id /\ In (request_frame key id payload) (Connection.c_written (l_conn (k_link S 0%nat))) /\
    forall rq', fits_kafka rq' -> key = kafka_api rq' -> payload = kafka_payload rq' -> kserves_group demo_codec tp_a bg_log rq' raw.
Proof. intros A F K W Sv. exists api, (kafka_api rq), (kafka_payload rq). split; [exact A|]. split; [exact F|]. split; [exact W|]. intros rq' H H0 H1. rewrite <- (request_readable rq rq' K H H0 H1). exact Sv. Qed.
Lemma bg_fetched : kserves_group demo_codec tp_a bg_log (st_fetch 0 0) (eb_fetch tp_a bg_parts).
Proof.
  split; [|exact Logic.I]. exists (said bg_parts), []. split; [apply okf_ok; vm_compute; reflexivity|]. intros _. split; [repeat constructor; cbn; intuition discriminate|].
  intros p code ms [X|[X|[]]]; injection X as <- <- <-; (split; [discriminate|]); intros _; [exists 0, 500, 1%nat|exists 0, 500, 2%nat]; (split; [cbn; auto|reflexivity]).
Qed.
Lemma bg_answered : answered_group demo_codec tp_a bg_log bg_frames bg_end.
Proof.
  intros [|n] id raw H; [|destruct H]. cbn [bg_frames In] in H.
  assert (G : short_text (txt "g")) by (exists [103]; split; vm_compute; reflexivity).
  destruct H as [H|[H|[H|[]]]]; injection H as <- <-.
  - apply (bg_written "group_coordinator"%string 42 (RCoordinator (txt "g"))); [cbn; intuition|vm_compute; split; congruence|exact G|vm_compute; intuition|]. split; exact Logic.I.
  - apply (bg_written "offset_fetch"%string 43 (ROffsetFetch (txt "g") tp_a [0; 1])); [cbn; intuition|vm_compute; split; congruence| |vm_compute; intuition|split; [exact Logic.I|]; exists [(0, (0, 0)); (1, (0, 0))], []; exact bg_stored_ok].
    split; [exact G|]. split; [exact st_short|]. split; [reflexivity|]. intros p [<-|[<-|[]]]; vm_compute; split; congruence.
  - apply (bg_written "fetch"%string 44 (st_fetch 0 0)); [cbn; intuition|vm_compute; split; congruence|apply st_fetch_fits; vm_compute; split; congruence|vm_compute; intuition|exact bg_fetched].
Qed.
Lemma bg_ends : ct_end demo_codec 0 st_neg bg_turn = bg_end.
Proof. vm_compute. reflexivity. Qed.
Lemma bg_over : over_connections demo_codec 0 st_neg tp_a bg_log bg_turn.
Proof.
  split; [eexists _, _, _, _; (split; [exact TeamProofs.naive_answers|reflexivity])|]. split; [do 4 eexists; reflexivity|]. split; [exact bg_at_start|]. rewrite bg_ends.
  split; [intros [|n]; split; try apply bg_ok; exists []; vm_compute; reflexivity|]. split; [exact bg_answered|]. split.
  - cbn [bg_turn ct_events ct_start ct_cfg bg_evs app each_event]. unfold st_reads. cbn [repeat app each_event]. unfold unshaken. cbn [calm]. repeat split; try exact Logic.I.
  - intros i o e H. vm_compute in H. repeat (destruct H as [H|H]; [discriminate H|]). destruct H.
Qed.
Definition bg_epochs : list (list (cturn (V := jv))) := [[bg_turn]].
Lemma bg_holds n : n = 1 \/ n = 2 \/ n = 3 -> holds (mw_msg n) (kw_read (mw_msg n)).
Proof. intros [->|[->| ->]]; repeat split; vm_compute; reflexivity. Qed.
Lemma bg_offsets p : map fst (bg_log p) = (if p =? 0 then [0] else if p =? 1 then [0; 1] else []).
Proof. unfold bg_log. destruct (p =? 0); [reflexivity|]. destruct (p =? 1); reflexivity. Qed.
Lemma bg_sorted p : StronglySorted Z.lt (map fst (bg_log p)) /\ forall o, In o (map fst (bg_log p)) -> 0 <= o.
Proof.
  rewrite bg_offsets. destruct (p =? 0); [|destruct (p =? 1)]; (split; [|intros o H; cbn in H; lia]).
  - constructor; constructor.
  - constructor; [constructor; constructor|]. constructor; [lia|constructor].
  - constructor.
Qed.
Lemma bg_klog p : is_klog (bg_log p).
Proof. exact (bg_sorted p). Qed.
Lemma bg_is_log p : is_log (seen bg_log p).
Proof. unfold is_log. assert (E : map fst (seen bg_log p) = map fst (bg_log p)) by (unfold seen, bg_log; destruct (p =? 0); [reflexivity|]; destruct (p =? 1); reflexivity). rewrite E. exact (bg_sorted p). Qed.
Lemma bg_written_over : written_over demo_codec 1 (Some 1) 1 500 1 st_neg tp_a maker_color [0; 1] mw_frames mw_evs demo_cluster 41 sg_kept sg_reads (seen bg_log).
Proof.
  destruct (proj1 C113_example) as (A1 & A2 & A3 & A4 & A5 & A6 & A7 & A8 & A9). unfold written_over. cbv zeta.
  split; [exact A1|]. split; [exact A2|]. split; [exact A3|]. split; [exact A4|]. split; [exact A5|]. split; [exact A6|]. split; [exact A7|]. split; [exact A8|].
  clear A1 A2 A3 A4 A5 A6 A7 A8. intros p. destruct (A9 p) as (B1 & B2 & B3 & B4 & _ & _). split; [exact B1|]. split; [exact B2|]. split; [exact B3|]. split; [exact B4|]. clear B1 B2 B3 B4 A9.
  split; [|apply bg_is_log]. unfold sg_reads, bg_log, seen. destruct (Z.eqb_spec p 0) as [->|N0]; [|destruct (Z.eqb_spec p 1) as [->|N1]].
  - rewrite sg_one. constructor; [apply (bg_holds 2); right; left; reflexivity|constructor].
  - rewrite sg_two. constructor; [apply (bg_holds 1); left; reflexivity|constructor; [apply (bg_holds 3); right; right; reflexivity|constructor]].
  - constructor.
Qed.
Lemma bg_kept p a b (T : turn (V := jv)) : position (tn_start T) tp_a p = a -> position (tn_end T) tp_a p = b -> owns tp_a T p -> kept_offset tp_a p a [[T]] b.
Proof. intros <- <- O. apply kept_last; [left; reflexivity|exact O]. Qed.
Definition bg_seen : turn (V := jv) := seen_turn demo_codec 0 st_neg bg_turn.
Example C115_example : written_over demo_codec 1 (Some 1) 1 500 1 st_neg tp_a maker_color [0; 1] mw_frames mw_evs demo_cluster 41 sg_kept sg_reads (seen bg_log) /\ (forall p, is_klog (bg_log p)) /\
  Forall (Forall (over_connections demo_codec 0 st_neg tp_a bg_log)) bg_epochs /\ Forall (shared_out tp_a) [[bg_seen]] /\
  (forall Ts T, In Ts bg_epochs -> In T Ts -> deser (ct_cfg T) = default_deser (fun t => t) /\ truthy (ct_cfg T) = truth) /\
  kept_offset tp_a 0 0 [[bg_seen]] 1 /\ kept_offset tp_a 1 0 [[bg_seen]] 2 /\ (forall p, exists a b, kept_offset tp_a p a [[bg_seen]] b) /\
  map counter_of (tn_gave tp_a bg_seen) = [Some 2; Some 1; Some 3].
Proof.
  split; [exact bg_written_over|]. split; [exact bg_klog|]. split; [constructor; [constructor; [exact bg_over|constructor]|constructor]|].
  split; [constructor; [apply mg_alone|constructor]|]. split; [intros Ts T [<-|[]] [<-|[]]; split; reflexivity|].
  assert (K0 : kept_offset tp_a 0 0 [[bg_seen]] 1) by (apply bg_kept; [vm_compute; reflexivity..|unfold owns; vm_compute; auto]).
  assert (K1 : kept_offset tp_a 1 0 [[bg_seen]] 2) by (apply bg_kept; [vm_compute; reflexivity..|unfold owns; vm_compute; auto]).
  split; [exact K0|]. split; [exact K1|]. split; [|vm_compute; reflexivity].
  intros p. destruct (Z.eq_dec p 0) as [->|N0]; [exists 0, 1; exact K0|]. destruct (Z.eq_dec p 1) as [->|N1]; [exists 0, 2; exact K1|]. clear K0 K1. exists 0, 0.
  apply kept_none; [|apply kept_end]. intros T [<-|[]] O; unfold owns in O; vm_compute in O; destruct O as [O|[O|[]]]; congruence.
Qed.

Print Assumptions C115_bytes_to_values.
