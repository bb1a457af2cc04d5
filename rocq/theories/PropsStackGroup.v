(** Property C113: from what the maker's connections carry to a group of consumers, over rebalances. *)
From Coq Require Import ZArith String List Bool Lia Sorting.Sorted.
From Verif Require Import PyBase BaseLemmas Utf8 Primitives Messages Protocol Schemas Request SpecWire SpecRequest SpecCodec Constants Cluster Producer SpecProducer ProducerProofs SpecFlow ProducerRun ProducerWire SpecProduced ProducerBytes PropsWire PropsProducer PropsFlow SpecKafka SpecBytes PropsBytes PropsKafka SpecConn Stack PropsStack ProducerStack SpecProducerStack ProducerStackProofs PropsProducerStack SpecTurns TurnsProofs PropsTurns SpecTurnsStack PropsTurnsStack JsonValues Maker PropsMaker.
From Verif Require Connection.
From Verif Require Import JsonValues SpecJson SpecJsonValues Consumer SpecConsumer SpecLog SpecGroupLog SpecTeam TeamProofs PropsRound PropsMakerWork SpecOnce SpecHandover PropsHandover PropsMakerStack PropsMakerGroup.
Import ListNotations.
Open Scope Z_scope.

(** the message [m] of a fetch response is the one that Kafka read as [km]: it has its key and its value *)
Definition holds (km : kmsg) (m : pymsg) : Prop := m_magic m = PInt 0 /\ m_attributes m = PInt 0 /\ m_key m = kw_field (km_key km) /\ m_value m = kw_field (km_value km).

Section C113.
  Variable float_repr : text -> text.
  Variable C : codec.
  Variable compression : Z.
  Variable batch_size : option Z.
  Variables acks timeout : Z.
  Variable depth : nat.
  Variable neg_read : Z -> bytes -> bytes * bytes.
  Notation compress_fails := (compress_raises C compression).
  Notation serialize_fails := (serialize_raises C compression).
  Notation yrun := (yrun C compression batch_size acks timeout depth neg_read).
  Notation pevents := (pevents C compression batch_size acks timeout depth neg_read).
  Notation each_event := (each_event batch_size acks timeout compress_fails serialize_fails).
  Notation maker_runs := (maker_runs batch_size acks timeout compress_fails serialize_fails).
  Notation maker_ends := (maker_ends batch_size acks timeout compress_fails serialize_fails).

  (** The maker runs over connections as in C110.  Of the frames written the brokers keep some for each partition, none of which they declined to store there,
      and the log of the partition holds what they read of them. *)
  Definition written_over (topic : text) (color : Z -> text) (ps : list Z) (frames : nat -> list (Z * bytes)) (evs : list yevent) (k : cluster) (corr : Z) (kept : Z -> list bytes) (ds : Z -> list (list (text * list (Z * list (Z * kmsg))))) (log : Z -> list (Z * pymsg)) : Prop :=
    let Y := yrun evs (pstack_init k corr) in let pevs := pevents evs (pstack_init k corr) in
    codec_laws C /\ (compression = 0 \/ compression = 1 \/ compression = 2) /\ phears frames Y /\ answers_requests frames Y /\ speaks frames Y /\
    maker_runs topic color (0, Making) pevs (producer_init k corr) /\ each_event (partitions_stay topic ps) pevs (producer_init k corr) /\ (forall n, In (color n) maker_colors) /\
    forall p, Forall (fun w => exists n, In w (writes Y n) /\ produce_frame w = true) (kept p) /\ StronglySorted earlier (kept p) /\ (forall w, In w (kept p) -> ~ declined frames Y w topic p) /\
      Forall2 (kreceives C) (kept p) (ds p) /\ Forall2 (fun km om => holds km (snd om)) (flat_map (kcarried topic p) (ds p)) (log p) /\ is_log (log p).

  Lemma holds_reads color : forall ns kms l, Forall2 (fun n km => msg_reads (message_no color n) (kw_read km)) ns kms -> Forall2 (fun km (om : Z * pymsg) => holds km (snd om)) kms l ->
    Forall2 (fun m om => msg_reads m (snd om)) (map (message_no color) ns) l.
  Proof.
    intros ns kms l F. revert l. induction F as [|n km ns kms R F IH]; intros l G; inversion G as [|? om ? l' H G']; subst; cbn [map]; constructor; [|now apply IH].
    destruct R as (R1 & R2 & R3 & R4), H as (H1 & H2 & H3 & H4). unfold msg_reads. rewrite H1, H2, H3, H4. auto.
  Qed.

  Theorem C113_delivered_once topic color ps frames evs k corr kept ds log (Es : list (epoch (V := jv))) : written_over topic color ps frames evs k corr kept ds log ->
    Forall (Forall (undisturbed_turn topic log)) Es -> Forall (shared_out topic) Es -> (forall Ts T, In Ts Es -> In T Ts -> deser (tn_cfg T) = default_deser float_repr /\ truthy (tn_cfg T) = truth) ->
    let last := fst (maker_ends (0, Making) (pevents evs (pstack_init k corr)) (producer_init k corr)) in
    exists Dss, Forall2 (Forall2 (delivers topic)) Es Dss /\ let all := concat (map (@concat _) Dss) in
      (forall p a b, kept_offset topic p a Es b -> exists ns, StronglySorted Z.lt ns /\ Forall (fun n => 1 <= n <= last /\ place ps n = p) ns /\
        Forall2 (fun n v => equal (made_value color n) v /\ truth v = true) ns (map snd (of_partition p all)) /\
        ((forall o m, In (o, m) (log p) -> a <= o < b) -> Forall2 (fun n km => msg_reads (message_no color n) (kw_read km)) ns (flat_map (kcarried topic p) (ds p)))) /\
      ((forall p, exists a b, kept_offset topic p a Es b) -> NoDup (map counter_of (values all)) /\ forall v, In v (values all) -> exists n, 1 <= n <= last /\ counter_of v = Some n).
  Proof.
    intros (CL & SUP & HE & AR & SP & MR & PS & IC & KP) F S DT last.
    apply (numbered_group float_repr topic color ps last log (fun p ns => Forall2 (fun n km => msg_reads (message_no color n) (kw_read km)) ns (flat_map (kcarried topic p) (ds p))) Es IC (fun p => proj2 (proj2 (proj2 (proj2 (proj2 (KP p))))))); try assumption.
    intros p. destruct (KP p) as (K1 & K2 & K3 & K4 & K5 & _).
    destruct (C110_numbers_increase C compression batch_size acks timeout depth neg_read topic color ps frames evs k corr p (kept p) (ds p) CL SUP HE AR SP MR PS K1 K2 K3 K4) as (ns & N1 & N2 & N3). exists ns. split; [exact (holds_reads color ns _ (log p) N1 K5)|auto].
  Qed.
End C113.

(** The maker of [C110_example] over its connection, and the group of [C112_example]. *)
Definition sg_frame (c : Z) : bytes := request_frame 0 c (eb_produce 1 500 1 (mw_req c)).
Definition sg_kept (p : Z) : list bytes := if p =? 0 then [sg_frame 43] else if p =? 1 then [sg_frame 43; sg_frame 44] else [].
Definition sg_reads (p : Z) : list (list (text * list (Z * list (Z * kmsg)))) := if p =? 0 then [mw_req 43] else if p =? 1 then [mw_req 43; mw_req 44] else [].
Lemma sg_not_declined : ~ declined mw_frames mw_end (sg_frame 43) tp_a 0.
Proof.
  intros (n & c & payload & raw & r & ps & code & FI & EW & HW & HF & KR & IT & IP & RT). destruct n as [|n]; [|destruct HF]. clear HW.
  assert (c = 43) as -> by (exact (ys_corr 43 _ c _ ltac:(split; vm_compute; congruence) FI EW)). clear EW.
  cbn [mw_frames In] in HF. assert (raw = eb_produced mw_said2) as -> by (destruct HF as [X|[X|[]]]; [discriminate X|injection X as <-; reflexivity]).
  apply (C73_produced demo_codec 1) in KR. rewrite (C73_produced demo_codec 1 _ mw_said2 (mw_said_ok _ (or_intror eq_refl))) in KR. injection KR as <-. destruct IT as [X|[]]. injection X as <-. destruct IP as [X|[X|[]]]; [discriminate X|]. injection X as <-. vm_compute in RT. discriminate RT.
Qed.
Lemma sg_holds n : n = 1 \/ n = 2 \/ n = 3 -> holds (mw_msg n) (round_message n).
Proof. intros [->|[->| ->]]; repeat split; vm_compute; reflexivity. Qed.
Lemma sg_one : flat_map (kcarried tp_a 0) [mw_req 43] = [mw_msg 2].
Proof. vm_compute. reflexivity. Qed.
Lemma sg_two : flat_map (kcarried tp_a 1) [mw_req 43; mw_req 44] = [mw_msg 1; mw_msg 3].
Proof. vm_compute. reflexivity. Qed.
Lemma sg_log p : is_log (round_log p).
Proof. destruct (proj1 C112_example) as (_ & _ & _ & _ & _ & L). exact (L p). Qed.
Lemma sg_run : mw_end = ProducerStack.yrun demo_codec 1 (Some 1) 1 500 1 st_neg mw_evs (pstack_init demo_cluster 41).
Proof. reflexivity. Qed.
Lemma sg_events Y : mw_events mw_evs Y = ProducerStack.pevents demo_codec 1 (Some 1) 1 500 1 st_neg mw_evs Y.
Proof. reflexivity. Qed.
Lemma sg_demo : demo_start = producer_init demo_cluster 41.
Proof. reflexivity. Qed.
Example C113_example : written_over demo_codec 1 (Some 1) 1 500 1 st_neg tp_a maker_color [0; 1] mw_frames mw_evs demo_cluster 41 sg_kept sg_reads round_log /\
  Forall (Forall (undisturbed_turn tp_a round_log)) mg_epochs /\ Forall (shared_out tp_a) mg_epochs /\
  (forall Ts T, In Ts mg_epochs -> In T Ts -> deser (tn_cfg T) = default_deser (fun t => t) /\ truthy (tn_cfg T) = truth) /\
  kept_offset tp_a 0 0 mg_epochs 1 /\ kept_offset tp_a 1 0 mg_epochs 2 /\ (forall p, exists a b, kept_offset tp_a p a mg_epochs b).
Proof.
  destruct C112_example as (WR & G1 & G2 & G3 & G4 & G5 & G6 & _). split; [|repeat split; try assumption; intros; eapply G3; eassumption].
  destruct WR as (_ & _ & COL & _). clear G1 G2 G3 G4 G5 G6.
  destruct C110_example as (E1 & E2 & E3 & E4 & E5 & E6 & E7 & E8 & E9 & E10 & _).
  pose proof sg_not_declined as ND. rewrite sg_events, sg_demo in E5, E6. unfold written_over. cbv zeta. rewrite <- sg_run.
  split; [exact E1|]. split; [right; left; reflexivity|]. split; [exact E2|]. split; [exact E3|]. split; [exact E4|]. split; [exact E5|]. split; [exact E6|]. split; [exact COL|]. clear E1 E2 E3 E4 E5 E6 COL.
  intros p. unfold sg_kept, sg_reads. destruct (Z.eqb_spec p 0) as [->|N0]; [|destruct (Z.eqb_spec p 1) as [->|N1]].
  - split; [constructor; [exact (Forall_inv E7)|constructor]|]. split; [constructor; constructor|]. split; [intros w [<-|[]]; exact ND|]. split; [constructor; [|constructor]; inversion E10; assumption|].
    split; [rewrite sg_one; constructor; [apply (sg_holds 2); right; left; reflexivity|constructor]|apply sg_log].
  - split; [exact E7|]. split; [exact E8|]. split; [exact E9|]. split; [exact E10|].
    split; [rewrite sg_two; constructor; [apply (sg_holds 1); left; reflexivity|constructor; [apply (sg_holds 3); right; right; reflexivity|constructor]]|apply sg_log].
  - split; [constructor|]. split; [constructor|]. split; [intros w []|]. split; [constructor|]. split; [|apply sg_log].
    unfold round_log. destruct (Z.eqb_spec p 0); [contradiction|]. destruct (Z.eqb_spec p 1); [contradiction|]. constructor.
Qed.

Print Assumptions C113_delivered_once.
