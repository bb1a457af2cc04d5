(** Property C92: a group member's commits and lookups of committed offsets go to a coordinator that a broker named.
    Specification: SpecNamed.v, SpecRoute.v. *)
From Coq Require Import ZArith String List Bool Lia.
From Verif Require Import PyBase BaseLemmas Messages Protocol Request SpecWire SpecRequest SpecCodec Constants Cluster SpecCluster Zookeeper Heals Consumer SpecConsumer ConsumerProofs SpecSent SpecEnd PropsWire PropsProducer PropsEnd SpecKafka PropsKafka SpecBytes PropsBytes SpecConn Stack SpecStack StackWire StackProofs PropsStack ProducerStackProofs HealOrigin Full FullProofs FullConsumer RouteProducer RouteConsumer SpecRoute RouteHeard PropsRoute PropsRouteConsumer PropsGroupStack SpecNamed NamedCoord.
From Verif Require Connection.
Import ListNotations.
Open Scope Z_scope.

Section C92.
  Context {V : Type}.
  Variable cfg : config V.
  Variable C : codec.
  Variable depth : nat.
  Variable neg_read : Z -> bytes -> bytes * bytes.
  Notation cfrun := (cfrun cfg C depth neg_read).

  Lemma told_arrived frames (OK : forall n, Forall frame_ok (frames n)) (S : stack V) b : stack_inv cfg C depth frames S -> coordinator_answers frames (k_link S) -> told_of cfg C depth frames S b ->
    exists g, group_of cfg = Some g /\ coordinator_arrived frames (k_link S) g b.
  Proof.
    intros SI A (g & n & f & id & raw & G & HA & CM & RD). exists g. split; [exact G|]. pose proof (came_in _ _ _ CM) as IR. destruct (A _ _ _ IR) as (api & key & payload & IK & FI & W & KC).
    destruct (frame_request cfg C depth neg_read frames OK S n f id (RCoordinator g) key payload api SI HA IK FI W) as (_ & EK & EP). destruct (KC EK) as (code & b' & KW).
    rewrite (C73_coordinator C depth (RCoordinator g) raw code b') in RD; [|eauto|exact KW]. injection RD as -> ->. exists n, id, raw. rewrite EK, EP in W. split; [exact W|]. split; [exact KW|].
    destruct CM as (j & tl & NE & EI). exists (firstn j (frames n)), (skipn (Datatypes.S j) (frames n)), tl. rewrite <- (firstn_nth_S _ _ _ NE). split; [|exact EI].
    rewrite <- (firstn_skipn (Datatypes.S j) (frames n)) at 1. rewrite (firstn_nth_S _ _ _ NE), <- app_assoc. reflexivity.
  Qed.

  (** Every commit and every lookup of committed offsets that a consumer writes for group [g] goes to a broker that a response
      to a GroupCoordinatorRequest for [g] - all its bytes have arrived - named as the coordinator without an error, on a
      connection made for an address that a metadata response gives for this broker. *)
  Theorem C92_named : forall frames evs name last, let S := f_base (cfrun evs (cfinit name last)) in
    link_hears frames (k_link S) -> kafka_answers frames (k_link S) -> coordinator_answers frames (k_link S) ->
    forall n id rq g, for_group rq g -> fits_kafka rq -> SpecWire.fits 32 id -> In (request_frame (kafka_api rq) id (kafka_payload rq)) (written_on (k_link S) n) ->
    exists b host port, coordinator_arrived frames (k_link S) g b /\ made_for (c_cluster (k_cons S)) n host port /\
      exists brokers topics, metadata_arrived frames (k_link S) brokers topics /\ puts_at brokers b host port.
  Proof.
    intros frames evs name last S H A AC n id rq g FG FK FI W. pose proof (PropsRoute.hears_frames _ _ H) as OK. pose proof (cfrun_inv cfg C depth neg_read frames OK evs name last) as INV. destruct (fi_base _ _ _ _ _ _ _ _ _ INV) as [SI _]. fold S in SI.
    pose proof (fi_rt _ _ _ _ _ _ _ _ _ INV (hears_hearing _ _ H)) as RT. fold S in RT. pose proof (si_links _ _ _ _ _ SI) as LK. destruct (api_number rq) as [api IK].
    unfold written_on in W. rewrite (lk_all _ _ _ _ _ _ (LK n)) in W. apply in_map_iff in W as ([f w'] & E & W). cbn [snd] in E. subst w'.
    destruct (RT n f _ W) as [(topics & lst & obj & MO & PW)|(b & rq' & lst & IW & PL & PW & (host & port & r & R1 & R2 & R3) & _)].
    - exfalso. unfold meta_object in MO. destruct (Connection.request_of _ _ _ _) as [[o l']|e] eqn:RO; [|discriminate MO]. injection MO as ->. destruct (meta_facts 0 neg_read _ _ _ _ RO) as (_ & _ & _ & X).
      destruct (X _ PW) as (payload' & EF & FI2). destruct (C05_frame_readable _ _ _ _ _ _ _ _ IK metadata_number FI FI2 EF) as (_ & EK & _). destruct rq; discriminate EK.
    - destruct (written_kafka rq' lst _ PL PW) as (FK' & F2 & EF). destruct (api_number rq') as [api' IK']. destruct (C05_frame_readable _ _ _ _ _ _ _ _ IK IK' FI F2 EF) as (_ & EK' & _ & EP'). assert (rq' = rq) as -> by (apply C77_request_readable; congruence).
      destruct (C91_refines cfg C depth neg_read evs name last) as (es & EQ). fold S in EQ.
      assert (CI : coord_inv cfg C depth frames S) by (rewrite EQ; apply (coord_run cfg C depth neg_read frames OK es cluster_init name last); rewrite <- EQ; exact H).
      destruct CI as [_ CI]. specialize (CI b rq IW). exists b, host, port. split; [|split; [exact R3|]].
      + destruct rq; try contradiction; cbn [for_group] in FG; subst; destruct CI as [G T]; destruct (told_arrived frames OK S b SI AC T) as (g' & G' & X); congruence.
      + destruct (heard_arrived C depth frames _ _ r LK A R1) as (brokers & topics & MA & ->). exists brokers, topics. split; [exact MA|]. eapply as_mresp_broker. exact R2.
  Qed.
End C92.

(** A group member from start() on: broker 1 says that broker 2 is the coordinator; the committed offsets are looked up
    there, and offsets are committed there. *)
Definition cn_coord : bytes := big_endian 2 0 ++ big_endian 4 2 ++ eb_str (txt "h2") ++ big_endian 4 9093.
Definition cn_frames (n : nat) : list (Z * bytes) :=
  match n with O => [(42, fr_meta fr_brokers fr_topics1)] | 1%nat => [(43, cn_coord)] | 2%nat => [] | _ => [] end.
Definition cn_evs : list (fevent sevent) :=
  [FStart 1 [txt "b"]; FConnected 1 (Ok tt) None; FConn 0%nat (Connection.EvData (frames_bytes (cn_frames 0)))] ++ cr_reads 0 ++
  [FAnswered 1 [] None; FConnected 1 (Ok tt) None; FConnected 1 (Ok tt) None; FOwn (SLabel (Alloc (EvMembers [txt "me"])) st_none); FOwn (SLabel (Alloc (EvPartitions (Some [part_name tp_a 0; part_name tp_a 1]))) st_none);
   FOwn (SLabel (Call 1 OpCoordinator) st_none); FConn 1%nat (Connection.EvData (frames_bytes (cn_frames 1)))] ++ cr_reads 1 ++
  [FOwn (SDone 1 1 st_none); FOwn (SLabel (Call 2 (OpConsume tp_a None)) st_none); FOwn (SLabel (Call 3 (OpCommit None)) st_none)].
Notation cn_end := (cfrun gs_cfg demo_codec 1 st_neg cn_evs (cfinit (txt "me") 41)).
Definition cn_find : request := RCoordinator (txt "g").
Definition cn_lookup : request := ROffsetFetch (txt "g") tp_a [0; 1].
Lemma cn_writes0 : written_on (k_link (f_base cn_end)) 0 = [request_frame 3 42 fr_ask].
Proof. vm_compute. reflexivity. Qed.
Lemma cn_writes1 : written_on (k_link (f_base cn_end)) 1 = [request_frame 10 43 (kafka_payload cn_find)].
Proof. vm_compute. reflexivity. Qed.
Lemma cn_writes2 : written_on (k_link (f_base cn_end)) 2 = [request_frame 9 44 (kafka_payload cn_lookup); request_frame 8 45 (kafka_payload (RCommit (txt "g") []))].
Proof. vm_compute. reflexivity. Qed.
Lemma cn_named : kw_coordinator 0 2 cn_coord.
Proof.
  exists (big_endian 2 0), (big_endian 4 2), (txt "h2"), (eb_str (txt "h2")), 9093, (big_endian 4 9093). split; [split; [vm_compute; split; congruence|reflexivity]|]. split; [split; [vm_compute; split; congruence|reflexivity]|].
  split; [exists [104; 50]; split; [vm_compute; reflexivity|split; vm_compute; reflexivity]|]. split; [split; [vm_compute; split; congruence|reflexivity]|reflexivity].
Qed.
Example C92_example : link_hears cn_frames (k_link (f_base cn_end)) /\ kafka_answers cn_frames (k_link (f_base cn_end)) /\ coordinator_answers cn_frames (k_link (f_base cn_end)) /\
  for_group cn_lookup (txt "g") /\ fits_kafka cn_lookup /\ In (request_frame 9 44 (kafka_payload cn_lookup)) (written_on (k_link (f_base cn_end)) 2) /\
  for_group (RCommit (txt "g") []) (txt "g") /\ In (request_frame 8 45 (kafka_payload (RCommit (txt "g") []))) (written_on (k_link (f_base cn_end)) 2).
Proof.
  split; [|split; [|split; [|split; [|split; [|split; [|split]]]]]].
  - intros [|[|[|n]]]; cbn [cn_frames]; (split; [|exists []; vm_compute; reflexivity]); repeat constructor; vm_compute; try reflexivity; try (split; congruence); try congruence.
  - intros [|[|[|n]]] id raw H; cbn [cn_frames In] in H; [destruct H as [E|[]]|destruct H as [E|[]]|destruct H..]; injection E as <- <-; [rewrite cn_writes0|rewrite cn_writes1].
    + exists "metadata"%string, 3, fr_ask. split; [exact metadata_number|]. split; [vm_compute; split; congruence|]. split; [now left|]. intros _. do 2 eexists. apply (fr_metas fr_topics1). now left.
    + exists "group_coordinator"%string, 10, (kafka_payload cn_find). split; [cbn; intuition|]. split; [vm_compute; split; congruence|]. split; [now left|discriminate].
  - intros [|[|[|n]]] id raw H; cbn [cn_frames In] in H; [destruct H as [E|[]]|destruct H as [E|[]]|destruct H..]; injection E as <- <-; [rewrite cn_writes0|rewrite cn_writes1].
    + exists "metadata"%string, 3, fr_ask. split; [exact metadata_number|]. split; [vm_compute; split; congruence|]. split; [now left|discriminate].
    + exists "group_coordinator"%string, 10, (kafka_payload cn_find). split; [cbn; intuition|]. split; [vm_compute; split; congruence|]. split; [now left|]. intros _. do 2 eexists. exact cn_named.
  - reflexivity.
  - split; [exists [103]; split; vm_compute; reflexivity|]. split; [exact st_short|]. split; [reflexivity|]. intros p [<-|[<-|[]]]; vm_compute; split; congruence.
  - rewrite cn_writes2. now left.
  - reflexivity.
  - rewrite cn_writes2. right. now left.
Qed.
Print Assumptions C92_named.
