(** Properties C85 and C86: consumers of either kind over connections, and from produce() to consume().  Specification: SpecGroupStack.v. *)
From Coq Require Import ZArith Lia String List Bool.
From Verif Require Import PyBase BaseLemmas Messages Protocol Request SpecWire Cluster Zookeeper SpecCodec Producer SpecProducer SpecFlow SpecProduced ProducerWire ProducerStack SpecProducerStack PropsProducerStack Consumer SpecConsumer SpecGroup SpecLog SpecKafka ConsumerProofs ConsumerSteps ConsumerRuns SpecConn ResponseRead SpecSent SpecRequest SpecBytes StackWire Stack SpecStack StackProofs PropsWire PropsKafka PropsBytes PropsStack Primitives Utf8 PropsProducer Json SpecEnd PropsEnd FollowRuns PropsLog SpecGroupLog PropsGroupLog SpecGroupStack Constants.
From Verif Require Connection.
Import ListNotations.
Open Scope Z_scope.

Lemma kserves_group_serves C depth t klog rq raw r : kserves_group C t klog rq raw -> read_response C (S depth) rq raw = Some (Ok r) -> serves_group t (seen klog) rq r.
Proof.
  intros [K G] R. split; [eapply kserves_serves; eassumption|]. destruct rq as [| |g t' asked| |]; try exact I. destruct G as (parts & rest & KW). rewrite (C73_offset_fetch C (S depth) (ROffsetFetch g t' asked) raw _ ltac:(now exists g, t', asked) KW) in R. injection R as <-. reflexivity.
Qed.

Section Project.
  Context {V : Type}.
  Variable cfg : config V.
  Variable C : codec.
  Variable depth : nat.
  Variable neg_read : Z -> bytes -> bytes * bytes.
  Variable t : text.
  Variable klog : Z -> list (Z * kmsg).
  Variable frames : nat -> list (Z * bytes).
  Hypothesis OK : forall n, Forall frame_ok (frames n).
  Notation sstep := (sstep cfg C (S depth) neg_read).
  Notation srun := (srun cfg C (S depth) neg_read).
  Notation slabels := (slabels cfg C (S depth) neg_read).
  Notation stack_inv := (stack_inv cfg C (S depth) frames).
  Lemma each_project_group evs : forall S, stack_inv S -> hears frames (srun evs S) -> answered_group C t klog frames (srun evs S) -> each_event cfg C (Datatypes.S depth) neg_read (unshaken t cfg) evs S ->
    each_step cfg (undisturbed t (seen klog) cfg) (slabels evs S) (k_cons S).
  Proof.
    induction evs as [|ev evs IH]; intros S I H A E; [exact Logic.I|]. destruct E as ((E1 & ER) & E2).
    destruct (sstep_ok cfg C (Datatypes.S depth) neg_read frames OK ev S I) as (K & I' & L).
    destruct (srun_ok cfg C (Datatypes.S depth) neg_read frames OK evs (sstep S ev) I') as (K2 & I2 & L2).
    cbn [StackProofs.slabels]. apply each_step_app; [|rewrite <- K; apply IH; assumption].
    change (Stack.srun cfg C (Datatypes.S depth) neg_read (ev :: evs) S) with (srun evs (sstep S ev)) in H, A.
    assert (NA : forall (s : consumer V) l, (forall ev', l <> Alloc ev') -> ~ rebalances cfg s l) by (intros s l N (ev' & X & _); now apply (N ev')).
    destruct ev as [l wr|n ce|n topics wr|i b wr]; cbn [labels_of]; try exact Logic.I.
    - assert (CL : forall k, undisturbed t (seen klog) cfg (k_cons S) (Cluster_ k)) by (intros k; split; [apply NA; discriminate|exact Logic.I]).
      destruct l as [i o|i b r|i r|k|av|]; cbn [labels_of each_step]; repeat (split; [apply CL|]); try exact Logic.I; try (split; [split; [apply NA; discriminate|exact Logic.I]|exact Logic.I]).
      + split; [|exact Logic.I]. split; [apply NA; discriminate|]. destruct o as [t' start|m|]; try exact Logic.I. intros -> B. exact (E1 eq_refl B).
      + split; [|exact Logic.I]. split; [|exact Logic.I]. intros (ev' & X & N). apply ER. exists ev'. split; [exact X|]. injection X as <-. cbn [cstep] in N |- *. destruct (md cfg); exact N.
    - destruct (outcome_of S i b) as [r|] eqn:EO; [|exact Logic.I]. cbn [each_step]. split; [split; [apply NA; discriminate|exact Logic.I]|]. split; [|exact Logic.I]. split; [apply NA; discriminate|]. destruct r as [r|e]; [|exact Logic.I]. cbn [undisturbed].
      intros rq W _. change (waits_for (k_cons S) i b rq) in W.
      assert (LL : links_le S (srun evs (sstep S (SDone i b wr)))) by (clear - L L2; destruct L as (La & Lb), L2 as (L2a & L2b); split; [lia|intros n; eapply link_le_trans; [apply Lb|apply L2b]]).
      destruct (outcome_frame cfg C (Datatypes.S depth) frames S i b r rq I (hears_before frames _ _ LL H) EO W) as (n & f & id & raw & As & Fr & Rd).
      destruct (A n id raw Fr) as (api & key & payload & KA & FI & Wr & Sv).
      destruct LL as (_ & LL). destruct (LL n) as (_ & LA & _).
      destruct (frame_request cfg C (Datatypes.S depth) neg_read frames OK _ n f id rq key payload api I2 (LA _ As) KA FI Wr) as (Fk & -> & ->). apply (kserves_group_serves C depth t klog rq raw r); [exact (Sv rq Fk eq_refl eq_refl)|exact Rd].
  Qed.
End Project.

(** A consumer of either kind over its connections, from where it has its positions (already for what the same call goes on
    to fetch) to the next rebalance: the messages delivered from each partition are exactly the readable messages of the
    brokers' log from the start position to the position reached, in order, none missing, none twice; what the calls
    returned, followed by what a running call holds, are the truthy values among them. *)
Theorem C85_over_connections {V} (cfg : config V) C depth neg_read t klog frames S0 evs :
  sreachable cfg C (S depth) neg_read S0 -> (forall p, is_klog (klog p)) -> let s0 := k_cons S0 in at_start t cfg s0 ->
  let S1 := srun cfg C (S depth) neg_read evs S0 in let s := k_cons S1 in
  hears frames S1 -> answered_group C t klog frames S1 -> each_event cfg C (S depth) neg_read (unshaken t cfg) evs S0 -> none_raised t s0 s ->
  exists D pending,
    filter (truthy cfg) (values D) = returned t s0 s ++ pending /\ (~ busy s t -> pending = []) /\
    forall p, of_partition p D = readable cfg (kw_read_set (kbetween (position s0 t p) (position s t p) (klog p))) /\
      position s t p = one_past_last (map fst (of_partition p D)) (position s0 t p) /\ position s0 t p <= position s t p.
Proof.
  intros R KL s0 AS S1 s H A E NR. pose proof (hears_frames frames S1 H) as OK. pose proof (reach_stack cfg C (S depth) neg_read frames OK S0 R) as I.
  destruct (srun_ok cfg C (S depth) neg_read frames OK evs S0 I) as (K & _ & _). fold S1 in K. subst s0 s. rewrite K in *.
  destruct (C81_follows_log cfg t (seen klog) (k_cons S0) _ (fun p => seen_log _ (KL p)) AS (each_project_group cfg C depth neg_read t klog frames OK evs S0 I H A E) NR) as (D & pe & G & PE & L). exists D, pe. split; [exact G|]. split; [exact PE|].
  intros p. destruct (L p) as (L1 & LP & L2). split; [|split; [exact LP|exact L2]]. rewrite L1. unfold seen. now rewrite seen_between.
Qed.

(** ** from produce() to consume() *)
Section EndToEnd.
  Context {V : Type}.
  (** the producer *)
  Variables (C : codec) (compression : Z) (batch_size : option Z) (acks timeout : Z) (depth : nat) (neg_read : Z -> bytes -> bytes * bytes).
  (** the consumer, and the values given to produce() *)
  Variable cfg : config V.
  Variable ser : V -> pyval.
  (** the brokers' logs *)
  Variable klog : text -> Z -> list (Z * kmsg).
  Hypothesis LOGS : forall t p, is_klog (klog t p).
  Notation yrun := (yrun C compression batch_size acks timeout depth neg_read).
  Notation pevents := (pevents C compression batch_size acks timeout depth neg_read).
  Notation accepted := (SpecFlow.accepted batch_size acks timeout (compress_raises C compression) (serialize_raises C compression)).

  (** A message made from [v] that produce() accepted and for which a broker reported success is in the log of a partition
      of its topic; a consumer that reads over its connections from a position at or before it to one beyond it has
      returned [v]. *)
  Theorem C86_produced_consumed : forall frames evs k corr, let Y := yrun evs (pstack_init k corr) in
    codec_laws C -> compression = 0 \/ compression = 1 \/ compression = 2 -> Forall ymakes evs -> phears frames Y -> SpecProducerStack.answers_requests frames Y -> tells_truth C klog frames Y ->
    forall m v, In (m, Some 0) (p_settled (y_prod Y)) -> m_value (pm_msg m) = ser v -> (forall x, var_reads (ser v) x -> deser cfg x = Ok v) -> truthy cfg v = true ->
    exists t p o, nth_error (accepted (pevents evs (pstack_init k corr)) (producer_init k corr)) (pm_id m) = Some (t, pm_msg m) /\ In o (map fst (klog t p)) /\
      forall frames' S0 evs', sreachable cfg C (S depth) neg_read S0 -> let s0 := k_cons S0 in at_start t cfg s0 ->
        let S1 := srun cfg C (S depth) neg_read evs' S0 in let s := k_cons S1 in
        hears frames' S1 -> answered_group C t (klog t) frames' S1 -> each_event cfg C (S depth) neg_read (unshaken t cfg) evs' S0 -> none_raised t s0 s ->
        ~ busy s t -> position s0 t p <= o < position s t p -> In v (returned t s0 s).
  Proof using LOGS.
    intros frames evs k corr Y CL SUP MK H A TT m v HM MV DS TV.
    destruct (C80_stored C compression batch_size acks timeout depth neg_read frames klog evs k corr CL SUP MK H A TT m HM) as (t & p & o & km & N & IK & MR). exists t, p, o. split; [exact N|]. split; [now apply (in_map fst) in IK|].
    intros frames' S0 evs' R s0 AS S1 s H' A' E' NR NB RG. destruct (C85_over_connections cfg C depth neg_read t (klog t) frames' S0 evs' R (LOGS t) AS H' A' E' NR) as (D & pe & G & PE & L). fold S1 in G, PE, L. fold s0 s in G, PE, L. rewrite (PE NB), app_nil_r in G.
    rewrite <- G. apply filter_In. split; [|exact TV]. destruct (L p) as [L1 _].
    assert (IR : In (o, v) (of_partition p D)). { rewrite L1. unfold readable. apply in_flat_map. exists (o, kw_read km). split; [unfold kw_read_set; apply in_map_iff; exists (o, km); split; [reflexivity|]; apply filter_In; split; [exact IK|cbn; lia]|].
      destruct MR as (_ & _ & _ & MR). rewrite MV in MR. cbn [fst snd]. change (msg_value (kw_read km)) with (m_value (kw_read km)). rewrite (DS _ MR). now left. }
    unfold of_partition in IR. apply in_map_iff in IR as ([q [o' v']] & EQ & IR). cbn in EQ. injection EQ as -> ->. unfold values. apply in_map_iff. exists (q, (o, v)). split; [reflexivity|]. now apply filter_In in IR as [IR _].
  Qed.
  (** And a group reads it at least once, whichever members come and go, with autocommit off. *)
  Theorem C86_produced_group : forall frames evs k corr, let Y := yrun evs (pstack_init k corr) in
    codec_laws C -> compression = 0 \/ compression = 1 \/ compression = 2 -> Forall ymakes evs -> phears frames Y -> SpecProducerStack.answers_requests frames Y -> tells_truth C klog frames Y ->
    forall m v, In (m, Some 0) (p_settled (y_prod Y)) -> m_value (pm_msg m) = ser v ->
    exists t p o, nth_error (accepted (pevents evs (pstack_init k corr)) (producer_init k corr)) (pm_id m) = Some (t, pm_msg m) /\ In o (map fst (klog t p)) /\
      forall start T ts, turns t (seen (klog t)) p start (T :: ts) -> ~ busy (tn_end T) t -> start <= o < position (tn_end T) t p ->
        (forall T', In T' (T :: ts) -> truthy (tn_cfg T') v = true /\ forall x, var_reads (ser v) x -> deser (tn_cfg T') x = Ok v) ->
        exists T', In T' (T :: ts) /\ In v (tn_gave t T').
  Proof using LOGS.
    intros frames evs k corr Y CL SUP MK H A TT m v HM MV.
    destruct (C80_stored C compression batch_size acks timeout depth neg_read frames klog evs k corr CL SUP MK H A TT m HM) as (t & p & o & km & N & IK & MR). exists t, p, o. split; [exact N|]. split; [now apply (in_map fst) in IK|].
    intros start T ts TS NB RG DS. assert (IN : In (o, kw_read km) (seen (klog t) p)) by (unfold seen, kw_read_set; apply in_map_iff; now exists (o, km)).
    destruct (C82_at_least_once_partial t (seen (klog t)) p start T ts o (kw_read km) (fun q => seen_log _ (LOGS t q)) TS NB IN RG) as (T' & IT & RI). exists T'. split; [exact IT|]. destruct (DS T' IT) as [TV DV]. destruct MR as (_ & _ & _ & MR). rewrite MV in MR.
    apply RI; [|exact TV]. exact (DV _ MR).
  Qed.
End EndToEnd.

(** ** examples *)
(** a group member on a connection to the only broker: it finds its coordinator, looks up the group's offsets and is about
    to fetch *)
Definition gs_cfg : config (list text) :=
  Cfg (list text) (deser json_cfg) (truthy json_cfg) (fun _ => txt "1.5") 1000 1 1000 (fun _ => None) (Grouped (txt "g") naive_allocator false (txt "me")).
Definition gs_run := srun gs_cfg demo_codec 1 st_neg.
Definition gs_coordinator : bytes := big_endian 2 0 ++ big_endian 4 1 ++ eb_str (txt "h") ++ big_endian 4 9092.
Definition eb_stored (r : list (text * list (Z * (Z * Z)))) : bytes :=
  eb_arr (fun tp => eb_str (fst tp) ++ eb_arr (fun p => big_endian 4 (fst p) ++ big_endian 8 (snd (snd p)) ++ eb_str [] ++ big_endian 2 (fst (snd p))) (snd tp)) r.
Definition gs_stored : list (text * list (Z * (Z * Z))) := [(tp_a, [(0, (0, 10)); (1, (0, 4))])].
Definition gs_frames (n : nat) : list (Z * bytes) :=
  match n with O => [(42, gs_coordinator); (43, eb_stored gs_stored); (44, eb_fetch tp_a kparts1); (45, eb_fetch tp_a kparts2)] | _ => [] end.
Definition gs_join : list sevent :=
  [SConn 0%nat Connection.EvConnected; SLabel (Alloc (EvMembers [txt "me"])) st_none; SLabel (Alloc (EvPartitions (Some [part_name tp_a 0; part_name tp_a 1]))) st_none;
   SLabel (Call 1 OpCoordinator) st_none; st_bytes (firstn 1 (gs_frames 0))] ++ st_reads ++ [SDone 1 1 st_none; SLabel (Call 2 (OpConsume tp_a None)) st_none; st_bytes (firstn 1 (skipn 1 (gs_frames 0)))] ++ st_reads.
Definition gs_asks : stack (list text) := gs_run gs_join (stack_init demo_cluster (txt "me") 41).
Definition gs_start : stack (list text) := gs_run (gs_join ++ [SDone 2 1 st_none]) (stack_init demo_cluster (txt "me") 41).
Definition gs_evs : list sevent :=
  [st_bytes (firstn 1 (skipn 2 (gs_frames 0)))] ++ st_reads ++ [SDone 2 1 st_none; SLabel (Call 3 (OpConsume tp_a None)) st_none; st_bytes (skipn 3 (gs_frames 0))] ++ st_reads ++ [SDone 3 1 st_none].
Definition gs_end : stack (list text) := gs_run gs_evs gs_start.
Lemma gs_ok n : Forall frame_ok (gs_frames n).
Proof. destruct n as [|n]; [|constructor]. repeat constructor; vm_compute; try reflexivity; try (split; congruence); congruence. Qed.
Lemma gs_at_start : at_start tp_a gs_cfg (k_cons gs_start).
Proof.
  assert (RA : reachable gs_cfg (k_cons gs_asks)) by (apply (sreach_reachable gs_cfg demo_codec 0 st_neg gs_frames gs_ok); do 4 eexists; reflexivity).
  set (f := Cluster_ (c_cluster (k_cons gs_asks))). set (l := Arrive 2 1 (Ok (POffsetFetch gs_stored))).
  assert (RF : reachable gs_cfg (cstep gs_cfg (k_cons gs_asks) f)) by (destruct RA as (k & n & ls & ->); exists k, n, (ls ++ [f]); unfold crun; now rewrite fold_left_app).
  assert (E : k_cons gs_start = cstep gs_cfg (cstep gs_cfg (k_cons gs_asks) f) l) by (vm_compute; reflexivity).
  split; [rewrite E; destruct RF as (k & n & ls & ->); exists k, n, (ls ++ [l]); unfold crun; now rewrite fold_left_app|]. split; [vm_compute; now left|]. right. exists (cstep gs_cfg (k_cons gs_asks) f), l, 2.
  split; [exact RF|]. split; [exact E|]. split; [eexists _, _; left; do 2 eexists; vm_compute; reflexivity|].
  split; [eexists _, _; split; [vm_compute; reflexivity|]; left; exists 1; eexists; split; [do 4 eexists; split; vm_compute; reflexivity|do 4 eexists; reflexivity]|].
  intros j o p D OT. destruct (Z.eq_dec j 2) as [->|N]; [reflexivity|]. exfalso. vm_compute in D. destruct j as [|[q|[q|q|]|]|q]; try discriminate D; now apply N.
Qed.
Lemma gs_stored_ok : kw_offset_fetch gs_stored (eb_stored gs_stored).
Proof.
  apply arr_ok; [|vm_compute; reflexivity]. intros tp [<-|[]]. eexists. eexists. split; [exists [97]; split; [vm_compute; reflexivity|]; split; [vm_compute; reflexivity|reflexivity]|]. split; [|reflexivity].
  apply arr_ok; [|vm_compute; reflexivity]. intros p H. cbn [fst snd] in H |- *. destruct H as [<-|[<-|[]]]; (eexists _, _, (Some []), (eb_str []), _; cbn [fst snd]; (split; [split; [vm_compute; split; congruence|reflexivity]|]); (split; [split; [vm_compute; split; congruence|reflexivity]|]);
    (split; [exists []; split; [vm_compute; reflexivity|split; vm_compute; reflexivity]|]); (split; [split; [vm_compute; split; congruence|reflexivity]|reflexivity])).
Qed.
Lemma gs_written {V} api id rq (S : stack V) raw : In (api, kafka_api rq) kafka_api_numbers -> SpecWire.fits 32 id -> fits_kafka rq ->
  In (request_frame (kafka_api rq) id (kafka_payload rq)) (Connection.c_written (l_conn (k_link S 0%nat))) -> kserves_group demo_codec tp_a kend_log rq raw ->
  exists api key payload, In (api, key) kafka_api_numbers /\ SpecWire.fits 32 id /\ In (request_frame key id payload) (Connection.c_written (l_conn (k_link S 0%nat))) /\
    forall rq', fits_kafka rq' -> key = kafka_api rq' -> payload = kafka_payload rq' -> kserves_group demo_codec tp_a kend_log rq' raw.
Proof. intros A F K W Sv. exists api, (kafka_api rq), (kafka_payload rq). repeat split; try assumption; try apply F; rewrite <- (request_readable rq rq' K H H0 H1); apply Sv. Qed.
Lemma gs_first : kserves_group demo_codec tp_a kend_log (st_fetch 10 4) (eb_fetch tp_a kparts1).
Proof.
  split; [|exact I]. apply st_serves; [vm_compute; reflexivity|]. split; [repeat constructor; cbn; intuition discriminate|].
  intros p code ms [X|[X|[]]]; injection X as <- <- <-; (split; [discriminate|]); intros _; [exists 10, 500, 1%nat|exists 4, 500, 2%nat]; (split; [cbn; auto|reflexivity]).
Qed.
Lemma gs_second : kserves_group demo_codec tp_a kend_log (st_fetch 11 6) (eb_fetch tp_a kparts2).
Proof.
  split; [|exact I]. apply st_serves; [vm_compute; reflexivity|]. split; [repeat constructor; cbn; intuition discriminate|].
  intros p code ms [X|[X|[]]]; injection X as <- <- <-; (split; [discriminate|]); intros _; [exists 11, 500, 1%nat|exists 6, 500, 1%nat]; (split; [cbn; auto|reflexivity]).
Qed.
Lemma gs_answered : answered_group demo_codec tp_a kend_log gs_frames gs_end.
Proof.
  intros [|n] id raw H; [|destruct H]. cbn [gs_frames In] in H.
  assert (G : short_text (txt "g")) by (exists [103]; split; vm_compute; reflexivity).
  destruct H as [H|[H|[H|[H|[]]]]]; injection H as <- <-.
  - apply (gs_written "group_coordinator"%string 42 (RCoordinator (txt "g"))); [cbn; intuition|vm_compute; split; congruence|exact G|vm_compute; intuition|]. split; exact I.
  - apply (gs_written "offset_fetch"%string 43 (ROffsetFetch (txt "g") tp_a [0; 1])); [cbn; intuition|vm_compute; split; congruence| |vm_compute; intuition|split; [exact I|]; exists [(0, (0, 10)); (1, (0, 4))], []; exact gs_stored_ok].
    split; [exact G|]. split; [exact st_short|]. split; [reflexivity|]. intros p [<-|[<-|[]]]; vm_compute; split; congruence.
  - apply (gs_written "fetch"%string 44 (st_fetch 10 4)); [cbn; intuition|vm_compute; split; congruence|apply st_fetch_fits; vm_compute; split; congruence|vm_compute; intuition|exact gs_first].
  - apply (gs_written "fetch"%string 45 (st_fetch 11 6)); [cbn; intuition|vm_compute; split; congruence|apply st_fetch_fits; vm_compute; split; congruence|vm_compute; intuition|exact gs_second].
Qed.
Example C85_example :
  sreachable gs_cfg demo_codec 1 st_neg gs_start /\ (forall p, is_klog (kend_log p)) /\ at_start tp_a gs_cfg (k_cons gs_start) /\ busy (k_cons gs_start) tp_a /\
  hears gs_frames gs_end /\ answered_group demo_codec tp_a kend_log gs_frames gs_end /\ each_event gs_cfg demo_codec 1 st_neg (unshaken tp_a gs_cfg) gs_evs gs_start /\
  none_raised tp_a (k_cons gs_start) (k_cons gs_end) /\ ~ busy (k_cons gs_end) tp_a /\
  returned tp_a (k_cons gs_start) (k_cons gs_end) = [[txt "one"]; [txt "two"; txt "2"]; [[8364; 34]]; [txt "three"]] /\
  (forall p o m, In (o, m) (kend_log p) -> position (k_cons gs_start) tp_a p <= o < position (k_cons gs_end) tp_a p).
Proof.
  split; [do 4 eexists; reflexivity|]. split; [intros p; unfold kend_log; destruct (p =? 0); [|destruct (p =? 1)]; split; cbn; repeat constructor; try lia|]. split; [exact gs_at_start|]. split; [exists 2; do 2 eexists; split; [vm_compute; reflexivity|reflexivity]|].
  split; [|split; [exact gs_answered|split; [|split; [|split; [|split]]]]].
  - intros [|n]; split; try apply gs_ok; exists []; vm_compute; reflexivity.
  - cbn [gs_evs app each_event]. unfold st_reads. cbn [repeat app each_event]. unfold unshaken. cbn [calm]. repeat split; try exact I.
    + intros _ (i & o & p & H & _). vm_compute in H. discriminate H.
    + intros (ev & H & _). discriminate H.
  - intros i o e H. vm_compute in H. destruct H as [H|[H|[]]]; discriminate H.
  - intros (i & o & p & H & _). vm_compute in H. discriminate H.
  - vm_compute. reflexivity.
  - intros p o m. unfold kend_log. destruct (p =? 0) eqn:E0; [apply Z.eqb_eq in E0; subst p|destruct (p =? 1) eqn:E1; [apply Z.eqb_eq in E1; subst p|intros []]];
      (intros H; destruct H as [H|[H|[]]]; injection H as <- <-; vm_compute; split; congruence).
Qed.

(** The messages that the producer of C80's example sent are in the log that this member reads; so is a turn of the member. *)
Definition gs_turn : @turn (list text) := Turn gs_cfg (k_cons gs_start) [Arrive 2 1 (Ok (kresp kparts1)); Call 3 (OpConsume tp_a None); Arrive 3 1 (Ok (kresp kparts2))].
Ltac gs_fetch := let H := fresh in let W := fresh in intros ? (? & ? & ? & ? & H & W) _; vm_compute in H; injection H as <- <- <- <-; vm_compute in W; injection W as <-.
Lemma gs_fair : fair_turn tp_a (seen kend_log) gs_turn.
Proof.
  split; [do 3 eexists; reflexivity|]. split; [exact gs_at_start|]. split; [intros (i & m & p & D); vm_compute in D; destruct i as [|[q|[q|q|]|]|q]; discriminate D|].
  cbn [gs_turn tn_cfg tn_start tn_steps each_step]. split.
  { split; [split; [ex_norebalance|gs_fetch; apply (kserves_group_serves demo_codec 0 tp_a kend_log (st_fetch 10 4) _ _ gs_first); apply kresp_read; vm_compute; reflexivity]|].
    split; [split; [ex_norebalance|intros _ (i & o & p & H & _); vm_compute in H; discriminate H]|].
    split; [split; [ex_norebalance|gs_fetch; apply (kserves_group_serves demo_codec 0 tp_a kend_log (st_fetch 11 6) _ _ gs_second); apply kresp_read; vm_compute; reflexivity]|exact I]. }
  split; [|intros i o e H; vm_compute in H; repeat (destruct H as [H|H]; [discriminate H|]); destruct H].
  split; [exact I|]. split; [unfold apart; intros _ (i & m & p & D); vm_compute in D; discriminate D|]. split; exact I.
Qed.
Example C86_example : (forall t p, is_klog (ys_log t p)) /\
  (exists m, In (m, Some 0) (p_settled (y_prod ys_end)) /\ pm_id m = 3%nat /\ m_value (pm_msg m) = json_ser [[8364; 34]]) /\
  (forall x, var_reads (json_ser [[8364; 34]]) x -> deser gs_cfg x = Ok [[8364; 34]]) /\ truthy gs_cfg [[8364; 34]] = true /\
  In [[8364; 34]] (returned tp_a (k_cons gs_start) (k_cons gs_end)) /\
  turns tp_a (seen (ys_log tp_a)) 1 4 [gs_turn] /\ ~ busy (tn_end gs_turn) tp_a /\ position (tn_end gs_turn) tp_a 1 = 6 /\ In [[8364; 34]] (tn_gave tp_a gs_turn).
Proof.
  split; [intros t p; unfold ys_log, kend_log; destruct (eqb t tp_a); [destruct (p =? 0); [|destruct (p =? 1)]|]; split; cbn; repeat constructor; try lia|].
  split; [eexists; split; [vm_compute; right; right; right; left; reflexivity|split; reflexivity]|]. split; [intros x; change (deser gs_cfg x) with (deser json_cfg x); apply json_reads; intros t [<-|[]] c K; cbn in K; repeat (destruct K as [<-|K]; [split; lia|]); destruct K|]. split; [reflexivity|]. split; [vm_compute; auto|].
  split; [apply turns_next; [apply turns_nil|exact gs_fair|left; vm_compute; reflexivity]|]. split; [intros (i & o & p & H & _); vm_compute in H; discriminate H|]. split; vm_compute; auto.
Qed.
Print Assumptions C85_over_connections.
Print Assumptions C86_produced_consumed.
Print Assumptions C86_produced_group.
