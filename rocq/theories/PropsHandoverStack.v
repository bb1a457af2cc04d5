(** Property C114: a group over many rebalances, with its members' connections. *)
From Coq Require Import ZArith Lia String List Bool Sorting.Sorted.
From Verif Require Import PyBase BaseLemmas Messages Protocol Request SpecWire Cluster Zookeeper SpecCodec Producer SpecProducer SpecFlow SpecProduced ProducerWire ProducerStack SpecProducerStack PropsProducerStack Consumer SpecConsumer SpecGroup SpecLog SpecKafka ConsumerProofs ConsumerSteps ConsumerRuns SpecConn ResponseRead SpecSent SpecRequest SpecBytes StackWire Stack SpecStack StackProofs PropsWire PropsKafka PropsBytes PropsStack Primitives Utf8 PropsProducer Json SpecEnd PropsEnd FollowRuns PropsLog SpecGroupLog PropsGroupLog SpecGroupStack Constants.
From Verif Require Connection.
From Verif Require Import SpecGroupStack PropsGroupStack SpecOnce SpecHandover PropsHandover.
From Verif Require SpecTeam TeamProofs.
Import ListNotations.
Open Scope Z_scope.

Section C114.
  Context {V : Type}.
  Variables (C : codec) (depth : nat) (neg_read : Z -> bytes -> bytes * bytes).
  Variable t : text.
  Variable klog : Z -> list (Z * kmsg).
  (** what a member does between two rebalances: its configuration, the frames its brokers send it on each connection, where it begins, and all that happens to it *)
  Record cturn := CTurn { ct_cfg : config V; ct_frames : nat -> list (Z * bytes); ct_start : stack V; ct_events : list sevent }.
  Definition ct_end (T : cturn) : stack V := srun (ct_cfg T) C (S depth) neg_read (ct_events T) (ct_start T).
  (** As in C85: the consumer is one that can be reached and has its positions; the bytes that its connections bring are those of the frames; these answer what it asked, and
      are what Kafka's protocol and the logs say; no rebalance reaches it; its consume() calls do not overlap and do not raise. *)
  Definition over_connections (T : cturn) : Prop :=
    (exists g fn ac name, SpecTeam.full_allocator fn /\ md (ct_cfg T) = Grouped g fn ac name) /\ sreachable (ct_cfg T) C (S depth) neg_read (ct_start T) /\ at_start t (ct_cfg T) (k_cons (ct_start T)) /\
    hears (ct_frames T) (ct_end T) /\ answered_group C t klog (ct_frames T) (ct_end T) /\ each_event (ct_cfg T) C (S depth) neg_read (unshaken t (ct_cfg T)) (ct_events T) (ct_start T) /\
    none_raised t (k_cons (ct_start T)) (k_cons (ct_end T)).
  (** the same turn without the connections: what the consumer sees of it *)
  Definition seen_turn (T : cturn) : turn (V := V) := Turn (ct_cfg T) (k_cons (ct_start T)) (slabels (ct_cfg T) C (S depth) neg_read (ct_events T) (ct_start T)).
  Lemma seen_undisturbed T : over_connections T -> undisturbed_turn t (seen klog) (seen_turn T) /\ tn_end (seen_turn T) = k_cons (ct_end T).
  Proof.
    intros (MD & R & AS & H & A & E & NR). pose proof (hears_frames (ct_frames T) (ct_end T) H) as OK. pose proof (reach_stack (ct_cfg T) C (S depth) neg_read (ct_frames T) OK (ct_start T) R) as I.
    destruct (srun_ok (ct_cfg T) C (S depth) neg_read (ct_frames T) OK (ct_events T) (ct_start T) I) as (K & _ & _). fold (ct_end T) in K.
    assert (EN : tn_end (seen_turn T) = k_cons (ct_end T)) by (symmetry; exact K). split; [|exact EN].
    split; [exact MD|]. split; [exact AS|]. split; [exact (each_project_group (ct_cfg T) C depth neg_read t klog (ct_frames T) OK (ct_events T) (ct_start T) I H A E)|]. rewrite EN. exact NR.
  Qed.
  (** C111 over connections *)
  Theorem C114_exactly_once (c : config V) (Cs : list (list cturn)) : (forall p, is_klog (klog p)) -> Forall (Forall over_connections) Cs ->
    let Es := map (map seen_turn) Cs in
    Forall (shared_out t) Es -> (forall Ts T, In Ts Cs -> In T Ts -> deser (ct_cfg T) = deser c) ->
    (forall Ts T, In Ts Cs -> In T Ts -> tn_end (seen_turn T) = k_cons (ct_end T)) /\
    exists Dss, Forall2 (Forall2 (delivers t)) Es Dss /\ let all := concat (map (@concat _) Dss) in
      (forall p a b, handed_over t p a Es b \/ kept_offset t p a Es b -> of_partition p all = readable c (kw_read_set (kbetween a b (klog p)))) /\
      ((forall p, exists a b, handed_over t p a Es b \/ kept_offset t p a Es b) -> NoDup (map message_of all)).
  Proof.
    intros KL F Es S DE.
    assert (U : Forall (Forall (undisturbed_turn t (seen klog))) Es).
    { unfold Es. apply Forall_forall. intros Ts X. apply in_map_iff in X as (Cs' & <- & X). apply Forall_forall. intros T Y. apply in_map_iff in Y as (T' & <- & Y). rewrite Forall_forall in F. specialize (F _ X). rewrite Forall_forall in F. exact (proj1 (seen_undisturbed T' (F _ Y))). }
    split. { intros Ts T X Y. rewrite Forall_forall in F. specialize (F _ X). rewrite Forall_forall in F. exact (proj2 (seen_undisturbed T (F _ Y))). }
    assert (HO : forall p a b, handed_over t p a Es b \/ kept_offset t p a Es b -> handed_over t p a Es b) by (intros p a b [H|H]; [exact H|exact (kept_over t (seen klog) p a Es b U H)]).
    destruct (C111_exactly_once c t (seen klog) Es (fun p => seen_log _ (KL p)) U S) as (Dss & A & B & N).
    { intros Ts T X Y. unfold Es in X. apply in_map_iff in X as (Cs' & <- & X). apply in_map_iff in Y as (T' & <- & Y). exact (DE Cs' T' X Y). }
    exists Dss. split; [exact A|]. split.
    - intros p a b H. rewrite (B p a b (HO p a b H)). unfold seen. now rewrite seen_between.
    - intros H. apply N. intros p. destruct (H p) as (a & b & K). exists a, b. exact (HO p a b K).
  Qed.
End C114.

(** The member of [C85_example]: it fetches, and fetches again in a second turn. *)
Definition ho_evs1 : list sevent := [st_bytes (firstn 1 (skipn 2 (gs_frames 0)))] ++ st_reads ++ [SDone 2 1 st_none].
Definition ho_evs2 : list sevent := [SLabel (Call 3 (OpConsume tp_a None)) st_none; st_bytes (skipn 3 (gs_frames 0))] ++ st_reads ++ [SDone 3 1 st_none].
Definition ho_frames (n : nat) : list (Z * bytes) := firstn 3 (gs_frames n).
Definition ho_mid : stack (list text) := gs_run ho_evs1 gs_start.
Definition ho_first : cturn (V := list text) := CTurn gs_cfg ho_frames gs_start ho_evs1.
Definition ho_second : cturn (V := list text) := CTurn gs_cfg gs_frames ho_mid ho_evs2.
Definition ho_over := over_connections (V := list text) demo_codec 0 st_neg tp_a kend_log.
Definition ho_seen := seen_turn (V := list text) demo_codec 0 st_neg.
Lemma ho_answered : answered_group demo_codec tp_a kend_log ho_frames ho_mid.
Proof.
  intros [|n] id raw H; [|unfold ho_frames in H; cbn [gs_frames firstn] in H; destruct H]. unfold ho_frames in H. cbn [gs_frames firstn In] in H.
  assert (G : short_text (txt "g")) by (exists [103]; split; vm_compute; reflexivity).
  destruct H as [H|[H|[H|[]]]]; injection H as <- <-.
  - apply (gs_written "group_coordinator"%string 42 (RCoordinator (txt "g"))); [cbn; intuition|vm_compute; split; congruence|exact G|vm_compute; intuition|]. split; exact I.
  - apply (gs_written "offset_fetch"%string 43 (ROffsetFetch (txt "g") tp_a [0; 1])); [cbn; intuition|vm_compute; split; congruence| |vm_compute; intuition|split; [exact I|]; exists [(0, (0, 10)); (1, (0, 4))], []; exact gs_stored_ok].
    split; [exact G|]. split; [exact st_short|]. split; [reflexivity|]. intros p [<-|[<-|[]]]; vm_compute; split; congruence.
  - apply (gs_written "fetch"%string 44 (st_fetch 10 4)); [cbn; intuition|vm_compute; split; congruence|apply st_fetch_fits; vm_compute; split; congruence|vm_compute; intuition|exact gs_first].
Qed.
Lemma ho_free : ~ busy (k_cons ho_mid) tp_a.
Proof. intros (i & o & p & H & _). vm_compute in H. discriminate H. Qed.
Lemma ho_reach : sreachable gs_cfg demo_codec 1 st_neg ho_mid.
Proof. exists demo_cluster, (txt "me"), 41, ((gs_join ++ [SDone 2 1 st_none]) ++ ho_evs1). unfold ho_mid, gs_start, gs_run, srun. now rewrite !fold_left_app. Qed.
Lemma ho_ends : ct_end demo_codec 0 st_neg ho_second = gs_end.
Proof. vm_compute. reflexivity. Qed.
Lemma ho_middle : ct_end demo_codec 0 st_neg ho_first = ho_mid.
Proof. vm_compute. reflexivity. Qed.
Lemma ho_first_over : ho_over ho_first.
Proof.
  split; [eexists _, _, _, _; (split; [exact TeamProofs.naive_answers|reflexivity])|]. split; [do 4 eexists; reflexivity|]. split; [exact gs_at_start|]. rewrite ho_middle.
  split; [intros [|n]; (split; [cbn [ho_first ct_frames]; unfold ho_frames; apply Forall_forall; intros x X; pose proof (gs_ok 0) as K; pose proof (gs_ok 1) as K1; rewrite Forall_forall in K, K1; first [apply K; vm_compute in X |- *; tauto|destruct X]|exists []; vm_compute; reflexivity])|].
  split; [exact ho_answered|]. split.
  - cbn [ho_first ct_events ct_start ct_cfg ho_evs1 app each_event]. unfold st_reads. cbn [repeat app each_event]. unfold unshaken. cbn [calm]. repeat split; try exact I.
  - intros i o e H. vm_compute in H. repeat (destruct H as [H|H]; [discriminate H|]). destruct H.
Qed.
Lemma ho_second_over : ho_over ho_second.
Proof.
  split; [eexists _, _, _, _; (split; [exact TeamProofs.naive_answers|reflexivity])|]. split; [exact ho_reach|].
  split; [split; [exact (sreach_reachable gs_cfg demo_codec 0 st_neg gs_frames gs_ok ho_mid ho_reach)|split; [vm_compute; now left|left; exact ho_free]]|]. rewrite ho_ends.
  split; [intros [|n]; split; try apply gs_ok; exists []; vm_compute; reflexivity|]. split; [exact gs_answered|]. split.
  - cbn [ho_second ct_events ct_start ct_cfg ho_evs2 app each_event]. unfold st_reads. cbn [repeat app each_event]. unfold unshaken. cbn [calm]. repeat split; try exact I.
    + intros _ B. exact (ho_free B).
    + intros (ev & H & _). discriminate H.
  - intros i o e H. vm_compute in H. repeat (destruct H as [H|H]; [discriminate H|]). destruct H.
Qed.
Lemma ho_own p T : T = ho_first \/ T = ho_second -> (owns tp_a (ho_seen T) p <-> p = 0 \/ p = 1).
Proof. intros [-> | ->]; unfold owns; vm_compute; intuition. Qed.
Lemma ho_alone (T : turn (V := list text)) : shared_out tp_a [T].
Proof. intros i j X Y p E E' O O'. destruct i as [|i], j as [|j]; try reflexivity; cbn in E, E'; try (destruct i; discriminate E); destruct j; discriminate E'. Qed.
Lemma ho_at p a o b (T T' : turn (V := list text)) : position (tn_start T) tp_a p = a -> position (tn_end T) tp_a p = o -> position (tn_start T') tp_a p = o -> position (tn_end T') tp_a p = b -> owns tp_a T p -> owns tp_a T' p -> handed_over tp_a p a [[T]; [T']] b.
Proof. intros <- H H' <- O O'. apply over_to; [left; reflexivity|exact O|]. rewrite H, <- H'. apply over_to; [left; reflexivity|exact O'|apply over_end]. Qed.
Example C114_example : (forall p, is_klog (kend_log p)) /\ Forall (Forall ho_over) [[ho_first]; [ho_second]] /\ let Es := map (map ho_seen) [[ho_first]; [ho_second]] in
  Forall (shared_out tp_a) Es /\ (forall Ts T, In Ts [[ho_first]; [ho_second]] -> In T Ts -> deser (ct_cfg T) = deser gs_cfg) /\ handed_over tp_a 0 10 Es 13 /\ handed_over tp_a 1 4 Es 6 /\ (forall p, exists a b, handed_over tp_a p a Es b) /\
  map (tn_gave tp_a) (concat Es) = [[[txt "one"]; [txt "two"; txt "2"]; [[8364; 34]]]; [[txt "three"]]].
Proof.
  split; [exact (proj1 (proj2 C85_example))|]. split; [constructor; [constructor; [exact ho_first_over|constructor]|constructor; [constructor; [exact ho_second_over|constructor]|constructor]]|].
  cbv zeta. cbn [map]. split; [constructor; [apply ho_alone|constructor; [apply ho_alone|constructor]]|]. split; [intros Ts T [<-|[<-|[]]] [<-|[]]; reflexivity|].
  assert (K0 : handed_over tp_a 0 10 [[ho_seen ho_first]; [ho_seen ho_second]] 13) by (apply (ho_at 0 10 11 13); [vm_compute; reflexivity..|exact (proj2 (ho_own 0 ho_first (or_introl eq_refl)) (or_introl eq_refl))|exact (proj2 (ho_own 0 ho_second (or_intror eq_refl)) (or_introl eq_refl))]).
  assert (K1 : handed_over tp_a 1 4 [[ho_seen ho_first]; [ho_seen ho_second]] 6) by (apply (ho_at 1 4 6 6); [vm_compute; reflexivity..|exact (proj2 (ho_own 1 ho_first (or_introl eq_refl)) (or_intror eq_refl))|exact (proj2 (ho_own 1 ho_second (or_intror eq_refl)) (or_intror eq_refl))]).
  split; [exact K0|]. split; [exact K1|]. split.
  { intros p. destruct (Z.eq_dec p 0) as [->|N0]; [eauto|]. destruct (Z.eq_dec p 1) as [->|N1]; [eauto|]. exists 0, 0. clear K0 K1.
    apply over_none; [|apply over_none; [|apply over_end]]; intros T [<-|[]] O.
    - pose proof (proj1 (ho_own p ho_first (or_introl eq_refl)) O) as E. clear O. destruct E as [E|E]; [exact (N0 E)|exact (N1 E)].
    - pose proof (proj1 (ho_own p ho_second (or_intror eq_refl)) O) as E. clear O. destruct E as [E|E]; [exact (N0 E)|exact (N1 E)]. }
  vm_compute. reflexivity.
Qed.
Print Assumptions C114_exactly_once.
