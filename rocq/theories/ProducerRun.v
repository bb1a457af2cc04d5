(** The order of messages over whole runs of a producer (proof file for C62). *)
From Coq Require Import ZArith String List Bool Lia Permutation Sorting.Sorted.
From Verif Require Import PyBase BaseLemmas Constants Cluster ClusterProofs Producer SpecProducer ProducerProofs ProducerOrder ProducerAnswers SpecFlow.
Import ListNotations.
Open Scope Z_scope.

Lemma in_order_refl {A} (l : list A) : in_order l l.
Proof. induction l; constructor; assumption. Qed.
Lemma in_order_nil {A} (l : list A) : in_order [] l.
Proof. induction l; constructor; assumption. Qed.
Lemma in_order_trans {A} (a b c : list A) : in_order a b -> in_order b c -> in_order a c.
Proof.
  intros AB BC. revert a AB. induction BC as [|x b c BC IH|x b c BC IH]; intros a AB; [exact AB|apply io_skip, IH, AB|].
  inversion AB as [|? ? ? AB'|? ? ? AB']; subst; [apply io_skip|apply io_take]; apply IH, AB'.
Qed.
Lemma in_order_app {A} (a b c d : list A) : in_order a b -> in_order c d -> in_order (a ++ c) (b ++ d).
Proof. intros AB CD. induction AB; cbn; [exact CD|constructor; exact IHAB|constructor; exact IHAB]. Qed.
Lemma in_order_filter {A} f (l : list A) : in_order (filter f l) l.
Proof. induction l as [|x l IH]; cbn; [constructor|]. destruct (f x); constructor; exact IH. Qed.
Lemma in_order_flat {A B} (f : A -> list B) a b : in_order a b -> in_order (flat_map f a) (flat_map f b).
Proof.
  induction 1 as [|x a b H IH|x a b H IH]; cbn; [constructor| |apply in_order_app; [apply in_order_refl|exact IH]].
  apply (in_order_app [] (f x) (flat_map f a) (flat_map f b)); [apply in_order_nil|exact IH].
Qed.
Lemma in_order_in {A} (a b : list A) x : in_order a b -> In x a -> In x b.
Proof. induction 1; cbn; intuition. Qed.
Lemma in_order_map {A B} (f : A -> B) a b : in_order a b -> in_order (map f a) (map f b).
Proof. induction 1; cbn; constructor; assumption. Qed.
Lemma in_order_sorted (a b : list nat) : in_order a b -> StronglySorted lt b -> StronglySorted lt a.
Proof.
  induction 1 as [|x a b H IH|x a b H IH]; intros S; [constructor| |]; inversion S as [|? ? S1 S2]; subst; [auto|]. constructor; [auto|].
  rewrite Forall_forall in *. intros y Y. apply S2. eapply in_order_in; eassumption.
Qed.

Lemma order_topics_rest part items : forall o retry k r rest k', order_topics part items o retry k = (r, rest, k') -> exists pre, items = pre ++ rest.
Proof.
  induction items as [|[t msgs] items IH]; intros o retry k r rest k' H; cbn [order_topics] in H.
  - injection H as _ <- _. exists []. reflexivity.
  - destruct (order_msgs part t msgs o retry k) as [[[o1 r1]|e] k1].
    + destruct (IH _ _ _ _ _ _ H) as [pre ->]. exists ((t, msgs) :: pre). reflexivity.
    + injection H as _ <- _. exists [(t, msgs)]. reflexivity.
Qed.
Lemma write_all_in_order sf rqs k : forall wire r wire', write_all sf rqs k wire = (r, wire') ->
  exists w, wire' = wire ++ w /\ in_order w rqs /\ forall rq, In rq w -> sf rq = None.
Proof.
  induction rqs as [|rq rqs IH]; intros wire r wire' H; cbn [write_all] in H.
  - injection H as _ <-. exists []. rewrite app_nil_r. split; [reflexivity|]. split; [constructor|intros ? []].
  - assert (N : wire = wire ++ [] /\ in_order [] (rq :: rqs) /\ forall x, In x [] -> sf x = None) by (rewrite app_nil_r; split; [reflexivity|]; split; [apply in_order_nil|intros ? []]).
    destruct (dget (k_conns k) (pq_leader rq)) as [c|]; [|injection H as _ <-; exists []; exact N]. destruct (cc_closing c).
    + destruct (IH _ _ _ H) as (w & -> & W1 & W2). exists w. split; [reflexivity|]. split; [now constructor|exact W2].
    + destruct (sf rq) as [e|] eqn:E; [injection H as _ <-; exists []; exact N|]. destruct (IH _ _ _ H) as (w & -> & W1 & W2). exists (rq :: w). rewrite <- app_assoc. split; [reflexivity|]. split; [now constructor|].
      intros x [<-|X]; [exact E|auto].
Qed.
Lemma write_all_leads sf rqs k : (forall rq, In rq rqs -> connected k (pq_leader rq) = true) -> forall wire, exists wire', write_all (fun _ => None) rqs k wire = (Ok tt, wire') /\ forall e w', write_all sf rqs k wire = (Err e, w') -> True.
Proof.
  induction rqs as [|rq rqs IH]; intros C wire; [exists wire; split; [reflexivity|auto]|]. cbn [write_all]. pose proof (C rq (or_introl eq_refl)) as Cq. unfold connected, dmem in Cq. destruct (dget (k_conns k) (pq_leader rq)) as [c|]; [|discriminate].
  destruct (cc_closing c); destruct (IH (fun x X => C x (or_intror X)) (if cc_closing c then wire else wire ++ [rq])) as (w & E & _); destruct (IH (fun x X => C x (or_intror X)) wire) as (w2 & E2 & _); destruct (IH (fun x X => C x (or_intror X)) (wire ++ [rq])) as (w3 & E3 & _); eauto.
Qed.

Section Run.
  Variable batch_size : option Z.
  Variables acks timeout : Z.
  Variable compress_fails : list pmsg -> option exn.
  Variable serialize_fails : prequest -> option exn.
  Notation flush := (flush acks timeout compress_fails serialize_fails).
  Notation pstep := (pstep batch_size acks timeout compress_fails serialize_fails).
  Notation prun := (prun batch_size acks timeout compress_fails serialize_fails).

  (** every flush, whether it raises or not *)
  Lemma flush_sends part s r s' : flush part s = (r, s') -> pinv s -> exists w, p_wire s' = p_wire s ++ w /\ (forall rq, In rq w -> serialize_fails rq = None /\ pq_acks rq = acks /\ pq_timeout rq = timeout) /\
    ((w = [] /\ forall t, queue_of s' t = queue_of s t \/ queue_of s' t = []) \/
     ((forall t p, in_order (carried w t p) (filter (goes_to part (p_cluster s) t p) (queue_of s t))) /\ forall t, queue_of s' t = filter (leaderless part (p_cluster s) t) (queue_of s t))).
  Proof.
    intros H I. destruct (p_unsent s) as [|u0 us] eqn:EU.
    { unfold Producer.flush in H. rewrite EU in H. injection H as _ <-. exists []. rewrite app_nil_r. split; [reflexivity|]. split; [intros ? []|]. left. split; [reflexivity|auto]. }
    assert (NE : p_unsent s <> []) by (rewrite EU; discriminate). clear u0 us EU.
    assert (FL : forall sf x, Producer.flush acks timeout compress_fails sf part s = x -> x = 
      let '(r1, rest, k1) := order_topics part (drain_items (p_unsent s)) [] [] (p_cluster s) in
      match r1 with
      | Err e => (Err e, Prod (rev rest) (p_sent s) (p_heal s) (p_closing s) k1 (p_corr s) (p_next s) (p_open s) (p_wire s) (p_settled s) (p_lost s ++ without (queue_msgs (p_unsent s)) (queue_msgs rest)))
      | Ok (o, retry) =>
          let '(r2, corr, sent) := build_requests acks timeout compress_fails o (p_corr s) [] (p_sent s) in
          match r2 with
          | Err e => (Err e, Prod (rev rest) sent (p_heal s) (p_closing s) k1 corr (p_next s) (p_open s) (p_wire s) (p_settled s) (p_lost s ++ without (without (queue_msgs (p_unsent s)) (queue_msgs rest)) (ordered_msgs sent)))
          | Ok rqs =>
              let s3 := fold_left (fun s' tm => queue_retries (fst tm) (snd tm) s') retry (Prod (rev rest) sent (p_heal s) (p_closing s) k1 corr (p_next s) (p_open s) (p_wire s) (p_settled s) (p_lost s)) in
              let '(r3, wire) := write_all sf rqs (p_cluster s3) (p_wire s3) in
              (match r3 with Ok _ => Ok rqs | Err e => Err e end,
               Prod (p_unsent s3) (p_sent s3) (p_heal s3) (p_closing s3) (p_cluster s3) (p_corr s3) (p_next s3)
                 (match r3 with Ok _ => p_open s3 ++ map pq_corr rqs | Err _ => p_open s3 end) wire (p_settled s3) (p_lost s3))
          end
      end).
    { intros sf x <-. unfold Producer.flush. destruct (p_unsent s) as [|u0 us] eqn:EU; [contradiction|]. rewrite <- EU. reflexivity. }
    apply FL in H. destruct (order_topics part (drain_items (p_unsent s)) [] [] (p_cluster s)) as [[r1 rest] k1] eqn:EO.
    assert (NI : NoDup (dkeys (drain_items (p_unsent s)))) by (unfold drain_items; rewrite dkeys_rev; apply nodup_rev, I).
    destruct r1 as [[o retry]|e].
    2:{ injection H as -> ->. exists []. cbn [p_wire]. rewrite app_nil_r. split; [reflexivity|]. split; [intros ? []|]. left. split; [reflexivity|]. intros t.
        destruct (order_topics_rest _ _ _ _ _ _ _ _ EO) as [pre EP]. unfold drain_items in EP. apply (f_equal (@rev _)) in EP. rewrite rev_involutive, rev_app_distr in EP.
        unfold queue_of. cbn [p_unsent]. rewrite EP. clear. induction (rev rest) as [|[t0 q] l IH]; [now right|]. cbn [dget app]. destruct (eqb t0 t); [now left|exact IH]. }
    destruct (order_topics_perm _ _ _ _ _ _ _ _ _ EO) as [-> _]. cbn [rev] in H.
    destruct (build_requests acks timeout compress_fails o (p_corr s) [] (p_sent s)) as [[[rqs|e] corr] sent] eqn:EB.
    2:{ injection H as -> ->. exists []. cbn [p_wire]. rewrite app_nil_r. split; [reflexivity|]. split; [intros ? []|]. left. split; [reflexivity|]. intros t. now right. }
    cbv zeta in H. match type of H with context [write_all _ _ (p_cluster ?x)] => set (s3 := x) in * end.
    destruct (write_all serialize_fails rqs (p_cluster s3) (p_wire s3)) as [r3 wire] eqn:EW. injection H as -> ->. destruct (write_all_in_order _ _ _ _ _ _ EW) as (w & -> & W1 & W2).
    destruct (retries_spec retry (Prod [] sent (p_heal s) (p_closing s) k1 corr (p_next s) (p_open s) (p_wire s) (p_settled s) (p_lost s))) as (_ & _ & _ & B5 & B6 & B7 & B8 & B9 & B10 & _). fold s3 in B5, B6, B7, B8, B9, B10.
    assert (EW0 : p_wire s3 = p_wire s) by (first [exact B6|exact B7|exact B8|exact B9|exact B10]). exists w. cbn [p_wire]. rewrite EW0. split; [reflexivity|].
    (* the same flush with a serializer that never fails *)
    pose proof (order_topics_nd _ _ _ _ _ _ _ _ _ EO) as NO. assert (NO' : nd_ordered o) by (apply NO; split; [constructor|intros ? ? []]).
    destruct (build_requests_spec _ _ _ _ _ _ _ _ _ _ EB (proj2 NO') (i_bound s I)) as (_ & _ & _ & _ & dn & rst & _ & _ & _ & new & E0 & E1 & E2 & _). cbn [app] in E0. subst new.
    destruct (order_topics_look _ _ _ _ _ _ _ _ NI EO) as [T _].
    split; [intros rq Hr; split; [now apply W2|]; destruct (E2 rq (in_order_in _ _ _ W1 Hr)) as (_ & X1 & X2 & _); auto|]. right.
    assert (CN : forall rq, In rq rqs -> connected (p_cluster s3) (pq_leader rq) = true).
    { intros rq Hr. rewrite B5. cbn [p_cluster]. unfold connected. rewrite (proj1 T). apply (order_topics_conn _ _ _ _ _ _ _ _ _ EO); [intros ? []|]. rewrite <- E1. unfold dkeys. rewrite map_map. now apply in_map with (f := pq_leader). }
    destruct (write_all_leads serialize_fails rqs (p_cluster s3) CN (p_wire s3)) as (wire2 & EW2 & _).
    pose proof (FL (fun _ => None) _ eq_refl) as F2. cbn [rev] in F2. cbv zeta in F2. fold s3 in F2. rewrite EW2 in F2.
    destruct (flush_order _ _ _ _ _ _ _ _ F2 I) as (_ & A1 & _ & A2 & _). split.
    - intros t p. rewrite <- A1. unfold carried. now apply in_order_flat.
    - intros t. rewrite <- A2. reflexivity.
  Qed.

  Lemma handle_partitions_quiet c name ps : forall s r s', handle_partitions c name ps s = (r, s') -> existsb (fun pc => retriable_code (snd pc)) ps = false -> s' = s.
  Proof.
    induction ps as [|[p code] ps IH]; intros s r s' H R; cbn [handle_partitions] in H; [now injection H as _ <-|]. cbn [existsb snd] in R. apply orb_false_iff in R as [R1 R2].
    destruct (code =? no_error); [eapply IH; eassumption|]. rewrite is_retriable_code, R1 in H. destruct (error_name code); [eapply IH; eassumption|now injection H as _ <-].
  Qed.
  Lemma handle_topics_quiet c resp : forall s r s', handle_topics c resp s = (r, s') -> any_retriable resp = false -> s' = s.
  Proof.
    induction resp as [|[name ps] resp IH]; intros s r s' H R; cbn [handle_topics] in H; [now injection H as _ <-|]. unfold any_retriable in R. cbn [existsb snd] in R. apply orb_false_iff in R as [R1 R2].
    destruct (handle_partitions c name ps s) as [[u|e] s1] eqn:E; apply handle_partitions_quiet in E; [|exact R1| |exact R1]; subst s1; [eapply IH; eassumption|now injection H as _ <-].
  Qed.
  Lemma handle_quiet c resp s r s' : handle_produce_response c resp s = (r, s') -> any_retriable resp = false -> p_unsent s' = p_unsent s /\ p_wire s' = p_wire s /\ p_next s' = p_next s.
  Proof.
    unfold handle_produce_response. intros H R. destruct (handle_topics c resp s) as [[u|e] s1] eqn:E; apply handle_topics_quiet in E; try exact R; subst s1; [destruct (dget (p_sent s) c)|]; injection H as _ <-; auto.
  Qed.

  (** what is written or queued for a partition stays in order, with possibly something left out *)
  Definition shrinks (s s' : producer) : Prop := p_next s' = p_next s /\
    forall t p, in_order (carried (p_wire s') t p ++ queue_of s' t) (carried (p_wire s) t p ++ queue_of s t).
  Lemma shrinks_same s s' : p_next s' = p_next s -> p_wire s' = p_wire s -> p_unsent s' = p_unsent s -> shrinks s s'.
  Proof. intros N W U. split; [exact N|]. intros t p. unfold queue_of. rewrite W, U. apply in_order_refl. Qed.
  Lemma carried_app a b t p : carried (a ++ b) t p = carried a t p ++ carried b t p.
  Proof. apply flat_map_app. Qed.
  Lemma flush_shrinks part s r s' : flush part s = (r, s') -> pinv s -> (forall t m, In m (queue_of s t) -> leaderless part (p_cluster s) t m = false) -> shrinks s s'.
  Proof.
    intros H I L. destruct (flush_spec _ _ _ _ _ _ _ _ H I) as (_ & _ & N & _). split; [exact N|]. intros t p. destruct (flush_sends _ _ _ _ H I) as (w & E & _ & [[-> Q]|[C Q]]); rewrite E, carried_app, <- app_assoc; apply in_order_app; try apply in_order_refl.
    - cbn [carried flat_map app]. destruct (Q t) as [->| ->]; [apply in_order_refl|apply in_order_nil].
    - rewrite Q. replace (filter (leaderless part (p_cluster s) t) (queue_of s t)) with (@nil pmsg); [rewrite app_nil_r; apply (in_order_trans _ _ _ (C t p)), in_order_filter|].
      symmetry. specialize (L t). induction (queue_of s t) as [|m q IH]; [reflexivity|]. cbn [filter]. rewrite (L m (or_introl eq_refl)). apply IH. intros x X. apply L. now right.
  Qed.

  Definition flow (acc : list (text * pymsg)) (s : producer) : Prop := length acc = p_next s /\ forall t p,
    StronglySorted lt (map pm_id (carried (p_wire s) t p ++ queue_of s t)) /\
    (forall m, In m (carried (p_wire s) t p ++ queue_of s t) -> nth_error acc (pm_id m) = Some (t, pm_msg m)).
  Lemma flow_shrinks acc s s' : flow acc s -> shrinks s s' -> flow acc s'.
  Proof.
    intros [F1 F2] [N S]. split; [congruence|]. intros t p. destruct (F2 t p) as [O M]. split.
    - eapply in_order_sorted; [|exact O]. apply in_order_map, S.
    - intros m Hm. apply M. eapply in_order_in; [apply S|exact Hm].
  Qed.
  Lemma sorted_snoc l n : StronglySorted lt l -> (forall x, In x l -> (x < n)%nat) -> StronglySorted lt (l ++ [n]).
  Proof.
    induction 1 as [|x l S IH F]; intros B; cbn [app]; [repeat constructor|]. constructor; [apply IH; intros y Y; apply B; now right|].
    rewrite Forall_forall in *. intros y Y. apply in_app_iff in Y as [Y|[<-|[]]]; [now apply F|apply B; now left].
  Qed.
  Lemma flow_enqueue acc topic m s s' r : enqueue topic (Ok m) s = (r, s') -> pinv s -> flow acc s -> flow (acc ++ [(topic, m)]) s'.
  Proof.
    intros H I [F1 F2]. destruct (enqueue_spec _ _ _ _ _ H I) as (_ & _ & _ & _ & _ & _ & _ & W & _ & _ & _ & N & Q).
    assert (OLD : forall i x, nth_error acc i = Some x -> nth_error (acc ++ [(topic, m)]) i = Some x) by (intros i x X; rewrite nth_error_app1; [exact X|apply nth_error_Some; congruence]).
    split; [rewrite app_length, N, F1; cbn; lia|]. intros t p. rewrite W, Q. destruct (F2 t p) as [O M]. rewrite app_assoc. destruct (list_eqb t topic) eqn:ET.
    - apply list_eqb_spec in ET. subst t. rewrite map_app. cbn [map pm_id]. split.
      + apply sorted_snoc; [exact O|]. intros x X. apply in_map_iff in X as (y & <- & Y). apply M in Y. assert (pm_id y < length acc)%nat by (apply nth_error_Some; congruence). lia.
      + intros x X. apply in_app_iff in X as [X|[<-|[]]]; [now apply OLD, M|]. cbn [pm_id pm_msg]. rewrite nth_error_app2, F1, Nat.sub_diag; [reflexivity|lia].
    - rewrite app_nil_r. split; [exact O|]. intros x X. now apply OLD, M.
  Qed.
  Lemma flow_err acc topic e s s' r : enqueue topic (Err e) s = (r, s') -> pinv s -> flow acc s -> flow acc s'.
  Proof.
    intros H I [F1 F2]. destruct (enqueue_spec _ _ _ _ _ H I) as (_ & _ & _ & _ & _ & _ & _ & W & _ & _ & _ & N & Q).
    split; [congruence|]. intros t p. rewrite W, Q. apply F2.
  Qed.

  Notation accepts := (accepts batch_size acks timeout compress_fails serialize_fails).
  Notation accepted := (accepted batch_size acks timeout compress_fails serialize_fails).
  Notation each_event := (each_event batch_size acks timeout compress_fails serialize_fails).
  Notation produce_resume := (produce_resume batch_size acks timeout compress_fails serialize_fails).
  Notation produce := (produce batch_size acks timeout compress_fails serialize_fails).

  (** what produce() does to the count of accepted messages *)
  Lemma resume_next part t mk s : pinv s -> p_next (snd (produce_resume part t mk s)) =
    match mk with Ok _ => if dmem (k_topics (p_cluster s)) t then S (p_next s) else p_next s | Err _ => p_next s end.
  Proof.
    intros I. unfold Producer.produce_resume. destruct (dmem (k_topics (p_cluster s)) t); cbn [negb]; [|now destruct mk]. destruct (enqueue t mk s) as [r s1] eqn:E. destruct (enqueue_spec _ _ _ _ _ E I) as (I1 & _ & _ & _ & _ & _ & _ & _ & _ & _ & M).
    destruct mk as [m|e]; destruct M as (-> & N & _); [|exact N]. destruct (flush_due batch_size s1); [|exact N]. destruct (flush part s1) as [[rqs|e] s2] eqn:F; destruct (flush_spec _ _ _ _ _ _ _ _ F I1) as (_ & _ & N2 & _); cbn [snd]; congruence.
  Qed.
  Lemma resume_flow acc part t mk s : pinv s -> flow acc s -> steady s (EvResume part t mk) ->
    flow (acc ++ match mk with Ok m => if dmem (k_topics (p_cluster s)) t then [(t, m)] else [] | Err _ => [] end) (snd (produce_resume part t mk s)).
  Proof.
    intros I F [L1 L2]. unfold Producer.produce_resume. destruct (dmem (k_topics (p_cluster s)) t); cbn [negb]; [|destruct mk; now rewrite app_nil_r]. destruct (enqueue t mk s) as [r s1] eqn:E. destruct (enqueue_spec _ _ _ _ _ E I) as (I1 & _ & _ & _ & K & _ & _ & _ & _ & _ & M).
    destruct mk as [m|e]; destruct M as (-> & N & Q); [|rewrite app_nil_r; eapply flow_err; eassumption]. pose proof (flow_enqueue _ _ _ _ _ _ E I F) as F1. destruct (flush_due batch_size s1); [|exact F1].
    assert (SH : forall r2 s2, flush part s1 = (r2, s2) -> shrinks s1 s2).
    { intros r2 s2 X. eapply flush_shrinks; [exact X|exact I1|]. intros t' x Hx. rewrite K. rewrite Q in Hx. apply in_app_iff in Hx as [Hx|Hx]; [now apply L1|]. destruct (list_eqb t' t) eqn:ET; [|destruct Hx]. apply list_eqb_spec in ET. subst t'. destruct Hx as [<-|[]]. now apply L2. }
    destruct (flush part s1) as [[rqs|e] s2] eqn:FE; cbn [snd]; eapply flow_shrinks; try exact F1; eapply SH; reflexivity.
  Qed.
  Lemma step_flow acc s ev : pinv s -> flow acc s -> steady s ev -> flow (acc ++ accepts s ev) (pstep s ev).
  Proof.
    intros I F S. destruct ev as [part t mk|part t mk|part|part|corr resp|corr e| |k|]; cbn [SpecFlow.accepts]; try rewrite app_nil_r.
    - cbn [Producer.pstep]. unfold Producer.produce. destruct (p_closing s). { cbn [snd]. destruct mk; [rewrite Nat.eqb_refl|]; now rewrite app_nil_r. }
      destruct (dmem (k_topics (p_cluster s)) t) eqn:D; cbn [negb]; [|cbn [snd]; destruct mk; [rewrite Nat.eqb_refl|]; now rewrite app_nil_r].
      pose proof (resume_flow acc part t mk s I F S) as R. rewrite resume_next by exact I. rewrite D in R |- *. destruct mk; [|exact R]. replace (Nat.eqb (Datatypes.S (p_next s)) (p_next s)) with false by (symmetry; apply Nat.eqb_neq; lia). exact R.
    - cbn [Producer.pstep]. pose proof (resume_flow acc part t mk s I F S) as R. rewrite resume_next by exact I. destruct mk; [|exact R]. destruct (dmem (k_topics (p_cluster s)) t); [|rewrite Nat.eqb_refl; exact R]. replace (Nat.eqb (Datatypes.S (p_next s)) (p_next s)) with false by (symmetry; apply Nat.eqb_neq; lia). exact R.
    - cbn [Producer.pstep]. destruct (flush part s) as [r s'] eqn:E. eapply flow_shrinks; [exact F|]. eapply flush_shrinks; [exact E|exact I|exact S].
    - cbn [Producer.pstep]. unfold close_begin. match goal with |- flow _ (snd (Producer.flush _ _ _ _ _ ?x)) => set (s0 := x) end. destruct (flush part s0) as [r s'] eqn:E.
      assert (I0 : pinv s0) by (destruct I; constructor; assumption). eapply flow_shrinks; [apply (flow_shrinks _ s s0 F), shrinks_same; reflexivity|]. eapply flush_shrinks; [exact E|exact I0|exact S].
    - cbn [Producer.pstep]. destruct (smem (p_open s) corr); [|exact F]. destruct (handle_produce_response corr resp (answered corr s)) as [r s'] eqn:E. destruct (handle_quiet _ _ _ _ _ E S) as (U & W & N). eapply flow_shrinks; [exact F|]. apply shrinks_same; cbn [snd]; [rewrite N|rewrite W|rewrite U]; reflexivity.
    - cbn [Producer.pstep]. destruct (smem (p_open s) corr); [|exact F]. eapply flow_shrinks; [exact F|]. apply shrinks_same; reflexivity.
    - eapply flow_shrinks; [exact F|]. apply shrinks_same; reflexivity.
    - eapply flow_shrinks; [exact F|]. apply shrinks_same; reflexivity.
    - eapply flow_shrinks; [exact F|]. apply shrinks_same; reflexivity.
  Qed.
  Lemma run_flow evs : forall acc s, pinv s -> flow acc s -> each_event steady evs s -> flow (acc ++ accepted evs s) (prun evs s).
  Proof.
    induction evs as [|ev evs IH]; intros acc s I F S; [now rewrite app_nil_r|]. destruct S as [S1 S2]. cbn [SpecFlow.accepted]. rewrite app_assoc. apply (IH (acc ++ accepts s ev) (pstep s ev)); [now apply pstep_inv|now apply step_flow|exact S2].
  Qed.
  Lemma flow_init k corr : flow [] (producer_init k corr).
  Proof. split; [reflexivity|]. intros t p. split; [constructor|intros ? []]. Qed.

  (** messages picked by increasing index are in order *)
  Lemma picked_in_order t : forall acc l n, StronglySorted lt (map pm_id l) ->
    (forall m, In m l -> (n <= pm_id m)%nat /\ nth_error acc (pm_id m - n) = Some (t, pm_msg m)) -> in_order (map pm_msg l) (for_topic t acc).
  Proof.
    induction acc as [|[t0 m0] acc IH]; intros l n S P.
    - destruct l as [|m l]; [constructor|]. destruct (P m (or_introl eq_refl)) as [_ X]. destruct (pm_id m - n)%nat; discriminate.
    - destruct l as [|m l]; [apply in_order_nil|]. destruct (P m (or_introl eq_refl)) as [X1 X2]. inversion S as [|? ? S1 S2]; subst. rewrite Forall_forall in S2.
      destruct (Nat.eq_dec (pm_id m) n) as [E|E].
      + rewrite E, Nat.sub_diag in X2. cbn [nth_error] in X2. injection X2 as -> ->. unfold for_topic. cbn [filter fst]. rewrite eqb_refl. cbn [map snd]. apply io_take. apply (IH l (Datatypes.S n) S1).
        intros x Hx. assert (pm_id m < pm_id x)%nat by (apply S2, in_map, Hx). destruct (P x (or_intror Hx)) as [_ Y]. split; [lia|]. replace (pm_id x - n)%nat with (Datatypes.S (pm_id x - Datatypes.S n)) in Y by lia. exact Y.
      + assert (R : in_order (map pm_msg (m :: l)) (for_topic t acc)).
        { apply (IH (m :: l) (Datatypes.S n) S). intros x Hx. destruct (P x Hx) as [Y1 Y]. assert (n < pm_id x)%nat by (destruct Hx as [<-|Hx]; [lia|]; specialize (S2 (pm_id x) (in_map pm_id _ _ Hx)); lia).
          split; [lia|]. replace (pm_id x - n)%nat with (Datatypes.S (pm_id x - Datatypes.S n)) in Y by lia. exact Y. }
        unfold for_topic in *. cbn [filter fst]. destruct (eqb t0 t); [apply io_skip|]; exact R.
  Qed.
  Lemma written_in_order evs k corr t p : each_event steady evs (producer_init k corr) ->
    in_order (map pm_msg (carried (p_wire (prun evs (producer_init k corr))) t p)) (for_topic t (accepted evs (producer_init k corr))).
  Proof.
    intros S. destruct (run_flow evs [] _ (pinv_init k corr) (flow_init k corr) S) as [_ F]. cbn [app] in F. destruct (F t p) as [O M]. apply picked_in_order with 0%nat.
    - rewrite map_app in O. revert O. generalize (map pm_id (queue_of (prun evs (producer_init k corr)) t)). induction (map pm_id (carried (p_wire (prun evs (producer_init k corr))) t p)) as [|x l IH]; intros q O; [constructor|]. cbn [app] in O. inversion O as [|? ? O1 O2]; subst. constructor; [eapply IH; exact O1|]. rewrite Forall_app in O2. apply O2.
    - intros m Hm. split; [lia|]. rewrite Nat.sub_0_r. apply M, in_app_iff. now left.
  Qed.

  (** ** what is queued, awaited or written for a topic was accepted for it *)
  Section Holds.
    Variable P : text -> pmsg -> Prop.
    Definition sent_holds (sent : dict Z batch) : Prop := forall c t p ms m, In (p, ms) (slook sent c t) -> In m ms -> P t m.
    Lemma build_partitions_holds c t parts : forall acc sent r sent', build_partitions compress_fails c t parts acc sent = (r, sent') -> sent_holds sent ->
      (forall p ms m, In (p, ms) parts -> In m ms -> P t m) -> sent_holds sent'.
    Proof.
      induction parts as [|[p ms] parts IH]; intros acc sent r sent' H S N; cbn [build_partitions] in H; [now injection H as _ <-|].
      destruct (compress_fails ms); [now injection H as _ <-|]. apply IH in H; [exact H| |intros p0 ms0 m0 X; apply (N p0 ms0 m0); now right].
      intros c' t' p' ms' m D Hm. rewrite record_sent_look in D. destruct ((c' =? c) && list_eqb t' t) eqn:E; [|eapply S; eassumption]. apply andb_true_iff in E as [E1 E2]. apply Z.eqb_eq in E1. apply list_eqb_spec in E2. subst.
      apply in_dset in D as [->|D]; [now apply (N p ms m (or_introl eq_refl))|eapply S; eassumption].
    Qed.
    Lemma build_topics_holds c topics : forall acc sent r sent', build_topics compress_fails c topics acc sent = (r, sent') -> sent_holds sent ->
      (forall t d p ms m, In (t, d) topics -> In (p, ms) d -> In m ms -> P t m) -> sent_holds sent'.
    Proof.
      induction topics as [|[t d] topics IH]; intros acc sent r sent' H S N; cbn [build_topics] in H; [now injection H as _ <-|].
      destruct (build_partitions compress_fails c t d [] sent) as [[ps|e] s1] eqn:E; (apply build_partitions_holds in E; [|exact S|intros ? ? ? X; eapply (N t); [now left|exact X]]); [|now injection H as _ <-].
      apply IH in H; [exact H|exact E|]. intros ? ? ? ? ? X. eapply N. right. exact X.
    Qed.
    Lemma build_requests_holds o : forall corr acc sent r corr' sent', build_requests acks timeout compress_fails o corr acc sent = (r, corr', sent') -> sent_holds sent ->
      (forall l b t d p ms m, In (l, b) o -> In (t, d) b -> In (p, ms) d -> In m ms -> P t m) -> sent_holds sent'.
    Proof.
      induction o as [|[l b] o IH]; intros corr acc sent r corr' sent' H S N; cbn [build_requests] in H; [now injection H as _ _ <-|].
      destruct (build_topics compress_fails (corr + 1) b [] sent) as [[ts|e] s1] eqn:E; (apply build_topics_holds in E; [|exact S|intros ? ? ? ? ? X; eapply (N l); [now left|exact X]]); [|now injection H as _ _ <-].
      apply IH in H; [exact H|exact E|]. intros ? ? ? ? ? ? ? X. eapply N. right. exact X.
    Qed.

    Definition holds (s : producer) : Prop := (forall t m, In m (queue_of s t) -> P t m) /\ sent_holds (p_sent s) /\ (forall t p m, In m (carried (p_wire s) t p) -> P t m).
    Lemma flush_holds part s r s' : flush part s = (r, s') -> pinv s -> holds s -> holds s'.
    Proof.
      intros H I (HQ & HS & HW). destruct (flush_sends _ _ _ _ H I) as (w & E & _ & Q). split; [|split].
      - intros t m Hm. apply HQ. destruct Q as [[_ Q]|[_ Q]]; [destruct (Q t) as [X|X]; rewrite X in Hm; [exact Hm|destruct Hm]|]. rewrite Q in Hm. now apply filter_In in Hm.
      - unfold Producer.flush in H. destruct (p_unsent s) as [|u0 us] eqn:EU; [now injection H as _ <-|]. rewrite <- EU in H. clear EU.
        destruct (order_topics part (drain_items (p_unsent s)) [] [] (p_cluster s)) as [[[[o retry]|e] rest] k1] eqn:EO; [|now injection H as _ <-]. cbn [with_cluster with_unsent p_unsent p_sent p_corr p_heal p_closing p_cluster p_next p_open p_wire p_settled p_lost] in H.
        destruct (build_requests acks timeout compress_fails o (p_corr s) [] (p_sent s)) as [[r2 corr] sent] eqn:EB.
        assert (S2 : sent_holds sent).
        { eapply build_requests_holds; [exact EB|exact HS|]. intros l b t d p ms m Hb Hd Hp Hm. assert (NI : NoDup (dkeys (drain_items (p_unsent s)))) by (unfold drain_items; rewrite dkeys_rev; apply nodup_rev, I).
          pose proof (order_topics_nd _ _ _ _ _ _ _ _ _ EO) as NO. assert (NO' : nd_ordered o) by (apply NO; split; [constructor|intros ? ? []]). destruct (order_topics_look _ _ _ _ _ _ _ _ NI EO) as (_ & _ & L & _).
          specialize (L l t p). assert (X : olook o l t p = ms). { destruct NO' as [N1 N2]. specialize (N2 _ _ Hb) as [N3 N4]. specialize (N4 _ _ Hd). unfold olook, slook, getd. rewrite (In_dget_nodup _ _ _ N1 Hb), (In_dget_nodup _ _ _ N3 Hd), (In_dget_nodup _ _ _ N4 Hp). reflexivity. }
          rewrite X in L. cbn in L. subst ms. destruct (leads (p_cluster s) t p l); [|destruct Hm]. apply filter_In in Hm as [Hm _]. unfold drain_items in Hm. rewrite rlook_rev in Hm by apply I. now apply HQ. }
        destruct r2 as [rqs|e]; [|now injection H as _ <-].
        match type of H with context [write_all _ _ (p_cluster ?x)] => set (s3 := x) in * end. destruct (write_all serialize_fails rqs (p_cluster s3) (p_wire s3)) as [r3 wire]. injection H as _ <-. cbn [p_sent].
        destruct (retries_spec retry (Prod (rev rest) sent (p_heal s) (p_closing s) k1 corr (p_next s) (p_open s) (p_wire s) (p_settled s) (p_lost s))) as (_ & B2 & B3 & _). assert (X : p_sent s3 = sent) by (first [exact B2|exact B3]). rewrite X. exact S2.
      - intros t p m Hm. rewrite E, carried_app in Hm. apply in_app_iff in Hm as [Hm|Hm]; [eapply HW; exact Hm|]. destruct Q as [[-> _]|[Q _]]; [destruct Hm|]. apply (in_order_in _ _ _ (Q t p)) in Hm. apply filter_In in Hm as [Hm _]. now apply HQ.
    Qed.
    Lemma handle_partitions_holds c name ps : forall s r s', handle_partitions c name ps s = (r, s') -> holds s -> holds s'.
    Proof.
      induction ps as [|[p code] ps IH]; intros s r s' H S; cbn [handle_partitions] in H; [now injection H as _ <-|]. destruct (code =? no_error); [eapply IH; eassumption|].
      destruct (is_retriable code); [|destruct (error_name code); [eapply IH; eassumption|now injection H as _ <-]]. destruct S as (HQ & HS & HW). destruct (pop_sent (p_sent s) c name p) as [r1 sent] eqn:EP. destruct (pop_sent_spec _ _ _ _ _ _ EP) as (_ & OT & _ & R & L).
      assert (S2 : sent_holds sent).
      { intros c' t p' ms m D Hm. destruct (Z.eq_dec c' c) as [->|N]; [|unfold slook, getd in D; rewrite (OT _ N) in D; eapply HS; eassumption]. rewrite L in D. destruct (list_eqb t name) eqn:ET; [|eapply HS; eassumption]. apply list_eqb_spec in ET. subst t.
        apply in_ddel_in in D. eapply HS; eassumption. }
      destruct r1 as [ms|e]; [|injection H as _ <-; split; [exact HQ|]; split; [exact S2|exact HW]].
      eapply IH; [exact H|]. destruct (queue_retries_spec name ms (with_sent sent s)) as (_ & A2 & _ & _ & _ & _ & _ & _ & A9 & _ & _ & _ & A13). cbv zeta in A2, A9, A13. split; [|split; [rewrite A2; exact S2|]].
      + intros t m Hm. rewrite A13 in Hm. destruct (list_eqb t name) eqn:ET; [|now apply HQ]. apply list_eqb_spec in ET. subst t. apply in_app_iff in Hm as [Hm|Hm]; [now apply HQ|]. eapply HS; [apply dget_In, (proj1 R)|exact Hm].
      + rewrite A9. exact HW.
    Qed.
    Lemma handle_topics_holds c resp : forall s r s', handle_topics c resp s = (r, s') -> holds s -> holds s'.
    Proof.
      induction resp as [|[name ps] resp IH]; intros s r s' H S; cbn [handle_topics] in H; [now injection H as _ <-|].
      destruct (handle_partitions c name ps s) as [[u|e] s1] eqn:E; apply handle_partitions_holds in E; try exact S; [eapply IH; eassumption|now injection H as _ <-].
    Qed.
    Lemma ddel_batch (sent : dict Z batch) c : nd_ordered sent -> sent_holds sent -> sent_holds (ddel sent c).
    Proof.
      intros [N _] S c' t p ms m H Hm. destruct (Z.eq_dec c' c) as [->|E]; unfold slook, getd in H; [rewrite (dget_ddel_same _ _ N) in H; destruct H|]. rewrite (dget_ddel_other _ _ _ E) in H. eapply S; eassumption.
    Qed.
    Lemma handle_holds c resp s r s' : handle_produce_response c resp s = (r, s') -> nd_ordered (p_sent s) -> holds s -> holds s'.
    Proof.
      unfold handle_produce_response. intros H N S. destruct (handle_topics c resp s) as [[u|e] s1] eqn:E; pose proof (handle_topics_holds _ _ _ _ _ E S) as S1; [|now injection H as _ <-].
      apply handle_topics_moves in E. destruct E as (_ & _ & NN & _). destruct (dget (p_sent s1) c); injection H as _ <-; [|exact S1]. destruct S1 as (A & B & C). split; [exact A|]. split; [|exact C]. now apply ddel_batch; [apply NN|].
    Qed.
  End Holds.

  Definition was_accepted (acc : list (text * pymsg)) (t : text) (m : pmsg) : Prop := nth_error acc (pm_id m) = Some (t, pm_msg m).
  Definition known (acc : list (text * pymsg)) (s : producer) : Prop := length acc = p_next s /\ holds (was_accepted acc) s.
  Lemma was_more acc l t m : was_accepted acc t m -> was_accepted (acc ++ l) t m.
  Proof. unfold was_accepted. intros X. rewrite nth_error_app1; [exact X|apply nth_error_Some; congruence]. Qed.
  Lemma known_enqueue acc topic mk s s' r : enqueue topic mk s = (r, s') -> pinv s -> known acc s -> known (acc ++ match mk with Ok m => [(topic, m)] | Err _ => [] end) s'.
  Proof.
    intros H I (F1 & HQ & HS & HW). destruct (enqueue_spec _ _ _ _ _ H I) as (_ & S1 & _ & _ & _ & _ & _ & W & _ & _ & M). split.
    - rewrite app_length, F1. destruct mk; destruct M as (_ & -> & _); cbn; lia.
    - split; [|split].
      + intros t m Hm. destruct mk as [m0|e]; destruct M as (_ & _ & Q); rewrite Q in Hm; [|now apply was_more, HQ]. apply in_app_iff in Hm as [Hm|Hm]; [now apply was_more, HQ|]. destruct (list_eqb t topic) eqn:ET; [|destruct Hm]. apply list_eqb_spec in ET. subst t. destruct Hm as [<-|[]].
        unfold was_accepted. cbn [pm_id pm_msg]. rewrite nth_error_app2, F1, Nat.sub_diag; [reflexivity|lia].
      + rewrite S1. intros c t p ms m A B. apply was_more. eapply HS; eassumption.
      + rewrite W. intros t p m A. apply was_more. eapply HW; exact A.
  Qed.
  Lemma resume_known acc part t mk s : pinv s -> known acc s ->
    known (acc ++ match mk with Ok m => if dmem (k_topics (p_cluster s)) t then [(t, m)] else [] | Err _ => [] end) (snd (produce_resume part t mk s)).
  Proof.
    intros I F. unfold Producer.produce_resume. destruct (dmem (k_topics (p_cluster s)) t); cbn [negb]; [|destruct mk; now rewrite app_nil_r]. destruct (enqueue t mk s) as [r s1] eqn:E. destruct (enqueue_spec _ _ _ _ _ E I) as (I1 & _ & _ & _ & _ & _ & _ & _ & _ & _ & M).
    pose proof (known_enqueue _ _ _ _ _ _ E I F) as F1. destruct mk as [m|e]; destruct M as (-> & N & Q); [|exact F1]. destruct (flush_due batch_size s1); [|exact F1].
    destruct (flush part s1) as [r2 s2] eqn:FE. assert (X : known (acc ++ [(t, m)]) s2). { destruct (flush_spec _ _ _ _ _ _ _ _ FE I1) as (_ & _ & N2 & _). split; [rewrite N2; apply F1|]. eapply flush_holds; [exact FE|exact I1|apply F1]. } destruct r2; exact X.
  Qed.
  Lemma known_same acc s s' : p_next s' = p_next s -> p_wire s' = p_wire s -> p_unsent s' = p_unsent s -> p_sent s' = p_sent s -> known acc s -> known acc s'.
  Proof. intros A B C D (N & HQ & HS & HW). split; [congruence|]. unfold holds, queue_of. rewrite B, C, D. split; [exact HQ|]. split; [exact HS|exact HW]. Qed.
  Lemma step_known acc s ev : pinv s -> known acc s -> known (acc ++ accepts s ev) (pstep s ev).
  Proof.
    intros I F. destruct ev as [part t mk|part t mk|part|part|corr resp|corr e| |k|]; cbn [SpecFlow.accepts]; try rewrite app_nil_r.
    - cbn [Producer.pstep]. unfold Producer.produce. destruct (p_closing s). { cbn [snd]. destruct mk; [rewrite Nat.eqb_refl|]; now rewrite app_nil_r. }
      destruct (dmem (k_topics (p_cluster s)) t) eqn:D; cbn [negb]; [|cbn [snd]; destruct mk; [rewrite Nat.eqb_refl|]; now rewrite app_nil_r].
      pose proof (resume_known acc part t mk s I F) as R. rewrite resume_next by exact I. rewrite D in R |- *. destruct mk; [|exact R]. replace (Nat.eqb (Datatypes.S (p_next s)) (p_next s)) with false by (symmetry; apply Nat.eqb_neq; lia). exact R.
    - cbn [Producer.pstep]. pose proof (resume_known acc part t mk s I F) as R. rewrite resume_next by exact I. destruct mk; [|exact R]. destruct (dmem (k_topics (p_cluster s)) t); [|rewrite Nat.eqb_refl; exact R]. replace (Nat.eqb (Datatypes.S (p_next s)) (p_next s)) with false by (symmetry; apply Nat.eqb_neq; lia). exact R.
    - cbn [Producer.pstep]. destruct (flush part s) as [r s'] eqn:E. destruct (flush_spec _ _ _ _ _ _ _ _ E I) as (_ & _ & N2 & _). split; [cbn [snd]; rewrite N2; apply F|]. eapply flush_holds; [exact E|exact I|apply F].
    - cbn [Producer.pstep]. unfold close_begin. match goal with |- known _ (snd (Producer.flush _ _ _ _ _ ?x)) => set (s0 := x) end. destruct (flush part s0) as [r s'] eqn:E.
      assert (I0 : pinv s0) by (destruct I; constructor; assumption). destruct (flush_spec _ _ _ _ _ _ _ _ E I0) as (_ & _ & N2 & _). split; [cbn [snd]; rewrite N2; apply F|]. eapply flush_holds; [exact E|exact I0|apply F].
    - cbn [Producer.pstep]. destruct (smem (p_open s) corr); [|exact F]. destruct (handle_produce_response corr resp (answered corr s)) as [r s'] eqn:E. destruct (handle_spec _ _ _ _ _ E) as (_ & _ & _ & N & _). split; [cbn [snd]; rewrite N; apply F|]. eapply handle_holds; [exact E|apply (i_sent _ I)|apply F].
    - cbn [Producer.pstep]. destruct (smem (p_open s) corr); [|exact F]. apply known_same with s; [reflexivity..|exact F].
    - apply known_same with s; [reflexivity..|exact F].
    - apply known_same with s; [reflexivity..|exact F].
    - apply known_same with s; [reflexivity..|exact F].
  Qed.
  Lemma run_known evs : forall acc s, pinv s -> known acc s -> known (acc ++ accepted evs s) (prun evs s).
  Proof.
    induction evs as [|ev evs IH]; intros acc s I F; [now rewrite app_nil_r|]. cbn [SpecFlow.accepted]. rewrite app_assoc. apply (IH (acc ++ accepts s ev) (pstep s ev)); [now apply pstep_inv|now apply step_known].
  Qed.
  Lemma known_init k corr : known [] (producer_init k corr).
  Proof. split; [reflexivity|]. split; [intros ? ? []|]. split; [intros ? ? ? ? ? []|intros ? ? ? []]. Qed.
  Lemma written_accepted evs k corr t p m : In m (carried (p_wire (prun evs (producer_init k corr))) t p) ->
    nth_error (accepted evs (producer_init k corr)) (pm_id m) = Some (t, pm_msg m).
  Proof. intros H. destruct (run_known evs [] _ (pinv_init k corr) (known_init k corr)) as (_ & _ & _ & W). eapply W. exact H. Qed.

  (** everything written serialized, with the acks and timeout the producer was made with *)
  Definition wire_ok (s : producer) : Prop := forall rq, In rq (p_wire s) -> serialize_fails rq = None /\ pq_acks rq = acks /\ pq_timeout rq = timeout.
  Lemma flush_wire_ok part s r s' : flush part s = (r, s') -> pinv s -> wire_ok s -> wire_ok s'.
  Proof. intros H I W rq Hr. destruct (flush_sends _ _ _ _ H I) as (w & E & F & _). rewrite E in Hr. apply in_app_iff in Hr as [Hr|Hr]; auto. Qed.
  Lemma resume_wire_ok part t mk s : pinv s -> wire_ok s -> wire_ok (snd (produce_resume part t mk s)).
  Proof.
    intros I F. unfold Producer.produce_resume. destruct (dmem (k_topics (p_cluster s)) t); cbn [negb]; [|exact F]. destruct (enqueue t mk s) as [r s1] eqn:E. destruct (enqueue_spec _ _ _ _ _ E I) as (I1 & _ & _ & _ & _ & _ & _ & W & _).
    assert (F1 : wire_ok s1) by (unfold wire_ok; rewrite W; exact F). destruct r; [|exact F1]. destruct (flush_due batch_size s1); [|exact F1]. destruct (flush part s1) as [r2 s2] eqn:FE. pose proof (flush_wire_ok _ _ _ _ FE I1 F1). destruct r2; assumption.
  Qed.
  Lemma step_wire_ok s ev : pinv s -> wire_ok s -> wire_ok (pstep s ev).
  Proof.
    intros I F. destruct ev as [part t mk|part t mk|part|part|corr resp|corr e| |k|]; cbn [Producer.pstep]; try exact F.
    - unfold Producer.produce. destruct (p_closing s); [exact F|]. destruct (negb _); [exact F|]. now apply resume_wire_ok.
    - now apply resume_wire_ok.
    - destruct (flush part s) as [r s'] eqn:E. eapply flush_wire_ok; eassumption.
    - unfold close_begin. match goal with |- wire_ok (snd (Producer.flush _ _ _ _ _ ?x)) => set (s0 := x) end. destruct (flush part s0) as [r s'] eqn:E.
      assert (I0 : pinv s0) by (destruct I; constructor; assumption). eapply flush_wire_ok; [exact E|exact I0|exact F].
    - destruct (smem (p_open s) corr); [|exact F]. destruct (handle_produce_response corr resp (answered corr s)) as [r s'] eqn:E. destruct (handle_spec _ _ _ _ _ E) as (_ & _ & _ & _ & _ & W & _). unfold wire_ok. cbn [snd]. rewrite W. exact F.
    - destruct (smem (p_open s) corr); exact F.
  Qed.
  Lemma run_wire_ok evs : forall s, pinv s -> wire_ok s -> wire_ok (prun evs s).
  Proof. induction evs as [|ev evs IH]; intros s I F; [exact F|]. apply (IH (pstep s ev)); [now apply pstep_inv|now apply step_wire_ok]. Qed.
End Run.
