(** Proofs for C103. *)
From Coq Require Import ZArith String List Bool Lia Permutation Sorting.Sorted.
From Verif Require Import PyBase BaseLemmas Constants Cluster ClusterProofs Producer SpecProducer ProducerProofs ProducerOrder ProducerAnswers SpecFlow ProducerRun SpecTurns.
Import ListNotations.
Open Scope Z_scope.
Set Default Proof Using "Type".

Notation sorted l := (StronglySorted lt (map pm_id l)).
Lemma sorted_app (a b : list pmsg) x y : sorted (a ++ b) -> In x a -> In y b -> (pm_id x < pm_id y)%nat.
Proof.
  induction a as [|z a IH]; cbn; intros S X Y; [destruct X|]. inversion S as [|? ? S1 S2]; subst. destruct X as [<-|X]; [|now apply IH]. rewrite Forall_forall in S2. apply S2, in_map, in_or_app. now right.
Qed.
Lemma sorted_left (a b : list pmsg) : sorted (a ++ b) -> sorted a.
Proof.
  induction a as [|x a IH]; intros S; [constructor|]. cbn in S. inversion S as [|? ? S1 S2]; subst. constructor; [now apply IH|]. rewrite Forall_forall in *. intros y Y. apply S2. rewrite map_app. apply in_or_app. now left.
Qed.
Lemma sorted_right (a b : list pmsg) : sorted (a ++ b) -> sorted b.
Proof. induction a as [|x a IH]; intros S; [exact S|]. cbn in S. inversion S as [|? ? S1 S2]; subst. now apply IH. Qed.
Lemma sorted_order (a b : list pmsg) : in_order a b -> sorted b -> sorted a.
Proof. intros O S. eapply in_order_sorted; [|exact S]. now apply in_order_map. Qed.
Lemma queued_in s t m : In m (queue_of s t) -> In m (queued s).
Proof. unfold queue_of, queued, queue_msgs. destruct (dget (p_unsent s) t) as [q|] eqn:E; [|intros []]. intros H. apply in_flat_map. exists (t, q). split; [now apply dget_In|exact H]. Qed.
Lemma queued_next s t m : pinv s -> In m (queue_of s t) -> (pm_id m < p_next s)%nat.
Proof.
  intros I H. apply queued_in in H. pose proof (i_acc s I) as A. unfold accounted in A. assert (X : In (pm_id m) (seq 0 (p_next s))).
  { eapply Permutation_in; [exact A|]. apply in_map, in_or_app. now left. }
  apply in_seq in X. lia.
Qed.
Lemma filter_order {A} (f g : A -> bool) l : (forall x, In x l -> f x = true -> g x = true) -> in_order (filter f l) (filter g l).
Proof.
  induction l as [|x l IH]; intros H; [constructor|]. assert (IH' := IH (fun y Y => H y (or_intror Y))). cbn [filter]. destruct (f x) eqn:F; [rewrite (H x (or_introl eq_refl) F); now constructor|]. destruct (g x); [now constructor|exact IH'].
Qed.
Lemma keep_all {A} (f : A -> bool) l : (forall x, In x l -> f x = true) -> filter f l = l.
Proof. induction l as [|x l IH]; intros H; [reflexivity|]. cbn. rewrite (H x (or_introl eq_refl)), IH; [reflexivity|]. intros y Y. apply H. now right. Qed.
Lemma keep_none {A} (f : A -> bool) l : (forall x, In x l -> f x = false) -> filter f l = [].
Proof. induction l as [|x l IH]; intros H; [reflexivity|]. cbn. rewrite (H x (or_introl eq_refl)). apply IH. intros y Y. apply H. now right. Qed.
Lemma carried_mid a rq b t p : carried (a ++ rq :: b) t p = carried a t p ++ carried [rq] t p ++ carried b t p.
Proof. rewrite carried_app. f_equal. change (rq :: b) with ([rq] ++ b). apply carried_app. Qed.

Section Turns.
  Variable batch_size : option Z.
  Variables acks timeout : Z.
  Variable compress_fails : list pmsg -> option exn.
  Variable serialize_fails : prequest -> option exn.
  Notation flush := (flush acks timeout compress_fails serialize_fails).
  Notation pstep := (pstep batch_size acks timeout compress_fails serialize_fails).
  Notation prun := (prun batch_size acks timeout compress_fails serialize_fails).
  Variable home : text -> pmsg -> Z.
  Variables (t : text) (p : Z).
  Definition here (m : pmsg) : bool := home t m =? p.
  Definition line (s : producer) : list pmsg := filter here (queue_of s t).

  (** [R c]: the broker refused request [c] for the partition *)
  Record turns (R : Z -> Prop) (s : producer) : Prop := {
    t_line : sorted (line s);
    t_queue : forall rq m1 m2, In rq (p_wire s) -> In m1 (carried [rq] t p) -> In m2 (line s) -> (pm_id m1 < pm_id m2)%nat \/ R (pq_corr rq);
    t_sent : forall c rq m1 m2, In c (p_open s) -> In rq (p_wire s) -> pq_corr rq <> c -> In m1 (carried [rq] t p) -> In m2 (sent_for s c t p) -> (pm_id m1 < pm_id m2)%nat \/ R (pq_corr rq);
    t_wire : forall a r1 b r2 d m1 m2, p_wire s = a ++ r1 :: b ++ r2 :: d -> In m1 (carried [r1] t p) -> In m2 (carried [r2] t p) -> (pm_id m1 < pm_id m2)%nat \/ R (pq_corr r1);
    t_one : forall c, In c (p_open s) -> sent_for s c t p <> [] -> line s = [] /\ sorted (sent_for s c t p) /\ forall c', In c' (p_open s) -> c' <> c -> sent_for s c' t p = [];
    t_each : forall rq, In rq (p_wire s) -> sorted (carried [rq] t p);
    t_home : forall c q m, In c (p_open s) -> In m (sent_for s c t q) -> home t m = q;
    t_next : forall rq m, In rq (p_wire s) -> In m (carried [rq] t p) -> (pm_id m < p_next s)%nat;
    t_place : forall rq m, In rq (p_wire s) -> In m (carried [rq] t p) -> home t m = p }.

  Lemma turns_more (R R' : Z -> Prop) s : (forall c, R c -> R' c) -> turns R s -> turns R' s.
  Proof.
    intros H [A B C D E F G K PL]. constructor; try assumption.
    - intros rq m1 m2 X Y Z0. destruct (B rq m1 m2 X Y Z0); auto.
    - intros c rq m1 m2 V X N Y Z0. destruct (C c rq m1 m2 V X N Y Z0); auto.
    - intros a r1 b r2 d m1 m2 V X Y. destruct (D a r1 b r2 d m1 m2 V X Y); auto.
  Qed.
  (** nothing but the table of awaited requests, which gets smaller *)
  Lemma turns_fewer R s s' : p_unsent s' = p_unsent s -> p_sent s' = p_sent s -> p_wire s' = p_wire s -> p_next s' = p_next s -> incl (p_open s') (p_open s) -> turns R s -> turns R s'.
  Proof.
    intros U S W N O [A B C D E F G K PL]. assert (L : line s' = line s) by (unfold line, queue_of; now rewrite U). assert (SF : forall c q, sent_for s' c t q = sent_for s c t q) by (intros; unfold sent_for; now rewrite S).
    constructor; rewrite ?L, ?W, ?N; try assumption.
    - intros c rq m1 m2 V X Ne Y Z0. rewrite SF in Z0. eapply C; eauto.
    - intros c V. rewrite SF. intros Ne. destruct (E c (O c V) Ne) as (E1 & E2 & E3). split; [exact E1|]. split; [exact E2|]. intros c' V' Nc. rewrite SF. apply E3; auto.
    - intros c q m V. rewrite SF. apply G. auto.
  Qed.

  Lemma flush_err_open part s e s' : flush part s = (Err e, s') -> p_open s' = p_open s.
  Proof.
    unfold Producer.flush. destruct (p_unsent s) as [|u0 us] eqn:EU; [discriminate|]. rewrite <- EU. clear EU.
    destruct (order_topics part (drain_items (p_unsent s)) [] [] (p_cluster s)) as [[[[o retry]|e1] rest] k1]; [|intros H; injection H as _ <-; reflexivity].
    destruct (build_requests acks timeout compress_fails o (p_corr (with_cluster k1 (with_unsent (rev rest) s))) [] (p_sent (with_cluster k1 (with_unsent (rev rest) s)))) as [[[rqs|e1] corr] sent]; [|intros H; injection H as _ <-; reflexivity].
    match goal with |- context [write_all _ _ (p_cluster ?x)] => set (s3 := x) in * end. destruct (write_all serialize_fails rqs (p_cluster s3) (p_wire s3)) as [[r3|e3] wire]; intros H; [discriminate|]. injection H as _ <-. cbn [p_open].
    unfold s3. match goal with |- p_open (fold_left _ retry ?x) = _ => destruct (retries_spec retry x) as (_ & _ & _ & _ & _ & _ & X & _) end. exact X.
  Qed.

  Lemma in_line s m : In m (line s) <-> In m (queue_of s t) /\ home t m = p.
  Proof. unfold line, here. rewrite filter_In. now rewrite Z.eqb_eq. Qed.

  Lemma flush_turns R part s r s' : flush part s = (r, s') -> pinv s -> p_open s = [] -> (forall m q, In m (queue_of s t) -> part m (partitions_of (p_cluster s) t) = Ok q -> q = home t m) ->
    turns R s -> turns R s'.
  Proof.
    intros H I O FH T. destruct (flush_spec _ _ _ _ _ _ _ _ H I) as (I' & _ & NX & _ & _ & _ & _ & SP). destruct (flush_sends _ _ _ _ _ _ _ _ H I) as (w & W & _ & Q).
    (* what goes out for the partition is from the line, which is then empty *)
    assert (GO : forall m, goes_to part (p_cluster s) t p m = true -> In m (queue_of s t) -> In m (line s) /\ exists l, leader_for (p_cluster s) t p = Some l /\ connected (p_cluster s) l = true).
    { intros m G Hm. unfold goes_to in G. destruct (part m (partitions_of (p_cluster s) t)) as [q|] eqn:EP; [|discriminate]. apply andb_true_iff in G as [G1 G2]. apply Z.eqb_eq in G1. subst q. rewrite in_line. split; [split; [exact Hm|symmetry; now apply FH]|].
      destruct (leader_for (p_cluster s) t p) as [l|]; [now exists l|discriminate]. }
    assert (LESS : forall m, In m (line s') -> In m (line s)).
    { intros m. rewrite !in_line. intros [X Y]. split; [|exact Y]. destruct Q as [[_ Q]|[_ Q]]; [destruct (Q t) as [E|E]; rewrite E in X; [exact X|destruct X]|]. rewrite Q in X. now apply filter_In in X. }
    assert (OUT : forall m, In m (carried w t p) -> In m (line s) /\ line s' = []).
    { intros m Hm. destruct Q as [[-> _]|[Q1 Q2]]; [destruct Hm|]. apply (in_order_in _ _ _ (Q1 t p)) in Hm. apply filter_In in Hm as [Hm G]. destruct (GO m G Hm) as (L & l & LF & CN). split; [exact L|].
      unfold line. rewrite Q2. destruct (filter here (filter (leaderless part (p_cluster s) t) (queue_of s t))) as [|x xs] eqn:EX; [reflexivity|]. exfalso.
      assert (X : In x (x :: xs)) by now left. rewrite <- EX in X. apply filter_In in X as [X HX]. apply filter_In in X as [X LX]. unfold leaderless in LX. destruct (part x (partitions_of (p_cluster s) t)) as [q|] eqn:EP; [|discriminate].
      rewrite (FH x q X EP) in LX. unfold here in HX. apply Z.eqb_eq in HX. rewrite HX, LF, CN in LX. discriminate. }
    assert (SW : sorted (carried w t p)).
    { destruct Q as [[-> _]|[Q1 _]]; [constructor|]. eapply sorted_order; [exact (Q1 t p)|]. apply (sorted_order _ (line s)); [|apply T]. unfold line. apply filter_order. intros m X G. destruct (GO m G X) as [Y _]. apply in_line in Y as [_ Y]. unfold here. now apply Z.eqb_eq. }
    assert (OW : forall rq m, In rq w -> In m (carried [rq] t p) -> In m (carried w t p)).
    { intros rq m X Y. apply in_split in X as (a & b & ->). rewrite carried_mid. apply in_or_app. right. apply in_or_app. now left. }
    assert (SENT : forall c q, In c (p_open s') -> exists rqs rq, r = Ok rqs /\ In rq rqs /\ pq_corr rq = c /\ sent_for s' c t q = carried [rq] t q).
    { intros c q V. destruct r as [rqs|e]; [|rewrite (flush_err_open _ _ _ _ H), O in V; destruct V]. destruct SP as (_ & _ & OP & SR & _). rewrite OP, O in V. cbn [app] in V. apply in_map_iff in V as (rq & <- & V). exists rqs, rq.
      split; [reflexivity|]. split; [exact V|]. split; [reflexivity|]. destruct (SR rq V) as (_ & _ & _ & _ & SL). destruct (flush_order _ _ _ _ _ _ _ _ H I) as (_ & _ & _ & _ & _ & ND & _).
      rewrite sent_for_olook. unfold olook. rewrite SL. unfold carried. cbn [flat_map]. rewrite app_nil_r. symmetry. apply (carried_batch (pq_topics rq) t q). apply (proj2 ND (pq_leader rq)). apply in_map_iff. now exists rq. }
    assert (ALL : forall rqs rq m, r = Ok rqs -> In rq rqs -> In m (carried [rq] t p) -> In m (line s) /\ line s' = []).
    { intros rqs rq m -> X Y. destruct (flush_order _ _ _ _ _ _ _ _ H I) as (_ & CR & _ & Q2 & _). assert (Z0 : In m (carried rqs t p)) by (apply in_split in X as (a & b & ->); rewrite carried_mid; apply in_or_app; right; apply in_or_app; now left).
      rewrite CR in Z0. apply filter_In in Z0 as [Hm G]. destruct (GO m G Hm) as (L & l & LF & CN). split; [exact L|]. unfold line. rewrite Q2.
      destruct (filter here (filter (leaderless part (p_cluster s) t) (queue_of s t))) as [|x xs] eqn:EX; [reflexivity|]. exfalso.
      assert (X' : In x (x :: xs)) by now left. rewrite <- EX in X'. apply filter_In in X' as [X' HX]. apply filter_In in X' as [X' LX]. unfold leaderless in LX. destruct (part x (partitions_of (p_cluster s) t)) as [q|] eqn:EP; [|discriminate].
      rewrite (FH x q X' EP) in LX. unfold here in HX. apply Z.eqb_eq in HX. rewrite HX, LF, CN in LX. discriminate. }
    (* one request carries the partition *)
    assert (ONE : forall rqs r1 r2 m1 m2, r = Ok rqs -> In r1 rqs -> In r2 rqs -> In m1 (carried [r1] t p) -> In m2 (carried [r2] t p) -> pq_corr r1 = pq_corr r2).
    { intros rqs r1 r2 m1 m2 -> X1 X2 Y1 Y2. destruct (flush_order _ _ _ _ _ _ _ _ H I) as (_ & _ & LD & _ & ND & _). destruct (LD _ _ _ _ X1 Y1) as [L1 _]. destruct (LD _ _ _ _ X2 Y2) as [L2 _]. rewrite L1 in L2. injection L2 as L2.
      clear -ND L2 X1 X2. induction rqs as [|a l IH]; [destruct X1|]. cbn in ND. inversion ND as [|? ? N1 N2]; subst. destruct X1 as [<-|X1]; destruct X2 as [<-|X2]; [reflexivity| | |now apply IH]; exfalso; apply N1; [rewrite L2|rewrite <- L2]; now apply in_map. }
    constructor.
    - apply (sorted_order _ (line s)); [|apply T]. destruct Q as [[_ Q]|[_ Q]]; unfold line; [destruct (Q t) as [-> | ->]; [apply in_order_refl|apply in_order_nil]|]. rewrite Q. clear. induction (queue_of s t) as [|m q IH]; [constructor|]. cbn [filter]. destruct (leaderless part (p_cluster s) t m); cbn [filter]; destruct (here m); try exact IH; constructor; exact IH.
    - intros rq m1 m2 X Y Z0. rewrite W in X. apply in_app_iff in X as [X|X]; [apply (t_queue _ _ T rq m1 m2 X Y); now apply LESS|]. destruct (OUT m1 (OW _ _ X Y)) as [_ E]. rewrite E in Z0. destruct Z0.
    - intros c rq m1 m2 V X N Y Z0. destruct (SENT c p V) as (rqs & rq2 & RE & R2 & RC & RS). rewrite RS in Z0. rewrite W in X. apply in_app_iff in X as [X|X]; [apply (t_queue _ _ T rq m1 m2 X Y); now apply (ALL rqs rq2)|].
      exfalso. apply N. rewrite <- RC. apply (ONE rqs rq rq2 m1 m2 RE); auto. subst r. destruct (flush_spec _ _ _ _ _ _ _ _ H I) as (_ & _ & _ & _ & _ & _ & (w' & W' & _ & IW) & _). rewrite W in W'. apply app_inv_head in W'. subst w'. now apply IW.
    - intros a r1 b r2 d m1 m2 V Y1 Y2. rewrite W in V. assert (J : (exists d0, p_wire s = a ++ r1 :: b ++ r2 :: d0) \/ (In r1 (p_wire s) /\ In r2 w) \/ exists a0, w = a0 ++ r1 :: b ++ r2 :: d).
      { clear -V. revert V. generalize (p_wire s) as u. intros u V. apply app_eq_app in V as (l & [[V1 V2]|[V1 V2]]).
        - destruct l as [|x l]; cbn in V2; [right; right; exists []; cbn; now symmetry|]. injection V2 as -> V2. symmetry in V2. apply app_eq_app in V2 as (l2 & [[V3 V4]|[V3 V4]]).
          + destruct l2 as [|y l2]; cbn in V4.
            * right. left. subst u w. split; [apply in_or_app; right; now left|now left].
            * injection V4 as -> V4. left. exists l2. subst. now rewrite <- ?app_assoc.
          + right. left. subst u w. split; [apply in_or_app; right; now left|]. apply in_or_app. right. now left.
        - right. right. subst. now exists l. }
      destruct J as [(d0 & J)|[[J1 J2]|(a0 & J)]]; [exact (t_wire _ _ T a r1 b r2 d0 m1 m2 J Y1 Y2)|apply (t_queue _ _ T r1 m1 m2 J1 Y1); now apply (OUT m2 (OW _ _ J2 Y2))|].
      left. rewrite J in SW. rewrite carried_mid in SW. apply sorted_right in SW. eapply sorted_app; [exact SW|exact Y1|]. rewrite carried_mid. apply in_or_app. right. apply in_or_app. now left.
    - intros c V N. destruct (SENT c p V) as (rqs & rq & RE & R2 & RC & RS). rewrite RS in *. destruct (carried [rq] t p) as [|m l] eqn:EC; [now destruct N|]. assert (Hm : In m (carried [rq] t p)) by (rewrite EC; now left). destruct (ALL rqs rq m RE R2 Hm) as [_ LE]. split; [exact LE|]. split.
      + subst r. destruct (flush_order _ _ _ _ _ _ _ _ H I) as (_ & CR & _). assert (SA : sorted (carried rqs t p)). { rewrite CR. apply (sorted_order _ (line s)); [|apply T]. unfold line. apply filter_order. intros x X G. destruct (GO x G X) as [Y _]. apply in_line in Y as [_ Y]. unfold here. now apply Z.eqb_eq. }
        apply in_split in R2 as (a & b & ->). rewrite carried_mid, EC in SA. apply sorted_right in SA. now apply sorted_left in SA.
      + intros c' V' NC. destruct (SENT c' p V') as (rqs' & rq' & RE' & R2' & RC' & RS'). rewrite RS'. destruct (carried [rq'] t p) as [|m' l'] eqn:EC'; [reflexivity|]. exfalso. apply NC. rewrite <- RC, <- RC'. assert (rqs' = rqs) by congruence. subst rqs'.
        apply (ONE rqs rq' rq m' m RE R2' R2); [rewrite EC'; now left|exact Hm].
    - intros rq X. rewrite W in X. apply in_app_iff in X as [X|X]; [now apply T|]. apply in_split in X as (a & b & ->). rewrite carried_mid in SW. apply sorted_right in SW. now apply sorted_left in SW.
    - intros c q m V Hm. destruct (SENT c q V) as (rqs & rq & -> & R2 & RC & RS). rewrite RS in Hm. destruct (flush_order _ _ _ _ _ _ _ _ H I) as (_ & CR & _). assert (Z0 : In m (carried rqs t q)) by (apply in_split in R2 as (a & b & ->); rewrite carried_mid; apply in_or_app; right; apply in_or_app; now left).
      rewrite CR in Z0. apply filter_In in Z0 as [Z1 Z2]. unfold goes_to in Z2. destruct (part m (partitions_of (p_cluster s) t)) as [q'|] eqn:EP; [|discriminate]. apply andb_true_iff in Z2 as [Z2 _]. apply Z.eqb_eq in Z2. subst q'. symmetry. now apply FH.
    - intros rq m X Y. rewrite NX. rewrite W in X. apply in_app_iff in X as [X|X]; [now apply (t_next _ _ T rq m)|]. destruct (OUT m (OW _ _ X Y)) as [Z0 _]. apply in_line in Z0 as [Z0 _]. now apply queued_next with t.
    - intros rq m X Y. rewrite W in X. apply in_app_iff in X as [X|X]; [now apply (t_place _ _ T rq m)|]. destruct (OUT m (OW _ _ X Y)) as [Z0 _]. now apply in_line in Z0 as [_ Z0].
  Qed.

  (** ** answers *)
  Definition homed (c : Z) (s : producer) : Prop := forall q m, In m (sent_for s c t q) -> home t m = q.
  Definition moved (N : Prop) (c : Z) (s s' : producer) : Prop := homed c s -> homed c s' /\
    ((line s' = line s /\ sent_for s' c t p = sent_for s c t p) \/ (line s' = line s ++ sent_for s c t p /\ sent_for s' c t p = [] /\ N)).
  Lemma moved_refl N c s : moved N c s s.
  Proof. intros H. auto. Qed.
  Lemma moved_trans N c s1 s2 s3 : moved N c s1 s2 -> moved N c s2 s3 -> moved N c s1 s3.
  Proof.
    intros A B H. destruct (A H) as (H2 & X). destruct (B H2) as (H3 & Y). split; [exact H3|]. destruct X as [[X1 X2]|(X1 & X2 & X3)]; destruct Y as [[Y1 Y2]|(Y1 & Y2 & Y3)].
    - left. split; congruence.
    - right. rewrite Y1, X1, X2. auto.
    - right. rewrite Y1, Y2, X2. auto.
    - right. rewrite Y1, X1, X2, app_nil_r. auto.
  Qed.
  Lemma moved_weak (N N' : Prop) c s s' : (N -> N') -> moved N c s s' -> moved N' c s s'.
  Proof. intros W A H. destruct (A H) as (H2 & [X|(X1 & X2 & X3)]); split; auto. Qed.
  Lemma sent_slook s c q : sent_for s c t q = match dget (slook (p_sent s) c t) q with Some ms => ms | None => [] end.
  Proof. rewrite sent_for_olook. reflexivity. Qed.

  Lemma pop_moved c name q s ms sent : nd_ordered (p_sent s) -> pop_sent (p_sent s) c name q = (Ok ms, sent) -> moved (name = t /\ q = p) c s (queue_retries name ms (with_sent sent s)).
  Proof.
    intros ND EP HM. destruct (pop_sent_spec _ _ _ _ _ _ EP) as (_ & _ & _ & (D & _) & L). destruct (queue_retries_spec name ms (with_sent sent s)) as (_ & A2 & _ & _ & _ & _ & _ & _ & _ & _ & _ & _ & A13). cbv zeta in A2, A13.
    set (s' := queue_retries name ms (with_sent sent s)) in *. assert (SF : forall q', sent_for s' c t q' = if list_eqb t name then (if q' =? q then [] else sent_for s c t q') else sent_for s c t q').
    { intros q'. rewrite !sent_slook, A2. cbn [with_sent p_sent]. rewrite L. destruct (list_eqb t name) eqn:ET; [|reflexivity]. apply list_eqb_spec in ET. subst name. destruct (Z.eqb_spec q' q) as [->|Ne].
      - rewrite dget_ddel_same; [reflexivity|]. unfold slook, getd. destruct (dget (p_sent s) c) as [b|] eqn:EB; [|constructor]. destruct (dget b t) as [d|] eqn:ED; [|constructor]. apply dget_In in EB, ED. exact (proj2 (proj2 ND _ _ EB) _ _ ED).
      - now rewrite dget_ddel_other. }
    specialize (A13 t). change (queue_of (with_sent sent s) name) with (queue_of s name) in A13. change (queue_of (with_sent sent s) t) with (queue_of s t) in A13. destruct (list_eqb t name) eqn:ET.
    - apply list_eqb_spec in ET. subst name. assert (MS : sent_for s c t q = ms) by (rewrite sent_slook, D; reflexivity). split.
      + intros q' m Hm. rewrite SF in Hm. destruct (q' =? q); [destruct Hm|now apply HM].
      + rewrite (SF p). unfold line. rewrite A13, filter_app. destruct (Z.eqb_spec p q) as [E|Ne].
        * right. subst q. split; [|auto]. f_equal. rewrite MS. apply keep_all. intros x X. unfold here. apply Z.eqb_eq. apply HM. now rewrite MS.
        * left. split; [|reflexivity]. rewrite (keep_none here ms), app_nil_r; [reflexivity|]. intros x X. unfold here. apply Z.eqb_neq. intros E. apply Ne. rewrite <- E. apply HM. now rewrite MS.
    - split; [intros q' m Hm; rewrite SF in Hm; now apply HM|]. left. split; [unfold line; now rewrite A13|apply SF].
  Qed.
  Lemma pop_err_moved N c name q s e sent : pop_sent (p_sent s) c name q = (Err e, sent) -> moved N c s (with_sent sent s).
  Proof.
    intros EP HM. destruct (pop_sent_spec _ _ _ _ _ _ EP) as (_ & _ & _ & (D & _) & L). assert (SF : forall q', sent_for (with_sent sent s) c t q' = sent_for s c t q').
    { intros q'. rewrite !sent_slook. cbn [with_sent p_sent]. rewrite L. destruct (list_eqb t name) eqn:ET; [|reflexivity]. apply list_eqb_spec in ET. subst name. destruct (Z.eqb_spec q' q) as [->|Ne]; [|now rewrite dget_ddel_other].
      destruct (dget (ddel (slook (p_sent s) c t) q) q) as [ms|] eqn:E; [|now rewrite D]. apply dget_In, in_ddel_in in E. apply (dget_None_notin _ q) in D. destruct D. apply (in_map fst) in E. exact E. }
    split; [intros q' m Hm; rewrite SF in Hm; now apply HM|]. left. split; [reflexivity|apply SF].
  Qed.
  Lemma handle_partitions_moved c name ps : forall s r s', nd_ordered (p_sent s) -> handle_partitions c name ps s = (r, s') -> moved (name = t /\ exists code, In (p, code) ps /\ retriable_code code = true) c s s' /\ nd_ordered (p_sent s').
  Proof.
    induction ps as [|[q code] ps IH]; intros s r s' ND H; cbn [handle_partitions] in H; [injection H as _ <-; split; [apply moved_refl|exact ND]|].
    assert (W : name = t /\ (exists code0, In (p, code0) ps /\ retriable_code code0 = true) -> name = t /\ exists code0, In (p, code0) ((q, code) :: ps) /\ retriable_code code0 = true) by (intros [-> (x & X1 & X2)]; split; [reflexivity|]; exists x; split; [now right|exact X2]).
    destruct (code =? no_error); [apply IH in H as [H1 H2]; [|exact ND]; split; [eapply moved_weak; [exact W|exact H1]|exact H2]|]. destruct (is_retriable code) eqn:ER.
    - destruct (pop_sent (p_sent s) c name q) as [[ms|e] sent] eqn:EP.
      + assert (ND2 : nd_ordered (p_sent (queue_retries name ms (with_sent sent s)))). { destruct (queue_retries_spec name ms (with_sent sent s)) as (_ & A2 & _). rewrite A2. destruct (pop_sent_spec _ _ _ _ _ _ EP) as (X & _). now apply X. }
        apply IH in H as [H1 H2]; [|exact ND2]. split; [|exact H2]. eapply moved_trans; [|eapply moved_weak; [exact W|exact H1]]. eapply moved_weak; [|eapply pop_moved; [exact ND|exact EP]]. intros [-> ->]. split; [reflexivity|]. exists code. split; [now left|]. now rewrite <- is_retriable_code.
      + injection H as _ <-. split; [eapply pop_err_moved; exact EP|]. cbn [with_sent p_sent]. destruct (pop_sent_spec _ _ _ _ _ _ EP) as (X & _). now apply X.
    - destruct (error_name code); [|injection H as _ <-; split; [apply moved_refl|exact ND]]. apply IH in H as [H1 H2]; [|exact ND]. split; [eapply moved_weak; [exact W|exact H1]|exact H2].
  Qed.
  Lemma handle_topics_moved c resp : forall s r s', nd_ordered (p_sent s) -> handle_topics c resp s = (r, s') -> moved (exists ps code, In (t, ps) resp /\ In (p, code) ps /\ retriable_code code = true) c s s'.
  Proof.
    induction resp as [|[name ps] resp IH]; intros s r s' ND H; cbn [handle_topics] in H; [injection H as _ <-; apply moved_refl|]. destruct (handle_partitions c name ps s) as [[u|e] s1] eqn:E; apply handle_partitions_moved in E as [E1 E2]; try exact ND.
    - eapply moved_trans; [eapply moved_weak; [|exact E1]|eapply moved_weak; [|eapply IH; [exact E2|exact H]]].
      + intros [-> (code & X & Y)]. exists ps, code. split; [now left|auto].
      + intros (ps' & code & X & Y). exists ps', code. split; [now right|auto].
    - injection H as _ <-. eapply moved_weak; [|exact E1]. intros [-> (code & X & Y)]. exists ps, code. split; [now left|auto].
  Qed.
  Lemma handle_line c resp s r s' : nd_ordered (p_sent s) -> homed c s -> handle_produce_response c resp s = (r, s') ->
    line s' = line s \/ (line s' = line s ++ sent_for s c t p /\ exists ps code, In (t, ps) resp /\ In (p, code) ps /\ retriable_code code = true).
  Proof.
    unfold handle_produce_response. intros ND HM H. destruct (handle_topics c resp s) as [[u|e] s1] eqn:E; destruct (handle_topics_moved _ _ _ _ _ ND E HM) as (_ & [[X _]|(X & _ & Y)]);
      try (injection H as _ <-); [|destruct (dget (p_sent s1) c); injection H as _ <-| |]; try (destruct (dget (p_sent s1) c); injection H as _ <-); auto.
  Qed.
  Lemma response_turns (R R' : Z -> Prop) c resp s r s' : handle_produce_response c resp (answered c s) = (r, s') -> pinv s -> In c (p_open s) -> (forall x, R x -> R' x) ->
    ((exists ps code, In (t, ps) resp /\ In (p, code) ps /\ retriable_code code = true) -> R' c) -> turns R s -> turns R' s'.
  Proof.
    intros H I O RR RC T. apply (turns_more R R') in T; [|exact RR]. pose proof H as H2. apply handle_spec in H2 as (_ & _ & _ & NX & OP & W & _ & _ & _ & SD & _). cbn [answered p_open p_wire p_next p_sent] in *.
    assert (SF : forall c' q, c' <> c -> sent_for s' c' t q = sent_for s c' t q) by (intros c' q N; unfold sent_for; now rewrite (SD c' N)).
    assert (OC : forall c', In c' (p_open s') <-> In c' (p_open s) /\ c' <> c). { intros c'. rewrite OP, filter_In, negb_true_iff, Z.eqb_neq. tauto. }
    assert (HL := handle_line c resp (answered c s) r s' (i_sent s I) (fun q m => t_home _ _ T c q m O) H). change (line (answered c s)) with (line s) in HL. change (sent_for (answered c s) c t p) with (sent_for s c t p) in HL.
    assert (LN : line s' = line s \/ (line s = [] /\ line s' = sent_for s c t p /\ sorted (sent_for s c t p) /\ R' c /\ forall c', In c' (p_open s) -> c' <> c -> sent_for s c' t p = [])).
    { destruct HL as [HL|[HL NM]]; [now left|]. destruct (sent_for s c t p) as [|m l] eqn:ES; [left; now rewrite app_nil_r in HL|]. right. destruct (t_one _ _ T c O) as (L0 & SO & OT); [rewrite ES; discriminate|]. rewrite ES in SO. rewrite L0 in HL. split; [exact L0|]. split; [exact HL|]. split; [exact SO|]. split; [now apply RC|exact OT]. }
    constructor.
    - destruct LN as [->|(_ & -> & SO & _)]; [apply T|exact SO].
    - intros rq m1 m2 X Y Z0. rewrite W in X. destruct LN as [E|(_ & E & _ & RN & _)]; rewrite E in Z0; [now apply (t_queue _ _ T rq m1 m2)|]. destruct (Z.eq_dec (pq_corr rq) c) as [->|N]; [now right|now apply (t_sent _ _ T c rq m1 m2)].
    - intros c' rq m1 m2 V X N Y Z0. rewrite W in X. apply OC in V as [V NC]. rewrite SF in Z0 by exact NC. now apply (t_sent _ _ T c' rq m1 m2).
    - intros a r1 b r2 d m1 m2 V. rewrite W in V. now apply (t_wire _ _ T a r1 b r2 d).
    - intros c' V N. apply OC in V as [V NC]. rewrite (SF c' p NC) in *. destruct (t_one _ _ T c' V N) as (L0 & SO & OT). split; [|split; [exact SO|]].
      + destruct LN as [->|(_ & _ & _ & _ & OT2)]; [exact L0|]. destruct N. now apply OT2.
      + intros c2 V2 N2. apply OC in V2 as [V2 NC2]. rewrite SF by exact NC2. now apply OT.
    - intros rq X. rewrite W in X. now apply T.
    - intros c' q m V Hm. apply OC in V as [V NC]. rewrite SF in Hm by exact NC. now apply (t_home _ _ T c').
    - intros rq m X Y. rewrite W in X. rewrite NX. now apply (t_next _ _ T rq).
    - intros rq m X Y. rewrite W in X. now apply (t_place _ _ T rq).
  Qed.

  (** ** steps and runs *)
  Lemma enqueue_turns R topic mk s r s' : enqueue topic mk s = (r, s') -> pinv s -> p_open s = [] -> turns R s -> turns R s'.
  Proof.
    intros H I O T. destruct (enqueue_spec _ _ _ _ _ H I) as (_ & _ & _ & _ & _ & _ & OP & W & _ & _ & M). rewrite O in OP.
    assert (L : line s' = line s /\ p_next s' = p_next s \/ exists m, line s' = line s ++ [PM (p_next s) m] /\ p_next s' = S (p_next s) \/ line s' = line s /\ p_next s' = S (p_next s)).
    { destruct mk as [m|e]; destruct M as (_ & N & Q); [|left; split; [unfold line; now rewrite Q|exact N]]. right. exists m. unfold line. rewrite Q, filter_app. destruct (list_eqb t topic); cbn [filter]; [destruct (here (PM (p_next s) m))|]; rewrite ?app_nil_r; auto. }
    assert (NX : (p_next s <= p_next s')%nat) by (destruct L as [[_ ->]|(m & [[_ ->]|[_ ->]])]; lia).
    constructor.
    - destruct L as [[-> _]|(m & [[-> _]|[-> _]])]; try apply T. rewrite map_app. apply sorted_snoc; [apply T|]. intros x X. apply in_map_iff in X as (y & <- & Y). apply in_line in Y as [Y _]. now apply queued_next with t.
    - intros rq m1 m2 X Y Z0. rewrite W in X. destruct L as [[L _]|(m & [[L _]|[L _]])]; rewrite L in Z0; try (now apply (t_queue _ _ T rq m1 m2)). apply in_app_iff in Z0 as [Z0|[<-|[]]]; [now apply (t_queue _ _ T rq m1 m2)|]. left. cbn. now apply (t_next _ _ T rq).
    - intros c rq m1 m2 V. rewrite OP in V. destruct V.
    - intros a r1 b r2 d m1 m2 V. rewrite W in V. now apply (t_wire _ _ T a r1 b r2 d).
    - intros c V. rewrite OP in V. destruct V.
    - intros rq X. rewrite W in X. now apply T.
    - intros c q m V. rewrite OP in V. destruct V.
    - intros rq m X Y. rewrite W in X. pose proof (t_next _ _ T rq m X Y). lia.
    - intros rq m X Y. rewrite W in X. now apply (t_place _ _ T rq).
  Qed.
  Lemma resume_turns R part topic mk s : pinv s -> p_open s = [] -> turns R s ->
    (forall m q, In m (at_hand s (EvResume part topic mk) t) -> part m (partitions_of (p_cluster s) t) = Ok q -> q = home t m) -> turns R (snd (produce_resume batch_size acks timeout compress_fails serialize_fails part topic mk s)).
  Proof.
    intros I O T FH. unfold Producer.produce_resume. destruct (dmem (k_topics (p_cluster s)) topic); cbn [negb]; [|exact T]. destruct (enqueue topic mk s) as [r s1] eqn:E. pose proof (enqueue_turns R _ _ _ _ _ E I O T) as T1.
    destruct (enqueue_spec _ _ _ _ _ E I) as (I1 & _ & _ & _ & K & _ & OP & _ & _ & _ & M). destruct r as [u|e]; [|exact T1]. destruct (flush_due batch_size s1); [|exact T1]. destruct mk as [m|e]; destruct M as (M1 & _ & Q); [|discriminate].
    destruct (flush part s1) as [[rqs|e] s2] eqn:F; cbn [snd]; (eapply flush_turns; [exact F|exact I1|now rewrite OP|rewrite K|exact T1]); intros x q X; apply FH; unfold at_hand; now rewrite <- Q.
  Qed.
  Lemma step_turns (R R' : Z -> Prop) s ev : pinv s -> waits home s ev -> (forall c, R c -> R' c) ->
    (forall c resp, ev = EvResponse c resp -> In c (p_open s) -> (exists ps code, In (t, ps) resp /\ In (p, code) ps /\ retriable_code code = true) -> R' c) -> turns R s -> turns R' (pstep s ev).
  Proof.
    intros I WT RR RC T. destruct ev as [part topic mk|part topic mk|part|part|c resp|c e| |k|]; cbn [Producer.pstep waits] in *.
    - destruct WT as [O FH]. apply (turns_more R); [exact RR|]. unfold produce. destruct (p_closing s); [exact T|]. destruct (dmem (k_topics (p_cluster s)) topic); cbn [negb]; [|exact T]. apply resume_turns; auto.
    - destruct WT as [O FH]. apply (turns_more R); [exact RR|]. apply resume_turns; auto.
    - destruct WT as [O FH]. apply (turns_more R); [exact RR|]. destruct (flush part s) as [r s'] eqn:E. eapply flush_turns; [exact E|exact I|exact O| |exact T]. intros m q X. apply FH. unfold at_hand. now rewrite app_nil_r.
    - destruct WT as [O FH]. apply (turns_more R); [exact RR|]. unfold close_begin. match goal with |- turns _ (snd (Producer.flush _ _ _ _ _ ?x)) => set (s0 := x) end. destruct (flush part s0) as [r s'] eqn:E.
      assert (I0 : pinv s0) by (destruct I; constructor; assumption). eapply flush_turns; [exact E|exact I0|exact O| |eapply turns_fewer; [..|exact T]; try reflexivity; apply incl_refl]. intros m q X. apply FH. unfold at_hand. rewrite app_nil_r. exact X.
    - destruct (smem (p_open s) c) eqn:EO; [|now apply (turns_more R)]. apply smem_In in EO. destruct (handle_produce_response c resp (answered c s)) as [r s'] eqn:E. cbn [snd]. eapply response_turns; [exact E|exact I|exact EO|exact RR| |exact T]. now apply RC.
    - apply (turns_more R); [exact RR|]. destruct (smem (p_open s) c); [|exact T]. eapply turns_fewer; [..|exact T]; try reflexivity. intros x X. cbn [with_heal answered p_open] in X. now apply filter_In in X.
    - apply (turns_more R); [exact RR|]. eapply turns_fewer; [..|exact T]; try reflexivity. apply incl_refl.
    - apply (turns_more R); [exact RR|]. eapply turns_fewer; [..|exact T]; try reflexivity. apply incl_refl.
    - apply (turns_more R); [exact RR|]. eapply turns_fewer; [..|exact T]; try reflexivity. apply incl_refl.
  Qed.
  Notation each_event := (each_event batch_size acks timeout compress_fails serialize_fails).
  Notation refused := (refused batch_size acks timeout compress_fails serialize_fails).
  Lemma each_snoc ok evs ev : forall s, each_event ok (evs ++ [ev]) s -> each_event ok evs s /\ ok (prun evs s) ev.
  Proof. induction evs as [|x evs IH]; intros s; cbn; [intros [H _]; auto|]. intros [H1 H2]. destruct (IH _ H2) as [A B]. auto. Qed.
  Lemma run_turns evs k corr : each_event (waits home) evs (producer_init k corr) -> turns (fun c => refused evs (producer_init k corr) c t p) (prun evs (producer_init k corr)).
  Proof.
    induction evs as [|ev evs IH] using rev_ind; intros E.
    - constructor; cbn; try (intros; contradiction); [constructor|]. intros a r1 b r2 d m1 m2 X. destruct a; discriminate X.
    - apply each_snoc in E as [E1 E2]. specialize (IH E1). unfold Producer.prun in *. rewrite fold_left_app. cbn [fold_left]. eapply step_turns; [| |  | |exact IH].
      + apply (prun_inv batch_size acks timeout compress_fails serialize_fails evs). apply pinv_init.
      + exact E2.
      + intros c (e1 & resp & e2 & ps & code & -> & X). exists e1, resp, (e2 ++ [ev]), ps, code. rewrite <- app_assoc. auto.
      + intros c resp -> O (ps & code & X). exists evs, resp, [], ps, code. auto.
  Qed.
End Turns.
