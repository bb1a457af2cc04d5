(** Property C76: consuming messages that the broker keeps in compressed sets.  Specification: SpecSets.v. *)
From Coq Require Import ZArith String List Bool Lia Sorting.Sorted.
From Verif Require Import PyBase BaseLemmas Constants Cluster Zookeeper Consumer SpecConsumer ConsumerProofs ConsumerSteps ConsumerRuns PropsConsumer SpecLog FollowRuns PropsLog SpecSets.
Import ListNotations.
Open Scope Z_scope.
Set Default Proof Using "Type".

Lemma reaching_split o ss : exists a, ss = a ++ reaching o ss /\ (forall s om, In s a -> In om s -> fst om < o).
Proof.
  induction ss as [|s r IH]; cbn [reaching]; [exists []; split; [reflexivity|intros s om []]|]. destruct (forallb (fun om => fst om <? o) s) eqn:F; [|exists []; split; [reflexivity|intros s' om []]].
  destruct IH as (a & E & H). exists (s :: a). split; [cbn; now rewrite <- E|]. intros s' om [<-|I] J; [|eapply H; eassumption]. rewrite forallb_forall in F. specialize (F om J). lia.
Qed.
Lemma reaching_head o ss s r : reaching o ss = s :: r -> forallb (fun om : Z * pymsg => fst om <? o) s = false.
Proof. induction ss as [|s' r' IH]; cbn [reaching]; [discriminate|]. destruct (forallb (fun om => fst om <? o) s') eqn:F; [exact IH|]. intros [= <- _]. exact F. Qed.
Lemma in_sorted_split (l1 l2 : list (Z * pymsg)) x y : StronglySorted Z.lt (map fst (l1 ++ l2)) -> In x l1 -> In y l2 -> fst x < fst y.
Proof. intros S I J. rewrite map_app in S. destruct (ss_app _ _ S) as [_ H]. apply H; now apply in_map. Qed.
(** a run of sets is everything from its beginning up to its last message *)
Lemma run_covers (ss : list (list (Z * pymsg))) o n x y : StronglySorted Z.lt (map fst (concat ss)) -> In y (concat ss) -> In x (concat (firstn n (reaching o ss))) -> o <= fst y <= fst x -> In y (concat (firstn n (reaching o ss))).
Proof.
  intros S IY IX L. destruct (reaching_split o ss) as (a & E & A). rewrite E in S, IY. rewrite concat_app in S, IY. rewrite <- (firstn_skipn n (reaching o ss)), concat_app in S, IY. apply in_app_iff in IY as [IY|IY].
  - exfalso. apply in_concat in IY as (s & I1 & I2). specialize (A s y I1 I2). lia.
  - apply in_app_iff in IY as [IY|IY]; [exact IY|]. exfalso. rewrite app_assoc in S. assert (fst x < fst y); [|lia]. eapply in_sorted_split; [exact S|apply in_app_iff; now right|exact IY].
Qed.
Lemma run_stored (ss : list (list (Z * pymsg))) o n x : In x (concat (firstn n (reaching o ss))) -> In x (concat ss).
Proof.
  intros I. destruct (reaching_split o ss) as (a & E & _). rewrite E, concat_app. apply in_app_iff. right. rewrite <- (firstn_skipn n (reaching o ss)), concat_app. apply in_app_iff. now left.
Qed.

Section Sets.
  Context {V : Type}.
  Variable cfg : config V.
  Variable t : text.
  Variable sets : Z -> list (list (Z * pymsg)).
  Variable s0 : consumer V.
  Variable LOG : forall p, is_log (stored sets p).

  Lemma sets_fetch x mw mb t' asked t'' parts rest : serves_sets t sets (RFetch x mw mb t' asked) (PFetch ((t'', parts) :: rest)) -> t'' = t' /\
    (t' = t -> NoDup (map fst parts) /\ forall p code ms, In (p, (code, ms)) parts -> code <> offset_out_of_range /\ (code = no_error -> In p (map fst asked))).
  Proof.
    intros [E H]. split; [exact E|]. intros T. destruct (H T) as [ND P]. split; [exact ND|]. intros p code ms I. destruct (P _ _ _ I) as [N S]. split; [exact N|]. intros C. destruct (S C) as (o & limit & n & IA & _). apply (in_map fst) in IA. exact IA.
  Qed.
  Lemma in_rd o v l : In (o, v) (readable cfg l) <-> exists m, In (o, m) l /\ deser cfg (msg_value m) = Ok v.
  Proof.
    unfold readable. rewrite in_flat_map. split.
    - intros ([o' m] & I & H). cbn [fst snd] in H. destruct (deser cfg (msg_value m)) eqn:D; [|destruct H]. destruct H as [H|[]]. injection H as <- <-. eauto.
    - intros (m & I & D). exists (o, m). split; [exact I|]. cbn [fst snd]. rewrite D. now left.
  Qed.

  (** nothing of the log is left out, nothing else delivered *)
  Definition covered (D : list (Z * (Z * V))) (f : Z -> Z) : Prop := forall p,
    (forall o v, In (o, v) (of_partition p D) -> In (o, v) (readable cfg (stored sets p))) /\
    (exists high, f p <= high /\ forall o v, In (o, v) (readable cfg (between (position s0 t p) high (stored sets p))) -> In (o, v) (of_partition p D)) /\
    f p = one_past_last (map fst (of_partition p D)) (position s0 t p).
  Lemma covered_ext D f g : (forall p, g p = f p) -> covered D f -> covered D g.
  Proof. intros E L p. rewrite E. apply L. Qed.
  Lemma covered_step D f f' x mw mb asked parts rest : covered D f -> (forall p o limit, In (p, (o, limit)) asked -> o = f p) -> serves_sets t sets (RFetch x mw mb t asked) (PFetch ((t, parts) :: rest)) ->
    (forall p, f' p = one_past_last (filter (fun o => 0 <=? o) (map fst (of_partition p (got_of cfg parts)))) (f p)) -> covered (D ++ got_of cfg parts) f'.
  Proof using LOG.
    intros L POS [_ H] PG. destruct (H eq_refl) as [NDP PARTS]. intros p. destruct (L p) as (IN & (high & LE & CO) & PP). rewrite of_partition_app, map_app, one_past_app, <- PP.
    destruct (got_present cfg p parts NDP) as [G|(ms & I & G)].
    - rewrite PG, G. cbn. rewrite app_nil_r. split; [exact IN|]. split; [now exists high|reflexivity].
    - destruct (PARTS _ _ _ I) as [_ S]. destruct (S eq_refl) as (o & limit & n & IA2 & ->). apply POS in IA2. subst o. rewrite G in *. set (run := concat (firstn n (reaching (f p) (sets p)))) in *. destruct (LOG p) as [SO NN].
      assert (RS : forall y, In y run -> In y (stored sets p)) by (intros y; apply run_stored).
      assert (NNR : filter (fun o => 0 <=? o) (map fst (readable cfg run)) = map fst (readable cfg run)).
      { apply filter_all. intros o Ho. apply in_map_iff in Ho as ([o' v] & <- & Ho). apply in_rd in Ho as (m & Ho & _). cbn [fst]. apply RS, (in_map fst) in Ho. apply NN in Ho. cbn in Ho. lia. }
      rewrite PG, G, NNR. split; [|split; [|reflexivity]].
      + intros o v J. apply in_app_iff in J as [J|J]; [now apply IN|]. apply in_rd in J as (m & J & D'). apply in_rd. exists m. split; [now apply RS|exact D'].
      + exists (Z.max high (one_past_last (map fst (readable cfg run)) (f p))). split; [lia|]. intros o v J. apply in_rd in J as (m & J & D'). apply filter_In in J as [J B]. cbn [fst] in B. rewrite andb_true_iff in B. destruct B as [B1 B2].
        apply in_app_iff. destruct (Z.ltb_spec o high) as [LH|LH]; [left; apply CO, in_rd; exists m; split; [|exact D']; apply filter_In; split; [exact J|]; cbn; lia|]. right.
        apply in_rd. exists m. split; [|exact D']. unfold one_past_last in B2. destruct (rev (map fst (readable cfg run))) as [|o1 r] eqn:ER; [lia|].
        assert (I1 : In o1 (map fst (readable cfg run))) by (apply in_rev; rewrite ER; now left). apply in_map_iff in I1 as ([o1' v1] & E1 & I1). cbn in E1. subst o1'. apply in_rd in I1 as (m1 & I1 & _).
        eapply run_covers; [exact SO|exact J|exact I1|]. cbn [fst]. lia.
  Qed.
  Lemma covered_start : covered [] (position s0 t).
  Proof. intros p. split; [intros o v []|]. split; [|reflexivity]. exists (position s0 t p). split; [lia|]. intros o v H. apply in_rd in H as (m & H & _). apply filter_In in H as [_ H]. cbn in H. lia. Qed.

  (** ** when positions stay between the sets, sets do not matter *)
  Definition at_sets (D : list (Z * (Z * V))) (f : Z -> Z) : Prop := in_log cfg t (stored sets) s0 D f /\ forall p, between_sets sets p (f p).
  Lemma at_sets_ext D f g : (forall p, g p = f p) -> at_sets D f -> at_sets D g.
  Proof. intros E [L B]. split; [eapply in_log_ext; eassumption|]. intros p. rewrite E. apply B. Qed.
  Lemma reaching_from o p : between_sets sets p o -> StronglySorted Z.lt (map fst (stored sets p)) -> exists a, sets p = a ++ reaching o (sets p) /\ from o (stored sets p) = concat (reaching o (sets p)).
  Proof.
    intros B S. destruct (reaching_split o (sets p)) as (a & E & A). exists a. split; [exact E|]. unfold stored. rewrite E at 1. rewrite concat_app. unfold from. rewrite filter_app, filter_none, filter_all; [reflexivity| |].
    - intros x I. destruct (reaching o (sets p)) as [|s r] eqn:R; [destruct I|]. pose proof (reaching_head o (sets p) s r R) as F.
      assert (IS : In s (sets p)) by (rewrite E; apply in_app_iff; right; now left).
      destruct (B s IS) as [LT|GE]. { exfalso. enough (forallb (fun om => fst om <? o) s = true) by congruence. apply forallb_forall. intros om J. specialize (LT om J). lia. }
      cbn [concat] in I. apply in_app_iff in I as [I|I]; [specialize (GE x I); lia|]. destruct s as [|om s]; [discriminate F|]. specialize (GE om (or_introl eq_refl)).
      assert (fst om < fst x); [|lia]. unfold stored in S. rewrite E, concat_app in S. cbn [concat] in S. rewrite app_assoc in S. eapply in_sorted_split; [exact S|apply in_app_iff; right; now left|exact I].
    - intros x I. apply in_concat in I as (s & I1 & I2). specialize (A s x I1 I2). lia.
  Qed.
  Variable ALL : forall p o m, In (o, m) (stored sets p) -> exists v, deser cfg (msg_value m) = Ok v.
  Lemma readable_all l : (forall o m, In (o, m) l -> exists v, deser cfg (msg_value m) = Ok v) -> map fst (readable cfg l) = map fst l.
  Proof.
    induction l as [|[o m] l IH]; intros H; [reflexivity|]. destruct (H o m (or_introl eq_refl)) as (v & E). unfold readable in *. cbn [flat_map fst snd map]. rewrite E. cbn [app map fst]. f_equal. apply IH. intros o2 m2 J. apply (H o2 m2). now right.
  Qed.
  Lemma at_sets_step D f f' x mw mb asked parts rest : at_sets D f -> (forall p o limit, In (p, (o, limit)) asked -> o = f p) -> serves_sets t sets (RFetch x mw mb t asked) (PFetch ((t, parts) :: rest)) ->
    (forall p, f' p = one_past_last (filter (fun o => 0 <=? o) (map fst (of_partition p (got_of cfg parts)))) (f p)) -> at_sets (D ++ got_of cfg parts) f'.
  Proof using LOG ALL.
    intros [L B] POS SV PG. assert (SV' := SV). destruct SV' as [_ H]. destruct (H eq_refl) as [NDP PARTS]. clear H. split.
    - eapply (in_log_step cfg t (stored sets) s0 LOG); [exact L|exact POS| |exact PG]. instantiate (1 := rest). instantiate (1 := mb). instantiate (1 := mw). instantiate (1 := x). split; [reflexivity|]. intros _. split; [exact NDP|].
      intros p code ms I. destruct (PARTS _ _ _ I) as [N S]. split; [exact N|]. intros C. destruct (S C) as (o & limit & n & IA & ->). exists o, limit, (length (concat (firstn n (reaching o (sets p))))). split; [exact IA|].
      apply POS in IA. subst o. destruct (reaching_from (f p) p (B p) (proj1 (LOG p))) as (a & E & ->). rewrite <- (firstn_skipn n (reaching (f p) (sets p))) at 3. rewrite concat_app, firstn_app, Nat.sub_diag, firstn_all. cbn [firstn]. now rewrite app_nil_r.
    - intros p. rewrite PG. destruct (got_present cfg p parts NDP) as [G|(ms & I & G)]; rewrite G; [apply B|]. destruct (PARTS _ _ _ I) as [_ S]. destruct (S eq_refl) as (o & limit & n & IA & ->). apply POS in IA. subst o.
      destruct (LOG p) as [SO NN]. set (run := concat (firstn n (reaching (f p) (sets p)))) in *. assert (RS : forall y, In y run -> In y (stored sets p)) by (intros y; apply run_stored).
      assert (ER : map fst (readable cfg run) = map fst run) by (apply readable_all; intros o m J; eapply ALL, RS, J). rewrite ER.
      rewrite filter_all. 2: { intros o Ho. apply in_map_iff in Ho as (y & <- & Ho). apply RS, (in_map fst), NN in Ho. lia. }
      unfold one_past_last. destruct (rev (map fst run)) as [|o1 r] eqn:EV; [apply B|]. assert (I1 : In o1 (map fst run)) by (apply in_rev; rewrite EV; now left). apply in_map_iff in I1 as (y1 & E1 & I1).
      destruct (reaching_split (f p) (sets p)) as (a & E & A). unfold stored in SO. assert (E2 : sets p = a ++ firstn n (reaching (f p) (sets p)) ++ skipn n (reaching (f p) (sets p))) by (rewrite firstn_skipn; exact E).
      rewrite E2, concat_app, concat_app in SO. fold run in SO. intros s IS. rewrite E2 in IS. apply in_app_iff in IS as [IS|IS]; [|apply in_app_iff in IS as [IS|IS]].
      + left. intros om J. assert (fst om < fst y1); [|lia]. eapply in_sorted_split; [exact SO|apply in_concat; eauto|apply in_app_iff; now left].
      + left. intros om J. assert (JR : In om run) by (apply in_concat; eauto). assert (ML : exists r', map fst run = r' ++ [o1]) by (exists (rev r); apply (f_equal (@rev _)) in EV; rewrite rev_involutive in EV; exact EV).
        destruct ML as (r' & ML). rewrite map_app, map_app in SO. destruct (ss_app _ _ SO) as [SO2 _]. rewrite ML, <- app_assoc in SO2. destruct (ss_app _ _ SO2) as [_ H]. apply (in_map fst) in JR. rewrite ML in JR. apply in_app_iff in JR as [JR|[JR|[]]]; [|lia]. specialize (H _ o1 JR (or_introl eq_refl)). lia.
      + right. intros om J. assert (fst y1 < fst om); [|lia]. rewrite app_assoc in SO. eapply in_sorted_split; [exact SO|apply in_app_iff; right; exact I1|apply in_concat; eauto].
  Qed.
End Sets.

(** * C76 Messages kept in compressed sets *)
(** Nothing is left out: every readable message between the position at the start and the position reached was delivered,
    and only messages of the log were.  Missing for the English claim: that nothing is delivered twice and nothing before
    the position (refuted below). *)
Theorem C76_nothing_skipped_partial {V} (cfg : config V) t sets s0 ls :
  md cfg = Single -> reachable cfg s0 -> (forall p, is_log (stored sets p)) -> In t (c_synced s0) -> ~ busy s0 t -> each_step cfg (orderly_sets t sets) ls s0 ->
  let s := crun cfg ls s0 in none_raised t s0 s ->
  exists D pending,
    filter (truthy cfg) (values D) = returned t s0 s ++ pending /\ (~ busy s t -> pending = []) /\
    forall p, (forall o v, In (o, v) (of_partition p D) -> In (o, v) (readable cfg (stored sets p))) /\
      (forall o v, In (o, v) (readable cfg (between (position s0 t p) (position s t p) (stored sets p))) -> In (o, v) (of_partition p D)) /\
      position s t p = one_past_last (map fst (of_partition p D)) (position s0 t p).
Proof.
  intros SG R LOG SY NB OR s NR. pose proof (reach_inv cfg s0 R) as I0.
  destruct (follows_run cfg t s0 (serves_sets t sets) (covered cfg t sets s0) (covered_ext cfg t sets s0) (sets_fetch t sets) (fun _ _ _ _ _ _ H => H) (or_introl SG) (covered_step cfg t sets s0 LOG) ls SG [] s0
    (follows_start cfg t s0 (covered cfg t sets s0) (covered_start cfg t sets s0) I0 SY NB) OR NR) as (D & F). exists D.
  assert (L : forall p, (forall o v, In (o, v) (of_partition p D) -> In (o, v) (readable cfg (stored sets p))) /\
      (forall o v, In (o, v) (readable cfg (between (position s0 t p) (position s t p) (stored sets p))) -> In (o, v) (of_partition p D)) /\
      position s t p = one_past_last (map fst (of_partition p D)) (position s0 t p)).
  { intros p. destruct (f_log _ _ _ _ _ _ F p) as (A & (high & LE & CO) & P). split; [exact A|]. split; [|exact P]. intros o v H. apply CO. apply in_rd in H as (m & H & E). apply in_rd. exists m. split; [|exact E]. apply filter_In in H as [H B]. apply filter_In. split; [exact H|]. cbn in B |- *. fold s in LE. lia. }
  destruct (busy_dec cfg t s (f_inv _ _ _ _ _ _ F)) as [B|B].
  - destruct B as (i & o & p & DD & OT). destruct (f_pc _ _ _ _ _ _ F i o p DD OT) as [_ G]. exists (held cfg p). split; [exact G|]. split; [|exact L]. intros N. destruct N. now exists i, o, p.
  - exists []. rewrite app_nil_r. split; [now apply (f_free _ _ _ _ _ _ F)|]. auto.
Qed.
(** When every message can be deserialised and the consumer starts between two sets, the sets make no difference: each
    message from the start on is delivered once and in order, as in C37. *)
Theorem C76_whole_sets_partial {V} (cfg : config V) t sets s0 ls :
  md cfg = Single -> reachable cfg s0 -> (forall p, is_log (stored sets p)) -> In t (c_synced s0) -> ~ busy s0 t -> each_step cfg (orderly_sets t sets) ls s0 ->
  (forall p o m, In (o, m) (stored sets p) -> exists v, deser cfg (msg_value m) = Ok v) -> (forall p, between_sets sets p (position s0 t p)) ->
  let s := crun cfg ls s0 in none_raised t s0 s ->
  exists D pending,
    filter (truthy cfg) (values D) = returned t s0 s ++ pending /\ (~ busy s t -> pending = []) /\
    forall p, of_partition p D = readable cfg (between (position s0 t p) (position s t p) (stored sets p)) /\
      position s t p = one_past_last (map fst (of_partition p D)) (position s0 t p) /\ between_sets sets p (position s t p).
Proof.
  intros SG R LOG SY NB OR ALL BS s NR. pose proof (reach_inv cfg s0 R) as I0.
  destruct (follows_run cfg t s0 (serves_sets t sets) (at_sets cfg t sets s0) (at_sets_ext cfg t sets s0) (sets_fetch t sets) (fun _ _ _ _ _ _ H => H) (or_introl SG) (at_sets_step cfg t sets s0 LOG ALL) ls SG [] s0
    (follows_start cfg t s0 (at_sets cfg t sets s0) (conj (in_log_start cfg t (stored sets) s0) BS) I0 SY NB) OR NR) as (D & F). exists D.
  assert (L : forall p, of_partition p D = readable cfg (between (position s0 t p) (position s t p) (stored sets p)) /\
      position s t p = one_past_last (map fst (of_partition p D)) (position s0 t p) /\ between_sets sets p (position s t p)).
  { intros p. destruct (f_log _ _ _ _ _ _ F) as [A B]. destruct (A p) as (_ & A1 & A2). split; [exact A1|]. split; [exact A2|]. apply B. }
  destruct (busy_dec cfg t s (f_inv _ _ _ _ _ _ F)) as [B|B].
  - destruct B as (i & o & p & DD & OT). destruct (f_pc _ _ _ _ _ _ F i o p DD OT) as [_ G]. exists (held cfg p). split; [exact G|]. split; [|exact L]. intros N. destruct N. now exists i, o, p.
  - exists []. rewrite app_nil_r. split; [now apply (f_free _ _ _ _ _ _ F)|]. auto.
Qed.

(** ** a case of the theorems: broker 1 keeps partition 0 in three sets, broker 2 keeps partition 1 in one *)
Definition ex_sets (p : Z) : list (list (Z * pymsg)) := if p =? 0 then [[(3, msg 1); (4, msg 9)]; [(5, msg 2); (6, msg 3)]; [(8, msg 4)]] else [[(7, msg 5); (8, msg 6)]].
Definition ex_set_calls : list label :=
  [Call 2 (OpConsume tt_ None); Arrive 2 2 (Ok (PFetch [(tt_, [(1, (6, []))])])); Arrive 2 1 (Ok (PFetch [(tt_, [(0, (0, [(5, msg 2); (6, msg 3)]))])])); Healed 2 (Ok tt);
   Call 3 (OpConsume tt_ None); Arrive 3 1 (Ok (PFetch [(tt_, [(0, (0, [(8, msg 4)]))])])); Arrive 3 2 (Ok (PFetch [(tt_, [(1, (0, [(7, msg 5); (8, msg 6)]))])]))].
Ltac set_answer o n := intros rq (o_ & k_ & w_ & rs_ & H & W) _; vm_compute in H; injection H as <- <- <- <-; vm_compute in W; injection W as <-; cbn; split; [reflexivity|]; intros _; split; [repeat constructor; intros []|];
  intros p code ms [X|[]]; injection X as <- <- <-; split; [discriminate|]; first [discriminate | intros _; exists o, 1000, n; split; [now left|reflexivity]].
Ltac set_idle := intros _ (i & o & p & H & _); vm_compute in H; discriminate H.
Example C76_example : let s := crun (ex_cfg Single) ex_set_calls ex_idle in
  reachable (ex_cfg Single) ex_idle /\ (forall p, is_log (stored ex_sets p)) /\ In tt_ (c_synced ex_idle) /\ ~ busy ex_idle tt_ /\ each_step (ex_cfg Single) (orderly_sets tt_ ex_sets) ex_set_calls ex_idle /\
  (forall p o m, In (o, m) (stored ex_sets p) -> exists v, deser (ex_cfg Single) (msg_value m) = Ok v) /\ (forall p, between_sets ex_sets p (position ex_idle tt_ p)) /\
  none_raised tt_ ex_idle s /\ ~ busy s tt_ /\ returned tt_ ex_idle s = [2; 3; 4; 5; 6] /\ position s tt_ 0 = 9 /\ position s tt_ 1 = 9.
Proof.
  cbv zeta. split; [exact ex_idle_reach|]. split; [intros p; unfold stored, ex_sets; destruct (p =? 0); split; cbn; repeat constructor; lia|]. split; [exact ex_idle_synced|]. split; [exact ex_idle_free|]. split; [|split; [|split; [|split; [|split; [intros (i & o & p & H & _); vm_compute in H; discriminate H|vm_compute; auto]]]]].
  - cbn [each_step ex_set_calls orderly_sets]. split; [set_idle|]. split; [set_answer 7 1%nat|]. split; [set_answer 5 1%nat|]. split; [exact I|]. split; [set_idle|]. split; [set_answer 7 2%nat|]. split; [set_answer 7 1%nat|]. exact I.
  - intros p o m H. unfold stored, ex_sets in H. destruct (p =? 0); cbn in H; repeat (destruct H as [H|H]; [injection H as <- <-; eexists; reflexivity|]); destruct H.
  - intros p s H. assert (P : position ex_idle tt_ p = if p =? 0 then 5 else if p =? 1 then 7 else 0).
    { unfold position. replace (dget (c_offsets ex_idle) tt_) with (Some [(0, 5); (1, 7)]) by (vm_compute; reflexivity). cbn. destruct (Z.eqb_spec p 0) as [->|]; [reflexivity|]. destruct (Z.eqb_spec p 1) as [->|]; [reflexivity|]. now destruct p as [|[| |]|]. }
    rewrite P. clear P. unfold ex_sets in H. destruct (p =? 0); [|destruct (p =? 1)]; cbn in H; repeat (destruct H as [<-|H]; [first [left; intros om J; cbn in J; repeat (destruct J as [<-|J]; [cbn; lia|]); now destruct J|right; intros om J; cbn in J; repeat (destruct J as [<-|J]; [cbn; lia|]); now destruct J]|]); destruct H.
  - intros i o e H. vm_compute in H. destruct H as [H|[H|[]]]; discriminate H.
Qed.

(** ** The claim is false as it stands *)
(** First: a consumer whose position lies inside a set (here 5, as committed by it or by another consumer) is given the
    whole set, and returns the messages before its position too. *)
Theorem C76_again_refuted : exists (cfg : config Z) s ls sets, md cfg = Single /\ reachable cfg s /\ (forall p, is_log (stored sets p)) /\ In tt_ (c_synced s) /\ ~ busy s tt_ /\ each_step cfg (orderly_sets tt_ sets) ls s /\
  let s' := crun cfg ls s in none_raised tt_ s s' /\ ~ busy s' tt_ /\ position s tt_ 0 = 5 /\ position s' tt_ 0 = 6 /\
  readable cfg (between 5 6 (stored sets 0)) = [(5, 3)] /\ returned tt_ s s' = [1; 2; 3].
Proof.
  exists (ex_cfg Single), ex_idle, [Call 2 (OpConsume tt_ None); Arrive 2 1 (Ok (PFetch [(tt_, [(0, (0, [(3, msg 1); (4, msg 2); (5, msg 3)]))])])); Arrive 2 2 (Err EStreamClosed)], (fun p => if p =? 0 then [[(3, msg 1); (4, msg 2); (5, msg 3)]] else []).
  split; [reflexivity|]. split; [exact ex_idle_reach|]. split; [intros p; unfold stored; destruct (p =? 0); split; cbn; repeat constructor; lia|]. split; [exact ex_idle_synced|]. split; [exact ex_idle_free|]. split.
  - cbn [each_step orderly_sets]. split; [set_idle|]. split; [set_answer 5 1%nat|]. split; exact I.
  - cbv zeta. split; [intros i o e H; vm_compute in H; destruct H as [H|[]]; discriminate H|]. split; [intros (i & o & p & H & _); vm_compute in H; discriminate H|]. vm_compute. auto 6.
Qed.
(** Second: when the last message of a set cannot be deserialised the position stays inside the set for good, and every
    call returns the readable messages of the set once more: [n] calls return them [n] times. *)
Definition ex_tail_sets (p : Z) : list (list (Z * pymsg)) := if p =? 0 then [[(5, msg 1); (6, msg 2); (7, bad)]] else [].
Definition ex_tail_call : list label := [Call 2 (OpConsume tt_ None); Arrive 2 1 (Ok (PFetch [(tt_, [(0, (0, [(5, msg 1); (6, msg 2); (7, bad)]))])])); Arrive 2 2 (Ok (PFetch [(tt_, [(1, (0, []))])]))].
Fixpoint calls (n : nat) : list label := match n with O => [] | S n => ex_tail_call ++ calls n end.
Definition with_books (w : list (Z * request)) (e : list (Z * op * res (rv Z))) (s : consumer Z) : consumer Z :=
  Cons (c_offsets s) (c_synced s) (c_heal s) (c_closing s) (c_cluster s) (c_coord s) (c_alloc s) (c_tocommit s) (c_calls s) w e.
Definition ex_stuck : consumer Z := crun (ex_cfg Single) ex_tail_call ex_idle.
Lemma stuck_call w e : exists w', crun (ex_cfg Single) ex_tail_call (with_books w e ex_stuck) = with_books w' (e ++ [(2, OpConsume tt_ None, Ok (RvList [1; 2]))]) ex_stuck.
Proof. eexists. vm_compute. reflexivity. Qed.
Lemma stuck_orderly w e : each_step (ex_cfg Single) (orderly_sets tt_ ex_tail_sets) ex_tail_call (with_books w e ex_stuck).
Proof. cbn [each_step ex_tail_call orderly_sets]. split; [set_idle|]. split; [set_answer 7 1%nat|]. split; [set_answer 7 0%nat|]. exact I. Qed.
Lemma each_step_app {V} (cfg : config V) P a b : forall s, each_step cfg P a s -> each_step cfg P b (crun cfg a s) -> each_step cfg P (a ++ b) s.
Proof. induction a as [|l a IH]; intros s H1 H2; [exact H2|]. destruct H1 as [A B]. split; [exact A|]. apply IH; [exact B|exact H2]. Qed.
Lemma calls_run_ cfg P (b : consumer Z) x : (forall w e, exists w', crun cfg ex_tail_call (with_books w e b) = with_books w' (e ++ [x]) b) -> (forall w e, each_step cfg P ex_tail_call (with_books w e b)) ->
  forall n w e, exists w', crun cfg (calls n) (with_books w e b) = with_books w' (e ++ repeat x n) b /\ each_step cfg P (calls n) (with_books w e b).
Proof.
  intros RUN STEP. induction n as [|n IH]; intros w e; [exists w; cbn [calls repeat]; rewrite app_nil_r; split; [reflexivity|exact I]|]. destruct (RUN w e) as (w1 & E). destruct (IH w1 (e ++ [x])) as (w2 & R & O). exists w2.
  cbn [calls repeat]. split.
  - unfold crun in *. rewrite fold_left_app, E, R, <- app_assoc. reflexivity.
  - apply each_step_app; [apply STEP|]. rewrite E. exact O.
Qed.
Lemma calls_run n w e : exists w', crun (ex_cfg Single) (calls n) (with_books w e ex_stuck) = with_books w' (e ++ repeat (2, OpConsume tt_ None, Ok (RvList [1; 2])) n) ex_stuck /\
  each_step (ex_cfg Single) (orderly_sets tt_ ex_tail_sets) (calls n) (with_books w e ex_stuck).
Proof. exact (calls_run_ (ex_cfg Single) (orderly_sets tt_ ex_tail_sets) ex_stuck _ stuck_call stuck_orderly n w e). Qed.
Lemma with_own (b : consumer Z) : with_books (c_wire b) (c_ended b) b = b.
Proof. now destruct b. Qed.
Theorem C76_endless_refuted : exists (cfg : config Z) s sets, md cfg = Single /\ reachable cfg s /\ (forall p, is_log (stored sets p)) /\ In tt_ (c_synced s) /\ ~ busy s tt_ /\ position s tt_ 0 = 7 /\
  readable cfg (stored sets 0) = [(5, 1); (6, 2)] /\
  forall n, each_step cfg (orderly_sets tt_ sets) (calls n) s /\
    let s' := crun cfg (calls n) s in none_raised tt_ s s' /\ ~ busy s' tt_ /\ position s' tt_ 0 = 7 /\ returned tt_ s s' = concat (repeat [1; 2] n).
Proof.
  exists (ex_cfg Single), ex_stuck, ex_tail_sets. split; [reflexivity|]. split.
  { destruct ex_idle_reach as (k & name & ls & E). exists k, name, (ls ++ ex_tail_call). unfold ex_stuck. rewrite E. unfold crun. now rewrite fold_left_app. }
  split; [intros p; unfold stored, ex_tail_sets; destruct (p =? 0); split; cbn; repeat constructor; lia|]. split; [vm_compute; now left|]. split; [intros (i & o & p & H & _); vm_compute in H; discriminate H|]. split; [reflexivity|]. split; [reflexivity|].
  intros n. destruct (calls_run n (c_wire ex_stuck) (c_ended ex_stuck)) as (w' & R & O). rewrite (with_own ex_stuck) in R, O. split; [exact O|]. cbv zeta. rewrite R.
  assert (ES : ended_since ex_stuck (with_books w' (c_ended ex_stuck ++ repeat (2, OpConsume tt_ None, Ok (RvList [1; 2])) n) ex_stuck) = repeat (2, OpConsume tt_ None, Ok (RvList [1; 2])) n).
  { unfold ended_since, with_books. cbn [c_ended]. rewrite skipn_app, skipn_all, Nat.sub_diag. reflexivity. }
  split; [intros i o e H; rewrite ES in H; apply repeat_spec in H; discriminate H|]. split; [intros (i & o & p & H & _); vm_compute in H; discriminate H|]. split; [reflexivity|].
  unfold returned. rewrite ES. clear. induction n as [|n IH]; [reflexivity|]. cbn [repeat flat_map concat]. rewrite IH. reflexivity.
Qed.
(** Third: the position can move backwards, when the messages from it on cannot be deserialised and one before it can. *)
Theorem C76_backwards_refuted : exists (cfg : config Z) s ls sets, md cfg = Single /\ reachable cfg s /\ (forall p, is_log (stored sets p)) /\ In tt_ (c_synced s) /\ ~ busy s tt_ /\ each_step cfg (orderly_sets tt_ sets) ls s /\
  let s' := crun cfg ls s in none_raised tt_ s s' /\ ~ busy s' tt_ /\ position s tt_ 0 = 5 /\ position s' tt_ 0 = 4 /\ returned tt_ s s' = [1].
Proof.
  exists (ex_cfg Single), ex_idle, [Call 2 (OpConsume tt_ None); Arrive 2 1 (Ok (PFetch [(tt_, [(0, (0, [(3, msg 1); (4, bad); (5, bad)]))])])); Arrive 2 2 (Err EStreamClosed)], (fun p => if p =? 0 then [[(3, msg 1); (4, bad); (5, bad)]] else []).
  split; [reflexivity|]. split; [exact ex_idle_reach|]. split; [intros p; unfold stored; destruct (p =? 0); split; cbn; repeat constructor; lia|]. split; [exact ex_idle_synced|]. split; [exact ex_idle_free|]. split.
  - cbn [each_step orderly_sets]. split; [set_idle|]. split; [set_answer 5 1%nat|]. split; exact I.
  - cbv zeta. split; [intros i o e H; vm_compute in H; destruct H as [H|[]]; discriminate H|]. split; [intros (i & o & p & H & _); vm_compute in H; discriminate H|]. vm_compute. auto 6.
Qed.
Print Assumptions C76_nothing_skipped_partial.
Print Assumptions C76_whole_sets_partial.
Print Assumptions C76_again_refuted.
Print Assumptions C76_endless_refuted.
Print Assumptions C76_backwards_refuted.
