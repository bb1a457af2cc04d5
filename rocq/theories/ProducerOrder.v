(** What a flush sends, and in which order (proof file). *)
From Coq Require Import ZArith String List Bool Lia Permutation.
From Verif Require Import PyBase BaseLemmas Constants Cluster ClusterProofs Producer SpecProducer ProducerProofs.
Import ListNotations.
Open Scope Z_scope.

Definition tabs (k k' : cluster) : Prop :=
  k_conns k' = k_conns k /\ (forall t, partitions_of k' t = partitions_of k t) /\ (forall t p, leader_for k' t p = leader_for k t p).
Lemma tabs_refl k : tabs k k.
Proof. repeat split. Qed.
Lemma tabs_trans a b c : tabs a b -> tabs b c -> tabs a c.
Proof. intros (A & B & C) (A' & B' & C'). split; [congruence|]. split; intros; [now rewrite B'|now rewrite C']. Qed.
Lemma text_eqb_refl (t : text) : list_eqb t t = true.
Proof. now apply list_eqb_spec. Qed.
Lemma text_eqb_neq (a b : text) : list_eqb a b = false <-> a <> b.
Proof.
  split; [intros H ->; now rewrite text_eqb_refl in H|]. intros N. destruct (list_eqb a b) eqn:E; [|reflexivity].
  apply list_eqb_spec in E. contradiction.
Qed.

Lemma topic_partitions_tabs t k : fst (topic_partitions t k) = partitions_of k t /\ tabs k (snd (topic_partitions t k)).
Proof.
  unfold topic_partitions. pose proof (ddefault_set ([] : list Z) (k_topics k) t []) as [_ E].
  pose proof (ddefault_get ([] : list Z) (k_topics k) t) as G.
  destruct (@ddefault text (list Z) _ [] (k_topics k) t) as [ps tt']. cbn [fst snd] in *.
  split; [exact E|]. split; [reflexivity|]. split; [|reflexivity]. intros t'. unfold partitions_of. cbn [k_topics]. apply G.
Qed.
Lemma get_leader_tabs t p k :
  fst (get_leader t p k) = match leader_for k t p with Some l => Ok l | None => Err EKey end /\ tabs k (snd (get_leader t p k)).
Proof.
  unfold get_leader. pose proof (ddefault_set ([] : dict Z Z) (k_leaders k) t []) as [_ E].
  pose proof (ddefault_get ([] : dict Z Z) (k_leaders k) t) as G.
  destruct (@ddefault text (dict Z Z) _ [] (k_leaders k) t) as [d ld]. cbn [fst snd] in *. split.
  - unfold leader_for, dindex. rewrite E. unfold getd. destruct (dget (k_leaders k) t) as [d0|]; [|reflexivity]. now destruct (dget d0 p).
  - split; [reflexivity|]. split; [reflexivity|]. intros t' p'. unfold leader_for. cbn [k_leaders]. specialize (G t'). unfold getd in G.
    destruct (dget ld t') as [d1|], (dget (k_leaders k) t') as [d2|]; subst; reflexivity.
Qed.

Definition olook (o : ordered) (l : Z) (t : text) (p : Z) : list pmsg := @getd Z (list pmsg) _ [] (slook o l t) p.
Lemma olook_add o l t p m l' t' p' :
  olook (add_ordered o l t p m) l' t' p' = olook o l' t' p' ++ (if (l' =? l) && list_eqb t' t && (p' =? p) then [m] else []).
Proof.
  unfold add_ordered, olook, slook.
  pose proof (ddefault_set ([] : batch) o l) as S1. destruct (@ddefault Z batch _ [] o l) as [b o1]. cbn [fst snd] in S1.
  pose proof (ddefault_set ([] : dict Z (list pmsg)) b t) as S2. destruct (@ddefault text (dict Z (list pmsg)) _ [] b t) as [d b1].
  cbn [fst snd] in S2. pose proof (ddefault_set ([] : list pmsg) d p) as S3. destruct (@ddefault Z (list pmsg) _ [] d p) as [ms d1].
  cbn [fst snd] in S3. rewrite (proj1 (S1 _)), (proj1 (S2 _)), (proj1 (S3 _)).
  destruct (Z.eqb_spec l' l) as [->|N]; cbn [andb].
  2:{ unfold getd at 3. rewrite dget_dset_other by assumption. now rewrite app_nil_r. }
  unfold getd at 3. rewrite dget_dset_same. rewrite <- (proj2 (S1 [])). destruct (list_eqb t' t) eqn:Et; cbn [andb].
  2:{ apply text_eqb_neq in Et. unfold getd at 2. rewrite dget_dset_other by assumption. now rewrite app_nil_r. }
  apply list_eqb_spec in Et. subst t'. unfold getd at 2. rewrite dget_dset_same. rewrite <- (proj2 (S2 [])).
  destruct (Z.eqb_spec p' p) as [->|N].
  - unfold getd at 1. rewrite dget_dset_same. now rewrite (proj2 (S3 [])).
  - unfold getd at 1. rewrite dget_dset_other by assumption. now rewrite app_nil_r.
Qed.

Definition leads (k : cluster) (t : text) (p l : Z) : bool := match leader_for k t p with Some l' => l =? l' | None => false end.
Lemma goes_tabs part k k' t p m : tabs k k' -> goes_to part k' t p m = goes_to part k t p m.
Proof. intros (A & B & C). unfold goes_to, connected. rewrite B, A. destruct (part m _); [now rewrite C|reflexivity]. Qed.
Lemma leaderless_tabs part k k' t m : tabs k k' -> leaderless part k' t m = leaderless part k t m.
Proof. intros (A & B & C). unfold leaderless, connected. rewrite B, A. destruct (part m _); [now rewrite C|reflexivity]. Qed.
Lemma leads_tabs k k' t p l : tabs k k' -> leads k' t p l = leads k t p l.
Proof. intros (A & B & C). unfold leads. now rewrite C. Qed.
Lemma lookup_tabs part k k' t m : tabs k k' -> lookup_ok part k' t m <-> lookup_ok part k t m.
Proof. intros (A & B & C). unfold lookup_ok. rewrite B. split; intros (p & l & E & F); exists p, l; (split; [exact E|]); congruence. Qed.

Definition rlook (retry : dict text (list pmsg)) (t : text) : list pmsg := @getd text (list pmsg) _ [] retry t.
Lemma rlook_add (retry : dict text (list pmsg)) t q r1 m t' : @ddefault text (list pmsg) _ [] retry t = (q, r1) ->
  rlook (dset r1 t (q ++ [m])) t' = rlook retry t' ++ (if list_eqb t' t then [m] else []).
Proof.
  intros D. pose proof (ddefault_set ([] : list pmsg) retry t) as S1. rewrite D in S1. cbn [fst snd] in S1.
  rewrite (proj1 (S1 _)), (proj2 (S1 [])). unfold rlook. unfold getd at 1. destruct (list_eqb t' t) eqn:Et.
  - apply list_eqb_spec in Et. subst. now rewrite dget_dset_same.
  - apply text_eqb_neq in Et. rewrite dget_dset_other by assumption. now rewrite app_nil_r.
Qed.
Lemma retry_nd (retry : dict text (list pmsg)) t q r1 m : @ddefault text (list pmsg) _ [] retry t = (q, r1) -> NoDup (dkeys retry) ->
  NoDup (dkeys (dset r1 t (q ++ [m]))).
Proof.
  intros D N. pose proof (ddefault_set ([] : list pmsg) retry t) as S1. rewrite D in S1. cbn [fst snd] in S1.
  rewrite (proj1 (S1 _)). now apply nodup_dset.
Qed.

Lemma order_msgs_look part t msgs : forall o retry k r k',
  order_msgs part t msgs o retry k = (r, k') -> tabs k k' /\
  match r with
  | Ok (o', retry') => (forall m, In m msgs -> lookup_ok part k t m) /\
      (forall l t' p, olook o' l t' p = olook o l t' p ++ (if list_eqb t' t && leads k t p l then filter (goes_to part k t p) msgs else [])) /\
      (forall t', rlook retry' t' = rlook retry t' ++ (if list_eqb t' t then filter (leaderless part k t) msgs else [])) /\
      (NoDup (dkeys retry) -> NoDup (dkeys retry'))
  | Err _ => ~ (forall m, In m msgs -> lookup_ok part k t m)
  end.
Proof.
  induction msgs as [|m msgs IH]; intros o retry k r k' H; cbn [order_msgs] in H.
  - injection H as <- <-. split; [apply tabs_refl|]. split; [intros ? []|]. cbn [filter].
    split; [intros; now destruct (_ && _); rewrite app_nil_r|]. split; [intros; now destruct (list_eqb _ _); rewrite app_nil_r|auto].
  - destruct (topic_partitions_tabs t k) as [E1 T1]. destruct (topic_partitions t k) as [ps k1]. cbn [fst snd] in *. subst ps.
    destruct (part m (partitions_of k t)) as [p0|e] eqn:Ep.
    2:{ injection H as <- <-. split; [exact T1|]. intros A. destruct (A m) as (p & l & B & _); [now left|]. congruence. }
    destruct (get_leader_tabs t p0 k1) as [E2 T2]. destruct (get_leader t p0 k1) as [rl k2]. cbn [fst snd] in *.
    pose proof (tabs_trans _ _ _ T1 T2) as T. rewrite (proj2 (proj2 T1)) in E2.
    destruct (leader_for k t p0) as [l0|] eqn:El; subst rl.
    2:{ injection H as <- <-. split; [exact T|]. intros A. destruct (A m) as (p & l & B & C); [now left|]. congruence. }
    assert (EC : dmem (k_conns k2) l0 = connected k l0) by (unfold connected; now rewrite (proj1 T)). rewrite EC in H.
    assert (LM : lookup_ok part k t m) by (exists p0, l0; split; assumption).
    assert (GM : forall p, goes_to part k t p m = (p0 =? p) && connected k l0) by (intros p; unfold goes_to; now rewrite Ep, El).
    assert (LL : leaderless part k t m = negb (connected k l0)) by (unfold leaderless; now rewrite Ep, El).
    destruct (connected k l0) eqn:Ec; cbn [negb] in H.
    + apply IH in H as [T3 H]. split; [now apply tabs_trans with k2|]. destruct r as [[o' retry']|e].
      * destruct H as (H1 & H2 & H3 & H4). split; [intros x [<-|Hx]; [exact LM|]; apply (lookup_tabs _ _ _ _ _ T); auto|].
        split; [|split; [|exact H4]].
        -- intros l t' p. rewrite H2, olook_add, <- app_assoc, (leads_tabs _ _ _ _ _ T). f_equal.
           rewrite (filter_ext _ _ (fun x => goes_tabs part k k2 t p x T)). cbn [filter]. rewrite GM.
           destruct (list_eqb t' t) eqn:Et; cbn [andb]; [|now rewrite andb_false_r].
           rewrite !andb_true_r. rewrite (Z.eqb_sym p0 p). destruct (Z.eqb_spec p p0) as [->|N].
           ++ unfold leads. rewrite El. destruct (l =? l0); reflexivity.
           ++ rewrite andb_false_r. reflexivity.
        -- intros t'. rewrite H3. rewrite (filter_ext _ _ (fun x => leaderless_tabs part k k2 t x T)). cbn [filter]. now rewrite LL.
      * intros A. apply H. intros x Hx. apply (lookup_tabs _ _ _ _ _ T). apply A. now right.
    + destruct (@ddefault text (list pmsg) _ [] retry t) as [q r1] eqn:D.
      apply IH in H as [T3 H]. split; [now apply tabs_trans with k2|]. destruct r as [[o' retry']|e].
      * destruct H as (H1 & H2 & H3 & H4). split; [intros x [<-|Hx]; [exact LM|]; apply (lookup_tabs _ _ _ _ _ T); auto|].
        split; [|split].
        -- intros l t' p. rewrite H2, (leads_tabs _ _ _ _ _ T). f_equal.
           rewrite (filter_ext _ _ (fun x => goes_tabs part k k2 t p x T)). cbn [filter]. rewrite GM, andb_false_r. reflexivity.
        -- intros t'. rewrite H3, (rlook_add _ _ _ _ _ _ D), <- app_assoc. f_equal.
           rewrite (filter_ext _ _ (fun x => leaderless_tabs part k k2 t x T)). cbn [filter]. rewrite LL. now destruct (list_eqb t' t).
        -- intros N. apply H4. now apply retry_nd with retry.
      * intros A. apply H. intros x Hx. apply (lookup_tabs _ _ _ _ _ T). apply A. now right.
Qed.

Lemma order_topics_look part items : forall o retry k r rest k', NoDup (dkeys items) ->
  order_topics part items o retry k = (r, rest, k') -> tabs k k' /\
  match r with
  | Ok (o', retry') => (forall t m, In m (rlook items t) -> lookup_ok part k t m) /\
      (forall l t p, olook o' l t p = olook o l t p ++ (if leads k t p l then filter (goes_to part k t p) (rlook items t) else [])) /\
      (forall t, rlook retry' t = rlook retry t ++ filter (leaderless part k t) (rlook items t)) /\
      (NoDup (dkeys retry) -> NoDup (dkeys retry'))
  | Err _ => ~ (forall t m, In m (rlook items t) -> lookup_ok part k t m)
  end.
Proof.
  induction items as [|[t0 msgs] items IH]; intros o retry k r rest k' N H; cbn [order_topics] in H.
  - injection H as <- <- <-. split; [apply tabs_refl|]. split; [intros ? ? []|]. cbn [filter].
    split; [intros; now destruct (leads _ _ _ _); rewrite app_nil_r|]. split; [intros; now rewrite app_nil_r|auto].
  - cbn [dkeys map fst] in N. inversion N as [|? ? N1 N2]; subst.
    assert (RL : forall t, rlook ((t0, msgs) :: items) t = if list_eqb t t0 then msgs else rlook items t).
    { intros t. unfold rlook, getd. cbn [dget]. change (eqb t0 t) with (list_eqb t0 t). destruct (list_eqb t0 t) eqn:E.
      - apply list_eqb_spec in E. subst. now rewrite text_eqb_refl.
      - destruct (list_eqb t t0) eqn:E'; [|reflexivity]. apply list_eqb_spec in E'. subst. now rewrite text_eqb_refl in E. }
    assert (R0 : rlook items t0 = []).
    { unfold rlook, getd. apply (dget_None_notin items t0) in N1. now rewrite N1. }
    destruct (order_msgs part t0 msgs o retry k) as [[[o1 r1]|e] k1] eqn:E; apply order_msgs_look in E as [T E].
    + destruct E as (E1 & E2 & E3 & E4). apply IH in H as [T2 H]; [|exact N2]. split; [now apply tabs_trans with k1|].
      destruct r as [[o' retry']|e].
      * destruct H as (H1 & H2 & H3 & H4). split; [|split; [|split; [|auto]]].
        -- intros t m Hm. rewrite RL in Hm. destruct (list_eqb t t0) eqn:Et.
           ++ apply list_eqb_spec in Et. subst. auto.
           ++ apply (lookup_tabs _ _ _ _ _ T). auto.
        -- intros l t p. rewrite H2, E2, <- app_assoc, (leads_tabs _ _ _ _ _ T), RL. f_equal.
           rewrite (filter_ext _ _ (fun x => goes_tabs part k k1 t p x T)). destruct (list_eqb t t0) eqn:Et; cbn [andb app]; [|reflexivity].
           apply list_eqb_spec in Et. subst t. rewrite R0. cbn [filter]. now destruct (leads k t0 p l); rewrite ?app_nil_r.
        -- intros t. rewrite H3, E3, <- app_assoc, RL. f_equal.
           rewrite (filter_ext _ _ (fun x => leaderless_tabs part k k1 t x T)). destruct (list_eqb t t0) eqn:Et; cbn [app]; [|reflexivity].
           apply list_eqb_spec in Et. subst t. rewrite R0. cbn [filter]. now rewrite app_nil_r.
      * intros A. apply H. intros t m Hm. apply (lookup_tabs _ _ _ _ _ T). apply A. rewrite RL. destruct (list_eqb t t0) eqn:Et; [|exact Hm].
        apply list_eqb_spec in Et. subst t. rewrite R0 in Hm. destruct Hm.
    + injection H as <- <- <-. split; [exact T|]. intros A. apply E. intros m Hm. apply A. rewrite RL, text_eqb_refl. exact Hm.
Qed.

Lemma rlook_rev (u : dict text (list pmsg)) t : NoDup (dkeys u) -> rlook (rev u) t = rlook u t.
Proof.
  intros N. unfold rlook, getd. destruct (dget u t) as [q|] eqn:E.
  - apply dget_In in E. rewrite (In_dget_nodup (rev u) t q); [reflexivity| |].
    + rewrite dkeys_rev. now apply nodup_rev.
    + now apply in_rev in E.
  - apply dget_None_notin in E. destruct (dget (rev u) t) as [q|] eqn:E'; [|reflexivity]. apply dget_In in E'. apply in_rev in E'.
    exfalso. apply E. apply (in_map fst) in E'. exact E'.
Qed.

(** carried messages *)
Definition carried_in (b : batch) (t : text) (p : Z) : list pmsg :=
  flat_map (fun tp => if list_eqb (fst tp) t then flat_map (fun pm => if fst pm =? p then snd pm else []) (snd tp) else []) b.
Lemma carried_parts (d : dict Z (list pmsg)) p : NoDup (dkeys d) ->
  flat_map (fun pm => if fst pm =? p then snd pm else []) d = @getd Z (list pmsg) _ [] d p.
Proof.
  intros N. induction d as [|[q ms] d IH]; [reflexivity|]. cbn [dkeys map fst] in N. inversion N as [|? ? N1 N2]; subst.
  cbn [flat_map fst snd]. unfold getd. cbn [dget]. change (eqb q p) with (q =? p). rewrite IH by assumption.
  destruct (Z.eqb_spec q p) as [->|Ne]; [|reflexivity]. apply (dget_None_notin d p) in N1. unfold getd. now rewrite N1, app_nil_r.
Qed.
Lemma carried_batch b t p : nd_batch b -> carried_in b t p = @getd Z (list pmsg) _ [] (@getd text (dict Z (list pmsg)) _ [] b t) p.
Proof.
  induction b as [|[t0 d] b IH]; [reflexivity|]. intros N. apply nd_batch_cons in N as (N1 & N2 & N3).
  unfold carried_in in *. cbn [flat_map fst snd]. rewrite (IH N3), carried_parts by assumption.
  assert (EC : @getd text (dict Z (list pmsg)) _ [] ((t0, d) :: b) t = if list_eqb t0 t then d else @getd text (dict Z (list pmsg)) _ [] b t).
  { unfold getd. cbn [dget]. change (eqb t0 t) with (list_eqb t0 t). now destruct (list_eqb t0 t). }
  rewrite EC. destruct (list_eqb t0 t) eqn:E; [|reflexivity].
  apply list_eqb_spec in E. subst t0. apply (dget_None_notin b t) in N2.
  assert (EN : @getd text (dict Z (list pmsg)) _ [] b t = []) by (unfold getd; now rewrite N2).
  rewrite EN. apply app_nil_r.
Qed.
Lemma carried_ordered o t p l0 : nd_ordered o -> (forall l, l <> l0 -> olook o l t p = []) ->
  flat_map (fun lb => carried_in (snd lb) t p) o = olook o l0 t p.
Proof.
  intros [N B]. induction o as [|[l b] o IH]; intros Z0; [reflexivity|].
  cbn [dkeys map fst] in N. inversion N as [|? ? N1 N2]; subst. cbn [flat_map snd]. rewrite (carried_batch b) by (apply (B l); now left).
  assert (OL : forall l', olook ((l, b) :: o) l' t p = if l =? l' then @getd Z (list pmsg) _ [] (@getd text (dict Z (list pmsg)) _ [] b t) p else olook o l' t p).
  { intros l'. unfold olook, slook. unfold getd at 3. cbn [dget]. change (eqb l l') with (l =? l'). now destruct (l =? l'). }
  assert (ON : olook o l t p = []).
  { unfold olook, slook. unfold getd at 3. apply (dget_None_notin o l) in N1. rewrite N1. reflexivity. }
  rewrite IH; [|exact N2|intros l' b' Hb; apply (B l'); now right|].
  - rewrite OL. destruct (Z.eqb_spec l l0) as [->|Ne]; [rewrite ON; now rewrite app_nil_r|].
    specialize (Z0 l Ne). rewrite OL, Z.eqb_refl in Z0. now rewrite Z0.
  - intros l' Ne. specialize (Z0 l' Ne). rewrite OL in Z0. destruct (Z.eqb_spec l l') as [El|_]; [rewrite <- El; exact ON|exact Z0].
Qed.
Lemma carried_map rqs t p : carried rqs t p = flat_map (fun lb => carried_in (snd lb) t p) (map (fun rq => (pq_leader rq, pq_topics rq)) rqs).
Proof. induction rqs as [|rq rqs IH]; [reflexivity|]. unfold carried in *. cbn [flat_map map snd]. now rewrite <- IH. Qed.

Lemma retries_queue retry : forall s t, NoDup (dkeys retry) ->
  queue_of (fold_left (fun s' tm => queue_retries (fst tm) (snd tm) s') retry s) t = queue_of s t ++ rlook retry t.
Proof.
  induction retry as [|[t0 ms] retry IH]; intros s t N; cbn [fold_left fst snd]; [now rewrite app_nil_r|].
  cbn [dkeys map fst] in N. inversion N as [|? ? N1 N2]; subst. rewrite (IH _ _ N2).
  destruct (queue_retries_spec t0 ms s) as (_ & _ & _ & _ & _ & _ & _ & _ & _ & _ & _ & _ & Q). rewrite Q.
  unfold rlook, getd. cbn [dget]. change (eqb t0 t) with (list_eqb t0 t). destruct (list_eqb t0 t) eqn:E.
  - apply list_eqb_spec in E. subst t0. rewrite text_eqb_refl. apply (dget_None_notin retry t) in N1. now rewrite N1, app_nil_r.
  - destruct (list_eqb t t0) eqn:E'; [|reflexivity]. apply list_eqb_spec in E'. subst. now rewrite text_eqb_refl in E.
Qed.

Section Flush.
  Variables acks timeout : Z.
  Variable compress_fails : list pmsg -> option exn.
  Variable serialize_fails : prequest -> option exn.
  Notation flush := (flush acks timeout compress_fails serialize_fails).

  Lemma flush_ok_inv part s rqs s' : flush part s = (Ok rqs, s') ->
    (p_unsent s = [] /\ rqs = [] /\ s' = s) \/
    exists o retry rest k1 corr sent s3 wire,
      order_topics part (drain_items (p_unsent s)) [] [] (p_cluster s) = (Ok (o, retry), rest, k1) /\
      build_requests acks timeout compress_fails o (p_corr s) [] (p_sent s) = (Ok rqs, corr, sent) /\
      s3 = fold_left (fun s' tm => queue_retries (fst tm) (snd tm) s') retry
        (Prod (rev rest) sent (p_heal s) (p_closing s) k1 corr (p_next s) (p_open s) (p_wire s) (p_settled s) (p_lost s)) /\
      write_all serialize_fails rqs (p_cluster s3) (p_wire s3) = (Ok tt, wire) /\
      s' = Prod (p_unsent s3) (p_sent s3) (p_heal s3) (p_closing s3) (p_cluster s3) (p_corr s3) (p_next s3)
             (p_open s3 ++ map pq_corr rqs) wire (p_settled s3) (p_lost s3).
  Proof.
    unfold Producer.flush. intros H. destruct (p_unsent s) as [|u0 us] eqn:EU; [injection H as <- <-; now left|]. right.
    rewrite <- EU in *. clear u0 us EU.
    destruct (order_topics part (drain_items (p_unsent s)) [] [] (p_cluster s)) as [[[[o retry]|e] rest] k1] eqn:EO; [|discriminate H].
    unfold with_cluster, with_unsent in H.
    cbn [p_unsent p_sent p_heal p_closing p_cluster p_corr p_next p_open p_wire p_settled p_lost] in H.
    destruct (build_requests acks timeout compress_fails o (p_corr s) [] (p_sent s)) as [[[rqs'|e] corr] sent] eqn:EB; [|discriminate H].
    match type of H with context [write_all _ _ (p_cluster ?x)] => set (s3 := x) in * end.
    destruct (write_all serialize_fails rqs' (p_cluster s3) (p_wire s3)) as [[[]|e] wire] eqn:EW; [|discriminate H].
    injection H as <- <-. exists o, retry, rest, k1, corr, sent, s3, wire. repeat (split; [first [exact EB|exact EW|reflexivity]|]). reflexivity.
  Qed.

  Lemma flush_order part s rqs s' : flush part s = (Ok rqs, s') -> pinv s ->
    tabs (p_cluster s) (p_cluster s') /\
    (forall t p, carried rqs t p = filter (goes_to part (p_cluster s) t p) (queue_of s t)) /\
    (forall rq t p m, In rq rqs -> In m (carried [rq] t p) ->
       leader_for (p_cluster s) t p = Some (pq_leader rq) /\ connected (p_cluster s) (pq_leader rq) = true) /\
    (forall t, queue_of s' t = filter (leaderless part (p_cluster s) t) (queue_of s t)) /\
    NoDup (map pq_leader rqs) /\ nd_ordered (map (fun rq => (pq_leader rq, pq_topics rq)) rqs) /\
    (p_heal s' = true \/ p_heal s' = p_heal s) /\ ((exists t m, In m (queue_of s' t)) -> p_heal s' = true) /\
    (forall rq, In rq rqs -> In rq (p_wire s') \/ exists c, dget (k_conns (p_cluster s)) (pq_leader rq) = Some c /\ cc_closing c = true).
  Proof.
    intros H I. apply flush_ok_inv in H as [(E & -> & ->)|(o & retry & rest & k1 & corr & sent & s3 & wire & EO & EB & E3 & EW & ->)].
    { assert (Q : forall t, queue_of s t = []) by (intros t; unfold queue_of; now rewrite E).
      split; [apply tabs_refl|]. split; [intros; now rewrite Q|]. split; [intros ? ? ? ? []|]. split; [intros; now rewrite Q|].
      split; [constructor|]. split; [split; [constructor|intros ? ? []]|]. split; [now right|].
      split; [intros (t & m & Hm); rewrite Q in Hm; destruct Hm|intros ? []]. }
    pose proof (order_topics_nd _ _ _ _ _ _ _ _ _ EO) as NO.
    assert (NO' : nd_ordered o) by (apply NO; split; [constructor|intros ? ? []]). clear NO.
    destruct (order_topics_perm _ _ _ _ _ _ _ _ _ EO) as [-> _].
    assert (NI : NoDup (dkeys (drain_items (p_unsent s)))) by (unfold drain_items; rewrite dkeys_rev; apply nodup_rev, I).
    apply order_topics_look in EO as (T & L1 & L2 & L3 & L4); [|exact NI].
    assert (RQ : forall t, rlook (drain_items (p_unsent s)) t = queue_of s t).
    { intros t. unfold drain_items. rewrite rlook_rev by apply I. reflexivity. }
    destruct (build_requests_spec _ _ _ _ _ _ _ _ _ _ EB (proj2 NO') (i_bound s I)) as (_ & _ & _ & _ & dn & rst & _ & _ & Q3).
    destruct Q3 as (_ & new & -> & E1 & _ & _ & _). cbn [app] in *.
    assert (ND : NoDup (dkeys retry)) by (apply L4; constructor).
    assert (O0 : forall l t p, olook [] l t p = []) by reflexivity.
    cbn [p_unsent p_sent p_heal p_closing p_cluster p_corr p_next p_open p_wire p_settled p_lost].
    destruct (retries_spec retry (Prod (rev []) sent (p_heal s) (p_closing s) k1 corr (p_next s) (p_open s) (p_wire s) (p_settled s) (p_lost s)))
      as (B1 & B2 & B4 & B5 & B6 & B7 & B8 & B9 & B10 & B11 & B12 & B13). rewrite <- E3 in *.
    cbn [rev p_unsent p_sent p_heal p_closing p_cluster p_corr p_next p_open p_wire p_settled p_lost] in *.
    assert (QS : forall t, queue_of s3 t = rlook retry t) by (intros t; rewrite E3, retries_queue by exact ND; reflexivity).
    rewrite B5 in *. split; [exact T|]. split; [|split; [|split; [|split; [|split; [|split; [|split]]]]]].
    - intros t p. rewrite carried_map, E1.
      destruct (leader_for (p_cluster s) t p) as [l0|] eqn:El.
      + rewrite (carried_ordered o t p l0 NO').
        * rewrite L2, O0, RQ. unfold leads. rewrite El, Z.eqb_refl. reflexivity.
        * intros l Ne. rewrite L2, O0. unfold leads. rewrite El. now rewrite (proj2 (Z.eqb_neq l l0) Ne).
      + rewrite (carried_ordered o t p 0 NO').
        * rewrite L2, O0. unfold leads. rewrite El. cbn [app].
          assert (forall m, goes_to part (p_cluster s) t p m = false) as G.
          { intros m. unfold goes_to. destruct (part m _) as [p'|]; [|reflexivity]. destruct (Z.eqb_spec p' p) as [->|]; [|reflexivity]. now rewrite El. }
          clear -G. induction (queue_of s t) as [|m q IH]; [reflexivity|]. cbn [filter]. now rewrite G.
        * intros l Ne. rewrite L2, O0. unfold leads. rewrite El. reflexivity.
    - intros rq t p m Hr Hm.
      assert (Ho : In (pq_leader rq, pq_topics rq) o) by (rewrite <- E1; apply in_map_iff; eauto).
      unfold carried in Hm. cbn [flat_map] in Hm. rewrite app_nil_r in Hm. fold (carried_in (pq_topics rq) t p) in Hm.
      rewrite carried_batch in Hm by (apply (proj2 NO' _ _ Ho)).
      assert (Ol : olook o (pq_leader rq) t p = @getd Z (list pmsg) _ [] (@getd text (dict Z (list pmsg)) _ [] (pq_topics rq) t) p).
      { unfold olook, slook. unfold getd at 3. now rewrite (In_dget_nodup o _ _ (proj1 NO') Ho). }
      rewrite <- Ol, L2, O0 in Hm. cbn [app] in Hm. unfold leads in Hm.
      destruct (leader_for (p_cluster s) t p) as [l0|] eqn:El; [|destruct Hm].
      destruct (Z.eqb_spec (pq_leader rq) l0) as [->|]; [|destruct Hm]. split; [reflexivity|].
      apply filter_In in Hm as [_ Hm]. unfold goes_to in Hm. destruct (part m _) as [p'|]; [|discriminate Hm].
      destruct (Z.eqb_spec p' p) as [Ep|_]; [|discriminate Hm]. rewrite Ep, El in Hm. exact Hm.
    - intros t. unfold queue_of at 1. cbn [p_unsent]. fold (queue_of s3 t). rewrite QS, L3, RQ. reflexivity.
    - replace (map pq_leader new) with (dkeys o); [apply NO'|]. rewrite <- E1. unfold dkeys. rewrite map_map. reflexivity.
    - rewrite E1. exact NO'.
    - rewrite B13. destruct retry; auto.
    - intros (t & m & Hm). unfold queue_of in Hm. cbn [p_unsent] in Hm. fold (queue_of s3 t) in Hm. rewrite QS in Hm.
      rewrite B13. destruct retry; [destruct Hm|reflexivity].
    - intros rq Hr. destruct (write_all_spec _ _ _ _ _ _ EW) as (w & -> & _ & _ & W). destruct (W rq Hr) as [Hw|Hw].
      + left. apply in_or_app. now right.
      + right. now rewrite <- (proj1 T).
  Qed.
End Flush.
