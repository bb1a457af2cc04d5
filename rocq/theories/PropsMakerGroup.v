(** Property C112: from the maker to a group of consumers, over rebalances. *)
From Coq Require FinFun.
From Coq Require Import ZArith Lia String List Bool Permutation Sorting.Sorted.
From Verif Require Import FollowRuns PropsProducer PropsConsumer PropsLog PropsGroupLog PropsTeam.
From Verif Require Import PyBase BaseLemmas Constants Cluster Zookeeper JsonValues SpecWire SpecJson SpecJsonValues PropsJson Producer SpecProducer SpecFlow ProducerRun SpecTurns PropsTurns Maker PropsMaker.
From Verif Require Import Consumer SpecConsumer ConsumerRuns SpecLog SpecGroupLog SpecTeam TeamProofs Counter SpecCounter PropsRound PropsMakerWork SpecOnce SpecHandover PropsHandover.
Import ListNotations.
Open Scope Z_scope.

(** the number in a value of the maker *)
Definition counter_of (v : jv) : option Z := match v with JDict d => match dget d (txt "counter") with Some (JInt n) => Some n | _ => None end | _ => None end.
Lemma maker_counter color n w : equal (made_value color n) w -> counter_of w = Some n.
Proof.
  unfold made_value. intros H. inversion H as [| | | | | |d1 d2 d P F]; subst. inversion F as [|a1 b1 l1 l2 [A1 A2] F1]; subst. inversion F1 as [|a3 b3 l3 l4 [A3 A4] F2]; subst. inversion F2; subst. destruct b1 as [k1 v1], b3 as [k3 v3]. cbn [fst snd] in *. subst k1 k3. inversion A2; subst. inversion A4; subst.
  apply Permutation_length_2_inv in P as [-> | ->]; reflexivity.
Qed.
Lemma all_differ {A} (f : jv -> A) (all : list (Z * (Z * jv))) : (forall p, NoDup (map f (map snd (of_partition p all)))) ->
  (forall d d', In d all -> In d' all -> f (snd (snd d)) = f (snd (snd d')) -> fst d = fst d') -> NoDup (map f (values all)).
Proof.
  induction all as [|d all IH]; intros N H; [constructor|]. unfold values. cbn [map]. constructor.
  - intros X. rewrite map_map in X. apply in_map_iff in X as (d' & E & X). assert (P : fst d = fst d') by (apply H; [left; reflexivity|right; exact X|symmetry; exact E]).
    specialize (N (fst d)). unfold of_partition in N. cbn [filter] in N. rewrite Z.eqb_refl in N. cbn [map] in N. inversion N as [|? ? N1 _]. apply N1. rewrite <- E, !map_map. apply in_map_iff. exists d'. split; [reflexivity|]. apply filter_In. split; [exact X|]. apply Z.eqb_eq. now symmetry.
  - apply IH; [|intros x y X Y; apply H; right; assumption]. intros p. specialize (N p). unfold of_partition in N |- *. cbn [filter] in N. destruct (fst d =? p); [cbn [map] in N; now inversion N|exact N].
Qed.
Lemma of_partition_in (all : list (Z * (Z * jv))) d : In d all -> In (snd (snd d)) (map snd (of_partition (fst d) all)).
Proof. intros H. unfold of_partition. rewrite map_map. apply in_map_iff. exists d. split; [reflexivity|]. apply filter_In. split; [exact H|apply Z.eqb_refl]. Qed.
Lemma sorted_differ ns : StronglySorted Z.lt ns -> NoDup ns.
Proof. induction 1 as [|n ns S IH F]; constructor; [|exact IH]. intros X. rewrite Forall_forall in F. specialize (F n X). lia. Qed.

Section C112.
  Variable float_repr : text -> text.
  Variable batch_size : option Z.
  Variables acks timeout : Z.
  Variable compress_fails : list pmsg -> option exn.
  Variable serialize_fails : prequest -> option exn.
  Notation maker_ends := (maker_ends batch_size acks timeout compress_fails serialize_fails).
  Notation written := (written batch_size acks timeout compress_fails serialize_fails).

  Lemma numbers_between (c : config jv) color a b : deser c = default_deser float_repr -> truthy c = truth -> (forall n, In (color n) maker_colors) -> forall l ns,
    Forall2 (fun m om => msg_reads m (snd om)) (map (message_no color) ns) l -> StronglySorted Z.lt ns ->
    exists ns', incl ns' ns /\ StronglySorted Z.lt ns' /\ Forall2 (fun n v => equal (made_value color n) v /\ truth v = true) ns' (map snd (readable c (between a b l))) /\
      ((forall o m, In (o, m) l -> a <= o < b) -> ns' = ns).
  Proof.
    intros DE TR IC. induction l as [|[o m] l IH]; intros ns F S.
    - destruct ns; [|inversion F]. exists []. split; [intros x X; exact X|]. split; [constructor|]. split; [constructor|auto].
    - destruct ns as [|n ns]; [inversion F|]. cbn [map] in F. inversion F as [|? ? ? ? R F' E1 E2]. clear F E1 E2. subst. cbn [snd] in R.
      inversion S as [|? ? S1 S2]; subst. destruct (IH ns F' S1) as (ns' & I1 & I2 & I3 & I4). destruct (made_reads float_repr c color n m DE TR (IC n) R) as (w & D & EQ & T). rewrite TR in T.
      unfold between. cbn [filter fst]. destruct ((a <=? o) && (o <? b)) eqn:B.
      + exists (n :: ns'). split; [intros nn [->|X]; [now left|right; now apply I1]|]. split; [constructor; [exact I2|]; rewrite Forall_forall in S2 |- *; intros nn X; apply S2, I1, X|].
        split; [|intros H; f_equal; apply I4; intros o' m' X; apply (H o' m'); now right]. unfold readable. cbn [flat_map fst snd]. rewrite D. cbn [app map snd]. constructor; [auto|exact I3].
      + exists ns'. split; [intros nn X; right; now apply I1|]. split; [exact I2|]. split; [exact I3|]. intros H. exfalso. specialize (H o m (or_introl eq_refl)). destruct (Z.leb_spec a o), (Z.ltb_spec o b); try discriminate B; lia.
  Qed.

  (** a group that reads logs which hold numbered messages of the maker; [X] is what else is known of the numbers *)
  Lemma numbered_group topic color ps last (log : Z -> list (Z * pymsg)) (X : Z -> list Z -> Prop) (Es : list (epoch (V := jv))) : (forall n, In (color n) maker_colors) -> (forall p, is_log (log p)) ->
    (forall p, exists ns, Forall2 (fun m om => msg_reads m (snd om)) (map (message_no color) ns) (log p) /\ StronglySorted Z.lt ns /\ Forall (fun n => 1 <= n <= last /\ PropsMaker.place ps n = p) ns /\ X p ns) ->
    Forall (Forall (undisturbed_turn topic log)) Es -> Forall (shared_out topic) Es -> (forall Ts T, In Ts Es -> In T Ts -> deser (tn_cfg T) = default_deser float_repr /\ truthy (tn_cfg T) = truth) ->
    exists Dss, Forall2 (Forall2 (delivers topic)) Es Dss /\ let all := concat (map (@concat _) Dss) in
      (forall p a b, kept_offset topic p a Es b -> exists ns, StronglySorted Z.lt ns /\ Forall (fun n => 1 <= n <= last /\ PropsMaker.place ps n = p) ns /\
        Forall2 (fun n v => equal (made_value color n) v /\ truth v = true) ns (map snd (of_partition p all)) /\ ((forall o m, In (o, m) (log p) -> a <= o < b) -> X p ns)) /\
      ((forall p, exists a b, kept_offset topic p a Es b) -> NoDup (map counter_of (values all)) /\ forall v, In v (values all) -> exists n, 1 <= n <= last /\ counter_of v = Some n).
  Proof.
    intros IC LOG NS F S DT. set (c := Cfg jv (default_deser float_repr) truth (fun _ => []) 0 0 0 (fun _ => None) Single).
    destruct (C111_from_commits c topic log Es LOG F S (fun Ts T H H' => proj1 (DT Ts T H H'))) as (Dss & A & B & _). exists Dss. split; [exact A|]. intros all.
    match goal with |- ?X /\ _ => assert (Q : X) end.
    2:{ split; [exact Q|]. intros KA.
        assert (CO : forall p, exists ns, StronglySorted Z.lt ns /\ Forall (fun n => 1 <= n <= last /\ PropsMaker.place ps n = p) ns /\ map counter_of (map snd (of_partition p all)) = map Some ns).
        { intros p. destruct (KA p) as (a & b & K). destruct (Q p a b K) as (ns & S1 & F1 & E1 & _). exists ns. split; [exact S1|]. split; [exact F1|]. clear - E1. induction E1 as [|n v ns vs [E _] _ IH]; [reflexivity|]. cbn [map]. now rewrite IH, (maker_counter color n v E). }
        assert (EA : forall d, In d all -> exists n, counter_of (snd (snd d)) = Some n /\ 1 <= n <= last /\ PropsMaker.place ps n = fst d).
        { intros d XX. destruct (CO (fst d)) as (ns & _ & F1 & E1). apply of_partition_in, (in_map counter_of) in XX. rewrite E1 in XX. apply in_map_iff in XX as (n & EN & XX). rewrite Forall_forall in F1. destruct (F1 n XX). exists n. auto. }
        split; [apply all_differ|].
        - intros p. destruct (CO p) as (ns & S1 & _ & E1). rewrite E1. apply FinFun.Injective_map_NoDup; [intros x y E; now injection E|now apply sorted_differ].
        - intros d d' XX X' E. destruct (EA d XX) as (n & C1 & _ & P1). destruct (EA d' X') as (n' & C2 & _ & P2). rewrite C1, C2 in E. injection E as <-. now rewrite <- P1, <- P2.
        - intros v XX. unfold values in XX. apply in_map_iff in XX as (d & <- & XX). destruct (EA d XX) as (n & C1 & R1 & _). exists n. auto. }
    intros p a b K. unfold all. rewrite (B p a b K).
    destruct (NS p) as (ns & KE' & SS & FN & XN).
    destruct (numbers_between c color a b eq_refl eq_refl IC (log p) ns KE' SS) as (ns' & I1 & I2 & I3 & I4). exists ns'. split; [exact I2|]. split; [rewrite Forall_forall in FN |- *; intros n Y; apply FN, I1, Y|]. split; [exact I3|].
    intros H. rewrite (I4 H). exact XN.
  Qed.

  Variables (topic : text) (color : Z -> text) (ps : list Z) (evs : list pevent) (k : cluster) (corr : Z) (stored : Z -> list prequest) (log : Z -> list (Z * pymsg)).
  Notation last := (fst (maker_ends (0, Making) evs (producer_init k corr))).
  (** The logs hold what the maker wrote, as in C109.  A group reads them over any number of rebalances; for partition [p] the committed offset is kept and handed on, as in C111.
      Then what the group delivers from the partition are messages the maker made for it, each once and in the order they were made; and if the group has got to the end of the log, all that are in the log.
      If this is so of all partitions, no number is delivered twice. *)
  Theorem C112_delivered_once (Es : list (epoch (V := jv))) : written topic color ps evs k corr stored log ->
    Forall (Forall (undisturbed_turn topic log)) Es -> Forall (shared_out topic) Es -> (forall Ts T, In Ts Es -> In T Ts -> deser (tn_cfg T) = default_deser float_repr /\ truthy (tn_cfg T) = truth) ->
    exists Dss, Forall2 (Forall2 (delivers topic)) Es Dss /\ let all := concat (map (@concat _) Dss) in
      (forall p a b, kept_offset topic p a Es b -> exists ns, StronglySorted Z.lt ns /\ Forall (fun n => 1 <= n <= last /\ PropsMaker.place ps n = p) ns /\
        Forall2 (fun n v => equal (made_value color n) v /\ truth v = true) ns (map snd (of_partition p all)) /\
        ((forall o m, In (o, m) (log p) -> a <= o < b) -> map pm_msg (carried (stored p) topic p) = map (message_no color) ns)) /\
      ((forall p, exists a b, kept_offset topic p a Es b) -> NoDup (map counter_of (values all)) /\ forall v, In v (values all) -> exists n, 1 <= n <= last /\ counter_of v = Some n).
  Proof.
    intros (MR & PS & IC & ST & KE & LOG) F S DT. apply (numbered_group topic color ps last log (fun p ns => map pm_msg (carried (stored p) topic p) = map (message_no color) ns) Es IC LOG); try assumption.
    intros p. destruct (C104_numbers_increase batch_size acks timeout compress_fails serialize_fails topic color ps evs k corr p (stored p) MR PS (proj1 (ST p)) (proj2 (ST p))) as (ns & E & SS & FN). exists ns. split; [|auto].
    rewrite <- E. specialize (KE p). clear -KE. induction KE; constructor; assumption.
  Qed.
End C112.

(** The maker of [C104_example] once more.  A member reads a message of either partition and commits; there is a rebalance; it goes on from the committed offsets. *)
Definition mg_asks : list label := [Alloc (EvMembers [txt "me"]); Alloc (EvPartitions (Some [part_name tp_a 0; part_name tp_a 1])); Call 1 OpCoordinator; Arrive 1 1 (Ok (PCoordinator 0 1)); Call 2 (OpConsume tp_a None)].
Definition mg_told (a b : Z) : label := Arrive 2 1 (Ok (POffsetFetch [(tp_a, [(0, (0, a)); (1, (0, b))])])).
Definition mg_asking : consumer jv := crun (mw_team 0) mg_asks (consumer_init demo_cluster (txt "me")).
Definition mg_first : turn := Turn (mw_team 0) (cstep (mw_team 0) mg_asking (mg_told 0 0))
  [Arrive 2 1 (Ok (PFetch [(tp_a, [(0, (0, round_log 0)); (1, (0, [(0, round_message 1)]))])])); Call 3 (OpCommit None); Arrive 3 1 (Ok (PCommit [(tp_a, [(0, 0); (1, 0)])]))].
Definition mg_second : turn := Turn (mw_team 0) (cstep (mw_team 0) mg_asking (mg_told 1 1)) [Arrive 2 1 (Ok (PFetch [(tp_a, [(0, (0, [])); (1, (0, [(1, round_message 3)]))])]))].
Definition mg_epochs : list (epoch (V := jv)) := [[mg_first]; [mg_second]].
Lemma mg_start l : (l = mg_told 0 0 \/ l = mg_told 1 1) -> at_start tp_a (mw_team 0) (cstep (mw_team 0) mg_asking l).
Proof.
  intros H. assert (R : reachable (mw_team 0) mg_asking) by (exists demo_cluster, (txt "me"), mg_asks; reflexivity). split; [exists demo_cluster, (txt "me"), (mg_asks ++ [l]); unfold mg_asking, crun; now rewrite fold_left_app|].
  split; [destruct H as [-> | ->]; vm_compute; auto|]. right. exists mg_asking, l, 2. split; [exact R|]. split; [reflexivity|].
  split; [eexists _, _; left; do 2 eexists; vm_compute; reflexivity|]. split.
  - destruct H as [-> | ->]; eexists _, _; (split; [vm_compute; reflexivity|]); left; exists 1; eexists; (split; [do 4 eexists; split; vm_compute; reflexivity|do 4 eexists; reflexivity]).
  - intros j o p D OT. destruct (Z.eq_dec j 2) as [->|N]; [reflexivity|]. exfalso. destruct H as [-> | ->]; vm_compute in D; destruct j as [|[q|[q|q|]|]|q]; try discriminate D; now apply N.
Qed.
Lemma mg_calm T : In T [mg_first; mg_second] -> none_raised tp_a (tn_start T) (tn_end T).
Proof. intros H i o e X. repeat (destruct H as [<-|H]; [vm_compute in X; repeat (destruct X as [X|X]; [discriminate X|]); destruct X|]). destruct H. Qed.
Ltac mg_fetch a m n := mw_reply; split; [|exact Logic.I]; cbn [serves]; split; [reflexivity|]; intros _; split; [repeat constructor; cbn; intuition discriminate|];
  let X := fresh in intros ? ? ? [X|[X|[]]]; injection X as <- <- <-; (split; [discriminate|]); intros _; [exists a, 500, m|exists a, 500, n]; (split; [cbn; auto|reflexivity]).
Lemma mg_first_turn : undisturbed_turn tp_a round_log mg_first.
Proof.
  split; [eexists _, _, _, _; (split; [exact naive_answers|reflexivity])|]. split; [apply mg_start; now left|]. split; [|apply mg_calm; left; reflexivity].
  cbn [mg_first tn_cfg tn_start tn_steps each_step]. split; [split; [ex_norebalance|mg_fetch 0 1%nat 1%nat]|]. split; [split; [ex_norebalance|exact Logic.I]|]. split; [split; [ex_norebalance|mw_reply; split; exact Logic.I]|]. exact Logic.I.
Qed.
Lemma mg_second_turn : undisturbed_turn tp_a round_log mg_second.
Proof.
  split; [eexists _, _, _, _; (split; [exact naive_answers|reflexivity])|]. split; [apply mg_start; now right|]. split; [|apply mg_calm; right; left; reflexivity].
  cbn [mg_second tn_cfg tn_start tn_steps each_step]. split; [split; [ex_norebalance|mg_fetch 1 0%nat 1%nat]|]. exact Logic.I.
Qed.
Lemma mg_alone (T : turn (V := jv)) : shared_out tp_a [T].
Proof. intros i j X Y p E E' O O'. destruct i as [|i], j as [|j]; try reflexivity; cbn in E, E'; try (destruct i; discriminate E); destruct j; discriminate E'. Qed.
Lemma mg_commits p : p = 0 \/ p = 1 -> commits_last tp_a mg_first p 1.
Proof.
  intros H. exists (firstn 1 (tn_steps mg_first)), (Call 3 (OpCommit None)), (skipn 2 (tn_steps mg_first)). split; [reflexivity|]. cbv zeta. split; [|split].
  - do 5 eexists. split; [vm_compute; left; reflexivity|]. split; [left; reflexivity|]. destruct H as [-> | ->]; [left|right; left]; reflexivity.
  - intros i op pc D OT. exfalso. apply dget_In in D. vm_compute in D. repeat (destruct D as [D|D]; [injection D as _ <- _; exact OT|]). destruct D.
  - intros i start H1. vm_compute in H1. repeat (destruct H1 as [H1|H1]; [discriminate H1|]). destruct H1.
Qed.
Lemma mg_at p a o b (T T' : turn (V := jv)) : position (tn_start T) tp_a p = a -> position (tn_start T') tp_a p = o -> position (tn_end T') tp_a p = b -> owns tp_a T p -> owns tp_a T' p -> commits_last tp_a T p o -> kept_offset tp_a p a [[T]; [T']] b.
Proof. intros <- H <- O O' C. apply kept_commit with (o := o); [left; reflexivity|exact O|exact C|]. rewrite <- H. apply kept_last; [left; reflexivity|exact O']. Qed.
Example C112_example : written (Some 1) 1 500 never never tp_a maker_color [0; 1] maker_evs (Cl [(1, CC (txt "h") 9092 0 false)] [] [] 1 0 []) 41 round_stored round_log /\
  Forall (Forall (undisturbed_turn tp_a round_log)) mg_epochs /\ Forall (shared_out tp_a) mg_epochs /\
  (forall Ts T, In Ts mg_epochs -> In T Ts -> deser (tn_cfg T) = default_deser (fun t => t) /\ truthy (tn_cfg T) = truth) /\
  kept_offset tp_a 0 0 mg_epochs 1 /\ kept_offset tp_a 1 0 mg_epochs 2 /\ (forall p, exists a b, kept_offset tp_a p a mg_epochs b) /\ (forall o m, In (o, m) (round_log 1) -> 0 <= o < 2) /\
  map (fun T => map (fun v => match v with JDict d => dget d (txt "counter") | _ => None end) (tn_gave tp_a T)) (concat mg_epochs) = [[Some (JInt 2); Some (JInt 1)]; [Some (JInt 3)]].
Proof.
  split; [exact (proj1 C109_example)|]. split; [constructor; [constructor; [exact mg_first_turn|constructor]|constructor; [constructor; [exact mg_second_turn|constructor]|constructor]]|].
  split; [constructor; [apply mg_alone|constructor; [apply mg_alone|constructor]]|]. split; [intros Ts T [<-|[<-|[]]] [<-|[]]; split; reflexivity|].
  assert (K0 : kept_offset tp_a 0 0 mg_epochs 1) by (apply (mg_at 0 0 1 1 mg_first mg_second); [vm_compute; reflexivity..| | |apply mg_commits; now left]; unfold owns; vm_compute; auto).
  assert (K1 : kept_offset tp_a 1 0 mg_epochs 2) by (apply (mg_at 1 0 1 2 mg_first mg_second); [vm_compute; reflexivity..| | |apply mg_commits; now right]; unfold owns; vm_compute; auto).
  split; [exact K0|]. split; [exact K1|]. split.
  { intros p. destruct (Z.eq_dec p 0) as [->|N0]; [exists 0, 1; exact K0|]. destruct (Z.eq_dec p 1) as [->|N1]; [exists 0, 2; exact K1|]. clear K0 K1. exists 0, 0.
    apply kept_none; [|apply kept_none; [|apply kept_end]]; intros T [<-|[]] O; unfold owns in O; vm_compute in O; destruct O as [O|[O|[]]]; congruence. }
  split; [|vm_compute; reflexivity]. intros o m H. unfold round_log in H. cbn [Z.eqb] in H. destruct H as [H|[H|[]]]; apply (f_equal fst) in H; cbn [fst] in H; lia.
Qed.

Print Assumptions C112_delivered_once.
