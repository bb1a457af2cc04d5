(** Proofs about the cluster model (proof file). *)
From Coq Require Import ZArith String List Bool Lia.
From Verif Require Import PyBase BaseLemmas Constants Cluster SpecCluster.
Import ListNotations.
Open Scope Z_scope.

(** ** process_topics *)
Section Topics.
  Variable conns : dict Z cconn.
  Definition tk (acc : tables) (t : text) (p : Z) : Prop :=
    exists ps, dget (fst (fst acc)) t = Some ps /\ In p ps.
  Definition tl (acc : tables) (t : text) (p l : Z) : Prop :=
    exists d, dget (snd (fst acc)) t = Some d /\ dget d p = Some l.
  Definition tinv (U : text -> Z -> Z -> Prop) (M : text -> Prop) (acc : tables) : Prop :=
    (forall t p, tk acc t p <-> exists l, tl acc t p l) /\
    (forall t p l, tl acc t p l -> U t p l) /\
    (forall t p l, U t p l -> tk acc t p) /\
    (forall t, In t (snd acc) <-> M t).

  Lemma ddefault_eq {K V} `{EqB K} (dflt : V) (d : dict K V) k v :
    let '(x, d1) := ddefault dflt d k in
    dset d1 k v = dset d k v /\ x = match dget d k with Some y => y | None => dflt end.
  Proof.
    unfold ddefault. destruct (dget d k) as [y|] eqn:E; [auto|]. split; [|reflexivity].
    rewrite (dset_new d k dflt E), (dset_new d k v E).
    clear -E. induction d as [|[k0 v0] d IH]; cbn [app dset].
    - now rewrite eqb_refl.
    - cbn [dget] in E. destruct (eqb k0 k); [discriminate E|]. now rewrite (IH E).
  Qed.

  Lemma part_inv U M acc name p :
    tinv U M acc ->
    tinv (fun t q l => U t q l \/ (t = name /\ q = mp_id p /\ l = mp_leader p /\ mp_err p <> 5 /\ dmem conns l = true))
         (fun t => M t \/ (t = name /\ (mp_err p = 5 \/ dmem conns (mp_leader p) = false)))
         (process_partition conns name acc p).
  Proof.
    intros (I1 & I2 & I3 & I4). destruct acc as [[ts ls] ms]. unfold process_partition.
    change leader_not_available with 5.
    destruct (mp_err p =? 5) eqn:E5.
    { apply Z.eqb_eq in E5. repeat split; try (intros; now apply I1); cbn [snd fst] in *.
      - intros t q l H. left. now apply I2.
      - intros t q l [H|H]; [now apply (I3 _ _ l)|tauto].
      - intros H. apply in_sadd in H as [->|H]; [tauto|]. left. now apply I4.
      - intros [H|[-> _]]; apply in_sadd; [right; now apply I4|now left]. }
    apply Z.eqb_neq in E5.
    destruct (dmem conns (mp_leader p)) eqn:EM; cbn [negb].
    2:{ repeat split; try (intros; now apply I1); cbn [snd fst] in *.
      - intros t q l H. left. now apply I2.
      - intros t q l [H|(_ & _ & -> & _ & H)]; [now apply (I3 _ _ l)|congruence].
      - intros H. apply in_sadd in H as [->|H]; [tauto|]. left. now apply I4.
      - intros [H|[-> _]]; apply in_sadd; [right; now apply I4|now left]. }
    pose proof (ddefault_eq [] ts name) as D1. pose proof (@ddefault_eq text (dict Z Z) _ [] ls name) as D2.
    destruct (ddefault [] ts name) as [ps ts1]. destruct (@ddefault text (dict Z Z) _ [] ls name) as [d ls1].
    rewrite (proj1 (D1 _)), (proj1 (D2 _)). pose proof (proj2 (D1 [])) as Eps. pose proof (proj2 (D2 [])) as Ed.
    clear D1 D2. unfold tinv, tk, tl in *. cbn [fst snd] in *.
    split; [|split; [|split]].
    - intros t q. destruct (eqb_dec t name) as [->|N].
      + rewrite !dget_dset_same. split.
        * intros (x & Hx & Hq). injection Hx as <-. apply in_app_or in Hq as [Hq|[<-|[]]].
          -- destruct (Z.eq_dec q (mp_id p)) as [->|Nq].
             ++ exists (mp_leader p). eexists. split; [reflexivity|]. apply dget_dset_same.
             ++ destruct (dget ts name) as [y|] eqn:Ey; [|subst ps; destruct Hq]. subst ps.
                destruct (proj1 (I1 name q) (ex_intro _ y (conj Ey Hq))) as (l & d' & Hd & Hl).
                exists l. eexists. split; [reflexivity|]. rewrite dget_dset_other by assumption.
                rewrite Hd in Ed. now subst d.
          -- exists (mp_leader p). eexists. split; [reflexivity|]. apply dget_dset_same.
        * intros (l & d' & Hd & Hl). injection Hd as <-. eexists. split; [reflexivity|]. apply in_or_app.
          destruct (Z.eq_dec q (mp_id p)) as [->|Nq]; [right; now left|]. left.
          rewrite dget_dset_other in Hl by assumption.
          destruct (dget ls name) as [y|] eqn:Ey; [|subst d; discriminate Hl]. subst d.
          destruct (proj2 (I1 name q) (ex_intro _ l (ex_intro _ y (conj Ey Hl)))) as (ps' & Hps & Hq).
          rewrite Hps in Eps. now subst ps.
      + setoid_rewrite (dget_dset_other ts name _ t N). setoid_rewrite (dget_dset_other ls name _ t N). apply I1.
    - intros t q l (d' & Hd & Hl). destruct (eqb_dec t name) as [->|N].
      + rewrite dget_dset_same in Hd. injection Hd as <-.
        destruct (Z.eq_dec q (mp_id p)) as [->|Nq].
        * rewrite dget_dset_same in Hl. injection Hl as <-. right. auto.
        * rewrite dget_dset_other in Hl by assumption. left. apply I2.
          destruct (dget ls name) as [y|] eqn:Ey; [|subst d; discriminate Hl]. subst d. eauto.
      + rewrite dget_dset_other in Hd by assumption. left. apply I2. eauto.
    - intros t q l H. destruct (eqb_dec t name) as [->|N].
      + rewrite dget_dset_same. eexists. split; [reflexivity|]. apply in_or_app.
        destruct H as [H|(_ & -> & _)]; [|right; now left]. left.
        destruct (I3 _ _ _ H) as (x & Hx & Hq). rewrite Hx in Eps. now subst ps.
      + destruct H as [H|(-> & _)]; [|congruence]. rewrite dget_dset_other by assumption. now apply (I3 _ _ l).
    - intros t. rewrite I4. split; [tauto|]. intros [H|(_ & [H|H])]; [assumption|congruence|congruence].
  Qed.

  Lemma tinv_iff U M U' M' acc : (forall t p l, U t p l <-> U' t p l) -> (forall t, M t <-> M' t) ->
    tinv U M acc -> tinv U' M' acc.
  Proof.
    intros HU HM (A & B & D & E). split; [exact A|]. split; [|split].
    - intros t p l H. now apply HU, B.
    - intros t p l H. apply (D t p l). now apply HU.
    - intros t. rewrite E. apply HM.
  Qed.

  Lemma parts_inv name ps : forall U M acc,
    tinv U M acc ->
    tinv (fun t q l => U t q l \/ (t = name /\ exists p, In p ps /\ q = mp_id p /\ l = mp_leader p /\ mp_err p <> 5 /\ dmem conns l = true))
         (fun t => M t \/ (t = name /\ exists p, In p ps /\ (mp_err p = 5 \/ dmem conns (mp_leader p) = false)))
         (fold_left (process_partition conns name) ps acc).
  Proof.
    induction ps as [|p ps IH]; intros U M acc I; cbn [fold_left].
    - eapply tinv_iff; [| |exact I]; intros; split; try tauto.
      + intros [H|(_ & q & [] & _)]. exact H.
      + intros [H|(_ & q & [] & _)]. exact H.
    - apply (part_inv _ _ _ name p) in I. apply IH in I. eapply tinv_iff; [| |exact I].
      + intros t q l. split.
        * intros [[H|(E & H)]|(E & q' & Hq & H)]; [tauto|right; split; [exact E|]; exists p; split; [now left|tauto]|].
          right. split; [exact E|]. exists q'. split; [now right|exact H].
        * intros [H|(E & q' & [->|Hq] & H)]; [tauto|left; right; tauto|]. right. split; [exact E|]. exists q'. tauto.
      + intros t. split.
        * intros [[H|(E & H)]|(E & q' & Hq & H)]; [tauto|right; split; [exact E|]; exists p; split; [now left|tauto]|].
          right. split; [exact E|]. exists q'. split; [now right|exact H].
        * intros [H|(E & q' & [->|Hq] & H)]; [tauto|left; right; tauto|]. right. split; [exact E|]. exists q'. tauto.
  Qed.

  Definition Uof (ts : list mtopic) (t : text) (q l : Z) : Prop :=
    usable ts t q l /\ dmem conns l = true.
  Definition Mof (ts : list mtopic) (t : text) : Prop :=
    exists T, In T ts /\ mt_name T = t /\ mt_err T <> 3 /\
      (mt_err T = 9 \/ exists P, In P (mt_parts T) /\ (mp_err P = 5 \/ dmem conns (mp_leader P) = false)).

  Lemma topic_inv ts T acc :
    tinv (Uof ts) (Mof ts) acc -> tinv (Uof (ts ++ [T])) (Mof (ts ++ [T])) (process_topic conns acc T).
  Proof.
    intros I. unfold process_topic. destruct acc as [[a b] ms].
    change unknown_topic_or_partition with 3. change replica_not_available with 9.
    assert (SU : forall t q l, Uof (ts ++ [T]) t q l <->
      Uof ts t q l \/ (t = mt_name T /\ mt_err T <> 3 /\ mt_err T <> 9 /\ exists p, In p (mt_parts T) /\ q = mp_id p /\ l = mp_leader p /\ mp_err p <> 5 /\ dmem conns l = true)).
    { intros t q l. split.
      - intros ((tc & pc & (T' & P & HT & Hn & He & HP & Hi & Hpe & Hl) & N3 & N9 & N5) & HM).
        apply in_app_or in HT as [HT|[<-|[]]].
        + left. split; [|exact HM]. exists tc, pc. split; [|auto]. exists T', P. auto 10.
        + right. subst. repeat split; auto. exists P. auto.
      - intros [((tc & pc & (T' & P & HT & H) & N) & HM)|(-> & N3 & N9 & P & HP & -> & -> & N5 & HM)].
        + split; [|exact HM]. exists tc, pc. split; [|auto]. exists T', P. split; [apply in_or_app; now left|exact H].
        + split; [|exact HM]. exists (mt_err T), (mp_err P). split; [|auto]. exists T, P.
          split; [apply in_or_app; right; now left|auto 10]. }
    assert (SM : forall t, Mof (ts ++ [T]) t <->
      Mof ts t \/ (t = mt_name T /\ mt_err T <> 3 /\ (mt_err T = 9 \/ exists p, In p (mt_parts T) /\ (mp_err p = 5 \/ dmem conns (mp_leader p) = false)))).
    { intros t. split.
      - intros (T' & HT & Hn & H). apply in_app_or in HT as [HT|[<-|[]]]; [left; exists T'; auto|right; auto].
      - intros [(T' & HT & H)|(-> & H)]; [exists T'|exists T]; (split; [apply in_or_app; cbn; tauto|auto]). }
    destruct (mt_err T =? 3) eqn:E3; [apply Z.eqb_eq in E3|apply Z.eqb_neq in E3].
    { eapply tinv_iff; [| |exact I].
      - intros t q l. rewrite SU. tauto.
      - intros t. rewrite SM. tauto. }
    destruct (mt_err T =? 9) eqn:E9; [apply Z.eqb_eq in E9|apply Z.eqb_neq in E9].
    { destruct I as (A & B & D & E). split; [exact A|]. split; [|split]; unfold tk, tl in *; cbn [fst snd] in *.
      - intros t q l H. apply SU. left. now apply B.
      - intros t q l H. apply SU in H as [H|H]; [now apply (D t q l)|tauto].
      - intros t. rewrite SM, in_sadd, E. tauto. }
    apply (parts_inv (mt_name T) (mt_parts T)) in I. eapply tinv_iff; [| |exact I].
    - intros t q l. rewrite SU. tauto.
    - intros t. rewrite SM. tauto.
  Qed.

  Lemma topics_inv more : forall ts acc,
    tinv (Uof ts) (Mof ts) acc -> tinv (Uof (ts ++ more)) (Mof (ts ++ more)) (fold_left (process_topic conns) more acc).
  Proof.
    induction more as [|T more IH]; intros ts acc I; cbn [fold_left]; [now rewrite app_nil_r|].
    replace (ts ++ T :: more) with ((ts ++ [T]) ++ more) by now rewrite <- app_assoc.
    apply IH. now apply topic_inv.
  Qed.
End Topics.

Lemma holds_dmem k b : holds k b <-> dmem (k_conns k) b = true.
Proof.
  unfold holds. rewrite dmem_true. split.
  - intros (c & H). now apply dget_Some_in in H.
  - intros H. now apply in_dkeys_dget.
Qed.

Lemma process_topics_spec ts k missing k' :
  process_topics ts k = (missing, k') ->
  (forall t p, partition_known k' t p <-> exists l, leader k' t p l) /\
  (forall t p l, leader k' t p l -> holds k' l /\ usable ts t p l) /\
  (forall t p l, usable ts t p l -> holds k' l -> partition_known k' t p) /\
  (forall t, In t missing <-> in_trouble k' ts t) /\
  k_conns k' = k_conns k /\ k_opened k' = k_opened k /\ k_clock k' = k_clock k /\ k_log k' = k_log k.
Proof.
  unfold process_topics. pose proof (topics_inv (k_conns k) ts [] ([], [], [])) as I.
  destruct (fold_left (process_topic (k_conns k)) ts ([], [], [])) as [[a b] ms].
  intros E. injection E as <- <-. cbn [app] in I.
  assert (tinv (Uof (k_conns k) []) (Mof (k_conns k) []) ([], [], [])) as I0.
  { split; [|split; [|split]]; unfold tk, tl; cbn [fst snd dget].
    - intros t p. split; [intros (x & H & _)|intros (l & x & H & _)]; discriminate H.
    - intros t p l (x & H & _). discriminate H.
    - intros t p l ((tc & pc & (T & P & [] & _) & _) & _).
    - intros t. split; [intros []|]. intros (T & [] & _). }
  specialize (I I0). destruct I as (A & B & D & E). unfold tk, tl in *. cbn [fst snd] in *.
  split; [exact A|]. split; [|split; [|split]].
  - intros t p l H. destruct (B t p l H) as [H1 H2]. split; [now apply holds_dmem|exact H1].
  - intros t p l H H2. apply (D t p l). split; [exact H|]. now apply holds_dmem in H2.
  - intros t. rewrite E. unfold Mof, in_trouble. split.
    + intros (T & HT & Hn & N3 & H). exists T. split; [exact HT|]. split; [exact Hn|]. split; [exact N3|].
      destruct H as [H|(P & HP & [H|H])]; [now left|right; exists P; auto|].
      right. exists P. split; [exact HP|]. right. intros HH. apply holds_dmem in HH. cbn [k_conns] in HH. congruence.
    + intros (T & HT & Hn & N3 & H). exists T. split; [exact HT|]. split; [exact Hn|]. split; [exact N3|].
      destruct H as [H|(P & HP & [H|H])]; [now left|right; exists P; auto|].
      right. exists P. split; [exact HP|]. right. destruct (dmem (k_conns k) (mp_leader P)) eqn:EM; [|reflexivity].
      exfalso. apply H. apply holds_dmem. exact EM.
  - auto.
Qed.

Lemma NoDup_app_one {A} (l : list A) x : NoDup l -> ~ In x l -> NoDup (l ++ [x]).
Proof.
  induction l as [|y l IH]; cbn; intros N H; [constructor; [exact H|constructor]|].
  inversion N; subst. constructor; [|apply IH; tauto]. intros HI. apply in_app_or in HI as [HI|[->|[]]]; tauto.
Qed.

(** ** waiting *)
Lemma same_refl c : same_conn c c.
Proof. unfold same_conn. auto. Qed.
Lemma same_trans a b c : same_conn a b -> same_conn b c -> same_conn a c.
Proof. unfold same_conn. intros (A & B & D & E) (A' & B' & D' & E'). repeat split; try congruence. auto. Qed.
Lemma same_shut c : same_conn c (shut c).
Proof. unfold same_conn, shut. cbn. auto. Qed.

Definition after (died : list nat) (c : cconn) : cconn := if existsb (Nat.eqb (cc_id c)) died then shut c else c.
Lemma after_same died c : same_conn c (after died c).
Proof. unfold after. destruct existsb; [apply same_shut|apply same_refl]. Qed.
Lemma waited_get died k b : dget (k_conns (waited died k)) b = option_map (after died) (dget (k_conns k) b).
Proof.
  unfold waited. cbn [k_conns]. induction (k_conns k) as [|[b0 c] d IH]; cbn [map fst snd dget]; [reflexivity|].
  destruct (eqb b0 b); [reflexivity|exact IH].
Qed.
Lemma waited_keys died k : dkeys (k_conns (waited died k)) = dkeys (k_conns k).
Proof. unfold waited, dkeys. cbn [k_conns]. rewrite map_map. reflexivity. Qed.
Lemma waited_ids died k : map (fun bc => cc_id (snd bc)) (k_conns (waited died k)) = map (fun bc => cc_id (snd bc)) (k_conns k).
Proof.
  unfold waited. cbn [k_conns]. rewrite map_map. apply map_ext. intros [b c]. cbn [fst snd].
  destruct existsb; reflexivity.
Qed.

Lemma wf_ext k k' : (k_opened k <= k_opened k')%nat -> dkeys (k_conns k') = dkeys (k_conns k) ->
  map (fun bc => cc_id (snd bc)) (k_conns k') = map (fun bc => cc_id (snd bc)) (k_conns k) -> wf k -> wf k'.
Proof.
  intros L E1 E2 (A & B & D). repeat split.
  - now rewrite E1.
  - now rewrite E2.
  - intros b c H. apply dget_In in H.
    assert (In (cc_id c) (map (fun bc => cc_id (snd bc)) (k_conns k))) as HI
      by (rewrite <- E2; now apply (in_map (fun bc => cc_id (snd bc)) _ (b, c))).
    apply in_map_iff in HI as ([b' c0] & E & HI). cbn [snd] in E. apply (In_dget_nodup _ _ _ A) in HI.
    apply D in HI. lia.
Qed.
Lemma wf_waited died k : wf k -> wf (waited died k).
Proof. apply wf_ext; [unfold waited; cbn; lia|apply waited_keys|apply waited_ids]. Qed.

Lemma ids_lt k n : wf k -> In n (map (fun bc => cc_id (snd bc)) (k_conns k)) -> (n < k_opened k)%nat.
Proof.
  intros (A & _ & D) H. apply in_map_iff in H as ([b c] & E & H). cbn [snd] in E. subst n.
  apply (D b). now apply In_dget_nodup.
Qed.

(** ** process_brokers *)
Section Brokers.
  Variable w : world.

  Definition connects_only (bs : list mbroker) (k : cluster) (x : effect) : Prop :=
    match x with
    | XConnect id host port =>
        exists B, In B bs /\ host = mb_host B /\ port = mb_port B /\ ~ holds k (mb_id B)
    | XConnected _ | XConnectFailed _ _ => True
    | _ => False
    end.
  Definition tried (lg : list effect) (bs : list mbroker) (b : Z) : Prop :=
    exists B id e, In B bs /\ mb_id B = b /\ In (XConnect id (mb_host B) (mb_port B)) lg /\ In (XConnectFailed id e) lg.
  Definition fresh_conn (lg : list effect) (bs : list mbroker) (k k' : cluster) (b : Z) (c : cconn) : Prop :=
    exists B, In B bs /\ mb_id B = b /\ cc_host c = mb_host B /\ cc_port c = mb_port B /\ ~ holds k b /\
      (k_opened k <= cc_id c < k_opened k')%nat /\
      In (XConnect (cc_id c) (mb_host B) (mb_port B)) lg /\ In (XConnected (cc_id c)) lg.

  Lemma holds_waited died k b : holds (waited died k) b <-> holds k b.
  Proof. rewrite !holds_dmem, !dmem_true, waited_keys. tauto. Qed.

  Lemma add_brokers_spec bs : forall missing k missing' k',
    add_brokers w bs missing k = (Ret missing', k') -> wf k ->
    wf k' /\ k_topics k' = k_topics k /\ k_leaders k' = k_leaders k /\ (k_opened k <= k_opened k')%nat /\
    (forall b c, dget (k_conns k) b = Some c -> exists c', dget (k_conns k') b = Some c' /\ same_conn c c') /\
    (forall B, In B bs -> holds k' (mb_id B) \/ In (mb_id B) missing') /\
    (forall b, In b missing -> In b missing') /\
    exists lg, k_log k' = k_log k ++ lg /\
      Forall (connects_only bs k) lg /\
      (forall b, In b missing' -> In b missing \/ (~ holds k b /\ tried lg bs b)) /\
      (forall b c', dget (k_conns k') b = Some c' ->
         (exists c, dget (k_conns k) b = Some c /\ same_conn c c') \/ fresh_conn lg bs k k' b c').
  Proof.
    induction bs as [|B bs IH]; intros missing k missing' k' H W.
    { cbn [add_brokers] in H. injection H as <- <-. split; [exact W|].
      split; [reflexivity|]. split; [reflexivity|]. split; [lia|]. split; [|split; [|split; [auto|]]].
      - intros b c H. exists c. split; [exact H|apply same_refl].
      - intros B [].
      - exists []. rewrite app_nil_r. repeat split; auto. intros b c' H. left. exists c'. split; [exact H|apply same_refl]. }
    cbn [add_brokers] in H. destruct (dmem (k_conns k) (mb_id B)) eqn:EM.
    { destruct (IH _ _ _ _ H W) as (W' & T & L & O & P1 & P2 & P3 & lg & E & F & M & N).
      split; [exact W'|]. split; [exact T|]. split; [exact L|]. split; [exact O|]. split; [exact P1|].
      split; [|split; [exact P3|]].
      - intros B' [<-|HB]; [|now apply P2]. left. apply holds_dmem in EM as (c & Hc).
        destruct (P1 _ _ Hc) as (c' & Hc' & _). now exists c'.
      - exists lg. repeat split; auto.
        + eapply Forall_impl; [|exact F]. intros x. unfold connects_only. destruct x; auto.
          intros (B' & HB & R). exists B'. split; [now right|exact R].
        + intros b Hb. destruct (M b Hb) as [?|(Hh & B' & id & e & HB & R)]; [now left|right]. split; [exact Hh|].
          exists B', id, e. split; [now right|exact R].
        + intros b c' Hb. destruct (N b c' Hb) as [?|(B' & HB & R)]; [now left|right]. exists B'. split; [now right|exact R]. }
    assert (NH : ~ holds k (mb_id B)) by (rewrite holds_dmem, EM; discriminate).
    destruct (w_connect w (k_clock k)) as [|died [[]|e]]; [discriminate H| |].
    - set (k1 := opening (mb_host B) (mb_port B) k) in *. set (id := k_opened k) in *.
      set (k2 := emit (XConnected id) (waited died k1)) in *.
      set (k3 := set_conns k2 (dset (k_conns k2) (mb_id B) (CC (mb_host B) (mb_port B) id false))) in *.
      assert (W3 : wf k3).
      { assert (W2 : wf k2) by (apply (wf_ext (waited died k1)); [cbn; lia|reflexivity|reflexivity|]; apply wf_waited;
          apply (wf_ext k); [cbn; lia|reflexivity|reflexivity|exact W]).
        assert (dget (k_conns k2) (mb_id B) = None) as N2.
        { apply dget_None_notin. change (k_conns k2) with (k_conns (waited died k1)). rewrite waited_keys.
          now apply dmem_false. }
        destruct W2 as (A & A2 & D). unfold k3, wf, set_conns. cbn [k_conns k_opened].
        rewrite (dset_new _ _ _ N2). unfold dkeys in *. rewrite !map_app. cbn [map fst snd cc_id].
        assert (forall n, In n (map (fun bc => cc_id (snd bc)) (k_conns k2)) -> (n < id)%nat) as Lid.
        { intros n Hn. apply (ids_lt k n W). change (k_conns k2) with (k_conns (waited died k1)) in Hn.
          rewrite waited_ids in Hn. exact Hn. }
        repeat split.
        - apply NoDup_app_one; [exact A|]. now apply dget_None_notin in N2.
        - apply NoDup_app_one; [exact A2|]. intros Hn. apply Lid in Hn. lia.
        - intros b c Hc. destruct (Z.eq_dec b (mb_id B)) as [->|Nb].
          + rewrite <- (dset_new _ _ _ N2) in Hc. rewrite dget_dset_same in Hc. injection Hc as <-. cbn. lia.
          + rewrite <- (dset_new _ _ _ N2) in Hc. rewrite dget_dset_other in Hc by assumption. apply (D b c Hc). }
      destruct (IH _ _ _ _ H W3) as (W' & T & L & O & P1 & P2 & P3 & lg & E & F & M & N).
      assert (G3 : forall b, b <> mb_id B -> dget (k_conns k3) b = option_map (after died) (dget (k_conns k) b)).
      { intros b Nb. unfold k3, set_conns. cbn [k_conns]. rewrite dget_dset_other by assumption.
        exact (waited_get died k1 b). }
      assert (G3B : dget (k_conns k3) (mb_id B) = Some (CC (mb_host B) (mb_port B) id false)).
      { unfold k3, set_conns. cbn [k_conns]. apply dget_dset_same. }
      assert (O3 : k_opened k3 = S id) by reflexivity.
      assert (H3 : forall b, holds k b -> holds k3 b).
      { intros b (c & Hc). destruct (Z.eq_dec b (mb_id B)) as [->|Nb]; [eexists; exact G3B|].
        exists (after died c). rewrite G3 by assumption. now rewrite Hc. }
      split; [exact W'|]. split; [exact T|]. split; [exact L|]. split; [lia|]. split; [|split; [|split]].
      + intros b c Hc. destruct (Z.eq_dec b (mb_id B)) as [->|Nb]; [exfalso; apply NH; now exists c|].
        destruct (P1 b (after died c)) as (c' & Hc' & S); [rewrite G3 by assumption; now rewrite Hc|].
        exists c'. split; [exact Hc'|]. eapply same_trans; [apply after_same|exact S].
      + intros B' [<-|HB]; [|now apply P2]. left. destruct (P1 _ _ G3B) as (c' & Hc' & _). now exists c'.
      + exact P3.
      + exists (XConnect id (mb_host B) (mb_port B) :: XConnected id :: lg). split.
        { rewrite E. unfold k3, set_conns, k2, emit, waited, k1, opening. cbn [k_log]. now rewrite <- !app_assoc. }
        split; [constructor; [|constructor; [exact Logic.I|]]|split].
        * exists B. split; [now left|]. auto.
        * eapply Forall_impl; [|exact F]. intros x. unfold connects_only. destruct x; auto.
          intros (B' & HB & R1 & R2 & R3). exists B'. split; [now right|]. repeat split; auto.
        * intros b Hb. destruct (M b Hb) as [?|(Hh & B' & i & e & HB & R1 & R2 & R3)]; [now left|right].
          split; [intros HK; now apply Hh, H3|]. exists B', i, e. repeat split; try (now right); auto; right; now right.
        * intros b c' Hb. destruct (N b c' Hb) as [(c & Hc & S)|(B' & HB & R1 & R2 & R3 & R4 & R5 & R6 & R7)].
          -- destruct (Z.eq_dec b (mb_id B)) as [->|Nb].
             ++ right. exists B. rewrite G3B in Hc. injection Hc as <-. destruct S as (S1 & S2 & S3 & _).
                cbn [cc_id cc_host cc_port] in *. split; [now left|]. rewrite S1, S2, S3. repeat split; auto; try lia; cbn; auto.
             ++ left. rewrite G3 in Hc by assumption. destruct (dget (k_conns k) b) as [c0|]; [|discriminate Hc].
                injection Hc as <-. exists c0. split; [reflexivity|]. eapply same_trans; [apply after_same|exact S].
          -- right. exists B'. split; [now right|]. repeat split; auto; try lia; try (right; right; assumption).
    - set (k1 := opening (mb_host B) (mb_port B) k) in *. set (id := k_opened k) in *.
      set (k2 := emit (XConnectFailed id e) (waited died k1)) in *.
      assert (W2 : wf k2) by (apply (wf_ext (waited died k1)); [cbn; lia|reflexivity|reflexivity|]; apply wf_waited;
          apply (wf_ext k); [cbn; lia|reflexivity|reflexivity|exact W]).
      destruct (IH _ _ _ _ H W2) as (W' & T & L & O & P1 & P2 & P3 & lg & E & F & M & N).
      assert (G3 : forall b, dget (k_conns k2) b = option_map (after died) (dget (k_conns k) b)).
      { intros b. exact (waited_get died k1 b). }
      assert (O3 : k_opened k2 = S id) by reflexivity.
      assert (H3 : forall b, holds k b -> holds k2 b).
      { intros b (c & Hc). exists (after died c). rewrite G3. now rewrite Hc. }
      split; [exact W'|]. split; [exact T|]. split; [exact L|]. split; [lia|]. split; [|split; [|split]].
      + intros b c Hc. destruct (P1 b (after died c)) as (c' & Hc' & S); [rewrite G3; now rewrite Hc|].
        exists c'. split; [exact Hc'|]. eapply same_trans; [apply after_same|exact S].
      + intros B' [<-|HB]; [|now apply P2]. right. apply P3. apply in_sadd. now left.
      + intros b Hb. apply P3. apply in_sadd. now right.
      + exists (XConnect id (mb_host B) (mb_port B) :: XConnectFailed id e :: lg). split.
        { rewrite E. unfold k2, emit, waited, k1, opening. cbn [k_log]. now rewrite <- !app_assoc. }
        split; [constructor; [|constructor; [exact Logic.I|]]|split].
        * exists B. split; [now left|]. auto.
        * eapply Forall_impl; [|exact F]. intros x. unfold connects_only. destruct x; auto.
          intros (B' & HB & R1 & R2 & R3). exists B'. split; [now right|]. repeat split; auto.
        * intros b Hb. destruct (M b Hb) as [HS|(Hh & B' & i & e' & HB & R1 & R2 & R3)].
          -- apply in_sadd in HS as [->|HS]; [|now left]. right. split; [exact NH|].
             exists B, id, e. cbn. auto 10.
          -- right. split; [intros HK; now apply Hh, H3|]. exists B', i, e'. repeat split; try (now right); auto; right; now right.
        * intros b c' Hb. destruct (N b c' Hb) as [(c & Hc & S)|(B' & HB & R1 & R2 & R3 & R4 & R5 & R6 & R7)].
          -- left. rewrite G3 in Hc. destruct (dget (k_conns k) b) as [c0|]; [|discriminate Hc].
             injection Hc as <-. exists c0. split; [reflexivity|]. eapply same_trans; [apply after_same|exact S].
          -- right. exists B'. split; [now right|]. repeat split; auto; try lia; try (right; right; assumption).
  Qed.

  Lemma abort_one b k :
    k_topics (abort_conn k b) = k_topics k /\ k_leaders (abort_conn k b) = k_leaders k /\
    k_opened (abort_conn k b) = k_opened k /\ k_clock (abort_conn k b) = k_clock k /\
    (forall b', dget (k_conns (abort_conn k b)) b' =
                if Z.eqb b' b then option_map shut (dget (k_conns k) b) else dget (k_conns k) b').
  Proof.
    unfold abort_conn. destruct (dget (k_conns k) b) as [c|] eqn:E.
    - destruct (cc_closing c) eqn:Ec.
      + repeat split. intros b'. destruct (Z.eqb_spec b' b) as [->|]; [|reflexivity]. rewrite E. cbn.
        destruct c as [h p i cl]; cbn in *; now subst.
      + repeat split. intros b'. cbn [emit set_conns k_conns]. destruct (Z.eqb_spec b' b) as [->|N].
        * now rewrite dget_dset_same.
        * now apply dget_dset_other.
    - repeat split. intros b'. destruct (Z.eqb_spec b' b) as [->|]; [now rewrite E|reflexivity].
  Qed.

  Lemma dset_keys_same (d : dict Z cconn) b c : dget d b = Some c -> dkeys (dset d b (shut c)) = dkeys d /\
    (NoDup (dkeys d) -> map (fun bc => cc_id (snd bc)) (dset d b (shut c)) = map (fun bc => cc_id (snd bc)) d).
  Proof.
    induction d as [|[b0 c0] d IH]; [discriminate 1|]. cbn [dget dset]. destruct (eqb b0 b) eqn:E.
    - intros H. injection H as ->. split; reflexivity.
    - intros H. destruct (IH H) as [I1 I2]. unfold dkeys in *. cbn [map fst snd]. rewrite I1. split; [reflexivity|].
      intros ND. inversion ND; subst. now rewrite I2.
  Qed.

  Lemma abort_wf b k : wf k -> wf (abort_conn k b).
  Proof.
    intros W. unfold abort_conn. destruct (dget (k_conns k) b) as [c|] eqn:E; [|exact W].
    destruct (cc_closing c); [exact W|]. destruct (dset_keys_same _ _ _ E) as [E1 E2].
    apply (wf_ext k); cbn [emit set_conns k_conns k_opened]; auto. apply E2, W.
  Qed.

  Definition aborts_only (ds : list Z) (k : cluster) (x : effect) : Prop :=
    exists b c, In b ds /\ dget (k_conns k) b = Some c /\ cc_closing c = false /\ x = XAbort (cc_id c).

  Lemma abort_list ds : forall k, wf k ->
    let k' := fold_left abort_conn ds k in
    wf k' /\ k_topics k' = k_topics k /\ k_leaders k' = k_leaders k /\ k_opened k' = k_opened k /\ k_clock k' = k_clock k /\
    (forall b, dget (k_conns k') b = if smem ds b then option_map shut (dget (k_conns k) b) else dget (k_conns k) b) /\
    exists lg, k_log k' = k_log k ++ lg /\ Forall (aborts_only ds k) lg /\
      (forall b c, In b ds -> dget (k_conns k) b = Some c -> cc_closing c = false -> In (XAbort (cc_id c)) lg).
  Proof.
    induction ds as [|d ds IH]; intros k W; cbn [fold_left].
    - split; [exact W|]. do 5 (split; [reflexivity|]). exists []. rewrite app_nil_r. split; [reflexivity|]. split; [constructor|intros b c []].
    - destruct (abort_one d k) as (A1 & A2 & A3 & A4 & A5).
      destruct (IH _ (abort_wf d k W)) as (W' & B1 & B2 & B3 & B4 & B5 & lg & E & F & G).
      assert (SS : forall o : option cconn, option_map shut (option_map shut o) = option_map shut o)
        by (intros [c|]; reflexivity).
      split; [exact W'|]. do 4 (split; [congruence|]). split.
      + intros b. rewrite B5, A5. cbn [smem]. change (eqb d b) with (Z.eqb d b). rewrite (Z.eqb_sym d b).
        destruct (Z.eqb_spec b d) as [->|N]; cbn [orb]; destruct (smem ds _); auto.
      + clear A5 B5. destruct (dget (k_conns k) d) as [c|] eqn:Ed.
        2:{ assert (abort_conn k d = k) as AC by (unfold abort_conn; now rewrite Ed). rewrite AC in *. exists lg. split; [exact E|]. split.
            - eapply Forall_impl; [|exact F]. intros x (b & c & Hb & R). exists b, c. split; [now right|exact R].
            - intros b c [<-|Hb] Hc; [congruence|]. now apply (G b). }
        destruct (cc_closing c) eqn:Ec.
        { assert (abort_conn k d = k) as AC by (unfold abort_conn; now rewrite Ed, Ec). rewrite AC in *. exists lg.
          split; [exact E|]. split.
          - eapply Forall_impl; [|exact F]. intros x (b & c' & Hb & R). exists b, c'. split; [now right|exact R].
          - intros b c' [<-|Hb] Hc Hcl; [congruence|]. now apply (G b). }
        assert (abort_conn k d = emit (XAbort (cc_id c)) (set_conns k (dset (k_conns k) d (shut c)))) as AC
          by (unfold abort_conn; now rewrite Ed, Ec). rewrite AC in *.
        exists (XAbort (cc_id c) :: lg). split; [rewrite E; cbn [emit set_conns k_log]; now rewrite <- app_assoc|]. split.
        * constructor; [exists d, c; cbn; auto|]. eapply Forall_impl; [|exact F].
          intros x (b & c' & Hb & Hc & Hcl & R). cbn [emit set_conns k_conns] in Hc.
          destruct (Z.eq_dec b d) as [->|N].
          -- rewrite dget_dset_same in Hc. injection Hc as <-. discriminate Hcl.
          -- rewrite dget_dset_other in Hc by assumption. exists b, c'. split; [now right|auto].
        * intros b c' Hb Hc Hcl. destruct (Z.eq_dec b d) as [->|N]; [left; congruence|].
          right. destruct Hb as [->|Hb]; [congruence|]. apply (G b); auto. cbn [emit set_conns k_conns].
          rewrite dget_dset_other by assumption. exact Hc.
  Qed.
End Brokers.

Lemma process_brokers_spec w bs k missing k' :
  process_brokers w bs k = (Ret missing, k') -> wf k ->
  wf k' /\ k_topics k' = k_topics k /\ k_leaders k' = k_leaders k /\ (k_opened k <= k_opened k')%nat /\
  (forall b, listed bs b -> holds k' b \/ In b missing) /\
  (forall b c, dget (k_conns k) b = Some c ->
     exists c', dget (k_conns k') b = Some c' /\ same_conn c c' /\ (~ listed bs b -> cc_closing c' = true)) /\
  exists lg, k_log k' = k_log k ++ lg /\
    (forall x, In x lg -> connects_only bs k x \/
       exists b c, dget (k_conns k) b = Some c /\ ~ listed bs b /\ x = XAbort (cc_id c)) /\
    (forall b, In b missing -> ~ holds k b /\ tried lg bs b) /\
    (forall b c', dget (k_conns k') b = Some c' ->
       (exists c, dget (k_conns k) b = Some c /\ same_conn c c') \/ fresh_conn lg bs k k' b c').
Proof.
  unfold process_brokers. set (ds := filter _ (dkeys (k_conns k))). intros H W.
  destruct (add_brokers w bs [] k) as [[ms| |] k1] eqn:EA; try discriminate H.
  injection H as <- <-.
  destruct (add_brokers_spec w bs _ _ _ _ EA W) as (W1 & T & L & O & P1 & P2 & P3 & lg & E & F & M & N).
  destruct (abort_list ds k1 W1) as (W' & B1 & B2 & B3 & B4 & B5 & lg2 & E2 & F2 & G2).
  set (k' := fold_left abort_conn ds k1) in *.
  assert (DS : forall b, smem ds b = true <-> holds k b /\ ~ listed bs b).
  { intros b. rewrite smem_In. unfold ds. rewrite filter_In, negb_true_iff, smem_false, holds_dmem, dmem_true.
    unfold listed. split; intros [A B]; (split; [exact A|]); intros C; apply B.
    - destruct C as (B0 & HB & <-). now apply in_map.
    - apply in_map_iff in C as (B0 & <- & HB). eauto. }
  split; [exact W'|]. split; [congruence|]. split; [congruence|]. split; [lia|]. split; [|split].
  - intros b (B & HB & <-). destruct (P2 B HB) as [(c & Hc)|Hm]; [left|now right].
    unfold holds. rewrite B5, Hc. destruct (smem ds (mb_id B)); eexists; reflexivity.
  - intros b c Hc. destruct (P1 b c Hc) as (c1 & Hc1 & S). rewrite B5, Hc1. destruct (smem ds b) eqn:Es.
    + exists (shut c1). split; [reflexivity|]. split; [eapply same_trans; [exact S|apply same_shut]|reflexivity].
    + exists c1. split; [reflexivity|]. split; [exact S|]. intros NL. exfalso.
      assert (smem ds b = true) by (apply DS; split; [now exists c|exact NL]). congruence.
  - exists (lg ++ lg2). split; [rewrite E2, E; now rewrite <- app_assoc|]. split; [|split].
    + intros x Hx. apply in_app_or in Hx as [Hx|Hx]; [left; now apply (proj1 (Forall_forall _ _) F)|right].
      apply (proj1 (Forall_forall _ _) F2) in Hx as (b & c & Hb & Hc & _ & ->).
      assert (smem ds b = true) as Hs by now apply smem_In. apply DS in Hs as [(c0 & Hc0) NL].
      destruct (P1 b c0 Hc0) as (c1 & Hc1 & S & _). exists b, c0. split; [exact Hc0|]. split; [exact NL|]. congruence.
    + intros b Hb. destruct (M b Hb) as [[]|(Hh & B & id & e & R1 & R2 & R3 & R4)]. split; [exact Hh|].
      exists B, id, e. repeat split; auto; apply in_or_app; now left.
    + intros b c' Hb. rewrite B5 in Hb.
      assert (exists c1, dget (k_conns k1) b = Some c1 /\ same_conn c1 c') as (c1 & Hc1 & S1).
      { destruct (smem ds b); [|exists c'; split; [exact Hb|apply same_refl]].
        destruct (dget (k_conns k1) b) as [c1|]; [|discriminate Hb]. injection Hb as <-. exists c1. split; [reflexivity|apply same_shut]. }
      destruct (N b c1 Hc1) as [(c & Hc & S)|(B & R1 & R2 & R3 & R4 & R5 & R6 & R7 & R8)].
      * left. exists c. split; [exact Hc|]. eapply same_trans; eauto.
      * right. exists B. destruct S1 as (S1 & S2 & S3 & _). rewrite S1, S2, S3.
        repeat split; auto; try lia; apply in_or_app; now left.
Qed.

Lemma add_brokers_no_raise w bs : forall missing k e k', add_brokers w bs missing k <> (Raise e, k').
Proof.
  induction bs as [|B bs IH]; intros missing k e k' H; cbn [add_brokers] in H; [discriminate H|].
  destruct (dmem (k_conns k) (mb_id B)); [now apply IH in H|].
  destruct (w_connect w (k_clock k)) as [|died [[]|e']]; [discriminate H|now apply IH in H|now apply IH in H].
Qed.
Lemma process_brokers_no_raise w bs k e k' : process_brokers w bs k <> (Raise e, k').
Proof.
  unfold process_brokers. destruct (add_brokers w bs [] k) as [[ms|e0|] k1] eqn:EA; try discriminate.
  now apply add_brokers_no_raise in EA.
Qed.

(** ** get_metadata *)
Definition unchanged (k k' : cluster) : Prop :=
  k_topics k' = k_topics k /\ k_leaders k' = k_leaders k /\ k_opened k' = k_opened k /\
  dkeys (k_conns k') = dkeys (k_conns k) /\
  map (fun bc => cc_id (snd bc)) (k_conns k') = map (fun bc => cc_id (snd bc)) (k_conns k) /\
  (forall b c, dget (k_conns k) b = Some c -> exists c', dget (k_conns k') b = Some c' /\ same_conn c c').
Lemma unchanged_refl k : unchanged k k.
Proof. unfold unchanged. repeat split; auto. intros b c H. exists c. split; [exact H|apply same_refl]. Qed.
Lemma unchanged_trans a b c : unchanged a b -> unchanged b c -> unchanged a c.
Proof.
  intros (A1 & A2 & A3 & A4 & A5 & A6) (B1 & B2 & B3 & B4 & B5 & B6). unfold unchanged.
  do 5 (split; [congruence|]). intros x y H. destruct (A6 _ _ H) as (y1 & H1 & S1). destruct (B6 _ _ H1) as (y2 & H2 & S2).
  exists y2. split; [exact H2|]. eapply same_trans; eauto.
Qed.
Lemma unchanged_wf k k' : unchanged k k' -> wf k -> wf k'.
Proof. intros (A1 & A2 & A3 & A4 & A5 & A6). apply wf_ext; auto. lia. Qed.
Lemma unchanged_waited x y died k : unchanged k (emit x (waited died (emit y k))).
Proof.
  unfold unchanged. cbn [emit k_topics k_leaders k_opened k_conns].
  split; [reflexivity|]. split; [reflexivity|]. split; [reflexivity|].
  split; [apply (waited_keys died (emit y k))|]. split; [apply (waited_ids died (emit y k))|].
  intros b c H. exists (after died c). split; [|apply after_same].
  pose proof (waited_get died (emit y k) b) as G. rewrite G. cbn [emit k_conns]. now rewrite H.
Qed.
Lemma unchanged_back k k' b c' : unchanged k k' -> dget (k_conns k') b = Some c' ->
  exists c, dget (k_conns k) b = Some c /\ same_conn c c'.
Proof.
  intros (_ & _ & _ & A4 & _ & A6) H. assert (In b (dkeys (k_conns k))) as HI by (rewrite <- A4; now apply dget_Some_in in H).
  apply in_dkeys_dget in HI as (c & Hc). destruct (A6 _ _ Hc) as (c1 & H1 & S). exists c. split; [exact Hc|]. congruence.
Qed.
Lemma unchanged_conn_id k k' b : unchanged k k' -> conn_id k' b = conn_id k b.
Proof.
  intros U. unfold conn_id. destruct (dget (k_conns k') b) as [c'|] eqn:E.
  - destruct (unchanged_back _ _ _ _ U E) as (c & -> & S). apply S.
  - destruct (dget (k_conns k) b) as [c|] eqn:Ec; [|reflexivity]. destruct U as (_ & _ & _ & _ & _ & A).
    destruct (A _ _ Ec) as (c1 & H & _). congruence.
Qed.
Lemma closing_now_mono k k' b : unchanged k k' -> closing_now k b -> closing_now k' b.
Proof.
  intros (_ & _ & _ & _ & _ & A) (c & H & Hc). destruct (A _ _ H) as (c' & H' & S). exists c'. split; [exact H'|]. now apply S.
Qed.

Lemma ask_each_spec w bs : forall topics k o k',
  ask_each w bs topics k = (o, k') -> (forall b, In b bs -> holds k b) ->
  unchanged k k' /\
  match o with
  | Ret (Some r) =>
      exists pre b post xs, bs = pre ++ b :: post /\ all_failed k k' pre xs /\
        k_log k' = k_log k ++ failed_asks topics xs ++ [XAsk (conn_id k b) topics; XAnswer (conn_id k b) r]
  | Ret None => exists xs, all_failed k k' bs xs /\ k_log k' = k_log k ++ failed_asks topics xs
  | Raise e =>
      exists pre b post xs, bs = pre ++ b :: post /\ all_failed k k' pre xs /\ ~ connection_lost e /\
        k_log k' = k_log k ++ failed_asks topics xs ++ [XAsk (conn_id k b) topics; XAskFailed (conn_id k b) e]
  | Wait => 
      exists pre b post xs, bs = pre ++ b :: post /\ all_failed k k' pre xs /\
        k_log k' = k_log k ++ failed_asks topics xs ++ [XAsk (conn_id k b) topics]
  end.
Proof.
  assert (AF0 : forall k k', all_failed k k' [] []).
  { intros. split; [constructor|]. split; [constructor|]. intros b []. }
  induction bs as [|b bs IH]; intros topics k o k' H HB; cbn [ask_each] in H.
  { injection H as <- <-. split; [apply unchanged_refl|]. exists []. split; [apply AF0|]. cbn. now rewrite app_nil_r. }
  destruct (HB b (or_introl eq_refl)) as (c & Hc). rewrite Hc in H.
  assert (Ci : conn_id k b = cc_id c) by (unfold conn_id; now rewrite Hc).
  destruct (cc_closing c) eqn:Ec.
  - destruct (IH _ _ _ _ H) as (U & S); [intros; apply HB; now right|]. split; [exact U|].
    assert (CN : closing_now k' b) by (eapply closing_now_mono; [exact U|]; now exists c).
    assert (AF : forall pre xs, all_failed k k' pre xs -> all_failed k k' (b :: pre) xs).
    { intros pre xs (A1 & A2 & A3). split; [now apply sub_skip|]. split; [exact A2|]. intros b' [<-|Hb]; [now left|now apply A3]. }
    destruct o as [[r|]|e|].
    + destruct S as (pre & b' & post & xs & -> & S & E). exists (b :: pre), b', post, xs. auto.
    + destruct S as (xs & S & E). exists xs. auto.
    + destruct S as (pre & b' & post & xs & -> & S & E). exists (b :: pre), b', post, xs. auto.
    + destruct S as (pre & b' & post & xs & -> & S & E). exists (b :: pre), b', post, xs. auto.
  - destruct (w_ask w (k_clock k)) as [|died [r|e]].
    + injection H as <- <-. split.
      * unfold unchanged. cbn. repeat split; auto. intros b' c' H'. exists c'. split; [exact H'|apply same_refl].
      * exists [], b, bs, []. split; [reflexivity|]. split; [apply AF0|]. cbn. now rewrite Ci.
    + injection H as <- <-. split; [apply unchanged_waited|].
      exists [], b, bs, []. split; [reflexivity|]. split; [apply AF0|]. cbn. rewrite Ci. now rewrite <- app_assoc.
    + set (k2 := emit (XAskFailed (cc_id c) e) (waited died (emit (XAsk (cc_id c) topics) k))) in *.
      assert (U2 : unchanged k k2) by apply unchanged_waited.
      assert (L2 : k_log k2 = k_log k ++ [XAsk (cc_id c) topics; XAskFailed (cc_id c) e]) by (cbn; now rewrite <- app_assoc).
      destruct (skips e) eqn:Es.
      * destruct (IH _ _ _ _ H) as (U & S).
        { intros b' Hb. destruct (HB b' (or_intror Hb)) as (c' & Hc'). destruct U2 as (_ & _ & _ & _ & _ & A).
          destruct (A _ _ Hc') as (c2 & H2 & _). now exists c2. }
        split; [eapply unchanged_trans; eauto|].
        assert (CL : connection_lost e) by (destruct e; try discriminate Es; unfold connection_lost; auto).
        assert (AF : forall pre xs, all_failed k2 k' pre xs -> all_failed k k' (b :: pre) ((cc_id c, e) :: xs)).
        { intros pre xs (A1 & A2 & A3). split; [|split].
          - cbn [map fst]. rewrite Ci. apply sub_take.
            rewrite (map_ext (conn_id k) (conn_id k2)) by (intros; symmetry; now apply unchanged_conn_id). exact A1.
          - constructor; [exact CL|exact A2].
          - intros b' [<-|Hb]; [right; rewrite Ci; now left|]. destruct (A3 b' Hb) as [?|Hi]; [now left|].
            right. right. now rewrite (unchanged_conn_id k k2) in Hi. }
        destruct o as [[r|]|e'|].
        -- destruct S as (pre & b' & post & xs & -> & S & E). exists (b :: pre), b', post, ((cc_id c, e) :: xs).
           split; [reflexivity|]. split; [now apply AF|]. rewrite E, L2, (unchanged_conn_id k k2) by assumption.
           cbn. now rewrite <- !app_assoc.
        -- destruct S as (xs & S & E). exists ((cc_id c, e) :: xs). split; [now apply AF|].
           rewrite E, L2. cbn. now rewrite <- !app_assoc.
        -- destruct S as (pre & b' & post & xs & -> & S & NL & E). exists (b :: pre), b', post, ((cc_id c, e) :: xs).
           split; [reflexivity|]. split; [now apply AF|]. split; [exact NL|]. rewrite E, L2, (unchanged_conn_id k k2) by assumption.
           cbn. now rewrite <- !app_assoc.
        -- destruct S as (pre & b' & post & xs & -> & S & E). exists (b :: pre), b', post, ((cc_id c, e) :: xs).
           split; [reflexivity|]. split; [now apply AF|]. rewrite E, L2, (unchanged_conn_id k k2) by assumption.
           cbn. now rewrite <- !app_assoc.
      * injection H as <- <-. split; [exact U2|]. exists [], b, bs, []. split; [reflexivity|]. split; [apply AF0|].
        split; [intros [->| ->]; discriminate Es|]. rewrite L2, Ci. reflexivity.
Qed.

Lemma get_metadata_unchanged w topics k o k' : get_metadata w topics k = (o, k') -> unchanged k k'.
Proof.
  unfold get_metadata. destruct (ask_each w (dkeys (k_conns k)) topics k) as [o1 k1] eqn:E.
  apply ask_each_spec in E as [U _]; [|intros b Hb; now apply in_dkeys_dget in Hb].
  destruct o1 as [[r|]| |]; intros H; injection H as <- <-; exact U.
Qed.

(** ** heal *)
Definition newer (k k' : cluster) : Prop :=
  (k_opened k <= k_opened k')%nat /\
  forall b c', dget (k_conns k') b = Some c' ->
    (exists b0 c, dget (k_conns k) b0 = Some c /\ cc_id c' = cc_id c) \/ (k_opened k <= cc_id c')%nat.
Lemma newer_refl k : newer k k.
Proof. split; [lia|]. intros b c H. left. eauto. Qed.
Lemma newer_trans a b c : newer a b -> newer b c -> newer a c.
Proof.
  intros [O1 A] [O2 B]. split; [lia|]. intros x y H. destruct (B _ _ H) as [(b0 & c0 & H0 & E)|L]; [|right; lia].
  destruct (A _ _ H0) as [(b1 & c1 & H1 & E1)|L]; [left; exists b1, c1; split; [exact H1|congruence]|right; lia].
Qed.
Lemma unchanged_newer k k' : unchanged k k' -> newer k k'.
Proof.
  intros U. split; [destruct U as (_ & _ & -> & _); lia|]. intros b c' H.
  destruct (unchanged_back _ _ _ _ U H) as (c & Hc & S). left. exists b, c. split; [exact Hc|apply S].
Qed.

Lemma answers_app a b : answers (a ++ b) = answers a ++ answers b.
Proof. apply flat_map_app. Qed.

Lemma process_spec w r k mb mt k' :
  process w r k = (Ret (mb, mt), k') -> wf k ->
  wf k' /\ newer k k' /\ tables_of k' r /\ (mb = [] -> mt = [] -> settled k' r) /\
  exists lg, k_log k' = k_log k ++ lg /\ answers lg = [].
Proof.
  unfold process. intros H W. destruct (process_brokers w (mr_brokers r) k) as [[ms| |] k1] eqn:EB; try discriminate H.
  destruct (process_topics (mr_topics r) k1) as [mt' k2] eqn:ET. injection H as -> -> <-.
  destruct (process_brokers_spec _ _ _ _ _ EB W) as (W1 & T & L & O & P1 & P2 & lg & E & F & M & N).
  destruct (process_topics_spec _ _ _ _ ET) as (Q1 & Q2 & Q3 & Q4 & C & Op & Ck & Lg).
  assert (HC : forall b, holds k2 b <-> holds k1 b) by (intros b; unfold holds; now rewrite C).
  split; [|split; [|split; [|split]]].
  - destruct W1 as (A & B & D). unfold wf. rewrite C, Op. auto.
  - split; [lia|]. rewrite C. intros b c' Hc. destruct (N b c' Hc) as [(c & H0 & S)|(B & _ & _ & _ & _ & _ & R & _)].
    + left. exists b, c. split; [exact H0|apply S].
    + right. lia.
  - split; [exact Q1|]. split; [exact Q2|exact Q3].
  - intros -> ->. split.
    + intros b Hb. apply HC. destruct (P1 b Hb) as [?|[]]. assumption.
    + intros t Ht. now apply Q4 in Ht.
  - exists lg. split; [now rewrite Lg|]. clear -F. induction lg as [|x lg IH]; [reflexivity|].
    unfold answers. cbn [flat_map]. fold (answers lg). rewrite IH by (intros y Hy; apply F; now right).
    destruct (F x (or_introl eq_refl)) as [H|(b & c & _ & _ & ->)]; [|reflexivity]. destruct x; cbn in H; tauto.
Qed.

Lemma failed_no_answers topics xs : answers (failed_asks topics xs) = [].
Proof. induction xs as [|x xs IH]; [reflexivity|]. exact IH. Qed.

Lemma get_metadata_answer w topics k r k' : get_metadata w topics k = (Ret r, k') ->
  unchanged k k' /\ exists lg, k_log k' = k_log k ++ lg /\ answers lg = [r].
Proof.
  intros H. split; [now apply get_metadata_unchanged in H|]. unfold get_metadata in H.
  destruct (ask_each w (dkeys (k_conns k)) topics k) as [o1 k1] eqn:E.
  apply ask_each_spec in E as [U S]; [|intros b Hb; now apply in_dkeys_dget in Hb].
  destruct o1 as [[r'|]| |]; try discriminate H. injection H as -> <-.
  destruct S as (pre & b & post & xs & _ & _ & ->). eexists. split; [reflexivity|].
  rewrite answers_app, failed_no_answers. reflexivity.
Qed.

Lemma heal_loop_spec w fuel : forall m k k' r0,
  heal_loop w fuel m k = (Ret tt, k') -> wf k -> tables_of k r0 -> (fst m = [] -> snd m = [] -> settled k r0) ->
  wf k' /\ newer k k' /\
  exists lg r l, k_log k' = k_log k ++ lg /\ r0 :: answers lg = l ++ [r] /\ settled k' r /\ tables_of k' r.
Proof.
  assert (Done : forall k r0, wf k -> tables_of k r0 -> settled k r0 ->
    wf k /\ newer k k /\ exists lg r l, k_log k = k_log k ++ lg /\ r0 :: answers lg = l ++ [r] /\ settled k r /\ tables_of k r).
  { intros k r0 W T S. split; [exact W|]. split; [apply newer_refl|]. exists [], r0, []. rewrite app_nil_r. auto. }
  induction fuel as [|fuel IH]; intros [mb mt] k k' r0 H W T St; cbn [fst snd] in St.
  - destruct mb; [destruct mt|]; cbn [heal_loop] in H; try discriminate H. injection H as <-. now apply Done; auto.
  - assert (mb = [] /\ mt = [] \/ heal_loop w (S fuel) (mb, mt) k = 
      match get_metadata w mt k with
      | (Ret r, k1) => match process w r k1 with
          | (Ret m, k2) => heal_loop w fuel m k2 | (Raise e, k2) => (Raise e, k2) | (Wait, k2) => (Wait, k2) end
      | (Raise e, k1) => (Raise e, k1) | (Wait, k1) => (Wait, k1) end) as [[-> ->]|E].
    { destruct mb; [destruct mt; [now left|]|]; right; reflexivity. }
    { cbn [heal_loop] in H. injection H as <-. now apply Done; auto. }
    rewrite E in H. clear E. destruct (get_metadata w mt k) as [[r| |] k1] eqn:EG; try discriminate H.
    destruct (get_metadata_answer _ _ _ _ _ EG) as (U & lg1 & L1 & A1).
    destruct (process w r k1) as [[[mb' mt']| |] k2] eqn:EP; try discriminate H.
    assert (W1 : wf k1) by now apply (unchanged_wf k).
    destruct (process_spec _ _ _ _ _ _ EP W1) as (W2 & N2 & T2 & S2 & lg2 & L2 & A2).
    destruct (IH _ _ _ _ H W2 T2 S2) as (W' & N' & lg & r' & l & L & E & Se & Ta).
    split; [exact W'|]. split; [eapply newer_trans; [apply unchanged_newer; exact U|]; eapply newer_trans; eauto|].
    exists (lg1 ++ lg2 ++ lg), r', (r0 :: l). split; [rewrite L, L2, L1; now rewrite <- !app_assoc|].
    split; [|auto]. rewrite !answers_app, A1, A2. cbn [app]. now rewrite E.
Qed.

Lemma cull_get k b c : NoDup (dkeys (k_conns k)) ->
  (dget (k_conns (cull k)) b = Some c <-> dget (k_conns k) b = Some c /\ cc_closing c = false).
Proof.
  unfold cull, set_conns. cbn [k_conns]. induction (k_conns k) as [|[b0 c0] d IH]; cbn [filter dget]; intros ND.
  - split; [discriminate|intros [H _]; discriminate H].
  - cbn [dkeys map fst] in ND. inversion ND as [|? ? N1 N2]; subst. specialize (IH N2).
    cbn [snd]. destruct (eqb b0 b) eqn:E.
    + apply eqb_true in E. subst b0. destruct (cc_closing c0) eqn:Ec; cbn [negb dget].
      * split; [|intros [H Hc]; injection H as <-; congruence]. intros H. exfalso. apply N1.
        apply dget_Some_in in H. clear -H. unfold dkeys in *. apply in_map_iff in H as (x & <- & H).
        apply filter_In in H as [H _]. now apply in_map.
      * rewrite eqb_refl. split; [intros H; injection H as <-; auto|intros [H _]; exact H].
    + destruct (cc_closing c0); cbn [negb dget]; [exact IH|]. rewrite E. exact IH.
Qed.

Lemma nodup_map_filter {A B} (f : A -> B) g (l : list A) : NoDup (map f l) -> NoDup (map f (filter g l)).
Proof.
  induction l as [|x l IH]; cbn; intros N; [constructor|]. inversion N; subst. destruct (g x); cbn; [constructor|]; auto.
  intros H. apply in_map_iff in H as (y & E & H). apply filter_In in H as [H _]. apply H1. rewrite <- E. now apply in_map.
Qed.
Lemma cull_wf k : wf k -> wf (cull k).
Proof.
  intros (A & B & D). split; [apply nodup_map_filter; exact A|]. split; [apply nodup_map_filter; exact B|].
  intros b c H. apply cull_get in H as [H _]; [|exact A]. exact (D b c H).
Qed.

Definition dropped (k k' : cluster) : Prop :=
  forall b c, dget (k_conns k) b = Some c -> cc_closing c = true ->
    forall b' c', dget (k_conns k') b' = Some c' -> cc_id c' <> cc_id c.

Lemma id_inj k b c b' c' : wf k -> dget (k_conns k) b = Some c -> dget (k_conns k) b' = Some c' -> cc_id c = cc_id c' -> (b, c) = (b', c').
Proof.
  intros (_ & N & _) H H' E. apply dget_In in H, H'.
  set (f := fun bc : Z * cconn => cc_id (snd bc)) in *.
  assert (f (b, c) = f (b', c')) as E' by exact E. clear E.
  revert H H' E' N. generalize (b, c) (b', c') (k_conns k). intros x y l.
  intros Hx Hy E N. induction l as [|z l IH]; [destruct Hx|]. cbn [map] in N. inversion N; subst.
  destruct Hx as [->|Hx], Hy as [->|Hy]; auto.
  - exfalso. apply H1. rewrite E. now apply in_map.
  - exfalso. apply H1. rewrite <- E. now apply in_map.
Qed.

Lemma heal_with_spec w fuel r0 k k' :
  heal_with w fuel r0 k = (Ret tt, k') -> wf k ->
  wf k' /\ dropped k k' /\
  exists lg r l, k_log k' = k_log k ++ lg /\ r0 :: answers lg = l ++ [r] /\ settled k' r /\ tables_of k' r.
Proof.
  unfold heal_with. intros H W. destruct (process w r0 (cull k)) as [[[mb mt]| |] k1] eqn:EP; try discriminate H.
  destruct (process_spec _ _ _ _ _ _ EP (cull_wf _ W)) as (W1 & N1 & T1 & S1 & lg1 & L1 & A1).
  destruct (heal_loop_spec _ _ _ _ _ _ H W1 T1 S1) as (W' & N' & lg & r & l & L & E & Se & Ta).
  split; [exact W'|]. split.
  - intros b c Hc Hcl b' c' Hc' Eid. destruct (newer_trans _ _ _ N1 N') as [O N]. destruct (N _ _ Hc') as [(b0 & c0 & H0 & E0)|Lt].
    + apply cull_get in H0 as [H0 Hn]; [|apply W]. rewrite Eid in E0. pose proof (id_inj _ _ _ _ _ W Hc H0 E0) as E1.
      injection E1 as -> ->. congruence.
    + destruct W as (_ & _ & D). apply D in Hc. change (k_opened (cull k)) with (k_opened k) in Lt. lia.
  - exists (lg1 ++ lg), r, l. split; [rewrite L, L1; now rewrite <- app_assoc|]. split; [|auto].
    now rewrite answers_app, A1.
Qed.

Lemma heal_raises w fuel : forall m k e k', heal_loop w fuel m k = (Raise e, k') ->
  exists topics k0, get_metadata w topics k0 = (Raise e, k').
Proof.
  induction fuel as [|fuel IH]; intros [mb mt] k e k' H.
  - destruct mb; [destruct mt|]; discriminate H.
  - assert (match get_metadata w mt k with
      | (Ret r, k1) => match process w r k1 with
          | (Ret m, k2) => heal_loop w fuel m k2 | (Raise e, k2) => (Raise e, k2) | (Wait, k2) => (Wait, k2) end
      | (Raise e, k1) => (Raise e, k1) | (Wait, k1) => (Wait, k1) end = (Raise e, k')) as E
      by (destruct mb; [destruct mt; [discriminate H|]|]; exact H). clear H.
    destruct (get_metadata w mt k) as [[r|e0|] k1] eqn:EG; try discriminate E; [|injection E as -> ->; eauto].
    unfold process in E. destruct (process_brokers w (mr_brokers r) k1) as [[ms|e1|] k2] eqn:EB; try discriminate E.
    + destruct (process_topics (mr_topics r) k2) as [mt' k3]. eauto.
    + now apply process_brokers_no_raise in EB.
Qed.

Lemma heal_with_raises w fuel r k e k' : heal_with w fuel r k = (Raise e, k') ->
  exists topics k0, get_metadata w topics k0 = (Raise e, k').
Proof.
  unfold heal_with, process. intros E.
  destruct (process_brokers w (mr_brokers r) (cull k)) as [[ms|e1|] k2] eqn:EB; try discriminate E.
  - destruct (process_topics (mr_topics r) k2) as [mt' k3]. now apply heal_raises in E.
  - now apply process_brokers_no_raise in EB.
Qed.

Lemma heal_loop_more w fuel : forall m k o k' n, heal_loop w fuel m k = (o, k') -> o <> Wait -> heal_loop w (fuel + n) m k = (o, k').
Proof.
  induction fuel as [|fuel IH]; intros [mb mt] k o k' n H N.
  - destruct mb; [destruct mt|]; cbn [heal_loop] in H; [|injection H as <- <-; congruence|injection H as <- <-; congruence].
    injection H as <- <-. cbn [plus]. destruct n; reflexivity.
  - cbn [plus]. destruct mb; [destruct mt; [exact H|]|]; cbn [heal_loop] in *;
      (destruct (get_metadata w _ k) as [[r|e0|] k1]; auto; destruct (process w r k1) as [[m|e1|] k2]; auto).
Qed.
