(** Property C104: what the maker writes to a partition, by number. *)
From Coq Require Import ZArith Lia String List Bool Sorting.Sorted.
From Verif Require Import PyBase BaseLemmas Constants Cluster JsonValues Producer SpecProducer ProducerProofs PropsProducer SpecFlow ProducerRun SpecTurns TurnsProofs PropsTurns Maker.
Import ListNotations.
Open Scope Z_scope.

(** the topic has the partitions [ps] whenever a message may be sent, or none are known *)
Definition partitions_stay (topic : text) (ps : list Z) (s : producer) (ev : pevent) : Prop :=
  match ev with
  | EvProduce _ _ _ | EvResume _ _ _ => partitions_of (p_cluster s) topic = ps \/ partitions_of (p_cluster s) topic = []
  | _ => True
  end.
(** the partition message number [n] belongs to *)
Definition place (ps : list Z) (n : Z) : Z := nth (Z.to_nat (n mod zlen ps)) ps 0.

Definition maker_home (ps : list Z) (t : text) (m : pmsg) : Z := match m_key (pm_msg m) with PInt k => place ps k | _ => 0 end.
Lemma in_order_unmap {A B} (f : A -> B) l : forall a, in_order a (map f l) -> exists l', a = map f l' /\ in_order l' l.
Proof.
  induction l as [|x l IH]; cbn; intros a H; inversion H; subst.
  - exists []. split; [reflexivity|constructor].
  - destruct (IH _ ltac:(eassumption)) as (l' & -> & O). exists l'. split; [reflexivity|now constructor].
  - match goal with X : in_order _ (map f l) |- _ => destruct (IH _ X) as (l' & -> & O) end. exists (x :: l'). split; [reflexivity|now constructor].
Qed.
Lemma in_order_Zsorted (a b : list Z) : in_order a b -> StronglySorted Z.lt b -> StronglySorted Z.lt a.
Proof.
  induction 1 as [|x a b H IH|x a b H IH]; intros S; [constructor| |]; inversion S as [|? ? S1 S2]; subst; [auto|]. constructor; [auto|]. rewrite Forall_forall in *. intros y Y. apply S2. eapply in_order_in; eassumption.
Qed.

Section C104.
  Variable batch_size : option Z.
  Variables acks timeout : Z.
  Variable compress_fails : list pmsg -> option exn.
  Variable serialize_fails : prequest -> option exn.
  Variable topic : text.
  Variable color : Z -> text.
  Notation pstep := (pstep batch_size acks timeout compress_fails serialize_fails).
  Notation prun := (prun batch_size acks timeout compress_fails serialize_fails).
  Notation accepted := (accepted batch_size acks timeout compress_fails serialize_fails).
  Notation accepts := (accepts batch_size acks timeout compress_fails serialize_fails).
  Notation each_event := (each_event batch_size acks timeout compress_fails serialize_fails).
  Notation refused := (refused batch_size acks timeout compress_fails serialize_fails).
  Notation maker_runs := (maker_runs batch_size acks timeout compress_fails serialize_fails topic color).
  Notation maker_ends := (maker_ends batch_size acks timeout compress_fails serialize_fails).
  Notation maker_then := (maker_then batch_size acks timeout compress_fails serialize_fails).
  Notation message_no := (message_no color).

  Definition from (st : Z * making) : Z := match snd st with Healing => fst st | _ => fst st + 1 end.
  Lemma resume_not_heal part t mk s : fst (produce_resume batch_size acks timeout compress_fails serialize_fails part t mk s) <> AwaitHeal.
  Proof. unfold produce_resume. destruct (negb _); [discriminate|]. destruct (enqueue t mk s) as [[u|e] s1]; [|discriminate]. destruct (flush_due batch_size s1); [|discriminate]. destruct (flush acks timeout compress_fails serialize_fails part s1) as [[rqs|e] s2]; discriminate. Qed.
  (** an event of the program accepts nothing or the message it is about *)
  Lemma maker_accepts st s ev : pinv s -> maker_may topic color st s ev ->
    from st <= from (maker_then st s ev) /\ fst st <= fst (maker_then st s ev) /\
    (accepts s ev = [] \/ exists n, accepts s ev = [(topic, message_no n)] /\ from st <= n < from (maker_then st s ev) /\ n <= fst (maker_then st s ev)).
  Proof.
    intros I M. destruct ev as [part t mk|part t mk|part|part|c resp|c e| |k|]; cbn [maker_may] in M; try contradiction; try (cbn [Maker.maker_then SpecFlow.accepts]; auto with zarith).
    - destruct M as (M1 & O & -> & -> & ->). destruct st as [n ph]. cbn [fst snd] in *. subst ph. cbn [Maker.maker_then from fst snd SpecFlow.accepts Producer.pstep].
      unfold produce. destruct (p_closing s); [cbn; rewrite Nat.eqb_refl; split; [lia|]; split; [lia|now left]|]. destruct (dmem (k_topics (p_cluster s)) topic) eqn:D; cbn [negb].
      + pose proof (resume_not_heal maker_partitioner topic (Ok (message_no (n + 1))) s) as NH. destruct (fst (produce_resume _ _ _ _ _ maker_partitioner topic (Ok (message_no (n + 1))) s)); [destruct NH; reflexivity| | |]; cbn [then_is from snd fst];
          (split; [lia|]; split; [lia|]; destruct (Nat.eqb _ _); [now left|right; exists (n + 1); split; [reflexivity|lia]]).
      + cbn. rewrite Nat.eqb_refl. split; [lia|]. split; [lia|]. now left.
    - destruct M as (M1 & -> & -> & ->). destruct st as [n ph]. cbn [fst snd] in *. subst ph. cbn [Maker.maker_then from fst snd SpecFlow.accepts Producer.pstep].
      pose proof (resume_not_heal maker_partitioner topic (Ok (message_no n)) s) as NH. destruct (fst (produce_resume _ _ _ _ _ maker_partitioner topic (Ok (message_no n)) s)); [destruct NH; reflexivity| | |]; cbn [then_is from snd fst];
          (split; [lia|]; split; [lia|]; destruct (Nat.eqb _ _); [now left|right; exists n; split; [reflexivity|lia]]).
  Qed.
  Lemma maker_numbers evs : forall st s, pinv s -> maker_runs st evs s -> fst st <= fst (maker_ends st evs s) /\
    exists ns, accepted evs s = map (fun n => (topic, message_no n)) ns /\ StronglySorted Z.lt ns /\ Forall (fun n => from st <= n <= fst (maker_ends st evs s)) ns.
  Proof.
    induction evs as [|ev evs IH]; intros st s I H; [split; [cbn; lia|]; exists []; repeat constructor|]. destruct H as [M H]. destruct (maker_accepts st s ev I M) as (F1 & F2 & A). destruct (IH _ _ (pstep_inv batch_size acks timeout compress_fails serialize_fails s ev I) H) as (E1 & ns & E2 & E3 & E4).
    cbn [Maker.maker_ends SpecFlow.accepted]. split; [lia|]. rewrite E2. destruct A as [A|(n & A & N1 & N2)]; rewrite A.
    - exists ns. split; [reflexivity|]. split; [exact E3|]. eapply Forall_impl; [|exact E4]. cbn. intros; lia.
    - exists (n :: ns). split; [reflexivity|]. split; [constructor; [exact E3|]; eapply Forall_impl; [|exact E4]; cbn; intros; lia|]. constructor; [lia|]. eapply Forall_impl; [|exact E4]. cbn. intros; lia.
  Qed.

  Lemma open_rest s ev : match ev with EvProduce _ _ _ | EvResume _ _ _ | EvFlush _ | EvClose _ => False | _ => True end -> p_open s = [] -> p_open (pstep s ev) = [].
  Proof.
    destruct ev as [part t mk|part t mk|part|part|c resp|c e| |k|]; try contradiction; intros _ O; cbn [Producer.pstep]; try exact O; rewrite O; exact O.
  Qed.
  Lemma maker_waits ps evs : forall acc st s, pinv s -> known acc s -> (forall i t m, nth_error acc i = Some (t, m) -> t = topic) -> (snd st = Healing -> p_open s = []) -> maker_runs st evs s ->
    each_event (partitions_stay topic ps) evs s -> each_event (waits (maker_home ps)) evs s.
  Proof.
    induction evs as [|ev evs IH]; intros acc st s I K T HO H PS; [exact Logic.I|]. destruct H as [M H]. destruct PS as [PS1 PS2]. cbn [SpecFlow.each_event]. split.
    - assert (AT : forall t m, In m (at_hand s ev t) -> t = topic).
      { intros t m X. unfold at_hand in X. apply in_app_iff in X as [X|X].
        - destruct K as (_ & K & _). exact (T _ _ _ (K t m X)).
        - destruct ev as [part t' [x|]|part t' [x|]|part|part|c resp|c e| |k|]; try destruct X; cbn [maker_may] in M; destruct (list_eqb t t') eqn:E; try destruct X; apply list_eqb_spec in E; subst t'; [now destruct M as (_ & _ & _ & -> & _)|contradiction|now destruct M as (_ & _ & -> & _)|contradiction]. }
      assert (HM : (partitions_of (p_cluster s) topic = ps \/ partitions_of (p_cluster s) topic = []) -> forall t m q, In m (at_hand s ev t) -> maker_partitioner m (partitions_of (p_cluster s) t) = Ok q -> q = maker_home ps t m).
      { intros P t m q X. rewrite (AT t m X). unfold maker_partitioner, maker_home, place. destruct (m_key (pm_msg m)) as [|z| | | | | |]; try discriminate. destruct P as [-> | ->]; [|discriminate]. destruct ps as [|x xs]; [discriminate|]. intros Y. now injection Y as <-. }
      destruct ev as [part t mk|part t mk|part|part|c resp|c e| |k|]; cbn [maker_may waits partitions_stay] in *; try contradiction; try exact Logic.I.
      + destruct M as (_ & O & -> & _). split; [exact O|]. now apply HM.
      + destruct M as (M1 & -> & _). split; [now apply HO|]. now apply HM.
    - eapply (IH (acc ++ accepts s ev) (maker_then st s ev)); [now apply pstep_inv|now apply step_known| | |exact H|exact PS2].
      + intros i t m X. destruct (Nat.lt_ge_cases i (length acc)) as [L|L]; [rewrite nth_error_app1 in X by exact L; now apply (T i t m)|]. rewrite nth_error_app2 in X by exact L.
        destruct (maker_accepts st s ev I M) as (_ & _ & [A|(n & A & _)]); rewrite A in X; [destruct (i - length acc)%nat; discriminate|]. destruct (i - length acc)%nat as [|j]; [cbn in X; now injection X as <- _|destruct j; discriminate].
      + destruct ev as [part t mk|part t mk|part|part|c resp|c e| |k|]; cbn [maker_may] in M; try contradiction.
        * cbn [Maker.maker_then snd Producer.pstep]. destruct M as (_ & O & _). unfold produce. destruct (p_closing s); [discriminate|]. destruct (negb _); [intros _; exact O|]. intros X. exfalso. pose proof (resume_not_heal part t mk s) as NH. destruct (fst (produce_resume _ _ _ _ _ part t mk s)); [now apply NH|discriminate..].
        * cbn [Maker.maker_then snd]. intros X. exfalso. pose proof (resume_not_heal part t mk s) as NH. destruct (fst (produce_resume _ _ _ _ _ part t mk s)); [now apply NH|discriminate..].
        * intros X. apply open_rest; [exact Logic.I|auto].
        * intros X. apply open_rest; [exact Logic.I|auto].
        * intros X. apply open_rest; [exact Logic.I|auto].
        * intros X. apply open_rest; [exact Logic.I|auto].
        * intros X. apply open_rest; [exact Logic.I|auto].
  Qed.

  (** A run of the maker on a topic whose partitions stay [ps].  Take any of the requests it has written, in order, without those
      refused for partition [p].  What they carry for [p] are messages of the maker, with numbers that increase: none twice, none
      behind a later one.  And message number n is in partition number n mod len(ps) of the list. *)
  Theorem C104_numbers_increase : forall ps evs k corr p stored, let start := producer_init k corr in
    maker_runs (0, Making) evs start -> each_event (partitions_stay topic ps) evs start ->
    in_order stored (p_wire (prun evs start)) -> (forall rq, In rq stored -> ~ refused evs start (pq_corr rq) topic p) ->
    exists ns, map pm_msg (carried stored topic p) = map message_no ns /\ StronglySorted Z.lt ns /\ Forall (fun n => 1 <= n <= fst (maker_ends (0, Making) evs start) /\ place ps n = p) ns.
  Proof.
    intros ps evs k corr p stored start H PS O N. pose proof (pinv_init k corr) as I. fold start in I.
    assert (W : each_event (waits (maker_home ps)) evs start). { apply (maker_waits ps evs [] (0, Making) start I); try assumption; [apply known_init|intros [|i] t m X; discriminate X|discriminate]. }
    destruct (C103_order_kept batch_size acks timeout compress_fails serialize_fails (maker_home ps) evs k corr topic p stored W O N) as (IO & _ & HM). fold start in IO. destruct (maker_numbers evs (0, Making) start I H) as (_ & ns & E & S & F).
    assert (FT : for_topic topic (map (fun n => (topic, message_no n)) ns) = map message_no ns). { unfold for_topic. clear. induction ns as [|n ns IH]; [reflexivity|]. cbn [map filter fst]. rewrite eqb_refl. cbn [map snd]. now rewrite IH. }
    rewrite E, FT in IO. destruct (in_order_unmap _ _ _ IO) as (ns' & E' & IO'). exists ns'. split; [exact E'|]. split; [now apply (in_order_Zsorted _ ns)|]. rewrite Forall_forall in *. intros n Hn. split; [exact (F n (in_order_in _ _ _ IO' Hn))|].
    assert (X : In (message_no n) (map pm_msg (carried stored topic p))) by (rewrite E'; now apply in_map). apply in_map_iff in X as (m & X & Hm). rewrite <- (HM m Hm). unfold maker_home. now rewrite X.
  Qed.
End C104.

(** The topic is not known at first.  Message 1 is refused and goes out again with message 2. *)
Definition maker_color (n : Z) : text := if Z.even n then txt "red" else txt "blue".
Definition made (n : Z) : res pymsg := Ok (message_no maker_color n).
Definition maker_start : producer := producer_init (Cl [(1, CC (txt "h") 9092 0 false)] [] [] 1 0 []) 41.
Definition maker_evs : list pevent :=
  [EvProduce maker_partitioner tp_a (made 1); EvCluster demo_cluster; EvResume maker_partitioner tp_a (made 1); EvResponse 42 [(tp_a, [(1, 6)])]; EvHealed;
   EvProduce maker_partitioner tp_a (made 2); EvResponse 43 [(tp_a, [(1, 0); (0, 0)])]; EvProduce maker_partitioner tp_a (made 3)].
Definition numbers_on (l : list prequest) (p : Z) : list pyval := map (fun m => m_key (pm_msg m)) (carried l tp_a p).
Example C104_example : let w := p_wire (one_run maker_evs maker_start) in
  maker_runs (Some 1) 1 500 never never tp_a maker_color (0, Making) maker_evs maker_start /\ each_event (Some 1) 1 500 never never (partitions_stay tp_a [0; 1]) maker_evs maker_start /\
  in_order (skipn 1 w) w /\ (forall rq, In rq (skipn 1 w) -> ~ refused (Some 1) 1 500 never never maker_evs maker_start (pq_corr rq) tp_a 1) /\
  maker_ends (Some 1) 1 500 never never (0, Making) maker_evs maker_start = (3, Making) /\ numbers_on w 1 = map PInt [1; 1; 3] /\ numbers_on w 0 = map PInt [2] /\ numbers_on (skipn 1 w) 1 = map PInt [1; 3].
Proof.
  cbv zeta. split; [|split; [|split; [apply in_order_skipn|split]]].
  - unfold maker_evs. cbn [maker_runs]. repeat (split; [cbn [maker_may]; first [exact I|repeat split; vm_compute; reflexivity]|]). exact I.
  - unfold maker_evs. cbn [SpecFlow.each_event]. repeat (split; [first [exact I|right; vm_compute; reflexivity|left; vm_compute; reflexivity]|]). exact I.
  - intros rq X. assert (C : In (pq_corr rq) [43; 44]) by (apply (in_map pq_corr) in X; vm_compute in X; exact X). clear X. unfold maker_evs. destruct C as [<-|[<-|[]]]; not_refused.
  - vm_compute. auto.
Qed.

(** When the topic gets a partition, a refused message may go to another one than before, behind later messages. *)
Definition wider_cluster : cluster := Cl [(1, CC (txt "h") 9092 0 false)] [(tp_a, [0; 1; 2])] [(tp_a, [(0, 1); (1, 1); (2, 1)])] 1 0 [].
Definition wider_evs : list pevent :=
  [EvProduce maker_partitioner tp_a (made 1); EvProduce maker_partitioner tp_a (made 2); EvProduce maker_partitioner tp_a (made 3); EvProduce maker_partitioner tp_a (made 4);
   EvResponse 42 [(tp_a, [(1, 6); (0, 0)])]; EvCluster wider_cluster; EvProduce maker_partitioner tp_a (made 5); EvProduce maker_partitioner tp_a (made 6)].
Theorem C104_new_partition_refuted : exists evs p, let start := demo_start in let w := p_wire (prun (Some 4) 1 500 never never evs start) in
  maker_runs (Some 4) 1 500 never never tp_a maker_color (0, Making) evs start /\ (forall rq, In rq w -> ~ refused (Some 4) 1 500 never never evs start (pq_corr rq) tp_a p) /\
  numbers_on w p = map PInt [2; 4; 3; 6].
Proof.
  exists wider_evs, 0. cbv zeta. split; [|split; [|vm_compute; reflexivity]].
  - unfold wider_evs. cbn [maker_runs]. repeat (split; [cbn [maker_may]; first [exact I|repeat split; vm_compute; reflexivity]|]). exact I.
  - intros rq X. assert (C : In (pq_corr rq) [42; 43]) by (apply (in_map pq_corr) in X; vm_compute in X; exact X). clear X. unfold wider_evs. destruct C as [<-|[<-|[]]]; not_refused.
Qed.

Print Assumptions C104_numbers_increase.
Print Assumptions C104_new_partition_refuted.
