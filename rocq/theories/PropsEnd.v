(** Property C64: from produce() to consume().  A producer writes to a broker, a single consumer reads from it.
    Specification: SpecFlow.v (producer), SpecLog.v (broker and consumer), SpecEnd.v. *)
From Coq Require Import ZArith String List Bool Lia.
From Verif Require Import PyBase BaseLemmas SpecWire Constants Cluster Producer SpecProducer SpecFlow ProducerRun PropsProducer PropsFlow Json SpecJson SpecZk ZkProofs Consumer SpecConsumer SpecLog PropsLog SpecEnd.
Import ListNotations.
Open Scope Z_scope.

(** ** lists related item by item *)
Lemma Forall2_in_r {A B} (R : A -> B -> Prop) l l' y : Forall2 R l l' -> In y l' -> exists x, In x l /\ R x y.
Proof. induction 1 as [|a b l l' H _ IH]; cbn; [intros []|]. intros [<-|I]; [eauto|]. destruct (IH I) as (x & ? & ?). eauto. Qed.
Lemma Forall2_filtered {A B} (R : A -> B -> Prop) f l l' : Forall2 R l l' -> exists l0, in_order l0 l /\ Forall2 R l0 (filter f l').
Proof.
  induction 1 as [|a b l l' H _ IH]; cbn; [exists []; split; constructor|]. destruct IH as (l0 & I & F).
  destruct (f b); [exists (a :: l0)|exists l0]; split; try constructor; assumption.
Qed.
Lemma Forall2_in_order {A B} (R : A -> B -> Prop) l l' l0' : Forall2 R l l' -> in_order l0' l' -> exists l0, in_order l0 l /\ Forall2 R l0 l0'.
Proof.
  intros F I. revert l F. induction I as [|y a b I IH|y a b I IH]; intros l F; inversion F as [|x z l1 l2 H F' E1 E2]; subst; [exists []; split; constructor| |];
    destruct (IH _ F') as (l0 & I0 & F0); [exists l0|exists (x :: l0)]; split; try constructor; assumption.
Qed.
Lemma filter_every {A} f (l : list A) : (forall x, In x l -> f x = true) -> filter f l = l.
Proof. induction l as [|x l IH]; cbn; intros H; [reflexivity|]. rewrite (H x (or_introl eq_refl)), IH; auto. Qed.

Section C64.
  Context {V : Type}.
  Variable cfg : config V.
  Variable ser : V -> pyval.
  Variable batch_size : option Z.
  Variables acks timeout : Z.
  Variable compress_fails : list pmsg -> option exn.
  Variable serialize_fails : prequest -> option exn.
  Notation prun := (prun batch_size acks timeout compress_fails serialize_fails).
  Notation accepted := (SpecFlow.accepted batch_size acks timeout compress_fails serialize_fails).
  Notation each_event := (each_event batch_size acks timeout compress_fails serialize_fails).

  Theorem C64_end_to_end : forall t evs k corr xs log s0 ls,
    let start := producer_init k corr in
    made_from ser xs (for_topic t (accepted evs start)) ->
    (forall x v, In x xs -> var_reads (ser x) v -> deser cfg v = Ok x) -> (forall x, In x xs -> truthy cfg x = true) ->
    keeps t (p_wire (prun evs start)) log -> (forall p, is_log (log p)) ->
    md cfg = Single -> reachable cfg s0 -> In t (c_synced s0) -> ~ busy s0 t -> each_step cfg (orderly t log) ls s0 ->
    let s := crun cfg ls s0 in none_raised t s0 s -> ~ busy s t ->
    exists D, returned t s0 s = values D /\
      (* everything returned was produced for the topic *)
      (forall v, In v (values D) -> In v xs) /\
      (* per partition and without retries, in the order produced *)
      (each_event steady evs start -> forall p, in_order (map snd (of_partition p D)) xs) /\
      (* a partition read from before its first offset to past its last gave all that was written to it *)
      (forall p, (forall o m, In (o, m) (log p) -> position s0 t p <= o < position s t p) ->
        made_from ser (map snd (of_partition p D)) (map pm_msg (carried (p_wire (prun evs start)) t p))).
  Proof.
    intros t evs k corr xs log s0 ls start MF DS TR KE LOG SG R SY NB OR s NR NB'.
    assert (RD : forall m m', In m (for_topic t (accepted evs start)) -> msg_reads m m' -> exists x, In x xs /\ m_value m = ser x /\ deser cfg (msg_value m') = Ok x).
    { intros m m' I (_ & _ & _ & W). destruct (Forall2_in_r _ _ _ _ MF I) as (x & Ix & E). exists x. split; [exact Ix|]. split; [exact E|]. rewrite E in W. change (msg_value m') with (m_value m'). now apply DS. }
    assert (CA : forall p m, In m (carried (p_wire (prun evs start)) t p) -> In (pm_msg m) (for_topic t (accepted evs start))).
    { intros p m I. apply C62_only_produced in I. unfold for_topic. apply in_map_iff. exists (t, pm_msg m). split; [reflexivity|]. apply filter_In. split; [exact I|]. apply eqb_refl. }
    destruct (C37_whole_log cfg t log s0 ls SG R LOG SY NB OR) as (D & G & L); [|exact NR|exact NB'|].
    { intros p o m I. destruct (Forall2_in_r _ _ _ _ (KE p) I) as (m0 & I0 & W). destruct (RD _ _ (CA _ _ I0) W) as (x & Ix & _ & E). exists x. auto. }
    fold s in L.
    (* the deliveries, as messages of a part of what was carried *)
    assert (SUB : forall p, exists c, in_order c (carried (p_wire (prun evs start)) t p) /\ Forall2 (fun m v => exists x, In x xs /\ m_value (pm_msg m) = ser x /\ v = x) c (map snd (of_partition p D)) /\
      ((forall o m, In (o, m) (log p) -> position s0 t p <= o < position s t p) -> c = carried (p_wire (prun evs start)) t p)).
    { intros p. destruct (L p) as [L1 _]. clear L.
      assert (GEN : forall c l d, Forall2 (fun m (om : Z * pymsg) => msg_reads (pm_msg m) (snd om)) c l -> (forall m, In m c -> In (pm_msg m) (for_topic t (accepted evs start))) ->
        map (fun d => (fst d, Ok (snd d))) d = map (fun om : Z * pymsg => (fst om, deser cfg (msg_value (snd om)))) l ->
        Forall2 (fun m v => exists x, In x xs /\ m_value (pm_msg m) = ser x /\ v = x) c (map snd d)).
      { intros c l d F. revert d. induction F as [|m om c l W F IH]; intros [|[o v] d] HI E; try discriminate E; cbn [map]; constructor.
        - injection E as _ E _. destruct (RD _ _ (HI m (or_introl eq_refl)) W) as (x & Ix & Ex & Dx). exists x. split; [exact Ix|]. split; [exact Ex|]. rewrite Dx in E. now injection E.
        - apply IH; [intros; apply HI; now right|]. cbn [map] in E. now injection E. }
      destruct (Forall2_filtered _ (fun om => (position s0 t p <=? fst om) && (fst om <? position s t p)) _ _ (KE p)) as (c & I & F).
      assert (DEC : (forall om, In om (log p) -> ((position s0 t p <=? fst om) && (fst om <? position s t p))%bool = true) \/ ~ (forall o m, In (o, m) (log p) -> position s0 t p <= o < position s t p)).
      { destruct (forallb (fun om => (position s0 t p <=? fst om) && (fst om <? position s t p)) (log p)) eqn:FB.
        - left. now apply forallb_forall.
        - right. intros H. enough (forallb (fun om => (position s0 t p <=? fst om) && (fst om <? position s t p)) (log p) = true) by congruence. apply forallb_forall. intros [o m] Io. apply andb_true_intro. specialize (H o m Io). cbn [fst]. split; [apply Z.leb_le|apply Z.ltb_lt]; lia. }
      destruct DEC as [ALL|NALL].
      - exists (carried (p_wire (prun evs start)) t p). split; [apply in_order_refl|]. split; [|auto]. eapply GEN; [exact (KE p)|apply CA|]. rewrite L1. unfold between. now rewrite filter_every.
      - exists c. split; [exact I|]. split; [|intros H; contradiction]. eapply GEN; [exact F| |exact L1]. intros m Im. eapply CA, in_order_in; eassumption. }
    exists D. split; [exact G|]. split; [|split].
    - intros v I. unfold values in I. apply in_map_iff in I as ([p [o v']] & <- & I). cbn [snd]. destruct (SUB p) as (c & _ & F & _).
      destruct (Forall2_in_r _ _ _ v' F) as (m & _ & x & Ix & _ & ->); [|exact Ix]. apply in_map_iff. exists (o, v'). split; [reflexivity|]. unfold of_partition. apply in_map_iff. exists (p, (o, v')). split; [reflexivity|]. apply filter_In. split; [exact I|]. cbn. apply Z.eqb_refl.
    - intros ST p. destruct (SUB p) as (c & I & F & _). pose proof (C62_in_order batch_size acks timeout compress_fails serialize_fails evs k corr t p ST) as O.
      pose proof (in_order_trans _ _ _ (in_order_map pm_msg _ _ I) O) as O2. destruct (Forall2_in_order _ _ _ _ MF O2) as (ys & IY & FY). replace (map snd (of_partition p D)) with ys; [exact IY|].
      assert (UN : forall x y, In x xs -> In y xs -> ser x = ser y -> (exists v, var_reads (ser x) v) -> x = y). { intros x y Ix Iy E (v & W). pose proof (DS x v Ix W) as A. rewrite E in W. rewrite (DS y v Iy W) in A. now injection A. }
      assert (RW : forall m, In m c -> exists v, var_reads (m_value (pm_msg m)) v).
      { intros m Im. pose proof (in_order_in _ _ _ I Im) as Ic. assert (X : forall l l', Forall2 (fun m (om : Z * pymsg) => msg_reads (pm_msg m) (snd om)) l l' -> In m l -> exists v, var_reads (m_value (pm_msg m)) v).
        { induction 1 as [|a b l l' W _ IH]; intros []; [subst; destruct W as (_ & _ & _ & W); eauto|auto]. }
        eapply X; [exact (KE p)|exact Ic]. }
      clear -FY F UN RW IY. assert (IN : forall y, In y ys -> In y xs) by (intros y; now apply in_order_in). clear IY. revert ys FY IN. induction F as [|m v c d (x & Ix & E & ->) F IH]; intros ys FY IN; cbn [map] in FY; inversion FY as [|y ? ys' ? Ey FY']; subst; [reflexivity|].
      rewrite (IH (fun m H => RW m (or_intror H)) _ FY' (fun y H => IN y (or_intror H))). f_equal. apply UN; [apply IN; now left|exact Ix|congruence|]. rewrite <- Ey. apply RW. now left.
    - intros p ALL. destruct (SUB p) as (c & _ & F & C). rewrite (C ALL) in F. clear -F. unfold made_from. induction F as [|m v c d (x & _ & E & ->) F IH]; cbn [map]; constructor; assumption.
  Qed.
End C64.

(** ** lists of strings through the default JSON serializer and deserializer *)
Definition json_ser (l : list text) : pyval := PStr (json_dumps l).
Definition json_cfg : config (list text) :=
  Cfg (list text) (fun v => match v with PStr t => json_loads t | _ => Err EType end) (fun l => negb (match l with [] => true | _ => false end)) (fun _ => txt "1.5") 1000 1 1000 (fun _ => None) Single.
Lemma json_reads l v : (forall t, In t l -> clean t) -> var_reads (json_ser l) v -> deser json_cfg v = Ok l.
Proof. intros C W. cbn [json_ser var_reads] in W. subst v. now apply json_roundtrip. Qed.

Definition words : list (list text) := [[txt "one"]; [txt "two"; txt "2"]; [txt "three"]; [[8364; 34]]].
Definition send_ (l : list text) : pevent := EvProduce parity tp_a (Ok (Msg PNone (PInt 0) (PInt 0) PNone (json_ser l))).
Definition end_evs : list pevent := map send_ (firstn 3 words) ++ [EvFlush parity] ++ map send_ (skipn 3 words) ++ [EvClose parity].
Definition as_read (l : list text) : pymsg := Msg (PInt 77) (PInt 0) (PInt 0) PNone (json_ser l).
(** the broker left a gap between the offsets 10 and 12 *)
Definition end_log (p : Z) : list (Z * pymsg) := if p =? 0 then [(10, as_read [txt "one"]); (12, as_read [txt "three"])] else if p =? 1 then [(4, as_read [txt "two"; txt "2"]); (5, as_read [[8364; 34]])] else [].
(** the consumer has looked up its start, and then asks twice *)
Definition end_idle : list label :=
  [Call 1 (OpConsume tp_a None); Arrive 1 1 (Ok (POffset [(tp_a, [(0, (0, [10])); (1, (0, [4]))])])); Arrive 1 1 (Ok (PFetch [(tp_a, [])]))].
Definition end_reads : list label :=
  [Call 2 (OpConsume tp_a None); Arrive 2 1 (Ok (PFetch [(tp_a, [(0, (0, [(10, as_read [txt "one"])])); (1, (0, [(4, as_read [txt "two"; txt "2"]); (5, as_read [[8364; 34]])]))])]));
   Call 3 (OpConsume tp_a None); Arrive 3 1 (Ok (PFetch [(tp_a, [(0, (0, [(12, as_read [txt "three"])])); (1, (0, []))])]))].
Definition end_start : consumer (list text) := crun json_cfg end_idle (consumer_init demo_cluster (txt "me")).
Example C64_example :
  made_from json_ser words (for_topic tp_a (SpecFlow.accepted (Some 10) 1 500 never never end_evs demo_start)) /\
  (forall x v, In x words -> var_reads (json_ser x) v -> deser json_cfg v = Ok x) /\ (forall x, In x words -> truthy json_cfg x = true) /\
  keeps tp_a (p_wire (drun end_evs demo_start)) end_log /\ (forall p, is_log (end_log p)) /\ reachable json_cfg end_start /\ In tp_a (c_synced end_start) /\ ~ busy end_start tp_a /\
  each_step json_cfg (orderly tp_a end_log) end_reads end_start /\ each_event (Some 10) 1 500 never never steady end_evs demo_start /\
  let s := crun json_cfg end_reads end_start in none_raised tp_a end_start s /\ ~ busy s tp_a /\
  returned tp_a end_start s = [[txt "one"]; [txt "two"; txt "2"]; [[8364; 34]]; [txt "three"]] /\
  (forall p o m, In (o, m) (end_log p) -> position end_start tp_a p <= o < position s tp_a p).
Proof.
  assert (AC : for_topic tp_a (SpecFlow.accepted (Some 10) 1 500 never never end_evs demo_start) = map (fun l => Msg PNone (PInt 0) (PInt 0) PNone (json_ser l)) words) by (vm_compute; reflexivity).
  assert (C0 : carried (p_wire (drun end_evs demo_start)) tp_a 0 = [PM 0 (Msg PNone (PInt 0) (PInt 0) PNone (json_ser [txt "one"])); PM 2 (Msg PNone (PInt 0) (PInt 0) PNone (json_ser [txt "three"]))]) by (vm_compute; reflexivity).
  assert (C1 : carried (p_wire (drun end_evs demo_start)) tp_a 1 = [PM 1 (Msg PNone (PInt 0) (PInt 0) PNone (json_ser [txt "two"; txt "2"])); PM 3 (Msg PNone (PInt 0) (PInt 0) PNone (json_ser [[8364; 34]]))]) by (vm_compute; reflexivity).
  split; [rewrite AC; unfold made_from, words; cbn [map]; repeat constructor|]. split; [|split; [|split; [|split; [|split; [|split; [|split; [|split; [|split]]]]]]]].
  - intros x v I W. apply json_reads; [|exact W]. cbn in I. repeat (destruct I as [<-|I]; [intros t J; cbn in J; repeat (destruct J as [<-|J]; [intros c K; cbn in K; repeat (destruct K as [<-|K]; [split; lia|]); destruct K|]); destruct J|]). destruct I.
  - intros x I. cbn in I. repeat (destruct I as [<-|I]; [reflexivity|]). destruct I.
  - intros p. unfold end_log. destruct (p =? 0) eqn:E0; [apply Z.eqb_eq in E0; subst p; rewrite C0; repeat constructor|]. destruct (p =? 1) eqn:E1; [apply Z.eqb_eq in E1; subst p; rewrite C1; repeat constructor|].
    replace (carried (p_wire (drun end_evs demo_start)) tp_a p) with (@nil pmsg); [constructor|]. symmetry. apply Z.eqb_neq in E0, E1. destruct p as [|[q|q|]|q]; [now destruct E0|vm_compute; reflexivity|vm_compute; reflexivity|now destruct E1|vm_compute; reflexivity].
  - intros p. unfold end_log. destruct (p =? 0); [|destruct (p =? 1)]; split; cbn; repeat constructor; try lia.
  - exists demo_cluster, (txt "me"), end_idle. reflexivity.
  - vm_compute. now left.
  - intros (i & o & p & H & _). vm_compute in H. discriminate H.
  - cbn [each_step end_reads orderly]. split; [intros _ (i & o & p & H & _); vm_compute in H; discriminate H|].
    split; [intros rq (o & k & w & rs & H & W) _; vm_compute in H; injection H as <- <- <- <-; vm_compute in W; injection W as <-; cbn; split; [reflexivity|]; intros _; split; [repeat constructor; cbn; intuition discriminate|];
      intros p code ms [X|[X|[]]]; injection X as <- <- <-; (split; [discriminate|]); intros _; [exists 10, 500, 1%nat|exists 4, 500, 2%nat]; (split; [cbn; auto|reflexivity])|].
    split; [intros _ (i & o & p & H & _); vm_compute in H; discriminate H|].
    split; [intros rq (o & k & w & rs & H & W) _; vm_compute in H; injection H as <- <- <- <-; vm_compute in W; injection W as <-; cbn; split; [reflexivity|]; intros _; split; [repeat constructor; cbn; intuition discriminate|];
      intros p code ms [X|[X|[]]]; injection X as <- <- <-; (split; [discriminate|]); intros _; [exists 11, 500, 1%nat|exists 6, 500, 1%nat]; (split; [cbn; auto|reflexivity])|].
    exact I.
  - unfold end_evs, send_. cbn [map app firstn skipn words]. repeat (split; [apply steady_a; [vm_compute; reflexivity|vm_compute; eauto|cbn; auto]|]). exact I.
  - cbv zeta. split; [intros i o e H; vm_compute in H; destruct H as [H|[H|[]]]; discriminate H|]. split; [intros (i & o & p & H & _); vm_compute in H; discriminate H|]. split; [vm_compute; reflexivity|].
    intros p o m. unfold end_log. destruct (p =? 0) eqn:E0; [apply Z.eqb_eq in E0; subst p|destruct (p =? 1) eqn:E1; [apply Z.eqb_eq in E1; subst p|intros []]];
      (intros H; destruct H as [H|[H|[]]]; injection H as <- <-; vm_compute; split; congruence).
Qed.

Print Assumptions C64_end_to_end.
