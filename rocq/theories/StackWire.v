(** What a request of a consumer that could be serialized looks like to Kafka. *)
From Coq Require Import ZArith String List Bool Lia.
From Verif Require Import PyBase BaseLemmas Utf8 Messages Primitives Protocol Schemas Request SpecWire SpecRequest ProtocolProofs RequestProofs PropsWire Cluster Zookeeper Consumer SpecConsumer ConsumerProofs ConsumerSteps ConsumerRuns ConsumerWire SpecSent PropsSent.
Import ListNotations.
Open Scope Z_scope.

(** times that are numbers, as start_to_timestamp makes them *)
Definition plain_request (rq : request) : Prop := match rq with ROffset _ _ parts => forall p time n, In (p, (time, n)) parts -> bytes_ok time | _ => True end.

(** a value made of the layout's own fields, texts and lists is read as it is *)
Fixpoint exact (t : ty) (v : pyval) : Prop :=
  match t with
  | TPrim String_ | TPrim Bytes_ => exists x, v = PStr x
  | TPrim _ => True
  | TArray it => exists vs, v = PList vs /\ Forall (exact it) vs
  | TPart fs => exists attrs, v = PObj attrs /\ NoDup (map fst attrs) /\
      (fix go (fs : list (string * ty)) (attrs : list (string * pyval)) : Prop :=
         match fs, attrs with [], [] => True | (n, t') :: r, (n', v') :: r' => n = n' /\ exact t' v' /\ go r r' | _, _ => False end) fs attrs
  | TMsgSet => False
  end.
Lemma lookup_nodup (attrs : list (string * pyval)) n v : NoDup (map fst attrs) -> In (n, v) attrs -> lookup_attr attrs n = v.
Proof.
  unfold lookup_attr. induction attrs as [|[m w] r IH]; intros N H; [destruct H|]. cbn [map fst] in N. inversion N as [|? ? N1 N2]; subst. cbn [find fst]. destruct H as [H|H].
  - injection H as -> ->. now rewrite String.eqb_refl.
  - destruct (String.eqb_spec m n) as [->|NE]; [|now apply IH]. exfalso. apply N1. change n with (fst (n, v)). now apply in_map.
Qed.
Lemma exact_reads t : forall v v', exact t v -> reads_as t v v' -> v' = v.
Proof.
  induction t as [p|it IH|fs IH|] using ty_ind'; intros v v' E R.
  - destruct p; cbn in E, R; try exact R; destruct E as (x & ->); exact R.
  - cbn in E, R. destruct E as (vs & -> & F). destruct R as (ws & ws' & IT & -> & F2). cbn in IT. subst ws. f_equal. revert F. induction F2; intros F; [reflexivity|]. inversion F; subst. f_equal; auto.
  - cbn in E, R. destruct E as (attrs & -> & ND & G). destruct R as (a & attrs' & EA & -> & R). injection EA as <-. f_equal.
    remember attrs as all eqn:EA in R. assert (L : forall n v, In (n, v) attrs -> lookup_attr all n = v) by (intros; subst all; now apply lookup_nodup). clear ND EA. revert attrs attrs' L G R.
    induction fs as [|[n t] fs IHf]; intros [|[n1 v1] sub] [|[n2 v2] attrs'] L G R; try tauto. destruct G as (<- & E & G). destruct R as (<- & R & RR). inversion IH as [|? ? I1 I2]; subst.
    rewrite (L n v1 (or_introl eq_refl)) in R. cbn [snd] in I1. rewrite (I1 _ _ E R). f_equal. apply IHf; auto. intros m w H. apply L. now right.
  - destruct E.
Qed.
Lemma exact_list {A} it (mk : A -> pyval) l : (forall x, In x l -> exact it (mk x)) -> exact (TArray it) (PList (map mk l)).
Proof. intros H. exists (map mk l). split; [reflexivity|]. apply Forall_map, Forall_forall. exact H. Qed.
Ltac fieldwise := eexists; split; [reflexivity|]; split; [cbn; repeat (constructor; [cbn; intuition discriminate|]); constructor|]; repeat (split; [reflexivity|]; split; [try exact I; try (eexists; reflexivity)|]); try exact I.
Lemma request_exact rq : let '(_, fs, kw) := request_kwargs rq in exact (TPart fs) (PObj kw).
Proof.
  destruct rq as [r mw mb t parts|r t parts|g t ps|g topics|g]; cbn [request_kwargs]; unfold obj; fieldwise.
  - eexists. split; [reflexivity|]. constructor; [|constructor]. fieldwise. apply exact_list. intros x _. fieldwise.
  - eexists. split; [reflexivity|]. constructor; [|constructor]. fieldwise. apply exact_list. intros x _. fieldwise.
  - eexists. split; [reflexivity|]. constructor; [|constructor]. fieldwise. apply exact_list. intros x _. exact I.
  - apply exact_list. intros [t parts] _. fieldwise. apply exact_list. intros x _. fieldwise.
Qed.
(** legal values are those that fit *)
Ltac legal_fields :=
  repeat match goal with
  | H : exists _, _ |- _ => destruct H
  | H : _ /\ _ |- _ => destruct H
  | H : PObj _ = PObj _ |- _ => injection H as <-
  | H : PList _ = PList _ |- _ => injection H as <-
  | H : PInt _ = PInt _ |- _ => injection H as <-
  | H : Forall _ [_] |- _ => inversion H; clear H; subst
  | H : Forall _ [] |- _ => clear H
  end.
Lemma request_legal rq : (let '(_, fs, kw) := request_kwargs rq in legal (TPart fs) (PObj kw)) -> fits_kafka rq.
Proof.
  assert (ZM : forall (A B : Type) (f : A -> B) l, zlen (map f l) = zlen l) by (intros; unfold zlen; now rewrite map_length).
  unfold legal. destruct rq as [r mw mb t parts|r t parts|g t ps|g topics|g]; cbn [request_kwargs]; unfold obj; intros H; cbn in H; legal_fields; cbn [fits_kafka]; unfold short_text.
  - rewrite ZM in *. do 5 (split; [assumption|]). intros p o limit HI. match goal with H : Forall _ (map _ parts) |- _ => rewrite Forall_map, Forall_forall in H; specialize (H _ HI); cbn [fst snd] in H end. legal_fields. auto.
  - rewrite ZM in *. do 3 (split; [assumption|]). intros p o limit HI. match goal with H : Forall _ (map _ parts) |- _ => rewrite Forall_map, Forall_forall in H; specialize (H _ HI); cbn [fst snd] in H end. legal_fields. split; [assumption|]. split; [|assumption]. eauto.
  - rewrite ZM in *. do 3 (split; [assumption|]). intros p HI. match goal with H : Forall _ (map _ ps) |- _ => rewrite Forall_map, Forall_forall in H; specialize (H _ HI) end. legal_fields. auto.
  - rewrite ZM in *. do 2 (split; [assumption|]). intros t parts HI. match goal with H : Forall _ (map _ topics) |- _ => rewrite Forall_map, Forall_forall in H; specialize (H _ HI); cbn [fst snd] in H end. legal_fields. rewrite ZM in *. do 2 (split; [assumption|]).
    intros p o m HI'. match goal with H : Forall _ (map _ parts) |- _ => rewrite Forall_map, Forall_forall in H; specialize (H _ HI'); cbn [fst snd] in H end. legal_fields. auto.
  - assumption.
Qed.
Lemma plain_bytes_ok rq : plain_request rq -> let '(_, _, kw) := request_kwargs rq in bytes_ok (PObj kw).
Proof.
  assert (X : forall (A : Type) (mk : A -> pyval) l, (forall x, In x l -> bytes_ok (mk x)) -> bytes_ok (PList (map mk l))).
  { intros A mk l H. cbn [bytes_ok]. induction l as [|x l IH]; [exact I|]. cbn [map]. split; [apply H; now left|]. apply IH. intros y Hy. apply H. now right. }
  destruct rq as [r mw mb t parts|r t parts|g t ps|g topics|g]; cbn [request_kwargs plain_request]; unfold obj; intros H.
  - do 3 (split; [exact I|]). split; [|exact I]. split; [|exact I]. split; [exact I|]. split; [|exact I]. apply X. intros x _. cbn. auto.
  - do 1 (split; [exact I|]). split; [|exact I]. split; [|exact I]. split; [exact I|]. split; [|exact I]. apply X. intros [p [o l]] HI. cbn. specialize (H _ _ _ HI). auto.
  - do 1 (split; [exact I|]). split; [|exact I]. split; [|exact I]. split; [exact I|]. split; [|exact I]. apply X. intros x _. cbn. auto.
  - do 1 (split; [exact I|]). split; [|exact I]. apply X. intros [t parts] _. split; [exact I|]. split; [|exact I]. apply X. intros x _. cbn. auto.
  - cbn. auto.
Qed.
(** the bytes a request is written as are Kafka's, for this request and this correlation id *)
Theorem written_kafka rq last w : plain_request rq -> request_wire last rq = Ok w ->
  fits_kafka rq /\ SpecWire.fits 32 (last + 1) /\ w = request_frame (kafka_api rq) (last + 1) (kafka_payload rq).
Proof.
  intros PL E. unfold request_wire in E. pose proof (plain_bytes_ok rq PL) as BO. pose proof (request_exact rq) as EX. pose proof (request_legal rq) as RL.
  assert (KW : let '(api, fs, kw) := request_kwargs rq in In (api, fs) request_classes /\ NoDup (map fst kw)) by (destruct rq; cbn [request_kwargs]; (split; [cbn; tauto|cbn; repeat (constructor; [cbn; intuition discriminate|]); constructor])).
  assert (DO : forall p, (let '(_, fs, kw) := request_kwargs rq in wire (TPart fs) (PObj kw) p) -> fits_kafka rq -> p = kafka_payload rq).
  { intros p W F. pose proof (documented_payload rq F) as D. unfold documented in D. destruct (request_kwargs rq) as [[api fs] kw]. eapply wire_det; eassumption. }
  assert (AP : forall key, In (fst (fst (request_kwargs rq)), key) kafka_api_numbers -> key = kafka_api rq).
  { intros key IK. destruct rq; cbn in IK |- *; repeat (destruct IK as [IK|IK]; [injection IK; intros; try congruence; discriminate|]); destruct IK. }
  destruct (request_kwargs rq) as [[api fs] kw]. destruct KW as [IC ND]. destruct (request_init api fs kw last) as [[attrs last']|e] eqn:RI; [|discriminate E]. cbn [bind] in E.
  destruct (C05_request_framing api fs kw last attrs last' w IC ND BO RI E) as (key & payload & v' & IK & -> & -> & FL & _ & RA & W & LG).
  apply exact_reads in RA; [|exact EX]. subst v'. specialize (RL LG). split; [exact RL|]. split; [exact FL|]. rewrite (AP key IK), (DO payload W RL). reflexivity.
Qed.

(** what a consumer waits for has such times *)
Section Plain.
  Context {V : Type}.
  Variable cfg : config V.
  Definition plain_pc (p : pc V) : Prop := match p with PSend _ w _ => forall b rq, In (b, rq) w -> plain_request rq | _ => True end.
  Definition plain (s : consumer V) : Prop := forall i o p, dget (c_calls s) i = Some (o, p) -> plain_pc p.
  Lemma timestamp_plain start : bytes_ok (start_to_timestamp cfg start).
  Proof. destruct start; exact I. Qed.
  Lemma new_plain o (s : consumer V) n : fits_next cfg o n -> new_wait cfg s n -> match n with Await p => plain_pc p | _ => True end.
  Proof.
    intros F N. destruct n as [p|v|e]; try exact I. destruct p as [k w rs|k rs|t]; try exact I. intros b rq H. cbn in F. destruct F as [FC [_ _ A _ _ _]]. specialize (A b rq H).
    destruct k as [t [rq0|]|t|m ret|asked rest]; cbn in A.
    - destruct o as [t' start|x|]; cbn in FC; try contradiction. destruct FC as (-> & FC). destruct (md cfg); [discriminate FC|]. destruct FC as (ps & FC). injection FC as ->. subst rq. exact I.
    - destruct N as (_ & start & LK). destruct LK as (_ & _ & LK). destruct (LK b rq H) as (parts & _ & -> & P). intros p tm mx HI. destruct (P p tm mx HI) as (_ & -> & _). apply timestamp_plain.
    - destruct A as (parts & ->). exact I.
    - destruct A as (g & topics & ->). exact I.
    - destruct A as (-> & g & ->). exact I.
  Qed.
  Lemma plain_continue i o (ns : next V * consumer V) (s : consumer V) : ConsumerRuns.inv cfg s -> plain s -> c_calls (snd ns) = c_calls s -> match fst ns with Await p => plain_pc p | _ => True end -> plain (continue i o ns).
  Proof.
    intros I P E F j o' p D. assert (ND : NoDup (dkeys (c_calls (snd ns)))) by (rewrite E; apply I). destruct (continue_calls i o ns j ND) as [_ X]. rewrite X in D. destruct (j =? i).
    - destruct (fst ns); try discriminate D. injection D as <- <-. exact F.
    - rewrite E in D. eapply P; eauto.
  Qed.
  Lemma plain_step s l : ConsumerRuns.inv cfg s -> plain s -> plain (cstep cfg s l).
  Proof.
    intros I P. pose proof (cstep_did cfg s l I) as D. destruct D as [l ID|i o ns D E PC|i b r o k w rs rq D F W IA HF NE F'|i b r o k w rs rq ns D F W IA E PC|i r o k rs s1 ns D F E PC|i r t start ns D E PC|k|g fn ac name ev M|]; try exact P.
    - destruct PC as [(ex & M & _) FI NW _]. apply (plain_continue i o ns s I P); [apply M|eapply new_plain; eassumption].
    - apply (plain_continue i o _ s I P); [apply answer_state_calls|]. intros b' rq' H. apply in_ddel in H. eapply (P _ _ _ D). exact H.
    - destruct (paid_some cfg k rs) as [lv PD]. destruct (PC lv PD) as [(ex & M & _) FI NW _]. apply (plain_continue i o ns s I P); [|eapply new_plain; eassumption]. rewrite (p_calls _ _ _ _ _ _ M). apply answer_state_calls.
    - destruct (paid_some cfg k rs) as [lv PD]. destruct (PC lv PD) as [(ex & M & _) FI NW _]. apply (plain_continue i o ns s I P); [|eapply new_plain; eassumption]. rewrite (p_calls _ _ _ _ _ _ M). destruct E as [(u & _ & -> & _)|(e & _ & -> & _)]; reflexivity.
    - destruct PC as [(ex & M & _) FI NW _]. apply (plain_continue i _ ns s I P); [apply M|eapply new_plain; eassumption].
  Qed.
  Lemma sent_plain s l b rq : ConsumerRuns.inv cfg s -> In (b, rq) (sent cfg s l) -> plain_request rq.
  Proof.
    intros I H. assert (N : sent cfg s l <> []) by (intros E; rewrite E in H; destruct H). destruct (sent_cases cfg s l I N) as (i & o & look & s1 & ns & A). destruct A as [_ _ SE _ _]. clear N. revert H. generalize dependent (sent cfg s l). intros xs SE.
    destruct SE as [|t start rqs pre post EO F ER D ex EX|t start rqs pre post EL EM EO LK ER D ex EX|t start b0 g fn ac name ps EL EM EO EC OC EN|m ret b0 g fn ac name am EM AC NO EC OC OM EN|b0 rest g fn ac name EM EO OC EN]; intros HH.
    - destruct HH.
    - subst ex. apply filter_In in HH as [HH _]. destruct F as (_ & _ & _ & F). destruct (F b rq) as (parts & _ & -> & _); [rewrite ER; apply in_app_iff; now left|exact Logic.I].
    - subst ex. apply filter_In in HH as [HH _]. destruct LK as (_ & _ & F). destruct (F b rq) as (parts & _ & -> & P); [rewrite ER; apply in_app_iff; now left|]. intros p tm mx HI. destruct (P p tm mx HI) as (_ & -> & _). apply timestamp_plain.
    - destruct HH as [HH|[]]. injection HH as <- <-. exact Logic.I.
    - destruct HH as [HH|[]]. injection HH as <- <-. exact Logic.I.
    - destruct HH as [HH|[]]. injection HH as <- <-. exact Logic.I.
  Qed.
  Lemma plain_init k name : plain (@consumer_init V k name).
  Proof. intros i o p H. discriminate H. Qed.
End Plain.

(** a broker that reads the payload of a request knows the request *)
Lemma kafka_payload_kw rq1 rq2 : fits_kafka rq1 -> fits_kafka rq2 -> kafka_api rq1 = kafka_api rq2 -> kafka_payload rq1 = kafka_payload rq2 -> request_kwargs rq1 = request_kwargs rq2.
Proof.
  intros F1 F2 EA EP. pose proof (request_canon rq1 F1) as C1. pose proof (request_canon rq2 F2) as C2. pose proof (documented_payload rq1 F1) as D1. pose proof (documented_payload rq2 F2) as D2. unfold documented in D1, D2. rewrite <- EP in D2.
  assert (EF : fst (request_kwargs rq1) = fst (request_kwargs rq2)) by (destruct rq1, rq2; cbn in EA |- *; try discriminate EA; reflexivity).
  assert (DI : let '(_, fs, _) := request_kwargs rq1 in distinct (TPart fs)) by (destruct rq1; cbn; repeat split; repeat (constructor; [cbn; intuition discriminate|]); constructor).
  destruct (request_kwargs rq1) as [[a1 fs1] kw1]. destruct (request_kwargs rq2) as [[a2 fs2] kw2]. cbn [fst] in EF. injection EF as <- <-. f_equal.
  destruct (C01_roundtrip _ _ DI C1) as (b1 & W1 & _ & P1). destruct (C01_roundtrip _ _ DI C2) as (b2 & W2 & _ & P2). rewrite (wire_det _ _ _ W1 _ D1) in P1. rewrite (wire_det _ _ _ W2 _ D2) in P2.
  specialize (P1 demo_codec O [] []). specialize (P2 demo_codec O [] []). rewrite P1 in P2. now injection P2 as E.
Qed.
Lemma map_inj_eq {A B} (f : A -> B) l1 l2 : (forall x y, f x = f y -> x = y) -> map f l1 = map f l2 -> l1 = l2.
Proof. intros I. revert l2. induction l1 as [|x l1 IH]; intros [|y l2] E; try discriminate E; [reflexivity|]. cbn in E. injection E as E1 E2. f_equal; auto. Qed.
Theorem request_readable rq1 rq2 : fits_kafka rq1 -> fits_kafka rq2 -> kafka_api rq1 = kafka_api rq2 -> kafka_payload rq1 = kafka_payload rq2 -> rq1 = rq2.
Proof.
  intros F1 F2 EA EP. pose proof (kafka_payload_kw rq1 rq2 F1 F2 EA EP) as E. clear F1 F2 EP.
  destruct rq1 as [r mw mb t parts|r t parts|g t ps|g topics|g], rq2 as [r' mw' mb' t' parts'|r' t' parts'|g' t' ps'|g' topics'|g']; try discriminate EA; cbn [request_kwargs] in E; unfold obj in E; injection E; intros; subst.
  - f_equal. eapply map_inj_eq; [|eassumption]. intros [p [o m]] [p' [o' m']] X. cbn in X. congruence.
  - f_equal. eapply map_inj_eq; [|eassumption]. intros [p [o m]] [p' [o' m']] X. cbn in X. congruence.
  - f_equal. eapply map_inj_eq; [|eassumption]. congruence.
  - f_equal. eapply map_inj_eq; [|eassumption]. intros [u ps] [u' ps'] X. cbn in X. injection X as -> X. f_equal. eapply map_inj_eq; [|eassumption]. intros [p [o m]] [p' [o' m']] Y. cbn in Y. congruence.
  - reflexivity.
Qed.
