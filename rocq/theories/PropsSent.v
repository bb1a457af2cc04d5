(** Property C61: every request a consumer sends is a request Kafka can read. *)
From Coq Require Import ZArith String List Bool Lia Permutation.
From Verif Require Import PyBase BaseLemmas Constants Cluster Zookeeper Consumer SpecZk SpecConsumer ConsumerProofs ConsumerSteps ConsumerRuns ConsumerSync PropsConsumer PropsGroup PropsCoord SpecHistory PropsHistory.
From Verif Require Import ProtocolProofs Utf8 Primitives Protocol Schemas Request SpecWire SpecRequest PropsWire SpecSent.
Import ListNotations.
Open Scope Z_scope.
Set Default Proof Using "Type".

(** the documented layout of a value is unique *)
Scheme wire_mind := Minimality for wire Sort Prop with wire_items_mind := Minimality for wire_items Sort Prop with wire_fields_mind := Minimality for wire_fields Sort Prop.
Lemma wire_det t v b1 : wire t v b1 -> forall b2, wire t v b2 -> b1 = b2.
Proof.
  apply (wire_mind (fun t v b1 => forall b2, wire t v b2 -> b1 = b2) (fun t vs b1 => forall b2, wire_items t vs b2 -> b1 = b2) (fun fs vs b1 => forall b2, wire_fields fs vs b2 -> b1 = b2)).
  - intros p z n H b2 W. inversion W as [p' z' n' H1|v' b' W1|v' b' W1| | | ]; subst.
    + destruct H as [[-> ->]|[[-> ->]|[[-> ->]|[-> ->]]]]; destruct H1 as [[E ->]|[[E ->]|[[E ->]|[E ->]]]]; congruence.
    + inversion W1.
    + inversion W1.
  - intros v0 b W b2 W2. inversion W2; subst; [inversion W|eapply wire_var_det; eassumption].
  - intros v0 b W b2 W2. inversion W2; subst; [inversion W|eapply wire_var_det; eassumption].
  - intros it vs b W IH b2 W2. inversion W2; subst. f_equal. auto.
  - intros fs attrs b W IH b2 W2. inversion W2; subst. auto.
  - intros ms b W b2 W2. inversion W2; subst. match goal with H : wire_entries _ _ |- _ => rewrite (wire_entries_det _ _ _ W H) end. reflexivity.
  - intros it b2 W. now inversion W.
  - intros it v0 vs b bs W IH W' IH' b2 W2. inversion W2; subst. f_equal; auto.
  - intros b2 W. now inversion W.
  - intros n t0 fs v0 attrs b bs W IH W' IH' b2 W2. inversion W2; subst. f_equal; auto.
Qed.

Definition documented (rq : request) (payload : bytes) : Prop :=
  let '(_, fs, values) := request_kwargs rq in wire (TPart fs) (PObj values) payload.
Lemma request_canon rq : fits_kafka rq -> let '(_, fs, kw) := request_kwargs rq in canon (TPart fs) (PObj kw).
Proof.
  intros F. destruct rq as [r mw mb t parts|r t parts|g t ps|g topics|g]; cbn [fits_kafka request_kwargs] in *.
  - destruct F as (F1 & F2 & F3 & F4 & F5 & F6). unfold canon. cbn [conforms FetchRequest]. eexists. split; [reflexivity|]. cbv beta iota. do 3 (split; [reflexivity|]; split; [eexists; split; [reflexivity|assumption]|]). split; [reflexivity|]. split; [|exact I].
    eexists. split; [reflexivity|]. split; [|reflexivity]. constructor; [|constructor]. eexists. split; [reflexivity|]. cbn. split; [reflexivity|]. split; [exact F4|]. split; [reflexivity|]. split; [|exact I].
    eexists. split; [reflexivity|]. split; [|unfold zlen in *; rewrite map_length; exact F5]. apply Forall_forall. intros v H. apply in_map_iff in H as ([p [o li]] & <- & H). destruct (F6 p o li H) as (P1 & P2 & P3). eexists. split; [reflexivity|]. cbn. repeat split; eauto.
  - destruct F as (F1 & F4 & F5 & F6). unfold canon. cbn [conforms OffsetRequest]. eexists. split; [reflexivity|]. cbv beta iota. split; [reflexivity|]; split; [eexists; split; [reflexivity|assumption]|]. split; [reflexivity|]. split; [|exact I].
    eexists. split; [reflexivity|]. split; [|reflexivity]. constructor; [|constructor]. eexists. split; [reflexivity|]. cbn. split; [reflexivity|]. split; [exact F4|]. split; [reflexivity|]. split; [|exact I].
    eexists. split; [reflexivity|]. split; [|unfold zlen in *; rewrite map_length; exact F5]. apply Forall_forall. intros v H. apply in_map_iff in H as ([p [o li]] & <- & H). destruct (F6 p o li H) as (P1 & (n & -> & P2) & P3). eexists. split; [reflexivity|]. cbn. repeat split; eauto.
  - destruct F as (F1 & F4 & F5 & F6). unfold canon. cbn [conforms OffsetFetchRequest]. eexists. split; [reflexivity|]. cbv beta iota. split; [reflexivity|]; split; [exact F1|]. split; [reflexivity|]. split; [|exact I].
    eexists. split; [reflexivity|]. split; [|reflexivity]. constructor; [|constructor]. eexists. split; [reflexivity|]. cbn. split; [reflexivity|]. split; [exact F4|]. split; [reflexivity|]. split; [|exact I].
    eexists. split; [reflexivity|]. split; [|unfold zlen in *; rewrite map_length; exact F5]. apply Forall_forall. intros v H. apply in_map_iff in H as (p & <- & H). exists p. auto.
  - destruct F as (F1 & F5 & F6). unfold canon. cbn [conforms OffsetCommitV0Request]. eexists. split; [reflexivity|]. cbv beta iota. split; [reflexivity|]; split; [exact F1|]. split; [reflexivity|]. split; [|exact I].
    eexists. split; [reflexivity|]. split; [|unfold zlen in *; rewrite map_length; exact F5]. apply Forall_forall. intros v H. apply in_map_iff in H as ([t parts] & <- & H). destruct (F6 t parts H) as (P1 & P2 & P3). eexists. split; [reflexivity|]. cbn. split; [reflexivity|]. split; [exact P1|]. split; [reflexivity|]. split; [|exact I].
    eexists. split; [reflexivity|]. split; [|unfold zlen in *; rewrite map_length; exact P2]. apply Forall_forall. intros v' H'. apply in_map_iff in H' as ([p [o m]] & <- & H'). destruct (P3 p o m H') as (Q1 & Q2 & Q3). eexists. split; [reflexivity|]. cbn. repeat split; eauto.
  - unfold canon. cbn [conforms GroupCoordinatorRequest]. eexists. split; [reflexivity|]. cbv beta iota. split; [reflexivity|]; split; [exact F|exact I].
Qed.

Lemma serialized_documented : forall rq last, fits_kafka rq -> fits 32 (last + 1) -> (forall payload, documented rq payload -> zlen payload + 14 < 2 ^ 31) ->
  exists api key payload, api = fst (fst (request_kwargs rq)) /\ In (api, key) kafka_api_numbers /\ documented rq payload /\ request_wire last rq = Ok (request_frame key (last + 1) payload).
Proof.
  intros rq last F FL SZ. pose proof (request_canon rq F) as CA.
  assert (X : forall api fs kw, request_kwargs rq = (api, fs, kw) -> In (api, fs) request_classes -> NoDup (map fst kw) -> incl (map fst kw) (map fst fs) -> map (fun nt => (fst nt, lookup_attr kw (fst nt))) fs = kw ->
    exists api key payload, api = fst (fst (request_kwargs rq)) /\ In (api, key) kafka_api_numbers /\ documented rq payload /\ request_wire last rq = Ok (request_frame key (last + 1) payload)).
  { intros api fs kw E IC ND INC MP. unfold documented, request_wire in *. rewrite E in *. destruct (C05_legal_requests_serialize api fs kw last IC ND INC) as (attrs & key & payload & RI & IK & W & RB); [now rewrite MP|exact FL|rewrite MP; exact SZ|].
    rewrite MP in W. exists api, key, payload. split; [reflexivity|]. split; [exact IK|]. split; [exact W|]. rewrite RI. cbn [bind]. exact RB. }
  destruct rq as [r mw mb t parts|r t parts|g t ps|g topics|g]; (eapply X; [reflexivity|cbn; tauto|repeat (constructor; [cbn; intuition discriminate|]); constructor|intros x H; exact H|reflexivity]).
Qed.

(** the layout of the classes is Kafka's *)
Lemma wire_string t : short_text t -> wire (TPrim String_) (PStr t) (string_bytes t).
Proof. intros (b & E & _). unfold string_bytes. rewrite E. apply w_string. now apply wv_text. Qed.
Lemma wire_array {A} it (mk : A -> pyval) item l : (forall x, In x l -> wire it (mk x) (item x)) -> wire (TArray it) (PList (map mk l)) (array_bytes item l).
Proof.
  intros H. unfold array_bytes. replace (zlen l) with (zlen (map mk l)) by (unfold zlen; now rewrite map_length). apply w_array. induction l as [|x l IH]; cbn [map concat]; [constructor|]. constructor; [apply H; now left|]. apply IH. intros; apply H. now right.
Qed.
Lemma wire_fields1 n t v b : wire t v b -> wire_fields [(n, t)] [(n, v)] b.
Proof. intros H. rewrite <- (app_nil_r b). constructor; [exact H|constructor]. Qed.
Ltac ints := apply w_int; tauto.
Lemma documented_payload rq : fits_kafka rq -> documented rq (kafka_payload rq).
Proof.
  destruct rq as [r mw mb t parts|r t parts|g t ps|g topics|g]; cbn [fits_kafka kafka_payload]; unfold documented, obj; cbn [request_kwargs]; intros F.
  - destruct F as (_ & _ & _ & FT & _ & _). apply w_part. do 3 (constructor; [ints|]). apply wire_fields1. apply (wire_array _ (fun parts => PObj _) _ [parts]). intros ps _. apply w_part. constructor; [now apply wire_string|]. apply wire_fields1. apply wire_array.
    intros [p [o li]] _. apply w_part. do 2 (constructor; [ints|]). apply wire_fields1. ints.
  - destruct F as (_ & FT & _ & FP). apply w_part. do 1 (constructor; [ints|]). apply wire_fields1. apply (wire_array _ (fun parts => PObj _) _ [parts]). intros ps [<-|[]]. apply w_part. constructor; [now apply wire_string|]. apply wire_fields1. apply wire_array.
    intros [p [o li]] H. destruct (FP p o li H) as (_ & (m & -> & _) & _). apply w_part. do 2 (constructor; [ints|]). apply wire_fields1. ints.
  - destruct F as (FG & FT & _ & _). apply w_part. constructor; [now apply wire_string|]. apply wire_fields1. apply (wire_array _ (fun parts => PObj _) _ [ps]). intros ps' _. apply w_part. constructor; [now apply wire_string|]. apply wire_fields1. apply wire_array. intros p _. ints.
  - destruct F as (FG & _ & FT). apply w_part. constructor; [now apply wire_string|]. apply wire_fields1. apply wire_array. intros [t parts] H. destruct (FT t parts H) as (FT1 & _ & FP). apply w_part. constructor; [now apply wire_string|]. apply wire_fields1. apply wire_array.
    intros [p [o m]] H'. destruct (FP p o m H') as (_ & _ & FM). apply w_part. do 2 (constructor; [ints|]). apply wire_fields1. now apply wire_string.
  - apply w_part. apply wire_fields1. now apply wire_string.
Qed.

(** Requests whose numbers and strings fit are serialized, as a frame with Kafka's number and payload (if that is shorter
    than 2 GiB, which is as much as the length of the frame can say). *)
Theorem C61_serialized : forall rq last, fits_kafka rq -> fits 32 (last + 1) -> zlen (kafka_payload rq) + 14 < 2 ^ 31 ->
  request_wire last rq = Ok (request_frame (kafka_api rq) (last + 1) (kafka_payload rq)).
Proof.
  intros rq last F FL SZ. pose proof (documented_payload rq F) as D.
  assert (U : forall p, documented rq p -> p = kafka_payload rq). { intros p P. unfold documented in *. destruct (request_kwargs rq) as [[api fs] kw]. eapply wire_det; eassumption. }
  destruct (serialized_documented rq last F FL) as (api & key & payload & EA & IK & P & W); [intros p P; now rewrite (U p P)|].
  rewrite W, (U _ P). f_equal. f_equal. subst api. clear -IK. destruct rq; cbn in IK |- *; repeat (destruct IK as [IK|IK]; [injection IK; intros; try congruence; discriminate|]); destruct IK.
Qed.

Section Sent.
  Context {V : Type}.
  Variable cfg : config V.
  Variable CF : config_fits cfg.
  Notation st := (consumer V).

  (** what a waiting call keeps to send again *)
  Definition kept_fits (k : @Consumer.cont V) : Prop :=
    match k with KOffsets _ (Some rq) => fits_kafka rq | KCommit m _ => short_text m | _ => True end.
  Definition pc_fits (p : @Consumer.pc V) : Prop := match p with PSend k _ _ | PHeal k _ => kept_fits k | PTopicHeal _ => True end.
  Definition next_fits (n : @Consumer.next V) : Prop := match n with Await p => pc_fits p | _ => True end.

  Lemma send_one_fits k b rq (s : st) : kept_fits k -> next_fits (fst (send_one cfg k b rq s)).
  Proof. intros K. unfold send_one. destruct b; [|exact I]. destruct (send_all cfg [(z, rq)] s) as [[|] ?]; [exact K|exact I]. Qed.
  Lemma commit_fits m ret (s : st) : match m with Some x => short_text x | None => True end -> next_fits (fst (commit_offsets cfg m ret s)).
  Proof using CF.
    intros M. unfold commit_offsets. destruct (md cfg) as [|g fn ac name] eqn:MD; [exact I|]. destruct (alloc_map cfg s) as [[am|e] s1]; [|exact I]. destruct (commit_topics am _ s1) as [topics s2]. apply send_one_fits. cbn.
    destruct m as [x|]; [exact M|]. destruct CF as (_ & _ & _ & C). rewrite MD in C. apply C.
  Qed.
  Lemma base_done_fits t v (s : st) : next_fits (fst (base_done cfg t v s)).
  Proof using CF. unfold base_done. destruct (md cfg) as [|g fn ac name]; [exact I|]. destruct (negb (smem (c_synced s) t)); [exact I|]. destruct ac; [now apply commit_fits|exact I]. Qed.
  Lemma fetch_fits t (s : st) : next_fits (fst (fetch cfg t s)).
  Proof using CF.
    unfold fetch. destruct (allocated cfg t s) as [[[|]|e] s1]; [|apply base_done_fits|exact I]. destruct (alloc_index cfg t s1) as [[ps|e] s2]; [|exact I]. destruct (order_leaders t ps [] s2) as [[ord|e] s3]; [|exact I].
    destruct (fetch_requests cfg t ord s3) as [rqs s4]. destruct (send_all cfg rqs s4) as [[|] s5]; exact I.
  Qed.
  Lemma after_fits t (s : st) : next_fits (fst (after_offsets cfg t s)).
  Proof using CF. unfold after_offsets. destruct (allocated cfg t s) as [[[|]|e] s1]; [apply fetch_fits|exact I|exact I]. Qed.
  Lemma raised_fits k e (s : st) : next_fits (fst (raised cfg k e s)).
  Proof using CF. unfold raised. destruct k; try exact I. destruct e; try exact I. apply base_done_fits. Qed.
  Lemma short_empty : short_text [].
  Proof. exists []. split; reflexivity. Qed.
  Lemma coord_next_fits g rest (s : st) : next_fits (fst (coord_next cfg g rest s)).
  Proof. unfold coord_next. destruct (match rest with [] => _ | _ => rest end); [exact I|]. now apply send_one_fits. Qed.
  Lemma resume_fits k rs (s : st) : kept_fits k -> next_fits (fst (resume cfg k rs s)).
  Proof using CF.
    intros K. destruct k as [t [rq|]|t|m ret|a rest]; cbn [resume].
    - destruct (md cfg) as [|g fn ac name]; [apply after_fits|]. destruct (coord_result rs s) as [h|e]; [|apply raised_fits]. destruct h as [|l|[|]|a b]; try apply after_fits.
      pose proof (send_one_fits (KOffsets t (Some rq)) (c_coord s) rq s K) as S. destruct (send_one cfg (KOffsets t (Some rq)) (c_coord s) rq s) as [[p|v|e] s1]; [exact S|exact I|apply raised_fits].
    - destruct (md cfg) as [|g fn ac name]; apply after_fits.
    - apply base_done_fits.
    - destruct (coord_result rs s) as [h|e]; [|exact I]. destruct h as [|l|b|a b]; try exact I. destruct a; [|exact I]. apply commit_fits. destruct b; [apply short_empty|exact K].
    - destruct (dindex rs a) as [h|e]; [|exact I]. destruct h as [|l|[|]|x b]; try exact I; (destruct (md cfg) as [|g fn ac name]; [exact I|apply coord_next_fits]).
  Qed.
  Lemma send_end_fits k rs (s : st) : kept_fits k -> next_fits (fst (send_end cfg k rs s)).
  Proof using CF. intros K. unfold send_end. destruct (c_heal s); [exact K|now apply resume_fits]. Qed.
  Lemma begin_fits o (s : st) : op_fits cfg o -> allocation_fits cfg s -> next_fits (fst (begin cfg o s)).
  Proof using CF.
    intros OF AF. destruct o as [t start|m|]; cbn [begin].
    - unfold consume. destruct (c_closing s); [apply base_done_fits|]. destruct (smem (c_synced s) t); [apply after_fits|].
      assert (D : next_fits (fst (determine_offsets cfg t (match md cfg with Single => start | _ => None end) s))).
      { unfold determine_offsets. destruct (md cfg) as [|g fn ac name] eqn:MD.
        - destruct (alloc_index cfg t s) as [[ps|e] s1]; [|exact I]. destruct (offset_requests t _ ps [] s1) as [[rqs|e] s2]; [|exact I]. destruct (send_all cfg rqs s2) as [[|e] s3]; [|exact I]. destruct rqs; [now apply send_end_fits|exact I].
        - destruct (alloc_index_spec cfg t s) as [_ PS]. destruct (alloc_index cfg t s) as [[ps|e] s1]; [|exact I]. specialize (PS ps eq_refl). apply send_one_fits. cbn. destruct CF as (_ & _ & _ & C). rewrite MD in C. destruct (proj1 AF t) as [A1 A2]. subst ps.
          split; [apply C|]. split; [apply OF|]. auto. }
      destruct (determine_offsets cfg t _ s) as [[p|v|e] s1]; [exact D|exact I|apply raised_fits].
    - apply commit_fits. exact OF.
    - destruct (md cfg); [exact I|apply coord_next_fits].
  Qed.

  (** the invariant *)
  Record ok_state (s : st) : Prop := {
    ok_inv : inv cfg s;
    ok_calls : forall i o p, dget (c_calls s) i = Some (o, p) -> op_fits cfg o /\ pc_fits p;
    ok_pos : forall t p, fits 64 (position s t p) }.
  Lemma offset_fits_fits o : offset_fits o -> fits 64 o /\ fits 64 (o + 1).
  Proof. unfold offset_fits, fits. change (64 - 1) with 63. lia. Qed.
  Lemma last_of_in l : forall old, last_of l old = old \/ In (last_of l old) l.
  Proof. induction l as [|x l IH]; intros old; [now left|]. rewrite last_of_cons. destruct (IH x) as [->|H]; right; [now left|now right]. Qed.
  Lemma one_past_in l old : one_past_last l old = old \/ exists o, In o l /\ one_past_last l old = o + 1.
  Proof. unfold one_past_last. destruct (rev l) as [|x r] eqn:E; [now left|]. right. exists x. split; [|reflexivity]. apply in_rev. rewrite E. now left. Qed.
  Lemma before_in {A} f (l : list A) x : In x (before f l) -> In x l.
  Proof. induction l as [|y l IH]; [intros []|]. cbn. destruct (f y); [intros []|]. intros [H|H]; [now left|right; auto]. Qed.
  Lemma position_after_fits t p r old : answer_fits r -> fits 64 old -> fits 64 (position_after cfg t p r old).
  Proof.
    intros A F. destruct r as [[|[t' parts] ts]|[|[t' parts] ts]|[|[t' parts] ts]|ts|code id]; cbn [position_after]; try exact F; (destruct (eqb t' t); [|exact F]); cbn [answer_fits] in A.
    - match goal with |- fits 64 (one_past_last ?l old) => destruct (one_past_in l old) as [->|(o & H & ->)] end; [exact F|]. unfold accepted in H. apply in_flat_map in H as ([q [code ms]] & H1 & H2). apply before_in in H1. cbn [fst snd] in H2. destruct ((q =? p) && (code =? no_error)); [|destruct H2].
      apply filter_In in H2 as [H2 _]. apply in_map_iff in H2 as ([o' v] & E & H2). cbn in E. subst o'. unfold readable in H2. apply in_flat_map in H2 as ([o2 m] & H3 & H4). cbn [fst snd] in H4. destruct (deser cfg (msg_value m)); [|destruct H4]. destruct H4 as [H4|[]]. injection H4 as -> _.
      apply offset_fits_fits. eapply A; [now left|exact H1|exact H3].
    - match goal with |- fits 64 (last_of ?l old) => destruct (last_of_in l old) as [->|H] end; [exact F|]. apply in_flat_map in H as ([q [code offs]] & H1 & H2). apply before_in in H1. cbn [fst snd] in H2. destruct offs as [|o offs]; [destruct H2|]. destruct ((q =? p) && (code =? no_error) && (0 <=? o)); [|destruct H2]. destruct H2 as [<-|[]].
      apply offset_fits_fits. eapply A; [now left|exact H1|now left].
    - match goal with |- fits 64 (last_of ?l old) => destruct (last_of_in l old) as [->|H] end; [exact F|]. apply in_flat_map in H as ([q [code o]] & H1 & H2). apply before_in in H1. cbn [fst snd] in H2. destruct ((q =? p) && (code =? no_error)); [|destruct H2]. destruct H2 as [<-|[]].
      apply offset_fits_fits. eapply A; [now left|exact H1].
  Qed.
  Lemma ok_positions s l : ok_state s -> step_fits cfg s l -> forall t p, fits 64 (position (cstep cfg s l) t p).
  Proof.
    intros [I0 _ OP] (LF & _) t p. rewrite (position_step cfg s l t p I0). unfold answered. destruct l as [i o|i b r|i r|k|ev|]; try apply OP. unfold takes. destruct r as [resp|e]; [|apply OP]. rewrite Z.eqb_refl.
    destruct (dget (c_calls s) i) as [[o [k w rs|k rs|t']]|]; try apply OP. destruct (dget w b) as [rq|]; [|apply OP]. destruct (answers rq resp); [|apply OP]. apply position_after_fits; [exact LF|apply OP].
  Qed.
  Lemma ok_continue s i o (ns : @Consumer.next V * st) : ok_state s -> c_calls (snd ns) = c_calls s -> op_fits cfg o -> next_fits (fst ns) ->
    forall j o' p, dget (c_calls (continue i o ns)) j = Some (o', p) -> op_fits cfg o' /\ pc_fits p.
  Proof.
    intros [[ND _] OC _] E OF NF j o' p. destruct (continue_calls i o ns j) as [_ ->]; [now rewrite E|]. rewrite E. destruct (j =? i); [|apply OC]. destruct (fst ns); try discriminate. intros H. injection H as <- <-. split; [exact OF|exact NF].
  Qed.
  Lemma ok_step s l : ok_state s -> step_fits cfg s l -> ok_state (cstep cfg s l).
  Proof using CF.
    intros OK SF. pose proof OK as [I0 OC OP]. pose proof (ok_positions s l OK SF) as PF. split; [now apply inv_step| |exact PF]. clear PF.
    destruct SF as (LF & AF & _). pose proof (cstep_did cfg s l I0) as DI.
    destruct DI as [l ID|i o ns DD E P|i b r o k w rs rq DD F W IA HF NE F'|i b r o k w rs rq ns DD F W IA E P|i r o k rs s1 ns DD F E P|i r t1 start ns DD E P|k|g fn ac name ev M|]; try exact OC.
    - destruct P as [(ex & M & _) _ _ _]. apply (ok_continue s); [exact OK|apply M|exact LF|]. subst ns. now apply begin_fits.
    - apply (ok_continue s); [exact OK|apply (answer_state_same cfg r s)|apply (OC _ _ _ DD)|]. exact (proj2 (OC _ _ _ DD)).
    - destruct (OC _ _ _ DD) as [OF KF]. destruct (paid_some cfg k rs) as [lv PD]. destruct (P lv PD) as [(ex & M & _) _ _ _]. apply (ok_continue s); [exact OK| |exact OF|].
      + rewrite (p_calls _ _ _ _ _ _ M). apply (answer_state_same cfg r s).
      + destruct E as [(_ & _ & ->)|(e & _ & ->)]; [now apply send_end_fits|apply raised_fits].
    - destruct (OC _ _ _ DD) as [OF KF]. destruct (paid_some cfg k rs) as [lv PD]. destruct (P lv PD) as [(ex & M & _) _ _ _]. apply (ok_continue s); [exact OK| |exact OF|].
      + rewrite (p_calls _ _ _ _ _ _ M). destruct E as [(u & _ & -> & _)|(e & _ & -> & _)]; reflexivity.
      + destruct E as [(u & _ & _ & ->)|(e & _ & _ & ->)]; [now apply resume_fits|apply raised_fits].
    - destruct (OC _ _ _ DD) as [OF KF]. destruct P as [(ex & M & _) _ _ _]. apply (ok_continue s); [exact OK|apply M|exact OF|]. destruct E as [(u & _ & ->)|(e & _ & ->)]; [apply fetch_fits|exact I].
  Qed.
  Lemma acts_fits s l i o look s1 ns ex : ok_state s -> step_fits cfg s l -> acts cfg s l i o look s1 ns ex -> op_fits cfg o /\ next_fits (fst ns).
  Proof using CF.
    intros OK SF A. pose proof (ok_step s l OK SF) as [_ OC' _]. destruct OK as [I0 OC OP]. destruct SF as (LF & _ & _). split.
    - destruct (ac_from _ _ _ _ _ _ _ _ _ A) as [(-> & _)|[(b & r & k & w & rs & rq & _ & DD & _)|[(r & k & rs & _ & DD & _)|(r & t & _ & DD & _)]]]; [exact LF|apply (OC _ _ _ DD)..].
    - rewrite (ac_step _ _ _ _ _ _ _ _ _ A) in OC'. destruct (fst ns) as [p| |] eqn:E; try exact I. apply (OC' i o p). destruct (continue_calls i o ns i) as [_ ->]; [|now rewrite Z.eqb_refl, E].
      destruct (acts_before _ _ _ _ _ _ _ _ _ A) as (CB & _). rewrite (p_calls _ _ _ _ _ _ (ac_moves _ _ _ _ _ _ _ _ _ A)), CB. apply I0.
  Qed.
  Lemma quot_fits n k : 0 <= k -> fits 32 n -> fits 32 (Z.quot n k).
  Proof.
    unfold fits. change (2 ^ (32 - 1)) with 2147483648. intros K H. assert (P : forall m, 0 <= m -> 0 <= Z.quot m k <= m).
    { intros m M. destruct (Z.eq_dec k 0) as [->|K0]; [rewrite Z.quot_0_r_ext by reflexivity; lia|]. split; [apply Z.quot_pos; lia|]. apply Z.quot_le_upper_bound; [lia|nia]. }
    destruct (Z.le_gt_cases 0 n) as [N|N]; [specialize (P n N); lia|]. specialize (P (- n)). destruct (Z.eq_dec k 0) as [->|K0]; [rewrite Z.quot_0_r_ext by reflexivity; lia|]. rewrite Z.quot_opp_l in P by exact K0. lia.
  Qed.
  Lemma filter_short {A} (f : A -> bool) l : (length (filter f l) <= length l)%nat.
  Proof. induction l as [|x l IH]; [apply le_n|]. cbn. destruct (f x); cbn; lia. Qed.
  Lemma sub_length {A B C} (f : A -> list B) (g : list (C * A)) x : In x g -> zlen (f (snd x)) <= zlen (flat_map (fun y => f (snd y)) g).
  Proof.
    unfold zlen. induction g as [|y g IH]; [intros []|]. cbn. rewrite app_length. intros [->|H]; [lia|specialize (IH H); lia].
  Qed.
  Lemma fetching_fits s t start rqs : (forall t p, fits 64 (position s t p)) -> op_fits cfg (OpConsume t start) -> allocation_fits cfg s -> fetching cfg s t rqs -> forall b rq, In (b, rq) rqs -> fits_kafka rq.
  Proof using CF.
    intros OP [OT _] [AF _] (_ & _ & PM & F) b rq H. destruct (F b rq H) as (parts & _ & -> & FP). destruct (AF t) as [A1 A2]. destruct CF as (C1 & C2 & C3 & _).
    pose (f := fun rq => match rq with RFetch _ _ _ _ parts => map fst parts | _ => [] end). pose proof (sub_length f rqs _ H) as L. cbn [f snd] in L.
    pose proof (Permutation_length PM) as PL. unfold zlen in *. rewrite map_length in L. cbv beta in PL. unfold f in L. cbn [fits_kafka]. split; [vm_compute; split; congruence|]. split; [exact C1|]. split; [exact C2|]. split; [exact OT|]. unfold zlen. split; [lia|].
    intros p o li HP. destruct (FP p o li HP) as (_ & -> & ->). split; [|split; [apply OP|apply quot_fits; [apply Zle_0_nat|exact C3]]]. apply A2. apply (Permutation_in _ PM). apply in_flat_map. eexists. split; [exact H|]. cbn. apply (in_map fst) in HP. exact HP.
  Qed.
  Lemma looking_fits s t start rqs : md cfg = Single -> op_fits cfg (OpConsume t start) -> allocation_fits cfg s ->
    looking cfg s t (start_to_timestamp cfg (match start with Some x => x | None => StInt END_ end)) rqs -> forall b rq, In (b, rq) rqs -> fits_kafka rq.
  Proof using CF.
    intros MD [OT OS] [AF _] (_ & PM & F) b rq H. destruct (F b rq H) as (parts & _ & -> & FP). destruct (AF t) as [A1 A2].
    pose (f := fun rq => match rq with ROffset _ _ parts => map fst parts | _ => [] end). pose proof (sub_length f rqs _ H) as L. cbn [f snd] in L.
    pose proof (Permutation_length PM) as PL. unfold zlen in *. rewrite map_length in L. cbv beta in PL. unfold f in L. cbn [fits_kafka]. split; [vm_compute; split; congruence|]. split; [exact OT|]. unfold zlen. split; [lia|].
    intros p tm n HP. destruct (FP p tm n HP) as (_ & -> & ->). split; [|split; [|vm_compute; split; congruence]].
    - apply A2. apply (Permutation_in _ PM). apply in_flat_map. eexists. split; [exact H|]. cbn. apply (in_map fst) in HP. exact HP.
    - destruct start as [[n|us|now us]|]; cbn; [eexists; split; [reflexivity|exact OS]|congruence..|]. eexists. split; [reflexivity|vm_compute; split; congruence].
  Qed.
  Lemma sent_fits s l : ok_state s -> step_fits cfg s l -> forall b rq, In (b, rq) (sent cfg s l) -> fits_kafka rq.
  Proof using CF.
    intros OK SF b rq H. pose proof (ok_step s l OK SF) as OK'. assert (N : sent cfg s l <> []) by (intros E; rewrite E in H; destruct H).
    destruct (sent_cases cfg s l (ok_inv s OK) N) as (i & o & look & s1 & ns & A). destruct (acts_fits _ _ _ _ _ _ _ _ OK SF A) as [OF NF]. destruct SF as (_ & _ & AF).
    rewrite (ac_step _ _ _ _ _ _ _ _ _ A) in OK', AF. destruct (continue_views cfg i o ns) as (VP & _ & VA & _ & VO). pose proof (ac_sends _ _ _ _ _ _ _ _ _ A) as S.
    assert (AF' : allocation_fits cfg (snd ns)).
    { destruct AF as [AF1 AF2]. split; [intros t; rewrite <- VA; apply AF1|]. destruct (md cfg); [exact I|]. intros am E. apply AF2. unfold own_map in VO. rewrite VO. exact E. }
    assert (OP' : forall t p, fits 64 (position (snd ns) t p)) by (intros t p; rewrite <- VP; apply OK').
    remember (sent cfg s l) as ex eqn:EX. clear EX A OK OK' N. destruct S as [|t start rqs pre post Eo FT Er _ ex Ex|t start rqs pre post _ MD Eo LK Er _ ex Ex|t start b' g fn ac name ps _ MD Eo _ _ En|m ret b' g fn ac name am MD _ _ _ _ OM En|b' rest g fn ac name MD Eo _ En].
    - destruct H.
    - subst. apply filter_In in H as [H _]. eapply fetching_fits; [exact OP'|exact OF|exact AF'|exact FT|apply in_or_app; left; exact H].
    - subst. apply filter_In in H as [H _]. eapply looking_fits; [exact MD|exact OF|exact AF'|exact LK|apply in_or_app; left; exact H].
    - rewrite En in NF. destruct H as [H|[]]. injection H as _ <-. exact NF.
    - rewrite En in NF. destruct H as [H|[]]. injection H as _ <-. destruct CF as (_ & _ & _ & C). rewrite MD in C. destruct AF' as [_ AF']. rewrite MD in AF'. destruct (AF' am OM) as [L AP]. split; [apply C|]. unfold commit_of, zlen in *. rewrite map_length. split.
      { pose proof (filter_short (fun tp => smem (c_tocommit (snd ns)) (fst tp)) am) as FL. lia. }
      intros t parts H. apply in_map_iff in H as ([t' ps] & E & H). injection E as -> <-. apply filter_In in H as [H _]. destruct (AP t ps H) as (B1 & B2 & B3). split; [exact B1|]. cbn [fst snd]. rewrite map_length. split; [exact B2|].
      intros p o0 m0 H2. apply in_map_iff in H2 as (p' & E & H2). injection E as -> <- <-. split; [auto|]. split; [apply OP'|exact NF].
    - destruct H as [H|[]]. injection H as _ <-. destruct CF as (_ & _ & _ & C). rewrite MD in C. apply C.
  Qed.
  Lemma ok_run ls : forall s, ok_state s -> each_step cfg (step_fits cfg) ls s -> ok_state (crun cfg ls s).
  Proof using CF. induction ls as [|l ls IH]; intros s OK E; [exact OK|]. destruct E as [E1 E2]. apply IH; [now apply ok_step|exact E2]. Qed.
  Lemma ok_init k name : ok_state (@consumer_init V k name).
  Proof. split; [apply inv_init|discriminate|]. intros t p. vm_compute. split; congruence. Qed.
End Sent.

(** Every request a consumer sends fits Kafka's fields, if its configuration and the arguments of its calls do, and the
    offsets in the answers and the partitions it is allotted. *)
Theorem C61_sent : forall V (cfg : config V) k name ls l, config_fits cfg -> each_step cfg (step_fits cfg) (ls ++ [l]) (consumer_init k name) ->
  forall b rq, In (b, rq) (sent cfg (crun cfg ls (consumer_init k name)) l) -> fits_kafka rq.
Proof.
  intros V cfg k name ls l CF E b rq H. assert (E' : each_step cfg (step_fits cfg) ls (consumer_init k name) /\ step_fits cfg (crun cfg ls (consumer_init k name)) l).
  { clear H. revert E. generalize (@consumer_init V k name). induction ls as [|l' ls IH]; intros s E; [split; [exact I|apply E]|]. destruct E as [E1 E2]. destruct (IH _ E2) as [X Y]. split; [split; assumption|exact Y]. }
  destruct E' as [E1 E2]. eapply sent_fits; [exact CF| |exact E2|exact H]. apply ok_run; [exact CF|apply ok_init|exact E1].
Qed.

(** The claim: what a consumer sends is, on the wire, the frame with Kafka's number for the request, the correlation id and
    Kafka's layout of its fields. *)
Theorem C61_requests_readable : forall V (cfg : config V) k name ls l, config_fits cfg -> each_step cfg (step_fits cfg) (ls ++ [l]) (consumer_init k name) ->
  forall b rq last, In (b, rq) (sent cfg (crun cfg ls (consumer_init k name)) l) -> fits 32 (last + 1) -> zlen (kafka_payload rq) + 14 < 2 ^ 31 ->
  request_wire last rq = Ok (request_frame (kafka_api rq) (last + 1) (kafka_payload rq)).
Proof. intros V cfg k name ls l CF E b rq last H FL SZ. apply C61_serialized; [|exact FL|exact SZ]. eapply C61_sent; eassumption. Qed.

(** a group consumer joins, asks for its coordinator and its offsets, fetches and commits: all within the bounds *)
Fixpoint table_fits (am : dict text (list Z)) : Prop :=
  match am with [] => True | (t, ps) :: am' => short_text t /\ Forall (fits 32) ps /\ zlen ps < 2 ^ 31 /\ table_fits am' end.
Lemma table_fits_in am t ps : table_fits am -> In (t, ps) am -> short_text t /\ zlen ps < 2 ^ 31 /\ forall p, In p ps -> fits 32 p.
Proof. induction am as [|[t' ps'] am IH]; [intros _ []|]. intros (A & B & C & D) [H|H]; [injection H as <- <-; split; [exact A|]; split; [exact C|]; now apply Forall_forall|auto]. Qed.
Lemma table_allocation V (cfg : config V) s : match md cfg with Single => False | _ => True end ->
  match own_map s with Some am => table_fits am /\ zlen am < 2 ^ 31 | None => True end -> allocation_fits cfg s.
Proof.
  intros MD T. unfold allocation_fits, alloc_of, gives_to. destruct (md cfg); [destruct MD|]. unfold own_map in T. destruct (dget (mp_tab (a_mapping (c_alloc s))) (a_name (c_alloc s))) as [am|].
  - destruct T as [T L]. split; [|intros am' E; injection E as <-; split; [exact L|]; intros t ps H; eapply table_fits_in; eassumption]. intros t. destruct (dget am t) as [ps|] eqn:D; [|split; [reflexivity|intros p []]]. apply dget_In in D. apply (table_fits_in am t ps T D).
  - split; [|discriminate]. intros t. split; [reflexivity|intros p []].
Qed.
Definition ex_round : list label := ex_joined ++ ex_consumed ++ [Arrive 2 2 (Ok (PFetch [(tt_, [(1, (0, [(7, msg 3)]))])]))].
Lemma ex_short : short_text (txt "g") /\ short_text tt_ /\ short_text (txt "committed by me").
Proof. repeat split; eexists; (split; [reflexivity|vm_compute; reflexivity]). Qed.
Example C61_example_config : config_fits (ex_grouped true).
Proof. repeat split; try (vm_compute; congruence); apply ex_short. Qed.
Example C61_example_fits : each_step (ex_grouped true) (step_fits (ex_grouped true)) ex_round (consumer_init ex_cluster me).
Proof.
  assert (F : forall z, -1000 <= z <= 1000 -> fits 32 z) by (unfold fits; change (2 ^ (32 - 1)) with 2147483648; lia).
  assert (G : forall o, In o [5; 6; 7] -> offset_fits o) by (intros o [<-|[<-|[<-|[]]]]; vm_compute; split; congruence).
  assert (T : table_fits [(tt_, [0; 1])]) by (repeat split; try (apply ex_short); repeat constructor; apply F; lia).
  assert (A : forall s : consumer Z, own_map s = None \/ own_map s = Some [] \/ own_map s = Some [(tt_, [0; 1])] -> allocation_fits (ex_grouped true) s).
  { intros s H. apply table_allocation; [exact I|]. destruct H as [->|[->| ->]]; [exact I|split; [exact I|reflexivity]|split; [exact T|reflexivity]]. }
  assert (S : forall s l, match l with Call _ o => op_fits (ex_grouped true) o | Arrive _ _ (Ok r) => answer_fits r | _ => True end ->
    (own_map s = None \/ own_map s = Some [] \/ own_map s = Some [(tt_, [0; 1])]) -> (let s' := cstep (ex_grouped true) s l in own_map s' = None \/ own_map s' = Some [] \/ own_map s' = Some [(tt_, [0; 1])]) -> step_fits (ex_grouped true) s l).
  { intros s l H1 H2 H3. split; [exact H1|]. split; apply A; assumption. }
  unfold ex_round, ex_joined, ex_consumed, ex_loaded. cbn [app each_step].
  assert (AF : forall t0 p0 (ms : list (Z * pymsg)), incl (map fst ms) [5; 6; 7] -> answer_fits (PFetch [(t0, [(p0, (0, ms))])])).
  { intros t0 p0 ms H t1 parts p code ms' o m [E|[]] H2 H3. injection E as <- <-. destruct H2 as [E|[]]. injection E as <- <- <-. apply G, H. apply (in_map fst) in H3. exact H3. }
  repeat (split; [apply S; [|vm_compute; tauto|vm_compute; tauto]|]); try exact I.
  - split; [apply ex_short|exact I].
  - intros t parts p code o [E|[]] H2. injection E as <- <-. destruct H2 as [E|[E|[]]]; injection E as <- <- <-; apply G; cbn; tauto.
  - apply AF. intros x [<-|[<-|[]]]; cbn; tauto.
  - apply AF. intros x [<-|[]]; cbn; tauto.
Qed.
Example C61_example_sent : In (2, ex_commit_rq) (sent (ex_grouped true) (crun (ex_grouped true) (removelast ex_round) (consumer_init ex_cluster me)) (last ex_round Close)) /\
  zlen (kafka_payload ex_commit_rq) = 72 /\ request_wire 8 ex_commit_rq = Ok (request_frame 8 9 (kafka_payload ex_commit_rq)).
Proof. split; [vm_compute; auto|]. split; vm_compute; reflexivity. Qed.
Print Assumptions C61_serialized.
Print Assumptions C61_sent.
Print Assumptions C61_requests_readable.
