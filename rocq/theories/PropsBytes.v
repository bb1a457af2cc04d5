(** Properties C74 and C75: producing and consuming, down to the bytes.  Specification: SpecBytes.v. *)
From Coq Require Import ZArith String List Bool Lia ZifyBool.
From Verif Require Import PyBase BaseLemmas Utf8 Crc32 Primitives Messages Protocol Schemas Request SpecWire SpecRequest SpecCodec Constants Cluster Producer SpecProducer SpecFlow ProducerRun ProducerWire SpecProduced ProducerBytes PropsWire PropsProducer PropsFlow Json SpecJson ZkProofs Consumer SpecConsumer SpecLog PropsLog SpecEnd PropsEnd SpecKafka ResponseRead KafkaProofs PropsKafka KafkaUnique KafkaProduced SpecBytes.
Import ListNotations.
Open Scope Z_scope.

(** ** a log of bytes, as the consumer's objects *)
Definition seen (klog : Z -> list (Z * kmsg)) (p : Z) : list (Z * pymsg) := kw_read_set (klog p).
Lemma seen_fst l : map fst (kw_read_set l) = map fst l.
Proof. unfold kw_read_set. rewrite map_map. reflexivity. Qed.
Lemma seen_filter f l : filter (fun om : Z * pymsg => f (fst om)) (kw_read_set l) = kw_read_set (filter (fun om => f (fst om)) l).
Proof. unfold kw_read_set. induction l as [|[o m] l IH]; [reflexivity|]. cbn [map filter fst]. destruct (f o); cbn [map]; now rewrite IH. Qed.
Lemma seen_from a l : from a (kw_read_set l) = kw_read_set (kfrom a l).
Proof. exact (seen_filter (fun o => a <=? o) l). Qed.
Lemma seen_between a b l : between a b (kw_read_set l) = kw_read_set (kbetween a b l).
Proof. exact (seen_filter (fun o => (a <=? o) && (o <? b)) l). Qed.
Lemma seen_log l : is_klog l -> is_log (kw_read_set l).
Proof. intros [A B]. unfold is_log. now rewrite seen_fst. Qed.
Lemma seen_in o m l : In (o, m) (kw_read_set l) -> exists km, In (o, km) l /\ m = kw_read km.
Proof. intros H. apply in_map_iff in H as ([o' km] & E & H). cbn in E. injection E as <- <-. eauto. Qed.

Lemma kserves_serves C depth t klog rq raw r : kserves C t klog rq raw -> read_response C (S depth) rq raw = Some (Ok r) -> serves t (seen klog) rq r.
Proof.
  destruct rq as [x mw mb t' asked|x t' asked| | |]; cbn [kserves].
  - intros (parts & rest & K & H). rewrite (C73_fetch C depth (RFetch x mw mb t' asked) raw _ ltac:(now exists x, mw, mb, t', asked) K). intros [= <-]. cbn [map fst snd serves]. split; [reflexivity|]. intros E. destruct (H E) as [ND HP].
    split. { rewrite map_map. cbn [fst]. exact ND. }
    intros p code ms I. apply in_map_iff in I as ([p' [code' kms]] & EQ & I). cbn [fst snd] in EQ. injection EQ as <- <- <-. destruct (HP _ _ _ I) as [NO HS]. split; [exact NO|].
    intros EC. destruct (HS EC) as (o & limit & n & IA & ->). exists o, limit, n. split; [exact IA|]. unfold seen. rewrite seen_from. unfold kw_read_set. now rewrite firstn_map.
  - intros (parts & rest & K). rewrite (C73_offset C (S depth) (ROffset x t' asked) raw _ ltac:(now exists x, t', asked) K). intros [= <-]. reflexivity.
  - intros _ _. exact I.
  - intros _ _. exact I.
  - intros _ _. exact I.
Qed.
Lemma korderly_orderly {V} (cfg : config V) C depth t klog ls : forall s, each_step cfg (korderly C depth t klog) ls s -> each_step cfg (orderly t (seen klog)) ls s.
Proof.
  induction ls as [|l ls IH]; intros s E; [exact I|]. destruct E as [E1 E2]. split; [|now apply IH]. clear - E1. destruct l as [i [t' st|m|]|i b [r|e]|i r|k|ev|]; try exact I; [exact E1|]. cbn [korderly orderly] in *. intros rq W _. destruct (E1 rq W) as (raw & K & R). eapply kserves_serves; eassumption.
Qed.

(** * C74 A single consumer returns the bytes of the log, in order, without gaps or repeats *)
Theorem C74_bytes_of_log {V} (cfg : config V) C depth t klog s0 ls :
  md cfg = Single -> reachable cfg s0 -> (forall p, is_klog (klog p)) -> In t (c_synced s0) -> ~ busy s0 t -> each_step cfg (korderly C depth t klog) ls s0 ->
  (forall p o m, In (o, m) (klog p) -> exists v, deser cfg (kw_field (km_value m)) = Ok v /\ truthy cfg v = true) ->
  let s := crun cfg ls s0 in none_raised t s0 s -> ~ busy s t ->
  exists D, returned t s0 s = values D /\
    forall p, map (fun d => (fst d, Ok (snd d))) (of_partition p D) = map (fun om => (fst om, deser cfg (kw_field (km_value (snd om))))) (kbetween (position s0 t p) (position s t p) (klog p)) /\
      position s t p = one_past_last (map fst (kbetween (position s0 t p) (position s t p) (klog p))) (position s0 t p).
Proof.
  intros SG R LOG SY NB OR DS s NR NB'.
  destruct (C37_whole_log cfg t (seen klog) s0 ls SG R (fun p => seen_log _ (LOG p)) SY NB (korderly_orderly cfg C depth t klog ls s0 OR)) as (D & G & L); [|exact NR|exact NB'|].
  { intros p o m H. apply seen_in in H as (km & H & ->). exact (DS p o km H). }
  exists D. split; [exact G|]. intros p. destruct (L p) as [L1 L2]. fold s in L1, L2. unfold seen in L1, L2. rewrite seen_between in L1, L2. rewrite seen_fst in L2. split; [|exact L2]. rewrite L1. unfold kw_read_set. rewrite map_map. reflexivity.
Qed.

(** * C75 From produce() over the broker's bytes to consume() *)
Lemma frame_payload key corr corr' p p' : request_frame key corr p = request_frame key corr' p' -> p = p'.
Proof.
  unfold request_frame, request_body. cbv zeta. intros E. repeat (apply split_same in E as [_ E]; [|rewrite ?big_endian_len; reflexivity]). first [exact E | (injection E; auto)].
Qed.
Lemma kept_reads t p topics d : Forall2 topic_kept topics d ->
  Forall2 (fun m km => msg_reads (pm_msg m) (kw_read km)) (flat_map (fun tp => if list_eqb (fst tp) t then flat_map (fun pm => if fst pm =? p then snd pm else []) (snd tp) else []) topics) (kcarried t p d).
Proof.
  assert (P : forall d' d'', Forall2 part_kept d' d'' -> Forall2 (fun m km => msg_reads (pm_msg m) (kw_read km)) (flat_map (fun pm => if fst pm =? p then snd pm else []) d') (flat_map (fun pm => if fst pm =? p then map snd (snd pm) else []) d'')).
  { induction 1 as [|[p1 ms] [p2 kms] d' d'' [E K] F IH]; [constructor|]. cbn [fst snd flat_map] in *. subst p2. apply Forall2_app; [|exact IH]. destruct (p1 =? p); [|constructor]. clear - K. induction K as [|m om ms kms [_ H] K IH]; cbn [map]; constructor; assumption. }
  unfold kcarried. induction 1 as [|[n d1] [n' d2] topics d [E K] F IH]; [constructor|]. cbn [fst snd flat_map] in *. subst n'. apply Forall2_app; [|exact IH]. change (eqb n t) with (list_eqb n t). destruct (list_eqb n t); [now apply P|constructor].
Qed.

Section C75.
  Context {V : Type}.
  Variable cfg : config V.
  Variable ser : V -> pyval.
  Variable C : codec.
  Variable compression : Z.
  Variable batch_size : option Z.
  Variables acks timeout : Z.
  Notation prun := (prun batch_size acks timeout (compress_raises C compression) (serialize_raises C compression)).
  Notation accepted := (SpecFlow.accepted batch_size acks timeout (compress_raises C compression) (serialize_raises C compression)).
  Notation each_event := (each_event batch_size acks timeout (compress_raises C compression) (serialize_raises C compression)).

  Lemma stores_keeps evs k corr t klog raws : codec_laws C -> (compression = 0 \/ compression = 1 \/ compression = 2) -> each_event makes evs (producer_init k corr) ->
    Forall2 (fun rq raw => produce_wire C compression rq = Ok raw) (p_wire (prun evs (producer_init k corr))) raws -> kstores C t klog raws ->
    keeps t (p_wire (prun evs (producer_init k corr))) (seen klog).
  Proof.
    intros CL SUP MK FR (ds & FD & ST) p.
    assert (G : Forall2 (fun m km => msg_reads (pm_msg m) (kw_read km)) (carried (p_wire (prun evs (producer_init k corr))) t p) (map snd (klog p))).
    { rewrite ST. assert (MD : forall rq, In rq (p_wire (prun evs (producer_init k corr))) -> forall t d p ms m, In (t, d) (pq_topics rq) -> In (p, ms) d -> In m ms -> made (pm_msg m)).
      { intros rq H t0 d p0 ms m A B D. eapply accepted_made; [exact MK|]. eapply (C62_only_produced batch_size acks timeout).
        apply in_split in H as (l1 & l2 & ->). rewrite carried_app. apply in_or_app. right. change (rq :: l2) with ([rq] ++ l2). rewrite carried_app. apply in_or_app. left. eapply carried_in_topics; eassumption. }
      clear ST. revert ds FD MD. induction FR as [|rq raw w raws PW FR IH]; intros ds FD MD; inversion FD as [|? d ? ds' RC FD']; subst; [constructor|].
      unfold carried. cbn [flat_map]. apply Forall2_app; [|apply IH; [exact FD'|intros rq' H'; apply (MD rq' (or_intror H'))]].
      destruct (produce_said C compression CL SUP rq raw (MD rq (or_introl eq_refl)) PW) as (payload & d0 & -> & K & TK). destruct RC as (corr' & a' & t' & payload' & E & K'). apply frame_payload in E. subst payload'.
      destruct (produce_unique _ _ _ _ _ _ _ _ _ K K') as (_ & _ & <-). now apply kept_reads. }
    unfold seen, kw_read_set. clear - G. remember (carried _ t p) as c. clear Heqc. revert c G. induction (klog p) as [|[o km] l IH]; intros c G; inversion G; subst; cbn [map]; constructor; auto.
  Qed.

  Theorem C75_end_to_end : forall t evs k corr xs raws klog depth s0 ls,
    let start := producer_init k corr in
    codec_laws C -> compression = 0 \/ compression = 1 \/ compression = 2 ->
    each_event makes evs start -> made_from ser xs (for_topic t (accepted evs start)) ->
    (forall x v, In x xs -> var_reads (ser x) v -> deser cfg v = Ok x) -> (forall x, In x xs -> truthy cfg x = true) ->
    Forall2 (fun rq raw => produce_wire C compression rq = Ok raw) (p_wire (prun evs start)) raws -> kstores C t klog raws -> (forall p, is_klog (klog p)) ->
    md cfg = Single -> reachable cfg s0 -> In t (c_synced s0) -> ~ busy s0 t -> each_step cfg (korderly C depth t klog) ls s0 ->
    let s := crun cfg ls s0 in none_raised t s0 s -> ~ busy s t ->
    exists D, returned t s0 s = values D /\
      (forall v, In v (values D) -> In v xs) /\
      (each_event steady evs start -> forall p, in_order (map snd (of_partition p D)) xs) /\
      (forall p, (forall o m, In (o, m) (klog p) -> position s0 t p <= o < position s t p) ->
        made_from ser (map snd (of_partition p D)) (map pm_msg (carried (p_wire (prun evs start)) t p))).
  Proof.
    intros t evs k corr xs raws klog depth s0 ls start CL SUP MK MF DS TR FR ST LOG SG R SY NB OR s NR NB'.
    destruct (C64_end_to_end cfg ser batch_size acks timeout (compress_raises C compression) (serialize_raises C compression) t evs k corr xs (seen klog) s0 ls MF DS TR) as (D & G1 & G2 & G3 & G4); auto.
    - now apply stores_keeps with (raws := raws).
    - intros p. apply seen_log, LOG.
    - now apply (korderly_orderly cfg C depth).
    - exists D. split; [exact G1|]. split; [exact G2|]. split; [exact G3|]. intros p H. apply G4. intros o m I. apply seen_in in I as (km & I & _). now apply (H o km).
  Qed.
End C75.

(** ** every request written is, to Kafka, a produce request with the messages produced, and nothing else *)
Theorem C75_written : forall C compression batch_size acks timeout evs k corr rq raw,
  codec_laws C -> compression = 0 \/ compression = 1 \/ compression = 2 ->
  let prun := prun batch_size acks timeout (compress_raises C compression) (serialize_raises C compression) in
  each_event batch_size acks timeout (compress_raises C compression) (serialize_raises C compression) makes evs (producer_init k corr) ->
  In rq (p_wire (prun evs (producer_init k corr))) -> produce_wire C compression rq = Ok raw ->
  (exists d, kreceives C raw d) /\
  forall d, kreceives C raw d -> map fst d = map fst (pq_topics rq) /\
    forall t p, Forall2 (fun m km => msg_reads (pm_msg m) (kw_read km)) (carried [rq] t p) (kcarried t p d).
Proof.
  intros C compression batch_size acks timeout evs k corr rq raw CL SUP prun MK H PW.
  destruct (produce_said C compression CL SUP rq raw) with (2 := PW) as (payload & d0 & -> & K & TK).
  { intros t0 d p0 ms m A B D. eapply accepted_made; [exact MK|]. eapply (C62_only_produced batch_size acks timeout).
    unfold prun in H. apply in_split in H as (l1 & l2 & ->). rewrite carried_app. apply in_or_app. right. change (rq :: l2) with ([rq] ++ l2). rewrite carried_app. apply in_or_app. left. eapply carried_in_topics; eassumption. }
  split; [exists d0; now exists (pq_corr rq), (pq_acks rq), (pq_timeout rq), payload|].
  intros d (corr' & a' & t' & payload' & E & K'). apply frame_payload in E. subst payload'. destruct (produce_unique _ _ _ _ _ _ _ _ _ K K') as (_ & _ & <-). split.
  - clear - TK. induction TK as [|a b l l' [E _] F IH]; [reflexivity|]. cbn [map]. now rewrite E, IH.
  - intros t p. unfold carried. cbn [flat_map]. rewrite app_nil_r. now apply kept_reads.
Qed.

(** ** a whole exchange: bytes of the requests, logs, bytes of the responses *)
Definition eb_str (u : text) : bytes := let b := match utf8_encode u with Some b => b | None => [] end in big_endian 2 (zlen b) ++ b.
Definition eb_arr {A} (f : A -> bytes) (xs : list A) : bytes := big_endian 4 (zlen xs) ++ concat (map f xs).
Definition eb_plain (ms : list (Z * kmsg)) : bytes := concat (map (fun om => ent (fst om) 0 (snd om)) ms).
Definition eb_z (a : Z) (raw : bytes) : bytes := if a =? 1 then 31 :: 139 :: raw else ([130] ++ txt "SNAPPY" ++ [0] ++ big_endian 4 1 ++ big_endian 4 1) ++ big_endian 4 (zlen raw) ++ raw.
Definition eb_set (a : Z) (ms : list (Z * kmsg)) : bytes := if a =? 0 then eb_plain ms else ent (-1) a (KMsg None (Some (eb_z a (eb_plain ms)))).
Definition okb (v : option bytes) : bool := match v with None => true | Some b => forallb (fun x => (0 <=? x) && (x <? 256)) b end.
Definition oke (o a : Z) (m : kmsg) : bool := (- 2 ^ 63 <=? o) && (o <? 2 ^ 63) && okb (km_key m) && okb (km_value m) && (4 + zlen (kw_body a m) <? 2 ^ 31).
Definition oks (a : Z) (ms : list (Z * kmsg)) : bool :=
  forallb (fun om => oke (fst om) 0 (snd om)) ms && (if a =? 0 then true else ((a =? 1) || (a =? 2)) && (12 <=? zlen (eb_plain ms)) && (zlen (eb_plain ms) <? 2 ^ 31) && oke (-1) a (KMsg None (Some (eb_z a (eb_plain ms))))) && (zlen (eb_set a ms) <? 2 ^ 31).
Lemma okb_ok v : okb v = true -> all_bytes v.
Proof. destruct v as [b|]; [apply bytes_check|intros _; exact I]. Qed.
Lemma oke_ok o a m : oke o a m = true -> kw_entry o a m (ent o a m).
Proof. unfold oke. rewrite !andb_true_iff. intros ((((A & B) & K) & V) & L). unfold kw_entry. split; [unfold fits; lia|]. split; [now apply okb_ok|]. split; [now apply okb_ok|]. split; [lia|reflexivity]. Qed.
Lemma oks_ok a ms least : least <= 12 -> oks a ms = true -> kw_set demo_codec least ms (eb_set a ms) /\ zlen (eb_set a ms) < 2 ^ 31.
Proof.
  intros LE H. unfold oks in H. rewrite !andb_true_iff in H. destruct H as ((F & P) & L). split; [|lia]. rewrite forallb_forall in F.
  assert (PL : kw_plain ms (eb_plain ms)). { exists (map (fun om => ent (fst om) 0 (snd om)) ms). split; [|reflexivity]. clear - F. induction ms as [|om ms IH]; cbn [map]; constructor; [apply oke_ok, F; now left|]. apply IH. intros x Hx. apply F. now right. }
  unfold eb_set. destruct (a =? 0) eqn:A0; [now apply plain_set|]. rewrite !andb_true_iff in P. destruct P as (((AA & S) & S2) & E). rewrite <- (app_nil_r ms) at 1. rewrite <- (app_nil_r (ent _ _ _)).
  eapply ks_packed; [|exact PL|apply oke_ok; exact E|constructor]. destruct (a =? 1) eqn:A1.
  - left. split; [lia|]. unfold eb_z. rewrite A1. split; [reflexivity|]. eexists; reflexivity.
  - right. split; [cbn in AA; lia|]. split; [reflexivity|]. exists [eb_plain ms], [eb_plain ms]. split; [constructor; [split; [reflexivity|lia]|constructor]|]. split; [cbn [concat]; now rewrite app_nil_r|]. split; [unfold eb_z; rewrite A1; cbn [map concat]; now rewrite app_nil_r|].
    intros front c EQ. destruct front as [|x [|]]; try discriminate EQ. injection EQ as <-. lia.
Qed.
Lemma arr_ok {A} (item : A -> bytes -> Prop) f xs : (forall x, In x xs -> item x (f x)) -> zlen xs < 2 ^ 31 -> kw_array item xs (eb_arr f xs).
Proof. intros H L. exists (map f xs). split; [|split; [exact L|reflexivity]]. clear L. induction xs as [|x xs IH]; cbn [map]; constructor; [apply H; now left|]. apply IH. intros; apply H; now right. Qed.

(** parts: partition, error code, compression, messages *)
Definition eb_fetch (u : text) (parts : list (Z * Z * Z * list (Z * kmsg))) : bytes :=
  eb_arr (fun _ : unit => eb_str u ++ eb_arr (fun '(p, c, a, ms) => big_endian 4 p ++ big_endian 2 c ++ big_endian 8 77 ++ big_endian 4 (zlen (eb_set a ms)) ++ eb_set a ms) parts) [tt].
Definition said (parts : list (Z * Z * Z * list (Z * kmsg))) : list (Z * (Z * list (Z * kmsg))) := map (fun '(p, c, a, ms) => (p, (c, ms))) parts.
Definition okf (u : text) (parts : list (Z * Z * Z * list (Z * kmsg))) : bool :=
  match utf8_encode u with Some b => zlen b <? 2 ^ 15 | None => false end && (zlen parts <? 2 ^ 31) &&
  forallb (fun '(p, c, a, ms) => (- 2 ^ 31 <=? p) && (p <? 2 ^ 31) && (- 2 ^ 15 <=? c) && (c <? 2 ^ 15) && oks a ms) parts.
Lemma okf_ok u parts : okf u parts = true -> kw_fetch demo_codec 12 [(u, said parts)] (eb_fetch u parts).
Proof.
  intros H. unfold okf in H. rewrite !andb_true_iff in H. destruct H as ((U & L) & F). rewrite forallb_forall in F. left. exists [eb_str u ++ eb_arr (fun '(p, c, a, ms) => big_endian 4 p ++ big_endian 2 c ++ big_endian 8 77 ++ big_endian 4 (zlen (eb_set a ms)) ++ eb_set a ms) parts].
  split; [constructor; [|constructor]|split; [vm_compute; reflexivity|reflexivity]]. eexists. eexists. split; [|split; [|reflexivity]]; cbn [fst snd].
  - unfold kw_string, eb_str. destruct (utf8_encode u) as [b|]; [|discriminate]. exists b. split; [reflexivity|]. split; [lia|reflexivity].
  - assert (ZS : zlen (said parts) = zlen parts) by (unfold said, zlen; now rewrite map_length).
    eexists. split; [|split; [rewrite ZS; lia|unfold eb_arr; rewrite ZS; reflexivity]]. clear ZS.
    clear L. induction parts as [|[[[p c] a] ms] parts IH]; cbn [said map]; constructor; [|apply IH; intros x Hx; apply F; now right]. specialize (F _ (or_introl eq_refl)). cbn in F. rewrite !andb_true_iff in F. destruct F as ((((P1 & P2) & C1) & C2) & S).
    destruct (oks_ok a ms 12 ltac:(lia) S) as [S1 S2]. eexists. eexists. exists 77. eexists. exists (eb_set a ms). cbn [fst snd]. split; [split; [unfold fits; cbn; lia|reflexivity]|]. split; [split; [unfold fits; cbn; lia|reflexivity]|]. split; [split; [unfold fits; cbn; lia|reflexivity]|]. auto.
Qed.
(** topics: name and parts; parts: partition and messages *)
Definition eb_produce (acks timeout a : Z) (d : list (text * list (Z * list (Z * kmsg)))) : bytes :=
  big_endian 2 acks ++ big_endian 4 timeout ++ eb_arr (fun tp => eb_str (fst tp) ++ eb_arr (fun pm => big_endian 4 (fst pm) ++ big_endian 4 (zlen (eb_set a (snd pm))) ++ eb_set a (snd pm)) (snd tp)) d.
Definition okp (acks timeout a : Z) (d : list (text * list (Z * list (Z * kmsg)))) : bool :=
  (- 2 ^ 15 <=? acks) && (acks <? 2 ^ 15) && (- 2 ^ 31 <=? timeout) && (timeout <? 2 ^ 31) && (zlen d <? 2 ^ 31) &&
  forallb (fun tp => match utf8_encode (fst tp) with Some b => zlen b <? 2 ^ 15 | None => false end && (zlen (snd tp) <? 2 ^ 31) && forallb (fun pm => (- 2 ^ 31 <=? fst pm) && (fst pm <? 2 ^ 31) && oks a (snd pm)) (snd tp)) d.
Lemma okp_ok acks timeout a d : okp acks timeout a d = true -> kw_produce demo_codec 0 acks timeout d (eb_produce acks timeout a d).
Proof.
  intros H. unfold okp in H. rewrite !andb_true_iff in H. destruct H as (((((A1 & A2) & T1) & T2) & L) & F). rewrite forallb_forall in F. eexists. eexists. eexists. split; [split; [unfold fits; cbn; lia|reflexivity]|]. split; [split; [unfold fits; cbn; lia|reflexivity]|]. split; [|reflexivity].
  apply arr_ok; [|lia]. intros [u parts] Hin. specialize (F _ Hin). cbn [fst snd] in *. rewrite !andb_true_iff in F. destruct F as ((U & LP) & F). rewrite forallb_forall in F. eexists. eexists. split; [|split; [|reflexivity]]; cbn [fst snd].
  - unfold kw_string, eb_str. destruct (utf8_encode u) as [b|]; [|discriminate]. exists b. split; [reflexivity|]. split; [lia|reflexivity].
  - apply arr_ok; [|lia]. intros [p ms] Hp. specialize (F _ Hp). cbn [fst snd] in *. rewrite !andb_true_iff in F. destruct F as ((P1 & P2) & S). destruct (oks_ok a ms 0 ltac:(lia) S) as [S1 S2]. eexists. exists (eb_set a ms). cbn [fst snd]. split; [split; [unfold fits; cbn; lia|reflexivity]|]. auto.
Qed.

Definition jm (l : list text) : kmsg := KMsg None (Some (match utf8_encode (json_dumps l) with Some b => b | None => [] end)).
Definition kend_log (p : Z) : list (Z * kmsg) := if p =? 0 then [(10, jm [txt "one"]); (12, jm [txt "three"])] else if p =? 1 then [(4, jm [txt "two"; txt "2"]); (5, jm [[8364; 34]])] else [].
Definition kreqs : list (list (text * list (Z * list (Z * kmsg)))) :=
  [[(tp_a, [(0, [(-1, jm [txt "one"]); (-1, jm [txt "three"])]); (1, [(-1, jm [txt "two"; txt "2"])])])]; [(tp_a, [(1, [(-1, jm [[8364; 34]])])])]].
(** one message of partition 0 plain, two of partition 1 packed; then the other one of partition 0, packed *)
Definition kparts1 : list (Z * Z * Z * list (Z * kmsg)) := [(0, 0, 0, [(10, jm [txt "one"])]); (1, 0, 1, [(4, jm [txt "two"; txt "2"]); (5, jm [[8364; 34]])])].
Definition kparts2 : list (Z * Z * Z * list (Z * kmsg)) := [(0, 0, 2, [(12, jm [txt "three"])]); (1, 0, 0, [])].
Definition kresp (parts : list (Z * Z * Z * list (Z * kmsg))) : response := PFetch [(tp_a, map (fun p => (fst p, (fst (snd p), kw_read_set (snd (snd p))))) (said parts))].
Definition kend_reads : list label := [Call 2 (OpConsume tp_a None); Arrive 2 1 (Ok (kresp kparts1)); Call 3 (OpConsume tp_a None); Arrive 3 1 (Ok (kresp kparts2))].
Lemma kresp_read parts x mw mb ps : okf tp_a parts = true -> read_response demo_codec 1 (RFetch x mw mb tp_a ps) (eb_fetch tp_a parts) = Some (Ok (kresp parts)).
Proof. intros H. apply okf_ok in H. now rewrite (C73_fetch demo_codec 0 (RFetch x mw mb tp_a ps) _ _ ltac:(now exists x, mw, mb, tp_a, ps) H). Qed.

Example C74_example : let s := crun json_cfg kend_reads end_start in
  reachable json_cfg end_start /\ (forall p, is_klog (kend_log p)) /\ In tp_a (c_synced end_start) /\ ~ busy end_start tp_a /\ each_step json_cfg (korderly demo_codec 0 tp_a kend_log) kend_reads end_start /\
  (forall p o m, In (o, m) (kend_log p) -> exists v, deser json_cfg (kw_field (km_value m)) = Ok v /\ truthy json_cfg v = true) /\
  none_raised tp_a end_start s /\ ~ busy s tp_a /\
  returned tp_a end_start s = [[txt "one"]; [txt "two"; txt "2"]; [[8364; 34]]; [txt "three"]] /\ (forall p o m, In (o, m) (kend_log p) -> position end_start tp_a p <= o < position s tp_a p).
Proof.
  cbv zeta. split; [exists demo_cluster, (txt "me"), end_idle; reflexivity|]. split; [|split; [|split; [|split; [|split; [|split; [|split; [|split]]]]]]].
  - intros p. unfold kend_log. destruct (p =? 0); [|destruct (p =? 1)]; split; cbn; repeat constructor; try lia.
  - vm_compute. now left.
  - intros (i & o & p & H & _). vm_compute in H. discriminate H.
  - unfold kend_reads. cbn [each_step korderly]. split; [intros _ (i & o & p & H & _); vm_compute in H; discriminate H|].
    split; [|split; [intros _ (i & o & p & H & _); vm_compute in H; discriminate H|split; [|exact I]]].
    + intros rq (o & k & w & rs & H & W). vm_compute in H. injection H as <- <- <- <-. vm_compute in W. injection W as <-. exists (eb_fetch tp_a kparts1). split; [|apply kresp_read; vm_compute; reflexivity].
      exists (said kparts1), []. split; [apply okf_ok; vm_compute; reflexivity|]. intros _. split; [repeat constructor; cbn; intuition discriminate|].
      intros p code ms [X|[X|[]]]; injection X as <- <- <-; (split; [discriminate|]); intros _; [exists 10, 500, 1%nat|exists 4, 500, 2%nat]; (split; [cbn; auto|reflexivity]).
    + intros rq (o & k & w & rs & H & W). vm_compute in H. injection H as <- <- <- <-. vm_compute in W. injection W as <-. exists (eb_fetch tp_a kparts2). split; [|apply kresp_read; vm_compute; reflexivity].
      exists (said kparts2), []. split; [apply okf_ok; vm_compute; reflexivity|]. intros _. split; [repeat constructor; cbn; intuition discriminate|].
      intros p code ms [X|[X|[]]]; injection X as <- <- <-; (split; [discriminate|]); intros _; [exists 11, 500, 1%nat|exists 6, 500, 1%nat]; (split; [cbn; auto|reflexivity]).
  - intros p o m. unfold kend_log. destruct (p =? 0); [|destruct (p =? 1)]; intros H; repeat (destruct H as [H|H]; [injection H as <- <-; eexists; split; [vm_compute; reflexivity|reflexivity]|]); destruct H.
  - intros i o e H. vm_compute in H. destruct H as [H|[H|[]]]; discriminate H.
  - intros (i & o & p & H & _). vm_compute in H. discriminate H.
  - vm_compute. reflexivity.
  - intros p o m. unfold kend_log. destruct (p =? 0) eqn:E0; [apply Z.eqb_eq in E0; subst p|destruct (p =? 1) eqn:E1; [apply Z.eqb_eq in E1; subst p|intros []]];
      (intros H; destruct H as [H|[H|[]]]; injection H as <- <-; vm_compute; split; congruence).
Qed.
(** the producer's side, with each compression: two requests *)
Example C75_example : forall comp, comp = 0 \/ comp = 1 \/ comp = 2 ->
  let run := prun (Some 10) 1 500 (compress_raises demo_codec comp) (serialize_raises demo_codec comp) end_evs demo_start in
  each_event (Some 10) 1 500 (compress_raises demo_codec comp) (serialize_raises demo_codec comp) makes end_evs demo_start /\
  each_event (Some 10) 1 500 (compress_raises demo_codec comp) (serialize_raises demo_codec comp) steady end_evs demo_start /\
  made_from json_ser words (for_topic tp_a (SpecFlow.accepted (Some 10) 1 500 (compress_raises demo_codec comp) (serialize_raises demo_codec comp) end_evs demo_start)) /\
  exists raws, Forall2 (fun rq raw => produce_wire demo_codec comp rq = Ok raw) (p_wire run) raws /\ kstores demo_codec tp_a kend_log raws /\ length raws = 2%nat.
Proof.
  intros comp H run. split; [|split; [|split]].
  - unfold end_evs, send_. cbn [map app firstn skipn words each_event]. repeat (split; [first [exact I|cbn [makes]; do 2 eexists; split; [reflexivity|split; exact I]]|]). exact I.
  - destruct H as [-> | [-> | ->]]; unfold end_evs, send_; cbn [map app firstn skipn words]; repeat (split; [apply steady_a; [vm_compute; reflexivity|vm_compute; eauto|cbn; auto]|]); exact I.
  - destruct H as [-> | [-> | ->]]; (match goal with |- made_from _ _ ?x => replace x with (map (fun l => Msg PNone (PInt 0) (PInt 0) PNone (json_ser l)) words) by (vm_compute; reflexivity) end); unfold made_from, words; cbn [map]; repeat constructor.
  - exists [request_frame 0 42 (eb_produce 1 500 comp (nth 0 kreqs [])); request_frame 0 43 (eb_produce 1 500 comp (nth 1 kreqs []))]. split; [|split; [|reflexivity]].
    + unfold run. destruct H as [-> | [-> | ->]]; (match goal with |- Forall2 _ ?x _ => let y := eval vm_compute in x in replace x with y by (vm_compute; reflexivity) end); (constructor; [vm_compute; reflexivity|constructor; [vm_compute; reflexivity|constructor]]).
    + exists kreqs. split.
      * constructor; [exists 42, 1, 500; eexists; split; [reflexivity|apply okp_ok; destruct H as [-> | [-> | ->]]; vm_compute; reflexivity]|]. constructor; [exists 43, 1, 500; eexists; split; [reflexivity|apply okp_ok; destruct H as [-> | [-> | ->]]; vm_compute; reflexivity]|]. constructor.
      * intros p. unfold kend_log, kreqs. cbn [flat_map]. unfold kcarried. cbn [flat_map fst snd app]. change (eqb tp_a tp_a) with true. cbn [flat_map fst snd app map].
        destruct (p =? 0) eqn:E0; [apply Z.eqb_eq in E0; subst p; reflexivity|]. destruct (p =? 1) eqn:E1; [apply Z.eqb_eq in E1; subst p; reflexivity|]. rewrite (Z.eqb_sym 0 p), (Z.eqb_sym 1 p), E0, E1. reflexivity.
Qed.

Print Assumptions C74_bytes_of_log.
Print Assumptions C75_end_to_end.
Print Assumptions C75_written.
