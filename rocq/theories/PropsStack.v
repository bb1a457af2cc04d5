(** C77: what a consumer reads, all the way over its connections. *)
From Coq Require Import ZArith Lia String List Bool.
From Verif Require Import PyBase BaseLemmas Messages Protocol Request SpecWire Cluster Zookeeper Consumer SpecConsumer SpecLog SpecKafka ConsumerProofs ConsumerSteps ConsumerRuns SpecConn ResponseRead SpecSent SpecRequest SpecBytes StackWire Stack SpecStack StackProofs PropsWire PropsBytes PropsProducer PropsEnd Constants.
From Verif Require Connection.
Import ListNotations.
Open Scope Z_scope.

Section Over.
  Context {V : Type}.
  Variable cfg : config V.
  Variable C : codec.
  Variable depth : nat.
  Variable neg_read : Z -> bytes -> bytes * bytes.
  Variable frames : nat -> list (Z * bytes).
  Notation sstep := (sstep cfg C depth neg_read).
  Notation srun := (srun cfg C depth neg_read).

  Lemma hears_frames (S : stack V) : hears frames S -> forall n, Forall frame_ok (frames n).
  Proof. intros H n. apply H. Qed.
  Lemma hears_before (S S' : stack V) : links_le S S' -> hears frames S' -> hears frames S.
  Proof.
    intros (_ & L) H n. destruct (H n) as (F & more & E). split; [exact F|]. destruct (L n) as ((x & X) & _). exists (x ++ more). now rewrite E, X, app_assoc.
  Qed.

  (** an answer that a call gets is the answer to its own request: the bytes arrived on a connection, behind the
      correlation id of a request, and whatever was written on that connection with this id is the call's request *)
  Theorem C77_own_answer (S : stack V) i b r rq : sreachable cfg C depth neg_read S -> hears frames S -> outcome_of S i b = Some (Ok r) -> waits_for (k_cons S) i b rq ->
    exists n id raw, In (id, raw) (frames n) /\ read_response C depth rq raw = Some (Ok r) /\
      forall api key payload, In (api, key) kafka_api_numbers -> SpecWire.fits 32 id -> In (request_frame key id payload) (Connection.c_written (l_conn (k_link S n))) ->
        fits_kafka rq /\ key = kafka_api rq /\ payload = kafka_payload rq.
  Proof.
    intros R H O W. pose proof (hears_frames S H) as OK. pose proof (reach_stack cfg C depth neg_read frames OK S R) as I.
    destruct (outcome_frame cfg C depth frames S i b r rq I H O W) as (n & f & id & raw & A & F & E). exists n, id, raw. split; [exact F|]. split; [exact E|].
    intros api key payload K FI Wn. exact (frame_request cfg C depth neg_read frames OK S n f id rq key payload api I A K FI Wn).
  Qed.
End Over.

(** what a broker reads from a request's bytes determines the request *)
Theorem C77_request_readable rq1 rq2 : fits_kafka rq1 -> fits_kafka rq2 -> kafka_api rq1 = kafka_api rq2 -> kafka_payload rq1 = kafka_payload rq2 -> rq1 = rq2.
Proof. apply request_readable. Qed.

Section Project.
  Context {V : Type}.
  Variable cfg : config V.
  Variable C : codec.
  Variable depth : nat.
  Variable neg_read : Z -> bytes -> bytes * bytes.
  Variable t : text.
  Variable klog : Z -> list (Z * kmsg).
  Variable frames : nat -> list (Z * bytes).
  Hypothesis OK : forall n, Forall frame_ok (frames n).
  Notation sstep := (sstep cfg C (S depth) neg_read).
  Notation srun := (srun cfg C (S depth) neg_read).
  Notation slabels := (slabels cfg C (S depth) neg_read).
  Notation stack_inv := (stack_inv cfg C (S depth) frames).

  Lemma each_step_app (P : consumer V -> label -> Prop) a b s : each_step cfg P a s -> each_step cfg P b (crun cfg a s) -> each_step cfg P (a ++ b) s.
  Proof. revert s. induction a as [|l a IH]; intros s; [auto|]. cbn. intros (H & R) B. split; [exact H|]. apply IH; [exact R|exact B]. Qed.

  Lemma each_project evs : forall S, stack_inv S -> hears frames (srun evs S) -> answered C t klog frames (srun evs S) -> each_event cfg C (Datatypes.S depth) neg_read (calm t) evs S ->
    each_step cfg (korderly C depth t klog) (slabels evs S) (k_cons S).
  Proof.
    induction evs as [|ev evs IH]; intros S I H A E; [exact Logic.I|]. destruct E as (E1 & E2).
    destruct (sstep_ok cfg C (Datatypes.S depth) neg_read frames OK ev S I) as (K & I' & L).
    destruct (srun_ok cfg C (Datatypes.S depth) neg_read frames OK evs (sstep S ev) I') as (K2 & I2 & L2).
    cbn [StackProofs.slabels]. apply each_step_app; [|rewrite <- K; apply IH; assumption].
    change (Stack.srun cfg C (Datatypes.S depth) neg_read (ev :: evs) S) with (srun evs (sstep S ev)) in H, A.
    destruct ev as [l wr|n ce|n topics wr|i b wr]; cbn [labels_of]; try exact Logic.I.
    - destruct l as [i o|i b r|i r|k|av|]; cbn [labels_of each_step]; repeat split; try exact Logic.I; cbn [korderly]; try exact Logic.I.
      destruct o as [t' start|m|]; try exact Logic.I. intros -> B. exact (E1 eq_refl B).
    - destruct (outcome_of S i b) as [r|] eqn:EO; [|exact Logic.I]. cbn [each_step]. split; [exact Logic.I|]. split; [|exact Logic.I]. destruct r as [r|e]; [|exact Logic.I]. cbn [korderly].
      intros rq W. change (waits_for (k_cons S) i b rq) in W.
      assert (LL : links_le S (srun evs (sstep S (SDone i b wr)))) by (clear - L L2; destruct L as (La & Lb), L2 as (L2a & L2b); split; [lia|intros n; eapply link_le_trans; [apply Lb|apply L2b]]).
      destruct (outcome_frame cfg C (Datatypes.S depth) frames S i b r rq I (hears_before frames _ _ LL H) EO W) as (n & f & id & raw & As & Fr & Rd).
      exists raw. split; [|exact Rd]. destruct (A n id raw Fr) as (api & key & payload & KA & FI & Wr & Sv).
      destruct LL as (_ & LL). destruct (LL n) as (_ & LA & _).
      destruct (frame_request cfg C (Datatypes.S depth) neg_read frames OK _ n f id rq key payload api I2 (LA _ As) KA FI Wr) as (Fk & -> & ->). exact (Sv rq Fk eq_refl eq_refl).
  Qed.
  Lemma sreach_reachable S : sreachable cfg C (Datatypes.S depth) neg_read S -> reachable cfg (k_cons S).
  Proof.
    intros (k & name & last & evs & ->). destruct (srun_ok cfg C (Datatypes.S depth) neg_read frames OK evs _ (stack_inv_init cfg C (Datatypes.S depth) frames k name last)) as (E & _ & _).
    exists k, name, (slabels evs (stack_init k name last)). exact E.
  Qed.
End Project.

(** C74 with nothing between the program and the brokers but bytes.  A SingleConsumer writes its requests on the
    connections of its cluster; what the brokers send back arrives in pieces of any size, may stop anywhere, and is
    interleaved with the program's calls, with connections breaking and with metadata requests, in any order.  If every
    frame the brokers send answers a request written on its connection, out of logs, then consume() returns the
    messages of each partition's log: each once, in order, none left out between two positions. *)
Theorem C77_over_connections {V} (cfg : config V) C depth neg_read t klog frames S0 evs :
  md cfg = Single -> sreachable cfg C (S depth) neg_read S0 -> (forall p, is_klog (klog p)) -> In t (c_synced (k_cons S0)) -> ~ busy (k_cons S0) t ->
  let S1 := srun cfg C (S depth) neg_read evs S0 in
  hears frames S1 -> answered C t klog frames S1 -> each_event cfg C (S depth) neg_read (calm t) evs S0 ->
  (forall p o m, In (o, m) (klog p) -> exists v, deser cfg (kw_field (km_value m)) = Ok v /\ truthy cfg v = true) ->
  let s0 := k_cons S0 in let s := k_cons S1 in none_raised t s0 s -> ~ busy s t ->
  exists D, returned t s0 s = values D /\
    forall p, map (fun d => (fst d, Ok (snd d))) (of_partition p D) = map (fun om => (fst om, deser cfg (kw_field (km_value (snd om))))) (kbetween (position s0 t p) (position s t p) (klog p)) /\
      position s t p = one_past_last (map fst (kbetween (position s0 t p) (position s t p) (klog p))) (position s0 t p).
Proof.
  intros M R KL Sy B S1 H A E D s0 s NR NB. pose proof (hears_frames frames S1 H) as OK. pose proof (reach_stack cfg C (S depth) neg_read frames OK S0 R) as I.
  destruct (srun_ok cfg C (S depth) neg_read frames OK evs S0 I) as (K & _ & _). fold S1 in K. subst s0 s. rewrite K in *.
  exact (C74_bytes_of_log cfg C depth t klog (k_cons S0) _ M (sreach_reachable cfg C depth neg_read frames OK S0 R) KL Sy B (each_project cfg C depth neg_read t klog frames OK evs S0 I H A E) D NR NB).
Qed.

Definition eb_offset (r : list (text * list (Z * (Z * list Z)))) : bytes :=
  eb_arr (fun tp => eb_str (fst tp) ++ eb_arr (fun p => big_endian 4 (fst p) ++ big_endian 2 (fst (snd p)) ++ eb_arr (big_endian 8) (snd (snd p))) (snd tp)) r.
Definition st_offsets : list (text * list (Z * (Z * list Z))) := [(tp_a, [(0, (0, [10])); (1, (0, [4]))])].
(** what the broker sends: the answer to the offset request, an empty answer to the first fetch request, the answer to
    the next, the answer to a metadata request sent before it, and the answer to the last *)
Definition st_frames (n : nat) : list (Z * bytes) :=
  match n with
  | O => [(42, eb_offset st_offsets); (43, eb_fetch tp_a []); (45, eb_fetch tp_a kparts1); (44, big_endian 4 0 ++ big_endian 4 0); (46, eb_fetch tp_a kparts2)]
  | _ => []
  end.
Definition st_none (_ : Z) : option exn := None.
Definition st_reads : list sevent := repeat (SConn 0%nat Connection.EvRead) 8.
Definition st_bytes (l : list (Z * bytes)) : sevent := SConn 0%nat (Connection.EvData (frames_bytes l)).
Definition st_neg (_ : Z) (b : bytes) : bytes * bytes := (b, []).
Definition st_run := srun json_cfg demo_codec 1 st_neg.
Definition st_start : stack (list text) := st_run
  ([SConn 0%nat Connection.EvConnected; SLabel (Call 1 (OpConsume tp_a None)) st_none; st_bytes (firstn 1 (st_frames 0))] ++ st_reads ++ [SDone 1 1 st_none] ++
   [st_bytes (firstn 1 (skipn 1 (st_frames 0)))] ++ st_reads ++ [SDone 1 1 st_none]) (stack_init demo_cluster (txt "me") 41).
(** the third frame arrives in two pieces, the second of them together with the fourth *)
Definition st_third : bytes := frames_bytes (firstn 2 (skipn 2 (st_frames 0))).
Definition st_evs : list sevent :=
  [SMeta 0%nat [tp_a] None; SLabel (Call 2 (OpConsume tp_a None)) st_none; SConn 0%nat (Connection.EvData (firstn 30 st_third))] ++ st_reads ++ [SConn 0%nat (Connection.EvData (skipn 30 st_third))] ++ st_reads ++ st_reads ++ [SDone 2 1 st_none] ++
  [SLabel (Call 3 (OpConsume tp_a None)) st_none; st_bytes (skipn 4 (st_frames 0))] ++ st_reads ++ [SDone 3 1 st_none].
Lemma st_offset_ok : kw_offset st_offsets (eb_offset st_offsets).
Proof.
  apply arr_ok; [|vm_compute; reflexivity]. intros tp [<-|[]]. eexists. eexists. split; [exists [97]; split; [vm_compute; reflexivity|]; split; [vm_compute; reflexivity|reflexivity]|]. split; [|reflexivity].
  apply arr_ok; [|vm_compute; reflexivity]. intros p H. cbn [fst snd] in H |- *. destruct H as [<-|[<-|[]]]; do 3 eexists; cbn [fst snd]; (split; [split; [vm_compute; split; congruence|reflexivity]|]); (split; [split; [vm_compute; split; congruence|reflexivity]|]); (split; [|reflexivity]);
    (apply arr_ok; [|vm_compute; reflexivity]); intros o [<-|[]]; split; try reflexivity; vm_compute; split; congruence.
Qed.
Definition st_fetch (o1 o2 : Z) : request := RFetch (-1) 1000 1 tp_a [(0, (o1, 500)); (1, (o2, 500))].
Definition st_lookup : request := ROffset (-1) tp_a [(0, (PInt (-1), 1)); (1, (PInt (-1), 1))].
Lemma st_short : short_text tp_a.
Proof. exists [97]. split; vm_compute; reflexivity. Qed.
Lemma st_fetch_fits o1 o2 : SpecWire.fits 64 o1 -> SpecWire.fits 64 o2 -> fits_kafka (st_fetch o1 o2).
Proof.
  intros A B. unfold st_fetch, fits_kafka. split; [vm_compute; split; congruence|]. split; [vm_compute; split; congruence|]. split; [vm_compute; split; congruence|]. split; [exact st_short|]. split; [reflexivity|].
  intros p o l [H|[H|[]]]; injection H as <- <- <-; (split; [vm_compute; split; congruence|]); (split; [assumption|vm_compute; split; congruence]).
Qed.
Lemma st_lookup_fits : fits_kafka st_lookup.
Proof.
  unfold st_lookup, fits_kafka. split; [vm_compute; split; congruence|]. split; [exact st_short|]. split; [reflexivity|].
  intros p o l [H|[H|[]]]; injection H as <- <- <-; (split; [vm_compute; split; congruence|]); (split; [exists (-1); split; [reflexivity|vm_compute; split; congruence]|vm_compute; split; congruence]).
Qed.
Lemma st_serves o1 o2 parts : okf tp_a parts = true ->
  (NoDup (map fst (said parts)) /\ forall p code ms, In (p, (code, ms)) (said parts) -> code <> offset_out_of_range /\
     (code = no_error -> exists o limit n, In (p, (o, limit)) [(0, (o1, 500)); (1, (o2, 500))] /\ ms = firstn n (kfrom o (kend_log p)))) ->
  kserves demo_codec tp_a kend_log (st_fetch o1 o2) (eb_fetch tp_a parts).
Proof. intros H R. exists (said parts), []. split; [now apply okf_ok|]. intros _. exact R. Qed.
Definition st_end : stack (list text) := st_run st_evs st_start.
Lemma st_written api id rq (S : stack (list text)) raw : In (api, kafka_api rq) kafka_api_numbers -> SpecWire.fits 32 id -> fits_kafka rq ->
  In (request_frame (kafka_api rq) id (kafka_payload rq)) (Connection.c_written (l_conn (k_link S 0%nat))) -> kserves demo_codec tp_a kend_log rq raw ->
  exists api key payload, In (api, key) kafka_api_numbers /\ SpecWire.fits 32 id /\ In (request_frame key id payload) (Connection.c_written (l_conn (k_link S 0%nat))) /\
    forall rq', fits_kafka rq' -> key = kafka_api rq' -> payload = kafka_payload rq' -> kserves demo_codec tp_a kend_log rq' raw.
Proof. intros A F K W Sv. exists api, (kafka_api rq), (kafka_payload rq). repeat split; try assumption; try apply F. intros rq' K' E1 E2. now rewrite <- (request_readable rq rq' K K' E1 E2). Qed.

Lemma st_answered : answered demo_codec tp_a kend_log st_frames st_end.
Proof.
  intros [|n] id raw H; [|destruct H]. cbn [st_frames In] in H.
  destruct H as [H|[H|[H|[H|[H|[]]]]]]; injection H as <- <-.
  - apply (st_written "offset"%string 42 st_lookup); [cbn; intuition|vm_compute; split; congruence|exact st_lookup_fits|vm_compute; intuition|]. exists [(0, (0, [10])); (1, (0, [4]))], []. exact st_offset_ok.
  - apply (st_written "fetch"%string 43 (st_fetch 10 4)); [cbn; intuition|vm_compute; split; congruence|apply st_fetch_fits; vm_compute; split; congruence|vm_compute; intuition|]. apply st_serves; [vm_compute; reflexivity|]. split; [constructor|]. intros ? ? ? [].
  - apply (st_written "fetch"%string 45 (st_fetch 10 4)); [cbn; intuition|vm_compute; split; congruence|apply st_fetch_fits; vm_compute; split; congruence|vm_compute; intuition|]. apply st_serves; [vm_compute; reflexivity|].
    split; [repeat constructor; cbn; intuition discriminate|].
    intros p code ms [X|[X|[]]]; injection X as <- <- <-; (split; [discriminate|]); intros _; [exists 10, 500, 1%nat|exists 4, 500, 2%nat]; (split; [cbn; auto|reflexivity]).
  - exists "metadata"%string, 3, (big_endian 4 1 ++ string_bytes tp_a). split; [cbn; intuition|]. split; [vm_compute; split; congruence|]. split; [vm_compute; intuition|]. intros rq _ E _. destruct rq; discriminate E.
  - apply (st_written "fetch"%string 46 (st_fetch 11 6)); [cbn; intuition|vm_compute; split; congruence|apply st_fetch_fits; vm_compute; split; congruence|vm_compute; intuition|]. apply st_serves; [vm_compute; reflexivity|].
    split; [repeat constructor; cbn; intuition discriminate|].
    intros p code ms [X|[X|[]]]; injection X as <- <- <-; (split; [discriminate|]); intros _; [exists 11, 500, 1%nat|exists 6, 500, 1%nat]; (split; [cbn; auto|reflexivity]).
Qed.
Example C77_example :
  sreachable json_cfg demo_codec 1 st_neg st_start /\ (forall p, is_klog (kend_log p)) /\ In tp_a (c_synced (k_cons st_start)) /\ ~ busy (k_cons st_start) tp_a /\
  hears st_frames st_end /\ answered demo_codec tp_a kend_log st_frames st_end /\ each_event json_cfg demo_codec 1 st_neg (calm tp_a) st_evs st_start /\
  (forall p o m, In (o, m) (kend_log p) -> exists v, deser json_cfg (kw_field (km_value m)) = Ok v /\ truthy json_cfg v = true) /\
  none_raised tp_a (k_cons st_start) (k_cons st_end) /\ ~ busy (k_cons st_end) tp_a /\
  returned tp_a (k_cons st_start) (k_cons st_end) = [[txt "one"]; [txt "two"; txt "2"]; [[8364; 34]]; [txt "three"]] /\
  (forall p o m, In (o, m) (kend_log p) -> position (k_cons st_start) tp_a p <= o < position (k_cons st_end) tp_a p).
Proof.
  split; [do 4 eexists; reflexivity|]. split; [intros p; unfold kend_log; destruct (p =? 0); [|destruct (p =? 1)]; split; cbn; repeat constructor; try lia|]. split; [vm_compute; now left|]. split; [intros (i & o & p & H & _); vm_compute in H; discriminate H|].
  split; [|split; [exact st_answered|split; [|split; [|split; [|split; [|split]]]]]].
  - intros [|n]; split.
    + repeat constructor; vm_compute; congruence.
    + exists []. vm_compute. reflexivity.
    + constructor.
    + exists []. vm_compute. reflexivity.
  - cbn [st_evs app each_event]. unfold st_reads. cbn [repeat app each_event calm]. repeat split; try exact I.
    + intros _ (i & o & p & H & _). vm_compute in H. discriminate H.
    + intros _ (i & o & p & H & _). vm_compute in H. discriminate H.
  - intros p o m. unfold kend_log. destruct (p =? 0); [|destruct (p =? 1)]; intros H; repeat (destruct H as [H|H]; [injection H as <- <-; eexists; split; [vm_compute; reflexivity|reflexivity]|]); destruct H.
  - intros i o e H. vm_compute in H. destruct H as [H|[H|[]]]; discriminate H.
  - intros (i & o & p & H & _). vm_compute in H. discriminate H.
  - vm_compute. reflexivity.
  - intros p o m. unfold kend_log. destruct (p =? 0) eqn:E0; [apply Z.eqb_eq in E0; subst p|destruct (p =? 1) eqn:E1; [apply Z.eqb_eq in E1; subst p|intros []]];
      (intros H; destruct H as [H|[H|[]]]; injection H as <- <-; vm_compute; split; congruence).
Qed.
Print Assumptions C77_own_answer.
Print Assumptions C77_request_readable.
Print Assumptions C77_over_connections.
