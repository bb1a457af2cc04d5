(** Property theorems C14-C19: one broker connection.  Specification: SpecConn.v.  [neg_read]
    (what the stream gives for a negative byte count) is universally quantified throughout. *)
From Coq Require Import ZArith String List Bool Lia.
From Verif Require Import PyBase BaseLemmas Struct Primitives Snappy Messages Protocol SpecWire ParseErrors Request Schemas
  Connection SpecConn ConnProofs ConnStream PropsWire.
Import ListNotations.
Open Scope Z_scope.

(** ** a concrete history: two requests, answered in the other order, the stream cut in odd places *)
Definition demo_neg (n : Z) (b : bytes) : bytes * bytes := ([], b).
Definition demo_rq (api : string) (corr : Z) : request := Rq api corr (Ok [1; 2; 3]).
Definition demo_payload1 : bytes := big_endian 4 0 ++ big_endian 4 0.                 (* empty metadata *)
Definition demo_payload2 : bytes := big_endian 2 0 ++ big_endian 4 7 ++ (big_endian 2 1 ++ [104]) ++ big_endian 4 9092.
Definition demo_frames : list (Z * bytes) := [(6, demo_payload2); (5, demo_payload1)].
Definition demo_history : list event :=
  [EvSend (demo_rq "metadata" 5) None; EvConnected; EvRead; EvSend (demo_rq "group_coordinator" 6) None;
   EvData (firstn 3 (frames_bytes demo_frames)); EvRead;
   EvData (firstn 20 (skipn 3 (frames_bytes demo_frames))); EvRead; EvRead; EvRead; EvRead;
   EvData (skipn 23 (frames_bytes demo_frames) ++ [0; 0]); EvRead; EvRead; EvRead; EvRead; EvRead; EvRead; EvRead].
Notation drun := (run demo_codec 3 demo_neg).

(** * C14 Responses reach the request they answer *)
Theorem C14_own_response_only : forall C depth neg_read evs,
  distinct_ids (issued C depth neg_read evs conn_init) ->
  let st := run C depth neg_read evs conn_init in
  NoDup (completed st) /\
  forall f o, In (f, o) (c_done st) ->
    exists rq, In (f, rq) (issued C depth neg_read evs conn_init) /\
      match o with
      | Got api corr v => corr = rq_corr rq /\ api = rq_api rq /\ exists raw, decodes C depth api raw v
      | Fail _ => True
      end.
Proof.
  intros C depth neg_read evs D st. pose proof (inv_run C depth neg_read evs D) as I. split; [apply I|].
  intros f o H. apply (proj1 (Forall_forall _ _) (i_d2 _ _ _ _ I)) in H as (rq & H & G). exists rq. split; [exact H|].
  cbn [snd] in G. destruct o; [|exact Logic.I]. intuition.
Qed.

(** every complete response frame is delivered to its own request, in the order of the frames *)
Theorem C14_every_response_delivered : forall C depth neg_read evs frames rest,
  Forall smooth evs -> In EvConnected evs -> Forall frame_ok frames -> NoDup (map fst frames) ->
  received_bytes evs = frames_bytes frames ++ rest -> incomplete_frame rest ->
  answers_requests C depth evs frames ->
  distinct_ids (issued C depth neg_read evs conn_init) ->
  let st := run C depth neg_read evs conn_init in
  read_step C depth neg_read st = st ->
  c_closing st = false /\
  Forall2 (delivers C depth (issued C depth neg_read evs conn_init)) frames (c_done st) /\
  forall f rq, In (f, rq) (issued C depth neg_read evs conn_init) -> ~ In (rq_corr rq) (map fst frames) ->
    ~ In f (completed st).
Proof. exact served. Qed.

Example C14_example :
  Forall smooth demo_history /\ In EvConnected demo_history /\ Forall frame_ok demo_frames /\
  NoDup (map fst demo_frames) /\ received_bytes demo_history = frames_bytes demo_frames ++ [0; 0] /\
  incomplete_frame [0; 0] /\ answers_requests demo_codec 3 demo_history demo_frames /\
  distinct_ids (issued demo_codec 3 demo_neg demo_history conn_init) /\
  read_step demo_codec 3 demo_neg (drun demo_history conn_init) = drun demo_history conn_init /\
  map fst (c_done (drun demo_history conn_init)) = [1%nat; 0%nat].
Proof.
  split; [|split; [|split; [|split; [|split; [|split; [|split; [|split; [|split]]]]]]]].
  - unfold demo_history. repeat constructor; exists [1; 2; 3]; split; try reflexivity; unfold fits, zlen; simpl; lia.
  - cbn. tauto.
  - constructor; [|constructor; [|constructor]]; repeat split; vm_compute; (reflexivity || congruence).
  - cbn. repeat constructor; cbn; intuition discriminate.
  - vm_compute. reflexivity.
  - exists (5, demo_payload1), (skipn 2 (frame_bytes (5, demo_payload1))). split; [repeat split; vm_compute; (reflexivity || congruence)|].
    split; [vm_compute; reflexivity|vm_compute; discriminate].
  - intros k fr e1 e2 N E L.
    assert (K : (k < 2)%nat) by (apply (nth_error_Some demo_frames); congruence).
    assert (E1 : e1 = firstn (length e1) demo_history)
      by (rewrite E, firstn_app, Nat.sub_diag, firstn_all; cbn [firstn]; now rewrite app_nil_r).
    revert L. rewrite E1. generalize (length e1). clear E E1 e1 e2. intros n L.
    destruct n as [|[|[|[|n]]]];
      try (exfalso; destruct k as [|[|k]]; try lia; vm_compute in L; apply L; reflexivity).
    destruct k as [|[|k]]; [| |lia]; cbn in N; injection N as <-.
    + exists (demo_rq "group_coordinator" 6). eexists. split; [cbn; tauto|]. split; [reflexivity|].
      apply decodes_iff. eexists. split; [reflexivity|]. vm_compute. reflexivity.
    + exists (demo_rq "metadata" 5). eexists. split; [cbn; tauto|]. split; [reflexivity|].
      apply decodes_iff. eexists. split; [reflexivity|]. vm_compute. reflexivity.
  - unfold distinct_ids. vm_compute. repeat constructor; cbn; intuition discriminate.
  - vm_compute. reflexivity.
  - vm_compute. reflexivity.
Qed.

(** * C15 Abort fails every outstanding request *)
Theorem C15_abort_fails_all_partial : forall C depth neg_read evs exc,
  distinct_ids (issued C depth neg_read evs conn_init) ->
  let st := run C depth neg_read evs conn_init in
  c_closing st = false ->
  forall f rq, In (f, rq) (issued C depth neg_read evs conn_init) -> ~ In f (completed st) ->
    In (f, Fail (match exc with Some e => e | None => EBrokerConn end)) (c_done (conn_abort exc st)).
Proof.
  intros C depth neg_read evs exc D st CL f rq H N.
  destruct (abort_all C depth _ st exc (inv_run C depth neg_read evs D) CL f rq H) as [O|O]; [contradiction|exact O].
Qed.

(** an abort delivers no response to anybody, and a second one does nothing *)
Theorem C15_abort_only_fails : forall exc st, exists l, c_done (conn_abort exc st) = c_done st ++ l /\
  Forall (fun fo => exists e, snd fo = Fail e) l.
Proof. exact abort_fails_only. Qed.
Theorem C15_second_abort : forall exc exc' st, conn_abort exc' (conn_abort exc st) = conn_abort exc st.
Proof. exact abort_idem. Qed.

(** missing: on a connection the broker has closed, abort() leaves the outstanding futures pending *)
Theorem C15_after_remote_close_refuted : exists evs f rq,
  let st := drun evs conn_init in
  distinct_ids (issued demo_codec 3 demo_neg evs conn_init) /\
  In (f, rq) (issued demo_codec 3 demo_neg evs conn_init) /\
  ~ In f (completed (step demo_codec 3 demo_neg (EvAbort None) st)).
Proof.
  exists [EvConnected; EvRead; EvSend (demo_rq "metadata" 5) None; EvRemoteClose; EvRead; EvRead], 0%nat, (demo_rq "metadata" 5).
  split; [vm_compute; repeat constructor; cbn; auto|]. split; [vm_compute; auto|]. vm_compute. tauto.
Qed.

Example C15_example : let evs := [EvConnected; EvRead; EvSend (demo_rq "metadata" 5) None; EvSend (demo_rq "fetch" 6) None] in
  distinct_ids (issued demo_codec 3 demo_neg evs conn_init) /\ c_closing (drun evs conn_init) = false /\
  c_done (conn_abort (Some EStruct) (drun evs conn_init)) = [(1%nat, Fail EStruct); (0%nat, Fail EStruct)].
Proof.
  split; [unfold distinct_ids; vm_compute; repeat constructor; cbn; intuition discriminate|]. split; vm_compute; reflexivity.
Qed.

(** * C16 A dead connection resolves its outstanding requests *)
(** holds when the connection dies of anything else than the stream being closed *)
Theorem C16_write_error_partial : forall C depth neg_read evs e,
  distinct_ids (issued C depth neg_read evs conn_init) -> e <> EStreamClosed ->
  let st := run C depth neg_read evs conn_init in
  c_closing st = false ->
  let st' := step C depth neg_read (EvWriteFailed e) st in
  c_closing st' = true /\
  forall f rq, In (f, rq) (issued C depth neg_read evs conn_init) -> In f (completed st').
Proof.
  intros C depth neg_read evs e D NE st CL st'. unfold st'. cbn [step]. split; [apply closing_error|].
  intros f rq H. assert (E : on_error e st = conn_abort (Some e) st) by (destruct e; try reflexivity; congruence).
  rewrite E. destruct (abort_all C depth _ st (Some e) (inv_run C depth neg_read evs D) CL f rq H) as [O|O].
  - destruct (abort_fails_only (Some e) st) as (l & El & _). unfold completed in *. rewrite El, map_app. apply in_or_app. now left.
  - apply (in_map fst) in O. exact O.
Qed.

(** refuted: once the reader has met the closed stream, no outstanding future is completed, in any
    continuation, from any state *)
Theorem C16_remote_close_refuted : forall C depth neg_read st evs f,
  c_phase st = PRaise EStreamClosed -> (f < c_next st)%nat -> ~ In f (completed st) ->
  ~ In f (completed (run C depth neg_read (EvRead :: evs) st)).
Proof.
  intros C depth neg_read st evs f P L N H.
  change (run C depth neg_read (EvRead :: evs) st) with (run C depth neg_read evs (read_step C depth neg_read st)) in H.
  apply gone_run in H.
  - unfold read_step in H. rewrite P in H. exact (N H).
  - unfold read_step. rewrite P. split; [reflexivity|now left].
  - pose proof (next_mono_step C depth neg_read EvRead st) as M. cbn [step] in M. lia.
Qed.

(** such a state is reached whenever the broker closes an idle connection with a request outstanding *)
Theorem C16_remote_close_reached_refuted : exists evs f rq,
  let st := drun evs conn_init in
  distinct_ids (issued demo_codec 3 demo_neg evs conn_init) /\
  In (f, rq) (issued demo_codec 3 demo_neg evs conn_init) /\
  forall evs', ~ In f (completed (drun (EvRead :: evs') st)).
Proof.
  exists [EvConnected; EvRead; EvSend (demo_rq "metadata" 5) None; EvRemoteClose; EvRead], 0%nat, (demo_rq "metadata" 5).
  split; [vm_compute; repeat constructor; cbn; auto|]. split; [vm_compute; auto|]. intro evs'.
  apply C16_remote_close_refuted; vm_compute; auto.
Qed.

Example C16_example : let evs := [EvConnected; EvRead; EvSend (demo_rq "metadata" 5) None] in
  distinct_ids (issued demo_codec 3 demo_neg evs conn_init) /\ c_closing (drun evs conn_init) = false /\ EOther 5 <> EStreamClosed.
Proof. split; [vm_compute; repeat constructor; cbn; auto|]. split; [vm_compute; reflexivity|discriminate]. Qed.

(** * C17 No traffic after closing *)
Theorem C17_send_fails_immediately : forall rq wr st, c_closing st = true ->
  conn_send rq wr st = (Ok (c_next st),
    Conn (c_closing st) (c_api st) (c_pending st) (c_phase st) (c_inbuf st) (c_closed st) (S (c_next st))
      (c_done st ++ [(c_next st, Fail EBrokerConn)]) (c_written st)).
Proof. intros rq wr st CL. unfold conn_send. rewrite CL. reflexivity. Qed.

Theorem C17_closing_for_ever : forall C depth neg_read evs st, c_closing st = true ->
  c_closing (run C depth neg_read evs st) = true /\ c_written (run C depth neg_read evs st) = c_written st.
Proof. exact closing_mono. Qed.

(** close(), abort() and every socket error start it *)
Theorem C17_closing_starts : forall st e exc,
  c_closing (conn_close st) = true /\ c_closing (conn_abort exc st) = true /\ c_closing (on_error e st) = true.
Proof.
  intros st e exc. split; [reflexivity|]. split; [|apply closing_error].
  unfold conn_abort. destruct (c_closing st) eqn:E; auto.
Qed.

Example C17_example : c_closing (drun [EvConnected; EvClose] conn_init) = true.
Proof. reflexivity. Qed.

(** * C18 TCP chunking is invisible *)
(** any byte stream, read from any state: two ways of cutting it, read to the end, are
    indistinguishable *)
Theorem C18_chunking_invisible : forall C depth neg_read evs1 evs2 st,
  (forall n a b, neg_read n (a ++ b) = (fst (neg_read n a), snd (neg_read n a) ++ b)) ->
  Forall only_io evs1 -> Forall only_io evs2 -> received_bytes evs1 = received_bytes evs2 ->
  let st1 := run C depth neg_read evs1 st in
  let st2 := run C depth neg_read evs2 st in
  read_step C depth neg_read st1 = st1 -> read_step C depth neg_read st2 = st2 ->
  c_done st1 = c_done st2 /\ c_pending st1 = c_pending st2 /\ c_closing st1 = c_closing st2 /\ c_phase st1 = c_phase st2.
Proof.
  intros C depth neg_read evs1 evs2 st NL F1 F2 E st1 st2 Q1 Q2.
  destruct (chunks_irrelevant C depth neg_read NL evs1 evs2 st F1 F2 E Q1 Q2) as [H|(_ & b & H)].
  - unfold st1, st2. rewrite H. auto.
  - unfold st1, st2. rewrite H. auto.
Qed.

(** with requests being sent meanwhile: the completions depend on the requests and frames alone *)
Theorem C18_interleaved_with_sends : forall C depth neg_read evs1 evs2 frames rest1 rest2,
  Forall smooth evs1 -> Forall smooth evs2 -> In EvConnected evs1 -> In EvConnected evs2 ->
  Forall frame_ok frames -> NoDup (map fst frames) ->
  received_bytes evs1 = frames_bytes frames ++ rest1 -> incomplete_frame rest1 ->
  received_bytes evs2 = frames_bytes frames ++ rest2 -> incomplete_frame rest2 ->
  answers_requests C depth evs1 frames -> answers_requests C depth evs2 frames ->
  issued C depth neg_read evs1 conn_init = issued C depth neg_read evs2 conn_init ->
  distinct_ids (issued C depth neg_read evs1 conn_init) ->
  let st1 := run C depth neg_read evs1 conn_init in
  let st2 := run C depth neg_read evs2 conn_init in
  read_step C depth neg_read st1 = st1 -> read_step C depth neg_read st2 = st2 -> c_done st1 = c_done st2.
Proof.
  intros C depth neg_read evs1 evs2 frames rest1 rest2 S1 S2 I1 I2 FO FN R1 P1 R2 P2 A1 A2 EI DI st1 st2 Q1 Q2.
  assert (DI2 := DI). rewrite EI in DI2.
  destruct (served C depth neg_read evs1 frames rest1 S1 I1 FO FN R1 P1 A1 DI Q1) as (_ & D1 & _).
  destruct (served C depth neg_read evs2 frames rest2 S2 I2 FO FN R2 P2 A2 DI2 Q2) as (_ & D2 & _).
  rewrite <- EI in D2. eapply delivers_det_all; [| |exact D1|exact D2]; [|exact DI].
  apply (i_nd _ _ _ _ (inv_run C depth neg_read evs1 DI)).
Qed.

Example C18_example : let st := drun (firstn 4 demo_history) conn_init in
  let evs1 := skipn 4 demo_history in
  let evs2 := EvData (received_bytes evs1) :: repeat EvRead 12%nat in
  Forall only_io evs1 /\ Forall only_io evs2 /\ received_bytes evs1 = received_bytes evs2 /\
  read_step demo_codec 3 demo_neg (drun evs1 st) = drun evs1 st /\
  read_step demo_codec 3 demo_neg (drun evs2 st) = drun evs2 st /\
  (forall n a b, demo_neg n (a ++ b) = (fst (demo_neg n a), snd (demo_neg n a) ++ b)).
Proof.
  intros st evs1 evs2. split; [unfold evs1, demo_history; cbn [skipn]; repeat constructor|].
  split; [unfold evs2; constructor; [exact I|]; apply Forall_forall; intros x H; apply repeat_spec in H; subst; exact I|].
  split; [vm_compute; reflexivity|]. split; [vm_compute; reflexivity|]. split; [vm_compute; reflexivity|].
  reflexivity.
Qed.

(** * C19 Unexpected or undecodable responses poison the connection *)
Theorem C19_bad_frame_aborts : forall C depth neg_read evs fr more,
  no_io_codec C ->
  distinct_ids (issued C depth neg_read evs conn_init) ->
  let st := run C depth neg_read evs conn_init in
  c_closing st = false -> c_phase st = PSize -> frame_ok fr -> c_inbuf st = frame_bytes fr ++ more ->
  (forall f rq, In (f, rq) (issued C depth neg_read evs conn_init) -> rq_corr rq = fst fr ->
     In f (completed st) \/ forall v, ~ decodes C depth (rq_api rq) (snd fr) v) ->
  let st' := run C depth neg_read [EvRead; EvRead; EvRead; EvRead] st in
  c_closing st' = true /\
  (exists fails, c_done st' = c_done st ++ fails /\ Forall (fun fo => exists e, snd fo = Fail e) fails) /\
  (forall f rq, In (f, rq) (issued C depth neg_read evs conn_init) -> In f (completed st')).
Proof.
  intros C depth neg_read evs fr more NI DI st CL P FO EB BAD st'.
  pose proof (inv_run C depth neg_read evs DI) as I. fold st in I.
  destruct (bad_frame C depth neg_read _ st fr more NI I CL P FO EB BAD) as [e E].
  unfold st'. rewrite E. split; [reflexivity|]. split.
  - eexists. split; [reflexivity|]. apply Forall_map, Forall_forall. intros [c f] _. cbn [snd]. eauto.
  - intros f rq H. unfold completed. cbn [c_done]. rewrite map_app. apply in_or_app.
    destruct (i_o _ _ _ _ I CL f rq H) as [O|O]; [now left|right].
    rewrite map_map. apply in_map_iff. exists (rq_corr rq, f). split; [reflexivity|]. apply -> in_rev. now apply dget_In.
Qed.

Example C19_example : let evs := [EvConnected; EvRead; EvSend (demo_rq "metadata" 5) None; EvSend (demo_rq "fetch" 6) None;
    EvData (frame_bytes (9, [1]) ++ [7])] in
  let st := drun evs conn_init in
  no_io_codec demo_codec /\ distinct_ids (issued demo_codec 3 demo_neg evs conn_init) /\
  c_closing st = false /\ c_phase st = PSize /\ frame_ok (9, [1]) /\ c_inbuf st = frame_bytes (9, [1]) ++ [7] /\
  (forall f rq, In (f, rq) (issued demo_codec 3 demo_neg evs conn_init) -> rq_corr rq = 9 -> False).
Proof.
  split; [split; discriminate|]. split; [unfold distinct_ids; vm_compute; repeat constructor; cbn; intuition discriminate|].
  split; [reflexivity|]. split; [reflexivity|]. split; [repeat split; vm_compute; (reflexivity || congruence)|].
  split; [vm_compute; reflexivity|]. intros f rq H E. vm_compute in H.
  destruct H as [H|[H|[]]]; apply (f_equal snd) in H; cbn [snd] in H; subst rq; discriminate.
Qed.

Print Assumptions C14_own_response_only.
Print Assumptions C14_every_response_delivered.
Print Assumptions C15_abort_fails_all_partial.
Print Assumptions C16_remote_close_refuted.
Print Assumptions C17_closing_for_ever.
Print Assumptions C18_chunking_invisible.
Print Assumptions C18_interleaved_with_sends.
Print Assumptions C19_bad_frame_aborts.
