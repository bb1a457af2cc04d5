(** Property C88: what a call waits for. *)
From Coq Require Import ZArith String List Bool Lia.
From Verif Require Import PyBase BaseLemmas Messages Protocol Request SpecWire SpecRequest SpecSent SpecCodec Cluster Zookeeper Consumer SpecConsumer ConsumerProofs ConsumerRuns SpecConn ConnProofs ParseErrors ResponseRead Stack SpecStack StackWire StackProofs SpecHang HangProofs PropsSent PropsWire PropsKafka PropsProducer PropsBytes PropsConsumer PropsEnd PropsStack.
From Verif Require Connection.
Import ListNotations.
Open Scope Z_scope.

(** Each request a consumer sends goes out once, in order, on the connection the cluster has for its broker, and nothing
    else of the consumer goes out. *)
Theorem C88_goes_out : forall V (cfg : config V) C depth neg_read k name last evs ev,
  let S := srun cfg C depth neg_read evs (stack_init k name last) in let S' := sstep cfg C depth neg_read S ev in
  proper k last (evs ++ [ev]) S' ->
  exists ex g, c_wire (k_cons S') = c_wire (k_cons S) ++ ex /\ Forall2 (goes_out (c_cluster (k_cons S))) ex g /\
    forall n, l_asked (k_link S' n) = l_asked (k_link S n) ++ on n g.
Proof.
  intros V cfg C depth neg_read k name last evs ev S S' P. pose proof (run_inv cfg C depth neg_read evs k name last) as SI. destruct (proper_prev cfg C depth neg_read _ _ _ _ _ SI P) as [K P'].
  exact (proj2 (step_whole cfg C depth neg_read ev _ SI (run_whole cfg C depth neg_read _ _ _ _ P') K (pr_last _ _ _ _ P) (pr_serializes _ _ _ _ P))).
Qed.
(** and its bytes are written there, unless the connection is closing. *)
Theorem C88_written : forall V (cfg : config V) C depth neg_read k name last evs,
  let S := srun cfg C depth neg_read evs (stack_init k name last) in proper k last evs S ->
  forall b rq, In (b, rq) (c_wire (k_cons S)) -> exists n f id, In (f, (id, rq)) (l_asked (k_link S n)) /\
    (Connection.c_closing (l_conn (k_link S n)) = true \/ exists w, request_wire (id - 1) rq = Ok w /\ In w (Connection.c_written (l_conn (k_link S n)))).
Proof.
  intros V cfg C depth neg_read k name last evs S P b rq H. destruct (run_wire cfg C depth neg_read _ _ _ _ P b rq H) as (n & f & id & A). exists n, f, id. split; [exact A|].
  destruct (wh_out _ (run_whole cfg C depth neg_read _ _ _ _ P) n f id rq A) as [X|(w & X & Y)]; [now left|right]. exists w. split; [exact X|]. pose proof (lk_all _ _ _ _ _ _ (si_links _ _ _ _ _ (run_inv cfg C depth neg_read evs k name last) n)) as LA. fold S in LA. rewrite LA. now apply (in_map snd) in Y.
Qed.

(** As long as no stream is closed under its connection, a call does not wait for nothing: for each broker it waits for
    there is a future, and either that future has a result, which the event loop can hand to the call, or its connection
    is open and keeps it among the pending ones.
    Missing: a stream that is closed under its connection, see [C88_hangs_refuted]. *)
Theorem C88_waits_partial : forall V (cfg : config V) C depth neg_read k name last evs,
  no_io_codec C -> let S := srun cfg C depth neg_read evs (stack_init k name last) in proper k last evs S -> Forall unbroken evs ->
  forall i b rq, waits_for (k_cons S) i b rq -> exists n f,
    find (is_wait i b) (k_wait S) = Some (i, b, (n, f)) /\
    ((exists o, In (f, o) (Connection.c_done (l_conn (k_link S n))) /\
        outcome_of S i b = match o with Connection.Fail e => Some (Err e) | Connection.Got api _ v => option_map Ok (view_response api v) end) \/
     (Connection.c_closing (l_conn (k_link S n)) = false /\ exists id, dget (Connection.c_pending (l_conn (k_link S n))) id = Some f)).
Proof.
  intros V cfg C depth neg_read k name last evs NIO S P U i b rq WF. pose proof (run_whole cfg C depth neg_read _ _ _ _ P) as W. fold S in W. pose proof (run_inv cfg C depth neg_read evs k name last) as SI. fold S in SI.
  assert (T : forall n, tidy (l_conn (k_link S n))) by (apply run_tidy; [exact NIO|exact U|intros n; apply tidy_init]).
  destruct (wh_all _ W _ _ _ WF) as [nf IN]. destruct (find (is_wait i b) (k_wait S)) as [[[i' b'] [n f]]|] eqn:F.
  2:{ exfalso. pose proof (find_none _ _ F _ IN) as X. unfold is_wait in X. cbn [fst snd] in X. now rewrite !Z.eqb_refl in X. }
  pose proof (find_some _ _ F) as [IN' IW]. unfold is_wait in IW. cbn [fst snd] in IW. apply andb_true_iff in IW as [E1 E2]. apply Z.eqb_eq in E1, E2. subst i' b'. clear nf IN. exists n, f. split; [reflexivity|].
  destruct (wh_iss _ W _ _ _ _ IN') as [obj IO]. pose proof (lk_inv _ _ _ _ _ _ (si_links _ _ _ _ _ SI n)) as CI. destruct (i_all _ _ _ _ CI _ _ IO) as [D|D].
  - left. unfold completed in D. apply in_map_iff in D as ([f' o] & <- & D). exists o. split; [exact D|]. unfold outcome_of. rewrite F. cbn [fst]. destruct (find (fun fo => Nat.eqb (fst fo) f') _) as [[f2 o2]|] eqn:FD.
    + apply find_some in FD as [FD EF]. cbn [fst] in EF. apply Nat.eqb_eq in EF. subst f2. replace o2 with o; [destruct o; reflexivity|]. eapply nodup_fst_eq; [apply (i_d1 _ _ _ _ CI)|exact D|exact FD].
    + exfalso. pose proof (find_none _ _ FD _ D) as X. cbn [fst] in X. now rewrite Nat.eqb_refl in X.
  - right. split; [|eauto]. destruct (Connection.c_closing (l_conn (k_link S n))) eqn:CL; [|reflexivity]. rewrite (td_pending _ (T n) CL) in D. discriminate D.
Qed.

(** Refuted otherwise: when the brokers a call waits for have closed their connections and the readers have met that, the
    call waits for ever, whatever happens afterwards. *)
Theorem C88_hangs_refuted : forall V (cfg : config V) C depth neg_read S i o k w rs,
  sreachable cfg C depth neg_read S -> dget (c_calls (k_cons S)) i = Some (o, PSend k w rs) ->
  (forall b n f, In (i, b, (n, f)) (k_wait S) -> dget w b <> None /\ dead (l_conn (k_link S n)) /\ ~ In f (completed (l_conn (k_link S n)))) ->
  forall evs, dget (c_calls (k_cons (srun cfg C depth neg_read evs S))) i = Some (o, PSend k w rs).
Proof.
  intros V cfg C depth neg_read S i o k w rs R D H evs. pose proof (reach_stack cfg C depth neg_read (fun _ => []) no_frames S R) as SI.
  apply (sk_call i o _ _ (stuck_run cfg C depth neg_read i o k w rs evs S SI ltac:(constructor; [exact D|]; intros b n f IN; destruct (H _ _ _ IN) as (WN & DE & NC); destruct (dget w b) as [rq|] eqn:GW; [|now elim WN]; assert (WF : waits_for (k_cons S) i b rq) by (exists o, k, w, rs; auto); split; [exact DE|]; split; [|exact NC];
    destruct (si_waits _ _ _ _ _ SI _ _ _ _ _ IN WF) as [(id & A)|(e & A)]; [|exfalso; apply NC; unfold completed; now apply (in_map fst) in A];
    destruct (lk_asked _ _ _ _ _ _ (si_links _ _ _ _ _ SI n) _ _ _ A) as (obj & IO & _); exact (i_lt _ _ _ _ (lk_inv _ _ _ _ _ _ (si_links _ _ _ _ _ SI n)) _ _ IO)))).
Qed.

(** it is reached: the broker closes the connection while consume() waits for the offsets *)
Definition hg_neg (_ : Z) (b : bytes) : bytes * bytes := (b, []).
Definition hg_evs : list sevent := [SConn 0%nat Connection.EvConnected; SConn 0%nat Connection.EvRead; SLabel (Call 1 (OpConsume tp_a None)) st_none; SConn 0%nat Connection.EvRemoteClose; SConn 0%nat Connection.EvRead; SConn 0%nat Connection.EvRead].
Definition hg_state : stack (list text) := st_run hg_evs (stack_init demo_cluster (txt "me") 41).
Lemma serializes_fits rq : fits_kafka rq -> zlen (kafka_payload rq) + 14 < 2 ^ 31 -> serializes rq.
Proof. intros F L id FI. eexists. apply C61_serialized; [exact F|now replace (id - 1 + 1) with id by lia|exact L]. Qed.
Theorem C88_hangs_reached_refuted : exists evs i o k w rs, let S := st_run evs (stack_init demo_cluster (txt "me") 41) in
  proper demo_cluster 41 evs S /\ w <> [] /\ forall evs', dget (c_calls (k_cons (st_run evs' S))) i = Some (o, PSend k w rs).
Proof.
  exists hg_evs, 1, (OpConsume tp_a None), (KOffsets tp_a None), [(1, st_lookup)], []. cbv zeta. fold hg_state. split; [|split; [discriminate|]].
  - constructor; [split; repeat constructor; cbn; intuition discriminate|repeat constructor|lia|vm_compute; reflexivity|].
    intros b rq H. assert (c_wire (k_cons hg_state) = [(1, st_lookup)]) as E by (vm_compute; reflexivity). rewrite E in H. destruct H as [H|[]]. injection H as <- <-. apply serializes_fits; [exact st_lookup_fits|vm_compute; reflexivity].
  - intros evs'. apply C88_hangs_refuted.
    + exists demo_cluster, (txt "me"), 41, hg_evs. reflexivity.
    + vm_compute. reflexivity.
    + intros b n f H. assert (E : k_wait hg_state = [(1, 1, (0%nat, 0%nat))]) by (vm_compute; reflexivity). rewrite E in H. destruct H as [H|[]]. injection H as <- <- <-. split; [discriminate|]. split; [split; [vm_compute; reflexivity|left; vm_compute; reflexivity]|]. vm_compute. tauto.
Qed.

(** the hypotheses hold of a run in which nothing closes a stream; the call waits, first with its request pending, then,
    the connection having been given up, with an exception to be handed to it *)
Definition hg_open : list sevent := [SConn 0%nat Connection.EvConnected; SConn 0%nat Connection.EvRead; SLabel (Call 1 (OpConsume tp_a None)) st_none].
Definition hg_lost : list sevent := hg_open ++ [SConn 0%nat (Connection.EvAbort None)].
Example C88_example : no_io_codec demo_codec /\
  (forall evs, evs = hg_open \/ evs = hg_lost -> let S := st_run evs (stack_init demo_cluster (txt "me") 41) in
     proper demo_cluster 41 evs S /\ Forall unbroken evs /\ waits_for (k_cons S) 1 1 st_lookup /\ c_wire (k_cons S) = [(1, st_lookup)]) /\
  outcome_of (st_run hg_open (stack_init demo_cluster (txt "me") 41)) 1 1 = None /\
  outcome_of (st_run hg_lost (stack_init demo_cluster (txt "me") 41)) 1 1 = Some (Err EBrokerConn) /\
  length (Connection.c_written (l_conn (k_link (st_run hg_lost (stack_init demo_cluster (txt "me") 41)) 0%nat))) = 1%nat.
Proof.
  split; [|split; [|split; [vm_compute; reflexivity|split; vm_compute; reflexivity]]].
  - unfold no_io_codec. cbn. repeat split; intros; try discriminate; congruence.
  - intros evs E. cbv zeta. assert (W : c_wire (k_cons (st_run evs (stack_init demo_cluster (txt "me") 41))) = [(1, st_lookup)]) by (destruct E as [-> | ->]; vm_compute; reflexivity). split; [|split; [|split; [|exact W]]].
    + constructor; [split; repeat constructor; cbn; intuition discriminate|destruct E as [-> | ->]; repeat constructor|lia|destruct E as [-> | ->]; vm_compute; reflexivity|].
      intros b rq H. rewrite W in H. destruct H as [H|[]]. injection H as <- <-. apply serializes_fits; [exact st_lookup_fits|vm_compute; reflexivity].
    + destruct E as [-> | ->]; repeat constructor; cbn; discriminate.
    + exists (OpConsume tp_a None), (KOffsets tp_a None), [(1, st_lookup)], []. destruct E as [-> | ->]; split; vm_compute; reflexivity.
Qed.
Print Assumptions C88_goes_out.
Print Assumptions C88_written.
Print Assumptions C88_waits_partial.
Print Assumptions C88_hangs_refuted.
Print Assumptions C88_hangs_reached_refuted.
