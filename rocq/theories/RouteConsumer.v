(** Where a consumer's requests go: to the leaders its tables name, on the connections its cluster opened (proof file, over
    Stack.v and Full.v). *)
From Coq Require Import ZArith String List Bool Lia.
From Verif Require Import PyBase BaseLemmas Messages Protocol Schemas Request Cluster SpecCluster Zookeeper Heals ResponseRead Consumer SpecConsumer ConsumerProofs ConsumerSteps ConsumerRuns ConsumerWrites SpecAsks ConsumerNet SpecConn SpecRequest ConnStream ConnProofs SpecKafka Stack SpecStack StackHeld StackWire StackProofs ProducerProofs ProducerStackProofs HangProofs HealOrigin Full FullProofs FullConsumer RouteProducer.
From Verif Require Connection.
Import ListNotations.
Open Scope Z_scope.

Section Route.
  Context {V : Type}.
  Variable cfg : config V.
  Variable C : codec.
  Variable depth : nat.
  Variable neg_read : Z -> bytes -> bytes * bytes.
  Variable frames : nat -> list (Z * bytes).
  Hypothesis OK : forall n, Forall frame_ok (frames n).
  Notation happens := (happens C depth neg_read).
  Notation send_to := (@send_to V C depth neg_read).
  Notation spiece := (@Stack.piece V C depth neg_read).
  Notation sstep := (sstep cfg C depth neg_read).
  Notation stack_inv := (stack_inv cfg C depth frames).
  Notation grows := ProducerStackProofs.grows.

  (** ** what goes out *)
  Notation shut S n := (Connection.c_closing (l_conn (k_link S n))).
  Definition goes (k : cluster) (n : nat) (w : bytes) (b : Z) (rq : request) : Prop := exists cn lst, dget (k_conns k) b = Some cn /\ n = cc_id cn /\ request_wire lst rq = Ok w.
  Lemma send_to_out again wr i b rq S : let S' := send_to again wr i (b, rq) S in k_cons S' = k_cons S /\ grows (k_link S) (k_link S') /\ (forall n, shut S n = true -> shut S' n = true) /\
    (forall n f w, In (f, w) (l_out (k_link S' n)) -> In (f, w) (l_out (k_link S n)) \/ goes (c_cluster (k_cons S)) n w b rq /\ shut S n = false) /\
    (forall e, In e (k_wait S') -> In e (k_wait S) \/ exists nf, e = (i, b, nf)).
  Proof.
    assert (ID : k_cons S = k_cons S /\ grows (k_link S) (k_link S) /\ (forall n, shut S n = true -> shut S n = true) /\ (forall n f w, In (f, w) (l_out (k_link S n)) -> In (f, w) (l_out (k_link S n)) \/ goes (c_cluster (k_cons S)) n w b rq /\ shut S n = false) /\ (forall e, In e (k_wait S) -> In e (k_wait S) \/ exists nf, e = (i, b, nf))) by (repeat split; auto; apply ProducerStackProofs.grows_refl).
    cbv zeta. unfold Stack.send_to. destruct (match (if again then dget (k_held S) i else None) with Some id => (id - 1, k_last S) | None => (k_last S, k_last S + 1) end) as [before last'].
    destruct (dget (k_conns (c_cluster (k_cons S))) b) as [cn|] eqn:D; [|exact ID]. destruct (request_object before rq) as [[obj id]|e] eqn:RO; [|exact ID].
    pose proof (happens_send C 0 depth neg_read frames OK obj (wr b) (k_link S (cc_id cn))) as (HO & _ & HC). destruct (Connection.conn_send obj (wr b) (l_conn (k_link S (cc_id cn)))) as [[f|e] c'] eqn:CS; [|exact ID]. cbn [k_cons k_link k_wait].
    split; [reflexivity|]. split; [|split; [|split]].
    - intros m. pose proof (ProducerStackProofs.grows_put C depth neg_read (cc_id cn) (Connection.EvSend obj (wr b)) (k_link S) m) as X. destruct (Nat.eq_dec m (cc_id cn)) as [->|N]; [|rewrite put_other in * by exact N; exact X]. rewrite put_same in *. exact X.
    - intros m H. destruct (Nat.eq_dec m (cc_id cn)) as [->|N]; [|rewrite put_other by exact N; exact H]. rewrite put_same. cbn [l_conn]. now apply HC.
    - intros m g w H. destruct (Nat.eq_dec m (cc_id cn)) as [->|N]; [|rewrite put_other in H by exact N; now left]. rewrite put_same in H. cbn [l_out] in H.
      destruct HO as [E|(f' & w' & _ & NC & PW & E)]; rewrite E in H; [now left|]. apply in_app_iff in H as [H|[H|[]]]; [now left|]. injection H as <- <-. right. split; [|exact NC]. exists cn, before. split; [exact D|]. split; [reflexivity|]. rewrite <- (request_object_wire _ _ _ _ RO). exact PW.
    - intros e [<-|H]; [right; eauto|now left].
  Qed.
  Lemma fold_out again wr i w : forall S, let S' := fold_left (fun S brq => send_to again wr i brq S) w S in k_cons S' = k_cons S /\ grows (k_link S) (k_link S') /\ (forall n, shut S n = true -> shut S' n = true) /\
    (forall n f x, In (f, x) (l_out (k_link S' n)) -> In (f, x) (l_out (k_link S n)) \/ exists b rq, In (b, rq) w /\ goes (c_cluster (k_cons S)) n x b rq /\ shut S n = false) /\
    (forall e, In e (k_wait S') -> In e (k_wait S) \/ exists b rq nf, In (b, rq) w /\ e = (i, b, nf)).
  Proof.
    induction w as [|[b rq] w IH]; intros S; cbn [fold_left].
    - split; [reflexivity|]. split; [apply ProducerStackProofs.grows_refl|]. repeat split; auto.
    - destruct (send_to_out again wr i b rq S) as (A1 & A2 & A3 & A4 & A5). destruct (IH (send_to again wr i (b, rq) S)) as (B1 & B2 & B3 & B4 & B5). cbv zeta in *.
      split; [congruence|]. split; [eapply ProducerStackProofs.grows_trans; eassumption|]. split; [auto|]. split.
      + intros n f x H. destruct (B4 _ _ _ H) as [X|(b' & rq' & X1 & X2 & X3)].
        * destruct (A4 _ _ _ X) as [Y|[Y1 Y2]]; [now left|right]. exists b, rq. split; [now left|auto].
        * right. exists b', rq'. split; [now right|]. rewrite A1 in X2. split; [exact X2|]. destruct (shut S n) eqn:E; [|reflexivity]. now rewrite (A3 n E) in X3.
      + intros e H. destruct (B5 _ H) as [X|(b' & rq' & nf & X1 & X2)]; [|right; exists b', rq', nf; split; [now right|exact X2]].
        destruct (A5 _ X) as [Y|[nf Y]]; [now left|right]. exists b, rq, nf. split; [now left|exact Y].
  Qed.

  (** ** every future that is kept belongs to a request a send() waits for *)
  Definition only (S : stack V) : Prop := forall i b nf, In (i, b, nf) (k_wait S) -> exists rq, waits_for (k_cons S) i b rq.
  Lemma answers_it S i b r rq : stack_inv S -> outcome_of S i b = Some r -> waits_for (k_cons S) i b rq -> is_answer rq r = true.
  Proof.
    intros [I PL L W _ _] O WF. unfold outcome_of in O. destruct (find (is_wait i b) (k_wait S)) as [[[i' b'] [n f]]|] eqn:FW; [|discriminate O]. apply find_some in FW as [FW IW]. unfold is_wait in IW. cbn [fst snd] in IW. apply andb_true_iff in IW as [E1 E2]. apply Z.eqb_eq in E1, E2. subst i' b'.
    destruct (find _ (Connection.c_done (l_conn (k_link S n)))) as [[f' o]|] eqn:FD; [|discriminate O]. apply find_some in FD as [FD EF]. cbn [fst] in EF. apply Nat.eqb_eq in EF. subst f'.
    destruct o as [api corr v|e]; [|injection O as <-; reflexivity]. destruct (view_response api v) as [r'|] eqn:VR; [|discriminate O]. injection O as <-.
    destruct (L n) as [A B D E WA WO]. destruct (W _ _ _ _ _ FW WF) as [(id & HA)|(e & HF)].
    2:{ exfalso. pose proof (i_d1 _ _ _ _ A) as ND. unfold completed in ND. assert (X : Connection.Fail e = Connection.Got api corr v); [|discriminate X]. eapply nodup_fst_eq; [exact ND|exact HF|exact FD]. }
    destruct (D _ _ _ HA) as (obj & IO & CO & AO & _). pose proof (i_d2 _ _ _ _ A) as GD. rewrite Forall_forall in GD. destruct (GD _ FD) as (obj' & IO' & CO' & AO' & _). cbn [fst] in IO'.
    assert (obj' = obj) as -> by (eapply nodup_fst_eq; [apply (i_nd _ _ _ _ A)|exact IO'|exact IO]). rewrite <- AO', AO in VR. cbn [is_answer]. unfold view_response, api_of in VR.
    destruct rq; cbn in VR; cbn; unfold option_map in VR; match type of VR with context [match ?x with Some _ => _ | None => _ end] => destruct x end; try discriminate VR; injection VR as <-; reflexivity.
  Qed.

  (** what an event that is the consumer's own amounts to *)
  Inductive does (S : stack V) : stack V -> Prop :=
  | D_id : does S S
  | D_quiet l wait' : (forall k, l <> Cluster_ k) -> (forall e, In e wait' -> In e (k_wait S)) -> only (Stack (cstep cfg (with_flags S) l) (k_last S) (k_link S) wait' (k_held S)) -> does S (Stack (cstep cfg (with_flags S) l) (k_last S) (k_link S) wait' (k_held S))
  | D_piece l wr i : (forall k, l <> Cluster_ k) -> label_of l i -> step_writes cfg (with_flags S) i (cstep cfg (with_flags S) l) -> does S (spiece wr i (with_flags S) (cstep cfg (with_flags S) l) S).
  Lemma only_same S s2 wait' : only S -> (forall e, In e wait' -> In e (k_wait S)) -> (forall i, dget (c_calls s2) i = dget (c_calls (k_cons S)) i) -> only (Stack s2 (k_last S) (k_link S) wait' (k_held S)).
  Proof. intros O W D i b nf H. destruct (O i b nf (W _ H)) as [rq X]. exists rq. cbn [k_cons]. now apply (waits_calls (k_cons S)). Qed.
  Lemma own_does S e : stack_inv S -> only S -> sown e = true -> does S (sstep S e).
  Proof.
    intros SI O OW. pose proof (si_inv _ _ _ _ _ SI) as I. pose proof (inv_flags cfg S I) as IF.
    assert (NOP : forall l, (forall k, l <> Cluster_ k) -> (forall i, dget (c_calls (cstep cfg (with_flags S) l)) i = dget (c_calls (k_cons S)) i) -> does S (Stack (cstep cfg (with_flags S) l) (k_last S) (k_link S) (k_wait S) (k_held S))) by (intros l N E; apply D_quiet; [exact N|auto|now apply only_same]).
    destruct e as [l wr|n ev|n topics wr|i b wr]; try discriminate OW.
    - destruct l as [i o|i b r|i r|k|ev|]; try discriminate OW; cbn [Stack.sstep].
      + destruct (dmem (c_calls (with_flags S)) i) eqn:DM.
        * apply NOP; [discriminate|]. cbn [cstep]. now rewrite DM.
        * apply D_piece; [discriminate|reflexivity|]. apply call_writes; [exact IF|]. unfold dmem in DM. now destruct (dget (c_calls (with_flags S)) i).
      + destruct (dget (c_calls (with_flags S)) i) as [[o [k w rs|k rs|t]]|] eqn:D.
        1,4: apply NOP; [discriminate|]; cbn [cstep]; now rewrite D.
        all: apply D_piece; [discriminate|reflexivity|]; eapply healed_writes; [exact IF|exact D|discriminate].
      + apply NOP; [discriminate|]. destruct (step_cases cfg (with_flags S) (Alloc ev) IF) as [(i & o & look & s1 & ns & ex & A)|H].
        * exfalso. destruct (ac_from _ _ _ _ _ _ _ _ _ A) as [(X & _)|[(b & r & k & w & rs & rq & X & _)|[(r & k & rs & X & _)|(r & t & X & _)]]]; discriminate X.
        * destruct H as [(-> & _)|[(k & X & _)|[(X & _)|(g & fn & ac & name & ev' & _ & _ & ->)]]]; try discriminate X; reflexivity.
      + apply NOP; [discriminate|reflexivity].
    - cbn [Stack.sstep]. destruct (outcome_of S i b) as [r|] eqn:OC; [|apply D_id].
      assert (exists nf, In (i, b, nf) (k_wait S)) as [nf IN] by (unfold outcome_of in OC; destruct (find (is_wait i b) (k_wait S)) as [[[i' b'] nf]|] eqn:F; [|discriminate OC]; apply find_some in F as [F IW]; unfold is_wait in IW; cbn [fst snd] in IW; apply andb_true_iff in IW as [E1 E2]; apply Z.eqb_eq in E1, E2; subst i' b'; eauto).
      destruct (O _ _ _ IN) as [rq WF]. pose proof (answers_it _ _ _ _ _ SI OC WF) as IA. destruct WF as (o & k & w & rs & D & GW).
      destruct (arrive_writes cfg (with_flags S) i b r o k w rs rq IF D GW IA) as [[SW FI]|(HF & NE & ST & rs' & D')].
      + assert (GO : goes_on cfg (with_flags S) i b r = false).
        { unfold goes_on. change (c_calls (with_flags S)) with (c_calls (k_cons S)). rewrite D. destruct FI as [FI| ->]; [|reflexivity]. destruct (ddel w b); [reflexivity|]. unfold handler_fails in FI. destruct r as [resp|e]; [|now elim FI]. destruct (handle cfg resp (with_flags S)) as [[v|e] s']; [now elim FI|reflexivity]. }
        rewrite GO. apply D_piece; [discriminate|reflexivity|exact SW].
      + assert (GO : goes_on cfg (with_flags S) i b r = true).
        { unfold goes_on. change (c_calls (with_flags S)) with (c_calls (k_cons S)). rewrite D. destruct (ddel w b); [now elim NE|]. unfold handler_fails in HF. destruct r as [resp|e]; [|reflexivity]. destruct (handle cfg resp (with_flags S)) as [[v|e] s']; [reflexivity|discriminate HF]. }
        rewrite GO. apply D_quiet; [discriminate|intros e H; now apply filter_In in H|].
        intros j b' nf' H. cbn [k_wait k_cons] in *. apply filter_In in H as [H IW]. unfold is_wait in IW. cbn [fst snd] in IW. apply negb_true_iff, andb_false_iff in IW. destruct (O _ _ _ H) as [rq' WF]. exists rq'. destruct (Z.eq_dec j i) as [->|N].
        * destruct IW as [IW|IW]; apply Z.eqb_neq in IW; [now elim IW|]. destruct WF as (o1 & k1 & w1 & rs1 & D1 & G1). rewrite D in D1. injection D1 as <- <- <- <-. exists o, k, (ddel w b), rs'. split; [exact D'|]. now rewrite dget_ddel_other.
        * eapply waits_calls; [|exact WF]. apply (step_others cfg (with_flags S) (Arrive i b r) i IF eq_refl j N).
  Qed.
  Lemma piece_out wr i l S : stack_inv S -> label_of l i -> step_writes cfg (with_flags S) i (cstep cfg (with_flags S) l) -> only S ->
    let S' := spiece wr i (with_flags S) (cstep cfg (with_flags S) l) S in k_cons S' = cstep cfg (with_flags S) l /\ grows (k_link S) (k_link S') /\ only S' /\
    (forall n f x, In (f, x) (l_out (k_link S' n)) -> In (f, x) (l_out (k_link S n)) \/ exists b rq, In (b, rq) (sent cfg (with_flags S) l) /\ goes (c_cluster (with_flags S)) n x b rq).
  Proof.
    intros SI LB SW O. pose proof (si_inv _ _ _ _ _ SI) as I. pose proof (inv_flags cfg S I) as IF. pose proof (ConsumerRuns.inv_step cfg (with_flags S) l IF) as I2. pose proof (step_others cfg (with_flags S) l i IF LB) as SB.
    unfold sent. set (s2 := cstep cfg (with_flags S) l) in *. destruct SW as [(ex & WX & UX & PX) KX]. assert (SX : skipn (length (c_wire (with_flags S))) (c_wire s2) = ex) by (rewrite WX, skipn_app, skipn_all, Nat.sub_diag; reflexivity). rewrite SX. cbv zeta. unfold Stack.piece. cbv zeta. rewrite SX.
    set (again := repeats i (with_flags S) s2). set (S1 := Stack s2 (k_last S) (k_link S) _ _).
    assert (OLD : forall j b nf, In (j, b, nf) (k_wait S1) -> exists rq, waits_for s2 j b rq).
    { intros j b nf H. cbn [S1 k_wait] in H. apply filter_In in H as [H IW]. unfold waits_of in IW. cbn [fst] in IW. apply negb_true_iff, Z.eqb_neq in IW. destruct (O _ _ _ H) as [rq WF]. exists rq. apply (waits_calls (k_cons S)); [|exact WF]. exact (SB j IW). }
    assert (GO : forall n x b rq, goes (c_cluster (k_cons S1)) n x b rq -> goes (c_cluster (with_flags S)) n x b rq) by (intros n x b rq H; unfold goes in *; cbn [S1 k_cons] in H; rewrite KX in H; exact H).
    assert (REST : k_cons (fold_left (fun S brq => send_to false wr i brq S) ex S1) = s2 /\ grows (k_link S) (k_link (fold_left (fun S brq => send_to false wr i brq S) ex S1)) /\
      forall n f x, In (f, x) (l_out (k_link (fold_left (fun S brq => send_to false wr i brq S) ex S1) n)) -> In (f, x) (l_out (k_link S n)) \/ exists b rq, In (b, rq) ex /\ goes (c_cluster (with_flags S)) n x b rq).
    { destruct (fold_out false wr i ex S1) as (A1 & A2 & _ & A4 & _). cbv zeta in *. split; [exact A1|]. split; [exact A2|]. intros n f x H. destruct (A4 _ _ _ H) as [X|(b & rq & X1 & X2 & _)]; [now left|right; eauto]. }
    destruct (dget (c_calls s2) i) as [[o [k w rs|k rs|t]]|] eqn:D.
    { clear REST. destruct (PX o k w rs eq_refl) as [EX CX]. destruct (fold_out again wr i w S1) as (A1 & A2 & _ & A4 & A5). cbv zeta in *. split; [exact A1|]. split; [exact A2|]. split.
      - intros j b nf H. rewrite A1. cbn [S1 k_cons]. destruct (A5 _ H) as [X|(b' & rq' & nf' & X1 & X2)]; [now apply (OLD j b nf)|]. injection X2 as -> -> ->. exists rq', o, k, w, rs. split; [exact D|]. destruct I2 as [_ I2]. destruct (I2 _ _ _ D) as [_ WFS]. apply In_dget_nodup; [apply (ws_nodup _ _ _ _ WFS)|exact X1].
      - intros n f x H. destruct (A4 _ _ _ H) as [X|(b & rq & X1 & X2 & X3)]; [now left|right]. exists b, rq. pose proof (GO _ _ _ _ X2) as G. split; [|exact G]. rewrite EX. apply filter_In. split; [exact X1|]. cbn [fst]. destruct G as (cn & lst & G1 & G2 & _). unfold open_conn. rewrite G1.
        cbn [with_flags set_cluster c_cluster] in G1. destruct (flags_dget _ _ _ _ G1) as (c0 & _ & _ & BC). rewrite BC, <- G2. cbn [S1 k_link] in X3. now rewrite X3. }
    all: destruct REST as (R1 & R2 & R3); cbn [k_cons k_link k_wait]; split; [exact R1|]; split; [exact R2|]; split; [|exact R3]; intros j b nf H; cbn [k_cons k_wait] in *; rewrite R1; now apply (OLD j b nf).
  Qed.

  (** ** a fetch or offset request goes to a connection that was opened to an address an answer gave for its broker, and an
      answer names this broker as the leader for all its partitions *)
  Definition crt (P : mresp -> Prop) (lg : list effect) (ws : list (Z * request)) (n : nat) (w : bytes) : Prop :=
    (exists topics lst obj, meta_object topics lst = Ok obj /\ (p <- Connection.rq_payload obj ;; framed p) = Ok w) \/
    exists b rq lst, In (b, rq) ws /\ plain_request rq /\ request_wire lst rq = Ok w /\
      (exists host port r, P r /\ In (MBroker b host port) (mr_brokers r) /\ In (XConnect n host port) lg) /\
      ((forall t p, ~ asks_for rq t p) \/ exists r, P r /\ forall t p, asks_for rq t p -> usable (mr_topics r) t p b).
  Lemma crt_more (P P' : mresp -> Prop) lg lg' ws ws' n w : (forall r, P r -> P' r) -> incl lg lg' -> incl ws ws' -> crt P lg ws n w -> crt P' lg' ws' n w.
  Proof.
    intros I1 I2 I3 [H|(b & rq & lst & A & A2 & B & (host & port & r & D1 & D2 & D3) & E)]; [now left|right]. exists b, rq, lst. split; [auto|]. split; [exact A2|]. split; [exact B|]. split; [exists host, port, r; auto|].
    destruct E as [E|(r' & E1 & E2)]; [now left|right; exists r'; auto].
  Qed.
  Definition good (S : stack V) : Prop := stack_inv S /\ only S.
  Lemma own_ok S e : good S -> sown e = true -> only (sstep S e) /\ same_net (scl S) (scl (sstep S e)) /\ incl (c_wire (k_cons S)) (c_wire (k_cons (sstep S e))) /\ grows (k_link S) (k_link (sstep S e)) /\
    forall P, conns_from P (scl S) -> leaders_from P (scl S) -> forall n f w, In (f, w) (l_out (k_link (sstep S e) n)) -> In (f, w) (l_out (k_link S n)) \/ crt P (k_log (scl S)) (c_wire (k_cons (sstep S e))) n w.
  Proof.
    intros [SI O] OW. pose proof (si_inv _ _ _ _ _ SI) as I. pose proof (inv_flags cfg S I) as IF.
    assert (NET : forall l, (forall k, l <> Cluster_ k) -> same_net (scl S) (c_cluster (cstep cfg (with_flags S) l)) /\ incl (c_wire (k_cons S)) (c_wire (cstep cfg (with_flags S) l))).
    { intros l N. split.
      - destruct (cstep_net cfg (with_flags S) l IF N) as (A & B & D & E). eapply same_net_trans; [apply (same_net_flags (k_link S))|]. apply kept_net. exact (conj A (conj D (conj E B))).
      - rewrite (step_wire cfg (with_flags S) l IF). apply incl_appl, incl_refl. }
    destruct (own_does S e SI O OW) as [|l wait' N WS ON|l wr i N LB SW].
    - split; [exact O|]. split; [apply same_net_refl|]. split; [apply incl_refl|]. split; [apply ProducerStackProofs.grows_refl|auto].
    - destruct (NET l N) as [A B]. split; [exact ON|]. split; [exact A|]. split; [exact B|]. split; [apply ProducerStackProofs.grows_refl|auto].
    - destruct (NET l N) as [A B]. destruct (piece_out wr i l S SI LB SW O) as (E1 & E2 & E3 & E4). cbv zeta in *. unfold scl at 2. rewrite E1. split; [exact E3|]. split; [exact A|]. split; [exact B|]. split; [exact E2|].
      intros P CF LF n f w H. destruct (E4 _ _ _ H) as [X|(b & rq & X1 & (cn & lst & X2 & X3 & X4))]; [now left|right]. right. exists b, rq, lst.
      split; [rewrite (step_wire cfg (with_flags S) l IF); apply in_or_app; now right|]. split; [now apply (sent_plain cfg (with_flags S) l b)|]. split; [exact X4|].
      destruct (flags_dget _ _ _ _ X2) as (c0 & B0 & BI & _). split.
      + apply dget_In in B0. destruct (CF _ _ B0) as [(r & PR & IB) IL]. exists (cc_host c0), (cc_port c0), r. split; [exact PR|]. split; [exact IB|]. rewrite X3, <- BI. exact IL.
      + assert (LED : forall t p, asks_for rq t p -> leader (scl S) t p b) by (intros t p Q; apply leader_is; exact (sent_led cfg (with_flags S) l b rq t p IF N X1 Q)).
        destruct LF as [NL|(r & PR & IL)]; [left; intros t p Q; exact (NL t p b (LED t p Q))|right]. exists r. split; [exact PR|]. intros t p Q. now apply IL, LED.
  Qed.
  Definition cinvariant : full (stack V) -> Prop := finv C depth frames scl (@k_link V) good (fun S => c_wire (k_cons S)) crt.
  Lemma cfrun_inv evs name last : cinvariant (cfrun cfg C depth neg_read evs (cfinit name last)).
  Proof.
    refine (frun_inv C depth neg_read frames OK _ scl (@k_link V) (@k_last V) stables SConn SMeta sown good _ (fun S => c_wire (k_cons S)) _ _ _ _ crt crt_more _ _ evs (cfinit name last) _).
    - intros S n [SI _]. apply (si_links _ _ _ _ _ SI).
    - intros S k [SI O]. destruct (sstep_ok cfg C depth neg_read frames OK (stables k) S SI) as (_ & A & _). split; [split; [exact A|]|cbn; auto]. cbn [stables Stack.sstep]. now apply only_same.
    - intros S n ev [SI O] N. destruct (sstep_ok cfg C depth neg_read frames OK (SConn n ev) S SI) as (_ & A & _). split; [split; [exact A|]|]; destruct ev; try (now destruct (N rq wr)); cbn [Stack.sstep]; try (split; [|split]; reflexivity); exact O.
    - intros S n topics wr [SI O]. destruct (sstep_ok cfg C depth neg_read frames OK (SMeta n topics wr) S SI) as (_ & A & _). split; [split; [exact A|]|]; cbn [Stack.sstep]; unfold meta_object; destruct (Connection.request_of _ _ _ _) as [[obj l']|e]; cbn [bind]; auto; exact O.
    - intros S e [SI O] OW. destruct (sstep_ok cfg C depth neg_read frames OK e S SI) as (_ & A & _). destruct (own_ok S e (conj SI O) OW) as (B1 & B2 & B3 & B4 & _). split; [split; assumption|]. auto.
    - intros P lg ws n topics lst obj w A B. left. exists topics, lst, obj. auto.
    - intros P S e G OW CF LF. destruct (own_ok S e G OW) as (_ & _ & _ & _ & B). now apply B.
    - apply full_init_inv; [split; [apply stack_inv_init|intros i b nf []]|reflexivity|reflexivity|]. intros t p l (d & D & _). discriminate D.
  Qed.
  (** the consumer below goes through a history of Stack.v *)
  Lemma cfrun_below (Q : sevent -> Prop) evs name last : (forall k, Q (stables k)) -> (forall n ev, Q (SConn n ev)) -> (forall n ts wr, Q (SMeta n ts wr)) -> Forall (fun ev => match ev with FOwn e => sown e = true -> Q e | _ => True end) evs ->
    exists es, Forall Q es /\ f_base (cfrun cfg C depth neg_read evs (cfinit name last)) = srun cfg C depth neg_read es (stack_init cluster_init name last).
  Proof. intros A B D H. exact (frun_below _ scl (@k_link V) (@k_last V) stables SConn SMeta sown Q A B D evs (cfinit name last) H). Qed.
End Route.
