(** Proofs about what the calls of a consumer wait for. *)
From Coq Require Import ZArith String List Bool Lia.
From Verif Require Import PyBase BaseLemmas Messages Protocol Request Schemas SpecWire Cluster Zookeeper Consumer SpecConsumer ConsumerProofs ConsumerSteps ConsumerRuns ConsumerWrites SpecKafka SpecConn ConnProofs ConnStream ParseErrors ResponseRead Stack SpecStack StackHeld StackWire StackProofs SpecHang.
From Verif Require Connection.
Import ListNotations.
Open Scope Z_scope.

(** ** one connection: it is closing only if nothing is pending *)
Section Tidy.
  Variable C : codec.
  Variable depth : nat.
  Variable neg_read : Z -> bytes -> bytes * bytes.
  Variable NIO : no_io_codec C.
  Import Connection.
  Record tidy (st : conn) : Prop := {
    td_pending : c_closing st = true -> c_pending st = [];
    td_closed : c_closed st = true -> c_closing st = true;
    td_raise : c_phase st = PRaise EStreamClosed -> c_closing st = true }.
  Lemma tidy_init : tidy conn_init.
  Proof. constructor; discriminate. Qed.
  Lemma tidy_abort exc st : tidy st -> tidy (conn_abort exc st).
  Proof. intros T. unfold conn_abort. destruct (c_closing st) eqn:CL; [exact T|]. constructor; reflexivity. Qed.
  Lemma tidy_error e st : e <> EStreamClosed \/ c_closing st = true -> tidy st -> tidy (on_error e st).
  Proof.
    intros H T. assert (A : e <> EStreamClosed -> tidy (on_error e st)) by (intros N; destruct e; try (now apply tidy_abort); congruence).
    destruct H as [H|H]; [auto|]. destruct e; try (now apply tidy_abort). cbn [on_error]. destruct T as [T1 T2 T3]. constructor; cbn; auto.
  Qed.
  Lemma tidy_pc st st' : c_closing st' = c_closing st -> c_pending st' = c_pending st \/ (c_closing st = false) -> c_closed st' = c_closed st -> (c_phase st' = PRaise EStreamClosed -> c_phase st = PRaise EStreamClosed \/ c_closing st = true) -> tidy st -> tidy st'.
  Proof.
    intros A B D E [T1 T2 T3]. constructor; rewrite A.
    - intros H. destruct B as [->|B]; [auto|congruence].
    - rewrite D. auto.
    - intros H. destruct (E H); auto.
  Qed.
  Lemma tidy_send rq wr st : wr <> Some EStreamClosed -> tidy st -> tidy (snd (conn_send rq wr st)).
  Proof.
    intros W T. unfold conn_send. destruct (c_closing st) eqn:CL.
    - eapply tidy_pc; [..|exact T]; cbn; auto.
    - destruct (p <- rq_payload rq;; framed p) as [bs|e]; [|exact T]. destruct (c_closed st) eqn:CD; [destruct T as [T1 T2 T3]; specialize (T2 CD); congruence|].
      set (st1 := Conn _ _ (dset (c_pending st) _ _) _ _ _ _ _ (c_written st)). assert (T' : tidy st1) by (eapply tidy_pc; [..|exact T]; cbn; auto).
      destruct wr as [e|]; cbn [snd]; [apply tidy_error; [left; congruence|exact T']|]. eapply tidy_pc; [..|exact T']; cbn; auto.
  Qed.
  Lemma tidy_with_read n st k : tidy st -> (forall b st', tidy st' -> tidy (k b st')) -> tidy (with_read neg_read n st k).
  Proof.
    intros T K. unfold with_read, read_bytes. destruct (n <? 0).
    - destruct (neg_read n (c_inbuf st)) as [b r]. apply K. eapply tidy_pc; [..|exact T]; cbn; auto.
    - destruct (n <=? zlen (c_inbuf st)); [apply K; eapply tidy_pc; [..|exact T]; cbn; auto|]. destruct (c_closed st) eqn:CD; [|exact T].
      eapply tidy_pc; [..|exact T]; cbn; auto. intros _. right. exact (td_closed _ T CD).
  Qed.
  Lemma tidy_phase st p : p <> PRaise EStreamClosed -> tidy st -> tidy (set_phase st p).
  Proof. intros N T. eapply tidy_pc; [..|exact T]; cbn; auto. Qed.
  Lemma unpack_i_no_io b e : unpack_i b = Err e -> e <> EStreamClosed.
  Proof. unfold unpack_i. destruct (Struct.unpack1 Struct.Fi b 0) as [v|e'] eqn:U; cbn [bind]; [discriminate|]. intros [= <-]. apply StructProofs.unpack1_err in U. congruence. Qed.
  Lemma deserialize_no_io t raw e : Protocol.deserialize C depth t raw = Err e -> e <> EStreamClosed.
  Proof.
    unfold Protocol.deserialize. destruct (Protocol.parse C depth t raw 0) as [[v o]|e'] eqn:P; cbn [bind]; [discriminate|]. intros [= <-] ->. pose proof (zlen_nonneg raw) as Z. destruct (parse_no_io C depth t NIO raw 0) as [N _]; [lia|congruence].
  Qed.
  Lemma tidy_read st : tidy st -> tidy (read_step C depth neg_read st).
  Proof.
    intros T. unfold read_step. destruct (c_phase st) eqn:P; try exact T.
    - apply tidy_phase; [destruct (c_closing st); discriminate|exact T].
    - apply tidy_with_read; [exact T|]. intros b st' T'. apply tidy_phase; [|exact T']. destruct (unpack_i b) eqn:U; [discriminate|]. apply unpack_i_no_io in U. congruence.
    - apply tidy_with_read; [exact T|]. intros b st' T'. apply tidy_phase; [|exact T']. destruct (unpack_i b) eqn:U; [discriminate|]. apply unpack_i_no_io in U. congruence.
    - apply tidy_with_read; [exact T|]. clear T P st. intros raw st T. destruct (dget (c_api st) corr) as [api|]; [|apply tidy_phase; [discriminate|exact T]].
      set (st2 := Conn _ _ _ _ _ _ _ _ _). assert (T2 : tidy st2) by (eapply tidy_pc; [..|exact T]; cbn; auto).
      destruct (dget response_classes api) as [fs|]; [|apply tidy_phase; [discriminate|exact T2]]. destruct (Protocol.deserialize C depth (TPart fs) raw) eqn:D; (apply tidy_phase; [|exact T2]); [discriminate|]. apply deserialize_no_io in D. congruence.
    - destruct (dget (c_pending st) corr) as [f|] eqn:PD.
      + destruct T as [T1 T2 T3]. constructor; cbn; auto; [|discriminate]. intros H. rewrite (T1 H). reflexivity.
      + apply tidy_phase; [discriminate|]. apply tidy_error; [left; discriminate|exact T].
    - apply tidy_phase; [discriminate|]. apply tidy_error; [|exact T]. destruct e; try (left; discriminate). right. exact (td_raise _ T P).
  Qed.
  Lemma tidy_step ev st : stream_kept ev -> tidy st -> tidy (step C depth neg_read ev st).
  Proof.
    intros K T. destruct ev; cbn [stream_kept step] in *; try contradiction.
    - now apply tidy_send.
    - apply tidy_error; [now left|exact T].
    - destruct (c_phase st) eqn:P; try exact T. apply tidy_phase; [discriminate|exact T].
    - destruct (c_closed st) eqn:CD; [exact T|]. eapply tidy_pc; [..|exact T]; cbn; auto.
    - now apply tidy_read.
    - now apply tidy_abort.
  Qed.
End Tidy.

(** ** the consumer on its connections *)
Section Stack.
  Context {V : Type}.
  Variable cfg : config V.
  Variable C : codec.
  Variable depth : nat.
  Variable neg_read : Z -> bytes -> bytes * bytes.
  Notation happens := (happens C depth neg_read).
  Notation send_to := (@send_to V C depth neg_read).
  Notation spiece := (@Stack.piece V C depth neg_read).
  Notation sstep := (sstep cfg C depth neg_read).
  Notation srun := (srun cfg C depth neg_read).
  Notation stack_inv := (stack_inv cfg C depth (fun _ => [])).
  Lemma no_frames : forall n : nat, Forall frame_ok ((fun _ => @nil (Z * bytes)) n).
  Proof. constructor. Qed.
  Lemma step_inv ev S : stack_inv S -> stack_inv (sstep S ev) /\ links_le S (sstep S ev).
  Proof. intros SI. destruct (sstep_ok cfg C depth neg_read (fun _ => []) no_frames ev S SI) as (_ & A & B). auto. Qed.

  Lemma request_object_ok last rq : exists obj, request_object last rq = Ok (obj, last + 1).
  Proof. destruct rq; eexists; unfold request_object; cbn [request_kwargs]; unfold Connection.request_of, request_init, generate_correlation_id; cbn; reflexivity. Qed.

  (** one connection: what it was asked to send is written, unless it is closing *)
  Definition out_ok (l : link) : Prop := forall f id rq, In (f, (id, rq)) (l_asked l) -> Connection.c_closing (l_conn l) = true \/ exists w, request_wire (id - 1) rq = Ok w /\ In (f, w) (l_out l).
  Lemma happens_iss ev l f obj : In (f, obj) (l_iss l) -> In (f, obj) (l_iss (happens ev l)).
  Proof. intros H. unfold Stack.happens. cbn [l_iss]. destruct ev; try exact H. destruct (fst _); [apply in_app_iff; now left|exact H]. Qed.
  Lemma happens_out ev l : out_ok l -> out_ok (happens ev l).
  Proof.
    intros O f id rq H. cbn [Stack.happens l_asked] in H. destruct (O f id rq H) as [X|(w & X & Y)].
    - left. cbn [Stack.happens l_conn]. now apply closing_mono_step.
    - right. exists w. split; [exact X|]. cbn [Stack.happens l_out]. destruct ev; try exact Y. destruct (Connection.conn_send _ _ _) as [[f'|e] st']; [apply in_app_iff; now left|exact Y].
  Qed.

  Definition conn_of (S : stack V) (b : Z) : option nat := option_map cc_id (dget (k_conns (c_cluster (k_cons S))) b).
  Definition shut (S : stack V) (n : nat) : bool := Connection.c_closing (l_conn (k_link S n)).
  Definition ids_ok (S : stack V) : Prop := 0 <= k_last S /\ forall i id, dget (k_held S) i = Some id -> 0 <= id <= k_last S.
  Lemma send_to_last again wr i brq S : k_last S <= k_last (send_to again wr i brq S).
  Proof.
    unfold Stack.send_to. destruct brq as [b rq]. destruct (match (if again then dget (k_held S) i else None) with Some id => (id - 1, k_last S) | None => (k_last S, k_last S + 1) end) as [before last'] eqn:E.
    assert (k_last S <= last') by (destruct (if again then dget (k_held S) i else None); injection E as <- <-; lia). destruct (dget _ b); [|lia]. destruct (request_object before rq) as [[obj id]|]; [|lia]. destruct (Connection.conn_send _ _ _) as [[f|e] st']; cbn; assumption.
  Qed.
  Lemma send_to_cons again wr i brq S : k_cons (send_to again wr i brq S) = k_cons S.
  Proof.
    unfold Stack.send_to. destruct brq as [b rq]. destruct (match (if again then dget (k_held S) i else None) with Some id => (id - 1, k_last S) | None => (k_last S, k_last S + 1) end) as [before last'].
    destruct (dget _ b); [|reflexivity]. destruct (request_object before rq) as [[obj id]|]; [|reflexivity]. destruct (Connection.conn_send _ _ _) as [[f|e] st']; reflexivity.
  Qed.
  Lemma send_to_done again wr i b rq S n : ids_ok S -> conn_of S b = Some n -> (shut S n = false -> serializes rq) -> k_last (send_to again wr i (b, rq) S) < 2 ^ 31 ->
    let S' := send_to again wr i (b, rq) S in
    ids_ok S' /\ exists f id obj, k_wait S' = (i, b, (n, f)) :: k_wait S /\ (forall m, m <> n -> k_link S' m = k_link S m) /\ In (f, obj) (l_iss (k_link S' n)) /\
      l_asked (k_link S' n) = l_asked (k_link S n) ++ (if shut S n then [] else [(f, (id, rq))]) /\
      (forall f0 obj0, In (f0, obj0) (l_iss (k_link S n)) -> In (f0, obj0) (l_iss (k_link S' n))) /\ (out_ok (k_link S n) -> out_ok (k_link S' n)).
  Proof.
    intros [ID1 ID2] CO SE LT. cbv zeta. revert LT. unfold Stack.send_to.
    destruct (match (if again then dget (k_held S) i else None) with Some id => (id - 1, k_last S) | None => (k_last S, k_last S + 1) end) as [before last'] eqn:E.
    assert (B : k_last S <= last' /\ 0 <= before + 1 <= last').
    { destruct again; [|injection E as <- <-; lia]. destruct (dget (k_held S) i) as [id|] eqn:G; injection E as <- <-; [|lia]. specialize (ID2 _ _ G). lia. }
    clear E. unfold conn_of in CO. destruct (dget _ b) as [cn|]; [|discriminate CO]. injection CO as CO. rewrite CO. destruct (request_object_ok before rq) as [obj RO]. rewrite RO.
    unfold shut in *. set (l := k_link S n) in *. intros LT.
    assert (exists f st', Connection.conn_send obj (wr b) (l_conn l) = (Ok f, st') /\ (Connection.c_closing (l_conn l) = false -> last' < 2 ^ 31 -> exists w, request_wire before rq = Ok w /\ (Connection.c_closing st' = true \/ Connection.c_written st' = Connection.c_written (l_conn l) ++ [w]))) as (f & st' & CS & WR).
    { pose proof (request_object_wire _ _ _ _ RO) as WO. revert LT. unfold Connection.conn_send. destruct (Connection.c_closing (l_conn l)) eqn:CL; [intros _; do 2 eexists; split; [reflexivity|discriminate]|].
      destruct (p <- Connection.rq_payload obj;; framed p) as [w|e] eqn:PW.
      - intros _. assert (EC : forall e st, Connection.c_closing (Connection.on_error e st) = true) by (intros e st; unfold Connection.on_error, Connection.conn_abort; destruct e; try reflexivity; destruct (Connection.c_closing st) eqn:X; try exact X; reflexivity).
        destruct (Connection.c_closed (l_conn l)); [|destruct (wr b)]; do 2 eexists; (split; [reflexivity|]); intros _ _; exists w; (split; [now rewrite <- WO|]); [left; apply EC|left; apply EC|right; reflexivity].
      - intros LT. cbn [k_last] in LT. destruct (SE eq_refl (before + 1)) as [w W]; [unfold SpecWire.fits; cbn; lia|]. replace (before + 1 - 1) with before in W by lia. congruence. }
    rewrite CS in *. cbn [k_last] in *. split.
    - split; cbn [k_last k_held]; [lia|]. intros j id G. destruct (Z.eq_dec j i) as [->|N]; [rewrite dget_dset_same in G; injection G as <-; lia|]. rewrite dget_dset_other in G by congruence. specialize (ID2 _ _ G). lia.
    - exists f, (before + 1), obj. cbn [k_wait k_link]. split; [reflexivity|]. split; [intros m N; now apply put_other|]. rewrite put_same. cbn [l_iss l_asked Stack.happens]. rewrite CS. cbn [fst]. split; [apply in_app_iff; right; now left|].
      split; [destruct (Connection.c_closing (l_conn l)); [now rewrite app_nil_r|reflexivity]|]. split; [intros f0 obj0 H; apply in_app_iff; now left|].
      intros O f0 id0 rq0 H. assert (X : In (f0, (id0, rq0)) (l_asked l) \/ (Connection.c_closing (l_conn l) = false /\ f0 = f /\ id0 = before + 1 /\ rq0 = rq)).
      { cbn [l_asked] in H. destruct (Connection.c_closing (l_conn l)); [now left|]. apply in_app_iff in H as [H|[H|[]]]; [now left|injection H as <- <- <-; auto]. }
      destruct X as [X|(CF & -> & -> & ->)].
      + destruct (happens_out (Connection.EvSend obj (wr b)) l O f0 id0 rq0 X) as [Y|Y]; [left; exact Y|right]. destruct Y as (w & Y1 & Y2). exists w. split; [exact Y1|]. cbn [l_out Stack.happens] in *. rewrite CS in Y2. rewrite CS. exact Y2.
      + destruct (WR CF LT) as (w & W1 & W2). cbn [l_conn l_out Stack.happens Connection.step]. rewrite CS. cbn [snd]. destruct W2 as [W2|W2]; [now left|right]. exists w. replace (before + 1 - 1) with before by lia. split; [exact W1|].
        rewrite W2, skipn_app, skipn_all, Nat.sub_diag. cbn. apply in_app_iff. right. now left.
  Qed.
  Definition may_go (S : stack V) (b : Z) : bool := match conn_of S b with Some n => negb (shut S n) | None => false end.
  Lemma own_conn S b b' n : own_connections (c_cluster (k_cons S)) -> conn_of S b = Some n -> conn_of S b' = Some n -> b' = b.
  Proof.
    intros [N1 N2] A B. unfold conn_of in *. destruct (dget _ b) as [cn|] eqn:G; [|discriminate A]. destruct (dget _ b') as [cn'|] eqn:G'; [|discriminate B]. injection A as A. injection B as B. apply dget_In in G, G'.
    assert (X : (b', cn') = (b, cn)); [|now injection X]. eapply nodup_map_eq; [exact N2|exact G'|exact G|]. cbn. congruence.
  Qed.
  Lemma on_app n g g' : on n (g ++ g') = on n g ++ on n g'.
  Proof. unfold on. now rewrite filter_app, map_app. Qed.
  Lemma send_fold again wr i w : NoDup (map fst w) -> forall S, ids_ok S -> own_connections (c_cluster (k_cons S)) -> (forall b rq, In (b, rq) w -> conn_of S b <> None) ->
    (forall b rq, In (b, rq) w -> may_go S b = true -> serializes rq) -> let S' := fold_left (fun S brq => send_to again wr i brq S) w S in k_last S' < 2 ^ 31 ->
    ids_ok S' /\ k_cons S' = k_cons S /\
    (exists es, map fst es = map fst w /\ (forall e, In e (k_wait S') <-> In e (k_wait S) \/ exists b nf, In (b, nf) es /\ e = (i, b, nf)) /\
      forall b n f, In (b, (n, f)) es -> conn_of S b = Some n /\ exists obj, In (f, obj) (l_iss (k_link S' n))) /\
    (exists g, Forall2 (goes_out (c_cluster (k_cons S))) (filter (fun brq => may_go S (fst brq)) w) g /\ forall n, l_asked (k_link S' n) = l_asked (k_link S n) ++ on n g) /\
    (forall n f obj, In (f, obj) (l_iss (k_link S n)) -> In (f, obj) (l_iss (k_link S' n))) /\ ((forall n, out_ok (k_link S n)) -> forall n, out_ok (k_link S' n)).
  Proof.
    induction w as [|[b rq] w IH]; intros ND S ID OW KN SE; cbn [fold_left]; intros LT.
    - split; [exact ID|]. split; [reflexivity|]. split; [exists []; split; [reflexivity|]; split; [|intros b n f []]; intros e; split; [now left|intros [H|(b & nf & [] & _)]; exact H]|].
      split; [exists []; split; [constructor|intros n; now rewrite app_nil_r]|]. auto.
    - inversion ND as [|? ? N1 N2]; subst. set (S1 := send_to again wr i (b, rq) S) in *.
      assert (MONO : k_last S1 <= k_last (fold_left (fun S brq => send_to again wr i brq S) w S1)) by (clear; generalize S1; clear; induction w as [|x w IH]; intros S; cbn [fold_left]; [lia|]; pose proof (send_to_last again wr i x S); specialize (IH (send_to again wr i x S)); lia).
      destruct (conn_of S b) as [n|] eqn:CO; [|exfalso; apply (KN b rq); [now left|exact CO]].
      destruct (send_to_done again wr i b rq S n ID CO) as (ID1 & f & id & obj & W1 & LO & IO & AS & IM & OO); [intros SH; apply (SE b); [now left|unfold may_go; now rewrite CO, SH]|fold S1; lia|]. fold S1 in ID1, W1, LO, IO, AS, IM, OO.
      assert (CE : k_cons S1 = k_cons S) by apply send_to_cons. assert (COE : forall b', conn_of S1 b' = conn_of S b') by (intros b'; unfold conn_of; now rewrite CE).
      assert (ME : forall b', b' <> b -> may_go S1 b' = may_go S b').
      { intros b' NB. unfold may_go. rewrite COE. destruct (conn_of S b') as [n'|] eqn:CO'; [|reflexivity]. unfold shut. rewrite LO; [reflexivity|]. intros ->. apply NB. eapply own_conn; eassumption. }
      assert (NB : forall b' rq', In (b', rq') w -> b' <> b) by (intros b' rq' H ->; apply N1; now apply (in_map fst) in H).
      destruct (IH N2 S1 ID1) as (ID' & CE' & (es & E1 & E2 & E3) & (g & G1 & G2) & IM' & OO'); [now rewrite CE|intros b' rq' H; rewrite COE; eapply KN; right; exact H|intros b' rq' H MG; rewrite ME in MG by (eapply NB, H); eapply SE; [right; exact H|exact MG]|exact LT|].
      set (S' := fold_left _ w S1) in *. split; [exact ID'|]. split; [congruence|]. split; [|split; [|split]].
      + exists ((b, (n, f)) :: es). split; [cbn; now rewrite E1|]. split.
        * intros e. rewrite E2, W1. cbn [In]. split.
          -- intros [[<-|H]|(b' & nf & H & ->)]; [right; exists b, (n, f); auto|now left|right; exists b', nf; auto].
          -- intros [H|(b' & nf & [H|H] & ->)]; [auto|injection H as <- <-; auto|right; eauto].
        * intros b' n' f' [H|H]; [injection H as <- <- <-; split; [exact CO|]; exists obj; now apply IM'|]. destruct (E3 _ _ _ H) as [A B]. rewrite COE in A. auto.
      + exists ((if shut S n then [] else [(n, (f, (id, rq)))]) ++ g). split.
        * cbn [filter fst]. rewrite <- (filter_ext_in _ _ w (fun brq H => ME (fst brq) ltac:(destruct brq as [b' rq']; eapply NB, H))). rewrite CE in G1. unfold may_go at 1. rewrite CO. destruct (shut S n); cbn [negb app]; [exact G1|]. constructor; [|exact G1]. split; [reflexivity|exact CO].
        * intros m. rewrite G2, on_app, app_assoc. f_equal. destruct (Nat.eq_dec m n) as [->|NE].
          -- rewrite AS. f_equal. unfold on. destruct (shut S n); [reflexivity|]. cbn. now rewrite Nat.eqb_refl.
          -- rewrite LO by exact NE. replace (on m _) with (@nil (nat * (Z * request))); [now rewrite app_nil_r|]. unfold on. destruct (shut S n); [reflexivity|]. cbn. apply not_eq_sym, Nat.eqb_neq in NE. now rewrite NE.
      + intros m f0 obj0 H. apply IM'. destruct (Nat.eq_dec m n) as [->|NE]; [now apply IM|rewrite LO by exact NE; exact H].
      + intros O. apply OO'. intros m. destruct (Nat.eq_dec m n) as [->|NE]; [apply OO, O|rewrite LO by exact NE; apply O].
  Qed.
  (** what is waited for *)
  Record whole (S : stack V) : Prop := {
    wh_apart : own_connections (c_cluster (k_cons S));
    wh_all : forall i b rq, waits_for (k_cons S) i b rq -> exists nf, In (i, b, nf) (k_wait S);
    wh_only : forall i b nf, In (i, b, nf) (k_wait S) -> exists rq, waits_for (k_cons S) i b rq;
    wh_iss : forall i b n f, In (i, b, (n, f)) (k_wait S) -> exists obj, In (f, obj) (l_iss (k_link S n));
    wh_ids : ids_ok S;
    wh_out : forall n, out_ok (k_link S n) }.
  Definition wire_out (S S' : stack V) : Prop := exists ex g, c_wire (k_cons S') = c_wire (k_cons S) ++ ex /\ Forall2 (goes_out (c_cluster (k_cons S))) ex g /\ forall n, l_asked (k_link S' n) = l_asked (k_link S n) ++ on n g.
  Lemma wire_none S S' : c_wire (k_cons S') = c_wire (k_cons S) -> (forall n, l_asked (k_link S' n) = l_asked (k_link S n)) -> wire_out S S'.
  Proof. intros A B. exists [], []. split; [now rewrite app_nil_r|]. split; [constructor|]. intros n. now rewrite B, app_nil_r. Qed.

  Lemma dget_flags ls k b : dget (k_conns (flags ls k)) b = option_map (fun cn => CC (cc_host cn) (cc_port cn) (cc_id cn) (Connection.c_closing (l_conn (ls (cc_id cn))))) (dget (k_conns k) b).
  Proof. unfold flags. cbn [k_conns]. induction (k_conns k) as [|[b' cn] l IH]; [reflexivity|]. cbn [map dget fst snd]. match goal with |- context [eqb b' b] => destruct (eqb b' b) end; [reflexivity|exact IH]. Qed.
  Lemma own_flags ls k : own_connections k -> own_connections (flags ls k).
  Proof.
    intros [A B]. unfold own_connections, flags in *. cbn [k_conns]. unfold dkeys in *. rewrite !map_map. split.
    - erewrite map_ext; [exact A|reflexivity].
    - erewrite map_ext; [exact B|reflexivity].
  Qed.
  Lemma open_flags S b : open_conn (with_flags S) b = may_go S b.
  Proof. unfold open_conn, with_flags, may_go, conn_of, shut. cbn [set_cluster c_cluster]. rewrite dget_flags. destruct (dget (k_conns (c_cluster (k_cons S))) b); reflexivity. Qed.
  Lemma waits_calls (s s' : consumer V) i b rq : dget (c_calls s') i = dget (c_calls s) i -> waits_for s i b rq -> waits_for s' i b rq.
  Proof. intros E (o & k & w & rs & A & B). exists o, k, w, rs. now rewrite E. Qed.

  (** steps after which the calls wait for the same *)
  Lemma whole_same s2 last' ls S : whole S -> own_connections (c_cluster s2) -> (forall i, dget (c_calls s2) i = dget (c_calls (k_cons S)) i) -> k_last S <= last' ->
    (forall n f obj, In (f, obj) (l_iss (k_link S n)) -> In (f, obj) (l_iss (ls n))) -> (forall n, out_ok (ls n)) -> whole (Stack s2 last' ls (k_wait S) (k_held S)).
  Proof.
    intros [W1 W2 W3 W4 [W5 W6] W7] OW SC LL IM OO. constructor; cbn [k_cons k_wait k_link k_last k_held].
    - exact OW.
    - intros i b rq H. eapply (W2 i b rq), waits_calls; [symmetry; apply SC|exact H].
    - intros i b nf H. destruct (W3 _ _ _ H) as [rq X]. exists rq. eapply waits_calls; [apply SC|exact X].
    - intros i b n f H. destruct (W4 _ _ _ _ H) as [obj X]. eauto.
    - split; cbn [k_last k_held]; [lia|]. intros i id H. specialize (W6 _ _ H). lia.
    - exact OO.
  Qed.

  Lemma filter_id {A} (P : A -> bool) l : (forall x, In x l -> P x = true) -> filter P l = l.
  Proof. induction l as [|x l IH]; intros H; [reflexivity|]. cbn [filter]. rewrite (H x) by now left. f_equal. apply IH. intros y Y. apply H. now right. Qed.
  Lemma fold_last again wr i w : forall S, k_last S <= k_last (fold_left (fun S brq => send_to again wr i brq S) w S).
  Proof. induction w as [|x w IH]; intros S; cbn [fold_left]; [lia|]. pose proof (send_to_last again wr i x S). specialize (IH (send_to again wr i x S)). lia. Qed.
  Lemma piece_whole wr i s2 S : whole S -> NoDup (dkeys (k_held S)) -> ConsumerRuns.inv cfg s2 -> step_writes cfg (with_flags S) i s2 -> calls_same_but i (k_cons S) s2 ->
    NoDup (map fst (skipn (length (c_wire (with_flags S))) (c_wire s2))) -> (forall b rq, In (b, rq) (c_wire s2) -> serializes rq) -> let S' := spiece wr i (with_flags S) s2 S in k_last S' < 2 ^ 31 ->
    whole S' /\ wire_out S S'.
  Proof.
    intros W NH I2 SW SB NX SE. unfold Stack.piece. cbv zeta. set (again := repeats i (with_flags S) s2). set (S1 := Stack s2 (k_last S) (k_link S) _ _).
    destruct SW as [(ex & WX & UX & PX) KX]. rewrite WX, skipn_app, skipn_all, Nat.sub_diag in *. cbn [skipn app] in *.
    assert (OW : own_connections (c_cluster (k_cons S1))) by (unfold own_connections; cbn [k_cons S1]; rewrite KX; apply own_flags, W).
    assert (CO : forall b, conn_of S1 b = conn_of S b) by (intros b; unfold conn_of; cbn [k_cons S1]; rewrite KX; cbn [with_flags set_cluster c_cluster]; rewrite dget_flags; destruct (dget _ b); reflexivity).
    assert (MG : forall b, may_go S1 b = may_go S b) by (intros b; unfold may_go; rewrite CO; reflexivity).
    assert (GO : forall brq x, goes_out (c_cluster (k_cons S1)) brq x -> goes_out (c_cluster (k_cons S)) brq x) by (intros brq x [A B]; split; [exact A|]; fold (conn_of S1 (fst brq)) in B; rewrite CO in B; exact B).
    assert (ID1 : ids_ok S1).
    { destruct (wh_ids _ W) as [A B]. split; cbn [S1 k_last k_held]; [exact A|]. intros j id H. destruct again; [now apply (B j)|]. destruct (Z.eq_dec j i) as [->|N]; [rewrite dget_ddel_same in H by exact NH; discriminate H|]. rewrite dget_ddel_other in H by exact N. now apply (B j). }
    assert (SW : forall b rq, In (b, rq) ex -> serializes rq) by (intros b rq H; apply (SE b); apply in_app_iff; now right).
    assert (OLD : forall j b nf, In (j, b, nf) (k_wait S1) <-> j <> i /\ In (j, b, nf) (k_wait S)).
    { intros j b nf. cbn [S1 k_wait]. rewrite filter_In. unfold waits_of. cbn [fst]. rewrite negb_true_iff, Z.eqb_neq. tauto. }
    assert (WAIT : forall j b rq, j <> i -> waits_for s2 j b rq <-> waits_for (k_cons S) j b rq) by (intros j b rq N; split; apply waits_calls; [symmetry|]; now apply SB).
    assert (DONE : forall wait' (es : list (Z * (nat * nat))) S' held', (forall e, In e wait' <-> In e (k_wait S1) \/ exists b nf, In (b, nf) es /\ e = (i, b, nf)) -> (forall b rq, waits_for s2 i b rq -> In b (map fst es)) -> (forall b nf, In (b, nf) es -> exists rq, waits_for s2 i b rq) ->
      (forall b n f, In (b, (n, f)) es -> exists obj, In (f, obj) (l_iss (k_link S' n))) -> (forall n f obj, In (f, obj) (l_iss (k_link S n)) -> In (f, obj) (l_iss (k_link S' n))) -> k_cons S' = s2 -> ids_ok (Stack (k_cons S') (k_last S') (k_link S') wait' held') -> (forall n, out_ok (k_link S' n)) ->
      whole (Stack (k_cons S') (k_last S') (k_link S') wait' held')).
    { intros wait' es S' held' HW HA HO HI IM CE ID' OO. constructor; cbn [k_cons k_wait k_link]; rewrite ?CE.
      - exact OW.
      - intros j b rq H. destruct (Z.eq_dec j i) as [->|N].
        + pose proof (HA _ _ H) as X. apply in_map_iff in X as ([b' nf] & <- & X). exists nf. apply HW. right. exists b', nf. auto.
        + apply WAIT in H; [|exact N]. destruct (wh_all _ W _ _ _ H) as [nf X]. exists nf. apply HW. left. now apply OLD.
      - intros j b nf H. apply HW in H as [H|(b' & nf' & H & E)]; [|injection E as -> -> ->; eauto]. apply OLD in H as [N H]. destruct (wh_only _ W _ _ _ H) as [rq X]. exists rq. now apply WAIT.
      - intros j b n f H. apply HW in H as [H|(b' & nf' & H & E)]; [|injection E as -> -> <-; eauto]. apply OLD in H as [N H]. destruct (wh_iss _ W _ _ _ _ H) as [obj X]. eauto.
      - rewrite <- CE. exact ID'.
      - exact OO. }
    assert (SEND : forall o k w rs, dget (c_calls s2) i = Some (o, PSend k w rs) -> k_last (fold_left (fun S brq => send_to again wr i brq S) w S1) < 2 ^ 31 -> whole (fold_left (fun S brq => send_to again wr i brq S) w S1) /\ wire_out S (fold_left (fun S brq => send_to again wr i brq S) w S1)).
    { intros o k w rs D LT. destruct (PX _ _ _ _ D) as [-> KN]. destruct I2 as [_ I2]. destruct (I2 _ _ _ D) as [_ WF].
      assert (OUT : out_of (with_flags S) w = filter (fun brq => may_go S1 (fst brq)) w) by (unfold out_of; apply filter_ext; intros [b rq]; cbn [fst]; now rewrite open_flags, MG).
      destruct (send_fold again wr i w (ws_nodup _ _ _ _ WF) S1 ID1 OW) as (ID' & CE & (es & E1 & E2 & E3) & (g & G1 & G2) & IM & OO); [| |exact LT|].
      { intros b rq H. rewrite CO. unfold conn_of. pose proof (KN b rq H) as X. cbn [with_flags set_cluster c_cluster] in X. rewrite dget_flags in X. destruct (dget _ b); [discriminate|now elim X]. }
      { intros b rq H M. apply (SW b). rewrite OUT. now apply filter_In. }
      set (S' := fold_left _ w S1) in *. assert (WH : forall b rq, waits_for s2 i b rq <-> dget w b = Some rq) by (intros b rq; split; [intros (o' & k' & w' & rs' & A & B); rewrite D in A; injection A as <- <- <- <-; exact B|intros B; exists o, k, w, rs; auto]). split.
      - replace S' with (Stack (k_cons S') (k_last S') (k_link S') (k_wait S') (k_held S')) by (now destruct S'). apply (DONE _ es); auto.
        + intros b rq H. apply WH, dget_In, (in_map fst) in H. now rewrite E1.
        + intros b nf H. apply (in_map fst) in H. cbn [fst] in H. rewrite E1 in H. apply in_map_iff in H as ([b' rq] & <- & H). exists rq. apply WH. apply In_dget_nodup; [apply WF|exact H].
        + intros b n f H. now apply (E3 b).
        + apply OO. apply W.
      - exists (out_of (with_flags S) w), g. rewrite CE. cbn [S1 k_cons]. split; [exact WX|]. split; [|exact G2]. rewrite OUT. eapply Forall2_impl_; [|exact G1]. auto. }
    assert (REST : forall S2, S2 = fold_left (fun S brq => send_to false wr i brq S) ex S1 -> (forall o k w rs, dget (c_calls s2) i <> Some (o, PSend k w rs)) -> k_last S2 < 2 ^ 31 ->
      whole (Stack (k_cons S2) (k_last S2) (k_link S2) (k_wait S1) (k_held S1)) /\ wire_out S (Stack (k_cons S2) (k_last S2) (k_link S2) (k_wait S1) (k_held S1))).
    { intros S2 E2 NS LT. rewrite E2 in LT. destruct (send_fold false wr i ex NX S1 ID1 OW) as (ID' & CE & _ & (g & G1 & G2) & IM & OO); [| |exact LT|].
      { intros b rq H. destruct (UX _ _ H) as [_ X]. rewrite open_flags, <- MG in X. unfold may_go in X. destruct (conn_of S1 b); [discriminate|discriminate X]. }
      { intros b rq H _. now apply (SW b). }
      rewrite <- E2 in *. split.
      - apply (DONE _ []); auto.
        + intros e. split; [now left|intros [H|(b & nf & [] & _)]; exact H].
        + intros b rq (o & k & w & rs & A & _). now elim (NS o k w rs).
        + intros b nf [].
        + intros b n f [].
        + destruct ID1 as [A B]. split; cbn [k_last k_held]; [apply ID'|]. intros j id H. specialize (B _ _ H). cbn [S1 k_last] in B. pose proof (fold_last false wr i ex S1) as FL. rewrite <- E2 in FL. cbn [S1 k_last] in FL. lia.
        + apply OO, W.
      - exists ex, g. cbn [k_cons k_link]. rewrite CE. cbn [S1 k_cons]. split; [exact WX|]. split; [|exact G2]. rewrite filter_id in G1; [eapply Forall2_impl_; [|exact G1]; auto|]. intros [b rq] H. destruct (UX _ _ H) as [_ X]. cbn [fst]. now rewrite MG, <- open_flags. }
    destruct (dget (c_calls s2) i) as [[o [k w rs|k rs|t]]|] eqn:D.
    - apply (SEND o k w rs). reflexivity.
    - refine (REST _ eq_refl _); congruence.
    - refine (REST _ eq_refl _); congruence.
    - refine (REST _ eq_refl _); congruence.
  Qed.
  (** the answer the event loop hands over is one to the request *)
  Lemma outcome_answers S i b r rq : stack_inv S -> outcome_of S i b = Some r -> waits_for (k_cons S) i b rq -> is_answer rq r = true.
  Proof.
    intros [I PL L W _ _] O WF. unfold outcome_of in O. destruct (find (is_wait i b) (k_wait S)) as [[[i' b'] [n f]]|] eqn:FW; [|discriminate O]. apply find_some in FW as [FW IW]. unfold is_wait in IW. cbn [fst snd] in IW. apply andb_true_iff in IW as [E1 E2]. apply Z.eqb_eq in E1, E2. subst i' b'.
    destruct (find _ (Connection.c_done (l_conn (k_link S n)))) as [[f' o]|] eqn:FD; [|discriminate O]. apply find_some in FD as [FD EF]. cbn [fst] in EF. apply Nat.eqb_eq in EF. subst f'.
    destruct o as [api corr v|e]; [|injection O as <-; reflexivity]. destruct (view_response api v) as [r'|] eqn:VR; [|discriminate O]. injection O as <-.
    destruct (L n) as [A B D E WA WO]. destruct (W _ _ _ _ _ FW WF) as [(id & HA)|(e & HF)].
    2:{ exfalso. pose proof (i_d1 _ _ _ _ A) as ND. unfold completed in ND. assert (X : Connection.Fail e = Connection.Got api corr v); [|discriminate X]. eapply nodup_fst_eq; [exact ND|exact HF|exact FD]. }
    destruct (D _ _ _ HA) as (obj & IO & CO & AO & _). pose proof (i_d2 _ _ _ _ A) as GD. rewrite Forall_forall in GD. destruct (GD _ FD) as (obj' & IO' & CO' & AO' & _). cbn [fst] in IO'.
    assert (obj' = obj) as -> by (eapply nodup_fst_eq; [apply (i_nd _ _ _ _ A)|exact IO'|exact IO]). rewrite <- AO', AO in VR. cbn [is_answer]. unfold view_response, api_of in VR.
    destruct rq; cbn in VR; cbn; unfold option_map in VR; match type of VR with context [match ?x with Some _ => _ | None => _ end] => destruct x end; try discriminate VR; injection VR as <-; reflexivity.
  Qed.
  Lemma step_whole ev S : stack_inv S -> whole S -> keeps_apart ev -> k_last (sstep S ev) < 2 ^ 31 -> (forall b rq, In (b, rq) (c_wire (k_cons (sstep S ev))) -> serializes rq) ->
    whole (sstep S ev) /\ wire_out S (sstep S ev).
  Proof.
    intros SI W KA LT SE. pose proof SI as [I PL L WO SG HO]. pose proof (inv_flags cfg S I) as IF. pose proof (ho_nd _ _ HO) as NH.
    assert (IS : forall l, ConsumerRuns.inv cfg (cstep cfg (with_flags S) l)) by (intros l; now apply ConsumerRuns.inv_step).
    assert (OF : own_connections (c_cluster (with_flags S))) by apply own_flags, W.
    assert (ID : whole S /\ wire_out S S) by (split; [exact W|now apply wire_none]).
    assert (SAME : forall s2, own_connections (c_cluster s2) -> c_calls s2 = c_calls (k_cons S) -> c_wire s2 = c_wire (k_cons S) -> whole (Stack s2 (k_last S) (k_link S) (k_wait S) (k_held S)) /\ wire_out S (Stack s2 (k_last S) (k_link S) (k_wait S) (k_held S))).
    { intros s2 O2 C2 E2. split; [apply whole_same; [exact W|exact O2|now rewrite C2|lia|auto|apply W]|now apply wire_none]. }
    assert (LINK : forall n ev last', k_last S <= last' -> whole (Stack (k_cons S) last' (put n (happens ev (k_link S n)) (k_link S)) (k_wait S) (k_held S)) /\ wire_out S (Stack (k_cons S) last' (put n (happens ev (k_link S n)) (k_link S)) (k_wait S) (k_held S))).
    { intros n ev' last' LE. split; [apply whole_same; [exact W|apply W|reflexivity|exact LE| |]|apply wire_none; [reflexivity|]].
      - intros m f obj H. destruct (Nat.eq_dec m n) as [->|N]; [rewrite put_same; now apply happens_iss|now rewrite put_other].
      - intros m. destruct (Nat.eq_dec m n) as [->|N]; [rewrite put_same; apply happens_out, W|rewrite put_other by exact N; apply W].
      - intros m. cbn [k_link]. destruct (Nat.eq_dec m n) as [->|N]; [now rewrite put_same|now rewrite put_other]. }
    assert (PIECE : forall wr i l, label_of l i -> step_writes cfg (with_flags S) i (cstep cfg (with_flags S) l) -> sstep S ev = spiece wr i (with_flags S) (cstep cfg (with_flags S) l) S -> whole (sstep S ev) /\ wire_out S (sstep S ev)).
    { intros wr i l LB SW E. assert (CE : k_cons (sstep S ev) = cstep cfg (with_flags S) l).
      { rewrite E. unfold Stack.piece. cbv zeta. assert (FC : forall a w S0, k_cons (fold_left (fun S brq => send_to a wr i brq S) w S0) = k_cons S0) by (intros a w; induction w as [|x w IH]; intros S0; cbn [fold_left]; [reflexivity|]; rewrite IH; apply send_to_cons).
        destruct (dget _ i) as [[o [k w rs|k rs|t]]|]; cbn [k_cons]; now rewrite FC. }
      rewrite CE in SE. rewrite E in *. apply piece_whole; [exact W|exact NH|apply IS|exact SW|apply (step_others cfg (with_flags S) l i IF LB)|apply (sent_nodup cfg (with_flags S) l IF)|exact SE|exact LT]. }
    destruct ev as [l wr|n ev|n topics wr|i b wr].
    - destruct l as [i o|i b r|i r|k|ev|].
      + destruct (dmem (c_calls (with_flags S)) i) eqn:DM.
        * cbn [Stack.sstep]. rewrite DM. apply SAME; cbn [cstep]; rewrite DM; auto.
        * apply (PIECE wr i (Call i o)); [reflexivity| |cbn [Stack.sstep]; now rewrite DM]. apply call_writes; [exact IF|]. unfold dmem in DM. now destruct (dget (c_calls (with_flags S)) i).
      + exact ID.
      + destruct (dget (c_calls (with_flags S)) i) as [[o [k w rs|k rs|t]]|] eqn:D.
        1,4: cbn [Stack.sstep]; rewrite D; apply SAME; cbn [cstep]; rewrite D; auto.
        all: apply (PIECE wr i (Healed i r)); [reflexivity| |cbn [Stack.sstep]; now rewrite D]; eapply healed_writes; [exact IF|exact D|discriminate].
      + cbn [Stack.sstep]. apply SAME; auto.
      + cbn [Stack.sstep]. destruct (step_cases cfg (with_flags S) (Alloc ev) IF) as [(i & o & look & s1 & ns & ex & A)|H].
        * exfalso. destruct (ac_from _ _ _ _ _ _ _ _ _ A) as [(X & _)|[(b & r & k & w & rs & rq & X & _)|[(r & k & rs & X & _)|(r & t & X & _)]]]; discriminate X.
        * destruct H as [(-> & _)|[(k & X & _)|[(X & _)|(g & fn & ac & name & ev' & _ & _ & ->)]]]; try discriminate X; apply SAME; auto.
      + cbn [Stack.sstep]. apply SAME; auto.
    - destruct ev; cbn [Stack.sstep]; try (apply LINK; lia). exact ID.
    - cbn [Stack.sstep]. unfold Connection.request_of. destruct (request_init "metadata" MetadataRequest _ (k_last S)) as [[attrs last']|e] eqn:RI; cbn [bind]; [|exact ID]. apply LINK.
      unfold request_init, generate_correlation_id in RI; destruct (part_init _ _ _) as [p|e]; cbn [bind] in RI; [|discriminate RI]; destruct (dindex api_keys "metadata"%string) as [key|e]; cbn [bind] in RI; [|discriminate RI]; cbn in RI; injection RI as _ <-; lia.
    - destruct (outcome_of S i b) as [r|] eqn:OC; [|cbn [Stack.sstep]; rewrite OC; exact ID].
      assert (exists nf, In (i, b, nf) (k_wait S)) as [nf IN] by (unfold outcome_of in OC; destruct (find (is_wait i b) (k_wait S)) as [[[i' b'] nf]|] eqn:F; [|discriminate OC]; apply find_some in F as [F IW]; unfold is_wait in IW; cbn [fst snd] in IW; apply andb_true_iff in IW as [E1 E2]; apply Z.eqb_eq in E1, E2; subst i' b'; eauto).
      destruct (wh_only _ W _ _ _ IN) as [rq WF]. pose proof (outcome_answers _ _ _ _ _ SI OC WF) as IA. destruct WF as (o & k & w & rs & D & GW).
      destruct (arrive_writes cfg (with_flags S) i b r o k w rs rq IF D GW IA) as [[SW FI]|(HF & NE & [S1 S2] & rs' & D')].
      + assert (GO : goes_on cfg (with_flags S) i b r = false).
        { unfold goes_on. change (c_calls (with_flags S)) with (c_calls (k_cons S)). rewrite D. destruct FI as [FI| ->]; [|reflexivity]. destruct (ddel w b); [reflexivity|]. unfold handler_fails in FI. destruct r as [resp|e]; [|now elim FI]. destruct (handle cfg resp (with_flags S)) as [[v|e] s']; [now elim FI|reflexivity]. }
        apply (PIECE wr i (Arrive i b r)); [reflexivity|exact SW|]. cbn [Stack.sstep]. now rewrite OC, GO.
      + assert (GO : goes_on cfg (with_flags S) i b r = true).
        { unfold goes_on. change (c_calls (with_flags S)) with (c_calls (k_cons S)). rewrite D. destruct (ddel w b); [now elim NE|]. unfold handler_fails in HF. destruct r as [resp|e]; [|reflexivity]. destruct (handle cfg resp (with_flags S)) as [[v|e] s']; [reflexivity|discriminate HF]. }
        cbn [Stack.sstep]. rewrite OC, GO. set (s2 := cstep cfg (with_flags S) (Arrive i b r)) in *. destruct I as [_ I]. destruct (I _ _ _ D) as [_ WFS]. pose proof (ws_nodup _ _ _ _ WFS) as NW. split.
        * destruct W as [W1 W2 W3 W4 W5 W6]. constructor; cbn [k_cons k_wait k_link]; auto.
          -- unfold own_connections. rewrite S2. exact OF.
          -- intros j b' rq' H. destruct (Z.eq_dec j i) as [->|N].
             ++ destruct H as (o1 & k1 & w1 & rs1 & D1 & G1). rewrite D' in D1. injection D1 as <- <- <- <-. destruct (Z.eq_dec b' b) as [->|NB]; [rewrite dget_ddel_same in G1 by exact NW; discriminate G1|]. rewrite dget_ddel_other in G1 by exact NB.
                destruct (W2 i b' rq') as [nf' X]; [exists o, k, w, rs; auto|]. exists nf'. apply filter_In. split; [exact X|]. unfold is_wait. cbn [fst snd]. apply negb_true_iff, andb_false_iff. right. now apply Z.eqb_neq.
             ++ assert (E : dget (c_calls s2) j = dget (c_calls (k_cons S)) j) by (apply (step_others cfg (with_flags S) (Arrive i b r) i IF eq_refl j N)).
                destruct (W2 j b' rq') as [nf' X]; [eapply waits_calls; [symmetry; exact E|exact H]|]. exists nf'. apply filter_In. split; [exact X|]. unfold is_wait. cbn [fst snd]. apply negb_true_iff, andb_false_iff. left. now apply Z.eqb_neq.
          -- intros j b' nf' H. apply filter_In in H as [H IW]. unfold is_wait in IW. cbn [fst snd] in IW. apply negb_true_iff, andb_false_iff in IW. destruct (W3 _ _ _ H) as [rq' WF]. exists rq'. destruct (Z.eq_dec j i) as [->|N].
             ++ destruct IW as [IW|IW]; apply Z.eqb_neq in IW; [now elim IW|]. destruct WF as (o1 & k1 & w1 & rs1 & D1 & G1). rewrite D in D1. injection D1 as <- <- <- <-. exists o, k, (ddel w b), rs'. split; [exact D'|]. now rewrite dget_ddel_other.
             ++ eapply waits_calls; [|exact WF]. apply (step_others cfg (with_flags S) (Arrive i b r) i IF eq_refl j N).
          -- intros j b' n f H. apply filter_In in H as [H _]. eauto.
        * apply wire_none; [exact S1|reflexivity].
  Qed.
  (** ** runs *)
  Lemma step_prefix ev S : stack_inv S -> forall brq, In brq (c_wire (k_cons S)) -> In brq (c_wire (k_cons (sstep S ev))).
  Proof.
    intros SI. destruct (sstep_ok cfg C depth neg_read (fun _ => []) no_frames ev S SI) as (E & _ & _). rewrite E. pose proof (si_inv _ _ _ _ _ SI) as I. generalize (labels_of S ev) as ls. revert I. generalize (k_cons S) as s. intros s I ls. revert s I.
    induction ls as [|l ls IH]; intros s I brq H; [exact H|]. cbn [crun fold_left]. apply (IH (cstep cfg s l)); [now apply ConsumerRuns.inv_step|]. rewrite (step_wire cfg s l I). apply in_app_iff. now left.
  Qed.
  Lemma whole_init k name last : own_connections k -> 0 <= last -> whole (stack_init k name last).
  Proof.
    intros O L. constructor; cbn; auto.
    - intros i b rq (o & k' & w & rs & D & _). discriminate D.
    - intros i b nf [].
    - intros i b n f [].
    - split; cbn; [exact L|discriminate].
    - intros n f id rq [].
  Qed.
  Lemma proper_prev k last evs ev S : stack_inv S -> proper k last (evs ++ [ev]) (sstep S ev) -> keeps_apart ev /\ proper k last evs S.
  Proof.
    intros SI [A B D E F]. apply Forall_app in B as [B1 B2]. inversion B2; subst. split; [assumption|]. destruct (step_inv ev S SI) as [_ [LE _]]. constructor; auto; [lia|]. intros b rq H. apply (F b). now apply step_prefix.
  Qed.
  Lemma run_snoc evs ev S : srun (evs ++ [ev]) S = sstep (srun evs S) ev.
  Proof. unfold Stack.srun. now rewrite fold_left_app. Qed.
  Lemma run_inv evs k name last : stack_inv (srun evs (stack_init k name last)).
  Proof. apply (reach_stack cfg C depth neg_read (fun _ => []) no_frames). exists k, name, last, evs. reflexivity. Qed.
  Lemma run_whole k name last evs : let S := srun evs (stack_init k name last) in proper k last evs S -> whole S.
  Proof.
    induction evs as [|ev evs IH] using rev_ind; cbv zeta.
    - intros []. now apply whole_init.
    - rewrite run_snoc. intros P. destruct (proper_prev _ _ _ _ _ (run_inv _ _ _ _) P) as [K P']. apply step_whole; [apply run_inv|now apply IH|exact K|apply P|apply P].
  Qed.
  Lemma run_wire k name last evs : let S := srun evs (stack_init k name last) in proper k last evs S ->
    forall b rq, In (b, rq) (c_wire (k_cons S)) -> exists n f id, In (f, (id, rq)) (l_asked (k_link S n)).
  Proof.
    induction evs as [|ev evs IH] using rev_ind; cbv zeta.
    - intros _ b rq [].
    - rewrite run_snoc. intros P. destruct (proper_prev _ _ _ _ _ (run_inv _ _ _ _) P) as [K P']. destruct (step_whole ev _ (run_inv _ _ _ _) (run_whole _ _ _ _ P') K (pr_last _ _ _ _ P) (pr_serializes _ _ _ _ P)) as [_ (ex & g & E & G & A)].
      intros b rq H. rewrite E in H. apply in_app_iff in H as [H|H].
      + destruct (IH P' b rq H) as (n & f & id & X). exists n, f, id. rewrite A. apply in_app_iff. now left.
      + revert H. clear - G A. intros H. assert (exists n f id, In (n, (f, (id, rq))) g) as (n & f & id & X).
        { clear A. induction G as [|x y ex g [G1 _] G IH]; [destruct H|]. destruct H as [->|H]; [destruct y as [n [f [id rq']]]; cbn in G1; subst; exists n, f, id; now left|]. destruct (IH H) as (n & f & id & X). exists n, f, id. now right. }
        exists n, f, id. rewrite A. apply in_app_iff. right. unfold on. apply in_map_iff. exists (n, (f, (id, rq))). split; [reflexivity|]. apply filter_In. split; [exact X|apply Nat.eqb_refl].
  Qed.

  (** ** the connections of a stack *)
  Notation crun_ := (Connection.run C depth neg_read).
  Definition evolves (P : Connection.event -> Prop) (S S' : stack V) : Prop := forall n, exists evs, Forall P evs /\ l_conn (k_link S' n) = crun_ evs (l_conn (k_link S n)).
  Lemma evolves_same P S S' : (forall n, k_link S' n = k_link S n) -> evolves P S S'.
  Proof. intros E n. exists []. rewrite E. split; [constructor|reflexivity]. Qed.
  Lemma evolves_trans P S1 S2 S3 : evolves P S1 S2 -> evolves P S2 S3 -> evolves P S1 S3.
  Proof. intros A B n. destruct (A n) as (e1 & F1 & E1), (B n) as (e2 & F2 & E2). exists (e1 ++ e2). split; [now apply Forall_app|]. rewrite E2, E1. unfold Connection.run. now rewrite fold_left_app. Qed.
  Lemma evolves_put (P : Connection.event -> Prop) (s2 : consumer V) last' n ev wait' held' S l : P ev -> l_conn l = Connection.step C depth neg_read ev (l_conn (k_link S n)) -> evolves P S (Stack s2 last' (put n l (k_link S)) wait' held').
  Proof. intros H E m. cbn [k_link]. destruct (Nat.eq_dec m n) as [->|N]; [exists [ev]; rewrite put_same; split; [auto|exact E]|exists []; rewrite put_other by exact N; split; [constructor|reflexivity]]. Qed.
  Lemma send_evolves (P : Connection.event -> Prop) again wr i brq S : (forall b obj, P (Connection.EvSend obj (wr b))) -> evolves P S (send_to again wr i brq S) /\ (forall e, In e (k_wait (send_to again wr i brq S)) -> In e (k_wait S) \/ fst (fst e) = i).
  Proof.
    intros H. unfold Stack.send_to. destruct brq as [b rq]. destruct (match (if again then dget (k_held S) i else None) with Some id => (id - 1, k_last S) | None => (k_last S, k_last S + 1) end) as [before last'].
    assert (ID : evolves P S S /\ (forall e, In e (k_wait S) -> In e (k_wait S) \/ fst (fst e) = i)) by (split; [now apply evolves_same|auto]).
    destruct (dget _ b); [|exact ID]. destruct (request_object before rq) as [[obj id]|]; [|exact ID]. destruct (Connection.conn_send _ _ _) as [[f|e] st'].
    - split; [eapply evolves_put; [apply (H b obj)|reflexivity]|]. intros e [<-|E]; auto.
    - split; [now apply evolves_same|auto].
  Qed.
  Lemma fold_evolves (P : Connection.event -> Prop) again wr i w : (forall b obj, P (Connection.EvSend obj (wr b))) -> forall S, evolves P S (fold_left (fun S brq => send_to again wr i brq S) w S) /\
    (forall e, In e (k_wait (fold_left (fun S brq => send_to again wr i brq S) w S)) -> In e (k_wait S) \/ fst (fst e) = i).
  Proof.
    intros H. induction w as [|x w IH]; intros S; cbn [fold_left]; [split; [now apply evolves_same|auto]|]. destruct (send_evolves P again wr i x S H) as [A B], (IH (send_to again wr i x S)) as [A' B']. split; [eapply evolves_trans; eassumption|].
    intros e E. apply B' in E as [E|E]; auto.
  Qed.
  Lemma piece_evolves (P : Connection.event -> Prop) wr i s1 s2 S : (forall b obj, P (Connection.EvSend obj (wr b))) -> evolves P S (spiece wr i s1 s2 S) /\ (forall e, In e (k_wait (spiece wr i s1 s2 S)) -> In e (k_wait S) \/ fst (fst e) = i).
  Proof.
    intros H. unfold Stack.piece. cbv zeta. set (S1 := Stack s2 _ _ _ _). assert (E1 : evolves P S S1) by now apply evolves_same. assert (W1 : forall e, In e (k_wait S1) -> In e (k_wait S)) by (intros e E; now apply filter_In in E).
    destruct (dget (c_calls s2) i) as [[o [k w rs|k rs|t]]|].
    1:{ destruct (fold_evolves P (repeats i s1 s2) wr i w H S1) as [A B]. split; [exact (evolves_trans _ _ _ _ E1 A)|]. intros e E. apply B in E as [E|E]; auto. }
    all: destruct (fold_evolves P false wr i (skipn (length (c_wire s1)) (c_wire s2)) H S1) as [A B]; (split; [|intros e E; left; now apply W1]); eapply evolves_trans; [exact E1|]; eapply evolves_trans; [exact A|]; now apply evolves_same.
  Qed.
  (** whose call an event is about *)
  Definition about (ev : sevent) (i : Z) : Prop := match ev with SLabel (Call j _) _ | SLabel (Healed j _) _ | SDone j _ _ => j = i | _ => False end.
  Lemma step_evolves ev S : evolves (fun e => unbroken ev -> stream_kept e) S (sstep S ev) /\ (forall e, In e (k_wait (sstep S ev)) -> In e (k_wait S) \/ about ev (fst (fst e))).
  Proof.
    assert (ID : forall S', (forall n, k_link S' n = k_link S n) -> (forall e, In e (k_wait S') -> In e (k_wait S)) -> evolves (fun e => unbroken ev -> stream_kept e) S S' /\ (forall e, In e (k_wait S') -> In e (k_wait S) \/ about ev (fst (fst e)))) by (intros S' A B; split; [now apply evolves_same|auto]).
    destruct ev as [l wr|n ev|n topics wr|i b wr].
    - assert (H : forall b obj, unbroken (SLabel l wr) -> stream_kept (Connection.EvSend obj (wr b))) by (intros b obj U; apply U).
      destruct l as [i o|i b r|i r|k|ev|]; cbn [Stack.sstep]; try (solve [apply ID; auto]).
      + destruct (dmem _ i); [apply ID; auto|]. destruct (piece_evolves (fun e => unbroken (SLabel (Call i o) wr) -> stream_kept e) wr i (with_flags S) (cstep cfg (with_flags S) (Call i o)) S H) as [A B]. split; [exact A|]. intros e E. destruct (B e E) as [X|X]; [now left|right; symmetry; exact X].
      + destruct (dget (c_calls (with_flags S)) i) as [[o [k w rs|k rs|t]]|]; try (solve [apply ID; auto]).
        all: destruct (piece_evolves (fun e => unbroken (SLabel (Healed i r) wr) -> stream_kept e) wr i (with_flags S) (cstep cfg (with_flags S) (Healed i r)) S H) as [A B]; (split; [exact A|]); intros e E; destruct (B e E) as [X|X]; [now left|right; symmetry; exact X].
    - destruct ev; cbn [Stack.sstep]; try (split; [eapply evolves_put; [|reflexivity]; intros U; exact U|auto]). apply ID; auto.
    - cbn [Stack.sstep]. destruct (Connection.request_of _ _ _ _) as [[obj last']|]; [|apply ID; auto]. split; [eapply evolves_put; [|reflexivity]; intros U; exact U|auto].
    - cbn [Stack.sstep]. destruct (outcome_of S i b) as [r|]; [|apply ID; auto]. destruct (goes_on cfg (with_flags S) i b r); [apply ID; [reflexivity|intros e E; now apply filter_In in E]|].
      assert (H : forall b0 obj, unbroken (SDone i b wr) -> stream_kept (Connection.EvSend obj (wr b0))) by (intros b0 obj U; apply U).
      destruct (piece_evolves (fun e => unbroken (SDone i b wr) -> stream_kept e) wr i (with_flags S) (cstep cfg (with_flags S) (Arrive i b r)) S H) as [A B]. split; [exact A|]. intros e E. destruct (B e E) as [X|X]; [now left|right; symmetry; exact X].
  Qed.
  Lemma run_tidy (NIO : no_io_codec C) evs : forall S, Forall unbroken evs -> (forall n, tidy (l_conn (k_link S n))) -> forall n, tidy (l_conn (k_link (srun evs S) n)).
  Proof.
    induction evs as [|ev evs IH]; intros S U T; [exact T|]. inversion U as [|? ? U1 U2]; subst. cbn [Stack.srun fold_left]. apply (IH (sstep S ev) U2). intros n. destruct (proj1 (step_evolves ev S) n) as (es & F & ->).
    generalize (T n). generalize (l_conn (k_link S n)) as st. clear - F U1 NIO. induction F as [|e es K F IH]; intros st T; [exact T|]. apply IH. apply tidy_step; [exact NIO|now apply K|exact T].
  Qed.

  (** ** calls that wait for dead connections *)
  Record stuck (i : Z) (o : op) (p : pc V) (S : stack V) : Prop := {
    sk_call : dget (c_calls (k_cons S)) i = Some (o, p);
    sk_wait : forall b n f, In (i, b, (n, f)) (k_wait S) -> dead (l_conn (k_link S n)) /\ (f < Connection.c_next (l_conn (k_link S n)))%nat /\ ~ In f (completed (l_conn (k_link S n))) }.
  Lemma stuck_step i o k w rs ev S : stack_inv S -> stuck i o (PSend k w rs) S -> stuck i o (PSend k w rs) (sstep S ev).
  Proof.
    intros SI [D W]. pose proof (inv_flags cfg S (si_inv _ _ _ _ _ SI)) as IF. assert (DF : dget (c_calls (with_flags S)) i = Some (o, PSend k w rs)) by exact D.
    assert (NO : forall b, outcome_of S i b = None).
    { intros b. unfold outcome_of. destruct (find (is_wait i b) (k_wait S)) as [[[i' b'] [n f]]|] eqn:F; [|reflexivity]. apply find_some in F as [F IW]. unfold is_wait in IW. cbn [fst snd] in IW. apply andb_true_iff in IW as [E1 E2]. apply Z.eqb_eq in E1, E2. subst i' b'.
      destruct (W _ _ _ F) as (_ & _ & NC). destruct (find _ (Connection.c_done _)) as [[f' oc]|] eqn:FD; [|reflexivity]. exfalso. apply find_some in FD as [FD EF]. cbn [fst] in EF. apply Nat.eqb_eq in EF. subst f'. apply NC. unfold completed. now apply (in_map fst) in FD. }
    assert (OTHER : forall l, label_of l (i + 1) -> dget (c_calls (cstep cfg (with_flags S) l)) i = Some (o, PSend k w rs)) by (intros l H; rewrite (step_others cfg (with_flags S) l (i + 1) IF H i) by lia; exact DF).
    assert (OTHERJ : forall l j, label_of l j -> j <> i -> dget (c_calls (cstep cfg (with_flags S) l)) i = Some (o, PSend k w rs)) by (intros l j H N; rewrite (step_others cfg (with_flags S) l j IF H i) by congruence; exact DF).
    destruct (step_evolves ev S) as [EV WE]. pose proof (sstep_ok cfg C depth neg_read (fun _ => []) no_frames ev S SI) as (CE & _ & _).
    assert (LIVE : (forall b n f, In (i, b, (n, f)) (k_wait (sstep S ev)) -> In (i, b, (n, f)) (k_wait S)) -> dget (c_calls (k_cons (sstep S ev))) i = Some (o, PSend k w rs) -> stuck i o (PSend k w rs) (sstep S ev)).
    { intros WI DI. constructor; [exact DI|]. intros b n f H. destruct (W _ _ _ (WI _ _ _ H)) as (G & LT & NC). destruct (EV n) as (es & _ & ->). clear - G LT NC. revert G LT NC. generalize (l_conn (k_link S n)) as st. induction es as [|e es IH]; intros st G LT NC; [auto|].
      destruct (gone_step C depth neg_read e st G) as [G' X]. apply IH; [exact G'|pose proof (next_mono_step C depth neg_read e st); lia|]. intros Y. apply NC. now apply X. }
    destruct ev as [l wr|n ev|n topics wr|j b wr].
    - destruct l as [j oj|j b r|j r|kk|ev|]; cbn [about] in WE.
      + destruct (Z.eq_dec j i) as [->|N].
        * cbn [Stack.sstep]. unfold dmem. rewrite DF. constructor; [|exact W]. cbn [k_cons cstep]. unfold dmem. rewrite DF. exact DF.
        * apply LIVE; [intros b n f H; destruct (WE _ H) as [X|X]; [exact X|cbn in X; congruence]|]. rewrite CE. cbn [labels_of crun fold_left]. rewrite <- with_flags_step. now apply (OTHERJ _ j).
      + apply LIVE; [auto|exact D].
      + destruct (Z.eq_dec j i) as [->|N].
        * cbn [Stack.sstep]. rewrite DF. constructor; [|exact W]. cbn [k_cons cstep]. rewrite DF. exact DF.
        * apply LIVE; [intros b n f H; destruct (WE _ H) as [X|X]; [exact X|cbn in X; congruence]|]. rewrite CE. cbn [labels_of crun fold_left]. rewrite <- with_flags_step. now apply (OTHERJ _ j).
      + apply LIVE; [auto|exact D].
      + apply LIVE; [auto|]. rewrite CE. cbn [labels_of crun fold_left]. rewrite <- with_flags_step. now apply OTHER.
      + apply LIVE; [auto|exact D].
    - apply LIVE; [intros b n' f H; destruct (WE _ H) as [X|X]; [exact X|destruct X]|rewrite CE; exact D].
    - apply LIVE; [intros b n' f H; destruct (WE _ H) as [X|X]; [exact X|destruct X]|rewrite CE; exact D].
    - destruct (Z.eq_dec j i) as [->|N].
      + cbn [Stack.sstep]. rewrite NO. constructor; assumption.
      + apply LIVE; [intros b' n f H; destruct (WE _ H) as [X|X]; [exact X|cbn in X; congruence]|]. rewrite CE. cbn [labels_of]. destruct (outcome_of S j b) as [r|]; [|exact D]. cbn [crun fold_left]. rewrite <- with_flags_step. now apply (OTHERJ _ j).
  Qed.
  Lemma stuck_run i o k w rs evs : forall S, stack_inv S -> stuck i o (PSend k w rs) S -> stuck i o (PSend k w rs) (srun evs S).
  Proof. induction evs as [|ev evs IH]; intros S SI K; [exact K|]. cbn [Stack.srun fold_left]. apply (IH (sstep S ev)); [now apply step_inv|now apply stuck_step]. Qed.
End Stack.
