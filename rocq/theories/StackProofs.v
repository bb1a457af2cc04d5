(** Proofs about Stack.v. *)
From Coq Require Import ZArith String List Bool Lia.
From Verif Require Import PyBase BaseLemmas Struct StructProofs Messages Protocol Schemas Request SpecWire ProtocolProofs RequestProofs PropsWire Cluster Zookeeper Consumer SpecConsumer ConsumerProofs ConsumerSteps ConsumerRuns SpecConn ConnProofs ConnStream ResponseRead SpecSent SpecRequest StackWire Stack SpecStack StackHeld.
From Verif Require Connection.
Import ListNotations.
Open Scope Z_scope.

(** ** one connection reads frames *)
Section Reading.
  Variable C : codec.
  Variable depth : nat.
  Variable neg_read : Z -> bytes -> bytes * bytes.
  Variable frames : list (Z * bytes).
  Variable OK : Forall frame_ok frames.
  Import Connection.

  (** a frame has arrived, all of it, when [got] has *)
  Definition came (got : bytes) (fr : Z * bytes) : Prop := exists j tl, nth_error frames j = Some fr /\ got = frames_bytes (firstn (S j) frames) ++ tl.
  Lemma came_in got fr : came got fr -> In fr frames.
  Proof. intros (j & tl & N & _). eapply nth_error_In, N. Qed.
  Lemma came_more got b fr : came got fr -> came (got ++ b) fr.
  Proof. intros (j & tl & N & ->). exists j, (tl ++ b). split; [exact N|]. now rewrite <- app_assoc. Qed.
  Definition from_frame (got : bytes) (fo : nat * outcome) : Prop :=
    match snd fo with Got api corr v => exists raw, came got (corr, raw) /\ decodes C depth api raw v | Fail _ => True end.
  (** where the reader is in the stream of frames, when [got] has arrived *)
  Definition at_pos (st : conn) (got : bytes) : Prop :=
    match c_phase st with
    | PNotStarted | PSize => exists j, got = frames_bytes (firstn j frames) ++ c_inbuf st
    | PLoop => c_closing st = false -> exists j, got = frames_bytes (firstn j frames) ++ c_inbuf st
    | PCorr size => exists j fr, nth_error frames j = Some fr /\ size = zlen (snd fr) + 4 /\ got = frames_bytes (firstn j frames) ++ big_endian 4 (zlen (snd fr) + 4) ++ c_inbuf st
    | PPayload size corr => exists j fr, nth_error frames j = Some fr /\ size = zlen (snd fr) /\ corr = fst fr /\
        got = frames_bytes (firstn j frames) ++ big_endian 4 (zlen (snd fr) + 4) ++ big_endian 4 (fst fr) ++ c_inbuf st
    | PGot api corr v => exists j raw, nth_error frames j = Some (corr, raw) /\ decodes C depth api raw v /\ got = frames_bytes (firstn (S j) frames) ++ c_inbuf st
    | PRaise _ | PStopped => True
    end.
  Definition reads (st : conn) (got : bytes) : Prop := at_pos st got /\ Forall (from_frame got) (c_done st).

  Lemma firstn_nth_S {A} (l : list A) j x : nth_error l j = Some x -> firstn (S j) l = firstn j l ++ [x].
  Proof. revert j. induction l as [|a l IH]; intros [|j] E; try discriminate E; [injection E as ->; reflexivity|]. cbn [firstn app]. f_equal. now apply IH. Qed.
  Lemma frame_split j fr : nth_error frames j = Some fr -> exists tl, frames_bytes frames = frames_bytes (firstn j frames) ++ frame_bytes fr ++ tl.
  Proof.
    intros E. exists (frames_bytes (skipn (S j) frames)). rewrite <- (firstn_skipn (S j) frames) at 1. rewrite frames_bytes_app, (firstn_nth_S _ _ _ E), frames_bytes_app, frames_bytes_cons, <- app_assoc. unfold frames_bytes at 3. cbn. now rewrite app_nil_r.
  Qed.
  Lemma next_frame j inb more : frames_bytes frames = (frames_bytes (firstn j frames) ++ inb) ++ more -> inb <> [] -> exists fr, nth_error frames j = Some fr.
  Proof.
    intros E N. destruct (nth_error frames j) eqn:X; [eauto|]. apply nth_error_None in X. rewrite firstn_all2 in E by exact X. exfalso. apply N.
    apply (f_equal (@length _)) in E. rewrite !app_length in E. destruct inb; [reflexivity|]. cbn in E. lia.
  Qed.
  Lemma frame_ok_nth j fr : nth_error frames j = Some fr -> frame_ok fr.
  Proof. intros E. apply nth_error_In in E. rewrite Forall_forall in OK. now apply OK. Qed.

  (** the bytes the reader takes are the next ones of the stream *)
  Lemma taken_bytes (pre a b inb more tl : bytes) : pre ++ a ++ tl = (pre ++ inb) ++ more -> zlen a <= zlen inb -> exists r, inb = a ++ r.
  Proof. intros E L. rewrite <- app_assoc in E. apply app_inv_head in E. symmetry in E. destruct (split_prefix inb more a tl E L) as (r & H & _). eauto. Qed.

  (** steps the reader has no part in *)
  Definition quiet (st st' : conn) : Prop :=
    c_phase st' = c_phase st /\ c_inbuf st' = c_inbuf st /\ (c_closing st' = false -> c_closing st = false) /\ exists l, c_done st' = c_done st ++ l /\ Forall (fun fo => exists e, snd fo = Fail e) l.
  Lemma quiet_done st st' : c_phase st' = c_phase st -> c_inbuf st' = c_inbuf st -> (c_closing st' = false -> c_closing st = false) -> c_done st' = c_done st -> quiet st st'.
  Proof. intros A B D E. repeat split; auto. exists []. rewrite app_nil_r. split; [exact E|constructor]. Qed.
  Lemma quiet_trans a b c : quiet a b -> quiet b c -> quiet a c.
  Proof.
    intros (A1 & A2 & A3 & l & A4 & A5) (B1 & B2 & B3 & m & B4 & B5). repeat split; [congruence|congruence|auto|]. exists (l ++ m). rewrite B4, A4, app_assoc. split; [reflexivity|]. apply Forall_app. now split.
  Qed.
  Lemma quiet_abort exc st : quiet st (conn_abort exc st).
  Proof.
    unfold conn_abort. destruct (c_closing st) eqn:CL; [now apply quiet_done|]. repeat split; cbn [c_phase c_inbuf c_closing c_done]; [discriminate|]. eexists. split; [reflexivity|].
    apply Forall_forall. intros x H. apply in_map_iff in H as (y & <- & _). cbn. eauto.
  Qed.
  Lemma quiet_error e st : quiet st (on_error e st).
  Proof. unfold on_error. destruct e; try apply quiet_abort. apply quiet_done; try reflexivity. discriminate. Qed.
  Lemma quiet_send rq wr st : quiet st (snd (conn_send rq wr st)).
  Proof.
    unfold conn_send. destruct (c_closing st) eqn:CL; cbn [snd]; [repeat split; cbn; try congruence; eexists; split; [reflexivity|]; constructor; [exists EBrokerConn; reflexivity|constructor]|].
    destruct (p <- rq_payload rq;; framed p) as [bs|e]; cbn [snd]; [|now apply quiet_done].
    set (st1 := Conn _ _ _ _ _ _ _ _ _). assert (Q : quiet st st1) by now apply quiet_done.
    destruct (c_closed st); cbn [snd]; [eapply quiet_trans; [exact Q|apply quiet_error]|]. destruct wr; cbn [snd]; [eapply quiet_trans; [exact Q|apply quiet_error]|]. eapply quiet_trans; [exact Q|]. now apply quiet_done.
  Qed.
  Lemma reads_quiet st st' got : quiet st st' -> reads st got -> reads st' got.
  Proof.
    intros (A & B & D & l & E & F) [R1 R2]. split.
    - unfold at_pos in *. rewrite A, B. destruct (c_phase st); auto.
    - rewrite E. apply Forall_app. split; [exact R2|]. eapply Forall_impl; [|exact F]. intros fo (e & H). unfold from_frame. now rewrite H.
  Qed.
  Lemma reads_phase st got p : Forall (from_frame got) (c_done st) -> at_pos (set_phase st p) got -> reads (set_phase st p) got.
  Proof. intros D A. split; [exact A|exact D]. Qed.

  Lemma zlen_be n z : zlen (big_endian n z) = Z.of_nat n.
  Proof. unfold zlen. now rewrite big_endian_length. Qed.
  Lemma reads_read st got more : reads st got -> frames_bytes frames = got ++ more -> reads (read_step C depth neg_read st) got.
  Proof.
    intros [A D] E. unfold read_step, at_pos in *. destruct (c_phase st) as [| | |size|size corr|api corr v|e|] eqn:PH.
    - split; [unfold at_pos; rewrite PH; exact A|exact D].
    - apply reads_phase; [exact D|]. unfold at_pos, set_phase. cbn. destruct (c_closing st); [exact I|now apply A].
    - (* the size *)
      destruct A as (j & A). unfold with_read, read_bytes. cbn [Z.ltb Z.compare]. destruct (4 <=? zlen (c_inbuf st)) eqn:L; [|destruct (c_closed st); [apply reads_phase; [exact D|exact I]|split; [unfold at_pos; rewrite PH; eauto|exact D]]].
      apply Z.leb_le in L. destruct (next_frame j (c_inbuf st) more) as (fr & NF); [rewrite E, A; reflexivity|intros N; rewrite N in L; unfold zlen in L; cbn [length] in L; lia|].
      destruct (frame_split j fr NF) as (tl & FS). destruct (taken_bytes (frames_bytes (firstn j frames)) (big_endian 4 (zlen (snd fr) + 4)) [] (c_inbuf st) more (big_endian 4 (fst fr) ++ snd fr ++ tl)) as (r & IB).
      { rewrite A in E. rewrite <- E, FS. unfold frame_bytes. now rewrite <- !app_assoc. }
      { rewrite zlen_be. lia. }
      assert (RG : firstn (Z.to_nat 4) (c_inbuf st) = big_endian 4 (zlen (snd fr) + 4) /\ skipn (Z.to_nat 4) (c_inbuf st) = r).
      { rewrite IB. split; [rewrite firstn_app|rewrite skipn_app]; rewrite big_endian_length; cbn [Z.to_nat Pos.to_nat Pos.iter_op Nat.add Nat.sub]; [rewrite app_nil_r; apply firstn_all2; now rewrite big_endian_length|]. rewrite skipn_all2; [reflexivity|now rewrite big_endian_length]. }
      destruct RG as [RG1 RG2]. rewrite RG1, RG2. destruct (frame_ok_nth j fr NF) as [F1 F2]. rewrite unpack_i_be by exact F2. apply reads_phase; [exact D|]. unfold at_pos, set_phase. cbn [c_phase c_inbuf].
      exists j, fr. split; [exact NF|]. split; [reflexivity|]. now rewrite A, IB.
    - (* the correlation id *)
      destruct A as (j & fr & NF & SZ & A). unfold with_read, read_bytes. cbn [Z.ltb Z.compare]. destruct (4 <=? zlen (c_inbuf st)) eqn:L; [|destruct (c_closed st); [apply reads_phase; [exact D|exact I]|split; [unfold at_pos; rewrite PH; eauto 7|exact D]]].
      apply Z.leb_le in L. destruct (frame_split j fr NF) as (tl & FS). destruct (taken_bytes (frames_bytes (firstn j frames) ++ big_endian 4 (zlen (snd fr) + 4)) (big_endian 4 (fst fr)) [] (c_inbuf st) more (snd fr ++ tl)) as (r & IB).
      { rewrite A in E. rewrite <- !app_assoc in *. rewrite <- E, FS. unfold frame_bytes. now rewrite <- !app_assoc. }
      { rewrite zlen_be. lia. }
      assert (RG : firstn (Z.to_nat 4) (c_inbuf st) = big_endian 4 (fst fr) /\ skipn (Z.to_nat 4) (c_inbuf st) = r).
      { rewrite IB. split; [rewrite firstn_app|rewrite skipn_app]; rewrite big_endian_length; cbn [Z.to_nat Pos.to_nat Pos.iter_op Nat.add Nat.sub]; [rewrite app_nil_r; apply firstn_all2; now rewrite big_endian_length|]. rewrite skipn_all2; [reflexivity|now rewrite big_endian_length]. }
      destruct RG as [RG1 RG2]. rewrite RG1, RG2. destruct (frame_ok_nth j fr NF) as [F1 F2]. rewrite unpack_i_be by exact F1. apply reads_phase; [exact D|]. unfold at_pos, set_phase. cbn [c_phase c_inbuf].
      exists j, fr. split; [exact NF|]. split; [lia|]. split; [reflexivity|]. now rewrite A, IB.
    - (* the payload *)
      destruct A as (j & fr & NF & SZ & CO & A). unfold with_read, read_bytes. pose proof (zlen_nonneg (snd fr)) as NN. rewrite <- SZ in NN. destruct (size <? 0) eqn:NG; [lia|]. destruct (size <=? zlen (c_inbuf st)) eqn:L; [|destruct (c_closed st); [apply reads_phase; [exact D|exact I]|split; [unfold at_pos; rewrite PH; eauto 9|exact D]]].
      apply Z.leb_le in L. destruct (frame_split j fr NF) as (tl & FS). destruct (taken_bytes (frames_bytes (firstn j frames) ++ big_endian 4 (zlen (snd fr) + 4) ++ big_endian 4 (fst fr)) (snd fr) [] (c_inbuf st) more tl) as (r & IB).
      { rewrite A in E. rewrite <- !app_assoc in *. rewrite <- E, FS. unfold frame_bytes. now rewrite <- !app_assoc. }
      { lia. }
      assert (LN : Z.to_nat size = length (snd fr)) by (rewrite SZ; unfold zlen; lia).
      assert (RG : firstn (Z.to_nat size) (c_inbuf st) = snd fr /\ skipn (Z.to_nat size) (c_inbuf st) = r).
      { rewrite IB, LN. rewrite firstn_app, skipn_app, firstn_all, skipn_all, Nat.sub_diag. cbn. now rewrite app_nil_r. }
      destruct RG as [RG1 RG2]. rewrite RG1, RG2. cbn [c_api]. destruct (dget (c_api st) corr) as [api|]; [|apply reads_phase; [exact D|exact I]]. destruct (dget response_classes api) as [fs|] eqn:RC; [|apply reads_phase; [exact D|exact I]].
      destruct (Protocol.deserialize C depth (TPart fs) (snd fr)) as [v|e] eqn:DE; [|apply reads_phase; [exact D|exact I]]. apply reads_phase; [exact D|]. unfold at_pos, set_phase. cbn [c_phase c_inbuf].
      exists j, (snd fr). split; [rewrite NF, CO; now destruct fr|]. split; [apply decodes_iff; eauto|]. rewrite (firstn_nth_S _ _ _ NF), frames_bytes_app, frames_bytes_cons, A, IB. change (frames_bytes []) with (@nil Z). rewrite app_nil_r. unfold frame_bytes. now rewrite <- !app_assoc.
    - destruct A as (j & raw & NF & DE & A). destruct (dget (c_pending st) corr) as [f|].
      + split; cbn [c_done at_pos c_phase c_inbuf]; [intros _; cbn; exists (S j); exact A|]. apply Forall_app. split; [exact D|]. constructor; [|constructor]. exists raw. split; [exists j, (c_inbuf st); auto|exact DE].
      + destruct (quiet_error EKey st) as (_ & _ & _ & l & E1 & E2). split; [unfold at_pos; cbn [set_phase c_phase c_closing]; intros X; rewrite closing_error in X; discriminate X|]. cbn [set_phase c_done]. rewrite E1. apply Forall_app. split; [exact D|]. eapply Forall_impl; [|exact E2]. intros fo (e & H). unfold from_frame. now rewrite H.
    - destruct (quiet_error e st) as (_ & _ & _ & l & E1 & E2). split; [unfold at_pos; cbn [set_phase c_phase c_closing]; intros X; rewrite closing_error in X; discriminate X|]. cbn [set_phase c_done]. rewrite E1. apply Forall_app. split; [exact D|]. eapply Forall_impl; [|exact E2]. intros fo (e' & H). unfold from_frame. now rewrite H.
    - split; [unfold at_pos; rewrite PH; exact I|exact D].
  Qed.
  Definition arrived (ev : event) (st : conn) (got : bytes) : bytes := match ev with EvData b => if c_closed st then got else got ++ b | _ => got end.
  Lemma reads_step ev st got more : reads st got -> frames_bytes frames = arrived ev st got ++ more -> reads (step C depth neg_read ev st) (arrived ev st got).
  Proof.
    intros R E. destruct ev; cbn [step arrived] in *.
    - eapply reads_quiet; [apply quiet_send|exact R].
    - eapply reads_quiet; [apply quiet_error|exact R].
    - destruct R as [A D]. destruct (c_phase st) eqn:PH; try (split; assumption). split; [|exact D]. unfold at_pos in *. rewrite PH in A. cbn. auto.
    - destruct (c_closed st); [exact R|]. destruct R as [A D]. split; [|eapply Forall_impl; [|exact D]; intros fo; unfold from_frame; destruct (snd fo); [intros (raw & X & Y); exists raw; split; [now apply came_more|exact Y]|auto]]. unfold at_pos in *. cbn [c_phase c_inbuf c_closing]. destruct (c_phase st) as [| | |size|size corr|api corr v|e|]; try exact I.
      + destruct A as (j & ->). exists j. now rewrite <- app_assoc.
      + intros CL. destruct (A CL) as (j & ->). exists j. now rewrite <- app_assoc.
      + destruct A as (j & ->). exists j. now rewrite <- app_assoc.
      + destruct A as (j & fr & NF & SZ & ->). exists j, fr. rewrite <- !app_assoc. auto.
      + destruct A as (j & fr & NF & SZ & CO & ->). exists j, fr. rewrite <- !app_assoc. auto.
      + destruct A as (j & raw & NF & DE & ->). exists j, raw. rewrite <- !app_assoc. auto.
    - eapply reads_quiet; [|exact R]. now apply quiet_done.
    - eapply reads_read; eassumption.
    - eapply reads_quiet; [|exact R]. apply quiet_done; try reflexivity. discriminate.
    - eapply reads_quiet; [apply quiet_abort|exact R].
  Qed.
  Lemma reads_init : reads conn_init [].
  Proof. split; [|constructor]. exists O. reflexivity. Qed.
End Reading.

Lemma nodup_map_inj {A B} (f : A -> B) l x y : NoDup (map f l) -> In x l -> In y l -> f x = f y -> x = y.
Proof.
  induction l as [|a l IH]; intros N X Y E; [destruct X|]. inversion N as [|? ? N1 N2]; subst. destruct X as [->|X], Y as [->|Y]; auto.
  - exfalso. apply N1. rewrite E. now apply in_map.
  - exfalso. apply N1. rewrite <- E. now apply in_map.
Qed.
(** ** the links of a stack *)
Definition link_le (l l' : link) : Prop := (exists x, l_in l' = l_in l ++ x) /\ (forall a, In a (l_asked l) -> In a (l_asked l')) /\ exists d, Connection.c_done (l_conn l') = Connection.c_done (l_conn l) ++ d.
Lemma link_le_refl l : link_le l l.
Proof. split; [exists []; now rewrite app_nil_r|]. split; [auto|]. exists []. now rewrite app_nil_r. Qed.
Lemma link_le_trans a b c : link_le a b -> link_le b c -> link_le a c.
Proof. intros ((x & A1) & A2 & d & A3) ((y & B1) & B2 & e & B3). split; [exists (x ++ y); now rewrite B1, A1, app_assoc|]. split; [auto|]. exists (d ++ e). now rewrite B3, A3, app_assoc. Qed.
Definition api_of (rq : request) : string := fst (fst (request_kwargs rq)).
Definition asked_or_failed (l : link) (f : nat) (rq : request) : Prop := (exists id, In (f, (id, rq)) (l_asked l)) \/ exists e, In (f, Connection.Fail e) (Connection.c_done (l_conn l)).
Lemma aof_le l l' f rq : link_le l l' -> asked_or_failed l f rq -> asked_or_failed l' f rq.
Proof. intros (_ & A & d & D) [(id & H)|(e & H)]; [left; exists id; auto|right; exists e; rewrite D; apply in_app_iff; now left]. Qed.

Section Links.
  Context {V : Type}.
  Variable cfg : config V.
  Variable C : codec.
  Variable depth : nat.
  Variable neg_read : Z -> bytes -> bytes * bytes.
  Variable frames : nat -> list (Z * bytes).
  Variable OK : forall n, Forall frame_ok (frames n).
  Notation happens := (happens C depth neg_read).

  Lemma done_grows ev st : exists d, Connection.c_done (Connection.step C depth neg_read ev st) = Connection.c_done st ++ d.
  Proof.
    assert (Q : forall st', quiet st st' -> exists d, Connection.c_done st' = Connection.c_done st ++ d) by (intros st' (_ & _ & _ & l & E & _); eauto).
    assert (ID : exists d, Connection.c_done st = Connection.c_done st ++ d) by (exists []; now rewrite app_nil_r).
    destruct ev; cbn [Connection.step]; auto using quiet_send, quiet_error, quiet_abort.
    - destruct (Connection.c_phase st); exact ID.
    - destruct (Connection.c_closed st); exact ID.
    - unfold Connection.read_step. destruct (Connection.c_phase st) as [| | |size|size corr|api corr v|e|]; try exact ID.
      + unfold Connection.with_read. destruct (Connection.read_bytes neg_read 4 st); [|exact ID|exact ID]. exact ID.
      + unfold Connection.with_read. destruct (Connection.read_bytes neg_read 4 st); [|exact ID|exact ID]. exact ID.
      + unfold Connection.with_read. destruct (Connection.read_bytes neg_read size st) as [b r| |]; [|exact ID|exact ID]. cbn [Connection.c_api]. destruct (dget (Connection.c_api st) corr) as [api|]; [|exact ID].
        destruct (dget Connection.response_classes api); [|exact ID]. destruct (Protocol.deserialize C depth (TPart f) b); exact ID.
      + destruct (dget (Connection.c_pending st) corr); [cbn; eauto|]. cbn [Connection.set_phase Connection.c_done]. apply Q, quiet_error.
      + cbn [Connection.set_phase Connection.c_done]. apply Q, quiet_error.
  Qed.
  Lemma happens_le ev l : link_le l (happens ev l).
  Proof. split; [|split; [auto|apply done_grows]]. destruct ev; cbn [Stack.happens l_in]; try (exists []; now rewrite app_nil_r). destruct (Connection.c_closed (l_conn l)); [exists []; now rewrite app_nil_r|eauto]. Qed.

  (** what is written when *)
  Lemma written_step ev st : (forall rq wr, ev <> Connection.EvSend rq wr) -> Connection.c_written (Connection.step C depth neg_read ev st) = Connection.c_written st.
  Proof.
    assert (EQ : forall e st, Connection.c_written (Connection.on_error e st) = Connection.c_written st) by (intros e st0; unfold Connection.on_error, Connection.conn_abort; destruct e; try destruct (Connection.c_closing st0); reflexivity).
    intros N. destruct ev; cbn [Connection.step]; try reflexivity.
    - now destruct (N rq wr).
    - apply EQ.
    - destruct (Connection.c_phase st); reflexivity.
    - destruct (Connection.c_closed st); reflexivity.
    - unfold Connection.read_step, Connection.with_read. repeat match goal with |- context [match ?x with _ => _ end] => destruct x end; try reflexivity; cbn [Connection.set_phase Connection.c_written]; apply EQ.
    - unfold Connection.conn_abort. destruct (Connection.c_closing st); reflexivity.
  Qed.
  Lemma written_send rq wr st : Connection.c_written (snd (Connection.conn_send rq wr st)) = Connection.c_written st \/
    exists f w, Connection.conn_send rq wr st = (Ok f, snd (Connection.conn_send rq wr st)) /\ (p <- Connection.rq_payload rq;; framed p) = Ok w /\ Connection.c_written (snd (Connection.conn_send rq wr st)) = Connection.c_written st ++ [w].
  Proof.
    assert (EQ : forall e st, Connection.c_written (Connection.on_error e st) = Connection.c_written st) by (intros e st0; unfold Connection.on_error, Connection.conn_abort; destruct e; try destruct (Connection.c_closing st0); reflexivity).
    unfold Connection.conn_send. destruct (Connection.c_closing st); [now left|]. destruct (p <- Connection.rq_payload rq;; framed p) as [w|e] eqn:E; [|now left]. destruct (Connection.c_closed st); [left; cbn [snd]; now rewrite EQ|].
    destruct wr as [e|]; [left; cbn [snd]; now rewrite EQ|]. right. eexists. exists w. cbn. auto.
  Qed.
  Lemma send_future rq wr st f st' : Connection.conn_send rq wr st = (Ok f, st') -> f = Connection.c_next st.
  Proof. unfold Connection.conn_send. destruct (Connection.c_closing st); [congruence|]. destruct (p <- Connection.rq_payload rq;; framed p); [|discriminate]. destruct (Connection.c_closed st); [congruence|]. destruct wr; congruence. Qed.
  (** a frame with this id, as Kafka reads it *)
  Definition carries (w : bytes) (id : Z) : Prop := exists api key p, In (api, key) kafka_api_numbers /\ SpecWire.fits 32 id /\ w = request_frame key id p.

  Record link_ok (n : nat) (l : link) (last : Z) : Prop := {
    lk_inv : ConnProofs.inv C depth (l_iss l) (l_conn l);
    lk_ids : forall f rq, In (f, rq) (l_iss l) -> Connection.rq_corr rq <= last;
    lk_asked : forall f id rq, In (f, (id, rq)) (l_asked l) -> exists obj, In (f, obj) (l_iss l) /\ Connection.rq_corr obj = id /\ Connection.rq_api obj = api_of rq /\ plain_request rq /\ (p <- Connection.rq_payload obj;; framed p) = request_wire (id - 1) rq;
    lk_reads : (exists more, frames_bytes (frames n) = l_in l ++ more) -> reads C depth (frames n) (l_conn l) (l_in l);
    lk_all : Connection.c_written (l_conn l) = map snd (l_out l);
    lk_out : forall f w, In (f, w) (l_out l) -> exists obj, In (f, obj) (l_iss l) /\ carries w (Connection.rq_corr obj) /\ (p <- Connection.rq_payload obj;; framed p) = Ok w }.
  Lemma link_ok_init n last : link_ok n link_init last.
  Proof. constructor; cbn; [apply ConnProofs.inv_init|intros f rq []|intros f id rq []| |reflexivity|intros f w []]. intros _. apply reads_init. Qed.
  Lemma link_ok_last n l last last' : last <= last' -> link_ok n l last -> link_ok n l last'.
  Proof. intros L [A B D E F G]. constructor; auto. intros f rq X. specialize (B f rq X). lia. Qed.
  (** the object is new, or every request made with it has had its response *)
  Definition may_send (obj : Connection.request) (l : link) (last' : Z) : Prop :=
    Connection.rq_corr obj <= last' /\ (forall f obj', In (f, obj') (l_iss l) -> Connection.rq_corr obj' = Connection.rq_corr obj -> obj' = obj /\ In f (completed (l_conn l))) /\
    forall w, (p <- Connection.rq_payload obj;; framed p) = Ok w -> carries w (Connection.rq_corr obj).
  Lemma link_ok_happens n l last ev last' : link_ok n l last -> last <= last' -> (forall rq wr, ev = Connection.EvSend rq wr -> may_send rq l last') -> link_ok n (happens ev l) last'.
  Proof.
    intros [A B D E WA WO] LE FR.
    assert (IS : l_iss (happens ev l) = l_iss l ++ issued1 ev (l_conn l)).
    { destruct ev; cbn [Stack.happens l_iss issued1]; rewrite ?app_nil_r; try reflexivity. destruct (fst (Connection.conn_send rq wr (l_conn l))); [reflexivity|now rewrite app_nil_r]. }
    assert (NEW : forall f rq, In (f, rq) (issued1 ev (l_conn l)) -> may_send rq l last').
    { intros f rq H. destruct ev; try destruct H. cbn [issued1] in H. destruct (fst (Connection.conn_send rq0 wr (l_conn l))); [|destruct H]. destruct H as [H|[]]. injection H as <- <-. eapply FR. reflexivity. }
    assert (ONE : forall f rq f' rq', In (f, rq) (issued1 ev (l_conn l)) -> In (f', rq') (issued1 ev (l_conn l)) -> rq = rq').
    { intros f rq f' rq' H H'. destruct ev; try destruct H. cbn [issued1] in *. destruct (fst (Connection.conn_send rq0 wr (l_conn l))); [|destruct H]. destruct H as [H|[]], H' as [H'|[]]. congruence. }
    assert (OUT : (l_out (happens ev l) = l_out l /\ Connection.c_written (l_conn (happens ev l)) = Connection.c_written (l_conn l)) \/
      exists rq wr f w, ev = Connection.EvSend rq wr /\ Connection.conn_send rq wr (l_conn l) = (Ok f, snd (Connection.conn_send rq wr (l_conn l))) /\ (p <- Connection.rq_payload rq;; framed p) = Ok w /\ l_out (happens ev l) = l_out l ++ [(f, w)] /\
        Connection.c_written (l_conn (happens ev l)) = Connection.c_written (l_conn l) ++ [w]).
    { assert (O : (exists rq wr, ev = Connection.EvSend rq wr) \/ forall rq wr, ev <> Connection.EvSend rq wr) by (destruct ev; eauto; right; discriminate). destruct O as [(rq & wr & ->)|O].
      - cbn [Stack.happens l_out l_conn Connection.step]. destruct (written_send rq wr (l_conn l)) as [W|(f & w & SE & PW & W)].
        + left. split; [|exact W]. destruct (Connection.conn_send rq wr (l_conn l)) as [[f|e] st']; [|reflexivity]. cbn [snd] in W. rewrite W, skipn_all, app_nil_r. reflexivity.
        + right. exists rq, wr, f, w. split; [reflexivity|]. split; [exact SE|]. split; [exact PW|]. split; [|exact W]. rewrite SE, W. rewrite skipn_app, skipn_all, Nat.sub_diag. reflexivity.
      - left. split; [|cbn [Stack.happens l_conn]; now apply written_step]. destruct ev; try reflexivity. now destruct (O rq wr). }
    constructor.
    - rewrite IS. apply ConnProofs.inv_step_again; [exact A| |].
      + intros f1 rq1 f2 rq2 H1 H2 EQ. apply in_app_iff in H1, H2. destruct H1 as [H1|H1], H2 as [H2|H2].
        * eapply (i_id _ _ _ _ A); eassumption.
        * destruct (NEW _ _ H2) as (_ & X & _). now apply (X f1).
        * destruct (NEW _ _ H1) as (_ & X & _). symmetry. now apply (X f2).
        * eapply ONE; eassumption.
      + destruct ev; try exact Logic.I. cbn [id_free]. right. right. destruct (dget (Connection.c_pending (l_conn l)) (Connection.rq_corr rq)) as [g|] eqn:PG; [|reflexivity]. exfalso.
        destruct (i_p _ _ _ _ A _ _ PG) as (NC & obj & IO & CO). destruct (FR _ _ eq_refl) as (_ & X & _). apply NC. now apply (X g obj).
    - rewrite IS. intros f rq H. apply in_app_iff in H as [H|H]; [specialize (B _ _ H); lia|]. apply NEW in H. apply H.
    - intros f id rq H. destruct (D f id rq H) as (obj & H1 & H2). exists obj. split; [|exact H2]. rewrite IS. apply in_app_iff. now left.
    - intros (more & EM). assert (EI : l_in (happens ev l) = arrived ev (l_conn l) (l_in l)) by (destruct ev; reflexivity). rewrite EI in EM |- *. apply (reads_step C depth neg_read (frames n) (OK n)) with (more := more); [|exact EM].
      apply E. destruct ev; cbn [arrived] in EM; eauto. destruct (Connection.c_closed (l_conn l)); eauto. exists (b ++ more). now rewrite EM, <- app_assoc.
    - destruct OUT as [(-> & ->)|(rq & wr & f & w & _ & _ & _ & -> & ->)]; [exact WA|]. rewrite map_app, WA. reflexivity.
    - rewrite IS. intros f w H. destruct OUT as [(EO & _)|(rq & wr & f0 & w0 & -> & SE & PW & EO & _)]; rewrite EO in H.
      + destruct (WO f w H) as (obj & H1 & H2). exists obj. split; [apply in_app_iff; now left|exact H2].
      + apply in_app_iff in H as [H|[H|[]]]; [destruct (WO f w H) as (obj & H1 & H2); exists obj; split; [apply in_app_iff; now left|exact H2]|]. injection H as <- <-. exists rq. split; [|split; [eapply FR; [reflexivity|exact PW]|exact PW]].
        apply in_app_iff. right. cbn [issued1]. rewrite SE. now left.
  Qed.
End Links.

(** ** the whole stack *)
Section Whole.
  Context {V : Type}.
  Variable cfg : config V.
  Variable C : codec.
  Variable depth : nat.
  Variable neg_read : Z -> bytes -> bytes * bytes.
  Variable frames : nat -> list (Z * bytes).
  Variable OK : forall n, Forall frame_ok (frames n).
  Notation happens := (happens C depth neg_read).
  Notation send_to := (@send_to V C depth neg_read).
  Notation spiece := (@Stack.piece V C depth neg_read).
  Notation sstep := (sstep cfg C depth neg_read).
  Notation srun := (srun cfg C depth neg_read).
  Notation link_ok := (link_ok C depth frames).
  Implicit Types S : stack V.

  Lemma request_object_new last rq obj last' : request_object last rq = Ok (obj, last') -> last' = last + 1 /\ Connection.rq_corr obj = last' /\ Connection.rq_api obj = api_of rq.
  Proof.
    unfold request_object, api_of. destruct (request_kwargs rq) as [[api fs] kw]. cbn [fst]. unfold Connection.request_of, request_init, generate_correlation_id. intros H.
    destruct (part_init (map fst fs) kw []) as [p|e]; cbn [bind] in H; [|discriminate H]. destruct (dindex api_keys api) as [key|e]; cbn [bind] in H; [|discriminate H]. cbn in H. injection H as <- <-. cbn. auto.
  Qed.
  Lemma request_object_wire last rq obj last' : request_object last rq = Ok (obj, last') -> (p <- Connection.rq_payload obj;; framed p) = request_wire last rq.
  Proof.
    unfold request_object, request_wire. destruct (request_kwargs rq) as [[api fs] kw]. unfold Connection.request_of. destruct (request_init api fs kw last) as [[attrs l]|e]; cbn [bind]; [|discriminate]. intros H. injection H as <- <-. reflexivity.
  Qed.
  Lemma request_carries last rq w : plain_request rq -> request_wire last rq = Ok w -> carries w (last + 1).
  Proof. intros PL E. destruct (written_kafka rq last w PL E) as (_ & FL & ->). exists (api_of rq), (kafka_api rq). eexists. split; [destruct rq; cbn; tauto|]. split; [exact FL|reflexivity]. Qed.
  Lemma put_same n l ls : put n l ls n = l.
  Proof. unfold put. now rewrite Nat.eqb_refl. Qed.
  Lemma put_other n l ls m : m <> n -> put n l ls m = ls m.
  Proof. intros H. unfold put. destruct (Nat.eqb_spec m n); congruence. Qed.

  Definition links_ok (S : stack V) : Prop := forall n, link_ok n (k_link S n) (k_last S).
  Definition links_le (S S' : stack V) : Prop := k_last S <= k_last S' /\ forall n, link_le (k_link S n) (k_link S' n).
  Lemma links_le_refl S : links_le S S.
  Proof. split; [lia|]. intros n. apply link_le_refl. Qed.
  Lemma links_le_trans a b c : links_le a b -> links_le b c -> links_le a c.
  Proof. intros (A & A') (B & B'). split; [lia|]. intros n. eapply link_le_trans; eauto. Qed.

  Lemma completed_le l l' f : link_le l l' -> In f (completed (l_conn l)) -> In f (completed (l_conn l')).
  Proof. intros (_ & _ & d & D) H. unfold completed in *. rewrite D, map_app. apply in_app_iff. now left. Qed.
  (** the requests made with the object [id] of [rq]: all answered, but for those in [exc] *)
  Definition all_done (id : Z) (rq : request) (S : stack V) (exc : nat -> nat -> Prop) : Prop :=
    exists obj, request_object (id - 1) rq = Ok (obj, id) /\ forall n f obj', In (f, obj') (l_iss (k_link S n)) -> Connection.rq_corr obj' = id -> obj' = obj /\ (In f (completed (l_conn (k_link S n))) \/ exc n f).

  (** one request sent *)
  Lemma send_to_spec again wr i b rq S : links_ok S -> plain_request rq ->
    (again = true -> forall id, dget (k_held S) i = Some id -> id <= k_last S /\ all_done id rq S (fun _ _ => False)) -> let S' := send_to again wr i (b, rq) S in
    k_cons S' = k_cons S /\ links_ok S' /\ links_le S S' /\
    ((k_wait S' = k_wait S /\ k_held S' = k_held S /\ forall n, k_link S' n = k_link S n) \/
     exists n f obj id, k_wait S' = (i, b, (n, f)) :: k_wait S /\ asked_or_failed (k_link S' n) f rq /\ k_held S' = dset (k_held S) i id /\ request_object (id - 1) rq = Ok (obj, id) /\ id <= k_last S' /\
       (k_last S < id \/ (again = true /\ dget (k_held S) i = Some id)) /\ Connection.rq_corr obj = id /\
       forall m f' obj', In (f', obj') (l_iss (k_link S' m)) -> In (f', obj') (l_iss (k_link S m)) \/ (m = n /\ f' = f /\ obj' = obj)).
  Proof.
    intros L PL RE. unfold Stack.send_to.
    destruct (match (if again then dget (k_held S) i else None) with Some id => (id - 1, k_last S) | None => (k_last S, k_last S + 1) end) as [before last'] eqn:BL.
    assert (NOP : k_cons S = k_cons S /\ links_ok S /\ links_le S S /\ ((k_wait S = k_wait S /\ k_held S = k_held S /\ forall n, k_link S n = k_link S n) \/ exists n f obj id, k_wait S = (i, b, (n, f)) :: k_wait S /\ asked_or_failed (k_link S n) f rq /\ k_held S = dset (k_held S) i id /\ request_object (id - 1) rq = Ok (obj, id) /\ id <= k_last S /\
       (k_last S < id \/ (again = true /\ dget (k_held S) i = Some id)) /\ Connection.rq_corr obj = id /\
       forall m f' obj', In (f', obj') (l_iss (k_link S m)) -> In (f', obj') (l_iss (k_link S m)) \/ (m = n /\ f' = f /\ obj' = obj))) by (split; [reflexivity|]; split; [exact L|]; split; [apply links_le_refl|left; auto]).
    destruct (dget (k_conns (c_cluster (k_cons S))) b) as [cn|]; [|exact NOP].
    destruct (request_object before rq) as [[obj id]|e] eqn:RO; [|exact NOP]. pose proof (request_object_wire _ _ _ _ RO) as RW. destruct (request_object_new _ _ _ _ RO) as (EID & CO & AP).
    assert (CASE : k_last S <= last' /\ id <= last' /\ ((k_last S < id /\ last' = k_last S + 1) \/ (again = true /\ dget (k_held S) i = Some id /\ forall n f obj', In (f, obj') (l_iss (k_link S n)) -> Connection.rq_corr obj' = id -> obj' = obj /\ In f (completed (l_conn (k_link S n)))))).
    { destruct again; [destruct (dget (k_held S) i) as [id0|] eqn:HI|]; injection BL as <- <-.
      - destruct (RE eq_refl id0 eq_refl) as (LE & obj0 & RO0 & AD). assert (id = id0) as -> by lia. rewrite RO in RO0. injection RO0 as <-. split; [lia|]. split; [exact LE|]. right. split; [reflexivity|]. split; [reflexivity|]. intros n f obj' H E. destruct (AD n f obj' H E) as [X [Y|[]]]. auto.
      - split; [lia|]. split; [lia|]. left. lia.
      - split; [lia|]. split; [lia|]. left. lia. }
    destruct CASE as (LL & LI & CASE). clear BL NOP.
    set (n := cc_id cn). destruct (Connection.conn_send obj (wr b) (l_conn (k_link S n))) as [[f|e] st'] eqn:SE.
    2:{ cbn [k_cons k_last k_link k_wait k_held]. split; [reflexivity|]. split; [|split; [|left; auto]]; [|split; [exact LL|intros m; apply link_le_refl]]. intros m. cbn. eapply (link_ok_last C depth neg_read frames OK); [|apply L]. exact LL. }
    set (l := k_link S n) in *. set (l' := happens (Connection.EvSend obj (wr b)) l).
    assert (IS : l_iss l' = l_iss l ++ [(f, obj)]) by (unfold l'; cbn [Stack.happens l_iss]; now rewrite SE).
    assert (LO : link_ok n l' last').
    { eapply link_ok_happens; [exact OK|apply L|exact LL|]. intros rq' wr' H. injection H as <- <-. split; [lia|]. split; [|intros w E; rewrite RW in E; rewrite CO, EID; eapply request_carries; eassumption].
      intros f' obj' H E. destruct CASE as [(LT & _)|(_ & _ & AD)]; [apply (lk_ids _ _ _ _ _ _ (L n)) in H; lia|]. apply AD; [exact H|congruence]. }
    set (l2 := Link (l_conn l') (l_in l') (l_iss l') (if Connection.c_closing (l_conn l) then l_asked l' else l_asked l' ++ [(f, (id, rq))]) (l_out l')).
    assert (LO2 : link_ok n l2 last').
    { destruct LO as [A B D E WA WO]. constructor; [exact A|exact B| |exact E|exact WA|exact WO].
      unfold l2. cbn [l_asked l_iss]. destruct (Connection.c_closing (l_conn l)); [exact D|]. intros f' id' rq' H. apply in_app_iff in H as [H|[H|[]]]; [now apply D|]. injection H as <- <- <-.
      exists obj. rewrite IS. split; [apply in_app_iff; right; now left|]. replace (id - 1) with before by lia. auto. }
    assert (LE2 : link_le l l2).
    { eapply link_le_trans; [apply (happens_le C depth neg_read (Connection.EvSend obj (wr b)))|]. fold l'. split; [exists []; now rewrite app_nil_r|]. split; [|exists []; now rewrite app_nil_r]. unfold l2. cbn [l_asked]. intros a H. destruct (Connection.c_closing (l_conn l)); [exact H|apply in_app_iff; now left]. }
    cbn [k_cons k_last k_link k_wait k_held]. split; [reflexivity|]. split; [|split].
    - intros m. cbn [k_link k_last]. destruct (Nat.eq_dec m n) as [->|N]; [rewrite put_same; exact LO2|rewrite put_other by exact N]. eapply (link_ok_last C depth neg_read frames OK); [|apply L]. exact LL.
    - split; [exact LL|]. intros m. cbn [k_link]. destruct (Nat.eq_dec m n) as [->|N]; [rewrite put_same; exact LE2|rewrite put_other by exact N; apply link_le_refl].
    - right. exists n, f, obj, id. split; [reflexivity|]. split.
      { rewrite put_same. unfold asked_or_failed, l2, l'. cbn [l_asked l_conn Stack.happens]. cbn [Connection.step]. rewrite SE. cbn [snd].
        destruct (Connection.c_closing (l_conn l)) eqn:CL; [|left; exists id; apply in_app_iff; right; now left].
        right. unfold Connection.conn_send in SE. rewrite CL in SE. injection SE as <- <-. cbn [Connection.c_done]. eexists. apply in_app_iff. right. now left. }
      split; [reflexivity|]. split; [replace (id - 1) with before by lia; exact RO|]. split; [exact LI|]. split; [destruct CASE as [(X & _)|(X & Y & _)]; auto|]. split; [exact CO|].
      intros m f' obj' H. destruct (Nat.eq_dec m n) as [->|N]; [rewrite put_same in H|rewrite put_other in H by exact N; now left]. unfold l2 in H. cbn [l_iss] in H. rewrite IS in H. apply in_app_iff in H as [H|[H|[]]]; [now left|]. injection H as <- <-. auto.
  Qed.
  (** all requests of a send() *)
  Definition sent_ok (i : Z) (w : list (Z * request)) (S0 S : stack V) : Prop := forall e, In e (k_wait S) -> In e (k_wait S0) \/ exists b rq n f, e = (i, b, (n, f)) /\ In (b, rq) w /\ asked_or_failed (k_link S n) f rq.
  (** what call [i] sent is no one else's *)
  Record only_of (again : bool) (i : Z) (S S' : stack V) : Prop := {
    oo_held : forall j, j <> i -> dget (k_held S') j = dget (k_held S) j;
    oo_mine : forall id, dget (k_held S') i = Some id -> dget (k_held S) i = Some id \/ k_last S < id <= k_last S';
    oo_iss : forall m f obj, In (f, obj) (l_iss (k_link S' m)) -> In (f, obj) (l_iss (k_link S m)) \/ k_last S < Connection.rq_corr obj \/ (again = true /\ dget (k_held S) i = Some (Connection.rq_corr obj));
    oo_wait : forall j b, j <> i -> find (is_wait j b) (k_wait S') = find (is_wait j b) (k_wait S);
    oo_in : forall j b nf, j <> i -> In (j, b, nf) (k_wait S') -> In (j, b, nf) (k_wait S) }.
  Lemma only_refl a i S : only_of a i S S.
  Proof. constructor; auto. Qed.
  Lemma only_trans i S S' S'' : k_last S <= k_last S' -> k_last S' <= k_last S'' -> only_of false i S S' -> only_of false i S' S'' -> only_of false i S S''.
  Proof.
    intros L L' [A1 A2 A3 A4 A5] [B1 B2 B3 B4 B5]. constructor.
    - intros j N. rewrite B1, A1; auto.
    - intros id H. destruct (B2 _ H) as [X|X]; [destruct (A2 _ X) as [Y|Y]; [now left|right; lia]|right; lia].
    - intros m f obj H. destruct (B3 _ _ _ H) as [X|[X|(X & _)]]; [now apply A3|right; left; lia|discriminate X].
    - intros j b N. rewrite B4, A4; auto.
    - auto.
  Qed.
  Lemma send_to_only again wr i b rq S : links_ok S -> plain_request rq ->
    (again = true -> forall id, dget (k_held S) i = Some id -> id <= k_last S /\ all_done id rq S (fun _ _ => False)) -> only_of again i S (send_to again wr i (b, rq) S).
  Proof.
    intros L PL RE. destruct (send_to_spec again wr i b rq S L PL RE) as (_ & _ & LE & [(E1 & E2 & E3)|(n & f & obj & id & E1 & _ & E2 & RO & LI & CA & CO & IS)]); cbv zeta in *.
    - constructor; [intros j _; now rewrite E2|intros id; rewrite E2; now left|intros m f obj; rewrite E3; now left|intros j b' _; now rewrite E1|intros j b' nf _; now rewrite E1].
    - constructor.
      + intros j N. rewrite E2. now apply dget_dset_other.
      + intros id' H. rewrite E2, dget_dset_same in H. injection H as <-. destruct CA as [CA|(_ & CA)]; [right; lia|now left].
      + intros m f' obj' H. destruct (IS _ _ _ H) as [X|(_ & _ & ->)]; [now left|]. right. destruct CA as [CA|(AG & CA)]; [left; lia|right; now rewrite CO].
      + intros j b' N. rewrite E1. cbn [find is_wait fst snd]. unfold is_wait at 1. cbn [fst snd]. destruct (Z.eqb_spec i j); [congruence|]. reflexivity.
      + intros j b' nf N H. rewrite E1 in H. destruct H as [H|H]; [congruence|exact H].
  Qed.
  Lemma send_all wr i w : (forall b rq, In (b, rq) w -> plain_request rq) -> forall S, links_ok S -> let S' := fold_left (fun S brq => send_to false wr i brq S) w S in
    k_cons S' = k_cons S /\ links_ok S' /\ links_le S S' /\ sent_ok i w S S' /\ only_of false i S S'.
  Proof.
    induction w as [|[b rq] w IH]; intros PL S L; cbn [fold_left].
    - split; [reflexivity|]. split; [exact L|]. split; [apply links_le_refl|]. split; [intros e H; now left|]. apply only_refl.
    - destruct (send_to_spec false wr i b rq S L (PL _ _ (or_introl eq_refl)) ltac:(discriminate)) as (A1 & A2 & A3 & A4). pose proof (send_to_only false wr i b rq S L (PL _ _ (or_introl eq_refl)) ltac:(discriminate)) as A5.
      destruct (IH (fun b' rq' H => PL b' rq' (or_intror H)) _ A2) as (B1 & B2 & B3 & B4 & B5). cbv zeta in *. split; [congruence|]. split; [exact B2|]. split; [eapply links_le_trans; eauto|]. split.
      + intros e H. destruct (B4 e H) as [H'|(b' & rq' & n & f & -> & I & F)]; [|right; exists b', rq', n, f; cbn; auto].
        destruct A4 as [(A4 & _)|(n & f & obj & id & A4 & F & _)]; rewrite A4 in H'; [now left|]. destruct H' as [<-|H']; [|now left]. right. exists b, rq, n, f. cbn. split; [reflexivity|]. split; [now left|]. eapply aof_le; [apply B3|exact F].
      + eapply only_trans; [apply A3|apply B3|exact A5|exact B5].
  Qed.
  Definition waits_ok (S : stack V) : Prop := forall i b n f rq, In (i, b, (n, f)) (k_wait S) -> waits_for (k_cons S) i b rq -> asked_or_failed (k_link S n) f rq.
  (** the request objects calls may send again *)
  Definition awaited (p : pc V) (rq : request) (i : Z) (S : stack V) (n f : nat) : Prop := exists k b rs, p = PSend k [(b, rq)] rs /\ find (is_wait i b) (k_wait S) = Some (i, b, (n, f)).
  Record held_ok (S : stack V) : Prop := {
    ho_nd : NoDup (dkeys (k_held S));
    ho_le : forall i id, dget (k_held S) i = Some id -> id <= k_last S;
    ho_inj : forall i j id, dget (k_held S) i = Some id -> dget (k_held S) j = Some id -> i = j;
    ho_done : forall i o p rq id, dget (c_calls (k_cons S)) i = Some (o, p) -> held_rq cfg p = Some rq -> dget (k_held S) i = Some id -> all_done id rq S (awaited p rq i S);
    ho_one : forall i o k b rs rq b' nf, dget (c_calls (k_cons S)) i = Some (o, PSend k [(b, rq)] rs) -> cont_rq cfg k = Some rq -> In (i, b', nf) (k_wait S) -> b' = b }.
  Record stack_inv (S : stack V) : Prop := { si_inv : ConsumerRuns.inv cfg (k_cons S); si_plain : plain (k_cons S); si_links : links_ok S; si_waits : waits_ok S; si_single : single cfg (k_cons S); si_held : held_ok S }.

  Lemma with_flags_step S : with_flags S = cstep cfg (k_cons S) (Cluster_ (flags (k_link S) (c_cluster (k_cons S)))).
  Proof. reflexivity. Qed.
  Lemma inv_flags S : ConsumerRuns.inv cfg (k_cons S) -> ConsumerRuns.inv cfg (with_flags S).
  Proof. intros H. rewrite with_flags_step. now apply ConsumerRuns.inv_step. Qed.
  Definition calls_same_but (i : Z) (s s' : consumer V) : Prop := forall j, j <> i -> dget (c_calls s') j = dget (c_calls s) j.
  Definition label_of (l : label) (i : Z) : Prop := match l with Call j _ | Arrive j _ _ | Healed j _ => j = i | _ => True end.
  Lemma step_others s l i : ConsumerRuns.inv cfg s -> label_of l i -> calls_same_but i s (cstep cfg s l).
  Proof.
    intros I LO j N. destruct (step_cases cfg s l I) as [(i' & o & look & s1 & ns & ex & A)|H].
    - assert (I' : ConsumerRuns.inv cfg (cstep cfg s l)) by now apply ConsumerRuns.inv_step. pose proof (acts_before _ _ _ _ _ _ _ _ _ A) as (B & _). destruct A. rewrite ac_step.
      assert (CC : c_calls (snd ns) = c_calls s) by (rewrite <- B; apply ac_moves). assert (ND : NoDup (dkeys (c_calls (snd ns)))) by (rewrite CC; apply I).
      destruct (continue_calls i' o ns j ND) as [_ ->]. assert (i' = i) as -> by (destruct ac_from as [(-> & _)|[(b & r & k & w & rs & rq & -> & _)|[(r & k & rs & -> & _)|(r & t & -> & _)]]]; exact LO).
      rewrite CC. destruct (Z.eqb_spec j i); congruence.
    - destruct H as [(-> & _)|[(k & _ & ->)|[(_ & ->)|(g & fn & ac & name & ev & _ & _ & ->)]]]; reflexivity.
  Qed.
  Lemma waits_same (s s' : consumer V) i b rq : dget (c_calls s') i = dget (c_calls s) i -> waits_for s' i b rq -> waits_for s i b rq.
  Proof. intros E (o & k & w & rs & A & B). rewrite E in A. exists o, k, w, rs. auto. Qed.

  (** the futures of other calls are left alone *)
  Lemma all_done_mono id rq S S' (exc exc' : nat -> nat -> Prop) : (forall n, link_le (k_link S n) (k_link S' n)) -> (forall m f obj, In (f, obj) (l_iss (k_link S' m)) -> Connection.rq_corr obj = id -> In (f, obj) (l_iss (k_link S m))) ->
    (forall n f, exc n f -> exc' n f) -> all_done id rq S exc -> all_done id rq S' exc'.
  Proof.
    intros LE IS EX (obj & RO & AD). exists obj. split; [exact RO|]. intros n f obj' H E. destruct (AD n f obj' (IS _ _ _ H E) E) as [X [Y|Y]]; split; auto. left. eapply completed_le; [apply LE|exact Y].
  Qed.
  Definition reuse (i : Z) (s2 : consumer V) (S : stack V) : Prop :=
    forall o p rq id, dget (c_calls s2) i = Some (o, p) -> held_rq cfg p = Some rq -> repeats i (with_flags S) s2 = true -> dget (k_held S) i = Some id -> all_done id rq S (fun _ _ => False).
  Lemma find_not_of i (ws : list (Z * Z * (nat * nat))) j b : j <> i -> find (is_wait j b) (filter (fun w => negb (waits_of i w)) ws) = find (is_wait j b) ws.
  Proof.
    intros N. induction ws as [|w ws IH]; [reflexivity|]. cbn [filter find]. unfold waits_of at 1. destruct (Z.eqb_spec (fst (fst w)) i) as [E|E]; cbn [negb find].
    - rewrite IH. unfold is_wait. destruct (Z.eqb_spec (fst (fst w)) j); [congruence|]. reflexivity.
    - rewrite IH. reflexivity.
  Qed.
  Lemma find_not_wait i b (ws : list (Z * Z * (nat * nat))) j b' : ~ (j = i /\ b' = b) -> find (is_wait j b') (filter (fun w => negb (is_wait i b w)) ws) = find (is_wait j b') ws.
  Proof.
    intros N. induction ws as [|w ws IH]; [reflexivity|]. cbn [filter find]. destruct (is_wait i b w) eqn:IW; cbn [negb find]; rewrite IH; [|reflexivity].
    destruct (is_wait j b' w) eqn:JW; [|reflexivity]. exfalso. unfold is_wait in *. apply andb_true_iff in IW as [A B]. apply andb_true_iff in JW as [A' B']. apply Z.eqb_eq in A, B, A', B'. apply N. split; congruence.
  Qed.

  Lemma piece_ok wr i s2 S : stack_inv S -> ConsumerRuns.inv cfg s2 -> plain s2 -> single cfg s2 -> reuse i s2 S ->
    (forall b rq, In (b, rq) (skipn (length (c_wire (with_flags S))) (c_wire s2)) -> plain_request rq) -> calls_same_but i (k_cons S) s2 -> let S' := spiece wr i (with_flags S) s2 S in
    k_cons S' = s2 /\ stack_inv S' /\ links_le S S'.
  Proof.
    intros [I PL L W SG [ND HL HI HD HO]] I2 PL2 SG2 RU PW SB. unfold Stack.piece. set (again := repeats i (with_flags S) s2) in *. set (S1 := Stack s2 (k_last S) (k_link S) _ _). assert (L1 : links_ok S1) by exact L.
    assert (OLD : forall j b n f rq, In (j, b, (n, f)) (k_wait S1) -> waits_for s2 j b rq -> asked_or_failed (k_link S n) f rq).
    { intros j b n f rq H H'. apply filter_In in H as [H1 H2]. unfold waits_of in H2. cbn [fst] in H2. apply negb_true_iff, Z.eqb_neq in H2. eapply W; [exact H1|]. eapply waits_same; [apply SB, H2|exact H']. }
    assert (NI : forall b nf, ~ In (i, b, nf) (k_wait S1)) by (intros b nf H; apply filter_In in H as [_ H]; unfold waits_of in H; cbn [fst] in H; rewrite Z.eqb_refl in H; discriminate H).
    (* what is held in S1 *)
    assert (ND1 : NoDup (dkeys (k_held S1))) by (cbn [k_held S1]; destruct again; [exact ND|now apply nodup_ddel]).
    assert (H1S : forall j id, dget (k_held S1) j = Some id -> dget (k_held S) j = Some id).
    { intros j id. cbn [k_held S1]. destruct again; [auto|]. destruct (Z.eq_dec j i) as [->|N]; [rewrite dget_ddel_same by exact ND; discriminate|now rewrite dget_ddel_other by exact N]. }
    assert (H1I : again = false -> dget (k_held S1) i = None) by (intros E; cbn [k_held S1]; rewrite E; now apply dget_ddel_same).
    (* the invariant, once the requests are out *)
    assert (FIN : forall S' a, k_cons S' = s2 -> links_le S1 S' -> only_of a i S1 S' -> NoDup (dkeys (k_held S')) ->
      (forall o p rq id, dget (c_calls s2) i = Some (o, p) -> held_rq cfg p = Some rq -> dget (k_held S') i = Some id -> all_done id rq S' (awaited p rq i S')) ->
      (forall o k b rs rq b' nf, dget (c_calls s2) i = Some (o, PSend k [(b, rq)] rs) -> cont_rq cfg k = Some rq -> In (i, b', nf) (k_wait S') -> b' = b) -> held_ok S').
    { intros S' a EC [LK LE] [OH OM OI OW ON] NDS MINE MONE.
      assert (ALL : forall j id, dget (k_held S') j = Some id -> dget (k_held S) j = Some id \/ (j = i /\ k_last S < id <= k_last S')).
      { intros j id H. destruct (Z.eq_dec j i) as [->|N]; [destruct (OM id H) as [X|X]; [left; now apply H1S|right; split; [reflexivity|exact X]]|]. rewrite OH in H by exact N. left. now apply H1S. }
      cbn [k_last S1] in LK. constructor.
      - exact NDS.
      - intros j id H. destruct (ALL _ _ H) as [X|[_ X]]; [apply HL in X; lia|lia].
      - intros j j' id H H'. destruct (ALL _ _ H) as [X|[E X]], (ALL _ _ H') as [Y|[E' Y]].
        + eapply HI; eassumption.
        + apply HL in X. lia.
        + apply HL in Y. lia.
        + congruence.
      - intros j o p rq id D HR HJ. rewrite EC in D. destruct (Z.eq_dec j i) as [->|N]; [now apply (MINE o p)|]. rewrite OH in HJ by exact N. pose proof (H1S _ _ HJ) as HS. assert (D0 : dget (c_calls (k_cons S)) j = Some (o, p)) by (rewrite <- D; symmetry; now apply SB).
        refine (all_done_mono id rq S S' _ _ LE _ _ (HD j o p rq id D0 HR HS)).
        + intros m f obj H E. destruct (OI _ _ _ H) as [X|[X|(_ & X)]]; [exact X|cbn [k_last S1] in X; apply HL in HS; lia|]. exfalso. rewrite E in X. apply H1S in X. apply N. eapply HI; eassumption.
        + intros n f (k & b & rs & E & F). exists k, b, rs. split; [exact E|]. rewrite OW by exact N. cbn [k_wait S1]. now rewrite find_not_of.
      - intros j o k b rs rq b' nf D K H. rewrite EC in D. destruct (Z.eq_dec j i) as [->|N]; [eapply MONE; eassumption|]. apply ON in H; [|exact N]. cbn [k_wait S1] in H. apply filter_In in H as [H _]. rewrite SB in D by exact N. eapply HO; eassumption. }
    assert (OTHER : forall w S2, (forall b rq, In (b, rq) w -> plain_request rq) -> (forall o k w' rs, dget (c_calls s2) i <> Some (o, PSend k w' rs)) -> S2 = fold_left (fun S brq => send_to false wr i brq S) w S1 ->
      let S' := Stack (k_cons S2) (k_last S2) (k_link S2) (k_wait S1) (k_held S1) in k_cons S' = s2 /\ stack_inv S' /\ links_le S S').
    { intros w S2 PO NS ->. destruct (send_all wr i w PO S1 L1) as (A1 & A2 & A3 & A4 & A5). cbv zeta in *. cbn [k_cons]. split; [exact A1|]. split; [|exact A3]. constructor; cbn [k_cons k_link k_wait]; [now rewrite A1|now rewrite A1|exact A2| |now rewrite A1|].
      - intros j b n f rq H H'. cbn [k_cons k_wait k_link] in *. rewrite A1 in H'. eapply aof_le; [apply A3|]. eapply OLD; eauto.
      - apply (FIN _ false); [exact A1|exact A3| |exact ND1| |].
        + destruct A5 as [B1 B2 B3 B4 B5]. constructor; cbn [k_held k_wait k_link k_last]; auto.
        + cbn [k_held]. intros o p rq id D HR HJ. destruct again eqn:AG; [|rewrite H1I in HJ by reflexivity; discriminate HJ]. destruct A5 as [B1 B2 B3 B4 B5]. cbn [k_held S1] in HJ.
          refine (all_done_mono id rq S _ _ _ (fun n => proj2 A3 n) _ _ (RU o p rq id D HR AG HJ)); [|intros n f []]. cbn [k_link]. intros m f obj H E. destruct (B3 _ _ _ H) as [X|[X|(X & _)]]; [exact X|apply HL in HJ; cbn [k_last S1] in X; lia|discriminate X].
        + intros o k b rs rq b' nf D. exfalso. eapply NS, D. }
    destruct (dget (c_calls s2) i) as [[o [k w rs|k rs|t]]|] eqn:D; try (apply OTHER with (w := skipn (length (c_wire (with_flags S))) (c_wire s2)); [exact PW|congruence|reflexivity]). clear OTHER.
    assert (WO : forall S', k_cons S' = s2 -> links_le S1 S' -> sent_ok i w S1 S' -> waits_ok S').
    { intros S' A1 A3 A4 j b n f rq H H'. rewrite A1 in H'. destruct (A4 _ H) as [H1|(b' & rq' & n' & f' & E & IN & F)].
      - eapply aof_le; [apply A3|]. eapply OLD; eauto.
      - injection E as -> <- <- <-. destruct H' as (o' & k' & w' & rs' & D' & G). rewrite D in D'. injection D' as <- <- <- <-. destruct I2 as [_ FI]. destruct (FI _ _ _ D) as [_ WF]. destruct WF as [_ NDW _ _ _ _].
        assert (rq' = rq) as -> by (rewrite (In_dget_nodup w b rq' NDW IN) in G; congruence). exact F. }
    destruct (cont_rq cfg k) as [rq|] eqn:K.
    - (* a request that may be sent again *)
      destruct (SG2 _ _ _ _ _ _ D K) as (b & ->). cbn [fold_left]. assert (PR : plain_request rq) by (apply (PL2 _ _ _ D b); now left).
      assert (RE : again = true -> forall id, dget (k_held S1) i = Some id -> id <= k_last S1 /\ all_done id rq S1 (fun _ _ => False)).
      { intros AG id H. apply H1S in H. split; [now apply HL in H|]. exact (RU o _ rq id D K AG H). }
      destruct (send_to_spec again wr i b rq S1 L1 PR RE) as (A1 & A2 & A3 & A4). pose proof (send_to_only again wr i b rq S1 L1 PR RE) as A5. cbv zeta in *. set (S' := send_to again wr i (b, rq) S1) in *.
      assert (SO : sent_ok i [(b, rq)] S1 S').
      { intros e H. destruct A4 as [(A4 & _)|(n & f & obj & id & A4 & F & _)]; rewrite A4 in H; [now left|]. destruct H as [<-|H]; [|now left]. right. exists b, rq, n, f. cbn. auto. }
      split; [exact A1|]. split; [|exact A3]. constructor; [now rewrite A1|now rewrite A1|exact A2|now apply WO|now rewrite A1|]. apply (FIN _ again); [exact A1|exact A3|exact A5| | |].
      + destruct A4 as [(_ & E & _)|(n & f & obj & id & _ & _ & E & _)]; rewrite E; [exact ND1|now apply nodup_dset].
      + intros o' p rq' id D' HR HJ. injection D' as <- <-. cbn [held_rq] in HR. rewrite K in HR. injection HR as <-. destruct A4 as [(EW & EH & EL)|(n & f & obj & id' & EW & _ & EH & RO & LI & CA & CO & IS)].
        * rewrite EH in HJ. destruct again eqn:AG; [|rewrite H1I in HJ by reflexivity; discriminate HJ]. destruct (RE eq_refl id HJ) as [_ AD]. refine (all_done_mono id rq S1 S' _ _ (proj2 A3) _ _ AD); [|intros n f []]. intros m f obj H _. now rewrite EL in H.
        * rewrite EH, dget_dset_same in HJ. injection HJ as ->. exists obj. split; [exact RO|]. intros m f' obj' H E. destruct (IS _ _ _ H) as [X|(-> & -> & ->)].
          -- destruct CA as [CA|(AG & CA)]; [exfalso; apply (lk_ids _ _ _ _ _ _ (L1 m)) in X; lia|]. destruct (RE AG id CA) as (_ & obj0 & RO0 & AD). rewrite RO in RO0. injection RO0 as <-. destruct (AD _ _ _ X E) as [Y [Z|[]]]. split; [exact Y|]. left. eapply completed_le; [apply A3|exact Z].
          -- split; [reflexivity|]. right. exists k, b, rs. split; [reflexivity|]. rewrite EW. cbn [find]. unfold is_wait. cbn [fst snd]. now rewrite !Z.eqb_refl.
      + intros o' k' b' rs' rq' b'' nf D' _ H. injection D' as <- <- <- <- <-. destruct A4 as [(EW & _)|(n & f & obj & id' & EW & _)]; rewrite EW in H; [destruct (NI _ _ H)|]. destruct H as [H|H]; [congruence|destruct (NI _ _ H)].
    - assert (AG : again = false). { unfold again, repeats. rewrite D. destruct (dget (c_calls (with_flags S)) i) as [[o1 p1]|]; [|reflexivity]. apply andb_false_iff. right. destruct I2 as [_ FI]. destruct (held (PSend k w rs)) eqn:HE; [|reflexivity]. apply (held_some cfg o (PSend k w rs) (FI _ _ _ D)) in HE as (rq & E). cbn [held_rq] in E. congruence. }
      rewrite AG. destruct (send_all wr i w (PL2 _ _ _ D) S1 L1) as (A1 & A2 & A3 & A4 & A5). cbv zeta in *. set (S' := fold_left _ w S1) in *. split; [exact A1|]. split; [|exact A3]. constructor; [now rewrite A1|now rewrite A1|exact A2|now apply WO|now rewrite A1|]. apply (FIN _ false); [exact A1|exact A3|exact A5| | |].
      + clear -ND1. subst S'. generalize dependent S1. induction w as [|brq w IH]; intros S1 ND1; [exact ND1|]. cbn [fold_left]. apply IH. destruct brq as [b rq]. unfold Stack.send_to. cbv iota zeta. destruct (dget _ b) as [cn|]; [|exact ND1]. destruct (request_object _ rq) as [[obj id]|e]; [|exact ND1].
        destruct (Connection.conn_send obj _ _) as [[f|e] st']; cbn [k_held]; [now apply nodup_dset|exact ND1].
      + intros o' p rq' id D' HR. injection D' as <- <-. cbn [held_rq] in HR. congruence.
      + intros o' k' b' rs' rq' b'' nf D' K'. injection D' as <- <- E <-. congruence.
  Qed.

  Lemma plain_ok s2 wait' S : stack_inv S -> ConsumerRuns.inv cfg s2 -> plain s2 -> single cfg s2 -> (forall e, In e wait' -> In e (k_wait S)) ->
    (forall i b n f rq, In (i, b, (n, f)) wait' -> waits_for s2 i b rq -> waits_for (k_cons S) i b rq) ->
    (forall j o p rq, dget (c_calls s2) j = Some (o, p) -> held_rq cfg p = Some rq -> dget (c_calls (k_cons S)) j = Some (o, p) /\ forall k b rs, p = PSend k [(b, rq)] rs -> find (is_wait j b) wait' = find (is_wait j b) (k_wait S)) ->
    stack_inv (Stack s2 (k_last S) (k_link S) wait' (k_held S)) /\ links_le S (Stack s2 (k_last S) (k_link S) wait' (k_held S)).
  Proof.
    intros [I PL L W SG [ND HL HI HD HO]] I2 PL2 SG2 SUB WF HK. split; [|split; [cbn; lia|intros n; apply link_le_refl]]. constructor; cbn [k_cons]; [exact I2|exact PL2|exact L| |exact SG2|].
    - intros i b n f rq H H'. cbn in *. eapply W; [apply SUB, H|]. eapply WF; eauto.
    - constructor; cbn [k_cons k_held k_last k_wait]; [exact ND|exact HL|exact HI| |].
      + intros j o p rq id D HR HJ. destruct (HK _ _ _ _ D HR) as [D0 FW]. refine (all_done_mono id rq S _ _ _ (fun n => link_le_refl _) _ _ (HD j o p rq id D0 HR HJ)); [auto|].
        intros n f (k & b & rs & E & F). exists k, b, rs. split; [exact E|]. cbn [k_wait]. rewrite (FW _ _ _ E). exact F.
      + intros j o k b rs rq b' nf D K H. destruct (HK _ _ _ _ D K) as [D0 _]. eapply HO; [exact D0|exact K|apply SUB, H].
  Qed.
  Lemma link_event_ok n l' last' S : stack_inv S -> k_last S <= last' -> link_ok n l' last' -> link_le (k_link S n) l' -> (forall f obj, In (f, obj) (l_iss l') -> In (f, obj) (l_iss (k_link S n)) \/ k_last S < Connection.rq_corr obj) ->
    let S' := Stack (k_cons S) last' (put n l' (k_link S)) (k_wait S) (k_held S) in stack_inv S' /\ links_le S S'.
  Proof.
    intros [I PL L W SG [ND HL HI HD HO]] LE LO LL IS. cbv zeta. assert (LS : links_le S (Stack (k_cons S) last' (put n l' (k_link S)) (k_wait S) (k_held S))).
    { split; [exact LE|]. intros m. cbn [k_link]. destruct (Nat.eq_dec m n) as [->|N]; [now rewrite put_same|rewrite put_other by exact N; apply link_le_refl]. }
    split; [|exact LS]. constructor; cbn [k_cons]; [exact I|exact PL| | |exact SG|].
    - intros m. cbn [k_link k_last]. destruct (Nat.eq_dec m n) as [->|N]; [now rewrite put_same|rewrite put_other by exact N]. eapply (link_ok_last C depth neg_read frames OK); [|apply L]. exact LE.
    - intros i b m f rq H H'. eapply aof_le; [apply (proj2 LS)|]. eapply W; eauto.
    - constructor; cbn [k_cons k_held k_last k_wait]; [exact ND|intros i id H; apply HL in H; lia|exact HI| |exact HO].
      intros j o p rq id D HR HJ. refine (all_done_mono id rq S _ _ _ (proj2 LS) _ _ (HD j o p rq id D HR HJ)); [|auto].
      intros m f obj H E. cbn [k_link] in H. destruct (Nat.eq_dec m n) as [->|N]; [rewrite put_same in H|rewrite put_other in H by exact N; exact H]. destruct (IS _ _ H) as [X|X]; [exact X|]. apply HL in HJ. lia.
  Qed.
  Lemma arrive_more s i b r : ConsumerRuns.inv cfg s -> goes_on cfg s i b r = true -> forall j b' rq, ~ (j = i /\ b' = b) -> waits_for (cstep cfg s (Arrive i b r)) j b' rq -> waits_for s j b' rq.
  Proof.
    intros I G j b' rq N WF. destruct (Z.eq_dec j i) as [->|NE]; [|eapply waits_same; [|exact WF]; apply step_others with (i := i); [exact I|reflexivity|exact NE]].
    pose proof (cstep_did cfg s (Arrive i b r) I) as D. remember (cstep cfg s (Arrive i b r)) as s' eqn:EQ.
    inversion D as [l ID E1 E2| |i0 b0 r0 o k w rs rq0 D0 F W IA HF NE F' E1 E2|i0 b0 r0 o k w rs rq0 ns D0 F W IA E P E1 E2| | | | |]; clear D.
    - congruence || (subst; exact WF).
    - subst i0 b0 r0. rewrite <- E2 in WF. destruct WF as (o' & k' & w' & rs' & A & B).
      assert (ND : NoDup (dkeys (c_calls (answer_state cfg r s)))) by (rewrite answer_state_calls; apply I).
      destruct (continue_calls i o (Await (PSend k (ddel w b) (answer_results cfg b r rs s)), answer_state cfg r s) i ND) as [_ X]. rewrite A in X. rewrite Z.eqb_refl in X. cbn [fst] in X. injection X as -> -> -> ->.
      rewrite dget_ddel_other in B by (intros ->; now apply N). exists o, k, w, rs. auto.
    - exfalso. subst i0 b0 r0. unfold goes_on in G. rewrite D0 in G. destruct E as [(HF & E & _)|(e & HF & _)]; [rewrite E in G; discriminate G|].
      destruct (ddel w b); [discriminate G|]. unfold handler_fails in HF. destruct r as [resp|e']; [|discriminate HF]. destruct (handle cfg resp s) as [[v|x] s1]; cbn [fst] in HF; [discriminate HF|discriminate G].
  Qed.
  Lemma goes_on_call s i b r : ConsumerRuns.inv cfg s -> goes_on cfg s i b r = true ->
    (exists o k w rs, dget (c_calls s) i = Some (o, PSend k w rs) /\ ddel w b <> []) /\
    (dget (c_calls (cstep cfg s (Arrive i b r))) i = dget (c_calls s) i \/ exists o k w rs rq rs', dget (c_calls s) i = Some (o, PSend k w rs) /\ dget w b = Some rq /\ dget (c_calls (cstep cfg s (Arrive i b r))) i = Some (o, PSend k (ddel w b) rs')).
  Proof.
    intros I G. split; [unfold goes_on in G; destruct (dget (c_calls s) i) as [[o [k w rs|k rs|t]]|]; try discriminate G; exists o, k, w, rs; split; [reflexivity|destruct (ddel w b); [discriminate G|discriminate]]|].
    pose proof (cstep_did cfg s (Arrive i b r) I) as D. remember (cstep cfg s (Arrive i b r)) as s' eqn:EQ.
    inversion D as [l ID E1 E2| |i0 b0 r0 o k w rs rq0 D0 F W IA HF NE F' E1 E2|i0 b0 r0 o k w rs rq0 ns D0 F W IA E P E1 E2| | | | |]; clear D.
    - left. reflexivity.
    - subst i0 b0 r0. right. assert (ND : NoDup (dkeys (c_calls (answer_state cfg r s)))) by (rewrite answer_state_calls; apply I).
      destruct (continue_calls i o (Await (PSend k (ddel w b) (answer_results cfg b r rs s)), answer_state cfg r s) i ND) as [_ X]. rewrite Z.eqb_refl in X. cbn [fst] in X. exists o, k, w, rs, rq0, (answer_results cfg b r rs s). auto.
    - exfalso. subst i0 b0 r0. unfold goes_on in G. rewrite D0 in G. destruct E as [(HF & E & _)|(e & HF & _)]; [rewrite E in G; discriminate G|].
      destruct (ddel w b); [discriminate G|]. unfold handler_fails in HF. destruct r as [resp|e']; [|discriminate HF]. destruct (handle cfg resp s) as [[v|x] s1]; cbn [fst] in HF; [discriminate HF|discriminate G].
  Qed.
  (** when a call may send its request object again, all futures made with it are done *)
  Lemma reuse_ok S i l : stack_inv S ->
    (forall o k b rs rq n f, dget (c_calls (k_cons S)) i = Some (o, PSend k [(b, rq)] rs) -> cont_rq cfg k = Some rq -> find (is_wait i b) (k_wait S) = Some (i, b, (n, f)) -> In f (completed (l_conn (k_link S n)))) ->
    reuse i (cstep cfg (with_flags S) l) S.
  Proof.
    intros [I PL L W SG [ND HL HI HD HO]] DONE o p rq id D HR RP HJ. unfold repeats in RP. destruct (dget (c_calls (with_flags S)) i) as [[o1 p1]|] eqn:D1; [|discriminate RP]. change (dget (c_calls (k_cons S)) i = Some (o1, p1)) in D1.
    destruct (held_step cfg (with_flags S) l (inv_flags S I) SG) as [_ HK]. pose proof (HK i o1 p1 o p rq D1 D HR) as HR1. destruct (HD i o1 p1 rq id D1 HR1 HJ) as (obj & RO & AD). exists obj. split; [exact RO|].
    intros n f obj' H E. destruct (AD n f obj' H E) as [X [Y|(k & b & rs & -> & F)]]; split; auto. left. eapply DONE; eassumption.
  Qed.
  Lemma outcome_done S i b r n f : outcome_of S i b = Some r -> find (is_wait i b) (k_wait S) = Some (i, b, (n, f)) -> In f (completed (l_conn (k_link S n))).
  Proof.
    unfold outcome_of. intros O E. rewrite E in O. destruct (find _ (Connection.c_done (l_conn (k_link S n)))) as [[f' o]|] eqn:FD; [|discriminate O]. apply find_some in FD as [FD EF]. cbn [fst] in EF. apply Nat.eqb_eq in EF. subst f'. unfold completed. now apply (in_map fst) in FD.
  Qed.
  Lemma sstep_ok ev S : stack_inv S -> k_cons (sstep S ev) = crun cfg (labels_of S ev) (k_cons S) /\ stack_inv (sstep S ev) /\ links_le S (sstep S ev).
  Proof.
    intros SI. pose proof SI as [I PL L W SG HO]. pose proof (inv_flags S I) as IF. assert (PF : plain (with_flags S)) by exact PL. assert (SF : single cfg (with_flags S)) by exact SG. assert (PS : forall l, plain (cstep cfg (with_flags S) l)) by (intros l; now apply plain_step). assert (PG : forall l, single cfg (cstep cfg (with_flags S) l)) by (intros l; now apply held_step).
    assert (PW : forall l b rq, In (b, rq) (skipn (length (c_wire (with_flags S))) (c_wire (cstep cfg (with_flags S) l))) -> plain_request rq) by (intros l b rq; now apply sent_plain). assert (ID : stack_inv S /\ links_le S S) by (split; [exact SI|apply links_le_refl]).
    assert (SAME : forall s2, ConsumerRuns.inv cfg s2 -> plain s2 -> single cfg s2 -> (forall i, dget (c_calls s2) i = dget (c_calls (k_cons S)) i) -> stack_inv (Stack s2 (k_last S) (k_link S) (k_wait S) (k_held S)) /\ links_le S (Stack s2 (k_last S) (k_link S) (k_wait S) (k_held S))).
    { intros s2 I2 P2 S2 H. apply plain_ok; [exact SI|exact I2|exact P2|exact S2|auto| |].
      - intros i b n f rq _. apply waits_same, H.
      - intros j o p rq D _. rewrite H in D. auto. }
    assert (IS : forall l, ConsumerRuns.inv cfg (cstep cfg (with_flags S) l)) by (intros l; now apply ConsumerRuns.inv_step).
    assert (ANY : forall l, (forall i, label_of l i) -> forall i, dget (c_calls (cstep cfg (with_flags S) l)) i = dget (c_calls (k_cons S)) i).
    { intros l H i. assert (NE : i <> i + 1) by lia. exact (step_others _ _ (i + 1) IF (H _) i NE). }
    destruct ev as [l wr|n ev|n topics wr|i b wr].
    - destruct l as [i o|i b r|i r|k|ev|]; cbn [Stack.sstep labels_of crun fold_left]; rewrite <- ?with_flags_step.
      + destruct (dmem (c_calls (with_flags S)) i) eqn:DM.
        * split; [reflexivity|]. apply SAME; auto. intros j. cbn [cstep]. rewrite DM. reflexivity.
        * destruct (piece_ok wr i (cstep cfg (with_flags S) (Call i o)) S SI) as (A & B & D); [apply IS|apply PS|apply PG| |apply PW|apply (step_others (with_flags S)); [exact IF|reflexivity]|].
          { intros o' p rq id _ _ RP. exfalso. unfold repeats in RP. unfold dmem in DM. destruct (dget (c_calls (with_flags S)) i); [discriminate DM|discriminate RP]. }
          cbv zeta in *; auto.
      + auto.
      + destruct (dget (c_calls (with_flags S)) i) as [[o [k w rs|k rs|t]]|] eqn:D.
        1,4: split; [reflexivity|]; apply SAME; auto; intros j; cbn [cstep]; rewrite D; reflexivity.
        all: destruct (piece_ok wr i (cstep cfg (with_flags S) (Healed i r)) S SI) as (A & B & E); [apply IS|apply PS|apply PG| |apply PW|apply (step_others (with_flags S)); [exact IF|reflexivity]|];
          [apply reuse_ok; [exact SI|]; intros o' k' b' rs' rq' n f D'; change (dget (c_calls (with_flags S)) i = Some (o', PSend k' [(b', rq')] rs')) in D'; congruence|cbv zeta in *; auto].
      + split; [reflexivity|]. apply SAME; [now apply ConsumerRuns.inv_step|exact PL|exact SG|reflexivity].
      + split; [reflexivity|]. apply SAME; auto; apply ANY; intros i; exact Logic.I.
      + split; [reflexivity|]. apply SAME; auto; apply ANY; intros i; exact Logic.I.
    - assert (H : forall ev', (forall rq wr, ev' <> Connection.EvSend rq wr) -> let S' := Stack (k_cons S) (k_last S) (put n (happens ev' (k_link S n)) (k_link S)) (k_wait S) (k_held S) in stack_inv S' /\ links_le S S').
      { intros ev' NS. apply link_event_ok; [exact SI|lia| |apply happens_le|]; [eapply link_ok_happens; [exact OK|apply L|lia|]; intros rq wr E; now destruct (NS rq wr)|]. intros f obj H. left. destruct ev'; try exact H. now destruct (NS rq wr). }
      destruct ev; cbn [Stack.sstep labels_of crun fold_left]; try (split; [reflexivity|]; apply H; discriminate). auto.
    - cbn [Stack.sstep labels_of crun fold_left]. unfold Connection.request_of. destruct (request_init "metadata" MetadataRequest _ (k_last S)) as [[attrs last']|e] eqn:RI; cbn [bind]; [|auto]. split; [reflexivity|].
      assert (LA : last' = k_last S + 1) by (unfold request_init, generate_correlation_id in RI; destruct (part_init _ _ _) as [p|e]; cbn [bind] in RI; [|discriminate RI]; destruct (dindex api_keys "metadata"%string) as [key|e]; cbn [bind] in RI; [|discriminate RI]; cbn in RI; injection RI as _ <-; reflexivity).
      apply link_event_ok; [exact SI|lia| |apply happens_le|].
      2:{ cbn [Stack.happens l_iss]. intros f obj H. destruct (fst (Connection.conn_send _ wr _)); [|now left]. apply in_app_iff in H as [H|[H|[]]]; [now left|]. injection H as _ <-. right. cbn. lia. }
      eapply link_ok_happens; [exact OK|apply L|lia|]. intros rq wr' E. injection E as <- <-. split; [cbn; lia|]. split; [intros f obj H E; apply (lk_ids _ _ _ _ _ _ (L n)) in H; cbn in E; lia|]. intros w PWE. cbn [Connection.rq_payload Connection.rq_corr] in *.
      destruct (C05_request_framing "metadata" MetadataRequest [("topics"%string, PList (map PStr topics))] (k_last S) attrs last' w) as (key & payload & v' & IK & -> & -> & FL & _); [cbn; tauto|repeat constructor; intros []| |exact RI|exact PWE|].
      { cbn [bytes_ok]. split; [|exact Logic.I]. clear; induction topics as [|x topics IH]; [exact Logic.I|split; [exact Logic.I|exact IH]]. }
      exists "metadata"%string, key, payload. auto.
    - cbn [Stack.sstep labels_of]. destruct (outcome_of S i b) as [r|] eqn:OC; [|cbn; auto]. cbn [crun fold_left]. rewrite <- with_flags_step. destruct (goes_on cfg (with_flags S) i b r) eqn:G.
      + split; [reflexivity|]. apply plain_ok; [exact SI|apply IS|apply PS|apply PG|intros e H; now apply filter_In in H| |].
        * intros j b' n f rq H WF. apply filter_In in H as [_ H]. change (waits_for (with_flags S) j b' rq). eapply arrive_more; [exact IF|exact G| |exact WF]. intros (-> & ->). unfold is_wait in H. cbn [fst snd] in H. rewrite !Z.eqb_refl in H. discriminate H.
        * intros j o p rq D HR. destruct (Z.eq_dec j i) as [->|N].
          -- destruct (goes_on_call _ _ _ _ IF G) as [(o0 & k0 & w0 & rs0 & D0 & NE) [E|(o' & k & w & rs & rq0 & rs' & D' & GW & E)]].
             ++ rewrite E in D. split; [exact D|]. intros k b' rs ->. apply find_not_wait. intros (_ & ->). rewrite D0 in D. injection D as -> -> -> ->. apply NE. cbn. now rewrite Z.eqb_refl.
             ++ exfalso. rewrite E in D. injection D as <- <-. cbn [held_rq] in HR. destruct (SF _ _ _ _ _ _ D' HR) as (b0 & ->). rewrite D' in D0. injection D0 as <- <- <- <-. cbn in GW, NE. destruct (b0 =? b); [now apply NE|discriminate GW].
          -- rewrite (step_others (with_flags S) (Arrive i b r) i IF eq_refl j N) in D. split; [exact D|]. intros k b' rs _. apply find_not_wait. intros (-> & _). now apply N.
      + destruct (piece_ok wr i (cstep cfg (with_flags S) (Arrive i b r)) S SI) as (A & B & E); [apply IS|apply PS|apply PG| |apply PW|apply (step_others (with_flags S)); [exact IF|reflexivity]|cbv zeta in *; auto].
        apply reuse_ok; [exact SI|]. intros o k b0 rs rq n f D K FW. pose proof OC as OC'. unfold outcome_of in OC'. destruct (find (is_wait i b) (k_wait S)) as [[[i' b'] nf]|] eqn:FB; [|discriminate OC']. pose proof (find_some _ _ FB) as [IN IW]. unfold is_wait in IW. cbn [fst snd] in IW. apply andb_true_iff in IW as [E1 E2]. apply Z.eqb_eq in E1, E2. subst i' b'.
        assert (b = b0) as <- by (eapply (ho_one _ HO); eassumption). eapply outcome_done; eassumption.
  Qed.
  Fixpoint slabels (evs : list sevent) S : list label := match evs with [] => [] | ev :: r => labels_of S ev ++ slabels r (sstep S ev) end.
  Lemma srun_ok evs : forall S, stack_inv S -> k_cons (srun evs S) = crun cfg (slabels evs S) (k_cons S) /\ stack_inv (srun evs S) /\ links_le S (srun evs S).
  Proof.
    induction evs as [|ev evs IH]; intros S SI; [cbn; auto using links_le_refl|]. destruct (sstep_ok ev S SI) as (A & B & D). destruct (IH _ B) as (A' & B' & D'). cbn [Stack.srun fold_left slabels]. split; [|split; [exact B'|eapply links_le_trans; eauto]].
    unfold crun in *. rewrite fold_left_app. cbn [Stack.srun] in A'. unfold Stack.srun in A'. rewrite A', A. reflexivity.
  Qed.
  Lemma stack_inv_init k name last : stack_inv (stack_init k name last).
  Proof. constructor; [apply ConsumerRuns.inv_init|apply plain_init|intros n; apply link_ok_init; exact OK|intros i b n f rq []|apply single_init|]. constructor; cbn; try discriminate. constructor. Qed.
  Lemma reach_stack S : sreachable cfg C depth neg_read S -> stack_inv S.
  Proof. intros (k & name & last & evs & ->). apply srun_ok, stack_inv_init. Qed.

  (** ** what send() resumes with *)
  Lemma view_read rq v r raw fs : dget Connection.response_classes (api_of rq) = Some fs -> Protocol.deserialize C depth (TPart fs) raw = Ok v -> view_response (api_of rq) v = Some r -> read_response C depth rq raw = Some (Ok r).
  Proof.
    unfold view_response, api_of. destruct rq as [a1 a2 a3 a4 a5|a1 a2 a3|a1 a2 a3|a1 a2|a1]; cbn [request_kwargs fst]; intros D E W; cbn in D; injection D as <-; cbn in W; cbn [read_response]; unfold look, as_response; rewrite E.
    - destruct (fetch_view v); [|discriminate W]. injection W as <-. reflexivity.
    - destruct (offset_view v); [|discriminate W]. injection W as <-. reflexivity.
    - destruct (offset_fetch_view v); [|discriminate W]. injection W as <-. reflexivity.
    - destruct (codes_view v); [|discriminate W]. injection W as <-. reflexivity.
    - destruct (pair_of _ _); [|discriminate W]. injection W as <-. reflexivity.
  Qed.
  Lemma outcome_frame S i b r rq : stack_inv S -> hears frames S -> outcome_of S i b = Some (Ok r) -> waits_for (k_cons S) i b rq ->
    exists n f id raw, In (f, (id, rq)) (l_asked (k_link S n)) /\ In (id, raw) (frames n) /\ read_response C depth rq raw = Some (Ok r).
  Proof.
    intros [I PL L W _ _] HE O WF. unfold outcome_of in O. destruct (find (is_wait i b) (k_wait S)) as [[[i' b'] [n f]]|] eqn:FW; [|discriminate O]. apply find_some in FW as [FW IW]. unfold is_wait in IW. cbn [fst snd] in IW. apply andb_true_iff in IW as [E1 E2]. apply Z.eqb_eq in E1, E2. subst i' b'.
    destruct (find _ (Connection.c_done (l_conn (k_link S n)))) as [[f' o]|] eqn:FD; [|discriminate O]. apply find_some in FD as [FD EF]. cbn [fst] in EF. apply Nat.eqb_eq in EF. subst f'.
    destruct o as [api corr v|e]; [|discriminate O]. destruct (view_response api v) as [r'|] eqn:VR; [|discriminate O]. injection O as ->.
    destruct (L n) as [A B D E WA WO]. destruct (W _ _ _ _ _ FW WF) as [(id & HA)|(e & HF)].
    2:{ exfalso. pose proof (i_d1 _ _ _ _ A) as ND. unfold completed in ND. assert (X : Connection.Fail e = Connection.Got api corr v); [|discriminate X]. eapply nodup_fst_eq; [exact ND|exact HF|exact FD]. }
    destruct (D _ _ _ HA) as (obj & IO & CO & AO & _). pose proof (i_d2 _ _ _ _ A) as GD. rewrite Forall_forall in GD. destruct (GD _ FD) as (obj' & IO' & CO' & AO' & _). cbn [fst] in IO'.
    assert (obj' = obj) as -> by (eapply nodup_fst_eq; [apply (i_nd _ _ _ _ A)|exact IO'|exact IO]). destruct (HE n) as (_ & more & EM). destruct (E (ex_intro _ more EM)) as [_ FR]. rewrite Forall_forall in FR. destruct (FR _ FD) as (raw & CM & DE). pose proof (came_in _ _ _ CM) as IR. cbn [snd] in *.
    exists n, f, id, raw. split; [exact HA|]. split; [congruence|]. apply decodes_iff in DE as (fs & DG & DS). eapply view_read; [rewrite <- AO, AO'; exact DG|exact DS|rewrite <- AO, AO'; exact VR].
  Qed.
  (** a frame with the id of a request was meant for it *)
  Lemma frame_request S n f id rq key payload api : stack_inv S -> In (f, (id, rq)) (l_asked (k_link S n)) -> In (api, key) kafka_api_numbers -> SpecWire.fits 32 id ->
    In (request_frame key id payload) (Connection.c_written (l_conn (k_link S n))) -> fits_kafka rq /\ key = kafka_api rq /\ payload = kafka_payload rq.
  Proof.
    intros [I PL L W _ _] HA IK FI HW. destruct (L n) as [A B D E WA WO]. rewrite WA in HW. apply in_map_iff in HW as ([f' w] & EW & HO). cbn [snd] in EW. subst w.
    destruct (WO _ _ HO) as (obj' & IO' & (api' & key' & p' & IK' & FI' & EQ) & PW). destruct (C05_frame_readable _ _ _ _ _ _ _ _ IK IK' FI FI' EQ) as (_ & _ & EC & _). destruct (D _ _ _ HA) as (obj & IO & CO & AO & PR & RW).
    assert (obj' = obj) as -> by (eapply (i_id _ _ _ _ A); [exact IO'|exact IO|congruence]).
    rewrite PW in RW. symmetry in RW. destruct (written_kafka _ _ _ PR RW) as (FK & FL & EQ'). replace (id - 1 + 1) with id in EQ' by lia.
    destruct (C05_frame_readable api key id payload (api_of rq) (kafka_api rq) id (kafka_payload rq) IK) as (_ & EK & _ & EP); [destruct rq; cbn; tauto|exact FI|exact FI|exact EQ'|]. auto.
  Qed.
End Whole.
