(** However the byte stream is cut, every complete response frame is delivered, in order, to the
    future of its own request (proof library for C14 and C18). *)
From Coq Require Import ZArith String List Bool Lia.
From Verif Require Import PyBase BaseLemmas Struct StructProofs Primitives Snappy Messages Protocol SpecWire ProtocolProofs
  ParseErrors Request Schemas RequestProofs Connection SpecConn ConnProofs.
Import ListNotations.
Open Scope Z_scope.

Lemma frames_bytes_app a b : frames_bytes (a ++ b) = frames_bytes a ++ frames_bytes b.
Proof. unfold frames_bytes. now rewrite map_app, concat_app. Qed.
Lemma frames_bytes_cons fr l : frames_bytes (fr :: l) = frame_bytes fr ++ frames_bytes l.
Proof. reflexivity. Qed.
Lemma received_app a b : received_bytes (a ++ b) = received_bytes a ++ received_bytes b.
Proof. unfold received_bytes. now rewrite map_app, concat_app. Qed.
Lemma sent_app a b : sent_requests (a ++ b) = sent_requests a ++ sent_requests b.
Proof. apply flat_map_app. Qed.
Lemma received1 ev : received_bytes [ev] = match ev with EvData b => b | _ => [] end.
Proof. unfold received_bytes. cbn [map concat]. apply app_nil_r. Qed.

Lemma skipn_nth {A} (l : list A) j : (j < length l)%nat ->
  exists x tl, skipn j l = x :: tl /\ nth_error l j = Some x /\ tl = skipn (S j) l /\ firstn (S j) l = firstn j l ++ [x].
Proof.
  revert j. induction l as [|a l IH]; intros j H; [simpl in H; lia|].
  destruct j as [|j].
  - exists a, l. repeat split.
  - simpl in H. destruct (IH j) as (x & tl & E1 & E2 & E3 & E4); [lia|]. exists x, tl.
    cbn [skipn nth_error firstn app] in *. rewrite E4. auto.
Qed.

(** a long enough beginning of [b ++ s] starts with [b] *)
Lemma split_prefix (inb X b s : bytes) : inb ++ X = b ++ s -> zlen b <= zlen inb -> exists r, inb = b ++ r /\ r ++ X = s.
Proof.
  revert inb. induction b as [|a b IH]; intros inb E L.
  - exists inb. split; [reflexivity|exact E].
  - destruct inb as [|a' inb]; [exfalso; rewrite zlen_cons in L; pose proof (zlen_nonneg b); unfold zlen in L; simpl in L; lia|].
    cbn [app] in E. injection E as -> E. rewrite !zlen_cons in L.
    destruct (IH inb E ltac:(lia)) as (r & -> & E2). exists r. auto.
Qed.

Lemma Forall2_impl_ {A B} (P Q : A -> B -> Prop) l l2 : (forall a b, P a b -> Q a b) -> Forall2 P l l2 -> Forall2 Q l l2.
Proof. intros H F. induction F; constructor; auto. Qed.

Section Stream.
  Variable C : codec.
  Variable depth : nat.
  Variable neg_read : Z -> bytes -> bytes * bytes.
  Notation step := (step C depth neg_read).
  Notation run := (run C depth neg_read).
  Notation issued := (issued C depth neg_read).
  Notation read_step := (read_step C depth neg_read).
  Notation inv := (inv C depth).

  Variable frames : list (Z * bytes).
  Variable last_fr : Z * bytes.
  Hypothesis FOK : Forall frame_ok (frames ++ [last_fr]).
  Hypothesis FND : NoDup (map fst frames).
  Let all := frames ++ [last_fr].

  (** where the reader stands in frame [fr], the frames [tl] coming after it *)
  Definition at_frame (evs : list event) (st : conn) (X : bytes) (fr : Z * bytes) (tl : list (Z * bytes)) (j : nat) : Prop :=
    match c_phase st with
    | PNotStarted => j = O /\ ~ In EvConnected evs /\ c_inbuf st ++ X = frame_bytes fr ++ frames_bytes tl
    | PLoop | PSize => c_inbuf st ++ X = frame_bytes fr ++ frames_bytes tl
    | PCorr size => size = zlen (snd fr) + 4 /\ c_inbuf st ++ X = big_endian 4 (fst fr) ++ snd fr ++ frames_bytes tl
    | PPayload size c => size = zlen (snd fr) /\ c = fst fr /\ c_inbuf st ++ X = snd fr ++ frames_bytes tl
    | PGot a c v => tl <> [] /\ c = fst fr /\ decodes C depth a (snd fr) v /\
                    c_inbuf st ++ X = frames_bytes tl
    | _ => False
    end.

  Definition taken (st : conn) (j : nat) : nat := match c_phase st with PGot _ _ _ => S j | _ => j end.

  Record J (evs : list event) (iss : list (nat * request)) (X : bytes) (st : conn) (j : nat) : Prop := {
    j_inv : inv iss st;
    j_closing : c_closing st = false;
    j_closed : c_closed st = false;
    j_sent : map snd iss = sent_requests evs;
    j_le : (j <= length frames)%nat;
    j_at : exists fr tl, skipn j all = fr :: tl /\ at_frame evs st X fr tl j;
    j_done : Forall2 (delivers C depth iss) (firstn j frames) (c_done st);
    j_api : forall f rq, In (f, rq) iss -> ~ In (rq_corr rq) (map fst (firstn (taken st j) frames)) ->
              dget (c_api st) (rq_corr rq) = Some (rq_api rq) }.

  Lemma delivers_mono iss iss' fr fo : delivers C depth iss fr fo -> delivers C depth (iss ++ iss') fr fo.
  Proof. intros (f & rq & v & H & R). exists f, rq, v. split; [apply in_or_app; now left|exact R]. Qed.

  (** a request whose id is not among the delivered frames is still pending *)
  Lemma j_pending evs iss X st j f rq : J evs iss X st j -> In (f, rq) iss ->
    ~ In (rq_corr rq) (map fst (firstn j frames)) -> dget (c_pending st) (rq_corr rq) = Some f.
  Proof.
    intros [] H N. destruct (i_o _ _ _ _ j_inv0 j_closing0 f rq H) as [O|O]; [|exact O].
    exfalso. apply N. unfold completed in O. apply in_map_iff in O as (fo & E & O).
    clear - j_done0 O E H j_inv0. induction j_done0 as [|fr fo' l l' D F IH]; [destruct O|].
    destruct O as [->|O].
    - destruct D as (f' & rq' & v & H' & R & _ & ->). cbn [fst] in E. subst f'.
      assert (rq' = rq) by (eapply nodup_fst_eq; [apply (i_nd _ _ _ _ j_inv0)|eassumption|eassumption]). subst rq'.
      left. now symmetry.
    - right. now apply IH.
  Qed.

  Lemma firstn_S_id j fr : nth_error frames j = Some fr -> firstn (S j) frames = firstn j frames ++ [fr].
  Proof.
    intro E. assert (L : (j < length frames)%nat) by (apply nth_error_Some; congruence).
    destruct (skipn_nth frames j L) as (x & tl & _ & E2 & _ & E4). congruence.
  Qed.

  Lemma J_read evs iss X st j : X <> [] -> received_bytes evs ++ X = frames_bytes all ->
    (forall k fr, nth_error frames k = Some fr ->
      zlen (frames_bytes (firstn (S k) frames)) <= zlen (received_bytes evs) ->
      exists rq v, In rq (sent_requests evs) /\ rq_corr rq = fst fr /\ decodes C depth (rq_api rq) (snd fr) v) ->
    J evs iss X st j -> exists j', J evs iss X (read_step st) j'.
  Proof.
    intros NX RX CAU HJ. pose proof HJ as [I CL CD SE LE (fr & tl & SK & AT) DN AP].
    assert (FO : frame_ok fr).
    { apply (proj1 (Forall_forall _ _) FOK). rewrite <- (firstn_skipn j (frames ++ [last_fr])).
      fold all. rewrite SK. apply in_or_app. right. now left. }
    assert (IR : inv iss (read_step st)) by (now apply inv_read).
    unfold at_frame in AT. destruct (c_phase st) eqn:P.
    - exists j. replace (read_step st) with st; [exact HJ|]. unfold Connection.read_step. now rewrite P.
    - exists j. assert (E : read_step st = set_phase st PSize) by (unfold Connection.read_step; rewrite P, CL; reflexivity).
      rewrite E in *. unfold taken in AP. rewrite P in AP.
      split; auto. exists fr, tl. auto.
    - (* PSize *)
      destruct (Z_le_gt_dec 4 (zlen (c_inbuf st))) as [L|L].
      + unfold frame_bytes in AT. rewrite <- !app_assoc in AT.
        destruct (split_prefix _ _ _ _ AT) as (r & Er & Es); [rewrite big_endian_len; exact L|].
        assert (E : read_step st = Conn (c_closing st) (c_api st) (c_pending st) (PCorr (zlen (snd fr) + 4)) r
                    (c_closed st) (c_next st) (c_done st) (c_written st)).
        { unfold Connection.read_step. rewrite P. unfold with_read.
          erewrite read_exact; [|symmetry; apply (big_endian_len 4)|exact Er].
          rewrite unpack_i_be by apply FO. reflexivity. }
        rewrite E in *. exists j. unfold taken in AP. rewrite P in AP. split; auto.
        exists fr, tl. split; [exact SK|]. cbn [at_frame c_phase c_inbuf]. auto.
      + exists j. replace (read_step st) with st; [exact HJ|]. unfold Connection.read_step, with_read, read_bytes. rewrite P.
        change (4 <? 0) with false. cbv iota. destruct (4 <=? zlen (c_inbuf st)) eqn:Q; [lia|]. now rewrite CD.
    - (* PCorr *)
      destruct AT as [-> AT]. destruct (Z_le_gt_dec 4 (zlen (c_inbuf st))) as [L|L].
      + destruct (split_prefix _ _ _ _ AT) as (r & Er & Es); [rewrite big_endian_len; exact L|].
        assert (E : read_step st = Conn (c_closing st) (c_api st) (c_pending st) (PPayload (zlen (snd fr)) (fst fr)) r
                    (c_closed st) (c_next st) (c_done st) (c_written st)).
        { unfold Connection.read_step. rewrite P. unfold with_read.
          erewrite read_exact; [|symmetry; apply (big_endian_len 4)|exact Er].
          rewrite unpack_i_be by apply FO. rewrite Z.add_simpl_r. reflexivity. }
        rewrite E in *. exists j. unfold taken in AP. rewrite P in AP. split; auto.
        exists fr, tl. split; [exact SK|]. cbn [at_frame c_phase c_inbuf]. auto.
      + exists j. replace (read_step st) with st; [exact HJ|]. unfold Connection.read_step, with_read, read_bytes. rewrite P.
        change (4 <? 0) with false. cbv iota. destruct (4 <=? zlen (c_inbuf st)) eqn:Q; [lia|]. now rewrite CD.
    - (* PPayload *)
      destruct AT as (-> & -> & AT). destruct (Z_le_gt_dec (zlen (snd fr)) (zlen (c_inbuf st))) as [L|L].
      + destruct (split_prefix _ _ _ _ AT L) as (r & Er & Es).
        (* the frame is complete, so it is not the last, incomplete one *)
        assert (NT : tl <> []).
        { intros ->. apply NX. change (frames_bytes []) with (@nil Z) in Es. now apply app_eq_nil in Es as [_ ->]. }
        assert (JL : (j < length frames)%nat).
        { destruct (Nat.eq_dec j (length frames)) as [->|]; [|lia]. exfalso. apply NT.
          unfold all in SK. rewrite skipn_app, skipn_all, Nat.sub_diag in SK. cbn [skipn app] in SK. congruence. }
        assert (NE : nth_error frames j = Some fr).
        { destruct (skipn_nth all j) as (x & t & E1 & E2 & _); [unfold all; rewrite app_length; lia|].
          rewrite SK in E1. injection E1 as -> ->. unfold all in E2. now rewrite nth_error_app1 in E2. }
        destruct (CAU j fr NE) as (rq & v & R1 & R2 & DC).
        { assert (LS : zlen (frames_bytes all) = zlen (frames_bytes (firstn (S j) frames)) + zlen (frames_bytes tl)).
          { rewrite <- zlen_app, <- frames_bytes_app. f_equal. f_equal.
            rewrite <- (firstn_skipn j all). rewrite SK. rewrite (firstn_S_id j fr NE), <- app_assoc. cbn [app]. f_equal.
            unfold all. rewrite firstn_app. replace (j - length frames)%nat with 0%nat by lia. cbn [firstn]. apply app_nil_r. }
          rewrite <- RX, zlen_app in LS. rewrite <- Es, zlen_app in LS. pose proof (zlen_nonneg r). lia. }
        pose proof DC as DC'. apply decodes_iff in DC' as (fs & K & D).
        assert (R0 : exists f, In (f, rq) iss).
        { rewrite <- SE in R1. apply in_map_iff in R1 as ([f rq'] & E & R1). cbn [snd] in E. subst rq'. eauto. }
        destruct R0 as [f R0].
        assert (A : dget (c_api st) (fst fr) = Some (rq_api rq)).
        { rewrite <- R2. apply (AP f rq R0). unfold taken. rewrite P, R2. intro H.
          pose proof FND as ND. rewrite <- (firstn_skipn (S j) frames), (firstn_S_id j fr NE), !map_app in ND.
          apply nodup_app_inv in ND as (ND & _ & _). apply nodup_app_inv in ND as (_ & _ & ND).
          exact (ND _ H (or_introl eq_refl)). }
        pose proof (read_payload C depth neg_read st (zlen (snd fr)) fr r P eq_refl Er) as E.
        rewrite A, K, D in E. rewrite E in *. exists j. split; auto.
        * exists fr, tl. split; [exact SK|]. cbn [at_frame c_phase c_inbuf]. split; [exact NT|]. split; [reflexivity|].
          split; [exact DC|exact Es].
        * intros f' rq' H' N. unfold taken in *. cbn [c_phase c_api] in *. rewrite P in AP.
          rewrite (firstn_S_id j fr NE), map_app in N. rewrite dget_ddel_other.
          -- apply (AP f' rq' H'). intro X'. apply N. apply in_or_app. now left.
          -- intro X'. apply N. apply in_or_app. right. left. now symmetry.
      + exists j. replace (read_step st) with st; [exact HJ|]. unfold Connection.read_step, with_read, read_bytes. rewrite P.
        pose proof (zlen_nonneg (snd fr)). destruct (zlen (snd fr) <? 0) eqn:Q1; [lia|].
        destruct (zlen (snd fr) <=? zlen (c_inbuf st)) eqn:Q; [lia|]. now rewrite CD.
    - (* PGot *)
      destruct AT as (NT & -> & DC & AT).
      assert (JL : (j < length frames)%nat).
      { destruct (Nat.eq_dec j (length frames)) as [->|]; [|lia]. exfalso. apply NT.
        unfold all in SK. rewrite skipn_app, skipn_all, Nat.sub_diag in SK. cbn [skipn app] in SK. congruence. }
      assert (NE : nth_error frames j = Some fr).
      { destruct (skipn_nth all j) as (x & t & E1 & E2 & _); [unfold all; rewrite app_length; lia|].
        rewrite SK in E1. injection E1 as -> ->. unfold all in E2. now rewrite nth_error_app1 in E2. }
      destruct (i_g _ _ _ _ I _ _ _ P) as (NA & _ & (f & rq & R1 & R2 & R3) & _).
      assert (PD : dget (c_pending st) (fst fr) = Some f).
      { rewrite <- R2. eapply j_pending; eauto. rewrite R2. intro H.
        pose proof FND as ND. rewrite <- (firstn_skipn (S j) frames), (firstn_S_id j fr NE), !map_app in ND.
        apply nodup_app_inv in ND as (ND & _ & _). apply nodup_app_inv in ND as (_ & _ & ND).
        exact (ND _ H (or_introl eq_refl)). }
      assert (E : read_step st = Conn (c_closing st) (c_api st) (ddel (c_pending st) (fst fr)) PLoop (c_inbuf st)
                    (c_closed st) (c_next st) (c_done st ++ [(f, Got api (fst fr) v)]) (c_written st)).
      { unfold Connection.read_step. rewrite P, PD. reflexivity. }
      rewrite E in *. exists (S j). split; auto.
      + assert (SK' : skipn (S j) all = tl).
        { destruct (skipn_nth all j) as (x & t & E1 & E2 & E3 & _); [unfold all; rewrite app_length; lia|].
          rewrite SK in E1. injection E1 as -> ->. now symmetry. }
        destruct tl as [|fr2 tl2]; [congruence|]. exists fr2, tl2. split; [exact SK'|].
        unfold at_frame. cbn [c_phase c_inbuf]. exact AT.
      + rewrite (firstn_S_id j fr NE). apply Forall2_app; [exact DN|]. constructor; [|constructor].
        exists f, rq, v. repeat split; auto; rewrite R3; [exact DC|reflexivity].
      + intros f' rq' H' N. apply (AP f' rq' H'). unfold taken in *. rewrite P. exact N.
    - destruct AT.
    - destruct AT.
  Qed.

  Lemma J_step evs iss X st j ev : smooth ev -> X <> [] -> received_bytes (evs ++ [ev]) ++ X = frames_bytes all ->
    (forall k fr, nth_error frames k = Some fr ->
      zlen (frames_bytes (firstn (S k) frames)) <= zlen (received_bytes evs) ->
      exists rq v, In rq (sent_requests evs) /\ rq_corr rq = fst fr /\ decodes C depth (rq_api rq) (snd fr) v) ->
    distinct_ids (iss ++ issued1 ev st) ->
    J evs iss (received_bytes [ev] ++ X) st j -> exists j', J (evs ++ [ev]) (iss ++ issued1 ev st) X (step ev st) j'.
  Proof.
    intros SM NX RX CAU DI HJ. pose proof HJ as [I CL CD SE LE (fr & tl & SK & AT) DN AP].
    pose proof (inv_step C depth neg_read iss st ev I DI) as I'.
    destruct ev as [rq wr|e| |b| | | |exc]; cbn [smooth] in SM; try (destruct SM; fail).
    - destruct SM as [-> (p & PP & PF)]. cbn [issued1 Connection.step] in *.
      assert (E : conn_send rq None st = (Ok (c_next st),
        Conn (c_closing st) (dset (c_api st) (rq_corr rq) (rq_api rq)) (dset (c_pending st) (rq_corr rq) (c_next st))
          (c_phase st) (c_inbuf st) (c_closed st) (S (c_next st)) (c_done st) (c_written st ++ [big_endian 4 (zlen p) ++ p]))).
      { unfold conn_send. rewrite CL, CD, PP. cbn [bind]. unfold framed. rewrite pack_i_ok by exact PF. reflexivity. }
      rewrite E in *. cbn [fst snd] in *. rewrite received1 in *. cbn [app] in *.
      exists j. split; auto.
      + rewrite map_app, sent_app, SE. reflexivity.
      + exists fr, tl. split; [exact SK|]. unfold at_frame in *. cbn [c_phase c_inbuf].
        destruct (c_phase st); auto. destruct AT as (A1 & A2 & A3). repeat split; auto.
        intro H. apply in_app_or in H as [H|[H|[]]]; [contradiction|discriminate].
      + cbn [c_done]. eapply Forall2_impl_; [|exact DN]. intros. now apply delivers_mono.
      + intros f rq' H N. cbn [c_api]. unfold taken in *. cbn [c_phase] in *.
        destruct (Z.eq_dec (rq_corr rq') (rq_corr rq)) as [EC|NC].
        * rewrite EC, dget_dset_same. f_equal.
          assert (X1 : (c_next st, rq) = (f, rq')).
          { eapply (nodup_map_eq _ (iss ++ [(c_next st, rq)])); [exact DI| | |cbn [snd]; congruence].
            - apply in_or_app. right. now left. - exact H. }
          congruence.
        * rewrite dget_dset_other by exact NC. apply in_app_or in H as [H|[H|[]]]; [now apply (AP f rq')|].
          injection H as <- <-. congruence.
    - (* connected *)
      cbn [issued1] in *. rewrite app_nil_r in *. cbn [Connection.step] in *. rewrite received1 in *. cbn [app] in *.
      exists j. destruct (c_phase st) eqn:P.
      1:{ split; auto.
          - now rewrite sent_app, SE, app_nil_r.
          - exists fr, tl. split; [exact SK|]. unfold at_frame in *. rewrite P in AT. cbn [set_phase c_phase c_inbuf]. tauto.
          - intros f rq' H N. unfold taken in *. rewrite P in AP. cbn [set_phase c_phase c_api] in *. now apply (AP f). }
      all: split; auto; [now rewrite sent_app, SE, app_nil_r|];
        exists fr, tl; split; [exact SK|]; unfold at_frame in *; rewrite P in *; exact AT.
    - (* data *)
      cbn [issued1] in *. rewrite app_nil_r in *. cbn [Connection.step] in *. rewrite received1 in *. rewrite CD in *.
      exists j. split; auto.
      + now rewrite sent_app, SE, app_nil_r.
      + exists fr, tl. split; [exact SK|]. unfold at_frame in *. cbn [c_phase c_inbuf]. rewrite <- !app_assoc.
        destruct (c_phase st); auto. destruct AT as (A1 & A2 & A3). repeat split; auto.
        intro H. apply in_app_or in H as [H|[H|[]]]; [contradiction|discriminate].
    - (* read *)
      cbn [issued1] in *. rewrite app_nil_r in *. cbn [Connection.step] in *. rewrite received1 in *. cbn [app] in *.
      rewrite received_app, received1, app_nil_r in RX.
      destruct (J_read evs iss X st j NX RX CAU HJ) as [j' HJ']. exists j'.
      destruct HJ' as [I2 CL2 CD2 SE2 LE2 (fr2 & tl2 & SK2 & AT2) DN2 AP2]. split; auto.
      + now rewrite sent_app, SE2, app_nil_r.
      + exists fr2, tl2. split; [exact SK2|]. unfold at_frame in *. destruct (c_phase (read_step st)); auto.
        destruct AT2 as (A1 & A2 & A3). repeat split; auto.
        intro H. apply in_app_or in H as [H|[H|[]]]; [contradiction|discriminate].
  Qed.

  Lemma J_run evs X : Forall smooth evs -> X <> [] -> received_bytes evs ++ X = frames_bytes all ->
    answers_requests C depth evs frames -> distinct_ids (issued evs conn_init) ->
    exists j, J evs (issued evs conn_init) X (run evs conn_init) j.
  Proof.
    revert X. induction evs as [|ev evs IH] using rev_ind; intros X SM NX RX CAU DI.
    - exists O. cbn [SpecConn.issued Connection.run fold_left] in *. split.
      + apply inv_init.
      + reflexivity.
      + reflexivity.
      + reflexivity.
      + lia.
      + destruct (skipn_nth all 0) as (fr & tl & E & _); [unfold all; rewrite app_length; simpl; lia|].
        exists fr, tl. split; [exact E|]. unfold at_frame. cbn [conn_init c_phase c_inbuf]. split; [reflexivity|].
        split; [auto|]. cbn [skipn] in E. rewrite E in RX. exact RX.
      + constructor.
      + intros f rq [].
    - rewrite issued_app in DI |- *. cbn [SpecConn.issued] in DI |- *. rewrite app_nil_r in DI |- *.
      rewrite run_app. change (run [ev] (run evs conn_init)) with (step ev (run evs conn_init)).
      apply Forall_app in SM as [SM1 SM2]. inversion SM2 as [|? ? SM3 _]; subst.
      destruct (IH (received_bytes [ev] ++ X)) as [j HJ].
      + exact SM1.
      + intro H. apply app_eq_nil in H as [_ H]. contradiction.
      + rewrite app_assoc, <- received_app. exact RX.
      + intros k fr e1 e2 H E L. subst evs. apply (CAU k fr e1 (e2 ++ [ev])); auto. now rewrite <- app_assoc.
      + unfold distinct_ids in *. rewrite map_app in DI. apply nodup_app_inv in DI. tauto.
      + apply (J_step evs _ X _ j); auto. intros k fr H L. apply (CAU k fr evs [ev]); auto.
  Qed.
End Stream.

Lemma served C depth neg_read evs frames rest :
  Forall smooth evs -> In EvConnected evs -> Forall frame_ok frames -> NoDup (map fst frames) ->
  received_bytes evs = frames_bytes frames ++ rest -> incomplete_frame rest ->
  answers_requests C depth evs frames ->
  distinct_ids (issued C depth neg_read evs conn_init) ->
  let st := run C depth neg_read evs conn_init in
  read_step C depth neg_read st = st ->
  c_closing st = false /\
  Forall2 (delivers C depth (issued C depth neg_read evs conn_init)) frames (c_done st) /\
  forall f rq, In (f, rq) (issued C depth neg_read evs conn_init) -> ~ In (rq_corr rq) (map fst frames) ->
    ~ In f (completed st).
Proof.
  intros SM IC FOK FND RX (lfr & more & LOK & LE & LN) CAU DI st Q.
  assert (FOK' : Forall frame_ok (frames ++ [lfr])) by (apply Forall_app; split; [exact FOK|constructor; auto]).
  destruct (J_run C depth neg_read frames lfr FOK' FND evs more SM LN) as [j HJ].
  { rewrite RX, <- app_assoc. rewrite frames_bytes_app. f_equal. unfold frames_bytes. cbn [map concat]. now rewrite app_nil_r. }
  { exact CAU. } { exact DI. }
  fold st in HJ. pose proof HJ as [I CL CD SE LJ (fr & tl & SK & AT) DN AP].
  split; [exact CL|].
  assert (EJ : j = length frames).
  { destruct (Nat.eq_dec j (length frames)) as [|NE]; [assumption|exfalso].
    assert (JL : (j < length frames)%nat) by lia.
    (* the missing bytes are at most the last frame, which is in tl *)
    assert (ML : zlen more <= zlen (frames_bytes tl)).
    { destruct (skipn_nth (frames ++ [lfr]) j) as (x & t & E1 & _ & E3 & _); [rewrite app_length; lia|].
      rewrite SK in E1. injection E1 as <- <-.
      rewrite E3, skipn_app. replace (S j - length frames)%nat with 0%nat by lia. change (skipn 0 [lfr]) with [lfr].
      rewrite frames_bytes_app, zlen_app. unfold frames_bytes at 2. cbn [map concat]. rewrite app_nil_r, LE, zlen_app.
      pose proof (zlen_nonneg rest). pose proof (zlen_nonneg (frames_bytes (skipn (S j) frames))). unfold bytes in *. lia. }
    assert (FO : frame_ok fr).
    { apply (proj1 (Forall_forall _ _) FOK'). rewrite <- (firstn_skipn j (frames ++ [lfr])).
      rewrite SK. apply in_or_app. right. now left. }
    pose proof (zlen_nonneg (snd fr)) as LS.
    unfold at_frame in AT. unfold read_step in Q. destruct (c_phase st) eqn:P.
    - destruct AT as (_ & N & _). contradiction.
    - rewrite CL in Q. apply (f_equal c_phase) in Q. rewrite P in Q. discriminate.
    - unfold frame_bytes in AT. rewrite <- !app_assoc in AT.
      destruct (split_prefix _ _ _ _ AT) as (r & Er & Es).
      { apply (f_equal (@zlen Z)) in AT. rewrite !zlen_app, !big_endian_len in AT. rewrite big_endian_len. unfold bytes in *. lia. }
      unfold with_read in Q. erewrite read_exact in Q; [|symmetry; apply (big_endian_len 4)|exact Er].
      rewrite unpack_i_be in Q by apply FO. apply (f_equal c_phase) in Q. rewrite P in Q. discriminate.
    - destruct AT as [-> AT]. destruct (split_prefix _ _ _ _ AT) as (r & Er & Es).
      { apply (f_equal (@zlen Z)) in AT. rewrite !zlen_app, !big_endian_len in AT. rewrite big_endian_len. unfold bytes in *. lia. }
      unfold with_read in Q. erewrite read_exact in Q; [|symmetry; apply (big_endian_len 4)|exact Er].
      rewrite unpack_i_be in Q by apply FO. apply (f_equal c_phase) in Q. rewrite P in Q. discriminate.
    - destruct AT as (-> & -> & AT). destruct (split_prefix _ _ _ _ AT) as (r & Er & Es).
      { apply (f_equal (@zlen Z)) in AT. rewrite !zlen_app in AT. unfold bytes in *. lia. }
      unfold with_read in Q. erewrite read_exact in Q; [|reflexivity|exact Er]. cbn [c_api] in Q.
      apply (f_equal c_phase) in Q. rewrite P in Q.
      destruct (dget (c_api st) (fst fr)) as [a|]; [|discriminate].
      destruct (dget response_classes a) as [fs|]; [|discriminate].
      destruct (deserialize C depth (TPart fs) (snd fr)); discriminate.
    - apply (f_equal c_phase) in Q. rewrite P in Q. destruct (dget (c_pending st) corr); discriminate.
    - destruct AT.
    - destruct AT. }
  subst j. rewrite firstn_all in DN. split; [exact DN|].
  intros f rq H N O. unfold completed in O. apply in_map_iff in O as (fo & E & O). apply N.
  clear - DN O E H I. induction DN as [|fr fo' l l' D F IH]; [destruct O|].
  destruct O as [->|O].
  - destruct D as (f' & rq' & v & H' & R & _ & ->). cbn [fst] in E. subst f'.
    assert (rq' = rq) by (eapply nodup_fst_eq; [apply (i_nd _ _ _ _ I)|eassumption|eassumption]). subst rq'.
    left. now symmetry.
  - right. now apply IH.
Qed.

(** the completions are determined by the requests and the frames alone *)
Lemma delivers_det C depth iss fr fo1 fo2 : NoDup (map fst iss) -> distinct_ids iss ->
  delivers C depth iss fr fo1 -> delivers C depth iss fr fo2 -> fo1 = fo2.
Proof.
  intros ND DI (f1 & r1 & v1 & H1 & R1 & DC1 & ->) (f2 & r2 & v2 & H2 & R2 & DC2 & ->). apply decodes_iff in DC1 as (fs1 & K1 & D1), DC2 as (fs2 & K2 & D2).
  assert (E : (f1, r1) = (f2, r2)) by (eapply (nodup_map_eq _ iss); [exact DI|assumption|assumption|cbn [snd]; congruence]).
  injection E as -> ->. congruence.
Qed.

Lemma delivers_det_all C depth iss frs l1 l2 : NoDup (map fst iss) -> distinct_ids iss ->
  Forall2 (delivers C depth iss) frs l1 -> Forall2 (delivers C depth iss) frs l2 -> l1 = l2.
Proof.
  intros ND DI F. revert l2. induction F as [|fr fo frs l D F IH]; intros l2 F2; inversion F2; subst; [reflexivity|].
  f_equal; [eapply delivers_det; eauto|now apply IH].
Qed.

(** ** Any byte stream, from any state: the cuts do not matter *)
Section Chunks.
  Variable C : codec.
  Variable depth : nat.
  Variable neg_read : Z -> bytes -> bytes * bytes.
  (** what comes back for a negative count does not depend on bytes that arrive later *)
  Hypothesis neg_local : forall n a b, neg_read n (a ++ b) = (fst (neg_read n a), snd (neg_read n a) ++ b).
  Notation step := (step C depth neg_read).
  Notation run := (run C depth neg_read).
  Notation R := (read_step C depth neg_read).
  Definition D (b : bytes) (st : conn) : conn := step (EvData b) st.

  Definition set_buf (st : conn) (b : bytes) : conn :=
    Conn (c_closing st) (c_api st) (c_pending st) (c_phase st) b (c_closed st) (c_next st) (c_done st) (c_written st).

  (** equal up to the unread bytes of a reader that has finished *)
  Definition sim (s t : conn) : Prop :=
    s = t \/ (gone s /\ exists b, t = set_buf s b).

  Lemma sim_refl s : sim s s. Proof. now left. Qed.
  Lemma gone_buf s b : gone s -> gone (set_buf s b). Proof. intros [A B]. split; auto. Qed.
  Lemma sim_sym s t : sim s t -> sim t s.
  Proof.
    intros [->|(G & b & ->)]; [now left|]. right. split; [now apply gone_buf|].
    exists (c_inbuf s). destruct s; reflexivity.
  Qed.
  Lemma sim_trans s t u : sim s t -> sim t u -> sim s u.
  Proof.
    intros [->|(G & b & ->)] H; [exact H|]. destruct H as [<-|(G' & b' & ->)]; right; (split; [exact G|]).
    - now exists b.
    - now exists b'.
  Qed.

  Lemma sim_R s t : sim s t -> sim (R s) (R t).
  Proof.
    intros [->|(G & b & ->)]; [apply sim_refl|]. pose proof G as [CL P].
    unfold read_step. cbn [set_buf c_phase]. destruct P as [-> | ->].
    - right. cbn [set_buf c_closing]. rewrite CL. split; [split; [exact CL|now right]|].
      exists b. reflexivity.
    - right. split; [exact G|]. now exists b.
  Qed.

  Lemma sim_D s t b : sim s t -> sim (D b s) (D b t).
  Proof.
    intros [->|(G & b' & ->)]; [apply sim_refl|]. unfold D. cbn [Connection.step set_buf c_closed].
    right. destruct (c_closed s) eqn:E.
    - split; [exact G|]. exists b'. unfold set_buf. reflexivity.
    - split; [destruct G; split; auto|]. exists (b' ++ b). unfold set_buf. reflexivity.
  Qed.

  Lemma with_read_D n st b k : c_closed st = false -> with_read neg_read n st k <> st ->
    (forall x s y, c_closed s = false -> k x (set_buf s (c_inbuf s ++ y)) = set_buf (k x s) (c_inbuf (k x s) ++ y)) ->
    with_read neg_read n (set_buf st (c_inbuf st ++ b)) k = set_buf (with_read neg_read n st k) (c_inbuf (with_read neg_read n st k) ++ b).
  Proof.
    intros CD NW K. unfold with_read, read_bytes in *. cbn [set_buf c_inbuf c_closed] in *. rewrite CD in *.
    destruct (n <? 0) eqn:N.
    - rewrite neg_local. destruct (neg_read n (c_inbuf st)) as [x r]. cbn [fst snd] in *.
      exact (K x (Conn (c_closing st) (c_api st) (c_pending st) (c_phase st) r false (c_next st) (c_done st) (c_written st)) b eq_refl).
    - destruct (n <=? zlen (c_inbuf st)) eqn:L; [|congruence].
      rewrite zlen_app. pose proof (zlen_nonneg b). destruct (n <=? zlen (c_inbuf st) + zlen b) eqn:L2; [|lia].
      assert (LN : (Z.to_nat n <= length (c_inbuf st))%nat) by (unfold zlen in L; lia).
      rewrite firstn_app, skipn_app. replace (Z.to_nat n - length (c_inbuf st))%nat with 0%nat by lia.
      change (firstn 0 b) with (@nil Z). change (skipn 0 b) with b. rewrite app_nil_r.
      exact (K (firstn (Z.to_nat n) (c_inbuf st)) (Conn (c_closing st) (c_api st) (c_pending st) (c_phase st)
              (skipn (Z.to_nat n) (c_inbuf st)) false (c_next st) (c_done st) (c_written st)) b eq_refl).
  Qed.

  Lemma D_closed b st : c_closed st = true -> D b st = st.
  Proof. intro E. unfold D. cbn [Connection.step]. now rewrite E. Qed.
  Lemma D_open b st : c_closed st = false -> D b st = set_buf st (c_inbuf st ++ b).
  Proof. intro E. unfold D. cbn [Connection.step]. rewrite E. unfold set_buf. now rewrite E. Qed.

  Lemma error_D e st b : c_closed st = false -> c_phase st <> PLoop ->
    sim (set_phase (on_error e (set_buf st (c_inbuf st ++ b))) PLoop) (D b (set_phase (on_error e st) PLoop)).
  Proof.
    intros CD NP.
    assert (AB : forall x, sim (set_phase (conn_abort x (set_buf st (c_inbuf st ++ b))) PLoop) (D b (set_phase (conn_abort x st) PLoop))).
    { intro x. unfold conn_abort. cbn [set_buf c_closing]. destruct (c_closing st) eqn:CL.
      - rewrite D_open by exact CD. left. reflexivity.
      - rewrite D_closed by reflexivity. right. split; [split; [reflexivity|now left]|]. now exists (c_inbuf st). }
    destruct e; cbn [on_error]; try apply AB.
    rewrite D_open by exact CD. left. reflexivity.
  Qed.

  Lemma R_D st b : R st <> st -> sim (R (D b st)) (D b (R st)).
  Proof.
    intro NR. destruct (c_closed st) eqn:CD.
    - rewrite D_closed by exact CD.
      assert (CR : c_closed (R st) = true).
      { assert (ER : forall e, c_closed (on_error e st) = true)
          by (intro e; destruct e; cbn [on_error]; try exact CD; unfold conn_abort; destruct (c_closing st); auto).
        unfold read_step, with_read. destruct (c_phase st); auto.
        - destruct (read_bytes neg_read 4 st); auto.
        - destruct (read_bytes neg_read 4 st); auto.
        - destruct (read_bytes neg_read size st); auto. cbn [c_api].
          destruct (dget (c_api st) corr); auto. destruct (dget response_classes s); auto.
          destruct (deserialize _ _ _ _); auto.
        - destruct (dget (c_pending st) corr); auto. apply ER.
        - apply ER. }
      rewrite D_closed by exact CR. apply sim_refl.
    - rewrite D_open by exact CD. unfold read_step in *. cbn [set_buf c_phase] in *.
      destruct (c_phase st) eqn:P; try congruence.
      + rewrite D_open by exact CD. left. reflexivity.
      + left. rewrite with_read_D; [|exact CD|exact NR|].
        * rewrite D_open; [reflexivity|]. unfold with_read. destruct (read_bytes neg_read 4 st); auto.
        * intros. reflexivity.
      + left. rewrite with_read_D; [|exact CD|exact NR|].
        * rewrite D_open; [reflexivity|]. unfold with_read. destruct (read_bytes neg_read 4 st); auto.
        * intros. reflexivity.
      + left. rewrite with_read_D; [|exact CD|exact NR|].
        * rewrite D_open; [reflexivity|]. unfold with_read. destruct (read_bytes neg_read size st); auto. cbn [c_api].
          destruct (dget (c_api st) corr); auto. destruct (dget response_classes s); auto.
          destruct (deserialize _ _ _ _); auto.
        * intros x s y CS. cbn [set_buf c_api].
          destruct (dget (c_api s) corr) as [a|]; [|reflexivity].
          destruct (dget response_classes a) as [fs|]; [|reflexivity].
          destruct (deserialize C depth (TPart fs) x); reflexivity.
      + cbn [set_buf c_pending]. destruct (dget (c_pending st) corr).
        * rewrite D_open by exact CD. left. reflexivity.
        * apply error_D; [exact CD|congruence].
      + apply error_D; [exact CD|congruence].
  Qed.

  Fixpoint iterR (k : nat) (st : conn) : conn := match k with O => st | S k => R (iterR k st) end.

  Lemma iterR_R k st : iterR k (R st) = R (iterR k st).
  Proof. induction k; [reflexivity|]. cbn [iterR]. now rewrite IHk. Qed.
  Lemma iterR_add k m st : iterR (k + m) st = iterR k (iterR m st).
  Proof. induction k; [reflexivity|]. cbn [Nat.add iterR]. now rewrite IHk. Qed.
  Lemma iterR_sim k s t : sim s t -> sim (iterR k s) (iterR k t).
  Proof. induction k; intro H; [exact H|]. cbn [iterR]. apply sim_R, IHk, H. Qed.
  Lemma conn_eq_dec_R st : R st = st \/ R st <> st.
  Proof.
    (* decided by the phase and the length of the buffer *)
    unfold read_step. destruct (c_phase st) eqn:P; try (now left);
      try (right; intro E; apply (f_equal c_phase) in E; rewrite P in E; cbn in E; try destruct (c_closing st); discriminate).
    - unfold with_read. destruct (read_bytes neg_read 4 st); [right|right|now left];
        intro E; apply (f_equal c_phase) in E; rewrite P in E; cbn in E; try destruct (unpack_i b); discriminate.
    - unfold with_read. destruct (read_bytes neg_read 4 st); [right|right|now left];
        intro E; apply (f_equal c_phase) in E; rewrite P in E; cbn in E; try destruct (unpack_i b); discriminate.
    - unfold with_read. destruct (read_bytes neg_read size st); [right|right|now left];
        intro E; apply (f_equal c_phase) in E; rewrite P in E; cbn [set_phase c_phase c_api] in E; [|discriminate].
      destruct (dget (c_api st) corr) as [a|]; [|discriminate]. destruct (dget response_classes a); [|discriminate].
      destruct (deserialize C depth (TPart f) b); discriminate.
    - right. intro E. apply (f_equal c_phase) in E. rewrite P in E. destruct (dget (c_pending st) corr); discriminate.
  Qed.

  Definition only_io (ev : event) : Prop := match ev with EvData _ | EvRead => True | _ => False end.

  Lemma D_app a b st : D b (D a st) = D (a ++ b) st.
  Proof.
    unfold D. cbn [Connection.step]. destruct (c_closed st) eqn:E; [now rewrite E|]. cbn [c_closed c_inbuf]. 
    cbn [c_closing c_api c_pending c_phase c_next c_done c_written]. now rewrite app_assoc.
  Qed.
  Lemma D_nil st : D [] st = st.
  Proof. unfold D. cbn [Connection.step]. destruct st as [? ? ? ? ? cl]. cbn. rewrite app_nil_r. now destruct cl. Qed.

  Lemma iterR_D k st b : (forall i, (i < k)%nat -> R (iterR i st) <> iterR i st) -> sim (iterR k (D b st)) (D b (iterR k st)).
  Proof.
    induction k as [|k IH]; intro H; [apply sim_refl|]. cbn [iterR].
    eapply sim_trans; [apply sim_R, IH; intros; apply H; lia|]. apply R_D. apply H. lia.
  Qed.

  Lemma normal_form evs st : Forall only_io evs -> exists k, sim (run evs st) (iterR k (D (received_bytes evs) st)).
  Proof.
    revert st. induction evs as [|ev evs IH]; intros st F.
    - exists O. cbn [iterR Connection.run fold_left]. change (received_bytes []) with (@nil Z). rewrite D_nil. apply sim_refl.
    - inversion F as [|? ? F1 F2]; subst. destruct ev; cbn [only_io] in F1; try contradiction.
      + destruct (IH (step (EvData b) st) F2) as [k H]. exists k.
        change (run (EvData b :: evs) st) with (run evs (step (EvData b) st)).
        eapply sim_trans; [exact H|]. fold (D b st). rewrite D_app.
        change (received_bytes (EvData b :: evs)) with (b ++ received_bytes evs). apply sim_refl.
      + destruct (IH (R st) F2) as [k H].
        change (run (EvRead :: evs) st) with (run evs (R st)).
        change (received_bytes (EvRead :: evs)) with (received_bytes evs).
        destruct (conn_eq_dec_R st) as [E|NE].
        * exists k. rewrite E in *. exact H.
        * exists (S k). eapply sim_trans; [exact H|]. cbn [iterR]. rewrite <- iterR_R. apply iterR_sim.
          apply sim_sym. now apply R_D.
  Qed.

  Lemma fixed_stays s x k m : sim s (iterR k x) -> R s = s -> sim s (iterR (m + k) x).
  Proof.
    intros H E. induction m as [|m IH]; [exact H|]. cbn [Nat.add iterR]. rewrite <- E. now apply sim_R.
  Qed.

  Lemma chunks_irrelevant evs1 evs2 st : Forall only_io evs1 -> Forall only_io evs2 ->
    received_bytes evs1 = received_bytes evs2 ->
    R (run evs1 st) = run evs1 st -> R (run evs2 st) = run evs2 st -> sim (run evs1 st) (run evs2 st).
  Proof.
    intros F1 F2 E Q1 Q2. destruct (normal_form evs1 st F1) as [k1 H1]. destruct (normal_form evs2 st F2) as [k2 H2].
    rewrite E in H1. apply (fixed_stays _ _ _ k2) in H1; [|exact Q1]. apply (fixed_stays _ _ _ k1) in H2; [|exact Q2].
    rewrite Nat.add_comm in H2. eapply sim_trans; [exact H1|apply sim_sym; exact H2].
  Qed.
End Chunks.
