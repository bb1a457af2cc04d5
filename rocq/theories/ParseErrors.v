(** Parsing does no I/O: no parser raises tornado's StreamClosedError, provided the compression
    libraries do not (the same induction as MessagesProofs.parse_total, for another exception). *)
From Coq Require Import ZArith String List Bool Lia ZifyBool.
From Verif Require Import PyBase BaseLemmas Utf8 Utf8Proofs Struct StructProofs Crc32 Primitives Snappy
  Messages Protocol SpecWire ProtocolProofs WireMore MessagesProofs.
Import ListNotations.
Open Scope Z_scope.

Definition no_io_codec (C : codec) : Prop :=
  (forall b, gz_decompress C b <> Err EStreamClosed) /\ (forall b, sn_uncompress C b <> Err EStreamClosed).

Lemma decomp_loop_no_io av unc n data lim off :
  (forall b, unc b <> Err EStreamClosed) -> 0 <= off -> zlen data - off < Z.of_nat n -> lim <= zlen data ->
  decomp_loop unc n data lim off <> Err EStreamClosed /\ (av = true \/ av = false).
Proof.
  intros U. split; [|destruct av; auto]. revert off H H0 H1.
  induction n as [|n IH]; intros off H H0 H1; cbn [decomp_loop]; destruct (lim <? off) eqn:L; try discriminate.
  destruct (unpack1 Fi data off) as [s|e] eqn:E1; cbn [bind].
  2:{ apply unpack1_err in E1. congruence. }
  apply unpack1_ok_bounds in E1. cbn [tok_size] in E1. destruct s; try discriminate.
  destruct (unpack1 (Fs z) data (off + 4)) as [w|e] eqn:E2; cbn [bind].
  2:{ apply unpack1_err in E2. congruence. }
  apply unpack1_ok_bounds in E2. cbn [tok_size] in E2. destruct w; try discriminate.
  destruct (unc b) as [u|e] eqn:E3; cbn [bind].
  2:{ intro X. apply (U b). congruence. }
  destruct (decomp_loop unc n data lim (off + 4 + z)) as [r|e] eqn:E4; cbn [bind]; [discriminate|].
  intro X. apply (IH (off + 4 + z)); [lia|lia|exact H1|]. rewrite E4. congruence.
Qed.

Lemma sn_decompress_v_no_io C v : no_io_codec C -> sn_decompress_v C v <> Err EStreamClosed.
Proof.
  intros [_ S]. unfold sn_decompress_v. destruct (negb (sn_available C)) eqn:N; [discriminate|].
  destruct v; try discriminate; [destruct (_ <? _); discriminate|].
  unfold snappy_decompress. rewrite N.
  destruct (decomp_loop_no_io true (sn_uncompress C) (Datatypes.S (length b)) b (zlen b - zlen raw_header) (zlen raw_header))
    as [G _]; [exact S|unfold zlen; lia|unfold zlen; lia| |].
  { change (zlen raw_header) with 16. lia. }
  destruct (decomp_loop _ _ _ _ _); cbn [bind]; [discriminate|]. intro X. apply G. congruence.
Qed.

Lemma gz_decompress_v_no_io C v : no_io_codec C -> gz_decompress_v C v <> Err EStreamClosed.
Proof.
  intros [S _]. unfold gz_decompress_v. destruct v; try discriminate.
  - specialize (S []). destruct (gz_decompress C []); cbn [bind]; [discriminate|]. congruence.
  - specialize (S b). destruct (gz_decompress C b); cbn [bind]; [discriminate|]. congruence.
Qed.

Lemma prim_parse_no_io p b off : prim_parse p b off <> Err EStreamClosed.
Proof. intro E. apply prim_parse_struct in E. discriminate. Qed.

Lemma msg_parse_no_io C b off : no_io_codec C -> msg_parse C b off <> Err EStreamClosed.
Proof.
  intro CC. unfold msg_parse.
  repeat match goal with
  | |- context [prim_parse ?p b ?o] =>
    let E := fresh "E" in destruct (prim_parse p b o) as [[? ?]|] eqn:E; cbn [bind];
    [|intro; apply (prim_parse_no_io p b o); congruence]
  end.
  match goal with |- match ?x with _ => _ end <> _ => destruct x end; try discriminate.
  destruct (_ =? 0); [discriminate|].
  destruct (if _ =? GZIP then _ else _) as [v|e] eqn:EZ; cbn [bind]; [discriminate|].
  intro X. assert (e = EStreamClosed) by congruence. subst e.
  destruct (_ =? GZIP); [now apply (gz_decompress_v_no_io _ _ CC) in EZ|].
  destruct (_ =? SNAPPY); [now apply (sn_decompress_v_no_io _ _ CC) in EZ|discriminate].
Qed.

Lemma parse_entry_no_io C b off : no_io_codec C -> parse_entry C b off <> Raise EStreamClosed.
Proof.
  intro CC. unfold parse_entry.
  destruct (prim_parse Int64 b off) as [[x o1]|e1] eqn:E1.
  2:{ apply prim_parse_struct in E1. subst. discriminate. }
  destruct (prim_parse Int32 b o1) as [[y o2]|e2] eqn:E2.
  2:{ apply prim_parse_struct in E2. subst. discriminate. }
  destruct (msg_parse C b o2) as [[m o3]|e3] eqn:E3; [discriminate|].
  intro X. apply (msg_parse_no_io C b o2 CC). rewrite E3. destruct e3; congruence.
Qed.

Lemma ms_loop_no_io C nested fuel b off end_ :
  0 <= off <= zlen b ->
  (forall v, nested v <> Err EStreamClosed) -> no_io_codec C ->
  zlen b - off < Z.of_nat fuel ->
  ms_loop C nested fuel b off end_ <> Err EStreamClosed /\
  forall ms o, ms_loop C nested fuel b off end_ = Ok (ms, o) -> off <= o <= zlen b.
Proof.
  intros H N CC. revert off H.
  induction fuel as [|fuel IH]; intros off H F; cbn [ms_loop].
  - destruct (off =? end_) eqn:E; [|lia]. split; [discriminate|]. intros ms o [= <- <-]. lia.
  - destruct (off =? end_) eqn:E.
    { split; [discriminate|]. intros ms o [= <- <-]. lia. }
    destruct (parse_entry C b off) as [mo m o|o|e] eqn:EE.
    + pose proof (parse_entry_bounds _ _ _ _ _ _ (proj1 H) EE) as B.
      assert (HO : 0 <= o <= zlen b) by lia.
      destruct (IH o HO ltac:(lia)) as [G1 G2].
      destruct (match m_attributes m with PInt 0 => Ok [(mo, m)] | _ => nested (m_value m) end)
        as [here|e] eqn:EH; cbn [bind].
      * destruct (ms_loop C nested fuel b o end_) as [[rest o']|e] eqn:ER; cbn [bind].
        -- split; [discriminate|]. intros ms o2 X.
           assert (o2 = o') as -> by congruence. specialize (G2 _ _ eq_refl). lia.
        -- split; [congruence|discriminate].
      * split; [|discriminate]. intro X. assert (e = EStreamClosed) by congruence. subst e.
        revert EH. destruct (m_attributes m) as [|[| |]| | | | | |]; try discriminate; apply N.
    + apply parse_entry_cut in EE; [|exact H]. split; [discriminate|]. intros ms o2 X.
      assert (o2 = o) as -> by congruence. lia.
    + split; [|discriminate]. intro X. apply (parse_entry_no_io C b off CC). congruence.
Qed.

Lemma nested_no_io C depth v : no_io_codec C -> ms_parse_nested C depth v <> Err EStreamClosed.
Proof.
  intro CC. revert v. induction depth as [|d IH]; intro v; [discriminate|]. cbn [ms_parse_nested].
  destruct v as [| | |[|]|b| | |]; try discriminate.
  assert (H0 : 0 <= 0 <= zlen b) by (pose proof (zlen_nonneg b); lia).
  assert (H1 : zlen b - 0 < Z.of_nat (S (length b))) by (unfold zlen; lia).
  destruct (ms_loop_no_io C (ms_parse_nested C d) (S (length b)) b 0 (zlen b) H0 IH CC H1) as [G _].
  destruct (ms_loop _ _ _ _ _ _) as [[ms o]|e]; cbn [bind]; [discriminate|]. congruence.
Qed.

Lemma ms_parse_no_io C depth b off : no_io_codec C -> 0 <= off <= zlen b ->
  ms_parse C depth b off <> Err EStreamClosed /\
  forall ms o, ms_parse C depth b off = Ok (ms, o) -> off <= o <= zlen b.
Proof.
  intros CC H. unfold ms_parse.
  destruct (prim_parse Int32 b off) as [[s o1]|e] eqn:E1; cbn [bind].
  2:{ apply prim_parse_struct in E1. subst. split; discriminate. }
  apply prim_parse_bounds in E1; [|lia]. cbn [int_fmt tok_size] in E1.
  destruct s; try (split; discriminate).
  assert (H1 : 0 <= o1 <= zlen b) by lia.
  assert (H2 : zlen b - o1 < Z.of_nat (S (length b))) by (unfold zlen in *; lia).
  destruct (ms_loop_no_io C (ms_parse_nested C depth) (S (length b)) b o1 (o1 + z) H1
              (fun v => nested_no_io C depth v CC) CC H2) as [G1 G2].
  split; [exact G1|]. intros ms o X. specialize (G2 ms o X). lia.
Qed.

Lemma parse_no_io C depth t : no_io_codec C -> forall b off, 0 <= off <= zlen b ->
  parse C depth t b off <> Err EStreamClosed /\
  forall v o, parse C depth t b off = Ok (v, o) -> off <= o <= zlen b.
Proof.
  intro CC. induction t as [p|it IH|fs IH|] using ty_ind'; intros b off H.
  - cbn [parse]. split; [apply prim_parse_no_io|]. intros v o E. apply prim_parse_bounds in E; [|lia].
    assert (0 <= tok_size (int_fmt p)) by (destruct p; cbn; lia). lia.
  - cbn [parse]. destruct (prim_parse Int32 b off) as [[c o1]|e] eqn:E1; cbn [bind].
    2:{ apply prim_parse_struct in E1. subst. split; discriminate. }
    apply prim_parse_bounds in E1; [|lia]. cbn [int_fmt tok_size] in E1.
    destruct c; try (split; discriminate). destruct z as [|n|n].
    + split; [discriminate|]. intros v o [= <- <-]. lia.
    + rewrite iterP_N.
      assert (G : forall k acc off, 0 <= off <= zlen b ->
        iterN k (array_step (parse C depth it b)) (acc, off) <> Err EStreamClosed /\
        forall acc' o, iterN k (array_step (parse C depth it b)) (acc, off) = Ok (acc', o) -> off <= o <= zlen b).
      { induction k as [|k IHk]; intros acc off' H'; cbn [iterN].
        - split; [discriminate|]. intros acc' o [= <- <-]. lia.
        - unfold array_step at 1 3. cbn [fst snd].
          destruct (IH b off' H') as [G1 G2].
          destruct (parse C depth it b off') as [[v o]|e]; cbn [bind].
          2:{ split; [congruence|discriminate]. }
          specialize (G2 _ _ eq_refl). assert (H2 : 0 <= o <= zlen b) by lia.
          destruct (IHk (v :: acc) o H2) as [G3 G4]. split; [exact G3|].
          intros acc' o2 X. specialize (G4 _ _ X). lia. }
      assert (H1 : 0 <= o1 <= zlen b) by lia.
      destruct (G (Pos.to_nat n) [] o1 H1) as [G1 G2].
      destruct (iterN _ _ _) as [[vs o2]|e]; cbn [bind].
      * split; [discriminate|]. intros v o [= <- <-]. specialize (G2 _ _ eq_refl). lia.
      * split; [congruence|discriminate].
    + split; [discriminate|]. intros v o [= <- <-]. lia.
  - rewrite parse_part.
    assert (G : forall off, 0 <= off <= zlen b ->
      parse_fields C depth fs b off <> Err EStreamClosed /\
      forall vs o, parse_fields C depth fs b off = Ok (vs, o) -> off <= o <= zlen b).
    { clear off H. induction IH as [|[n t] r Ht F IHF]; intros off H; cbn [parse_fields].
      - split; [discriminate|]. intros v o [= <- <-]. lia.
      - cbn [snd] in Ht. destruct (Ht b off H) as [G1 G2].
        destruct (parse C depth t b off) as [[v o]|e]; cbn [bind].
        2:{ split; [congruence|discriminate]. }
        specialize (G2 _ _ eq_refl). assert (H2 : 0 <= o <= zlen b) by lia.
        destruct (IHF o H2) as [G3 G4].
        destruct (parse_fields C depth r b o) as [[vs o2]|e]; cbn [bind].
        2:{ split; [congruence|discriminate]. }
        split; [discriminate|]. intros v' o' [= <- <-]. specialize (G4 _ _ eq_refl). lia. }
    destruct (G off H) as [G1 G2]. destruct (parse_fields C depth fs b off) as [[vs o]|e]; cbn [bind].
    + split; [discriminate|]. intros v' o' [= <- <-]. now apply (G2 vs).
    + split; [congruence|discriminate].
  - cbn [parse]. destruct (ms_parse_no_io C depth b off CC H) as [G1 G2].
    destruct (ms_parse C depth b off) as [[ms o]|e]; cbn [bind].
    + split; [discriminate|]. intros v' o' [= <- <-]. now apply (G2 ms).
    + split; [congruence|discriminate].
Qed.
