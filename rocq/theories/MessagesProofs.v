(** Message sets: bounds, loop-counter sufficiency, truncated tails, compressed sets. *)
From Coq Require Import ZArith String List Bool Lia ZifyBool.
From Verif Require Import PyBase BaseLemmas Utf8 Utf8Proofs Struct StructProofs Crc32 Primitives Snappy
  Messages Protocol SpecWire ProtocolProofs WireMore.
Import ListNotations.
Open Scope Z_scope.

(** ** bounds of one entry *)
Lemma int_parse_bounds t b off v o : int_parse t b off = Ok (v, o) ->
  0 <= tok_size t /\ o = off + tok_size t /\ o <= zlen b.
Proof.
  intro E. unfold int_parse in E. destruct (unpack1 t b off) eqn:U; [|discriminate]. cbn [bind] in E.
  injection E as <- <-. apply unpack1_ok_bounds in U. lia.
Qed.

Lemma prim_parse_bounds p b off v o : 0 <= off -> prim_parse p b off = Ok (v, o) ->
  off + tok_size (int_fmt p) <= o <= zlen b.
Proof.
  intros H E.
  assert (V : var_parse (int_fmt p) b off = Ok (v, o) -> off + tok_size (int_fmt p) <= o <= zlen b).
  { clear E. intro E. unfold var_parse in E.
    destruct (int_parse (int_fmt p) b off) as [[s o1]|] eqn:E1; [|discriminate]. cbn [bind] in E.
    apply int_parse_bounds in E1. destruct s; try discriminate.
    destruct (z =? -1); [injection E as <- <-; lia|].
    destruct (unpack1 (Fs z) b o1) as [w|] eqn:U2; [|discriminate]. cbn [bind] in E.
    destruct w; try discriminate. injection E as <- <-. apply unpack1_ok_bounds in U2.
    cbn [tok_size] in U2. lia. }
  destruct p; cbn [prim_parse] in E; try (apply int_parse_bounds in E; lia); now apply V.
Qed.

Lemma msg_parse_bounds C b off m o : 0 <= off -> msg_parse C b off = Ok (m, o) -> off + 14 <= o <= zlen b.
Proof.
  intros H E. unfold msg_parse in E.
  destruct (prim_parse Int32 b off) as [[crc o1]|] eqn:E1; [|discriminate]. cbn [bind] in E.
  destruct (prim_parse Int8 b o1) as [[g o2]|] eqn:E2; [|discriminate]. cbn [bind] in E.
  destruct (prim_parse Int8 b o2) as [[a o3]|] eqn:E3; [|discriminate]. cbn [bind] in E.
  destruct (prim_parse Bytes_ b o3) as [[k o4]|] eqn:E4; [|discriminate]. cbn [bind] in E.
  destruct (prim_parse Bytes_ b o4) as [[v o5]|] eqn:E5; [|discriminate]. cbn [bind] in E.
  apply prim_parse_bounds in E1; [|lia]. apply prim_parse_bounds in E2; [|cbn in E1; lia].
  cbn [int_fmt tok_size] in *.
  apply prim_parse_bounds in E3; [|lia]. apply prim_parse_bounds in E4; [|cbn [int_fmt tok_size] in *; lia].
  cbn [int_fmt tok_size] in *.
  apply prim_parse_bounds in E5; [|lia]. cbn [int_fmt tok_size] in *.
  assert (o = o5) as ->; [|lia].
  destruct a; try discriminate. destruct (Z.land z 3 =? 0); [injection E as <- <-; reflexivity|].
  destruct (if _ =? GZIP then _ else _); [|discriminate]. cbn [bind] in E. injection E as <- <-. reflexivity.
Qed.

Lemma parse_entry_bounds C b off mo m o : 0 <= off -> parse_entry C b off = Entry mo m o ->
  off + 26 <= o <= zlen b.
Proof.
  intros H E. unfold parse_entry in E.
  destruct (prim_parse Int64 b off) as [[x o1]|e1] eqn:E1; [|destruct e1; discriminate].
  destruct (prim_parse Int32 b o1) as [[y o2]|e2] eqn:E2; [|destruct e2; discriminate].
  destruct (msg_parse C b o2) as [[m' o3]|e3] eqn:E3; [|destruct e3; discriminate].
  injection E as <- <- <-.
  apply prim_parse_bounds in E1; [|lia]. cbn [int_fmt tok_size] in *.
  apply prim_parse_bounds in E2; [|lia]. cbn [int_fmt tok_size] in *.
  apply msg_parse_bounds in E3; lia.
Qed.

Lemma parse_entry_cut C b off o : 0 <= off <= zlen b -> parse_entry C b off = Cut o -> off <= o <= zlen b.
Proof.
  intros H E. unfold parse_entry in E.
  destruct (prim_parse Int64 b off) as [[x o1]|e1] eqn:E1; [|destruct e1; try discriminate; injection E as <-; lia].
  apply prim_parse_bounds in E1; [|lia]. cbn [int_fmt tok_size] in *.
  destruct (prim_parse Int32 b o1) as [[y o2]|e2] eqn:E2; [|destruct e2; try discriminate; injection E as <-; lia].
  apply prim_parse_bounds in E2; [|lia]. cbn [int_fmt tok_size] in *.
  destruct (msg_parse C b o2) as [[m' o3]|e3] eqn:E3; [discriminate|destruct e3; try discriminate; injection E as <-; lia].
Qed.

(** ** loop counters suffice *)
(** the libraries do not raise the model's out-of-fuel marker *)
Definition clean_codec (C : codec) : Prop :=
  (forall b, gz_decompress C b <> Err (EOther 99)) /\ (forall b, sn_uncompress C b <> Err (EOther 99)).

Lemma decomp_loop_fuel av unc n data lim off :
  (forall b, unc b <> Err (EOther 99)) -> 0 <= off -> zlen data - off < Z.of_nat n -> lim <= zlen data ->
  decomp_loop unc n data lim off <> Err (EOther 99) /\ (av = true \/ av = false).
Proof.
  intros U. split; [|destruct av; auto]. revert off H H0 H1.
  induction n as [|n IH]; intros off H H0 H1; cbn [decomp_loop]; destruct (lim <? off) eqn:L; try discriminate; [lia|].
  destruct (unpack1 Fi data off) as [s|e] eqn:E1; cbn [bind].
  2:{ apply unpack1_err in E1. congruence. }
  apply unpack1_ok_bounds in E1. cbn [tok_size] in E1. destruct s; try discriminate.
  destruct (unpack1 (Fs z) data (off + 4)) as [w|e] eqn:E2; cbn [bind].
  2:{ apply unpack1_err in E2. congruence. }
  apply unpack1_ok_bounds in E2. cbn [tok_size] in E2. destruct w; try discriminate.
  destruct (unc b) as [u|e] eqn:E3; cbn [bind].
  2:{ intro X. apply (U b). congruence. }
  destruct (decomp_loop unc n data lim (off + 4 + z)) as [r|e] eqn:E4; cbn [bind]; [discriminate|].
  intro X. apply (IH (off + 4 + z)); [lia|lia|exact H1|]. rewrite E4. congruence.
Qed.

Lemma sn_decompress_v_fuel C v : clean_codec C -> sn_decompress_v C v <> Err (EOther 99).
Proof.
  intros [_ S]. unfold sn_decompress_v. destruct (negb (sn_available C)) eqn:N; [discriminate|].
  destruct v; try discriminate; [destruct (_ <? _); discriminate|].
  unfold snappy_decompress. rewrite N.
  destruct (decomp_loop_fuel true (sn_uncompress C) (Datatypes.S (length b)) b (zlen b - zlen raw_header) (zlen raw_header))
    as [G _]; [exact S|unfold zlen; lia|unfold zlen; lia| |].
  { change (zlen raw_header) with 16. lia. }
  destruct (decomp_loop _ _ _ _ _); cbn [bind]; [discriminate|]. intro X. apply G. congruence.
Qed.

Lemma gz_decompress_v_fuel C v : clean_codec C -> gz_decompress_v C v <> Err (EOther 99).
Proof.
  intros [S _]. unfold gz_decompress_v. destruct v; try discriminate.
  - specialize (S []). destruct (gz_decompress C []); cbn [bind]; [discriminate|]. congruence.
  - specialize (S b). destruct (gz_decompress C b); cbn [bind]; [discriminate|]. congruence.
Qed.

Lemma prim_parse_fuel p b off : prim_parse p b off <> Err (EOther 99).
Proof. intro E. apply prim_parse_struct in E. discriminate. Qed.

Lemma msg_parse_fuel C b off : clean_codec C -> msg_parse C b off <> Err (EOther 99).
Proof.
  intro CC. unfold msg_parse.
  repeat match goal with
  | |- context [prim_parse ?p b ?o] =>
    let E := fresh "E" in destruct (prim_parse p b o) as [[? ?]|] eqn:E; cbn [bind];
    [|intro; apply (prim_parse_fuel p b o); congruence]
  end.
  match goal with |- match ?x with _ => _ end <> _ => destruct x end; try discriminate.
  destruct (_ =? 0); [discriminate|].
  destruct (if _ =? GZIP then _ else _) as [v|e] eqn:EZ; cbn [bind]; [discriminate|].
  intro X. assert (e = EOther 99) by congruence. subst e.
  destruct (_ =? GZIP); [now apply (gz_decompress_v_fuel _ _ CC) in EZ|].
  destruct (_ =? SNAPPY); [now apply (sn_decompress_v_fuel _ _ CC) in EZ|discriminate].
Qed.

Lemma parse_entry_fuel C b off : clean_codec C -> parse_entry C b off <> Raise (EOther 99).
Proof.
  intro CC. unfold parse_entry.
  destruct (prim_parse Int64 b off) as [[x o1]|e1] eqn:E1.
  2:{ apply prim_parse_struct in E1. subst. discriminate. }
  destruct (prim_parse Int32 b o1) as [[y o2]|e2] eqn:E2.
  2:{ apply prim_parse_struct in E2. subst. discriminate. }
  destruct (msg_parse C b o2) as [[m o3]|e3] eqn:E3; [discriminate|].
  intro X. apply (msg_parse_fuel C b o2 CC). rewrite E3. destruct e3; congruence.
Qed.

Lemma ms_loop_bounds C nested fuel b off end_ :
  0 <= off <= zlen b ->
  (forall v, nested v <> Err (EOther 99)) -> clean_codec C ->
  zlen b - off < Z.of_nat fuel ->
  ms_loop C nested fuel b off end_ <> Err (EOther 99) /\
  forall ms o, ms_loop C nested fuel b off end_ = Ok (ms, o) -> off <= o <= zlen b.
Proof.
  intros H N CC. revert off H.
  induction fuel as [|fuel IH]; intros off H F; cbn [ms_loop].
  - destruct (off =? end_) eqn:E; [|lia]. split; [discriminate|]. intros ms o [= <- <-]. lia.
  - destruct (off =? end_) eqn:E.
    { split; [discriminate|]. intros ms o [= <- <-]. lia. }
    destruct (parse_entry C b off) as [mo m o|o|e] eqn:EE.
    + pose proof (parse_entry_bounds _ _ _ _ _ _ (proj1 H) EE) as B.
      assert (HO : 0 <= o <= zlen b) by lia.
      destruct (IH o HO ltac:(lia)) as [G1 G2].
      destruct (match m_attributes m with PInt 0 => Ok [(mo, m)] | _ => nested (m_value m) end)
        as [here|e] eqn:EH; cbn [bind].
      * destruct (ms_loop C nested fuel b o end_) as [[rest o']|e] eqn:ER; cbn [bind].
        -- split; [discriminate|]. intros ms o2 X.
           assert (o2 = o') as -> by congruence. specialize (G2 _ _ eq_refl). lia.
        -- split; [congruence|discriminate].
      * split; [|discriminate]. intro X. assert (e = EOther 99) by congruence. subst e.
        revert EH. destruct (m_attributes m) as [|[| |]| | | | | |]; try discriminate; apply N.
    + apply parse_entry_cut in EE; [|exact H]. split; [discriminate|]. intros ms o2 X.
      assert (o2 = o) as -> by congruence. lia.
    + split; [|discriminate]. intro X. apply (parse_entry_fuel C b off CC). congruence.
Qed.

Lemma nested_fuel C depth v : clean_codec C -> ms_parse_nested C depth v <> Err (EOther 99).
Proof.
  intro CC. revert v. induction depth as [|d IH]; intro v; [discriminate|]. cbn [ms_parse_nested].
  destruct v as [| | |[|]|b| | |]; try discriminate.
  assert (H0 : 0 <= 0 <= zlen b) by (pose proof (zlen_nonneg b); lia).
  assert (H1 : zlen b - 0 < Z.of_nat (S (length b))) by (unfold zlen; lia).
  destruct (ms_loop_bounds C (ms_parse_nested C d) (S (length b)) b 0 (zlen b) H0 IH CC H1) as [G _].
  destruct (ms_loop _ _ _ _ _ _) as [[ms o]|e]; cbn [bind]; [discriminate|]. congruence.
Qed.

Lemma ms_parse_total C depth b off : clean_codec C -> 0 <= off <= zlen b ->
  ms_parse C depth b off <> Err (EOther 99) /\
  forall ms o, ms_parse C depth b off = Ok (ms, o) -> off <= o <= zlen b.
Proof.
  intros CC H. unfold ms_parse.
  destruct (prim_parse Int32 b off) as [[s o1]|e] eqn:E1; cbn [bind].
  2:{ apply prim_parse_struct in E1. subst. split; discriminate. }
  apply prim_parse_bounds in E1; [|lia]. cbn [int_fmt tok_size] in E1.
  destruct s; try (split; discriminate).
  assert (H1 : 0 <= o1 <= zlen b) by lia.
  assert (H2 : zlen b - o1 < Z.of_nat (S (length b))) by (unfold zlen in *; lia).
  destruct (ms_loop_bounds C (ms_parse_nested C depth) (S (length b)) b o1 (o1 + z) H1
              (fun v => nested_fuel C depth v CC) CC H2) as [G1 G2].
  split; [exact G1|]. intros ms o X. specialize (G2 ms o X). lia.
Qed.

Lemma parse_total C depth t : clean_codec C -> forall b off, 0 <= off <= zlen b ->
  parse C depth t b off <> Err (EOther 99) /\
  forall v o, parse C depth t b off = Ok (v, o) -> off <= o <= zlen b.
Proof.
  intro CC. induction t as [p|it IH|fs IH|] using ty_ind'; intros b off H.
  - cbn [parse]. split; [apply prim_parse_fuel|]. intros v o E. apply prim_parse_bounds in E; [|lia].
    assert (0 <= tok_size (int_fmt p)) by (destruct p; cbn; lia). lia.
  - cbn [parse]. destruct (prim_parse Int32 b off) as [[c o1]|e] eqn:E1; cbn [bind].
    2:{ apply prim_parse_struct in E1. subst. split; discriminate. }
    apply prim_parse_bounds in E1; [|lia]. cbn [int_fmt tok_size] in E1.
    destruct c; try (split; discriminate). destruct z as [|n|n].
    + split; [discriminate|]. intros v o [= <- <-]. lia.
    + rewrite iterP_N.
      assert (G : forall k acc off, 0 <= off <= zlen b ->
        iterN k (array_step (parse C depth it b)) (acc, off) <> Err (EOther 99) /\
        forall acc' o, iterN k (array_step (parse C depth it b)) (acc, off) = Ok (acc', o) -> off <= o <= zlen b).
      { induction k as [|k IHk]; intros acc off' H'; cbn [iterN].
        - split; [discriminate|]. intros acc' o [= <- <-]. lia.
        - unfold array_step at 1 3. cbn [fst snd].
          destruct (IH b off' H') as [G1 G2].
          destruct (parse C depth it b off') as [[v o]|e]; cbn [bind].
          2:{ split; [congruence|discriminate]. }
          specialize (G2 _ _ eq_refl). assert (H2 : 0 <= o <= zlen b) by lia.
          destruct (IHk (v :: acc) o H2) as [G3 G4]. split; [exact G3|].
          intros acc' o2 X. specialize (G4 _ _ X). lia. }
      assert (H1 : 0 <= o1 <= zlen b) by lia.
      destruct (G (Pos.to_nat n) [] o1 H1) as [G1 G2].
      destruct (iterN _ _ _) as [[vs o2]|e]; cbn [bind].
      * split; [discriminate|]. intros v o [= <- <-]. specialize (G2 _ _ eq_refl). lia.
      * split; [congruence|discriminate].
    + split; [discriminate|]. intros v o [= <- <-]. lia.
  - rewrite parse_part.
    assert (G : forall off, 0 <= off <= zlen b ->
      parse_fields C depth fs b off <> Err (EOther 99) /\
      forall vs o, parse_fields C depth fs b off = Ok (vs, o) -> off <= o <= zlen b).
    { clear off H. induction IH as [|[n t] r Ht F IHF]; intros off H; cbn [parse_fields].
      - split; [discriminate|]. intros v o [= <- <-]. lia.
      - cbn [snd] in Ht. destruct (Ht b off H) as [G1 G2].
        destruct (parse C depth t b off) as [[v o]|e]; cbn [bind].
        2:{ split; [congruence|discriminate]. }
        specialize (G2 _ _ eq_refl). assert (H2 : 0 <= o <= zlen b) by lia.
        destruct (IHF o H2) as [G3 G4].
        destruct (parse_fields C depth r b o) as [[vs o2]|e]; cbn [bind].
        2:{ split; [congruence|discriminate]. }
        split; [discriminate|]. intros v' o' [= <- <-]. specialize (G4 _ _ eq_refl). lia. }
    destruct (G off H) as [G1 G2]. destruct (parse_fields C depth fs b off) as [[vs o]|e]; cbn [bind].
    + split; [discriminate|]. intros v' o' [= <- <-]. now apply (G2 vs).
    + split; [congruence|discriminate].
  - cbn [parse]. destruct (ms_parse_total C depth b off CC H) as [G1 G2].
    destruct (ms_parse C depth b off) as [[ms o]|e]; cbn [bind].
    + split; [discriminate|]. intros v' o' [= <- <-]. now apply (G2 ms).
    + split; [congruence|discriminate].
Qed.

(** ** reading sets with correct checksums, whatever follows *)
(** what a stored entry is read back as: the checksum attribute is filled in *)
Inductive stored : pyval * pymsg -> pyval * pymsg -> Prop :=
| st o c g k v p :
    wire_payload (Msg c (PInt g) (PInt 0) k v) p ->
    stored (PInt o, Msg c (PInt g) (PInt 0) k v)
           (PInt o, Msg (PInt (signed32 (crc32 p))) (PInt g) (PInt 0) k v).

Definition readable (om : pyval * pymsg) : Prop :=
  (exists o, fst om = PInt o /\ fits 64 o) /\ legal_msg (snd om) /\ m_attributes (snd om) = PInt 0 /\
  exists p, wire_payload (snd om) p /\ 4 + zlen p < 2 ^ 31.

Lemma wire_var_bytes v b : canon_var 32 v -> wire_var 4 v b -> Forall is_byte b.
Proof.
  intros Cv W. destruct (var_rt Bytes_ v) as (b1 & W1 & _ & F1); [tauto|exact Cv|].
  now rewrite (wire_var_det _ _ _ _ W W1).
Qed.

Lemma ms_loop_through C nested ms b pre post end_ k :
  Forall readable ms -> wire_entries ms b -> zlen pre + zlen b <= end_ ->
  exists ms', Forall2 stored ms ms' /\
  ms_loop C nested (length ms + k) (pre ++ b ++ post) (zlen pre) end_ =
  bind (ms_loop C nested k (pre ++ b ++ post) (zlen pre + zlen b) end_) (fun '(r, o) => Ok (ms' ++ r, o)).
Proof.
  intros F W. revert pre F. induction W as [|o m p r rb Wp Wr IH]; intros pre F L.
  - exists []. split; [constructor|]. cbn [length Nat.add app].
    replace (zlen pre + zlen []) with (zlen pre) by (rewrite zlen_nil; lia).
    destruct (ms_loop _ _ _ _ _ _) as [[r o]|]; reflexivity.
  - inversion F as [|? ? [(o' & Eo & Fo) [Lm [A0 (p' & Wp' & Lp)]]] F']; subst. simpl in Eo, Lm, A0, Wp'. injection Eo as <-.
    rewrite (wire_payload_det _ _ _ Wp' Wp) in *. clear p' Wp'.
    destruct m as [c g a k' v]. simpl in Lm, A0. subst a.
    destruct g as [|g| | | | | |]; try contradiction.
    destruct Lm as (Fg & _ & Ck & Cv).
    pose proof (wire_payload_min _ _ Wp) as Mp. pose proof (zlen_nonneg rb) as Nrb.
    assert (Bp : Forall is_byte p) by (eapply wire_payload_bytes; eauto).
    pose proof (crc32_bound p Bp) as CB.
    assert (EB : forall x, big_endian 8 o ++ big_endian 4 (4 + zlen p) ++ big_endian 4 (signed32 (crc32 p)) ++ p ++ x
            = entry_bytes o (4 + zlen p) (signed32 (crc32 p)) p ++ x)
      by (intro x; unfold entry_bytes; rewrite <- !app_assoc; reflexivity).
    rewrite EB in *.
    set (E := entry_bytes o (4 + zlen p) (signed32 (crc32 p)) p) in *.
    assert (LE : zlen E = 16 + zlen p) by apply entry_bytes_len.
    rewrite (zlen_app E rb) in *.
    destruct (IH (pre ++ E) F') as (ms' & F2 & HL); [rewrite zlen_app; lia|].
    exists ((PInt o, Msg (PInt (signed32 (crc32 p))) (PInt g) (PInt 0) k' v) :: ms').
    split; [constructor; [now constructor|exact F2]|].
    cbn [length Nat.add ms_loop].
    replace (zlen pre =? end_) with false by lia.
    rewrite <- (app_assoc E rb post). unfold E at 1.
    rewrite (parse_entry_raw C o (4 + zlen p) (signed32 (crc32 p)) g 0 k' v c p).
    2: exact Fo. 2:{ unfold fits; lia. } 2:{ apply signed32_fits; exact CB. } 2: exact Fg.
    2:{ unfold fits; lia. } 2: exact Ck. 2: exact Cv. 2: exact Wp.
    cbv zeta. change (Z.land 0 3 =? 0) with true. cbv iota. cbn [m_attributes bind]. fold E.
    rewrite <- app_assoc in HL. rewrite HL.
    replace (zlen pre + (zlen E + zlen rb)) with (zlen (pre ++ E) + zlen rb) by (rewrite zlen_app; lia).
    clear HL. destruct (ms_loop C nested k _ _ _) as [[r' o']|]; reflexivity.
Qed.

Lemma ms_loop_all C nested ms b pre post fuel :
  Forall readable ms -> wire_entries ms b -> (length ms <= fuel)%nat ->
  exists ms', Forall2 stored ms ms' /\
  ms_loop C nested fuel (pre ++ b ++ post) (zlen pre) (zlen pre + zlen b) = Ok (ms', zlen pre + zlen b).
Proof.
  intros F W LF. replace fuel with (length ms + (fuel - length ms))%nat by lia.
  destruct (ms_loop_through C nested ms b pre post (zlen pre + zlen b) (fuel - length ms)) as (ms' & F2 & E); auto.
  { lia. }
  exists ms'. split; [exact F2|]. rewrite E.
  destruct (fuel - length ms)%nat; cbn [ms_loop]; rewrite Z.eqb_refl; cbn [bind]; now rewrite app_nil_r.
Qed.

(** ** a cut entry *)
Definition entry_ty : ty :=
  TPart [("offset", TPrim Int64); ("size", TPrim Int32); ("crc", TPrim Int32); ("magic", TPrim Int8);
         ("attributes", TPrim Int8); ("key", TPrim Bytes_); ("value", TPrim Bytes_)]%string.

Lemma parse_entry_of_fields C b off :
  parse C 0 entry_ty b off = Err EStruct -> exists o, parse_entry C b off = Cut o.
Proof.
  intro E. unfold entry_ty in E. rewrite parse_part in E. cbn [parse_fields parse] in E.
  unfold parse_entry, msg_parse.
  repeat match type of E with
  | context [prim_parse ?p b ?o] =>
    let X := fresh "X" in destruct (prim_parse p b o) as [[? ?]|] eqn:X; cbn [bind] in E |- *;
    [|apply prim_parse_struct in X; subst; eauto]
  end.
  discriminate.
Qed.

Lemma cut_entry C o m p c rest pre :
  fits 64 o -> legal_msg m -> wire_payload m p -> 4 + zlen p < 2 ^ 31 ->
  big_endian 8 o ++ big_endian 4 (4 + zlen p) ++ big_endian 4 (signed32 (crc32 p)) ++ p = c ++ rest ->
  rest <> [] -> exists o', parse_entry C (pre ++ c) (zlen pre) = Cut o'.
Proof.
  intros Fo Lm Wp Lp E NR. apply parse_entry_of_fields.
  destruct m as [cr g a k v]. simpl in Lm.
  destruct g as [|g| | | | | |]; try contradiction. destruct a as [|a| | | | | |]; try contradiction.
  destruct Lm as (Fg & Fa & Ck & Cv).
  assert (Bp : Forall is_byte p) by (eapply wire_payload_bytes; eauto).
  pose proof (crc32_bound p Bp) as CB. pose proof (zlen_nonneg p) as Np.
  set (v0 := PObj [("offset", PInt o); ("size", PInt (4 + zlen p)); ("crc", PInt (signed32 (crc32 p)));
                   ("magic", PInt g); ("attributes", PInt a); ("key", k); ("value", v)]%string).
  assert (CV : canon entry_ty v0).
  { unfold canon, entry_ty, v0. apply conforms_part. eexists. split; [reflexivity|]. cbn [conforms_fields conforms].
    repeat split; try (eexists; split; [reflexivity|]; cbn [bits_of]); try assumption.
    - unfold fits; lia.
    - apply signed32_fits; exact CB. }
  assert (D : distinct entry_ty).
  { unfold entry_ty. cbn [distinct map fst]. split; [|tauto].
    repeat (constructor; [simpl; intuition discriminate|]). constructor. }
  destruct (roundtrip_all entry_ty D v0 CV) as (bs & W & f & d & _ & _ & _ & Pa).
  assert (bs = c ++ rest) as ->.
  { rewrite <- E. clear - W Wp. unfold entry_ty, v0 in W.
    inversion W as [| | | | ? ? ? WF|]; subst. clear W.
    repeat match goal with
    | H : wire_fields (_ :: _) _ _ |- _ => inversion H; subst; clear H
    | H : wire_fields [] _ _ |- _ => inversion H; subst; clear H
    end.
    inversion Wp as [? ? ? ? ? kb vb Wk Wv]; subst.
    repeat match goal with
    | H : wire (TPrim Bytes_) _ _ |- _ =>
      let N := fresh in inversion H as [? ? ? N| | ? ? N| | |]; subst; clear H;
      [exfalso; clear - N; intuition discriminate|]
    | H : wire (TPrim _) (PInt _) _ |- _ =>
      let N := fresh in inversion H as [? ? ? N| | | | |]; subst; clear H
    end.
    repeat match goal with
    | H : (_ /\ _ \/ _)%nat |- _ =>
      let N := fresh in
      first [ destruct H as [[N ?]|H]; [try discriminate N; subst|try (exfalso; clear - H; intuition discriminate)]
            | destruct H as [N ?]; discriminate N ]
    end.
    all: try match goal with H : _ /\ _ |- _ => destruct H as [? ?]; try discriminate; subst end.
    all: repeat match goal with
         | A : wire_var 4 ?v _, B : wire_var 4 ?v _ |- _ =>
           pose proof (wire_var_det _ _ _ _ A B); subst; clear A
         end.
    all: rewrite ?app_nil_r; rewrite <- ?app_assoc; reflexivity. }
  pose proof (Pa C 0%nat pre []) as P0. rewrite app_nil_r in P0.
  pose proof (zlen_nonneg pre). pose proof (zlen_nonneg c).
  assert (0 < zlen rest) by (destruct rest; [congruence|unfold zlen; simpl; lia]).
  rewrite !zlen_app in P0.
  assert (NM : no_msgset entry_ty) by (cbn; tauto).
  pose proof (parse_prefix_rejected C 0 entry_ty (pre ++ c ++ rest) (zlen pre) v0 (zlen pre + (zlen c + zlen rest))
                (zlen pre + zlen c) NM) as R.
  replace (firstn (Z.to_nat (zlen pre + zlen c)) (pre ++ c ++ rest)) with (pre ++ c) in R.
  - apply R; [lia|lia|rewrite !zlen_app; lia|exact P0].
  - rewrite app_assoc. rewrite <- zlen_app, zlen_to_nat. rewrite firstn_app, Nat.sub_diag, firstn_all. simpl.
    now rewrite app_nil_r.
Qed.

(** ** reading whatever follows the grammar *)
Lemma received_readable om q :
  wire_payload (snd om) q -> 4 + zlen q < 2 ^ 31 ->
  (exists o, fst om = PInt o /\ fits 64 o) /\ received_msg (snd om) -> readable om /\ stored om om.
Proof.
  destruct om as [o m]. cbn [fst snd]. intros Wq Lq [(z & -> & Fo) R].
  destruct m as [c g a k v]. simpl in R.
  destruct c as [|crc| | | | | |]; try contradiction. destruct g as [|g| | | | | |]; try contradiction.
  destruct a as [|[]| | | | | |]; try contradiction.
  destruct R as (Fg & Ck & Cv & p & Wp & ->). split.
  - unfold readable. cbn [fst snd legal_msg m_attributes]. repeat split; eauto; try apply Fg; unfold fits; lia.
  - now constructor.
Qed.

Lemma stored_det om o1 o2 : stored om o1 -> stored om o2 -> o1 = o2.
Proof.
  intros H1 H2. inversion H1; subst. inversion H2; subst.
  match goal with A : wire_payload ?m ?p, B : wire_payload ?m ?q |- _ =>
    rewrite (wire_payload_det _ _ _ A B) end. reflexivity.
Qed.

Lemma received_set_parts ms b : wire_entries ms b -> zlen b < 2 ^ 31 ->
  Forall (fun om => (exists o, fst om = PInt o /\ fits 64 o) /\ received_msg (snd om)) ms ->
  Forall readable ms /\ forall ms', Forall2 stored ms ms' -> ms' = ms.
Proof.
  induction 1 as [|o m p r rb Wp Wr IH]; intros L F.
  - split; [constructor|]. intros ms' F2. now inversion F2.
  - inversion F as [|? ? H F']; subst. rewrite !zlen_app, !big_endian_len in L.
    pose proof (zlen_nonneg p). pose proof (zlen_nonneg rb).
    destruct IH as [IH1 IH2]; [lia|exact F'|].
    apply (received_readable _ p) in H as [R S]; [|exact Wp|lia]. split; [now constructor|].
    intros ms' F2. inversion F2 as [|? o' ? r' S' F2']; subst.
    now rewrite (stored_det _ _ _ S' S), (IH2 _ F2').
Qed.

Lemma ms_parse_received C depth ms b pre post :
  received_set ms -> wire_entries ms b ->
  ms_parse C depth (pre ++ (big_endian 4 (zlen b) ++ b) ++ post) (zlen pre)
  = Ok (ms, zlen pre + zlen (big_endian 4 (zlen b) ++ b)).
Proof.
  intros (F & b' & W' & L) W. rewrite (wire_entries_det _ _ _ W' W) in *. clear b' W'.
  destruct (received_set_parts ms b W L F) as [RD ST]. pose proof (zlen_nonneg b) as Nb.
  unfold ms_parse. rewrite <- app_assoc.
  pose proof (int_at Int32 (zlen b) pre (b ++ post)) as H. cbn [int_fmt int_width] in H.
  rewrite H by (discriminate || (unfold fits, bits_of; lia)). cbn [bind]. rewrite app_assoc.
  destruct (ms_loop_all C (ms_parse_nested C depth) ms b (pre ++ big_endian 4 (zlen b)) post
     (S (length ((pre ++ big_endian 4 (zlen b)) ++ b ++ post))) RD W) as (ms' & F2 & E).
  { pose proof (wire_entries_count _ _ W) as CT. unfold zlen in CT. rewrite !app_length. lia. }
  rewrite E, (ST _ F2), !zlen_app. do 2 f_equal. lia.
Qed.

Definition reads_back (t : ty) : Prop := forall v bs, received t v -> wire t v bs ->
  forall C depth pre post, parse C depth t (pre ++ bs ++ post) (zlen pre) = Ok (v, zlen pre + zlen bs).

Lemma prim_reads_back p : reads_back (TPrim p).
Proof.
  intros v bs R W C depth pre post. cbn [parse]. unfold received in R. cbn [conforms] in R.
  inversion W as [p' z n N|v' b WV|v' b WV| | |]; subst.
  - assert (X : p <> String_ /\ p <> Bytes_ /\ n = int_width (int_fmt p)).
    { destruct p; cbn; intuition congruence. }
    destruct X as (X1 & X2 & ->). rewrite (int_at p z pre post X1 X2).
    + now rewrite zlen_app.
    + destruct p; try congruence; destruct R as (z' & [= <-] & F); exact F.
  - rewrite (var_at String_ v bs) by (tauto || assumption). now rewrite zlen_app.
  - rewrite (var_at Bytes_ v bs) by (tauto || assumption). now rewrite zlen_app.
Qed.

Lemma items_read_back it : reads_back it -> forall vs bs, Forall (received it) vs -> wire_items it vs bs ->
  forall C depth pre post acc,
  iterN (length vs) (array_step (parse C depth it (pre ++ bs ++ post))) (acc, zlen pre)
  = Ok (rev vs ++ acc, zlen pre + zlen bs).
Proof.
  intros H vs. induction vs as [|v vs IH]; intros bs R W C depth pre post acc.
  - inversion W; subst. cbn [length iterN rev app]. do 2 f_equal. rewrite zlen_nil. lia.
  - inversion R; subst. inversion W as [|? ? ? b1 b2 W1 W2]; subst. cbn [length iterN].
    unfold array_step at 1. cbn [fst snd]. rewrite <- app_assoc.
    rewrite (H v b1) by assumption. cbn [bind].
    rewrite <- zlen_app. rewrite (app_assoc pre b1 (b2 ++ post)).
    rewrite (IH b2) by assumption. rewrite !zlen_app. cbn [rev]. rewrite <- app_assoc. do 2 f_equal. lia.
Qed.

Lemma reads_back_all t : reads_back t.
Proof.
  induction t as [p|it IH|fs IH|] using ty_ind'.
  - apply prim_reads_back.
  - intros v bs R W C depth pre post. unfold received in R. cbn [conforms] in R.
    destruct R as (vs & -> & F & L). inversion W as [| | |? ? b WI| |]; subst.
    cbn [parse]. rewrite <- app_assoc.
    pose proof (zlen_nonneg vs) as Nv.
    pose proof (int_at Int32 (zlen vs) pre (b ++ post)) as HI. cbn [int_fmt int_width] in HI.
    rewrite HI by (discriminate || (unfold fits, bits_of; lia)). cbn [bind].
    rewrite app_assoc.
    destruct (zlen vs) as [|n|n] eqn:EL.
    + assert (vs = []) as -> by (destruct vs; [reflexivity|unfold zlen in EL; simpl in EL; lia]).
      inversion WI; subst. rewrite !app_nil_r, !zlen_app. reflexivity.
    + rewrite iterP_N. replace (Pos.to_nat n) with (length vs) by (unfold zlen in EL; lia).
      rewrite (items_read_back it IH vs b F WI). cbn [bind].
      rewrite app_nil_r, rev_involutive, !zlen_app. do 2 f_equal. lia.
    + lia.
  - intros v bs R W C depth pre post. apply conforms_part in R. destruct R as (attrs & -> & R).
    inversion W as [| | | |? ? ? WF|]; subst. rewrite parse_part.
    assert (G : forall attrs bs pre, conforms_fields received_set fs attrs -> wire_fields fs attrs bs ->
      parse_fields C depth fs (pre ++ bs ++ post) (zlen pre) = Ok (attrs, zlen pre + zlen bs)).
    { clear - IH. induction IH as [|[n t] r Ht F IHF]; intros attrs bs pre R W.
      - inversion W; subst. cbn [parse_fields]. do 2 f_equal. rewrite zlen_nil. lia.
      - inversion W as [|? ? ? v' attrs' b1 b2 W1 W2]; subst. cbn [conforms_fields] in R.
        destruct R as (_ & R1 & R2). cbn [parse_fields snd] in *. rewrite <- app_assoc.
        rewrite (Ht v' b1 R1 W1). cbn [bind]. rewrite <- zlen_app, (app_assoc pre b1 (b2 ++ post)).
        rewrite (IHF attrs' b2 _ R2 W2). cbn [bind]. rewrite !zlen_app. do 2 f_equal. lia. }
    now rewrite (G attrs bs pre R WF).
  - intros v bs R W C depth pre post. unfold received in R. cbn [conforms] in R.
    destruct R as (ms & -> & R). inversion W as [| | | | |? b WE]; subst. cbn [parse].
    now rewrite (ms_parse_received C depth ms b pre post R WE).
Qed.

(** ** truncated tails *)
Lemma ms_parse_cut C depth ms b o m p c rest pre :
  received_set ms -> wire_entries ms b ->
  fits 64 o -> legal_msg m -> wire_payload m p -> 4 + zlen p < 2 ^ 31 ->
  wire_entries [(PInt o, m)] (c ++ rest) -> rest <> [] -> zlen b + zlen c < 2 ^ 31 ->
  exists o', ms_parse C depth (pre ++ big_endian 4 (zlen b + zlen c) ++ b ++ c) (zlen pre) = Ok (ms, o').
Proof.
  intros (F & b' & W' & L) W Fo Lm Wp Lp WE NR L31. rewrite (wire_entries_det _ _ _ W' W) in *. clear b' W'.
  destruct (received_set_parts ms b W L F) as [RD ST].
  pose proof (zlen_nonneg b) as Nb. pose proof (zlen_nonneg c) as Nc.
  unfold ms_parse.
  pose proof (int_at Int32 (zlen b + zlen c) pre (b ++ c)) as H. cbn [int_fmt int_width] in H.
  rewrite H by (discriminate || (unfold fits, bits_of; lia)). cbn [bind].
  set (pre' := pre ++ big_endian 4 (zlen b + zlen c)). rewrite app_assoc. fold pre'.
  assert (LM : (length ms <= length (pre' ++ b ++ c))%nat).
  { pose proof (wire_entries_count _ _ W) as CT. unfold zlen in CT. rewrite !app_length. lia. }
  replace (S (length (pre' ++ b ++ c))) with (length ms + S (length (pre' ++ b ++ c) - length ms))%nat by lia.
  destruct (ms_loop_through C (ms_parse_nested C depth) ms b pre' c (zlen pre' + (zlen b + zlen c))
     (S (length (pre' ++ b ++ c) - length ms)) RD W) as (ms' & F2 & E); [lia|].
  rewrite E, (ST _ F2). cbn [ms_loop].
  destruct (_ =? _) eqn:Q; cbn [bind]; [rewrite app_nil_r; eauto|].
  inversion WE as [|? ? p' ? rb Wp' WN EQ1 EQ2]; subst. inversion WN; subst.
  rewrite (wire_payload_det _ _ _ Wp' Wp) in *. rewrite app_nil_r in EQ2.
  rewrite app_assoc, <- zlen_app.
  destruct (cut_entry C o m p c rest (pre' ++ b) Fo Lm Wp Lp EQ2 NR) as [o' ->].
  cbn [bind]. rewrite app_nil_r. eauto.
Qed.

Lemma cut_parse t v bs : wire_cut t v bs -> received t v ->
  forall C depth pre, exists o, parse C depth t (pre ++ bs) (zlen pre) = Ok (v, o).
Proof.
  induction 1 as [ms b o m p c rest W Fo Lm Wp Lp WE NR L|it vs v b bc W WC IH|fs attrs n t v b bc W WC IH];
    intros R C depth pre.
  - unfold received in R. cbn [conforms] in R. destruct R as (ms' & [= <-] & R). cbn [parse].
    destruct (ms_parse_cut C depth ms b o m p c rest pre) as [o' E]; auto.
    rewrite E. cbn [bind]. eauto.
  - unfold received in R. cbn [conforms] in R. destruct R as (vs' & [= <-] & F & L).
    apply Forall_app in F as [F1 F2]. inversion F2 as [|? ? Rv _]; subst.
    rewrite zlen_app in L. change (zlen [v]) with 1 in L. pose proof (zlen_nonneg vs) as Nv.
    cbn [parse].
    pose proof (int_at Int32 (zlen vs + 1) pre (b ++ bc)) as HI. cbn [int_fmt int_width] in HI.
    rewrite HI by (discriminate || (unfold fits, bits_of; lia)). cbn [bind]. rewrite app_assoc.
    set (pre' := pre ++ big_endian 4 (zlen vs + 1)).
    destruct (zlen vs + 1) as [|k|k] eqn:EL; try lia.
    rewrite iterP_N. replace (Pos.to_nat k) with (length vs + 1)%nat by (unfold zlen in EL; lia).
    rewrite iterN_add.
    rewrite (items_read_back it (reads_back_all it) vs b F1 W). cbn [bind iterN].
    unfold array_step. cbn [fst snd].
    rewrite app_assoc, <- zlen_app. destruct (IH Rv C depth (pre' ++ b)) as [o E].
    rewrite E. cbn [bind]. rewrite app_nil_r. simpl rev. rewrite rev_involutive. eauto.
  - apply conforms_part in R. destruct R as (attrs' & [= <-] & R). rewrite parse_part.
    assert (G : forall attrs b pre, wire_fields fs attrs b ->
       conforms_fields received_set (fs ++ [(n, t)]) (attrs ++ [(n, v)]) ->
       exists o, parse_fields C depth (fs ++ [(n, t)]) (pre ++ b ++ bc) (zlen pre) = Ok (attrs ++ [(n, v)], o)).
    { clear - IH. induction fs as [|[n' t'] r IHr]; intros attrs b pre W R.
      - inversion W; subst. cbn [app conforms_fields] in R. destruct R as (_ & R & _).
        cbn [app parse_fields]. destruct (IH R C depth pre) as [o E]. rewrite E. cbn [bind]. eauto.
      - inversion W as [|? ? ? v' at' b1 b2 W1 W2]; subst. cbn [app conforms_fields] in R.
        destruct R as (_ & R1 & R2). cbn [app parse_fields]. rewrite <- app_assoc.
        rewrite (reads_back_all t' v' b1 R1 W1). cbn [bind]. rewrite <- zlen_app, (app_assoc pre b1 (b2 ++ bc)).
        destruct (IHr at' b2 (pre ++ b1) W2 R2) as [o E]. rewrite E. cbn [bind]. eauto. }
    destruct (G attrs b pre W R) as [o E]. rewrite E. cbn [bind]. eauto.
Qed.

