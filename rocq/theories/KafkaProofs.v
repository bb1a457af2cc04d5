(** Reading Kafka's bytes: whatever conforms to the grammars of SpecKafka is read as what it stands for. *)
From Coq Require Import ZArith String List Bool Lia ZifyBool.
From Verif Require Import PyBase BaseLemmas Utf8 Utf8Proofs Struct StructProofs Crc32 Primitives Constants Snappy
  Messages Protocol Schemas SpecWire ProtocolProofs WireMore MessagesProofs Cluster Producer Consumer SpecKafka ResponseRead.
Import ListNotations.
Open Scope Z_scope.

(** ** Reading at a place, whatever follows; reading to the end *)
Section At.
  Variable C : codec.
  Variable depth : nat.
  Definition parses (t : ty) (v : pyval) (b : bytes) : Prop :=
    forall pre post, parse C depth t (pre ++ b ++ post) (zlen pre) = Ok (v, zlen pre + zlen b).
  Definition ends (t : ty) (v : pyval) (b : bytes) : Prop :=
    forall pre, exists o, parse C depth t (pre ++ b) (zlen pre) = Ok (v, o).
  Definition parses_all (fs : fields) (vs : list (string * pyval)) (b : bytes) : Prop :=
    forall pre post, parse_fields C depth fs (pre ++ b ++ post) (zlen pre) = Ok (vs, zlen pre + zlen b).
  Definition ends_all (fs : fields) (vs : list (string * pyval)) (b : bytes) : Prop :=
    forall pre, exists o, parse_fields C depth fs (pre ++ b) (zlen pre) = Ok (vs, o).

  Lemma parses_ends t v b : parses t v b -> ends t v b.
  Proof. intros P pre. specialize (P pre []). rewrite app_nil_r in P. eauto. Qed.

  Lemma parses_prim p z b : p <> String_ -> p <> Bytes_ -> kw_int (int_width (int_fmt p)) z b -> parses (TPrim p) (PInt z) b.
  Proof.
    intros N1 N2 [F ->] pre post. cbn [parse]. rewrite int_at; auto.
    - now rewrite zlen_app.
    - destruct p; try congruence; exact F.
  Qed.
  Lemma parses_string t b : kw_string t b -> parses (TPrim String_) (PStr t) b.
  Proof.
    intros (u & E & L & ->) pre post. cbn [parse]. rewrite (var_at String_ (PStr t)); [now rewrite zlen_app|auto|cbn; eauto|].
    now constructor.
  Qed.
  Lemma parses_null_string t b : kw_null_string t b -> parses (TPrim String_) (match t with Some t => PStr t | None => PNone end) b.
  Proof.
    destruct t as [t|]; [apply parses_string|]. intros -> pre post. cbn [parse]. rewrite (var_at String_ PNone); [now rewrite zlen_app|auto|exact I|constructor].
  Qed.

  Lemma all_nil : parses_all [] [] [].
  Proof. intros pre post. cbn. do 2 f_equal. rewrite zlen_nil. lia. Qed.
  Lemma all_cons n t fs v vs b bs : parses t v b -> parses_all fs vs bs -> parses_all ((n, t) :: fs) ((n, v) :: vs) (b ++ bs).
  Proof.
    intros P PS pre post. cbn [parse_fields]. rewrite <- app_assoc, P. cbn [bind]. rewrite <- zlen_app, (app_assoc pre b), PS. cbn [bind].
    rewrite !zlen_app. do 2 f_equal. lia.
  Qed.
  Lemma parses_part fs vs b : parses_all fs vs b -> parses (TPart fs) (PObj vs) b.
  Proof. intros P pre post. now rewrite parse_part, P. Qed.
  Lemma ends_last n t v b : ends t v b -> ends_all [(n, t)] [(n, v)] b.
  Proof. intros P pre. destruct (P pre) as [o E]. exists o. cbn [parse_fields]. now rewrite E. Qed.
  Lemma ends_cons n t fs v vs b bs : parses t v b -> ends_all fs vs bs -> ends_all ((n, t) :: fs) ((n, v) :: vs) (b ++ bs).
  Proof.
    intros P PS pre. cbn [parse_fields]. rewrite P. cbn [bind]. rewrite <- zlen_app, (app_assoc pre b).
    destruct (PS (pre ++ b)) as [o ->]. cbn [bind]. eauto.
  Qed.
  Lemma ends_part fs vs b : ends_all fs vs b -> ends (TPart fs) (PObj vs) b.
  Proof. intros P pre. rewrite parse_part. destruct (P pre) as [o ->]. cbn [bind]. eauto. Qed.

  Lemma items_at it vs bs : Forall2 (parses it) vs bs -> forall pre post acc,
    iterN (length vs) (array_step (parse C depth it (pre ++ concat bs ++ post))) (acc, zlen pre) = Ok (rev vs ++ acc, zlen pre + zlen (concat bs)).
  Proof.
    induction 1 as [|v b vs bs P _ IH]; intros pre post acc.
    - cbn. do 2 f_equal. rewrite zlen_nil. lia.
    - cbn [length iterN concat]. unfold array_step at 1. cbn [fst snd]. rewrite <- app_assoc, P. cbn [bind]. rewrite <- zlen_app, (app_assoc pre b), IH.
      cbn [rev]. rewrite <- app_assoc, !zlen_app. do 2 f_equal. lia.
  Qed.
  Lemma iterN_app {S} (f : S -> res S) n m s : iterN (n + m) f s = bind (iterN n f s) (iterN m f).
  Proof. revert s. induction n as [|n IH]; intros s; [reflexivity|]. cbn [iterN Nat.add]. destruct (f s); cbn [bind]; [apply IH|reflexivity]. Qed.

  Lemma array_head it (n : nat) pre b : Z.of_nat n < 2 ^ 31 ->
    parse C depth (TArray it) (pre ++ big_endian 4 (Z.of_nat n) ++ b) (zlen pre) =
    bind (iterN n (array_step (parse C depth it ((pre ++ big_endian 4 (Z.of_nat n)) ++ b))) ([], zlen (pre ++ big_endian 4 (Z.of_nat n))))
         (fun '(vs, o) => Ok (PList (rev vs), o)).
  Proof.
    intros L. cbn [parse]. pose proof (int_at Int32 (Z.of_nat n) pre b) as HI. cbn [int_fmt int_width] in HI.
    rewrite HI by (discriminate || (unfold fits, bits_of; lia)). cbn [bind]. rewrite app_assoc. destruct n as [|n]; [reflexivity|].
    replace (Z.of_nat (S n)) with (Z.pos (Pos.of_succ_nat n)) by lia. rewrite iterP_N, SuccNat2Pos.id_succ. reflexivity.
  Qed.

  Lemma parses_array it vs bs : Forall2 (parses it) vs bs -> zlen vs < 2 ^ 31 -> parses (TArray it) (PList vs) (big_endian 4 (zlen vs) ++ concat bs).
  Proof.
    intros P L pre post. unfold zlen at 1. rewrite <- app_assoc, array_head by exact L. rewrite (items_at it vs bs P). cbn [bind].
    rewrite app_nil_r, rev_involutive, !zlen_app, !big_endian_len. do 2 f_equal. lia.
  Qed.
  Lemma ends_array it vs v bs b : Forall2 (parses it) vs bs -> ends it v b -> zlen (vs ++ [v]) < 2 ^ 31 ->
    ends (TArray it) (PList (vs ++ [v])) (big_endian 4 (zlen (vs ++ [v])) ++ concat bs ++ b).
  Proof.
    intros P E L pre. unfold zlen at 1. rewrite array_head by exact L. rewrite app_length. cbn [length]. rewrite iterN_app, (items_at it vs bs P). cbn [bind iterN].
    unfold array_step. cbn [fst snd]. rewrite <- zlen_app, app_assoc. destruct (E ((pre ++ big_endian 4 (Z.of_nat (length vs + 1))) ++ concat bs)) as [o ->].
    cbn [bind]. exists o. rewrite app_nil_r. cbn [rev]. now rewrite rev_involutive.
  Qed.

  (** arrays of the grammar, read item by item *)
  Lemma kw_parses {A} (item : A -> bytes -> Prop) (V : A -> pyval -> Prop) it xs b :
    (forall x b, item x b -> exists v, parses it v b /\ V x v) -> kw_array item xs b -> exists vs, parses (TArray it) (PList vs) b /\ Forall2 V xs vs.
  Proof.
    intros H (bs & F & L & ->).
    assert (G : exists vs, Forall2 (parses it) vs bs /\ Forall2 V xs vs /\ zlen vs = zlen xs).
    { clear L. induction F as [|x b xs bs I F IH]; [exists []; auto|]. destruct (H _ _ I) as (v & P & W). destruct IH as (vs & Ps & Ws & Z).
      exists (v :: vs). repeat split; auto. rewrite !zlen_cons. lia. }
    destruct G as (vs & Ps & Ws & Z). exists vs. split; [|exact Ws]. rewrite <- Z. apply parses_array; [exact Ps|lia].
  Qed.
  Lemma kw_ends {A} (item last : A -> bytes -> Prop) (V : A -> pyval -> Prop) it xs b :
    (forall x b, item x b -> exists v, parses it v b /\ V x v) -> (forall x b, last x b -> exists v, ends it v b /\ V x v) ->
    kw_array_end item last xs b -> exists vs, ends (TArray it) (PList vs) b /\ Forall2 V xs vs.
  Proof.
    intros H HL (xs0 & x & bs & bx & -> & F & Lx & L & ->).
    assert (G : exists vs, Forall2 (parses it) vs bs /\ Forall2 V xs0 vs /\ zlen vs = zlen xs0).
    { clear L. induction F as [|y b xs bs I F IH]; [exists []; auto|]. destruct (H _ _ I) as (v & P & W). destruct IH as (vs & Ps & Ws & Z).
      exists (v :: vs). repeat split; auto. rewrite !zlen_cons. lia. }
    destruct G as (vs & Ps & Ws & Z). destruct (HL _ _ Lx) as (v & E & W). exists (vs ++ [v]).
    assert (Z' : zlen (vs ++ [v]) = zlen (xs0 ++ [x])) by (rewrite !zlen_app; unfold zlen in *; cbn [length]; lia).
    split; [|apply Forall2_app; auto]. rewrite <- Z'. apply ends_array; auto. lia.
  Qed.
End At.

(** ** Messages *)
Local Transparent big_endian.
Lemma digit z m k : 0 < m -> ((z - k * 256 * m) / m) mod 256 = (z / m) mod 256.
Proof. intros H. replace (z - k * 256 * m) with (z + (- k * 256) * m) by lia. rewrite Z.div_add, Z.mod_add by lia. reflexivity. Qed.
Lemma big_endian_wrap z : big_endian 4 (z - 2 ^ 32) = big_endian 4 z.
Proof.
  unfold big_endian.
  pose proof (digit z (256 ^ 3) 1) as D3. pose proof (digit z (256 ^ 2) 256) as D2. pose proof (digit z (256 ^ 1) (256 ^ 2)) as D1. pose proof (digit z (256 ^ 0) (256 ^ 3)) as D0.
  change (1 * 256 * 256 ^ 3) with (2 ^ 32) in D3. change (256 * 256 * 256 ^ 2) with (2 ^ 32) in D2. change (256 ^ 2 * 256 * 256 ^ 1) with (2 ^ 32) in D1. change (256 ^ 3 * 256 * 256 ^ 0) with (2 ^ 32) in D0.
  change (Z.of_nat 3) with 3. change (Z.of_nat 2) with 2. change (Z.of_nat 1) with 1. change (Z.of_nat 0) with 0.
  rewrite D3, D2, D1, D0 by reflexivity. reflexivity.
Qed.
Lemma big_endian_signed z : big_endian 4 (signed32 z) = big_endian 4 z.
Proof. unfold signed32. destruct (z <? 2 ^ 31); [reflexivity|apply big_endian_wrap]. Qed.

Lemma big_endian_0 : big_endian 1 0 = [0].
Proof. reflexivity. Qed.
Local Opaque big_endian.

Lemma field_wire v : all_bytes v -> wire_var 4 (kw_field v) (kw_blob v).
Proof.
  destruct v as [b|]; [|constructor]. cbn. intros F. destruct (utf8_decode b) as [t|] eqn:E; constructor. now apply utf8_encode_decode.
Qed.
Lemma field_canon v : all_bytes v -> zlen (kw_blob v) < 2 ^ 31 -> canon_var 32 (kw_field v).
Proof.
  destruct v as [b|]; [|constructor]. cbn. rewrite zlen_app, big_endian_len. intros F L. pose proof (zlen_nonneg b).
  destruct (utf8_decode b) as [t|] eqn:E; cbn.
  - exists b. split; [now apply utf8_encode_decode|lia].
  - repeat split; auto. lia.
Qed.
Lemma body_wire c a m : all_bytes (km_key m) -> all_bytes (km_value m) ->
  wire_payload (Msg c (PInt 0) (PInt a) (kw_field (km_key m)) (kw_field (km_value m))) (kw_body a m).
Proof. intros K V. unfold kw_body. rewrite <- big_endian_0. constructor; now apply field_wire. Qed.
Lemma body_bytes a m : all_bytes (km_key m) -> all_bytes (km_value m) -> Forall is_byte (kw_body a m).
Proof.
  intros K V. unfold kw_body. repeat (apply Forall_app; split).
  - repeat constructor; lia.
  - rewrite big_endian_be. apply be_enc_bytes.
  - destruct (km_key m); [apply Forall_app; split; [rewrite big_endian_be; apply be_enc_bytes|exact K]|]; cbn; rewrite ?big_endian_be; apply be_enc_bytes.
  - destruct (km_value m); [apply Forall_app; split; [rewrite big_endian_be; apply be_enc_bytes|exact V]|]; cbn; rewrite ?big_endian_be; apply be_enc_bytes.
Qed.

Lemma kw_entry_shape o a m b : kw_entry o a m b -> b = entry_bytes o (4 + zlen (kw_body a m)) (signed32 (crc32 (kw_body a m))) (kw_body a m).
Proof. intros (_ & _ & _ & _ & ->). unfold entry_bytes. now rewrite big_endian_signed. Qed.

Definition inflate (C : codec) (a : Z) (v : pyval) : res pyval :=
  let compression := Z.land a 3 in
  if compression =? 0 then Ok v
  else if compression =? GZIP then gz_decompress_v C v
  else if compression =? SNAPPY then sn_decompress_v C v
  else Ok v.
Lemma entry_at C o a m b pre post : kw_entry o a m b -> fits 8 a ->
  parse_entry C (pre ++ b ++ post) (zlen pre) =
  match inflate C a (kw_field (km_value m)) with
  | Ok v' => Entry (PInt o) (Msg (PInt (signed32 (crc32 (kw_body a m)))) (PInt 0) (PInt a) (kw_field (km_key m)) v') (zlen (pre ++ b))
  | Err EStruct => Cut (zlen pre + 12)
  | Err e => Messages.Raise e
  end.
Proof.
  intros E Fa. pose proof (kw_entry_shape _ _ _ _ E) as ->. destruct E as (Fo & K & V & L & _).
  pose proof (crc32_bound _ (body_bytes a m K V)) as CB.
  assert (LB : zlen (kw_blob (km_key m)) < 2 ^ 31 /\ zlen (kw_blob (km_value m)) < 2 ^ 31).
  { unfold kw_body in L. rewrite !zlen_app in L. pose proof (zlen_nonneg (kw_blob (km_key m))). pose proof (zlen_nonneg (kw_blob (km_value m))). rewrite big_endian_len in L. unfold zlen at 1 in L. cbn [length] in L. lia. }
  pose proof (zlen_nonneg (kw_body a m)). unfold inflate.
  apply (parse_entry_raw C o _ _ 0 a (kw_field (km_key m)) (kw_field (km_value m)) PNone); auto using field_canon, signed32_fits, body_wire.
  - unfold fits. lia.
  - unfold fits. lia.
  - apply field_canon; tauto.
  - apply field_canon; tauto.
Qed.

(** ** Compressed values *)
Local Transparent big_endian.
Lemma xerial_header : [130] ++ txt "SNAPPY" ++ [0] ++ big_endian 4 1 ++ big_endian 4 1 = raw_header.
Proof. reflexivity. Qed.
Local Opaque big_endian.

Definition framed (c : bytes) : bytes := big_endian 4 (zlen c) ++ c.
Lemma frames_min blocks : blocks <> [] -> (forall front c, blocks = front ++ [c] -> 12 <= zlen c) -> 16 <= zlen (concat (map framed blocks)).
Proof.
  intros N H. destruct (exists_last N) as (front & c & ->). specialize (H front c eq_refl).
  rewrite map_app, concat_app, zlen_app. cbn [map concat]. rewrite app_nil_r. change (framed c) with (big_endian 4 (zlen c) ++ c). rewrite (zlen_app (big_endian 4 (zlen c))), big_endian_len.
  match goal with |- _ <= zlen ?q + _ => pose proof (zlen_nonneg q) end. lia.
Qed.
Lemma frames_read unc blocks parts : Forall2 (fun c part => unc c = Ok part /\ zlen c < 2 ^ 31) blocks parts ->
  (forall front c, blocks = front ++ [c] -> 12 <= zlen c) -> forall n pre, (length blocks <= n)%nat ->
  decomp_loop unc n (pre ++ concat (map framed blocks)) (zlen (pre ++ concat (map framed blocks)) - 16) (zlen pre) = Ok (concat parts).
Proof.
  induction 1 as [|c part blocks parts [U L] F IH]; intros M n pre N.
  - cbn [map concat]. rewrite app_nil_r. destruct n; cbn [decomp_loop]; replace (zlen pre - 16 <? zlen pre) with true by lia; reflexivity.
  - destruct n as [|n]; [cbn in N; lia|]. cbn [decomp_loop].
    assert (G : 16 <= zlen (concat (map framed (c :: blocks)))) by (apply frames_min; [discriminate|exact M]).
    replace (zlen (pre ++ concat (map framed (c :: blocks))) - 16 <? zlen pre) with false by (rewrite zlen_app; lia).
    clear G. set (lim := zlen (pre ++ concat (map framed (c :: blocks))) - 16).
    assert (ED : pre ++ concat (map framed (c :: blocks)) = pre ++ be_enc 4 (zlen c) ++ (c ++ concat (map framed blocks))).
    { cbn [map concat]. unfold framed at 1. now rewrite big_endian_be, <- !app_assoc. }
    rewrite ED. change 4%nat with (int_width Fi) at 1. pose proof (zlen_nonneg c).
    rewrite unpack1_int; [|discriminate|unfold in_range; cbn; lia]. cbn [bind].
    replace (zlen pre + 4) with (zlen (pre ++ be_enc 4 (zlen c))) by (rewrite zlen_app, be_enc_zlen; lia).
    rewrite app_assoc. change (int_width Fi) with 4%nat. rewrite unpack1_bytes. cbn [bind]. rewrite U. cbn [bind].
    rewrite <- zlen_app, app_assoc. unfold lim. rewrite ED, !app_assoc. rewrite IH.
    + reflexivity.
    + intros front c' ->. apply (M (c :: front)). reflexivity.
    + cbn [length] in N. lia.
Qed.

Lemma packed_read C a z raw : kw_packed C 12 a z raw ->
  kw_field (Some z) = PBytes z /\ fits 8 a /\ a <> 0 /\
  inflate C a (kw_field (Some z)) = Ok (PBytes raw).
Proof.
  intros [(-> & D & r & ->)|(-> & AV & blocks & parts & F & -> & -> & M)].
  - match goal with |- ?x = ?y /\ _ => assert (E : x = y) by (unfold kw_field; now rewrite utf8_decode_gzip) end.
    rewrite E. repeat split; try (unfold fits; lia). unfold inflate. cbn. now rewrite D.
  - rewrite xerial_header. fold framed. change (map (fun c => big_endian 4 (zlen c) ++ c) blocks) with (map framed blocks).
    match goal with |- ?x = ?y /\ _ => assert (E : x = y) by (unfold kw_field, raw_header; cbn [app]; now rewrite utf8_decode_snappy) end.
    rewrite E. split; [reflexivity|]. split; [unfold fits; lia|]. split; [lia|].
    unfold inflate. change (Z.land 2 3 =? 0) with false. change (Z.land 2 3 =? GZIP) with false. change (Z.land 2 3 =? SNAPPY) with true. cbv zeta iota.
    unfold sn_decompress_v. rewrite AV. cbn [negb]. unfold snappy_decompress. cbn [negb].
    change (zlen raw_header) with 16 at 1. rewrite (frames_read _ blocks parts F M).
    + reflexivity.
    + rewrite app_length. assert (H : (length blocks <= length (concat (map framed blocks)))%nat).
      { clear. induction blocks as [|c bs IH]; [cbn; lia|]. cbn [map concat length]. rewrite app_length. unfold framed at 1. rewrite app_length.
        pose proof (big_endian_len 4 (zlen c)) as L. unfold zlen at 1 in L. lia. }
      apply le_S. eapply Nat.le_trans; [exact H|apply Nat.le_add_l].
Qed.

(** ** Message sets *)
Definition py_set (ms : list (Z * kmsg)) : list (pyval * pymsg) := map (fun om => (PInt (fst om), kw_read (snd om))) ms.

Lemma py_set_app a b : py_set (a ++ b) = py_set a ++ py_set b.
Proof. apply map_app. Qed.

Lemma entry_len o a m b : kw_entry o a m b -> 16 <= zlen b.
Proof. intros E. rewrite (kw_entry_shape _ _ _ _ E), entry_bytes_len. pose proof (zlen_nonneg (kw_body a m)). lia. Qed.

Lemma plain_step C nested k o m b pre post end_ : kw_entry o 0 m b -> zlen pre + zlen b <= end_ ->
  ms_loop C nested (S k) (pre ++ b ++ post) (zlen pre) end_ =
  bind (ms_loop C nested k ((pre ++ b) ++ post) (zlen (pre ++ b)) end_) (fun '(r, o') => Ok ((PInt o, kw_read m) :: r, o')).
Proof.
  intros E L. pose proof (entry_len _ _ _ _ E). cbn [ms_loop]. replace (zlen pre =? end_) with false by lia.
  rewrite (entry_at C o 0 m b pre post E) by (unfold fits; lia). unfold inflate. cbv zeta. change (Z.land 0 3 =? 0) with true. cbv iota. cbn [m_attributes bind].
  rewrite app_assoc. unfold kw_read. destruct (ms_loop C nested k _ _ _) as [[r o']|]; reflexivity.
Qed.
Lemma plain_read C nested ms bs : Forall2 (fun om => kw_entry (fst om) 0 (snd om)) ms bs -> forall pre post end_ k, zlen pre + zlen (concat bs) <= end_ ->
  ms_loop C nested (length ms + k) (pre ++ concat bs ++ post) (zlen pre) end_ =
  bind (ms_loop C nested k ((pre ++ concat bs) ++ post) (zlen (pre ++ concat bs)) end_) (fun '(r, o) => Ok (py_set ms ++ r, o)).
Proof.
  induction 1 as [|[o m] b ms bs E F IH]; intros pre post end_ k L.
  - cbn [concat length Nat.add app py_set map]. rewrite app_nil_r. destruct (ms_loop _ _ _ _ _ _) as [[r o]|]; reflexivity.
  - cbn [concat length Nat.add] in *. rewrite zlen_app in L. pose proof (zlen_nonneg (concat bs)). cbn [fst snd] in E. rewrite <- app_assoc.
    rewrite (plain_step C nested _ o m b) by (exact E || lia). rewrite IH by (rewrite zlen_app; lia). rewrite <- !app_assoc.
    destruct (ms_loop _ _ _ _ _ _) as [[r o']|]; reflexivity.
Qed.
Lemma plain_count (ms : list (Z * kmsg)) bs : Forall2 (fun om => kw_entry (fst om) 0 (snd om)) ms bs -> Z.of_nat (length ms) <= zlen (concat bs).
Proof.
  induction 1 as [|om b ms bs E F IH]; [apply zlen_nonneg|]. cbn [length concat]. rewrite zlen_app. pose proof (entry_len _ _ _ _ E). lia.
Qed.
Lemma nested_read C depth inner raw : kw_plain inner raw -> ms_parse_nested C (S depth) (PBytes raw) = Ok (py_set inner).
Proof.
  intros (bs & F & ->). cbn [ms_parse_nested]. pose proof (plain_count _ _ F) as N.
  pose proof (plain_read C (ms_parse_nested C depth) inner bs F [] [] (zlen (concat bs)) (S (length (concat bs) - length inner))) as H.
  rewrite app_nil_r in H. cbn [app] in H. unfold zlen in N. replace (length inner + S (length (concat bs) - length inner))%nat with (S (length (concat bs))) in H by lia.
  change (zlen (@nil Z)) with 0 in H. rewrite H by lia. cbn [ms_loop]. rewrite Z.eqb_refl. cbn [bind]. now rewrite app_nil_r.
Qed.

Lemma set_read C depth ms b : kw_set C 12 ms b -> exists n, Z.of_nat n <= zlen b /\ forall pre post end_ k, zlen pre + zlen b <= end_ ->
  ms_loop C (ms_parse_nested C (S depth)) (n + k) (pre ++ b ++ post) (zlen pre) end_ =
  bind (ms_loop C (ms_parse_nested C (S depth)) k ((pre ++ b) ++ post) (zlen (pre ++ b)) end_) (fun '(r, o) => Ok (py_set ms ++ r, o)).
Proof.
  induction 1 as [|o m b ms rest E S (n & N & IH)|o a key z raw inner b ms rest P PL E S (n & N & IH)].
  - exists 0%nat. split; [apply zlen_nonneg|]. intros. cbn [Nat.add app py_set map]. rewrite app_nil_r. destruct (ms_loop _ _ _ _ _ _) as [[r o]|]; reflexivity.
  - exists (Datatypes.S n). pose proof (entry_len _ _ _ _ E). split; [rewrite zlen_app; lia|]. intros pre post end_ k L. rewrite zlen_app in L. pose proof (zlen_nonneg rest).
    rewrite <- app_assoc. cbn [Nat.add]. rewrite (plain_step C _ _ o m b) by (exact E || lia). rewrite IH by (rewrite zlen_app; lia). rewrite <- !app_assoc.
    destruct (ms_loop _ _ _ _ _ _) as [[r o']|]; reflexivity.
  - exists (Datatypes.S n). pose proof (entry_len _ _ _ _ E). split; [rewrite zlen_app; lia|]. intros pre post end_ k L. rewrite zlen_app in L. pose proof (zlen_nonneg rest).
    destruct (packed_read _ _ _ _ P) as (EV & Fa & NZ & D).
    rewrite <- app_assoc. cbn [Nat.add ms_loop]. replace (zlen pre =? end_) with false by lia. rewrite (entry_at C o a (KMsg key (Some z)) b pre _ E Fa).
    cbn [km_value km_key]. rewrite D. cbn [m_attributes m_value].
    assert (Q : forall (A : Type) (x y : A), match a with 0 => x | _ => y end = y) by (intros; destruct a; congruence).
    rewrite Q. rewrite (nested_read C depth inner raw PL). cbn [bind]. rewrite (app_assoc pre b). rewrite IH by (rewrite zlen_app; lia). rewrite <- !app_assoc. rewrite py_set_app.
    destruct (ms_loop _ _ _ _ _ _) as [[r o']|]; cbn [bind]; [|reflexivity]. now rewrite app_assoc.
Qed.

Lemma parses_set C depth ms s : kw_set C 12 ms s -> zlen s < 2 ^ 31 -> parses C (S depth) TMsgSet (PMsgSet (py_set ms)) (big_endian 4 (zlen s) ++ s).
Proof.
  intros K L pre post. cbn [parse]. unfold ms_parse. rewrite <- app_assoc.
  pose proof (int_at Int32 (zlen s) pre (s ++ post)) as H. cbn [int_fmt int_width] in H. pose proof (zlen_nonneg s).
  rewrite H by (discriminate || (unfold fits, bits_of; lia)). cbn [bind]. rewrite app_assoc. set (pre' := pre ++ big_endian 4 (zlen s)).
  destruct (set_read C depth ms s K) as (n & N & R).
  assert (LF : (n <= length (pre' ++ s ++ post))%nat) by (rewrite !app_length; unfold zlen in N; lia).
  replace (S (length (pre' ++ s ++ post))) with (n + S (length (pre' ++ s ++ post) - n))%nat by lia.
  rewrite R by lia. cbn [ms_loop]. replace (zlen (pre' ++ s) =? zlen pre' + zlen s) with true by (rewrite zlen_app; lia). cbn [bind]. rewrite app_nil_r.
  unfold pre'. rewrite !zlen_app. do 2 f_equal. lia.
Qed.

Lemma cut_at C o a m c rest pre : kw_entry o a m (c ++ rest) -> fits 8 a -> rest <> [] -> exists o', parse_entry C (pre ++ c) (zlen pre) = Cut o'.
Proof.
  intros E Fa NR. pose proof (kw_entry_shape _ _ _ _ E) as SH. destruct E as (Fo & K & V & L & _).
  assert (LB : zlen (kw_blob (km_key m)) < 2 ^ 31 /\ zlen (kw_blob (km_value m)) < 2 ^ 31).
  { unfold kw_body in L. rewrite !zlen_app in L. pose proof (zlen_nonneg (kw_blob (km_key m))). pose proof (zlen_nonneg (kw_blob (km_value m))). rewrite big_endian_len in L. unfold zlen at 1 in L. cbn [length] in L. lia. }
  apply (cut_entry C o (Msg PNone (PInt 0) (PInt a) (kw_field (km_key m)) (kw_field (km_value m))) (kw_body a m) c rest); auto.
  - cbn. repeat split; try apply Fa; try lia; apply field_canon; tauto.
  - now apply body_wire.
Qed.
Lemma ends_set C depth ms s : kw_set_cut C 12 ms s -> zlen s < 2 ^ 31 -> ends C (S depth) TMsgSet (PMsgSet (py_set ms)) (big_endian 4 (zlen s) ++ s).
Proof.
  intros (whole & o & a & m & c & rest & K & E & NR & Fa & ->) L pre. cbn [parse]. unfold ms_parse.
  pose proof (int_at Int32 (zlen (whole ++ c)) pre (whole ++ c)) as H. cbn [int_fmt int_width] in H. pose proof (zlen_nonneg (whole ++ c)).
  rewrite H by (discriminate || (unfold fits, bits_of; lia)). cbn [bind]. rewrite app_assoc. set (pre' := pre ++ big_endian 4 (zlen (whole ++ c))).
  destruct (set_read C depth ms whole K) as (n & N & R).
  assert (LF : (n <= length (pre' ++ whole ++ c))%nat) by (rewrite !app_length; unfold zlen in N; lia).
  replace (S (length (pre' ++ whole ++ c))) with (n + S (length (pre' ++ whole ++ c) - n))%nat by lia. pose proof (zlen_nonneg c).
  rewrite R by (rewrite zlen_app; lia). cbn [ms_loop].
  destruct (_ =? _); cbn [bind]; [rewrite app_nil_r; eauto|].
  destruct (cut_at C o a m c rest (pre' ++ whole) E Fa NR) as [o' ->]. cbn [bind]. rewrite app_nil_r. eauto.
Qed.

(** ** Responses *)
Lemma all_of_map {A B} (g : pyval -> option B) (h : A -> B) xs vs : Forall2 (fun x v => g v = Some (h x)) xs vs -> all_of g vs = Some (map h xs).
Proof. induction 1 as [|x v xs vs E F IH]; [reflexivity|]. cbn [all_of map]. now rewrite E, IH. Qed.
Lemma deserialize_at C depth fs v b : ends C depth (TPart fs) v b -> deserialize C depth (TPart fs) b = Ok v.
Proof. intros P. destruct (P []) as [o E]. unfold deserialize. change (parse C depth (TPart fs) ([] ++ b) (zlen (@nil Z))) with (parse C depth (TPart fs) b 0) in E. now rewrite E. Qed.
Lemma look_at {A} C depth fs (view : pyval -> option A) v b a : ends C depth (TPart fs) v b -> view v = Some a -> look C depth fs view b = Some (Ok a).
Proof. intros P E. unfold look. now rewrite (deserialize_at _ _ _ _ _ P), E. Qed.

Section Responses.
  Variable C : codec.
  Variable depth : nat.
  Notation P := (parses C depth).
  Notation E := (ends C depth).

  Lemma p_i8 z b : kw_int 1 z b -> P I8 (PInt z) b. Proof. now apply (parses_prim C depth Int8). Qed.
  Lemma p_i16 z b : kw_int 2 z b -> P I16 (PInt z) b. Proof. now apply (parses_prim C depth Int16). Qed.
  Lemma p_i32 z b : kw_int 4 z b -> P I32 (PInt z) b. Proof. now apply (parses_prim C depth Int32). Qed.
  Lemma p_i64 z b : kw_int 8 z b -> P I64 (PInt z) b. Proof. now apply (parses_prim C depth Int64). Qed.

  (** arrays of topics *)
  Definition shows {A B} (view : pyval -> option B) (h : A -> B) (x : A) (v : pyval) : Prop := view v = Some (h x).
  Definition topic_view {B} (part : pyval -> option B) (t : pyval) : option (text * list B) := pair_of (text_fld t "name") (each_fld part t "partitions").
  Definition topic_map {A B} (h : A -> B) (tp : text * list A) : text * list B := (fst tp, map h (snd tp)).

  Lemma topic_read {A B} (item : A -> bytes -> Prop) (part : pyval -> option B) (h : A -> B) it :
    (forall x b, item x b -> exists v, P it v b /\ part v = Some (h x)) ->
    forall tp b, kw_topic item tp b -> exists v, P (TPart [("name", Str); ("partitions", TArray it)]%string) v b /\ topic_view part v = Some (topic_map h tp).
  Proof.
    intros H [n xs] b (nb & pb & Kn & Ka & ->). cbn [fst snd] in *. destruct (kw_parses C depth item (fun x v => part v = Some (h x)) it xs pb H Ka) as (vs & Pv & F).
    eexists. split.
    - apply parses_part. apply all_cons; [apply parses_string; exact Kn|]. rewrite <- (app_nil_r pb). apply all_cons; [exact Pv|apply all_nil].
    - unfold topic_view, text_fld, each_fld, fld. cbn. now rewrite (all_of_map part h xs vs F).
  Qed.
  Lemma topics_read {A B} (item : A -> bytes -> Prop) (part : pyval -> option B) (h : A -> B) it :
    (forall x b, item x b -> exists v, P it v b /\ part v = Some (h x)) ->
    forall r b, kw_topics item r b -> exists v, P (TPart [("topics", TArray (TPart [("name", Str); ("partitions", TArray it)]))]%string) v b /\ topics_fld part v = Some (map (topic_map h) r).
  Proof.
    intros H r b K. destruct (kw_parses C depth (kw_topic item) (fun x v => topic_view part v = Some (topic_map h x)) _ r b (topic_read item part h it H) K) as (vs & Pv & F).
    eexists. split.
    - apply parses_part. rewrite <- (app_nil_r b). apply all_cons; [exact Pv|apply all_nil].
    - unfold topics_fld, each_fld, fld. cbn. apply (all_of_map (topic_view part) (topic_map h) r vs F).
  Qed.
  Lemma topics_read_end {A B} (item last : A -> bytes -> Prop) (part : pyval -> option B) (h : A -> B) it :
    (forall x b, item x b -> exists v, P it v b /\ part v = Some (h x)) -> (forall x b, last x b -> exists v, E it v b /\ part v = Some (h x)) ->
    forall r b, kw_array_end (kw_topic item) (fun tp b => exists nb pb, kw_string (fst tp) nb /\ kw_array_end item last (snd tp) pb /\ b = nb ++ pb) r b ->
    exists v, E (TPart [("topics", TArray (TPart [("name", Str); ("partitions", TArray it)]))]%string) v b /\ topics_fld part v = Some (map (topic_map h) r).
  Proof.
    intros H HL r b K.
    assert (HT : forall tp b, (exists nb pb, kw_string (fst tp) nb /\ kw_array_end item last (snd tp) pb /\ b = nb ++ pb) ->
      exists v, E (TPart [("name", Str); ("partitions", TArray it)]%string) v b /\ topic_view part v = Some (topic_map h tp)).
    { intros [n xs] b0 (nb & pb & Kn & Ka & ->). cbn [fst snd] in *. destruct (kw_ends C depth item last (fun x v => part v = Some (h x)) it xs pb H HL Ka) as (vs & Pv & F).
      eexists. split.
      - apply ends_part. apply ends_cons; [apply parses_string; exact Kn|]. apply ends_last. exact Pv.
      - unfold topic_view, text_fld, each_fld, fld. cbn. now rewrite (all_of_map part h xs vs F). }
    destruct (kw_ends C depth (kw_topic item) _ (fun x v => topic_view part v = Some (topic_map h x)) _ r b (topic_read item part h it H) HT K) as (vs & Pv & F).
    eexists. split.
    - apply ends_part, ends_last. exact Pv.
    - unfold topics_fld, each_fld, fld. cbn. apply (all_of_map (topic_view part) (topic_map h) r vs F).
  Qed.

  Lemma ints_read w it xs b : (forall z b, kw_int w z b -> P it (PInt z) b) -> kw_array (kw_int w) xs b ->
    exists vs, P (TArray it) (PList vs) b /\ all_of (fun o => match o with PInt z => Some z | _ => None end) vs = Some xs.
  Proof.
    intros H K. destruct (kw_parses C depth (kw_int w) (fun z v => (match v with PInt z => Some z | _ => None end) = Some (id z)) it xs b) as (vs & Pv & F); [|exact K|].
    - intros z b0 Kz. exists (PInt z). split; [now apply H|reflexivity].
    - exists vs. split; [exact Pv|]. rewrite (all_of_map _ _ _ _ F), map_id. reflexivity.
  Qed.
End Responses.

Ltac fields := apply parses_part; repeat (apply all_cons; [eassumption || (apply p_i16; eassumption) || (apply p_i32; eassumption) || (apply p_i64; eassumption)
  || (apply parses_string; eassumption) || (apply parses_null_string; eassumption)|]).
Ltac last_nil b := rewrite <- (app_nil_r b).

Lemma map_topics_id {A} (r : list (text * list A)) : map (topic_map (fun x => x)) r = r.
Proof. rewrite <- (map_id r) at 2. apply map_ext. intros [n l]. unfold topic_map. cbn. now rewrite map_id. Qed.

Lemma codes_read C depth it (item : Z * Z -> bytes -> Prop) fs r b :
  (forall x b, item x b -> exists v, parses C depth it v b /\ pair_of (int_fld v "partition_id") (int_fld v "error_code") = Some x) ->
  fs = [("topics", TArray (TPart [("name", Str); ("partitions", TArray it)]))]%string ->
  kw_topics item r b -> look C depth fs codes_view b = Some (Ok r).
Proof.
  intros H -> K. destruct (topics_read C depth item (fun p => pair_of (int_fld p "partition_id") (int_fld p "error_code")) (fun x => x) it H r b K) as (v & Pv & E).
  rewrite map_topics_id in E. exact (look_at _ _ _ codes_view _ _ _ (parses_ends _ _ _ _ _ Pv) E).
Qed.

Lemma commit_read C depth r b : kw_commit r b -> look C depth OffsetCommitResponse codes_view b = Some (Ok r).
Proof.
  apply (codes_read C depth (TPart commit_PartitionResponse)); [|reflexivity].
  intros [p c] b0 (pb & cb & Kp & Kc & ->). cbn [fst snd] in *. eexists. split; [|shelve].
  last_nil cb. fields. apply all_nil.
  Unshelve. reflexivity.
Qed.
Lemma produced_read C depth r b : kw_produced r b -> look C depth ProduceResponse codes_view b = Some (Ok r).
Proof.
  apply (codes_read C depth (TPart produce_PartitionResponse)); [|reflexivity].
  intros [p c] b0 (pb & cb & o & ob & Kp & Kc & Ko & ->). cbn [fst snd] in *. eexists. split; [|shelve].
  last_nil ob. fields. apply all_nil.
  Unshelve. reflexivity.
Qed.
Lemma offset_read C depth r b : kw_offset r b -> look C depth OffsetResponse offset_view b = Some (Ok r).
Proof.
  intros K.
  destruct (topics_read C depth kw_offset_part (fun p => pair_of (int_fld p "partition_id") (pair_of (int_fld p "error_code") (each_fld (fun o => match o with PInt z => Some z | _ => None end) p "offsets")))
    (fun x => x) (TPart offset_PartitionResponse)) with (2 := K) as (v & Pv & E).
  - intros [p [c os]] b0 (pb & cb & ob & Kp & Kc & Ko & ->). cbn [fst snd] in *. destruct (ints_read C depth 8 I64 os ob (p_i64 C depth) Ko) as (vs & Pv & Ev).
    eexists. split; [last_nil ob; fields; apply all_nil|]. unfold int_fld, each_fld, fld. cbn. now rewrite Ev.
  - rewrite map_topics_id in E. exact (look_at _ _ _ offset_view _ _ _ (parses_ends _ _ _ _ _ Pv) E).
Qed.
Lemma offset_fetch_read C depth r b : kw_offset_fetch r b -> look C depth OffsetFetchResponse offset_fetch_view b = Some (Ok r).
Proof.
  intros K.
  destruct (topics_read C depth kw_offset_fetch_part (fun p => pair_of (int_fld p "partition_id") (pair_of (int_fld p "error_code") (int_fld p "offset")))
    (fun x => x) (TPart ofetch_PartitionResponse)) with (2 := K) as (v & Pv & E).
  - intros [p [c o]] b0 (pb & ob & m & mb & cb & Kp & Ko & Km & Kc & ->). cbn [fst snd] in *.
    eexists. split; [last_nil cb; fields; apply all_nil|]. reflexivity.
  - rewrite map_topics_id in E. exact (look_at _ _ _ offset_fetch_view _ _ _ (parses_ends _ _ _ _ _ Pv) E).
Qed.
Lemma coordinator_read C depth c i b : kw_coordinator c i b ->
  look C depth GroupCoordinatorResponse (fun v => pair_of (int_fld v "error_code") (int_fld v "coordinator_id")) b = Some (Ok (c, i)).
Proof.
  intros (cb & ib & host & hb & port & pb & Kc & Ki & Kh & Kp & ->). eapply look_at; [apply parses_ends; last_nil pb; fields; apply all_nil|]. reflexivity.
Qed.

Lemma messages_read ms l : fld l "message_set" = Some (PMsgSet (py_set ms)) -> messages_fld l = Some (kw_read_set ms).
Proof.
  intros E. unfold messages_fld. rewrite E. clear E. induction ms as [|[o m] ms IH]; [reflexivity|].
  unfold py_set in *. cbn [map fst snd kw_read_set]. rewrite IH. reflexivity.
Qed.
Definition fetch_part_view (p : pyval) := pair_of (int_fld p "partition_id") (pair_of (int_fld p "error_code") (messages_fld p)).
Definition fetch_part_read (p : Z * (Z * list (Z * kmsg))) : Z * (Z * list (Z * pymsg)) := (fst p, (fst (snd p), kw_read_set (snd (snd p)))).
Lemma fetch_read C depth r b : kw_fetch C 12 r b -> look C (S depth) FetchResponse fetch_view b = Some (Ok (map (topic_map fetch_part_read) r)).
Proof.
  assert (PP : forall x b, kw_fetch_part C 12 x b -> exists v, parses C (S depth) (TPart fetch_PartitionResponse) v b /\ fetch_part_view v = Some (fetch_part_read x)).
  { intros [p [c ms]] b0 (pb & cb & hw & hb & s & Kp & Kc & Kh & Ks & L & ->). cbn [fst snd] in *. pose proof (parses_set C depth ms s Ks L) as PS.
    eexists. split; [|shelve]. rewrite <- (app_nil_r (big_endian 4 (zlen s) ++ s)). fields. apply all_nil.
    Unshelve. unfold fetch_part_view. erewrite messages_read by reflexivity. reflexivity. }
  assert (PE : forall x b, kw_fetch_part_of (kw_set_cut C 12) x b -> exists v, ends C (S depth) (TPart fetch_PartitionResponse) v b /\ fetch_part_view v = Some (fetch_part_read x)).
  { intros [p [c ms]] b0 (pb & cb & hw & hb & s & Kp & Kc & Kh & Ks & L & ->). cbn [fst snd] in *. pose proof (ends_set C depth ms s Ks L) as PS.
    eexists. split; [|shelve]. apply ends_part. apply ends_cons; [apply p_i32; exact Kp|]. apply ends_cons; [apply p_i16; exact Kc|]. apply ends_cons; [apply p_i64; exact Kh|]. apply ends_last. exact PS.
    Unshelve. unfold fetch_part_view. erewrite messages_read by reflexivity. reflexivity. }
  intros [K|K].
  - destruct (topics_read C (S depth) (kw_fetch_part C 12) fetch_part_view fetch_part_read _ PP r b K) as (v & Pv & E).
    exact (look_at _ _ _ fetch_view _ _ _ (parses_ends _ _ _ _ _ Pv) E).
  - destruct (topics_read_end C (S depth) (kw_fetch_part C 12) _ fetch_part_view fetch_part_read _ PP PE r b K) as (v & Pv & E).
    exact (look_at _ _ _ fetch_view _ _ _ Pv E).
Qed.

(** ** Metadata *)
Definition as_broker (b : Z * text * Z) : mbroker := MBroker (fst (fst b)) (snd (fst b)) (snd b).
Definition as_mpart (p : kpart) : mpart := MPart (kp_code p) (kp_id p) (kp_leader p).
Definition as_mtopic (t : Z * text * list kpart) : mtopic := MTopic (fst (fst t)) (snd (fst t)) (map as_mpart (snd t)).
Definition broker_view (b : pyval) := match int_fld b "broker_id", text_fld b "host", int_fld b "port" with Some i, Some h, Some p => Some (MBroker i h p) | _, _, _ => None end.
Definition mpart_view (p : pyval) := match int_fld p "error_code", int_fld p "partition_id", int_fld p "leader" with Some c, Some i, Some l => Some (MPart c i l) | _, _, _ => None end.
Definition mtopic_view (t : pyval) := match int_fld t "error_code", text_fld t "name", each_fld mpart_view t "partitions" with Some c, Some n, Some ps => Some (MTopic c n ps) | _, _, _ => None end.
Lemma metadata_view_eq bs ts : metadata_view (PObj [("brokers", PList bs); ("topics", PList ts)]%string) =
  match all_of broker_view bs, all_of mtopic_view ts with Some a, Some b => Some (MResp a b) | _, _ => None end.
Proof. reflexivity. Qed.
Lemma metadata_read C depth brokers topics b : kw_metadata brokers topics b ->
  look C depth MetadataResponse metadata_view b = Some (Ok (MResp (map as_broker brokers) (map as_mtopic topics))).
Proof.
  intros (bb & tb & Kb & Kt & ->).
  destruct (kw_parses C depth kw_broker (fun x v => broker_view v = Some (as_broker x)) (TPart Broker) brokers bb) as (bs & Pb & Fb); [|exact Kb|].
  { intros [[i h] p] b0 (ib & hb & pb & Ki & Kh & Kp & ->). cbn [fst snd] in *. eexists. split; [last_nil pb; fields; apply all_nil|]. reflexivity. }
  destruct (kw_parses C depth kw_meta_topic (fun x v => mtopic_view v = Some (as_mtopic x)) (TPart TopicMetadata) topics tb) as (ts & Pt & Ft); [|exact Kt|].
  { intros [[c n] ps] b0 (cb & nb & pb & Kc & Kn & Kp & ->). cbn [fst snd] in *.
    destruct (kw_parses C depth kw_meta_part (fun x v => mpart_view v = Some (as_mpart x)) (TPart PartitionMetadata) ps pb) as (vs & Pv & Fv); [|exact Kp|].
    { intros p b1 (cb1 & ib & lb & rs & rb & is & sb & Kc1 & Ki & Kl & Kr & Ks & ->).
      destruct (ints_read C depth 4 I32 rs rb (p_i32 C depth) Kr) as (v1 & P1 & _). destruct (ints_read C depth 4 I32 is sb (p_i32 C depth) Ks) as (v2 & P2 & _).
      eexists. split; [last_nil sb; fields; apply all_nil|]. reflexivity. }
    eexists. split; [last_nil pb; fields; apply all_nil|]. unfold mtopic_view, int_fld, text_fld, each_fld, fld. cbn. now rewrite (all_of_map _ _ _ _ Fv). }
  eapply look_at; [apply parses_ends; last_nil tb; fields; apply all_nil|].
  rewrite metadata_view_eq. now rewrite (all_of_map _ _ _ _ Fb), (all_of_map _ _ _ _ Ft).
Qed.
