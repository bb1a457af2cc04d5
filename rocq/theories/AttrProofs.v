(** Proofs for C93: what the parser makes of entries with attributes it does not know. *)
From Coq Require Import ZArith String List Bool Lia.
From Verif Require Import PyBase BaseLemmas Utf8 Crc32 Struct Primitives Snappy Messages Protocol Schemas SpecWire ProtocolProofs MessagesProofs WireMore Consumer SpecKafka ResponseRead KafkaProofs SpecAttr.
Import ListNotations.
Open Scope Z_scope.
Local Opaque big_endian crc32.

(** ** Buffers that cannot begin with a message *)
Lemma cut_unless C v : (forall x1 o1 x2 o2 x3 o3 x4 o4 x5 o5 x6 o6 x7 o7,
    int_parse Fq v 0 = Ok (x1, o1) -> int_parse Fi v o1 = Ok (x2, o2) -> int_parse Fi v o2 = Ok (x3, o3) -> int_parse Fb v o3 = Ok (x4, o4) ->
    int_parse Fb v o4 = Ok (x5, o5) -> prim_parse Bytes_ v o5 = Ok (x6, o6) -> prim_parse Bytes_ v o6 = Ok (x7, o7) -> False) ->
  exists o, parse_entry C v 0 = Cut o.
Proof.
  intros H. unfold parse_entry, msg_parse.
  destruct (prim_parse Int64 v 0) as [[x1 o1]|e] eqn:P1; [|apply prim_parse_struct in P1; subst; eauto].
  destruct (prim_parse Int32 v o1) as [[x2 o2]|e] eqn:P2; [|apply prim_parse_struct in P2; subst; eauto].
  destruct (prim_parse Int32 v o2) as [[x3 o3]|e] eqn:P3; cbn [bind]; [|apply prim_parse_struct in P3; subst; eauto].
  destruct (prim_parse Int8 v o3) as [[x4 o4]|e] eqn:P4; cbn [bind]; [|apply prim_parse_struct in P4; subst; eauto].
  destruct (prim_parse Int8 v o4) as [[x5 o5]|e] eqn:P5; cbn [bind]; [|apply prim_parse_struct in P5; subst; eauto].
  destruct (prim_parse Bytes_ v o5) as [[x6 o6]|e] eqn:P6; cbn [bind]; [|apply prim_parse_struct in P6; subst; eauto].
  destruct (prim_parse Bytes_ v o6) as [[x7 o7]|e] eqn:P7; cbn [bind]; [|apply prim_parse_struct in P7; subst; eauto].
  destruct (H _ _ _ _ _ _ _ _ _ _ _ _ _ _ P1 P2 P3 P4 P5 P6 P7).
Qed.
Lemma no_message_cut C v : no_message v -> exists o, parse_entry C v 0 = Cut o.
Proof.
  intros N. apply cut_unless. intros x1 o1 x2 o2 x3 o3 x4 o4 x5 o5 x6 o6 x7 o7 P1 P2 P3 P4 P5 P6 P7.
  apply int_parse_bounds in P1. apply int_parse_bounds in P2. apply int_parse_bounds in P3. apply int_parse_bounds in P4. apply int_parse_bounds in P5.
  cbn [tok_size] in *. assert (o5 = 18) by lia. subst o5.
  destruct N as [L|(h & n & rest & Lh & Fn & B & ->)].
  - apply prim_parse_bounds in P6; [|lia]. cbn [int_fmt tok_size] in P6. apply prim_parse_bounds in P7; [|lia]. cbn [int_fmt tok_size] in P7. lia.
  - cbn [prim_parse] in P6. unfold var_parse in P6. pose proof (int_at Int32 n h rest) as I. cbn [int_fmt int_width prim_parse] in I, P6.
    rewrite <- Lh, I in P6 by (discriminate || exact Fn). cbn [bind] in P6. pose proof (zlen_nonneg rest).
    replace (n =? -1) with false in P6 by lia. unfold unpack1 in P6. cbn [tok_size] in P6. rewrite app_assoc, (zlen_app (h ++ big_endian 4 n)) in P6.
    replace ((zlen (h ++ big_endian 4 n) <? 0) || (n <? 0) || (zlen (h ++ big_endian 4 n) + zlen rest - zlen (h ++ big_endian 4 n) <? n)) with true in P6; [discriminate|].
    symmetry. rewrite !orb_true_iff. lia.
Qed.
Lemma nested_no_message C depth v : no_message v -> ms_parse_nested C (S depth) (PBytes v) = Ok [].
Proof.
  intros N. cbn [ms_parse_nested ms_loop]. destruct (_ =? _); [reflexivity|]. destruct (no_message_cut C v N) as [o ->]. reflexivity.
Qed.

(** ** One entry *)
Lemma unknown_inflate C a v : unknown_attributes a -> inflate C a v = Ok v.
Proof. intros (_ & _ & [E|E]); unfold inflate; rewrite E; reflexivity. Qed.
Lemma vanishes_inflate C depth a m : vanishes C a m -> fits 8 a /\ a <> 0 /\ exists v, inflate C a (kw_field (km_value m)) = Ok v /\ ms_parse_nested C (S depth) v = Ok [].
Proof.
  intros (v & E & [(U & H)|(F & L & AV & H)]); rewrite E.
  - split; [apply U|]. split; [apply U|]. rewrite (unknown_inflate C a _ U). eexists. split; [reflexivity|]. destruct H as [->|[D N]].
    + reflexivity.
    + unfold kw_field. rewrite D. now apply nested_no_message.
  - split; [exact F|]. split; [intros ->; discriminate|]. exists (PBytes []). split; [|reflexivity].
    unfold inflate. rewrite L. cbv zeta. change (2 =? 0) with false. change (2 =? GZIP) with false. change (2 =? SNAPPY) with true. cbv iota.
    unfold kw_field, sn_decompress_v. rewrite AV. cbn [negb]. destruct (utf8_decode v) as [t|].
    + change (zlen raw_header) with 16. now replace (zlen t - 16 <? 16) with true by lia.
    + unfold snappy_decompress. cbn [negb]. change (zlen raw_header) with 16. destruct (length v); cbn [decomp_loop]; replace (zlen v - 16 <? 16) with true by lia; reflexivity.
Qed.
Lemma refused_inflate C depth a m : refused C a m -> fits 8 a /\ a <> 0 /\
  (inflate C a (kw_field (km_value m)) = Err EType \/ exists v, inflate C a (kw_field (km_value m)) = Ok v /\ ms_parse_nested C (S depth) v = Err EType).
Proof.
  intros [(U & H)|[(F & L & v & t & E & D)|(F & L & AV & H)]].
  - split; [apply U|]. split; [apply U|]. right. rewrite (unknown_inflate C a _ U). eexists. split; [reflexivity|].
    unfold kw_field. destruct (km_value m) as [v|]; [|reflexivity]. destruct H as ([|c t] & -> & N); [congruence|reflexivity].
  - split; [exact F|]. split; [intros ->; discriminate|]. left. unfold inflate. rewrite L, E. unfold kw_field. now rewrite D.
  - split; [exact F|]. split; [intros ->; discriminate|]. left. unfold inflate. rewrite L. cbv zeta. change (2 =? 0) with false. change (2 =? GZIP) with false. change (2 =? SNAPPY) with true. cbv iota.
    unfold sn_decompress_v. rewrite AV. cbn [negb]. destruct (km_value m) as [v|]; [|reflexivity]. destruct H as (t & D & LT). unfold kw_field. rewrite D.
    change (zlen raw_header) with 16. now replace (zlen t - 16 <? 16) with false by lia.
Qed.

Lemma nonzero_branch (A : Type) (a : Z) (x y : A) : a <> 0 -> match a with 0 => x | _ => y end = y.
Proof. destruct a; congruence. Qed.
(** an entry whose value is parsed as a message set *)
Lemma nested_step C nested k o a m b pre post end_ v inner : kw_entry o a m b -> fits 8 a -> a <> 0 -> zlen pre + zlen b <= end_ ->
  inflate C a (kw_field (km_value m)) = Ok v -> nested v = Ok inner ->
  ms_loop C nested (S k) (pre ++ b ++ post) (zlen pre) end_ =
  bind (ms_loop C nested k ((pre ++ b) ++ post) (zlen (pre ++ b)) end_) (fun '(r, o') => Ok (inner ++ r, o')).
Proof.
  intros E Fa NZ L I N. pose proof (entry_len _ _ _ _ E). cbn [ms_loop]. replace (zlen pre =? end_) with false by lia.
  rewrite (entry_at C o a m b pre post E Fa), I. cbn [m_attributes m_value]. rewrite nonzero_branch by exact NZ. rewrite N. cbn [bind]. rewrite app_assoc. reflexivity.
Qed.
(** an entry that makes the loop raise *)
Lemma raise_step C nested k o a m b pre post end_ e : kw_entry o a m b -> fits 8 a -> a <> 0 -> zlen pre + zlen b <= end_ -> e <> EStruct ->
  (inflate C a (kw_field (km_value m)) = Err e \/ exists v, inflate C a (kw_field (km_value m)) = Ok v /\ nested v = Err e) ->
  ms_loop C nested (S k) (pre ++ b ++ post) (zlen pre) end_ = Err e.
Proof.
  intros E Fa NZ L NE H. pose proof (entry_len _ _ _ _ E). cbn [ms_loop]. replace (zlen pre =? end_) with false by lia.
  rewrite (entry_at C o a m b pre post E Fa). destruct H as [->|(v & -> & N)].
  - destruct e; congruence.
  - cbn [m_attributes m_value]. rewrite nonzero_branch by exact NZ. rewrite N. reflexivity.
Qed.

(** ** Sets *)
Lemma odd_read C depth ms b : odd_set C ms b -> exists n, Z.of_nat n <= zlen b /\ forall pre post end_ k, zlen pre + zlen b <= end_ ->
  ms_loop C (ms_parse_nested C (S depth)) (n + k) (pre ++ b ++ post) (zlen pre) end_ =
  bind (ms_loop C (ms_parse_nested C (S depth)) k ((pre ++ b) ++ post) (zlen (pre ++ b)) end_) (fun '(r, o) => Ok (py_set ms ++ r, o)).
Proof.
  assert (STEP : forall o a m b ms inner rest n v, kw_entry o a m b -> fits 8 a -> a <> 0 -> inflate C a (kw_field (km_value m)) = Ok v ->
    ms_parse_nested C (S depth) v = Ok (py_set inner) -> Z.of_nat n <= zlen rest ->
    (forall pre post end_ k, zlen pre + zlen rest <= end_ -> ms_loop C (ms_parse_nested C (S depth)) (n + k) (pre ++ rest ++ post) (zlen pre) end_ =
       bind (ms_loop C (ms_parse_nested C (S depth)) k ((pre ++ rest) ++ post) (zlen (pre ++ rest)) end_) (fun '(r, o) => Ok (py_set ms ++ r, o))) ->
    exists n, Z.of_nat n <= zlen (b ++ rest) /\ forall pre post end_ k, zlen pre + zlen (b ++ rest) <= end_ ->
      ms_loop C (ms_parse_nested C (S depth)) (n + k) (pre ++ (b ++ rest) ++ post) (zlen pre) end_ =
      bind (ms_loop C (ms_parse_nested C (S depth)) k ((pre ++ (b ++ rest)) ++ post) (zlen (pre ++ (b ++ rest))) end_) (fun '(r, o) => Ok (py_set (inner ++ ms) ++ r, o))).
  { intros o a m b0 ms0 inner rest n v E Fa NZ I N Ln IH. exists (S n). pose proof (entry_len _ _ _ _ E). split; [rewrite zlen_app; lia|].
    intros pre post end_ k L. rewrite zlen_app in L. pose proof (zlen_nonneg rest). rewrite <- app_assoc. cbn [Nat.add].
    rewrite (nested_step C _ _ o a m b0 pre _ end_ v (py_set inner)) by (assumption || lia). rewrite IH by (rewrite zlen_app; lia). rewrite <- !app_assoc, py_set_app.
    destruct (ms_loop _ _ _ _ _ _) as [[r o']|]; cbn [bind]; [|reflexivity]. now rewrite app_assoc. }
  induction 1 as [|o m b ms rest E S (n & N & IH)|o a key z raw inner b ms rest P PL E S (n & N & IH)|o a m b ms rest V E S (n & N & IH)|o a key v inner b ms rest U D PL E S (n & N & IH)].
  - exists 0%nat. split; [apply zlen_nonneg|]. intros. cbn [Nat.add app py_set map]. rewrite app_nil_r. destruct (ms_loop _ _ _ _ _ _) as [[r o]|]; reflexivity.
  - exists (Datatypes.S n). pose proof (entry_len _ _ _ _ E). split; [rewrite zlen_app; lia|]. intros pre post end_ k L. rewrite zlen_app in L. pose proof (zlen_nonneg rest).
    rewrite <- app_assoc. cbn [Nat.add]. rewrite (plain_step C _ _ o m b) by (exact E || lia). rewrite IH by (rewrite zlen_app; lia). rewrite <- !app_assoc.
    destruct (ms_loop _ _ _ _ _ _) as [[r o']|]; reflexivity.
  - destruct (packed_read _ _ _ _ P) as (EV & Fa & NZ & I). eapply STEP; eauto. now apply nested_read.
  - destruct (vanishes_inflate C depth a m V) as (Fa & NZ & v & I & NV). exact (STEP o a m b ms [] rest n v E Fa NZ I NV N IH).
  - eapply STEP; eauto; [apply U|apply U|apply (unknown_inflate C a _ U)|]. cbn [km_value]. unfold kw_field. rewrite D. now apply nested_read.
Qed.

Lemma parses_odd C depth ms s : odd_set C ms s -> zlen s < 2 ^ 31 -> parses C (S depth) TMsgSet (PMsgSet (py_set ms)) (big_endian 4 (zlen s) ++ s).
Proof.
  intros K L pre post. cbn [parse]. unfold ms_parse. rewrite <- app_assoc.
  pose proof (int_at Int32 (zlen s) pre (s ++ post)) as H. cbn [int_fmt int_width] in H. pose proof (zlen_nonneg s).
  rewrite H by (discriminate || (unfold fits, bits_of; lia)). cbn [bind]. rewrite app_assoc. set (pre' := pre ++ big_endian 4 (zlen s)).
  destruct (odd_read C depth ms s K) as (n & N & R).
  assert (LF : (n <= length (pre' ++ s ++ post))%nat) by (rewrite !app_length; unfold zlen in N; lia).
  replace (S (length (pre' ++ s ++ post))) with (n + S (length (pre' ++ s ++ post) - n))%nat by lia.
  rewrite R by lia. cbn [ms_loop]. replace (zlen (pre' ++ s) =? zlen pre' + zlen s) with true by (rewrite zlen_app; lia). cbn [bind]. rewrite app_nil_r.
  unfold pre'. rewrite !zlen_app. do 2 f_equal. lia.
Qed.

(** ** Errors on the way through a response *)
Section Fails.
  Variable C : codec.
  Variable depth : nat.
  Variable x : exn.
  Definition fails (t : ty) (b : bytes) : Prop := forall pre post, parse C depth t (pre ++ b ++ post) (zlen pre) = Err x.
  Definition fails_all (fs : fields) (b : bytes) : Prop := forall pre post, parse_fields C depth fs (pre ++ b ++ post) (zlen pre) = Err x.

  Lemma fails_here n t fs b : fails t b -> fails_all ((n, t) :: fs) b.
  Proof. intros F pre post. cbn [parse_fields]. now rewrite F. Qed.
  Lemma fails_cons n t fs v b bs : parses C depth t v b -> fails_all fs bs -> fails_all ((n, t) :: fs) (b ++ bs).
  Proof. intros P F pre post. cbn [parse_fields]. rewrite <- app_assoc, P. cbn [bind]. rewrite <- zlen_app, (app_assoc pre b), F. reflexivity. Qed.
  Lemma fails_part fs b : fails_all fs b -> fails (TPart fs) b.
  Proof. intros F pre post. now rewrite parse_part, F. Qed.
  Lemma fails_array {A} (item : A -> bytes -> Prop) (wrong : bytes -> Prop) it b : (forall y b, item y b -> exists v, parses C depth it v b) -> (forall b, wrong b -> fails it b) ->
    array_until item wrong b -> fails (TArray it) b.
  Proof.
    intros H W (xs & bs & n & bx & rest & F & B & L & ->) pre post.
    assert (G : exists vs, Forall2 (parses C depth it) vs bs /\ zlen vs = zlen xs).
    { clear L. induction F as [|y b xs bs I F IH]; [exists []; auto|]. destruct (H _ _ I) as (v & P). destruct IH as (vs & Ps & Z).
      exists (v :: vs). split; [auto|]. rewrite !zlen_cons. lia. }
    destruct G as (vs & Ps & Z). pose proof (zlen_nonneg xs). replace n with (Z.of_nat (length vs + S (Z.to_nat (n - zlen xs - 1)))) in * by (unfold zlen in *; lia).
    rewrite <- app_assoc, array_head by lia. set (hd := pre ++ _). rewrite iterN_app, <- app_assoc, (items_at C depth it vs bs Ps hd). cbn [bind iterN].
    unfold array_step at 1. cbn [fst snd]. rewrite <- zlen_app, (app_assoc hd), <- (app_assoc bx), (W bx B). reflexivity.
  Qed.

  Variable set : list (Z * kmsg) -> bytes -> Prop.
  Variable wrong : bytes -> Prop.
  Hypothesis reads : forall ms s, set ms s -> zlen s < 2 ^ 31 -> parses C depth TMsgSet (PMsgSet (py_set ms)) (big_endian 4 (zlen s) ++ s).
  Hypothesis raises : forall s, wrong s -> zlen s < 2 ^ 31 -> fails TMsgSet (big_endian 4 (zlen s) ++ s).

  Lemma part_reads y b : kw_fetch_part_of set y b -> exists v, parses C depth (TPart fetch_PartitionResponse) v b /\ fetch_part_view v = Some (fetch_part_read y).
  Proof using reads.
    destruct y as [p [c ms]]. intros (pb & cb & hw & hb & s & Kp & Kc & Kh & Ks & L & ->). cbn [fst snd] in *. pose proof (reads ms s Ks L) as PS.
    eexists. split; [|shelve]. rewrite <- (app_nil_r (big_endian 4 (zlen s) ++ s)). fields. apply all_nil.
    Unshelve. unfold fetch_part_view. erewrite messages_read by reflexivity. reflexivity.
  Qed.
  Lemma sets_read r b : kw_topics (kw_fetch_part_of set) r b -> look C depth FetchResponse fetch_view b = Some (Ok (map (topic_map fetch_part_read) r)).
  Proof using reads.
    intros K. destruct (topics_read C depth (kw_fetch_part_of set) fetch_part_view fetch_part_read _ part_reads r b K) as (v & Pv & E).
    exact (look_at _ _ _ fetch_view _ _ _ (parses_ends _ _ _ _ _ Pv) E).
  Qed.
  Lemma sets_fail b : fetch_until set wrong b -> look C depth FetchResponse fetch_view b = Some (Err x).
  Proof using reads raises.
    intros K. unfold look. enough (F : fails (TPart FetchResponse) b).
    { unfold deserialize. specialize (F [] []). rewrite app_nil_r in F. change (parse C depth (TPart FetchResponse) ([] ++ b) (zlen (@nil Z))) with (parse C depth (TPart FetchResponse) b 0) in F. now rewrite F. }
    apply fails_part, fails_here. unfold fetch_until in K. cbv zeta in K. eapply fails_array; [| |exact K].
    - intros tp b0 KT. destruct (topic_read C depth (kw_fetch_part_of set) fetch_part_view fetch_part_read _ part_reads tp b0 KT) as (v & Pv & _). eauto.
    - intros b0 (t & nb & pb & Kn & KA & ->). apply fails_part. eapply fails_cons; [apply parses_string; exact Kn|]. apply fails_here. eapply fails_array; [| |exact KA].
      + intros y b1 KP. destruct (part_reads y b1 KP) as (v & Pv & _). eauto.
      + intros b1 (p & pb' & c & cb & hw & hb & s & Kp & Kc & Kh & W & L & ->). apply fails_part.
        eapply fails_cons; [apply p_i32; exact Kp|]. eapply fails_cons; [apply p_i16; exact Kc|]. eapply fails_cons; [apply p_i64; exact Kh|]. apply fails_here. now apply raises.
  Qed.
End Fails.

(** a set with an entry in it that raises *)
Lemma set_raises C depth (set : list (Z * kmsg) -> bytes -> Prop) (wrong : Z -> kmsg -> Prop) s x : x <> EStruct ->
  (forall ms b, set ms b -> exists n, Z.of_nat n <= zlen b /\ forall pre post end_ k, zlen pre + zlen b <= end_ ->
    ms_loop C (ms_parse_nested C depth) (n + k) (pre ++ b ++ post) (zlen pre) end_ =
    bind (ms_loop C (ms_parse_nested C depth) k ((pre ++ b) ++ post) (zlen (pre ++ b)) end_) (fun '(r, o) => Ok (py_set ms ++ r, o))) ->
  (forall a m, wrong a m -> fits 8 a /\ a <> 0 /\ (inflate C a (kw_field (km_value m)) = Err x \/ exists v, inflate C a (kw_field (km_value m)) = Ok v /\ ms_parse_nested C depth v = Err x)) ->
  set_until set wrong s -> zlen s < 2 ^ 31 -> fails C depth x TMsgSet (big_endian 4 (zlen s) ++ s).
Proof.
  intros NE RS WR (ms & s1 & o & a & m & e & s2 & K & W & E & DS) L pre post. destruct (WR a m W) as (Fa & NZ & R).
  cbn [parse]. unfold ms_parse. rewrite <- app_assoc.
  pose proof (int_at Int32 (zlen s) pre (s ++ post)) as H. cbn [int_fmt int_width] in H. pose proof (zlen_nonneg s).
  rewrite H by (discriminate || (unfold fits, bits_of; lia)). cbn [bind]. rewrite app_assoc. set (pre' := pre ++ big_endian 4 (zlen s)).
  destruct (RS ms s1 K) as (n & N & RD).
  assert (LF : (n <= length (pre' ++ s ++ post))%nat) by (rewrite DS, !app_length; unfold zlen in N; lia).
  replace (S (length (pre' ++ s ++ post))) with (n + S (length (pre' ++ s ++ post) - n))%nat by lia.
  assert (LS : zlen s = zlen s1 + zlen e + zlen s2) by (rewrite DS, !zlen_app; lia). pose proof (zlen_nonneg s2). pose proof (zlen_nonneg e).
  replace (pre' ++ s ++ post) with (pre' ++ s1 ++ (e ++ s2 ++ post)) by (rewrite DS; now rewrite <- !app_assoc).
  rewrite RD by lia.
  rewrite (raise_step C _ _ o a m e (pre' ++ s1) (s2 ++ post) _ x) by (assumption || (rewrite zlen_app; lia)). reflexivity.
Qed.
Lemma plain_loop C depth ms b : kw_plain ms b -> exists n, Z.of_nat n <= zlen b /\ forall pre post end_ k, zlen pre + zlen b <= end_ ->
    ms_loop C (ms_parse_nested C depth) (n + k) (pre ++ b ++ post) (zlen pre) end_ =
    bind (ms_loop C (ms_parse_nested C depth) k ((pre ++ b) ++ post) (zlen (pre ++ b)) end_) (fun '(r, o) => Ok (py_set ms ++ r, o)).
Proof. intros (bs & F & ->). exists (length ms). split; [now apply plain_count|]. intros. now apply plain_read. Qed.
Lemma parses_plain C depth ms s : kw_plain ms s -> zlen s < 2 ^ 31 -> parses C depth TMsgSet (PMsgSet (py_set ms)) (big_endian 4 (zlen s) ++ s).
Proof.
  intros K L pre post. cbn [parse]. unfold ms_parse. rewrite <- app_assoc.
  pose proof (int_at Int32 (zlen s) pre (s ++ post)) as H. cbn [int_fmt int_width] in H. pose proof (zlen_nonneg s).
  rewrite H by (discriminate || (unfold fits, bits_of; lia)). cbn [bind]. rewrite app_assoc. set (pre' := pre ++ big_endian 4 (zlen s)).
  destruct (plain_loop C depth ms s K) as (n & N & R).
  assert (LF : (n <= length (pre' ++ s ++ post))%nat) by (rewrite !app_length; unfold zlen in N; lia).
  replace (S (length (pre' ++ s ++ post))) with (n + S (length (pre' ++ s ++ post) - n))%nat by lia.
  rewrite R by lia. cbn [ms_loop]. replace (zlen (pre' ++ s) =? zlen pre' + zlen s) with true by (rewrite zlen_app; lia). cbn [bind]. rewrite app_nil_r.
  unfold pre'. rewrite !zlen_app. do 2 f_equal. lia.
Qed.
