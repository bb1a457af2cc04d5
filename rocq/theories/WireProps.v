(** Remaining lemmas behind the statements of PropsWire. *)
From Coq Require Import ZArith String List Bool Lia.
From Verif Require Import PyBase BaseLemmas Utf8 Utf8Proofs Struct StructProofs Crc32 Primitives Snappy
  Messages Protocol SpecWire ProtocolProofs WireMore MessagesProofs SnappyProofs SpecCodec CompressProofs
  Request Schemas SpecDocs SpecRequest Constants RequestProofs.
Import ListNotations.
Open Scope Z_scope.

(** ** C01: all declared layouts *)
Definition class_fields (ps : list part_item) : list (string * ty) :=
  flat_map (fun p => match p with Pair n t => [(n, t)] | _ => [] end) ps.

Lemma nodup_names (l : list string) : (if ListDec.NoDup_dec string_dec l then true else false) = true -> NoDup l.
Proof. destruct (ListDec.NoDup_dec string_dec l); [auto|discriminate]. Qed.

Lemma classes_distinct : Forall (fun c => distinct (TPart (class_fields (snd c)))) classes.
Proof.
  unfold classes. repeat constructor; cbn; intuition discriminate.
Qed.

(** ** C02 *)
Lemma var_bytes_render p b : p = String_ \/ p = Bytes_ ->
  zlen b < 2 ^ (bits_of p - 1) ->
  to_bytes (TPrim p) (PBytes b) = Ok (big_endian (int_width (int_fmt p)) (zlen b) ++ b).
Proof.
  intros HP L. unfold to_bytes. cbn [render].
  assert (E : prim_render p (PBytes b) = Ok ([int_fmt p; Fs (zlen b)], [PInt (zlen b); PBytes b]))
    by (destruct HP as [-> | ->]; reflexivity).
  rewrite E. cbn [bind pack].
  assert (F : fits (bits_of p) (zlen b)).
  { unfold fits. pose proof (zlen_nonneg b). destruct HP as [-> | ->]; cbn [bits_of] in *; lia. }
  apply fits_range in F.
  assert (P1 : pack1 (int_fmt p) (PInt (zlen b)) = Ok (be_enc (int_width (int_fmt p)) (zlen b))).
  { destruct HP as [-> | ->]; cbn [pack1 int_fmt] in *; rewrite F; reflexivity. }
  rewrite P1. cbn [bind pack1]. rewrite fit_exact. cbn [bind]. now rewrite app_nil_r, big_endian_be.
Qed.

Lemma var_bytes_parse p b C depth pre post : p = String_ \/ p = Bytes_ ->
  zlen b < 2 ^ (bits_of p - 1) ->
  parse C depth (TPrim p) (pre ++ (big_endian (int_width (int_fmt p)) (zlen b) ++ b) ++ post) (zlen pre)
  = Ok (match utf8_decode b with Some t => PStr t | None => PBytes b end,
        zlen pre + zlen (big_endian (int_width (int_fmt p)) (zlen b) ++ b)).
Proof.
  intros HP L.
  assert (F : fits (bits_of p) (zlen b)).
  { unfold fits. pose proof (zlen_nonneg b). destruct HP as [-> | ->]; cbn [bits_of] in *; lia. }
  apply fits_range in F. rewrite big_endian_be. cbn [parse].
  pose proof (var_parse_mid (int_fmt p) b pre post) as V.
  destruct HP as [-> | ->]; cbn [prim_parse int_fmt] in *; rewrite V; auto; try discriminate.
Qed.

Lemma text_bytes p t b : p = String_ \/ p = Bytes_ -> utf8_encode t = Some b ->
  to_bytes (TPrim p) (PStr t) = to_bytes (TPrim p) (PBytes b).
Proof. intros [-> | ->] E; unfold to_bytes; cbn [render prim_render var_render py_str bind]; now rewrite E. Qed.

Lemma null_bytes p : p = String_ \/ p = Bytes_ ->
  to_bytes (TPrim p) PNone = Ok (big_endian (int_width (int_fmt p)) (-1)).
Proof. intros [-> | ->]; reflexivity. Qed.

Lemma null_parse p C depth pre post : p = String_ \/ p = Bytes_ ->
  parse C depth (TPrim p) (pre ++ big_endian (int_width (int_fmt p)) (-1) ++ post) (zlen pre)
  = Ok (PNone, zlen pre + Z.of_nat (int_width (int_fmt p))).
Proof.
  intro HP.
  assert (W : wire (TPrim p) PNone (big_endian (int_width (int_fmt p)) (-1))).
  { destruct HP as [-> | ->]; constructor; constructor. }
  assert (R : received (TPrim p) PNone) by (destruct HP as [-> | ->]; exact I).
  rewrite (reads_back_all _ _ _ R W C depth pre post). now rewrite big_endian_len.
Qed.

(** ** C07 *)
Lemma set_read_back C depth ms b :
  Forall (fun om => msg_bytes_ok (snd om) /\ m_attributes (snd om) = PInt 0) ms ->
  to_bytes TMsgSet (PMsgSet ms) = Ok b ->
  exists out bb, b = big_endian 4 (zlen bb) ++ bb /\ wire_entries out bb /\
    Forall2 (fun om om' => fst om' = fst om /\ msg_reads (snd om) (snd om')) ms out /\
    forall pre post, parse C depth TMsgSet (pre ++ b ++ post) (zlen pre) = Ok (PMsgSet out, zlen pre + zlen b).
Proof.
  intros F TB.
  assert (B : Forall (fun om => msg_bytes_ok (snd om)) ms).
  { eapply Forall_impl; [|exact F]. intros om H. exact (proj1 H). }
  destruct (ms_to_bytes _ _ TB B) as (ms' & bb & -> & L & W & F2 & Lg & Sz).
  assert (RD : Forall readable ms').
  { clear - F F2 Lg Sz. revert ms' F2 Lg Sz. induction F as [|om ms [_ A] F IH]; intros ms' F2 Lg Sz;
      inversion F2 as [|? om' ? r [E1 E2] F2']; subst; [constructor|].
    inversion Lg as [|? ? [(o & Eo & Fo) L1] Lg']; subst. inversion Sz as [|? ? S1 Sz']; subst.
    constructor; [|now apply IH]. destruct om' as [o' m']. cbn [fst snd] in *. subst o'. rewrite Eo.
    apply (reads_readable (snd om)); auto. }
  assert (CT : (length ms' <= length bb)%nat).
  { pose proof (wire_entries_count _ _ W) as CT. unfold zlen in CT. lia. }
  destruct (ms_loop_all C (ms_parse_nested C depth) ms' bb [] [] (length bb) RD W) as (out & S2 & E2); [lia|].
  exists out, bb. split; [reflexivity|]. split.
  { clear - S2 W. revert out S2. induction W as [|o m p r rb Wp Wr IH]; intros out S2;
      inversion S2 as [|? om' ? r' S S2']; subst; [constructor|].
    inversion S; subst. constructor; [|now apply IH].
    inversion Wp; subst; constructor; assumption. }
  split.
  { clear - F2 S2. revert out S2. induction F2 as [|om om' ms ms' [E1 E2] F2 IH]; intros out S2;
      inversion S2 as [|? om'' ? r' S S2']; subst; [constructor|].
    constructor; [|now apply IH]. destruct (stored_reads (snd om) om' om'' E2 S) as [G1 G2]. split; [congruence|exact G2]. }
  intros pre post. cbn [parse]. unfold ms_parse. rewrite <- app_assoc.
  pose proof (zlen_nonneg bb) as Nb.
  pose proof (int_at Int32 (zlen bb) pre (bb ++ post)) as H. cbn [int_fmt int_width] in H.
  rewrite H by (discriminate || (unfold fits, bits_of; lia)). cbn [bind]. rewrite app_assoc.
  set (pre' := pre ++ big_endian 4 (zlen bb)).
  destruct (ms_loop_all C (ms_parse_nested C depth) ms' bb pre' post (S (length (pre' ++ bb ++ post))) RD W)
    as (o1 & S1 & E1).
  { rewrite !app_length. lia. }
  assert (o1 = out).
  { clear - S1 S2. revert out S2. induction S1 as [|x y l l' S S1 IH]; intros o2 S2; inversion S2; subst; [reflexivity|].
    f_equal; [eapply stored_det; eauto|now apply IH]. }
  subst o1. rewrite E1. cbn [bind]. unfold pre'. rewrite !zlen_app. do 2 f_equal. lia.
Qed.

(** ** C06 *)
Lemma message_checksum m f d bs : msg_bytes_ok m -> msg_render m = Ok (f, d) -> pack f d = Ok bs ->
  exists p, bs = big_endian 4 (signed32 (crc32 p)) ++ p /\ Forall is_byte p /\ 0 <= crc32 p < 2 ^ 32.
Proof.
  intros B R P. destruct (msg_render_inv _ _ _ B R) as (g & a & k' & v' & p & _ & _ & _ & _ & _ & _ & _ & _ & W & FB & -> & ->).
  exists p. pose proof (crc32_bound p FB) as CB. split; [|split; [exact FB|exact CB]].
  cbn [pack] in P. destruct (pack1 Fi _) as [b|] eqn:P1; [|discriminate]. cbn [bind pack1] in P.
  rewrite fit_exact in P. cbn [bind] in P. apply Ok_inj in P. rewrite app_nil_r in P. subst bs. f_equal.
  apply (pack1_int_inv Int32) in P1 as (z & [= <-] & Fz & ->). cbn [int_fmt int_width] in *.
  rewrite ?big_endian_be. f_equal. unfold signed32. unfold fits, bits_of in Fz.
  destruct (Z.ltb_spec (2 ^ 31) (crc32 p)); destruct (Z.ltb_spec (crc32 p) (2 ^ 31)); lia.
Qed.

(** ** C12 *)
Definition undocumented_layout : list (string * string) :=
  [("offset_commit", "TopicV1Request"); ("offset_commit", "OffsetCommitV1Request");
   ("coordinator", "GroupCoordinatorRequest");
   ("heartbeat", "HeartbeatRequest"); ("heartbeat", "HeartbeatResponse")]%string.

Lemma layouts_documented m c ps : In (m, c, ps) classes -> ~ In (m, c) undocumented_layout ->
  exists fs ds, documented m c = Some ds /\ unpack_parts ps = Ok fs /\ matches_fields m ds fs.
Proof.
  intros H N. unfold classes in H.
  repeat (destruct H as [H|H];
    [ injection H as <- <- <-;
      first [ exfalso; apply N; cbn [undocumented_layout In]; tauto
            | do 2 eexists; split; [reflexivity|]; split; [reflexivity|];
              repeat (econstructor; try reflexivity) ] |]).
  destruct H.
Qed.

Lemma pairs_names fs : part_names (pairs fs) = Ok (map fst fs).
Proof. induction fs as [|[n t] r IH]; [reflexivity|]. cbn [pairs map part_names fst]. fold (pairs r). now rewrite IH. Qed.

Lemma unpack_names ps fs : unpack_parts ps = Ok fs -> part_names ps = Ok (map fst fs).
Proof.
  revert fs. induction ps as [|[n t|s|t] r IH]; intros fs E; cbn [unpack_parts part_names] in *.
  - injection E as <-. reflexivity.
  - destruct (unpack_parts r) as [fs'|]; [|discriminate]. cbn [bind] in E. injection E as <-.
    now rewrite (IH fs' eq_refl).
  - destruct (String.length s =? 2)%nat; discriminate.
  - discriminate.
Qed.

Lemma matches_names m ds fs : matches_fields m ds fs -> map fst ds = map fst fs.
Proof. induction 1; cbn [map fst]; congruence. Qed.

Lemma documented_construct m c ps ds kw : In (m, c, ps) classes -> ~ In (m, c) undocumented_layout ->
  documented m c = Some ds -> NoDup (map fst kw) -> incl (map fst kw) (map fst ds) ->
  exists attrs, class_init ps kw = Ok attrs /\ forall n, lookup_attr attrs n = lookup_attr kw n.
Proof.
  intros H N D ND I. destruct (layouts_documented m c ps H N) as (fs & ds' & D' & U & M).
  rewrite D in D'. injection D' as <-. unfold class_init. rewrite (unpack_names _ _ U). cbn [bind].
  rewrite (matches_names _ _ _ M) in I. rewrite (part_init_ok _ _ [] I). eexists. split; [reflexivity|].
  intro n. rewrite !lookup_attr_eq. apply (init_attr (map fst fs)); [exact ND|]. apply part_init_ok. exact I.
Qed.

Lemma every_class_distinct : forall m c ps fs,
  In (m, c, ps) classes -> unpack_parts ps = Ok fs -> distinct (TPart fs).
Proof.
  intros m c ps fs H U.
  pose proof (proj1 (Forall_forall _ _) classes_distinct _ H) as D. cbn [snd] in D.
  replace fs with (class_fields ps); [exact D|]. clear - U. revert fs U.
  induction ps as [|[n t|s|t] r IH]; intros fs U; cbn [unpack_parts class_fields flat_map] in *.
  - now injection U.
  - destruct (unpack_parts r) as [g|]; [|discriminate]. cbn [bind] in U. injection U as <-.
    cbn [app]. f_equal. now apply IH.
  - destruct (String.length s =? 2)%nat; discriminate.
  - discriminate.
Qed.

Lemma conforms_no_msgset ok1 ok2 t v : no_msgset t -> conforms ok1 t v -> conforms ok2 t v.
Proof.
  revert v. induction t as [p|it IH|fs IH|] using ty_ind'; intros v NM Cv.
  - exact Cv.
  - cbn [conforms no_msgset] in *. destruct Cv as (vs & -> & F & L). exists vs. repeat split; auto.
    eapply Forall_impl; [|exact F]. intros x. now apply IH.
  - cbn [conforms no_msgset] in *. destruct Cv as (attrs & -> & G). exists attrs. split; [reflexivity|].
    revert attrs NM G. induction IH as [|[n t] r Ht _ IHr]; intros [|[n' v'] attrs] NM G; auto.
    cbn [snd] in Ht. destruct NM as [N1 N2]. destruct G as (-> & G1 & G2).
    split; [reflexivity|]. split; [now apply Ht|now apply IHr].
  - destruct NM.
Qed.

Lemma int_out_of_range : forall p z, p <> String_ -> p <> Bytes_ ->
  ~ fits (bits_of p) z -> to_bytes (TPrim p) (PInt z) = Err EStruct.
Proof.
  intros p z N1 N2 NF. unfold to_bytes. cbn [render].
  assert (R : in_range (int_width (int_fmt p)) z = false).
  { destruct (in_range _ _) eqn:E; [|reflexivity]. elim NF. now apply fits_range. }
  destruct p; try congruence; cbn [prim_render bind pack pack1 int_fmt] in *; rewrite R; reflexivity.
Qed.

Lemma var_too_long p b : p = String_ \/ p = Bytes_ -> 2 ^ (bits_of p - 1) <= zlen b ->
  to_bytes (TPrim p) (PBytes b) = Err EStruct.
Proof.
  intros HP L. unfold to_bytes. cbn [render].
  assert (R : in_range (int_width (int_fmt p)) (zlen b) = false).
  { destruct (in_range _ _) eqn:E; [|reflexivity]. apply fits_range in E. unfold fits in E. lia. }
  destruct HP as [-> | ->]; cbn [prim_render var_render bind pack pack1 int_fmt] in *; rewrite R; reflexivity.
Qed.

Lemma truncated_rejected : forall t v bs c rest C depth pre,
  no_msgset t -> received t v -> wire t v bs -> bs = c ++ rest -> rest <> [] ->
  parse C depth t (pre ++ c) (zlen pre) = Err EStruct.
Proof.
  intros t v bs c rest C depth pre NM R W -> NE.
  pose proof (reads_back_all t v (c ++ rest) R W C depth pre []) as P. rewrite app_nil_r in P.
  pose proof (zlen_nonneg pre). pose proof (zlen_nonneg c).
  assert (0 < zlen rest) by (destruct rest; [congruence|unfold zlen; simpl; lia]).
  rewrite zlen_app in P.
  pose proof (parse_prefix_rejected C depth t (pre ++ c ++ rest) (zlen pre) v (zlen pre + (zlen c + zlen rest))
                (zlen pre + zlen c) NM) as Q.
  replace (firstn (Z.to_nat (zlen pre + zlen c)) (pre ++ c ++ rest)) with (pre ++ c) in Q.
  - apply Q; [lia|lia|rewrite !zlen_app; lia|exact P].
  - rewrite app_assoc. rewrite <- zlen_app, zlen_to_nat. rewrite firstn_app, Nat.sub_diag, firstn_all. simpl.
    now rewrite app_nil_r.
Qed.

Lemma request_classes_ok : Forall (fun af => (forall n, In n (map fst (snd af)) -> ~ In n reserved) /\
  distinct (TPart (snd af))) request_classes.
Proof.
  unfold request_classes. repeat constructor; cbn; intuition (subst; try discriminate).
Qed.

Lemma api_number_key api key : dget api_keys api = Some key -> In (api, key) kafka_api_numbers.
Proof. intro E. apply dget_In in E. exact E. Qed.

Lemma request_framing_classes : forall api fs kw last attrs last' bs,
  In (api, fs) request_classes -> NoDup (map fst kw) -> bytes_ok (PObj kw) ->
  request_init api fs kw last = Ok (attrs, last') -> request_bytes fs attrs = Ok bs ->
  exists key payload v',
    In (api, key) kafka_api_numbers /\
    bs = request_frame key last' payload /\
    last' = last + 1 /\ fits 32 last' /\ fits 32 (zlen (request_body key last' payload)) /\
    reads_as (TPart fs) (PObj kw) v' /\ wire (TPart fs) v' payload /\ legal (TPart fs) v'.
Proof.
  intros api fs kw last attrs last' bs H ND BK RI RB.
  destruct (proj1 (Forall_forall _ _) request_classes_ok _ H) as [NR _]. cbn [snd] in NR.
  pose proof (proj1 (request_init_inv _ _ _ _ _ _ ND RI)) as EL.
  destruct (request_framing _ _ _ _ _ _ _ NR ND BK RI RB) as (key & payload & v' & K & E & F1 & F2 & R & W & L).
  subst last'. exists key, payload, v'. repeat split; auto; try apply F1; try apply F2. now apply api_number_key.
Qed.

Lemma api_numbers_inj : forall a1 a2 k, In (a1, k) kafka_api_numbers -> In (a2, k) kafka_api_numbers -> a1 = a2.
Proof.
  assert (G : forall l, NoDup (map (@snd string Z) l) -> forall a1 a2 k, In (a1, k) l -> In (a2, k) l -> a1 = a2).
  { induction l as [|[a k'] l IH]; intros ND a1 a2 k H1 H2; [destruct H1|].
    cbn [map snd] in ND. inversion ND as [|? ? N1 N2]; subst.
    destruct H1 as [E1|H1], H2 as [E2|H2]; try congruence.
    - injection E1 as -> ->. elim N1. apply (in_map snd) in H2. exact H2.
    - injection E2 as -> ->. elim N1. apply (in_map snd) in H1. exact H1.
    - eapply IH; eauto. }
  apply G. unfold kafka_api_numbers. cbn [map snd]. repeat (constructor; [cbn; intuition discriminate|]). constructor.
Qed.

Lemma frame_readable : forall a1 k1 c1 p1 a2 k2 c2 p2,
  In (a1, k1) kafka_api_numbers -> In (a2, k2) kafka_api_numbers -> fits 32 c1 -> fits 32 c2 ->
  request_frame k1 c1 p1 = request_frame k2 c2 p2 -> a1 = a2 /\ k1 = k2 /\ c1 = c2 /\ p1 = p2.
Proof.
  intros a1 k1 c1 p1 a2 k2 c2 p2 H1 H2 F1 F2 E.
  assert (G : Forall (fun kv => fits 16 (snd kv)) kafka_api_numbers).
  { unfold kafka_api_numbers. repeat constructor; cbn; lia. }
  pose proof (proj1 (Forall_forall _ _) G _ H1) as G1. pose proof (proj1 (Forall_forall _ _) G _ H2) as G2.
  cbn [snd] in G1, G2.
  destruct (request_frame_inj _ _ _ _ _ _ G1 G2 F1 F2 E) as (-> & -> & ->).
  split; [eapply api_numbers_inj; eauto|auto].
Qed.

Lemma request_class_key api fs : In (api, fs) request_classes -> exists key, dget api_keys api = Some key.
Proof.
  intro H. unfold request_classes in H. cbn [In] in H.
  repeat (destruct H as [H|H]; [injection H as <- <-; eexists; reflexivity|]). destruct H.
Qed.

Lemma legal_requests_serialize : forall api fs kw last,
  In (api, fs) request_classes -> NoDup (map fst kw) -> incl (map fst kw) (map fst fs) ->
  canon (TPart fs) (PObj (map (fun nt => (fst nt, lookup_attr kw (fst nt))) fs)) ->
  fits 32 (last + 1) ->
  (forall payload, wire (TPart fs) (PObj (map (fun nt => (fst nt, lookup_attr kw (fst nt))) fs)) payload ->
     zlen payload + 14 < 2 ^ 31) ->
  exists attrs key payload,
    request_init api fs kw last = Ok (attrs, last + 1) /\ In (api, key) kafka_api_numbers /\
    wire (TPart fs) (PObj (map (fun nt => (fst nt, lookup_attr kw (fst nt))) fs)) payload /\
    request_bytes fs attrs = Ok (request_frame key (last + 1) payload).
Proof.
  intros api fs kw last H ND I.
  assert (E : map (fun nt => (fst nt, lookup_attr kw (fst nt))) fs = named_values fs kw).
  { apply map_ext. intros [n t]. now rewrite lookup_attr_eq. }
  rewrite E. intros CA FC SZ.
  destruct (proj1 (Forall_forall _ _) request_classes_ok _ H) as [NR DI]. cbn [snd] in NR, DI.
  destruct (request_class_key _ _ H) as [key K].
  destruct (request_init_ok api fs kw last key I K) as [attrs RI].
  destruct (request_serializes api fs kw last attrs _ DI NR ND CA FC RI) as (key' & payload & K' & W & RB).
  { intros key' payload K' W. specialize (SZ payload W). unfold request_body. rewrite !zlen_app, !big_endian_len.
    change (zlen [107; 105; 101; 108]) with 4. lia. }
  exists attrs, key', payload. repeat split; auto. now apply api_number_key.
Qed.

Lemma ids_overflow : forall machine pid, exists n id,
  In id (first_ids n (seed machine pid)) /\ ~ fits 32 id /\
  forall api fs kw attrs, In (api, fs) request_classes -> NoDup (map fst kw) -> bytes_ok (PObj kw) ->
    request_init api fs kw (id - 1) = Ok (attrs, id) -> forall bs, request_bytes fs attrs <> Ok bs.
Proof.
  intros m p. destruct (first_ids_overflow m p) as (n & x & H & NF). exists n, x.
  split; [exact H|]. split; [exact NF|]. intros api fs kw attrs HR ND BK RI bs RB.
  destruct (proj1 (Forall_forall _ _) request_classes_ok _ HR) as [NR _]. cbn [snd] in NR.
  eapply overflow_not_serialized; eauto. now replace (x - 1 + 1) with x by lia.
Qed.

Lemma commit_v1_mismatch : forall ds, documented "offset_commit" "TopicV1Request" = Some ds ->
  ~ matches_fields "offset_commit" ds commit_TopicV1Request.
Proof.
  intros ds E. vm_compute in E. injection E as <-. intro M. inversion M as [|? ? ? ? ? _ M2]; subst.
  inversion M2 as [|? ? ? ? ? M3 _]; subst. inversion M3.
Qed.

Lemma retriable_iff_documented : forall c, is_retriable c = true <-> exists n, In (c, n) kafka_retriable.
Proof.
  intro c. rewrite retriable_iff. split.
  - intro H. apply in_map_iff in H as ([c' n] & <- & H). eauto.
  - intros [n H]. apply in_map_iff. exists (c, n). auto.
Qed.

Lemma unknown_codes : forall c, (forall n, error_name c <> Ok n) -> c <> no_error /\ is_retriable c = false.
Proof.
  intros c H. split.
  - intros ->. exact (H _ eq_refl).
  - destruct (is_retriable c) eqn:E; [|reflexivity]. apply retriable_iff_documented in E as [n E].
    elim (H n). now apply retriable_names.
Qed.
