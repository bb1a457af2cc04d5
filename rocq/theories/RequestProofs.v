(** Requests, schemas and error codes: proofs for C05, C11, C12, C13. *)
From Coq Require Import ZArith String List Bool Lia.
From Verif Require Import PyBase BaseLemmas Utf8 Struct StructProofs Primitives Messages Protocol SpecWire
  ProtocolProofs WireMore MessagesProofs Request Schemas SpecDocs SpecRequest Constants.
Import ListNotations.
Open Scope Z_scope.

(** ** dictionaries as attribute tables *)
Lemma lookup_attr_eq attrs n : lookup_attr attrs n = attr attrs n.
Proof.
  unfold lookup_attr, attr. induction attrs as [|[m v] r IH]; [reflexivity|].
  cbn [find fst dget]. change (eqb m n) with (String.eqb m n).
  destruct (String.eqb m n); [reflexivity|exact IH].
Qed.

Lemma attr_dset_same attrs n v : attr (dset attrs n v) n = v.
Proof. unfold attr. now rewrite dget_dset_same. Qed.
Lemma attr_dset_other attrs n m v : n <> m -> attr (dset attrs n v) m = attr attrs m.
Proof. intro N. unfold attr. rewrite dget_dset_other; congruence. Qed.

Lemma dget_notin {K V} `{EqB K} (d : dict K V) k : ~ In k (map fst d) -> dget d k = None.
Proof.
  induction d as [|[k' v'] r IH]; cbn [dget map fst In]; [reflexivity|].
  intro N. destruct (eqb k' k) eqn:E; [apply eqb_true in E; subst; tauto|]. apply IH. tauto.
Qed.

Lemma dget_app_attr {V} (kw acc : dict string V) n :
  dget (fold_left (fun d kv => dset d (fst kv) (snd kv)) kw acc) n =
  match dget (rev kw) n with Some v => Some v | None => dget acc n end.
Proof.
  revert acc. induction kw as [|[k v] r IH]; intro acc; [reflexivity|].
  cbn [fold_left fst snd rev]. rewrite IH.
  assert (G : forall l : list (string * V), dget (l ++ [(k, v)]) n = match dget l n with Some w => Some w | None => if eqb k n then Some v else None end).
  { induction l as [|[k1 v1] l IHl]; [reflexivity|]. cbn [dget app]. destruct (eqb k1 n); auto. }
  rewrite G. destruct (dget (rev r) n); [reflexivity|].
  destruct (eqb k n) eqn:E.
  - apply eqb_true in E. subst. apply dget_dset_same.
  - rewrite dget_dset_other; [reflexivity|]. intro; subst. rewrite eqb_refl in E. discriminate.
Qed.

Lemma part_init_spec names kw : forall acc attrs,
  part_init names kw acc = Ok attrs ->
  attrs = fold_left (fun d kv => dset d (fst kv) (snd kv)) kw acc /\ incl (map fst kw) names.
Proof.
  induction kw as [|[k v] r IH]; intros acc attrs E; cbn [part_init] in E.
  - injection E as <-. split; [reflexivity|intros x []].
  - destruct (smem names k) eqn:M; [|discriminate]. destruct (IH _ _ E) as [-> I].
    split; [reflexivity|]. intros x [<-|Hx]; [now apply smem_In|now apply I].
Qed.

Lemma part_init_ok names kw acc : incl (map fst kw) names ->
  part_init names kw acc = Ok (fold_left (fun d kv => dset d (fst kv) (snd kv)) kw acc).
Proof.
  revert acc. induction kw as [|[k v] r IH]; intros acc I; cbn [part_init]; [reflexivity|].
  rewrite (proj2 (smem_In names k)) by (apply I; left; reflexivity).
  apply IH. intros x Hx. apply I. now right.
Qed.

Lemma part_init_bad names kw acc : ~ incl (map fst kw) names -> part_init names kw acc = Err EValue.
Proof.
  revert acc. induction kw as [|[k v] r IH]; intros acc N; cbn [part_init].
  - elim N. intros x [].
  - destruct (smem names k) eqn:M; [|reflexivity]. apply IH. intro I. apply N.
    intros x [<-|Hx]; [now apply smem_In|now apply I].
Qed.

Lemma dget_rev_nodup {V} (kw : dict string V) n : NoDup (map fst kw) -> dget (rev kw) n = dget kw n.
Proof.
  induction kw as [|[k v] r IH]; intro ND; [reflexivity|]. cbn [rev map fst] in *.
  inversion ND as [|? ? N1 N2]; subst.
  assert (G : forall l : list (string * V), dget (l ++ [(k, v)]) n = match dget l n with Some w => Some w | None => if eqb k n then Some v else None end).
  { induction l as [|[k1 v1] l IHl]; [reflexivity|]. cbn [dget app]. destruct (eqb k1 n); auto. }
  rewrite G, (IH N2). cbn [dget]. destruct (eqb k n) eqn:E.
  - apply eqb_true in E. subst. now rewrite dget_notin.
  - now destruct (dget r n).
Qed.

Lemma init_attr names kw attrs n : NoDup (map fst kw) -> part_init names kw [] = Ok attrs ->
  attr attrs n = attr kw n.
Proof.
  intros ND E. apply part_init_spec in E as [-> _]. unfold attr.
  rewrite dget_app_attr, dget_rev_nodup by assumption. cbn [dget]. now destruct (dget kw n).
Qed.

(** ** Requests *)
Lemma render_part_fields fs attrs : render (TPart fs) (PObj attrs) = render_fields fs attrs.
Proof.
  cbn [render]. induction fs as [|[n t] r IH]; [reflexivity|].
  cbn [render_fields]. destruct (render t (attr attrs n)) as [[f d]|e]; [|reflexivity]. cbn [bind].
  now rewrite IH.
Qed.

Lemma render_fields_app fs1 fs2 attrs :
  render_fields (fs1 ++ fs2) attrs =
  ('(f, d) <- render_fields fs1 attrs ;; '(f', d') <- render_fields fs2 attrs ;; Ok (f ++ f', d ++ d')).
Proof.
  induction fs1 as [|[n t] r IH].
  - cbn [app render_fields bind]. destruct (render_fields fs2 attrs) as [[f d]|]; reflexivity.
  - cbn [app render_fields]. destruct (render t (attr attrs n)) as [[f d]|]; [|reflexivity]. cbn [bind].
    rewrite IH. destruct (render_fields r attrs) as [[f1 d1]|]; [|reflexivity]. cbn [bind].
    destruct (render_fields fs2 attrs) as [[f2 d2]|]; [|reflexivity]. cbn [bind]. now rewrite !app_assoc.
Qed.

Lemma render_fields_ext fs a1 a2 :
  (forall n, In n (map fst fs) -> attr a1 n = attr a2 n) -> render_fields fs a1 = render_fields fs a2.
Proof.
  induction fs as [|[n t] r IH]; intro H; [reflexivity|]. cbn [render_fields].
  rewrite (H n) by (left; reflexivity). rewrite IH; [reflexivity|]. intros m Hm. apply H. now right.
Qed.

Lemma serialize_eq fs attrs : serialize fs attrs = to_bytes (TPart (preamble_parts ++ fs)) (PObj attrs).
Proof.
  unfold serialize, to_bytes. rewrite render_part_fields, render_fields_app.
  destruct (render_fields preamble_parts attrs) as [[f d]|]; [|reflexivity]. cbn [bind].
  destruct (render_fields fs attrs) as [[f' d']|]; reflexivity.
Qed.

(** names that Request.__init__ overwrites *)
Definition reserved : list string := ["client_id"; "api_key"; "api_version"; "correlation_id"]%string.

Lemma request_init_inv api fs kw last attrs last' :
  NoDup (map fst kw) -> request_init api fs kw last = Ok (attrs, last') ->
  last' = last + 1 /\ incl (map fst kw) (map fst fs) /\
  exists key, dget api_keys api = Some key /\
    attr attrs "api_key"%string = PInt key /\ attr attrs "api_version"%string = PInt 0 /\
    attr attrs "correlation_id"%string = PInt (last + 1) /\ attr attrs "client_id"%string = PStr (txt "kiel") /\
    forall n, ~ In n reserved -> attr attrs n = attr kw n.
Proof.
  intros ND E. unfold request_init in E.
  destruct (part_init (map fst fs) kw []) as [a0|] eqn:PI; [|discriminate]. cbn [bind] in E.
  unfold dindex in E. destruct (dget api_keys api) as [key|] eqn:K; [|discriminate]. cbn [bind generate_correlation_id] in E.
  apply Ok_inj in E. pose proof (f_equal fst E) as E1. pose proof (f_equal snd E) as E2. cbn [fst snd] in E1, E2. clear E.
  split; [auto|]. split; [now apply part_init_spec in PI|]. exists key. split; [reflexivity|].
  subst attrs. unfold CLIENT_ID, API_VERSION.
  repeat split;
    repeat first [rewrite attr_dset_same; reflexivity | rewrite attr_dset_other by discriminate].
  intros n N. unfold reserved in N. cbn [In] in N.
  rewrite !attr_dset_other by tauto. eapply init_attr; eauto.
Qed.

Lemma request_init_ok api fs kw last key :
  incl (map fst kw) (map fst fs) -> dget api_keys api = Some key ->
  exists attrs, request_init api fs kw last = Ok (attrs, last + 1).
Proof.
  intros I K. unfold request_init. rewrite part_init_ok by assumption. cbn [bind].
  unfold dindex. rewrite K. cbn [bind generate_correlation_id]. eauto.
Qed.

Lemma wire_int_inv p z b : wire (TPrim p) (PInt z) b ->
  (p = Int16 -> b = big_endian 2 z) /\ (p = Int32 -> b = big_endian 4 z).
Proof.
  intro W. inversion W as [? ? ? N|? ? WV|? ? WV| | |]; subst; split; intro; subst; try discriminate;
    try (decompose [and or] N; subst; try discriminate; reflexivity).
Qed.

Lemma wire_kiel b : wire (TPrim String_) (PStr (txt "kiel")) b -> b = big_endian 2 4 ++ [107; 105; 101; 108].
Proof.
  intro W. inversion W as [? ? ? N|? ? WV| | | |]; subst.
  inversion WV as [|t b' U|]; subst. vm_compute in U. injection U as <-. reflexivity.
Qed.

Lemma pack_i z bs : pack [Fi] [PInt z] = Ok bs -> fits 32 z /\ bs = big_endian 4 z.
Proof.
  intro E. cbn [pack] in E. destruct (pack1 Fi (PInt z)) as [b|] eqn:P; [|discriminate].
  cbn [bind] in E. apply Ok_inj in E. rewrite app_nil_r in E. subst b.
  cbn [pack1] in P. destruct (in_range (int_width Fi) z) eqn:R; [|discriminate].
  apply Ok_inj in P. subst bs. split.
  - apply (proj2 (fits_range Int32 z)). exact R.
  - symmetry. apply big_endian_be.
Qed.

Lemma pack_i_ok z : fits 32 z -> pack [Fi] [PInt z] = Ok (big_endian 4 z).
Proof.
  intro F. apply (proj1 (fits_range Int32 z)) in F. cbn [pack pack1]. cbn [int_fmt] in F. rewrite F.
  cbn [bind]. now rewrite app_nil_r, big_endian_be.
Qed.

Lemma init_bytes_ok kw attrs : forall acc, bytes_ok (PObj acc) -> bytes_ok (PObj kw) ->
  attrs = fold_left (fun d kv => dset d (fst kv) (snd kv)) kw acc -> bytes_ok (PObj attrs).
Proof.
  assert (DS : forall acc n v, bytes_ok (PObj acc) -> bytes_ok v -> bytes_ok (PObj (dset acc n v))).
  { induction acc as [|[m w] r IH]; intros n v B Bv; cbn [dset].
    - cbn [bytes_ok]. auto.
    - cbn [bytes_ok] in B. destruct B as [B1 B2]. destruct (eqb m n).
      + cbn [bytes_ok]. split; auto.
      + split; [exact B1|]. exact (IH n v B2 Bv). }
  induction kw as [|[n v] r IH]; intros acc Ba Bk E.
  - now subst.
  - cbn [bytes_ok] in Bk. destruct Bk as [Bv Bk]. cbn [fold_left fst snd] in E.
    eapply IH; [|exact Bk|exact E]. now apply DS.
Qed.

Lemma bytes_ok_dset acc n v : bytes_ok (PObj acc) -> bytes_ok v -> bytes_ok (PObj (dset acc n v)).
Proof.
  intros B Bv. apply (init_bytes_ok [(n, v)] (dset acc n v) acc); auto. cbn [bytes_ok]. auto.
Qed.

Lemma reads_part_split fs1 fs2 attrs attrs' :
  reads_as (TPart (fs1 ++ fs2)) (PObj attrs) (PObj attrs') ->
  exists a1 a2, attrs' = a1 ++ a2 /\ reads_as (TPart fs1) (PObj attrs) (PObj a1) /\
                reads_as (TPart fs2) (PObj attrs) (PObj a2).
Proof.
  cbn [reads_as]. intros (A & A' & [= <-] & [= <-] & G). revert attrs' G.
  induction fs1 as [|[n t] r IH]; intros attrs' G.
  - exists [], attrs'. split; [reflexivity|]. split; [exists attrs, []; auto|]. exists attrs, attrs'. auto.
  - destruct attrs' as [|[n' v'] attrs']; [destruct G|]. cbn [app] in G. destruct G as (-> & R & G).
    destruct (IH attrs' G) as (a1 & a2 & -> & (B1 & B2 & [= <-] & [= <-] & G1) & G2).
    exists ((n', v') :: a1), a2. split; [reflexivity|]. split; [|exact G2].
    exists attrs, ((n', v') :: a1). auto.
Qed.

Lemma wire_fields_app fs1 : forall fs2 a1 a2 b, map fst a1 = map fst fs1 ->
  wire_fields (fs1 ++ fs2) (a1 ++ a2) b ->
  exists b1 b2, b = b1 ++ b2 /\ wire_fields fs1 a1 b1 /\ wire_fields fs2 a2 b2.
Proof.
  induction fs1 as [|[n t] r IH]; intros fs2 a1 a2 b M W.
  - destruct a1; [|discriminate]. exists [], b. repeat split; auto. constructor.
  - destruct a1 as [|[n' v'] a1]; [discriminate|]. cbn [map fst] in M.
    injection M as -> M. cbn [app] in W. inversion W as [|? ? ? ? ? b0 bs W1 W2]; subst.
    destruct (IH _ _ _ _ M W2) as (b1 & b2 & -> & X1 & X2).
    exists (b0 ++ b1), b2. rewrite app_assoc. repeat split; auto. now constructor.
Qed.

Lemma conforms_part_app ok fs1 : forall fs2 a1 a2, map fst a1 = map fst fs1 ->
  conforms ok (TPart (fs1 ++ fs2)) (PObj (a1 ++ a2)) ->
  conforms ok (TPart fs1) (PObj a1) /\ conforms ok (TPart fs2) (PObj a2).
Proof.
  induction fs1 as [|[n t] r IH]; intros fs2 a1 a2 M H.
  - destruct a1; [|discriminate]. split; [exists []; auto|exact H].
  - destruct a1 as [|[n' v'] a1]; [discriminate|]. cbn [map fst] in M. injection M as -> M.
    cbn [conforms app] in H. destruct H as (A & [= <-] & _ & Hv & H).
    destruct (IH fs2 a1 a2 M) as [X1 X2].
    { exists (a1 ++ a2). auto. }
    split; [|exact X2]. cbn [conforms] in X1. destruct X1 as (A & [= <-] & X1).
    exists ((n, v') :: a1). auto.
Qed.

Lemma conforms_part_join ok fs1 : forall fs2 a1 a2,
  conforms ok (TPart fs1) (PObj a1) -> conforms ok (TPart fs2) (PObj a2) ->
  conforms ok (TPart (fs1 ++ fs2)) (PObj (a1 ++ a2)).
Proof.
  induction fs1 as [|[n t] r IH]; intros fs2 a1 a2 H1 H2.
  - cbn [conforms] in H1. destruct H1 as (A & [= <-] & H1). destruct a1; [exact H2|destruct H1].
  - cbn [conforms] in H1. destruct H1 as (A & [= <-] & H1). destruct a1 as [|[n' v'] a1]; [destruct H1|].
    destruct H1 as (-> & Hv & H1).
    assert (X : conforms ok (TPart r) (PObj a1)) by (exists a1; auto).
    destruct (IH fs2 a1 a2 X H2) as (A & [= <-] & G).
    exists ((n', v') :: a1 ++ a2). split; [reflexivity|]. cbn [app].
    split; [reflexivity|]. split; [exact Hv|exact G].
Qed.

Lemma reads_part_lookup fs a1 a2 v' :
  (forall n, In n (map fst fs) -> attr a1 n = attr a2 n) ->
  reads_as (TPart fs) (PObj a1) v' -> reads_as (TPart fs) (PObj a2) v'.
Proof.
  intros H. cbn [reads_as]. intros (A & A' & [= <-] & -> & G). exists a2, A'. repeat split; auto.
  revert A' G. induction fs as [|[n t] r IH]; intros A' G; [exact G|].
  destruct A' as [|[n' v'] A']; [exact G|]. destruct G as (-> & R & G). split; [reflexivity|]. split.
  - rewrite lookup_attr_eq in *. rewrite <- H; [exact R|left; reflexivity].
  - apply IH; [|exact G]. intros m Hm. apply H. now right.
Qed.

Lemma reads_part_names fs attrs a' : reads_as (TPart fs) (PObj attrs) (PObj a') -> map fst a' = map fst fs.
Proof.
  cbn [reads_as]. intros (A & A' & [= <-] & [= <-] & G). revert a' G.
  induction fs as [|[n t] r IH]; intros a' G; destruct a' as [|[n' v'] a']; cbn [map fst]; try (destruct G; fail); [reflexivity|].
  destruct G as (-> & _ & G). f_equal. now apply IH.
Qed.

(** C05 *)
Lemma request_framing api fs kw last attrs last' bs :
  (forall n, In n (map fst fs) -> ~ In n reserved) ->
  NoDup (map fst kw) -> bytes_ok (PObj kw) ->
  request_init api fs kw last = Ok (attrs, last') -> request_bytes fs attrs = Ok bs ->
  exists key payload v',
    dget api_keys api = Some key /\
    bs = request_frame key (last + 1) payload /\
    fits 32 (last + 1) /\ fits 32 (zlen (request_body key (last + 1) payload)) /\
    reads_as (TPart fs) (PObj kw) v' /\ wire (TPart fs) v' payload /\ legal (TPart fs) v'.
Proof.
  intros NR ND BK RI RB.
  destruct (request_init_inv _ _ _ _ _ _ ND RI) as (-> & I & key & K & A1 & A2 & A3 & A4 & AO).
  unfold request_bytes in RB. rewrite serialize_eq in RB. unfold to_bytes in RB.
  destruct (render (TPart (preamble_parts ++ fs)) (PObj attrs)) as [[f d]|] eqn:R; [|discriminate].
  cbn [bind] in RB. destruct (pack f d) as [body|] eqn:P; [|discriminate]. cbn [bind] in RB.
  unfold framed in RB. destruct (pack [Fi] [PInt (zlen body)]) as [h|] eqn:PH; [|discriminate].
  cbn [bind] in RB. apply Ok_inj in RB. apply pack_i in PH as [FB ->].
  assert (BA : bytes_ok (PObj attrs)).
  { unfold request_init in RI. destruct (part_init (map fst fs) kw []) as [a0|] eqn:PI; [|discriminate].
    apply part_init_spec in PI as [-> _]. cbn [bind] in RI. unfold dindex in RI. rewrite K in RI.
    cbn [bind generate_correlation_id] in RI. apply Ok_inj in RI. apply (f_equal fst) in RI. cbn [fst] in RI.
    subst attrs. repeat (apply bytes_ok_dset; [|exact Logic.I]).
    eapply init_bytes_ok; [| |reflexivity]; [exact Logic.I|exact BK]. }
  destruct (all_legal _ _ _ _ _ BA R P) as (LL & v' & RV & W & LG).
  assert (exists a', v' = PObj a') as [a' ->].
  { cbn [reads_as] in RV. destruct RV as (? & a' & _ & -> & _). eauto. }
  destruct (reads_part_split _ _ _ _ RV) as (a1 & a2 & -> & R1 & R2).
  pose proof (reads_part_names _ _ _ R1) as M1.
  inversion W as [| | | |? ? ? WF|]; subst.
  destruct (wire_fields_app _ _ _ _ _ M1 WF) as (b1 & b2 & -> & W1 & W2).
  destruct (conforms_part_app _ _ _ _ _ M1 LG) as [LG1 LG2].
  assert (B1 : b1 = big_endian 2 key ++ big_endian 2 0 ++ big_endian 4 (last + 1) ++ (big_endian 2 4 ++ [107; 105; 101; 108])
               /\ fits 32 (last + 1)).
  { cbn [reads_as] in R1. destruct R1 as (? & ? & [= <-] & [= <-] & G). unfold preamble_parts in G.
    destruct a1 as [|[? x1] [|[? x2] [|[? x3] [|[? x4] [|? ?]]]]]; try (exfalso; tauto).
    destruct G as (<- & G1 & <- & G2 & <- & G3 & <- & G4 & _).
    rewrite lookup_attr_eq in G1, G2, G3, G4. rewrite A1 in G1. rewrite A2 in G2. rewrite A3 in G3. rewrite A4 in G4.
    cbn [reads_as] in G1, G2, G3, G4. cbn [var_reads] in G4. subst x1 x2 x3 x4. unfold preamble_parts in W1.
    inversion W1 as [|? ? ? ? ? c1 r1 V1 Q1]; subst. inversion Q1 as [|? ? ? ? ? c2 r2 V2 Q2]; subst.
    inversion Q2 as [|? ? ? ? ? c3 r3 V3 Q3]; subst. inversion Q3 as [|? ? ? ? ? c4 r4 V4 Q4]; subst.
    inversion Q4; subst.
    apply wire_int_inv in V1 as [V1 _]. apply wire_int_inv in V2 as [V2 _]. apply wire_int_inv in V3 as [_ V3].
    apply wire_kiel in V4. rewrite V1, V2, V3, V4 by reflexivity. split; [now rewrite app_nil_r|].
    cbn [conforms] in LG1. destruct LG1 as (? & [= <-] & LG1). unfold preamble_parts in LG1.
    destruct LG1 as (_ & _ & _ & _ & _ & LC & _). cbn [conforms canon_prim] in LC.
    destruct LC as (z & [= <-] & F). exact F. }
  destruct B1 as [-> FC].
  exists key, b2, (PObj a2). split; [exact K|]. split; [|].
  { unfold request_frame, request_body. rewrite <- !app_assoc. reflexivity. }
  split; [exact FC|]. split.
  { unfold request_body. rewrite <- !app_assoc in FB. rewrite <- ?app_assoc. exact FB. }
  split.
  { eapply reads_part_lookup; [|exact R2]. intros n Hn. apply AO. now apply NR. }
  split; [now constructor|exact LG2].
Qed.

(** the frame determines what it carries *)
Lemma app_same_len {A} (a b c d : list A) : length a = length c -> a ++ b = c ++ d -> a = c /\ b = d.
Proof.
  revert c. induction a as [|x a IH]; intros [|y c] L E; try discriminate; [auto|].
  cbn [app] in E. injection E as -> E. destruct (IH c) as [-> ->]; auto.
Qed.

Lemma big_endian_length n z : length (big_endian n z) = n.
Proof. induction n as [|n IH]; cbn [big_endian]; [reflexivity|]. now rewrite <- IH at 2. Qed.

Lemma big_endian_inj p z1 z2 : p <> String_ -> p <> Bytes_ ->
  fits (bits_of p) z1 -> fits (bits_of p) z2 ->
  big_endian (int_width (int_fmt p)) z1 = big_endian (int_width (int_fmt p)) z2 -> z1 = z2.
Proof.
  intros N1 N2 F1 F2 E.
  assert (W : wire (TPrim p) (PInt z1) (big_endian (int_width (int_fmt p)) z1)).
  { constructor. destruct p; cbn; try tauto; congruence. }
  assert (W2 : wire (TPrim p) (PInt z2) (big_endian (int_width (int_fmt p)) z2)).
  { constructor. destruct p; cbn; try tauto; congruence. }
  rewrite <- E in W2.
  assert (R1 : received (TPrim p) (PInt z1)) by (destruct p; cbn; try congruence; eauto).
  assert (R2 : received (TPrim p) (PInt z2)) by (destruct p; cbn; try congruence; eauto).
  pose (C := {| gz_compress := fun b => b; gz_decompress := fun b => Ok b; sn_available := false;
                sn_compress := fun b => b; sn_uncompress := fun b => Ok b |}).
  pose proof (reads_back_all _ _ _ R1 W C O [] []) as X1.
  pose proof (reads_back_all _ _ _ R2 W2 C O [] []) as X2.
  rewrite X1 in X2. congruence.
Qed.

Lemma request_frame_inj k1 c1 p1 k2 c2 p2 :
  fits 16 k1 -> fits 16 k2 -> fits 32 c1 -> fits 32 c2 ->
  request_frame k1 c1 p1 = request_frame k2 c2 p2 -> k1 = k2 /\ c1 = c2 /\ p1 = p2.
Proof.
  intros F1 F2 F3 F4 E. unfold request_frame in E.
  apply app_same_len in E as [_ E]; [|now rewrite !big_endian_length].
  unfold request_body in E.
  apply app_same_len in E as [E1 E]; [|now rewrite !big_endian_length].
  apply app_same_len in E as [_ E]; [|now rewrite !big_endian_length].
  apply app_same_len in E as [E2 E]; [|now rewrite !big_endian_length].
  apply app_same_len in E as [_ E3]; [|reflexivity].
  split; [|split]; [| |exact E3].
  - apply (big_endian_inj Int16); auto; discriminate.
  - apply (big_endian_inj Int32); auto; discriminate.
Qed.

Lemma in_api_fits api key : dget api_keys api = Some key -> fits 16 key.
Proof.
  assert (G : Forall (fun kv => fits 16 (snd kv)) api_keys).
  { unfold api_keys. repeat constructor; cbn; lia. }
  revert G. generalize api_keys as d. induction d as [|[k v] r IH]; intros G E; [discriminate|].
  inversion G as [|? ? G1 G2]; subst. cbn [dget] in E. destruct (eqb k api); [|auto].
  injection E as <-. exact G1.
Qed.

(** C05, the other direction: requests with legal fields are serialized *)
Definition named_values (fs : list (string * ty)) (kw : dict string pyval) : list (string * pyval) :=
  map (fun nt => (fst nt, attr kw (fst nt))) fs.

Lemma request_serializes api fs kw last attrs last' :
  distinct (TPart fs) -> (forall n, In n (map fst fs) -> ~ In n reserved) ->
  NoDup (map fst kw) -> canon (TPart fs) (PObj (named_values fs kw)) ->
  fits 32 (last + 1) -> request_init api fs kw last = Ok (attrs, last') ->
  (forall key payload, dget api_keys api = Some key -> wire (TPart fs) (PObj (named_values fs kw)) payload ->
     zlen (request_body key (last + 1) payload) < 2 ^ 31) ->
  exists key payload, dget api_keys api = Some key /\
    wire (TPart fs) (PObj (named_values fs kw)) payload /\
    request_bytes fs attrs = Ok (request_frame key (last + 1) payload).
Proof.
  intros DI NR ND CA FC RI SZ.
  destruct (request_init_inv _ _ _ _ _ _ ND RI) as (-> & I & key & K & A1 & A2 & A3 & A4 & AO).
  pose (pv := [("api_key", PInt key); ("api_version", PInt 0); ("correlation_id", PInt (last + 1));
              ("client_id", PStr (txt "kiel"))]%string).
  assert (CP : canon (TPart preamble_parts) (PObj pv)).
  { unfold canon. cbn [conforms]. exists pv. split; [reflexivity|]. unfold preamble_parts, pv.
    split; [reflexivity|]. split; [exists key; split; [reflexivity|eapply in_api_fits; eauto]|].
    split; [reflexivity|]. split; [exists 0; split; [reflexivity|unfold fits, bits_of; lia]|].
    split; [reflexivity|]. split; [exists (last + 1); auto|].
    split; [reflexivity|]. split; [|exact Logic.I].
    exists [107; 105; 101; 108]. split; [reflexivity|]. change (4 < 2 ^ (16 - 1)). lia. }
  assert (D : distinct (TPart (preamble_parts ++ fs))).
  { cbn [distinct]. cbn [distinct] in DI. destruct DI as [DI1 DI2]. split.
    - rewrite map_app. cbn [preamble_parts map fst app].
      assert (NI : forall n, In n reserved -> ~ In n (map fst fs)) by (intros n H1 H2; now apply (NR n)).
      repeat (constructor; [cbn [In]; intuition (try discriminate);
        match goal with H : In _ (map fst fs) |- _ => revert H; apply NI; cbn [reserved In]; tauto end|]).
      exact DI1.
    - cbn [preamble_parts app]. repeat split. exact DI2. }
  assert (CN : canon (TPart (preamble_parts ++ fs)) (PObj (pv ++ named_values fs kw))).
  { apply conforms_part_join; assumption. }
  destruct (roundtrip_all _ D _ CN) as (bs & W & f & d & R & P & LL & _).
  assert (E : render (TPart (preamble_parts ++ fs)) (PObj attrs) = Ok (f, d)).
  { rewrite <- R, !render_part_fields. apply render_fields_ext. intros n Hn.
    rewrite map_app in Hn. apply in_app_or in Hn as [Hn|Hn].
    - cbn [preamble_parts map fst In] in Hn.
      decompose [or] Hn; subst; try tauto; cbn [pv app attr dget]; rewrite ?A1, ?A2, ?A3, ?A4; reflexivity.
    - rewrite AO by now apply NR. unfold attr at 2.
      assert (X : dget (pv ++ named_values fs kw) n = Some (attr kw n)).
      { pose proof (NR n Hn) as N0. cbn [reserved In] in N0. cbn [pv app dget].
        assert (NE : forall a b : string, a <> b -> eqb a b = false) by (intros a b H; apply String.eqb_neq; exact H).
        rewrite !NE by (intro; subst; tauto). clear NE.
        unfold named_values. clear - Hn. induction fs as [|[m t] r IH]; [destruct Hn|].
        cbn [map fst dget]. destruct (eqb m n) eqn:E; [apply eqb_true in E; now subst|].
        apply IH. cbn [map fst In] in Hn. destruct Hn as [->|Hn]; [rewrite eqb_refl in E; discriminate|exact Hn]. }
      now rewrite X. }
  inversion W as [| | | |? ? ? WF|]; subst.
  destruct (wire_fields_app preamble_parts fs pv (named_values fs kw) bs eq_refl WF) as (b1 & b2 & -> & W1 & W2).
  assert (B1 : b1 = big_endian 2 key ++ big_endian 2 0 ++ big_endian 4 (last + 1) ++ (big_endian 2 4 ++ [107; 105; 101; 108])).
  { unfold preamble_parts, pv in W1.
    inversion W1 as [|? ? ? ? ? c1 r1 V1 Q1]; subst. inversion Q1 as [|? ? ? ? ? c2 r2 V2 Q2]; subst.
    inversion Q2 as [|? ? ? ? ? c3 r3 V3 Q3]; subst. inversion Q3 as [|? ? ? ? ? c4 r4 V4 Q4]; subst.
    inversion Q4; subst.
    apply wire_int_inv in V1 as [V1 _]. apply wire_int_inv in V2 as [V2 _]. apply wire_int_inv in V3 as [_ V3].
    apply wire_kiel in V4. rewrite V1, V2, V3, V4 by reflexivity. now rewrite app_nil_r. }
  subst b1. exists key, b2. split; [exact K|].
  assert (WP : wire (TPart fs) (PObj (named_values fs kw)) b2) by now constructor.
  split; [exact WP|].
  unfold request_bytes. rewrite serialize_eq. unfold to_bytes. rewrite E. cbn [bind]. rewrite P. cbn [bind].
  unfold framed. specialize (SZ key b2 K WP). unfold request_body in SZ. rewrite <- ?app_assoc in *.
  rewrite pack_i_ok.
  2:{ unfold fits. match goal with |- _ <= zlen ?l < _ => pose proof (zlen_nonneg l) end. lia. }
  cbn [bind]. unfold request_frame, request_body. rewrite <- ?app_assoc. reflexivity.
Qed.

(** a request whose correlation id does not fit is not serialized *)
Lemma overflow_not_serialized api fs kw last attrs last' :
  (forall n, In n (map fst fs) -> ~ In n reserved) ->
  NoDup (map fst kw) -> bytes_ok (PObj kw) ->
  request_init api fs kw last = Ok (attrs, last') -> ~ fits 32 (last + 1) ->
  forall bs, request_bytes fs attrs <> Ok bs.
Proof.
  intros NR ND BK RI NF bs RB.
  destruct (request_framing _ _ _ _ _ _ _ NR ND BK RI RB) as (? & ? & ? & _ & _ & F & _). auto.
Qed.

(** ** C11 *)
Lemma first_ids_nth n : forall s k d, (k < n)%nat -> nth k (first_ids n s) d = s + 1 + Z.of_nat k.
Proof.
  induction n as [|n IH]; intros s k d L; [lia|]. cbn [first_ids generate_correlation_id].
  destruct k as [|k]; cbn [nth]; [lia|]. rewrite IH by lia. lia.
Qed.

Lemma first_ids_len n s : length (first_ids n s) = n.
Proof. revert s. induction n; intro s; cbn [first_ids generate_correlation_id length]; auto. Qed.

Lemma first_ids_nodup n s : NoDup (first_ids n s).
Proof.
  apply (NoDup_nth _ 0). intros i j Hi Hj E. rewrite first_ids_len in Hi, Hj.
  rewrite !first_ids_nth in E by lia. lia.
Qed.

Lemma seed_bound m p : 0 <= seed m p < 2 ^ 24.
Proof.
  unfold seed. change 16777215 with (Z.ones 24). rewrite Z.land_ones by lia.
  apply Z.mod_pos_bound. lia.
Qed.

Lemma first_ids_fit n m p : Z.of_nat n < 2 ^ 31 - 2 ^ 24 -> Forall (fits 32) (first_ids n (seed m p)).
Proof.
  intro L. pose proof (seed_bound m p) as B. apply Forall_forall. intros x Hx.
  apply (In_nth _ _ 0) in Hx as (k & Hk & <-). rewrite first_ids_len in Hk.
  rewrite first_ids_nth by assumption. unfold fits. lia.
Qed.

Lemma first_ids_overflow m p : exists n x, In x (first_ids n (seed m p)) /\ ~ fits 32 x.
Proof.
  pose proof (seed_bound m p) as B.
  exists (S (Z.to_nat (2 ^ 31))), (seed m p + 1 + Z.of_nat (Z.to_nat (2 ^ 31))). split.
  - rewrite <- (first_ids_nth (S (Z.to_nat (2 ^ 31))) (seed m p) (Z.to_nat (2 ^ 31)) 0) by lia.
    apply nth_In. rewrite first_ids_len. lia.
  - unfold fits. rewrite Z2Nat.id by lia. lia.
Qed.

(** ** C13 *)
Lemma retriable_iff c : is_retriable c = true <-> In c (map fst kafka_retriable).
Proof. unfold is_retriable. rewrite smem_In. reflexivity. Qed.

Lemma error_names_documented c n : error_name c = Ok n <-> In (c, n) kafka_errors.
Proof.
  unfold error_name, dindex. split.
  - destruct (dget ERROR_CODES c) as [x|] eqn:E; [|discriminate]. intros H. injection H as <-. apply dget_In in E. cbn in E |- *. tauto.
  - intros H. cbn [kafka_errors In] in H. repeat (destruct H as [H|H]; [injection H as <- <-; reflexivity|]). destruct H.
Qed.
Lemma retriable_names c n : In (c, n) kafka_retriable -> error_name c = Ok n.
Proof. cbn [kafka_retriable In]. intro H. decompose [or] H; try tauto;
  match goal with E : (_, _) = (_, _) |- _ => injection E as <- <- end; reflexivity. Qed.

Lemma error_names_defined :
  Forall (fun n => dget (fst errors_obj) n <> None)
    ["no_error"; "offset_out_of_range"; "unknown_topic_or_partition"; "leader_not_available";
     "replica_not_available"; "offset_metadata_too_large"; "offsets_load_in_progress"]%string.
Proof. repeat constructor; vm_compute; discriminate. Qed.
