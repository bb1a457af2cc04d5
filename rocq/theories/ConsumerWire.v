(** The bytes of the consumers' requests. *)
From Coq Require Import ZArith String List Bool Lia Permutation.
From Verif Require Import PyBase BaseLemmas Utf8 Primitives Protocol Schemas Request SpecWire SpecRequest RequestProofs Constants Cluster Zookeeper Consumer.
Import ListNotations.
Open Scope Z_scope.
Set Default Proof Using "Type".

(** ** sizes *)
Definition name_ok (t : text) : Prop := exists b, utf8_encode t = Some b /\ zlen b < 2 ^ 15.
Lemma zlen_app' {A} (a b : list A) : zlen (a ++ b) = zlen a + zlen b.
Proof. unfold zlen. rewrite app_length. lia. Qed.
Lemma zlen_be n z : zlen (big_endian n z) = Z.of_nat n.
Proof. unfold zlen. now rewrite big_endian_length. Qed.
Lemma wire_i32_len v b : wire I32 v b -> zlen b = 4.
Proof. intros W. inversion W as [? ? ? N| | | | |]; subst. decompose [and or] N; subst; try discriminate. apply zlen_be. Qed.
Lemma wire_i64_len v b : wire I64 v b -> zlen b = 8.
Proof. intros W. inversion W as [? ? ? N| | | | |]; subst. decompose [and or] N; subst; try discriminate. apply zlen_be. Qed.
Lemma wire_str_len t b0 b : utf8_encode t = Some b0 -> wire Str (PStr t) b -> zlen b = 2 + zlen b0.
Proof. intros E W. inversion W as [|? ? WV| | | |]; subst. inversion WV as [|t' b' U|]; subst. rewrite E in U. injection U as <-. rewrite zlen_app', zlen_be. reflexivity. Qed.
Lemma wire_items_len it vs n : (forall v b, In v vs -> wire it v b -> zlen b = n) -> forall b, wire_items it vs b -> zlen b = zlen vs * n.
Proof.
  induction vs as [|v vs IH]; intros H b W; inversion W as [|? ? ? b1 b2 W1 W2]; subst; [reflexivity|]. rewrite zlen_app', (H v b1 (or_introl eq_refl) W1), (IH (fun v' b' I => H v' b' (or_intror I)) b2 W2). unfold zlen. cbn [length]. lia.
Qed.
Lemma zlen_map {A B} (f : A -> B) l : zlen (map f l) = zlen l.
Proof. unfold zlen. now rewrite map_length. Qed.

(** ** offset lookups *)
Lemma lookup_kw r t parts : named_values OffsetRequest (snd (request_kwargs (ROffset r t parts))) = snd (request_kwargs (ROffset r t parts)).
Proof. reflexivity. Qed.
Definition offset_payload (r : Z) (t : text) (parts : list (Z * (pyval * Z))) (payload : bytes) : Prop :=
  wire (TPart OffsetRequest) (PObj [("replica_id", PInt r); ("topics", PList [PObj [("name", PStr t); ("partitions", PList (map (fun p =>
     PObj [("partition_id", PInt (fst p)); ("time", fst (snd p)); ("max_offsets", PInt (snd (snd p)))]) parts))]])]%string) payload.
Lemma offset_payload_len r t parts b0 payload : utf8_encode t = Some b0 -> offset_payload r t parts payload -> zlen payload = 4 + 4 + (2 + zlen b0) + 4 + zlen parts * 16.
Proof.
  intros E W. unfold offset_payload in W. inversion W as [| | | |? ? ? WF|]; subst. inversion WF as [|? ? ? ? ? b1 r1 W1 Q1]; subst. inversion Q1 as [|? ? ? ? ? b2 r2 W2 Q2]; subst. inversion Q2; subst. apply wire_i32_len in W1.
  inversion W2 as [| | |? ? ? WI| |]; subst. inversion WI as [|? ? ? b3 r3 W3 Q3]; subst. inversion Q3; subst. inversion W3 as [| | | |? ? ? WG|]; subst. inversion WG as [|? ? ? ? ? b4 r4 W4 Q4]; subst. inversion Q4 as [|? ? ? ? ? b5 r5 W5 Q5]; subst. inversion Q5; subst.
  apply (wire_str_len _ b0) in W4; [|exact E]. inversion W5 as [| | |? ? ? WJ| |]; subst. apply (wire_items_len _ _ 16) in WJ.
  - rewrite !zlen_app', !zlen_be, W1, W4, WJ, zlen_map. change (zlen (@nil Z)) with 0. change (Z.of_nat 4) with 4. lia.
  - clear. intros v b H W. apply in_map_iff in H as ([p [tm mx]] & <- & _). inversion W as [| | | |? ? ? WF|]; subst. inversion WF as [|? ? ? ? ? b1 r1 W1 Q1]; subst. inversion Q1 as [|? ? ? ? ? b2 r2 W2 Q2]; subst. inversion Q2 as [|? ? ? ? ? b3 r3 W3 Q3]; subst. inversion Q3; subst.
    apply wire_i32_len in W1. apply wire_i64_len in W2. apply wire_i32_len in W3. rewrite !zlen_app', W1, W2, W3. reflexivity.
Qed.
Lemma lookup_serializes last r t parts : fits 32 (last + 1) -> fits 32 r -> name_ok t -> zlen parts < 2 ^ 26 ->
  (forall p tm mx, In (p, (tm, mx)) parts -> fits 32 p /\ (exists n, tm = PInt n /\ fits 64 n) /\ fits 32 mx) ->
  exists payload, offset_payload r t parts payload /\ request_wire last (ROffset r t parts) = Ok (request_frame 2 (last + 1) payload).
Proof.
  intros FL FR (b0 & UE & LB) LP FP.
  assert (CA : canon (TPart OffsetRequest) (PObj (snd (request_kwargs (ROffset r t parts))))).
  { unfold canon. cbn [conforms OffsetRequest request_kwargs snd]. eexists. split; [reflexivity|]. cbv beta iota. split; [reflexivity|]. split; [exists r; auto|]. split; [reflexivity|]. split; [|exact I].
    eexists. split; [reflexivity|]. split; [|reflexivity]. constructor; [|constructor]. eexists. split; [reflexivity|]. cbn [offset_TopicRequest]. split; [reflexivity|]. split; [exists b0; auto|]. split; [reflexivity|]. split; [|exact I].
    eexists. split; [reflexivity|]. split; [|rewrite zlen_map; lia]. apply Forall_forall. intros v H. apply in_map_iff in H as ([p [tm mx]] & <- & H). destruct (FP p tm mx H) as (P1 & (n & -> & P2) & P3).
    eexists. split; [reflexivity|]. cbn. repeat split; eauto. }
  assert (RI : exists attrs, request_init "offset" OffsetRequest (snd (request_kwargs (ROffset r t parts))) last = Ok (attrs, last + 1)) by (eapply request_init_ok; [intros x H; exact H|reflexivity]).
  destruct RI as [attrs RI].
  destruct (request_serializes "offset" OffsetRequest (snd (request_kwargs (ROffset r t parts))) last attrs (last + 1)) as (key & payload & K & W & E).
  - vm_compute. repeat split; repeat (constructor; [cbn; intuition discriminate|]); constructor.
  - intros n Hn X; cbn in Hn; repeat (destruct Hn as [<-|Hn]; [cbn in X; intuition discriminate|]); exact Hn.
  - cbn. repeat (constructor; [cbn; intuition discriminate|]); constructor.
  - rewrite lookup_kw. exact CA.
  - exact FL.
  - exact RI.
  - intros key payload K W. rewrite lookup_kw in W. pose proof (offset_payload_len r t parts b0 payload UE W) as L. unfold request_body. rewrite !zlen_app', !zlen_be, L. cbn [zlen length]. change (zlen [107; 105; 101; 108]) with 4. lia.
  - rewrite lookup_kw in W. injection K as <-. exists payload. split; [exact W|]. unfold request_wire. cbn [request_kwargs] in *. cbn [snd] in RI. rewrite RI. cbn [bind]. exact E.
Qed.
(** a time that is not an integer cannot be written *)
Lemma parts_bytes_ok (parts : list (Z * (pyval * Z))) : (forall q, In q parts -> bytes_ok (fst (snd q))) ->
  bytes_ok (PList (map (fun p => obj [("partition_id", PInt (fst p)); ("time", fst (snd p)); ("max_offsets", PInt (snd (snd p)))]%string) parts)).
Proof.
  intros H. cbn [bytes_ok]. induction parts as [|q ps IH]; [exact I|]. cbn [map]. split.
  - cbn. repeat split. apply H. now left.
  - apply IH. intros q' I. apply H. now right.
Qed.
Lemma float_not_serialized last r t parts p fl mx bs : In (p, (PFloat fl, mx)) parts -> (forall q, In q parts -> bytes_ok (fst (snd q))) ->
  request_wire last (ROffset r t parts) <> Ok bs.
Proof.
  intros H BK E. unfold request_wire in E. cbn [request_kwargs] in E. apply parts_bytes_ok in BK.
  destruct (request_init "offset" OffsetRequest _ last) as [[attrs last']|] eqn:RI; [|discriminate E]. cbn [bind] in E.
  destruct (request_framing "offset" OffsetRequest (snd (request_kwargs (ROffset r t parts))) last attrs last' bs) as (key & payload & v' & K & _ & _ & _ & RA & _ & LG); [| | |exact RI|exact E|].
  { intros n Hn X; cbn in Hn; repeat (destruct Hn as [<-|Hn]; [cbn in X; intuition discriminate|]); exact Hn. }
  { cbn; repeat (constructor; [cbn; intuition discriminate|]); constructor. }
  { cbn [request_kwargs snd bytes_ok obj]; repeat split; exact BK. }
  clear E RI BK. cbn [request_kwargs snd] in RA.
  cbn [reads_as OffsetRequest] in RA. destruct RA as (a & a' & Ea & -> & RA). injection Ea as <-.
  destruct a' as [|[n1 v1] [|[n2 v2] [|? ?]]]; try (cbn in RA; tauto). destruct RA as (<- & _ & <- & (vs & vs' & IT & -> & F2) & _). cbn in IT. subst vs.
  inversion F2 as [|? x ? xs RX F2']; subst. inversion F2'; subst. clear F2 F2'. cbn [reads_as offset_TopicRequest] in RX. destruct RX as (a & a' & Ea & -> & RA). injection Ea as <-.
  destruct a' as [|[n1 w1] [|[n2 w2] [|? ?]]]; try (cbn in RA; tauto). destruct RA as (<- & _ & <- & (ws & ws' & IT & -> & F2) & _). cbn in IT. subst ws.
  unfold legal in LG. cbn [conforms OffsetRequest] in LG. destruct LG as (l0 & EL & LG). injection EL as <-. destruct LG as (_ & _ & _ & (l1 & EL & LG & _) & _). injection EL as <-.
  inversion LG as [|? ? LX _]; subst. clear LG. cbn [conforms offset_TopicRequest] in LX. destruct LX as (l0 & EL & LG). injection EL as <-. destruct LG as (_ & _ & _ & (l1 & EL & LG & _) & _). injection EL as <-.
  revert ws' F2 LG. induction parts as [|q ps IH]; intros ws' F2 LG; [exact H|]. cbn [map] in F2. inversion F2 as [|? y ? ys RY F2']; subst. inversion LG as [|? ? LY LG']; subst. destruct H as [->|H]; [|now apply (IH H ys)].
  clear - RY LY. cbn [reads_as] in RY. destruct RY as (a & a' & Ea & -> & RA). injection Ea as <-. destruct a' as [|[n1 w1] [|[n2 w2] [|[n3 w3] [|? ?]]]]; try (cbn in RA; tauto). destruct RA as (<- & _ & <- & RT & _).
  destruct LY as (l0 & EL & LG). injection EL as <-. destruct LG as (_ & _ & _ & LT & _). cbn in RT, LT. subst w2. destruct LT as (z & X & _). discriminate X.
Qed.
