(** Property C73: what Kafka writes is what the clients read.  Specification: SpecKafka.v (Kafka's grammars). *)
From Coq Require Import ZArith String List Bool Lia.
From Verif Require Import PyBase BaseLemmas Utf8 Crc32 Primitives Messages Protocol Schemas SpecWire Cluster Producer Consumer SpecKafka ResponseRead KafkaProofs PropsWire.
Import ListNotations.
Open Scope Z_scope.

(** * C73 Every response that follows Kafka's grammar is read as exactly what it says *)
(** messages with their offsets, in order, compressed or not; a message cut off at the end of the response is left out *)
Theorem C73_fetch : forall C depth rq b r, (exists x mw mb t ps, rq = RFetch x mw mb t ps) -> kw_fetch C 12 r b ->
  read_response C (S depth) rq b =
  Some (Ok (PFetch (map (fun tp => (fst tp, map (fun p => (fst p, (fst (snd p), kw_read_set (snd (snd p))))) (snd tp))) r))).
Proof. intros C depth rq b r (x & mw & mb & t & ps & ->) K. unfold read_response. now rewrite (fetch_read C depth r b K). Qed.
Theorem C73_offset : forall C depth rq b r, (exists x t ps, rq = ROffset x t ps) -> kw_offset r b -> read_response C depth rq b = Some (Ok (POffset r)).
Proof. intros C depth rq b r (x & t & ps & ->) K. unfold read_response. now rewrite (offset_read C depth r b K). Qed.
Theorem C73_offset_fetch : forall C depth rq b r, (exists g t ps, rq = ROffsetFetch g t ps) -> kw_offset_fetch r b -> read_response C depth rq b = Some (Ok (POffsetFetch r)).
Proof. intros C depth rq b r (x & t & ps & ->) K. unfold read_response. now rewrite (offset_fetch_read C depth r b K). Qed.
Theorem C73_commit : forall C depth rq b r, (exists g ts, rq = RCommit g ts) -> kw_commit r b -> read_response C depth rq b = Some (Ok (PCommit r)).
Proof. intros C depth rq b r (g & ts & ->) K. unfold read_response. now rewrite (commit_read C depth r b K). Qed.
Theorem C73_coordinator : forall C depth rq b code id, (exists g, rq = RCoordinator g) -> kw_coordinator code id b -> read_response C depth rq b = Some (Ok (PCoordinator code id)).
Proof. intros C depth rq b c i (g & ->) K. unfold read_response. now rewrite (coordinator_read C depth c i b K). Qed.
Theorem C73_produced : forall C depth b r, kw_produced r b -> read_produced C depth b = Some (Ok r).
Proof. intros C depth b r K. exact (produced_read C depth r b K). Qed.
Theorem C73_metadata : forall C depth b brokers topics, kw_metadata brokers topics b ->
  read_metadata C depth b = Some (Ok (MResp (map (fun br => MBroker (fst (fst br)) (snd (fst br)) (snd br)) brokers)
    (map (fun tp => MTopic (fst (fst tp)) (snd (fst tp)) (map (fun p => MPart (kp_code p) (kp_id p) (kp_leader p)) (snd tp))) topics))).
Proof. intros C depth b brokers topics K. exact (metadata_read C depth brokers topics b K). Qed.

(** ** a fetch response: two topics; in the last partition a plain message, a compressed run of two, and a message cut off *)
Definition kd (k : option bytes) (v : bytes) : kmsg := KMsg k (Some v).
Definition ent (o a : Z) (m : kmsg) : bytes :=
  big_endian 8 o ++ big_endian 4 (4 + zlen (kw_body a m)) ++ big_endian 4 (crc32 (kw_body a m)) ++ kw_body a m.
Definition m_hi : kmsg := kd None [104; 105].
Definition m_bin : kmsg := kd (Some [107]) [200; 0; 255].
Definition two_packed : bytes := ent 5 0 m_hi ++ ent 6 0 m_bin.
Definition packed_entry (a : Z) (z : bytes) : bytes := ent 6 a (kd None z).
Definition demo_fetch (a : Z) (z : bytes) : bytes :=
  let s1 := ent 41 0 m_bin in
  let s2 := ent 4 0 m_hi ++ packed_entry a z ++ firstn 20 (ent 7 0 m_hi) in
  big_endian 4 2 ++
    (big_endian 2 1 ++ [97]) ++ big_endian 4 1 ++ (big_endian 4 3 ++ big_endian 2 0 ++ big_endian 8 42 ++ big_endian 4 (zlen s1) ++ s1) ++
    (big_endian 2 2 ++ [195; 169]) ++ big_endian 4 2 ++
      (big_endian 4 0 ++ big_endian 2 6 ++ big_endian 8 (-1) ++ big_endian 4 0) ++
      (big_endian 4 1 ++ big_endian 2 0 ++ big_endian 8 8 ++ big_endian 4 (zlen s2) ++ s2).
Definition demo_says : list (text * list (Z * (Z * list (Z * kmsg)))) :=
  [([97], [(3, (0, [(41, m_bin)]))]); ([233], [(0, (6, [])); (1, (0, [(4, m_hi); (5, m_hi); (6, m_bin)]))])].

Ltac bytes_ok := repeat (apply Forall_cons; [unfold is_byte; lia|]); apply Forall_nil.
Lemma ent_ok o a k v : fits 64 o -> all_bytes k -> Forall is_byte v -> 4 + zlen (kw_body a (kd k v)) < 2 ^ 31 -> kw_entry o a (kd k v) (ent o a (kd k v)).
Proof. intros. unfold kw_entry, kd, ent in *. cbn [km_key km_value]. repeat split; auto; apply H. Qed.
Lemma m_hi_ok o : fits 64 o -> kw_entry o 0 m_hi (ent o 0 m_hi).
Proof. intros F. apply ent_ok; [exact F|exact I|bytes_ok|vm_compute; reflexivity]. Qed.
Lemma m_bin_ok o : fits 64 o -> kw_entry o 0 m_bin (ent o 0 m_bin).
Proof. intros F. apply ent_ok; [exact F|cbn; bytes_ok|bytes_ok|vm_compute; reflexivity]. Qed.
Lemma demo_fetch_ok a z : kw_packed demo_codec 12 a z two_packed -> Forall is_byte z -> 4 + zlen (kw_body a (kd None z)) < 2 ^ 31 -> zlen ((ent 4 0 m_hi ++ packed_entry a z ++ []) ++ firstn 20 (ent 7 0 m_hi)) < 2 ^ 31 ->
  kw_fetch demo_codec 12 demo_says (demo_fetch a z).
Proof.
  intros P Bz L Lz. right. unfold demo_says. exists [([97], [(3, (0, [(41, m_bin)]))])]. eexists. eexists. eexists. split; [reflexivity|]. split.
  { constructor; [|constructor]. eexists. eexists. split; [exists [97]; split; [reflexivity|]; split; [vm_compute; reflexivity|reflexivity]|]. split; [|reflexivity].
    eexists. split; [constructor; [|constructor]|split; [vm_compute; reflexivity|reflexivity]].
    eexists. eexists. exists 42. eexists. exists (ent 41 0 m_bin ++ []). split; [split; [vm_compute; split; congruence|reflexivity]|]. split; [split; [vm_compute; split; congruence|reflexivity]|]. split; [split; [vm_compute; split; congruence|reflexivity]|].
    split; [apply ks_plain; [apply m_bin_ok; unfold fits; lia|constructor]|]. split; [vm_compute; reflexivity|reflexivity]. }
  split.
  { eexists. eexists. split; [exists [195; 169]; split; [reflexivity|]; split; [vm_compute; reflexivity|reflexivity]|]. split; [|reflexivity].
    exists [(0, (6, []))]. eexists. eexists. eexists. split; [reflexivity|]. split.
    { constructor; [|constructor]. eexists. eexists. exists (-1). eexists. exists []. split; [split; [vm_compute; split; congruence|reflexivity]|]. split; [split; [vm_compute; split; congruence|reflexivity]|]. split; [split; [vm_compute; split; congruence|reflexivity]|].
      split; [constructor|]. split; [vm_compute; reflexivity|reflexivity]. }
    split; [|split; [vm_compute; reflexivity|reflexivity]].
    eexists. eexists. exists 8. eexists. exists ((ent 4 0 m_hi ++ packed_entry a z ++ []) ++ firstn 20 (ent 7 0 m_hi)).
    split; [split; [vm_compute; split; congruence|reflexivity]|]. split; [split; [vm_compute; split; congruence|reflexivity]|]. split; [split; [vm_compute; split; congruence|reflexivity]|]. split.
    { exists (ent 4 0 m_hi ++ packed_entry a z ++ []), 7, 0, m_hi, (firstn 20 (ent 7 0 m_hi)), (skipn 20 (ent 7 0 m_hi)). split.
      { apply ks_plain; [apply m_hi_ok; unfold fits; lia|]. apply (ks_packed _ _ 6 a None z two_packed [(5, m_hi); (6, m_bin)] _ []).
        - exact P.
        - exists [ent 5 0 m_hi; ent 6 0 m_bin]. split; [|unfold two_packed; cbn [concat]; now rewrite app_nil_r].
          constructor; [apply m_hi_ok; unfold fits; cbn; lia|]. constructor; [apply m_bin_ok; unfold fits; cbn; lia|constructor].
        - apply ent_ok; [unfold fits; lia|exact I|exact Bz|exact L].
        - constructor. }
      rewrite firstn_skipn. split; [apply m_hi_ok; unfold fits; lia|]. split; [vm_compute; discriminate|]. split; [unfold fits; lia|reflexivity]. }
    split; [exact Lz|reflexivity]. }
  split; [vm_compute; reflexivity|]. unfold demo_fetch, packed_entry. cbn [concat]. repeat rewrite app_nil_r. repeat rewrite <- app_assoc. repeat rewrite app_nil_r. reflexivity.
Qed.

Lemma bytes_check l : forallb (fun x => (0 <=? x) && (x <? 256)) l = true -> Forall is_byte l.
Proof. intros F. apply Forall_forall. intros x Hx. rewrite forallb_forall in F. specialize (F x Hx). unfold is_byte. lia. Qed.
Definition gz_data : bytes := 31 :: 139 :: two_packed.
Definition sn_data : bytes := ([130] ++ txt "SNAPPY" ++ [0] ++ big_endian 4 1 ++ big_endian 4 1) ++ big_endian 4 10 ++ firstn 10 two_packed ++ big_endian 4 (zlen (skipn 10 two_packed)) ++ skipn 10 two_packed.
Example C73_fetch_example : kw_fetch demo_codec 12 demo_says (demo_fetch 1 gz_data) /\ kw_fetch demo_codec 12 demo_says (demo_fetch 2 sn_data).
Proof.
  split; apply demo_fetch_ok.
  - left. split; [reflexivity|]. split; [reflexivity|]. eexists. reflexivity.
  - apply bytes_check. vm_compute. reflexivity.
  - vm_compute. reflexivity.
  - vm_compute. reflexivity.
  - right. split; [reflexivity|]. split; [reflexivity|]. exists [firstn 10 two_packed; skipn 10 two_packed], [firstn 10 two_packed; skipn 10 two_packed].
    split; [constructor; [split; vm_compute; reflexivity|constructor; [split; vm_compute; reflexivity|constructor]]|].
    split; [cbn [concat]; now rewrite app_nil_r, firstn_skipn|]. split; [vm_compute; reflexivity|].
    intros front c E. destruct front as [|x [|y [|]]]; cbn [app] in E; try discriminate. injection E as _ <-. vm_compute. discriminate.
  - apply bytes_check. vm_compute. reflexivity.
  - vm_compute. reflexivity.
  - vm_compute. reflexivity.
Qed.
(** the same bytes run through the reader *)
Example C73_fetch_run : forall a z, (a, z) = (1, gz_data) \/ (a, z) = (2, sn_data) -> exists r,
  read_response demo_codec 1 (RFetch (-1) 1000 1 [97] []) (demo_fetch a z) = Some (Ok (PFetch r)) /\
  map (fun tp => map (fun p => map (fun om => (fst om, m_value (snd om))) (snd (snd p))) (snd tp)) r =
  [[[(41, PBytes [200; 0; 255])]]; [[]; [(4, PStr [104; 105]); (5, PStr [104; 105]); (6, PBytes [200; 0; 255])]]].
Proof.
  intros a z H. eexists. split.
  - apply C73_fetch; [do 5 eexists; reflexivity|]. destruct H as [[= -> ->]|[= -> ->]]; apply C73_fetch_example.
  - vm_compute. reflexivity.
Qed.
(** the other kinds *)
Ltac ki := split; [vm_compute; split; congruence|reflexivity].
Ltac ks u := exists u; split; [vm_compute; reflexivity|]; split; [vm_compute; reflexivity|reflexivity].
Example C73_offset_example : exists b, kw_offset [([97], [(1, (0, [7; 3]))])] b.
Proof.
  eexists. eexists. split; [constructor; [|constructor]|split; [vm_compute; reflexivity|reflexivity]]. eexists. eexists. split; [ks [97]|]. split; [|reflexivity].
  eexists. split; [constructor; [|constructor]|split; [vm_compute; reflexivity|reflexivity]]. eexists. eexists. eexists. split; [ki|]. split; [ki|]. split; [|reflexivity].
  eexists. split; [constructor; [|constructor; [|constructor]]; ki|split; [vm_compute; reflexivity|reflexivity]].
Qed.
Example C73_offset_fetch_example : exists b, kw_offset_fetch [([97], [(1, (0, 12)); (2, (3, -1))])] b.
Proof.
  eexists. eexists. split; [constructor; [|constructor]|split; [vm_compute; reflexivity|reflexivity]]. eexists. eexists. split; [ks [97]|]. split; [|reflexivity].
  eexists. split; [constructor; [|constructor; [|constructor]]|split; [vm_compute; reflexivity|reflexivity]].
  - eexists. eexists. exists (Some [109]). eexists. eexists. split; [ki|]. split; [ki|]. split; [ks [109]|]. split; [ki|reflexivity].
  - eexists. eexists. exists None. eexists. eexists. split; [ki|]. split; [ki|]. split; [reflexivity|]. split; [ki|reflexivity].
Qed.
Example C73_commit_example : exists b, kw_commit [([97], [(1, 0); (2, 12)])] b /\ exists b', kw_produced [([97], [(1, 0); (2, 6)])] b' /\ exists b'', kw_coordinator 0 3 b''.
Proof.
  eexists. split; [eexists; split; [constructor; [|constructor]|split; [vm_compute; reflexivity|reflexivity]]; eexists; eexists; split; [ks [97]|]; split; [|reflexivity];
    eexists; split; [constructor; [|constructor; [|constructor]]|split; [vm_compute; reflexivity|reflexivity]]; (eexists; eexists; split; [ki|]; split; [ki|reflexivity])|].
  eexists. split; [eexists; split; [constructor; [|constructor]|split; [vm_compute; reflexivity|reflexivity]]; eexists; eexists; split; [ks [97]|]; split; [|reflexivity];
    eexists; split; [constructor; [|constructor; [|constructor]]|split; [vm_compute; reflexivity|reflexivity]]; (eexists; eexists; exists 77; eexists; split; [ki|]; split; [ki|]; split; [ki|reflexivity])|].
  eexists. eexists. eexists. exists [104]. eexists. exists 9092. eexists. split; [ki|]. split; [ki|]. split; [ks [104]|]. split; [ki|reflexivity].
Qed.
Example C73_metadata_example : exists b, kw_metadata [(1, [104], 9092)] [(0, [97], [KPart 0 0 1; KPart 5 1 (-1)])] b.
Proof.
  assert (G : forall c i l, fits 16 c -> fits 32 i -> fits 32 l -> exists b, kw_meta_part (KPart c i l) b).
  { intros c i l Fc Fi Fl. eexists. eexists. eexists. eexists. exists [1; 2]. eexists. exists [1]. eexists. split; [split; [exact Fc|reflexivity]|]. split; [split; [exact Fi|reflexivity]|]. split; [split; [exact Fl|reflexivity]|].
    split; [eexists; split; [constructor; [|constructor; [|constructor]]; ki|split; [vm_compute; reflexivity|reflexivity]]|]. split; [eexists; split; [constructor; [|constructor]; ki|split; [vm_compute; reflexivity|reflexivity]]|]. reflexivity. }
  destruct (G 0 0 1) as [b1 H1]; [unfold fits; lia..|]. destruct (G 5 1 (-1)) as [b2 H2]; [unfold fits; lia..|].
  eexists. eexists. eexists. split; [|split; [|reflexivity]].
  - eexists. split; [constructor; [|constructor]|split; [vm_compute; reflexivity|reflexivity]]. eexists. eexists. eexists. split; [ki|]. split; [ks [104]|]. split; [ki|reflexivity].
  - eexists. split; [constructor; [|constructor]|split; [vm_compute; reflexivity|reflexivity]]. eexists. eexists. eexists. split; [ki|]. split; [ks [97]|]. split; [|reflexivity].
    exists [b1; b2]. split; [constructor; [exact H1|constructor; [exact H2|constructor]]|split; [vm_compute; reflexivity|reflexivity]].
Qed.

Print Assumptions C73_fetch.
Print Assumptions C73_offset.
Print Assumptions C73_offset_fetch.
Print Assumptions C73_commit.
Print Assumptions C73_coordinator.
Print Assumptions C73_produced.
Print Assumptions C73_metadata.
