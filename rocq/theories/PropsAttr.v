(** Property C93: messages with attributes, or compressed values, that the client does not understand.
    Specification: SpecAttr.v, on Kafka's grammar (SpecKafka.v). *)
From Coq Require Import ZArith String List Bool Lia.
From Verif Require Import PyBase BaseLemmas Utf8 Crc32 Primitives Messages Protocol Schemas SpecWire Cluster Producer Consumer SpecKafka ResponseRead KafkaProofs PropsWire PropsKafka SpecAttr AttrProofs.
Import ListNotations.
Open Scope Z_scope.

(** * C93 A message that the client cannot unpack is reported, not dropped *)
(** part of it: where such a message's value is text, or null, the response is refused as a whole, whatever came before
    and comes after *)
Theorem C93_refused_partial : forall C depth rq b, (exists x mw mb t ps, rq = RFetch x mw mb t ps) ->
  fetch_until (odd_set C) (set_until (odd_set C) (refused C)) b -> read_response C (S depth) rq b = Some (Err EType).
Proof.
  intros C depth rq b (x & mw & mb & t & ps & ->) K. unfold read_response.
  rewrite (sets_fail C (S depth) EType (odd_set C) (set_until (odd_set C) (refused C))); [reflexivity|apply parses_odd| |exact K].
  intros s W L. apply (set_raises C (S depth) (odd_set C) (refused C)); [discriminate| | |exact W|exact L].
  - apply odd_read.
  - intros a m R. now apply refused_inflate.
Qed.
(** so is a response with a compressed set where the interpreter's stack has no room for one more level of nesting *)
Theorem C93_too_deep : forall C rq b, (exists x mw mb t ps, rq = RFetch x mw mb t ps) ->
  fetch_until kw_plain (set_until kw_plain (fun a m => exists z raw, km_value m = Some z /\ kw_packed C 12 a z raw)) b -> read_response C 0 rq b = Some (Err ERecursion).
Proof.
  intros C rq b (x & mw & mb & t & ps & ->) K. unfold read_response. match type of K with fetch_until _ ?w _ => set (wr := w) in K end.
  rewrite (sets_fail C 0 ERecursion kw_plain wr); [reflexivity|apply parses_plain| |exact K].
  intros s W L. eapply (set_raises C 0 kw_plain _ s ERecursion); [discriminate| | |exact W|exact L].
  - apply plain_loop.
  - intros a m (z & raw & E & P). destruct (packed_read _ _ _ _ P) as (_ & Fa & NZ & I). split; [exact Fa|]. split; [exact NZ|]. right. exists (PBytes raw). rewrite E. split; [exact I|reflexivity].
Qed.
(** but otherwise it is dropped without a word, or its value is taken for other messages: a response is read as what
    [odd_set] says comes out of it *)
Theorem C93_lost_refuted : forall C depth rq b r, (exists x mw mb t ps, rq = RFetch x mw mb t ps) -> kw_topics (kw_fetch_part_of (odd_set C)) r b ->
  read_response C (S depth) rq b =
  Some (Ok (PFetch (map (fun tp => (fst tp, map (fun p => (fst p, (fst (snd p), kw_read_set (snd (snd p))))) (snd tp))) r))).
Proof. intros C depth rq b r (x & mw & mb & t & ps & ->) K. unfold read_response. now rewrite (sets_read C (S depth) (odd_set C) (parses_odd C depth) r b K). Qed.

(** ** a message that a producer compressed with LZ4: the frame holds one message, with offset 7, as it stands *)
Definition lz4_hi : bytes := [4; 34; 77; 24; 96; 64; 130] ++ [28; 0; 0; 128] ++ ent 7 0 m_hi ++ [0; 0; 0; 0].
Definition lz4_set : bytes := ent 6 0 m_hi ++ ent 7 3 (kd None lz4_hi) ++ ent 8 0 m_bin.
Definition lz4_part (s : bytes) : bytes := big_endian 4 1 ++ big_endian 2 0 ++ big_endian 8 9 ++ big_endian 4 (zlen s) ++ s.
Definition lz4_fetch (s : bytes) : bytes := big_endian 4 1 ++ (big_endian 2 1 ++ [97]) ++ big_endian 4 1 ++ lz4_part s.

Lemma lz4_bytes : Forall is_byte lz4_hi.
Proof.
  assert (H : forallb (fun z => (0 <=? z) && (z <? 256)) lz4_hi = true) by (vm_compute; reflexivity).
  rewrite forallb_forall in H. apply Forall_forall. intros z Z. apply H in Z. unfold is_byte. lia.
Qed.
Lemma lz4_vanishes : vanishes demo_codec 3 (kd None lz4_hi).
Proof.
  exists lz4_hi. split; [reflexivity|]. left. split; [split; [unfold fits; lia|split; [lia|right; reflexivity]]|]. right. split; [vm_compute; reflexivity|]. right.
  exists (firstn 18 lz4_hi), (7 * 2 ^ 24), (skipn 22 lz4_hi). split; [vm_compute; reflexivity|]. split; [unfold fits; lia|]. split; [right; vm_compute; reflexivity|vm_compute; reflexivity].
Qed.
Lemma lz4_set_odd : odd_set demo_codec [(6, m_hi); (8, m_bin)] lz4_set.
Proof.
  unfold lz4_set. apply os_plain; [apply m_hi_ok; unfold fits; lia|]. eapply os_lost; [exact lz4_vanishes| |].
  - apply ent_ok; [unfold fits; lia|exact Logic.I|exact lz4_bytes|vm_compute; reflexivity].
  - rewrite <- (app_nil_r (ent 8 0 m_bin)). apply os_plain; [apply m_bin_ok; unfold fits; lia|constructor].
Qed.
Lemma lz4_fetch_odd : kw_topics (kw_fetch_part_of (odd_set demo_codec)) [([97], [(1, (0, [(6, m_hi); (8, m_bin)]))])] (lz4_fetch lz4_set).
Proof.
  exists [(big_endian 2 1 ++ [97]) ++ big_endian 4 1 ++ lz4_part lz4_set]. split; [|split; [vm_compute; reflexivity|cbn [concat]; rewrite app_nil_r; reflexivity]].
  constructor; [|constructor]. exists (big_endian 2 1 ++ [97]), (big_endian 4 1 ++ lz4_part lz4_set). split; [exists [97]; split; [reflexivity|split; [vm_compute; reflexivity|reflexivity]]|]. split; [|reflexivity].
  exists [lz4_part lz4_set]. split; [|split; [vm_compute; reflexivity|cbn [concat]; rewrite app_nil_r; reflexivity]]. constructor; [|constructor].
  exists (big_endian 4 1), (big_endian 2 0), 9, (big_endian 8 9), lz4_set. cbn [fst snd].
  split; [split; [unfold fits; lia|reflexivity]|]. split; [split; [unfold fits; lia|reflexivity]|]. split; [split; [unfold fits; lia|reflexivity]|].
  split; [exact lz4_set_odd|]. split; [vm_compute; reflexivity|reflexivity].
Qed.
(** of the messages 6, 7 and 8 the consumer gets 6 and 8 *)
Example C93_example : read_response demo_codec 5 (RFetch (-1) 1 100 [97] [(1, (6, 100))]) (lz4_fetch lz4_set) = Some (Ok (PFetch [([97], [(1, (0, [(6, kw_read m_hi); (8, kw_read m_bin)]))])])).
Proof. exact (C93_lost_refuted demo_codec 4 _ _ _ ltac:(repeat eexists) lz4_fetch_odd). Qed.

(** the same with a message whose value is text: nothing of the response is delivered *)
Definition lz4_text : bytes := ent 6 0 m_hi ++ ent 7 3 m_hi ++ [1; 2; 3].
Lemma lz4_text_until : fetch_until (odd_set demo_codec) (set_until (odd_set demo_codec) (refused demo_codec)) (lz4_fetch lz4_text).
Proof.
  exists [], [], 1, ((big_endian 2 1 ++ [97]) ++ big_endian 4 1 ++ lz4_part lz4_text), []. split; [constructor|]. split; [|split; [vm_compute; split; congruence|vm_compute; reflexivity]].
  exists [97], (big_endian 2 1 ++ [97]), (big_endian 4 1 ++ lz4_part lz4_text). split; [exists [97]; split; [reflexivity|split; [vm_compute; reflexivity|reflexivity]]|]. split; [|reflexivity].
  exists [], [], 1, (lz4_part lz4_text), []. split; [constructor|]. split; [|split; [vm_compute; split; congruence|vm_compute; reflexivity]].
  exists 1, (big_endian 4 1), 0, (big_endian 2 0), 9, (big_endian 8 9), lz4_text.
  split; [split; [unfold fits; lia|reflexivity]|]. split; [split; [unfold fits; lia|reflexivity]|]. split; [split; [unfold fits; lia|reflexivity]|]. split; [|split; [vm_compute; reflexivity|reflexivity]].
  exists [(6, m_hi)], (ent 6 0 m_hi ++ []), 7, 3, m_hi, (ent 7 3 m_hi), [1; 2; 3].
  split; [apply os_plain; [apply m_hi_ok; unfold fits; lia|constructor]|]. split; [left; split; [split; [unfold fits; lia|split; [lia|right; reflexivity]]|exists [104; 105]; split; [reflexivity|discriminate]]|].
  split; [apply ent_ok; [unfold fits; lia|exact Logic.I|bytes_ok|vm_compute; reflexivity]|rewrite app_nil_r; reflexivity].
Qed.
Example C93_example_refused : read_response demo_codec 5 (RFetch (-1) 1 100 [97] [(1, (6, 100))]) (lz4_fetch lz4_text) = Some (Err EType).
Proof. exact (C93_refused_partial demo_codec 4 _ _ ltac:(repeat eexists) lz4_text_until). Qed.

Print Assumptions C93_refused_partial.
Print Assumptions C93_too_deep.
Print Assumptions C93_lost_refuted.
