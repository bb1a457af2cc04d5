(** C06: the checksum is the standard one.  Specification: SpecCrc.v. *)
From Coq Require Import ZArith String List Bool Lia.
From Verif Require Import PyBase BaseLemmas Struct Crc32 SpecCrc.
Import ListNotations.
Open Scope Z_scope.

Lemma bit_range z : 0 <= z < 2 ^ 32 <-> 0 <= z /\ forall k, 32 <= k -> Z.testbit z k = false.
Proof.
  split.
  - intros H. split; [lia|]. intros k K. destruct (Z.eq_dec z 0) as [->|N]; [apply Z.bits_0|]. apply Z.bits_above_log2; [lia|]. assert (Z.log2 z < 32) by (apply Z.log2_lt_pow2; lia). lia.
  - intros [P H]. split; [exact P|]. destruct (Z.eq_dec z 0) as [->|N]; [lia|]. apply Z.log2_lt_pow2; [lia|]. destruct (Z_lt_le_dec (Z.log2 z) 32) as [L|L]; [exact L|]. specialize (H _ L). rewrite Z.bit_log2 in H by lia. discriminate.
Qed.
Lemma lxor_nonneg a b : 0 <= a -> 0 <= b -> 0 <= Z.lxor a b.
Proof. intros A B. apply Z.lxor_nonneg. lia. Qed.

(** ** the bits of a message one at a time *)
Definition crc_in (c : Z) (b : bool) : Z := crc_bit (Z.lxor c (Z.b2z b)).
Lemma crc_bit_xor c b : crc_bit (Z.lxor c b) = Z.lxor (crc_in c (Z.testbit b 0)) (Z.shiftr b 1).
Proof.
  unfold crc_in, crc_bit. rewrite !Z.shiftr_lxor. rewrite <- !Z.bit0_odd, !Z.lxor_spec. replace (Z.testbit (Z.b2z (Z.testbit b 0)) 0) with (Z.testbit b 0) by (now destruct (Z.testbit b 0)).
  replace (Z.shiftr (Z.b2z (Z.testbit b 0)) 1) with 0 by (now destruct (Z.testbit b 0)). rewrite Z.lxor_0_r.
  destruct (xorb (Z.testbit c 0) (Z.testbit b 0)); [|reflexivity]. apply Z.bits_inj'. intros k _. rewrite !Z.lxor_spec. now rewrite !xorb_assoc, (xorb_comm (Z.testbit crc_poly k)).
Qed.
Lemma crc_byte_bits c b : 0 <= b < 256 -> crc_byte c b = fold_left crc_in (bits_of_byte b) c.
Proof.
  intros B. unfold crc_byte, bits_of_byte. cbn [map fold_left]. rewrite crc_bit_xor.
  do 7 (rewrite crc_bit_xor, Z.shiftr_shiftr, Z.shiftr_spec by lia; cbn [Z.add Pos.add Pos.succ]).
  change (1 + 1 + 1 + 1 + 1 + 1 + 1 + 1) with 8. replace (Z.shiftr b 8) with 0; [rewrite Z.lxor_0_r; reflexivity|]. rewrite Z.shiftr_div_pow2 by lia. symmetry. apply Z.div_small. lia.
Qed.
Lemma crc_bits bs c : Forall is_byte bs -> fold_left crc_byte bs c = fold_left crc_in (bits bs) c.
Proof.
  intros F. revert c. induction F as [|b bs B F IH]; intros c; [reflexivity|]. cbn [fold_left bits flat_map]. rewrite fold_left_app, <- crc_byte_bits by exact B. apply IH.
Qed.

(** ** the register holds the remainder, its bits reversed *)
Definition reversed (c r : Z) : Prop := 0 <= c < 2 ^ 32 /\ 0 <= r < 2 ^ 32 /\ forall k, 0 <= k < 32 -> Z.testbit c k = Z.testbit r (31 - k).
Definition next (r : Z) (b : bool) : Z := Z.lxor (Z.lxor (Z.shiftl r 1) (Z.shiftl (Z.b2z b) 32)) (if xorb (Z.testbit r 31) b then generator else 0).
Lemma poly_reversed k : 0 <= k < 32 -> Z.testbit crc_poly k = Z.testbit generator (31 - k).
Proof.
  intros K. assert (A : forallb (fun k => Bool.eqb (Z.testbit crc_poly k) (Z.testbit generator (31 - k))) (map Z.of_nat (seq 0 32)) = true) by (vm_compute; reflexivity).
  rewrite forallb_forall in A. apply eqb_prop, A. apply in_map_iff. exists (Z.to_nat k). split; [lia|]. apply in_seq. lia.
Qed.
Lemma b2z_bit b k : 0 < k -> Z.testbit (Z.b2z b) k = false.
Proof. intros K. destruct b; cbn [Z.b2z]; [|apply Z.bits_0]. apply Z.bits_above_log2; cbn; lia. Qed.
Lemma generator_32 k : 32 <= k -> Z.testbit generator k = (k =? 32).
Proof. intros K. destruct (Z.eqb_spec k 32) as [->|N]; [vm_compute; reflexivity|]. apply Z.bits_above_log2; [vm_compute; discriminate|]. change (Z.log2 generator) with 32. lia. Qed.
Lemma next_range r b : 0 <= r < 2 ^ 32 -> 0 <= next r b < 2 ^ 32.
Proof.
  intros R. apply bit_range. pose proof (proj1 (bit_range r) R) as [R0 RH]. unfold next. split.
  - apply lxor_nonneg; [apply lxor_nonneg; apply Z.shiftl_nonneg; [lia|destruct b; cbn; lia]|destruct (xorb _ _); [vm_compute|]; discriminate].
  - intros k K. rewrite !Z.lxor_spec, !Z.shiftl_spec by lia. replace (Z.testbit (if xorb (Z.testbit r 31) b then generator else 0) k) with (andb (xorb (Z.testbit r 31) b) (k =? 32)).
    + destruct (Z.eqb_spec k 32) as [->|N].
      * cbn [Z.sub Z.add Z.opp Pos.sub]. change (32 - 1) with 31. change (32 - 32) with 0. rewrite Z.b2z_bit0. now destruct (Z.testbit r 31), b.
      * rewrite (RH (k - 1)), (b2z_bit b (k - 32)) by lia. now rewrite andb_false_r.
    + destruct (xorb _ _); [now rewrite generator_32|now rewrite Z.bits_0].
Qed.
Lemma crc_in_range c b : 0 <= c < 2 ^ 32 -> 0 <= crc_in c b < 2 ^ 32.
Proof.
  intros C. apply bit_range in C as [C0 CH]. apply bit_range. unfold crc_in, crc_bit. assert (X : 0 <= Z.lxor c (Z.b2z b)) by (apply lxor_nonneg; [lia|destruct b; cbn; lia]).
  assert (Y : 0 <= crc_poly < 2 ^ 32) by (unfold crc_poly; lia). apply bit_range in Y as [Y0 YH].
  split; [destruct (Z.odd _); [apply lxor_nonneg; [|exact Y0]|]; now apply Z.shiftr_nonneg|]. intros k K.
  assert (S : Z.testbit (Z.shiftr (Z.lxor c (Z.b2z b)) 1) k = false) by (rewrite Z.shiftr_spec, Z.lxor_spec, CH, b2z_bit by lia; reflexivity).
  destruct (Z.odd _); [rewrite Z.lxor_spec, S, YH by lia; reflexivity|exact S].
Qed.
Lemma crc_in_next c r b : reversed c r -> reversed (crc_in c b) (next r b).
Proof.
  intros (C & R & E). split; [now apply crc_in_range|]. split; [now apply next_range|]. intros k K.
  assert (O : Z.odd (Z.lxor c (Z.b2z b)) = xorb (Z.testbit r 31) b) by (rewrite <- Z.bit0_odd, Z.lxor_spec, Z.b2z_bit0, E by lia; reflexivity).
  assert (S : Z.testbit (Z.shiftr (Z.lxor c (Z.b2z b)) 1) k = Z.testbit r (31 - (k + 1))).
  { rewrite Z.shiftr_spec, Z.lxor_spec, b2z_bit, xorb_false_r by lia. destruct (Z.eq_dec k 31) as [->|N]; [|apply E; lia]. apply bit_range in C as [_ CH]. rewrite CH by lia. symmetry. now apply Z.testbit_neg_r. }
  unfold crc_in, crc_bit, next. rewrite O, !Z.lxor_spec, !Z.shiftl_spec by lia.
  rewrite (Z.testbit_neg_r _ (31 - k - 32)), xorb_false_r by lia. replace (31 - k - 1) with (31 - (k + 1)) by lia.
  destruct (xorb (Z.testbit r 31) b); [|now rewrite Z.bits_0, xorb_false_r]. now rewrite Z.lxor_spec, S, poly_reversed.
Qed.

Lemma multiple_shift p : multiple generator p -> multiple generator (Z.shiftl p 1).
Proof.
  induction 1 as [|k p K M IH]; [rewrite Z.shiftl_0_l; constructor|]. rewrite Z.shiftl_lxor, Z.shiftl_shiftl by lia. constructor; [lia|exact IH].
Qed.
Lemma from_bits_snoc l b : from_bits (l ++ [b]) = Z.lxor (Z.shiftl (from_bits l) 1) (Z.b2z b).
Proof.
  unfold from_bits. rewrite fold_left_app. cbn [fold_left]. set (p := fold_left _ l 0). rewrite Z.shiftl_mul_pow2 by lia. change (2 ^ 1) with 2. rewrite (Z.mul_comm p 2). symmetry.
  rewrite <- Z.add_nocarry_lxor; [reflexivity|]. apply Z.bits_inj'. intros k K. rewrite Z.land_spec, Z.bits_0. destruct (Z.eq_dec k 0) as [->|N]; [now rewrite Z.testbit_even_0|rewrite b2z_bit by lia; apply andb_false_r].
Qed.
(** what the register holds after the bits [l] *)
Definition holds (l : list bool) (r : Z) : Prop :=
  multiple generator (Z.lxor (Z.lxor (Z.shiftl (from_bits l) 32) (Z.shiftl ones (Z.of_nat (length l)))) r).
Lemma holds_next l r b : holds l r -> holds (l ++ [b]) (next r b).
Proof.
  intros H. apply multiple_shift in H. unfold holds. rewrite from_bits_snoc, app_length. cbn [length]. replace (Z.of_nat (length l + 1)) with (Z.of_nat (length l) + 1) by lia.
  rewrite !Z.shiftl_lxor, !Z.shiftl_shiftl in H by lia. rewrite Z.shiftl_lxor, Z.shiftl_shiftl, (Z.add_comm 1 32) by lia. unfold next.
  set (A := Z.shiftl (from_bits l) (32 + 1)) in *. set (B := Z.shiftl ones (Z.of_nat (length l) + 1)) in *. set (R := Z.shiftl r 1) in *. set (D := Z.shiftl (Z.b2z b) 32).
  assert (E : forall G, Z.lxor (Z.lxor (Z.lxor A D) B) (Z.lxor (Z.lxor R D) G) = Z.lxor G (Z.lxor (Z.lxor A B) R)).
  { intros G. apply Z.bits_inj'. intros k _. rewrite !Z.lxor_spec. destruct (Z.testbit A k), (Z.testbit B k), (Z.testbit R k), (Z.testbit D k), (Z.testbit G k); reflexivity. }
  rewrite E. destruct (xorb _ _); [|now rewrite Z.lxor_0_l]. rewrite <- (Z.shiftl_0_r generator). now constructor.
Qed.
Lemma run_bits l2 : forall l1 c r, reversed c r -> holds l1 r -> exists r', reversed (fold_left crc_in l2 c) r' /\ holds (l1 ++ l2) r'.
Proof.
  induction l2 as [|b l2 IH]; intros l1 c r RV H; [exists r; now rewrite app_nil_r|]. cbn [fold_left]. destruct (IH (l1 ++ [b]) (crc_in c b) (next r b)) as (r' & A & B); [now apply crc_in_next|now apply holds_next|].
  exists r'. rewrite <- app_assoc in B. auto.
Qed.
Lemma bits_length bs : Z.of_nat (length (bits bs)) = 8 * zlen bs.
Proof. unfold zlen. induction bs as [|b bs IH]; [reflexivity|]. cbn [bits flat_map]. rewrite app_length. fold (bits bs). change (length (bits_of_byte b)) with 8%nat. cbn [length]. lia. Qed.
Lemma ones_bit k : 0 <= k -> Z.testbit ones k = (k <? 32).
Proof. intros K. change ones with (Z.ones 32). destruct (Z.ltb_spec k 32); [now apply Z.ones_spec_low|apply Z.ones_spec_high; lia]. Qed.
Lemma crc32_is bs : Forall is_byte bs -> is_crc32 bs (crc32 bs).
Proof.
  intros F. destruct (run_bits (bits bs) [] ones ones) as (r & (C & R & E) & H).
  - split; [unfold ones; lia|]. split; [unfold ones; lia|]. intros k K. rewrite !ones_bit by lia. destruct (Z.ltb_spec k 32), (Z.ltb_spec (31 - k) 32); auto; lia.
  - unfold holds. cbn [from_bits fold_left length]. rewrite Z.shiftl_0_l, Z.lxor_0_l, Z.shiftl_0_r, Z.lxor_nilpotent. constructor.
  - exists r. split; [exact R|]. split; [unfold holds in H; cbn [app] in H; now rewrite bits_length in H|]. unfold crc32. rewrite crc_bits by exact F. change 4294967295 with ones. set (c := fold_left crc_in (bits bs) ones) in *. split.
    + apply bit_range in C as [C0 CH]. apply bit_range. split; [apply lxor_nonneg; [exact C0|unfold ones; lia]|]. intros k K. rewrite Z.lxor_spec, CH, ones_bit by lia. destruct (Z.ltb_spec k 32); [lia|reflexivity].
    + intros k K. rewrite Z.lxor_spec, ones_bit, E by lia. destruct (Z.ltb_spec k 32); [apply xorb_true_r|lia].
Qed.

(** ** there is only one remainder *)
Fixpoint toggle (k : nat) (l : list nat) : list nat :=
  match l with [] => [k] | h :: r => if Nat.eqb h k then r else if Nat.ltb h k then k :: l else h :: toggle k r end.
Fixpoint falling (bound : nat) (l : list nat) : Prop := match l with [] => True | h :: r => (h < bound)%nat /\ falling h r end.
Definition sum_of (l : list nat) : Z := fold_right (fun k p => Z.lxor (Z.shiftl generator (Z.of_nat k)) p) 0 l.
Lemma falling_weak b b' l : (b <= b')%nat -> falling b l -> falling b' l.
Proof. destruct l; [auto|]. cbn. intros L [H F]. split; [lia|exact F]. Qed.
Lemma toggle_falling k l : forall b, (k < b)%nat -> falling b l -> falling b (toggle k l).
Proof.
  induction l as [|h r IH]; intros b K F; [cbn; auto|]. cbn [toggle]. destruct F as [H F]. destruct (Nat.eqb_spec h k) as [->|N]; [eapply falling_weak; [|exact F]; lia|].
  destruct (Nat.ltb_spec h k); [cbn; auto|]. cbn. split; [exact H|]. apply IH; [lia|exact F].
Qed.
Lemma toggle_sum k l : sum_of (toggle k l) = Z.lxor (Z.shiftl generator (Z.of_nat k)) (sum_of l).
Proof.
  induction l as [|h r IH]; [reflexivity|]. cbn [toggle]. destruct (Nat.eqb_spec h k) as [->|N]; [cbn [sum_of fold_right]; now rewrite <- Z.lxor_assoc, Z.lxor_nilpotent, Z.lxor_0_l|].
  destruct (Nat.ltb h k); [reflexivity|]. change (sum_of (h :: toggle k r)) with (Z.lxor (Z.shiftl generator (Z.of_nat h)) (sum_of (toggle k r))). rewrite IH. change (sum_of (h :: r)) with (Z.lxor (Z.shiftl generator (Z.of_nat h)) (sum_of r)).
  now rewrite <- !Z.lxor_assoc, (Z.lxor_comm (Z.shiftl generator (Z.of_nat h))).
Qed.
Lemma multiple_sum p : multiple generator p -> exists b l, falling b l /\ p = sum_of l.
Proof.
  induction 1 as [|k p K M IH]; [exists 0%nat, []; cbn; auto|]. destruct IH as (b & l & F & ->). exists (Nat.max b (S (Z.to_nat k))), (toggle (Z.to_nat k) l). split; [apply toggle_falling; [lia|eapply falling_weak; [|exact F]; lia]|]. rewrite toggle_sum. now rewrite Z2Nat.id.
Qed.
Lemma sum_high l : forall b j, falling b l -> Z.of_nat b + 32 <= j -> Z.testbit (sum_of l) j = false.
Proof.
  induction l as [|h r IH]; intros b j F J; [apply Z.bits_0|]. destruct F as [H F]. change (sum_of (h :: r)) with (Z.lxor (Z.shiftl generator (Z.of_nat h)) (sum_of r)). rewrite Z.lxor_spec, Z.shiftl_spec, generator_32, (IH h) by (assumption || lia). destruct (Z.eqb_spec (j - Z.of_nat h) 32); [lia|reflexivity].
Qed.
Lemma multiple_small p : multiple generator p -> 0 <= p < 2 ^ 32 -> p = 0.
Proof.
  intros M P. apply multiple_sum in M as (b & [|h r] & F & ->); [reflexivity|]. apply bit_range in P as [_ P]. specialize (P (Z.of_nat h + 32) ltac:(lia)). destruct F as [_ F].
  change (sum_of (h :: r)) with (Z.lxor (Z.shiftl generator (Z.of_nat h)) (sum_of r)) in P. rewrite Z.lxor_spec, Z.shiftl_spec, generator_32, (sum_high r h) in P by (assumption || lia). destruct (Z.eqb_spec (Z.of_nat h + 32 - Z.of_nat h) 32); [discriminate P|lia].
Qed.
Lemma multiple_add p q : multiple generator p -> multiple generator q -> multiple generator (Z.lxor p q).
Proof. intros P Q. induction P as [|k p K M IH]; [now rewrite Z.lxor_0_l|]. rewrite Z.lxor_assoc. now constructor. Qed.
Lemma is_crc32_unique bs a b : is_crc32 bs a -> is_crc32 bs b -> a = b.
Proof.
  intros (r & R & M & A & E) (r' & R' & M' & B & E').
  assert (r = r') as <-.
  { pose proof (multiple_add _ _ M M') as X. set (Y := Z.lxor (Z.shiftl _ _) (Z.shiftl _ _)) in X. replace (Z.lxor (Z.lxor Y r) (Z.lxor Y r')) with (Z.lxor r r') in X.
    - apply Z.lxor_eq. apply multiple_small; [exact X|]. apply bit_range in R as [R0 RH], R' as [R0' RH']. apply bit_range. split; [now apply lxor_nonneg|]. intros k K. now rewrite Z.lxor_spec, RH, RH'.
    - apply Z.bits_inj'. intros k _. rewrite !Z.lxor_spec. destruct (Z.testbit Y k), (Z.testbit r k), (Z.testbit r' k); reflexivity. }
  apply Z.bits_inj'. intros k K. destruct (Z_lt_le_dec k 32) as [L|L]; [now rewrite E, E' by lia|]. apply bit_range in A as [_ A], B as [_ B]. now rewrite A, B.
Qed.

(** zlib's checksum is CRC-32 *)
Theorem C06_crc32 : forall bs crc, Forall is_byte bs -> (is_crc32 bs crc <-> crc = crc32 bs).
Proof. intros bs crc F. split; [intros H; eapply is_crc32_unique; [exact H|now apply crc32_is]|intros ->; now apply crc32_is]. Qed.
Example C06_crc32_example : is_crc32 (txt "123456789"%string) 3421780262 /\ ~ is_crc32 (txt "123456788"%string) 3421780262.
Proof.
  assert (B : Forall is_byte (txt "123456789"%string) /\ Forall is_byte (txt "123456788"%string)) by (split; repeat constructor; try discriminate). destruct B as [B1 B2].
  split; [apply C06_crc32; [exact B1|vm_compute; reflexivity]|]. intros H. apply C06_crc32 in H; [|exact B2]. vm_compute in H. discriminate H.
Qed.

Print Assumptions C06_crc32.
