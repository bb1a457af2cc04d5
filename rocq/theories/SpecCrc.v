(** CRC-32 as in IEEE 802.3, by polynomials over GF(2).  A polynomial is a number whose bit k is the coefficient of x^k;
    the sum of two polynomials is their exclusive or, x^k times a polynomial is a shift. *)
From Coq Require Import ZArith List Bool.
From Verif Require Import PyBase.
Import ListNotations.
Open Scope Z_scope.

Definition poly (exponents : list Z) : Z := fold_right (fun k p => Z.lxor (Z.shiftl 1 k) p) 0 exponents.
Definition generator : Z := poly [32; 26; 23; 22; 16; 12; 11; 10; 8; 7; 5; 4; 2; 1; 0].
(** sums of x^k times [g] *)
Inductive multiple (g : Z) : Z -> Prop :=
| mul_0 : multiple g 0
| mul_add k p : 0 <= k -> multiple g p -> multiple g (Z.lxor (Z.shiftl g k) p).

(** bits in the order of transmission: bytes in order, least significant bit first *)
Definition bits_of_byte (b : Z) : list bool := map (Z.testbit b) [0; 1; 2; 3; 4; 5; 6; 7].
Definition bits (bs : bytes) : list bool := flat_map bits_of_byte bs.
(** the polynomial whose coefficients are these bits, the first one that of the highest power *)
Definition from_bits (l : list bool) : Z := fold_left (fun p b => 2 * p + Z.b2z b) l 0.
Definition ones : Z := 2 ^ 32 - 1.
(** the message times x^32, its first 32 bits complemented (also when it is shorter), leaves the remainder [r]; the
    checksum is the complement of [r], the coefficient of x^31 being its least significant bit *)
Definition is_crc32 (bs : bytes) (crc : Z) : Prop :=
  exists r, 0 <= r < 2 ^ 32 /\
    multiple generator (Z.lxor (Z.lxor (Z.shiftl (from_bits (bits bs)) 32) (Z.shiftl ones (8 * zlen bs))) r) /\
    0 <= crc < 2 ^ 32 /\ forall k, 0 <= k < 32 -> Z.testbit crc k = negb (Z.testbit r (31 - k)).
