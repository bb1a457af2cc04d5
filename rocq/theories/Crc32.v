(** zlib.crc32 (used by kiel/protocol/messages.py:176): the reflected CRC-32 with polynomial
    0xEDB88320, initial value and final xor 0xFFFFFFFF.  On Python 3 the result is an
    unsigned 32-bit integer. *)
From Coq Require Import ZArith String List Bool.
From Verif Require Import PyBase.
Import ListNotations.
Open Scope Z_scope.

Definition crc_poly : Z := 3988292384.  (* 0xEDB88320 *)

Definition crc_bit (c : Z) : Z :=
  if Z.odd c then Z.lxor (Z.shiftr c 1) crc_poly else Z.shiftr c 1.

Definition crc_byte (c b : Z) : Z :=
  crc_bit (crc_bit (crc_bit (crc_bit (crc_bit (crc_bit (crc_bit (crc_bit (Z.lxor c b)))))))).

Definition crc32 (bs : bytes) : Z :=
  Z.lxor (fold_left crc_byte bs 4294967295) 4294967295.

(** The standard check value. *)
Example crc32_check : crc32 (txt "123456789"%string) = 3421780262. (* 0xCBF43926 *)
Proof. vm_compute. reflexivity. Qed.
