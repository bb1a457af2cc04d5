(** Laws of the compression libraries the message layer calls (specification side). *)
From Coq Require Import ZArith List.
From Verif Require Import PyBase Messages Snappy SnappyProofs.
Import ListNotations.
Open Scope Z_scope.

(** gzip: decompress inverts compress, the output is bytes and starts with the gzip magic 1f 8b
    (RFC 1952).  snappy: installed, uncompress inverts compress, the output is bytes. *)
Definition codec_laws (C : codec) : Prop :=
  (forall b, Forall is_byte b -> gz_decompress C (gz_compress C b) = Ok b) /\
  (forall b, exists r, gz_compress C b = 31 :: 139 :: r) /\
  (forall b, Forall is_byte b -> Forall is_byte (gz_compress C b)) /\
  sn_available C = true /\
  (forall b, Forall is_byte b -> sn_uncompress C (sn_compress C b) = Ok b) /\
  (forall b, Forall is_byte b -> Forall is_byte (sn_compress C b)).

(** The last of the 32768-byte blocks compresses to at least 12 bytes (see C10). *)
Definition last_block_ok (C : codec) (raw : bytes) : Prop :=
  raw = [] \/ 12 <= zlen (sn_compress C (last (chunks raw) [])).
