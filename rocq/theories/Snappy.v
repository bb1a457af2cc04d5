(** kiel/compression/snappy.py: xerial-style framing around a raw snappy codec.
    The raw codec (python-snappy) is a parameter. *)
From Coq Require Import ZArith List Bool.
From Verif Require Import PyBase Struct.
Import ListNotations.
Open Scope Z_scope.

(** raw_header, snappy.py:14-24: struct.pack("!bccccccbii", -126, 'SNAPPY', 0, 1, 1) *)
Definition raw_header : bytes :=
  [130; 83; 78; 65; 80; 80; 89; 0; 0; 0; 0; 1; 0; 0; 0; 1].

(** BLOCK_SIZE, snappy.py:22 *)
Definition block_size : Z := 32768.

Section Snappy.
  (** snappy_available, and python-snappy's compress / uncompress *)
  Variable available : bool.
  Variable raw_compress : bytes -> bytes.
  Variable raw_uncompress : bytes -> res bytes.

  (** snappy.compress, snappy.py:27-55.  [n] bounds the number of blocks; the
      caller passes enough (SnappyProofs). *)
  Fixpoint comp_blocks (n : nat) (data : bytes) : res bytes :=
    match data with
    | [] => Ok []
    | _ =>
      match n with
      | O => Err (EOther 99)
      | S n' =>
        let block := firstn (Z.to_nat block_size) data in
        let c := raw_compress block in
        h <- pack1 Fi (PInt (zlen c)) ;;
        r <- comp_blocks n' (skipn (Z.to_nat block_size) data) ;;
        Ok (h ++ c ++ r)
      end
    end.

  Definition snappy_compress (data : bytes) : res bytes :=
    if negb available then Err ERuntime
    else
      r <- comp_blocks (length data) data ;;
      Ok (raw_header ++ r).

  (** the while loop of snappy.decompress, snappy.py:72-79 *)
  Fixpoint decomp_loop (n : nat) (data : bytes) (lim off : Z) : res bytes :=
    if lim <? off then Ok []
    else match n with
    | O => Err (EOther 99)
    | S n' =>
      s <- unpack1 Fi data off ;;
      match s with
      | PInt bs =>
        let off1 := off + 4 in
        blk <- unpack1 (Fs bs) data off1 ;;
        match blk with
        | PBytes b =>
          u <- raw_uncompress b ;;
          r <- decomp_loop n' data lim (off1 + bs) ;;
          Ok (u ++ r)
        | _ => Err EType
        end
      | _ => Err EType
      end
    end.

  (** snappy.decompress, snappy.py:58-85, on a byte string *)
  Definition snappy_decompress (data : bytes) : res bytes :=
    if negb available then Err ERuntime
    else
      let off := zlen raw_header in
      let lim := zlen data - zlen raw_header in
      decomp_loop (S (length data)) data lim off.
End Snappy.
