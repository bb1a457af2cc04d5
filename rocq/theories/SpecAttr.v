(** Property C93: which entries of a fetch response carry attributes, or a compressed value, that the client does not
    understand, and what a fetch response holding such entries delivers.  Written on Kafka's grammar (SpecKafka.v). *)
From Coq Require Import ZArith String List Bool.
From Verif Require Import PyBase Utf8 Crc32 Messages SpecWire SpecKafka.
Import ListNotations.
Open Scope Z_scope.

(** the low two bits name no codec the client has (3 is LZ4), yet the byte is not 0 *)
Definition unknown_attributes (a : Z) : Prop := fits 8 a /\ a <> 0 /\ (Z.land a 3 = 0 \/ Z.land a 3 = 3).

(** [v] cannot begin with a message: it is shorter than the least one, or the four bytes where the length of a first
    message's key belongs say something that does not fit in the rest of it *)
Definition no_message (v : bytes) : Prop :=
  zlen v < 26 \/
  exists h n rest, zlen h = 18 /\ fits 32 n /\ (n < -1 \/ zlen rest < n) /\ v = h ++ big_endian 4 n ++ rest.

Section Codec.
  Variable C : codec.

  (** entries that vanish: unknown attributes on a value that is empty, or not text and not a message set; snappy on
      fewer than 32 bytes (characters, if the bytes are text) *)
  Definition vanishes (a : Z) (m : kmsg) : Prop :=
    exists v, km_value m = Some v /\
      ((unknown_attributes a /\ (v = [] \/ (utf8_decode v = None /\ no_message v))) \/
       (fits 8 a /\ Z.land a 3 = 2 /\ sn_available C = true /\
        match utf8_decode v with Some t => zlen t < 32 | None => zlen v < 32 end)).

  (** entries that make the whole response unreadable: text or null where the client expects bytes *)
  Definition refused (a : Z) (m : kmsg) : Prop :=
    (unknown_attributes a /\ match km_value m with None => True | Some v => exists t, utf8_decode v = Some t /\ t <> [] end) \/
    (fits 8 a /\ Z.land a 3 = 1 /\ exists v t, km_value m = Some v /\ utf8_decode v = Some t) \/
    (fits 8 a /\ Z.land a 3 = 2 /\ sn_available C = true /\
     match km_value m with None => True | Some v => exists t, utf8_decode v = Some t /\ 32 <= zlen t end).

  (** a message set with such entries in it, and the messages that come out of it *)
  Inductive odd_set : list (Z * kmsg) -> bytes -> Prop :=
  | os_end : odd_set [] []
  | os_plain offset m b ms rest : kw_entry offset 0 m b -> odd_set ms rest -> odd_set ((offset, m) :: ms) (b ++ rest)
  | os_packed offset attributes key z raw inner b ms rest :
      kw_packed C 12 attributes z raw -> kw_plain inner raw -> kw_entry offset attributes (KMsg key (Some z)) b -> odd_set ms rest ->
      odd_set (inner ++ ms) (b ++ rest)
  (** nothing comes out of this entry *)
  | os_lost offset attributes m b ms rest : vanishes attributes m -> kw_entry offset attributes m b -> odd_set ms rest -> odd_set ms (b ++ rest)
  (** other messages come out of this one: the value of a message is itself taken for a message set *)
  | os_taken offset attributes key v inner b ms rest :
      unknown_attributes attributes -> utf8_decode v = None -> kw_plain inner v -> kw_entry offset attributes (KMsg key (Some v)) b -> odd_set ms rest ->
      odd_set (inner ++ ms) (b ++ rest).

  (** a set in which an entry comes that is [wrong], with anything after it *)
  Definition set_until (set : list (Z * kmsg) -> bytes -> Prop) (wrong : Z -> kmsg -> Prop) (s : bytes) : Prop :=
    exists ms s1 offset a m e s2, set ms s1 /\ wrong a m /\ kw_entry offset a m e /\ s = s1 ++ e ++ s2.
End Codec.

(** an array in which an item comes that is [wrong], with anything after it *)
Definition array_until {A} (item : A -> bytes -> Prop) (wrong : bytes -> Prop) (b : bytes) : Prop :=
  exists xs bs n bx rest, Forall2 item xs bs /\ wrong bx /\ zlen xs < n < 2 ^ 31 /\ b = big_endian 4 n ++ concat bs ++ bx ++ rest.
(** a fetch response in which, after any number of topics and partitions, a message set comes that is [wrong] *)
Definition fetch_until (set : list (Z * kmsg) -> bytes -> Prop) (wrong : bytes -> Prop) (b : bytes) : Prop :=
  let part_until b := exists p pb c cb highwater hb s, kw_int 4 p pb /\ kw_int 2 c cb /\ kw_int 8 highwater hb /\ wrong s /\ zlen s < 2 ^ 31 /\
    b = pb ++ cb ++ hb ++ big_endian 4 (zlen s) ++ s in
  array_until (kw_topic (kw_fetch_part_of set))
    (fun b => exists t nb pb, kw_string t nb /\ array_until (kw_fetch_part_of set) part_until pb /\ b = nb ++ pb) b.
