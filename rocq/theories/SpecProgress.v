(** Property C94: answers that bring a partition no further.  Written on Kafka's grammar (SpecKafka.v, SpecAttr.v). *)
From Coq Require Import ZArith String List Bool.
From Verif Require Import PyBase Messages SpecWire Cluster Consumer SpecConsumer SpecKafka SpecAttr ResponseRead.
Import ListNotations.
Open Scope Z_scope.

Section SpecProgress.
  Context {V : Type}.
  Variable C : codec.
  Variable depth : nat.
  Variable t : text.
  Variable p : Z.

  (** the part of a fetch response for [p]: no error, and of its messages the first [limit] bytes, in which the first
      message does not end *)
  Definition cut_short (limit : Z) (x : Z * (Z * list (Z * kmsg))) (b : bytes) : Prop :=
    x = (p, (0, [])) /\
    kw_fetch_part_of (fun _ s => exists o a m e, kw_entry o a m e /\ fits 8 a /\ 0 <= limit < zlen e /\ s = firstn (Z.to_nat limit) e) x b.
  (** a response about [t] that ends with such a part *)
  Definition oversized (limit : Z) (parts : list (Z * (Z * list (Z * kmsg)))) (raw : bytes) : Prop :=
    NoDup (map fst parts) /\
    exists nb pb, kw_string t nb /\ kw_array_end (kw_fetch_part C 12) (cut_short limit) parts pb /\ raw = big_endian 4 1 ++ nb ++ pb.
  (** a response about [t] in which every message of [p] is one that the client drops (SpecAttr.v) *)
  Definition dropped (parts : list (Z * (Z * list (Z * kmsg)))) (raw : bytes) : Prop :=
    (forall code ms, In (p, (code, ms)) parts -> ms = []) /\ kw_topics (kw_fetch_part_of (odd_set C)) [(t, parts)] raw.

  (** the topic an answer begins with is [t] *)
  Definition about (r : response) : Prop :=
    match r with PFetch ((t', _) :: _) => t' = t | POffset ((t', _) :: _) => t' = t | POffsetFetch ((t', _) :: _) => t' = t | _ => False end.
  (** each answer that is about [t] is what the reader makes of such bytes, and answers a fetch request; the limit is the one
      the request gives for [p]. *)
  Definition idles (s : consumer V) (l : label) : Prop :=
    match l with
    | Arrive i b (Ok r) => forall rq, waits_for s i b rq -> about r ->
        exists x mw mb asked parts raw, rq = RFetch x mw mb t asked /\ read_response C (S depth) rq raw = Some (Ok r) /\
          ((exists o limit, In (p, (o, limit)) asked /\ oversized limit parts raw) \/ dropped parts raw)
    | _ => True
    end.
End SpecProgress.
