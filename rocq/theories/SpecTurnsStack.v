(** Vocabulary for C106: what brokers keep of a producer's requests, on the bytes. *)
From Coq Require Import ZArith String List Bool.
From Verif Require Import PyBase Messages SpecWire Constants Cluster Producer SpecKafka SpecConn SpecRequest SpecProduced SpecProducer SpecTurns Stack ProducerStack SpecProducerStack.
From Verif Require Connection.
Import ListNotations.
Open Scope Z_scope.

(** one produce request was made before another: the correlation ids in their bytes, given out in turn, say so *)
Definition earlier (w w' : bytes) : Prop :=
  exists c payload c' payload', fits 32 c /\ fits 32 c' /\ w = request_frame 0 c payload /\ w' = request_frame 0 c' payload' /\ c < c'.

Section SpecTurnsStack.
  Variable frames : nat -> list (Z * bytes).
  (** what a broker says to a produce request is a produce response *)
  Definition speaks (Y : pstack) : Prop := forall n id raw payload, In (id, raw) (frames n) -> In (request_frame 0 id payload) (writes Y n) -> exists r, kw_produced r raw.
  (** the broker that was sent the request answered it, and gave a retriable error for the partition: it has not stored the
      request's messages there *)
  Definition declined (Y : pstack) (w : bytes) (t : text) (p : Z) : Prop :=
    exists n c payload raw r ps code, fits 32 c /\ w = request_frame 0 c payload /\ In w (writes Y n) /\ In (c, raw) (frames n) /\ kw_produced r raw /\ In (t, ps) r /\ In (p, code) ps /\ retriable_code code = true.
End SpecTurnsStack.
