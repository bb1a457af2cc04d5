(** Vocabulary for C89: what the calls of a producer wait for. *)
From Coq Require Import ZArith String List Bool.
From Verif Require Import PyBase Messages SpecWire Cluster Producer SpecKafka SpecConn SpecRequest SpecBytes Stack ProducerStack SpecProducerStack SpecHang.
From Verif Require Connection.
Import ListNotations.
Open Scope Z_scope.

(** no stream is closed under a connection *)
Definition yunbroken (ev : yevent) : Prop :=
  match ev with
  | YCall _ wr => forall b, wr b <> Some EStreamClosed
  | YMeta _ _ wr => wr <> Some EStreamClosed
  | YConn _ ev => stream_kept ev
  | YDone _ => True
  end.
(** a flush(), close() or produce() waits for the response to the request with this correlation id *)
Definition waiting (Y : pstack) (c : Z) : Prop := In c (p_open (y_prod Y)).
(** the messages kept in self.sent[c][t][p] *)
Definition kept_for (Y : pstack) (c : Z) (t : text) (p : Z) : list pmsg :=
  match dget (p_sent (y_prod Y)) c with
  | Some b => match dget b t with Some d => match dget d p with Some ms => ms | None => [] end | None => [] end
  | None => []
  end.

Section Answers.
  Variable C : codec.
  Variable frames : nat -> list (Z * bytes).
  (** Brokers answer requests that were written on the connection, each with its correlation id, and no produce request
      with required_acks 0 ("the server will not send any response", Kafka's protocol guide). *)
  Definition answers_wanted (Y : pstack) : Prop := forall n id raw, In (id, raw) (frames n) ->
    exists api key payload, In (api, key) kafka_api_numbers /\ fits 32 id /\ In (request_frame key id payload) (writes Y n) /\
      (key = 0 -> forall acks timeout d, kw_produce C 0 acks timeout d payload -> acks <> 0).
End Answers.
