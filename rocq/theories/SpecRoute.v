(** Vocabulary for C90: what the metadata responses that arrived say. *)
From Coq Require Import ZArith String List Bool.
From Verif Require Import PyBase Messages SpecWire Cluster SpecKafka SpecConn SpecRequest Stack.
From Verif Require Connection.
Import ListNotations.
Open Scope Z_scope.

(** what a metadata response says: broker [b] is at host:port; broker [b] leads partition [p] of topic [t] - and the topic
    and the partition are not reported as unknown (3), without leader (5) or without replica (9) *)
Definition puts_at (brokers : list (Z * text * Z)) (b : Z) (host : text) (port : Z) : Prop := In (b, host, port) brokers.
Definition names_leader (topics : list (Z * text * list kpart)) (t : text) (p b : Z) : Prop :=
  exists code ps part_code, In (code, t, ps) topics /\ In (KPart part_code p b) ps /\ code <> 3 /\ code <> 9 /\ part_code <> 5.

Section SpecRoute.
  (** what the broker at the other end of each connection sends: frames (correlation id, payload), cut into pieces and
      broken off anywhere *)
  Variable frames : nat -> list (Z * bytes).
  Definition written_on (ls : nat -> link) (n : nat) : list bytes := Connection.c_written (l_conn (ls n)).
  Definition link_hears (ls : nat -> link) : Prop := forall n, Forall frame_ok (frames n) /\ exists more, frames_bytes (frames n) = l_in (ls n) ++ more.
  (** a frame answers a request whose bytes were written on the connection; if that is a metadata request, the frame's
      payload is a metadata response *)
  Definition kafka_answers (ls : nat -> link) : Prop := forall n id raw, In (id, raw) (frames n) ->
    exists api key payload, In (api, key) kafka_api_numbers /\ fits 32 id /\ In (request_frame key id payload) (written_on ls n) /\
      (key = 3 -> exists brokers topics, kw_metadata brokers topics raw).
  (** all bytes of this metadata response have arrived *)
  Definition metadata_arrived (ls : nat -> link) (brokers : list (Z * text * Z)) (topics : list (Z * text * list kpart)) : Prop :=
    exists n id raw payload, In (request_frame 3 id payload) (written_on ls n) /\ kw_metadata brokers topics raw /\
      exists before after more, frames n = before ++ (id, raw) :: after /\ l_in (ls n) = frames_bytes (before ++ [(id, raw)]) ++ more.
End SpecRoute.
(** connection [n] was made for this address: Connection(host, port), cluster.py:91 and 191 *)
Definition made_for (k : cluster) (n : nat) (host : text) (port : Z) : Prop := In (XConnect n host port) (k_log k).
