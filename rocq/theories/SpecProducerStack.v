(** Vocabulary for C80: brokers that talk to a producer over its connections. *)
From Coq Require Import ZArith String List Bool.
From Verif Require Import PyBase Messages SpecWire Cluster Producer SpecKafka SpecConn SpecRequest SpecProduced SpecBytes Stack ProducerStack.
From Verif Require Connection.
Import ListNotations.
Open Scope Z_scope.

(** the bytes written on a connection, a request at a time *)
Definition writes (Y : pstack) (n : nat) : list bytes := Connection.c_written (l_conn (y_link Y n)).
(** is it a produce request?  Bytes 4 and 5 are the api number (after the four bytes of the size). *)
Definition produce_frame (w : bytes) : bool := list_eqb (firstn 2 (skipn 4 w)) [0; 0].

Section SpecProducerStack.
  Variable C : codec.
  (** the logs of the brokers' partitions *)
  Variable klog : text -> Z -> list (Z * kmsg).
  (** what the broker at the other end of each connection sends: frames (correlation id, payload), cut into pieces and
      broken off anywhere *)
  Variable frames : nat -> list (Z * bytes).
  Definition phears (Y : pstack) : Prop := forall n, Forall frame_ok (frames n) /\ exists more, frames_bytes (frames n) = l_in (y_link Y n) ++ more.
  (** every frame a broker sends answers a request that was written on that connection: it repeats the correlation id of
      its bytes *)
  Definition answers_requests (Y : pstack) : Prop := forall n id raw, In (id, raw) (frames n) ->
    exists api key payload, In (api, key) kafka_api_numbers /\ fits 32 id /\ In (request_frame key id payload) (writes Y n).
  (** and what it says to a produce request is true: where it reports no error, the messages the request has for the
      partition are in the partition's log, together and in order *)
  Definition stored (t : text) (p : Z) (ms : list kmsg) : Prop := exists a b, map snd (klog t p) = a ++ ms ++ b.
  Definition tells_truth (Y : pstack) : Prop := forall n id raw payload acks timeout d, In (id, raw) (frames n) ->
    In (request_frame 0 id payload) (writes Y n) -> kw_produce C 0 acks timeout d payload ->
    exists r, kw_produced r raw /\ forall t ps p, In (t, ps) r -> In (p, 0) ps -> stored t p (kcarried t p d).
  (** the messages given to produce() are made from byte strings, strings, numbers or None *)
  Definition ymakes (ev : yevent) : Prop := match ev with YCall (EvProduce _ _ (Ok m)) _ | YCall (EvResume _ _ (Ok m)) _ => made m | _ => True end.
End SpecProducerStack.
