(** Vocabulary for C77: brokers that talk to a consumer over its connections. *)
From Coq Require Import ZArith String List Bool.
From Verif Require Import PyBase Messages SpecWire Cluster Consumer SpecConsumer SpecKafka SpecConn SpecRequest SpecSent SpecBytes Stack.
From Verif Require Connection.
Import ListNotations.
Open Scope Z_scope.

Section SpecStack.
  Context {V : Type}.
  Variable C : codec.
  Variable t : text.
  Variable klog : Z -> list (Z * kmsg).

  (** what the broker at the other end of each connection sends: frames (correlation id, payload), cut into pieces and
      broken off anywhere *)
  Variable frames : nat -> list (Z * bytes).
  Definition hears (S : stack V) : Prop := forall n, Forall frame_ok (frames n) /\ exists more, frames_bytes (frames n) = l_in (k_link S n) ++ more.
  (** every frame a broker sends answers a request that was written on that connection: it repeats the correlation id of
      its bytes.  What it says about a request of the consumer's kinds is an answer to that request in the sense of C74:
      it holds messages of the broker's logs from the offsets asked for on. *)
  Definition answered (S : stack V) : Prop := forall n id raw, In (id, raw) (frames n) ->
    exists api key payload, In (api, key) kafka_api_numbers /\ fits 32 id /\
      In (request_frame key id payload) (Connection.c_written (l_conn (k_link S n))) /\
      forall rq, fits_kafka rq -> key = kafka_api rq -> payload = kafka_payload rq -> kserves C t klog rq raw.
  (** consume(t) is not called while another consume(t) runs *)
  Definition calm (S : stack V) (ev : sevent) : Prop := match ev with SLabel (Call _ (OpConsume t' _)) _ => t' = t -> ~ busy (k_cons S) t | _ => True end.
End SpecStack.
Section EachEvent.
  Context {V : Type}.
  Variable cfg : config V.
  Variable C : codec.
  Variable depth : nat.
  Variable neg_read : Z -> bytes -> bytes * bytes.
  Fixpoint each_event (P : stack V -> sevent -> Prop) (evs : list sevent) (S : stack V) : Prop :=
    match evs with [] => True | ev :: r => P S ev /\ each_event P r (sstep cfg C depth neg_read S ev) end.
  Definition sreachable (S : stack V) : Prop := exists k name last evs, S = srun cfg C depth neg_read evs (stack_init k name last).
End EachEvent.
