(** Vocabulary for C85 and C86: brokers that talk to a consumer of either kind over its connections. *)
From Coq Require Import ZArith String List Bool.
From Verif Require Import PyBase Messages SpecWire Cluster Consumer SpecConsumer SpecGroup SpecKafka SpecConn SpecRequest SpecSent SpecBytes Stack SpecStack.
From Verif Require Connection.
Import ListNotations.
Open Scope Z_scope.

Section SpecGroupStack.
  Context {V : Type}.
  Variable C : codec.
  Variable t : text.
  Variable klog : Z -> list (Z * kmsg).
  Variable frames : nat -> list (Z * bytes).
  (** as [kserves] in SpecBytes.v; an answer about stored offsets is about the topic asked for *)
  Definition kserves_group (rq : request) (raw : bytes) : Prop :=
    kserves C t klog rq raw /\ match rq with ROffsetFetch _ t' _ => exists parts rest, kw_offset_fetch ((t', parts) :: rest) raw | _ => True end.
  (** as [answered] in SpecStack.v *)
  Definition answered_group (S : stack V) : Prop := forall n id raw, In (id, raw) (frames n) ->
    exists api key payload, In (api, key) kafka_api_numbers /\ fits 32 id /\
      In (request_frame key id payload) (Connection.c_written (l_conn (k_link S n))) /\
      forall rq, fits_kafka rq -> key = kafka_api rq -> payload = kafka_payload rq -> kserves_group rq raw.
  (** no rebalance, and no consume(t) while another one runs *)
  Definition unshaken (cfg : config V) (S : stack V) (ev : sevent) : Prop := calm t S ev /\ match ev with SLabel l _ => ~ rebalances cfg (k_cons S) l | _ => True end.
End SpecGroupStack.
