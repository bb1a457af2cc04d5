(** Vocabulary for C92: the coordinator responses that arrived. *)
From Coq Require Import ZArith String List Bool.
From Verif Require Import PyBase Messages SpecWire Cluster Zookeeper Consumer SpecKafka SpecConn SpecRequest SpecSent Stack SpecRoute.
From Verif Require Connection.
Import ListNotations.
Open Scope Z_scope.

(** what a member of group [g] has the group's coordinator do: commit offsets and look committed offsets up *)
Definition for_group (rq : request) (g : text) : Prop := match rq with RCommit g' _ | ROffsetFetch g' _ _ => g' = g | _ => False end.

Section SpecNamed.
  Variable frames : nat -> list (Z * bytes).
  (** a frame answers a request whose bytes were written on the connection; if that is a GroupCoordinatorRequest (api 10),
      the frame's payload is a response to it *)
  Definition coordinator_answers (ls : nat -> link) : Prop := forall n id raw, In (id, raw) (frames n) ->
    exists api key payload, In (api, key) kafka_api_numbers /\ fits 32 id /\ In (request_frame key id payload) (written_on ls n) /\
      (key = 10 -> exists code b, kw_coordinator code b raw).
  (** all bytes of a response have arrived that says, without error, that broker [b] is the coordinator; it answers a
      GroupCoordinatorRequest for group [g] *)
  Definition coordinator_arrived (ls : nat -> link) (g : text) (b : Z) : Prop :=
    exists n id raw, In (request_frame 10 id (kafka_payload (RCoordinator g))) (written_on ls n) /\ kw_coordinator 0 b raw /\
      exists before after more, frames n = before ++ (id, raw) :: after /\ l_in (ls n) = frames_bytes (before ++ [(id, raw)]) ++ more.
End SpecNamed.
