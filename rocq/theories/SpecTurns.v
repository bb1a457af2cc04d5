(** Vocabulary for C103: a producer whose program waits for each call before it makes the next. *)
From Coq Require Import ZArith String List Bool.
From Verif Require Import PyBase Constants Cluster Producer SpecProducer SpecFlow.
Import ListNotations.
Open Scope Z_scope.

(** the messages of topic [t] a call that flushes may send: those queued, and the one it was given *)
Definition at_hand (s : producer) (ev : pevent) (t : text) : list pmsg :=
  queue_of s t ++ match ev with
                  | EvProduce _ t' (Ok m) | EvResume _ t' (Ok m) => if list_eqb t t' then [PM (p_next s) m] else []
                  | _ => []
                  end.
(** The program waits: when it calls produce(), flush() or close(), or produce() goes on after its heal(), no request of an
    earlier call is awaited.  And the partitioner sends a message always to the same partition, [home]. *)
Definition waits (home : text -> pmsg -> Z) (s : producer) (ev : pevent) : Prop :=
  match ev with
  | EvProduce part _ _ | EvResume part _ _ | EvFlush part | EvClose part =>
      p_open s = [] /\ forall t m q, In m (at_hand s ev t) -> part m (partitions_of (p_cluster s) t) = Ok q -> q = home t m
  | _ => True
  end.

Section SpecTurns.
  Variable batch_size : option Z.
  Variables acks timeout : Z.
  Variable compress_fails : list pmsg -> option exn.
  Variable serialize_fails : prequest -> option exn.
  (** The broker refused what request [c] carried for a partition: in answer to the request, which was awaited, it gave a
      retriable error code for the partition.  It has not stored these messages. *)
  Definition refused (evs : list pevent) (s0 : producer) (c : Z) (t : text) (p : Z) : Prop :=
    exists e1 resp e2 ps code, evs = e1 ++ EvResponse c resp :: e2 /\ In c (p_open (prun batch_size acks timeout compress_fails serialize_fails e1 s0)) /\
      In (t, ps) resp /\ In (p, code) ps /\ retriable_code code = true.
End SpecTurns.
