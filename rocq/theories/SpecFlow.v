(** Vocabulary for C62-C64: what a producer accepted, what it put on the wire, in which order. *)
From Coq Require Import ZArith String List Bool.
From Verif Require Import PyBase Constants Cluster Producer SpecProducer.
Import ListNotations.
Open Scope Z_scope.

(** [in_order a b]: [a] is [b] with some items left out *)
Inductive in_order {A} : list A -> list A -> Prop :=
| io_nil : in_order [] []
| io_skip x a b : in_order a b -> in_order a (x :: b)
| io_take x a b : in_order a b -> in_order (x :: a) (x :: b).

Section SpecFlow.
  Variable batch_size : option Z.
  Variables acks timeout : Z.
  Variable compress_fails : list pmsg -> option exn.
  Variable serialize_fails : prequest -> option exn.
  Notation pstep := (pstep batch_size acks timeout compress_fails serialize_fails).

  (** the messages produce() calls were given and accepted, with their topics, in the order of acceptance *)
  Definition accepts (s : producer) (ev : pevent) : list (text * pymsg) :=
    match ev with
    | EvProduce _ t (Ok m) | EvResume _ t (Ok m) => if Nat.eqb (p_next (pstep s ev)) (p_next s) then [] else [(t, m)]
    | _ => []
    end.
  Fixpoint accepted (evs : list pevent) (s : producer) : list (text * pymsg) :=
    match evs with [] => [] | ev :: rest => accepts s ev ++ accepted rest (pstep s ev) end.
  Definition for_topic (t : text) (l : list (text * pymsg)) : list pymsg := map snd (filter (fun tm => eqb (fst tm) t) l).

  (** nothing goes back into the queue: the leaders of the queued messages are connected when a flush may happen, and no
      broker answers with a retriable error *)
  Definition steady (s : producer) (ev : pevent) : Prop :=
    match ev with
    | EvFlush part | EvClose part => forall t m, In m (queue_of s t) -> leaderless part (p_cluster s) t m = false
    | EvProduce part t mk | EvResume part t mk =>
        (forall t' m, In m (queue_of s t') -> leaderless part (p_cluster s) t' m = false) /\
        (forall m, mk = Ok m -> leaderless part (p_cluster s) t (PM (p_next s) m) = false)
    | EvResponse _ resp => any_retriable resp = false
    | _ => True
    end.
  Fixpoint each_event (ok : producer -> pevent -> Prop) (evs : list pevent) (s : producer) : Prop :=
    match evs with [] => True | ev :: rest => ok s ev /\ each_event ok rest (pstep s ev) end.
End SpecFlow.
