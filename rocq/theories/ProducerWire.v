(** The bytes of produce requests: how produce() makes its messages and flush() its ProduceRequest objects
    (kiel/clients/producer.py), and what sending them writes.  [compress_raises] and [serialize_raises] are what the
    producer model (Producer.v) takes as parameters. *)
From Coq Require Import ZArith String List Bool.
From Verif Require Import PyBase Primitives Messages Protocol Schemas Request Cluster Producer.
Import ListNotations.
Open Scope Z_scope.

(** the Message made by produce(), producer.py:106-111; [key] and [value] are what key_maker(message) and
    serializer(message) return or raise; arguments are evaluated in this order *)
Definition make_message (key value : res pyval) : res pymsg :=
  k <- key ;; v <- value ;; Ok (Msg PNone (PInt 0) (PInt 0) k v).

(** a list built by a loop whose body may raise *)
Fixpoint map_res {A B} (f : A -> res B) (l : list A) : res (list B) :=
  match l with
  | [] => Ok []
  | x :: r => y <- f x ;; ys <- map_res f r ;; Ok (y :: ys)
  end.

Section ProducerWire.
  Variable C : codec.            (* gzip and snappy *)
  Variable compression : Z.      (* self.compression; None is 0 *)

  (** MessageSet.compressed(self.compression, msgs), producer.py:178-180 *)
  Definition set_of (ms : list pmsg) : res (list (pyval * pymsg)) := ms_compressed C compression (map pm_msg ms).
  Definition compress_raises (ms : list pmsg) : option exn := match set_of ms with Ok _ => None | Err e => Some e end.

  (** producer.py:175-182 *)
  Definition partition_object (pm : Z * list pmsg) : res pyval :=
    s <- set_of (snd pm) ;; Ok (PObj [("partition_id", PInt (fst pm)); ("message_set", PMsgSet s)]%string).
  (** producer.py:170-174 *)
  Definition topic_object (tp : text * dict Z (list pmsg)) : res pyval :=
    ps <- map_res partition_object (snd tp) ;; Ok (PObj [("name", PStr (fst tp)); ("partitions", PList ps)]%string).
  (** producer.py:165-169 *)
  Definition produce_kwargs (rq : prequest) : res (dict string pyval) :=
    ts <- map_res topic_object (pq_topics rq) ;;
    Ok [("required_acks", PInt (pq_acks rq)); ("timeout", PInt (pq_timeout rq)); ("topics", PList ts)]%string.
  (** what Connection.send writes for it, connection.py:112-125; the request took its correlation id when it was made,
      request.py:46-52 *)
  Definition produce_wire (rq : prequest) : res bytes :=
    kwargs <- produce_kwargs rq ;;
    '(attrs, _) <- request_init "produce"%string ProduceRequest kwargs (pq_corr rq - 1) ;;
    request_bytes ProduceRequest attrs.
  Definition serialize_raises (rq : prequest) : option exn := match produce_wire rq with Ok _ => None | Err e => Some e end.
End ProducerWire.
