(** A producer on its connections: Producer.v over Connection.v.  The requests of flush() go out over the cluster's
    connections (kiel/clients/client.py:76-79, connection.py:101-135), what arrives on them resolves the futures
    send() waits for (client.py:81-102), and the responses are handed to handle_produce_response(). *)
From Coq Require Import ZArith String List Bool.
From Verif Require Import PyBase Primitives Messages Protocol Schemas Request Cluster Producer ProducerWire ResponseRead Stack.
From Verif Require Connection.
Import ListNotations.
Open Scope Z_scope.

Section ProducerStack.
  Variable C : codec.
  Variable compression : Z.
  Variable batch_size : option Z.
  Variables acks timeout : Z.
  Variable depth : nat.
  Variable neg_read : Z -> bytes -> bytes * bytes.
  Notation pstep := (pstep batch_size acks timeout (compress_raises C compression) (serialize_raises C compression)).
  Notation flush := (flush acks timeout (compress_raises C compression) (serialize_raises C compression)).
  Notation produce := (produce batch_size acks timeout (compress_raises C compression) (serialize_raises C compression)).
  Notation produce_resume := (produce_resume batch_size acks timeout (compress_raises C compression) (serialize_raises C compression)).
  Notation close_begin := (close_begin acks timeout (compress_raises C compression) (serialize_raises C compression)).

  (** the producer, whose [p_corr] is the process's last correlation id (request.py:20), the connections by number, and
      the futures the running send()s wait for: of the request with which id, on which connection *)
  Record pstack := PStack {
    y_prod : producer;
    y_link : nat -> link;
    y_wait : list (Z * (nat * nat)) }.
  Definition pstack_init (k : cluster) (corr : Z) : pstack := PStack (producer_init k corr) (fun _ => link_init) [].
  (** the closing flags are those of the connections themselves *)
  Definition prod_flags (Y : pstack) : producer := with_cluster (flags (y_link Y) (p_cluster (y_prod Y))) (y_prod Y).

  (** the ProduceRequest object, made with its correlation id in flush(), producer.py:165-169 *)
  Definition produce_object (rq : prequest) : res Connection.request :=
    kwargs <- produce_kwargs C compression rq ;;
    '(obj, _) <- Connection.request_of "produce"%string ProduceRequest kwargs (pq_corr rq - 1) ;;
    Ok obj.
  (** self.cluster[broker_id].send(request), client.py:77; [wr b] is what becomes of the write *)
  Definition send_produce (wr : Z -> option exn) (Y : pstack) (rq : prequest) : pstack :=
    match dget (k_conns (p_cluster (y_prod Y))) (pq_leader rq), produce_object rq with
    | Some cn, Ok obj =>
        let n := cc_id cn in
        match fst (Connection.conn_send obj (wr (pq_leader rq)) (l_conn (y_link Y n))) with
        | Ok f => PStack (y_prod Y) (put n (happens C depth neg_read (Connection.EvSend obj (wr (pq_leader rq))) (y_link Y n)) (y_link Y))
                    ((pq_corr rq, (n, f)) :: y_wait Y)
        | Err _ => Y
        end
    | _, _ => Y
    end.

  (** the requests of the send() a piece of code ends in *)
  Definition awaited (s : producer) (ev : pevent) : list prequest :=
    match ev with
    | EvProduce part t mk => match fst (produce part t mk s) with Flushing rqs => rqs | _ => [] end
    | EvResume part t mk => match fst (produce_resume part t mk s) with Flushing rqs => rqs | _ => [] end
    | EvFlush part => match fst (flush part s) with Ok rqs => rqs | Err _ => [] end
    | EvClose part => match fst (close_begin part s) with Ok rqs => rqs | Err _ => [] end
    | _ => []
    end.

  Inductive yevent :=
  | YCall (ev : pevent) (wr : Z -> option exn)               (* as in Producer.v, except answers and failures *)
  | YConn (n : nat) (ev : Connection.event)                  (* something happens on a connection, except that a client sends *)
  | YMeta (n : nat) (topics : list text) (wr : option exn)   (* get_metadata() sends on a connection, cluster.py:160-166 *)
  | YDone (corr : Z).                                        (* the event loop resumes send() with a future that is done; the model lets this happen
                                                                also after a handler of the same send() raised *)

  (** what the future of the request with this id holds; [None]: nothing, or a response with a topic name that is null
      or not UTF-8 *)
  Definition answer_to (Y : pstack) (corr : Z) : option (res presponse) :=
    match find (fun w => fst w =? corr) (y_wait Y) with
    | Some (_, (n, f)) =>
        match find (fun fo => Nat.eqb (fst fo) f) (Connection.c_done (l_conn (y_link Y n))) with
        | Some (_, Connection.Got _ _ v) => option_map Ok (codes_view v)
        | Some (_, Connection.Fail e) => Some (Err e)
        | None => None
        end
    | None => None
    end.

  (** the events of Producer.v an event amounts to *)
  Definition pevents_of (Y : pstack) (ev : yevent) : list pevent :=
    match ev with
    | YCall (EvResponse _ _) _ | YCall (EvFail _ _) _ | YCall EvCorr _ => []
    | YCall ev _ => [EvCluster (flags (y_link Y) (p_cluster (y_prod Y))); ev]
    | YConn _ _ => []
    | YMeta _ topics _ =>
        match Connection.request_of "metadata"%string MetadataRequest [("topics"%string, PList (map PStr topics))] (p_corr (y_prod Y)) with
        | Ok _ => [EvCorr]
        | Err _ => []
        end
    | YDone corr => match answer_to Y corr with
                    | Some (Ok resp) => [EvResponse corr resp]
                    | Some (Err e) => [EvFail corr e]
                    | None => []
                    end
    end.

  Definition ystep (Y : pstack) (ev : yevent) : pstack :=
    match ev with
    | YCall (EvResponse _ _) _ | YCall (EvFail _ _) _ | YCall EvCorr _ => Y
    | YCall ev wr =>
        let s1 := prod_flags Y in
        let s2 := pstep s1 ev in
        (* when send() raises, the requests before the one that raised are written, and waited for by nobody *)
        match awaited s1 ev with
        | [] =>
            let Y2 := fold_left (send_produce wr) (skipn (length (p_wire s1)) (p_wire s2)) (PStack s2 (y_link Y) (y_wait Y)) in
            PStack s2 (y_link Y2) (y_wait Y)
        | rqs => fold_left (send_produce wr) rqs (PStack s2 (y_link Y) (y_wait Y))
        end
    | YConn n (Connection.EvSend _ _) => Y
    | YConn n ev => PStack (y_prod Y) (put n (happens C depth neg_read ev (y_link Y n)) (y_link Y)) (y_wait Y)
    | YMeta n topics wr =>
        match Connection.request_of "metadata"%string MetadataRequest [("topics"%string, PList (map PStr topics))] (p_corr (y_prod Y)) with
        | Ok (obj, _) => PStack (pstep (y_prod Y) EvCorr) (put n (happens C depth neg_read (Connection.EvSend obj wr) (y_link Y n)) (y_link Y)) (y_wait Y)
        | Err _ => Y
        end
    | YDone corr =>
        match answer_to Y corr with
        | None => Y
        | Some (Ok resp) => PStack (pstep (y_prod Y) (EvResponse corr resp)) (y_link Y) (filter (fun w => negb (fst w =? corr)) (y_wait Y))
        | Some (Err e) => PStack (pstep (y_prod Y) (EvFail corr e)) (y_link Y) (filter (fun w => negb (fst w =? corr)) (y_wait Y))
        end
    end.
  Definition yrun (evs : list yevent) (Y : pstack) : pstack := fold_left ystep evs Y.
  (** all events of Producer.v a history amounts to *)
  Fixpoint pevents (evs : list yevent) (Y : pstack) : list pevent :=
    match evs with [] => [] | ev :: r => pevents_of Y ev ++ pevents r (ystep Y ev) end.
End ProducerStack.
