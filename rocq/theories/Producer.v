(** kiel/clients/producer.py as a state machine.  Coroutines are cut at their yields: each event below
    is one piece of code that runs without interruption, and events may come in any order, so that
    any number of produce(), flush() and send() calls may overlap. *)
From Coq Require Import ZArith String List Bool.
From Verif Require Import PyBase Constants Cluster.
Import ListNotations.
Open Scope Z_scope.

(** a messages.Message object; [pm_id] is its identity *)
Record pmsg := PM { pm_id : nat; pm_msg : pymsg }.
(** topic -> partition -> messages *)
Definition batch := dict text (dict Z (list pmsg)).

(** ProduceRequest with its TopicRequests and PartitionRequests (protocol/produce.py:8-33); the
    message_set is given by the messages it is made of *)
Record prequest := PReq {
  pq_corr : Z; pq_leader : Z; pq_acks : Z; pq_timeout : Z;
  pq_topics : batch }.

(** the fields of a ProduceResponse the handler reads: topic name, partition id, error code *)
Definition presponse := list (text * list (Z * Z)).

(** Producer.__init__, producer.py:38-69, the fields that change.  [p_corr]: the last correlation id
    given out (request.py:12-22).  Ghost fields: [p_next] counts messages, [p_open] are the requests whose
    future is awaited, [p_wire] the requests written to a connection, [p_settled] the messages dropped
    by the handler with the code the broker gave, [p_lost] those a failing flush() dropped. *)
Record producer := Prod {
  p_unsent : dict text (list pmsg);
  p_sent : dict Z batch;
  p_heal : bool;
  p_closing : bool;
  p_cluster : cluster;
  p_corr : Z;
  p_next : nat;
  p_open : list Z;
  p_wire : list prequest;
  p_settled : list (pmsg * option Z);
  p_lost : list pmsg }.
Definition producer_init (k : cluster) (corr : Z) : producer := Prod [] [] false false k corr O [] [] [] [].

Definition with_unsent (u : dict text (list pmsg)) (s : producer) : producer :=
  Prod u (p_sent s) (p_heal s) (p_closing s) (p_cluster s) (p_corr s) (p_next s) (p_open s) (p_wire s) (p_settled s) (p_lost s).
Definition with_cluster (k : cluster) (s : producer) : producer :=
  Prod (p_unsent s) (p_sent s) (p_heal s) (p_closing s) k (p_corr s) (p_next s) (p_open s) (p_wire s) (p_settled s) (p_lost s).
Definition with_heal (b : bool) (s : producer) : producer :=
  Prod (p_unsent s) (p_sent s) b (p_closing s) (p_cluster s) (p_corr s) (p_next s) (p_open s) (p_wire s) (p_settled s) (p_lost s).

(** unsent_count, producer.py:71-76 *)
Definition unsent_count (s : producer) : Z := fold_right (fun tm n => zlen (snd tm) + n) 0 (p_unsent s).

(** queue_retries(), producer.py:117-125 *)
Definition queue_retries (topic : text) (msgs : list pmsg) (s : producer) : producer :=
  let '(q, u) := @ddefault text (list pmsg) _ [] (p_unsent s) topic in
  with_heal true (with_unsent (dset u topic (q ++ msgs)) s).

(** cluster.topics[topic], a defaultdict: an unknown topic gets an empty entry *)
Definition topic_partitions (topic : text) (k : cluster) : list Z * cluster :=
  let '(ps, t) := @ddefault text (list Z) _ [] (k_topics k) topic in
  (ps, Cl (k_conns k) t (k_leaders k) (k_opened k) (k_clock k) (k_log k)).

Definition ordered := dict Z batch.   (* leader -> topic -> partition -> message list *)
(** ordered[leader][topic][partition].append(msg), producer.py:161 *)
Definition add_ordered (o : ordered) (leader : Z) (topic : text) (p : Z) (m : pmsg) : ordered :=
  let '(b, o1) := @ddefault Z batch _ [] o leader in
  let '(d, b1) := @ddefault text (dict Z (list pmsg)) _ [] b topic in
  let '(l, d1) := @ddefault Z (list pmsg) _ [] d p in
  dset o1 leader (dset b1 topic (dset d1 p (l ++ [m]))).

(** the partitioner: message (its key), the topic's partitions -> a partition or an exception.  It may
    differ from message to message (the default one is random). *)
Definition partitioner := pmsg -> list Z -> res Z.

(** lines 153-161 *)
Fixpoint order_msgs (part : partitioner) (topic : text) (msgs : list pmsg) (o : ordered)
    (retry : dict text (list pmsg)) (k : cluster) : res (ordered * dict text (list pmsg)) * cluster :=
  match msgs with
  | [] => (Ok (o, retry), k)
  | m :: rest =>
      let '(ps, k1) := topic_partitions topic k in
      match part m ps with
      | Err e => (Err e, k1)
      | Ok p =>
          let '(rl, k2) := get_leader topic p k1 in
          match rl with
          | Err e => (Err e, k2)
          | Ok l =>
              if negb (dmem (k_conns k2) l) then
                let '(q, retry1) := @ddefault text (list pmsg) _ [] retry topic in
                order_msgs part topic rest o (dset retry1 topic (q ++ [m])) k2
              else order_msgs part topic rest (add_ordered o l topic p m) retry k2
          end
      end
  end.

(** line 152: [items] are the items of unsent in the order drain() takes them.  Returns also the items
    not taken. *)
Fixpoint order_topics (part : partitioner) (items : dict text (list pmsg)) (o : ordered)
    (retry : dict text (list pmsg)) (k : cluster)
  : res (ordered * dict text (list pmsg)) * dict text (list pmsg) * cluster :=
  match items with
  | [] => (Ok (o, retry), [], k)
  | (topic, msgs) :: rest =>
      match order_msgs part topic msgs o retry k with
      | (Err e, k1) => (Err e, rest, k1)
      | (Ok (o1, r1), k1) => order_topics part rest o1 r1 k1
      end
  end.

(** drain() of a dict (iterables.py:3-28): popitem() until empty takes the newest entry first *)
Definition drain_items {K V} (d : dict K V) : list (K * V) := rev d.

(** self.sent[corr][topic][partition] = msgs, producer.py:183-185 *)
Definition record_sent (sent : dict Z batch) (corr : Z) (topic : text) (p : Z) (msgs : list pmsg) : dict Z batch :=
  let '(b, s1) := @ddefault Z batch _ [] sent corr in
  let '(d, b1) := @ddefault text (dict Z (list pmsg)) _ [] b topic in
  dset s1 corr (dset b1 topic (dset d p msgs)).

Section Producer.
  (** the configuration: batch_size (None or a number), required_acks, ack_timeout *)
  Variable batch_size : option Z.
  Variables acks timeout : Z.
  (** the exception MessageSet.compressed raises for these messages, if any *)
  Variable compress_fails : list pmsg -> option exn.
  (** the exception request.serialize() raises, if any *)
  Variable serialize_fails : prequest -> option exn.

  (** lines 174-185 *)
  Fixpoint build_partitions (corr : Z) (topic : text) (parts : dict Z (list pmsg)) (acc : dict Z (list pmsg))
      (sent : dict Z batch) : res (dict Z (list pmsg)) * dict Z batch :=
    match parts with
    | [] => (Ok acc, sent)
    | (p, msgs) :: rest =>
        match compress_fails msgs with
        | Some e => (Err e, sent)
        | None => build_partitions corr topic rest (acc ++ [(p, msgs)]) (record_sent sent corr topic p msgs)
        end
    end.
  (** lines 170-173 *)
  Fixpoint build_topics (corr : Z) (topics : batch) (acc : batch)
      (sent : dict Z batch) : res (batch) * dict Z batch :=
    match topics with
    | [] => (Ok acc, sent)
    | (t, parts) :: rest =>
        match build_partitions corr t parts [] sent with
        | (Err e, s1) => (Err e, s1)
        | (Ok ps, s1) => build_topics corr rest (acc ++ [(t, ps)]) s1
        end
    end.
  (** lines 163-169; each ProduceRequest takes the next correlation id *)
  Fixpoint build_requests (o : ordered) (corr : Z) (acc : list prequest) (sent : dict Z batch)
    : res (list prequest) * Z * dict Z batch :=
    match o with
    | [] => (Ok acc, corr, sent)
    | (leader, topics) :: rest =>
        let c := corr + 1 in
        match build_topics c topics [] sent with
        | (Err e, s1) => (Err e, c, s1)
        | (Ok ts, s1) => build_requests rest c (acc ++ [PReq c leader acks timeout ts]) s1
        end
    end.

  (** the synchronous part of send(), client.py:76-79: requests are written in order, except to a
      connection that is closing *)
  Fixpoint write_all (rqs : list prequest) (k : cluster) (wire : list prequest) : res unit * list prequest :=
    match rqs with
    | [] => (Ok tt, wire)
    | rq :: rest =>
        match dget (k_conns k) (pq_leader rq) with
        | None => (Err EKey, wire)
        | Some c =>
            if cc_closing c then write_all rest k wire
            else match serialize_fails rq with
                 | Some e => (Err e, wire)
                 | None => write_all rest k (wire ++ [rq])
                 end
        end
    end.

  (** messages in a list of partitions, topics, requests, in tables *)
  Definition part_msgs (ps : dict Z (list pmsg)) : list pmsg := flat_map snd ps.
  Definition batch_msgs (b : batch) : list pmsg := flat_map (fun x => part_msgs (snd x)) b.
  Definition ordered_msgs (o : dict Z batch) : list pmsg := flat_map (fun x => batch_msgs (snd x)) o.
  Definition queue_msgs (u : dict text (list pmsg)) : list pmsg := flat_map snd u.

  (** the messages of [a] that are not among [b] (ghost) *)
  Definition without (a b : list pmsg) : list pmsg :=
    filter (fun m => negb (existsb (fun n => Nat.eqb (pm_id n) (pm_id m)) b)) a.

  (** flush(), producer.py:127-190, up to the point where send() waits for the first response.  Returns
      the requests whose futures are awaited. *)
  Definition flush (part : partitioner) (s : producer) : res (list prequest) * producer :=
    match p_unsent s with
    | [] => (Ok [], s)
    | _ =>
        let '(r1, rest, k1) := order_topics part (drain_items (p_unsent s)) [] [] (p_cluster s) in
        let s1 := with_cluster k1 (with_unsent (rev rest) s) in
        let taken := without (queue_msgs (p_unsent s)) (queue_msgs rest) in
        match r1 with
        | Err e => (Err e, Prod (p_unsent s1) (p_sent s1) (p_heal s1) (p_closing s1) (p_cluster s1) (p_corr s1) (p_next s1)
                             (p_open s1) (p_wire s1) (p_settled s1) (p_lost s1 ++ taken))
        | Ok (o, retry) =>
            let '(r2, corr, sent) := build_requests o (p_corr s1) [] (p_sent s1) in
            let s2 := Prod (p_unsent s1) sent (p_heal s1) (p_closing s1) (p_cluster s1) corr (p_next s1) (p_open s1)
                        (p_wire s1) (p_settled s1) (p_lost s1) in
            match r2 with
            | Err e => (Err e, Prod (p_unsent s2) (p_sent s2) (p_heal s2) (p_closing s2) (p_cluster s2) (p_corr s2) (p_next s2)
                                 (p_open s2) (p_wire s2) (p_settled s2) (p_lost s2 ++ without taken (ordered_msgs sent)))
            | Ok rqs =>
                let s3 := fold_left (fun s' tm => queue_retries (fst tm) (snd tm) s') retry s2 in
                let '(r3, wire) := write_all rqs (p_cluster s3) (p_wire s3) in
                let s4 := Prod (p_unsent s3) (p_sent s3) (p_heal s3) (p_closing s3) (p_cluster s3) (p_corr s3) (p_next s3)
                            (match r3 with Ok _ => p_open s3 ++ map pq_corr rqs | Err _ => p_open s3 end)
                            wire (p_settled s3) (p_lost s3) in
                (match r3 with Ok _ => Ok rqs | Err e => Err e end, s4)
            end
        end
    end.

  (** self.sent[corr][name].pop(partition), producer.py:213-215 *)
  Definition pop_sent (sent : dict Z batch) (corr : Z) (name : text) (p : Z) : res (list pmsg) * dict Z batch :=
    let '(b, s1) := @ddefault Z batch _ [] sent corr in
    let '(d, b1) := @ddefault text (dict Z (list pmsg)) _ [] b name in
    match dget d p with
    | None => (Err EKey, dset s1 corr (dset b1 name d))
    | Some msgs => (Ok msgs, dset s1 corr (dset b1 name (ddel d p)))
    end.

  Definition with_sent (x : dict Z batch) (s : producer) : producer :=
    Prod (p_unsent s) x (p_heal s) (p_closing s) (p_cluster s) (p_corr s) (p_next s) (p_open s) (p_wire s) (p_settled s) (p_lost s).

  (** lines 208-221 *)
  Fixpoint handle_partitions (corr : Z) (name : text) (ps : list (Z * Z)) (s : producer) : res unit * producer :=
    match ps with
    | [] => (Ok tt, s)
    | (p, code) :: rest =>
        if code =? no_error then handle_partitions corr name rest s
        else if is_retriable code then
          match pop_sent (p_sent s) corr name p with
          | (Err e, sent) => (Err e, with_sent sent s)
          | (Ok msgs, sent) => handle_partitions corr name rest (queue_retries name msgs (with_sent sent s))
          end
        else match error_name code with
             | Err e => (Err e, s)
             | Ok _ => handle_partitions corr name rest s
             end
    end.
  Fixpoint handle_topics (corr : Z) (resp : presponse) (s : producer) : res unit * producer :=
    match resp with
    | [] => (Ok tt, s)
    | (name, ps) :: rest =>
        match handle_partitions corr name ps s with
        | (Err e, s1) => (Err e, s1)
        | (Ok _, s1) => handle_topics corr rest s1
        end
    end.

  (** the code the response gives for a partition (ghost) *)
  Definition code_for (resp : presponse) (t : text) (p : Z) : option Z :=
    match dget resp t with Some ps => dget ps p | None => None end.
  Definition settle (resp : presponse) (b : batch) : list (pmsg * option Z) :=
    flat_map (fun tp => flat_map (fun pm => map (fun m => (m, code_for resp (fst tp) (fst pm))) (snd pm)) (snd tp)) b.

  (** handle_produce_response(), producer.py:192-223 *)
  Definition handle_produce_response (corr : Z) (resp : presponse) (s : producer) : res unit * producer :=
    match handle_topics corr resp s with
    | (Err e, s1) => (Err e, s1)
    | (Ok _, s1) =>
        match dget (p_sent s1) corr with
        | None => (Err EKey, s1)
        | Some b => (Ok tt, Prod (p_unsent s1) (ddel (p_sent s1) corr) (p_heal s1) (p_closing s1) (p_cluster s1) (p_corr s1) (p_next s1)
                               (p_open s1) (p_wire s1) (p_settled s1 ++ settle resp b) (p_lost s1))
        end
    end.

  (** lines 105-115 of produce(): queue the message ([mk]: the Message made by key_maker and serializer, or
      the exception they raise), flush if the batch is full *)
  Definition flush_due (s : producer) : bool :=
    match batch_size with None => true | Some n => (n =? 0) || (n <=? unsent_count s) end.
  Definition enqueue (topic : text) (mk : res pymsg) (s : producer) : res unit * producer :=
    let '(q, u) := @ddefault text (list pmsg) _ [] (p_unsent s) topic in
    match mk with
    | Err e => (Err e, with_unsent u s)
    | Ok m =>
        (Ok tt, Prod (dset u topic (q ++ [PM (p_next s) m])) (p_sent s) (p_heal s) (p_closing s) (p_cluster s) (p_corr s)
                  (S (p_next s)) (p_open s) (p_wire s) (p_settled s) (p_lost s))
    end.
  (** what a piece of produce() ends with: a heal() is awaited first (line 99), or it is through (lines
      94-95, 102-103), or raised, or awaits the answers to its flush *)
  Inductive produced := AwaitHeal | Through | Raised (e : exn) | Flushing (rqs : list prequest).
  (** from line 101 on *)
  Definition produce_resume (part : partitioner) (topic : text) (mk : res pymsg) (s : producer) : produced * producer :=
    if negb (dmem (k_topics (p_cluster s)) topic) then (Through, s)
    else
      match enqueue topic mk s with
      | (Err e, s1) => (Raised e, s1)
      | (Ok _, s1) =>
          if flush_due s1 then
            match flush part s1 with
            | (Ok rqs, s2) => (Flushing rqs, s2)
            | (Err e, s2) => (Raised e, s2)
            end
          else (Through, s1)
      end.
  (** produce(), producer.py:78-115, up to its first yield *)
  Definition produce (part : partitioner) (topic : text) (mk : res pymsg) (s : producer) : produced * producer :=
    if p_closing s then (Through, s)
    else if negb (dmem (k_topics (p_cluster s)) topic) then (AwaitHeal, s)
    else produce_resume part topic mk s.

  (** close(), client.py:34-45 with wind_down(), producer.py:225-230, up to the flush *)
  Definition close_begin (part : partitioner) (s : producer) : res (list prequest) * producer :=
    flush part (Prod (p_unsent s) (p_sent s) (p_heal s) true (p_cluster s) (p_corr s) (p_next s) (p_open s) (p_wire s) (p_settled s) (p_lost s)).

  (** what can happen to a producer *)
  Inductive pevent :=
  | EvProduce (part : partitioner) (topic : text) (mk : res pymsg)   (* produce() is called *)
  | EvResume (part : partitioner) (topic : text) (mk : res pymsg)    (* a produce() resumes after its heal *)
  | EvFlush (part : partitioner)                                     (* flush() is called *)
  | EvClose (part : partitioner)                                     (* close() is called *)
  | EvResponse (corr : Z) (resp : presponse)                         (* a request is answered *)
  | EvFail (corr : Z) (e : exn)                                      (* a request fails, client.py:85-95 *)
  | EvHealed                                                         (* heal_cluster = False, client.py:106 *)
  | EvCluster (k : cluster)                                          (* the metadata tables change *)
  | EvCorr.                                                          (* another request takes a correlation id *)

  (** a future completes once: events for requests not awaited do nothing *)
  Definition answered (corr : Z) (s : producer) : producer :=
    Prod (p_unsent s) (p_sent s) (p_heal s) (p_closing s) (p_cluster s) (p_corr s) (p_next s)
      (filter (fun c => negb (c =? corr)) (p_open s)) (p_wire s) (p_settled s) (p_lost s).
  Definition pstep (s : producer) (ev : pevent) : producer :=
    match ev with
    | EvProduce part topic mk => snd (produce part topic mk s)
    | EvResume part topic mk => snd (produce_resume part topic mk s)
    | EvFlush part => snd (flush part s)
    | EvClose part => snd (close_begin part s)
    | EvResponse corr resp =>
        if smem (p_open s) corr then snd (handle_produce_response corr resp (answered corr s)) else s
    | EvFail corr e =>
        if smem (p_open s) corr
        then with_heal (match e with EStreamClosed => p_heal s | _ => true end) (answered corr s) else s
    | EvHealed => with_heal false s
    | EvCluster k => with_cluster k s
    | EvCorr => Prod (p_unsent s) (p_sent s) (p_heal s) (p_closing s) (p_cluster s) (p_corr s + 1) (p_next s) (p_open s)
                  (p_wire s) (p_settled s) (p_lost s)
    end.
  Definition prun (evs : list pevent) (s : producer) : producer := fold_left pstep evs s.
End Producer.
