(** kiel/clients/consumer.py, single.py and grouped.py (without naive_allocator, see Zookeeper.v), with the send()
    coroutine of client.py, as a state machine.  Coroutines are cut at their yields: a step of the machine is one piece of
    code that runs without interruption, and steps may come in any order, so that any number of consume(),
    commit_offsets() and determine_coordinator() calls may overlap.  What brokers, network and ZooKeeper do is in the
    labels.  Simplifications: the allocator's callbacks, which kazoo runs in a thread of its own, happen between pieces
    and not inside one; cluster.heal() changes the cluster in any way whatsoever ([Cluster] labels) before it ends. *)
From Coq Require Import ZArith String List Bool.
From Verif Require Import PyBase Constants Protocol Schemas Request Cluster Zookeeper.
Import ListNotations.
Open Scope Z_scope.

(** CONSUMER_REPLICA_ID, constants.py:34 *)
Definition CONSUMER_REPLICA_ID : Z := -1.
(** SingleConsumer.BEGINNING and END, single.py:32-34 *)
Definition BEGINNING : Z := -2.
Definition END_ : Z := -1.

(** the requests the consumers send (protocol/fetch.py, offset.py, offset_fetch.py, offset_commit.py, coordinator.py) *)
Inductive request :=
| RFetch (replica max_wait min_bytes : Z) (topic : text) (parts : list (Z * (Z * Z)))    (* partition_id, offset, max_bytes *)
| ROffset (replica : Z) (topic : text) (parts : list (Z * (pyval * Z)))                  (* partition_id, time, max_offsets *)
| ROffsetFetch (group topic : text) (parts : list Z)
| RCommit (group : text) (topics : list (text * list (Z * (Z * text))))                  (* partition_id, offset, metadata *)
| RCoordinator (group : text).
(** the fields of the responses the handlers read *)
Inductive response :=
| PFetch (topics : list (text * list (Z * (Z * list (Z * pymsg)))))     (* partition_id, error_code, (offset, message)s *)
| POffset (topics : list (text * list (Z * (Z * list Z))))              (* partition_id, error_code, offsets *)
| POffsetFetch (topics : list (text * list (Z * (Z * Z))))              (* partition_id, error_code, offset *)
| PCommit (topics : list (text * list (Z * Z)))                         (* partition_id, error_code *)
| PCoordinator (error_code coordinator_id : Z).
(** a connection parses the response with the class of the request's api (connection.py:137-180) *)
Definition answers (rq : request) (r : response) : bool :=
  match rq, r with
  | RFetch _ _ _ _ _, PFetch _ | ROffset _ _ _, POffset _ | ROffsetFetch _ _ _, POffsetFetch _
  | RCommit _ _, PCommit _ | RCoordinator _, PCoordinator _ _ => true
  | _, _ => false
  end.

(** the request objects as the protocol classes see them: api name, parts, keyword arguments *)
Definition obj (l : list (string * pyval)) : pyval := PObj l.
Definition request_kwargs (rq : request) : string * fields * dict string pyval :=
  match rq with
  | RFetch replica mw mb topic parts =>
      ("fetch", FetchRequest, [("replica_id", PInt replica); ("max_wait_time", PInt mw); ("min_bytes", PInt mb);
        ("topics", PList [obj [("name", PStr topic); ("partitions", PList (map (fun p =>
           obj [("partition_id", PInt (fst p)); ("offset", PInt (fst (snd p))); ("max_bytes", PInt (snd (snd p)))]) parts))]])])%string
  | ROffset replica topic parts =>
      ("offset", OffsetRequest, [("replica_id", PInt replica);
        ("topics", PList [obj [("name", PStr topic); ("partitions", PList (map (fun p =>
           obj [("partition_id", PInt (fst p)); ("time", fst (snd p)); ("max_offsets", PInt (snd (snd p)))]) parts))]])])%string
  | ROffsetFetch group topic parts =>
      ("offset_fetch", OffsetFetchRequest, [("group_name", PStr group);
        ("topics", PList [obj [("name", PStr topic); ("partitions", PList (map PInt parts))]])])%string
  | RCommit group topics =>
      ("offset_commit", OffsetCommitV0Request, [("group", PStr group);
        ("topics", PList (map (fun t => obj [("name", PStr (fst t)); ("partitions", PList (map (fun p =>
           obj [("partition_id", PInt (fst p)); ("offset", PInt (fst (snd p))); ("metadata", PStr (snd (snd p)))]) (snd t)))]) topics))])%string
  | RCoordinator group => ("group_coordinator", GroupCoordinatorRequest, [("group", PStr group)])%string
  end.
(** message.serialize() and the framing, connection.py:122-123: the bytes written for a request *)
Definition request_wire (last_id : Z) (rq : request) : res bytes :=
  let '(api, fs, kwargs) := request_kwargs rq in
  '(attrs, _) <- request_init api fs kwargs last_id ;;
  request_bytes fs attrs.

(** the [start] argument: a number (BEGINNING, END or epoch), a datetime (in microseconds since the epoch) or a
    timedelta (in microseconds; [now] is what the clock says) *)
Inductive start_arg := StInt (n : Z) | StDatetime (us : Z) | StTimedelta (now us : Z).

(** which class; for GroupedConsumer its group, partition_allocator, autocommit and self.name *)
Inductive mode := Single | Grouped (group : text) (fn : list text -> list text -> res mapping) (autocommit : bool) (name : text).
(** what a consumer is constructed with, consumer.py:26-42 and grouped.py:30-57, and the functions outside the model *)
Record config (V : Type) := Cfg {
  deser : pyval -> res V;                 (* the deserializer, called with msg.value *)
  truthy : V -> bool;                     (* bool(value) *)
  float_repr : Z -> text;                 (* str() of a float of that many microseconds *)
  max_wait : Z; min_bytes : Z; max_bytes : Z;
  unsendable : request -> option exn;     (* the exception message.serialize() raises, if any *)
  md : mode }.
Arguments deser {V}. Arguments truthy {V}. Arguments float_repr {V}. Arguments max_wait {V}. Arguments min_bytes {V}.
Arguments max_bytes {V}. Arguments unsendable {V}. Arguments md {V}.

Section Consumer.
  Context {V : Type}.
  Variable cfg : config V.

  (** start_to_timestamp(), single.py:130-145: total_seconds() is a float *)
  Definition start_to_timestamp (st : start_arg) : pyval :=
    match st with
    | StInt n => PInt n
    | StDatetime us => PFloat (float_repr cfg us)
    | StTimedelta now us => PFloat (float_repr cfg (now * 1000000 - us))
    end.

  (** what a consume() call returns: None or a list *)
  Inductive rv := RvNone | RvList (l : list V).
  (** what a handler returns *)
  Inductive hval := HNone | HMsgs (l : list V) | HBool (b : bool) | HPair (a b : bool).
  (** where a coroutine goes on after the send() it awaits *)
  Inductive cont :=
  | KOffsets (topic : text) (rq : option request)    (* determine_offsets() in consume(); the request it repeats *)
  | KFetch (topic : text)                            (* consume(), line 130 *)
  | KCommit (metadata : text) (ret : rv)             (* commit_offsets(), and what the caller returns afterwards *)
  | KCoord (asked : Z) (rest : list Z).              (* determine_coordinator(), line 114 *)
  (** where a coroutine waits *)
  Inductive pc :=
  | PSend (k : cont) (waiting : dict Z request) (results : dict Z hval)   (* client.py:84 *)
  | PHeal (k : cont) (results : dict Z hval)                              (* client.py:105 *)
  | PTopicHeal (topic : text).                                            (* consumer.py:100 *)
  Inductive op := OpConsume (topic : text) (start : option start_arg) | OpCommit (metadata : option text) | OpCoordinator.

  (** __init__ of client.py:19-25, consumer.py:26-47 and grouped.py:30-57, the fields that change; ghost: the running
      calls, the requests written, the calls that ended *)
  Record consumer := Cons {
    c_offsets : dict text (dict Z Z);
    c_synced : list text;
    c_heal : bool;
    c_closing : bool;
    c_cluster : cluster;
    c_coord : option Z;
    c_alloc : allocator;
    c_tocommit : list text;
    c_calls : dict Z (op * pc);
    c_wire : list (Z * request);
    c_ended : list (Z * op * res rv) }.
  Definition consumer_init (k : cluster) (name : text) : consumer := Cons [] [] false false k None (allocator_init name) [] [] [] [].

  Definition set_offsets x s := Cons x (c_synced s) (c_heal s) (c_closing s) (c_cluster s) (c_coord s) (c_alloc s) (c_tocommit s) (c_calls s) (c_wire s) (c_ended s).
  Definition set_synced x s := Cons (c_offsets s) x (c_heal s) (c_closing s) (c_cluster s) (c_coord s) (c_alloc s) (c_tocommit s) (c_calls s) (c_wire s) (c_ended s).
  Definition set_heal x s := Cons (c_offsets s) (c_synced s) x (c_closing s) (c_cluster s) (c_coord s) (c_alloc s) (c_tocommit s) (c_calls s) (c_wire s) (c_ended s).
  Definition set_closing x s := Cons (c_offsets s) (c_synced s) (c_heal s) x (c_cluster s) (c_coord s) (c_alloc s) (c_tocommit s) (c_calls s) (c_wire s) (c_ended s).
  Definition set_cluster x s := Cons (c_offsets s) (c_synced s) (c_heal s) (c_closing s) x (c_coord s) (c_alloc s) (c_tocommit s) (c_calls s) (c_wire s) (c_ended s).
  Definition set_coord x s := Cons (c_offsets s) (c_synced s) (c_heal s) (c_closing s) (c_cluster s) x (c_alloc s) (c_tocommit s) (c_calls s) (c_wire s) (c_ended s).
  Definition set_alloc x s := Cons (c_offsets s) (c_synced s) (c_heal s) (c_closing s) (c_cluster s) (c_coord s) x (c_tocommit s) (c_calls s) (c_wire s) (c_ended s).
  Definition set_tocommit x s := Cons (c_offsets s) (c_synced s) (c_heal s) (c_closing s) (c_cluster s) (c_coord s) (c_alloc s) x (c_calls s) (c_wire s) (c_ended s).
  Definition set_calls x s := Cons (c_offsets s) (c_synced s) (c_heal s) (c_closing s) (c_cluster s) (c_coord s) (c_alloc s) (c_tocommit s) x (c_wire s) (c_ended s).
  Definition set_wire x s := Cons (c_offsets s) (c_synced s) (c_heal s) (c_closing s) (c_cluster s) (c_coord s) (c_alloc s) (c_tocommit s) (c_calls s) x (c_ended s).
  Definition set_ended x s := Cons (c_offsets s) (c_synced s) (c_heal s) (c_closing s) (c_cluster s) (c_coord s) (c_alloc s) (c_tocommit s) (c_calls s) (c_wire s) x.

  (** ** tables *)
  (** self.offsets[topic][partition_id]: both levels are defaultdicts *)
  Definition offset_get (t : text) (p : Z) (s : consumer) : Z * consumer :=
    let '(d, o) := @ddefault text (dict Z Z) _ [] (c_offsets s) t in
    let '(v, d1) := @ddefault Z Z _ 0 d p in
    (v, set_offsets (dset o t d1) s).
  (** self.offsets[topic][partition_id] = v *)
  Definition offset_set (t : text) (p v : Z) (s : consumer) : consumer :=
    let '(d, o) := @ddefault text (dict Z Z) _ [] (c_offsets s) t in
    set_offsets (dset o t (dset d p v)) s.

  (** self.allocation: cluster.topics (single.py:37-42) or that of the allocator (grouped.py:59-64) *)
  Definition alloc_map (s : consumer) : res (dict text (list Z)) * consumer :=
    match md cfg with
    | Single => (Ok (k_topics (c_cluster s)), s)
    | Grouped _ _ _ _ => let '(r, a) := allocation (c_alloc s) in (r, set_alloc a s)
    end.
  (** self.allocation[topic].  cluster.topics is a defaultdict; the dict of a member is one if the mapping is *)
  Definition alloc_index (t : text) (s : consumer) : res (list Z) * consumer :=
    match md cfg with
    | Single =>
        let k := c_cluster s in
        let '(ps, ts) := @ddefault text (list Z) _ [] (k_topics k) t in
        (Ok ps, set_cluster (Cl (k_conns k) ts (k_leaders k) (k_opened k) (k_clock k) (k_log k)) s)
    | Grouped _ _ _ _ =>
        let '(r, a) := allocation (c_alloc s) in
        match r with
        | Err e => (Err e, set_alloc a s)
        | Ok tm =>
            match dget tm t with
            | Some ps => (Ok ps, set_alloc a s)
            | None =>
                if mp_default (a_mapping a)
                then (Ok [], set_alloc (Al (a_name a) (a_members a) (a_partitions a) (Mp true (dset (mp_tab (a_mapping a)) (a_name a) (dset tm t [])))
                                          (a_members_collected a) (a_partitions_collected a) (a_connected a) (a_rebalances a) (a_callbacks a)) s)
                else (Err EKey, set_alloc a s)
            end
        end
    end.
  (** not (topic not in self.allocation or not self.allocation[topic]), consumer.py:98 and 102 *)
  Definition allocated (t : text) (s : consumer) : res bool * consumer :=
    match alloc_map s with
    | (Err e, s1) => (Err e, s1)
    | (Ok m, s1) => if dmem m t
                    then match alloc_index t s1 with (Err e, s2) => (Err e, s2) | (Ok ps, s2) => (Ok (negb (match ps with [] => true | _ => false end)), s2) end
                    else (Ok false, s1)
    end.

  (** ** how a piece ends: it awaits something, or the coroutine returns or raises *)
  Inductive next := Await (p : pc) | Return (v : rv) | Raise_ (e : exn).

  (** the synchronous part of send(), client.py:76-79 *)
  Fixpoint send_all (rqs : dict Z request) (s : consumer) : res unit * consumer :=
    match rqs with
    | [] => (Ok tt, s)
    | (b, rq) :: rest =>
        match dget (k_conns (c_cluster s)) b with
        | None => (Err EKey, s)
        | Some cn =>
            if cc_closing cn then send_all rest s
            else match (unsendable cfg) rq with
                 | Some e => (Err e, s)
                 | None => send_all rest (set_wire (c_wire s ++ [(b, rq)]) s)
                 end
        end
    end.
  (** send({b: rq}) *)
  Definition send_one (k : cont) (b : option Z) (rq : request) (s : consumer) : next * consumer :=
    match b with
    | None => (Raise_ EKey, s)
    | Some b => match send_all [(b, rq)] s with
                | (Err e, s1) => (Raise_ e, s1)
                | (Ok _, s1) => (Await (PSend k [(b, rq)] []), s1)
                end
    end.

  (** ** commit_offsets(), grouped.py:212-250 *)
  (** the partitions of one topic, lines 229-236 *)
  Fixpoint commit_parts (t : text) (ps : list Z) (metadata : text) (s : consumer) : list (Z * (Z * text)) * consumer :=
    match ps with
    | [] => ([], s)
    | p :: rest =>
        let '(o, s1) := offset_get t p s in
        let '(r, s2) := commit_parts t rest metadata s1 in
        ((p, (o, metadata)) :: r, s2)
    end.
  (** lines 226-240 *)
  Fixpoint commit_topics (m : dict text (list Z)) (metadata : text) (s : consumer) : list (text * list (Z * (Z * text))) * consumer :=
    match m with
    | [] => ([], s)
    | (t, ps) :: rest =>
        if smem (c_tocommit s) t then
          let '(parts, s1) := commit_parts t ps metadata s in
          let '(r, s2) := commit_topics rest metadata s1 in
          ((t, parts) :: r, s2)
        else commit_topics rest metadata s
    end.
  Definition commit_offsets (metadata : option text) (ret : rv) (s : consumer) : next * consumer :=
    match md cfg with
    | Single => (Raise_ EAttr, s)
    | Grouped group _ _ name =>
        let md' := match metadata with Some m => m | None => txt "committed by " ++ name end in
        match alloc_map s with
        | (Err e, s1) => (Raise_ e, s1)
        | (Ok m, s1) =>
            let '(topics, s2) := commit_topics m md' s1 in
            send_one (KCommit md' ret) (c_coord s2) (RCommit group topics) s2
        end
    end.

  (** ** consume() *)
  (** the end of BaseConsumer.consume(); GroupedConsumer.consume() goes on with grouped.py:88-96 *)
  Definition base_done (t : text) (v : rv) (s : consumer) : next * consumer :=
    match md cfg with
    | Single => (Return v, s)
    | Grouped _ _ autocommit _ =>
        if negb (smem (c_synced s) t) then (Return (RvList []), s)
        else
          let s1 := set_tocommit (sadd (c_tocommit s) t) s in
          if autocommit then commit_offsets None v s1 else (Return v, s1)
    end.
  (** lines 107-109 *)
  Fixpoint order_leaders (t : text) (ps : list Z) (acc : dict Z (list Z)) (s : consumer) : res (dict Z (list Z)) * consumer :=
    match ps with
    | [] => (Ok acc, s)
    | p :: rest =>
        let '(r, k) := get_leader t p (c_cluster s) in
        let s1 := set_cluster k s in
        match r with
        | Err e => (Err e, s1)
        | Ok l => let '(q, acc1) := @ddefault Z (list Z) _ [] acc l in order_leaders t rest (dset acc1 l (q ++ [p])) s1
        end
    end.
  (** lines 119-126 *)
  Fixpoint fetch_parts (t : text) (ps : list Z) (mb : Z) (s : consumer) : list (Z * (Z * Z)) * consumer :=
    match ps with
    | [] => ([], s)
    | p :: rest =>
        let '(o, s1) := offset_get t p s in
        let '(r, s2) := fetch_parts t rest mb s1 in
        ((p, (o, mb)) :: r, s2)
    end.
  (** lines 111-128.  int(max_bytes / n): the float division is exact enough for it to truncate the quotient as long as
      max_bytes is below 2^53 *)
  Fixpoint fetch_requests (t : text) (ord : dict Z (list Z)) (s : consumer) : dict Z request * consumer :=
    match ord with
    | [] => ([], s)
    | (l, ps) :: rest =>
        let '(parts, s1) := fetch_parts t ps (Z.quot (max_bytes cfg) (zlen ps)) s in
        let '(r, s2) := fetch_requests t rest s1 in
        ((l, RFetch CONSUMER_REPLICA_ID (max_wait cfg) (min_bytes cfg) t parts) :: r, s2)
    end.
  (** lines 102-130.  The dict of requests is not empty here (ConsumerProofs.fetch_spec). *)
  Definition fetch (t : text) (s : consumer) : next * consumer :=
    match allocated t s with
    | (Err e, s1) => (Raise_ e, s1)
    | (Ok false, s1) => base_done t (RvList []) s1
    | (Ok true, s1) =>
        match alloc_index t s1 with
        | (Err e, s2) => (Raise_ e, s2)
        | (Ok ps, s2) =>
            match order_leaders t ps [] s2 with
            | (Err e, s3) => (Raise_ e, s3)
            | (Ok ord, s3) =>
                let '(rqs, s4) := fetch_requests t ord s3 in
                match send_all rqs s4 with
                | (Err e, s5) => (Raise_ e, s5)
                | (Ok _, s5) => (Await (PSend (KFetch t) rqs []), s5)
                end
            end
        end
    end.
  (** lines 98-100 *)
  Definition after_offsets (t : text) (s : consumer) : next * consumer :=
    match allocated t s with
    | (Err e, s1) => (Raise_ e, s1)
    | (Ok true, s1) => fetch t s1
    | (Ok false, s1) => (Await (PTopicHeal t), s1)
    end.
  (** an exception inside determine_offsets(), lines 91-95; anywhere else it leaves the coroutine *)
  Definition raised (k : cont) (e : exn) (s : consumer) : next * consumer :=
    match k, e with
    | KOffsets t _, ENoOffsets => base_done t (RvList []) s
    | _, _ => (Raise_ e, s)
    end.
  (** results[self.coordinator_id] *)
  Definition coord_result (results : dict Z hval) (s : consumer) : res hval :=
    match c_coord s with None => Err EKey | Some b => dindex results b end.

  (** determine_coordinator(), grouped.py:109-117: on to the next broker, or around the while loop again *)
  Definition coord_next (group : text) (rest : list Z) (s : consumer) : next * consumer :=
    match match rest with [] => dkeys (k_conns (c_cluster s)) | _ => rest end with
    | [] => (Raise_ ENoBrokers, s)
    | b :: rest' => send_one (KCoord b rest') (Some b) (RCoordinator group) s
    end.

  (** send() returns [results] to its caller *)
  Definition resume (k : cont) (results : dict Z hval) (s : consumer) : next * consumer :=
    match k with
    | KOffsets t rq =>
        match md cfg, rq with
        | Grouped _ _ _ _, Some rq =>            (* grouped.py:166-168 *)
            match coord_result results s with
            | Err e => raised k e s
            | Ok (HBool true) => match send_one k (c_coord s) rq s with (Raise_ e, s1) => raised k e s1 | r => r end
            | Ok _ => after_offsets t (set_synced (sadd (c_synced s) t) s)
            end
        | _, _ => after_offsets t (set_synced (sadd (c_synced s) t) s)    (* single.py:87-89, consumer.py:96 *)
        end
    | KFetch t =>                                 (* consumer.py:132-136 *)
        base_done t (RvList (filter (truthy cfg) (flat_map (fun bv => match snd bv with HMsgs l => l | _ => [] end) results))) s
    | KCommit metadata ret =>                     (* grouped.py:244-250 *)
        match coord_result results s with
        | Err e => (Raise_ e, s)
        | Ok (HPair retry adjust) =>
            if retry then commit_offsets (Some (if adjust then [] else metadata)) ret s else (Return ret, s)
        | Ok _ => (Raise_ EType, s)
        end
    | KCoord asked rest =>                        (* grouped.py:115-117 *)
        match dindex results asked, md cfg with
        | Err e, _ => (Raise_ e, s)
        | Ok (HBool true), _ => (Return RvNone, s)
        | Ok _, Grouped group _ _ _ => coord_next group rest s
        | Ok _, Single => (Raise_ EAttr, s)
        end
    end.
  (** client.py:104-108 *)
  Definition send_end (k : cont) (results : dict Z hval) (s : consumer) : next * consumer :=
    if c_heal s then (Await (PHeal k results), s) else resume k results s.

  (** single.py:74-82 *)
  Fixpoint offset_requests (t : text) (time : pyval) (ps : list Z) (acc : dict Z request) (s : consumer) : res (dict Z request) * consumer :=
    match ps with
    | [] => (Ok acc, s)
    | p :: rest =>
        let '(r, k) := get_leader t p (c_cluster s) in
        let s1 := set_cluster k s in
        match r with
        | Err e => (Err e, s1)
        | Ok l =>
            let parts := match dget acc l with Some (ROffset _ _ parts) => parts | _ => [] end in
            offset_requests t time rest (dset acc l (ROffset CONSUMER_REPLICA_ID t (parts ++ [(p, (time, 1))]))) s1
        end
    end.
  (** determine_offsets(): single.py:44-89, grouped.py:142-168 *)
  Definition determine_offsets (t : text) (start : option start_arg) (s : consumer) : next * consumer :=
    match md cfg with
    | Single =>
        let time := start_to_timestamp (match start with Some x => x | None => StInt END_ end) in
        match alloc_index t s with
        | (Err e, s1) => (Raise_ e, s1)
        | (Ok ps, s1) =>
            match offset_requests t time ps [] s1 with
            | (Err e, s2) => (Raise_ e, s2)
            | (Ok rqs, s2) =>
                match send_all rqs s2 with
                | (Err e, s3) => (Raise_ e, s3)
                | (Ok _, s3) => match rqs with [] => send_end (KOffsets t None) [] s3 | _ => (Await (PSend (KOffsets t None) rqs []), s3) end
                end
            end
        end
    | Grouped group _ _ _ =>
        match alloc_index t s with
        | (Err e, s1) => (Raise_ e, s1)
        | (Ok ps, s1) => let rq := ROffsetFetch group t ps in send_one (KOffsets t (Some rq)) (c_coord s1) rq s1
        end
    end.
  (** consume(), consumer.py:72-96; GroupedConsumer does not pass [start] on (grouped.py:86) *)
  Definition consume (t : text) (start : option start_arg) (s : consumer) : next * consumer :=
    if c_closing s then base_done t RvNone s
    else if smem (c_synced s) t then after_offsets t s
    else match determine_offsets t (match md cfg with Single => start | _ => None end) s with
         | (Raise_ e, s1) => raised (KOffsets t None) e s1
         | r => r
         end.

  (** ** handlers *)
  (** deserialize_messages(), consumer.py:177-205 *)
  Fixpoint deserialize_messages (t : text) (p : Z) (ms : list (Z * pymsg)) (s : consumer) : list V * consumer :=
    match ms with
    | [] => ([], s)
    | (offset, Msg _ _ _ _ value) :: rest =>
        match (deser cfg) value with
        | Err _ => deserialize_messages t p rest s
        | Ok v =>
            let s1 := if 0 <=? offset then offset_set t p (offset + 1) s else s in
            let '(vs, s2) := deserialize_messages t p rest s1 in
            (v :: vs, s2)
        end
    end.
  (** handle_fetch_response(), consumer.py:138-175 *)
  Fixpoint handle_fetch_parts (t : text) (parts : list (Z * (Z * list (Z * pymsg)))) (s : consumer) : res (list V) * consumer :=
    match parts with
    | [] => (Ok [], s)
    | (p, (code, ms)) :: rest =>
        if code =? no_error then
          let '(vs, s1) := deserialize_messages t p ms s in
          match handle_fetch_parts t rest s1 with (Err e, s2) => (Err e, s2) | (Ok ws, s2) => (Ok (vs ++ ws), s2) end
        else if is_retriable code then handle_fetch_parts t rest (set_heal true s)
        else if code =? offset_out_of_range then handle_fetch_parts t rest (set_synced (sdiscard (c_synced s) t) s)
        else match error_name code with Err e => (Err e, s) | Ok _ => handle_fetch_parts t rest s end
    end.
  (** handle_offset_response(), single.py:91-120 *)
  Fixpoint handle_offset_parts (t : text) (parts : list (Z * (Z * list Z))) (s : consumer) : res unit * consumer :=
    match parts with
    | [] => (Ok tt, s)
    | (p, (code, offs)) :: rest =>
        if code =? no_error then
          match offs with
          | [] => (Err EIndex, s)
          | o :: _ => handle_offset_parts t rest (if 0 <=? o then offset_set t p o s else s)
          end
        else if is_retriable code then handle_offset_parts t rest (set_synced (sdiscard (c_synced s) t) (set_heal true s))
        else match error_name code with Err e => (Err e, s) | Ok _ => (Err ENoOffsets, s) end
    end.
  (** handle_offset_fetch_response(), grouped.py:170-210 *)
  Fixpoint handle_ofetch_parts (t : text) (parts : list (Z * (Z * Z))) (retry : bool) (s : consumer) : res bool * consumer :=
    match parts with
    | [] => (Ok retry, s)
    | (p, (code, o)) :: rest =>
        if code =? no_error then handle_ofetch_parts t rest retry (offset_set t p o s)
        else if code =? offsets_load_in_progress then handle_ofetch_parts t rest true s
        else if is_retriable code then handle_ofetch_parts t rest true (set_heal true s)
        else match error_name code with Err e => (Err e, s) | Ok _ => (Err ENoOffsets, s) end
    end.
  (** handle_offset_commit_response(), grouped.py:252-283 *)
  Fixpoint handle_commit_parts (t : text) (parts : list (Z * Z)) (acc : bool * bool) (s : consumer) : res (bool * bool) * consumer :=
    match parts with
    | [] => (Ok acc, s)
    | (p, code) :: rest =>
        if code =? no_error then handle_commit_parts t rest acc (set_tocommit (sdiscard (c_tocommit s) t) s)
        else if is_retriable code then handle_commit_parts t rest (true, snd acc) (set_heal true s)
        else if code =? offset_metadata_too_large then handle_commit_parts t rest (true, true) s
        else match error_name code with Err e => (Err e, s) | Ok _ => handle_commit_parts t rest acc s end
    end.
  Fixpoint handle_commit_topics (topics : list (text * list (Z * Z))) (acc : bool * bool) (s : consumer) : res (bool * bool) * consumer :=
    match topics with
    | [] => (Ok acc, s)
    | (t, parts) :: rest =>
        match handle_commit_parts t parts acc s with
        | (Err e, s1) => (Err e, s1)
        | (Ok acc1, s1) => handle_commit_topics rest acc1 s1
        end
    end.
  (** the handle_<api>_response methods; handle_group_coordinator_response: grouped.py:119-140 *)
  Definition handle (r : response) (s : consumer) : res hval * consumer :=
    match r with
    | PFetch [] | POffset [] | POffsetFetch [] => (Err EIndex, s)
    | PFetch ((t, parts) :: _) => match handle_fetch_parts t parts s with (Err e, s1) => (Err e, s1) | (Ok l, s1) => (Ok (HMsgs l), s1) end
    | POffset ((t, parts) :: _) => match handle_offset_parts t parts s with (Err e, s1) => (Err e, s1) | (Ok _, s1) => (Ok HNone, s1) end
    | POffsetFetch ((t, parts) :: _) => match handle_ofetch_parts t parts false s with (Err e, s1) => (Err e, s1) | (Ok b, s1) => (Ok (HBool b), s1) end
    | PCommit topics => match handle_commit_topics topics (false, false) s with (Err e, s1) => (Err e, s1) | (Ok (a, b), s1) => (Ok (HPair a b), s1) end
    | PCoordinator code id =>
        if code =? no_error then (Ok (HBool true), set_coord (Some id) s)
        else if is_retriable code then (Ok (HBool false), set_heal true s)
        else (Ok (HBool true), s)
    end.

  (** ** the machine *)
  Inductive label :=
  | Call (i : Z) (o : op)                         (* consume(), commit_offsets() or determine_coordinator() is called *)
  | Arrive (i b : Z) (r : res response)           (* the future for the request of call [i] to broker [b] completes *)
  | Healed (i : Z) (r : res unit)                 (* the cluster.heal() call [i] waits for returns or raises *)
  | Cluster_ (k : cluster)                        (* heal() or the network change the cluster's tables *)
  | Alloc (ev : aevent)                           (* ZooKeeper notifies the allocator; on_rebalance = synced_offsets.clear *)
  | Close.                                        (* close() is called: self.closing = True (client.py:41) *)

  (** the piece of call [i] ends *)
  Definition continue (i : Z) (o : op) (ns : next * consumer) : consumer :=
    let '(n, s) := ns in
    match n with
    | Await p => set_calls (dset (c_calls s) i (o, p)) s
    | Return v => set_ended (c_ended s ++ [(i, o, Ok v)]) (set_calls (ddel (c_calls s) i) s)
    | Raise_ e => set_ended (c_ended s ++ [(i, o, Err e)]) (set_calls (ddel (c_calls s) i) s)
    end.
  (** except clauses of client.py:85-95 *)
  Definition sets_heal (e : exn) : bool := match e with EStreamClosed => false | _ => true end.
  Definition arrive (k : cont) (waiting : dict Z request) (results : dict Z hval) (b : Z) (r : res response) (s : consumer) : next * consumer :=
    let waiting' := ddel waiting b in
    match r with
    | Err e =>
        let s1 := if sets_heal e then set_heal true s else s in
        match waiting' with [] => send_end k results s1 | _ => (Await (PSend k waiting' results), s1) end
    | Ok resp =>
        match handle resp s with
        | (Err e, s1) => raised k e s1
        | (Ok v, s1) =>
            match waiting' with [] => send_end k (dset results b v) s1 | _ => (Await (PSend k waiting' (dset results b v)), s1) end
        end
    end.
  Definition cstep (s : consumer) (l : label) : consumer :=
    match l with
    | Call i o =>
        if dmem (c_calls s) i then s
        else continue i o (match o with
                           | OpConsume t start => consume t start s
                           | OpCommit metadata => commit_offsets metadata RvNone s
                           | OpCoordinator => match md cfg with Single => (Raise_ EAttr, s) | Grouped group _ _ _ => coord_next group [] s end
                           end)
    | Arrive i b r =>
        match dget (c_calls s) i with
        | Some (o, PSend k waiting results) =>
            match dget waiting b with
            | Some rq => if match r with Ok resp => answers rq resp | Err _ => true end then continue i o (arrive k waiting results b r s) else s
            | None => s
            end
        | _ => s
        end
    | Healed i r =>
        match dget (c_calls s) i with
        | Some (o, PHeal k results) =>
            match r with
            | Ok _ => continue i o (resume k results (set_heal false s))
            | Err e => continue i o (raised k e s)
            end
        | Some (o, PTopicHeal t) =>
            match r with
            | Ok _ => continue i o (fetch t s)
            | Err e => continue i o (Raise_ e, s)
            end
        | _ => s
        end
    | Cluster_ k => set_cluster k s
    | Alloc ev =>
        match md cfg with
        | Single => s
        | Grouped _ fn _ _ =>
            let a := astep fn true (c_alloc s) ev in
            set_synced (if a_callbacks a =? a_callbacks (c_alloc s) then c_synced s else []) (set_alloc a s)
        end
    | Close => set_closing true s
    end.
  Definition crun (ls : list label) (s : consumer) : consumer := fold_left cstep ls s.
End Consumer.
Arguments rv V : clear implicits.
Arguments hval V : clear implicits.
Arguments cont V : clear implicits.
Arguments pc V : clear implicits.
Arguments consumer V : clear implicits.
Arguments next V : clear implicits.
