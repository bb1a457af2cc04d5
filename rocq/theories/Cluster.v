(** kiel/cluster.py: the set of broker connections and the topic / leader tables.
    A connection is what the cluster sees of it: address, identity (a serial number), closing flag.
    What the brokers and the network do is an arbitrary [world]; effects are recorded in [k_log].
    One coroutine of the cluster runs at a time: while it waits, connections may die, but no other
    coroutine changes the tables. *)
From Coq Require Import ZArith String List Bool.
From Verif Require Import PyBase Constants.
Import ListNotations.
Open Scope Z_scope.

(** the fields of MetadataResponse the cluster reads (protocol/metadata.py:21-50); replicas and isrs
    are not used.  Names and hosts are strings, not null. *)
Record mpart := MPart { mp_err : Z; mp_id : Z; mp_leader : Z }.
Record mtopic := MTopic { mt_err : Z; mt_name : text; mt_parts : list mpart }.
Record mbroker := MBroker { mb_id : Z; mb_host : text; mb_port : Z }.
Record mresp := MResp { mr_brokers : list mbroker; mr_topics : list mtopic }.

(** Connection as seen from cluster.py (connection.py:50-58) *)
Record cconn := CC { cc_host : text; cc_port : Z; cc_id : nat; cc_closing : bool }.

(** how an awaited operation ends: never, or with a value or an exception, the connections listed
    in [died] having started closing meanwhile *)
Inductive answer (A : Type) := Never | Answer (died : list nat) (r : res A).
Arguments Never {A}.
Arguments Answer {A} died r.
Record world := World { w_connect : nat -> answer unit; w_ask : nat -> answer mresp }.

(** observable effects *)
Inductive effect :=
| XConnect (id : nat) (host : text) (port : Z)     (* connect() called *)
| XConnected (id : nat)
| XConnectFailed (id : nat) (e : exn)
| XAsk (id : nat) (topics : list text)             (* a MetadataRequest is sent *)
| XAnswer (id : nat) (r : mresp)
| XAskFailed (id : nat) (e : exn)
| XAbort (id : nat)
| XClose (id : nat).

(** Cluster.__init__, cluster.py:26-31 ([k_opened]: Connection objects made so far; [k_clock]:
    operations awaited so far) *)
Record cluster := Cl {
  k_conns : dict Z cconn;
  k_topics : dict text (list Z);
  k_leaders : dict text (dict Z Z);
  k_opened : nat;
  k_clock : nat;
  k_log : list effect }.
Definition cluster_init : cluster := Cl [] [] [] O O [].

Definition set_conns (k : cluster) (d : dict Z cconn) : cluster :=
  Cl d (k_topics k) (k_leaders k) (k_opened k) (k_clock k) (k_log k).
Definition emit (x : effect) (k : cluster) : cluster :=
  Cl (k_conns k) (k_topics k) (k_leaders k) (k_opened k) (k_clock k) (k_log k ++ [x]).
(** an operation was awaited *)
Definition shut (c : cconn) : cconn := CC (cc_host c) (cc_port c) (cc_id c) true.
Definition waited (died : list nat) (k : cluster) : cluster :=
  Cl (map (fun bc => (fst bc, if existsb (Nat.eqb (cc_id (snd bc))) died then shut (snd bc) else snd bc)) (k_conns k))
    (k_topics k) (k_leaders k) (k_opened k) (S (k_clock k)) (k_log k).
(** Connection(host, port), and the call of connect() *)
Definition opening (host : text) (port : Z) (k : cluster) : cluster :=
  Cl (k_conns k) (k_topics k) (k_leaders k) (S (k_opened k)) (k_clock k)
    (k_log k ++ [XConnect (k_opened k) host port]).

(** how a coroutine ends; [Wait] when it is (still) suspended *)
Inductive out (A : Type) := Ret (a : A) | Raise (e : exn) | Wait.
Arguments Ret {A} a.
Arguments Raise {A} e.
Arguments Wait {A}.

(** get_leader(), cluster.py:65-69: leaders is a defaultdict, so asking for an unknown topic leaves an
    empty entry *)
Definition get_leader (topic : text) (p : Z) (k : cluster) : res Z * cluster :=
  let '(d, ld) := @ddefault text (dict Z Z) _ [] (k_leaders k) topic in
  (dindex d p, Cl (k_conns k) (k_topics k) ld (k_opened k) (k_clock k) (k_log k)).

(** host.split(":") and int(port), cluster.py:84-89.  int() is modelled for plain decimal digits;
    its other accepted spellings ("+1", " 1", "1_0") count as errors here. *)
Fixpoint split_colon (h : text) : list text :=
  match h with
  | [] => [[]]
  | c :: r =>
      if c =? 58 then [] :: split_colon r
      else match split_colon r with [] => [[c]] | w :: ws => (c :: w) :: ws end
  end.
Fixpoint digits (acc : Z) (s : text) : option Z :=
  match s with
  | [] => Some acc
  | c :: r => if (48 <=? c) && (c <=? 57) then digits (acc * 10 + (c - 48)) r else None
  end.
Definition int_of_text (s : text) : res Z :=
  match s with [] => Err EValue | _ => match digits 0 s with Some n => Ok n | None => Err EValue end end.
Definition DEFAULT_KAFKA_PORT : Z := 9092.  (* constants.py:1 *)
Definition parse_host (h : text) : res (text * Z) :=
  if smem h 58 then
    match split_colon h with
    | [host; port] => n <- int_of_text port ;; Ok (host, n)
    | _ => Err EValue
    end
  else Ok (h, DEFAULT_KAFKA_PORT).

(** process_topics(), cluster.py:216-263: the inner loop over a topic's partitions ... *)
Definition tables : Type := dict text (list Z) * dict text (dict Z Z) * list text.
Definition process_partition (conns : dict Z cconn) (name : text) (acc : tables) (p : mpart) : tables :=
  let '(topics, leaders, missing) := acc in
  if mp_err p =? leader_not_available then (topics, leaders, sadd missing name)
  else if negb (dmem conns (mp_leader p)) then (topics, leaders, sadd missing name)
  else
    let '(ps, topics1) := ddefault [] topics name in
    let '(ls, leaders1) := @ddefault text (dict Z Z) _ [] leaders name in
    (dset topics1 name (ps ++ [mp_id p]), dset leaders1 name (dset ls (mp_id p) (mp_leader p)), missing).
(** ... the loop over topics ... *)
Definition process_topic (conns : dict Z cconn) (acc : tables) (t : mtopic) : tables :=
  let '(topics, leaders, missing) := acc in
  if mt_err t =? unknown_topic_or_partition then acc
  else if mt_err t =? replica_not_available then (topics, leaders, sadd missing (mt_name t))
  else fold_left (process_partition conns (mt_name t)) (mt_parts t) acc.
(** ... and the final assignment *)
Definition process_topics (ts : list mtopic) (k : cluster) : list text * cluster :=
  let '(topics, leaders, missing) := fold_left (process_topic (k_conns k)) ts ([], [], []) in
  (missing, Cl (k_conns k) topics leaders (k_opened k) (k_clock k) (k_log k)).

Section World.
  Variable w : world.

  (** the for loop of process_brokers(), cluster.py:186-209 *)
  Fixpoint add_brokers (bs : list mbroker) (missing : list Z) (k : cluster) : out (list Z) * cluster :=
    match bs with
    | [] => (Ret missing, k)
    | b :: rest =>
        if dmem (k_conns k) (mb_id b) then add_brokers rest missing k
        else
          let id := k_opened k in
          let k1 := opening (mb_host b) (mb_port b) k in
          match w_connect w (k_clock k) with
          | Never => (Wait, k1)
          | Answer died (Ok _) =>
              let k2 := emit (XConnected id) (waited died k1) in
              add_brokers rest missing
                (set_conns k2 (dset (k_conns k2) (mb_id b) (CC (mb_host b) (mb_port b) id false)))
          | Answer died (Err e) =>
              add_brokers rest (sadd missing (mb_id b)) (emit (XConnectFailed id e) (waited died k1))
          end
    end.

  (** self.conns[broker_id].abort() for one broker, cluster.py:211-212 (connection.py:161-166: it
      does nothing to a connection that is closing already) *)
  Definition abort_conn (k : cluster) (b : Z) : cluster :=
    match dget (k_conns k) b with
    | Some c =>
        if cc_closing c then k
        else emit (XAbort (cc_id c)) (set_conns k (dset (k_conns k) b (shut c)))
    | None => k
    end.

  (** process_brokers(), cluster.py:174-214.  The set to_drop is a list in the order of conns. *)
  Definition process_brokers (bs : list mbroker) (k : cluster) : out (list Z) * cluster :=
    let to_drop := filter (fun b => negb (smem (map mb_id bs) b)) (dkeys (k_conns k)) in
    match add_brokers bs [] k with
    | (Ret missing, k1) => (Ret missing, fold_left abort_conn to_drop k1)
    | r => r
    end.

  (** except (StreamClosedError, BrokerConnectionError), cluster.py:166 *)
  Definition skips (e : exn) : bool :=
    match e with EStreamClosed | EBrokerConn => true | _ => false end.

  (** the for loop of get_metadata(), cluster.py:159-167; send() on a closing connection fails at
      once (connection.py:118-120) *)
  Fixpoint ask_each (bs : list Z) (topics : list text) (k : cluster) : out (option mresp) * cluster :=
    match bs with
    | [] => (Ret None, k)
    | b :: rest =>
        match dget (k_conns k) b with
        | None => ask_each rest topics k
        | Some c =>
            if cc_closing c then ask_each rest topics k
            else
              let k1 := emit (XAsk (cc_id c) topics) k in
              match w_ask w (k_clock k) with
              | Never => (Wait, k1)
              | Answer died (Ok r) => (Ret (Some r), emit (XAnswer (cc_id c) r) (waited died k1))
              | Answer died (Err e) =>
                  let k2 := emit (XAskFailed (cc_id c) e) (waited died k1) in
                  if skips e then ask_each rest topics k2 else (Raise e, k2)
              end
        end
    end.

  (** get_metadata(), cluster.py:146-172 ([topics]: [] for None) *)
  Definition get_metadata (topics : list text) (k : cluster) : out mresp * cluster :=
    match ask_each (dkeys (k_conns k)) topics k with
    | (Ret (Some r), k1) => (Ret r, k1)
    | (Ret None, k1) => (Raise ENoBrokers, k1)
    | (Raise e, k1) => (Raise e, k1)
    | (Wait, k1) => (Wait, k1)
    end.

  (** heal(), lines 129-136 *)
  Definition cull (k : cluster) : cluster :=
    set_conns k (filter (fun bc => negb (cc_closing (snd bc))) (k_conns k)).

  (** one pass, lines 138-139 and 143-144 *)
  Definition process (r : mresp) (k : cluster) : out (list Z * list text) * cluster :=
    match process_brokers (mr_brokers r) k with
    | (Ret mb, k1) => let '(mt, k2) := process_topics (mr_topics r) k1 in (Ret (mb, mt), k2)
    | (Raise e, k1) => (Raise e, k1)
    | (Wait, k1) => (Wait, k1)
    end.

  (** the while loop, lines 141-144; [fuel] bounds the passes looked at, a heal that needs more is
      reported as still waiting *)
  Fixpoint heal_loop (fuel : nat) (missing : list Z * list text) (k : cluster) : out unit * cluster :=
    match missing with
    | ([], []) => (Ret tt, k)
    | (_, mt) =>
        match fuel with
        | O => (Wait, k)
        | S fuel' =>
            match get_metadata mt k with
            | (Ret r, k1) =>
                match process r k1 with
                | (Ret m, k2) => heal_loop fuel' m k2
                | (Raise e, k2) => (Raise e, k2)
                | (Wait, k2) => (Wait, k2)
                end
            | (Raise e, k1) => (Raise e, k1)
            | (Wait, k1) => (Wait, k1)
            end
        end
    end.

  Definition heal_with (fuel : nat) (r : mresp) (k : cluster) : out unit * cluster :=
    match process r (cull k) with
    | (Ret m, k1) => heal_loop fuel m k1
    | (Raise e, k1) => (Raise e, k1)
    | (Wait, k1) => (Wait, k1)
    end.
  (** heal(response), cluster.py:113-144 *)
  Definition heal (fuel : nat) (response : option mresp) (k : cluster) : out unit * cluster :=
    match response with
    | Some r => heal_with fuel r k
    | None =>
        match get_metadata [] k with
        | (Ret r, k1) => heal_with fuel r k1
        | (Raise e, k1) => (Raise e, k1)
        | (Wait, k1) => (Wait, k1)
        end
    end.

  (** the loop over bootstrap hosts, cluster.py:81-105 *)
  Fixpoint boot (hosts : list text) (k : cluster) : out (option mresp) * cluster :=
    match hosts with
    | [] => (Ret None, k)
    | h :: rest =>
        match parse_host h with
        | Err e => (Raise e, k)
        | Ok (host, port) =>
            let id := k_opened k in
            let k1 := opening host port k in
            match w_connect w (k_clock k) with
            | Never => (Wait, k1)
            | Answer died (Err e) => boot rest (emit (XConnectFailed id e) (waited died k1))
            | Answer died (Ok _) =>
                let k2 := emit (XAsk id []) (emit (XConnected id) (waited died k1)) in
                match w_ask w (k_clock k2) with
                | Never => (Wait, k2)
                | Answer died2 (Err e) => (Raise e, emit (XAskFailed id e) (waited died2 k2))
                | Answer died2 (Ok r) =>
                    (Ret (Some r), emit (XClose id) (emit (XAnswer id r) (waited died2 k2)))
                end
            end
        end
    end.

  (** start(), cluster.py:71-111 *)
  Definition start (fuel : nat) (hosts : list text) (k : cluster) : out unit * cluster :=
    match boot hosts k with
    | (Ret (Some r), k1) => heal fuel (Some r) k1
    | (Ret None, k1) => (Raise ENoBrokers, k1)
    | (Raise e, k1) => (Raise e, k1)
    | (Wait, k1) => (Wait, k1)
    end.
End World.

(** stop(), cluster.py:265-270 *)
Definition stop (k : cluster) : cluster :=
  fold_left (fun k' bc => emit (XClose (cc_id (snd bc))) (set_conns k' (dset (k_conns k') (fst bc) (shut (snd bc)))))
    (k_conns k) k.
