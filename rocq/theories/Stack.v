(** A consumer on top of its connections: consumer.py, single.py and client.py (Consumer.v) over connection.py
    (Connection.v).  Where Consumer.v lets the answer to a request be anything, here it is what the connection makes of
    the bytes that arrive: Client.send() puts each request on the connection of its broker (client.py:76-79), waits for
    the futures (client.py:81-84) and hands each result to the handler.
    Simplification: a request that cannot be serialized is left out here, in Consumer.v [unsendable] says that send()
    raises. *)
From Coq Require Import ZArith String List Bool.
From Verif Require Import PyBase Messages Protocol Request Schemas Cluster Zookeeper Consumer ResponseRead.
From Verif Require Connection.
Import ListNotations.
Open Scope Z_scope.

(** one connection; ghost: the bytes that arrived, the futures handed out with the request objects, for those of the
    consumer the correlation id and the request, and the futures with the bytes written for them *)
Record link := Link {
  l_conn : Connection.conn;
  l_in : bytes;
  l_iss : list (nat * Connection.request);
  l_asked : list (nat * (Z * request));
  l_out : list (nat * bytes) }.
Definition link_init : link := Link Connection.conn_init [] [] [] [].

(** the request object a request is sent as: its constructor, with the next correlation id (request.py:46-52) *)
Definition request_object (last : Z) (rq : request) : res (Connection.request * Z) :=
  let '(api, fs, kwargs) := request_kwargs rq in Connection.request_of api fs kwargs last.
(** handle_<api>_response, client.py:96-100: the fields the handlers read of a response object, as in [read_response];
    [None] for what the model of the consumer has no value for *)
Definition view_response (api : string) (v : pyval) : option response :=
  if String.eqb api "fetch"%string then option_map PFetch (fetch_view v)
  else if String.eqb api "offset"%string then option_map POffset (offset_view v)
  else if String.eqb api "offset_fetch"%string then option_map POffsetFetch (offset_fetch_view v)
  else if String.eqb api "offset_commit"%string then option_map PCommit (codes_view v)
  else if String.eqb api "group_coordinator"%string then option_map (fun ci => PCoordinator (fst ci) (snd ci)) (pair_of (int_fld v "error_code"%string) (int_fld v "coordinator_id"%string))
  else None.

Section Stack.
  Context {V : Type}.
  Variable cfg : config V.
  Variable C : codec.
  Variable depth : nat.
  Variable neg_read : Z -> bytes -> bytes * bytes.

  (** the consumer, the process's last correlation id (request.py:20), the connections by number, the futures the
      running send()s wait for (of which call, for which broker, on which connection), and the correlation id of the
      request object each call made last *)
  Record stack := Stack {
    k_cons : consumer V;
    k_last : Z;
    k_link : nat -> link;
    k_wait : list (Z * Z * (nat * nat));
    k_held : dict Z Z }.
  Definition stack_init (k : cluster) (name : text) (last : Z) : stack := Stack (consumer_init k name) last (fun _ => link_init) [] [].

  (** an event on a connection *)
  Definition happens (ev : Connection.event) (l : link) : link :=
    Link (Connection.step C depth neg_read ev (l_conn l))
      (match ev with Connection.EvData b => if Connection.c_closed (l_conn l) then l_in l else l_in l ++ b | _ => l_in l end)
      (match ev with
       | Connection.EvSend rq wr => match fst (Connection.conn_send rq wr (l_conn l)) with Ok f => l_iss l ++ [(f, rq)] | Err _ => l_iss l end
       | _ => l_iss l
       end)
      (l_asked l)
      (match ev with
       | Connection.EvSend rq wr =>
           match Connection.conn_send rq wr (l_conn l) with
           | (Ok f, st') => l_out l ++ map (fun w => (f, w)) (skipn (length (Connection.c_written (l_conn l))) (Connection.c_written st'))
           | (Err _, _) => l_out l
           end
       | _ => l_out l
       end).
  Definition put (n : nat) (l : link) (ls : nat -> link) : nat -> link := fun m => if Nat.eqb m n then l else ls m.

  (** cluster.conns are the connections themselves: their closing flags are those of the connections *)
  Definition flags (ls : nat -> link) (k : cluster) : cluster :=
    Cl (map (fun bc => (fst bc, CC (cc_host (snd bc)) (cc_port (snd bc)) (cc_id (snd bc)) (Connection.c_closing (l_conn (ls (cc_id (snd bc))))))) (k_conns k))
      (k_topics k) (k_leaders k) (k_opened k) (k_clock k) (k_log k).
  Definition with_flags (S : stack) : consumer V := set_cluster (flags (k_link S) (c_cluster (k_cons S))) (k_cons S).

  (** determine_coordinator() and a grouped determine_offsets() make one request object and send it again and again, with
      its correlation id (grouped.py:106-115, 156-167); this is where they wait *)
  Definition held (p : pc V) : bool :=
    match p with PSend (KOffsets _ (Some _)) _ _ | PHeal (KOffsets _ (Some _)) _ | PSend (KCoord _ _) _ _ | PHeal (KCoord _ _) _ => true | _ => false end.
  Definition repeats (i : Z) (s1 s2 : consumer V) : bool :=
    match dget (c_calls s1) i, dget (c_calls s2) i with Some (_, p1), Some (_, p2) => held p1 && held p2 | _, _ => false end.

  (** self.cluster[broker_id].send(request), client.py:77; [wr b] is what becomes of the write; [again]: with the request
      object the call made before *)
  Definition send_to (again : bool) (wr : Z -> option exn) (i : Z) (brq : Z * request) (S : stack) : stack :=
    let '(b, rq) := brq in
    let '(before, last') := match (if again then dget (k_held S) i else None) with Some id => (id - 1, k_last S) | None => (k_last S, k_last S + 1) end in
    match dget (k_conns (c_cluster (k_cons S))) b, request_object before rq with
    | Some cn, Ok (obj, id) =>
        let n := cc_id cn in
        let l := k_link S n in
        match Connection.conn_send obj (wr b) (l_conn l) with
        | (Ok f, _) =>
            let l' := happens (Connection.EvSend obj (wr b)) l in
            Stack (k_cons S) last'
              (put n (Link (l_conn l') (l_in l') (l_iss l') (if Connection.c_closing (l_conn l) then l_asked l' else l_asked l' ++ [(f, (id, rq))]) (l_out l')) (k_link S))
              ((i, b, (n, f)) :: k_wait S) (dset (k_held S) i id)
        | (Err _, _) => Stack (k_cons S) last' (k_link S) (k_wait S) (k_held S)
        end
    | _, _ => S
    end.

  Definition waits_of (i : Z) (w : Z * Z * (nat * nat)) : bool := fst (fst w) =? i.
  Definition is_wait (i b : Z) (w : Z * Z * (nat * nat)) : bool := (fst (fst w) =? i) && (snd (fst w) =? b).
  (** a piece of call [i] begun in [s1] has run and left the consumer in [s2]: the futures the call no longer waits for
      are forgotten and the requests of the next send(), if the call is now in one, go out.  What was written before
      send() raised goes out as well, and is waited for by nobody. *)
  Definition piece (wr : Z -> option exn) (i : Z) (s1 s2 : consumer V) (S : stack) : stack :=
    let written := skipn (length (c_wire s1)) (c_wire s2) in
    let again := repeats i s1 s2 in
    let S1 := Stack s2 (k_last S) (k_link S) (filter (fun w => negb (waits_of i w)) (k_wait S)) (if again then k_held S else ddel (k_held S) i) in
    match dget (c_calls s2) i with
    | Some (_, PSend _ waiting _) => fold_left (fun S brq => send_to again wr i brq S) waiting S1
    | _ =>
        let S2 := fold_left (fun S brq => send_to false wr i brq S) written S1 in
        Stack (k_cons S2) (k_last S2) (k_link S2) (k_wait S1) (k_held S1)
    end.
  (** does the send() of call [i] go on waiting after this answer (client.py:82-102)? *)
  Definition goes_on (s : consumer V) (i b : Z) (r : res response) : bool :=
    match dget (c_calls s) i with
    | Some (_, PSend _ waiting _) =>
        match ddel waiting b with
        | [] => false
        | _ => match r with Err _ => true | Ok resp => match handle cfg resp s with (Ok _, _) => true | (Err _, _) => false end end
        end
    | _ => false
    end.

  Inductive sevent :=
  | SLabel (l : label) (wr : Z -> option exn)                  (* as in Consumer.v, except answers *)
  | SConn (n : nat) (ev : Connection.event)                    (* something happens on a connection, except that a client sends *)
  | SMeta (n : nat) (topics : list text) (wr : option exn)     (* get_metadata() sends on a connection, cluster.py:160-166 *)
  | SDone (i b : Z) (wr : Z -> option exn).                    (* the event loop resumes send() with a future that is done *)

  (** what the future for the request of call [i] to broker [b] holds *)
  Definition outcome_of (S : stack) (i b : Z) : option (res response) :=
    match find (is_wait i b) (k_wait S) with
    | Some (_, (n, f)) =>
        match find (fun fo => Nat.eqb (fst fo) f) (Connection.c_done (l_conn (k_link S n))) with
        | Some (_, Connection.Got api _ v) => option_map Ok (view_response api v)
        | Some (_, Connection.Fail e) => Some (Err e)
        | None => None
        end
    | None => None
    end.

  (** the labels of Consumer.v an event amounts to: before a piece runs the closing flags are those of the connections *)
  Definition labels_of (S : stack) (ev : sevent) : list label :=
    match ev with
    | SLabel (Arrive _ _ _) _ => []
    | SLabel (Cluster_ k) _ => [Cluster_ k]
    | SLabel l _ => [Cluster_ (flags (k_link S) (c_cluster (k_cons S))); l]
    | SDone i b _ => match outcome_of S i b with
                     | Some r => [Cluster_ (flags (k_link S) (c_cluster (k_cons S))); Arrive i b r]
                     | None => []
                     end
    | _ => []
    end.

  Definition sstep (S : stack) (ev : sevent) : stack :=
    let s1 := with_flags S in
    match ev with
    | SLabel (Arrive _ _ _) _ => S
    | SLabel (Cluster_ k) _ => Stack (cstep cfg (k_cons S) (Cluster_ k)) (k_last S) (k_link S) (k_wait S) (k_held S)
    | SLabel (Call i o) wr =>
        let s2 := cstep cfg s1 (Call i o) in
        if dmem (c_calls s1) i then Stack s2 (k_last S) (k_link S) (k_wait S) (k_held S) else piece wr i s1 s2 S
    | SLabel (Healed i r) wr =>
        let s2 := cstep cfg s1 (Healed i r) in
        match dget (c_calls s1) i with
        | Some (_, PSend _ _ _) | None => Stack s2 (k_last S) (k_link S) (k_wait S) (k_held S)
        | _ => piece wr i s1 s2 S
        end
    | SLabel l _ => Stack (cstep cfg s1 l) (k_last S) (k_link S) (k_wait S) (k_held S)
    | SConn n (Connection.EvSend _ _) => S
    | SConn n ev => Stack (k_cons S) (k_last S) (put n (happens ev (k_link S n)) (k_link S)) (k_wait S) (k_held S)
    | SMeta n topics wr =>
        match Connection.request_of "metadata"%string MetadataRequest [("topics"%string, PList (map PStr topics))] (k_last S) with
        | Ok (obj, last') => Stack (k_cons S) last' (put n (happens (Connection.EvSend obj wr) (k_link S n)) (k_link S)) (k_wait S) (k_held S)
        | Err _ => S
        end
    | SDone i b wr =>
        match outcome_of S i b with
        | None => S
        | Some r =>
            let s2 := cstep cfg s1 (Arrive i b r) in
            if goes_on s1 i b r then Stack s2 (k_last S) (k_link S) (filter (fun w => negb (is_wait i b w)) (k_wait S)) (k_held S)
            else piece wr i s1 s2 S
        end
    end.
  Definition srun (evs : list sevent) (S : stack) : stack := fold_left sstep evs S.
End Stack.
Arguments stack V : clear implicits.
