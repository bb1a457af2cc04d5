(** A whole client: on top of the connections (Connection.v, in Stack.v and ProducerStack.v) both the client proper
    and its Cluster.  Where Stack.v and ProducerStack.v let the tables of the cluster change in any way, here they are what
    start(), heal() and stop() (cluster.py, Heals.v) make of the bytes of metadata responses: the metadata requests go out
    over the connections, what arrives on them is parsed, and the connections the cluster opens, aborts and closes are the
    ones the client uses.
    The same for producers and consumers, so the client is a parameter: its state, its steps, its cluster, its connections
    and the last correlation id. *)
From Coq Require Import ZArith String List Bool.
From Verif Require Import PyBase Messages Protocol Schemas Request Cluster Heals ResponseRead Stack.
From Verif Require Connection.
Import ListNotations.
Open Scope Z_scope.

(** MetadataRequest(topics=topics), cluster.py:100 and 162, with the next correlation id *)
Definition meta_object (topics : list text) (last : Z) : res Connection.request :=
  '(obj, _) <- Connection.request_of "metadata"%string MetadataRequest [("topics"%string, PList (map PStr topics))] last ;;
  Ok obj.
(** the future conn.send(MetadataRequest(topics=topics)) gives, or the exception it raises, cluster.py:100 and 161 *)
Definition meta_future (topics : list text) (wr : option exn) (last : Z) (l : link) : res nat :=
  obj <- meta_object topics last ;; fst (Connection.conn_send obj wr (l_conn l)).

(** where start() waits, cluster.py:91 (for a bootstrap host, with those still to come) and 100 *)
Inductive bpc := BConn (rest : list text) (id : nat) | BAsk (id : nat).

Section Full.
  Context {B E : Type}.
  Variable bstep : B -> E -> B.
  Variable cl : B -> cluster.
  Variable ln : B -> nat -> link.
  Variable last : B -> Z.
  (** the events of the client below: its tables change, something happens on a connection, a metadata request is sent *)
  Variable e_cluster : cluster -> E.
  Variable e_conn : nat -> Connection.event -> E.
  Variable e_meta : nat -> list text -> option exn -> E.
  (** the events that are the client's own: its user calls it, a future it waits for is done *)
  Variable own : E -> bool.

  (** the client, the start() and heal() calls that run, (ghost) how those that ended did, and the future of the metadata
      request each of them waits for *)
  Record full := Full {
    f_base : B;
    f_boots : dict Z bpc;
    f_calls : dict Z hpc;
    f_ended : list (Z * res unit);
    f_wait : dict Z (nat * nat) }.
  Definition full_init (b : B) : full := Full b [] [] [] [].
  Definition with_base (b : B) (F : full) : full := Full b (f_boots F) (f_calls F) (f_ended F) (f_wait F).
  (** a start() or heal() raises *)
  Definition fails (i : Z) (e : exn) (F : full) : full :=
    Full (f_base F) (ddel (f_boots F) i) (ddel (f_calls F) i) (f_ended F ++ [(i, Err e)]) (ddel (f_wait F) i).

  (** what the cluster does to the connections.  connect() is over: the read loop starts (connection.py:60-74); abort() and
      close(); a metadata request is sent for call [i], [wr] is what becomes of the write. *)
  Definition perform (i : Z) (wr : option exn) (F : full) (x : effect) : full :=
    match x with
    | XConnected id => with_base (bstep (f_base F) (e_conn id Connection.EvConnected)) F
    | XAbort id => with_base (bstep (f_base F) (e_conn id (Connection.EvAbort None))) F
    | XClose id => with_base (bstep (f_base F) (e_conn id Connection.EvClose)) F
    | XAsk id topics =>
        let b := bstep (f_base F) (e_meta id topics wr) in
        match meta_future topics wr (last (f_base F)) (ln (f_base F) id) with
        | Ok f => Full b (f_boots F) (f_calls F) (f_ended F) (dset (f_wait F) i (id, f))
        | Err e => fails i e (with_base b F)
        end
    | XConnect _ _ _ | XConnectFailed _ _ | XAnswer _ _ | XAskFailed _ _ => F
    end.
  (** the cluster is [k] after a piece of call [i], its record says what the piece did *)
  Definition becomes (i : Z) (wr : option exn) (k : cluster) (F : full) : full :=
    fold_left (perform i wr) (skipn (length (k_log (cl (f_base F)))) (k_log k))
      (with_base (bstep (f_base F) (e_cluster k)) F).
  (** the closing flags are those of the connections themselves *)
  Definition now (F : full) : cluster := flags (ln (f_base F)) (cl (f_base F)).

  (** a piece of Heals.v.  Heals.v goes past a connection that is closing without a trace; the MetadataRequest made for it
      (cluster.py:161-163) takes a correlation id all the same, which is an event of its own here ([FSkip]). *)
  Definition heal_piece (i : Z) (wr : option exn) (l : hlabel) (F : full) : full :=
    let h := hstep (HS (now F) (f_calls F) (f_ended F)) l in
    becomes i wr (h_k h) (Full (f_base F) (f_boots F) (h_calls h) (h_ended h) (f_wait F)).
  (** start(): the loop over the bootstrap hosts, cluster.py:81-92 and 108-109; int(port) is looked at before the
      connection is made *)
  Definition boot_next (i : Z) (hosts : list text) (k : cluster) (F : full) : full :=
    match hosts with
    | [] => fails i ENoBrokers (becomes i None k F)
    | h :: rest =>
        match parse_host h with
        | Err e => fails i e (becomes i None k F)
        | Ok (host, port) =>
            becomes i None (opening host port k) (Full (f_base F) (dset (f_boots F) i (BConn rest (k_opened k))) (f_calls F) (f_ended F) (f_wait F))
        end
    end.

  (** what the future of the metadata request of call [i] holds; [None]: nothing, or a response with a name that is null or
      not UTF-8 *)
  Definition meta_answer (F : full) (i : Z) : option (res mresp) :=
    match dget (f_wait F) i with
    | Some (n, f) =>
        match find (fun fo => Nat.eqb (fst fo) f) (Connection.c_done (l_conn (ln (f_base F) n))) with
        | Some (_, Connection.Got _ _ v) => option_map Ok (metadata_view v)
        | Some (_, Connection.Fail e) => Some (Err e)
        | None => None
        end
    | None => None
    end.

  Inductive fevent :=
  | FOwn (e : E)                                          (* the client takes a step of its own *)
  | FConn (n : nat) (ev : Connection.event)               (* something happens on a connection that was made *)
  | FStart (i : Z) (hosts : list text)                    (* start() is called *)
  | FHeal (i : Z) (wr : option exn)                       (* heal() is called *)
  | FAnswered (i : Z) (alt : list Z) (wr : option exn)    (* the event loop resumes get_metadata() or start() with a future that is done *)
  | FConnected (i : Z) (r : res unit) (wr : option exn)   (* the connect() call [i] waits for ends *)
  | FSkip (n : nat) (topics : list text)                  (* the MetadataRequest get_metadata() makes for a closing connection it then goes past *)
  | FStop.                                                (* stop() is called *)

  Definition fstep (F : full) (ev : fevent) : full :=
    match ev with
    | FOwn e => if own e then with_base (bstep (f_base F) e) F else F
    | FConn n (Connection.EvSend _ _) | FConn n Connection.EvConnected => F
    | FConn n ev => if Nat.ltb n (k_opened (cl (f_base F))) then with_base (bstep (f_base F) (e_conn n ev)) F else F
    | FStart i hosts => if dmem (f_boots F) i || dmem (f_calls F) i then F else boot_next i hosts (now F) F
    | FHeal i wr => if dmem (f_boots F) i then F else heal_piece i wr (Heal i None) F
    | FAnswered i alt wr =>
        match meta_answer F i with
        | None => F
        | Some r =>
            match dget (f_boots F) i with
            | Some (BAsk id) =>                              (* cluster.py:100-111 *)
                match r with
                | Err e => fails i e (becomes i wr (emit (XAskFailed id e) (now F)) F)
                | Ok resp =>
                    let F1 := becomes i wr (emit (XClose id) (emit (XAnswer id resp) (now F))) F in
                    heal_piece i wr (Heal i (Some resp)) (Full (f_base F1) (ddel (f_boots F1) i) (f_calls F1) (f_ended F1) (ddel (f_wait F1) i))
                end
            | Some (BConn _ _) => F
            | None => heal_piece i wr (Answered i r alt) (Full (f_base F) (f_boots F) (f_calls F) (f_ended F) (ddel (f_wait F) i))
            end
        end
    | FConnected i r wr =>
        match dget (f_boots F) i with
        | Some (BConn rest id) =>                            (* cluster.py:91-100 *)
            match r with
            | Err e => boot_next i rest (emit (XConnectFailed id e) (now F)) F
            | Ok _ =>
                becomes i wr (emit (XAsk id []) (emit (XConnected id) (now F)))
                  (Full (f_base F) (dset (f_boots F) i (BAsk id)) (f_calls F) (f_ended F) (f_wait F))
            end
        | Some (BAsk _) => F
        | None => heal_piece i wr (Connected i r) F
        end
    | FSkip n topics => if Connection.c_closing (l_conn (ln (f_base F) n)) then with_base (bstep (f_base F) (e_meta n topics None)) F else F
    | FStop => heal_piece 0 None Stop F
    end.
  Definition frun (evs : list fevent) (F : full) : full := fold_left fstep evs F.
End Full.
Arguments full B : clear implicits.
Arguments fevent E : clear implicits.
