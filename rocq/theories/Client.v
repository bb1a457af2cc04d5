(** kiel/clients/client.py: the base client, generic in what a subclass adds: its state [St], its
    handle_<api>_response methods and the result type [R].  The responses are of an arbitrary type. *)
From Coq Require Import ZArith String List Bool.
From Verif Require Import PyBase Cluster.
Import ListNotations.
Open Scope Z_scope.

Section Client.
  Variables St R Resp Rq : Type.
  Variable resp_api : Resp -> string.             (* response.api *)
  (** getattr(self, "handle_%s_response"): takes the subclass state, gives the result and whether it
      set heal_cluster *)
  Variable handler : string -> option (Resp -> St -> res R * bool * St).
  (** self.cluster.heal() *)
  Variable heal_op : St -> out unit * St.
  (** the brokers the cluster has connections for *)
  Variable cluster_conns : St -> dict Z cconn.
  (** request.serialize() and size_struct.pack in Connection.send (connection.py:122-123) *)
  Variable sendable : Rq -> option exn.

  (** Client.__init__, client.py:19-25 (closing is used by the subclasses).  [cl_heals] counts the
      calls of cluster.heal(), [cl_calls] records the handler calls, [cl_sent] the requests sent. *)
  Record client := Client_ {
    cl_st : St;
    cl_heal : bool;
    cl_heals : nat;
    cl_calls : list (string * Resp * res R);
    cl_sent : list (Z * Rq) }.

  (** the dict comprehension of send(), client.py:76-79: requests go out in the order of the dict *)
  Fixpoint send_all (rqs : dict Z Rq) (c : client) : res unit * client :=
    match rqs with
    | [] => (Ok tt, c)
    | (b, rq) :: rest =>
        match dget (cluster_conns (cl_st c)) b with
        | None => (Err EKey, c)
        | Some cn =>
            match (if cc_closing cn then None else sendable rq) with
            | Some e => (Err e, c)
            | None => send_all rest (Client_ (cl_st c) (cl_heal c) (cl_heals c) (cl_calls c) (cl_sent c ++ [(b, rq)]))
            end
        end
    end.

  (** except clauses, client.py:85-95: does this failure set heal_cluster? *)
  Definition sets_heal (e : exn) : bool := match e with EStreamClosed => false | _ => true end.

  (** the while loop, client.py:81-102.  [todo] futures are outstanding; [arrivals] lists the futures in
      the order they complete, each under its broker id (the str()/int() round trip of the broker id
      is the identity). *)
  Fixpoint send_loop (todo : nat) (arrivals : list (Z * res Resp)) (results : dict Z R) (c : client)
    : out (dict Z R) * client :=
    match todo with
    | O => (Ret results, c)
    | S todo' =>
        match arrivals with
        | [] => (Wait, c)
        | (b, Err e) :: rest =>
            send_loop todo' rest results
              (Client_ (cl_st c) (if sets_heal e then true else cl_heal c) (cl_heals c) (cl_calls c) (cl_sent c))
        | (b, Ok r) :: rest =>
            match handler (resp_api r) with
            | None => (Raise EUnhandled, c)
            | Some h =>
                let '(x, flag, st) := h r (cl_st c) in
                let c1 := Client_ st (if flag then true else cl_heal c) (cl_heals c)
                            (cl_calls c ++ [(resp_api r, r, x)]) (cl_sent c) in
                match x with
                | Err e => (Raise e, c1)
                | Ok v => send_loop todo' rest (dset results b v) c1
                end
            end
        end
    end.

  (** client.py:104-108 *)
  Definition send_finish (results : dict Z R) (c : client) : out (dict Z R) * client :=
    if cl_heal c then
      let '(o, st) := heal_op (cl_st c) in
      let c1 := Client_ st (cl_heal c) (S (cl_heals c)) (cl_calls c) (cl_sent c) in
      match o with
      | Ret _ => (Ret results, Client_ st false (cl_heals c1) (cl_calls c1) (cl_sent c1))
      | Raise e => (Raise e, c1)
      | Wait => (Wait, c1)
      end
    else (Ret results, c).

  (** send(), client.py:56-108 *)
  Definition client_send (rqs : dict Z Rq) (arrivals : list (Z * res Resp)) (c : client) : out (dict Z R) * client :=
    match send_all rqs c with
    | (Err e, c1) => (Raise e, c1)
    | (Ok _, c1) =>
        match send_loop (List.length rqs) arrivals [] c1 with
        | (Ret results, c2) => send_finish results c2
        | r => r
        end
    end.
End Client.
