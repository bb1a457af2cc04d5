(** Vocabulary for C88: calls that wait for answers over connections. *)
From Coq Require Import ZArith String List Bool.
From Verif Require Import PyBase SpecWire Cluster Consumer Stack.
From Verif Require Connection.
Import ListNotations.
Open Scope Z_scope.

(** no stream is closed under a connection: neither by the broker nor by close() *)
Definition stream_kept (ev : Connection.event) : Prop :=
  match ev with
  | Connection.EvClose | Connection.EvRemoteClose => False
  | Connection.EvWriteFailed e => e <> EStreamClosed
  | Connection.EvSend _ wr => wr <> Some EStreamClosed
  | _ => True
  end.
Definition unbroken (ev : sevent) : Prop :=
  match ev with
  | SLabel _ wr | SDone _ _ wr => forall b, wr b <> Some EStreamClosed
  | SMeta _ _ wr => wr <> Some EStreamClosed
  | SConn _ ev => stream_kept ev
  end.
(** each broker has a connection of its own *)
Definition own_connections (k : cluster) : Prop := NoDup (dkeys (k_conns k)) /\ NoDup (map (fun bc => cc_id (snd bc)) (k_conns k)).
Definition keeps_apart (ev : sevent) : Prop := match ev with SLabel (Cluster_ k) _ => own_connections k | _ => True end.
(** serialize() accepts the request, whatever its correlation id *)
Definition serializes (rq : request) : Prop := forall id, fits 32 id -> exists w, request_wire (id - 1) rq = Ok w.
(** requests with the number of their connection, their future and their correlation id: those of connection [n] *)
Definition on (n : nat) (g : list (nat * (nat * (Z * request)))) : list (nat * (Z * request)) := map snd (filter (fun x => Nat.eqb (fst x) n) g).

(** nothing completes a future of this connection any more: it is closing and its reader has left, or is about to leave,
    its loop (connection.py:148) *)
Definition dead (st : Connection.conn) : Prop := Connection.c_closing st = true /\ (Connection.c_phase st = Connection.PLoop \/ Connection.c_phase st = Connection.PStopped).
(** the request [snd brq] went out on the connection the cluster has for its broker *)
Definition goes_out (k : cluster) (brq : Z * request) (x : nat * (nat * (Z * request))) : Prop :=
  snd (snd (snd x)) = snd brq /\ option_map cc_id (dget (k_conns k) (fst brq)) = Some (fst x).

Section Run.
  Context {V : Type}.
  (** a run that begins with cluster [k] and the process's correlation id at [last] and leads to [S]: each broker keeps a
      connection of its own, the correlation ids do not wrap and every request can be serialized *)
  Record proper (k : cluster) (last : Z) (evs : list sevent) (S : stack V) : Prop := {
    pr_start : own_connections k;
    pr_apart : Forall keeps_apart evs;
    pr_first : 0 <= last;
    pr_last : k_last S < 2 ^ 31;
    pr_serializes : forall b rq, In (b, rq) (c_wire (k_cons S)) -> serializes rq }.
End Run.
