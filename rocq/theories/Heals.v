(** kiel/cluster.py again: heal() as a state machine, for several heal() calls on one Cluster at the same time (two
    produce() calls for unknown topics, a flush() and a consume() that both met errors).  The coroutine is cut at its two
    yields, cluster.py:161 (an answer to a metadata request) and :195 (connect()); between them connections may die, stop()
    may be called and other heal() calls may go on.  The pieces use the functions of Cluster.v. *)
From Coq Require Import ZArith String List Bool.
From Verif Require Import PyBase Constants Cluster.
Import ListNotations.
Open Scope Z_scope.

(** where a heal() waits *)
Inductive hpc :=
| HAsk (first : bool) (topics : list text) (keys rest : list Z) (id : nat)
    (* cluster.py:161, in the first call of get_metadata() (line 129) or a later one (line 142); the keys of self.conns when
       the loop over it began, those still to come, and the connection asked *)
| HConn (b : mbroker) (rest : list mbroker) (missing drop : list Z) (id : nat) (r : mresp).
    (* cluster.py:195, for broker [b]; [rest] are the brokers still to come *)
(** how a piece ends *)
Inductive hnext := HAwait (p : hpc) | HReturn | HRaise (e : exn).

(** the loop over self.conns.values(), cluster.py:159-169.  send() on a closing connection fails at once (connection.py:118-120)
    without giving up control. *)
Fixpoint ask_from (first : bool) (topics : list text) (keys bs : list Z) (k : cluster) : hnext * cluster :=
  match bs with
  | [] => (HRaise ENoBrokers, k)
  | b :: rest =>
      match dget (k_conns k) b with
      | None => ask_from first topics keys rest k
      | Some c =>
          if cc_closing c then ask_from first topics keys rest k
          else (HAwait (HAsk first topics keys rest (cc_id c)), emit (XAsk (cc_id c) topics) k)
      end
  end.
(** get_metadata(), cluster.py:146-157 *)
Definition ask_metadata (first : bool) (topics : list text) (k : cluster) : hnext * cluster :=
  ask_from first topics (dkeys (k_conns k)) (dkeys (k_conns k)) k.

(** self.conns[broker_id].abort() for each of to_drop, cluster.py:211-212 (in the order of the connections) *)
Fixpoint abort_all (drop : list Z) (k : cluster) : res unit * cluster :=
  match drop with
  | [] => (Ok tt, k)
  | b :: rest => match dget (k_conns k) b with None => (Err EKey, k) | Some _ => abort_all rest (abort_conn k b) end
  end.
(** the end of process_brokers(), then process_topics() and the test of the while loop: cluster.py:211-214, 139 and 141-144 *)
Definition finish (missing drop : list Z) (r : mresp) (k : cluster) : hnext * cluster :=
  match abort_all drop k with
  | (Err e, k1) => (HRaise e, k1)
  | (Ok _, k1) =>
      let '(topics, k2) := process_topics (mr_topics r) k1 in
      match missing, topics with
      | [], [] => (HReturn, k2)
      | _, _ => ask_metadata false topics k2
      end
  end.
(** the loop over the brokers, cluster.py:188-194 *)
Fixpoint brokers_from (bs : list mbroker) (missing drop : list Z) (r : mresp) (k : cluster) : hnext * cluster :=
  match bs with
  | [] => finish missing drop r k
  | b :: rest =>
      if dmem (k_conns k) (mb_id b) then brokers_from rest missing drop r k
      else (HAwait (HConn b rest missing drop (k_opened k) r), opening (mb_host b) (mb_port b) k)
  end.
(** process_brokers(), cluster.py:184-188, with a new answer *)
Definition go_through (r : mresp) (k : cluster) : hnext * cluster :=
  brokers_from (mr_brokers r) [] (filter (fun b => negb (smem (map mb_id (mr_brokers r)) b)) (dkeys (k_conns k))) r k.

(** the cluster, the heal() calls that run, and (ghost) how those that ended did *)
Record hstate := HS { h_k : cluster; h_calls : dict Z hpc; h_ended : list (Z * res unit) }.
Definition hinit (k : cluster) : hstate := HS k [] [].
Inductive hlabel :=
| Heal (i : Z) (response : option mresp)          (* heal() is called; only start() passes a response, cluster.py:111 *)
| Answered (i : Z) (r : res mresp) (alt : list Z) (* the metadata request heal() [i] waits for ends *)
| Connected (i : Z) (r : res unit)                (* the connect() heal() [i] waits for ends *)
| Died (id : nat)                                 (* a connection starts closing: the broker is gone, or it was aborted *)
| Stop.                                           (* stop() *)
Definition hcontinue (i : Z) (s : hstate) (nk : hnext * cluster) : hstate :=
  match nk with
  | (HAwait p, k) => HS k (dset (h_calls s) i p) (h_ended s)
  | (HReturn, k) => HS k (ddel (h_calls s) i) (h_ended s ++ [(i, Ok tt)])
  | (HRaise e, k) => HS k (ddel (h_calls s) i) (h_ended s ++ [(i, Err e)])
  end.
Definition die (id : nat) (k : cluster) : cluster :=
  set_conns k (map (fun bc => (fst bc, if Nat.eqb (cc_id (snd bc)) id then shut (snd bc) else snd bc)) (k_conns k)).
(** When a request fails the loop over self.conns.values() goes on: Python raises RuntimeError if the size of the dict changed;
    if it did not, but keys were replaced, the order depends on the dict's internals and [alt] is what comes next. *)
Definition hstep (s : hstate) (l : hlabel) : hstate :=
  let k := h_k s in
  match l with
  | Heal i response =>
      if dmem (h_calls s) i then s
      else hcontinue i s (match response with Some r => go_through r (cull k) | None => ask_metadata true [] k end)
  | Answered i r alt =>
      match dget (h_calls s) i with
      | Some (HAsk first topics keys rest id) =>
          match r with
          | Ok r => let k1 := emit (XAnswer id r) k in hcontinue i s (go_through r (if first then cull k1 else k1))
          | Err e =>
              let k1 := emit (XAskFailed id e) k in
              hcontinue i s
                (if skips e
                 then if negb (zlen (k_conns k) =? zlen keys) then (HRaise ERuntime, k1)
                      else ask_from first topics keys (if eqb (dkeys (k_conns k)) keys then rest else alt) k1
                 else (HRaise e, k1))
          end
      | _ => s
      end
  | Connected i r =>
      match dget (h_calls s) i with
      | Some (HConn b rest missing drop id resp) =>
          match r with
          | Ok _ =>
              let k1 := emit (XConnected id) k in
              hcontinue i s (brokers_from rest missing drop resp
                               (set_conns k1 (dset (k_conns k1) (mb_id b) (CC (mb_host b) (mb_port b) id false))))
          | Err e => hcontinue i s (brokers_from rest (sadd missing (mb_id b)) drop resp (emit (XConnectFailed id e) k))
          end
      | _ => s
      end
  | Died id => HS (die id k) (h_calls s) (h_ended s)
  | Stop => HS (Cluster.stop k) (h_calls s) (h_ended s)
  end.
Definition hrun (ls : list hlabel) (s : hstate) : hstate := fold_left hstep ls s.
