(** The program of examples/worker.py: a loop around a grouped consumer that processes what consume() returns and then
    commits, without waiting for the commit. *)
From Coq Require Import ZArith String List Bool.
From Verif Require Import PyBase Constants Cluster Zookeeper Consumer.
Import ListNotations.
Open Scope Z_scope.

Section Worker.
  Context {V : Type}.
  (** args.topic *)
  Variable t : text.
  Variable cfg : config V.

  (** where run() is (examples/worker.py:39-51) *)
  Inductive place :=
  | WInit                     (* line 40, before connect() *)
  | WConnect (i : Z)          (* line 40: connect() waits; its last part, determine_coordinator(), is call [i] *)
  | WConsume (i : Z)          (* line 43: consume() is call [i], which runs or has ended *)
  | WLoop.                    (* line 50 is done: commit_offsets() was called and is not waited for; the loop goes on *)
  (** the consumer, the place, and the messages given to process_message() in passes of the loop that came to line 50 *)
  Record worker := Wk { w_c : consumer V; w_at : place; w_done : list V }.
  Definition worker_init (k : cluster) (name : text) : worker := Wk (consumer_init k name) WInit [].

  (** how a call ended *)
  Definition result_of (c : consumer V) (i : Z) : option (res (rv V)) := option_map snd (find (fun e => fst (fst e) =? i) (c_ended c)).
  (** [msgs], line 43.  A consume() of a closing consumer returns None: line 45 then raises *)
  Definition msgs_of (w : worker) : option (list V) :=
    match w_at w with
    | WConsume i => match result_of (w_c w) i with Some (Ok (RvList ms)) => Some ms | _ => None end
    | _ => None
    end.
  (** what run() calls next, once it can.  If connect() or consume() raises, run() ends: it calls nothing more.
      Simplified: connect()'s parts before determine_coordinator() are the allocator's and the cluster's own events, as in
      Consumer.v; lines 45-46 and 49-50 are one step with the call of commit_offsets(). *)
  Definition next_call (w : worker) : option op :=
    match w_at w with
    | WInit => Some OpCoordinator
    | WConnect i => match result_of (w_c w) i with Some (Ok _) => Some (OpConsume t None) | _ => None end
    | WConsume _ => match msgs_of w with
                    | Some [] => Some (OpConsume t None)               (* line 49: no messages *)
                    | Some (_ :: _) => Some (OpCommit None)            (* lines 45-50 *)
                    | None => None
                    end
    | WLoop => Some (OpConsume t None)                                 (* lines 42-43 *)
    end.
  (** the calls a worker makes are the program's; everything else happens to it *)
  Definition may (w : worker) (l : label) : Prop :=
    match l with
    | Call i o => next_call w = Some o /\ dget (c_calls (w_c w)) i = None /\ result_of (w_c w) i = None
    | _ => True
    end.
  Definition wstep (w : worker) (l : label) : worker :=
    match l with
    | Call i OpCoordinator => Wk (cstep cfg (w_c w) l) (WConnect i) (w_done w)
    | Call i (OpConsume _ _) => Wk (cstep cfg (w_c w) l) (WConsume i) (w_done w)
    | Call i (OpCommit _) => Wk (cstep cfg (w_c w) l) WLoop (w_done w ++ match msgs_of w with Some ms => ms | None => [] end)
    | _ => Wk (cstep cfg (w_c w) l) (w_at w) (w_done w)
    end.
  Definition wrun (ls : list label) (w : worker) : worker := fold_left wstep ls w.
End Worker.
Arguments worker : clear implicits.
