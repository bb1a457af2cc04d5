(** Vocabulary for C70-C72: several heal() calls on one Cluster. *)
From Coq Require Import ZArith String List Bool.
From Verif Require Import PyBase Cluster Heals.
Import ListNotations.
Open Scope Z_scope.

(** The metadata answer a step hands to a heal(): start() passes one, otherwise a broker's answer arrives while it waits. *)
Definition given (s : hstate) (l : hlabel) : option (Z * mresp) :=
  match l with
  | Heal i (Some r) => if dmem (h_calls s) i then None else Some (i, r)
  | Answered i (Ok r) _ => match dget (h_calls s) i with Some (HAsk _ _ _ _ _) => Some (i, r) | _ => None end
  | _ => None
  end.
(** all answers heal() [i] got in a run, in order *)
Definition given_now (i : Z) (s : hstate) (l : hlabel) : list mresp :=
  match given s l with Some (j, r) => if Z.eqb j i then [r] else [] | None => [] end.
Fixpoint given_to (i : Z) (ls : list hlabel) (s : hstate) : list mresp :=
  match ls with [] => [] | l :: ls' => given_now i s l ++ given_to i ls' (hstep s l) end.
Definition latest (i : Z) (ls : list hlabel) (s : hstate) (r : mresp) : Prop := exists before, given_to i ls s = before ++ [r].
(** the heal() a step belongs to *)
Definition heal_of (l : hlabel) (i : Z) : Prop :=
  match l with Heal j _ | Answered j _ _ | Connected j _ => j = i | Died _ | Stop => False end.

(** heal() is never called while another one runs *)
Fixpoint one_at_a_time (ls : list hlabel) (s : hstate) : Prop :=
  match ls with
  | [] => True
  | l :: ls' => match l with Heal _ _ => h_calls s = [] | _ => True end /\ one_at_a_time ls' (hstep s l)
  end.
(** Connections.  One is open if it was set up and since then was neither aborted nor closed by the cluster, nor did it die. *)
Definition set_up (s : hstate) (id : nat) : Prop := In (XConnected id) (k_log (h_k s)).
Definition let_go (s : hstate) (id : nat) : Prop := In (XAbort id) (k_log (h_k s)) \/ In (XClose id) (k_log (h_k s)).
Definition died (ls : list hlabel) (s : hstate) (id : nat) : Prop :=
  exists pre post, ls = pre ++ Died id :: post /\ set_up (hrun pre s) id.
Definition still_open (ls : list hlabel) (s : hstate) (id : nat) : Prop :=
  set_up (hrun ls s) id /\ ~ let_go (hrun ls s) id /\ ~ died ls s id.
(** the cluster can use it: it is the connection of some broker *)
Definition at_hand (s : hstate) (id : nat) : Prop := exists b c, dget (k_conns (h_k s)) b = Some c /\ cc_id c = id /\ cc_closing c = false.
(** a Cluster as start() leaves it just before its first heal(): no connections, and the bootstrap connection is closed *)
Definition fresh (k : cluster) : Prop := k_conns k = [] /\ forall id, In (XConnected id) (k_log k) -> In (XClose id) (k_log k).
