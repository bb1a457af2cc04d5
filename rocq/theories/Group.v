(** A consumer group: the znodes of the group and the allocators of its members (Zookeeper.v), each running start() in
    its own thread and called back by kazoo's watches.  kazoo and the ZooKeeper server have their documented meaning:
    a ChildrenWatch or DataWatch calls back once when it is set up, again after every change, and again after a
    reconnect, each time with what it then reads; between reading and calling back more may change.
    Simplifications: the znodes are the children of the group's members path, named by what follows it (C55 has the
    paths); the shared set is its items, and adding to it is one step (C53); a client learns at once that its session
    ended. *)
From Coq Require Import ZArith String List Bool.
From Verif Require Import PyBase Cluster Zookeeper.
Import ListNotations.
Open Scope Z_scope.

(** where start() is, allocator.py:86-118; join() looks first and then acts on what it saw (party.py:56-67) *)
Inductive progress :=
| Connecting | AtParty | AtPartyCall | AtSet | AtSetCall | AtJoin | AtJoinAct (seen : option Z) | AtAdd | Waiting
| Started | Failed (e : exn) | Stopped.
(** a watch (party.py:35-37, shared_set.py:36-41): not set up; nothing to do; something changed; read, but not yet
    called back, and whether something changed since *)
Inductive watch := Off | Quiet | Due | Got (changed : bool) (read : list text).
Record client := Clt {
  g_sid : option Z;                       (* the session: client_id[0] *)
  g_alloc : allocator;
  g_at : progress;
  g_seed : list (text * list Z);          (* the argument of start() *)
  g_wm : watch; g_wp : watch;             (* ChildrenWatch, DataWatch *)
  g_joined : option Z                     (* ghost: the session in which join() was done *)
}.
Record group := Grp {
  g_children : dict text Z;               (* the member znodes and the sessions that own them: ephemeral *)
  g_items : list text;                    (* the shared set *)
  g_clients : dict Z client;
  g_next : Z                              (* the next session *)
}.
Definition group_init : group := Grp [] [] [] 0.

Definition set_alloc (a : allocator) (cl : client) : client := Clt (g_sid cl) a (g_at cl) (g_seed cl) (g_wm cl) (g_wp cl) (g_joined cl).
Definition set_at (p : progress) (cl : client) : client := Clt (g_sid cl) (g_alloc cl) p (g_seed cl) (g_wm cl) (g_wp cl) (g_joined cl).
Definition set_wm (w : watch) (cl : client) : client := Clt (g_sid cl) (g_alloc cl) (g_at cl) (g_seed cl) w (g_wp cl) (g_joined cl).
Definition set_wp (w : watch) (cl : client) : client := Clt (g_sid cl) (g_alloc cl) (g_at cl) (g_seed cl) (g_wm cl) w (g_joined cl).
Definition set_sid (s : option Z) (cl : client) : client := Clt s (g_alloc cl) (g_at cl) (g_seed cl) (g_wm cl) (g_wp cl) (g_joined cl).
Definition set_joined (s : option Z) (cl : client) : client := Clt (g_sid cl) (g_alloc cl) (g_at cl) (g_seed cl) (g_wm cl) (g_wp cl) s.

Definition fires (w : watch) : watch := match w with Off => Off | Quiet | Due => Due | Got _ s => Got true s end.
Definition called (w : watch) : watch := match w with Got true _ => Due | Got false _ => Quiet | _ => w end.
Definition members_change (cs : dict Z client) : dict Z client := map (fun kc => (fst kc, set_wm (fires (g_wm (snd kc))) (snd kc))) cs.
Definition items_change (cs : dict Z client) : dict Z client := map (fun kc => (fst kc, set_wp (fires (g_wp (snd kc))) (snd kc))) cs.
Definition put_client (c : Z) (cl : client) (g : group) : group := Grp (g_children g) (g_items g) (dset (g_clients g) c cl) (g_next g).
Definition put_children (ch : dict text Z) (g : group) : group := Grp ch (g_items g) (members_change (g_clients g)) (g_next g).
Definition put_items (items : list text) (g : group) : group := Grp (g_children g) items (items_change (g_clients g)) (g_next g).
(** the znodes of a session go when it ends *)
Definition without (sid : Z) (ch : dict text Z) : dict text Z := filter (fun no => negb (snd no =? sid)) ch.

Inductive gevent :=
| GNew (c : Z) (name : text) (seed : list (text * list Z))   (* a consumer is made and calls allocator.start() *)
| GStep (c : Z)                                              (* start() takes its next step *)
| GRaise (c : Z) (e : exn)                                   (* a call of start() to ZooKeeper raises *)
| GConnect (c : Z) | GSuspend (c : Z)                        (* handle_connection_change() *)
| GEnd (sid : Z)                                             (* the server ends a session *)
| GLookM (c : Z) | GCallM (c : Z) | GLookP (c : Z) | GCallP (c : Z)   (* kazoo's threads *)
| GRead (c : Z)                                              (* the consumer reads its allocation *)
| GItems (items : list text)                                 (* other calls change the shared set *)
| GStop (c : Z)                                              (* allocator.stop(), lines 120-139 *)
| GDie (c : Z).                                              (* the process dies; the session goes on until GEnd *)

Section Group.
  Variable fn : list text -> list text -> res mapping.
  (** on_rebalance is always given, grouped.py:53 *)
  Definition saw_members (ms : list text) (cl : client) : res unit * client :=
    let '(r, a) := on_members fn true ms (g_alloc cl) in (r, set_alloc a cl).
  Definition saw_items (ps : list text) (cl : client) : res unit * client :=
    let '(r, a) := on_partitions fn true (Some ps) (g_alloc cl) in (r, set_alloc a cl).
  Definition on_state (st : kstate) (cl : client) : client := set_alloc (on_connection st (g_alloc cl)) cl.
  (** [attempt]: after an exception no further step runs *)
  Definition next (r : res unit) (p : progress) : progress := match r with Ok _ => p | Err e => Failed e end.

  (** one step of start(); ZooKeeper calls wait for a connection *)
  Definition start_step (c : Z) (cl : client) (g : group) : group :=
    let name := a_name (g_alloc cl) in
    match g_sid cl, a_connected (g_alloc cl) with
    | Some sid, true =>
        match g_at cl with
        | Connecting => put_client c (set_at AtParty cl) g
        | AtParty => put_client c (set_at AtPartyCall (set_wm (Got false (dkeys (g_children g))) cl)) g
        | AtPartyCall =>
            match g_wm cl with
            | Got _ ms => let '(r, cl1) := saw_members ms cl in put_client c (set_at (next r AtSet) (set_wm (called (g_wm cl)) cl1)) g
            | _ => g
            end
        | AtSet => put_client c (set_at AtSetCall (set_wp (Got false (g_items g)) cl)) g
        | AtSetCall =>
            match g_wp cl with
            | Got _ ps => let '(r, cl1) := saw_items ps cl in put_client c (set_at (next r AtJoin) (set_wp (called (g_wp cl)) cl1)) g
            | _ => g
            end
        | AtJoin => put_client c (set_at (AtJoinAct (dget (g_children g) name)) cl) g
        | AtJoinAct None =>
            if dmem (g_children g) name then put_client c (set_at (Failed (EOther 10)) cl) g
            else put_children (dset (g_children g) name sid) (put_client c (set_at AtAdd (set_joined (Some sid) cl)) g)
        | AtJoinAct (Some owner) =>
            let cl1 := set_at AtAdd (set_joined (Some sid) cl) in
            if owner =? sid then put_client c cl1 g
            else if dmem (g_children g) name then put_children (dset (ddel (g_children g) name) name sid) (put_client c cl1 g)
            else put_client c cl1 g
        | AtAdd =>
            let items := add_items_of (g_seed cl) in
            let g1 := put_client c (set_at Waiting cl) g in
            if subset items (g_items g) then g1 else put_items (set_union (g_items g) items) g1
        | Waiting => if a_members_collected (g_alloc cl) && a_partitions_collected (g_alloc cl) then put_client c (set_at Started cl) g else g
        | Started | Failed _ | Stopped => g
        end
    | _, _ => g
    end.

  Definition in_party_call (cl : client) : bool := match g_at cl with AtPartyCall => true | _ => false end.
  Definition in_set_call (cl : client) : bool := match g_at cl with AtSetCall => true | _ => false end.

  Definition gstep (g : group) (ev : gevent) : group :=
    match ev with
    | GNew c name seed => if dmem (g_clients g) c then g else put_client c (Clt None (allocator_init name) Connecting seed Off Off None) g
    | GItems items => put_items items g
    | GEnd sid =>
        let g1 := put_children (without sid (g_children g)) g in
        Grp (g_children g1) (g_items g1)
          (map (fun kc => (fst kc, if match g_sid (snd kc) with Some s => s =? sid | None => false end then on_state LOST (set_sid None (snd kc)) else snd kc)) (g_clients g1)) (g_next g1)
    | GDie c => Grp (g_children g) (g_items g) (ddel (g_clients g) c) (g_next g)
    | GStep c => match dget (g_clients g) c with Some cl => start_step c cl g | None => g end
    | GRaise c e =>
        match dget (g_clients g) c with
        | Some cl => match g_at cl with
                     | AtParty | AtSet | AtJoin | AtJoinAct _ | AtAdd => put_client c (set_at (Failed e) cl) g
                     | _ => g
                     end
        | None => g
        end
    | GConnect c =>
        match dget (g_clients g) c with
        | Some cl =>
            match g_at cl, g_sid cl with
            | Stopped, _ => g
            | _, Some _ => put_client c (set_wm (fires (g_wm cl)) (set_wp (fires (g_wp cl)) (on_state CONNECTED cl))) g
            | _, None =>
                let g1 := put_client c (set_wm (fires (g_wm cl)) (set_wp (fires (g_wp cl)) (on_state CONNECTED (set_sid (Some (g_next g)) cl)))) g in
                Grp (g_children g1) (g_items g1) (g_clients g1) (g_next g + 1)
            end
        | None => g
        end
    | GSuspend c => match dget (g_clients g) c with Some cl => put_client c (on_state SUSPENDED cl) g | None => g end
    | GLookM c =>
        match dget (g_clients g) c with
        | Some cl => if a_connected (g_alloc cl) then match g_wm cl with Due => put_client c (set_wm (Got false (dkeys (g_children g))) cl) g | _ => g end else g
        | None => g
        end
    | GLookP c =>
        match dget (g_clients g) c with
        | Some cl => if a_connected (g_alloc cl) then match g_wp cl with Due => put_client c (set_wp (Got false (g_items g)) cl) g | _ => g end else g
        | None => g
        end
    | GCallM c =>
        match dget (g_clients g) c with
        | Some cl => match in_party_call cl, g_wm cl with
                     | false, Got _ ms => let '(_, cl1) := saw_members ms cl in put_client c (set_wm (called (g_wm cl)) cl1) g
                     | _, _ => g
                     end
        | None => g
        end
    | GCallP c =>
        match dget (g_clients g) c with
        | Some cl => match in_set_call cl, g_wp cl with
                     | false, Got _ ps => let '(_, cl1) := saw_items ps cl in put_client c (set_wp (called (g_wp cl)) cl1) g
                     | _, _ => g
                     end
        | None => g
        end
    | GRead c => match dget (g_clients g) c with Some cl => put_client c (set_alloc (snd (allocation (g_alloc cl))) cl) g | None => g end
    | GStop c =>
        match dget (g_clients g) c with
        | Some cl =>
            match g_sid cl, a_connected (g_alloc cl) with
            | Some sid, true =>
                put_children (without sid (ddel (g_children g) (a_name (g_alloc cl))))
                  (put_client c (set_at Stopped (set_wm Off (set_wp Off (on_state LOST (set_sid None cl))))) g)
            | _, _ => g
            end
        | None => g
        end
    end.
  Definition grun (evs : list gevent) (g : group) : group := fold_left gstep evs g.
End Group.
