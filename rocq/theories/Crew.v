(** The consumers of a group together: the group in ZooKeeper (Group.v) and the consumer machines of its members
    (Consumer.v).  What a consumer's allocator is told is no longer arbitrary: it is what the watches of the group bring.
    Simplification: the allocator of a member is kept twice, in the group and in the consumer, since each of the two models
    has it; both are told the same at the same moment (C95_one_allocator shows that they always show the same). *)
From Coq Require Import ZArith String List Bool.
From Verif Require Import PyBase Cluster Zookeeper Consumer Group.
Import ListNotations.
Open Scope Z_scope.

(** what the allocator of client [c] is told in a step of the group: on_group_members_change() (allocator.py:165-181),
    on_partition_change() (lines 183-203) and handle_connection_change() (lines 148-163) *)
Definition hears_client (g : group) (ev : gevent) (c : Z) (cl : client) : list aevent :=
  match ev with
  | GStep c' =>
      if c' =? c then
        match g_sid cl, a_connected (g_alloc cl) with
        | Some _, true =>
            match g_at cl, g_wm cl, g_wp cl with
            | AtPartyCall, Got _ ms, _ => [EvMembers ms]
            | AtSetCall, _, Got _ ps => [EvPartitions (Some ps)]
            | _, _, _ => []
            end
        | _, _ => []
        end
      else []
  | GConnect c' => if c' =? c then match g_at cl with Stopped => [] | _ => [EvState CONNECTED] end else []
  | GSuspend c' => if c' =? c then [EvState SUSPENDED] else []
  | GEnd sid => match g_sid cl with Some s => if s =? sid then [EvState LOST] else [] | None => [] end
  | GCallM c' => if c' =? c then match in_party_call cl, g_wm cl with false, Got _ ms => [EvMembers ms] | _, _ => [] end else []
  | GCallP c' => if c' =? c then match in_set_call cl, g_wp cl with false, Got _ ps => [EvPartitions (Some ps)] | _, _ => [] end else []
  | GRead c' => if c' =? c then [EvRead] else []
  | GStop c' => if c' =? c then match g_sid cl, a_connected (g_alloc cl) with Some _, true => [EvState LOST] | _, _ => [] end else []
  | GNew _ _ _ | GRaise _ _ | GLookM _ | GLookP _ | GItems _ | GDie _ => []
  end.
Definition hears (g : group) (ev : gevent) (c : Z) : list aevent :=
  match dget (g_clients g) c with Some cl => hears_client g ev c cl | None => [] end.

Section Crew.
  Context {V : Type}.
  (** the allocator function of the group, grouped.py:34, and the constructor arguments of each consumer, grouped.py:30-57 *)
  Variable fn : list text -> list text -> res mapping.
  Variable cf : Z -> config V.
  Definition own_name (c : Z) : text := match md (cf c) with Grouped _ _ _ name => name | Single => [] end.
  Record crew := Crew_ { w_group : group; w_cons : dict Z (consumer V) }.
  Definition crew_init : crew := Crew_ group_init [].

  Inductive wevent :=
  | WNew (c : Z) (k : cluster)      (* connect(), grouped.py:66-76: the cluster is started, allocator.start(cluster.topics) is called *)
  | WGroup (ev : gevent)            (* ZooKeeper, kazoo's threads, start() and stop() of the allocators *)
  | WDo (c : Z) (l : label).        (* a consumer's coroutines and connections *)

  (** allocator.start() blocks the thread, and with it the consumer, until it is done (lines 103-116) *)
  Definition free (cl : client) : bool := match g_at cl with Started | Failed _ | Stopped => true | _ => false end.
  Definition tell (c : Z) (evs : list aevent) (s : consumer V) : consumer V := crun (cf c) (map Alloc evs) s.
  Definition wstep (w : crew) (e : wevent) : crew :=
    match e with
    | WNew c k =>
        if dmem (g_clients (w_group w)) c || dmem (w_cons w) c then w
        else Crew_ (gstep fn (w_group w) (GNew c (own_name c) (k_topics k))) (dset (w_cons w) c (consumer_init k (own_name c)))
    | WGroup ev =>
        match ev with
        | GNew _ _ _ => w
        | GDie c => Crew_ (gstep fn (w_group w) ev) (ddel (w_cons w) c)
        | _ => Crew_ (gstep fn (w_group w) ev) (map (fun cs => (fst cs, tell (fst cs) (hears (w_group w) ev (fst cs)) (snd cs))) (w_cons w))
        end
    | WDo c l =>
        match l, dget (g_clients (w_group w)) c, dget (w_cons w) c with
        | Alloc _, _, _ => w
        | _, Some cl, Some s => if free cl then Crew_ (w_group w) (dset (w_cons w) c (cstep (cf c) s l)) else w
        | _, _, _ => w
        end
    end.
  Definition wrun (es : list wevent) (w : crew) : crew := fold_left wstep es w.
End Crew.
Arguments crew V : clear implicits.
