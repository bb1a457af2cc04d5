(** Vocabulary for C99: all members that a group ever has, the offsets it has stored, and what the programs got. *)
From Coq Require Import ZArith String List Bool.
From Verif Require Import PyBase Constants Cluster Zookeeper SpecZk Consumer SpecConsumer SpecGroup SpecLog SpecGroupLog.
From Verif Require SpecGroupAny.
Import ListNotations.
Open Scope Z_scope.

(** an allocator function whose mapping, a dict of dicts, can be asked for any member, like the default one's *)
Definition full_allocator (fn : list text -> list text -> res mapping) : Prop :=
  SpecGroupAny.answers_all fn /\ forall ms ps mp, fn ms ps = Ok mp -> proper mp.

Section SpecTeam.
  Context {V : Type}.
  (** the topic, the logs of its partitions, where the group begins to read them *)
  Variable t : text.
  Variable log : Z -> list (Z * pymsg).
  Variable start : Z -> Z.
  (** the members, by number: their constructor arguments, and the cluster as each finds it *)
  Variable cf : Z -> config V.
  Variable k0 : Z -> cluster.

  (** a history of the group: whose step, and which.  A member joins with its first step; it may stop, or crash, after any *)
  Definition history := list (Z * label).
  Definition own (x : Z) (es : history) : list label := map snd (filter (fun e => fst e =? x) es).
  Definition name_of (x : Z) : text := match md (cf x) with Grouped _ _ _ name => name | Single => [] end.
  Definition member (x : Z) (es : history) : consumer V := crun (cf x) (own x es) (consumer_init (k0 x) (name_of x)).
  (** no autocommit; the allocator function is the default one or any that answers for everybody *)
  Definition plain_members : Prop := forall x, exists g fn name, full_allocator fn /\ md (cf x) = Grouped g fn false name.

  (** some member has sent a commit of offset [o] for partition [p] *)
  Definition committed (es : history) (p o : Z) : Prop := exists es1 x l es2, es = es1 ++ (x, l) :: es2 /\ commits_at t (cf x) (member x es1) l p o.
  (** member [x] has returned the message to its program, if it can deserialize it and the value is not falsy *)
  Definition got (x : Z) (es : history) (m : pymsg) : Prop :=
    forall v, deser (cf x) (msg_value m) = Ok v -> truthy (cf x) v = true -> In v (flat_map (gave t) (c_ended (member x es))).
  (** all messages of a partition before offset [c] have been returned to some program *)
  Definition read_to (es : history) (p c : Z) : Prop := forall o m, In (o, m) (log p) -> start p <= o < c -> exists x, got x es m.

  (** the coordinator: asked where the group is, it names each partition asked for once, and with no error code an offset
      that a member committed before - the last one or an older one - or the group's start *)
  Definition recalls (es : history) (x : Z) (l : label) : Prop :=
    forall i b g asked parts rest, l = Arrive i b (Ok (POffsetFetch ((t, parts) :: rest))) -> waits_for (member x es) i b (ROffsetFetch g t asked) ->
      NoDup (map fst parts) /\ (forall p, In p asked -> In p (map fst parts)) /\
      forall p o, In (p, (no_error, o)) parts -> o = start p \/ committed es p o.
  (** what is asked of a member, its brokers and its ZooKeeper *)
  Definition careful (cfg : config V) (s : consumer V) (l : label) : Prop :=
    (* consume(t) does not overlap with another consume(t); the brokers serve the logs *)
    match l with
    | Call _ (OpConsume t' _) => t' = t -> ~ busy s t
    | Arrive i b (Ok r) => forall rq, waits_for s i b rq -> answers rq r = true -> serves_group t log rq r
    | _ => True
    end /\
    (* a rebalance does not come while consume(t) looks up offsets; it may while it fetches, and during commit_offsets() *)
    (rebalances cfg s l -> forall i, ~ looks_up s i t).
  (** a step makes a consume(t) raise *)
  Definition raises (cfg : config V) (s : consumer V) (l : label) : Prop := exists i o e, In (i, o, Err e) (ended_since s (cstep cfg s l)) /\ on_topic t o.
  (** since the last rebalance, a consume(t) of member [x] has raised, although the positions were known *)
  Definition failed (es : history) (x : Z) : Prop :=
    exists es1 l es2, es = es1 ++ (x, l) :: es2 /\ In t (c_synced (member x es1)) /\ raises (cf x) (member x es1) l /\
      forall es3 l' es4, es2 = es3 ++ (x, l') :: es4 -> ~ rebalances (cf x) (member x (es1 ++ (x, l) :: es3)) l'.
  (** offsets of [t] are sent to be committed - by commit_offsets() when it is called, or again after an answer - only while no
      consume(t) runs, only after one that has looked them up since the last rebalance, and if none has raised since *)
  Definition commits_well (es : history) (x : Z) (l : label) : Prop :=
    forall p c, commits_at t (cf x) (member x es) l p c -> ~ busy (member x es) t /\ In t (c_synced (member x es)) /\ ~ failed es x.
  Definition well_behaved (es : history) : Prop :=
    forall es1 x l es2, es = es1 ++ (x, l) :: es2 -> careful (cf x) (member x es1) l /\ recalls es1 x l /\ commits_well es1 x l.
End SpecTeam.
