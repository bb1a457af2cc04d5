(** The allocator's callbacks as threads run them, and the consumer's thread.
    kazoo calls a watch's function at first in the thread that sets the watch up (start(), allocator.py:105-106) and from
    then on in threads of its own; it has a lock per watch, so that calls for one watch follow each other, but none that
    keeps the calls for the members apart from those for the partitions.  Zookeeper.v and Consumer.v take each call for one
    step at a moment when the consumer waits; here every access to an attribute, set or dict is a step, and the threads'
    steps mix in any way.
    Not modelled: that a step itself is cut in two (CPython runs each of them without letting other threads in), the
    Events that start() waits for, the contents of the responses. *)
From Coq Require Import ZArith String List Bool.
From Verif Require Import PyBase Cluster Zookeeper.
Import ListNotations.
Open Scope Z_scope.

Inductive which := Members | Partitions.
(** where a thread is in on_group_members_change() (allocator.py:165-181) or on_partition_change() (183-203) *)
Inductive at_line :=
| Compare (new : list text)                (* new_members != self.members, lines 177 and 199 *)
| Assign (new : list text)                 (* self.members = new_members, lines 178 and 200 *)
| ReadMembers                              (* sorted(self.members), line 258 *)
| ReadPartitions (ms : list text)          (* sorted(self.partitions), line 259 *)
| Compute (ms ps : list text)              (* self.mapping = self.allocator_fn(members, partitions), line 261 *)
| Iterate                                  (* iter(self.allocation), line 263 *)
| Next (id n i : nat)                      (* the next topic of that dict, line 263 *)
| Show (id n i : nat) (t : text)           (* self.allocation[topic], line 266 *)
| Callback.                                (* self.on_rebalance(), line 270: synced_offsets.clear, grouped.py:53 *)
(** where the consumer's thread is in consume(topic), consumer.py:73-107 *)
Inductive at_consume :=
| Idle
| Look (t : text)                          (* list(self.allocation[topic]), grouped.py:160 *)
| Wait (t : text) (ps : list Z)            (* the response to the OffsetFetchRequest, grouped.py:167 *)
| Test (t : text) (n : nat)                (* topic not in self.allocation, consumer.py:98 and 102 *)
| Test2 (t : text) (n : nat)               (* not self.allocation[topic], consumer.py:98 and 102 *)
| Plan (t : text).                         (* for partition_id in self.allocation[topic], consumer.py:107 *)

Section Threads.
  Variable allocator_fn : list text -> list text -> res mapping.
  Variable name : text.

  Record shared := Sh {
    h_members : list text; h_partitions : list text;
    h_maps : list mapping;                 (* every dict self.mapping has been; it is the last of them *)
    h_synced : list text;                  (* synced_offsets *)
    h_threads : dict Z (which * at_line);  (* calls of the callbacks that run *)
    h_consumer : at_consume;
    h_known : list (text * Z);             (* partitions whose offsets were looked up since the last clear() *)
    h_fetched : list (text * list Z);      (* what consume() planned to fetch *)
    h_raised : list (which * exn) }.       (* exceptions of callbacks: kazoo logs them and goes on *)
  (** __init__(), allocator.py:31-63 *)
  Definition threads_init : shared := Sh [] [] [Mp false []] [] [] Idle [] [] [].

  Definition set_threads th s := Sh (h_members s) (h_partitions s) (h_maps s) (h_synced s) th (h_consumer s) (h_known s) (h_fetched s) (h_raised s).
  Definition set_consumer c s := Sh (h_members s) (h_partitions s) (h_maps s) (h_synced s) (h_threads s) c (h_known s) (h_fetched s) (h_raised s).
  Definition set_maps m s := Sh (h_members s) (h_partitions s) m (h_synced s) (h_threads s) (h_consumer s) (h_known s) (h_fetched s) (h_raised s).
  Definition set_view (w : which) (new : list text) s :=
    match w with
    | Members => Sh new (h_partitions s) (h_maps s) (h_synced s) (h_threads s) (h_consumer s) (h_known s) (h_fetched s) (h_raised s)
    | Partitions => Sh (h_members s) new (h_maps s) (h_synced s) (h_threads s) (h_consumer s) (h_known s) (h_fetched s) (h_raised s)
    end.
  Definition cleared s := Sh (h_members s) (h_partitions s) (h_maps s) [] (h_threads s) (h_consumer s) [] (h_fetched s) (h_raised s).
  Definition set_synced sy kn s := Sh (h_members s) (h_partitions s) (h_maps s) sy (h_threads s) (h_consumer s) kn (h_fetched s) (h_raised s).
  Definition planned t ps s := Sh (h_members s) (h_partitions s) (h_maps s) (h_synced s) (h_threads s) (h_consumer s) (h_known s) (h_fetched s ++ [(t, ps)]) (h_raised s).
  Definition view (w : which) s := match w with Members => h_members s | Partitions => h_partitions s end.

  Definition current (s : shared) : nat := pred (length (h_maps s)).
  Fixpoint put_at {A} (l : list A) (i : nat) (x : A) : list A :=
    match l, i with
    | [], _ => []
    | _ :: r, O => x :: r
    | y :: r, S j => y :: put_at r j x
    end.
  (** self.allocation, lines 66-70: self.mapping[self.consumer_name]; a defaultdict makes the entry *)
  Definition alloc_in (mp : mapping) : res (topic_map * mapping) :=
    match dget (mp_tab mp) name with
    | Some tm => Ok (tm, mp)
    | None => if mp_default mp then Ok ([], Mp true (dset (mp_tab mp) name [])) else Err EKey
    end.
  (** self.allocation[topic]; the inner dicts of a defaultdict are defaultdicts as well *)
  Definition alloc_topic (mp : mapping) (t : text) : res (list Z * mapping) :=
    x <- alloc_in mp ;;
    let '(tm, mp1) := x in
    match dget tm t with
    | Some ps => Ok (ps, mp1)
    | None => if mp_default mp then Ok ([], Mp true (dset (mp_tab mp1) name (dset tm t []))) else Err EKey
    end.
  Definition cur_map (s : shared) : mapping := last (h_maps s) (Mp false []).
  Definition put_cur (mp : mapping) (s : shared) : shared := set_maps (put_at (h_maps s) (current s) mp) s.

  (** one step of a callback *)
  Definition move (k : Z) (w : which) (a : at_line) (s : shared) : shared := set_threads (dset (h_threads s) k (w, a)) s.
  Definition ends (k : Z) (s : shared) : shared := set_threads (ddel (h_threads s) k) s.
  Definition raises (k : Z) (w : which) (e : exn) (s : shared) : shared :=
    Sh (h_members s) (h_partitions s) (h_maps s) (h_synced s) (ddel (h_threads s) k) (h_consumer s) (h_known s) (h_fetched s) (h_raised s ++ [(w, e)]).
  Definition run_callback (k : Z) (w : which) (a : at_line) (s : shared) : shared :=
    match a with
    | Compare new => if set_eqb new (view w s) then ends k s else move k w (Assign new) s
    | Assign new => move k w ReadMembers (set_view w new s)
    | ReadMembers => move k w (ReadPartitions (sorted (h_members s))) s
    | ReadPartitions ms => move k w (Compute ms (sorted (h_partitions s))) s
    | Compute ms ps =>
        match allocator_fn ms ps with
        | Ok mp => move k w Iterate (set_maps (h_maps s ++ [mp]) s)
        | Err e => raises k w e s
        end
    | Iterate =>
        match alloc_in (cur_map s) with
        | Ok (tm, mp) => move k w (Next (current s) (length tm) 0) (put_cur mp s)
        | Err e => raises k w e s
        end
    | Next id n i =>
        match dget (mp_tab (nth id (h_maps s) (Mp false []))) name with
        | Some tm =>
            if negb (Nat.eqb (length tm) n) then raises k w ERuntime s   (* dictionary changed size during iteration *)
            else match nth_error (dkeys tm) i with
                 | Some t => move k w (Show id n i t) s
                 | None => move k w Callback s
                 end
        | None => s
        end
    | Show id n i t =>
        match alloc_topic (cur_map s) t with
        | Ok (_, mp) => move k w (Next id n (S i)) (put_cur mp s)
        | Err e => raises k w e s
        end
    | Callback => ends k (cleared s)
    end.

  (** one step of the consumer's thread *)
  Definition run_consumer (s : shared) : shared :=
    match h_consumer s with
    | Look t =>
        match alloc_topic (cur_map s) t with
        | Ok (ps, mp) => set_consumer (Wait t ps) (put_cur mp s)
        | Err _ => set_consumer Idle s
        end
    | Test t n =>
        match alloc_in (cur_map s) with
        | Ok (tm, mp) =>
            if dmem tm t then set_consumer (Test2 t n) (put_cur mp s)
            else set_consumer (match n with O => Test t 1 | _ => Idle end) (put_cur mp s)   (* heal(), line 100; line 104 *)
        | Err _ => set_consumer Idle s
        end
    | Test2 t n =>
        match alloc_topic (cur_map s) t with
        | Ok (ps, mp) =>
            match ps with
            | [] => set_consumer (match n with O => Test t 1 | _ => Idle end) (put_cur mp s)
            | _ => set_consumer (Plan t) (put_cur mp s)
            end
        | Err _ => set_consumer Idle s
        end
    | Plan t =>
        match alloc_topic (cur_map s) t with
        | Ok (ps, mp) => planned t ps (set_consumer Idle (put_cur mp s))
        | Err _ => set_consumer Idle s
        end
    | Idle | Wait _ _ => s
    end.

  Inductive tevent :=
  | TCall (k : Z) (w : which) (new : list text)   (* a watch calls its function, in thread k *)
  | TRun (k : Z)                                  (* thread k goes on *)
  | UCall (t : text)                              (* consume(topic), up to the test of line 90 *)
  | URun                                          (* the consumer's thread goes on *)
  | UAnswer.                                      (* the offsets come, without errors: line 96 *)
  Definition busy_watch (w : which) (s : shared) : bool :=
    existsb (fun x => match fst (snd x), w with Members, Members | Partitions, Partitions => true | _, _ => false end) (h_threads s).
  Definition tstep (s : shared) (ev : tevent) : shared :=
    match ev with
    | TCall k w new =>
        if busy_watch w s || dmem (h_threads s) k then s
        else move k w (Compare (match w with Members => mkset new | Partitions => new end)) s
    | TRun k => match dget (h_threads s) k with Some (w, a) => run_callback k w a s | None => s end
    | UCall t =>
        match h_consumer s with
        | Idle => set_consumer (if smem (h_synced s) t then Test t 0 else Look t) s
        | _ => s
        end
    | URun => run_consumer s
    | UAnswer =>
        match h_consumer s with
        | Wait t ps => set_consumer (Test t 0) (set_synced (sadd (h_synced s) t) (h_known s ++ map (pair t) ps) s)
        | _ => s
        end
    end.
  Definition trun (evs : list tevent) (s : shared) : shared := fold_left tstep evs s.
End Threads.
