(** Model of kiel/zookeeper: SharedSet (shared_set.py), Party (party.py), PartitionAllocator (allocator.py), and of
    naive_allocator (clients/grouped.py:293-313).  kazoo and the ZooKeeper server are outside: exists, create,
    delete, transactions, get, set and Lock are given their documented meaning here. *)
From Coq Require Import ZArith String List Bool Lia.
From Verif Require Import PyBase Cluster Json.
Import ListNotations.
Open Scope Z_scope.

(** ** Python sets of strings (duplicate free lists; equality is as sets) *)
Definition mkset (l : list text) : list text := fold_left sadd l [].
Definition subset (a b : list text) : bool := forallb (smem b) a.
Definition set_eqb (a b : list text) : bool := subset a b && subset b a.
Definition set_union (a b : list text) : list text := fold_left sadd b a.
Definition set_minus (a b : list text) : list text := filter (fun x => negb (smem b x)) a.
Definition disjointb (a b : list text) : bool := negb (existsb (smem b) a).

(** ** SharedSet *)
Section SharedSet.
  (** the order in which a set is iterated over (list(data), shared_set.py:88) *)
  Variable set_order : list text -> list text.

  (** serialize(), deserialize(): shared_set.py:84-94.  Simplification: kazoo wants bytes for the data of a znode
      and Python 3's json.dumps gives str; the model takes the data as text throughout. *)
  Definition serialize (s : list text) : text := json_dumps (set_order s).
  Definition deserialize (data : text) : res (list text) :=
    match data with [] => Ok [] | _ => l <- json_loads data ;; Ok (mkset l) end.

  Inductive sop := Add (items : list text) | Remove (items : list text).
  (** what add_items (lines 52-63) and remove_items (lines 75-82) do with the set read: [None]: return without
      writing *)
  Definition update (op : sop) (existing : list text) : option (list text) :=
    match op with
    | Add items => if subset items existing then None else Some (set_union existing items)
    | Remove items => if disjointb items existing then None else Some (set_minus existing items)
    end.

  (** where a client is in an add_items/remove_items call.  The steps are the ZooKeeper operations: take the lock,
      get, set (or not), give the lock back. *)
  Inductive phase :=
  | Idle
  | Wanting (op : sop)                      (* before the with statement, lines 51, 74 *)
  | Holding (op : sop)                      (* has the lock *)
  | Got (op : sop) (existing : list text)   (* has read the znode, lines 52, 75 *)
  | Leaving (op : sop).                     (* about to give the lock back *)
  Record shared := Sh {
    z_data : text; z_writes : Z;            (* the znode: its data, how often it was set *)
    z_lock : option Z;                      (* who has the lock *)
    z_phase : Z -> phase;
    z_order : list (Z * sop * bool);        (* ghost: who took the lock, in order, and whether they got through to the update *)
    z_returned : list (Z * sop)             (* ghost: calls that returned *)
  }.
  Inductive slabel :=
  | Call (c : Z) (op : sop) | Acquire (c : Z) | Get (c : Z) | Update (c : Z) | Release (c : Z)
  | Die (c : Z).     (* the client's process or session ends; ZooKeeper releases its lock *)
  Definition upd (f : Z -> phase) (c : Z) (p : phase) : Z -> phase := fun x => if x =? c then p else f x.
  Definition through (l : list (Z * sop * bool)) : list (Z * sop * bool) :=
    match rev l with [] => [] | (c, op, _) :: r => rev ((c, op, true) :: r) end.
  Definition sstep (s : shared) (l : slabel) : shared :=
    match l with
    | Call c op =>
        match z_phase s c with
        | Idle => Sh (z_data s) (z_writes s) (z_lock s) (upd (z_phase s) c (Wanting op)) (z_order s) (z_returned s)
        | _ => s
        end
    | Acquire c =>
        match z_phase s c, z_lock s with
        | Wanting op, None => Sh (z_data s) (z_writes s) (Some c) (upd (z_phase s) c (Holding op)) (z_order s ++ [(c, op, false)]) (z_returned s)
        | _, _ => s
        end
    | Get c =>
        match z_phase s c with
        | Holding op =>
            match deserialize (z_data s) with
            | Ok ex => Sh (z_data s) (z_writes s) (z_lock s) (upd (z_phase s) c (Got op ex)) (z_order s) (z_returned s)
            | Err _ => Sh (z_data s) (z_writes s) None (upd (z_phase s) c Idle) (z_order s) (z_returned s)
            end
        | _ => s
        end
    | Update c =>
        match z_phase s c with
        | Got op ex =>
            match update op ex with
            | None => Sh (z_data s) (z_writes s) (z_lock s) (upd (z_phase s) c (Leaving op)) (through (z_order s)) (z_returned s)
            | Some new => Sh (serialize new) (z_writes s + 1) (z_lock s) (upd (z_phase s) c (Leaving op)) (through (z_order s)) (z_returned s)
            end
        | _ => s
        end
    | Release c =>
        match z_phase s c with
        | Leaving op => Sh (z_data s) (z_writes s) None (upd (z_phase s) c Idle) (z_order s) (z_returned s ++ [(c, op)])
        | _ => s
        end
    | Die c =>
        Sh (z_data s) (z_writes s) (match z_lock s with Some h => if h =? c then None else Some h | None => None end)
          (upd (z_phase s) c Idle) (z_order s) (z_returned s)
    end.
  Definition srun (ls : list slabel) (s : shared) : shared := fold_left sstep ls s.
  Definition shared_init (data : text) : shared := Sh data 0 None (fun _ => Idle) [] [].
End SharedSet.

(** ** Party *)
(** znodes: path -> owning session of an ephemeral node, None for a persistent one *)
Definition znodes := dict text (option Z).
Definition member_path (path name : text) : text := path ++ [47] ++ name.   (* "/".join, party.py:55, 77 *)
(** join(), party.py:40-67: first exists() ... *)
Definition join_look (path name : text) (z : znodes) : option (option Z) := dget z (member_path path name).
(** ... then act on what was seen; other clients may run in between.  create() raises NodeExistsError if there is
    a node; a transaction does all or nothing, and commit() reports failure in its result, which join() ignores. *)
Definition join_act (path name : text) (sid : Z) (seen : option (option Z)) (z : znodes) : res unit * znodes :=
  let p := member_path path name in
  match seen with
  | None => if dmem z p then (Err (EOther 10), z) else (Ok tt, dset z p (Some sid))
  | Some owner =>
      if option_eqb owner (Some sid) then (Ok tt, z)
      else if dmem z p then (Ok tt, dset (ddel z p) p (Some sid)) else (Ok tt, z)
  end.
Definition join (path name : text) (sid : Z) (z : znodes) : res unit * znodes := join_act path name sid (join_look path name z) z.
(** leave(), party.py:69-82 *)
Definition leave (path name : text) (z : znodes) : res unit * znodes := (Ok tt, ddel z (member_path path name)).

(** ** naive_allocator() *)
(** int(s) of decimal digits with an optional sign; other spellings int() accepts count as errors *)
Definition py_int (s : text) : res Z :=
  match s with
  | c :: r => if c =? 45 then n <- int_of_text r ;; Ok (- n) else if c =? 43 then int_of_text r else int_of_text s
  | [] => Err EValue
  end.
Definition topic_map := dict text (list Z).
Definition mapping_tab := dict text topic_map.
(** mapping[member][topic].append(int(partition_id)), grouped.py:311 *)
Definition map_add (mp : mapping_tab) (m t : text) (p : Z) : mapping_tab :=
  let tm := fst (@ddefault text topic_map _ [] mp m) in
  let ps := fst (@ddefault text (list Z) _ [] tm t) in
  dset mp m (dset tm t (ps ++ [p])).
(** lines 309-311; [cur] is what is left of the members in this round of the cycle *)
Fixpoint allocate (members cur : list text) (partitions : list text) (mp : mapping_tab) : res mapping_tab :=
  match partitions with
  | [] => Ok mp
  | part :: rest =>
      match match cur with [] => members | _ => cur end with
      | [] => Ok mp
      | m :: cur' =>
          match split_colon part with
          | [t; pid] => p <- py_int pid ;; allocate members cur' rest (map_add mp m t p)
          | _ => Err EValue
          end
      end
  end.
(** what an allocator_fn returns: a dict, and whether it is a defaultdict *)
Record mapping := Mp { mp_default : bool; mp_tab : mapping_tab }.
Definition naive_allocator (members partitions : list text) : res mapping :=
  mp <- allocate members [] partitions [] ;; Ok (Mp true mp).

(** ** PartitionAllocator *)
(** sorted(): strings in lexicographic order of their code points *)
Fixpoint lex_leb (a b : text) : bool :=
  match a, b with
  | [], _ => true
  | _, [] => false
  | x :: a', y :: b' => if x =? y then lex_leb a' b' else x <? y
  end.
Fixpoint insert_sorted (x : text) (l : list text) : list text :=
  match l with [] => [x] | y :: r => if lex_leb x y then x :: l else y :: insert_sorted x r end.
Fixpoint sorted (l : list text) : list text := match l with [] => [] | x :: r => insert_sorted x (sorted r) end.

Record allocator := Al {
  a_name : text;
  a_members : list text; a_partitions : list text;      (* sets, allocator.py:49, 56 *)
  a_mapping : mapping;                                   (* line 63 *)
  a_members_collected : bool; a_partitions_collected : bool; a_connected : bool;
  a_rebalances : list (list text * list text);           (* ghost: the calls of allocator_fn *)
  a_callbacks : Z                                        (* ghost: the calls of on_rebalance *)
}.
Definition allocator_init (name : text) : allocator := Al name [] [] (Mp false []) false false false [] 0.
(** the allocation property, lines 65-70; reading a defaultdict adds the key *)
Definition allocation (s : allocator) : res topic_map * allocator :=
  match dget (mp_tab (a_mapping s)) (a_name s) with
  | Some tm => (Ok tm, s)
  | None =>
      if mp_default (a_mapping s)
      then (Ok [], Al (a_name s) (a_members s) (a_partitions s) (Mp true (dset (mp_tab (a_mapping s)) (a_name s) []))
                 (a_members_collected s) (a_partitions_collected s) (a_connected s) (a_rebalances s) (a_callbacks s))
      else (Err EKey, s)
  end.
Section Allocator.
  Variable allocator_fn : list text -> list text -> res mapping.
  Variable has_callback : bool.
  (** rebalance(), lines 246-270 *)
  Definition rebalance (s : allocator) : res unit * allocator :=
    let ms := sorted (a_members s) in
    let ps := sorted (a_partitions s) in
    let s1 mp := Al (a_name s) (a_members s) (a_partitions s) mp (a_members_collected s) (a_partitions_collected s) (a_connected s)
                   (a_rebalances s ++ [(ms, ps)]) (a_callbacks s) in
    match allocator_fn ms ps with
    | Err e => (Err e, s1 (a_mapping s))
    | Ok mp =>
        match allocation (s1 mp) with
        | (Err e, s2) => (Err e, s2)
        | (Ok _, s2) =>
            (Ok tt, Al (a_name s2) (a_members s2) (a_partitions s2) (a_mapping s2) (a_members_collected s2) (a_partitions_collected s2)
                      (a_connected s2) (a_rebalances s2) (a_callbacks s2 + (if has_callback then 1 else 0)))
        end
    end.
  Definition with_members (ms : list text) (s : allocator) : allocator :=
    Al (a_name s) ms (a_partitions s) (a_mapping s) (a_members_collected s) (a_partitions_collected s) (a_connected s) (a_rebalances s) (a_callbacks s).
  Definition with_partitions (ps : list text) (s : allocator) : allocator :=
    Al (a_name s) (a_members s) ps (a_mapping s) (a_members_collected s) (a_partitions_collected s) (a_connected s) (a_rebalances s) (a_callbacks s).
  Definition set_mcoll (s : allocator) : allocator :=
    Al (a_name s) (a_members s) (a_partitions s) (a_mapping s) true (a_partitions_collected s) (a_connected s) (a_rebalances s) (a_callbacks s).
  Definition set_pcoll (s : allocator) : allocator :=
    Al (a_name s) (a_members s) (a_partitions s) (a_mapping s) (a_members_collected s) true (a_connected s) (a_rebalances s) (a_callbacks s).
  (** on_group_members_change(), lines 165-181; an exception of rebalance() goes to kazoo's watcher *)
  Definition on_members (new : list text) (s : allocator) : res unit * allocator :=
    let new := mkset new in
    if set_eqb new (a_members s) then (Ok tt, set_mcoll s)
    else match rebalance (with_members new s) with
         | (Err e, s1) => (Err e, s1)
         | (Ok _, s1) => (Ok tt, set_mcoll s1)
         end.
  (** on_partition_change(), lines 183-203; None: the znode does not exist; conn.create() is called with a set as
      value, which kazoo refuses (TypeError) *)
  Definition on_partitions (new : option (list text)) (s : allocator) : res unit * allocator :=
    match new with
    | None => (Err EType, s)
    | Some new =>
        if set_eqb new (a_partitions s) then (Ok tt, set_pcoll s)
        else match rebalance (with_partitions new s) with
             | (Err e, s1) => (Err e, s1)
             | (Ok _, s1) => (Ok tt, set_pcoll s1)
             end
    end.
  (** handle_connection_change(), lines 148-163 *)
  Inductive kstate := LOST | SUSPENDED | CONNECTED.
  Definition on_connection (st : kstate) (s : allocator) : allocator :=
    Al (a_name s) (a_members s) (a_partitions s) (a_mapping s) (a_members_collected s) (a_partitions_collected s)
      (match st with LOST => false | SUSPENDED => false | CONNECTED => true end) (a_rebalances s) (a_callbacks s).

  Inductive aevent := EvMembers (ms : list text) | EvPartitions (ps : option (list text)) | EvState (st : kstate) | EvRead.
  Definition astep (s : allocator) (ev : aevent) : allocator :=
    match ev with
    | EvMembers ms => snd (on_members ms s)
    | EvPartitions ps => snd (on_partitions ps s)
    | EvState st => on_connection st s
    | EvRead => snd (allocation s)            (* somebody reads the allocation property *)
    end.
  Definition arun (evs : list aevent) (s : allocator) : allocator := fold_left astep evs s.
End Allocator.

(** add_partitions(), lines 205-226: the items handed to SharedSet.add_items *)
Definition part_name (topic : text) (p : Z) : text := topic ++ [58] ++ str_of_int p.
Definition add_items_of (partitions : list (text * list Z)) : list text :=
  fold_left (fun acc tp => set_union acc (mkset (map (part_name (fst tp)) (snd tp)))) partitions [].
(** remove_partitions(), lines 228-244: ":".join([topic, partition_id]) wants a string *)
Inductive ids_arg := IdStr (s : text) | IdList (l : list Z).
Fixpoint remove_items_of (partitions : list (text * ids_arg)) : res (list text) :=
  match partitions with
  | [] => Ok []
  | (t, IdStr s) :: r => l <- remove_items_of r ;; Ok ((t ++ [58] ++ s) :: l)
  | (_, IdList _) :: _ => Err EType
  end.

(** ** start() and stop() *)
(** a future; the outer option: completed?; the count of completions is kept to state "at most once" *)
Record future := Fut { f_result : option (res unit); f_completed : nat }.
Definition f_done (f : future) : bool := match f_result f with Some _ => true | None => false end.
Definition f_set (r : res unit) (f : future) : future := Fut (Some r) (S (f_completed f)).
Definition fresh : future := Fut None 0.
Section StartStop.
  Context {W : Type}.
  Definition step := W -> res unit * W.
  (** attempt(), lines 280-287 *)
  Definition attempt (fn : step) (fw : future * W) : future * W :=
    let '(f, w) := fw in
    if f_done f then (f, w)
    else match fn w with
         | (Ok _, w1) => (f, w1)
         | (Err e, w1) => (f_set (Err e) f, w1)
         end.
  (** wait_on_event(): [isset w] says whether the event is or becomes set; if it never does the thread waits for ever *)
  Variables connected members_collected partitions_collected : W -> bool.
  Variables connect party_start set_start party_join add_partitions : step.
  (** start(), lines 86-118; [None]: does not return *)
  Definition start (w : W) : option future * W :=
    let '(f, w1) := attempt connect (fresh, w) in
    if negb (connected w1) then (None, w1)
    else
      let '(f2, w2) := attempt add_partitions (attempt party_join (attempt set_start (attempt party_start (f, w1)))) in
      if f_done f2 then (Some f2, w2)
      else if negb (members_collected w2) then (None, w2)
      else if negb (partitions_collected w2) then (None, w2)
      else (Some (f_set (Ok tt) f2), w2).
  (** stop(), lines 120-139 *)
  Variables party_leave conn_stop conn_close : step.
  Definition stop (w : W) : future * W :=
    let '(f, w1) := attempt conn_close (attempt conn_stop (attempt party_leave (fresh, w))) in
    if f_done f then (f, w1) else (f_set (Ok tt) f, w1).
End StartStop.
