(** Vocabulary for the properties C37-C44 and C48-C52. *)
From Coq Require Import ZArith String List Bool Permutation Sorting.Sorted.
From Verif Require Import PyBase Constants Cluster Zookeeper SpecZk Consumer.
Import ListNotations.
Open Scope Z_scope.

Section Spec.
  Context {V : Type}.
  Variable cfg : config V.

  (** the next offset a consumer will ask for; 0 if none was ever set *)
  Definition position (s : consumer V) (t : text) (p : Z) : Z :=
    match dget (c_offsets s) t with
    | Some d => match dget d p with Some v => v | None => 0 end
    | None => 0
    end.
  (** the leader a partition has by the cluster's tables *)
  Definition leader_of (s : consumer V) (t : text) (p : Z) : option Z :=
    match dget (k_leaders (c_cluster s)) t with Some d => dget d p | None => None end.
  (** the partitions of a topic this consumer is to consume *)
  Definition alloc_of (s : consumer V) (t : text) : list Z :=
    match md cfg with
    | Single => match dget (k_topics (c_cluster s)) t with Some ps => ps | None => [] end
    | Grouped _ _ _ _ => gives_to (a_mapping (c_alloc s)) (a_name (c_alloc s)) t
    end.

  (** the messages that deserialize, with their offsets and values *)
  Definition msg_value (m : pymsg) : pyval := match m with Msg _ _ _ _ v => v end.
  Definition readable (ms : list (Z * pymsg)) : list (Z * V) :=
    flat_map (fun om => match deser cfg (msg_value (snd om)) with Ok v => [(fst om, v)] | Err _ => [] end) ms.
  (** the values in a fetch response: those of the partitions answered without error *)
  Definition part_values (part : Z * (Z * list (Z * pymsg))) : list V :=
    let '(p, (code, ms)) := part in if code =? no_error then map snd (readable ms) else [].
  Definition response_values (r : response) : list V :=
    match r with PFetch ((t, parts) :: _) => flat_map part_values parts | _ => [] end.
  Definition known_code (code : Z) : Prop := exists name, error_name code = Ok name.

  (** a connection to broker [b] requests can be written to *)
  Definition open_conn (s : consumer V) (b : Z) : bool := match dget (k_conns (c_cluster s)) b with Some cn => negb (cc_closing cn) | None => false end.

  (** states a consumer can come to *)
  Definition reachable (s : consumer V) : Prop := exists k name ls, s = crun cfg ls (consumer_init k name).
  (** the requests a step puts on the wire *)
  Definition sent (s : consumer V) (l : label) : list (Z * request) := skipn (length (c_wire s)) (c_wire (cstep cfg s l)).
  Definition is_fetch (t : text) (rq : request) : Prop := exists r mw mb parts, rq = RFetch r mw mb t parts.
  Definition is_lookup (t : text) (rq : request) : Prop := (exists r parts, rq = ROffset r t parts) \/ (exists g ps, rq = ROffsetFetch g t ps).
  Definition is_commit (rq : request) : Prop := exists g topics, rq = RCommit g topics.
  (** the partitions a list of fetch requests asks for, and their byte limits *)
  Definition asked (rqs : list (Z * request)) : list Z := flat_map (fun br => match snd br with RFetch _ _ _ _ parts => map fst parts | _ => [] end) rqs.
  Definition byte_limits (rq : request) : list Z := match rq with RFetch _ _ _ _ parts => map (fun p => snd (snd p)) parts | _ => [] end.
  Definition total (l : list Z) : Z := fold_right Z.add 0 l.
  (** the offsets after which a fetch response moves the position of a partition: those of its messages that deserialize,
      unless negative, in the parts for that partition without error *)
  Definition accepted (parts : list (Z * (Z * list (Z * pymsg)))) (p : Z) : list Z :=
    flat_map (fun part => if (fst part =? p) && (fst (snd part) =? no_error) then filter (fun o => 0 <=? o) (map fst (readable (snd (snd part)))) else []) parts.
  Definition one_past_last (l : list Z) (old : Z) : Z := match rev l with o :: _ => o + 1 | [] => old end.

  (** call [i] waits for an answer of broker [b] to request [rq] *)
  Definition waits_for (s : consumer V) (i b : Z) (rq : request) : Prop :=
    exists o k w rs, dget (c_calls s) i = Some (o, PSend k w rs) /\ dget w b = Some rq.
  (** the responses call [i] takes during a run, in order *)
  Definition takes (s : consumer V) (i : Z) (l : label) : list response :=
    match l with
    | Arrive j b (Ok r) =>
        if j =? i then
          match dget (c_calls s) i with
          | Some (_, PSend _ w _) => match dget w b with Some rq => if answers rq r then [r] else [] | None => [] end
          | _ => []
          end
        else []
    | _ => []
    end.
  Fixpoint taken (i : Z) (ls : list label) (s : consumer V) : list response :=
    match ls with
    | [] => []
    | l :: ls' => takes s i l ++ taken i ls' (cstep cfg s l)
    end.
  (** every step of a run satisfies a condition on the state it happens in *)
  Fixpoint each_step (ok : consumer V -> label -> Prop) (ls : list label) (s : consumer V) : Prop :=
    match ls with
    | [] => True
    | l :: ls' => ok s l /\ each_step ok ls' (cstep cfg s l)
    end.

  (** a call is on a topic *)
  Definition on_topic (t : text) (o : op) : Prop := match o with OpConsume t' _ => t' = t | _ => False end.
  Definition busy (s : consumer V) (t : text) : Prop := exists i o p, dget (c_calls s) i = Some (o, p) /\ on_topic t o.
End Spec.
