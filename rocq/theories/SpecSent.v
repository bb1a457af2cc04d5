(** Property C61: the requests of the consumers as Kafka reads them. *)
From Coq Require Import ZArith String List Bool.
From Verif Require Import PyBase Utf8 Primitives Protocol Schemas Request SpecWire SpecRequest Constants Cluster Zookeeper Consumer SpecConsumer.
Import ListNotations.
Open Scope Z_scope.

(** a string that fits its two-byte length *)
Definition short_text (t : text) : Prop := exists b, utf8_encode t = Some b /\ zlen b < 2 ^ 15.
(** the numbers and strings of a request fit the fields Kafka has for them *)
Definition fits_kafka (rq : request) : Prop :=
  match rq with
  | RFetch r mw mb t parts => fits 32 r /\ fits 32 mw /\ fits 32 mb /\ short_text t /\ zlen parts < 2 ^ 31 /\
      forall p o limit, In (p, (o, limit)) parts -> fits 32 p /\ fits 64 o /\ fits 32 limit
  | ROffset r t parts => fits 32 r /\ short_text t /\ zlen parts < 2 ^ 31 /\
      forall p time n, In (p, (time, n)) parts -> fits 32 p /\ (exists m, time = PInt m /\ fits 64 m) /\ fits 32 n
  | ROffsetFetch g t ps => short_text g /\ short_text t /\ zlen ps < 2 ^ 31 /\ forall p, In p ps -> fits 32 p
  | RCommit g topics => short_text g /\ zlen topics < 2 ^ 31 /\ forall t parts, In (t, parts) topics -> short_text t /\ zlen parts < 2 ^ 31 /\
      forall p o m, In (p, (o, m)) parts -> fits 32 p /\ fits 64 o /\ short_text m
  | RCoordinator g => short_text g
  end.
(** Kafka's protocol guide, version 0 of each api: the number of the api and the fields of the request, in order.
      FetchRequest => ReplicaId MaxWaitTime MinBytes [TopicName [Partition FetchOffset MaxBytes]]
      OffsetRequest => ReplicaId [TopicName [Partition Time MaxNumberOfOffsets]]
      OffsetFetchRequest => ConsumerGroup [TopicName [Partition]]
      OffsetCommitRequest => ConsumerGroupId [TopicName [Partition Offset Metadata]]
      GroupCoordinatorRequest => GroupId *)
Definition string_bytes (t : text) : bytes := match utf8_encode t with Some b => big_endian 2 (zlen b) ++ b | None => [] end.
Definition array_bytes {A} (item : A -> bytes) (l : list A) : bytes := big_endian 4 (zlen l) ++ concat (map item l).
Definition time_bytes (v : pyval) : bytes := match v with PInt n => big_endian 8 n | _ => [] end.
Definition kafka_api (rq : request) : Z :=
  match rq with RFetch _ _ _ _ _ => 1 | ROffset _ _ _ => 2 | RCommit _ _ => 8 | ROffsetFetch _ _ _ => 9 | RCoordinator _ => 10 end.
Definition kafka_payload (rq : request) : bytes :=
  match rq with
  | RFetch r mw mb t parts => big_endian 4 r ++ big_endian 4 mw ++ big_endian 4 mb ++
      array_bytes (fun parts => string_bytes t ++ array_bytes (fun '(p, (o, limit)) => big_endian 4 p ++ big_endian 8 o ++ big_endian 4 limit) parts) [parts]
  | ROffset r t parts => big_endian 4 r ++
      array_bytes (fun parts => string_bytes t ++ array_bytes (fun '(p, (time, n)) => big_endian 4 p ++ time_bytes time ++ big_endian 4 n) parts) [parts]
  | ROffsetFetch g t ps => string_bytes g ++ array_bytes (fun ps => string_bytes t ++ array_bytes (big_endian 4) ps) [ps]
  | RCommit g topics => string_bytes g ++
      array_bytes (fun '(t, parts) => string_bytes t ++ array_bytes (fun '(p, (o, m)) => big_endian 4 p ++ big_endian 8 o ++ string_bytes m) parts) topics
  | RCoordinator g => string_bytes g
  end.

Section SpecSent.
  Context {V : Type}.
  Variable cfg : config V.
  (** what the consumer is given fits: its configuration *)
  Definition config_fits : Prop := fits 32 (max_wait cfg) /\ fits 32 (min_bytes cfg) /\ fits 32 (max_bytes cfg) /\
    match md cfg with Single => True | Grouped g _ _ name => short_text g /\ short_text (txt "committed by " ++ name) end.
  (** the arguments of its calls, *)
  Definition op_fits (o : op) : Prop :=
    match o with
    | OpConsume t start => short_text t /\ match start with None => True | Some (StInt n) => fits 64 n | _ => md cfg <> Single end
    | OpCommit (Some m) => short_text m
    | _ => True
    end.
  (** the offsets in the answers of the brokers (they can be counted up by one), *)
  Definition offset_fits (o : Z) : Prop := - 2 ^ 63 <= o < 2 ^ 63 - 1.
  Definition answer_fits (r : response) : Prop :=
    match r with
    | PFetch topics => forall t parts p code ms o m, In (t, parts) topics -> In (p, (code, ms)) parts -> In (o, m) ms -> offset_fits o
    | POffset topics => forall t parts p code offs o, In (t, parts) topics -> In (p, (code, offs)) parts -> In o offs -> offset_fits o
    | POffsetFetch topics => forall t parts p code o, In (t, parts) topics -> In (p, (code, o)) parts -> offset_fits o
    | _ => True
    end.
  (** the topics and partitions it may consume. *)
  Definition allocation_fits (s : consumer V) : Prop :=
    (forall t, zlen (alloc_of cfg s t) < 2 ^ 31 /\ forall p, In p (alloc_of cfg s t) -> fits 32 p) /\
    match md cfg with
    | Single => True
    | Grouped _ _ _ _ => forall am, dget (mp_tab (a_mapping (c_alloc s))) (a_name (c_alloc s)) = Some am ->
        zlen am < 2 ^ 31 /\ forall t ps, In (t, ps) am -> short_text t /\ zlen ps < 2 ^ 31 /\ forall p, In p ps -> fits 32 p
    end.
  Definition step_fits (s : consumer V) (l : label) : Prop :=
    match l with Call _ o => op_fits o | Arrive _ _ (Ok r) => answer_fits r | _ => True end /\ allocation_fits s /\ allocation_fits (cstep cfg s l).
End SpecSent.
