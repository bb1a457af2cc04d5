(** The declared [parts] of every protocol class in kiel/protocol. *)
From Coq Require Import ZArith String List Bool.
From Verif Require Import PyBase Primitives Protocol Request.
Import ListNotations.
Local Open Scope string_scope.

Definition I8 := TPrim Int8. Definition I16 := TPrim Int16.
Definition I32 := TPrim Int32. Definition I64 := TPrim Int64.
Definition Str := TPrim String_. Definition Byt := TPrim Bytes_.
Definition fields := list (string * ty).

(** produce.py:20-107 *)
Definition produce_PartitionRequest : fields := [("partition_id", I32); ("message_set", TMsgSet)].
Definition produce_TopicRequest : fields := [("name", Str); ("partitions", TArray (TPart produce_PartitionRequest))].
Definition ProduceRequest : fields :=
  [("required_acks", I16); ("timeout", I32); ("topics", TArray (TPart produce_TopicRequest))].
Definition produce_PartitionResponse : fields := [("partition_id", I32); ("error_code", I16); ("offset", I64)].
Definition produce_TopicResponse : fields := [("name", Str); ("partitions", TArray (TPart produce_PartitionResponse))].
Definition ProduceResponse : fields := [("topics", TArray (TPart produce_TopicResponse))].

(** fetch.py:21-114 *)
Definition fetch_PartitionRequest : fields := [("partition_id", I32); ("offset", I64); ("max_bytes", I32)].
Definition fetch_TopicRequest : fields := [("name", Str); ("partitions", TArray (TPart fetch_PartitionRequest))].
Definition FetchRequest : fields :=
  [("replica_id", I32); ("max_wait_time", I32); ("min_bytes", I32); ("topics", TArray (TPart fetch_TopicRequest))].
Definition fetch_PartitionResponse : fields :=
  [("partition_id", I32); ("error_code", I16); ("highwater_mark_offset", I64); ("message_set", TMsgSet)].
Definition fetch_TopicResponse : fields := [("name", Str); ("partitions", TArray (TPart fetch_PartitionResponse))].
Definition FetchResponse : fields := [("topics", TArray (TPart fetch_TopicResponse))].

(** offset.py:19-106 *)
Definition offset_PartitionRequest : fields := [("partition_id", I32); ("time", I64); ("max_offsets", I32)].
Definition offset_TopicRequest : fields := [("name", Str); ("partitions", TArray (TPart offset_PartitionRequest))].
Definition OffsetRequest : fields := [("replica_id", I32); ("topics", TArray (TPart offset_TopicRequest))].
Definition offset_PartitionResponse : fields := [("partition_id", I32); ("error_code", I16); ("offsets", TArray I64)].
Definition offset_TopicResponse : fields := [("name", Str); ("partitions", TArray (TPart offset_PartitionResponse))].
Definition OffsetResponse : fields := [("topics", TArray (TPart offset_TopicResponse))].

(** offset_commit.py:23-184; TopicV1Request declares its partitions field as a single
    PartitionV1Request (:81) *)
Definition commit_PartitionRequest : fields := [("partition_id", I32); ("offset", I64); ("metadata", Str)].
Definition commit_PartitionV1Request : fields :=
  [("partition_id", I32); ("offset", I64); ("timestamp", I64); ("metadata", Str)].
Definition commit_TopicRequest : fields := [("name", Str); ("partitions", TArray (TPart commit_PartitionRequest))].
Definition commit_TopicV1Request : fields := [("name", Str); ("partitions", TPart commit_PartitionV1Request)].
Definition OffsetCommitV0Request : fields := [("group", Str); ("topics", TArray (TPart commit_TopicRequest))].
Definition OffsetCommitV1Request : fields :=
  [("group", Str); ("generation", I32); ("consumer_id", I32); ("topics", TArray (TPart commit_TopicV1Request))].
Definition OffsetCommitV2Request : fields :=
  [("group", Str); ("generation", I32); ("consumer_id", I32); ("retention_time", I64);
   ("topics", TArray (TPart commit_TopicRequest))].
Definition commit_PartitionResponse : fields := [("partition_id", I32); ("error_code", I16)].
Definition commit_TopicResponse : fields := [("name", Str); ("partitions", TArray (TPart commit_PartitionResponse))].
Definition OffsetCommitResponse : fields := [("topics", TArray (TPart commit_TopicResponse))].

(** offset_fetch.py:18-91 *)
Definition ofetch_TopicRequest : fields := [("name", Str); ("partitions", TArray I32)].
Definition OffsetFetchRequest : fields := [("group_name", Str); ("topics", TArray (TPart ofetch_TopicRequest))].
Definition ofetch_PartitionResponse : fields :=
  [("partition_id", I32); ("offset", I64); ("metadata", Str); ("error_code", I16)].
Definition ofetch_TopicResponse : fields := [("name", Str); ("partitions", TArray (TPart ofetch_PartitionResponse))].
Definition OffsetFetchResponse : fields := [("topics", TArray (TPart ofetch_TopicResponse))].

(** metadata.py:18-97 *)
Definition MetadataRequest : fields := [("topics", TArray Str)].
Definition Broker : fields := [("broker_id", I32); ("host", Str); ("port", I32)].
Definition PartitionMetadata : fields :=
  [("error_code", I16); ("partition_id", I32); ("leader", I32); ("replicas", TArray I32); ("isrs", TArray I32)].
Definition TopicMetadata : fields :=
  [("error_code", I16); ("name", Str); ("partitions", TArray (TPart PartitionMetadata))].
Definition MetadataResponse : fields :=
  [("brokers", TArray (TPart Broker)); ("topics", TArray (TPart TopicMetadata))].

(** coordinator.py:14-45 *)
Definition GroupCoordinatorRequest : fields := [("group", Str)].
Definition GroupCoordinatorResponse : fields :=
  [("error_code", I16); ("coordinator_id", I32); ("coordinator_host", Str); ("coordinator_port", I32)].

(** join_group.py:18-93 *)
Definition GroupProtocol : fields :=
  [("name", Str); ("version", I16); ("subscription", TArray Str); ("user_data", Byt)].
Definition JoinGroupRequest : fields :=
  [("group_id", Str); ("session_timeout", I32); ("member_id", Str); ("protocol_type", Str);
   ("group_protocols", TArray (TPart GroupProtocol))].
Definition Member : fields := [("member_id", Str); ("metadata", Byt)].
Definition JoinGroupResponse : fields :=
  [("error_code", I16); ("generation_id", I32); ("protocol", Str); ("leader_id", Str); ("member_id", Str);
   ("members", TArray (TPart Member))].

(** sync_group.py:18-95 *)
Definition sync_TopicAssignment : fields := [("name", Str); ("partitions", TArray I32)].
Definition sync_Assignment : fields :=
  [("version", I16); ("topics", TArray (TPart sync_TopicAssignment)); ("user_data", Byt)].
Definition MemberAssignment : fields := [("member_id", Str); ("assignment", TPart sync_Assignment)].
Definition SyncGroupRequest : fields :=
  [("group_id", Str); ("generation_id", I32); ("member_id", Str); ("assignments", TArray (TPart MemberAssignment))].
Definition SyncGroupResponse : fields := [("error_code", I16); ("assignments", TArray (TPart MemberAssignment))].

(** leave_group.py:15-42 *)
Definition LeaveGroupRequest : fields := [("group_id", Str); ("member_id", Str)].
Definition LeaveGroupResponse : fields := [("error_code", I16)].

(** list_groups.py:17-55 *)
Definition ListGroupsRequest : fields := [].
Definition Group : fields := [("group_id", Str); ("protocol_type", Str)].
Definition ListGroupsResponse : fields := [("error_code", I16); ("groups", TArray (TPart Group))].

(** describe_groups.py:20-117 *)
Definition DescribeGroupsRequest : fields := [("groups", TArray Str)].
Definition desc_TopicAssignment : fields := [("name", Str); ("partitions", TArray I32)].
Definition desc_Assignment : fields :=
  [("version", I16); ("topics", TArray (TPart desc_TopicAssignment)); ("user_data", Byt)].
Definition MemberDescription : fields :=
  [("member_id", Str); ("client_id", Str); ("client_host", Str); ("metadata", Byt);
   ("assignment", TPart desc_Assignment)].
Definition GroupDescription : fields :=
  [("error_code", I16); ("group_id", Str); ("state", Str); ("protocol_type", Str); ("protocol", Str);
   ("members", TArray (TPart MemberDescription))].
Definition DescribeGroupsResponse : fields := [("groups", TArray (TPart GroupDescription))].

(** An element of a [parts] tuple as written in the source: normally a (name, class) pair.
    heartbeat.py:26-30 and :42-44 list bare strings and bare classes instead. *)
Inductive part_item := Pair (name : string) (t : ty) | BareName (s : string) | BareClass (t : ty).
Definition pairs (fs : fields) : list part_item := map (fun nt => Pair (fst nt) (snd nt)) fs.
Definition HeartbeatRequest : list part_item :=
  [BareName "group_id"; BareClass Str; BareName "generation_id"; BareClass I32; BareName "member_id"; BareClass Str].
Definition HeartbeatResponse : list part_item := [BareName "error_code"; BareClass I16].

(** [item[0] for item in self.parts], part.py:15: indexing a class is a TypeError, indexing a
    string gives its first character *)
Fixpoint part_names (ps : list part_item) : res (list string) :=
  match ps with
  | [] => Ok []
  | Pair n _ :: r => ns <- part_names r ;; Ok (n :: ns)
  | BareName s :: r => ns <- part_names r ;; Ok (String.substring 0 1 s :: ns)
  | BareClass _ :: r => Err EType
  end.

(** "for name, part in cls.parts", part.py:39,62: unpacking a string of length other than two is a
    ValueError, unpacking a class a TypeError.  (A two character string would unpack into two
    characters; no such string occurs: EOther 2.) *)
Fixpoint unpack_parts (ps : list part_item) : res fields :=
  match ps with
  | [] => Ok []
  | Pair n t :: r => fs <- unpack_parts r ;; Ok ((n, t) :: fs)
  | BareName s :: r => if (String.length s =? 2)%nat then Err (EOther 2) else Err EValue
  | BareClass _ :: r => Err EType
  end.

(** Calling a Part class, part.py:14-21, with the parts tuple as written *)
Definition class_init (ps : list part_item) (kwargs : dict string pyval) : res (dict string pyval) :=
  names <- part_names ps ;; part_init names kwargs [].

(** All classes: module, class name, parts. *)
Definition classes : list (string * string * list part_item) :=
  [("produce", "PartitionRequest", pairs produce_PartitionRequest);
   ("produce", "TopicRequest", pairs produce_TopicRequest);
   ("produce", "ProduceRequest", pairs ProduceRequest);
   ("produce", "PartitionResponse", pairs produce_PartitionResponse);
   ("produce", "TopicResponse", pairs produce_TopicResponse);
   ("produce", "ProduceResponse", pairs ProduceResponse);
   ("fetch", "PartitionRequest", pairs fetch_PartitionRequest);
   ("fetch", "TopicRequest", pairs fetch_TopicRequest);
   ("fetch", "FetchRequest", pairs FetchRequest);
   ("fetch", "PartitionResponse", pairs fetch_PartitionResponse);
   ("fetch", "TopicResponse", pairs fetch_TopicResponse);
   ("fetch", "FetchResponse", pairs FetchResponse);
   ("offset", "PartitionRequest", pairs offset_PartitionRequest);
   ("offset", "TopicRequest", pairs offset_TopicRequest);
   ("offset", "OffsetRequest", pairs OffsetRequest);
   ("offset", "PartitionResponse", pairs offset_PartitionResponse);
   ("offset", "TopicResponse", pairs offset_TopicResponse);
   ("offset", "OffsetResponse", pairs OffsetResponse);
   ("offset_commit", "PartitionRequest", pairs commit_PartitionRequest);
   ("offset_commit", "PartitionV1Request", pairs commit_PartitionV1Request);
   ("offset_commit", "TopicRequest", pairs commit_TopicRequest);
   ("offset_commit", "TopicV1Request", pairs commit_TopicV1Request);
   ("offset_commit", "OffsetCommitV0Request", pairs OffsetCommitV0Request);
   ("offset_commit", "OffsetCommitV1Request", pairs OffsetCommitV1Request);
   ("offset_commit", "OffsetCommitV2Request", pairs OffsetCommitV2Request);
   ("offset_commit", "PartitionResponse", pairs commit_PartitionResponse);
   ("offset_commit", "TopicResponse", pairs commit_TopicResponse);
   ("offset_commit", "OffsetCommitResponse", pairs OffsetCommitResponse);
   ("offset_fetch", "TopicRequest", pairs ofetch_TopicRequest);
   ("offset_fetch", "OffsetFetchRequest", pairs OffsetFetchRequest);
   ("offset_fetch", "PartitionResponse", pairs ofetch_PartitionResponse);
   ("offset_fetch", "TopicResponse", pairs ofetch_TopicResponse);
   ("offset_fetch", "OffsetFetchResponse", pairs OffsetFetchResponse);
   ("metadata", "MetadataRequest", pairs MetadataRequest);
   ("metadata", "Broker", pairs Broker);
   ("metadata", "PartitionMetadata", pairs PartitionMetadata);
   ("metadata", "TopicMetadata", pairs TopicMetadata);
   ("metadata", "MetadataResponse", pairs MetadataResponse);
   ("coordinator", "GroupCoordinatorRequest", pairs GroupCoordinatorRequest);
   ("coordinator", "GroupCoordinatorResponse", pairs GroupCoordinatorResponse);
   ("join_group", "GroupProtocol", pairs GroupProtocol);
   ("join_group", "JoinGroupRequest", pairs JoinGroupRequest);
   ("join_group", "Member", pairs Member);
   ("join_group", "JoinGroupResponse", pairs JoinGroupResponse);
   ("sync_group", "TopicAssignment", pairs sync_TopicAssignment);
   ("sync_group", "Assignment", pairs sync_Assignment);
   ("sync_group", "MemberAssignment", pairs MemberAssignment);
   ("sync_group", "SyncGroupRequest", pairs SyncGroupRequest);
   ("sync_group", "SyncGroupResponse", pairs SyncGroupResponse);
   ("leave_group", "LeaveGroupRequest", pairs LeaveGroupRequest);
   ("leave_group", "LeaveGroupResponse", pairs LeaveGroupResponse);
   ("list_groups", "ListGroupsRequest", pairs ListGroupsRequest);
   ("list_groups", "Group", pairs Group);
   ("list_groups", "ListGroupsResponse", pairs ListGroupsResponse);
   ("describe_groups", "DescribeGroupsRequest", pairs DescribeGroupsRequest);
   ("describe_groups", "TopicAssignment", pairs desc_TopicAssignment);
   ("describe_groups", "Assignment", pairs desc_Assignment);
   ("describe_groups", "MemberDescription", pairs MemberDescription);
   ("describe_groups", "GroupDescription", pairs GroupDescription);
   ("describe_groups", "DescribeGroupsResponse", pairs DescribeGroupsResponse);
   ("heartbeat", "HeartbeatRequest", HeartbeatRequest);
   ("heartbeat", "HeartbeatResponse", HeartbeatResponse)].

(** request classes: api name (their [api] attribute), parts *)
Definition request_classes : list (string * fields) :=
  [("produce", ProduceRequest); ("fetch", FetchRequest); ("offset", OffsetRequest);
   ("offset_commit", OffsetCommitV0Request); ("offset_commit", OffsetCommitV1Request);
   ("offset_commit", OffsetCommitV2Request); ("offset_fetch", OffsetFetchRequest);
   ("metadata", MetadataRequest); ("group_coordinator", GroupCoordinatorRequest);
   ("join_group", JoinGroupRequest); ("sync_group", SyncGroupRequest); ("leave_group", LeaveGroupRequest);
   ("list_groups", ListGroupsRequest); ("describe_groups", DescribeGroupsRequest)].
