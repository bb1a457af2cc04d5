(** The class docstrings of kiel/protocol, transcribed as a grammar: each class name maps to its
    documented fields, in order; array brackets and references to other classes kept as written.
    This file is transcribed from the docstrings only, not from the [parts] tuples.  Obvious typos
    in the docstrings are read charitably ("required_acs", "In32", "= >", "generation_id = Int32",
    the name printed for the class itself). *)
From Coq Require Import String List.
From Verif Require Import Primitives Protocol.
Import ListNotations.
Local Open Scope string_scope.

Inductive doc :=
| DInt8 | DInt16 | DInt32 | DInt64 | DString | DBytes | DMessageSet
| DList (d : doc)          (* [X] *)
| DClass (name : string).  (* another class of the same module *)

Definition docs : list (string * string * list (string * doc)) :=
  [ (* produce.py *)
    ("produce", "PartitionRequest", [("partition_id", DInt32); ("message_set", DMessageSet)]);
    ("produce", "TopicRequest", [("name", DString); ("partitions", DList (DClass "PartitionRequest"))]);
    ("produce", "ProduceRequest",
       [("required_acks", DInt16); ("timeout", DInt32); ("topics", DList (DClass "TopicRequest"))]);
    ("produce", "PartitionResponse", [("partition_id", DInt32); ("error_code", DInt16); ("offset", DInt64)]);
    ("produce", "TopicResponse", [("name", DString); ("partitions", DList (DClass "PartitionResponse"))]);
    ("produce", "ProduceResponse", [("topics", DList (DClass "TopicResponse"))]);
    (* fetch.py *)
    ("fetch", "PartitionRequest", [("partition_id", DInt32); ("offset", DInt64); ("max_bytes", DInt32)]);
    ("fetch", "TopicRequest", [("name", DString); ("partitions", DList (DClass "PartitionRequest"))]);
    ("fetch", "FetchRequest",
       [("replica_id", DInt32); ("max_wait_time", DInt32); ("min_bytes", DInt32);
        ("topics", DList (DClass "TopicRequest"))]);
    ("fetch", "PartitionResponse",
       [("partition_id", DInt32); ("error_code", DInt16); ("highwater_mark_offset", DInt64);
        ("message_set", DMessageSet)]);
    ("fetch", "TopicResponse", [("name", DString); ("partitions", DList (DClass "PartitionResponse"))]);
    ("fetch", "FetchResponse", [("topics", DList (DClass "TopicResponse"))]);
    (* offset.py *)
    ("offset", "PartitionRequest", [("partition_id", DInt32); ("time", DInt64); ("max_offsets", DInt32)]);
    ("offset", "TopicRequest", [("name", DString); ("partitions", DList (DClass "PartitionRequest"))]);
    ("offset", "OffsetRequest", [("replica_id", DInt32); ("topics", DList (DClass "TopicRequest"))]);
    ("offset", "PartitionResponse", [("partition_id", DInt32); ("error_code", DInt16); ("offsets", DList DInt64)]);
    ("offset", "TopicResponse", [("name", DString); ("partitions", DList (DClass "PartitionResponse"))]);
    ("offset", "OffsetResponse", [("topics", DList (DClass "TopicResponse"))]);
    (* offset_commit.py *)
    ("offset_commit", "PartitionRequest", [("partition_id", DInt32); ("offset", DInt64); ("metadata", DString)]);
    ("offset_commit", "PartitionV1Request",
       [("partition_id", DInt32); ("offset", DInt64); ("timestamp", DInt64); ("metadata", DString)]);
    ("offset_commit", "TopicRequest", [("name", DString); ("partitions", DList (DClass "PartitionRequest"))]);
    ("offset_commit", "TopicV1Request", [("name", DString); ("partitions", DList (DClass "PartitionV1Request"))]);
    ("offset_commit", "OffsetCommitV0Request", [("group", DString); ("topics", DList (DClass "TopicRequest"))]);
    ("offset_commit", "OffsetCommitV1Request",
       [("group", DString); ("generation", DInt32); ("consumer_id", DInt32);
        ("topics", DList (DClass "TopicV1Request"))]);
    ("offset_commit", "OffsetCommitV2Request",
       [("group", DString); ("generation", DInt32); ("consumer_id", DInt32); ("retention_time", DInt64);
        ("topics", DList (DClass "TopicRequest"))]);
    ("offset_commit", "PartitionResponse", [("partition_id", DInt32); ("error_code", DInt16)]);
    ("offset_commit", "TopicResponse", [("name", DString); ("partitions", DList (DClass "PartitionResponse"))]);
    ("offset_commit", "OffsetCommitResponse", [("topics", DList (DClass "TopicResponse"))]);
    (* offset_fetch.py *)
    ("offset_fetch", "TopicRequest", [("name", DString); ("partitions", DList DInt32)]);
    ("offset_fetch", "OffsetFetchRequest", [("group_name", DString); ("topics", DList (DClass "TopicRequest"))]);
    ("offset_fetch", "PartitionResponse",
       [("partition_id", DInt32); ("offset", DInt64); ("metadata", DString); ("error_code", DInt16)]);
    ("offset_fetch", "TopicResponse", [("name", DString); ("partitions", DList (DClass "PartitionResponse"))]);
    ("offset_fetch", "OffsetFetchResponse", [("topics", DList (DClass "TopicResponse"))]);
    (* metadata.py *)
    ("metadata", "MetadataRequest", [("topics", DList DString)]);
    ("metadata", "Broker", [("broker_id", DInt32); ("host", DString); ("port", DInt32)]);
    ("metadata", "PartitionMetadata",
       [("error_code", DInt16); ("partition_id", DInt32); ("leader", DInt32); ("replicas", DList DInt32);
        ("isrs", DList DInt32)]);
    ("metadata", "TopicMetadata",
       [("error_code", DInt16); ("name", DString); ("partitions", DList (DClass "PartitionMetadata"))]);
    ("metadata", "MetadataResponse",
       [("brokers", DList (DClass "Broker")); ("topics", DList (DClass "TopicMetadata"))]);
    (* coordinator.py *)
    ("coordinator", "GroupCoordinatorRequest", [("group_id", DString)]);
    ("coordinator", "GroupCoordinatorResponse",
       [("error_code", DInt16); ("coordinator_id", DInt32); ("coordinator_host", DString);
        ("coordinator_port", DInt32)]);
    (* join_group.py *)
    ("join_group", "GroupProtocol",
       [("name", DString); ("version", DInt16); ("subscription", DList DString); ("user_data", DBytes)]);
    ("join_group", "JoinGroupRequest",
       [("group_id", DString); ("session_timeout", DInt32); ("member_id", DString); ("protocol_type", DString);
        ("group_protocols", DList (DClass "GroupProtocol"))]);
    ("join_group", "Member", [("member_id", DString); ("metadata", DBytes)]);
    ("join_group", "JoinGroupResponse",
       [("error_code", DInt16); ("generation_id", DInt32); ("protocol", DString); ("leader_id", DString);
        ("member_id", DString); ("members", DList (DClass "Member"))]);
    (* sync_group.py *)
    ("sync_group", "TopicAssignment", [("name", DString); ("partitions", DList DInt32)]);
    ("sync_group", "Assignment",
       [("version", DInt16); ("topics", DList (DClass "TopicAssignment")); ("user_data", DBytes)]);
    ("sync_group", "MemberAssignment", [("member_id", DString); ("assignment", DClass "Assignment")]);
    ("sync_group", "SyncGroupRequest",
       [("group_id", DString); ("generation_id", DInt32); ("member_id", DString);
        ("assignments", DList (DClass "MemberAssignment"))]);
    ("sync_group", "SyncGroupResponse",
       [("error_code", DInt16); ("assignments", DList (DClass "MemberAssignment"))]);
    (* leave_group.py *)
    ("leave_group", "LeaveGroupRequest", [("group_id", DString); ("member_id", DString)]);
    ("leave_group", "LeaveGroupResponse", [("error_code", DInt16)]);
    (* list_groups.py *)
    ("list_groups", "ListGroupsRequest", []);
    ("list_groups", "Group", [("group_id", DString); ("protocol_type", DString)]);
    ("list_groups", "ListGroupsResponse", [("error_code", DInt16); ("groups", DList (DClass "Group"))]);
    (* describe_groups.py *)
    ("describe_groups", "DescribeGroupsRequest", [("groups", DList DString)]);
    ("describe_groups", "TopicAssignment", [("name", DString); ("partitions", DList DInt32)]);
    ("describe_groups", "Assignment",
       [("version", DInt16); ("topics", DList (DClass "TopicAssignment")); ("user_data", DBytes)]);
    ("describe_groups", "MemberDescription",
       [("member_id", DString); ("client_id", DString); ("client_host", DString); ("metadata", DBytes);
        ("assignment", DClass "Assignment")]);
    ("describe_groups", "GroupDescription",
       [("error_code", DInt16); ("group_id", DString); ("state", DString); ("protocol_type", DString);
        ("protocol", DString); ("members", DList (DClass "MemberDescription"))]);
    ("describe_groups", "DescribeGroupsResponse", [("groups", DList (DClass "GroupDescription"))]);
    (* heartbeat.py *)
    ("heartbeat", "HeartbeatRequest",
       [("group_id", DString); ("generation_id", DInt32); ("member_id", DString)]);
    ("heartbeat", "HeartbeatResponse", [("error_code", DInt16)]) ].

Definition documented (m c : string) : option (list (string * doc)) :=
  match find (fun e => String.eqb (fst (fst e)) m && String.eqb (snd (fst e)) c)%bool docs with
  | Some e => Some (snd e)
  | None => None
  end.

(** A layout is the documented one: same field names in the same order, same types, following
    class references in the documentation of the same module. *)
Inductive matches (m : string) : doc -> ty -> Prop :=
| m_i8 : matches m DInt8 (TPrim Int8)
| m_i16 : matches m DInt16 (TPrim Int16)
| m_i32 : matches m DInt32 (TPrim Int32)
| m_i64 : matches m DInt64 (TPrim Int64)
| m_str : matches m DString (TPrim String_)
| m_byt : matches m DBytes (TPrim Bytes_)
| m_set : matches m DMessageSet TMsgSet
| m_list d t : matches m d t -> matches m (DList d) (TArray t)
| m_class c ds fs :
    documented m c = Some ds -> matches_fields m ds fs -> matches m (DClass c) (TPart fs)
with matches_fields (m : string) : list (string * doc) -> list (string * ty) -> Prop :=
| mf_nil : matches_fields m [] []
| mf_cons n d ds t fs :
    matches m d t -> matches_fields m ds fs -> matches_fields m ((n, d) :: ds) ((n, t) :: fs).
