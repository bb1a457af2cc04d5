(** Specification side for requests and error codes: the frame of a Kafka v0 request, the Kafka
    api numbers and the Kafka error code table, written from the Kafka protocol guide. *)
From Coq Require Import ZArith String List.
From Verif Require Import PyBase SpecWire.
Import ListNotations.
Open Scope Z_scope.

Definition kafka_api_numbers : list (string * Z) :=
  [("produce", 0); ("fetch", 1); ("offset", 2); ("metadata", 3); ("offset_commit", 8);
   ("offset_fetch", 9); ("group_coordinator", 10); ("join_group", 11); ("heartbeat", 12);
   ("leave_group", 13); ("sync_group", 14); ("describe_groups", 15); ("list_groups", 16)]%string.

(** length of the rest; api number, version 0, correlation id, length-prefixed client id "kiel",
    payload *)
Definition request_body (api_number correlation : Z) (payload : bytes) : bytes :=
  big_endian 2 api_number ++ big_endian 2 0 ++ big_endian 4 correlation ++
  (big_endian 2 4 ++ [107; 105; 101; 108]) ++ payload.
Definition request_frame (api_number correlation : Z) (payload : bytes) : bytes :=
  let body := request_body api_number correlation payload in
  big_endian 4 (zlen body) ++ body.

(** Error codes that Kafka marks "retriable", by number and name. *)
Definition kafka_retriable : list (Z * string) :=
  [(2, "invalid_message"); (3, "unknown_topic_or_partition"); (5, "leader_not_available");
   (6, "not_partition_leader"); (7, "request_timed_out"); (14, "offsets_load_in_progress");
   (15, "coordinator_not_available"); (16, "not_coordinator"); (19, "not_enough_replicas");
   (20, "not_enough_replicas_after_append")]%string.

(** Kafka's error codes (protocol guide, "Error Codes"), by number and the name kiel uses. *)
Definition kafka_errors : list (Z * string) :=
  [(-1, "unknown"); (0, "no_error"); (1, "offset_out_of_range"); (2, "invalid_message"); (3, "unknown_topic_or_partition");
   (4, "invalid_message_size"); (5, "leader_not_available"); (6, "not_partition_leader"); (7, "request_timed_out");
   (8, "broker_not_available"); (9, "replica_not_available"); (10, "message_size_too_large"); (11, "stale_controller_epoch");
   (12, "offset_metadata_too_large"); (14, "offsets_load_in_progress"); (15, "coordinator_not_available"); (16, "not_coordinator");
   (17, "invalid_topic"); (18, "record_list_too_large"); (19, "not_enough_replicas"); (20, "not_enough_replicas_after_append");
   (21, "invalid_required_acks"); (22, "illegal_generation"); (23, "inconsistent_group_protocol"); (24, "invalid_group_id");
   (25, "unknown_member_id"); (26, "invalid_session_timeout"); (27, "rebalance_in_progress"); (28, "invalid_commit_offset_size");
   (29, "topic_authorization_failed"); (30, "group_authorization_failed"); (31, "cluster_authorization_failed")]%string.
