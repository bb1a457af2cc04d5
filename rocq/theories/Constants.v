(** kiel/constants.py:37-83 and kiel/protocol/errors.py: error codes. *)
From Coq Require Import ZArith String List Bool.
From Verif Require Import PyBase.
Import ListNotations.
Open Scope Z_scope.

(** ERROR_CODES, constants.py:37-70 *)
Definition ERROR_CODES : dict Z string :=
  [(0, "no_error"); (-1, "unknown"); (1, "offset_out_of_range"); (2, "invalid_message");
   (3, "unknown_topic_or_partition"); (4, "invalid_message_size"); (5, "leader_not_available");
   (6, "not_partition_leader"); (7, "request_timed_out"); (8, "broker_not_available");
   (9, "replica_not_available"); (10, "message_size_too_large"); (11, "stale_controller_epoch");
   (12, "offset_metadata_too_large"); (14, "offsets_load_in_progress");
   (15, "coordinator_not_available"); (16, "not_coordinator"); (17, "invalid_topic");
   (18, "record_list_too_large"); (19, "not_enough_replicas");
   (20, "not_enough_replicas_after_append"); (21, "invalid_required_acks");
   (22, "illegal_generation"); (23, "inconsistent_group_protocol"); (24, "invalid_group_id");
   (25, "unknown_member_id"); (26, "invalid_session_timeout"); (27, "rebalance_in_progress");
   (28, "invalid_commit_offset_size"); (29, "topic_authorization_failed");
   (30, "group_authorization_failed"); (31, "cluster_authorization_failed")]%string.

(** RETRIABLE_CODES, constants.py:72-83 *)
Definition RETRIABLE_CODES : list string :=
  ["invalid_message"; "unknown_topic_or_partition"; "leader_not_available"; "not_partition_leader";
   "request_timed_out"; "offsets_load_in_progress"; "coordinator_not_available"; "not_coordinator";
   "not_enough_replicas"; "not_enough_replicas_after_append"]%string.

(** the loop of errors.py:13-16: attributes of the [errors] object, and errors.retriable *)
Definition errors_loop (acc : dict string Z * list Z) (ce : Z * string) : dict string Z * list Z :=
  let '(attrs, retr) := acc in
  let '(code, error) := ce in
  (dset attrs error code, if smem RETRIABLE_CODES error then sadd retr code else retr).
Definition errors_obj : dict string Z * list Z := fold_left errors_loop ERROR_CODES ([], []).

(** errors.<name>; every name used in the code is defined (ConstantsProofs.error_names) *)
Definition errors_attr (name : string) : Z :=
  match dget (fst errors_obj) name with Some c => c | None => 0 end.
Definition no_error : Z := Eval vm_compute in errors_attr "no_error".
Definition offset_out_of_range : Z := Eval vm_compute in errors_attr "offset_out_of_range".
Definition unknown_topic_or_partition : Z := Eval vm_compute in errors_attr "unknown_topic_or_partition".
Definition leader_not_available : Z := Eval vm_compute in errors_attr "leader_not_available".
Definition replica_not_available : Z := Eval vm_compute in errors_attr "replica_not_available".
Definition offset_metadata_too_large : Z := Eval vm_compute in errors_attr "offset_metadata_too_large".
Definition offsets_load_in_progress : Z := Eval vm_compute in errors_attr "offsets_load_in_progress".

(** code in errors.retriable *)
Definition retriable_set : list Z := Eval vm_compute in snd errors_obj.
Definition is_retriable (code : Z) : bool := smem retriable_set code.

(** constants.ERROR_CODES[code]: KeyError for an unknown code *)
Definition error_name (code : Z) : res string := dindex ERROR_CODES code.
