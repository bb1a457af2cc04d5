{
 "claims": [
  {
   "property": "C01",
   "status": "proved",
   "theorems": [
    "C01_roundtrip",
    "C01_every_class"
   ],
   "note": ""
  },
  {
   "property": "C02",
   "status": "proved",
   "theorems": [
    "C02_null",
    "C02_text",
    "C02_bytes"
   ],
   "note": ""
  },
  {
   "property": "C03",
   "status": "proved",
   "theorems": [
    "C03_no_silent_truncation",
    "C03_decodes",
    "C03_out_of_range_raises",
    "C03_too_long_raises",
    "C03_missing_raises"
   ],
   "note": ""
  },
  {
   "property": "C04",
   "status": "partial",
   "theorems": [
    "C04_truncated_rejected",
    "C04_within_buffer",
    "C04_local_partial",
    "C04_local_refuted"
   ],
   "note": "Prefix rejection and independence of the following bytes are proved for layouts without message sets (all responses but fetch); with a message set the parse does depend on the following bytes (refuted)."
  },
  {
   "property": "C05",
   "status": "proved",
   "theorems": [
    "C05_request_framing",
    "C05_frame_readable",
    "C05_legal_requests_serialize"
   ],
   "note": ""
  },
  {
   "property": "C06",
   "status": "partial",
   "theorems": [
    "C06_checksum_partial",
    "C06_crc32",
    "C06_every_message_refuted"
   ],
   "note": "Every serialized message carries its CRC; a message whose CRC is exactly 2^31 cannot be serialized (off by one in Message.render)."
  },
  {
   "property": "C07",
   "status": "proved",
   "theorems": [
    "C07_message_sets",
    "C07_sets_serialize"
   ],
   "note": ""
  },
  {
   "property": "C08",
   "status": "partial",
   "theorems": [
    "C08_compression_partial",
    "C08_gzip",
    "C08_snappy_refuted"
   ],
   "note": "gzip unconditional; snappy holds when the last framed block compresses to at least 12 bytes and is refuted otherwise. Codecs are parameters obeying codec_laws."
  },
  {
   "property": "C09",
   "status": "partial",
   "theorems": [
    "C09_trailing_cut_partial",
    "C09_any_partition_refuted"
   ],
   "note": "Holds when the cut message set is the last item of the response; refuted for a cut in another partition."
  },
  {
   "property": "C10",
   "status": "partial",
   "theorems": [
    "C10_framing_partial",
    "C10_short_block_refuted"
   ],
   "note": "A final block shorter than 12 compressed bytes is dropped without an error."
  },
  {
   "property": "C11",
   "status": "partial",
   "theorems": [
    "C11_unique",
    "C11_fit_partial",
    "C11_fit_refuted"
   ],
   "note": "Unique for ever, but ids do not wrap: after about 2^31 - 2^24 requests none can be serialized."
  },
  {
   "property": "C12",
   "status": "partial",
   "theorems": [
    "C12_layouts_partial",
    "C12_construct_partial",
    "C12_all_classes",
    "C12_heartbeat_refuted",
    "C12_commit_v1_refuted",
    "C12_coordinator_refuted"
   ],
   "note": "All classes but the four listed in undocumented_layout match."
  },
  {
   "property": "C13",
   "status": "proved",
   "theorems": [
    "C13_names",
    "C13_constants",
    "C13_retriable_exactly_documented",
    "C13_retriable_names",
    "C13_disjoint",
    "C13_unknown_codes"
   ],
   "note": ""
  },
  {
   "property": "C14",
   "status": "proved",
   "theorems": [
    "C14_own_response_only",
    "C14_every_response_delivered"
   ],
   "note": ""
  },
  {
   "property": "C15",
   "status": "partial",
   "theorems": [
    "C15_abort_fails_all_partial",
    "C15_abort_only_fails",
    "C15_second_abort",
    "C15_after_remote_close_refuted"
   ],
   "note": "Proved for connections not yet closing; after the broker closed the stream abort() does nothing and the futures stay pending."
  },
  {
   "property": "C16",
   "status": "partial",
   "theorems": [
    "C16_write_error_partial",
    "C16_remote_close_refuted",
    "C16_remote_close_reached_refuted"
   ],
   "note": "Errors other than StreamClosedError resolve everything; a closed stream leaves every outstanding future pending for ever."
  },
  {
   "property": "C17",
   "status": "proved",
   "theorems": [
    "C17_send_fails_immediately",
    "C17_closing_for_ever",
    "C17_closing_starts"
   ],
   "note": ""
  },
  {
   "property": "C18",
   "status": "proved",
   "theorems": [
    "C18_chunking_invisible",
    "C18_interleaved_with_sends"
   ],
   "note": ""
  },
  {
   "property": "C19",
   "status": "proved",
   "theorems": [
    "C19_bad_frame_aborts"
   ],
   "note": ""
  },
  {
   "property": "C20",
   "status": "partial",
   "theorems": [
    "C20_tables_consistent_partial",
    "C20_get_leader",
    "C20_unique_leader",
    "C20_error_codes_refuted"
   ],
   "note": "Consistency proved for every answer; 'nothing with an error code' holds only for the three codes the code tests, other codes get into the tables."
  },
  {
   "property": "C21",
   "status": "proved",
   "theorems": [
    "C21_connections_follow_metadata",
    "C21_never_raises",
    "C21_listed_not_aborted"
   ],
   "note": ""
  },
  {
   "property": "C22",
   "status": "proved",
   "theorems": [
    "C22_heal_settled",
    "C22_heal_raises",
    "C22_fuel_irrelevant"
   ],
   "note": "One heal at a time; connections may die at any await."
  },
  {
   "property": "C23",
   "status": "partial",
   "theorems": [
    "C23_last_answer_partial",
    "C23_healthy_topic_lost_refuted"
   ],
   "note": "Only the topics of the last answer survive: a follow-up answer about the troubled topics alone replaces the tables."
  },
  {
   "property": "C24",
   "status": "partial",
   "theorems": [
    "C24_in_order_partial",
    "C24_next_host_not_tried_refuted",
    "C24_no_brokers_after_answer_refuted"
   ],
   "note": "Order proved; a failing metadata request ends start() without trying the next host, and NoBrokersError can follow a bootstrap answer."
  },
  {
   "property": "C25",
   "status": "partial",
   "theorems": [
    "C25_first_answer_partial",
    "C25_other_failure_refuted"
   ],
   "note": "Lost connections are skipped; any other failure ends the round."
  },
  {
   "property": "C26",
   "status": "proved",
   "theorems": [
    "C26_each_response_once",
    "C26_results_by_broker",
    "C26_unhandled"
   ],
   "note": ""
  },
  {
   "property": "C27",
   "status": "partial",
   "theorems": [
    "C27_heal_once_partial",
    "C27_connection_error",
    "C27_stream_closed_refuted"
   ],
   "note": "StreamClosedError does not lead to a heal; sends do not overlap in the model."
  },
  {
   "property": "C28",
   "status": "proved",
   "theorems": [
    "C28_accounted",
    "C28_exactly_one_place"
   ],
   "note": "In general there is a fourth place: messages dropped by a flush that raised (see C35); it is empty when lookups succeed."
  },
  {
   "property": "C29",
   "status": "proved",
   "theorems": [
    "C29_one_request_per_id",
    "C29_others_untouched"
   ],
   "note": ""
  },
  {
   "property": "C30",
   "status": "proved",
   "theorems": [
    "C30_flush_order",
    "C30_all_sent"
   ],
   "note": "Messages whose leader is not connected stay queued."
  },
  {
   "property": "C31",
   "status": "proved",
   "theorems": [
    "C31_below_threshold",
    "C31_at_threshold"
   ],
   "note": ""
  },
  {
   "property": "C32",
   "status": "proved",
   "theorems": [
    "C32_retried"
   ],
   "note": "For responses that list only partitions of the request, once, with known codes."
  },
  {
   "property": "C33",
   "status": "partial",
   "theorems": [
    "C33_failure_keeps_books_partial",
    "C33_never_sent_again",
    "C33_resent_refuted"
   ],
   "note": "The code does not resend: after a failure the messages stay in the table of sent requests for ever."
  },
  {
   "property": "C34",
   "status": "partial",
   "theorems": [
    "C34_close_settles_partial",
    "C34_close_refuted"
   ],
   "note": "close() flushes once; retriable answers to that flush leave messages queued."
  },
  {
   "property": "C35",
   "status": "partial",
   "theorems": [
    "C35_rest_kept_partial",
    "C35_kept_refuted"
   ],
   "note": "Topics drained before the exception, and the one it happened in, are lost."
  },
  {
   "property": "C36",
   "status": "proved",
   "theorems": [
    "C36_after_close",
    "C36_closing_does_nothing",
    "C36_unknown_topic",
    "C36_known_topic"
   ],
   "note": ""
  },
  {
   "property": "C45",
   "status": "proved",
   "theorems": [
    "C45_exact_even_cover",
    "C45_no_members"
   ],
   "note": "Topic names without a colon (Kafka allows none); with one the allocator raises ValueError (C45_colon)."
  },
  {
   "property": "C46",
   "status": "proved",
   "theorems": [
    "C46_agree",
    "C46_disjoint"
   ],
   "note": "Agreement for every deterministic allocator function that does not raise on the partitions seen; disjointness for the default allocator."
  },
  {
   "property": "C47",
   "status": "partial",
   "theorems": [
    "C47_exactly_on_change_partial",
    "C47_default_serves",
    "C47_plain_dict_refuted"
   ],
   "note": "Holds for allocator functions whose result has an entry for (or defaults for) the member, so for the default one. Refuted for a plain dict without this member: KeyError, no callback."
  },
  {
   "property": "C53",
   "status": "proved",
   "theorems": [
    "C53_atomic",
    "C53_none_lost"
   ],
   "note": "The mutual exclusion of the kazoo lock is trusted; clients may die anywhere (the lock is then free)."
  },
  {
   "property": "C54",
   "status": "proved",
   "theorems": [
    "C54_no_needless_writes",
    "C54_unchanged_not_written"
   ],
   "note": ""
  },
  {
   "property": "C55",
   "status": "partial",
   "theorems": [
    "C55_join_partial",
    "C55_join_new",
    "C55_leave",
    "C55_other_members",
    "C55_join_race_refuted"
   ],
   "note": "join() ignores the result of its delete+create transaction: if the old node expires in between it returns without a node."
  },
  {
   "property": "C56",
   "status": "partial",
   "theorems": [
    "C56_add_exact",
    "C56_names_distinct",
    "C56_remove_partial",
    "C56_remove_refuted"
   ],
   "note": "remove_partitions() raises TypeError for every dict of lists."
  },
  {
   "property": "C57",
   "status": "partial",
   "theorems": [
    "C57_stop",
    "C57_start_partial",
    "C57_start_returns",
    "C57_connect_failure_refuted"
   ],
   "note": "start() whose connect step raises waits for the connected event before it looks at the future."
  },
  {
   "property": "C58",
   "status": "proved",
   "theorems": [
    "C58_connected_flag"
   ],
   "note": ""
  },
  {
   "property": "C59",
   "status": "proved",
   "theorems": [
    "C59_nothing_lost",
    "C59_drained"
   ],
   "note": ""
  },
  {
   "property": "C38",
   "status": "proved",
   "theorems": [
    "C38_position_rule",
    "C38_positions",
    "C38_only_answers_move"
   ],
   "note": ""
  },
  {
   "property": "C39",
   "status": "partial",
   "theorems": [
    "C39_returned_partial",
    "C39_nothing_truthy_lost_partial",
    "C39_falsy_dropped_refuted",
    "C39_heal_failure_refuted"
   ],
   "note": "Values that Python counts as false are dropped, and a heal() that raises after the answers were handled loses their messages although the positions have moved."
  },
  {
   "property": "C40",
   "status": "partial",
   "theorems": [
    "C40_left_out",
    "C40_passed_partial",
    "C40_stuck",
    "C40_continues_past_refuted"
   ],
   "note": "An undeserializable message is passed only once a later message of the partition deserializes; at the end of the log it is fetched again for ever."
  },
  {
   "property": "C41",
   "status": "proved",
   "theorems": [
    "C41_fetch_requests",
    "C41_all_asked"
   ],
   "note": ""
  },
  {
   "property": "C42",
   "status": "partial",
   "theorems": [
    "C42_lookup_before_fetch_partial",
    "C42_not_asked_again",
    "C42_failed_lookup_refuted"
   ],
   "note": "A lookup whose connection fails counts as done, and the next fetch uses the stale position."
  },
  {
   "property": "C43",
   "status": "partial",
   "theorems": [
    "C43_heal_first_partial",
    "C43_looked_up_again_refuted"
   ],
   "note": "consume() marks the topic as known again after the heal, so the failed lookup is never repeated."
  },
  {
   "property": "C44",
   "status": "partial",
   "theorems": [
    "C44_numbers_partial",
    "C44_datetimes_refuted"
   ],
   "note": "Numbers (BEGINNING, END, epochs) give valid requests; a datetime or timedelta becomes a float, which no request can hold."
  },
  {
   "property": "C48",
   "status": "partial",
   "theorems": [
    "C48_dropped_partial",
    "C48_looked_up_again_partial",
    "C48_during_lookup_refuted",
    "C48_during_commit_refuted",
    "C48_dropped_committed_refuted"
   ],
   "note": "Proved when no lookup of the topic is in flight; a rebalance during a lookup or during the autocommit is not noticed, and positions of dropped messages stay advanced."
  },
  {
   "property": "C49",
   "status": "proved",
   "theorems": [
    "C49_commit_requests",
    "C49_default_returns_dicts",
    "C49_consumed_since",
    "C49_no_autocommit"
   ],
   "note": ""
  },
  {
   "property": "C50",
   "status": "partial",
   "theorems": [
    "C50_again_partial",
    "C50_partly_acknowledged_refuted"
   ],
   "note": "Proved for topics none of whose partitions is acknowledged in the answer; an acknowledged partition drops the whole topic, so its other partitions are not committed again."
  },
  {
   "property": "C51",
   "status": "partial",
   "theorems": [
    "C51_in_turn",
    "C51_found",
    "C51_goes_on_partial",
    "C51_no_brokers",
    "C51_connection_failure_refuted",
    "C51_fatal_code_refuted"
   ],
   "note": "Brokers are asked in turn while they answer; a connection failure raises KeyError instead of being passed over."
  },
  {
   "property": "C52",
   "status": "proved",
   "theorems": [
    "C52_loaded_first",
    "C52_asked_again",
    "C52_fatal"
   ],
   "note": ""
  },
  {
   "property": "C37",
   "status": "partial",
   "theorems": [
    "C37_follows_log_partial",
    "C37_whole_log",
    "C37_falsy_refuted",
    "C37_overlap_refuted"
   ],
   "note": "C37_whole_log is the claim for logs whose messages all deserialise to truthy values; C37_follows_log_partial covers every log and every interleaving with other topics, cluster changes, connection failures and broker errors. Refuted as stated: falsy values are dropped (C37_falsy_refuted), overlapping consume() calls on one topic return messages twice (C37_overlap_refuted). Proved for SingleConsumer once the start positions are known (see C44 and C60 for how they are obtained)."
  },
  {
   "property": "C60",
   "status": "proved",
   "theorems": [
    "C60_positions",
    "C60_fetches"
   ],
   "note": "The history is spelled out in SpecHistory.position_after, including what an answer that makes its handler raise still does."
  },
  {
   "property": "C61",
   "status": "proved",
   "theorems": [
    "C61_requests_readable",
    "C61_sent",
    "C61_serialized"
   ],
   "note": "C61_sent ranges over whole runs; C61_serialized gives the bytes, written out in SpecSent.kafka_payload. The bounds in SpecSent (step_fits) are about what goes in: configuration, call arguments, answers, allocation. A datetime or timedelta start is outside them for a single consumer: it does not serialize (see C44)."
  },
  {
   "property": "C62",
   "status": "proved",
   "theorems": [
    "C62_only_produced",
    "C62_in_order",
    "C62_retries_reorder"
   ],
   "note": "C62_retries_reorder shows the condition is needed: after a retriable error the message is written again behind later ones."
  },
  {
   "property": "C63",
   "status": "proved",
   "theorems": [
    "C63_requests_readable",
    "C63_messages_made"
   ],
   "note": "The bytes are described in SpecProduced; C63_messages_made says that what produce() makes of a key and a value meets the hypothesis. C10 gives the reading side."
  },
  {
   "property": "C64",
   "status": "proved",
   "theorems": [
    "C64_end_to_end"
   ],
   "note": "Composition of C62 and C37 through SpecEnd.keeps. The consumer's positions are known and no consume() of the topic runs at the start; none of its calls raises. C64_example uses the JSON encoding of lists of strings."
  },
  {
   "property": "C66",
   "status": "proved",
   "theorems": [
    "C66_closed",
    "C66_reads_nothing",
    "C66_single"
   ],
   "note": "A group member with autocommit goes on committing its positions in each consume() after close(): C66_commits_after_close_refuted."
  },
  {
   "property": "C67",
   "status": "partial",
   "theorems": [
    "C67_closes_partial",
    "C67_single_partial",
    "C67_silent_partial",
    "C67_zookeeper_failure_refuted"
   ],
   "note": "If the wind-down fails (leaving the group in ZooKeeper, a producer's last flush) close() raises and closes nothing: refuted. Silence afterwards assumes that no heal still running opens connections."
  },
  {
   "property": "C65",
   "status": "proved",
   "theorems": [
    "C65_no_partition_shared",
    "C65_no_partition_left_out"
   ],
   "note": "Partition names in ZooKeeper are assumed to be '<topic>:<id>' as clients write them. While views differ two members may fetch the same partition: C65_views_matter."
  },
  {
   "property": "C68",
   "status": "proved",
   "theorems": [
    "C68_written",
    "C68_read",
    "C68_only_json",
    "C68_round_trip",
    "C68_can_be_sent",
    "C68_end_to_end"
   ],
   "note": "repr() and float() are a parameter: the theorems hold for floats whose repr() float() reads back. Values that are false (0, empty, None) are not returned by consume(), see C64."
  },
  {
   "property": "C69",
   "status": "proved",
   "theorems": [
    "C69_heals_first",
    "C69_no_needless_heal",
    "C69_one_heal_is_enough"
   ],
   "note": "passing error codes are listed by number in SpecHeal.v; answers the client has no rule for (unknown codes, fatal lookup errors) make the call raise instead and are excluded by `regular`"
  },
  {
   "property": "C70",
   "status": "partial",
   "theorems": [
    "C70_tables_follow_answers",
    "C70_returns_partial",
    "C70_newest_answer_refuted",
    "C70_brokers_refuted"
   ],
   "note": "proved: the tables always are those of one whole answer, and what holds when a heal returns. Refuted: they need not be those of the newest answer (an older answer can be written later), and a broker of the answer may have no connection when heal() returns"
  },
  {
   "property": "C71",
   "status": "partial",
   "theorems": [
    "C71_none_lost_partial",
    "C71_stop_closes_all_partial",
    "C71_overlap_refuted",
    "C71_stop_during_heal_refuted"
   ],
   "note": "proved when heals do not overlap (connections may die and stop() may be called at any point). Refuted otherwise: two overlapping heals connect to the same new broker and the first connection is overwritten and never closed; a connection being made while stop() is called stays open"
  },
  {
   "property": "C72",
   "status": "partial",
   "theorems": [
    "C72_failures_partial",
    "C72_key_error_refuted",
    "C72_runtime_error_refuted"
   ],
   "note": "proved when heals do not overlap. Refuted otherwise: KeyError when another heal removed the dead connection this one is about to abort, RuntimeError (dictionary changed size during iteration) when another heal added a broker while this one was asking"
  },
  {
   "property": "C73",
   "status": "proved",
   "theorems": [
    "C73_fetch",
    "C73_offset",
    "C73_offset_fetch",
    "C73_commit",
    "C73_coordinator",
    "C73_produced",
    "C73_metadata"
   ],
   "note": "sets compressed with snappy whose last block has less than 12 bytes are not covered (finding 3), nor are sets cut off in a partition that is not the last (finding 2)"
  },
  {
   "property": "C74",
   "status": "proved",
   "theorems": [
    "C74_bytes_of_log"
   ],
   "note": "C37 with the responses replaced by the bytes the broker writes; a broker that begins a compressed set before the offset asked for is not covered here"
  },
  {
   "property": "C75",
   "status": "proved",
   "theorems": [
    "C75_end_to_end",
    "C75_written"
   ],
   "note": "uses that the grammar of produce requests is unambiguous (KafkaUnique.v)"
  },
  {
   "property": "C76",
   "status": "partial",
   "theorems": [
    "C76_nothing_skipped_partial",
    "C76_whole_sets_partial",
    "C76_again_refuted",
    "C76_endless_refuted",
    "C76_backwards_refuted"
   ],
   "note": "Refuted as stated: messages of a set before the position are returned (C76_again_refuted); a set whose last message cannot be deserialised is returned again by every call for ever (C76_endless_refuted); the position can move backwards (C76_backwards_refuted). Proved: no readable message between the start and the position reached is left out and nothing else than messages of the log is returned; if every message can be deserialised and the consumer starts between two sets, each message is returned once and in order."
  },
  {
   "property": "C77",
   "status": "proved",
   "theorems": [
    "C77_own_answer",
    "C77_request_readable",
    "C77_over_connections"
   ],
   "note": "The machine of C37/C74 over the machine of C14-C19. The specification of the brokers (SpecStack.v) is about bytes in both directions only."
  },
  {
   "property": "C78",
   "status": "proved",
   "theorems": [
    "C78_disjoint",
    "C78_exact_cover",
    "C78_even"
   ],
   "note": "For consumers with different names; Example C78_same_name shows that equal names (hostname:id(self) of two processes of a host) give every partition to both."
  },
  {
   "property": "C79",
   "status": "partial",
   "theorems": [
    "C79_start_returns",
    "C79_raises_only",
    "C79_member_partial",
    "C79_readable_partial",
    "C79_started_unreadable_refuted",
    "C79_expired_refuted",
    "C79_never_back"
   ],
   "note": "Refuted twice. The first consumer of a new group: both watches first report nothing, which already counts as collected, so start() returns before anything is allocated and reading the allocation raises KeyError (C79_started_unreadable_refuted). After a session expired the consumer reconnects but join() is not called again: it stays connected, notices every change and has no partition (C79_expired_refuted), for ever (C79_never_back). Proved: it is a member while it has the session it joined in, and then its allocation can be read once it has noticed the last change; start() comes to its end from every state and fails only when a call does."
  },
  {
   "property": "C80",
   "status": "proved",
   "theorems": [
    "C80_own_answer",
    "C80_told",
    "C80_stored",
    "C80_kept",
    "C80_received"
   ],
   "note": "Over a reachable stack of producer and connections. The messages accounted for as queued, in flight or lost are those of C28; what is lost when a flush raises is the subject of C28, C33 and C35."
  },
  {
   "property": "C81",
   "status": "proved",
   "theorems": [
    "C81_follows_log"
   ],
   "note": "Strengthens C37, which is about a SingleConsumer between calls. The deliveries left out of what is returned are the falsy and unreadable ones (C39)."
  },
  {
   "property": "C82",
   "status": "partial",
   "theorems": [
    "C82_committed_returned",
    "C82_at_least_once_partial",
    "C82_autocommit_refuted",
    "C82_overlap_refuted"
   ],
   "note": "Holds with autocommit off, consume() and commit_offsets() not overlapping and no consume() raising. With autocommit (the default) it is false: consume() commits before it returns, so a crash in between loses messages. It is also false if commit_offsets() is called while a consume() waits."
  },
  {
   "property": "C83",
   "status": "partial",
   "theorems": [
    "C83_commits_forward_partial",
    "C83_after_rebalance_refuted"
   ],
   "note": "Holds between two rebalances. After a rebalance it is false: commit_offsets() before the next consume() commits 0 for partitions just allocated, whose offsets nobody looked up."
  },
  {
   "property": "C84",
   "status": "partial",
   "theorems": [
    "C84_stored_partial",
    "C84_unknown_group_refuted",
    "C84_minus_one_refuted"
   ],
   "note": "The first half holds. The second is false: while brokers answer that they know no offsets (code 3), the consumer fetches nothing and returns nothing, in every run; if they answer -1 without an error, it fetches from -1, which is out of range, and starts over at each consume()."
  },
  {
   "property": "C85",
   "status": "proved",
   "theorems": [
    "C85_over_connections"
   ],
   "note": "C77 is the case of a SingleConsumer between calls, there with the deserialized values of all messages."
  },
  {
   "property": "C86",
   "status": "proved",
   "theorems": [
    "C86_produced_consumed",
    "C86_produced_group"
   ],
   "note": "Assumes what SpecStack.v, SpecGroupStack.v and SpecProducerStack.v say of brokers, deserializer and serializer being inverse for the value, and the value being truthy (C39)."
  },
  {
   "property": "C87",
   "status": "proved",
   "theorems": [
    "C87_consumer",
    "C87_producer"
   ],
   "note": "C11 is about request objects, C14 and C17 about one connection whose requests have distinct ids; here nothing is assumed about ids."
  },
  {
   "property": "C88",
   "status": "partial",
   "theorems": [
    "C88_goes_out",
    "C88_written",
    "C88_waits_partial",
    "C88_hangs_refuted",
    "C88_hangs_reached_refuted"
   ],
   "note": "C88_waits_partial: holds as long as no stream is closed under its connection. Refuted otherwise: when the broker closes the connection a call is waiting on, the call never returns, whatever happens afterwards (C88_hangs_refuted, for every such state; C88_hangs_reached_refuted shows one). Assumed of the run: each broker has a connection of its own, correlation ids below 2^31, requests that serialize()."
  },
  {
   "property": "C89",
   "status": "partial",
   "theorems": [
    "C89_awaited",
    "C89_waits_partial",
    "C89_ends",
    "C89_hangs_refuted",
    "C89_hangs_reached_refuted",
    "C89_unacknowledged_refuted",
    "C89_unacknowledged_reached_refuted"
   ],
   "note": "C89_waits_partial: holds as long as no stream is closed under its connection, and says nothing about whether an answer is sent. Refuted otherwise: when the broker closes the connection, the flush waits for ever and the request's messages are neither queued again nor given up (C89_hangs_refuted, for every such state; C89_hangs_reached_refuted shows one); with required_acks=0, to which Kafka sends no response, every flush waits until its connection is lost (C89_unacknowledged_refuted; C89_unacknowledged_reached_refuted shows one). Assumed there: a supported compression, codecs that obey their laws, and messages made from byte strings, strings, numbers or None."
  },
  {
   "property": "C90",
   "status": "proved",
   "theorems": [
    "C90_tables",
    "C90_connections",
    "C90_routed",
    "C90_refines"
   ],
   "note": "The assumption on the broker is that its frames answer requests written on their connection and that the answer to a metadata request is a metadata response. 'One such response' need not be the latest (C70: an overlapping heal may install an older one), and the address may come from another response than the leader: a connection that exists is kept when later metadata moves the broker. C90_refines: below the cluster, a whole producer's history is one of ProducerStack.v, so that C80 and C89 hold of it."
  },
  {
   "property": "C91",
   "status": "proved",
   "theorems": [
    "C91_tables",
    "C91_connections",
    "C91_routed",
    "C91_refines"
   ],
   "note": "As C90: the broker's frames answer requests written on their connection, and the answer to a metadata request is a metadata response; 'one such response' need not be the latest, and the address may come from another response than the leader. C91_refines: below the cluster, a whole consumer's history is one of Stack.v, so that C77, C79 and C85-C88 hold of it."
  },
  {
   "property": "C92",
   "status": "proved",
   "theorems": [
    "C92_named"
   ],
   "note": "The named coordinator need not be the one named last at the time of writing. The broker's frames answer requests written on their connection; answers to metadata and to coordinator requests are metadata and coordinator responses."
  },
  {
   "property": "C93",
   "status": "partial",
   "theorems": [
    "C93_refused_partial",
    "C93_too_deep",
    "C93_lost_refuted"
   ],
   "note": "C93_refused_partial: holds where the value is text or null, which the client takes for a TypeError. Refuted otherwise (C93_lost_refuted, for every response): the value of a message with unknown attributes is itself parsed as a message set, so the message vanishes without an error, or other messages are delivered in its place; snappy values of less than 32 bytes vanish too. C93_example is an LZ4 frame as a producer writes it. C93_too_deep: nesting beyond the interpreter's stack is refused."
  },
  {
   "property": "C94",
   "status": "partial",
   "theorems": [
    "C94_moves_partial",
    "C94_stuck_refuted"
   ],
   "note": "C94_moves_partial: holds for answers that bring at least one whole message that deserializes. Refuted otherwise (C94_stuck_refuted, for every history): where the next message is larger than the limit in the request, which Kafka then cuts short, or is one of those of C93, the position stays, nothing is returned, no error is raised, and every further request asks for the same offset."
  },
  {
   "property": "C95",
   "status": "proved",
   "theorems": [
    "C95_one_allocator",
    "C95_exclusive",
    "C95_covered",
    "C95_settles"
   ],
   "note": "For every allocator function that shares the partitions out (SpecGroupAny.v); C95_functions has two. Consumers that have not noticed a change yet may overlap with others (C95_changes shows one), which is why the claim is about those that have. A member whose process died counts as a member until its session ends."
  },
  {
   "property": "C96",
   "status": "partial",
   "theorems": [
    "C96_one_at_a_time_partial",
    "C96_never_torn",
    "C96_overlap_refuted"
   ],
   "note": "C96_one_at_a_time_partial: holds where a notification starts only when the one before has ended, however consume() interleaves with them. C96_never_torn: holds always. Refuted (C96_overlap_refuted, for all members and partitions): if the first notifications of members and of partitions overlap, the later assignment of the mapping may be the older one; then no member of the group has any partition in this client's allocation, although members and partitions are known, until the next change. kazoo locks calls per watch only; the first call of a watch is made in the thread that starts it, and after a reconnection each watch is called in a thread of its own."
  },
  {
   "property": "C97",
   "status": "partial",
   "theorems": [
    "C97_apart_partial",
    "C97_window_refuted",
    "C97_loop_refuted"
   ],
   "note": "C97_apart_partial: holds where notifications and consume() do not overlap. Refuted: between the assignment of the new mapping and on_rebalance() consume() fetches a new partition as synced (C97_window_refuted); a consume() of a topic the member has no partition of adds a key to the dict rebalance() is going through, which raises RuntimeError, on_rebalance() is not called, and for as long as the group does not change the member fetches its new partition without ever looking its offset up (C97_loop_refuted)."
  },
  {
   "property": "C98",
   "status": "proved",
   "theorems": [
    "C98_start_producer",
    "C98_start_consumer",
    "C98_read_producer",
    "C98_read_consumer"
   ],
   "note": "C24 is about a single start() with nothing else going on, and says in full what it does to the cluster; it also shows that a host that does not answer ends start() although others are left."
  },
  {
   "property": "C99",
   "status": "partial",
   "theorems": [
    "C99_committed_read_partial",
    "C99_position_read_partial",
    "C99_all_read_partial",
    "C99_commit_after_drop_refuted",
    "C99_during_lookup_refuted",
    "C99_during_commit_refuted",
    "C99_commit_after_raise_refuted"
   ],
   "note": "Holds for the default allocator function, or any other whose mapping answers for every member name, without autocommit when consume(t) does not overlap with itself, a rebalance does not come during a lookup of offsets, and offsets of t are sent to be committed only while no consume(t) runs, after one that has looked them up since the last rebalance, and if none that knew its positions has raised since. These conditions are needed: a single rebalance during a lookup can lose a message (C99_during_lookup_refuted); so can a commit_offsets() after a consume() that returned nothing because of a rebalance, since positions have moved (C99_commit_after_drop_refuted), a commit_offsets() that the client itself sends again after an error and a rebalance (C99_during_commit_refuted), and a commit_offsets() after a consume() that raised when some messages were already fetched (C99_commit_after_raise_refuted). With autocommit, and with overlapping calls, it is false for a single member already (C82). Messages that no member can deserialize, or whose value is falsy, are not returned (C39, C40)."
  },
  {
   "property": "C100",
   "status": "partial",
   "theorems": [
    "C100_committed_processed_partial",
    "C100_processed_once",
    "C100_one_at_a_time",
    "C100_commit_again_refuted",
    "C100_rebalance_before_commit_refuted"
   ],
   "note": "C100_processed_once and C100_one_at_a_time hold with no condition. The first claim holds when the brokers serve the logs, no rebalance comes during a lookup of offsets or between the end of a consume() that returned messages and the commit, and no commit is sent again; a worker whose consume() raises ends, and has then committed nothing it has not processed. Without the last two conditions it is false: C100_commit_again_refuted (a commit that failed is sent again while the next consume() has moved its positions but returned nothing) and C100_rebalance_before_commit_refuted (after a rebalance the commit sends a position kept from an earlier one)."
  },
  {
   "property": "C101",
   "status": "proved",
   "theorems": [
    "C101_exactly_once",
    "C101_settled_group",
    "C101_over_a_rebalance_refuted"
   ],
   "note": "C101_exactly_once is about any consumers among which the partitions are shared out, C101_settled_group derives this from the group's allocators (C95), for the default allocator function and any other that shares the partitions out and whose mapping answers for every member name. The claim is about the time between two rebalances: over a rebalance messages that were delivered but not committed are delivered again (C101_over_a_rebalance_refuted)."
  },
  {
   "property": "C102",
   "status": "partial",
   "theorems": [
    "C102_counts_partial",
    "C102_bad_batch_refuted"
   ],
   "note": "C102_counts_partial is the claim for readable, not falsy messages at any moment the program runs. It fails at the end of the program: a message without color raises and the other messages of its batch, which the consumer has passed, are not counted (C102_bad_batch_refuted)."
  },
  {
   "property": "C103",
   "status": "proved",
   "theorems": [
    "C103_order_kept",
    "C103_overlap_refuted",
    "C103_new_choice_refuted"
   ],
   "note": "C62 has the order without retries and without waiting. Both conditions are needed: the order is lost when calls overlap (C103_overlap_refuted) and with a partitioner that chooses anew, like the default one (C103_new_choice_refuted)."
  },
  {
   "property": "C104",
   "status": "proved",
   "theorems": [
    "C104_numbers_increase",
    "C104_new_partition_refuted"
   ],
   "note": "The partitions must stay: after the topic gets a partition, a refused message can go to another one, behind later messages (C104_new_partition_refuted)."
  },
  {
   "property": "C105",
   "status": "proved",
   "theorems": [
    "C105_round_trip"
   ],
   "note": "Combines C104, C68 and C102."
  },
  {
   "property": "C106",
   "status": "proved",
   "theorems": [
    "C106_kept_in_order",
    "C106_one_connection"
   ],
   "note": "C103 on the bytes; C80 has the same without retries. The conditions are needed, see C103."
  },
  {
   "property": "C107",
   "status": "partial",
   "theorems": [
    "C107_disjoint",
    "C107_exact_cover",
    "C107_requests_disjoint",
    "C107_requests_cover",
    "C107_start_partial",
    "C107_start_refuted"
   ],
   "note": "Refuted: with a plain dict that has just the members in it, as documented, the second consumer of a group allocates before it has joined, asks the dict for its own name, and its start() raises KeyError (C107_start_refuted). start() is proved for functions whose results answer for every name, like the default one's defaultdict (C107_start_partial); the rest is proved in full. C78 and C79 are the same for the default function."
  },
  {
   "property": "C108",
   "status": "proved",
   "theorems": [
    "C108_even"
   ],
   "note": "Under the hypotheses of C104 for each partition of the topic."
  },
  {
   "property": "C109",
   "status": "proved",
   "theorems": [
    "C109_only_made",
    "C109_committed_processed"
   ],
   "note": "The provisos are those under which C100 holds; C100_commit_again_refuted and C100_rebalance_before_commit_refuted show that they are needed."
  },
  {
   "property": "C110",
   "status": "proved",
   "theorems": [
    "C110_numbers_increase"
   ],
   "note": "The topic's partitions must stay the same: C104_new_partition_refuted shows why."
  },
  {
   "property": "C111",
   "status": "proved",
   "theorems": [
    "C111_exactly_once",
    "C111_clean_commit",
    "C111_clean_autocommit",
    "C111_from_commits"
   ],
   "note": "Without clean hand-overs the claim is false: C101_over_a_rebalance_refuted. C111_from_commits has the hand-overs from the members' commits; that the coordinator gives the new owner the offset last committed is its hypothesis."
  },
  {
   "property": "C112",
   "status": "proved",
   "theorems": [
    "C112_delivered_once"
   ],
   "note": "What the brokers do is hypothesis: they store what was not refused, in the order written, serve the logs and keep the committed offsets."
  },
  {
   "property": "C113",
   "status": "proved",
   "theorems": [
    "C113_delivered_once"
   ],
   "note": "The consumers' side is at the level of responses; C73, C74 and C77 say how bytes become responses."
  },
  {
   "property": "C114",
   "status": "proved",
   "theorems": [
    "C114_exactly_once"
   ],
   "note": "seen_turn is what the consumer sees of a turn; the theorem says that it ends where the turn with the connections ends."
  },
  {
   "property": "C115",
   "status": "proved",
   "theorems": [
    "C115_bytes_to_values"
   ],
   "note": "written_over (C113) relates the brokers' logs to the frames the maker wrote; over_connections (C114) relates the frames the members hear to the same logs."
  }
 ]
}