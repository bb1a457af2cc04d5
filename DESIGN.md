# Formal model of theoren/kiel in Rocq (Coq 8.16.1)

The first version of this file was written before the proofs; it is regenerated as the model grows.

## Method

* Every Python function that carries semantics is transcribed to a total, computable Gallina function in
  `rocq/theories/*.v`. Each definition has a comment citing file and lines of `/repo`, and says where it simplifies.
* Exceptions are values (`res A := Ok a | Err e`); an exception in the middle of a function leaves the state as the code
  would leave it.
* tornado coroutines are cut at their `yield`s. A step of a machine is one piece of code that runs without interruption.
  Connections, producers and consumers are event machines; theorems about them quantify over all lists of events, so over
  every interleaving of overlapping calls, every order of answers and every failure point. Cluster and client coroutines
  run over an arbitrary "world" that decides every connect and every answer; overlapping heals are an event machine as well.
* Things outside the repository are explicit parameters (records of functions or closed section variables), never axioms:
  compression libraries, user callbacks (partitioner, serializer, deserializer, allocator), the network, ZooKeeper.
* Specifications are in small separate files (`Spec*.v`) that do not mention the model's helper functions where that can be
  avoided; property theorems are in `Props*.v` with non-vacuity `Example`s beside them and `Print Assumptions` at the end.
* A `_refuted` theorem shows with a concrete witness that the code violates the English claim (a finding). A `_partial`
  theorem then proves the rest.

## Files

| model | source | specification and theorems |
|---|---|---|
| `PyBase` | Python values, dicts (insertion ordered), sets, exceptions | `BaseLemmas` |
| `Utf8`, `Struct`, `Crc32` | CPython str.encode/decode, struct.pack/unpack_from, zlib.crc32 | `Utf8Proofs`, `StructProofs`, `SpecCrc`, `PropsCrc` |
| `Primitives`, `Messages`, `Protocol` | protocol/primitives.py, messages.py, part.py | `SpecWire`, `ProtocolProofs`, `MessagesProofs`, `WireProps`, `WireMore`, `ParseErrors`, `PropsWire` |
| `Snappy`, `Messages` (codecs) | compression/snappy.py, gzip.py | `SpecCodec`, `SnappyProofs`, `CompressProofs` |
| `Request`, `Schemas`, `Constants` | protocol/request.py, every class of protocol/*.py, constants.py, errors.py | `SpecDocs`, `SpecRequest`, `RequestProofs` |
| `Connection` | connection.py | `SpecConn`, `ConnProofs`, `ConnStream`, `PropsConn` |
| `ResponseRead` | response.py and what the handlers read off a response | `SpecKafka` (Kafka's grammars), `KafkaProofs`, `KafkaUnique`, `KafkaProduced`, `PropsKafka`; with producer and consumer: `SpecBytes`, `PropsBytes` |
| `Cluster` | cluster.py | `SpecCluster`, `ClusterProofs`, `PropsCluster` |
| `Heals` | cluster.py again: heal() as an event machine, several at a time | `SpecHeals`, `HealsProofs`, `PropsHeals` |
| `Client` | clients/client.py | `PropsCluster` |
| `Producer`, `ProducerWire` | clients/producer.py (and its part of client.py); the objects and bytes of its requests | `SpecProducer`, `SpecFlow`, `SpecProduced`; `ProducerProofs`, `ProducerOrder`, `ProducerAnswers`, `ProducerRun`, `ProducerBytes`; `PropsProducer`, `PropsFlow`; with the consumer: `SpecEnd`, `PropsEnd` |
| `Closing` | close() of the clients: clients/client.py, single.py, grouped.py | `SpecClosed`; `PropsClosed` |
| `Consumer` | clients/consumer.py, single.py, grouped.py with client.py's send() inlined | `SpecConsumer`, `SpecGroup`, `SpecLog`, `SpecSets`, `SpecHistory`, `SpecSent`, `SpecShare`, `SpecHeal`; `Consumer*`, `GroupProofs`, `AllocRuns`; `PropsConsumer`, `PropsStart`, `PropsGroup`, `PropsCoord`, `FollowRuns`, `PropsLog`, `PropsSets`, `PropsHistory`, `PropsSent`, `PropsShare`, `PropsHeal` |
| `Stack` | client.py's send() over connection.py: the consumer with its connections | `SpecStack`; `StackWire`, `StackProofs`; `PropsStack` |
| `ProducerStack` | client.py's send() over connection.py: the producer with its connections | `SpecProducerStack`; `ProducerStackProofs`; `PropsProducerStack` |
| (`Consumer`) | group members reading logs, taking over from each other | `SpecGroupLog`; `FollowRuns`; `PropsGroupLog` |
| (`Stack`, `ProducerStack`) | group members over connections; from produce() to consume() | `SpecGroupStack`; `PropsGroupStack` |
| (`Stack`, `ProducerStack`) | correlation ids of requests sent again | `StackHeld`; `PropsIds` |
| (`Stack`) | what calls write and wait for | `SpecHang`; `ConsumerWrites`, `HangProofs`; `PropsHang` |
| (`ProducerStack`) | what a flush waits for | `SpecFlushWait`; `ProducerHang`; `PropsFlushWait` |
| `Full`, `FullProducer` | the whole producer: start, heal and stop over the connections the client uses, tables made from the bytes of metadata responses | `SpecRoute`; `HealOrigin`, `FullProofs`, `RouteProducer`, `RouteHeard`; `PropsRoute` |
| `FullConsumer` | the whole consumer, single or grouped: the same over `Stack` | `SpecRoute`, `SpecAsks`; `ConsumerNet`, `RouteConsumer`; `PropsRouteConsumer` |
| `FullConsumer` | which broker is taken for the coordinator | `SpecNamed`; `NamedCoord`; `PropsNamed` |
| (`Messages`) | attributes and compressed values the client does not understand | `SpecAttr`; `AttrProofs`; `PropsAttr` |
| (`Consumer`, `Messages`) | whether a partition can come to a halt | `SpecProgress`; `PropsProgress` |
| `Crew` (`Group` with `Consumer`) | all consumers of a group, ZooKeeper and kazoo's threads together | `SpecCrew`, `CrewProofs`, `CrewSettle`; `PropsCrew` |
| `Threads` | the allocator's callbacks and `consume()` as threads, one access a step | `SpecThreads`, `ThreadProofs`, `ThreadCalm`; `PropsThreads` |
| (`Full`) | `start()` among everything else | `SpecStart`, `StartProofs`; `PropsBoot` |
| (`Consumer`) | all members a group ever has, interleaved | `SpecTeam`, `TeamProofs`; `PropsTeam` |
| `Worker` | the program of `examples/worker.py` (lines 39-51), any number of them in a group | `SpecWorker`, `WorkerProofs`; `PropsWorker` |
| `Consumer`, `Crew` | the members of a settled group, together, until the next rebalance | `SpecOnce`, `OnceProofs`; `PropsOnce` |
| `Counter` | the program of `examples/counter.py` (lines 36-54) | `SpecCounter`, `CounterProofs`; `PropsCounter` |
| `Producer` | a program that waits for each call | `SpecTurns`, `TurnsProofs`; `PropsTurns` |
| `Maker` | the program of `examples/maker.py` (lines 54-73) | `PropsMaker`, `PropsSpread` |
| `Maker`, `Counter` | both programs, end to end | `PropsRound` |
| `Maker`, `Worker` | from the maker to a group of workers | `SoundProofs`; `PropsMakerWork` |
| `Maker`, `ProducerStack` | the maker over connections | `PropsMakerStack` |
| `Consumer` | a group over many rebalances | `SpecHandover`; `PropsHandover` |
| `Maker`, `Consumer` | the maker and a group over many rebalances | `SpecHandover`; `PropsMakerGroup` |
| `Maker`, `ProducerStack`, `Consumer` | the same from the bytes on the maker's connections | `PropsStackGroup` |
| `Stack`, `Consumer` | a group over many rebalances and its connections | `PropsHandoverStack` |
| `Maker`, `ProducerStack`, `Stack`, `Consumer`, `JsonValues` | bytes of the maker's connections to a group's values | `PropsBytesGroup` |
| `ProducerStack` | a program that waits for each call, over connections | `SpecTurnsStack`; `PropsTurnsStack` |
| `Group` | the allocators of a group (start(), stop(), watches, sessions) over ZooKeeper | `SpecGroupRun`; `GroupAny`, `GroupRuns`, `GroupOpen`, `GroupStart`; `PropsGroupRun` |
| `Group` | the same with any allocator function | `SpecGroupAny`; `GroupAny`, `GroupOpen`; `PropsGroupAny`, `PropsShareAny` |
| `JsonValues` | the default serializer and deserializer (json.dumps, json.loads) | `SpecJsonValues`, `JsonValueProofs`, `JsonSound`, `PropsJson` |
| `Zookeeper`, `Json` | zookeeper/shared_set.py, party.py, allocator.py, naive_allocator of grouped.py | `SpecJson` (the RFC 8259 grammar), `JsonProofs`, `SpecZk`, `ZkProofs`, `ZkAlloc`, `PropsZk` |
| `Iterables` | iterables.py | `PropsZk` |

## Per property: what is modelled and how it is proved

The statement of each property is in `properties.jsonl`; the exact theorem names are in `MANIFEST.json`.
`partial` always means: the code violates the property as stated in some case; that case is exhibited by a
`_refuted` theorem (a machine-checked counterexample in the model) and the `_partial` theorem proves everything else.

### C01 Protocol structures survive the wire (proved)

`Protocol.render/parse`: one interpreter for the declared layouts (Part, Array, primitives, MessageSet) over struct tokens. Independent grammar `SpecWire.wire`. Proved by mutual induction on layouts and values; every class of `Schemas` is an instance.

Theorems: `C01_roundtrip`, `C01_every_class`.

### C02 Text, bytes and null stay distinct (proved)

Strings and bytes through `Utf8` (encoder and strict decoder) and the length-prefixed primitives. Case analysis on byte classes, induction on the text.

Theorems: `C02_null`, `C02_text`, `C02_bytes`.

### C03 No silent truncation when serializing (proved)

`Struct.pack` with its range checks. Induction on layouts: if rendering succeeds every number was in range and every length matches, otherwise it raises.

Theorems: `C03_no_silent_truncation`, `C03_decodes`, `C03_out_of_range_raises`, `C03_too_long_raises`, `C03_missing_raises`.

### C04 Truncated responses are rejected, never mis-read (partial)

`parse` on arbitrary buffers. Induction on layouts: every proper prefix of a rendering raises; parsing looks only at the bytes it consumes (for layouts without message sets).

Theorems: `C04_truncated_rejected`, `C04_within_buffer`, `C04_local_partial`, `C04_local_refuted`.

Scope: Prefix rejection and independence of the following bytes are proved for layouts without message sets (all responses but fetch); with a message set the parse does depend on the following bytes (refuted).

### C05 Request framing (proved)

`Request.serialize` with header, size and correlation id. Independent reader of the frame in `SpecRequest`; composition with C01/C03.

Theorems: `C05_request_framing`, `C05_frame_readable`, `C05_legal_requests_serialize`.

### C06 Message checksum (partial)

`Message.render/parse` with a Gallina CRC-32 (table-free), signed wrap as in the code. C06_crc32: the function is the IEEE CRC-32, stated as the remainder of a polynomial division over GF(2) (SpecCrc).

Theorems: `C06_checksum_partial`, `C06_crc32`, `C06_every_message_refuted`.

Scope: Every serialized message carries its CRC; a message whose CRC is exactly 2^31 cannot be serialized (off by one in Message.render).

### C07 Message sets survive the wire (proved)

`MessageSet.render/parse`. List induction; the fuel of the loop is shown to suffice.

Theorems: `C07_message_sets`, `C07_sets_serialize`.

### C08 Compression is transparent (partial)

`MessageSet.compressed` and the decompression in parse; codecs are parameters obeying `codec_laws`.

Theorems: `C08_compression_partial`, `C08_gzip`, `C08_snappy_refuted`.

Scope: gzip unconditional; snappy holds when the last framed block compresses to at least 12 bytes and is refuted otherwise. Codecs are parameters obeying codec_laws.

### C09 Partial trailing messages are tolerated (partial)

`MessageSet.parse` on a set cut anywhere. Induction on the set; the cut set must end the buffer.

Theorems: `C09_trailing_cut_partial`, `C09_any_partition_refuted`.

Scope: Holds when the cut message set is the last item of the response; refuted for a cut in another partition.

### C10 Snappy framing round trip (partial)

`snappy.compress/decompress` framing around a raw codec. Induction on blocks.

Theorems: `C10_framing_partial`, `C10_short_block_refuted`.

Scope: A final block shorter than 12 compressed bytes is dropped without an error.

### C11 Correlation ids are unique (partial)

`generate_correlation_id` and its seed. Induction on the number of requests.

Theorems: `C11_unique`, `C11_fit_partial`, `C11_fit_refuted`.

Scope: Unique for ever, but ids do not wrap: after about 2^31 - 2^24 requests none can be serialized.

### C12 Declared wire layouts match their documented grammar (partial)

Schemas of all classes compared with the grammar of their docstrings (transcribed in `SpecDocs`). Computation over a finite list of classes; round trips come from C01.

Theorems: `C12_layouts_partial`, `C12_construct_partial`, `C12_all_classes`, `C12_heartbeat_refuted`, `C12_commit_v1_refuted`, `C12_coordinator_refuted`.

Scope: All classes but the four listed in undocumented_layout match.

### C13 Error codes are classified consistently (proved)

Error tables of `constants.py`/`errors.py` against Kafka's table in `SpecRequest`; finite tables and a proof for all other integers.

Theorems: `C13_names`, `C13_constants`, `C13_retriable_exactly_documented`, `C13_retriable_names`, `C13_disjoint`, `C13_unknown_codes`.

### C14 Responses reach the request they answer (proved)

`Connection` as an event machine (send, bytes arriving in any chunks, stream errors, abort, close). Invariants over all event lists; each future is completed by the frame with its correlation id.

Theorems: `C14_own_response_only`, `C14_every_response_delivered`.

### C15 Abort fails every outstanding request (partial)

Same machine, abort(). Invariant: pending futures are exactly those sent and not completed.

Theorems: `C15_abort_fails_all_partial`, `C15_abort_only_fails`, `C15_second_abort`, `C15_after_remote_close_refuted`.

Scope: Proved for connections not yet closing; after the broker closed the stream abort() does nothing and the futures stay pending.

### C16 A dead connection resolves its outstanding requests (partial)

Same machine, write errors and remote close.

Theorems: `C16_write_error_partial`, `C16_remote_close_refuted`, `C16_remote_close_reached_refuted`.

Scope: Errors other than StreamClosedError resolve everything; a closed stream leaves every outstanding future pending for ever.

### C17 No traffic after closing (proved)

Same machine; closing is permanent (induction over events).

Theorems: `C17_send_fails_immediately`, `C17_closing_for_ever`, `C17_closing_starts`.

### C18 TCP chunking is invisible (proved)

Same machine; the state after any chunking equals the state after delivering whole frames (induction on the stream).

Theorems: `C18_chunking_invisible`, `C18_interleaved_with_sends`.

### C19 Unexpected or undecodable responses poison the connection (proved)

Same machine; unknown correlation ids and undecodable frames abort the connection.

Theorems: `C19_bad_frame_aborts`.

### C20 Routing tables are consistent after metadata processing (partial)

`process_topics` on any metadata answer. Induction on topics and partitions, with the tables described by an independent relation in `SpecCluster`.

Theorems: `C20_tables_consistent_partial`, `C20_get_leader`, `C20_unique_leader`, `C20_error_codes_refuted`.

Scope: Consistency proved for every answer; 'nothing with an error code' holds only for the three codes the code tests, other codes get into the tables.

### C21 Broker connections follow the metadata (proved)

`process_brokers`; effects are a log of connects/aborts. Induction on the broker list.

Theorems: `C21_connections_follow_metadata`, `C21_never_raises`, `C21_listed_not_aborted`.

### C22 Heal finishes only in a consistent state (proved)

`heal()` as a fuelled loop over an arbitrary world; fuel irrelevance is proved. Invariant of the loop.

Theorems: `C22_heal_settled`, `C22_heal_raises`, `C22_fuel_irrelevant`.

Scope: One heal at a time; connections may die at any await.

### C23 Heal keeps healthy topics (partial)

`heal()`; what the last answer says.

Theorems: `C23_last_answer_partial`, `C23_healthy_topic_lost_refuted`.

Scope: Only the topics of the last answer survive: a follow-up answer about the troubled topics alone replaces the tables.

### C24 Bootstrap hosts are tried in order (partial)

`start()`; the effect log is described exactly: which hosts were contacted, in which order, with which address (the meaning of a host string is defined independently in `SpecCluster.bootstrap_address`).

Theorems: `C24_in_order_partial`, `C24_next_host_not_tried_refuted`, `C24_no_brokers_after_answer_refuted`.

Scope: Order proved; a failing metadata request ends start() without trying the next host, and NoBrokersError can follow a bootstrap answer.

### C25 Metadata is taken from the first broker that answers (partial)

`get_metadata()`; induction on the brokers, effect log described exactly.

Theorems: `C25_first_answer_partial`, `C25_other_failure_refuted`.

Scope: Lost connections are skipped; any other failure ends the round.

### C26 Fan-out send handles each response once (proved)

`Client.send()` over any order of arrivals; handlers and states are arbitrary. Induction on arrivals.

Theorems: `C26_each_response_once`, `C26_results_by_broker`, `C26_unhandled`.

### C27 Cluster repair after errors (partial)

`Client.send()` with the heal flag.

Theorems: `C27_heal_once_partial`, `C27_connection_error`, `C27_stream_closed_refuted`.

Scope: StreamClosedError does not lead to a heal; sends do not overlap in the model.

### C28 Produced messages are accounted for (proved)

`Producer` as an event machine with ghost fields (numbered messages, wire log, settled and lost lists). Invariant over all event lists: every accepted message is in exactly one place.

Theorems: `C28_accounted`, `C28_exactly_one_place`.

Scope: In general there is a fourth place: messages dropped by a flush that raised (see C35); it is empty when lookups succeed.

### C29 Overlapping flushes do not disturb each other (proved)

Same invariant: tables of sent requests are keyed by fresh correlation ids; answering one leaves the others alone.

Theorems: `C29_one_request_per_id`, `C29_others_untouched`.

### C30 Per-partition order (proved)

`flush()` result described exactly per topic and partition: order of the queue.

Theorems: `C30_flush_order`, `C30_all_sent`.

Scope: Messages whose leader is not connected stay queued.

### C31 Batching threshold (proved)

`flush_due` in `produce()`.

Theorems: `C31_below_threshold`, `C31_at_threshold`.

### C32 Retriable failures are retried (proved)

`handle_produce_response`; what goes back to the queue.

Theorems: `C32_retried`.

Scope: For responses that list only partitions of the request, once, with known codes.

### C33 No message loss on connection failure (partial)

Failure events; the request's messages stay where they are for ever (invariant over the rest of the run).

Theorems: `C33_failure_keeps_books_partial`, `C33_never_sent_again`, `C33_resent_refuted`.

Scope: The code does not resend: after a failure the messages stay in the table of sent requests for ever.

### C34 Closing a producer loses nothing (partial)

`close()` followed by any complete sequence of answers in calm runs.

Theorems: `C34_close_settles_partial`, `C34_close_refuted`.

Scope: close() flushes once; retriable answers to that flush leave messages queued.

### C35 A failed flush keeps the queued messages (partial)

`flush()` that raises; exact description of kept and lost messages.

Theorems: `C35_rest_kept_partial`, `C35_kept_refuted`.

Scope: Topics drained before the exception, and the one it happened in, are lost.

### C36 Unknown topics and closing producers (proved)

`produce()`; after `close()` in any run every `produce()` is inert.

Theorems: `C36_after_close`, `C36_closing_does_nothing`, `C36_unknown_topic`, `C36_known_topic`.

### C37 Consumption follows the log (partial)

`SpecLog` gives each partition a log and says when an answer is honest about it. Invariant over all runs of a single consumer, including interleaved topics, cluster changes, failures; returned values are the log's values from the start position on, in order, without gap or repetition.

Theorems: `C37_follows_log_partial`, `C37_whole_log`, `C37_falsy_refuted`, `C37_overlap_refuted`.

Scope: C37_whole_log is the claim for logs whose messages all deserialise to truthy values; C37_follows_log_partial covers every log and every interleaving with other topics, cluster changes, connection failures and broker errors. Refuted as stated: falsy values are dropped (C37_falsy_refuted), overlapping consume() calls on one topic return messages twice (C37_overlap_refuted). Proved for SingleConsumer once the start positions are known (see C44 and C60 for how they are obtained).

### C38 Fetch position update rule (proved)

Consumer machine; effect of one answer on every position, and of every other step.

Theorems: `C38_position_rule`, `C38_positions`, `C38_only_answers_move`.

### C39 Every fetched message is returned (partial)

Ghost history of the answers a call took; what `consume()` returns against what they contain.

Theorems: `C39_returned_partial`, `C39_nothing_truthy_lost_partial`, `C39_falsy_dropped_refuted`, `C39_heal_failure_refuted`.

Scope: Values that Python counts as false are dropped, and a heal() that raises after the answers were handled loses their messages although the positions have moved.

### C40 A message that does not deserialize is skipped (partial)

Positions and results around undeserializable messages.

Theorems: `C40_left_out`, `C40_passed_partial`, `C40_stuck`, `C40_continues_past_refuted`.

Scope: An undeserializable message is passed only once a later message of the partition deserializes; at the end of the log it is fetched again for ever.

### C41 Fetch requests cover the allocation (proved)

Every fetch `consume()` sends: which brokers, which partitions (permutation of the allocation), which sizes and offsets.

Theorems: `C41_fetch_requests`, `C41_all_asked`.

### C42 Out-of-range positions are re-determined (partial)

Runs after an out-of-range answer: lookup before the next fetch.

Theorems: `C42_lookup_before_fetch_partial`, `C42_not_asked_again`, `C42_failed_lookup_refuted`.

Scope: A lookup whose connection fails counts as done, and the next fetch uses the stale position.

### C43 Retriable offset errors are re-evaluated (partial)

Runs after a retriable lookup error: heal first.

Theorems: `C43_heal_first_partial`, `C43_looked_up_again_refuted`.

Scope: consume() marks the topic as known again after the heal, so the failed lookup is never repeated.

### C44 Start positions (partial)

Lookup requests of a single consumer and their answers.

Theorems: `C44_numbers_partial`, `C44_datetimes_refuted`.

Scope: Numbers (BEGINNING, END, epochs) give valid requests; a datetime or timedelta becomes a float, which no request can hold.

### C45 Default allocation is an exact, even cover (proved)

`naive_allocator`: round robin over sorted members and partitions. Modular arithmetic and list induction.

Theorems: `C45_exact_even_cover`, `C45_no_members`.

Scope: Topic names without a colon (Kafka allows none); with one the allocator raises ValueError (C45_colon).

### C46 Group members agree (proved)

Two allocators after any histories that show them the same members and partitions.

Theorems: `C46_agree`, `C46_disjoint`.

Scope: Agreement for every deterministic allocator function that does not raise on the partitions seen; disjointness for the default allocator.

### C47 Rebalance happens exactly on change (partial)

Allocator notifications; callback exactly when the member's own part changes.

Theorems: `C47_exactly_on_change_partial`, `C47_default_serves`, `C47_plain_dict_refuted`.

Scope: Holds for allocator functions whose result has an entry for (or defaults for) the member, so for the default one. Refuted for a plain dict without this member: KeyError, no callback.

### C48 Rebalance during consume invalidates the result (partial)

Grouped consumer machine with rebalances at any step; no message of a lost topic is returned, and the topic is looked up again.

Theorems: `C48_dropped_partial`, `C48_looked_up_again_partial`, `C48_during_lookup_refuted`, `C48_during_commit_refuted`, `C48_dropped_committed_refuted`.

Scope: Proved when no lookup of the topic is in flight; a rebalance during a lookup or during the autocommit is not noticed, and positions of dropped messages stay advanced.

### C49 Committed offsets are the consumed positions (proved)

Every commit request any run sends: group, topics, partitions, offsets; and what was consumed since the last one.

Theorems: `C49_commit_requests`, `C49_default_returns_dicts`, `C49_consumed_since`, `C49_no_autocommit`.

### C50 Failed commits are retried (partial)

Answers to commits; retries until acknowledged.

Theorems: `C50_again_partial`, `C50_partly_acknowledged_refuted`.

Scope: Proved for topics none of whose partitions is acknowledged in the answer; an acknowledged partition drops the whole topic, so its other partitions are not committed again.

### C51 Coordinator discovery tries every broker (partial)

`determine_coordinator()`; brokers asked in turn.

Theorems: `C51_in_turn`, `C51_found`, `C51_goes_on_partial`, `C51_no_brokers`, `C51_connection_failure_refuted`, `C51_fatal_code_refuted`.

Scope: Brokers are asked in turn while they answer; a connection failure raises KeyError instead of being passed over.

### C52 Group offsets are loaded before fetching (proved)

Committed offsets are loaded before any fetch of a topic.

Theorems: `C52_loaded_first`, `C52_asked_again`, `C52_fatal`.

### C53 Shared set updates are atomic (proved)

`SharedSet` clients interleaved under a lock, with crashes anywhere; simulation of the sequential set; what the data of the znode means is stated with the JSON grammar of RFC 8259 (`SpecJson`), which json.loads is proved to read.

Theorems: `C53_atomic`, `C53_none_lost`.

Scope: The mutual exclusion of the kazoo lock is trusted; clients may die anywhere (the lock is then free).

### C54 No needless writes to the shared set (proved)

Same machine; writes only if the set changes.

Theorems: `C54_no_needless_writes`, `C54_unchanged_not_written`.

### C55 Party membership ownership (partial)

`Party.join/leave` against a znode model.

Theorems: `C55_join_partial`, `C55_join_new`, `C55_leave`, `C55_other_members`, `C55_join_race_refuted`.

Scope: join() ignores the result of its delete+create transaction: if the old node expires in between it returns without a node.

### C56 Adding and removing partitions through the allocator (partial)

`add_partitions/remove_partitions` through the allocator and the shared set.

Theorems: `C56_add_exact`, `C56_names_distinct`, `C56_remove_partial`, `C56_remove_refuted`.

Scope: remove_partitions() raises TypeError for every dict of lists.

### C57 Start/stop report the first failure (partial)

`start/stop` with the attempter's future.

Theorems: `C57_stop`, `C57_start_partial`, `C57_start_returns`, `C57_connect_failure_refuted`.

Scope: start() whose connect step raises waits for the connected event before it looks at the future.

### C58 Connected flag follows the session state (proved)

State listener; the flag after any list of session states.

Theorems: `C58_connected_flag`.

### C59 drain yields everything once and empties (proved)

`drain()` over list, deque, dict and set.

Theorems: `C59_nothing_lost`, `C59_drained`.

### C60 Where fetches start (proved)

`SpecHistory.replay`: the position as a fold over the answers received. Step lemma for every label and induction on runs; no hypothesis on the run.

Theorems: `C60_positions`, `C60_fetches`.

Scope: The history is spelled out in SpecHistory.position_after, including what an answer that makes its handler raise still does.

### C61 Every request a consumer sends is one Kafka can read (proved)

Invariant over runs: everything a waiting call keeps to send again fits Kafka's fields, so do all positions. Composition with C05 gives the bytes of every request.

Theorems: `C61_requests_readable`, `C61_sent`, `C61_serialized`.

Scope: C61_sent ranges over whole runs; C61_serialized gives the bytes, written out in SpecSent.kafka_payload. The bounds in SpecSent (step_fits) are about what goes in: configuration, call arguments, answers, allocation. A datetime or timedelta start is outside them for a single consumer: it does not serialize (see C44).

### C62 Messages written for a partition are the ones produced, in order (proved)

Invariant over runs: for each topic and partition, what was written followed by what is queued is a sub-sequence of what was accepted; every message written or queued carries the index of the produce() call that gave it.

Theorems: `C62_only_produced`, `C62_in_order`, `C62_retries_reorder`.

Scope: C62_retries_reorder shows the condition is needed: after a retriable error the message is written again behind later ones.

### C63 Every produce request written can be read by Kafka and carries the messages produced (proved)

Invariant over runs: every request on the wire was serialized without error. Inversion of the part serializers gives the bytes; composition with C62 gives the contents.

Theorems: `C63_requests_readable`, `C63_messages_made`.

Scope: The bytes are described in SpecProduced; C63_messages_made says that what produce() makes of a key and a value meets the hypothesis. C10 gives the reading side.

### C64 From produce() to consume() (proved)

Composition of C62 (what the producer wrote) with C37 (what a consumer returns of a log), through a relation between wire and log that only says that the broker keeps what it was sent.

Theorems: `C64_end_to_end`.

Scope: Composition of C62 and C37 through SpecEnd.keeps. The consumer's positions are known and no consume() of the topic runs at the start; none of its calls raises. C64_example uses the JSON encoding of lists of strings.

### C65 Group members share out the partitions (proved)

The allocator inside the consumer state machine; the mapping is a function of the two sets last notified; composed with what fetch and commit requests name.

Theorems: `C65_no_partition_shared`, `C65_no_partition_left_out`.

Scope: Partition names in ZooKeeper are assumed to be '<topic>:<id>' as clients write them. While views differ two members may fetch the same partition: C65_views_matter.

### C66 A closed consumer reads nothing (proved)

The closing flag of the consumer state machine; an invariant of the calls made since.

Theorems: `C66_closed`, `C66_reads_nothing`, `C66_single`.

Scope: A group member with autocommit goes on committing its positions in each consume() after close(): C66_commits_after_close_refuted.

### C67 close() closes every connection (partial)

`Client.close` over `Cluster.stop` and `allocator.stop`; composed with the consumer's sends.

Theorems: `C67_closes_partial`, `C67_single_partial`, `C67_silent_partial`, `C67_zookeeper_failure_refuted`.

Scope: If the wind-down fails (leaving the group in ZooKeeper, a producer's last flush) close() raises and closes nothing: refuted. Silence afterwards assumes that no heal still running opens connections.

### C68 JSON values survive the default serializer and deserializer (proved)

That nothing else is read, and every text of the grammar is, whatever it means: two more inductions (`JsonSound`). `jdumps` and `jloads` model Python's json package with sort_keys; the grammar in `SpecJsonValues` is RFC 8259's. Reading: mutual induction over derivations of the grammar. Writing: induction over the value.

Theorems: `C68_written`, `C68_read`, `C68_only_json`, `C68_round_trip`, `C68_can_be_sent`, `C68_end_to_end`.

Scope: repr() and float() are a parameter: the theorems hold for floats whose repr() float() reads back. Values that are false (0, empty, None) are not returned by consume(), see C64.

### C69 Errors lead to a heal before a call goes on, and nothing else does (proved)

Consumer.v machine; the handlers are shown by induction over the parts of a response to raise the flag exactly for the passing codes; the flag survives every step but a successful heal, and a call whose round ends while it is up waits for a heal.

Theorems: `C69_heals_first`, `C69_no_needless_heal`, `C69_one_heal_is_enough`.

Scope: passing error codes are listed by number in SpecHeal.v; answers the client has no rule for (unknown codes, fatal lookup errors) make the call raise instead and are excluded by `regular`

### C70 Overlapping heals keep the routing tables whole (partial)

Heals.v cuts heal() at its two yields and runs any number of heals on one cluster; invariant by induction over events: a heal that is connecting works on the latest answer it got.

Theorems: `C70_tables_follow_answers`, `C70_returns_partial`, `C70_newest_answer_refuted`, `C70_brokers_refuted`.

Scope: proved: the tables always are those of one whole answer, and what holds when a heal returns. Refuted: they need not be those of the newest answer (an older answer can be written later), and a broker of the answer may have no connection when heal() returns

### C71 No open connection gets lost (partial)

Heals.v; invariant over events: a connection set up is in the dict or was aborted, closed or died; a closing one died, was aborted or closed; a heal that connects to a broker finds no entry for it.

Theorems: `C71_none_lost_partial`, `C71_stop_closes_all_partial`, `C71_overlap_refuted`, `C71_stop_during_heal_refuted`.

Scope: proved when heals do not overlap (connections may die and stop() may be called at any point). Refuted otherwise: two overlapping heals connect to the same new broker and the first connection is overwritten and never closed; a connection being made while stop() is called stays open

### C72 A heal fails only if no broker answers (partial)

Heals.v; invariant over events: the keys the metadata loop iterates over are those of the dict, and the brokers to be dropped are still in it.

Theorems: `C72_failures_partial`, `C72_key_error_refuted`, `C72_runtime_error_refuted`.

Scope: proved when heals do not overlap. Refuted otherwise: KeyError when another heal removed the dead connection this one is about to abort, RuntimeError (dictionary changed size during iteration) when another heal added a broker while this one was asking

### C73 Responses are read as what Kafka's protocol says they mean (proved)

SpecKafka.v writes Kafka's grammars down from the protocol guide, without kiel's classes; ResponseRead.v reads the attributes the handlers use off the parsed object; the parser is followed through every grammar by induction over arrays and message sets.

Theorems: `C73_fetch`, `C73_offset`, `C73_offset_fetch`, `C73_commit`, `C73_coordinator`, `C73_produced`, `C73_metadata`.

Scope: sets compressed with snappy whose last block has less than 12 bytes are not covered (finding 3), nor are sets cut off in a partition that is not the last (finding 2)

### C74 Consuming from a log of bytes (proved)

The bytes of every response determine what the handlers see (C73); with that, the run is one of those C37 is about.

Theorems: `C74_bytes_of_log`.

Scope: C37 with the responses replaced by the bytes the broker writes; a broker that begins a compressed set before the offset asked for is not covered here

### C75 From produce() through the broker's bytes to consume() (proved)

What is rendered is followed into Kafka's grammar (KafkaProduced.v); the grammar has only one reading per byte string (KafkaUnique.v, by induction over arrays and message sets); with that the broker's logs hold what the producer carried, and C64 and C74 apply.

Theorems: `C75_end_to_end`, `C75_written`.

Scope: uses that the grammar of produce requests is unambiguous (KafkaUnique.v)

### C76 Consuming messages kept in compressed sets (partial)

The induction over runs of C37 (FollowRuns.v, shared by both) with other books: a run of sets beginning at the set that reaches an offset covers every message from that offset to its end. When positions start between sets they stay there and the run is one of those C37 is about.

Theorems: `C76_nothing_skipped_partial`, `C76_whole_sets_partial`, `C76_again_refuted`, `C76_endless_refuted`, `C76_backwards_refuted`.

Scope: Refuted as stated: messages of a set before the position are returned (C76_again_refuted); a set whose last message cannot be deserialised is returned again by every call for ever (C76_endless_refuted); the position can move backwards (C76_backwards_refuted). Proved: no readable message between the start and the position reached is left out and nothing else than messages of the log is returned; if every message can be deserialised and the consumer starts between two sets, each message is returned once and in order.

### C77 Consuming over connections (proved)

Stack.v puts the consumer machine on top of one connection machine per connection. An invariant relates the futures a call waits for, the ids issued, the bytes written and the frames read; by it each step of the stack is a run of steps of the consumer machine whose answers are orderly in the sense of C74, and C74_bytes_of_log applies.

Theorems: `C77_own_answer`, `C77_request_readable`, `C77_over_connections`.

Scope: The machine of C37/C74 over the machine of C14-C19. The specification of the brokers (SpecStack.v) is about bytes in both directions only.

### C78 A group shares its partitions (proved)

Group.v is a transition system of any number of allocators, each at a step of start(), with the two watches as small automata (nothing to do, due, read but not delivered). Invariant: each allocator is the run of C46 on the notifications delivered to it, and a watch with nothing to do has delivered what is in ZooKeeper now; a member znode belongs to the session of the client with that name. Then C45 and C46 give the shares.

Theorems: `C78_disjoint`, `C78_exact_cover`, `C78_even`.

Scope: For consumers with different names; Example C78_same_name shows that equal names (hostname:id(self) of two processes of a host) give every partition to both.

### C79 A started consumer belongs to its group (partial)

From the invariant of C78, with a measure for start() (each step it is given brings it one nearer to the end: the flags it waits for are set by the callbacks that setting up the watches makes) and an invariant for clients whose session is not the one they joined in.

Theorems: `C79_start_returns`, `C79_raises_only`, `C79_member_partial`, `C79_readable_partial`, `C79_started_unreadable_refuted`, `C79_expired_refuted`, `C79_never_back`.

Scope: Refuted twice. The first consumer of a new group: both watches first report nothing, which already counts as collected, so start() returns before anything is allocated and reading the allocation raises KeyError (C79_started_unreadable_refuted). After a session expired the consumer reconnects but join() is not called again: it stays connected, notices every change and has no partition (C79_expired_refuted), for ever (C79_never_back). Proved: it is a member while it has the session it joined in, and then its allocation can be read once it has noticed the last change; start() comes to its end from every state and fails only when a call does.

### C80 Producing over connections (proved)

ProducerStack.v runs Producer.v over Connection.v: flush() writes frames on the connections, what arrives resolves futures, a resolved future is handed to the response handler. Invariant: the producer is the run of Producer.v on the projected events; on each connection the produce frames written are, in order, some of the requests of the producer, with their ids; each future waited for is of such a frame; and, with frames that answer what was written, each settled message's code was read from a frame with the id of a request that carried it. Composed with C75 (bytes of requests) and C73 (bytes of responses).

Theorems: `C80_own_answer`, `C80_told`, `C80_stored`, `C80_kept`, `C80_received`.

Scope: Over a reachable stack of producer and connections. The messages accounted for as queued, in flight or lost are those of C28; what is lost when a flush raises is the subject of C28, C33 and C35.

### C81 A group member follows the logs of its partitions (proved)

The bookkeeping of C37 (FollowRuns.v) with commits in it: a call waiting for its autocommit or for the heal after it holds what it will return. `at_start` opens the books at the step in which a call goes on from its lookup to its fetch.

Theorems: `C81_follows_log`.

Scope: Strengthens C37, which is about a SingleConsumer between calls. The deliveries left out of what is returned are the falsy and unreadable ones (C39).

### C82 At least once (partial)

C81 up to the step that sends the commit: with autocommit off only commit_offsets() sends commits (C49), it does not overlap a consume(), so nothing is held back; induction over the turns.

Theorems: `C82_committed_returned`, `C82_at_least_once_partial`, `C82_autocommit_refuted`, `C82_overlap_refuted`.

Scope: Holds with autocommit off, consume() and commit_offsets() not overlapping and no consume() raising. With autocommit (the default) it is false: consume() commits before it returns, so a crash in between loses messages. It is also false if commit_offsets() is called while a consume() waits.

### C83 Commits do not go back (partial)

C81's bookkeeping restarted in mid-run with the position then as a lower bound.

Theorems: `C83_commits_forward_partial`, `C83_after_rebalance_refuted`.

Scope: Holds between two rebalances. After a rebalance it is false: commit_offsets() before the next consume() commits 0 for partitions just allocated, whose offsets nobody looked up.

### C84 A group goes on from its stored offsets, or starts anew (partial)

Positions by C60; the invariant of C52 (a topic never loaded is never fetched) over whole runs.

Theorems: `C84_stored_partial`, `C84_unknown_group_refuted`, `C84_minus_one_refuted`.

Scope: The first half holds. The second is false: while brokers answer that they know no offsets (code 3), the consumer fetches nothing and returns nothing, in every run; if they answer -1 without an error, it fetches from -1, which is out of range, and starts over at each consume().

### C85 A group member over its connections (proved)

The projection of StackProofs.v onto the consumer's labels, now also for rebalances and stored offsets; then C81.

Theorems: `C85_over_connections`.

Scope: C77 is the case of a SingleConsumer between calls, there with the deserialized values of all messages.

### C86 From produce() to consume() (proved)

C80_stored gives the message's place in the log; C85 and C82 give what is returned of the log.

Theorems: `C86_produced_consumed`, `C86_produced_group`.

Scope: Assumes what SpecStack.v, SpecGroupStack.v and SpecProducerStack.v say of brokers, deserializer and serializer being inverse for the value, and the value being truthy (C39).

### C87 Correlation ids on the wire (proved)

An invariant of Stack.v: a call that holds on to a request object has no future open for it when it sends it again (StackHeld.v, StackProofs.v: held_ok).

Theorems: `C87_consumer`, `C87_producer`.

Scope: C11 is about request objects, C14 and C17 about one connection whose requests have distinct ids; here nothing is assumed about ids.

### C88 A call does not wait for nothing (partial)

An invariant of Stack.v on what is waited for (HangProofs.v: whole, step_whole), on what each piece of the consumer writes (ConsumerWrites.v), and of one connection on what is pending when it is closing (tidy); for the refutation, gone_step of ConnProofs.v lifted to the stack.

Theorems: `C88_goes_out`, `C88_written`, `C88_waits_partial`, `C88_hangs_refuted`, `C88_hangs_reached_refuted`.

Scope: C88_waits_partial: holds as long as no stream is closed under its connection. Refuted otherwise: when the broker closes the connection a call is waiting on, the call never returns, whatever happens afterwards (C88_hangs_refuted, for every such state; C88_hangs_reached_refuted shows one). Assumed of the run: each broker has a connection of its own, correlation ids below 2^31, requests that serialize().

### C89 A flush ends (partial)

An invariant that ties the futures of ProducerStack.v to the requests the producer has open (ProducerHang.v: listed, call_awaits), tidy of HangProofs.v for the pending ones, gone_step of ConnProofs.v for the first refutation; for the second: no frame carries the id of a request with required_acks 0 (answers_wanted with frame_meant), and a future fails only when its connection is closing (fails_closing).

Theorems: `C89_awaited`, `C89_waits_partial`, `C89_ends`, `C89_hangs_refuted`, `C89_hangs_reached_refuted`, `C89_unacknowledged_refuted`, `C89_unacknowledged_reached_refuted`.

Scope: C89_waits_partial: holds as long as no stream is closed under its connection, and says nothing about whether an answer is sent. Refuted otherwise: when the broker closes the connection, the flush waits for ever and the request's messages are neither queued again nor given up (C89_hangs_refuted, for every such state; C89_hangs_reached_refuted shows one); with required_acks=0, to which Kafka sends no response, every flush waits until its connection is lost (C89_unacknowledged_refuted; C89_unacknowledged_reached_refuted shows one). Assumed there: a supported compression, codecs that obey their laws, and messages made from byte strings, strings, numbers or None.

### C90 Routing follows the metadata on the wire (proved)

Full.v composes Heals.v with the connections and the client for any client; an invariant (FullProofs.v: finv) says that the tables, the connections and the responses the heals carry all come from responses that arrived (HealOrigin.v: origin), and that every frame written satisfies a routing relation; RouteProducer.v instantiates it for the producer, RouteHeard.v goes from the parsed response to the bytes (C73_metadata).

Theorems: `C90_tables`, `C90_connections`, `C90_routed`, `C90_refines`.

Scope: The assumption on the broker is that its frames answer requests written on their connection and that the answer to a metadata request is a metadata response. 'One such response' need not be the latest (C70: an overlapping heal may install an older one), and the address may come from another response than the leader: a connection that exists is kept when later metadata moves the broker. C90_refines: below the cluster, a whole producer's history is one of ProducerStack.v, so that C80 and C89 hold of it.

### C91 A consumer's requests follow the metadata on the wire (proved)

Full.v instantiated with Stack.v (FullConsumer.v). ConsumerNet.v: a consumer's steps leave connections, leaders and the cluster's record alone and send fetch and offset requests to the leader in the table; RouteConsumer.v: what goes out in a piece of a call is what Consumer.v puts on its wire (step_writes), every kept future belongs to a request a send() waits for; then FullProofs.frun_inv.

Theorems: `C91_tables`, `C91_connections`, `C91_routed`, `C91_refines`.

Scope: As C90: the broker's frames answer requests written on their connection, and the answer to a metadata request is a metadata response; 'one such response' need not be the latest, and the address may come from another response than the leader. C91_refines: below the cluster, a whole consumer's history is one of Stack.v, so that C77, C79 and C85-C88 hold of it.

### C92 Commits go to a coordinator that a broker named (proved)

NamedCoord.v: the stored coordinator id changes only when an answer without error to a GroupCoordinatorRequest of the group is handed to the send() that waits for it (coord_step), commits and lookups go to the stored id (sent_coord), the answer's bytes came in on the connection (outcome_came); induction over histories of Stack.v, carried to the whole consumer by C91_refines and the routing invariant of RouteConsumer.v.

Theorems: `C92_named`.

Scope: The named coordinator need not be the one named last at the time of writing. The broker's frames answer requests written on their connection; answers to metadata and to coordinator requests are metadata and coordinator responses.

### C93 A message the client cannot unpack is reported, not dropped (partial)

SpecAttr.v says on Kafka's grammar which entries vanish, are taken for others, or are refused. AttrProofs.v follows the parser through them, by induction over the set, and carries an error from one entry out through the arrays of the response.

Theorems: `C93_refused_partial`, `C93_too_deep`, `C93_lost_refuted`.

Scope: C93_refused_partial: holds where the value is text or null, which the client takes for a TypeError. Refuted otherwise (C93_lost_refuted, for every response): the value of a message with unknown attributes is itself parsed as a message set, so the message vanishes without an error, or other messages are delivered in its place; snappy values of less than 32 bytes vanish too. C93_example is an LZ4 frame as a producer writes it. C93_too_deep: nesting beyond the interpreter's stack is refused.

### C94 A consumer gets past what is in the log (partial)

C60_positions gives the position as a function of the answers; oversized_fetch and C93_lost_refuted show that the bytes are read as an answer without a message for the partition; induction over the history.

Theorems: `C94_moves_partial`, `C94_stuck_refuted`.

Scope: C94_moves_partial: holds for answers that bring at least one whole message that deserializes. Refuted otherwise (C94_stuck_refuted, for every history): where the next message is larger than the limit in the request, which Kafka then cuts short, or is one of those of C93, the position stays, nothing is returned, no error is raised, and every further request asks for the same offset.

### C95 The consumers of a group, run together, share its partitions (proved)

Crew.v composes the group of Group.v with a consumer machine per client: a client's consumer is told exactly what its watches bring. Invariant: each consumer is a run of Consumer.v whose notifications are those of its client's allocator; then C107 (C78 for any function) for the group, C41 and C77 for the consumer. C95_settles by induction over the clients.

Theorems: `C95_one_allocator`, `C95_exclusive`, `C95_covered`, `C95_settles`.

Scope: For every allocator function that shares the partitions out (SpecGroupAny.v); C95_functions has two. Consumers that have not noticed a change yet may overlap with others (C95_changes shows one), which is why the claim is about those that have. A member whose process died counts as a member until its session ends.

### C96 Notifications that arrive at the same time leave the right allocation (partial)

Threads.v: every access to an attribute, set or dict in the callbacks, rebalance() and consume() is a step. Invariants over any interleaving: each mapping kept is the function's value for members and partitions told (C96_never_torn); with single callbacks the steps of a callback carry the right members and partitions to the assignment. The overlap is run symbolically for arbitrary members and partitions.

Theorems: `C96_one_at_a_time_partial`, `C96_never_torn`, `C96_overlap_refuted`.

Scope: C96_one_at_a_time_partial: holds where a notification starts only when the one before has ended, however consume() interleaves with them. C96_never_torn: holds always. Refuted (C96_overlap_refuted, for all members and partitions): if the first notifications of members and of partitions overlap, the later assignment of the mapping may be the older one; then no member of the group has any partition in this client's allocation, although members and partitions are known, until the next change. kazoo locks calls per watch only; the first call of a watch is made in the thread that starts it, and after a reconnection each watch is called in a thread of its own.

### C97 Offsets are looked up before fetching, whatever the threads do (partial)

Threads.v as for C96; invariant calm_inv: while no callback runs, the topics that count as synced have the partitions of the current mapping looked up. The refutations are computed; that the second lasts is by induction over all further steps (stays_synced).

Theorems: `C97_apart_partial`, `C97_window_refuted`, `C97_loop_refuted`.

Scope: C97_apart_partial: holds where notifications and consume() do not overlap. Refuted: between the assignment of the new mapping and on_rebalance() consume() fetches a new partition as synced (C97_window_refuted); a consume() of a topic the member has no partition of adds a key to the dict rebalance() is going through, which raises RuntimeError, on_rebalance() is not called, and for as long as the group does not change the member fetches its new partition without ever looking its offset up (C97_loop_refuted).

### C98 start() goes through the bootstrap hosts whatever else happens (proved)

Invariant over the steps of Full.v, generic in the client: the hosts that failed, the numbers of their connections in the record of the cluster, and the place of start(); every other call leaves that place alone. Reading: each XConnected in the record was performed on the connection, and no later event stops its reader being started.

Theorems: `C98_start_producer`, `C98_start_consumer`, `C98_read_producer`, `C98_read_consumer`.

Scope: C24 is about a single start() with nothing else going on, and says in full what it does to the cluster; it also shows that a host that does not answer ends start() although others are left.

### C99 A group loses no message, however its members come, go and crash (partial)

No store is modelled: the coordinator answers with any offset committed earlier in the history or the start. Each member is in one of the phases lost, looking up, healing, dropping what it fetches, reading; the last carries a fair turn (C82) that began at offsets up to which all was read. The invariant is by induction on the history; `read up to` only grows.

Theorems: `C99_committed_read_partial`, `C99_position_read_partial`, `C99_all_read_partial`, `C99_commit_after_drop_refuted`, `C99_during_lookup_refuted`, `C99_during_commit_refuted`, `C99_commit_after_raise_refuted`.

Scope: Holds for the default allocator function, or any other whose mapping answers for every member name, without autocommit when consume(t) does not overlap with itself, a rebalance does not come during a lookup of offsets, and offsets of t are sent to be committed only while no consume(t) runs, after one that has looked them up since the last rebalance, and if none that knew its positions has raised since. These conditions are needed: a single rebalance during a lookup can lose a message (C99_during_lookup_refuted); so can a commit_offsets() after a consume() that returned nothing because of a rebalance, since positions have moved (C99_commit_after_drop_refuted), a commit_offsets() that the client itself sends again after an error and a rebalance (C99_during_commit_refuted), and a commit_offsets() after a consume() that raised when some messages were already fetched (C99_commit_after_raise_refuted). With autocommit, and with overlapping calls, it is false for a single member already (C82). Messages that no member can deserialize, or whose value is falsy, are not returned (C39, C40).

### C100 A group of workers (examples/worker.py) commits only what it has processed (partial)

The program is a machine around Consumer: where the loop is, and what was processed. An invariant ties the place to the running and ended calls; from it each worker is careful in the sense of C99, whose induction over histories is done for any notion of `the program has the message` that a commit can rely on.

Theorems: `C100_committed_processed_partial`, `C100_processed_once`, `C100_one_at_a_time`, `C100_commit_again_refuted`, `C100_rebalance_before_commit_refuted`.

Scope: C100_processed_once and C100_one_at_a_time hold with no condition. The first claim holds when the brokers serve the logs, no rebalance comes during a lookup of offsets or between the end of a consume() that returned messages and the commit, and no commit is sent again; a worker whose consume() raises ends, and has then committed nothing it has not processed. Without the last two conditions it is false: C100_commit_again_refuted (a commit that failed is sent again while the next consume() has moved its positions but returned nothing) and C100_rebalance_before_commit_refuted (after a rebalance the commit sends a position kept from an earlier one).

### C101 Between two rebalances a group delivers each message once, to one member (proved)

A consumer's fetch requests name only partitions allocated to it when they are sent (shown for every piece of code that can send one), and without a rebalance the allocation stays. So the books of C81 can be kept with the owner of each delivery; a partition's deliveries in the whole group are then those of its owner, and offsets in a log are distinct.

Theorems: `C101_exactly_once`, `C101_settled_group`, `C101_over_a_rebalance_refuted`.

Scope: C101_exactly_once is about any consumers among which the partitions are shared out, C101_settled_group derives this from the group's allocators (C95), for the default allocator function and any other that shares the partitions out and whose mapping answers for every member name. The claim is about the time between two rebalances: over a rebalance messages that were delivered but not committed are delivered again (C101_over_a_rebalance_refuted).

### C102 The counter example counts each message once (partial)

`Counter` is the program: its state is read off the consume() calls that have ended. It never has two calls at once, so the books of C37 can be kept from the moment the consumer learns its positions; before, it gets nothing. The count of a color is then a sum over the deliveries, split by partition.

Theorems: `C102_counts_partial`, `C102_bad_batch_refuted`.

Scope: C102_counts_partial is the claim for readable, not falsy messages at any moment the program runs. It fails at the end of the program: a message without color raises and the other messages of its batch, which the consumer has passed, are not counted (C102_bad_batch_refuted).

### C103 A program that waits for each produce() keeps the order of its messages, retries or not (proved)

Invariant per partition: the queued messages are sorted, every request written before carries earlier messages or was refused, and while a request with the partition is awaited nothing of the partition is queued. A flush takes all queued messages of a partition or none, for their leader is the same.

Theorems: `C103_order_kept`, `C103_overlap_refuted`, `C103_new_choice_refuted`.

Scope: C62 has the order without retries and without waiting. Both conditions are needed: the order is lost when calls overlap (C103_overlap_refuted) and with a partitioner that chooses anew, like the default one (C103_new_choice_refuted).

### C104 The maker example writes increasing numbers to each partition (proved)

`Maker` is run(). Its calls wait for each other and its partitioner depends on the number only, so C103 applies; the accepted messages have increasing numbers by induction over the run.

Theorems: `C104_numbers_increase`, `C104_new_partition_refuted`.

Scope: The partitions must stay: after the topic gets a partition, a refused message can go to another one, behind later messages (C104_new_partition_refuted).

### C105 What the maker example writes, the counter example counts (proved)

C104 gives the numbers in each partition; message n can only be in one partition, so the lists join without repetition. C68 shows that the default deserializer reads each value back to an equal one, whose color is the one given. C102 gives the counts.

Theorems: `C105_round_trip`.

Scope: Combines C104, C68 and C102.

### C106 What brokers keep of a waiting program's messages is in the order produced, on the bytes (proved)

The requests written have increasing correlation ids, so frames sorted by id are requests in the order sent. A request the producer takes as refused was answered by a frame on the connection it was written on (C80), which Kafka reads the same way (C73). C103 and C75 give the rest.

Theorems: `C106_kept_in_order`, `C106_one_connection`.

Scope: C103 on the bytes; C80 has the same without retries. The conditions are needed, see C103.

### C107 A group works with any allocator function that shares the partitions out (partial)

The invariant of C78 over the group's histories does not depend on the function (GroupAny.v). That the stored result answers for each member is a second invariant of the allocator; what a settled client has is then the function's result on the current sets, and the function's own properties give the rest.

Theorems: `C107_disjoint`, `C107_exact_cover`, `C107_requests_disjoint`, `C107_requests_cover`, `C107_start_partial`, `C107_start_refuted`.

Scope: Refuted: with a plain dict that has just the members in it, as documented, the second consumer of a group allocates before it has joined, asks the dict for its own name, and its start() raises KeyError (C107_start_refuted). start() is proved for functions whose results answer for every name, like the default one's defaultdict (C107_start_partial); the rest is proved in full. C78 and C79 are the same for the default function.

### C108 The modulo strategy spreads messages evenly (proved)

C104 gives the numbers kept in a partition: increasing, between 1 and N, all of the partition's remainder mod k. The count of such numbers is computed in closed form by induction on N and lies strictly between (N-k)/k and (N+k)/k; both bounds follow.

Theorems: `C108_even`.

Scope: Under the hypotheses of C104 for each partition of the topic.

### C109 What the maker example writes, a group of worker examples processes (proved)

That consume() returns nothing but what answers to its fetches brought is an invariant of the consumer over all steps, rebalances included (SoundProofs.v); with brokers that serve the logs these are messages of the logs. C104 gives each a number and C68 the value. The second part is C100 with C104 and C68.

Theorems: `C109_only_made`, `C109_committed_processed`.

Scope: The provisos are those under which C100 holds; C100_commit_again_refuted and C100_rebalance_before_commit_refuted show that they are needed.

### C110 Over connections, Kafka reads the maker example's messages in the order of their numbers (proved)

C104's invariant (the maker waits for each call and numbers its messages) holds of the events the producer sees in the stack of connections, so that C106 applies with the maker's partitioner: what Kafka reads is in the order produced and at its home, and the numbers are those of messages the maker made.

Theorems: `C110_numbers_increase`.

Scope: The topic's partitions must stay the same: C104_new_partition_refuted shows why.

### C111 With clean hand-overs a group delivers each message once, over all its rebalances (proved)

By induction on the rebalances from C101: positions do not go back in a member's turn, so that the stretches of the log join up. For the commit: a committed offset is the position (C83), only answers to consume() calls of the topic move it, and none runs any more; or with autocommit on, the only one that runs is the one that commits, which does nothing else until it returns. Both give C111_from_commits, where the hand-overs are not assumed but come of the commits.

Theorems: `C111_exactly_once`, `C111_clean_commit`, `C111_clean_autocommit`, `C111_from_commits`.

Scope: Without clean hand-overs the claim is false: C101_over_a_rebalance_refuted. C111_from_commits has the hand-overs from the members' commits; that the coordinator gives the new owner the offset last committed is its hypothesis.

### C112 What the maker example wrote is delivered once by a group, over all its rebalances (proved)

From C104 (the numbers in a log increase), C68 (values come back) and C111_from_commits: the stretch of the log between two offsets is read as an increasing list of numbers.

Theorems: `C112_delivered_once`.

Scope: What the brokers do is hypothesis: they store what was not refused, in the order written, serve the logs and keep the committed offsets.

### C113 What the maker example's connections carried is delivered once by a group, over all its rebalances (proved)

C110 gives the numbers in the kept frames, C112's lemma the rest.

Theorems: `C113_delivered_once`.

Scope: The consumers' side is at the level of responses; C73, C74 and C77 say how bytes become responses.

### C114 With clean hand-overs a group delivers each message once, from the bytes its members' connections bring (proved)

C85's projection makes an undisturbed turn of C101 of each turn over connections; then C111.

Theorems: `C114_exactly_once`.

Scope: seen_turn is what the consumer sees of a turn; the theorem says that it ends where the turn with the connections ends.

### C115 What one process wrote to its connections as bytes, a group returns once as values, from the bytes of its own connections (proved)

seen_undisturbed (C114) makes an undisturbed turn of each turn over connections; then C113.

Theorems: `C115_bytes_to_values`.

Scope: written_over (C113) relates the brokers' logs to the frames the maker wrote; over_connections (C114) relates the frames the members hear to the same logs.

## Trusted base

* Coq 8.16.1's kernel (the build also passes `coqchk`). No axioms are declared, no kernel check is switched off, nothing
  is admitted. `Print Assumptions` of every theorem named in `MANIFEST.json` prints "Closed under the global context"; the
  commands are at the end of each `Props*.v`. (`coqchk` additionally lists seven constants `Coq.ssr.ssrunder.Under_rel.*`:
  they belong to Coq's own ssr library, which is loaded by the standard library files we import. No theorem uses them.)
* The transcription of Python into Gallina, definition by definition, and the parts of CPython it relies on: UTF-8, struct,
  crc32, insertion-ordered dicts, list/set/deque methods, integer and truth-value semantics. These are modelled, not verified
  against CPython.
* The semantics given to tornado: a coroutine runs uninterrupted between yields; futures resolve once; callbacks of an
  already resolved future run later, never inside the code that resolved it.
* The meaning given to kazoo calls (exists, create, delete, transactions, get, set, Lock, watches).

## What is not modelled

* Logging, docstrings, `setup.py`, `examples/` but for `run()` and its helpers in `worker.py`, `counter.py` and `maker.py`, `docs/`, and `events.wait_on_event` (a wait on a threading event; used by
  allocator.start/stop, modelled as "the event is set or the call hangs").
* Python 2 (six) branches; the model is Python 3.5+ with insertion-ordered dicts.
* Timers and real time: timeouts appear only as events that may or may not happen. `fetch` waiting times are not modelled.
* Memory limits, recursion depth, signals.
* The raw gzip and snappy algorithms: parameters obeying the laws stated in `SpecCodec.codec_laws`.
* kazoo's threads: in the consumer machines (`Consumer`, `FullConsumer`, `Crew`) allocator callbacks happen between uninterrupted
  pieces of consumer code, not inside one. `Threads` takes them apart into single accesses, without the rest of the consumer.
* In the producer and consumer machines the cluster tables may change arbitrarily at any step; the heals that change them are
  modelled apart (`Cluster`, and `Heals` for several at a time). `Full` composes them with the producer (`FullProducer`) and the
  consumers (`FullConsumer`); in that composition `produce()`, the client's error handlers and a consumer's coroutines may go on
  at any time after a heal they started, not only at its end, and no link is kept between a heal and the call that started it.
* Float arithmetic: a float start time is an opaque value whose only property is that it is not an int (enough to show it
  cannot be serialized).
* Subclasses written by users, apart from the callbacks (serializer, deserializer, partitioner, allocator function).

## Findings (bugs of the code shown by `_refuted` theorems or noted while modelling)

1. A message whose CRC-32 is exactly 2^31 cannot be serialized (off by one in `Message.render`) (C06).
2. A truncated message set that is not the last field of a fetch response makes the parser read into the next partition (C04, C09).
3. snappy framing: a final block of fewer than 12 compressed bytes is dropped silently (C08, C10).
4. Correlation ids never wrap; after about 2^31 requests no request serializes (C11).
5. Heartbeat, OffsetCommit v1 and GroupCoordinator classes do not match their documented layouts / constructors (C12).
6. When the broker closes the stream, outstanding futures are never resolved, and `abort()` then does nothing (C15, C16).
7. Error codes other than the three tested enter the routing tables (C20); a follow-up metadata answer replaces the tables of
   healthy topics (C23); a failed bootstrap metadata request ends `start()` (C24); `get_metadata` skips only two exception
   classes (C25); `StreamClosedError` in `send()` never triggers a heal (C27). Overlapping heals: an older answer can end up in
   the tables (C70), connections leak, also when `stop()` comes during a heal (C71), `heal()` raises KeyError or RuntimeError (C72).
8. Producer: messages of a failed request are never resent (C33); `close()` flushes once (C34); an exception during a flush
   loses drained messages (C35); a `produce()` waiting for a heal queues its message after `close()` (C36 example).
9. Consumer: falsy values are dropped (C39); a failing heal loses fetched messages (C39); an undeserializable message at the
   end of a log is fetched for ever (C40); overlapping `consume()` calls on one topic return messages twice (C37); a lookup
   whose connection fails counts as done (C42); a retriable lookup error is not looked up again (C43); datetime and timedelta
   starts cannot be serialized (C44).
10. Grouped consumer: a rebalance during the lookup or the autocommit goes unnoticed, positions of dropped messages are
    committed (C48); a partly acknowledged commit drops the whole topic (C50); a connection failure during coordinator
    discovery raises KeyError, a fatal code leaves no coordinator (C51).
11. ZooKeeper: `Party.join` ignores a lost race (C55); `remove_partitions` raises TypeError for a dict of lists (C56);
    `start()` hangs if connecting fails (C57); a plain-dict allocator without the member raises KeyError (C47).
12. Compressed sets: messages before the consumer's position are returned again, a set whose last message cannot be
    deserialised is returned by every call for ever, and the position can move backwards (C76).
13. Groups: `start()` of the first consumer returns before anything is allocated, and its first `consume()` raises KeyError; a
    consumer whose ZooKeeper session expired reconnects but never joins again (C79); consumers with equal names, which
    hostname and `id(self)` do not exclude, read the same partitions (C78).
14. Groups: autocommit commits before `consume()` returns, so a crash in between loses messages (C82); after a rebalance `commit_offsets()`
    commits 0 for partitions whose offsets were never looked up (C83); a group without stored offsets never reads anything (C84).
15. A `consume()`, `commit_offsets()` or `determine_coordinator()` that waits for a broker that closes its connection never
    returns, and nothing heals the cluster for it (C88).
16. A `flush()` - also that of `produce()` and `close()` - that waits for a broker that closes its connection never returns,
    and its messages are neither retried nor reported (C89).
17. With `required_acks=0` every flush waits for a response Kafka does not send (C89).
18. The value of a message with unknown attributes, such as one compressed with LZ4, is parsed as if it were a message
    set: the message vanishes without an error, or other messages are delivered in its place (C93).
19. A message larger than the limit its partition gets in fetch requests halts the partition: `consume()` returns nothing, for
    ever, without an error (C94).
20. Nothing keeps the allocator's notifications of members and of partitions apart. If they overlap, an older mapping may
    overwrite a newer one, and the client may think that nobody has any partition until the next change (C96).
21. A notification that runs during `consume()` may let a new partition be fetched from offset 0 (or an old position) without its
    committed offset having been looked up; and `consume()` may make `rebalance()` fail with RuntimeError, after which this
    goes on until the next change (C97).
22. A program without autocommit that calls `commit_offsets()` after every `consume()` loses messages: when a rebalance comes
    while `consume()` fetches, it returns `[]` but has moved its positions, and the next `commit_offsets()` commits these (C99, C48).
23. `examples/worker.py` does not wait for `commit_offsets()`. If the commit fails and is sent again while the next `consume()`
    has fetched from one broker and waits for another, it commits offsets behind messages that were not returned yet; if the
    worker dies then, nobody processes them (C100). A rebalance between the end of `consume()` and the commit can do the same.
24. In `examples/counter.py` a message without `"color"` raises before `update`: the other messages of its batch are not counted,
    although the consumer has passed them (C102).
25. The documentation lets `allocator_fn` return a dictionary keyed on member name. A consumer that starts in a group that has
    members allocates before it has joined, and reads `mapping[self.name]`: with a plain dict its `start()` raises KeyError (C107).

## Tests of the theorems

`seeded/LOG.jsonl` lists the wrong programs tried: each line names the definition that was edited in a scratch copy, the edit,
the claim it breaks, the theorems that then failed to prove, and the theorems tightened because of it.
