{"id": "C01", "title": "Protocol structures survive the wire", "statement": "Rendering any well-typed protocol structure (integers, strings, byte strings, arrays, nested parts, for every request/response class) whose fields are in range succeeds, and parsing the packed bytes at the place they were written, inside any larger buffer, gives back the same structure and an end offset just past the written bytes.", "quantifier": "every schema buildable from the primitives, every well-typed in-range value, every prefix and suffix around it", "why_tests_cant": "The value space is infinite and nested; tests sample a few literals of a few schemas.", "anchors": ["kiel/protocol/primitives.py:Primitive,VariablePrimitive,Array", "kiel/protocol/part.py:Part.render,Part.parse", "kiel/protocol/response.py:Response.deserialize"]}
{"id": "C02", "title": "Text, bytes and null stay distinct", "statement": "A String/Bytes field set to None is sent with length -1 and read back as None, never as an empty string; text is sent as UTF-8 and read back as the same text; byte strings that are not valid UTF-8 are read back unchanged; byte strings that are valid UTF-8 are read back as the text they encode, whose encoding is the same bytes.", "quantifier": "every text and every byte string of admissible length", "why_tests_cant": "UTF-8 has many boundary cases (overlong forms, surrogates, 4-byte forms); tests use 'foobar'.", "anchors": ["kiel/protocol/primitives.py:VariablePrimitive.render,VariablePrimitive.parse"]}
{"id": "C03", "title": "No silent truncation when serializing", "statement": "If an integer field does not fit its wire width, or a string is longer than its length prefix can say, or a required value is missing, serialization raises; it never produces bytes that decode to something else.", "quantifier": "every value of every field width", "why_tests_cant": "All out-of-range values, not the few one would try.", "anchors": ["kiel/protocol/primitives.py:Int8,Int16,Int32,Int64,String,Bytes", "kiel/protocol/request.py:Request.serialize"]}
{"id": "C04", "title": "Truncated responses are rejected, never mis-read", "statement": "Deserializing any strict prefix of a well-formed response (without message sets) raises struct.error; deserializing any bytes whatsoever either raises or returns a structure having used only bytes inside the buffer, and the result does not depend on bytes after the end offset.", "quantifier": "every schema, every value, every cut point, every arbitrary byte string", "why_tests_cant": "Exponentially many byte strings and all cut points.", "anchors": ["kiel/protocol/primitives.py:Primitive.parse,VariablePrimitive.parse,Array.parse", "kiel/protocol/part.py:Part.parse"]}
{"id": "C05", "title": "Request framing", "statement": "The bytes put on the socket for a request are: 4-byte length of the rest, api key, version 0, correlation id, client id 'kiel', payload; a reader following that grammar recovers every header field and the payload, for every API.", "quantifier": "every request class, every correlation id in range, every payload", "why_tests_cant": "All payload lengths and ids.", "anchors": ["kiel/protocol/request.py:Request.serialize", "kiel/connection.py:Connection.send", "kiel/constants.py:API_KEYS"]}
{"id": "C06", "title": "Message checksum", "statement": "Every message the producer serializes carries, as a signed 32-bit field, the CRC-32 of the bytes that follow the field, so that a broker check accepts it.", "quantifier": "every key and value", "why_tests_cant": "2^32 checksum values; one boundary value behaves differently.", "anchors": ["kiel/protocol/messages.py:Message.render"]}
{"id": "C07", "title": "Message sets survive the wire", "statement": "Serializing an uncompressed message set and parsing it back yields the same offsets, keys and values in the same order, and the announced byte sizes equal the actual sizes.", "quantifier": "every list of messages, every surrounding buffer", "why_tests_cant": "Unbounded lists and sizes.", "anchors": ["kiel/protocol/messages.py:MessageSet.render,MessageSet.parse,MessageSet.compressed"]}
{"id": "C08", "title": "Compression is transparent", "statement": "A message set compressed with gzip or snappy by the producer is unpacked by the consumer into the same messages in the same order; the compressed blob is never mistaken for text on the way.", "quantifier": "every list of messages; every compression codec obeying decompress(compress x)=x", "why_tests_cant": "All message lists and all block splits.", "anchors": ["kiel/protocol/messages.py:MessageSet.compressed,MessageSet.parse,Message.parse", "kiel/compression/snappy.py", "kiel/compression/gzip.py"]}
{"id": "C09", "title": "Partial trailing messages are tolerated", "statement": "When a broker cuts a message set off in the middle of its last message, the consumer receives all the complete messages before the cut, in order, and no error and no made-up message, for every partition of the response.", "quantifier": "every message list and cut point, every position of the partition inside the fetch response", "why_tests_cant": "All cut points times all positions.", "anchors": ["kiel/protocol/messages.py:MessageSet.parse", "kiel/protocol/fetch.py:FetchResponse"]}
{"id": "C10", "title": "Snappy framing round trip", "statement": "snappy.decompress(snappy.compress(data)) == data.", "quantifier": "every byte string (any number of 32kB blocks), any raw snappy codec", "why_tests_cant": "Depends on data length modulo the block size and on compressed block sizes.", "anchors": ["kiel/compression/snappy.py:compress,decompress"]}
{"id": "C11", "title": "Correlation ids are unique", "statement": "Two requests created by the same process never carry the same correlation id, and the id always fits the 4-byte field of the wire format.", "quantifier": "every number of requests created, every seed", "why_tests_cant": "Needs arbitrarily long histories.", "anchors": ["kiel/protocol/request.py:generate_correlation_id,Request.__init__"]}
{"id": "C12", "title": "Declared wire layouts match their documented grammar", "statement": "Every request and response class can be instantiated with its documented fields and its wire layout is the one its docstring documents.", "quantifier": "every protocol class, every field", "why_tests_cant": "Classes never exercised by tests can be malformed.", "anchors": ["kiel/protocol/*.py: parts"]}
{"id": "C13", "title": "Error codes are classified consistently", "statement": "Success, retriable and fatal error codes are disjoint, retriable codes are exactly the documented names, and a code outside the known table is never treated as success or as retriable.", "quantifier": "every 16-bit error code", "why_tests_cant": "65536 codes in several handlers.", "anchors": ["kiel/constants.py:ERROR_CODES,RETRIABLE_CODES", "kiel/protocol/errors.py"]}
{"id": "C14", "title": "Responses reach the request they answer", "statement": "However many requests are outstanding on a connection and in whatever order responses arrive, a future returned by send() is only ever completed with a response carrying the correlation id of that very request, decoded with the response class of that request's API, and it is completed at most once.", "quantifier": "every interleaving of sends, writes, incoming frames, closes, aborts", "why_tests_cant": "Exponentially many interleavings.", "anchors": ["kiel/connection.py:Connection.send,Connection.read_loop,Connection.read_message"]}
{"id": "C15", "title": "Abort fails every outstanding request", "statement": "When a connection is aborted (by an unexpected error or explicitly) every outstanding future is completed with an error, none is left pending, and a second abort has no effect.", "quantifier": "every reachable connection state", "why_tests_cant": "Any number of outstanding requests and histories.", "anchors": ["kiel/connection.py:Connection.abort,Connection.socket_error_handling"]}
{"id": "C16", "title": "A dead connection resolves its outstanding requests", "statement": "When the broker closes the connection, every request outstanding on it is completed with an error, so callers waiting on it can go on.", "quantifier": "every reachable connection state and every later history", "why_tests_cant": "Liveness over all continuations.", "anchors": ["kiel/connection.py:Connection.read_loop,Connection.socket_error_handling,Connection.abort"]}
{"id": "C17", "title": "No traffic after closing", "statement": "Once a connection is closing, send() completes immediately with BrokerConnectionError, writes nothing and changes nothing; a connection never goes back from closing to open.", "quantifier": "every reachable connection state, every later history", "why_tests_cant": "All histories.", "anchors": ["kiel/connection.py:Connection.send,Connection.close"]}
{"id": "C18", "title": "TCP chunking is invisible", "statement": "However the network splits or merges the byte stream, the same sequence of responses is delivered.", "quantifier": "every byte stream and every way of cutting it into chunks", "why_tests_cant": "Exponentially many chunkings.", "anchors": ["kiel/connection.py:Connection.read_message,Connection.read_loop"]}
{"id": "C19", "title": "Unexpected or undecodable responses poison the connection", "statement": "A frame with an unknown correlation id, for an API without a response class, or whose payload does not decode, is delivered to nobody and aborts the connection, failing every outstanding request.", "quantifier": "every reachable state and every frame", "why_tests_cant": "All frames.", "anchors": ["kiel/connection.py:Connection.read_message,response_classes"]}
{"id": "C20", "title": "Routing tables are consistent after metadata processing", "statement": "After topic metadata is processed, every known partition of every known topic has exactly one leader entry, every leader is a broker the cluster holds a connection for, and nothing with an error code is in the tables.", "quantifier": "every metadata response, every connection set", "why_tests_cant": "All metadata shapes.", "anchors": ["kiel/cluster.py:Cluster.process_topics,Cluster.get_leader"]}
{"id": "C21", "title": "Broker connections follow the metadata", "statement": "After broker metadata is processed, every listed broker either has a connection or is reported missing, existing connections are kept and not reopened, connections to unlisted brokers are aborted, and nothing else changes.", "quantifier": "every broker list, every connection outcome", "why_tests_cant": "All combinations of outcomes.", "anchors": ["kiel/cluster.py:Cluster.process_brokers"]}
{"id": "C22", "title": "Heal finishes only in a consistent state", "statement": "When heal() returns normally, the last metadata pass reported no missing broker and no missing topic; closed connections known at the start were dropped; it raises NoBrokersError when no connection answers and otherwise keeps asking.", "quantifier": "every sequence of broker answers, failures and connection losses", "why_tests_cant": "Unbounded retry loops against an adversarial cluster.", "anchors": ["kiel/cluster.py:Cluster.heal,Cluster.get_metadata"]}
{"id": "C23", "title": "Heal keeps healthy topics", "statement": "After heal() returns, every topic that the brokers reported as healthy during the heal is known to the cluster.", "quantifier": "every sequence of metadata answers", "why_tests_cant": "Requires multi-round histories.", "anchors": ["kiel/cluster.py:Cluster.heal,Cluster.process_topics"]}
{"id": "C24", "title": "Bootstrap hosts are tried in order", "statement": "start() tries the bootstrap hosts one at a time in order until one gives a metadata response, and raises NoBrokersError only if none does.", "quantifier": "every host list and every outcome sequence", "why_tests_cant": "All failure combinations.", "anchors": ["kiel/cluster.py:Cluster.start"]}
{"id": "C25", "title": "Metadata is taken from the first broker that answers", "statement": "get_metadata() asks the known connections in order, skipping closed and failing ones, and returns the first answer; no request is sent after an answer.", "quantifier": "every connection set and every outcome", "why_tests_cant": "All combinations.", "anchors": ["kiel/cluster.py:Cluster.get_metadata"]}
{"id": "C26", "title": "Fan-out send handles each response once", "statement": "send() hands every broker's response exactly once to the handler of its API, in arrival order, and returns exactly the handler results keyed by the broker that produced them; brokers that failed have no entry.", "quantifier": "every set of requests, every arrival order, every failure pattern", "why_tests_cant": "n! orders and 2^n failure patterns.", "anchors": ["kiel/clients/client.py:Client.send"]}
{"id": "C27", "title": "Cluster repair after errors", "statement": "If a connection error or a retriable code is seen during send(), the cluster is healed exactly once after all responses are handled, and the flag is cleared; otherwise no heal happens.", "quantifier": "every set of requests and outcomes", "why_tests_cant": "All outcome combinations.", "anchors": ["kiel/clients/client.py:Client.send"]}
{"id": "C28", "title": "Produced messages are accounted for", "statement": "Every message accepted by produce() is at any time in exactly one place: waiting to be sent, in an unanswered request, or settled by a broker answer (acknowledged or fatally refused); none is duplicated or dropped by the producer's bookkeeping, whatever the interleaving of produce, flush, responses and metadata changes.", "quantifier": "every interleaving of produce/flush/response/metadata events in which the partitioner and the leader lookup succeed", "why_tests_cant": "Unbounded interleavings.", "anchors": ["kiel/clients/producer.py:Producer.produce,Producer.flush,Producer.handle_produce_response,Producer.queue_retries"]}
{"id": "C29", "title": "Overlapping flushes do not disturb each other", "statement": "A response only affects the messages of the request it answers: messages in other unanswered requests stay retriable.", "quantifier": "every state with any number of unanswered requests", "why_tests_cant": "0.9.1 bug class: needs arbitrary overlap.", "anchors": ["kiel/clients/producer.py:Producer.sent,Producer.handle_produce_response"]}
{"id": "C30", "title": "Per-partition order", "statement": "In every flush, the messages sent for a topic partition are in the order in which they were queued, each queued message is in exactly one request, and it goes to the partition its partitioner chose and to that partition's leader.", "quantifier": "every queue content, every partitioner, every leader table", "why_tests_cant": "All queue contents.", "anchors": ["kiel/clients/producer.py:Producer.flush"]}
{"id": "C31", "title": "Batching threshold", "statement": "produce() sends nothing until the number of queued messages reaches batch_size (any falsy batch size means always), and then sends everything queued.", "quantifier": "every batch size, every state", "why_tests_cant": "All states.", "anchors": ["kiel/clients/producer.py:Producer.produce,Producer.unsent_count"]}
{"id": "C32", "title": "Retriable failures are retried", "statement": "Messages of a partition answered with a retriable code are queued again, in order, exactly once, and the cluster is marked for healing; successful and fatal ones are not queued again.", "quantifier": "every response and every state", "why_tests_cant": "All code combinations.", "anchors": ["kiel/clients/producer.py:Producer.handle_produce_response"]}
{"id": "C33", "title": "No message loss on connection failure", "statement": "Messages in a request whose connection fails are sent again later.", "quantifier": "every state, every continuation", "why_tests_cant": "Quantifies over all futures.", "anchors": ["kiel/clients/producer.py:Producer.sent", "kiel/clients/client.py:Client.send"]}
{"id": "C34", "title": "Closing a producer loses nothing", "statement": "close() returns only when every accepted message has been sent and settled.", "quantifier": "every state and broker answer", "why_tests_cant": "All failure patterns of the last flush.", "anchors": ["kiel/clients/producer.py:Producer.wind_down", "kiel/clients/client.py:Client.close"]}
{"id": "C35", "title": "A failed flush keeps the queued messages", "statement": "If flush() raises (partitioner error, unknown leader) the messages that were queued are still queued.", "quantifier": "every queue content and failure point", "why_tests_cant": "All failure points.", "anchors": ["kiel/clients/producer.py:Producer.flush", "kiel/iterables.py:drain"]}
{"id": "C36", "title": "Unknown topics and closing producers", "statement": "Producing to a topic the cluster does not know triggers one heal and, if still unknown, queues nothing; producing while closing does nothing.", "quantifier": "every state, every heal outcome", "why_tests_cant": "All states.", "anchors": ["kiel/clients/producer.py:Producer.produce"]}
{"id": "C37", "title": "Consumption follows the log", "statement": "Against a broker that serves a partition log from the requested offset, any number of consume() calls returns the messages of the log from the start offset on, in order, without gap or repetition, and the next fetch position is just past the last one delivered.", "quantifier": "every log, every start offset, every number of calls, every batch size the broker chooses", "why_tests_cant": "Unbounded histories.", "anchors": ["kiel/clients/consumer.py:BaseConsumer.consume,handle_fetch_response,deserialize_messages"]}
{"id": "C38", "title": "Fetch position update rule", "statement": "Handling a fetch response moves the position of exactly the partitions answered without error, to one past the last message whose deserialization succeeded and whose offset is not negative; all other positions are unchanged.", "quantifier": "every response, every position table, every deserializer", "why_tests_cant": "All responses.", "anchors": ["kiel/clients/consumer.py:BaseConsumer.handle_fetch_response,deserialize_messages"]}
{"id": "C39", "title": "Every fetched message is returned", "statement": "consume() returns every successfully deserialized message of the responses.", "quantifier": "every response", "why_tests_cant": "Includes values like 0, '' or {} that tests do not try.", "anchors": ["kiel/clients/consumer.py:BaseConsumer.consume"]}
{"id": "C40", "title": "A message that does not deserialize is skipped", "statement": "A message whose deserializer raises is left out, the others around it are delivered, and consumption continues past it.", "quantifier": "every log with any set of bad messages", "why_tests_cant": "All positions of bad messages.", "anchors": ["kiel/clients/consumer.py:BaseConsumer.deserialize_messages"]}
{"id": "C41", "title": "Fetch requests cover the allocation", "statement": "consume() asks for every allocated partition of the topic exactly once, at its leader, from its current position, and the per-partition byte limits sent to one broker sum to at most max_bytes.", "quantifier": "every allocation, leader table, position table and max_bytes", "why_tests_cant": "All allocations.", "anchors": ["kiel/clients/consumer.py:BaseConsumer.consume"]}
{"id": "C42", "title": "Out-of-range positions are re-determined", "statement": "After an offset-out-of-range answer the next consume() on the topic determines offsets again before fetching; a topic with known offsets is not asked again.", "quantifier": "every state and response", "why_tests_cant": "All states.", "anchors": ["kiel/clients/consumer.py:BaseConsumer.consume,handle_fetch_response"]}
{"id": "C43", "title": "Retriable offset errors are re-evaluated", "statement": "When the offset lookup of a single consumer reports a retriable error for a partition, the topic's offsets are looked up again on the next consume().", "quantifier": "every response pattern", "why_tests_cant": "Order of handler and caller bookkeeping.", "anchors": ["kiel/clients/single.py:SingleConsumer.handle_offset_response", "kiel/clients/consumer.py:BaseConsumer.consume"]}
{"id": "C44", "title": "Start positions", "statement": "consume(topic, start) accepts BEGINNING, END, a datetime or a timedelta and sends a valid offset request for it.", "quantifier": "every start value", "why_tests_cant": "All datetimes/timedeltas.", "anchors": ["kiel/clients/single.py:SingleConsumer.determine_offsets,start_to_timestamp"]}
{"id": "C45", "title": "Default allocation is an exact, even cover", "statement": "The default allocator gives every partition to exactly one member, gives members only listed partitions, and the numbers of partitions of any two members differ by at most one; with no members nothing is allocated.", "quantifier": "every non-empty member list without repetition, every partition list", "why_tests_cant": "All sizes.", "anchors": ["kiel/clients/grouped.py:naive_allocator"]}
{"id": "C46", "title": "Group members agree", "statement": "Any two members that have seen the same final membership and partition sets, in whatever order and with whatever intermediate notifications, compute the same mapping, and their own allocations are disjoint.", "quantifier": "every two notification histories ending in the same sets", "why_tests_cant": "All histories.", "anchors": ["kiel/zookeeper/allocator.py:PartitionAllocator.on_group_members_change,on_partition_change,rebalance"]}
{"id": "C47", "title": "Rebalance happens exactly on change", "statement": "A membership or partition notification triggers a rebalance and the on_rebalance callback exactly when the set differs from the last seen one.", "quantifier": "every history of notifications", "why_tests_cant": "All histories.", "anchors": ["kiel/zookeeper/allocator.py:PartitionAllocator.on_group_members_change,on_partition_change"]}
{"id": "C48", "title": "Rebalance during consume invalidates the result", "statement": "If the group is rebalanced while consume() is waiting, the call returns no messages and commits nothing for the topic, and the next consume() determines offsets again.", "quantifier": "every interleaving of the rebalance with the network waits", "why_tests_cant": "All interleavings.", "anchors": ["kiel/clients/grouped.py:GroupedConsumer.consume", "kiel/zookeeper/allocator.py:PartitionAllocator.rebalance"]}
{"id": "C49", "title": "Committed offsets are the consumed positions", "statement": "A commit request names only partitions allocated to this member in topics consumed since their last commit, each with its current position; with autocommit off consume() never commits.", "quantifier": "every state", "why_tests_cant": "All states.", "anchors": ["kiel/clients/grouped.py:GroupedConsumer.commit_offsets,consume"]}
{"id": "C50", "title": "Failed commits are retried", "statement": "If the coordinator answers a commit with a retriable code for a partition, the commit for that partition is sent again; if metadata was too large it is sent again with empty metadata.", "quantifier": "every mixture of per-partition codes", "why_tests_cant": "All mixtures.", "anchors": ["kiel/clients/grouped.py:GroupedConsumer.commit_offsets,handle_offset_commit_response"]}
{"id": "C51", "title": "Coordinator discovery tries every broker", "statement": "determine_coordinator() asks the brokers one after another until one answers; a broker whose connection fails is passed over.", "quantifier": "every cluster and failure pattern", "why_tests_cant": "All failure patterns.", "anchors": ["kiel/clients/grouped.py:GroupedConsumer.determine_coordinator,handle_group_coordinator_response"]}
{"id": "C52", "title": "Group offsets are loaded before fetching", "statement": "A grouped consumer fetches a topic only after an offset-fetch answer without retriable or fatal code; retriable codes make it ask again; a fatal code makes consume() return an empty list without fetching.", "quantifier": "every answer sequence", "why_tests_cant": "Unbounded retries.", "anchors": ["kiel/clients/grouped.py:GroupedConsumer.determine_offsets,handle_offset_fetch_response"]}
{"id": "C53", "title": "Shared set updates are atomic", "statement": "Concurrent add/remove calls by any number of members on the shared partition set have the effect of executing them one after another in lock order: no update is lost.", "quantifier": "every number of clients, every program, every schedule", "why_tests_cant": "Exponentially many schedules.", "anchors": ["kiel/zookeeper/shared_set.py:SharedSet.add_items,remove_items"]}
{"id": "C54", "title": "No needless writes to the shared set", "statement": "add_items writes only if some item is new, remove_items only if some item is present; otherwise the znode is not touched.", "quantifier": "every set content and argument", "why_tests_cant": "All sets.", "anchors": ["kiel/zookeeper/shared_set.py:SharedSet.add_items,remove_items"]}
{"id": "C55", "title": "Party membership ownership", "statement": "After join() returns normally the member's znode exists and is owned by this client's session; when it is already owned nothing is written; after leave() it does not exist, also if it did not exist before; other members' znodes are untouched.", "quantifier": "every znode table", "why_tests_cant": "All prior states.", "anchors": ["kiel/zookeeper/party.py:Party.join,Party.leave"]}
{"id": "C56", "title": "Adding and removing partitions through the allocator", "statement": "add_partitions/remove_partitions called with a dict of topic -> partition id list add/remove exactly the strings '<topic>:<id>' of those partitions.", "quantifier": "every such dict", "why_tests_cant": "All dicts.", "anchors": ["kiel/zookeeper/allocator.py:PartitionAllocator.add_partitions,remove_partitions"]}
{"id": "C57", "title": "Start/stop report the first failure", "statement": "The future returned by the allocator's start()/stop() is completed at most once; if a step raises, its exception is the result and no later step runs.", "quantifier": "every sequence of step outcomes", "why_tests_cant": "All failure points.", "anchors": ["kiel/zookeeper/allocator.py:create_attempter,PartitionAllocator.start,stop"]}
{"id": "C58", "title": "Connected flag follows the session state", "statement": "The allocator's connected event is set exactly when the last state change reported was neither LOST nor SUSPENDED.", "quantifier": "every history of session events", "why_tests_cant": "All histories.", "anchors": ["kiel/zookeeper/allocator.py:PartitionAllocator.handle_connection_change"]}
{"id": "C59", "title": "drain yields everything once and empties", "statement": "Iterating drain(c) to the end yields every item of c exactly once (lists from the end, deques from the front) and leaves c empty.", "quantifier": "every list, deque, dict or set", "why_tests_cant": "All sizes.", "anchors": ["kiel/iterables.py:drain"]}
{"id": "C60", "title": "Where fetches start", "statement": "At any time the position of a partition is what the answers received so far say: 0 before any answer, the offset a lookup reported (for a group, the committed offset) once it is answered, one past the last message that could be read once messages were fetched; every fetch request a consumer sends asks for exactly that offset. Nothing else (cluster changes, heals, rebalances, failed connections, other topics) moves it.", "quantifier": "every run of a single or grouped consumer: all calls, answers, failures, rebalances and their interleavings, from construction on", "why_tests_cant": "Unbounded histories and interleavings.", "anchors": ["kiel/clients/consumer.py:BaseConsumer.consume,handle_fetch_response,deserialize_messages", "kiel/clients/single.py:SingleConsumer.handle_offset_response", "kiel/clients/grouped.py:GroupedConsumer.handle_offset_fetch_response"]}
{"id": "C61", "title": "Every request a consumer sends is one Kafka can read", "statement": "Whatever calls, answers, failures and rebalances come before, each request a single or grouped consumer sends (fetch, offset lookup, committed-offset fetch, commit, coordinator search) serializes without error to a frame that carries Kafka's API number, version 0, the next correlation id, the client id and the request's fields in the documented layout, as long as the configured sizes, names and the arguments of consume()/commit_offsets() fit the protocol's fields, the brokers' offsets can be incremented within 64 bits and the allotted partition numbers fit 32 bits.", "quantifier": "every configuration, every run of a consumer from construction on (all calls, answers, failures, rebalances and interleavings), every request sent at any step", "why_tests_cant": "All reachable states and all values of offsets, partitions, names and metadata.", "anchors": ["kiel/clients/consumer.py:BaseConsumer.consume", "kiel/clients/single.py:SingleConsumer.determine_offsets", "kiel/clients/grouped.py:GroupedConsumer.determine_offsets,commit_offsets,determine_coordinator", "kiel/protocol/request.py:Request.serialize"]}
{"id": "C62", "title": "Messages written for a partition are the ones produced, in order", "statement": "Every message a producer writes for a partition of a topic is one an accepted produce() call gave for that topic. As long as no message has to be held back or sent again (every queued message has a leader at each flush, and no broker answers with a retriable error), the messages written for a partition appear there in the order in which produce() accepted them.", "quantifier": "every configuration, partitioner and run of a producer: all interleavings of produce() calls, flushes, answers, cluster changes and close()", "why_tests_cant": "All histories and interleavings; order is a property of whole runs.", "anchors": ["kiel/clients/producer.py:Producer.produce,flush,queue_flush,handle_produce_response", "kiel/iterables.py:drain"]}
{"id": "C63", "title": "Every produce request written can be read by Kafka and carries the messages produced", "statement": "Each produce request a producer writes, with no, gzip or snappy compression, is a frame with Kafka's produce API number, version 0, the request's correlation id, the configured acks and timeout, and for each topic and partition a message set in the documented layout holding exactly the keys and values of the messages carried; a message set that could not be encoded is never written.", "quantifier": "every run of a producer, all keys and values the serializers return, all three compression settings, any compression library that meets its own contract", "why_tests_cant": "All contents, sizes and histories.", "anchors": ["kiel/clients/producer.py:Producer.produce,flush,send", "kiel/protocol/produce.py", "kiel/protocol/messages.py:Message,MessageSet", "kiel/protocol/request.py:Request.serialize"]}
{"id": "C64", "title": "From produce() to consume()", "statement": "If a broker keeps what a producer wrote to a topic, in order of arrival and under increasing offsets, and a single consumer reads that topic from it, then every value the consume() calls return is one given to produce() for that topic; the values returned for a partition are in the order in which they were produced if no retry was needed; and a partition read from its first offset past its last returns all values written to it. This holds for any serializer and deserializer that undo each other on the values used, none of which is falsy.", "quantifier": "every run of the producer, every batching, partitioning and interleaving, every choice of offsets by the broker, every run of the consumer with partial answers, errors and connection failures", "why_tests_cant": "Composition of two unbounded histories.", "anchors": ["kiel/clients/producer.py:Producer.produce,flush", "kiel/clients/consumer.py:BaseConsumer.consume,deserialize_messages", "kiel/clients/single.py:SingleConsumer"]}
{"id": "C65", "title": "Group members share out the partitions", "statement": "If two members of a group that use the default allocator were last told of the same members and partitions, no partition is fetched or committed by both, whatever else happened to either; and every partition the group knows of belongs to one of its members.", "quantifier": "every two members, every pair of histories whose last notifications agree, every step of each", "why_tests_cant": "Two independent histories, notified in different orders; any number of members and partitions.", "anchors": ["kiel/clients/grouped.py:GroupedConsumer,naive_allocator", "kiel/zookeeper/allocator.py:PartitionAllocator.on_group_members_change,PartitionAllocator.on_partition_change,PartitionAllocator.rebalance"]}
{"id": "C66", "title": "A closed consumer reads nothing", "statement": "A call made after close() sends no request for messages or positions; a consume() made then returns None or no messages, or raises; a SingleConsumer returns None at once and sends nothing. Nothing opens the consumer again.", "quantifier": "every reachable consumer state, every later history, single and grouped, whatever other calls are running", "why_tests_cant": "All histories after close(), including calls that overlap it.", "anchors": ["kiel/clients/client.py:Client.close", "kiel/clients/consumer.py:BaseConsumer.consume", "kiel/clients/grouped.py:GroupedConsumer.consume"]}
{"id": "C67", "title": "close() closes every connection", "statement": "close() closes every broker connection of the client, each once; afterwards the client writes nothing.", "quantifier": "every cluster state, every outcome of the wind-down, every later history", "why_tests_cant": "All states of the tables and all later histories of calls that were running.", "anchors": ["kiel/clients/client.py:Client.close", "kiel/cluster.py:Cluster.stop", "kiel/clients/grouped.py:GroupedConsumer.wind_down", "kiel/zookeeper/allocator.py:PartitionAllocator.stop"]}
{"id": "C68", "title": "JSON values survive the default serializer and deserializer", "statement": "With the default serializer and deserializer, a message made of None, booleans, integers, floats, strings without lone surrogates, lists and dicts with string keys is written as a JSON document (RFC 8259, to which Python adds the names NaN, Infinity and -Infinity) in ASCII, which can always be encoded, and reading that document gives an equal value. Every JSON document whose objects have no duplicate keys is read as the value it means, whoever wrote it. Values that are no such document are never returned. So a single consumer returns values equal to those given to produce(), per partition in the order produced.", "quantifier": "all JSON values of any size and nesting, all JSON spellings of them, all runs of producer and consumer as in C64", "why_tests_cant": "The values nest without bound and each has infinitely many spellings; escapes, surrogate pairs, number syntax and key order all have to agree between the two sides.", "anchors": ["kiel/clients/producer.py: Producer.__init__ json_serializer", "kiel/clients/consumer.py: BaseConsumer.__init__ deserializer, deserialize_messages"]}
{"id": "C69", "title": "Errors lead to a heal before a call goes on, and nothing else does", "statement": "When a request of a consumer fails (other than because its own connection was closed) or is answered with a passing Kafka error, the call that sent it sends nothing more and does not return until a heal of the cluster has succeeded, whatever other calls and answers happen in between. When no answer tells of trouble, no call heals the cluster after its requests, and after one successful heal no call begins another one without new trouble.", "quantifier": "all consumers (single and grouped), all reachable states, all overlapping calls, all orders of answers, failures and failed heals", "why_tests_cant": "The flag that asks for a heal is shared by all calls of one client; whether it is lost or raised needlessly depends on how answers of overlapping calls interleave.", "anchors": ["kiel/clients/client.py: Client.send", "kiel/clients/consumer.py: handle_fetch_response", "kiel/clients/single.py: handle_offset_response", "kiel/clients/grouped.py: handle_offset_fetch_response, handle_offset_commit_response, handle_group_coordinator_response", "kiel/constants.py: ERROR_CODES"]}
{"id": "C70", "title": "Overlapping heals keep the routing tables whole", "statement": "However many heals of one cluster object overlap, and whatever answers, new connections, dying connections and stops come in between, the table of partitions and the table of leaders change only together, and only to exactly what the latest metadata answer of the heal that changes them says about the brokers connected at that moment; when a heal returns, no topic of its latest answer is left without an available leader that is connected.", "quantifier": "every start state of the cluster, every list of heal calls, answers (any metadata, any error), connection results, connection deaths and stops in any order", "why_tests_cant": "the outcome depends on how many heals overlap and on every possible order of their answers and connection attempts", "anchors": ["kiel/cluster.py: Cluster.heal, get_metadata, process_brokers, process_topics, stop"]}
{"id": "C71", "title": "No open connection gets lost", "statement": "Every connection the cluster set up, and that has neither died nor been aborted or closed since, is the connection of some broker; so stop() leaves no connection open.", "quantifier": "every list of heal calls, metadata answers, connection results, connection deaths and stops in any order", "why_tests_cant": "needs every interleaving of heals, deaths and stops", "anchors": ["kiel/cluster.py: Cluster.heal, get_metadata, process_brokers, process_topics, stop"]}
{"id": "C72", "title": "A heal fails only if no broker answers", "statement": "heal() raises NoBrokersError, or an error a broker's answer to its own metadata request caused that is not the loss of the connection; it never fails because of what other heals, dying connections or stop() do to the cluster meanwhile.", "quantifier": "every list of heal calls, metadata answers, connection results, connection deaths and stops in any order", "why_tests_cant": "needs every interleaving of heals and every point at which a connection can die", "anchors": ["kiel/cluster.py: Cluster.heal, get_metadata, process_brokers, process_topics, stop"]}
{"id": "C73", "title": "Responses are read as what Kafka's protocol says they mean", "statement": "For every response a broker can write according to Kafka's protocol guide (metadata, produce, fetch, offset, offset commit, offset fetch and coordinator responses, version 0), the clients see exactly what it says: every topic, partition, error code and offset, and every message with its key, its value and its offset in order, whether the messages come plain or in gzip or snappy compressed sets, and leaving out only a message cut off at the end of the response.", "quantifier": "all responses of any size: any number of topics, partitions and messages, any mixture of plain and compressed entries, any keys and values, any point at which the last set is cut off", "why_tests_cant": "there are infinitely many responses, and the layout of each field depends on all those before it", "anchors": ["kiel/protocol/response.py: Response.deserialize", "kiel/protocol/fetch.py, metadata.py, offset.py, offset_commit.py, offset_fetch.py, produce.py, coordinator.py: response classes", "kiel/protocol/messages.py: MessageSet.parse, Message.parse", "kiel/connection.py: response_classes, read_message", "kiel/clients/consumer.py: handle_fetch_response, deserialize_messages"]}
{"id": "C74", "title": "Consuming from a log of bytes", "statement": "Let a broker keep, for every partition, a log of messages (offset, key bytes, value bytes), and answer a single consumer with bytes that follow Kafka's protocol: any run of messages of the log starting at the offset asked for, plain or compressed, the last one possibly cut off, or any error but offset-out-of-range. Let every value be one the deserializer accepts and does not turn into something falsy, and let no two consume() calls on the topic overlap and none raise. Then what the calls return is, per partition, exactly the deserialized value bytes of the log from the position at the start to the position reached: in order, nothing left out, nothing twice; and the position is one past the last message returned.", "quantifier": "all logs, all runs of calls, answers, failures and heals, all ways the broker cuts its log into responses, plain or compressed sets and entries", "why_tests_cant": "the broker chooses freely, for every response, how many messages it sends, how they are packed, where it cuts off and what fails", "anchors": ["kiel/clients/consumer.py: consume, handle_fetch_response, deserialize_messages", "kiel/clients/single.py: SingleConsumer", "kiel/protocol/fetch.py", "kiel/protocol/messages.py: MessageSet.parse"]}
{"id": "C75", "title": "From produce() through the broker's bytes to consume()", "statement": "The bytes of every request a producer writes are one and only one produce request of Kafka's protocol, and its messages are the ones produced, with any of the compressions. A broker that appends what it reads from these bytes to its logs and answers a single consumer with bytes of these logs (as in C74) gives the consumer exactly the values that were produced: nothing else; per partition in the order produced if nothing was sent again; and all of what was written to a partition once it is read from start to end.", "quantifier": "all runs of the producer (any messages, batches, failures, retries), all logs a broker may build from the bytes, all runs of the consumer, all codecs that restore what they compress", "why_tests_cant": "both sides and the broker run concurrently and choose batching, packing, retries and offsets in unboundedly many ways", "anchors": ["kiel/clients/producer.py: produce, flush", "kiel/protocol/produce.py", "kiel/protocol/messages.py: MessageSet.render, compressed", "kiel/clients/consumer.py: consume, handle_fetch_response"]}
{"id": "C76", "title": "Consuming messages kept in compressed sets", "statement": "Kafka answers a fetch with whole compressed sets: the first may begin before the offset asked for. A single consumer reading such sets returns every readable message from its position on exactly once and in order, and never one that lies before its position.", "quantifier": "all logs, all ways of grouping them into sets, all runs of calls, answers, failures and heals", "why_tests_cant": "positions inside sets arise from commits, from other consumers and from messages that cannot be deserialised; tests with uncompressed responses never meet them", "anchors": ["kiel/clients/consumer.py: consume, handle_fetch_response, deserialize_messages", "kiel/protocol/messages.py: MessageSet.parse", "kiel/clients/single.py: SingleConsumer"]}
{"id": "C77", "title": "Consuming over connections", "statement": "A call gets an answer only from a frame that arrived on a connection behind the correlation id of the request it had written there. Whatever way the brokers' bytes are cut up, broken off and interleaved with calls, connection failures and metadata requests: if every frame the brokers send answers, out of their logs, a request written on its connection, consume() of a single consumer returns the messages of each partition's log between two positions, each once, in order, none left out.", "quantifier": "all runs of a consumer with its connections: all calls, all cuts of the byte streams, all failures, all orders; all logs and all answers taken from them", "why_tests_cant": "the answers of several brokers to several calls can be interleaved and broken off in unboundedly many ways; tests replace the connection by a mock", "anchors": ["kiel/connection.py: Connection.send, read_loop", "kiel/clients/client.py: send", "kiel/clients/consumer.py: consume", "kiel/protocol/request.py: Request.render"]}
{"id": "C78", "title": "A group shares its partitions", "statement": "The consumers of a group with the default allocator and different names share the partitions of the group: whatever consumers started, stopped, died, lost their sessions or reconnected, and however the notifications of ZooKeeper were delayed and merged, once the members have noticed the last change every partition of the shared set is read by exactly one of them, no other partition is read, and none of them has two partitions more than another.", "quantifier": "all histories of a group: any number of consumers, each step of start(), stop(), session losses, reconnects, deaths, and all delays of the two watches of each consumer", "why_tests_cant": "the interleavings of several processes with ZooKeeper's watches are unbounded; the tests replace kazoo by mocks and look at one allocator", "anchors": ["kiel/zookeeper/allocator.py: PartitionAllocator.start, stop, on_group_members_change, on_partition_change, rebalance", "kiel/zookeeper/party.py: Party", "kiel/zookeeper/shared_set.py: SharedSet", "kiel/clients/grouped.py: naive_allocator"]}
{"id": "C79", "title": "A started consumer belongs to its group", "statement": "When start() of a consumer's allocator has returned, the consumer is a member of its group and can read its allocation, until it is stopped. start() returns if the connection to ZooKeeper lasts, and raises only what a call to ZooKeeper raised.", "quantifier": "all histories of a group, as in C78", "why_tests_cant": "needs every order of the steps of start(), the watches of all members and the loss of sessions; the tests replace kazoo by mocks", "anchors": ["kiel/zookeeper/allocator.py: PartitionAllocator.start, allocation, handle_connection_change", "kiel/zookeeper/party.py: Party.join", "kiel/clients/grouped.py: GroupedConsumer.connect"]}
{"id": "C80", "title": "Producing over connections", "statement": "A producer on its connections, with anything happening on them (pieces of responses, disconnects, other requests): an answer taken for a produce request is what the connection that request was written on received under its id; the producer takes a message to be done with some error code only if a broker that received the message's bytes said so about the message's topic and partition; and if the brokers answer what they received, truthfully, every message produce() accepted is still queued or in flight, or was in a flush that raised, or was reported with an error or left out of an answer, or is in the log of a partition of its topic with its key and value. What a broker reads off a connection was produced for that topic, and per partition in the order produced when nothing is sent again.", "quantifier": "all histories of calls of a producer and events on any number of connections; all codecs that decompress what they compressed; all cuts of the incoming bytes", "why_tests_cant": "the interleavings of calls, responses and disconnects and the cuts of the byte streams are unbounded; the tests replace the connections by mocks", "anchors": ["kiel/clients/producer.py: Producer.produce, flush, send, handle_produce_response", "kiel/clients/client.py: Client.send, handle_response", "kiel/connection.py: Connection.send, read_loop"]}
{"id": "C81", "title": "A group member follows the logs of its partitions", "statement": "From the moment consume() has learnt the group's offsets (already for what that same call fetches) until the next rebalance, a consumer, single or grouped, with or without autocommit, delivers from each partition exactly the readable messages of its log from the start offset up to the position reached, in order, none missing and none twice; what its consume() calls returned, followed by what a running call holds, are the truthy values among these. Positions do not go back.", "quantifier": "every run without a rebalance: all calls not overlapping on the topic, all answers of brokers serving the logs in portions of their choosing with errors in between, failures, heals, commits", "why_tests_cant": "unbounded histories and log contents", "anchors": ["kiel/clients/grouped.py: GroupedConsumer.consume, determine_offsets, handle_offset_fetch_response, commit_offsets", "kiel/clients/consumer.py: BaseConsumer.consume, handle_fetch_response, deserialize_messages"]}
{"id": "C82", "title": "At least once", "statement": "Members of a group take over a partition from each other, each going on from an offset one of them committed, each stopping or dying anywhere: every message of the log between where the first began and where the last is was returned to a program by one of them. What is committed has been returned.", "quantifier": "any number of turns of any members, every run of each, every point to stop at", "why_tests_cant": "unbounded sequences of crashes and takeovers", "anchors": ["kiel/clients/grouped.py: GroupedConsumer.consume, determine_offsets, handle_offset_fetch_response, commit_offsets", "kiel/clients/consumer.py: BaseConsumer.consume, handle_fetch_response, deserialize_messages"]}
{"id": "C83", "title": "Commits do not go back", "statement": "The offsets a consumer commits for a partition never go back, and never below where the group was when it took the partition over.", "quantifier": "every run, any two commits in it", "why_tests_cant": "unbounded histories", "anchors": ["kiel/clients/grouped.py: GroupedConsumer.consume, determine_offsets, handle_offset_fetch_response, commit_offsets", "kiel/clients/consumer.py: BaseConsumer.consume, handle_fetch_response, deserialize_messages"]}
{"id": "C84", "title": "A group goes on from its stored offsets, or starts anew", "statement": "A grouped consumer goes on from the offsets the brokers have stored for its group; a group for which none are stored can start to read a topic too.", "quantifier": "every run of a grouped consumer from construction on", "why_tests_cant": "that something never happens is about unbounded runs", "anchors": ["kiel/clients/grouped.py: GroupedConsumer.consume, determine_offsets, handle_offset_fetch_response, commit_offsets", "kiel/clients/consumer.py: BaseConsumer.consume, handle_fetch_response, deserialize_messages"]}
{"id": "C85", "title": "A group member over its connections", "statement": "C81 with the bytes in view: the requests of a consumer, single or grouped, are written to its connections and its answers are read from the bytes that arrive there, cut anywhere, in any order, with other answers in between. If what the brokers send are encoded answers, per Kafka's protocol guide, to the requests written, serving one log per partition, the consumer delivers exactly the readable messages of the logs from its start to its position, in order, none missing, none twice.", "quantifier": "every stack of consumer and connections, every schedule of calls, bytes, reads, failures and resumptions without a rebalance", "why_tests_cant": "unbounded histories, arbitrary segmentation of the streams", "anchors": ["kiel/clients/grouped.py: GroupedConsumer.consume, determine_offsets, handle_offset_fetch_response", "kiel/clients/consumer.py: BaseConsumer.consume, handle_fetch_response, deserialize_messages", "kiel/clients/client.py: Client.send", "kiel/connection.py: Connection.send, read_loop"]}
{"id": "C86", "title": "From produce() to consume()", "statement": "A message given to produce() for which a broker has reported success is in the log of a partition of its topic, and a consumer reading from a position at or before it to one beyond it, over its own connections, has returned the value it was made from. In a group with autocommit off one of the members returns it, whoever comes, goes or dies.", "quantifier": "every run of a producer on its connections, with every compression, and every run of a consumer, or any number of turns of members, over the same logs", "why_tests_cant": "two machines, arbitrary schedules, unbounded histories", "anchors": ["kiel/clients/grouped.py: GroupedConsumer.consume, determine_offsets, handle_offset_fetch_response", "kiel/clients/consumer.py: BaseConsumer.consume, handle_fetch_response, deserialize_messages", "kiel/clients/client.py: Client.send", "kiel/connection.py: Connection.send, read_loop", "kiel/clients/producer.py: Producer.produce, flush, handle_produce_response"]}
{"id": "C87", "title": "Correlation ids on the wire", "statement": "determine_coordinator() and a group member's determine_offsets() send one request object again and again, with its correlation id. Still no response can be taken for another: requests written on one connection with the same correlation id are the same bytes, and as long as the connection is open all but at most one of them have had their results. The same holds of a producer's connections.", "quantifier": "every reachable state of a consumer of either kind, or of a producer, and its connections; every schedule of calls, retries, bytes, failures and metadata requests", "why_tests_cant": "which requests are outstanding together depends on the schedule", "anchors": ["kiel/clients/grouped.py: GroupedConsumer.determine_coordinator, determine_offsets", "kiel/clients/client.py: Client.send", "kiel/connection.py: Connection.send, read_loop", "kiel/protocol/request.py: Request.__init__, generate_correlation_id"]}
{"id": "C88", "title": "A call does not wait for nothing", "statement": "Every request a consumer sends goes out once, in order, on the connection the cluster has for its broker, and is written there unless that connection is closing. A call that waits for a broker waits for a future that has a result, which the event loop hands to the call, or that an open connection keeps pending: no call of the consumer hangs on a connection that is gone.", "quantifier": "every sequence of calls, heals, metadata requests, bytes, write errors and closed streams over a consumer of either kind and its connections; every call and every broker it waits for", "why_tests_cant": "which futures are outstanding when a connection dies depends on the schedule, and that a call never returns cannot be observed in finite time", "anchors": ["kiel/clients/client.py: Client.send", "kiel/connection.py: Connection.send, abort, socket_error_handling, read_loop", "kiel/clients/consumer.py: BaseConsumer.consume"]}
{"id": "C89", "title": "A flush ends", "statement": "A flush() - called by the user, by produce() or by close() - waits for one future per request it sends, made by the connection of the request's broker. Each of these futures has a result, with which the event loop resumes the call, or is pending on an open connection, from which a broker's answer can still come: no call of the producer waits for something that is not going to happen, whatever required_acks it was made with.", "quantifier": "every sequence of calls, answers, failures, metadata requests, bytes, write errors and closed streams over a producer and its connections; every codec, batch size, required_acks and timeout; every request waited for", "why_tests_cant": "which requests are outstanding when a connection dies depends on the schedule, and that a call never returns cannot be observed in finite time", "anchors": ["kiel/clients/producer.py: Producer.flush, produce, wind_down", "kiel/clients/client.py: Client.send, close", "kiel/connection.py: Connection.send, abort, read_loop"]}
{"id": "C90", "title": "Routing follows the metadata on the wire", "statement": "A producer that starts with nothing but its bootstrap hosts routes only by metadata responses whose bytes have all arrived on its own connections: all leaders it knows at a time are those that one such response names (leaving out topics and partitions reported as unknown, without leader or without replica); a broker's connection is made to an address that such a response gives for this broker; and every produce request it writes - as a Kafka broker reads it - goes over a connection to an address given for a broker that one such response names as the leader of the partitions of all its messages.", "quantifier": "every interleaving of start(), heal() (also overlapping), stop(), produce(), flush(), close() with bytes arriving in any pieces, write errors, failed connects, aborted and lost connections; every sequence of response frames, every codec, batch size, required_acks and timeout", "why_tests_cant": "the tables are rebuilt by heals that overlap with each other and with flushes; no finite set of schedules and responses shows that a leader was never made up, mixed from two responses or paired with another broker's connection", "anchors": ["kiel/cluster.py: Cluster.start, heal, get_metadata, process_brokers, process_topics, get_leader, stop", "kiel/clients/client.py: Client.send", "kiel/clients/producer.py: Producer.flush", "kiel/connection.py: Connection.connect, send, read_loop", "kiel/protocol/metadata.py: MetadataResponse"]}
{"id": "C91", "title": "A consumer's requests follow the metadata on the wire", "statement": "A consumer (single or grouped) that starts with nothing but its bootstrap hosts routes only by metadata responses whose bytes have all arrived on its own connections: all leaders it knows at a time are those that one such response names (leaving out topics and partitions reported as unknown, without leader or without replica); everything it writes other than metadata requests goes over a connection made to an address that such a response gives for a broker; and every fetch and every offset request - as a Kafka broker reads it - goes to a broker that one such response names as the leader of all the partitions it asks for.", "quantifier": "every interleaving of start(), heal() (also overlapping), stop(), calls of consume(), commit_offsets() and close(), allocation changes, bytes arriving in any pieces, write errors, failed connects, aborted and lost connections; every sequence of response frames, every configuration and codec", "why_tests_cant": "heals that overlap with each other rebuild the tables while a send() of the consumer is under way and its requests are repeated; no finite set of schedules shows that a partition is never asked of a broker nobody named as its leader", "anchors": ["kiel/cluster.py: Cluster.start, heal, get_metadata, process_brokers, process_topics, get_leader, stop", "kiel/clients/client.py: Client.send", "kiel/clients/consumer.py: BaseConsumer.consume", "kiel/clients/single.py: SingleConsumer.determine_offsets", "kiel/clients/grouped.py: GroupedConsumer", "kiel/connection.py: Connection.connect, send, read_loop", "kiel/protocol/metadata.py: MetadataResponse"]}
{"id": "C92", "title": "Commits go to a coordinator that a broker named", "statement": "Every offset commit and every lookup of committed offsets that a group member writes goes to a broker that a response to one of its own GroupCoordinatorRequests for the same group - all of whose bytes have arrived on the connection the request was written on - named as the coordinator without an error, over a connection made to an address that a metadata response gave for this broker.", "quantifier": "every interleaving of start(), heal(), stop(), calls of consume(), commit_offsets(), determine_coordinator() and close(), allocation changes, bytes arriving in any pieces, write errors, failed connects, aborted and lost connections; every sequence of response frames, every configuration and codec", "why_tests_cant": "searches for the coordinator may overlap with commits, retries and heals and with each other; no finite set of schedules shows that a commit never goes to a broker nobody named, or one named for an answer that was an error", "anchors": ["kiel/clients/grouped.py: GroupedConsumer.determine_coordinator, handle_group_coordinator_response, determine_offsets, commit_offsets", "kiel/clients/client.py: Client.send", "kiel/cluster.py: Cluster.heal, get_metadata", "kiel/protocol/coordinator.py: GroupCoordinatorResponse"]}
{"id": "C93", "title": "A message the client cannot unpack is reported, not dropped", "statement": "A message in a fetch response whose attributes name a codec the client does not have (LZ4), carry other bits than the codec's, or whose compressed value is not framed the way the client expects, is either delivered or makes the call of consume() fail. It is never left out without an error, and no other messages are delivered in its place.", "quantifier": "every fetch response that follows Kafka's grammar around such messages: any topics, partitions, plain and compressed messages before and after; every attributes byte, key and value; every codec", "why_tests_cant": "which values vanish depends on the bytes at one place of a compressed frame; a test sees a few frames of one codec", "anchors": ["kiel/protocol/messages.py: MessageSet.parse, Message.parse", "kiel/compression/snappy.py: decompress", "kiel/compression/gzip.py: decompress", "kiel/protocol/primitives.py: VariablePrimitive.parse"]}
{"id": "C94", "title": "A consumer gets past what is in the log", "statement": "If the log of a partition goes on after the consumer's position, a consume() whose fetch request is answered from the log moves the position, or it fails. There is no message at which a partition comes to a halt for ever without an error.", "quantifier": "every reachable consumer, every history of calls, answers, heals and allocation changes, any number of fetches; every log, message size and limit", "why_tests_cant": "that something never happens, however often consume() is called, cannot be seen in finite time; the limit a partition gets depends on how many partitions there are", "anchors": ["kiel/clients/consumer.py: BaseConsumer.consume, handle_fetch_response", "kiel/protocol/messages.py: MessageSet.parse", "kiel/protocol/fetch.py: FetchResponse"]}
{"id": "C95", "title": "The consumers of a group, run together, share its partitions", "statement": "Let consumers of one group (different names; the default allocator, or any allocator function that gives each partition to exactly one member) run together in any way. Each reads only the partitions the group gives it. No two consumers that have noticed the latest changes of the group fetch or commit the same partition, and what they fetch or commit belongs to the group. When all members have noticed the changes every partition of the group is one consumer's, which asks for it whenever it fetches its topic and the leader can be reached. Once the group changes no more, the watches bring every started, connected consumer there.", "quantifier": "every such allocator function and number of consumers; every interleaving of their calls, answers, heals, connections, sessions, crashes, of the steps of start() and stop() and of watches firing, being read and delivered", "why_tests_cant": "the clients run concurrently and learn of changes at different times; a test runs one allocator against a fake ZooKeeper and sees no pair of consumers at all", "anchors": ["kiel/clients/grouped.py: GroupedConsumer", "kiel/zookeeper/allocator.py: PartitionAllocator", "kiel/zookeeper/party.py: Party", "kiel/zookeeper/shared_set.py: SharedSet", "kiel/clients/consumer.py: BaseConsumer.consume"]}
{"id": "C96", "title": "Notifications that arrive at the same time leave the right allocation", "statement": "When every notification of new members or new partitions has been dealt with, the allocator's mapping is the one its function gives for the last members and the last partitions it was told of, in whatever way the threads that run the notifications and the consumer interleave. What consume() asks for is never a mixture of two allocations.", "quantifier": "every sequence of notifications, every interleaving of the single steps of the threads that run them and of consume()", "why_tests_cant": "the outcome depends on how the threads' steps fall; a test calls the callbacks one after the other in one thread", "anchors": ["kiel/zookeeper/allocator.py: PartitionAllocator.on_group_members_change, on_partition_change, rebalance", "kiel/clients/grouped.py: GroupedConsumer.determine_offsets", "kiel/clients/consumer.py: BaseConsumer.consume"]}
{"id": "C97", "title": "Offsets are looked up before fetching, whatever the threads do", "statement": "A group member asks the brokers for messages of a partition only after it has looked up where the group stands in it, also when the allocation changes in another thread while consume() runs. The notification of a change never fails.", "quantifier": "every sequence of notifications, every interleaving of the single steps of the thread that runs them and of consume()", "why_tests_cant": "the failures need a notification to run between two given statements of consume(), or the other way round", "anchors": ["kiel/zookeeper/allocator.py: PartitionAllocator.on_group_members_change, on_partition_change, rebalance", "kiel/clients/grouped.py: GroupedConsumer.determine_offsets", "kiel/clients/consumer.py: BaseConsumer.consume"]}
{"id": "C98", "title": "start() goes through the bootstrap hosts whatever else happens", "statement": "A start() of a producer or consumer connects to its bootstrap hosts one at a time and in order, whatever other start() and heal() calls, client calls and connections do meanwhile: it goes on to a host only after the connections to all earlier ones failed; it raises NoBrokersError for lack of hosts only when all of them failed; otherwise it waits for the current host, or has taken the answer of the first one it could connect to, or has raised. Every connection a client has made is read from.", "quantifier": "every history of a whole client before and after start() is called, every interleaving with other calls and with bytes, errors and lost connections; every list of hosts", "why_tests_cant": "the other calls of the client run in between, and the order and outcome of connects is free", "anchors": ["kiel/cluster.py: Cluster.start, heal", "kiel/connection.py: Connection.connect, read_loop", "kiel/clients/client.py: Client"]}
{"id": "C99", "title": "A group loses no message, however its members come, go and crash", "statement": "Whenever a member of a group commits an offset for a partition, every message of the partition before that offset, from where the group began, has been returned by consume() of some member to its program. The same holds of the position a member has between two calls in a partition it owns, so when a member has come to the end of a partition, the programs together have got all of it.", "quantifier": "every number of members, every interleaving of their steps, every join, rebalance and crash point, every log; a coordinator that may answer with any offset committed so far or the group's start", "why_tests_cant": "it is about all histories of all members together; a test sees one member and one schedule", "anchors": ["kiel/clients/grouped.py: GroupedConsumer.consume, determine_offsets, handle_offset_fetch_response, commit_offsets", "kiel/clients/consumer.py: BaseConsumer.consume, deserialize_messages", "kiel/zookeeper/allocator.py: PartitionAllocator.rebalance"]}
{"id": "C100", "title": "A group of workers (examples/worker.py) commits only what it has processed", "statement": "The worker program loops: consume(), process the messages, commit_offsets() if there were any, without waiting for the commit. Whenever a worker of a group commits an offset, every message of the partition before that offset, from where the group began, has been processed by some worker. What a worker processes is exactly what its consume() calls return, in that order, each once, and its consume() calls never overlap.", "quantifier": "every number of workers, every interleaving of their steps, every join, rebalance, commit failure and crash point, every log", "why_tests_cant": "it is about all histories of all workers together, including the steps that fall between two lines of the program", "anchors": ["examples/worker.py: run, process_message", "kiel/clients/grouped.py: GroupedConsumer.consume, commit_offsets, handle_offset_commit_response", "kiel/zookeeper/allocator.py: PartitionAllocator.rebalance"]}
{"id": "C101", "title": "Between two rebalances a group delivers each message once, to one member", "statement": "Take the consumers of a group after every one of them has noticed the last change of the group, and let each do whatever its program does until the next rebalance: consume() calls that do not overlap and do not raise, commits, any order of responses and failures. Every partition of the group is read by exactly one of them. What the group delivers from a partition is exactly the readable messages of its log between the position its consumer started at and the position it has reached, in order, none missing. No message is delivered twice, neither by one consumer nor by two, and none comes from a partition a consumer was not allocated. What the consumers return are these messages but for falsy values and those a call still running holds.", "quantifier": "every number of members, every history of the group before, every schedule of every member's calls and responses, every log, autocommit on or off, the default allocator function or one of the user's", "why_tests_cant": "it is about all members and all their schedules at once; a test sees one schedule", "anchors": ["kiel/clients/grouped.py: GroupedConsumer.consume, allocation", "kiel/clients/consumer.py: BaseConsumer.consume, handle_fetch_response, deserialize_messages", "kiel/zookeeper/allocator.py: PartitionAllocator.rebalance", "kiel/iterables.py: drain"]}
{"id": "C102", "title": "The counter example counts each message once", "statement": "Run examples/counter.py (consume, count the colors, consume again) against any cluster whose brokers answer with messages of their logs. Whenever the program shows its counter, the count of a color is the number of messages with this color, over all partitions, among those the logs hold from where the consumer began to the positions it has reached, less those the consume() call that runs still holds. No message is counted twice and none that was passed is left out.", "quantifier": "every cluster, log, color function and batching, every order of responses, failures and errors, every moment the status is shown", "why_tests_cant": "it is about every batching of every log and every interleaving of fetches and failures", "anchors": ["examples/counter.py: run, color_counter, show_status", "kiel/clients/single.py: SingleConsumer", "kiel/clients/consumer.py: BaseConsumer.consume", "kiel/iterables.py: drain"]}
{"id": "C103", "title": "A program that waits for each produce() keeps the order of its messages, retries or not", "statement": "Let a program wait for each produce(), flush() and close() before it makes the next call, and let the partitioner choose for a message always the same partition. Then for every partition the messages its broker stores, those of requests it did not refuse with a retriable error, are in the order in which they were given to produce(), each at most once, whatever fails and is sent again, for every batch size.", "quantifier": "every such program, cluster, metadata change, response, failure and retry, every topic and partition, every choice of the requests the broker stored", "why_tests_cant": "retries, metadata changes and failures interleave in unboundedly many ways", "anchors": ["kiel/clients/producer.py: Producer.produce, flush, queue_retries, handle_produce_response", "kiel/clients/client.py: Client.send"]}
{"id": "C104", "title": "The maker example writes increasing numbers to each partition", "statement": "Run examples/maker.py (number a message, produce it, wait, go on) on a topic whose list of partitions does not change. For every partition, the messages of requests its broker did not refuse have increasing numbers, none twice and none behind a later one, and message n is in the partition at place n mod the number of partitions.", "quantifier": "every run of the program: any batch size, colors, responses, failures, retries, an unknown topic at first", "why_tests_cant": "numbers, retries and failures are unbounded", "anchors": ["examples/maker.py: run, key_maker, partitioner", "kiel/clients/producer.py: Producer.produce, flush, handle_produce_response"]}
{"id": "C105", "title": "What the maker example writes, the counter example counts", "statement": "Run examples/maker.py on a topic whose list of partitions does not change, with the default serializer. Let the log of each partition hold, in order and at increasing offsets, what some of the produce requests carried for it, without those the broker refused with a retriable error. Let examples/counter.py, with the default deserializer, read these logs from their first to behind their last offset. Then there is a set of numbers, all given out by the maker, which are exactly the numbers of the messages in the logs, and the counter's count of each color is the number of messages in this set to which the maker gave the color: none is counted twice, although messages were sent twice.", "quantifier": "every run of the maker, every run of the counter, every choice of the stored requests, every batch size, color choice, fetch size, retry and failure", "why_tests_cant": "the runs of both programs, the failures and the places where the brokers cut the logs into responses are unbounded", "anchors": ["examples/maker.py: run", "examples/counter.py: run", "kiel/clients/producer.py: Producer", "kiel/clients/consumer.py: BaseConsumer.consume", "kiel/clients/single.py: SingleConsumer"]}
{"id": "C106", "title": "What brokers keep of a waiting program's messages is in the order produced, on the bytes", "statement": "Let a program wait for each produce(), flush() and close(), with a partitioner that sends a message always to the same partition. Anything may happen on its connections: pieces of responses, disconnects, other requests. Take the bytes written on the connections, and of those any produce requests, in the order in which they were made (on one connection: in the order written), but none that a broker answered with a retriable error for a partition. What Kafka reads in them for this partition are messages produced for its topic that the partitioner sends to this partition, unchanged and in the order produced, none twice, although messages that were declined have been sent again.", "quantifier": "every run of the producer over its connections, every compression, partition, choice of the requests a broker keeps", "why_tests_cant": "interleavings of calls, pieces of responses, retries and failures over several connections are unbounded", "anchors": ["kiel/clients/producer.py: Producer.produce, flush, queue_retries, handle_produce_response", "kiel/clients/client.py: Client.send", "kiel/connection.py: Connection.send, read_loop"]}
{"id": "C107", "title": "A group works with any allocator function that shares the partitions out", "statement": "Give the consumers of a group, with different names, an allocator function as the documentation asks for: it returns for every list of members and every list of partitions, its result is keyed on member name with every member in it, it gives each partition to exactly one member and gives nothing else. Then the members that have noticed every change can read what they have, no partition has two readers and, when all members have noticed, every partition has exactly one; members whose views of the group agree send no fetch or commit request for the same partition; and start() of every consumer returns if ZooKeeper can be reached, and raises only what a call to ZooKeeper raised.", "quantifier": "every such function, every number of consumers, topics and partitions, every order of joining, dying, losing sessions, reading and being notified", "why_tests_cant": "functions, histories and group sizes are unbounded", "anchors": ["kiel/zookeeper/allocator.py: PartitionAllocator.rebalance, allocation, start", "kiel/clients/grouped.py: GroupedConsumer.__init__", "docs/clients/zkgrouped.rst: Customizing"]}
{"id": "C108", "title": "The modulo strategy spreads messages evenly", "statement": "In the maker example (key: the message's number, partitioner: partitions[key % len(partitions)]) on a topic with k different partitions that stay the same, after N messages no partition has kept more than N/k of them, rounded up; and once all N have been kept, the numbers of messages kept in any two partitions differ by at most one. This holds whatever was refused and sent again, lost or batched; a broker that refuses a request for a partition keeps none of it there.", "quantifier": "every number of messages and partitions, batch size, compression, history of refusals, lost connections and heals, set of requests the brokers keep", "why_tests_cant": "histories, N and k are unbounded", "anchors": ["examples/maker.py: run, key_maker, partitioner", "docs/clients/producer.rst: Modulo Strategy Example", "kiel/clients/producer.py: Producer.produce, flush"]}
{"id": "C109", "title": "What the maker example writes, a group of worker examples processes", "statement": "Run examples/maker.py on a topic whose list of partitions does not change, and let the log of each partition hold, in order, what some of its requests carried, without those the broker refused. Let any number of examples/worker.py of one group read these logs, joining, leaving and crashing at any point, with the provisos of C100: no rebalance while a worker looks up offsets or between a consume() that returned messages and the commit, and no commit sent again. Then whatever a worker processes is a message the maker has made. And whenever an offset of a partition is committed, every message in its log before that offset, from where the group began, is one the maker made for this partition, and some worker has processed it.", "quantifier": "every maker run, batch size, history of refusals and lost connections, number of workers and interleaving, size of the logs", "why_tests_cant": "histories of maker, workers, brokers and ZooKeeper are unbounded", "anchors": ["examples/maker.py: run", "examples/worker.py: run", "kiel/clients/producer.py: Producer", "kiel/clients/grouped.py: GroupedConsumer"]}
{"id": "C110", "title": "Over connections, Kafka reads the maker example's messages in the order of their numbers", "statement": "Run examples/maker.py over real connections to brokers, on a topic whose list of partitions does not change. Let the brokers keep for a partition what some of the produce frames written say for it, in the order in which the requests were made, leaving out every request that a broker answered, for this partition, with an error after which the producer sends it again. Then what Kafka reads in this partition are messages of the maker, byte for byte the serialized key and value, with strictly increasing numbers between 1 and the number of the last message made, and each number n belongs to the partition at index n modulo the number of partitions: no message is there twice and none stands behind a later one.", "quantifier": "every maker run, batch size, compression, division of the answers into pieces, loss of connections, choice of the requests kept", "why_tests_cant": "runs, answers and lost connections are unbounded in number and the bytes come in arbitrary pieces", "anchors": ["examples/maker.py: run", "examples/maker.py: key_maker, partitioner", "kiel/clients/producer.py: Producer", "kiel/connection.py: Connection"]}
{"id": "C111", "title": "With clean hand-overs a group delivers each message once, over all its rebalances", "statement": "Take a group over any number of rebalances. Between two of them its members do whatever their programs do, with consume() calls that do not overlap and do not raise, and the partitions are shared out among them. If after each rebalance the new owner of a partition begins at the position at which the last owner stopped, then what the group delivers from the partition over the whole time is exactly the readable messages of its log between the first start position and the last position reached, in order, none missing; and if this holds of all partitions, no message is delivered twice. A member hands its partitions over this way if its program, with autocommit off, commits while no consume() of the topic runs and then calls it no more until the rebalance: the offset it committed is then the position at which it stops. The same holds with autocommit on, of the commit that the last consume() of the topic sends by itself. So if the coordinator keeps what was committed last and gives it to the next owner, and the members commit this way, the group delivers each message once.", "quantifier": "every number of rebalances and members, every schedule of every member's calls and responses between them, every log, the default allocator function or one of the user's", "why_tests_cant": "it is about all histories of a group, with any number of rebalances, members and messages", "anchors": ["kiel/clients/grouped.py: GroupedConsumer.consume, commit_offsets, determine_offsets", "kiel/clients/consumer.py: BaseConsumer.consume, handle_fetch_response"]}
{"id": "C112", "title": "What the maker example wrote is delivered once by a group, over all its rebalances", "statement": "The maker example writes its numbered messages to the partitions of a topic, over any number of retries, errors and heals; the log of each partition holds what some of its requests carried for it, in the order written. A group of consumers with the default deserializer reads these logs over any number of rebalances, with calls that do not overlap and do not raise. For each partition the offset committed last is kept and given to the next owner, and members commit when they are done with the topic. Then what the group delivers from a partition are messages the maker made for that partition, with equal values, each once and in the order of their numbers; and when the group has got to the end of the log, these are all the messages in the log. If this holds of all partitions, no number is delivered twice by the whole group.", "quantifier": "every run of the maker, every number of partitions, rebalances and members, every schedule of the members' calls and responses", "why_tests_cant": "it is about all histories of a producer, of brokers and of a group, with any number of messages and rebalances", "anchors": ["examples/maker.py: run, partitioner", "kiel/clients/grouped.py: GroupedConsumer.consume, commit_offsets", "kiel/clients/producer.py: Producer.produce, flush"]}
{"id": "C113", "title": "What the maker example's connections carried is delivered once by a group, over all its rebalances", "statement": "As C112, but from the bytes: the maker example runs over connections, with any of the codecs, whatever its brokers answer. Of the frames written on its connections the brokers keep some for each partition, none of which they declined to store there, and the log of the partition holds the messages that a Kafka broker reads in them. A group reads these logs over any number of rebalances, committing when it is done before each. Then what it delivers from a partition are messages the maker made for that partition, with equal values, each once and in the order of their numbers; at the end of the log all that the kept frames carry for it; and no number is delivered twice by the group.", "quantifier": "every run of the maker over its connections, every choice of frames kept, every number of rebalances and members, every schedule of the members' calls and responses", "why_tests_cant": "it is about all histories of connections, brokers and a group, with any number of messages and rebalances", "anchors": ["examples/maker.py: run, partitioner", "kiel/connection.py: Connection", "kiel/protocol/produce.py: ProduceRequest", "kiel/clients/producer.py: Producer.produce, flush", "kiel/clients/grouped.py: GroupedConsumer.consume, commit_offsets"]}
{"id": "C114", "title": "With clean hand-overs a group delivers each message once, from the bytes its members' connections bring", "statement": "As C111, over connections: between two rebalances each member of a group gets from its brokers, on each connection, frames whose bytes may come cut up in any way; each answers a request the member wrote there, and says what Kafka's protocol says that the logs and the coordinator say. The members' consume() calls do not overlap and do not raise. If after each rebalance the new owner of a partition begins where the last one stopped, or the members commit when they are done and the coordinator keeps what they committed, then what the group delivers from the partition over the whole time are exactly the readable messages of its log between the first start position and the last position reached, in order; and if this holds of all partitions, no message is delivered twice.", "quantifier": "every number of rebalances and members, every schedule of calls, bytes and completions at every member, every log", "why_tests_cant": "it is about all histories of a group and of all its connections, with any number of rebalances, members and messages", "anchors": ["kiel/connection.py: Connection", "kiel/clients/client.py: Client.send", "kiel/clients/grouped.py: GroupedConsumer.consume, commit_offsets", "kiel/clients/consumer.py: BaseConsumer.consume"]}
{"id": "C115", "title": "What one process wrote to its connections as bytes, a group returns once as values, from the bytes of its own connections", "statement": "Between the maker example and a group of consumers there are only bytes. The maker writes produce requests over its connections, cut up in any way; the brokers keep in each partition's log what the messages of the requests they did not decline say, in order. The members of a group read these logs over their own connections, through any number of rebalances, as in C114. If the members commit when they are done and the coordinator keeps what they committed, then what the group returns from each partition are the values the maker made, with strictly growing counters, each a counter the maker placed there; when the group has read the whole partition it returns one value for each message kept there. Over all partitions no counter comes twice and none comes that the maker did not count.", "quantifier": "every run of the maker and its connections, every number of rebalances and members, every schedule of calls, bytes and completions at every member", "why_tests_cant": "it is about all histories of two kinds of process and of all their connections, with any number of rounds, rebalances, members and messages", "anchors": ["examples/maker.py: Maker.produce", "kiel/connection.py: Connection", "kiel/clients/producer.py: Producer.produce", "kiel/clients/grouped.py: GroupedConsumer.consume, commit_offsets", "kiel/clients/consumer.py: BaseConsumer.consume"]}
