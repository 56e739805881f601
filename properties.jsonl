{"id": "C01", "title": "Datum keys survive encoding", "statement": "Encoding a datum key with GetKeyAsBytes and decoding it with ToDatumKey returns exactly the same key: every feature bit pattern (NaN payloads and signed zeros included), every group label and all four size/dim fields. The decoder reports having consumed exactly the encoded bytes, whatever bytes follow them.", "quantifier": "every datum key with 32-bit features, byte labels and 32-bit sizes, of any feature and label length below 2^46, and every byte suffix", "why_tests_cant": "the key space is infinite and the length prefix changes width at every power of 128; tests try one three-feature key", "anchors": ["data/gencoder/gencoder.go:MarshalKey", "data/gencoder/gencoder.go:UnmarshalKey", "data/datum.go:GetKeyAsBytes", "data/datum.go:ToDatumKey"]}
{"id": "C02", "title": "Two different keys never share an encoding", "statement": "Two datum keys have the same encoded bytes only if they are equal field by field, and no key's encoding is a proper prefix of another key's encoding, so the store's map key and the query-cache key identify the datum key.", "quantifier": "every pair of datum keys", "why_tests_cant": "a collision needs an adversarial pair among unboundedly many; util_test.go samples random byte strings only", "anchors": ["data/gencoder/gencoder.go:MarshalKey", "util/util.go:EncodeToString", "data/newsync.go:InsertBDMap"]}
{"id": "C03", "title": "Datum values survive encoding", "statement": "Encoding a datum value with GetValueAsBytes and decoding it with ToDatumValue returns the same version and label and consumes exactly the encoded bytes; two values have equal encodings only if they are equal.", "quantifier": "every datum value with a 64-bit version and a label of any length below 2^48, and every byte suffix", "why_tests_cant": "unbounded label lengths and 2^64 versions", "anchors": ["data/gencoder/gencoder.go:MarshalValue", "data/gencoder/gencoder.go:UnmarshalValue"]}
{"id": "C04", "title": "Encoders never write outside their buffer", "statement": "Every encoder allocates exactly the number of bytes it writes: no encoding call panics on an index, and the result is the whole buffer (so the string built over it without copying never shares spare capacity).", "quantifier": "every non-nil key, value and score", "why_tests_cant": "an off-by-one in the size computation shows only at particular lengths (multiples of powers of 128)", "anchors": ["data/gencoder/gencoder.go:SizeKey", "data/gencoder/gencoder.go:MarshalKey", "data/gencoder/gencoder.go:SizeValue", "data/gencoder/gencoder.go:MarshalValue", "data/gencoder/gencoder.go:DatumScore"]}
{"id": "C05", "title": "Truncated encodings are never accepted", "statement": "Decoding a strict prefix of a valid key or value encoding is reported to the caller and never yields a key or value.", "quantifier": "every valid encoding and every cut point", "why_tests_cant": "every cut point of every encoding; the decoder has no error return in use, so behaviour differs per position", "anchors": ["data/gencoder/gencoder.go:UnmarshalKey", "data/gencoder/gencoder.go:UnmarshalValue", "data/datum.go:ToDatumKey", "data/datum.go:ToDatumValue"]}
{"id": "C06", "title": "NewDatum stores its arguments", "statement": "NewDatum(feature, dim1, dim2, size1, size2, groupLabel, label, version) returns a datum whose every field is the argument of the same name.", "quantifier": "all argument values", "why_tests_cant": "the test only uses size1=1,size2=0 and never looks at the field", "anchors": ["data/datum.go:NewDatum"]}
{"id": "C07", "title": "The store is a last-writer-wins map", "statement": "After any sequence of inserts, deletes and scans on a dataset, a scan (StreamAll) yields for each key at most one datum, and that datum carries the value of the latest accepted insert of that key; a key that was deleted after its latest insert is not yielded; a key inserted without TTL and never deleted is yielded.", "quantifier": "every finite history of inserts, deletes and scans at non-decreasing times, every map iteration order", "why_tests_cant": "the number of histories is infinite; the store skips writes it believes redundant, which is only safe if that belief holds in every state", "anchors": ["data/newsync.go:InsertBDMap", "data/newsync.go:DeleteBDMap", "data/newsync.go:LoopDBMap", "data/newsync.go:StreamAll"]}
{"id": "C08", "title": "Operations on one key never affect another", "statement": "An insert or delete of a key leaves the stored value and expiry of every other key unchanged, and a scan changes only entries that have expired.", "quantifier": "every store state, every pair of distinct keys, every operation", "why_tests_cant": "needs all states and all key pairs", "anchors": ["data/newsync.go:InsertBDMap", "data/newsync.go:DeleteBDMap", "data/newsync.go:LoopDBMap"]}
{"id": "C09", "title": "Expired data is never returned", "statement": "No scan or brute-force search at time t yields a datum whose expiry time is set and is at or before t, and after the scan the store no longer holds it; unexpired data is neither dropped nor yielded twice.", "quantifier": "every store content, time and iteration order", "why_tests_cant": "depends on wall-clock instants and all contents", "anchors": ["data/newsync.go:LoopDBMap", "data/search.go:Search"]}
{"id": "C10", "title": "A datum lives for its TTL", "statement": "A datum inserted at time t0 with TTL T (and not deleted or overwritten) is visible at every time before t0+T-9 and invisible at every time from t0+T+9 on; the exact window [t0, t0+T) would be what the API promises.", "quantifier": "all insertion histories of the key, all TTLs with t0+T below 2^63", "why_tests_cant": "the refresh-suppression rule compares against whatever expiry is stored, so the window depends on the full history", "anchors": ["data/newsync.go:InsertBDMap", "data/newsync.go:CloseEnough"]}
{"id": "C11", "title": "A larger TTL never makes data disappear earlier", "statement": "Inserting with any TTL value keeps the datum visible for at least as long as inserting with a smaller TTL at the same moment.", "quantifier": "all pairs of 64-bit TTLs and insertion times", "why_tests_cant": "only values at and above 2^63-now misbehave", "anchors": ["data/newsync.go:InsertBDMap"]}
{"id": "C12", "title": "Insert admission follows the reported count", "statement": "Insert is refused with 'Number of elements is over the target' exactly when a target is enforced and the dataset's last computed count N has reached TargetN; a refused insert changes nothing; the number of stored data never exceeds TargetN.", "quantifier": "all dataset states and configurations, all insert sequences between two statistics runs", "why_tests_cant": "the count is refreshed by a background task, so the bound depends on the schedule", "anchors": ["data/insert.go:Insert", "data/newsync.go:Process"]}
{"id": "C13", "title": "A successful enforced insert is replicated", "statement": "When replication is enforced and the request is an original one (Count = 0), Insert returns success only if the datum is stored locally and at least ReplicationOnInsert-1 distinct sources acknowledged it; it contacts a bounded number of sources (at most six), and stops contacting as soon as the number is reached.", "quantifier": "all configurations, all source sets, all iteration orders and all acknowledgement patterns of the sources", "why_tests_cant": "2^n acknowledgement patterns times n! orders, for every n", "anchors": ["data/insert.go:Insert", "data/data.go:RunOnRandomSources"]}
{"id": "C14", "title": "Replication of an insert terminates", "statement": "One client insert causes at most seven insert executions in the whole cluster whatever the peer graph, because a forwarded insert is never forwarded again.", "quantifier": "all peer graphs (cycles included), all configurations", "why_tests_cant": "all topologies; a single missed Count update gives unbounded forwarding", "anchors": ["data/insert.go:Insert", "node/nodeservice.go:Insert", "node/datasourceclient.go:Insert"]}
{"id": "C15", "title": "A failed insert leaves no trace", "statement": "If Insert returns an error, the store is as it was before the call.", "quantifier": "all states, configurations and source behaviours", "why_tests_cant": "depends on which sources fail in which order", "anchors": ["data/insert.go:Insert"]}
{"id": "C16", "title": "Malformed insert requests are rejected, not fatal", "statement": "An Insert call with a missing datum, key or value returns an error and does not crash the node.", "quantifier": "all requests, including those with absent sub-messages, in all store states", "why_tests_cant": "crash depends on the stored state as well as on the request", "anchors": ["node/nodeservice.go:Insert", "data/newsync.go:InsertBDMap", "veriservice/extra.go:Clean", "data/gencoder/gencoder.go:MarshalKey"]}
{"id": "C17", "title": "Concurrent inserts are not lost", "statement": "If an insert returned success while scans and other inserts run concurrently, and nobody deletes the key, then a later scan before its expiry yields the key with the value of some insert that was not older.", "quantifier": "every interleaving of the store's atomic steps by any number of threads", "why_tests_cant": "needs a particular interleaving between a scan's expiry check and its removal", "anchors": ["data/newsync.go:InsertBDMap", "data/newsync.go:LoopDBMap"]}
{"id": "C18", "title": "Local search returns the exact k best matches", "statement": "A brute-force search with limit k >= 1 over a dataset returns min(k, number of live data passing the filters) results, ordered best first, each the score of a distinct live stored datum that passes all filters, and no live matching datum left out is strictly better than one returned; this is independent of the iteration order.", "quantifier": "every store content, query, score function without NaN results, filter set, limit, direction, iteration order, and every correct sorting routine", "why_tests_cant": "needs all contents and orders; the unit test only logs results", "anchors": ["data/search.go:Search", "data/search.go:Collector.Insert", "data/search.go:PassesFilters"]}
{"id": "C19", "title": "Search survives every limit and score", "statement": "A search never crashes the node and stays exact for limit 0 and when some scores are NaN.", "quantifier": "all limits, all scores including NaN", "why_tests_cant": "the failing values are specific (0, NaN)", "anchors": ["data/search.go:Collector.Insert", "data/aggregator.go:InsertToList"]}
{"id": "C20", "title": "Merging keeps the k best (higher is better)", "statement": "When results of any number of sources for one query are merged with higherIsBetter and limit k >= 1, each datum key carrying one score, the merged list has each key once, is ordered by descending score, has min(k, number of distinct keys) entries and no omitted result beats a returned one, in whatever order the results arrive.", "quantifier": "every list of source results, every arrival order, every limit >= 1", "why_tests_cant": "arrival order is scheduler-dependent and the sources are arbitrary", "anchors": ["data/aggregator.go:Insert", "data/aggregator.go:InsertToList", "data/aggregator.go:IsNewScoredBetter"]}
{"id": "C21", "title": "Merging keeps the k best (lower is better)", "statement": "The same as the previous property for distance-like scores (higherIsBetter = false): the merged list has the k smallest scores.", "quantifier": "every list of source results, every arrival order, every limit >= 1", "why_tests_cant": "fails only once more than k distinct data reach the merge", "anchors": ["data/aggregator.go:IsNewScoredBetter", "data/aggregator.go:InsertToList"]}
{"id": "C22", "title": "Merged results contain no duplicates", "statement": "A merged result list never contains the same datum key twice.", "quantifier": "every arrival sequence, including the same key with different scores (several query vectors)", "why_tests_cant": "needs a second, better score for a key already in the list", "anchors": ["data/aggregator.go:Insert", "data/search.go:MultiAggregatedSearch"]}
{"id": "C23", "title": "Distributed search over a call tree is exact", "statement": "For one query vector with higherIsBetter and no timeout, the answer of a node that asks its sources, which ask theirs in turn, is an exact top-k of the union of the data of all nodes reached, whatever the shape and depth of the call tree.", "quantifier": "every finite call tree, every content of every node, every arrival order at every level; limit >= 1, result limit below 2^63 (beyond: C25), no group limit, no score that is NaN (with NaN: C106)", "why_tests_cant": "unbounded trees; correctness of a merge of truncated lists is an inductive fact", "anchors": ["data/search.go:AggregatedSearch", "data/aggregator.go:Insert", "node/datasourceclient.go:StreamSearch"]}
{"id": "C24", "title": "Grouped search returns one result per group", "statement": "With groupLimit >= 1, the result contains at most one entry per group label, exactly one per group when there are no more groups than limit, each carrying a member of the group as datum and the sum (higher is better) or sum divided by squared count (lower is better) of the scores kept for that group; it never crashes.", "quantifier": "every arrival sequence, every group limit >= 1 and limit >= 1, result limit below 2^63 (beyond: C25), no search context (with one: C107), every iteration order of the group map", "why_tests_cant": "all group structures and arrival orders", "anchors": ["data/aggregator.go:Insert", "data/aggregator.go:Result", "data/aggregator.go:One"]}
{"id": "C25", "title": "Result limits are honoured", "statement": "A search result has at most limit entries and, when resultLimit > 0, at most resultLimit entries, being the best ones of the merged list; no resultLimit value crashes the node.", "quantifier": "all arrival sequences, limits and result limits", "why_tests_cant": "values of 2^63 and above only", "anchors": ["data/aggregator.go:Result", "data/aggregator.go:InsertToList"]}
{"id": "C26", "title": "Filters are conjunctive and complete", "statement": "A datum is considered by a search if and only if every label filter matches its label and every group filter matches its group label; with no filters every datum is considered.", "quantifier": "all data, all filter lists, any JSON path matcher", "why_tests_cant": "all filter list lengths", "anchors": ["data/search.go:PassesFilters"]}
{"id": "C27", "title": "Score functions are symmetric and bounded", "statement": "VectorDistance, QuickVectorDistance, VectorMultiplication, CosineSimilarity and AngularDistance give the same score when the two vectors are swapped, on equal or different lengths; CosineSimilarity is in [-1,1] or NaN; distances are never negative; the distance of a finite vector to itself is zero; an unknown score function name means VectorDistance.", "quantifier": "all vectors of IEEE single-precision numbers (NaN, infinities, subnormals, signed zeros), of any lengths", "why_tests_cant": "2^32 values per coordinate and unbounded dimension; rounding must be symmetric", "anchors": ["data/util.go:VectorDistance", "data/util.go:CosineSimilarity", "data/util.go:QuickVectorDistance", "data/util.go:AngularDistance", "data/search.go:GetVectorComparisonFunction"]}
{"id": "C28", "title": "Search fan-in delivers everything exactly once", "statement": "An aggregated search that ends because all sources finished has merged every result of every source exactly once, never sends on a closed stream, and closes each stream once; one that ends by timeout has merged each result at most once.", "quantifier": "every interleaving of producers, waiter, consumer and timer; any number of sources and results", "why_tests_cant": "schedule space is unbounded; select is non-deterministic", "anchors": ["data/search.go:AggregatedSearch", "data/search.go:MultiAggregatedSearch", "data/search.go:StreamSearch"]}
{"id": "C29", "title": "No goroutine outlives its query forever", "statement": "After an aggregated search has returned, every goroutine it started eventually finishes.", "quantifier": "every schedule, including timeouts with more pending results than the channel holds", "why_tests_cant": "needs a timeout at a particular moment and more than 100 pending results", "anchors": ["data/search.go:AggregatedSearch", "data/search.go:StreamSearch"]}
{"id": "C30", "title": "Cached answers belong to the same query", "statement": "With cacheDuration > 0, a cached answer is returned only for a query with the same datum key and the same search configuration (ignoring uuid), and it is the answer that an earlier execution of that query produced; mutating a returned answer never alters the cached one.", "quantifier": "every history of queries on a dataset, every pair of keys and configurations with valid UTF-8 strings", "why_tests_cant": "a collision needs an adversarial pair: the key is a concatenation of two variable-length encodings", "anchors": ["data/search.go:GetSearchKey", "data/search.go:EncodeSearchConfig", "data/search.go:AggregatedSearch", "data/search.go:CloneResult"]}
{"id": "C31", "title": "Cached answers are fresh and complete", "statement": "A cached answer is never older than cacheDuration and never the truncated outcome of a search that timed out.", "quantifier": "every history of queries and every timing", "why_tests_cant": "needs repeated hits or a timeout at the right moment", "anchors": ["data/search.go:AggregatedSearch"]}
{"id": "C32", "title": "Downstream timeouts strictly shrink", "statement": "The timeout passed on to sources is strictly smaller than the one received whenever that is positive, so a chain of forwarded searches is finite even without duplicate detection.", "quantifier": "all 64-bit timeouts", "why_tests_cant": "float64 rounding of 2^64 values", "anchors": ["data/search.go:AggregatedSearch"]}
{"id": "C33", "title": "A query is executed once per node", "statement": "In a cluster of n nodes, a query started at one node is executed at most once on each other node and at most twice on the starting node, whatever the peer graph and message order, so a query terminates even in cyclic graphs.", "quantifier": "every peer graph, every delivery order, any number of nodes (within the id-cache lifetime)", "why_tests_cant": "unbounded graphs and schedules", "anchors": ["node/nodeservice.go:SearchStream", "node/datasourceclient.go:StreamSearch"]}
{"id": "C34", "title": "Malformed search requests are rejected, not fatal", "statement": "A SearchStream call with a missing config, or with query data lacking a key, returns an error and does not crash the node.", "quantifier": "all requests", "why_tests_cant": "absent sub-messages are not exercised by tests", "anchors": ["node/nodeservice.go:SearchStream", "data/search.go:AggregatedSearch"]}
{"id": "C35", "title": "DataStream sends every datum", "statement": "A DataStream call that returns success has sent every live datum exactly once.", "quantifier": "every schedule of the two goroutines that share the channel, every dataset size", "why_tests_cant": "needs the handler to return between a receive and a send", "anchors": ["node/nodeservice.go:DataStream", "data/newsync.go:StreamAll"]}
{"id": "C36", "title": "A dataset's configuration version never goes back", "statement": "While a named dataset exists, CreateIfNotExists with a version that is not higher leaves its configuration unchanged and one with a higher version installs exactly the given configuration; its stored data is kept in both cases.", "quantifier": "every sequence, and every interleaving, of create calls", "why_tests_cant": "check-then-act race; all call orders", "anchors": ["data/dataset.go:CreateIfNotExists", "data/dataset.go:GetNoOp"]}
{"id": "C37", "title": "Dataset lookup is by name and stable", "statement": "Get(name) returns the dataset registered under that name, creating it with the default configuration if absent; two Gets with no delete or expiry between them return the same dataset; operations on one name never change another name's dataset; GetNoCreate never creates; the listed names are exactly the existing ones, without duplicates.", "quantifier": "every history of dataset operations and expiries", "why_tests_cant": "all histories", "anchors": ["data/dataset.go:Get", "data/dataset.go:GetNoCreate", "data/dataset.go:GetOrCreateIfNotExists", "data/dataset.go:Delete", "data/dataset.go:List"]}
{"id": "C38", "title": "Saved configurations are restored", "statement": "After SaveIndex completes and the node restarts, LoadIndex recreates exactly the datasets that existed, with the same configurations.", "quantifier": "every set of configurations (any valid UTF-8 names, including quotes, newlines and control characters; any numbers and finite utilizations)", "why_tests_cant": "escaping and number formatting over all strings", "anchors": ["data/dataset.go:SaveIndex", "data/dataset.go:LoadIndex"]}
{"id": "C39", "title": "A crash while saving never corrupts a configuration", "statement": "If the process dies at any point of SaveIndex, the next LoadIndex restores a subset of the saved configurations, each intact; it never restores a dataset that did not exist or a mangled configuration.", "quantifier": "every crash point (every byte prefix of the file), every set of configurations", "why_tests_cant": "every byte offset of every file", "anchors": ["data/dataset.go:SaveIndex", "data/dataset.go:LoadIndex"]}
{"id": "C40", "title": "A crash while saving loses nothing", "statement": "If the process dies at any point of SaveIndex, the next LoadIndex restores either all configurations saved before or all configurations being saved.", "quantifier": "every crash point", "why_tests_cant": "needs a crash between truncation and write", "anchors": ["data/dataset.go:SaveIndex"]}
{"id": "C41", "title": "Concurrent saves do not corrupt the index", "statement": "When several SaveIndex calls run concurrently, every complete line of the index file is a complete configuration written by one of them.", "quantifier": "every interleaving of opens and flushed chunks of any number of savers", "why_tests_cant": "needs an index larger than the write buffer and a particular interleaving", "anchors": ["data/dataset.go:SaveIndex", "data/dataset.go:List", "data/dataset.go:CreateIfNotExists"]}
{"id": "C42", "title": "Data survives a restart", "statement": "Every datum acknowledged before a crash is available after restart (the README says data is persisted to disk for crashes).", "quantifier": "every history and crash point", "why_tests_cant": "requires a crash", "anchors": ["data/dataset.go:LoadIndex", "data/data.go:InitData", "README.md"]}
{"id": "C43", "title": "Closing a dataset only removes its own folder", "statement": "Closing or deleting a dataset removes only the folder named after it inside the data folder; two datasets never share a folder.", "quantifier": "all dataset names", "why_tests_cant": "depends on adversarial names", "anchors": ["data/data.go:DeletePath", "data/data.go:Close", "data/data.go:NewPreData"]}
{"id": "C44", "title": "Retention is converted faithfully", "statement": "A retention of r seconds gives a lifetime of r seconds (14 days for 0), and a larger retention never gives a shorter lifetime.", "quantifier": "all 64-bit retentions", "why_tests_cant": "overflow only above 9223372036", "anchors": ["data/dataset.go:GetRetention"]}
{"id": "C45", "title": "Housekeeping never drops a dataset in use", "statement": "The periodic clean-up removes a dataset only if it holds no data here and at its sources, and never crashes the node.", "quantifier": "every state of the dataset, its statistics and its sources, reachable or not", "why_tests_cant": "depends on staleness of the count and on unreachable peers", "anchors": ["data/dataset.go:ReloadRuns", "data/data.go:CheckIfActive"]}
{"id": "C46", "title": "Eviction never removes an unacknowledged datum", "statement": "The background synchronisation deletes a local datum only after a source acknowledged storing that very datum.", "quantifier": "all source acknowledgement patterns, all contents, all random choices", "why_tests_cant": "all patterns and orders", "anchors": ["data/newsync.go:Process"]}
{"id": "C47", "title": "Eviction stops at the utilization target", "statement": "While the dataset is alive, one synchronisation run deletes nothing when no target is set or the count is below TargetN*TargetUtilization, and otherwise leaves at least that number minus one data.", "quantifier": "all counts, targets, utilizations, acknowledgement patterns and numbers of sources", "why_tests_cant": "counter arithmetic on unsigned numbers over all patterns", "anchors": ["data/sync.go:isEvictionOn", "data/newsync.go:Process"]}
{"id": "C48", "title": "Replicated data is never lost cluster-wide", "statement": "A datum without TTL pressure held by at least one node stays held by at least one node while nodes only synchronise with each other.", "quantifier": "all interleavings of the synchronisation of any two nodes", "why_tests_cant": "needs two nodes evicting the same datum to each other simultaneously", "anchors": ["data/newsync.go:Process"]}
{"id": "C49", "title": "Transfer quotas are bounded", "statement": "The number of data offered to a source in one run is at most 1000 and at most half the surplus plus one, is at most 1 to a source that holds more, and the total is the sum over at most six sources.", "quantifier": "all counts (64-bit, with wrap-around) and source sets", "why_tests_cant": "unsigned subtraction wraps", "anchors": ["data/data.go:DataSourceDiffMap"]}
{"id": "C50", "title": "Never-expiring data is synchronised", "statement": "Data inserted without TTL is offered to sources like any other data.", "quantifier": "all contents", "why_tests_cant": "needs an entry without TTL", "anchors": ["data/newsync.go:Process", "data/sync.go:InsertConfigFromExpireAt"]}
{"id": "C51", "title": "Close hands data over and returns", "statement": "Close terminates, and when it returns every unexpired datum of a dataset with sources has been acknowledged by a source.", "quantifier": "all contents, source behaviours and timings", "why_tests_cant": "termination depends on contents and on peers", "anchors": ["data/data.go:Close", "data/newsync.go:Process"]}
{"id": "C52", "title": "Reported statistics describe the data", "statement": "After a statistics run with no concurrent change, N is the number of live data, the maximum distance is the largest distance to the previous centre, every datum is counted in exactly one of 64 histogram buckets (or none if the previous maximum distance was zero), and the average is the mean of the features.", "quantifier": "all contents, feature dimensions and previous statistics", "why_tests_cant": "all contents; the mean uses the previous count", "anchors": ["data/newsync.go:Process", "data/util.go:CalculateAverage"]}
{"id": "C53", "title": "Peer information never goes back in time", "statement": "For each peer id, the stored record's timestamp never decreases while it is stored; a record is stored only if it was recent (less than 300 s old) when received; the node never lists itself.", "quantifier": "every sequence of Join/AddPeer messages and expiries", "why_tests_cant": "all message orders and timestamps (64-bit, with wrap-around)", "anchors": ["node/node.go:AddPeerElement", "node/node.go:CheckPeer", "node/node.go:IsRecent"]}
{"id": "C54", "title": "Peer identity is the set of addresses", "statement": "Two peers get the same id exactly when their address lists are permutations of each other.", "quantifier": "all address lists", "why_tests_cant": "adversarial addresses containing the separator", "anchors": ["node/node.go:GetIdOfPeer", "node/node.go:SerializeStringArray"]}
{"id": "C55", "title": "Advertised addresses are unique and complete", "statement": "A node advertises each known or configured address exactly once, in order of first appearance; the address chosen to contact a peer is one of the peer's that is not the node's own, and one is chosen whenever it exists.", "quantifier": "all address lists", "why_tests_cant": "all lists", "anchors": ["node/node.go:unique", "node/node.go:GetNodeInfo", "node/node.go:FirstDifferent", "node/node.go:GetDifferentAddressOf"]}
{"id": "C56", "title": "A draining node accepts no inserts and is not ready", "statement": "Once Close has been called, every later Insert request is refused and the readiness endpoint reports not ready, forever.", "quantifier": "every interleaving of requests, periodic tasks and close", "why_tests_cant": "needs the periodic synchronisation to run after close", "anchors": ["node/node.go:Close", "node/node.go:SyncWithPeers", "node/nodeservice.go:Insert", "server/httpservice.go:GetReady"]}
{"id": "C57", "title": "Health endpoints report the state", "statement": "The readiness endpoint answers 200 exactly when the node is ready and 503 otherwise, the health endpoint 200 exactly when healthy and 500 otherwise, with a matching JSON body and content type.", "quantifier": "all states", "why_tests_cant": "header ordering is not visible to a status-only test", "anchors": ["server/httpservice.go:GetReady", "server/httpservice.go:GetHeath"]}
{"id": "C58", "title": "Pooled connections are usable and their users counted", "statement": "A connection handed out by the pool is non-nil and not shut down at that moment, or the caller gets nil after at most four attempts; a connection's user counter equals the number of callers that hold it.", "quantifier": "every sequence of gets, puts and connection state changes", "why_tests_cant": "all interleavings of users and state changes", "anchors": ["util/connpool.go:ConnectionPool.Get", "util/connpool.go:GetWithRetry", "util/connpool.go:ConnectionCache.Put"]}
{"id": "C59", "title": "A pooled connection has bounded sharing and is not closed in use", "statement": "A connection is shared by at most 21 callers and is not closed by one caller while another uses it.", "quantifier": "every sequence of gets and puts", "why_tests_cant": "needs a long history of gets and puts", "anchors": ["util/connpool.go:ConnectionPool.Get", "util/connpool.go:PutIfHealthy"]}
{"id": "C60", "title": "The approximate index contains every indexed datum", "statement": "Every tree built over n items has each item as a leaf exactly once, whatever hyperplanes the random generator produces.", "quantifier": "all item counts, vector dimensions and random split outcomes", "why_tests_cant": "splits are random", "anchors": ["annoyindex/annoylib.h:_make_tree", "annoyindex/annoylib.h:thread_build", "data/newsync.go:Process"]}
{"id": "C61", "title": "Approximate search returns valid, distinct, ordered neighbours", "statement": "A nearest-neighbour query on a built index returns distinct ids of indexed items, at most n of them, by non-decreasing distance; with an unlimited search budget it returns exactly the n nearest.", "quantifier": "all indexes, queries, budgets and split outcomes", "why_tests_cant": "random trees and arbitrary vectors", "anchors": ["annoyindex/annoylib.h:_get_all_nns"]}
{"id": "C62", "title": "Approximate dataset search returns stored matches only", "statement": "SearchAnnoy returns at most limit data, each from the last built index and passing the filters, never out of the index bounds; it falls back to the exact search when no index exists; all min(limit, matches) results are found and none has been deleted or has expired.", "quantifier": "all datasets, indexes, queries and histories between two index builds", "why_tests_cant": "staleness depends on history; candidate duplicates depend on random trees", "anchors": ["data/search.go:SearchAnnoy", "data/newsync.go:Process"]}
{"id": "C63", "title": "The random generator stays in range", "statement": "An index drawn by the generator for n candidates is below n, and the two starting points of a split are different.", "quantifier": "all generator states, all n >= 2", "why_tests_cant": "2^256 generator states", "anchors": ["annoyindex/kissrandom.h:Kiss64Random", "annoyindex/annoylib.h:two_means"]}
{"id": "C64", "title": "Only one statistics task runs per dataset", "statement": "At most one background run of a dataset is active at any time.", "quantifier": "every interleaving of run requests", "why_tests_cant": "needs two requests to pass the check simultaneously", "anchors": ["data/data.go:Run"]}
{"id": "C65", "title": "A dataset's information reflects its configuration", "statement": "The reply of CreateDataIfNotExists and GetDataInfo carries the dataset's configured name, version, targets, replication and retention settings.", "quantifier": "all configurations", "why_tests_cant": "tests never compare the fields", "anchors": ["data/data.go:GetDataInfo", "node/nodeservice.go:CreateDataIfNotExists"]}
{"id": "C66", "title": "Join learns addresses without duplicates", "statement": "The address echoed by a join is the caller's host without port ('localhost' for loopback, empty when unusable), and joining repeatedly never makes the node list an address of its own twice.", "quantifier": "all remote addresses, any sequence of joins", "why_tests_cant": "all addresses and sequences", "anchors": ["node/nodeservice.go:Join", "node/nodeservice.go:SendJoinRequest"]}
{"id": "C67", "title": "Every consulted node searches every query vector", "statement": "A query with several vectors is executed for each of its vectors on every node that is asked.", "quantifier": "every number of vectors, every peer graph and delivery order", "why_tests_cant": "needs several nodes and several vectors at once; the duplicate filter acts on the uuid shared by the requests for the individual vectors", "anchors": ["node/datasourceclient.go:StreamSearch", "node/nodeservice.go:SearchStream", "data/search.go:MultiAggregatedSearch"]}
{"id": "C68", "title": "The index ends up listing every dataset", "statement": "When all SaveIndex calls that were started have finished and no dataset was created or deleted since the last of them was started, the index file lists every existing dataset.", "quantifier": "every interleaving of collecting, opening and writing of any number of savers", "why_tests_cant": "needs a saver that collects early and opens late", "anchors": ["data/dataset.go:SaveIndex", "data/dataset.go:CreateIfNotExists"]}
{"id": "C69", "title": "A deleted dataset stays deleted", "statement": "After Delete(name) returned, no dataset of that name exists until a client asks for it again.", "quantifier": "every later history of background activity and requests about other datasets", "why_tests_cant": "needs a background save that overlaps the deletion", "anchors": ["data/dataset.go:Delete", "data/dataset.go:SaveIndex", "data/dataset.go:Get"]}
{"id": "C70", "title": "Peer messages never crash a node", "statement": "No sequence of Join and AddPeer messages, whatever they contain, crashes the node.", "quantifier": "all messages, also without peer or without addresses, in every interleaving", "why_tests_cant": "needs a message without addresses followed by one without peer", "anchors": ["node/node.go:AddPeerElement", "node/nodeservice.go:Join", "node/nodeservice.go:AddPeer"]}
{"id": "C71", "title": "Configured addresses are advertised with a port", "statement": "The configured broadcast addresses are advertised in the given order, each with its own port or, if it has none, with the node's port.", "quantifier": "all configured strings and ports", "why_tests_cant": "all address forms, e.g. IPv6 literals and trailing commas", "anchors": ["server/veriserviceserver.go:RunServer"]}
{"id": "C72", "title": "Pooled connections are not lost", "statement": "Every connection that was opened and not closed is in the pool or in use by a caller.", "quantifier": "every interleaving of gets, puts, state changes, evictions and garbage collections", "why_tests_cant": "the garbage collector decides when a pool is emptied", "anchors": ["util/connpool.go:ConnectionPool.Get", "util/connpool.go:PutIfHealthy", "util/connpool.go:CloseAll"]}
{"id": "C73", "title": "The approximate index stays inside the vectors", "statement": "Building the approximate index of a dataset and querying it never reads memory outside the feature vectors, whatever data the dataset accepted and whatever vector is asked for.", "quantifier": "all datasets reachable by inserts, all query vectors, all split outcomes", "why_tests_cant": "an out-of-bounds read of a few floats often goes unnoticed; needs vectors of different lengths in one dataset", "anchors": ["data/newsync.go:Process", "data/search.go:SearchAnnoy", "annoyindex/annoylib.h:add_item", "annoyindex/annoylib.h:_get_all_nns"]}
{"id": "C74", "title": "A node is never its own source", "statement": "No source that a node adds to one of its datasets leads back to the node itself.", "quantifier": "all clusters, addresses and interleavings of joins, replies, synchronisations, restarts and message deliveries", "why_tests_cant": "needs an old record of a node that comes back to it, or nodes on different machines with local addresses", "anchors": ["node/node.go:SyncWithPeers", "node/node.go:CheckPeer", "node/nodeservice.go:SendJoinRequest", "node/nodeservice.go:AddPeer"]}
{"id": "C75", "title": "One synchronisation spreads every listed record", "statement": "For every listed peer heard of less than 300 seconds ago, other than the node itself, one call of SyncWithPeers tells the peer (at its first address that is not the node's own) about every listed peer that does not have this address, and makes it a source of all its datasets; it does nothing else and drops the peers not heard of.", "quantifier": "all peer lists, clocks and iteration orders", "why_tests_cant": "all combinations of peers and shared addresses", "anchors": ["node/node.go:SyncWithPeers", "node/node.go:CheckPeer", "node/nodeservice.go:SendAddPeerRequest"]}
{"id": "C76", "title": "Membership spreads to everyone", "statement": "While addresses do not change and records are recent, after r+1 rounds of joins and synchronisations any two nodes that were linked by at most 2^r acquaintances (in either direction) know each other, with a record that is recent and not expired.", "quantifier": "all clusters of any size, all initial acquaintances, all interleavings within the rounds", "why_tests_cant": "all topologies and delivery orders", "anchors": ["node/node.go:SyncWithPeers", "node/node.go:JoinToPeers", "node/node.go:AddPeerElement", "node/nodeservice.go:SendAddPeerRequest"]}
{"id": "C77", "title": "The sources of a dataset are different nodes", "statement": "Two different sources of a dataset at a node are two different nodes.", "quantifier": "all clusters and interleavings", "why_tests_cant": "needs an address learned between two joins", "anchors": ["node/node.go:SyncWithPeers", "node/node.go:GetIdOfPeer", "node/nodeservice.go:SendJoinRequest", "data/data.go:AddSource"]}
{"id": "C78", "title": "The periodic report never crashes the node", "statement": "The status report that a node prints every few seconds completes, with a line for every listed dataset and each of its sources, whatever other goroutines do to the registry meanwhile.", "quantifier": "all histories of the registry, all interleavings with the report, all times", "why_tests_cant": "a race of a few microseconds between listing and looking up", "anchors": ["node/node.go:Info", "node/node.go:Periodic", "data/dataset.go:GetNoCreate", "data/dataset.go:CreateIfNotExists"]}
{"id": "C79", "title": "A node never destroys the files of its folder", "statement": "However the server process ends, files of its folder that it did not write are unchanged, and the stored index still lists the datasets it knew.", "quantifier": "all folder contents, all lives of the process, all ways to end", "why_tests_cant": "needs a port in use or a failing server", "anchors": ["server/veriserviceserver.go:RunServer", "node/nodeservice.go:Listen", "data/dataset.go:SaveIndex", "data/dataset.go:LoadIndex"]}
{"id": "C80", "title": "A grouped query shows every group", "statement": "A query with grouping returns, for every group with a matching datum (up to resultLimit groups), one datum with the sum of the best groupLimit scores of the group.", "quantifier": "all stores, queries, limits, arrival orders", "why_tests_cant": "all stores and limits", "anchors": ["data/search.go:MultiAggregatedSearch", "data/search.go:AggregatedSearch", "data/aggregator.go:Result"]}
{"id": "C81", "title": "Grouping over several nodes is grouping over all their data", "statement": "A grouped query sent to a node with sources returns what one node holding all the data would return.", "quantifier": "all call trees, stores and arrival orders", "why_tests_cant": "all trees of nodes and all replica layouts", "anchors": ["data/search.go:MultiAggregatedSearch", "data/search.go:AggregatedSearch", "data/aggregator.go:Insert", "data/aggregator.go:Result"]}
{"id": "C82", "title": "Every query vector gets the time that was asked for", "statement": "In a query of several vectors, the time limit of each vector's search is the timeout of the request.", "quantifier": "all numbers of vectors, all timeouts, all interleavings of their goroutines", "why_tests_cant": "depends on the interleaving of goroutines sharing one configuration", "anchors": ["data/search.go:AggregatedSearch", "data/search.go:MultiAggregatedSearch"]}
{"id": "C83", "title": "A repeated query uses the same cache keys", "statement": "When the same request is executed twice, the keys under which the second execution looks for cached answers are the ones the first one stored under.", "quantifier": "all queries, all interleavings of their goroutines", "why_tests_cant": "depends on the interleaving of goroutines sharing one configuration", "anchors": ["data/search.go:GetSearchKey", "data/search.go:AggregatedSearch"]}
{"id": "C84", "title": "A successful insert has its copies on different nodes", "statement": "When an insert with enforced replication succeeds, at least as many different nodes as the replication on insert asks for hold the datum.", "quantifier": "all clusters, states, requests and choices of sources", "why_tests_cant": "depends on every possible choice of sources and membership history", "anchors": ["data/insert.go:Insert", "node/nodeservice.go:Insert", "data/data.go:RunOnRandomSources", "data/data.go:AddSource"]}
{"id": "C85", "title": "Every cosine similarity lies between -1 and 1", "statement": "CosineSimilarity64 and CosineSimilarity32 are symmetric, zero for a zero vector, and their result is between -1 and 1 for all vectors of numbers.", "quantifier": "all vectors of all lengths", "why_tests_cant": "rounding leaves the range only for particular vectors among infinitely many", "anchors": ["data/util.go:CosineSimilarity64", "data/util.go:CosineSimilarity32"]}
{"id": "C86", "title": "A connected peer stays a source", "statement": "If a peer is added as a source at least once in every period of the periodic task, it is a source of the dataset at every moment.", "quantifier": "all histories of additions and removals by the cache, all times", "why_tests_cant": "needs more than ten minutes of running and an observation in the right minute", "anchors": ["data/data.go:AddSource", "data/data.go:InitData", "node/node.go:SyncWithPeers"]}
{"id": "C87", "title": "A query finds what was inserted", "statement": "After an insert was acknowledged, a query that reaches the node while the datum is alive, and whose filters it passes, reports the key with its score, or reports as many results as were asked for, none of them worse.", "quantifier": "all clusters, inserts, queries (higher is better, no grouping) and call trees that contain the node", "why_tests_cant": "relates every insert to every later query over every forwarding tree", "anchors": ["data/insert.go:Insert", "node/nodeservice.go:Insert", "data/search.go:AggregatedSearch", "data/newsync.go:InsertBDMap"]}
{"id": "C88", "title": "A query reports the inserted value", "statement": "After an insert was acknowledged, a query that reports the key reports the inserted value, not an older one.", "quantifier": "all clusters, histories of inserts, queries and orders of arrival", "why_tests_cant": "needs an old copy on another node whose answer arrives first", "anchors": ["data/aggregator.go:Insert", "data/insert.go:Insert", "data/search.go:AggregatedSearch"]}
{"id": "C89", "title": "A refused query can be asked again", "statement": "A request that was refused because its dataset does not exist yet is answered when it is sent again after the dataset was created.", "quantifier": "all requests, nodes and requests in between", "why_tests_cant": "depends on the history of request ids", "anchors": ["node/nodeservice.go:SearchStream"]}
{"id": "C90", "title": "A service is known exactly as long as it is configured somewhere", "statement": "A configured service stays in the list of services of its node as long as the node runs, and a service that is configured nowhere any more disappears from every node's list.", "quantifier": "all service maps, histories of exchanges between any number of nodes, restarts and times", "why_tests_cant": "needs long histories of exchanges between several nodes", "anchors": ["node/node.go:AddService", "node/node.go:AddStaticService", "node/node.go:ServiceListKeys", "node/node.go:SyncWithPeers"]}
{"id": "C91", "title": "The periodic task can be stopped", "statement": "StopPeriodicTask returns, and after it returned the task does not run any more.", "quantifier": "all interleavings of the loop, the ticker and any number of callers", "why_tests_cant": "depends on interleavings", "anchors": ["node/node.go:SetPeriodicTask", "node/node.go:StopPeriodicTask"]}
{"id": "C92", "title": "A statistics run comes to an end", "statement": "Whatever the random draws and whenever the dataset is closed, the scan of Process is never blocked for good.", "quantifier": "all datasets, channel capacities, random draws, interleavings of scan, sender and Close", "why_tests_cant": "needs Close in the middle of the first scan", "anchors": ["data/newsync.go:Process", "data/data.go:Close"]}
{"id": "C93", "title": "Temporary index files are deleted", "statement": "When no index is being built, a dataset has at most one temporary index file, the one in use, and none after it was closed.", "quantifier": "all sequences of builds, also overlapping, and failures of TempFile", "why_tests_cant": "tests do not look at the temporary directory over many builds", "anchors": ["data/newsync.go:Process", "data/data.go:Close"]}
{"id": "C94", "title": "What the cluster holds is found while it moves", "statement": "A datum that the cluster holds all the time is found by a query that reaches every node that may hold it, also while nodes hand data over to each other.", "quantifier": "all clusters, histories of hand-overs, moments at which the query looks at each node, queries", "why_tests_cant": "needs a hand-over between the looks of one query at two nodes", "anchors": ["data/newsync.go:Process", "data/search.go:AggregatedSearch", "data/search.go:Search"]}
{"id": "C95", "title": "Exactly these inserts crash a node", "statement": "On a dataset below its target, an insert crashes the process if and only if it has no datum, or no key, or its key is stored and the request or the stored datum has no value. A sequence of inserts into a new dataset crashes if and only if one lacks datum or key, or two requests have the same key and one of the two has no value; values, lifetimes, order and replication do not matter.", "quantifier": "for all request sequences (lengths that fit), configurations, clock readings, source behaviours and stores", "why_tests_cant": "The crash needs two requests for one key of which one is incomplete; a test tries a few pairs, the claim excludes every other cause and covers every sequence.", "anchors": ["data/newsync.go:27-63", "data/insert.go:11-51", "data/datum.go:105-111"]}
{"id": "C96", "title": "Exactly these local searches crash", "statement": "A search of a node's store crashes if and only if it has no datum, or some live entry passes the filters and the request has limit 0 or a datum without key; otherwise it returns a list.", "quantifier": "for all well-formed stores, iteration orders, clocks, filters, scores and requests", "why_tests_cant": "Whether limit 0 is fatal depends on the store content and on every filter result; tests see single combinations.", "anchors": ["data/search.go:64-109", "data/search.go:346-377"]}
{"id": "C97", "title": "Exactly these merges crash", "statement": "A merge of results, grouped or not, crashes if and only if the result limit is 2^63 or more, or a result has no key, or something is merged and the limit is 0 or a context datum has no key; no other input crashes it.", "quantifier": "for all sequences of results, contexts, score functions, sorting algorithms and group orders", "why_tests_cant": "The claim excludes every other crash in the aggregator for all inputs, including full lists, repeated keys, NaN scores and groups.", "anchors": ["data/aggregator.go:39-180", "data/search.go:205-297"]}
{"id": "C98", "title": "Exactly these search requests crash a node", "statement": "The search handler crashes if and only if the request has no configuration, or it is not a repetition, its dataset is known and: the result limit is 2^63 or more, a query datum has no key, the limit is 0 and something is compared (a live match in the scan, or something delivered by the index or a source), or a context datum has no key and something is merged.", "quantifier": "for all requests, stores, arrival orders and losses, answers with keys of index and sources", "why_tests_cant": "The exact set of fatal requests depends on stores, arrivals and timeouts; a test can show one crash but not that there are no others.", "anchors": ["node/nodeservice.go:118-154", "data/search.go:130-149", "data/search.go:160-298"]}
{"id": "C99", "title": "A dataset nobody uses goes away after its retention", "statement": "If no call names a dataset for longer than its retention, the node no longer has it.", "quantifier": "for all datasets, histories of other calls, rounds of the periodic task and lists of all datasets", "why_tests_cant": "Retentions are days; whether the node's own housekeeping counts as use only shows over unbounded time.", "anchors": ["data/dataset.go:65-75", "data/dataset.go:155-164", "data/dataset.go:209-227", "node/node.go:296-330"]}
{"id": "C100", "title": "A dataset that ends is closed", "statement": "When a dataset is deleted, dropped by the clean-up or expires, it is closed (its data handed over, its folder removed), so that nothing that still runs or holds data is left without a name.", "quantifier": "for all histories of calls, expirations, removals of expired datasets and clean-ups", "why_tests_cant": "Needs a call in the time between the expiration and the removal of the expired dataset, up to a minute.", "anchors": ["data/dataset.go:24-38", "data/dataset.go:65-143", "data/dataset.go:190-207"]}
{"id": "C101", "title": "Shutting a node down closes every dataset it has", "statement": "Closing the registry of datasets closes each dataset that exists at that time exactly once and touches no other; it never crashes.", "quantifier": "for all reachable registries and all orders in which the datasets are visited when saving and when closing", "why_tests_cant": "All iteration orders and all registries, including datasets that have expired but are not removed yet.", "anchors": ["data/dataset.go:209-239"]}
{"id": "C102", "title": "Durations are honoured exactly in a known range", "statement": "A dataset's retention of r seconds (r > 0) is kept as exactly r seconds if and only if r <= 9223372036; a search's time limit of t milliseconds is applied as exactly t milliseconds if and only if t <= 9223372036854; the time an answer is kept is exactly the configured number of seconds if and only if that number is at most 9223372036. A datum inserted at time now with a TTL of ttl seconds is returned by a scan at time t >= now if and only if now + ttl is below 2^63 and t is before it, or now + ttl is exactly 2^64 (then it never expires); every other TTL makes it vanish at once.", "quantifier": "all retentions, time limits, cache durations and TTLs of 64 bits, all times and keyed data", "why_tests_cant": "the turning points are single values among 2^64 (2^64 - now depends on the clock), and nothing in the answers shows that a duration wrapped round", "anchors": ["data/dataset.go:58-63", "data/search.go:162-182", "data/search.go:235-236", "data/newsync.go:22-40", "data/newsync.go:74-92"]}
{"id": "C103", "title": "Exactly which truncated values are accepted", "statement": "If the encoding of a datum value is cut off after n bytes, decoding it crashes if and only if the version and the length of the label are not complete in these n bytes; in every other case decoding succeeds and returns the version and the label with zero bytes in place of the missing ones.", "quantifier": "all values, all proper prefixes of their encodings", "why_tests_cant": "a test picks a few lengths; the claim is an equivalence over every label, every length encoding size and every cut", "anchors": ["data/gencoder/gencoder.go:UnmarshalKey", "data/gencoder/gencoder.go:UnmarshalValue", "data/datum.go:ToDatumKey", "data/datum.go:ToDatumValue"]}
{"id": "C104", "title": "Exactly what the clean-up removes and when it crashes", "statement": "The periodic clean-up of a node crashes if and only if it holds an unexpired dataset without data of its own one of whose sources cannot be asked, before a source with data was found among those listed earlier. Otherwise it reports no error, and a dataset name is held afterwards if and only if it was held before and, unless it had expired already, the dataset had data of its own or at a source.", "quantifier": "all reachable states of a node, all orders in which the datasets are visited, all answers of sources", "why_tests_cant": "needs every combination of dataset contents, source order and reachability, and the absence of any other effect", "anchors": ["data/data.go:128-150", "data/dataset.go:190-207"]}
{"id": "C105", "title": "Exactly when the approximate index crashes", "statement": "Building the index over a store crashes if and only if an unexpired datum has no key, or one of the first max(1000, count) data read has a shorter vector than the first one read; some reading order crashes if and only if an unexpired datum has no key or two of them have vectors of different lengths. A query to a built index crashes if and only if it is missing, has no key, or has a shorter vector than those of the index. Neither reports an error.", "quantifier": "all stores, all reading orders, all clocks, all indexes a dataset can have, all queries (limit below 2^32, filters that can be applied to the data)", "why_tests_cant": "map order is random, so a test sees a crash or not by chance; the claim says which stores are safe in every order", "anchors": ["data/newsync.go:Process", "data/search.go:SearchAnnoy", "annoyindex/annoylib.h:add_item", "annoyindex/annoylib.h:_get_all_nns"]}
{"id": "C106", "title": "Exactly what a merge returns", "statement": "Merging any sequence of search results (complete data, no NaN scores, limit at least 1) returns the following. Each result takes the greatest score its search context offers. A result counts as news if its score is greater than every score with which its key arrived before; everything else is dropped. If higher scores are better the k best of the news are returned. If lower scores are better and more than k news arrived, the k-1 best of the first k news and the worst of all the news are returned. The result limit cuts this list. Consequently, when all the news fit, a key is listed twice exactly if it came back with a score greater than all it had before.", "quantifier": "all sequences of results, limits, result limits, contexts and sorting functions", "why_tests_cant": "the answer depends on the order and the repetitions of the whole sequence; a test with few results never exceeds the limit, and the surprising member appears only once the list is full", "anchors": ["data/aggregator.go:39-54", "data/aggregator.go:56-76", "data/aggregator.go:78-101", "data/aggregator.go:103-120", "data/aggregator.go:138-153"]}
{"id": "C107", "title": "A search context gives each result its best score", "statement": "With a search context, the score of every result in the answer is the best one among those the context offers: its own score (unless the context has priority) and its scores against each datum of the context, where best means greatest if higher is better and smallest otherwise.", "quantifier": "all results, contexts and score functions without NaN", "why_tests_cant": "with one context datum, or with the context's data at equal distance, best and worst coincide", "anchors": ["data/aggregator.go:39-54", "data/aggregator.go:56-76"]}
{"id": "C108", "title": "Copies of a datum expire when the datum does", "statement": "All inserts of a key that set a lifetime agree on when the datum expires. Then every copy of it, at whichever node it ends up after any number of hand-overs, expires at that second, so no node returns it after that.", "quantifier": "all clusters, executions, lifetimes, hand-overs, losses and delays", "why_tests_cant": "the remaining lifetime is computed when a scan chooses the datum and turned back into a date when it arrives, so the error is the waiting time in queues and on the wire, which is zero in tests on one machine and adds up over hand-overs", "anchors": ["data/newsync.go:27-31", "data/newsync.go:93-135", "data/newsync.go:180-192", "data/sync.go:25-36", "node/datasourceclient.go:61-77"]}
{"id": "C109", "title": "A node that is gone is forgotten", "statement": "When a node has stopped (it sends no more join requests), then twenty minutes after its last one no other node lists it as a peer any more, and five minutes after it no node takes over its record from others, sends anything to it because of the record or adds it as a source.", "quantifier": "all clusters, executions, deliveries, delays, repetitions and losses of messages, iteration orders and restarts", "why_tests_cant": "nodes pass records of each other on, so a record may keep coming back from somewhere long after its node stopped; whether the age check cuts every such loop depends on the interleaving of messages and expirations over many minutes", "anchors": ["node/node.go:92-105", "node/node.go:107-129", "node/node.go:163-176", "node/node.go:235-263", "node/nodeservice.go:241-267"]}
{"id": "C110", "title": "All nodes agree on the configuration of a dataset", "statement": "When a client has configured a dataset at a node, then every node that the configuration reaches (in a request, or in the record of a peer) has exactly this configuration from then on, as long as it has the dataset and no client asks for a higher version, whatever else the nodes tell each other.", "quantifier": "all clusters, sequences of requests, records, repetitions, deletions, expirations and housekeeping at all nodes", "why_tests_cant": "which configuration wins depends on the order in which requests and records arrive at each node; equal versions give a disagreement that no later exchange repairs, which a test sees only if it configures two nodes before they meet", "anchors": ["data/dataset.go:107-130", "data/dataset.go:45-56", "data/dataset.go:65-75", "data/dataset.go:155-164", "node/node.go:163-176", "node/node.go:254-262", "node/nodeservice.go:221-229"]}
{"id": "C111", "title": "No configuration is made up", "statement": "The configuration of a dataset at any node, and every configuration that a node passes on in the record of itself, is either the default one or equal in every field to one that a client asked for under the same name at some node.", "quantifier": "all clusters, sequences of requests, records, repetitions, deletions, expirations and housekeeping at all nodes", "why_tests_cant": "a statement about the provenance of every field through any number of hops and updates; tests compare a few configurations after one hop", "anchors": ["data/dataset.go:107-130", "data/dataset.go:45-56", "data/dataset.go:155-164", "node/node.go:163-176", "node/node.go:254-262", "node/nodeservice.go:221-229"]}
{"id": "C112", "title": "Answers are never made up", "statement": "Whatever happens to a query (timers that cut results off, lost connections, answers from the query cache, several query data, search contexts, groups, the approximate index, nodes that insert, delete, expire and hand over data meanwhile), every datum in the answer was inserted by a client, is one that some node looked at while it had not expired (or that its approximate index lists), and carries the properties the request asks for; without groups, its score is the score function applied to it and one of the query data or, with a context, one of the data of the context, and only the latter if the context has priority.", "quantifier": "all clusters, executions, queries, contexts, configurations, score functions, interleavings, losses and cache histories", "why_tests_cant": "it concerns every interleaving and every loss along an unbounded tree of calls between nodes, and states that caches and indexes kept from the past; tests see only undisturbed queries", "anchors": ["data/search.go:130-149", "data/search.go:161-241", "data/search.go:254-298", "data/aggregator.go:56-153", "data/search.go:301-392", "node/nodeservice.go:118-154", "node/datasourceclient.go:31-59", "data/newsync.go:27-227"]}
{"id": "C113", "title": "Datasets are isolated", "statement": "While a node runs, the answers to the requests about one dataset, and that dataset itself, depend only on the requests about it and on the node's housekeeping of it: inserts, searches, creations, removals, expirations, reports, statistics and synchronisation of other datasets, however they are mixed in, change none of the answers.", "quantifier": "all datasets, all sequences of requests and housekeeping steps of a node, all configurations and data", "why_tests_cant": "it compares two unbounded histories that differ in everything except one dataset; tests use one dataset or a fixed sequence", "anchors": ["node/nodeservice.go:35-51", "node/nodeservice.go:80-154", "node/nodeservice.go:221-229", "data/dataset.go:65-143", "data/dataset.go:155-239", "node/node.go:62"]}
{"id": "C114", "title": "Exactly which requests create a dataset", "statement": "A dataset that cannot be found is created by an insert into it (unless the node drains), by a request for its information or its data, with the default configuration, and by a creation, with the given configuration; a search of it, any request about another dataset and the node's own housekeeping never create it.", "quantifier": "all reachable states of a node, all requests and housekeeping steps, all names", "why_tests_cant": "the negative part is about every request in every state; tests look at a few requests on a fresh node", "anchors": ["node/nodeservice.go:35-51", "node/nodeservice.go:80-154", "node/nodeservice.go:221-229", "data/dataset.go:65-130"]}
{"id": "C115", "title": "Requests during the creation of a dataset", "statement": "However the creation of a dataset and inserts, searches, synchronisation, removals, housekeeping and reports for the same dataset are interleaved, none of them crashes the node, the dataset is set up once with one background task, and no source added and no answer cached in between is thrown away.", "quantifier": "all interleavings of the creation with any number of requests of every kind", "why_tests_cant": "the dataset can be found by every other goroutine before it is set up; the window is a few instructions wide, so a test does not hit it, and the number of goroutines is unbounded", "anchors": ["data/data.go:83-96", "data/dataset.go:107-130", "data/insert.go:15-43", "data/search.go:161-240", "data/data.go:222-254", "node/node.go:339-365"]}
{"id": "C116", "title": "A dataset that was closed stops working", "statement": "After a dataset was closed - it was removed, it expired or the node ends - its background task ends: no statistics are computed and nothing is sent to other nodes any more.", "quantifier": "all interleavings of creation, requests, housekeeping and closing of a dataset", "why_tests_cant": "whether the task ends depends on the order of the creation and the closing, which a test cannot choose, and the claim is about all later executions", "anchors": ["data/data.go:83-96", "data/data.go:108-119", "data/data.go:145-168", "data/dataset.go:107-143", "data/dataset.go:190-207"]}
{"id": "C117", "title": "Exactly what crashes a node", "statement": "Whatever happened to a node before, a request or a step of its own housekeeping crashes it exactly in these cases: an insert while it does not drain, into a dataset that is missing or below its target, without a datum or key, or without a value (or onto a datum without one) for a stored key; a search without configuration; a search that is not a repetition, of an existing dataset, with a result limit of 2^63 or more, a query datum without key, limit 0 and something to compare, or a context datum without key and something to merge; the periodic check, if a dataset without data has a source that does not answer before one with data. Requests for information, data or creation, expiry, removal, saving, listing, closing and other tasks never crash it.", "quantifier": "all histories of requests and housekeeping of a node with any number of datasets, all next events", "why_tests_cant": "it is an equivalence over all reachable states of a node and all requests; tests show single crashes or their absence", "anchors": ["node/nodeservice.go:35-51", "node/nodeservice.go:80-154", "node/nodeservice.go:221-229", "data/dataset.go:65-239", "data/data.go:128-142"]}
{"id": "C118", "title": "A node makes itself known to everybody it knows", "statement": "In a round of joining, a node asks every configured service and every address of every known peer to let it join, but never itself; a node that gets such a request while it is recent lists the sender afterwards.", "quantifier": "all nodes, services, known peers and addresses; all states of a cluster before a request is sent", "why_tests_cant": "the receiver's state and knowledge before the request are arbitrary; a test tries a few", "anchors": ["node/node.go:278-294", "node/nodeservice.go:53-66", "node/nodeservice.go:174-188", "node/node.go:108-135"]}
{"id": "C119", "title": "How fresh the reported size and statistics of a dataset are", "statement": "A round of a dataset's housekeeping counts its live data and refreshes its statistics exactly if it is forced, or the clock was set back, or the last refresh was at least 60 seconds ago and since then data were inserted, or more than a tenth of the data may be transferred to the sources asked, or at least ten minutes have passed; otherwise it changes nothing that is reported but the time stamp and stores, removes and offers nothing. So after any round the reported values are less than ten minutes old, and less than one minute if data were inserted since.", "quantifier": "all datasets, stores, sources with their answers, clocks and rounds, forced or not", "why_tests_cant": "the condition depends on times, counters and answers of up to six other nodes; tests cannot wait through all combinations", "anchors": ["data/newsync.go:93-104", "data/newsync.go:195-227", "data/data.go:170-195"]}
{"id": "C120", "title": "The index file is JSON, whoever wrote it", "statement": "A node that starts with an index file that lists datasets as JSON objects, written by hand or by another tool and in whatever layout, has exactly the datasets that the file describes, with the described configurations; texts that are not JSON or have values of wrong types are skipped, and loading never fails.", "quantifier": "all files (byte strings), all ways to write a JSON value (RFC 8259: space, escapes, numbers, order and case of members, unknown members)", "why_tests_cant": "there are infinitely many ways to write an object and infinitely many ways to get it wrong; tests cover the files the program writes itself", "anchors": ["data/dataset.go:166-188", "data/dataset.go:65-143", "veriservice/veriservice.pb.go:1008-1015"]}
{"id": "C121", "title": "A server runs with the settings it was given", "statement": "A server that is started uses, for each of its settings (services, port, broadcast addresses, folder), the value of the flag, else of the environment variable, else of the configuration file, else the default; the configuration file is the one of the flag or of VERICONFIG, else the one in the home folder; it listens at the port given and advertises that port.", "quantifier": "all command lines, all environments, all configuration files", "why_tests_cant": "the combinations of flags, variables and files, and of values in them, are unbounded; no test of the repository starts the program", "anchors": ["cmd/root.go:45-89", "cmd/serve.go:11-54", "server/veriserviceserver.go:16-78", "node/nodeservice.go:156-161"]}
{"id": "C122", "title": "Approximate searches and index rebuilds do not disturb each other", "statement": "An approximate search that runs while the index of its dataset is rebuilt and replaced, by one or several statistics runs, asks one index that is not freed while it is asked and looks the numbers it returns up in the list of data of the same build; it never crashes and never waits for ever; every replaced index is freed exactly once; once there is an index no search falls back to the exact one.", "quantifier": "all interleavings of any number of searches and rebuilds", "why_tests_cant": "use after free and mismatched lists show only in rare interleavings, and a freed index often still answers; the number of interleavings is unbounded", "anchors": ["data/search.go:313-342", "data/newsync.go:203-223", "data/data.go:27-32"]}
{"id": "C123", "title": "What a dataset holds after any calls is known to the second", "statement": "After any inserts, deletes and scans at any times with any TTLs, a scan shows exactly the data whose deadline is 0 (no TTL) or later than the moment they are visited, each once. The deadline is the time of the insert plus the TTL, as a signed 64-bit number; but an insert of a value that the key already has (even if it has expired, as long as no scan has removed it) with a deadline less than ten seconds away from the old one changes nothing, so the datum disappears at the old deadline.", "quantifier": "all histories of calls, all clocks (not only increasing ones), all TTLs", "why_tests_cant": "needs repeated inserts with particular gaps, expired entries that no scan has visited, and TTLs near 2^63", "anchors": ["data/newsync.go:15-63", "data/newsync.go:65-91"]}
{"id": "C124", "title": "Exactly when a search leaves goroutines behind", "statement": "When a search has returned, all goroutines it started come to an end exactly if at most 100 of the results its sources found were not taken. Otherwise at least one source goroutine and the one that waits for the sources stay for ever, and they hold all results not taken except 100.", "quantifier": "all searches, all numbers of sources and results, all interleavings and timeouts", "why_tests_cant": "needs a timeout at a particular moment and counts goroutines after the end of the request; tests look at answers", "anchors": ["data/search.go:184-231", "data/search.go:258-297", "data/search.go:130-149"]}
{"id": "C125", "title": "Exactly what the end of a dataset deletes", "statement": "When a dataset ends, exactly the folder is deleted to which its name leads from the folder data inside the node's folder (an empty piece and . stay, .. goes up, anything else goes down), with everything below it. Names without the piece .. never lead out of the data folder; the end of one of them deletes the folder of another exactly if the pieces of its name, empty ones and . left out, begin the other's.", "quantifier": "all folders of nodes, absolute and relative, all names of datasets, all working folders", "why_tests_cant": "names come from clients and contain any bytes; tests use simple names", "anchors": ["data/data.go:67", "data/data.go:79", "data/data.go:121-125", "data/dataset.go:36"]}
{"id": "C126", "title": "Exactly when a stored datum can be lost to a scan", "statement": "A stored datum that does not expire before a time T and that nobody deletes can be missing at some moment before T exactly if, now, some scan has read an earlier entry of its key as expired and has not deleted it yet. If no scan has, the key is found until T whatever runs, with the value of the last insert that took effect.", "quantifier": "all states of all concurrent inserts, deletes and scans, all continuations", "why_tests_cant": "the window is between two adjacent statements of another goroutine", "anchors": ["data/newsync.go:27-63", "data/newsync.go:74-91"]}
{"id": "C127", "title": "Exactly what the HTTP port answers", "statement": "A request whose path is not of the form /, /a/b or /a/b/ (pieces that are not empty, . or ..) is redirected (301) to the path of that form that leads to the same place, and is not redirected again. Of the other paths only /, /health and /ready exist (404 otherwise); they answer GET only (405 otherwise): / and /health with 200 if the server is healthy and 500 if not, /ready with 200 if it is ready and 503 if not.", "quantifier": "all methods, all paths, all states of the server", "why_tests_cant": "paths and methods are arbitrary strings; probes with HEAD or a trailing slash are refused, which shows only in deployments", "anchors": ["server/httpservice.go:17-39", "server/httpservice.go:53-64"]}
{"id": "C128", "title": "A datum that was acknowledged is in the stream", "statement": "After an Insert request that was answered without error, a DataStream of the same dataset contains the datum, with its value, exactly once, whatever requests came before and in between (searches, streams, information, creations, inserts of other data, requests about other datasets, reports, background tasks), until the key is inserted again, its time to live less nine seconds is over, or the dataset is removed or expires. An Insert that was refused for any reason other than missing replicas leaves every dataset as it was.", "quantifier": "all sequences of requests and of the node's own work, all data, TTLs, iteration orders and clocks", "why_tests_cant": "the interaction of all kinds of requests over a long time; tests insert and read back at once", "anchors": ["node/nodeservice.go:35-154", "data/insert.go:11-51", "data/newsync.go:27-63", "data/newsync.go:229-237", "data/dataset.go:65-130"]}
{"id": "C129", "title": "A query identifier is remembered for five minutes", "statement": "A search whose identifier (Uuid) came to the node within the five minutes before, with a search that was not itself a repetition, is answered with no results and changes nothing, whatever it asks for and whatever came in between; any other search is treated as by a node that has never seen a search.", "quantifier": "all sequences of requests with a clock that does not go back", "why_tests_cant": "needs five minutes of requests and the janitor of the identifier cache at every possible moment", "anchors": ["node/nodeservice.go:117-154", "node/node.go:50", "node/node.go:62"]}
{"id": "C130", "title": "Replicas that agree stop sending data to each other", "statement": "If every other node that holds a dataset and answers reports as many data and the same statistics as the dataset has, a statistics run sends no data to any of them. Otherwise what a source is granted in one run depends only on whether the statistics are alike to one hundredth of the largest distance and on the two numbers of data.", "quantifier": "all datasets, reports of sources, interleavings of runs, inserts, deletions and changes of the sources", "why_tests_cant": "the decision is made in floating point from numbers of data up to 2^53, and it repeats for ever", "anchors": ["data/data.go:170-195", "data/newsync.go:93-135", "data/newsync.go:183-193"]}
{"id": "C131", "title": "A query causes a bounded number of messages", "statement": "A SearchStream request with v vectors in a cluster of n nodes causes, as long as no node forgets the query's identifier (which happens after five minutes), at most 6 (v + n) search requests between nodes, handled or still under way, whatever the sources are, whatever is answered, lost or delayed, and in whatever order; at most 6 (v + n - 1) if the client gave an identifier. The bound cannot be lowered: for every n of at least seven and every v of at least one there is a cluster in which exactly 6 (v + n) requests are sent, and every node executes the query, the asked one twice.", "quantifier": "for every number of nodes, source relation, list of vectors, timeout, choice of consulted sources, loss and order of handling; for every n >= 7 and v >= 1 a cluster that reaches the bound", "why_tests_cant": "A test watches one cluster with one order of delivery; the number of messages depends on the graph and on the interleaving, and a bound for every graph cannot be observed.", "anchors": ["node/nodeservice.go:118-154", "data/data.go:239-253", "data/search.go:193-199", "node/datasourceclient.go:31-48"]}
{"id": "C132", "title": "Between two statistics runs a target admits everything or nothing", "statement": "However many inserts reach a dataset between two of its statistics runs, either all are refused as over the target and nothing changes, or none is, and every inserted key holds the value of its last insert. So a target does not bound what is stored: a new dataset with a target of at least one takes any number of data before its first run (with a target of zero, and targets not switched off, it never takes any). The first run after the inserts counts them; from then on every insert is refused, of stored keys too, exactly if they are at least as many as the target.", "quantifier": "all datasets, targets, series of inserts of any length with any keys, values, settings and behaviour of the sources", "why_tests_cant": "the length of the series is unbounded and the answers depend on a count that only a background task refreshes", "anchors": ["data/insert.go:11-51", "data/newsync.go:93-105", "data/newsync.go:198-202"]}
{"id": "C133", "title": "Sources are announced by their nodes and kept until they expire", "statement": "In a cluster that starts with nothing known, a node asks another address for the data of a dataset only if some node announced that dataset, in a join request, at a moment when the address was one of its own; no source is made up, whatever is delivered late, repeatedly or never, whoever restarts and in whatever order. Once an address is a source of a dataset at a node it stays one until that entry expires or the node restarts; the expiry of other sources, of peers, restarts of other nodes and later announcements that no longer name the dataset do not remove it.", "quantifier": "all clusters, routes, executions of joins, replies, deliveries, synchronisations, expiries and restarts", "why_tests_cant": "needs every history of announcements passed on by third nodes", "anchors": ["node/node.go:108-125", "node/node.go:218-294", "node/nodeservice.go:53-78", "node/nodeservice.go:174-219", "node/nodeservice.go:241-267", "data/data.go:222-233"]}
{"id": "C134", "title": "More data and a greater limit never make an answer worse", "statement": "When no score is a NaN and the limit is at least one: asking a dataset the same question again after data were added, or with a greater limit, gives at least as many results, and at every rank both answers have the score of the later answer is at least as good. When nothing was added, a smaller limit gives, rank by rank, results level with the beginning of the answer with the greater limit, whatever the order in which the stored data are walked and however equal scores are sorted; when no two data have equal scores it is exactly that beginning.", "quantifier": "all datasets, additions, filters, score functions, pairs of limits, map orders and sort implementations", "why_tests_cant": "relates two runs over all orders of an unordered map and all unstable sorts", "anchors": ["data/search.go:Search", "data/search.go:Collector.Insert", "data/search.go:PassesFilters"]}
{"id": "C135", "title": "Exactly when a dataset that is closed comes to an end", "statement": "When a dataset that reports data and has sources is closed, and nobody inserts any more, the hand-over of its data can come to an end exactly if no stored datum was inserted without TTL; a datum without TTL keeps the call waiting for ever, whatever the sources acknowledge. If every datum has a TTL the call is over, with an empty store, at the latest with the first run after the last datum expired, even if no source ever answers.", "quantifier": "all contents, all source behaviours, all interleavings of hand-over goroutines and runs", "why_tests_cant": "termination of an unbounded retry loop over every behaviour of the sources", "anchors": ["data/data.go:Close", "data/newsync.go:Process", "data/sync.go:InsertConfigFromExpireAt"]}
{"id": "C136", "title": "Which of several configurations asked for at once is installed", "statement": "When any number of create calls for an existing dataset overlap, then after all of them have returned its configuration is one of those asked for with a version higher than the one it had before, and each of these, not only the highest, is the outcome of some interleaving; it is the configuration from before exactly if no call asked for a higher version. The stored data are kept in every case.", "quantifier": "every set of overlapping create calls for one name, every interleaving", "why_tests_cant": "the set of possible outcomes over all interleavings, in both directions", "anchors": ["data/dataset.go:CreateIfNotExists", "node/nodeservice.go:CreateDataIfNotExists"]}
{"id": "C137", "title": "Exactly when closing a dataset blocks its statistics run", "statement": "A forced or periodic statistics run of a dataset can be blocked for good exactly if the count of data it last reported was zero and more data with over ten seconds left to live are stored than the limit handed to the run, in which case closing the dataset during the scan can block it; if it is closed at a given moment, the run is certain to be blocked if the data already queued plus the long-lived data not yet visited exceed the limit, and certain to finish its scan otherwise.", "quantifier": "every limit, every stored data, every random draw, every moment of closing and every interleaving", "why_tests_cant": "needs a close call between two particular entries of a scan and an unbounded wait to observe; the equivalence covers all of them", "anchors": ["data/newsync.go:Process", "data/data.go:Close"]}
{"id": "C138", "title": "Exactly what a search may have taken when it ends", "statement": "When a search ends because all its sources have finished, the sequence of results it has merged is an interleaving of the results of the sources, each in the order it was sent, and every such interleaving is the outcome of some schedule; when it ends by timeout, the sequences it may have merged are exactly the interleavings of a beginning (possibly empty, possibly complete) of each source's results.", "quantifier": "every number of sources and results, every interleaving of producers, waiter, consumer and timer", "why_tests_cant": "the set of all outcomes over all schedules, in both directions", "anchors": ["data/search.go:AggregatedSearch", "data/search.go:MultiAggregatedSearch", "data/search.go:StreamSearch"]}
{"id": "C139", "title": "Exactly what a client of DataStream may receive", "statement": "When a DataStream call returns, what the client has received is the data in the order in which they were read from the dataset, except that among the last 101 of them one datum at a time may be overtaken by any number of those behind it (never two at a time), and the last datum that is overtaken may be missing; and everything of this kind is the outcome of some schedule. In particular the client may have all data but one, in order, exactly if at most 100 data were read after the missing one.", "quantifier": "every number of data, every interleaving of the two sending goroutines", "why_tests_cant": "the set of all outcomes over all schedules, in both directions", "anchors": ["node/nodeservice.go:DataStream", "data/newsync.go:StreamAll"]}
{"id": "C140", "title": "Exactly what is reported as the average", "statement": "After a statistics run that refreshes, the reported average has as many numbers as the longest vector that was read; each of them is the float32 sum, in the order of reading, of the corresponding numbers of the vectors from the first of the longest on (vectors read before it are not counted), each divided by the number of data counted by the previous run, or by 1 if that was 0. With no data it is empty. So if two runs in a row count the same number of data and all vectors have one length, the second reports the mean.", "quantifier": "every dataset, order of reading, mixture of vector lengths, previous count; counts, clocks and the counts reported by sources below 2^63", "why_tests_cant": "depends on the order in which a concurrent map is read and on what an earlier run counted", "anchors": ["data/newsync.go:Process", "data/util.go:CalculateAverage"]}
{"id": "C141", "title": "How many entries the connection pools may have", "statement": "The pools of an address together have at most as many entries as connections were opened plus the number of times a connection was given back; this bound is reached for every number of uses: a single connection that is taken and given back n times, one caller after the other, and that nobody holds any more, has n+1 entries in the pool.", "quantifier": "every interleaving of callers, evictions, garbage collections and state changes; every number of uses", "why_tests_cant": "the growth needs many uses between two garbage collections", "anchors": ["util/connpool.go:Get", "util/connpool.go:Put", "util/connpool.go:PutIfHealthy"]}
{"id": "C142", "title": "The angular score lies between 0 and 1 and ranks like the cosine", "statement": "For two vectors whose cosine similarity is a number, the score of AngularDistance is a number between 0 and 1, and of two pairs of vectors the one with the larger or equal cosine similarity has the larger or equal angular score. With an exact arc cosine at 1, 0 and -1, vectors of the same direction score 1, orthogonal ones a half and opposite ones 0. All of this holds after rounding.", "quantifier": "every pair of vectors of any lengths, every arc cosine on [-1,1] that stays between 0 and pi and never increases", "why_tests_cant": "rounding errors at single values would reverse a rank; tests use a handful of vectors", "anchors": ["data/util.go:AngularDistance", "data/util.go:CosineSimilarity"]}
{"id": "C143", "title": "A vector nearer in every coordinate has no larger distance", "statement": "If a vector is in every coordinate at most as far from the query as another vector, its VectorDistance and its QuickVectorDistance to the query are at most those of the other; and appending coordinates to both vectors never reduces either distance. Both hold after rounding and also when sums overflow to infinity.", "quantifier": "all vectors of finite float32 numbers of any length", "why_tests_cant": "rounding and overflow in long sums; tests use a handful of vectors", "anchors": ["data/util.go:VectorDistance", "data/util.go:QuickVectorDistance", "data/util.go:euclideanDistance"]}
{"id": "C144", "title": "The distance histogram follows the distances", "statement": "A statistics run adds every live datum to one of 64 buckets of the reported histogram according to its distance to the previous centre. A datum that is nearer to the centre is never counted in a higher bucket than one farther away; distance zero is counted in the lowest bucket, and the end of the scale (the previously reported largest distance) and everything beyond it in the highest.", "quantifier": "all datasets, all distances and all positive scales, after rounding", "why_tests_cant": "the bucket is the integer part of a rounded quotient times 64 and cut at both ends; tests look at a few round numbers", "anchors": ["data/newsync.go:159-165", "data/newsync.go:27-227"]}
{"id": "C145", "title": "A full dataset makes room, and never below its level", "statement": "With a target utilization between 0 and 1, the number of data down to which a dataset hands over data is at most its target, grows with the target and with the utilization, is the target for utilization 1 and nothing for utilization 0. So a dataset that refuses inserts because its target is reached removes the first datum that a peer acknowledges.", "quantifier": "all targets, all utilizations between 0 and 1, all datasets and executions of the sender", "why_tests_cant": "the level is a rounded product converted to an integer; tests use the default 0.4", "anchors": ["data/sync.go:7-13", "data/newsync.go:110-135", "data/insert.go:InsertLocal"]}
{"id": "C146", "title": "Scores of vectors on a grid are the true ones", "statement": "If the coordinates of the stored vectors and of the query are integer multiples of one power of two and the sums of their squares and products have at most 24 binary digits, then VectorMultiplication is the exact inner product, QuickVectorDistance the exact sum of the differences, VectorDistance the exact Euclidean distance whenever that is a multiple of the same power of two, and the sign of CosineSimilarity that of the inner product. VectorDistance orders all pairs of such vectors by their Euclidean distance and tells any two different distances apart, so a search by VectorDistance returns the data that are nearest in truth, nearest first.", "quantifier": "all vectors of every length, all scales 2^k with -74 <= k <= 50, all histories of inserts, all queries and limits", "why_tests_cant": "the sums are accumulated in float32 and the root in float64; tests compare a few vectors with a tolerance and never the ranking of close distances", "anchors": ["data/util.go:28-36", "data/util.go:39-53", "data/util.go:61-96", "data/util.go:162-169", "data/search.go:111-127"]}
{"id": "C147", "title": "A scan reports nothing expired, deleted or invented, and no key twice, under concurrency", "statement": "While any number of inserts, deletes and other scans of a dataset run concurrently, every datum a scan reports was in the dataset and had not expired at some moment between the start and the end of the scan, and no key is reported twice. Whatever the dataset holds was there at the beginning or was put there by one of the inserts, with the expiry that insert computed. A key that is not in the dataset and of which no insert is under way when the scan begins is not reported.", "quantifier": "every interleaving of the atomic steps of any number of inserts, deletes and scans, with any expiries", "why_tests_cant": "whether a scan sees a datum depends on where the clock, the deletes and the stores fall between its steps", "anchors": ["data/newsync.go:27-91", "data/newsync.go:229-237"]}
{"id": "C148", "title": "The approximate index ranks all vectors of moderate size, and finds a vector that is in it", "statement": "If no coordinate of a query exceeds 2^K and none of the indexed vectors exceeds 2^L in size, with K + L at least 104 and the dimension times 2^(K+L) below 2^128, then every distance the approximate index computes is a number; a query returns items by non-decreasing distance, and with an unlimited search budget exactly the n nearest. The distance of a vector to itself is zero, in spite of rounding, if no coordinate exceeds 2^20, one is at least 2^-31 and there are fewer than 2^23; so querying with the vector of an item returns first an item at distance zero or below.", "quantifier": "all indexes, queries, budgets and split outcomes within the stated sizes", "why_tests_cant": "the sizes at which float32 sums overflow or vanish are far from those of test vectors, and rounding differs from vector to vector", "anchors": ["annoyindex/annoylib.h:466-475", "annoyindex/annoylib.h:_get_all_nns"]}
{"id": "C149", "title": "Scores are the true distances but for a known rounding error, and searches rank accordingly", "statement": "QuickVectorDistance of two vectors of finite float32 numbers (differences at most 2^127, at most 2^27 coordinates) differs from the true sum of differences by at most one part in 2^23. The square of VectorDistance (differences zero or at least 2^-62, square of the distance at most 2^125, at most 2^21 coordinates) differs from the true square of the Euclidean distance by at most 2n+6 parts in 2^24, n being the number of coordinates. So a search by either returns the data nearest in truth, nearest first, and leaves out nothing nearer, except that data whose true distances differ by no more than that may change places.", "quantifier": "all vectors of the stated ranges, all histories of inserts, queries and limits", "why_tests_cant": "the rounding errors depend on every bit of the coordinates, and adversarial vectors accumulate them", "anchors": ["data/util.go:28-43", "data/util.go:162-169", "data/search.go:60-108"]}
{"id": "C150", "title": "Searching with a stored vector returns the data with that vector first", "statement": "A search by QuickVectorDistance among finite vectors of the query's length returns the data whose vector is the query's own first, with score zero, and all others after them; no live matching datum with the query's vector is left out unless such data alone use up the limit. The same holds for VectorDistance if coordinates that differ do so by at least 2^-74. With CosineSimilarity the first result has similarity at least 1 - 2^-20 if the query's vector is stored (coordinates at most 2^20, one of them at least 2^-31). The conditions are needed: a vector of another length, a smaller difference, or with the cosine another direction can come first.", "quantifier": "all histories of inserts and deletes, all finite vectors of any length and size, all filters and limits", "why_tests_cant": "it needs every pair of distinct vectors to have a score that rounds to something other than zero, including overflow and denormals", "anchors": ["data/util.go:28-43", "data/util.go:61-96", "data/util.go:162-169", "data/search.go:60-108"]}
{"id": "C151", "title": "The inner product and the cosine are accurate, and searches by them find the data that are best up to the error", "statement": "For vectors of at most n coordinates whose size is zero or between 2^-40 and 2^50, VectorMultiplication is finite and differs from the true inner product by at most 3n/2^24 of the sum of the sizes of the products (n at most 2^22). For such vectors that are not zero, CosineSimilarity is finite and differs from the true cosine by at most (12n + 59)/2^24 (n at most 2^19). A search by either, higher being better, returns the best data, best first, where two data count as equal whose true scores differ by at most twice the error.", "quantifier": "all vectors of such coordinates, of any lengths up to the limit, also different ones; all histories of inserts and deletes, all filters and limits", "why_tests_cant": "the error depends on every intermediate rounding of sums of any length, with cancellation; tests see a few vectors", "anchors": ["data/util.go:46-53", "data/util.go:61-96", "data/search.go:60-108"]}
{"id": "C152", "title": "The reported average is the mean but for a known rounding error", "statement": "After a statistics refresh each number of the reported average is finite and, times the previous count, differs from the sum of the numbers of the vectors read (from the first of the longest on) by at most 3n/2^24 of the sum of their sizes, for n vectors (at most 2^22, previous count below 2^24) of numbers that are zero or between 2^-40 and 2^50 in size. After two refreshes between which the number of live data stays the same it is the mean of the live vectors up to 3n/2^24 of the mean size.", "quantifier": "all datasets of such vectors, all states before the refresh, all orders in which the data are read", "why_tests_cant": "sums of millions of rounded quotients with cancellation; a test can compare a few small averages only", "anchors": ["data/util.go:14-26", "data/newsync.go:139-155"]}
{"id": "C153", "title": "A query to the cluster by inner product or cosine finds the truly best data of all reached nodes", "statement": "A query sent to the cluster by VectorMultiplication or CosineSimilarity (higher is better, no grouping, limit below 2^32, node stores well formed) is answered, and every answer holds data stored, unexpired and passing the filters on the nodes reached, each key once, at most as many as wanted, ordered by their true inner product or cosine with the query up to the rounding error of C151; any other such datum is missing only if the wanted number is reached and none of the results is truly worse than it by more than that error.", "quantifier": "all trees of calls, all contents of the nodes with vectors of n coordinates at most (2^22 resp. 2^19) of moderate size (not zero for the cosine), all clocks, all filters, all orders in which stores are read and answers arrive", "why_tests_cant": "both the spread over nodes and the rounding depend on data a test cannot enumerate", "anchors": ["data/search.go:111-127", "data/search.go:130-230", "data/aggregator.go:40-140", "data/util.go:28-58"]}
{"id": "C154", "title": "What a grouped query shows when not everything fits", "statement": "A query with groupLimit at least one to a dataset without sources first chooses the best matching data, as many as wanted by limit and resultLimit, whatever their groups. It shows every group of a chosen datum and no other, each once, with a datum of the group and a score made of at most groupLimit of the group's chosen data: of the best of them if higher is better or all of them count. Data that were not chosen do not count for the score of their group. If no group's score is a NaN the groups come in the order of their scores.", "quantifier": "all stores, clocks, filters, query vectors, limits (limit and groupLimit from 1 to below 2^32, resultLimit below 2^63), iteration and arrival orders, sorting algorithms; no matching score is a NaN", "why_tests_cant": "depends on how limits cut across groups of arbitrary sizes", "anchors": ["data/aggregator.go:40-175", "data/search.go:130-230"]}
{"id": "C155", "title": "A query searches exactly the linked nodes, if none has more than six sources", "statement": "Suppose a search for one vector is asked at a node, no message is lost, every node asked knows the dataset, no cached answer is used, and no node that can be reached by going from nodes to their sources of the dataset has more than six sources. Then, in whatever order messages arrive, the query comes to an end, exactly the nodes that can be reached have searched their data by then, and for a search where higher is better, without groups, the answer consists of exactly the best data of all those nodes together, each once, best first. With more than six sources at the node asked, and no other way to them, every query misses at least one of these nodes from its first moment on.", "quantifier": "all networks of sources, all orders in which requests are sent, arrive and are found to be duplicates, all contents and clocks of nodes, all settings with a positive limit", "why_tests_cant": "A test sees one small network and one order of arrival; which node asks which first decides the shape of the calls.", "anchors": ["data/data.go:239-253", "data/search.go:160-235", "data/search.go:253-298", "node/nodeservice.go:118-154", "node/datasourceclient.go:31-59"]}
{"id": "C156", "title": "A small cluster answers as one database", "statement": "Suppose nodes start with nothing, their addresses do not change and lead to them, the members of a group all announce the same dataset when they join others and nobody else joins, and this goes on for less than 300 seconds. If any two members are linked by at most 2^r acquaintances, then after r+2 further rounds of joins and synchronisations the sources of the dataset at every member are exactly all other members, each once. If there are at most seven members, a search for one vector asked at any of them, higher is better and without groups, of which nothing is lost, is then answered with exactly the best data of all members together, each once, best first. With eight or more members that all know each other, any other member may be left out although nothing is lost.", "quantifier": "all groups of any size, all initial acquaintances, all interleavings of joins, deliveries and synchronisations within the rounds, all ways a query spreads, all contents and clocks, all settings with a positive limit", "why_tests_cant": "The claim is about any topology, any order of delivery and any way a query spreads; tests start two or three nodes on one machine and wait.", "anchors": ["node/node.go:108-126", "node/node.go:218-294", "node/nodeservice.go:53-78", "node/nodeservice.go:118-154", "node/nodeservice.go:174-219", "data/data.go:84-97", "data/data.go:239-253", "data/search.go:160-298"]}
{"id": "C157", "title": "What a member of a small cluster acknowledges is on different members and found from every member", "statement": "Consider a group of nodes that have found each other as in C156. If an insert at a member succeeds and copies on insert are enforced, then whatever messages were lost, at least as many different members as the dataset asks for hold the datum, the one asked among them. If the group has at most seven members, then a search for one vector asked at any member after that, higher is better and without groups, of which nothing is lost and while the datum is alive at the node it was inserted at, reports the key of the datum with its score, or reports as many results as were asked for, none of them worse.", "quantifier": "all groups, all data, all ways inserts and queries are delivered, lost or reordered as stated, all contents of the other nodes, all settings with a positive limit", "why_tests_cant": "Needs the membership protocol, the replication of an insert and the spreading of a query together, for every order of messages.", "anchors": ["node/node.go:218-294", "node/nodeservice.go:35-51", "node/nodeservice.go:118-154", "node/nodeservice.go:174-219", "data/data.go:239-253", "data/insert.go:Insert", "data/search.go:160-298"]}
{"id": "C158", "title": "Exactly when messages about peers crash a node", "statement": "Whatever Join and AddPeer messages and replies a node handles, in any interleaving, it crashes exactly when a message without a peer is checked while the node lists an unexpired record without addresses (none, or a single empty one) and the node itself has an address. So it takes two messages, one without a peer and one whose peer has no addresses; and two are enough for any node that lists no such record: the one with a recent timestamp first, and the one without a peer within five minutes.", "quantifier": "all interleavings of any number of messages, replies, checks and clean-ups, at any times after the first five minutes of 1970, from any state of the node", "why_tests_cant": "The crash needs two unusual messages and a particular order; no test sends either.", "anchors": ["node/node.go:22-29", "node/node.go:92-125", "node/node.go:206-211", "node/nodeservice.go:53-57", "node/nodeservice.go:241-243"]}
{"id": "C159", "title": "What a distance query to a cluster returns", "statement": "A query that is not lost anywhere, in a cluster whose nodes have at most six sources each. If the matching data on all nodes linked to the node asked have together no more different keys than the limit, the answer is the exact one over all of them, whether lower or higher scores are better. If lower scores are better and the limit is one, the answer is empty when nothing matches; otherwise it is a datum that is the nearest on some linked node, and no linked node's nearest datum is farther from the query. So the answer to a search for the nearest datum is the farthest of the nodes' nearest data: each further node can only make it worse.", "quantifier": "all clusters with at most six sources per node, all contents, all orders of events, arrival orders and timings", "why_tests_cant": "Tests ask one node, or ask with a limit above the number of data and a score for which higher is better.", "anchors": ["data/aggregator.go:39-153", "data/search.go:130-199", "data/data.go:239-253", "node/nodeservice.go:118-154"]}
{"id": "C160", "title": "Deleted data stay deleted", "statement": "A datum that is deleted at every node that stores it is stored by no node afterwards and found by no query, unless a client inserts its key again: statistics runs, hand-overs, expirations, other inserts and deletions, changes of sources and closing do not bring it back.", "quantifier": "all clusters, keys, executions, message losses and queries", "why_tests_cant": "Tests delete on a single node without sources; the datum comes back only if a synchronisation is under way.", "anchors": ["data/delete.go:8-10", "data/newsync.go:65-72", "data/newsync.go:27-227", "data/insert.go:11-22"]}
{"id": "C161", "title": "Exactly what the decoders read", "statement": "An arbitrary string of bytes is decoded as a key exactly if it consists of a number n, n coordinates of four bytes, a number m, m bytes of group label, four sizes of four bytes, and anything; n is at most 2^46 and m at most 2^48. It is decoded as a value exactly if it consists of eight bytes of version, a number m of at most 2^48, and anything; the label is the m bytes that follow, zeros standing for missing ones. Numbers may be written with more bytes than necessary; byte j counts with its low seven bits shifted by 7j modulo 256, and bits from 2^64 on are dropped. A score is the first eight bytes. Every other string crashes the decoder, no string gives an error. What was decoded can be encoded, decodes to the same key, and is no longer than what was read.", "quantifier": "all strings of fewer than 2^60 bytes", "why_tests_cant": "Tests decode only what the encoder wrote.", "anchors": ["data/gencoder/gencoder.go:163-247", "data/gencoder/gencoder.go:317-351", "data/gencoder/gencoder.go:391-401", "data/datum.go:113-144"]}
{"id": "C162", "title": "A round of gossip costs a number of messages that is cubic in the size of the cluster", "statement": "A node that lists p peers sends at most p (p - 1) AddPeer requests in one synchronisation, whatever is listed: for every listed peer that is told (heard of less than 300 s ago and not the node itself), in the order of the list, exactly one about each listed record that does not contain the address used. In a cluster of n nodes that have different addresses and list each other, every node sends exactly (n - 1)(n - 2) of them, all nodes together n (n - 1)(n - 2) in every round. A round of joining sends one Join request for every service and for every listed address that is not the node's own, an address being asked once for every record it is listed in.", "quantifier": "all states of a node, all lists of peers, all times, all clusters", "why_tests_cant": "A test sees two or three nodes, where the numbers are at most six; the growth with the size of the cluster and the exact list of requests for every mixture of old, own and overlapping records are not observed.", "anchors": ["node/node.go:218-294", "node/node.go:92-106", "node/node.go:190-216", "node/nodeservice.go:245-267"]}
{"id": "C163", "title": "Exactly which time and which cache key each vector of a query may get", "statement": "A timeout of up to 2^49 ms is shortened to nine tenths of itself, rounded down to whole milliseconds. In a query of n vectors with a timeout of up to 2^63/10^6 ms, the time a vector's search gets is the timeout of the request shortened j times, for some j below n, and for every vector every such j is possible; the key under which its answer is cached is made of the vector and the request with the timeout shortened j times, again exactly for j below n. The timeout passed on to the sources once all vectors have been started is the one of the request shortened between once and n times, each possible. All vectors may get the whole time.", "quantifier": "all requests, all numbers of vectors, all interleavings of the goroutines", "why_tests_cant": "The times depend on how the goroutines interleave and the rounding on the timeout; a test sees one interleaving and a few timeouts.", "anchors": ["data/search.go:150-166", "data/search.go:254-266"]}
{"id": "C164", "title": "When an insert with replication can succeed, and when it is sure to", "statement": "Let an original insert go to a dataset that enforces replication and is below its target, and let g of its sources acknowledge whatever they are sent and b refuse. Asked in a given order, it succeeds exactly if the replication number is at most one plus the number of willing sources among the first six. The order being that of a Go map, it can succeed exactly if the replication number is at most 1 + min(g, 6), and succeeds for sure exactly if it is at most 1 + min(g, 6 - b), where 6 - b is 0 if b is greater; so six refusing sources can fail an insert that asks for two copies although any number of others would take one.", "quantifier": "all datasets, data, replication numbers, numbers of sources, and orders", "why_tests_cant": "The order of the sources is chosen at random by the runtime; a test with more than six sources passes or fails by chance, and the project's tests have fewer.", "anchors": ["data/insert.go:11-51", "data/data.go:239-253"]}
{"id": "C165", "title": "Which nodes a query consults in a large cluster, and when it is sure to find a datum", "statement": "In a cluster of any size in which every node has all the others as sources of the dataset, a query of which nothing is lost gets to at least seven nodes, or to all of them if there are fewer. No more is certain: for every set of at least seven nodes that contains the node asked there is an execution in which exactly these search. So a query is sure to search a node that holds a given datum exactly if the node asked holds it or at most six nodes do not (so a datum with h copies in a cluster of n nodes is found from everywhere for sure exactly if n is at most h + 6): in clusters of more than seven nodes a datum held by few of them may be missed although every request is answered. Whatever the sources of the nodes are, a query is sure to get to one of a set of holders exactly if every set of nodes that contains the node asked, and in which each node has as many of its sources as it asks (six, or all it has), contains a holder.", "quantifier": "all cluster sizes, all sets of nodes, all orders of events and all choices of sources", "why_tests_cant": "A test cluster has a handful of nodes, where the limit of six sources never shows; in a larger one the choice is that of map iteration and the loss appears at random.", "anchors": ["data/data.go:239-253", "data/search.go:193-199", "node/nodeservice.go:118-154"]}
{"id": "C166", "title": "A search by angle finds the data with the truly smallest angles up to a known error", "statement": "Let the vectors have at most n coordinates (n up to 2^19) of moderate size and not be zero. If one pair of vectors gets an angular score that is not worse than that of another pair, then its true cosine is not smaller by more than (24n + 119) / 2^24. So a search by AngularDistance returns, after any history, the live data with the largest true cosines to the query up to that error, and so does a query to the cluster over the data of all nodes it reaches. This needs of math.Acos only that it is monotone, stays between 0 and pi, and falls by as much as its argument grows, up to 2^-40.", "quantifier": "all vectors, histories, clocks, iteration orders, limits, filters and call trees", "why_tests_cant": "Rounding in the cosine, in the arc cosine, in the division by pi and in the subtraction from 1 can turn two scores around or make them equal; a test shows a handful of vectors.", "anchors": ["data/util.go:56-96", "data/search.go:111-149", "data/aggregator.go:38-97"]}
{"id": "C167", "title": "How many copies make what is acknowledged sure to be found and to survive, in a cluster of any size", "statement": "Take a cluster of n nodes, n as large as you like, in which every node has all the others as sources of the dataset. If a node acknowledges an insert into a dataset that enforces r copies, then at least one copy is left when fewer than r nodes are lost with all they have, whichever they are; and if n is at most r + 6, a query at any node, of which no message is lost, comes to a node with the datum whatever sources are drawn on the way, and so shows the key while it is alive, or as many results as were asked for, none of them worse. This is exact: if h nodes have a datum and n is greater than h + 6, a query at any other node may end without having come to any of the h. An insert asks at most six other nodes, so at most seven have the datum afterwards; hence with fourteen nodes or more no configuration makes sure that what is acknowledged is found. Members that have found each other by gossip form such a cluster.", "quantifier": "all clusters of any size, inserts with any losses, lost nodes, choices of sources, nodes asked, queries, iteration orders and clocks", "why_tests_cant": "Each node asks six sources drawn at random, so a query that misses all copies may need many draws to be seen; a test has few nodes and few draws.", "anchors": ["data/insert.go:11-51", "data/data.go:239-253", "data/search.go:160-298", "node/nodeservice.go:35-51", "node/nodeservice.go:118-154", "node/node.go:218-294"]}
{"id": "C168", "title": "What a query loses when messages are lost", "statement": "Take a cluster of at most seven nodes in which every node has all the others as sources, and a query asked at one of them, of which any requests between nodes may be lost. If it comes to r of the n nodes, at least r (n - r) requests have been lost; so with fewer than n - 1 lost requests every node is searched, and if only requests to dead nodes are lost, exactly the living ones are. This is exact: for each set of r nodes with the node asked, r (n - r) lost requests may leave just these. Answers are different: a node that answers stands for all nodes that it was the first to ask, so a single lost answer may hide any set of nodes that leaves out the node asked, even with every request delivered and every node searched. In any cluster the answer is exact over the data of the nodes whose answers get through, each handed on by the node that asked.", "quantifier": "all clusters (of at most seven nodes for the counts), orders of delivery, lost requests and answers, stores, queries, iteration orders and clocks", "why_tests_cant": "Which node is the first to ask another depends on timing, and a lost answer does harm that depends on it; a test cannot try all orders of delivery with all losses.", "anchors": ["node/datasourceclient.go:31-59", "data/search.go:160-241", "node/nodeservice.go:118-154", "data/data.go:239-253"]}
{"id": "C169", "title": "How many lost requests a cluster of any size bears", "statement": "Take a cluster of n nodes, n as large as you like, in which every node has all the others as sources, and let m be the smaller of 6 and n - 1. A query of which fewer than m requests between nodes are lost, and no answer, is searched at seven nodes at least, or at all of them if there are fewer; more generally, if it is searched at r nodes only, at least r (m + 1 - r) requests have been lost. So a datum that was acknowledged with r copies is found whoever is asked, while n is at most r + 6 and fewer than m requests are lost: the answer shows the key, or as many results as were asked for, none of them worse. With m lost requests this is no longer so: the node asked may be the only one searched.", "quantifier": "all clusters of any size, inserts, choices of sources, orders of delivery, lost requests, nodes asked, queries, iteration orders and clocks", "why_tests_cant": "The six sources are drawn at random at every node, and the bound is about the worst case over all draws, orders of delivery and choices of the lost requests.", "anchors": ["node/datasourceclient.go:31-59", "data/search.go:160-298", "node/nodeservice.go:118-154", "data/data.go:239-253", "data/insert.go:11-63"]}
{"id": "C170", "title": "Copies of a key come to agree once clients leave it alone", "statement": "Nodes of a dataset may hold different values of the same key, because clients inserted them at different nodes. Once clients neither insert nor delete the key any more, the synchronisation between the nodes makes them agree: no node comes to hold a value that was not already there, a node that acknowledges an offered datum holds that value afterwards, copies that agree go on agreeing, and in the end all nodes that hold the key hold the same value.", "quantifier": "all clusters, keys, values, times to live, statistics runs, offers, losses and interleavings", "why_tests_cant": "Whether the nodes agree depends on the order in which concurrent statistics runs of several nodes take, offer and acknowledge data; a test fixes one order and one pair of values.", "anchors": ["data/newsync.go:93-227", "data/newsync.go:27-63", "data/sync.go:7-36", "node/nodeservice.go:35-51", "data/insert.go:11-22"]}
{"id": "C171", "title": "A dataset forgets the answers of old queries", "statement": "A query is answered from memory only if the same query was asked within the cache duration before; an answer that nobody asks for during its cache duration is forgotten. So the number of answers that a dataset keeps in memory is bounded by the number of recent queries: if clients ask for cache durations of at most D seconds, then after the minute's clean-up at time p it keeps at most one answer for every query since p minus D seconds.", "quantifier": "all histories of queries, repetitions, cache durations, clean-ups and times", "why_tests_cant": "The bound is about all histories over arbitrarily long times; the durations that break it are 292 years, or depend on many repetitions of a query within its cache duration.", "anchors": ["data/search.go:160-183", "data/search.go:227-239", "data/data.go:88-89", "data/search.go:151-158"]}
{"id": "C172", "title": "How many query identifiers a node remembers", "statement": "A node remembers the identifiers of the searches it was asked so that it answers each of them once. This memory does not grow with the age of the node: after the minute's clean-up at time p it holds at most one identifier for every search with an identifier since five minutes before p, whatever the node has been asked before and whatever else it is asked; searches that are repeated or have no identifier add nothing.", "quantifier": "all sequences of requests and background tasks, identifiers, clean-ups and times", "why_tests_cant": "The bound is about arbitrarily long histories; a test sees a node for seconds, and entries live for minutes.", "anchors": ["node/nodeservice.go:118-154", "node/node.go:59-62"]}
{"id": "C173", "title": "Replicas that are left to themselves come to hold the same data", "statement": "Two nodes that name each other as the source of a dataset without a size target, and that are left alone (no client changes, nothing expires, the statistics they tell each other are true), come to hold the same data: what one of them has, the other one gets, and neither loses anything.", "quantifier": "all clusters, datasets, statistics runs, background deliveries (also lost ones) and orders of them", "why_tests_cant": "Whether a datum is ever offered is decided by comparing statistics of whole datasets, not the data; data sets of a test are small and different enough to be exchanged, and a test cannot wait for never.", "anchors": ["data/newsync.go:93-227", "data/data.go:170-195", "data/sync.go:7-36", "node/nodeservice.go:35-51"]}
{"id": "C174", "title": "The answer to a query does not depend on who answers first", "statement": "Asking the same query twice while the nodes hold the same data gives the same answer, in whatever order and pace the results arrive, and however many nodes hold a copy of each datum: rank by rank the scores are the same, and if different data have different scores the same data are listed in the same order.", "quantifier": "all result sequences, numbers of copies, arrival orders, interleavings of the workers, sort implementations, limits and result limits", "why_tests_cant": "The order of arrival is chosen by the network and the scheduler; a test that compares two runs sees two of all orders, and small answers that fit the limit hide the difference.", "anchors": ["data/aggregator.go:39-153", "data/search.go:160-298"]}
{"id": "C175", "title": "Repeating an insert or a delete whose answer was lost is harmless", "statement": "A client that does not get an answer to an insert may send it again: compared with not repeating it, nothing that would be listed is missing, no key is listed twice, at most the inserted datum is listed in addition and only before the end of the time asked for by the repetition, and the datum is listed until ten seconds before that end; without a time to live the repetition changes nothing at all. Repeating a delete changes nothing either.", "quantifier": "all histories of calls before the insert and between the insert and its repetition, all data, times to live, clock readings and scan orders", "why_tests_cant": "Whether a repetition is harmless depends on every call that other clients make in between and on the ten-second comparison of deadlines; a test tries a few interleavings and delays.", "anchors": ["data/newsync.go:22-91", "data/insert.go:11-51"]}
{"id": "C176", "title": "Concurrent inserts and deletes act one after the other", "statement": "While any number of inserts, deletes and scans of a dataset run concurrently and nothing expires, the inserts and deletes behave as if they were done one after the other: there is one order in which every call that has returned acts exactly once, at a moment between its beginning and its end, so that a call that returned before another began acts before it; and at every moment each key holds the value of the last insert that acted on it, with a deadline less than ten seconds away from the one asked for, or nothing if a delete acted last. A scan reports, for each key, what the effects up to some moment between its beginning and its end have left, and it reports every key that is there at all these moments.", "quantifier": "every interleaving of the atomic steps of any number of inserts, deletes and scans, from any store", "why_tests_cant": "Linearizability speaks about all interleavings; a test observes the few the scheduler happens to choose.", "anchors": ["data/newsync.go:27-91"]}
{"id": "C177", "title": "A search while the dataset is written to", "statement": "A local search that runs while any number of inserts, deletes and other scans are under way, and nothing expires, returns at most as many results as asked for, best first, each key at most once, and each with its true score and passing the filters; every result was in the dataset, with that value, at some moment of the search; and a matching datum that was there throughout the search is among the results unless the answer is full and no result is worse than it. In particular, if nobody else touches a key, a search that begins after an insert of it returned finds the inserted datum (or a full answer with none worse), and one that begins after a delete of it returned does not find it, whatever is done to other keys meanwhile.", "quantifier": "every interleaving, every store, query, score function without NaN on the visited data, filter and limit from 1 to 2^32-1", "why_tests_cant": "A test sees a few schedules, and cannot decide whether a missing or surprising result was justified by what was in the dataset during the search.", "anchors": ["data/search.go:346-377", "data/newsync.go:74-91"]}
{"id": "C178", "title": "The statistics of a dataset that is being written to", "statement": "When the periodic run computes a dataset's statistics while inserts and deletes are under way, and nothing expires, the reported number of elements counts no key twice, counts only keys that were in the dataset at some moment of the scan, and counts every key that was there throughout, so it is at least the number of those; the reported largest distance is not NaN, is zero or the distance of one of the counted keys, and no counted key is further away; and what such a run offers to other nodes was in the dataset at some moment of the scan, has more than ten seconds left, is offered once per key, and, unless the dataset is being closed, is at most as much as the quotas add up to. A dataset that is being closed offers every key that was there throughout and of which the entry read has more than ten seconds left.", "quantifier": "every interleaving of the atomic steps of any number of inserts, deletes and scans, from any store, any previous statistics", "why_tests_cant": "Which of the keys written during a scan are counted depends on the schedule; a test sees one schedule at a time and has no independent account of what was there when.", "anchors": ["data/newsync.go:137-202", "data/newsync.go:74-91"]}
{"id": "C179", "title": "An approximate index built while the dataset is written to", "statement": "When the periodic run builds a dataset's approximate index while inserts and deletes are under way, nothing expires and the vectors visited have one length, building succeeds; the index lists no key twice; everything it lists was in the dataset, with that value, at some moment of the scan; a key that was there throughout is listed unless more was visited than the list can hold (the larger of 1000 and the previous count); and every later approximate search answered from this index returns only data that were there at some moment of that scan.", "quantifier": "every interleaving of the atomic steps of any number of inserts, deletes and scans, from any store; every outcome of the random splits; every later search", "why_tests_cant": "What an index built under concurrent writes contains depends on the schedule; a test has no independent account of what was in the dataset when.", "anchors": ["data/newsync.go:137-222", "data/newsync.go:74-91", "data/search.go:301-344"]}
{"id": "C180", "title": "A scan is a snapshot", "statement": "What a scan of a dataset (a download, a search, a statistics run) reads while inserts and deletes are under way is exactly what the dataset held at one moment of the scan.", "quantifier": "every interleaving of the atomic steps of any number of inserts, deletes and scans, from any store", "why_tests_cant": "Torn reads need two writes to different keys at particular moments of a scan; tests rarely produce them and cannot exclude them.", "anchors": ["data/newsync.go:27-91", "data/newsync.go:229-237"]}
{"id": "C181", "title": "Reads go forward", "statement": "If one scan of a dataset (a download, a search, a statistics run) begins after another has ended, while inserts and deletes run and nothing expires, there is one order of the inserts and deletes in which everything the second scan reads is explained by a moment not before any moment that explains what the first one read; in particular a value that the first scan reported, that was not there at the beginning and whose key only one call writes, is reported by the second scan, with no other value.", "quantifier": "every interleaving of the atomic steps of any number of inserts, deletes and scans, from any store", "why_tests_cant": "Going back in time would need a rare schedule, and a test has no independent account of the order of concurrent writes.", "anchors": ["data/newsync.go:27-91", "data/newsync.go:229-237"]}
