{
 "C01": "Encoder modelled on an indexed buffer; decoder for a fresh struct. Lengths bounded by what Go can allocate (2^46 floats, 2^48 label bytes).",
 "C02": "Injectivity and prefix-freeness of key encodings.",
 "C03": "Value, whole-datum and score round trips; injectivity of values.",
 "C04": "Size functions are exact and no write is out of range.",
 "C05": "False as stated (C05_truncation_refuted): a value cut inside its label is accepted with zero bytes, a cut key panics instead of returning an error. Proved: a cut key never yields a key; exact outcome for a cut value.",
 "C06": "False as stated (C06_new_datum_refuted): Size2 receives size1. Proved for all other fields.",
 "C07": "All histories of inserts, deletes and scans with a monotone clock, from an empty store; scan order arbitrary. Hypothesis: expiry times fit in an int64 (see C11).",
 "C08": "Insert, delete and scan frame conditions for arbitrary store contents.",
 "C09": "Exact multiset characterisation of what a scan yields, for every content, order and clock readings.",
 "C10": "False as stated (C10_ttl_exact_refuted): re-inserts within 9 s of an old expiry are acknowledged and dropped. Proved: the window up to nine seconds for all histories, and the exact window for keys without an earlier entry.",
 "C11": "False as stated: a TTL that leaves the clock's range vanishes at once (C11_ttl_monotone_refuted), and in a history with a second insert a larger first TTL can make the datum disappear up to nine seconds earlier (C11_history_refuted). Proved for expiry times in range: one insert with a larger TTL after any calls never shortens anything (C11_insert_partial), and in any two histories the loss is at most nine seconds (C11_history_partial).",
 "C17": "False as stated (C17_lost_insert_refuted): a scan that saw the expired entry deletes the freshly stored one. Proved for every interleaving when no entry of the key expires during the run.",
 "C12": "Admission rule proved; the bound on the number of stored data is false (C12_target_bound_refuted): the count is only refreshed by statistics runs.",
 "C13": "Every source behaviour and iteration order; the datum reaches ReplicationOnInsert-1 distinct acknowledging sources.",
 "C14": "Cluster of arbitrary nodes, arbitrary source graph, lossy links; no fuel beyond nesting two is ever needed. What the background synchronisation hands over is executed at most once, at the receiver.",
 "C15": "False as stated (C15_failed_insert_refuted): a replication failure leaves the datum stored. Proved for all other errors, and that only the inserted key can differ.",
 "C16": "False as stated (C16_malformed_insert_refuted): missing datum or key crashes; missing value is accepted and makes the next insert of the key crash. Proved: complete requests never crash when the stored datum of the key is complete.",
 "C18": "Every sort routine meeting the sort.Slice contract, every iteration order; also stated after any history of inserts and deletes.",
 "C19": "False as stated (C19_limit_zero_refuted: limit 0 panics; C19_nan_refuted: a NaN that comes first hides a perfect match). Proved: with limit >= 1 no scores crash it and min(k, matches) matching data are returned.",
 "C20": "Plain queries (no search context). Every arrival order; ties may be resolved either way.",
 "C21": "False as stated (C21_merge_lower_refuted): IsNewScoredBetter compares the wrong way round for lower-is-better. Proved: exact while no more than limit distinct keys arrive, hence for a node that asks nobody else.",
 "C22": "False as stated (C22_duplicates_refuted): a key that returns with a greater score is listed twice. Proved when no key returns with a greater score than before.",
 "C23": "Arbitrary finite call trees, arrival orders and sort routines, higher is better; answers exist (no crash).",
 "C24": "Plain queries. Labels, counts, group sums and, for higher-is-better, exactness of the members kept and of the groups chosen.",
 "C25": "False as stated (C25_huge_result_limit_refuted): result limits of 2^63 and more panic. Proved below 2^63.",
 "C26": "JSON path matcher (gjson) is an arbitrary function.",
 "C27": "Bit-exact IEEE arithmetic; math32.Pow(x,2) assumed to be even and exact at zero (pow2_ok), math.Acos arbitrary.",
 "C28": "Every interleaving of any number of producers, waiter, consumer and timer; also that the search always ends. Linked to the call trees of C23 by C28_fan_in_answers.",
 "C29": "False as stated (C29_leak_refuted: after a timeout with more than 100 pending results a source goroutine blocks for good). Proved: nothing remains when all sources finished, nor when at most 100 results are pending.",
 "C35": "False as stated (C35_datastream_refuted, C35_concurrent_send_refuted). Proved: at most one datum is missing, none is duplicated, and none is missing if the background goroutine is idle at return.",
 "C30": "Proved over all histories of lookups, executions, extensions, purges and writes through handed-out pointers. Heap cells are ScoredDatum structs; the Datum they point to is never written by the code and not a cell. encoding/json is modelled (Model/Json.v); strings are valid UTF-8, as protobuf guarantees.",
 "C31": "False as stated: hits extend the lifetime (C31_fresh_refuted, for both readings of the fork's IncrementExpiration) and a timed-out search is cached (C31_complete_refuted). Proved: age at most (hits+1) times the duration. Missing: nothing else holds of completeness.",
 "C32": "The timeout strictly shrinks for every 64-bit value (float64 rounding done in SpecFloat). The consequence 'the chain is finite even without duplicate detection' is false: timeout 0 is forwarded (C32_chain_refuted).",
 "C33": "Any graph, any delivery order, losses; valid while the uuid is in the caches (5 minutes). Responses and channels are in C28.",
 "C34": "False: missing config, missing key, limit 0, resultLimit >= 2^63 or a context datum without key crash the node (refuted theorems). Proved for complete requests, with any results arriving in any order and any part cut off by timers; the Annoy index and remote answers are arbitrary lists of data with keys.",
 "C67": "Refuted: in every run a node other than the origin executes at most one vector (C67_one_vector_only).",
 "C36": "True for creates one after the other, in any history (C36_create_partial, C36_version_monotone_partial). False for interleavings: check and write are separate, a lower version can overwrite a higher one (C36_race_refuted). Proved for every interleaving: the configuration is the first one or one asked for with a higher version than the first, and the data is kept. The effect of IncrementExpiration and of Data.Close on an object are arbitrary functions (the latter keeps Config).",
 "C37": "Any history of Get, GetNoOp, CreateIfNotExists, GetOrCreateIfNotExists, Delete, expiry and operations on the objects; operations of the registry are atomic here (interleaved creates are C36).",
 "C43": "False: '..', '' and names with slashes escape, contain each other or coincide (refuted). Proved for all names that are one ordinary path component and every root path. path.Clean is modelled by components; symbolic links are left out.",
 "C44": "False above 9223372036 s: int64 overflow (18446744074 s gives 0.29 s; 9223372037 s gives a negative duration, i.e. never expires). Proved up to there, including the lifetime of an untouched dataset.",
 "C45": "False twice: an unreachable source crashes ReloadRuns (nil DataInfo), and a dataset with data whose N was not computed yet is removed. Proved when every source answers and N > 0 whenever there is data.",
 "C64": "False: Run checks and increments Runs in two operations, so any number of calls can be active at once (C64_many_refuted). Proved: Runs always counts the active runs; at most one is active if no call checks while another is between check and add. C64_look_partial: in the full model of a dataset with its requests, a task that looks while one is under way goes away and one that looks while none is goes on.",
 "C65": "False: replicationOnInsert, enforceReplicationOnInsert and retention are never filled in (C65_settings_refuted). Proved for name, version and targets.",
 "C38": "Proved when nothing else runs during the load: exactly the same names come back, with equal configurations (-0 comes back as +0), for all valid UTF-8 names, all integers and finite utilizations, assuming strconv's round trip for floats (float_roundtrip; an instance is given). LoadIndex itself starts SaveIndex goroutines that truncate the file being read: false for an index over 4096 bytes (C38_large_refuted, forty default datasets, ten lost for good); for at most 4096 bytes every name comes back under every schedule (C38_small_partial, assuming IncrementExpiration does not expire a live item).",
 "C39": "For every byte prefix: the first j datasets written come back, with their configurations, and nothing else. Load and save each run alone.",
 "C40": "False: O_TRUNC empties the file before anything is written. Proved: the load gives all datasets saved before, or the first j of those being saved, all of them if the text is complete.",
 "C41": "False for texts over 4096 bytes: two savers produce a line that parses as a configuration that never existed (C41_mangled_refuted). Proved for texts of at most 4096 bytes, every interleaving, any number of savers.",
 "C42": "False: data is only in memory. Proved: whatever the file, the datasets created by a load are initialised and empty; their configurations are C38.",
 "C68": "False: a saver that collected before a creation may truncate and write last. Proved for texts of at most 4096 bytes: at least one saver's whole text is in the final file.",
 "C69": "False: a SaveIndex (also Close and DataConfigList) that walked the list before the deletion calls Get, which creates the dataset again. Proved for every history without an event about that name.",
 "C46": "Proved: a background step that removes an entry either found it expired or follows an acknowledgement of a datum with that key; if the key's value does not change, of that very datum. Refuted as stated: a value stored between the acknowledgement and the deletion is deleted unacknowledged.",
 "C47": "Proved for one undisturbed run whose reported count is not above the stored number, and, in any environment, that one sender removes at most N + 1 - level data. Refuted with an outdated count and with overlapping runs (senders outlive Process).",
 "C48": "Proved when hand-overs of the key do not overlap (any number of nodes, lost messages, any interleaving otherwise). Refuted: two nodes that offer the same datum to each other both delete it; also a hand-over overwrites a different value.",
 "C49": "Proved: quota bounds, at most six sources, total at most 6000, streamed data and offers at most the total, removals per source at most its quota. Refuted for offers to one source: without eviction countMap is never increased.",
 "C50": "Refuted: data without TTL is never offered (proved for all executions). Proved for data with more than 10 seconds to live when draws and quota allow.",
 "C51": "Proved: when the loop ends, every datum was acknowledged or expired, if the reported count was not zero. Refuted: the loop never ends with a datum without TTL; with a reported count of zero nothing is handed over.",
 "C52": "Proved: count, largest distance, histogram, and the mean when the previous count equals the number of live data of one dimension. Refuted: in the first run the reported average is the sum.",
 "C53": "Proved for all interleavings: every listed record was received and recent when stored. Monotone timestamps proved for calls that do not overlap (while the record is visible), refuted for overlapping calls. Never listed under its own id proved while no address is learned; refuted once the node learns an address and its own older record comes back.",
 "C54": "Proved for non-empty addresses without commas. Refuted: a comma inside an address, and an empty address against none.",
 "C55": "Advertised list proved in full. Contact address proved when the peer has no empty address; refuted with an empty address, which sorts first and hides usable ones.",
 "C56": "Refusal of inserts after Close proved for all interleavings, and that no request changes a draining node. Readiness proved unless SyncWithPeers finishes after Close; refuted in general: it sets the ready flag again. C56_refused_always: over any sequence of requests after Close, every Insert is refused.",
 "C57": "Status codes proved. Refuted: the content type is set after the headers are sent, and the unhealthy body says alive.",
 "C66": "Echo proved for host:port; refuted for an address without host. The list a node advertises is duplicate-free in every interleaving; the list of known ids only for joins that do not overlap (refuted otherwise).",
 "C70": "Proved for messages that carry a peer. Refuted: a record without addresses followed by a message without peer dereferences nil.",
 "C71": "Proved for non-empty addresses without commas. Refuted: IPv6 literals get no port; a trailing comma yields an address without host.",
 "C58": "Proved for all interleavings of goroutines, evictions, garbage collections and state changes.",
 "C59": "Proved: at most 21 users plus the number of hand-backs; nothing is closed when connections are ready at every hand-back and no pool is evicted. Refuted: sharing is unbounded over time (for every n); a hand-back in a state other than ready, or an eviction, closes a connection in use.",
 "C72": "Proved for every interleaving: an open connection that is in no pool and in nobody's hands was dropped from a pool by the garbage collector (C72_dropped_partial; without evictions and drops none is lost: C72_not_lost_partial). Refuted: a garbage collection drops pooled connections without closing them; and without any garbage collection, connections given back while their pool is evicted end up open in the evicted pool (C72_late_refuted).",
 "C60": "Proved for arbitrary split outcomes, under the contract that a split with an empty side counts as unbalanced.",
 "C61": "Validity proved for any queue order. Order and exactness proved for distances that are numbers. Refuted for NaN distances: an overflowing dot product makes the item come first. C148 gives sizes of vectors for which all distances are numbers.",
 "C62": "Soundness and fallback proved. Completeness proved for an unchanged store and a budget covering all trees (or one leaf). Refuted: fewer results than matches (the limit is used as search budget); filters applied after choosing candidates; deleted data still returned.",
 "C63": "Proved for all generator states.",
 "C73": "Proved for datasets of one vector length and queries at least as long. Refuted: vectors of different lengths are accepted and the build reads beyond the shorter one; so does a short query.",
 "C74": "Proved without restarts when all addresses lead to the node they are about, and with restarts when nothing is learned from replies. Refuted: after a restart a node's old record comes back and becomes its own source; a 127.0.0.1 address learned from a node on the same machine makes a node on another machine its own source.",
 "C75": "Proved for well-formed addresses (not empty, no comma) and clocks that do not wrap.",
 "C76": "Proved for windows of less than 300 s, disjoint non-empty address lists, and an IncrementExpiration that does not shorten the expiry.",
 "C77": "Proved when no address is learned from replies. Refuted: a node that learns an address between two joins becomes two sources, so one node can count twice as a replica.",
 "C78": "Proved: the report is complete exactly when every listed dataset is still registered, not expired and initialised at its turn; otherwise the node crashes. Refuted: deletion, expiry or creation of a dataset during the report is a nil dereference.",
 "C79": "Proved for ends by signal or kill, and for files outside the folder in every case. Refuted: when Listen returns (port in use), the deferred RemoveAll removes the folder with everything in it.",
 "C80": "Proved when all matching data fit into limit and resultLimit. Refuted: data cut off before grouping hide groups.",
 "C81": "Proved for groupLimit 1, higher is better, when everything fits, no score -0; an answer exists for any grouped query. Refuted: the sums that sources return for a group are summed again.",
 "C82": "Proved for one vector without overflow. Refuted: each goroutine shrinks the timeout the others read; a huge timeout becomes no time.",
 "C83": "Proved for one vector. Refuted for two: the key contains the shared timeout, which depends on the order.",
 "C84": "Proved for clusters in which every source is a different node and none is the node itself. Refuted: a node listed under two addresses counts twice.",
 "C85": "Symmetry and the zero vector proved. The range is refuted: neither function clamps, and rounding gives results above 1, e.g. (1,1,1) with itself.",
 "C86": "Proved: it is never missing for a whole period, and it is there for ten minutes after it was really added. Refuted in general: adding a source that is there does not renew it, so it is missing from its expiry until the next round.",
 "C87": "Through insert handler, store, local search, forwarding and merging; the key may be reported with an older value (C88).",
 "C88": "Proved when no reached node holds another value of the key. Refuted: replicas go to a random choice of nodes, an old copy elsewhere is never replaced, and of two copies the one that arrives first is reported.",
 "C89": "Proved for requests without uuid. Refuted with uuid: it is recorded before the dataset is looked up, so the retry is answered with nothing and no error.",
 "C90": "Proved: configured services stay, also after a restart; a learned service that no peer mentions any more is gone after its life time. Refuted: two nodes renew each other's learned services for ever, although it is configured nowhere.",
 "C91": "Proved for the first call: it returns after at most one more run, and nothing runs afterwards. Refuted for a second call: nobody receives from the channel, it blocks for ever.",
 "C92": "Proved if the reported count is not zero, or the dataset is not closed during the scan. Refuted: with a reported count of zero no sender is started; a Close during the scan makes it send everything, and it blocks for ever once the channel is full.",
 "C93": "Proved: at most one, and no file of others is touched. Refuted after Close: the file of the last index is never removed.",
 "C94": "Proved after any history of C48 if no node gives the key away between the first and the last look of the query. Refuted otherwise: the query looks at the receiver before the hand-over and at the giver after it.",
 "C95": "C95_insert: one request on any store; C95_history: any sequence of requests into a new dataset.",
 "C96": "C96_local_search gives the equivalence and that no error is returned.",
 "C97": "C97_merge and C97_group_merge: the same condition for ungrouped and grouped merges.",
 "C98": "C98_handler; results delivered by index and sources are assumed to have keys (C97 says what happens otherwise).",
 "C99": "False: saving the index and listing the configurations (both done by the periodic task) renew every dataset (C99_outlives_refuted: for every time T there is a history of rounds only, after which the dataset exists at T; C99_renewed_partial: in every history of other calls with rounds closer than the retention the dataset stays, with configuration and data). C99_idle_partial: calls about other datasets alone do not change how long a dataset exists; with C44 this is the stated retention. Assumes that IncrementExpiration, whose source is not in the repository, prolongs by the given duration.",
 "C100": "False: a dataset that has expired but has not been removed yet is replaced by the next call that names it, and the replaced one is never closed, whatever happens later (C100_replaced_refuted). C100_closed_partial: in every history in which no expired dataset is named before it is removed, every dataset without a name has been closed.",
 "C101": "C101_shutdown. Datasets that have expired but have not been removed are not closed. Assumes that prolonging an expiration does not make a dataset disappear.",
 "C102": "Exact ranges of the durations of C10 and C11, and the exact life of a datum with a TTL.",
 "C103": "Exact form of C05 for values; truncated keys are always refused (C05_truncated_key_partial).",
 "C104": "Exact form of C45.",
 "C105": "Exact form of C73.",
 "C106": "Exact form of C21 and C22 in both directions of the order, with contexts.",
 "C107": "False if lower is better: the greatest (worst) distance is taken (C107_lower_refuted). Proved: always the greatest offered score, which is the best one if higher is better.",
 "C108": "False: the remaining lifetime is sent, not the date, so the time a datum waits between scan and arrival is added to its life (witness: 100 seconds to live, inserted at 1000, found alive at another node until 3100). Proved: every copy expires between the date of the first insert and the date of the last plus the sum of the waiting times; with prompt delivery exactly on the date.",
 "C109": "False if the clock of the node that is gone is ahead: the age check uses the timestamp in the record, so the others keep telling each other about it (witness: listed 40 minutes after its only join). Proved: both statements with the time of the last join read on the clock of the node that sent it, for all executions.",
 "C110": "False for equal versions: two nodes configured with the same version disagree for ever, shown for every continuation; so does a node that was asked for the dataset before a client configured it without a version (the default has version 0 too). Proved: a configuration whose version is positive and higher than all others asked for is held by every node it reaches for as long as that has the dataset; and a node gives up a configuration only for a higher version.",
 "C111": "Calls of one node one after the other (races of create calls are C36).",
 "C112": "Two theorems: C112_real about any answer (any part of what was sent may be missing, caches may answer with the result of an earlier search with the same key) and C112_inserted for answers during any execution of the cluster model.",
 "C113": "False as stated (C113_uuid_refuted): the uuids of searches are remembered for all datasets together, so a search of another dataset with the same uuid makes a search return nothing. Proved for histories in which no uuid used for the dataset is used for another one: the answers and the dataset are those of a node that gets only the requests about it. Requests are handled one after the other; a request that crashes the node ends the history.",
 "C114": "Both directions, for every request and housekeeping step. So a peer or a dashboard that polls a removed dataset brings it back, empty and with the default configuration (C114_instance).",
 "C115": "False as stated (C115_report_refuted): the status report reads the sources of every listed dataset and crashes when one has not been set up yet. Proved: inserts, searches, additions of sources, removals and housekeeping never crash at whatever moment they come (C115_safe_partial), nothing crashes any more once the list of sources exists (C115_later_partial), one background task is started (C115_once_partial), sources and answers are kept (C115_kept_partial), and whatever is kept was brought by an earlier search or addition (C115_brought_partial, C115_sources_partial). Memory is sequentially consistent and the expiry of cache entries is left out.",
 "C116": "False as stated (C116_revived_refuted): a dataset closed before its creator has set it up is brought back to life by the creator, and its task runs for ever though nothing lists it. Proved for datasets that are set up when they are closed: they stay closed whatever comes, no task begins another statistics run, and a task that looks ends (C116_stops_partial). A run in progress is finished first (see C92 for when that does not happen). C116_ends_partial: nothing else has to happen for such a task to end. C116_at_once_partial: while there are no data or no sources, closing computes and sends nothing.",
 "C117": "Complete for the requests of Model/Requests.v handled one after the other: C117_crash is an equivalence. Assumed: sizes that fit into memory and answers of index and sources with keys (sound_event). Crashes that need several goroutines at once are C28, C78, C115.",
 "C118": "False in one part: a configured service with the node's own address is asked as well (C118_self_refuted). Proved: C118_asked_partial gives exactly the addresses asked; C118_known_partial shows that any receiver with another identity lists the sender afterwards with a record at least as new as the request. Assumed: the expiry computed by the cache library is not in the past.",
 "C119": "C119_refresh gives the exact condition and the effects of both cases, C119_age the bounds. Assumed: sizes and times below 2^63.",
 "C120": "False as stated: a last line without newline is ignored (C120_unended_refuted), an object spread over several lines is ignored (C120_layout_refuted), a line with null makes a dataset without name (C120_null_refuted). Proved: the reader accepts exactly the RFC 8259 texts with their meaning (C120_text_partial), a line makes a dataset exactly if it describes one (C120_line_partial), and the loaded datasets are exactly the described ones, of each name the first with the highest version (C120_load_partial). encoding/json itself is modelled, not part of the repository; names are compared ignoring the case of ASCII letters only.",
 "C121": "False as stated: services, port and folder are taken from flags only (C121_ignored_refuted), a port above 2^32 is reduced silently while the one given is advertised (C121_port_refuted), and a variable CONFIG hides VERICONFIG (C121_variable_refuted). Proved: which file is read and when the process gives up (C121_file_partial), where the broadcast addresses come from (C121_broadcast_partial), and that the other settings are those of the flags (C121_flags_partial). cobra and viper are modelled by their documented order of precedence.",
 "C122": "Proved for sequentially consistent memory (the test before the read lock is a data race in the Go memory model). What an index answers is C60-C62, its files are C93.",
 "C123": "Exact form of C10 and C11 without their assumptions about the clock and the TTL; calls one after the other (C75 and others treat concurrent ones).",
 "C124": "Exact form of C29.",
 "C125": "Exact form of C43. Symbolic links are left out; path.Join and os.RemoveAll are library functions (trusted base).",
 "C126": "Exact form of C17 (sequentially consistent sync.Map).",
 "C127": "The routing of gorilla/mux 1.7.2 is modelled from its documentation (trusted base). Bodies and content types are C57.",
 "C128": "Requests one after the other; the losses of the stream itself under concurrency are C35 and C92. The nine seconds are those of C10. That tasks and searches take away only expired data is what C08, C09 and the models of Sync and Search show.",
 "C129": "An exact characterisation. Errors count as well as answers (C89).",
 "C130": "False below a hundred data (C130_small_refuted): such a dataset sends a datum to every source that agrees in every run, for ever. Proved from a hundred data on (C130_settled_partial, over any interleaving), and exactly what is granted in whole numbers (C130_exact_partial), for less than 2^53 data. It shows that the case called 'small or negative' in the code is not reached for sources with more data: they count as having a surplus of a thousand.",
 "C131": "Bound and attainment both proved (C131_bounded, C131_attained), for runs in which no identifier expires, as the statement says.",
 "C132": "The run after the inserts (C132_then) is the first one of the dataset, of data without a time to live, fewer than 2^63.",
 "C133": "Both halves proved for all executions of the cluster model (C133_origin, C133_stays); the announcement itself is not authenticated: the model contains only nodes that run this program.",
 "C134": "Proved as relations between two searches (C134_more, C134_order); the excluded cases (NaN scores, limit zero) are those refuted at C18 and C19.",
 "C135": "Equivalence proved (C135_exact) with the latest moment at which the loop ends (C135_latest). Inserts that arrive while the dataset is being closed are excluded.",
 "C136": "Equivalence: soundness for every interleaving and an interleaving for every outcome (C136_winner). It sharpens C36, whose monotonicity is false for overlapping calls.",
 "C137": "Equivalence (C137_exact) and, for each moment of closing, what every resting point is (C137_moment). It sharpens C92.",
 "C138": "Equivalences; soundness for every schedule and a schedule for every outcome (C138_finished, C138_timed_out).",
 "C139": "Equivalences (C139_delivered, C139_missing); the second one for data that are pairwise different.",
 "C140": "Exact value of every coordinate (C140_average, C140_longest), and when it is the mean (C140_second). Complements C52, whose claim about the mean is false.",
 "C141": "Upper bound for every interleaving (C141_bound) and a run that reaches it for every n (C141_reached).",
 "C142": "Range and order for every arc cosine that meets acos_ok (C142_range, C142_order), the three end values (C142_ends). Uses that rounding to nearest never reverses an order (Proof/MonoP.v).",
 "C143": "For every math32.Pow(x,2) that never decreases with the size of x (pow2_grows); the multiplication x*x is shown to be one.",
 "C144": "Within the scale (C144_order_partial), beyond it as long as 64 d / M is below 2^63 (C144_beyond_partial), and for the histogram a run reports (C144_histogram_partial). Refuted farther beyond, where the conversion to int is implementation-defined: on amd64 a datum at 2^60 times the scale is counted in the lowest bucket (C144_order_refuted).",
 "C145": "For targets up to 2^53 (C145_level_partial, C145_room_partial). Refuted for larger targets, where the product rounds up beyond the target (C145_level_refuted), and for a utilization above 1, which nothing rejects: the dataset then refuses inserts and keeps all it hands over (C145_room_refuted).",
 "C146": "C146_product, C146_quick, C146_distance, C146_order, C146_cosine, C146_nearest. Assumption on the library: math32.Pow(x, 2) is exact if the square is a float32.",
 "C147": "C147_live, C147_origin, C147_gone; the converse (what is there all the time is reported) is C17.",
 "C148": "C148_number, C148_ordered, C148_exact, C148_itself, C148_found. This bounds the NaN case that refutes C61.",
 "C149": "C149_quick, C149_distance, C149_quick_order, C149_distance_order, C149_quick_search, C149_distance_search. For VectorDistance math32.Pow(x, 2) is taken to be the correctly rounded square.",
 "C150": "C150_quick, C150_distance, C150_cosine; C150_other_length, C150_tiny_difference and C150_other_direction show with concrete data why the conditions are there. For VectorDistance math32.Pow(x, 2) is taken to be the correctly rounded square.",
 "C151": "C151_product, C151_cosine, C151_product_order, C151_cosine_order, C151_product_search, C151_cosine_search. True values are exact integers in units of 2^-298; the product of the lengths is the integer square root, at least 2^218 units, so its own rounding does not show.",
 "C152": "C152_average, C152_mean. True sums are exact integers in units of 2^-149.",
 "C153": "C153_product, C153_cosine.",
 "C154": "C154_grouped. It has no condition that everything fits, unlike C80.",
 "C155": "C155_reaches, C155_ends, C155_exact; C155_seventh is the case of more than six sources. Contents, clocks and sources are taken as fixed during the query. The steps are steps of the general spreading model (step_erases), so C33 and C131 apply to them too.",
 "C156": "C156_sources, C156_one; C156_eight is the case of eight or more. Builds on C76 (membership) and C155 (queries). A source lives for ten minutes (data/data.go 88), longer than the window, so no source expires in it.",
 "C157": "C157_copies and C157_found; they join C156 with the model of inserts in a cluster (C13, C84, C87). The sources of the dataset and what they lead to are those of the membership protocol.",
 "C158": "C158_crash, C158_two_messages, C158_enough. Sharpens C70.",
 "C159": "C159_fits, C159_one. Sharpens C21 and C106 for whole clusters; uses C155.",
 "C160": "C160_deleted_partial (deleted at all nodes that store it, no statistics run has it to offer), C160_away_partial and C160_answers_partial (what is nowhere stays away, also from answers). Missing because false: with a statistics run under way the deleted datum is offered to another node and comes back (C160_offered_refuted); a deletion at one node is undone by a replica (C160_replica_refuted).",
 "C161": "C161_key, C161_value, C161_score, C161_again; lengths up to 2^48 bytes are taken to be allocatable (DESIGN.md). Extends C05 and C103 from truncated encodings to all strings.",
 "C162": "C162_bounded, C162_exactly, C162_mesh, C162_cluster, C162_joins: full. Spec in Spec/ChatterSpec.v (told, lists_others, own_places). Iteration orders of the inner loops are taken to be that of the outer one, which does not influence numbers.",
 "C163": "C163_shrink, C163_time, C163_key, C163_passed_on, C163_all_of_it: full, sharpening C32, C82 and C83. Reads and writes of the shared timeout are taken to be atomic (Model/SharedConfig.v).",
 "C164": "C164_order, C164_possible, C164_sure: full, completing C13. Sources are taken to be steady: each acknowledges all or none of what this insert sends it.",
 "C165": "C165_at_least, C165_any, C165_sure, C165_everywhere (everybody a source of everybody) and C165_any_cluster (any sources): full, extending C155 beyond six sources. Executions without losses, as in Model/Spread.v.",
 "C166": "C166_order, C166_search, C166_cluster: full, carrying C151 and C153 over to AngularDistance. The assumptions on math.Acos (acos_ok, acos_steep) are stated for float64 arguments in [-1, 1]; line_ok shows a function that meets them.",
 "C167": "C167_reached, C167_found, C167_survives, C167_missed, C167_fourteen, C167_formed: full, from C84, C157 and C165. A query is one of which no message is lost (C131, C155); lost nodes are lost after the acknowledgement.",
 "C168": "C168_requests, C168_few, C168_dead, C168_enough, C168_hidden, C168_answer, C168_all_heard: full. A lost answer is one that comes after the time limit or not at all; answers cut off halfway are not part of it.",
 "C169": "C169_requests, C169_seven, C169_reached, C169_found, C169_alone: full, with the losses of C168 and the copies of C167.",
 "C170": "The last part is false. C170_apart_refuted: two nodes that are each other's source and hold different values without a time to live disagree after every execution in which clients leave the key alone, because such data are never offered (C170_permanent: every node keeps exactly the entry it has). C170_swap_refuted: with a time to live, two nodes that offer to each other at the same time exchange their values; both offers are acknowledged and the nodes disagree as before. Proved: C170_values_partial (no value is invented), C170_delivered_partial (an acknowledged offer makes the receiver's value the offered one), C170_agree_partial (copies that agree, stored or on their way, agree for ever).",
 "C171": "C171_forgotten_partial and C171_memory_partial: for cache durations below 2^63 nanoseconds and an IncrementExpiration (a function of the forked go-cache library, whose source is not in the repository) that sets the expiration to now plus the duration. False otherwise: C171_forever_refuted (the product of a longer duration with a second wraps around to a negative number, and the cache keeps such an item for ever) and C171_piled_refuted (if IncrementExpiration adds to the old expiration, repeating a query within one second keeps its answer beyond any time).",
 "C172": "C172_memory: full, for the requests and tasks of C113 and C128.",
 "C173": "C173_kept_partial: neither loses anything, for every cluster whose datasets have no target. Refuted (C173_strangers_refuted): two nodes with 128 data each, no key in common, all with the same vector, tell each other equal statistics, so that neither ever offers anything: in every execution both stores stay as they are. C170 has the case of data without a time to live. Exactly when a run moves something: a run offers nothing if no report differs enough (C173_quiet), and can bring any datum that a source lacks, with its expiry, if its report differs enough (C173_brought_partial; the random draws decide whether it does).",
 "C174": "C174_same_partial, C174_search_partial: if higher scores are better, or if there are no more different keys than the limit, for finished searches without a search context. Refuted if lower scores are better and more data arrive than fit (C174_lower_refuted): with limit two, the nearest of three data is in the answer or not, depending on when it arrives. Results cut off by a timeout are the subject of C138.",
 "C175": "C175_retry_partial, C175_delete_partial: if the calls in between are not about the same key. Refuted without that: a repetition brings back what another client deleted (C175_deleted_refuted) and overwrites a newer value (C175_newer_refuted); a repeated delete removes what was inserted in between (C175_delete_refuted). One store; the copies that an enforced insert sends to other nodes are inserted by the same function there.",
 "C176": "C176_linear, C176_scans. Without the condition on expiry it is false (C176_condition_needed): a scan that saw an expired entry deletes the fresh one (exact in C126). Deadlines are exact only up to the ten-second comparison. The moments at which a scan sees different keys may differ. Sequentially consistent sync.Map.",
 "C177": "C177_search, C177_own, C177_deleted; C177_alone says the model of the undisturbed search is the special case. The data a search visits are those of a concurrent scan (C176_scans, C147), and the collector is private to the call. Sequentially consistent sync.Map; nothing expires during the run.",
 "C178": "C178_statistics, C178_offers, C178_closing; C178_alone says the scan of the model of Process is the special case without writers. Fewer than 2^64 entries visited; sequentially consistent sync.Map; nothing expires during the run.",
 "C179": "C179_index; C179_alone says the index scan of the model is the special case without writers. Fewer than 2^64 entries visited; vectors of different length crash the build (C73, C105). What is stale afterwards: C62_stale_refuted. Sequentially consistent sync.Map; nothing expires during the run.",
 "C180": "False in general: C180_snapshot_refuted is a run in which a scan reports two data of which at no moment both were there; it fails also with deletes only (C180_deletes_refuted) and with inserts only (C180_inserts_refuted). True if all that acts during the scan acts on one key (C180_one_key_partial; in terms of the calls under way, C180_calls_partial, and as a state the run goes through, C180_moment_partial), in particular if at most one call acts (C180_one_call: the dataset before or after it), when nothing expires. Sequentially consistent sync.Map whose Range fixes the keys when it starts.",
 "C181": "C181_forward, C181_stays. For the dataset of one node; queries that are answered from the query cache or by other nodes are not scans (C171, C112). Sequentially consistent sync.Map; nothing expires during the run."
}