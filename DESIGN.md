# Formal model of veri: design

The project under study is `bgokden/veri` (Go, plus a C++ header for the
approximate index), read as text in `/repo`.  Nothing of it is executed.  The
model is written in Coq 8.16.1 and lives in `rocq/theories` (logical name
`Verif`).

## Layout

| directory | content |
|---|---|
| `Base/`  | Go base semantics: machine integers, byte strings, errors and panics, association maps, IEEE floats (over the standard library's `SpecFloat`), sorting contract |
| `Model/` | the model, one file per part of the code; definitions only, each with a comment citing the modelled file and lines |
| `Spec/`  | small specifications that do not mention the model's helper functions |
| `Proof/` | lemmas |
| `Props/` | the property theorems, one file per area: each theorem is closed by a lemma, followed by `Print Assumptions` and by a concrete instance that meets its hypotheses |

Theorem names start with the property id (`C01_...`).  Suffixes:

* no suffix: the whole property (or one named conjunct of it);
* `_partial`: part of the property; the comment above it and `MANIFEST.json`
  say what is missing;
* `_refuted`: the property, read literally, is false of the faithful model;
  the theorem exhibits a witness (`exists ...`), computed by `vm_compute`.

## Conventions of the model

* Unsigned machine integers are `N` below 2^k and every arithmetic operation
  that can wrap is followed by an explicit reduction; `int64` is `Z` with an
  explicit two's-complement wrap.
* Bytes are `N` below 256; strings and byte slices are lists of bytes.  Go's
  `nil` slice and empty slice are identified (no modelled code distinguishes
  them); `nil` pointers are `None`.
* A call returns `Ok v`, `Err e` or `Panic`.  A Go run-time panic (index out of
  range, nil dereference, negative slice bound) is `Panic`; no modelled
  goroutine recovers, so `Panic` is the death of the process.
* Loops with no structural bound take fuel; theorems show the fuel suffices.
* The clock is an argument.  Go map iteration order, scheduling, `select`,
  `rand`, peers' answers, JSON-path matching, `math.Acos` and `math32.Pow` are
  arguments the theorems quantify over.  `sort.Slice` is any function that
  permutes and, for a strict weak order, sorts (`Base/GoSort.v` gives an
  instance).
* float32/float64 are `spec_float` with precision 24/53; operations are the
  standard library's `SFadd`, `SFmul`, `SFdiv`, `SFsqrt`, `SFcompare`
  (round to nearest even), which is what Go specifies for amd64.  Go may fuse
  `x*y + z` on some architectures; its compiler does not on amd64 with the
  default GOAMD64=v1, and the model does not.  Wire features are 32-bit patterns.

## Trusted base

* Coq's kernel (8.16.1) and `coqchk`.
* `Print Assumptions` is run under every property theorem.  The goal is
  "Closed under the global context" for all of them; any theorem that uses a
  standard library axiom is listed in the section *Assumptions* below.
* The reading of the Go and C++ sources into the model (this is not checked by
  a machine; every definition cites the lines it models and says what it
  leaves out).
* The environment contracts above (Go memory model for `sync.Map`, channels
  and `WaitGroup`; atomicity of one `sync.Map` call; go-cache `Add`/`Set`/`Get`
  as atomic map operations with expiry by the environment).

### Not modelled

gRPC transport and protobuf wire format (a remote call is a call or an error),
logging, metrics, Prometheus, TLS, signals, file-system errors other than a
crash during a write, memory exhaustion, Python and UI code, benchmarks, the
Terraform/k8s files.  Data races on plain fields are modelled as atomic reads
and writes of the field.

## Which code is modelled

| code | model | not modelled there |
|---|---|---|
| `data/gencoder/gencoder.go`, `data/datum.go` | `Model/Codec.v` | size computations that overflow (slices of 2^61 elements) |
| `data/newsync.go` 17-91, 229-237, `data/delete.go` (only calls it) | `Model/Store.v` (one call at a time), `Model/StoreConc.v` (one atomic `sync.Map` operation at a time) | |
| `data/newsync.go` 93-227, `data/sync.go`, `data/data.go` 108-118, 170-195 | `Model/Sync.v`, `Model/Cluster.v` (several nodes), the index part in `Model/Annoy.v` | the scan is one atomic step of the senders' interleaving (`Process`); the statistics and the index of a scan interleaved with writers are in `Model/ScanConc.v`, a search interleaved with writers in `Model/SearchConc.v` |
| `data/insert.go`, `data/data.go` 239-253, `node/nodeservice.go` 35-51, `node/datasourceclient.go` 61-77 | `Model/Data.v`, `Model/Insert.v` | |
| `data/search.go` 17-158, 347-377 | `Model/Search.v`, `Model/SearchStream.v` | gjson (an oracle) |
| `data/search.go` 161-298 | `Model/Flow.v` (goroutines, channels, timers), `Model/QueryCache.v` (cache), `Model/CallTree.v` (forwarding), `Model/Flood.v` (who executes), `Model/Spread.v` (who asked whom, without losses), `Model/SharedConfig.v` (the shared configuration) | |
| `data/search.go` 301-344 | `Model/Annoy.v`, `Model/IndexSwap.v` (while the index is replaced) | |
| `data/aggregator.go` | `Model/Aggregator.v` | (the entries of the de-duplication map never expire: they are set with `NoExpiration`) |
| `data/util.go` | `Model/Vector.v`, `Model/Cosine.v` | `getCurrentTime` |
| `data/dataset.go`, `data/data.go` 62-105, 128-142, 205-219 | `Model/Dataset.v`, `Model/Index.v`, `Model/DatasetAll.v` | |
| `data/data.go` 145-168 | `Model/RunLock.v` | the random pauses |
| `data/data.go` 88, 222-233 | `Model/SourceCache.v` | the clients themselves |
| `data/newsync.go` 102-113, 151-194 (waiting) | `Model/ScanChan.v` | the sends themselves: `Model/Sync.v` |
| `data/newsync.go` 148-180, 203-222 (files) | `Model/TempFiles.v` | failures of `os.Remove` |
| `node/node.go` 74-90, 131-138 | `Model/Services.v` | the go-cache library beyond its expiry rule |
| `node/node.go` 296-321 | `Model/Periodic.v` | the ticker's period |
| `data/dataset.go` 36, `data/data.go` 67, 79, 121-125 | `Model/Path.v` | symbolic links |
| `node/node.go`, `node/nodeservice.go`, `state/state.go`, `server/*.go` | `Model/Node.v`, `Model/Gossip.v` (joins and synchronisation in a cluster), `Model/Report.v` (the periodic report), `Model/ConfigFlow.v` (how dataset configurations travel), `Model/Answers.v` (queries in a cluster with losses and caches), `Model/Requests.v` (requests about several datasets), `Model/Serve.v` (life of the process), `Model/Flow.v` (DataStream), `Model/Flood.v` and `Model/SearchStream.v` (SearchStream) | gRPC itself |
| `util/connpool.go` | `Model/Pool.v` | TLS options |
| `annoyindex/annoylib.h` (angular), `annoyindex/kissrandom.h` | `Model/Annoy.v` | the other distances, saving and loading of index files, threads other than one |
| `cmd/*.go`, `server/veriserviceserver.go` 20-78 | `Model/Settings.v` | how cobra splits a command line, how viper reads a file |
| `server/httpservice.go` 53-64 | `Model/Http.v` | the debug port 6060 |
| encoding/json as used | `Model/Json.v`, `Model/Index.v` | the limit of 10000 nested values, case folding outside ASCII |

## Method per property

| id | model | method |
|---|---|---|
| C01-C06 | `Model/Codec.v`: the generated encoder/decoder as imperative buffer programs | equivalence with a functional wire format (`Spec/Wire.v`), then inversion |
| C07-C11 | `Model/Store.v` | refinement of an abstract map over histories; refutations of TTL exactness and monotonicity; two histories compared TTL by TTL in `Props/LongerProps.v` |
| C12-C16 | `Model/Insert.v`: a cluster of nodes with an arbitrary peer graph | induction over source lists; refutations for staleness, failed inserts, malformed requests |
| C17 | `Model/StoreConc.v`: atomic steps of threads | invariant over all interleavings; refutation for the expiry race |
| C18, C19, C26 | `Model/Search.v` | loop invariant against `is_topk` |
| C20-C25 | `Model/Aggregator.v`, `Model/CallTree.v` | loop invariants against `is_topk`; call-tree induction; refutations for the inverted comparison and duplicates |
| C27 | `Base/Float.v`, `Model/Vector.v` | case analysis on IEEE operations |
| C28, C29, C35 | `Model/Flow.v` | invariants over all interleavings; reachable stuck state for C29 |
| C30, C31 | `Model/QueryCache.v`, `Model/Json.v` | injectivity of the key through a JSON parser; history induction; refutation of freshness |
| C32, C33, C67 | `Model/QueryCache.v`, `Model/Flood.v` | bound on rounding; invariant on executed sets |
| C34 | `Model/SearchStream.v` | composition of the parts' no-crash lemmas |
| C36, C37, C44, C45, C65, C69 | `Model/Dataset.v` | history induction; interleaving refutations |
| C38-C42, C68 | `Model/Json.v`, `Model/Index.v` | printer/parser round trip, prefix argument, chunk interleaving |
| C43 | `Model/Path.v` | lemma on components; refutation for `..` |
| C46-C52 | `Model/Sync.v`, `Model/Cluster.v` | trace invariants; refutations |
| C53-C57, C66, C70, C71 | `Model/Node.v` | history induction; refutations |
| C58, C59, C72 | `Model/Pool.v` | invariants over all interleavings; refutations |
| C60-C63, C73 | `Model/Annoy.v` | induction on the build recursion for arbitrary side choices; queue loop invariant |
| C64 | `Model/RunLock.v` | invariant; refutation |
| C74-C77 | `Model/Gossip.v`: nodes, messages that arrive any number of times, an address map | invariants over all runs; doubling of chains per round (C76); refutations |
| C78 | `Model/Report.v`: each lookup of the report in its own state and time | characterisation for all states; refutations |
| C79 | `Model/Serve.v`: files, life of the process | invariant over all lives, reusing C38; refutation |
| C80, C81 | `Model/CallTree.v` with grouping | exactness of the parts when nothing is cut; refutations |
| C82, C83 | `Model/SharedConfig.v`: statements of goroutines sharing one configuration | invariants over interleavings; refutations |
| C84 | `Model/Insert.v`, whole cluster (`Proof/InsertClusterP.v`) | invariant of nodes that hold the datum; refutation |
| C85 | `Model/Cosine.v`: the unclamped cosine functions | algebra of rounded operations; refutations |
| C86 | `Model/SourceCache.v`: expiry of the entries of Data.Sources | invariants over histories; refutation |
| C87, C88 | `Model/Insert.v` followed by `Model/CallTree.v` | composition of C13, C18, C23; refutation |
| C89 | `Model/SearchStream.v`: sequences of requests to the handler | characterisation of repeated uuids; refutation |
| C90 | `Model/Services.v`: static and learned services, exchanges and restarts | invariants over histories; refutation by an endless exchange |
| C91 | `Model/Periodic.v`: the loop, the ticker and the callers of StopPeriodicTask | interleavings; refutation |
| C92 | `Model/ScanChan.v`: the channel between the scan of Process and its sender | well-founded order on steps, no stuck state; refutation for every capacity |
| C93 | `Model/TempFiles.v`: the temporary index files | invariant over interleaved builds; refutation |
| C94 | `Model/Cluster.v` and `Model/CallTree.v` together: each node is looked at in the state it has at some moment | C48 composed with C23; refutation by a concrete hand-over |
| C95 | Insert (Model/Insert.v, Model/Store.v); step and history characterisation |
| C96 | Search (Model/Search.v) |
| C97 | Merge, GroupMerge (Model/Aggregator.v) |
| C98 | SearchStream (Model/SearchStream.v) |
| C99 | Model/DatasetAll.v: renewal by housekeeping; induction over histories with rounds |
| C100 | Model/DatasetAll.v: reachability of objects, for ever after |
| C101 | Model/DatasetAll.v: Close, induction over the visited names |
| C102 | exact ranges of retention, time limit, cache duration and TTL (Props/ExactProps.v) |
| C103 | exact outcome of decoding every proper prefix of a value (Props/ExactProps.v) |
| C104 | exact crash condition and exact effect of ReloadRuns (Props/ExactProps.v) |
| C105 | exact crash conditions of building and querying the index (Props/IndexCrashProps.v) |
| C106 | exact answer of a merge, exact condition for duplicates (Spec/MergeSpec.v, Props/MergeProps.v) |
| C107 | contexts take the greatest offered score, the worst one for distances (Props/MergeProps.v) |
| C108 | when copies of a datum expire, in terms of waiting times (Spec/LifetimeSpec.v, Props/LifetimeProps.v) |
| C109 | records of stopped nodes die out; clock ahead refutes (Spec/GoneSpec.v, Props/GoneProps.v) |
| C110 | agreement of nodes on configurations (Model/ConfigFlow.v, Spec/ConfigSpec.v, Props/ConfigProps.v) |
| C111 | provenance of configurations (Model/ConfigFlow.v, Props/ConfigProps.v) |
| C112 | origin of the data in answers (Model/Answers.v, Spec/AnswerSpec.v, Spec/ProvenanceSpec.v, Props/AnswerProps.v) |
| C113 | requests of a node about several datasets (Model/Requests.v, Spec/IsolationSpec.v, Props/IsolationProps.v): simulation by the node that gets the requests about one dataset only |
| C114 | same model, Props/IsolationProps.v |
| C115 | interleavings of the creation of a dataset with requests for it, single reads and writes (Model/Setup.v, Spec/SetupSpec.v, Proof/SetupP.v, Props/SetupProps.v): invariant over the places of all goroutines |
| C116 | end of the background task after Close (Model/Setup.v, Props/SetupProps.v): stability of Alive after the set-up |
| C117 | crash characterisation for a whole node (Model/Requests.v, Props/NodeCrashProps.v): combines C95 and C98 with the registry |
| C118 | whom a node asks to join and the effect of a request (Model/Gossip.v, Props/JoinProps.v) |
| C119 | when a round refreshes the statistics (Model/Sync.v process_due, Props/SyncProps.v) |
| C120 | grammar of JSON as an independent specification (Spec/JsonSpec.v, Proof/GrammarP.v), meaning of index files (Spec/HandSpec.v, Proof/HandP.v, Props/HandProps.v) |
| C121 | settings of the server (Model/Settings.v, Spec/SettingsSpec.v, Props/SettingsProps.v) |
| C122 | goroutines and the read-write lock around the replacement of the index (Model/IndexSwap.v, Proof/IndexSwapP.v, Props/IndexSwapProps.v) |
| C123 | exact content of a store after any history (Spec/RenewSpec.v, Props/RenewProps.v) |
| C124 | exact condition for goroutines left behind (Props/LeakProps.v) |
| C125 | where the folder of a dataset is (Spec/FolderSpec.v, Props/FolderProps.v) |
| C126 | exact condition for the loss of an insert to a scan (Props/LostProps.v) |
| C127 | the HTTP port (Model/Http.v, Spec/HttpSpec.v, Props/HttpProps.v) |
| C128 | sequences of requests (Model/Requests.v, Spec/RequestSpec.v, Proof/RequestP.v, Props/RequestProps.v): invariant on the stored entries |
| C129 | sequences of requests (Model/Requests.v, Props/RequestProps.v): the identifiers remembered are determined by the history |
| C130 | quotas in exact arithmetic (Proof/QuotaP.v: d/n < 0.01 in binary64 iff 100 d < n), Spec/SettleSpec.v, Props/SettleProps.v |
| C131 | C131 counts the handled requests along any run of Model/Flood.v (Spec/TrafficSpec.v); the bound follows from six requests per vector at the asked node and six per first arrival at a node; a ring in which every node has the next six nodes as sources reaches it. |
| C132 | series of inserts as a fold over the model's Insert (Spec/SeriesSpec.v); what the next run does comes from C119. |
| C133 | a predicate on records that holds for every announced record holds for every record about in Model/Gossip.v, hence for every source (Spec/OriginSpec.v, Props/OriginProps.v). |
| C134 | rank-wise comparison of two top-k lists by counting the elements that beat an element (Spec/MetaSpec.v, Props/MetaProps.v). |
| C135 | reachability of the end of the loop of Close in Model/Sync.v (Props/CloseProps.v). |
| C136 | exact set of outcomes of creators_run in Model/Dataset.v (Props/WinnerProps.v). |
| C137 | exact condition for the blocked scan of Model/ScanChan.v (Props/HangProps.v). |
| C138 | exact set of outcomes of Model/Flow.v (Props/ArrivalProps.v). |
| C139 | exact set of outcomes of the DataStream part of Model/Flow.v (Props/DeliverProps.v). |
| C140 | exact average of Model/Sync.v and Model/Vector.v (Props/AverageProps.v). |
| C141 | entries of the pools of Model/Pool.v (Props/EntriesProps.v). |
| C142 | rounding to nearest keeps the order (Proof/MonoP.v, Proof/MonoQ.v); the angular score (Props/RankProps.v). |
| C143 | monotone addition, square root and widening (Proof/MonoQ.v); distances (Props/RankProps.v). |
| C144 | the integer part keeps the order (Proof/TruncP.v); the histogram (Props/LevelProps.v). |
| C145 | the level of eviction in float64 arithmetic (Props/LevelProps.v). |
| C146 | arithmetic on multiples of a power of two is exact (Proof/ExactP.v, ExactQ.v, ExactR.v; Props/FixedProps.v). |
| C147 | concurrent scans report only live data (Props/ScanProps.v). |
| C148 | sizes of sums, products and quotients; the square root of a rounded square (Proof/SizeP.v, NearP.v, AngleP.v; Props/AngleProps.v). |
| C149 | rounding errors of sums of positive terms and of roots (Proof/ErrorP.v, ErrorQ.v; Props/AccuracyProps.v). |
| C150 | when a distance is zero, with overflow and denormals, and the cosine of a vector with itself (Proof/SelfP.v, SelfQ.v; Props/FoundProps.v). |
| C151 | the rounding errors of the inner product and of CosineSimilarity, by Cauchy and Schwarz, and of searches by them (Proof/DotP.v, CosineP.v, CosineQ.v; Props/DirectionProps.v). |
| C152 | the rounding errors of the running average (Proof/MeanP.v; Props/MeanProps.v). |
| C153 | the accuracy of cluster queries (Props/AcrossProps.v). |
| C154 | grouped queries with limits (Props/GroupedProps.v). |
| C155 | spreading without losses and its tree of calls (Model/Spread.v, Spec/ReachSpec.v, Proof/SpreadQ.v, Props/ReachProps.v). |
| C156 | clusters whose members share a dataset (Spec/MeshSpec.v, Proof/MeshP.v, Props/MeshProps.v). |
| C157 | inserts and queries in such clusters (Props/TogetherProps.v). |
| C158 | crashes by peer messages (Props/PeerCrashProps.v). |
| C159 | distance queries over a cluster (Spec/NearestSpec.v, Proof/CallTreeQ.v, Props/NearestProps.v). |
| C160 | deletion in a cluster (Spec/DeletedSpec.v, Props/DeletedProps.v). |
| C161 | the decoders on arbitrary strings (Spec/DecodeSpec.v, Proof/CodecQ.v, Props/DecodeProps.v). |
| C162 | C162: the requests among the actions of SyncWithPeers (Model/Gossip.v) are shown to be a flat_map over the listed peers; counting is done there. The cluster statement assumes that every node lists exactly one recent record of each other node and that the nodes have different addresses. |
| C163 | C163: for each number of shortenings an interleaving that attains it is constructed (some goroutines one after the other, or reading together before any of them writes); 0.9 * t is computed exactly from the rounding lemmas of Proof/MonoP.v, TruncP.v and ErrorP.v (Proof/NineTenthsP.v). |
| C164 | C164: the number of acknowledgements counted by RunOnRandomSources is related to the willing sources among the first six of the order (Props/SureProps.v); the two extreme orders put the willing or the unwilling sources first. |
| C165 | C165: restricting the sources to a choice of six gives executions of the original system, so a set of nodes arranged in a circle, each asking the next six, is reached exactly (Props/BigProps.v, by C155 for the restricted sources). |
| C166 | C166: absolute rounding errors of the division by pi and of the subtraction (Props/ArcProps.v) bound how much larger the cosine of a pair with no better angular score can be; then as C151. acos_ok (Spec/VectorSpec.v) now speaks of float64 numbers only. |
| C167 | C167: the copies of an acknowledged insert are on different members (as C157, for any full cluster); C165_everywhere then gives a holder among the nodes reached, and the exactness of the call tree (C23) the answer (Props/EnoughProps.v). |
| C168 | C168: Model/Lossy.v adds the loss of a pending request to the steps of a query and cuts the executions with a lost answer from the tree of calls; Proof/LossP.v shows that every request sent is delivered or lost, and which executions are left in the cut tree (Spec/LossSpec.v, contributes); Props/LossProps.v. |
| C169 | C169: every node that executes the query has asked m others, and those of them that do not execute it account for a lost request each (lost_pairs); the rest is as C165, C167 and C168 (Props/BearProps.v). |
| C170 | C170: values are traced through stores, queues and senders as in C160 (Props/AgreeProps.v); that an entry without a time to live stays as it is, is an invariant of the store and the senders of each node (still in Proof/AgreeP.v): such an entry is neither expired nor queued. |
| C171 | C171: every item of the cache expires at most D seconds after some query with its key (cached_since, Props/MemoryProps.v); the keys are distinct, so the items are at most as many as the queries. |
| C172 | C172: every remembered identifier expires five minutes after a search with it, and the identifiers are distinct (seen_from, Props/SeenProps.v). |
| C173 | C173: the statistics of the two nodes are equal and stay equal (settled, Props/ReplicaProps.v); there are 128 data because the running average is then exact in floating point. |
| C174 | C174: both answers are the best of lists of representatives, which are permutations of each other once reduced to key and score (tagged, Props/AnswerOrderProps.v); the refutation uses the exact form of C106. |
| C175 | C175: the store before the repetition is known from the last call about the key (store_inv, Proof/StoreP.v); the repetition either changes nothing or moves the deadline forward (Props/RetryProps.v). |
| C176 | C176: an insert acts at its Store, or at the Load that finds the same value with a near deadline; a delete at its Delete (Spec/LinearSpec.v, Props/LinearProps.v). The order is built along the run, and the invariant says for each goroutine which effects it has had. |
| C177 | C177: the loop body of Search run on the list a concurrent scan visits (Model/SearchConc.v); what was visited is explained by the order of effects of C176 (Props/BusySearchProps.v). |
| C178 | C178: the function Process passes to the loop, run on the entries a concurrent scan visits (Model/ScanConc.v); combines C147, C176_scans and the lemmas of C52 (Props/BusyStatProps.v). |
| C179 | C179: the index part of the function Process passes to the loop, run on the entries a concurrent scan visits (Model/ScanConc.v); combines C147, C176_scans and the invariant of the index scan (Props/BusyIndexProps.v). |
| C180 | C180: the effects of C176 that lie in the scan; a prefix of them is found at which the report is the content (Spec/SnapshotSpec.v, Props/SnapshotProps.v), and each prefix belongs to a state of the run (Props/MomentProps.v); refutation by an explicit list of states. |
| C181 | C181: the order of effects of C176 is extended along the run, so both scans are explained by one order (Props/ForwardProps.v). |

Liveness (C29, C51) is expressed as: from every reachable state a terminating
continuation exists / a reachable state from which no continuation terminates.

## Assumptions

Axioms: none.  Every property theorem prints "Closed under the global context".

The following are hypotheses or parameters of the theorems (visible in their
statements), standing for code that is not in `/repo`:

* `go_sort` (`Base/GoSort.v`): `sort.Slice`, `sort.Strings`, and for the index
  `std::sort` and `std::partial_sort`, return a permutation, sorted if the
  comparison is a strict weak order.  For other comparisons (NaN scores) the
  result is an arbitrary permutation.  `insertion_sort` is an instance.
* `mathlib` (`Model/Vector.v`): `math.Acos` and `math32.Pow` are arbitrary
  functions; `pow2_ok` (`Spec/VectorSpec.v`, used for symmetry and the distance
  of a vector to itself) says that `Pow(x, 2)` is even, zero at zero and not
  negative, and has an instance.
* gjson path existence: an arbitrary boolean function of label and filter.
* `floatlib`, `float_roundtrip` (`Model/Index.v`): `strconv` prints a float64 so
  that parsing gives it back; an instance is given.
* encoding/json: the definitions in `Model/Json.v` are written from the
  library's documentation; they are part of what is trusted.
* go-cache (a fork with `IncrementExpiration`): `Add`, `Set`, `Get`, `Items`,
  `Delete` are atomic map operations that ignore expired items.  The effect of
  `IncrementExpiration` is an arbitrary function (`inc`); C31 treats both
  plausible readings.
* `path.Clean`, `strings.Split`, `strings.Join`, `strings.LastIndex`: defined by
  their documentation.
* copier: a deep enough copy of a struct (a new cell with the same content).
* cobra and viper 1.8.1: a flag that was given beats an environment variable that
  is not empty, that beats the configuration file, and defaults of flags come last;
  `AutomaticEnv` looks at the upper-case name before a bound variable.
* uuid: fresh ids are unique.
* bufio: reader and writer with 4096 byte buffers; a write to a file opened with
  `O_APPEND` is atomic.
* net/http: headers are sent with the first `WriteHeader`/`Write`; a missing
  content type is guessed by an arbitrary function of the body.
* gorilla/mux 1.7.2: a path that `cleanPath` changes is redirected; then the routes
  are compared with the whole path, and the method of the matching one is checked.
* `os.RemoveAll`: removes what the path leads to and everything below; refuses `.`.
* `net.ParseIP(...).IsLoopback()`: an arbitrary boolean function.
* `sync.Pool`: hands out any pooled item or makes a new one; the garbage
  collector may drop items.  goburrow/cache calls the removal listener once per
  evicted pool.  A gRPC connection changes between the non-shutdown states at
  any time.
* The C++ index: hyperplanes and coin flips are arbitrary, the order of the
  priority queue is arbitrary, `_split_imbalance` is any pair of tests for which
  an empty side is bad (`imbalance`), reading outside allocated memory is
  `Panic`, ids stay below 2^31.
* Conversions of a float that does not fit into an integer give an arbitrary
  value (`undef`), as the Go specification says.
