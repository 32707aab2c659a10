# Formal model of gernest/requiemdb in Coq 8.16

## 1. Layout

* `rocq/theories/Model/*.v`  – the model: executable Gallina definitions only, one comment per
  definition citing the file and lines in `/repo` it models.
* `rocq/theories/Spec/*.v`   – small specifications that do not use the model's helpers.
* `rocq/theories/Proofs/*.v` – lemmas.
* `rocq/theories/Props/*.v`  – the property theorems, each beside an `Example` (or a refutation built
  on a concrete history) showing that its hypotheses are met by a non-trivial case.
* `ASSUMPTIONS.md` – `Print Assumptions` of every claimed theorem, written by `tools/assumptions.py`.
* `tools/props.py`, `tools/mkprops.py` – generate `properties.jsonl` and `MANIFEST.json`.
* `tools/cites.py` – checks that every definition under `Model/` carries a comment citing the lines of `/repo` it models (or saying that it stands for external code and where `/repo` calls it), and that the cited files and lines exist.
* `seeded/LOG.jsonl` – the wrong-program experiments.

Only Coq's standard library is used.

## 2. Modelling conventions

* Go `string`/`[]byte` is Coq `string` (a list of 8-bit `ascii`); `[]byte` nil is kept apart from
  empty with `option` where the code tests it.  Where capacity/aliasing matters (the translator's
  prefix slice, the arena) slices are modelled as (array, offset, length, capacity) over a heap.
* `uint64` is `N`; wrap-around (`mod 2^64`) is written where the code can reach it.
  `int64` is `Z` with explicit wrapping for the `uint64 -> int64` conversions.
* `time.Time` (always UTC here) is `Z` nanoseconds since the Unix epoch; `time.Duration` is `Z`.
* roaring bitmaps are finite sets of `N`, represented as strictly increasing lists.
* Go maps are association lists; where the code iterates over a map, the theorem quantifies over
  every permutation.
* Errors are values; panics are an explicit outcome.
* A badger transaction is atomic; a crash can happen between transactions only.

## 3. Properties: what is modelled and how it is proved

See `properties.jsonl` for the statements.

| id | modelled | proof |
|---|---|---|
| C01, C02 | `Label.Encode` byte for byte (`%d` printing through Coq's decimal printer) | injectivity by splitting at ':' and '='; refutation by witness when keys contain '=' |
| C03 | every key builder that writes to badger | distinguishing byte argument for all arguments |
| C04 | `keys.Sample.Encode/Prefix` | decimal injectivity, prefix characterisation |
| C05 | badger `Sequence` (GetSequence/Next/Release) as state machine over a store, histories with crash/reopen | invariant over histories |
| C06–C09 | translator over a byte-level KV store, prefix slices with capacity over a heap | invariant over histories; refutation for the production capacity |
| C10 | translator + cache with arbitrary evictions, arbitrary hash | invariant; refutation with a colliding hash |
| C11, C12 | Go's `time` date algorithm, `Format("2006010215")`, `ViewsBuf` | against a separate Gregorian calendar specification |
| C13, C14 | `ChooseQuantum`, `TimeBounds` | case analysis + arithmetic |
| C15 | `quantum.ViewsByTimeRange` (external; modelled from its published algorithm) | refutation; partial for hour aligned starts |
| C16 | `Pos` with uint64 wrap | arithmetic |
| C17–C21 | OTLP payload trees, the transform context as a state machine | fold invariants against a declarative label specification |
| C22 | batch, fragments | fold invariant, both inclusions |
| C23–C28 | shards: map of open shard databases, look-ups | set characterisations, permutation invariance, refutations |
| C29–C33 | data frames: record rows, sets, per-view transactions | invariants over flush histories, crash prefixes |
| C34–C42 | store: save and scan end to end | composition of the above |
| C43–C45 | service: state machine of client and ticker steps | invariant over schedules |
| C46–C51 | visit: compile and trimming of the payload trees | structural induction against declarative filters |
| C52–C55 | data: collapse with arbitrary hash | multiset (Permutation) equality, refutations |
| C56–C59 | rows, BSI | set algebra by segment induction |
| C60 | arena: heap of backing arrays, several arenas, calls in any order | heap invariants; refutations for two writers and for use after Release |
| C61 | arrow3 node tree (message type -> columns -> messages) | round trip by induction on the message type and value |
| C62 | the server's own metrics: transform and exporter | induction; refutations with concrete metrics |
| C63 | the server's own spans: grouping for every map order, field conversion | permutation and grouping invariants |
| C64, C71 | js/scan.go and the TypeScript builder; clock, fixed zone offset, calendar windows | equality with a declarative reading of the calls |
| C65, C72 | the two program caches, keyed by the modelled XXH64 | invariant over histories; explicit colliding scripts; every truncation point |
| C66 | merged metrics metadata | fold invariant over Collapse |
| C67 | store + collapse end to end | composition of C35, C36 and C52–C54 |
| C68 | trimming as a partial function (None = panic) | totality on well formed data; witnesses otherwise |
| C69 | the service threads with explicit mutex and clients | invariant over schedules; existence of a schedule that answers each client |
| C70 | AddBSI | per column ripple carry, by induction on slices |
| C73 | a scan whose single reads each see the store at a different instant, also inside a save | records only grow, index bits only grow, labels only grow; one-shard look-ups are one read; across shards, a save is visible at its shards' reads wholly or not at all because later reads only see more and the first read sees no later save (Proofs/ConcurrentShards.v) |
| C74 | pooled codecs: every function as a list of steps on pool, codec and stream field, freely interleaved | ownership invariant over all schedules |
| C75 | concurrent Find (Model/ConcurrentFind.v): appends to the shared key slice, with capacity | every schedule; each look-up's key bytes stay its own; refuted without spare capacity |
| C76 | Shards.get / Close (Model/OpenShards.v) as two critical sections per caller | invariant for one updater, refuted for two |
| C77 | internal/render/attribute.go with strconv.Quote and UTF-8 decoding (Model/Quote.v, Render.v) | nested induction; quoting against an independent definition of UTF-8 and escapes (Spec/Quoting.v); unquoting one piece at a time; refuted for doubles, bytes, keys with blanks, missing values |
| C78 | internal/render/metrics.go and the tables of text/tabwriter (Model/Render.v) | layout as a grid; the exact text of the document, and its blocks in order; Gregorian time; refuted for histograms, big integers, missing values |
| C79 | internal/f2/metrics.go Append and its five loops (Model/Flatten.v) | induction over the document with the carried message; refuted for points without number, big integers |
| C80 | internal/f2/attr.go, positions | set of positions equal to the specified one; injectivity of positions; refuted for resource and scope labels, and for columns 2^20 apart |
| C81 | internal/f2/attr.go, digest a parameter | extensionality of sorted sets; refuted for different resources |
| C82 | js/rq.go Scan over the gRPC scan into store/scan.go (Model/Query.v composes Store.v and Visit.v) | composition of C35/C36/C52/C46 through the labels a wanted record gives its sample; refuted by concrete lives |
| C83 | store/scan.go, view.Search, dataframe rows (Store.v, View.v, Dataframe.v) | walk of the calendar yields strictly increasing units, so views of one search are apart; row numbers are injective per view |
| C84 | service.go joined with store and query (Spec/Serving.v) | C43 gives increasing ids and hand-over, the saves of the history are the calls of the flush loop, then C82/C83 |
| C85 | commands/home.go, home.Dir, shard and program paths, filepath.Join/Clean (Home.v) | a place is found by walking along the parts of a path (Spec/Places.v); Clean keeps the place; then names differ |
| C86 | js/scan.go Ago/Offset with time.ParseDuration, Duration.String (Duration.v, over Coq.Floats.SpecFloat) | texts as lists of terms (Spec/Durations.v); the loop reads term by term; rounding error of one product and one quotient bounded in whole numbers (FloatFacts.v); fractions of any length: only the digits that fit are read, and powers of ten run to infinity (DurationFacts.v, all_far) |
| C87 | render/unit.go formatUnit (Duration.v) | products of integers below 2^53 are exact; otherwise half a unit in the last place plus truncation |
| C88 | the pooled objects, their methods and what Release does to them (Pool.v), requests interleaving freely | a simulation between the object a request holds and the one it would hold alone (PoolFacts.v); per object: Release gives back the state of a new one |
| C89 | rows with the bitmaps behind them on a heap, the writable marks and what each operation shares (RowHeap.v); programs as lists of calls, their meaning as plain sets (Spec/RowPrograms.v) | invariant by induction over the program: rows that share a bitmap are tracked as sharing, a writable bitmap has one owner (RowHeapInv.v); the undisciplined claim refuted by concrete programs |
| C90 | Shift segment by segment, step by step (RowTable.v) | induction on the number of steps (RowTableFacts.v); no column leaves its shard: the result is well formed |
| C91 | Value, ToRows with a receiver that may fail, RowsToTable, Clone (RowTable.v) | induction over the results |
| C92 | errors as trees with errors.Is, Unwrap, Error and Join; the conversion collecting them (Errors.v) | induction on the size of the error and on the lists; the text against the quoting relation of Spec/Quoting.v |
| C93 | record of a view as Arrow columns: schema, append, write behind, read some columns (Table.v over Arrow.v) | encoding of a list of messages as columns is a homomorphism from append of lists to append of columns; then C57's reading of rows; the row model of Dataframe.v is refined |
| C94 | cmd/rq/main.go run as a list of parts with deferred closing; the flush loop and the requests being handled beside it (Server.v over Sequence.v) | induction over the parts; a decision procedure for the 7 shapes of a run; induction over the lives on one database and over the moves of a stop |
| C95 | SelfTrace.v and SelfMetrics.v joined with Service.v, Store.v and Query.v | C63 and C62 give the place of the span or point in the exported request, C84 the record in the answer; conditions of Spec/Own.v imply those of Spec/Trim.v |
| C96 | The TypeScript classes (Script.v: constructors, methods, query()) on top of ScanBuilder.v, Duration.v and Query.v, joined with Service.v and Store.v | the calls of the chain give the filters and the window (C64, C71); the conditions of Spec/Asked.v are equivalent to those of Spec/Trim.v for reliable scripts; C84 gives the exact answer; C15 discharges the coverage hypothesis for today, this week and latest |
| C97 | Model/Compile.v: any number of `rq query` commands as step machines over a shared cache directory and temporary directory, every system call may fail or the command be killed | invariant over all interleavings (own directories are new and apart, and hold what the phase says). Refuted: an empty bundle is read while another command writes it; a failed write leaves the directory. |
| C98 | the store's histories (Model/Store.v: saves cut off anywhere, restarts) with the whole query path (Model/Query.v) and the server process (Model/Service.v) | P_Restart.v: saved samples keep filing and columns across restarts (invariant of Proofs/StoreFacts.v); shards are reopened by any save that touches them. Refuted: nothing is answered between a start and the first save; a shard not touched since stays closed. |
| C99 | the translator as the server wires it (Model/Wiring.v: production prefix slice, hash-keyed cache, look-ups by scans, restarts with or without Close) as an instance of the interface the store is modelled over; Spec/Limits.v says what a process may meet | simulation: Proofs/WiringFacts.v relates it to the plain translator step by step, Proofs/WiredStore.v carries the relation through saves cut off anywhere; P_Wiring.v transfers C98. This closes the gap between the store theorems (any lawful translator) and the wired server. Refuted on a concrete XXH64 collision. |
| C100 | the same store and query path (Model/Store.v, Dataframe.v, Collapse.v, Query.v), without assuming that row numbers and sample numbers agree | P_Displaced.v: from the row a sample is put in (C29) to what a row number reads; the rows read are those of distinct samples, so the answer is sound in every view; refuted where the code is wrong: the first flush of every view that does not begin with sample 0. |
| C101 | the wired translator (Model/Wiring.v, Translate.v, Sequence.v), the store and the query path; no limit on the number of labels | Spec/Translator.v now splits the laws of a translator into stability (tr_stable: enough for the store, the scans and the exact answer) and distinctness (tr_laws). Proofs/ManyLabels.v: the wired translator without its cache is stable for any number of labels (invariant on the shared prefixes, columns and both counters), the cache makes no difference (simulation); Proofs/Simulation.v carries a simulation of translators through whole histories of the store; P_Many.v transfers C100. |
| C102 | the server as wired (Model/Server.v, Service.v, Wiring.v), the store, the script (Model/Script.v) and the query path, in one statement | Spec/Asked.v: begins, consulted (which hours, days, months, years a window looks in, in terms of a calendar satisfying its laws). P_Displaced.v: exact_where_consulted, the answer without any assumption that the window is covered. P_AsBuilt.v: P_Instant's search characterised as `consulted`, then lifted through C101, C43 and C96; nothing_looked_at gives the refuted windows. Props/P_Minutes.v: the current hour in windows of less than a day. |
| C103 | Row.MarshalJSON and encoding/json under it for lists of uint64 and strings (Model/RowJson.v) | Spec/Json.v: a grammar of JSON texts as an inductive relation, from RFC 8259. Proofs/JsonFacts.v: the written text is derivable with the row's columns and keys (decimal numbers, every escape, UTF-8), and the grammar is unambiguous (mutual induction: what follows a value starts with a delimiter), so equal texts mean equal rows. |
| C104 | the calendar calls of js/scan.go on a clock whose zone changes its offset: Location.lookup, time.Date, jinzhu/now (Model/Zone.v) | Spec/Zones.v: what a wall clock shows, as a relation. Proofs/ZoneFacts.v: local days never go back; the instant found for a midnight shows that midnight and the instant before shows an earlier day; the calendar arithmetic is reduced to the fixed-offset case. C104_one_offset: the two builder models agree where both apply. |
| C105 | a query script run with Model/Zone.v's clock (Model/ZoneScript.v), answered by the wired server of C102 | Spec/ZonedScripts.v: the windows in terms of what the wall shows. Each calendar call builds the scan of `ago(d)` with the printed duration since the window's start (C86: what is printed is read back), so C102's theorem applies to the rewritten script and is carried back through `start_in`. |
| C106 | internal/retry (unused by the other packages) over cenkalti/backoff's exponential back-off (Model/Retry.v, a relation over an arbitrary stream of attempts) | Spec/Retries.v: when attempts begin. Termination by the least wait of 250 ms against the limit of 15 minutes; bounds by the invariant 500 ms <= interval <= 60 s. |
| C107 | home.Dir on Windows (Model/HomeWindows.v) over arbitrary variables and file system answers | Spec/WindowsHome.v: the four documented rules as "first of a list with a property". Induction over the second loop with what it remembers of the part seen; the rules are shown to leave one answer. |
| C108 | logger.Setup, setupLogging and the database's logger over slog.Level.UnmarshalText and strconv.Atoi (Model/LogLevel.v) | Spec/LogLevels.v: the level a text asks for, as a grammar. The parser is shown to accept exactly the grammar; refuted where the sum overflows. |
| C109 | the parameter retention of NewService, which the code ignores (Model/Retention.v), with the query model | Refuted for every period by a life of the server whose records all are older than it and answered; the half that holds (nothing is lost with age) from C98 and the independence of answers from the clocks. |
| C110 | gRPC's default limit on message sizes around the query (Model/MessageSize.v), over an arbitrary size function | Case analysis on the answer; refuted by a life of the server with payloads of arbitrary content, evaluated symbolically, for every size function between natural bounds. |

A property that is false of the code keeps its full English statement; its theorems are then (a) a
`_refuted` theorem with a concrete history or input for which the model violates it, (b) the exact
behaviour of the code for all inputs, and (c) a `_partial` theorem with the weakest hypothesis found under
which the property does hold.  Such properties have status `partial` in `MANIFEST.json`.

## 4. Trusted base

* **Kernel.**  Coq 8.16.1's kernel (`coqc`), rechecked by `coqchk` in the gate.  No axioms: every claimed
  theorem is `Closed under the global context` (`ASSUMPTIONS.md`, one line per theorem).  No `Admitted`, no
  functors, no `Declare Module`, no unset checks.  `vm_compute` is used for concrete witnesses only (and
  rechecked by `coqchk` without the VM).  Libraries: Coq's standard library only.
* **The reading of the code.**  The model is written by hand from `/repo`; each definition cites the lines it
  models.  Nothing checks that the Gallina text and the Go text agree; the mutation experiments
  (`seeded/LOG.jsonl`) only check that the theorems notice wrong models.
* **External components, modelled by their documented behaviour** (each is named where it is used):
  * badger v4: transactions are atomic and ordered; `Sequence` follows its source (leases of a given
    bandwidth, `Release` gives back the rest);
  * rbf/roaring (pilosa): a bitmap is a set of positions, `AddRoaring` unions, a transaction commits as a
    whole, `OffsetRange`/row filters select as documented; `roaring.Add` and container order as documented;
  * `quantum.ViewsByTimeRange` / `TimeQuantum` from their published algorithm (the source is not in
    `/repo`);
  * arrow and parquet: a parquet file gives back the columns written to it (that the columns are the rows is C93);
    reading a row past the end of a record is
    an explicit "unspecified" outcome (`None`), counted as a possible panic;
  * protobuf: marshalling is deterministic and injective where a theorem says so; messages decoded from
    the wire have no nil elements in repeated fields, but may have nil attribute values;
  * xxhash: `Model/XxHash.v` computes XXH64 as published (checked on known vectors); where a theorem takes
    the hash as a parameter it holds for every function;
  * ristretto: may drop or evict anything at any time, and answers by the 64 bit key only;
  * sync.Pool: hands out any pooled object or a new one, may drop objects; a schema pool's object is clean;
  * Go: slices (shared backing arrays, append within capacity), maps (any iteration order), `time` (UTC
    calendar algorithm, `Format`), `time.ParseDuration` (a parameter of ScanBuilder.v, modelled in Duration.v), `jinzhu/now` (fixed zone offset in ScanBuilder.v, changing offsets in Zone.v),
    `sort.Search`, goroutines as interleavings of the modelled steps (data race freedom at that grain);
  * esbuild, goja, gRPC, OpenTelemetry SDK, zstd: functions or records without further properties
    (zstd: `Reset` forgets everything but its argument).

### Modelled (file by file)

| repository | model |
|---|---|
| internal/labels, internal/keys | Labels.v |
| internal/seq, badger Sequence | Sequence.v |
| internal/translate | Slice.v, KV.v, Translate.v, KeySpace.v |
| internal/store/store.go (Translate cache, SaveSamples), scan.go | ColumnCache.v, Store.v, Concurrent.v |
| internal/transform | Otlp.v, Transform.v |
| internal/batch, internal/view, internal/x | Calendar.v, View.v, Batch.v |
| internal/rows (row.go, bsi.go) | Rows.v, Bsi.v, RowHeap.v, RowTable.v |
| internal/shards | Shards.v |
| internal/dataframe | Dataframe.v, Table.v |
| internal/data | Collapse.v |
| internal/visit, internal/js/rq.go (Scan) | Visit.v, XxHash.v |
| internal/service, internal/samples | Service.v |
| internal/js/scan.go | ScanBuilder.v |
| packages/rq/src (core.ts, core_metrics.ts, core_trace.ts, core_logs.ts: constructors, methods, query) | Script.v |
| internal/snippets, internal/commands/query | ProgramCache.v |
| internal/arrow3 | Arrow.v, Table.v |
| cmd/rq/main.go | Server.v |
| internal/arena | Arena.v |
| internal/compress | Codec.v |
| internal/render | Quote.v, Render.v |
| internal/self | SelfTrace.v, SelfMetrics.v, Errors.v |
| internal/f2 | Flatten.v |
| internal/js/rq.go Scan, internal/service/api.go, internal/commands/query | Query.v |
| internal/commands/home.go, internal/home, paths of shards and cached programs | Home.v, HomeWindows.v |
| message sizes of the connections made at cmd/rq/main.go:125 and internal/commands/home.go:58-62 | MessageSize.v |
| the parameter retention of NewService | Retention.v |
| internal/logger/setup.go, setupLogging and Logger of cmd/rq/main.go | LogLevel.v |
| internal/render/unit.go; time.ParseDuration and Duration.String as called from internal/js/scan.go | Duration.v |
| the pools and Reset/Release functions of internal/visit, labels, keys, bitmaps, batch/time.go, data/sort.go, render/pool.go, translate, js/rq.go | Pool.v |

### Not modelled

`gen/` (generated protobuf code), `internal/logger/fail.go`, `internal/version`,
`internal/test`, `cmd/rq/main.go` beyond the order in which it opens
and closes the parts (Server.v) and its log level (LogLevel.v), the format of parquet files, TLS/gRPC transport, performance and memory use,
floating point arithmetic beyond the rounding of integers above 2^53.
