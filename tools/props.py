PROPS = []
def P(id, title, statement, quantifier, why, anchors, status=None, theorems=None, note=""):
    PROPS.append(dict(id=id, title=title, statement=statement, quantifier=quantifier,
                      why_tests_cant=why, anchors=anchors, status=status,
                      theorems=theorems or [], note=note))

# ---------------------------------------------------------------- A. labels, keys, key spaces
P("C01", "Index labels are unambiguous",
  "Two labels that differ in resource, prefix, key or value are never encoded to the same byte string, so an index column can never stand for two different facts.",
  "all pairs of labels (any resource and prefix number, any key and value byte strings)",
  "the set of attribute keys and values is infinite and attacker controlled; a test only tries a few strings",
  ["internal/labels/labels.go:Label.Encode"])
P("C02", "Labels of different signals or prefixes never collide",
  "Whatever the key and value bytes are, the encoded label determines the resource (metrics, traces, logs) and the prefix (resource attribute, scope name, ...): a filter on one signal can never resolve to a column of another one.",
  "all pairs of labels, arbitrary keys and values including ones with ':' and '=' in them",
  "needs all byte strings, including adversarial ones that contain the separators",
  ["internal/labels/labels.go:Label.Encode", "proto/rq/v1/common.proto:PREFIX", "proto/rq/v1/common.proto:RESOURCE"])
P("C03", "Key spaces sharing the key-value store are disjoint",
  "The label->id table, the id->label table, the two sequence counters, the stored data frames and the per-signal membership sets share one key-value store; no user supplied label, id or view name can make a write of one of them overwrite or be read as an entry of another.",
  "all labels, all ids, all view names",
  "labels are arbitrary user bytes; disjointness must hold for every one",
  ["internal/translate/translate.go:New", "internal/seq/seq.go:New", "internal/dataframe/dataframe.go", "cmd/rq/main.go:run"])
P("C04", "Sample keys are unique and prefix scannable",
  "The sample key built from a resource and an id is different for every (resource,id), and the prefix built for a resource is a prefix of exactly the keys of that resource.",
  "all resources and all 64 bit ids",
  "2^64 ids and the prefix relation between decimal strings cannot be sampled",
  ["internal/keys/keys.go:Sample.Encode", "internal/keys/keys.go:Sample.Prefix"])

# ---------------------------------------------------------------- B. identifier allocation
P("C05", "Sample ids are never reused",
  "Every id handed out by the sample sequence is different from every id handed out before, in this process or any earlier one, whatever the interleaving of allocations, clean shutdowns, crashes and reopenings; within one process ids increase.",
  "all histories of allocate / release / crash / reopen operations",
  "crash points and restart histories are unbounded",
  ["internal/seq/seq.go:New", "internal/seq/seq.go:Seq.SampleID", "internal/seq/seq.go:Seq.Release"])
P("C06", "Column ids are stable and never shared",
  "Translating the same label always yields the same column id, and two different labels never receive the same column id, over any history of translations, look-ups, clean shutdowns, crashes and reopenings.",
  "all operation histories over all labels, with the translator's prefix slice exactly as long as its capacity",
  "unbounded histories, crash points between lease and use",
  ["internal/translate/translate.go:New", "internal/translate/translate.go:Translate.TranslateKey"])
P("C07", "Column ids translate back to their label",
  "After a label was translated to id n, translating id n back returns exactly the bytes of that label, forever; ids never handed out are reported as not found.",
  "all operation histories, all labels and ids",
  "round trip over unbounded histories and arbitrary bytes",
  ["internal/translate/translate.go:Translate.TranslateID", "internal/translate/translate.go:Translate.TranslateBulkID"])
P("C08", "Looking a label up never creates it",
  "Find returns the id TranslateKey gave the label, or reports not found, and has no effect: no later operation can tell that it was called.",
  "all states and labels",
  "absence of an effect is a statement about every later history",
  ["internal/translate/translate.go:Translate.Find"])
P("C09", "The server's own wiring gives labels distinct ids",
  "With the prefix slice the server binary passes to the translator, two different labels never receive the same column id (C06 for the production configuration).",
  "all operation histories with the prefix slice as built in main (length 1, spare capacity)",
  "the failure needs more than 4096 distinct labels and depends on slice capacity rounding in the Go runtime",
  ["cmd/rq/main.go:run", "internal/translate/translate.go:New"])
P("C10", "The column cache is transparent",
  "Translating through the in-memory cache gives the same id as asking the store directly, for any eviction behaviour of the cache.",
  "all sequences of translations, all eviction schedules, any hash function",
  "cache admission and eviction are nondeterministic; hash collisions cannot be found by tests",
  ["internal/store/store.go:Storage.Translate"])

# ---------------------------------------------------------------- C. time, views, ranges
P("C11", "Time views identify calendar units",
  "Two timestamps are filed under the same hourly (daily, monthly, yearly) view name exactly when they lie in the same UTC hour (day, month, year) of the Gregorian calendar.",
  "all pairs of 64 bit nanosecond timestamps (years 1677-2262, including before 1970 and leap days)",
  "2^128 pairs of timestamps; calendar edge cases (400 year rule, negative times) are easy to miss",
  ["internal/batch/time.go:QuantizedTime.Set", "internal/batch/time.go:QuantizedTime.ViewsBuf", "internal/view/view.go:Std"])
P("C12", "Every sample is filed under exactly four nested views",
  "Filing a timestamp never fails and yields exactly one year, one month, one day and one hour view; each is a prefix of the next finer one; no view of one granularity equals a view of another granularity.",
  "all 64 bit nanosecond timestamps",
  "must hold for every timestamp",
  ["internal/batch/time.go:QuantizedTime.ViewsBuf", "internal/batch/batch.go:Quantum"])
P("C13", "Query granularity follows the length of the range",
  "The unit used to search a range is the hour below one day, the day below 30 days, the month below 360 days and the year from there on, for negative and huge durations too.",
  "all 64 bit durations",
  "boundaries over 2^64 durations",
  ["internal/view/view.go:ChooseQuantum"])
P("C14", "Scan window computation",
  "An explicit time range is used as given, whatever now and offset say; otherwise the window is the 15 minutes ending at (now or the wall clock) minus the offset, so its length is always 15 minutes and start <= end.",
  "all scan requests and clocks",
  "all combinations of optional fields and time values",
  ["internal/x/x.go:TimeBounds"])
P("C15", "A scan looks at every view its window touches",
  "Every timestamp inside the scan window is filed under one of the views the search consults (no data inside the window is skipped).",
  "all windows and all timestamps in them",
  "windows that start in the middle of a unit are infinitely many; the failing ones depend on calendar arithmetic",
  ["internal/view/view.go:Search", "internal/shards/shards.go:Shards.Rows", "internal/dataframe/dataframe.go:DataFrame.View"])
P("C16", "Bitmap positions are a bijection",
  "A (sample id, column) pair is stored at a position from which the sample id and the column within its shard are recovered, with no two pairs of one shard sharing a position; ids of 2^44 and above wrap and collide.",
  "all sample ids and columns",
  "2^128 pairs; overflow boundary",
  ["internal/view/view.go:Pos", "internal/batch/batch.go:Batch.makeFragments", "internal/shards/shards.go:row"])

# ---------------------------------------------------------------- D. extraction of labels
P("C17", "Time span of a sample",
  "When no record carries a zero timestamp, the minimum (maximum) recorded for a sample is the minimum (maximum) over the timestamps of all its data points, log records or spans (start for minimum, end for maximum), independent of their order.",
  "all OTLP payloads of any size and nesting",
  "unbounded nested payloads, any order of timestamps",
  ["internal/transform/transform.go:Context.Timestamp", "internal/transform/transform.go:Context.Range", "internal/transform/transform.go:Context.processSample"])
P("C18", "Zero timestamps do not disturb the time span",
  "The minimum recorded for a sample is the minimum over its non-zero timestamps (zero means unset), whatever the order of records.",
  "all OTLP payloads",
  "the failure depends on the order of zero and non-zero records",
  ["internal/transform/transform.go:Context.Timestamp"])
P("C19", "Exactly the documented labels are indexed",
  "Apart from the per-signal marker, the labels recorded for a sample are exactly: resource schema and string resource attributes, scope schema, name, version and string attributes, metric or span names, string attributes of data points and log records, log level, and trace/span/parent ids in hex; nothing more and nothing less, in the sample's own signal.",
  "all OTLP payloads of any size and nesting",
  "unbounded nested payloads; both inclusions needed",
  ["internal/transform/transform.go", "internal/transform/metrics.go", "internal/transform/logs.go", "internal/transform/trace.go"])
P("C20", "Every sample carries the marker of its own signal",
  "Every stored sample is labelled with the signal (metrics, traces, logs) it belongs to, so that a scan without filters finds it.",
  "all sequences of samples",
  "depends on the order in which different signals arrive",
  ["internal/transform/transform.go:Context.init", "internal/transform/transform.go:Context.data"])
P("C21", "Processing a sample does not depend on earlier ones",
  "Labels (other than the signal marker), minimum and maximum recorded for a sample depend on that sample alone, not on what the same context processed before.",
  "all sequences of samples processed by one context",
  "hidden state carried between samples over unbounded sequences",
  ["internal/transform/transform.go:Context.processSample"])

# ---------------------------------------------------------------- E. batch and index
P("C22", "A batch builds exactly the right bitmaps",
  "The bitmap built for (shard, view) contains the position of (sample, column) exactly when that sample carries that column, the column lies in the shard and the sample's time is filed under the view; nothing is lost, duplicated or misfiled, and the batch is empty afterwards.",
  "all batches: any number of samples, columns and times",
  "unbounded batches, shard boundaries",
  ["internal/batch/batch.go:Batch.Add", "internal/batch/batch.go:Batch.makeFragments", "internal/batch/batch.go:Batch.Build", "internal/batch/batch.go:Fragments.GetOrCreate"])
P("C23", "Index look-up within one shard is exact",
  "When all requested columns live in one open shard, the look-up returns exactly the samples that carry all of them in some one of the consulted views.",
  "all index contents, views and column sets",
  "set semantics over arbitrary bitmaps",
  ["internal/shards/shards.go:Shards.Rows", "internal/shards/shards.go:Shards.rows"])
P("C24", "Index look-up across shards is exact",
  "The look-up returns exactly the samples that match the requested columns of every shard.",
  "all index contents, views and column sets spanning any number of shards",
  "needs more than 2^20 columns before the second shard exists, so no test reaches it",
  ["internal/shards/shards.go:Shards.rows"])
P("C25", "Look-up does not depend on map iteration order",
  "The result of an index look-up is the same for every order in which the shards are visited.",
  "all orders of shards",
  "Go randomises map iteration; tests see one order",
  ["internal/shards/shards.go:Shards.rows"])
P("C26", "Index survives a restart",
  "A look-up after closing and reopening the index returns what it returned before.",
  "all index contents and restart points",
  "histories with restarts",
  ["internal/shards/shards.go:New", "internal/shards/shards.go:Shards.get", "internal/shards/shards.go:Shards.rows"])
P("C27", "Index updates are all or nothing",
  "An update of a shard whose callback fails leaves the index unchanged; one that succeeds applies all its changes, and other shards are never touched.",
  "all callbacks, states and failure points",
  "every failure point",
  ["internal/shards/shards.go:Shards.Update", "internal/shards/shards.go:Shards.View"])
P("C28", "Labels of a stored sample can be read back",
  "Asking for the labels of a sample in a view returns, in increasing column order, exactly the labels recorded for it, whatever the number of shards and the order they are visited.",
  "all histories, samples and views",
  "shard visiting order and unbounded label sets",
  ["internal/store/scan.go:Storage.Labels", "internal/shards/shards.go:Shards.Row", "internal/shards/shards.go:row", "internal/rows/row.go:Row.Merge"])

# ---------------------------------------------------------------- F. data frames
P("C29", "Row number equals sample id",
  "In every stored view, the row whose number is the sample id holds that sample's data.",
  "all sequences of flushes, with any gaps between ids",
  "depends on which ids land in which view over unbounded histories",
  ["internal/dataframe/dataframe.go:DataFrame.appendView"])
P("C30", "Views anchored at sample 0 stay aligned",
  "If the first sample ever filed in a view has id 0, row number equals sample id for all samples filed later, and rows of absent ids are blank.",
  "all flush histories with increasing ids",
  "unbounded histories",
  ["internal/dataframe/dataframe.go:DataFrame.appendView"])
P("C31", "Per-signal membership sets are exact",
  "After any history of flushes the membership set of a signal in a view is exactly the set of ids of samples of that signal filed in that view, and the three sets are disjoint.",
  "all flush histories",
  "unbounded histories",
  ["internal/dataframe/dataframe.go:DataFrame.appendView", "internal/dataframe/dataframe.go:DataFrame.Append"])
P("C32", "Reading never crosses signals",
  "Reading rows for one signal only ever touches rows of ids filed under that signal, in increasing id order, each at most once per view; missing views contribute nothing.",
  "all stored states, id sets and view lists",
  "Which rows a read touches depends on the stored membership sets of every view and on the asked ids together; a test fixes one stored state.",
  ["internal/dataframe/dataframe.go:DataFrame.read", "internal/dataframe/dataframe.go:DataFrame.Unmarshal", "internal/dataframe/dataframe.go:DataFrame.View"])
P("C33", "A flush interrupted anywhere keeps every view consistent",
  "Whatever the point at which a flush is interrupted, each view's record and membership sets are either all from before or all from after the flush, and views not yet reached are unchanged.",
  "all flushes and all crash points, all orders of views",
  "crash points between transactions",
  ["internal/dataframe/dataframe.go:DataFrame.Append", "internal/dataframe/dataframe.go:DataFrame.appendView"])

# ---------------------------------------------------------------- G. store
P("C34", "Filters are a conjunction",
  "The columns a scan searches for are exactly the ids of the labels named by its filters in the scan's own signal; if any of them is unknown the scan matches nothing; without filters it is the signal marker.",
  "all scans, all translation states",
  "Filter lists are unbounded and their meaning depends on which labels any earlier save happened to translate.",
  ["internal/store/scan.go:Storage.CompileFilters"])
P("C35", "Scan is sound",
  "Every sample whose data a scan returns belongs to the requested signal, carries every requested label and is filed under a view the scan's window selects.",
  "all histories of saves and all scans",
  "end to end over unbounded histories",
  ["internal/store/scan.go:Storage.Scan", "internal/store/store.go:Storage.SaveSamples"])
P("C36", "Scan is complete",
  "A saved sample with all the requested labels whose filing time is in the scan window is returned.",
  "all histories of saves and all scans",
  "end to end over unbounded histories; false for the code in several ways, each needing a specific history",
  ["internal/store/scan.go:Storage.Scan", "internal/store/store.go:Storage.SaveSamples"])
P("C37", "Instant scans return the newest match",
  "A scan without a time range returns the data of exactly one sample, the matching sample with the largest id, or the empty result of the signal.",
  "all histories and scans without time range",
  "The newest match depends on the whole history of saves and on the order of ids across views; a test replays one history.",
  ["internal/store/scan.go:Storage.Scan"])
P("C38", "Limit and reverse are honoured",
  "A scan returns at most limit entries and newest first when reverse is set.",
  "all scan requests with any limit and direction, all stored states",
  "A request may combine any limit and direction with any stored state; a test compares one answer.",
  ["internal/store/scan.go:Storage.Scan", "proto/rq/v1/rq.proto:Scan"])
P("C39", "Storage errors reach the client",
  "If reading the stored frames fails, the scan reports an error rather than an empty answer.",
  "all states and failures of the underlying store",
  "fault injection at every read",
  ["internal/store/scan.go:Storage.Scan"])
P("C40", "No match yields the empty result of the signal",
  "When nothing matches, the answer is the empty metrics/logs/traces container of the requested signal, never a missing one.",
  "all states and scans",
  "Whether nothing matches depends on the whole stored state, including samples of other signals that share the asked columns.",
  ["internal/store/scan.go:Storage.Scan", "internal/data/data.go:Zero", "internal/data/data.go:Collapse"])
P("C41", "Crash during save never indexes unknown data",
  "Whatever the crash point during a save, every (sample, column) present in the index refers to a sample whose data is already stored in the corresponding view and to a column that translates back to a label.",
  "all save histories and all crash points between transactions",
  "A save is a sequence of separate transactions over two databases; a crash may fall between any two of them in any save of any history.",
  ["internal/store/store.go:Storage.SaveSamples", "internal/translate/translate.go:Translate.TranslateKey"])
P("C42", "Saving only adds",
  "A save never removes or changes anything that an earlier save stored: index bits, translations, membership and aligned rows all persist.",
  "all histories of saves",
  "unbounded histories",
  ["internal/store/store.go:Storage.SaveSamples"])

# ---------------------------------------------------------------- H. service
P("C43", "Accepted data is flushed exactly once, in order",
  "Under any interleaving of client requests and flush ticks, every accepted payload is handed to the store exactly once, in id order, with a distinct id; nothing is handed over that was not accepted.",
  "all interleavings of any number of client saves, swaps and flushes",
  "Which request is in the buffer when the flush loop swaps it depends on the schedule of goroutines; tests see a few schedules.",
  ["internal/service/service.go:Service.Save", "internal/service/service.go:Service.start"])
P("C44", "Accepted data survives a graceful shutdown",
  "Data acknowledged to a client before a graceful shutdown is stored.",
  "all schedules ending in a graceful shutdown",
  "The loss needs a shutdown at a particular moment between acceptance and flush; tests stop an idle server.",
  ["internal/service/service.go:Service.start", "internal/service/service.go:Service.Close"])
P("C45", "Export wraps the payload in its own signal",
  "Each of the three collector endpoints stores exactly the request's resources under its own signal.",
  "all requests",
  "It must hold for requests of any size and nesting, including empty ones.",
  ["internal/service/service.go:Metrics.Export", "internal/service/service.go:Logs.Export", "internal/service/service.go:Trace.Export"])

# ---------------------------------------------------------------- I. trimming query results
P("C46", "Trimming keeps exactly the matching records",
  "With time and filter conditions applied to a result, exactly the data points / log records / spans that satisfy every applicable condition remain, in their original order, under their own resource and scope; groups with no remaining record disappear.",
  "all payloads and all conditions",
  "Payloads nest resources, scopes, metrics and records without bound, and both inclusions (nothing kept wrongly, nothing dropped wrongly) are needed for every list of conditions.",
  ["internal/visit/visit.go", "internal/visit/metrics.go", "internal/visit/logs.go", "internal/visit/trace.go"])
P("C47", "Attribute conditions mean what they say",
  "With conditions on record attributes, exactly the data points, log records or spans remain whose own attributes contain every asked key and value; the attributes of the scope and the resource play no part.",
  "all lists of conditions and all payloads of the three signals",
  "The condition has to select correctly on every payload: a test with the attribute on both scope and record cannot tell the two apart.",
  ["internal/visit/visit.go:Compile"])
P("C48", "Span conditions mean what they say",
  "With a condition on the span id exactly the spans with that id remain, with a condition on the parent span id exactly the spans with that parent.",
  "all conditions and all trace payloads",
  "A test whose spans have equal ids in both fields, or a single span, cannot tell which field was tested.",
  ["internal/visit/trace.go", "internal/visit/visit.go"])
P("C49", "Trimming preserves descriptive fields",
  "Records that survive trimming keep their scope schema and the metric's description and unit.",
  "all payloads and conditions",
  "Every field of every surviving record has to be compared; tests compare the fields the author thought of.",
  ["internal/visit/metrics.go", "internal/visit/logs.go", "internal/visit/trace.go"])
P("C50", "Time condition is half open and no condition means no change",
  "A record at time t passes iff start <= t < end; a result is returned unchanged when no conditions were given.",
  "all times and payloads",
  "The boundary instants of every window over the full 64 bit range, including windows before 1970, cannot be enumerated.",
  ["internal/visit/visit.go", "internal/js/rq.go"])
P("C51", "Attribute subset matching",
  "A set of attribute conditions is satisfied by exactly the attribute lists which contain each condition as a string attribute, provided the hash separates the strings involved.",
  "all attribute lists and condition sets, any hash",
  "The answer depends on a 64 bit hash: conditions and attribute lists whose hashes coincide cannot be found by trying.",
  ["internal/visit/visit.go:matchAttr"])

# ---------------------------------------------------------------- J. merging results
P("C52", "Merging loses no record",
  "Merging a list of results of one signal, where it succeeds (see C55), yields a result with exactly the same multiset of (resource, scope, metric name and kind, record).",
  "all lists of payloads of one signal, with a hash that separates their resources, scopes and metrics",
  "Payloads nest without bound and are merged through hash maps; preservation of the multiset of records is a statement about all of them.",
  ["internal/data/data.go:Collapse", "internal/data/metrics.go", "internal/data/logs.go", "internal/data/trace.go"])
P("C53", "Merging is deterministic",
  "The merged result does not depend on the iteration order of the intermediate maps.",
  "all lists of payloads and all iteration orders of the intermediate maps",
  "Go randomises map iteration",
  ["internal/data/sort.go", "internal/data/metrics.go"])
P("C54", "Merging never merges different scopes",
  "Records of two scopes with different (name, version, schema) never end up under one scope.",
  "all payloads, with arbitrary scope names, versions and schemas",
  "The scopes are compared by a hash of concatenated strings: only adversarial pairs of strings show the confusion.",
  ["internal/data/metrics.go", "internal/data/data.go"])
P("C55", "Merging accepts every stored combination",
  "Merging never fails on results of one signal, even when a metric name was recorded with different kinds of data.",
  "all lists of payloads",
  "The failure needs two histories that disagree about the kind of a metric; tests merge results of one exporter.",
  ["internal/data/metrics.go", "internal/data/data.go:Collapse"])

# ---------------------------------------------------------------- K. rows
P("C56", "Row set algebra",
  "Intersect, union, difference, xor and merge of rows are the set operations on their columns, for rows spread over any shards, and counts equal the number of columns.",
  "all pairs of rows with any number of segments in any shards",
  "Rows are spread over any number of shards in segments whose layout depends on how the row was built; a test fixes one layout.",
  ["internal/rows/row.go"])
P("C57", "Row views of columns",
  "Columns come out strictly increasing; membership, per-shard columns, count and emptiness agree with them; a row built from columns contains exactly these.",
  "all rows and column lists",
  "The views must agree for every layout of segments, including empty ones and the last shard of the 64 bit range.",
  ["internal/rows/row.go"])
P("C58", "Bit sliced integers pivot correctly",
  "Pivoting a bit-sliced integer of at most 64 slices enumerates each filtered column exactly once with its value, in descending value order, honouring filter, offset and limit.",
  "all bit sliced integers, filters, limits and offsets",
  "There are 2^64 values per column and any number of columns; the traversal order depends on all bit patterns at once.",
  ["internal/rows/bsi.go"])
P("C59", "Builders store what was added",
  "Given sequential input, as documented, the row builder and the bit-slice builder represent exactly the columns / (column,value) pairs inserted, and are empty and reusable afterwards.",
  "all insertion sequences",
  "The builder changes representation at 4096 entries, and what it stores depends on the whole insertion sequence.",
  ["internal/rows/bsi.go"])

# ---------------------------------------------------------------- L. the rest
P("C60", "Arena slices hold what was written until release",
  "A slice handed out by an arena (Bytes, Marshal, Compress) holds exactly what was written through the arena's current writer and keeps those bytes, whatever is written later through this or any other pooled arena, until its arena is released; nothing from before a release reappears.",
  "all sequences of calls on any number of arenas, all growth policies of append, all failures of marshalling and compression",
  "aliasing of backing arrays over unbounded call sequences, and a pool shared by goroutines",
  ["internal/arena/arena.go"])
P("C61", "Columnar encoding round trips",
  "Appending messages to the columnar builder and reading rows back yields the same messages.",
  "all message types the package accepts, to any depth, and all lists of messages",
  "Message types are built by reflection to any depth, and whether columns stay aligned depends on all rows appended so far.",
  ["internal/arrow3/node.go", "internal/arrow3/arrow3.go"])
P("C62", "Self telemetry metrics conversion",
  "Converting the server's own metrics keeps every valid metric and data point, in place and with all its fields, and reports each of the others as an error; nothing is dropped silently and nothing valid is dropped because something else is not.",
  "all collections with any number of scopes, metrics and points of every kind",
  "Collections hold any number of scopes, metrics and points of five kinds, with any mix of valid and invalid ones.",
  ["internal/self/metrics/transform/metricdata.go"])
P("C63", "Self telemetry span grouping",
  "Grouping spans by resource and scope keeps every span exactly once under its own resource and scope.",
  "all lists of spans and all map iteration orders",
  "Spans are grouped through two maps with random iteration order; that none is lost or misfiled concerns every list of spans and every order.",
  ["internal/self/trace/tracetransform/span.go"])
P("C64", "Scan builder",
  "The JavaScript scan builder produces the scan the calls describe: filters in call order, window in milliseconds, last setting wins.",
  "all sequences of builder calls with any arguments",
  "Scripts call the builder any number of times in any order; which call wins must be right for every sequence.",
  ["internal/js/scan.go"])
P("C65", "Program cache is transparent",
  "Running a query through the program cache runs exactly the submitted source.",
  "all sources and cache behaviours",
  "Sources are found by a 64 bit hash, entries are evicted at the cache's pleasure: neither collisions nor evictions can be tested for.",
  ["internal/snippets/snippets.go", "internal/commands/query/query.go"])
P("C66", "Merging keeps metric metadata",
  "Every data point is reported with the description, unit, temporality and monotonicity it was recorded with.",
  "all lists of metric payloads",
  "It is violated only by histories in which two exporters disagree on a metric; tests merge results of one.",
  ["internal/data/metrics.go"])
P("C67", "A scan delivers what was saved",
  "The result of a filtered range scan contains every record of every saved sample that carries the asked labels and is filed in the consulted window, under its own resource and scope, and no record of any other kind of sample.",
  "all histories of saves, all filters and windows",
  "composition of indexing, time filing, storage and merging over all histories",
  ["internal/store/scan.go", "internal/store/store.go", "internal/data/data.go"])
P("C68", "Trimming never crashes",
  "Applying the conditions of a scan to whatever the store answered never crashes the query: it returns a result or an error.",
  "all stored payloads, all conditions, all answers of the store",
  "Whether an attribute without a value or an empty answer meets a condition depends on data and conditions together; tests exercise well-formed data only.",
  ["internal/visit/visit.go: matchAttr, Visit", "internal/js/rq.go: JS.Scan"])
P("C69", "Clients are never blocked by a running save",
  "While a flush is being written to the store, every waiting client can still be answered without that write having to end first, and the flush loop does not hold the buffer's mutex while it writes.",
  "all interleavings of any number of client calls, flush ticks, cancellations and other writes",
  "A deadlock or a lock held too long shows only under particular schedules; tests run a few of them.",
  ["internal/service/service.go:Service.Save", "internal/service/service.go:Service.start"])
P("C70", "Sums of bit-sliced integers",
  "Adding two bit-sliced integers gives every column the sum of its two values, and building, adding and enumerating return exactly the columns with a positive sum, with their sums, greatest first.",
  "all bit-sliced integers the package can produce, all columns",
  "Carries between slices, missing slices and shards present on one side only interact; tests use a random sample.",
  ["internal/rows/bsi.go:AddBSI"])
P("C71", "Calendar windows",
  "today(), thisWeek(), thisMonth(), thisYear() and ago(d) ask for exactly the instants up to now in the current local day, week (from Sunday), month, year, or the last d; timeRange(a, b) for exactly the milliseconds from a to b; the last such call decides.",
  "all scripts, clock readings, zone offsets and instants",
  "Month lengths, leap years, negative offsets and instants before 1970 cannot be enumerated.",
  ["internal/js/scan.go:Scan.Today", "internal/js/scan.go:Scan.ThisWeek", "internal/js/scan.go:Scan.ThisMonth", "internal/js/scan.go:Scan.ThisYear", "internal/js/scan.go:Scan.Ago", "internal/js/scan.go:Scan.TimeRange"])
P("C72", "An interrupted query leaves no broken program behind",
  "When writing a bundled program to the cache directory fails or the process dies, later queries still run the whole program; a new version of the command line does not run programs bundled by an old one.",
  "all histories of queries, interruption points and installations",
  "The interruption point is any byte of the write.",
  ["internal/commands/query/query.go:build"])
P("C73", "A scan during a flush answers as of one instant",
  "A scan that runs while samples are being saved returns what a scan made at one single instant during it would have returned: it never mixes an old index with new records, or records of one part of a save with the index of another.",
  "all histories, all schedules of the reads of a scan against the writes of saves, all instants within a save, all scans",
  "Nothing but the transactions of two databases orders the two; which of the hundreds of interleavings of a scan's reads with a flush's writes happens depends on timing.",
  ["internal/store/scan.go:Store.Scan", "internal/store/store.go:Store.SaveSamples", "internal/shards/shards.go:Shards.Rows", "internal/dataframe/dataframe.go"])
P("C74", "Messages compressed at the same time never mix",
  "Every stream opened with the zstd compressor, and every Compress, To and Decompress call, behaves as if it had an encoder or decoder of its own: what it writes or reads depends on nothing but its own target and its own earlier calls; pooled codecs keep no reference to anybody's buffers; reading on after the end reports the end again.",
  "all numbers of streams, all interleavings of their steps, all choices of the pool, including streams used after their end",
  "A codec returned to the pool too early or used after it was returned corrupts another message only under particular schedules.",
  ["internal/compress/codec.go", "internal/compress/compress.go"])
P("C75", "Concurrent label look-ups find their own label",
  "Any number of scans looking up labels at the same time, while new labels are being stored, are each answered exactly as if they had looked up alone at the moment they read the database.",
  "all numbers of concurrent look-ups, all labels, all interleavings with each other and with writes",
  "The look-ups build their keys by appending to a shared slice; whether they overwrite each other depends on spare capacity and timing.",
  ["internal/translate/translate.go:Translate.Find", "internal/store/scan.go"])
P("C76", "Each shard's database is opened once",
  "Every shard database is opened at most once in a process, all readers and writers of a shard use the same handle, and closing the index closes every opened database.",
  "all sequences of accesses to shards, failures to open, and interleavings of callers",
  "The map of open databases is checked and filled in separate critical sections; a double open needs two callers at the same moment.",
  ["internal/shards/shards.go:Shards.get", "internal/shards/shards.go:Shards.Close"])

P("C77", "Printed attributes can be told apart",
  "When a query script prints metrics, the attributes of a point appear as { key = value, ... } with strings quoted, arrays in brackets and lists in braces; two different sets of attributes never print the same text, whatever characters the strings contain, and no set of attributes makes printing fail.",
  "all attribute lists of any nesting, all strings including invalid UTF-8, quotes, commas and line ends",
  "The strings are arbitrary bytes and the nesting is unbounded; a unit test shows a handful of texts and cannot exclude that two others collide.",
  ["internal/render/attribute.go attr", "internal/render/attribute.go value", "internal/js/rq.go RenderMetricsData"])
P("C78", "A printed document shows every point",
  "Printing metrics shows every resource, scope and metric in the order of the data, and for every metric all its points, one line each, with its exact time to the second, its value in the unit of the metric and its attributes, in aligned columns.",
  "all metrics documents, all option combinations, all times",
  "Documents have any number of resources, scopes, metrics and points and cells of any width; the only test writes the output to a file and compares nothing.",
  ["internal/render/metrics.go MetricsData", "internal/render/metrics.go numeric", "internal/render/metrics.go metrics", "internal/render/metrics.go formatTime"])

P("C79", "Every data point becomes one row",
  "Flattening a metrics document appends exactly one row per data point, in the order of the document, with consecutive ids; the row carries the name, kind, description, unit, temporality and monotonicity of the point's metric, its times, its exemplars, its own value and the attributes of its resource, its scope and itself, and nothing of any other point.",
  "all metrics documents with any number of resources, scopes, metrics and points of all five kinds, all states of the buffer",
  "One message object is reused for all points of a metric, so what a row shows depends on the history of the loop; a unit test fixes one history.",
  ["internal/f2/metrics.go Metrics.Append", "internal/f2/metrics.go gauge", "internal/f2/metrics.go sum", "internal/f2/attr.go Attr.Attr"])
P("C80", "Rows can be found by their labels",
  "After flattening, the index says of every row and label exactly whether the row's point has that label: the metric's name, and the string attributes of the point, its scope and its resource.",
  "all documents, rows and labels, within 2^20 labels and 2^44 rows",
  "The index is one bitmap shared by all rows, positions are computed with wrap-around; absence of false positives is a statement about all other rows.",
  ["internal/f2/attr.go Attr.do", "internal/f2/attr.go Attr.name", "internal/f2/metrics.go Metrics.Append"])
P("C81", "The series hash names the series",
  "Two rows of the same metric name and the same attributes carry the same series hash, in whatever order or repetition the attributes came; rows of different series are told apart as far as the digest tells their labels apart.",
  "all pairs of points of all documents",
  "It relates pairs of arbitrary inputs; the hash is computed on sets of translated labels.",
  ["internal/f2/attr.go Attr.Attr", "internal/f2/attr.go Attr.do"])
P("C82", "A query returns exactly the matching saved records",
  "A script that scans for records of a signal within a time window gets every record saved before that lies in the window and satisfies the script's conditions, under its resource and scope, and gets no other record.",
  "all histories of saves and restarts, all records, conditions and windows",
  "The answer depends on the whole history of the store and on three independent filters (index, views, trimming) agreeing for every record; tests fix a few records and conditions.",
  ["internal/js/rq.go JS.Scan", "internal/commands/query/query.go", "internal/service/api.go Service.ScanSamples", "internal/store/scan.go Storage.Scan", "internal/visit/visit.go All.Visit"])
P("C83", "No record is delivered twice",
  "The result of a scan contains every stored record at most as often as it was exported: no sample contributes twice, whatever views and index shards the scan goes through and however often the store was flushed, interrupted or restarted.",
  "all histories, scans (filtered or not, instant or ranged), orders of map iteration, windows within the years 0-9999",
  "A sample is filed under four views and a scan reads many views; that the views of one search never overlap is a fact about all calendar dates.",
  ["internal/store/scan.go Storage.Scan", "internal/view/view.go Search", "internal/dataframe/dataframe.go", "internal/batch/time.go"])
P("C84", "What was accepted can be queried",
  "Once a request to a collector endpoint has been answered and the next flush has completed without error, every record of the request that lies in a query's window and satisfies its conditions is in the query's answer; an answer contains nothing but matching records of requests that were answered; and once the server is at rest the answer consists of exactly the matching records of all answered requests, each as often as it was sent.",
  "all interleavings of clients and the flush loop, all earlier histories of the database, all requests, conditions and windows",
  "It joins concurrency (buffer, mutex, flush loop) with the whole history of the store and the query path; no test runs server, store and query together.",
  ["internal/service/service.go Service.Save", "internal/service/service.go Service.start", "internal/store/store.go Storage.SaveSamples", "internal/store/scan.go Storage.Scan", "internal/js/rq.go JS.Scan"])
P("C85", "Files of the database never get in each other's way",
  "For every data directory given on the command line (or none), every HOME and every working directory: the key-value database, the index and the compiled programs live in directories none of which is, contains or lies inside another; every shard has its own directory inside the index; servers with different homes share no database and no shard; a compiled program never overwrites a file of a server; an absolute path names the same place from everywhere.",
  "all path strings (with dots, doubled slashes, parents), all shard numbers and script hashes",
  "Path strings are unbounded and are cleaned lexically; tests use one temporary directory.",
  ["internal/commands/home.go Home", "internal/commands/home.go Cache", "internal/commands/home.go DB", "internal/commands/home.go Index", "internal/home/home.go Dir", "internal/shards/shards.go Shards.get", "internal/commands/query/query.go run", "cmd/rq/main.go run"])
P("C86", "Durations mean what they say",
  "A duration text given to ago() or offset() - an optional sign and terms like 15m, 1.5h or 300ms - means exactly the signed sum of its terms in nanoseconds (terms with fractions below a nanosecond may each be off by about one nanosecond), is refused if the sum does not fit 64 bits, and nothing else is accepted; ago(text) asks for exactly that time back from the clock; latest() is the last fifteen minutes; and every duration the program prints is read back as the same duration.",
  "all texts, all lists of terms, all numbers of digits before and behind the point, all clocks and scripts, all 64 bit durations",
  "Texts and numbers are unbounded and the fraction is computed in floating point; tests try a few literals.",
  ["internal/js/scan.go Scan.Ago", "internal/js/scan.go Scan.Offset", "packages/rq/src/core.ts latest", "internal/render/unit.go formatUnit"])
P("C87", "Rendered times say what was measured",
  "A metric value with the unit h, m, s, ms or ns is rendered as a duration: an integer value is shown as exactly that many units as long as it is less than 2^53 nanoseconds, so that reading the text gives back the value and different values look different; any other value of moderate size is shown with an error of less than a nanosecond and one part in 2^53.",
  "all integer values, all doubles between 2^-248 and 2^53, all time units",
  "The value passes through floating point multiplication and truncation; whether that is exact is a statement about all 64 bit numbers.",
  ["internal/render/unit.go formatUnit", "internal/render/metrics.go numeric"])
P("C88", "Requests never see each other through recycled objects",
  "Visitors, labels, sample keys, bitmaps, view times, merge tables and text buffers are recycled between requests. In every interleaving of any number of requests, each of which takes an object, uses it and gives it back, every call returns what it would return if the request were the only one ever made: no condition, label, column, time, merged resource or text of another request shows in it, whichever object is handed out and whatever the garbage collector drops. The same for the fields of script engines and the variables of the scripts that ran on them.",
  "all numbers of requests, all interleavings of their steps, all choices of the pool, all conditions, data and texts",
  "A field missing from a Reset shows only when an object that had the field set is handed out again, which depends on schedule and garbage collection; a unit test practically always gets a new object.",
  ["internal/visit/visit.go All.Reset", "internal/visit/visit.go All.Release", "internal/labels/labels.go Label.Reset", "internal/keys/keys.go Sample.Reset", "internal/bitmaps/bitmaps.go Bitmap.Release", "internal/batch/time.go QuantizedTime.Reset", "internal/data/sort.go Sorter.Reset", "internal/render/pool.go put", "internal/translate/translate.go put", "internal/js/rq.go JS.Reset"])
P("C89", "Rows keep their columns",
  "Rows behave as values: whatever rows a program makes, combines by union, intersection, difference, symmetric difference, merge and clone, changes in place and drops, every row still in use lists exactly the columns the program put into it, counts them and answers membership accordingly. A row that was cloned can be changed without the clone changing, and the other way round.",
  "all programs over any number of rows, of any length, with any columns",
  "Union, difference, symmetric difference and merge hand out parts of their operands; a later change in place shows in another row only for particular shards and a particular order of calls.",
  ["internal/rows/row.go Row.Merge", "internal/rows/row.go Row.Union", "internal/rows/row.go Row.Difference", "internal/rows/row.go Row.Xor", "internal/rows/row.go Row.Clone", "internal/rows/row.go Row.Freeze", "internal/rows/row.go RowSegment.ensureWritable", "internal/shards/shards.go Shards.Row"])
P("C90", "Shifting a row moves every column",
  "Shift(n) refuses a negative n, and otherwise gives the row of all columns plus n, in order and counted, without those that do not fit 64 bits; shifting step by step is shifting at once; the result is a row like any other for membership and for being combined with other rows.",
  "all rows the package can produce, all n",
  "Columns cross the edges of shards only for particular columns and distances.",
  ["internal/rows/row.go Row.Shift", "internal/rows/row.go RowSegment.Shift"])
P("C91", "Tables show the row",
  "The table made of a row has one line per key, in order, or if it has no keys one line per column in ascending order, with one cell of the kind the header names; delivering line by line gives the header with the first line only and stops at the first line the receiver refuses; a clone gives the same table and keeps all attributes; a cell can be read as what it holds.",
  "all rows, keys and receivers",
  "Rows, keys and the point of refusal are unbounded.",
  ["internal/rows/row.go Row.ToTable", "internal/rows/row.go Row.ToRows", "internal/rows/row.go RowsToTable", "internal/rows/row.go Row.Clone", "internal/rows/row.go Value.Float64"])
P("C92", "Errors name everything that failed",
  "When the server cannot express some of its own metrics in OTLP, the error it reports has one line for every such metric, in order, with name, description and unit quoted and what is wrong, and asking the error for a reason finds it exactly if a metric failed for it, however errors are nested and collected. Stopping the server's own telemetry asks every part to stop, once and in order, even when one fails; there is an error exactly if a part had one, and every reported error is found in it.",
  "all collections of scopes and metrics, all names, all nestings of errors, all numbers of parts and answers",
  "Flattening, unwrapping and joining of errors are recursive over unbounded lists; a lost error shows only in particular nestings.",
  ["internal/self/metrics/transform/error.go multiErr", "internal/self/metrics/transform/error.go errMetric", "internal/self/metrics/transform/metricdata.go Metrics", "internal/self/metrics/transform/metricdata.go ScopeMetrics", "internal/self/metrics.go Metrics.Export", "internal/self/self.go closers.Shutdown"])
P("C93", "A stored view reads back as its rows",
  "The table of a view is grown by appending whole batches of rows behind the columns read back before. After any history of saves the table has one row per saved sample or skipped number, appending never fails for readable payloads, and each row read for a signal gives exactly the stored payload if it is of that signal, nothing otherwise, whatever rows are around it and however they were batched. The columns read for a signal are exactly those of that signal.",
  "all message types of up to the supported depth, all payloads, all numbers and sizes of batches, all row numbers, all choices of top level fields",
  "Appending shifts the offsets of lists at every level of nesting; a wrong shift shows only in rows behind particular earlier rows.",
  ["internal/dataframe/dataframe.go DataFrame.appendView", "internal/dataframe/dataframe.go readRows", "internal/dataframe/columns.go NewColumns", "internal/arrow3/parquet.go WriteParquetRecords", "internal/arrow3/parquet.go Read", "internal/arrow3/node.go"])
P("C94", "Starting and stopping the server",
  "The parts of the server are opened in an order in which each finds what it needs, and closed in reverse order, at the first part that cannot be opened as well as after serving; what an open part needs is open at every moment; every opened part is closed once before the process ends; a start that fails leaves the numbering of samples as it was; while stopping nothing uses a closed part, and an orderly stop reports success.",
  "all combinations of parts that cannot be opened, all histories of lives, all interleavings of stopping with saves and requests",
  "A start can fail at any part and a signal can arrive at any step of a save; tests stop an idle server that started well.",
  ["cmd/rq/main.go run", "cmd/rq/main.go main", "internal/logger/fail.go Fail", "internal/service/service.go Service.start", "internal/store/store.go Storage.Translate", "internal/store/scan.go Storage.Scan", "internal/service/service.go Service.Save", "internal/seq/seq.go New", "internal/seq/seq.go Seq.SampleID"])
P("C95", "The server's own telemetry can be queried",
  "Spans and data points that the server records about itself and exports to its own ingest endpoint are found, after the next flush, by every query whose conditions are true of them and whose window contains their time: with every field they were recorded with, under the server's own resource attributes and the scope that recorded them.",
  "all lists of finished spans and all metric collections, all map iteration orders, all conditions true of the span or metric, all histories of store and service, all windows",
  "The conversion, grouping, buffering, indexing, merging and trimming steps are tested apart, on a few values; that nothing between the SDK and the answer loses a span depends on all of them for every input.",
  ["internal/self/trace.go Trace.ExportSpans", "internal/self/metrics.go Metrics.Export", "internal/self/trace/tracetransform/span.go Spans", "internal/self/metrics/transform/metricdata.go ResourceMetrics", "internal/service/service.go Service.Export", "internal/js/rq.go"])
P("C96", "What a query script says is what it gets",
  "A script that constructs Metrics, Trace or Logs, calls methods and then query() gets exactly the records, among all the records of answered requests of that signal, that meet every condition method it called and whose time lies in the window the last window method describes (today, this week, month or year so far in the machine's zone, or a duration back from now), each as often as it was sent; settings such as limit and now take no record away; the script gets an exception instead only for a duration that cannot be read or when the scan fails.",
  "all classes, chains of methods, arguments, clock readings and zones, all histories of requests, saves and flushes of a server, all payloads",
  "a test script asks for a few names at one time of day; which records a window loses depends on the minute of the hour, the day of the week and the zone, for every chain of methods",
  ["packages/rq/src/core.ts Config", "packages/rq/src/core_metrics.ts Metrics", "packages/rq/src/core_trace.ts Trace", "packages/rq/src/core_logs.ts Logs", "internal/js/scan.go Scan", "internal/js/rq.go JS.Scan", "internal/store/scan.go Storage.Scan", "internal/view/view.go Search"])
P("C97", "Queries at the same time do not disturb each other",
  "Any number of rq query commands run at the same time on one machine. Each runs the program bundled from its own script and the library it ships with, as if it were alone; none touches temporary files that were there before; and when all have ended the temporary directory is as before.",
  "all numbers of commands, scripts, interleavings of their steps, failing system calls and kills at any step, all contents of the temporary directory and of an honest cache",
  "the commands share a cache directory and a temporary directory; what goes wrong needs a particular interleaving or a failing write",
  ["internal/compile/compile.go Compile", "internal/compile/compile.go createPackage", "internal/compile/compile.go setup", "internal/commands/query/query.go run", "internal/js/bundle/bundle.go PKG"])
P("C98", "What was saved is found again after restarts and crashes",
  "Every record that a successful save ever took is answered by later queries that it matches, whatever happened since: restarts, crashes in the midst of other saves, failed saves. No record is answered more often than it was sent, and nothing is answered that was not sent.",
  "all histories of saves (complete, failed, or cut off at any step) and restarts, all queries with conditions and a time range",
  "A test restarts a server once or twice; the claim is about every history of saves and crashes, every crash point inside a save and every later query.",
  ["internal/store/store.go Storage.SaveSamples", "internal/store/store.go NewStore", "internal/store/scan.go Storage.Scan", "internal/shards/shards.go Shards.get", "internal/shards/shards.go New", "internal/js/scan.go JS.scan"])
P("C99", "Labels are kept apart in the server as it is wired",
  "Within a number of new labels per process and as long as the hashes of labels differ, the server with its label cache, its shared key buffers and scans running between saves behaves as one whose translator is a plain table of labels: the same saves succeed, the same samples are found by the same queries with the same answers, the labels of samples read back the same, over any number of restarts, orderly or not.",
  "all histories of saves and restarts within the limits, all looked up labels, cache evictions and admissions between and during saves, all ways slices grow, all payloads and queries",
  "whether two label tables that share a key prefix, or a cache keyed by a hash, ever mix up two labels depends on the whole history of labels and on what the cache happens to hold",
  ["cmd/rq/main.go run", "internal/store/store.go Storage.Translate", "internal/store/store.go NewStore", "internal/translate/translate.go New", "internal/translate/translate.go Translate.Find", "internal/translate/translate.go Translate.TranslateID", "internal/translate/translate.go Translate.Close", "internal/store/scan.go Storage.Scan"])
P("C100", "Queries in every hour are answered exactly",
  "In every hour, day, month and year, also one that begins long after the first sample was saved, a query answers exactly the matching records saved for it, each as often as it was sent, and nothing else.",
  "all histories of saves, failures, crashes and restarts, all ways samples are split over flushes, signals and hours, all conditions and windows",
  "rows of a view are addressed by sample number; how far numbers and rows are apart depends on how the whole history was batched, and tests query only the first hour of a database",
  ["internal/dataframe/dataframe.go DataFrame.appendView", "internal/dataframe/dataframe.go DataFrame.read", "internal/store/scan.go Storage.Scan", "internal/data/data.go Collapse", "internal/js/rq.go JS.Scan"])
P("C101", "Any number of labels",
  "However many different labels the server meets, in one process and over all of them, a label keeps the column it was first given, and queries answer exactly the matching records, each as often as it was sent: labels that come later take nothing away and add nothing.",
  "all histories of saves, failures, crashes, orderly and other restarts with any number of labels, all cache admissions and evictions, all scans between the saves, all queries",
  "what goes wrong with label numbers starts only after thousands of labels in one process; tests use a handful",
  ["internal/translate/translate.go New", "internal/translate/translate.go Translate.TranslateKey", "internal/translate/translate.go Translate.Close", "internal/store/store.go Storage.Translate", "internal/store/scan.go Storage.Scan", "internal/js/rq.go JS.Scan", "cmd/rq/main.go run"])
P("C102", "A query script gets what it asks for, from the server as built",
  "A query script run against the server after any number of requests, flushes, crashes and restarts gets exactly the accepted records that it asks for (its signal, its conditions, its window: latest, today, this week, month, year, or a time ago), each as often as it was sent, and nothing else.",
  "all histories over any number of processes, all requests and interleavings of handling and flushing, any number of labels, all scripts whose conditions name one value each, all windows, clocks and zones, all orders of answering",
  "the script, the search of hours, days, months and years, the trimming, the merging, the translator and the batching each lose records only for some clocks, histories and hash values; no finite set of end-to-end tests meets their combinations",
  ["internal/js/rq.go JS.Scan", "internal/js/scan.go ScanBuilder", "internal/store/scan.go Storage.Scan", "internal/dataframe/dataframe.go DataFrame.read", "internal/data/data.go Collapse", "internal/service/service.go Service", "cmd/rq/main.go run"])
P("C103", "The JSON of a row is the row",
  "The JSON a row is sent as is well formed JSON that says exactly the row's columns, in ascending order, and its keys; two rows have the same JSON exactly if they have the same columns and keys, however they were built.",
  "all rows built and combined in any way, all keys (any bytes)",
  "keys are arbitrary bytes and rows arbitrary sets; whether the text can be read in another way is a question about all texts",
  ["internal/rows/row.go Row.MarshalJSON", "internal/rows/row.go Row.Columns"])
P("C104", "Calendar windows with daylight saving",
  "On a machine whose clock changes to and from daylight saving time, today(), thisWeek(), thisMonth() and thisYear() still ask for exactly the instants up to now at which the clock on the wall shows the current day, week, month or year.",
  "all scripts, all time zones with any number of offset changes, all instants of the query and of records, before, between and after the changes",
  "the local time of an instant is neither monotone nor onto across a change, and a window may contain any number of changes at any hour; tests sample a few zones and dates",
  ["internal/js/scan.go Scan.Today", "internal/js/scan.go Scan.ThisWeek", "internal/js/scan.go Scan.ThisMonth", "internal/js/scan.go Scan.ThisYear", "internal/commands/query/query.go run"])
P("C105", "What a script gets, with daylight saving",
  "A script run on a machine whose clock has daylight saving gets exactly the records it asks for of the payloads its window looks at, the current day, week, month and year being those the clock on the wall shows.",
  "all scripts whose conditions are clear, all time zones whose changes repeat no midnight and skip none west of Greenwich, all instants of the calls, all histories of requests, flushes, crashes and restarts of the server",
  "the window is built from local time, the search and the stored views are in UTC, and the changes of offset can fall anywhere between; no test runs queries across a change",
  ["internal/js/scan.go Scan.Today", "internal/js/scan.go Scan.ThisWeek", "internal/js/scan.go Scan.ThisMonth", "internal/js/scan.go Scan.ThisYear", "internal/commands/query/query.go run", "packages/rq/src/core.ts today", "internal/store/scan.go Storage.Scan"])
P("C106", "Trying again",
  "retry.Do always returns, with the outcome of its last attempt: nil if that succeeded, else its error; it never stops after a failure that is not permanent until thirteen and a half minutes have passed, waits between a quarter of a second and a minute and a half before each further attempt, and begins none later than fifteen minutes (plus the timer's delay) after the call; earlier uses of its pooled state make no difference.",
  "all operations (any sequence of outcomes and running times), all random draws, all timer delays, all histories of the pool",
  "the worst case takes fifteen minutes and depends on thousands of random draws; tests cannot wait for it or enumerate the draws",
  ["internal/retry/retry.go Do", "internal/retry/retry.go get", "internal/retry/retry.go put", "internal/retry/retry.go reset"])
P("C107", "The home directory on Windows",
  "On Windows home.Dir returns what its comment documents: the first of %HOME%, %HOMEDRIVE%%HOMEPATH%, %USERPROFILE% holding a .kube\\config; else the first of %HOME%, %USERPROFILE%, %HOMEDRIVE%%HOMEPATH% that is a writeable directory; else the first that exists; else the first that is set; else the empty string; and these rules determine one answer.",
  "all values of the four environment variables and all answers of the file system",
  "the four variables, set or not, with every combination of what the file system says of each, on an operating system the tests do not run on",
  ["internal/home/homedir.go Dir"])
P("C108", "The log level",
  "The text given by --logLevel or RQ_LOG_LEVEL (debug, info, warn or error in any case, perhaps with a signed offset) determines one level; the server and the query command print exactly the log messages of that severity or above, those of the database included, and exactly those of info or above if the text is none of these.",
  "all texts, all severities",
  "texts are unbounded, and every text must be accounted for, mistyped ones included",
  ["internal/logger/setup.go Setup", "cmd/rq/main.go setupLogging", "cmd/rq/main.go Logger", "internal/commands/query/query.go run"])
P("C109", "The retention period",
  "Records older than the period given by --retentionPeriod or RQ_DATA_RETENTION_PERIOD (a week unless given) are not answered any more; younger ones are.",
  "all histories, all retention periods, all clocks, all queries",
  "the period is a week and queries may come at any later time; a test cannot wait, and the absence of expiry must hold for every history",
  ["cmd/rq/main.go run", "internal/service/service.go NewService", "internal/store/scan.go Storage.Scan", "internal/x/x.go TimeBounds"])
P("C110", "Answers of any size",
  "A query gets its whole answer, never a part of it, however much the server has stored of what it asks for.",
  "all stores, all queries, all sizes of payloads under any encoding",
  "sizes are unbounded, and the limit is a default of the transport that shows only with megabytes of matching data from many requests",
  ["cmd/rq/main.go run", "internal/commands/home.go Conn", "internal/service/api.go Service.ScanSamples", "internal/js/rq.go JS.Scan"])
