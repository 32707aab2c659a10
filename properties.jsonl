{"id": "C01", "title": "Index labels are unambiguous", "statement": "Two labels that differ in resource, prefix, key or value are never encoded to the same byte string, so an index column can never stand for two different facts.", "quantifier": "all pairs of labels (any resource and prefix number, any key and value byte strings)", "why_tests_cant": "the set of attribute keys and values is infinite and attacker controlled; a test only tries a few strings", "anchors": ["internal/labels/labels.go:Label.Encode"]}
{"id": "C02", "title": "Labels of different signals or prefixes never collide", "statement": "Whatever the key and value bytes are, the encoded label determines the resource (metrics, traces, logs) and the prefix (resource attribute, scope name, ...): a filter on one signal can never resolve to a column of another one.", "quantifier": "all pairs of labels, arbitrary keys and values including ones with ':' and '=' in them", "why_tests_cant": "needs all byte strings, including adversarial ones that contain the separators", "anchors": ["internal/labels/labels.go:Label.Encode", "proto/rq/v1/common.proto:PREFIX", "proto/rq/v1/common.proto:RESOURCE"]}
{"id": "C03", "title": "Key spaces sharing the key-value store are disjoint", "statement": "The label->id table, the id->label table, the two sequence counters, the stored data frames and the per-signal membership sets share one key-value store; no user supplied label, id or view name can make a write of one of them overwrite or be read as an entry of another.", "quantifier": "all labels, all ids, all view names", "why_tests_cant": "labels are arbitrary user bytes; disjointness must hold for every one", "anchors": ["internal/translate/translate.go:New", "internal/seq/seq.go:New", "internal/dataframe/dataframe.go", "cmd/rq/main.go:run"]}
{"id": "C04", "title": "Sample keys are unique and prefix scannable", "statement": "The sample key built from a resource and an id is different for every (resource,id), and the prefix built for a resource is a prefix of exactly the keys of that resource.", "quantifier": "all resources and all 64 bit ids", "why_tests_cant": "2^64 ids and the prefix relation between decimal strings cannot be sampled", "anchors": ["internal/keys/keys.go:Sample.Encode", "internal/keys/keys.go:Sample.Prefix"]}
{"id": "C05", "title": "Sample ids are never reused", "statement": "Every id handed out by the sample sequence is different from every id handed out before, in this process or any earlier one, whatever the interleaving of allocations, clean shutdowns, crashes and reopenings; within one process ids increase.", "quantifier": "all histories of allocate / release / crash / reopen operations", "why_tests_cant": "crash points and restart histories are unbounded", "anchors": ["internal/seq/seq.go:New", "internal/seq/seq.go:Seq.SampleID", "internal/seq/seq.go:Seq.Release"]}
{"id": "C06", "title": "Column ids are stable and never shared", "statement": "Translating the same label always yields the same column id, and two different labels never receive the same column id, over any history of translations, look-ups, clean shutdowns, crashes and reopenings.", "quantifier": "all operation histories over all labels, with the translator's prefix slice exactly as long as its capacity", "why_tests_cant": "unbounded histories, crash points between lease and use", "anchors": ["internal/translate/translate.go:New", "internal/translate/translate.go:Translate.TranslateKey"]}
{"id": "C07", "title": "Column ids translate back to their label", "statement": "After a label was translated to id n, translating id n back returns exactly the bytes of that label, forever; ids never handed out are reported as not found.", "quantifier": "all operation histories, all labels and ids", "why_tests_cant": "round trip over unbounded histories and arbitrary bytes", "anchors": ["internal/translate/translate.go:Translate.TranslateID", "internal/translate/translate.go:Translate.TranslateBulkID"]}
{"id": "C08", "title": "Looking a label up never creates it", "statement": "Find returns the id TranslateKey gave the label, or reports not found, and has no effect: no later operation can tell that it was called.", "quantifier": "all states and labels", "why_tests_cant": "absence of an effect is a statement about every later history", "anchors": ["internal/translate/translate.go:Translate.Find"]}
{"id": "C09", "title": "The server's own wiring gives labels distinct ids", "statement": "With the prefix slice the server binary passes to the translator, two different labels never receive the same column id (C06 for the production configuration).", "quantifier": "all operation histories with the prefix slice as built in main (length 1, spare capacity)", "why_tests_cant": "the failure needs more than 4096 distinct labels and depends on slice capacity rounding in the Go runtime", "anchors": ["cmd/rq/main.go:run", "internal/translate/translate.go:New"]}
{"id": "C10", "title": "The column cache is transparent", "statement": "Translating through the in-memory cache gives the same id as asking the store directly, for any eviction behaviour of the cache.", "quantifier": "all sequences of translations, all eviction schedules, any hash function", "why_tests_cant": "cache admission and eviction are nondeterministic; hash collisions cannot be found by tests", "anchors": ["internal/store/store.go:Storage.Translate"]}
{"id": "C11", "title": "Time views identify calendar units", "statement": "Two timestamps are filed under the same hourly (daily, monthly, yearly) view name exactly when they lie in the same UTC hour (day, month, year) of the Gregorian calendar.", "quantifier": "all pairs of 64 bit nanosecond timestamps (years 1677-2262, including before 1970 and leap days)", "why_tests_cant": "2^128 pairs of timestamps; calendar edge cases (400 year rule, negative times) are easy to miss", "anchors": ["internal/batch/time.go:QuantizedTime.Set", "internal/batch/time.go:QuantizedTime.ViewsBuf", "internal/view/view.go:Std"]}
{"id": "C12", "title": "Every sample is filed under exactly four nested views", "statement": "Filing a timestamp never fails and yields exactly one year, one month, one day and one hour view; each is a prefix of the next finer one; no view of one granularity equals a view of another granularity.", "quantifier": "all 64 bit nanosecond timestamps", "why_tests_cant": "must hold for every timestamp", "anchors": ["internal/batch/time.go:QuantizedTime.ViewsBuf", "internal/batch/batch.go:Quantum"]}
{"id": "C13", "title": "Query granularity follows the length of the range", "statement": "The unit used to search a range is the hour below one day, the day below 30 days, the month below 360 days and the year from there on, for negative and huge durations too.", "quantifier": "all 64 bit durations", "why_tests_cant": "boundaries over 2^64 durations", "anchors": ["internal/view/view.go:ChooseQuantum"]}
{"id": "C14", "title": "Scan window computation", "statement": "An explicit time range is used as given, whatever now and offset say; otherwise the window is the 15 minutes ending at (now or the wall clock) minus the offset, so its length is always 15 minutes and start <= end.", "quantifier": "all scan requests and clocks", "why_tests_cant": "all combinations of optional fields and time values", "anchors": ["internal/x/x.go:TimeBounds"]}
{"id": "C15", "title": "A scan looks at every view its window touches", "statement": "Every timestamp inside the scan window is filed under one of the views the search consults (no data inside the window is skipped).", "quantifier": "all windows and all timestamps in them", "why_tests_cant": "windows that start in the middle of a unit are infinitely many; the failing ones depend on calendar arithmetic", "anchors": ["internal/view/view.go:Search", "internal/shards/shards.go:Shards.Rows", "internal/dataframe/dataframe.go:DataFrame.View"]}
{"id": "C16", "title": "Bitmap positions are a bijection", "statement": "A (sample id, column) pair is stored at a position from which the sample id and the column within its shard are recovered, with no two pairs of one shard sharing a position; ids of 2^44 and above wrap and collide.", "quantifier": "all sample ids and columns", "why_tests_cant": "2^128 pairs; overflow boundary", "anchors": ["internal/view/view.go:Pos", "internal/batch/batch.go:Batch.makeFragments", "internal/shards/shards.go:row"]}
{"id": "C17", "title": "Time span of a sample", "statement": "When no record carries a zero timestamp, the minimum (maximum) recorded for a sample is the minimum (maximum) over the timestamps of all its data points, log records or spans (start for minimum, end for maximum), independent of their order.", "quantifier": "all OTLP payloads of any size and nesting", "why_tests_cant": "unbounded nested payloads, any order of timestamps", "anchors": ["internal/transform/transform.go:Context.Timestamp", "internal/transform/transform.go:Context.Range", "internal/transform/transform.go:Context.processSample"]}
{"id": "C18", "title": "Zero timestamps do not disturb the time span", "statement": "The minimum recorded for a sample is the minimum over its non-zero timestamps (zero means unset), whatever the order of records.", "quantifier": "all OTLP payloads", "why_tests_cant": "the failure depends on the order of zero and non-zero records", "anchors": ["internal/transform/transform.go:Context.Timestamp"]}
{"id": "C19", "title": "Exactly the documented labels are indexed", "statement": "Apart from the per-signal marker, the labels recorded for a sample are exactly: resource schema and string resource attributes, scope schema, name, version and string attributes, metric or span names, string attributes of data points and log records, log level, and trace/span/parent ids in hex; nothing more and nothing less, in the sample's own signal.", "quantifier": "all OTLP payloads of any size and nesting", "why_tests_cant": "unbounded nested payloads; both inclusions needed", "anchors": ["internal/transform/transform.go", "internal/transform/metrics.go", "internal/transform/logs.go", "internal/transform/trace.go"]}
{"id": "C20", "title": "Every sample carries the marker of its own signal", "statement": "Every stored sample is labelled with the signal (metrics, traces, logs) it belongs to, so that a scan without filters finds it.", "quantifier": "all sequences of samples", "why_tests_cant": "depends on the order in which different signals arrive", "anchors": ["internal/transform/transform.go:Context.init", "internal/transform/transform.go:Context.data"]}
{"id": "C21", "title": "Processing a sample does not depend on earlier ones", "statement": "Labels (other than the signal marker), minimum and maximum recorded for a sample depend on that sample alone, not on what the same context processed before.", "quantifier": "all sequences of samples processed by one context", "why_tests_cant": "hidden state carried between samples over unbounded sequences", "anchors": ["internal/transform/transform.go:Context.processSample"]}
{"id": "C22", "title": "A batch builds exactly the right bitmaps", "statement": "The bitmap built for (shard, view) contains the position of (sample, column) exactly when that sample carries that column, the column lies in the shard and the sample's time is filed under the view; nothing is lost, duplicated or misfiled, and the batch is empty afterwards.", "quantifier": "all batches: any number of samples, columns and times", "why_tests_cant": "unbounded batches, shard boundaries", "anchors": ["internal/batch/batch.go:Batch.Add", "internal/batch/batch.go:Batch.makeFragments", "internal/batch/batch.go:Batch.Build", "internal/batch/batch.go:Fragments.GetOrCreate"]}
{"id": "C23", "title": "Index look-up within one shard is exact", "statement": "When all requested columns live in one open shard, the look-up returns exactly the samples that carry all of them in some one of the consulted views.", "quantifier": "all index contents, views and column sets", "why_tests_cant": "set semantics over arbitrary bitmaps", "anchors": ["internal/shards/shards.go:Shards.Rows", "internal/shards/shards.go:Shards.rows"]}
{"id": "C24", "title": "Index look-up across shards is exact", "statement": "The look-up returns exactly the samples that match the requested columns of every shard.", "quantifier": "all index contents, views and column sets spanning any number of shards", "why_tests_cant": "needs more than 2^20 columns before the second shard exists, so no test reaches it", "anchors": ["internal/shards/shards.go:Shards.rows"]}
{"id": "C25", "title": "Look-up does not depend on map iteration order", "statement": "The result of an index look-up is the same for every order in which the shards are visited.", "quantifier": "all orders of shards", "why_tests_cant": "Go randomises map iteration; tests see one order", "anchors": ["internal/shards/shards.go:Shards.rows"]}
{"id": "C26", "title": "Index survives a restart", "statement": "A look-up after closing and reopening the index returns what it returned before.", "quantifier": "all index contents and restart points", "why_tests_cant": "histories with restarts", "anchors": ["internal/shards/shards.go:New", "internal/shards/shards.go:Shards.get", "internal/shards/shards.go:Shards.rows"]}
{"id": "C27", "title": "Index updates are all or nothing", "statement": "An update of a shard whose callback fails leaves the index unchanged; one that succeeds applies all its changes, and other shards are never touched.", "quantifier": "all callbacks, states and failure points", "why_tests_cant": "every failure point", "anchors": ["internal/shards/shards.go:Shards.Update", "internal/shards/shards.go:Shards.View"]}
{"id": "C28", "title": "Labels of a stored sample can be read back", "statement": "Asking for the labels of a sample in a view returns, in increasing column order, exactly the labels recorded for it, whatever the number of shards and the order they are visited.", "quantifier": "all histories, samples and views", "why_tests_cant": "shard visiting order and unbounded label sets", "anchors": ["internal/store/scan.go:Storage.Labels", "internal/shards/shards.go:Shards.Row", "internal/shards/shards.go:row", "internal/rows/row.go:Row.Merge"]}
{"id": "C29", "title": "Row number equals sample id", "statement": "In every stored view, the row whose number is the sample id holds that sample's data.", "quantifier": "all sequences of flushes, with any gaps between ids", "why_tests_cant": "depends on which ids land in which view over unbounded histories", "anchors": ["internal/dataframe/dataframe.go:DataFrame.appendView"]}
{"id": "C30", "title": "Views anchored at sample 0 stay aligned", "statement": "If the first sample ever filed in a view has id 0, row number equals sample id for all samples filed later, and rows of absent ids are blank.", "quantifier": "all flush histories with increasing ids", "why_tests_cant": "unbounded histories", "anchors": ["internal/dataframe/dataframe.go:DataFrame.appendView"]}
{"id": "C31", "title": "Per-signal membership sets are exact", "statement": "After any history of flushes the membership set of a signal in a view is exactly the set of ids of samples of that signal filed in that view, and the three sets are disjoint.", "quantifier": "all flush histories", "why_tests_cant": "unbounded histories", "anchors": ["internal/dataframe/dataframe.go:DataFrame.appendView", "internal/dataframe/dataframe.go:DataFrame.Append"]}
{"id": "C32", "title": "Reading never crosses signals", "statement": "Reading rows for one signal only ever touches rows of ids filed under that signal, in increasing id order, each at most once per view; missing views contribute nothing.", "quantifier": "all stored states, id sets and view lists", "why_tests_cant": "Which rows a read touches depends on the stored membership sets of every view and on the asked ids together; a test fixes one stored state.", "anchors": ["internal/dataframe/dataframe.go:DataFrame.read", "internal/dataframe/dataframe.go:DataFrame.Unmarshal", "internal/dataframe/dataframe.go:DataFrame.View"]}
{"id": "C33", "title": "A flush interrupted anywhere keeps every view consistent", "statement": "Whatever the point at which a flush is interrupted, each view's record and membership sets are either all from before or all from after the flush, and views not yet reached are unchanged.", "quantifier": "all flushes and all crash points, all orders of views", "why_tests_cant": "crash points between transactions", "anchors": ["internal/dataframe/dataframe.go:DataFrame.Append", "internal/dataframe/dataframe.go:DataFrame.appendView"]}
{"id": "C34", "title": "Filters are a conjunction", "statement": "The columns a scan searches for are exactly the ids of the labels named by its filters in the scan's own signal; if any of them is unknown the scan matches nothing; without filters it is the signal marker.", "quantifier": "all scans, all translation states", "why_tests_cant": "Filter lists are unbounded and their meaning depends on which labels any earlier save happened to translate.", "anchors": ["internal/store/scan.go:Storage.CompileFilters"]}
{"id": "C35", "title": "Scan is sound", "statement": "Every sample whose data a scan returns belongs to the requested signal, carries every requested label and is filed under a view the scan's window selects.", "quantifier": "all histories of saves and all scans", "why_tests_cant": "end to end over unbounded histories", "anchors": ["internal/store/scan.go:Storage.Scan", "internal/store/store.go:Storage.SaveSamples"]}
{"id": "C36", "title": "Scan is complete", "statement": "A saved sample with all the requested labels whose filing time is in the scan window is returned.", "quantifier": "all histories of saves and all scans", "why_tests_cant": "end to end over unbounded histories; false for the code in several ways, each needing a specific history", "anchors": ["internal/store/scan.go:Storage.Scan", "internal/store/store.go:Storage.SaveSamples"]}
{"id": "C37", "title": "Instant scans return the newest match", "statement": "A scan without a time range returns the data of exactly one sample, the matching sample with the largest id, or the empty result of the signal.", "quantifier": "all histories and scans without time range", "why_tests_cant": "The newest match depends on the whole history of saves and on the order of ids across views; a test replays one history.", "anchors": ["internal/store/scan.go:Storage.Scan"]}
{"id": "C38", "title": "Limit and reverse are honoured", "statement": "A scan returns at most limit entries and newest first when reverse is set.", "quantifier": "all scan requests with any limit and direction, all stored states", "why_tests_cant": "A request may combine any limit and direction with any stored state; a test compares one answer.", "anchors": ["internal/store/scan.go:Storage.Scan", "proto/rq/v1/rq.proto:Scan"]}
{"id": "C39", "title": "Storage errors reach the client", "statement": "If reading the stored frames fails, the scan reports an error rather than an empty answer.", "quantifier": "all states and failures of the underlying store", "why_tests_cant": "fault injection at every read", "anchors": ["internal/store/scan.go:Storage.Scan"]}
{"id": "C40", "title": "No match yields the empty result of the signal", "statement": "When nothing matches, the answer is the empty metrics/logs/traces container of the requested signal, never a missing one.", "quantifier": "all states and scans", "why_tests_cant": "Whether nothing matches depends on the whole stored state, including samples of other signals that share the asked columns.", "anchors": ["internal/store/scan.go:Storage.Scan", "internal/data/data.go:Zero", "internal/data/data.go:Collapse"]}
{"id": "C41", "title": "Crash during save never indexes unknown data", "statement": "Whatever the crash point during a save, every (sample, column) present in the index refers to a sample whose data is already stored in the corresponding view and to a column that translates back to a label.", "quantifier": "all save histories and all crash points between transactions", "why_tests_cant": "A save is a sequence of separate transactions over two databases; a crash may fall between any two of them in any save of any history.", "anchors": ["internal/store/store.go:Storage.SaveSamples", "internal/translate/translate.go:Translate.TranslateKey"]}
{"id": "C42", "title": "Saving only adds", "statement": "A save never removes or changes anything that an earlier save stored: index bits, translations, membership and aligned rows all persist.", "quantifier": "all histories of saves", "why_tests_cant": "unbounded histories", "anchors": ["internal/store/store.go:Storage.SaveSamples"]}
{"id": "C43", "title": "Accepted data is flushed exactly once, in order", "statement": "Under any interleaving of client requests and flush ticks, every accepted payload is handed to the store exactly once, in id order, with a distinct id; nothing is handed over that was not accepted.", "quantifier": "all interleavings of any number of client saves, swaps and flushes", "why_tests_cant": "Which request is in the buffer when the flush loop swaps it depends on the schedule of goroutines; tests see a few schedules.", "anchors": ["internal/service/service.go:Service.Save", "internal/service/service.go:Service.start"]}
{"id": "C44", "title": "Accepted data survives a graceful shutdown", "statement": "Data acknowledged to a client before a graceful shutdown is stored.", "quantifier": "all schedules ending in a graceful shutdown", "why_tests_cant": "The loss needs a shutdown at a particular moment between acceptance and flush; tests stop an idle server.", "anchors": ["internal/service/service.go:Service.start", "internal/service/service.go:Service.Close"]}
{"id": "C45", "title": "Export wraps the payload in its own signal", "statement": "Each of the three collector endpoints stores exactly the request's resources under its own signal.", "quantifier": "all requests", "why_tests_cant": "It must hold for requests of any size and nesting, including empty ones.", "anchors": ["internal/service/service.go:Metrics.Export", "internal/service/service.go:Logs.Export", "internal/service/service.go:Trace.Export"]}
{"id": "C46", "title": "Trimming keeps exactly the matching records", "statement": "With time and filter conditions applied to a result, exactly the data points / log records / spans that satisfy every applicable condition remain, in their original order, under their own resource and scope; groups with no remaining record disappear.", "quantifier": "all payloads and all conditions", "why_tests_cant": "Payloads nest resources, scopes, metrics and records without bound, and both inclusions (nothing kept wrongly, nothing dropped wrongly) are needed for every list of conditions.", "anchors": ["internal/visit/visit.go", "internal/visit/metrics.go", "internal/visit/logs.go", "internal/visit/trace.go"]}
{"id": "C47", "title": "Attribute conditions mean what they say", "statement": "With conditions on record attributes, exactly the data points, log records or spans remain whose own attributes contain every asked key and value; the attributes of the scope and the resource play no part.", "quantifier": "all lists of conditions and all payloads of the three signals", "why_tests_cant": "The condition has to select correctly on every payload: a test with the attribute on both scope and record cannot tell the two apart.", "anchors": ["internal/visit/visit.go:Compile"]}
{"id": "C48", "title": "Span conditions mean what they say", "statement": "With a condition on the span id exactly the spans with that id remain, with a condition on the parent span id exactly the spans with that parent.", "quantifier": "all conditions and all trace payloads", "why_tests_cant": "A test whose spans have equal ids in both fields, or a single span, cannot tell which field was tested.", "anchors": ["internal/visit/trace.go", "internal/visit/visit.go"]}
{"id": "C49", "title": "Trimming preserves descriptive fields", "statement": "Records that survive trimming keep their scope schema and the metric's description and unit.", "quantifier": "all payloads and conditions", "why_tests_cant": "Every field of every surviving record has to be compared; tests compare the fields the author thought of.", "anchors": ["internal/visit/metrics.go", "internal/visit/logs.go", "internal/visit/trace.go"]}
{"id": "C50", "title": "Time condition is half open and no condition means no change", "statement": "A record at time t passes iff start <= t < end; a result is returned unchanged when no conditions were given.", "quantifier": "all times and payloads", "why_tests_cant": "The boundary instants of every window over the full 64 bit range, including windows before 1970, cannot be enumerated.", "anchors": ["internal/visit/visit.go", "internal/js/rq.go"]}
{"id": "C51", "title": "Attribute subset matching", "statement": "A set of attribute conditions is satisfied by exactly the attribute lists which contain each condition as a string attribute, provided the hash separates the strings involved.", "quantifier": "all attribute lists and condition sets, any hash", "why_tests_cant": "The answer depends on a 64 bit hash: conditions and attribute lists whose hashes coincide cannot be found by trying.", "anchors": ["internal/visit/visit.go:matchAttr"]}
{"id": "C52", "title": "Merging loses no record", "statement": "Merging a list of results of one signal, where it succeeds (see C55), yields a result with exactly the same multiset of (resource, scope, metric name and kind, record).", "quantifier": "all lists of payloads of one signal, with a hash that separates their resources, scopes and metrics", "why_tests_cant": "Payloads nest without bound and are merged through hash maps; preservation of the multiset of records is a statement about all of them.", "anchors": ["internal/data/data.go:Collapse", "internal/data/metrics.go", "internal/data/logs.go", "internal/data/trace.go"]}
{"id": "C53", "title": "Merging is deterministic", "statement": "The merged result does not depend on the iteration order of the intermediate maps.", "quantifier": "all lists of payloads and all iteration orders of the intermediate maps", "why_tests_cant": "Go randomises map iteration", "anchors": ["internal/data/sort.go", "internal/data/metrics.go"]}
{"id": "C54", "title": "Merging never merges different scopes", "statement": "Records of two scopes with different (name, version, schema) never end up under one scope.", "quantifier": "all payloads, with arbitrary scope names, versions and schemas", "why_tests_cant": "The scopes are compared by a hash of concatenated strings: only adversarial pairs of strings show the confusion.", "anchors": ["internal/data/metrics.go", "internal/data/data.go"]}
{"id": "C55", "title": "Merging accepts every stored combination", "statement": "Merging never fails on results of one signal, even when a metric name was recorded with different kinds of data.", "quantifier": "all lists of payloads", "why_tests_cant": "The failure needs two histories that disagree about the kind of a metric; tests merge results of one exporter.", "anchors": ["internal/data/metrics.go", "internal/data/data.go:Collapse"]}
{"id": "C56", "title": "Row set algebra", "statement": "Intersect, union, difference, xor and merge of rows are the set operations on their columns, for rows spread over any shards, and counts equal the number of columns.", "quantifier": "all pairs of rows with any number of segments in any shards", "why_tests_cant": "Rows are spread over any number of shards in segments whose layout depends on how the row was built; a test fixes one layout.", "anchors": ["internal/rows/row.go"]}
{"id": "C57", "title": "Row views of columns", "statement": "Columns come out strictly increasing; membership, per-shard columns, count and emptiness agree with them; a row built from columns contains exactly these.", "quantifier": "all rows and column lists", "why_tests_cant": "The views must agree for every layout of segments, including empty ones and the last shard of the 64 bit range.", "anchors": ["internal/rows/row.go"]}
{"id": "C58", "title": "Bit sliced integers pivot correctly", "statement": "Pivoting a bit-sliced integer of at most 64 slices enumerates each filtered column exactly once with its value, in descending value order, honouring filter, offset and limit.", "quantifier": "all bit sliced integers, filters, limits and offsets", "why_tests_cant": "There are 2^64 values per column and any number of columns; the traversal order depends on all bit patterns at once.", "anchors": ["internal/rows/bsi.go"]}
{"id": "C59", "title": "Builders store what was added", "statement": "Given sequential input, as documented, the row builder and the bit-slice builder represent exactly the columns / (column,value) pairs inserted, and are empty and reusable afterwards.", "quantifier": "all insertion sequences", "why_tests_cant": "The builder changes representation at 4096 entries, and what it stores depends on the whole insertion sequence.", "anchors": ["internal/rows/bsi.go"]}
{"id": "C60", "title": "Arena slices hold what was written until release", "statement": "A slice handed out by an arena (Bytes, Marshal, Compress) holds exactly what was written through the arena's current writer and keeps those bytes, whatever is written later through this or any other pooled arena, until its arena is released; nothing from before a release reappears.", "quantifier": "all sequences of calls on any number of arenas, all growth policies of append, all failures of marshalling and compression", "why_tests_cant": "aliasing of backing arrays over unbounded call sequences, and a pool shared by goroutines", "anchors": ["internal/arena/arena.go"]}
{"id": "C61", "title": "Columnar encoding round trips", "statement": "Appending messages to the columnar builder and reading rows back yields the same messages.", "quantifier": "all message types the package accepts, to any depth, and all lists of messages", "why_tests_cant": "Message types are built by reflection to any depth, and whether columns stay aligned depends on all rows appended so far.", "anchors": ["internal/arrow3/node.go", "internal/arrow3/arrow3.go"]}
{"id": "C62", "title": "Self telemetry metrics conversion", "statement": "Converting the server's own metrics keeps every valid metric and data point, in place and with all its fields, and reports each of the others as an error; nothing is dropped silently and nothing valid is dropped because something else is not.", "quantifier": "all collections with any number of scopes, metrics and points of every kind", "why_tests_cant": "Collections hold any number of scopes, metrics and points of five kinds, with any mix of valid and invalid ones.", "anchors": ["internal/self/metrics/transform/metricdata.go"]}
{"id": "C63", "title": "Self telemetry span grouping", "statement": "Grouping spans by resource and scope keeps every span exactly once under its own resource and scope.", "quantifier": "all lists of spans and all map iteration orders", "why_tests_cant": "Spans are grouped through two maps with random iteration order; that none is lost or misfiled concerns every list of spans and every order.", "anchors": ["internal/self/trace/tracetransform/span.go"]}
{"id": "C64", "title": "Scan builder", "statement": "The JavaScript scan builder produces the scan the calls describe: filters in call order, window in milliseconds, last setting wins.", "quantifier": "all sequences of builder calls with any arguments", "why_tests_cant": "Scripts call the builder any number of times in any order; which call wins must be right for every sequence.", "anchors": ["internal/js/scan.go"]}
{"id": "C65", "title": "Program cache is transparent", "statement": "Running a query through the program cache runs exactly the submitted source.", "quantifier": "all sources and cache behaviours", "why_tests_cant": "Sources are found by a 64 bit hash, entries are evicted at the cache's pleasure: neither collisions nor evictions can be tested for.", "anchors": ["internal/snippets/snippets.go", "internal/commands/query/query.go"]}
{"id": "C66", "title": "Merging keeps metric metadata", "statement": "Every data point is reported with the description, unit, temporality and monotonicity it was recorded with.", "quantifier": "all lists of metric payloads", "why_tests_cant": "It is violated only by histories in which two exporters disagree on a metric; tests merge results of one.", "anchors": ["internal/data/metrics.go"]}
{"id": "C67", "title": "A scan delivers what was saved", "statement": "The result of a filtered range scan contains every record of every saved sample that carries the asked labels and is filed in the consulted window, under its own resource and scope, and no record of any other kind of sample.", "quantifier": "all histories of saves, all filters and windows", "why_tests_cant": "composition of indexing, time filing, storage and merging over all histories", "anchors": ["internal/store/scan.go", "internal/store/store.go", "internal/data/data.go"]}
{"id": "C68", "title": "Trimming never crashes", "statement": "Applying the conditions of a scan to whatever the store answered never crashes the query: it returns a result or an error.", "quantifier": "all stored payloads, all conditions, all answers of the store", "why_tests_cant": "Whether an attribute without a value or an empty answer meets a condition depends on data and conditions together; tests exercise well-formed data only.", "anchors": ["internal/visit/visit.go: matchAttr, Visit", "internal/js/rq.go: JS.Scan"]}
{"id": "C69", "title": "Clients are never blocked by a running save", "statement": "While a flush is being written to the store, every waiting client can still be answered without that write having to end first, and the flush loop does not hold the buffer's mutex while it writes.", "quantifier": "all interleavings of any number of client calls, flush ticks, cancellations and other writes", "why_tests_cant": "A deadlock or a lock held too long shows only under particular schedules; tests run a few of them.", "anchors": ["internal/service/service.go:Service.Save", "internal/service/service.go:Service.start"]}
{"id": "C70", "title": "Sums of bit-sliced integers", "statement": "Adding two bit-sliced integers gives every column the sum of its two values, and building, adding and enumerating return exactly the columns with a positive sum, with their sums, greatest first.", "quantifier": "all bit-sliced integers the package can produce, all columns", "why_tests_cant": "Carries between slices, missing slices and shards present on one side only interact; tests use a random sample.", "anchors": ["internal/rows/bsi.go:AddBSI"]}
{"id": "C71", "title": "Calendar windows", "statement": "today(), thisWeek(), thisMonth(), thisYear() and ago(d) ask for exactly the instants up to now in the current local day, week (from Sunday), month, year, or the last d; timeRange(a, b) for exactly the milliseconds from a to b; the last such call decides.", "quantifier": "all scripts, clock readings, zone offsets and instants", "why_tests_cant": "Month lengths, leap years, negative offsets and instants before 1970 cannot be enumerated.", "anchors": ["internal/js/scan.go:Scan.Today", "internal/js/scan.go:Scan.ThisWeek", "internal/js/scan.go:Scan.ThisMonth", "internal/js/scan.go:Scan.ThisYear", "internal/js/scan.go:Scan.Ago", "internal/js/scan.go:Scan.TimeRange"]}
{"id": "C72", "title": "An interrupted query leaves no broken program behind", "statement": "When writing a bundled program to the cache directory fails or the process dies, later queries still run the whole program; a new version of the command line does not run programs bundled by an old one.", "quantifier": "all histories of queries, interruption points and installations", "why_tests_cant": "The interruption point is any byte of the write.", "anchors": ["internal/commands/query/query.go:build"]}
{"id": "C73", "title": "A scan during a flush answers as of one instant", "statement": "A scan that runs while samples are being saved returns what a scan made at one single instant during it would have returned: it never mixes an old index with new records, or records of one part of a save with the index of another.", "quantifier": "all histories, all schedules of the reads of a scan against the writes of saves, all instants within a save, all scans", "why_tests_cant": "Nothing but the transactions of two databases orders the two; which of the hundreds of interleavings of a scan's reads with a flush's writes happens depends on timing.", "anchors": ["internal/store/scan.go:Store.Scan", "internal/store/store.go:Store.SaveSamples", "internal/shards/shards.go:Shards.Rows", "internal/dataframe/dataframe.go"]}
{"id": "C74", "title": "Messages compressed at the same time never mix", "statement": "Every stream opened with the zstd compressor, and every Compress, To and Decompress call, behaves as if it had an encoder or decoder of its own: what it writes or reads depends on nothing but its own target and its own earlier calls; pooled codecs keep no reference to anybody's buffers; reading on after the end reports the end again.", "quantifier": "all numbers of streams, all interleavings of their steps, all choices of the pool, including streams used after their end", "why_tests_cant": "A codec returned to the pool too early or used after it was returned corrupts another message only under particular schedules.", "anchors": ["internal/compress/codec.go", "internal/compress/compress.go"]}
{"id": "C75", "title": "Concurrent label look-ups find their own label", "statement": "Any number of scans looking up labels at the same time, while new labels are being stored, are each answered exactly as if they had looked up alone at the moment they read the database.", "quantifier": "all numbers of concurrent look-ups, all labels, all interleavings with each other and with writes", "why_tests_cant": "The look-ups build their keys by appending to a shared slice; whether they overwrite each other depends on spare capacity and timing.", "anchors": ["internal/translate/translate.go:Translate.Find", "internal/store/scan.go"]}
{"id": "C76", "title": "Each shard's database is opened once", "statement": "Every shard database is opened at most once in a process, all readers and writers of a shard use the same handle, and closing the index closes every opened database.", "quantifier": "all sequences of accesses to shards, failures to open, and interleavings of callers", "why_tests_cant": "The map of open databases is checked and filled in separate critical sections; a double open needs two callers at the same moment.", "anchors": ["internal/shards/shards.go:Shards.get", "internal/shards/shards.go:Shards.Close"]}
{"id": "C77", "title": "Printed attributes can be told apart", "statement": "When a query script prints metrics, the attributes of a point appear as { key = value, ... } with strings quoted, arrays in brackets and lists in braces; two different sets of attributes never print the same text, whatever characters the strings contain, and no set of attributes makes printing fail.", "quantifier": "all attribute lists of any nesting, all strings including invalid UTF-8, quotes, commas and line ends", "why_tests_cant": "The strings are arbitrary bytes and the nesting is unbounded; a unit test shows a handful of texts and cannot exclude that two others collide.", "anchors": ["internal/render/attribute.go attr", "internal/render/attribute.go value", "internal/js/rq.go RenderMetricsData"]}
{"id": "C78", "title": "A printed document shows every point", "statement": "Printing metrics shows every resource, scope and metric in the order of the data, and for every metric all its points, one line each, with its exact time to the second, its value in the unit of the metric and its attributes, in aligned columns.", "quantifier": "all metrics documents, all option combinations, all times", "why_tests_cant": "Documents have any number of resources, scopes, metrics and points and cells of any width; the only test writes the output to a file and compares nothing.", "anchors": ["internal/render/metrics.go MetricsData", "internal/render/metrics.go numeric", "internal/render/metrics.go metrics", "internal/render/metrics.go formatTime"]}
{"id": "C79", "title": "Every data point becomes one row", "statement": "Flattening a metrics document appends exactly one row per data point, in the order of the document, with consecutive ids; the row carries the name, kind, description, unit, temporality and monotonicity of the point's metric, its times, its exemplars, its own value and the attributes of its resource, its scope and itself, and nothing of any other point.", "quantifier": "all metrics documents with any number of resources, scopes, metrics and points of all five kinds, all states of the buffer", "why_tests_cant": "One message object is reused for all points of a metric, so what a row shows depends on the history of the loop; a unit test fixes one history.", "anchors": ["internal/f2/metrics.go Metrics.Append", "internal/f2/metrics.go gauge", "internal/f2/metrics.go sum", "internal/f2/attr.go Attr.Attr"]}
{"id": "C80", "title": "Rows can be found by their labels", "statement": "After flattening, the index says of every row and label exactly whether the row's point has that label: the metric's name, and the string attributes of the point, its scope and its resource.", "quantifier": "all documents, rows and labels, within 2^20 labels and 2^44 rows", "why_tests_cant": "The index is one bitmap shared by all rows, positions are computed with wrap-around; absence of false positives is a statement about all other rows.", "anchors": ["internal/f2/attr.go Attr.do", "internal/f2/attr.go Attr.name", "internal/f2/metrics.go Metrics.Append"]}
{"id": "C81", "title": "The series hash names the series", "statement": "Two rows of the same metric name and the same attributes carry the same series hash, in whatever order or repetition the attributes came; rows of different series are told apart as far as the digest tells their labels apart.", "quantifier": "all pairs of points of all documents", "why_tests_cant": "It relates pairs of arbitrary inputs; the hash is computed on sets of translated labels.", "anchors": ["internal/f2/attr.go Attr.Attr", "internal/f2/attr.go Attr.do"]}
{"id": "C82", "title": "A query returns exactly the matching saved records", "statement": "A script that scans for records of a signal within a time window gets every record saved before that lies in the window and satisfies the script's conditions, under its resource and scope, and gets no other record.", "quantifier": "all histories of saves and restarts, all records, conditions and windows", "why_tests_cant": "The answer depends on the whole history of the store and on three independent filters (index, views, trimming) agreeing for every record; tests fix a few records and conditions.", "anchors": ["internal/js/rq.go JS.Scan", "internal/commands/query/query.go", "internal/service/api.go Service.ScanSamples", "internal/store/scan.go Storage.Scan", "internal/visit/visit.go All.Visit"]}
{"id": "C83", "title": "No record is delivered twice", "statement": "The result of a scan contains every stored record at most as often as it was exported: no sample contributes twice, whatever views and index shards the scan goes through and however often the store was flushed, interrupted or restarted.", "quantifier": "all histories, scans (filtered or not, instant or ranged), orders of map iteration, windows within the years 0-9999", "why_tests_cant": "A sample is filed under four views and a scan reads many views; that the views of one search never overlap is a fact about all calendar dates.", "anchors": ["internal/store/scan.go Storage.Scan", "internal/view/view.go Search", "internal/dataframe/dataframe.go", "internal/batch/time.go"]}
{"id": "C84", "title": "What was accepted can be queried", "statement": "Once a request to a collector endpoint has been answered and the next flush has completed without error, every record of the request that lies in a query's window and satisfies its conditions is in the query's answer; an answer contains nothing but matching records of requests that were answered; and once the server is at rest the answer consists of exactly the matching records of all answered requests, each as often as it was sent.", "quantifier": "all interleavings of clients and the flush loop, all earlier histories of the database, all requests, conditions and windows", "why_tests_cant": "It joins concurrency (buffer, mutex, flush loop) with the whole history of the store and the query path; no test runs server, store and query together.", "anchors": ["internal/service/service.go Service.Save", "internal/service/service.go Service.start", "internal/store/store.go Storage.SaveSamples", "internal/store/scan.go Storage.Scan", "internal/js/rq.go JS.Scan"]}
{"id": "C85", "title": "Files of the database never get in each other's way", "statement": "For every data directory given on the command line (or none), every HOME and every working directory: the key-value database, the index and the compiled programs live in directories none of which is, contains or lies inside another; every shard has its own directory inside the index; servers with different homes share no database and no shard; a compiled program never overwrites a file of a server; an absolute path names the same place from everywhere.", "quantifier": "all path strings (with dots, doubled slashes, parents), all shard numbers and script hashes", "why_tests_cant": "Path strings are unbounded and are cleaned lexically; tests use one temporary directory.", "anchors": ["internal/commands/home.go Home", "internal/commands/home.go Cache", "internal/commands/home.go DB", "internal/commands/home.go Index", "internal/home/home.go Dir", "internal/shards/shards.go Shards.get", "internal/commands/query/query.go run", "cmd/rq/main.go run"]}
{"id": "C86", "title": "Durations mean what they say", "statement": "A duration text given to ago() or offset() - an optional sign and terms like 15m, 1.5h or 300ms - means exactly the signed sum of its terms in nanoseconds (terms with fractions below a nanosecond may each be off by about one nanosecond), is refused if the sum does not fit 64 bits, and nothing else is accepted; ago(text) asks for exactly that time back from the clock; latest() is the last fifteen minutes; and every duration the program prints is read back as the same duration.", "quantifier": "all texts, all lists of terms, all numbers of digits before and behind the point, all clocks and scripts, all 64 bit durations", "why_tests_cant": "Texts and numbers are unbounded and the fraction is computed in floating point; tests try a few literals.", "anchors": ["internal/js/scan.go Scan.Ago", "internal/js/scan.go Scan.Offset", "packages/rq/src/core.ts latest", "internal/render/unit.go formatUnit"]}
{"id": "C87", "title": "Rendered times say what was measured", "statement": "A metric value with the unit h, m, s, ms or ns is rendered as a duration: an integer value is shown as exactly that many units as long as it is less than 2^53 nanoseconds, so that reading the text gives back the value and different values look different; any other value of moderate size is shown with an error of less than a nanosecond and one part in 2^53.", "quantifier": "all integer values, all doubles between 2^-248 and 2^53, all time units", "why_tests_cant": "The value passes through floating point multiplication and truncation; whether that is exact is a statement about all 64 bit numbers.", "anchors": ["internal/render/unit.go formatUnit", "internal/render/metrics.go numeric"]}
{"id": "C88", "title": "Requests never see each other through recycled objects", "statement": "Visitors, labels, sample keys, bitmaps, view times, merge tables and text buffers are recycled between requests. In every interleaving of any number of requests, each of which takes an object, uses it and gives it back, every call returns what it would return if the request were the only one ever made: no condition, label, column, time, merged resource or text of another request shows in it, whichever object is handed out and whatever the garbage collector drops. The same for the fields of script engines and the variables of the scripts that ran on them.", "quantifier": "all numbers of requests, all interleavings of their steps, all choices of the pool, all conditions, data and texts", "why_tests_cant": "A field missing from a Reset shows only when an object that had the field set is handed out again, which depends on schedule and garbage collection; a unit test practically always gets a new object.", "anchors": ["internal/visit/visit.go All.Reset", "internal/visit/visit.go All.Release", "internal/labels/labels.go Label.Reset", "internal/keys/keys.go Sample.Reset", "internal/bitmaps/bitmaps.go Bitmap.Release", "internal/batch/time.go QuantizedTime.Reset", "internal/data/sort.go Sorter.Reset", "internal/render/pool.go put", "internal/translate/translate.go put", "internal/js/rq.go JS.Reset"]}
{"id": "C89", "title": "Rows keep their columns", "statement": "Rows behave as values: whatever rows a program makes, combines by union, intersection, difference, symmetric difference, merge and clone, changes in place and drops, every row still in use lists exactly the columns the program put into it, counts them and answers membership accordingly. A row that was cloned can be changed without the clone changing, and the other way round.", "quantifier": "all programs over any number of rows, of any length, with any columns", "why_tests_cant": "Union, difference, symmetric difference and merge hand out parts of their operands; a later change in place shows in another row only for particular shards and a particular order of calls.", "anchors": ["internal/rows/row.go Row.Merge", "internal/rows/row.go Row.Union", "internal/rows/row.go Row.Difference", "internal/rows/row.go Row.Xor", "internal/rows/row.go Row.Clone", "internal/rows/row.go Row.Freeze", "internal/rows/row.go RowSegment.ensureWritable", "internal/shards/shards.go Shards.Row"]}
{"id": "C90", "title": "Shifting a row moves every column", "statement": "Shift(n) refuses a negative n, and otherwise gives the row of all columns plus n, in order and counted, without those that do not fit 64 bits; shifting step by step is shifting at once; the result is a row like any other for membership and for being combined with other rows.", "quantifier": "all rows the package can produce, all n", "why_tests_cant": "Columns cross the edges of shards only for particular columns and distances.", "anchors": ["internal/rows/row.go Row.Shift", "internal/rows/row.go RowSegment.Shift"]}
{"id": "C91", "title": "Tables show the row", "statement": "The table made of a row has one line per key, in order, or if it has no keys one line per column in ascending order, with one cell of the kind the header names; delivering line by line gives the header with the first line only and stops at the first line the receiver refuses; a clone gives the same table and keeps all attributes; a cell can be read as what it holds.", "quantifier": "all rows, keys and receivers", "why_tests_cant": "Rows, keys and the point of refusal are unbounded.", "anchors": ["internal/rows/row.go Row.ToTable", "internal/rows/row.go Row.ToRows", "internal/rows/row.go RowsToTable", "internal/rows/row.go Row.Clone", "internal/rows/row.go Value.Float64"]}
{"id": "C92", "title": "Errors name everything that failed", "statement": "When the server cannot express some of its own metrics in OTLP, the error it reports has one line for every such metric, in order, with name, description and unit quoted and what is wrong, and asking the error for a reason finds it exactly if a metric failed for it, however errors are nested and collected. Stopping the server's own telemetry asks every part to stop, once and in order, even when one fails; there is an error exactly if a part had one, and every reported error is found in it.", "quantifier": "all collections of scopes and metrics, all names, all nestings of errors, all numbers of parts and answers", "why_tests_cant": "Flattening, unwrapping and joining of errors are recursive over unbounded lists; a lost error shows only in particular nestings.", "anchors": ["internal/self/metrics/transform/error.go multiErr", "internal/self/metrics/transform/error.go errMetric", "internal/self/metrics/transform/metricdata.go Metrics", "internal/self/metrics/transform/metricdata.go ScopeMetrics", "internal/self/metrics.go Metrics.Export", "internal/self/self.go closers.Shutdown"]}
{"id": "C93", "title": "A stored view reads back as its rows", "statement": "The table of a view is grown by appending whole batches of rows behind the columns read back before. After any history of saves the table has one row per saved sample or skipped number, appending never fails for readable payloads, and each row read for a signal gives exactly the stored payload if it is of that signal, nothing otherwise, whatever rows are around it and however they were batched. The columns read for a signal are exactly those of that signal.", "quantifier": "all message types of up to the supported depth, all payloads, all numbers and sizes of batches, all row numbers, all choices of top level fields", "why_tests_cant": "Appending shifts the offsets of lists at every level of nesting; a wrong shift shows only in rows behind particular earlier rows.", "anchors": ["internal/dataframe/dataframe.go DataFrame.appendView", "internal/dataframe/dataframe.go readRows", "internal/dataframe/columns.go NewColumns", "internal/arrow3/parquet.go WriteParquetRecords", "internal/arrow3/parquet.go Read", "internal/arrow3/node.go"]}
{"id": "C94", "title": "Starting and stopping the server", "statement": "The parts of the server are opened in an order in which each finds what it needs, and closed in reverse order, at the first part that cannot be opened as well as after serving; what an open part needs is open at every moment; every opened part is closed once before the process ends; a start that fails leaves the numbering of samples as it was; while stopping nothing uses a closed part, and an orderly stop reports success.", "quantifier": "all combinations of parts that cannot be opened, all histories of lives, all interleavings of stopping with saves and requests", "why_tests_cant": "A start can fail at any part and a signal can arrive at any step of a save; tests stop an idle server that started well.", "anchors": ["cmd/rq/main.go run", "cmd/rq/main.go main", "internal/logger/fail.go Fail", "internal/service/service.go Service.start", "internal/store/store.go Storage.Translate", "internal/store/scan.go Storage.Scan", "internal/service/service.go Service.Save", "internal/seq/seq.go New", "internal/seq/seq.go Seq.SampleID"]}
{"id": "C95", "title": "The server's own telemetry can be queried", "statement": "Spans and data points that the server records about itself and exports to its own ingest endpoint are found, after the next flush, by every query whose conditions are true of them and whose window contains their time: with every field they were recorded with, under the server's own resource attributes and the scope that recorded them.", "quantifier": "all lists of finished spans and all metric collections, all map iteration orders, all conditions true of the span or metric, all histories of store and service, all windows", "why_tests_cant": "The conversion, grouping, buffering, indexing, merging and trimming steps are tested apart, on a few values; that nothing between the SDK and the answer loses a span depends on all of them for every input.", "anchors": ["internal/self/trace.go Trace.ExportSpans", "internal/self/metrics.go Metrics.Export", "internal/self/trace/tracetransform/span.go Spans", "internal/self/metrics/transform/metricdata.go ResourceMetrics", "internal/service/service.go Service.Export", "internal/js/rq.go"]}
{"id": "C96", "title": "What a query script says is what it gets", "statement": "A script that constructs Metrics, Trace or Logs, calls methods and then query() gets exactly the records, among all the records of answered requests of that signal, that meet every condition method it called and whose time lies in the window the last window method describes (today, this week, month or year so far in the machine's zone, or a duration back from now), each as often as it was sent; settings such as limit and now take no record away; the script gets an exception instead only for a duration that cannot be read or when the scan fails.", "quantifier": "all classes, chains of methods, arguments, clock readings and zones, all histories of requests, saves and flushes of a server, all payloads", "why_tests_cant": "a test script asks for a few names at one time of day; which records a window loses depends on the minute of the hour, the day of the week and the zone, for every chain of methods", "anchors": ["packages/rq/src/core.ts Config", "packages/rq/src/core_metrics.ts Metrics", "packages/rq/src/core_trace.ts Trace", "packages/rq/src/core_logs.ts Logs", "internal/js/scan.go Scan", "internal/js/rq.go JS.Scan", "internal/store/scan.go Storage.Scan", "internal/view/view.go Search"]}
{"id": "C97", "title": "Queries at the same time do not disturb each other", "statement": "Any number of rq query commands run at the same time on one machine. Each runs the program bundled from its own script and the library it ships with, as if it were alone; none touches temporary files that were there before; and when all have ended the temporary directory is as before.", "quantifier": "all numbers of commands, scripts, interleavings of their steps, failing system calls and kills at any step, all contents of the temporary directory and of an honest cache", "why_tests_cant": "the commands share a cache directory and a temporary directory; what goes wrong needs a particular interleaving or a failing write", "anchors": ["internal/compile/compile.go Compile", "internal/compile/compile.go createPackage", "internal/compile/compile.go setup", "internal/commands/query/query.go run", "internal/js/bundle/bundle.go PKG"]}
{"id": "C98", "title": "What was saved is found again after restarts and crashes", "statement": "Every record that a successful save ever took is answered by later queries that it matches, whatever happened since: restarts, crashes in the midst of other saves, failed saves. No record is answered more often than it was sent, and nothing is answered that was not sent.", "quantifier": "all histories of saves (complete, failed, or cut off at any step) and restarts, all queries with conditions and a time range", "why_tests_cant": "A test restarts a server once or twice; the claim is about every history of saves and crashes, every crash point inside a save and every later query.", "anchors": ["internal/store/store.go Storage.SaveSamples", "internal/store/store.go NewStore", "internal/store/scan.go Storage.Scan", "internal/shards/shards.go Shards.get", "internal/shards/shards.go New", "internal/js/scan.go JS.scan"]}
{"id": "C99", "title": "Labels are kept apart in the server as it is wired", "statement": "Within a number of new labels per process and as long as the hashes of labels differ, the server with its label cache, its shared key buffers and scans running between saves behaves as one whose translator is a plain table of labels: the same saves succeed, the same samples are found by the same queries with the same answers, the labels of samples read back the same, over any number of restarts, orderly or not.", "quantifier": "all histories of saves and restarts within the limits, all looked up labels, cache evictions and admissions between and during saves, all ways slices grow, all payloads and queries", "why_tests_cant": "whether two label tables that share a key prefix, or a cache keyed by a hash, ever mix up two labels depends on the whole history of labels and on what the cache happens to hold", "anchors": ["cmd/rq/main.go run", "internal/store/store.go Storage.Translate", "internal/store/store.go NewStore", "internal/translate/translate.go New", "internal/translate/translate.go Translate.Find", "internal/translate/translate.go Translate.TranslateID", "internal/translate/translate.go Translate.Close", "internal/store/scan.go Storage.Scan"]}
{"id": "C100", "title": "Queries in every hour are answered exactly", "statement": "In every hour, day, month and year, also one that begins long after the first sample was saved, a query answers exactly the matching records saved for it, each as often as it was sent, and nothing else.", "quantifier": "all histories of saves, failures, crashes and restarts, all ways samples are split over flushes, signals and hours, all conditions and windows", "why_tests_cant": "rows of a view are addressed by sample number; how far numbers and rows are apart depends on how the whole history was batched, and tests query only the first hour of a database", "anchors": ["internal/dataframe/dataframe.go DataFrame.appendView", "internal/dataframe/dataframe.go DataFrame.read", "internal/store/scan.go Storage.Scan", "internal/data/data.go Collapse", "internal/js/rq.go JS.Scan"]}
{"id": "C101", "title": "Any number of labels", "statement": "However many different labels the server meets, in one process and over all of them, a label keeps the column it was first given, and queries answer exactly the matching records, each as often as it was sent: labels that come later take nothing away and add nothing.", "quantifier": "all histories of saves, failures, crashes, orderly and other restarts with any number of labels, all cache admissions and evictions, all scans between the saves, all queries", "why_tests_cant": "what goes wrong with label numbers starts only after thousands of labels in one process; tests use a handful", "anchors": ["internal/translate/translate.go New", "internal/translate/translate.go Translate.TranslateKey", "internal/translate/translate.go Translate.Close", "internal/store/store.go Storage.Translate", "internal/store/scan.go Storage.Scan", "internal/js/rq.go JS.Scan", "cmd/rq/main.go run"]}
{"id": "C102", "title": "A query script gets what it asks for, from the server as built", "statement": "A query script run against the server after any number of requests, flushes, crashes and restarts gets exactly the accepted records that it asks for (its signal, its conditions, its window: latest, today, this week, month, year, or a time ago), each as often as it was sent, and nothing else.", "quantifier": "all histories over any number of processes, all requests and interleavings of handling and flushing, any number of labels, all scripts whose conditions name one value each, all windows, clocks and zones, all orders of answering", "why_tests_cant": "the script, the search of hours, days, months and years, the trimming, the merging, the translator and the batching each lose records only for some clocks, histories and hash values; no finite set of end-to-end tests meets their combinations", "anchors": ["internal/js/rq.go JS.Scan", "internal/js/scan.go ScanBuilder", "internal/store/scan.go Storage.Scan", "internal/dataframe/dataframe.go DataFrame.read", "internal/data/data.go Collapse", "internal/service/service.go Service", "cmd/rq/main.go run"]}
{"id": "C103", "title": "The JSON of a row is the row", "statement": "The JSON a row is sent as is well formed JSON that says exactly the row's columns, in ascending order, and its keys; two rows have the same JSON exactly if they have the same columns and keys, however they were built.", "quantifier": "all rows built and combined in any way, all keys (any bytes)", "why_tests_cant": "keys are arbitrary bytes and rows arbitrary sets; whether the text can be read in another way is a question about all texts", "anchors": ["internal/rows/row.go Row.MarshalJSON", "internal/rows/row.go Row.Columns"]}
{"id": "C104", "title": "Calendar windows with daylight saving", "statement": "On a machine whose clock changes to and from daylight saving time, today(), thisWeek(), thisMonth() and thisYear() still ask for exactly the instants up to now at which the clock on the wall shows the current day, week, month or year.", "quantifier": "all scripts, all time zones with any number of offset changes, all instants of the query and of records, before, between and after the changes", "why_tests_cant": "the local time of an instant is neither monotone nor onto across a change, and a window may contain any number of changes at any hour; tests sample a few zones and dates", "anchors": ["internal/js/scan.go Scan.Today", "internal/js/scan.go Scan.ThisWeek", "internal/js/scan.go Scan.ThisMonth", "internal/js/scan.go Scan.ThisYear", "internal/commands/query/query.go run"]}
{"id": "C105", "title": "What a script gets, with daylight saving", "statement": "A script run on a machine whose clock has daylight saving gets exactly the records it asks for of the payloads its window looks at, the current day, week, month and year being those the clock on the wall shows.", "quantifier": "all scripts whose conditions are clear, all time zones whose changes repeat no midnight and skip none west of Greenwich, all instants of the calls, all histories of requests, flushes, crashes and restarts of the server", "why_tests_cant": "the window is built from local time, the search and the stored views are in UTC, and the changes of offset can fall anywhere between; no test runs queries across a change", "anchors": ["internal/js/scan.go Scan.Today", "internal/js/scan.go Scan.ThisWeek", "internal/js/scan.go Scan.ThisMonth", "internal/js/scan.go Scan.ThisYear", "internal/commands/query/query.go run", "packages/rq/src/core.ts today", "internal/store/scan.go Storage.Scan"]}
{"id": "C106", "title": "Trying again", "statement": "retry.Do always returns, with the outcome of its last attempt: nil if that succeeded, else its error; it never stops after a failure that is not permanent until thirteen and a half minutes have passed, waits between a quarter of a second and a minute and a half before each further attempt, and begins none later than fifteen minutes (plus the timer's delay) after the call; earlier uses of its pooled state make no difference.", "quantifier": "all operations (any sequence of outcomes and running times), all random draws, all timer delays, all histories of the pool", "why_tests_cant": "the worst case takes fifteen minutes and depends on thousands of random draws; tests cannot wait for it or enumerate the draws", "anchors": ["internal/retry/retry.go Do", "internal/retry/retry.go get", "internal/retry/retry.go put", "internal/retry/retry.go reset"]}
{"id": "C107", "title": "The home directory on Windows", "statement": "On Windows home.Dir returns what its comment documents: the first of %HOME%, %HOMEDRIVE%%HOMEPATH%, %USERPROFILE% holding a .kube\\config; else the first of %HOME%, %USERPROFILE%, %HOMEDRIVE%%HOMEPATH% that is a writeable directory; else the first that exists; else the first that is set; else the empty string; and these rules determine one answer.", "quantifier": "all values of the four environment variables and all answers of the file system", "why_tests_cant": "the four variables, set or not, with every combination of what the file system says of each, on an operating system the tests do not run on", "anchors": ["internal/home/homedir.go Dir"]}
{"id": "C108", "title": "The log level", "statement": "The text given by --logLevel or RQ_LOG_LEVEL (debug, info, warn or error in any case, perhaps with a signed offset) determines one level; the server and the query command print exactly the log messages of that severity or above, those of the database included, and exactly those of info or above if the text is none of these.", "quantifier": "all texts, all severities", "why_tests_cant": "texts are unbounded, and every text must be accounted for, mistyped ones included", "anchors": ["internal/logger/setup.go Setup", "cmd/rq/main.go setupLogging", "cmd/rq/main.go Logger", "internal/commands/query/query.go run"]}
{"id": "C109", "title": "The retention period", "statement": "Records older than the period given by --retentionPeriod or RQ_DATA_RETENTION_PERIOD (a week unless given) are not answered any more; younger ones are.", "quantifier": "all histories, all retention periods, all clocks, all queries", "why_tests_cant": "the period is a week and queries may come at any later time; a test cannot wait, and the absence of expiry must hold for every history", "anchors": ["cmd/rq/main.go run", "internal/service/service.go NewService", "internal/store/scan.go Storage.Scan", "internal/x/x.go TimeBounds"]}
{"id": "C110", "title": "Answers of any size", "statement": "A query gets its whole answer, never a part of it, however much the server has stored of what it asks for.", "quantifier": "all stores, all queries, all sizes of payloads under any encoding", "why_tests_cant": "sizes are unbounded, and the limit is a default of the transport that shows only with megabytes of matching data from many requests", "anchors": ["cmd/rq/main.go run", "internal/commands/home.go Conn", "internal/service/api.go Service.ScanSamples", "internal/js/rq.go JS.Scan"]}
