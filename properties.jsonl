{"id": "C01", "title": "8/16-bit and int64 JSON integer text is exact", "statement": "jsonfmt.WriteUint8/WriteInt8/WriteUint16/WriteInt16/WriteInt64 append to the given slice exactly the canonical decimal text of the value (no leading zeros, '-' for negatives, most negative value included), leaving the bytes already in the slice untouched.", "quantifier": "every value of the type and every prefix already in the output slice", "why_tests_cant": "2^64 values of int64; each decimal-digit-group boundary is a separate code path", "anchors": ["msgfmt/jsonfmt/encoder_int.go: WriteUint8, WriteInt8, WriteUint16, WriteInt16, WriteInt64, WriteUint64, writeFirstBuf, writeBuf, digits"]}
{"id": "C02", "title": "32-bit JSON integer text is exact", "statement": "jsonfmt.WriteUint32 and WriteInt32 append exactly the canonical decimal text of the value. (The code drops the last six digits from 10^9 upwards: the property is refuted, and proved to hold exactly below 10^9 in absolute value.)", "quantifier": "every uint32 / int32 value", "why_tests_cant": "the failing values are those of ten digits; tests use 222", "anchors": ["msgfmt/jsonfmt/encoder_int.go: WriteUint32, WriteInt32"]}
{"id": "C03", "title": "uint64 JSON integer text is exact", "statement": "jsonfmt.WriteUint64 appends exactly the canonical decimal text of the value. (Refuted from 10^19 upwards, where the leading group has two digits; proved exactly below.)", "quantifier": "every uint64 value", "why_tests_cant": "2^64 values; the failing ones are the top 8.4e18", "anchors": ["msgfmt/jsonfmt/encoder_int.go: WriteUint64"]}
{"id": "C04", "title": "JSON string text decodes back to the string", "statement": "jsonfmt.WriteString appends a JSON string literal: decoding it by the RFC 8259 grammar gives back exactly the input bytes. (Refuted: when the first byte needing an escape is the last byte of the string it is silently dropped; proved in every other case, with an exact characterisation of the failing inputs. The output is always a well-formed JSON string over the raw bytes.)", "quantifier": "every byte string, of every length", "why_tests_cant": "unbounded strings; the fault depends on where the first escape falls", "anchors": ["msgfmt/jsonfmt/encoder_str.go: WriteString, writeStringSlowPath, safeSet, hex"]}
{"id": "C05", "title": "JSON text of []byte loses no byte", "statement": "jsonfmt.WriteBytes appends a JSON string literal from which the bytes can be recovered (printable ASCII as itself, other bytes as an escape naming the byte). (Refuted: pending ASCII bytes before a byte >= 0x80 are dropped on the slow path, and a last byte that is the first to need an escape is dropped; proved for pure-ASCII input not ending in its first escape, and for inputs where no ASCII byte directly precedes a high byte on the slow path.)", "quantifier": "every byte slice, of every length", "why_tests_cant": "unbounded inputs; the loss depends on adjacency of byte classes", "anchors": ["msgfmt/jsonfmt/encoder_bytes.go: WriteBytes, writeBytesSlowPath"]}
{"id": "C06", "title": "Lossy float text is within the promised precision", "statement": "jsonfmt.WriteFloat64Lossy, for a finite value of magnitude at most 0x4ffffff, appends a JSON number whose exact decimal value differs from the float by at most half a millionth plus the float rounding error, has at most six fraction digits and no trailing zero.", "quantifier": "every finite IEEE-754 binary64 value in the fast range", "why_tests_cant": "2^64 floats; rounding, zero padding and zero stripping interact", "anchors": ["msgfmt/jsonfmt/encoder_float.go: WriteFloat64Lossy, pow10"]}
{"id": "C07", "title": "Composite JSON output is valid JSON of the encoded value", "statement": "For values built from bool, integers, floats, strings, []byte, errors, values with MarshalJSON, slices, arrays, maps, pointers, interfaces and structs, jsonfmt.MarshalToString gives text that parses by the JSON grammar to the tree of the value (nil pointers, nil maps and nil interfaces as null, nil slices as [], struct fields in declaration order under their tag names), provided the type has finite structure, every scalar inside is in the range where its own writer is exact, map keys are strings, integers or booleans (directly or in an interface{}), errors are not nil, field names and error messages need no escaping, and what MarshalJSON returns is the text of a JSON value (white space around it is allowed) or an error. (Outside the provisos it is refuted: a struct field of a type without encoder, struct-typed map keys, and what MarshalJSON returns without checking or escaping, give text that is no JSON.)", "quantifier": "every type and value nesting, unbounded depth and width", "why_tests_cant": "infinitely many nestings; separators and nil handling at each level", "anchors": ["msgfmt/jsonfmt/encoder.go: encoderOf, encoderOfStruct, getFieldName", "msgfmt/jsonfmt/encoder_slice.go", "msgfmt/jsonfmt/encoder_array.go", "msgfmt/jsonfmt/encoder_map.go", "msgfmt/jsonfmt/encoder_pointer.go", "msgfmt/jsonfmt/encoder_stuct.go", "msgfmt/jsonfmt/encoder_dynamic.go", "msgfmt/jsonfmt/encoder_json_marshaler.go"]}
{"id": "C08", "title": "Building an encoder terminates for every type", "statement": "jsonfmt.EncoderOf returns for every Go type, including types that refer to themselves through a pointer. (Refuted: the encoder cache is not consulted during construction, so a self-referential type recurses forever; proved to terminate for every type of finite depth.)", "quantifier": "every type graph, including cyclic ones", "why_tests_cant": "non-termination cannot be observed by a finite test", "anchors": ["msgfmt/jsonfmt/encoder.go: EncoderOf, encoderOf, encoderOfStruct"]}
{"id": "C09", "title": "Splitting the input over reads does not change what is read", "statement": "A parse.Source over a reader delivers the same bytes, the same reader results (read.Uint64, read.AnyExcept1/2, skip.Space) and ends in the same error state and at the same position as a Source over the whole string, however the reader cuts the input into reads (including empty reads) as long as the reader does not return data together with an error.", "quantifier": "every input, every way of cutting it into reads, every buffer size", "why_tests_cant": "exponentially many splits per input", "anchors": ["parse/parse.go: NewSource, NewSourceString, Consume, ConsumeN, Peek, PeekN", "parse/read/int.go: Uint64", "parse/read/any.go", "parse/skip/space.go: Space"]}
{"id": "C10", "title": "Peeking never consumes and consuming advances exactly", "statement": "PeekN(n) returns the next min(n, remaining) bytes without changing what later calls observe; ConsumeN(n) with n bytes remaining drops exactly n bytes; the order and content of the remaining bytes is never changed.", "quantifier": "every source state reachable by any sequence of Peek/PeekN/ConsumeN/Consume calls, every n", "why_tests_cant": "look-ahead chunks queue up differently for every interleaving of calls and reads", "anchors": ["parse/parse.go: Peek, PeekN, ConsumeN, Consume, PeekRune"]}
{"id": "C11", "title": "ConsumeN terminates", "statement": "ConsumeN(n) returns for every n. (Refuted: with fewer than n bytes left it loops forever; proved to return exactly when n bytes remain.)", "quantifier": "every source and every n >= 0", "why_tests_cant": "non-termination cannot be observed by a finite test", "anchors": ["parse/parse.go: ConsumeN"]}
{"id": "C12", "title": "PeekRune decodes the next rune of the stream", "statement": "PeekRune returns the rune and width that utf8.DecodeRune gives for the whole remaining input, even when the encoding straddles reads, and encoding then decoding any scalar value is the identity.", "quantifier": "every remaining input and every chunking", "why_tests_cant": "1.1 million runes times all chunkings, plus all malformed sequences", "anchors": ["parse/parse.go: PeekRune", "parse/utf8.go: first"]}
{"id": "C13", "title": "read.Uint64 is exact or reports overflow", "statement": "read.Uint64 consumes the longest run of digits and returns its numeric value, or reports an error if the value does not fit in 64 bits. (Refuted: some 20-digit numbers wrap around silently; proved exact for every in-range value, and the set of silently wrong inputs characterised by the overflow test.)", "quantifier": "every digit string of every length followed by any input, every chunking", "why_tests_cant": "unbounded digit strings; wrap-around detection depends on the value", "anchors": ["parse/read/int.go: Uint64, uint64SafeToMultiple10"]}
{"id": "C14", "title": "read.Int64 and read.Int32 are exact or report overflow", "statement": "read.Int64/read.Int32 return the signed value of an optional '-' followed by digits, including the most negative value, or report overflow. (Refuted for some 20-digit inputs, proved whenever the magnitude fits in uint64.)", "quantifier": "every optionally signed digit string followed by any input", "why_tests_cant": "unbounded digit strings", "anchors": ["parse/read/int.go: Int64, Int32, Int"]}
{"id": "C15", "title": "AnyExcept and Space stop exactly at the first stop byte", "statement": "read.AnyExcept1/2 return exactly the bytes before the first stop byte (or all of them) and leave the source at that byte; skip.Space skips exactly the leading ASCII white space and returns its length.", "quantifier": "every input, every stop byte, every chunking", "why_tests_cant": "unbounded inputs and chunkings", "anchors": ["parse/read/any.go", "parse/skip/space.go: Space"]}
{"id": "C16", "title": "UnicodeRange(s) read the longest matching run", "statement": "read.UnicodeRange/UnicodeRanges return the longest leading run of runes accepted by the tables and stop. (Refuted for UnicodeRanges with a non-empty include list, which stops after the first rune and consumes it once per matching table; and at end of input with an empty include list, which loops forever; proved for UnicodeRange on tables without U+FFFD and for exclude-only ranges that meet an excluded rune.)", "quantifier": "every input and every pair of table lists", "why_tests_cant": "unbounded inputs; non-termination", "anchors": ["parse/read/range.go", "parse/skip/range.go"]}
{"id": "C17", "title": "Pratt parsing respects precedence and associativity", "statement": "parse.String with the arithmetic lexer of the package example returns, for every well-formed expression of numbers, + - *, the value given by the usual grammar: * binds tighter, operators of equal precedence group to the left.", "quantifier": "every well-formed expression of every length", "why_tests_cant": "infinitely many expressions; recursion depth unbounded", "anchors": ["parse/parse.go: Parse, String", "parse/example/expr/parse_test.go"]}
{"id": "C18", "title": "The first parse error is the one reported", "statement": "However many errors are reported on a Source, Error() returns the first one from then on.", "quantifier": "every sequence of Source operations", "why_tests_cant": "all histories", "anchors": ["parse/parse.go: ReportError, Error, Consume1"]}
{"id": "C19", "title": "Sprintf substitutes variables and keeps literal text", "statement": "msgfmt.Sprintf on a template alternating literal text and {name} or {name, goTime, layout} placeholders returns the literal text verbatim with each placeholder replaced by the text of the first value whose key is that name ([]byte values: those that C49 covers).", "quantifier": "every template over literals without '{' and identifier names, every key/value list with those keys", "why_tests_cant": "unbounded templates and argument lists", "anchors": ["msgfmt/parse.go", "msgfmt/formatter.go: compile, findValueIndex, parseVariable", "msgfmt/msgfmt.go: Sprintf, FormatterOf"]}
{"id": "C20", "title": "Sprintf always returns", "statement": "msgfmt.Sprintf returns a string for every format and arguments. (Refuted: the empty format, a placeholder without a value, an odd argument list and an unknown function after literal text panic; an unterminated placeholder loops forever. Proved for templates whose placeholders are all terminated and have values.)", "quantifier": "every format string and argument list", "why_tests_cant": "panics and non-termination over unbounded inputs", "anchors": ["msgfmt/parse.go", "msgfmt/formatter.go"]}
{"id": "C21", "title": "Formatting depends only on the call's own arguments", "statement": "The result of msgfmt.Sprintf does not depend on which calls were made before. (Refuted: the compiled formatter is cached by format alone, so a later call with keys in another order prints the wrong values; proved for histories in which each format is always used with the same key positions and value types.)", "quantifier": "every history of calls", "why_tests_cant": "depends on the whole process history", "anchors": ["msgfmt/msgfmt.go: FormatterOf, formatterCache"]}
{"id": "C22", "title": "MergeErrors and CloseAll account for every failure", "statement": "CloseAll closes every resource exactly once in order even if some fail; it returns nil iff all succeeded, and otherwise an error carrying exactly the failures in order; MergeErrors is nil iff all arguments are nil and otherwise keeps the non-nil ones in order.", "quantifier": "every list of resources and every outcome of each Close", "why_tests_cant": "unbounded lists", "anchors": ["closer.go: MergeErrors, CloseAll, Close, WrapCloser"]}
{"id": "C23", "title": "Goroutine local storage is isolated between goroutines", "statement": "gls.Get on a goroutine returns the last value that goroutine itself gls.Set for the key since its storage was installed, else the value inherited at WithGls time; operations of other goroutines never change it (for wrapped functions started once each), for every interleaving.", "quantifier": "every interleaving of any number of goroutines, ids and keys (including ids sharing a lock shard)", "why_tests_cant": "all schedules", "anchors": ["gls/gls.go: WithGls, WithEmptyGls, Get, Set, ResetGls, DeleteGls, GetGls"]}
{"id": "C24", "title": "Goroutine local storage is installed and removed with the wrapped function", "statement": "While the function wrapped by WithGls runs on a fresh goroutine its storage is enabled, and after it returns or panics it is disabled again, so no storage leaks; the parent's map is not modified by the child. (Refuted: running a wrapped function on a goroutine that already has storage leaves that goroutine without any afterwards, and running one wrapped function twice shares one map.)", "quantifier": "every interleaving", "why_tests_cant": "all schedules; leak freedom is over whole histories", "anchors": ["gls/gls.go: WithGls, DeleteGls, IsGlsEnabled"]}
{"id": "C25", "title": "StopAndWait returns only when every started goroutine has finished", "statement": "If UnboundedExecutor.StopAndWait returns although its context was not cancelled, then at some moment during the call every handler started by Go before that moment has returned or panicked, and the executor's context is cancelled; a panicking handler is still accounted for.", "quantifier": "every interleaving of Go calls, handlers (returning or panicking) and polls", "why_tests_cant": "all schedules", "anchors": ["concurrent/unbounded_executor.go: Go, StopAndWait, checkGoroutines, Stop"]}
{"id": "C26", "title": "concurrent.Map behaves as a map under concurrency", "statement": "Every concurrent history of Load and Store on concurrent.Map (lock based version) is linearizable to a sequential map.", "quantifier": "every interleaving of any number of goroutines", "why_tests_cant": "all schedules", "anchors": ["concurrent/go_below_19.go"]}
{"id": "C27", "title": "The blocking async writer loses, duplicates and reorders nothing", "statement": "With the blocking queue of async.NewAsyncWriter, the bytes handed to the underlying writer are always a prefix of the sequence of writes accepted (in acceptance order), no record is duplicated or corrupted by the caller reusing its buffer, and everything accepted is delivered once the queue drains.", "quantifier": "every interleaving of any number of writers with the background goroutine", "why_tests_cant": "all schedules", "anchors": ["countlog/output/async/async.go"]}
{"id": "C28", "title": "The non-blocking async writer accounts for every record", "statement": "With the non-blocking queue every Write either enqueues the record or reports it as dropped; delivered records are a subsequence of the writes in order; records accepted plus dropped equals records written, and a record is only dropped when the queue is full.", "quantifier": "every interleaving and every queue length", "why_tests_cant": "all schedules", "anchors": ["countlog/output/async/async.go"]}
{"id": "C29", "title": "A sink may keep the bytes of a log record", "statement": "A record once written by output.EventWriter reaches the log reader with the bytes it had when written. (Proved for the async writers, which copy; refuted for the witch event queue, which keeps the pooled buffer that the next record overwrites.)", "quantifier": "every sequence of writes, buffer reuses and reads", "why_tests_cant": "depends on buffer pool reuse order", "anchors": ["countlog/output/writer.go: recylceWriter", "countlog/witch/logger.go: eventQueue.Write", "countlog/output/async/async.go"]}
{"id": "C30", "title": "Log level gating", "statement": "A Trace/Debug/Info/Log call below the level given to SetMinLevel has no effect at all (no output, no statistics, no cache entry), a call at or above it reaches the handler, and Warn/Error/Fatal always do; successful XxxCall events feed statistics at their level but are only output at level + 5.", "quantifier": "every level setting and every call sequence", "why_tests_cant": "product of levels, methods and histories", "anchors": ["countlog/countlog.go", "countlog/context.go", "countlog/root.go: statsAndOutput", "countlog/spi/level.go"]}
{"id": "C31", "title": "XxxCall reports exactly the failures it is given", "statement": "TraceCall/DebugCall/InfoCall/LogAccess return nil iff the error they are given is nil; otherwise they return an error whose text is the formatted event, ': ' and the given error's text, whatever the level settings.", "quantifier": "every error, event, properties and level setting", "why_tests_cant": "unbounded inputs", "anchors": ["countlog/countlog.go: TraceCall, DebugCall, InfoCall, log", "countlog/context.go: LogAccess"]}
{"id": "C32", "title": "A panicking handler does not take down the caller", "statement": "If the output or stats handler panics while handling an event, the logging call returns normally. (Proved for a handler that was already built; refuted for handlers whose construction panics.)", "quantifier": "every handler behaviour and call history", "why_tests_cant": "all histories", "anchors": ["countlog/root.go: oneHandler, statsAndOutput, nomalModeOnPanic, fallbackModeOnPanic, redirector"]}
{"id": "C33", "title": "Context properties accumulate in order and are shared by derived contexts", "statement": "countlog.Ctx is idempotent; properties added with Context.Add appear once, in order, in every later event of that context; Value(key) for foreign keys is the wrapped context's value.", "quantifier": "every sequence of Add and Ctx calls", "why_tests_cant": "all histories", "anchors": ["countlog/context.go: Ctx, Add, Value", "countlog/spi/context.go"]}
{"id": "C34", "title": "Statistics conserve counts", "statement": "For the count aggregator, the sum of all exported values plus what is still in memory equals the number of events handled, per dimension combination, whatever the interleaving of events from any goroutines with exports.", "quantifier": "every interleaving of events on any goroutines with any number of exports", "why_tests_cant": "all schedules", "anchors": ["countlog/stats/window.go", "countlog/stats/count.go", "countlog/stats/monoid.go"]}
{"id": "C35", "title": "Statistics are exported every second", "statement": "The aggregator exports the accumulated points repeatedly for as long as the process runs. (Refuted: the timer is created once, so at most one export ever happens.)", "quantifier": "all executions", "why_tests_cant": "absence of a second export over unbounded time", "anchors": ["countlog/stats/window.go: exportEverySecond"]}
{"id": "C36", "title": "Rotation preserves every byte written", "statement": "rotation.Writer: the concatenation of the archived files in archive order and the current file is exactly the sequence of written records, each record contiguous in one file, when archive names do not collide and no I/O error occurs.", "quantifier": "every sequence of writes and rotations", "why_tests_cant": "all histories", "anchors": ["countlog/output/rotation/rotation.go: Write, rotateInBackground"]}
{"id": "C37", "title": "Time trigger fires at the next interval boundary", "statement": "trigger-by-interval waits a positive time of at most one interval, ending exactly on a multiple of the interval.", "quantifier": "every clock reading and every positive interval", "why_tests_cant": "unbounded arithmetic", "anchors": ["countlog/output/rotation/trigger_by_interval.go"]}
{"id": "C38", "title": "Retention keeps the newest archives", "statement": "retain-by-count asks to purge exactly the archives beyond the newest MaximumArchives and never a newer one while keeping an older one. (Refuted for negative maxima, which panic.)", "quantifier": "every set of archives and every maximum", "why_tests_cant": "unbounded sets", "anchors": ["countlog/output/rotation/retain_by_count.go"]}
{"id": "C39", "title": "Log files never exceed the configured size and records are not split", "statement": "lumberjack.Logger: a file it writes never grows beyond MaxSize megabytes, every record is contiguous in one file, and a record larger than the maximum is refused without being written.", "quantifier": "every sequence of writes, restarts, existing file sizes and rotations", "why_tests_cant": "all histories", "anchors": ["countlog/output/lumberjack/lumberjack.go: Write, rotate, openNew, openExistingOrNew"]}
{"id": "C40", "title": "Rolling log files preserve every record in order", "statement": "lumberjack.Logger: backups in order of creation followed by the current file are exactly the records written, across rotations and restarts. (Proved when clock readings at rotation are distinct at backup-name resolution; refuted when two rotations share a timestamp: the second overwrites the first backup.)", "quantifier": "every sequence of writes, rotations and restarts, every clock", "why_tests_cant": "all histories", "anchors": ["countlog/output/lumberjack/lumberjack.go: openNew, backupName"]}
{"id": "C41", "title": "Backup clean-up removes exactly the expired backups", "statement": "millRunOnce removes a backup iff it is beyond the newest MaxBackups distinct ones or older than MaxAge days, compresses exactly the surviving uncompressed ones when asked, and never touches other files.", "quantifier": "every directory content and configuration", "why_tests_cant": "unbounded directory contents", "anchors": ["countlog/output/lumberjack/lumberjack.go: millRunOnce, oldLogFiles, timeFromName"]}
{"id": "C42", "title": "Backup names round-trip", "statement": "timeFromName recovers from backupName(name, t) the formatted time it was built from; it rejects names without the prefix or extension. (Refuted: it panics on a name in which prefix and extension overlap.)", "quantifier": "every base name, extension and timestamp text", "why_tests_cant": "unbounded strings", "anchors": ["countlog/output/lumberjack/lumberjack.go: backupName, timeFromName, prefixAndExt"]}
{"id": "C43", "title": "reflect2 slice operations agree with Go slices", "statement": "reflect2 SliceType.Append, Grow, SetIndex, GetIndex, SetNil on a slice give the same length and elements as Go's own operations, keep existing elements, and never write outside the backing array; capacity growth terminates with at least the requested capacity.", "quantifier": "every sequence of operations, every length and capacity", "why_tests_cant": "all histories; the growth loop is unbounded", "anchors": ["reflect2/unsafe_slice.go: UnsafeGrow, UnsafeAppend, calcNewCap"]}
{"id": "C44", "title": "The diff matcher returns a valid matching", "statement": "difflib GetMatchingBlocks returns blocks that are equal runs of both sequences, strictly increasing in both, non-adjacent, ended by the sentinel (len a, len b, 0); each step picks a longest common run in its window when nothing is junk.", "quantifier": "every pair of sequences of every length", "why_tests_cant": "unbounded inputs", "anchors": ["test/go-difflib/difflib/difflib.go: findLongestMatch, GetMatchingBlocks"]}
{"id": "C45", "title": "Opcodes turn a into b", "statement": "difflib GetOpCodes: applying the opcodes to a gives b; they tile both sequences from (0,0) without gap or overlap, and tags tell the truth (equal ranges are equal, deletes and inserts are one sided).", "quantifier": "every pair of sequences", "why_tests_cant": "unbounded inputs", "anchors": ["test/go-difflib/difflib/difflib.go: GetOpCodes"]}
{"id": "C46", "title": "Grouped opcodes lose no change", "statement": "difflib GetGroupedOpCodes(n) contains every non-equal opcode unchanged and in order, with at most n lines of context around changes.", "quantifier": "every pair of sequences and every n", "why_tests_cant": "unbounded inputs", "anchors": ["test/go-difflib/difflib/difflib.go: GetGroupedOpCodes"]}
{"id": "C47", "title": "Unified diff prints the lines verbatim", "statement": "WriteUnifiedDiff prints every line of every hunk prefixed by ' ', '-' or '+' verbatim. (Refuted: the line is used as a format string, so a line containing '%' is corrupted; proved for lines without '%'.)", "quantifier": "every pair of line lists", "why_tests_cant": "unbounded inputs", "anchors": ["test/go-difflib/difflib/difflib.go: WriteUnifiedDiff"]}
{"id": "C48", "title": "JSON log records are valid JSON", "statement": "The json output format writes one valid JSON object per event. (Refuted for every event: the timestamp and location keys are not quoted.)", "quantifier": "every event", "why_tests_cant": "unbounded events", "anchors": ["countlog/output/json/json.go"]}
{"id": "C49", "title": "Byte slices are shown byte by byte", "statement": "msgfmt shows a []byte value with printable ASCII bytes as themselves and every other byte escaped, none left out. (Refuted: if the first byte needing an escape is the last byte it is dropped, and after an escape a plain byte directly before a byte >= 0x80 is dropped; proved exactly for all other byte slices.)", "quantifier": "every byte slice", "why_tests_cant": "unbounded byte slices; the loss depends on the neighbourhood of bytes", "anchors": ["msgfmt/formatter_bytes.go"]}
{"id": "C50", "title": "Fprintf and Fprintln write what Sprintf returns", "statement": "msgfmt.Fprintf hands the writer exactly the text Sprintf would return, whatever an earlier call left in the pooled buffer; Fprintln of one value writes that value's text and a newline, of several values the text of the slice of them and a newline, and of none just a newline, always to the given writer.", "quantifier": "every format, argument list, pooled buffer and formatter cache", "why_tests_cant": "depends on what earlier calls left in the pool", "anchors": ["msgfmt/msgfmt.go: fprintf, Fprintln"]}
{"id": "C51", "title": "Closing an async writer delivers what was accepted", "statement": "When Close of an async writer returns, every record accepted before Close was called has been handed to the underlying writer, and the underlying writer gets nothing after that. (The first half is refuted: after one second, or a panic of the underlying writer, the rest of the queue is thrown away; and a record written after Close is accepted and never delivered.)", "quantifier": "every interleaving of writers, the background goroutine and Close", "why_tests_cant": "depends on how long the underlying writer takes and on the schedule", "anchors": ["countlog/output/async/async.go: asyncWrite, Close"]}
{"id": "C53", "title": "Counting an event never leaves a shard of the statistics locked", "statement": "After any events on any goroutines, the lock of every shard of a counting window can be released again, so that later events and exports get past it. (Refuted: when a dimension property of an event is missing or not a string the extraction panics between Lock and Unlock; the panic is recovered by the root handler, the lock stays taken, every later event of a goroutine with that shard and every export block for ever. Proved when the dimension properties are strings.)", "quantifier": "every interleaving of events with any properties and any number of exports", "why_tests_cant": "all schedules and properties; blocking is only seen by a later call of a goroutine of the same shard", "anchors": ["countlog/stats/counter.go: Handle", "countlog/stats/window.go: extractDimension, exportShard"]}
{"id": "C54", "title": "Exported points tell their event, and aggregations are created as asked", "statement": "Every point handed to the collector carries the name of the event it counts; HandlerOf gives a counting handler exactly for \"counter\", nothing for unknown aggregations and the inactive handler without a collector. (The first part is refuted: Window.event is never set, so every point has the empty name.)", "quantifier": "every interleaving of events and exports; every site", "why_tests_cant": "all histories and sites", "anchors": ["countlog/stats/window.go: newWindow, exportShard", "countlog/stats/stats.go: HandlerOf, createHandler"]}
{"id": "C55", "title": "A record tells the place it was logged from", "statement": "The file and line handed to the output for an event are those of the logging call that produced it. (Refuted: the place of the first call with the event's name is used for all of them, and LogPanic is always placed in LogPanic; exact for events logged from one place each, and after the handlers of a name panicked, when they are made per place.)", "quantifier": "every program of logging calls, every place", "why_tests_cant": "all histories of calls sharing event names", "anchors": ["countlog/countlog.go: getHandler, newHandler, LogPanic", "countlog/root.go: nomalModeOnPanic, redirector.Handle"]}
{"id": "C56", "title": "SuppressLevelsBelow keeps the events of a context quiet", "statement": "After ctx.SuppressLevelsBelow(l), no call of ctx at a level below l has any effect. (Refuted: only Trace is suppressed, Debug, Info and the others are not.)", "quantifier": "every context, level, method and event", "why_tests_cant": "product of methods, levels and states", "anchors": ["countlog/context.go: SuppressLevelsBelow, Trace", "countlog/countlog.go: addMemo"]}
{"id": "C57", "title": "Human readable log records show the message, error, properties and place of the event", "statement": "In the hrf format, a record is the message (the event name after event! or callee!, or expanded as a template), the time if asked for, the error, one line for each property of the context and of the event with its value, in order, and from level Warn on the place of the call. (Refuted for properties of one name at different places, for two properties of one name and for the level, which is never shown; proved when all uses of a format have the same shape.)", "quantifier": "every site, event, context, history of formats", "why_tests_cant": "unbounded events and histories of the shared formatter cache", "anchors": ["countlog/output/hrf/hrf.go", "countlog/output/hrf/prop.go", "countlog/output/hrf/ctx.go", "countlog/output/hrf/timer.go", "countlog/output/hrf/location.go", "countlog/spi/color.go"]}
{"id": "C58", "title": "Compact log records show level, time, place, message, error and properties", "statement": "In the compact format, a record is one line with the level, the RFC 3339 time, the place, the message, the error and ||name=value for each property, in order. (Proved when all uses of a format have the same shape.)", "quantifier": "every site, event and history of formats", "why_tests_cant": "unbounded events and histories of the shared formatter cache", "anchors": ["countlog/output/compact/compact.go", "countlog/output/compact/default.go", "countlog/output/compact/timestamp.go", "countlog/output/compact/error.go"]}
{"id": "C59", "title": "A program that logs with the default configuration writes exactly its records", "statement": "All logging calls of a program return, a call with an error returns the expanded message and the text of the error, and what is written is one hrf record for each event that passes the level, in order. (Refuted: a property name like user-id panics into the caller; two events with a property of one name at different places lose a record or show a wrong value.)", "quantifier": "every sequence of logging calls and level settings", "why_tests_cant": "interaction of all calls through the caches of sites and formatters", "anchors": ["countlog/countlog.go", "countlog/root.go", "countlog/output/format.go", "countlog/output/hrf/hrf.go", "msgfmt/msgfmt.go"]}
{"id": "C60", "title": "Records after a layout are the expanded layout", "statement": "In the printf format, a record is the layout, expanded with message, timestamp, level, event, func, file and line of the event. (Refuted for messages with letters outside ASCII or ending in a newline: the message is passed as a []byte and so shown escaped, or cut.)", "quantifier": "every layout, event and history of formats", "why_tests_cant": "unbounded layouts and messages", "anchors": ["countlog/output/printf/printf.go"]}
{"id": "C61", "title": "WriteUnifiedDiff reports write errors", "statement": "WriteUnifiedDiff returns nil only if the writer has accepted the whole text of the diff; if it returns an error, it is the error of the write that failed, and only a prefix of the text was accepted. (Refuted: the error of the deferred Flush is dropped, so for every text of at most 4096 bytes an error of the writer is never reported; proved: at most the last 4096 bytes can be lost silently.)", "quantifier": "every pair of line lists, every writer and every pattern of write errors", "why_tests_cant": "all error patterns of the writer", "anchors": ["test/go-difflib/difflib/difflib.go: WriteUnifiedDiff"]}
{"id": "C62", "title": "Context diffs show both sides", "statement": "GetContextDiffString prints, for every group of changes, the range and the lines of either side in order, with the signs '! ', '- ', '+ ' and '  ', leaving out a side without changes; the lines of the two sides are exactly the lines of A and of B in the printed ranges. (Refuted for lines containing '%', which are used as format strings.)", "quantifier": "every pair of line lists and every context below 2^62", "why_tests_cant": "unbounded inputs", "anchors": ["test/go-difflib/difflib/difflib.go: WriteContextDiff"]}
{"id": "C63", "title": "SplitLines loses no text", "statement": "The lines of SplitLines(s) joined together are s; every line but the last ends with a newline. (Refuted: a newline is always added, so a text that ends with a newline gets one more, empty, line; proved: the lines are the only list of newline ended lines that join to s + \"\\n\".)", "quantifier": "every string", "why_tests_cant": "unbounded strings", "anchors": ["test/go-difflib/difflib/difflib.go: SplitLines"]}
{"id": "C64", "title": "Similarity ratios", "statement": "Ratio <= QuickRatio <= RealQuickRatio, and all three are in [0,1]. Ratio is 2M/T with M the number of matched lines and T the number of lines, QuickRatio the same with the lines in common regardless of order, RealQuickRatio with the smaller number of lines, each rounded once to a float64. Ratio is 1 exactly for equal sequences, QuickRatio exactly for sequences that are permutations of each other, RealQuickRatio exactly for sequences of equal length; with no line in common Ratio and QuickRatio are 0.", "quantifier": "every pair of line lists (T < 2^53 for the exact values, T < 2^63 for the bounds), every junk function, every history of calls on the matcher, with its caches", "why_tests_cant": "all sequences, all histories; floating point rounding", "anchors": ["test/go-difflib/difflib/difflib.go: Ratio, QuickRatio, RealQuickRatio, calculateRatio"]}
{"id": "C65", "title": "A rotation that was triggered takes place", "statement": "rotation.Writer: when the trigger strategy reports that it is triggered, or the time it gave has passed, the current file is archived and the next record goes to a new file; the strategy is asked again after each rotation. (Proved: the file and record that follow a completed rotation, the bounds of the waiting time. Refuted: a trigger reported by UpdateStat never rotates, it is never asked again, a rotation can be lost in a race, a missing archive directory is taken for success, the retry delay is ignored.)", "quantifier": "every trigger, retention and naming strategy, every interleaving of the writing and the background goroutine, every answer of the operating system", "why_tests_cant": "absence of an effect over all executions; interleavings", "anchors": ["countlog/output/rotation/rotation.go: Write, rotateInBackground", "countlog/output/rotation/trigger_by_size.go", "countlog/output/rotation/archive_by_move.go"]}
{"id": "C66", "title": "The safe and the unsafe slice implementations of reflect2 agree", "statement": "For a program that uses reflect2's SliceType, the implementation of Config{UseSafeImplementation: true} gives the same elements, the same values read and the same panics as the default one, and never accesses memory outside an array. (Proved: no program leaves the arrays; same elements and reads for all programs without Grow over slices that do not share arrays. Refuted: Grow panics unless the capacity is asked for, and then does not change the length; GetIndex points to a copy; indices outside the length panic only in the safe one.)", "quantifier": "every program, every element type, every growth policy of reflect.Append", "why_tests_cant": "all histories; equivalence of two implementations", "anchors": ["reflect2/safe_slice.go", "reflect2/unsafe_slice.go"]}
{"id": "C52", "title": "Witch's event queue gives every accepted record to exactly one response, which is JSON", "statement": "Write never blocks and always reports the whole length; a record is refused only when 10240 are waiting, and refusals are counted and told of at the 1st, the 10001st and so on. The records taken are the accepted ones in order; a request to /witch/more-events is responded to once, with at most 1001 records, namely those it took in order, and only when it has 1001 or the queue is empty. The response is a JSON array of the records if they are JSON. (The last sentence is refuted: the response starts with two brackets and ends with one, so it is never JSON when the records are; without its first byte it is the array. Records of the JSON format make it no JSON either way.)", "quantifier": "every interleaving of any number of writers and requests, any records", "why_tests_cant": "all schedules, queue lengths and records; the repository has no test of the handler", "anchors": ["witch/logger.go: Write, consume, moreEvents"]}
{"id": "C67", "title": "The report of a failed check shows the call that failed", "statement": "test.ExtractFailedLines returns \"failed: \" and then, trimmed and without separators, the fewest lines from the given one on whose parentheses balance (all lines to the end of the file if there are none); \"check failed\" if the file cannot be read or has no such line. Hence these are the lines of the call as long as it has no parentheses in literals or comments; with them it may show too many lines or too few.", "quantifier": "all file contents, all line numbers, all trimming functions", "why_tests_cant": "The claim is about every source text; tests look at a few calls.", "anchors": ["test/report.go:11-32"]}
{"id": "C68", "title": "should.JsonEqual compares two documents up to members ANYTHING", "statement": "should.JsonEqual passes exactly when the documents are equal up to members whose expected value is \"ANYTHING\" and the expected document has no null outside of arrays; it panics exactly at a null or a member of the expected document that is missing, and fails otherwise; the order in which maps are gone through does not matter. (The claim that it never panics and accepts equal documents for every kind of argument is refuted.)", "quantifier": "all documents, all argument kinds, all iteration orders of maps", "why_tests_cant": "Map iteration order is random and documents are unbounded trees.", "anchors": ["test/should/json.go:11-70"]}
{"id": "C69", "title": "must.JsonEqual solves for the variables of the expected document", "statement": "For an expected document none of whose keys is a variable, must.JsonEqual terminates, and passes exactly when there is an assignment of values to the variables \"{name}\" under which the documents are equal (members \"{ANYTHING}\" matching anything or nothing, no null); this does not depend on the order in which maps are gone through. (With variables for keys the result depends on the order, and a variable whose value is its own name makes the recursion endless.)", "quantifier": "all pairs of documents, all iteration orders of maps", "why_tests_cant": "Needs all map orders, all variable bindings and aliasing between the two documents, which are modified during the comparison.", "anchors": ["test/must/json.go:12-152"]}
{"id": "C70", "title": "jsonfmt reads from memory exactly the value it is given", "statement": "jsonfmt.MarshalToString(obj), which reaches the parts of obj through unsafe pointers, offsets, element sizes and the words of interfaces, writes the text of the value that obj holds, wherever its parts are in memory and whether the interface holds the value itself (pointers, maps, one-field structs and one-element arrays of them) or a pointer to it. (Not for nil, nil errors in fields, keys in interface types with methods or interface{} keys holding pointers, and errors made of an unsafe.Pointer: refuted by memories in which it panics, reads what is no such value, or calls Error on another value.)", "quantifier": "all memory layouts, all types, all values of unbounded depth", "why_tests_cant": "Layouts and types are unbounded; reading a wrong word often gives a plausible value.", "anchors": ["msgfmt/jsonfmt/encoder.go:56-240", "msgfmt/jsonfmt/encoder_map.go:15-63", "msgfmt/jsonfmt/encoder_slice.go:14-27", "msgfmt/jsonfmt/encoder_stuct.go:19-28", "reflect2/reflect2.go:246-270"]}
{"id": "C71", "title": "jsonfmt.MarshalToString ends", "statement": "jsonfmt.MarshalToString ends for every value that is a finite tree and whose type has a finite structure. For a cyclic value (a []interface{} that contains itself) it never ends, whatever the depth of the stack.", "quantifier": "all values; for the refutation every recursion depth", "why_tests_cant": "No test observes non-termination; cyclic values crash the process.", "anchors": ["msgfmt/jsonfmt/encoder_dynamic.go:13-19", "msgfmt/jsonfmt/encoder_slice.go:14-27"]}
{"id": "C72", "title": "Indirect gives the value a pointer points to", "statement": "reflect2's UnsafeIndirect(p) of the type T returns the interface{} that holds the variable of type T at p (the interface itself for interface types), for exactly the types T that are not made of nothing but an unsafe.Pointer; for those the result is the address of the variable instead of its value.", "quantifier": "all types, all memories, all pointers", "why_tests_cant": "The type structure is unbounded; the wrong word is a valid pointer too.", "anchors": ["reflect2/unsafe_type.go:63-71", "reflect2/unsafe_eface.go:51-59", "reflect2/unsafe_iface.go:18-44", "reflect2/unsafe_ptr.go:38-46", "reflect2/unsafe_struct.go:24-35", "reflect2/unsafe_array.go:30-41", "reflect2/reflect2.go:246-270"]}
{"id": "C73", "title": "reflect2 Set, New and Indirect", "statement": "Set(&x, &y) of a type T makes x equal to y and changes nothing else, in the unsafe and the safe implementation; the unsafe one accepts nothing but two *T that are not nil. New gives a variable with the zero value that shares no memory with others. Indirect(&x) is a copy of x, so it keeps its value when x changes; for the unsafe implementation it shares the memory of x (refuted), and the safe Set accepts variables of other types (refuted).", "quantifier": "all types and layouts, all memories, all overlapping or distinct variables", "why_tests_cant": "The changes outside of the variable and the sharing of memory are not visible in one result; types and layouts are unbounded.", "anchors": ["reflect2/unsafe_type.go:25-35", "reflect2/unsafe_type.go:46-56", "reflect2/unsafe_type.go:63-85", "reflect2/unsafe_slice.go:32-42", "reflect2/safe_type.go:15-17", "reflect2/safe_type.go:43-45", "reflect2/safe_type.go:67-69"]}
{"id": "C74", "title": "reflect2 struct fields", "statement": "Get of a field gives a pointer to that field's value and Set changes that field and no other. True for the safe implementation for every path through embedded structs and pointers if the field is exported; for the unsafe one for the fields of the struct itself. For a field promoted from embedded structs (FieldByName) the unsafe one is right exactly if the embedded structs are at offset 0 of the outermost one: otherwise it reads and overwrites another field.", "quantifier": "all struct types and layouts, all paths, all memories", "why_tests_cant": "Layouts and embeddings are unbounded; the wrong field may have the right type.", "anchors": ["reflect2/unsafe_field.go:52-74", "reflect2/unsafe_struct.go:37-57", "reflect2/safe_field.go:37-51", "reflect2/safe_struct.go:11-34"]}
{"id": "C75", "title": "reflect2 IsNil of a type", "statement": "IsNil(&x) tells whether x is nil, for every type that can be nil. True for the safe implementation; the unsafe one is right exactly if x is not an interface{} holding a nil pointer (which it calls nil), and never calls an unsafe.Pointer nil. For types that cannot be nil the unsafe one says false and the safe one panics; a nil *T is nil for the unsafe one and a panic for the safe one.", "quantifier": "all types, all memories, all objects", "why_tests_cant": "The cases depend on the type, the object and the dynamic type in an interface.", "anchors": ["reflect2/unsafe_type.go:37-45", "reflect2/unsafe_eface.go:35-49", "reflect2/unsafe_iface.go:45-63", "reflect2/unsafe_ptr.go:18-32", "reflect2/unsafe_map.go:22-36", "reflect2/unsafe_slice.go:44-58", "reflect2/safe_type.go:56-61"]}
{"id": "C76", "title": "reflect2 array elements", "statement": "GetIndex and SetIndex of an array read and change the element with that index and nothing else, in both implementations. For an index outside of the array the safe one panics; the unsafe one gives a pointer outside of the array, and SetIndex changes the memory there (refuted bounds check).", "quantifier": "all array types, all indices, all memories", "why_tests_cant": "The overwritten memory belongs to other variables.", "anchors": ["reflect2/unsafe_array.go:43-69", "reflect2/safe_slice.go:12-16", "reflect2/safe_slice.go:26-32", "reflect2/unsafe_link.go:71-80"]}
{"id": "C77", "title": "reflect2 maps: SetIndex and GetIndex", "statement": "After any sequence of SetIndex calls (by the safe or the unsafe implementation), GetIndex of a key gives a pointer to the value last set for an equal key, and nil if there is none; other maps and variables do not change. Holds if the elements come from variables that are not themselves in the map; m[k2] = m[k1] through GetIndex's pointer can store a cleared value when the map grows (refuted). A nil element pointer deletes the key in the safe implementation, and in the unsafe one panics after the key was added with a zero value. The safe TryGetIndex panics for every pointer to a map (refuted). With a key that cannot be hashed every operation of both implementations panics and changes nothing, also on empty and nil maps.", "quantifier": "all key types with a partial equality, all histories, all relocations of elements by the runtime", "why_tests_cant": "Relocation depends on the runtime's hashing; histories are unbounded.", "anchors": ["reflect2/unsafe_map.go:56-102", "reflect2/safe_map.go:16-60", "reflect2/unsafe_link.go:19-25"]}
{"id": "C78", "title": "reflect2 map iterators", "statement": "The loop for it.HasNext() { it.Next() } over a map that is not changed yields each pair exactly once. True for the unsafe iterator; the safe one does so exactly if every key equals itself, and otherwise panics (NaN). The safe iterator panics also if a key that is yet to come is deleted. Whatever happened to the map since the safe iterator was made, its next pair has the next key of its own list and the element the map has for it now; if there is none it panics.", "quantifier": "all maps, all iteration orders", "why_tests_cant": "Orders and key types are unbounded; NaN keys are rare.", "anchors": ["reflect2/unsafe_map.go:104-138", "reflect2/safe_map.go:66-97"]}
{"id": "C79", "title": "Pointers from reflect2's map GetIndex", "statement": "Writing through the pointer from GetIndex changes the element of that key in the map for the unsafe implementation, and changes no map for the safe one. The unsafe pointer keeps doing so after other SetIndex calls exactly if the runtime did not move the element; otherwise the write is lost (refuted).", "quantifier": "all maps, keys, values and relocations", "why_tests_cant": "Whether the element moves depends on the runtime.", "anchors": ["reflect2/unsafe_map.go:91-102", "reflect2/safe_map.go:49-60"]}
{"id": "C80", "title": "test.Case gives every check of a test its t, and cleans up", "statement": "A test run by test.Case finds its own t in every check, reports to it and to nothing else, and leaves no t behind in the goroutine and no change for other goroutines; sub-tests run with t.Run(name, Case(f)) use their own t, goroutines started with gls.WithGls the t of the starting goroutine, goroutines started otherwise crash at their first check. A test that calls a function made by Case or WithGls in its own goroutine loses its t: the next check panics (refuted).", "quantifier": "all test programs of checks, steps, panics, exits, skips, sub-tests and goroutines; all goroutine ids", "why_tests_cant": "Tests of the test helper run inside one t; nesting and goroutine interleavings are unbounded.", "anchors": ["test/case.go:17-46", "gls/gls.go"]}
{"id": "C81", "title": "must stops, should continues", "statement": "In a test of checks the steps up to the first failing must check are made and no others; t fails exactly if one of the checks made fails; every failing check reports once to t. must.Nil and should.Nil pass exactly for nil interfaces and nil pointers, maps, slices, chans and funcs - but not for a nil unsafe.Pointer (refuted), and a failing Pass or Assert with an odd or wrongly keyed list panics instead of reporting.", "quantifier": "all sequences of checks, all values, all key value lists", "why_tests_cant": "Sequences and values are unbounded.", "anchors": ["test/must/nil.go", "test/should/nil.go", "test/must/equal.go", "test/must/pass.go", "test/should/pass.go", "test/testify/assert/assertions.go"]}
{"id": "C82", "title": "must.Panic and should.Panic", "statement": "Panic passes and returns the panic's value exactly if f panics with a value that is not nil; if f returns, or stops its goroutine, the check fails. A panic with a nil pointer in the interface is taken for none (refuted). Without a caller f is not run at all.", "quantifier": "all functions f with any effects, all states", "why_tests_cant": "f is arbitrary.", "anchors": ["test/must/panic.go", "test/should/panic.go"]}
{"id": "C83", "title": "must.Call and should.Call", "statement": "f is called with exactly the given arguments if their number and types fit, and otherwise the call panics and f is not run; must.Call passes the zero value for nil (not for variadic arguments: refuted), should.Call panics for any nil argument (refuted). The results are returned; a last result that implements error and is not nil fails the test. A nil pointer of an error type that is the declared result type counts as an error (refuted).", "quantifier": "all function types, bodies, argument lists, results and assignability relations", "why_tests_cant": "Functions and types are unbounded.", "anchors": ["test/must/call.go:13-46", "test/should/call.go:13-40"]}
{"id": "C84", "title": "ReturnValue.Set", "statement": "Set stores the results one after the other in the variables pointed to, and panics at the first that cannot be stored, keeping the stores made before. A nil result, such as the nil error of a successful call, cannot be stored (refuted).", "quantifier": "all results, pointers, stores", "why_tests_cant": "Any number and type of results.", "anchors": ["test/must/call.go:48-52", "test/should/call.go:42-46"]}
{"id": "C85", "title": "testify: the text of a failure", "statement": "A failure is reported with exactly this text: a carriage return, the spaces that hide what testing writes, and for Error (and Messages, if there is a message) the label, padding to the longest label, and the lines of the text below each other, each without a carriage return at its end. All lines are shown if every one has less than 65536 bytes; from the first longer one on nothing is shown (refuted). A first message argument that is not a string makes the failing assertion panic without a report.", "quantifier": "all failure texts, messages, callers, formats", "why_tests_cant": "Texts are unbounded; the loss needs a line of 64 KiB.", "anchors": ["test/testify/assert/assertions.go:160-203", "test/testify/assert/assertions.go:228-269"]}
{"id": "C86", "title": "testify: Equal, NotEqual, Exactly, EqualValues", "statement": "Equal passes exactly if no argument is a function and reflect.DeepEqual holds (the separate comparison of slices of bytes makes no difference); NotEqual passes exactly if no argument is a function and it does not; Exactly does what Equal does. EqualValues passes exactly if DeepEqual holds for the values or after the conversion of the expected one to the type of the actual one, so it depends on the order of the arguments and passes for values that differ (refuted). Every assertion reports once if it fails and not at all if it passes.", "quantifier": "all values, all conversions, all DeepEqual relations that treat slices of bytes as bytes.Equal does", "why_tests_cant": "Values and types are unbounded.", "anchors": ["test/testify/assert/assertions.go:39-75", "test/testify/assert/assertions.go:304-370", "test/testify/assert/assertions.go:527-539", "test/testify/assert/assertions.go:1228-1240"]}
{"id": "C87", "title": "testify: Empty, NotEmpty, Len, Zero, NotZero", "statement": "Empty passes exactly for nil, nil pointers, lists, maps and channels of length 0, pointers to empty values, and zero values; NotEmpty for the others. Both never end exactly for endless chains of pointers, such as a pointer to itself (refuted). Len passes exactly if the value has that length; Zero exactly for nil and zero values, NotZero for the others.", "quantifier": "all values, all memories, all lengths", "why_tests_cant": "Pointer chains have any length; the failure never ends.", "anchors": ["test/testify/assert/assertions.go:408-493", "test/testify/assert/assertions.go:1119-1132"]}
{"id": "C88", "title": "testify: Contains, NotContains", "statement": "Contains passes exactly if the element is a part of the string, equal to an element of the list, or equal to a key of the map; NotContains exactly for such a container without the element, and for a channel with nothing in it. A value that is not a string is looked for in a string as the text '<T Value>' (refuted).", "quantifier": "all containers and elements", "why_tests_cant": "Strings and lists are unbounded.", "anchors": ["test/testify/assert/assertions.go:545-617"]}
{"id": "C89", "title": "testify: Subset, NotSubset", "statement": "Subset passes exactly for nil, or for two lists where every element of the second is equal to one of the first; NotSubset exactly for two lists where one is not. With nil instead of the first list, or with a bad message, both return false without a report, so the test passes (refuted).", "quantifier": "all lists, elements, messages", "why_tests_cant": "The tests look at the result and not at the report.", "anchors": ["test/testify/assert/assertions.go:623-699"]}
{"id": "C90", "title": "testify: ElementsMatch", "statement": "For two lists ElementsMatch passes exactly if one is a rearrangement of the other with equal elements, each used as often as it occurs. Two empty values of any kind pass (refuted), nil beside a value that is not empty panics, what is not a list fails.", "quantifier": "all lists, all symmetric and transitive equalities; soundness for all equalities", "why_tests_cant": "All permutations of lists of any length.", "anchors": ["test/testify/assert/assertions.go:706-753"]}
{"id": "C91", "title": "testify: InDelta, InDeltaSlice, InDeltaMapValues", "statement": "For finite numbers InDelta passes exactly if the difference rounded to float64 is at most delta; so it passes if the difference is at most delta, and a passing difference is below the middle of delta and the next float64; integers up to 2^52 are exact. Larger ones are not (refuted), a NaN delta passes everything (refuted), uint is not a number. InDeltaSlice compares actual with the first elements of expected: a shorter actual passes (refuted), a longer one panics. InDeltaMapValues passes exactly for maps of the same size with the keys of expected in both and values within delta; a map with a NaN key is not within delta of itself (refuted), keys of another type panic.", "quantifier": "all float64 and integer values, deltas, slices, maps", "why_tests_cant": "2^128 pairs of numbers.", "anchors": ["test/testify/assert/assertions.go:844-968"]}
{"id": "C92", "title": "testify: InEpsilon, InEpsilonSlice", "statement": "For finite numbers, the expected one not 0, whose difference does not overflow, InEpsilon passes exactly if the rounded quotient of the rounded difference and the expected number is at most epsilon; 0 and what is not a number fail. NaN passes as expected, actual or epsilon (refuted); an overflowing difference fails whatever the relative error (refuted). InEpsilonSlice measures relative to actual instead of expected, and accepts a shorter actual (refuted).", "quantifier": "all float64 and integer values, slices", "why_tests_cant": "2^128 pairs of numbers.", "anchors": ["test/testify/assert/assertions.go:844-878", "test/testify/assert/assertions.go:970-1019"]}
{"id": "C93", "title": "testify: Panics, NotPanics, PanicsWithValue", "statement": "Panics passes exactly if the function panics with a value that is not nil, NotPanics exactly if it does not; PanicsWithValue exactly if that value == the expected one, and panics itself if they cannot be compared. panic(nil) counts as no panic (refuted). A function that ends the goroutine ends the test.", "quantifier": "all behaviours of the function, all values", "why_tests_cant": "panic(nil) and Goexit are rare.", "anchors": ["test/testify/assert/assertions.go:769-829"]}
{"id": "C94", "title": "testify: WithinDuration", "statement": "For a delta strictly between the shortest and the longest Duration, WithinDuration passes exactly if the times are at most delta apart, however far apart they are. With the longest Duration it passes for any later expected time, with the shortest one for expected times long before (refuted).", "quantifier": "all times and durations", "why_tests_cant": "The failure needs times 292 years apart.", "anchors": ["test/testify/assert/assertions.go:834-842"]}
{"id": "C95", "title": "testify: errors, booleans, conditions", "statement": "NoError passes exactly for nil, Error exactly for what is not nil, EqualError exactly for an error with that text, True, False and Condition exactly for the value they name; a failing one reports once, also where one assertion calls another.", "quantifier": "all errors, texts, values, messages", "why_tests_cant": "Texts are unbounded.", "anchors": ["test/testify/assert/assertions.go:498-519", "test/testify/assert/assertions.go:756-762", "test/testify/assert/assertions.go:1031-1073"]}
{"id": "C96", "title": "testify: Nil, NotNil, IsType, Implements", "statement": "Nil passes exactly for values that == nil holds for, NotNil exactly for the others; IsType exactly for two values of one type or two nils; Implements exactly for a value whose type implements the interface it is given a pointer to. A failing one reports once.", "quantifier": "all values, all messages, all method sets", "why_tests_cant": "Types and values are unbounded.", "anchors": ["test/testify/assert/assertions.go:274-295", "test/testify/assert/assertions.go:375-405"]}
{"id": "C97", "title": "testify: Regexp, NotRegexp, JSONEq", "statement": "Regexp passes exactly if the expression matches the text it is given, a string or bytes, and NotRegexp exactly if it does not; JSONEq exactly for two documents with equal values.", "quantifier": "all expressions, texts, documents, messages", "why_tests_cant": "Expressions and texts are unbounded.", "anchors": ["test/testify/assert/assertions.go:1075-1116", "test/testify/assert/assertions.go:1167-1179"]}
{"id": "C98", "title": "testify: FailNow and the formatted variants", "statement": "FailNow reports once and never lets the test go on or pass; every assertion ending in f decides what the assertion without f decides, whatever its message, and shows the message formatted with its arguments.", "quantifier": "all assertions of assertion_format.go, all arguments, messages, formats", "why_tests_cant": "Messages and arguments are unbounded.", "anchors": ["test/testify/assert/assertions.go:210-225", "test/testify/assert/assertion_format.go:15-349"]}
{"id": "C99", "title": "testify: HTTPSuccess, HTTPRedirect, HTTPError", "statement": "HTTPSuccess passes exactly for a response with a status of the 200s, HTTPRedirect for the 300s, HTTPError for 400 and more, where the status is that of the first WriteHeader, or 200 if the handler writes first or nothing. At most one of them passes; a request that cannot be built fails all.", "quantifier": "all handlers, methods, URLs, values", "why_tests_cant": "Handlers are arbitrary programs.", "anchors": ["test/testify/assert/http_assertions.go:13-81"]}
{"id": "C100", "title": "testify: HTTPBody and the request", "statement": "The handler is asked once for the URL with the values as its query; HTTPBodyContains passes exactly if everything it writes contains the text, HTTPBodyNotContains exactly if it does not.", "quantifier": "all handlers, URLs, values, texts", "why_tests_cant": "Handlers and URLs are unbounded.", "anchors": ["test/testify/assert/http_assertions.go:13-21", "test/testify/assert/http_assertions.go:85-127"]}
{"id": "C101", "title": "testify: FileExists, DirExists", "statement": "FileExists passes exactly for a path that names a file, DirExists exactly for one that names a directory; errors fail both.", "quantifier": "all file systems with links, all paths", "why_tests_cant": "File systems are unbounded.", "anchors": ["test/testify/assert/assertions.go:1135-1162"]}
{"id": "C102", "title": "testify: CallerInfo", "statement": "CallerInfo gives file and line of every call from the assertion up to the test, benchmark or example function, and of nothing beyond.", "quantifier": "all call stacks", "why_tests_cant": "Stacks are unbounded, names and paths arbitrary.", "anchors": ["test/testify/assert/assertions.go:84-156"]}
{"id": "C103", "title": "go-spew: Dump comes to an end", "statement": "Dump of a value ends, however pointers, slices and maps lead back to it, and more steps give the same result.", "quantifier": "all values and memories, all configurations, all methods, all orders of map keys", "why_tests_cant": "Values and memories are unbounded; a test cannot show that something never ends.", "anchors": ["test/go-spew/spew/dump.go:81-157", "test/go-spew/spew/dump.go:236-449"]}
{"id": "C104", "title": "go-spew: the text of Dump", "statement": "What Dump writes is the text of the trees its arguments unfold to, one after the other, with indentation, commas, braces, sizes, chains of addresses and hexdumps in their places; <already shown> is only said of an address that was followed before.", "quantifier": "all lists of arguments, memories, configurations whose Indent is one line, methods, orders of map keys", "why_tests_cant": "Values are unbounded, the text depends on flags that the code carries from one value to the next.", "anchors": ["test/go-spew/spew/dump.go:62-157", "test/go-spew/spew/dump.go:227-449", "test/go-spew/spew/dump.go:453-468"]}
{"id": "C105", "title": "go-spew: sorted keys", "statement": "With SortKeys the text of Dump does not depend on the order in which maps give their keys: the entries are shown in ascending order (false before true, numbers by size, strings and arrays lexicographically) or, for keys of other kinds that have different texts, in the order of these texts.", "quantifier": "all memories and reorderings of their maps, all values, configurations with SortKeys", "why_tests_cant": "The order of map keys is not under the control of a test.", "anchors": ["test/go-spew/spew/common.go:217-341", "test/go-spew/spew/dump.go:386-389"]}
{"id": "C106", "title": "go-spew: the text of an address", "statement": "printHexPtr writes <nil> for 0, and otherwise 0x and the hexadecimal digits of the address without zeros in front; its buffer is always long enough; different addresses have different texts.", "quantifier": "all addresses of 64 bits", "why_tests_cant": "There are 2^64 addresses.", "anchors": ["test/go-spew/spew/common.go:183-215"]}
{"id": "C107", "title": "go-spew: Error and String methods", "statement": "A value with an Error or String method is shown by its text and is not looked into; with DisableMethods no method matters; a method that panics does not end Dump and its panic is shown as the value.", "quantifier": "all values, methods, configurations, memories", "why_tests_cant": "Methods and values are arbitrary.", "anchors": ["test/go-spew/spew/common.go:70-141", "test/go-spew/spew/dump.go:302-311"]}
{"id": "C108", "title": "go-spew: the texts of the formatter", "statement": "What the formatter writes for %v, %+v, %#v and %#+v is the text of a tree its value unfolds to: brackets, spaces, field names with + or #, types with #, asterisks or addresses of pointers in their places; <shown> is written exactly for an address that was followed less deep and not left since, <max> at the limit.", "quantifier": "all values and memories, configurations, methods, orders of map keys, the four combinations of flags", "why_tests_cant": "Values are unbounded; whether a type is written depends on a flag that is carried from one value to the next.", "anchors": ["test/go-spew/spew/format.go:105-367", "test/go-spew/spew/format.go:371-398"]}
{"id": "C109", "title": "go-spew: the formatter comes to an end", "statement": "Formatting a value ends, however pointers, slices and maps lead back to it, and more steps give the same result.", "quantifier": "all values and memories, configurations, methods, orders of map keys, the four combinations of flags", "why_tests_cant": "Values and memories are unbounded; a test cannot show that something never ends.", "anchors": ["test/go-spew/spew/format.go:105-195", "test/go-spew/spew/format.go:201-367"]}
{"id": "C110", "title": "testify: the difference shown when Equal fails", "statement": "When Equal or EqualValues fails for two structs, maps, slices or arrays of one type, or pointers to such, the message ends with a unified diff, with one line of context, that turns the lines of go-spew's dump of the expected value into those of the dump of the actual value; it has no hunks exactly if the dumps are the same. For all other values nothing is added. The lines are shown verbatim if there is no percent sign in the dumps. The report ends if every way from a value back to itself passes a pointer and pointers do not go round among themselves; it does not depend on the order in which maps with plain keys give their entries, nor on the addresses at which the values lie. Refuted as a whole: a slice that contains itself makes Equal run forever, a String method can hide the difference, a percent sign is taken for a formatting verb.", "quantifier": "all values, memories, types, methods, orders of map keys", "why_tests_cant": "Values, dumps and edit scripts are unbounded, and a test cannot show that a report never ends.", "anchors": ["test/testify/assert/assertions.go:1181-1224", "test/testify/assert/assertions.go:1242-1247", "test/testify/assert/assertions.go:304-336", "test/go-spew/spew/config.go:279-283"]}
{"id": "C111", "title": "go-spew: access to protected values", "statement": "At start-up go-spew finds out, from the size of a reflect.Value and the flag word of an int, where reflect keeps the word, the flags and the read-only and indirect bits; it is right for every combination of layouts except one read-only bit above the kind with ints that are not indirect. With a layout found out right, unsafeReflectValue gives a value of the same type in the same place (or a copy of its word if it has no place) that is addressable and not read-only, so every Error and String method can be looked up; the methods of the value itself rather than of a pointer are used exactly if pointer methods are disabled and the value is neither addressable nor protected. Refuted: pointer methods of unexported fields are called even if they are disabled, and in the layout with a scalar word a uintptr is read from the wrong word.", "quantifier": "all layouts, memories, values, flag words, settings", "why_tests_cant": "A test runs with one version of package reflect only, and memories and flag words are unbounded.", "anchors": ["test/go-spew/spew/bypass.go:36-111", "test/go-spew/spew/bypass.go:122-152", "test/go-spew/spew/common.go:92-111"]}
{"id": "C112", "title": "reflect2: TypeOf and Type2 under concurrency", "statement": "Whatever goroutines call ConfigUnsafe's or ConfigSafe's TypeOf and Type2 in whatever interleaving of their cache accesses: nil panics, and every other type gives a Type that says it is that type and is implemented for its kind; different types never get the same Type; a call ends after at most two accesses to the cache; once a Type is cached and no goroutine is between looking up and storing it, every later call gives this very Type. Refuted: two goroutines that ask for a new type at the same time get two different Types, and a later caller gets either one first and the other later.", "quantifier": "all interleavings of all numbers of goroutines, all types, both configurations", "why_tests_cant": "A test observes a few schedules only; the double creation needs two goroutines between load and store.", "anchors": ["reflect2/reflect2.go:127-163", "reflect2/reflect2.go:164-204"]}
{"id": "C113", "title": "reflect2: types by name and by kind, and the offset of goid", "statement": "TypeByName gives the Type of the struct of the last linked pointer type to a struct of that name (before Go 1.7 also through slices of pointers), and panics for every other name; init of package gls finds the offset of goid exactly if runtime.g is linked and has the field, and panics otherwise; DefaultTypeOfKind gives the Type of the plain type of each kind from bool to float64, string and unsafe.Pointer and nil for all others; a version is taken for one before 1.7 exactly for 1.5, 1.5.x, 1.6 and 1.6.x. Refuted: two structs with the same package name and name are confused, complex64 and complex128 have no default type, release candidates of 1.6 are taken for newer versions.", "quantifier": "all link tables, sections, offsets, names, kinds, version strings", "why_tests_cant": "The link tables are those of the test binary only; others are unbounded.", "anchors": ["reflect2/type_map.go:13-72", "reflect2/reflect2_kind.go:8-29", "gls/goid.go:8-18"]}
{"id": "C114", "title": "reflect2: which type assertions succeed", "statement": "A type assertion on a reflect2 Type succeeds exactly if each method of the interface is declared with the same signature at the least depth at which its name is declared. So with unsafe operations StructType, MapType, SliceType and ListType succeed exactly for the kinds they are for, the assertions of the JSON formatter always succeed whatever goroutines do, and TypeOfPtr panics for nil only. Refuted: PtrType and InterfaceType succeed for every kind and ArrayType for slices; with safe operations no struct is a StructType, and pointers, channels, functions and interfaces are MapTypes.", "quantifier": "all implementations, interfaces, kinds, both configurations, all interleavings", "why_tests_cant": "Tests assert what they expect to succeed; that nothing else succeeds is a statement about all combinations.", "anchors": ["reflect2/reflect2.go:9-117", "reflect2/reflect2.go:164-213", "msgfmt/jsonfmt/encoder.go:148-172", "reflect2/safe_struct.go:3-13"]}
{"id": "C115", "title": "dump: the document is JSON that explains every address it shows", "statement": "For every type whose encoder can be built and every memory, dump.Var's String writes one JSON object with no member twice, in which __root__ gives the type's name and the address of the object's data, the member of that address is what the type's encoder writes for the data, and every address shown anywhere is nil's or a member (if no type or field name needs escaping and no map's evacuation count is 10^19 or more). Refuted: that what a pointer points to is in the document - for slices of pointers the place of the pointer is taken for what it points to, what a struct's first field points to is overwritten by the struct, equal pointers show different addresses, nil crashes, and a struct tag in the type's name makes a text that is no JSON.", "quantifier": "all types, memories, addresses, map iteration orders", "why_tests_cant": "The package's tests compare a handful of texts; that no address is left unexplained is a statement about all object graphs.", "anchors": ["dump/dumpvar.go:25-72", "dump/eface.go:20-35", "dump/pointer.go:14-23", "dump/slice.go:21-52", "dump/str.go:21-35", "dump/map.go:82-231"]}
{"id": "C116", "title": "dump: which buckets of a map are dumped and from where", "statement": "The buckets of a map are dumped one by one from their places in the bucket array, each with its hashes, keys, elements and overflow pointer from where Go keeps them, and following overflow buckets ends exactly if their chain does. Old buckets are all dumped exactly if the map does not grow to the same size. Refuted: that the dump of a map variable shows the map's count - it shows the map's address, since no encoder gets the address of the map itself; also a bucket that is its own overflow bucket never ends, and keys of more than 128 bytes shift the layout.", "quantifier": "all memories, key and element sizes and alignments, bucket counts", "why_tests_cant": "Tests dump one small map; layouts depend on sizes, alignments and the state of growth, and chains on memory.", "anchors": ["dump/map.go:13-80", "dump/map.go:82-123", "dump/map.go:125-231"]}
{"id": "C117", "title": "dump: which types can be dumped", "statement": "The encoder dump needs for a type is built after finitely many steps exactly if no endless chain of element, key and field types leads on from the type. Refuted: that every type can be dumped - for type Node struct { next *Node } building the encoder never ends.", "quantifier": "all type graphs", "why_tests_cant": "Non-termination cannot be observed by tests, and type graphs are unbounded.", "anchors": ["dump/dumpvar.go:52-72", "dump/map.go:69-80", "msgfmt/jsonfmt/encoder.go:65-77", "msgfmt/jsonfmt/encoder.go:103-176"]}
{"id": "C118", "title": "The mill keeps up with the rotations and never holds up a call", "statement": "lumberjack.Logger: Write and Rotate never wait for the goroutine that removes and compresses backups; at most one such goroutine exists, started by the first request; after every request the directory is read again (requests that come while one is waiting are merged with it); left alone the goroutine comes to rest after boundedly many steps; and when it rests after a call that succeeded, with no error from the operating system, the directory holds at most MaxBackups backups, all compressed if Compress is set, none older than MaxAge when it was last read. It only touches backups it chose, never the log, and does not panic if the extension has no dash. (Refuted without the condition on errors: a log that cannot be opened to append becomes a backup for which the mill is not asked; an error of os.Remove is dropped. Also refuted: the goroutine ends with Close; BackupTimeFormat is accessed without a race if it is empty at first; no file name makes the program panic.)", "quantifier": "every interleaving of calls and mill steps, every initial directory, every clock, every sequence of answers of the operating system", "why_tests_cant": "The claim is about all interleavings of two goroutines and all directory contents.", "anchors": ["countlog/output/lumberjack/lumberjack.go: mill, millRun, millRunOnce, rotate, openExistingOrNew, timeFromName, Close"]}
{"id": "C119", "title": "The statistics keep their own dimensions", "statement": "countlog/stats: an event adds exactly one to the count of the texts that its dimension properties have when it is handled, and to no other dimension and no map with other counters; it panics exactly when a dimension property is missing or not a string, whatever the number of dimensions; and no later write of the program to the memory of the event, to the stack, or to points it was given changes a dimension or a count, although dimensions are looked up through a pointer to the caller's memory. The statistics in turn write to no string of the program.", "quantifier": "every interleaving of events, exports, merges and writes of the program; every memory layout of the strings (shared, overlapping); any number of dimensions", "why_tests_cant": "The memory of an event is reused by later calls at moments a test does not control; the claim is about all such reuses.", "anchors": ["countlog/stats/window.go: extractDimension, copyDimension, dimensionExtractor2/4/8/Any", "countlog/stats/counter.go: Handle"]}
{"id": "C120", "title": "Exported points do not share memory that shows", "statement": "countlog/stats: each point a collector is given shows the texts and the count of one dimension of the map, whose count becomes zero; it goes on to show these texts whatever else happens, as long as its dimension is not written to; and writing to the elements of one point's dimension changes no other point. (Refuted for append: the dimensions are slices of one array with room up to the end of the array, so append(p.Dimension, s) overwrites the first element of the next point of the same export. For the last point of an export append is proved harmless.)", "quantifier": "every interleaving of events, exports and writes of the program; all points of all exports", "why_tests_cant": "Aliasing shows only for collectors that keep or extend points in particular orders.", "anchors": ["countlog/stats/window.go: exportShard", "countlog/stats/state.go: Point, CounterMonoid.Export"]}
{"id": "C121", "title": "Merging statistics", "statement": "countlog/stats MapMonoid.Add: the merged map has for each dimension the sum of the two counts modulo 2^64 (a missing dimension counts nothing), the map that was added is unchanged, and maps with other counters are unchanged, if the two maps have no counter in common; a map added to itself has every count doubled. (Refuted: afterwards the maps are independent. A dimension that was missing is added with the other map's counter: what is counted in one later is counted in both, an export of one empties the other, and adding a second time changes the map that is added.)", "quantifier": "all maps that can be reached, every order in which the map is walked", "why_tests_cant": "The order of a walk over a map is random, and the sharing shows only in what happens afterwards.", "anchors": ["countlog/stats/state.go: MapMonoid.Add, CounterMonoid.Add"]}
{"id": "C122", "title": "dump: what is shown is what the memory holds", "statement": "For every type without escapes in its field names whose encoder can be built, and every memory: what dump's encoder writes for an address, and every entry it adds, is exactly what the memory there is as a value of that type - a string its address, length and bytes; a slice its address, length, capacity and its len elements, one element size apart; an array its n elements; a struct its named fields at their offsets; a pointer the place where it is kept and, under that, what it points to; an hmap all its header fields, 2^B buckets, half as many old ones, the overflow buckets of extra, each bucket with its hashes, keys, elements and chain of overflow buckets - where the place of what a pointer or slice leads to is taken for a pointer itself if its type is one pointer word. The document's members are exactly the root, the root's value under its address, and the entries, the later of two with one address. If all memory is readable and no map is met, something is written. (Numbers the JSON writer spoils, C02-C04, are excepted: addresses of 10^19 and more, hash0 of 10^9 and more, strings whose last byte alone needs escaping; no hmap has evacuated 10^19 buckets.)", "quantifier": "all types, memories, addresses, places of temporaries and map iteration orders", "why_tests_cant": "Tests compare dumps of a few values; the layout of nested values and of a map's internals has unboundedly many shapes.", "anchors": ["dump/*.go", "msgfmt/jsonfmt/encoder_array.go", "msgfmt/jsonfmt/encoder_stuct.go", "msgfmt/jsonfmt/encoder.go: EncoderOf, OnePtrEncoder"]}
{"id": "C123", "title": "go-spew's printing functions print like fmt but for %v", "statement": "For every format without * and argument indexes and all operands: spew.Sprintf (Printf, Fprintf, Errorf, and the methods of ConfigState) writes what fmt.Sprintf writes, except that %v writes the formatter's text without regard to width and precision: the text, percent signs, the notes on missing operands and verbs are the same, and each operand with another verb is printed by fmt with exactly the flags, width, precision and verb of the format. Print and Println write the texts of the operands with a space between each two. (Refuted in full: %T and the note on extra operands show the type *spew.formatState and %p the address of the formatter; widths and precisions given as operands by * are rejected as %!(BADWIDTH) and %!(BADPREC) because these operands are wrapped as well; Print puts spaces next to strings, where fmt.Print does not.)", "quantifier": "all formats, operands, texts of values", "why_tests_cant": "Formats are arbitrary strings; flags, widths, precisions and verbs combine without bound.", "anchors": ["test/go-spew/spew/format.go: constructOrigFormat, Format, newFormatter", "test/go-spew/spew/spew.go", "test/go-spew/spew/config.go"]}
{"id": "C124", "title": "go-spew's formatters in several goroutines", "statement": "Formatters that are used by several goroutines at the same time, for verbs other than v, hand fmt the formats of their own directives. (Refuted: the buffer of constructOrigFormat starts as the array of the package variable percentBytes; if that array has room behind the percent sign, as it has when the runtime allocates it, two calls that overlap write to the same bytes, and an operand is printed with the verb of another goroutine. Proved: calls that do not overlap give their own formats, whatever room there is and whatever earlier calls left in the array; if there is no room, so do all calls in every interleaving.)", "quantifier": "all capacities, directives, goroutines and interleavings", "why_tests_cant": "The interleaving must happen between two writes to a buffer of a few bytes; the race detector sees it only if a test runs it.", "anchors": ["test/go-spew/spew/format.go: constructOrigFormat", "test/go-spew/spew/common.go: percentBytes"]}
{"id": "C125", "title": "reflect2's IsNil tells whether a value is nil", "statement": "reflect2.IsNil of an object is true exactly if the object is nil or holds a nil pointer, map, channel, function, slice or interface. (Refuted: it looks at the data word of the interface only, so a nil slice is not nil, and a struct or array whose only member is a nil pointer is. Proved: it is right for every pointer, map, channel and function; IsNullable is true of exactly the kinds that can be nil; PtrOf gives the word itself for types stored directly in interfaces and the address of the value for all others; RTypeOf gives the type; NoEscape gives the same address.)", "quantifier": "all types, memories, variables", "why_tests_cant": "The answer depends on how the runtime lays out values of a type in an interface; types nest without bound.", "anchors": ["reflect2/reflect2.go: IsNil, IsNullable, PtrOf, RTypeOf, NoEscape", "reflect2/unsafe_eface.go: unpackEFace"]}
{"id": "C126", "title": "Witch's viewer shows the page that Start loaded", "statement": "Start loads the page from the files in the program (index.html with every placeholder replaced by the component files in order), and the home page shows it. (Refuted: isDebug is always true, so the home page never shows what was loaded; it reads the files of the source directory of the build machine at each request, and where that is missing it shows the text of the error. Proved: what Start loads, that it does nothing if a file is missing, that it installs the event writer and listens, also when called again; what the home page shows for every state of the disk; which of the three handlers serves a path.)", "quantifier": "all file contents, file systems, addresses, earlier states, paths", "why_tests_cant": "Tests run on the machine that has the source, where the page appears; contents of files are arbitrary.", "anchors": ["witch/witch.go: initViewerHtml, Start, loadDebugViewerHtml, homepage, isDebug, init"]}
{"id": "C127", "title": "NameByIndex lists exactly the files of its indexes", "statement": "NameByIndex.ListFiles lists exactly the files of the directory whose names are the pattern with an index in decimal; a directory that does not exist is empty, other errors are returned. (Refuted: Sscanf accepts any text behind the pattern, zeros, a plus and blanks before the index, so copies and backups are listed as well; and if the text after the index begins with a digit no file is ever listed. Proved: which names are listed exactly, in which order, with which index; every file of an index is among them if the pattern does not go on with a digit.)", "quantifier": "all patterns with one %d, directories, names", "why_tests_cant": "Names are arbitrary text.", "anchors": ["countlog/output/rotation/name_by_index.go: ListFiles"]}
{"id": "C128", "title": "Failed checks are reported at the line of their caller", "statement": "What a check of must or should reports through t is printed with the position of the frame that called the check, if that is not itself a helper; across subtests if all frames of one are helpers. (Partial: proved for all checks but Panic, whose deferred function is no helper, so that its report is at panic.go:22, refuted; and the report of a variable with two values in must.JsonEqual is at the line of bind in json.go, since Equal is called there.)", "quantifier": "all checks, ways through them, stacks, sets of helpers, nestings of subtests", "why_tests_cant": "The printed position of a failing test depends on the stack; a test that fails cannot easily check how.", "anchors": ["test/go_above_19.go: Helper, callerName", "test/must/*.go", "test/should/*.go"]}
{"id": "C129", "title": "testify: the methods of Assertions are the functions", "statement": "A call a.X(args...) of a method of a = New(t) is the call X(t, args...), for every method X and all arguments, with and without ... behind the last one; and every exported function of package assert that takes a TestingT first (but for New) is such a method with the same parameters, and there are no others.", "quantifier": "all methods, arguments, numbers of variadic arguments, t", "why_tests_cant": "Ninety delegates; the tests call some of them with some arguments.", "anchors": ["test/testify/assert/assertion_forward.go", "test/testify/assert/forward_assertions.go: New"]}
{"id": "C130", "title": "An event is handed to the output once", "statement": "A logging call that returns has handed its event to the output handler once (if it passes the level) and then to the statistics handler once. (Refuted: if the statistics panic after the event was written, the handlers made for the place unknown write it again. Proved: a call makes one round over the handlers if none of them panics, and never more than two, the second only after a panic of the first and only by the first handler of a name; no round only if making the handlers panicked.)", "quantifier": "all events, handlers, sinks, cache states, levels, other goroutines that leave the levels alone", "why_tests_cant": "It depends on handlers that panic at any point.", "anchors": ["countlog/root.go: newRootHandler, Handle, nomalModeOnPanic, redirector", "countlog/countlog.go: log"]}
{"id": "C131", "title": "Lists of handlers pass every event to all of them, and handlers know their site", "statement": "spi.EventHandlers, nested in any way, hands an event to every handler behind it once and in order, until one panics; the handlers made by an EventWriter or EventAggregator for a site return that site from LogSite; a writer that was not given writes to the standard output, an aggregator without a collector does nothing. (Refuted that every handler has a site: functions return nil and an empty list panics.)", "quantifier": "all nestings of handlers, events, sites, configurations", "why_tests_cant": "Handlers are arbitrary functions.", "anchors": ["countlog/spi/spi.go: EventHandlers, DummyEventHandler", "countlog/spi/func.go", "countlog/output/writer.go: NewEventWriter, HandlerOf", "countlog/stats/stats.go: NewEventAggregator, HandlerOf, createHandler"]}
{"id": "C132", "title": "Archives named by time are found again, in the order of time", "statement": "rotation.NameByTime: the name given to an archive is the pattern with the local time of the clock in it; ListFiles takes exactly the names of a described grammar for archives, gives each the time that its name tells, and lists them by that time; what NextFile named is found again with its time rounded down to the finest part of the pattern; names are in the order of time if the zone does not change and the pattern leaves nothing out before a finer part, and then retention by count never deletes a newer archive while it keeps an older one. (Refuted in general: a digit behind a dot behind the seconds, as in .7z, makes archives invisible; names with one digit for the hour or with a fraction of a second are taken for archives; without the year, retention deletes the newest archive at New Year; when clocks are put back, order is lost; names within one second collide.)", "quantifier": "all patterns of the modelled elements, times, zones, directories", "why_tests_cant": "Times, patterns and names are unbounded; leap years and New Year are rare.", "anchors": ["countlog/output/rotation/name_by_time.go: NextFile, ListFiles, Less"]}
{"id": "C133", "title": "Backups of the lumberjack logger are dated by their names", "statement": "lumberjack.Logger: the time read from the name of a backup, or of its compressed file, is the time that the clock showed when it was made, as far as BackupTimeFormat tells it; with the default format that is to the millisecond, and two backups have one name exactly if they are of one millisecond. In UTC (LocalTime false) MaxAge removes a backup exactly if it is that many days old (to the millisecond); no backup is removed while one is kept that is a millisecond older or more. If no two rotations are of the same millisecond as shown and no file has such a name yet, the backups and the log hold everything that was written, in order, but for what the mill removed or compressed. (Refuted in general: with LocalTime the age is wrong by the offset of the zone, so that a 15 hour old backup is removed under MaxAge 1; when the clock is put back, a backup replaces another one and a newer one is removed while an older one is kept; with a format without the time of day the backups of one day have one name; a file that no logger made is taken for a backup and removed.)", "quantifier": "all file names, formats of the modelled elements, zones, clock readings, directories and sequences of calls", "why_tests_cant": "Clock readings, zones and sequences of rotations are unbounded; the clock is put back once a year.", "anchors": ["countlog/output/lumberjack/lumberjack.go: backupName, timeFromName, millRunOnce, oldLogFiles, openNew"]}
{"id": "C134", "title": "reflect2 finds struct fields by Go's selector rule", "statement": "For a struct type (with any nesting of embedded structs and pointers to structs, also recursive), FieldByName of a name other than the blank one gives, in the unsafe and in the safe implementation, the field that Go's rule for selectors chooses: the only one with that name at the shallowest depth where there is one; Name, PkgPath, Tag, Anonymous and Type are those of that field, Index is the path to it, Offset is its offset in the innermost struct. If the rule chooses none, the unsafe implementation gives nil and the safe one panics with \"field NAME not found\". FieldByNameFunc follows the same rule for any set of names, and panics if it chooses none; Field gives the fields by position. Get and Set of an unsafe field panic, naming both types, unless they are given a pointer to the struct and to a variable of the type of the field. UnsafeGet and UnsafeSet of a field address obj + Offset, which for promoted fields is the field of obj only if the structs around it start where obj does (refuted otherwise). Fields of the safe implementation panic on Type, UnsafeGet and UnsafeSet (refuted).", "quantifier": "all tables of types, all struct types, all names and predicates on names", "why_tests_cant": "types nest and refer to each other in unboundedly many ways; ambiguity depends on all paths of embedded fields", "anchors": ["reflect2/unsafe_struct.go:37-59", "reflect2/safe_struct.go:7-13", "reflect2/unsafe_field.go:8-74", "reflect2/safe_field.go:8-58"]}
{"id": "C135", "title": "An async writer in front of a rolling log", "statement": "A log goes through an async writer into a rolling log file. Whatever the callers, the goroutine of the writer, the mill and calls of Rotate do, and wherever the process crashes and is started again: the logger gets, of each process, the first of the records that its Write accepted, in that order, with the bytes they had when Write was called; of each of them the files have as much as the logger's Write returned, and all of it when it returned no error. With new backup names and no failures the backups in their order and then the log are the log that was there and these records, each in one piece in one file. When Close has returned, every record accepted before it was called is in some file, the log is closed and this process writes nothing more to it.", "quantifier": "all interleavings of callers, writer goroutine, mill, rotations, crashes and restarts; all answers of the operating system; all queue lengths, file systems and records", "why_tests_cant": "interleavings, crash points and failures of the operating system are unboundedly many, and two packages work together", "anchors": ["countlog/output/async/async.go:73-125", "countlog/output/lumberjack/lumberjack.go:137-206"]}
{"id": "C136", "title": "An async writer in front of a rotating one", "statement": "A log goes through an async writer into a rotating writer. However the callers, the goroutine that writes and the goroutine that archives interleave, also within one Write: the rotating writer is called with the first of the records that the async writer accepted, in that order, with the bytes they had when Write was called; between two calls it has written of each of them what it returned, and all of it when it returned no error. With new archive names and no failures the archives in their order and then the current file contain the file that was there and these records, each in one piece in one file. While the goroutine is in its loop it can write everything accepted without help. When Close has returned, every record accepted before it was called is in some file if nothing was removed; both are closed, and no file changes any more. A process that ends anywhere leaves files with which the next one can start.", "quantifier": "all interleavings of callers, writer goroutine and archiving goroutine; all answers of the operating system; all queue lengths, file systems, records, triggers and retention settings", "why_tests_cant": "the archiving goroutine can act between any two steps of any Write, and errors and the end of the process can come anywhere: unboundedly many schedules over two packages", "anchors": ["countlog/output/async/async.go:73-125", "countlog/output/rotation/rotation.go:116-179"]}
{"id": "C137", "title": "msgfmt in several goroutines", "statement": "Calls of Sprintf and Fprintf (Printf, Println, Fprintln) are made in several goroutines. However their accesses to the cache of formatters and to the pool of buffers interleave: what a writer reads during Write, and what Sprintf returns, is what Sprintf returns in a process in which at most one other call, with the same format, was made before; a call panics only if that one does. So if calls with the same format have their keys at the same places and values of the same types, each does what it does alone. A writer that reads twice during Write reads the same bytes. No call waits for another: a call ends with at most six steps of its own. Once a call has formatted its text, calls that begin later do not compile the format again.", "quantifier": "all interleavings of any number of calls, all formats and values, all behaviours of sync.Pool, all capacities of new buffers", "why_tests_cant": "a race needs a particular interleaving of the cache and pool accesses of several calls; the schedules are unboundedly many", "anchors": ["msgfmt/msgfmt.go:13-24", "msgfmt/msgfmt.go:61-80"]}
{"id": "C138", "title": "Logging in several goroutines", "statement": "Logging functions are called in several goroutines, which share the cache of handlers and the levels. However their accesses interleave: a call that returns has gone once over the handlers that were made for its event name, or by itself, or, after a panic of the handlers of that name, for its place; a second time only after a panic in the first round and only over handlers it made itself for the place unknown; a panic of those is reported to loglog. If no handler panics, the event is given to the output once and to the statistics at most once; in any case not more than twice. A panic reaches the caller only if making handlers panics. A call waits for no other and has at most thirteen steps. After a call with a name has returned, later calls with it make no handlers unless one panicked. After a panic of the handlers of a name, later calls with it are given to handlers made for their place. (Refuted: a call that found no handlers before the panic stores its own afterwards, which undoes the redirection; and handlers are kept by place only, so an event is given to those made for another event logged at the same line. Proved for the redirection: if no call with the name is between its look into the cache and its Store, all later calls are handled by place.)", "quantifier": "all interleavings of any number of calls with any names, places and levels, all answers and panics of handlers and of HandlerOf, all changes of the level at any time", "why_tests_cant": "the windows between Load and Store of several calls and the recovery of a panic have to interleave in a particular way; the schedules and the behaviours of handlers are unboundedly many", "anchors": ["countlog/countlog.go:144-166", "countlog/countlog.go:198-220", "countlog/root.go:13-118"]}
{"id": "C139", "title": "Encoders made in several goroutines", "statement": "Goroutines ask jsonfmt for encoders (EncoderOf, EncoderOfObject, MarshalToString, keys in interfaces) and share the cache of encoders and that of encoders of map keys. However their accesses interleave and whatever was encoded before: the encoder returned for a type is the one that would be made for it without the caches, except for the texts, in encoders of map keys, that tell that a type can not be encoded; it is exactly that one if the type has no map key with a type that can not be encoded, so that what MarshalToString writes, for values with values of any types in interfaces too, does not depend on other calls. A call for a type whose encoder can be made returns after finitely many steps of its own, whatever the others do. Once a call for a type has returned, every later one finds an encoder at once and changes no cache. (Refuted in full: what is written for a map[chan int]int depends on whether a struct with a field of this type was encoded before, and two calls at the same time can get encoders that write different texts.)", "quantifier": "all graphs of types, all interleavings of any number of calls for any types, all prefixes", "why_tests_cant": "the types, the sequences of calls and the interleavings of their accesses to the caches are unboundedly many; a difference shows only for particular orders", "anchors": ["msgfmt/jsonfmt/encoder.go:43-101", "msgfmt/jsonfmt/encoder.go:103-206", "msgfmt/jsonfmt/encoder.go:216-240", "msgfmt/jsonfmt/encoder_map.go:54-63"]}
{"id": "C140", "title": "Extensions of jsonfmt and fields that are not exported", "statement": "With a Config of one's own: the encoder of a type, and of every type that is a part of it, is the one that the first extension with an answer gives, before anything else is asked; encoders of extensions are used only so. With extensions that never give an encoder the encoders are those of ConfigDefault, and so is every encoder of which no part comes from an extension. The fields of a struct are those with a name (from the tag or their own), without functions, channels and those tagged -, and without those not exported unless IncludesUnexported, in order with commas between them. An encoder can be made if going from types to their parts always comes to a type for which an extension gives an encoder or to one without parts, so recursive types can be encoded with a suitable extension; for extensions that do not look at the prefix only then. (Refuted: the prefix does not tell an extension the way to a part, in a struct the way to the struct is lost; and the encoder that an extension gives for an interface type is not used for map keys of this type.)", "quantifier": "all graphs of types, all lists of extensions that answer the same whenever asked the same, all prefixes", "why_tests_cant": "the types and the extensions are unboundedly many, and whether the recursion ends is not seen by running it", "anchors": ["msgfmt/jsonfmt/encoder.go:23-54", "msgfmt/jsonfmt/encoder.go:103-206", "msgfmt/jsonfmt/encoder.go:216-263"]}
{"id": "C141", "title": "LogInfo and LogPanic of concurrent that panic or call the executor again", "statement": "For an UnboundedExecutor whose LogInfo and LogPanic hooks may return, panic, or call Go and StopAndWait of the same executor: at any moment exactly the goroutine between a Lock and its Unlock has the mutex; the map counts for each place exactly the goroutines started there that have not ended, also after panics of handlers and of LogInfo; the check of StopAndWait answers true only when no goroutine of the executor is left and calls LogInfo only when there is one; unless LogInfo itself calls the executor, the mutex is free again after at most two steps of its holder, and a panic of LogInfo frees it or ends the program; Go starts one goroutine that runs the handler; a handler that panics is followed by LogPanic and then counted as ended; as long as no LogInfo has called the executor, all goroutines can still come to an end from any state, and a StopAndWait that waits for the mutex then answers true; the program ends only by a panic of a hook under LogPanic. That the mutex can always become free again is refuted: once LogInfo has called Go or StopAndWait of the executor it was called from, no call of Go starts anything, no goroutine is counted as ended and no StopAndWait comes to an end, for ever.", "quantifier": "all interleavings of any number of goroutines of the user and of the executor, any nesting of calls in handlers and hooks, any outcomes of handlers and hooks", "why_tests_cant": "The hooks are user supplied and called under the mutex; which goroutine is where when they panic or call back is a matter of schedule, and a deadlock is a statement about all continuations.", "anchors": ["concurrent/unbounded_executor.go:22-99"]}
