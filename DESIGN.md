# Formal model of v2pro/plz in Rocq

The source under study is `/repo` (Go). It is read as text only; nothing is built or run.
Properties are listed in `properties.jsonl`; the status of each is in `MANIFEST.json`.

## Layout of `rocq/theories`

For each area there are up to four files:

* `<Area>Model.v` – executable Gallina transcription of the Go functions, one definition per
  function, each with a comment citing file and lines and saying what is simplified. No proofs.
* `<Area>Spec.v` – an independent specification (decimal numerals, JSON grammar, map semantics,
  byte streams, ...), which never calls the model.
* `<Area>Proofs.v` – lemmas.
* `<Area>Props.v` – only the property theorems, each closed by a lemma, followed by
  `Print Assumptions` and by `Example`s showing a concrete case that meets the hypotheses.

Conventions:

* bytes, runes and machine integers are `Z`; the ranges and every wrap-around (`mod 2^64`) are
  written out. `nat` is used for lengths, indices, fuel.
* Go panics, non-termination (out of fuel) and errors are explicit result values. Theorems say
  explicitly which result occurs; "diverges" means out of fuel for *every* fuel.
* goroutines are state machines: a step relation (or step function over an explicit event list)
  with one step per atomic action (critical section, channel operation, atomic add); theorems
  quantify over every event list, i.e. every schedule.
* code from outside the repository (the Go runtime, `time`, file system, user callbacks) is an
  explicit parameter of the definitions or a small state machine, never an axiom.
* a property that the code violates gets a theorem `..._refuted` with a concrete witness, and the
  strongest true part gets a theorem with suffix `_partial` (or an exact "iff" characterisation).

## Trusted base

* Coq 8.16.1's kernel (and `vm_compute`, part of it).
* What `Print Assumptions` reports for each theorem (see the section at the end of this file).
* The transcription of the Go code into the `*Model.v` files, as cited there.

## Plan per property

| Id | Modelled | How it is proved |
|----|----------|------------------|
| C01–C03 | `encoder_int.go` writers over `Z`, table `digits` computed by the code's formula, uint32/uint64 wrap-around | against an independent decimal numeral specification (`decimal_of`), by division lemmas per digit group; refutation by witness for u32/u64, plus iff |
| C04, C05 | `WriteString`, `WriteBytes` byte loops with their `start`/`i` indices | against a JSON string decoder written from RFC 8259; induction over the byte list |
| C06 | `WriteFloat64Lossy` with IEEE multiplication/addition from Flocq | text/value part over integers; rounding error with Flocq's error bounds |
| C07 | type-directed encoder over an inductive of types/values | against a JSON parser; induction on the value |
| C08 | encoder construction over a type graph with fuel | divergence for every fuel on a cyclic graph, termination for ranked graphs |
| C09–C12 | `Source` with reader as list of read results | refinement to "remaining bytes + error", for every chunking |
| C13–C16 | the readers and skippers over that Source | functional specification on the remaining bytes |
| C17 | `Parse` loop and the example lexer | against a stratified grammar with evaluation |
| C18 | `ReportError` | invariant over operation lists |
| C19–C21, C49, C50 | msgfmt parser, compile, Formatters, cache, []byte display, pooled Fprintf | template algebra, witnesses for panics and divergence, history invariant, exact loss condition |
| C22 | `MergeErrors`, `CloseAll` | induction over the list |
| C23, C24 | gls as heap of maps plus shards | refinement to a per-goroutine store, any interleaving |
| C25 | executor state machine | inductive invariant over all steps |
| C26 | lock based map with split critical sections | linearizability by lock invariant |
| C27–C29, C51 | queue writers, buffer pool with buffer identities | invariants over all steps; witnesses for the refuted parts |
| C30–C33 | countlog entry points, handler cache, root handlers | case analysis over levels, invariants over histories |
| C34, C35 | sharded windows, monoids, timer; the number of a point as a float64 (`StatsFloatProps.v`) | conservation invariant; at-most-once invariant; Flocq for the rounding |
| C36–C38 | rotation writer over a file system map | invariants over histories |
| C39–C42 | lumberjack over a file system map and a clock | invariants over histories; list lemmas for the clean-up |
| C43 | slice headers over a heap of arrays | refinement to lists |
| C44–C47 | difflib matcher, opcodes, groups, printer | induction over windows; `apply` semantics of opcodes |
| C48 | json log format | every output starts outside the grammar |
| C52 | witch's event queue and more-events response (`Witch*.v`) | queue invariant over schedules; output parsed by the JSON grammar |
| C53, C54 | statistics shards, exported points (`Stats*.v`) | lock invariant; case analysis of the counters |
| C55–C60 | call sites, suppressed levels, the human readable and compact formats, default configuration, layouts (`Countlog*.v`, `Output*.v`) | output text against a grammar of records, for every program |
| C61–C64 | difflib: write errors, context diffs, `SplitLines`, `Ratio`/`QuickRatio`/`RealQuickRatio` (`Diff*.v`) | as C44–C47; multisets; Flocq for the quotients |
| C65 | rotation triggers of `rotation` and lumberjack (`Rotation*.v`, `Lumber*.v`) | invariants over histories |
| C66 | safe against unsafe slices of reflect2 (`Slice*.v`) | simulation between both heaps |
| C67–C69 | the report of a failed check, `should.JsonEqual`, `must.JsonEqual` | bracket counting; equality of documents up to variables, for every map order |
| C70–C72 | jsonfmt's encoders and reflect2's `Indirect`, `LikePtr` over memory made of typed cells (`MemModel.v`) | `held` relates memory to the values of C07; mutual induction over it |
| C73–C76 | reflect2's Set, New, Indirect, struct fields, IsNil, arrays, unsafe and safe, over the same memory (`Refl*.v`) | memory regions and layouts; package reflect modelled as far as the methods use it |
| C77–C79 | reflect2's maps, unsafe and safe, over slots the runtime may move, with key types whose values cannot all be hashed (`RMap*.v`) | abstraction to association lists with a partial equality of keys; histories |
| C80–C84 | test.Case, CurrentT, the checks of `must` and `should`, Panic, Call, Set, over a small language of tests with goroutines (`Check*.v`) | big-step relation of tests without goroutine local storage; package reflect's Call over assignability as a parameter |
| C85–C95 | the assertions of `test/testify/assert/assertions.go`: what passes, what is reported and the text of a report (`Testify*.v`) | lines of a text, DeepEqual as a relation, permutations, real numbers rounded to float64 (Flocq); reflect's Convert, zero values, == and pointers as parameters |
| C96–C102 | the rest of `test/testify/assert`: Nil, IsType, Implements, Regexp, JSONEq, FailNow, FileExists, DirExists, CallerInfo, `http_assertions.go` over a model of httptest.ResponseRecorder, and every function of `assertion_format.go` (`TestifyMore*.v`) | nil values, file systems with links, the status and body of a response, the query of a URL, call stacks; regexp, fmt.Sprint, json.Unmarshal, http.NewRequest, reflect's Implements as parameters |
| C103–C109 | `test/go-spew/spew`: Dump (`dump.go`), its helpers in `common.go` and `config.go`, the formatter in `format.go` (`Spew*.v`) | trees that values unfold to and their texts, reachability and well-foundedness of pointers and nesting, histories of followed addresses, hexadecimal numerals, permutations of map entries; strconv, hex.Dump, sort.Sort, ==, methods as parameters |
| C110 | `diff` and the message of `Equal` in `test/testify/assert/assertions.go` (`EqDiff*.v`), on top of `Spew*.v` and `Diff*.v` | composition of the two areas; witnesses for loops, methods, percent signs |
| C111 | `bypass.go` of go-spew and its use in `common.go` (`Bypass*.v`) | layouts of reflect.Value as a specification; bit lemmas; all combinations |
| C81, C86, C111 | the kind numbers of package reflect that the models of these areas use, against the list of names in reflect's order (`Kind*.v`) | computation |
| C112, C113 | the cache of `TypeOf` and `Type2`, `type_map.go`, `reflect2_kind.go`, the init of `gls/goid.go` (`RType*.v`) | goroutines as steps of load and store; invariant over all interleavings; fold lemmas |
| C114 | method sets of reflect2's implementations and the assertions on them (`RMeth*.v`) | the declarations as data, Go's embedding rule as a specification; case analysis by kind |
| C115–C117 | package `dump` (`Dump*.v`), as written (it does not compile at this commit: dumpvar.go and map.go use reflect2 without importing it and give reflect.Type for reflect2.Type; the conversion is taken to be made) | memory as a function from addresses to bytes; JSON values of texts; addresses shown and entries as an invariant of every encoder; chains of overflow buckets; well-founded type graphs |
| C118 | the mill goroutine of lumberjack (`Mill*.v`): Once, the channel of capacity 1, and its removals and compressions interleaved with the steps of Write and Rotate (`LumberModel`); one openNew, one ReadDir, one removal, one compression are atomic; a race is two accesses of BackupTimeFormat that are both next, one of them a write | invariants over interleavings; a measure for termination |
| C122 | the same model (`DumpShow*.v`) | a relation `shown` between memory, JSON and entries, defined type by type without the encoders; every encoder is sound for it; the document as the latest entry of each address; totality for readable memory without maps |
| C123–C124 | the printing functions of go-spew (`spew.go`, `config.go`) and the formatter for verbs other than v (`SpewPrint*.v`). Package fmt is modelled as far as a format goes (flags, widths, precisions, `*`, verbs, missing and extra operands; not argument indexes); the text for one operand is a parameter. bytes.Buffer: it uses the array it is given while there is room; a call of it is one step | fmt's parser gives back the directive a format was rebuilt from; one lemma about equal loops; calls of goroutines in any interleaving |
| C125 | reflect2's IsNil, IsNullable, PtrOf, RTypeOf and NoEscape (`reflect2.go:223-282`, `RNil*.v`) on the memory model of `MemModel.v`; what an interface of a variable holds is the relation `in_interface` of `MemSpec.v` | case analysis of the layouts; nil slices and structs of one pointer as witnesses |
| C126 | witch's viewer (`witch/witch.go`, `Viewer*.v`): initViewerHtml, Start, loadDebugViewerHtml, homepage, the routes. File systems are functions from names to contents or errors; bytes.Replace and the choice of http.ServeMux among the three patterns are modelled (clean paths only), the HTTP server, path.Join and the logging are not | induction on the text for Replace, on the file list for the loops |
| C127 | NameByIndex.ListFiles (`countlog/output/rotation/name_by_index.go`, `NameIndex*.v`). fmt.Sscanf is modelled for formats of literals and one `%d` (no widths, no white space in the format; ASCII names; 64-bit int); what the directory holds is an input | fmt's scanner against a grammar of accepted names, both directions |
| C128 | test.Helper and callerName (`test/go_above_19.go`), and which position package testing (of Go 1.14) prints for the reports of the checks in `test/must` and `test/should` (`Helper*.v`). Each check is transcribed as its ways through the code: calls of Helper and of the methods of t, with lines. A subtest holds the stack of its Run. Not modelled: the assert of github.com/stretchr/testify that equal.go uses, inlining of frames, test/go_below_19.go | an inductive definition of the frame to blame |
| C129 | The 90 methods of testify's Assertions (`test/testify/assert/assertion_forward.go`, `forward_assertions.go`, `Forward*.v`): tables of the exported functions and of the methods, transcribed row by row, and Go's rules for passing arguments to variadic functions. What the functions do is C85-C102. Not modelled: Go's type checking of arguments | the call of the function itself |
| C130 | The calls of Handle that one logging call makes (`countlog/root.go`, `countlog/countlog.go`; `Once*.v` over `CountlogModel.v`). The environment of the model is wrapped in one that records the calls | an inductive definition of one round over the handlers |
| C131 | The handlers and sinks of `countlog/spi` that pass events on (EventHandlers, FuncEventHandler, FuncEventSink, DummyEventHandler), LogSite of all handlers, NewEventWriter, NewEventAggregator and their HandlerOf (`Handlers*.v`). What counting, writing and root handlers do with an event is a parameter here (C34, C48, C57, C58, C130) | the flattened list of handlers |
| C132 | NameByTime of `countlog/output/rotation` with Format and Parse of package time (Go 1.14) for the elements 2006, 01, 02, 15, 04, 05 and .000; the other elements are recognised only, layouts with blanks are not modelled (`TimeName*.v`). The zone of the clock is a function of the time | a calendar counted day by day, a grammar of names |
| C133 | The times in the names of lumberjack's backups (`countlog/output/lumberjack/lumberjack.go`: backupName, timeFromName, LocalTime, BackupTimeFormat; `BackupTime*.v` over `LumberModel.v` and the Format and Parse of `TimeNameModel.v`). The zone is a function of the time; the clock readings come with the calls | the clock: milliseconds, days |
| C134 | FieldByName, FieldByNameFunc, Field of reflect2's struct types and the accessors of their fields (`RField*.v`), on a transcription of package reflect's search (Go 1.14). Types are a table by number; names from different packages are the same name, as in reflect | the search visits every struct at its least depth once, with its number of paths cut at 2: invariant over the levels, against the paths of embedded fields |
| C135 | An async writer whose Writer is a lumberjack Logger (`Pipe*.v`): the product of AsyncModel and LumberModel in which the goroutine's Write is one step of both, Close of the writer closes the logger, and a crash replaces the process by a new one on the same files. Writes of the logger are one step because they hold its mutex; buffered data of the operating system is not lost in a crash of the process | projections of a run to runs of both models; the theorems of C27, C40 and C51 apply to these; the drain by induction on the queue |
| C136 | An async writer whose Writer is a rotation.Writer (`RPipe*.v`): the product of AsyncModel and RotationModel. Here Write is not one step: the call, each of its steps and its return are steps of the product, and those of the callers and of the goroutine that archives come between. Only the goroutine of the async writer calls Write, and Close comes when it is gone (so no two Writes at once, as rotation.go:22 asks for). A crash is the end of a run; the next process starts from the files that are left | projections of a run to runs of both models; the record in flight is the buffer the goroutine holds (`flows`); the theorems of C36 and C51 apply to the projections; the drain by induction on the queue |
| C137 | msgfmt in several goroutines (`MsgConc*.v`): calls of Sprintf and Fprintf that share formatterCache and bufPool; getting a buffer, Load, compile, Store, Format, the reads of the writer during Write and Put are steps of their own. compile and Format are single steps, as they write only to the call's own buffer; values do not change while a call runs; calls made by String methods are other calls. Buffers as in PoolModel, compile and Format as in MsgfmtModel | invariant: buffers have one owner, each formatter in the cache or in a call was compiled for some call with that format; then C21 |
| C138 | Logging in several goroutines (`LogConc*.v`): calls of log that share handlerCache and the levels; Load, newRootHandler, Store, the reading of MinCallLevel, each call of a handler and the recovery of a panic are steps of their own; the handlers and HandlerOf answer as they like. The test of the level before log (C30) and the formatting of an error after Handle (C31, C137) are not steps here; a handler that blocks makes no further step; handlers that log make other calls; loglog.Error and PrintStack are one step that does not fail. | invariant: what was seen of each call fits where it is, every cached handler was made by someone, a redirector only after a panic; a rank that falls with every step of a call |
| C139 | Encoders made in several goroutines (`JsonConc*.v`): EncoderOf, EncoderOfObject and the encoder of a key in an interface as programs whose steps are the Loads and Stores of encoderCache and mapKeyEncoderCache; concurrent.Map's Load and Store are atomic (sync.Map). No extensions, no onePtrInterfaceEncoder, as in `JsonCompModel.v`. A recursion deeper than the fuel never returns, so types whose encoders can not be made (recursive ones) are among the calls. | invariant: every cached encoder and whatever a call can still return or store is the one made without caches up to the texts in encoders of keys, by induction over the recursion of encoderOf |
| C140 | jsonfmt with a Config of one's own (`JsonExt*.v`): encoderOf with extensions and IncludesUnexported. An extension is a function of the prefix and the type; extensions that call EncoderOf themselves or keep state are not modelled; the caches are left out (C139); what the encoders of extensions write is theirs. | induction over the recursion of encoderOf; the first answer in a list; well-founded recursion to parts |
| C141 | UnboundedExecutor with hooks that panic or call it again (`ExecHook*.v`): Go, the goroutine it starts and checkGoroutines with the mutex, each goroutine a stack of calls. The context, the loop and the sleep of StopAndWait are left out (C25); handlers and hooks are events; a panic of LogInfo in a goroutine of the user is taken to be recovered there; runtime.Goexit in a handler or hook is not modelled. | invariant: lock and stacks, counts and stacks |
| C119–C121 | the memory of stats (`StatsMem*.v`): strings as parts of blocks, keys as pointers to arrays, points as slices of one array, counters behind pointers; the program may write to all memory that copyDimension did not allocate; a string of an event lies in memory that exists; one Handle, one round of exportShard, one Add is atomic (the locks are C34's and C53's); that the stack can move while window.go:209 holds its address in a uintptr is left out, and so are nil entries and Monoids other than CounterMonoid | invariants over event lists; a relation between memory and values |

## Not modelled

Assembly (`getg`), the HTTP UI of `witch` beyond its event queue and its generated assets, `countlog/output/output_file.go` (all of it is commented out), `mdis` (empty functions), Go's memory model below
critical-section granularity, actual file system durability, the scheduler.

## What `Print Assumptions` reports

For every theorem named in MANIFEST.json, `Print Assumptions` says "Closed under the global context", except for
those below.  They are about IEEE-754 numbers and go through Flocq, which is stated over the real numbers of the standard
library; for them it lists exactly these four axioms of the standard library:
`ClassicalDedekindReals.sig_forall_dec`, `ClassicalDedekindReals.sig_not_dec`, `Classical_Prop.classic`,
`FunctionalExtensionality.functional_extensionality_dep`.

- C06: `C06_float64`, `C06_float32`
- C07: `C07_valid_json`, `C07_unsupported_field_refuted`, `C07_struct_key_refuted`
- C34: `C34_float64` (`StatsFloatProps.v`: the number of a point is the float64 nearest to the count)
- C64: `C64_bounds`, `C64_value`, `C64_one`, `C64_zero`
- C70: `C70_reads_partial`, `C70_json_partial`, `C70_full_refuted`, `C70_stringer_key_refuted`, `C70_unsafe_error_refuted`
- C71: `C71_partial`, `C71_cyclic_refuted`, `C71_full_refuted`
- C91: `C91_rounded`, `C91_bounds_partial`, `C91_integers`, `C91_not_numbers`, `C91_infinities`, `C91_nan_delta_refuted`,
  `C91_large_refuted`, `C91_full_refuted`, `C91_slice_partial`, `C91_not_slices`, `C91_prefix_refuted`,
  `C91_slice_full_refuted`, `C91_maps`, `C91_map_keys`, `C91_map_nan_refuted`, `C91_map_full_refuted`
- C92: `C92_rounded_partial`, `C92_zero`, `C92_nan_refuted`, `C92_full_refuted`, `C92_overflow_refuted`, `C92_slice_partial`,
  `C92_not_slices`, `C92_swapped_refuted`, `C92_slice_full_refuted`
- C98: `C98_format_rest`
- C139: `C139_exact_partial`, `C139_marshal_partial`, `C139_history_refuted`, `C139_race_refuted`

Each `*Props.v` prints them again when it is built.
