# Formal model of effective-security/xdb in Rocq (Coq 8.16.1)

## Method

* The model is a set of total, computable Gallina functions over the standard
  library only (`list`, `nat`, `Z`, `ascii`, `option`, records).  Go strings and
  byte slices are `list ascii`; Go integers are `Z` with explicit wrap-around
  where a conversion wraps; `nil`, errors and panics are explicit values.
* Each area has: `XxxModel.v` (definitions that transcribe the Go code, each with
  a comment citing file and lines), `XxxSpec.v` (the small independent
  specification), `XxxProofs.v` (lemmas) and `XxxProps.v` (the property
  theorems, followed by `Print Assumptions`, and `Example`s showing that the
  hypotheses are met by non-trivial cases).
* A theorem is named after its property: `C17_subquery...` belongs to C17.
* A property that the code violates is kept at full strength in
  `properties.jsonl`; its file proves `..._refuted` (the negation of the property,
  or a computed witness, or a whole family of violations) and guarded
  `..._partial` theorems that say what does hold.  These are the findings of this
  work; MANIFEST.json calls such a property `partial` and its note says what is
  false and what is proved.
* Nondeterminism (clock readings, map iteration order, goroutine schedules,
  database answers, failure points, which pooled object is reused) is an argument
  of the model over which the theorems quantify.
* No property is left out: none was found that cannot be expressed.

## Trusted base

* Coq's kernel (8.16.1, no flags changed; `vm_compute` is used for closed
  computations in examples and refutations, so its bytecode machine is trusted as
  part of the kernel; `native_compute` is not used).
* `Print Assumptions` is run on every property theorem at the end of each
  `*Props.v`; every one answers `Closed under the global context`: no axioms,
  neither ours nor the standard library's.  (The ssrunder names that a scan of
  loaded libraries reports are module parameters of `Coq.ssr.ssrunder`, loaded by
  the standard library's plugins; no theorem depends on them.)
* The hand transcription from Go to Gallina.  It is supported by
  (a) citations of file and lines on every definition, (b) the conformance examples in
  `*Conformance.v`, which replay expectations of the repository's own unit tests on the model,
  and (c) the mutation log `seeded/LOG.jsonl`: model edits that imitate
  bugs, and the theorems that fail for them.
* The behaviour assumed of packages outside the repository, listed per area below.

## What is modelled, and what is not

| Area (files in `rocq/theories`) | Go code | Modelled | Abstracted or left out |
|---|---|---|---|
| Statements: `XsqlModel`, `XsqlSub`, `XsqlExec`, `XsqlCache`, `XsqlWorld`, `XsqlHandles`, `XsqlSlices` | xsql/stmt.go, dialect.go, cache.go, pool.go, executor.go | the buffer, chunk list and argument tail of `addChunk` with its offsets (slice expressions out of range are panics), every clause method, Paginate, Row, sub-queries, Union, With, Clone, Close and the pool, dialect cache, `writePg`, `GetOrCreateQuery`, Query/Exec/QueryRow and AndClose variants with a panicking handler, SetDialect; `XsqlSlices`: backing arrays, append, copy, recycling | reflection of Bind is modelled on a list of tagged fields; sync.Map is a finite map; contexts; sync.Pool may return any object put back, or a new one |
| Flake: `FlakeModel` | pkg/flake/flake.go | settings, NextID as a state machine over arbitrary clock readings, bit packing, Decompose, machine IDs, mutex, sleeping | time.Sleep returns after any reading; net interfaces are a list of addresses |
| IDs: `IdModel` | id.go | ID as a pointer into a heap of cells (sharing, lazy texts), parsing and printing digit by digit, JSON, YAML, Scan/Value, IDArray with backing arrays and capacities, pq array format | goyaml's scalar quoting; growth policy of append is arbitrary |
| Values: `TypeModel`, `FloatModel`, `JsonModel`, `MiscModel` | types.go, merge.go | JSON and SQL codecs of all value types, UUID byte order, Metadata/KVSet/Strings on encoding/json transcribed for those types (UTF-8, escapes, numbers, maps, slices reuse), map aliasing, error chains, copier merge | %v printing of arbitrary values (`show` argument); float parsing and printing by their specification (`FloatModel`: the syntax of ParseFloat, correct rounding to binary64, %f; strconv's own algorithms are not transcribed) |
| Time: `TimeModel`, `TimeZone` | time.go | instants, Gregorian calendar, Format/Parse of the layouts used, truncation, Unix milliseconds, zones as offsets | monotonic clock, zone names, years beyond int64 seconds |
| Parameters and queries: `ParamModel` | params.go, query.go | builder, names, paging, cursors, list queries over a database of rows and errors, base64 | murmur3 is an arbitrary function |
| Schema: `SchemaModel`, `SchemaTrace` | schema/provider.go, schema.go, postgres.go, sqlserver.go | listings, filters, dependency discovery, indexes, keys over an arbitrary catalog with failures at any row; the same with open result sets | SQL text of catalog queries except where names are pasted in (their meaning: next row) |
| Catalog queries: `CatalogModel` | schema/postgres.go, sqlserver.go | the SELECT statements as loops over information_schema, pg_* and sys.* views computed from a database of tables, indexes, keys, foreign keys; rows (and array_agg) in any order | privileges, dropped columns, collations, comments on other objects; ORDER BY |
| Generator: `GenModel` | internal/cli/schema/schema.go, types.go, template.go | column types, files as lists of declarations, ScanRow and column order, failures, definitions kept between runs | go/format, strcase, pluralize (arguments); Go syntax of the output |
| Provider, connections, migrations, notifier: `ProvModel` | db.go, prov.go, migrate, pkg/notifier, internal/cli/cli.go | life cycle of transactions and providers, keep-alive, migrate decisions, listener goroutines | database/sql reduced to its transaction rules; golang-migrate as outcomes |
| Connection strings: `UrlModel` | db.go (Open, Source, ParseConnectionString) and net/url of Go 1.26 | url.Parse (scheme, authority, host and port, userinfo, path, fragment), unescaping by mode, ParseQuery with its limit, Open's suffixes | bracketed hosts and configloader.ResolveValue are parameters; strings.TrimSpace on ASCII; the drivers' own parsing is not modelled |
| Command line: `CliModel`, `AppModel` | internal/cli/cli.go, internal/cli/schema, pkg/print, cmd/xdbcli | the print commands in every format over any listing and any writer; the connection kept by Cli; the main function | tablewriter layout and YAML encoder are arguments; kong |
| Grammars (specification only): `JsonGrammar`, `TimeGrammar`, `FloatGrammar` | RFC 8259; time.Parse layouts of time.go:77-96; Go floating-point literals as strconv.ParseFloat takes them | which texts are JSON documents, time texts and floats, and what they stand for, without a parser; the parsers of JsonModel, TimeModel and FloatModel are proved equal to them | leap seconds (Go refuses them too) |
| JSON of generated rows: `RecordModel` | internal/cli/schema/template.go:93-110, types.go:17-137, schema/schema.go:180-205 and encoding/json | struct encoding with omitempty, decoding member by member with texts, case folding, slices reusing their arrays, errors that stop and errors that are saved | text of float64/float32, base64, case folding, exported names are arguments; arrays of numbers into []byte; column names with quotes (which break the tag) |
| Concurrency: `ConcModel` | cache.go, schema.go, id.go | interleavings of sync.Map operations; torn reads of two-word strings | other racy accesses |
| Concurrent listings: `SchemaConc` | schema/provider.go | ListTables, ListViews, ListForeignKeys as programs of single accesses to the provider's maps, any number of goroutines, any schedule; Go's map write flag | testing and setting the flag is one step; withDependencies; the catalog does not change meanwhile |
| Name and cache together: `NameCacheProps`, `NameConcProps` | params.go, xsql/cache.go | any history, and any schedule of goroutines, of GetOrCreateQuery(params.Name(), create) on one dialect | one builder per request |

Not modelled at all: logging, metrics, context cancellation inside drivers, the
SQL drivers themselves, mocks/, internal/cli/clisuite, generated example code in
`testdata` and kong's flag parsing.

## Properties

For each property: the file(s) with its theorems, the method, and for partial ones what is false of the code or missing.

* **C01 Statement text is canonical: clauses in SQL order, expressions in call order** (proved; XsqlProps.v).  Representation invariant between buffer/chunks and the list of writes per rank; induction over the builder program.
* **C02 Args() lists the arguments in the order of their placeholders in the text** (proved; XsqlProps.v).  Same invariant, arguments part.
* **C03 Argument values never influence the SQL text** (proved; XsqlProps.v).  Simulation between runs that differ in argument values.
* **C04 Postgres placeholders are numbered $1..$n left to right and match Args()** (proved; XsqlProps.v).  WritePg loop shown equal to a left-to-right scanner, then induction.
* **C05 A literal '?' in an argument-less expression survives the postgres dialect** (partial; XsqlProps.v).  Exact text of every statement: invariant relating the chunks to the runs of the call history (XsqlRuns), preserved by every builder call, then induction on the rendering loop; computed witness of the violation.  False of the code: addChunk merges adjacent expressions of one clause into one chunk and writePg then rewrites every '?' of the chunk as soon as one of them has arguments (witness in C05_literal_qmark_refuted). Proved: the exact postgres text of every statement (C05_exact: run by run, a run is numbered iff it carries an argument; C05_runs: the runs make up the clause), so expressions written apart from other expressions of their clause (C05_apart) and clauses without arguments (C05_literal_qmark_partial) are copied verbatim.
* **C06 Limit/Offset: the last call wins and emits one clause** (proved; XsqlProps.v).  Case analysis of the Limit/Offset writes in the invariant.
* **C07 Paginate emits LIMIT max(1,size) and OFFSET (page-1)*size** (proved; XsqlProps.v).  Arithmetic on the modelled call.
* **C08 Paginate replaces the page selected earlier** (partial; XsqlProps.v).  Witness; case analysis.  False of the code: Paginate(3,10) then Paginate(1,10) keeps OFFSET 20 (refuted). Proved part: every pair except p1 > 1 followed by p2 <= 1. The exact result for every pair is C08_exact_partial.
* **C09 Bulk INSERT: rows x columns come out rectangular and in order** (proved; XsqlProps.v).  Induction over rows with an invariant on the values chunk.
* **C10 String() is stable and the dialect cache is transparent for collision-free statements** (proved; XsqlProps.v).  String is a function of the invariant; cache as a finite map of key to text.
* **C11 The dialect cache never changes what a statement renders to** (partial; XsqlProps.v).  Two witnesses; conditional theorem.  False of the code: the cache key is the raw buffer, which does not record clause boundaries nor which '?' are bound (two witnesses). The conditional version is C10. Exactly (C11_exact_partial): the text shown is that of the first statement rendered with the same cache key.
* **C12 A statement extended after String() renders the extension** (partial; XsqlProps.v).  Witness; guarded theorem over extension calls.  False of the code for named statements (refuted). Proved part: unnamed statements extended by explicit clause calls. C12_named_exact_partial: a named statement keeps its first text whatever is added.
* **C13 GetOrCreateQuery memoises per name** (proved; XsqlProps.v).  Cache state machine.
* **C14 Clone is equal to and independent of the original** (proved; XsqlProps.v).  Heap-free copy plus frame lemma.
* **C15 Clone continues where the original is** (partial; XsqlProps.v).  Witnesses; a clone is the original after SetName and UseNewLines.  False of the code: Clone copies neither position nor new-line option nor name (two witnesses). Proved part: when the next call names its clause, the clone behaves exactly as the original after SetName("") and UseNewLines(the dialect's setting).
* **C16 Pooled statements carry nothing over** (proved; XsqlProps.v).  Invariant of the pool: every free object is clean.
* **C17 Sub-queries compose: With/SubQuery/Union embed text and arguments in place** (proved; XsqlProps.v).  Composition lemma of inner text and arguments.
* **C18 SubQuery with an empty prefix keeps text and arguments consistent** (partial; XsqlProps.v).  Witness; guarded theorem.  False of the code: with an empty prefix the inner arguments overwrite those of the clause (witness). Exactly (C18_lost_exact_partial): the text is the wanted one but no argument is ever added.
* **C19 Set/SetExpr fill the column and value lists of INSERT, the SET list of UPDATE, and nothing else** (proved; XsqlProps.v).  Case analysis over statement kinds.
* **C20 Bind selects one column per bound destination** (proved; XsqlProps.v).  Induction over fields.
* **C21 Clause appends after everything added so far** (partial; XsqlProps.v).  Witness for ten Clause calls; layout of slots (XsqlClauseSpec) proved by an invariant over the call list for up to nine; final Clause theorem.  False of the code: Clause ranks grow by 10 and run into the next standard clause (witness with ten calls). Proved part: with at most nine Clause calls, text and arguments of every SELECT/UPDATE/DELETE statement follow the slot layout of XsqlClauseSpec (each expression after everything present at its call, SQL clauses in SQL order); a final Clause call comes last in every statement.
* **C22 Query visits every row once, in order, and always closes the rows** (proved; XsqlProps.v).  Induction over rows of the event trace.
* **C23 Flake IDs of one generator are strictly increasing** (proved; FlakeProps.v).  Invariant (elapsed, sequence) lexicographically increasing.
* **C24 Flake IDs are unique across concurrent callers** (proved; FlakeProps.v).  Interleavings serialised by the mutex reduce to C23.
* **C25 Generators with different machine IDs never collide** (proved; FlakeProps.v).  Bit fields are disjoint.
* **C26 Decompose and IDTime recover what NextID packed** (proved; FlakeProps.v).  Z.shiftl/lor/land field lemmas.
* **C27 An ID's timestamp is never ahead of the clock when it is handed out** (proved; FlakeProps.v).  Invariant elapsed <= reading.
* **C28 IDs stay unique across process restarts when the clock has advanced** (proved; FlakeProps.v).  C23 over the concatenated history.
* **C29 IDs stay unique across any restart** (partial; FlakeProps.v).  Witness; guarded theorem.  False of the code: the generator keeps no state across restarts; two generators with the same settings created in the same millisecond (or after the clock was set back) repeat IDs (witness).
* **C30 After the time field overflows NextID never hands out an ID again** (proved; FlakeProps.v).  Monotone state after overflow.
* **C31 Provider.IDTime is the generation time for the generator given to NewProvider** (partial; FlakeProps.v).  Witness; proved for the repository's generator.  False of the code for IDGenerator implementations of other packages (db.go itself imports effective-security/x/flake): IDTime then uses start 0 (witness). Proved part: for this package's Flake the ID's time is the clock reading of the call that took it.
* **C32 ParseUint inverts IDString and accepts only decimal 64-bit numbers** (proved; IdProps.v).  Digit-wise induction, both directions.
* **C33 ParseID accepts exactly the non-zero 64-bit decimal strings** (proved; IdProps.v).  From C32.
* **C34 ID survives JSON** (partial; IdProps.v).  Round trip over reachable IDs; witness.  False of the code for String(): an ID decoded from the JSON number 007 keeps the text 007 and re-decodes as 7 (refuted). Proved: the uint64 survives for every reachable ID, what is accepted, destination untouched on error; String survives for IDs not decoded from JSON.
* **C35 ID.String is canonical after any JSON input** (partial; IdProps.v).  Witness; canonical inputs.  False of the code: UnmarshalJSON stores the raw text (witness 007). Proved for canonical input.
* **C36 ID survives Value/Scan** (proved; IdProps.v).  Case analysis over driver values.
* **C37 Scanning NULL resets the destination** (partial; TimeProps.v, TypeProps.v).  Per type; witnesses.  False of the code for ID, ID32, Int64, Int32, Bool, Float (refuted). Proved for NULLString, UUID, IDArray and Time; Metadata, KVSet and Strings: see the JSON model.
* **C38 Copies of an ID are independent** (partial; IdProps.v).  Frame theorem over heap programs; witness.  False of the code: Set and Reset write through the shared pointer (refuted). Proved: all other operations, in every reachable state; and Set/Reset in programs that never copy. Exactly (C38_exact_partial): Set and Reset change the variables that share the cell, and no others.
* **C39 IDArray behaves as an insertion-ordered set** (proved; IdProps.v).  Refinement of a duplicate-free list.
* **C40 Add/Concat return a new list** (partial; IdProps.v).  Backing-array model for every growth policy; witness; exact condition for sharing.  False of the code: append reuses spare capacity (refuted with Go's growth for three elements). Proved for every growth policy: result contents, receiver and operands unchanged, slices not longer or on another array unchanged, and the exact condition under which a second Add to the receiver shows in the first result.
* **C41 IDArray survives Value/Scan through the Postgres array format** (proved; IdProps.v).  Parser/printer inversion for the pq array text.
* **C42 IDArray.Sort sorts** (proved; IdProps.v).  Uniqueness of the sorted permutation.  sort.Slice is modelled by insertion sort; the sorted permutation of the uint64 values is unique, so any correct sort gives the same list.
* **C43 Int64, Int32, ID32 and Bool survive JSON and reject out-of-range numbers** (partial; MiscProps.v, TypeProps.v).  Exact acceptance by the integer grammar; JSON parser of JsonModel reads the text back.  Proved for Int64, Int32, ID32 (round trip, exact acceptance, destination untouched) and Bool's round trip; Bool rejects nothing (refuted).
* **C44 Int64, Int32, ID32, Bool survive Value/Scan; narrowing is modular** (proved; TypeProps.v).  Case analysis, modular arithmetic.
* **C45 Scan rejects integers that do not fit** (partial; TypeProps.v).  Witness; exactness in range.  False of the code: Scan wraps modulo the width (refuted); in-range integers are exact and other kinds are rejected.
* **C46 UUID.Scan renders 16 bytes injectively in the SQL Server byte order** (proved; TypeProps.v).  Positions table, injectivity of hex.
* **C47 UUID.Scan rejects byte slices that are not 16 bytes** (partial; TypeProps.v).  Witness and exact behaviour.  False of the code: errors.WithMessagef(nil, ...) is nil, so a wrong length is accepted silently (refuted); the partial theorem says what happens instead.
* **C48 Metadata.Merge/KVSet.Merge are right-biased unions** (proved; TypeProps.v).  Lookup lemma of folded puts for every iteration order.
* **C49 Metadata.OrderedPairs is a sorted, lossless listing** (proved; TypeProps.v).  Sortedness and uniqueness.
* **C50 Time: milliseconds round trip and truncation** (proved; TimeProps.v).  Euclidean division lemmas.
* **C51 ParseTime(t.String()) is t truncated to milliseconds** (proved; TimeProps.v).  Format/parse inversion through the calendar.
* **C52 Time.Scan of a string reports unparsable input** (partial; TimeProps.v).  Witness; guarded theorem.  False of the code: ParseTime drops the parse error (witness: the text hello is stored as the zero time without error). Proved part: texts printed by String are stored, unsupported types are rejected.
* **C53 Not-found classification survives wrapping** (proved; TypeProps.v).  Induction over error chains.
* **C54 Merge never overwrites with empty xdb values** (proved; TypeProps.v).  Induction over fields.
* **C55 QueryParams.Name distinguishes parameter shapes** (proved; ParamProps.v).  Injectivity of the name grammar.  Proved for query names, positions, enums in call order, flags and paging kind (cursor, offset above 0, neither).
* **C56 Different null-column sets give different names** (partial; ParamProps.v).  Witness; sums.  Refuted: {a,bc} and {ab,c} concatenate to the same hashed text. Partial: order is irrelevant, distinct sums give distinct names, non-empty differs from empty.
* **C57 Name always reflects the current parameters** (partial; ParamProps.v).  Witness; stability.  Refuted: the first Name() is cached, later Set calls do not show. Partial: stable, and the first one reflects all calls (C55).
* **C58 IsSet/GetEnum/Args report exactly what was set** (proved; MiscProps.v, ParamProps.v).  Invariant of accepted calls; first builder of an argument list.
* **C59 Reset makes the builder as good as new** (partial; ParamProps.v).  Witness; simulation with a new builder.  Refuted: Reset keeps the null columns. Partial: without null columns the builder behaves as new for every later program.
* **C60 Offset paging visits every row exactly once and terminates** (proved; ParamProps.v).  Induction over pages.
* **C61 A list query without paging does not claim a next page** (partial; ParamProps.v).  Witness; guarded theorem.  Refuted: without a limit the limit is 0 and hasNextPage is always true. Partial: with a limit, next page iff the page is full; ExecuteQuery never reports one.
* **C62 A list query that fails mid-way returns an error** (partial; ParamProps.v).  Witness; guarded theorem.  Refuted: rows.Err() is not consulted, a truncated list comes with a nil error. Partial: query and scan errors are returned; QueryRow does report it.
* **C63 ExecuteListQuery returns every row in order and always releases the rows** (proved; ParamProps.v).  Induction over rows.
* **C64 Cursor encoding is invertible and URL-safe** (proved; ParamProps.v).  Base64 group lemmas.  The base64 part; the JSON part is C123.
* **C65 Dependency discovery terminates and lists exactly the reachable tables** (partial; SchemaProps.v).  Termination by the number of undiscovered tables; reachability closure.  termination proved for every catalog; exactness proved when no column carries two foreign keys; refuted otherwise (the second key overwrites the first)
* **C66 Listings are sorted and filtered** (partial; SchemaProps.v).  Sort/filter lemmas; witness.  tables and views proved; foreign keys are filtered but not sorted (refuted)
* **C67 Repeated listings on one provider are independent** (partial; SchemaProps.v).  Frame over provider histories; witness.  proved without dependencies; refuted with dependencies: everything the provider has ever seen is listed
* **C68 TableInfo column strings round trip** (partial; SchemaProps.v).  Join/split inversion; witness.  proved; refuted only for Columns changed after the first AllColumns call (cached text)
* **C69 Nullable columns are generated with NULL-safe Go types** (partial; GenProps.v).  Exhaustive analysis of the type table; witness.  Proved: exact type for every known type name, refusal of every other name without a space, NULL-safety of every nullable column without override, arrays, overrides. Range partial: SQL Server tinyint (0..255) NOT NULL maps to int8 (refuted).
* **C70 Generated ScanRow matches the generated column list** (proved; GenProps.v).  Induction over columns.  For every run that succeeds; text of files abstracted to what they declare; strcase/pluralize/go-format are parameters.
* **C71 Transaction life cycle** (proved; ProvProps.v).  State machine invariant.  Model of prov.go with database/sql reduced to its transaction rules.
* **C72 Closing a provider is safe while the keep-alive runs** (partial; ProvProps.v).  Schedules as step lists; witnesses.  The goroutine never ends and can panic when a tick precedes Close (both refuted); safe when no ping is in progress at the time of Close.
* **C73 Open selects the requested database** (partial; UrlProps.v).  Model of net/url and of Open; adding to the query; witnesses.  Proved for data sources with a query that names no database and a name without characters that mean something in a query; refuted without a query string, with an existing dbname, with a host parameter, and for a name with an '&' (another parameter is added). The drivers' own rules are not modelled beyond taking the first value of a parameter.
* **C74 Notifications reach the listener in order** (proved; ProvProps.v).  FIFO invariant.
* **C75 Notifications are routed to the channel's own callback** (partial; ProvProps.v).  Witness; guarded theorem.  Each notification goes to exactly one callback in order, but not necessarily to its own (refuted).
* **C76 Migrate applies the configured version decisions** (partial; ProvProps.v).  Decision table over all outcomes; witness.  Decisions and results are proved for all outcomes; an unrelated failure whose text contains 'no change' is swallowed (refuted).
* **C77 Closing a statement twice does not disturb other statements** (partial; XsqlProps.v).  Pool world witness; guarded theorem.  False of the code: Close after the pooled object was handed out again puts an object in use back into the pool, two later statements share it (witness). Proved part: a second Close before the object is handed out again panics.
* **C78 FirstID and LastID report the first and the latest ID** (proved; FlakeProps.v).  History invariant.
* **C79 NewIDGenerator accepts exactly the documented settings** (proved; FlakeProps.v).  Exact acceptance.
* **C80 Default machine IDs of different hosts are different** (partial; FlakeProps.v).  Witness; range and choice.  False of the code: only the low 16 bits of the first non-loopback address are used (witness 10.1.7.9 / 10.2.7.9). Proved part: the ID is always a 16-bit value and differs whenever the last two address bytes differ.
* **C81 ParseID's result is determined by the Go specification** (partial; IdProps.v).  Both evaluation orders modelled.  False of the code: `return id, id.Set(val)` may read id before the call (refuted); with gc's order it holds.
* **C82 Equal IDs print equally** (partial; IdProps.v).  Witness; guarded theorem.  False of the code: QuotedString is empty for the zero ID but two quotes for a reset ID (refuted); also see C35. Proved: String/UnderscoreString for IDs not decoded from JSON, QuotedString for the valid ones.
* **C83 IDArrayFromStrings inverts Strings** (proved; IdProps.v).  Inversion by C32.
* **C84 ID survives YAML** (proved; IdProps.v).  Scalar text inversion.
* **C85 JSON null is accepted** (partial; TimeProps.v, TypeProps.v).  Per type.  False of the code: every number type rejects null (proved for all destinations); Bool reads it as false.
* **C86 NULLString and Float survive Value/Scan** (proved; TypeProps.v).  Case analysis.
* **C87 Float survives JSON** (partial; FloatProps.v).  Binary64 model (round to nearest even over Z); uniqueness of nearest, gap argument around the last place.  False of the code: %f keeps six decimals (refuted: 2^-24 becomes 0). Proved on the full binary64 model: a finite value survives iff it is the float64 nearest to a six-digit decimal (so one trip reaches a fixed point), always within a millionth, exact for integers, multiples of a millionth and everything from 2^33 on. strconv's correct rounding is part of the trusted model of the standard library.
* **C88 errors.Is distinguishes not-found errors of different records** (partial; TypeProps.v).  Witness; guarded theorem.  With cockroachdb/errors (the package the repository uses) marks compare type and message, and the message does not separate table from ID (refuted). Proved for the standard library's errors.Is.
* **C89 Time survives JSON** (proved; TimeProps.v).  Format/parse inversion.
* **C90 Time survives Value/Scan** (proved; TimeProps.v).  Case analysis.
* **C91 ParseTime reads dates, date-times and RFC 3339 texts with any offset** (proved; TimeProps.v).  Calendar specification `gregorian` defined by counting days.
* **C92 String prints the Gregorian UTC date and time in milliseconds** (proved; TimeProps.v).  Calendar specification, injectivity.
* **C93 Name tells a paged query from an unpaged one** (partial; ParamProps.v).  Witness; guarded theorem.  Refuted: SetPage(10, 0) leaves Name() as without a page although two arguments are added. Partial: offsets above 0 always give another name.
* **C94 Name() only reads the builder** (partial; ParamProps.v).  Witness; permutation.  Refuted: the null-column slice is sorted in place, so GetNullColumns order changes. Partial: it is a permutation, everything else is unchanged. Exactly (C94_exact_partial): Name() leaves the null columns a sorted permutation of themselves, unchanged when they were sorted, and a second call changes nothing.
* **C95 Cursor paging visits every row exactly once and terminates** (proved; ParamProps.v).  Induction over pages with strictly increasing keys.
* **C96 A cursor text has one spelling** (partial; ParamProps.v).  Witness; decode/encode/decode.  Refuted: non-strict base64 ignores trailing bits (QR and QQ decode alike). Partial: re-encoding keeps the meaning.
* **C97 List queries pass text and arguments through unchanged** (proved; ParamProps.v).  Event trace: one query, scans, one close.
* **C98 Catalog failures are never taken for an empty answer** (proved; SchemaProps.v).  Error propagation over the listing monad.
* **C99 A listed table is what the catalog says** (proved; SchemaProps.v).  Explicit expected table.
* **C100 Listing never panics** (partial; CatalogProps.v, SchemaProps.v).  Witness; guarded theorem.  partial: holds when index columns are listed columns; refuted: an indexed column whose name contains a comma is a nil dereference (the column list is joined and split with commas) Exactly (C100_exact_partial): ListTables panics iff a requested table has an index row whose text, split at commas, names something that is not one of its columns; otherwise it succeeds.
* **C101 Dependencies are described like listed tables** (partial; SchemaProps.v).  Witness; columns.  columns proved; refuted for type, indexes and primary key, which are left empty on dependencies
* **C102 The maximum length of a column is that of the catalog** (partial; SchemaProps.v).  Witness; guarded theorem.  proved for 0 <= n < 2^32; refuted for -1 (SQL Server nvarchar(max)), which becomes 4294967295
* **C103 The column query asks for the named table** (partial; SchemaProps.v).  Witness; quoting lemma.  proved for names without quotes; refuted with quotes: names are pasted into the statement
* **C104 Select() of a TableInfo names every column** (proved; SchemaProps.v).  Text lemma.
* **C105 The primary key of a generated TableInfo is one of its columns** (partial; GenProps.v).  Witness; guarded theorem.  Holds when the key is not dropped; refuted for a dropped primary key column.
* **C106 A generated package declares every name once** (partial; GenNameProps.v, GenProps.v).  Witness for every multi-schema run.  Refuted for every run over two or more schemas (each schema file repeats the tables of the earlier ones) and for model and schema files in one directory; TableInfo variables of a single schema are distinct when their names are.
* **C107 A failing generation damages nothing** (partial; GenProps.v).  Frame over the file system; witness.  Frame and load failure proved; refuted: an unknown column type truncates the existing model file.
* **C108 Definitions affect exactly the runs they are given to** (partial; GenProps.v).  Permutation independence; witness.  Order independence proved; refuted: the package variables keep definitions of earlier runs.
* **C109 Generation is deterministic** (partial; GenProps.v).  Permutation independence; witness.  Proved for model files; refuted for schema files when there are several schemas.
* **C110 Generated results carry the cursor of the last row iff there is a next page** (partial; GenProps.v).  Witness; fresh results.  Refuted for a result that is used again: the cursor of the earlier page stays. Exactly (C110_exact_partial): the cursor of the last row when there is a next page, else the one the result already had.
* **C111 Generated ScanRow reads the catalog's columns in position order** (proved; GenProps.v).  Sort lemma.
* **C112 A closed provider answers with errors** (partial; ProvProps.v).  Refuted in every history; guarded theorem.  BeginTx after Close dereferences the nil connection and panics, in every history (refuted).
* **C113 A transaction provider describes the same database** (partial; ProvProps.v).  Refuted; frame.  ConnectionString is always empty (refuted); name and generator are shared.
* **C114 NewProvider releases what it opened when it fails** (partial; ProvProps.v).  Trace of opened and closed connections.  The order and the result are proved; the connection is never closed after a failed ping or migration (refuted).
* **C115 Closing a listener ends its goroutines** (partial; ProvProps.v).  Schedules; witness.  Close does not end them; they spin on the closed channel (refuted).
* **C116 The command line tool talks to the requested database** (partial; AppProps.v, ProvProps.v).  State machine; witness.  The name is ignored once a connection is cached, and the schema provider is kept after Close (refuted); DB always returns an open connection. More on a history of calls with WithSchemaProvider: AppProps.
* **C117 ParseConnectionString reports the selected database** (partial; UrlProps.v).  Model of net/url; witness.  Which parameter is reported is proved for every data source, the round trip through Open under the conditions of C73; a database in the path is not reported (refuted).
* **C118 Metadata survives storing and scanning** (partial; JsonProps.v).  JSON printer/parser inversion with UTF-8 repair.  proved for keys and values that are UTF-8; refuted for every value that is not: it comes back changed without an error
* **C119 Metadata.Scan replaces what was in the destination** (partial; JsonProps.v).  Exact merge semantics; witness.  holds for NULL and the empty string; refuted otherwise: every key of the destination that the column lacks stays. The exact result (a merge) is proved
* **C120 KVSet survives storing and scanning** (partial; JsonProps.v).  As C118/C119.  round trip proved for UTF-8 text into a nil destination; replacing is refuted as in C119
* **C121 Strings survives storing and scanning** (partial; JsonGrammarProps.v, JsonProps.v).  As C118; fmt.Sprint of bytes is no JSON list of strings.  proved for string columns with UTF-8 text; refuted for []byte columns: every non-empty one is an error (fmt.Sprint prints the bytes as numbers), and a JSON null keeps the old string
* **C122 Scanning a row does not change values scanned before** (partial; JsonProps.v).  Heap model of maps and arrays; witness.  proved for variables that are nil before the scan; refuted otherwise: the map, or the array when the list fits, is written in place
* **C123 Cursor values survive encoding and decoding** (partial; AnyProps.v, JsonGrammarProps.v, JsonProps.v).  JSON and float64 rounding; witness.  proved up to the change of integers to float64 (exact to 2^53); refuted for odd integers beyond 2^53, which come back as another number. MapAny.JSON is taken to be json.Marshal C123_values_partial and C123_range_partial are about all values including fractional float64: decoding gives each number's exact float64, and fails exactly when a number is out of range.
* **C124 A failed Scan leaves the destination alone** (partial; JsonProps.v).  Case analysis; witness.  proved for text that is not a JSON object and for unsupported Go types; refuted for objects and lists with a member of the wrong type. The exact contents after every Scan of an object: C124_exact_partial
* **C125 The stored text of a map is canonical** (proved; JsonProps.v).  Sorted keys are unique.
* **C126 A NextID call blocks for at most a millisecond** (partial; FlakeProps.v).  Bound on the sleep; witness.  proved when the clock does not go back; refuted when it is set back by k ms: a call on a full millisecond sleeps k ms with the mutex held
* **C127 Concurrent String() and GetOrCreateQuery return what they return alone** (proved; ConcProps.v).  Simulation: any interleaving against each call alone.
* **C128 GetOrCreateQuery gives every caller of a name the same text and creates it once** (partial; ConcProps.v).  Schedule witness; invariant of cached texts.  Refuted: Load then Store is not LoadOrStore; two first callers both call back and get their own texts. Proved: every call returns the text of some call of that name, and once cached every later call returns the cached text.
* **C129 AllColumns of a TableInfo may be called from several goroutines** (partial; ConcProps.v).  Word-level memory model; witness schedule.  Refuted for every TableInfo with columns: the list is cached lazily without synchronisation and a string is two words, so a racing call may return a string with a length and a nil pointer, which crashes when read. Proved: no call ever returns other text, and after one completed call all are safe.
* **C130 String of copies of one ID may be called from several goroutines** (partial; ConcProps.v).  As C129.  Refuted for every valid ID made by NewID: copies share the cell in which String caches its text without synchronisation. Proved: no other text, and safe after one completed call.
* **C131 A listing releases every result set it opened** (partial; SchemaTraceProps.v).  Open/close counter over event traces; witness.  Refuted: provider.go never calls rows.Close, so a row that cannot be scanned, or columns or indexes that cannot be read, leave one or two result sets open (until the context ends). Proved: nothing is left open on success or when the iteration itself ends with an error; never more than two.
* **C132 Listings work over a single connection** (partial; SchemaTraceProps.v).  Peak of the counter.  Refuted for every catalog with a wanted table: ListTables reads columns and indexes while its own result set is open, so it needs exactly two. Proved: two are always enough; views, foreign keys and dependency discovery need one.
* **C133 schema tables and views print the listing** (proved; CliProps.v).  Fold of writes; composition with C65.  Proved for every listing; C133_catalog composes it with the discovery over a whole catalog in which no column is in two foreign keys (see C65).
* **C134 Printed lines identify the tables** (partial; CliProps.v).  Witness; parsing of lines.  Refuted: names with dots or new lines print the same text. Proved when schema and table names have neither.
* **C135 -o json prints one JSON document that decodes to the listing** (partial; CliProps.v).  Indented JSON read back by the JSON parser.  Refuted: 'columns --views' prints two documents when there are views. Proved: every other command, and columns without views to print, write one document whose parse is the listing (for UTF-8 names).
* **C136 Success means everything was written** (partial; CliProps.v).  Prefix lemma over writers.  Refuted: every write error is dropped, so a full disk is a success. Proved: what was written is a prefix of the whole output, and the returned error does not depend on the writer.
* **C137 A failed listing is reported and nothing is printed** (partial; CliProps.v).  Case analysis over listing failures; witness.  Refuted: columns --views prints the tables before it lists the views, and drops the error of the encoder. Proved: every listing or connection error is returned, and the other commands print nothing.
* **C138 Text tables say what was listed** (proved; CliProps.v).  Cells determine the fields.
* **C139 An unknown output format is rejected** (partial; CliProps.v).  Refuted for every unknown name.  Refuted for every unknown name: it is treated as the text format.
* **C140 The data source is the flag, else the environment, else an error** (proved; CliProps.v).  Case analysis.
* **C141 Running a statement sends its text and arguments; AndClose releases it exactly once** (proved; XsqlHandlesProps.v).  Event traces.
* **C142 Rows are closed and the statement is released however the query ends** (partial; XsqlHandlesProps.v).  Event traces with a panicking handler.  Refuted: no defer, a panicking handler leaves rows and statement open. Proved: every other end closes once and releases once.
* **C143 BeginTx uses the TxOptions it is given** (partial; MiscProps.v).  Refuted for every non-default option.  Refuted for every non-default option: prov.go passes nil to the database. Proved for nil and default options.
* **C144 PageParam is the value of the parameter** (partial; MiscProps.v).  Modular arithmetic.  Refuted for negative and >= 2^32 ints, which wrap. Proved: the value when it fits, its remainder modulo 2^32 otherwise, panic exactly for other types.
* **C145 Int32Array keeps the enums** (partial; MiscProps.v).  Modular arithmetic.  Refuted for uint32 enums >= 2^31, which become negative. Proved: exact for int32 values, injective and in range for all.
* **C146 A Row may be kept in a variable** (partial; XsqlHandlesProps.v).  Witness; one-row and one-value theorems.  Refuted: Set has a value receiver, so on any row but the first the separator is lost when the result of Set is not kept; two NewRow calls before a Set make one row. Proved for one row and for rows of one value. Exactly (C146_exact_partial): which rows are kept.
* **C147 Package level functions use the dialect set last** (partial; XsqlHandlesProps.v).  History of an atomic cell.  Refuted: a dialect of any other type than *Dialect makes atomic.Value panic. Proved: after any history the last standard dialect that was set is used.
* **C148 String and QuotedString of a string pointer** (partial; MiscProps.v).  String lemmas; JSON parser.  Refuted: quotes, backslashes and control characters are not escaped. Proved: texts, injectivity, JSON for plain texts.
* **C149 Keys and ranges of Metadata** (proved; MiscProps.v).  Prefix characterisation for every iteration order.
* **C150 A Time is always returned in UTC** (partial; MiscProps.v).  Zone-keeping model projected on the instant model.  Refuted: UnmarshalJSON keeps the zone of the text, so the Time is not == to the same instant. Proved: all outputs are in UTC and depend only on the instant; all other constructors give UTC.
* **C151 Arguments of a statement do not depend on how slices are shared, grown or recycled** (partial; XsqlSlicesProps.v).  Heap model of slices refined to lists by an ownership invariant; witness for the exception.  Proved for all programs that do not use closed statements or lost slices; refuted for a part of a statement's own Args() that starts behind the place of insertion (overwritten while copied when the array has room). Dest works through the same insertAt.
* **C152 ListTables shows the tables of a Postgres database** (partial; CatalogProps.v).  Catalog queries as nested loops over a database; joins removed by key lemmas; composed with the listing theorem.  Proved when index names are unique in the database and names are plain; refuted for partitioned tables (no indexes, no key), expression indexes (not listed) and indexes of the same name in two schemas (panic, or the primary key is lost).
* **C153 ListForeignKeys shows the foreign keys of a Postgres database** (partial; CatalogProps.v).  Joins by name reduced under unique names; witnesses inside every result.  Proved for one-column keys with names unique in the database; refuted for every composite key (crossed pairs) and for keys of the same name (each refers to both tables). Exactly (C153_exact_partial, C153_products_partial): the answer holds, for every key name, the product of the columns and referenced columns of all keys of that name.
* **C154 ListViews shows the views of a Postgres database** (partial; CatalogProps.v).  Left join; listing theorem.  Proved when each view has a column; a single view without columns makes every ListViews fail.
* **C155 ListTables shows the tables of a SQL Server database** (partial; CatalogProps.v).  Joins, XML text; composed with the listing theorem.  Proved for databases without extended properties and without markup in column names, index columns as a set; refuted: described tables vanish, described indexes duplicate the table, markup panics, columns are not in key order. Exactly (C155_listed_partial): how often each table is listed.
* **C156 ListViews shows the views of a SQL Server database** (partial; CatalogProps.v).  Join by name.  Proved when no table or other view has a view's name; refuted otherwise. Exactly (C156_exact_partial): the view rows are those of every table or view with a view's name.
* **C157 ListForeignKeys shows the foreign keys of a SQL Server database** (proved; CatalogProps.v).  Joins over ids.
* **C158 Generated structs, fields and variables are named after the schema** (proved; GenNameProps.v).  Inversion of a successful run.
* **C159 The package clause follows the flags** (proved; GenNameProps.v).  Case analysis on the shape of the path.
* **C160 The literal generated for a column denotes the column** (partial; GenNameProps.v).  An independent tokeniser run on the text.  Names and types without quotes, backslashes and newlines; a quote in a name breaks the literal (C160_quote_refuted).
* **C161 What is written in a data source is what is reported** (partial; UrlProps.v).  Model of net/url (Parse, ParseQuery); induction on the escaped text, an independent relation of writing.  net/url of Go 1.26 is modelled in full except bracketed (IPv6) hosts, which are a parameter. With more than 10000 parameters none is reported and there is no error (C161_many_refuted).
* **C162 Credentials that are not escaped are refused or taken literally** (partial; UrlProps.v).  Model of net/url; all characters by a check of the 256 bytes; witnesses.  Proved, with the exact set of accepted characters, when / ? # % do not occur; refuted by a slash after digits (another host, no credentials) and by a percent sign before two hexadecimal digits (another password).
* **C163 Connection parameters are reported or refused** (partial; UrlProps.v).  Parts of a query read independently of the parser; witnesses.  The exact parameters reported are given for every query of at most 10000 parts; a part with a ';' or a wrong escape is dropped without an error (C163_dropped_refuted).
* **C164 Open connects to what ParseConnectionString describes** (partial; UrlProps.v).  Both functions on the same model; witnesses.  Proved when the resolved and trimmed text is not quoted again and is not a reference itself; refuted for quotes within quotes and for a reference to a reference. configloader.ResolveValue is a parameter.
* **C165 The tag of a generated field describes the column** (partial; SchemaProps.v).  The value under db split at commas; membership of each option.  For names without quotes, backslashes and commas; with a comma two different columns have the same tag (C165_comma_refuted).
* **C166 Decimal texts become the nearest Float** (proved; FloatProps.v).  Strconv's grammar as a scanner; correct rounding proved against the distance to all finite patterns.
* **C167 Float rejects other texts and keeps the destination on error** (proved; FloatProps.v).  Inversion of the scanner; case analysis.
* **C168 Integers scanned into Float keep their value** (partial; FloatProps.v).  Rounding lemma at denominator 1; witness.  False above 2^53 (refuted: 2^53 + 1). Proved: always the nearest float64, ties to even, and exact up to 2^53.
* **C169 float32 and float64 columns are stored exactly** (proved; FloatProps.v).  Exactness of 24 significant bits in the 53-bit format.
* **C170 Float's JSON is a JSON number** (partial; FloatProps.v).  Digits of the integer and fraction parts; witness.  False for NaN and the infinities, whose texts NaN, +Inf, -Inf are not JSON (refuted). Proved for every finite value. Their texts are exactly those three, and UnmarshalJSON reads them back (C170_special_partial).
* **C171 JSON keeps the order of Floats** (proved; FloatProps.v).  Monotonicity of the two roundings.
* **C172 The array literals IDArray.Scan accepts** (proved; IdProps.v).  State machine of lib/pq's array parser equals an inductive grammar, both directions by induction; ParseInt by the decimal spec.  lib/pq's parseArray/scanLinearArray and strconv.ParseInt are modelled from their documented source, outside /repo.
* **C173 The command line application holds at most one connection** (proved; AppProps.v).  Invariant over call histories: the open connections are exactly the one the Cli holds.
* **C174 xdbcli reports failure in its exit status and closes its connection** (partial; AppProps.v).  Case analysis of the main function with exit as a call that ends the process.  Status proved. Closing refuted for every command that fails after connecting: os.Exit does not run the deferred Close. Proved for every other end. kong's parser is an argument of the model. A usage error exits with 80 (main_test.go), any other failure with 1.
* **C175 The payload of a notification is the JSON object of its text** (proved; AnyProps.v).  Structural induction over sent values and over parsed JSON values; numbers by the float model's nearest theorem.  Proved with the modelled json.Unmarshal and ParseFloat (exponents below 100000 in absolute value, where strconv stops counting). The text of a float64 is any JSON number that ParseFloat reads back, which encoding/json's shortest form is.
* **C176 A payload that cannot be decoded is not handed out** (partial; AnyProps.v).  Computed witness 1e400; induction over the JSON value for the exact set of failures.  False of the code: the error of json.Unmarshal is only logged, and for an object with a number beyond float64 (1e400) the map is already filled, with nil for that number (refuted). Numbers out of range are proved to be the only such case.
* **C177 Reading a column into NULLString never fails and keeps the value's text** (proved; TypeProps.v).  Case analysis over the driver values; decimal text by the canonical-digits spec of integers.
* **C178 What xdbcli prints is what the database contains** (partial; CliDbProps.v).  Composition of the catalog theorems (C152-C155, C65) with the printing theorems (C135, C138) through what a listed table looks like when it is printed.  Partial for the reasons of C152, C153, C155 and C65 (partitioned tables and expression indexes, foreign keys of several columns, descriptions in SQL Server, a column in two foreign keys); names must be UTF-8 for the JSON output.
* **C179 A generated row survives JSON** (partial; RecordProps.v).  Case analysis over the field types using their own round-trip theorems (C43, C37, C89, C150), then induction over the fields of the row; the scanner is related to the printer by the JSON text theorems.  Refuted in full: a Float keeps millionths only, empty slices come back nil (omitempty), bytes that are not UTF-8 are replaced, NaN and infinities fail, and decoding into a used struct keeps what it held in fields that were zero in the row. Proved: everything else comes back, the exact set of failures.
* **C180 Decoding JSON into a generated row changes only the fields it names** (proved; RecordProps.v).  Locality of the JSON scanner (what it reads does not depend on what follows) by induction over its fuel, then induction over the members of the document.
* **C181 A JSON column accepts exactly JSON of its type** (proved; JsonGrammarProps.v).  Grammar of RFC 8259 as an inductive specification; soundness and completeness of the scanner against it by induction over its fuel and over the derivations.
* **C182 Exactly the texts of times are read as times** (proved; TimeGrammarProps.v).  Grammar of time texts as a separate specification; soundness and completeness of each component parser, then of the three layouts; JSON strings by induction on the text.
* **C183 Float reads exactly Go's floating-point texts, correctly rounded** (proved; FloatGrammarProps.v).  Grammar of floating-point texts as a separate specification; the scanner on a text with underscores equals the scanner on the text without them when they separate digits; inversion of the scanner for soundness, evaluation plus correct rounding (C165) for values, a bound argument for capped exponents.
* **C184 Which hosts a data source can name** (proved; UrlProps.v).  The host part of net/url as modelled; iff with an inductive reading relation.
* **C185 Optional times and validation** (proved; MiscProps.v).  Composition of the pointer, NULL and Scan functions.
* **C186 Scan takes exactly the driver values its type documents** (proved; FloatProps.v, TypeProps.v).  Case analysis over the dynamic type..  []byte for Float is C183, the texts of IDArray are C172, those of Metadata, KVSet and Strings C123.
* **C187 Listings may run in several goroutines** (partial; SchemaConcProps.v).  Goroutines as programs of single map accesses with the runtime's write flag; refinement of the sequential listing; footprint invariant; witness schedules.  Refuted for two calls on one provider that both list tables or views (or both foreign keys) and find something: some schedule ends the process with a concurrent map write (C187_process_ends_refuted), and without that an index and the primary key may be attached to the other call's column (C187_lost_index_refuted). Proved, for any number of goroutines and any schedule: when a provider is shared at most by one lister of tables or views and one of foreign keys, in particular when each goroutine has its own, nothing ends the process, all calls can return and return what they return alone. Each goroutine's program, run alone, is proved to be the sequential model. The same when, besides, any number of listings of tables or keys that find nothing share the provider (C187_nothing_found_partial).
* **C188 Paging visits every row that stays exactly once while the table changes** (partial; PagingProps.v).  A sequence of table contents, one per request; invariant on the last key; induction on the pages; witness histories for every page size.  Proved for cursor paging on a database that answers with the rows above the cursor in key order (keys identify rows), and that it ends when the keys are bounded (rows added at the end for ever can keep it going). Refuted for offset paging, for every page size: one deletion between two pages hides a row that was there all the time, one insertion shows a row twice. Proved for offset paging when rows are only added behind the last one. Exactly (C188_offset_exact_partial): page i is the i-th page of the table as it was at the time of request i, and the reading ends at the first page that is not full.
* **C189 A query cached under Name() of its parameters serves each request its own text** (partial; NameCacheProps.v, NameConcProps.v).  Induction over the history with the invariant that the cache holds, under each name used, the text of the first request with that name; C55 for the names. Under schedules: C128 composed with C55..  False as stated: the first page (offset 0) has the name of the query without a page and different sets of null columns may have one name, so the first request decides the text the others receive (two refutations). Proved: every request receives the text of the first request that had its name; all receive their own exactly if requests of one name have one text; and this holds when no null columns are used and the text follows from the query, the positions, the enums, the flags and the kind of paging. Proved also under every schedule of goroutines that share the dialect: a goroutine that returns has the text of some request with its name, and all have their own under every schedule exactly if requests of one name have one text. Missing: the sentence for first pages and null columns, where it is false.
