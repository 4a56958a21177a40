{"id": "C01", "title": "Statement text is canonical: clauses in SQL order, expressions in call order", "statement": "For a statement started with a Dialect constructor and extended with any sequence of Select/From/Join/Where/In/GroupBy/Having/OrderBy/Limit/Offset/Returning/Set/Update/DeleteFrom/InsertInto/Expr/Clause/Union calls, String() (nothing cached) is the trimmed, single-space separated concatenation of its clauses in SQL order, each clause being its keyword followed by its expressions in the order they were added, joined by that call's separator; how calls to different clauses were interleaved does not matter.", "quantifier": "every dialect, new-line setting and finite sequence of builder calls with arbitrary strings", "why_tests_cant": "the builder keeps interleaved byte ranges of one buffer; only an induction over call sequences covers all interleavings", "anchors": ["xsql/stmt.go:addChunk", "xsql/stmt.go:String", "xsql/stmt.go:Select", "xsql/dialect.go:From"]}
{"id": "C02", "title": "Args() lists the arguments in the order of their placeholders in the text", "statement": "For any such call sequence Args() is, clause by clause in SQL order and within a clause in call order, exactly the arguments passed; nothing is lost, duplicated or moved to another clause, and no call panics with a slice bounds error.", "quantifier": "every dialect and every finite sequence of builder calls whose argument-carrying expressions are non-empty", "why_tests_cant": "argument positions depend on the tail length computed from all previously added chunks", "anchors": ["xsql/stmt.go:addChunk", "xsql/util.go:insertAt", "xsql/stmt.go:Args"]}
{"id": "C03", "title": "Argument values never influence the SQL text", "statement": "Two call sequences that differ only in the values of bound arguments (same number of arguments in each call) produce byte-identical SQL; a bound value can therefore not inject SQL.", "quantifier": "all pairs of call sequences equal up to argument values, any dialect", "why_tests_cant": "a test can only try finitely many hostile values", "anchors": ["xsql/stmt.go:String", "xsql/dialect.go:writePg"]}
{"id": "C04", "title": "Postgres placeholders are numbered $1..$n left to right and match Args()", "statement": "With the postgres dialect, when every expression has one unescaped '?' per argument, String() contains $1, $2, ..., $n left to right with n = len(Args()), the k-th placeholder standing where the '?' of the k-th element of Args() was; '\\?' yields a literal '?' and every other byte is copied unchanged.", "quantifier": "all call sequences whose expressions have matching '?' and argument counts", "why_tests_cant": "numbering is a running counter over reordered chunks", "anchors": ["xsql/dialect.go:writePg", "xsql/stmt.go:String"]}
{"id": "C05", "title": "A literal '?' in an argument-less expression survives the postgres dialect", "statement": "An expression added without arguments is copied verbatim by the postgres dialect, so that operators such as jsonb '?' never become placeholders.", "quantifier": "all statements containing an expression without arguments", "why_tests_cant": "whether it holds depends on which chunk the expression was merged into, i.e. on the previous calls", "anchors": ["xsql/stmt.go:String", "xsql/stmt.go:addChunk", "xsql/dialect.go:writePg"]}
{"id": "C06", "title": "Limit/Offset: the last call wins and emits one clause", "statement": "After any number of Limit (Offset) calls anywhere in the call sequence the statement has exactly one LIMIT ? (OFFSET ?) clause and its argument is the one of the last call.", "quantifier": "all call sequences containing Limit/Offset calls in any position", "why_tests_cant": "the replacement overwrites a position of the argument list computed from later clauses", "anchors": ["xsql/stmt.go:Limit", "xsql/stmt.go:Offset", "xsql/stmt.go:addChunk"]}
{"id": "C07", "title": "Paginate emits LIMIT max(1,size) and OFFSET (page-1)*size", "statement": "Paginate(page,size) behaves as Limit(max(1,size)), preceded by Offset((max(1,page)-1)*max(1,size)) when page > 1, and by nothing otherwise; the offset is the mathematical product whenever it fits in 64 bits.", "quantifier": "all pages and sizes in the int range, on any statement", "why_tests_cant": "boundary behaviour over the full integer range", "anchors": ["xsql/stmt.go:Paginate"]}
{"id": "C08", "title": "Paginate replaces the page selected earlier", "statement": "After Paginate(p1,s1) and later Paginate(p2,s2), the statement selects page p2 of size s2.", "quantifier": "all pairs of pages and sizes", "why_tests_cant": "only some orderings of page numbers expose it", "anchors": ["xsql/stmt.go:Paginate"]}
{"id": "C09", "title": "Bulk INSERT: rows x columns come out rectangular and in order", "statement": "InsertInto(t) followed by n rows built with NewRow().Set(...)... over m columns gives INSERT INTO t ( c1, ..., cm ) VALUES ( ?, ..., ? ), ( ... ) with n groups of m placeholders, and Args() is the row-major list of the n*m values.", "quantifier": "every table name, every non-empty list of column names, every number of rows", "why_tests_cant": "needs induction over rows and columns", "anchors": ["xsql/stmt.go:NewRow", "xsql/stmt.go:newRow.SetExpr", "xsql/stmt.go:InsertInto"]}
{"id": "C10", "title": "String() is stable and the dialect cache is transparent for collision-free statements", "statement": "String() returns the same text when called again without an intervening change, and returns what a cold cache would return whenever every cached entry under its key was produced by a statement with the same clause structure.", "quantifier": "all statements and all reachable cache contents satisfying the collision-freedom hypothesis", "why_tests_cant": "the cache is process-global state: the history of all statements matters", "anchors": ["xsql/stmt.go:String", "xsql/cache.go:GetCachedQuery", "xsql/cache.go:PutCachedQuery"]}
{"id": "C11", "title": "The dialect cache never changes what a statement renders to", "statement": "String() of a statement never depends on which other statements were rendered before.", "quantifier": "all pairs of statements of one dialect", "why_tests_cant": "needs two statements whose build buffers collide", "anchors": ["xsql/stmt.go:String", "xsql/cache.go:GetCachedQuery"]}
{"id": "C12", "title": "A statement extended after String() renders the extension", "statement": "Adding a clause after String() and calling String() again reflects the added clause and stays consistent with Args().", "quantifier": "all statements, named or not, and all later calls", "why_tests_cant": "depends on the naming and on the cache history", "anchors": ["xsql/stmt.go:SetName", "xsql/stmt.go:String", "xsql/cache.go:GetOrCreateQuery"]}
{"id": "C13", "title": "GetOrCreateQuery memoises per name", "statement": "GetOrCreateQuery(name, create) returns the cached text without calling create when the name is cached; otherwise it returns the text rendered by create's builder and, if that builder belongs to the same dialect and was not rendered before, every later GetOrCreateQuery(name, _) returns the same text without calling create, until PutCachedQuery overwrites it.", "quantifier": "all names, builders and sequences of cache operations", "why_tests_cant": "quantifies over cache histories", "anchors": ["xsql/cache.go:GetOrCreateQuery", "xsql/stmt.go:SetName"]}
{"id": "C14", "title": "Clone is equal to and independent of the original", "statement": "Clone() has the same String(), Args() and Dest() as the original, and later clause calls on either leave the other's text, arguments and destinations unchanged and apply identically to both.", "quantifier": "all statements and all later explicit-clause calls on the clone or the original", "why_tests_cant": "aliasing shows only under particular later calls", "anchors": ["xsql/stmt.go:Clone"]}
{"id": "C15", "title": "Clone continues where the original is", "statement": "Expr/SubQuery on a clone append to the same clause as they would on the original, and new-line and name settings carry over.", "quantifier": "all statements, all calls", "why_tests_cant": "depends on what the pooled object was used for before", "anchors": ["xsql/stmt.go:Clone", "xsql/pool.go:getStmt"]}
{"id": "C16", "title": "Pooled statements carry nothing over", "statement": "A statement obtained after any number of other statements were built and closed renders the same text and arguments as one obtained in a fresh process.", "quantifier": "all histories of statements returned to the pool, all subsequent call sequences starting with a Dialect constructor", "why_tests_cant": "depends on pool history", "anchors": ["xsql/pool.go:getStmt", "xsql/pool.go:reuseStmt"]}
{"id": "C17", "title": "Sub-queries compose: With/SubQuery/Union embed text and arguments in place", "statement": "With, SubQuery (with a non-empty prefix) and Union append prefix + dialect-neutral text of the inner statement + suffix to the clause and splice the inner statement's Args at the matching position, so that '?' number k still corresponds to Args()[k].", "quantifier": "all outer and inner statements", "why_tests_cant": "positions of spliced arguments depend on both histories", "anchors": ["xsql/stmt.go:SubQuery", "xsql/stmt.go:With", "xsql/stmt.go:Union"]}
{"id": "C18", "title": "SubQuery with an empty prefix keeps text and arguments consistent", "statement": "SubQuery(\"\", suffix, q) appends the inner query to the current clause without disturbing other clauses or arguments.", "quantifier": "all outer and inner statements", "why_tests_cant": "only shows when the current clause is not the last one written or already has arguments", "anchors": ["xsql/stmt.go:SubQuery", "xsql/stmt.go:addChunk"]}
{"id": "C19", "title": "Set/SetExpr fill the column and value lists of INSERT, the SET list of UPDATE, and nothing else", "statement": "On an INSERT each Set adds the column to the field list and its expression to the VALUES list at the same index; on an UPDATE it appends field=expr to SET; on any other statement text and arguments are unchanged.", "quantifier": "all statements and all sequences of Set/SetExpr", "why_tests_cant": "requires both lists to stay aligned for all lengths", "anchors": ["xsql/stmt.go:SetExpr", "xsql/stmt.go:Set"]}
{"id": "C20", "title": "Bind selects one column per bound destination", "statement": "Bind(&struct) appends, in field order with embedded structs flattened, Select(column).To(&field) for each field with a non-empty db tag; the number of selected columns equals the number of destinations and they correspond index by index.", "quantifier": "all struct shapes with arbitrary nesting and tags whose first token is non-empty", "why_tests_cant": "recursion over arbitrary nested struct types", "anchors": ["xsql/stmt.go:Bind", "xsql/stmt.go:To"]}
{"id": "C21", "title": "Clause appends after everything added so far", "statement": "Clause(e) places e after every clause already present, for any number of Clause calls, and later standard clauses keep their SQL order relative to each other.", "quantifier": "all call sequences with any number of Clause and Union calls", "why_tests_cant": "numeric clause positions collide only after a certain number of calls", "anchors": ["xsql/stmt.go:Clause", "xsql/stmt.go:Union"]}
{"id": "C22", "title": "Query visits every row once, in order, and always closes the rows", "statement": "Query passes String() and Args() to the executor, calls the handler exactly once per row in order until the first scan error, always closes the result set exactly once, and returns the first applicable of: query error, close error, scan error, iteration error.", "quantifier": "all result sets and all error points (query, row scan, iteration, close)", "why_tests_cant": "quantifies over the failure point", "anchors": ["xsql/executor.go:Query", "xsql/executor.go:QueryAndClose"]}
{"id": "C23", "title": "Flake IDs of one generator are strictly increasing", "statement": "Successive NextID calls on one generator return strictly increasing IDs whatever the clock does (stands still, jumps back, jumps forward), until the time limit is exceeded.", "quantifier": "all clock readings and any number of calls", "why_tests_cant": "depends on adversarial clock sequences", "anchors": ["pkg/flake/flake.go:NextID", "pkg/flake/flake.go:toID"]}
{"id": "C24", "title": "Flake IDs are unique across concurrent callers", "statement": "Under any interleaving of any number of goroutines calling NextID on one generator, no ID is returned twice, and each caller sees increasing IDs.", "quantifier": "all schedules, callers and clock readings", "why_tests_cant": "quantifies over schedules", "anchors": ["pkg/flake/flake.go:NextID", "prov.go:NextID"]}
{"id": "C25", "title": "Generators with different machine IDs never collide", "statement": "IDs generated by generators with different machine IDs are always different, independently of clocks and start times.", "quantifier": "all pairs of generator states and clocks", "why_tests_cant": "cross-process property over all states", "anchors": ["pkg/flake/flake.go:toID", "pkg/flake/flake.go:NewIDGenerator"]}
{"id": "C26", "title": "Decompose and IDTime recover what NextID packed", "statement": "For every generated ID, msb is 0, the ID is positive and at most MaxValue, Decompose returns the generator's time, sequence (< 64) and machine ID, recombining them gives the ID back, and IDTime on the same generator returns start + time in milliseconds.", "quantifier": "all generator states, and Decompose for all 64-bit values", "why_tests_cant": "bit packing over the full range", "anchors": ["pkg/flake/flake.go:Decompose", "pkg/flake/flake.go:IDTime", "pkg/flake/flake.go:toID"]}
{"id": "C27", "title": "An ID's timestamp is never ahead of the clock when it is handed out", "statement": "If the clock never goes backwards and Sleep(d) lasts at least d, then when NextID returns, IDTime(id) is not after the clock reading at return.", "quantifier": "all monotone clocks and call counts", "why_tests_cant": "depends on the burst length within one millisecond and the sleep arithmetic", "anchors": ["pkg/flake/flake.go:NextID", "pkg/flake/flake.go:sleepTime"]}
{"id": "C28", "title": "IDs stay unique across process restarts when the clock has advanced", "statement": "A generator created (same start time and machine ID) strictly later in milliseconds than the time embedded in the last ID of an earlier generator never repeats one of its IDs.", "quantifier": "all histories of the first generator, all later clocks", "why_tests_cant": "needs a restart at a particular millisecond", "anchors": ["pkg/flake/flake.go:NewIDGenerator", "pkg/flake/flake.go:NextID"]}
{"id": "C29", "title": "IDs stay unique across any restart", "statement": "A generator created with the same settings after an earlier one never repeats one of its IDs.", "quantifier": "all restart times", "why_tests_cant": "needs a restart or second generator within the same millisecond", "anchors": ["pkg/flake/flake.go:NewIDGenerator"]}
{"id": "C30", "title": "After the time field overflows NextID never hands out an ID again", "statement": "Once the elapsed time reaches 2^41 ms every NextID panics, forever, instead of returning a wrapped (repeating) ID.", "quantifier": "all later clock readings and call counts", "why_tests_cant": "would need 70 years of clock", "anchors": ["pkg/flake/flake.go:toID", "pkg/flake/flake.go:NextID"]}
{"id": "C31", "title": "Provider.IDTime is the generation time for the generator given to NewProvider", "statement": "Provider.IDTime(id) returns the time at which Provider.NextID produced id, for every generator a caller may pass.", "quantifier": "all generator implementations", "why_tests_cant": "depends on the dynamic type of the generator", "anchors": ["prov.go:IDTime", "pkg/flake/flake.go:IDTime", "db.go:NewProvider"]}
{"id": "C32", "title": "ParseUint inverts IDString and accepts only decimal 64-bit numbers", "statement": "ParseUint(IDString(n)) = n for every uint64 n; ParseUint accepts exactly the non-empty strings of decimal digits whose value is below 2^64 and returns that value.", "quantifier": "all uint64 values and all strings", "why_tests_cant": "unbounded strings", "anchors": ["types.go:ParseUint", "types.go:IDString"]}
{"id": "C33", "title": "ParseID accepts exactly the non-zero 64-bit decimal strings", "statement": "ParseID(s) succeeds iff s is a decimal string with value in 1..2^64-1, and then UInt64() is that value and String() is its canonical decimal form; on failure the returned ID is invalid. TryParseID and MustID agree.", "quantifier": "all strings", "why_tests_cant": "unbounded strings, Go evaluation order of 'return id, id.Set(val)'", "anchors": ["id.go:ParseID", "id.go:Set", "id.go:TryParseID", "id.go:MustID"]}
{"id": "C34", "title": "ID survives JSON", "statement": "For every ID, UnmarshalJSON(MarshalJSON(v)) gives an ID with the same UInt64 and the same String; quoted numbers are accepted; non-numbers are rejected leaving the target unchanged.", "quantifier": "all 64-bit values and all byte strings", "why_tests_cant": "full value range", "anchors": ["id.go:MarshalJSON", "id.go:UnmarshalJSON"]}
{"id": "C35", "title": "ID.String is canonical after any JSON input", "statement": "After a successful UnmarshalJSON, String() is the canonical decimal form of UInt64(), so equal IDs have equal strings.", "quantifier": "all accepted JSON inputs", "why_tests_cant": "needs inputs with leading zeros", "anchors": ["id.go:UnmarshalJSON", "id.go:String"]}
{"id": "C36", "title": "ID survives Value/Scan", "statement": "For every ID v, including values above 2^63-1, scanning the driver value produced by Value() into a fresh ID gives the same UInt64; zero maps to NULL and back.", "quantifier": "all 64-bit values, scanned as int64/uint64/int/uint", "why_tests_cant": "two's-complement wrap at 2^63", "anchors": ["id.go:Value", "id.go:Scan"]}
{"id": "C37", "title": "Scanning NULL resets the destination", "statement": "Scan(nil) sets the destination to its zero value, so a struct reused for several rows never keeps a value of an earlier row.", "quantifier": "all previous values of ID, ID32, Int64, Int32, Float, Bool, NULLString, UUID, Time, Metadata, KVSet, Strings, IDArray destinations", "why_tests_cant": "requires a reused destination", "anchors": ["id.go:Scan", "types.go:Scan", "time.go:Scan"]}
{"id": "C38", "title": "Copies of an ID are independent", "statement": "After w := v, changing v with Scan, UnmarshalJSON, Set or Reset leaves w.UInt64() unchanged.", "quantifier": "all IDs and operation sequences on either copy", "why_tests_cant": "aliasing through a hidden pointer shows only for some operations", "anchors": ["id.go:Set", "id.go:Reset", "id.go:Scan", "id.go:UnmarshalJSON"]}
{"id": "C39", "title": "IDArray behaves as an insertion-ordered set", "statement": "NewIDArray/Add/Concat build duplicate-free lists; Add keeps order and appends unless present; membership after Add/Concat is the union; Contains and Overlaps are membership and non-empty intersection.", "quantifier": "all lists of uint64", "why_tests_cant": "unbounded lists", "anchors": ["id.go:Add", "id.go:Concat", "id.go:Contains", "id.go:Overlaps", "id.go:NewIDArray"]}
{"id": "C40", "title": "Add/Concat return a new list", "statement": "The list returned by Add or Concat is independent of the receiver: later appends to either never change the other.", "quantifier": "all lists with any spare capacity", "why_tests_cant": "slice capacity aliasing", "anchors": ["id.go:Add", "id.go:Concat"]}
{"id": "C41", "title": "IDArray survives Value/Scan through the Postgres array format", "statement": "For every list of IDs, scanning the text produced by Value() gives the same list of uint64 (values above 2^63-1 included); the empty list maps to NULL and back.", "quantifier": "all lists of uint64", "why_tests_cant": "unbounded lists, textual codec", "anchors": ["id.go:IDArray.Value", "id.go:IDArray.Scan"]}
{"id": "C42", "title": "IDArray.Sort sorts", "statement": "Sort returns an ascending permutation of the list.", "quantifier": "all lists", "why_tests_cant": "unbounded lists", "anchors": ["id.go:Sort"]}
{"id": "C43", "title": "Int64, Int32, ID32 and Bool survive JSON and reject out-of-range numbers", "statement": "UnmarshalJSON(MarshalJSON(v)) = v for every value, bare or quoted; a decimal number outside the type's range, or a non-number, is rejected and leaves the destination unchanged.", "quantifier": "all values of each type, all byte strings", "why_tests_cant": "full value range and all strings", "anchors": ["types.go:Int64", "types.go:Int32", "id.go:ID32", "types.go:Bool"]}
{"id": "C44", "title": "Int64, Int32, ID32, Bool survive Value/Scan; narrowing is modular", "statement": "Scan(Value(v)) = v for every value in a fresh destination (zero maps to NULL); Scan of a wider integer stores it modulo the type's width, i.e. is exact iff the integer is in range.", "quantifier": "all values, all scannable integers", "why_tests_cant": "full value range", "anchors": ["types.go:Scan", "types.go:Value", "id.go:ID32"]}
{"id": "C45", "title": "Scan rejects integers that do not fit", "statement": "Scanning a database integer outside the range of the destination type returns an error.", "quantifier": "all int64 driver values", "why_tests_cant": "boundary values", "anchors": ["types.go:Int32.Scan", "id.go:ID32.Scan", "types.go:Int64.Scan"]}
{"id": "C46", "title": "UUID.Scan renders 16 bytes injectively in the SQL Server byte order", "statement": "For every 16-byte value Scan yields the 36-character upper-case mixed-endian text form, different bytes give different texts; strings are taken verbatim and survive Value/Scan.", "quantifier": "all 16-byte values", "why_tests_cant": "2^128 values", "anchors": ["types.go:UUID.Scan", "types.go:UUID.Value"]}
{"id": "C47", "title": "UUID.Scan rejects byte slices that are not 16 bytes", "statement": "Scan of a byte slice of another length returns an error.", "quantifier": "all byte slices", "why_tests_cant": "the error is built from a nil error", "anchors": ["types.go:UUID.Scan"]}
{"id": "C48", "title": "Metadata.Merge/KVSet.Merge are right-biased unions", "statement": "After n.Merge(m): every key of m has m's value, every other key keeps n's value, nothing else is present; merging is associative and idempotent and m is unchanged.", "quantifier": "all maps, including nil", "why_tests_cant": "unbounded maps", "anchors": ["types.go:Metadata.Merge", "types.go:KVSet.Merge"]}
{"id": "C49", "title": "Metadata.OrderedPairs is a sorted, lossless listing", "statement": "OrderedPairs lists each key followed by its value in ascending key order and two maps with equal listings are equal.", "quantifier": "all maps, all map iteration orders", "why_tests_cant": "map iteration order is nondeterministic", "anchors": ["types.go:OrderedPairs", "types.go:RangeOrdered"]}
{"id": "C50", "title": "Time: milliseconds round trip and truncation", "statement": "FromUnixMilli(t).UnixMilli() = t; UTC/Add/ParseTime truncate to milliseconds, are idempotent, never move a time forward nor back by a millisecond or more.", "quantifier": "all int64 millisecond values in Go's representable range, all instants", "why_tests_cant": "sign/rounding at negative times", "anchors": ["time.go:FromUnixMilli", "time.go:UnixMilli", "time.go:UTC", "time.go:Add"]}
{"id": "C51", "title": "ParseTime(t.String()) is t truncated to milliseconds", "statement": "For every non-zero UTC instant in years 0..9999, ParseTime(String(t)) equals t truncated to milliseconds; the zero time prints as the empty string and parses back to zero.", "quantifier": "all instants of years 0..9999", "why_tests_cant": "the parser is selected by string length, which depends on how many fractional digits are printed", "anchors": ["time.go:ParseTime", "time.go:String"]}
{"id": "C52", "title": "Time.Scan of a string reports unparsable input", "statement": "Scan of a string that is not a time returns an error instead of silently storing the zero time.", "quantifier": "all strings", "why_tests_cant": "all malformed inputs", "anchors": ["time.go:Scan", "time.go:ParseTime"]}
{"id": "C53", "title": "Not-found classification survives wrapping", "statement": "IsNotFoundError(CheckNotFoundError(err, table, id)) = IsNotFoundError(err) for every error chain; CheckNotFoundError is nil iff err is nil; the original error remains reachable via errors.Is; ErrorNotFound equality is by table and ID.", "quantifier": "all error chains built from sentinels, wrappers with messages, joins and ErrorNotFound", "why_tests_cant": "unbounded wrapping depth", "anchors": ["types.go:CheckNotFoundError", "types.go:IsNotFoundError", "types.go:ErrorNotFound.Is"]}
{"id": "C54", "title": "Merge never overwrites with empty xdb values", "statement": "For fields of type Time, ID and NULLString, Merge(dst, src) sets the field to src's value when that is non-zero and leaves dst's value otherwise; merging is idempotent.", "quantifier": "all field values and record widths", "why_tests_cant": "all combinations of zero/non-zero fields", "anchors": ["merge.go:Transformer", "merge.go:Merge"]}
{"id": "C55", "title": "QueryParams.Name distinguishes parameter shapes", "statement": "Two fresh builders for the same query name without null columns have equal Name() iff they have the same set positions, the same enum list, the same flags and the same paging kind.", "quantifier": "all builder call sequences", "why_tests_cant": "name encoding must be injective over unbounded lists", "anchors": ["params.go:Name"]}
{"id": "C56", "title": "Different null-column sets give different names", "statement": "Builders whose null-column sets differ have different Name() (up to hash collisions of the 64-bit hash on distinct inputs).", "quantifier": "all null-column lists", "why_tests_cant": "needs particular column names", "anchors": ["params.go:Name", "params.go:SetNullColums"]}
{"id": "C57", "title": "Name always reflects the current parameters", "statement": "Name() called after further Set/SetEnum/SetFlags/SetPage calls reflects them.", "quantifier": "all call sequences with Name() calls anywhere", "why_tests_cant": "depends on when Name() was first called", "anchors": ["params.go:Name"]}
{"id": "C58", "title": "IsSet/GetEnum/Args report exactly what was set", "statement": "IsSet(p) is true iff Set, SetEnum or SetCursor was called with p (p <= 63), false for every other position including those above 63; GetEnum returns the first value set for p; Args() is the arguments in call order with cursor, limit (and offset) last; a call after paging was set panics and changes nothing.", "quantifier": "all call sequences, all positions in uint32", "why_tests_cant": "unbounded call sequences, shift counts above 63", "anchors": ["params.go:Set", "params.go:IsSet", "params.go:SetEnum", "params.go:SetPage", "params.go:SetCursor"]}
{"id": "C59", "title": "Reset makes the builder as good as new", "statement": "After Reset() the builder behaves as NewQueryParams(queryName).", "quantifier": "all prior call sequences", "why_tests_cant": "depends on which setters were used before", "anchors": ["params.go:Reset"]}
{"id": "C60", "title": "Offset paging visits every row exactly once and terminates", "statement": "Starting at offset 0 with a positive limit and following (hasNextPage, nextOffset) until hasNextPage is false, the concatenated pages are the whole result in order, provided the database applies LIMIT/OFFSET to a fixed result of fewer than 2^32 rows.", "quantifier": "all result sets and page sizes", "why_tests_cant": "off-by-one at exact multiples; unbounded tables", "anchors": ["query.go:ExecuteQueryWithPagination", "params.go:SetPage"]}
{"id": "C61", "title": "A list query without paging does not claim a next page", "statement": "ExecuteQueryWithPagination reports hasNextPage = false when no limit was given.", "quantifier": "all argument lists without paging", "why_tests_cant": "needs the one-argument or empty-argument call shapes", "anchors": ["query.go:ExecuteQueryWithPagination"]}
{"id": "C62", "title": "A list query that fails mid-way returns an error", "statement": "ExecuteListQuery returns an error whenever the iteration over rows stopped because of an error; it never returns a truncated list with a nil error.", "quantifier": "all failure points", "why_tests_cant": "needs a connection failure in the middle of a result set", "anchors": ["query.go:ExecuteListQuery"]}
{"id": "C63", "title": "ExecuteListQuery returns every row in order and always releases the rows", "statement": "When iteration succeeds the list is the scanned rows in order; on a scan error it returns nil and the error; rows are closed exactly once in all cases.", "quantifier": "all row lists and scan error points", "why_tests_cant": "quantifies over the failure point", "anchors": ["query.go:ExecuteListQuery", "query.go:ExecuteQuery"]}
{"id": "C64", "title": "Cursor encoding is invertible and URL-safe", "statement": "base64 cursor text decodes to exactly the encoded bytes, contains only URL-safe characters, and corrupted alphabets or lengths are rejected.", "quantifier": "all byte strings", "why_tests_cant": "all lengths modulo 3", "anchors": ["query.go:EncodeCursor", "query.go:DecodeCursor"]}
{"id": "C65", "title": "Dependency discovery terminates and lists exactly the reachable tables", "statement": "ListTables with dependencies returns the requested tables and exactly the tables reachable from them over foreign keys, each once, for every (cyclic or not) foreign-key graph and every map iteration order.", "quantifier": "all finite foreign-key graphs and iteration orders", "why_tests_cant": "cycles and map order", "anchors": ["schema/provider.go:discover", "schema/provider.go:ListTables"]}
{"id": "C66", "title": "Listings are sorted and filtered", "statement": "ListTables, ListViews and ListForeignKeys return results sorted by schema-qualified name and only for the requested schema and table names; with no filter all are returned.", "quantifier": "all catalogs, filters and map iteration orders", "why_tests_cant": "map order", "anchors": ["schema/provider.go:ListTables", "schema/provider.go:ListViews", "schema/schema.go:Sort"]}
{"id": "C67", "title": "Repeated listings on one provider are independent", "statement": "Calling ListTables twice on one provider gives the same result as on a fresh provider.", "quantifier": "all catalogs and call sequences", "why_tests_cant": "depends on provider history", "anchors": ["schema/provider.go:ListTables"]}
{"id": "C68", "title": "TableInfo column strings round trip", "statement": "AllColumns() lists the columns in order; AliasedColumns(prefix, nulls) has one item per column in the same order, NULL-ing exactly the requested ones.", "quantifier": "all column lists, prefixes and null sets", "why_tests_cant": "unbounded lists", "anchors": ["schema/schema.go:AllColumns", "schema/schema.go:AliasedColumns"]}
{"id": "C69", "title": "Nullable columns are generated with NULL-safe Go types", "statement": "For every supported column type, a nullable column maps to a Go type whose Scan accepts NULL; the mapping is total on the types it lists and falls back deterministically.", "quantifier": "all column type names, nullability and widths", "why_tests_cant": "all strings", "anchors": ["internal/cli/schema/types.go:toGoType"]}
{"id": "C70", "title": "Generated ScanRow matches the generated column list", "statement": "The generated struct, TableInfo.Columns and ScanRow enumerate the same columns in the same order for every table.", "quantifier": "all tables", "why_tests_cant": "unbounded tables; two independent filters must agree", "anchors": ["internal/cli/schema/template.go", "internal/cli/schema/schema.go"]}
{"id": "C71", "title": "Transaction life cycle", "statement": "BeginTx on a transaction fails and leaves it usable; Commit/Rollback without a transaction fail; after Commit, Rollback and Close are no-ops returning nil; closing a transaction never closes the connection of its parent; queries go to the transaction iff the provider is one.", "quantifier": "all sequences of provider operations on a provider and its transactions", "why_tests_cant": "unbounded operation sequences", "anchors": ["prov.go:BeginTx", "prov.go:Close", "prov.go:Commit", "prov.go:Rollback"]}
{"id": "C72", "title": "Closing a provider is safe while the keep-alive runs", "statement": "Under every schedule of the keep-alive goroutine, Close never leads to a panic and the goroutine terminates.", "quantifier": "all interleavings of ticks and Close", "why_tests_cant": "race between ticker and Close", "anchors": ["prov.go:keepAlive", "prov.go:Close"]}
{"id": "C73", "title": "Open selects the requested database", "statement": "Open(dataSource, database) connects to the given database for every well-formed postgres or sqlserver data source.", "quantifier": "all data sources with or without query strings, and all names", "why_tests_cant": "depends on the form of the data source", "anchors": ["db.go:Open", "db.go:ParseConnectionString"]}
{"id": "C74", "title": "Notifications reach the listener in order", "statement": "A single Listen callback receives every notification of its channel once and in order, and a nil notification (reconnect) is not delivered as data.", "quantifier": "all notification sequences", "why_tests_cant": "quantifies over schedules", "anchors": ["pkg/notifier/listener.go"]}
{"id": "C75", "title": "Notifications are routed to the channel's own callback", "statement": "With several Listen calls each callback receives exactly its channel's notifications.", "quantifier": "all interleavings of several listeners", "why_tests_cant": "race between goroutines on one channel", "anchors": ["pkg/notifier/listener.go"]}
{"id": "C76", "title": "Migrate applies the configured version decisions", "statement": "Migrate forces the version iff configured, runs to the given version or up otherwise, treats 'no change' as success and propagates other failures.", "quantifier": "all configurations and migration outcomes", "why_tests_cant": "all combinations of failure points", "anchors": ["migrate/migrate.go:Migrate"]}
{"id": "C77", "title": "Closing a statement twice does not disturb other statements", "statement": "Calling Close() again on a statement that was already closed either panics or has no effect on any other statement's String(), Args() or Dest().", "quantifier": "all programs over statements and the shared pool, including stale references", "why_tests_cant": "shows only when the pool hands the object out between the two calls", "anchors": ["xsql/pool.go:reuseStmt", "xsql/pool.go:getStmt", "xsql/stmt.go:Close"]}
{"id": "C78", "title": "FirstID and LastID report the first and the latest ID", "statement": "FirstID(g) is the ID NewIDGenerator drew and never changes; LastID(g) is the ID returned by the latest successful NextID.", "quantifier": "all call histories and clocks", "why_tests_cant": "must hold after any history, including panicking calls", "anchors": ["pkg/flake/flake.go:FirstID", "pkg/flake/flake.go:LastID", "pkg/flake/flake.go:NewIDGenerator"]}
{"id": "C79", "title": "NewIDGenerator accepts exactly the documented settings", "statement": "NewIDGenerator panics iff StartTime is ahead of the clock, MachineID fails, CheckMachineID rejects the machine ID, or the elapsed time exceeds the time field; otherwise the generator has exactly the given start time and machine ID.", "quantifier": "all settings and clock readings", "why_tests_cant": "ranges over all settings and clocks", "anchors": ["pkg/flake/flake.go:NewIDGenerator"]}
{"id": "C80", "title": "Default machine IDs of different hosts are different", "statement": "Two hosts with different addresses get different default machine IDs.", "quantifier": "all pairs of hosts and their interface addresses", "why_tests_cant": "depends on the deployment's network", "anchors": ["pkg/flake/flake.go:defaultMachineID"]}
{"id": "C81", "title": "ParseID's result is determined by the Go specification", "statement": "Under every order of evaluation the Go specification allows, a successful ParseID(s) returns the ID parsed from s.", "quantifier": "every string and both evaluation orders of `return id, id.Set(val)`", "why_tests_cant": "A test observes only the order chosen by one compiler version; the Go specification leaves the order of a variable read and a function call unspecified.", "anchors": ["id.go:ParseID"]}
{"id": "C82", "title": "Equal IDs print equally", "statement": "Two IDs with the same UInt64 have the same String, UnderscoreString and QuotedString. A valid ID prints its decimal digits (UnderscoreString: after an underscore), an invalid one nothing.", "quantifier": "every pair of IDs reachable by any sequence of API operations", "why_tests_cant": "It ranges over all histories that produced the two IDs.", "anchors": ["id.go:ID.String", "id.go:ID.QuotedString", "id.go:ID.UnderscoreString", "id.go:ID.Reset"]}
{"id": "C83", "title": "IDArrayFromStrings inverts Strings", "statement": "For every duplicate-free list of valid IDs, IDArrayFromStrings(a.Strings()) has the same uint64 list as a; invalid strings are skipped.", "quantifier": "every duplicate-free list of valid IDs built without JSON decoding", "why_tests_cant": "It must hold for every list length and every uint64.", "anchors": ["id.go:IDArrayFromStrings", "id.go:IDArray.Strings"]}
{"id": "C84", "title": "ID survives YAML", "statement": "UnmarshalYAML of the value produced by MarshalYAML restores the same uint64 in any destination, and validity is preserved.", "quantifier": "every reachable ID and every destination; the YAML codec of a uint64 is assumed lossless", "why_tests_cant": "It must hold for all 2^64 values and all destinations.", "anchors": ["id.go:ID.MarshalYAML", "id.go:ID.UnmarshalYAML"]}
{"id": "C85", "title": "JSON null is accepted", "statement": "UnmarshalJSON of null succeeds for ID, ID32, Int64, Int32, Bool, Float and Time (as encoding/json's convention asks), leaving the destination unchanged or zero.", "quantifier": "every destination value", "why_tests_cant": "A universally quantified convention between library and encoding/json; tests only fix sample destinations.", "anchors": ["id.go:ID.UnmarshalJSON", "id.go:ID32.UnmarshalJSON", "types.go:Int64.UnmarshalJSON", "types.go:Int32.UnmarshalJSON", "types.go:Bool.UnmarshalJSON", "time.go:Time.UnmarshalJSON"]}
{"id": "C86", "title": "NULLString and Float survive Value/Scan", "statement": "Scan(Value(v)) = v for every NULLString into any destination and for every float64 bit pattern except minus zero into a fresh one; the empty string and the zeroes map to NULL.", "quantifier": "every string, every float64 bit pattern (NaNs included), every destination", "why_tests_cant": "Holds for all 2^64 bit patterns and all strings.", "anchors": ["types.go:NULLString.Scan", "types.go:NULLString.Value", "types.go:Float.Scan", "types.go:Float.Value"]}
{"id": "C87", "title": "Float survives JSON", "statement": "UnmarshalJSON(MarshalJSON(v)) = v for every finite Float.", "quantifier": "every finite float64 m*2^e", "why_tests_cant": "All 2^64 values; the failing ones are those not nearest to a decimal with six fractional digits.", "anchors": ["types.go:Float.MarshalJSON", "types.go:Float.UnmarshalJSON"]}
{"id": "C88", "title": "errors.Is distinguishes not-found errors of different records", "statement": "errors.Is(err, NewErrorNotFound(_, table, id)) holds exactly when the chain of err holds an ErrorNotFound with that table and that ID.", "quantifier": "every error chain, table and ID", "why_tests_cant": "Ranges over all chains and all strings.", "anchors": ["types.go:ErrorNotFound.Is", "types.go:ErrorNotFound.Error"]}
{"id": "C89", "title": "Time survives JSON", "statement": "For every instant of the years 0..9999, UnmarshalJSON(MarshalJSON(t)) stores t to the nanosecond, whatever the destination held; outside these years MarshalJSON returns an error. Empty text (quoted or not, with nothing around it) clears the destination; blanks around any other value make no difference; anything that is not a quoted string, except null, is an error and changes nothing.", "quantifier": "every instant, every previous value of the destination", "why_tests_cant": "all instants, including those whose fraction has trailing zeros", "anchors": ["time.go:MarshalJSON", "time.go:UnmarshalJSON"]}
{"id": "C90", "title": "Time survives Value/Scan", "statement": "Scan(Value(t)) stores exactly t; Value is NULL exactly for the zero time.", "quantifier": "every instant, every previous value of the destination", "why_tests_cant": "all instants", "anchors": ["time.go:Value", "time.go:Scan"]}
{"id": "C91", "title": "ParseTime reads dates, date-times and RFC 3339 texts with any offset", "statement": "ParseTime of YYYY-MM-DD, of YYYY-MM-DD hh:mm:ss and of an RFC 3339 text with up to three fraction digits and any zone offset is the instant the text denotes in the Gregorian calendar, in UTC.", "quantifier": "every calendar day of years 0..9999, every time of day, millisecond and offset", "why_tests_cant": "the layout is selected by text length; every date and offset must work, including leap days and offsets that change the date", "anchors": ["time.go:ParseTime"]}
{"id": "C92", "title": "String prints the Gregorian UTC date and time in milliseconds", "statement": "String of a non-zero instant in years 0..9999 is the Gregorian date, the time of day, the milliseconds without trailing zeros, and Z; two instants print alike only if they agree to the millisecond.", "quantifier": "every instant of years 0..9999", "why_tests_cant": "all days of the calendar", "anchors": ["time.go:String", "time.go:DefaultTimeFormat"]}
{"id": "C93", "title": "Name tells a paged query from an unpaged one", "statement": "Two builders whose Args() differ in number of arguments because one of them has a page set have different Name().", "quantifier": "all builder programs and pages", "why_tests_cant": "only visible for particular offsets", "anchors": ["params.go:Name", "params.go:SetPage"]}
{"id": "C94", "title": "Name() only reads the builder", "statement": "Calling Name() changes nothing a caller can observe through the other methods.", "quantifier": "all builder programs", "why_tests_cant": "depends on the state at the time of the call", "anchors": ["params.go:Name"]}
{"id": "C95", "title": "Cursor paging visits every row exactly once and terminates", "statement": "Following hasNextPage with the last row's key as the cursor, the pages put together are the whole result, when keys are strictly increasing and the database returns rows above the cursor.", "quantifier": "all result sets, keys and page sizes", "why_tests_cant": "off-by-one at exact multiples; unbounded tables", "anchors": ["query.go:ExecuteQueryWithCursor", "params.go:SetCursor"]}
{"id": "C96", "title": "A cursor text has one spelling", "statement": "A text accepted by the cursor decoding is the encoding of what it decodes to.", "quantifier": "all strings", "why_tests_cant": "all strings", "anchors": ["query.go:DecodeCursor"]}
{"id": "C97", "title": "List queries pass text and arguments through unchanged", "statement": "The database receives the query text unchanged and exactly the builder's Args() (single QueryParams argument) or the given arguments, once.", "quantifier": "all databases, texts, builders and argument lists", "why_tests_cant": "all argument shapes", "anchors": ["query.go:ExecuteQueryWithPagination", "query.go:ExecuteQueryWithCursor", "query.go:ExecuteQuery"]}
{"id": "C98", "title": "Catalog failures are never taken for an empty answer", "statement": "Whenever ListTables, ListViews or ListForeignKeys return a list without error, every catalog query they depended on (tables, columns and indexes of every wanted table, foreign keys and columns of dependencies) succeeded and was read to its end.", "quantifier": "all catalogs, including ones failing at any query, row or at the end of iteration; all filters; all map orders", "why_tests_cant": "requires every failure position of every query", "anchors": ["schema/provider.go:ListTables", "schema/provider.go:ListViews", "schema/provider.go:ListForeignKeys", "schema/provider.go:readColumnsSchema", "schema/provider.go:readIndexesSchema"]}
{"id": "C99", "title": "A listed table is what the catalog says", "statement": "Each listed table has exactly the catalog's columns, once each, ordered by ordinal position; a column carries an index iff the index is over it; PrimaryKey is the column of a single-column primary index and is set whenever there is one.", "quantifier": "all consistent catalogs, all earlier uses of the provider", "why_tests_cant": "ranges over all catalogs", "anchors": ["schema/provider.go:ListTables", "schema/provider.go:readColumnsSchema", "schema/provider.go:readIndexesSchema"]}
{"id": "C100", "title": "Listing never panics", "statement": "ListTables never panics on a catalog whose queries succeed.", "quantifier": "all catalogs", "why_tests_cant": "depends on names in the catalog", "anchors": ["schema/provider.go:ListTables"]}
{"id": "C101", "title": "Dependencies are described like listed tables", "statement": "A table returned because a requested table refers to it carries the same description as if it had been requested.", "quantifier": "all catalogs and foreign-key graphs", "why_tests_cant": "depends on the discovery path", "anchors": ["schema/provider.go:discoverTable"]}
{"id": "C102", "title": "The maximum length of a column is that of the catalog", "statement": "Column.MaxLength equals the catalog's character_maximum_length.", "quantifier": "all columns", "why_tests_cant": "all integer values", "anchors": ["schema/provider.go:maxLength"]}
{"id": "C103", "title": "The column query asks for the named table", "statement": "The catalog query for the columns of a table compares schema and table with exactly the given names.", "quantifier": "all names", "why_tests_cant": "all strings", "anchors": ["schema/postgres.go:QueryColumns", "schema/sqlserver.go:QueryColumns"]}
{"id": "C104", "title": "Select() of a TableInfo names every column", "statement": "TableInfo.Select() builds SELECT <all columns in order> FROM <schema.table> with no arguments, in every dialect.", "quantifier": "all tables with plain names, all dialects, every recycled builder", "why_tests_cant": "all tables", "anchors": ["schema/schema.go:Select", "schema/schema.go:AllColumns"]}
{"id": "C105", "title": "The primary key of a generated TableInfo is one of its columns", "statement": "For every generated TableInfo, PrimaryKey is empty or one of Columns.", "quantifier": "all tables and drop lists", "why_tests_cant": "two independent computations, all inputs", "anchors": ["internal/cli/schema/schema.go:generate"]}
{"id": "C106", "title": "A generated package declares every name once", "statement": "The files written to one directory do not declare the same Go identifier twice, so the generated package compiles.", "quantifier": "all sets of tables and schemas and all flags", "why_tests_cant": "all inputs; depends on accumulation across schemas", "anchors": ["internal/cli/schema/schema.go:generate", "internal/cli/schema/template.go"]}
{"id": "C107", "title": "A failing generation damages nothing", "statement": "generate writes only the model and schema files of the given schemas; a run that fails leaves existing files as they were.", "quantifier": "all inputs, all existing files", "why_tests_cant": "all failure points", "anchors": ["internal/cli/schema/schema.go:generate"]}
{"id": "C108", "title": "Definitions affect exactly the runs they are given to", "statement": "Type, field and table definitions are applied whatever their order in the file, and a run without definitions is not affected by earlier runs.", "quantifier": "all definition files and sequences of runs", "why_tests_cant": "package-level state, all histories", "anchors": ["internal/cli/schema/types.go:typesMap", "internal/cli/schema/schema.go:generate"]}
{"id": "C109", "title": "Generation is deterministic", "statement": "The same tables and flags give the same files, whatever the order in which Go ranges over its map of schemas.", "quantifier": "all inputs and all map orders", "why_tests_cant": "map iteration order is random", "anchors": ["internal/cli/schema/schema.go:generate"]}
{"id": "C110", "title": "Generated results carry the cursor of the last row iff there is a next page", "statement": "After SetResultWithCursor the result has the given rows and flag, and its cursor is that of the last row if there is a next page and empty otherwise.", "quantifier": "all row types, rows and cursor functions, all earlier contents", "why_tests_cant": "all histories of a result", "anchors": ["internal/cli/schema/template.go:SetResultWithCursor"]}
{"id": "C111", "title": "Generated ScanRow reads the catalog's columns in position order", "statement": "For every catalog, the generate command writes for each requested table a struct whose Scan destinations are the table's columns, except the dropped ones, in the order of their positions.", "quantifier": "all catalogs, filters and drop lists", "why_tests_cant": "all catalogs; composition of discovery and generation", "anchors": ["internal/cli/schema/schema.go:Run", "schema/provider.go:ListTables"]}
{"id": "C112", "title": "A closed provider answers with errors", "statement": "After Close, queries on the provider fail with an error, another Close does nothing, transactions already begun go on, and BeginTx fails with an error.", "quantifier": "all histories of operations", "why_tests_cant": "depends on the whole history", "anchors": ["prov.go:Close", "prov.go:BeginTx"]}
{"id": "C113", "title": "A transaction provider describes the same database", "statement": "Name, ID generator and ConnectionString of the provider returned by BeginTx equal those of the provider it was called on.", "quantifier": "all histories", "why_tests_cant": "all histories", "anchors": ["prov.go:BeginTx", "prov.go:ConnectionString"]}
{"id": "C114", "title": "NewProvider releases what it opened when it fails", "statement": "NewProvider performs open, ping, migration (iff a source is configured) and keep-alive in this order, succeeds iff each succeeds, and closes the connection on failure.", "quantifier": "all combinations of failures", "why_tests_cant": "all failure points", "anchors": ["db.go:NewProvider", "db.go:Open"]}
{"id": "C115", "title": "Closing a listener ends its goroutines", "statement": "A Listen goroutine ends when its context is done and its callback gets nothing after that; Close of the listener ends them too.", "quantifier": "all schedules", "why_tests_cant": "race of goroutines", "anchors": ["pkg/notifier/listener.go:Listen", "pkg/notifier/listener.go:Close"]}
{"id": "C116", "title": "The command line tool talks to the requested database", "statement": "Cli.DB(name) returns an open connection to name; SchemaProvider(name) one whose connection is open.", "quantifier": "all sequences of DB, SchemaProvider and Close", "why_tests_cant": "all sequences", "anchors": ["internal/cli/cli.go:DB", "internal/cli/cli.go:SchemaProvider", "internal/cli/cli.go:Close"]}
{"id": "C117", "title": "ParseConnectionString reports the selected database", "statement": "The Database of a parsed data source is the one the connection uses: its dbname or database parameter or the path, and the name given to Open.", "quantifier": "all data sources", "why_tests_cant": "all strings", "anchors": ["db.go:ParseConnectionString", "db.go:Open"]}
{"id": "C118", "title": "Metadata survives storing and scanning", "statement": "Scanning into a nil Metadata the value that Metadata.Value produced gives a map with the same keys and values; an empty map is stored as NULL and NULL scans to nil.", "quantifier": "all maps of byte strings, as string or []byte column", "why_tests_cant": "keys and values are arbitrary byte strings and every escape of the JSON encoder is involved", "anchors": ["types.go:Metadata.Value", "types.go:Metadata.Scan"]}
{"id": "C119", "title": "Metadata.Scan replaces what was in the destination", "statement": "After Scan the destination holds exactly the entries of the column, whatever it held before.", "quantifier": "all previous contents and all columns", "why_tests_cant": "ranges over the history of the destination", "anchors": ["types.go:Metadata.Scan"]}
{"id": "C120", "title": "KVSet survives storing and scanning", "statement": "Scanning the value KVSet.Value produced gives the same keys and lists, telling nil and empty lists apart, and replaces what was there.", "quantifier": "all maps from byte strings to lists of byte strings, and all previous contents", "why_tests_cant": "arbitrary nesting and contents", "anchors": ["types.go:KVSet.Value", "types.go:KVSet.Scan"]}
{"id": "C121", "title": "Strings survives storing and scanning", "statement": "Scanning the value Strings.Value produced gives the same list, whatever was in the destination and whether the driver hands over a string or a []byte.", "quantifier": "all lists of byte strings, all previous contents, both forms of the column", "why_tests_cant": "arbitrary contents and destination history", "anchors": ["types.go:Strings.Scan", "types.go:Strings.Value"]}
{"id": "C122", "title": "Scanning a row does not change values scanned before", "statement": "A Metadata or Strings value copied out of a variable keeps its contents when the variable is scanned into again.", "quantifier": "all heaps, variables and columns", "why_tests_cant": "depends on sharing of maps and arrays across a history of scans", "anchors": ["types.go:Metadata.Scan", "types.go:Strings.Scan"]}
{"id": "C123", "title": "Cursor values survive encoding and decoding", "statement": "DecodeCursor(EncodeCursor(m)) gives back the keys and values of m.", "quantifier": "all maps of JSON-like values, nested to any depth", "why_tests_cant": "arbitrary nesting, strings and integers", "anchors": ["query.go:EncodeCursor", "query.go:DecodeCursor"]}
{"id": "C124", "title": "A failed Scan leaves the destination alone", "statement": "When Scan of Metadata or Strings reports an error, the destination is what it was before.", "quantifier": "all columns and destinations", "why_tests_cant": "all malformed and mistyped texts", "anchors": ["types.go:Metadata.Scan", "types.go:Strings.Scan"]}
{"id": "C125", "title": "The stored text of a map is canonical", "statement": "Two Metadata (or KVSet) with the same entries are stored as the same text, whatever the iteration order, and Metadata maps of text with different entries as different texts.", "quantifier": "all maps and all iteration orders", "why_tests_cant": "map iteration order is random", "anchors": ["types.go:Metadata.Value", "types.go:KVSet.Value"]}
{"id": "C126", "title": "A NextID call blocks for at most a millisecond", "statement": "NextID never sleeps longer than to the start of the next millisecond.", "quantifier": "all call histories and clocks", "why_tests_cant": "depends on bursts and on the history of the clock", "anchors": ["pkg/flake/flake.go:NextID", "pkg/flake/flake.go:sleepTime"]}
{"id": "C127", "title": "Concurrent String() and GetOrCreateQuery return what they return alone", "statement": "Goroutines that share one dialect and each call String() on their own statement, or GetOrCreateQuery with their own callback, get in every interleaving exactly the text they would get if they were the only caller, provided that calls using the same query name (or the same unnamed text) would get the same text when alone; no call waits for another.", "quantifier": "every number of goroutines, every statement and query name, every interleaving of their accesses to the shared cache, every earlier content of the cache", "why_tests_cant": "Interleavings are unbounded; a race detector samples a few schedules.", "anchors": ["xsql/stmt.go:Stmt.String", "xsql/cache.go:GetOrCreateQuery", "xsql/cache.go:GetCachedQuery"]}
{"id": "C128", "title": "GetOrCreateQuery gives every caller of a name the same text and creates it once", "statement": "Whatever the schedule, all callers of GetOrCreateQuery with one name receive one text and the callback is called once.", "quantifier": "every dialect, name, set of concurrent callers with arbitrary callbacks, every schedule", "why_tests_cant": "The failing schedules are those where both callers miss the cache before either stores.", "anchors": ["xsql/cache.go:GetOrCreateQuery", "xsql/stmt.go:Stmt.String"]}
{"id": "C129", "title": "AllColumns of a TableInfo may be called from several goroutines", "statement": "A TableInfo (generated as a package variable) can be shared: every concurrent AllColumns or Select returns the list of columns.", "quantifier": "every TableInfo with columns, every number of goroutines, every interleaving of word reads and writes", "why_tests_cant": "The torn read needs a particular interleaving of two word stores and two word loads.", "anchors": ["schema/schema.go:TableInfo.AllColumns", "schema/schema.go:TableInfo.Select"]}
{"id": "C130", "title": "String of copies of one ID may be called from several goroutines", "statement": "An ID is a value: copies of it handed to several goroutines can be printed there and all print the number.", "quantifier": "every ID, every number of goroutines, every interleaving of word reads and writes", "why_tests_cant": "The torn read needs a particular interleaving.", "anchors": ["id.go:idptr.String", "id.go:ID.String", "id.go:NewID"]}
{"id": "C131", "title": "A listing releases every result set it opened", "statement": "When ListTables, ListViews or ListForeignKeys returns, with a result or an error, no result set (and so no pooled connection) it opened is still open.", "quantifier": "every catalog content, filter, provider history and point at which a query, a scan or the iteration fails", "why_tests_cant": "The leak depends on where in nested iterations a failure happens.", "anchors": ["schema/provider.go:ListTables", "schema/provider.go:ListViews", "schema/provider.go:ListForeignKeys", "schema/provider.go:readColumnsSchema", "schema/provider.go:readIndexesSchema"]}
{"id": "C132", "title": "Listings work over a single connection", "statement": "ListTables, ListViews and ListForeignKeys need only one connection at a time, so they work on a transaction's provider and with a pool limited to one connection.", "quantifier": "every catalog, filter and provider history", "why_tests_cant": "It is about the maximum over all moments of all runs.", "anchors": ["schema/provider.go:ListTables", "schema/provider.go:readColumnsSchema", "schema/provider.go:discover"]}
{"id": "C133", "title": "schema tables and views print the listing", "statement": "In text mode the commands 'schema tables' and 'schema views' print exactly one line schema.name per listed table, in the order of the listing, and nothing else; with --views the tables come first and then the views.", "quantifier": "every catalog content, filter and answer of the database", "why_tests_cant": "Catalogs are unbounded.", "anchors": ["internal/cli/schema/schema.go:PrintTablesCmd.Run", "internal/cli/schema/schema.go:PrintViewsCmd.Run"]}
{"id": "C134", "title": "Printed lines identify the tables", "statement": "Different listings print different texts, so the printed lines identify the tables.", "quantifier": "every pair of listings", "why_tests_cant": "It compares all pairs of catalogs.", "anchors": ["internal/cli/schema/schema.go:PrintTablesCmd.Run"]}
{"id": "C135", "title": "-o json prints one JSON document that decodes to the listing", "statement": "With -o json every schema command prints one JSON document, and decoding it gives back the listing.", "quantifier": "every catalog content", "why_tests_cant": "Names and types are arbitrary strings.", "anchors": ["internal/cli/cli.go:WriteJSON", "internal/cli/schema/schema.go:PrintColumnsCmd.Run", "internal/cli/schema/schema.go:PrintFKCmd.Run"]}
{"id": "C136", "title": "Success means everything was written", "statement": "When a schema command returns no error, its whole output was written.", "quantifier": "every listing and every point at which the writer fails", "why_tests_cant": "The failure may happen at any byte.", "anchors": ["internal/cli/schema/schema.go:PrintTablesCmd.Run", "internal/cli/cli.go:WriteJSON"]}
{"id": "C137", "title": "A failed listing is reported and nothing is printed", "statement": "When the database fails the command returns the error and prints nothing.", "quantifier": "every failure point of every catalog", "why_tests_cant": "It ranges over all failure points.", "anchors": ["internal/cli/schema/schema.go:PrintColumnsCmd.Run", "internal/cli/schema/schema.go:PrintTablesCmd.Run"]}
{"id": "C138", "title": "Text tables say what was listed", "statement": "The text of 'schema columns' and 'schema foreign_keys' has one row per listed column, index or key, and the cells of a row determine it.", "quantifier": "every listing", "why_tests_cant": "Listings are unbounded.", "anchors": ["pkg/print/print.go:Print", "internal/cli/schema/schema.go:PrintColumnsCmd.Run"]}
{"id": "C139", "title": "An unknown output format is rejected", "statement": "A command called with an output format that does not exist fails.", "quantifier": "every format name", "why_tests_cant": "Format names are arbitrary strings.", "anchors": ["internal/cli/cli.go:Print"]}
{"id": "C140", "title": "The data source is the flag, else the environment, else an error", "statement": "The command line tool connects to the --sql-source if it is given, else to XDB_DATASOURCE if it is set, and fails otherwise.", "quantifier": "every flag and environment", "why_tests_cant": "Both are arbitrary strings.", "anchors": ["internal/cli/cli.go:DB"]}
{"id": "C141", "title": "Running a statement sends its text and arguments; AndClose releases it exactly once", "statement": "Exec, Query and QueryRow send exactly String() and Args() once; the AndClose variants do and return the same and then release the statement exactly once, also on errors, leaving it clean for the next user.", "quantifier": "every statement, dialect, database answer and row history", "why_tests_cant": "It ranges over all builder programs and all failures.", "anchors": ["xsql/executor.go:Exec", "xsql/executor.go:QueryAndClose", "xsql/executor.go:ExecAndClose", "xsql/executor.go:QueryRowAndClose"]}
{"id": "C142", "title": "Rows are closed and the statement is released however the query ends", "statement": "QueryAndClose closes the rows and releases the statement however it ends: normally, with an error, or by a panic of the handler.", "quantifier": "every statement, result and handler", "why_tests_cant": "The handler may fail on any row.", "anchors": ["xsql/executor.go:Query", "xsql/executor.go:QueryAndClose"]}
{"id": "C143", "title": "BeginTx uses the TxOptions it is given", "statement": "BeginTx(ctx, opts) starts a transaction with the isolation level and read-only mode of opts, and reports a level the driver does not support.", "quantifier": "every options value and driver", "why_tests_cant": "It ranges over drivers and options.", "anchors": ["prov.go:SQLProvider.BeginTx"]}
{"id": "C144", "title": "PageParam is the value of the parameter", "statement": "PageParam of an int, a uint32, or a sql.NamedArg of one is its value; anything else panics.", "quantifier": "every argument", "why_tests_cant": "Values are unbounded and conversions wrap.", "anchors": ["params.go:PageParam"]}
{"id": "C145", "title": "Int32Array keeps the enums", "statement": "Int32Array keeps number, order and values of the enums; different lists give different arrays.", "quantifier": "every list of enums", "why_tests_cant": "Lists and values range over all int32 and uint32 values.", "anchors": ["id.go:Int32Array"]}
{"id": "C146", "title": "A Row may be kept in a variable", "statement": "Rows of an INSERT may be filled by chained calls or by calls on the kept result of NewRow alike.", "quantifier": "every sequence of rows and sets", "why_tests_cant": "The effect depends on the whole history of calls.", "anchors": ["xsql/stmt.go:NewRow", "xsql/stmt.go:SetExpr"]}
{"id": "C147", "title": "Package level functions use the dialect set last", "statement": "The package level functions start statements in the dialect last given to SetDialect (NoDialect before); any implementation of SQLDialect can be set.", "quantifier": "every history of SetDialect calls", "why_tests_cant": "It is about histories.", "anchors": ["xsql/dialect.go:SetDialect", "xsql/stmt.go:Select"]}
{"id": "C148", "title": "String and QuotedString of a string pointer", "statement": "String(p) is the text or empty for nil; QuotedString(p) is the text in quotes, empty for nil, different for different pointers' texts, and a JSON string of the text.", "quantifier": "every text", "why_tests_cant": "Texts are unbounded.", "anchors": ["types.go:String", "types.go:QuotedString"]}
{"id": "C149", "title": "Keys and ranges of Metadata", "statement": "Keys returns every key once; OrderedKeys in order; Range and RangeOrdered call the function on entries of the map, each at most once, in order for RangeOrdered, until it returns false, and on all of them if it never does.", "quantifier": "every map, iteration order and function", "why_tests_cant": "Go's iteration order is random.", "anchors": ["types.go:Metadata.Keys", "types.go:Metadata.OrderedKeys", "types.go:Metadata.Range", "types.go:Metadata.RangeOrdered"]}
{"id": "C150", "title": "A Time is always returned in UTC", "statement": "Everything a Time returns (String, JSON, database value, Ptr, UTC) is in UTC and depends only on the instant; a Time is itself in UTC however it was made, so equal instants are ==.", "quantifier": "every instant and zone", "why_tests_cant": "It ranges over all instants and zones.", "anchors": ["time.go:Time.String", "time.go:Time.MarshalJSON", "time.go:Time.UnmarshalJSON", "time.go:Time.Value", "time.go:Time.Ptr"]}
{"id": "C151", "title": "Arguments of a statement do not depend on how slices are shared, grown or recycled", "statement": "The Args() of every open statement are what the calls on it added, in order, whatever the capacity append chooses, whichever closed statement the pool hands out, and whether arguments come from the call, from a slice of the program, or from Args() of this or another statement; slices of the program are never written to; a slice returned by Args() keeps its contents until its statement is closed or changed before the slice's end.", "quantifier": "every program of New, clauses, Args, Clone and Close over any number of statements; every growth of append and choice of the pool", "why_tests_cant": "Aliasing depends on capacities and pool history that tests do not control.", "anchors": ["xsql/util.go:insertAt", "xsql/pool.go:reuseStmt", "xsql/stmt.go:addChunk", "xsql/stmt.go:Clone", "xsql/stmt.go:Args"]}
{"id": "C152", "title": "ListTables shows the tables of a Postgres database", "statement": "Against a Postgres server, ListTables returns exactly the user's base, partitioned and foreign tables that pass the filter, each with its columns in order, all its indexes with their columns, and its one-column primary key.", "quantifier": "every database schema (tables, columns, indexes, kinds), every order in which the server returns rows, every filter and provider state", "why_tests_cant": "depends on joins of catalog views over arbitrary databases; tests run on one fixture database", "anchors": ["schema/postgres.go: QueryTables, QueryColumns, QueryIndexes", "schema/provider.go: ListTables"]}
{"id": "C153", "title": "ListForeignKeys shows the foreign keys of a Postgres database", "statement": "Against a Postgres server, ListForeignKeys returns for each foreign key exactly the pairs of its columns and the columns they refer to.", "quantifier": "every database schema, every order of rows, every filter", "why_tests_cant": "depends on a three-way join by constraint name over arbitrary databases", "anchors": ["schema/postgres.go: QueryForeignKeys", "schema/provider.go: ListForeignKeys"]}
{"id": "C154", "title": "ListViews shows the views of a Postgres database", "statement": "Against a Postgres server, ListViews returns exactly the user's views that pass the filter, each once, with its columns in order.", "quantifier": "every database schema, every order of rows and of Go's map iteration, every filter", "why_tests_cant": "left join and NULL scanning over arbitrary databases", "anchors": ["schema/postgres.go: QueryViews", "schema/provider.go: ListViews"]}
{"id": "C155", "title": "ListTables shows the tables of a SQL Server database", "statement": "Against SQL Server, ListTables returns exactly the tables that are not shipped by Microsoft and pass the filter, once each, with columns, indexes (columns in key order) and primary key.", "quantifier": "every database schema with extended properties, every order of rows, every filter", "why_tests_cant": "depends on joins with extended properties and XML concatenation over arbitrary databases; the code has a TODO to test it", "anchors": ["schema/sqlserver.go: QueryTables, QueryColumns, QueryIndexes", "schema/provider.go: ListTables"]}
{"id": "C156", "title": "ListViews shows the views of a SQL Server database", "statement": "Against SQL Server, ListViews returns exactly the views that pass the filter, each once, with its columns in order and each column once.", "quantifier": "every database schema, every order of rows and map iteration, every filter", "why_tests_cant": "the join is by name only; tests have one schema", "anchors": ["schema/sqlserver.go: QueryViews", "schema/provider.go: ListViews"]}
{"id": "C157", "title": "ListForeignKeys shows the foreign keys of a SQL Server database", "statement": "Against SQL Server, ListForeignKeys returns for each foreign key exactly the pairs of its columns and the columns they refer to, composite keys and equal names in different schemas included.", "quantifier": "every database schema, every order of rows, every filter", "why_tests_cant": "joins over ids for arbitrary databases", "anchors": ["schema/sqlserver.go: QueryForeignKeys", "schema/provider.go: ListForeignKeys"]}
{"id": "C158", "title": "Generated structs, fields and variables are named after the schema", "statement": "In every file written by a successful generation, the struct of a table has the defined name, or the Pascal-case singular of the table name with the requested suffix, preceded by the schema name exactly when -use-schema is given and the schema is neither dbo nor public; fields and the TableInfo variable are named by definition or from the SQL name; caching code is generated exactly for the listed tables.", "quantifier": "all schemas, tables, definitions and flags, all naming functions", "why_tests_cant": "all inputs and flag combinations", "anchors": ["internal/cli/schema/schema.go:generate", "internal/cli/schema/schema.go:tableStructName", "internal/cli/schema/schema.go:columnStructName"]}
{"id": "C159", "title": "The package clause follows the flags", "statement": "The package of generated files is the package flag if given, otherwise the last element of the output directory, otherwise model.", "quantifier": "all flags and all paths", "why_tests_cant": "all paths, trailing slashes, dots", "anchors": ["internal/cli/schema/schema.go:packageName", "internal/cli/schema/schema.go:generate"]}
{"id": "C160", "title": "The literal generated for a column denotes the column", "statement": "Column.StructString is a Go literal whose fields are the column's name, position, types, nullability and, if positive, maximum length.", "quantifier": "all columns", "why_tests_cant": "all names, including those with quotes", "anchors": ["schema/schema.go:StructString"]}
{"id": "C161", "title": "What is written in a data source is what is reported", "statement": "For every scheme, user, password, host, path and list of parameters, written with percent escapes where a URL needs them, ParseConnectionString reports exactly that driver (in lower case), user, password, host, database and parameters.", "quantifier": "all texts, all ways of escaping each, all numbers of parameters", "why_tests_cant": "all strings and all their escapings", "anchors": ["db.go:ParseConnectionString", "db.go:Source"]}
{"id": "C162", "title": "Credentials that are not escaped are refused or taken literally", "statement": "When a user name or password is put into a data source without escaping, ParseConnectionString either fails or reports exactly the characters given; it never reports other credentials or another host.", "quantifier": "all user names and passwords", "why_tests_cant": "all strings", "anchors": ["db.go:ParseConnectionString"]}
{"id": "C163", "title": "Connection parameters are reported or refused", "statement": "Every parameter written in a data source appears in Source.Params with its value, or ParseConnectionString returns an error.", "quantifier": "all query strings", "why_tests_cant": "all strings", "anchors": ["db.go:ParseConnectionString"]}
{"id": "C164", "title": "Open connects to what ParseConnectionString describes", "statement": "For every data source, Open uses the driver and the connection text that ParseConnectionString reports for it (followed by the requested database), and fails where it fails.", "quantifier": "all data sources, references to files and environment included, all databases", "why_tests_cant": "all strings and resolvers", "anchors": ["db.go:Open", "db.go:ParseConnectionString"]}
{"id": "C165", "title": "The tag of a generated field describes the column", "statement": "Under the key db, the struct tag of a column lists its name, its database type, and exactly the options that hold: maximum length, null, index, primary and the referenced column.", "quantifier": "all columns", "why_tests_cant": "all names, types and combinations", "anchors": ["schema/schema.go:Tag", "schema/schema.go:IsPrimary", "schema/schema.go:RefColumnSchemaName"]}
{"id": "C166", "title": "Decimal texts become the nearest Float", "statement": "Scan of a decimal text (NUMERIC columns arrive as text) and UnmarshalJSON of a decimal number, bare or quoted, store the float64 nearest to the number, ties to even, with the text's sign; numbers of 2^1024 - 2^970 or more in absolute value are an error and leave the destination unchanged.", "quantifier": "every decimal literal: any number of integer and fraction digits, any exponent below 100000, every destination", "why_tests_cant": "Unbounded digit strings; nearest is a statement about all 2^64 float64.", "anchors": ["types.go:Float.Scan", "types.go:Float.UnmarshalJSON"]}
{"id": "C167", "title": "Float rejects other texts and keeps the destination on error", "statement": "Scan of a text accepts only decimal and hexadecimal literals, infinities and NaN; on any error Scan and UnmarshalJSON leave the destination unchanged.", "quantifier": "every byte string, every destination; the grammar part for texts without underscores", "why_tests_cant": "All byte strings.", "anchors": ["types.go:Float.Scan", "types.go:Float.UnmarshalJSON"]}
{"id": "C168", "title": "Integers scanned into Float keep their value", "statement": "Scan of an integer column into a Float stores that integer.", "quantifier": "every int, int64, uint, uint64", "why_tests_cant": "All 2^64 integers; those above 2^53 fail.", "anchors": ["types.go:Float.Scan"]}
{"id": "C169", "title": "float32 and float64 columns are stored exactly", "statement": "Scan of a finite float32 or a float64 stores exactly that number, sign included.", "quantifier": "every finite float32 bit pattern, every float64 bit pattern", "why_tests_cant": "All bit patterns.", "anchors": ["types.go:Float.Scan"]}
{"id": "C170", "title": "Float's JSON is a JSON number", "statement": "MarshalJSON of a Float is a JSON number and equals String.", "quantifier": "every float64 bit pattern", "why_tests_cant": "All 2^64 values.", "anchors": ["types.go:Float.MarshalJSON", "types.go:Float.String"]}
{"id": "C171", "title": "JSON keeps the order of Floats", "statement": "If a <= b then UnmarshalJSON(MarshalJSON(a)) <= UnmarshalJSON(MarshalJSON(b)).", "quantifier": "all pairs of finite float64", "why_tests_cant": "All 2^128 pairs.", "anchors": ["types.go:Float.MarshalJSON", "types.go:Float.UnmarshalJSON"]}
{"id": "C172", "title": "The array literals IDArray.Scan accepts", "statement": "IDArray.Scan of a string or byte slice succeeds exactly when the text is an array literal ({} possibly nested and empty, or one level of comma separated bare, quoted or NULL elements) each of whose element texts is an optionally signed decimal in the range of int64; the destination then holds those numbers in order as uint64. On every other text it returns an error and leaves the destination empty. NULL empties the destination without error; any other driver value empties it with an error.", "quantifier": "every previous destination, every byte string, every driver value", "why_tests_cant": "the accepted language is infinite and recursive (quotes, escapes, nesting); tests try a few literals", "anchors": ["id.go: IDArray.Scan"]}
{"id": "C173", "title": "The command line application holds at most one connection", "statement": "Whatever sequence of DB, SchemaProvider, WithSchemaProvider and Close is called on a Cli, at most one connection is open, DB answers the open one (connecting only when there is none), a failed connection changes nothing, and after Close none is open.", "quantifier": "every sequence of calls and every outcome of connecting", "why_tests_cant": "the claim ranges over all call histories", "anchors": ["internal/cli/cli.go:Close", "internal/cli/cli.go:DB", "internal/cli/cli.go:SchemaProvider"]}
{"id": "C174", "title": "xdbcli reports failure in its exit status and closes its connection", "statement": "The process status is 0 exactly when the arguments were parsed and the command returned no error (or help was asked for); exit is called at most once; the connection is closed when the process ends.", "quantifier": "every outcome of parsing and every command", "why_tests_cant": "the claim ranges over all commands and their outcomes", "anchors": ["cmd/xdbcli/main.go:realMain"]}
{"id": "C175", "title": "The payload of a notification is the JSON object of its text", "statement": "When a notification's text is a non-empty JSON object, the Payload given to the callback has exactly the names of the object, each with its last member's value: strings, booleans, null, arrays and objects as sent, numbers as the nearest float64 (ties to even). What json.Marshal writes for a map arrives unchanged except that integers are float64. A text that is no JSON object, and {}, give a nil Payload. Channel and RawPayload are always those of the notification.", "quantifier": "every notification text, every map that can be marshalled, of any depth and size", "why_tests_cant": "the texts and nested values are unbounded, and numbers range over all decimal literals", "anchors": ["pkg/notifier/listener.go: parsePayload, Notification"]}
{"id": "C176", "title": "A payload that cannot be decoded is not handed out", "statement": "When decoding the text of a notification fails, the callback does not see a Payload made of parts of it.", "quantifier": "every notification text", "why_tests_cant": "all texts", "anchors": ["pkg/notifier/listener.go: parsePayload"]}
{"id": "C177", "title": "Reading a column into NULLString never fails and keeps the value's text", "statement": "Scanning into a NULLString accepts whatever the driver delivers and never returns an error: a signed or unsigned integer arrives as its decimal digits without leading zeros (with a minus sign in front if negative), a Boolean as the text true or false, a string or byte slice unchanged, and SQL NULL as the empty string; what the variable held before has no influence.", "quantifier": "every driver value, every integer, every earlier content of the variable", "why_tests_cant": "the integers and the texts are unbounded", "anchors": ["types.go: NULLString.Scan 319-331", "types.go: NULLString"]}
{"id": "C178", "title": "What xdbcli prints is what the database contains", "statement": "Against a Postgres or SQL Server database, decoding the output of 'schema columns -o json' gives exactly the user's tables that pass the filter, sorted by qualified name, each with its columns in order (name, types, nullability, length, position), its indexes and its one-column primary key; 'schema views -o json' and 'schema foreign_keys -o json' do the same for views and foreign keys; in text mode there is one block per table whose rows say the same, and with --dependencies the tables reachable over foreign keys follow, each column with the column it refers to.", "quantifier": "every database, every filter, every order in which the server returns rows and Go ranges over maps, every layout of text tables", "why_tests_cant": "the contents of the database, the order of rows and the reference graph are unbounded", "anchors": ["internal/cli/schema/schema.go: PrintColumnsCmd, PrintViewsCmd, PrintFKCmd", "schema/provider.go: ListTables, ListViews, ListForeignKeys", "pkg/print/schema.go", "schema/postgres.go", "schema/sqlserver.go"]}
{"id": "C179", "title": "A generated row survives JSON", "statement": "Marshaling a generated struct with encoding/json and decoding the text into a fresh struct of the same type gives the same row: every exported field has its value again, fields that are not exported are zero, and marshaling fails only for values JSON cannot express.", "quantifier": "every generated struct, every value of every field type the generator uses", "why_tests_cant": "the value space is unbounded and includes non-finite floats, text that is not UTF-8, empty and nil slices, years out of range", "anchors": ["internal/cli/schema/template.go: struct fields", "internal/cli/schema/types.go: typesMap, toGoType", "schema/schema.go: Column.Tag", "id.go, types.go, time.go: MarshalJSON, UnmarshalJSON"]}
{"id": "C180", "title": "Decoding JSON into a generated row changes only the fields it names", "statement": "json.Unmarshal into a generated struct leaves every field that no member of the document names, and every unexported field, as it was, whether or not it succeeds; on success every named field holds what its members say, in document order; a text that is not JSON changes nothing.", "quantifier": "every text, every row, every field type", "why_tests_cant": "documents are arbitrary texts with duplicate members, other cases of names, nested values and nulls", "anchors": ["internal/cli/schema/template.go: struct fields", "schema/schema.go: Column.Tag", "id.go, types.go, time.go: UnmarshalJSON"]}
{"id": "C181", "title": "A JSON column accepts exactly JSON of its type", "statement": "Scan of a text into Metadata, KVSet or Strings succeeds exactly when the text is empty or is a JSON document (RFC 8259) of the type: null or an object of strings and nulls; null or an object of arrays of strings and nulls; null or an array. What it stores is the value the document stands for, and any other text is refused.", "quantifier": "every byte sequence read from the column, every previous value of the destination", "why_tests_cant": "The texts are unbounded (nesting, escapes, UTF-8 repairs, surrogate pairs, number forms); tests show a handful of accepted and refused texts.", "anchors": ["types.go: Strings.Scan, Metadata.Scan, KVSet.Scan"]}
{"id": "C182", "title": "Exactly the texts of times are read as times", "statement": "A text denotes at most one instant; ParseTime and Time.Scan of a text that is a date (10 bytes), a date and clock (19 bytes) or an RFC 3339 time return the instant it denotes cut to milliseconds, and ParseTime of every other text is the zero time. UnmarshalJSON of a quoted RFC 3339 time, blanks around it or not, stores its instant to the nanosecond; every text that is neither this, null nor empty is refused, zeroing the destination if it is a JSON string and keeping it if it is not.", "quantifier": "every byte sequence, every previous value of the destination", "why_tests_cant": "The texts are unbounded (fractions of any length, zones, blanks, escapes) and the calendar has to be right on every day of 10000 years; a test checks a few texts.", "anchors": ["time.go: ParseTime, Time.Scan, Time.UnmarshalJSON"]}
{"id": "C183", "title": "Float reads exactly Go's floating-point texts, correctly rounded", "statement": "Float.Scan of a text column succeeds exactly for the texts of numbers in range: an optional sign, a decimal literal or a hexadecimal one with its binary exponent, underscores only between digits, or inf, infinity (signed) or nan (unsigned) in any case. The stored value is the float64 nearest to the number the text denotes, ties to even, also for exponents far beyond the range; a number beyond the largest float64 and every other text give an error and leave the destination as it was. UnmarshalJSON reads the same texts after dropping surrounding quotes, and takes nothing and NULL for zero.", "quantifier": "every byte string, every previous value of the destination; literals with an exponent below 100000 in absolute value, or of any size with up to 2000 digits", "why_tests_cant": "the grammar has unboundedly many texts with interacting rules for underscores, prefixes and exponents, and correct rounding is a statement about every real number; a test samples a few literals", "anchors": ["types.go:540-598 (Float.UnmarshalJSON, Float.Scan)"]}
{"id": "C184", "title": "Which hosts a data source can name", "statement": "A data source whose host has no bracket is accepted exactly when the host's port (after the last colon for postgres and postgresql, after the first and only colon otherwise) is a number or empty and the host's characters and percent escapes are those allowed in hosts; the host is then reported as it reads. Several hosts with ports can be listed for PostgreSQL only. Quotes around a data source and blanks inside the quotes change nothing.", "quantifier": "all schemes, credentials, paths and all hosts without control characters, '/', '?', '#', '@' and '['", "why_tests_cant": "all strings, all escapes", "anchors": ["db.go:ParseConnectionString", "db.go:Open"]}
{"id": "C185", "title": "Optional times and validation", "statement": "A Time that goes through TimePtr or Ptr and NullTime is written as NULL exactly when it is the zero Time, and otherwise comes back from Scan as the same instant in UTC; Validate returns the error of the model's own Validate method, and nil for a model without one.", "quantifier": "every instant and zone, every model", "why_tests_cant": "all instants", "anchors": ["types.go:NullTime", "types.go:TimePtr", "types.go:Validate", "time.go:Ptr", "time.go:Scan"]}
{"id": "C186", "title": "Scan takes exactly the driver values its type documents", "statement": "Scan of ID, Int64, Int32, ID32, Bool, Float and UUID succeeds exactly for NULL and for the kinds of value the type can hold (the four wide integer types; also bool for Bool; also float32 and float64 for Float; []byte and string for UUID), and a refused value leaves the destination as it was.", "quantifier": "every dynamic driver value and every previous content of the destination", "why_tests_cant": "the claim ranges over all dynamic types and values", "anchors": ["id.go:ID.Scan", "id.go:ID32.Scan", "types.go:Int64.Scan", "types.go:Int32.Scan", "types.go:Bool.Scan", "types.go:Float.Scan", "types.go:UUID.Scan"]}
{"id": "C187", "title": "Listings may run in several goroutines", "statement": "Several goroutines may call ListTables, ListViews and ListForeignKeys at the same time, sharing a schema provider or each with its own: whatever the schedule, the process goes on and every call returns what it returns when it runs alone.", "quantifier": "every catalog, every number of goroutines and calls, every assignment of providers to goroutines, every history of the providers, every interleaving of the accesses to the provider's maps", "why_tests_cant": "Go reports a concurrent map write only when two stores really overlap; a test with fast local queries hardly ever hits the window, and a lost index shows only in one interleaving.", "anchors": ["schema/provider.go:SQLServerProvider.ListTables", "schema/provider.go:SQLServerProvider.ListViews", "schema/provider.go:SQLServerProvider.ListForeignKeys", "schema/provider.go:readColumnsSchema"]}
{"id": "C188", "title": "Paging visits every row that stays exactly once while the table changes", "statement": "Reading a table page by page, following the reported cursor or offset, shows every row that is there during the whole reading exactly once, no row twice and no row that was not there, even when rows are inserted, changed and deleted between the pages.", "quantifier": "every table history (any insertions, changes and deletions between any two requests), every page size, every starting cursor, every builder without paging", "why_tests_cant": "Tests page through a table that does not change; the failure needs a deletion or an insertion between two particular requests.", "anchors": ["query.go:ExecuteQueryWithCursor", "query.go:ExecuteQueryWithPagination", "params.go:QueryParamsBuilder.SetCursor", "params.go:QueryParamsBuilder.SetPage"]}
{"id": "C189", "title": "A query cached under Name() of its parameters serves each request its own text", "statement": "When every request asks GetOrCreateQuery(params.Name(), create) with the Name() of the parameters it was made for, each request receives the text its own create would have built for those parameters.", "quantifier": "all dialects, all sequences of requests (any query names, any calls on the parameter builders, any statements built by the callbacks) and all 64-bit hash functions of column names", "why_tests_cant": "A unit test asks twice with one name; whether two different parameter sets ever share a cached text depends on the whole history and on every pair of builders.", "anchors": ["params.go: QueryParams, Name, SetPage, SetNullColumns", "xsql/cache.go: GetOrCreateQuery", "xsql/stmt.go: String"]}
