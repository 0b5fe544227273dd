{"id": "C01", "title": "Statement arguments survive encoding", "statement": "Every supported Go value passed as an argument to StmtExecute or Execute is decoded by a conforming protobuf decoder of Mysqlx.Datatypes.Any as a scalar of the right kind holding exactly that value: all int/uint widths, bool, float bits, string, []byte, time, duration, the String/XML/JSON/Geometry wrappers and user AppendAny values that honour the append contract.", "quantifier": "every supported value of every kind (full 8/16/32/64-bit ranges, strings and byte slices of any length), every field tag 1..15, every initial buffer", "why_tests_cant": "2^64 integers and unbounded strings; hand-written length arithmetic has boundaries at every power of 2^7 and at every nesting level", "anchors": ["xproto/any.go: appendAny and all appendAny*", "xproto/protobuf.go: sizeVarint*, putUvarint", "expr.go: String, xml, json, geometry"]}
{"id": "C02", "title": "Literal expressions survive encoding", "statement": "Every supported Go value used as a literal in Insert rows, Update sets or criteria decodes as an Expr of type LITERAL whose scalar has the right kind and value.", "quantifier": "every supported value, every field tag 1..15, every initial buffer", "why_tests_cant": "same value spaces as C01 through a different hand-written encoder", "anchors": ["xproto/expr.go: appendExpr and appendExpr*, AppendExprString, AppendExprBytes, AppendExprBytesString"]}
{"id": "C03", "title": "Expression trees survive encoding", "statement": "An expression built from columns, operators, function calls, variables, placeholders and literals decodes to the same tree: same node kinds, names, parameter order and nesting, for trees of any depth and width.", "quantifier": "all finite expression trees", "why_tests_cant": "trees are unbounded; each nesting level shifts bytes in place (slice.Insert) and recomputes varint lengths that change size at 2^7, 2^14, ...", "anchors": ["xproto/expr.go: AppendExprOperator, AppendExprFunctionCall, AppendExprColumn, AppendExprPlaceholder, AppendExprVariable", "slice/slice.go: Insert"]}
{"id": "C04", "title": "Encoding depends on the number, not on its Go width", "statement": "Two signed (resp. unsigned) argument values of different Go widths with the same numeric value produce identical bytes.", "quantifier": "every pair of widths and every value representable in both", "why_tests_cant": "four separate encoders per signedness with different unrolled byte lists", "anchors": ["xproto/any.go: appendAnyInt8..64, appendAnyUint8..64"]}
{"id": "C05", "title": "NULL is sent exactly for nil", "statement": "nil, nil []byte (also inside XML/JSON/Geometry wrappers) and nil pointers are sent as SQL NULL; an empty but non-nil []byte or string is never sent as NULL.", "quantifier": "all values", "why_tests_cant": "needs all values of all kinds; includes nil pointers of every pointer type", "anchors": ["xproto/any.go: appendAny, AppendAnyBytes", "xproto/expr.go: appendExpr, AppendExprBytes"]}
{"id": "C06", "title": "Pointers are transparent in arguments", "statement": "A chain of non-nil pointers of any depth passed as a statement argument is encoded exactly as the value it finally points to.", "quantifier": "all finite pointer chains and all pointees", "why_tests_cant": "unbounded depth", "anchors": ["xproto/any.go: appendAny (typeSwitch loop)"]}
{"id": "C07", "title": "A buffer is always a sequence of whole frames", "statement": "The bytes of an error-free unit of work smaller than 4 GiB split exactly, without remainder, into X Protocol frames (4-byte little-endian length, type byte, payload) and every frame length is correct.", "quantifier": "all sequences of builder calls, with any nesting of callbacks; that every frame is a message that can be decoded, without the values C22 and C23 show to be encoded wrongly", "why_tests_cant": "length headers are patched after the fact at remembered offsets while the body is shifted and reallocated", "anchors": ["builder.go", "crud.go", "xproto/*.go (PutUint32 back-patching)"]}
{"id": "C08", "title": "The unit of work sent is the unit of work written", "statement": "If no error is recorded, decoding the bytes given to the Sender yields exactly one message per builder call, in program order, carrying exactly the statement, ids, table, columns, rows, criteria and assignments given, with the START/COMMIT and expectation open/close messages around callback bodies, and nothing else.", "quantifier": "all builder programs of any length and nesting depth", "why_tests_cant": "composition of all encoders over unbounded call sequences sharing one buffer", "anchors": ["builder.go: all methods", "crud.go: InsertF, UpdateF", "xproto: all exported appenders"]}
{"id": "C09", "title": "Output does not depend on buffer history", "statement": "The bytes sent are the same whatever capacity New was given, whatever stale bytes lie beyond the length in the reused buffer, and however append chooses to grow it.", "quantifier": "all initial capacities, all stale contents, all growth policies", "why_tests_cant": "ForAppend and slice.Insert expose stale memory that must be overwritten completely; tests only see zeroed buffers", "anchors": ["slice/slice.go: ForAppend, Insert", "xpipe.go: New, Reset"]}
{"id": "C10", "title": "Errors are sticky and nothing is sent", "statement": "Once a builder call records an error, every later call leaves the recorded error unchanged, and Send returns that first error without handing any bytes to the Sender; a call that cannot be encoded always records an error.", "quantifier": "all programs and all positions of the first error", "why_tests_cant": "all continuations after the failure", "anchors": ["builder.go: every method, call, send"]}
{"id": "C11", "title": "Reset gives a fresh builder", "statement": "After Reset, building and sending any program gives the same result as on a new XPipe, whatever was built or failed before.", "quantifier": "all histories before Reset and all programs after it; for programs that fail or panic, without the values C22 and C23 show to be encoded wrongly", "why_tests_cant": "unbounded histories; buffer memory is reused", "anchors": ["xpipe.go: Reset", "builder.go: reset"]}
{"id": "C12", "title": "Outer builders are unusable inside a callback", "statement": "While a Tx, ExpectFailOnError, InsertF or UpdateF callback runs, calling any method of any enclosing builder panics, and after the callback returns the builder is usable again.", "quantifier": "all nesting depths, all methods, all enclosing builders", "why_tests_cant": "all nestings", "anchors": ["builder.go: call, disabled checks", "crud.go"]}
{"id": "C13", "title": "Transactions are bracketed", "statement": "Tx(level, body) contributes: the SET TRANSACTION statement documented for the level (none for default and snapshot), then START TRANSACTION (WITH CONSISTENT SNAPSHOT for snapshot), then the body's messages, then COMMIT; an unknown level contributes no message and records an error.", "quantifier": "all isolation levels (all uint values) and all bodies", "why_tests_cant": "all bodies including nested transactions and failing bodies", "anchors": ["builder.go: Tx, IsolationLevel"]}
{"id": "C14", "title": "A callback that returns an error prevents the commit", "statement": "If the function given to Tx, ExpectFailOnError, InsertF or UpdateF returns a non-nil error, the unit of work is not sent.", "quantifier": "all bodies and all returned errors", "why_tests_cant": "claims absence of a send for every body", "anchors": ["builder.go: call (f's result is discarded)", "crud.go: InsertF, UpdateF"]}
{"id": "C15", "title": "Expectation blocks are balanced", "statement": "In the bytes sent, every expectation open is matched by exactly one close, properly nested, with the messages of the callback between them, and the open carries the requested context operation and the no-error condition.", "quantifier": "all programs, all nestings", "why_tests_cant": "unbounded nesting", "anchors": ["builder.go: ExpectFailOnError", "xproto/expect.go: ExpectOpen, ExpectClose, OpenConditionExpectNoError"]}
{"id": "C16", "title": "Rows must match the columns", "statement": "An insert whose row has a different number of values than columns is rejected before anything is sent (Insert; the same expectation for InsertRow and InsertF).", "quantifier": "all column lists and all row lists", "why_tests_cant": "all row positions and lengths", "anchors": ["builder.go: Insert, InsertRow", "crud.go: InsertF"]}
{"id": "C17", "title": "InsertRow variables are unique", "statement": "Within one unit of work all InsertRow calls use pairwise distinct user variable names, each SET right after its own insert, and the returned expression refers to that variable.", "quantifier": "all programs with any number of InsertRow calls", "why_tests_cant": "uniqueness rests on strict monotonicity of the buffer length over arbitrary programs", "anchors": ["builder.go: InsertRow"]}
{"id": "C18", "title": "Map order does not matter in Update", "statement": "Update sends one SET operation per map entry, and different map iteration orders give the same multiset of operations and otherwise the same message.", "quantifier": "all maps and all iteration orders", "why_tests_cant": "iteration order is randomised by the runtime", "anchors": ["builder.go: Update", "xproto/update.go: AppendUpdateSet"]}
{"id": "C19", "title": "Criteria are present exactly when given", "statement": "Update and Delete carry a criteria expression exactly when a non-nil criteria was given, and it decodes to that expression; nil criteria means no filter.", "quantifier": "all criteria expressions and table names; a criterion that is itself a variable with a name of more than 123 bytes is left out (C22), and that the criterion decodes to the one given is claimed for criteria without the values C22 and C23 show to be encoded wrongly", "why_tests_cant": "losing or corrupting a filter on some input would affect all rows of a table", "anchors": ["xproto/xproto.go: Delete", "xproto/update.go: Update"]}
{"id": "C20", "title": "Prepared statement ids and text survive", "statement": "Prepare, Execute and Deallocate carry exactly the given 32-bit id (and statement text, arguments).", "quantifier": "all 2^32 ids, all statement texts, all argument lists; of an argument of Execute that is one of the values C22 and C23 show to be encoded wrongly (variable names of more than 123 bytes, the least duration, durations of 2^32 seconds or more where int has 32 bits) it is only claimed that it arrives as some scalar at its position", "why_tests_cant": "4 billion ids times unbounded texts", "anchors": ["xproto/prepare.go"]}
{"id": "C21", "title": "Expectation conditions and context survive", "statement": "ExpectOpen with any list of no-error / field-exists conditions decodes to the same context operation and conditions in order.", "quantifier": "all condition lists, all field names shorter than 2^31 bytes, both context operations", "why_tests_cant": "unbounded lists and names; lengths are written with a fixed five-byte pattern then truncated", "anchors": ["xproto/expect.go"]}
{"id": "C22", "title": "Variable names survive", "statement": "A variable expression with any name decodes to a VARIABLE expression with that name.", "quantifier": "all names", "why_tests_cant": "the enclosing length is written as a single byte; failure starts only at 124 bytes", "anchors": ["xproto/expr.go: AppendExprVariable"]}
{"id": "C23", "title": "Durations are sent with their value", "statement": "A time.Duration is sent as text [-]H:MM:SS with MM and SS below 60 that denotes the duration truncated toward zero to whole seconds.", "quantifier": "all 2^64 durations", "why_tests_cant": "2^64 values, and the minimum value cannot be negated", "anchors": ["xproto/scalar.go: AppendDuration", "xproto/any.go: appendAnyDuration", "xproto/expr.go: appendExprDuration"]}
{"id": "C24", "title": "Times are sent with their fields and never panic", "statement": "A time.Time is sent as octets YYYY-MM-DD hh:mm:ss.nnnnnnnnn holding exactly its wall-clock fields, and the length panic in the encoder is unreachable.", "quantifier": "all wall-clock times with years a time.Time can have (absolute value below 10^12)", "why_tests_cant": "all years; single-byte length fields are incremented in place", "anchors": ["xproto/any.go: appendAnyTime", "xproto/expr.go: appendExprTime"]}
{"id": "C25", "title": "Operator constructors emit documented operators", "statement": "Each operator constructor (Not, Plus, ..., DateSub, In, Concat, ...) yields an operator whose name is in the X Protocol's documented operator list and with its operands in the documented order.", "quantifier": "all constructors and all operand values", "why_tests_cant": "operands are arbitrary expression trees", "anchors": ["expr.go: Default .. LastInsertID", "protobuf/mysqlx_expr.proto: Operator"]}
{"id": "C26", "title": "Content types survive", "statement": "XML, JSON and Geometry values are sent as octets with content type 3, 2 and 1 and unchanged payload, plain bytes without content type, String with its collation id (omitted when 0).", "quantifier": "all payloads, all collation ids", "why_tests_cant": "payload and collation spaces are unbounded", "anchors": ["expr.go: XML, XMLString, JSON, JSONString, Geometry, String", "xproto/scalar.go"]}
{"id": "C27", "title": "One response per request, in order, in sync", "statement": "If the server answers every request message with any number of notices, metadata and rows followed by one final Ok/StmtExecuteOk/Error, Send returns exactly one response per request in order and leaves the stream positioned exactly after the last final message.", "quantifier": "all request buffers, all conforming reply streams, all payload sizes", "why_tests_cant": "unbounded reply sequences and sizes; desynchronisation corrupts every later use of the connection", "anchors": ["netx/connection/connection.go: Send, ReadResponsesToSlice, Read"]}
{"id": "C28", "title": "Success means every reply was read", "statement": "If Send returns a nil error, then the reply stream contained a complete final reply for every request; a stream that ends early or has an undersized frame yields an error.", "quantifier": "all byte streams (arbitrary, including malicious)", "why_tests_cant": "arbitrary streams", "anchors": ["netx/connection/connection.go: Read, ReadResponsesToSlice"]}
{"id": "C29", "title": "Fatal and authentication errors stop Send", "statement": "A FATAL server error, or any server error answering a session message, is returned as the error of Send/WriteOne and no further reply is read; other server errors appear as that request's response and do not stop the unit.", "quantifier": "all reply streams and positions", "why_tests_cant": "all positions in unbounded streams", "anchors": ["netx/connection/connection.go: Read", "netx/connection/errors.go: IsFatal"]}
{"id": "C30", "title": "Reply size does not matter", "statement": "A reply frame larger than the 4096-byte read buffer is treated exactly like the same frame read through the buffer.", "quantifier": "all frame sizes up to 2^32-1", "why_tests_cant": "two code paths split on the size", "anchors": ["netx/connection/connection.go: Read (ErrBufferFull path), minBufSize"]}
{"id": "C31", "title": "Server errors are reported faithfully", "statement": "Code, SQL state, message and severity of a server Error reach the caller unchanged.", "quantifier": "all errors (all field contents)", "why_tests_cant": "unbounded field contents", "anchors": ["netx/connection/connection.go: Read", "netx/connection/errors.go"]}
{"id": "C32", "title": "MYSQL41 response is the specified proof", "statement": "For any hash function with 20-byte digests and any credentials and challenge, the MYSQL41 continue message carries database NUL user NUL and, when the password is non-empty, '*' and the hex of SHA1(pw) xor SHA1(challenge ++ SHA1(SHA1(pw))), and nothing otherwise.", "quantifier": "all credentials, challenges and buffers; every 20-byte-digest hash function", "why_tests_cant": "hashing, xor and hex encoding run in place over overlapping memory", "anchors": ["netx/connector/authentication/mysql41/mysql41.go: Continue", "slice/slice.go: Allocate", "xproto/authentication.go"]}
{"id": "C33", "title": "SHA256_MEMORY response is the specified proof", "statement": "For any 32-byte-digest hash, the SHA256_MEMORY continue message carries database NUL user NUL hex(SHA256(pw) xor SHA256(SHA256(SHA256(pw)) ++ challenge)).", "quantifier": "all credentials, challenges and buffers; every 32-byte-digest hash function", "why_tests_cant": "in-place overlapping memory", "anchors": ["netx/connector/authentication/sha256/sha256.go: Continue"]}
{"id": "C34", "title": "PLAIN message format", "statement": "The PLAIN start message carries mechanism PLAIN and database NUL user NUL password.", "quantifier": "all credentials and buffers", "why_tests_cant": "unbounded credentials", "anchors": ["netx/connector/authentication/plain/plain.go: Start", "xproto/authentication.go: AuthenticateStart"]}
{"id": "C35", "title": "Clear-text fallback only on secure connections", "statement": "Connector.New sends the PLAIN password message as a fallback only after an access-denied error and only over TLS or a unix socket; with a TLS configuration and a TCP dial nothing of the authentication exchange is sent before the TLS handshake succeeds.", "quantifier": "all environment behaviours (dial, capability, handshake and authentication results)", "why_tests_cant": "all combinations of failures", "anchors": ["netx/connector/connector.go: New", "netx/connection/connection.go: IsSecure, Authenticate"]}
{"id": "C36", "title": "No dialled connection is leaked by Connector.New", "statement": "Whenever Connector.New returns an error the network connection it dialled has been closed; when it returns a connection it is open and authenticated.", "quantifier": "all environment behaviours", "why_tests_cant": "all failure points", "anchors": ["netx/connector/connector.go: New"]}
{"id": "C37", "title": "A pooled connection has one user at a time", "statement": "At every moment every connection is used by at most one Send call, and is not idle while used.", "quantifier": "all interleavings of any number of concurrent Send and Close calls", "why_tests_cant": "schedules", "anchors": ["netx/pool/fifoch/fifoch.go: Send, Close"]}
{"id": "C38", "title": "The pool keeps at most size idle connections", "statement": "At every moment at most size connections are idle in the pool.", "quantifier": "all interleavings, all sizes (including 0)", "why_tests_cant": "schedules", "anchors": ["netx/pool/fifoch/fifoch.go"]}
{"id": "C39", "title": "Failed connections are closed and never reused", "statement": "A connection whose Send returned an error is closed and never handed out again; no connection is closed twice or used after close; without Close every connection created is idle, in use or closed.", "quantifier": "all interleavings", "why_tests_cant": "schedules and histories", "anchors": ["netx/pool/fifoch/fifoch.go: Send"]}
{"id": "C40", "title": "Idle connections are reused first-in first-out", "statement": "Idle connections are handed out in the order they were returned, and a new connection is created only when none is idle.", "quantifier": "all interleavings", "why_tests_cant": "histories", "anchors": ["netx/pool/fifoch/fifoch.go: Send"]}
{"id": "C41", "title": "Closing the pool", "statement": "Close closes all idle connections, afterwards Send returns ErrPoolClosed; Close may run concurrently with Send and be called twice without crashing.", "quantifier": "all interleavings", "why_tests_cant": "schedules", "anchors": ["netx/pool/fifoch/fifoch.go: Close, Send"]}
{"id": "C42", "title": "Decimal text equals its value", "statement": "For a packed decimal with at most 77 digits and scale not larger than the digit count, String denotes the same number as Decompose: (-1)^negative * coefficient * 10^exponent, equal to the number the digits, sign and scale denote.", "quantifier": "all well-formed packed decimals", "why_tests_cant": "10^77 values, both sign encodings and both nibble parities", "anchors": ["types/decimal.go: String, Decompose"]}
{"id": "C43", "title": "256-bit multiply-add is exact", "statement": "MulAdd(y,z) computes x*y+z modulo 2^256 and returns the overflow word, for all x, y, z; AppendBytes is the big-endian representation without leading zero bytes (one zero byte for 0).", "quantifier": "all 2^256 x 2^64 x 2^64 inputs", "why_tests_cant": "carry propagation across four limbs", "anchors": ["types/decimal.go: Uint256.MulAdd, AppendBytes"]}
{"id": "C44", "title": "Collation names", "statement": "Every declared collation constant prints its own MySQL name, different collations print different names, every other value prints Collation(n).", "quantifier": "all uint values", "why_tests_cant": "all values outside the table; table offsets are hand-maintained", "anchors": ["collation/collation.go"]}
{"id": "C45", "title": "Slice helpers preserve data", "statement": "ForAppend and Insert keep all existing bytes in order and only add the requested gap; Allocate returns a fresh region of the requested size. ForAppend and Allocate change no memory when the capacity is enough; otherwise they return zeroed memory with room for at least as much again.", "quantifier": "all slices, capacities, positions and sizes within bounds", "why_tests_cant": "capacity-dependent branches, overlapping moves", "anchors": ["slice/slice.go"]}
{"id": "C46", "title": "Frames of 4 GiB and more", "statement": "The frame length is correct for every message size.", "quantifier": "all message sizes", "why_tests_cant": "needs a 4 GiB statement", "anchors": ["xproto/xproto.go: StmtExecute (uint32 conversion)", "builder.go"]}
{"id": "C47", "title": "A commit is executed only if everything before it succeeded", "statement": "If a unit is ExpectFailOnError(Tx(body)), and the server fails every message after the first failure in a no-error expectation block, the COMMIT is executed only if every message of the block before it was executed successfully.", "quantifier": "all bodies, all patterns of statement failures on the server", "why_tests_cant": "all failure patterns", "anchors": ["builder.go: ExpectFailOnError, Tx", "README.md: Error Handling", "protobuf/mysqlx_expect.proto"]}
{"id": "C48", "title": "One write per unit and deadlines do not leak", "statement": "Send on a connection performs exactly one Write holding the whole unit, after setting the connection deadline to the context's deadline (clearing it when the context has none).", "quantifier": "all units, contexts and previous deadlines", "why_tests_cant": "all histories of deadlines on a reused connection", "anchors": ["netx/connection/connection.go: Send, WriteOne"]}
{"id": "C49", "title": "Authentication handshake", "statement": "Authenticate sends one start message and, only when challenged and the mechanism supports it, one continue message computed from that challenge; it succeeds exactly when the server's last reply is Ok.", "quantifier": "all server replies and mechanisms", "why_tests_cant": "all reply streams", "anchors": ["netx/connection/connection.go: Authenticate, WriteOne"]}
{"id": "C50", "title": "Session and capability messages", "statement": "Reset, AuthenticateStart, AuthenticateContinue and CapabilitySet produce one frame decoding to the given flag, mechanism, data and capability.", "quantifier": "all inputs and buffers", "why_tests_cant": "unbounded inputs", "anchors": ["xproto/xproto.go: Reset", "xproto/authentication.go"]}
{"id": "C51", "title": "Unencodable values are rejected, never mis-sent", "statement": "A value of an unsupported kind (anywhere in arguments, rows, sets or nested in an expression tree) yields an error.", "quantifier": "all values containing an unsupported part at any depth", "why_tests_cant": "unbounded nesting", "anchors": ["xproto/any.go: appendAny", "xproto/expr.go: appendExpr, AppendExprOperator, AppendExprFunctionCall"]}
{"id": "C52", "title": "Encoding an argument terminates", "statement": "StmtExecute and Execute return for every argument value, including self-referential pointers.", "quantifier": "all heaps and pointer values", "why_tests_cant": "non-termination cannot be observed by a finite test", "anchors": ["xproto/any.go: appendAny (goto typeSwitch)"]}
{"id": "C53", "title": "CRUD messages address a table", "statement": "Insert, Update and Delete calls build messages whose data model is TABLE, so that a server applies them to the named table and not to a document collection of that name.", "quantifier": "all Insert, Update and Delete calls with any schema, table, rows, assignments and criteria; in the arguments of Delete and of units with several calls, the values C22 and C23 show to be encoded wrongly are left out (variable names of more than 123 bytes, the least duration, durations of 2^32 seconds or more where int has 32 bits)", "why_tests_cant": "Every combination of calls and arguments builds its own message; a test sees the ones it tries, and a server that guesses the model hides the omission.", "anchors": ["crud.go:Delete", "xproto/insert.go", "xproto/update.go", "protobuf/mysqlx_crud.proto:data_model"]}
{"id": "C54", "title": "Building a unit of work never panics", "statement": "Calling any sequence of builder methods with well-formed arguments and criteria callbacks returns; none panics, even after an earlier error.", "quantifier": "all programs over the builder API and all callbacks, including those that return an error; the exact list of what panics, without the values C22 and C23 show to be encoded wrongly", "why_tests_cant": "The panic depends on the interplay of a callback's result, the buffer's length and an earlier error; programs are unbounded.", "anchors": ["builder.go", "crud.go:Delete", "crud.go:UpdateF", "crud.go:InsertF"]}
{"id": "C55", "title": "Bytes received in the clear are not used inside TLS", "statement": "Whatever a peer sends in the clear after its reply to the request for TLS, the result of Connector.New and everything it writes are the same as without those bytes.", "quantifier": "all bytes following the reply, all segmentations of the stream, all later behaviours of the server", "why_tests_cant": "An injected prefix can be any byte string in any segmentation; a test sends a few.", "anchors": ["netx/connector/connector.go:New", "netx/connection/connection.go:Reset"]}
{"id": "C56", "title": "Connecting end to end", "statement": "If a server agrees to TLS, the handshake succeeds, it sends a challenge and accepts the proof, Connector.New returns an open connection in sync with the server, having written exactly the request for TLS in the clear and the MYSQL41 start and proof messages inside TLS.", "quantifier": "all credentials, challenges, replies with any interim messages, segmentations, and 20-byte-digest hash functions", "why_tests_cant": "Challenges are random and replies may be interleaved with notices in any way and split anywhere.", "anchors": ["netx/connector/connector.go:New", "netx/connection/connection.go:Authenticate", "netx/connector/authentication/mysql41/mysql41.go"]}
{"id": "C57", "title": "Callers of the pool never wait for each other", "statement": "A Send on the pool is never blocked by other callers: it can always make progress on its own, and returns after at most one dial, one exchange on a connection and one close.", "quantifier": "all interleavings of any number of Send and Close calls, all pool sizes", "why_tests_cant": "Blocking depends on the schedule.", "anchors": ["netx/pool/fifoch/fifoch.go: Send, Close"]}
{"id": "C58", "title": "Decimal text and parts agree on every input", "statement": "For every byte sequence String and Decompose return and denote the same number.", "quantifier": "all byte sequences, well-formed or not", "why_tests_cant": "Unbounded input space; the disagreements are in corners.", "anchors": ["types/decimal.go: String, Decompose"]}
{"id": "C59", "title": "A pool Send hands the unit to one connection, at most once", "statement": "Each Send on a pool hands its bytes to at most one connection and at most once (nothing is retried). It returns responses and a nil error exactly if that exchange succeeded, the exchange's error if it failed, and ErrPoolClosed, a dial error or the context's error only if nothing was handed to any connection; the context's error only if the context is done, ErrPoolClosed only after a Close.", "quantifier": "all pool sizes, any number of concurrent Send and Close calls, all interleavings, all outcomes of dials and exchanges", "why_tests_cant": "A test sees a handful of interleavings; a duplicated or lost unit could occur in any of infinitely many.", "anchors": ["netx/pool/fifoch/fifoch.go: Send, Close"]}
{"id": "C60", "title": "The error names the faulty part", "statement": "If a call fails, the error Send returns is the error of the first faulty part of the call: the unsupported type, or the error the user's own AppendAny/AppendExpr returned, wrapped with the zero-based position of each function parameter, column and row it lies in; a row of wrong length is reported with its position and both lengths, an unknown isolation level as such. Conversely a call without a faulty part is sent.", "quantifier": "all calls with all arguments and expression trees of any depth, all user supplied encoders", "why_tests_cant": "Unbounded nesting of expressions, rows and user supplied encoders.", "anchors": ["builder.go: call", "crud.go: Insert, Update, Delete, InsertRow", "xproto/expr.go: appendExpr, AppendExprOperator, AppendExprFunctionCall", "xproto/any.go: AppendAny", "xproto/insert.go: AppendInsertRow"]}
{"id": "C61", "title": "A pool Send returns the responses to its own unit", "statement": "If the server answers every request of a unit with one reply, a Send on a pool that returns a nil error returns exactly the server's answers to the requests of its own unit, in order; a Send that fails returns answers to a first part of its own unit. Never an answer to another call's unit, whatever other calls, failures and closed connections came before on the same or other connections.", "quantifier": "all pool sizes, any number of concurrent Sends, all interleavings, all units and replies, all segmentations of the replies, servers that stop anywhere, failing writes and dials", "why_tests_cant": "A mixed-up response needs one particular interleaving together with one particular segmentation or failure; there are infinitely many of both.", "anchors": ["netx/pool/fifoch/fifoch.go: Send", "netx/connection/connection.go: Send", "netx/connector/connector.go: New"]}
{"id": "C62", "title": "Each server reads whole units, one after the other", "statement": "On every pooled connection the bytes written after the connection was set up are the units of the Sends that used it, each in a single Write, in the order of use, never mixed; only the unit of a Send that failed may follow, as the last Write. If the units were built with builders the server reads the messages of those builders, unit by unit.", "quantifier": "all pool sizes, all interleavings of any number of Sends, all units, all failures", "why_tests_cant": "Interleavings of writers are a matter of schedules, of which tests see few.", "anchors": ["netx/pool/fifoch/fifoch.go: Send", "netx/connection/connection.go: Send", "builder.go: Send"]}
{"id": "C63", "title": "A unit of work is all or nothing", "statement": "Of a unit of work built as the README says (expectation block, prepare statements, Tx) either all changes become durable, and then the COMMIT was executed, or none, ever.", "quantifier": "all units of work, all servers' decisions on which messages fail, all later units sent on the same pooled connection", "why_tests_cant": "It depends on which message fails and on what is sent later on that connection, by any caller.", "anchors": ["builder.go: Tx, ExpectFailOnError", "README.md: Error Handling", "netx/pool/fifoch/fifoch.go: Send"]}
{"id": "C64", "title": "A failed unit does not affect later units", "statement": "What a unit of work does on a pooled connection does not depend on whether an earlier unit on that connection failed.", "quantifier": "all pairs of units of work, all failures of the first one", "why_tests_cant": "Needs all combinations of failing message, isolation levels and later units.", "anchors": ["builder.go: Tx, ExpectFailOnError", "README.md: No client connection state", "netx/pool/fifoch/fifoch.go: Send"]}
{"id": "C65", "title": "The variable InsertRow returns holds that row's id", "statement": "When a later message of the unit uses the expression InsertRow returned, it gets the id the server gave to that row, however many other rows are inserted in between; if the row was not inserted the later message does not get another row's id.", "quantifier": "all programs with any number of InsertRow calls, all ids the server assigns, all failures; in the arguments, the values C22 and C23 show to be encoded wrongly are left out (variable names of more than 123 bytes, the least duration, durations of 2^32 seconds or more where int has 32 bits)", "why_tests_cant": "Unbounded number and nesting of rows, arbitrary ids and failures on the server.", "anchors": ["builder.go: InsertRow", "xproto/expr.go: AppendExprVariable"]}
{"id": "C66", "title": "A pipe sends what was built since New or Reset", "statement": "Whatever sequence of building, Send and Reset an XPipe goes through, each Send that hands bytes to the Sender hands over exactly the messages of what was built since New or the last Reset, in order; Send changes nothing; an error is returned by every Send until Reset; after Reset nothing of the past matters.", "quantifier": "all finite sequences of operations on one pipe, all programs in them, all buffer capacities and growth policies", "why_tests_cant": "Unbounded histories of one reused buffer.", "anchors": ["xpipe.go: New, Send, Reset", "builder.go: reset, send"]}
{"id": "C67", "title": "A recovered panic does no harm", "statement": "After recovering from a panic of a builder call the pipe can be used again: the call that panicked is not half sent, and Reset makes the pipe as new.", "quantifier": "all programs, all points at which a value or callback panics, all later operations", "why_tests_cant": "Every call, every position of the panicking value, every later use.", "anchors": ["builder.go: call, Insert, Update, InsertRow, reset", "crud.go: InsertF, UpdateF"]}
{"id": "C68", "title": "Builders, *Insert and *Update are harmless after their callback", "statement": "A builder, *Insert or *Update given to a callback and used after the callback has returned does not change what the pipe sends.", "quantifier": "all callbacks, all later calls on what was kept and on the pipe, in any order, some of them panicking", "why_tests_cant": "Depends on the capacity of the shared array; a test sees one capacity.", "anchors": ["builder.go: call", "crud.go: Insert.Row, InsertF, Update.Set, UpdateF"]}
{"id": "C69", "title": "A connector uses its last options", "statement": "A connector uses the database, the authentication method, the user name with its password and the TLS configuration of the last option of that kind it was made with, else no TLS, MYSQL41 and empty names; options of different kinds may come in any order; making it fails exactly when an option fails, with the error of the first that does. What is sent while connecting is built from those values only.", "quantifier": "all lists of options, all servers", "why_tests_cant": "Every list of options, in every order, with every later behaviour of the server.", "anchors": ["netx/connector/connector.go: New, WithDatabase, WithAuthentication, WithUserPassword, WithTLSConfig, Connector.New"]}
{"id": "C70", "title": "The text of a server's error tells all", "statement": "Two errors of the server with different severity, code, SQL state or message have different texts (for SQL states without a closing bracket).", "quantifier": "all pairs of errors", "why_tests_cant": "Ranges over all pairs of errors and all message texts.", "anchors": ["netx/connection/errors.go: MySqlXError.Error"]}
{"id": "C71", "title": "Execute runs the statement its unit prepared", "statement": "An Execute that the server executes runs the statement the same unit prepared last under that number, whatever earlier units have left prepared on the pooled connection.", "quantifier": "all units, all prepared statements of earlier units, all failures of the server's", "why_tests_cant": "Depends on what earlier units left on the connection and on which messages fail.", "anchors": ["builder.go: Prepare, Execute, Deallocate, ExpectFailOnError", "README.md: prepared statements"]}
{"id": "C72", "title": "Deallocated statements are gone", "statement": "After a unit that deallocates the statements it prepares none of them is left on the connection, whether it succeeds or fails.", "quantifier": "all units, all failures of the server's", "why_tests_cant": "Every subset of messages may fail or be skipped.", "anchors": ["builder.go: Deallocate, ExpectFailOnError", "README.md: No client connection state"]}
{"id": "C73", "title": "Checking the COMMIT's response is enough", "statement": "After sending the README's unit of work (expectation block, Prepares, Transaction), a caller who finds Send's error nil and the COMMIT's response nil knows that the server executed every message before it and that all changes of the unit are durable; with the error nil and another response, that none is. This holds directly on a connection and through a pool, and however the connection breaks: an error or a cut reply is never taken for the COMMIT's success if the error is looked at.", "quantifier": "all units of work, all failures of the server's, all replies it can give, all points at which the server or the connection stops, all segmentations, all interleavings of pooled Sends", "why_tests_cant": "Every subset of messages may fail, and the reply stream may break at any byte.", "anchors": ["README.md: Error Handling", "builder.go: Transaction, ExpectFailOnError", "netx/connection/connection.go: Send, ReadResponsesToSlice", "netx/pool/pool.go: Send"]}
{"id": "C74", "title": "The account of a pooled connection", "statement": "What the units of work sent over one pooled connection leave in the data is, in the order in which they used the connection, all changes of every unit whose Send returned a nil error and a nil response to its COMMIT, and of every other unit the changes up to its first failure, in order; these become durable exactly if a later unit on that connection begins its transaction. Nothing is repeated, reordered or mixed.", "quantifier": "all pool sizes, all interleavings of any number of Sends, all units of work, all failures of the server's", "why_tests_cant": "Unbounded histories of concurrent callers, each with any subset of failing messages.", "anchors": ["README.md: Error Handling", "netx/pool/fifoch/fifoch.go: Send", "builder.go: Tx, ExpectFailOnError", "netx/connection/connection.go: Send"]}
{"id": "C75", "title": "A server that follows the .proto files reads what was written", "statement": "A receiver built from the project's .proto files, which accepts fields in any order, ignores unknown fields and lets the last value of a repeated singular field count, reads the bytes of a unit of work as exactly one message per step of the unit, each under the message name and with the field names and values the caller asked for; the same holds for the session, capability and authentication messages.", "quantifier": "all units of work, all values, names, statements and credentials, all buffer histories; that a message has the values asked for is claimed if its own arguments are not among those C22 and C23 show to be encoded wrongly (variable names of more than 123 bytes, the least duration, durations of 2^32 seconds or more where int has 32 bits)", "why_tests_cant": "Values, names and nesting are unbounded, and the repository's tests compare with a Go decoder on a few literals.", "anchors": ["protobuf/mysqlx*.proto", "xproto/: all encoders", "builder.go: Builder", "netx/connector/authentication/: Start, Continue"]}
{"id": "C76", "title": "Replies mean what the .proto files say", "statement": "Send returns success or a server error exactly as the replies say when they are read with the .proto files: which message ends a reply, which one is an error and with which code, SQL state, message and severity, however the server's encoder ordered, repeated or extended the fields. An authentication challenge is answered with exactly the data field of the message.", "quantifier": "all replies of any number of messages, all encodings of each message, all segmentations", "why_tests_cant": "Encoders may write fields in any order, repeat them, or add new ones; the byte streams are unbounded.", "anchors": ["protobuf/mysqlx.proto", "protobuf/mysqlx_session.proto", "protobuf/mysqlx_resultset.proto", "netx/connection/connection.go: Read, Send", "netx/connection/errors.go"]}
{"id": "C77", "title": "The error of Send says what went wrong", "statement": "Whatever bytes arrive, and however the connection ends, Send returns the responses of the replies that arrived completely, and an error that is exactly the reason why there is no next one: the connection's own error (with io.EOF or io.ErrUnexpectedEOF for an early end), a message without a type or too long for the platform, an error or column meta data message that cannot be decoded, an authentication challenge nobody asked for, or a server error that ends the session. Each such defect leads to that error, and no stream has two explanations.", "quantifier": "all request sequences, all byte streams, all ends of the connection, all segmentations, 32 and 64 bit platforms", "why_tests_cant": "Every byte stream, cut at every byte, in every segmentation.", "anchors": ["netx/connection/connection.go: Send, ReadResponsesToSlice, Read"]}
{"id": "C78", "title": "The memory Send uses for replies is bounded by what the server sent", "statement": "While it reads replies, Send allocates buffers only for messages longer than the 4096 byte read buffer, each of exactly the size the message announces. Unless reading from the connection fails, the buffers together are no larger than the bytes of the replies that were used up. (The code violates the bound if the connection breaks: five bytes that announce a message of 4 GiB make Send allocate that much before any of it has arrived. In every case it is at most 4 GiB more than what arrived.)", "quantifier": "all request sequences, all byte streams, all ends of the connection, all segmentations, 32 and 64 bit platforms", "why_tests_cant": "Every byte stream, with every length announced anywhere in it.", "anchors": ["netx/connection/connection.go: Send, ReadResponsesToSlice, Read"]}
{"id": "C79", "title": "A Send whose context is done does nothing", "statement": "A pool Send whose context is done before it looks for a connection dials nothing, writes nothing and returns the context's error (or ErrPoolClosed). (The code violates this: with an idle connection in the pool it may send the unit all the same and return its responses. It never dials.)", "quantifier": "all pool sizes, any number of concurrent Send and Close calls, all interleavings", "why_tests_cant": "select chooses at random among the ready cases; every interleaving.", "anchors": ["netx/pool/fifoch/fifoch.go: Send"]}
{"id": "C80", "title": "A new connection is in sync", "statement": "If the server sends one reply per request and nothing else, then a connection that Connector.New returns has nothing left to be read, whichever mechanism was used, with or without TLS and PLAIN fallback; so the responses of the first and of all later Sends of a pool on it are those to their own requests.", "quantifier": "all configurations, mechanisms, servers' replies (notices included), segmentations, and all interleavings of pool calls", "why_tests_cant": "Every conversation, every segmentation and every interleaving.", "anchors": ["netx/connector/connector.go: Connector.New", "netx/connection/connection.go: Authenticate, WriteOne, Read, Send", "netx/pool/fifoch/fifoch.go: Send"]}
{"id": "C81", "title": "A TLS configuration is for everything", "statement": "If a connector for a TCP address has a TLS configuration, then on every connection of a pool that uses it, from dialling until it is closed, nothing is ever written outside TLS except the request to start TLS.", "quantifier": "all pool sizes, any number of concurrent calls, all interleavings, all servers", "why_tests_cant": "Every interleaving and every behaviour of the server.", "anchors": ["netx/connector/connector.go: Connector.New", "netx/connection/connection.go: Send, Reset", "netx/pool/fifoch/fifoch.go: Send"]}
{"id": "C82", "title": "Reusing a pipe needs no new memory", "statement": "A unit of work that has been built once is built again, in that pipe after Reset or in any other empty one of that capacity, without allocating a new buffer; nor does a pipe from New(n) ever allocate one for units that are at least 10 bytes shorter than n, however many are built in it with Reset in between.", "quantifier": "all programs (any calls, values, nesting of blocks, user encoders that append), pipes, buffer contents, growth policies of append, sequences of units", "why_tests_cant": "Benchmarks measure allocations for a few units only; whether any encoder asks for more room than its message takes depends on every kind of value and every length.", "anchors": ["xpipe.go: New, Reset", "builder.go: Builder.reset and all methods", "slice/slice.go: ForAppend", "xproto/xproto.go", "xproto/any.go", "xproto/expr.go"]}
{"id": "C83", "title": "A failed unit of work leaves the pipe its buffer", "statement": "When building a unit fails with an error, the pipe's buffer is still there after Reset.", "quantifier": "all programs and errors", "why_tests_cant": "Every way to fail has to be looked at.", "anchors": ["xproto/any.go: appendAny", "builder.go: Builder.StmtExecute, Tx, reset"]}
{"id": "C84", "title": "Send returns for any bytes", "statement": "Send of a connection returns, with one response per message or an error, and does not panic; and the pool closes or reuses the connection afterwards.", "quantifier": "all byte slices given to Send, all servers and failures of the connection, 32 and 64 bit ints, all interleavings of other calls of the pool", "why_tests_cant": "Every byte slice, every server, and every later history of the pool.", "anchors": ["netx/connection/connection.go: Send, ReadResponsesToSlice", "netx/pool/fifoch/fifoch.go: Send"]}
{"id": "C85", "title": "A panic recovered inside a callback does no harm", "statement": "If the user recovers from a panic, inside of a callback or outside, and goes on, then what is sent is what the calls that did not panic stand for, in order; blocks are opened and closed in pairs, and the variables of InsertRow stay distinct.", "quantifier": "all programs of builder calls, callbacks, panics and recoveries, nested to any depth; all contents of the memory after the end of the buffer", "why_tests_cant": "Every point at which a panic may occur or be recovered from, in every nesting of callbacks, with every leftover of earlier uses in the buffer.", "anchors": ["builder.go: call, ExpectFailOnError, Tx, StmtExecute, Prepare, Execute, Deallocate, Delete, Insert, InsertRow, Update"]}
{"id": "C86", "title": "Recovered panics of pool calls do not harm the other callers", "statement": "If calls of a pool panic (because the connector or a connection panics in them, or because the pool has been closed meanwhile or already) and their callers recover, then for all the other calls nothing changes: a connection has one user at a time, at most size are idle, they are reused first-in first-out, none is closed twice or used after it was closed or failed, no call waits; and the connection a panicking call held is closed or put back.", "quantifier": "all pool sizes, all numbers of concurrent Send and Close calls, all interleavings, all sets of calls that panic and all points at which they can", "why_tests_cant": "The panics depend on interleavings of Send and Close, and their harm, if any, on all that is called later.", "anchors": ["netx/pool/fifoch/fifoch.go: Send, Close"]}
{"id": "C87", "title": "A builder used from inside one of its own calls", "statement": "If the AppendAny or AppendExpr of an argument uses the builder to whose method the argument was given, while that method runs, then the use panics, as it does for a builder whose block is still open, or the messages of both calls are sent whole.", "quantifier": "all methods that take arguments, all user-defined encoders, all programs they run on the builder, all buffers and capacities", "why_tests_cant": "What happens depends on the capacity of the buffer relative to the lengths of both calls' messages.", "anchors": ["builder.go: StmtExecute, Execute, Update, Delete", "crud.go: InsertF, UpdateF, Row, Set"]}
{"id": "C88", "title": "An expression keeps the operands it was built from", "statement": "An expression built by In, InV, NotIn, NotInV, Concat or an operator stands for the operands it was given, also if the caller changes the slice that held them before the expression is given to a builder; and encoding it ends.", "quantifier": "all operands, nested to any depth, all slices, all changes of them between building and encoding", "why_tests_cant": "The caller may change the memory in any way at any time between building and use; a test fixes one.", "anchors": ["expr.go: In, InV, NotIn, NotInV, Concat, Eq", "xproto/expr.go: appendExpr, AppendExprOperator, AppendExprFunctionCall"]}
{"id": "C89", "title": "A panic recovered inside an InsertF or UpdateF callback does no harm", "statement": "If the callback of InsertF or UpdateF recovers from panics of Row or Set, or of uses of builders in scope that panic because they are in use, and goes on in any way, then the call returns; if there is no error then, exactly one message has been appended, with exactly the rows or sets of the calls that returned, in their order, and nothing of those that panicked; and the builder can be used as before.", "quantifier": "all callbacks with any number of recovered panics whose continuation depends on them, all rows, values and criteria, all contents of the buffer, all memory the panicking call leaves behind; that the call returns is claimed for arguments without the values C22 and C23 show to be encoded wrongly (variable names of more than 123 bytes, the least duration, durations of 2^32 seconds or more where int has 32 bits)", "why_tests_cant": "A panic may happen after any part of a row has been written to memory that later rows use; a test has one point and one memory.", "anchors": ["crud.go: InsertF, UpdateF, Insert.Row, Update.Set", "builder.go: Builder", "xproto/insert.go: AppendInsertRow", "xproto/update.go: AppendUpdateSet"]}
{"id": "C90", "title": "A Send's responses belong to its own unit, also after an earlier Send on the same connection failed", "statement": "If a Send on a connection failed, because its deadline passed before all replies had arrived or because its unit was written only in part, then later Sends on that connection either fail or return the server's responses to their own units.", "quantifier": "all units, all replies, every point at which the deadline cuts the stream of replies, every way the rest arrives later in pieces, all later units, any number of Sends", "why_tests_cant": "Whether a late reply is mistaken for another one depends on where exactly the deadline cut the stream; a test has one cut, and a time out is hard to place.", "anchors": ["netx/connection/connection.go: Connection.Send, Connection.Read", "netx/pool/fifoch/fifoch.go: Send"]}
{"id": "C91", "title": "A pipe writes nowhere but in its own memory, and pipes do not influence each other", "statement": "Whatever is called on a pipe, with whatever user code in its arguments, and whether the calls return or panic: memory that does not belong to the pipe's buffer is not changed, so slices of the caller and of other pipes show the same bytes. However the uses of any number of pipes are interleaved (New, calls with callbacks, Reset, Send), every pipe sees the results, errors, panics and sent bytes that it would see if it were the only one.", "quantifier": "all programs of calls with callbacks, all user encoders, all contents of memory, all capacities and growth policies, all interleavings of any number of pipes at call granularity", "why_tests_cant": "The encoders write in place into spare capacity, reslice beyond the length, shift bytes and share arrays between parent and child builders; whether some write lands outside depends on capacities, lengths and growth.", "anchors": ["slice/slice.go: ForAppend, Insert, Allocate", "xproto/any.go", "xproto/expr.go", "builder.go: Builder.call", "xpipe.go: New, Send, Reset"]}
{"id": "C92", "title": "The bytes given to a Sender stay as they are until the pipe is Reset and used again", "statement": "The slice that Send hands to the Sender shows the same bytes however the pipe is used afterwards, also if calls panic and are recovered from, as long as the pipe is not Reset and user code does not change bytes it did not append. After a Reset the pipe builds in the same memory, so a Sender that kept the slice sees the new bytes.", "quantifier": "all programs run after the Send, any number of them, panicking or not, all buffer sizes and growth policies, all memory", "why_tests_cant": "Later calls patch lengths and shift bytes in the same array; a test has one layout.", "anchors": ["xpipe.go: Send, Reset", "builder.go: send, reset", "slice/slice.go: Insert", "xproto/insert.go", "xproto/update.go"]}
{"id": "C93", "title": "Session messages are made in place without damage to the data, the buffer or other memory", "statement": "The authentication mechanisms compute the names, the digests, the proof and its hexadecimal digits on top of each other in the buffer they are given and put the message behind them. Whatever the buffer's length, capacity and old content, and whether everything fits or not: the message that is returned is the one the protocol prescribes for the credentials and the challenge, what was in the buffer stays, and no slice that has no element in common with the buffer, the challenge in particular, changes. Authenticate, which uses one array of 128 bytes for both messages, behaves as if each were made in a buffer of its own. xproto.Reset appends to what it is given.", "quantifier": "all buffers, credentials, challenges, growth policies, memories, connections and replies; any hash functions with digests of 20 and 32 bytes", "why_tests_cant": "Source and destination of the digests, the hexadecimal digits and the message overlap or touch in one array; a test has one set of lengths.", "anchors": ["xproto/authentication.go: AuthenticateStart, AuthenticateContinue", "netx/connector/authentication/mysql41/mysql41.go", "netx/connector/authentication/sha256/sha256.go", "netx/connector/authentication/plain/plain.go", "netx/connection/connection.go: Authenticate", "slice/slice.go: Allocate", "xproto/xproto.go: Reset"]}
{"id": "C94", "title": "A []byte argument is sent with the contents it has when the call is made", "statement": "A call that is given slices of bytes, as []byte, XML, JSON or Geometry, directly, through a pointer, in a row, in an operator or in a function call, does what it does when given copies of them made just before: the same message is built, and the same is written to memory, although the slices are only read while the message is being written and may overlap each other. When the call has returned the caller may overwrite them and what has been built stays. This holds for slices which share no memory with the pipe, and, if user code changes nothing it did not append, for slices of what the pipe has already built. It fails for slices in the room behind it: a Sender that kept its unit and passes it to the pipe after Reset has other bytes sent.", "quantifier": "all calls and programs, values nested to any depth, slices anywhere in memory, overlapping or not, buffers, growth policies, user code", "why_tests_cant": "Where the slices lie relative to the buffer, and when the buffer moves while they are read, depends on lengths and capacities; a test has one layout.", "anchors": ["xproto/any.go: AppendAnyBytes", "xproto/expr.go: AppendExprBytes", "expr.go: XML, JSON, Geometry", "builder.go: StmtExecute, Execute, Insert, Update, Delete, InsertRow", "xpipe.go: Send, Reset"]}
{"id": "C95", "title": "The memory of an argument may be used again as soon as the call, Row or Set it was passed to has returned", "statement": "A program that fills slices of its own, passes them to calls, to Row or to Set, reads them, and fills them again for the next call as soon as that has returned, also inside of callbacks and between two Rows of one InsertF, builds what it builds when every call is given copies of what is in its arguments at that time, with the same errors and panics; and the slices have in the end the contents the program gave them. So one buffer does for the rows of an insert, or for the arguments of any number of statements. The slices must share no memory with the pipe.", "quantifier": "all programs, callbacks, writes and reads, slices overlapping each other or not, lengths, buffers, growth policies, user code", "why_tests_cant": "Whether anything is kept by reference between the calls shows only for the particular order of writes and calls, and for the place the buffer is in at the time, including the moments it moves.", "anchors": ["builder.go: StmtExecute, Execute, Insert, Update, Delete, InsertRow, Tx, Expect", "crud.go: InsertF, UpdateF, Insert.Row, Update.Set", "xproto/any.go: AppendAnyBytes", "xproto/expr.go: AppendExprBytes"]}
{"id": "C96", "title": "Replies are looked at with the bytes the server sent, although in buffers that are used again", "statement": "Send, WriteOne and Authenticate look at replies in place, in one read buffer of 4096 bytes whose contents are moved and overwritten as more is received, and in a larger one that is used for the next large reply too; their results, and what is left to be read, are those of reading the server's bytes in order, whatever the buffers contained before, wherever in them a reply lies, in whatever pieces the bytes are received, and whether the connection reports its end with the last bytes or after them. Reading always comes to an end; a connection that gives neither bytes nor an error a hundred times in a row gets an error where a reply begins. After a switch to TLS nothing received before it is seen.", "quantifier": "all streams, segmentations (empty pieces too), buffer contents and positions, requests, mechanisms, 32 and 64 bit ints", "why_tests_cant": "Whether a slice is still what it was depends on where in the buffer the reply lies and on how the bytes arrive, which a test does not control.", "anchors": ["netx/connection/connection.go: New, Reset, Read, Send, WriteOne, Authenticate, ReadResponsesToSlice, minBufSize"]}
{"id": "C97", "title": "Replies may say more than the .proto files declare", "statement": "A newer server may put fields with numbers the .proto files do not declare, and groups of any content and depth, anywhere between the fields of its error, column meta data and authentication challenge messages, anything into the messages the client does not look into, and further messages that end no reply, also of unknown types, between them: Send, WriteOne and Authenticate return the same responses, server errors and errors as without, and the connection goes on as without. A message of these three types that does not consist of fields and groups is refused with the decoding error.", "quantifier": "all requests, all streams of replies and all ways to extend them (fields of all wire types, groups in groups, extensions of extensions, further messages), with any bytes after the messages, all segmentations, deadlines and write results, both int sizes, all authentication mechanisms", "why_tests_cant": "Extensions can be at any field boundary, nested to any depth, and in any number of messages; a test tries a few known replies.", "anchors": ["netx/connection/connection.go: Read, Send, WriteOne, Authenticate", "netx/connection/errors.go: MySqlXError", "protobuf/mysqlx.proto: Error, ServerMessages.Type", "protobuf/mysqlx_session.proto: AuthenticateContinue", "protobuf/mysqlx_resultset.proto: ColumnMetaData"]}
{"id": "C98", "title": "Pool calls are free of data races", "statement": "However many goroutines call Send and Close of a pool at the same time: of two accesses to the same memory (the pool's fields, a connection and everything it uses) by different calls, of which one may be a write, one always happens before the other in the sense of the Go memory model, so a connection used by one goroutine can be used by the next without further synchronisation. The pool's lock is held by one call at a time and only for a moment: a call that wants it gets it after at most a few steps of the call that has it, whatever servers do. With the lock the calls behave exactly as described without it.", "quantifier": "all pool sizes, all numbers of calls, all interleavings of their steps (also in the middle of a connection's Send or Close), all outcomes of dialling and sending, all pairs of accesses in the whole history", "why_tests_cant": "The race detector sees only the schedules that happen to be run; a missing ordering shows up on few schedules, compilers or processors.", "anchors": ["netx/pool/fifoch/fifoch.go: New, Send, Close, getCh"]}
{"id": "C99", "title": "Calls return by their context's deadline", "statement": "Send on a connection, connecting (dialling, the request for TLS, the handshake, both attempts to authenticate) and Send on a pool are over by the deadline of the context they are given, plus the time to close a connection that failed, whatever the server does: if it is slow, silent, trickles single bytes or never stops sending. What they return, in time, is what they return to the same bytes on a network without delays, so nothing is lost by having a deadline except what had not arrived. They also return soon after the context has been cancelled.", "quantifier": "all contexts, all durations of every read, write, dial and handshake (also infinite ones), all byte streams a server may send (also infinite ones), all states an earlier call may have left the connection in, all units of work", "why_tests_cant": "A test waits for a finite time on a few servers; that a call never outlasts its deadline, or never returns, is about all servers and all times.", "anchors": ["netx/connection/connection.go: Send, WriteOne, Read, Authenticate", "netx/connector/connector.go: New", "netx/pool/fifoch/fifoch.go: Send"]}
{"id": "C100", "title": "Send and the server never wait for each other for ever", "statement": "Over a network that holds a limited number of bytes in each direction, Send of a unit of work returns the server's responses to all of its messages, whatever the sizes of the requests and replies, and in whatever order and pieces client, network and server move bytes.", "quantifier": "all units of work and all conforming replies to them, all capacities of the network, all schedules of the writes and reads of both sides and all sizes of the pieces they move", "why_tests_cant": "Whether a unit blocks depends on the sizes of kernel buffers and replies and on the schedule; a test with small units never shows it, and a blocked test cannot tell waiting from waiting for ever.", "anchors": ["netx/connection/connection.go: Send"]}
{"id": "C101", "title": "A value's own encoder runs exactly once per call it is passed to", "statement": "A builder call runs the AppendAny or AppendExpr method (or AppendExprFunc) of each of its values exactly once, from left to right, each after the one before has returned; none runs after one has failed, and none at all on a builder that has an error or is disabled. The message says what the encoders said then, so that values with state (counters, readers, sources of rows) can be passed.", "quantifier": "all calls, all values (pointers, operators and function calls around the encoders), all encoders, also those that read and change any state, fail or panic, all initial states", "why_tests_cant": "Whether some nesting of pointers, operators, rows and errors makes a call encode a value twice, skip one, or go on after an error cannot be seen from examples.", "anchors": ["xproto/any.go: appendAny", "xproto/expr.go: appendExpr, AppendExprOperator, AppendExprFunctionCall", "xproto/insert.go: AppendInsertRow", "xproto/update.go: AppendUpdateSet, Update", "builder.go", "crud.go"]}
{"id": "C102", "title": "Data cannot become SQL", "statement": "The statement texts a unit of work contains are those the program passed to StmtExecute and Prepare and the fixed ones of Tx and InsertRow; the values passed as arguments, row values, set values and operands of criteria change nothing in what is sent but the scalars (and the numbers in the names of InsertRow's variables): not the texts, the tables and columns, the number and order of messages, or the structure of expressions.", "quantifier": "all programs, all pairs of programs that differ in their data only, all data; except in the arguments of a single StmtExecute, the values C22 and C23 show to be encoded wrongly are left out (variable names of more than 123 bytes, the least duration, durations of 2^32 seconds or more where int has 32 bits)", "why_tests_cant": "An injection is one input out of all possible inputs; tests with some quotes and semicolons do not show that there is none.", "anchors": ["builder.go: StmtExecute, Prepare, Execute, Insert, InsertRow, Update, Delete, Tx", "crud.go: InsertF, UpdateF", "xproto/any.go", "xproto/expr.go"]}
{"id": "C103", "title": "Goroutines may build and send at the same time, each with a pipe of its own", "statement": "When any number of goroutines make, use, reset and send pipes at the same time, each its own pipe, there is no data race: no two of them access the same array, none accesses memory that was there before, and none accesses memory out of range, even where a call panics. A goroutine never waits for another, always comes to its end, and sees the results, errors, panics and sent bytes that it would see alone, whatever the schedule.", "quantifier": "all numbers of goroutines, all programs of each with all user encoders, all schedules that interleave single memory accesses, all growth policies, all contents of memory", "why_tests_cant": "The race detector sees only the accesses of the schedules and inputs that were run.", "anchors": ["xpipe.go: New, Send, Reset", "builder.go", "crud.go", "slice/slice.go: ForAppend, Insert", "xproto/*.go"]}
{"id": "C104", "title": "Goroutines with pipes of their own may be given the same []byte arguments at the same time", "statement": "Any number of goroutines use pipes of their own at the same time, with []byte, XML, JSON and Geometry arguments that are slices of memory they share and that may overlap, anywhere in values, pointers, operators, functions, rows and assignments. A call only reads its arguments, and nothing else that was in memory before; so there is no data race, the arguments stay as they are, and each goroutine sees and sends what it would alone, given the contents of its arguments.", "quantifier": "all numbers of goroutines, all programs of each with all user encoders, all slices of shared memory, all schedules that interleave single memory accesses, all growth policies", "why_tests_cant": "The race detector sees only the accesses of the schedules and inputs that were run.", "anchors": ["xproto/any.go: AppendAnyBytes, appendAny", "xproto/expr.go: AppendExprBytes, appendExpr", "expr.go: XML, JSON, Geometry", "xpipe.go: New, Send, Reset", "builder.go", "crud.go"]}
{"id": "C105", "title": "Goroutines may open connections at the same time with one Connector", "statement": "Any number of goroutines call New of the same Connector at the same time. No two of the calls access the same memory, so there is no data race and no message of one gets into the buffer of another; memory that was there before stays as it is; no call accesses memory that does not exist; and each returns the error it would return alone and has sent on its connection what it would send alone, without waiting for the others.", "quantifier": "all numbers of goroutines, all Connectors (with or without TLS, with MYSQL41, SHA256_MEMORY or PLAIN, all credentials below 1 GiB, all digest functions), all dialled connections and servers, all deadlines, all schedules that interleave single memory accesses, all growth policies", "why_tests_cant": "The race detector sees only the accesses of the schedules, credentials and challenges that were run.", "anchors": ["netx/connector/connector.go: New", "netx/connection/connection.go: Authenticate", "netx/connector/authentication/mysql41/mysql41.go", "netx/connector/authentication/sha256/sha256.go", "netx/connector/authentication/plain/plain.go", "xproto/authentication.go: AuthenticateStart, AuthenticateContinue", "slice/slice.go: Allocate"]}
{"id": "C106", "title": "Goroutines that build with own pipes may send through one pool", "statement": "Any number of goroutines build units of work at the same time, each with a pipe of its own, and send them through one pool; what each does next may depend on all it has seen, also on the answers. No two goroutines access the same memory, the Sender's reads included, so there is no data race; memory that was there before stays as it is. The bytes that a connection gets for a Send are exactly those the goroutine built before it, whole and on one connection, whatever the others build meanwhile; the responses a Send returns are the server's answers to that unit; each goroutine sees what it would see alone with these answers; and no goroutine ever waits for another: unless a call of the pool panics, it comes to its end by its own steps, and these are finitely many.", "quantifier": "all numbers of goroutines, all plans (programs that choose their next step from what they have seen), all pool sizes, all initial memories, all growth policies, all schedules that interleave single memory accesses with the steps of the pool and the connections; for the answers all servers that answer each request with one reply", "why_tests_cant": "The race detector and tests see only the schedules, programs and replies that were run, and a buffer that is changed between the call of Send and the Write needs one exact interleaving to show.", "anchors": ["xpipe.go: New, XPipe.Send, XPipe.Reset", "builder.go", "netx/pool/fifoch/fifoch.go: Send", "netx/connection/connection.go: Send, ReadResponsesToSlice"]}
{"id": "C107", "title": "The instant of a time survives", "statement": "The text that the server is given for a time.Time, as an argument or in an expression, identifies its instant: times that are Equal are given the same text, and times that are not are given different texts, which in the years 0 to 9999 are ordered like the instants. The code guarantees this only among times of one offset: the offset is not sent, so equal times of different offsets are given different texts, for every time and every other offset there is a different instant with the same text, and even in one location the texts of the hour before and the hour after clocks are set back are the same.", "quantifier": "all instants (int64 seconds and nanoseconds), all offsets, all pairs of times, all locations (functions from instants to offsets) and all changes of clocks, all fields and both widths of ints", "why_tests_cant": "It is a statement about all pairs of instants; tests compare a few times, mostly in UTC or in the location of the machine, and the text for each of them looks right.", "anchors": ["xproto/any.go: appendAnyTime", "xproto/expr.go: appendExprTime"]}
{"id": "C108", "title": "What failed can be sent again", "statement": "From what Send returns for a unit of work (a transaction in an expectation block) a caller can tell whether it was done, so that sending it again on a new connection after it was not does it exactly once. The code guarantees this for some results only: an error response to any message up to the COMMIT, or a deadline that could not be set, means that nothing was done, and a success response to the COMMIT that is not the last response beside an error means that all was done; any number of tries with results of the first kind and one of the second leaves the work done once. A read or a write error with no more than success responses does not tell: the same result comes back whether or not the unit was done, and sending it again may do it twice.", "quantifier": "all units of work (all programs of calls, levels and prepared statements), all states of the server, all points at which the connection breaks in either direction, all outcomes of the messages, all numbers of tries, both server rules for nested blocks and both widths of ints", "why_tests_cant": "It is a statement about every point at which a connection can break and about pairs of runs that look the same to the caller; a test sees one side of one run.", "anchors": ["netx/connection/connection.go: Send", "netx/connection/connection.go: ReadResponsesToSlice, Read", "netx/pool/fifoch/fifoch.go: Send"]}
{"id": "C109", "title": "Sends take effect in the order in which they are made", "statement": "If a Send is made after another Send has returned, whether on the same or on another connection to the server, the server acts on all messages of the earlier unit before the first message of the later one. The code guarantees this if the earlier Send returned without an error: then its messages have all been acted on, each once and in order, before it returned, and none of them is acted on afterwards. If it returned an error it does not: its messages may be acted on after all those of a later unit.", "quantifier": "all numbers of Sends, all units and replies, all interleavings of the calls, the network and the servers, all sizes of the network's buffers and all pieces in which bytes travel, all points at which a call fails and all errors, both widths of ints", "why_tests_cant": "The order depends on when buffered bytes are read by the server relative to calls in other goroutines; a test observes a few of the unboundedly many interleavings.", "anchors": ["netx/connection/connection.go: Send", "netx/pool/fifoch/fifoch.go: Send"]}
{"id": "C110", "title": "A unit of work takes effect at one instant, between the call and its return", "statement": "When goroutines Send units of work (a transaction in an expectation block) on connections of their own, the durable data of the server is at all times made of whole units, one after the other, each at most once and never taken back. A unit is not part of the data before its Send is called. When its Send has returned without an error, the response to the COMMIT says whether it is: if that is a success it has been before Send returned, and if it is an error it never will be. So a unit whose Send is called after another's returned with that success comes after it in the data.", "quantifier": "all numbers of Sends, all units of work whose bodies manage no transactions themselves, all outcomes of their messages, all interleavings of the calls, the network and the servers, all sizes of the network's buffers and all pieces in which bytes travel, all points at which calls fail, both server rules for nested blocks and both widths of ints", "why_tests_cant": "It is a statement about every interleaving of any number of concurrent calls, with bytes in buffers and calls that fail at any point; a test sees a few of them and cannot tell when in between the server committed.", "anchors": ["netx/connection/connection.go: Send", "builder.go: Tx, ExpectFailOnError"]}
{"id": "C111", "title": "The password does not show on an unprotected connection", "statement": "What others can observe of Connector.New on a connection that is neither a unix socket nor inside TLS - everything written, when deadlines are set, when it is closed, and what New returns - is the same for two accounts that differ only in passwords with the same digest, whatever the server says: with MYSQL41 (the default) the SHA-1 digest and whether the password is empty, with SHA256_MEMORY the SHA-256 digest. With a TLS configuration on TCP what happens outside TLS is the same for all accounts, names included. Only a caller who chooses PLAIN sends the password on an unprotected connection; then it is sent.", "quantifier": "all hash functions, all accounts and pairs of passwords, all behaviours of the peer and the network (replies, errors, segmentation), all results of the handshake, all deadlines, all buffer contents and both widths of ints", "why_tests_cant": "It compares pairs of runs for every behaviour of a possibly hostile server; a test can look for the password in what a few runs write but not show that nothing depends on it.", "anchors": ["netx/connector/connector.go: New", "netx/connector/authentication/mysql41/mysql41.go: Start, Continue", "netx/connector/authentication/sha256/sha256.go: Start, Continue", "netx/connector/authentication/plain/plain.go: Start", "netx/connection/connection.go: Authenticate, IsSecure"]}
{"id": "C112", "title": "A Sender may be used by many goroutines at once", "statement": "When goroutines call Send of one Sender at the same time, each gets the responses to its own unit. The code guarantees this for pools (C61, C106) but not for connections, although both are a Sender: on a connection it holds if the Sends take turns, and for every two units there is an interleaving in which the Sends return without an error, the one the first responses and the other the last ones, whose units they belong to notwithstanding (so with equally many messages each returns the other's), the first reads under the deadline of the second, and the connection is in sync afterwards.", "quantifier": "all numbers of goroutines, all units and replies, all orders of the calls on the connection, all deadlines and both widths of ints; the refutation holds for every pair of units with replies that are not fatal", "why_tests_cant": "It is a statement about all interleavings; sequential tests pass, and concurrent ones fail only in some runs and without an error that would show it.", "anchors": ["netx/netx.go: Sender, Conn", "netx/connection/connection.go: Send, ReadResponsesToSlice, Read", "netx/pool/fifoch/fifoch.go: Send"]}
{"id": "C113", "title": "A transaction runs at the isolation level it was asked for", "statement": "Every change made in Tx is made in a transaction of the isolation level passed to Tx: the level of that name, for IsolationLevelDefault the level of the session, and for IsolationLevelSnapshot in a transaction that reads from a snapshot. The code guarantees it for the levels with names, whatever fails and whatever earlier units did on the connection. For the other two it holds if no level is left over on the connection, and with a snapshot only if the level of the session is REPEATABLE READ: a unit whose START TRANSACTION fails leaves its level to the next caller's default transaction, and a snapshot transaction at another level silently has no snapshot.", "quantifier": "all units of work of the README's form, all isolation levels, all states of the session, and all ways the server can execute, fail or skip the messages; the refutations hold for every unit and every pair of units", "why_tests_cant": "The level depends on what failed in earlier units on the pooled connection and on the server's settings; tests see one server with default settings and statements that succeed.", "anchors": ["builder.go: Tx, IsolationLevel", "netx/pool/fifoch/fifoch.go: Send", "README.md: Begin transaction"]}
{"id": "C114", "title": "An error reaches no further than the expectation blocks it happens in", "statement": "The server skips a message only because an error has happened earlier in an ExpectFailOnError block of the same unit that is still open when the message comes. Messages outside of blocks are never skipped, and what happens in one unit, whatever it contains, has no influence on which messages of other units on the same connection are executed, fail or are skipped.", "quantifier": "all units built by any calls, nested blocks included, any number of them on one connection or on the connections of a pool in any interleaving of Sends, and all ways in which the server can execute or refuse the messages, whether or not the error of a block's Close counts as an error in the block around it", "why_tests_cant": "It is a statement about all sequences of units and all places where the server may fail in them; tests fail a few messages of a few units.", "anchors": ["builder.go: ExpectFailOnError, Tx", "xproto/expect.go: ExpectOpen, ExpectClose", "netx/pool/fifoch/fifoch.go: Send"]}
{"id": "C115", "title": "The size of what is sent follows from the arguments", "statement": "What a unit sends, and every single message of it, is no larger than the strings and byte slices the application passed, each counted once, plus a constant for every name, value, operator, function, row, column and block. So an application that limits its arguments knows, before it calls, that each message is below a size (such as the server's limit for packets or the 4 GiB of the frame header), that all of the unit is, and that it is then sent and read as what was written.", "quantifier": "all programs of builder calls, with nested blocks and with the variables of InsertRow used anywhere, all arguments of the supported types (not types that append their own bytes), and all states and capacities of the empty buffer; that it is read as what was written, without the values C22 and C23 show to be encoded wrongly", "why_tests_cant": "The bound must hold for arguments of all lengths, including lengths whose encoded length fields grow, and all nestings of expressions; tests have a few short ones.", "anchors": ["builder.go: StmtExecute, Insert, InsertF, InsertRow, Update, UpdateF, Delete, Tx, ExpectFailOnError", "xproto/any.go", "xproto/expr.go", "slice/slice.go: ForAppend"]}
{"id": "C116", "title": "Building a unit allocates memory in proportion to its size", "statement": "The memory allocated while a unit of work is built, over all the times its buffer grows, is at most a constant multiple of the unit's size, whatever the capacity of the pipe was, and none is allocated in a pipe that is large enough. The code guarantees it for units without operators, function calls and Update values; for units with them the memory is at most about the square of the size divided by 170, and there are batches of simple updates for which no constant multiple is enough.", "quantifier": "all programs of builder calls, nested blocks included, all argument values without user code, all pipes and states of memory, and all runtimes whose append grows slices by at least a quarter; the refutation holds for every factor, every first capacity and every runtime", "why_tests_cant": "It is a bound over all programs and sizes, and the quadratic case appears only when message sizes meet the remaining capacity in a certain way, again and again.", "anchors": ["slice/slice.go: Insert, ForAppend", "xproto/update.go: AppendUpdateSet", "xproto/expr.go: AppendExprOperator, AppendExprFunctionCall", "builder.go", "xpipe.go: New"]}
{"id": "C117", "title": "A pool needs no more connections than there are concurrent calls", "statement": "The connections of a pool that are open are at no moment more than the calls that were in progress at the busiest moment so far. If the pool's size is at least that number and nobody calls Close, a connection is closed only because an exchange on it failed, so all Sends together dial at most that many connections and one more for each exchange that failed.", "quantifier": "all interleavings of any number of concurrent Send and Close calls, with any outcomes of dialling and of exchanges and any cancellations, all sizes", "why_tests_cant": "The bound depends on every order in which Sends see the channel, dial and put back; a test runs a few orders, and a leak or needless dial shows only in others.", "anchors": ["netx/pool/fifoch/fifoch.go: Send", "netx/pool/fifoch/fifoch.go: Close", "netx/pool/fifoch/fifoch.go: New"]}
{"id": "C118", "title": "It is known which responses belong to which call", "statement": "The responses of Send are in the order of the calls the unit was built with: one for each of StmtExecute, Prepare, Execute, Deallocate, Insert, InsertF, Update, UpdateF and Delete, two for InsertRow, one for entering and one for leaving Tx or ExpectFailOnError, and one more for entering Tx with an isolation level. So a caller finds the responses to any of their calls by counting, whatever the arguments are. If the server tells the truth, those responses are all nil exactly if the server executed all the call asked for; this holds for all calls if Send returns no error, and otherwise for those that a further response follows.", "quantifier": "all programs of builder calls, with nested blocks and InsertRow, all arguments, all ways the server can treat the messages, all points at which the server or the connection stops, all segmentations, all interleavings of pooled Sends", "why_tests_cant": "The count must be right for every combination and nesting of calls and arguments, and for every point at which replies can be cut; tests look at a few units with complete replies.", "anchors": ["builder.go: StmtExecute, Prepare, Execute, Deallocate, Insert, InsertF, InsertRow, Update, UpdateF, Delete, Tx, ExpectFailOnError", "netx/connection/connection.go: Send", "netx/pool/fifoch/fifoch.go: Send"]}
{"id": "C119", "title": "A pool recovers when its connections have broken", "statement": "When all connections of a pool break, for example because the server is restarted or closes idle connections, each costs at most one Send: of the Sends called afterwards at most as many fail with an error of their exchange as connections were open at that moment, and so at most as many as calls were in progress at the busiest moment before, or as the pool's size if no call was in progress when they broke.", "quantifier": "all interleavings of any number of concurrent Send and Close calls before and after, all sizes, all moments at which the connections break, all outcomes of dialling", "why_tests_cant": "Which Send meets which broken connection, and whether one could meet a second Send, depends on the schedule; a test sees a few schedules.", "anchors": ["netx/pool/fifoch/fifoch.go: Send", "netx/pool/fifoch/fifoch.go: New"]}
{"id": "C120", "title": "A value that is encoded wrongly spoils only its own message", "statement": "Where a unit has a value that this client encodes wrongly (C22, C23: a long variable name, the least duration), the unit is still one frame for every message the calls ask for, in order, each of the type of its message. The frames of all calls without such a value are the messages these calls stand for, and so are the statements that InsertRow adds and those that open and close blocks; the variables of InsertRow are distinct. A server that reads frame by frame gets everything else as it was written.", "quantifier": "all programs of builder calls with arguments of the supported types, any number of wrongly encoded values anywhere in them, nested blocks and variables of InsertRow used anywhere, all states and capacities of the empty buffer; units below 4 GiB", "why_tests_cant": "A length that is wrong inside a message could spoil the length of its frame, and with it all that follows, for some combination of values, positions and buffer capacities; a test tries a few.", "anchors": ["xproto/expr.go: AppendExprVariable", "xproto/any.go: appendAnyDuration", "xproto/scalar.go: AppendDuration", "builder.go: builder", "crud.go: InsertRow"]}
