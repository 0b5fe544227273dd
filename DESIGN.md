# Design of the xtorm model

## How to read this

* `properties.jsonl`: the properties in English. `MANIFEST.json`: which theorems prove which.
* `rocq/theories/Spec*.v`: the specifications, small files that do not mention the model's helpers.
* `rocq/theories/Thm*.v`: the theorems, each with a comment in English, examples that meet its
  hypotheses and a `Print Assumptions`.
* `seeded/LOG.jsonl`: wrong programs the theorems were tested against.

## What is modelled

`/repo` (Go) is modelled function by function as total Gallina functions. Every definition cites the
lines it models.

| model file | code | specification | theorems |
|---|---|---|---|
| GoSlice | slice/slice.go, Go slices | (lists) | ThmValues |
| Varint, Text, Values, AnyModel, ExprModel | xproto/protobuf.go, scalar.go, any.go, expr.go; expr.go:1-86 | SpecWire, SpecMsg, SpecValue | ThmValues |
| Operators | expr.go:88-430 | SpecOps (mysqlx_expr.proto's operator list) | ThmOps |
| MsgModel, Builder | xproto/xproto.go, insert.go, update.go, prepare.go, expect.go, authentication.go; builder.go, crud.go, xpipe.go | SpecMsg, SpecProg, SpecUnit, SpecTyped, SpecRefuse | ThmBuilder, ThmDefects, ThmTyped, ThmTypedShape, ThmTypedServe, ThmTypedWork, ThmTypedReplies, ThmTypedHistory, ThmTypedLedger, ThmTypedRetry, ThmTypedRecover, ThmTypedRecoverRow, ThmTypedBig, ThmTypedKept, ThmTypedReenter, ThmTypedOrder, ThmTypedNames, ThmTypedHeads, ThmTypedNull, ThmTypedFilter, TypedErrorProofs, ThmTypedError, ThmTypedText, ThmRefuse |
| (same) | the server's side of expectation blocks | SpecServer | ThmServer |
| (same) | which error is returned, which calls panic | SpecError, SpecPanic | ThmError, ThmPanic |
| Heap | xproto/any.go:346-411 on cyclic data | (acyclicity) | ThmHeap |
| Conn | netx/connection/connection.go, errors.go:9-22 | SpecReply | ThmConn, ThmSession |
| Unmarshal | protobuf-go's lexer (unmarshalPointer, ConsumeTag, ConsumeFieldValue), which proto.Unmarshal in connection.go:152-193 runs | SpecGroups (the grammar of the wire format, with groups), SpecMore | ThmMore |
| AuthModel | netx/connector/authentication/{mysql41,sha256,plain} | SpecAuth | ThmAuth |
| Connector | netx/connector/connector.go | SpecAuth, SpecReply | ThmConnector |
| Options | netx/connector/connector.go:23-53, 99-135 (New and its options); netx/connection/errors.go:16-18 | (lists) | ThmOptions |
| Pool | netx/pool/fifoch/fifoch.go | SpecPool | ThmPool |
| System (Pool and Conn composed) | a pool with its connections and what arrives on them | SpecSystem | ThmSystem |
| (Pool, System) | contexts that are done | (SpecPool) | ThmCancel |
| PoolMu (Pool with its mutex and the memory its steps use) | netx/pool/fifoch/fifoch.go | SpecRace (the Go memory model's happens-before) | ThmRace |
| Timed (Conn, Connector, one call of the pool, on a network that takes time) | netx/connection/connection.go, netx/connector/connector.go, netx/pool/fifoch/fifoch.go: Send | SpecTime | ThmTime |
| Flow (Send and a server, over a network that holds a bounded number of bytes) | netx/connection/connection.go: Send | SpecFlow | ThmFlow |
| Stateful (builder calls, whose encoders of the user have state) | xproto/any.go, expr.go, xproto.go, insert.go, update.go, prepare.go; builder.go, crud.go | SpecOnce | ThmOnce |
| (Builder) | statement texts and data | SpecInject | ThmInject |
| Fine, FineModel, FineRun | slice/slice.go, xproto/*.go, builder.go, crud.go, xpipe.go once more, as sequences of accesses to single bytes of memory; goroutines interleaved between any two of them | SpecFine | ThmFine |
| FineArg | xproto/any.go:142-182, xproto/expr.go:177-217 and the calls that take []byte, as sequences of accesses to single bytes, with the arguments in memory that goroutines share | SpecShare, SpecArg | ThmShare |
| FineAuth | xproto/authentication.go:48-70, authentication/{mysql41,sha256,plain}, netx/connection/connection.go:204-225 and netx/connector/connector.go:59-98 as sequences of accesses to single bytes, by goroutines that share a Connector | SpecOpen | ThmOpen |
| FinePool | xpipe.go:10-25 and builder.go as sequences of accesses to single bytes (FineModel.v), by goroutines that send through one pool (netx/pool/fifoch/fifoch.go:53-89 and netx/connection/connection.go:65-106 over System.v) | SpecPlan | ThmPlan |
| (AnyModel, ExprModel, Text) | xproto/any.go:263-282, xproto/expr.go:103-122 once more, with time.Time as an instant and an offset and the Gregorian calendar (the `time` package as documented) | SpecClock | ThmClock |
| (Conn, the server of SpecServer and SpecSession, connections that break) | netx/connection/connection.go:65-106 seen by a caller that sends a unit of work again | SpecRetry | ThmRetry |
| Overlap | netx/connection/connection.go:65-74, any number of Sends on connections of their own over the network of Flow, with servers that go on after a caller gave up | SpecOverlap | ThmOverlap |
| (Overlap, the server of SpecServer and SpecSession) | the data of a server with several sessions, which acts on the messages in the order of a timeline | SpecInstant | ThmInstant |
| (Connector, AuthModel, Conn) | what an observer of the connection sees of an account | SpecSecret | ThmSecret |
| Crowd | netx/connection/connection.go:65-74, 97-106, any number of goroutines on one connection | SpecCrowd | ThmCrowd |
| (Builder) | builder.go:14-23, 191-220 Tx, and the isolation levels of the server's sessions | SpecLevel | ThmLevel |
| (Builder, System) | builder.go:52-61 ExpectFailOnError, and which messages of all units on a connection the server skips | SpecApart | ThmApart |
| (Builder) | all calls of builder.go, and how many bytes they make | SpecSize, SizeProofs | ThmSize |
| (Mem, MemModel) | slice/slice.go, all encoders and builder.go: the arrays they allocate | SpecSpend, SpendProofs, SpendMore | ThmSpend |
| (Pool) | netx/pool/fifoch/fifoch.go: how many connections are open and dialled | SpecPeak, PeakProofs | ThmPeak |
| (Builder, Conn, System) | which responses belong to which call | SpecPlace | ThmPlace |
| (Pool) | netx/pool/fifoch/fifoch.go: Sends after connections have broken | (SpecPool, SpecPeak) | ThmRestart |
| PoolPanic | calls of a pool that panic and whose callers recover | (SpecPool) | ThmPoolPanic |
| Reenter | builder.go, arguments whose encoders use the builder that encodes them | SpecMsg, SpecUnit | ThmReenter |
| Alias | expr.go: In, InV, NotIn, NotInV, Eq, Concat, with the caller's slices in memory that changes | SpecValue, SpecUnit | ThmAlias |
| (Connector, System) | from dialling to the responses | SpecStart | ThmStart |
| (Builder) | the memory a pipe uses | SpecReuse | ReuseProofs, CapProofs, ThmReuse |
| RawSend | netx/connection/connection.go: Send, ReadResponsesToSlice for any bytes | (SpecReply) | ThmRaw |
| (Builder) | the server's transactions | SpecSession | ThmTx |
| (Builder) | the server's LAST_INSERT_ID() and user variables | SpecRows | ThmRows |
| (Builder) | the server's prepared statements | SpecPrepared | ThmPrepared |
| (Builder, Conn, System) | a server that tells the truth | SpecCommit | ThmCommit |
| (Builder, Conn, System) | all units of a session | SpecLedger | ThmLedger |
| (Conn) | broken replies | SpecBroken | ThmBroken |
| Late | connection.go:65-74, Sends one after the other on a connection whose reads time out | (SpecReply) | ThmLate |
| Alloc | connection.go:108-143, the buffers Read allocates | SpecAlloc | ThmAlloc |
| (Builder, Conn, AuthModel) | protobuf/*.proto | SpecSchema (generated from the .proto files), SpecProto, SpecNames, SpecReplyNames | ThmProto |
| History | xpipe.go and builder.go over a sequence of operations, with recovered panics | SpecHistory | ThmHistory |
| Recover | builder.go and crud.go, with panics recovered inside of callbacks | SpecRecover | ThmRecover |
| RecoverRow | crud.go:24-66, callbacks of InsertF and UpdateF that recover from panics | (SpecPanic) | ThmRecoverRow |
| Mem, MemModel, MemPipes | slice/slice.go, xproto/*.go, builder.go, crud.go, xpipe.go once more, over memory in which slices share arrays | SpecMem | ThmMem |
| MemKept | builder.go:31-63, 190-219 and crud.go, over memory, with builders, *Insert and *Update used after their callback | SpecKept | ThmKept |
| MemAuth | xproto/authentication.go:48-70, netx/connector/authentication/*, connection.go:204-225, over memory | (SpecAuth, SpecMem) | ThmMemAuth |
| MemArg | xproto/*.go, expr.go, builder.go, crud.go over memory, with []byte arguments as slices of it | SpecArg | ThmArg |
| MemBusy | builder.go, crud.go over memory, called by programs and callbacks that fill and read their own slices in between | SpecBusy | ThmBusy |
| MemRead | netx/connection/connection.go over memory, with Go 1.14's bufio.Reader and io.ReadFull after their source | SpecRead | ThmRead |
| Decimal | types/decimal.go | SpecDecimal | ThmDecimal |
| Collation, CollationTable (generated from the source) | collation/collation.go | (the constant's name) | ThmCollation |

* Bytes are `N`, byte conversions are `mod 256`. Go ints are `N`/`Z`/`nat` with explicit
  modular conversion wherever the Go code converts to a fixed width type. `Env.word32` says whether
  `int` has 32 bits; the theorems hold for both.
* A Go slice `p` is a record of its content `p[:len]` and its spare cells `p[len:cap]`
  (stale memory). `append` grows by an arbitrary policy with arbitrary new spare content
  (`Env.fresh`), so every theorem holds for every runtime growth policy and every stale content.
* Panics are the explicit outcome `Panic` of a result type; Go errors are values.
* Values passed as `interface{}` are an inductive type with one constructor per case of the
  Go type switches, user supplied functions are arbitrary Gallina functions.
* The specification (what a conforming receiver reads) is a separate generic protobuf wire
  parser and strict message decoders; it shares no helper with the encoder model.
* Builder programs are inductive trees of builder calls with callbacks; what a program sends is
  decoded and compared with what it says.
* A connection reads an arbitrary byte stream in arbitrary pieces; the pool is an interleaving state
  machine of any number of calls; the connector runs against an arbitrary peer.

### Not modelled

* netx/netx.go, netx/pool/pool.go (interfaces), the generated protobuf code under protobuf/ (its constants are copied into the model with a
  citation), netx/connection/errs/codes.go (constants for error codes only), tests and examples.
* Concurrent use of one builder or one connection (the API does not allow it), the Go memory model (except for the pool, C98, and for goroutines with pipes of their own, C103-C106), GC,
  running out of memory. In the value model (GoSlice and what is built on it) two slices that share an array are not represented;
  MemModel has them, as headers into arrays, and C91 proves that it agrees with the value model. MemAuth does
  the same for authentication; CapabilitySet, which is built by the protobuf library, is in neither. In them arguments are values; MemArg
  has []byte arguments as slices of memory and is proved to agree with MemModel where they are not in the room behind what is built (C94); MemBusy has programs that write to them between the
  calls (C95). User code in it is a function on slice values: the slice it returns is
  taken to be in the same array if it has the same capacity, else in a new one; what it does to memory other than that is not represented.
  MemKept and Reenter have two uses of one array that do interfere.
* Builder callbacks that block. Panics recovered inside of the functions given as values are not visible outside of them: such
  a function is one more function on slices. Recover and RecoverRow have those recovered anywhere else. A child builder used after its callback has returned, except in MemKept.
* Timing: a deadline is an opaque value handed to the connection, except in Timed, which has time but only one call at a time (waiting for the pool's lock is bounded
  by C98 instead).

### Values left out

The theorems about whole calls and units of work assume `no_known_defect` of the values in them (it is part of `values_ok`, `call_ok` and `prog_ok`):
no variable names of more than 123 bytes, not the least duration, and where int has 32 bits no duration of 2^32 seconds or more. These are what C22 and C23
show to be encoded wrongly, and C01_refuted, C02_refuted, C03_refuted and C08_refuted (ThmDefects) show that the hypothesis is needed: without it
what is sent may be another value or no message at all. The quantifiers in properties.jsonl say so where a theorem assumes it.

ThmTyped does without the hypothesis where nothing is said about what the values mean: frames (C07), that acceptable programs are sent (C08), independence of the buffer (C09, C11),
no panics (C54), sizes (C115) and, in ThmTypedShape, the statements around transactions (C13), expectation blocks (C15) and the variables of InsertRow (C17) hold for every program whose arguments are what Go's types guarantee (`typed_prog` in SpecTyped). C120 says how far the damage goes: not beyond the message. ThmRefuse proves that what cannot be sent (C10, C14, C16, C51) is refused whatever the other
arguments are; for values of unsupported types and ragged rows it assumes nothing at all of them, neither sizes nor a contract of user code.

ThmTypedServe, ThmTypedWork, ThmTypedReplies, ThmTypedHistory, ThmTypedLedger and ThmTypedRetry do the same for what happens to the frames afterwards: Send (C27, C84), the order on the connections of a pool (C62), what servers skip (C114), what a COMMIT means (C47), that
units of work are all or nothing (C63), at which level of isolation they run (C113), and what the responses tell (C73, C118), what a pipe
holds that is used again and again (C66), what a unit leaves behind for the next one (C64), which prepared statements are run and left (C71, C72),
what many units leave in the data (C74),
and what can be sent again (C108). A server may take a frame it cannot read for any message of its kind (`taken_for` in SpecTyped), so nothing is assumed of what it does with it;
C47_unreadable_is_not_committed adds that a server which does not execute such a frame does not execute the COMMIT after it either.
ThmTypedRecover and ThmTypedRecoverRow do it for what programs and callbacks that recover from panics send (C85, C89), ThmTypedBig for units of 4 GiB and more (C46, C08),
ThmTypedKept and ThmTypedReenter for what builders overwrite that are used after or during their calls (C68, C87),
ThmTypedOrder for the order of maps (C18), and ThmTypedNames for servers that read with the .proto files (C75) and for the operands of expressions (C88). ThmTypedHeads proves that such values
leave alone what a message says before them: the id of Execute (C20), and that inserts and updates address a table (C53). ThmTypedNull
proves that durations encoded wrongly are never sent as NULL, so that NULL arrives exactly for nil (C05). ThmTypedFilter
proves that such values, in assignments or inside criteria, never make an Update, UpdateF or Delete lose its criterion or gain one (C19). ThmTypedError
proves that such values are never the fault a call reports: the error is that of the first faulty part, and a call without one is sent (C60). ThmTypedText
proves that durations encoded wrongly change neither the text of StmtExecute (C102) nor the id of Execute (C20), nor the number of arguments or the other arguments.

Sizes that no memory reaches are left out too: strings have less than 2^62 bytes (`go_string`), and the weight of a call is below 2^61 where a theorem says that it succeeds.

## Trusted base

* Coq 8.16.1's kernel (`vm_compute` is used in examples and in the finite table of collations).
* `Print Assumptions` says "Closed under the global context" for every theorem in `MANIFEST.json`:
  no axioms, not even the standard library's. Only Coq's standard library is used. (`coqchk` lists seven axioms of the
  standard library's module `Coq.ssr.ssrunder`, which gets loaded; no theorem depends on them.)
* The hand translation from Go to Gallina, cited line by line in the model files. RepoTests.v runs the project's own tests (xproto/xproto_test.go and the
  units of xtorm_test.go) on the model as a check of it: each gives what the test expects, and the decoded values agree where the tests say "TODO Value checks".
* The decoders in the `Spec*` files being a correct reading of the protobuf wire format and of
  `/repo/protobuf/*.proto`. They are strict: they accept only what the encoder should produce, so
  "decodes to" is at least as strong as for a real decoder. C75 and C76 prove this: what the hand written decoders accept
  a generic reader (SpecProto) driven by the field tables of the .proto files (SpecSchema) reads as the same, field by field.
  So what remains to be trusted here is SpecWire's lexer, SpecProto, and the names SpecNames gives to the values.
* Library code the modelled code calls, as modelled: Go's `append`, `copy`, slicing; `bits.Len`,
  `bits.Mul64`, `bits.Add64`; `binary.PutUvarint`, `LittleEndian`, `BigEndian`; `strconv`;
  `time.AppendFormat`; `bufio.Reader.Peek/Discard/Reset`, `io.ReadFull` (in Conn by what they do; in MemRead after their source, and proved equal, C96); `hex.Encode`;
  `proto.Marshal` of one message and `proto.Unmarshal` of three (its lexer after its source, in Unmarshal, and proved equal to the grammar of SpecGroups); channels and `select` (Pool).
* `crypto/sha1` and `crypto/sha256` are arbitrary functions with digests of 20 and 32 bytes.
  The TLS handshake is an oracle: failure, or an arbitrary new stream.
* Timed (C99 only): net.Conn's deadlines (an operation returns by its deadline; one whose deadline has passed fails at once), also through tls.Conn; DialContext
  returns when its context is done; each operation of a net.Conn takes at least one tick, the client's own computations none; Close takes a bounded time.
* Flow (C100 only): TCP carries bytes in order and at most a fixed number of them in each direction (its two buffers and what the server has read ahead); a server
  reads a message, answers it, and reads the next one only when its answer is written. What Send does with the bytes it has got is Conn's Send.
* SpecServer (C47 only): how a server treats expectation blocks. If a callback opens further blocks C47
  needs a server in which the error of closing a failed block counts in the block around it.

* SpecSession (C63, C64, C73, C74 only): MySQL's rules on which changes are durable when. SpecRows (C65 only): MySQL's rules
  on LAST_INSERT_ID() and user variables.
* SpecCommit (C73, C74 only): the server's replies tell the truth about what it did.
* SpecSystem (C61, C62, C73, C74 only): the server answers each request with one reply (notices included) and sends nothing
  between the replies to one unit and the next unit.

## Plan per property

* C01 Statement arguments survive encoding: proved but for the least duration (refuted); decode(appendAny v) = the scalar v denotes, by case analysis over value kinds and lemmas on in-place writes.
* C02 Literal expressions survive encoding: proved but for the least duration (refuted); same for appendExpr.
* C03 Expression trees survive encoding: proved but for variables with names of 124 bytes or more (refuted); structural induction over expression trees, slice.Insert as a list insertion.
* C04 Encoding depends on the number, not on its Go width: equality of emitted byte lists for the eight integer encoders.
* C05 NULL is sent exactly for nil: model nil-ness explicitly; prove, and refute the cases the code gets wrong (nil pointer to a type with value methods, pointer to nil interface).
* C06 Pointers are transparent in arguments: induction on pointer depth.
* C07 A buffer is always a sequence of whole frames: frame parser over the final buffer, induction over programs.
* C08 The unit of work sent is the unit of work written: proved but for the values of C22 and C23 (refuted); semantic function from programs to message lists; decode(buffer) = messages; induction over programs.
* C09 Output does not depend on buffer history: run the same program from two arbitrary slices and two growth policies; the outcome (bytes, error or panic) is the same, also of programs that panic or use enclosing builders.
* C10 Errors are sticky and nothing is sent: induction over programs with error set; and, at any depth of callbacks, the first error is the one Send returns, and Send returns it exactly if the program comes to a step that reports it and does not panic.
* C11 Reset gives a fresh builder: run after reset versus run from New; bytes, errors and panics are the same.
* C12 Outer builders are unusable inside a callback: builder stack with disabled flags; panic for any outer call, and for Send and Reset, at any depth; flag restored after.
* C13 Transactions are bracketed: theorem on the message list of Tx.
* C14 A callback that returns an error prevents the commit: expected to be refuted: callback errors are discarded. Prove the refutation and what does hold.
* C15 Expectation blocks are balanced: bracket-language predicate on decoded messages, induction.
* C16 Rows must match the columns: Insert proved; InsertRow/InsertF refuted.
* C17 InsertRow variables are unique: strictly increasing buffer length, injectivity of decimal printing.
* C18 Map order does not matter in Update: permutation of map entries.
* C19 Criteria are present exactly when given: from the message theorems for Update and Delete.
* C20 Prepared statement ids and text survive: from the message theorems for Prepare/Execute/Deallocate.
* C21 Expectation conditions and context survive: from the message theorem for ExpectOpen.
* C22 Variable names survive: proved up to 123 bytes, refuted for every longer name.
* C23 Durations are sent with their value: read the text back to a number of seconds; exactly which durations go wrong is proved.
* C24 Times are sent with their fields and never panic: time formatting model; bound on the length.
* C25 Operator constructors emit documented operators: constructor table against the documented table; Regexp and NotBetween refuted.
* C26 Content types survive: corollaries of C01/C02 for the wrappers.
* C27 One response per request, in order, in sync: reader model on an arbitrary stream with fuel; induction over requests and reply messages.
* C28 Success means every reply was read: induction over requests on arbitrary streams.
* C29 Fatal and authentication errors stop Send: same model.
* C30 Reply size does not matter: compare the two paths of the reader model.
* C31 Server errors are reported faithfully: concrete protobuf decoder for Error.
* C32 MYSQL41 response is the specified proof: in-place array model with the hash as a section variable.
* C33 SHA256_MEMORY response is the specified proof: same.
* C34 PLAIN message format: direct.
* C35 Clear-text fallback only on secure connections: environment oracle and event trace.
* C36 No dialled connection is leaked by Connector.New: same; capability send failure leaks (refuted).
* C37 A pooled connection has one user at a time: invariant over an interleaving state machine.
* C38 The pool keeps at most size idle connections: invariant.
* C39 Failed connections are closed and never reused: invariant.
* C40 Idle connections are reused first-in first-out: history invariant.
* C41 Closing the pool: proved for a quiescent pool, refuted for concurrent Close and double Close.
* C42 Decimal text equals its value: value of digits; induction over digits.
* C43 256-bit multiply-add is exact: limb arithmetic.
* C44 Collation names: finite table plus all other values.
* C45 Slice helpers preserve data: list lemmas.
* C46 Frames of 4 GiB and more: refuted: header is length mod 2^32. Below: theorems that bound the unit of work by 4 GiB, and
  C46_units_of_any_size, which bounds each call by 2 GiB instead and the unit by nothing (BigProofs.v).
* C47 A commit is executed only if everything before it succeeded: small server model of expectation blocks; induction on bodies.
* C48 One write per unit and deadlines do not leak: trace of socket operations.
* C49 Authentication handshake: trace of WriteOne calls.
* C50 Session and capability messages: decode theorems.
* C51 Unencodable values are rejected, never mis-sent: induction over values and trees.
* C52 Encoding an argument terminates: heap model of pointers; self-referential pointer refutes; acyclic proved (C06).
* C53 CRUD messages address a table: from the message theorems; Delete omits the data model (refuted).
* C54 Building never panics: induction over programs; the panics that do exist are refutations. SpecPanic lists them all: calls, rows and programs panic exactly if they come to one of them, are sent exactly if they come to none and to no error, and otherwise Send returns the error.
* C55 Bytes received in the clear are not used inside TLS: two runs of the connector compared.
* C56 Connecting end to end: connector, connection and mechanism composed against a well behaved server.
* C57 Callers of the pool never wait for each other: progress in every reachable state; bounded number of own steps.
* C58 Decimal text and parts agree on every input: refuted; exactly the inputs on which they agree are characterised.
* C59 A pool Send hands its unit to one connection at most once: invariant over all interleavings of the pool
  relating what each call has done so far to the history of exchanges, dials and closes.
* C60 The error names the faulty part: a relation from calls to the errors of their parts (SpecError), induction over values and expression trees.
* C61 A pool Send returns the responses to its own unit: pool and connections composed into one state machine (System);
  invariant: an idle connection has read exactly the replies to all it has sent.
* C62 Each server reads whole units: same invariant, relating the Writes on a connection to the pool's history.
* C63 A unit of work is all or nothing: small model of a session's transactions (SpecSession) on top of SpecServer; refuted by
  a run of two Sends on one pooled connection, proved for a unit that is the last one.
* C64 A failed unit does not affect later units: same; refuted for isolation levels.
* C65 The variable InsertRow returns holds that row's id: messages of every InsertRow by induction over programs, memory of the
  session (SpecRows); refuted without an expectation block.

* C66 A pipe sends what was built since New or Reset: invariant over histories (what the buffer says = what is pending).
* C67 A recovered panic does no harm: run is extended to give the builders after a panic and shown to agree with run; refuted
  twice, proved outside of callbacks.
* C68 A builder is harmless after its callback: what callbacks keep is objects of a history over memory (MemKept.v). Refuted, for builders, *Insert and *Update, whenever the bytes fit the array; what was written before is proved safe in every history.
* C69 A connector uses its last options: induction over the options, composed with what Connector.New writes.
* C70 The text of a server's error says all of it: the text is injective, by splitting at its first space and bracket.
* C71 Execute runs the statement its unit prepared: messages of the unit (C08, C47) played on the session's table of
  statements (SpecPrepared); refuted for a Prepare that is skipped.
* C72 Deallocated statements are gone: the server closes the blocks it opened (induction over messages), so what comes after
  the block is not skipped; refuted for a Deallocate inside of the block.
* C73 Checking the COMMIT's response is enough: what the server did (SpecServer) played as a transaction (SpecSession), its
  truthful replies (SpecCommit), cut anywhere, and what Send makes of them (C27, C28); induction over the replies. A
  counterexample shows that the error has to be checked too.
* C74 The account of a pooled connection: the units of a connection (C62) and the responses to each (C61), what the server did
  with each unit (C63, with the executed messages of a failing block coming first), induction over the units.
* C75 A server that follows the .proto files reads what was written: a generic lenient reader driven by tables generated from
  the .proto files; whatever a strict decoder accepts it reads as the same named fields (induction over expressions).
* C76 Replies mean what the .proto files say: the predicates of SpecReply are equivalent to what the generic reader says.
* C77 The error of Send says what went wrong: a relation (SpecBroken.result) between streams and results; reading gives a
  result of the relation (induction over the stream), and the relation is a function.
* C78 Memory for replies: the sizes Read passes to make, message by message, related to the announced lengths and to the bytes
  consumed (induction over the stream, then over the replies); a five byte stream refutes the bound for broken connections.
* C79 A Send whose context is done does nothing: where such a call can get to (induction over the steps), with C59's accounts; a run
  in which it takes an idle connection refutes the full statement.
* C80 A new connection is in sync: each WriteOne of New uses up one reply; then C61 with New in place of its assumption
  about new connections.
* C81 A TLS configuration is for everything: C35_nothing_before_tls, then an invariant of the pool's connections.
* C82 Reusing a pipe needs no new memory: every encoder is run on two slices of equal length: the one it got and another with
  room; by induction the second run reallocates nowhere (a slice is reallocated exactly if its capacity grows).
* C83 A failed unit of work leaves the pipe its buffer: refuted for every foreign argument; for all other programs capacity is monotone (CapProofs.v).
* C84 Send returns for any bytes: the loop of Send with the platform's ints and the connection as a panic leaves it. Whole
  messages: agreement with Conn, by induction over the messages. Refuted for others.
* C85 A panic recovered inside a callback does no harm: programs with a construct for recovering, whose rest is told whether there
  was a panic and finds arbitrary memory after the end of the buffer. By induction over the program, for plain calls and the
  program's own panics; refuted for panics in a nested callback and in Insert. Without recovery the same as Builder.run.
* C86 Recovered panics of pool calls: a call that panicked makes no further step (PoolPanic.v), so every run with panics is a run
  of Pool without any, in which those calls stopped: C37-C40 and C57 carry over. Refuted for the connection it held.
* C87 A builder used from inside of its own call: a user's encoder that runs a program on the builder in the array it shares with it
  (Reenter.v). Refuted for Delete, for every program; in InsertF and UpdateF callbacks the builder is disabled and it panics.
* C88 Expressions keep the operands they were given: the elements of slices as a memory that may be another one when the expression is encoded
  (Alias.v). Proved for operators, refuted for Concat and for []byte operands.
* C89 Panics recovered inside of the callbacks of InsertF and UpdateF: callbacks as trees, whose rest is told whether a call panicked and
  finds arbitrary memory after the end of the buffer (RecoverRow.v). By induction over the callback, from the outcome of each row.
* C90 Sends on a connection whose earlier Send failed: the connection's stream goes on after a time out (Late.v). Refuted for every way a reply can be
  cut by the deadline and for every unit after it; proved until the first failure, and for connections that stay silent.
* C91 Pipes and memory: the encoders, messages and builders once more, over slice headers into arrays (Mem.v, MemModel.v), and a simulation of
  them by the value model with a frame: compared with the start, nothing has changed but cells reachable through the pipe's first
  buffer, and new arrays. Interleavings of any number of pipes by induction over the schedule (MemPipes.v).
* C92 The bytes a Sender gets stay: the same simulation with a frame that also excludes the first `lo` cells of the buffer, where `lo` is
  the length at the time of Send.
* C93 Session messages in place: the authentication mechanisms over memory (MemAuth.v), where the data, the digests and the message are in one
  array, simulated by AuthModel; the message is a second step of the simulation that starts at the end of the data. The exchange
  reuses one array for both messages.
* C94 []byte arguments: the encoders, messages and builders that take values, with slice headers in place of the bytes (MemArg.v). By the frame of
  C91 and C92 the slices still have their first contents when they are copied, so that the run equals, in result and in all of memory, the run
  with the bytes. Refuted for a slice in the room behind what is built, which is what a Sender has kept after Reset.
* C95 Arguments are free again after the call: programs, and the callbacks of InsertF and UpdateF, that write to slices of their own between the calls
  of the API and read them back (MemBusy.v). By induction on the program, memory is at each point that of the program, as if separate, with the
  pipe's elsewhere: a write changes both in the same way, a call changes only the pipe's. The specification (SpecBusy.run_at) runs the program on values,
  with the contents its slices have at each call.
* C96 Replies are read in place: the read buffer and Read's buffer for large messages as arrays, bufio.Reader's fill, Peek, Discard, Read and Reset and
  io.ReadFull as written, on a net.Conn that returns any chunks, also empty ones, and its error alone or with the last bytes (MemRead.v). The invariant is
  the list of bytes pending; slices are looked up when they are used. Each operation is related to the reading from a list of bytes that Conn's reader is
  proved equal to in ConnProofs, so Send, WriteOne and Authenticate have the same outcomes and the theorems on Conn carry over.
* C97 Replies that say more than the .proto files declare: Conn decodes error, challenge and column meta data messages with the
  lexer of Unmarshal, which skips unknown fields and groups at any depth as protobuf-go does; UnmarshalProofs shows that it accepts exactly the
  messages of the grammar in SpecGroups and finds exactly their fields. Two connections are compared, one of which has further undeclared fields or groups in its
  messages, and further messages that end no reply: induction over the messages shows the same results. What is not of the grammar is refused.
* C98 No data races: Pool with getCh and p.mu, and a history of all operations on shared memory, the mutex and the channel (PoolMu.v). SpecRace defines
  happens-before over such histories, rule by rule after the Go memory model, and data races. The invariant: every use of a connection's memory happens before
  some event of the call that holds the connection, or before the send that put it into the channel (the k-th send, for the right k). The model with the mutex
  reaches exactly the pool states of Pool, and the lock always is released by its holder's next steps alone. The caller's part (the pool is published properly
  after New) is a rule of happens-before; the arguments (contexts, the bytes to send) are the caller's and not shared by the pool.
* C99 Calls return by their context's deadline: Timed has a clock, a network each of whose operations takes a time of its own (or for ever) unless a deadline ends it, and a
  server that may never stop sending; calls are run for k steps. Proved: there is a number of steps after which the call has ended, by a measure of ticks left and bytes
  buffered; what it returns is what Conn and Connector return for the bytes that arrived in time (a simulation), so that the other properties carry over. Cancelling: refuted. TimedSum counts: a Send that succeeds takes exactly the time of its one Write and its Reads, a
  Send whose deadline has passed fails at once with nothing written, and no call ends before it began.
* C100 Send and the server do not wait for each other for ever: Flow interleaves the client's write, the server's reads and writes and the client's reads, in pieces of any
  size. Proved exactly when every schedule ends with Send returning the server's responses (by an invariant and a measure of bytes still to be moved), and that in all other
  cases every schedule ends with both sides blocked; refuted in general: every statement, executed often enough in one unit, blocks.
* C101 Encoders run once: Stateful repeats the functions that call the user's AppendAny, AppendExpr and AppendExprFuncs, in a monad with the user's world and a log of the
  calls. Proved by a simulation, function by function: the log is the values' encoders from left to right, up to the first error, and the result is that of the stateless
  model with each encoder as it was in the world it ran in. Encoders that use the builder itself are C87's.
* C102 Data cannot become SQL: by C46_units_of_any_size the decoded messages are those the program stands for; by induction on that relation each text is the
  program's, and two programs related by SpecInject's same_prog (same but for data) stand for messages related by same_msg. Refuted for an argument of 4 GiB (C46's defect): if
  its bytes are themselves frames, they are read as frames.
* C103 Goroutines: the encoders, messages and builders once more, as trees of single loads, stores and allocations (Fine.v, FineModel.v). A predicate `safe` (FineProofs.v) says
  that a tree accesses only elements of arrays that it has allocated, whatever their addresses; refinement lemmas (FineRef.v, FineBuild.v) show that the trees are safe and have
  the results of the value model; an invariant gives every goroutine a set of arrays of its own, disjoint from the others' and from the memory there before (FineAll.v).
  Scope: each goroutine uses its own pipe. A user's encoder accesses nothing but the slice it is given; what it shares with other goroutines is the user's. Arguments are values.
  The builder and the encoders use no package-level variables. The pool and its lock are the subject of C98 and are not in this model.
* C104 Shared arguments: MemArg.v once more as trees of single accesses (FineArg.v). A tree that reads its arguments is the tree that is given their contents, with reads of memory
  nobody writes put in (`more` in FineMore.v, a congruence; FineArgProofs.v); the invariant of C103 is stated for trees up to such reads (FineAll.v). Scope: the arguments are in
  memory from the start and no goroutine of the program writes them; a goroutine that does so races with the call (an Example in ThmShare.v).
* C105 Opening connections at the same time: MemAuth.v and Connector.v once more as trees of single accesses (FineAuth.v). The mechanisms are safe in the memory of the call and
  leave alone what they do not own there, which the challenge and the authentication data behind which the message is appended need (FineFrame.v, FineAuthProofs.v); the
  invariant is that of C103. The answer to a challenge does not depend on the buffer (AuthSame.v), so the result is stated with new buffers. Scope: the network of each call is a
  value (Conn.v); the CapabilitiesSet message and the buffers of bufio and tls are not modelled access by access.
* C106 Building and sending at the same time: C103 and C61/C62 in one model (FinePool.v). A goroutine is a plan: what it does next depends on all it has seen, also on the pool's
  answers. The bytes of a unit are read in memory, one at a time, when conn.Send writes them, and not when the pool is called; that they are what was built is proved. The
  invariant is that of C103 for the memory (PlanProofs.v), next to a record of which goroutine made which call; PlanSys.v has the shape of a pool's states without assumptions
  on servers. PlanEnd.v has a well-founded order on what a goroutine has left to do: its plan, its code and the steps its call of the pool still takes. Simplifications: ReadResponsesToSlice walks the headers of the unit that was read for Write, instead of reading it a second time; Close and a context that ends
  inside the pool are those of Pool.v.
* C107 Instants: C24 says that what a clock shows survives; C107 asks for the instant. SpecClock.v defines a time.Time as seconds, nanoseconds and an offset, the calendar as
  repeated steps from one day to the next (so that a mistake in a formula cannot hide), and what a clock shows. ClockProofs.v proves that dates are strictly ordered, bounds the
  year of every int64 of seconds (so the text always fits), and that texts with four-digit years are ordered like clocks. A location is a function from instants to offsets.
* C108 Sending again: SpecRetry.v defines one try (Send of a unit of work on a connection that may break anywhere in either direction: a prefix of the bytes given to Write gets
  to the server, a prefix of its replies comes back), what is left at the server when the connection is gone, and the results from which it is certain that the unit was or was
  not done. ThmRetry.v proves those results right for every try of every unit, by the theorems on units (C63) and acknowledged commits (C73) over the messages that arrived, and
  constructs, for every unit and every number of acknowledged messages before the COMMIT, two tries with the same result of which one was done and the other not.
* C109 Order of Sends: Overlap.v runs any number of Sends, each on a connection of its own, over the network of Flow (bounded buffers, any pieces) and keeps a timeline of
  when each call is made, when the server acts on each message and when each call returns. A call may give up at any point (SetDeadline, Write or Read fails); its server goes on
  with what is on the way. The invariant of FlowProofs holds for every call in every state; that a result without an error needs all replies is proved by induction over the
  messages. ThmOverlap.v proves the order for calls that returned without an error, and for every two units constructs the run in which the earlier, failed one takes effect last.
* C110 One instant: SpecInstant.v gives every call of Overlap a session of SpecSession on one server with shared data: every message the server acts on changes the
  session's transaction in progress or, if it commits, the data. The calls send units of work (ThmTx.unit_of_work) whose bodies manage no transactions. ThmInstant.v first shows of one
  session that only the COMMIT, the last message but one, changes the durable data, and then by induction over the timeline that the data is made of whole units, in the order of
  their COMMITs; C109's invariant says where the COMMIT lies relative to the call and its return. Simplified: each session starts with no transaction in progress, and what
  one session's uncommitted changes mean to another's queries (isolation levels) is the server's affair and not modelled.
* C111 Secrecy of the password: as non-interference. Two runs of Connector.New on the same unprotected connection (same peer, same results of the network) with accounts that
  differ in the password only are compared: the mechanisms are shown to use the password only through its digest, and everything else in New only through the mechanism. The hash
  functions are arbitrary, so the theorem holds in particular for ones that tell nothing at all. With TLS the runs are compared on what happens outside it, for any two accounts.
  Not modelled: time, and what the digests themselves give away (guessing a password from an observed proof is possible by the design of the protocol).
* C112 A Sender shared by goroutines: netx.Sender is implemented by pools and by connections. For pools this is C37, C61, C98 and C106. Crowd.v splits conn.Send into its calls on the
  net.Conn and the reader and interleaves those of any number of goroutines. ThmCrowd.v proves that a Send that is not interrupted is the Send of Conn, that Sends which take turns
  return their own responses, and for every two units constructs the interleaving in which they return each other's. Simplified: the single calls are not interrupted (in the
  code the reader's buffer is a data race besides), so the model has fewer behaviours than the code; a refutation in it is one of the code.
* C113 Isolation levels: SpecLevel.v gives what SET TRANSACTION ISOLATION LEVEL, START TRANSACTION [WITH CONSISTENT SNAPSHOT] and COMMIT mean for the level at which each change of a
  session is made (MySQL Reference Manual 13.3.7, 13.3.1). ThmLevel.v proves that every change of a unit of work that names a level is made at it, whatever fails and whatever was on
  the connection before, that units that name none run at the session's level if no level was left for them, and refutes the rest for all units. Not modelled: what a level means for
  the rows that are read, and sessions whose level is changed by statements of the caller.
* C114 How far an error reaches: SpecApart.v computes from what has happened on a connection which expectation blocks are open and what happened in each. ThmApart.v proves for all
  programs that the ways in which the server (SpecServer.v) may treat any number of units on one connection are the ways in which it may treat each alone, that a message is skipped
  only if an error happened in a block of its own unit that is open at that point, and for servers that count the error of a block's Close that it is skipped exactly then; and the
  same for the connections of a pool.
* C115 How large messages and units get: SpecSize.v sums the lengths of the arguments, with an allowance of 512 bytes per name, value, operator, function, row and column, 1024 for
  the statement InsertRow adds and 2048 for what opens and closes a block. The induction of BigProofs.v, over the same outcomes of the encoders, which carry these bounds (MsgProofs.v),
  gives in SizeProofs.v the bound for each frame and for the whole, with no hypothesis on the bytes themselves. The allowances are generous (the sample of C08 sends 464 bytes).
* C116 Memory: SpecSpend.v counts the bytes of all arrays allocated so far, and says what is assumed of the runtime's append (each new array at least a quarter larger, as Go's is).
  SpendProofs.v goes through all encoders over memory with one invariant: what was allocated is paid for by the growth of the capacity, except for g arrays made by slice.Insert, each
  of which adds 512 bytes. ThmSpend.v proves the bound in proportion for units that never reach slice.Insert, a bound by the square for all units without user code, and
  refutes proportion for every first capacity and every runtime. Not modelled: garbage collection (an array counts even when nothing refers to it any more), and rounding by the allocator.
* C117 How many connections a pool needs: PeakProofs.v adds up, over the states of Pool, the idle connections, those calls hold and those being dialled. Only the default case
  of the first select adds one, and then none is idle, so the sum is at most the number of calls in progress. With that sum below the size, the second select never finds the channel
  full. A second invariant counts closed connections against failed exchanges. The peak is a bound on the calls in progress after each prefix of the run.
* C118 Which responses belong to which call: SpecPlace.v lists what the program does, call by call, and says for each how many responses there are to it, without looking at its
  arguments. From C08's messages the n-th of these has its messages at the sum of the widths before it; what C73 proves of one reply of a truthful server gives the responses there.
  The server may treat the messages in any way (no expectation blocks are assumed) and the replies may be cut anywhere. Through a pool it is C61.
* C119 Recovery: by C39 and C59 a Send that returns an exchange's error has failed on a connection of its own, which nobody gets again. So to the Sends that fail after the
  connections broke there belong as many different connections, open at that moment, and C117 and C38 bound these.
* C120 Wrong values: for each encoder, "appends one frame of its type, or an error, or more than 2 GiB", by the induction of MsgProofs with bytes in place of decoded fields
  (TypedProofs); then the induction over programs, in which the frame of a call without such a value is, by C08's lemma for one call, its message.

## Findings

What the proofs found the code to do that a user would not expect. The refutations are theorems with
the suffix `_refuted`.

* C05: a nil `*xtorm.String` (or a nil pointer to any other type with a value method) panics.
* C06: a pointer to a nil interface is an error although nil itself is NULL.
* C14: the error a Tx, ExpectFailOnError, InsertF or UpdateF callback returns is dropped: the transaction is
  still committed.
* C16: InsertRow and InsertF do not compare the number of values with the number of columns.
* C22: a variable name of 124 bytes or more corrupts the message (the length is one byte). So C03 and C08 are false as stated (C03_refuted, C08_refuted).
* C23: the smallest duration, and on 32 bit platforms durations of 2^32 seconds or more, are sent wrongly. So C01, C02 and C08 are false as stated (C01_refuted, C02_refuted, C08_refuted).
* C25: Regexp sends "rexgexp", NotBetween sends "not_between"; neither is a documented operator.
* C36: Connector.New leaks the dialled connection when the request for TLS fails; and the server's
  non-fatal Error reply to that request is ignored.
* C41: closing a pool twice panics, so does a Send that returns its connection after Close; connections returned
  while Close runs may stay open, as do the idle ones if Close is cancelled.
* C46: a frame of 4 GiB or more gets its length modulo 2^32.
* C102: so an argument of exactly 4 GiB whose bytes are themselves frames is read as those frames, after a first frame that is cut off before the data
  (C102_four_gigabytes_are_read_as_messages_refuted). The cut off frame is no valid message; whether the rest is executed depends on the server going on after it.
* C52: a pointer cycle makes the encoder loop for ever.
* C53: Delete omits the data model.
* C54: Delete, InsertF and UpdateF patch the header after an error too and panic if a user's function
  returned a shorter slice; a nil AppendExprFunc panics.
* C58: decimals: empty input panics; a scale larger than the number of digits gives ".-12" or loses the point;
  a missing sign nibble makes text and parts disagree; above 77 digits the coefficient wraps.
* ExpectFailOnError's context is one raw byte: only 0 and 1 mean something.
* A NUL in the database or user name makes the authentication data ambiguous (C34_server_splits_names
  needs its absence).
* C63, C64: a unit whose COMMIT is skipped leaves its transaction open on the server, because nothing ever sends ROLLBACK
  or resets the session (xpipe.go has it as a TODO), and the connection goes back to the pool. The next unit's START
  TRANSACTION, maybe another caller's, commits the failed unit's changes; a unit that sets an isolation level fails instead,
  and so do all others like it on that connection. The README's claims "no client connection state" and "only have to
  check the transaction commit succeed" do not hold then.
* C65: outside an expectation block a refused InsertRow leaves the previous row's id in its variable, so rows that
  refer to it are attached to the wrong parent.
* C66: Send does not empty the pipe: without Reset the next Send repeats everything.
* C67: a panic in a callback (recovered, as net/http does) leaves the pipe disabled for ever, even for Reset. A panic
  in the middle of Insert, InsertRow or Update (a nil function as value, say) leaves half a message with an unset length in the
  buffer, and no error: the next Send hands that over. In a reused buffer the length is left over from an earlier
  message, so that half of the rows may be inserted.
* C68: a callback's builder is not disabled when the callback returns. Used later it overwrites, in the shared array, what
  was appended since: the COMMIT, for example. The same goes for a kept *Insert or *Update: Row or Set on it reports nothing, and
  writes the row over what the pipe has got since, or beyond what it sends; the stream may then not even be messages.
* C71: if a Prepare is skipped (it is in an expectation block in which something failed) and the Execute is outside of that
  block, the Execute runs whatever an earlier unit, maybe another caller's, left prepared under the number.
* C72: a Deallocate in the expectation block is skipped when the unit fails, and the statement stays on the pooled connection.
* C77: a reply of up to 4096 bytes that the end of the connection cuts is reported as io.EOF, a longer one as
  io.ErrUnexpectedEOF (bufio's Peek does not tell the difference): a caller cannot take io.EOF for "between two replies".
* C78: a message's length is trusted before any of it has arrived: five bytes make Send allocate 4 GiB (2 GiB on 32 bit
  platforms). They can come from anyone who answers the connection, since Read is used before the authentication too.
* C84: Send panics if what it is given ends within a header. A pipe never hands over such bytes, except after a recovered
  panic (C67). The pool then loses the connection without closing it. On 32 bit platforms a length of 2^32-4 makes Send take
  all the replies there will ever be for one message, and a length of 2^31-4 or a little more makes it panic after the reply.
* C85: if a nested callback panics and the enclosing callback recovers, the inner block stays open and the outer one is
  closed: an expectation block is left open on a pooled connection, or a transaction is started and another one committed. Until the
  outer callback returns, its builder panics on every use.
* C86: a Send overtaken by Close panics instead of closing its connection; if the caller recovers, the connection stays open
  for good. In Send there is no deferred call that would close it.
* C87: an AppendExpr or AppendAny that uses the builder which is encoding its argument is not detected outside of callbacks
  (StmtExecute, Execute, Update, Delete set b.disabled nowhere). Both write to the same place of the same array: what is sent is a message of
  the nested call's type, cut off, with the criteria of the Delete at its end. Neither the Delete nor the nested call is there, and no error.
* C88: In and NotIn copy the slice they are given, Concat does not: if the caller reuses the slice the operands of an expression built
  before change. Put into its own slice it makes the encoder recurse without end.
* C92: Send hands the pipe's own array to the Sender; a Sender that keeps it sees other bytes once the pipe has been Reset and used again.
* C94: passed as an argument of the statement that is built after the Reset, such a kept slice is overwritten by the beginning of the statement before it is read,
  and its first four bytes are sent as zeros, without an error.
* C90: a Send that has timed out leaves the connection usable, but out of step: the replies it no longer waited for are given to the next Send
  as the responses to its unit. If it gave up inside of a message, that message's header is lost and the next Send reads the message's contents (rows of a result,
  which anyone may have written) as replies. After a Write that failed half way the server reads the next unit as the rest of the last message. The pool is safe
  because it closes a connection whose Send failed (C39, C61); users of netx/connection alone are not.
* C83: a value of an unsupported type makes the encoder return a nil slice, so the pipe loses its buffer: after Reset its
  capacity is 0 instead of what New was given.
* C79: a Send whose context is already done still sends its unit, and reports success, if select picks an idle connection;
  once it has a connection cancellation is not looked at any more, only the deadline.
* C99: a Send ends at its context's deadline but not when its context is cancelled: it goes on waiting for the server, without a deadline for ever. The same goes for
  connecting, once dialled. Without a deadline a server that keeps sending notices keeps Send busy for ever.
* C100: Send writes the whole unit before it reads the first reply. A unit whose replies fill the buffers of the connection while it is still being written is never
  finished: the server waits for the client to read, and the client for the server. Units of many statements, or with a query of many rows before a large
  insert, hit this. Only a deadline ends it (C99), with an error, and without saying how far the server got.
* C73: when Send fails to read a reply it returns the responses so far and one more, nil, which means success. A caller who
  looks at the COMMIT's response and not at the error may take a COMMIT that was never executed for a success.
* C107 A time.Time loses its offset: xproto/any.go:263 and xproto/expr.go:103 send the clock of the time's own location without an offset. One instant is given different texts at
  different offsets; for every time and every other offset another instant has the same text; and in one location with clocks that are set back the hour before and the hour after
  are given the same texts, and later instants earlier texts. Callers have to convert all times to one offset (t.UTC()) first: then the texts identify and order the instants.
* C108 Sending again may do the work twice: when Send returns a read or write error the responses it returned do not tell whether the COMMIT was executed (and the last of them
  is nil for a message that has no reply at all, see C73). For every unit there are two tries with the same result, one done and one not, so a caller who sends again until it is
  acknowledged may have it done twice. Certain are only an error response up to the COMMIT and a failed SetDeadline (not done), and a success response to the COMMIT that is
  followed by another response or by no error (done).
* C109 A Send that returned an error may take effect later than Sends made after it: what was handed to the network before the error is still on its way, and nothing tells the
  server to drop it. For every two units there is a run in which the first Send fails, the second is made after that and succeeds, and the server then executes the whole first
  unit. A caller who repeats work after a timeout has to expect the first attempt to overwrite the second.
* C112 Pools and connections are both a netx.Sender, but only pools may be shared: for every two units there is an order in which two goroutines that Send on one connection return
  the responses to each other's unit, both without an error and with the connection in sync afterwards, so that nothing ever shows it. A caller whose COMMIT failed is told that it
  succeeded. The first also waits under the second's deadline.
* C113 Tx sends the isolation level in a statement of its own, which the server keeps for the next transaction. If START TRANSACTION then fails (KILL QUERY, say), the level stays with
  the pooled connection, and the next caller's transaction with IsolationLevelDefault runs at it. This is so for every two units. IsolationLevelSnapshot sends no level: on a server
  whose level is not REPEATABLE READ the transaction has no snapshot, and no error says so.
* C116 slice.Insert (slice/slice.go:23-34) allocates only 512 bytes more than needed when pos+n is beyond the capacity, where ForAppend doubles. A batch of updates, function calls or
  operators whose headers are longer than the arguments can meet this branch again and again: for UPDATE users SET notifications_active = TRUE, 54 bytes each, every tenth call copies the
  whole buffer, so that building the batch takes time and memory quadratic in its size (3428 bytes: 13216 bytes allocated).
