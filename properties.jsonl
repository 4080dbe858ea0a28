{"id": "C01", "title": "Integers survive the wire", "statement": "Every Go integer parameter (any of the ten built-in integer kinds) whose value fits a signed 64-bit integer is encoded so that decoding the message yields the int64 with the same value.", "quantifier": "all integer kinds and all values of each kind in the int64 range, both codec versions", "why_tests_cant": "2^64 values and six width boundaries per sign; sampling misses off-by-one boundary widths", "anchors": ["encoding/encoding_v1/encoderV1.go:encodeInt", "encoding/encoding_v1/decoderV1.go:decode", "encoding/encoding_v2/encoderV2.go:encodeInt", "encoding/encoding_v2/decoderV2.go:decode"]}
{"id": "C02", "title": "Integers too large for the protocol are refused", "statement": "Encoding an unsigned integer larger than the maximum int64 returns an error and never puts a different number on the wire.", "quantifier": "all values of every unsigned kind", "why_tests_cant": "the failing half of the domain is only reached above 2^63 and differs per static Go type", "anchors": ["encoding/encoding_v1/encoderV1.go:encode", "encoding/encoding_v2/encoderV2.go:encode", "doc.go"]}
{"id": "C03", "title": "Value round trip", "statement": "Any value built from nil, booleans, integers, floats, strings, slices, string-keyed maps, nodes, relationships and paths decodes, after encoding, to the same value (integers as int64, slices as []interface{}).", "quantifier": "all values, of any nesting depth and size", "why_tests_cant": "infinitely many trees; the failing cases are specific length windows", "anchors": ["encoding/encoding_v1/encoderV1.go:encode", "encoding/encoding_v1/decoderV1.go:decode", "encoding/encoding_v2/encoderV2.go:encode", "encoding/encoding_v2/decoderV2.go:decode"]}
{"id": "C04", "title": "Encoder output is valid PackStream", "statement": "Whenever Encode succeeds, the message payload is a valid PackStream encoding (markers, big-endian unsigned sizes, two's complement integers) of exactly the value passed.", "quantifier": "all values for which Encode succeeds", "why_tests_cant": "needs an independent grammar for the format and all sizes up to 2^32", "anchors": ["encoding/encoding_v1/encoderV1.go:encodeString", "encoding/encoding_v1/encoderV1.go:encodeSlice", "encoding/encoding_v1/encoderV1.go:encodeMap", "encoding/encoding_v1/encoderV1.go:encodeStructure", "encoding/encode_consts/const.go"]}
{"id": "C05", "title": "Integers use the shortest encoding", "statement": "No valid PackStream representation of an integer is shorter than the one the encoder emits.", "quantifier": "all int64 values and all valid representations", "why_tests_cant": "quantifies over all alternatives for all values", "anchors": ["encoding/encoding_v1/encoderV1.go:encodeInt", "encoding/encoding_v2/encoderV2.go:encodeInt"]}
{"id": "C06", "title": "Decoder accepts every valid encoding", "statement": "Decoding any valid PackStream encoding of a value - not only the encoder's own choice of widths - returns that value.", "quantifier": "all values and all of their valid encodings", "why_tests_cant": "a server may pick any width; a test only sees the widths its server picks", "anchors": ["encoding/encoding_v1/decoderV1.go:decode", "encoding/encoding_v2/decoderV2.go:decode"]}
{"id": "C07", "title": "Decoding always terminates and never over-reads", "statement": "On every byte sequence, decoding finishes, and what it leaves unread is a proper suffix of its input.", "quantifier": "all byte sequences, well formed or not", "why_tests_cant": "adversarial inputs; termination is a statement about every input", "anchors": ["encoding/encoding_v1/decoderV1.go:decode", "encoding/encoding_v1/decoderV1.go:decodeSlice", "encoding/encoding_v1/decoderV1.go:decodeMap", "encoding/encoding_v1/decoderV1.go:decodeStruct", "encoding/encoding_v2/decoderV2.go:decode"]}
{"id": "C08", "title": "Malformed input yields an error, not a crash", "statement": "Decoding arbitrary bytes returns a value or an error and never panics.", "quantifier": "all byte sequences", "why_tests_cant": "adversarial inputs", "anchors": ["encoding/encoding_v1/decoderV1.go:decode", "encoding/encoding_v1/decoderV1.go:decodeNode", "encoding/util.go:SliceInterfaceToInt", "encoding/encoding_v2/decoderV2.go:decode"]}
{"id": "C09", "title": "A cut-off payload is reported", "statement": "Decoding a proper prefix of a valid encoding returns an error rather than a different value.", "quantifier": "all values, all proper prefixes of their encodings", "why_tests_cant": "every cut position of every value", "anchors": ["encoding/encoding_v1/decoderV1.go:decode", "encoding/encoding_v2/decoderV2.go:decode"]}
{"id": "C10", "title": "Chunk framing is transparent", "statement": "For every chunk size, the concatenation of the chunks up to the first empty chunk of what Encode puts on the wire is exactly the payload of the encoded value.", "quantifier": "all values and all chunk sizes", "why_tests_cant": "interaction of write granularity, chunk size and 16-bit chunk length; failing cases need messages over 64 KiB", "anchors": ["encoding/encoding_v1/encoderV1.go:Write", "encoding/encoding_v1/encoderV1.go:flush", "encoding/encoding_v2/encoderV2.go:Write", "encoding/encoding_v2/encoderV2.go:flush", "connection/connection.go:SetChunkSize"]}
{"id": "C11", "title": "Decoding does not depend on how the network splits the stream", "statement": "However the byte stream is divided into reads (none empty), Decode returns the same result and leaves the same unread bytes.", "quantifier": "all byte streams and all fragmentations", "why_tests_cant": "exponentially many fragmentations; local tests see one", "anchors": ["encoding/encoding_v1/decoderV1.go:read", "encoding/encoding_v1/decoderV1.go:readData", "encoding/encoding_v2/decoderV2.go:read", "encoding/encoding_v2/decoderV2.go:readData"]}
{"id": "C12", "title": "Back-to-back messages stay separate", "statement": "When several encoded messages follow each other on the stream, successive Decode calls return them one by one, in order, each consuming exactly its own bytes.", "quantifier": "all message sequences", "why_tests_cant": "all sequences and all chunk layouts", "anchors": ["encoding/encoding_v1/decoderV1.go:Decode", "encoding/encoding_v2/decoderV2.go:Decode", "encoding/encoding_v1/encoderV1.go:Encode", "encoding/encoding_v2/encoderV2.go:Encode"]}
{"id": "C13", "title": "A broken link leaves a prefix and reports an error", "statement": "If the link dies after any number of bytes, what reached the wire is a prefix of the fault-free byte stream, and Encode returns success only if the whole framed message was written.", "quantifier": "all values, chunk sizes and byte positions at which the link fails", "why_tests_cant": "every crash point of every message", "anchors": ["encoding/encoding_v1/encoderV1.go:Write", "encoding/encoding_v1/encoderV1.go:flush", "encoding/encoding_v2/encoderV2.go:Write", "encoding/encoding_v2/encoderV2.go:flush", "connection/connection.go:readWrite.Write"]}
{"id": "C14", "title": "A refused value leaves nothing on the wire", "statement": "When Encode refuses a value, no byte of the refused message has been sent.", "quantifier": "all values containing an unsupported element anywhere, all chunk sizes", "why_tests_cant": "depends on position of the bad element relative to the chunk size", "anchors": ["encoding/encoding_v1/encoderV1.go:Encode", "encoding/encoding_v1/encoderV1.go:Write", "encoding/encoding_v2/encoderV2.go:Encode", "encoding/encoding_v2/encoderV2.go:Write"]}
{"id": "C15", "title": "An encoder can be used again after refusing a value", "statement": "After Encode has refused a value, encoding another value with the same encoder sends exactly that value's message.", "quantifier": "all pairs of refused and accepted values", "why_tests_cant": "history dependent", "anchors": ["encoding/encoding_v1/encoderV1.go:Encode", "encoding/encoding_v1/encoderV1.go:flush", "encoding/encoding_v2/encoderV2.go:Encode", "encoding/encoding_v2/encoderV2.go:flush"]}
{"id": "C16", "title": "Map iteration order does not matter", "statement": "In whatever order the runtime enumerates a map while encoding, decoding yields the same map.", "quantifier": "all maps and all enumeration orders", "why_tests_cant": "Go randomises the order; a test sees a few orders", "anchors": ["encoding/encoding_v1/encoderV1.go:encodeMap", "encoding/encoding_v1/decoderV1.go:decodeMap", "encoding/encoding_v2/encoderV2.go:encodeMap", "encoding/encoding_v2/decoderV2.go:decodeMap"]}
{"id": "C17", "title": "Typed slices encode like []interface{}", "statement": "A slice of any element type is encoded byte for byte like the []interface{} with the same elements, at any nesting depth.", "quantifier": "all element types and contents", "why_tests_cant": "all nestings", "anchors": ["encoding/encoding_v1/encoderV1.go:encode", "encoding/encoding_v2/encoderV2.go:encode"]}
{"id": "C18", "title": "Floats survive the wire", "statement": "Every float64, including NaNs, infinities, signed zeros and subnormals, decodes to the same 64-bit pattern; every float32 decodes to the float64 of the same numeric value.", "quantifier": "all 2^64 float64 and 2^32 float32 bit patterns", "why_tests_cant": "bit-pattern space too large to sample meaningfully", "anchors": ["encoding/encoding_v1/encoderV1.go:encodeFloat", "encoding/encoding_v1/decoderV1.go:decode", "encoding/encoding_v2/encoderV2.go:encodeFloat", "encoding/encoding_v2/decoderV2.go:decode"]}
{"id": "C19", "title": "Exactly the supported values are accepted", "statement": "Encode succeeds if and only if every element of the value is of a supported type, no uint64 exceeds the int64 range and no collection is longer than the format allows; otherwise it returns an error.", "quantifier": "all values, both codec versions", "why_tests_cant": "any nesting position", "anchors": ["encoding/encoding_v1/encoderV1.go:encode", "encoding/encoding_v2/encoderV2.go:encode"]}
{"id": "C20", "title": "Date-times with offset round trip", "statement": "A time.Time sent as a parameter comes back as the same instant with the same zone offset.", "quantifier": "all instants and all zone offsets below 2^31 seconds", "why_tests_cant": "continuous domain incl. negative epochs", "anchors": ["encoding/encoding_v2/encoderV2.go:encodeTime", "encoding/encoding_v2/decoderV2.go:decodeDateTimeWithZoneOffset"]}
{"id": "C21", "title": "Date-times with zone id decode to the right instant", "statement": "A date-time the server sends with a named zone is decoded to the instant whose local time in that zone is the one sent.", "quantifier": "all zones and all local times that exist in the zone", "why_tests_cant": "failures live in the hours around an offset change of each zone", "anchors": ["encoding/encoding_v2/decoderV2.go:decodeTimeWithZoneId"]}
{"id": "C22", "title": "Durations survive the wire", "statement": "A time.Duration sent as a parameter decodes to the same duration, and a duration sent by the server decodes to the amount of time it denotes.", "quantifier": "all durations", "why_tests_cant": "all component combinations", "anchors": ["encoding/encoding_v2/encoderV2.go:encodeDuration", "encoding/encoding_v2/decoderV2.go:decodeDuration"]}
{"id": "C23", "title": "The two codec versions agree", "statement": "For every value without temporal parts both codec versions produce identical bytes, and any message the version-1 decoder accepts is decoded to the same value by version 2.", "quantifier": "all values, all byte sequences", "why_tests_cant": "universally quantified equivalence of two 400-line implementations", "anchors": ["encoding/encoding_v1/encoderV1.go", "encoding/encoding_v2/encoderV2.go", "encoding/encoding_v1/decoderV1.go", "encoding/encoding_v2/decoderV2.go"]}
{"id": "C24", "title": "Spatial points round trip", "statement": "A point received from the server can be sent back as a parameter, and a point sent is received with the same SRID and coordinates.", "quantifier": "all points", "why_tests_cant": "all coordinates incl. NaN", "anchors": ["structures/types/point.go", "encoding/encoding_v2/decoderV2.go:decodePoint2D", "encoding/encoding_v2/decoderV2.go:decodePoint3D", "encoding/encoding_v2/encoderV2.go:encode"]}
{"id": "C25", "title": "Received graph values can be sent back", "statement": "Any value received from the server that contains only plain data, nodes, relationships and paths can be re-encoded, and decodes to the same value again.", "quantifier": "all values the decoder can return", "why_tests_cant": "all trees", "anchors": ["encoding/encoding_v2/decoderV2.go:decodeNode", "encoding/encoding_v2/decoderV2.go:decodePath", "structures/graph"]}
{"id": "C26", "title": "Version negotiation is exact", "statement": "A server's four version bytes select protocol n if and only if they are 0,0,0,n with n in 1..4; anything else is an error; the client proposes 4,3,2,1 in that order of preference.", "quantifier": "all byte sequences returned by a server", "why_tests_cant": "all inputs", "anchors": ["protocol/util.go:GetProtocol", "connection/const.go", "connection/connection.go:handshake"]}
{"id": "C27", "title": "Access mode is transmitted faithfully", "statement": "The transaction metadata sent for read mode asks the server for a read transaction and for write mode does not.", "quantifier": "all modes, databases, timeouts and metadata", "why_tests_cant": "decision table over all arguments", "anchors": ["structures/messages/builder.go:BuildTxMetadataWithDatabase"]}
{"id": "C28", "title": "Authentication tokens carry what was given", "statement": "The basic authentication token contains scheme, principal, credentials and, when one is given, the realm.", "quantifier": "all usernames, passwords and realms", "why_tests_cant": "all strings", "anchors": ["structures/messages/init.go:BuildAuthTokenBasicWithRealm"]}
{"id": "C29", "title": "Requests reach the server intact", "statement": "For every protocol version, the server that decodes the bytes of a request recovers the request type and all of its arguments (query text, parameters, database, stream limits).", "quantifier": "all request arguments and chunk sizes, all protocol versions", "why_tests_cant": "all inputs", "anchors": ["structures/messages", "protocol/protocol_v1/bolt.go", "protocol/protocol_v4/bolt.go"]}
{"id": "C30", "title": "Database selection is honoured or refused", "statement": "A query or transaction started with a database name either carries that name to the server or is refused before anything is sent.", "quantifier": "all protocol versions and names", "why_tests_cant": "decision table over versions and entry points", "anchors": ["connection/connection.go:ExecWithDb", "connection/connection.go:QueryWithDb", "connection/connection.go:BeginWithDatabase", "connection/transaction.go:QueryWithDb"]}
{"id": "C31", "title": "Requests and responses never get out of step", "statement": "After any sequence of API calls against a protocol-conforming server, no response is left unread and none is awaited when a call returns.", "quantifier": "all call sequences, all server verdicts on each statement, all protocol versions", "why_tests_cant": "history quantification with failures injected at every statement", "anchors": ["connection/connection.go:runQuery", "connection/connection.go:consume", "connection/connection.go:reset", "connection/connection.go:BeginWithDatabase", "connection/transaction.go:Commit", "connection/transaction.go:Rollback"]}
{"id": "C32", "title": "A query returns exactly its own rows", "statement": "A Query that succeeds returns exactly the records the server produced for that statement, in order, and the statement's summary metadata, whatever calls preceded it.", "quantifier": "all histories, all result sets", "why_tests_cant": "history quantification", "anchors": ["connection/connection.go:QueryWithDb", "connection/connection.go:runQuery"]}
{"id": "C33", "title": "Server failures are reported with their metadata and the connection recovers", "statement": "If the server fails a request, the call returns an error whose innermost error is that failure with its metadata, and the next call on the connection is served normally.", "quantifier": "all requests, all failure metadata, all positions of the failure", "why_tests_cant": "failure injection at every point", "anchors": ["connection/connection.go:consume", "connection/connection.go:reset", "errors/errors.go:InnerMost", "doc.go"]}
{"id": "C34", "title": "At most one open transaction per connection", "statement": "While a transaction is open, Begin on the same connection is refused without contacting the server.", "quantifier": "all connection states and histories", "why_tests_cant": "history quantification", "anchors": ["connection/connection.go:BeginWithDatabase"]}
{"id": "C35", "title": "A transaction ends once", "statement": "After Commit or Rollback has succeeded, every further Commit or Rollback on that transaction is refused without contacting the server, and a new transaction can be begun.", "quantifier": "all histories", "why_tests_cant": "history quantification", "anchors": ["connection/transaction.go:Commit", "connection/transaction.go:Rollback", "connection/transaction.go:IsClosed"]}
{"id": "C36", "title": "Transactions are atomic at the client boundary", "statement": "Against a conforming server, the statements that become permanent are exactly the auto-committed ones and those of transactions whose Commit returned success, in order.", "quantifier": "all histories of calls and server verdicts", "why_tests_cant": "history quantification", "anchors": ["connection/transaction.go", "connection/connection.go"]}
{"id": "C37", "title": "A finished transaction refuses queries", "statement": "Running a query through a transaction that has been committed or rolled back returns an error and sends nothing.", "quantifier": "all histories", "why_tests_cant": "history dependent", "anchors": ["connection/transaction.go:Exec", "connection/transaction.go:Query"]}
{"id": "C38", "title": "A closed connection refuses work", "statement": "After Close has succeeded, Query, Exec and Begin return an error and send nothing, and a second Close reports that the resource is already closed.", "quantifier": "all histories", "why_tests_cant": "history quantification", "anchors": ["connection/connection.go:Close", "connection/connection.go:runQuery", "connection/connection.go:BeginWithDatabase"]}
{"id": "C39", "title": "Close closes", "statement": "Calling Close on an open connection leaves it closed, whatever was in progress.", "quantifier": "all histories and server verdicts", "why_tests_cant": "needs a failure inside a transaction first", "anchors": ["connection/connection.go:Close", "connection/transaction.go:Rollback"]}
{"id": "C40", "title": "A successful open means an accepted login", "statement": "If opening a connection returns no error, the server accepted the login and the connection is open.", "quantifier": "all server replies to the login request", "why_tests_cant": "all possible replies", "anchors": ["connection/connection.go:initialize", "connection/connection.go:sendInit", "connection/connection.go:handshake"]}
{"id": "C41", "title": "Exec and Query inside a transaction send the same request", "statement": "For equal statement and parameters all four query methods of a transaction and the two of a connection (no database) put the same bytes on the wire.", "quantifier": "all statements, parameters, versions", "why_tests_cant": "all inputs", "anchors": ["connection/transaction.go:Exec", "connection/transaction.go:ExecWithDb", "connection/connection.go:Exec"]}
{"id": "C42", "title": "Concurrent queries do not mix results", "statement": "When several goroutines run queries on one connection, each gets the rows of its own statement, for every scheduling; transactions begun concurrently do not disturb them.", "quantifier": "all numbers of goroutines and all interleavings", "why_tests_cant": "schedules", "anchors": ["connection/connection.go:runQuery", "connection/connection.go:mutex", "connection/connection.go:BeginWithDatabase"]}
{"id": "C43", "title": "Connection loss is reported as a bad-connection error", "statement": "Whenever the database connection fails while sending or receiving, the returned error's innermost error is driver.ErrBadConn.", "quantifier": "all operations and all failure points", "why_tests_cant": "every failure point", "anchors": ["connection/connection.go:readWrite.Read", "connection/connection.go:readWrite.Write", "doc.go", "errors/errors.go"]}
{"id": "C44", "title": "A query never returns rows of an earlier query", "statement": "Even after a call failed because of a timeout, a later query on the connection never returns records the server produced for an earlier one.", "quantifier": "all histories including lost and late responses", "why_tests_cant": "timing dependent", "anchors": ["connection/connection.go:runQuery", "connection/connection.go:readWrite.Read"]}
{"id": "C45", "title": "Reading statistics never crashes", "statement": "The statistics accessors of a result return a count and true when the server reported one, and false otherwise, for any summary metadata.", "quantifier": "all metadata maps", "why_tests_cant": "all metadata shapes", "anchors": ["connection/result.go"]}
{"id": "C46", "title": "A pooled connection is lent to one borrower at a time", "statement": "In every history of borrows and returns, no connection of the routing pool is lent twice without having been returned in between, and none is both idle and lent.", "quantifier": "all operation sequences on the routing pool", "why_tests_cant": "histories", "anchors": ["routing/pool.go:internalBorrow", "routing/pool.go:Reclaim", "routing/queue.go"]}
{"id": "C47", "title": "Reads go to read servers and writes to leaders", "statement": "Every connection handed out for writing was opened to an address the cluster reported as leader, every one handed out for reading to a follower or read replica.", "quantifier": "all histories and all cluster topologies", "why_tests_cant": "histories with topology changes", "anchors": ["routing/pool.go:addWriteConn", "routing/pool.go:addReadConn", "routing/pool.go:refreshConnections", "driver_routing_pool.go:Open"]}
{"id": "C48", "title": "The pool opens exactly the requested number of connections", "statement": "A routing pool of size n opens n connections on start, split between writers and readers with at most one more writer.", "quantifier": "all sizes above one", "why_tests_cant": "all sizes", "anchors": ["routing/pool.go:Start", "routing/pool.go:NewRoutingPool"]}
{"id": "C49", "title": "Borrowing and returning healthy connections loses none", "statement": "Any sequence of borrows and returns of healthy connections keeps the set of connections (idle or lent) unchanged.", "quantifier": "all operation sequences", "why_tests_cant": "histories", "anchors": ["routing/pool.go:internalBorrow", "routing/pool.go:Reclaim"]}
{"id": "C50", "title": "Dead idle connections are not lent", "statement": "A connection found closed, or marked for removal, when it is about to be lent is never lent; the borrow returns another or an error.", "quantifier": "all queue contents and health patterns", "why_tests_cant": "all combinations", "anchors": ["routing/pool.go:internalBorrow"]}
{"id": "C51", "title": "A dead connection that is returned is replaced", "statement": "Returning a connection that has died removes it from the pool and replaces it.", "quantifier": "all pool states", "why_tests_cant": "histories with failures", "anchors": ["routing/pool.go:Reclaim", "routing/pool.go:removeConn"]}
{"id": "C52", "title": "Connections to departed servers are retired", "statement": "After a refresh in which a server has disappeared, idle connections to it are no longer lent.", "quantifier": "all topology changes", "why_tests_cant": "histories", "anchors": ["routing/pool.go:refreshConnections", "routing/pool.go:prune"]}
{"id": "C53", "title": "The pool is rebalanced to its configured limits", "statement": "After every refresh the number of idle connections of each kind lies between its configured minimum and maximum.", "quantifier": "all pool states", "why_tests_cant": "all states", "anchors": ["routing/pool.go:balance"]}
{"id": "C54", "title": "Closing the pool closes its idle connections", "statement": "After closing the routing pool every connection that was idle in it is closed.", "quantifier": "all pool states", "why_tests_cant": "all states", "anchors": ["routing/pool.go:Stop", "routing/pool.go:removeConn"]}
{"id": "C55", "title": "Idle connections are lent first-in first-out", "statement": "The queue of idle connections returns items in the order in which they were put in, each exactly once.", "quantifier": "all sequences of enqueue and dequeue", "why_tests_cant": "histories", "anchors": ["routing/queue.go"]}
{"id": "C56", "title": "Servers are used in rotation", "statement": "Opening connections cycles through the known servers, each used equally often, and never fails because of the rotation itself.", "quantifier": "all address lists, all numbers of connections, all refreshes", "why_tests_cant": "index arithmetic over histories with shrinking lists", "anchors": ["routing/pool.go:addWriteConn", "routing/pool.go:addReadConn"]}
{"id": "C57", "title": "Pool size is validated", "statement": "Creating a routing pool succeeds exactly when a non-empty address and a size greater than one are given.", "quantifier": "all sizes", "why_tests_cant": "all integers", "anchors": ["routing/pool.go:NewRoutingPool"]}
{"id": "C58", "title": "Concurrent borrowing is race free", "statement": "Concurrent borrows never write the pool's bookkeeping at the same time.", "quantifier": "all interleavings of borrowers", "why_tests_cant": "schedules", "anchors": ["routing/pool.go:BorrowRConnection", "routing/pool.go:BorrowRWConnection", "routing/pool.go:internalBorrow"]}
{"id": "C59", "title": "Cluster members are classified by role", "statement": "From any cluster overview the routing table lists as leaders, followers and read replicas exactly the members with those roles that publish a bolt address; malformed rows and unknown roles are errors.", "quantifier": "all overview tables", "why_tests_cant": "all tables", "anchors": ["routing/routing_handler.go:refreshClusterInfo", "routing/routing_handler.go:parseRowV3", "routing/routing_handler.go:parseRowV4"]}
{"id": "C60", "title": "A failed refresh keeps the previous routing table", "statement": "If reading the cluster overview fails in any way the routing table is unchanged.", "quantifier": "all failures and prior tables", "why_tests_cant": "all failure points", "anchors": ["routing/routing_handler.go:refreshClusterInfo"]}
{"id": "C61", "title": "Contradictory client options are refused in any order", "statement": "Giving both a connection string and separate host/port or routing options is refused whatever the order of the options.", "quantifier": "all option lists", "why_tests_cant": "permutations of options", "anchors": ["opt.go", "client.go:NewClient"]}
{"id": "C62", "title": "Client options reach the connection", "statement": "A client configured with host, port, user and password opens its connections to that host and port with exactly those credentials.", "quantifier": "all hosts, ports, users and passwords", "why_tests_cant": "all strings, incl. URL metacharacters", "anchors": ["client.go:NewClient", "connection/connection.go:newConnectionFromConnectionString"]}
{"id": "C63", "title": "Asking for TLS gets TLS", "statement": "A client configured with the TLS option opens TLS connections using the configured files and verification setting.", "quantifier": "all TLS settings", "why_tests_cant": "two components far apart must agree on a string format", "anchors": ["opt.go:WithTLS", "client.go:NewClient", "connection/connection.go:newConnectionFromConnectionString"]}
{"id": "C64", "title": "Timeout and chunk size options take effect", "statement": "A client configured with a timeout or a chunk size opens connections that use them.", "quantifier": "all timeouts and chunk sizes", "why_tests_cant": "cross-component", "anchors": ["opt.go:WithTimeout", "opt.go:WithChunkSize", "connection/connection.go:newConnectionFromConnectionString"]}
{"id": "C65", "title": "Connection-string TLS switches are interpreted as documented", "statement": "TLS is used if and only if the tls parameter is 1 or starts with t or T, likewise for tls_no_verify; certificate files are ignored without it; a certificate without a key is refused.", "quantifier": "all parameter values", "why_tests_cant": "all strings", "anchors": ["connection/connection.go:newConnectionFromConnectionString", "connection/connection.go:tlsConfig", "doc.go"]}
{"id": "C66", "title": "Error chains lead to the original error", "statement": "The innermost error of any chain of wrapped driver errors is the first error that was wrapped.", "quantifier": "all chains of any length", "why_tests_cant": "all chain lengths", "anchors": ["errors/errors.go"]}
{"id": "C67", "title": "Wrapped log levels are monotone", "statement": "A message is logged if and only if the configured verbosity is at least the message's; unknown level names disable logging.", "quantifier": "all level names", "why_tests_cant": "all strings", "anchors": ["log/log.go"]}
{"id": "C68", "title": "A closed driver pool lends nothing", "statement": "After the driver pool is closed, Open returns an error and a second Close reports it is already closed, in every history.", "quantifier": "all histories", "why_tests_cant": "histories", "anchors": ["driver_pool.go"]}
{"id": "C69", "title": "The driver pool lends a connection to one user at a time", "statement": "In every history of a driver pool whose users give back only what they hold, no connection is lent while someone holds it.", "quantifier": "all histories of opens, reclaims, closes and wake-ups, any network", "why_tests_cant": "histories and network behaviours are unbounded", "anchors": ["driver_pool.go", "connection_pool_factory.go"]}
{"id": "C70", "title": "The driver pool respects its size", "statement": "At no time are more connections held than the configured maximum.", "quantifier": "all fair histories, all sizes", "why_tests_cant": "unbounded histories", "anchors": ["driver_pool.go"]}
{"id": "C71", "title": "A connection that is held can be given back", "statement": "Reclaim of a connection that is held succeeds, also when it took the place of a connection that died.", "quantifier": "all fair histories", "why_tests_cant": "needs a death at a particular moment of a history", "anchors": ["driver_pool.go", "connection_pool_factory.go:62"]}
{"id": "C72", "title": "Open does not wait for ever while connections are free", "statement": "Open waits only while as many connections as allowed are held; a waiting Open is served when a connection is given back.", "quantifier": "all fair histories and all their continuations", "why_tests_cant": "absence of progress for ever cannot be observed", "anchors": ["driver_pool.go:44"]}
{"id": "C73", "title": "Close leaves no connection open", "statement": "When the pool is closed and everything has been given back, every connection it ever opened has been closed.", "quantifier": "all fair histories", "why_tests_cant": "unbounded histories", "anchors": ["driver_pool.go:67", "connection_pool_factory.go:24"]}
{"id": "C74", "title": "An accepted login opens the connection", "statement": "Whenever a conforming server accepts the login (of at most 65535 bytes each), opening the connection succeeds, and the connection is ready, open and without anything left over; if the server refuses, opening fails with the server's failure.", "quantifier": "all logins, versions, servers, ways in which the replies are cut into pieces", "why_tests_cant": "ways of cutting are unbounded", "anchors": ["connection/connection.go:236", "connection/connection.go:258"]}
{"id": "C75", "title": "A failed open leaves no socket open", "statement": "When opening a connection returns an error, the socket that was dialled, if any, has been closed.", "quantifier": "all networks and servers", "why_tests_cant": "leaks do not show in results", "anchors": ["connection/connection.go:258", "connection/connection.go:281"]}
{"id": "C76", "title": "Every call returns", "statement": "Every call on a connection returns, whatever the peer sends.", "quantifier": "all networks, all states, all calls", "why_tests_cant": "non-termination cannot be observed", "anchors": ["connection/connection.go:549", "connection/connection.go:573", "connection/transaction.go:110"]}
{"id": "C77", "title": "ValidateOpen tells whether the connection can be used", "statement": "ValidateOpen returns true exactly if the connection has not been closed and the server has not hung up, and it never disturbs the connection.", "quantifier": "all sessions with a conforming server", "why_tests_cant": "depends on when the peer hangs up", "anchors": ["connection/connection.go:307"]}
{"id": "C78", "title": "MakeIdle leaves nothing behind", "statement": "After MakeIdle succeeded on an open connection nothing is under way on the link and neither side has a transaction open.", "quantifier": "all sessions", "why_tests_cant": "histories are unbounded", "anchors": ["connection/connection.go:462"]}
{"id": "C79", "title": "The driver pool prepares what it lends", "statement": "Whenever the driver pool lends a connection, the last thing that happened to it, uses by earlier holders included, was that it was made, or made idle with success.", "quantifier": "all histories of the pool and its users, any network", "why_tests_cant": "histories are unbounded", "anchors": ["driver_pool.go", "connection_pool_factory.go:97"]}
{"id": "C80", "title": "Holders of a driver pool's connections do not see each other's transactions", "statement": "Whatever the users of a driver pool do with connections while they hold them, a connection is lent open, to nobody else, with no transaction open on either side and nothing under way.", "quantifier": "all histories, all calls by users, all conforming servers", "why_tests_cant": "histories and calls are unbounded", "anchors": ["driver_pool.go", "connection_pool_factory.go:97", "connection/connection.go:462"]}
{"id": "C81", "title": "Holders of a routing pool's connections do not see each other's transactions", "statement": "A connection lent by the routing pool has no transaction of an earlier holder open.", "quantifier": "all histories, all calls by users, all conforming servers", "why_tests_cant": "histories and calls are unbounded", "anchors": ["routing/pool.go:509", "routing/pool.go:429"]}
{"id": "C82", "title": "The decoder reads exactly one grammar", "statement": "Decoding the front of a byte sequence succeeds with a value and a rest exactly when the published grammar, widened in stated ways (signed sizes, text cut by the end, unchecked structure sizes, negative map sizes, repeated keys), derives that value and rest.", "quantifier": "all byte sequences, both codec versions, all time zone tables", "why_tests_cant": "any bytes, any nesting", "anchors": ["encoding/encoding_v1/decoderV1.go:decode", "encoding/encoding_v2/decoderV2.go:decode", "encoding/util.go"]}
{"id": "C83", "title": "A refused value is refused for its first obstacle", "statement": "When Encode fails, the error is the complaint about the first obstacle in writing order, wrapped once for every structure around it; when there is no obstacle, Encode succeeds.", "quantifier": "all values, both codec versions", "why_tests_cant": "any nesting position", "anchors": ["encoding/encoding_v1/encoderV1.go:encode", "encoding/encoding_v1/encoderV1.go:encodeStructure", "encoding/encoding_v2/encoderV2.go:encode"]}
{"id": "C84", "title": "Each protocol version speaks its own dialect", "statement": "Points and temporal values are sent and read exactly from version 2 on, BEGIN, COMMIT, ROLLBACK and GOODBYE are used exactly from version 3 on, databases exactly from version 4 on, and the summary keys are those of the version.", "quantifier": "all versions, all values of the types concerned, all byte sequences that start with such a structure", "why_tests_cant": "all values and bytes", "anchors": ["protocol/protocol_v1/bolt.go", "protocol/protocol_v2/bolt.go", "protocol/protocol_v3/bolt.go", "protocol/protocol_v4/bolt.go"]}
{"id": "C85", "title": "Closing says goodbye", "statement": "A Close that succeeds ends with GOODBYE, in the versions that have it, followed by closing the link, and sends nothing else unless a transaction is open.", "quantifier": "all connections, all networks", "why_tests_cant": "any peer behaviour", "anchors": ["connection/connection.go:428", "protocol/protocol_v3/bolt.go:44", "structures/messages/goodbye.go"]}
{"id": "C86", "title": "The time until a result was available can be read", "statement": "GetAvailableAfter of a summary returns the time the server reported under the key of the protocol version.", "quantifier": "all versions, all summaries", "why_tests_cant": "any metadata", "anchors": ["structures/messages/responses.go:41", "protocol/protocol_v3/bolt.go:14"]}
{"id": "C87", "title": "The client keeps to the protocol on any network", "statement": "Whatever the peer and the network do, a call reads an answer only while one is owed, follows a FAILURE by RESET and nothing else, sends RESET only then, does nothing after a failed operation or after closing the link, and a call that succeeds leaves no answer unread.", "quantifier": "all calls, all connection states, all networks and peers", "why_tests_cant": "every behaviour of the peer and every point of failure", "anchors": ["connection/connection.go:540", "connection/connection.go:549", "connection/connection.go:573"]}
{"id": "C88", "title": "No request is repeated", "statement": "A call sends the requests it stands for, each once and in order, in addition only what makes amends after a FAILURE (RESET, ROLLBACK, GOODBYE); if it succeeds it has sent all of them and nothing else. No call sends a statement twice.", "quantifier": "all calls, all connection states, all networks and peers", "why_tests_cant": "a repeated statement shows only under particular failures", "anchors": ["connection/connection.go:339", "connection/connection.go:428", "connection/transaction.go:32"]}
{"id": "C89", "title": "The text of an error tells its whole chain", "statement": "Error() of an error of package errors lists the wrapping messages from the last to the first, each a tab further in, then the innermost error: its message and stack if it is one of the package's, its type and text if it is foreign. No message of the chain is lost.", "quantifier": "all errors made by New and any chain of Wrap around own or foreign errors", "why_tests_cant": "chains of any length", "anchors": ["errors/errors.go:43", "errors/errors.go:65"]}
{"id": "C90", "title": "A printout of bytes can be read back", "statement": "SprintByteHex shows the bytes as text followed by each as a hexadecimal number; no two byte sequences have the same printout.", "quantifier": "all byte sequences", "why_tests_cant": "all byte sequences", "anchors": ["log/log.go:60"]}
{"id": "C91", "title": "The timeout limits how long a message is waited for", "statement": "Reading one message returns at most the configured timeout after it began: with the message if it arrived, with an error otherwise.", "quantifier": "all timeouts, all messages, all schedules by which a peer delivers bytes and closes", "why_tests_cant": "every schedule of arrivals, measured on a real clock", "anchors": ["connection/connection.go:26", "connection/connection.go:44", "encoding/encoding_v1/decoderV1.go:42"]}
{"id": "C92", "title": "Connecting takes no longer than the timeout", "statement": "Dialling a server returns at most the configured timeout after it began, with or without TLS.", "quantifier": "all configurations, all peers, also those that never answer", "why_tests_cant": "peers that never answer", "anchors": ["connection/connection.go:172"]}
{"id": "C93", "title": "A routing pool whose start failed can be started again", "statement": "If Start fails because the cluster cannot be reached, a later Start succeeds once it can be.", "quantifier": "all histories of the pool, all clusters", "why_tests_cant": "the cluster must fail and recover at particular moments", "anchors": ["routing/pool.go:360", "routing/pool.go:405"]}
{"id": "C94", "title": "The overview of the cluster is taken from any server that can be reached", "statement": "Refreshing succeeds as long as one known server of the cluster answers.", "quantifier": "all histories of the pool, all clusters", "why_tests_cant": "needs clusters that lose particular servers", "anchors": ["routing/pool.go:192", "routing/pool.go:345"]}
{"id": "C95", "title": "A start that fails leaves no connection open", "statement": "If Start of the routing pool fails, every connection it opened has been closed.", "quantifier": "all histories of the pool, all clusters", "why_tests_cant": "a dial must fail after others succeeded", "anchors": ["routing/pool.go:360", "driver_routing_pool.go:25"]}
{"id": "C96", "title": "A connection returned to a stopped routing pool is closed", "statement": "Reclaim on a pool that was stopped closes the connection, so that none is leaked.", "quantifier": "all pools, all connections, all worlds", "why_tests_cant": "leaks show only in the peer", "anchors": ["routing/pool.go:509", "routing/pool.go:405"]}
{"id": "C97", "title": "The address lists of a routing table name every member once", "statement": "The write list names the bolt address of every leader once, the read lists those of every follower and replica once.", "quantifier": "all overviews of a cluster", "why_tests_cant": "clusters with several replicas", "anchors": ["routing/routing_handler.go:42", "routing/routing_handler.go:66", "routing/routing_handler.go:78"]}
{"id": "C98", "title": "While the routing pool runs, one goroutine keeps its table fresh", "statement": "At every moment at which the pool is running there is exactly one refresher.", "quantifier": "all lives of a pool: all sequences of calls, tests and rounds of the refreshers, all clusters", "why_tests_cant": "goroutines are not visible to a test, and restarts within the interval are rare", "anchors": ["routing/pool.go:345", "routing/pool.go:360", "routing/pool.go:405"]}
{"id": "C99", "title": "A routing pool that was stopped leaves the cluster alone", "statement": "After Stop the pool opens no connection until it is started again.", "quantifier": "all lives of a pool, all clusters", "why_tests_cant": "the refresher wakes long after Stop returned", "anchors": ["routing/pool.go:345", "routing/pool.go:405"]}
{"id": "C100", "title": "Stopping a routing pool that is in use", "statement": "When Stop overlaps with borrowing and returning, it succeeds, and once all of them have ended the pool keeps no idle connection.", "quantifier": "all interleavings of borrowing, returning and stopping, all clusters", "why_tests_cant": "schedules", "anchors": ["routing/pool.go:Stop", "routing/pool.go:internalBorrow", "routing/pool.go:Reclaim"]}
{"id": "C101", "title": "A borrowed connection of a shared routing pool belongs to one goroutine", "statement": "However goroutines that borrow, use and return connections overlap, and whenever the pool is stopped, the connection one of them uses is not idle, is not used by another, and nobody else is about to check, close or put it back.", "quantifier": "all numbers of goroutines, all sequences of borrows and returns, all interleavings, all clusters", "why_tests_cant": "schedules", "anchors": ["routing/pool.go:internalBorrow", "routing/pool.go:Reclaim", "routing/pool.go:Stop"]}
{"id": "C102", "title": "Goroutines that share a routing pool do not wait for each other for ever", "statement": "However borrowing, returning and stopping have been interleaved so far, every goroutine that is not finished can be brought to its end, and no execution is infinite.", "quantifier": "all numbers of goroutines, all interleavings, all clusters", "why_tests_cant": "schedules; absence of deadlock", "anchors": ["routing/pool.go:BorrowRConnection", "routing/pool.go:BorrowRWConnection", "routing/pool.go:Reclaim", "routing/pool.go:Stop"]}
{"id": "C103", "title": "The refresher and the users of a shared routing pool do not disturb each other", "statement": "However clients that borrow, use and return connections, the rounds of the refresher and calls of Stop overlap, the connection a client uses is not idle and nobody else is about to check, close or put it back; and a pool that has been stopped does not get idle connections from the refresher.", "quantifier": "all numbers of goroutines, all interleavings, all clusters", "why_tests_cant": "schedules", "anchors": ["routing/pool.go:refreshHandler", "routing/pool.go:prune", "routing/pool.go:balance", "routing/pool.go:Stop"]}
{"id": "C104", "title": "+routing in the scheme, and only there, asks for routing", "statement": "A connection string asks for routing if and only if its scheme does, and the routing pool connects to the server that the string names with the credentials and parameters given there.", "quantifier": "all connection strings and all histories of the pool", "why_tests_cant": "all strings", "anchors": ["client.go:NewClient", "routing/pool.go:NewRoutingPool"]}
{"id": "C105", "title": "Starting a routing pool is safe whatever else happens", "statement": "However calls of Start overlap with each other, with clients, with Stop and with the refresher: at most one Start fills the pool, no goroutine panics, no two write to the pool's fields at once, every connection Start opens is kept by the pool or its users, a pool that has been stopped keeps none, and nobody is about to test, close or put back what a client uses.", "quantifier": "all numbers of goroutines, all interleavings, all clusters", "why_tests_cant": "schedules", "anchors": ["routing/pool.go:Start", "routing/pool.go:addReadConn", "routing/pool.go:addWriteConn", "routing/pool.go:refreshHandler"]}
{"id": "C106", "title": "A call stops at the first error of the network", "statement": "Once sending, receiving, dialling or hanging up has failed, the call in progress makes no further use of the network and does not succeed.", "quantifier": "all calls, all openings, all networks and servers", "why_tests_cant": "errors at every point of every call", "anchors": ["connection/connection.go:consume", "connection/connection.go:sendMessageConsume", "connection/connection.go:reset", "connection/connection.go:runQuery", "connection/transaction.go:Commit", "connection/transaction.go:Rollback"]}
{"id": "C107", "title": "Sending a message takes no longer than the timeout", "statement": "A message is either taken by the network within the configured timeout or sending it fails by then.", "quantifier": "all messages, chunk sizes, timeouts and all paces at which the peer takes bytes", "why_tests_cant": "all paces", "anchors": ["connection/connection.go:Write", "encoding/encoding_v1/encoderV1.go:Write", "encoding/encoding_v1/encoderV1.go:flush", "encoding/encoding_v1/encoderV1.go:Encode"]}
{"id": "C108", "title": "A call returns within the timeout", "statement": "A call on a connection, and opening one, takes no longer than the configured timeout.", "quantifier": "all calls, timeouts, servers and paces at which bytes are taken and come", "why_tests_cant": "all paces, long waits", "anchors": ["connection/connection.go:Read", "connection/connection.go:Write", "connection/connection.go:runQuery", "connection/connection.go:initialize"]}
{"id": "C109", "title": "Asking whether a connection is open does not disturb a query in progress", "statement": "If ValidateOpen is called while a query of another goroutine waits for its answer, the query neither fails because of it nor loses a part of the answer.", "quantifier": "all answers and paces, all interleavings", "why_tests_cant": "schedules and timing", "anchors": ["connection/connection.go:ValidateOpen", "connection/connection.go:Read"]}
{"id": "C110", "title": "Giving back to the routing pool what one does not hold does no harm", "statement": "If a connection that is not lent is given back to the routing pool, or given back a second time, the pool refuses it, and neither the pool nor any connection is touched.", "quantifier": "all histories of the pool, all clusters, all connections", "why_tests_cant": "needs a second return at every point of every history", "anchors": ["routing/pool.go:Reclaim"]}
{"id": "C111", "title": "Giving back to the driver pool what one does not hold does no harm", "statement": "If a connection that nobody holds is given back to the driver pool, or given back a second time, the pool refuses it, and neither the pool nor any connection is touched.", "quantifier": "all histories of the pool, all connections", "why_tests_cant": "needs a second return at every point of every history, and connections that die meanwhile", "anchors": ["driver_pool.go:reclaim", "connection_pool_factory.go:ActivateObject"]}
{"id": "C112", "title": "The error that refuses a connection string does not reveal the password", "statement": "If Open or NewClient refuses a connection string, or one made from the client's options, the text of the error does not depend on the password.", "quantifier": "all connection strings, all options", "why_tests_cant": "whether the password is printed depends on which of many mistakes the string contains, and on characters in user, password and host", "anchors": ["connection/connection.go:newConnectionFromConnectionString", "client.go:NewClient"]}
{"id": "C113", "title": "Opening does not depend on how the server's bytes are divided", "statement": "A server that answers the handshake and the login properly is connected to, however the network divides its bytes into pieces, if no gap is longer than the timeout.", "quantifier": "all answers, all divisions into pieces, all arrival times", "why_tests_cant": "a local server's four bytes practically always arrive together", "anchors": ["connection/connection.go:handshake"]}
{"id": "C114", "title": "Decoding reserves no more elements than the message has bytes", "statement": "Decoding a message of n bytes, accepted or not, reserves memory for at most n elements of lists and maps at a time.", "quantifier": "all messages, both codec versions, any amount of memory", "why_tests_cant": "the messages that tests send are accepted, and those do keep to it; the ones that do not announce more elements than they carry", "anchors": ["encoding/encoding_v1/decoderV1.go:decodeSlice", "encoding/encoding_v1/decoderV1.go:decodeMap", "encoding/encoding_v2/decoderV2.go:decodeSlice", "encoding/encoding_v2/decoderV2.go:decodeMap"]}
{"id": "C115", "title": "Nesting in a message cannot exhaust the stack", "statement": "There is a depth of stack with which every message that is a valid value is decoded.", "quantifier": "all messages, all depths, both codec versions", "why_tests_cant": "the values of tests are a few levels deep, and a stack overflow needs millions", "anchors": ["encoding/encoding_v1/decoderV1.go:decode", "encoding/encoding_v2/decoderV2.go:decode"]}
{"id": "C116", "title": "Sending a message does not write the password to the log", "statement": "Whatever the log level, encoding the login message writes nothing to the log that contains the password.", "quantifier": "all users and passwords, all protocol versions, all log levels", "why_tests_cant": "tests do not read the log", "anchors": ["encoding/encoding_v2/encoderV2.go:flush", "log/log.go:TraceBytes"]}
{"id": "C117", "title": "The byte log shows the messages that are sent", "statement": "At the level trace-bytes, the bytes shown in the log for a message that is sent are the bytes of the message.", "quantifier": "all values, both codec versions, all chunk sizes", "why_tests_cant": "tests do not read the log, and their messages fit into one chunk", "anchors": ["encoding/encoding_v1/encoderV1.go:flush", "encoding/encoding_v2/encoderV2.go:flush"]}
{"id": "C118", "title": "A connection string that is accepted is a bolt address and names a server", "statement": "If a connection string is accepted, its scheme is bolt or bolt+routing in any letter case, and the connection is to the server named in it.", "quantifier": "all strings", "why_tests_cant": "tests use well-formed addresses", "anchors": ["connection/connection.go:newConnectionFromConnectionString", "client.go:NewClient"]}
{"id": "C119", "title": "A client is made exactly if its options can be met", "statement": "NewClient returns a client exactly if every option is valid and they can be met together, and a configuration error otherwise.", "quantifier": "all lists of options", "why_tests_cant": "there are infinitely many combinations and orders of options; the tests try a few", "anchors": ["client.go:NewClient", "opt.go"]}
{"id": "C120", "title": "Options about the version of the protocol take effect", "statement": "A client made with WithStrictProtocolVersion, WithProtocolVersionGreaterThan or WithProtocolVersionLessThan only opens connections that speak such a version.", "quantifier": "all lists of options, all positions of the version option", "why_tests_cant": "tests compare fields of the client, not the connections it opens", "anchors": ["opt.go:WithStrictProtocolVersion", "opt.go:WithProtocolVersionGreaterThan", "opt.go:WithProtocolVersionLessThan", "client.go:NewDriver"]}
{"id": "C121", "title": "A parameter that the server returns comes back unchanged", "statement": "If a statement is executed with parameters and the server answers with the values it received, the rows contain the same values.", "quantifier": "all protocol versions, all sessions, all parameters, all ways the network divides the bytes", "why_tests_cant": "needs all values and all fragmentations; integration tests with a server use a few values", "anchors": ["connection/connection.go:QueryWithDb", "encoding/encoding_v1/encoderV1.go:Encode", "encoding/encoding_v2/encoderV2.go:Encode", "encoding/encoding_v2/decoderV2.go:Decode"]}
{"id": "C122", "title": "Calls of several goroutines have the effect of the same calls in some order", "statement": "When several goroutines have made calls on one connection, their results and the state of the connection and of the server are those of one goroutine making the same calls in some order, each goroutine's calls in theirs.", "quantifier": "all numbers of goroutines, all calls (Begin, Commit, Rollback, Close, Reset, statements), all interleavings, all networks", "why_tests_cant": "schedules; no test of the project begins transactions from several goroutines", "anchors": ["connection/connection.go:BeginWithDatabase", "connection/connection.go:runQuery", "connection/connection.go:reset", "connection/transaction.go:Rollback"]}
{"id": "C123", "title": "New connections go where the newest overview of the cluster says, whatever runs at the same time", "statement": "Whenever a goroutine is about to open a connection of a routing pool, the address is that of a leader, for writing, or of a follower or read replica, for reading, in the newest overview of the cluster that could be read; and whenever no refresh is under way the pool knows exactly the addresses of that overview.", "quantifier": "all numbers of goroutines that borrow, give back, start, stop and refresh, all interleavings of their steps (a refresh being fifteen), all clusters, all overviews and connection failures", "why_tests_cant": "schedules; no test of the project runs a routing pool against a cluster that changes", "anchors": ["routing/pool.go:refreshConnections", "routing/pool.go:addWriteConn", "routing/pool.go:addReadConn", "routing/pool.go:Start", "routing/routing_handler.go:refreshClusterInfo"]}
{"id": "C124", "title": "Goroutines that share a driver pool and give back what they take are all served", "statement": "Goroutines that each take a connection from a driver pool, use it, and give it back before they take another, and goroutines that close the pool, never wait for each other for ever: while one has something left to do one can go on, and every schedule ends. Unless the pool is closed or a connection cannot be made, every Open lends a connection and every Reclaim is accepted.", "quantifier": "all numbers of goroutines and of turns each takes, all pool sizes, all interleavings of their calls, all networks", "why_tests_cant": "schedules; the project's tests open a pool from one goroutine, and a wait that never ends shows only as a test that hangs", "anchors": ["driver_pool.go:open", "driver_pool.go:close", "driver_pool.go:reclaim", "client.go:NewDriverPool", "connection_pool_factory.go:PassivateObject"]}
{"id": "C125", "title": "What the server complains about can be read in the error of the call", "statement": "A call, or an opening, during which the server sends FAILURE messages fails with an error that leads to the first of them, and no call's error leads to a FAILURE message that did not arrive during it; the text of the error contains the code and the message that the server sent, in a form from which both can be read off; when the reset that follows fails too, the text tells why.", "quantifier": "all networks, all calls, all metadata, all sequences of answers", "why_tests_cant": "the project's tests provoke one kind of failure and look at no text; a reset that fails needs a server that misbehaves", "anchors": ["structures/messages/responses.go:Error", "structures/messages/responses.go:GetCode", "structures/messages/responses.go:GetMessage", "connection/connection.go:consume", "errors/errors.go:InnerMost", "doc.go"]}
{"id": "C126", "title": "From the options of a client to the rows of its statements", "statement": "A client made from host, port, user name and password dials that host and port and logs in to it with that user name and password; if the server accepts, every statement asked for afterwards is given to the database once and in order, its caller gets the answer of the database to this very statement, and the database keeps the statements it granted and no others.", "quantifier": "all client options, all conforming servers of every protocol version, all ways the link cuts the bytes, all lists of statements", "why_tests_cant": "the project's tests use one server, one user and passwords without special characters; the claim joins the client, the connection string, the handshake, the codec and the message exchange for all of them at once", "anchors": ["client.go:NewClient", "client.go:NewDriver", "driver.go:Open", "connection/connection.go:CreateBoltConn", "connection/connection.go:initialize", "connection/connection.go:Query"]}
{"id": "C127", "title": "What a holder of a pooled connection does becomes permanent as its own calls tell it", "statement": "From the moment a driver pool lends a connection until it is given back, the database behind it makes permanent the statements that the holder's own calls report as executed outside a transaction or in a committed one, each once and in order, and no others - whatever earlier holders did with the connection and whatever is done with the pool and its other connections meanwhile. Lending, giving back, making and closing connections make nothing permanent, and the pool leaves a connection that is lent as it is.", "quantifier": "all histories of the pool, all calls by the holder and by everybody else, all conforming servers", "why_tests_cant": "histories, holders and calls are unbounded, and an earlier holder's transaction left open shows only in what the database kept", "anchors": ["driver_pool.go:Open", "driver_pool.go:Reclaim", "connection_pool_factory.go", "connection/connection.go:MakeIdle", "connection/transaction.go"]}
{"id": "C128", "title": "A routing client logs in everywhere with its own user name and password", "statement": "Every connection that the pool of a routing client opens, over its whole life, goes to the server the client was configured with or to a member of the cluster that an overview listed before, at the host and port listed, and is opened with the user name and password of the client.", "quantifier": "all client options, all clusters and answers to the overview query, all histories of the pool", "why_tests_cant": "the project's tests do not look at what is dialled; passwords, cluster answers and histories are unbounded", "anchors": ["client.go:NewClient", "client.go:getUsernamePassword", "client.go:getTlsPortion", "client.go:NewDriverPool", "driver_routing_pool.go", "routing/pool.go:addAuthInfoToConnStr", "routing/pool.go:refreshConnections", "routing/pool.go:newConnection", "connection/connection.go:newConnectionFromConnectionString"]}
{"id": "C129", "title": "Decoding writes nothing to the standard output", "statement": "Decoding a received message, whatever it contains and whether or not it is accepted, writes nothing to the standard output of the process that uses the driver.", "quantifier": "both codecs, all byte sequences, all ways of cutting them into chunks and reads, all time zones", "why_tests_cant": "tests compare decoded values, not the output of the process; values and malformed messages are unbounded", "anchors": ["encoding/encoding_v2/decoderV2.go:decodeLocalTime", "encoding/encoding_v2/decoderV2.go:decode", "encoding/encoding_v1/decoderV1.go:decode"]}
{"id": "C130", "title": "Encoding a value returns", "statement": "Encoding any value a caller can pass as a parameter returns: nil when the encoding of the value has been written, or an error.", "quantifier": "both codecs, all values including shared ones, values that contain themselves and nil pointers, all chunk sizes, all links, all stack depths", "why_tests_cant": "a self-containing value ends the test process, and graphs of references are unbounded in size and shape", "anchors": ["encoding/encoding_v1/encoderV1.go:encode", "encoding/encoding_v1/encoderV1.go:encodeSlice", "encoding/encoding_v1/encoderV1.go:encodeStructure", "encoding/encoding_v2/encoderV2.go:encode", "encoding/encoding_v2/encoderV2.go:encodeStructure"]}
{"id": "C131", "title": "One socket, closed once, and then left alone", "statement": "A connection dials one socket. It is closed at most once, exactly if the connection is marked closed, and after that nothing is sent, read or looked at on it, whatever is called on the connection or its transactions.", "quantifier": "all networks, all openings, all histories of calls", "why_tests_cant": "closing can happen inside a failing RESET inside a rollback inside a Close; all nestings, all networks", "anchors": ["connection/connection.go:Close", "connection/connection.go:reset", "connection/connection.go:consume", "connection/connection.go:initialize", "connection/transaction.go:Rollback", "connection/transaction.go:Commit"]}
{"id": "C132", "title": "A connection from a pool has the settings of a new one", "statement": "A connection obtained from a pool has the timeout and the chunk size that new connections of that client have, whatever earlier holders of the connection have set.", "quantifier": "all networks, all pools' histories, all sequences of calls of all holders, all values set", "why_tests_cant": "tests use a connection once with the default settings; the histories of holders, failures and resets are unbounded", "anchors": ["connection/connection.go:SetTimeout", "connection/connection.go:SetChunkSize", "connection/connection.go:MakeIdle", "connection/connection.go:Write", "connection/connection.go:Read", "driver_pool.go:Reclaim", "routing/pool.go:Reclaim"]}
{"id": "C133", "title": "From a routing client's options to the server that executes", "statement": "A statement of a routing client that succeeds on a borrowed connection was executed by the server at an address that the overview listed with a role that goes with the mode of borrowing, in a login with the client's user name and password, and its result is what that server produced for this statement; the overview itself was produced by the server at the client's own host and port in a login with the same user name and password. Members' addresses are bolt://host:port, and nothing in the user name and password has to be escaped.", "quantifier": "all clusters of conforming servers, all options, user names and passwords, all histories of the pool with calls of all borrowers in between, all statements", "why_tests_cant": "spans client, connection strings, overview, pool and protocol; tests check each against fixed examples, never that the statement reaches the server the overview meant, as the user the client named", "anchors": ["client.go:NewClient", "client.go:NewDriverPool", "routing/pool.go:refreshConnections", "routing/pool.go:newConnection", "routing/pool.go:BorrowRConnection", "routing/pool.go:BorrowRWConnection", "routing/routing_handler.go:refreshClusterInfo", "connection/connection.go:CreateBoltConn", "connection/connection.go:QueryWithDb"]}
{"id": "C134", "title": "Borrowers that end their transactions share a routing pool safely", "statement": "If whoever borrows a connection from a routing pool uses only what they hold, gives back what they hold under the name it was lent under, and has committed or rolled back every transaction begun on it, then a connection lent is lent to no one else, is open, and has nothing left of its earlier holders: no reply is under way, and neither the server nor the client has a transaction open on it. Statements do not begin transactions themselves.", "quantifier": "all clusters of conforming servers, all histories of the pool with calls of all borrowers in between", "why_tests_cant": "C81 shows that the pool itself does nothing about open transactions; that ending them is enough, whatever the refreshes, failures and returns in between, is a statement about every history", "anchors": ["routing/pool.go:BorrowRConnection", "routing/pool.go:BorrowRWConnection", "routing/pool.go:Reclaim", "routing/pool.go:refreshConnections", "routing/routing_handler.go:refreshClusterInfo", "connection/connection.go:ValidateOpen", "connection/transaction.go:Commit", "connection/transaction.go:Rollback"]}
{"id": "C135", "title": "The routing pool leaves alone what it has lent", "statement": "While a connection of a routing pool is lent, no operation of the pool validates it, closes it, asks it for the members of the cluster or dials it anew, unless it is the operation that gives it back. Connections are given back by their holders under the names they were lent under.", "quantifier": "all clusters, all histories of the pool with whatever the borrowers do with connections they hold in between, all operations, including starting again, stopping and refreshing", "why_tests_cant": "that the pool keeps its hands off a lent connection through prunings, refreshes and stops that name other connections is a statement about every history, not about a run", "anchors": ["routing/pool.go:BorrowRConnection", "routing/pool.go:BorrowRWConnection", "routing/pool.go:Reclaim", "routing/pool.go:Stop", "routing/pool.go:prune", "routing/pool.go:refreshConnections", "routing/pool.go:removeConn"]}
{"id": "C136", "title": "The holder of a connection of a routing pool decides what becomes permanent on it", "statement": "From the moment a connection of a routing pool is lent, exactly those statements become permanent on it that its holder's own calls report as executed or committed, in order, whatever earlier holders did and whatever others do with the pool and the connections they hold meanwhile; and the pool itself makes nothing permanent on a connection it has opened before. Borrowers end their transactions before they give connections back, and statements do not begin transactions.", "quantifier": "all clusters of conforming servers, all histories before and during the loan, all sequences of the holder's calls", "why_tests_cant": "interleaves the holder's calls with arbitrary operations of the pool and of other holders; tests use one borrower", "anchors": ["routing/pool.go:BorrowRConnection", "routing/pool.go:BorrowRWConnection", "routing/pool.go:Reclaim", "routing/pool.go:refreshConnections", "connection/connection.go:ExecWithDb", "connection/transaction.go:Commit", "connection/transaction.go:Rollback"]}
{"id": "C137", "title": "Every connection a routing pool opens is accounted for", "statement": "At every time between operations of a routing pool, every connection it has opened has been asked to close, waits in a queue of the pool, or is lent. Connections are given back by their holders under the names they were lent under.", "quantifier": "all clusters, all histories of the pool with whatever the borrowers do with connections they hold in between, all connections", "why_tests_cant": "a leak is an absence: no call fails and no answer is wrong, so a test has to know all connections ever dialled and every path on which one can be dropped", "anchors": ["routing/pool.go:removeConn", "routing/pool.go:internalBorrow", "routing/pool.go:Stop", "routing/pool.go:Reclaim", "routing/pool.go:refreshConnections", "routing/pool.go:addWriteConn", "routing/pool.go:addReadConn", "routing/pool.go:prune"]}
{"id": "C138", "title": "A driver pool has no more connections open than its size", "statement": "Whatever is asked of a driver pool, in whatever order and by whomever, at most as many of the connections it has made are open as its size says: every other one has been asked to close.", "quantifier": "all networks, all sizes, all sequences of requests to the pool, also unfair ones such as giving back twice or what was never lent, with connections used in between", "why_tests_cant": "the count is of sockets nobody holds any more: a connection that was replaced without being closed shows in no answer of the pool, and the excess grows only with the failures of a server", "anchors": ["driver_pool.go:open", "driver_pool.go:reclaim", "driver_pool.go:close", "connection_pool_factory.go:MakeObject", "connection_pool_factory.go:DestroyObject", "connection_pool_factory.go:ActivateObject"]}
{"id": "C139", "title": "A routing pool has no more connections open than its size", "statement": "Whatever is asked of a routing pool, in whatever order and by whomever, at most as many of the connections it has opened are open as its size says: every other one has been asked to close.", "quantifier": "all clusters, all sizes of at least two, all sequences of operations, also giving back what was never lent or under a wrong name, with connections used in between", "why_tests_cant": "the excess consists of connections that nobody holds and no queue contains; each path by which one can drop out of the books has to be taken, and the count compared with all connections ever dialled", "anchors": ["routing/pool.go:Start", "routing/pool.go:Stop", "routing/pool.go:Reclaim", "routing/pool.go:internalBorrow", "routing/pool.go:removeConn", "routing/pool.go:refreshConnections", "routing/pool.go:addWriteConn", "routing/pool.go:addReadConn"]}
{"id": "C140", "title": "However goroutines overlap, a routing pool has no more connections than its size", "statement": "Whatever goroutines do with a routing pool at the same time, and however their steps interleave, at any moment the connections that are idle and those that are borrowed are together no more than the size of the pool.", "quantifier": "all clusters, all sizes of at least two, all earlier uses of the pool, all numbers of goroutines that borrow, use, give back, start, stop and refresh, all interleavings of their steps", "why_tests_cant": "an excess needs a particular interleaving, such as a round of the refresher that puts back a list of connections while others are taken out; a test meets a few interleavings of a few goroutines", "anchors": ["routing/pool.go:Start", "routing/pool.go:Stop", "routing/pool.go:Reclaim", "routing/pool.go:internalBorrow", "routing/pool.go:BorrowRConnection", "routing/pool.go:BorrowRWConnection", "routing/pool.go:refreshHandler", "routing/pool.go:prune", "routing/pool.go:balance", "routing/pool.go:addWriteConn", "routing/pool.go:addReadConn"]}
{"id": "C141", "title": "However goroutines overlap, a routing pool leaves no more connections open than its size", "statement": "Whatever was asked of a routing pool before, by whomever, and whatever goroutines then do with it at the same time, however their steps interleave: once they have all ended, the connections that the pool has opened and has not asked to close are no more than its size, and one more at any moment before.", "quantifier": "all clusters, all sizes of at least two, all earlier sequences of operations with any use of connections between them, all numbers of goroutines that borrow, use, give back, start, stop and refresh, all interleavings of their steps", "why_tests_cant": "a connection that is dropped without being closed leaves no mark in the pool; to see the leak one needs the interleaving in which a list of connections is put back over one from which others were taken, and to exclude it one needs all of them", "anchors": ["routing/pool.go:Start", "routing/pool.go:Stop", "routing/pool.go:Reclaim", "routing/pool.go:internalBorrow", "routing/pool.go:BorrowRConnection", "routing/pool.go:BorrowRWConnection", "routing/pool.go:refreshHandler", "routing/pool.go:prune", "routing/pool.go:balance", "routing/pool.go:addWriteConn", "routing/pool.go:addReadConn"]}
{"id": "C142", "title": "However goroutines overlap, a routing pool keeps to the shares of writers and readers", "statement": "Whatever goroutines do with a routing pool at the same time, and however their steps interleave, at any moment the connections for writing, idle and borrowed, are no more than half the size of the pool rounded up, those for reading no more than half rounded down, and no idle connection is in the wrong queue.", "quantifier": "all clusters, all sizes of at least two, all earlier uses of the pool, all numbers of goroutines that borrow, use, give back, start, stop and refresh, all interleavings of their steps", "why_tests_cant": "a connection returned while a round of the refresher replaces the queues, or one replaced because it is dead, would have to be counted twice or end up in the wrong queue in some interleaving; tests meet few interleavings", "anchors": ["routing/pool.go:Start", "routing/pool.go:Stop", "routing/pool.go:Reclaim", "routing/pool.go:internalBorrow", "routing/pool.go:refreshHandler", "routing/pool.go:prune", "routing/pool.go:balance", "routing/pool.go:addWriteConn", "routing/pool.go:addReadConn"]}
{"id": "C143", "title": "However goroutines overlap, every connection a routing pool opens is accounted for", "statement": "Whatever goroutines do with a routing pool at the same time, and however their steps interleave, once all are done every connection the pool has opened has been asked to close, waits in a queue of the pool, or is noted as borrowed. Before, connections are given back by their holders under the names they were lent under.", "quantifier": "all clusters, all earlier histories of the pool, all numbers of goroutines that borrow, use, give back, start, stop and refresh, all interleavings of their steps, all connections", "why_tests_cant": "a connection can be dropped when a queue that was looked at earlier is put back, when two goroutines take the same entry, or between two looks at whether it is open; no call fails, and only some interleavings do it", "anchors": ["routing/pool.go:removeConn", "routing/pool.go:internalBorrow", "routing/pool.go:Start", "routing/pool.go:Stop", "routing/pool.go:Reclaim", "routing/pool.go:refreshHandler", "routing/pool.go:refreshConnections", "routing/pool.go:prune", "routing/pool.go:balance"]}
