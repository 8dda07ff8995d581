{"id": "C01", "title": "Command queue loses and duplicates nothing", "statement": "Every command pushed on a command queue is handed back exactly once by a later get/getAll, or is still queued, or was explicitly discarded by clear or abandonFutureCommands; no command is ever handed out twice and none disappears.", "quantifier": "every sequence of push/get/getAll/clear/abandonFutureCommands calls, every clock value, every schedule and timeout, including equal keys", "why_tests_cant": "the two internal indexes can only drift apart on particular collisions of scheduled time and timeout; a test samples a few histories out of infinitely many", "anchors": ["BedrockCommandQueue.cpp:push", "BedrockCommandQueue.cpp:_dequeue", "BedrockCommandQueue.cpp:getAll", "BedrockCommandQueue.cpp:abandonFutureCommands"]}
{"id": "C02", "title": "Command queue hands out timed-out commands first, then the earliest due command", "statement": "A get returns a command whose timeout has passed (the one with the oldest timeout) if there is one; otherwise the command with the earliest scheduled time, first-come-first-served among equal times, and only if that time has arrived; otherwise nothing.", "quantifier": "every queue history without abandonFutureCommands (with it the claim is refuted), every clock value", "why_tests_cant": "depends on the agreement of two sorted indexes after arbitrarily many insertions and removals", "anchors": ["BedrockCommandQueue.h:_dequeue comment", "BedrockCommandQueue.cpp:_dequeue"]}
{"id": "C03", "title": "Blocking-queue rate limit: blocked exactly when recent execution time exceeds the threshold", "statement": "An identifier (or command name) becomes blocked when, and only when, recording an execution finds that the time it spent executing within the sliding window exceeds the threshold; it then stays blocked for the block duration, during which every push for it is refused with 503 and leaves the queue unchanged, and is accepted again afterwards.", "quantifier": "every sequence of recordExecutionTime/isBlocked/push/setters/clear calls with a non-decreasing clock", "why_tests_cant": "sliding-window sums with partial overlap have boundary cases at every microsecond", "anchors": ["BedrockBlockingCommandQueue.cpp:_recordAndCheck", "BedrockBlockingCommandQueue.cpp:isBlocked", "BedrockBlockingCommandQueue.cpp:push"]}
{"id": "C04", "title": "Rate limits are isolated per identifier", "statement": "Recording execution time for one identifier or command never blocks, unblocks or changes the accounting of any other identifier or command; an empty identifier or a zero threshold never blocks.", "quantifier": "every identifier pair and every call history", "why_tests_cant": "a leak between keys needs a particular history of two interleaved clients", "anchors": ["BedrockBlockingCommandQueue.cpp:_recordAndCheck", "BedrockBlockingCommandQueue.cpp:recordExecutionTime"]}
{"id": "C05", "title": "Lock-free ring buffer is a bounded FIFO under every interleaving", "statement": "With any number of concurrent producers and one consumer, the sequence of popped elements is a prefix of the sequence of accepted pushes in the order they claimed slots; nothing is lost, duplicated or torn, and at most the capacity is in flight; a push is refused only when the buffer is full at its check.", "quantifier": "every number of producers, every interleaving of the individual atomic steps, every capacity", "why_tests_cant": "thread interleavings are not enumerable by a test", "anchors": ["libstuff/SRingBuffer.h:push", "libstuff/SRingBuffer.h:pop", "libstuff/SRingBuffer.h:shutdown"]}
{"id": "C06", "title": "Synchronized queue is FIFO and never sleeps on work", "statement": "Items come out of the synchronized queue in the order they were pushed, exactly once, and whenever an item is queued the wake-up pipe is readable (or a pending wake-up is being delivered) so a poller cannot sleep forever on a non-empty queue.", "quantifier": "every interleaving of push/pop/postPoll/clear-pipe calls by any number of threads", "why_tests_cant": "missed wake-ups only appear under specific interleavings", "anchors": ["libstuff/SSynchronizedQueue.h"]}
{"id": "C07", "title": "Socket buffer behaves as a plain byte string", "statement": "After any sequence of appends, consumes, assignments and clears, the buffer's visible content (c_str/size) is exactly the concatenation of what was appended minus the prefix that was consumed; compaction is invisible.", "quantifier": "every operation sequence and every byte content", "why_tests_cant": "front-offset/compaction bugs need particular size relations between operations", "anchors": ["libstuff/SFastBuffer.cpp:append", "libstuff/SFastBuffer.cpp:consumeFront"]}
{"id": "C08", "title": "Incremental request detection agrees with a full scan", "statement": "startsWithHTTPRequest answers true exactly when the unconsumed bytes contain the end of a header block (an empty line), independent of how the bytes were chunked across appends and interleaved calls; a reader that polls after every chunk and one that polls once at the end agree.", "quantifier": "every byte stream and every way of splitting it into received chunks with calls in between", "why_tests_cant": "the number of chunkings is exponential in the message length", "anchors": ["libstuff/SFastBuffer.cpp:startsWithHTTPRequest"]}
{"id": "C09", "title": "Hex encoding round-trips", "statement": "Decoding the hex encoding of any byte string gives the string back; decoding the hex encoding of any 64-bit number gives the number back; both encodings have the documented length and alphabet.", "quantifier": "every byte string, every 64-bit value", "why_tests_cant": "2^64 values and unbounded strings", "anchors": ["libstuff/libstuff.cpp:SToHex", "libstuff/libstuff.cpp:SFromHex", "libstuff/libstuff.cpp:SStrFromHex"]}
{"id": "C10", "title": "URI component encoding round-trips and is URL-safe", "statement": "SDecodeURIComponent(SEncodeURIComponent(s)) == s for every byte string s, and the encoded form contains only unreserved characters and percent escapes.", "quantifier": "every byte string", "why_tests_cant": "unbounded byte strings", "anchors": ["libstuff/libstuff.cpp:SEncodeURIComponent", "libstuff/libstuff.cpp:SDecodeURIComponent", "libstuff/libstuff.cpp:_SDecodeURIChar"]}
{"id": "C11", "title": "SQL quoting admits no injection", "statement": "SQ(s), lexed as SQL, is exactly one string literal whose value is s, and whatever SQL follows it is lexed from after the closing quote; for strings with an embedded NUL the value is the prefix before it.", "quantifier": "every byte string and every surrounding SQL text", "why_tests_cant": "an injection needs one adversarial string among infinitely many", "anchors": ["libstuff/libstuff.cpp:SQ", "libstuff/libstuff.cpp:SEscape"]}
{"id": "C12", "title": "List compose/parse round-trip", "statement": "Parsing the composition of a list of non-empty, trimmed values without the separator gives the list back; parsing never yields leading/trailing blanks or values containing the separator.", "quantifier": "every list of strings and every separator", "why_tests_cant": "unbounded inputs", "anchors": ["libstuff/libstuff.cpp:SParseList", "libstuff/libstuff.h:SComposeList"]}
{"id": "C13", "title": "JSON composition parses back to the same data", "statement": "Parsing a composed JSON array (or an object with plain keys) yields the same values; string escaping and unescaping are inverse on every byte string the composer can emit.", "quantifier": "every list of strings / every table of strings", "why_tests_cant": "escaping bugs hide in particular byte sequences", "anchors": ["libstuff/libstuff.cpp:SToJSON", "libstuff/libstuff.cpp:SComposeJSONObject", "libstuff/libstuff.h:SComposeJSONArray", "libstuff/libstuff.cpp:SParseJSONObject", "libstuff/libstuff.cpp:SParseJSONArray"]}
{"id": "C14", "title": "Message serialization round-trips and frames exactly", "statement": "Deserializing a serialized message yields the same method line, headers and content and consumes exactly the bytes of that message, whatever bytes follow it, so a stream of messages is split at the right places.", "quantifier": "every message with legal header names, every content, every continuation of the stream", "why_tests_cant": "framing errors need a specific content/following-bytes combination", "anchors": ["libstuff/libstuff.cpp:SComposeHTTP", "libstuff/libstuff.cpp:SParseHTTP", "libstuff/SData.cpp"]}
{"id": "C15", "title": "A truncated message is never accepted", "statement": "No proper prefix of a serialized message is parsed as a complete message: the receiver keeps waiting, so replication and command data are never applied half-read.", "quantifier": "every message and every cut point", "why_tests_cant": "each message has as many cut points as bytes", "anchors": ["libstuff/libstuff.cpp:SParseHTTP", "sqlitecluster/SQLitePeer.cpp:popMessage"]}
{"id": "C16", "title": "Commit history is gap-free and hash-chained", "statement": "Across any number of database handles and threads, successful commits are numbered consecutively from the stored count, the journal holds exactly one row per number, and each row's hash is the digest of the previous row's hash and its own query text.", "quantifier": "every interleaving of begin/write/prepare/commit/rollback on any number of handles, with any mix of failures and conflicts", "why_tests_cant": "interleavings of several writers with failures are not enumerable", "anchors": ["sqlitecluster/SQLite.cpp:beginTransaction", "sqlitecluster/SQLite.cpp:prepare", "sqlitecluster/SQLite.cpp:commit", "sqlitecluster/SQLite.cpp:rollback", "sqlitecluster/SQLite.cpp:SharedData"]}
{"id": "C17", "title": "Failed or rolled-back transactions leave no trace", "statement": "A transaction that is rolled back, fails to prepare, conflicts, or is refused because commits are disabled leaves the committed data, the commit count, the committed hash and the journal unchanged, and releases the commit lock by the time it is rolled back.", "quantifier": "every interleaving of transactions on any number of handles and every failure point", "why_tests_cant": "requires every failure point in every interleaving", "anchors": ["sqlitecluster/SQLite.cpp:prepare", "sqlitecluster/SQLite.cpp:commit", "sqlitecluster/SQLite.cpp:rollback"]}
{"id": "C18", "title": "Nothing commits while commits are disabled", "statement": "Between a completed disabling of commits and the next enabling, no non-replication commit succeeds, and disabling does not return while a commit is in progress.", "quantifier": "every interleaving of commit and enable/disable calls", "why_tests_cant": "a race window that tests cannot pin down", "anchors": ["sqlitecluster/SQLite.cpp:SharedData::setCommitEnabled", "sqlitecluster/SQLite.cpp:commit"]}
{"id": "C19", "title": "Journal trimming keeps the recent history", "statement": "Trimming never removes any of the most recent maxJournalSize commits, so a peer that is less than that many commits behind can always be served from the journal.", "quantifier": "every commit history, every trim limit", "why_tests_cant": "an off-by-one surfaces only at specific counts", "anchors": ["sqlitecluster/SQLite.cpp:prepare", "sqlitecluster/SQLite.cpp:getCommits"]}
{"id": "C20", "title": "Database handle pool gives each handle to one holder", "statement": "A handle index obtained from the pool is held by nobody else until it is returned; at most the maximum number of handles exist, and a returned handle is available again.", "quantifier": "every interleaving of getIndex/returnToPool by any number of threads, every pool size", "why_tests_cant": "interleavings; also boundary pool sizes", "anchors": ["sqlitecluster/SQLitePool.cpp"]}
{"id": "C21", "title": "Conflict lock is exclusive per identifier and never dangles", "statement": "Two threads never hold the guard for the same non-zero identifier at once; a mutex in use or awaited is never destroyed by pruning; bookkeeping returns to at most the configured number of idle entries; identifier zero never blocks.", "quantifier": "every interleaving of guard construction/destruction over any identifiers", "why_tests_cant": "use-after-free needs pruning in a tiny window", "anchors": ["ConflictLockGuard.cpp"]}
{"id": "C22", "title": "Cache stays within its size limit and evicts least-recently-used first", "statement": "After every successful cache write the total recorded size is at most the configured maximum, the written entry is present with the written value, and entries removed to make room are the least recently touched ones.", "quantifier": "every sequence of cache reads/writes, every size", "why_tests_cant": "the accounting invariant ranges over all histories", "anchors": ["plugins/Cache.cpp"]}
{"id": "C23", "title": "A queued job is handed to one worker at a time", "statement": "Once a job without automatic retry is returned by GetJob(s), it is not returned again until its worker (or an operator) finishes, retries or requeues it.", "quantifier": "every history of job commands (refuted for repeated CancelJob on a child, see findings)", "why_tests_cant": "depends on long histories of interacting parent/child commands", "anchors": ["plugins/Jobs.cpp:BedrockJobsCommand::process"]}
{"id": "C24", "title": "Parent and child jobs: no grandchildren, parent resumes only when children are done", "statement": "No job ever has a grandparent; finishing a child re-queues its parent only when no sibling is queued, running or paused; finishing a parent that still has pending children pauses it and queues them.", "quantifier": "every history of job commands and every job tree they can build", "why_tests_cant": "the invariant is over all reachable job tables", "anchors": ["plugins/Jobs.cpp:BedrockJobsCommand::process", "plugins/Jobs.cpp:_hasPendingChildJobs"]}
{"id": "C25", "title": "Missed fixed-interval schedules resume in phase and in the future", "statement": "When a short fixed-interval SCHEDULED job missed its window, the next run time is strictly after now, at most one interval after now, and congruent to the original schedule modulo the interval; otherwise it is exactly the modified base time.", "quantifier": "every schedule, interval and current time", "why_tests_cant": "integer arithmetic over unbounded values", "anchors": ["plugins/Jobs.cpp:_constructNextRunDATETIME"]}
{"id": "C26", "title": "GetJobs returns due jobs in priority order", "statement": "GetJobs returns at most the requested number of jobs; each is queued, due and matches; no returned job has lower priority than an omitted eligible one, and within a priority the earliest due are taken.", "quantifier": "every job table and request", "why_tests_cant": "ranges over all tables", "anchors": ["plugins/Jobs.cpp:GetJobs query"]}
{"id": "C27", "title": "Commands waiting for a future commit are neither lost nor run early", "statement": "A command that names a commit count newer than the database waits; it is returned to the main queue as soon as that commit is reached, when its timeout passes, or at shutdown; each waiting command is returned exactly once.", "quantifier": "every history of arrivals, commits and clock values", "why_tests_cant": "index agreement over arbitrary histories", "anchors": ["BedrockServer.cpp:sync (future commit loop)", "BedrockServer.cpp:runCommand"]}
{"id": "C28", "title": "Command port is open only when no block reason is outstanding", "statement": "The public command port accepts connections only while there is no outstanding block reason and the node is leading or following and running; removing one of several reasons does not reopen it.", "quantifier": "every history of block/unblock/state changes", "why_tests_cant": "combinations of several independent blockers", "anchors": ["BedrockServer.cpp:blockCommandPort", "BedrockServer.cpp:unblockCommandPort", "BedrockServer.cpp:postPoll", "BedrockServer.cpp:_acceptSockets"]}
{"id": "C29", "title": "Crash-inducing commands are refused precisely", "statement": "A command is refused as crash-inducing exactly when its method line was reported with at least two distinct sets of identifying values, or it carries all identifying values of a reported crash; other commands are unaffected.", "quantifier": "every set of reports and every command", "why_tests_cant": "universal over commands", "anchors": ["BedrockServer.cpp:_wouldCrash", "BedrockServer.cpp:_generateCrashMessage"]}
{"id": "C30", "title": "Privileged control commands are refused from remote clients", "statement": "A control command other than the explicitly non-secure ones takes effect only if it carries no remote source mark; every request from a non-local address on the public port carries that mark regardless of what the client sent.", "quantifier": "every request and every source address", "why_tests_cant": "security property over all requests", "anchors": ["BedrockServer.cpp:_handleIfStatusOrControlCommand", "BedrockServer.cpp:buildCommandFromRequest"]}
{"id": "C31", "title": "A write command takes effect at most once and gets one reply", "statement": "Running a command commits its effects at most once across all retries, requeues and escalations and sends at most one reply.", "quantifier": "every schedule of conflicts, leadership changes, timeouts and escalation outcomes in which the node does not stop leading between its commit and the look at its state, does not send the command on while synchronizing, and does not send it both to the leader (at once) and to a peer of its own version; in each of these cases the claim is false and a witness is proved", "why_tests_cant": "needs a leadership change between two adjacent statements", "anchors": ["BedrockServer.cpp:runCommand", "sqlitecluster/SQLiteCore.cpp:commit"]}
{"id": "C32", "title": "Peek and process never leave a transaction open behind the caller's back", "statement": "After peek returns complete, and after process returns no-commit-needed, the handle is outside any transaction; an exception in plugin code always rolls back; nothing written in an aborted process is committed.", "quantifier": "every plugin behaviour (return values, exceptions, writes) at each phase", "why_tests_cant": "all exception points", "anchors": ["BedrockCore.cpp:peekCommand", "BedrockCore.cpp:processCommand"]}
{"id": "C33", "title": "Escalated commands are sent to the leader at most once", "statement": "If any escalation attempt fails after the request was fully sent, the command is completed with an error and never re-sent; it is retried only when the peer cannot have received the whole request.", "quantifier": "every sequence of network outcomes", "why_tests_cant": "partial-failure combinations", "anchors": ["sqlitecluster/SQLiteClusterMessenger.cpp:_sendCommandOnSocket", "sqlitecluster/SQLiteClusterMessenger.cpp:runOnPeer"]}
{"id": "C34", "title": "At most one leader without connection loss", "statement": "In a cluster where no voter cuts its connection to a node while that node is using its vote, and no node turns from full member to permafollower or back, at most one node is leading (or standing down from leading) at any moment, for any cluster size, connection history and message delays.", "quantifier": "every cluster size, every interleaving of node updates and message deliveries", "why_tests_cant": "distributed interleavings are unbounded", "anchors": ["sqlitecluster/SQLiteNode.cpp:update", "sqlitecluster/SQLiteNode.cpp:_onMESSAGE", "sqlitecluster/SQLiteNode.cpp:_sendStandupResponse"]}
{"id": "C35", "title": "Election quorum is a true majority", "statement": "A node only starts leading when its supporters together with itself form a strict majority of the full (non-permafollower) peers, so any two such groups share a member.", "quantifier": "every cluster size and every pair of supporter sets", "why_tests_cant": "arithmetical claim for every N", "anchors": ["sqlitecluster/SQLiteNode.cpp:update (STANDINGUP)"]}
{"id": "C36", "title": "Followers replicate a prefix of the leader's history", "statement": "At every moment a follower's commit history is a prefix of the leader's: same queries, same numbers, same hashes; a transaction whose number or hash does not match is rejected rather than committed.", "quantifier": "every history of leader commits, message delays, reconnects and crashes", "why_tests_cant": "unbounded histories with failures", "anchors": ["sqlitecluster/SQLiteNode.cpp:_sendOutstandingTransactions", "sqlitecluster/SQLiteNode.cpp:_replicate", "sqlitecluster/SQLiteNode.cpp:_handleBeginTransaction", "sqlitecluster/SQLiteNode.cpp:_handlePrepareTransaction", "sqlitecluster/SQLiteNode.cpp:_handleCommitTransaction"]}
{"id": "C37", "title": "Synchronization extends the local history only with matching commits", "statement": "Applying a synchronization response either extends the local history by exactly the sender's next commits, in order with matching hashes, or stops with an error having applied only a matching prefix; a forked peer is detected by hash.", "quantifier": "every pair of histories and every response, including malformed ones", "why_tests_cant": "all malformed responses", "anchors": ["sqlitecluster/SQLiteNode.cpp:_queueSynchronize", "sqlitecluster/SQLiteNode.cpp:_recvSynchronize"]}
{"id": "C38", "title": "Every committed transaction is sent to each subscriber exactly once and in order", "statement": "The stream of replicated transactions sent to a subscribed follower continues exactly where its subscription snapshot ended, with no gap, repeat or reordering.", "quantifier": "every interleaving of commits, sends and subscriptions", "why_tests_cant": "race between snapshot and stream", "anchors": ["sqlitecluster/SQLiteNode.cpp:_sendOutstandingTransactions", "sqlitecluster/SQLiteNode.cpp:_onMESSAGE (SUBSCRIBE)", "sqlitecluster/SQLite.cpp:popCommittedTransactions"]}
{"id": "C39", "title": "Command timeouts only shrink and expire", "statement": "A command's deadline is fixed from its creation plus its requested timeout and may only be moved earlier; remaining time never exceeds it and an expired command is answered 555, not run. A command that is sent on before its deadline has the same time left at the other node.", "quantifier": "every request header combination and clock value", "why_tests_cant": "arithmetic over all values", "anchors": ["BedrockCommand.cpp:_getTimeout", "BedrockCore.cpp:getRemainingTime", "BedrockCore.cpp:decreaseCommandTimeout", "BedrockCore.cpp:isTimedOut"]}
{"id": "C40", "title": "Node state changes follow the documented machine", "statement": "A node only moves between cluster states along the documented transitions; in particular it never goes from following or searching directly to leading unless it has no peers, and commits are enabled only outside SEARCHING after leaving leadership.", "quantifier": "every sequence of updates and messages", "why_tests_cant": "unbounded event sequences", "anchors": ["sqlitecluster/SQLiteNode.cpp:_changeState", "sqlitecluster/SQLiteNode.cpp:update"]}
{"id": "C41", "title": "Constant-time comparison is equality", "statement": "SConstantTimeEquals(secret, input) is true exactly when the two strings are equal, and the number of byte comparisons depends only on the length of the caller-supplied string.", "quantifier": "every pair of strings", "why_tests_cant": "unbounded strings", "anchors": ["libstuff/libstuff.cpp:SConstantTimeEquals"]}
{"id": "C42", "title": "Escape and unescape are inverse", "statement": "SUnescape(SEscape(s)) == s for every byte string and every escapable character set, for the escaper used in message headers.", "quantifier": "every byte string", "why_tests_cant": "unbounded strings", "anchors": ["libstuff/libstuff.cpp:SEscape", "libstuff/libstuff.cpp:SUnescape"]}
{"id": "C43", "title": "Hostile bytes do not break the message parser", "statement": "Whatever bytes arrive on a connection, looking for a message in them touches no memory outside the buffer and either waits for more, takes a message made of at least one and at most all of the bytes that are there, or ends the connection.", "quantifier": "every byte string", "why_tests_cant": "the inputs that matter are those nobody wrote a test for", "anchors": ["libstuff/libstuff.cpp:SParseHTTP", "libstuff/SData.cpp:deserialize", "sqlitecluster/SQLitePeer.cpp:popMessage", "BedrockServer.cpp:handleSocket"]}
{"id": "C44", "title": "Query results survive JSON", "statement": "A query result written as JSON and read back has the same headers, the same rows in the same order and the same cells, for every result whose rows have one cell per header.", "quantifier": "every result: any number of rows and columns and any cell text without NUL that is not a misspelt literal or broken JSON", "why_tests_cant": "unbounded cell text; the failures are values nobody thought of", "anchors": ["libstuff/SQResultFormatter.cpp:formatJSON", "libstuff/SQResult.cpp:serializeToJSON", "libstuff/SQResult.cpp:deserialize"]}
{"id": "C45", "title": "One answer per request, in order, on every connection", "statement": "A client that sends requests on one connection gets exactly one answer to each, in the order of the requests and whole however the bytes are divided on the way: the response of the command with the node's name, or at once a note that it is queued when nobody is to wait for it. The connection is closed exactly after the answer to a request that asks for it, that nobody waits for, or that is answered during shutdown; nothing follows. Commands without a client answer nobody.", "quantifier": "every list of requests on a connection, every life of the commands, every division of the bytes", "why_tests_cant": "unbounded conversations and all headers a client may send", "anchors": ["BedrockServer.cpp:_reply", "BedrockServer.cpp:buildCommandFromRequest", "BedrockServer.cpp:handleSocket", "libstuff/SData.cpp:serialize"]}
{"id": "C46", "title": "Outside requests: when a command waits, how long, and what it gets", "statement": "A command with requests to outside servers goes on exactly when each of them has a result; it stops waiting no later than its own deadline, and a request whose time is over gets a result that says so. The result of a request is the status the outside server sent, with the headers and the body it sent, however its bytes are divided and whether it says the length or closes the connection. A wait neither invents nor loses a result.", "quantifier": "every set of requests, every schedule of network events and clock values, every answer", "why_tests_cant": "schedules of the network and the clock; the failures are answers nobody wrote a test for", "anchors": ["BedrockCommand.cpp:areHttpsRequestsComplete", "BedrockCommand.cpp:waitForHTTPSRequests", "libstuff/SHTTPSManager.cpp:postPoll", "libstuff/SHTTPSManager.cpp:getHTTPResponseCode"]}
{"id": "C47", "title": "Results of outside requests arrive unchanged at the node a command is sent on to", "statement": "A command that has made requests to outside servers and is then sent on to another node is built there with the same requests in the same order: the same times, the same result codes and the same messages asked and answered; its own method line, headers and body are unchanged and it has no header left over from the transfer. Base64, which carries the messages, is RFC 4648 and gives every byte string back.", "quantifier": "every command, every list of outside requests with results, every message in them, every byte string", "why_tests_cant": "the transfer nests a message in base64 in JSON in a header of a message; the failures are byte values nobody tried", "anchors": ["BedrockCommand.cpp:serializeHTTPSRequests", "BedrockCommand.cpp:deserializeHTTPSRequests", "sqlitecluster/SQLiteClusterMessenger.cpp:_sendCommandOnSocket", "BedrockServer.cpp:buildCommandFromRequest", "libstuff/libstuff.cpp:SEncodeBase64", "libstuff/libstuff.cpp:SDecodeBase64"]}
{"id": "C48", "title": "A query runs with the values given, and does nothing when it is refused", "statement": "A Query request with bound values, sent over a connection, becomes a command that has exactly the values the client gave, under the names it gave them, and the query text of the method line or of the Query header without the white space around it. Running it commits nothing by itself: when the query is refused (too long, no semicolon, does not parse, UPDATE or DELETE without WHERE) or fails, nothing is changed and the handle is as before; when it is answered at once it had nothing to change; otherwise every statement went well, all their changes are in the transaction that is to be committed, and the journal is to have the query.", "quantifier": "every parameter name and value, every request and header table, every query text, every list of statements SQLite may find in it, every idle database handle", "why_tests_cant": "names and values pass three encodings; which texts are refused and what is left behind on the handle depends on text and statements nobody tried", "anchors": ["plugins/DB.cpp:BedrockDBCommand", "plugins/DB.cpp:peek", "plugins/DB.cpp:process", "libstuff/SQliteParameter.cpp:serialize", "libstuff/SQliteParameter.cpp:deserialize", "libstuff/SQliteParameter.cpp:uriEncodeParamName", "libstuff/SQliteParameter.cpp:uriDecodeParamName", "sqlitecluster/SQLite.cpp:getPreparedStatements"]}
{"id": "C49", "title": "A follower that carries out the journal row of a transaction has the leader's state", "statement": "When the writes of a transaction succeed on the leader, possibly after the database was busy, a follower that starts from the same state and carries out the statements kept for the journal, in order, ends in the state the leader is in; writes that change nothing are left out of the journal without harm.", "quantifier": "every database (states, statements, their effects and row counts), every list of writes, every sequence of busy and failing attempts, every value of the row counter", "why_tests_cant": "retries, failures in the middle of a write and the wrap of a 32-bit counter are schedules and ages no test reaches", "anchors": ["libstuff/libstuff.cpp:SQuery", "sqlitecluster/SQLite.cpp:_writeIdempotent", "sqlitecluster/SQLite.cpp:writeUnmodified", "sqlitecluster/SQLiteNode.cpp:_handlePrepare"]}
{"id": "C50", "title": "A follower finds in the journal text the leader's statements, with their values", "statement": "The text that the writes of a transaction leave in the journal, read again by a follower without any bound values, splits into exactly the leader's statements, in the same order, each with its placeholders replaced by a literal that stands for the value bound to it; no bound value can add, end, join or hide a statement.", "quantifier": "every list of writes, every query text, every set of bound values (any bytes in text without a zero byte, any bytes in blobs, every 64-bit integer)", "why_tests_cant": "quotes, comments and semicolons in values and queries combine in unboundedly many ways; a test only tries a few", "anchors": ["libstuff/libstuff.cpp:SQuery", "sqlitecluster/SQLite.cpp:_writeIdempotent", "sqlitecluster/SQLite.cpp:writeUnmodified", "libstuff/sqlite3.h:sqlite3_expanded_sql"]}
{"id": "C51", "title": "Compression of the journal does not change what nodes agree on", "statement": "Nodes may be set to compress their journal or not, each with a dictionary of its own choice among those all nodes know. Whatever commits the nodes make and copy from each other, in any order, no node stops on account of compression; each node returns, for each commit, the same text and the same chained hash as if nothing were compressed; a node that is behind another takes over its next commit with its text and hash, and one whose history differs refuses it. The SQL function decompress() gives back, as text, what compress() was given, and compress() yields the same bytes as the journal.", "quantifier": "all clusters, all settings of the dictionary per node, all sets of dictionaries that carry the number they are listed under, all sequences of commits and copies between nodes, all texts, all values given to the SQL functions, all compressors with the documented behaviour of zstd", "why_tests_cant": "Tests compress a few texts with one dictionary on nodes set alike; the claim is about every mix of settings and every history of commits passed on between nodes.", "anchors": ["plugins/Compression.cpp: compress, decompress, sqliteCompress, sqliteDecompress, loadDictionariesFromDB", "sqlitecluster/SQLite.cpp: prepare, getCommit, getCompressedCommits", "sqlitecluster/SQLiteNode.cpp: _recvSynchronize, handleBeginTransaction, _sendOutstandingTransactions"]}
{"id": "C52", "title": "Reads return what the database holds for their transaction, whatever was read before", "statement": "Every read and write on a database handle returns what it would return if the handle kept no results: the rows the query gives, with the settings in force, on the one view the transaction has of the database, which is taken when it is first used, changes with the transaction's own writes only and is gone when it ends. A write that a rewrite handler claims does what the text of the handler would have done.", "quantifier": "every sequence of begin, read, write, commit, rollback and authorizer changes on a handle, every interleaving with commits of others, every query, database and environment (time, random numbers), queries that end in time, late or are cut short", "why_tests_cant": "whether a kept result is stale depends on the whole history of the handle and on what others commit meanwhile; tests try a few short sequences", "anchors": ["sqlitecluster/SQLite.cpp:read", "sqlitecluster/SQLite.cpp:_writeIdempotent", "sqlitecluster/SQLite.cpp:beginTransaction", "sqlitecluster/SQLite.cpp:rollback", "sqlitecluster/SQLite.cpp:_authorize", "sqlitecluster/SQLite.cpp:setAuthorizer", "sqlitecluster/SQLite.cpp:_checkInterruptErrors"]}
{"id": "C53", "title": "A whitelist hides every other column and prevents every change", "statement": "Through a handle that has a whitelist of tables and columns, whatever is asked in whatever order, inside and outside of transactions: what comes back is the same for any two databases that have the same schema, the same numbers of rows and the same values in the listed columns; and nothing in the database is changed.", "quantifier": "every whitelist, every authorizer, every pair of databases alike through the whitelist, every sequence of reads, writes, begins and rollbacks, every query", "why_tests_cant": "that nothing leaks is a statement about pairs of databases and all queries, including conditions, joins and kept results; a test can only look for leaks it thinks of", "anchors": ["sqlitecluster/SQLite.cpp:_authorize", "sqlitecluster/SQLite.h:whitelist", "sqlitecluster/SQLite.cpp:read"]}
{"id": "C54", "title": "A query result in SQLite's JSON is read back as it was", "statement": "A query whose result is asked for in SQLite's own JSON style gives a text from which the result is read back whole: the same column names, also when two are alike, the same rows in the same order, and in each cell the text of its value, whatever quotation marks, control characters, newlines or multi-byte characters the values hold.", "quantifier": "every number of rows and columns, every column name and every value: NULL, integer, finite real, text without NUL, ASCII blob", "why_tests_cant": "two independent programs, a C formatter that escapes and a C++ parser that reads back, must agree on all byte strings and all shapes of results", "anchors": ["libstuff/qrf.c:qrfOneJsonRow", "libstuff/qrf.c:qrfEncodeText", "libstuff/qrf.c:qrfRenderValue", "plugins/DB.cpp:BedrockDBCommand::peek", "libstuff/SQResult.cpp:deserialize"]}
{"id": "C55", "title": "A client of the MySQL port reads what the database said", "statement": "A MySQL client that sends queries one at a time to the MySQL port gets exactly one reply for each, in order, however its bytes are cut up on the way. Each ordinary query is run by the database once and in order, and the reply the client reads is the table of the result, an OK, or the error's code and text, unchanged. Table names taken from catalogue queries reach the database only as literals.", "quantifier": "every list of queries, every way to cut them into packets on the network, every database behaviour, every table, column name, cell and error text within the sizes of the protocol, every table name", "why_tests_cant": "a hand-written wire format with length prefixes and packet numbers must be read back by a client for all contents and all fragmentations, and the text substitution must be safe for all names", "anchors": ["plugins/MySQL.cpp:MySQLPacket", "plugins/MySQL.cpp:BedrockPlugin_MySQL::onPortRecv", "plugins/MySQL.cpp:BedrockPlugin_MySQL::onPortRequestComplete", "BedrockServer.cpp:handleSocket"]}
{"id": "C56", "title": "The text forms of a query result can be read back and its columns are aligned", "statement": "A query result written as CSV is read by any reader of comma separated values as exactly the same names and cells, whatever bytes they hold. Written in quote style every cell is an SQL literal with the text of the cell, and a number exactly when the text is one. Tabs and list style give back all cells that do not hold the separator or a line feed. In column style every column is as wide as the widest text in it, every text starts at the place of its column on every line, and cells of several lines go on below themselves.", "quantifier": "every table with at least one column, every byte in its cells (column style: every Unicode text), with or without the names", "why_tests_cant": "quoting, padding and alignment must be right for all contents, also for separators, quotes, line breaks, tabs, wide and combining characters", "anchors": ["libstuff/SQResultFormatter.cpp:SQResultFormatter::formatCSV", "libstuff/SQResultFormatter.cpp:SQResultFormatter::formatQuote", "libstuff/SQResultFormatter.cpp:SQResultFormatter::formatTabs", "libstuff/SQResultFormatter.cpp:SQResultFormatter::formatList", "libstuff/SQResultFormatter.cpp:SQResultFormatter::formatColumn", "libstuff/SQResult.cpp:serializeToText"]}
{"id": "C57", "title": "Messages between nodes arrive whole, in order and once, and are handled before the connection counts as gone", "statement": "Whatever happens on a connection between two nodes (partial writes and reads, refused calls, hang-ups, time-outs, messages sent while connecting or while handling others, dropping), the messages one node has handled are the first ones the other has sent: whole, in order, each once and nothing else. What was sent waits until it is taken, and is taken when the operating system takes bytes. A message that has come in is handled in the next poll unless a hundred others are, and every message that came in is handled before the node treats its peer as disconnected. A connection from outside becomes a peer's only by a LOGIN with the name of a peer without a connection.", "quantifier": "every sequence of sends, drops and polls at both ends, every answer of the operating system, every way the bytes are divided, every sequence of legal messages", "why_tests_cant": "the order of events at two ends, the sizes of partial writes and reads and the moment of a failure cannot be enumerated", "anchors": ["libstuff/STCPManager.cpp:STCPManager::postPoll", "libstuff/STCPManager.cpp:STCPManager::Socket::send", "libstuff/STCPManager.cpp:STCPManager::Socket::recv", "libstuff/STCPManager.cpp:STCPManager::Socket::shutdown", "libstuff/libstuff.cpp:S_sendconsume", "libstuff/libstuff.cpp:S_recvappend", "sqlitecluster/SQLitePeer.cpp:SQLitePeer::postPoll", "sqlitecluster/SQLitePeer.cpp:SQLitePeer::popMessage", "sqlitecluster/SQLitePeer.cpp:SQLitePeer::sendMessage", "sqlitecluster/SQLiteNode.cpp:SQLiteNode::postPoll", "sqlitecluster/SQLiteNode.cpp:SQLiteNode::_processPeerMessages"]}
{"id": "C58", "title": "Connections to other nodes are reused by one command at a time, and no command gets another's answer", "statement": "Whatever commands are sent to other nodes at the same time, over connections that are opened, kept, tested, reused, closed by either side or thrown away after a while: each connection is with one command, or kept for one host, or closed for good; a command is only sent on a connection to the host of its address; and every command that gets an answer gets the one that was sent for it. A kept connection is handed out again only when nothing is waiting on it and it is not closed. Connections that nobody uses are closed when ten seconds have passed, and not before.", "quantifier": "every interleaving of any number of commands, of the bytes that arrive and hang-ups, of notifications, spurious wake-ups and runs of the thread of each pool, any passing of time; every sequence of legal answers in any pieces", "why_tests_cant": "the interleavings of commands, network events and the threads of the pools cannot be enumerated, and an answer that goes to another command shows only in some of them", "anchors": ["libstuff/SSocketPool.cpp:SSocketPool::getSocket", "libstuff/SSocketPool.cpp:SSocketPool::returnSocket", "libstuff/SSocketPool.cpp:SSocketPool::_timeoutThreadFunc", "libstuff/SMultiHostSocketPool.cpp:SMultiHostSocketPool::getSocket", "libstuff/SMultiHostSocketPool.cpp:SMultiHostSocketPool::returnSocket", "sqlitecluster/SQLiteClusterMessenger.cpp:SQLiteClusterMessenger::runOnPeer", "sqlitecluster/SQLiteClusterMessenger.cpp:SQLiteClusterMessenger::commandWillCloseSocket"]}
{"id": "C59", "title": "A request through a proxy leaves only encrypted, and only for the host it was meant for", "statement": "When an HTTPS request is made through a proxy, the only bytes that leave unencrypted are those of the CONNECT message naming the host of the request; the request itself is given to TLS only, whole and in order, TLS is started only after the proxy has agreed and for the host that was asked for, and the answer consists only of what came through TLS. When the proxy agrees, in any pieces, TLS is started.", "quantifier": "every host, every request, every way the operating system cuts what is sent and received, every order of polls, every answer of the proxy", "why_tests_cant": "where the network cuts the CONNECT message and the proxy's answer, and what the proxy says, is decided outside the program; a test fixes one cut and one proxy", "anchors": ["libstuff/SHTTPSProxySocket.cpp: SHTTPSProxySocket::send, SHTTPSProxySocket::recv", "libstuff/STCPManager.cpp: STCPManager::prePoll", "libstuff/SSSLState.cpp: SSSLState::sendConsume, SSSLState::recvAppend", "libstuff/SHTTPSManager.cpp: SStandaloneHTTPSManager::_httpsSend, SStandaloneHTTPSManager::postPoll"]}
{"id": "C60", "title": "Logs hide what is not listed, miss nothing else, and name the request they belong to", "statement": "The value of a parameter whose name is not on the list of loggable names has no influence on what is logged, in syslog or Fluentd; on a live server everything else of a log call is logged, in lines of bounded length; each line carries the request the thread is working on at that moment, also when requests are nested; names that were put on the list stay there, however many threads extend it at once; and every record for Fluentd is sent there whole and in order, or given whole to syslog.", "quantifier": "every message, every set of parameters, every nesting of requests, every interleaving of threads that extend the list, every way the network takes or refuses bytes", "why_tests_cant": "that a secret never appears in a log is a statement about all values; the lost update of the list and the half sent record need one particular interleaving or failure", "anchors": ["libstuff/SLog.cpp: addLogParams, SWhitelistLogParams, SIsLogParamWhitelisted", "libstuff/libstuff.h: SSYSLOG, SWHEREAMI", "libstuff/libstuff.cpp: SSyslogSocketDirect, SFluentdLog, SAutoThreadPrefix", "libstuff/SFluentdLogger.cpp: SFluentdLogger::sendAll, SFluentdLogger::senderLoop"]}
{"id": "C61", "title": "DEBURR makes texts that differ in accents only equal, and keeps everything else", "statement": "DEBURR replaces every accented letter of the Latin-1 Supplement and Latin Extended-A by the letter without its accent and removes combining marks, keeping every other character and the order; hence texts that differ in accents or combining marks only give the same, ASCII text is unchanged, applying it again changes nothing, and the result is UTF-8 again; for bytes that are not UTF-8 it reads nothing beyond the text, ends, and gives no more bytes than it got; NULL gives NULL.", "quantifier": "every text, as a list of code points; every byte string for the part about safety", "why_tests_cant": "tests try some words; a decoder must be right for every character and every malformed ending", "anchors": ["libstuff/SDeburr.cpp: SDeburr::deburr, SDeburr::unicodeToAscii, SDeburr::registerSQLite", "libstuff/SDeburr.h: UNICODE_TO_ASCII_MAP"]}
{"id": "C62", "title": "A server that is stopped or detached finishes its commands first, and one that is told to stop can do so", "statement": "When the server says that its commands are finished no client is waiting for one, its command ports are closed, and it gives up its database only when there is no command left that nobody waits for; a server that nobody detaches and that gets SIGTERM or SIGINT can stop from whatever state it is in, without help from clients; and a backup is made of a database that is closed.", "quantifier": "every schedule of the main thread, the sync thread and the threads of any number of connections, every sequence of requests, control commands and signals, at every point", "why_tests_cant": "shutting down is a protocol between threads that share a few flags without a common lock; what goes wrong depends on which step of which thread comes first", "anchors": ["main.cpp: main (loop around BedrockServer), BackupDB", "BedrockServer.cpp: syncWrapper, sync, _resetServer, postPoll, shutdownComplete, isDetached, _control, _beginShutdown, _acceptSockets, handleSocket, buildCommandFromRequest", "libstuff/SSignal.cpp: SGetSignal, SGetSignals, SClearSignals, STerminationSignalCount"]}
{"id": "C63", "title": "Checking the schema makes what is missing, changes nothing that is there, and says whether it is right", "statement": "Checking a table or an index that is not there makes it as asked; checking one that is there changes nothing and answers yes exactly if its text is the one asked for but for white space (tables) or spaces and the case of letters (indexes); performing a plugin's checks again changes nothing and finds right what was found right; a column is added once.", "quantifier": "every catalogue, every name and definition, every list of checks, whatever else was made in between", "why_tests_cant": "the checks compare texts that SQLite has rewritten; whether two of them meet depends on every byte of the definition and on all that is in the catalogue", "anchors": ["sqlitecluster/SQLite.cpp: verifyTable, verifyIndex, addColumn", "libstuff/libstuff.cpp: SCollapse, SStrip, SReplace, SContains, SEndsWith, SIEquals", "plugins/Jobs.cpp: upgradeDatabase"]}
{"id": "C64", "title": "A leader upgrades its database before anything else writes", "statement": "On a leader no command writes before an upgrade of the database has been done, unless the node became the leader between the command's look at its state and its writing; there is one upgrade at a time, one that failed is repeated, and once the server knows of a successful one it begins at most one more; a leader can always get to the point where the upgrade is done.", "quantifier": "every schedule of the sync thread and any number of commands, every change of the node's state at any time, every failure of an upgrade", "why_tests_cant": "the sync thread, the workers and the destructor of the upgrade command share flags without a common lock; a test sees one order of their steps", "anchors": ["BedrockServer.cpp: sync (upgradeCommandFinished, upgradeCommandRunning), runCommand, dbReadyToHandleRequests, BedrockServerUpgradeCommand", "BedrockCommand.cpp: ~BedrockCommand"]}
{"id": "C65", "title": "Times written as texts keep their order and can be read back", "statement": "Up to the year 9999, timestamps written by the server compare as texts in the order of the times, to the second or to the millisecond, and a job due at a second is due from that second's first millisecond on; reading a timestamp gives back its second when local time is UTC; the number of days of a month and the first day of a month some months away are those of the calendar from 1900 on; the dates a request may have are exactly those with a year from 1900 to 2999, a month from 1 to 12, a day from 1 to 31 and maybe a clock of six digits.", "quantifier": "every time, every pair of times, every year, month and offset, every text", "why_tests_cant": "the order of texts must hold for all pairs of times across every month, year and leap year; tests compare a few", "anchors": ["libstuff/STime.cpp: SComposeTime, STimestampToEpoch, SDaysInMonth, STIMESTAMP_MS, SFirstOfMonth", "libstuff/libstuff.cpp: SUNQUOTED_TIMESTAMP", "BedrockPlugin.cpp: isValidDate", "plugins/Jobs.cpp: peekCommand (GetJob, nextRun)"]}
{"id": "C66", "title": "Forked nodes find out when they connect, and a node forked from half of the cluster stops", "statement": "A node calls a peer forked only if neither history is the beginning of the other; two nodes with diverged histories that connect both know it when they have got each other's messages; a node lives on exactly as long as it has not found itself forked from half of the full nodes or more, so any two living nodes have a full node that neither is forked from; a node synchronizes from a logged in, unforked peer that has more commits, the leader only if no other, and otherwise the one with the lowest latency.", "quantifier": "every number of nodes and permafollowers, every set of histories, every order of commits, connections, LOGINs and messages, every list of peers", "why_tests_cant": "detection depends on which of two LOGINs arrives first, on commits between them and on reconnections; tests run one order", "anchors": ["sqlitecluster/SQLiteNode.cpp: _onMESSAGE (LOGIN, FORKED), _addPeerHeaders, _dieIfForkedFromCluster, _updateSyncPeer", "sqlitecluster/SQLite.cpp: getCommit, getCommitCount, getCommittedHash, SharedData::incrementCommit"]}
{"id": "C67", "title": "What is encrypted can be decrypted, authentication codes are those of RFC 2104, and base 32 is read back", "statement": "A text without NUL bytes is decrypted to what was encrypted, whatever its length, and different texts are encrypted differently; without stripping every text is, with fewer than 16 NULs behind it; the encrypted text takes whole blocks, less than one more than the text; a message can be decrypted in pieces of whole blocks; what is not whole blocks is decrypted to nothing; with a key of at most 64 bytes the authentication code is HMAC with the hash function; base 32 texts of whole groups of five bytes are read back as those bytes, and only texts of its alphabet are accepted.", "quantifier": "every text, every initialization vector of 16 bytes, every key, every block cipher that can be undone, every hash function", "why_tests_cant": "lengths around the block size and bytes that look like padding are what breaks; tests encrypt one text", "anchors": ["libstuff/libstuff.cpp: SAESEncrypt, SAESDecrypt, SAESDecryptNoStrip, SHMACSHA1, SHMACSHA256, SBase32HexStringFromBase32, SHexStringFromBase32"]}
{"id": "C68", "title": "Options mean what the command line says, files are read back as saved, and a backup is a copy of the database", "statement": "An option has the value behind its last occurrence, nothing if none stands there, and its default if it does not occur; what is saved to a file is read back, a failed save leaves no file, and a copy is never more than a beginning of its source and touches no other file; a backup copies the database with its -wal and -shm as they are and touches nothing else; a clean start removes the files of the database and nothing else; a plugin has the name of its file, those asked for are enabled once each, and the server can start if each is built in or found.", "quantifier": "every command line, every content, every path, every size of buffers, every set of files, every fault while reading or writing, every list of plugins", "why_tests_cant": "read errors, full disks and odd command lines do not happen in tests", "anchors": ["libstuff/libstuff.cpp: SParseCommandLine, SFileLoad, SFileSave, SFileCopy, SFileExists, SFileDelete", "main.cpp: BackupDB, loadPlugins, main (-clean)", "BedrockServer.cpp: BedrockServer::BedrockServer"]}
{"id": "C69", "title": "What must not be seen is not in the log", "statement": "What is logged of a query or an error does not depend on an authentication token or on anything behind it in its line, nor on the text of a chat up to its closing quote, nor on edits up to their closing bracket; no encrypted value is ever in it; and a text with nothing to hide is logged as it is.", "quantifier": "every text, whatever stands before, within and behind what is hidden", "why_tests_cant": "what leaks leaks for particular texts only, and no test reads the log for what is not there", "anchors": ["libstuff/libstuff.cpp: SRedactSensitiveValues, SREReplace, SQuery", "sqlitecluster/SQLite.cpp: SQLite::_sqliteLogCallback"]}
{"id": "C70", "title": "Addresses, URLs, forms and lists of peers are read as they were written, and searching finds what is there", "statement": "A host and its port, the host and path of a URL, a form, a list of integers and a list of peers are read as they were written; a request goes to the host and port its URL names, or to port 443, and is encrypted just if the URL says https; the parts before and after a text are those around its first occurrence; replacing replaces every occurrence from the left and nothing else; trimming takes off white space at both ends and nothing else; the search for all matches of a pattern that never matches nothing ends with all of them; and a date modifier that is let through is one of those listed and cannot end the text it is put into.", "quantifier": "every text, name, port, URL, table of values, list of peers, pattern and modifier", "why_tests_cant": "the texts come from configuration and from users; a test tries a few of them", "anchors": ["libstuff/libstuff.cpp: SBefore, SAfter, SAfterUpTo, SAfterLastOf, SReplace, SReplaceAll, SReplaceAllBut, STrim, SParseIntegerList, SParseHost, SComposeHost, SGetDomain, SParseURI, SComposePOST, SIsValidSQLiteDateModifier, SREMatchAll", "libstuff/SHTTPSManager.cpp: SStandaloneHTTPSManager::_httpsSend", "sqlitecluster/SQLiteNode.cpp: SQLiteNode::_initPeers, SQLiteNode::getPeerByName"]}
{"id": "C71", "title": "The times and counts that are reported are right", "statement": "Each time in a reply and in the log line of a command is the time it spent so; the parts add up to the total, and what is not accounted for is what was spent otherwise; a reply that comes from another node keeps that node's times under names that begin with upstream, the time of zero being left out, and no other header is touched; the report of commits counts for each command its commits and for each table those that used it; a performance timer neither loses time nor counts it twice; and a random text has the length that was asked for and only letters and digits in it.", "quantifier": "every sequence of things a command goes through and their durations, every reply of another node, every sequence of commits and of measurements, and every sequence of random numbers", "why_tests_cant": "the sums are over whatever a command goes through in any order; a test looks at a few commands and cannot know how long each part really took", "anchors": ["BedrockCommand.cpp: BedrockCommand::startTiming, BedrockCommand::stopTiming, BedrockCommand::finalizeTimingInfo", "BedrockCore.h: BedrockCore::AutoTimer", "sqlitecluster/SQLiteClusterMessenger.cpp: SQLiteClusterMessenger::runOnPeer", "BedrockConflictManager.cpp: BedrockConflictManager::recordTables", "libstuff/SPerformanceTimer.cpp: SPerformanceTimer::start, SPerformanceTimer::stop", "libstuff/SRandom.cpp: SRandom::randStr"]}
{"id": "C72", "title": "Workers are told about jobs as they are, jobs whose answer cannot be sent go back into the queue, and blacklisted jobs are handed out nowhere", "statement": "The answers to GetJob and GetJobs are JSON with the ID, name, data, times, schedule and priority of each job, with its parent and the parent's data if it has one, and with the children that are done, finished and cancelled ones apart. If such an answer cannot be sent, every job in it is QUEUED again with the name, data, schedule, priority and parent it had and without one more try counted, and no other job is touched; nothing is done for other commands. CrashBedrockJob blacklists its patterns on the node that gets it and on every peer it reaches, ClearCrashedBedrockJobs empties the list there, no peer passes either on, both are refused unless they come through the private port, and nodes that connect end up with the patterns of both. A node never hands out a job whose name matches one of its patterns; it fails it instead.", "quantifier": "all jobs with texts that JSON keeps as they are, all tables with distinct IDs below 2^63, all requests, all lists of patterns and clusters, all sets of peers reached", "why_tests_cant": "Tests lose a handful of answers and blacklist a name or two on one cluster; the claim is about every table, every batch of jobs and every set of nodes.", "anchors": ["plugins/Jobs.cpp: GetJobs, RequeueJobs, handleFailedReply, CrashBedrockJob, ClearCrashedBedrockJobs, onNodeLogin", "BedrockServer.cpp: _reply", "libstuff/SData.cpp: getVerb", "sqlitecluster/SQLiteClusterMessenger.cpp: runOnAll"]}
{"id": "C73", "title": "Requests with missing or malformed attributes are refused, others are not, and numbers are read as they were written", "statement": "An attribute that has to be an integer is accepted exactly if it is the text of a 64 bit integer with the length required; one with a size exactly if its length is within the bounds; a yes or no exactly if it is true or false in any letters; a date exactly if it is YYYY-MM-DD with or without HH:MM:SS, and an attribute that is not required may be missing. Otherwise the request is answered 402 Missing or 402 Malformed with the name of the attribute. What was accepted as an integer is read as that integer, capped at 2147483647 when 32 bits are wanted. The commands of the jobs and cache plugins go on exactly if what they document as required is there and valid.", "quantifier": "all requests, that is all tables of names and values, all names, bounds and contents", "why_tests_cant": "A test sends a few bad values; that nothing malformed gets through, and nothing good is refused, is a statement about all texts.", "anchors": ["BedrockPlugin.cpp: verifyAttributeInt64, verifyAttributeSize, verifyAttributeBool, verifyAttributeDate, isValidDate", "libstuff/SData.cpp: calc, calc64, calcU64, test, isSet", "plugins/Jobs.cpp: peek, process, _validatePriority", "plugins/Cache.cpp: peek, process"]}
{"id": "C74", "title": "The options for the output of a query are split and read as in a shell, and the caret shown for an error is where the error is", "statement": "The text of the options is split into the words that were written, with quotes and backslashes as in a shell. Of each kind of option - style, titles, text for NULL, separator - the last one given counts, with one dash or two; unknown words and an option without its value change nothing. SQLiteArgs goes before ReadDBFlags, MYSQLFlags and SuppressResult before both. A query with an error is answered with the message, a piece of the query of at most 78 bytes that has the place of the error in it, and a caret in the column of that place.", "quantifier": "all lists of words and all ways to write them, all lists of options, all requests, all queries, messages and places of errors", "why_tests_cant": "Quoting and windows around an offset have many boundary cases; a test tries a few texts, the claim is about every text and every offset.", "anchors": ["plugins/DB.cpp: parseSQLite3Args, generateErrorContextMessage, BedrockDBCommand::peek", "sqlitecluster/SQLite.cpp: getPreparedStatements"]}
{"id": "C75", "title": "The place of a conflict is found in the log, and the next try waits for the others that conflicted there", "statement": "When a commit fails because of a conflict, the page, or the row, and the table or index it is in are taken from what SQLite logs. The next try of the command takes the lock of that place, so commands that conflict on the same page or row run one after the other. Conflicts on journals, those a plugin does not want, and commits without a conflict do not change the lock to one of these places, and there is none if the locks are switched off.", "quantifier": "all pages, tables, indexes, keys and further contents of the messages, all histories of failed tries, all hash functions and plugins", "why_tests_cant": "Which text a greedy pattern finds depends on everything else in the message, and which lock is taken on all tries before; tests have a few samples.", "anchors": ["sqlitecluster/SQLite.cpp: _sqliteLogCallback, commit, getLastConflictIdentifier, getLastConflictLocation", "BedrockServer.cpp: runCommand", "BedrockPlugin.cpp: shouldLockCommitPageOnConflict", "libstuff/libstuff.cpp: SREReplace"]}
{"id": "C76", "title": "A row gives the value of the column with that name, wherever the result came from", "statement": "A row of a query result gives, for the name of a column, the value that the query returned in the first column of that name, and throws if there is none or if the row or column number is too large. This holds after a result was used again, cleared, shortened, or assigned to another one, also when it was kept in a cache and the first result no longer exists. Values other than floating point numbers are equal exactly if they have the same type and content, and a value is empty exactly if its text is.", "quantifier": "all sequences of creating, filling, copying, assigning, clearing, resizing and destroying any number of results, all names, values, rows and columns", "why_tests_cant": "Rows point to the result that holds the names of the columns; whether that is the right one, or exists at all, depends on the history of all results, and a test of one result sees only one history.", "anchors": ["libstuff/SQResult.h: SQResult, SQResultRow", "libstuff/SQResult.cpp: operator[], operator=, resize, clear", "libstuff/SQValue.cpp: operator string, operator==, empty, size", "libstuff/libstuff.cpp: SQuery", "sqlitecluster/SQLite.cpp: read"]}
{"id": "C77", "title": "The report about the pages of the database in memory counts every page once, and loading reads pages of the file only", "statement": "The check of the memory of the database reports exactly the number of pages of the file that are in memory, however many threads share the pages and in whatever order they finish. Loading reads the pages that are not in memory, each once and none outside of the file, and afterwards all pages, or all but the last, are reported. A file that cannot be read is skipped and nothing of it stays open.", "quantifier": "all file sizes, page sizes, numbers of threads (at least one), orders of the threads, sets of pages in memory and answers of the operating system", "why_tests_cant": "How the pages divide depends on the size of the file and on the number of processors; a test has one of each.", "anchors": ["VMTouch.cpp: check, bytes2pages", "main.cpp: main"]}
{"id": "C78", "title": "A process that opens the database finds all commits, whatever happened before", "statement": "Whatever processes ran on a database before, each with any number of journals, any of them killed at any point of starting, with commits in any of the journals, old rows removed and tables made by the application: a process that starts knows the number of all commits and the hash of the last, and finds each commit that is kept and nothing else. It has at least the journals it asked for and all that were there, the view of the journals shows them all, and starting again changes nothing.", "quantifier": "all histories of starts (with -1 to 9999 journals and any kill point), commits, removals of rows and changes of the schema by the application", "why_tests_cant": "What is found depends on the journals that earlier processes made and used and on where they were killed; a test starts from one database.", "anchors": ["sqlitecluster/SQLite.cpp: initializeJournal, initializeSharedData, getCommit, _getJournalQuery", "libstuff/libstuff.cpp: SQVerifyTable, SQVerifyTableExists"]}
{"id": "C79", "title": "Commands and requests get their own IDs, one plugin gets each request, and followers are chosen rightly", "statement": "A command carries the ID of its request, or, if there is none, one made of the name of the node and a number; also when making it failed, and also where it is sent on to. While no node starts again, no two IDs that nodes of different names make are the same, in whatever order requests come. A request without a request ID gets one of six letters or digits, and nothing else of it changes. The first plugin that does not decline a request decides what becomes of it; of the plugins here at most one takes any request, so their order makes no difference. A command for another follower is sent to a follower with the version of the leader, each of them can be chosen, and the address is empty only if there is none. A state is found again from its name.", "quantifier": "all requests, plugins, random numbers, names of nodes, interleavings of requests on the nodes and peers", "why_tests_cant": "That IDs never meet must hold for every interleaving of requests on all nodes and for every name; that the order of plugins makes no difference must hold for every method line.", "anchors": ["BedrockServer.cpp: getCommandFromPlugins, generateCommandID, _resetServer", "sqlitecluster/SQLiteCommand.cpp: preprocessRequest", "sqlitecluster/SQLiteNode.cpp: getEligibleFollowerForForwardingAddress, getLeaderVersion, getPeerByName, stateName, stateFromName", "libstuff/SRandom.cpp: randStr", "plugins/DB.cpp, plugins/Jobs.cpp, plugins/Cache.cpp: getCommand"]}
{"id": "C80", "title": "BlockWrites stops all changes to the database until UnblockWrites", "statement": "From the answer 200 Blocked on no thread changes the database until an UnblockWrites has been given. 200 Blocked and 200 Unblocked alternate, 400 Already Blocked is said only while the last of them was 200 Blocked, 200 Not Blocked only while it was not, and each is said only to the command it belongs to. After 200 Unblocked, and before the first BlockWrites, every thread can write whatever the others do, and a thread that is writing can go on until it ends its transaction. As long as the node has its database, each of the two commands can always still be answered.", "quantifier": "all interleavings of any number of control commands, writing threads and the thread that holds the locks, and all moments", "why_tests_cant": "A write that slips through, or a lock that is never given back, shows only in particular interleavings of the control threads, the writing threads and the thread that takes the locks.", "anchors": ["BedrockServer.cpp: _control (BlockWrites, UnblockWrites)", "BedrockServer.h: __quiesceLock, __quiesceShouldUnlock, __quiesceThread", "sqlitecluster/SQLite.cpp: exclusiveLockDB, exclusiveUnlockDB"]}
{"id": "C81", "title": "Control commands that change settings change just what they name and tell the truth about it", "statement": "SetConflictParams, SetConflictPageLocks, SetBlockingQueueTimeRateLimit, SetMaxSocketThreads and EnableSQLTracing set what the request names to the value it names, tell the old value where they tell one, and leave every other setting alone; the next command tells back what was set. A number of 0 socket threads, or none, is refused, and the number never becomes 0 whatever is asked. SetPriority is accepted exactly if the priority is neither negative nor 1, no peer that is logged in has it, and a node that becomes a permafollower leaves enough full nodes; then the node has it, else nothing changes. GetCommitHash gives the hash of exactly the commit asked for.", "quantifier": "all requests, settings, numbers that fit, clusters of any size and journals", "why_tests_cant": "Numbers are converted several times on their way, and the settings share one long function: that no value and no mix of fields touches another setting must hold for all of them.", "anchors": ["BedrockServer.cpp: _control", "BedrockBlockingCommandQueue.cpp: setWindow, setIdentifierThreshold, setCommandThreshold, setBlockDuration, clearRateLimits", "sqlitecluster/SQLiteNode.cpp: setPriority", "libstuff/SData.cpp: calc64, calcU64, test"]}
{"id": "C82", "title": "Health checks send clients only to nodes that handle commands", "statement": "While nothing changes, isFollower is answered with a 200 exactly if the node follows, and handlingCommands exactly if it makes no backup, is not told to detach, has the version of its leader as far as that is known, and follows, leads or stands down; the answer tells the reason otherwise; Status tells whether the node leads, its state, its version and whether it is detached. Also while the node changes during the request, a 200 means that it was in such a state at some moment of it, and a node that handles commands all the time is never reported as one that does not, even if it begins to stand down.", "quantifier": "all states, versions and sequences of changes between the values that an answer is made from", "why_tests_cant": "Each answer is made from several values that other threads change in between: what it can mean must hold for every point at which they change.", "anchors": ["BedrockServer.cpp: _status, getState, isDetached", "sqlitecluster/SQLiteNode.cpp: stateName"]}
{"id": "C83", "title": "A database is opened in its own format, and the wait for a locked one ends", "statement": "A new or empty database gets the format that is asked for; one that is there keeps its own format, whatever is asked for. If the database is locked the node tries again every five seconds; it uses the database exactly if the first try that does not find it locked opens it, ends without an error if it is told to end meanwhile, and ends with an error after any other failure or after fifteen minutes.", "quantifier": "all files, formats asked for, old contents of memory, sequences of results of the tries and moments of termination signals", "why_tests_cant": "A wrong format or an endless wait shows only for particular contents of a file and particular sequences of failures, over minutes.", "anchors": ["sqlitecluster/SQLite.cpp: validateDBFormat, initializeDB", "libstuff/libstuff.cpp: SStartsWith"]}
{"id": "C84", "title": "The version a server tells is made of the versions of its program and plugins, in whatever order they are named", "statement": "A server runs exactly if every plugin it is to run is known. The version it tells is the version of the program and of each plugin that gives one; it does not depend on the order, the case or the repetition of the names of the plugins, and two servers tell the same version exactly if these parts are the same. A version that is given on the command line is told in place of it, its parts in any order; a server given the version of another tells the same as that one.", "quantifier": "all versions, lists of plugins, names, sets of libraries found and overriding versions", "why_tests_cant": "Nodes compare their versions to decide who runs a command; whether equal nodes always tell equal texts, and different ones different texts, ranges over all sets and orders of plugins.", "anchors": ["BedrockServer.cpp: BedrockServer::BedrockServer", "main.cpp: loadPlugins, main", "libstuff/libstuff.h: SComposeList", "libstuff/libstuff.cpp: SParseList"]}
{"id": "C85", "title": "A write that is not replicated is done whole or not at all", "statement": "A write that is made past the journal and not replicated, if it only writes, is made whole, in one piece, once if it is one statement or the database is not busy meanwhile, and not against a page that someone else has changed since it began, if it says that it succeeded; otherwise nothing of it is in the database. Nothing else changes, the journal neither, whatever fails and whatever others commit meanwhile, and no transaction is left open. On a handle inside a transaction it is refused and the transaction is as it was. It succeeds if nothing fails and nobody changes a page of it meanwhile.", "quantifier": "all writes, databases, failures of each statement and commits of others before each statement", "why_tests_cant": "Half a write, or a transaction left open, shows only if a particular statement fails or another commit comes at a particular moment.", "anchors": ["sqlitecluster/SQLite.cpp: SQLite::writeLocalUnreplicated", "libstuff/libstuff.cpp: SQuery"]}
{"id": "C86", "title": "No command is lost or answered twice when the queue of commands that block is emptied", "statement": "Whatever threads do meanwhile, and however often the queue is emptied by ClearBlockingQueue or because the node stops leading, every command that came in is answered, in the hands of a thread or in a queue, in exactly one of these places, and is answered at most once. Every command that a ClearBlockingQueue that has ended took from the queue was answered with 503, and the number it tells is theirs; undisturbed it leaves the queue empty and nobody blocked. A node that stops leading, undisturbed, moves all of them to the main queue and answers none.", "quantifier": "all commands, schedules of all threads, moments and numbers of times the queue is emptied", "why_tests_cant": "A lost command, or two answers to one, shows only if threads put commands into the queue and take them from it at particular moments while it is emptied.", "anchors": ["BedrockServer.cpp: _control (ClearBlockingQueue), sync", "BedrockCommandQueue.cpp: getAll, push, _dequeue", "BedrockBlockingCommandQueue.cpp: push, clearRateLimits"]}
