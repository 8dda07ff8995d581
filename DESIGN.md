# Formal model of Bedrock in Rocq (Coq 8.16.1)

## Layout

Each part of the code gets up to four files in `rocq/theories/`:

| suffix | content |
|---|---|
| `X_Spec.v` | the vocabulary of the property: API calls and what a user expects of them; never mentions the model |
| `X_Model.v` | Gallina transcription of the C++, each definition citing file and lines; no proofs |
| `X_Proofs.v` | lemmas |
| `X_Props.v` | the property theorems, `Print Assumptions`, non-vacuity examples, refutations |

`Base.v` holds notation and list lemmas only. Theorem names start with the property id (`C01_…`). A theorem ending in
`_partial` proves part of its property; one ending in `_refuted` exhibits a concrete history on which the full property
fails in the modelled code (a finding).

## Method

* The code is transcribed as total functions over lists, `N`/`Z` and records. Loops become structural recursion.
* A method that holds a mutex for its whole body is one atomic step; a concurrent history is then an arbitrary list of
  such steps. Lock-free code is modelled at the granularity of its individual atomic accesses.
* Clocks, random numbers, the network, SQLite's query engine, SHA1 and plugin code are inputs: explicit arguments
  universally quantified in the theorems. None is an axiom.
* Undefined behaviour and thrown exceptions are explicit outcomes (`None` or a constructor).

## Plan per property

| id | model | proof |
|---|---|---|
| C01 | `BedrockCommandQueue` with both multimaps | permutation invariant over all histories |
| C02 | same | refinement to an arrival-ordered list; refuted with `abandonFutureCommands` |
| C03, C04 | `BedrockBlockingCommandQueue` sample lists and deadlines | invariant: kept samples = samples of the window; per-key frame |
| C05 | `SRingBuffer`, one step per atomic access, any producers | inductive invariant tying slots to the claim order |
| C06 | `SSynchronizedQueue` list + pipe byte count, per-step | invariant |
| C07, C08 | `SFastBuffer` with front offset, capacity as an oracle | refinement to byte string; scan lemma |
| C09, C10, C41, C42 | hex, URI, constant-time compare, escape functions | structural induction, 256-case byte facts |
| C11 | `SQ`, a small SQL string-literal lexer as specification | induction |
| C12 | `SParseList`/`SComposeList` | induction |
| C13 | JSON composer and recursive-descent parser | induction on values |
| C14, C15 | `SComposeHTTP`/`SParseHTTP` | parsing lemma for each header line; prefix argument |
| C16–C19 | `SQLite` handles sharing one database: snapshot transactions, commit lock, journal | invariant over all interleavings |
| C20 | `SQLitePool` | invariant |
| C21 | `ConflictLockGuard` static tables, per critical section | invariant |
| C22 | Cache plugin: LRU list, table with size triggers | invariant |
| C23–C26 | Jobs plugin: jobs table, each command as a function | invariants, arithmetic |
| C27 | future-commit maps of `BedrockServer` | refinement as for C02 |
| C28 | port and block-reason set | invariant |
| C29, C30 | crash-command table, control command gate | decision logic |
| C31 | `runCommand` loop as a transition system with adversarial environment | invariant; refuted at the state check after commit |
| C32 | `BedrockCore::peekCommand`/`processCommand` with arbitrary plugin behaviour | case analysis over a transaction-state model |
| C33 | `_sendCommandOnSocket`, `runOnPeer` loop | induction over network outcomes |
| C34, C35, C40 | `SQLiteNode` state machine, N nodes, FIFO links | inductive invariant |
| C36–C38 | leader journal, subscription snapshot, transaction stream, follower handlers | prefix invariant |
| C39 | deadline arithmetic | arithmetic with 64-bit wrap |
| C43 | the HTTP parser on arbitrary bytes, out-of-bounds reads as an outcome | invariant of the parser loop |
| C44 | `SQResult::serializeToJSON`/`deserialize` on top of C13 | composition |
| C45 | _reply and buildCommandFromRequest on top of Run_Model and Http_Model; a conversation is a list of requests | one message per request; the stream theorem of C14 |
| C46 | BedrockCommand's bookkeeping of outside requests, SHTTPSManager::postPoll and getHTTPResponseCode; the network is a list of events | invariants over the waiting loop; the parser theorems of C14 and C15 |
| C47 | serializeHTTPSRequests and deserializeHTTPSRequests on top of Json_Model and Http_Model; base64 from RFC 4648 | round trip of base64, then composition of the round trips of C13 and C14 |
| C48 | the Query command of `plugins/DB.cpp` and the codec of bound values, on the handle of Core_Model and the messages of Http_Model | round trips, then case analysis with a lemma on running a list of statements |
| C49 | SQuery (retries, accumulated text) and _writeIdempotent over an abstract database | induction over statements, tries and writes; the counter by arithmetic modulo 2^32 |
| C50 | the text of the journal: SQLite's words and statements, expansion of bound values, what `SQuery` and `_writeIdempotent` keep, what a follower reads | lossless lexer with maximal munch; words of a concatenation when no word can go on across the seam; substitution keeps the seams |
| C51 | nodes with their own dictionary setting and loaded dictionaries, the journal rows they write and copy, the SQL functions; zstd as a record with the laws of its documentation | invariant over all operation lists: each row is its text or a frame of it, the hashes chain the texts; then what each node returns is a function of the texts alone |
| C52 | a database handle: its view, its cache of results, its flags and settings, `_authorize`, rewriting; SQLite as a record of statements, actions and effects | refinement to a handle without a cache, for all operation lists; invariant: each kept result is what the query gives on the view for every environment |
| C53 | the handle of C52 with a whitelist | relational invariant over pairs of runs (non-interference) for all operation lists |
| C54 | the JSON style of libstuff/qrf.c with the settings of the DB plugin, and reading arrays of objects back | the output is shown to be in the JSON grammar of Json_Spec.v by induction over columns and rows, then the parser's theorem |
| C55 | plugins/MySQL.cpp: packets, replies, the queries it answers itself or replaces, its buffer and its requests | a client's reader is written from the protocol; round trips for numbers, strings and packets; induction over commands and over the parts in which each arrives; the words of the made statements by the lexer of Lex_Spec.v |
| C56 | libstuff/SQResultFormatter.cpp: CSV, quote, tabs, list and column style | readers are written from RFC 4180 and SQL's literals; round trips by induction over cells and rows; column style through the code points of the text, with the widths as an invariant over the rows |
| C57 | libstuff/STCPManager.cpp, S_sendconsume, S_recvappend, sqlitecluster/SQLitePeer.cpp, SQLiteNode::postPoll and _processPeerMessages | each end runs by itself against arbitrary answers of the operating system; invariants: taken bytes and send buffer are the messages sent, handled messages and receive buffer are the bytes received; both ends are joined by the assumption about the network |
| C58 | libstuff/SSocketPool.cpp, libstuff/SMultiHostSocketPool.cpp, SQLiteClusterMessenger::runOnPeer, _getSocketForAddress, commandWillCloseSocket | transition system of users, pools, their threads and the network, each critical section a step; invariants: one place for each connection, hosts, at most a line feed left over between answers, times in order and the thread of a pool never asleep for too long |
| C59 | libstuff/SHTTPSProxySocket.cpp: SHTTPSProxySocket::send, SHTTPSProxySocket::recv; libstuff/STCPManager.cpp: STCPManager::prePoll; libstuff/SSSLState.cpp: SSSLState::sendConsume, SSSLState::recvAppend; libstuff/SHTTPSManager.cpp: SStandaloneHTTPSManager::_httpsSend, SStandaloneHTTPSManager::postPoll | Model of SHTTPSProxySocket's send and recv with what went out and came in, in clear and through TLS; invariant over all event lists; progress over all ways of cutting a legal answer, on top of C14. |
| C60 | libstuff/SLog.cpp: addLogParams, SWhitelistLogParams, SIsLogParamWhitelisted; libstuff/libstuff.h: SSYSLOG, SWHEREAMI; libstuff/libstuff.cpp: SSyslogSocketDirect, SFluentdLog, SAutoThreadPrefix; libstuff/SFluentdLogger.cpp: SFluentdLogger::sendAll, SFluentdLogger::senderLoop | Model of addLogParams, the logging macro, the Fluentd record and sender, the list with compare-and-swap, and the scopes; noninterference as equality of outputs, invariants over interleavings, induction over nestings. |
| C61 | libstuff/SDeburr.cpp: SDeburr::deburr, SDeburr::unicodeToAscii, SDeburr::registerSQLite; libstuff/SDeburr.h: UNICODE_TO_ASCII_MAP | Model of the decoder loop and of the table with its overwriting order; specification as two code charts and a map over code points; induction over texts, a check of all entries of the table, and an invariant for arbitrary bytes. |
| C62 | main.cpp: main (loop around BedrockServer), BackupDB; BedrockServer.cpp: syncWrapper, sync, _resetServer, postPoll, shutdownComplete, isDetached, _control, _beginShutdown, _acceptSockets, handleSocket, buildCommandFromRequest; libstuff/SSignal.cpp: SGetSignal, SGetSignals, SClearSignals, STerminationSignalCount | Transition system with one program counter for the main thread, one for the sync thread and one for each connection, each access to a shared flag a step; invariants over all reachable states; a progress argument that builds a run to the end from any state; closed sets of states for the runs that never end. |
| C63 | sqlitecluster/SQLite.cpp: verifyTable, verifyIndex, addColumn; libstuff/libstuff.cpp: SCollapse, SStrip, SReplace, SContains, SEndsWith, SIEquals; plugins/Jobs.cpp: upgradeDatabase | The functions transcribed over byte strings; SQLite's treatment of CREATE and ALTER statements as a small parser in the specification; induction over the list of checks with the catalogue only growing. |
| C64 | BedrockServer.cpp: sync (upgradeCommandFinished, upgradeCommandRunning), runCommand, dbReadyToHandleRequests, BedrockServerUpgradeCommand; BedrockCommand.cpp: ~BedrockCommand | Transition system in which every read of a shared variable is a step; invariant over all reachable states, with the trace of events as ghost state; a way to the end built from any state. |
| C65 | libstuff/STime.cpp: SComposeTime, STimestampToEpoch, SDaysInMonth, STIMESTAMP_MS, SFirstOfMonth; libstuff/libstuff.cpp: SUNQUOTED_TIMESTAMP; BedrockPlugin.cpp: isValidDate; plugins/Jobs.cpp: peekCommand (GetJob, nextRun) | Calendar by counting days from 1970; texts of equal width compare as their digits; days before a date by induction over days; digits read back; exact description of the regular expression. |
| C66 | sqlitecluster/SQLiteNode.cpp: _onMESSAGE (LOGIN, FORKED), _addPeerHeaders, _dieIfForkedFromCluster, _updateSyncPeer; sqlitecluster/SQLite.cpp: getCommit, getCommitCount, getCommittedHash, SharedData::incrementCommit | Nodes with three-step commits, links with queues; invariants of orderly runs; who gets which LOGIN when; counting of full nodes; invariant of the choice over the list of peers. |
| C67 | libstuff/libstuff.cpp: SAESEncrypt, SAESDecrypt, SAESDecryptNoStrip, SHMACSHA1, SHMACSHA256, SBase32HexStringFromBase32, SHexStringFromBase32 | Chaining by induction over blocks; HMAC against the formula of RFC 2104; base 32 against numbers of 40 bits, group by group. |
| C68 | libstuff/libstuff.cpp: SParseCommandLine, SFileLoad, SFileSave, SFileCopy, SFileExists, SFileDelete; main.cpp: BackupDB, loadPlugins, main (-clean); BedrockServer.cpp: BedrockServer::BedrockServer | The command line by induction over words against a function that looks values up; files as functions with a buffer in front; plugins by induction over the list. |
| C69 | libstuff/libstuff.cpp: SRedactSensitiveValues, SREReplace, SQuery; sqlitecluster/SQLite.cpp: SQLite::_sqliteLogCallback | Independence: two texts that differ only in what is hidden give the same log, by induction over what stands before; encrypted values by what substitution keeps. |
| C70 | libstuff/libstuff.cpp: SBefore, SAfter, SAfterUpTo, SAfterLastOf, SReplace, SReplaceAll, SReplaceAllBut, STrim, SParseIntegerList, SParseHost, SComposeHost, SGetDomain, SParseURI, SComposePOST, SIsValidSQLiteDateModifier, SREMatchAll; libstuff/SHTTPSManager.cpp: SStandaloneHTTPSManager::_httpsSend; sqlitecluster/SQLiteNode.cpp: SQLiteNode::_initPeers, SQLiteNode::getPeerByName | Round trips and exact characterisations; the specification says first occurrence, replaced from the left, modifier and all matches as relations. |
| C71 | BedrockCommand.cpp: BedrockCommand::startTiming, BedrockCommand::stopTiming, BedrockCommand::finalizeTimingInfo; BedrockCore.h: BedrockCore::AutoTimer; sqlitecluster/SQLiteClusterMessenger.cpp: SQLiteClusterMessenger::runOnPeer; BedrockConflictManager.cpp: BedrockConflictManager::recordTables; libstuff/SPerformanceTimer.cpp: SPerformanceTimer::start, SPerformanceTimer::stop; libstuff/SRandom.cpp: SRandom::randStr | What a command goes through as a list of pieces with durations, the entries that are measured for them and the sums in 64 bits; the headers as a table; the counts as a map. The sums by induction over the pieces from the end, with the bound that nothing wraps around; the headers by what is found under each name; the counts and timers by induction over the events. |
| C72 | plugins/Jobs.cpp: GetJobs, RequeueJobs, handleFailedReply, CrashBedrockJob, ClearCrashedBedrockJobs, onNodeLogin; BedrockServer.cpp: _reply; libstuff/SData.cpp: getVerb; sqlitecluster/SQLiteClusterMessenger.cpp: runOnAll | The answers are composed from rows as the code does, with the JSON composer of C13, and read back by its parser; handleFailedReply is run on the composed answer and RequeueJobs on the list it makes. Round trips of C13, C12 and C70 give the IDs; the rows follow from the description of GetJobs in C23-C26. Patterns are lists per node, propagation is a fold over the peers that are reached. |
| C73 | BedrockPlugin.cpp: verifyAttributeInt64, verifyAttributeSize, verifyAttributeBool, verifyAttributeDate, isValidDate; libstuff/SData.cpp: calc, calc64, calcU64, test, isSet; plugins/Jobs.cpp: peek, process, _validatePriority; plugins/Cache.cpp: peek, process | The checks as functions from the table of the request to an error or none, the regular expression for dates character by character. Integers by the round trip of decimal texts, dates by two digit numbers, the commands by combining the checks in the order of the code. |
| C74 | plugins/DB.cpp: parseSQLite3Args, generateErrorContextMessage, BedrockDBCommand::peek; sqlitecluster/SQLite.cpp: getPreparedStatements | The loops as functions on the text, with the flags as a state. Splitting by induction on an inductive description of how words are written; options by a fold that keeps the last of each kind; the window by an invariant: bytes skipped plus column is the offset. |
| C75 | sqlitecluster/SQLite.cpp: _sqliteLogCallback, commit, getLastConflictIdentifier, getLastConflictLocation; BedrockServer.cpp: runCommand; BedrockPlugin.cpp: shouldLockCommitPageOnConflict; libstuff/libstuff.cpp: SREReplace | Greedy patterns as the last suffix of the text that matches; by what the words of the messages are, no later suffix can match. The lock as a fold over the failed tries. |
| C76 | libstuff/SQResult.h: SQResult, SQResultRow; libstuff/SQResult.cpp: operator[], operator=, resize, clear; libstuff/SQValue.cpp: operator string, operator==, empty, size; libstuff/libstuff.cpp: SQuery; sqlitecluster/SQLite.cpp: read | Results as a heap with pointers from rows to results; simulation by plain tables over all sequences of operations, with the invariant that all rows of a named result point to it. |
| C77 | VMTouch.cpp: check, bytes2pages; main.cpp: main | The ranges of the threads, one after the other, are all pages (induction on the threads); the sum does not depend on the order (permutations). |
| C78 | sqlitecluster/SQLite.cpp: initializeJournal, initializeSharedData, getCommit, _getJournalQuery; libstuff/libstuff.cpp: SQVerifyTable, SQVerifyTableExists | Invariant over all histories: the journals are a gap-free sequence, each with its definition, all rows are in them and belong to the commit of their number; the names are injective, so the search ends. |
| C79 | BedrockServer.cpp: getCommandFromPlugins, generateCommandID, _resetServer; sqlitecluster/SQLiteCommand.cpp: preprocessRequest; sqlitecluster/SQLiteNode.cpp: getEligibleFollowerForForwardingAddress, getLeaderVersion, getPeerByName, stateName, stateFromName; libstuff/SRandom.cpp: randStr; plugins/DB.cpp, plugins/Jobs.cpp, plugins/Cache.cpp: getCommand | IDs: the last # splits an ID, the numbers of a node only grow; induction over the history. Plugins: the first that does not decline; disjoint verbs. Follower: names sorted and distinct, so the peer found is the one chosen. |
| C80 | BedrockServer.cpp: _control (BlockWrites, UnblockWrites); BedrockServer.h: __quiesceLock, __quiesceShouldUnlock, __quiesceThread; sqlitecluster/SQLite.cpp: exclusiveLockDB, exclusiveUnlockDB | Interleaving of control threads, the quiesce thread and writers; an inductive invariant ties the state of that thread to the owners of the two locks; induction over histories. |
| C81 | BedrockServer.cpp: _control; BedrockBlockingCommandQueue.cpp: setWindow, setIdentifierThreshold, setCommandThreshold, setBlockDuration, clearRateLimits; sqlitecluster/SQLiteNode.cpp: setPriority; libstuff/SData.cpp: calc64, calcU64, test | Each branch of _control as a function of request and settings; the dispatch by name is resolved for every spelling; numbers by the round trip of decimal texts; setPriority by cases. |
| C82 | BedrockServer.cpp: _status, getState, isDetached; sqlitecluster/SQLiteNode.cpp: stateName | A moment for each value that is read; cases over the order of the readings. |
| C83 | sqlitecluster/SQLite.cpp: validateDBFormat, initializeDB; libstuff/libstuff.cpp: SStartsWith | The header as a C text over old memory, prefixes of it; the tries by induction on how many are left. |
| C84 | BedrockServer.cpp: BedrockServer::BedrockServer; main.cpp: loadPlugins, main; libstuff/libstuff.h: SComposeList; libstuff/libstuff.cpp: SParseList | Sorting by a total order has one result for all orders; the list of parts survives being joined by colons and split again. |
| C85 | sqlitecluster/SQLite.cpp: SQLite::writeLocalUnreplicated; libstuff/libstuff.cpp: SQuery | The transaction of the handle and what others commit, statement by statement; by induction on the writes. |
| C86 | BedrockServer.cpp: _control (ClearBlockingQueue), sync; BedrockCommandQueue.cpp: getAll, push, _dequeue; BedrockBlockingCommandQueue.cpp: push, clearRateLimits | Threads, two queues and the answers as one state; the multiset of all commands is invariant; induction over histories. |

## Trusted base

* Coq 8.16.1's kernel.
* `Print Assumptions` for each theorem: printed after each theorem of each `*_Props.v`; every one is "Closed under the global context", that is, no axiom at all. `coqchk` lists seven constants `Coq.ssr.ssrunder.Under_rel.*` for the whole development: they come from Coq's own ssreflect library, which a standard library file loads, and no theorem here uses them.
* The reading of the C++ source: every model definition cites the lines it transcribes.

## What is modelled and what is not

Modelled (file: parts): `BedrockCommandQueue`, `BedrockBlockingCommandQueue`, `libstuff/SFastBuffer`, `SRingBuffer`,
`SSynchronizedQueue`, `SQLitePool`, `ConflictLockGuard`; in `libstuff.cpp` the hex, URI, SQL quoting, list, escaping, JSON,
HTTP composing and parsing functions; `SQResult` to and from JSON; `SQLite` transactions, commit lock and journal;
`SQLiteNode` states, election, subscription, replication and synchronization; the Jobs and Cache plugins; in
`BedrockServer` the commands that wait for a commit, the command port and the reasons to block it, the crash-inducing
commands and the gate for control commands; `BedrockCore` (prePeek, peek, process, postProcess) on one database handle; the life of
a command in `BedrockServer::runCommand`, building and answering it, its deadlines and its outside requests
(`BedrockCommand`, `SHTTPSManager`) and their transfer to another node (base64), the Query command with bound values, the retries of `SQuery`, what a write keeps for the journal and how that text is read again, compression of the journal and the SQL functions for it, the cache of query results, the authorizer and the whitelist of a handle, SQLite's JSON style of query results, the MySQL port, the text forms of query results, the connection between nodes, the connection pool, connections through a proxy, logging, removal of accents, the life of the server, checks of the schema, the upgrade of the database, times as texts, forks and the choice of the peer to synchronize from, encryption, authentication codes and base 32, the command line, files, backups and the loading of plugins, what is hidden in the log, addresses, URLs, forms and searching in texts, the times and counts that are reported, what workers are told and what is put back, how attributes of requests are checked, options of queries and the text for an error, the place of a conflict, rows of results, pages of the database in memory, opening a database and its journals, IDs of commands and requests and the choice of plugin and follower, blocking and unblocking of writes, the commands for settings, the health checks, finding the format of a database file and waiting for it, the creation of plugins and the version of a server, writes that are not replicated, emptying the queue of commands that block; `SQLiteClusterMessenger`.

Parameters of the theorems, never axioms: clocks, random numbers, SHA1, zlib, floating-point printing, GLOB and date
functions of SQLite, which row SQLite picks, what plugins do, when connections break.

Not modelled: SQLite itself (its statements are transcribed as operations on lists of rows), TLS and mbedtls, DNS and
the socket layer below `recv`/`send`, memory exhaustion, fairness of the scheduler, crash signals and their stack traces, and data races
on fields the code accesses without locks except where a file says so (`SRingBuffer`).

## Findings

Theorems ending in `_refuted` are concrete histories of the modelled code on which the plain reading of a property fails.
The comment above each theorem is repeated here.

<!-- findings -->
* `C01_abandon_limit_overflow_refuted`: The limit computed by [abandonFutureCommands] is undefined behaviour for large arguments, and is as documented for every argument the server uses (5000 ms, BedrockServer.cpp:_beginShutdown).
* `C02_queue_order_with_abandon_refuted`: C02 with [abandonFutureCommands] allowed, full strength, is false: abandoned commands leave stale timeout entries behind, and the next get then returns command 2 although command 3 has timed out and command 2 has not.
* `C03_huge_duration_refuted`: With a block duration close to 2^64 the deadline wraps and the block never takes effect.
* `C03_window_enlarged_refuted`: Without the "window is not enlarged" assumption the exact claim is false: an execution dropped under a small window is not counted again after the window is widened.
* `C05_refused_only_when_full_refuted`: Without that assumption the claim is false: a producer that loads the write index and is then overtaken by another producer and the consumer sees the read index beyond its own copy; the unsigned difference wraps and the push is refused although the buffer (of two places) is empty. All loads in this run return the current value.
* `C05_two_shutdowns_refuted`: Two shutdown calls on a full buffer overwrite an element that has not been received.
* `C06_full_pipe_blocks_refuted`: The wake-up pipe is finite and push() writes to it while holding the mutex. For every pipe capacity there is a run (more pushes than the capacity while the woken thread is still busy) after which no thread can take another queue step: the pusher waits for room in the pipe and the woken thread, about to pop or clear, waits for the mutex; only a thread that polls again without popping first could get out.
* `C08_consumed_byte_leaks_refuted`: Without the [clean_start] condition the claim is false: the look-behind at line 44 reads a byte that was already consumed, so the same content gives two answers, and one of them is "yes" without any header block.
* `C09_trailing_garbage_16_refuted`: A byte that is no digit after 16 digits destroys the top digit (the "undone" shift has lost it).
* `C11_nul_truncates_refuted`: With a NUL byte the value is silently cut.
* `C12_found_flag_refuted`: The boolean result says whether anything was found only when the text does not end with a separator: "a," finds "a" but reports false.
* `C13_capitals_refuted`: Strings that spell a literal in capitals come back in small letters.
* `C13_missing_element_refuted`: A missing element is read as an empty string.
* `C13_name_injection_refuted`: Names are not escaped: a quote in a name changes the structure of the object.
* `C13_nul_aborts_refuted`: A NUL where a name should begin stops the process: reading it, and also writing a value that has it, such as the blob of SELECT x'7B007D' in a query answered in JSON. A header value reaches the parser with such a byte if the client sends the six characters \u0000.
* `C13_nul_cut_refuted`: What follows a NUL is lost.
* `C13_surrogate_pair_refuted`: A surrogate pair is not one character: U+1F600 should be the four bytes F0 9F 98 80.
* `C13_truncated_accepted_refuted`: A text that breaks off is read as if it were complete: data with the closing brace missing is accepted.
* `C13_unbalanced_value_refuted`: A value cut off behind an inner bracket passes for JSON and is copied as it is: the list changes.
* `C14_chunked_header_refuted`: A name with a colon, or a value of Transfer-Encoding that says "chunked", breaks the round trip: the composer checks only the method line.
* `C14_cookie_injection_refuted`: So does a cookie: cookies are written as they are.
* `C14_name_injection_refuted`: A header name with a line end in it adds a header of the sender's choice.
* `C14_no_length_refuted`: A message without Content-Length ends where the data that happens to have arrived ends, so where the boundary falls depends on how the bytes were divided.
* `C14_pipelined_refuted`: But of two requests that arrive together only the first is handled: the second waits until more data arrives, although it is complete.
* `C15_last_byte_refuted`: The exception is real: of a message without body, all but the last line feed is already read as the whole message.
* `C16_partial_write_refuted`: A write call that fails after changing data, followed by a commit: the committed data is no longer the replay of the journal, so followers diverge.
* `C16_shared_thread_refuted`: The lock is recursive per thread: one thread with two handles gets through prepare twice and commits two transactions with the same number.
* `C17_begin_failure_leaks_refuted`: When BEGIN fails for an exclusive transaction the call reports failure but keeps the lock, and rolling back does not release it: no other thread can commit any more.
* `C17_nested_begin_leaks_refuted`: So does an exclusive begin inside a transaction that already holds the lock.
* `C20_pool_of_one_refuted`: A pool configured with at most one handle never grants any: "waits until one is available" is false there.
* `C22_bytes_refuted`: Sizes are counted in characters: three-byte characters hold three times the configured bytes.
* `C22_empty_name_aborts_refuted`: A name that begins with a NUL is stored as the empty name; after a restart, making room finds it and aborts.
* `C22_lost_write_order_refuted`: A write that does not commit still takes names off the list and puts its own at the end: the entries it would have evicted are no longer known as old, and the next to go is a newer one.
* `C22_nul_value_refuted`: The value ends at its first NUL.
* `C22_overwrite_aborts_refuted`: On connections that did not run upgradeDatabase the triggers are not recursive: overwriting an entry counts its size twice, and a later write that fits finds nothing left to evict and brings the server down.
* `C22_restart_order_refuted`: The order of use is kept in memory: after a restart an entry just read goes before one nobody touched.
* `C23_cancel_refuted`: The exception for CancelJob is needed: cancelling a child that is already cancelled puts its parent, which a worker is running, back in the queue, and the parent is handed out a second time.
* `C23_failed_but_returned_refuted`: A job whose retry time cannot be computed is marked FAILED and still returned: the worker runs it, and its FinishJob is then refused.
* `C23_taken_by_nobody_refuted`: A job without automatic retry whose data says it was retried ten times is marked RUNNING but returned to nobody: no worker has it and GetJob(s) never returns it again.
* `C24_failed_child_refuted`: When the last child fails instead of finishing, nothing resumes its parent: it stays paused although none of its children will run again.
* `C24_requeue_side_by_side_refuted`: Requeueing a job no worker has breaks it: the parent and its child are both handed out.
* `C25_manual_refuted`: A job named manual... with both retryAfter and a SCHEDULED repeat can never be finished: GetJob does not record its original time, so FinishJob computes an empty time and is refused, every time.
* `C26_retry_priority_refuted`: RetryJob accepts a priority like 500abc, because the check looks at the number it starts with; the text is stored, and no GetJob finds the job again.
* `C28_flag_after_attach_refuted`: After a detach and attach the flag can stay set although nothing is blocked: every request on the public port then gets its connection closed, until some reason is added and removed.
* `C28_lagging_other_peer_refuted`: The reason is lifted by a message of any peer: a node 20,000 commits behind the leader opens its port again as soon as another node that is just as far behind says anything, and the leader's next message closes it again.
* `C28_not_enough_threads_refuted`: When a connection is accepted and no thread can be made for it, the thread that accepts waits for a mutex it holds itself: the reason NOT_ENOUGH_THREADS is never set and no port can be opened or closed any more.
* `C28_state_change_refuted`: The port is not closed when the node stops leading or following: it goes on accepting connections.
* `C29_case_refuted`: Method lines are compared letter by letter, although plugins recognise their commands in any case: the same command spelled differently is not refused.
* `C29_nul_value_refuted`: An identifying value with a NUL (a client sends it as \u0000) does not survive the report: the very command that crashed the first node is not refused by the next.
* `C29_spelling_refuted`: Two reports with the same values, one under "name" and one under "Name", count as two different sets: every command with that method line is refused from then on.
* `C30_chunked_smuggles_refuted`: The same with a Transfer-Encoding header: "chunked" followed by an escaped NUL is not "chunked" for the node that gets the request, so it passes on the body with its length; the value is cut at the NUL when it is written, so the leader reads the body as chunks, and what follows the last chunk is a request of its own.
* `C30_cookie_smuggles_refuted`: "A control command is carried out only for a local client" is false when nodes pass requests on. A client elsewhere sends a request that is not a control command, with a Set-Cookie header whose value has escaped line ends in it. The node it is sent to unescapes the first Set-Cookie value, and writes it unescaped when it sends the request on to the leader's private port; what follows the blank line in the cookie is the next request there, and it has no `_source`. It is taken when the next request, of any client, is sent on the same connection.
* `C30_same_method_refuted`: A method line that the receiver compares with the names is not always the one the other node sees: a folded line after the method line adds spaces to it, which the next node removes. The node that gets the request does not take "Detach " for a control command; the other node does, and refuses it, as it is marked.
* `C31_committed_and_sent_refuted`: The node commits the command, stops leading before it looks at its state, runs the command again as a follower and sends it to the new leader, which carries it out too.
* `C31_committed_but_expired_refuted`: The node commits the command, stops leading before it looks at its state, and finds in the next pass that time is over: the client is told 555 although the command is committed.
* `C31_committed_twice_refuted`: The node commits the command, stops leading before it looks at its state, and runs the command again: here it begins to lead again and commits it a second time; the client is answered once.
* `C32_begin_fails_refuted`: "After a failed stage no lock is held" is false on the blocking thread when SQLite refuses the BEGIN: beginTransaction has taken the commit lock, but rollback does not release it, as there is no transaction. From then on no other thread can commit, also after this thread's next commands succeed.
* `C32_error_after_commit_refuted`: "An error means nothing was done" is false for a command with a postProcess stage: it runs after the commit, and when time is over or the client is gone by then, the answer is an error.
* `C32_stale_reply_refuted`: "The answer tells only about the attempt that counts" is false for a command with a prePeek stage: what a rolled-back attempt put into the response is still there in the next one.
* `C32_too_late_refuted`: "Every change is replicated" is false when the code of a command goes on after a time-out exception from a write: the write was carried out, but is not in the journal.
* `C32_undone_refuted`: "Nothing is changed before the commit" is false when the code of a command ignores a write that failed so badly that SQLite undid the transaction (disk full, i/o error): later writes are then committed one by one, outside the journal, even though the command ends with an error.
* `C32_undone_stops_refuted`: If the command then returns normally, its journal row is committed on its own too, and the server stops at the COMMIT (SASSERT in SQLite::commit), with a commit no other node has.
* `C33_bad_answer_refuted`: The same happens when the peer's answer has a Content-Length that is not a number.
* `C33_control_character_refuted`: A request whose first line has a control character is accepted, but cannot be sent on: the exception is not caught in the thread that runs the command, and stops the server. The verb is what is before the first blank, so any command with "CreateJob", a space and the byte 1 as its first line does this to a follower.
* `C33_synchronizing_refuted`: While a node synchronizes every command is passed on, also one that is complete: a command that was sent in full to the leader, and has its error or its answer, is run again and its answer replaced.
* `C33_two_peers_refuted`: On a follower of another version, a command that is to be escalated at once and was sent in full to the leader, which then breaks the connection, is sent a second time, to another follower: the test looks at the result of the first call, not at whether the command is complete. The leader and the follower (which passes it on) both run it.
* `C34_booting_permafollowers_refuted`: A permafollower announces priority -1 while it boots, so the others count it as a full member. Nodes 3 and 4 are permafollowers: 0 leads with their votes, 2 leads with 1's. Nothing was dropped that mattered and no priority went to or from 0.
* `C34_dropped_voter_refuted`: If a voter loses its connection to the leader it voted for, it may vote for another: here node 0 votes for 1, drops it, and votes for 2, while 1 has not yet noticed.
* `C34_shutdown_permafollowers_refuted`: A permafollower that is shutting down announces priority 1 (setShutdownPriority), so again it is counted as a full member.
* `C35_keeps_leading_alone_refuted`: A majority is needed to start leading but not to go on: the leader of two nodes that loses its only peer keeps leading, alone.
* `C37_ignored_commit_result_refuted`: Without the condition that no commit fails silently the claims are false: the result of the commit of a received COMMIT is not looked at (SQLiteNode.cpp 1811), so a node whose last commit failed goes FOLLOWING without it, and the next transaction ends its process.
* `C39_execute_time_refuted`: A command with commandExecuteTime that is sent on has its time counted from commandExecuteTime again: after half of its time the other node finds that it has expired.
* `C39_later_refuted`: Lowering can move the deadline later, by the delay between the two readings of the clock.
* `C39_overflow_refuted`: A client's commandExecuteTime can make the subtraction overflow.
* `C39_sent_on_late_refuted`: A command that is sent on after its deadline gets 2147483647 ms, almost 25 days, at the other node: the difference is unsigned. (Before it sends, the node looks at the clock only when the socket is not ready, and it waits up to five seconds for a leader.)
* `C42_letters_refuted`: Outside that condition it fails: escaping the letter n turns it into a newline.
* `C43_bad_length_throws_refuted`: An exception, which ends the connection, is thrown for a Content-Length that is not a number.
* `C43_blank_first_line_refuted`: Without these conditions it is false: a first line of spaces, or a chunk of 2^31 bytes or more.
* `C43_huge_chunk_refuted`: Without these conditions it is false: a first line of spaces, or a chunk of 2^31 bytes or more.
* `C43_length_truncated_refuted`: A Content-Length of 2^32 is taken for 0: the body is left over, as the start of the next message.
* `C45_capital_refuted`: A client that asks for "Connection: Close" is not told that the connection is closed, but it is closed: one test looks at the letter case, the other does not.
* `C45_constructor_refuted`: If a plugin fails to make a command of the request, Connection: close is forgotten with the request.
* `C45_discarded_refuted`: A node that is shutting down says "202 Successfully queued" to a request nobody waits for, and throws it away.
* `C45_plugin_header_refuted`: Any client can end the server: it sends the header plugin with a name no plugin has, and the server aborts when it wants to answer.
* `C45_plugin_swallows_refuted`: With the name of a plugin in this header the client gets no answer: the response is given to that plugin, whose default is to do nothing.
* `C46_bad_length_refuted`: An outside server whose answer has a Content-Length that is not a number ends the server: the exception is not caught in the thread that waits for the answer (runCommand).
* `C46_changes_refuted`: A request that failed for lack of time keeps its connection, and is polled again when the command waits for another request: a command that was told 501 finds 200 later.
* `C46_status_overflow_refuted`: A status is cut to 32 bits: 4294967496 is read as 200.
* `C46_truncated_refuted`: A part of an answer without Content-Length is taken for the whole when time is over: the result is 200.
* `C47_empty_refuted`: Writing no bytes throws.
* `C47_forged_refuted`: Nothing asks who sends the results: a client on the public port that puts them into a header of its request has a command with the results it wants, for example that its payment is approved.
* `C47_gzip_refuted`: An answer that says it is compressed is compressed once more when it is sent on, and nothing on the other side undoes that: the body there is not the body the outside server sent.
* `C47_no_answer_refuted`: A request that failed without an answer (its message is empty) has an answer at the other node: one that says "Content-Length: 0".
* `C48_begin_refuted`: [Query: BEGIN;] is answered like a read, because SQLite calls it read-only, and leaves SQLite inside a transaction that the handle knows nothing of: from then on no command at all can begin a transaction on this handle, and nothing ends it.
* `C48_case_refuted`: Two placeholders that differ only in case become one header: the first gets the value of the second, the second has none.
* `C48_empty_text_refuted`: An empty text (or blob) cannot be sent: writing it throws.
* `C48_escape_refuted`: A query that commits first and begins again at its end has its changes in the database at once, outside the transaction of the command: when that is undone, as it is after a conflict, the change stays, and no journal row has it.
* `C48_first_only_refuted`: Of several reads only the first is run, unless the format asked for is json: the others are neither answered nor checked.
* `C48_spelling_refuted`: A header is found whatever its case, but not these: [SQL-Param-#3Aa] is no value for [:a], which is then NULL.
* `C48_where_line_refuted`: ... and a DELETE of one row is refused when a line end, a tab or a bracket stands beside its WHERE.
* `C48_where_refuted`: The test for a missing WHERE looks only at how the text begins: a DELETE of every row passes behind another statement ...
* `C49_busy_refuted`: When the database is busy after some statements of a write are done, all of them are done again: the leader has done the first twice, and the journal, which followers go by, has it once.
* `C49_counter_refuted`: The counter of changed rows is an int that is compared as an unsigned number: the write that takes it past a multiple of 2^32 looks as if it changed nothing, succeeds on the leader and is never sent to the followers.
* `C49_failed_refuted`: A write that returns false may have done its first statements: they stay in the transaction, the journal does not have them, and a command that goes on and commits other changes leaves the followers without them.
* `C49_rewrite_refuted`: When a later statement of a write is rewritten, what the earlier ones did stays, and the journal has only the new text.
* `C49_uncounted_refuted`: A statement that changes the database without changing a row or the schema, such as PRAGMA user_version, is carried out on the leader and not sent to the followers.
* `C50_comment_refuted`: Refuted: a query may end in ';' without its statement ending there, and the journal then joins it to the next write. The check on a write only looks at the last byte. "DELETE FROM t --;" passes, and deletes the rows on the leader; the text of the next write of the transaction, put right behind it, is part of the comment for every follower: on them that write does not happen, and no error is seen.
* `C50_digits_refuted`: Refuted: a floating point value does not reach the followers exactly. The text of the journal has fifteen digits of it, and doubles that differ only behind those become one: 0.3 and 0.1 + 0.2 (0.30000000000000004) both are "0.3" there, so a leader and a follower may hold different numbers.
* `C50_joined_refuted`: Refuted: a placeholder right behind a keyword or a name is fine for SQLite, but its value becomes part of that word in the journal: "LIMIT:n" with 5 turns into "LIMIT5", a name, and "WHERE x IS:n" with no value into "WHERE x ISNULL". A follower fails on the first.
* `C50_minus_refuted`: Refuted: a negative number bound right behind a minus sign opens a comment. "UPDATE t SET x=x-:n WHERE id=1;" with -5 for :n adds 5 to one row on the leader; the text for the followers is "UPDATE t SET x=x--5 WHERE id=1;", which leaves out the condition: they set x=x on every row, and the two databases differ from then on.
* `C50_zero_refuted`: Refuted: a text value with a zero byte in it does not reach the followers whole. The leader binds all of its bytes; the expanded text stops at the zero byte, so the followers store only what comes before.
* `C51_misnumbered_refuted`: Refuted: a dictionary listed in the table under another number than it has in itself makes a journal that no node can read: the frame names the dictionary's own number, which is not in the table. Followers stop in an assertion at the first commit, and so does any node that is asked for the text of the commit.
* `C51_missing_dictionary_refuted`: Refuted: a node that is set to use a dictionary the table does not have starts, and stops at its first commit: the compression of the query ends the process. As a follower it does so too, for a commit that every other node takes.
* `C51_new_dictionary_refuted`: Refuted: a node cannot catch up past the point where a new dictionary came into use. A node reads the table of dictionaries only when it starts; one that gets the new dictionary as part of a commit it synchronizes does not load it, takes the next commit, compressed with it, for a query, and stops in an assertion. Started again it would go on.
* `C51_raw_dictionary_refuted`: Refuted: with a dictionary that has no number in it - any bytes can serve zstd as a dictionary - the journal cannot be read. The frame names no dictionary, so reading it is tried without one, fails, and gives back the frame; a follower takes that for the query, finds that it does not end in ';' (its last byte is a matter of chance), and stops in an assertion. Nothing checks the dictionary before.
* `C51_round_trip_refuted`: Refuted: decompress() does not always give back what compress() was given. With number 0, compress() leaves its argument as it is; if that is a zstd frame itself, decompress() decompresses it. And a BLOB comes back as TEXT, which SQLite never finds equal to the BLOB it was.
* `C52_given_up_refuted`: Refuted: after an error for which SQLite gives up the whole transaction by itself (a full disk, an I/O error) write() returns false, as for any error, and the handle still counts as inside a transaction. A command that goes on writes in autocommit mode: the write is in the database at once, and stays there after the rollback; it is not in the journal. If the command ends normally instead, the commit fails an assertion and the process stops.
* `C52_late_write_refuted`: Refuted: after a write has run over its time the handle refuses reads it should allow. The write throws before it notes that it is no longer writing; from then on, even after the rollback and for other commands that get the handle, reads that use random(), changes(), last_insert_rowid(), current_timestamp or sqlite_version() fail, until another write comes to its end.
* `C52_read_writes_refuted`: Refuted: read() also carries out statements that write. They change the database and are not kept for the journal, so followers never have the change; and the results in the cache are not dropped, so that later reads in the transaction do not show it. (While a command is peeked at the handle is set to query-only, which prevents this; while it is processed it is not.)
* `C52_stale_rewrite_refuted`: Refuted: with rewriting on, a write that is refused for another reason - it uses random(), say - is taken for one the handler wanted to rewrite. What is run instead is the text the handler gave for an earlier write, a second time, and the caller is told that all went well; if there was no earlier one, an assertion fails and the process stops.
* `C52_volatile_refuted`: Refuted: the list of functions whose results are not kept is incomplete. current_timestamp (and current_time, current_date, unixepoch, randomblob, total_changes) is not on it, so within one transaction a query with it returns the time of the first call again and again: a command that waits for a time to come by reading it never sees it come.
* `C52_volatile_write_refuted`: Refuted: a write may use functions that give something else on every node. Only five are refused; with randomblob(), total_changes(), current_date or current_time the text of the write goes into the journal, and each follower that runs it has its own result: the databases differ.
* `C52_whitelist_refuted`: Refuted: a whitelist set during a transaction does not hold for queries that were run before in it: their results come from the cache, with the columns that are not on the list. Setting an authorizer empties the cache; the whitelist is a public member and setting it does not.
* `C53_analyze_refuted`: Refuted: ANALYZE is on the list of what is always allowed in whitelist mode, although it writes: it fills SQLite's tables of statistics. Sent as a read, the change is not in the journal either.
* `C53_count_refuted`: Refuted: a whitelist does not hide how many rows a table has that is not on it. A query that only counts rows takes no column, so there is none to put on the list: SQLite asks about a column with an empty name, the answer is to ignore it, and that changes nothing.
* `C54_bytes_refuted`: Refuted: a blob that is not ASCII comes back longer: the bytes of an image, say, are no longer those of the database. NULL and the empty text come back alike.
* `C54_infinite_refuted`: Refuted: an infinite number is written as the word Inf, which is not JSON. The whole result is then read back as one without rows and without columns, and no error is reported.
* `C54_jsonb_refuted`: Refuted: a blob that could be JSON in SQLite's binary form, such as the one byte 1, comes back as that JSON: here the word true.
* `C54_long_text_refuted`: Refuted: a text of more than 16 megabytes is cut, with its closing quotation mark: the result is no JSON, and it is read back as one without rows and without columns.
* `C54_no_rows_refuted`: Refuted: a result without rows is the empty text, which is no result: its column names are lost, and reading it back fails.
* `C55_comment_refuted`: Refuted: a comment in front of a statement, as some drivers write it, is taken away but not the space after it, so that a SET that the port would answer itself goes to the database.
* `C55_foreign_keys_refuted`: Refuted: the question for foreign keys is understood only if the words information_schema are not all in small letters; with small letters the reply is the one without columns.
* `C55_infinite_refuted`: Refuted: so is a query whose result has an infinite number in it: the text of the result cannot be read as JSON, and what the client receives is not a reply.
* `C55_login_refuted`: Refuted: nobody has to say who they are. Whatever user and password are sent, the port says OK.
* `C55_long_row_refuted`: Refuted: a row of 16 MB is announced as one of no bytes, and the client takes what is in it for further packets.
* `C55_no_rows_refuted`: Refuted: a query with no rows in its result gets OK, as a statement that has no result does: the client does not see the columns.
* `C55_null_refuted`: Refuted: NULL is the empty text.
* `C55_number_refuted`: Refuted: answers from the database do not carry the number after that of the client's packet, as the protocol asks: a packet with the number 1 is answered as if it had the number 0.
* `C55_order_refuted`: Refuted: the order of answers is not that of the queries. If a query for the database arrives together with one that the port answers itself, the answer to the second comes first.
* `C55_pipelined_refuted`: Refuted: a client that does not wait for an answer before it sends its next query loses queries. Of two queries for the database that arrive together only the second is run, and there is only one answer.
* `C55_schema_refuted`: Refuted: queries about parts of MySQL's information schema that the port does not know are answered with a result of no columns, and that is not a reply in the protocol: the client cannot make sense of what it receives.
* `C55_swallowed_refuted`: Refuted: a statement is not run if the text information_schema.tables is anywhere in it, even in a literal: this row is never stored, and the client receives the names of the tables for it.
* `C55_variable_refuted`: Refuted: asked for one of its variables, the port gives no rows, although it has a value for it, and gives that value in the list of all of them. It looks for a variable whose name is the whole query.
* `C56_list_cells_refuted`: List style writes cells as they are: a line feed in a cell makes two rows of one.
* `C56_long_row_refuted`: Column style with a row that has more cells than there are names writes behind the end of the vector of widths.
* `C56_name_feed_refuted`: Column style splits cells at line feeds but not column names: a name with a line feed breaks the title line in two, and the names behind it are not above their columns.
* `C56_null_refuted`: The comment of formatCSV says that SQL NULL stays empty between separators while empty text is written as two quotes. NULL is written as two quotes as well, so the two cannot be told apart; nor can they in quote style, where NULL becomes an empty text.
* `C56_options_refuted`: FORMAT_OPTIONS has a separator and a text for NULL, but no form looks at them: a caller that asks for another separator in list style still gets bars.
* `C56_quote_type_refuted`: In quote style a text of digits is written as a number: the type of the value is lost, and with it leading zeros for a program that reads the literals.
* `C56_return_refuted`: Column style leaves carriage returns inside a line as they are and gives them no room: on a screen what follows them is written over the start of the line.
* `C56_tabs_cells_refuted`: Tabs style writes cells as they are: a cell with a tab reads as two cells, and the row seems to have a column more.
* `C57_bad_message_refuted`: The same message from a peer that has logged in ends the process as well.
* `C57_dropped_refuted`: A node that drops a connection loses the messages that it has sent on it and that are still in its own send buffer, even when the operating system takes bytes whenever it is asked: Socket::shutdown shuts both directions of the socket first, so the attempts of postPoll to send the rest can only fail. This is how a leader that shuts down leaves its followers (SQLiteNode.cpp 872-876), and how RECONNECT is sent (2244-2247).
* `C57_stranger_refuted`: The node port can be used by anyone to end the process: a connection whose first bytes are a message with a Content-Length that is not a number (or is negative) makes the parser throw an exception of the standard library, before anybody has logged in. SQLiteNode::postPoll catches only SException there, and nothing in the sync thread catches the rest.
* `C58_close_refuted`: Refuted: a connection that the other node is about to close is not kept. A client that writes "Connection: Close" - header values like this one are not sensitive to case - gets its command forwarded like that. The node that runs it closes the connection behind its answer, because it compares without regard to case; but it only repeats the header in its answer when it is spelled "close", and the node that forwarded the command compares exactly too, and keeps the connection. The next command can get it before the end of the connection is seen, is sent into it, and fails: 500 Internal Server Error for a command that had nothing to do with it.
* `C58_slash_refuted`: Refuted: connections to every address a command can be sent to are reused. A connection is asked for with the host of the address, but given back with the whole address. For an address with a slash, as "n2:8888/", there is no pool of that name: the connection is closed, and every command opens another.
* `C59_anywhere_refuted`: 200 with blanks around it is looked for in the whole line, so a proxy that reports a failure and mentions such a number is understood to have agreed: TLS is started, and its first message goes to a proxy that is not listening for it.
* `C59_behind_refuted`: What the proxy sends right behind its answer is thrown away with it, though it may be the server's already.
* `C59_no_reason_refuted`: A proxy need not say why: HTTP/1.1 200 with an empty reason is a legal answer. The blank behind 200 is cut off when the line is read, 200 with a blank on both sides is then not found, and the connection is given up; but the HTTPS manager takes the same line for the server's answer, and the request, which was never sent, is reported to have succeeded with 200.
* `C59_refused_refuted`: What a request is answered with is not always what the server said: when the proxy refuses, its answer is taken for the server's. A proxy that wants to be logged in to first (407), or cannot reach the server (503), gives the status of a request that never left, and the plugin that made the request cannot tell.
* `C59_spin_refuted`: While the proxy's answer is awaited, the request waits in the buffer, so the poll is asked to return as soon as the socket can be written to, which it can; and then nothing is written. The thread does not sleep until the proxy has answered.
* `C59_split_refuted`: When the proxy's answer is cut by the network between the last carriage return and the last line feed, it is taken to be whole (C14), and the line feed is what TLS receives as the beginning of the server's handshake, which then fails.
* `C60_command_refuted`: Refuted: the command is not always logged: a parameter called Command, in any letters, suppresses it, though its value is not logged.
* `C60_direct_refuted`: Refuted: a line that is sent directly to the syslog socket can be longer than the buffer it is made in. The identifier of the request is written in front of every line and is what the client sends; when it has 8192 bytes, memory behind the buffer is sent to syslog with every line that is logged for the request, or the process ends.
* `C60_forged_refuted`: Refuted: values are not escaped: a value can look like another parameter, and the same line is logged for different parameters.
* `C60_nul_refuted`: Refuted: what follows a NUL in a message or a value is not logged in syslog, parameters included.
* `C60_overwritten_refuted`: Refuted: the message itself can be missing in the record for Fluentd. Parameters are put into the same table; one called message, as there are in the code that handles messages from other nodes, takes the place of the message.
* `C61_lower_refuted`: The header promises that the result is lower case and ASCII only, and that characters it has no letter for are dropped (SDeburr.h 20-25). The code does none of this: letters keep their case and other characters stay as they are. A search that relies on it finds STRASSE and strasse different.
* `C61_malformed_refuted`: Bytes that are not UTF-8 are dropped in some places and kept in others: of the bytes C3 FF only the second goes, and applied again the first goes too. And an unfinished character can become a letter: E3 81, the beginning of any Hiragana character, is taken for U+00C1.
* `C61_missed_refuted`: Letters of Latin Extended-A are missing from the table. All of G and H with accents (U+011C to U+0127, among them the Turkish soft g) and the small d with caron are left as they are, and the capital D with stroke becomes a small d, because the list of the small letters names U+0110 where it should name U+010F (SDeburr.h 98).
* `C61_nul_refuted`: A text ends at its first NUL: DEBURR('a' || char(0) || 'b') is 'a', although SQL texts can hold NULs.
* `C62_backup_refuted`: A backup can be a copy of a database that is in use. An Attach is obeyed while the files are copied (BedrockServer.cpp 1713-1724 look only at _shutdownState, which is RUNNING in a detached server): the sync thread opens the database, and the node joins the cluster and writes, while the main thread copies the database file, then the write-ahead log, then the shared memory file. (A connection to the control port is needed that was opened before, because the main thread does not accept any meanwhile.)
* `C62_control_waits_refuted`: A command sent to the control port of a detached server can block it for ever. An ordinary command waits in the queue, where no worker takes it, and its connection keeps the shared lock of the control port. A BeginBackup that comes then on another connection begins a shutdown (it does not ask whether the server is detached), and the main thread waits for that lock exclusively (BedrockServer.cpp 1260) for ever: it accepts no connection, makes no backup, and looks at no signal.
* `C62_count_refuted`: When all commands are said to be finished there can be one. The main thread counts the commands before it looks whether there are connections (BedrockServer.cpp 1264-1268): a connection with "Connection: forget" that is in between reading its request and making a command of it when they are counted, and gone when the connections are, leaves a command in the queue. That one is run, however: the sync thread lets go of the database only when there is no command left (C62_let_go). If it is one for the future, the node stays up until its time has come.
* `C62_detach_twice_refuted`: A server that is sent Detach at the wrong time can never be attached again. Detach tells a server that is detached already so only if _syncLoopShouldBeRunning is false (BedrockServer.cpp 1474-1477), and that is not so in a server started detached (-bootstrap), nor between an Attach and the sync thread's waking up from its sleep(1). A Detach then begins another shutdown. The sync thread, asleep until _detach is false, does not see it; Attach is refused because the server is not RUNNING (1715), and only the sync thread makes it RUNNING again. The server stays without a database for ever, and a SIGTERM has no effect: _beginShutdown does nothing (1953), and shutdownComplete is false as long as _detach is true. A second SIGTERM aborts it.
* `C62_detached_term_refuted`: A SIGTERM does not stop a server that is detached. _beginShutdown clears the flag that the sync thread waits for (BedrockServer.cpp 1954), so the main thread finds the shutdown complete (1148-1157: not detached, and the sync loop is not running) and waits for the sync thread (main.cpp 444), and the sync thread takes the cleared flag for an Attach: it resets the server, opens the database and joins the cluster again (BedrockServer.cpp 52-62). The process goes on for ever with its command ports and its control port closed, and no later signal ends it. (shutdownWhileDetached, which main.cpp 426 looks at, is never set to true.)
* `C62_early_refuted`: If a SIGTERM comes when the server has been started but the main thread has not yet entered its loop (main.cpp 383), for instance while the server is constructed, that loop is skipped, and with it everything that begins a shutdown. The main thread goes on to delete the server (main.cpp 444) and waits there for the sync thread, which opens the database and works as ever: the node takes part in the cluster, and can come to lead it, with its command ports never opened. Nothing that happens later ends it, not even a second SIGTERM, because that is looked at before.
* `C62_other_refuted`: Signals other than SIGTERM and SIGINT are neither ignored, as the message in main.cpp 386 says, nor do they end the process. Any of them (SIGHUP, SIGUSR1, SIGCHLD) begins a shutdown (BedrockServer.cpp 1238-1240), which the server carries out: it closes its ports and its database, and the sync thread returns. But the main thread leaves its outer loop for SIGTERM and SIGINT only: it goes round that loop without waiting anywhere, for ever, in a process that does nothing, until SIGTERM comes.
* `C63_column_first_refuted`: addColumn() takes a column to be there if its name stands between spaces in the text. For a column that stands right after the opening parenthesis it does not, and adding the column again ends the process.
* `C63_column_mention_refuted`: A column whose name stands somewhere else in the text, as here in a constraint, is never added.
* `C63_column_untyped_refuted`: A column without a type is added the first time, and the second time ends the process.
* `C63_comment_refuted`: The text that SQLite gets has no line ends, so a comment in it reaches to its end: a definition with a comment to the end of the line, which SQLite accepts as it is, is refused and the process ends. [closes] says whether the parentheses outside of such comments close.
* `C63_first_words_refuted`: SQLite keeps the text without IF NOT EXISTS and with its first words in capitals. A definition that has IF NOT EXISTS, or create table in small letters, makes the table and is not recognized afterwards.
* `C63_index_case_refuted`: Checking an index takes no notice of the case of letters in literals: an index of other rows is taken for the right one.
* `C63_index_lines_refuted`: Of white space only spaces are overlooked in indexes: an index whose definition has been broken into lines is taken for a wrong one.
* `C63_literal_refuted`: Checking a table takes white space out of literals and between words too: a table with another default value, or with other columns, is taken for the right one.
* `C63_spelling_refuted`: Names are looked up as they are spelt, and SQLite does not tell capitals from small letters: if the table is there in another spelling the process ends.
* `C64_race_refuted`: A command reads the state of the node twice, first to see whether the database is ready, then to see whether the node leads. If the node becomes the leader in between the command writes before the upgrade.
* `C64_twice_refuted`: The sync thread reads that no upgrade is done before it reads that none is running. If the upgrade ends on another thread in between, a second one is run although the first has succeeded.
* `C65_before_1900_refuted`: The first of the month of a day before 1900 has a negative month in it, even without an offset.
* `C65_calendar_refuted`: A date that no calendar has, with a time that no clock shows, is taken as valid.
* `C65_month_00_refuted`: The month before January 1900 is given as the month 00 of 1900.
* `C65_no_month_refuted`: A text without a month is no error: what is read then is the front of an empty list.
* `C65_unreadable_refuted`: A text that is no timestamp is read as a time all the same: as the last day of 1899, wrapped around below zero.
* `C65_year_10000_refuted`: From the year 10000 on timestamps are no longer in the order of the times: the first second of the year 10000 is before the first second of the year 9999 as a text.
* `C65_zone_refuted`: Timestamps are written for UTC and read for the local time: an hour east of Greenwich the time read is an hour off.
* `C66_behind_refuted`: A node that has been away for long is called forked although its history is the beginning of its peer's: the commit it names is no longer in the peer's journal, the lookup gives an empty hash (SQLiteNode.cpp 1058-1060), and this is compared like any other one.
* `C66_half_refuted`: The check says that a node has forked from over half of the cluster, but exactly half is enough (SQLiteNode.cpp 2483): when the histories of a cluster of two diverge, both nodes stop.
* `C66_side_by_side_refuted`: Nodes with diverged histories can go on side by side, all messages delivered: each of them is with a third node that has less than both. What the third node does next decides which of them stops.
* `C66_torn_refuted`: A node can call a peer forked whose history is its own and one commit more. The count and the hash in a LOGIN are read one after the other (SQLiteNode.cpp 1503-1513) while another thread commits: the LOGIN has the count of one commit and the hash of the next one. In a cluster of two this ends the process of a healthy node.
* `C67_long_key_refuted`: A longer key is not hashed first as it should be: the loop goes on writing behind the end of the two strings (libstuff.cpp 2722-2726).
* `C67_not_digits_refuted`: The second step takes texts that are not base32hex: a group is read up to the first character that is no digit, and a sign makes it negative.
* `C67_nul_refuted`: What follows a NUL byte is lost when it is decrypted: padding is told from data by its value (libstuff.cpp 2441-2445).
* `C67_outside_table_refuted`: Characters below the digit 2 and a backslash are looked up outside the table (libstuff.cpp 408-410): the test has no lower bound, and its upper one lets through one place too many. So a text with a space, a line end or the digits 0 and 1 is not refused but read with whatever is there.
* `C67_vector_refuted`: The length of the vector is checked when decrypting but not when encrypting (libstuff.cpp 2424-2425): with a shorter one, memory behind it is used as if it belonged to it; one of 15 bytes works, but nothing can be decrypted with it.
* `C68_disk_full_refuted`: A disk that is full when the last buffer is written goes unnoticed, because nobody looks at what fclose returns: the copy is cut off and counts as done, and a text is saved in part although the save is said to be a success.
* `C68_load_error_refuted`: A file that could be read in part only is loaded in part, and loading it counts as a success.
* `C68_negative_refuted`: A value that starts with a dash, such as a negative number, is lost: it becomes an option of its own and the option it was meant for is set to nothing. Nothing is reported.
* `C68_no_path_refuted`: The extension of a library that is given without a path is kept in its name: the symbol looked for contains a dot, no library has such a symbol, and the server aborts. Without the extension, or with a path, it is found.
* `C68_old_wal_refuted`: A -wal file left by an earlier backup is not removed when the database has none now: it stays beside the new copy of the database, which it does not belong to.
* `C68_onto_itself_refuted`: A database in the directory of the backups is copied onto itself. Opening the copy for writing empties the database before it is read, and the backup counts as done: the database is lost.
* `C68_read_error_refuted`: A read error in the middle of the database is logged only: the copy is cut off, the backup counts as done and the server goes on.
* `C68_shadowed_refuted`: A library named like a built-in plugin is opened, but the built-in plugin is used in its place, without a word.
* `C68_wal2_refuted`: Databases are opened in WAL2 mode, where commits alternate between the files -wal and -wal2, or keep their page map in -pagemap, but neither -wal2 nor -pagemap is copied: what they hold is missing in the backup. -clean knows both.
* `C69_bracket_refuted`: Edits are taken out up to the first closing bracket, even one in their text: the rest of them is logged.
* `C69_cut_off_refuted`: Queries are cut to their greatest length before anything is taken out, and the text of a chat is taken out only up to a closing quote: a chat whose end is cut off is logged. Tokens are spared this by an optional quote.
* `C69_lines_refuted`: The text of a chat that goes over several lines is logged.
* `C69_query_log_refuted`: The file of queries gets every query without anything taken out.
* `C69_spelling_refuted`: One blank behind the colon, or lower case in an encrypted value, and nothing is taken out.
* `C70_absent_refuted`: SBefore and SAfter give the empty text both if there is nothing before or after what is looked for and if it is not there at all.
* `C70_bad_url_refuted`: A request to a URL without a host or with a port above 65535 ends the process: the answer 503 is for URLs of another protocol only.
* `C70_beginning_refuted`: A pattern for the beginning of the text, ^a, is found three times in aaa: what is left is searched as a text of its own.
* `C70_blanks_refuted`: A value of blanks is left out of a form with its name, and blanks at the beginning of a value are cut off.
* `C70_empty_form_refuted`: Composing a form of no values at all throws: the length of the empty text less 1 is the greatest size there is.
* `C70_endless_refuted`: The search for all matches of x* in the text xy never ends: the empty match in front of the y is found again and again.
* `C70_groups_refuted`: False: the text after the whole match with number i is that of group i. Groups that took no part in the match are left out, so the texts of later groups move up: with (a)|(b) on the text b, the text of the second group is in the place of the first.
* `C70_last_of_refuted`: SAfterLastOf does not look for the text it is given but for any of its characters: what is after the last => of key=>a>b comes out as b.
* `C70_modifier_refuted`: Texts that are no modifier are let through as one: the empty text, commas, and a list of several, which SQLite takes as separate arguments only while retryAfter is passed on as a single one (plugins/Jobs.cpp 972).
* `C70_plain_refuted`: A request to an http URL without a port goes, unencrypted, to port 443.
* `C70_port_refuted`: A port that is no number is accepted as port 0, one with something behind it as the number alone, and one of more than 32 bits as what is left of it: each makes a valid host.
* `C70_query_refuted`: A URL with a query right behind its host has the query in its host.
* `C70_replace_refuted`: What SReplace takes out can be there again afterwards.
* `C70_same_host_refuted`: Two peers on one host that are given without nodeName have the same name, the host: one of them is never found by it, so its connections are taken for those of the other.
* `C70_user_refuted`: The name and the password in a URL are taken for the host and the port.
* `C70_version_6_refuted`: An address of version 6 cannot be given: the first colon is taken for the one before the port.
* `C71_attempts_refuted`: Only the last attempt to have another node do it is reported as such. The time of an attempt that failed is reported as not accounted for.
* `C71_own_journal_refuted`: A table of one's own whose name begins with journal is left out of the report.
* `C71_two_hops_refuted`: A node that hands on a reply which was already handed on once loses what the node that did the work measured: the upstream names hold what the node in between measured, and the time of the escalation is that node's.
* `C71_unsaid_refuted`: Nothing is logged by the passing of time alone: what was measured stays unsaid until something else is measured.
* `C71_z_refuted`: The letter z never comes up in a random text.
* `C71_zero_refuted`: A time of zero is not there: a reply does not say that a command was not processed, it says nothing about it.
* `C72_comes_back_refuted`: What has been cleared comes back: a node that was not reached by ClearCrashedBedrockJobs brings its patterns along when it connects, and the others take them for new ones.
* `C72_from_the_beginning_refuted`: A job that is put back is due at the time it was created, not at the time it was scheduled for. A daily job that was created thirty days ago is then run for each of those days again: finished today, its next run is the second of them.
* `C72_more_words_refuted`: A job is handed out by the first word of the request, but put back only if the whole first line is GetJob or GetJobs. The job of a request that begins "GetJob HTTP/1.1" stays RUNNING forever if its answer is not sent.
* `C73_cancel_refuted`: CancelJob is the only command of the jobs plugin that is recognized by the whole first line. With anything behind its name nothing is checked and nothing is cancelled, and the answer is 200.
* `C73_nameless_refuted`: CreateJobs looks for the letters of name anywhere in the text of a job. A job without a name is accepted if they are in its data, and names can be of any length.
* `C73_negative_refuted`: A negative number that is read as unsigned becomes a very large one.
* `C73_no_such_day_refuted`: Days and times that do not exist are accepted as dates.
* `C73_priority_text_refuted`: A priority that is not a number counts as the priority 0, and what follows a number is ignored.
* `C73_wraps_refuted`: Numbers below -2147483648 wrap around when they are read as 32 bits: -4294967296 reads as 0 and counts as false.
* `C74_column_refuted`: The column counts bytes: behind a letter of two bytes the caret is one column too far to the right.
* `C74_cut_refuted`: The piece can end in the middle of a character: of a character that just fits, the bytes after the first are dropped and the first is kept, so what is answered is not UTF-8.
* `C74_empty_value_refuted`: An empty value disappears: "-nullvalue '' -csv" shows NULL as -csv, in the ordinary style.
* `C74_escaped_quote_refuted`: A backslash between quotes is an ordinary character: a quote behind it ends the quoted text. The comment in the code says the opposite.
* `C74_later_statement_refuted`: The offset of an error in a later statement counts from that statement, but is used for the whole query: in "BEGIN;SELEC 1;" the caret is under BEGIN.
* `C74_suppress_refuted`: SuppressResult does not suppress the result of .schema.
* `C74_tabs_refuted`: The options -tabs and -ascii are taken and change nothing.
* `C75_blank_key_refuted`: Keys with blanks in them are cut at the first: different rows get the same lock.
* `C75_journal_refuted`: A table of the application whose name begins with journal is taken for one of the journals: conflicts on it never lead to a lock.
* `C75_unknown_refuted`: If the log does not say what the page is part of, the whole message is taken for the name of the table.
* `C76_copy_refuted`: A result made as a copy of another still looks for names in the other one: undefined when that is gone, and what the other one says if that was used for another query.
* `C76_equality_refuted`: Two values that are equal to the same text need not be equal to each other: 1 and '1', NULL and the empty text.
* `C76_made_refuted`: Rows made without a result, as the MySQL plugin makes them, have no names although the result has.
* `C76_nul_refuted`: A text in the database is read up to its first NUL; a blob is read as it is.
* `C76_statements_refuted`: Of several statements in one query the names are those of the last, for the rows of all: a row of the first statement gives a value of its first column for a name it does not have.
* `C77_last_page_refuted`: The last page of the file is not loaded, whatever the file; of a file with one page nothing is.
* `C77_map_failed_refuted`: When the file cannot be mapped, the address that says so is given back as if it were a mapping.
* `C77_no_threads_refuted`: Where the number of processors is not known (0, which the standard allows) the pages are divided by zero.
* `C77_released_refuted`: When all goes well the file is neither unmapped nor closed.
* `C78_foreign_refuted`: A table of the application with the next name is taken for a journal, without a look at its columns, and the largest id in it is the number of commits.
* `C78_gap_refuted`: Journals behind a missing one are not looked for: with journal0000 dropped by hand, the commits in journal0001 are not seen, and the next commit gets a number that is taken.
* `C78_negative_refuted`: With less than -1 journals (which an option of 4294967294 becomes as an int) a new database cannot be opened.
* `C79_chosen_refuted`: False: the ID of a command is unique in the cluster. The header ID is taken from any client, on any port, so a client can choose the ID of another command, or none at all.
* `C79_random_text_refuted`: False: a random text made for other purposes (SRandom::randStr) can hold every letter and digit. The letter z never occurs in it: the remainder is taken by one less than the number of characters.
* `C79_restart_refuted`: False: IDs are not repeated. The number starts at 0 again with each start of the process and each time a node is attached again, so the IDs given before are given again.
* `C79_same_name_refuted`: False: a command is sent to a follower with the version of the leader also if two peers have the same name, as peers on one host without a name have (C70). The peer is looked up again by its name, and the first of that name is taken, whatever its version and state.
* `C80_detached_refuted`: False: BlockWrites is answered. While the node has no database (while it is detached, and before it is open), the thread that should take the locks ends without a word, the command waits for it forever and keeps its lock, so that no later BlockWrites and no UnblockWrites is ever answered either, also not when there is a database again.
* `C80_detaching_refuted`: False: BlockWrites does no harm to the node. The thread that takes the locks looks whether there is a database and then reads the pointer to it a second time. If the node is detached in between, that pointer is null and is followed.
* `C81_limits_refuted`: False: a limit of the blocking queue is at least what was asked for. The milliseconds times 1000 wrap: a window of 18446744073709552 milliseconds becomes one of 384 microseconds, and the next such command tells that it was 0.
* `C81_no_number_refuted`: False: a SetConflictParams that names no number changes nothing. It sets the number of retries to 0, which makes commands that conflict wait between tries instead of going to the blocking queue.
* `C81_priority_refuted`: False: after "200 OK" the node has the priority that the answer names. The number is cut to 32 bits: with 4294967301 the answer says that the new priority is 4294967301, but it is 5.
* `C81_retries_refuted`: False: the number of retries is the one that was asked for, and never negative. It is kept in 32 bits: 2147483648 becomes a negative number and 4294967296 becomes 0.
* `C81_sockets_refuted`: False: a negative number of threads for sockets is refused. -1 becomes 18446744073709551615, that is no limit.
* `C82_follower_refuted`: False: the number and the state in an answer to isFollower belong together. A node that begins to follow meanwhile answers that it does not follow and that its state is FOLLOWING.
* `C82_line_refuted`: False: the number and the state in an answer to handlingCommands belong together. The state is read again for its name, so a node that loses its leader meanwhile answers "HTTP/1.1 200 SEARCHING".
* `C82_status_refuted`: False: in the answer to Status, isLeader is true exactly if the state is LEADING. Both are read apart: a leader that begins to stand down meanwhile says isLeader true and STANDINGDOWN, and a node that becomes leader says isLeader false and LEADING.
* `C83_short_refuted`: False: the format depends only on the file and on what is asked for. Of a file shorter than the header it is not noticed how much was read: the rest comes from memory that was not initialized, so that a file with one letter can be taken for an SQLite database although an HC-tree database is asked for.
* `C84_colon_refuted`: False: the version tells the plugins apart whatever they say. A plugin whose version has a colon in it can be mistaken for two plugins.
* `C84_name_taken_refuted`: False: a server runs every plugin whose version it tells. Of two enabled plugins that give the same name only the first, in the order of the names they are enabled by, runs; the version of the other is told all the same.
* `C84_silent_refuted`: False: servers with different plugins tell different versions. A plugin that gives no version of itself, as none of the built-in ones does, leaves no trace in the version: a server with the plugin Jobs and one without it tell the same, so the checks for a different version between a follower and its leader do not see the difference.
* `C85_busy_refuted`: False: a write of several statements that succeeds is made exactly once. If the database is busy at the second statement all of them are done again, from the first, in the same transaction: the first is done twice.
* `C85_commit_inside_refuted`: False: whatever the query, its changes are made whole or not at all. Nobody looks for statements about transactions in the query: after a COMMIT in it what came before stays and what comes after is written at once, though the write says that it failed.
* `C85_rollback_inside_refuted`: False: if the write says that it succeeded its changes are in the database. A query that rolls back and begins anew loses what came before, and the write says that it succeeded.
* `C86_late_refuted`: False: a ClearBlockingQueue that has ended leaves the queue empty. A command that another thread puts into the queue while those that were there are being answered stays in it.
* `C86_left_behind_refuted`: False: when a node has stopped leading, its commands that block are in the main queue. A command that a thread took before, and puts into the queue of those that block after the others were moved, stays there, though the node does not lead.
<!-- end findings -->
