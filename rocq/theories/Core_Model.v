(** One database handle and the stages of a command on it: SQLite.cpp (beginTransaction 517-580, _writeIdempotent 853-927,
    prepare 929-1077, commit 1079-1229, rollback 1253-1305, setUpdateNoopMode 1588-1604, setQueryOnly 1645-1650),
    SQLiteCore.cpp 12-57, BedrockCore.cpp 77-475, BedrockCommand.cpp 228-234. *)
From Verif Require Import Base Core_Spec.

(** The members of SQLite that these functions use.  [h_sql]: SQLite itself is inside a transaction
    (sqlite3_get_autocommit is 0); [h_pending]: the changes of that transaction; [h_query]: _uncommittedQuery, statement by
    statement; [h_hash]: _uncommittedHash is set; [h_locked]: _mutexLocked; [h_held]: how often this thread holds
    commitLock, a recursive mutex (SQLite.h 402); [h_db], [h_journal]: the changes and the journal rows in the database
    that come from this handle. *)
Record handle := H {
  h_inside : bool; h_sql : bool; h_pending : list bytes; h_query : list statement; h_hash : bool;
  h_locked : bool; h_held : nat; h_queryonly : bool; h_noop : bool; h_timeout : bool; h_abort : bool;
  h_db : list bytes; h_journal : list (list statement) }.

Definition set_limits (b : bool) (h : handle) : handle :=   (* setTimeout, setAbortRef / clearTimeout, clearAbortRef *)
  H (h_inside h) (h_sql h) (h_pending h) (h_query h) (h_hash h) (h_locked h) (h_held h) (h_queryonly h) (h_noop h) b b (h_db h) (h_journal h).
Definition setQueryOnly (b : bool) (h : handle) : handle :=
  H (h_inside h) (h_sql h) (h_pending h) (h_query h) (h_hash h) (h_locked h) (h_held h) b (h_noop h) (h_timeout h) (h_abort h) (h_db h) (h_journal h).
(** 1588-1604 *)
Definition NOOP_ON : statement := (lit "PRAGMA noop_update=ON;", false).
Definition NOOP_OFF : statement := (lit "PRAGMA noop_update=OFF;", false).
Definition setUpdateNoopMode (b : bool) (h : handle) : handle :=
  if Bool.eqb (h_noop h) b then h
  else H (h_inside h) (h_sql h) (h_pending h) (if h_inside h then h_query h ++ [if b then NOOP_ON else NOOP_OFF] else h_query h)
         (h_hash h) (h_locked h) (h_held h) (h_queryonly h) b (h_timeout h) (h_abort h) (h_db h) (h_journal h).

(** 1253-1305.  When SQLite has undone the transaction itself there is nothing left to undo (1265-1273). *)
Definition rollback (h : handle) : handle :=
  if h_inside h
  then H false false [] [] false false (if h_locked h then pred (h_held h) else h_held h)
         (h_queryonly h) (h_noop h) (h_timeout h) (h_abort h) (h_db h) (h_journal h)
  else h.

Inductive began := BeginThrows | Begun (ok : bool).
(** 517-580, not on the sync thread: the lock is waited for.  [ok]: SQLite accepts the BEGIN; when it does not, SQLite stays as
    it was. *)
Definition beginTransaction (exclusive ok : bool) (h : handle) : handle * began :=
  let h := if exclusive
           then H (h_inside h) (h_sql h) (h_pending h) (h_query h) (h_hash h) true (S (h_held h)) (h_queryonly h) (h_noop h)
                  (h_timeout h) (h_abort h) (h_db h) (h_journal h)
           else h in
  if h_inside h || h_hash h || negb (match h_query h with [] => true | _ => false end) then (rollback h, BeginThrows)
  else (H ok (ok || h_sql h) (if ok then [] else h_pending h) [] false (h_locked h) (h_held h) (h_queryonly h) (h_noop h) (h_timeout h) (h_abort h) (h_db h) (h_journal h), Begun ok).

(** 758-821, 853-927: outside a transaction it throws; with query_only SQLite refuses the write; outside a SQLite
    transaction the statement is committed on its own.  A statement that changed something is added to _uncommittedQuery,
    but only after the test for time-out and abort (907-920). *)
Definition sql_change (q : bytes) (h : handle) : handle :=
  if h_sql h
  then H (h_inside h) (h_sql h) (h_pending h ++ [q]) (h_query h) (h_hash h) (h_locked h) (h_held h) (h_queryonly h) (h_noop h) (h_timeout h) (h_abort h) (h_db h) (h_journal h)
  else H (h_inside h) (h_sql h) (h_pending h) (h_query h) (h_hash h) (h_locked h) (h_held h) (h_queryonly h) (h_noop h) (h_timeout h) (h_abort h) (h_db h ++ [q]) (h_journal h).
Definition keep (s : statement) (h : handle) : handle :=
  H (h_inside h) (h_sql h) (h_pending h) (h_query h ++ [s]) (h_hash h) (h_locked h) (h_held h) (h_queryonly h) (h_noop h) (h_timeout h) (h_abort h) (h_db h) (h_journal h).
Definition undo_all (h : handle) : handle :=
  H (h_inside h) false [] (h_query h) (h_hash h) (h_locked h) (h_held h) (h_queryonly h) (h_noop h) (h_timeout h) (h_abort h) (h_db h) (h_journal h).
Definition write (h : handle) (c : call) : handle :=
  if (match c_kind c with Plain => h_noop h | _ => false end) || negb (h_inside h) then h
  else match c_outcome c with
       | Changed => if h_queryonly h then h else keep (c_query c, true) (sql_change (c_query c) h)
       | ChangedTooLate => if h_queryonly h then h else sql_change (c_query c) h
       | NothingChanged => match c_kind c with Unmodified => keep (c_query c, false) h | _ => h end
       | UndoneAll => if h_queryonly h then h else undo_all h
       | Failed | Violated | Interrupted => h
       end.

(** The response and the command: [m_complete] is command->complete. *)
Record reply := Reply { r_method : bytes; r_items : list bytes }.
Record cmd := Cmd { m_reply : reply; m_complete : bool }.
(* the command's own code runs *)
Definition perform (b : behaviour) (h : handle) (r : reply) : handle * reply :=
  (fold_left write (b_calls b) h, Reply (match b_method b with Some m => m | None => r_method r end) (r_items r ++ b_items b)).
(** BedrockCommand.cpp 228-234; [prePeeks]: shouldPrePeek() *)
Definition reset_for_peek (prePeeks : bool) (r : reply) : reply := if prePeeks then r else Reply [] [].
(** BedrockCore.cpp 438-476 (the commitCount header is left out) *)
Definition handle_exception (m : bytes) (items : list bytes) (r : reply) : reply :=
  Reply (match m with [] => r_method r | _ => m end) (match items with [] => r_items r | _ => items end).
(** What the catch blocks make of an exception: 222-231 and, with the constraint violation, 324-356. *)
Definition ABORTED : bytes := lit "556 Aborted".
Definition TIMEOUT : bytes := lit "555 Timeout".
Definition UNHANDLED : bytes := lit "500 Unhandled Exception".
Definition caught (timeout_text : bytes) (in_process : bool) (e : stop) (r : reply) : reply :=
  match e with
  | SExc m items => handle_exception m items r
  | TimeoutError => handle_exception timeout_text [] r
  | ConstraintError => if in_process then Reply (lit "400 Unique Constraints Violation") (r_items r) else Reply UNHANDLED (r_items r)
  | OtherError => Reply UNHANDLED (r_items r)
  end.
Definition default_ok (r : reply) : reply := Reply (match r_method r with [] => lit "200 OK" | m => m end) (r_items r).

(** What happens around one stage: the client is gone before it (and after it), time is over, BEGIN is accepted, and time is
    over when the blocking thread lowers the time-out. *)
Record situation := Situation { s_gone : bool; s_expired : bool; s_begin : bool; s_expired_later : bool; s_gone_later : bool }.

(** 86-147: prePeekCommand *)
Definition prePeekCommand (s : situation) (b : behaviour) (h : handle) (c : cmd) : handle * cmd :=
  let finish h c := (setQueryOnly false (set_limits false h), c) in
  let failed e h r := finish h (Cmd (caught (lit "555 Timeout prePeeking command") false e r) true) in
  if s_gone s then failed (SExc ABORTED []) h (m_reply c)
  else if s_expired s then failed (SExc TIMEOUT []) h (m_reply c)
  else
    let (h, r) := perform b (setQueryOnly true (set_limits true h)) (m_reply c) in
    match b_end b with
    | Some e => failed e h r
    | None => if s_gone_later s then failed (SExc ABORTED []) h r else finish h (Cmd r (m_complete c))
    end.

Inductive peek_result := COMPLETE | SHOULD_PROCESS.
(** 149-248: peekCommand; [done]: what the command's peek returns *)
Definition peekCommand (exclusive prePeeks done : bool) (s : situation) (b : behaviour) (h : handle) (c : cmd) : handle * cmd * peek_result :=
  let over h r := (setQueryOnly false (set_limits false (rollback h)), Cmd r true, COMPLETE) in
  let failed e h r := over h (caught (lit "555 Timeout peeking command") false e r) in
  if s_gone s then failed (SExc ABORTED []) h (m_reply c)
  else if s_expired s then failed (SExc TIMEOUT []) h (m_reply c)
  else
    let h := set_limits true h in
    match beginTransaction exclusive (s_begin s) h with
    | (h, BeginThrows) => failed (SExc (lit "Attempted to begin transaction while in invalid state") []) h (m_reply c)
    | (h, Begun false) => failed (SExc (if exclusive then lit "501 Failed to begin exclusive transaction" else lit "501 Failed to begin shared transaction") []) h (m_reply c)
    | (h, Begun true) =>
        if exclusive && s_expired_later s then failed (SExc TIMEOUT []) h (m_reply c)
        else
          let (h, r) := perform b (setQueryOnly true h) (reset_for_peek prePeeks (m_reply c)) in
          match b_end b with
          | Some e => failed e h r
          | None =>
              if s_gone_later s then failed (SExc ABORTED []) h r
              else if done then over h (default_ok r)
              else (setQueryOnly false (set_limits false h), Cmd r (m_complete c), SHOULD_PROCESS)
          end
    end.

Inductive process_result := NEEDS_COMMIT | NO_COMMIT_REQUIRED.
(** 250-370: processCommand; [mocked]: the request has mockRequest; [commit_empty]: shouldCommitEmptyTransactions *)
Definition processCommand (exclusive mocked commit_empty : bool) (s : situation) (b : behaviour) (h : handle) (c : cmd) : handle * cmd * process_result :=
  let over needs h r := (set_limits false (setUpdateNoopMode false h), Cmd r (negb needs), if needs then NEEDS_COMMIT else NO_COMMIT_REQUIRED) in
  let failed e h r := over false (rollback h) (caught (lit "555 Timeout processing command") true e r) in
  if s_gone s then failed (SExc ABORTED []) h (m_reply c)
  else if s_expired s then failed (SExc TIMEOUT []) h (m_reply c)
  else
    let h := set_limits true h in
    let start h :=
      let h := setUpdateNoopMode mocked h in
      let (h, r) := perform b h (m_reply c) in
      match b_end b with
      | Some e => failed e h r
      | None =>
          if s_gone_later s then failed (SExc ABORTED []) h r
          else if match h_query h with [] => negb commit_empty | _ => false end
               then over false (rollback h) (default_ok r)
               else over true h (default_ok r)
      end in
    if h_inside h then start h
    else match beginTransaction exclusive (s_begin s) h with
         | (h, BeginThrows) => failed (SExc (lit "Attempted to begin transaction while in invalid state") []) h (m_reply c)
         | (h, Begun false) => failed (SExc (if exclusive then lit "501 Failed to begin exclusive transaction" else lit "501 Failed to begin shared transaction") []) h (m_reply c)
         | (h, Begun true) => if exclusive && s_expired_later s then failed (SExc TIMEOUT []) h (m_reply c) else start h
         end.

(** 372-436: postProcessCommand *)
Definition postProcessCommand (s : situation) (b : behaviour) (h : handle) (c : cmd) : handle * cmd :=
  let finish h r := (setQueryOnly false (set_limits false h), Cmd r true) in
  let failed e h r := finish h (caught (lit "555 Timeout postProcessing command") false e r) in
  if s_gone s then failed (SExc ABORTED []) h (m_reply c)
  else if s_expired s then failed (SExc TIMEOUT []) h (m_reply c)
  else
    let (h, r) := perform b (setQueryOnly true (set_limits true h)) (m_reply c) in
    match b_end b with
    | Some e => failed e h r
    | None => if s_gone_later s then failed (SExc ABORTED []) h r else finish h r
    end.

(** What happens to a commit: the lock is got in time (and the client is still there), the journal row goes in, the node still
    leads, commits are allowed, another transaction conflicts. *)
Record fate := Fate { f_lock : bool; f_row : bool; f_leading : bool; f_enabled : bool; f_conflict : bool }.
Inductive commit_result := CommitTrue | CommitFalse | CommitAborts.      (* the last: SASSERT *)
(** SQLite.cpp 929-1077: prepare; the trimming of the journal (C16) and the prepare handler of plugins are left out.
    Outside a SQLite transaction the journal row is committed on its own. *)
Definition prepare (f : fate) (h : handle) : handle * option bool :=
  if negb (h_inside h) then (h, None)
  else if negb (h_locked h) && negb (f_lock f) then (h, Some false)
  else
    let h := H (h_inside h) (h_sql h) (h_pending h) (h_query h) true true (if h_locked h then h_held h else S (h_held h))
               (h_queryonly h) (h_noop h) (h_timeout h) (h_abort h) (h_db h) (h_journal h) in
    if negb (f_row f) then (rollback h, Some false)
    else if h_sql h then (h, Some true)
    else (H (h_inside h) (h_sql h) (h_pending h) (h_query h) (h_hash h) (h_locked h) (h_held h)
            (h_queryonly h) (h_noop h) (h_timeout h) (h_abort h) (h_db h) (h_journal h ++ [h_query h]), Some true).
(** SQLiteCore.cpp 12-52 with SQLite.cpp 1079-1229: a COMMIT outside a SQLite transaction is an error, which is neither
    SQLITE_OK nor SQLITE_BUSY_SNAPSHOT (1139). *)
Definition commit (f : fate) (h : handle) : handle * commit_result :=
  match prepare f h with
  | (h, None) => (h, CommitAborts)
  | (h, Some false) => (rollback h, CommitFalse)
  | (h, Some true) =>
      if negb (f_leading f) then (rollback h, CommitFalse)
      else if negb (f_enabled f) then (rollback h, CommitFalse)
      else if negb (h_sql h) then (h, CommitAborts)
      else if f_conflict f then (rollback h, CommitFalse)
      else (H false false [] [] false false (pred (h_held h)) (h_queryonly h) (h_noop h) (h_timeout h) (h_abort h)
              (h_db h ++ h_pending h) (h_journal h ++ [h_query h]), CommitTrue)
  end.

(** One attempt at a command, as in BedrockServer.cpp 671-801 on a leader without HTTPS requests. *)
Record attempt := Attempt {
  a_exclusive : bool; a_prePeeks : bool; a_done : bool; a_mocked : bool; a_empty : bool;
  a_pre : situation * behaviour; a_peek : situation * behaviour; a_process : situation * behaviour; a_fate : fate }.
Inductive ending := Answered | Committed | Retry | Aborts.
Definition try (a : attempt) (h : handle) (c : cmd) : handle * cmd * ending :=
  let (h, c) := if a_prePeeks a then prePeekCommand (fst (a_pre a)) (snd (a_pre a)) h c else (h, c) in
  if m_complete c then (h, c, Answered)
  else match peekCommand (a_exclusive a) (a_prePeeks a) (a_done a) (fst (a_peek a)) (snd (a_peek a)) h c with
       | (h, c, COMPLETE) => (h, c, Answered)
       | (h, c, SHOULD_PROCESS) =>
           match processCommand (a_exclusive a) (a_mocked a) (a_empty a) (fst (a_process a)) (snd (a_process a)) h c with
           | (h, c, NO_COMMIT_REQUIRED) => (h, c, Answered)
           | (h, c, NEEDS_COMMIT) =>
               match commit (a_fate a) h with
               | (h, CommitTrue) => (h, Cmd (m_reply c) true, Committed)
               | (h, CommitFalse) => (h, c, Retry)
               | (h, CommitAborts) => (h, c, Aborts)
               end
           end
       end.
