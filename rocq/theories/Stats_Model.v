(** Model of what is measured: the times in a reply, the report of commits and the tables they use,
    performance timers and random texts. *)
From Verif Require Import Base Maps Text_Spec Text_Model Dec Table Schema_Model Addr_Model Stats_Spec.
Open Scope N_scope.

(** ** uint64_t *)
Definition two64 : N := 18446744073709551616.
Definition wadd (a b : N) : N := (a + b) mod two64.
Definition wsub (a b : N) : N := (a + two64 - b mod two64) mod two64.

(** ** Measuring a command *)
(* BedrockCommand.h 10-28 (enum TIMING_INFO) *)
Inductive kind :=
  | INVALID | PREPEEK | BLOCKING_PREPEEK | PEEK | BLOCKING_PEEK | PROCESS | BLOCKING_PROCESS | POSTPROCESS | BLOCKING_POSTPROCESS
  | COMMIT_WORKER | BLOCKING_COMMIT_WORKER | QUEUE_WORKER | QUEUE_BLOCKING | QUEUE_PAGE_LOCK.
Definition entry := (kind * N * N)%type.
(* BedrockCommand.h (timingInfo, _inProgressTiming), SQLiteCommand.h 48 (escalationTimeUS) *)
Record timed := { timingInfo : list entry; inProgress : entry; escalationTimeUS : N }.
(* SQLiteCommand.cpp 36, 77; BedrockCommand.cpp 17-45 *)
Definition fresh : timed := {| timingInfo := []; inProgress := (INVALID, 0, 0); escalationTimeUS := 0 |}.
(* BedrockCommand.cpp 73-83 (BedrockCommand::startTiming); the warning is left out *)
Definition startTiming (k : kind) (now : N) (c : timed) : timed :=
  {| timingInfo := timingInfo c; inProgress := (k, now, 0); escalationTimeUS := escalationTimeUS c |}.
(* BedrockCommand.cpp 85-101 (BedrockCommand::stopTiming): what is kept is the kind that was started; the warning is left out *)
Definition stopTiming (now : N) (c : timed) : timed :=
  {| timingInfo := timingInfo c ++ [(fst (fst (inProgress c)), snd (fst (inProgress c)), now)];
     inProgress := (INVALID, 0, 0); escalationTimeUS := escalationTimeUS c |}.
(* BedrockCore.h 22-31 (AutoTimer) *)
Definition auto (k : kind) (start now : N) (c : timed) : timed :=
  {| timingInfo := timingInfo c ++ [(k, start, now)]; inProgress := inProgress c; escalationTimeUS := escalationTimeUS c |}.
(* SQLiteClusterMessenger.cpp 290-302, 331-332 (SQLiteClusterMessenger::runOnPeer): set to the time at the start, to the difference at each end *)
Definition escalate (start now : N) (c : timed) : timed :=
  {| timingInfo := timingInfo c; inProgress := inProgress c; escalationTimeUS := wsub now start |}.

(* BedrockCore.cpp 88, 176, 280, 374 (which kind is measured in prePeekCommand, peekCommand, processCommand and postProcessCommand),
   BedrockServer.cpp 766 (committing), BedrockCommandQueue.cpp and BedrockBlockingCommandQueue.cpp (push and pop start and stop),
   BedrockServer.cpp 681 (the lock of a page), 290-332 of SQLiteClusterMessenger.cpp.
   One piece of what a command does, from [t] for [n] microseconds.  Simplified: the pieces do not overlap. *)
Definition piece (st : timed * N) (p : doing * N) : timed * N :=
  let '(c, t) := st in let t' := t + snd p in
  (match fst p with
   | Prepeeks b => auto (if b then BLOCKING_PREPEEK else PREPEEK) t t' c
   | Peeks b => auto (if b then BLOCKING_PEEK else PEEK) t t' c
   | Processes b => auto (if b then BLOCKING_PROCESS else PROCESS) t t' c
   | Postprocesses b => auto (if b then BLOCKING_POSTPROCESS else POSTPROCESS) t t' c
   | Commits b => auto (if b then BLOCKING_COMMIT_WORKER else COMMIT_WORKER) t t' c
   | Queued => stopTiming t' (startTiming QUEUE_WORKER t c)
   | QueuedBlocking => stopTiming t' (startTiming QUEUE_BLOCKING t c)
   | WaitsPage => auto QUEUE_PAGE_LOCK t t' c
   | Escalates => escalate t t' c
   | Else => c
   end, t').
Definition live (created : N) (h : history) : timed * N := fold_left piece h (fresh, created).

(** ** Adding up *)
(* BedrockCommand.cpp 238-250: the thirteen sums *)
Inductive total :=
  | PrePeekTotal | BlockingPrePeekTotal | PeekTotal | BlockingPeekTotal | ProcessTotal | BlockingProcessTotal
  | PostProcessTotal | BlockingPostProcessTotal | CommitWorkerTotal | BlockingCommitWorkerTotal
  | QueueWorkerTotal | QueueBlockingTotal | QueuePageLockTotal.
(* BedrockCommand.cpp 252-284: the sums an entry of each kind is added to *)
Definition adds (k : kind) (a : total) : bool :=
  match k, a with
  | PREPEEK, PrePeekTotal => true
  | BLOCKING_PREPEEK, PrePeekTotal | BLOCKING_PREPEEK, BlockingPrePeekTotal => true
  | PEEK, PeekTotal => true
  | BLOCKING_PEEK, PeekTotal | BLOCKING_PEEK, BlockingPeekTotal => true
  | PROCESS, ProcessTotal => true
  | BLOCKING_PROCESS, ProcessTotal | BLOCKING_PROCESS, BlockingProcessTotal => true
  | POSTPROCESS, PostProcessTotal => true
  | BLOCKING_POSTPROCESS, PostProcessTotal | BLOCKING_POSTPROCESS, BlockingPostProcessTotal => true
  | COMMIT_WORKER, CommitWorkerTotal => true
  | BLOCKING_COMMIT_WORKER, CommitWorkerTotal | BLOCKING_COMMIT_WORKER, BlockingCommitWorkerTotal => true
  | QUEUE_WORKER, QueueWorkerTotal => true
  | QUEUE_BLOCKING, QueueBlockingTotal => true
  | QUEUE_PAGE_LOCK, QueuePageLockTotal => true
  | _, _ => false
  end.
(* BedrockCommand.cpp 251-285: the loop, for one of the sums *)
Definition summed (a : total) (l : list entry) : N :=
  fold_left (fun acc e => if adds (fst (fst e)) a then wadd acc (wsub (snd e) (snd (fst e))) else acc) l 0.
Record report := { prePeekTime : N; peekTime : N; processTime : N; postProcessTime : N; totalTime : N; unaccountedTime : N;
                   escalationTime : N; commitTime : N; queueTime : N; queueBlockingTime : N; pageLockTime : N;
                   exclusiveTransactionLockTime : N; blockingCommitThreadTime : N }.
(* BedrockCommand.cpp 287-294, 339-362 (the log line; here in microseconds) *)
Definition reported (created now : N) (c : timed) : report :=
  let s a := summed a (timingInfo c) in
  let totalTime := wsub now created in
  let accounted := wadd (wadd (wadd (wadd (wadd (wadd (wadd (wadd (s PrePeekTotal) (s PeekTotal)) (s ProcessTotal)) (s PostProcessTotal)) (s CommitWorkerTotal))
                     (escalationTimeUS c)) (s QueueWorkerTotal)) (s QueueBlockingTotal)) (s QueuePageLockTotal) in
  let exclusive := wadd (wadd (s BlockingPeekTotal) (s BlockingProcessTotal)) (s BlockingCommitWorkerTotal) in
  {| prePeekTime := s PrePeekTotal; peekTime := s PeekTotal; processTime := s ProcessTotal; postProcessTime := s PostProcessTotal;
     totalTime := totalTime; unaccountedTime := wsub totalTime accounted;
     escalationTime := escalationTimeUS c; commitTime := s CommitWorkerTotal; queueTime := s QueueWorkerTotal;
     queueBlockingTime := s QueueBlockingTotal; pageLockTime := s QueuePageLockTotal;
     exclusiveTransactionLockTime := exclusive;
     blockingCommitThreadTime := wadd (wadd exclusive (s BlockingPrePeekTotal)) (s BlockingPostProcessTotal) |}.

(** ** The headers of the reply *)
(* BedrockCommand.cpp 296-304: the values and their names, in the order of the std::map *)
Definition pairs (r : report) : list (bytes * N) :=
  [(lit "peekTime", peekTime r); (lit "postProcessTime", postProcessTime r); (lit "prePeekTime", prePeekTime r);
   (lit "processTime", processTime r); (lit "totalTime", totalTime r); (lit "unaccountedTime", unaccountedTime r)].
(* BedrockCommand.cpp 320: the name a value of the other node gets *)
Definition upstream (n : bytes) : bytes :=
  lit "upstream" ++ match n with [] => [] | c :: n' => upper c :: n' end.
(* BedrockCommand.cpp 315-320 *)
Definition promote (t : stable) (n : bytes) : stable :=
  match tfind n t with Some v => tput (upstream n) v (tdel n t) | None => t end.
(* BedrockCommand.cpp 365-369 *)
Definition put_own (t : stable) (p : bytes * N) : stable :=
  if snd p =? 0 then t else tput (fst p) (dec (snd p)) t.
(* BedrockCommand.cpp 236-386 (BedrockCommand::finalizeTimingInfo): the headers of the reply afterwards *)
Definition finalizeTimingInfo (r : report) (t : stable) : stable :=
  let t1 := fold_left promote (map fst (pairs r)) t in
  let t2 := fold_left put_own (pairs r) t1 in
  if andb (negb (escalationTime r =? 0)) (match tfind (lit "escalationTime") t2 with Some _ => false | None => true end)
  then tput (lit "escalationTime") (dec (escalationTime r)) t2 else t2.

(** ** The report of the tables that commands use *)
(* BedrockConflictManager.h (BedrockConflictManagerCommandInfo) *)
Record info := { count : N; tableUseCounts : list (bytes * N) }.
(* BedrockConflictManager.cpp 26-33 *)
Definition skipped (table : bytes) : bool := orb (prefixb (lit "journal") table) (bytes_eqb table (lit "json_each")).
(* BedrockConflictManager.cpp 36-43 *)
Definition use (m : list (bytes * N)) (table : bytes) : list (bytes * N) :=
  if skipped table then m else
  match aget bytes_eqb table m with None => aset bytes_eqb table 1 m | Some n => aset bytes_eqb table (n + 1) m end.
(* BedrockConflictManager.cpp 8-46 (BedrockConflictManager::recordTables); [tables] is a std::set, so no table is there twice.
   Called at BedrockServer.cpp 796.  Simplified: the counters do not wrap around. *)
Definition recordTables (m : list (bytes * info)) (e : bytes * list bytes) : list (bytes * info) :=
  let i := match aget bytes_eqb (fst e) m with Some i => i | None => {| count := 0; tableUseCounts := [] |} end in
  aset bytes_eqb (fst e) {| count := count i + 1; tableUseCounts := fold_left use (snd e) (tableUseCounts i) |} m.
Definition recorded (l : list (bytes * list bytes)) : list (bytes * info) := fold_left recordTables l [].

(** ** Performance timers *)
(* SPerformanceTimer.h; times in nanoseconds, as std::chrono::steady_clock has them *)
Record perf := { lastLog : N; totals : list (bytes * N); logged : list (N * list (bytes * N)) }.
Definition ten_seconds : N := 10000000000.
Definition got (k : bytes) (m : list (bytes * N)) : N := match aget bytes_eqb k m with Some n => n | None => 0 end.
(* SPerformanceTimer.cpp 13-42 (SPerformanceTimer::start and SPerformanceTimer::stop): something of a type that was begun
   and ended.  A line in the log is the time it is about and the totals in it. *)
Definition measure (defaults : list (bytes * N)) (p : perf) (e : bytes * N * N) : perf :=
  let '(k, start, now) := e in
  let t := match aget bytes_eqb k (totals p) with Some n => aset bytes_eqb k (n + (now - start)) (totals p) | None => aset bytes_eqb k (now - start) (totals p) end in
  if ten_seconds <? now - lastLog p then {| lastLog := now; totals := defaults; logged := logged p ++ [(now - lastLog p, t)] |}
  else {| lastLog := lastLog p; totals := t; logged := logged p |}.
(* SPerformanceTimer.cpp 5-11 *)
Definition measured (defaults : list (bytes * N)) (begun : N) (l : list (bytes * N * N)) : perf :=
  fold_left (measure defaults) l {| lastLog := begun; totals := defaults; logged := [] |}.

(** ** Random texts *)
(* SRandom.cpp 26 *)
Definition characters : bytes := lit "0123456789ABCDEFGHIJKLMNOPQRSTUVWXYZabcdefghijklmnopqrstuvwxyz".
(* SRandom.cpp 24-34 (SRandom::randStr): [rs] are the numbers rand64() gives, one for each character *)
Definition randStr (rs : list N) : bytes :=
  map (fun r => nth (N.to_nat (r mod (N.of_nat (length characters) - 1))) characters zero) rs.
