(** The control commands that change settings: BedrockServer.cpp 1725-1730, 1764-1910 (without BlockWrites and UnblockWrites, which are in
    Quiesce_Model), BedrockBlockingCommandQueue.cpp 53-70, 104-122 and SQLiteNode.cpp 2489-2552.
    Each setting is an atomic variable; here one command runs at a time.  An answer: the method line and the fields. *)
From Verif Require Import Base Dec Text_Spec Text_Model Table Timeout_Model Query_Model Attr_Model Settings_Spec.
Local Open Scope Z_scope.

Definition answer := (bytes * stable)%type.
Definition OK : bytes := lit "200 OK".
Definition bool_text (b : bool) : bytes := if b then lit "true" else lit "false".
(** 1776-1803, one of the four: the new value in microseconds and the answer with the previous value.  The product wraps. *)
Definition set_ms (key out : string) (t : stable) (old : Z) (r : stable) : Z * stable :=
  if isSet (lit key) t then
    let ms := calc64 (lit key) t in
    if 0 <=? ms then (u64 (u64 ms * 1000), tput (lit out) (decZ (old / 1000)) r) else (old, r)
  else (old, r).
(** 1725-1730, 1764-1807, 1859-1866 *)
Definition control (m : bytes) (t : stable) (s : settings) : answer * settings :=
  if ieqb m (lit "EnableSQLTracing") then
    let r := tput (lit "oldValue") (bool_text (tracing s)) [] in
    if isSet (lit "enable") t then
      let b := test (lit "enable") t in
      ((OK, tput (lit "newValue") (bool_text b) r),
       Settings (retries s) (page_locks s) (window s) (identifier_limit s) (command_limit s) (block_time s) (blocks s) (sockets s) b)
    else ((OK, r), s)
  else if ieqb m (lit "SetConflictParams") then
    let n := calc64 (lit "MaxConflictRetries") t in
    if 0 <=? n then
      ((OK, tput (lit "previousMaxConflictRetries") (decZ (retries s)) []),
       Settings (i32 n) (page_locks s) (window s) (identifier_limit s) (command_limit s) (block_time s) (blocks s) (sockets s) (tracing s))
    else ((OK, []), s)
  else if ieqb m (lit "SetConflictPageLocks") then
    ((OK, []), Settings (retries s) (test (lit "enable") t) (window s) (identifier_limit s) (command_limit s) (block_time s) (blocks s) (sockets s) (tracing s))
  else if ieqb m (lit "SetBlockingQueueTimeRateLimit") then
    let '(w, r) := set_ms "windowMS" "previousBlockingQueueWindowMS" t (window s) [] in
    let '(i, r) := set_ms "identifierThresholdMS" "previousBlockingQueueIdentifierThresholdMS" t (identifier_limit s) r in
    let '(c, r) := set_ms "commandThresholdMS" "previousBlockingQueueCommandThresholdMS" t (command_limit s) r in
    let '(b, r) := set_ms "blockDurationMS" "previousBlockingQueueBlockDurationMS" t (block_time s) r in
    ((OK, r), Settings (retries s) (page_locks s) w i c b (if test (lit "ClearBlocks") t then [] else blocks s) (sockets s) (tracing s))
  else if ieqb m (lit "SetMaxSocketThreads") then
    let n := Z.of_N (calcU64 (lit "socketThreadsCount") t) in
    if n =? 0 then ((lit "401 Don't Use Zero", []), s)
    else ((OK, []), Settings (retries s) (page_locks s) (window s) (identifier_limit s) (command_limit s) (block_time s) (blocks s) n (tracing s))
  else ((OK, []), s).

(** SQLiteNode.cpp 2489-2552: the priority only; the messages and the change of state are in Cluster_Model.  [inl]: what is thrown *)
Definition setPriority (p : Z) (n : node) : (bytes + Z) * node :=
  if (p <? 0) || (p =? 1) then (inl (lit "400 Invalid priority"), n)
  else match List.find (fun x => logged_in x && (0 <? p) && (peer_priority x =? p)) (peers n) with
       | Some x => (inl (lit "409 Priority " ++ decZ p ++ lit " already in use by " ++ peer_name x), n)
       | None =>
           let full := Z.of_nat (length (filter (fun x => negb (permafollower x)) (peers n))) in
           if (p =? 0) && (0 <? priority n) && (full <? (Z.of_nat (length (peers n)) + 1 + 1) / 2) then (inl (lit "409 Demoting would break quorum"), n)
           else if configured n =? p then (inr (configured n), n)
           else (inr (configured n), Node p (if (priority n =? -1) || (priority n =? 1) then priority n else p) (peers n))
       end.
(** BedrockServer.cpp 1867-1889; None: no sync node.  setPriority takes an int. *)
Definition control_priority (t : stable) (n : option node) : answer * option node :=
  if negb (isSet (lit "priority") t) then ((lit "400 Missing priority", []), n)
  else let p := calc64 (lit "priority") t in
    if (p <? 0) || (p =? 1) then ((lit "400 Invalid priority", []), n)
    else match n with
         | None => ((lit "500 No sync node", []), None)
         | Some n =>
             match setPriority (i32 p) n with
             | (inl e, n') => ((e, []), Some n')
             | (inr old, n') => ((OK, tput (lit "newPriority") (decZ p) (tput (lit "oldPriority") (decZ old) [])), Some n')
             end
         end.
(** 1890-1909; [db]: the hashes of the commits in the journals, None: no database *)
Definition control_hash (t : stable) (db : option (N -> option bytes)) : answer :=
  if negb (isSet (lit "commitCount") t) then (lit "400 Missing commitCount", [])
  else let n := calcU64 (lit "commitCount") t in
    if N.eqb n 0 then (lit "400 Invalid commitCount", [])
    else match db with
         | None => (lit "500 No database", [])
         | Some f => match f n with
                     | Some h => (OK, tput (lit "hash") h (tput (lit "commitCount") (dec n) []))
                     | None => (lit "404 Commit not found", [])
                     end
         end.
