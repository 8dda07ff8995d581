(** Who may give control commands: BedrockServer.cpp 917-937, 1438-1447, 1634-1669, 2187-2222, and the copy of a request
    that is sent to another node, SQLiteClusterMessenger.cpp 136-164. *)
From Verif Require Import Base Dec Text_Spec Text_Model Table Http_Model Http_Spec Control_Spec.

(** inet_ntoa *)
Definition ntoa (a : address) : bytes :=
  let '(a, b, c, d) := a in
  dec (bcode a) ++ lit "." ++ dec (bcode b) ++ lit "." ++ dec (bcode c) ++ lit "." ++ dec (bcode d).

(** operator[] of the table creates an empty entry. *)
Definition touch (k : bytes) (t : stable) : stable := match tfind k t with Some _ => t | None => tput k [] t end.
Definition SOURCE : bytes := lit "_source".
(** 2187-2222, the request only: [treat_as_local] for the private command port (2347). *)
Definition buildCommandFromRequest (treat_as_local : bool) (ip : address) (t : stable) : stable :=
  let t := touch (lit "Connection") t in
  let t := if negb treat_as_local && negb (bytes_eqb (ntoa ip) (lit "127.0.0.1")) then tput SOURCE (ntoa ip) t else t in
  tdel (lit "serializedData") (tdel (lit "httpsRequests") t).

(** 1438-1447; the names are in BedrockServer.h. *)
Definition isStatusCommand (m : bytes) : bool := existsb (ieqb m) (map lit ["GET /status/isFollower HTTP/1.1"; "GET /status/handlingCommands HTTP/1.1"; "Ping"; "Status"]%string).
(** 1634-1657 *)
Definition isControlCommand (m : bytes) : bool := existsb (ieqb m) (map lit
  ["BeginBackup"; "SuppressCommandPort"; "ClearCommandPort"; "ClearCrashCommands"; "ConflictReport"; "Detach"; "Attach"; "SetConflictParams";
   "SetConflictPageLocks"; "EnableSQLTracing"; "BlockWrites"; "UnblockWrites"; "SetMaxSocketThreads"; "SetBlockingQueueTimeRateLimit";
   "ClearBlockingQueue"; "SetPriority"; "GetCommitHash"; "CRASH_COMMAND"]%string).
(** 1660-1669 *)
Definition isNonSecureControlCommand (m : bytes) : bool :=
  existsb (ieqb m) (map lit ["SuppressCommandPort"; "ClearCommandPort"; "GetCommitHash"; "CRASH_COMMAND"]%string).

Inductive handling := Status | Control | Unauthorized | NotControl.
(** 917-937 *)
Definition handleIfStatusOrControl (m : bytes) (t : stable) : handling :=
  if isStatusCommand m then Status
  else if isControlCommand m then
    if match tfind SOURCE t with Some (_ :: _) => false | _ => true end || isNonSecureControlCommand m then Control else Unauthorized
  else NotControl.

(** A request as it arrives on a socket, 2345-2354. *)
Definition on_request (treat_as_local : bool) (ip : address) (m : bytes) (t : stable) : handling :=
  handleIfStatusOrControl m (buildCommandFromRequest treat_as_local ip t).

(** SQLiteClusterMessenger.cpp 141-164: what is sent to the other node's private port, for a command without HTTPS
    requests and without data of its own. *)
Definition escalated (timeout id : bytes) (t : stable) : stable := tput (lit "ID") id (tput (lit "timeout") timeout t).
Definition forward (gz : bytes -> bytes) (timeout id : bytes) (ip : address) (m : bytes) (t : stable) (c : bytes) : option bytes :=
  SComposeHTTP gz m (escalated timeout id (buildCommandFromRequest false ip t)) c.
