(** The ports of the server: BedrockServer.cpp 991-1015, 1181-1235, 1403-1436, 1951-1990, 2070-2180, 2339, 2448 and
    SQLiteNode.cpp 992-1006.

    Every function below runs under _portMutex, so each is one step; a port is open or not (opening it always
    succeeds; openPort aborts otherwise).  The plugin ports are opened and closed together and are one field. *)
From Verif Require Import Base Port_Spec.

Record server := mkServer {
  reasons : list bytes;             (* _commandPortBlockReasons, BedrockServer.h:300 *)
  likely : bool;                    (* _isCommandPortLikelyBlocked, h:308 *)
  public : bool; private : bool; control : bool; plugin : bool;     (* h:407-416, _portPluginMap *)
  up : bool;                        (* _shutdownState == RUNNING *)
  state : bool;                     (* getState() is LEADING or FOLLOWING *)
  lag : bool }.                     (* SQLiteNode.h:316: _blockedCommandPortForBeingBehind *)

(** BedrockServer.cpp:1020-1030 and 1098. *)
Definition s_init : server := mkServer [] false false false true false true false false.

(** 1403-1413. *)
Definition blockCommandPort (r : bytes) (s : server) : server :=
  let rs := r :: reasons s in
  match rs with
  | [_] => mkServer rs true false (private s) (control s) false (up s) (state s) (lag s)
  | _ => mkServer rs true (public s) (private s) (control s) (plugin s) (up s) (state s) (lag s)
  end.
Fixpoint erase (r : bytes) (l : list bytes) : list bytes :=
  match l with [] => [] | x :: l' => if bytes_eqb r x then l' else x :: erase r l' end.
(** 1415-1428. *)
Definition unblockCommandPort (r : bytes) (s : server) : server :=
  let rs := erase r (reasons s) in
  mkServer rs (match rs with [] => false | _ => likely s end) (public s) (private s) (control s) (plugin s) (up s) (state s) (lag s).
Definition set_lag (b : bool) (s : server) : server :=
  mkServer (reasons s) (likely s) (public s) (private s) (control s) (plugin s) (up s) (state s) b.
(** 1188-1230. *)
Definition postPoll (s : server) : server :=
  match reasons s with
  | [] => if state s && up s then mkServer [] (likely s) true true true true (up s) (state s) (lag s) else s
  | _ => s
  end.
(** 1951-1986. *)
Definition beginShutdown (detach : bool) (s : server) : server :=
  if up s then mkServer (reasons s) (likely s) false false (if detach then control s else false) false false (state s) (lag s) else s.
(** 991-1015; a new SQLiteNode is made afterwards, with its member false. *)
Definition resetServer (s : server) : server :=
  mkServer [] (likely s) false false (control s) (plugin s) true (state s) false.
(** Conversion of an unsigned difference to int64_t, SQLiteNode.cpp:995. *)
Definition int64_of (z : Z) : Z := ((z + 2 ^ 63) mod 2 ^ 64 - 2 ^ 63)%Z.
(** SQLiteNode.cpp:992-1006. *)
Definition heard (leader : bool) (theirs ours : N) (s : server) : server :=
  let d := int64_of (Z.of_N theirs - Z.of_N ours) in
  if leader && Z.leb 12500 d && negb (lag s) then set_lag true (blockCommandPort LAGGING s)
  else if Z.ltb d 1000 && lag s then set_lag false (unblockCommandPort LAGGING s)
  else s.

Definition p_step (s : server) (e : pevent) : server :=
  match e with
  | Block r => blockCommandPort r s
  | Unblock r => unblockCommandPort r s
  | State b => mkServer (reasons s) (likely s) (public s) (private s) (control s) (plugin s) (up s) b (lag s)
  | Poll => postPoll s
  | Shutdown d => beginShutdown d s
  | Reset => resetServer s
  | Heard l p o => heard l p o s
  end.
Definition p_run (h : list pevent) : server := fold_left p_step h s_init.

(** 2070-2180: _acceptSockets with a connection waiting on a command port.  The mutex is held from 2082 to the end;
    when no thread can be made, 2160 takes it again.  [None]: the thread waits for itself. *)
Definition acceptSocket (thread_available : bool) (already_blocked : bool) (s : server) : option server :=
  if private s || public s then
    if thread_available then Some s else if already_blocked then Some s else None
  else Some s.
(** 2339: requests that still arrive on sockets of the public port are answered and the connection closed. *)
Definition answers_and_closes (s : server) : bool := likely s.
