(** The code of C57: the connection between two nodes.  STCPManager.cpp, SQLitePeer.cpp, S_sendconsume and S_recvappend
    (libstuff.cpp), the part of SQLiteNode::postPoll that is about established connections. *)
From Verif Require Import Base Text_Model Table Http_Model Conn_Spec.

(** ** STCPManager::Socket, STCPManager.h: state, sendBuffer, recvBuffer.  Without TLS: nodes talk plainly to each other
    (new STCPManager::Socket(host), SQLitePeer.cpp 157).  SFastBuffer is the bytes it holds (C08).
    [down]: ::shutdown was called.
    What is remembered only to talk about it: [said], the messages that were put into the send buffer; [taken], the bytes
    the operating system accepted; [received], the bytes it gave; [handled], the messages that were handled.
    [gone]: the peer's socket is deleted and the node knows it (SQLitePeer::reset, _onDisconnect).
    [broken]: an exception other than out_of_range left _processPeerMessages, or worse. *)
Inductive state := CONNECTING | CONNECTED | SHUTTINGDOWN | CLOSED.
Record conn := Conn {
  st : state; sendBuffer : bytes; recvBuffer : bytes; down : bool;
  said : list bytes; taken : bytes; received : bytes; handled : list (bytes * stable * bytes); gone : bool; broken : bool }.
(* Socket(host), STCPManager.cpp 197-212: connecting.  An accepted socket, 191-195, SQLiteNode.cpp 2127, is connected. *)
Definition fresh (s : state) : conn := Conn s [] [] false [] [] [] [] false false.

Definition set_state (s : state) (c : conn) : conn :=
  Conn s (sendBuffer c) (recvBuffer c) (down c) (said c) (taken c) (received c) (handled c) (gone c) (broken c).
Definition set_gone (c : conn) : conn :=
  Conn (st c) (sendBuffer c) (recvBuffer c) (down c) (said c) (taken c) (received c) (handled c) true (broken c).
Definition set_broken (c : conn) : conn :=
  Conn (st c) (sendBuffer c) (recvBuffer c) (down c) (said c) (taken c) (received c) (handled c) (gone c) true.

(** Socket::shutdown, STCPManager.cpp 184-189 *)
Definition shutdown (s : state) (c : conn) : conn :=
  Conn s (sendBuffer c) (recvBuffer c) true (said c) (taken c) (received c) (handled c) (gone c) (broken c).
(* state < SHUTTINGDOWN *)
Definition is_open (c : conn) : bool := match st c with CONNECTING | CONNECTED => true | _ => false end.

(** Socket::send(), 241-260, with S_sendconsume, libstuff.cpp 2279-2326: the connection, and whether it is alive.  Once
    the socket is shut down the operating system refuses with EPIPE.  The line that is logged about an ESCALATE_RESPONSE
    is left out. *)
Definition consume (n : nat) (c : conn) : conn :=
  Conn (st c) (skipn n (sendBuffer c)) (recvBuffer c) (down c) (said c) (taken c ++ firstn n (sendBuffer c)) (received c) (handled c) (gone c) (broken c).
Definition send (k : ksend) (c : conn) : conn * bool :=
  match sendBuffer c with
  | [] => (c, true)
  | b =>
      match (if down c then KFatal else k) with
      | KSent n => (consume n c, true)
      | KAgain => (c, N.leb (N.of_nat (List.length b)) (1024 * 1024 * 1024))
      | KFatal => (c, false)
      end
  end.
(** SQLitePeer::sendMessage, SQLitePeer.cpp 294-305, with Socket::send(buffer), STCPManager.cpp 262-275: the result of
    sending is only logged. *)
Definition append (w : bytes) (c : conn) : conn :=
  Conn (st c) (sendBuffer c ++ w) (recvBuffer c) (down c) (said c ++ [w]) (taken c) (received c) (handled c) (gone c) (broken c).
Definition sendMessage (w : bytes) (k : ksend) (c : conn) : conn :=
  if is_open c then fst (send k (append w c)) else c.
(** SQLitePeer::shutdownSocket, 91-97 *)
Definition shutdownSocket (c : conn) : conn := shutdown SHUTTINGDOWN c.
Definition do_deed (c : conn) (d : deed) : conn :=
  match d with Say w k => sendMessage w k c | Drop => shutdownSocket c end.
Definition do_deeds (c : conn) (l : list deed) : conn := fold_left do_deed l c.

(** Socket::recv, 295-313, with S_recvappend, libstuff.cpp 2234-2276, for a socket that does not block *)
Definition recv (pieces : list bytes) (e : kend) (c : conn) : conn * bool :=
  (Conn (st c) (sendBuffer c) (recvBuffer c ++ concat pieces) (down c) (said c) (taken c) (received c ++ concat pieces) (handled c) (gone c) (broken c),
   match e with KNothing => true | _ => false end).

(** STCPManager::prePoll, 12-60: is the socket polled for the chance to send? *)
Definition wants_to_write (c : conn) : bool :=
  match st c with
  | CLOSED => false
  | CONNECTING => true
  | _ => match sendBuffer c with [] => false | _ => true end
  end.

(** STCPManager::postPoll, 62-182.  SREADEVTS is POLLIN | POLLPRI | POLLHUP (libstuff.h 624). *)
Definition postPoll_connected (ev : revents) (pieces : list bytes) (e : kend) (k : ksend) (c : conn) : conn :=
  let (c1, alive1) := if can_read ev || hung_up ev then recv pieces e c else (c, true) in
  let (c2, alive2) := if can_write ev then send k c1 else (c1, true) in
  if negb alive1 || negb alive2 then set_state CLOSED c2 else c2.
Definition clear_send (c : conn) : conn :=
  Conn (st c) [] (recvBuffer c) (down c) (said c) (taken c) (received c) (handled c) (gone c) (broken c).
Definition postPoll_down (pieces : list bytes) (e : kend) (k : ksend) (c : conn) : conn :=
  let c1 := match sendBuffer c with
            | [] => c
            | _ => let (c1, alive) := send k c in if alive then c1 else clear_send (shutdown SHUTTINGDOWN c1)
            end in
  match sendBuffer c1 with
  | [] => let (c2, alive) := recv pieces e c1 in if alive then c2 else shutdown CLOSED c2
  | _ => c1
  end.
Definition postPoll (ev : revents) (connect_failed : bool) (pieces : list bytes) (e : kend) (k : ksend) (c : conn) : conn :=
  match st c with
  | CONNECTING =>
      if negb (can_write ev || hung_up ev || in_error ev) then c
      else let c1 := if hung_up ev then shutdown CLOSED c else c in
           if connect_failed then set_state CLOSED c1
           else postPoll_connected ev pieces e k (set_state CONNECTED c1)
  | CONNECTED => postPoll_connected ev pieces e k c
  | SHUTTINGDOWN => postPoll_down pieces e k c
  | CLOSED => c
  end.

(** SQLiteNode::_processPeerMessages, SQLiteNode.cpp 2138-2155, with SQLitePeer::popMessage, SQLitePeer.cpp 191-203.
    [limit]: 100, or none.  [deeds]: what the node does with the connection while it handles the first message, the
    second one, ... (_onMESSAGE; a message that cannot be handled is answered with RECONNECT and the connection is dropped,
    1399-1409).  [fuel]: one more than the bytes there are. *)
Definition pop (n : nat) (m : bytes * stable * bytes) (c : conn) : conn :=
  Conn (st c) (sendBuffer c) (skipn n (recvBuffer c)) (down c) (said c) (taken c) (received c) (handled c ++ [m]) (gone c) (broken c).
Fixpoint process (fuel : nat) (limit : option nat) (deeds : list (list deed)) (c : conn) : conn :=
  match fuel with
  | O => c
  | S f =>
      match SParseHTTP (recvBuffer c) with
      | Done (S _ as n) m t b =>
          let c1 := do_deeds (pop n (m, t, b) c) (hd [] deeds) in
          match limit with
          | Some (S (S l)) => process f (Some (S l)) (tl deeds) c1
          | Some _ => c1                                                 (* messagesDeqeued >= 100 *)
          | None => process f None (tl deeds) c1
          end
      | Done O _ _ _ | Incomplete => c                                   (* throw out_of_range *)
      | _ => set_broken c
      end
  end.
Definition processPeerMessages (limit : option nat) (deeds : list (list deed)) (c : conn) : conn :=
  process (S (List.length (recvBuffer c))) limit deeds c.
Definition HUNDRED : nat := 100.

(** SQLitePeer::postPoll, SQLitePeer.cpp 107-167, for a peer with a socket, and what SQLiteNode::postPoll does with the
    result, 2229-2277.  [late]: nothing came for RECV_TIMEOUT.  The PINGs of a quiet connection are deeds of the node.
    [k']: what the operating system says to the RECONNECT message of a late connection. *)
Definition reconnect : bytes :=
  match SComposeHTTP (fun b => b) (lit "RECONNECT") [(lit "Reason", lit "socket error")] [] with Some w => w | None => [] end.
Definition poll (ev : revents) (connect_failed late : bool) (pieces : list bytes) (e : kend) (k k' : ksend) (deeds : list (list deed)) (c : conn) : conn :=
  let c1 := postPoll ev connect_failed pieces e k c in
  match st c1 with
  | CONNECTED =>
      if late then let c2 := processPeerMessages None deeds c1 in
                   if broken c2 then c2 else shutdownSocket (sendMessage reconnect k' c2)
      else processPeerMessages (Some HUNDRED) deeds c1
  | CLOSED => let c2 := processPeerMessages None deeds c1 in if broken c2 then c2 else set_gone c2
  | _ => processPeerMessages (Some HUNDRED) deeds c1
  end.
Definition step (c : conn) (a : action) : conn :=
  if gone c || broken c then c
  else match a with
       | Do d => do_deed c d
       | Poll ev f l p e k k' ds => poll ev f l p e k k' ds c
       end.

(** ** A connection that comes in, SQLiteNode::_acceptSocket, 2115-2136 (the result of the first recv is not looked at), and
    SQLiteNode::postPoll, 2175-2222, until it is given to a peer.  [free n]: there is a peer with the name [n] that has no
    connection yet (getPeerByName, SQLitePeer::setSocket 205-216).  The exceptions the parser throws come from the standard
    library (std::stoll, std::string::resize; libstuff.cpp 1013, 1030), only SException is caught (2217), and nothing around it
    catches them (BedrockServer.cpp 294, 34-75): the process ends.  What the node does next, _onConnect, _sendPING and
    _onMESSAGE, are deeds. *)
Inductive login_result := Waits (c : conn) | Refused | LoggedIn (c : conn) | NodeDies.
Definition accepted (pieces : list bytes) (e : kend) : conn := fst (recv pieces e (fresh CONNECTED)).
Definition login_poll (free : bytes -> bool) (u : first_poll) (c : conn) : login_result :=
  let c1 := postPoll (f_ev u) false (f_pieces u) (f_end u) (f_send u) c in
  match st c1 with
  | CONNECTED =>
      match SParseHTTP (recvBuffer c1) with
      | Done (S _ as n) m t b =>
          if ieqb m (lit "LOGIN") && free (match tfind (lit "Name") t with Some v => v | None => [] end)
          then LoggedIn (pop n (m, t, b) c1) else Refused
      | Done O _ _ _ | Incomplete => if f_idle u then Refused else Waits c1
      | Throws | Undefined => NodeDies
      end
  | _ => Refused
  end.
Fixpoint login (free : bytes -> bool) (us : list first_poll) (c : conn) : login_result :=
  match us with
  | [] => Waits c
  | u :: r => match login_poll free u c with Waits c' => login free r c' | x => x end
  end.

(** A connection as a peer gets it: it has been opened (new STCPManager::Socket(host), SQLitePeer.cpp 157), or it came in and
    the other node has logged in. *)
Definition start (c : conn) : Prop :=
  c = fresh CONNECTING \/ exists free us pieces e, login free us (accepted pieces e) = LoggedIn c.
(** And after more has happened. *)
Definition run (c : conn) (l : list action) : conn := fold_left step l c.
