(** Outside (HTTPS) requests of a command: BedrockCommand.cpp 103-199, 387-414, 417-422; libstuff/SHTTPSManager.cpp 44-171.

    Left out: prePoll and S_poll themselves (what the network does to a socket is an [io]), TLS, logs, nextActivity.
    The clock is before the year 148107, so 64-bit sums and differences of times are exact.  [_onRecv] is the default, 265-269. *)
From Verif Require Import Base Text_Spec Text_Model Table Http_Model.
Local Open Scope Z_scope.

(** STCPManager.h 23 *)
Inductive sstate := CONNECTING | CONNECTED | SHUTTINGDOWN | CLOSED.
Definition over (s : sstate) : bool := match s with SHUTTINGDOWN | CLOSED => true | _ => false end.      (* > CONNECTED *)
Definition closed (s : sstate) : bool := match s with CLOSED => true | _ => false end.
Record socket := Socket { k_recv : bytes; k_state : sstate; k_lastSend : Z; k_sendEmpty : bool }.
(** SHTTPSManager.h 11-30; [x_message] is fullResponse, [x_startFunc]: there is one *)
Record transaction := Transaction {
  x_socket : option socket; x_finished : Z; x_timeoutAt : Z; x_response : Z; x_message : bytes * stable * bytes;
  x_start : Z; x_startFunc : bool }.

(** atoi *)
Definition atoi (s : bytes) : Z := to_int (SToInt64 s).
(** 44-60: getHTTPResponseCode *)
Definition getHTTPResponseCode (m : bytes) (default : Z) : Z :=
  match find_sep " " m with
  | (_, []) => default
  | (_, r) => match ltrim r with
              | [] => default
              | r' => if atoi r' =? 0 then default else atoi r'
              end
  end.

Fixpoint prefix (p s : bytes) : bool :=
  match p, s with
  | [], _ => true
  | a :: p', b :: s' => Ascii.eqb a b && prefix p' s'
  | _, [] => false
  end.
(** SContains *)
Fixpoint contains (s p : bytes) : bool := prefix p s || match s with [] => false | _ :: s' => contains s' p end.

(** What STCPManager::postPoll makes of the socket: bytes that arrived, and the new state, time of the last send and whether all is sent. *)
Record io := Io { io_new : bytes; io_state : sstate; io_lastSend : Z; io_sendEmpty : bool }.
Definition transfer (i : io) (k : socket) : socket := Socket (k_recv k ++ io_new i) (io_state i) (io_lastSend i) (io_sendEmpty i).

(** 71-171: SStandaloneHTTPSManager::postPoll.  None: an exception (or worse). *)
Definition postPoll (now timeoutMS : Z) (i : io) (x : transaction) : option transaction :=
  match x_socket x with
  | None => Some x
  | Some k0 =>
      if negb (x_finished x =? 0) then Some x
      else
        let k := transfer i k0 in
        match match SParseHTTP (k_recv k) with
              | Incomplete => Some (O, ([], [], []))
              | Done n m t c => Some (n, (m, t, c))
              | Throws | Undefined => None
              end with
        | None => None
        | Some (size, (m, t, c)) =>
            let some := negb (Nat.eqb size 0) in
            let statusCode := if some then match find_sep " " m with (_, []) => 0 | (_, r) => atoi r end else 0 in
            let hasContentLength := match tfind CL t with Some _ => true | None => false end in
            if some && ((statusCode =? 204) || hasContentLength || closed (k_state k)) then
              let response := if contains m (lit " 200") || contains m (lit "204") || contains m (lit "202") || negb (match c with [] => true | _ => false end)
                              then getHTTPResponseCode m 400
                              else getHTTPResponseCode m 500 in
              Some (Transaction None now (x_timeoutAt x) response (m, t, c) (x_start x) (x_startFunc x))
            else if over (k_state k) || (k_lastSend k + timeoutMS * 1000 <? now) || (x_timeoutAt x <? now) then
              if negb (match m with [] => true | _ => false end) || some then
                let response := match m with [] => x_response x | _ => getHTTPResponseCode m 400 end in
                Some (Transaction None now (x_timeoutAt x) response (m, t, c) (x_start x) (x_startFunc x))
              else Some (Transaction (Some k) (x_finished x) (x_timeoutAt x) (if k_sendEmpty k then 501 else 500) (m, t, c) (x_start x) (x_startFunc x))
            else Some (Transaction (Some k) (x_finished x) (x_timeoutAt x) (x_response x) (m, t, c) (x_start x) (x_startFunc x))
        end
  end.

(** The members of a command used here: httpsRequests, _lastContiguousCompletedTransaction (None: end()), _timeout. *)
Record command := Command { c_requests : list transaction; c_last : option nat; c_timeout : Z }.
Definition first_of (last : option nat) : nat := match last with Some i => i | None => O end.
(** 103-115: areHttpsRequestsComplete *)
Fixpoint scan (i : nat) (l : list transaction) (last : option nat) : bool * option nat :=
  match l with
  | [] => (true, last)
  | x :: l' => if x_response x =? 0 then (false, last) else scan (S i) l' (Some i)
  end.
Definition areHttpsRequestsComplete (c : command) : bool * command :=
  let (b, last) := scan (first_of (c_last c)) (skipn (first_of (c_last c)) (c_requests c)) (c_last c) in
  (b, Command (c_requests c) last (c_timeout c)).
(** 452 and plugins: httpsRequests.push_back *)
Definition push_back (x : transaction) (c : command) : command := Command (c_requests c ++ [x]) (c_last c) (c_timeout c).

(** One round of the loop: the clock (128), whether the client has gone, what the startFuncs do (the socket they make and the result they set, if any), what the
    network does, the clock in postPoll, and whether the server is shutting down. *)
Record round := Round { r_now : Z; r_abort : bool; r_start : nat -> option socket * Z; r_io : nat -> io; r_clock : nat -> Z; r_shutdown : bool }.
Inductive event := Started (i : nat) (now : Z) | Paused (now us : Z).
(** 141-146 *)
Definition fail_one (x : transaction) : transaction :=
  if x_response x =? 0 then Transaction (x_socket x) (x_finished x) (x_timeoutAt x) 500 (x_message x) (x_start x) (x_startFunc x) else x.
(** 157-173 *)
Fixpoint starts (r : round) (i : nat) (l : list transaction) (maxWait : Z) : list event * Z * list transaction :=
  match l with
  | [] => ([], maxWait, [])
  | x :: l' =>
      if x_start x =? 0 then let '(ev, w, l2) := starts r (S i) l' maxWait in (ev, w, x :: l2)
      else if x_start x <=? r_now r then
        let x2 := if x_startFunc x then Transaction (fst (r_start r i)) (x_finished x) (x_timeoutAt x) (if snd (r_start r i) =? 0 then x_response x else snd (r_start r i)) (x_message x) 0 (x_startFunc x)
                  else Transaction (x_socket x) (x_finished x) (x_timeoutAt x) (x_response x) (x_message x) 0 (x_startFunc x) in
        let '(ev, w, l2) := starts r (S i) l' maxWait in ((if x_startFunc x then [Started i (r_now r)] else []) ++ ev, w, x2 :: l2)
      else let '(ev, w, l2) := starts r (S i) l' (Z.min maxWait (x_start x - r_now r)) in (ev, w, x :: l2)
  end.
(** 397-414: BedrockCommand::postPoll *)
Definition with_timeout (timeout : Z) (x : transaction) : transaction :=
  if x_timeoutAt x =? 0 then Transaction (x_socket x) (x_finished x) timeout (x_response x) (x_message x) (x_start x) (x_startFunc x) else x.
Fixpoint polls (timeout timeoutMS : Z) (r : round) (i : nat) (l : list transaction) : option (list transaction) :=
  match l with
  | [] => Some []
  | x :: l' => match postPoll (r_clock r i) timeoutMS (r_io r i) (with_timeout timeout x) with
               | None => None
               | Some x' => match polls timeout timeoutMS r (S i) l' with Some l2 => Some (x' :: l2) | None => None end
               end
  end.
Inductive result := Finished (c : command) | Stopped | Waiting (c : command).
(** 117-199: _waitForHTTPSRequests *)
Fixpoint wait (rounds : list round) (c : command) : list event * result :=
  let (complete, c) := areHttpsRequestsComplete c in
  if complete then ([], Finished c)
  else
    match rounds with
    | [] => ([], Waiting c)
    | r :: rounds' =>
        let n := first_of (c_last c) in
        let before := firstn n (c_requests c) in
        let from := skipn n (c_requests c) in
        if (r_now r <? c_timeout c) && negb (r_abort r) then
          let '(ev, maxWait, l) := starts r n from (c_timeout c - r_now r) in
          match polls (c_timeout c) (if r_shutdown r then 5000 else 300000) r n l with
          | None => (ev ++ [Paused (r_now r) (Z.min maxWait 1000000)], Stopped)
          | Some l' => let (ev', res) := wait rounds' (Command (before ++ l') (c_last c) (c_timeout c)) in
                       (ev ++ Paused (r_now r) (Z.min maxWait 1000000) :: ev', res)
          end
        else ([], Finished (Command (before ++ map fail_one from) (c_last c) (c_timeout c)))
    end.
