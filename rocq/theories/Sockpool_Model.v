(** The code of C58: SSocketPool.cpp, SMultiHostSocketPool.cpp, and how SQLiteClusterMessenger.cpp uses them (244-262, 264-340).

    Every step below is what a thread does while it holds a mutex of the pool, or between two such steps.  The mutex of
    SMultiHostSocketPool, which is held for all of getSocket, is not used: more orders of events are possible here than in the
    program.  A connection is a number; [nat] for time, in any unit. *)
From Verif Require Import Base Text_Model Table Http_Spec Http_Model Sockpool_Spec.

(** SParseURI of "http://" + address, libstuff.cpp 1241-1274: the host is what is in front of the first slash.
    SHostIsValid, 3556-3561, and SParseHost, 1414-1430; atoi as strtoll (for more than an int can hold it is undefined). *)
Fixpoint upto (c : ascii) (s : bytes) : bytes :=
  match s with [] => [] | a :: r => if Ascii.eqb a c then [] else a :: upto c r end.
Fixpoint past (c : ascii) (s : bytes) : option bytes :=
  match s with [] => None | a :: r => if Ascii.eqb a c then Some r else past c r end.
Definition SHostIsValid (h : bytes) : bool :=
  match past ":" h with
  | None => false
  | Some [] => false
  | Some p => match upto ":" h with [] => false | _ => Z.leb 0 (SToInt64 p) && Z.leb (SToInt64 p) 65535 end
  end.
Definition host_of (address : bytes) : option bytes :=
  let h := upto "/" address in if SHostIsValid h then Some h else None.

(** ** The state *)
(** STCPManager::Socket, as far as it matters here: where it is connected to; the bytes from there that have arrived and
    that are on their way; whether the other side has closed it. *)
Record conn := Conn { c_host : bytes; c_unread : bytes; c_flight : bytes; c_hup : bool }.
(** The thread of a pool: it is about to run, or it waits in wait_until or wait (SSocketPool.cpp 45-50). *)
Inductive thr := Runnable | Until (t : nat) | Forever.
(** SSocketPool: _sockets, its thread, and notify_one calls that are due (100-103); [p_made]: it is in the map of
    SMultiHostSocketPool. *)
Record pool := Pool { p_made : bool; p_items : list (nat * nat); p_thread : thr; p_due : nat }.
(** A user: not using the pool; in the loop of getSocket; testing a connection; opening one; using one for a command; done
    with the command. [a] is the address (peerAddress), [h] the host. *)
Inductive phase := Idle | Looking (a h : bytes) | Testing (a h : bytes) (i : nat) | Opening (a h : bytes) | Using (a h : bytes) (i : nat) | Done_with (a h : bytes) (i : nat).
(** [w_log]: the commands that got an answer: what the other node answered to it, and what was given to the command. *)
Record world := World {
  w_pools : bytes -> pool; w_users : nat -> phase; w_conns : nat -> conn; w_closed : nat -> bool; w_next : nat; w_clock : nat;
  w_log : list (message * (bytes * stable * bytes)) }.
Definition init : world :=
  World (fun _ => Pool false [] Runnable 0) (fun _ => Idle) (fun _ => Conn [] [] [] false) (fun _ => false) 0 0 [].

Definition put {A} (f : nat -> A) (k : nat) (v : A) : nat -> A := fun x => if Nat.eqb x k then v else f x.
Definition putb {A} (f : bytes -> A) (k : bytes) (v : A) : bytes -> A := fun x => if bytes_eqb x k then v else f x.
Definition set_user (u : nat) (p : phase) (w : world) : world :=
  World (w_pools w) (put (w_users w) u p) (w_conns w) (w_closed w) (w_next w) (w_clock w) (w_log w).
Definition set_pool (h : bytes) (p : pool) (w : world) : world :=
  World (putb (w_pools w) h p) (w_users w) (w_conns w) (w_closed w) (w_next w) (w_clock w) (w_log w).
Definition set_conn (i : nat) (c : conn) (w : world) : world :=
  World (w_pools w) (w_users w) (put (w_conns w) i c) (w_closed w) (w_next w) (w_clock w) (w_log w).
(* the unique_ptr is destroyed: STCPManager.cpp 232-239 *)
Definition close (i : nat) (w : world) : world :=
  World (w_pools w) (w_users w) (w_conns w) (put (w_closed w) i true) (w_next w) (w_clock w) (w_log w).
Definition log (e : message * (bytes * stable * bytes)) (w : world) : world :=
  World (w_pools w) (w_users w) (w_conns w) (w_closed w) (w_next w) (w_clock w) (w_log w ++ [e]).

(** SSocketPool.h: timeout = 10s *)
Definition timeout : nat := 10.

(** SMultiHostSocketPool::getSocket, 11-20, called by _getSocketForAddress, SQLiteClusterMessenger.cpp 244-262 *)
Definition ask (u : nat) (a : bytes) (w : world) : world :=
  match w_users w u, host_of a with
  | Idle, Some h =>
      let p := w_pools w h in
      set_user u (Looking a h) (if p_made p then w else set_pool h (Pool true (p_items p) (p_thread p) (p_due p)) w)
  | _, _ => w
  end.
(** SSocketPool::getSocket, 56-66 *)
Definition take (u : nat) (w : world) : world :=
  match w_users w u with
  | Looking a h =>
      let p := w_pools w h in
      match p_items p with
      | [] => set_user u (Opening a h) w
      | (_, i) :: r => set_user u (Testing a h i) (set_pool h (Pool (p_made p) r (p_thread p) (p_due p)) w)
      end
  | _ => w
  end.
(** 68-78: poll says POLLIN when there are bytes to read or the other side has closed *)
Definition quiet (c : conn) : bool := match c_unread c with [] => negb (c_hup c) | _ => false end.
Definition test (u : nat) (w : world) : world :=
  match w_users w u with
  | Testing a h i => if quiet (w_conns w i) then set_user u (Using a h i) w else set_user u (Looking a h) (close i w)
  | _ => w
  end.
(** 81-87 *)
Definition open (u : nat) (ok : bool) (w : world) : world :=
  match w_users w u with
  | Opening a h =>
      if ok then
        let i := w_next w in
        World (w_pools w) (put (w_users w) u (Using a h i)) (put (w_conns w) i (Conn h [] [] false)) (w_closed w) (S i) (w_clock w) (w_log w)
      else set_user u Idle w
  | _ => w
  end.

(** The receiving loop of _sendCommandOnSocket, SQLiteClusterMessenger.cpp 197-235 (C33: recv_loop), on the bytes that come:
    the answer, and the bytes that were not read.  None: the time is over, the connection is closed, or an exception. *)
Fixpoint read_answer (acc : bytes) (ns : list nat) (coming : bytes) : option ((bytes * stable * bytes) * bytes) :=
  match ns with
  | [] => None
  | n :: r =>
      match firstn (S n) coming with
      | [] => None
      | b => match SParseHTTP (acc ++ b) with
             | Done _ m t c => Some ((m, t, c), skipn (S n) coming)
             | Incomplete => read_answer (acc ++ b) r (skipn (S n) coming)
             | _ => None
             end
      end
  end.
(** The command is sent and the answer is read; what is not read is on its way.  When this fails the connection is not kept:
    runOnPeer returns (299-313). *)
Definition use (u : nat) (x : message) (bs : bytes) (ns : list nat) (w : world) : world :=
  match w_users w u with
  | Using a h i =>
      let c := w_conns w i in
      match read_answer [] ns (c_unread c ++ c_flight c ++ bs) with
      | Some (r, rest) => set_user u (Done_with a h i) (log (x, r) (set_conn i (Conn (c_host c) [] rest (c_hup c)) w))
      | None => set_user u Idle (close i w)
      end
  | _ => w
  end.
(** SQLiteClusterMessenger.cpp 334-337, SMultiHostSocketPool::returnSocket, 22-29, SSocketPool::returnSocket, 90-104: the
    connection is returned under the address, not under the host it was asked for with.  Where there is no pool for it, it
    is destroyed. *)
Definition finish (u : nat) (keep : bool) (w : world) : world :=
  match w_users w u with
  | Done_with a h i =>
      let w1 := set_user u Idle w in
      let p := w_pools w a in
      if keep && p_made p then
        set_pool a (Pool true (p_items p ++ [(w_clock w, i)]) (p_thread p) (match p_items p with [] => S (p_due p) | _ => p_due p end)) w1
      else close i w1
  | _ => w
  end.
(** poll and the network *)
Definition arrive (i n : nat) (w : world) : world :=
  let c := w_conns w i in set_conn i (Conn (c_host c) (c_unread c ++ firstn n (c_flight c)) (skipn n (c_flight c)) (c_hup c)) w.
Definition hang_up (i : nat) (w : world) : world :=
  let c := w_conns w i in set_conn i (Conn (c_host c) (c_unread c) (c_flight c) true) w.

(** _timeoutThreadFunc, 20-52 *)
Definition notify (h : bytes) (w : world) : world :=
  let p := w_pools w h in
  match p_due p with O => w | S d => set_pool h (Pool (p_made p) (p_items p) Runnable d) w end.
Definition wake (h : bytes) (w : world) : world :=
  let p := w_pools w h in set_pool h (Pool (p_made p) (p_items p) Runnable (p_due p)) w.
Fixpoint expired (now : nat) (l : list (nat * nat)) : list (nat * nat) :=
  match l with (t, i) :: r => if Nat.ltb (t + timeout) now then (t, i) :: expired now r else [] | [] => [] end.
Fixpoint fresh (now : nat) (l : list (nat * nat)) : list (nat * nat) :=
  match l with (t, i) :: r => if Nat.ltb (t + timeout) now then fresh now r else l | [] => [] end.
Definition clean (h : bytes) (w : world) : world :=
  let p := w_pools w h in
  match p_made p, p_thread p with
  | true, Runnable =>
      let l := fresh (w_clock w) (p_items p) in
      set_pool h (Pool true l (match l with (t, _) :: _ => Until (t + timeout) | [] => Forever end) (p_due p))
        (fold_left (fun w e => close (snd e) w) (expired (w_clock w) (p_items p)) w)
  | _, _ => w
  end.
Definition tick (d : nat) (w : world) : world :=
  World (w_pools w) (w_users w) (w_conns w) (w_closed w) (w_next w) (w_clock w + d) (w_log w).

Definition step (w : world) (e : event) : world :=
  match e with
  | Ask u a => ask u a w | Take u => take u w | Test u => test u w | Open u ok => open u ok w
  | Use u x bs ns => use u x bs ns w | Finish u keep => finish u keep w
  | Arrive i n => arrive i n w | HangUp i => hang_up i w
  | Notify h => notify h w | Wake h => wake h w | Clean h => clean h w | Tick d => tick d w
  end.
Definition run (l : list event) : world := fold_left step l init.

(** commandWillCloseSocket, SQLiteClusterMessenger.cpp 342-357: the connection is kept when this is false.  The names of headers
    are compared without regard to case, the value is not. *)
Definition says_close (t : stable) : bool := match tfind (lit "Connection") t with Some v => bytes_eqb v (lit "close") | None => false end.
Definition commandWillCloseSocket (request response : stable) : bool := says_close request || says_close response.
(** What the other node does, BedrockServer.cpp 1360-1364, 1389-1392, while it is not shutting down: the Connection header it puts
    in the response, and whether it closes the connection behind it. *)
Definition parrot (request response : stable) : stable := if says_close request then tput (lit "Connection") (lit "close") response else response.
Definition server_closes (request : stable) : bool := match tfind (lit "Connection") request with Some v => ieqb (cstr v) (lit "close") | None => false end.
