(** Model of replication: sqlitecluster/SQLiteNode.cpp, the transaction stream of a leader
    (_sendOutstandingTransactions), SUBSCRIBE / SUBSCRIPTION_APPROVED, SYNCHRONIZE /
    SYNCHRONIZE_RESPONSE, and a follower's application of TRANSACTION messages (_replicate).

    Simplifications, for the whole file:
    - a database is its commit history, a list of (query text, hash) (the data is the replay of
      the texts: Journal_Props); numbers are unbounded [nat] instead of uint64_t;
    - one leader during one term, and any number of followers (named by [nat]); followers that
      are not following may change their history in any way (event [EChange]: restart,
      synchronization with other peers), as long as it stays a hash chain;
    - connections are FIFO in both directions; when one end closes, what was in flight towards
      it is lost, and the other end notices later;
    - the messages SYNCHRONIZE and the replies to it are modelled as functions only
      ([q_sync], [recv_commits], [sync_round]), not as part of the transition system. *)
From Verif Require Import Base Repl_Spec.

(** SQLiteNode.cpp 1728-1746, 365-379: rows numbered from [k]+1. *)
Fixpoint number (k : nat) (l : list entry) : list (nat * entry) :=
  match l with
  | [] => []
  | e :: l' => (S k, e) :: number (S k) l'
  end.

(** A COMMIT inside a SYNCHRONIZE_RESPONSE or SUBSCRIPTION_APPROVED message, or a TRANSACTION
    message: number, hash, (compressed) content. SQLiteNode.cpp 370-375, 1739-1743. *)
Definition wire := (nat * bytes * bytes)%type.

(** What happens when a transaction is applied locally (events of SQLite, not decided by this
    code): it is applied; beginning, writing or preparing fails, which throws; or only the final
    commit fails. SQLiteNode.cpp 1793-1811, 1973-1981, 2010-2015, 2042-2046. *)
Inductive outcome := Applied | Threw | CommitFailed.

(** The reply made by [_queueSynchronize]: an exception, the "hashMismatch" fields without
    NumCommits, or commits. SQLiteNode.cpp 1672-1754. *)
Inductive reply := QErr | QMismatch | QCommits (ms : list wire).

Section Model.
Variable sha : bytes -> bytes.             (* SToHex(SHashSHA1(...)), sqlitecluster/SQLite.cpp 1037 *)
Variable comp decomp : bytes -> bytes.     (* BedrockPlugin_Compression::compress / decompress *)

Definition to_wire (x : nat * entry) : wire := (fst x, snd (snd x), comp (fst (snd x))).

(** db.getCommit(id, nullptr, &hash), SQLite.cpp 1329-1347: the row with that number, if the
    journal still has it. [base] = number of the oldest commits already trimmed. *)
Definition get_hash (p : list entry) (base k : nat) : option bytes :=
  if (k <=? base) || (k =? 0) then None else option_map snd (nth_error p (k - 1)).

(** db.getCompressedCommits(from, to), SQLite.cpp 1354-1369: rows with from <= id <= to, by id. *)
Definition get_rows (p : list entry) (base from to : nat) : list (nat * entry) :=
  filter (fun x => (from <=? fst x) && (fst x <=? to) && (base <? fst x)) (number 0 p).

(** SQLiteNode.cpp 1672-1754 [_queueSynchronize]: [p], [base] the responder's database, [target]
    its _lastSentTransactionID when leading or standing down, else its commit count; [pc], [ph]
    what the peer said it has; [fails] when the query for the commits fails or times out. *)
Definition q_sync (p : list entry) (base target pc : nat) (ph : bytes) (send_all fails : bool) : reply :=
  if length p <? pc then QErr
  else match (if pc =? 0 then Some None else option_map Some (get_hash p base pc)) with
       | None => QErr
       | Some mine =>
         if match mine with None => false | Some h => negb (bytes_eqb h ph) end then QMismatch
         else if pc =? target then QCommits []
         else let from := pc + 1 in
              let to := if send_all then target else min target (from + 100) in
              let rows := get_rows p base from to in
              if fails then QErr
              else if (to <? from) || negb (length rows =? to - from + 1) then QErr
              else QCommits (map (fun x => (pc + fst x + 1, snd (snd (snd x)), comp (fst (snd (snd x)))))
                                 (combine (seq 0 (length rows)) rows))
       end.

(** SQLiteNode.cpp 1756-1820 [_recvSynchronize]: the loop over the COMMITs. The result of
    _db.commit at 1811 is not looked at. Returns the history and whether it ended normally.
    Simplified: NumCommits always equals the number of COMMITs in the message (1734-1743). *)
Fixpoint recv_commits (h : list entry) (ms : list wire) (os : list outcome) : list entry * bool :=
  match ms with
  | [] => (h, true)
  | (i, hash, content) :: ms' =>
    if negb (i =? length h + 1) then (h, false)                       (* 1790 *)
    else let q := decomp content in
         let nh := sha (tip h ++ q) in
         match hd Applied os with
         | Threw => (h, false)                                         (* 1793-1802 *)
         | o =>
           if negb (bytes_eqb nh hash) then (h, false)                 (* 1803 *)
           else recv_commits (match o with CommitFailed => h | _ => h ++ [(q, nh)] end) ms' (tl os)
         end
  end.

(** One SYNCHRONIZE exchange between a node with history [h] and a peer with history [p] that
    is not leading: SQLiteNode.cpp 1191-1300. [None] when the exchange ends in an exception. *)
Definition sync_round (h p : list entry) (base : nat) (fails : bool) (os : list outcome) : list entry * bool :=
  match q_sync p base (length p) (length h) (tip h) false fails with
  | QCommits ms => recv_commits h ms os
  | _ => (h, false)
  end.

(** SQLiteNode.cpp 207-222, 1952-2069: a follower applies one TRANSACTION. [None]: an exception
    leaves [_replicate], which ends the process. *)
Definition apply_txn (h : list entry) (m : wire) (o : outcome) : option (list entry) :=
  let '(i, hash, content) := m in
  let q := decomp content in
  let nh := sha (tip h ++ q) in
  match o with
  | Threw => None
  | _ =>
    if negb (i =? length h + 1) then None                              (* 2030 *)
    else if negb (bytes_eqb hash nh) then None                         (* 2034 *)
    else match o with Applied => Some (h ++ [(q, nh)]) | _ => None end (* 2042, 219 *)
  end.

(** SQLiteNode.cpp 351-381 [_sendOutstandingTransactions]: the loop over the popped transactions:
    the messages made and the new _lastSentTransactionID. *)
Fixpoint outgoing (sent : nat) (l : list (nat * entry)) : list wire * nat :=
  match l with
  | [] => ([], sent)
  | x :: l' =>
    if fst x <=? sent then outgoing sent l'
    else let (ms, s') := outgoing (fst x) l' in (to_wire x :: ms, s')
  end.

(** ** The transition system. *)

(** Messages from the leader: TRANSACTION, SUBSCRIPTION_APPROVED ([None] = with the hash mismatch
    fields instead of commits), and the STATE broadcast after which it no longer leads. *)
Inductive dmsg := DTxn (m : wire) | DApproved (r : option (list wire)) | DStopped.
(** Messages from a follower: SUBSCRIBE (with the CommitCount and Hash that every message
    carries) and the STATE broadcast of SEARCHING. *)
Inductive umsg := USubscribe (count : nat) (hash : bytes) | USearching.

Inductive mode := Off | Subscribing | Following | Dead.
Inductive phase := Leading | StandingDown | Stopped.

Record fol := mkF {
  f_hist : list entry;
  f_mode : mode;
  f_queue : list wire;        (* _replicateQueue *)
  f_open : bool;              (* the follower's end of the connection *)
  f_lopen : bool;             (* the leader's end *)
  f_subs : bool;              (* the leader's peer->subscribed *)
  f_down : list dmsg;         (* in flight to the follower *)
  f_up : list umsg            (* in flight to the leader *)
}.
Record state := mkS {
  l_hist : list entry;
  l_base : nat;               (* trimmed from the journal *)
  l_popped : nat;             (* how many commits popCommittedTransactions has handed out *)
  l_sent : nat;               (* _lastSentTransactionID *)
  l_phase : phase;
  fols : nat -> fol
}.

Definition upd (s : state) (j : nat) (f : fol) : state :=
  mkS (l_hist s) (l_base s) (l_popped s) (l_sent s) (l_phase s)
      (fun k => if k =? j then f else fols s k).

(** The leader sends to a peer: SQLiteNode.cpp 1505-1527; lost if the other end is closed. *)
Definition send_down (ms : list dmsg) (f : fol) : fol :=
  if f_lopen f && f_open f
  then mkF (f_hist f) (f_mode f) (f_queue f) (f_open f) (f_lopen f) (f_subs f) (f_down f ++ ms) (f_up f)
  else f.
Definition send_up (m : umsg) (f : fol) : fol :=
  if f_lopen f && f_open f
  then mkF (f_hist f) (f_mode f) (f_queue f) (f_open f) (f_lopen f) (f_subs f) (f_down f) (f_up f ++ [m])
  else f.
Definition set_subs (b : bool) (f : fol) : fol :=
  mkF (f_hist f) (f_mode f) (f_queue f) (f_open f) (f_lopen f) b (f_down f) (f_up f).

(** The follower closes its end and goes SEARCHING: _reconnectPeer / _onDisconnect of the leader,
    SQLiteNode.cpp 1434-1503; [_changeState] clears the replicate queue, 1555-1576. *)
Definition f_close (f : fol) : fol :=
  mkF (f_hist f) (match f_mode f with Dead => Dead | _ => Off end) [] false (f_lopen f) (f_subs f) [] (f_up f).
(** The leader closes its end: SQLitePeer::reset, SQLitePeer.cpp 75-90. *)
Definition l_close (f : fol) : fol :=
  mkF (f_hist f) (f_mode f) (f_queue f) (f_open f) false false (f_down f) [].

(** _sendOutstandingTransactions: pops everything committed and sends it to subscribed peers. *)
Definition flush (s : state) : state :=
  let (ms, sent') := outgoing (l_sent s) (skipn (l_popped s) (number 0 (l_hist s))) in
  mkS (l_hist s) (l_base s) (length (l_hist s)) sent' (l_phase s)
      (fun j => let f := fols s j in if f_subs f then send_down (map DTxn ms) f else f).

(** Leaving LEADING/STANDINGDOWN: SQLiteNode.cpp 1595-1610 (commits off, flush, unsubscribe all),
    then the STATE broadcast 1655-1666. *)
Definition stop (s : state) : state :=
  let s' := flush s in
  mkS (l_hist s') (l_base s') (l_popped s') (l_sent s') Stopped
      (fun j => send_down [DStopped] (set_subs false (fols s' j))).

Inductive event :=
| ECommit (q : bytes)                     (* a worker or the sync thread commits on the leader *)
| EFlush                                  (* update() while leading, 823 *)
| ETrim (b : nat)                         (* journal rows up to [b] are gone *)
| EStandDown                              (* LEADING -> STANDINGDOWN *)
| EStop                                   (* STANDINGDOWN or LEADING -> SEARCHING *)
| EConnect (j : nat)
| EFClose (j : nat)
| ELClose (j : nat)
| EChange (j : nat) (h : list entry)      (* a node that is not following changes its database *)
| ESubscribe (j : nat)                    (* WAITING -> SUBSCRIBING *)
| ELRecv (j : nat) (fails : bool)         (* the leader handles the next message of [j] *)
| EFRecv (j : nat) (os : list outcome)    (* the follower handles the leader's next message *)
| ERepl (j : nat) (o : outcome)           (* _replicate handles the next queued TRANSACTION *)
| ELeave (j : nat).                       (* FOLLOWING -> SEARCHING with the connection kept *)

Definition step (s : state) (e : event) : option state :=
  match e with
  | ECommit q =>
    match l_phase s with
    | Stopped => None                      (* setCommitEnabled(false), 1600 *)
    | _ => Some (mkS (l_hist s ++ [(q, sha (tip (l_hist s) ++ q))]) (l_base s) (l_popped s) (l_sent s) (l_phase s) (fols s))
    end
  | EFlush => match l_phase s with Stopped => None | _ => Some (flush s) end
  | ETrim b =>
    if (l_base s <=? b) && (b <=? length (l_hist s))
    then Some (mkS (l_hist s) b (l_popped s) (l_sent s) (l_phase s) (fols s)) else None
  | EStandDown =>
    match l_phase s with
    | Leading => Some (mkS (l_hist s) (l_base s) (l_popped s) (l_sent s) StandingDown (fols s))
    | _ => None
    end
  | EStop => match l_phase s with Stopped => None | _ => Some (stop s) end
  | EConnect j =>
    let f := fols s j in
    match f_mode f with
    | Dead => None
    | _ => if f_open f || f_lopen f then None
           else Some (upd s j (mkF (f_hist f) (f_mode f) (f_queue f) true true false [] []))
    end
  | EFClose j => if f_open (fols s j) then Some (upd s j (f_close (fols s j))) else None
  | ELClose j => if f_lopen (fols s j) then Some (upd s j (l_close (fols s j))) else None
  | EChange j h =>
    let f := fols s j in
    match f_mode f with
    | Off | Dead => Some (upd s j (mkF h Off [] (f_open f) (f_lopen f) (f_subs f) (f_down f) (f_up f)))
    | _ => None
    end
  | ESubscribe j =>
    let f := fols s j in
    match f_mode f with
    | Off => if f_open f
             then Some (upd s j (send_up (USubscribe (length (f_hist f)) (tip (f_hist f)))
                                   (mkF (f_hist f) Subscribing (f_queue f) (f_open f) (f_lopen f) (f_subs f) (f_down f) (f_up f))))
             else None
    | _ => None
    end
  | ELRecv j fails =>
    let f := fols s j in
    match f_up f with
    | m :: up =>
      if f_lopen f
      then let f1 := mkF (f_hist f) (f_mode f) (f_queue f) (f_open f) (f_lopen f) (f_subs f) (f_down f) up in
           match m with
           | USearching => Some (upd s j (set_subs false f1))               (* 1155-1164 *)
           | USubscribe pc ph =>
             match l_phase s with
             | Leading =>
               match q_sync (l_hist s) (l_base s) (l_sent s) pc ph true fails with
               | QErr => Some (upd s j (l_close f1))                        (* 1393-1432 *)
               | QMismatch => Some (upd s j (set_subs true (send_down [DApproved None] f1)))
               | QCommits ms => Some (upd s j (set_subs true (send_down [DApproved (Some ms)] f1)))
               end
             | _ => Some (upd s j (l_close f1))                             (* 1306 *)
             end
           end
      else None
    | [] => None
    end
  | EFRecv j os =>
    let f := fols s j in
    match f_down f with
    | m :: down =>
      if f_open f
      then let f1 := mkF (f_hist f) (f_mode f) (f_queue f) (f_open f) (f_lopen f) (f_subs f) down (f_up f) in
           match m with
           | DTxn w =>
             match f_mode f with
             | Following => Some (upd s j (mkF (f_hist f) Following (f_queue f ++ [w]) (f_open f) (f_lopen f) (f_subs f) down (f_up f)))
             | _ => Some (upd s j f1)                                       (* 1350-1358 *)
             end
           | DApproved r =>
             match f_mode f, r with
             | Subscribing, Some ms =>
               let (h, ok) := recv_commits (f_hist f) ms os in
               if ok
               then Some (upd s j (mkF h Following [] (f_open f) (f_lopen f) (f_subs f) down (f_up f)))
               else Some (upd s j (f_close (mkF h (f_mode f) (f_queue f) (f_open f) (f_lopen f) (f_subs f) down (f_up f))))
             | _, _ => Some (upd s j (f_close f1))
             end
           | DStopped => Some (upd s j f1)
           end
      else None
    | [] => None
    end
  | ERepl j o =>
    let f := fols s j in
    match f_mode f, f_queue f with
    | Following, m :: qs =>
      match apply_txn (f_hist f) m o with
      | Some h => Some (upd s j (mkF h Following qs (f_open f) (f_lopen f) (f_subs f) (f_down f) (f_up f)))
      | None => Some (upd s j (mkF (f_hist f) Dead [] false (f_lopen f) (f_subs f) [] (f_up f)))
      end
    | _, _ => None
    end
  | ELeave j =>
    let f := fols s j in
    match f_mode f with
    | Following => Some (upd s j (send_up USearching (mkF (f_hist f) Off [] (f_open f) (f_lopen f) (f_subs f) (f_down f) (f_up f))))
    | _ => None
    end
  end.

Fixpoint run (s : state) (es : list event) : option state :=
  match es with
  | [] => Some s
  | e :: es' => match step s e with Some s' => run s' es' | None => None end
  end.

(** A node that has just become leader with history [h]: SQLiteNode.cpp 1635-1642 (what was
    committed before is popped and thrown away, [popped] of them at the time of the pop; commits
    made between the pop and the next line are counted in _lastSentTransactionID). Nobody is
    connected; the followers' histories are arbitrary. *)
Definition init (h : list entry) (base popped : nat) (hs : nat -> list entry) : state :=
  mkS h base popped (length h) Leading (fun j => mkF (hs j) Off [] false false false [] []).
End Model.
