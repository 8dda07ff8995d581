(** C66: how nodes find out that their histories have diverged, when they stop because of it, and which peer they
    synchronize from.  sqlitecluster/SQLiteNode.cpp 950-983, 1008-1081, 1376-1379, 1413-1430, 1503-1513, 1822-1876,
    2466-2487, SQLite.cpp 1033-1059, 1156-1162, 1329-1352, 1377-1382, 1684-1690.
    Simplifications: which nodes are permafollowers does not change; both ends of a connection notice its loss at the same
    time; messages other than LOGIN and FORKED are left out, as they neither set nor clear the flag (the mismatch found
    while synchronizing is in Repl_Model); the committing thread is one at a time (it holds the commit lock). *)
From Verif Require Import Base Repl_Spec.

Section Fork.
Variable sha : bytes -> bytes.             (* SToHex(SHashSHA1(...)), SQLite.cpp 1037 *)
Variable total : nat.                      (* the nodes are 0 .. total - 1; every node has all others as peers *)
Variable full : nat -> bool.               (* not a permafollower *)

(** SQLite.cpp 1156-1162, 1684-1690: a commit writes the row, then the count goes up, then the hash is stored. *)
Inductive phase := Settled | Written | Counted.
Record node := Node { hist : list entry; ph : phase; oldest : nat; alive : bool }.
(** SQLite.cpp 1377-1382: getCommitCount *)
Definition getCommitCount (x : node) : nat := match ph x with Written => length (hist x) - 1 | _ => length (hist x) end.
(** SQLite.cpp 1348-1352: getCommittedHash *)
Definition getCommittedHash (x : node) : bytes := match ph x with Settled => tip (hist x) | _ => tip (removelast (hist x)) end.
(** SQLite.cpp 1329-1346: getCommit; rows before [oldest] have been removed from the journal (942-953) *)
Definition getCommit (x : node) (id : nat) : option bytes :=
  if (id =? 0) || (id <? oldest x) then None else option_map snd (nth_error (hist x) (id - 1)).

Inductive msg := Login (count : nat) (hash : bytes) | Forked.
(** What node a has about its peer b: how far its LOGIN has been composed, what is on its way to b, and the flags
    (SQLitePeer).  [peer_count]: the commit count of the LOGIN that was accepted. *)
Inductive reading := Unsent | Half (count : nat) | Sent.
Record link := Link { composed : reading; queue : list msg; forked : bool; peer_count : option nat }.
(** SQLitePeer.cpp 74-89: reset *)
Definition reset : link := Link Unsent [] false None.
Record state := State { nodes : nat -> node; links : nat -> nat -> link }.

Definition set_node (s : state) (a : nat) (x : node) : state := State (fun i => if i =? a then x else nodes s i) (links s).
Definition set_link (s : state) (a b : nat) (l : link) : state :=
  State (nodes s) (fun i j => if (i =? a) && (j =? b) then l else links s i j).

(** SQLiteNode.cpp 2466-2487: _dieIfForkedFromCluster *)
Definition others (a : nat) : list nat := filter (fun b => negb (b =? a)) (seq 0 total).
Definition quorumNodeCount (a : nat) : nat := length (filter full (others a)) + (if full a then 1 else 0).
Definition forkedFullPeerCount (s : state) (a : nat) : nat := length (filter (fun b => full b && forked (links s a b)) (others a)).
Definition must_die (s : state) (a : nat) : bool := (quorumNodeCount a + 1) / 2 <=? forkedFullPeerCount s a.
Definition dieIfForkedFromCluster (s : state) (a : nat) : state :=
  if must_die s a then let x := nodes s a in set_node s a (Node (hist x) (ph x) (oldest x) false) else s.

(** SQLiteNode.cpp 1052-1061: does the hash of the LOGIN match? *)
Definition hashesMatch (x : node) (count : nat) (hash : bytes) : bool :=
  if negb (bytes_eqb hash []) && (count <=? getCommitCount x)
  then bytes_eqb hash (match getCommit x count with Some h => h | None => [] end)
  else true.

(** Node [b] takes a message from node [a]. *)
Definition receive (s : state) (a b : nat) (m : msg) : state :=
  let l := links s b a in
  if forked l then s                                                                       (* 973-977 *)
  else match m with
       | Login c h =>
           if hashesMatch (nodes s b) c h then set_link s b a (Link (composed l) (queue l) false (Some c))     (* 1063-1066 *)
           else dieIfForkedFromCluster (set_link s b a (Link (composed l) (queue l ++ [Forked]) true (peer_count l))) b   (* 1067-1075 *)
       | Forked => dieIfForkedFromCluster (set_link s b a (Link (composed l) (queue l) true (peer_count l))) b            (* 1376-1379 *)
       end.

Inductive event :=
  | Write (a : nat) (query : bytes) | Count (a : nat) | Store (a : nat)     (* a commit on node a, in three steps *)
  | Prune (a : nat) (from : nat)                                           (* the journal loses its oldest rows *)
  | Connect (a b : nat)                                                    (* the connection of a and b is made anew *)
  | ReadCount (a b : nat) | ReadHash (a b : nat)                           (* 1503-1513: _addPeerHeaders for the LOGIN from a to b *)
  | Receive (a b : nat).                                                   (* b takes the next message from a *)

Definition step (s : state) (e : event) : option state :=
  match e with
  | Write a q =>
      let x := nodes s a in
      match ph x with
      | Settled => if alive x then Some (set_node s a (Node (hist x ++ [(q, sha (tip (hist x) ++ q))]) Written (oldest x) true)) else None
      | _ => None
      end
  | Count a =>
      let x := nodes s a in
      match ph x with Written => if alive x then Some (set_node s a (Node (hist x) Counted (oldest x) true)) else None | _ => None end
  | Store a =>
      let x := nodes s a in
      match ph x with Counted => if alive x then Some (set_node s a (Node (hist x) Settled (oldest x) true)) else None | _ => None end
  | Prune a k =>
      let x := nodes s a in
      if alive x && (oldest x <=? k) && (k <=? length (hist x)) then Some (set_node s a (Node (hist x) (ph x) k true)) else None
  | Connect a b =>
      if negb (a =? b) && (a <? total) && (b <? total) && alive (nodes s a) && alive (nodes s b)
      then Some (set_link (set_link s a b reset) b a reset) else None
  | ReadCount a b =>
      let l := links s a b in
      match composed l with
      | Unsent => if alive (nodes s a) && negb (a =? b) then Some (set_link s a b (Link (Half (getCommitCount (nodes s a))) (queue l) (forked l) (peer_count l))) else None
      | _ => None
      end
  | ReadHash a b =>
      let l := links s a b in
      match composed l with
      | Half c => if alive (nodes s a) then Some (set_link s a b (Link Sent (queue l ++ [Login c (getCommittedHash (nodes s a))]) (forked l) (peer_count l))) else None
      | _ => None
      end
  | Receive a b =>                                     (* 2189-2193, 2233-2238: a node's own LOGIN is sent before it takes a message *)
      let l := links s a b in
      match composed (links s b a), queue l with
      | Sent, m :: rest =>
          if alive (nodes s b) && negb (a =? b) then Some (receive (set_link s a b (Link (composed l) rest (forked l) (peer_count l))) a b m) else None
      | _, _ => None
      end
  end.
Fixpoint run (s : state) (es : list event) : option state :=
  match es with [] => Some s | e :: es' => match step s e with Some s' => run s' es' | None => None end end.
(** The nodes as they are started, with any histories that are chains of hashes. *)
Definition start (hs : nat -> list entry) : state := State (fun a => Node (hs a) Settled 0 true) (fun _ _ => reset).
End Fork.

(** *** SQLiteNode.cpp 1822-1876: _updateSyncPeer, with what it reads of the peers. *)
Record peer := Peer { loggedIn : bool; commitCount : N; forked_peer : bool; leaderish : bool; latency : N }.
Record best := Best { newSyncPeer : option peer; potentialLeadPeer : option peer }.
Definition consider (mine : N) (b : best) (p : peer) : best :=
  if negb (loggedIn p) || (commitCount p <=? mine)%N then b
  else if forked_peer p then b
  else if leaderish p then Best (newSyncPeer b) (Some p)
  else match newSyncPeer b with
       | None => Best (Some p) (potentialLeadPeer b)
       | Some q =>
           if (latency q =? latency p)%N then (if (commitCount q <? commitCount p)%N then Best (Some p) (potentialLeadPeer b) else b)
           else if (latency q =? 0)%N then Best (Some p) (potentialLeadPeer b)
           else if negb (latency p =? 0)%N && (latency p <? latency q)%N then Best (Some p) (potentialLeadPeer b)
           else b
       end.
Definition updateSyncPeer (mine : N) (peers : list peer) : option peer :=
  let b := fold_left (consider mine) peers (Best None None) in
  match newSyncPeer b with Some p => Some p | None => potentialLeadPeer b end.
