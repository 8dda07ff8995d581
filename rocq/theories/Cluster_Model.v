(** The cluster state machine of sqlitecluster/SQLiteNode.cpp and SQLitePeer.cpp: [n] nodes, each
    with a view of every peer, connected by sockets whose two directions are FIFO queues.

    Every call holds _stateMutex for its whole body, so one call ([update], the processing of one
    message, a connection, a disconnection, setPriority, ...) is one step.

    Simplified: commit counts, hashes and clocks are not stored; every decision that depends on
    them is an input of the step (so all outcomes are covered). Forked peers are not modelled
    (the branches on [forked] are taken as if it were false). A SYNCHRONIZE is answered in the step
    that receives it, not by a detached thread. PING, PONG, FOLLOWER_STATUS and
    TRANSACTION messages do not change anything modelled here and are omitted. *)
From Verif Require Import Base.

(** SQLiteNode.h:47-58, in order; UNKNOWN is left by the constructor (SQLiteNode.cpp:149). *)
Inductive nstate := SEARCHING | SYNCHRONIZING | WAITING | STANDINGUP | LEADING | STANDINGDOWN | SUBSCRIBING | FOLLOWING.
Definition nstate_eqb (a b : nstate) : bool :=
  match a, b with
  | SEARCHING, SEARCHING | SYNCHRONIZING, SYNCHRONIZING | WAITING, WAITING | STANDINGUP, STANDINGUP
  | LEADING, LEADING | STANDINGDOWN, STANDINGDOWN | SUBSCRIBING, SUBSCRIBING | FOLLOWING, FOLLOWING => true
  | _, _ => false
  end.
(** SWITHIN(STANDINGUP, state, STANDINGDOWN), as at SQLiteNode.cpp:655, 2402 and 2444. *)
Definition claiming (s : nstate) : bool := match s with STANDINGUP | LEADING | STANDINGDOWN => true | _ => false end.
(** SWITHIN(LEADING, state, STANDINGDOWN), SQLiteNode.cpp:1601. *)
Definition in_charge (s : nstate) : bool := match s with LEADING | STANDINGDOWN => true | _ => false end.

(** SQLitePeer.h:8-13. *)
Inductive resp := RNone | RApprove | RDeny.
(** A SQLitePeer: SQLitePeer.h:76-97. *)
Record view := mkV { v_state : nstate; v_prio : Z; v_perma : bool; v_logged : bool; v_resp : resp; v_subs : bool }.
(** A socket: none, usable, or shut down and not yet closed (STCPManager::Socket::State). *)
Inductive sock := SNone | SUp | SShut.
(** A SQLiteNode: SQLiteNode.h. [n_stint] is a ghost: the _stateChangeCount of the latest
    STANDINGUP. *)
Record nd := mkN {
  n_st : nstate; n_scc : nat; n_prio : Z; n_conf : Z; n_lead : option nat; n_sync : option nat;
  n_shut : bool; n_seen : bool; n_waited : bool; n_commits : bool; n_stint : nat; n_view : nat -> view }.

(** Messages. The count of a LOGIN is a ghost: the header is absent (SQLiteNode.cpp:1412-1426). *)
Inductive msg :=
| MLogin (count : nat) (st : nstate) (prio : Z)
| MState (count : nat) (st : nstate) (prio : Z)
| MResp (count : nat) (response : option bool)     (* None: no "Response" header *)
| MSync | MSyncResp | MSub | MSubApproved | MOther.

Record cluster := mkCl {
  c_node : nat -> nd;
  c_sock : nat -> nat -> sock;              (* [c_sock i j]: node i's socket for peer j *)
  c_link : nat -> nat -> list msg;          (* [c_link i j]: sent by i, not yet processed by j *)
  c_dead : nat -> nat -> bool;              (* i's socket for j is still open but j has closed its end *)
  c_appr : nat -> list (nat * nat);         (* ghost: standup requests approved by each node: peer, its count *)
  c_lost : bool;                            (* ghost: a node dropped a peer whose standup it had approved while that
                                               peer was still standing up, leading or standing down *)
  c_cross : bool                            (* ghost: a node's announced priority went to or from 0 *)
}.

Section Cluster.
Variable n : nat.                           (* number of nodes *)
Variable ver : nat -> nat.                  (* version of each node *)

Definition peers (i : nat) : list nat := filter (fun j => negb (Nat.eqb j i)) (seq 0 n).

Definition setnode (c : cluster) (i : nat) (x : nd) : cluster :=
  mkCl (fun k => if Nat.eqb k i then x else c_node c k) (c_sock c) (c_link c) (c_dead c) (c_appr c) (c_lost c) (c_cross c).
Definition setview (c : cluster) (i j : nat) (v : view) : cluster :=
  let x := c_node c i in
  setnode c i (mkN (n_st x) (n_scc x) (n_prio x) (n_conf x) (n_lead x) (n_sync x) (n_shut x) (n_seen x) (n_waited x) (n_commits x) (n_stint x)
                   (fun k => if Nat.eqb k j then v else n_view x k)).
Definition setsock (c : cluster) (i j : nat) (k : sock) : cluster :=
  mkCl (c_node c) (fun a b => if Nat.eqb a i && Nat.eqb b j then k else c_sock c a b) (c_link c) (c_dead c) (c_appr c) (c_lost c) (c_cross c).
Definition setlink (c : cluster) (i j : nat) (q : list msg) : cluster :=
  mkCl (c_node c) (c_sock c) (fun a b => if Nat.eqb a i && Nat.eqb b j then q else c_link c a b) (c_dead c) (c_appr c) (c_lost c) (c_cross c).
Definition setdead (c : cluster) (i j : nat) (d : bool) : cluster :=
  mkCl (c_node c) (c_sock c) (c_link c) (fun a b => if Nat.eqb a i && Nat.eqb b j then d else c_dead c a b) (c_appr c) (c_lost c) (c_cross c).
Definition setappr (c : cluster) (i : nat) (l : list (nat * nat)) : cluster :=
  mkCl (c_node c) (c_sock c) (c_link c) (c_dead c) (fun a => if Nat.eqb a i then l else c_appr c a) (c_lost c) (c_cross c).
Definition flag_lost (c : cluster) (b : bool) : cluster :=
  mkCl (c_node c) (c_sock c) (c_link c) (c_dead c) (c_appr c) (c_lost c || b) (c_cross c).
Definition flag_cross (c : cluster) (b : bool) : cluster :=
  mkCl (c_node c) (c_sock c) (c_link c) (c_dead c) (c_appr c) (c_lost c) (c_cross c || b).

(** ** Starting *)

(** SQLitePeer's constructor and reset(): SQLitePeer.cpp:14-33, 74-90. reset keeps permaFollower. *)
Definition view0 (perma : bool) : view := mkV SEARCHING 0 perma false RNone false.
(** The constructor, which ends by going SEARCHING: SQLiteNode.cpp:114-150. [p0] is the first
    priority; the code uses -1 for every node. *)
Definition node0 (p0 conf : Z) (perma : nat -> bool) : nd :=
  mkN SEARCHING 1 p0 conf None None false false false true 0 (fun j => view0 (perma j)).
Definition init (p0 conf : nat -> Z) (perma : nat -> bool) : cluster :=
  mkCl (fun i => node0 (p0 i) (conf i) perma) (fun _ _ => SNone) (fun _ _ => []) (fun _ _ => false) (fun _ => []) false false.

(** ** Sending *)

(** SQLitePeer.cpp:276-286 through SQLiteNode.cpp:1517-1526. *)
Definition send (c : cluster) (i j : nat) (m : msg) : cluster :=
  match c_sock c i j with
  | SUp => if c_dead c i j then c else setlink c i j (c_link c i j ++ [m])
  | _ => c
  end.
(** SQLiteNode.cpp:1528-1545 with subscribedOnly = false. *)
Definition broadcast (c : cluster) (i : nat) (m : msg) : cluster :=
  fold_left (fun c j => send c i j m) (peers i) c.

(** Ghost: does [i] owe its vote to a claim of [j] that is still going on? *)
Definition approved_claim (c : cluster) (i j : nat) : bool :=
  claiming (n_st (c_node c j)) && existsb (fun p => Nat.eqb (fst p) j && Nat.eqb (snd p) (n_stint (c_node c j))) (c_appr c i).

(** SQLitePeer.cpp:92-98. *)
Definition shutdown_socket (c : cluster) (i j : nat) : cluster :=
  match c_sock c i j with SUp => setsock c i j SShut | _ => c end.
(** SQLiteNode.cpp:1911-1916. *)
Definition reconnect_peer (c : cluster) (i j : nat) : cluster :=
  let v := n_view (c_node c i) j in
  shutdown_socket (flag_lost (setview c i j (mkV (v_state v) (v_prio v) (v_perma v) false (v_resp v) (v_subs v))) (approved_claim c i j)) i j.
(** SQLiteNode.cpp:1918-1924. *)
Definition reconnect_all (c : cluster) (i : nat) : cluster := fold_left (fun c j => reconnect_peer c i j) (peers i) c.
(** The exception handler of _onMESSAGE: SQLiteNode.cpp:1398-1408. *)
Definition throw_ (c : cluster) (i j : nat) : cluster := shutdown_socket (send c i j MOther) i j.

(** Field updates of one node. *)
Definition set_prio (c : cluster) (i : nat) (p : Z) : cluster :=
  let x := c_node c i in
  flag_cross (setnode c i (mkN (n_st x) (n_scc x) p (n_conf x) (n_lead x) (n_sync x) (n_shut x) (n_seen x) (n_waited x) (n_commits x) (n_stint x) (n_view x)))
             (negb (Bool.eqb (Z.eqb p 0) (Z.eqb (n_prio x) 0))).
Definition set_conf (c : cluster) (i : nat) (p : Z) : cluster :=
  let x := c_node c i in
  setnode c i (mkN (n_st x) (n_scc x) (n_prio x) p (n_lead x) (n_sync x) (n_shut x) (n_seen x) (n_waited x) (n_commits x) (n_stint x) (n_view x)).
Definition set_lead (c : cluster) (i : nat) (l : option nat) : cluster :=
  let x := c_node c i in
  setnode c i (mkN (n_st x) (n_scc x) (n_prio x) (n_conf x) l (n_sync x) (n_shut x) (n_seen x) (n_waited x) (n_commits x) (n_stint x) (n_view x)).
Definition set_sync (c : cluster) (i : nat) (l : option nat) : cluster :=
  let x := c_node c i in
  setnode c i (mkN (n_st x) (n_scc x) (n_prio x) (n_conf x) (n_lead x) l (n_shut x) (n_seen x) (n_waited x) (n_commits x) (n_stint x) (n_view x)).
Definition set_shut (c : cluster) (i : nat) (b : bool) : cluster :=
  let x := c_node c i in
  setnode c i (mkN (n_st x) (n_scc x) (n_prio x) (n_conf x) (n_lead x) (n_sync x) b (n_seen x) (n_waited x) (n_commits x) (n_stint x) (n_view x)).
Definition set_boot (c : cluster) (i : nat) (seen waited : bool) : cluster :=
  let x := c_node c i in
  setnode c i (mkN (n_st x) (n_scc x) (n_prio x) (n_conf x) (n_lead x) (n_sync x) (n_shut x) seen waited (n_commits x) (n_stint x) (n_view x)).
Definition set_commits (c : cluster) (i : nat) (b : bool) : cluster :=
  let x := c_node c i in
  setnode c i (mkN (n_st x) (n_scc x) (n_prio x) (n_conf x) (n_lead x) (n_sync x) (n_shut x) (n_seen x) (n_waited x) b (n_stint x) (n_view x)).
Definition clear_subs (c : cluster) (i : nat) : cluster :=
  let x := c_node c i in
  setnode c i (mkN (n_st x) (n_scc x) (n_prio x) (n_conf x) (n_lead x) (n_sync x) (n_shut x) (n_seen x) (n_waited x) (n_commits x) (n_stint x)
                   (fun k => let v := n_view x k in mkV (v_state v) (v_prio v) (v_perma v) (v_logged v) (v_resp v) false)).
Definition clear_resp (c : cluster) (i : nat) : cluster :=
  let x := c_node c i in
  setnode c i (mkN (n_st x) (n_scc x) (n_prio x) (n_conf x) (n_lead x) (n_sync x) (n_shut x) (n_seen x) (n_waited x) (n_commits x) (n_stint x)
                   (fun k => let v := n_view x k in mkV (v_state v) (v_prio v) (v_perma v) (v_logged v) RNone (v_subs v))).
(** The last lines of _changeState: SQLiteNode.cpp:1657-1662. *)
Definition enter (c : cluster) (i : nat) (new : nstate) : cluster :=
  let x := c_node c i in
  let k := S (n_scc x) in
  broadcast (setnode c i (mkN new k (n_prio x) (n_conf x) (n_lead x) (n_sync x) (n_shut x) (n_seen x) (n_waited x) (n_commits x)
                              (match new with STANDINGUP => k | _ => n_stint x end) (n_view x)))
            i (MState k new (n_prio x)).

(** newState < SUBSCRIBING, SQLiteNode.cpp:1617. *)
Definition before_subscribing (s : nstate) : bool := match s with SUBSCRIBING | FOLLOWING => false | _ => true end.

(** SQLiteNode.cpp:1547-1670. *)
Definition change_state (c : cluster) (i : nat) (new : nstate) : cluster :=
  let st := n_st (c_node c i) in
  if nstate_eqb new st then c
  else
    let c := match st with FOLLOWING => set_lead c i None | _ => c end in
    let c := if in_charge st && negb (in_charge new) then clear_subs (set_commits c i false) i else c in
    let c := if before_subscribing new then set_lead c i None else c in
    let c := match new with SEARCHING => c | _ => set_commits c i true end in
    let c := match new with
             | WAITING =>
                 let x := c_node c i in
                 if n_waited x then c
                 else
                   let c := set_boot c i (n_seen x) true in
                   if n_seen x then reconnect_all (set_prio c i (n_conf x)) i else c
             | _ => c
             end in
    enter c i new.

(** ** update *)

Definition count (f : nat -> bool) (l : list nat) : nat := List.length (filter f l).

Section Views.
Variable c : cluster.
Variable i : nat.
Notation vw j := (n_view (c_node c i) j).
Definition is_full (j : nat) : bool := negb (v_perma (vw j)).
Definition full_logged (j : nat) : bool := negb (v_perma (vw j)) && v_logged (vw j).
Definition num_full : nat := count is_full (peers i).
Definition num_full_logged : nat := count full_logged (peers i).
Definition num_approve : nat := count (fun j => full_logged j && match v_resp (vw j) with RApprove => true | _ => false end) (peers i).
Definition any_deny : bool := existsb (fun j => full_logged j && match v_resp (vw j) with RDeny => true | _ => false end) (peers i).
(** SQLiteNode.cpp:650-653: highest priority among logged in full peers. *)
Definition highest : option Z :=
  fold_left (fun m j => if full_logged j then match m with None => Some (v_prio (vw j)) | Some p => Some (Z.max p (v_prio (vw j))) end else m) (peers i) None.
(** SQLiteNode.cpp:656-662: the last one found. *)
Definition current_leader : option nat :=
  fold_left (fun m j => if full_logged j && claiming (v_state (vw j)) then Some j else m) (peers i) None.
(** SQLiteNode.cpp:1934-1950. *)
Definition majority_subscribed : bool :=
  Nat.leb num_full (2 * count (fun j => negb (v_perma (vw j)) && v_subs (vw j)) (peers i)).
(** SQLiteNode.cpp:838-858, without the commit count test. *)
Definition should_stand_down : bool :=
  existsb (fun j => match v_state (vw j) with
                    | LEADING => true
                    | WAITING => Z.ltb (n_prio (c_node c i)) (v_prio (vw j))
                    | _ => false
                    end) (peers i).
End Views.

(** The inputs of one call of update: whether some logged in peer is usable, whether the freshest
    has more commits, the sync peer _updateSyncPeer would choose, whether the state timed out,
    whether a WAITING peer has more commits than a leader, and whether something blocks
    shutdown. *)
Record oracle := mkO { o_usable : bool; o_behind : bool; o_sync : option nat; o_timeout : bool; o_ahead : bool; o_blocking : bool }.

(** SQLiteNode.cpp:451-947. *)
Definition update (c : cluster) (i : nat) (o : oracle) : cluster :=
  let x := c_node c i in
  match n_st x with
  | SEARCHING =>                                                              (* :477-556 *)
      if n_shut x then c
      else match peers i with
      | [] => change_state (set_prio c i (n_conf x)) i LEADING
      | _ =>
          if Nat.ltb (2 * num_full_logged c i) (num_full c i) then c
          else if negb (o_usable o) then c
          else if negb (o_behind o) then change_state c i WAITING
          else match o_sync o with
               | Some j => change_state (send (set_sync c i (Some j)) i j MSync) i SYNCHRONIZING
               | None => c
               end
      end
  | SYNCHRONIZING =>                                                          (* :563-584 *)
      if n_shut x || o_timeout o
      then change_state (set_sync (match n_sync x with Some j => reconnect_peer c i j | None => c end) i None) i SEARCHING
      else c
  | WAITING =>                                                                (* :602-731 *)
      if n_shut x then change_state c i SEARCHING
      else match highest c i with
      | None => change_state c i SEARCHING
      | Some hp =>
          let subscribe := match current_leader c i with
                           | Some l => if Z.ltb (n_prio x) hp && nstate_eqb (v_state (n_view x l)) LEADING then Some l else None
                           | None => None
                           end in
          match subscribe with
          | Some l => change_state (send (set_lead c i (Some l)) i l MSub) i SUBSCRIBING
          | None =>
              if o_behind o then change_state c i SEARCHING
              else if match current_leader c i with None => true | Some _ => false end && Nat.leb (num_full c i) (2 * num_full_logged c i)
                      && Z.ltb 0 (n_prio x) && Z.ltb hp (n_prio x)
              then change_state (clear_resp c i) i STANDINGUP
              else c
          end
      end
  | STANDINGUP =>                                                             (* :743-797 *)
      if n_shut x then change_state c i SEARCHING
      else if any_deny c i then change_state c i SEARCHING
      else if Nat.leb (num_full c i) (2 * num_full_logged c i) && Nat.leb (num_full c i) (2 * num_approve c i) then change_state c i LEADING
      else if o_timeout o then change_state c i SEARCHING
      else c
  | LEADING =>                                                                (* :814-884 *)
      if Z.eqb (n_prio x) 1 || n_shut x || should_stand_down c i || o_ahead o
      then
        let c := if negb (Z.eqb (n_prio x) 1) && n_shut x then set_prio c i 1 else c in
        let c := change_state c i STANDINGDOWN in
        let c := if n_shut x then fold_left (fun c j => shutdown_socket c i j) (peers i) c else c in
        change_state c i SEARCHING
      else c
  | STANDINGDOWN =>
      let c := if n_shut x then fold_left (fun c j => shutdown_socket c i j) (peers i) c else c in
      change_state c i SEARCHING
  | SUBSCRIBING =>                                                            (* :890-909 *)
      if n_shut x then change_state c i SEARCHING
      else if o_timeout o
      then change_state (set_lead (match n_lead x with Some j => reconnect_peer c i j | None => c end) i None) i SEARCHING
      else c
  | FOLLOWING =>                                                              (* :917-939 *)
      if n_shut x && negb (o_blocking o) then change_state c i SEARCHING
      else match n_lead x with
           | Some l => if in_charge (v_state (n_view x l)) then c else change_state c i SEARCHING
           | None => c (* SASSERT :931 *)
           end
  end.

(** ** Messages *)

(** SQLiteNode.cpp:2379-2464. [k] is the count to parrot back: 0 when the header is absent. *)
Definition send_standup_response (c : cluster) (i j : nat) (k : nat) : cluster :=
  let x := c_node c i in
  let v := n_view x j in
  if v_perma v then send c i j (MResp k (Some false))
  else if claiming (n_st x)
  then
    if Z.ltb (n_prio x) (v_prio v)
    then
      let c := match n_st x with
               | STANDINGUP => change_state c i SEARCHING
               | LEADING => change_state c i STANDINGDOWN
               | _ => c
               end in
      send c i j (MResp k None)
    else if majority_subscribed c i then send c i j (MResp k (Some false))
    else send (change_state (reconnect_all c i) i SEARCHING) i j (MResp k (Some false))
  else
    if existsb (fun k => negb (Nat.eqb k j) && claiming (v_state (n_view x k))) (peers i)
    then send c i j (MResp k (Some false))
    else send (setappr c i ((j, k) :: c_appr c i)) i j (MResp k (Some true)).

(** What a synchronization response leads to: :1258-1300. *)
Inductive sync_result := SyncDone | SyncAhead | SyncMore (next : option nat) | SyncFailed.

(** SQLiteNode.cpp:951-1410: node [i] processes [m] from [j]. [ok] and [sr] say how applying the
    commits of a subscription or synchronization response went. *)
Definition on_message (c : cluster) (i j : nat) (m : msg) (ok : bool) (sr : sync_result) : cluster :=
  let x := c_node c i in
  let v := n_view x j in
  match m with
  | MLogin _ st p =>                                                          (* :1009-1087 *)
      if v_logged v then throw_ c i j
      else if negb (Z.eqb (n_prio x) (-1) || Z.eqb (n_prio x) 0 || Z.eqb (n_prio x) 1) && Z.eqb p (n_prio x) then reconnect_peer c i j
      else
        let c := setview c i j (mkV st p (Z.eqb p 0) false (v_resp v) (v_subs v)) in
        let c := if negb (n_seen x) && Nat.eqb (ver j) (ver i)
                 then
                   let c := set_boot c i true (n_waited x) in
                   if n_waited x then reconnect_all (set_prio c i (n_conf x)) i else c
                 else c in
        let v := n_view (c_node c i) j in
        let c := setview c i j (mkV (v_state v) (v_prio v) (v_perma v) true (v_resp v) (v_subs v)) in
        match st with STANDINGUP => send_standup_response c i j 0 | _ => c end
  | _ =>
      if negb (v_logged v) then throw_ c i j                                  (* :1088 *)
      else
        match m with
        | MLogin _ _ _ => c (* above *)
        | MState k st p =>                                                    (* :1090-1164 *)
            let from := v_state v in
            let c := setview c i j (mkV st p (Z.eqb p 0) true (v_resp v) (v_subs v)) in
            if nstate_eqb from st then c
            else match st with
                 | SEARCHING => setview c i j (mkV st p (Z.eqb p 0) true (v_resp v) false)
                 | STANDINGUP => send_standup_response c i j k
                 | _ => c
                 end
        | MResp k r =>                                                        (* :1165-1190 *)
            match n_st x with
            | STANDINGUP =>
                if negb (Nat.eqb k (n_scc x)) then c
                else match r with
                     | None => throw_ c i j
                     | Some b => setview c i j (mkV (v_state v) (v_prio v) (v_perma v) (v_logged v) (if b then RApprove else RDeny) (v_subs v))
                     end
            | _ => c
            end
        | MSync => send c i j MSyncResp                                       (* :1191-1230 *)
        | MSyncResp =>                                                        (* :1231-1300 *)
            match n_st x with
            | SYNCHRONIZING =>
                match n_sync x with
                | Some p =>
                    if negb (Nat.eqb p j) then throw_ c i j
                    else match sr with
                         | SyncDone => change_state (set_sync c i None) i WAITING
                         | SyncAhead => change_state (set_sync (reconnect_peer c i p) i None) i SEARCHING
                         | SyncMore (Some q) => send (set_sync c i (Some q)) i q MSync
                         | SyncMore None => change_state (set_sync c i None) i SEARCHING
                         | SyncFailed => throw_ (change_state (set_sync (reconnect_peer c i p) i None) i SEARCHING) i j
                         end
                | None => throw_ c i j
                end
            | _ => throw_ c i j
            end
        | MSub =>                                                             (* :1301-1325 *)
            match n_st x with
            | LEADING => setview (send c i j MSubApproved) i j (mkV (v_state v) (v_prio v) (v_perma v) (v_logged v) (v_resp v) true)
            | _ => throw_ c i j
            end
        | MSubApproved =>                                                     (* :1326-1348 *)
            match n_st x with
            | SUBSCRIBING =>
                match n_lead x with
                | Some l =>
                    if negb (Nat.eqb l j) then throw_ c i j
                    else if ok then change_state c i FOLLOWING
                    else throw_ (change_state (reconnect_peer c i l) i SEARCHING) i j
                | None => throw_ c i j
                end
            | _ => throw_ c i j
            end
        | MOther => c
        end
  end.

(** ** Connections *)

(** SQLiteNode.cpp:1412-1426, after setSocket or a new socket (SQLitePeer.cpp:141-160). *)
Definition on_connect (c : cluster) (i j : nat) : cluster :=
  let x := c_node c i in
  send (setsock c i j SUp) i j (MLogin (n_scc x) (n_st x) (n_prio x)).

Definition has_socket (c : cluster) (i j : nat) : bool := match c_sock c i j with SNone => false | _ => true end.

(** SQLiteNode.cpp:1434-1503, after peer->reset(). *)
Definition on_disconnect (c : cluster) (i j : nat) : cluster :=
  let c := match n_lead (c_node c i) with
           | Some l => if Nat.eqb l j then change_state (set_lead c i None) i SEARCHING else c
           | None => c
           end in
  let c := match n_sync (c_node c i) with
           | Some l => if Nat.eqb l j then change_state (set_sync c i None) i SEARCHING else c
           | None => c
           end in
  if claiming (n_st (c_node c i))
     && Nat.ltb (2 * count (fun k => negb (Nat.eqb k j) && full_logged c i k) (peers i)) (count (fun k => negb (Nat.eqb k j) && is_full c i k) (peers i))
  then change_state c i SEARCHING
  else c.

(** Closing a socket: what was sent on it and not processed is lost, in both directions once both
    ends are closed; the peer (SQLitePeer::reset) is forgotten. *)
Definition close (c : cluster) (i j : nat) : cluster :=
  let lost := approved_claim c i j in
  let c := setsock c i j SNone in
  let c := setlink c j i [] in
  let c := if has_socket c j i && negb (c_dead c i j) then setdead c j i true else setlink c i j [] in
  let c := setdead c i j false in
  flag_lost (setview c i j (view0 (v_perma (n_view (c_node c i) j)))) lost.

(** ** Steps *)

Inductive event :=
| EConnect (i j : nat)                       (* i opens or accepts a connection with j *)
| EDisconnect (i j : nat)                    (* i finds its socket for j closed: SQLiteNode.cpp:2262-2267 *)
| EBreak (i j : nat)                         (* i's socket for j fails and is shut down: :2252-2260 *)
| ERecv (i j : nat) (ok : bool) (sr : sync_result)  (* i processes the next message from j *)
| EUpdate (i : nat) (o : oracle)
| ESetPriority (i : nat) (p : Z)
| EShutdown (i : nat)                        (* beginShutdown :232 *)
| EShutdownPriority (i : nat).               (* setShutdownPriority :308 *)

(** setPriority: SQLiteNode.cpp:2489-2584; the demotion quorum check is [demote_ok]. *)
Definition demote_ok (c : cluster) (i : nat) : bool := Nat.leb ((n + 1) / 2) (num_full c i).
Definition set_priority (c : cluster) (i : nat) (p : Z) : cluster :=
  let x := c_node c i in
  if Z.ltb p 0 || Z.eqb p 1 then c                                            (* :2494 throws *)
  else if Z.ltb 0 p && existsb (fun j => v_logged (n_view x j) && Z.eqb (v_prio (n_view x j)) p) (peers i) then c (* :2519 throws *)
  else if Z.eqb p 0 && Z.ltb 0 (n_prio x) && negb (demote_ok c i) then c      (* :2532 throws *)
  else if Z.eqb (n_conf x) p then c
  else
    let c := set_conf c i p in
    if Z.eqb (n_prio x) (-1) || Z.eqb (n_prio x) 1 then c
    else
      let c := set_prio c i p in
      let c := broadcast c i (MState (n_scc x) (n_st x) p) in
      match n_st x with
      | LEADING =>
          if existsb (fun j => v_logged (n_view x j) && Z.ltb p (v_prio (n_view x j)) && nstate_eqb (v_state (n_view x j)) FOLLOWING) (peers i)
          then change_state c i STANDINGDOWN else c
      | FOLLOWING =>
          match n_lead x with
          | Some l => if v_logged (n_view x l) && nstate_eqb (v_state (n_view x l)) LEADING && Z.ltb (v_prio (n_view x l)) p
                      then change_state c i SEARCHING else c
          | None => c
          end
      | _ => c
      end.

(** SQLiteNode.cpp:308-324. *)
Definition set_shutdown_priority (c : cluster) (i : nat) : cluster :=
  let x := c_node c i in
  let c := set_prio c i 1 in
  match n_st x with LEADING => c | _ => broadcast c i (MState (n_scc x) (n_st x) 1) end.

Definition valid (i j : nat) : bool := Nat.ltb i n && Nat.ltb j n && negb (Nat.eqb i j).

Definition step (c : cluster) (e : event) : option cluster :=
  match e with
  | EConnect i j =>
      if valid i j && negb (has_socket c i j) && negb (c_dead c j i) then Some (on_connect c i j) else None
  | EDisconnect i j =>
      if valid i j && has_socket c i j then Some (on_disconnect (close c i j) i j) else None
  | EBreak i j => if valid i j then Some (throw_ c i j) else None
  | ERecv i j ok sr =>
      if valid i j && has_socket c i j
      then match c_link c j i with
           | [] => None
           | m :: q => Some (on_message (setlink c j i q) i j m ok sr)
           end
      else None
  | EUpdate i o => if Nat.ltb i n then Some (update c i o) else None
  | ESetPriority i p => if Nat.ltb i n then Some (set_priority c i p) else None
  | EShutdown i => if Nat.ltb i n then Some (set_shut c i true) else None
  | EShutdownPriority i => if Nat.ltb i n then Some (set_shutdown_priority c i) else None
  end.
Fixpoint run (c : cluster) (es : list event) : option cluster :=
  match es with [] => Some c | e :: es' => match step c e with Some c' => run c' es' | None => None end end.
End Cluster.
