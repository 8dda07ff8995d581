(** The code of C62: the life of BedrockServer, with each thread's accesses to what the threads share as separate steps.  main.cpp 378-459;
    BedrockServer.cpp 34-75 (syncWrapper), 82-416 (sync), 991-1015 (_resetServer), 1120-1160, 1181-1282 (postPoll), 1474-1477 (isDetached),
    1683-1724 (control commands), 1951-1997 (_beginShutdown), 2070-2180 (_acceptSockets), 2189-2205, 2262-2440 (handleSocket).

    Commands are counted, not described: what they do is C31 and C32, how they are answered C45, how they wait C27.  A command ends only while
    there is a sync node, because without one it waits in the queue (519-526) and there are no workers.  A connection is a thread; the list of
    them is _outstandingSocketThreads.  Block reasons for ports are C28 and left out here.  That the main thread looks for SIGTERM (main.cpp 383) and
    clears all signals if there is another (387) is one step here; in the code a SIGTERM that comes in between is lost. *)
From Verif Require Import Base Life_Spec.

Inductive shutdown_state := RUNNING | START_SHUTDOWN | COMMANDS_FINISHED | DONE.        (* BedrockServer.h 166-172 *)
Definition running (x : shutdown_state) : bool := match x with RUNNING => true | _ => false end.
(** Where a thread is in _beginShutdown: before 1953, 1954, 1963 and 1974. *)
Inductive begin_pc := B0 | B1 | B2 | B3.
(** Where the thread of a connection is: before taking the shared lock (2266); in poll (2292); with a request read (2334); with a command made
    of it (2341); between the two assignments of Attach (1722-1723); in _beginShutdown; waiting for its command (2396); about to reply
    (2360, _control); at the end (2438); with a request that is answered at once, past the test in 2201 and before its command is made (2226). *)
Inductive conn_pc := KNew | KIdle | KRead (r : request) | KMade (r : request) | KAttach | KBegin (b : begin_pc) | KRun | KReply | KGone | KAdmitted.
Record conn := mkConn { ctl : bool; at_ : conn_pc }.
(** Where the main thread is: main.cpp 383, 396, 398; BedrockServer.cpp 1181, in _beginShutdown, 1244, 1255, 1262, 1264, 1268 (with whether count
    was 0), 1269; main.cpp 444, after 458, at abort (440). *)
Inductive main_pc := MOuter | MInner | MBackup | MPoll | MBegin (b : begin_pc) | MAccept | MStart | MLock | MCount | MOut (none : bool) | MStore | MJoin | MEnd | MAbort.
(** Where the sync thread is: 40, 45, 51, 52, 62, 112, 126, 171-351, 358, 371, 408, 412, 67, after 75. *)
Inductive sync_pc := STop | SRunning | SPlugins | SWait | SReset | SOpen | SNode | SLoop | SDone | SClear | SRelease | SFlag | SDecide | SReturned.
Record server := mkServer {
  sd : shutdown_state;                                          (* _shutdownState *)
  detach : bool; should : bool; plugs : bool; backup : bool;    (* _detach, _syncLoopShouldBeRunning, _pluginsDetached, _shouldBackup *)
  term : bool; other : bool; terms : nat;                       (* SSignal.cpp: _SSignal_pendingSignalBitMask, _SSignal_terminationCount *)
  node : option bool;                                           (* _syncNode; whether it has been told to shut down *)
  pool : bool;                                                  (* _dbPool *)
  command_ports : bool; control_port : bool;
  conns : list conn;
  queued : nat;                                                 (* commands nobody waits for *)
  mpc : main_pc; spc : sync_pc }.
(** 1022-1030; bootstrap: main.cpp -bootstrap *)
Definition start (bootstrap : bool) : server :=
  mkServer RUNNING bootstrap true false false false false 0 None false false true [] 0 MOuter STop.

Definition set_sd x s := mkServer x (detach s) (should s) (plugs s) (backup s) (term s) (other s) (terms s) (node s) (pool s) (command_ports s) (control_port s) (conns s) (queued s) (mpc s) (spc s).
Definition set_detach x s := mkServer (sd s) x (should s) (plugs s) (backup s) (term s) (other s) (terms s) (node s) (pool s) (command_ports s) (control_port s) (conns s) (queued s) (mpc s) (spc s).
Definition set_should x s := mkServer (sd s) (detach s) x (plugs s) (backup s) (term s) (other s) (terms s) (node s) (pool s) (command_ports s) (control_port s) (conns s) (queued s) (mpc s) (spc s).
Definition set_plugs x s := mkServer (sd s) (detach s) (should s) x (backup s) (term s) (other s) (terms s) (node s) (pool s) (command_ports s) (control_port s) (conns s) (queued s) (mpc s) (spc s).
Definition set_backup x s := mkServer (sd s) (detach s) (should s) (plugs s) x (term s) (other s) (terms s) (node s) (pool s) (command_ports s) (control_port s) (conns s) (queued s) (mpc s) (spc s).
Definition set_signals x y z s := mkServer (sd s) (detach s) (should s) (plugs s) (backup s) x y z (node s) (pool s) (command_ports s) (control_port s) (conns s) (queued s) (mpc s) (spc s).
Definition set_node x s := mkServer (sd s) (detach s) (should s) (plugs s) (backup s) (term s) (other s) (terms s) x (pool s) (command_ports s) (control_port s) (conns s) (queued s) (mpc s) (spc s).
Definition set_pool x s := mkServer (sd s) (detach s) (should s) (plugs s) (backup s) (term s) (other s) (terms s) (node s) x (command_ports s) (control_port s) (conns s) (queued s) (mpc s) (spc s).
Definition set_ports x y s := mkServer (sd s) (detach s) (should s) (plugs s) (backup s) (term s) (other s) (terms s) (node s) (pool s) x y (conns s) (queued s) (mpc s) (spc s).
Definition set_conns x s := mkServer (sd s) (detach s) (should s) (plugs s) (backup s) (term s) (other s) (terms s) (node s) (pool s) (command_ports s) (control_port s) x (queued s) (mpc s) (spc s).
Definition set_queued x s := mkServer (sd s) (detach s) (should s) (plugs s) (backup s) (term s) (other s) (terms s) (node s) (pool s) (command_ports s) (control_port s) (conns s) x (mpc s) (spc s).
Definition main_at x s := mkServer (sd s) (detach s) (should s) (plugs s) (backup s) (term s) (other s) (terms s) (node s) (pool s) (command_ports s) (control_port s) (conns s) (queued s) x (spc s).
Definition sync_at x s := mkServer (sd s) (detach s) (should s) (plugs s) (backup s) (term s) (other s) (terms s) (node s) (pool s) (command_ports s) (control_port s) (conns s) (queued s) (mpc s) x.

(** BedrockCommand::getCommandCount *)
Definition has_command (k : conn) : bool :=
  match at_ k with KMade _ | KAttach | KBegin _ | KRun | KReply => true | _ => false end.
Definition command_count (s : server) : nat := List.length (filter has_command (conns s)) + queued s.
(** 1474-1477; its three loads are one step here *)
Definition isDetached (s : server) : bool := detach s && negb (should s) && plugs s.
(** 1148-1157; nothing sets shutdownWhileDetached *)
Definition shutdownComplete (s : server) : bool := if detach s then false else negb (should s).
(** _controlPortExclusionMutex: a connection to the control port has it for all its life, the main thread while it decides. *)
Definition holds (k : conn) : bool := ctl k && match at_ k with KNew | KGone => false | _ => true end.
Definition main_holds (s : server) : bool := match mpc s with MCount | MOut _ | MStore => true | _ => false end.

(** 1951-1997, one step of it, with the argument detach; the last component is the next place, None behind the end.  setShutdownPriority and
    _shutdownTime (1990-1992) are left out: nothing here depends on them. *)
Definition begin_step (d : bool) (remaining : nat) (b : begin_pc) (s : server) : server * option begin_pc :=
  match b with
  | B0 => if running (sd s) then (s, Some B1) else (s, None)
  | B1 => (set_detach d s, Some B2)
  | B2 => (set_queued (Nat.min remaining (queued s)) s, Some B3)
  | B3 => (set_sd START_SHUTDOWN (set_ports false (if detach s then control_port s else false) s), None)
  end.
Definition main_step (serving : bool) (remaining : nat) (s : server) : server :=
  match mpc s with
  | MOuter => if term s then main_at (if Nat.leb 2 (terms s) then MAbort else MJoin) (set_signals false (other s) (terms s) s)
              else main_at MInner (set_signals false false (terms s) s)
  | MInner => if shutdownComplete s || Nat.leb 2 (terms s) then main_at MOuter s
              else main_at (if backup s && isDetached s then MBackup else MPoll) s
  | MBackup => main_at MPoll (set_detach false s)
  | MPoll => let s := if serving && running (sd s) then match node s with Some _ => set_ports true true s | None => s end else s in
             main_at (if term s || other s then MBegin B0 else MAccept) s
  | MBegin b => let (s, n) := begin_step false remaining b s in main_at (match n with Some b => MBegin b | None => MAccept end) s
  | MAccept => main_at MStart s
  | MStart => main_at (match sd s with START_SHUTDOWN => MLock | _ => MInner end) s
  | MLock => if existsb holds (conns s) then s else main_at MCount s
  | MCount => main_at (MOut (Nat.eqb (command_count s) 0)) s
  | MOut none => main_at (match conns s with [] => if none then MStore else MInner | _ => MInner end) s
  | MStore => main_at MInner (set_sd COMMANDS_FINISHED s)
  | MJoin => match spc s with SReturned => main_at MEnd s | _ => s end
  | MEnd | MAbort => s
  end.
(** In the loop (171-351) the node is told to shut down if all commands are finished (247-255), and the loop ends when the node is down and there
    is no command (351). *)
Definition sync_step (node_down : bool) (s : server) : server :=
  match spc s with
  | STop => sync_at (if detach s then SRunning else SOpen) s
  | SRunning => sync_at SPlugins (set_sd RUNNING s)
  | SPlugins => sync_at SWait (set_plugs true s)
  | SWait => if detach s then s else sync_at SReset s
  | SReset => sync_at SOpen (set_should true (set_node None (set_sd RUNNING (set_backup false (set_ports false (control_port s) (set_plugs false s))))))
  | SOpen => sync_at SNode (set_pool true s)
  | SNode => sync_at SLoop (set_node (Some false) s)
  | SLoop => match node s with
             | Some true => if node_down && Nat.eqb (command_count s) 0 then sync_at SDone s else s
             | _ => match sd s with COMMANDS_FINISHED => set_node (Some true) s | _ => s end
             end
  | SDone => sync_at SClear (set_sd DONE s)
  | SClear => sync_at SRelease (set_node None (set_queued 0 s))
  | SRelease => sync_at SFlag (set_pool false s)
  | SFlag => sync_at SDecide (set_should false s)
  | SDecide => sync_at (if detach s then STop else SReturned) s
  | SReturned => s
  end.
(** One connection: the rest of the server, and where it goes; None if its thread ends. *)
Definition conn_step (c : bool) (k : conn_pc) (h : happening) (s : server) : server * option conn_pc :=
  match k with
  | KNew => if c && main_holds s then (s, Some KNew) else (s, Some KIdle)
  | KIdle => match h with
             | Nothing => (s, Some (if running (sd s) then KIdle else KGone))
             | Hangup => (s, Some KGone)
             | Send r => (s, Some (KRead r))
             end
  | KRead Forget => (s, Some (if running (sd s) then KAdmitted else KGone))        (* 2193-2204 *)
  | KAdmitted => (s, Some (KMade Forget))
  | KRead r => (s, Some (KMade r))
  | KMade Plain => (s, Some (if c && negb (running (sd s)) then KReply else KRun))
  | KMade Forget => (set_queued (S (queued s)) s, Some KGone)
  | KMade Detach => (s, Some (if isDetached s then KReply else KBegin B0))
  | KMade Attach => if running (sd s) then (set_should true s, Some KAttach) else (s, Some KReply)
  | KMade BeginBackup => (set_backup true s, Some (KBegin B0))
  | KMade Status => (s, Some KReply)
  | KAttach => (set_detach false s, Some KReply)
  | KBegin b => let (s, n) := begin_step true (queued s) b s in (s, Some (match n with Some b => KBegin b | None => KReply end))
  | KRun => match node s with Some _ => (s, Some (if running (sd s) then KIdle else KGone)) | None => (s, Some KRun) end
  | KReply => (s, Some (if running (sd s) then KIdle else KGone))
  | KGone => (s, None)
  end.
(** Connections are accepted by the main thread (1244, 1966) and by a thread in _beginShutdown (1966). *)
Definition accepting (s : server) : bool :=
  match mpc s with MAccept => true | MBegin B3 => true | _ => existsb (fun k => match at_ k with KBegin B3 => true | _ => false end) (conns s) end.
Definition step (s : server) (e : event) : server :=
  match e with
  | Main serving remaining => main_step serving remaining s
  | Sync d => match mpc s with MEnd | MAbort => s | _ => sync_step d s end
  | Accept c => if accepting s && (if c then control_port s else command_ports s) then set_conns (mkConn c KNew :: conns s) s else s
  | Conn i h =>
      match mpc s with MEnd | MAbort => s | _ =>
        match nth_error (conns s) i with
        | Some k => let (s', n) := conn_step (ctl k) (at_ k) h s in
                    set_conns (firstn i (conns s) ++ match n with Some p => [mkConn (ctl k) p] | None => [] end ++ skipn (S i) (conns s)) s'
        | None => s
        end
      end
  | Ran => match queued s, node s with S q, Some _ => set_queued q s | _, _ => s end
  | Term => set_signals true (other s) (S (terms s)) s
  | Other => set_signals (term s) true (terms s) s
  end.
Definition run (s : server) (es : list event) : server := fold_left step es s.
Definition reachable (s : server) : Prop := exists bootstrap es, s = run (start bootstrap) es.
