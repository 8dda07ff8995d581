(** What C62 is about: a server that runs, is stopped by a signal, or is detached from its database and attached again by control
    commands.  Requests come in on connections to the command ports and to the control port. *)
From Verif Require Import Base.

(** What a client sends: a command to be answered when it has run, one to be answered at once and run later ("Connection: forget" or a
    time in the future), or one of the control commands that matter here. *)
Inductive request := Plain | Forget | Detach | Attach | BeginBackup | Status.
(** What can happen to an idle connection: nothing for a second, the client closes it, the client sends a request. *)
Inductive happening := Nothing | Hangup | Send (r : request).
(** What happens in the process: the main thread, the sync thread, or the thread of the i-th connection does its next step; a connection is
    accepted; a command nobody waits for is done; a signal arrives.  What the steps leave open is chosen by the event: whether the node
    leads or follows, how many commands that nobody waits for remain, whether the node has finished shutting down, what the client does. *)
Inductive event :=
  | Main (serving : bool) (remaining : nat)
  | Sync (node_down : bool)
  | Accept (control : bool)
  | Conn (i : nat) (h : happening)
  | Ran
  | Term                    (* SIGTERM or SIGINT *)
  | Other.                  (* any other signal that is not a crash *)
(** Events of a server nobody detaches. *)
Definition no_detach (e : event) : bool :=
  match e with Conn _ (Send Detach) | Conn _ (Send BeginBackup) => false | _ => true end.
(** Events that need no client and no signal: the server's own threads go on, and clients send nothing more. *)
Definition calm (e : event) : bool :=
  match e with Main _ _ | Sync _ | Ran | Conn _ Nothing => true | _ => false end.
(** How often SIGTERM or SIGINT has come. *)
Definition signals (es : list event) : nat := List.length (filter (fun e => match e with Term => true | _ => false end) es).
(** How often a control command has been sent. *)
Definition sent (r : request) (es : list event) : nat :=
  List.length (filter (fun e => match e, r with Conn _ (Send Detach), Detach | Conn _ (Send Attach), Attach | Conn _ (Send BeginBackup), BeginBackup => true | _, _ => false end) es).
