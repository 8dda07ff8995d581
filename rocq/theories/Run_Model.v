(** Running a command: BedrockServer.cpp 479-915.

    What the rest of the server answers to each question runCommand asks (is time over, which state is the node in, what
    does peek say, ...) is given by records, one for the part before the loop and one for each pass of the loop; every
    combination is allowed.  What is sent uses the model of the messenger (C33); peek, process and commit are those of C32.
    Commands for clients that cannot be answered (negative initiatingClientID) are treated as answered. *)
From Verif Require Import Base Table Http_Model Messenger_Spec Messenger_Model Run_Spec.

Inductive state := LEADING | FOLLOWING | SYNCHRONIZING | STANDINGDOWN | OTHER.
Definition is_leading (s : state) : bool := match s with LEADING => true | _ => false end.
(** A call of runOnPeer: the request that is sent (it has the remaining time in it, so differs from call to call), the
    compressor, and the network. *)
Record sending := Sending { q_method : bytes; q_table : stable; q_content : bytes; q_gz : bytes -> bytes; q_looks : list look }.
Definition send (why : reason) (leader : bool) (q : sending) (c : command) : list event * command * ret :=
  match SComposeHTTP (q_gz q) (q_method q) (q_table q) (q_content q) with
  | Some w => let '(s, c', k) := runOnPeer leader (Some w) (q_looks q) c in ([Sent why w s], c', k)
  | None => let '(_, c', k) := runOnPeer leader None (q_looks q) c in ([], c', k)
  end.

(** 479-625: the part before the loop. *)
Record start := Start {
  s_expired : bool;                (* 488 *)
  s_control : bool;                (* 502: handled (and answered) as status or control command *)
  s_crash : bool;                  (* 507 *)
  s_not_now : bool;                (* 521-524: no sync node, or scheduled for later *)
  s_expired_waiting : bool;        (* 531-552: time is over while the database gets ready *)
  s_state1 : state; s_at_once : bool; s_other : bool;       (* 561 *)
  s_to_leader : sending; s_to_other : sending;              (* 563, 566 *)
  s_state2 : state; s_sync : sending;                       (* 577-579 *)
  s_synchronous : bool; s_state3 : state; s_room : bool }.  (* 613-622: handed to the blocking queue, if it accepts *)

Inductive peek_result := PeekDone | Process (* also: not peeked again, because of HTTPS requests *).
Inductive process_result := NeedsCommit | NoCommit | NotLeading (https : bool).
(** How the end of a pass (858-912) goes on: to the blocking queue, if it accepts; another pass after a sleep; the main queue. *)
Inductive then_what := ToBlocking (room : bool) | Sleep | Requeue.
(** 630-915: one pass of the loop. *)
Record pass := Pass {
  p_expired : bool;                (* 645 *)
  p_future : bool;                 (* 656 *)
  p_prepeeked : bool;              (* 672-679: prePeek completed it *)
  p_peek : peek_result;            (* 698-701 *)
  p_https : bool;                  (* 708-717: HTTPS requests are not complete, or it wants to be peeked again *)
  p_ready : bool;                  (* 723 *)
  p_state : state;                 (* 733 *)
  p_send : sending;                (* 738 *)
  p_process : process_result;      (* 753 *)
  p_commit : bool;                 (* 779 *)
  p_state_after : state;           (* 781 *)
  p_expired_after : bool;          (* 801 *)
  p_then : then_what }.

(** How a pass or a run ends. *)
Inductive next := Again | Over | Waits (c : command) | Stuck.

Definition escalate (q : sending) (c : command) : list event * next :=       (* 733-750 *)
  match send NeedsWrite true q c with
  | (ev, c', Returns true) => (ev ++ [Replied Peer], Over)
  | (ev, c', Returns false) => (ev ++ [Queued Main], Waits c')
  | (ev, _, Throws) => (ev ++ [Stopped], Over)
  | (ev, _, Running) => (ev, Stuck)
  end.
Definition later (t : then_what) (c : command) : list event * next :=        (* 858-912 *)
  match t with
  | ToBlocking true => ([Queued Blocking], Waits c)
  | ToBlocking false => ([Replied Refused], Over)
  | Sleep => ([], Again)
  | Requeue => ([Queued Main], Waits c)
  end.
Definition one_pass (p : pass) (c : command) : list event * next :=
  if p_expired p then ([Replied Expired], Over)
  else if p_future p then ([Queued Future], Waits c)
  else if p_prepeeked p then ([Replied Peeked], Over)
  else match p_peek p with
  | PeekDone => ([Replied Peeked], Over)
  | Process =>
      if p_https p then ([], Again)
      else if negb (p_ready p) then ([Queued Main], Waits c)
      else if negb (is_leading (p_state p)) then escalate (p_send p) c
      else match p_process p with
      | NeedsCommit =>
          let ev := if p_commit p then [Committed (is_leading (p_state_after p))] else [] in
          if negb (is_leading (p_state_after p)) then (ev, Again)                    (* 781-789 *)
          else if p_commit p then (ev ++ [Replied Commit], Over)
          else if p_expired_after p then ([Replied Expired], Over)
          else later (p_then p) c
      | NoCommit => ([Replied Processed], Over)
      | NotLeading true => ([Replied Refused], Over)
      | NotLeading false => later (p_then p) c
      end
  end.
Fixpoint loop (ps : list pass) (c : command) : list event * next :=
  match ps with
  | [] => ([], Stuck)
  | p :: ps' =>
      match one_pass p c with
      | (ev, Again) => let (ev', n) := loop ps' c in (ev ++ ev', n)
      | other => other
      end
  end.

(** 557-571; [None]: the run goes on. *)
Definition first_escalation (s : start) (c : command) : list event * command * option next :=
  if (match s_state1 s with FOLLOWING => true | _ => false end) && negb (complete c) && (s_at_once s || s_other s) then
    let '(ev1, c1, k1) := if s_at_once s then send AtOnce true (s_to_leader s) c else ([], c, Returns false) in
    match k1 with
    | Returns true => (ev1, c1, None)
    | Throws => (ev1 ++ [Stopped], c1, Some Over)
    | Running => (ev1, c1, Some Stuck)
    | Returns false =>
        if s_other s then
          let '(ev2, c2, k2) := send OtherVersion false (s_to_other s) c1 in
          match k2 with
          | Returns true => (ev1 ++ ev2, c2, None)
          | Returns false => (ev1 ++ ev2 ++ [Queued Main], c2, Some (Waits c2))
          | Throws => (ev1 ++ ev2 ++ [Stopped], c2, Some Over)
          | Running => (ev1 ++ ev2, c2, Some Stuck)
          end
        else (ev1 ++ [Queued Main], c1, Some (Waits c1))
    end
  else ([], c, None).
(** 575-587 *)
Definition forward (s : start) (c : command) : list event * command * option next :=
  match s_state2 s with
  | SYNCHRONIZING =>
      let '(ev, c', k) := send Synchronizing false (s_sync s) c in
      match k with
      | Returns _ => (ev, c', None)
      | Throws => (ev ++ [Stopped], c', Some Over)
      | Running => (ev, c', Some Stuck)
      end
  | _ => ([], c, None)
  end.
Definition run (s : start) (ps : list pass) (c : command) : list event * next :=
  if s_expired s then ([Replied Expired], Over)
  else if s_control s then ([Replied Processed], Over)
  else if s_crash s then ([Replied Refused], Over)
  else if s_not_now s then ([Queued Main], Waits c)
  else if s_expired_waiting s then ([Replied Expired], Over)
  else
    let '(ev1, c1, n1) := first_escalation s c in
    match n1 with
    | Some n => (ev1, n)
    | None =>
        let '(ev2, c2, n2) := forward s c1 in
        match n2 with
        | Some n => (ev1 ++ ev2, n)
        | None =>
            if complete c2 then (ev1 ++ ev2 ++ [Replied Peer], Over)                       (* 592-604 *)
            else if s_synchronous s && is_leading (s_state3 s)                              (* 613-627 *)
            then if s_room s then (ev1 ++ ev2 ++ [Queued Blocking], Waits c2) else (ev1 ++ ev2 ++ [Replied Refused], Over)
            else let (ev3, n) := loop ps c2 in (ev1 ++ ev2 ++ ev3, n)
        end
    end.
(** All the runs of one command: it is taken from the queue it waits in and run again. *)
Fixpoint life (rs : list (start * list pass)) (c : command) : list event * next :=
  match rs with
  | [] => ([], Waits c)
  | (s, ps) :: rs' =>
      match run s ps c with
      | (ev, Waits c') => let (ev', n) := life rs' c' in (ev ++ ev', n)
      | other => other
      end
  end.
