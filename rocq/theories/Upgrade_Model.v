(** C64: running the upgrade of the database before anything else.  BedrockServer.cpp 145-159, 330-351 (sync thread),
    479-876 (runCommand), 1479-1495 (dbReadyToHandleRequests), 1914-1949 (the upgrade command), BedrockCommand.cpp 65-71.
    A transition system: each read of a shared variable is a step, and the steps of the sync thread and of all commands
    interleave freely.  Simplified: one life of the sync thread (resetServer starts another); the node changes its state
    by steps of its own, at any time; what a command does between two such reads is left out. *)
From Verif Require Import Base Upgrade_Spec.

(** Where a command is in runCommand. *)
Inductive place :=
| Queued            (* in a queue, or at 530: about to read the state in dbReadyToHandleRequests() *)
| Queued_flag       (* 1486-1490: has read LEADING or STANDINGDOWN, about to read _upgradeCompleted *)
| Queued_state      (* 530: about to compare the state with STANDINGDOWN *)
| Peeked            (* 722: about to read the state in dbReadyToHandleRequests() *)
| Peeked_flag       (* 1490, from 722 *)
| Allowed           (* 732: about to compare the state with LEADING *)
| Processing        (* 752: about to call processCommand() *)
| Committing        (* 775: about to call commit() *)
| Finished (ok : bool). (* done; [ok]: complete, with 200 OK.  About to be destroyed. *)
Record command := Command { c_id : nat; c_upgrade : bool; c_place : place }.

(** Where the sync thread is: 332 (three reads), 333 (majorityOfFollowersSubscribed), or in runCommand at 345. *)
Inductive sync := Reads_completed | Reads_running | Reads_state | Asks_majority | Runs.

Record state := State {
  s_node : node;
  s_completed : bool;     (* _upgradeCompleted *)
  s_running : bool;       (* upgradeCommandRunning *)
  s_sync : sync;
  s_commands : list command;
  s_next : nat;
  s_trace : list event }.
Definition start (n : node) : state := State n false false Reads_completed [] 0 [Became n].

(** What a command meets when it takes its next step. *)
Inductive luck :=
| Goes              (* goes on *)
| Ends (ok : bool)  (* is complete: peek sufficed, it timed out, an exception, the answer of the leader *)
| Again.            (* is put into a queue, or starts from the top of the loop *)
Inductive act := Changes (n : node) | Syncs (majority : bool) | Arrives | Moves (i : nat) (l : luck).

Definition add (e : event) (s : state) : state :=
  State (s_node s) (s_completed s) (s_running s) (s_sync s) (s_commands s) (s_next s) (s_trace s ++ [e]).
Definition at_ (p : sync) (s : state) : state := State (s_node s) (s_completed s) (s_running s) p (s_commands s) (s_next s) (s_trace s).
Definition put (i : nat) (p : place) (s : state) : state :=
  State (s_node s) (s_completed s) (s_running s) (s_sync s)
    (map (fun c => if Nat.eqb (c_id c) i then Command i (c_upgrade c) p else c) (s_commands s)) (s_next s) (s_trace s).
Definition drop (i : nat) (s : state) : state :=
  State (s_node s) (s_completed s) (s_running s) (s_sync s) (filter (fun c => negb (Nat.eqb (c_id c) i)) (s_commands s)) (s_next s) (s_trace s).
Definition create (up : bool) (p : place) (s : state) : state :=
  State (s_node s) (s_completed s) (s_running s) (s_sync s) (s_commands s ++ [Command (s_next s) up p]) (S (s_next s)) (s_trace s).
Definition set_running (b : bool) (s : state) : state := State (s_node s) (s_completed s) b (s_sync s) (s_commands s) (s_next s) (s_trace s).
Definition set_completed (s : state) : state := State (s_node s) true (s_running s) (s_sync s) (s_commands s) (s_next s) (s_trace s).

(** 332-350: one step of the sync thread. *)
Definition sync_step (majority : bool) (s : state) : state :=
  match s_sync s with
  | Reads_completed => if negb (s_completed s) then at_ Reads_running s else s
  | Reads_running => if negb (s_running s) then at_ Reads_state s else at_ Reads_completed s
  | Reads_state => match s_node s with Leading => at_ Asks_majority s | _ => at_ Reads_completed s end
  | Asks_majority =>
      if negb majority then at_ Reads_completed s
      else at_ Runs (add (Starts (s_next s)) (create true Peeked (set_running true s)))
  | Runs => at_ Reads_completed s   (* runCommand returns when the command is done or in a queue *)
  end.

(** 150-159, BedrockCommand.cpp 65-71: the destructor of a command. *)
Definition destroy (i : nat) (up ok : bool) (s : state) : state :=
  if up then set_running false (drop i (if ok then add Known (set_completed s) else s)) else drop i s.

(** One step of command i. *)
Definition command_step (i : nat) (up : bool) (p : place) (l : luck) (s : state) : option state :=
  match p, l with
  (* 530-557: the upgrade leaves this loop at once *)
  | Queued, Goes =>
      Some (if up then put i Peeked s
            else match s_node s with
                 | Following => put i Queued_state s
                 | Leading | Standing_down => put i Queued_flag s
                 | Other => s
                 end)
  | Queued_flag, Goes => Some (if s_completed s then put i Queued_state s else put i Queued s)
  | Queued_state, Goes => Some (match s_node s with Standing_down => put i Queued s | _ => put i Peeked s end)
  (* 722-728: the upgrade is exempt *)
  | Peeked, Goes =>
      Some (if up then put i Allowed s
            else add (Asks i (s_node s))
                   match s_node s with
                   | Following => put i Allowed s
                   | Leading | Standing_down => put i Peeked_flag s
                   | Other => put i Queued s
                   end)
  | Peeked_flag, Goes => Some (if s_completed s then put i Allowed s else put i Queued s)
  (* 732-748 *)
  | Allowed, Goes => Some (match s_node s with Leading => put i Processing s | _ => s end)
  | Allowed, Again => match s_node s with Leading => None | _ => Some (put i Queued s) end
  | Allowed, Ends ok => match s_node s with Leading => None | _ => Some (put i (Finished (if up then false else ok)) s) end
  (* 752-777, 1936-1949 *)
  | Processing, Goes => Some (if up then put i Committing s else add (Writes i) (put i Committing s))
  | Processing, Ends ok =>   (* nothing to commit, or an exception *)
      Some (let s' := put i (Finished ok) s in if up then (if ok then add (Upgraded i) s' else s') else add (Writes i) s')
  | Processing, Again => Some (if up then put i Peeked s else add (Writes i) (put i Peeked s))   (* 818-833: no longer leading *)
  (* 775-830, 850-875 *)
  | Committing, Goes => Some (let s' := put i (Finished true) s in if up then add (Upgraded i) s' else s')
  | Committing, Again => Some (put i Peeked s)      (* a conflict: from the top of the loop *)
  | Committing, Ends false => Some (put i (Finished false) s)
  (* put into a queue: 725, 862, 873 *)
  | Peeked, Again => Some (put i Queued s)
  (* timeouts, commands that need not write, answers of other nodes *)
  | (Queued | Peeked), Ends ok => Some (put i (Finished (if up then false else ok)) s)
  | Finished ok, Goes => Some (destroy i up ok s)
  | _, _ => None
  end.

Definition find_command (i : nat) (s : state) : option command := List.find (fun c => Nat.eqb (c_id c) i) (s_commands s).
Definition step (s : state) (a : act) : option state :=
  match a with
  | Changes n => Some (add (Became n) (State n (s_completed s) (s_running s) (s_sync s) (s_commands s) (s_next s) (s_trace s)))
  | Syncs m => Some (sync_step m s)
  | Arrives => Some (create false Queued s)
  | Moves i l => match find_command i s with Some c => command_step i (c_upgrade c) (c_place c) l s | None => None end
  end.
Fixpoint run (s : state) (l : list act) : option state :=
  match l with [] => Some s | a :: l' => match step s a with Some s' => run s' l' | None => None end end.
Definition reachable (s : state) : Prop := exists n l, run (start n) l = Some s.
