(** What C28 says about the ports, in terms of what has happened so far. *)
From Verif Require Import Base.

(** [Heard leader theirs ours]: a message of a peer, whether the peer is the current leader, the commit count it
    reports and our own. *)
Inductive pevent :=
| Block (reason : bytes)
| Unblock (reason : bytes)
| State (serving : bool)          (* the node is now LEADING or FOLLOWING, or is not *)
| Poll                            (* one pass of the main loop *)
| Shutdown (detach : bool)
| Reset                           (* attach again after a detach *)
| Heard (leader : bool) (theirs ours : N).

Definition LAGGING : bytes := lit "COMMITS_LAGGING_BEHIND".

(** A message is a call to block or unblock, or nothing: block once when 12,500 commits behind the leader, unblock when
    less than 1,000 behind. *)
Definition falls_behind (leader : bool) (theirs ours : N) : bool := leader && N.leb (ours + 12500) theirs.
Definition catches_up (theirs ours : N) : bool := N.ltb theirs (ours + 1000).
Fixpoint calls (lagging : bool) (h : list pevent) : list pevent :=
  match h with
  | [] => []
  | Heard l p o :: h' =>
      if falls_behind l p o && negb lagging then Block LAGGING :: calls true h'
      else if catches_up p o && lagging then Unblock LAGGING :: calls false h'
      else calls lagging h'
  | Reset :: h' => Reset :: calls false h'
  | e :: h' => e :: calls lagging h'
  end.

(** How often a reason is outstanding. *)
Definition outstanding (h : list pevent) (r : bytes) : nat :=
  fold_left (fun n e => match e with
    | Block r' => if bytes_eqb r r' then S n else n
    | Unblock r' => if bytes_eqb r r' then pred n else n
    | Reset => O
    | _ => n end) (calls false h) O.
Definition unblocked (h : list pevent) : Prop := forall r, outstanding h r = O.
Definition running (h : list pevent) : bool :=
  fold_left (fun b e => match e with Shutdown _ => false | Reset => true | _ => b end) h true.
Definition serving (h : list pevent) : bool := fold_left (fun b e => match e with State s => s | _ => b end) h false.
Definition may_open (h : list pevent) : Prop := unblocked h /\ running h = true /\ serving h = true.

Definition closes (e : pevent) : bool := match e with Block _ | Shutdown _ | Reset => true | _ => false end.

(** Whether the LAGGING call of [calls] is in force. *)
Fixpoint lag_after (b : bool) (h : list pevent) : bool :=
  match h with
  | [] => b
  | Heard l p o :: h' => lag_after (if falls_behind l p o && negb b then true else if catches_up p o && b then false else b) h'
  | Reset :: h' => lag_after false h'
  | _ :: h' => lag_after b h'
  end.
(** Some pass of the main loop found the port allowed to open, and no call since then closed it. *)
Definition opened (h : list pevent) : Prop :=
  exists a b, h = a ++ Poll :: b /\ may_open a /\ forallb (fun e => negb (closes e)) (calls (lag_after false a) b) = true.

(** Behind: a leader's message said so, and since then no message was less than 1,000 ahead of us. *)
Definition behind (h : list pevent) : Prop :=
  exists a p o b, h = a ++ Heard true p o :: b /\ (o + 12500 <= p)%N /\
    forall e, In e b -> match e with Heard _ p o => (o + 1000 <= p)%N | Reset => False | _ => True end.
Definition small (h : list pevent) : Prop :=
  Forall (fun e => match e with Heard _ p o => (p < 2 ^ 63 /\ o < 2 ^ 63)%N | _ => True end) h.
