(** What C31 is about: what can be seen of a command while a node has it. *)
From Verif Require Import Base.

(** Where an answer comes from. *)
Inductive source :=
| Peeked         (* the command was done without a write *)
| Processed      (* it was processed and had nothing to commit, or failed *)
| Commit         (* it was committed *)
| Peer           (* another node answered, or sending to it failed for good *)
| Expired        (* 555: time is over *)
| Refused.       (* crash-inducing, rate limited, leadership lost with HTTPS requests *)
Inductive queue := Main | Blocking | Future.
(** Why it is sent to another node: it needs a write; it is marked to be escalated at once; this node has another version than
    the leader; this node is synchronizing. *)
Inductive reason := NeedsWrite | AtOnce | OtherVersion | Synchronizing.
Inductive event :=
| Committed (still_leading : bool)                   (* the node committed the command's transaction *)
| Sent (why : reason) (request sent : bytes)         (* this many of the request's bytes went to another node *)
| Replied (s : source)
| Queued (q : queue)
| Stopped.                                           (* the server stops *)

(** The command is carried out: here, or by a node that has got all of the request. *)
Definition carried_out (e : event) : bool :=
  match e with Committed _ => true | Sent _ w s => bytes_eqb w s | _ => false end.
Definition times (p : event -> bool) (l : list event) : nat := List.length (filter p l).
Definition is_reply (e : event) : bool := match e with Replied _ => true | _ => false end.
Definition is_queued (e : event) : bool := match e with Queued _ => true | _ => false end.
Definition is_end (e : event) : bool := match e with Replied _ | Queued _ | Stopped => true | _ => false end.
