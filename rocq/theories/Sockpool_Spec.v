(** What C58 is about: the connections of a node to other nodes, and who uses them. *)
From Verif Require Import Base Table Http_Spec.

(** Where a connection can be. *)
Inductive place := InPool (host : bytes) | InUse (user : nat) | Closed.

(** What can happen.  A user is a thread that sends a command to another node.
    - [Ask u a]: the user [u] wants a connection to the address [a];
    - [Take u], [Test u], [Open u ok]: the steps of getting one: from the pool, testing it, opening a new one;
    - [Use u x w ns]: the user sends its command; the other node answers with the message [x], whose bytes are [w]; the user
      reads pieces of the sizes [ns] (each plus one) as long as it needs;
    - [Finish u keep]: the user is done; the connection can be kept, or is to be closed;
    - [Arrive i n], [HangUp i]: [n] bytes that were on their way on the connection [i] arrive; the other side closes it;
    - [Notify h], [Wake h], [Clean h]: the thread that looks after the pool of the host [h] is notified, wakes up by
      itself, runs;
    - [Tick d]: time passes. *)
Inductive event :=
| Ask (u : nat) (a : bytes) | Take (u : nat) | Test (u : nat) | Open (u : nat) (ok : bool)
| Use (u : nat) (x : message) (w : bytes) (ns : list nat) | Finish (u : nat) (keep : bool)
| Arrive (i : nat) (n : nat) | HangUp (i : nat)
| Notify (h : bytes) | Wake (h : bytes) | Clean (h : bytes)
| Tick (d : nat).

(** The other nodes answer every command with one legal message. *)
Definition answers (wire : message -> bytes -> Prop) (e : event) : Prop :=
  match e with Use _ x w _ => wire x w | _ => True end.
