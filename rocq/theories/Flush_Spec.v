(** C86: emptying the queue of commands that block. *)
From Verif Require Import Base.

(** How a command was answered: because the queue was emptied (503), or in any other way. *)
Inductive answer := Unavailable | Other.
(** Who has the commands of a server in hand: a thread that works on one, one that answers those of the emptied queue (those it
    took, and those it still has to answer), and one that moves them to the main queue. *)
Inductive task := Working (c : nat) | Flushing (took left : list nat) | Moving (left : list nat).
Definition in_hand (t : task) : list nat := match t with Working c => [c] | Flushing _ l => l | Moving l => l end.
