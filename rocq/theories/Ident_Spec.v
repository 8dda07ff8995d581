(** What is said about the IDs of commands and requests, the plugin that gets a request, the follower a command is sent to and the names of states. *)
From Verif Require Import Base Text_Spec Table Http_Spec.
From Coq Require Import Permutation.

(** What happens on the nodes of a cluster: a request reaches the node of this name; the process of the node starts again. *)
Inductive event :=
| Asked (node : bytes) (draws : nat -> N) (request : message)
| Restarted (node : bytes).

(** What a plugin does with a request: it is not for it, it makes a command, or making it ends with an exception. *)
Inductive tried :=
| Declined
| Accepted
| Fails (what : bytes) (headers : stable) (body : bytes)        (* SException *)
| Breaks.                                                       (* any other exception *)

(** A command: who handles it, what was asked, its ID, whether it is done, its answer. *)
Record command := Command { m_plugin : option bytes; m_request : message; m_id : bytes; m_complete : bool; m_response : message }.

Definition nothing : message := mkMsg [] [] [].

(** The header [k] of a table, whatever the case of its name. *)
Definition ieq (a b : bytes) : Prop := map lower a = map lower b.
Definition has_header (k : bytes) (t : stable) (v : bytes) : Prop := exists k', In (k', v) t /\ ieq k' k.
Definition no_header (k : bytes) (t : stable) : Prop := forall k' v, In (k', v) t -> ~ ieq k' k.

(** Letters and digits *)
Definition letter_or_digit (c : ascii) : Prop := (97 <= bcode c <= 122 \/ 65 <= bcode c <= 90 \/ 48 <= bcode c <= 57)%N.

Inductive state := UNKNOWN | SEARCHING | SYNCHRONIZING | WAITING | STANDINGUP | LEADING | STANDINGDOWN | SUBSCRIBING | FOLLOWING.
(** Another node, as it is seen. *)
Record peer := Peer { p_name : bytes; p_version : bytes; p_state : state; p_address : bytes }.
