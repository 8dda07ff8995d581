(** What C33 is about: the network between two nodes, as the sending node sees it. *)
From Verif Require Import Base Table Http_Model.

(** What one round of sending meets: the wait ends otherwise than with a socket ready to send (time is over, the other side or
    the client is gone, an error); some of the bytes are accepted; the call is to be repeated; it fails. *)
Inductive tx := TStop | TSent (n : nat) | TAgain | TFatal.
(** What one round of receiving meets; the connection can also be closed by the other side. *)
Inductive rx := RStop | RGot (b : bytes) | RAgain | RFatal | RClosed.
(** One look for somebody to send to: there is no address ([leading]: the node itself leads now); no connection; a
    connection and what happens on it, and whether the client is gone when that has failed. *)
Inductive look := NoAddress (leading : bool) | NoSocket | Connected (t : list tx) (r : list rx) (aborted : bool).

(** The bytes that come in, in order, as long as there is no failure. *)
Fixpoint incoming (l : list rx) : list bytes :=
  match l with RGot b :: r => b :: incoming r | RAgain :: r => incoming r | _ => [] end.
Fixpoint no_failure (l : list rx) : bool :=
  match l with [] => true | RGot (_ :: _) :: r | RAgain :: r => no_failure r | _ => false end.

(** What a peer takes as requests from the bytes it is sent, however they are divided on the way. *)
Definition takes_nothing (sent : bytes) : Prop :=
  forall pieces, concat pieces = sent -> handle_socket [] pieces = Some ([], sent).
