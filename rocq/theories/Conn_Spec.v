(** What C57 is about: one end of a connection between two nodes, and what can happen to it from outside. *)
From Verif Require Import Base Table.

Definition prefix (a b : bytes) : Prop := exists r, a ++ r = b.

(** What the operating system answers when it is given bytes to send: it takes the first [n] of them (at most all); it
    cannot take any now; the connection is dead. *)
Inductive ksend := KSent (n : nat) | KAgain | KFatal.
(** What it answers when it is asked for bytes: some pieces, and then nothing more for now, the end of the stream, or an
    error. *)
Inductive kend := KNothing | KEof | KError.
(** What a poll has reported about the connection. *)
Record revents := Revents { can_read : bool; can_write : bool; hung_up : bool; in_error : bool }.

(** What a node does with a connection apart from waiting for it: it sends a message, whose bytes are [w]; it drops the
    connection. *)
Inductive deed := Say (w : bytes) (k : ksend) | Drop.
(** What happens at one end: a deed of the node; or a poll, in which the connection is reported to be in the state [ev],
    connecting has failed or not, the time since the last byte came is too long or not, bytes come in and are sent, and
    the node handles messages, in the course of each of which it does more deeds. *)
Inductive action :=
| Do (d : deed)
| Poll (ev : revents) (connect_failed late : bool) (pieces : list bytes) (e : kend) (k k' : ksend) (deeds : list (list deed)).
(** The first polls of a connection that comes in: what is reported, what comes, and whether the time to wait is over. *)
Record first_poll := FirstPoll { f_ev : revents; f_pieces : list bytes; f_end : kend; f_send : ksend; f_idle : bool }.
