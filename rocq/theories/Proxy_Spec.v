(** What C59 is about: a connection to an HTTPS server through a proxy. *)
From Verif Require Import Base.

(** The answer of the operating system, or of TLS, to an attempt to send: the first [n] bytes are taken, not now, or never again. *)
Inductive reply := Took (n : nat) | NotNow | Never.
(** What happens to the socket: data is given to it to send; it gets a chance to send; bytes arrive, in one piece, and then the
    connection is alive or not; its state is set by those who poll it. *)
Inductive state := CONNECTING | CONNECTED | SHUTTINGDOWN | CLOSED.
Inductive event := Give (b : bytes) (r : reply) | Push (r : reply) | Pull (piece : bytes) (alive : bool) | Becomes (s : state).
