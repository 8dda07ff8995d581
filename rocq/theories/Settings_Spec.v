(** The settings of a running node that control commands change, and what a request asks for. *)
From Verif Require Import Base Dec Table.
Local Open Scope Z_scope.

Record settings := Settings {
  retries : Z;                 (* how often a command that conflicts is tried again *)
  page_locks : bool;
  window : Z; identifier_limit : Z; command_limit : Z; block_time : Z;     (* of the rate limits of the blocking queue, in microseconds *)
  blocks : list bytes;         (* who is watched or blocked by them *)
  sockets : Z;                 (* the largest number of threads for sockets *)
  tracing : bool }.

(** A node as it sees itself and its peers *)
Record peer := Peer { peer_name : bytes; peer_priority : Z; permafollower : bool; logged_in : bool }.
Record node := Node { configured : Z; priority : Z; peers : list peer }.

(** In this field of a request is this whole number. *)
Definition says (k : string) (t : stable) (n : Z) : Prop := tfind (lit k) t = Some (decZ n).
Definition silent (k : string) (t : stable) : Prop := tfind (lit k) t = None.
(** This field of an answer is this number, if there is one. *)
Definition told (k : string) (r : stable) (n : option Z) : Prop := tfind (lit k) r = match n with Some n => Some (decZ n) | None => None end.
(** A number of milliseconds, or nothing *)
Definition asks_ms (k : string) (t : stable) (n : option Z) : Prop := match n with Some n => says k t n /\ 0 <= n < 2 ^ 64 / 1000 | None => silent k t end.
Definition new_us (n : option Z) (old : Z) : Z := match n with Some n => n * 1000 | None => old end.
Definition old_ms (n : option Z) (old : Z) : option Z := match n with Some _ => Some (old / 1000) | None => None end.
(** Yes or no in a request *)
Definition yes (k : string) (t : stable) : Prop := tfind (lit k) t = Some (lit "true") \/ tfind (lit k) t = Some (lit "1").
Definition no (k : string) (t : stable) : Prop := tfind (lit k) t = None \/ tfind (lit k) t = Some (lit "false") \/ tfind (lit k) t = Some (lit "0").
