(** C77: counting and loading the pages of a database file, in plain words.  No modelled code here. *)
From Verif Require Import Base.

(** Pages 0 .. n-1 for which [p] holds, in order *)
Definition pages_with (p : nat -> bool) (n : nat) : list nat := filter p (seq 0 n).

(** What the operating system says: can the file be opened (at once, or without O_NOATIME), what is its size, can it be mapped and looked up *)
Record system := System {
  open_first : bool; open_denied : bool; open_second : bool; stat_ok : bool; block_device : bool; ioctl_ok : bool;
  size : nat; map_ok : bool; aligned : bool; alloc_ok : bool; lookup_ok : bool; lookup2_ok : bool }.

(** What is held of the operating system, and what is asked of it *)
Inductive event := Opened | Closed | Mapped | Unmapped | Unmapped_nothing.
Definition is_event (a b : event) : bool :=
  match a, b with Opened, Opened | Closed, Closed | Mapped, Mapped | Unmapped, Unmapped | Unmapped_nothing, Unmapped_nothing => true | _, _ => false end.
Definition times (e : event) (l : list event) : nat := length (filter (is_event e) l).
(** Nothing is held at the end *)
Definition released (l : list event) : Prop := times Opened l = times Closed l /\ times Mapped l = times Unmapped l.
(** [Report n]: n pages are said to be in memory; [Skipped]: there is a warning and no report; [Aborted]: the program ends; [Undefined]: division by zero *)
Inductive outcome := Report (n : nat) | Skipped | Aborted | Undefined.
(** The file can be opened and has a size *)
Definition can_open (s : system) : bool := open_first s || open_denied s && open_second s.
Definition readable (s : system) : bool :=
  can_open s && stat_ok s && (negb (block_device s) || ioctl_ok s) && negb (Nat.eqb (size s) 0) && map_ok s.
