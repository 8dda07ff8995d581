(** The file of a database and the tries to open it. *)
From Verif Require Import Base.

(** What is there before: nothing, a file that cannot be read, or a file with this content *)
Inductive file := Missing | Unreadable | File (content : bytes).
Definition begins_with (p : string) (s : bytes) : Prop := exists r, s = lit p ++ r.
(** What came of the k-th try to open the database, and whether the process had been told to end when the k-th try had failed *)
Inductive tried := Good | Busy | Bad.
Inductive ends := Opened (k : nat) | Dies (k : nat) | Exits (k : nat).      (* after the try k; Dies: with an error; Exits: without one *)
