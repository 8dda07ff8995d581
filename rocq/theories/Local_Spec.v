(** C85: a write that is not replicated. *)
From Verif Require Import Base.

(** A change of one page of the database. *)
Record change := Change { page : nat; what : nat }.
(** The statements of a query. *)
Inductive statement := Write (c : change) | Begin | Commit | Rollback.
(** A query that only writes, and what it writes. *)
Definition writes (q : list statement) (cs : list change) : Prop := q = map Write cs.
(** Two lists of changes are in each other's way if they change a page in common. *)
Definition clash (a b : list change) : Prop := exists x y, In x a /\ In y b /\ page x = page y.
(** The first statements of a query that were done, [m] times, before all of it was done: each time some, never all. *)
Inductive begun_before (cs : list change) : nat -> list change -> Prop :=
| begun_never : begun_before cs 0 []
| begun_once m k l : k < length cs -> begun_before cs m l -> begun_before cs (S m) (firstn k cs ++ l).
