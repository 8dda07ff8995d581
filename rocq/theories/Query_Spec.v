(** What C48 is about: a query with its bound values, as the client gives it. *)
From Verif Require Import Base Text_Spec Text_Model Table.

(** A value bound to a placeholder.  [R]: the floating point numbers. *)
Inductive bound (R : Type) : Type :=
| Null | Int64 (z : Z) | Double (r : R) | Text (b : bytes) | Blob (b : bytes).
Arguments Null {R}. Arguments Int64 {R} z. Arguments Double {R} r. Arguments Text {R} b. Arguments Blob {R} b.

(** The value given to a placeholder; names are told apart by case. *)
Fixpoint value_of {R} (n : bytes) (l : list (bytes * bound R)) : option (bound R) :=
  match l with [] => None | (m, v) :: l => if bytes_eqb n m then Some v else value_of n l end.
(** No two names are the same but for case. *)
Definition distinct {R} (l : list (bytes * bound R)) : Prop := NoDup (map (fun p => SToLower (fst p)) l).

(** [q'] is [q] without the white space around it. *)
Definition inner (q q' : bytes) : Prop :=
  exists a b, q = a ++ q' ++ b /\ Forall (fun c => is_space c = true) a /\ Forall (fun c => is_space c = true) b /\
  is_space (hd "x"%char q') = false /\ is_space (last q' "x"%char) = false.

(** A statement as SQLite sees it, once it is prepared: it only reads; it changes the database ([q] is the change), does not
    happen to change anything, or fails; or it begins, commits or undoes a transaction. *)
Inductive effect := Changes | Idle | Fails.
Inductive sql := Reads (fails : bool) | Writes (q : bytes) (e : effect) | Begins | Commits | Undoes.
Definition transaction_control (s : sql) : bool := match s with Begins | Commits | Undoes => true | _ => false end.
Definition can_write (s : sql) : bool := match s with Writes _ _ => true | _ => false end.
Definition changed (s : sql) : list bytes := match s with Writes q Changes => [q] | _ => [] end.
Definition goes_wrong (s : sql) : bool := match s with Reads f => f | Writes _ Fails => true | _ => false end.
