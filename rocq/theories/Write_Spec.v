(** What C49 is about: the writes of a transaction on the leader, and the same transaction on a follower. *)
From Verif Require Import Base.

(** How the attempt to carry out one statement ends: done, the database is busy, busy because of another transaction
    (SQLITE_BUSY_SNAPSHOT), not allowed, a constraint does not hold, another error. *)
Inductive outcome := Done | Busy | Snapshot | Auth | Constraint | Error.

(** A database: its states, its statements, what a statement makes of a state, how many rows it counts as changed, and the
    version of the schema. *)
Record database := Database {
  state : Type; stmt : Type; exec : stmt -> state -> state; rows : stmt -> state -> N; schema : state -> N }.
(** Carrying out statements one after the other: what a follower does with the journal row. *)
Definition replay (D : database) (l : list (stmt D)) (s : state D) : state D := fold_left (fun s x => exec D x s) l s.
(** All the rows a list of statements changes. *)
Fixpoint all_rows (D : database) (l : list (stmt D)) (s : state D) : N :=
  match l with [] => 0 | x :: l => rows D x s + all_rows D l (exec D x s) end.
(** A statement that counts no row and leaves the version of the schema changes nothing; the version never goes back. *)
Definition counts_changes (D : database) (x : stmt D) : Prop :=
  forall s, (schema D s <= schema D (exec D x s))%N /\
    (rows D x s = 0%N -> schema D (exec D x s) = schema D s -> exec D x s = s).

(** A write and what happens to it: [w_always]: it is kept even if it changes nothing (writeUnmodified); [w_outcomes]: what the
    attempts to carry out its statements come to, one after the other, [Done] when the list is at its end. *)
Record a_write (D : database) := Write { w_stmts : list (stmt D); w_always : bool; w_rewrite : option (list (stmt D)); w_outcomes : list outcome }.
Arguments Write {D} _ _ _ _. Arguments w_stmts {D} _. Arguments w_always {D} _. Arguments w_rewrite {D} _. Arguments w_outcomes {D} _.
(** Undisturbed: the database may be busy at first, but once a statement is done the rest are done too. *)
Definition undisturbed {D} (w : a_write D) : Prop :=
  exists k rest, w_outcomes w = repeat Busy k ++ rest /\ (k < 3)%nat /\ Forall (eq Done) rest.
