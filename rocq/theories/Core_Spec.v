(** What C32 is about: a database handle seen from outside, and what command code may do with it. *)
From Verif Require Import Base.

(** A statement given to the database, with whether it changes anything. *)
Definition statement : Type := (bytes * bool)%type.
Definition changes (l : list statement) : list bytes := map fst (filter snd l).

(** How a write can go. *)
Inductive write_outcome :=
| Changed            (* it changed something *)
| NothingChanged     (* it was carried out and changed nothing *)
| Failed             (* an error, nothing done *)
| Violated           (* a constraint does not hold: nothing done, constraint_error is thrown *)
| Interrupted        (* time is over or the client is gone: nothing done, an exception is thrown *)
| ChangedTooLate     (* it changed something, then time is over or the client is gone: an exception is thrown *)
| UndoneAll.         (* an error (full disk, i/o error) that makes SQLite undo the whole transaction *)
(** The three ways to write: skipped when updates are mocked, always carried out, always kept for the journal. *)
Inductive write_kind := Plain | Idempotent | Unmodified.
Record call := Call { c_kind : write_kind; c_query : bytes; c_outcome : write_outcome }.

(** How a stage of a command ends: it returns, or an exception leaves it. *)
Inductive stop :=
| SExc (method : bytes) (items : list bytes)
| TimeoutError
| ConstraintError
| OtherError.
(** What the code of a command does in one stage: the writes, what it puts into the response, and how it ends. *)
Record behaviour := Behaviour {
  b_calls : list call;
  b_method : option bytes;
  b_items : list bytes;
  b_end : option stop }.
(** It does not go on after an exception from the database or after a failure that undid everything. *)
Definition well_behaved (b : behaviour) : Prop :=
  forall pre c post, b_calls b = pre ++ c :: post ->
    c_outcome c = ChangedTooLate \/ c_outcome c = UndoneAll -> post = [] /\ b_end b <> None.
(** What the writes of a stage change, when writes are allowed; [mocked]: plain writes are skipped. *)
Definition carried_out (mocked : bool) (c : call) : bool :=
  match c_outcome c, c_kind c with Changed, Plain => negb mocked | Changed, _ => true | _, _ => false end.
Definition effect (mocked : bool) (b : behaviour) : list bytes := map c_query (filter (carried_out mocked) (b_calls b)).
