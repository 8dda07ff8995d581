(** C78: opening a database, in plain words.  No modelled code here. *)
From Verif Require Import Base Dec.

(** A row of sqlite_master *)
Record entry := Entry { kind : bytes; ename : bytes; tbl : bytes; sql : bytes }.
(** Rows of a journal: number, query, hash *)
Definition jrow : Type := nat * (bytes * bytes).
(** A database: what sqlite_master has, and the rows of each table *)
Record database := Database { master : list entry; content : bytes -> list jrow }.
Definition new_database : database := Database [] (fun _ => []).

(** The journals: journal, journal0000, journal0001, ... *)
Definition four (n : nat) : bytes := let d := dec (N.of_nat n) in repeat "0"%char (4 - length d) ++ d.
Definition journal (k : nat) : bytes := match k with 0 => lit "journal" | S n => lit "journal" ++ four n end.
Definition journals (n : nat) : list bytes := map journal (seq 0 n).
(** Names the application may use *)
Definition of_application (s : bytes) : Prop := forall t, s <> lit "journal" ++ t.

(** What happens to a database: a process starts on it, with so many journals at least, and ends after [w] writes to sqlite_master if it has not finished
    then; a transaction is committed in some journal; old rows are removed from a journal; the application makes a table, index or view. *)
Inductive event := Start (least : Z) (w : nat) | Commit (j : nat) (query hash : bytes) | Trim (j oldest : nat) (gone : list nat) | Schema (e : entry).

(** What a process knows after it started: the journals, the number of commits and the hash of the last *)
Record process := Process { pnames : list bytes; pcount : nat; phash : bytes }.
(** All commits there have been, the oldest first, and from which number on all are kept *)
Record history := History { commits : list (bytes * bytes); kept_from : nat }.
Definition last_hash (l : list (bytes * bytes)) : bytes := match rev l with [] => [] | (_, h) :: _ => h end.
(** Commits have a hash, and the application does not touch the journals. *)
Definition allowed (h : history) (e : event) : Prop :=
  match e with
  | Start least _ => (-1 <= least < 10000)%Z
  | Commit _ _ hash => hash <> []
  | Trim _ oldest _ => oldest <= length (commits h)
  | Schema e => of_application (ename e) /\ of_application (tbl e)
  end.
