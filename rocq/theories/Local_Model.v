(** SQLite::writeLocalUnreplicated: sqlitecluster/SQLite.cpp 822-850. *)
From Verif Require Import Base Local_Spec.

(** What SQLite has: the changes that are committed, in order, and of the transaction of this handle, if one is open, how many
    of them it sees and its own changes. Simplified: a transaction is in the way of another if both change a page in common;
    SQLite also looks at the pages that were read. *)
Record engine := Engine { disk : list change; opened : option (nat * list change) }.
(** What can happen to a statement, apart from its own faults: nothing; SQLITE_BUSY, of another kind than SQLITE_BUSY_SNAPSHOT;
    another error; another error after which SQLite rolls the whole transaction back by itself. *)
Inductive fault := Fine | Busy | Fails | FailsAndRollsBack.
(** What happens: for each statement, what other handles commit right before it, and its fault. After the end of the list nothing happens. *)
Definition happens := list (list change * fault).
Definition others_next (h : happens) : list change := match h with (o, _) :: _ => o | [] => [] end.
Definition fault_next (h : happens) : fault := match h with (_, f) :: _ => f | [] => Fine end.

Definition clashes (a b : list change) : bool := existsb (fun x => existsb (fun y => page x =? page y) b) a.
(** What a statement gives; BUSY: SQLITE_BUSY, of another kind than SQLITE_BUSY_SNAPSHOT *)
Inductive code := OK | BUSY | ERROR.
(** One statement. A ROLLBACK of an open transaction is taken not to fail. *)
Definition exec (s : statement) (f : fault) (e : engine) : code * engine :=
  match s, opened e with
  | Rollback, Some _ => (OK, Engine (disk e) None)
  | Rollback, None => (ERROR, e)
  | Begin, Some _ => (ERROR, e)
  | Commit, None => (ERROR, e)
  | Begin, None => match f with Fine => (OK, Engine (disk e) (Some (length (disk e), []))) | Busy => (BUSY, e) | _ => (ERROR, e) end
  | Commit, Some (n, cs) =>
      match f with
      | Fine => if clashes cs (skipn n (disk e)) then (ERROR, e) (* SQLITE_BUSY_SNAPSHOT *) else (OK, Engine (disk e ++ cs) None)
      | Busy => (BUSY, e)
      | Fails => (ERROR, e)
      | FailsAndRollsBack => (ERROR, Engine (disk e) None)
      end
  | Write c, Some (n, cs) =>
      match f with
      | Fine => (OK, Engine (disk e) (Some (n, cs ++ [c])))
      | Busy => (BUSY, e)
      | Fails => (ERROR, e)
      | FailsAndRollsBack => (ERROR, Engine (disk e) None)
      end
  | Write c, None => match f with Fine => (OK, Engine (disk e ++ [c]) None) | Busy => (BUSY, e) | _ => (ERROR, e) end
  end.
(** libstuff.cpp 2859-3042, in SQuery: the statements of a text one after the other, up to the first that fails. *)
Fixpoint walk (q : list statement) (e : engine) (h : happens) : code * engine * happens :=
  match q with
  | [] => (OK, e, h)
  | s :: q' =>
      match exec s (fault_next h) (Engine (disk e ++ others_next h) (opened e)) with
      | (OK, e') => walk q' e' (tl h)
      | (c, e') => (c, e', tl h)
      end
  end.
(** 2852-3056: if the database is busy all of the text is tried again, [n] times more *)
Fixpoint tries (n : nat) (q : list statement) (e : engine) (h : happens) : bool * engine * happens :=
  match walk q e h with
  | (OK, e', h') => (true, e', h')
  | (ERROR, e', h') => (false, e', h')
  | (BUSY, e', h') => match n with O => (false, e', h') | S n' => tries n' q e' h' end
  end.
(** MAX_TRIES is 3 (2827) *)
Definition SQuery := tries 2.
(** 822-850. [insideTransaction]: the handle's own note that it has begun a transaction. The lock (832) is that of [Quiesce_Model]. *)
Definition writeLocalUnreplicated (insideTransaction : bool) (q : list statement) (e : engine) (h : happens) : bool * engine * happens :=
  if insideTransaction then (false, e, h)
  else
    match SQuery [Begin] e h with
    | (false, e1, h1) => (false, e1, h1)
    | (true, e1, h1) =>
        match SQuery q e1 h1 with
        | (false, e2, h2) => let '(_, e3, h3) := SQuery [Rollback] e2 h2 in (false, e3, h3)
        | (true, e2, h2) =>
            match SQuery [Commit] e2 h2 with
            | (false, e3, h3) => let '(_, e4, h4) := SQuery [Rollback] e3 h3 in (false, e4, h4)
            | (true, e3, h3) => (true, e3, h3)
            end
        end
    end.
