(** A write on the leader: libstuff.cpp 2825-3060 (SQuery) and SQLite.cpp 853-927 (_writeIdempotent). *)
From Verif Require Import Base Write_Spec.

Section write.
  Context (D : database).
  (** The statements of one try (libstuff.cpp 2860-3030): up to the first error.  [done]: *expandedSql; the counter is
      sqlite3_total_changes64.  A statement that fails changes nothing. *)
  Fixpoint walk (l : list (stmt D)) (o : list outcome) (s : state D) (total : N) (done : list (stmt D)) : state D * N * list (stmt D) * outcome * list outcome :=
    match l with
    | [] => (s, total, done, Done, o)
    | x :: l =>
        match o with
        | [] => walk l [] (exec D x s) (total + rows D x s)%N (done ++ [x])
        | Done :: o => walk l o (exec D x s) (total + rows D x s)%N (done ++ [x])
        | e :: o => (s, total, done, e, o)
        end
    end.
  (** MAX_TRIES 3, so up to 2 ([n]) more tries: when the database is busy everything is tried again from the first statement, with *expandedSql cleared;
      what the statements before have done stays (2849-2860, 3032-3045). *)
  Fixpoint tries (n : nat) (l : list (stmt D)) (o : list outcome) (s : state D) (total : N) : state D * N * list (stmt D) * outcome * list outcome :=
    match walk l o s total [] with
    | (s, total, done, Busy, o) => match n with S m => tries m l o s total | O => (s, total, done, Busy, o) end
    | r => r
    end.
  Definition SQuery := tries 2.

  (** What the handle knows of the transaction: [t_kept] is _uncommittedQuery, statement by statement. *)
  Record transaction := T { t_state : state D; t_total : N; t_kept : list (stmt D) }.
  (** uint64_t changes = sqlite3_total_changes(_db), an int: the low 32 bits, sign-extended (sqlite3.h calls the value
      undefined beyond the range of int) *)
  Definition reported (total : N) : N :=
    let m := (total mod 2 ^ 32)%N in if (m <? 2 ^ 31)%N then m else (2 ^ 64 - 2 ^ 32 + m)%N.
  Inductive result := True_ | False_ | Throws.        (* returns true, returns false, throws constraint_error *)
  (** 853-927; the time-out and the abort (C32) are left out.  [w_rewrite]: enableRewrite is on and the handler gave this text. *)
  Definition write (w : a_write D) (t : transaction) : transaction * result :=
    let '(s, total, done, e, o) := SQuery (w_stmts w) (w_outcomes w) (t_state t) (t_total t) in
    let '(s, total, done, e) :=
      match e, w_rewrite w with
      | Auth, Some l => let '(s, total, done, e, _) := SQuery l o s total in (s, total, done, e)
      | _, _ => (s, total, done, e)
      end in
    match e with
    | Done =>
        let keep := w_always w || (schema D (t_state t) <? schema D s)%N || (reported (t_total t) <? reported total)%N in
        (T s total (if keep then t_kept t ++ done else t_kept t), True_)
    | Constraint => (T s total (t_kept t), Throws)
    | _ => (T s total (t_kept t), False_)
    end.
  (* the writes of a transaction *)
  Fixpoint writes (l : list (a_write D)) (t : transaction) : transaction * list result :=
    match l with
    | [] => (t, [])
    | w :: l => let (t, r) := write w t in let (t, rs) := writes l t in (t, r :: rs)
    end.
End write.
Arguments T {D} _ _ _. Arguments t_state {D} _. Arguments t_total {D} _. Arguments t_kept {D} _.
