(** What C52 and C53 are about: what a database handle may be asked, and what it should answer. *)
From Verif Require Import Base.

(** What SQLite asks the authorizer about when it compiles a statement (sqlite.org/c3ref/c_alter_table.html).  [Pragma n a]: name and argument; [Other]: all that is not listed (CREATE,
    DROP, ALTER, ATTACH, TRANSACTION, ...). *)
Inductive action := Read (table column : bytes) | Function_ (name : bytes) | Select | Analyze | Pragma (name : bytes) (arg : option bytes)
  | Insert (table : bytes) | Delete (table : bytes) | Update (table column : bytes) | Recursive | Other (code : N).
Inductive verdict := OK | Ignore | Deny.
(** How a statement ends: done; failed, with nothing changed; a constraint does not hold; failed, and SQLite has given up the whole transaction (disk full, I/O error,
    out of memory, interrupted write: sqlite.org/lang_transaction.html). *)
Inductive code := Done | Failed | Constraint | Lost.

(** SQLite.  A query is a list of statements; [e_env] is all that a statement may depend on besides the database: the time, random numbers, the counters of the connection.  [e_exec] is given the
    columns to be read as NULL. *)
Record engine := Engine {
  e_db : Type; e_stmt : Type; e_env : Type; e_rows : Type;
  e_none : e_rows; e_add : e_rows -> e_rows -> e_rows;
  e_parse : bytes -> list e_stmt;
  e_actions : e_stmt -> e_db -> list action;
  e_exec : e_stmt -> list action -> e_env -> e_db -> code * e_rows * e_db }.

Section spec.
  Context (E : engine).
  (** Statements one after the other, up to the first that is not allowed or fails. *)
  Fixpoint evaluate (allowed : action -> verdict) (env : e_env E) (l : list (e_stmt E)) (d : e_db E) (acc : e_rows E) : code * e_rows E * e_db E :=
    match l with
    | [] => (Done, acc, d)
    | s :: l =>
        let acts := e_actions E s d in
        if existsb (fun a => match allowed a with Deny => true | _ => false end) acts then (Failed, acc, d)
        else match e_exec E s (filter (fun a => match allowed a with Ignore => true | _ => false end) acts) env d with
             | (Done, r, d) => evaluate allowed env l d (e_add E acc r)
             | (c, r, d) => (c, e_add E acc r, d)
             end
    end.

  (** What the user of a handle does, and what others do meanwhile.  A query takes its time: it may end after the deadline, or be cut short.  [Commit (Some d)]: the commit succeeds and the
      database is then [d]; [None]: it conflicts.  [Others d]: commits of other handles. *)
  Inductive timing := InTime | Late | Cut.
  Definition authorizer := action -> bool.
  (* a map *)
  Definition whitelist := list (bytes * list bytes).
  Inductive op :=
  | Begin
  | Query (q : bytes) (bound : bool) (env : e_env E) (t : timing)       (* read *)
  | Write (q : bytes) (env : e_env E) (t : timing)
  | Commit (r : option (e_db E))
  | Rollback
  | Others (d : e_db E)
  | SetAuthorizer (a : option authorizer)
  | SetWhitelist (w : option whitelist).
  Inductive output := Rows (r : e_rows E) | False_ | Throws | Quiet.

  (** Functions that may not be used in a write, and functions whose results are not kept. *)
  Definition refused_in_writes : list bytes := [lit "current_timestamp"; lit "random"; lit "last_insert_rowid"; lit "changes"; lit "sqlite_version"].
  Definition known_volatile : list bytes :=
    [lit "random"; lit "date"; lit "time"; lit "datetime"; lit "julianday"; lit "strftime"; lit "changes"; lit "last_insert_rowid"; lit "sqlite_version"].
  Definition among (f : bytes) (l : list bytes) : bool := existsb (bytes_eqb f) l.
  Definition listed (w : whitelist) (t c : bytes) : bool := match find (fun e => bytes_eqb (fst e) t) w with Some e => among c (snd e) | None => false end.
  (** What is allowed. *)
  Definition permitted (a : option authorizer) (w : option whitelist) (writing : bool) (x : action) : verdict :=
    if match x with Function_ f => writing && among f refused_in_writes | _ => false end then Deny
    else if match a with Some a => negb (a x) | None => false end then Deny
    else match w with
         | None => OK
         | Some w =>
             match x with
             | Select | Analyze | Function_ _ => OK
             | Read t c => if listed w t c then OK else Ignore
             | Pragma n None => if bytes_eqb n (lit "schema_version") then OK else Deny
             | _ => Deny
             end
         end.

  (** The handle as its user may think of it: no cache.  Inside a transaction there is one view of the database, taken when it is first used, that the writes change; a transaction that SQLite gave
      up can only be rolled back - for one who goes on there is no claim ([Gone]). *)
  Inductive phase := Idle | Inside (view : option (e_db E)) | Given_up | Gone.
  Record ideal := Ideal { i_phase : phase; i_db : e_db E; i_auth : option authorizer; i_white : option whitelist }.
  Definition in_phase (s : ideal) (p : phase) : ideal := Ideal p (i_db s) (i_auth s) (i_white s).
  (** The expected output; [None]: no claim. *)
  Definition ideal_step (s : ideal) (o : op) : ideal * option output :=
    match i_phase s, o with
    | Gone, _ => (s, None)
    | p, Others d => (Ideal p d (i_auth s) (i_white s), Some Quiet)
    | p, SetAuthorizer a => (Ideal p (i_db s) a (i_white s), Some Quiet)
    | p, SetWhitelist w => (Ideal p (i_db s) (i_auth s) w, Some Quiet)
    | Given_up, Rollback => (in_phase s Idle, Some Quiet)
    | Given_up, _ => (in_phase s Gone, None)
    | Idle, Begin => (in_phase s (Inside None), Some Quiet)
    | Inside _, Begin => (in_phase s Idle, Some Throws)
    | Idle, Query q _ env InTime =>
        (s, Some match evaluate (permitted (i_auth s) (i_white s) false) env (e_parse E q) (i_db s) (e_none E) with (Done, r, _) => Rows r | _ => False_ end)
    | Inside v, Query q _ env InTime =>
        let d := match v with Some d => d | None => i_db s end in
        (in_phase s (Inside (Some d)), Some match evaluate (permitted (i_auth s) (i_white s) false) env (e_parse E q) d (e_none E) with (Done, r, _) => Rows r | _ => False_ end)
    | Inside v, Query _ _ _ _ => (in_phase s (Inside (Some match v with Some d => d | None => i_db s end)), Some Throws)
    | _, Query _ _ _ _ => (s, Some Throws)
    | Idle, Write _ _ _ => (s, Some Throws)
    | Inside v, Write q env t =>
        let d := match v with Some d => d | None => i_db s end in
        match t, evaluate (permitted (i_auth s) (i_white s) true) env (e_parse E q) d (e_none E) with
        | Cut, _ => (in_phase s Given_up, Some Throws)
        | _, (Lost, _, _) => (in_phase s Given_up, Some match t with InTime => False_ | _ => Throws end)
        | _, (c, r, d) => (in_phase s (Inside (Some d)), Some match t, c with InTime, Done => Rows r | InTime, Failed => False_ | _, _ => Throws end)
        end
    | Inside _, Commit (Some d) => (Ideal Idle d (i_auth s) (i_white s), Some Quiet)
    | Inside v, Commit None => (in_phase s (Inside (Some match v with Some d => d | None => i_db s end)), Some False_)
    | Idle, Commit _ => (in_phase s Gone, None)
    | _, Rollback => (in_phase s Idle, Some Quiet)
    end.
  Fixpoint ideal_run (s : ideal) (l : list op) : list (option output) :=
    match l with [] => [] | o :: l => let (s, x) := ideal_step s o in x :: ideal_run s l end.

  (** The outputs are the expected ones, as long as something is claimed. *)
  Fixpoint agree (l : list (option output)) (r : list output) : Prop :=
    match l with
    | [] => r = []
    | None :: _ => True
    | Some x :: l => match r with y :: r => x = y /\ agree l r | [] => False end
    end.

  (** The writes that were carried out in the transaction that is open: those that gave rows, since it began. *)
  Definition carried_out (acc : list bytes) (e : op * output) : list bytes :=
    match e with
    | (Write q _ _, Rows _) => acc ++ [q]
    | (Begin, _) | (Rollback, _) | (Commit _, Quiet) => []
    | _ => acc
    end.

  (** Queries for reading: no statement changes the database or makes SQLite give up; and, unless it uses one of the functions known to be volatile, what it returns depends on the database only. *)
  Definition pure (s : e_stmt E) : Prop := forall ign env d, match e_exec E s ign env d with (c, _, d') => c <> Lost /\ d' = d end.
  Definition settled (s : e_stmt E) : Prop := forall d, (forall f, In (Function_ f) (e_actions E s d) -> among f known_volatile = false) ->
    forall ign env env', e_exec E s ign env d = e_exec E s ign env' d.
  Definition reads_well (o : op) : Prop := match o with Query q _ _ _ => Forall (fun s => pure s /\ settled s) (e_parse E q) | _ => True end.
  Definition keeps_whitelist (o : op) : Prop := match o with SetWhitelist _ => False | _ => True end.
  Definition write_in_time (o : op) : Prop := match o with Write _ _ t => t = InTime | _ => True end.
  Definition no_refused (o : op) : Prop :=
    match o with Query q _ _ _ => Forall (fun s => forall d f, In (Function_ f) (e_actions E s d) -> among f refused_in_writes = false) (e_parse E q) | _ => True end.
End spec.
Arguments Begin {E}. Arguments Query {E}. Arguments Write {E}. Arguments Commit {E}. Arguments Rollback {E}. Arguments Others {E}. Arguments SetAuthorizer {E}. Arguments SetWhitelist {E}.
Arguments Rows {E}. Arguments False_ {E}. Arguments Throws {E}. Arguments Quiet {E}.
Arguments Idle {E}. Arguments Inside {E}. Arguments Given_up {E}. Arguments Gone {E}.
Arguments Ideal {E}. Arguments i_phase {E}. Arguments i_db {E}. Arguments i_auth {E}. Arguments i_white {E}.
Arguments carried_out {E}.
