(** Model of the transaction layer of sqlitecluster/SQLite.cpp: any number of database handles
    over one file, sharing the commit lock, the commit count, the last committed hash and the
    journal tables.  Each handle is used by one thread; a step is one call, or one part of a
    call when other threads can act in between.

    SQLite itself is abstract: [D] is the committed user data and [exec] runs one statement,
    returning the new data and whether anything changed.  SQLite's guarantee for a concurrent
    COMMIT (SQLITE_OK only if nothing the transaction depended on has changed) is the enabling
    condition of [ECommitSql _ true]: running the statements on the current data gives the
    recorded change flags.  Whether BEGIN, a write, the journal INSERT or COMMIT fails is chosen
    by the environment.

    Not modelled: query cache, timers, checkpoints, rewrites, noop-update mode, authorizer,
    writeLocalUnreplicated, and the text of the trim query's result order (any selection of at
    most ten deletable rows is allowed). *)
From Verif Require Import Base Maps.

Definition stmt := bytes.

(** A row of one of the journal tables (SQLite.cpp:217: id, query, hash). *)
Record row := mkRow { r_tab : nat; r_id : N; r_query : bytes; r_hash : bytes }.

(** Where [commit] (SQLite.cpp:1079-1229) stands: not started; past the commitEnabled check of
    :1082; past a successful COMMIT at :1114, before the shared data is updated at :1168. *)
Inductive cphase := CIdle | CChecked | CDurable.

(** One executed write call: its statements with the change flag each had, and whether the
    call's text was added to the uncommitted query. *)
Definition wgroup := (list (stmt * bool) * bool)%type.

(** A SQLite object: SQLite.h:470-560. *)
Record handle := mkH {
  h_inside : bool;            (* _insideTransaction *)
  h_auto : bool;              (* SQLite rolled the transaction back by itself: sqlite3_get_autocommit *)
  h_locked : bool;            (* _mutexLocked *)
  h_query : bytes;            (* _uncommittedQuery *)
  h_hash : bytes;             (* _uncommittedHash *)
  h_groups : list wgroup;     (* effects inside the SQLite transaction *)
  h_dels : list (nat * N);    (* journal rows deleted inside the SQLite transaction *)
  h_row : option row;         (* journal row inserted inside the SQLite transaction *)
  h_tab : nat;                (* _journalName *)
  h_phase : cphase;
  h_dirty : bool              (* ghost: committing this transaction would break a rule below *)
}.
Definition handle0 : handle := mkH false false false [] [] [] [] None 0 CIdle false.

(** One committed transaction (ghost history): its statements, the text that was hashed, and
    the hash. *)
Record centry := mkC { c_groups : list wgroup; c_query : bytes; c_hash : bytes }.

Section Journal.
Variable D : Type.
Variable exec : D -> stmt -> D * bool.
Variable sha1hex : bytes -> bytes.          (* SToHex(SHashSHA1(.)) *)
Variable comp : bytes -> bytes.             (* BedrockPlugin_Compression::compress *)
Variable maxJournalSize : N.                (* _maxJournalSize *)
Variable nJournals : nat.                   (* _journalNames.size() *)
Variable thr : nat -> nat.                  (* the thread using each handle *)

Record jstate := mkJ {
  j_data : D;                               (* committed user data *)
  j_rows : list row;                        (* committed journal tables *)
  j_handles : nat -> handle;
  j_lock : option (nat * nat);              (* commitLock: owning thread, recursion count *)
  j_enabled : bool;                         (* _commitEnabled *)
  j_count : N;                              (* commitCount *)
  j_last : bytes;                           (* lastCommittedHash *)
  j_next : nat;                             (* nextJournalCount *)
  j_prepared : list (N * (bytes * bytes));  (* _preparedTransactions *)
  j_committed : list (N * (bytes * bytes)); (* _committedTransactions *)
  j_popped : list (N * (bytes * bytes));    (* ghost: everything popCommittedTransactions returned *)
  j_hist : list centry;                     (* ghost: durable commits, oldest first *)
  j_base : N;                               (* ghost: commit count when the process started *)
  j_misuse : bool;                          (* ghost: a caller broke one of the rules:
      - do not go on to commit after a failed write whose first statements had changed data;
      - do not write after prepare, and do not prepare twice;
      - do not write or prepare after SQLite rolled the transaction back by itself *)
  j_leak : bool                             (* ghost: beginTransaction left the lock held *)
}.

(** SharedData's constructor and a new file: SQLite.cpp:1660-1671. *)
Definition jinit (d0 : D) : jstate := mkJ d0 [] (fun _ => handle0) None true 0 [] 0 [] [] [] [] 0 false false.

(** recursive_timed_mutex. *)
Definition acquire (t : nat) (l : option (nat * nat)) : option (option (nat * nat)) :=
  match l with
  | None => Some (Some (t, 1))
  | Some (o, c) => if Nat.eqb o t then Some (Some (t, S c)) else None
  end.
Definition release (l : option (nat * nat)) : option (nat * nat) :=
  match l with
  | Some (o, S (S c)) => Some (o, S c)
  | _ => None
  end.

Definition setH (s : jstate) (h : nat) (x : handle) : nat -> handle :=
  fun k => if Nat.eqb k h then x else j_handles s k.
Definition withH (s : jstate) (h : nat) (x : handle) : jstate :=
  mkJ (j_data s) (j_rows s) (setH s h x) (j_lock s) (j_enabled s) (j_count s) (j_last s) (j_next s) (j_prepared s)
      (j_committed s) (j_popped s) (j_hist s) (j_base s) (j_misuse s) (j_leak s).
Definition withHL (s : jstate) (h : nat) (x : handle) (l : option (nat * nat)) : jstate :=
  mkJ (j_data s) (j_rows s) (setH s h x) l (j_enabled s) (j_count s) (j_last s) (j_next s) (j_prepared s)
      (j_committed s) (j_popped s) (j_hist s) (j_base s) (j_misuse s) (j_leak s).
Definition misused (s : jstate) (b : bool) : jstate :=
  mkJ (j_data s) (j_rows s) (j_handles s) (j_lock s) (j_enabled s) (j_count s) (j_last s) (j_next s) (j_prepared s)
      (j_committed s) (j_popped s) (j_hist s) (j_base s) (j_misuse s || b) (j_leak s).
Definition leaked (s : jstate) (b : bool) : jstate :=
  mkJ (j_data s) (j_rows s) (j_handles s) (j_lock s) (j_enabled s) (j_count s) (j_last s) (j_next s) (j_prepared s)
      (j_committed s) (j_popped s) (j_hist s) (j_base s) (j_misuse s) (j_leak s || b).

(** SQLite.cpp:1253-1305. The private effects disappear with the SQLite transaction. *)
Definition rollback (s : jstate) (h : nat) : jstate :=
  let x := j_handles s h in
  if h_inside x
  then withHL s h (mkH false false false [] [] [] [] None (h_tab x) CIdle false) (if h_locked x then release (j_lock s) else j_lock s)
  else s.

(** SQLite.cpp:517-580. [ok]: BEGIN CONCURRENT succeeded. *)
Definition begin_transaction (s : jstate) (h : nat) (exclusive ok : bool) : option jstate :=
  let x := j_handles s h in
  let lk := if exclusive then acquire (thr h) (j_lock s) else Some (j_lock s) in
  match lk with
  | None => None (* waits *)
  | Some l =>
      let x1 := if exclusive then mkH (h_inside x) (h_auto x) true (h_query x) (h_hash x) (h_groups x) (h_dels x) (h_row x) (h_tab x) (h_phase x) (h_dirty x) else x in
      let s1 := withHL s h x1 l in
      if h_inside x then Some (leaked (rollback s1 h) (exclusive && h_locked x)) (* :540 throws *)
      else Some (leaked (withHL s h (mkH ok false (h_locked x1) (h_query x) (h_hash x) [] [] None (h_tab x) CIdle false) l) (exclusive && negb ok))
  end.

(** Run statements, keeping the change flags. *)
Fixpoint run_stmts (d : D) (ss : list stmt) : D * list (stmt * bool) :=
  match ss with
  | [] => (d, [])
  | q :: ss' => let '(d1, c) := exec d q in let '(d2, r) := run_stmts d1 ss' in (d2, (q, c) :: r)
  end.
(** Run recorded statements; [None] if some change flag differs. *)
Fixpoint rerun (d : D) (rs : list (stmt * bool)) : option D :=
  match rs with
  | [] => Some d
  | (q, c) :: rs' => let '(d1, c') := exec d q in if Bool.eqb c c' then rerun d1 rs' else None
  end.
Fixpoint rerun_groups (d : D) (gs : list wgroup) : option D :=
  match gs with
  | [] => Some d
  | (rs, _) :: gs' => match rerun d rs with Some d' => rerun_groups d' gs' | None => None end
  end.

(** SQLite.cpp:853-927: a write call. [d] is the data the transaction sees (its snapshot with
    its own writes), [fail] the number of statements executed if the call failed, and [keep]
    is alwaysKeepQueries. A failed call keeps the effects of the statements before the failing
    one, but its text is not added to the uncommitted query (:913-916). [auto]: the failure made
    SQLite roll the whole transaction back. *)
Definition write (s : jstate) (h : nat) (d : D) (ss : list stmt) (fail : option nat) (auto keep : bool) : jstate :=
  let x := j_handles s h in
  if negb (h_inside x) then s (* :855 throws *)
  else
    match fail with
    | Some k =>
        let '(_, rs) := run_stmts d (firstn k ss) in
        if auto
        then misused (withH s h (mkH true true (h_locked x) (h_query x) (h_hash x) [] [] None (h_tab x) (h_phase x) (h_dirty x))) (h_auto x)
        else misused (withH s h (mkH true (h_auto x) (h_locked x) (h_query x) (h_hash x) (h_groups x ++ [(rs, false)]) (h_dels x) (h_row x)
                                     (h_tab x) (h_phase x) (h_dirty x || existsb snd rs))) (h_auto x)
    | None =>
        let '(_, rs) := run_stmts d ss in
        let kept := keep || existsb snd rs in
        misused (withH s h (mkH true (h_auto x) (h_locked x) (if kept then h_query x ++ concat ss else h_query x) (h_hash x)
                                (h_groups x ++ [(rs, kept)]) (h_dels x) (h_row x) (h_tab x) (h_phase x)
                                (h_dirty x || match h_row x with Some _ => true | None => false end))) (h_auto x)
    end.

(** SQLite.cpp:949. *)
Definition oldest_to_keep (count : N) : N := if N.ltb count maxJournalSize then 0%N else (count - maxJournalSize)%N.
(** :953. *)
Definition deleteLimit : nat := 10.

(** SQLite.cpp:929-958: choose the journal table and delete old rows from it. *)
Definition prepare_trim (s : jstate) (h : nat) (dels : list N) : option jstate :=
  let x := j_handles s h in
  if negb (h_inside x) then None (* SASSERT :931 *)
  else if Nat.ltb deleteLimit (List.length dels) || negb (forallb (fun i => N.ltb i (oldest_to_keep (j_count s))) dels) then None (* not what :956 deletes *)
  else
    let tab := Nat.modulo (j_next s) nJournals in
    Some (mkJ (j_data s) (j_rows s)
         (setH s h (mkH true (h_auto x) (h_locked x) (h_query x) (h_hash x) (h_groups x) (h_dels x ++ map (fun i => (tab, i)) dels) (h_row x) tab (h_phase x)
                      (h_dirty x || match h_row x with Some _ => true | None => false end)))
         (j_lock s) (j_enabled s) (j_count s) (j_last s) (S (j_next s)) (j_prepared s) (j_committed s) (j_popped s) (j_hist s) (j_base s)
         (j_misuse s || h_auto x) (j_leak s)).

(** SQLite.cpp:961-1022: take the commit lock unless it is already held. *)
Definition prepare_lock (s : jstate) (h : nat) : option jstate :=
  let x := j_handles s h in
  if negb (h_inside x) then None
  else if h_locked x then Some s
  else match acquire (thr h) (j_lock s) with
       | Some l => Some (withHL s h (mkH true (h_auto x) true (h_query x) (h_hash x) (h_groups x) (h_dels x) (h_row x) (h_tab x) (h_phase x) (h_dirty x)) l)
       | None => None
       end.

(** SQLite.cpp:1033-1076: hash the uncommitted query, stash it and insert the journal row. *)
Definition prepare_insert (s : jstate) (h : nat) (ok : bool) : option jstate :=
  let x := j_handles s h in
  if negb (h_inside x && h_locked x) then None
  else
    let id := (j_count s + 1)%N in
    let hash := sha1hex (j_last s ++ h_query x) in
    let q := match h_query x with [] => [] | _ => comp (h_query x) end in
    let r := mkRow (h_tab x) id q hash in
    let s1 := mkJ (j_data s) (j_rows s)
                  (setH s h (mkH true (h_auto x) true q hash (h_groups x) (h_dels x) (if ok then Some r else h_row x) (h_tab x) (h_phase x)
                               (h_dirty x || match h_row x with Some _ => true | None => false end)))
                  (j_lock s) (j_enabled s) (j_count s) (j_last s) (j_next s) (aset N.eqb id (q, hash) (j_prepared s))
                  (j_committed s) (j_popped s) (j_hist s) (j_base s) (j_misuse s || h_auto x) (j_leak s) in
    if ok then Some s1 else Some (rollback s1 h).

(** SQLite.cpp:1079-1088: [COMMIT_DISABLED] (no change) or go on. *)
Definition commit_check (s : jstate) (h : nat) : option jstate :=
  let x := j_handles s h in
  if negb (j_enabled s) then Some s
  else if negb (h_inside x) then None          (* SASSERT :1086 *)
  else match h_hash x, h_phase x, h_row x with
       | _ :: _, CIdle, Some _ => Some (withH s h (mkH true (h_auto x) (h_locked x) (h_query x) (h_hash x) (h_groups x) (h_dels x) (h_row x) (h_tab x) CChecked (h_dirty x)))
       | _, _, _ => None                       (* SASSERT :1087 *)
       end.

Definition same_row (p : nat * N) (r : row) : bool := Nat.eqb (fst p) (r_tab r) && N.eqb (snd p) (r_id r).

(** SQLite.cpp:1114-1144: the COMMIT statement; false is SQLITE_BUSY_SNAPSHOT. [q] is the text
    whose hash is in the row (ghost: the journal row holds its compressed form). *)
Definition commit_sql (s : jstate) (h : nat) (ok : bool) : option jstate :=
  let x := j_handles s h in
  match h_phase x, h_row x with
  | CChecked, Some r =>
      if h_auto x then None                     (* SASSERT :1144, no transaction is active *)
      else if ok
      then match rerun_groups (j_data s) (h_groups x) with
           | Some d' =>
               let q := concat (map (fun g : wgroup => if snd g then concat (map fst (fst g)) else []) (h_groups x)) in
               Some (mkJ d' (filter (fun r' => negb (existsb (fun p => same_row p r') (h_dels x))) (j_rows s) ++ [r])
                    (setH s h (mkH true false (h_locked x) (h_query x) (h_hash x) [] [] (Some r) (h_tab x) CDurable false))
                    (j_lock s) (j_enabled s) (j_count s) (j_last s) (j_next s) (j_prepared s) (j_committed s) (j_popped s)
                    (j_hist s ++ [mkC (h_groups x) q (r_hash r)]) (j_base s) (j_misuse s || h_dirty x) (j_leak s))
           | None => None
           end
      else Some (withH s h (mkH true (h_auto x) (h_locked x) (h_query x) (h_hash x) (h_groups x) (h_dels x) (h_row x) (h_tab x) CIdle (h_dirty x)))
  | _, _ => None
  end.

(** SQLite.cpp:1684-1690, 1698-1702: incrementCommit and commitTransactionInfo. A missing
    prepared entry extracts an empty node, and inserting it is a no-op. *)
Definition increment_commit (s : jstate) (hash : bytes) :=
  let n := (j_count s + 1)%N in
  (n, hash, adel N.eqb n (j_prepared s),
   match aget N.eqb n (j_prepared s) with
   | Some v => match aget N.eqb n (j_committed s) with Some _ => j_committed s | None => j_committed s ++ [(n, v)] end
   | None => j_committed s
   end).

(** SQLite.cpp:1168-1190: publish the commit and release the lock. *)
Definition commit_publish (s : jstate) (h : nat) : option jstate :=
  let x := j_handles s h in
  match h_phase x with
  | CDurable =>
      let '(n, hash, prep, com) := increment_commit s (h_hash x) in
      Some (mkJ (j_data s) (j_rows s) (setH s h (mkH false false false [] [] [] [] None (h_tab x) CIdle false))
           (release (j_lock s)) (j_enabled s) n hash (j_next s) prep com (j_popped s) (j_hist s) (j_base s) (j_misuse s) (j_leak s))
  | _ => None
  end.

(** SQLite.cpp:1673-1682, called on handle [h]. The early return when the flag already has the
    value is the same step without the wait, see [ESetAlready]. *)
Definition set_commit_enabled (s : jstate) (h : nat) (b : bool) : option jstate :=
  match acquire (thr h) (j_lock s) with
  | Some l => Some (mkJ (j_data s) (j_rows s) (j_handles s) (release l) b (j_count s) (j_last s) (j_next s) (j_prepared s)
                   (j_committed s) (j_popped s) (j_hist s) (j_base s) (j_misuse s) (j_leak s))
  | None => None
  end.

(** SQLite.cpp:1704-1711. *)
Definition pop_committed (s : jstate) : jstate :=
  mkJ (j_data s) (j_rows s) (j_handles s) (j_lock s) (j_enabled s) (j_count s) (j_last s) (j_next s) (j_prepared s)
      [] (j_popped s ++ j_committed s) (j_hist s) (j_base s) (j_misuse s) (j_leak s).

(** SQLite.cpp:1329-1348: getCommit over the union of the journal tables. *)
Definition get_commit (rows : list row) (id : N) : option row := find (fun r => N.eqb (r_id r) id) rows.
(** SQLite.cpp:96-105: MAX(id) over all journal tables, and its hash. *)
Definition max_id (rows : list row) : N := fold_right (fun r m => N.max (r_id r) m) 0%N rows.

(** A crash of the process and a restart: uncommitted transactions vanish; the shared data is
    read back from the journal (SQLite.cpp:85-118). Commits start enabled (:1662). *)
Definition crash (s : jstate) : jstate :=
  let n := max_id (j_rows s) in
  mkJ (j_data s) (j_rows s) (fun _ => handle0) None true n
      (match get_commit (j_rows s) n with Some r => r_hash r | None => [] end) 0 [] [] [] (j_hist s) n (j_misuse s) false.

Inductive jevent :=
| EBegin (h : nat) (exclusive ok : bool)
| EWrite (h : nat) (d : D) (ss : list stmt) (fail : option nat) (auto keep : bool)
| EPrepTrim (h : nat) (dels : list N)
| EPrepLock (h : nat)
| EPrepInsert (h : nat) (ok : bool)
| ECommitCheck (h : nat)
| ECommitSql (h : nat) (ok : bool)
| EPublish (h : nat)
| ERollback (h : nat)
| ESetEnabled (h : nat) (b : bool)
| ESetAlready (h : nat) (b : bool)
| EPop
| ECrash.

(** A thread inside [commit] past its check does nothing else until it returns. *)
Definition busy (s : jstate) (h : nat) : bool := match h_phase (j_handles s h) with CIdle => false | _ => true end.
Definition idle_then (s : jstate) (h : nat) (r : option jstate) : option jstate := if busy s h then None else r.

Definition jstep (s : jstate) (e : jevent) : option jstate :=
  match e with
  | EBegin h ex ok => idle_then s h (begin_transaction s h ex ok)
  | EWrite h d ss fail auto keep => idle_then s h (Some (write s h d ss fail auto keep))
  | EPrepTrim h dels => idle_then s h (prepare_trim s h dels)
  | EPrepLock h => idle_then s h (prepare_lock s h)
  | EPrepInsert h ok => idle_then s h (prepare_insert s h ok)
  | ECommitCheck h => idle_then s h (commit_check s h)
  | ECommitSql h ok => commit_sql s h ok
  | EPublish h => commit_publish s h
  | ERollback h => idle_then s h (Some (rollback s h))
  | ESetEnabled h b => idle_then s h (set_commit_enabled s h b)
  | ESetAlready h b => idle_then s h (if Bool.eqb (j_enabled s) b then Some s else None)
  | EPop => Some (pop_committed s)
  | ECrash => Some (crash s)
  end.
Fixpoint jrun (s : jstate) (es : list jevent) : option jstate :=
  match es with [] => Some s | e :: es' => match jstep s e with Some s' => jrun s' es' | None => None end end.
End Journal.
