(** A database handle: SQLite.cpp 500-578 (beginTransaction), 685-757 (read, _checkInterruptErrors), 853-927 (_writeIdempotent), 1078-1310 (commit, rollback), 1395-1567 (settings, _authorize). *)
From Verif Require Import Base Reads_Spec.

Section model.
  Context (E : engine).
  (** SQLite.h 473-630.  [h_view]: the transaction of the sqlite3 handle: None in autocommit mode; Some None when nothing has been read or written in it (BEGIN CONCURRENT takes its snapshot with
      the first statement).  [h_rewrite]: _enableRewrite with _rewriteHandler (the new query, when it returns true).  [h_kept]: _uncommittedQuery, as the queries kept (C49, C50 say what text).
      The database file, [h_file], is here too. *)
  Record handle := Handle {
    h_file : e_db E; h_view : option (option (e_db E)); h_inside : bool; h_cache : list (bytes * e_rows E); h_writing : bool;
    h_rewrite : option (action -> option bytes); h_rewritten : bytes; h_auth : option authorizer; h_white : option whitelist; h_kept : list bytes }.

  (** _authorize, 1434-1567; [running]: _currentlyRunningRewritten.  The third part: whether _isDeterministicQuery stays as it is. *)
  Definition authorize (h : handle) (running : bool) (a : action) : verdict * option bytes * bool :=
    match (if running then None else match h_rewrite h with Some f => f a | None => None end) with
    | Some q => (Deny, Some q, true)
    | None =>
        let det := match a with
          | Function_ f => negb (bytes_eqb f (lit "random") || bytes_eqb f (lit "date") || bytes_eqb f (lit "time") || bytes_eqb f (lit "datetime") || bytes_eqb f (lit "julianday") ||
              bytes_eqb f (lit "strftime") || bytes_eqb f (lit "changes") || bytes_eqb f (lit "last_insert_rowid") || bytes_eqb f (lit "sqlite_version"))
          | _ => true
          end in
        let refused := match a with
          | Function_ f => (bytes_eqb f (lit "current_timestamp") || bytes_eqb f (lit "random") || bytes_eqb f (lit "last_insert_rowid") || bytes_eqb f (lit "changes") ||
              bytes_eqb f (lit "sqlite_version")) && h_writing h
          | _ => false
          end in
        if refused then (Deny, None, det)
        else if match h_auth h with Some f => negb (f a) | None => false end then (Deny, None, det)
        else match h_white h with
             | None => (OK, None, det)
             | Some w =>
                 (match a with
                  | Delete _ | Insert _ | Update _ _ | Recursive | Other _ => Deny
                  | Select | Analyze | Function_ _ => OK
                  | Pragma n arg => if bytes_eqb n (lit "schema_version") && match arg with None => true | Some _ => false end then OK else Deny
                  | Read t c => match find (fun e => bytes_eqb (fst e) t) w with
                                | Some (_, cols) => if existsb (fun x => bytes_eqb c x) cols then OK else Ignore
                                | None => Ignore
                                end
                  end, None, det)
             end
    end.
  (** Compiling a statement: the actions in turn, up to the first that is denied.  Returns whether it may run, the columns to ignore, the rewritten query if one was set, and whether it still counts as
      deterministic. *)
  Fixpoint compile (h : handle) (running : bool) (l : list action) (ign : list action) (det : bool) : bool * list action * option bytes * bool :=
    match l with
    | [] => (true, ign, None, det)
    | a :: l =>
        match authorize h running a with
        | (Deny, q, d) => (false, ign, q, det && d)
        | (Ignore, _, d) => compile h running l (ign ++ [a]) (det && d)
        | (OK, _, d) => compile h running l ign (det && d)
        end
    end.
  Inductive result := RDone | RFailed | RConstraint | RLost | RAuth.
  (** SQuery (libstuff.cpp 2858-3030), one try. *)
  Fixpoint squery (h : handle) (running : bool) (env : e_env E) (l : list (e_stmt E)) (d : e_db E) (rows : e_rows E) (det : bool) : result * e_rows E * e_db E * option bytes * bool :=
    match l with
    | [] => (RDone, rows, d, None, det)
    | s :: l =>
        match compile h running (e_actions E s d) [] det with
        | (false, _, q, det) => (RAuth, rows, d, q, det)
        | (true, ign, _, det) =>
            match e_exec E s ign env d with
            | (Done, r, d) => squery h running env l d (e_add E rows r) det
            | (Failed, r, d) => (RFailed, e_add E rows r, d, None, det)
            | (Constraint, r, d) => (RConstraint, e_add E rows r, d, None, det)
            | (Lost, r, d) => (RLost, e_add E rows r, d, None, det)
            end
        end
    end.

  (** The database the next statement sees, and the handle after it with that database changed to [d]: in autocommit mode each change is committed at once. *)
  Definition current (h : handle) : e_db E := match h_view h with Some (Some d) => d | _ => h_file h end.
  Definition with_db (h : handle) (d : e_db E) : handle :=
    match h_view h with
    | None => Handle d None (h_inside h) (h_cache h) (h_writing h) (h_rewrite h) (h_rewritten h) (h_auth h) (h_white h) (h_kept h)
    | Some _ => Handle (h_file h) (Some (Some d)) (h_inside h) (h_cache h) (h_writing h) (h_rewrite h) (h_rewritten h) (h_auth h) (h_white h) (h_kept h)
    end.
  Definition given_up (h : handle) : handle :=
    Handle (h_file h) None (h_inside h) (h_cache h) (h_writing h) (h_rewrite h) (h_rewritten h) (h_auth h) (h_white h) (h_kept h).
  Definition with_cache (h : handle) (c : list (bytes * e_rows E)) : handle :=
    Handle (h_file h) (h_view h) (h_inside h) c (h_writing h) (h_rewrite h) (h_rewritten h) (h_auth h) (h_white h) (h_kept h).
  Definition with_writing (h : handle) (b : bool) : handle :=
    Handle (h_file h) (h_view h) (h_inside h) (h_cache h) b (h_rewrite h) (h_rewritten h) (h_auth h) (h_white h) (h_kept h).
  Definition with_rewritten (h : handle) (q : option bytes) : handle :=
    match q with
    | None => h
    | Some q => Handle (h_file h) (h_view h) (h_inside h) (h_cache h) (h_writing h) (h_rewrite h) q (h_auth h) (h_white h) (h_kept h)
    end.
  Definition keep (h : handle) (q : bytes) : handle :=
    Handle (h_file h) (h_view h) (h_inside h) (h_cache h) (h_writing h) (h_rewrite h) (h_rewritten h) (h_auth h) (h_white h) (h_kept h ++ [q]).
  Fixpoint cached (q : bytes) (c : list (bytes * e_rows E)) : option (e_rows E) :=
    match c with [] => None | (k, r) :: c => if bytes_eqb q k then Some r else cached q c end.

  (** 690-722; 724-757.  A query that was cut short has failed. *)
  Definition read (h : handle) (q : bytes) (bound : bool) (env : e_env E) (t : timing) : handle * output E :=
    match (if bound then None else cached q (h_cache h)) with
    | Some r => (h, match t with InTime => Rows r | _ => Throws end)
    | None =>
        match squery h false env (e_parse E q) (current h) (e_none E) true with
        | (code, r, d, rq, det) =>
            let h1 := with_rewritten (with_db h d) rq in
            let ok := match t, code with Cut, _ => false | _, RDone => true | _, _ => false end in
            let h2 := match code with RLost => given_up h1 | _ => h1 end in
            let h3 := if negb bound && det && ok && h_inside h2 then with_cache h2 (h_cache h2 ++ [(q, r)]) else h2 in
            (h3, match t with InTime => if ok then Rows r else False_ | _ => Throws end)
        end
    end.
  (** 853-927.  [None]: an assertion fails (890).  Every query that goes well is kept here (915-924 leave out those that change nothing: C49). *)
  Definition ends_in_semicolon (q : bytes) : bool := match q with [] => false | _ => Ascii.eqb (last q " "%char) ";" end.
  Definition write (h : handle) (q : bytes) (env : e_env E) (t : timing) : option (handle * output E) :=
    if negb (h_inside h) then Some (h, Throws)
    else
      let h := with_writing (with_cache h []) true in
      match t with
      | Cut => Some (given_up h, Throws)             (* the write is interrupted; 908 throws, with _currentlyWriting still set *)
      | _ =>
          match squery h false env (e_parse E q) (current h) (e_none E) true with
          | (code, r, d, rq, _) =>
              let h := with_rewritten (with_db h d) rq in
              match (match code, h_rewrite h with
                     | RAuth, Some _ =>
                         if ends_in_semicolon (h_rewritten h) then
                           match squery h true env (e_parse E (h_rewritten h)) (current h) (e_none E) true with
                           | (code, _, d, _, _) => Some (code, with_db h d, h_rewritten h)
                           end
                         else None
                     | _, _ => Some (code, h, q)
                     end) with
              | None => None
              | Some (code, h, text) =>
                  let h := match code with RLost => given_up h | _ => h end in
                  match code with
                  | RConstraint => Some (with_writing h false, Throws)
                  | _ =>
                      match t with
                      | InTime => match code with RDone => Some (keep (with_writing h false) text, Rows r) | _ => Some (with_writing h false, False_) end
                      | _ => Some (h, Throws)
                      end
                  end
              end
          end
      end.
  (** 536-565; 1078-1240; 1253-1306.  BEGIN is taken to succeed; prepare and COMMIT are one step here (C20, C26), and a commit in autocommit mode fails an assertion (1140). *)
  Definition rollback (h : handle) : handle :=
    Handle (h_file h) (if h_inside h then None else h_view h) false [] (h_writing h) (h_rewrite h) (h_rewritten h) (h_auth h) (h_white h) (if h_inside h then [] else h_kept h).
  Definition begin_ (h : handle) : handle * output E :=
    if h_inside h then (rollback h, Throws)
    else (Handle (h_file h) (Some None) true [] (h_writing h) (h_rewrite h) (h_rewritten h) (h_auth h) (h_white h) (h_kept h), Quiet).
  Definition commit (h : handle) (r : option (e_db E)) : option (handle * output E) :=
    if negb (h_inside h) then None
    else match h_view h, r with
         | None, _ => None
         | Some _, Some d => Some (Handle d None false [] (h_writing h) (h_rewrite h) (h_rewritten h) (h_auth h) (h_white h) [], Quiet)
         | Some _, None => Some (with_db h (current h), False_)
         end.
  Definition step (h : handle) (o : op E) : option (handle * output E) :=
    match o with
    | Begin => Some (begin_ h)
    | Query q b env t => Some (read h q b env t)
    | Write q env t => write h q env t
    | Commit r => commit h r
    | Rollback => Some (rollback h, Quiet)
    | Others d => Some (Handle d (h_view h) (h_inside h) (h_cache h) (h_writing h) (h_rewrite h) (h_rewritten h) (h_auth h) (h_white h) (h_kept h), Quiet)
    (* 1418-1425 *)
    | SetAuthorizer a => Some (Handle (h_file h) (h_view h) (h_inside h) [] (h_writing h) (h_rewrite h) (h_rewritten h) a (h_white h) (h_kept h), Quiet)
    (* a public member, SQLite.h 322 *)
    | SetWhitelist w => Some (Handle (h_file h) (h_view h) (h_inside h) (h_cache h) (h_writing h) (h_rewrite h) (h_rewritten h) (h_auth h) w (h_kept h), Quiet)
    end.
  (** The outputs, up to a failed assertion. *)
  Fixpoint run (h : handle) (l : list (op E)) : list (output E) :=
    match l with [] => [] | o :: l => match step h o with None => [] | Some (h, x) => x :: run h l end end.
  Fixpoint after (h : handle) (l : list (op E)) : option handle :=
    match l with [] => Some h | o :: l => match step h o with None => None | Some (h, _) => after h l end end.
End model.
Arguments Handle {E}. Arguments h_file {E}. Arguments h_view {E}. Arguments h_inside {E}. Arguments h_cache {E}. Arguments h_writing {E}. Arguments h_rewrite {E}. Arguments h_rewritten {E}.
Arguments h_auth {E}. Arguments h_white {E}. Arguments h_kept {E}.
