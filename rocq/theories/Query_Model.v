(** The Query command and its bound values: plugins/DB.cpp 25-205, libstuff/SQliteParameter.cpp 47-127,
    test/lib/RemoteSQLite.cpp 15-24 (the client), libstuff.cpp 453-482, 2825-2990, 3438-3470, SQLite.cpp 1616-1643. *)
From Verif Require Import Base Dec Text_Spec Text_Model Table Http_Spec Timeout_Model Forward_Model Base64_Model Core_Spec Core_Model Query_Spec.

(** ** Names: SQliteParameter.cpp 71-102 *)
Definition special (c : ascii) : bool := in_set c (lit ":@$#").
Definition encode_name_char (c : ascii) : bytes :=       (* "#%02X" *)
  if special c then ["#"%char; hexchar (bcode c / 16); hexchar (bcode c mod 16)] else [c].
Definition uriEncodeParamName (n : bytes) : bytes := flat_map encode_name_char n.
Definition hex2 (a b : ascii) : option ascii :=          (* isxdigit, strtol base 16 *)
  match hexval a, hexval b with Some x, Some y => Some (ascii_of_N (16 * x + y)) | _, _ => None end.
Fixpoint decode_name (fuel : nat) (s : bytes) : bytes :=
  match fuel, s with
  | S f, c :: s' =>
      match (if Ascii.eqb c "#" then match s' with a :: b :: _ => hex2 a b | _ => None end else None) with
      | Some d => d :: decode_name f (skipn 2 s')
      | None => c :: decode_name f s'
      end
  | _, _ => []
  end.
Definition uriDecodeParamName (s : bytes) : bytes := decode_name (List.length s) s.

Definition PARAM : bytes := lit "sql-param-".
(** strncmp with a needle that has no NUL in it: 453-464 *)
Fixpoint SStartsWith (s needle : bytes) {struct needle} : bool :=
  match needle, s with [], _ => true | a :: n, c :: s => Ascii.eqb c a && SStartsWith s n | _, [] => false end.
(** 467-482 *)
Definition STrim (s : bytes) : bytes := rev (skip_space (rev (skip_space s))).
(** 3455-3462, with a needle of one byte *)
Definition ends_with_semicolon (s : bytes) : bool := match rev s with c :: _ => Ascii.eqb c ";" | [] => false end.
(** 3438-3441 *)
Fixpoint SContains (s needle : bytes) : bool :=
  SStartsWith s needle || match s with [] => false | _ :: s' => SContains s' needle end.

Section query.
  (* floating point numbers, snprintf "%.17g" and strtod *)
  Context {R : Type} (print17 : R -> bytes) (strtod : bytes -> R).
  (** SQliteParameter.cpp 47-69; None: SEncodeBase64 throws *)
  Definition serialize (v : bound R) : option bytes :=
    match v with
    | Null => Some (lit "N")
    | Int64 z => Some ("I"%char :: decZ z)
    | Double r => Some ("D"%char :: print17 r)
    | Text b => match SEncodeBase64 b with Some e => Some ("T"%char :: e) | None => None end
    | Blob b => match SEncodeBase64 b with Some e => Some ("B"%char :: e) | None => None end
    end.
  (** 104-127 *)
  Definition deserialize (s : bytes) : bound R :=
    match s with
    | [] => Null
    | c :: payload =>
        if Ascii.eqb c "N" then Null
        else if Ascii.eqb c "I" then Int64 (SToInt64 payload)
        else if Ascii.eqb c "D" then Double (strtod (cstr payload))
        else if Ascii.eqb c "T" then Text (SDecodeBase64 payload)
        else if Ascii.eqb c "B" then Blob (SDecodeBase64 payload)
        else Null
    end.
  (** RemoteSQLite.cpp 20-22: the client puts the values into the request *)
  Fixpoint with_params (l : list (bytes * bound R)) (t : stable) : option stable :=
    match l with
    | [] => Some t
    | (n, v) :: l => match serialize v with Some s => with_params l (tput (PARAM ++ uriEncodeParamName n) s t) | None => None end
    end.
  (** DB.cpp 38-45: the first of two equal names stays (map::emplace) *)
  Definition params_of (t : stable) : list (bytes * bound R) :=
    map (fun p => (uriDecodeParamName (skipn (List.length PARAM) (fst p)), deserialize (snd p)))
        (filter (fun p => SStartsWith (fst p) PARAM) t).
End query.

(** ** The text of the query *)
Definition header (k : bytes) (t : stable) : bytes := match tfind k t with Some v => v | None => [] end.
(** DB.cpp 36 *)
Definition query_text (method : bytes) (t : stable) : bytes :=
  STrim (if SStartsWith (SToLower method) (lit "query:") then skipn 6 method else header (lit "query") t).
(** DB.cpp 98-113 with SREMatch: the pattern must match the whole text; "." is any byte but a line feed. *)
Definition SCHEMA : bytes := lit ".schema".
Definition after_schema (q : bytes) : option bytes :=
  let q := skip_space q in
  if SStartsWith (SToLower q) SCHEMA then Some (skipn (List.length SCHEMA) q) else None.
Definition ALL_TABLES : bytes := lit "SELECT sql FROM sqlite_schema WHERE sql IS NOT NULL ORDER BY rowid;".
Definition ONE_TABLE (name : bytes) : bytes := lit "SELECT sql FROM sqlite_schema WHERE tbl_name LIKE " ++ SQ name ++ lit ";".
Definition rewritten (q : bytes) : bytes :=
  match after_schema q with
  | None => q
  | Some [] => ALL_TABLES
  | Some (c :: r) => if is_space c && negb (in_set "010" (STrim (c :: r))) then ONE_TABLE (STrim (c :: r)) else q
  end.

(** ** Running statements on a handle *)
(** What SQLite does with one statement: an error leaves everything as it was.  query_only refuses every change. *)
Definition run1 (s : sql) (h : handle) : handle * bool :=
  let sqlite inside pending db := H (h_inside h) inside pending (h_query h) (h_hash h) (h_locked h) (h_held h) (h_queryonly h)
                                    (h_noop h) (h_timeout h) (h_abort h) db (h_journal h) in
  match s with
  | Reads fails => (h, negb fails)
  | Writes q Changes => if h_queryonly h then (h, false) else (sql_change q h, true)
  | Writes _ Idle => (h, negb (h_queryonly h))
  | Writes _ Fails => (h, false)
  | Begins => if h_sql h then (h, false) else (sqlite true [] (h_db h), true)
  | Commits => if h_sql h then (sqlite false [] (h_db h ++ h_pending h), true) else (h, false)
  | Undoes => if h_sql h then (sqlite false [] (h_db h), true) else (h, false)
  end.
(** libstuff.cpp 2860-3030, one try: one statement after the other up to the first error *)
Fixpoint run_all (l : list sql) (h : handle) : handle * bool :=
  match l with
  | [] => (h, true)
  | s :: l => match run1 s h with (h, true) => run_all l h | (h, false) => (h, false) end
  end.
(** 2935-2945: with an output format only the first statement is run *)
Definition run_formatted (l : list sql) (h : handle) : handle * bool := match l with [] => (h, true) | s :: _ => run1 s h end.
(** sqlite3.h 4737-4769: sqlite3_stmt_readonly is also true for the statements that control a transaction *)
Definition stmt_readonly (s : sql) : bool := negb (can_write s).

Inductive answer := Refused (method : bytes) | Escalates | Answers.
Definition MAX_SIZE_QUERY : N := 1024 * 1024.
Definition MISSING : bytes := lit "402 Missing query".
Definition SEMICOLON : bytes := lit "502 Query Missing Semicolon".
Definition BAD : bytes := lit "402 Bad query".
Section run.
  (* SQLite's parser: the statements of a text, None when one of them does not parse *)
  Context (compile : bytes -> option (list sql)).
  (** DB.cpp 63-172; [t]: the headers, [q]: the text of the query *)
  Definition peek (t : stable) (q : bytes) (h : handle) : handle * answer :=
    if (N.of_nat (List.length q) <? 1)%N || (MAX_SIZE_QUERY <? N.of_nat (List.length q))%N then (h, Refused MISSING)
    else
      let q := rewritten q in
      if negb (ends_with_semicolon q) then (h, Refused SEMICOLON)
      else match compile q with
           | None => (h, Refused BAD)
           | Some l =>
               if existsb (fun s => negb (stmt_readonly s)) l then (h, Escalates)
               else
                 let h := rollback h in
                 match (if ieqb (cstr (header (lit "Format") t)) (lit "json") then run_all l h else run_formatted l h) with
                 | (h, true) => (h, Answers)
                 | (h, false) => (h, Refused BAD)
                 end
           end.

  (** SData.cpp 101-105, BedrockPlugin.cpp 40-48 *)
  Definition test (k : bytes) (t : stable) : bool := ieqb (cstr (header k t)) (lit "true") || negb (calc k t =? 0)%Z.
  Definition malformed_bool (k : bytes) (t : stable) : bool :=
    match header k t with [] => false | v => negb (ieqb (cstr v) (lit "true")) && negb (ieqb (cstr v) (lit "false")) end.
  Definition NOWHERE : bytes := lit "nowhere".
  (** DB.cpp 182-185 *)
  Definition lacks_where (q : bytes) : bool :=
    let u := SToUpper q in (SStartsWith u (lit "UPDATE") || SStartsWith u (lit "DELETE")) && negb (SContains u (lit " WHERE ")).
  (** DB.cpp 174-205 with SQLite::write (SQLite.cpp 758-790, 853-927); None: it returns, Some: the exception.
      The text kept for the journal is that of the query (values are put into it first: C49). *)
  Definition process (t : stable) (q : bytes) (h : handle) : handle * option bytes :=
    if h_noop h then (h, None)
    else if malformed_bool NOWHERE t then (h, Some (lit "402 Malformed nowhere"))
    else if negb (test NOWHERE t) && lacks_where q then (h, Some (lit "502 Query aborted"))
    else if negb (h_inside h) then (h, Some (lit "500 Attempted to write outside of transaction"))
    else match compile q with
         | None => (h, Some (lit "502 Query failed"))
         | Some l => match run_all l h with
                     | (h, true) => ((if existsb (fun s => match changed s with [] => false | _ => true end) l then keep (q, true) h else h), None)
                     | (h, false) => (h, Some (lit "502 Query failed"))
                     end
         end.
End run.

(** A whole Query command on a handle, as BedrockCore.cpp 149-370 runs it (peekCommand and processCommand of Core_Model, with
    the code of this command in place of the behaviour): BEGIN is accepted when SQLite is not inside a transaction already.
    The result: answered in peek, ready to be committed, or refused. *)
Inductive verdict := Answered | Ready | Fails (method : bytes).
Definition command (compile : bytes -> option (list sql)) (method : bytes) (t : stable) (h : handle) : handle * verdict :=
  let end_peek h := setQueryOnly false (rollback h) in
  match beginTransaction false (negb (h_sql h)) h with
  | (h, BeginThrows) => (end_peek h, Fails (lit "Attempted to begin transaction while in invalid state"))
  | (h, Begun false) => (end_peek h, Fails (lit "501 Failed to begin shared transaction"))
  | (h, Begun true) =>
      let q := query_text method t in
      match peek compile t q (setQueryOnly true h) with
      | (h, Refused m) => (end_peek h, Fails m)
      | (h, Query_Model.Answers) => (end_peek h, Answered)
      | (h, Escalates) =>
          match process compile t (rewritten q) (setQueryOnly false h) with
          | (h, Some m) => (rollback h, Fails m)
          | (h, None) => match h_query h with [] => (rollback h, Answered) | _ => (h, Ready) end
          end
      end
  end.
