(** C63: checking and making tables, indexes and columns.  sqlitecluster/SQLite.cpp 582-651, libstuff/libstuff.cpp 485-551, 664-696.
    None stands for an assertion that fails, which ends the process. *)
From Verif Require Import Base Text_Spec Text_Model Mysql_Model Schema_Spec.

(** libstuff.cpp 485-505: SCollapse.  It reads up to the first NUL; [inWhite] is the flag of the loop. *)
Fixpoint collapse (inWhite : bool) (s : bytes) : bytes :=
  match s with
  | [] => []
  | c :: s' => if is_space c then (if inWhite then collapse true s' else " "%char :: collapse true s') else c :: collapse false s'
  end.
Definition SCollapse (s : bytes) : bytes := collapse false (cstr s).

(** 523-538: SStrip(lhs, chars, charsAreSafe), up to the first NUL. *)
Definition SStrip (s chars : bytes) (charsAreSafe : bool) : bytes := filter (fun c => Bool.eqb (in_set c chars) charsAreSafe) (cstr s).

(** 664-696: SReplace.  The fuel is the length of the text. *)
Fixpoint prefixb (p s : bytes) : bool :=
  match p, s with [], _ => true | a :: p', b :: s' => Ascii.eqb a b && prefixb p' s' | _, [] => false end.
Fixpoint replace (fuel : nat) (s find repl : bytes) : bytes :=
  match fuel, s with
  | S f, c :: s' => if prefixb find s then repl ++ replace f (skipn (List.length find) s) find repl else c :: replace f s' find repl
  | _, _ => s
  end.
Definition SReplace (s find repl : bytes) : bytes := match find with [] => s | _ => replace (List.length s) s find repl end.

(** 3438-3441: SContains *)
Fixpoint SContains (s p : bytes) : bool := prefixb p s || match s with [] => false | _ :: s' => SContains s' p end.
(** 3458-3465: SEndsWith *)
Definition SEndsWith (s p : bytes) : bool :=
  if Nat.ltb (List.length s) (List.length p) then false else bytes_eqb (skipn (List.length s - List.length p) s) p.

Section Schema.
  Variable accepts : bytes -> bool.
  Variable columns : bytes -> list bytes.
  Variable add_at : bytes -> nat.
  Definition write (d : catalogue) (sql : bytes) : option catalogue := exec accepts columns add_at d sql.

  (** The reads of sqlite_master; the names are compared byte by byte (the literals SQ() writes denote them: C02). *)
  Definition same_kind (a b : kind) : bool := match a, b with Table, Table | View, View | Index, Index => true | _, _ => false end.
  Definition rows_of_table (k : kind) (t : bytes) (d : catalogue) : list bytes :=
    map o_text (filter (fun o => same_kind (o_kind o) k && bytes_eqb (o_table o) t) d).
  Definition rows_of_index (t n : bytes) (d : catalogue) : list bytes :=
    map o_text (filter (fun o => same_kind (o_kind o) Index && bytes_eqb (o_table o) t && bytes_eqb (o_name o) n) d).

  (** SQLite.cpp 582-614: verifyTable.  The result: the catalogue afterwards, [created], and what is returned. *)
  Definition verifyTable (d : catalogue) (tableName sql : bytes) (type : kind) : option (catalogue * bool * bool) :=
    if SEndsWith sql (lit ";") then None
    else
      let collapsedSQL := SCollapse sql in
      match rows_of_table type tableName d with
      | [] => match write d (collapsedSQL ++ lit ";") with None => None | Some d' => Some (d', true, true) end
      | row :: _ =>
          let collapsedResult := SCollapse row in
          Some (d, false, bytes_eqb (SStrip collapsedResult (lit " ") false) (SStrip collapsedSQL (lit " ") false))
      end.

  (** 616-636: verifyIndex *)
  Definition createSQL (indexName tableName def : bytes) (isUnique : bool) : bytes :=
    lit "CREATE" ++ (if isUnique then lit " UNIQUE " else lit " ") ++ lit "INDEX " ++ indexName ++ lit " ON " ++ tableName ++ lit " " ++ def.
  Definition verifyIndex (d : catalogue) (indexName tableName def : bytes) (isUnique createIfNotExists : bool) : option (catalogue * bool) :=
    let sql := createSQL indexName tableName def isUnique in
    match rows_of_index tableName indexName d with
    | [] => if negb createIfNotExists then Some (d, false)
            else match write d (sql ++ lit ";") with None => None | Some d' => Some (d', true) end
    | row :: _ => Some (d, SIEquals (SReplace sql (lit " ") []) (SReplace row (lit " ") []))
    end.

  (** 638-651: addColumn.  read() of one value gives the empty text if there is no row.  The name of the table is not
      escaped in the query; it has no quotes here. *)
  Definition addColumn (d : catalogue) (tableName column columnType : bytes) : option (catalogue * bool) :=
    let sql := SCollapse (match rows_of_table Table tableName d with [] => [] | row :: _ => row end) in
    if negb (SContains sql (lit " " ++ column ++ lit " ")) then
      match write d (lit "ALTER TABLE " ++ tableName ++ lit " ADD COLUMN " ++ column ++ lit " " ++ columnType ++ lit ";") with
      | None => None
      | Some d' => Some (d', true)
      end
    else Some (d, false).

  (** What plugins do in upgradeDatabase (Jobs.cpp 126-156 and the like): one check after the other.  The answers are
      kept; SASSERT around a call would end the process at the first false. *)
  Inductive check := Check_table (n sql : bytes) | Check_index (n t def : bytes) (isUnique createIfNotExists : bool).
  Definition perform (d : catalogue) (c : check) : option (catalogue * bool) :=
    match c with
    | Check_table n sql => match verifyTable d n sql Table with None => None | Some (d', _, r) => Some (d', r) end
    | Check_index n t def u k => verifyIndex d n t def u k
    end.
  Fixpoint upgradeDatabase (d : catalogue) (l : list check) : option (catalogue * list bool) :=
    match l with
    | [] => Some (d, [])
    | c :: l' =>
        match perform d c with
        | None => None
        | Some (d', r) => match upgradeDatabase d' l' with None => None | Some (d'', rs) => Some (d'', r :: rs) end
        end
    end.
End Schema.
