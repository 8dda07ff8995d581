(** Model of what a write leaves for the journal, as text. *)
From Verif Require Import Base Dec Text_Spec Text_Model Query_Spec Lex_Spec.

Section model.
  (** [print15]: SQLite's "%!.15g". *)
  Context {R : Type} (print15 : R -> bytes).
  (** sqlite3_expanded_sql on a bound value (sqlite3.h 4689-4714; SQLite's sqlite3VdbeExpandSql, outside /repo as source): NULL, %lld,
      %!.15g, '%.*q' - which stops at a zero byte and doubles quotes - and x'...' with two hexadecimal digits for each byte
      (SQLite writes them in lower case; here they are in upper case, which SQLite reads alike). *)
  Definition literal (v : bound R) : bytes :=
    match v with
    | Null => lit "NULL"
    | Int64 z => decZ z
    | Double r => print15 r
    | Text b => "'"%char :: doubled (cstr b) ++ ["'"%char]
    | Blob b => lit "x'" ++ SToHexS b ++ ["'"%char]
    end.
  (** libstuff.cpp 2899-2944: each given value is bound by name; a placeholder with no value stays NULL.  Then 3018: the text
      of the statement (from the end of the last one up to its own end) with the placeholders replaced. *)
  Definition expanded (vs : list (bytes * bound R)) (p : list word) : bytes :=
    concat (map (fun x => match fst x with Var => literal (match value_of (snd x) vs with Some v => v | None => Null end) | _ => snd x end) p).
  (** libstuff.cpp 2858-3040 with [expandedSql], when no statement fails: sqlite3_prepare_v2 takes one statement from the
      text; when there is none (2888-2892) the text is dropped; the expanded text is added at 3026. *)
  Definition SQuery_expanded (q : bytes) (vs : list (bytes * bound R)) : bytes :=
    concat (map (expanded vs) (statements q)).
  (** SQLite.cpp 853-929 [_writeIdempotent], for writes that change something: 864 wants ';' as the last byte of the query
      ([None]: the assertion fails) and 924 adds the expanded text to _uncommittedQuery. *)
  Definition ends_in_semicolon (q : bytes) : bool := match q with [] => true | _ => Ascii.eqb (last q " "%char) ";" end.
  Definition write (w : bytes * list (bytes * bound R)) (uncommitted : bytes) : option bytes :=
    if ends_in_semicolon (fst w) then Some (uncommitted ++ SQuery_expanded (fst w) (snd w)) else None.
  Fixpoint transaction (ws : list (bytes * list (bytes * bound R))) (uncommitted : bytes) : option bytes :=
    match ws with [] => Some uncommitted | w :: ws => match write w uncommitted with Some u => transaction ws u | None => None end end.
End model.
(** SQLiteNode.cpp [handleBeginTransaction] and SQLite.cpp 799-804 [writeUnmodified]: the follower gives the text of the row to SQuery with no values. *)
Definition follower_statements (row : bytes) : list (list word) := statements row.
