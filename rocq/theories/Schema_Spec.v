(** C63: the words in which schemas are spoken of, and what SQLite does with the statements that change them.
    SQLite itself is not in /repo; this is its documented behaviour and is trusted, as in the other parts.  Simplified:
    names are not quoted, there are no attached databases and no triggers. *)
From Verif Require Import Base Text_Spec Text_Model.

(** White space as in C (space, tab, line feed, vertical tab, form feed, carriage return). *)
Definition white (c : ascii) : bool := is_space c.
Definition blank (c : ascii) : bool := Ascii.eqb c " ".
(** The text without its white space; without its spaces. *)
Definition without_white (s : bytes) : bytes := filter (fun c => negb (white c)) s.
Definition without_blanks (s : bytes) : bytes := filter (fun c => negb (blank c)) s.
(** Equal but for the case of ASCII letters. *)
Definition same_letters (a b : bytes) : Prop := map lower a = map lower b.

(** A name: letters, digits, underscore, dollar and all bytes from 128 on. *)
Definition name_char (c : ascii) : bool :=
  within "a" c "z" || within "A" c "Z" || within "0" c "9" || Ascii.eqb c "_" || Ascii.eqb c "$" || N.leb 128 (bcode c).
Definition is_name (s : bytes) : Prop := s <> [] /\ forallb name_char s = true.

(** The catalogue, sqlite_master: what there is, in the order it was made. *)
Inductive kind := Table | View | Index.
Record object := Object { o_kind : kind; o_name : bytes; o_table : bytes; o_text : bytes }.
Definition catalogue := list object.

(** Splitting a statement into words. *)
Fixpoint take_name (s : bytes) : bytes * bytes :=
  match s with
  | c :: s' => if name_char c then let (w, r) := take_name s' in (c :: w, r) else ([], s)
  | [] => ([], [])
  end.
Definition word (s : bytes) : bytes * bytes := take_name (skip_space s).
Definition keyword (w : bytes) (k : string) : bool := ieqb w (lit k).
Definition trim_end (s : bytes) : bytes := rev (skip_space (rev s)).
Definition statement (s : bytes) : bytes := if Ascii.eqb (last s " "%char) ";" then removelast s else s.

Section Sqlite.
  (** What SQLite's grammar says, given the text from the name on: whether the definition is right, which columns a
      table has, and where in its text a further column goes. *)
  Variable accepts : bytes -> bool.
  Variable columns : bytes -> list bytes.
  Variable add_at : bytes -> nat.

  Definition named (n : bytes) (d : catalogue) : bool := existsb (fun o => ieqb n (o_name o)) d.
  Definition is_table (o : object) : bool := match o_kind o with Table => true | _ => false end.
  Definition table_named (n : bytes) (d : catalogue) : option object := find (fun o => is_table o && ieqb n (o_name o)) d.

  (** IF NOT EXISTS is left out of the text that is kept. *)
  Definition if_not_exists (s : bytes) : bool * bytes :=
    let (a, r) := word s in
    let (b, r') := word r in
    let (c, r'') := word r' in
    if keyword a "IF" && keyword b "NOT" && keyword c "EXISTS" then (true, r'') else (false, s).

  (** The text that is kept begins with the words CREATE TABLE, in capitals and with one space after each, whatever was written. *)
  Definition create_table (k : kind) (words : bytes) (d : catalogue) (s : bytes) : option catalogue :=
    let (opt, rest) := if_not_exists s in
    let body := skip_space rest in
    let n := fst (word body) in
    if bytes_eqb n [] then None
    else if named n d then (if opt then Some d else None)
    else if accepts body then Some (d ++ [Object k n n (words ++ body)]) else None.

  (** The index is kept with the name of its table as it was spelt when the table was made. *)
  Definition create_index (words : bytes) (d : catalogue) (s : bytes) : option catalogue :=
    let (opt, rest) := if_not_exists s in
    let body := skip_space rest in
    let (n, r) := word body in
    let (on, r') := word r in
    let t := fst (word r') in
    if bytes_eqb n [] || negb (keyword on "ON") then None
    else match table_named t d with
         | None => None
         | Some o =>
             if named n d then (if opt then Some d else None)
             else if accepts body then Some (d ++ [Object Index n (o_name o) (words ++ body)]) else None
         end.

  (** A new column is written into the text of the table. *)
  Definition add_column (d : catalogue) (s : bytes) : option catalogue :=
    let (t, r) := word s in
    let (w1, r1) := word r in
    let (w2, r2) := word r1 in
    if keyword w1 "ADD" && keyword w2 "COLUMN" then
      let def := trim_end (skip_space r2) in
      let n := fst (word def) in
      match table_named t d with
      | None => None
      | Some o =>
          if bytes_eqb n [] || existsb (ieqb n) (columns (o_text o)) || negb (accepts def) then None
          else let at_ := add_at (o_text o) in
               let text := firstn at_ (o_text o) ++ lit ", " ++ def ++ skipn at_ (o_text o) in
               Some (map (fun x => if is_table x && ieqb t (o_name x) then Object (o_kind x) (o_name x) (o_table x) text else x) d)
      end
    else None.

  (** None: an error. *)
  Definition exec (d : catalogue) (sql : bytes) : option catalogue :=
    let (w1, r1) := word (statement sql) in
    let (w2, r2) := word r1 in
    if keyword w1 "CREATE" then
      if keyword w2 "TABLE" then create_table Table (lit "CREATE TABLE ") d r2
      else if keyword w2 "VIEW" then create_table View (lit "CREATE VIEW ") d r2
      else if keyword w2 "INDEX" then create_index (lit "CREATE INDEX ") d r2
      else if keyword w2 "UNIQUE" then
        let (w3, r3) := word r2 in if keyword w3 "INDEX" then create_index (lit "CREATE UNIQUE INDEX ") d r3 else None
      else None
    else if keyword w1 "ALTER" && keyword w2 "TABLE" then add_column d r2
    else None.
End Sqlite.
