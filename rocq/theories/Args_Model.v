(** Model of the options for the output of queries and of the text shown for an error: plugins/DB.cpp. *)
From Verif Require Import Base Text_Model Table Timeout_Model Query_Model Args_Spec.
Open Scope nat_scope.

(** ** 207-255: splitting the text into words.  [escaped] is only set outside of quotes, so the two flags are one state. *)
Inductive reading := Open | Within (q : ascii) | Next.
(** 222-223, 230-232: the word is kept unless it is empty *)
Definition keep (word : bytes) : list bytes := match word with [] => [] | _ => [word] end.
Fixpoint split_args (s : bytes) (st : reading) (word : bytes) : list bytes :=
  match s with
  | [] => keep word                                                                      (* 251-255 *)
  | c :: s' =>
      match st with
      | Next => split_args s' Open (word ++ [c])                                         (* 217-221 *)
      | Within q => if Ascii.eqb c q then split_args s' Open word else split_args s' (Within q) (word ++ [c])   (* 222-229 *)
      | Open =>
          if is_space c then keep word ++ split_args s' Open []                          (* 232-237 *)
          else if Ascii.eqb c "'" || Ascii.eqb c """" then split_args s' (Within c) word (* 240-242 *)
          else if Ascii.eqb c "\" then split_args s' Next word                           (* 243-245 *)
          else split_args s' Open (word ++ [c])                                          (* 246-249 *)
      end
  end.

(** ** 257-345: reading the words *)
(** 257-285: the defaults *)
Definition plain_shown : shown := Shown Listing On None None.
Definition set_style (s : style) (o : shown) : shown := Shown s (titles_of o) (null_of o) (separator_of o).
Definition set_titles (s : switch) (o : shown) : shown := Shown (style_of o) s (null_of o) (separator_of o).
Definition set_null (v : bytes) (o : shown) : shown := Shown (style_of o) (titles_of o) (Some v) (separator_of o).
Definition set_separator (v : bytes) (o : shown) : shown := Shown (style_of o) (titles_of o) (null_of o) (Some v).
(** *it == "-x" || *it == "--x" *)
Definition is_option (name : string) (word : bytes) : bool := bytes_eqb word (lit "-" ++ lit name) || bytes_eqb word (lit "--" ++ lit name).
(** 303-340: an argument name; what is not known changes nothing.  The second part is what [previous] is set to. *)
Definition option_name (w : bytes) (o : shown) : shown * bytes :=
  if is_option "ascii" w then (o, [])
  else if is_option "box" w then (set_style Box o, [])
  else if is_option "column" w then (set_style Column o, [])
  else if is_option "csv" w then (set_style Csv o, [])
  else if is_option "header" w then (set_titles On o, [])
  else if is_option "noheader" w then (set_titles Off o, [])
  else if is_option "html" w then (set_style Html o, [])
  else if is_option "explain" w then (set_style Explain o, [])
  else if is_option "eqp" w || is_option "explainqueryplan" w then (set_style Plan o, [])
  else if is_option "json" w then (set_style Json o, [])
  else if is_option "line" w then (set_style Line o, [])
  else if is_option "list" w then (set_style Listing o, [])
  else if is_option "markdown" w then (set_style Markdown o, [])
  else if is_option "nullvalue" w then (o, w)
  else if is_option "quote" w then (set_style Quote o, [])
  else if is_option "separator" w then (o, w)
  else if is_option "table" w then (set_style Grid o, [])
  else if is_option "tabs" w then (o, [])
  else (o, []).
(** 291-301: the value of [previous].  The text given to the formatter ends at the first NUL (c_str). *)
Definition option_value (previous w : bytes) (o : shown) : shown :=
  if is_option "nullvalue" previous then set_null (cstr w) o
  else if is_option "separator" previous then set_separator (cstr w) o else o.
Fixpoint read_options (l : list bytes) (previous : bytes) (o : shown) : shown :=
  match l with
  | [] => o
  | w :: l' =>
      match previous with
      | [] => let r := option_name w o in read_options l' (snd r) (fst r)
      | _ => read_options l' [] (option_value previous w o)
      end
  end.
Definition parseSQLite3Args (args : bytes) : shown := read_options (split_args args Open []) [] plain_shown.

(** ** 69-113: which options a query is run with; [t]: the headers.  The last part is the rewriting of .schema (see Query_Model.rewritten):
    the query was replaced. *)
Definition shown_for (t : stable) (schema : bool) : shown :=
  let o := parseSQLite3Args [] in
  let o := if isSet (lit "ReadDBFlags") t then parseSQLite3Args (header (lit "ReadDBFlags") t) else o in
  let o := if isSet (lit "SQLiteArgs") t then parseSQLite3Args (header (lit "SQLiteArgs") t) else o in
  let o := if isSet (lit "MYSQLFlags") t then set_null ["010"%char] (set_separator ["030"%char] (set_titles Off o)) else o in
  let o := if isSet (lit "SuppressResult") t then set_style Nothing o else o in
  if schema then set_style Column (set_titles Auto o) else o.

(** ** 352-402: the text shown for an error *)
(** (c & 0xc0) == 0x80 *)
Definition cont (c : ascii) : bool := (Nat.leb 128 (nat_of_ascii c)) && (Nat.ltb (nat_of_ascii c) 192).
(** 358-368: [rest] is the query from sqlOffset on; [inner]: in the inner loop.  Behind the end is the NUL of the string; what is behind
    that is read if the offset is too large: None, undefined. *)
Fixpoint window (inner : bool) (rest : bytes) (e : Z) : option (bytes * Z) :=
  match rest with
  | [] => if (e <=? 50)%Z then Some ([], e) else None
  | c :: r => if (inner && cont c) || (50 <? e)%Z then window true r (e - 1) else Some (rest, e)
  end.
(** 373-375, on the reversed snippet *)
Fixpoint drop_cont (r : bytes) : bytes := match r with c :: r' => if cont c then drop_cont r' else r | [] => [] end.
(** 370-377 *)
Definition snippet (rest : bytes) : bytes :=
  if 78 <? length rest then rev (drop_cont (rev (firstn 78 rest))) else rest.
(** 380-384 *)
Definition blank (c : ascii) : ascii := if is_space c then " "%char else c.
Definition spaces (n : Z) : bytes := repeat " "%char (Z.to_nat n).
(** 387-400 *)
Definition marker (e : Z) : bytes :=
  if (e <? 25)%Z then spaces e ++ lit "^--- error here" else spaces (e - 14) ++ lit "error here ---^".
Definition NL : bytes := ["010"%char].
Definition generateErrorContextMessage (query message : bytes) (offset : Z) : option bytes :=
  if (offset <? 0)%Z then Some message
  else match window false query offset with
       | None => None
       | Some (rest, e) => Some (message ++ NL ++ map blank (snippet rest) ++ NL ++ marker e ++ NL)
       end.

Section Prepare.
  (** What sqlite3_prepare_v3 does with a text: it takes some bytes of it, or there is an error at a place of that text, which is what
      sqlite3_error_offset gives; -1 if it is not known. *)
  Variable prepare : bytes -> nat + Z.
  (** SQLite.cpp 1616-1643, only the offset of the error.  [fuel]: there are at most as many statements as bytes. *)
  Fixpoint getPreparedStatements (fuel : nat) (tail : bytes) : option Z :=
    match fuel, tail with
    | S fuel', _ :: _ =>
        match prepare tail with
        | inl n => getPreparedStatements fuel' (skipn n tail)
        | inr offset => Some offset
        end
    | _, _ => None
    end.
  (** DB.cpp 121-140: what is answered as 402 Bad query; None: nothing is wrong with the query *)
  Definition bad_query (query message : bytes) : option (option bytes) :=
    match getPreparedStatements (length query) query with
    | Some offset => Some (generateErrorContextMessage query message offset)
    | None => None
    end.
End Prepare.
