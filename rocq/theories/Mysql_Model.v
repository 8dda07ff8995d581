(** The MySQL port: plugins/MySQL.cpp 12-710, and BedrockServer.cpp 2314-2325, 2352-2413 and 1370-1383 as far as they deal with a
    plugin's socket.  Line numbers without a file are of plugins/MySQL.cpp.

    The regular expressions (18, 24, 115, 403) are written out as functions; PCRE's depth limit is left out.  Left out: logging,
    a socket that is closed, shutdown (C45), and what else is in the request made for the database ("plugin", "ReadDBFlags"). *)
From Verif Require Import Base Dec Text_Spec Text_Model Query_Model Result_Model Qrf_Model Mysql_Vars Mysql_Spec.
Local Open Scope N_scope.

(** * Packets *)
(** The [k] least bytes of a number, the least first (memcpy and SAppend on a little-endian machine). *)
Fixpoint le (k : nat) (v : N) : bytes := match k with O => [] | S k' => ascii_of_N (v mod 256) :: le k' (v / 256) end.
(** 134-143 *)
Definition serialize (p : packet) : bytes := le 3 (N.of_nat (List.length (payload p))) ++ ascii_of_N (seqno p) :: payload p.
(** 145-166; None is the return of 0. *)
Definition deserialize (s : bytes) : option (packet * bytes) :=
  match s with
  | a :: b :: c :: d :: s' =>
      let payloadLength := number [a; b; c] in
      if N.of_nat (List.length s') <? payloadLength then None
      else Some (mkPacket (bcode d) (firstn (N.to_nat payloadLength) s'), skipn (N.to_nat payloadLength) s')
  | _ => None
  end.
(** 168-192 *)
Definition lenEncInt (v : N) : bytes :=
  if v <? 251 then le 1 v
  else if v <? 2 ^ 16 then "252"%char :: le 2 v
  else if v <? 2 ^ 24 then "253"%char :: le 3 v
  else "254"%char :: le 8 v.
(** 194-198 *)
Definition lenEncStr (s : bytes) : bytes := lenEncInt (N.of_nat (List.length s)) ++ s.
(** 200-246 *)
Definition serializeHandshake : bytes :=
  serialize (mkPacket 0 (lenEncInt 10 ++ mysqlVersion ++ lenEncInt 0 ++ le 4 1 ++ lit "xxxxxxxx" ++ lenEncInt 0 ++ le 2 0x201 ++ le 1 8 ++ le 2 2 ++ le 2 8 ++
    le 1 0x15 ++ le 10 0 ++ lit "mysql_native_password")).
(** 262-291 *)
Definition column_payload (header : bytes) : bytes :=
  lenEncStr (lit "def") ++ lenEncStr (lit "unknown") ++ lenEncStr (lit "unknown") ++ lenEncStr (lit "unknown") ++ lenEncStr header ++ lenEncStr header ++
  le 1 0x0c ++ le 2 8 ++ le 4 1024 ++ le 1 254 ++ le 2 0 ++ le 1 0 ++ le 2 0.
(** 297-301 *)
Definition eof_payload : bytes := "254"%char :: le 4 0.
(** 309-312 *)
Definition row_payload (row : list bytes) : bytes := flat_map lenEncStr row ++ ["254"%char].
(** ++sequenceID before each packet, cut to a byte. *)
Fixpoint numbered (sequenceID : Z) (payloads : list bytes) : bytes :=
  match payloads with
  | [] => []
  | p :: l => serialize (mkPacket (Z.to_N ((sequenceID + 1) mod 256)) p) ++ numbered (sequenceID + 1) l
  end.
(** 248-322 *)
Definition serializeQueryResponse (sequenceID : Z) (result : sqresult) : bytes :=
  numbered sequenceID ([lenEncInt (N.of_nat (List.length (headers result)))] ++ map column_payload (headers result) ++ [eof_payload] ++
                       map row_payload (rows result) ++ [eof_payload]).
(** 324-340 *)
Definition serializeOK (sequenceID : Z) : bytes := numbered sequenceID [lenEncInt 0 ++ lenEncInt 0 ++ lenEncInt 0 ++ le 2 2 ++ le 2 0 ++ lit "OK"].
(** 342-351 *)
Definition serializeERR (sequenceID : Z) (code : N) (message : bytes) : bytes := numbered sequenceID ["255"%char :: le 2 code ++ message].

(** * Looking at queries *)
(** libstuff.cpp SIEquals: strcasecmp. *)
Definition SIEquals (a b : bytes) : bool := ieqb (cstr a) (cstr b).
(** string::find: what follows the first occurrence and what precedes it. *)
Fixpoint find (needle s : bytes) : option (bytes * bytes) :=
  if SStartsWith s needle then Some ([], skipn (List.length needle) s)
  else match s with [] => None | c :: s' => match find needle s' with Some (a, b) => Some (c :: a, b) | None => None end end.
(** find_first_of *)
Fixpoint find_of (set s : bytes) : option (bytes * ascii * bytes) :=
  match s with
  | [] => None
  | c :: s' => if in_set c set then Some ([], c, s') else match find_of set s' with Some (a, d, b) => Some (c :: a, d, b) | None => None end
  end.
Definition is_word (c : ascii) : bool := within "a" c "z" || within "A" c "Z" || within "0" c "9" || Ascii.eqb c "_".
Definition spaces (s : bytes) : option bytes := match s with c :: s' => if is_space c then Some (skip_space s') else None | [] => None end.
(** A caseless prefix, given in capitals. *)
Definition after_word (w s : bytes) : option bytes := if SStartsWith (SToUpper s) w then Some (skipn (List.length w) s) else None.
(** 403-405: SELECT and white space, or not; two at signs; perhaps a word and a dot; or the beginning of SHOW VARIABLES LIKE; a word; the rest, without newlines. *)
Definition word_then_line (s : bytes) : bool := match s with c :: _ => is_word c && negb (in_set "010" s) | [] => false end.
Definition is_variable_query (q : bytes) : bool :=
  let at_ s := match after_word (lit "@@") s with Some r => word_then_line r | None => false end in
  at_ q || match after_word (lit "SELECT") q with Some r => match spaces r with Some r' => at_ r' | None => false end | None => false end ||
  match after_word (lit "SHOW VARIABLES LIKE '") q with Some r => word_then_line r | None => false end.
(** 15-25: SELECT, the name with brackets that hold white space, perhaps AS and a word, perhaps a semicolon; gives the word. *)
Definition closes (s : bytes) : bool := match skip_space s with [] => true | [c] => Ascii.eqb c ";" | _ => false end.
Fixpoint word_prefix (s : bytes) : bytes := match s with c :: s' => if is_word c then c :: word_prefix s' else [] | [] => [] end.
Definition parse_call (name q : bytes) : option (option bytes) :=
  match after_word (lit "SELECT") (SToUpper q) with
  | Some r =>
      match spaces r with
      | Some r1 =>
          match after_word (name ++ lit "(") r1 with
          | Some r2 =>
              match skip_space r2 with
              | c :: r3 =>
                  if negb (Ascii.eqb c ")") then None
                  else if closes r3 then Some None
                  else match spaces r3 with
                       | Some r4 => match after_word (lit "AS") r4 with
                                    | Some r5 => match spaces r5 with
                                                 | Some r6 => let w := word_prefix r6 in
                                                              if negb (bytes_eqb w []) && closes (skipn (List.length w) r6) then Some (Some w) else None
                                                 | None => None
                                                 end
                                    | None => None
                                    end
                       | None => None
                       end
              | [] => None
              end
          | None => None
          end
      | None => None
      end
  | None => None
  end.
(** 27-51; positions are the same in the query and in its capitals. *)
Definition extractTableNameFromColumnsQuery (q : bytes) : bytes :=
  match find (lit "TABLE_NAME") (SToUpper q) with
  | Some (a, _) =>
      match find (lit "=") (skipn (List.length a) q) with
      | Some (_, r) =>
          match find_of ["'"; """"]%char r with
          | Some (_, quoteChar, r') => match find [quoteChar] r' with Some (name, _) => name | None => [] end
          | None => []
          end
      | None => []
      end
  | None => []
  end.
(** 73-102 *)
Fixpoint skip_blank (s : bytes) : bytes := match s with c :: s' => if Ascii.eqb c " " || Ascii.eqb c "009" then skip_blank s' else s | [] => [] end.
Definition extractTableNameFromShowKeysQuery (q : bytes) : bytes :=
  match find (lit "FROM") (SToUpper q) with
  | Some (a, _) =>
      match skip_blank (skipn (List.length a + 4) q) with
      | [] => []
      | c :: r =>
          if Ascii.eqb c "`" then match find ["`"%char] r with Some (name, _) => name | None => [] end
          else match find_of [" "; "009"; ";"]%char (c :: r) with Some (name, _, _) => name | None => c :: r end
      end
  | None => []
  end.
(** 111-119: table_name, white space, an equals sign, white space, a quotation mark, other characters (at least one), a quotation mark; the leftmost match. *)
Definition fk_here (s : bytes) : option bytes :=
  match after_word (lit "TABLE_NAME") s with
  | Some r =>
      match skip_space r with
      | c :: r1 =>
          if negb (Ascii.eqb c "=") then None
          else match skip_space r1 with
               | d :: r2 => if negb (in_set d ["'"; """"]%char) then None
                            else match find_of ["'"; """"]%char r2 with Some (n :: name, _, _) => Some (n :: name) | _ => None end
               | [] => None
               end
      | [] => None
      end
  | None => None
  end.
Fixpoint extractTableNameFromForeignKeyQuery (s : bytes) : bytes :=
  match fk_here s with
  | Some name => name
  | None => match s with [] => [] | _ :: s' => extractTableNameFromForeignKeyQuery s' end
  end.

(** * The queries it makes *)
(** 457-465 *)
Definition FULL_TABLES : bytes := lit "SELECT name as Tables_in_main, CASE type WHEN 'table' THEN 'BASE TABLE' WHEN 'view' THEN 'VIEW' END as Table_type FROM sqlite_master WHERE type IN ('table', 'view');".
(** 467-470 *)
Definition ALTERYX : bytes := lit "SELECT TABLE_NAME,TABLE_COMMENT,IF(TABLE_TYPE='BASE TABLE', 'TABLE', TABLE_TYPE),TABLE_SCHEMA FROM INFORMATION_SCHEMA.TABLES WHERE TABLE_SCHEMA=DATABASE() AND ( TABLE_TYPE='BASE TABLE' OR TABLE_TYPE='VIEW' ) AND TABLE_NAME LIKE '%' ORDER BY TABLE_SCHEMA, TABLE_NAME;".
(** 480-488 *)
Definition ALTERYX_TABLES : bytes := lit "SELECT name as TABLE_NAME, '' as TABLE_COMMENT, UPPER(type) as TABLE_TYPE, 'main' as TABLE_SCHEMA FROM sqlite_master WHERE type IN ('table', 'view') ORDER BY TABLE_SCHEMA, TABLE_NAME;".
(** 497-501 *)
Definition TABLES : bytes := lit "SELECT name as name FROM sqlite_master WHERE type = 'table' ORDER BY name;".
(** 510-514 *)
Definition VIEWS : bytes := lit "SELECT name as name FROM sqlite_master WHERE type = 'view' ORDER BY name;".
(** 529-541 *)
Definition COLUMNS (name : bytes) : bytes := lit "SELECT " ++ SQ name ++ lit " as table_name, name as column_name, type as column_type, type as data_type, CASE WHEN ""notnull"" = 0 THEN 'YES' ELSE 'NO' END as is_nullable, dflt_value as column_default, (cid + 1) as ordinal_position, NULL as column_comment, CASE WHEN pk = 1 THEN 'auto_increment' ELSE NULL END as extra FROM pragma_table_info(" ++ SQ name ++ lit ") ORDER BY cid;".
(** 609-626 *)
Definition KEYS (name : bytes) : bytes := lit "SELECT " ++ SQ name ++ lit " as Table_name, 0 as Non_unique, 'PRIMARY' as Key_name, (cid + 1) as Seq_in_index, name as Column_name, 'A' as Collation, NULL as Cardinality, NULL as Sub_part, NULL as Packed, CASE WHEN ""notnull"" = 1 THEN '' ELSE 'YES' END as Null_col, 'BTREE' as Index_type, '' as Comment, '' as Index_comment FROM pragma_table_info(" ++ SQ name ++ lit ") WHERE pk = 1 ORDER BY cid;".
(** 647-660 *)
Definition FOREIGN_KEYS (name : bytes) : bytes := lit "SELECT 'fk_' || ""table"" || '_' || ""from"" as constraint_name, ""from"" as column_name, ""table"" as referenced_table_name, 'FOREIGN' as key_type, ""table"" as referenced_table, ""to"" as referenced_column, CASE WHEN on_update = 'NO ACTION' THEN 'RESTRICT' ELSE on_update END as on_update, CASE WHEN on_delete = 'NO ACTION' THEN 'RESTRICT' ELSE on_delete END as on_delete, 'fk_' || ""table"" || '_' || ""from"" as rc_constraint_name, (seq + 1) as ordinal_position FROM pragma_foreign_key_list(" ++ SQ name ++ lit ") ORDER BY ""table"", seq;".

(** 388-399 *)
Definition decoded (text : bytes) : bytes :=
  let query := STrim text in
  let query := if ends_with_semicolon query then query else query ++ lit ";" in
  if SStartsWith query (lit "/*") then match find (lit "*/") query with Some (_, r) => r | None => query end else query.

(** What is done about a query: it is answered with a result, an OK or an error, or a query is made for the database. *)
Inductive action := Says_result (r : sqresult) | Says_ok | Says_error (code : N) (message : bytes) | Asks (query : bytes).
Definition NO_NAME (what : bytes) : action := Says_error 1046 (lit "Could not extract table name from " ++ what ++ lit " query").
Section port.
  Context (VERSION : bytes).
  (** 402-673 *)
  Definition treat (query : bytes) : action :=
    let up := SToUpper query in
    if is_variable_query query then
      let varName := query in                                              (* matches[0]: the whole match *)
      Says_result (mkResult [varName] (match List.find (fun v => SIEquals (fst v) varName) (g_MySQLVariables VERSION) with Some v => [[snd v]] | None => [] end))
    else if SIEquals query (lit "SHOW VARIABLES;") then
      Says_result (mkResult [lit "Variable Name"; lit "Value"] (map (fun v => [fst v; snd v]) (g_MySQLVariables VERSION)))
    else if SIEquals query (lit "SHOW DATABASES;") || SIEquals up (lit "SELECT DATABASE();") ||
            SIEquals up (lit "SELECT * FROM (SELECT DATABASE() AS DATABASE_NAME) A WHERE A.DATABASE_NAME IS NOT NULL;") then
      Says_result (mkResult [lit "Database"] [[lit "main"]])
    else if SIEquals up (lit "SHOW /*!50002 FULL*/ TABLES;") || SIEquals up (lit "SHOW FULL TABLES;") then Asks FULL_TABLES
    else if SIEquals up ALTERYX then Asks ALTERYX_TABLES
    else if SContains up (lit "INFORMATION_SCHEMA.TABLES") then Asks TABLES
    else if SContains up (lit "INFORMATION_SCHEMA.VIEWS") then Asks VIEWS
    else if SContains up (lit "INFORMATION_SCHEMA.COLUMNS") then
      match extractTableNameFromColumnsQuery query with [] => NO_NAME (lit "columns") | name => Asks (COLUMNS name) end
    else if SContains query (lit "information_schema") then Says_result (mkResult [] [])
    else if SStartsWith up (lit "SET ") || SStartsWith up (lit "USE ") || SIEquals query (lit "ROLLBACK;") then Says_ok
    else if SIEquals up (lit "SELECT $$;") then Says_ok
    else match parse_call (lit "VERSION") query with
    | Some alias => Says_result (mkResult [match alias with Some w => SToLower w | None => lit "version()" end] [[mysqlVersion]])
    | None =>
    match parse_call (lit "CONNECTION_ID") query with
    | Some alias => Says_result (mkResult [match alias with Some w => SToLower w | None => lit "connection_id()" end] [[lit "1"]])
    | None =>
    if SContains up (lit "SHOW KEYS FROM") then
      match extractTableNameFromShowKeysQuery query with [] => NO_NAME (lit "SHOW KEYS") | name => Asks (KEYS name) end
    else if SContains up (lit "INFORMATION_SCHEMA.KEY_COLUMN_USAGE") && SContains up (lit "INFORMATION_SCHEMA.REFERENTIAL_CONSTRAINTS") then
      match extractTableNameFromForeignKeyQuery query with [] => NO_NAME (lit "foreign key") | name => Asks (FOREIGN_KEYS name) end
    else Asks query
    end end.
  (** 385-683: a packet.  What is sent, or the request made: its sequenceID, SToStr of a uint8_t and so the character itself, and
      its query. *)
  Definition on_packet (p : packet) : bytes + bytes * bytes :=
    match payload p with
    | c :: text =>
        if bcode c =? 3 then
          match treat (decoded text) with
          | Says_result r => inl (serializeQueryResponse (Z.of_N (seqno p)) r)
          | Says_ok => inl (serializeOK (Z.of_N (seqno p)))
          | Says_error code m => inl (serializeERR (Z.of_N (seqno p)) code m)
          | Asks q => inr ([ascii_of_N (seqno p)], q)
          end
        else inl (serializeOK (Z.of_N (seqno p)))
    | [] => inl (serializeOK (Z.of_N (seqno p)))
    end.
  (** 375-685: all packets in the buffer; what is left of it, what is sent, and the request, a later one in the place of an
      earlier one. *)
  Fixpoint onPortRecv (fuel : nat) (recvBuffer sent : bytes) (request : option (bytes * bytes)) : bytes * bytes * option (bytes * bytes) :=
    match fuel with
    | O => (recvBuffer, sent, request)
    | S f => match deserialize recvBuffer with
             | None => (recvBuffer, sent, request)
             | Some (p, rest) => match on_packet p with
                                 | inl out => onPortRecv f rest (sent ++ out) request
                                 | inr r => onPortRecv f rest sent (Some r)
                                 end
             end
    end.
  (** libstuff.cpp 3492-3510 *)
  Definition SBefore (value needle : bytes) : bytes := match find needle value with Some (a, _) => a | None => [] end.
  Definition SAfter (value needle : bytes) : bytes := match find needle value with Some (_, b) => b | None => [] end.
  (** 687-710; None is the failed assertion. *)
  Definition onPortRequestComplete (sequenceID : bytes) (r : response) : option bytes :=
    let seq := SToInt64 sequenceID in                                      (* SData::calc *)
    if (SToInt64 (method r) =? 200)%Z then
      match content r with
      | [] => Some (serializeOK seq)
      | _ => match deserialize_any (content r) with Loaded result => Some (serializeQueryResponse seq result) | _ => None end
      end
    else Some (serializeERR seq (Z.to_N (SToInt64 (SBefore (method r) (lit " ")) mod 65536)) (SAfter (method r) (lit " ") ++ lit " " ++ error r)).

  (** The database: what it says to a query, and what it is afterwards. *)
  Context {DB : Type} (ask : DB -> bytes -> DB * response).
  (** BedrockServer.cpp 2301-2325, 2352-2413: some bytes arrive.  The database, what is left in the buffer, and what is sent; None
      if the server stops.  The request is run before anything else is read. *)
  Definition arrives (db : DB) (buffer chunk : bytes) : option (DB * bytes * bytes) :=
    match onPortRecv (List.length (buffer ++ chunk)) (buffer ++ chunk) [] None with
    | (rest, sent, None) => Some (db, rest, sent)
    | (rest, sent, Some (seq, q)) =>
        let (db', r) := ask db q in
        match onPortRequestComplete seq r with Some out => Some (db', rest, sent ++ out) | None => None end
    end.
  Fixpoint arrive (db : DB) (buffer : bytes) (chunks : list bytes) : option (DB * bytes * bytes) :=
    match chunks with
    | [] => Some (db, buffer, [])
    | c :: l => match arrives db buffer c with
                | Some (db1, b1, o1) => match arrive db1 b1 l with Some (db2, b2, o2) => Some (db2, b2, o1 ++ o2) | None => None end
                | None => None
                end
    end.
  (** A client that waits for what is sent in answer to one command before it sends the next: the chunks in which each command
      arrives, and what is sent for each. *)
  Fixpoint talk (db : DB) (buffer : bytes) (commands : list (list bytes)) : option (DB * bytes * list bytes) :=
    match commands with
    | [] => Some (db, buffer, [])
    | c :: l => match arrive db buffer c with
                | Some (db1, b1, o1) => match talk db1 b1 l with Some (db2, b2, os) => Some (db2, b2, o1 :: os) | None => None end
                | None => None
                end
    end.
End port.
