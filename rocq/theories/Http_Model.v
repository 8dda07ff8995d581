(** The message format: SParseHTTP, SComposeHTTP (libstuff/libstuff.cpp) and SData's use of them.
    Buffers are shorter than 2 GiB, so the (int) casts of lengths are exact; the casts of numbers
    read from the message are modelled.  Buffers are NUL-terminated (std::string::c_str). *)
From Verif Require Import Base Dec Text_Spec Text_Model Table.

Definition CR : ascii := "013".
Definition LF : ascii := "010".
Definition is_eol (c : ascii) : bool := Ascii.eqb c CR || Ascii.eqb c LF.
Definition cookie_sep : ascii := "255".                    (* S_COOKIE_SEPARATOR *)

(* 961-964: everything up to the first end-of-line character, and the rest *)
Fixpoint split_line (s : bytes) : bytes * bytes :=
  match s with
  | [] => ([], [])
  | c :: s' => if is_eol c then ([], s) else let (a, b) := split_line s' in (c :: a, b)
  end.
(* skip ' ' at the start, at the end *)
Fixpoint ltrim (s : bytes) : bytes := match s with c :: s' => if Ascii.eqb c " " then ltrim s' else s | [] => [] end.
Definition trim (s : bytes) : bytes := rev (ltrim (rev (ltrim s))).
(* _SParseHTTP_GetUpToEnd, 927-942: [out] is only written when something is left *)
Definition up_to_end (line out : bytes) : bytes := match trim line with [] => out | t => t end.
(* the search for a separator, 903-907 *)
Fixpoint find_sep (sep : ascii) (s : bytes) : bytes * bytes :=
  match s with
  | [] => ([], [])
  | c :: s' => if Ascii.eqb c sep then ([], s) else let (a, b) := find_sep sep s' in (c :: a, b)
  end.
Definition rtrim (s : bytes) : bytes := rev (ltrim (rev s)).
(* _SParseHTTP_GetUpToNext, 895-924, on a line that does not start with a space *)
Definition up_to_next (sep : ascii) (line out : bytes) : bytes * bytes :=
  let (a, b) := find_sep sep line in (match rtrim a with [] => out | n => n end, b).
(* 968-983, 1000-1006: up to [n] end-of-line characters *)
Fixpoint drop_eols (n : nat) (s : bytes) : bytes :=
  match n, s with
  | S n', c :: s' => if is_eol c then drop_eols n' s' else s
  | _, _ => s
  end.
(* 1126-1138 *)
Definition eat_eol (s : bytes) : bytes :=
  match s with
  | a :: b :: s' => if (Ascii.eqb a CR && Ascii.eqb b LF) || (Ascii.eqb a LF && Ascii.eqb b CR) then s'
                    else if is_eol a then b :: s' else s
  | [a] => if is_eol a then [] else s
  | [] => []
  end.

(* (int) of a 64-bit number *)
Definition to_int (z : Z) : Z := (z + 2147483648) mod 4294967296 - 2147483648.
(* stoll on a C string: no digits or out of range throws *)
Definition stoll (s : bytes) : option Z :=
  let s1 := skip_space (cstr s) in
  let (neg, s2) := match s1 with
                   | "-"%char :: r => (true, r)
                   | "+"%char :: r => (false, r)
                   | _ => (false, s1)
                   end in
  match digits_of s2 with
  | [] => None
  | ds => let z := if neg then (- Z.of_N (dec_value 0 ds))%Z else Z.of_N (dec_value 0 ds) in
          if ((z <? -9223372036854775808) || (9223372036854775807 <? z))%Z then None else Some z
  end.
(* the regular expression ^[a-fA-F0-9]{1,8}$, 1055 *)
Definition hex8 (s : bytes) : bool :=
  forallb (fun c => match hexval c with Some _ => true | None => false end) s
  && Nat.leb 1 (List.length s) && Nat.leb (List.length s) 8.

Definition CL : bytes := lit "Content-Length".
Definition TE : bytes := lit "Transfer-Encoding".
Definition CE : bytes := lit "Content-Encoding".
Definition SC : bytes := lit "Set-Cookie".

(* what the loop carries: methodLine, nameValueMap, content, name, isChunked *)
Record ps := mkPs { p_method : bytes; p_table : stable; p_content : bytes; p_name : bytes; p_chunked : bool }.
Definition ps0 : ps := mkPs [] [] [] [] false.

(* 0 | a message and the number of bytes used | an exception leaves the function | memory outside the
   buffers is read or written *)
Inductive outcome :=
| Incomplete
| Done (used : nat) (method : bytes) (table : stable) (content : bytes)
| Throws
| Undefined.

(* 1088-1123: a header or footer line *)
Definition header_line (st : ps) (line : bytes) : ps :=
  if match line with c :: _ => is_space c | [] => false end
  then match p_name st with
       | [] => mkPs (p_method st ++ line) (p_table st) (p_content st) [] (p_chunked st)
       | n => mkPs (p_method st) (tput n (match tfind n (p_table st) with Some v => v | None => [] end ++ line) (p_table st))
                   (p_content st) n (p_chunked st)
       end
  else
    let (name, rest) := up_to_next ":" line (p_name st) in
    match name with
    | [] => mkPs (p_method st) (p_table st) (p_content st) [] (p_chunked st)
    | _ =>
        let value := match rest with _ :: v => trim v | [] => [] end in
        let value' := match tfind name (p_table st) with
                      | Some old => if ieqb name SC then old ++ cookie_sep :: value else SUnescape value "\"
                      | None => SUnescape value "\"
                      end in
        mkPs (p_method st) (tput name value' (p_table st)) (p_content st) name (p_chunked st)
    end.

Definition with_method (m : bytes) (st : ps) : ps := mkPs m (p_table st) (p_content st) (p_name st) (p_chunked st).
Definition with_content (c : bytes) (st : ps) : ps := mkPs (p_method st) (p_table st) c (p_name st) (p_chunked st).
Definition start_chunks (st : ps) : ps := mkPs (p_method st) (p_table st) (p_content st) (p_name st) true.
Definition says_chunked (t : stable) : bool := match tfind TE t with Some v => ieqb v (lit "chunked") | None => false end.

(* 1050-1052: the size of a chunk, without an extension *)
Definition chunk_size (line : bytes) : bytes :=
  let h := up_to_end line [] in match find_sep ";" h with (a, _ :: _) => a | _ => h end.

(* 995-1030: the end of the headers of a message that is not chunked; [e] starts at the blank line *)
Definition finish (total : nat) (e : bytes) (st : ps) : outcome :=
  let body := drop_eols 2 e in
  let header := (total - List.length body)%nat in
  match tfind CL (p_table st) with
  | None => Done total (p_method st) (p_table st) body
  | Some v =>
      match stoll v with
      | None => Throws
      | Some z =>
          let n := to_int z in
          if Z.ltb (Z.of_nat (List.length body)) n then Incomplete
          else if Z.ltb n 0 then Throws                              (* content.resize(contentLength) *)
          else Done (header + Z.to_nat n) (p_method st) (p_table st) (firstn (Z.to_nat n) body)
      end
  end.
(* 972-992: the blank line after the chunks *)
Definition finish_chunks (total : nat) (e : bytes) (st : ps) : outcome :=
  Done (total - List.length (drop_eols 2 e)) (p_method st)
       (tput CL (dec (N.of_nat (List.length (p_content st)))) (tdel TE (p_table st))) (p_content st).

(* SParseHTTP, 945-1154: one round of the loop; [rec] is the rest of it.  [total] is the length of the
   whole buffer, [s] what is left from lineStart on. *)
Definition round (rec : bytes -> ps -> outcome) (total : nat) (s : bytes) (st : ps) : outcome :=
  let (line, e) := split_line s in
  match e with
  | [] => Incomplete                                                 (* no end of line, or nothing left *)
  | _ :: _ =>
      match line, p_method st with
      | [], [] => rec (eat_eol e) st
      | [], _ :: _ =>
          if p_chunked st then finish_chunks total e st
          else if says_chunked (p_table st) then rec (eat_eol e) (start_chunks st)
          else finish total e st
      | _ :: _, [] =>
          match trim line with
          | [] => if Nat.eqb (List.length s) total then Undefined        (* *(end - 1) before the buffer, 934 *)
                  else rec (eat_eol e) st
          | m => rec (eat_eol e) (with_method m st)
          end
      | _ :: _, _ :: _ =>
          let hex := chunk_size line in
          if p_chunked st && hex8 hex
          then
            let n := to_int (Z.of_N (SFromHex hex)) in
            if Z.eqb n 0 then rec (eat_eol e) st
            else if Z.leb (Z.of_nat (List.length e)) (2 + n) then Incomplete
            else if Z.ltb n 0
                 then (if Z.leb (- n) (Z.of_nat (List.length (p_content st))) then Undefined   (* memcpy of SIZE_MAX - n + 1 bytes *)
                       else Throws)                                                         (* content.resize *)
                 else rec (eat_eol (skipn (2 + Z.to_nat n) e))
                          (with_content (p_content st ++ firstn (Z.to_nat n) (skipn 2 e)) st)
          else rec (eat_eol e) (header_line st line)
      end
  end.
(* every round uses at least one character *)
Fixpoint parse_from (fuel : nat) (total : nat) (s : bytes) (st : ps) : outcome :=
  match fuel with
  | O => Incomplete
  | S f => round (parse_from f total) total s st
  end.
Definition SParseHTTP (b : bytes) : outcome := parse_from (S (List.length b)) (List.length b) b ps0.

(** ** SComposeHTTP, 1337-1386.  [gz] is SGZip (empty on failure). *)
Definition CRLF : bytes := [CR; LF].
Definition unsafe_chars : bytes := [CR; LF; "009"%char].
(* 1350-1368: the lines of one header *)
Definition header_text (p : bytes * bytes) : bytes :=
  let (k, v) := p in
  if ieqb SC k then flat_map (fun c => lit "Set-Cookie: " ++ c ++ CRLF) (SParseList v cookie_sep)
  else if ieqb CL k then []
  else if ieqb CE k && ieqb (lit "gzip") v then []
  else k ++ lit ": " ++ SEscape v unsafe_chars "\" ++ CRLF.
(* tryGzip, 1364-1365 *)
Definition wants_gzip (t : stable) : bool := existsb (fun p => negb (ieqb SC (fst p)) && negb (ieqb CL (fst p)) && ieqb CE (fst p) && ieqb (lit "gzip") (snd p)) t.
Definition gzipped (gz : bytes -> bytes) (t : stable) (c : bytes) : bytes :=
  if wants_gzip t && negb (match c with [] => true | _ => false end) then gz c else [].
Definition final_content (gz : bytes -> bytes) (t : stable) (c : bytes) : bytes :=
  match gzipped gz t c with [] => c | g => g end.
(* 1345-1349 *)
Definition method_char (c : ascii) : bool := Ascii.eqb c "009" || negb (N.ltb (bcode c) 32 || N.eqb (bcode c) 127).
Definition SComposeHTTP (gz : bytes -> bytes) (m : bytes) (t : stable) (c : bytes) : option bytes :=
  if negb (forallb method_char m) then None                          (* STHROW *)
  else Some (m ++ CRLF ++ flat_map header_text t
             ++ match gzipped gz t c with [] => [] | _ => lit "Content-Encoding: gzip" ++ CRLF end
             ++ lit "Content-Length: " ++ dec (N.of_nat (List.length (final_content gz t c))) ++ CRLF
             ++ CRLF ++ final_content gz t c).

(** ** The receiving loop of a peer connection: SQLitePeer::popMessage, 191-203, called until it
    reports no message (SQLiteNode.cpp postPoll): recvBuffer -> messages, recvBuffer *)
Fixpoint drain (fuel : nat) (b : bytes) : list (bytes * stable * bytes) * bytes :=
  match fuel with
  | O => ([], b)
  | S f => match SParseHTTP b with
           | Done (S _ as n) m t c => let (l, b') := drain f (skipn n b) in ((m, t, c) :: l, b')
           | _ => ([], b)
           end
  end.
(* data arrives in pieces *)
Fixpoint receive (b : bytes) (pieces : list bytes) : list (bytes * stable * bytes) * bytes :=
  match pieces with
  | [] => ([], b)
  | p :: r => let (l, b1) := drain (S (List.length (b ++ p))) (b ++ p) in
              let (l', b2) := receive b1 r in (l ++ l', b2)
  end.
(** ** handleSocket, BedrockServer.cpp 2279-2340 *)
(* SFastBuffer::startsWithHTTPRequest as a function of the unconsumed bytes (C08): the method line and
   headers have arrived *)
Fixpoint blank_line_in (s : bytes) : bool :=
  match s with
  | [] => false
  | c :: s' =>
      match c, s' with
      | a, b :: r =>
          (Ascii.eqb a LF && Ascii.eqb b LF)
          || (Ascii.eqb a CR && Ascii.eqb b LF && match r with x :: y :: _ => Ascii.eqb x CR && Ascii.eqb y LF | _ => false end)
          || blank_line_in s'
      | _, [] => false
      end
  end.
Definition header_block (b : bytes) : bool :=
  Nat.leb 4 (List.length b) && match b with _ :: s => blank_line_in s | [] => false end.
(* poll reports new data, one recv, then at most one request is taken.  None: an exception or worse ends the
   connection. *)
Fixpoint handle_socket (b : bytes) (pieces : list bytes) : option (list (bytes * stable * bytes) * bytes) :=
  match pieces with
  | [] => Some ([], b)
  | p :: r =>
      if header_block (b ++ p)
      then match SParseHTTP (b ++ p) with
           | Done n m t c => match handle_socket (skipn n (b ++ p)) r with
                             | Some (l, b') => Some ((m, t, c) :: l, b')
                             | None => None
                             end
           | Incomplete => handle_socket (b ++ p) r
           | _ => None
           end
      else handle_socket (b ++ p) r
  end.
