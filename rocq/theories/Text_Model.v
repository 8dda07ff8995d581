(** Model of the text codecs of libstuff/libstuff.cpp.  std::string is a list of bytes;
    functions that walk a C string ([const char*]) see it up to its first NUL ([cstr]). *)
From Verif Require Import Base Dec Text_Spec.
Local Open Scope N_scope.

(** What a [const char*] made from a std::string exposes. *)
Fixpoint cstr (s : bytes) : bytes :=
  match s with [] => [] | c :: s' => if Ascii.eqb c NUL then [] else c :: cstr s' end.

Definition within (lo c hi : ascii) : bool := N.leb (bcode lo) (bcode c) && N.leb (bcode c) (bcode hi).

(** ** Hexadecimal *)
(** libstuff.cpp:343, 356-357. *)
Definition hexchar (d : N) : ascii := if N.ltb d 10 then ascii_of_N (48 + d) else ascii_of_N (65 + (d - 10)).

(** libstuff.cpp:334-346 [SToHex(uint64_t value, int digits)]: filled from the back. *)
Fixpoint to_hex_num (v : N) (digits : nat) (acc : bytes) : bytes :=
  match digits with
  | O => acc
  | S d => to_hex_num (v / 16) d (hexchar (v mod 16) :: acc)
  end.
Definition SToHexN (v : N) (digits : nat) : bytes := to_hex_num v digits [].

(** libstuff.cpp:348-360 [SToHex(const string&)]. *)
Definition SToHexS (s : bytes) : bytes :=
  flat_map (fun c => [hexchar (bcode c / 16); hexchar (bcode c mod 16)]) s.

(** libstuff.cpp:375-380: digit value of one character. *)
Definition hexval (c : ascii) : option N :=
  if within "0" c "9" then Some (bcode c - 48)
  else if within "a" c "f" then Some (bcode c - 97 + 10)
  else if within "A" c "F" then Some (bcode c - 65 + 10)
  else None.

(** libstuff.cpp:368-388 [SFromHex]: 64-bit shifts drop the top nibble; on an invalid
    character the shift is "undone" and parsing stops. *)
Fixpoint from_hex (acc : N) (s : bytes) : N :=
  match s with
  | [] => acc
  | c :: s' =>
      let sh := (acc * 16) mod 18446744073709551616 in
      match hexval c with
      | Some d => from_hex (sh + d) s'
      | None => sh / 16
      end
  end.
Definition SFromHex (s : bytes) : N := from_hex 0 s.

Definition is_space (c : ascii) : bool := Ascii.eqb c " " || within "009" c "013".

(** strtol(…, 0, 16) on at most two characters (C11 7.22.1.4), reduced to a char: optional
    white space and sign, then hex digits; a lone "0x" reads as 0.  *)
Fixpoint hex_prefix (acc : N) (s : bytes) : N :=
  match s with c :: s' => match hexval c with Some d => hex_prefix (16 * acc + d) s' | None => acc end | [] => acc end.
Definition strtol16_2 (s : bytes) : ascii :=
  let s := cstr s in
  let s := match s with c :: s' => if is_space c then (match s' with d :: s'' => if is_space d then s'' else s' | [] => [] end) else s | [] => [] end in
  match s with
  | "-"%char :: s' => ascii_of_N ((256 - hex_prefix 0 s') mod 256)
  | "+"%char :: s' => ascii_of_N (hex_prefix 0 s')
  | _ => ascii_of_N (hex_prefix 0 s)
  end.

(** libstuff.cpp:390-398 [SStrFromHex]. *)
Fixpoint SStrFromHex (s : bytes) : bytes :=
  match s with
  | [] => []
  | [a] => [strtol16_2 [a]]
  | a :: b :: s' => strtol16_2 [a; b] :: SStrFromHex s'
  end.

(** ** Case, as transform(::tolower) in the C locale: libstuff.cpp:435-445. *)
Definition SToLower (s : bytes) : bytes := map lower s.
Definition SToUpper (s : bytes) : bytes := map upper s.

(** ** Constant-time comparison *)
(** libstuff.cpp:759-763: compare each byte of [secret] with userInput[i % length],
    returning the flag and the number of byte comparisons made. *)
Fixpoint ct_loop (secret input : bytes) (i : nat) (equal : bool) (count : nat) : bool * nat :=
  match secret with
  | [] => (equal, count)
  | c :: secret' =>
      let u := nth (Nat.modulo i (List.length input)) input NUL in
      ct_loop secret' input (S i) (equal && Ascii.eqb c u) (S count)
  end.
(** libstuff.cpp:747-765 [SConstantTimeEquals], with the comparison count. *)
Definition ct_equals (secret input : bytes) : bool * nat :=
  let is_nil (l : bytes) := match l with [] => true | _ => false end in
  if negb (Bool.eqb (is_nil secret) (is_nil input)) then (false, O)
  else ct_loop secret input 0 (Nat.eqb (List.length secret) (List.length input)) 0.
Definition SConstantTimeEquals (secret input : bytes) : bool := fst (ct_equals secret input).
(** libstuff.cpp:768-772. *)
Definition SConstantTimeIEquals (secret input : bytes) : bool :=
  SConstantTimeEquals (SToLower secret) (SToLower input).

(** ** Escaping *)
(** sprintf("u%04x", c) for 0 < c < 256: libstuff.cpp:561. *)
Definition hexchar_lc (d : N) : ascii := if N.ltb d 10 then ascii_of_N (48 + d) else ascii_of_N (97 + (d - 10)).
Definition u_code (c : ascii) : bytes :=
  ["u"; "0"; "0"; hexchar_lc (bcode c / 16); hexchar_lc (bcode c mod 16)]%char.

Definition in_set (c : ascii) (set : bytes) : bool := existsb (Ascii.eqb c) set.

(** libstuff.cpp:549-565: what follows the escaper.  [char] is signed, so bytes from 0x80
    up are not "less than 0x20 and positive". *)
Definition escape_char (c : ascii) : bytes :=
  if Ascii.eqb c "008" then ["b"%char]
  else if Ascii.eqb c "012" then ["f"%char]
  else if Ascii.eqb c "010" then ["n"%char]
  else if Ascii.eqb c "013" then ["r"%char]
  else if Ascii.eqb c "009" then ["t"%char]
  else if (N.ltb 0 (bcode c) && N.ltb (bcode c) 32) || N.eqb (bcode c) 127 then u_code c
  else [c].

(** libstuff.cpp:539-573 [SEscape]. *)
Fixpoint escape (s unsafe : bytes) (e : ascii) : bytes :=
  match s with
  | [] => []
  | c :: s' => (if in_set c unsafe || Ascii.eqb c e then e :: escape_char c else [c]) ++ escape s' unsafe e
  end.
Definition SEscape (s unsafe : bytes) (e : ascii) : bytes := escape (cstr s) unsafe e.

(** sscanf("%04x") into an unsigned int initialised to 0 (libstuff.cpp:603): skip white
    space, then at most four characters: sign, 0x, hex digits; a negative value wraps in
    32 bits. *)
Definition scan_x (s : bytes) : N :=
  let s := (fix skip l := match l with c :: l' => if is_space c then skip l' else l | [] => [] end) s in
  let after_sign (s : bytes) : N :=
    match s with
    | "0"%char :: x :: r => if Ascii.eqb x "x" || Ascii.eqb x "X" then hex_prefix 0 r else hex_prefix 0 s
    | _ => hex_prefix 0 s
    end in
  match s with
  | "-"%char :: s' => (4294967296 - after_sign s') mod 4294967296
  | "+"%char :: s' => after_sign s'
  | _ => after_sign s
  end.

(** libstuff.cpp:607-650: UTF-8 expansion.  Clearing the used bits (621, 633) keeps the low
    6 (12) bits, which are the only ones read afterwards. *)
Definition utf8_expand (v : N) : bytes :=
  if N.leb v 127 then [ascii_of_N v]
  else if N.leb v 2047 then
    [ascii_of_N (N.lor 192 (N.shiftr v 6)); ascii_of_N (N.lor 128 (N.land v 63))]
  else if N.leb v 65535 then
    [ascii_of_N (N.lor 224 (N.shiftr v 12)); ascii_of_N (N.lor 128 (N.land (N.shiftr v 6) 63));
     ascii_of_N (N.lor 128 (N.land v 63))]
  else [].

(** libstuff.cpp:576-661 [SUnescape]. *)
Fixpoint unescape (e : ascii) (s : bytes) : bytes :=
  match s with
  | [] => []
  | c :: s1 =>
      if Ascii.eqb c e then
        match s1 with
        | [] => [c]
        | d :: s2 =>
            if Ascii.eqb d "b" then "008"%char :: unescape e s2
            else if Ascii.eqb d "f" then "012"%char :: unescape e s2
            else if Ascii.eqb d "n" then "010"%char :: unescape e s2
            else if Ascii.eqb d "r" then "013"%char :: unescape e s2
            else if Ascii.eqb d "t" then "009"%char :: unescape e s2
            else if Ascii.eqb d "u" then
              match s2 with
              | a1 :: a2 :: a3 :: a4 :: s3 => utf8_expand (scan_x [a1; a2; a3; a4]) ++ unescape e s3
              | _ => d :: unescape e s2
              end
            else d :: unescape e s2
        end
      else c :: unescape e s1
  end.
Definition SUnescape (s : bytes) (e : ascii) : bytes := unescape e (cstr s).

(** libstuff.cpp:3607-3615 [SQ]. *)
Definition SQ (s : bytes) : bytes := "'"%char :: SEscape s ["'"%char] "'" ++ ["'"%char].

(** ** Separated lists *)
(** libstuff.cpp:808-843 [SParseList]; second component is its return value. *)
Fixpoint parse_list (s : bytes) (sep : ascii) (component : bytes) (acc : list bytes) : list bytes * bool :=
  match s with
  | [] => match component with [] => (acc, false) | _ => (acc ++ [component], true) end
  | c :: s' =>
      match component with
      | [] => if Ascii.eqb c " " then parse_list s' sep [] acc
              else if Ascii.eqb c sep then parse_list s' sep [] acc
              else parse_list s' sep [c] acc
      | _ => if Ascii.eqb c sep then parse_list s' sep [] (acc ++ [component])
             else parse_list s' sep (component ++ [c]) acc
      end
  end.
Definition SParseList (s : bytes) (sep : ascii) : list bytes := fst (parse_list (cstr s) sep [] []).
Definition SParseListFound (s : bytes) (sep : ascii) : bool := snd (parse_list (cstr s) sep [] []).

(** libstuff.h:571-582 [SComposeList] on strings: append value and separator for each, then
    cut the last separator off. *)
Definition SComposeList (l : list bytes) (sep : bytes) : bytes :=
  match l with
  | [] => []
  | _ => let w := fold_left (fun w v => w ++ v ++ sep) l [] in
         firstn (List.length w - List.length sep) w
  end.

(** libstuff.h:702-709 [SQList(container)] and libstuff.cpp:2759-2777 with integersOnly=false. *)
Definition SQListC (l : list bytes) : bytes := SComposeList (map SQ l) (lit ", ").
Definition SQListStrings (val : bytes) : bytes := SQListC (SParseList val ",").

(** strtoll as used by SToInt64: white space, sign, digits, clamped to int64. *)
Fixpoint skip_space (s : bytes) : bytes :=
  match s with c :: s' => if is_space c then skip_space s' else s | [] => [] end.
Definition SToInt64 (s : bytes) : Z :=
  let s := skip_space (cstr s) in
  match s with
  | "-"%char :: s' => Z.max (-9223372036854775808) (- Z.of_N (dec_value 0 (digits_of s')))
  | "+"%char :: s' => Z.min 9223372036854775807 (Z.of_N (dec_value 0 (digits_of s')))
  | _ => Z.min 9223372036854775807 (Z.of_N (dec_value 0 (digits_of s)))
  end.
(** libstuff.cpp:2759-2777 [SQList(val, true)]: keep the elements that read back unchanged. *)
Definition SQListInts (val : bytes) : bytes :=
  SComposeList (filter (fun d => negb (bytes_eqb (decZ (SToInt64 d)) []) && bytes_eqb (decZ (SToInt64 d)) d)
                       (SParseList val ",")) (lit ", ").

(** ** URI components *)
(** libstuff.cpp:1443-1470: one byte. *)
Definition encode_uri_char (c : ascii) : bytes :=
  if within "a" c "z" || within "A" c "Z" || within "0" c "9" then [c]
  else if Ascii.eqb c " " then ["+"%char]
  else if in_set c (lit "-_.!~*()") then [c]
  else ["%"%char; hexchar (bcode c / 16); hexchar (bcode c mod 16)].
(** libstuff.cpp:1433-1476 [SEncodeURIComponent]. *)
Definition SEncodeURIComponent (s : bytes) : bytes := flat_map encode_uri_char s.

(** libstuff.cpp:1190-1234 [_SDecodeURIChar]: output and number of bytes consumed; the
    list is the [length] bytes left. *)
Definition decode_uri_char (s : bytes) : bytes * nat :=
  match s with
  | [] => ([], 1%nat)                      (* not called with length 0 *)
  | c :: s1 =>
      match s1 with
      | h1 :: h2 :: _ =>
          if negb (Ascii.eqb c "%") then ((if Ascii.eqb c "+" then [" "%char] else [c]), 1%nat)
          else match hexval h1 with
               | None => (["%"%char; h1], 2%nat)
               | Some a => match hexval h2 with
                           | None => (["%"%char; h1; h2], 3%nat)
                           | Some b => ([ascii_of_N (N.lor (N.shiftl a 4) b)], 3%nat)
                           end
               end
      | _ => ((if Ascii.eqb c "+" then [" "%char] else [c]), 1%nat)
      end
  end.

(** libstuff.cpp:1479-1490 [SDecodeURIComponent]; each step consumes at least one byte. *)
Fixpoint decode_uri (fuel : nat) (s : bytes) : bytes :=
  match fuel, s with
  | S f, _ :: _ => let (o, n) := decode_uri_char s in o ++ decode_uri f (skipn n s)
  | _, _ => []
  end.
Definition SDecodeURIComponent (s : bytes) : bytes := decode_uri (List.length s) s.

(** The loops of libstuff.cpp:1289-1294, 1304-1309, 1317-1322: decode until [stop] or the end. *)
Fixpoint decode_until (fuel : nat) (stop : ascii) (s out : bytes) : bytes * bytes :=
  match fuel, s with
  | S f, c :: _ => if Ascii.eqb c stop then (out, s)
                   else let (o, n) := decode_uri_char s in decode_until f stop (skipn n s) (out ++ o)
  | _, _ => (out, s)
  end.

(** Case-insensitive STable (libstuff.cpp:3686-3694 orders by strcasecmp): [m[k] = v]
    overwrites the value and keeps the first spelling of the key. *)
Definition ieqb (a b : bytes) : bool := bytes_eqb (map lower a) (map lower b).
Fixpoint tset (k v : bytes) (m : list (bytes * bytes)) : list (bytes * bytes) :=
  match m with
  | [] => [(k, v)]
  | (k', v') :: m' => if ieqb k' k then (k', v) :: m' else (k', v') :: tset k v m'
  end.

(** libstuff.cpp:1301-1330: name/value pairs. *)
Fixpoint parse_pairs (fuel : nat) (s : bytes) (m : list (bytes * bytes)) : list (bytes * bytes) :=
  match fuel, s with
  | S f, _ :: _ =>
      let (name, s1) := decode_until (List.length s) "=" s [] in
      let s2 := skipn 1 s1 in
      let (value, s3) := decode_until (List.length s2) "&" s2 [] in
      parse_pairs f (skipn 1 s3) (tset name value m)
  | _, _ => m
  end.
(** libstuff.cpp:1282-1334 [SParseURIPath]: success flag, path, table (in insertion order;
    the real table iterates in name order). *)
Definition SParseURIPath (s : bytes) : bool * bytes * list (bytes * bytes) :=
  let (path, s1) := decode_until (List.length s) "?" s [] in
  (negb (bytes_eqb path []), path, parse_pairs (List.length s) (skipn 1 s1) []).
