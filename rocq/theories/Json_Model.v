(** JSON composing and parsing: libstuff.cpp:1492-1849, 3591-3595 and libstuff.h:591-604.

    A pointer into the text is the list of the bytes from it up to [end]; the byte at [end] is the
    terminating NUL.  The populate flags only suppress the result of a nested array or object, which
    nobody reads: the model always computes it.  Log lines are left out. *)
From Verif Require Import Base Dec Text_Spec Text_Model Table.
Local Open Scope N_scope.

(** NULL, a position with a result, abort() through SASSERT/SERROR (libstuff.h:56-61, 324-329), or the
    fuel of the model ran out. *)
Inductive res (A : Type) := RNull | RAt (rest : bytes) (a : A) | RAbort | RFuel.
Arguments RNull {A}.
Arguments RAt {A}.
Arguments RAbort {A}.
Arguments RFuel {A}.

(** *ptr *)
Definition at0 (s : bytes) : ascii := match s with c :: _ => c | [] => NUL end.

(** libstuff.cpp:1604-1616: the characters up to the closing quote, and what follows it. *)
Fixpoint scan_string (s : bytes) : option (bytes * bytes) :=
  match s with
  | [] => None
  | c :: s' =>
      if Ascii.eqb c NUL then None
      else if Ascii.eqb c """" then Some ([], s')
      else if Ascii.eqb c "\" then
        match s' with
        | [] => None
        | d :: s'' => match scan_string s'' with Some (b, r) => Some (c :: d :: b, r) | None => None end
        end
      else match scan_string s' with Some (b, r) => Some (c :: b, r) | None => None end
  end.

(** libstuff.cpp:1595-1623 [_SParseJSONString]. *)
Definition parse_string (s : bytes) : res bytes :=
  if Ascii.eqb (at0 s) NUL then RAbort
  else match skip_space s with
       | [] => RAt [] []
       | c :: s' =>
           if Ascii.eqb c """" then
             match scan_string s' with Some (b, r) => RAt r (SUnescape b "\") | None => RNull end
           else RNull
       end.

Fixpoint skip_digits (s : bytes) : bytes :=
  match s with c :: s' => if is_digit c then skip_digits s' else s | [] => [] end.
(** libstuff.cpp:1743-1771: past a number. *)
Definition skip_number (s : bytes) : bytes :=
  let s := if Ascii.eqb (at0 s) "-" then tl s else s in
  let s := skip_digits s in
  let s := if Ascii.eqb (at0 s) "." then skip_digits (tl s) else s in
  if Ascii.eqb (at0 s) "e" || Ascii.eqb (at0 s) "E" then
    let s := tl s in
    let s := if Ascii.eqb (at0 s) "-" || Ascii.eqb (at0 s) "+" then tl s else s in
    skip_digits s
  else s.

(** strncmp(ptr, word, strlen(word)) == 0 *)
Fixpoint starts (w s : bytes) : bool :=
  match w, s with
  | [], _ => true
  | a :: w', b :: s' => Ascii.eqb a b && starts w' s'
  | _ :: _, [] => false
  end.
(** The bytes from [s] up to [r], a later position in the same text. *)
Definition upto (s r : bytes) : bytes := firstn (List.length s - List.length r) s.

Section parser.
  Context (null : bytes).
  (** libstuff.cpp:1701-1798 [_SParseJSONValue], 1626-1655 [_SParseJSONArray] with its loop 1637-1654, and
      1658-1698 [_SParseJSONObject] with its loop 1669-1697.  [_JSONWS] is [skip_space] followed by a
      return of the position if the end is reached, [_JSONTEST] is a test that gives NULL. *)
  Fixpoint parse_value (fuel : nat) (s : bytes) : res bytes :=
    match fuel with
    | O => RFuel
    | S f =>
        let s0 := skip_space s in
        match s0 with
        | [] => RAt [] []
        | c :: _ =>
            if Ascii.eqb c """" then parse_string s0
            else if Ascii.eqb c "{" then
              match parse_object f s0 with RAt r _ => RAt r (upto s0 r) | RNull => RNull | RAbort => RAbort | RFuel => RFuel end
            else if Ascii.eqb c "[" then
              match parse_array f s0 with RAt r _ => RAt r (upto s0 r) | RNull => RNull | RAbort => RAbort | RFuel => RFuel end
            else if is_digit c || (Ascii.eqb c "-" && is_digit (at0 (tl s0))) then
              let r := skip_number s0 in RAt r (upto s0 r)
            else if starts (lit "true") s0 then RAt (skipn 4 s0) (lit "true")
            else if starts (lit "false") s0 then RAt (skipn 5 s0) (lit "false")
            else if starts (lit "null") s0 then RAt (skipn 4 s0) null
            else RAt s0 []
        end
    end
  with parse_array (fuel : nat) (s : bytes) : res (list bytes) :=
    match fuel with
    | O => RFuel
    | S f =>
        if Ascii.eqb (at0 s) NUL then RAbort
        else match skip_space s with
             | [] => RAt [] []
             | c :: s1 =>
                 if Ascii.eqb c "[" then
                   match skip_space s1 with
                   | [] => RAt [] []
                   | d :: s2 => if Ascii.eqb d "]" then RAt s2 [] else array_loop f (d :: s2) []
                   end
                 else RNull
             end
    end
  with array_loop (fuel : nat) (s : bytes) (out : list bytes) : res (list bytes) :=
    match fuel with
    | O => RFuel
    | S f =>
        match skip_space s with
        | [] => RAt [] out
        | c :: s1 =>
            match parse_value f (c :: s1) with
            | RNull => RNull | RAbort => RAbort | RFuel => RFuel
            | RAt r v =>
                match skip_space r with
                | [] => RAt [] (out ++ [v])
                | d :: r' => if Ascii.eqb d "]" then RAt r' (out ++ [v])
                             else if Ascii.eqb d "," then array_loop f r' (out ++ [v])
                             else RNull
                end
            end
        end
    end
  with parse_object (fuel : nat) (s : bytes) : res (list (bytes * bytes)) :=
    match fuel with
    | O => RFuel
    | S f =>
        if Ascii.eqb (at0 s) NUL then RAbort
        else match skip_space s with
             | [] => RAt [] []
             | c :: s1 =>
                 if Ascii.eqb c "{" then
                   match skip_space s1 with
                   | [] => RAt [] []
                   | d :: s2 => if Ascii.eqb d "}" then RAt s2 [] else object_loop f (d :: s2) []
                   end
                 else RNull
             end
    end
  with object_loop (fuel : nat) (s : bytes) (out : list (bytes * bytes)) : res (list (bytes * bytes)) :=
    match fuel with
    | O => RFuel
    | S f =>
        match skip_space s with
        | [] => RAt [] out
        | c :: s1 =>
            match parse_string (c :: s1) with
            | RNull => RNull | RAbort => RAbort | RFuel => RFuel
            | RAt r name =>
                match skip_space r with
                | [] => RAt [] out
                | d :: r1 =>
                    if Ascii.eqb d ":" then
                      match skip_space r1 with
                      | [] => RAt [] out
                      | e :: r2 =>
                          match parse_value f (e :: r2) with
                          | RNull => RNull | RAbort => RAbort | RFuel => RFuel
                          | RAt r3 v =>
                              match skip_space r3 with
                              | [] => RAt [] (out ++ [(name, v)])
                              | g :: r4 => if Ascii.eqb g "}" then RAt r4 (out ++ [(name, v)])
                                           else if Ascii.eqb g "," then object_loop f r4 (out ++ [(name, v)])
                                           else RNull
                              end
                          end
                      end
                    else RNull
                end
            end
        end
    end.
End parser.

(** The recursion goes at most three calls deep per byte. *)
Definition fuel_for (s : bytes) : nat := 3 * List.length s + 6.

(** libstuff.cpp:1831-1849 [SParseJSONArray]; None is abort(). *)
Definition SParseJSONArray (s null : bytes) : option (list bytes) :=
  if Nat.ltb (List.length s) 2 then Some []
  else match parse_array null (fuel_for s) s with
       | RAt r l => Some (match skip_space r with [] => l | _ => [] end)
       | RNull => Some []
       | RAbort | RFuel => None
       end.
(** out[name] = value for each member, in order: libstuff.cpp:1686. *)
Definition table_of (l : list (bytes * bytes)) : stable := fold_left (fun t p => tput (fst p) (snd p) t) l [].
(** libstuff.cpp:1800-1828 [SParseJSONObject].  The second component is what the callback is told when
    the whole text parses; for other texts the calls made before the failure are not modelled. *)
Definition SParseJSONObject_cb (s null : bytes) : option (stable * list (bytes * bytes)) :=
  if Nat.ltb (List.length s) 2 then Some ([], [])
  else match parse_object null (fuel_for s) s with
       | RAt r l => Some (match skip_space r with [] => (table_of l, l) | _ => ([], []) end)
       | RNull => Some ([], [])
       | RAbort | RFuel => None
       end.
Definition SParseJSONObject (s null : bytes) : option stable := option_map fst (SParseJSONObject_cb s null).
(** libstuff.cpp:3591-3595 [SGetJSONArrayFront]. *)
Definition SGetJSONArrayFront (s : bytes) : option bytes :=
  match SParseJSONArray s (lit "null") with None => None | Some [] => Some [] | Some (v :: _) => Some v end.

(** libstuff.cpp:1538-1541. *)
Definition json_unsafe : bytes :=
  ["001"; "002"; "003"; "004"; "005"; "006"; "007"; "008"; "009"; "010"; "011"; "012"; "013"; "014"; "015";
   "016"; "017"; "018"; "019"; "020"; "021"; "022"; "023"; "024"; "025"; "026"; "027"; "028"; "029"; "030"; "031";
   "127"; """"; "\"; "/"]%char.

Section composer.
  (** libstuff.cpp:1507-1508: the value is finite as a float and is what "%.6f" prints for that float. *)
  Context (is_float : bytes -> bool).
  Definition ends (o c : ascii) (v : bytes) : bool := Ascii.eqb (at0 v) o && Ascii.eqb (last v NUL) c.
  (** libstuff.cpp:1500-1543 [SToJSON]; None is abort(). *)
  Definition SToJSON (v : bytes) (forceString : bool) : option bytes :=
    let quoted := """"%char :: SEscape v json_unsafe "\" ++ [""""%char] in
    if bytes_eqb (decZ (SToInt64 v)) v then Some v
    else if is_float v then Some v
    else if ieqb v (lit "true") then Some (lit "true")
    else if ieqb v (lit "false") then Some (lit "false")
    else if ieqb v (lit "null") then Some (lit "null")
    else if negb forceString && Nat.leb 2 (List.length v) && (ends "[" "]" v || ends "{" "}" v) then
      match parse_value (lit "null") (fuel_for v) v with
      | RAt [] _ => Some v
      | RAt _ _ | RNull => Some quoted
      | RAbort | RFuel => None
      end
    else Some quoted.

  (** "x,y,z,": each value followed by a comma. *)
  Fixpoint compose_values (l : list bytes) : option bytes :=
    match l with
    | [] => Some []
    | v :: l' => match SToJSON v false, compose_values l' with
                 | Some j, Some r => Some (j ++ "," %char :: r)
                 | _, _ => None
                 end
    end.
  (** libstuff.h:591-604 [SComposeJSONArray]. *)
  Definition SComposeJSONArray (l : list bytes) : option bytes :=
    match l with
    | [] => Some (lit "[]")
    | _ => match compose_values l with
           | Some w => Some ("["%char :: removelast w ++ ["]"%char])
           | None => None
           end
    end.
  Fixpoint compose_members (t : stable) (forceString : bool) : option bytes :=
    match t with
    | [] => Some []
    | (k, v) :: t' => match SToJSON v forceString, compose_members t' forceString with
                      | Some j, Some r => Some (""""%char :: k ++ """"%char :: ":"%char :: j ++ ","%char :: r)
                      | _, _ => None
                      end
    end.
  (** libstuff.cpp:1547-1559 [SComposeJSONObject]. *)
  Definition SComposeJSONObject (t : stable) (forceString : bool) : option bytes :=
    match t with
    | [] => Some (lit "{}")
    | _ => match compose_members t forceString with
           | Some w => Some ("{"%char :: removelast w ++ ["}"%char])
           | None => None
           end
    end.
End composer.
