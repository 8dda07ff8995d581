(** C65: times as texts.  libstuff/STime.cpp, libstuff/libstuff.cpp 3666-3684, BedrockPlugin.cpp 15-18.
    The C library's part (gmtime_r, strftime, strptime, mktime) is written out for the formats the code uses; gmtime_r is
    the calendar of Time_Spec and the local time zone has a fixed distance from UTC. *)
From Verif Require Import Base Dec Text_Model Time_Spec.
Local Open Scope N_scope.

(** Numbers as strftime and snprintf write them: n digits, and more if the number has more. *)
Fixpoint fixed (k : nat) (n : N) : bytes :=
  match k with O => [] | S k' => digit_char (n / 10 ^ N.of_nat k') :: fixed k' (n mod 10 ^ N.of_nat k') end.
Definition padded (k : nat) (n : N) : bytes := if n <? 10 ^ N.of_nat k then fixed k n else dec n.

(** STime.cpp 14-23: SComposeTime, for "%Y-%m-%d %H:%M:%S"; libstuff.cpp 3666-3669: SUNQUOTED_TIMESTAMP *)
Definition write_date (y m d : N) : bytes := padded 4 y ++ "-"%char :: padded 2 m ++ "-"%char :: padded 2 d.
Definition write_clock (h m s : N) : bytes := padded 2 h ++ ":"%char :: padded 2 m ++ ":"%char :: padded 2 s.
Definition SUNQUOTED_TIMESTAMP (when : N) : bytes :=
  let loWhen := when / 1000000 in
  let x := date_of (loWhen / 86400) in
  let c := loWhen mod 86400 in
  write_date (year x) (month x) (day x) ++ " "%char :: write_clock (c / 3600) (c / 60 mod 60) (c mod 60).
(** STime.cpp 87-94: STIMESTAMP_MS *)
Definition STIMESTAMP_MS (when : N) : bytes :=
  let ms := (when mod 1000000) / 1000 in SUNQUOTED_TIMESTAMP when ++ "."%char :: padded 3 ms.

(** STime.cpp 53-63: SDaysInMonth, for years from 0 on *)
Definition SDaysInMonth (y m : N) : N :=
  if (m =? 4) || (m =? 6) || (m =? 9) || (m =? 11) then 30
  else if m =? 2 then (if (y mod 4 =? 0) && negb (y mod 100 =? 0) || (y mod 400 =? 0) then 29 else 28)
  else 31.

(** *** Reading.  strptime's get_number(from, to, n): spaces, then up to n digits as long as the number cannot exceed [to]. *)
Fixpoint number (n : nat) (to val : N) (s : bytes) : N * bytes :=
  match n, s with
  | S n', c :: s' => if is_digit c && (val * 10 <=? to) then number n' to (val * 10 + digit_val c) s' else (val, s)
  | _, _ => (val, s)
  end.
Fixpoint skip_blanks (s : bytes) : bytes := match s with " "%char :: s' => skip_blanks s' | _ => s end.
Definition get_number (from to : N) (n : nat) (s : bytes) : option (N * bytes) :=
  match skip_blanks s with
  | c :: s' =>
      if is_digit c then
        let (v, r) := number (n - 1) to (digit_val c) s' in
        if (v <? from) || (to <? v) then None else Some (v, r)
      else None
  | [] => None
  end.
Definition expect (x : ascii) (s : bytes) : option bytes := match s with c :: s' => if Ascii.eqb c x then Some s' else None | [] => None end.

(** struct tm; [tm_year] counts from 1900 and [tm_mon] from 0. *)
Record tm := Tm { tm_year : Z; tm_mon : Z; tm_mday : Z; tm_hour : Z; tm_min : Z; tm_sec : Z }.
Definition zero_tm : tm := Tm 0 0 0 0 0 0.
(** strptime with "%Y-%m-%d %H:%M:%S": it stops at the first thing that does not fit; what it has read stays. *)
Definition strptime (s : bytes) : tm :=
  match get_number 0 9999 4 s with
  | None => zero_tm
  | Some (y, s) =>
      let t := Tm (Z.of_N y - 1900) 0 0 0 0 0 in
      match expect "-" s with
      | None => t
      | Some s =>
          match get_number 1 12 2 s with
          | None => t
          | Some (mo, s) =>
              let t := Tm (Z.of_N y - 1900) (Z.of_N mo - 1) 0 0 0 0 in
              match expect "-" s with
              | None => t
              | Some s =>
                  match get_number 1 31 2 s with
                  | None => t
                  | Some (d, s) =>
                      let t := Tm (Z.of_N y - 1900) (Z.of_N mo - 1) (Z.of_N d) 0 0 0 in
                      match get_number 0 23 2 (skip_space s) with
                      | None => t
                      | Some (h, s) =>
                          let t := Tm (Z.of_N y - 1900) (Z.of_N mo - 1) (Z.of_N d) (Z.of_N h) 0 0 in
                          match expect ":" s with
                          | None => t
                          | Some s =>
                              match get_number 0 59 2 s with
                              | None => t
                              | Some (mi, s) =>
                                  let t := Tm (Z.of_N y - 1900) (Z.of_N mo - 1) (Z.of_N d) (Z.of_N h) (Z.of_N mi) 0 in
                                  match expect ":" s with
                                  | None => t
                                  | Some s =>
                                      match get_number 0 61 2 s with
                                      | None => t
                                      | Some (sec, _) => Tm (Z.of_N y - 1900) (Z.of_N mo - 1) (Z.of_N d) (Z.of_N h) (Z.of_N mi) (Z.of_N sec)
                                      end
                                  end
                              end
                          end
                      end
                  end
              end
          end
      end
  end.
(** mktime, for months in range; [zone]: how many seconds local time is ahead of UTC. *)
Definition days_before_year (y : Z) : Z :=
  (365 * (y - 1970) + ((y - 1) / 4 - 1969 / 4) - ((y - 1) / 100 - 1969 / 100) + ((y - 1) / 400 - 1969 / 400))%Z.
Definition days_before_month (y m : N) : N := fold_right N.add 0 (firstn (N.to_nat (m - 1)) (lengths y)).
Definition mktime (zone : Z) (t : tm) : Z :=
  let y := (tm_year t + 1900)%Z in
  let days := (days_before_year y + Z.of_N (days_before_month (Z.to_N y) (Z.to_N (tm_mon t + 1))) + tm_mday t - 1)%Z in
  (((days * 24 + tm_hour t) * 60 + tm_min t) * 60 + tm_sec t - zone)%Z.
Definition as_u64 (z : Z) : N := Z.to_N (z mod 18446744073709551616).
(** STime.cpp 25-30: STimestampToEpoch, with that format; what strptime says is not looked at *)
Definition STimestampToEpoch (zone : Z) (s : bytes) : N := as_u64 (mktime zone (strptime (cstr s))).

(** *** STime.cpp 101-139: SFirstOfMonth *)
(** [Negative]: a text with a negative number in it. *)
Inductive outcome (T : Type) := Gives (x : T) | Throws (what : bytes) | Negative | Undefined.
Arguments Gives {T}. Arguments Throws {T}. Arguments Negative {T}. Arguments Undefined {T}.
(** stoull(s, 0, 10): white space, a sign, digits; anything may follow.  None: invalid_argument or out_of_range.  A minus
    sign negates modulo 2^64. *)
Definition stoull (s : bytes) : option N :=
  let s := skip_space (cstr s) in
  let (neg, s) := match s with "-"%char :: s' => (true, s') | "+"%char :: s' => (false, s') | _ => (false, s) end in
  match digits_of s with
  | [] => None
  | ds => let v := dec_value 0 ds in if 18446744073709551616 <=? v then None else Some (if neg then (18446744073709551616 - v) mod 18446744073709551616 else v)
  end.
(** An unsigned 64-bit number minus an int, as a signed one; signed 64-bit and 32-bit values. *)
Definition signed (w : N) (z : Z) : Z := let m := (2 ^ Z.of_N w)%Z in let r := (z mod m)%Z in if (2 * r <? m)%Z then r else (r - m)%Z.
(** strftime "%Y-%m-%d" for a year from 0 on and months from 00 on *)
Definition SFirstOfMonth (timeStamp : bytes) (offset : Z) : outcome bytes :=
  match SParseList timeStamp "-" with
  | [] => Undefined                                     (* parts.front() of an empty list *)
  | y :: parts =>
      match stoull y with
      | None => Throws (lit "500 Error parsing year")
      | Some y =>
          let year := signed 64 (Z.of_N y - 1900) in
          match parts with
          | [] => Undefined
          | m :: _ =>
              match stoull m with
              | None => Throws (lit "500 Error parsing month")
              | Some m =>
                  let month := signed 64 (Z.of_N m - 1) in
                  let yearInMonths := (year * 12 + month + offset)%Z in
                  if (yearInMonths <? - 9223372036854775808)%Z || (9223372036854775807 <? yearInMonths)%Z then Undefined  (* overflow *)
                  else
                    let tm_year := signed 32 (Z.quot yearInMonths 12) in
                    let tm_mon := Z.rem yearInMonths 12 in
                    if (tm_year + 1900 <? 0)%Z || (tm_mon + 1 <? 0)%Z then Negative
                    else Gives (write_date (Z.to_N (tm_year + 1900)) (Z.to_N (tm_mon + 1)) 1)
              end
          end
      end
  end.

(** BedrockPlugin.cpp 15-18: isValidDate; the regular expression, read off character by character. *)
Definition both (p q : ascii -> bool) (s : bytes) : bool := match s with [a; b] => p a && q b | _ => false end.
Definition is (x : ascii) (c : ascii) : bool := Ascii.eqb c x.
Definition from_to (lo hi c : ascii) : bool := within lo c hi.
Definition isValidDate (s : bytes) : bool :=
  let century := firstn 2 s in let s := skipn 2 s in
  (both (is "1") (is "9") century || both (is "2") is_digit century) &&
  both is_digit is_digit (firstn 2 s) && (let s := skipn 2 s in
  bytes_eqb (firstn 1 s) (lit "-") && (let s := skipn 1 s in
  (both (is "0") (from_to "1" "9") (firstn 2 s) || both (is "1") (from_to "0" "2") (firstn 2 s)) && (let s := skipn 2 s in
  bytes_eqb (firstn 1 s) (lit "-") && (let s := skipn 1 s in
  (both (is "0") (from_to "1" "9") (firstn 2 s) || both (from_to "1" "2") is_digit (firstn 2 s) || both (is "3") (from_to "0" "1") (firstn 2 s)) &&
  match skipn 2 s with
  | [] => true
  | [a; h1; h2; b; m1; m2; c; s1; s2] =>
      is " " a && is_digit h1 && is_digit h2 && is ":" b && is_digit m1 && is_digit m2 && is ":" c && is_digit s1 && is_digit s2
  | _ => false
  end)))).
