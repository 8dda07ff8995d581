(** libstuff/SQResultFormatter.cpp:1-552 [SQResultFormatter::format], the forms other than JSON (Result_Model.v).  A cell is
    the string SQValue converts to (SQValue.cpp:29-48; see [shown] in Qrf_Spec.v). *)
From Verif Require Import Base Dec Text_Spec Text_Model Json_Spec Result_Model Fmt_Spec.
Local Open Scope N_scope.

(** SQResultFormatter.h:20-26 [FORMAT_OPTIONS]. *)
Record options := mkOptions { header : bool; nullvalue : bytes; separator : bytes }.
Definition defaultOptions : options := mkOptions true [] (lit "|").

(** for (i ...) { if (i) push_back(delimiter); += field }, then push_back of a line feed: e.g. 360-368. *)
Fixpoint joined (d : bytes) (l : list bytes) : bytes :=
  match l with [] => [] | [x] => x | x :: l => x ++ d ++ joined d l end.
Definition line_of (d : ascii) (l : list bytes) : bytes := joined [d] l ++ [LF].
(** columnCount and the fields up to it, missing ones empty: 371-377, 457-465. *)
Definition columnCount (r : sqresult) (row : list bytes) : nat :=
  match headers r with [] => List.length row | _ => List.length (headers r) end.
Definition fields (r : sqresult) (row : list bytes) : list bytes := map (fun j => nth j row []) (seq 0 (columnCount r row)).

(** 402-418 [needsQuoting]. *)
Definition needsQuoting (input : bytes) : bool :=
  match input with
  | [] => true
  | _ => existsb (fun b => Ascii.eqb b "," || Ascii.eqb b """" || Ascii.eqb b LF || Ascii.eqb b "013"
                           || (bcode b <=? 32) || (128 <=? bcode b)) input
  end.
(** 420-440 [quoteCSV]. *)
Definition quoteCSV (input : bytes) : bytes :=
  match input with
  | [] => [""""; """"]%char
  | _ => if negb (needsQuoting input) then input
         else """"%char :: flat_map (fun c => if Ascii.eqb c """" then [""""; """"]%char else [c]) input ++ [""""%char]
  end.
(** 393-471 [formatCSV]. *)
Definition formatCSV (o : options) (r : sqresult) : bytes :=
  (if header o then line_of "," (map quoteCSV (headers r)) else [])
  ++ flat_map (fun row => line_of "," (map quoteCSV (fields r row))) (rows r).

(** while (isdigit) ++i: whether there was one, and what is left. *)
Fixpoint skip_digits (s : bytes) : bytes :=
  match s with c :: s' => if is_digit c then skip_digits s' else s | [] => [] end.
Definition starts_digit (s : bytes) : bool := match s with c :: _ => is_digit c | [] => false end.
Definition sign_char (c : ascii) : bool := Ascii.eqb c "+" || Ascii.eqb c "-".
(** 293-338 [isNumeric]. *)
Definition isNumeric (input : bytes) : bool :=
  match input with
  | [] => false
  | c0 :: s0 =>
      let start := if sign_char c0 then s0 else input in
      if sign_char c0 && match s0 with [] => true | _ => false end then false
      else
        let afterInt := skip_digits start in
        let '(fracDigits, afterFrac) :=
          match afterInt with
          | c :: s => if Ascii.eqb c "." then (starts_digit s, skip_digits s) else (false, afterInt)
          | [] => (false, [])
          end in
        if negb (starts_digit start || fracDigits) then false
        else match afterFrac with
        | [] => true
        | e :: s =>
            if Ascii.eqb e "e" || Ascii.eqb e "E" then
              let s := match s with c :: s' => if sign_char c then s' else s | [] => s end in
              if negb (starts_digit s) then false else match skip_digits s with [] => true | _ => false end
            else false
        end
  end.
(** 340-355 [quoteSQL]. *)
Definition quoteSQL (input : bytes) : bytes :=
  "'"%char :: flat_map (fun c => if Ascii.eqb c "'" then ["'"; "'"]%char else [c]) input ++ ["'"%char].
(** 291-391 [formatQuote]. *)
Definition formatQuote (o : options) (r : sqresult) : bytes :=
  (if header o then line_of "," (map quoteSQL (headers r)) else [])
  ++ flat_map (fun row => line_of "," (map (fun f => if isNumeric f then f else quoteSQL f) (fields r row))) (rows r).

(** 497-505: lastNonEmpty, the fields without the empty ones at the end. *)
Fixpoint drop_empty (l : list bytes) : list bytes :=
  match l with [] :: l => drop_empty l | _ => l end.
Definition trimmed (l : list bytes) : list bytes := rev (drop_empty (rev l)).
(** 473-517 [formatTabs]. *)
Definition formatTabs (o : options) (r : sqresult) : bytes :=
  (if header o then line_of "009" (headers r) else [])
  ++ flat_map (fun row => line_of "009" (trimmed (fields r row))) (rows r).
(** 519-552 [formatList]. *)
Definition formatList (o : options) (r : sqresult) : bytes :=
  (if header o then line_of "|" (headers r) else []) ++ flat_map (line_of "|") (rows r).

(** 52-87 [utf8Next]: the loop over continuation bytes; what is left of the input. *)
Fixpoint continuation (remaining : nat) (codePoint : N) (s : bytes) : N * bytes :=
  match remaining, s with
  | S k, t :: s' => if N.land (bcode t) 192 =? 128 then continuation k (N.lor (N.shiftl codePoint 6) (N.land (bcode t) 63)) s' else (codePoint, s)
  | _, _ => (codePoint, s)
  end.
Definition utf8Next (first : ascii) (s : bytes) : N * bytes :=
  let b := bcode first in
  if b <? 128 then (b, s)
  else if N.land b 224 =? 192 then continuation 1 (N.land b 31) s
  else if N.land b 240 =? 224 then continuation 2 (N.land b 15) s
  else if N.land b 248 =? 240 then continuation 3 (N.land b 7) s
  else (65533, s).
Definition between (a b v : N) : bool := (a <=? v) && (v <=? b).
(** 89-101 [isCombining]. *)
Definition isCombining (cp : N) : bool :=
  between 768 879 cp || between 6832 6911 cp || between 7616 7679 cp || between 8400 8447 cp || between 65056 65071 cp
  || (cp =? 8205) || (cp =? 8204) || between 65024 65039 cp.
(** 103-122 [isWide]. *)
Definition isWide (cp : N) : bool :=
  between 4352 4447 cp || between 9001 9002 cp || between 11904 42191 cp || between 44032 55203 cp || between 63744 64255 cp
  || between 65040 65049 cp || between 65072 65135 cp || between 65280 65376 cp || between 65504 65510 cp
  || between 127744 129791 cp || between 129280 129535 cp || between 9728 9983 cp || between 9984 10175 cp.
(** 124-145 [displayWidth]; [fuel] is the length of the input. *)
Fixpoint dw (fuel : nat) (input : bytes) : nat :=
  match fuel, input with
  | S fuel, c :: s =>
      let '(cp, rest) := utf8Next c s in
      if cp =? 0 then dw fuel rest
      else if (cp <? 32) || (cp =? 127) then dw fuel rest
      else if isCombining cp then dw fuel rest
      else if isWide cp then S (S (dw fuel rest)) else S (dw fuel rest)
  | _, _ => 0%nat
  end.
Definition displayWidth (input : bytes) : nat := dw (List.length input) input.
(** 147-152 [padToWidth]. *)
Definition padToWidth (input : bytes) (target : nat) : bytes :=
  let w := displayWidth input in if Nat.ltb w target then input ++ repeat " "%char (target - w) else input.
(** 154-178 [expandTabs]. *)
Fixpoint et (fuel : nat) (visualColumn : nat) (input : bytes) : bytes :=
  match fuel, input with
  | S fuel, c :: s =>
      let '(cp, rest) := utf8Next c s in
      if cp =? 9 then
        let k := (8 - Nat.modulo visualColumn 8)%nat in repeat " "%char k ++ et fuel (visualColumn + k) rest
      else
        firstn (List.length input - List.length rest) input
        ++ et fuel (if (32 <=? cp) && negb (cp =? 127) && negb (isCombining cp)
                    then if isWide cp then visualColumn + 2 else visualColumn + 1 else visualColumn) rest
  | _, _ => []
  end.
Definition expandTabs (input : bytes) : bytes := et (List.length input) 0 input.
(** 180-197 [splitLines]. *)
Definition pop_return (line : bytes) : bytes :=
  match rev line with c :: r => if Ascii.eqb c "013" then rev r else line | [] => line end.
Definition splitLines (input : bytes) : list bytes := map pop_return (split LF input).
(** while (!line.empty() && line.back() == a blank) line.pop_back(): 233-235, 280-282. *)
Fixpoint drop_blanks (l : bytes) : bytes := match l with c :: l' => if Ascii.eqb c " " then drop_blanks l' else l | [] => [] end.
Definition trim_end (l : bytes) : bytes := rev (drop_blanks (rev l)).
(** 199-215: the widths; a row with more cells than there are headers writes outside the vector, which is undefined. *)
Definition sublines (cell : bytes) : list bytes := map expandTabs (splitLines cell).
Definition max_subline (cell : bytes) (w : nat) : nat := fold_left (fun w l => Nat.max w (displayWidth l)) (sublines cell) w.
Definition widths_of (r : sqresult) : list nat :=
  fold_left (fun ws row => map (fun p => match snd p with Some c => max_subline c (fst p) | None => fst p end)
                               (combine ws (map Some row ++ repeat None (List.length ws - List.length row))))
            (rows r) (map (fun h => displayWidth (expandTabs h)) (headers r)).
(** 221-238, 268-284: the cells of one line, the last not padded, two blanks between, blanks at the end left out. *)
Fixpoint padded (ws : list nat) (cells : list bytes) : list bytes :=
  match cells, ws with
  | [], _ => []
  | [c], _ => [c]
  | c :: cells, w :: ws => padToWidth c w :: padded ws cells
  | c :: cells, [] => c :: padded [] cells
  end.
Definition render (ws : list nat) (cells : list bytes) : bytes := trim_end (joined (lit "  ") (padded ws cells)) ++ [LF].
(** 256-267: the lines of a row. *)
Definition height (row : list bytes) : nat := fold_left (fun n c => Nat.max n (List.length (splitLines c))) row 1%nat.
Definition render_row (ws : list nat) (row : list bytes) : bytes :=
  flat_map (fun k => render ws (map (fun c => expandTabs (nth k (splitLines c) [])) row)) (seq 0 (height row)).
(** 45-289 [formatColumn]; [None] is undefined behaviour. *)
Definition formatColumn (o : options) (r : sqresult) : option bytes :=
  if existsb (fun row => Nat.ltb (List.length (headers r)) (List.length row)) (rows r) then None
  else
    let ws := widths_of r in
    Some ((if header o
           then render ws (map expandTabs (headers r))
                ++ trim_end (joined (lit "  ") (map (fun w => repeat "-"%char w) ws)) ++ [LF]
           else [])
          ++ flat_map (render_row ws) (rows r)).
