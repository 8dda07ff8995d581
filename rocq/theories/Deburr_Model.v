(** The code of C61: libstuff/SDeburr.cpp and the table of SDeburr.h. *)
From Verif Require Import Base Text_Model Fmt_Spec Deburr_Spec.
Local Open Scope N_scope.

(** SDeburr.h 67-130: the calls of mapCodePoints in their order; a later call replaces what an earlier one wrote. *)
Definition groups : list (bytes * list N) :=
  [(lit "A", [192; 193; 194; 195; 196; 197]); (lit "AE", [198]); (lit "C", [199]); (lit "E", [200; 201; 202; 203]);
   (lit "I", [204; 205; 206; 207]); (lit "D", [208]); (lit "N", [209]); (lit "O", [210; 211; 212; 213; 214; 216]);
   (lit "U", [217; 218; 219; 220]); (lit "Y", [221]); (lit "ss", [223]); (lit "a", [224; 225; 226; 227; 228; 229]);
   (lit "ae", [230]); (lit "c", [231]); (lit "e", [232; 233; 234; 235]); (lit "i", [236; 237; 238; 239]); (lit "d", [240]);
   (lit "n", [241]); (lit "o", [242; 243; 244; 245; 246; 248]); (lit "u", [249; 250; 251; 252]); (lit "y", [253; 255]);
   (lit "TH", [222]); (lit "th", [254]);
   (lit "A", [256; 258; 260]); (lit "a", [257; 259; 261]); (lit "C", [262; 264; 266; 268]); (lit "c", [263; 265; 267; 269]);
   (lit "D", [270; 272]); (lit "d", [272; 273]); (lit "E", [274; 276; 278; 280; 282]); (lit "e", [275; 277; 279; 281; 283]);
   (lit "I", [296; 298; 300; 302; 304]); (lit "i", [297; 299; 301; 303; 305]); (lit "IJ", [306]); (lit "ij", [307]);
   (lit "J", [308]); (lit "j", [309]); (lit "K", [310]); (lit "k", [311; 312]); (lit "L", [313; 315; 317; 319; 321]);
   (lit "l", [314; 316; 318; 320; 322]); (lit "N", [323; 325; 327; 330]); (lit "n", [324; 326; 328; 329; 331]);
   (lit "O", [332; 334; 336]); (lit "o", [333; 335; 337]); (lit "OE", [338]); (lit "oe", [339]); (lit "R", [340; 342; 344]);
   (lit "r", [341; 343; 345]); (lit "S", [346; 348; 350; 352]); (lit "s", [347; 349; 351; 353; 383]); (lit "T", [354; 356; 358]);
   (lit "t", [355; 357; 359]); (lit "U", [360; 362; 364; 366; 368; 370]); (lit "u", [361; 363; 365; 367; 369; 371]);
   (lit "W", [372]); (lit "w", [373]); (lit "Y", [374; 376]); (lit "y", [375]); (lit "Z", [377; 379; 381]); (lit "z", [378; 380; 382])].
(** UNICODE_TO_ASCII_MAP[codepoint] (SDeburr.h 58-66): the last call that names the code point, or the nullptr it started with. *)
Definition UNICODE_TO_ASCII_MAP (v : N) : option bytes :=
  fold_left (fun r g => if existsb (N.eqb v) (snd g) then Some (fst g) else r) groups None.
(** SDeburr.cpp 12-21; None: nullptr *)
Definition unicodeToAscii (v : N) : option bytes := if (192 <=? v) && (v <=? 383) then UNICODE_TO_ASCII_MAP v else None.
(** std::countl_one of a byte *)
Definition countl_one (c : ascii) : nat :=
  match c with
  | Ascii b0 b1 b2 b3 b4 b5 b6 b7 =>
      if b7 then if b6 then if b5 then if b4 then if b3 then if b2 then if b1 then if b0 then 8 else 7 else 6 else 5 else 4 else 3 else 2 else 1 else 0
  end%nat.
(** 79-91: the continuation bytes.  None: a byte beyond the text would be read. *)
Fixpoint continuations (k : nat) (cp : N) (s : bytes) : option (N * bytes) :=
  match k with
  | O => Some (cp, s)
  | S k =>
      match s with
      | [] => None
      | c :: s' => if (countl_one c =? 1)%nat then continuations k (N.lor (N.shiftl cp 6) (N.land (bcode c) 63)) s' else Some (cp, s)
      end
  end.
(** 29-110, from the place the loop has come to; what the loop appends to the result is put in front of what the rest gives.  The code
    keeps an index, this is the text from there on. *)
Fixpoint run (fuel : nat) (s : bytes) : option bytes :=
  match fuel, s with
  | O, _ => Some []
  | _, [] => Some []
  | S f, c :: t =>
      let n := countl_one c in
      if (n =? 0)%nat then option_map (cons c) (run f t)
      else if (n =? 1)%nat || (4 <? n)%nat || (List.length s <? n)%nat then run f t
      else match continuations (n - 1) (N.land (bcode c) (N.ones (N.of_nat (7 - n)))) t with
           | None => None
           | Some (cp, rest) =>
               if (768 <=? cp) && (cp <=? 879) then run f rest
               else option_map (app (match unicodeToAscii cp with
                                     | None => firstn (List.length s - List.length rest) s
                                     | Some m => m
                                     end)) (run f rest)
           end
  end.
(** 23-28, 114-117: both take the text up to the first NUL (strlen).  Each round of the loop moves on by at least a byte. *)
Definition deburr (s : bytes) : option bytes := run (List.length (cstr s)) (cstr s).
(** 119-142: the SQL function, given its argument as sqlite3_value_text shows it (None: NULL). *)
Definition sql_deburr (v : option bytes) : option (option bytes) :=
  match v with None => Some None | Some s => option_map Some (deburr s) end.
