(** What C61 is about: the letters of the Latin-1 Supplement and Latin Extended-A (U+00C0 to U+017F) without their accents, as the two
    code charts list them; and what is left of a text when they and the combining marks are replaced. *)
From Verif Require Import Base Fmt_Spec.
Local Open Scope N_scope.

(** U+00C0 to U+00FF, then U+0100 to U+017F: the letter at each place; empty where there is none (the signs for times and divided by). *)
Definition one_by_one (s : bytes) : list bytes := map (fun c => [c]) s.
Definition latin : list bytes :=
  one_by_one (lit "AAAAAA") ++ [lit "AE"] ++ one_by_one (lit "CEEEEIIIIDNOOOOO") ++ [[]] ++ one_by_one (lit "OUUUUY") ++ [lit "TH"; lit "ss"] ++
  one_by_one (lit "aaaaaa") ++ [lit "ae"] ++ one_by_one (lit "ceeeeiiiidnooooo") ++ [[]] ++ one_by_one (lit "ouuuuy") ++ [lit "th"; lit "y"] ++
  one_by_one (lit "AaAaAaCcCcCcCcDdDdEeEeEeEeEeGgGgGgGgHhHhIiIiIiIiIi") ++ [lit "IJ"; lit "ij"] ++
  one_by_one (lit "JjKkkLlLlLlLlLlNnNnNnnNnOoOoOo") ++ [lit "OE"; lit "oe"] ++
  one_by_one (lit "RrRrRrSsSsSsSsTtTtTtUuUuUuUuUuUuWwYyYZzZzZzs").
Definition letter (v : N) : option bytes :=
  if v <? 192 then None else match nth (N.to_nat (v - 192)) latin [] with [] => None | l => Some l end.
(** Combining marks: U+0300 to U+036F. *)
Definition mark (v : N) : bool := (768 <=? v) && (v <=? 879).
(** What a character becomes: its letter, nothing, or itself. *)
Definition bare (v : N) : bytes := if mark v then [] else match letter v with Some l => l | None => utf8_1 v end.
(** The letters the code has no entry for, or the wrong one: small d with caron, capital D with stroke, and all of G and H. *)
Definition missed (v : N) : bool := (v =? 271) || (v =? 272) || (284 <=? v) && (v <=? 295).
(** Characters: all code points but NUL, which ends a text. *)
Definition character (v : N) : Prop := 0 < v /\ code_point v.
Definition is_ascii (c : ascii) : Prop := bcode c < 128.
