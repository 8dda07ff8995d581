(** C70: addresses, URLs, forms and searching in texts, in plain words. *)
From Verif Require Import Base Text_Spec Dec.

(** [v] is [b], then [n], then [a], and [n] is nowhere earlier. *)
Definition first (n v b a : bytes) : Prop := v = b ++ n ++ a /\ forall b' a', v = b' ++ n ++ a' -> length b <= length b'.
Definition absent (n v : bytes) : Prop := forall b a, v <> b ++ n ++ a.

(** [o] is [v] with every [f], read from the left, replaced by [r]. *)
Inductive replaced (f r : bytes) : bytes -> bytes -> Prop :=
| Rest v : absent f v -> replaced f r v v
| Next v b a o : first f v b a -> replaced f r a o -> replaced f r v (b ++ r ++ o).

(** Blanks, tabs, line feeds, vertical tabs, form feeds and carriage returns. *)
Definition white (c : ascii) : Prop := In c (map ascii_of_N [32; 9; 10; 11; 12; 13]%N).

(** A name of a host as it is usual: letters, digits, dots, dashes and underscores. *)
Definition host_char (c : ascii) : bool :=
  let n := bcode c in
  (N.leb 48 n && N.leb n 57) || (N.leb 65 n && N.leb n 90) || (N.leb 97 n && N.leb n 122) || existsb (Ascii.eqb c) (lit "-_.").
Definition host_name (d : bytes) : Prop := d <> [] /\ forallb host_char d = true.

(** What SQLite's date functions take as a modifier, in upper case, as far as the program lets it through. *)
Definition digits (d : bytes) : Prop := forall c, In c d -> is_digit c = true.
Inductive modifier : bytes -> Prop :=
| Seconds s d : In s ["+"; "-"]%char -> digits d -> 1 <= length d <= 8 -> forall u, In u [lit " SECOND"; lit " SECONDS"] -> modifier (s :: d ++ u)
| Units s d : In s ["+"; "-"]%char -> digits d -> 1 <= length d <= 3 -> forall u p, In u [lit " YEAR"; lit " MONTH"; lit " DAY"; lit " HOUR"; lit " MINUTE"] ->
    In p [[]; lit "S"] -> modifier (s :: d ++ u ++ p)
| Start u : In u [lit "DAY"; lit "MONTH"; lit "YEAR"] -> modifier (lit "START OF " ++ u)
| Weekday c : In c (lit "0123456") -> modifier (lit "WEEKDAY " ++ [c]).

(** [l] is all that a pattern finds in a text. [m s]: where the first match in [s] begins and how long it is. Behind a
    match it is looked for again in what is left. *)
Inductive all_matches (m : bytes -> option (nat * nat)) : bytes -> list bytes -> Prop :=
| No_more s : m s = None -> all_matches m s []
| One_more g x s l : m (g ++ x ++ s) = Some (length g, length x) -> all_matches m s l -> all_matches m (g ++ x ++ s) (x :: l).
