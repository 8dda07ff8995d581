(** JSON texts (RFC 8259) and the strings a program that handles every value as a string sees, for C13. *)
From Verif Require Import Base Dec Text_Spec Table.
Local Open Scope N_scope.

Definition quote : ascii := """"%char.
Definition backslash : ascii := "\"%char.
(* space, tab, line feed, carriage return *)
Definition json_ws (s : bytes) : Prop := forall c, In c s -> In c [" "; "009"; "010"; "013"]%char.
Definition all_digits (s : bytes) : Prop := s <> [] /\ forall c, In c s -> is_digit c = true.

(** -? (0 | [1-9][0-9]* ) (. [0-9]+)? ([eE] [+-]? [0-9]+)? *)
Inductive json_number : bytes -> Prop :=
| json_num sign int frac ex :
    sign = [] \/ sign = lit "-" ->
    all_digits int -> (hd "x"%char int <> "0"%char \/ int = lit "0") ->
    frac = [] \/ (exists ds, frac = "."%char :: ds /\ all_digits ds) ->
    ex = [] \/ (exists e sg ds, ex = e :: sg ++ ds /\ (e = "e"%char \/ e = "E"%char) /\
                                (sg = [] \/ sg = lit "+" \/ sg = lit "-") /\ all_digits ds) ->
    json_number (sign ++ int ++ frac ++ ex).

(** What may stand between the quotes of a string, with what it denotes.  A pair of surrogates \uD8xx\uDCxx
    denotes here the two halves, each encoded on its own: see [C13_surrogate_pair_refuted]. *)
Inductive json_chars : bytes -> bytes -> Prop :=
| jc_nil : json_chars [] []
| jc_plain c s d : 32 <= bcode c -> c <> quote -> c <> backslash -> json_chars s d -> json_chars (c :: s) (c :: d)
| jc_escape c x s d :
    In (c, x) [(quote, quote); (backslash, backslash); ("/", "/"); ("b", "008"); ("f", "012"); ("n", "010");
               ("r", "013"); ("t", "009")]%char ->
    json_chars s d -> json_chars (backslash :: c :: s) (x :: d)
| jc_unicode a1 a2 a3 a4 s d :
    is_hex a1 = true -> is_hex a2 = true -> is_hex a3 = true -> is_hex a4 = true -> json_chars s d ->
    json_chars (backslash :: "u"%char :: a1 :: a2 :: a3 :: a4 :: s) (utf8_encoding (hex_number 0 [a1; a2; a3; a4]) ++ d).

Section json.
  (** What the caller wants to see for null. *)
  Context (null : bytes).
  (** [json_value t v]: the text [t] is a JSON value, shown to the caller as [v]: strings decoded, numbers
      and literals as written, arrays and objects as the text they are. *)
  Inductive json_value : bytes -> bytes -> Prop :=
  | jv_string s d : json_chars s d -> json_value (quote :: s ++ [quote]) d
  | jv_number s : json_number s -> json_value s s
  | jv_true : json_value (lit "true") (lit "true")
  | jv_false : json_value (lit "false") (lit "false")
  | jv_null : json_value (lit "null") null
  | jv_array s l : json_array s l -> json_value s s
  | jv_object s l : json_object s l -> json_value s s
  with json_array : bytes -> list bytes -> Prop :=
  | ja_empty w : json_ws w -> json_array ("["%char :: w ++ ["]"%char]) []
  | ja_some s l : json_elements s l -> json_array ("["%char :: s ++ ["]"%char]) l
  with json_elements : bytes -> list bytes -> Prop :=
  | je_last w1 t v w2 : json_ws w1 -> json_value t v -> json_ws w2 -> json_elements (w1 ++ t ++ w2) [v]
  | je_more w1 t v w2 s l : json_ws w1 -> json_value t v -> json_ws w2 -> json_elements s l ->
                            json_elements (w1 ++ t ++ w2 ++ ","%char :: s) (v :: l)
  with json_object : bytes -> list (bytes * bytes) -> Prop :=
  | jo_empty w : json_ws w -> json_object ("{"%char :: w ++ ["}"%char]) []
  | jo_some s l : json_members s l -> json_object ("{"%char :: s ++ ["}"%char]) l
  with json_members : bytes -> list (bytes * bytes) -> Prop :=
  | jm_last w1 k n w2 w3 t v w4 :
      json_ws w1 -> json_chars k n -> json_ws w2 -> json_ws w3 -> json_value t v -> json_ws w4 ->
      json_members (w1 ++ quote :: k ++ quote :: w2 ++ ":"%char :: w3 ++ t ++ w4) [(n, v)]
  | jm_more w1 k n w2 w3 t v w4 s l :
      json_ws w1 -> json_chars k n -> json_ws w2 -> json_ws w3 -> json_value t v -> json_ws w4 -> json_members s l ->
      json_members (w1 ++ quote :: k ++ quote :: w2 ++ ":"%char :: w3 ++ t ++ w4 ++ ","%char :: s) ((n, v) :: l).
End json.

(** The table an object denotes: names are compared without regard to case and the last one counts. *)
Definition denotes (l : list (bytes * bytes)) (t : stable) : Prop :=
  table_ok t /\
  forall k, tfind k t = match find (fun p => match kcmp k (fst p) with Eq => true | _ => false end) (rev l) with
                        | Some p => Some (snd p) | None => None end.

(** The text of a finite float, as printf("%.6f") writes it. *)
Definition fixed_float (v : bytes) : Prop :=
  exists sign int frac, v = sign ++ int ++ "."%char :: frac /\ (sign = [] \/ sign = lit "-") /\
    all_digits int /\ (hd "x"%char int <> "0"%char \/ int = lit "0") /\ all_digits frac.

(** A value that looks like an array or an object. *)
Definition bracketed (v : bytes) : Prop :=
  exists s, v = "["%char :: s ++ ["]"%char] \/ v = "{"%char :: s ++ ["}"%char].
(** true, false and null in other letters than these. *)
Definition misspelt (v : bytes) : Prop :=
  exists w, In w [lit "true"; lit "false"; lit "null"] /\ map lower v = w /\ v <> w.
(** A name that can be written between quotes as it is. *)
Definition plain_name (k : bytes) : Prop := forall c, In c k -> 32 <= bcode c /\ c <> quote /\ c <> backslash.
