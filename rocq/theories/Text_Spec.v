(** Specifications for the text codecs, independent of the model. *)
From Verif Require Import Base.
Local Open Scope N_scope.

Definition NUL : ascii := "000"%char.
Definition nul_free (s : bytes) : Prop := ~ In NUL s.

(** Value of one hexadecimal digit, both cases. *)
Definition hex_digit_value (c : ascii) : option N :=
  let n := bcode c in
  if N.leb 48 n && N.leb n 57 then Some (n - 48)
  else if N.leb 65 n && N.leb n 70 then Some (n - 55)
  else if N.leb 97 n && N.leb n 102 then Some (n - 87)
  else None.
Definition is_hex (c : ascii) : bool := match hex_digit_value c with Some _ => true | None => false end.

(** Positional value of a string of hexadecimal digits. *)
Fixpoint hex_number (acc : N) (l : bytes) : N :=
  match l with
  | [] => acc
  | c :: l' => hex_number (16 * acc + match hex_digit_value c with Some d => d | None => 0 end) l'
  end.

Definition upper (c : ascii) : ascii :=
  if N.leb 97 (bcode c) && N.leb (bcode c) 122 then ascii_of_N (bcode c - 32) else c.
Definition lower (c : ascii) : ascii :=
  if N.leb 65 (bcode c) && N.leb (bcode c) 90 then ascii_of_N (bcode c + 32) else c.

(** SQL string literal (SQLite's tokenizer): a quote, then characters where a doubled quote
    stands for one quote, up to a single quote.  Returns the value and what follows the
    literal.  SQLite's SQL text is a C string, so a NUL ends it. *)
Fixpoint sql_body (l : bytes) : option (bytes * bytes) :=
  match l with
  | [] => None
  | "'"%char :: l' =>
      match l' with
      | "'"%char :: l'' => match sql_body l'' with Some (v, r) => Some ("'"%char :: v, r) | None => None end
      | _ => Some ([], l')
      end
  | c :: l' => if Ascii.eqb c NUL then None
               else match sql_body l' with Some (v, r) => Some (c :: v, r) | None => None end
  end.
Definition sql_literal (l : bytes) : option (bytes * bytes) :=
  match l with "'"%char :: l' => sql_body l' | _ => None end.

(** A comma separated list of SQL string literals, as in [IN ( ... )], up to [stop]. *)
Fixpoint sql_literals (fuel : nat) (l : bytes) : option (list bytes * bytes) :=
  match fuel with
  | O => None
  | S f =>
      match sql_literal l with
      | Some (v, ","%char :: " "%char :: r) =>
          match sql_literals f r with Some (vs, r') => Some (v :: vs, r') | None => None end
      | Some (v, r) => Some ([v], r)
      | None => None
      end
  end.

(** The UTF-8 encoding of a code point below 2^16. *)
Definition utf8_encoding (v : N) : bytes :=
  if N.ltb v 128 then [ascii_of_N v]
  else if N.ltb v 2048 then [ascii_of_N (192 + v / 64); ascii_of_N (128 + v mod 64)]
  else [ascii_of_N (224 + v / 4096); ascii_of_N (128 + (v / 64) mod 64); ascii_of_N (128 + v mod 64)].

(** Elements that survive a separated list: non-empty, not starting with a space, free of
    the separator and of NUL. *)
Definition list_element (sep : ascii) (s : bytes) : Prop :=
  s <> [] /\ (forall r, s <> " "%char :: r) /\ ~ In sep s /\ nul_free s.

(** Text that can stand inside a URI component: letters, digits, - _ . ! ~ * ( ) + and
    percent escapes.  In particular none of the delimiters / ? & = # or spaces. *)
Definition uri_safe (c : ascii) : bool :=
  let n := bcode c in
  (N.leb 48 n && N.leb n 57) || (N.leb 65 n && N.leb n 90) || (N.leb 97 n && N.leb n 122)
  || existsb (Ascii.eqb c) (lit "-_.!~*()+%").
