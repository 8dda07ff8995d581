(** What is taken out of texts before they are logged. *)
From Verif Require Import Base Text_Spec Text_Model Redact_Spec.

(** ** libstuff/libstuff.cpp, 3282-3320: SREReplace *)
(** pcre2_substitute with PCRE2_SUBSTITUTE_GLOBAL. [m s]: the length of the match at the very beginning of [s], if there
    is one. [fuel] is the length of the text; no pattern used here matches nothing. *)
Fixpoint substitute (m : bytes -> option nat) (r : bytes) (fuel : nat) (s : bytes) : bytes :=
  match fuel, s with
  | S k, c :: s' => match m s with Some n => r ++ substitute m r k (skipn n s) | None => c :: substitute m r k s' end
  | _, _ => []
  end.
(** The result becomes a string at its first NUL (3312). Errors of the library, such as the limit of depth of 1000 (3295),
    are not modelled: nothing is returned then (3302-3309). *)
Definition SREReplace (m : bytes -> option nat) (s r : bytes) : bytes := cstr (substitute m r (length s) s).

(** What a dot matches repeatedly: all up to the end of the line. *)
Fixpoint line (s : bytes) : bytes := match s with [] => [] | c :: s' => if Ascii.eqb c LF then [] else c :: line s' end.
Definition starts (p s : bytes) : bool := bytes_eqb (firstn (length p) s) p.

(** A pattern that begins with a text [p] and goes on to an [e]nd in the same line. *)
Definition from_to (p : bytes) (e : bytes -> option nat) (s : bytes) : option nat :=
  if starts p s then match e (line (skipn (length p) s)) with Some k => Some (length p + k) | None => None end else None.

Fixpoint count (f : ascii -> bool) (s : bytes) : nat := match s with c :: s' => if f c then S (count f s') else 0 | [] => 0 end.
(** Behind the first [c]. *)
Fixpoint behind_first (c : ascii) (s : bytes) : option nat :=
  match s with [] => None | d :: s' => if Ascii.eqb d c then Some 1 else match behind_first c s' with Some n => Some (S n) | None => None end end.
(** Behind the last [c]. *)
Fixpoint behind_last (c : ascii) (s : bytes) : option nat :=
  match s with [] => None | d :: s' => match behind_last c s' with Some n => Some (S n) | None => if Ascii.eqb d c then Some 1 else None end end.

(** ** libstuff.cpp, 3324-3339: SRedactSensitiveValues *)
(** 3329: the quote behind the greedy dots is optional, so all of the line matches *)
Definition token_match : bytes -> option nat := from_to TOKEN (fun l => Some (length l)).
(** 3332: v[0-9]+:[0-9A-F]{10,} *)
Definition encrypted_match (s : bytes) : option nat :=
  match s with
  | c :: s1 =>
      if negb (Ascii.eqb c "v"%char) then None else
      let d := count digit s1 in
      match skipn d s1 with
      | c2 :: s2 => if negb (d =? 0) && Ascii.eqb c2 ":"%char && (10 <=? count hexadecimal s2) then Some (S (d + S (count hexadecimal s2))) else None
      | [] => None
      end
  | [] => None
  end.
(** 3335: to the last quote of the line *)
Definition html_match : bytes -> option nat := from_to HTML (behind_last QUOTE).
(** 3338: to the first bracket *)
Definition edits_match : bytes -> option nat := from_to EDITS (behind_first "]"%char).

Definition TOKEN_GONE : bytes := lit """authToken"":<REDACTED>".
Definition ENCRYPTED_GONE : bytes := lit "<REDACTED>".
Definition HTML_GONE : bytes := lit """html"":""<REDACTED>""".
Definition EDITS_GONE : bytes := lit """edits"":[""REDACTED""]".
Definition SRedactSensitiveValues (s : bytes) : bytes :=
  let s1 := SREReplace token_match s TOKEN_GONE in
  let s2 := SREReplace encrypted_match s1 ENCRYPTED_GONE in
  let s3 := SREReplace html_match s2 HTML_GONE in
  SREReplace edits_match s3 EDITS_GONE.

(** ** libstuff.cpp, 3064-3065, 3075-3076, 3111-3112: a query in the log. [most] is MAX_LOG_QUERY_SIZE. *)
Definition logged_query (most : nat) (sql : bytes) : bytes := SRedactSensitiveValues (firstn most sql).
(** 3098-3107: a query in the file of queries, if there is one; blanks around it, which are trimmed, left aside *)
Definition query_log_row (most : nat) (file sql elapsed : bytes) : bytes :=
  QUOTE :: file ++ lit """, """ ++ SEscape (firstn most sql) [QUOTE] QUOTE ++ lit """, " ++ elapsed ++ [LF].
