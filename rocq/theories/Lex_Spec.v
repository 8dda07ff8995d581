(** What C50 is about: the words of an SQL text, the statements it holds, and the words that stand for a value. *)
From Verif Require Import Base Dec Text_Spec Text_Model Query_Spec.

(** SQL text is read from left to right; each word takes as many characters as it can (sqlite.org/lang_keywords, lang_comment,
    lang_expr, "Literal Values" and "Parameters").  Numbers such as 1.5e-3 count here as several words with no space between
    them.  [Minus], [Slash]: the sign alone, which a second '-' or a '*' would make a comment; [Quote q], [Bracket],
    [Block], [Star]: still open; [Quoted q]: closed, unless the quote is doubled. *)
Inductive kind := Space | Word | Var | Op | Minus | Slash | Line | Block | Star | Comment | Quote (q : ascii) | Quoted (q : ascii) | Bracket | Bracketed.
Definition word := (kind * bytes)%type.

Definition id_char (c : ascii) : bool :=
  within "a" c "z" || within "A" c "Z" || within "0" c "9" || Ascii.eqb c "_" || Ascii.eqb c "$" || N.leb 128 (bcode c).
Definition quote_char (c : ascii) : bool := Ascii.eqb c "'" || Ascii.eqb c """" || Ascii.eqb c "`".
Definition var_char (c : ascii) : bool := Ascii.eqb c ":" || Ascii.eqb c "@" || Ascii.eqb c "$" || Ascii.eqb c "#" || Ascii.eqb c "?".
Definition start (c : ascii) : kind :=
  if is_space c then Space else if var_char c then Var else if id_char c then Word else if quote_char c then Quote c
  else if Ascii.eqb c "[" then Bracket else if Ascii.eqb c "-" then Minus else if Ascii.eqb c "/" then Slash else Op.
(** What the word becomes when [c] follows, or [None] when [c] begins another word. *)
Definition extends (k : kind) (c : ascii) : option kind :=
  match k with
  | Space => if is_space c then Some Space else None
  | Word => if id_char c then Some Word else None
  | Var => if id_char c then Some Var else None
  | Op | Comment | Bracketed => None
  | Minus => if Ascii.eqb c "-" then Some Line else None
  | Slash => if Ascii.eqb c "*" then Some Block else None
  | Line => if Ascii.eqb c (ascii_of_N 10) then None else Some Line
  | Block => if Ascii.eqb c "*" then Some Star else Some Block
  | Star => if Ascii.eqb c "/" then Some Comment else if Ascii.eqb c "*" then Some Star else Some Block
  | Quote q => if Ascii.eqb c q then Some (Quoted q) else Some (Quote q)
  | Quoted q => if Ascii.eqb c q then Some (Quote q) else None
  | Bracket => if Ascii.eqb c "]" then Some Bracketed else Some Bracket
  end.
Fixpoint go (k : kind) (cur : bytes) (s : bytes) : list word :=
  match s with
  | [] => [(k, cur)]
  | c :: s => match extends k c with Some k' => go k' (cur ++ [c]) s | None => (k, cur) :: go (start c) [c] s end
  end.
Definition words (s : bytes) : list word := match s with [] => [] | c :: s => go (start c) [c] s end.

(** A statement ends with its semicolon; one with nothing in it is no statement.  (CREATE TRIGGER, which has semicolons inside, is left out.) *)
Definition semicolon : word := (Op, [";"%char]).
Definition is_semicolon (x : word) : bool := match x with (Op, [c]) => Ascii.eqb c ";" | _ => false end.
Definition says_nothing (x : word) : bool := match fst x with Space | Line | Block | Star | Comment => true | _ => is_semicolon x end.
Fixpoint pieces (cur : list word) (l : list word) : list (list word) :=
  match l with
  | [] => match cur with [] => [] | _ => [cur] end
  | x :: l => if is_semicolon x then (cur ++ [x]) :: pieces [] l else pieces (cur ++ [x]) l
  end.
Definition statements (s : bytes) : list (list word) := filter (fun p => negb (forallb says_nothing p)) (pieces [] (words s)).

Section values.
  Context {R : Type} (print15 : R -> bytes).
  Definition doubled (b : bytes) : bytes := flat_map (fun c => if Ascii.eqb c "'" then ["'"; "'"]%char else [c]) b.
  (** The words that stand for a value. *)
  Definition value_words (v : bound R) : list word :=
    match v with
    | Null => [(Word, lit "NULL")]
    | Int64 z => if (z <? 0)%Z then [(Minus, lit "-"); (Word, dec (Z.to_N (- z)))] else [(Word, dec (Z.to_N z))]
    | Double r => words (print15 r)
    | Text b => [(Quoted "'", "'"%char :: doubled b ++ ["'"%char])]
    | Blob b => [(Word, lit "x"); (Quoted "'", "'"%char :: SToHexS b ++ ["'"%char])]
    end.
  (** The statement with its placeholders replaced; one with no value given stands for NULL. *)
  Definition with_values (vs : list (bytes * bound R)) (p : list word) : list word :=
    flat_map (fun x => match fst x with Var => value_words (match value_of (snd x) vs with Some v => v | None => Null end) | _ => [x] end) p.

  (** A placeholder stands apart: before it white space, a comment, or an operator other than '-' and '.'; after it no
      quote and no '.' (no letter or digit either: that would be part of its name). *)
  Definition ok_before (x : word) : Prop := (fst x = Space \/ fst x = Op \/ fst x = Slash \/ fst x = Comment) /\ x <> (Op, ["."%char]).
  Definition ok_after (x : word) : Prop := (forall q, fst x <> Quote q /\ fst x <> Quoted q) /\ x <> (Op, ["."%char]) /\ fst x <> Var.
  Definition apart (p : list word) : Prop :=
    forall a x b, p = a ++ x :: b -> fst x = Var -> (forall a' y, a = a' ++ [y] -> ok_before y) /\ (forall y b', b = y :: b' -> ok_after y).
  (** Values whose text form is right: text has no zero byte (C50_zero_refuted), and the text of a floating point number is a number. *)
  Definition numeral (t : bytes) : Prop :=
    (exists l d, words t = l ++ [(Word, d)]) /\ (exists k d l, words t = (k, d) :: l /\ (k = Word \/ k = Minus)) /\ Forall (fun x => fst x = Word \/ fst x = Minus \/ (fst x = Op /\ x <> semicolon)) (words t).
  Definition writable (v : bound R) : Prop :=
    match v with Int64 z => (- 2 ^ 63 <= z < 2 ^ 63)%Z | Double r => numeral (print15 r) | Text b => nul_free b | _ => True end.
  (** A write as the theorem wants it: each of its statements ends in a semicolon of its own and keeps its placeholders apart. *)
  Definition regular (w : bytes * list (bytes * bound R)) : Prop :=
    Forall (fun p => (exists l, p = l ++ [semicolon]) /\ apart p) (statements (fst w)) /\ Forall (fun e => writable (snd e)) (snd w).
  (** Reading the words gives the value back. *)
  Definition stands_for (l : list word) (v : bound R) : Prop :=
    match v with
    | Null => l = [(Word, lit "NULL")]
    | Int64 z => SToInt64 (concat (map snd l)) = z
    | Double r => concat (map snd l) = print15 r
    | Text b => exists t, l = [(Quoted "'", t)] /\ sql_literal t = Some (b, [])
    | Blob b => exists h, l = [(Word, lit "x"); (Quoted "'", "'"%char :: h ++ ["'"%char])] /\ SStrFromHex h = b
    end.
End values.
