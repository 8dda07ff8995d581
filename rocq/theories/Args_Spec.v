(** Specification of the options for the output of queries and of the text shown for an error (C74).  No modelled code here. *)
From Verif Require Import Base.

Definition white (c : ascii) : Prop := In c (lit " " ++ ["009"; "010"; "011"; "012"; "013"]%char).
Definition quote_mark (c : ascii) : Prop := c = "'"%char \/ c = """"%char.
Definition backslash : ascii := "\"%char.

(** [writes w t]: the text t stands for the word w.  Plain characters stand for themselves, a backslash takes away the meaning of
    the next character, quotes that of everything between them. *)
Inductive writes : bytes -> bytes -> Prop :=
| Empty : writes [] []
| Plain c w t : ~ white c -> ~ quote_mark c -> c <> backslash -> writes w t -> writes (c :: w) (c :: t)
| Escaped c w t : writes w t -> writes (c :: w) (backslash :: c :: t)
| Quoted q x w t : quote_mark q -> ~ In q x -> writes w t -> writes (x ++ w) (q :: x ++ q :: t).
(** [line ws t]: the text t is the words ws with white space between them, before them or after them *)
Inductive line : list bytes -> bytes -> Prop :=
| Blank sp : Forall white sp -> line [] sp
| Last sp w t : Forall white sp -> writes w t -> w <> [] -> line [w] (sp ++ t)
| More sp w t c ws rest : Forall white sp -> writes w t -> w <> [] -> white c -> line ws rest -> line (w :: ws) (sp ++ t ++ c :: rest).

(** ** What can be asked for *)
Inductive style := Box | Column | Csv | Html | Explain | Plan | Json | Line | Listing | Markdown | Quote | Grid | Nothing.
Inductive switch := Auto | Off | On.
Record shown := Shown { style_of : style; titles_of : switch; null_of : option bytes; separator_of : option bytes }.
Inductive wish := WStyle (s : style) | WTitles (s : switch) | WNull (v : bytes) | WSeparator (v : bytes) | WOther (w : bytes).
(** The name of the option, the documentation of the sqlite3 command *)
Inductive named : wish -> bytes -> list bytes -> Prop :=
| NBox : named (WStyle Box) (lit "box") []
| NColumn : named (WStyle Column) (lit "column") []
| NCsv : named (WStyle Csv) (lit "csv") []
| NHtml : named (WStyle Html) (lit "html") []
| NExplain : named (WStyle Explain) (lit "explain") []
| NPlan : named (WStyle Plan) (lit "eqp") []
| NPlan2 : named (WStyle Plan) (lit "explainqueryplan") []
| NJson : named (WStyle Json) (lit "json") []
| NLine : named (WStyle Line) (lit "line") []
| NList : named (WStyle Listing) (lit "list") []
| NMarkdown : named (WStyle Markdown) (lit "markdown") []
| NQuote : named (WStyle Quote) (lit "quote") []
| NTable : named (WStyle Grid) (lit "table") []
| NHeader : named (WTitles On) (lit "header") []
| NNoHeader : named (WTitles Off) (lit "noheader") []
| NNull v : v <> [] -> ~ In "000"%char v -> named (WNull v) (lit "nullvalue") [v]
| NSeparator v : v <> [] -> ~ In "000"%char v -> named (WSeparator v) (lit "separator") [v].
(** With one dash or with two, then the value if it has one *)
Definition dashed (name word : bytes) : Prop := word = lit "-" ++ name \/ word = lit "--" ++ name.
(** What is not one of these options is left alone *)
Definition asked (w : wish) (words : list bytes) : Prop :=
  (exists name word values, named w name values /\ dashed name word /\ words = word :: values) \/
  (exists word, w = WOther word /\ words = [word] /\ forall w' name values, named w' name values -> ~ dashed name word).
(** Of each kind the last one counts *)
Fixpoint last_said {X} (f : wish -> option X) (default : X) (l : list wish) : X :=
  match l with [] => default | w :: l' => last_said f (match f w with Some x => x | None => default end) l' end.
Definition wanted (l : list wish) : shown :=
  Shown (last_said (fun w => match w with WStyle s => Some s | _ => None end) Listing l)
        (last_said (fun w => match w with WTitles s => Some s | _ => None end) On l)
        (last_said (fun w => match w with WNull v => Some (Some v) | _ => None end) None l)
        (last_said (fun w => match w with WSeparator v => Some (Some v) | _ => None end) None l).

(** ** The text shown for an error *)
(** A byte in the middle of a character in UTF-8 *)
Definition continues (c : ascii) : Prop := 128 <= nat_of_ascii c < 192.
(** White space shown as blanks *)
Definition blanked (a b : ascii) : Prop := (white a /\ b = " "%char) \/ (~ white a /\ b = a).
(** The one caret of the line is in that column *)
Definition caret_at (col : nat) (l : bytes) : Prop :=
  exists a b, l = a ++ "^"%char :: b /\ length a = col /\ ~ In "^"%char a /\ ~ In "^"%char b.
