(** What C56 is about: how a reader takes apart the text forms of a table, and how a table is laid out in columns. *)
From Verif Require Import Base Dec Text_Spec Json_Spec.
Local Open Scope N_scope.

Definition LF : ascii := "010"%char.
(** A table: at least one column, a cell for each column in every row. *)
Definition rectangular {T} (heads : list T) (rs : list (list T)) : Prop :=
  heads <> [] /\ Forall (fun row => List.length row = List.length heads) rs.
(** The pieces of a text between separators. *)
Fixpoint split (d : ascii) (s : bytes) : list bytes :=
  match s with
  | [] => [[]]
  | c :: s => if Ascii.eqb c d then [] :: split d s
              else match split d s with x :: l => (c :: x) :: l | [] => [[c]] end
  end.
(** The lines of a text in which every line has its line feed. *)
Definition text_lines (s : bytes) : list bytes := removelast (split LF s).
(** Separated values without any quoting: tabs and list style. *)
Definition read_separated (d : ascii) (s : bytes) : list (list bytes) := map (split d) (text_lines s).
(** Cells that can be read back from it. *)
Definition separable (d : ascii) (x : bytes) : Prop := ~ In d x /\ ~ In LF x.
(** A row that was cut short at the end: the missing cells are empty. *)
Definition filled (n : nat) (row : list bytes) : list bytes := row ++ repeat [] (n - List.length row).

(** Comma separated values (RFC 4180, with line feed as the line break): a field in double quotes can hold anything, with
    its double quotes doubled; a bare field holds no comma, double quote or line break. *)
Inductive place := Start | Bare | Inside | After.
Fixpoint read_csv (p : place) (field : bytes) (record : list bytes) (s : bytes) : option (list (list bytes)) :=
  match s with
  | [] => match p, record with Start, [] => Some [] | _, _ => None end
  | c :: s =>
      let next := read_csv Start [] (record ++ [field]) s in
      let last := match read_csv Start [] [] s with Some l => Some ((record ++ [field]) :: l) | None => None end in
      match p with
      | Inside => if Ascii.eqb c """" then read_csv After field record s else read_csv Inside (field ++ [c]) record s
      | After => if Ascii.eqb c """" then read_csv Inside (field ++ [c]) record s
                 else if Ascii.eqb c "," then next else if Ascii.eqb c LF then last else None
      | Start | Bare =>
          if Ascii.eqb c "," then next else if Ascii.eqb c LF then last
          else if Ascii.eqb c """" then match p with Start => read_csv Inside [] record s | _ => None end
          else if Ascii.eqb c "013" then None else read_csv Bare (field ++ [c]) record s
      end
  end.
Definition csv_table (s : bytes) : option (list (list bytes)) := read_csv Start [] [] s.

(** SQL literals separated by commas, a line for each row: a literal in single quotes is text, with its single quotes
    doubled; anything else is the text of a number. *)
Inductive literal := Number (t : bytes) | Str (t : bytes).
Definition written (l : literal) : bytes := match l with Number t | Str t => t end.
Definition close (p : place) (t : bytes) : literal := match p with After => Str t | _ => Number t end.
Fixpoint read_literals (p : place) (t : bytes) (record : list literal) (s : bytes) : option (list (list literal)) :=
  match s with
  | [] => match p, record with Start, [] => Some [] | _, _ => None end
  | c :: s =>
      let next := read_literals Start [] (record ++ [close p t]) s in
      let last := match read_literals Start [] [] s with Some l => Some ((record ++ [close p t]) :: l) | None => None end in
      match p with
      | Inside => if Ascii.eqb c "'" then read_literals After t record s else read_literals Inside (t ++ [c]) record s
      | After => if Ascii.eqb c "'" then read_literals Inside (t ++ [c]) record s
                 else if Ascii.eqb c "," then next else if Ascii.eqb c LF then last else None
      | Start => if Ascii.eqb c "'" then read_literals Inside [] record s
                 else if Ascii.eqb c "," || Ascii.eqb c LF then None else read_literals Bare [c] record s
      | Bare => if Ascii.eqb c "'" then None else if Ascii.eqb c "," then next else if Ascii.eqb c LF then last
                else read_literals Bare (t ++ [c]) record s
      end
  end.
Definition literal_table (s : bytes) : option (list (list literal)) := read_literals Start [] [] s.
(** Numbers as SQL writes them: a sign, digits with or without a point, an exponent. *)
Definition digits (s : bytes) : Prop := forall c, In c s -> is_digit c = true.
Definition a_sign (s : bytes) : Prop := s = [] \/ s = lit "+" \/ s = lit "-".
Definition sql_number (t : bytes) : Prop :=
  exists sign int frac ex, t = sign ++ int ++ frac ++ ex /\ a_sign sign /\ digits int /\
    (frac = [] /\ int <> [] \/ exists ds, frac = "."%char :: ds /\ digits ds /\ (int <> [] \/ ds <> [])) /\
    (ex = [] \/ exists e sg ds, ex = e :: sg ++ ds /\ (e = "e"%char \/ e = "E"%char) /\ a_sign sg /\ all_digits ds).
Definition reads_as (cell : bytes) (l : literal) : Prop :=
  written l = cell /\ ((exists t, l = Number t) <-> sql_number cell).

(** A table on a screen.  A text is a list of code points. *)
Notation text := (list N).
Definition code_point (v : N) : Prop := v < 1114112.
Definition utf8_1 (v : N) : bytes :=
  if v <? 128 then [ascii_of_N v]
  else if v <? 2048 then [ascii_of_N (192 + v / 64); ascii_of_N (128 + v mod 64)]
  else if v <? 65536 then [ascii_of_N (224 + v / 4096); ascii_of_N (128 + (v / 64) mod 64); ascii_of_N (128 + v mod 64)]
  else [ascii_of_N (240 + v / 262144); ascii_of_N (128 + (v / 4096) mod 64); ascii_of_N (128 + (v / 64) mod 64); ascii_of_N (128 + v mod 64)].
Definition utf8 (t : text) : bytes := flat_map utf8_1 t.
(** Characters that take no room: combining marks, joiners and variation selectors; and those that take two cells: East
    Asian scripts and emoji. *)
Definition no_room : list (N * N) :=
  [(768, 879); (6832, 6911); (7616, 7679); (8204, 8205); (8400, 8447); (65024, 65039); (65056, 65071)].
Definition two_cells : list (N * N) :=
  [(4352, 4447); (9001, 9002); (9728, 9983); (9984, 10175); (11904, 42191); (44032, 55203); (63744, 64255); (65040, 65049);
   (65072, 65135); (65280, 65376); (65504, 65510); (127744, 129791)].
Definition among (l : list (N * N)) (v : N) : bool := existsb (fun r => (fst r <=? v) && (v <=? snd r)) l.
Definition cells_of (v : N) : nat :=
  if (v <? 32) || (v =? 127) || among no_room v then 0 else if among two_cells v then 2 else 1.
Definition width (t : text) : nat := fold_right (fun v n => (cells_of v + n)%nat) 0%nat t.

(** The lines of a cell, without carriage returns at their ends; tabs go to the next multiple of eight. *)
Fixpoint cut (t : text) : list text :=
  match t with
  | [] => [[]]
  | v :: t => if v =? 10 then [] :: cut t else match cut t with x :: l => (v :: x) :: l | [] => [[v]] end
  end.
Definition without_return (t : text) : text := match rev t with v :: r => if v =? 13 then rev r else t | [] => t end.
Fixpoint tabs_out (col : nat) (t : text) : text :=
  match t with
  | [] => []
  | v :: t => if v =? 9 then let k := (8 - Nat.modulo col 8)%nat in repeat 32 k ++ tabs_out (col + k) t
              else v :: tabs_out (col + cells_of v) t
  end.
Definition lines_of (cell : text) : list text := map (fun l => tabs_out 0 (without_return l)) (cut cell).
(** The line shows the texts from left to right: each but the last takes the width of its column, which is at least its
    own, and two blanks more. *)
Definition blank (n : nat) : text := repeat 32 n.
Fixpoint shows (widths : list nat) (texts : list text) (line : text) : Prop :=
  match widths, texts with
  | [_], [t] => line = t
  | w :: ws, t :: ts => exists rest, (width t <= w)%nat /\ line = t ++ blank (w - width t) ++ blank 2 ++ rest /\ shows ws ts rest
  | _, _ => False
  end.
(** ... with the blanks at its end left out. *)
Definition shows_trimmed (widths : list nat) (texts : list text) (line : text) : Prop :=
  (exists n, shows widths texts (line ++ blank n)) /\ (forall l, line <> l ++ [32]).
(** A column is as wide as the widest text in it. *)
Definition in_column (j : nat) (heads : list text) (rows : list (list text)) (t : text) : Prop :=
  (exists h, nth_error heads j = Some h /\ t = tabs_out 0 h) \/
  (exists row cell, In row rows /\ nth_error row j = Some cell /\ In t (lines_of cell)).
Definition as_wide_as_needed (heads : list text) (rows : list (list text)) (widths : list nat) : Prop :=
  List.length widths = List.length heads /\
  forall j w, nth_error widths j = Some w ->
    (forall t, in_column j heads rows t -> (width t <= w)%nat) /\ (exists t, in_column j heads rows t /\ width t = w).
(** A row takes as many lines as its tallest cell. *)
Definition tallest (row : list text) : nat := fold_right (fun c n => Nat.max (List.length (lines_of c)) n) 0%nat row.
Definition row_shown (widths : list nat) (row : list text) (lines : list text) : Prop :=
  List.length lines = tallest row /\
  forall k line, nth_error lines k = Some line -> shows_trimmed widths (map (fun c => nth k (lines_of c) []) row) line.
Fixpoint ruler (widths : list nat) : text :=
  match widths with [] => [] | [w] => repeat 45 w | w :: ws => repeat 45 w ++ blank 2 ++ ruler ws end.
