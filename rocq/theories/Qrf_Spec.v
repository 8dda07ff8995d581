(** What C54 is about: the values SQLite gives for the cells of a row, and the text a caller should see for each. *)
From Verif Require Import Base Dec Text_Spec Json_Spec.

(** A real number is the text SQLite prints for it. *)
Inductive value := Null | Int (z : Z) | Real (t : bytes) | Text (t : bytes) | Blob (b : bytes).
Definition shown (v : value) : bytes := match v with Null => [] | Int z => decZ z | Real t => t | Text t => t | Blob b => b end.
(** The rows of a table have one cell for each column. *)
Definition table_of_values (cols : list bytes) (rows : list (list value)) : Prop :=
  cols <> [] /\ Forall nul_free cols /\ Forall (fun row => List.length row = List.length cols) rows.
(** A real number that is not infinite; text without NUL; bytes that are ASCII. *)
Definition plain (v : value) : Prop :=
  match v with
  | Null | Int _ => True
  | Real t => json_number t
  | Text t => nul_free t
  | Blob b => forall c, In c b -> (bcode c < 128)%N
  end.
