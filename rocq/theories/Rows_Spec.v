(** C76: rows of query results, in plain words.  No modelled code here. *)
From Verif Require Import Base.

(** The values of SQLite; [R]: floating point numbers *)
Inductive value {R : Type} := Null | Int (z : Z) | Real (r : R) | Text (b : bytes) | Blob (b : bytes).
Arguments value : clear implicits.

(** The value in the first column of that name *)
Definition column {R} (names : list bytes) (cells : list (value R)) (c : bytes) (v : value R) : Prop :=
  exists k, nth_error names k = Some c /\ nth_error cells k = Some v /\ forall j, j < k -> nth_error names j <> Some c.
Definition no_column {R} (names : list bytes) (cells : list (value R)) (c : bytes) : Prop := forall k, nth_error names k = Some c -> length cells <= k.

(** What a program does with results, each known by a number: make one, fill it with the answers of the statements of a query (names and rows), make a new
    one as a copy, assign one to another, make one of names and rows, clear, change the number of rows, destroy *)
Inductive op {R : Type} :=
| New (i : nat)
| Query (i : nat) (l : list (list bytes * list (list (value R))))
| Copy (i j : nat)
| Assign (i j : nat)
| Make (i : nat) (names : list bytes) (cells : list (list (value R)))
| Clear (i : nat)
| Resize (i n : nat)
| Destroy (i : nat).
Arguments op : clear implicits.

(** Results as plain tables.  [named]: names of columns can be used; that is not so for a copy that was made new, rows made without a result, and rows
    that were added empty. *)
Record plain {R : Type} := Plain { names : list bytes; cells : list (list (value R)); named : bool }.
Arguments plain : clear implicits.
Definition put {A} (i : nat) (a : A) (h : nat -> A) : nat -> A := fun j => if Nat.eqb j i then a else h j.
Definition plain_step {R} (h : nat -> option (plain R)) (o : op R) : nat -> option (plain R) :=
  match o with
  | New i => put i (Some (Plain R [] [] true)) h
  | Query i l => put i (Some (Plain R (last (map fst l) []) (concat (map snd l)) true)) h
  | Copy i j => match h i with Some t => put j (Some (Plain R (names t) (cells t) false)) h | None => h end
  | Assign i j => match h i with Some t => put j (Some (Plain R (names t) (cells t) true)) h | None => h end
  | Make i ns cs => put i (Some (Plain R ns cs false)) h
  | Clear i => put i (Some (Plain R [] [] true)) h
  | Resize i n => match h i with
                  | Some t => put i (Some (Plain R (names t) (firstn n (cells t) ++ repeat [] (n - length (cells t))) (named t && Nat.leb n (length (cells t))))) h
                  | None => h end
  | Destroy i => put i None h
  end.
Definition plain_run {R} (ops : list (op R)) : nat -> option (plain R) := fold_left plain_step ops (fun _ => None).
(** The program uses no result that is not there, and no text in the database has a NUL in it. *)
Definition no_nul {R} (v : value R) : Prop := match v with Text b => ~ In "000"%char b | _ => True end.
Definition fine {R} (h : nat -> option (plain R)) (o : op R) : Prop :=
  match o with
  | New i | Make i _ _ => h i = None
  | Query i l => h i <> None /\ Forall (fun s => Forall (Forall no_nul) (snd s)) l
  | Copy i j => h i <> None /\ h j = None
  | Assign i j => h i <> None /\ h j <> None
  | Clear i | Resize i _ | Destroy i => h i <> None
  end.
Fixpoint fine_run {R} (h : nat -> option (plain R)) (ops : list (op R)) : Prop :=
  match ops with [] => True | o :: ops' => fine h o /\ fine_run (plain_step h o) ops' end.
