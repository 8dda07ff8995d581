(** Model of query results, their rows and their values: libstuff/SQResult, libstuff/SQValue and what SQuery puts into a result.
    A row has a pointer to a result (SQResult.h 34); here that is the number of the result. *)
From Verif Require Import Base Text_Model Dec Rows_Spec.

Section Rows.
  Context {R : Type}.
  (** sqlite3_snprintf with "%!.15g" *)
  Variable real_text : R -> bytes.
  (** Closeness of floating point numbers, SQValue.cpp 113-129 *)
  Variable close : R -> R -> bool.

  (** ** SQValue.cpp *)
  (** 30-50: operator string *)
  Definition text (v : value R) : bytes :=
    match v with Text b | Blob b => b | Int z => decZ z | Real r => real_text r | Null => [] end.
  (** 78-96: operator== with a string *)
  Definition is_text (v : value R) (s : bytes) : bool := bytes_eqb (text v) s.
  (** 98-135: operator== *)
  Definition equal (a b : value R) : bool :=
    match a, b with
    | Null, Null => true
    | Int x, Int y => Z.eqb x y
    | Real x, Real y => close x y
    | Text x, Text y => bytes_eqb x y
    | Blob x, Blob y => bytes_eqb x y
    | _, _ => false
    end.
  (** 142-151, 153-156: empty and size *)
  Definition value_empty (v : value R) : bool := match v with Null => true | Text [] | Blob [] => true | _ => false end.
  Definition value_size (v : value R) : nat := length (text v).

  (** ** SQResult *)
  Record row := Row { owner : option nat; data : list (value R) }.
  Record result := Result { headers : list bytes; rows : list row }.
  (** The results there are *)
  Definition heap : Type := nat -> option result.

  (** libstuff.cpp 2984-3009: what is kept of a value; a text is read up to its first NUL *)
  Definition kept (v : value R) : value R := match v with Text b => Text (cstr b) | _ => v end.
  (** libstuff.cpp 2852, 2960-3019: the result is cleared; each statement replaces the names and adds its rows.  Not modelled: statements that fail, and the tries again, each of which clears the result. *)
  Definition add_statement (i : nat) (r : result) (s : list bytes * list (list (value R))) : result :=
    Result (fst s) (rows r ++ map (fun cs => Row (Some i) (map kept cs)) (snd s)).
  Definition empty_result : result := Result [] [].
  (** None: a result is used that is not there *)
  Definition step (h : heap) (o : op R) : option heap :=
    match o with
    | New i => match h i with None => Some (put i (Some empty_result) h) | Some _ => None end
    | Query i l => match h i with Some _ => Some (put i (Some (fold_left (add_statement i) l empty_result)) h) | None => None end
    | Copy i j => match h i, h j with Some r, None => Some (put j (Some r) h) | _, _ => None end       (* SQResult.h 44: default *)
    | Assign i j =>                                                                                     (* SQResult.cpp 271-279 *)
        match h i, h j with Some r, Some _ => Some (put j (Some (Result (headers r) (map (fun w => Row (Some j) (data w)) (rows r)))) h) | _, _ => None end
    | Make i ns cs =>                                                                                   (* SQResult.h 45-48, SQResult.cpp 11-13 *)
        match h i with None => Some (put i (Some (Result ns (map (Row None) cs))) h) | Some _ => None end
    | Clear i => match h i with Some _ => Some (put i (Some empty_result) h) | None => None end         (* SQResult.cpp 255-259 *)
    | Resize i n =>                                                                                     (* SQResult.cpp 306-309 *)
        match h i with Some r => Some (put i (Some (Result (headers r) (firstn n (rows r) ++ repeat (Row None []) (n - length (rows r))))) h) | None => None end
    | Destroy i => match h i with Some _ => Some (put i None h) | None => None end
    end.
  Fixpoint run (h : heap) (ops : list (op R)) : option heap :=
    match ops with [] => Some h | o :: ops' => match step h o with Some h' => run h' ops' | None => None end end.

  Inductive answer := Value (b : bytes) | Thrown | Undefined.
  (** SQResult.cpp 87-119: the loop over the names, which ends with the values of the row *)
  Fixpoint find_column (hs : list bytes) (d : list (value R)) (c : bytes) : answer :=
    match hs, d with
    | n :: hs', v :: d' => if bytes_eqb n c then Value (text v) else find_column hs' d' c
    | _, _ => Thrown
    end.
  Definition by_name (h : heap) (i n : nat) (c : bytes) : answer :=
    match h i with
    | None => Undefined
    | Some r =>
        match nth_error (rows r) n with                                                                 (* SQResult.cpp 261-269 *)
        | None => Thrown
        | Some w => match owner w with
                    | None => Thrown
                    | Some o => match h o with None => Undefined | Some r' => find_column (headers r') (data w) c end
                    end
        end
    end.
  (** SQResult.cpp 60-78 *)
  Definition by_index (h : heap) (i n k : nat) : answer :=
    match h i with
    | None => Undefined
    | Some r => match nth_error (rows r) n with
                | None => Thrown
                | Some w => match nth_error (data w) k with Some v => Value (text v) | None => Thrown end
                end
    end.
End Rows.
Arguments row : clear implicits.
Arguments result : clear implicits.
Arguments heap : clear implicits.
