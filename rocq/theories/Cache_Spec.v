(** What C22 talks about, independent of the model. *)
From Verif Require Import Base.
Local Open Scope Z_scope.

(** The total over the entries of a measure of their values. *)
Definition total (size : bytes -> Z) (entries : list (bytes * bytes)) : Z :=
  fold_right (fun p n => size (snd p) + n) 0 entries.
Definition names (entries : list (bytes * bytes)) : list bytes := map fst entries.

(** The names in order of their last use, the one used last at the end. *)
Fixpoint by_last_use (uses : list bytes) : list bytes :=
  match uses with
  | [] => []
  | n :: rest => if existsb (bytes_eqb n) rest then by_last_use rest else n :: by_last_use rest
  end.

(** [evicted] are the entries that had to go, in this order, to make room for [need] in [limit]: without the
    last of them there was not enough room yet. *)
Definition no_more_than_needed (size : bytes -> Z) (evicted kept : list (bytes * bytes)) (need limit : Z) : Prop :=
  total size kept + need <= limit /\
  (forall front e, evicted = front ++ [e] -> total size (e :: kept) + need > limit).
