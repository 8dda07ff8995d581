(** Specification vocabulary for the multi-producer single-consumer ring buffer.

    A history records what the callers see: which producer's element (or shutdown marker)
    took which place in line, what the consumer received, which pushes have returned true and
    which have returned false.  A FIFO is correct when the consumer has received exactly an
    initial part of the line. *)
From Verif Require Import Base.

Section Spec.
Variable T : Type.

(** What occupies one place in line: an element, or the shutdown marker. *)
Inductive entry := Item (v : T) | Marker.

(** What one pop delivers.  [Torn] would be an element read while it is being written. *)
Inductive delivery := Got (v : T) | GotShutdown | Torn.

Definition delivers (e : entry) : delivery := match e with Item v => Got v | Marker => GotShutdown end.

Definition is_item (e : entry) : bool := match e with Item _ => true | Marker => false end.

(** The elements a given producer put in line, in order. *)
Fixpoint items_of (p : nat) (l : list (nat * entry)) : list T :=
  match l with
  | [] => []
  | (q, Item v) :: l' => if Nat.eqb q p then v :: items_of p l' else items_of p l'
  | (_, Marker) :: l' => items_of p l'
  end.

(** Number of elements (not markers) among some places. *)
Fixpoint count_items (l : list (nat * entry)) : nat :=
  match l with [] => 0 | (_, e) :: l' => (if is_item e then 1 else 0) + count_items l' end.

End Spec.
Arguments Item {T}. Arguments Marker {T}. Arguments Got {T}. Arguments GotShutdown {T}. Arguments Torn {T}.
Arguments delivers {T}. Arguments items_of {T}. Arguments count_items {T}. Arguments is_item {T}.
