(** C65: the calendar, and the order of texts. *)
From Verif Require Import Base.
Local Open Scope N_scope.

(** The Gregorian calendar. *)
Record date := Date { year : N; month : N; day : N }.
Definition leap (y : N) : bool := (y mod 4 =? 0) && negb (y mod 100 =? 0) || (y mod 400 =? 0).
Definition lengths (y : N) : list N := [31; if leap y then 29 else 28; 31; 30; 31; 30; 31; 31; 30; 31; 30; 31].
Definition month_length (y m : N) : N := nth (N.to_nat (m - 1)) (lengths y) 0.
Definition is_date (x : date) : Prop := 1 <= month x <= 12 /\ 1 <= day x <= month_length (year x) (month x).
Definition next_day (x : date) : date :=
  if day x <? month_length (year x) (month x) then Date (year x) (month x) (day x + 1)
  else if month x <? 12 then Date (year x) (month x + 1) 1 else Date (year x + 1) 1 1.
(** The date that is n days after the first of January 1970. *)
Definition date_of (n : N) : date := N.iter n next_day (Date 1970 1 1).

(** Texts in the order SQLite has them in: byte by byte, and a text before its continuations. *)
Fixpoint text_compare (a b : bytes) : comparison :=
  match a, b with
  | [], [] => Eq
  | [], _ => Lt
  | _, [] => Gt
  | x :: a', y :: b' => match bcode x ?= bcode y with Eq => text_compare a' b' | c => c end
  end.
