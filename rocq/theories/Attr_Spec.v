(** Specification of the attributes of requests (C73).  No modelled code here. *)
From Verif Require Import Base Dec.
Open Scope N_scope.

(** A number with two digits *)
Definition figure (n : N) : ascii := ascii_of_N (48 + n).
Definition two (n : N) : bytes := [figure (n / 10); figure (n mod 10)].
(** YYYY-MM-DD, or YYYY-MM-DD HH:MM:SS *)
Definition date_text (s : bytes) : Prop := exists y m d rest,
  1900 <= y < 3000 /\ 1 <= m <= 12 /\ 1 <= d <= 31 /\ s = two (y / 100) ++ two (y mod 100) ++ lit "-" ++ two m ++ lit "-" ++ two d ++ rest /\
  (rest = [] \/ exists h i x, h < 100 /\ i < 100 /\ x < 100 /\ rest = lit " " ++ two h ++ lit ":" ++ two i ++ lit ":" ++ two x).
(** The text of a 64 bit integer *)
Definition integer (v : bytes) : Prop := exists z, (- 2 ^ 63 <= z < 2 ^ 63)%Z /\ v = decZ z.
Definition size (v : bytes) : N := N.of_nat (length v).
