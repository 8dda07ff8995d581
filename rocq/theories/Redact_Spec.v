(** What must not be seen in the log. *)
From Verif Require Import Base.

Definition LF : ascii := "010"%char.
Definition QUOTE : ascii := """"%char.
Definition one_line (b : bytes) : Prop := ~ In LF b.

(** [e] stands somewhere in [b]. *)
Definition occurs (e b : bytes) : Prop := exists p q, b = p ++ e ++ q.

(** Where an authentication token, the text of a chat and the edits of a chat begin. *)
Definition TOKEN : bytes := lit """authToken"":""".
Definition HTML : bytes := lit """html"":""".
Definition EDITS : bytes := lit """edits"":[".

(** An encrypted value: v, a version, a colon, and ten hexadecimal digits (or more, of which these are the first). *)
Definition digit (c : ascii) : bool := (48 <=? bcode c)%N && (bcode c <=? 57)%N.
Definition hexadecimal (c : ascii) : bool := digit c || (65 <=? bcode c)%N && (bcode c <=? 70)%N.
Definition encrypted (e : bytes) : Prop :=
  exists d h, e = "v"%char :: d ++ ":"%char :: h /\ d <> [] /\ (forall c, In c d -> digit c = true) /\ length h = 10 /\ (forall c, In c h -> hexadecimal c = true).
