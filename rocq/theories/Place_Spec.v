(** C75: the place of a conflict, in plain words.  No modelled code here. *)
From Verif Require Import Base Dec.

Definition within (p s : bytes) : Prop := exists a b, s = a ++ p ++ b.
Definition LF : ascii := "010"%char.
(** A word: something without white space in it *)
Definition word (w : bytes) : Prop := w <> [] /\ forall c, In c w -> ~ In c (lit " " ++ ["009"; "010"; "011"; "012"; "013"]%char).
Definition what (table : bool) : bytes := if table then lit "table" else lit "index".

(** What SQLite logs for a commit that conflicts on a page, see the sample in SQLite.cpp *)
Definition page_message (page : N) (how : bytes) (table : bool) (name content : bytes) : bytes :=
  lit "cannot commit CONCURRENT transaction - conflict at page " ++ dec page ++ lit " (" ++ how ++ lit "; part of db " ++ what table ++ lit " " ++
  name ++ lit "; " ++ content.
(** And for one that conflicts on a row *)
Definition row_message (how : bytes) (table : bool) (name root key with' tid : bytes) : bytes :=
  how ++ lit " conflict on " ++ what table ++ lit " " ++ name ++ lit " (root=" ++ root ++ lit "), key=" ++ key ++ lit " conflicting=" ++ with' ++
  lit " (mytid=" ++ tid.
(** What is logged a lot and is not about conflicts *)
Definition noise (message : bytes) : Prop := within (lit "automatic index on") message.
