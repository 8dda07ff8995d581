(** C84: the version a server tells. *)
From Verif Require Import Base.

(** A plugin: its name, and the version it gives about itself, if any. *)
Record plugin := Plugin { p_name : bytes; p_version : option bytes }.
(** What a plugin adds to the version of the server. *)
Definition said (p : plugin) : option bytes := match p_version p with Some v => Some (p_name p ++ "_"%char :: v) | None => None end.
(** [parts VERSION ps l]: [l] has the version of the program and what each plugin adds, each once, in any order. *)
Inductive parts (VERSION : bytes) : list plugin -> list bytes -> Prop :=
| parts_program : parts VERSION [] [VERSION]
| parts_says p s ps l l' : said p = Some s -> parts VERSION ps l -> Permutation (s :: l) l' -> parts VERSION (p :: ps) l'
| parts_silent p ps l : said p = None -> parts VERSION ps l -> parts VERSION (p :: ps) l.
