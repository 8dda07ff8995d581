(** What the command line, files and backups should be. *)
From Verif Require Import Base Text_Spec.

(** A word of the command line names an option if it starts with a dash. *)
Definition is_option (w : bytes) : bool := match w with c :: _ => Ascii.eqb c "-"%char | [] => false end.

(** The value of an option: the word behind its last occurrence, or nothing if what follows is an option itself. *)
Fixpoint given (n : bytes) (words : list bytes) : option bytes :=
  match words with
  | [] => None
  | w :: rest =>
      match given n rest with
      | Some v => Some v
      | None => if is_option w && bytes_eqb (map lower n) (map lower w) then Some (match rest with v :: _ => if is_option v then [] else v | [] => [] end) else None
      end
  end.

(** Files by their paths. *)
Definition files := bytes -> option bytes.
Definition same_but (paths : list bytes) (a b : files) : Prop := forall p, ~ In p paths -> a p = b p.

(** The beginning of a content. *)
Definition prefix (a b : bytes) : Prop := exists c, b = a ++ c.

(** A path is split at its last slash. *)
Definition slash_free (b : bytes) : Prop := ~ In "/"%char b.
Definition dot_free (b : bytes) : Prop := ~ In "."%char b.
Definition split_path (p d f : bytes) : Prop := p = d ++ f /\ slash_free f /\ (d = [] \/ exists d', d = d' ++ ["/"%char]).
