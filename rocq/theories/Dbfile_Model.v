(** Finding the format of a database and opening it: SQLite.cpp 118-154, 156-199. *)
From Verif Require Import Base Text_Spec Text_Model Https_Model Dbfile_Spec.

(** 131-134: 32 bytes of memory [old], which are not initialized; the file is read over them, the last one is set to 0, and the text ends at the first 0. *)
Definition header (content old : bytes) : bytes := cstr (firstn 31 (firstn 32 content ++ skipn (length (firstn 32 content)) old)).
(** 118-154 *)
Definition validateDBFormat (f : file) (hctree : bool) (old : bytes) : bool :=
  match f with
  | Missing | Unreadable | File [] => hctree
  | File content =>
      let h := header content old in
      if prefix (lit "Hctree database version") h then true
      else if prefix (lit "SQLite format 3") h then false
      else hctree
  end.

(** 167-193: the tries, every 5 seconds; [k]: tries before this one.  [fuel]: at least as many as there can be *)
Definition retryIntervalSeconds := 5.
Definition maxRetrySeconds := 15 * 60.
Fixpoint open_loop (result : nat -> tried) (told_to_end : nat -> bool) (fuel k : nat) : option ends :=
  match fuel with
  | 0 => None
  | S fuel' =>
      match result k with
      | Good => Some (Opened k)
      | Bad => Some (Dies k)
      | Busy => if maxRetrySeconds <=? k * retryIntervalSeconds then Some (Dies k)
                else if told_to_end k then Some (Exits k)
                else open_loop result told_to_end fuel' (S k)
      end
  end.
