(** Model of how the place of a conflict is found and used: sqlitecluster/SQLite.cpp, BedrockServer.cpp. *)
From Verif Require Import Base Text_Spec Text_Model Schema_Model Addr_Model Place_Spec.

(** ** The regular expressions.  The first dots are greedy, so what follows is tried from the end of the text backwards: the last place of the
    text where it matches.  No dot matches a line feed, and the dollar is the end of the text or just before a last line feed. *)
Fixpoint last_match (f : bytes -> option bytes) (s : bytes) : option bytes :=
  match s with [] => f [] | _ :: s' => match last_match f s' with Some x => Some x | None => f s end end.
(** SREReplace (libstuff.cpp 3282-3321) of a text that has to match as a whole by one group; it stays as it is if it does not match *)
Definition extract (f : bytes -> option bytes) (s : bytes) : bytes :=
  let '(t, e) := match rev s with c :: r => if Ascii.eqb c LF then (rev r, [LF]) else (s, []) | [] => (s, []) end in
  if in_set LF t then s else match last_match f t with Some x => x ++ e | None => s end.
(** [(.*?);] *)
Fixpoint upto (d : ascii) (s : bytes) : option bytes :=
  match s with [] => None | c :: s' => if Ascii.eqb c d then Some [] else match upto d s' with Some x => Some (c :: x) | None => None end end.
(** [(\S+)] *)
Fixpoint solid (s : bytes) : bytes := match s with c :: s' => if is_space c then [] else c :: solid s' | [] => [] end.
Definition solid1 (s : bytes) : option bytes := match solid s with [] => None | w => Some w end.
Definition behind (p : bytes) (g : bytes -> option bytes) (s : bytes) : option bytes := if prefixb p s then g (skipn (length p) s) else None.
Definition either (f g : bytes -> option bytes) (s : bytes) : option bytes := match f s with Some x => Some x | None => g s end.
(** SQLite.cpp 421: part of db (table|index) (.*?); *)
Definition re_page : bytes -> option bytes := either (behind (lit "part of db table ") (upto ";")) (behind (lit "part of db index ") (upto ";")).
(** 429: conflict on (?:index|table) (\S+) *)
Definition re_row : bytes -> option bytes := either (behind (lit "conflict on index ") solid1) (behind (lit "conflict on table ") solid1).
(** 431: key=(\S+) *)
Definition re_key : bytes -> option bytes := behind (lit "key=") solid1.

Section Place.
  (** std::hash<string>, as a 64 bit integer *)
  Variable hash : bytes -> Z.
  (** _conflictIdentifier and _conflictLocation *)
  Definition place : Type := (Z * bytes)%type.
  (** 400-437: _sqliteLogCallback, as far as it is about conflicts *)
  Definition log_callback (p : place) (msg : bytes) : place :=
    match find_at (lit "automatic index on") msg with
    | Some _ => p
    | None =>
        if prefixb (lit "cannot commit") msg then
          match find_at (lit "conflict at page ") msg with
          | Some k => (SToInt64 (skipn (k + length (lit "conflict at page ")) msg), extract re_page msg)
          | None => p
          end
        else if prefixb (lit "write/write conflict on") msg || prefixb (lit "read/write conflict on") msg then
          let location := extract re_row msg in
          match find_at (lit "key=") msg with
          | Some _ => (hash (location ++ extract re_key msg), location)
          | None => (0%Z, location)
          end
        else p
    end.
  (** 1097-1098, 1109, 1136-1137: what is known after a commit that logged these messages *)
  Definition commit_place (msgs : list bytes) : place := fold_left log_callback msgs (0%Z, []).

  (** BedrockServer.cpp 805-814 with BedrockPlugin.cpp 88-91: the lock for the next try; [plugin]: what the plugin says, [previous]: the lock of
      this try.  0 is none (ConflictLockGuard.cpp 10-12). *)
  Definition next_lock (enabled : bool) (plugin : bytes -> bool) (previous : Z) (p : place) : Z :=
    if enabled then (if negb (prefixb (lit "journal") (snd p)) && plugin (snd p) then fst p else previous) else previous.
  (** The tries of one command, each with what its failed commit logged; 626: no lock at first *)
  Definition lock_after (enabled : bool) (plugin : bytes -> bool) (tries : list (list bytes)) : Z :=
    fold_left (fun previous msgs => next_lock enabled plugin previous (commit_place msgs)) tries 0%Z.
End Place.
