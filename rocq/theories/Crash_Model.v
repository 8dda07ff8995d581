(** Crash-inducing commands: BedrockServer.cpp 939-989, 1696-1699, 1732-1749, 2004-2015, 2037-2068 and
    BedrockCommand.h 255-286.  All uses of _crashCommands are under _crashCommandMutex. *)
From Verif Require Import Base Dec Text_Spec Text_Model Table Http_Model Http_Spec.

(** BedrockServer.h: map<string, set<STable>> _crashCommands.  The order inside a set is never observed: it is only
    gone through when it has one element.  Two tables are the same element if they have the same names, letter for
    letter, and the same values. *)
Definition crash := list (bytes * list stable).
Fixpoint table_eqb (a b : stable) : bool :=
  match a, b with
  | [], [] => true
  | (k, v) :: a', (k', v') :: b' => bytes_eqb k k' && bytes_eqb v v' && table_eqb a' b'
  | _, _ => false
  end.
Fixpoint lookup (m : bytes) (c : crash) : option (list stable) :=
  match c with [] => None | (m', l) :: c' => if bytes_eqb m m' then Some l else lookup m c' end.
Definition set_insert (t : stable) (l : list stable) : list stable := if existsb (table_eqb t) l then l else l ++ [t].
(** _crashCommands[m].insert(t), 1743 *)
Fixpoint add (m : bytes) (t : stable) (c : crash) : crash :=
  match c with
  | [] => [(m, [t])]
  | (m', l) :: c' => if bytes_eqb m m' then (m', set_insert t l) :: c' else (m', l) :: add m t c'
  end.

(** 939-989. *)
Fixpoint is_match (values : stable) (request : stable) : bool :=
  match values with
  | [] => true
  | (k, v) :: rest =>
      if ieqb k CL then is_match rest request
      else match tfind k request with
           | None => false
           | Some v' => if bytes_eqb v' v then is_match rest request else false
           end
  end.
Definition wouldCrash (c : crash) (m : bytes) (request : stable) : bool :=
  match lookup m c with
  | None => false
  | Some l => if Nat.ltb 1 (List.length l) then true else existsb (fun t => is_match t request) l
  end.

(** 1732-1749, CRASH_COMMAND with this content.  None: an exception or worse. *)
Definition crash_command (content : bytes) (c : crash) : option crash :=
  match SParseHTTP content with
  | Done _ m t _ => Some (add m t c)
  | Incomplete => Some c
  | Throws | Undefined => None
  end.

(** BedrockCommand.h:263-269 with 2009-2011: the values of those identifying names the request has; [keys] are the
    names plugins give, in the order of the map. *)
Definition emplace (k v : bytes) (t : stable) : stable := match tfind k t with Some _ => t | None => tput k v t end.
Definition identifying (request : stable) (keys : list bytes) : stable :=
  fold_left (fun t k => match tfind k request with Some v => emplace k v t | None => t end) keys [].
(** 2004-2015: the content of the report. *)
Definition crash_content (gz : bytes -> bytes) (m : bytes) (request : stable) (keys : list bytes) : option bytes :=
  SComposeHTTP gz m (identifying request keys) [].
Definition crash_message (gz : bytes -> bytes) (m : bytes) (request : stable) (keys : list bytes) : option bytes :=
  match crash_content gz m request keys with
  | Some w => SComposeHTTP gz (lit "CRASH_COMMAND") [(lit "timeout", lit "5000")] w
  | None => None
  end.
(** 2037-2053: what a node that logs in is sent, one message for each table. *)
Definition login_contents (gz : bytes -> bytes) (c : crash) : list (option bytes) :=
  flat_map (fun p => map (fun t => crash_content gz (fst p) t (map fst t)) (snd p)) c.
