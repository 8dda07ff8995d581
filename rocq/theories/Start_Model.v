(** The command line, files, plugins and the backup. *)
From Verif Require Import Base Text_Spec Text_Model Table Start_Spec.

(** ** libstuff/libstuff.cpp, 856-889: SParseCommandLine *)
(** [words] are argv[1] and on. [name] is the variable of that name, [t] is results. *)
Definition is_name (w : bytes) : bool := match w with c :: _ => Ascii.eqb c "-"%char | [] => false end. (* SStartsWith(argv[c], "-"), 863 *)
Fixpoint command_line (words : list bytes) (name : bytes) (t : stable) : stable :=
  match words with
  | [] => match name with [] => t | _ => tput name [] t end                      (* 883-886 *)
  | w :: rest =>
      match name with
      | [] => if is_name w then command_line rest w t else command_line rest [] t (* 864-868 *)
      | _ => if is_name w then command_line rest w (tput name [] t)               (* 871-874 *)
             else command_line rest [] (tput name w t)                            (* 875-879 *)
      end
  end.
Definition SParseCommandLine (words : list bytes) : stable := command_line words [] [].

(** SETDEFAULT, main.cpp: a default is put only if the option is not set. *)
Definition set_default (n v : bytes) (t : stable) : stable := match tfind n t with Some _ => t | None => tput n v t end.

(** ** Files: libstuff.cpp, 2491-2660 *)
(** What can go wrong with one file that is read and one that is written: opening either; reading more than so many
    bytes; storing more than so many bytes. *)
Record faults := Faults { no_read : bool; no_write : bool; read_stop : option nat; room : option nat }.
Definition fine : faults := Faults false false None None.
Definition upto (n : option nat) (b : bytes) : bytes := match n with Some n => firstn n b | None => b end.
Definition fits (n : option nat) (b : bytes) : bool := match n with Some n => length b <=? n | None => true end.

Definition put (p : bytes) (v : option bytes) (f : files) : files := fun q => if bytes_eqb q p then v else f q.
Definition readable (d : faults) (p : bytes) (f : files) : option bytes := if no_read d then None else f p.

(** 2491: stat *)
Definition SFileExists (p : bytes) (f : files) : bool := match f p with Some _ => true | None => false end.

(** A file that is written through stdio: what reached the disk and what waits in the buffer. Simplified: a write that
    does not fit in the buffer makes everything go to the disk. *)
Record stream := Stream { stored : bytes; waiting : bytes }.

Section Stdio.
Variable bufsize : nat. (* of stdio *)
Variable block : nat.   (* of buf, 32 K in 2512 and 64 K in 2578 *)

Definition flush (r : option nat) (s : stream) : bool * stream :=
  (fits r (stored s ++ waiting s), Stream (upto r (stored s ++ waiting s)) []).
(** fwrite: whether all was taken *)
Definition fwrite (r : option nat) (b : bytes) (s : stream) : bool * stream :=
  if length (waiting s ++ b) <=? bufsize then (true, Stream (stored s) (waiting s ++ b)) else flush r (Stream (stored s) (waiting s ++ b)).
(** fclose, whose result nobody looks at (2518, 2544, 2621): what the file is at the end *)
Definition fclose (r : option nat) (s : stream) : bytes := stored (snd (flush r s)).

(** 2514-2520: the loop of SFileLoad. [todo] is what fread can still give. *)
Fixpoint load_loop (fuel : nat) (todo buffer : bytes) : bytes :=
  match fuel with
  | 0 => buffer
  | S k => match firstn block todo with [] => buffer | r => load_loop k (skipn block todo) (buffer ++ r) end
  end.
(** 2502-2525 *)
Definition SFileLoad (d : faults) (p : bytes) (f : files) : bool * bytes :=
  match readable d p f with
  | None => (false, [])
  | Some c => (true, load_loop (S (length c)) (upto (read_stop d) c) [])
  end.

(** 2536-2552 *)
Definition SFileSave (d : faults) (p b : bytes) (f : files) : bool * files :=
  if no_write d then (false, f) else
  let (ok, s) := fwrite (room d) b (Stream [] []) in
  if ok then (true, put p (Some (fclose (room d) s)) f) else (false, put p None f).

(** 2585-2605: the loop of SFileCopy *)
Fixpoint copy_loop (r : option nat) (fuel : nat) (todo : bytes) (s : stream) : bool * stream :=
  match fuel with
  | 0 => (true, s)
  | S k =>
      match firstn block todo with
      | [] => (true, s)
      | b => let (ok, s') := fwrite r b s in if ok then copy_loop r k (skipn block todo) s' else (false, s')
      end
  end.
(** 2555-2627. Opening the target for writing empties it (2570) before anything is read. A read error is only logged
    (2608-2609). *)
Definition SFileCopy (d : faults) (from to : bytes) (f : files) : bool * files :=
  match readable d from f with
  | None => (false, f)
  | Some _ =>
      if no_write d then (false, f) else
      let f' := put to (Some []) f in
      let c := match f' from with Some c => c | None => [] end in
      let (ok, s) := copy_loop (room d) (S (length c)) (upto (read_stop d) c) (Stream [] []) in
      (ok, put to (Some (fclose (room d) s)) f')
  end.

(** 2630-2642 *)
Definition SFileDelete (p : bytes) (f : files) : bool * files :=
  if SFileExists p f then (true, put p None f) else (false, f).

(** ** main.cpp, 61-87: BackupDB. [None]: SASSERT stops the program. [d]: the faults of each of the copies. *)
Definition BACKUP_DIR : bytes := lit "/var/tmp/".
(** basename: what is behind the last slash *)
Fixpoint base_name (p : bytes) : bytes :=
  match p with
  | [] => []
  | c :: r => if existsb (Ascii.eqb "/"%char) r then base_name r else if Ascii.eqb c "/"%char then r else p
  end.
Definition backup_file (d : faults) (p : bytes) (f : files) : option files :=
  let (ok, f') := SFileCopy d p (BACKUP_DIR ++ base_name p) f in if ok then Some f' else None.
Definition backup_if (d : faults) (p : bytes) (f : files) : option files := (* 70-76, 79-85 *)
  if SFileExists p f then backup_file d p f else Some f.
Definition BackupDB (d0 d1 d2 : faults) (db : bytes) (f : files) : option files :=
  match backup_file d0 db f with
  | None => None
  | Some f0 => match backup_if d1 (db ++ lit "-wal") f0 with None => None | Some f1 => backup_if d2 (db ++ lit "-shm") f1 end
  end.
End Stdio.

(** main.cpp, 340-349: -clean *)
Definition clean (db : bytes) (f : files) : files :=
  fold_left (fun f s => put (db ++ s) None f) [[]; lit "-pagemap"; lit "-wal2"; lit "-wal"; lit "-shm"] f.

(** ** main.cpp, 89-157: loadPlugins *)
Fixpoint find_from (c : ascii) (b : bytes) : option nat :=
  match b with [] => None | d :: b' => if Ascii.eqb c d then Some 0 else match find_from c b' with Some n => Some (S n) | None => None end end.
Fixpoint rfind (c : ascii) (b : bytes) : option nat :=
  match b with
  | [] => None
  | d :: b' => match rfind c b' with Some n => Some (S n) | None => if Ascii.eqb c d then Some 0 else None end
  end.
(** 124-126. npos + 1 is 0, and a search from npos finds nothing. *)
Definition plugin_base (p : bytes) : bytes :=
  match rfind "/"%char p with
  | None => p
  | Some i => let rest := skipn i p in
              match find_from "."%char rest with Some n => firstn (n - 1) (skipn 1 rest) | None => skipn 1 rest end
  end.
Definition built_in : list bytes := [lit "DB"; lit "JOBS"; lit "CACHE"; lit "MYSQL"; lit "COMPRESSION"].
Definition known (n : bytes) (l : list bytes) : bool := existsb (bytes_eqb n) l.
(** SEndsWith(pluginName, ".so"), 137 *)
Definition ends_so (p : bytes) : bool := (3 <=? length p) && bytes_eqb (skipn (length p - 3) p) (lit ".so").
Definition library (p : bytes) : bytes := if ends_so p then p else p ++ lit ".so".
(** The loop. [found file symbol]: dlopen finds the file and dlsym the symbol in it. [registered]: the keys of
    g_registeredPluginList; [names]: postProcessedNames. *)
Definition upper_bytes (b : bytes) : bytes := map upper b.
Definition symbol (n : bytes) : bytes := lit "BEDROCK_PLUGIN_REGISTER_" ++ upper_bytes n.
Fixpoint load_plugins (found : bytes -> bytes -> bool) (l registered names : list bytes) : list bytes * list bytes :=
  match l with
  | [] => (registered, names)
  | p :: l' =>
      if known (upper_bytes p) registered then load_plugins found l' registered (if known (upper_bytes p) names then names else upper_bytes p :: names) (* 113-116 *)
      else
        let n := plugin_base p in
        if known (upper_bytes n) names then load_plugins found l' registered names                                  (* 130-133 *)
        else
          let names' := upper_bytes n :: names in
          if found (library p) (symbol n)
          then load_plugins found l' (if known (upper_bytes n) registered then registered else upper_bytes n :: registered) names' (* emplace, 151 *)
          else load_plugins found l' registered names'
  end.
