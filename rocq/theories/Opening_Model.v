(** Model of opening a database: sqlitecluster/SQLite.cpp 62-116, 200-274, 447-460, 1329-1347 and libstuff/libstuff.cpp 3134-3157.
    A process that is killed is modelled by the number of writes to sqlite_master it gets to do; each is a transaction of its own.
    Numbers are unbounded here. *)
From Verif Require Import Base Dec Opening_Spec.

Inductive opened := Done (d : database) (names : list bytes) | Aborted (d : database) | Killed (d : database).

(** SQLite.cpp 207-213, 224-230: snprintf with "journal%04i"; the number is -1 for 0 *)
Definition table_name (k : nat) : bytes :=
  match k with 0 => lit "journal" | S n => lit "journal" ++ (let d := dec (N.of_nat n) in repeat "0"%char (4 - length d) ++ d) end.
(** 214 *)
Definition table_sql (n : bytes) : bytes := lit "CREATE TABLE " ++ n ++ lit " ( id INTEGER PRIMARY KEY, query TEXT, hash TEXT )".
(** libstuff.cpp 3138, 3155: SELECT * FROM sqlite_master WHERE tbl_name=... *)
Definition with_table (n : bytes) (d : database) : option entry := List.find (fun e => bytes_eqb (tbl e) n) (master d).
Definition has_name (n : bytes) (d : database) : bool := existsb (fun e => bytes_eqb (ename e) n) (master d).
Definition add_entry (e : entry) (d : database) : database := Database (master d ++ [e]) (content d).

(** SQLite.cpp 206-217 with SQVerifyTable.  [w]: writes until the process is killed; [inl]: the database and the writes that are left *)
Fixpoint create (w : nat) (ks : list nat) (d : database) : (database * nat) + opened :=
  match ks with
  | [] => inl (d, w)
  | k :: ks' =>
      let n := table_name k in
      match with_table n d with
      | Some e => if bytes_eqb (sql e) (table_sql n) then create w ks' d else inr (Aborted d)
      | None => if has_name n d then inr (Aborted d)
                else match w with 0 => inr (Killed d) | S w' => create w' ks' (add_entry (Entry (lit "table") n n (table_sql n)) d) end
      end
  end.

(** 219-238.  The loop ends: the names are all different.  [fuel]: more than there are rows *)
Fixpoint find_journals (fuel k : nat) (d : database) : list bytes :=
  match fuel with
  | 0 => []
  | S f => match with_table (table_name k) d with Some _ => table_name k :: find_journals f (S k) d | None => [] end
  end.

(** 240-247 *)
Definition view_sql (names : list bytes) : bytes :=
  lit "CREATE VIEW journalEntries AS " ++
  fold_left (fun q n => (match q with [] => [] | _ => q ++ lit " UNION ALL " end) ++ lit "SELECT id, query, hash FROM " ++ n) names [].
Definition is_view (e : entry) : bool := bytes_eqb (ename e) (lit "journalEntries").
Definition view_entry (names : list bytes) : entry := Entry (lit "view") (lit "journalEntries") (lit "journalEntries") (view_sql names).
(** 249-273.  A view of no tables is an error. *)
Definition update_view (w : nat) (names : list bytes) (d : database) : opened :=
  match filter is_view (master d) with
  | [] => match names with
          | [] => Aborted d
          | _ => match w with 0 => Killed d | S _ => Done (add_entry (view_entry names) d) names end
          end
  | [e] => if negb (bytes_eqb (kind e) (lit "view")) then Aborted d
           else if bytes_eqb (sql e) (view_sql names) then Done d names
           else match names with
                | [] => Aborted d
                | _ => match w with 0 => Killed d
                       | S _ => Done (Database (filter (fun e => negb (is_view e)) (master d) ++ [view_entry names]) (content d)) names end
                end
  | _ => Aborted d
  end.

(** 200-274: initializeJournal *)
Definition initializeJournal (w : nat) (least : Z) (d : database) : opened :=
  if negb (least <? 10000)%Z then Aborted d
  else match create w (seq 0 (Z.to_nat (least + 2))) d with
       | inr o => o
       | inl (d', w') => update_view w' (find_journals (S (length (master d'))) 0 d') d'
       end.

(** 93-97: the largest number in the journals *)
Definition all_rows (names : list bytes) (d : database) : list jrow := flat_map (content d) names.
Definition commit_count (names : list bytes) (d : database) : nat := fold_left Nat.max (map fst (all_rows names d)) 0.
(** 1329-1347: getCommit.  Of several rows with the number the first is taken here. *)
Definition getCommit (names : list bytes) (d : database) (id : nat) : option (bytes * bytes) :=
  match List.find (fun r => Nat.eqb (fst r) id) (all_rows names d) with Some r => Some (snd r) | None => None end.
(** 62-116: None: a commit without a hash, which ends the process *)
Definition load (names : list bytes) (d : database) : option process :=
  let c := commit_count names d in
  let h := match getCommit names d c with Some (_, h) => h | None => [] end in
  if negb (Nat.eqb c 0) && bytes_eqb h [] then None else Some (Process names c h).

(** A database and the process on it *)
Definition start (w : nat) (least : Z) (d : database) : database * option process :=
  match initializeJournal w least d with
  | Done d' names => (d', load names d')
  | Aborted d' | Killed d' => (d', None)
  end.
Definition set_rows (n : bytes) (l : list jrow) (d : database) : database :=
  Database (master d) (fun m => if bytes_eqb m n then l else content d m).
(** 935, 1057, 1156-1162: a commit, in the journal [j] modulo their number; 956: rows are removed *)
Definition happen (s : database * option process) (e : event) : database * option process :=
  let (d, p) := s in
  match e, p with
  | Start least w, _ => start w least d
  | Commit j q h, Some p =>
      let n := nth (j mod length (pnames p)) (pnames p) [] in
      let c := S (pcount p) in
      (set_rows n (content d n ++ [(c, (q, h))]) d, Some (Process (pnames p) c h))
  | Trim j oldest gone, Some p =>
      let n := nth (j mod length (pnames p)) (pnames p) [] in
      (set_rows n (filter (fun r => negb (Nat.ltb (fst r) oldest && existsb (Nat.eqb (fst r)) gone)) (content d n)) d, Some p)
  | Schema e, Some p => (add_entry e d, Some p)
  | _, None => (d, None)
  end.
Definition happens (es : list event) : database * option process := fold_left happen es (new_database, None).
