(** Model of the jobs plugin (/repo/plugins/Jobs.cpp).

    The jobs table is a list of rows, in the order SQLite happens to visit them; the command
    [CShuffle] lets that order change arbitrarily between commands, because SQL does not fix it.
    What SQLite computes (GLOB, DATETIME, STRFTIME, JSON_PATCH) is a parameter: the record [sql].
    A command that throws is rolled back by BedrockCore (BedrockCore.cpp 438-476), so it leaves
    the table unchanged.  Simplifications: times are whole seconds (the code stores milliseconds
    in firstRun), a time a client supplies is empty or well formed, and of the JSON data only the
    members the plugin looks at are kept apart. *)
Require Import List ZArith NArith Bool Ascii.
Require Import Verif.Base Verif.Dec Verif.Text_Model Verif.Jobs_Spec.
Import ListNotations.
Open Scope Z_scope.

(** What SQLite and the operator's blacklist compute. *)
Record sql := mkSql {
  q_glob : bytes -> bytes -> bool;           (* name GLOB pattern: pattern, name *)
  q_datetime : bytes -> Z -> option Z;       (* DATETIME(t, modifier); None is NULL *)
  q_hour : Z -> Z;                           (* STRFTIME('%Y-%m-%d %H:00:00', t) *)
  q_canned : bytes -> Z -> Z;                (* the HOURLY / DAILY / WEEKLY expressions, Jobs.cpp 1487-1495 *)
  q_valid_mod : bytes -> bool;               (* SIsValidSQLiteDateModifier, libstuff.cpp 3189 *)
  q_patch : jdata -> jdata -> jdata;         (* JSON_PATCH(data, new) *)
  q_crashed : bytes -> bool                  (* name matches a CrashBedrockJob pattern *)
}.

(** ** Rows *)
(* single-column UPDATEs *)
Definition with_state (s : jstate) (j : job) : job :=
  mkJob (j_id j) s (j_name j) (j_next j) (j_last j) (j_repeat j) (j_data j) (j_prio j) (j_parent j) (j_retry j) (j_created j).
Definition with_name (n : bytes) (j : job) : job :=
  mkJob (j_id j) (j_state j) n (j_next j) (j_last j) (j_repeat j) (j_data j) (j_prio j) (j_parent j) (j_retry j) (j_created j).
Definition with_next (t : option Z) (j : job) : job :=
  mkJob (j_id j) (j_state j) (j_name j) t (j_last j) (j_repeat j) (j_data j) (j_prio j) (j_parent j) (j_retry j) (j_created j).
Definition with_last (t : option Z) (j : job) : job :=
  mkJob (j_id j) (j_state j) (j_name j) (j_next j) t (j_repeat j) (j_data j) (j_prio j) (j_parent j) (j_retry j) (j_created j).
Definition with_repeat (r : bytes) (j : job) : job :=
  mkJob (j_id j) (j_state j) (j_name j) (j_next j) (j_last j) r (j_data j) (j_prio j) (j_parent j) (j_retry j) (j_created j).
Definition with_data (d : jdata) (j : job) : job :=
  mkJob (j_id j) (j_state j) (j_name j) (j_next j) (j_last j) (j_repeat j) d (j_prio j) (j_parent j) (j_retry j) (j_created j).
Definition with_prio (p : option Z) (j : job) : job :=
  mkJob (j_id j) (j_state j) (j_name j) (j_next j) (j_last j) (j_repeat j) (j_data j) p (j_parent j) (j_retry j) (j_created j).
(* JSON_SET / JSON_REMOVE of $.retryAfterCount, JSON_SET of $.originalNextRun *)
Definition set_count (c : Z) (d : jdata) : jdata := mkData (d_mock d) c (d_orig d) (d_rest d).
Definition set_orig (t : option Z) (d : jdata) : jdata := mkData (d_mock d) (d_count d) t (d_rest d).
Definition set_mock (b : bool) (d : jdata) : jdata := mkData b (d_count d) (d_orig d) (d_rest d).

Definition table := list job.
(* UPDATE jobs SET ... WHERE p *)
Definition update (p : job -> bool) (f : job -> job) (t : table) : table := map (fun j => if p j then f j else j) t.
(* WHERE jobID = id *)
Definition is_id (id : N) (j : job) : bool := N.eqb (j_id j) id.
Definition update_id (id : N) (f : job -> job) (t : table) : table := update (is_id id) f t.
(* SELECT ... WHERE jobID = id *)
Definition lookup (id : N) (t : table) : option job := find (is_id id) t.
(* state IN (...) *)
Definition in_states (l : list jstate) (j : job) : bool := existsb (jstate_eqb (j_state j)) l.
(* WHERE parentJobID != 0 AND parentJobID = p *)
Definition is_child (p : N) (j : job) : bool := negb (N.eqb (j_parent j) 0) && N.eqb (j_parent j) p.
(* _hasPendingChildJobs, Jobs.cpp 1600-1614 *)
Definition has_pending (p : N) (t : table) : bool :=
  existsb (fun j => is_child p j && in_states [QUEUED; RUNQUEUED; RUNNING; PAUSED] j) t.

(** ** _constructNextRunDATETIME, Jobs.cpp 1480-1596 *)
(* "" | an SQL expression that evaluates to NULL | one that evaluates to a time *)
Inductive next_result := NoRepeat | NullTime | At (t : Z).

(* applyModifiers, 1526-1555: None is the syntax error ""; the inner option is the SQL value *)
Fixpoint apply_mods (Q : sql) (parts : list bytes) (v : option Z) : option (option Z) :=
  match parts with
  | [] => Some v
  | p :: r =>
      if bytes_eqb (SToUpper p) (lit "START OF HOUR") then apply_mods Q r (option_map (q_hour Q) v)
      else if negb (q_valid_mod Q p) then None
      else apply_mods Q r (match v with Some t => q_datetime Q p t | None => None end)
  end.

(* REPEAT_REANCHOR_THRESHOLD_SECONDS, Jobs.h *)
Definition reanchor_threshold : Z := 14400.
(* fixedInterval, 1578-1584 *)
Definition fixed_part (p : bytes) : bool :=
  match p with c :: _ => Ascii.eqb c "+" || Ascii.eqb c "-" | [] => false end.
(* 1558-1595: the re-anchoring of a SCHEDULED repeat; [t] is the modified base time *)
Definition reanchor (Q : sql) (parts : list bytes) (scheduled now t : Z) : Z :=
  let interval := t - scheduled in
  let behind := now - scheduled in
  if (t <=? now) && (0 <? interval) && (interval <? reanchor_threshold) && forallb fixed_part parts
  then scheduled + (Z.quot behind interval + 1) * interval
  else t.

(* the part after the canned names, 1497-1595 *)
Definition next_parts (Q : sql) (parts : list bytes) (scheduled last : option Z) (now : Z) : next_result :=
  match parts with
  | base :: m0 :: ms =>
      let mods := m0 :: ms in
      let start := if bytes_eqb base (lit "SCHEDULED") then Some scheduled
                   else if bytes_eqb base (lit "STARTED") then Some last
                   else if bytes_eqb base (lit "FINISHED") then Some (Some now) else None in
      match start with
      | None => NoRepeat
      | Some v =>
          match apply_mods Q mods v with
          | None => NoRepeat
          | Some None => NullTime
          | Some (Some t) =>
              if bytes_eqb base (lit "SCHEDULED")
              then match scheduled with
                   | Some s => At (reanchor Q mods s now t)
                   | None => NullTime
                   end
              else At t
          end
      end
  | _ => NoRepeat
  end.

Definition next_run (Q : sql) (rep : bytes) (scheduled last : option Z) (now : Z) : next_result :=
  match rep with
  | [] => NoRepeat
  | _ => if ieqb rep (lit "HOURLY") || ieqb rep (lit "DAILY") || ieqb rep (lit "WEEKLY")
         then At (q_canned Q (SToUpper rep) now)
         else next_parts Q (SParseList (SToUpper rep) ",") scheduled last now
  end.
(* _validateRepeat, Jobs.h 53-56 *)
Definition valid_repeat (Q : sql) (rep : bytes) : bool :=
  match next_run Q rep None None 0 with NoRepeat => false | _ => true end.
(* SToUpper(repeat).find("SCHEDULED") != npos, Jobs.cpp 970, 1244 *)
Fixpoint starts_with (s p : bytes) : bool :=
  match p, s with
  | [], _ => true
  | c :: p', d :: s' => Ascii.eqb c d && starts_with s' p'
  | _, [] => false
  end.
Fixpoint contains (s p : bytes) : bool :=
  starts_with s p || match s with [] => false | _ :: s' => contains s' p end.
Definition is_scheduled (rep : bytes) : bool := contains (SToUpper rep) (lit "SCHEDULED").

(** ** Results *)
Inductive reply := ROk | RIds (l : list N) | RErr | RCrash.
Inductive result := Ok (t : table) (r : reply) | Err | Crash.

(* _validatePriority, Jobs.cpp 1616-1627 *)
Definition valid_prio (p : Z) : bool := existsb (Z.eqb p) [0; 250; 500; 750; 850; 1000].

(** ** CreateJob / CreateJobs *)
Record create_req := mkCreate {
  c_name : bytes;
  c_data : jdata;            (* {} when none was given; mockRequest already added, 552-563 *)
  c_first : option Z;        (* firstRun; None: now *)
  c_repeat : bytes;
  c_prio : Z;                (* 500 when none was given *)
  c_unique : bool;
  c_overwrite : bool;        (* absent, "true" or "" *)
  c_parent : N;
  c_retry : bytes;
  c_mock : bool;             (* mockRequest when the command is processed *)
  c_new : N                  (* what SQLiteUtils::getRandomID returns *)
}.

Definition data_eqb (a b : jdata) : bool :=
  Bool.eqb (d_mock a) (d_mock b) && Z.eqb (d_count a) (d_count b)
  && match d_orig a, d_orig b with Some x, Some y => Z.eqb x y | None, None => true | _, _ => false end
  && bytes_eqb (d_rest a) (d_rest b).

(* WHERE name = ... AND JSON_EXTRACT(data, '$.mockRequest') IS [NOT] NULL, 384-390 and 571-577 *)
Definition same_job (r : create_req) (j : job) : bool :=
  bytes_eqb (j_name j) (c_name r) && Bool.eqb (d_mock (j_data j)) (c_mock r).
(* peek's check that an existing unique child keeps its parent, 397-399 *)
Definition peek_create (t : table) (r : create_req) : bool :=
  negb (c_unique r)
  || match find (same_job r) t with
     | Some j => N.eqb (j_parent j) 0 || N.eqb (j_parent j) (c_parent r)
     | None => true
     end.
(* mocked jobs never repeat, 553-554 *)
Definition c_rep (r : create_req) : bytes := if c_mock r then [] else c_repeat r.
(* the parent checks, 624-652 *)
Definition parent_ok (t : table) (r : create_req) : bool :=
  N.eqb (c_parent r) 0
  || match lookup (c_parent r) t with
     | None => false
     | Some p => in_states [RUNNING; RUNQUEUED; PAUSED] p && Bool.eqb (c_mock r) (d_mock (j_data p)) && N.eqb (j_parent p) 0
     end.
(* initialState, 679-685 *)
Definition initial_state (t : table) (r : create_req) : jstate :=
  if N.eqb (c_parent r) 0 then QUEUED
  else match lookup (c_parent r) t with
       | Some p => if in_states [RUNNING; RUNQUEUED] p then PAUSED else QUEUED
       | None => QUEUED
       end.
Definition new_row (t : table) (now : Z) (r : create_req) : job :=
  mkJob (c_new r) (initial_state t r) (c_name r)
        (Some match c_first r with Some x => x | None => now end)
        None (SToUpper (c_rep r)) (c_data r) (Some (c_prio r)) (c_parent r) (c_retry r) now.

(* one job of CreateJob(s), 546-719; None: it throws.  The number is the jobID returned. *)
Definition create_one (Q : sql) (now : Z) (r : create_req) (t : table) : option (table * N) :=
  let existing := if c_unique r then find (same_job r) t else None in
  match existing with
  | Some j =>
      if data_eqb (j_data j) (c_data r) then Some (t, j_id j)
      else if (match c_rep r with [] => false | _ => negb (valid_repeat Q (c_rep r)) end) then None
      else if negb (valid_prio (c_prio r)) then None
      else if negb (parent_ok t r) then None
      else if c_overwrite r
           then Some (update_id (j_id j) (fun x => with_repeat (SToUpper (c_rep r))
                                                   (with_data (q_patch Q (j_data x) (c_data r))
                                                   (with_prio (Some (c_prio r)) x))) t, j_id j)
           else Some (t, j_id j)
  | None =>
      if (match c_rep r with [] => false | _ => negb (valid_repeat Q (c_rep r)) end) then None
      else if negb (valid_prio (c_prio r)) then None
      else if negb (parent_ok t r) then None
      else Some (t ++ [new_row t now r], c_new r)
  end.
Fixpoint create_list (Q : sql) (now : Z) (l : list create_req) (t : table) : option (table * list N) :=
  match l with
  | [] => Some (t, [])
  | r :: l' =>
      match create_one Q now r t with
      | None => None
      | Some (t1, id) => match create_list Q now l' t1 with
                         | None => None
                         | Some (t2, ids) => Some (t2, id :: ids)
                         end
      end
  end.
(* peek 296-416 checks every job first, then process 526-726 creates them in order *)
Definition create_jobs (Q : sql) (now : Z) (l : list create_req) (t : table) : result :=
  if negb (forallb (peek_create t) l) then Err
  else match create_list Q now l t with None => Err | Some (t', ids) => Ok t' (RIds ids) end.

(** ** GetJob / GetJobs *)
Record get_req := mkGet {
  g_names : list bytes;       (* SParseList(name) *)
  g_pattern : bytes;          (* the name as given *)
  g_num : Z;                  (* calc("numResults"), 0 when absent *)
  g_prio : option Z;          (* jobPriority *)
  g_mock : bool               (* mockRequest or getMockedJobs *)
}.
(* SQL comparison now >= nextRun; an empty string sorts before every time *)
Definition is_due (now : Z) (j : job) : bool := match j_next j with None => true | Some x => x <=? now end.
(* (nameList.size() > 1 ? IN (...) : GLOB ...), Jobs.cpp 752 *)
Definition name_match (Q : sql) (g : get_req) (j : job) : bool :=
  if Nat.ltb 1 (List.length (g_names g)) then existsb (bytes_eqb (j_name j)) (g_names g)
  else q_glob Q (g_pattern g) (j_name j).
(* the WHERE clause, 748-754, without the priority *)
Definition eligible (Q : sql) (now : Z) (g : get_req) (j : job) : bool :=
  in_states [QUEUED; RUNQUEUED] j && is_due now j && name_match Q g j && (g_mock g || negb (d_mock (j_data j))).
Definition has_prio (p : Z) (j : job) : bool := match j_prio j with Some x => Z.eqb x p | None => false end.

(* ORDER BY: SQLite's sorter keeps the incoming order of rows with equal keys *)
Fixpoint insert_by (le : job -> job -> bool) (x : job) (l : list job) : list job :=
  match l with
  | [] => [x]
  | y :: r => if le x y then x :: l else y :: insert_by le x r
  end.
Definition order_by (le : job -> job -> bool) (l : list job) : list job := fold_right (insert_by le) [] l.
(* nextRun ASC *)
Definition le_next (a b : job) : bool :=
  match j_next a, j_next b with None, _ => true | Some _, None => false | Some x, Some y => x <=? y end.
(* priority DESC *)
Definition prio_of (j : job) : Z := match j_prio j with Some x => x | None => 0 end.
Definition ge_prio (a b : job) : bool := prio_of b <=? prio_of a.

(* max(numResults, 1), 739 *)
Definition limit (g : get_req) : nat := Z.to_nat (Z.max (g_num g) 1).
(* one inner query, 761-770 *)
Definition query (Q : sql) (now : Z) (g : get_req) (t : table) (p : Z) : list job :=
  firstn (limit g) (order_by le_next (filter (fun j => eligible Q now g j && has_prio p j) t)).
(* selectQuery, 744-826 *)
Definition select (Q : sql) (now : Z) (g : get_req) (t : table) : list job :=
  match g_prio g with
  | Some p => query Q now g t p
  | None => firstn (limit g) (order_by ge_prio (flat_map (query Q now g t) [1000; 850; 750; 500; 250; 0]))
  end.

(* SStartsWith(name, "manual"), 972 *)
Definition is_manual (j : job) : bool := starts_with (j_name j) (lit "manual").
(* SQL MIN(a, b) / one argument; NULL if either is *)
Definition retry_time (ra : option Z) (rep : next_result) : option Z :=
  match ra, rep with
  | None, _ => None
  | Some a, NoRepeat => Some a
  | Some _, NullTime => None
  | Some a, At b => Some (Z.min a b)
  end.
(* what happens to one retriable job, 953-998; [sel] is the row as selected *)
Definition take_retriable (Q : sql) (now : Z) (sel j : job) : job :=
  if 10 <=? d_count (j_data sel) then with_state FAILED j
  else
    match retry_time (q_datetime Q (j_retry sel) now) (next_run Q (j_repeat sel) (j_next sel) (Some now) now) with
    | None => with_state FAILED j                                 (* _handleFailedRetryAfterQuery, 986-996 *)
    | Some x =>
        let d := if is_manual sel then j_data j
                 else let d1 := set_count (d_count (j_data j) + 1) (j_data j) in
                      if is_scheduled (j_repeat sel) then set_orig (j_next sel) d1 else d1 in
        with_data d (with_next (Some x) (with_last (Some now) (with_state RUNQUEUED j)))
    end.
(* the loop over retriableJobs, 951-999 *)
Fixpoint take_all (Q : sql) (now : Z) (l : list job) (t : table) : table :=
  match l with
  | [] => t
  | j :: r => take_all Q now r (update_id (j_id j) (take_retriable Q now j) t)
  end.
(* jobID IN (SQList(...)) *)
Definition in_ids (l : list N) (j : job) : bool := existsb (N.eqb (j_id j)) l.
Definition is_retriable (j : job) : bool := match j_retry j with [] => false | _ => true end.

(* GetJob(s) process, 729-1018; GetJob is the case numResults absent (limit 1) *)
Definition get_jobs (Q : sql) (now : Z) (g : get_req) (t : table) : result :=
  match select Q now g t with
  | [] => Err                                                       (* 404 No job found *)
  | sel =>
      let crashed := filter (fun j => q_crashed Q (j_name j)) sel in
      let rest := filter (fun j => negb (q_crashed Q (j_name j))) sel in
      let t1 := update (in_ids (map j_id crashed)) (with_state FAILED) t in
      let plain := filter (fun j => negb (is_retriable j)) rest in
      let t2 := update (in_ids (map j_id plain)) (fun j => with_last (Some now) (with_state RUNNING j)) t1 in
      let t3 := take_all Q now (filter is_retriable rest) t2 in
      Ok t3 (RIds (map j_id (filter (fun j => d_count (j_data j) <? 10) rest)))
  end.

(** ** UpdateJob, 1020-1093 *)
Record update_req := mkUpdate {
  u_id : N;
  u_data : jdata;
  u_repeat : bytes;           (* "" when absent *)
  u_clear : bool;             (* shouldClearRepeat *)
  u_next : option Z;          (* nextRun *)
  u_prio : option Z
}.
Definition update_job (Q : sql) (now : Z) (r : update_req) (t : table) : result :=
  if (match u_repeat r with [] => false | _ => negb (valid_repeat Q (u_repeat r)) end) then Err
  else if (match u_prio r with Some p => negb (valid_prio p) | None => false end) then Err
  else
    match lookup (u_id r) t with
    | None => Err
    | Some j =>
        let next := match u_next r with
                    | Some x => At x
                    | None => next_run Q (u_repeat r) (j_next j) (j_last j) now
                    end in
        let set_rest x :=
          let x1 := with_data (set_mock (d_mock (j_data j)) (u_data r)) x in
          let x2 := if u_clear r then with_repeat [] x1
                    else match u_repeat r with [] => x1 | rep => with_repeat (SToUpper rep) x1 end in
          match u_prio r with Some p => with_prio (Some p) x2 | None => x2 end in
        match next with
        | NullTime => Err                                          (* NOT NULL constraint *)
        | NoRepeat => Ok (update_id (u_id r) set_rest t) ROk
        | At x => Ok (update_id (u_id r) (fun j' => with_next (Some x) (set_rest j')) t) ROk
        end
    end.

(** ** RetryJob / FinishJob, 1095-1327 *)
Record finish_req := mkFinish {
  f_retry : bool;             (* true: RetryJob, false: FinishJob *)
  f_id : N;
  f_data : option jdata;
  f_delete : bool;            (* data.delete is "true" *)
  f_name : bytes;
  f_prio : option bytes;      (* jobPriority as given *)
  f_next : option Z;
  f_delay : Z;
  f_ignore : bool             (* ignoreRepeat *)
}.
(* is the text an integer literal?  (INTEGER affinity stores any other text unchanged) *)
Definition digit (c : ascii) : bool := within "0" c "9".
Definition int_text (s : bytes) : bool :=
  match s with
  | [] => false
  | c :: r => if Ascii.eqb c "-" || Ascii.eqb c "+" then negb (match r with [] => true | _ => false end) && forallb digit r
              else forallb digit s
  end.
Definition stored_prio (s : bytes) : option Z := if int_text s then Some (SToInt64 s) else None.
(* "+" + SToStr(delay) + " SECONDS" *)
Definition delay_mod (d : Z) : bytes := lit "+" ++ dec (Z.to_N d) ++ lit " SECONDS".

(* the part of finish after the pending-children case, 1222-1326; [j] is the row as first read,
   [rep] the repeat after data.delete was looked at *)
Definition finish_tail (Q : sql) (now : Z) (r : finish_req) (j : job) (rep : bytes) (t : table) : result :=
  let id := f_id r in
  if f_retry r && (match f_prio r with Some p => negb (valid_prio (SToInt64 p)) | None => false end) then Err
  else
    let t1 := if f_retry r
              then update_id id (fun x => let x1 := match f_name r with [] => x | n => with_name n x end in
                                          match f_prio r with Some p => with_prio (stored_prio p) x1 | None => x1 end) t
              else t in
    let next :=
      match rep, f_ignore r with
      | _ :: _, false =>
          Some (next_run Q rep (if is_retriable j && is_scheduled rep then d_orig (j_data j) else j_next j) (j_last j) now)
      | _, _ =>
          if f_retry r
          then match f_next r with
               | Some x => Some (At x)
               | None => if f_delay r <? 0 then None
                         else match next_parts Q [lit "FINISHED"; delay_mod (f_delay r)] (j_next j) (j_last j) now with
                              | NoRepeat => None
                              | n => Some n
                              end
               end
          else Some NoRepeat
      end in
    match next with
    | None => Err                                                    (* 402 *)
    | Some NullTime => Err                                           (* NOT NULL constraint *)
    | Some (At x) => Ok (update_id id (fun y => with_state QUEUED (with_next (Some x) y)) t1) ROk
    | Some NoRepeat =>
        if f_retry r then Crash                                      (* SASSERT, 1292 *)
        else if negb (N.eqb (j_parent j) 0)
        then let t2 := update_id id (with_state FINISHED) t1 in
             Ok (if has_pending (j_parent j) t2 then t2 else update_id (j_parent j) (with_state QUEUED) t2) ROk
        else let t2 := filter (fun y => negb (is_id id y)) t1 in
             if existsb (is_child id) t2 then Err                    (* 405 outstanding children *)
             else Ok t2 ROk
    end.

Definition finish_job (Q : sql) (now : Z) (r : finish_req) (t : table) : result :=
  let id := f_id r in
  match lookup id t with
  | None => Err
  | Some j =>
      if negb (in_states [RUNNING; RUNQUEUED] j) && negb (d_mock (j_data j)) then Err
      else if negb (N.eqb (j_parent j) 0)
              && negb (match lookup (j_parent j) t with Some p => in_states [PAUSED] p | None => false end) then Err
      else if (match f_data r with Some d => negb (Bool.eqb (d_mock d) (d_mock (j_data j))) | None => false end) then Err
      else
        let t1 := filter (fun y => negb (is_child id y && in_states [FINISHED; CANCELLED] y)) t in
        let t2 := match f_data r with Some d => update_id id (with_data d) t1 | None => t1 end in
        let t3 := update_id id (fun x => with_data (set_count 0 (j_data x)) x) t2 in
        let rep := match f_data r with Some _ => if f_delete r then [] else j_repeat j | None => j_repeat j end in
        if negb (f_retry r) && has_pending id t3
        then Ok (update (fun y => in_states [PAUSED] y && is_child id y) (with_state QUEUED)
                   (update_id id (fun x => with_state PAUSED (with_next (j_last j) x)) t3)) ROk
        else finish_tail Q now r j rep t3
  end.

(** ** CancelJob: peek 418-469, process 1329-1369 *)
Definition cancel_job (id : N) (t : table) : result :=
  match lookup id t with
  | None => Err
  | Some j =>
      if existsb (is_child id) t then Err                             (* 404 invalid jobID: has children *)
      else if N.eqb (j_parent j) 0 then Err                           (* not a child *)
      else if in_states [FINISHED; RUNNING; PAUSED] j then Ok t ROk   (* ignored *)
      else
        let t1 := update_id id (with_state CANCELLED) t in
        Ok (if existsb (fun y => is_child (j_parent j) y && in_states [QUEUED; RUNQUEUED; RUNNING] y) t1 then t1
            else update_id (j_parent j) (with_state QUEUED) t1) ROk
  end.

(** ** FailJob, 1371-1418 *)
Definition fail_job (id : N) (d : option jdata) (t : table) : result :=
  match lookup id t with
  | None => Err
  | Some j =>
      if negb (in_states [RUNNING; RUNQUEUED] j) then Err
      else Ok (update_id id (fun x => with_state FAILED (match d with Some d' => with_data d' x | None => x end)) t) ROk
  end.

(** ** DeleteJob, 1420-1457 *)
Definition delete_job (id : N) (t : table) : result :=
  match lookup id t with
  | None => Err
  | Some j => if in_states [RUNNING; PAUSED] j then Err
              else Ok (filter (fun y => negb (is_id id y)) t) ROk
  end.

(** ** RequeueJobs, 1459-1478.  A count of 0 that is stored in the data, rather than absent, would become -1; here it stays 0. *)
Definition requeue_jobs (ids : list N) (name : bytes) (decrement : bool) (t : table) : result :=
  Ok (update (in_ids ids)
        (fun j => let j1 := with_state QUEUED (with_next (Some (j_created j)) j) in
                  let j2 := match name with [] => j1 | n => with_name n j1 end in
                  if decrement
                  then with_data (set_count (if Z.eqb (d_count (j_data j)) 0 then 0 else d_count (j_data j) - 1) (j_data j)) j2
                  else j2) t) ROk.

(** ** Histories *)
Inductive cmd :=
| CCreate (now : Z) (l : list create_req)
| CGet (now : Z) (g : get_req)
| CUpdate (now : Z) (r : update_req)
| CFinish (now : Z) (r : finish_req)
| CCancel (id : N)
| CFail (id : N) (d : option jdata)
| CDelete (id : N)
| CRequeue (ids : list N) (name : bytes) (decrement : bool)
| CShuffle (t : table).                       (* the rows are visited in another order from here on *)

(* [used] is every jobID ever given out: getRandomID draws 63 random bits and only checks the
   rows present now; that it never draws the ID of a deleted job again is an assumption. *)
Record state := mkState { rows : table; used : list N }.
Definition init : state := mkState [] [].

(* is [t'] a reordering of [t]?  (rows have distinct IDs) *)
Definition job_eq_dec (a b : job) : {a = b} + {a <> b}.
Proof. repeat decide equality. Defined.
Definition reorders (t t' : table) : bool :=
  Nat.eqb (List.length t) (List.length t')
  && forallb (fun j => if in_dec job_eq_dec j t' then true else false) t.

(* getRandomID's result: positive, never used, and distinct within the command *)
Fixpoint fresh_ids (l : list create_req) (seen : list N) : bool :=
  match l with
  | [] => true
  | r :: l' => N.ltb 0 (c_new r) && negb (existsb (N.eqb (c_new r)) seen) && fresh_ids l' (c_new r :: seen)
  end.

Definition run_cmd (Q : sql) (t : table) (c : cmd) : result :=
  match c with
  | CCreate now l => create_jobs Q now l t
  | CGet now g => get_jobs Q now g t
  | CUpdate now r => update_job Q now r t
  | CFinish now r => finish_job Q now r t
  | CCancel id => cancel_job id t
  | CFail id d => fail_job id d t
  | CDelete id => delete_job id t
  | CRequeue ids n d => requeue_jobs ids n d t
  | CShuffle t' => if reorders t t' then Ok t' ROk else Err
  end.
Definition new_ids (c : cmd) : list N := match c with CCreate _ l => map c_new l | _ => [] end.

(* a throw rolls the command back; the assertion kills the server, which comes back with the
   table as it was *)
Definition step (Q : sql) (s : state) (c : cmd) : state * reply :=
  if negb (match c with CCreate _ l => fresh_ids l (used s) | _ => true end) then (s, RErr)
  else match run_cmd Q (rows s) c with
       | Ok t r => (mkState t (new_ids c ++ used s), r)
       | Err => (s, RErr)
       | Crash => (s, RCrash)
       end.
Fixpoint exec (Q : sql) (s : state) (l : list cmd) : state :=
  match l with [] => s | c :: r => exec Q (fst (step Q s c)) r end.
