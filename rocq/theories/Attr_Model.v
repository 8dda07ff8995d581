(** Model of how the attributes of requests are read and checked: BedrockPlugin.cpp, SData.cpp, plugins/Jobs.cpp, plugins/Cache.cpp.
    What is not set reads as the empty text (SData.cpp 27-35). *)
From Verif Require Import Base Dec Text_Spec Text_Model Table Json_Model Forward_Model Timeout_Model Addr_Model Query_Model Work_Model.
Open Scope N_scope.

(** ** SData.cpp *)
(** 86-94: calcU64.  isSet, calc, calc64 and test are in Timeout_Model and Query_Model. *)
Definition calcU64 (name : bytes) (t : stable) : N := match tfind name t with Some v => SToUInt64 v | None => 0 end.

(** ** BedrockPlugin.cpp: None is no objection *)
Definition too_short (name : bytes) : option bytes := Some (lit "402 Missing " ++ name).
Definition wrong (name : bytes) : option bytes := Some (lit "402 Malformed " ++ name).
Definition sizeN (v : bytes) : N := N.of_nat (length v).
(** 20-28 *)
Definition verifyAttributeInt64 (t : stable) (name : bytes) (minSize : N) : option bytes :=
  let v := header name t in
  if sizeN v <? minSize then too_short name
  else if negb (bytes_eqb v []) && negb (bytes_eqb v (decZ (SToInt64 v))) then wrong name else None.
(** 30-38 *)
Definition verifyAttributeSize (t : stable) (name : bytes) (minSize maxSize : N) : option bytes :=
  let v := header name t in
  if sizeN v <? minSize then too_short name else if maxSize <? sizeN v then wrong name else None.
(** 40-48 *)
Definition verifyAttributeBool (t : stable) (name : bytes) (require : bool) : option bytes :=
  let v := header name t in
  if require && (sizeN v =? 0) then too_short name
  else if negb (bytes_eqb v []) && negb (ieqb (cstr v) (lit "true")) && negb (ieqb (cstr v) (lit "false")) then wrong name else None.
(** 15-18: the regular expression, character by character.  The whole text has to match (libstuff.cpp 3223-3224). *)
Definition re_year (a b c d : ascii) : bool :=
  ((Ascii.eqb a "1" && Ascii.eqb b "9") || (Ascii.eqb a "2" && is_digit b)) && is_digit c && is_digit d.
Definition re_month (a b : ascii) : bool := (Ascii.eqb a "0" && within "1" b "9") || (Ascii.eqb a "1" && in_set b (lit "012")).
Definition re_day (a b : ascii) : bool :=
  (Ascii.eqb a "0" && within "1" b "9") || (in_set a (lit "12") && is_digit b) || (Ascii.eqb a "3" && in_set b (lit "01")).
Definition re_time (s : bytes) : bool :=
  match s with
  | [] => true
  | [sp; a; b; c1; c; d; c2; e; f] =>
      Ascii.eqb sp " " && is_digit a && is_digit b && Ascii.eqb c1 ":" && is_digit c && is_digit d && Ascii.eqb c2 ":" && is_digit e && is_digit f
  | _ => false
  end.
Definition isValidDate (s : bytes) : bool :=
  match s with
  | y1 :: y2 :: y3 :: y4 :: s1 :: m1 :: m2 :: s2 :: d1 :: d2 :: r =>
      re_year y1 y2 y3 y4 && Ascii.eqb s1 "-" && re_month m1 m2 && Ascii.eqb s2 "-" && re_day d1 d2 && re_time r
  | _ => false
  end.
(** 50-59 *)
Definition verifyAttributeDate (t : stable) (name : bytes) (require : bool) : option bytes :=
  let v := header name t in
  if require && bytes_eqb v [] then too_short name
  else if negb (bytes_eqb v []) && negb (isValidDate v) then wrong name else None.

(** ** What the commands check before they read or write *)
Definition or_else (a b : option bytes) : option bytes := match a with Some e => Some e | None => b end.
(** Jobs.cpp 1616-1628 *)
Definition validatePriority (p : Z) : option bytes :=
  if existsb (Z.eqb p) [0; 250; 500; 750; 850; 1000]%Z then None else Some (lit "402 Invalid priority value").
Definition NAME : bytes := lit "name".
Definition JOBID : bytes := lit "jobID".
Definition DATA : bytes := lit "data".
Definition PRIO : bytes := lit "jobPriority".
Definition priority_set (t : stable) : option bytes := if isSet PRIO t then validatePriority (calc64 PRIO t) else None.
(** 233-247: GetJob, GetJobs *)
Definition check_get (many : bool) (t : stable) : option bytes :=
  or_else (verifyAttributeSize t NAME 1 12750)
  (or_else (if Bool.eqb many (isSet (lit "numResults") t) then None
            else Some (if many then lit "402 Missing numResults" else lit "402 Cannot use numResults with GetJob; try GetJobs"))
           (priority_set t)).
(** 324-346: what is checked for each job; None of the parser is abort() and counts as an error here *)
Definition check_job (t : stable) : option bytes :=
  or_else (if isSet PRIO t then validatePriority (SToInt (header PRIO t)) else None)
  (or_else (if isSet DATA t && match SParseJSONObject (header DATA t) (lit "null") with Some [] | None => true | _ => false end && negb (bytes_eqb (header DATA t) (lit "{}"))
            then Some (lit "402 Data is not a valid JSON Object") else None)
           (if isSet (lit "retryAfter") t && negb (bytes_eqb (header (lit "retryAfter") t) []) && negb (SIsValidSQLiteDateModifier (header (lit "retryAfter") t))
            then Some (lit "402 Malformed retryAfter") else None)).
(** 300-301: CreateJob *)
Definition check_create (t : stable) : option bytes := or_else (verifyAttributeSize t NAME 1 255) (check_job t).
(** libstuff.h SContains for texts: the text is somewhere in it *)
Definition contains_text (s n : bytes) : bool := match find_at n s with Some _ => true | None => false end.
(** 303-321: CreateJobs *)
Fixpoint check_jobs (l : list bytes) : option bytes * list stable :=
  match l with
  | [] => (None, [])
  | j :: r => match SParseJSONObject j (lit "null") with
              | None | Some [] => (Some (lit "401 Invalid JSON"), [])
              | Some o => if contains_text j NAME then let '(e, os) := check_jobs r in (e, o :: os) else (Some (lit "402 Missing name"), [])
              end
  end.
Definition check_create_many (t : stable) : option bytes :=
  match SParseJSONArray (header (lit "jobs") t) (lit "null") with
  | None | Some [] => Some (lit "401 Invalid JSON")
  | Some l => match check_jobs l with
              | (Some e, _) => Some e
              | (None, os) => fold_right (fun o e => or_else (check_job o) e) None os
              end
  end.
(** 1032-1051: UpdateJob; [valid_repeat]: _validateRepeat (Jobs_Model) *)
Definition check_update (valid_repeat : bytes -> bool) (t : stable) : option bytes :=
  or_else (verifyAttributeInt64 t JOBID 1)
  (or_else (verifyAttributeSize t DATA 1 1048576)
  (or_else (if isSet (lit "repeat") t && negb (bytes_eqb (header (lit "repeat") t) []) && negb (valid_repeat (header (lit "repeat") t)) then wrong (lit "repeat") else None)
           (priority_set t))).
(** 270 QueryJob, 430 CancelJob, 1129 RetryJob and FinishJob, 1380 FailJob, 1428 DeleteJob *)
Definition check_id (t : stable) : option bytes := verifyAttributeInt64 t JOBID 1.
(** Cache.cpp 183: ReadCache *)
Definition check_read (t : stable) : option bytes := verifyAttributeSize t NAME 1 255.
(** Cache.cpp 237-263: WriteCache *)
Definition check_write (maxCacheSize : N) (t : stable) (content : bytes) : option bytes :=
  let v := header (lit "value") t in
  or_else (verifyAttributeSize t NAME 1 255)
  (or_else (if negb (bytes_eqb v []) then (if 1048576 <? sizeN v then Some (lit "402 Value too large, 1MB max -- use content body") else None)
            else if negb (bytes_eqb content []) then (if 67108864 <? sizeN content then Some (lit "402 Content too large, 64MB max") else None)
            else Some (lit "402 Missing value header or content body"))
           (if maxCacheSize <? (if bytes_eqb v [] then sizeN content else sizeN v) then Some (lit "402 Content larger than the cache itself") else None)).
(** Jobs.cpp 161-470: which check a request of the jobs plugin goes through; [Some None]: it goes on; None: none of them, nothing is done and the
    answer is 200 (418, 473, 1329) *)
Definition checked (valid_repeat : bytes -> bool) (methodLine : bytes) (t : stable) : option (option bytes) :=
  let v := getVerb methodLine in
  if ieqb v (lit "GetJob") then Some (check_get false t)
  else if ieqb v (lit "GetJobs") then Some (check_get true t)
  else if ieqb v (lit "QueryJob") then Some (check_id t)
  else if ieqb v (lit "CreateJob") then Some (check_create t)
  else if ieqb v (lit "CreateJobs") then Some (check_create_many t)
  else if ieqb methodLine (lit "CancelJob") then Some (check_id t)
  else if ieqb v (lit "UpdateJob") then Some (check_update valid_repeat t)
  else if ieqb v (lit "RetryJob") || ieqb v (lit "FinishJob") || ieqb v (lit "FailJob") || ieqb v (lit "DeleteJob") then Some (check_id t)
  else None.
