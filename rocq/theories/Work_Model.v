(** Model of the answers to GetJob and GetJobs, of what happens when such an answer cannot be sent, and of how jobs are
    blacklisted on all nodes. *)
From Verif Require Import Base Dec Text_Spec Text_Model Table Json_Model Result_Model Addr_Model Jobs_Spec Jobs_Model Work_Spec.
Open Scope nat_scope.

Section answers.
Context (is_float : bytes -> bool).   (* as in Json_Model *)

(** ** plugins/Jobs.cpp: the answer *)
(** 923-926: one child *)
Definition child_text (c : N * bytes * bool) : option bytes :=
  SComposeJSONObject is_float (tput (lit "data") (snd (fst c)) (tput (lit "jobID") (dec (fst (fst c))) [])) false.
(** 920-935: the finished or the cancelled ones *)
Definition children_text (finished : bool) (l : list (N * bytes * bool)) : option bytes :=
  match opt_map child_text (filter (fun c => Bool.eqb (snd c) finished) l) with Some ts => SComposeJSONArray is_float ts | None => None end.
(** 887-903: what is in the row, and what is added for a child *)
Definition row_table (r : told) : stable :=
  let t := tput (lit "priority") (t_prio r) (tput (lit "nextRun") (t_next r) (tput (lit "lastRun") (t_last r) (tput (lit "repeat") (t_repeat r)
          (tput (lit "created") (t_created r) (tput (lit "retryAfter") (t_retry r) (tput (lit "data") (t_data r) (tput (lit "name") (t_name r)
          (tput (lit "jobID") (dec (t_id r)) [])))))))) in
  match t_parent r with None => t | Some (p, d) => tput (lit "parentData") d (tput (lit "parentJobID") (dec p) t) end.
(** 887-936: with the children that are done *)
Definition job_table (r : told) : option stable :=
  match t_children r with
  | [] => Some (row_table r)
  | _ => match children_text true (t_children r), children_text false (t_children r) with
         | Some f, Some c => Some (tput (lit "cancelledChildJobs") c (tput (lit "finishedChildJobs") f (row_table r)))
         | _, _ => None
         end
  end.
(** 943: SComposeJSONObject(job); None is abort() *)
Definition job_text (r : told) : option bytes :=
  match job_table r with Some t => SComposeJSONObject is_float t false | None => None end.
(** 1002-1012: the content of the answer to GetJob.  More than one cannot be there: the query has LIMIT 1. *)
Definition get_job_content (l : list told) : option bytes :=
  match l with [] => Some (lit "{}") | r :: _ => job_text r end.
(** 1013-1016 and BedrockCore.cpp 317-328: the content of the answer to GetJobs *)
Definition get_jobs_content (l : list told) : option bytes :=
  match opt_map job_text l with
  | Some ts => match SComposeJSONArray is_float ts with Some a => SComposeJSONObject is_float [(lit "jobs", a)] false | None => None end
  | None => None
  end.
End answers.

(** ** Answers that cannot be sent *)
(** SData.cpp 107-110: SData::getVerb.  It decides which command it is (Jobs.cpp 118, 209, 729). *)
Definition getVerb (methodLine : bytes) : bytes := match find_at (lit " ") methodLine with Some p => firstn p methodLine | None => methodLine end.
(** 1643-1646: the jobID in the answer to GetJob; None is abort() *)
Definition one_id (content : bytes) : option (list bytes) :=
  match SParseJSONObject content (lit "null") with
  | None => None
  | Some t => Some (match tfind (lit "jobID") t with Some i => [i] | None => [] end)
  end.
(** 1648-1655: the jobIDs in the answer to GetJobs; jobsJSON["jobs"] is empty if it is not there *)
Definition all_ids (content : bytes) : option (list bytes) :=
  match SParseJSONObject content (lit "null") with
  | None => None
  | Some t => match SParseJSONArray (match tfind (lit "jobs") t with Some a => a | None => [] end) (lit "null") with
              | None => None
              | Some jobs => option_map (@concat bytes) (opt_map one_id jobs)
              end
  end.
(** 1638-1669: BedrockJobsCommand::handleFailedReply.  None is abort(); [Some None]: nothing is done; [Some (Some s)]: RequeueJobs
    is run with the jobIDs [s]. *)
Definition handleFailedReply (methodLine content : bytes) : option (option bytes) :=
  if ieqb methodLine (lit "GetJob") || ieqb methodLine (lit "GetJobs")
  then match (if ieqb methodLine (lit "GetJob") then one_id content else all_ids content) with
       | None => None
       | Some l => Some (Some (SComposeList l (lit ", ")))
       end
  else Some None.
(** 1459-1478: RequeueJobs as it is run then.  What SQLite does with a negative number or one that is not there is left out: no job has it. *)
Definition requeued (jobIDs : bytes) (t : table) : result :=
  requeue_jobs (map Z.to_N (SParseIntegerList jobIDs ",")) [] true t.
(** BedrockServer.cpp 1352-1356, 1381-1386, 1399: what becomes of the jobs if the answer is not sent *)
Definition not_sent (methodLine content : bytes) (t : table) : option result :=
  match handleFailedReply methodLine content with
  | None => None
  | Some None => Some (Ok t ROk)
  | Some (Some s) => Some (requeued s t)
  end.

(** ** Blacklisting *)
Inductive blacklisting := CrashBedrockJob (names : bytes) | ClearCrashedBedrockJobs.
(** Jobs.cpp 172-206: what happens to the patterns of the node, and whether all peers are told.  None: 401. *)
Definition blacklist (c : blacklisting) (source : bytes) (propagated : bool) (pats : list bytes) : option (list bytes * bool) :=
  if negb (bytes_eqb source []) then None
  else Some (match c with
             | CrashBedrockJob names => SParseList names "," ++ pats
             | ClearCrashedBedrockJobs => []
             end, negb propagated).
(** The patterns of each node *)
Definition cluster := nat -> list bytes.
Definition set_pats (s : cluster) (k : nat) (p : list bytes) : cluster := fun m => if Nat.eqb m k then p else s m.
(** SQLiteClusterMessenger.cpp 83-105: runOnAll, for the peers that are [reached]; each gets it once, through the private port.
    The second component is how many of them would tell others. *)
Fixpoint tell (c : blacklisting) (reached : list nat) (s : cluster) : cluster * nat :=
  match reached with
  | [] => (s, 0)
  | k :: r => match blacklist c [] true (s k) with
              | None => tell c r s
              | Some (p, again) => let '(s', n) := tell c r (set_pats s k p) in (s', (if again then 1 else 0) + n)
              end
  end.
(** The whole of it, at the node [k] *)
Definition blacklist_all (c : blacklisting) (source : bytes) (k : nat) (reached : list nat) (s : cluster) : cluster * nat :=
  match blacklist c source false (s k) with
  | None => (s, 0)
  | Some (p, again) => if again then tell c reached (set_pats s k p) else (set_pats s k p, 0)
  end.
(** Jobs.cpp 37-56: onNodeLogin.  The node [k] tells the peer [m] that has logged in what it has blacklisted. *)
Definition tell_peer (k m : nat) (s : cluster) : cluster :=
  match s k with
  | [] => s
  | pats => match blacklist (CrashBedrockJob (SComposeList pats (lit ", "))) [] true (s m) with Some (p, _) => set_pats s m p | None => s end
  end.
(** Each gets the login of the other (SQLiteNode.cpp 1083-1084). *)
Definition connect (k m : nat) (s : cluster) : cluster := tell_peer m k (tell_peer k m s).
(** Jobs.cpp 742, 849-857: what the node takes for blacklisted *)
Definition crashed_by (glob : bytes -> bytes -> bool) (pats : list bytes) (name : bytes) : bool := existsb (fun p => glob p name) pats.
