(** Specification of the blocking-queue rate limit, independent of the model.

    Times are integers (microseconds).  An execution is an interval of time that ended
    at [ex_finish] and lasted [ex_elapsed]. *)
From Verif Require Import Base.

Record execution := mkExec { ex_finish : N; ex_elapsed : N }.

(** How much of an execution lies inside the last [window] microseconds before [now]. *)
Definition time_in_window (window now : N) (e : execution) : N :=
  let finish := Z.of_N (ex_finish e) in
  let start := (finish - Z.of_N (ex_elapsed e))%Z in
  let lo := (Z.of_N now - Z.of_N window)%Z in
  let hi := Z.of_N now in
  Z.to_N (Z.max 0 (Z.min finish hi - Z.max start lo)).

Fixpoint total_in_window (window now : N) (es : list execution) : N :=
  match es with [] => 0%N | e :: es' => (time_in_window window now e + total_in_window window now es')%N end.

(** The account of one identifier: every execution ever counted, and when its block ends. *)
Record account := mkAccount { acc_execs : list execution; acc_until : N }.
Definition account0 : account := mkAccount [] 0.

Definition acc_blocked (a : account) (now : N) : Prop := (now < acc_until a)%N.

(** Recording an execution that finishes at [now]: ignored during a block; otherwise it
    is counted, and the account is blocked for [duration] exactly if the total time spent
    executing within the window exceeds the threshold. *)
Definition acc_record (window duration threshold now elapsed : N) (a : account) : account :=
  if N.ltb now (acc_until a) then a
  else let es := acc_execs a ++ [mkExec now elapsed] in
       mkAccount es (if N.ltb threshold (total_in_window window now es) then (now + duration)%N else acc_until a).

(** A command as the blocking queue sees it: BedrockCommand's
    [blockingQueueRateLimitIdentifier], method line, and response state. *)
Record cmd := mkCmd {
  c_uid : N; c_ident : bytes; c_method : bytes;
  c_scheduled : N; c_timeout : N;
  c_response : bytes; c_complete : bool
}.

(** One call, with the clock reading it makes. *)
Inductive bop :=
| Brecord (now : N) (id cmd : bytes) (elapsed : N)
| Bpush (now : N) (c : cmd)
| Bget (now : N)
| BclearLimits
| BsetIdThreshold (v : N)
| BsetCmdThreshold (v : N)
| BsetBlockDuration (v : N)
| BsetWindow (v : N).


(** The whole rate limiter: one account per identifier, one per command name, and the
    four settings. *)
Record book := mkBook {
  bk_ids : bytes -> account; bk_cmds : bytes -> account;
  bk_window : N; bk_idThreshold : N; bk_cmdThreshold : N; bk_duration : N
}.

(** Defaults: 180 s window, 20 s per identifier, 40 s per command name, 60 s blocks. *)
Definition book0 : book := mkBook (fun _ => account0) (fun _ => account0) 180000000 20000000 40000000 60000000.

(** A dimension is off when its threshold is 0, and the empty name is never tracked. *)
Definition book_record (window duration threshold : N) (accts : bytes -> account)
    (key : bytes) (now elapsed : N) : bytes -> account :=
  fun k => if negb (bytes_eqb key []) && negb (N.eqb threshold 0) && bytes_eqb k key
           then acc_record window duration threshold now elapsed (accts k) else accts k.

Definition book_step (b : book) (o : bop) : book :=
  match o with
  | Brecord now id cm e =>
      mkBook (book_record (bk_window b) (bk_duration b) (bk_idThreshold b) (bk_ids b) id now e)
             (book_record (bk_window b) (bk_duration b) (bk_cmdThreshold b) (bk_cmds b) cm now e)
             (bk_window b) (bk_idThreshold b) (bk_cmdThreshold b) (bk_duration b)
  | BclearLimits => mkBook (fun _ => account0) (fun _ => account0)
                      (bk_window b) (bk_idThreshold b) (bk_cmdThreshold b) (bk_duration b)
  | BsetWindow v => mkBook (bk_ids b) (bk_cmds b) v (bk_idThreshold b) (bk_cmdThreshold b) (bk_duration b)
  | BsetIdThreshold v => mkBook (bk_ids b) (bk_cmds b) (bk_window b) v (bk_cmdThreshold b) (bk_duration b)
  | BsetCmdThreshold v => mkBook (bk_ids b) (bk_cmds b) (bk_window b) (bk_idThreshold b) v (bk_duration b)
  | BsetBlockDuration v => mkBook (bk_ids b) (bk_cmds b) (bk_window b) (bk_idThreshold b) (bk_cmdThreshold b) v
  | Bpush _ _ | Bget _ => b
  end.

Definition book_run (b : book) (ops : list bop) : book := fold_left book_step ops b.

(** Who is refused at [now] according to the book. *)
Definition book_blocked (b : book) (id cm : bytes) (now : N) : Prop :=
  acc_blocked (bk_ids b id) now \/ acc_blocked (bk_cmds b cm) now.

(** A realistic history: the clock does not go backwards, times and durations stay below
    2^63 microseconds (292,000 years), the recorded execution times add up to less than 2^64,
    and the window is not enlarged while running. *)
Fixpoint clock_ok (last : N) (ops : list bop) : Prop :=
  match ops with
  | [] => True
  | Brecord now _ _ _ :: ops' => (last <= now)%N /\ clock_ok now ops'
  | _ :: ops' => clock_ok last ops'
  end.
Definition sizes_ok (ops : list bop) : Prop :=
  Forall (fun o => match o with
                   | Brecord now _ _ _ => (now < 9223372036854775808)%N
                   | BsetBlockDuration v => (v < 9223372036854775808)%N
                   | _ => True end) ops.
Fixpoint total_recorded (ops : list bop) : N :=
  match ops with
  | [] => 0%N
  | Brecord _ _ _ e :: ops' => (e + total_recorded ops')%N
  | _ :: ops' => total_recorded ops'
  end.
Fixpoint window_shrinks (window : N) (ops : list bop) : Prop :=
  match ops with
  | [] => True
  | BsetWindow v :: ops' => (v <= window)%N /\ window_shrinks v ops'
  | _ :: ops' => window_shrinks window ops'
  end.
Definition realistic (ops : list bop) : Prop :=
  clock_ok 0 ops /\ sizes_ok ops /\ (total_recorded ops < 18446744073709551616)%N
  /\ window_shrinks 180000000 ops.
