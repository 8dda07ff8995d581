(** Model of BedrockBlockingCommandQueue (BedrockBlockingCommandQueue.h, .cpp): the
    rate limiter and its use in push/_dequeue.  The clock [_now()] is an argument.  Each
    identifier's state is only touched under its own mutex; [_recordAndCheck] and
    [_isBlocked] are each one atomic step on one entry (BedrockBlockingCommandQueue.cpp:163,220).
    [clearRateLimits] racing between [_getOrCreateState] and the entry lock (the shared_ptr
    keeps a detached entry alive) is not modelled: it is as if the record came first. *)
From Verif Require Import Base Maps Queue_Spec Queue_Model RateLimit_Spec.
Local Open Scope N_scope.

Definition two64 : N := 18446744073709551616.
Definition wadd (a b : N) : N := (a + b) mod two64.   (* uint64_t addition *)

(** BedrockBlockingCommandQueue.h:57-61 [RecentlyFinishedCommand]: (finishTime, elapsedTime). *)
Definition sample := (N * N)%type.

(** BedrockBlockingCommandQueue.h:69-74 [IdentifierState]. *)
Record istate := mkIState { is_commands : list sample; is_blockedUntil : N }.
Definition istate0 : istate := mkIState [] 0.

(** BedrockBlockingCommandQueue.h:80-84 [StateMap]. *)
Definition smap := list (bytes * istate).

(** BedrockBlockingCommandQueue.h:106-112. *)
Record limiter := mkLimiter {
  l_ids : smap; l_cmds : smap;
  l_window : N; l_idThreshold : N; l_cmdThreshold : N; l_blockDuration : N
}.
Definition limiter0 : limiter := mkLimiter [] [] 180000000 20000000 40000000 60000000.

(** BedrockBlockingCommandQueue.cpp:139-147: existing entry or a fresh one. *)
Definition get_or_create (m : smap) (key : bytes) : istate :=
  match aget bytes_eqb key m with Some s => s | None => istate0 end.

(** BedrockBlockingCommandQueue.cpp:178. *)
Definition since (now finish : N) : N := if N.ltb finish now then now - finish else 0.

(** BedrockBlockingCommandQueue.cpp:175-189: drop samples that left the window... *)
Definition prune (window now : N) (cs : list sample) : list sample :=
  filter (fun c => negb (N.leb window (since now (fst c)))) cs.
(** ... and sum the overlap of the others (uint64_t accumulation). *)
Definition window_total (window now : N) (cs : list sample) : N :=
  fold_left (fun acc c => wadd acc (N.min (snd c) (window - since now (fst c)))) cs 0.

(** BedrockBlockingCommandQueue.cpp:156-209 [_recordAndCheck] (logging omitted). *)
Definition record_and_check (window duration : N) (m : smap) (key : bytes)
    (threshold now elapsed : N) : smap :=
  if match key with [] => true | _ => false end || N.eqb threshold 0 then m
  else
    let s := get_or_create m key in
    if N.ltb now (is_blockedUntil s) then aset bytes_eqb key s m
    else
      let cs := prune window now (is_commands s ++ [(now, elapsed)]) in
      let until := if N.ltb threshold (window_total window now cs)
                   then wadd now duration else is_blockedUntil s in
      aset bytes_eqb key (mkIState cs until) m.

(** BedrockBlockingCommandQueue.cpp:211-222 [_isBlocked]. *)
Definition is_blocked1 (m : smap) (key : bytes) (now : N) : bool :=
  match key with
  | [] => false
  | _ => match aget bytes_eqb key m with
         | None => false
         | Some s => N.ltb now (is_blockedUntil s)
         end
  end.

(** BedrockBlockingCommandQueue.cpp:131-137 [isBlocked]. *)
Definition is_blocked (l : limiter) (id cmd : bytes) (now : N) : bool :=
  is_blocked1 (l_ids l) id now || is_blocked1 (l_cmds l) cmd now.

(** BedrockBlockingCommandQueue.cpp:124-129 [recordExecutionTime]. *)
Definition record (l : limiter) (id cmd : bytes) (now elapsed : N) : limiter :=
  mkLimiter (record_and_check (l_window l) (l_blockDuration l) (l_ids l) id (l_idThreshold l) now elapsed)
            (record_and_check (l_window l) (l_blockDuration l) (l_cmds l) cmd (l_cmdThreshold l) now elapsed)
            (l_window l) (l_idThreshold l) (l_cmdThreshold l) (l_blockDuration l).

(** BedrockBlockingCommandQueue.cpp:53-67 [clearRateLimits]; also returns the count. *)
Definition clear_limits (l : limiter) : limiter * nat :=
  (mkLimiter [] [] (l_window l) (l_idThreshold l) (l_cmdThreshold l) (l_blockDuration l),
   (List.length (l_ids l) + List.length (l_cmds l))%nat).

(** BedrockBlockingCommandQueue.cpp:104-122: each setter returns the previous value. *)
Definition set_window (l : limiter) (v : N) : limiter * N :=
  (mkLimiter (l_ids l) (l_cmds l) v (l_idThreshold l) (l_cmdThreshold l) (l_blockDuration l), l_window l).
Definition set_idThreshold (l : limiter) (v : N) : limiter * N :=
  (mkLimiter (l_ids l) (l_cmds l) (l_window l) v (l_cmdThreshold l) (l_blockDuration l), l_idThreshold l).
Definition set_cmdThreshold (l : limiter) (v : N) : limiter * N :=
  (mkLimiter (l_ids l) (l_cmds l) (l_window l) (l_idThreshold l) v (l_blockDuration l), l_cmdThreshold l).
Definition set_blockDuration (l : limiter) (v : N) : limiter * N :=
  (mkLimiter (l_ids l) (l_cmds l) (l_window l) (l_idThreshold l) (l_cmdThreshold l) v, l_blockDuration l).

Definition msg503 : bytes := lit "503 Blocking queue rate limited (time)".

Record bqueue := mkBQ { bq_limiter : limiter; bq_base : queue cmd }.
Definition bq_init : bqueue := mkBQ limiter0 q_init.

(** BedrockBlockingCommandQueue.cpp:24-32 [push]: [Some msg] is the thrown exception; the
    command stays with the caller. *)
Definition bq_push (b : bqueue) (c : cmd) (now : N) : bqueue * option bytes :=
  if is_blocked (bq_limiter b) (c_ident c) (c_method c) now then (b, Some msg503)
  else (mkBQ (bq_limiter b) (q_push (bq_base b) c (c_scheduled c) (c_timeout c)), None).

(** BedrockBlockingCommandQueue.cpp:34-45 [_dequeue]. *)
Definition bq_dequeue (b : bqueue) (now : N) : bqueue * option cmd :=
  let (q, r) := q_dequeue (bq_base b) now in
  (mkBQ (bq_limiter b) q,
   match r with
   | None => None
   | Some c =>
       Some (if is_blocked (bq_limiter b) (c_ident c) (c_method c) now
             then mkCmd (c_uid c) (c_ident c) (c_method c) (c_scheduled c) (c_timeout c) msg503 true
             else c)
   end).

(** BedrockBlockingCommandQueue.cpp:47-51 [clear]. *)
Definition bq_clear (b : bqueue) : bqueue :=
  mkBQ (fst (clear_limits (bq_limiter b))) (q_clear (bq_base b)).

Definition bq_step (b : bqueue) (o : bop) : bqueue :=
  match o with
  | Brecord now id cm e => mkBQ (record (bq_limiter b) id cm now e) (bq_base b)
  | Bpush now c => fst (bq_push b c now)
  | Bget now => fst (bq_dequeue b now)
  | BclearLimits => mkBQ (fst (clear_limits (bq_limiter b))) (bq_base b)
  | BsetIdThreshold v => mkBQ (fst (set_idThreshold (bq_limiter b) v)) (bq_base b)
  | BsetCmdThreshold v => mkBQ (fst (set_cmdThreshold (bq_limiter b) v)) (bq_base b)
  | BsetBlockDuration v => mkBQ (fst (set_blockDuration (bq_limiter b) v)) (bq_base b)
  | BsetWindow v => mkBQ (fst (set_window (bq_limiter b) v)) (bq_base b)
  end.

Definition bq_run (b : bqueue) (ops : list bop) : bqueue := fold_left bq_step ops b.
