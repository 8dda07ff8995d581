(** What a user of the job queue relies on (C23 - C26), stated on job rows alone. *)
Require Import List ZArith NArith Bool Ascii.
Require Import Verif.Base.
Import ListNotations.
Open Scope Z_scope.

Inductive jstate := QUEUED | RUNQUEUED | RUNNING | PAUSED | FINISHED | CANCELLED | FAILED.
Definition jstate_eqb (a b : jstate) : bool :=
  match a, b with
  | QUEUED, QUEUED | RUNQUEUED, RUNQUEUED | RUNNING, RUNNING | PAUSED, PAUSED
  | FINISHED, FINISHED | CANCELLED, CANCELLED | FAILED, FAILED => true
  | _, _ => false
  end.

(** The JSON in the data column, reduced to the members the plugin itself looks at. *)
Record jdata := mkData {
  d_mock : bool;            (* $.mockRequest is present *)
  d_count : Z;              (* $.retryAfterCount, 0 when absent *)
  d_orig : option Z;        (* $.originalNextRun, None when absent *)
  d_rest : bytes            (* everything else *)
}.

(** A row of the jobs table.  Times are whole seconds; [None] is the empty / NULL time. *)
Record job := mkJob {
  j_id : N;
  j_state : jstate;
  j_name : bytes;
  j_next : option Z;
  j_last : option Z;
  j_repeat : bytes;
  j_data : jdata;
  j_prio : option Z;        (* None: stored text that is not a number *)
  j_parent : N;             (* 0: no parent *)
  j_retry : bytes;          (* retryAfter, empty: no automatic retry *)
  j_created : Z
}.

(** The six priorities a job can have. *)
Definition priorities : list Z := [1000; 850; 750; 500; 250; 0].

(** [a] is due no later than [b]; an empty time counts as long past. *)
Definition no_later (a b : option Z) : Prop :=
  match a, b with None, _ => True | Some _, None => False | Some x, Some y => x <= y end.
Definition due (now : Z) (t : option Z) : Prop := match t with None => True | Some x => x <= now end.

(** Waiting to be handed to a worker. *)
Definition waiting (j : job) : Prop := j_state j = QUEUED \/ j_state j = RUNQUEUED.
(** Handed to a worker or waiting to be. *)
Definition active (j : job) : Prop := j_state j = QUEUED \/ j_state j = RUNQUEUED \/ j_state j = RUNNING.
(** Still has to run or is running. *)
Definition unfinished (j : job) : Prop := active j \/ j_state j = PAUSED.

Definition child_of (p : N) (j : job) : Prop := p <> 0%N /\ j_parent j = p.
