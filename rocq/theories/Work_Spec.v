(** Specification of what a worker is told about the jobs it gets (C72).  No modelled code here. *)
From Verif Require Import Base.

(** What a worker is told about a job.  The times and the priority are the texts in the database. *)
Record told := {
  t_id : N; t_name : bytes; t_data : bytes; t_retry : bytes; t_created : bytes; t_repeat : bytes; t_last : bytes; t_next : bytes; t_prio : bytes;
  t_parent : option (N * bytes);              (* the parent and its data *)
  t_children : list (N * bytes * bool)        (* the children that are done, with their data; whether finished or cancelled *)
}.
