(** Specification of the times and counts that are reported (C71).  No modelled code here. *)
From Verif Require Import Base.
Open Scope N_scope.

(** ** What a command does while it is there, piece by piece, with how long each piece takes *)
Inductive doing :=
  | Prepeeks (blocking : bool) | Peeks (blocking : bool) | Processes (blocking : bool) | Postprocesses (blocking : bool)
  | Commits (blocking : bool) | Queued | QueuedBlocking | WaitsPage
  | Escalates                    (* one attempt to have another node do it *)
  | Else.
Definition history := list (doing * N).
Fixpoint spent (p : doing -> bool) (h : history) : N :=
  match h with [] => 0 | (d, n) :: h' => (if p d then n else 0) + spent p h' end.
Definition whole (h : history) : N := spent (fun _ => true) h.
Definition prepeeks d := match d with Prepeeks _ => true | _ => false end.
Definition peeks d := match d with Peeks _ => true | _ => false end.
Definition processes d := match d with Processes _ => true | _ => false end.
Definition postprocesses d := match d with Postprocesses _ => true | _ => false end.
Definition commits d := match d with Commits _ => true | _ => false end.
Definition queued d := match d with Queued => true | _ => false end.
Definition queued_blocking d := match d with QueuedBlocking => true | _ => false end.
Definition waits_page d := match d with WaitsPage => true | _ => false end.
Definition escalates d := match d with Escalates => true | _ => false end.
Definition elsewhere d := match d with Else => true | _ => false end.
(* while nothing else may commit *)
Definition holds_lock d := match d with Peeks true | Processes true | Commits true => true | _ => false end.
(* on the thread for blocking commits *)
Definition on_blocking d := match d with Prepeeks true | Peeks true | Processes true | Postprocesses true | Commits true => true | _ => false end.
(* how long the last attempt to escalate took *)
Fixpoint last_escalation (h : history) : option N :=
  match h with
  | [] => None
  | (d, n) :: h' => match last_escalation h' with Some m => Some m | None => if escalates d then Some n else None end
  end.
Fixpoint attempts (h : history) : nat :=
  match h with [] => O | (d, _) :: h' => if escalates d then S (attempts h') else attempts h' end.

(** ** How often something is true in a list *)
Fixpoint times {A} (p : A -> bool) (l : list A) : N :=
  match l with [] => 0 | x :: l' => (if p x then 1 else 0) + times p l' end.
(** ** The sum over a list *)
Fixpoint sum {A} (f : A -> N) (l : list A) : N :=
  match l with [] => 0 | x :: l' => f x + sum f l' end.

(** ** The characters of an identifier that was made up *)
Definition alphanumeric (c : ascii) : Prop :=
  let n := N_of_ascii c in (48 <= n <= 57 \/ 65 <= n <= 90 \/ 97 <= n <= 122)%N.
