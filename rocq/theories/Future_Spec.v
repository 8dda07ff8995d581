(** What C27 says: the commands waiting for a commit, in order of arrival. *)
From Verif Require Import Base Queue_Spec.

Section Spec.
Context {A : Type}.

(** A waiting command: [p_sched] is here the commit it waits for, [p_tmo] its deadline. *)
Definition commit (p : pending A) : N := p_sched p.
Definition deadline (p : pending A) : N := p_tmo p.

(** [l2] is [l1] put in order of a key, arrival order on ties. *)
Fixpoint ascending (key : pending A -> N) (l : list (pending A)) : Prop :=
  match l with [] => True | x :: l' => (forall y, In y l' -> (key x <= key y)%N) /\ ascending key l' end.
Definition in_order_of (key : pending A -> N) (l1 l2 : list (pending A)) : Prop :=
  ascending key l2 /\ forall t, filter (fun x => N.eqb (key x) t) l2 = filter (fun x => N.eqb (key x) t) l1.

Definition expired (now : N) (p : pending A) : bool := N.ltb (deadline p) now.
Definition reached (count : N) (shutting_down : bool) (p : pending A) : bool := N.leb (commit p) count || shutting_down.

(** An arrival with the commit count of the database at that moment; one pass of the sync loop. *)
Inductive fop :=
| Arrive (x : A) (needs due : N) (count : N)
| Pass (now : N) (count : N) (shutting_down : bool).
Inductive fout := Runs (x : A) | Waits | Returns (xs : list A).

(** A command runs at once exactly if the commit it needs is there; otherwise it waits.  A pass returns
    exactly the commands whose deadline has passed, earliest deadline first, and then those whose commit is
    there, lowest commit first. *)
Inductive fspec (l : list (pending A)) : fop -> fout -> list (pending A) -> Prop :=
| fs_runs x c d n : (c <= n)%N -> fspec l (Arrive x c d n) (Runs x) l
| fs_waits x c d n : (n < c)%N -> fspec l (Arrive x c d n) Waits (l ++ [mkPending x c d])
| fs_pass now n sd e r :
    let left := filter (fun p => negb (expired now p)) l in
    in_order_of deadline (filter (expired now) l) e ->
    in_order_of commit (filter (reached n sd) left) r ->
    fspec l (Pass now n sd) (Returns (map p_item e ++ map p_item r)) (filter (fun p => negb (reached n sd p)) left).
Inductive fspec_run : list (pending A) -> list fop -> list fout -> list (pending A) -> Prop :=
| fr_nil l : fspec_run l [] [] l
| fr_cons l o out l1 ops outs l2 : fspec l o out l1 -> fspec_run l1 ops outs l2 -> fspec_run l (o :: ops) (out :: outs) l2.

Definition arrived (ops : list fop) : list A := flat_map (fun o => match o with Arrive x _ _ _ => [x] | _ => [] end) ops.
Definition handed (outs : list fout) : list A := flat_map (fun o => match o with Runs x => [x] | Returns l => l | Waits => [] end) outs.
End Spec.
Arguments fop : clear implicits.
Arguments fout : clear implicits.
