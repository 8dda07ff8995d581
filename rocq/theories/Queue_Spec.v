(** Specification of the command queue, written without the model.

    The queue is just the list of pending commands in arrival order.  *)
From Verif Require Import Base.

Section Spec.
Context {A : Type}.

(** A pending command with the two times the caller gave it. *)
Record pending := mkPending { p_item : A; p_sched : N; p_tmo : N }.

(** The first (oldest arrival) element with the smallest key, and the others. *)
Fixpoint pick_min (key : pending -> N) (l : list pending) : option (pending * list pending) :=
  match l with
  | [] => None
  | x :: l' => match pick_min key l' with
               | None => Some (x, [])
               | Some (y, rest) => if N.leb (key x) (key y) then Some (x, l')
                                   else Some (y, x :: rest)
               end
  end.

(** What [get] promises (BedrockCommandQueue.h:8-12): a timed-out command first
    (oldest timeout, arrival order on ties), otherwise the earliest scheduled one
    (arrival order on ties) provided its time has come. *)
Definition spec_get (l : list pending) (now : N) : list pending * option A :=
  match pick_min p_tmo l with
  | None => (l, None)
  | Some (x, rest) =>
      if N.leb (p_tmo x) now then (rest, Some (p_item x))
      else match pick_min p_sched l with
           | Some (y, rest') => if N.leb (p_sched y) now then (rest', Some (p_item y)) else (l, None)
           | None => (l, None)
           end
  end.

(** [l2] is [l1] put in order of scheduled time, arrival order on ties. *)
Inductive sched_sorted : list pending -> Prop :=
| ss_nil : sched_sorted []
| ss_cons x l : (forall y, In y l -> (p_sched x <= p_sched y)%N) -> sched_sorted l -> sched_sorted (x :: l).

Definition same_time (t : N) (l : list pending) : list pending :=
  filter (fun x => N.eqb (p_sched x) t) l.

Definition in_schedule_order (l1 l2 : list pending) : Prop :=
  sched_sorted l2 /\ forall t, same_time t l2 = same_time t l1.

(** One public call.  [Oget] is one attempt of [get] (BedrockCommandQueue.cpp:44-93):
    the real method repeats the attempt after each wake-up until it succeeds or
    its wait time is over, so a call is a sequence of attempts of which at most the
    last one returns an item. *)
Inductive op :=
| Opush (x : A) (scheduled timeout : N)
| Oget (now : N)
| OgetAll
| Oclear
| Oabandon (limit : N).

(** What each call must do: [spec_step l o out l'] reads "with commands [l] pending,
    the call [o] may hand out [out] and leave [l'] pending". *)
Inductive spec_step (l : list pending) : op -> list A -> list pending -> Prop :=
| sp_push x s t : spec_step l (Opush x s t) [] (l ++ [mkPending x s t])
| sp_get_some now x l' : spec_get l now = (l', Some x) -> spec_step l (Oget now) [x] l'
| sp_get_none now : spec_get l now = (l, None) -> spec_step l (Oget now) [] l
| sp_getAll l2 : in_schedule_order l l2 -> spec_step l OgetAll (map p_item l2) []
| sp_clear : spec_step l Oclear [] []
| sp_abandon lim : spec_step l (Oabandon lim) [] (filter (fun x => N.ltb (p_sched x) lim) l).

Inductive spec_run : list pending -> list op -> list (list A) -> list pending -> Prop :=
| sr_nil l : spec_run l [] [] l
| sr_cons l o out l1 ops outs l2 :
    spec_step l o out l1 -> spec_run l1 ops outs l2 -> spec_run l (o :: ops) (out :: outs) l2.

(** The weaker promise that also survives [abandonFutureCommands]: a get returns a
    command that has timed out or the earliest due one, and returns nothing only if no
    command's scheduled time has come. *)
Inductive spec_step_weak (l : list pending) : op -> list A -> list pending -> Prop :=
| sw_push x s t : spec_step_weak l (Opush x s t) [] (l ++ [mkPending x s t])
| sw_get_some now l1 p l2 :
    l = l1 ++ p :: l2 ->
    ((p_tmo p <= now)%N \/
     ((p_sched p <= now)%N /\ (forall y, In y l1 -> (p_sched p < p_sched y)%N) /\
      (forall y, In y l2 -> (p_sched p <= p_sched y)%N))) ->
    spec_step_weak l (Oget now) [p_item p] (l1 ++ l2)
| sw_get_none now : (forall y, In y l -> (now < p_sched y)%N) -> spec_step_weak l (Oget now) [] l
| sw_getAll l2 : in_schedule_order l l2 -> spec_step_weak l OgetAll (map p_item l2) []
| sw_clear : spec_step_weak l Oclear [] []
| sw_abandon lim : spec_step_weak l (Oabandon lim) [] (filter (fun x => N.ltb (p_sched x) lim) l).

Inductive spec_run_weak : list pending -> list op -> list (list A) -> list pending -> Prop :=
| sw_nil l : spec_run_weak l [] [] l
| sw_cons l o out l1 ops outs l2 :
    spec_step_weak l o out l1 -> spec_run_weak l1 ops outs l2 -> spec_run_weak l (o :: ops) (out :: outs) l2.

(** The promise of [get] up to the choice among commands with the same timeout. *)
Inductive get_in_order (l : list pending) (now : N) : list A -> list pending -> Prop :=
| go_late l1 p l2 : l = l1 ++ p :: l2 -> (p_tmo p <= now)%N -> (forall y, In y l -> (p_tmo p <= p_tmo y)%N) -> get_in_order l now [p_item p] (l1 ++ l2)
| go_due l1 p l2 : l = l1 ++ p :: l2 -> (forall y, In y l -> (now < p_tmo y)%N) -> (p_sched p <= now)%N ->
    (forall y, In y l1 -> (p_sched p < p_sched y)%N) -> (forall y, In y l2 -> (p_sched p <= p_sched y)%N) -> get_in_order l now [p_item p] (l1 ++ l2)
| go_none : (forall y, In y l -> (now < p_tmo y)%N /\ (now < p_sched y)%N) -> get_in_order l now [] l.
(** Histories in which gets out of order are paid for: each command that [abandonFutureCommands] throws away allows one later
    [get] that keeps only the weaker promise; [getAll] and [clear] take these allowances away. *)
Inductive spec_run_paid : list pending -> nat -> list op -> list (list A) -> Prop :=
| pd_nil l d : spec_run_paid l d [] []
| pd_get l d now out l' ops outs : get_in_order l now out l' -> spec_run_paid l' d ops outs -> spec_run_paid l d (Oget now :: ops) (out :: outs)
| pd_get_paid l d now out l' ops outs : spec_step_weak l (Oget now) out l' -> spec_run_paid l' d ops outs -> spec_run_paid l (S d) (Oget now :: ops) (out :: outs)
| pd_push l d x s t ops outs : spec_run_paid (l ++ [mkPending x s t]) d ops outs -> spec_run_paid l d (Opush x s t :: ops) ([] :: outs)
| pd_getAll l d l2 ops outs : in_schedule_order l l2 -> spec_run_paid [] 0 ops outs -> spec_run_paid l d (OgetAll :: ops) (map p_item l2 :: outs)
| pd_clear l d ops outs : spec_run_paid [] 0 ops outs -> spec_run_paid l d (Oclear :: ops) ([] :: outs)
| pd_abandon l d lim ops outs :
    spec_run_paid (filter (fun x => N.ltb (p_sched x) lim) l) (d + List.length (filter (fun x => negb (N.ltb (p_sched x) lim)) l)) ops outs ->
    spec_run_paid l d (Oabandon lim :: ops) ([] :: outs).

Definition is_abandon (o : op) : bool := match o with Oabandon _ => true | _ => false end.

(** The commands pushed by a history. *)
Definition pushed (ops : list op) : list A :=
  flat_map (fun o => match o with Opush x _ _ => [x] | _ => [] end) ops.

End Spec.
Arguments pending : clear implicits.
Arguments op : clear implicits.
