(** Model of SSynchronizedQueue (libstuff/SSynchronizedQueue.h) as a transition system.

    The mutex is modelled by its holder.  push() is two steps (append, then write the wake-up
    byte) because the pipe is read without the mutex; pop, clear, front, size and empty do all
    their work in one critical section and are one step.  Reading the pipe is one step per
    byte.  Simplifications: the pipe is a byte counter with capacity [K] (65536 on Linux), and
    each() is not modelled. *)
From Verif Require Import Base.

Section SQ.
Variable T : Type.
Variable K : nat.

(** SSynchronizedQueue.h:44-57, plus what the callers see. *)
Record squeue := mkSQ {
  sq_items : list T;                 (* _queue *)
  sq_pipe : nat;                     (* bytes in the pipe *)
  sq_lock : option nat;              (* thread inside push, between append and write *)
  sq_awake : list nat;               (* threads that read a wake-up byte and have not since
                                        found or made the queue empty *)
  sq_pushed : list T;                (* every pushed item, in order *)
  sq_removed : list (T * bool)       (* items taken out, in order; true = returned by pop *)
}.
Definition sq_init : squeue := mkSQ [] 0 None [] [] [].

Inductive sqev :=
| QAppend (t : nat) (v : T)   (* :146-149 *)
| QWrite (t : nat)            (* :151-153, releases the mutex *)
| QPop (t : nat)              (* :132-142 *)
| QClear (t : nat)            (* :106-111 *)
| QRead (t : nat)             (* :91-93, one byte *)
| QReadEmpty (t : nat).       (* :97-99, the pipe is empty *)

Definition sq_step (s : squeue) (e : sqev) : option squeue :=
  match e with
  | QAppend t v =>
      match sq_lock s with
      | None => Some (mkSQ (sq_items s ++ [v]) (sq_pipe s) (Some t) (sq_awake s) (sq_pushed s ++ [v]) (sq_removed s))
      | Some _ => None
      end
  | QWrite t =>
      match sq_lock s with
      | Some h => if Nat.eqb h t && Nat.ltb (sq_pipe s) K
                  then Some (mkSQ (sq_items s) (S (sq_pipe s)) None (sq_awake s) (sq_pushed s) (sq_removed s))
                  else None                             (* :153: write() on a full pipe blocks *)
      | None => None
      end
  | QPop t =>
      match sq_lock s with
      | Some _ => None
      | None =>
          match sq_items s with
          | v :: l => Some (mkSQ l (sq_pipe s) None (sq_awake s) (sq_pushed s) (sq_removed s ++ [(v, true)]))
          | [] => Some (mkSQ [] (sq_pipe s) None (filter (fun x => negb (Nat.eqb x t)) (sq_awake s)) (sq_pushed s) (sq_removed s))
                                                        (* :141 throws *)
          end
      end
  | QClear t =>
      match sq_lock s with
      | Some _ => None
      | None => Some (mkSQ [] (sq_pipe s) None (filter (fun x => negb (Nat.eqb x t)) (sq_awake s)) (sq_pushed s)
                           (sq_removed s ++ map (fun v => (v, false)) (sq_items s)))
      end
  | QRead t =>
      match sq_pipe s with
      | S n => Some (mkSQ (sq_items s) n (sq_lock s) (t :: sq_awake s) (sq_pushed s) (sq_removed s))
      | O => None
      end
  | QReadEmpty t => match sq_pipe s with O => Some s | S _ => None end
  end.

Fixpoint sq_run (s : squeue) (es : list sqev) : option squeue :=
  match es with [] => Some s | e :: es' => match sq_step s e with Some s' => sq_run s' es' | None => None end end.

Definition is_read (e : sqev) : Prop := match e with QRead _ => True | _ => False end.
End SQ.
Arguments mkSQ {T}. Arguments sq_items {T}. Arguments sq_pipe {T}. Arguments sq_lock {T}. Arguments sq_awake {T}.
Arguments sq_pushed {T}. Arguments sq_removed {T}. Arguments sq_init {T}.
Arguments QAppend {T}. Arguments QWrite {T}. Arguments QPop {T}. Arguments QClear {T}. Arguments QRead {T}. Arguments QReadEmpty {T}.
Arguments sq_step {T}. Arguments sq_run {T}. Arguments is_read {T}.
