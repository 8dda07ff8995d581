(** The queue of commands that block is emptied: BedrockServer.cpp 304-315 (the sync thread, when the node stops leading) and 1749-1763
    (ClearBlockingQueue), while other threads go on. *)
From Verif Require Import Base Queue_Spec Queue_Model RateLimit_Model Flush_Spec.

(** [told]: the commands that each ClearBlockingQueue that has ended took; the number of them is its flushedCount (1763). *)
Record server := Server { blocking : queue nat; main : queue nat; limits : limiter; tasks : list task; answered : list (nat * answer); told : list (list nat) }.
(** What happens, one step at a time: each call of a queue is under its lock. A thread is named by its place in [tasks]; which place that
    is changes, so that any thread can be next. *)
Inductive event :=
| Arrive (c : nat)                     (* a new command, into the main queue *)
| GetMain (now : N) | GetBlocking (now : N) (* a worker, and the blocking commit thread, take one *)
| PutMain (i : nat) | PutBlocking (i : nat) (now : N) (* a worker puts its command back, or into the queue of those that block *)
| Answer (i : nat)
| Ran (id name : bytes) (now elapsed : N)  (* recordExecutionTime *)
| Flush | FlushOne (i : nat) | FlushEnd (i : nat)   (* 1750; 1756-1760; 1762-1763 *)
| Move | MoveOne (i : nat) | MoveEnd (i : nat).     (* 306; 308-310; 314 *)

Section flush.
  (** What the queues look at in a command. *)
  Context (scheduled timeout : nat -> N) (identifier name : nat -> bytes).
  Fixpoint drop (i : nat) (l : list task) : list task :=
    match i, l with _, [] => [] | O, _ :: l' => l' | S i', t :: l' => t :: drop i' l' end.
  Definition push (q : queue nat) (c : nat) : queue nat := q_push q c (scheduled c) (timeout c).

  Definition step (s : server) (e : event) : server :=
    match e with
    | Arrive c => Server (blocking s) (push (main s) c) (limits s) (tasks s) (answered s) (told s)
    | GetMain now =>
        match q_dequeue (main s) now with
        | (q, Some c) => Server (blocking s) q (limits s) (Working c :: tasks s) (answered s) (told s)
        | (q, None) => Server (blocking s) q (limits s) (tasks s) (answered s) (told s)
        end
    | GetBlocking now =>
        match q_dequeue (blocking s) now with
        | (q, Some c) => Server q (main s) (limits s) (Working c :: tasks s) (answered s) (told s)
        | (q, None) => Server q (main s) (limits s) (tasks s) (answered s) (told s)
        end
    | PutMain i =>
        match nth_error (tasks s) i with
        | Some (Working c) => Server (blocking s) (push (main s) c) (limits s) (drop i (tasks s)) (answered s) (told s)
        | _ => s
        end
    | PutBlocking i now =>
        match nth_error (tasks s) i with
        | Some (Working c) =>
            if is_blocked (limits s) (identifier c) (name c) now then s (* push throws; the thread still has its command *)
            else Server (push (blocking s) c) (main s) (limits s) (drop i (tasks s)) (answered s) (told s)
        | _ => s
        end
    | Answer i =>
        match nth_error (tasks s) i with
        | Some (Working c) => Server (blocking s) (main s) (limits s) (drop i (tasks s)) ((c, Other) :: answered s) (told s)
        | _ => s
        end
    | Ran id nm now elapsed => Server (blocking s) (main s) (record (limits s) id nm now elapsed) (tasks s) (answered s) (told s)
    | Flush =>
        let (q, l) := q_getAll (blocking s) in Server q (main s) (limits s) (Flushing l l :: tasks s) (answered s) (told s)
    | FlushOne i =>
        match nth_error (tasks s) i with
        | Some (Flushing took (c :: l)) => Server (blocking s) (main s) (limits s) (Flushing took l :: drop i (tasks s)) ((c, Unavailable) :: answered s) (told s)
        | _ => s
        end
    | FlushEnd i =>
        match nth_error (tasks s) i with
        | Some (Flushing took []) => Server (blocking s) (main s) (fst (clear_limits (limits s))) (drop i (tasks s)) (answered s) (took :: told s)
        | _ => s
        end
    | Move =>
        let (q, l) := q_getAll (blocking s) in Server q (main s) (limits s) (Moving l :: tasks s) (answered s) (told s)
    | MoveOne i =>
        match nth_error (tasks s) i with
        | Some (Moving (c :: l)) => Server (blocking s) (push (main s) c) (limits s) (Moving l :: drop i (tasks s)) (answered s) (told s)
        | _ => s
        end
    | MoveEnd i =>
        match nth_error (tasks s) i with
        | Some (Moving []) => Server (blocking s) (main s) (fst (clear_limits (limits s))) (drop i (tasks s)) (answered s) (told s)
        | _ => s
        end
    end.
  Definition run (es : list event) (s : server) : server := fold_left step es s.
  Definition start : server := Server q_init q_init limiter0 [] [] [].
End flush.
