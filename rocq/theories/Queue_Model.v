(** Model of BedrockCommandQueue (BedrockCommandQueue.h:13-98, BedrockCommandQueue.cpp).

    A command is an opaque item of type [A]; the queue only reads its scheduled
    time and its timeout, which are passed at push time.  The wall clock
    ([STimeNow]) is an explicit argument.  The mutex makes every public method
    one atomic step, so a concurrent history is a list of operations. *)
From Verif Require Import Base Queue_Spec.

Section Queue.
Context {A : Type}.

(** std::multimap insertion: a new element goes after all elements with an
    equivalent key (C++11 [multimap.modifiers]); iteration is in key order.
    Used at BedrockCommandQueue.cpp:105-106. *)
Fixpoint mm_insert {V : Type} (k : N) (v : V) (m : list (N * V)) : list (N * V) :=
  match m with
  | [] => [(k, v)]
  | (k', v') :: m' => if N.leb k' k then (k', v') :: mm_insert k v m' else (k, v) :: m
  end.

(** BedrockCommandQueue.h:85 [_queue : multimap<Scheduled, ItemTimeoutPair>] and
    BedrockCommandQueue.h:93 [_lookupByTimeout : multimap<Timeout, Scheduled>]. *)
Record queue := mkQueue {
  q_queue  : list (N * (A * N));
  q_lookup : list (N * N)
}.

(** BedrockCommandQueue.cpp:13-16. *)
Definition q_init : queue := mkQueue [] [].

(** BedrockCommandQueue.cpp:100-108 (timing callbacks and notify omitted). *)
Definition q_push (q : queue) (x : A) (scheduled timeout : N) : queue :=
  mkQueue (mm_insert scheduled (x, timeout) (q_queue q))
          (mm_insert timeout scheduled (q_lookup q)).

(** BedrockCommandQueue.cpp:167-179: walk [equal_range(itemScheduled)] and take
    out the first entry whose timeout is [itemTimeout].  [equal_range] on a
    sorted multimap is the run of entries with that key, so entries with another
    key are skipped. *)
Fixpoint take_match (scheduled timeout : N) (m : list (N * (A * N)))
  : option (A * list (N * (A * N))) :=
  match m with
  | [] => None
  | (s, (x, t)) :: m' =>
      if N.eqb s scheduled && N.eqb t timeout then Some (x, m')
      else match take_match scheduled timeout m' with
           | Some (y, m'') => Some (y, (s, (x, t)) :: m'')
           | None => None
           end
  end.

(** BedrockCommandQueue.cpp:203-209: remove the first lookup entry with this
    timeout that points at this scheduled time, if any. *)
Fixpoint drop_lookup (timeout scheduled : N) (l : list (N * N)) : list (N * N) :=
  match l with
  | [] => []
  | (t, s) :: l' => if N.eqb t timeout && N.eqb s scheduled then l'
                    else (t, s) :: drop_lookup timeout scheduled l'
  end.

(** BedrockCommandQueue.cpp:192-216: the not-timed-out path of [_dequeue]. *)
Definition dequeue_due (q : queue) (now : N) : queue * option A :=
  match q_queue q with
  | (s, (x, t)) :: rest =>
      if N.leb s now then (mkQueue rest (drop_lookup t s (q_lookup q)), Some x)
      else (q, None)
  | [] => (q, None)
  end.

(** BedrockCommandQueue.cpp:151-217 [_dequeue]; [None] is the [out_of_range] throw. *)
Definition q_dequeue (q : queue) (now : N) : queue * option A :=
  match q_lookup q with
  | (t, s) :: rest =>
      if N.leb t now then
        match take_match s t (q_queue q) with
        | Some (x, m) => (mkQueue m rest, Some x)
        | None => dequeue_due (mkQueue (q_queue q) rest) now   (* lines 186-188 *)
        end
      else dequeue_due q now
  | [] => dequeue_due q now
  end.

(** BedrockCommandQueue.cpp:110-124. *)
Definition q_getAll (q : queue) : queue * list A :=
  (mkQueue [] [], map (fun e => fst (snd e)) (q_queue q)).

(** BedrockCommandQueue.cpp:25-30. *)
Definition q_clear (q : queue) : queue := mkQueue [] [].

(** BedrockCommandQueue.cpp:136-149 after the limit has been computed:
    [erase(lower_bound(limit), end())].  Only [_queue] is touched. *)
Definition q_abandon (q : queue) (limit : N) : queue :=
  mkQueue (filter (fun e => N.ltb (fst e) limit) (q_queue q)) (q_lookup q).

(** BedrockCommandQueue.cpp:138: [STimeNow() + msInFuture * 1000] where
    [msInFuture * 1000] is computed in (32-bit, signed) int: overflow is undefined
    behaviour ([None]); otherwise it is converted to uint64 and added modulo 2^64. *)
Definition abandon_limit (now : N) (ms : Z) : option N :=
  let prod := (ms * 1000)%Z in
  if ((prod <? - 2147483648) || (2147483647 <? prod))%Z then None
  else Some (Z.to_N ((Z.of_N now + prod) mod 18446744073709551616)).

(** The output of a call is the list of commands handed to the caller. *)
Definition q_step (q : queue) (o : op A) : queue * list A :=
  match o with
  | Opush x s t => (q_push q x s t, [])
  | Oget now => let (q', r) := q_dequeue q now in
                (q', match r with Some x => [x] | None => [] end)
  | OgetAll => q_getAll q
  | Oclear => (q_clear q, [])
  | Oabandon l => (q_abandon q l, [])
  end.

Fixpoint q_run (q : queue) (ops : list (op A)) : queue * list (list A) :=
  match ops with
  | [] => (q, [])
  | o :: ops' => let (q', out) := q_step q o in
                 let (q'', outs) := q_run q' ops' in (q'', out :: outs)
  end.

(** ** Observations used to state properties (not part of the modelled code). *)

(** The commands currently held, in schedule order (what [getAll] would return). *)
Definition contents (q : queue) : list A := map (fun e => fst (snd e)) (q_queue q).

(** What a call throws away without handing it out. *)
Definition discarded (q : queue) (o : op A) : list A :=
  match o with
  | Oclear => contents q
  | Oabandon lim => map (fun e => fst (snd e)) (filter (fun e => negb (N.ltb (fst e) lim)) (q_queue q))
  | _ => []
  end.

Fixpoint all_discarded (q : queue) (ops : list (op A)) : list A :=
  match ops with
  | [] => []
  | o :: ops' => discarded q o ++ all_discarded (fst (q_step q o)) ops'
  end.

End Queue.
Arguments queue : clear implicits.
