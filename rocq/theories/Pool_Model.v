(** Model of SQLitePool and SQLiteScopedHandle (sqlitecluster/SQLitePool.cpp) as a transition
    system: each critical section of _sync is one step; the condition variable keeps a set of
    waiting threads, and notify_one (outside the critical section) is its own step.
    Simplifications: a handle is its index (opening the database is not modelled), and each
    granted index is owned by one SQLiteScopedHandle, as at every call site. *)
From Verif Require Import Base.

(** SQLitePool.cpp:14: [_maxDBs(max(maxDBs, 1ul))]. *)
Definition max_dbs (maxDBs : nat) : nat := Nat.max maxDBs 1.

(** std::set<size_t>: an ordered list without duplicates. *)
Fixpoint set_insert (i : nat) (l : list nat) : list nat :=
  match l with
  | [] => [i]
  | x :: l' => if Nat.ltb i x then i :: l else if Nat.eqb i x then l else x :: set_insert i l'
  end.
Definition set_erase (i : nat) (l : list nat) : list nat := filter (fun x => negb (Nat.eqb x i)) l.

(** SQLitePool.h:36-56 (the mutable part), SQLitePool.h:58-69 for the handles. *)
Record pool := mkPool {
  p_avail : list nat;              (* _availableHandles *)
  p_inuse : list nat;              (* _inUseHandles *)
  p_waiting : list nat;            (* threads asleep in _wait.wait, :67 *)
  p_woken : list nat;              (* threads woken, about to run the loop again *)
  p_notify : nat;                  (* returnToPool calls past :93, before :95 *)
  p_handles : list (nat * bool)    (* scoped handles in creation order: index, _released *)
}.
Definition pool_init : pool := mkPool [] [] [] [] 0 [].

(** SQLitePool.cpp:42-70: one pass of the loop of [getIndex]: the granted index and the two
    sets, or [None] to wait. *)
Definition get_index (maxDBs : nat) (avail inuse : list nat) : option (nat * list nat * list nat) :=
  match avail with
  | i :: rest => Some (i, rest, set_insert i inuse)
  | [] =>
      let n := List.length avail + List.length inuse in
      if Nat.ltb n (max_dbs maxDBs - 1) then Some (n, avail, set_insert n inuse) else None
  end.

Inductive pevent :=
| PGet (t : nat)          (* thread [t] calls getIndex and wraps the result *)
| PRetry (t : nat)        (* a woken thread runs the loop again *)
| PSpurious (t : nat)     (* the condition variable wakes a thread by itself *)
| PRelease (h : nat)      (* release() or the destructor of scoped handle [h]: :102-113, :88-93 *)
| PNotify (t : option nat). (* :95: wakes the given waiting thread, or nobody if none waits *)

Definition mem (t : nat) (l : list nat) : bool := existsb (Nat.eqb t) l.
Fixpoint drop1 (t : nat) (l : list nat) : list nat :=
  match l with [] => [] | x :: l' => if Nat.eqb x t then l' else x :: drop1 t l' end.
Fixpoint set_released (h : nat) (l : list (nat * bool)) : list (nat * bool) :=
  match l, h with
  | [], _ => []
  | (i, _) :: l', O => (i, true) :: l'
  | x :: l', S h' => x :: set_released h' l'
  end.

Section Pool.
Variable maxDBs : nat.

Definition pstep (s : pool) (e : pevent) : option pool :=
  match e with
  | PGet t =>
      if mem t (p_waiting s) || mem t (p_woken s) then None else
      match get_index maxDBs (p_avail s) (p_inuse s) with
      | Some (i, a, u) => Some (mkPool a u (p_waiting s) (p_woken s) (p_notify s) (p_handles s ++ [(i, false)]))
      | None => Some (mkPool (p_avail s) (p_inuse s) (t :: p_waiting s) (p_woken s) (p_notify s) (p_handles s))
      end
  | PRetry t =>
      if negb (mem t (p_woken s)) then None else
      match get_index maxDBs (p_avail s) (p_inuse s) with
      | Some (i, a, u) => Some (mkPool a u (p_waiting s) (drop1 t (p_woken s)) (p_notify s) (p_handles s ++ [(i, false)]))
      | None => Some (mkPool (p_avail s) (p_inuse s) (t :: p_waiting s) (drop1 t (p_woken s)) (p_notify s) (p_handles s))
      end
  | PSpurious t =>
      if mem t (p_waiting s)
      then Some (mkPool (p_avail s) (p_inuse s) (drop1 t (p_waiting s)) (t :: p_woken s) (p_notify s) (p_handles s))
      else None
  | PRelease h =>
      match nth_error (p_handles s) h with
      | Some (i, false) =>
          Some (mkPool (set_insert i (p_avail s)) (set_erase i (p_inuse s)) (p_waiting s) (p_woken s) (S (p_notify s))
                       (set_released h (p_handles s)))
      | Some (_, true) => Some s
      | None => None
      end
  | PNotify t =>
      match p_notify s, t with
      | S n, None => match p_waiting s with
                     | [] => Some (mkPool (p_avail s) (p_inuse s) [] (p_woken s) n (p_handles s))
                     | _ => None
                     end
      | S n, Some t => if mem t (p_waiting s)
                       then Some (mkPool (p_avail s) (p_inuse s) (drop1 t (p_waiting s)) (t :: p_woken s) n (p_handles s))
                       else None
      | O, _ => None
      end
  end.
Fixpoint prun (s : pool) (es : list pevent) : option pool :=
  match es with [] => Some s | e :: es' => match pstep s e with Some s' => prun s' es' | None => None end end.
End Pool.
