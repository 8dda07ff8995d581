(** Model of ConflictLockGuard (ConflictLockGuard.cpp) as a transition system. Every critical
    section of controlMutex is one step and taking the per-identifier mutex is another.
    Simplification: the iterator map mutexOrderFastLookup is the position of the identifier in
    the order list. Using a mutex that has been destroyed is the outcome [LBad]. *)
From Verif Require Import Base Maps.

(** A mutex object: which object it is (a new one per creation) and the guard holding it. *)
Definition mutex := (nat * option nat)%type.
Inductive gphase := GWait | GHeld | GDone.
(** One ConflictLockGuard object: its identifier (ConflictLockGuard.h:14), the mutex its
    constructor found (ConflictLockGuard.cpp:85), and how far it is. *)
Record guard := mkG { g_id : N; g_mutex : nat; g_phase : gphase }.

(** ConflictLockGuard.cpp:2-6. *)
Record locks := mkLocks {
  l_mutexes : list (N * mutex);
  l_counts : list (N * Z);
  l_order : list N;
  l_next : nat;              (* ghost: identity of the next mutex object *)
  l_guards : list guard      (* ghost: the guards, in creation order *)
}.
Definition locks_init : locks := mkLocks [] [] [] 0 [].

Definition lget {A} (m : list (N * A)) (k : N) : option A := aget N.eqb k m.
Definition lset {A} (m : list (N * A)) (k : N) (v : A) : list (N * A) := aset N.eqb k v m.
Definition ldel {A} (m : list (N * A)) (k : N) : list (N * A) := adel N.eqb k m.
Definition lremove (id : N) (l : list N) : list N := filter (fun x => negb (N.eqb x id)) l.

(** :55. *)
Definition MAX_PAGE_MUTEXES : nat := 500.

(** :67: [mutexCounts[...]], a missing entry reads as 0. *)
Definition count_of (cs : list (N * Z)) (id : N) : Z := match lget cs id with Some c => c | None => 0%Z end.

(** :64-80: one iteration of the pruning loop. *)
Definition prune_one (s : list (N * mutex) * list (N * Z) * list N) (id : N) :=
  let '(ms, cs, ord) := s in
  if Z.eqb (count_of cs id) 0 then (ldel ms id, ldel cs id, lremove id ord) else (ms, cs, ord).

(** :56-82: visits the last size-500 entries, back to front. Erasing the visited entry does not
    move the entries in front of it, so they can be listed beforehand. *)
Definition prune (ms : list (N * mutex)) (cs : list (N * Z)) (ord : list N) :=
  if Nat.ltb MAX_PAGE_MUTEXES (List.length ms)
  then fold_left prune_one (firstn (List.length ms - MAX_PAGE_MUTEXES) (rev ord)) (ms, cs, ord)
  else (ms, cs, ord).

(** :18-45: find or create the mutex, count the reference and move it to the front. *)
Definition reference (s : locks) (id : N) : list (N * mutex) * list (N * Z) * list N * nat * nat :=
  match lget (l_mutexes s) id with
  | None => (lset (l_mutexes s) id (l_next s, None), lset (l_counts s) id 1%Z, id :: l_order s, l_next s, S (l_next s))
  | Some (m, _) =>
      (l_mutexes s, lset (l_counts s) id (count_of (l_counts s) id + 1)%Z,
       (match l_order s with
        | x :: _ => if N.eqb x id then l_order s else id :: lremove id (l_order s)
        | [] => id :: lremove id (l_order s)
        end), m, l_next s)
  end.

Inductive levent :=
| LEnter (id : N)       (* a guard is constructed, up to :86 *)
| LAcquire (g : nat)    (* :89 for guard [g] *)
| LLeave (g : nat).     (* the destructor of guard [g], :92-104 *)
Inductive lres := LState (s : locks) | LBad.

Fixpoint set_phase (g : nat) (p : gphase) (l : list guard) : list guard :=
  match l, g with
  | [], _ => []
  | x :: l', O => mkG (g_id x) (g_mutex x) p :: l'
  | x :: l', S g' => x :: set_phase g' p l'
  end.

(** [None]: the step is not enabled (the mutex is held by another guard, or the guard is not
    in the right phase). *)
Definition lstep (s : locks) (e : levent) : option lres :=
  match e with
  | LEnter id =>
      if N.eqb id 0 then Some (LState (mkLocks (l_mutexes s) (l_counts s) (l_order s) (l_next s) (l_guards s ++ [mkG 0 0 GHeld])))
      else
        let '(ms, cs, ord, m, n) := reference s id in
        if Nat.ltb (List.length ord) (List.length ms - MAX_PAGE_MUTEXES) then Some LBad (* :63 before begin() *)
        else
          let '(ms', cs', ord') := prune ms cs ord in
          Some (LState (mkLocks ms' cs' ord' n (l_guards s ++ [mkG id m GWait])))
  | LAcquire g =>
      match nth_error (l_guards s) g with
      | Some (mkG id m GWait) =>
          match lget (l_mutexes s) id with
          | Some (m', h) =>
              if Nat.eqb m m'
              then match h with
                   | None => Some (LState (mkLocks (lset (l_mutexes s) id (m', Some g)) (l_counts s) (l_order s) (l_next s) (set_phase g GHeld (l_guards s))))
                   | Some _ => None
                   end
              else Some LBad
          | None => Some LBad
          end
      | _ => None
      end
  | LLeave g =>
      match nth_error (l_guards s) g with
      | Some (mkG id m GHeld) =>
          if N.eqb id 0 then Some (LState (mkLocks (l_mutexes s) (l_counts s) (l_order s) (l_next s) (set_phase g GDone (l_guards s))))
          else match lget (l_mutexes s) id, lget (l_counts s) id with
               | Some (m', Some h), Some c =>
                   if Nat.eqb h g
                   then Some (LState (mkLocks (lset (l_mutexes s) id (m', None)) (lset (l_counts s) id (c - 1)%Z) (l_order s) (l_next s)
                                              (set_phase g GDone (l_guards s))))
                   else Some LBad
               | _, _ => Some LBad
               end
      | _ => None
      end
  end.
Fixpoint lrun (s : locks) (es : list levent) : option lres :=
  match es with
  | [] => Some (LState s)
  | e :: es' => match lstep s e with Some (LState s') => lrun s' es' | Some LBad => Some LBad | None => None end
  end.
