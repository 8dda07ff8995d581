(** BlockWrites and UnblockWrites: BedrockServer.cpp 1671-1674, 1809-1858; sqlitecluster/SQLite.cpp 477-510 (exclusiveLockDB, exclusiveUnlockDB), and
    the locks that writing takes: 517-531, 833, 882, 955, 971-1020, 1177, 1292.

    Any number of control threads and writing threads; each access to shared data is one step, in any order.  A writing thread holds
    writeLock shared during a statement and while old journal rows are removed, and commitLock from prepare, or from the begin of an exclusive transaction,
    to the end of the transaction; it does not wait for commitLock while it holds writeLock.  Left out: time limits of waiting for commitLock
    (a thread may stop waiting at any time), logs, the exceptions of lock(). *)
From Verif Require Import Base Quiesce_Spec.

(** A control thread: without a command, waiting for __quiesceLock, in the loop at 1838-1840, in join at 1853. *)
Inductive cpc := Idle | WantB | WantU | InB | InU.
(** The thread made at 1815: at 1816, 1818, in exclusiveLockDB before commitLock and before writeLock, at 1823, in the loop 1824-1833, after
    writeLock.unlock(), after commitLock.unlock(), at its end. *)
Inductive qpc := Starting | GotPool | NeedsCommit | NeedsWrite | HasBoth | Holding | Unlocked1 | Unlocked2 | Ended.
Inductive owner := Quiesce | Writer (j : nat).
Record state := State {
  pc : nat -> cpc;
  qlock : option nat;              (* __quiesceLock *)
  q : option qpc;                  (* __quiesceThread *)
  flag : bool;                     (* __quiesceShouldUnlock *)
  locked : bool;                   (* locked, a local variable of the command that is running *)
  clock : option owner;            (* commitLock *)
  excl : bool;                     (* writeLock, exclusive *)
  readers : list nat;              (* writeLock, shared *)
  pool : bool;                     (* _dbPool is set *)
  dead : bool }.                   (* a null pointer was followed *)
Definition set (f : nat -> cpc) (i : nat) (c : cpc) : nat -> cpc := fun k => if Nat.eqb k i then c else f k.
Definition init (p : bool) : state := State (fun _ => Idle) None None false false None false [] p false.

Inductive label :=
| Ask (i : nat) (a : asked)        (* _control is called *)
| Enter (i : nat)                  (* __quiesceLock is got: 1811-1815, 1846-1851 *)
| Poll (i : nat)                   (* 1838-1842: locked is read as true *)
| Join (i : nat)                   (* 1853-1857 *)
| Thread                           (* one step of the thread made at 1815 *)
| TakeCommit (j : nat) | DropCommit (j : nat) | TakeWrite (j : nat) | DropWrite (j : nat) | Change (j : nat)
| SetPool (p : bool).              (* detaching and attaching *)

Definition holds (j : nat) (s : state) : bool := existsb (Nat.eqb j) (readers s).
Definition commits (j : nat) (s : state) : bool := match clock s with Some (Writer k) => Nat.eqb k j | _ => false end.
Definition step (l : label) (s : state) : option (state * option seen) :=
  let '(State pc qlock q flag locked clock excl readers pool dead) := s in
  if dead then None else
  match l with
  | Ask i a =>
      match pc i with
      | Idle => Some (State (set pc i (match a with BlockWrites => WantB | UnblockWrites => WantU end)) qlock q flag locked clock excl readers pool dead, Some (Asks i a))
      | _ => None
      end
  | Enter i =>
      match qlock with
      | Some _ => None
      | None =>
          match pc i, q with
          | WantB, Some _ => Some (State (set pc i Idle) None q flag locked clock excl readers pool dead, Some (Answers i AlreadyBlocked))           (* 1812-1813 *)
          | WantB, None => Some (State (set pc i InB) (Some i) (Some Starting) flag false clock excl readers pool dead, None)                        (* 1810, 1815 *)
          | WantU, None => Some (State (set pc i Idle) None q flag locked clock excl readers pool dead, Some (Answers i NotBlocked))                  (* 1848-1849 *)
          | WantU, Some _ => Some (State (set pc i InU) (Some i) q true locked clock excl readers pool dead, None)                                   (* 1851 *)
          | _, _ => None
          end
      end
  | Poll i =>
      match pc i with
      | InB => if locked then Some (State (set pc i Idle) None q flag locked clock excl readers pool dead, Some (Answers i Blocked)) else None
      | _ => None
      end
  | Join i =>
      match pc i, q with
      | InU, Some Ended => Some (State (set pc i Idle) None None flag locked clock excl readers pool dead, Some (Answers i Unblocked))
      | _, _ => None
      end
  | Thread =>
      match q with
      | Some Starting => Some (State pc qlock (Some (if pool then GotPool else Ended)) flag locked clock excl readers pool dead, None)                (* 1816-1817 *)
      | Some GotPool => if pool then Some (State pc qlock (Some NeedsCommit) flag locked clock excl readers pool dead, None)                          (* 1818: _dbPool is read again *)
                        else Some (State pc qlock q flag locked clock excl readers pool true, Some Crashes)
      | Some NeedsCommit => match clock with None => Some (State pc qlock (Some NeedsWrite) flag locked (Some Quiesce) excl readers pool dead, None) | _ => None end
      | Some NeedsWrite => if excl then None else match readers with [] => Some (State pc qlock (Some HasBoth) flag locked clock true readers pool dead, None) | _ => None end
      | Some HasBoth => Some (State pc qlock (Some Holding) flag true clock excl readers pool dead, None)                                            (* 1823 *)
      | Some Holding => if flag then Some (State pc qlock (Some Unlocked1) flag locked clock false readers pool dead, None) else None                (* 1825-1826 *)
      | Some Unlocked1 => Some (State pc qlock (Some Unlocked2) flag locked None excl readers pool dead, None)
      | Some Unlocked2 => Some (State pc qlock (Some Ended) false locked clock excl readers pool dead, None)                                         (* 1827-1828 *)
      | _ => None
      end
  | TakeCommit j => match clock with None => if existsb (Nat.eqb j) readers then None else Some (State pc qlock q flag locked (Some (Writer j)) excl readers pool dead, None) | _ => None end
  | DropCommit j => match clock with Some (Writer k) => if Nat.eqb k j then Some (State pc qlock q flag locked None excl readers pool dead, None) else None | _ => None end
  | TakeWrite j => if excl || existsb (Nat.eqb j) readers then None else Some (State pc qlock q flag locked clock excl (j :: readers) pool dead, None)
  | DropWrite j => if existsb (Nat.eqb j) readers then Some (State pc qlock q flag locked clock excl (filter (fun k => negb (Nat.eqb k j)) readers) pool dead, None) else None
  | Change j => if existsb (Nat.eqb j) readers || match clock with Some (Writer k) => Nat.eqb k j | _ => false end then Some (s, Some (Changes j)) else None
  | SetPool p => Some (State pc qlock q flag locked clock excl readers p dead, None)
  end.
Definition note (o : option seen) (t : list seen) : list seen := match o with Some x => x :: t | None => t end.
(** The states that can be reached and what was seen on the way, the newest first; [p]: there is a database at the start; [may]: this may change. *)
Inductive reach (p may : bool) : state -> list seen -> Prop :=
| Reach0 : reach p may (init p) []
| Reach1 s t l s' o : reach p may s t -> may = true \/ (forall b, l <> SetPool b) -> step l s = Some (s', o) -> reach p may s' (note o t).
(** Going on with these steps *)
Fixpoint go (ls : list label) (s : state) (t : list seen) : option (state * list seen) :=
  match ls with
  | [] => Some (s, t)
  | l :: ls' => match step l s with Some (s', o) => go ls' s' (note o t) | None => None end
  end.
