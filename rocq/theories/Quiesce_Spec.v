(** What is said about BlockWrites and UnblockWrites.  Histories are lists of what is seen, the newest first. *)
From Verif Require Import Base.

Inductive asked := BlockWrites | UnblockWrites.
Inductive answer := Blocked | AlreadyBlocked | Unblocked | NotBlocked.      (* "200 Blocked", "400 Already Blocked", "200 Unblocked", "200 Not Blocked" *)
Inductive seen :=
| Asks (i : nat) (a : asked)           (* a control thread gets this command *)
| Answers (i : nat) (a : answer)
| Changes (j : nat)                    (* a thread writes to the database or commits *)
| Crashes.
(** The command [a] has been given to the control thread [i] and not yet been answered. *)
Fixpoint waiting (a : asked) (i : nat) (t : list seen) : bool :=
  match t with
  | [] => false
  | Asks k b :: t' => if Nat.eqb k i then match a, b with BlockWrites, BlockWrites | UnblockWrites, UnblockWrites => true | _, _ => false end else waiting a i t'
  | Answers k _ :: t' => if Nat.eqb k i then false else waiting a i t'
  | _ :: t' => waiting a i t'
  end.
(** Of the answers "200 Blocked" and "200 Unblocked", the last one given was "200 Blocked". *)
Fixpoint blocked (t : list seen) : bool :=
  match t with
  | [] => false
  | Answers _ Blocked :: _ => true
  | Answers _ Unblocked :: _ => false
  | _ :: t' => blocked t'
  end.
