(** What a node of the cluster may do, independently of how the code decides it. *)
From Verif Require Import Base Cluster_Model.

(** The documented state machine (SQLiteNode.h:8-46, SQLiteNode.cpp:465-476, 557-601, 732-742,
    798-813, 885-889, 910-916): which state may directly follow which. [alone]: the node has no
    peers at all. *)
Definition may_follow (alone : bool) (a b : nstate) : bool :=
  match a, b with
  | SEARCHING, LEADING => alone
  | SEARCHING, SYNCHRONIZING | SEARCHING, WAITING => true
  | SYNCHRONIZING, SEARCHING | SYNCHRONIZING, WAITING => true
  | WAITING, SEARCHING | WAITING, SUBSCRIBING | WAITING, STANDINGUP => true
  | STANDINGUP, SEARCHING | STANDINGUP, LEADING => true
  | LEADING, STANDINGDOWN | LEADING, SEARCHING => true
  | STANDINGDOWN, SEARCHING => true
  | SUBSCRIBING, SEARCHING | SUBSCRIBING, FOLLOWING => true
  | FOLLOWING, SEARCHING => true
  | _, _ => false
  end.
(** [moves alone a k b]: from [a] to [b] in [k] documented transitions. *)
Inductive moves (alone : bool) : nstate -> nat -> nstate -> Prop :=
| moves_none a : moves alone a 0 a
| moves_more a b c k : may_follow alone a b = true -> moves alone b k c -> moves alone a (S k) c.

(** The nodes that vote: all that are not permafollowers. *)
Definition voters (n : nat) (full : nat -> bool) : list nat := filter full (seq 0 n).
(** A strict majority of them. *)
Definition majority (n : nat) (full : nat -> bool) (Q : list nat) : Prop :=
  NoDup Q /\ incl Q (voters n full) /\ List.length (voters n full) < 2 * List.length Q.
