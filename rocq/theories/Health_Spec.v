(** What is true of a node at a moment, as far as its answers to health checks depend on it. *)
From Verif Require Import Base Ident_Spec.

Record moment := Moment {
  node : option state;           (* None: the node is not made yet or is gone *)
  backing_up : bool;
  detach : bool; loop : bool; plugins_detached : bool;
  leader_version : bytes }.      (* empty: not known *)
(** States in which a node handles commands *)
Definition handles (m : moment) : Prop := node m = Some FOLLOWING \/ node m = Some LEADING \/ node m = Some STANDINGDOWN.
Definition begins (p : string) (l : bytes) : Prop := exists r, l = lit p ++ r.
(** From one moment to the next a node that handles commands and goes on to do so stays what it is or, being the leader, begins to stand down. *)
Definition goes_on (m m' : moment) : Prop := node m' = node m \/ node m = Some LEADING /\ node m' = Some STANDINGDOWN.
