(** C66: histories that have diverged, and which of two peers is the better one to synchronize from. *)
From Verif Require Import Base Repl_Spec.

(** One history is the beginning of the other one. *)
Definition compatible (h p : list entry) : Prop := is_prefix h p \/ is_prefix p h.

(** A latency of zero: not known yet, worse than every known one. *)
Definition sooner (a b : N) : Prop := (a <> 0 /\ (b = 0 \/ a < b))%N.
(** Nothing is gained by taking a peer with latency [l] and [c] commits instead of one with [l'] and [c']. *)
Definition not_better (l c l' c' : N) : Prop := ~ sooner l l' /\ (l = l' -> c <= c')%N.
