(** C64: what is seen of a server while the database is upgraded. *)
From Verif Require Import Base.

(** The states of a node that matter: it leads, it stops leading, it follows, anything else. *)
Inductive node := Leading | Standing_down | Following | Other.

(** What happens, in order.  Commands have numbers. *)
Inductive event :=
| Became (n : node)             (* the node changes its state *)
| Starts (i : nat)              (* an upgrade begins: command number i *)
| Upgraded (i : nat)            (* that upgrade is done: what it wrote is committed, or there was nothing to write *)
| Known                         (* the server takes note that the database is upgraded *)
| Asks (i : nat) (n : node)     (* command i, which is not an upgrade, looks whether it may write; the node is in state n *)
| Writes (i : nat).             (* command i, which is not an upgrade, begins to write *)

Definition upgraded (t : list event) : Prop := exists i, In (Upgraded i) t.
Definition starts (t : list event) : nat := List.length (filter (fun e => match e with Starts _ => true | _ => false end) t).
Definition asks_not (i : nat) (t : list event) : Prop := forall n, ~ In (Asks i n) t.

(** Command i looked last while the node followed, and the node has become the leader since. *)
Definition overtaken (i : nat) (t : list event) : Prop :=
  exists before since, t = before ++ Asks i Following :: since /\ asks_not i since /\ In (Became Leading) since.
