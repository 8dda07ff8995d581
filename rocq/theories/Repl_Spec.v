(** Specification side of replication: commit histories as lists of (query text, hash). *)
From Verif Require Import Base.

(** A committed transaction: its query text and its hash. *)
Definition entry := (bytes * bytes)%type.

Section Spec.
Variable sha : bytes -> bytes.

(** The hash of the last commit of a history ("" when there is none). *)
Definition tip (h : list entry) : bytes := last (map snd h) [].

(** Each hash is the digest of the previous hash followed by the query text. *)
Fixpoint linked (prev : bytes) (h : list entry) : Prop :=
  match h with
  | [] => True
  | e :: h' => snd e = sha (prev ++ fst e) /\ linked (snd e) h'
  end.
Definition valid (h : list entry) : Prop := linked [] h.

(** The first commits of [p], as many as [h] has, are exactly [h]. *)
Definition is_prefix (h p : list entry) : Prop := exists more, p = h ++ more.

(** The texts a history has digests of. *)
Definition digested (h : list entry) (x : bytes) : Prop := exists a e b, h = a ++ e :: b /\ x = tip a ++ fst e.
(** Two different texts with the same digest, one of them in the first and one in the second history. *)
Definition collision (h p : list entry) : Prop := exists x y, digested h x /\ digested p y /\ x <> y /\ sha x = sha y.
End Spec.
