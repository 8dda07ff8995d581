(** Base64, RFC 4648 section 4, as bits: the bits of the bytes, filled up with zeros to groups of six, a letter of the alphabet
    for each group, and = signs up to a multiple of four letters. *)
From Verif Require Import Base.
Local Open Scope N_scope.

Definition alphabet : bytes := lit "ABCDEFGHIJKLMNOPQRSTUVWXYZabcdefghijklmnopqrstuvwxyz0123456789+/".
(** the [k] lowest bits of [n], the highest first *)
Fixpoint bits (k : nat) (n : N) : list bool :=
  match k with O => [] | S k' => N.testbit n (N.of_nat k') :: bits k' n end.
Definition base64 (b text : bytes) : Prop :=
  exists groups fill signs,
    Forall (fun g => g < 64) groups /\
    flat_map (bits 6) groups = flat_map (fun c => bits 8 (bcode c)) b ++ repeat false fill /\ (fill < 6)%nat /\
    text = map (fun g => nth (N.to_nat g) alphabet "="%char) groups ++ repeat "="%char signs /\ (signs < 4)%nat /\
    (exists q, List.length text = 4 * q)%nat.
