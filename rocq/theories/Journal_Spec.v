(** Specification side of the transaction layer: what a commit history is, independently of
    handles, locks and tables. *)
From Verif Require Import Base Journal_Model.

Section Spec.
Variable D : Type.
Variable exec : D -> stmt -> D * bool.
Variable sha1hex comp : bytes -> bytes.

(** The statements of a committed transaction that went into its query text. *)
Definition entry_stmts (e : centry) : list stmt :=
  concat (map (fun g : wgroup => if snd g then map fst (fst g) else []) (c_groups e)).

(** Each hash is the digest of the previous hash followed by the query text. *)
Fixpoint chained (prev : bytes) (l : list centry) : Prop :=
  match l with
  | [] => True
  | e :: l' => c_hash e = sha1hex (prev ++ c_query e) /\ chained (c_hash e) l'
  end.
Definition last_hash (prev : bytes) (l : list centry) : bytes := last (map c_hash l) prev.

(** What is stored and shipped for a query text. *)
Definition stored (q : bytes) : bytes := match q with [] => [] | _ => comp q end.

(** Commit number [i] (from 1) of a history. *)
Definition commit_no (l : list centry) (i : N) : option centry :=
  if N.eqb i 0 then None else nth_error l (N.to_nat i - 1).

(** Running the committed query texts, statement by statement, one transaction after another. *)
Definition replay_stmts (d : D) (ss : list stmt) : D := fold_left (fun d q => fst (exec d q)) ss d.
Definition replay (d : D) (l : list centry) : D := fold_left (fun d e => replay_stmts d (entry_stmts e)) l d.

(** The transactions to ship, numbered from [n]+1. *)
Fixpoint numbered (n : N) (l : list centry) : list (N * (bytes * bytes)) :=
  match l with
  | [] => []
  | e :: l' => ((n + 1)%N, (stored (c_query e), c_hash e)) :: numbered (n + 1)%N l'
  end.
End Spec.
