(** What C29 says: which commands are refused, in terms of the reports a node has received. *)
From Verif Require Import Base Dec Text_Spec Text_Model Table Http_Spec.

(** A report: the method line of a command that crashed a node, and its identifying values. *)
Inductive cevent := Report (method : bytes) (values : stable) | Clear.

(** The reports received since the list was last cleared. *)
Fixpoint in_force (acc : list (bytes * stable)) (h : list cevent) : list (bytes * stable) :=
  match h with
  | [] => acc
  | Report m t :: h' => in_force ((m, t) :: acc) h'
  | Clear :: h' => in_force [] h'
  end.
Definition reported (h : list cevent) (m : bytes) (t : stable) : Prop := In (m, t) (in_force [] h).

(** A command has the identifying values of a report (Content-Length, which every message carries, apart). *)
Definition matches (values request : stable) : Prop :=
  forall k v, In (k, v) values -> ~ is_name k (lit "Content-Length") -> tfind k request = Some v.

Definition refused (h : list cevent) (m : bytes) (request : stable) : Prop :=
  (exists t1 t2, reported h m t1 /\ reported h m t2 /\ t1 <> t2) \/ (exists t, reported h m t /\ matches t request).

(** Identifying values that survive the journey in a message unchanged: header names other programs accept, no header
    with a meaning of its own, values without NUL and without spaces around them. *)
Definition plain_values (t : stable) : Prop :=
  table_ok t /\ forall k v, In (k, v) t ->
    legal_name k /\ nul_free v /\ unpadded v /\
    ~ is_name k (lit "Content-Length") /\ ~ is_name k (lit "Content-Encoding") /\ ~ is_name k (lit "Set-Cookie") /\ ~ is_name k (lit "Transfer-Encoding").
