(** What C46 is about: the outside requests of a command and their results.  A request has a result when its response code is not 0. *)
From Verif Require Import Base Dec Text_Spec Text_Model Table Http_Spec.
Local Open Scope Z_scope.

(** The result the other server reports: the number after the first word of its status line. *)
Definition status (m : bytes) (n : Z) : Prop :=
  exists version k reason, ~ In " "%char version /\ m = version ++ " "%char :: dec k ++ reason /\
    (reason = [] \/ exists r, reason = " "%char :: r) /\ n = Z.of_N k /\ 0 < n < 2 ^ 31.
