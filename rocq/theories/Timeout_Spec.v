(** What a client says about time, in the words of the README and BedrockCommand.h. *)
From Verif Require Import Base Dec Text_Spec Text_Model Table.
Local Open Scope Z_scope.

(** How long the command may take, in milliseconds: the number in the header timeout; else an hour for a command nobody
    waits for; else 110 seconds. *)
Definition asks (t : stable) (ms : Z) : Prop :=
  (exists n, tfind (lit "timeout") t = Some (dec n) /\ ms = Z.of_N n /\ ms <= 2147483647) \/
  (tfind (lit "timeout") t = None /\ (exists v, tfind (lit "connection") t = Some v /\ map lower v = lit "forget") /\ ms = 3600000) \/
  (tfind (lit "timeout") t = None /\ (forall v, tfind (lit "connection") t = Some v -> map lower v <> lit "forget") /\ ms = 110000).
(** When its time begins, in microseconds: when it arrives, or when it is to be run. *)
Definition begins (t : stable) (now start : Z) : Prop :=
  (tfind (lit "commandExecuteTime") t = None /\ start = now) \/
  (exists n, tfind (lit "commandExecuteTime") t = Some (dec n) /\ start = Z.of_N n).
(** A clock reading: microseconds since 1970, before the year 148107. *)
Definition clock (z : Z) : Prop := 0 <= z < 2 ^ 62.
