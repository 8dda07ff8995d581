(** What C47 is about: a command that has made requests to outside servers is sent on to another node with their results. *)
From Verif Require Import Base Http_Spec.

(** A request to an outside server that has a result: the times, the code of the result, what was asked and what was answered. *)
Record outside := Outside { o_created : N; o_finished : N; o_timeoutAt : N; o_response : Z; o_request : message; o_answer : message }.

Definition parts (x : message) : bytes * Table.stable * bytes := (msg_method x, msg_table x, msg_content x).
(** The node the command is sent to has it as well: the same numbers, and the messages as they arrive anywhere ([gz] compresses
    what is asked to be compressed). *)
Record same (gz : bytes -> bytes) (a b : outside) : Prop := mkSame {
  s_created : o_created b = o_created a;
  s_finished : o_finished b = o_finished a;
  s_timeoutAt : o_timeoutAt b = o_timeoutAt a;
  s_response : o_response b = o_response a;
  s_request : arrives gz (o_request a) (parts (o_request b));
  s_answer : arrives gz (o_answer a) (parts (o_answer b)) }.

(** The numbers fit their types, and the messages are messages. *)
Record outside_ok (gz : bytes -> bytes) (a : outside) : Prop := mkOk {
  k_numbers : (o_created a < 2 ^ 64 /\ o_finished a < 2 ^ 64 /\ o_timeoutAt a < 2 ^ 64)%N;
  k_response : (- 2 ^ 31 <= o_response a < 2 ^ 31)%Z;
  k_request : legal (o_request a) /\ (N.of_nat (List.length (gz (msg_content (o_request a)))) < 2 ^ 31)%N;
  k_answer : legal (o_answer a) /\ (N.of_nat (List.length (gz (msg_content (o_answer a)))) < 2 ^ 31)%N }.
