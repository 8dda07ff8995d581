(** What C45 is about: a client on one connection, its requests and what comes back. *)
From Verif Require Import Base Text_Spec Text_Model Table Http_Spec.

Inductive out :=
| Message (w : bytes)        (* bytes for the client *)
| CloseSocket
| ToPlugin (name : bytes)    (* a plugin gets the response, to do with it what it likes *)
| NotDelivered               (* the command is told that there is nobody to answer *)
| ServerDies.

(** The request says this under Connection, in any letter case. *)
Definition says (t : stable) (word : bytes) : Prop := exists v, tfind (lit "Connection") t = Some v /\ SToLower v = word.

(** The answer to a request: the response with the node's name and, if [told], with Connection: close. *)
Record answer (node : bytes) (told : bool) (response x : message) : Prop := mkAnswer {
  an_method : msg_method x = msg_method response;
  an_content : msg_content x = msg_content response;
  an_node : tfind (lit "nodeName") (msg_table x) = Some node;
  an_told : told = true -> tfind (lit "Connection") (msg_table x) = Some (lit "close");
  an_others : forall k, ~ is_name k (lit "nodeName") -> (told = true -> ~ is_name k (lit "Connection")) ->
              tfind k (msg_table x) = tfind k (msg_table response) }.
(** The answer to a request nobody waits for. *)
Definition queued_answer : message := mkMsg (lit "202 Successfully queued") [(lit "Connection", lit "close")] [].
