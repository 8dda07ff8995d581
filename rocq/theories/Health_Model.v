(** The answers to health checks: BedrockServer.cpp 1474-1477, 1496-1536, 1540-1555 (isLeader, state, version and isDetached of Status only), 2463-2473.
    [w k]: what is true when the k-th value is read; the values are atomic and each reading of the state looks for the node anew. *)
From Verif Require Import Base Table Text_Spec Ident_Spec Ident_Model Health_Spec.

(** 2463-2473 *)
Definition getState (m : moment) : state := match node m with Some s => s | None => SEARCHING end.
Definition is (s : state) (m : moment) : bool := bytes_eqb (stateName (getState m)) (stateName s).
(** 1502-1511 *)
Definition is_follower (w : nat -> moment) : bytes :=
  if is FOLLOWING (w 0) then lit "HTTP/1.1 200 Following" else lit "HTTP/1.1 500 Not Following. State=" ++ stateName (getState (w 1)).
(** 1512-1535 *)
Definition handling_commands (version : bytes) (w : nat -> moment) : bytes :=
  let leader := leader_version (w 0) in
  if backing_up (w 1) then lit "HTTP/1.1 503 Backup In Progress"
  else if detach (w 2) then lit "HTTP/1.1 503 Detached"
  else if match leader with [] => false | _ => negb (bytes_eqb version leader) end then lit "HTTP/1.1 500 Mismatched version. Version=" ++ version
  else
    let method := lit "HTTP/1.1 " in
    if is FOLLOWING (w 3) then method ++ lit "200" ++ lit " " ++ stateName (getState (w 4))
    else if is LEADING (w 4) then method ++ lit "200" ++ lit " " ++ stateName (getState (w 5))
    else if is STANDINGDOWN (w 5) then method ++ lit "200" ++ lit " " ++ stateName (getState (w 6))
    else method ++ lit "500" ++ lit " " ++ stateName (getState (w 6)).
(** 1540-1555 *)
Definition status (version : bytes) (w : nat -> moment) : stable :=
  let c := tput (lit "isLeader") (if is LEADING (w 0) then lit "true" else lit "false") [] in
  let c := tput (lit "state") (stateName (getState (w 1))) c in
  let c := tput (lit "version") version c in
  tput (lit "isDetached") (if detach (w 2) && (negb (loop (w 3)) && plugins_detached (w 4)) then lit "true" else lit "false") c.
