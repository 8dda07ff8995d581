(** Building a command from a request and answering it: BedrockServer.cpp 1343-1400, 2187-2258, 2313-2360.

    Left out: timing, logs, plugin ports, the control port while shutting down, and what is sent when the client has gone ([sent] false). *)
From Verif Require Import Base Text_Spec Text_Model Table Http_Model Http_Spec Timeout_Model Reply_Spec.
From Verif Require Run_Spec Run_Model Messenger_Model.

(** args["-nodeName"]; the names in plugins; _shutdownState == RUNNING *)
Record server := Server { v_node : bytes; v_plugins : list bytes; v_running : bool }.
(** The members of a command used here: request.nameValueMap, initiatingClientID < 0, socket. *)
Record command := Command { c_request : stable; c_pseudo : bool; c_socket : bool }.
Definition header (k : bytes) (t : stable) : bytes := match tfind k t with Some v => v | None => [] end.
Definition CONN : bytes := lit "Connection".

(** 1343-1400 *)
Definition _reply (gz : bytes -> bytes) (srv : server) (sent : bool) (c : command) (response : message) : list out :=
  if c_pseudo c then [NotDelivered]
  else
    let t := tput (lit "nodeName") (v_node srv) (msg_table response) in
    let t := if negb (v_running srv) || bytes_eqb (header CONN (c_request c)) (lit "close") then tput CONN (lit "close") t else t in
    if c_socket c then
      let closing := if ieqb (header CONN (c_request c)) (lit "close") || negb (v_running srv) then [CloseSocket] else [] in
      match header (lit "plugin") (c_request c) with
      | [] => match SComposeHTTP gz (msg_method response) t (msg_content response) with
              | None => [ServerDies]                                   (* 1382: an exception nobody catches *)
              | Some w => (if sent then [Message w] else [NotDelivered]) ++ closing
              end
      | name => if existsb (bytes_eqb name) (v_plugins srv) then ToPlugin name :: closing else [ServerDies]
      end
    else [NotDelivered].

(** 2187-2258: buildCommandFromRequest, with 2330-2332.  [blocked]: a request from the public command port while that is blocked;
    [source]: the address, if it is to be noted; [fails]: a plugin throws while it makes the command (1310-1334). *)
Definition build (gz : bytes -> bytes) (srv : server) (now : Z) (blocked fails : bool) (source : option bytes) (t : stable) : list out * option command :=
  let t := if blocked then tput CONN (lit "close") t else t in
  let forget := ieqb (header CONN t) (lit "forget") || (now <? u64 (calc64 (lit "commandExecuteTime") t))%Z in
  let first := if forget then
                 match SComposeHTTP gz (lit "202 Successfully queued") [(CONN, lit "close")] [] with
                 | Some w => [Message w; CloseSocket]
                 | None => []
                 end
               else [] in
  if forget && negb (v_running srv) then (first, None)
  else
    let t := match source with Some ip => tput (lit "_source") ip t | None => t end in
    let t := tdel (lit "serializedData") (tdel (lit "httpsRequests") t) in
    let t := if fails then [] else t in
    (first, Some (Command t (ieqb (header CONN t) (lit "forget")) (negb forget))).

(** One request: how it arrives, what happens to the command (C31) and what the command answers. *)
Record exchange := Exchange {
  e_server : server; e_now : Z; e_blocked : bool; e_fails : bool; e_source : option bytes; e_request : stable;
  e_runs : list (Run_Model.start * list Run_Model.pass); e_sent : bool; e_response : message }.
Definition exchanged (gz : bytes -> bytes) (e : exchange) : list out :=
  match build gz (e_server e) (e_now e) (e_blocked e) (e_fails e) (e_source e) (e_request e) with
  | (first, None) => first
  | (first, Some c) =>
      first ++ flat_map (fun ev => match ev with Run_Spec.Replied _ => _reply gz (e_server e) (e_sent e) c (e_response e) | _ => [] end)
                        (fst (Run_Model.life (e_runs e) (Messenger_Model.Command false ([], [], []))))
  end.
Definition ends (o : out) : bool := match o with CloseSocket | ServerDies => true | _ => false end.
(** 2279-2440: the next request is read when the command has been destroyed and the socket is still CONNECTED. *)
Fixpoint conversation (gz : bytes -> bytes) (l : list exchange) : list out :=
  match l with
  | [] => []
  | e :: l' => let o := exchanged gz e in if existsb ends o then o else o ++ conversation gz l'
  end.
Definition wire (l : list out) : bytes := flat_map (fun o => match o with Message w => w | _ => [] end) l.
