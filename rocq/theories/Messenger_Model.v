(** Sending a command to another node: SQLiteClusterMessenger.cpp 15-21, 106-345; the calls in BedrockServer.cpp 557-600 and
    729-748.

    The request is a parameter: [Some w], the bytes of request.serialize(), or [None] when that throws (SComposeHTTP).  The
    timer and the log are left out. *)
From Verif Require Import Base Text_Model Table Http_Model Messenger_Spec.

Definition answer : Type := (bytes * stable * bytes)%type.
(** The command's members: complete and response. *)
Record command := Command { complete : bool; response : answer }.
(** 15-21 *)
Definition setErrorResponse : command := Command true (lit "500 Internal Server Error", [], []).

(** How a call ends; [Throws]: an exception leaves it; [Running]: what is known of the network does not bring it to an end. *)
Inductive ret := Returns (b : bool) | Throws | Running.

(** 158-187.  The bytes handed to the socket, and what becomes of the loop. *)
Fixpoint send_loop (buf : bytes) (l : list tx) : bytes * ret :=
  match l with
  | [] => ([], Running)
  | TStop :: _ | TFatal :: _ => ([], Returns false)
  | TAgain :: l' => send_loop buf l'
  | TSent n :: l' =>
      match skipn n buf with
      | [] => (buf, Returns true)
      | rest => let (s, r) := send_loop rest l' in (firstn n buf ++ s, r)
      end
  end.
(** 197-235: [acc] is responseStr.  recv returning 0 is RClosed, so a piece is not empty. *)
Fixpoint recv_loop (acc : bytes) (l : list rx) : command * ret :=
  match l with
  | [] => (Command false ([], [], []), Running)
  | RStop :: _ | RFatal :: _ | RClosed :: _ => (setErrorResponse, Returns false)
  | RAgain :: l' => recv_loop acc l'
  | RGot b :: l' =>
      match SParseHTTP (acc ++ b) with
      | Done _ m t c => (Command true (m, t, c), Returns true)
      | Incomplete => recv_loop (acc ++ b) l'
      | Http_Model.Throws | Undefined => (Command false ([], [], []), Throws)
      end
  end.
(** 136-241 *)
Definition _sendCommandOnSocket (w : option bytes) (t : list tx) (r : list rx) (c : command) : bytes * command * ret :=
  match w with
  | None => ([], c, Throws)
  | Some w =>
      match send_loop w t with
      | (s, Returns true) => let (c', k) := recv_loop [] r in (s, c', k)
      | (s, k) => (s, c, k)
      end
  end.
(** 264-335.  The looks are those of the five seconds: when they are over without an address the result is false. *)
Fixpoint runOnPeer (runOnLeader : bool) (w : option bytes) (l : list look) (c : command) : bytes * command * ret :=
  match l with
  | [] => ([], c, Returns false)
  | NoAddress leading :: l' => if runOnLeader && leading then ([], c, Returns false) else runOnPeer runOnLeader w l' c
  | NoSocket :: _ => ([], c, Returns false)
  | Connected t r aborted :: _ =>
      match _sendCommandOnSocket w t r c with
      | (s, c', Returns false) =>
          if aborted then (s, Command true (lit "556 Aborted", snd (fst (response c')), snd (response c')), Returns true)
          else (s, c', Returns false)
      | other => other
      end
  end.
(** 106-134: to a peer by name; [l]: the peer is known and there is a connection. *)
Definition runOnPeerByName (w : option bytes) (l : option (list tx * list rx)) (c : command) : bytes * command * ret :=
  match l with
  | None => ([], setErrorResponse, Returns false)
  | Some (t, r) =>
      match _sendCommandOnSocket w t r c with
      | (s, _, Returns false) => (s, setErrorResponse, Returns false)
      | other => other
      end
  end.

(** BedrockServer.cpp 729-748: a follower sends the command to the leader after each peek that was not enough; when that
    fails the command goes back to the queue, and is answered from there once it is complete (593-605).  Each element
    of [ls] is one such attempt.  The result: what each attempt put on the wire. *)
Fixpoint to_leader (w : option bytes) (ls : list (list look)) (c : command) : list bytes * command :=
  match ls with
  | [] => ([], c)
  | l :: ls' =>
      if complete c then ([], c)
      else match runOnPeer true w l c with
           | (s, c', Returns _) => let (ss, c'') := to_leader w ls' c' in (s :: ss, c'')
           | (s, c', _) => ([s], c')
           end
  end.
(** 557-571: a follower of another version, or a command that is to be escalated at once.  The result: what went to the
    leader, what went to another follower. *)
Definition escalate_first (at_once other_version : bool) (w : option bytes) (l1 l2 : list look) (c : command) : bytes * bytes * command :=
  if negb (complete c) && (at_once || other_version) then
    let '(s1, c1, k1) := if at_once then runOnPeer true w l1 c else ([], c, Returns false) in
    match k1 with
    | Returns true | Throws | Running => (s1, [], c1)
    | Returns false => if other_version then let '(s2, c2, _) := runOnPeer false w l2 c1 in (s1, s2, c2) else (s1, [], c1)
    end
  else ([], [], c).
(** 575-587: while the node synchronizes. *)
Definition synchronizing (w : option bytes) (l : list look) (c : command) : bytes * command := fst (runOnPeer false w l c).
