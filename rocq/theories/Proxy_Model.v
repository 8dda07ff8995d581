(** The code of C59: SHTTPSProxySocket.cpp, with S_sendconsume and S_recvappend (libstuff.cpp 2234-2326), SSSLState::sendConsume and
    recvAppend (SSSLState.cpp 201-232), and STCPManager::prePoll (STCPManager.cpp 12-60).  TLS itself is not modelled: it takes bytes
    to be encrypted and gives bytes it has decrypted.  SFastBuffer is the bytes it holds (C08). *)
From Verif Require Import Base Text_Model Table Http_Model Https_Model Sockpool_Model Proxy_Spec.

(** SHTTPSProxySocket.h 23-38, STCPManager.h: [s_fd]: s > 0; [s_ssl]: the host name TLS was started with.
    What is remembered only to talk about it: [out_clear], the bytes that were sent as they are; [out_tls], those that were given to TLS;
    [in_clear] and [in_tls], the same for receiving; [given]: what was accepted for sending.
    [s_broken]: an exception left recv (or worse). *)
Record sock := Sock {
  s_state : state; s_fd : bool; s_pre : bytes; s_filled : bool; s_send : bytes; s_complete : bool; s_ssl : option bytes; s_recv : bytes;
  out_clear : bytes; out_tls : bytes; in_clear : bytes; in_tls : bytes; given : list bytes; s_broken : bool }.
(** 8-19.  The operating system can always open a socket here. *)
Definition opened : sock := Sock CONNECTING true [] false [] false None [] [] [] [] [] [] false.

Section model.
  (** hostname and requestID.  SData::serialize is SComposeHTTP (C14); no Content-Encoding, so nothing is compressed. *)
  Context (hostname requestID : bytes).
  (** 70-75 *)
  Definition connect : bytes :=
    let t := tput (lit "Host") hostname [] in
    let t := match requestID with [] => t | _ => tput (lit "X-Request-ID") requestID t end in
    match SComposeHTTP (fun b => b) (lit "CONNECT " ++ hostname ++ lit " HTTP/1.1") t [] with Some w => w | None => [] end.

  (** 34-63; whether the socket is alive *)
  Definition send (r : reply) (k : sock) : sock * bool :=
    match s_pre k with
    | _ :: _ =>
        match r with
        | Took n => (Sock (s_state k) (s_fd k) (skipn n (s_pre k)) (s_filled k) (s_send k) (s_complete k) (s_ssl k) (s_recv k)
                          (out_clear k ++ firstn n (s_pre k)) (out_tls k) (in_clear k) (in_tls k) (given k) (s_broken k), true)
        | NotNow => (k, true)
        | Never => (k, false)
        end
    | [] =>
        if s_complete k then
          match s_send k with
          | [] => (k, true)
          | _ =>
            match r with
            | Took n => (Sock (s_state k) (s_fd k) (s_pre k) (s_filled k) (skipn n (s_send k)) (s_complete k) (s_ssl k) (s_recv k)
                              (out_clear k) (out_tls k ++ firstn n (s_send k)) (in_clear k) (in_tls k) (given k) (s_broken k), true)
            | NotNow => (k, true)
            | Never => (k, false)
            end
          end
        else (k, true)
    end.
  (** 65-88 *)
  Definition send_buffer (b : bytes) (r : reply) (k : sock) : sock * bool :=
    match s_state k with
    | CONNECTING | CONNECTED =>
        send r (Sock (s_state k) (s_fd k) (if s_filled k then s_pre k else s_pre k ++ connect) true (s_send k ++ b) (s_complete k) (s_ssl k) (s_recv k)
                     (out_clear k) (out_tls k) (in_clear k) (in_tls k) (given k ++ [b]) (s_broken k))
    | _ => send r k
    end.
  (** 90-136.  SSSLState's constructor throws when hostname is no host and port (SSSLState.cpp 76-82). *)
  Definition recv (piece : bytes) (alive : bool) (k : sock) : sock * bool :=
    if negb (s_fd k) then (k, false)
    else if s_complete k then
      (Sock (s_state k) (s_fd k) (s_pre k) (s_filled k) (s_send k) (s_complete k) (s_ssl k) (s_recv k ++ piece)
            (out_clear k) (out_tls k) (in_clear k) (in_tls k ++ piece) (given k) (s_broken k), alive)
    else
      let buffer := s_recv k ++ piece in
      let next (st : state) (fd complete : bool) (ssl : option bytes) (buf : bytes) (broken : bool) :=
        Sock st fd (s_pre k) (s_filled k) (s_send k) complete ssl buf (out_clear k) (out_tls k) (in_clear k ++ piece) (in_tls k) (given k) broken in
      match SParseHTTP buffer with
      | Incomplete => (next (s_state k) true false (s_ssl k) buffer (s_broken k), alive)
      | Done _ m _ _ =>
          if contains m (lit " 200 ") then
            if SHostIsValid hostname then (next (s_state k) true true (Some hostname) [] (s_broken k), alive)
            else (next (s_state k) true true (s_ssl k) [] true, alive)
          else (next CLOSED false false (s_ssl k) buffer (s_broken k), alive)
      | _ => (next (s_state k) true false (s_ssl k) buffer true, alive)
      end.
  Definition become (s : state) (k : sock) : sock :=
    Sock s (s_fd k) (s_pre k) (s_filled k) (s_send k) (s_complete k) (s_ssl k) (s_recv k) (out_clear k) (out_tls k) (in_clear k) (in_tls k) (given k) (s_broken k).
  Definition step (k : sock) (e : event) : sock :=
    if s_broken k then k
    else match e with
         | Give b r => fst (send_buffer b r k)
         | Push r => fst (send r k)
         | Pull p a => fst (recv p a k)
         | Becomes s => become s k
         end.
  Definition run (l : list event) : sock := fold_left step l opened.
End model.
(** STCPManager::prePoll, 12-60, as long as there is no TLS: is the socket polled for the chance to send? *)
Definition wants_to_write (k : sock) : bool :=
  match s_state k with
  | CLOSED => false
  | CONNECTING => true
  | _ => match s_send k with [] => false | _ => true end
  end.
