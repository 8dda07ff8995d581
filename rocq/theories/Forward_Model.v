(** Outside requests of a command that is sent on: BedrockCommand.cpp 428-475; sqlitecluster/SQLiteClusterMessenger.cpp 141-156;
    BedrockServer.cpp 2218-2240; libstuff.cpp 3418-3431; SData.cpp 122-141.

    Left out: the plugin's own data (serializeData), the time-out and ID headers added on the way (C39, C33), logs.  [is_float]: which texts
    "%.6f" prints, as in Json_Model; [gz]: the compressor.  [None] is an exception; sending on then throws, and on arrival it makes
    the answer of the command (2240-2250). *)
From Verif Require Import Base Dec Text_Spec Text_Model Table Http_Spec Http_Model Json_Model Base64_Model Forward_Spec.

(** libstuff.cpp 3428-3431: strtoull *)
Definition SToUInt64 (s : bytes) : N :=
  let most := (2 ^ 64 - 1)%N in
  match skip_space (cstr s) with
  | "-"%char :: s' => let v := dec_value 0 (digits_of s') in if N.ltb most v then most else ((2 ^ 64 - v) mod 2 ^ 64)%N
  | "+"%char :: s' => N.min most (dec_value 0 (digits_of s'))
  | s' => N.min most (dec_value 0 (digits_of s'))
  end.
(** 3418-3421: atoi, which glibc computes as (int) strtol *)
Definition SToInt (s : bytes) : Z := to_int (SToInt64 s).

Section forward.
  Context (is_float : bytes -> bool) (gz : bytes -> bytes).
  (** SData.cpp serialize; None: the method line is refused *)
  Definition serialize (x : message) : option bytes := SComposeHTTP gz (msg_method x) (msg_table x) (msg_content x).
  Definition encoded (x : message) : option bytes := match serialize x with Some w => SEncodeBase64 w | None => None end.
  (** BedrockCommand.cpp 463-471 *)
  Definition serialize_one (o : outside) : option bytes :=
    match encoded (o_request o), encoded (o_answer o) with
    | Some q, Some a =>
        SComposeJSONObject is_float
          (tput (lit "fullResponse") a (tput (lit "fullRequest") q (tput (lit "response") (decZ (o_response o))
            (tput (lit "timeoutAt") (dec (o_timeoutAt o)) (tput (lit "finished") (dec (o_finished o))
              (tput (lit "created") (dec (o_created o)) [])))))) false
    | _, _ => None
    end.
  Fixpoint serialize_all (l : list outside) : option (list bytes) :=
    match l with
    | [] => Some []
    | o :: l' => match serialize_one o, serialize_all l' with Some s, Some r => Some (s :: r) | _, _ => None end
    end.
  (** 455-475 *)
  Definition serializeHTTPSRequests (l : list outside) : option bytes :=
    match l with
    | [] => Some []
    | _ => match serialize_all l with Some r => SComposeJSONArray is_float r | None => None end
    end.

  (** SData.cpp 127-141: a text without a whole message leaves the members empty *)
  Definition deserialize (b : bytes) : option message :=
    match SParseHTTP b with
    | Done _ m t c => Some (mkMsg m t c)
    | Incomplete => Some (mkMsg [] [] [])
    | _ => None
    end.
  Definition member (k : bytes) (t : stable) : bytes := match tfind k t with Some v => v | None => [] end.
  (** 436-445 *)
  Definition deserialize_one (s : bytes) : option outside :=
    match SParseJSONObject s (lit "null") with
    | Some t =>
        match deserialize (SDecodeBase64 (member (lit "fullRequest") t)), deserialize (SDecodeBase64 (member (lit "fullResponse") t)) with
        | Some q, Some a =>
            Some (Outside (SToUInt64 (member (lit "created") t)) (SToUInt64 (member (lit "finished") t)) (SToUInt64 (member (lit "timeoutAt") t))
                          (SToInt (member (lit "response") t)) q a)
        | _, _ => None
        end
    | None => None
    end.
  Fixpoint deserialize_all (l : list bytes) : option (list outside) :=
    match l with
    | [] => Some []
    | s :: l' => match deserialize_one s, deserialize_all l' with Some o, Some r => Some (o :: r) | _, _ => None end
    end.
  (** 428-453 *)
  Definition deserializeHTTPSRequests (s : bytes) : option (list outside) :=
    match s with
    | [] => Some []
    | _ => match SParseJSONArray s (lit "null") with Some l => deserialize_all l | None => None end
    end.

  (** SQLiteClusterMessenger.cpp 141-156: the request that is sent *)
  Definition escalated (x : message) (l : list outside) : option message :=
    match l with
    | [] => Some x
    | _ => match serializeHTTPSRequests l with
           | Some s => Some (mkMsg (msg_method x) (tput (lit "httpsRequests") s (msg_table x)) (msg_content x))
           | None => None
           end
    end.
  (** BedrockServer.cpp 2218-2240: the headers of the command that is built and its outside requests.  Nothing here asks where the
      request comes from. *)
  Definition built (t : stable) : stable * option (list outside) :=
    (tdel (lit "serializedData") (tdel (lit "httpsRequests") t), deserializeHTTPSRequests (member (lit "httpsRequests") t)).
End forward.
