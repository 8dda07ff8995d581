(** IDs of commands and requests, the plugin that makes a command, the follower a command is sent to, names of states:
    BedrockServer.cpp 985-996, 1281-1341, 2182-2185; sqlitecluster/SQLiteCommand.cpp 6-29, 72-81; libstuff/SRandom.cpp 18-33;
    plugins/DB.cpp 48-54, plugins/Jobs.cpp 58-73 and 117-123, plugins/Cache.cpp 17-28, plugins/MySQL.cpp 363-366;
    sqlitecluster/SQLiteNode.cpp 326-335, 398-416, 2300-2354.

    Left out: logs, the times of a command, what the constructor of a plugin's command does to the request.  SRandom::_generator is used
    by all threads without a lock; here a number drawn is any number. *)
From Verif Require Import Base Dec Text_Spec Text_Model Table Http_Spec Ident_Spec.

(** ** IDs *)
(** args["-nodeName"], _requestCount (an atomic uint64_t) *)
Record node := Node { n_name : bytes; n_count : N }.
(** BedrockServer.cpp 2182-2185 *)
Definition generateCommandID (n : node) : bytes * node :=
  (n_name n ++ "#"%char :: dec (n_count n), Node (n_name n) ((n_count n + 1) mod 2 ^ 64)%N).
(** 991-995 and 1023: a new process, or attaching again *)
Definition resetServer (n : node) : node := Node (n_name n) 0.

(** SQLiteCommand.cpp 21 *)
Definition chars : bytes := lit "abcdefghijklmnopqrstuvwxyzABCDEFGHIJKLMNOPQRSTUVWXYZ0123456789".
Definition char_at (s : bytes) (i : N) : ascii := nth (N.to_nat i) s " "%char.
(** 22-25; [draws i]: the number that the i-th call of SRandom::rand64 gives *)
Fixpoint random_text (from : bytes) (modulus : N) (draws : nat -> N) (i k : nat) : bytes :=
  match k with
  | O => []
  | S k' => char_at from (draws i mod modulus)%N :: random_text from modulus draws (S i) k'
  end.
Definition size (s : bytes) : N := N.of_nat (length s).
(** 6-29: preprocessRequest *)
Definition preprocessRequest (draws : nat -> N) (r : message) : message :=
  match tfind (lit "requestID") (msg_table r) with
  | Some _ => r
  | None => mkMsg (msg_method r) (tput (lit "requestID") (random_text chars (size chars) draws 0 6) (msg_table r)) (msg_content r)
  end.
(** libstuff/SRandom.cpp 23-33 *)
Definition randStr_chars : bytes := lit "0123456789ABCDEFGHIJKLMNOPQRSTUVWXYZabcdefghijklmnopqrstuvwxyz".
Definition randStr (draws : nat -> N) (len : nat) : bytes := random_text randStr_chars (size randStr_chars - 1) draws 0 len.

(** ** The plugin *)
(** plugins: a map, in the order of the names; getCommand gets the base command with its request and ID *)
Record plugin := Plugin { g_name : bytes; g_get : message -> bytes -> tried }.
(** BedrockServer.cpp 1301-1341 *)
Fixpoint from_plugins (l : list plugin) (r : message) (id : bytes) : command :=
  match l with
  | [] => Command None r id false nothing                                                              (* 1340 *)
  | g :: l' =>
      match g_get g r id with
      | Declined => from_plugins l' r id
      | Accepted => Command (Some (g_name g)) r id false nothing                                       (* 1307-1310 *)
      | Fails what headers body => Command None nothing [] true (mkMsg what headers body)              (* 1313-1324; an empty table or text stays empty *)
      | Breaks => Command None nothing [] true (mkMsg (lit "500 Internal server error") [] [])          (* 1325-1337 *)
      end
  end.
(** 1281-1299 *)
Definition getCommandFromPlugins (l : list plugin) (n : node) (draws : nat -> N) (request : message) : command * node :=
  let base := preprocessRequest draws request in
  let (id, n') := match tfind (lit "ID") (msg_table base) with Some v => (v, n) | None => generateCommandID n end in
  let c := from_plugins l base id in
  (Command (m_plugin c) (m_request c) id (m_complete c) (m_response c), n').
(** sqlitecluster/SQLiteClusterMessenger.cpp 141, 157: the request that is sent on (the other headers: C39, C66) *)
Definition sent_on (c : command) : message :=
  mkMsg (msg_method (m_request c)) (tput (lit "ID") (m_id c) (msg_table (m_request c))) (msg_content (m_request c)).

(** The nodes of a cluster and what happens on them; the commands made, each with the request *)
Fixpoint on_node (name : bytes) (f : node -> option command * node) (l : list node) : option command * list node :=
  match l with
  | [] => (None, [])
  | n :: l' => if bytes_eqb (n_name n) name then let (c, n') := f n in (c, n' :: l')
               else let (c, r) := on_node name f l' in (c, n :: r)
  end.
Fixpoint history (plugins : list plugin) (nodes : list node) (h : list event) : list (message * command) :=
  match h with
  | [] => []
  | Asked name draws r :: h' =>
      let (c, nodes') := on_node name (fun n => let (c, n') := getCommandFromPlugins plugins n draws r in (Some c, n')) nodes in
      match c with Some c => (r, c) :: history plugins nodes' h' | None => history plugins nodes' h' end
  | Restarted name :: h' => let (_, nodes') := on_node name (fun n => (None, resetServer n)) nodes in history plugins nodes' h'
  end.

(** *** The plugins of this repository *)
(** libstuff/SData.cpp 107-110: getVerb *)
Fixpoint verb (s : bytes) : bytes := match s with [] => [] | c :: s' => if Ascii.eqb c " " then [] else c :: verb s' end.
(** plugins/Jobs.cpp 58-73 *)
Definition jobs_verbs : list bytes :=
  [lit "GetJob"; lit "GetJobs"; lit "QueryJob"; lit "CreateJob"; lit "CreateJobs"; lit "CancelJob"; lit "UpdateJob"; lit "RetryJob";
   lit "FinishJob"; lit "FailJob"; lit "DeleteJob"; lit "RequeueJobs"; lit "CrashBedrockJob"; lit "ClearCrashedBedrockJobs"].
(** plugins/Cache.cpp 17-20 *)
Definition cache_verbs : list bytes := [lit "ReadCache"; lit "WriteCache"].
(** a set with STableComp *)
Definition among (v : bytes) (l : list bytes) : bool := existsb (ieqb v) l.
(** libstuff.cpp SStartsWith *)
Fixpoint starts (s needle : bytes) : bool :=
  match needle, s with [], _ => true | c :: n', d :: s' => Ascii.eqb c d && starts s' n' | _, [] => false end.
(** Cache.cpp 22-28, DB.cpp 48-54, Jobs.cpp 117-123, MySQL.cpp 363-366 *)
Definition cache_takes (r : message) : bool := among (verb (msg_method r)) cache_verbs.
Definition db_takes (r : message) : bool := starts (SToLower (msg_method r)) (lit "query:") || ieqb (verb (msg_method r)) (lit "Query").
Definition jobs_takes (r : message) : bool := among (verb (msg_method r)) jobs_verbs.
Section plugins.
  (** What making the command of this plugin ends with. *)
  Context (make : bytes -> message -> bytes -> tried).
  Definition takes_if (name : bytes) (takes : message -> bool) : plugin :=
    Plugin name (fun r id => if takes r then make name r id else Declined).
  Definition own_plugins : list plugin :=
    [takes_if (lit "Cache") cache_takes; takes_if (lit "DB") db_takes; takes_if (lit "Jobs") jobs_takes; takes_if (lit "MySQL") (fun _ => false)].
End plugins.

(** ** The follower *)
(** sqlitecluster/SQLiteNode.cpp 326-335; [lead]: _leadPeer *)
Definition getLeaderVersion (own : bytes) (s : state) (lead : option peer) : bytes :=
  match s with
  | LEADING | STANDINGDOWN => own
  | _ => match lead with Some p => p_version p | None => [] end
  end.
(** 2300-2311 *)
Fixpoint lower_bound (name : bytes) (l : list peer) : option peer :=
  match l with [] => None | p :: l' => match lex (p_name p) name with Lt => lower_bound name l' | _ => Some p end end.
Definition getPeerByName (name : bytes) (l : list peer) : option peer :=
  match lower_bound name l with Some p => if bytes_eqb (p_name p) name then Some p else None | None => None end.
(** 407 *)
Definition valid (v : bytes) (p : peer) : bool := bytes_eqb (p_version p) v && match p_state p with FOLLOWING => true | _ => false end.
(** 398-416; [draw]: what rand() gives; None: a null pointer is followed *)
Definition getEligibleFollowerForForwardingAddress (draw : N) (v : bytes) (peers : list peer) : option bytes :=
  match v with
  | [] => Some []
  | _ =>
      match map p_name (filter (valid v) peers) with
      | [] => Some []
      | names =>
          match getPeerByName (nth (N.to_nat (draw mod N.of_nat (length names))) names []) peers with
          | Some p => Some (p_address p)
          | None => None
          end
      end
  end.

(** ** States *)
(** 2313-2333 *)
Definition stateName (s : state) : bytes :=
  match s with
  | UNKNOWN => lit "UNKNOWN" | SEARCHING => lit "SEARCHING" | SYNCHRONIZING => lit "SYNCHRONIZING" | WAITING => lit "WAITING"
  | STANDINGUP => lit "STANDINGUP" | LEADING => lit "LEADING" | STANDINGDOWN => lit "STANDINGDOWN" | SUBSCRIBING => lit "SUBSCRIBING"
  | FOLLOWING => lit "FOLLOWING"
  end.
(** 2335-2354 *)
Definition lookup : list (bytes * state) :=
  [(lit "SEARCHING", SEARCHING); (lit "SYNCHRONIZING", SYNCHRONIZING); (lit "WAITING", WAITING); (lit "STANDINGUP", STANDINGUP);
   (lit "LEADING", LEADING); (lit "STANDINGDOWN", STANDINGDOWN); (lit "SUBSCRIBING", SUBSCRIBING); (lit "FOLLOWING", FOLLOWING)].
Definition stateFromName (name : bytes) : state :=
  match List.find (fun p => bytes_eqb (fst p) (SToUpper name)) lookup with Some (_, s) => s | None => UNKNOWN end.
