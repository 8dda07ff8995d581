(** The code of C60: SLog.cpp, the logging macros (libstuff.h 299-317), SSyslogSocketDirect and SFluentdLog (libstuff.cpp 237-326),
    SAutoThreadPrefix (3383-3411) and the sender of SFluentdLogger.cpp.  The ring buffer between the two is C05. *)
From Verif Require Import Base Dec Text_Spec Text_Model Table Json_Model Log_Spec.

Definition REDACTED : bytes := lit "<REDACTED>".
(** SContains(set, key): the names are compared as they are. *)
Definition listed (wl : list bytes) (k : bytes) : bool := existsb (bytes_eqb k) wl.
(** SLog.cpp 105-116; None: STHROW *)
Fixpoint params_text (live : bool) (wl : list bytes) (p : stable) : option bytes :=
  match p with
  | [] => Some []
  | (k, v) :: p' =>
      if negb (listed wl k) && negb live then None
      else match params_text live wl p' with
           | Some r => Some (lit " " ++ k ++ lit ": '" ++ (if listed wl k then v else REDACTED) ++ lit "'" ++ r)
           | None => None
           end
  end.
(** 91-124.  [cmd] is SThreadLogCommand. *)
Definition addLogParams (live : bool) (wl : list bytes) (cmd : bytes) (m : bytes) (p : stable) : option bytes :=
  let addCommand := match cmd with [] => false | _ => match tfind (lit "command") p with None => true | Some _ => false end end in
  if (match p with [] => true | _ => false end) && negb addCommand then Some m
  else match params_text live wl p with
       | Some t => Some (m ++ lit " ~~" ++ t ++ (if addCommand then lit " command: '" ++ cmd ++ lit "'" else []))
       | None => None
       end.

(** libstuff.h 302: SWHEREAMI *)
Definition whereami (x : context) (c : call) : bytes :=
  request_id x ++ lit " " ++ log_param x ++ lit " (" ++ file c ++ lit ":" ++ dec (line c) ++ lit ") " ++ function c ++ lit " [" ++ thread_name x ++ lit "] ".
(** 311-313: the pieces of a line.  [LINE]: 7168. *)
Definition LINE : nat := N.to_nat 7168.
Fixpoint pieces (fuel : nat) (s : bytes) : list bytes :=
  match fuel, s with
  | S f, _ :: _ => firstn LINE s :: pieces f (skipn LINE s)
  | _, _ => []
  end.
(** 303-315: SSYSLOG for an enabled level: what syslog is given, "%s" of a C string; None: an exception.  *)
Definition ssyslog (live : bool) (wl : list bytes) (x : context) (c : call) : option (list bytes) :=
  match addLogParams live wl (command x) (tag c ++ lit " " ++ message c) (params c) with
  | Some s => Some (map (fun p => cstr (whereami x c ++ p)) (pieces (List.length s) s))
  | None => None
  end.

(** libstuff.cpp 237-284: SSyslogSocketDirect of one such line.  [head]: the priority and the name of the process.  vsnprintf writes as much as fits, and a NUL
    behind it, but returns the length of all of it; so many bytes are sent.  Undefined: beyond the buffer. *)
Definition MAX_MESSAGE_SIZE : N := 8192.
Inductive direct := Sent (b : bytes) | Beyond.
Definition socket_direct (head l : bytes) : direct :=
  let h := N.of_nat (List.length head) in
  let n := N.of_nat (List.length l) in
  if (h + n <? MAX_MESSAGE_SIZE)%N then Sent (head ++ l)
  else if (h + n =? MAX_MESSAGE_SIZE)%N then Sent (head ++ firstn (List.length l - 1) l ++ [NUL])
  else Beyond.

(** libstuff.cpp 297-319: the record for Fluentd.  [now]: STimeNow *)
Definition record_of (wl : list bytes) (now : N) (x : context) (c : call) : stable :=
  let r := fold_left (fun r p => tput (fst p) (snd p) r)
    [(lit "timestamp", dec now); (lit "source", lit "bedrock"); (lit "request_id", request_id x); (lit "log_param", log_param x);
     (lit "command", command x); (lit "type_tag", tag c); (lit "thread_name", thread_name x); (lit "file", file c);
     (lit "line", dec (line c)); (lit "function", function c); (lit "message", message c)] [] in
  fold_left (fun r p => tput (fst p) (if listed wl (fst p) then snd p else REDACTED) r) (params c) r.
(** 321.  None: SComposeJSONObject stops the process; [secs]: time(nullptr) *)
Definition fluentd_json (is_float : bytes -> bool) (ftag : bytes) (wl : list bytes) (now secs : N) (x : context) (c : call) : option bytes :=
  match SComposeJSONObject is_float (record_of wl now x c) true with
  | Some j => Some (lit "[""" ++ ftag ++ lit """," ++ dec secs ++ lit "," ++ j ++ lit "]" ++ ["010"%char])
  | None => None
  end.

(** 3383-3411: SAutoThreadPrefix.  The destructors run in the opposite order of the constructors.  The thread: its context, what the objects
    keep, and the contexts in which it has logged. *)
Record thread := Thread { now_in : context; kept : list context; logged : list (context * call) }.
Definition act_step (t : thread) (a : act) : thread :=
  let x := now_in t in
  match a with
  | Enter i p m => Thread (Context (match i with Some v => v | None => lit "xxxxxx" end) (match p with Some v => v | None => lit "we@dont.know" end) m (thread_name x)) (x :: kept t) (logged t)
  | EnterPart i => Thread (Context (match i with [] => lit "xxxxxx" | _ => i end) (lit "we@dont.know") (command x) (thread_name x)) (x :: kept t) (logged t)
  | Leave => match kept t with
             | o :: r => Thread (Context (request_id o) (log_param o) (command o) (thread_name x)) r (logged t)
             | [] => t
             end
  | Say c => Thread x (kept t) (logged t ++ [(x, c)])
  end.
Definition acts (l : list act) (t : thread) : thread := fold_left act_step l t.

(** SLog.cpp 126-136: SWhitelistLogParams.  The list is replaced by compare_exchange of a pointer; [version] tells the pointers apart (one
    that somebody holds is not used again).  [busy t]: what thread [t] has loaded, and its names; [done]: the calls that have returned. *)
Record lists := Lists { version : nat; names : list bytes; busy : nat -> option (nat * list bytes * list bytes); done : list (list bytes) }.
Definition put_busy (f : nat -> option (nat * list bytes * list bytes)) (t : nat) (v : option (nat * list bytes * list bytes)) : nat -> option (nat * list bytes * list bytes) :=
  fun x => if Nat.eqb x t then v else f x.
Definition listing_step (s : lists) (e : listing) : lists :=
  match e with
  | Begin t ns => match busy s t with
                  | None => Lists (version s) (names s) (put_busy (busy s) t (Some (version s, names s, ns))) (done s)
                  | Some _ => s
                  end
  | Try t => match busy s t with
             | Some (v, cur, ns) =>
                 if Nat.eqb v (version s) then Lists (S (version s)) (cur ++ ns) (put_busy (busy s) t None) (done s ++ [ns])
                 else Lists (version s) (names s) (put_busy (busy s) t (Some (version s, names s, ns))) (done s)
             | None => s
             end
  end.
Definition listings (init : list bytes) (l : list listing) : lists := fold_left listing_step l (Lists 0 init (fun _ => None) []).

(** SFluentdLogger.cpp 46-57: sendAll; what was sent, and whether it was all.  When [takes] is used up the connection fails. *)
Fixpoint sendAll (takes : list (option nat)) (data : bytes) : bytes * bool :=
  match data with
  | [] => ([], true)
  | _ => match takes with
         | Some (S n) :: r => let (b, ok) := sendAll r (skipn (S n) data) in (firstn (S n) data ++ b, ok)
         | _ => ([], false)
         end
  end.
(** 59-89: senderLoop, for one record that was popped.  [open]: what was sent on the connection that is open, [closed] the same for
    those that are not any more; [syslog]: the records given to syslog, "%s" of a C string.  send to the file descriptor -1
    fails. *)
Record sender := Sender { open : option bytes; closed : list bytes; syslog : list bytes }.
Definition sender_step (s : sender) (e : bytes * luck) : sender :=
  let (json, k) := e in
  let o := match open s with None => if opens k then Some [] else None | o => o end in
  match o with
  | None => Sender None (closed s) (match json with [] => syslog s | _ => syslog s ++ [cstr json] end)
  | Some b =>
      let (sent, ok) := sendAll (takes k) json in
      if ok then Sender (Some (b ++ sent)) (closed s) (syslog s)
      else Sender None (closed s ++ [b ++ sent]) (syslog s ++ [cstr json])
  end.
Definition senderLoop (l : list (bytes * luck)) : sender := fold_left sender_step l (Sender None [] []).
