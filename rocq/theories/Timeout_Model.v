(** Deadlines of commands: BedrockCommand.cpp 26-30, 49-63, 415-421; BedrockCore.cpp 35-75, 478-487; SData.cpp 71-89;
    SQLite.cpp 1569-1579; SQLiteClusterMessenger.cpp 143-145.

    Each reading of the clock (STimeNow) is an argument.  Unsigned arithmetic wraps; a signed overflow is the outcome
    [Undefined]; conversions to a signed type wrap, as gcc defines them. *)
From Verif Require Import Base Dec Text_Spec Text_Model Table.
Local Open Scope Z_scope.

Definition u64 (z : Z) : Z := z mod 2 ^ 64.
Definition i64 (z : Z) : Z := let m := z mod 2 ^ 64 in if m <? 2 ^ 63 then m else m - 2 ^ 64.
Definition i32 (z : Z) : Z := let m := z mod 2 ^ 32 in if m <? 2 ^ 31 then m else m - 2 ^ 32.

(** SData.cpp 71-89 *)
Definition isSet (name : bytes) (t : stable) : bool := match tfind name t with Some _ => true | None => false end.
Definition calc64 (name : bytes) (t : stable) : Z := match tfind name t with Some v => SToInt64 v | None => 0 end.
Definition calc (name : bytes) (t : stable) : Z := i32 (Z.min (calc64 name t) 2147483647).

(** BedrockCommand.cpp 26 *)
Definition scheduledTime (t : stable) (now : Z) : Z :=
  if isSet (lit "commandExecuteTime") t then u64 (calc64 (lit "commandExecuteTime") t) else now.
(** 49-63.  The product fits: calc is an int. *)
Definition DEFAULT_TIMEOUT : Z := 110000.
Definition DEFAULT_TIMEOUT_FORGET : Z := 3600000.
Definition _getTimeout (t : stable) (scheduled : Z) : Z :=
  let ms := if isSet (lit "timeout") t then calc (lit "timeout") t
            else if ieqb (match tfind (lit "connection") t with Some v => v | None => [] end) (lit "forget") then DEFAULT_TIMEOUT_FORGET
            else DEFAULT_TIMEOUT in
  i64 (u64 (ms * 1000 + scheduled)).
(** 30: the member _timeout of a command built from this request at this time *)
Definition deadline (t : stable) (now : Z) : Z := u64 (_getTimeout t (scheduledTime t now)).

(** BedrockCore.cpp 35-62 *)
Inductive remaining := Left_ (us : Z) | Expired | Undefined.
Definition DEFAULT_PROCESS_TIMEOUT : Z := 5000.
Definition SYNCHRONOUS_COMMAND_TIMEOUT : Z := 20000.
Definition getRemainingTime (t : stable) (d : Z) (processing : bool) (now : Z) : remaining :=
  let adjusted := i64 d - i64 now in
  if (adjusted <? - 2 ^ 63) || (2 ^ 63 - 1 <? adjusted) then Undefined
  else
    let processTimeout := (if isSet (lit "processTimeout") t then calc (lit "processTimeout") t else DEFAULT_PROCESS_TIMEOUT) * 1000 in
    if (adjusted <=? 0) || (processing && (processTimeout <=? 0)) then Expired
    else Left_ (if processing then Z.min processTimeout adjusted else adjusted).
(** 64-75 *)
Definition isTimedOut (t : stable) (d now : Z) : bool := match getRemainingTime t d false now with Expired => true | _ => false end.
(** BedrockCommand.cpp 415-421 *)
Definition setTimeout (ms now : Z) : Z := u64 (u64 (ms * 1000) + now).
(** BedrockCore.cpp 478-487: the new deadline and, if the command still has time, what it has. *)
Definition decreaseCommandTimeout (t : stable) (d ms now1 now2 now3 : Z) : Z * remaining :=
  match getRemainingTime t d false now1 with
  | Left_ us =>
      if ms * 1000 <? us then let d' := setTimeout ms now2 in (d', getRemainingTime t d' false now3)
      else (d, Left_ us)
  | other => (d, other)
  end.
(** SQLite.cpp 1574-1579: when the database gives up *)
Definition db_limit (us now : Z) : Z := u64 (now + us).

(** What happens to a command's deadline while it lives: looks at the clock, and lowering on the blocking thread. *)
Inductive act := Look (processing : bool) (now : Z) | Lower (ms now1 now2 now3 : Z).
Definition step (t : stable) (d : Z) (a : act) : Z * remaining :=
  match a with
  | Look p now => (d, getRemainingTime t d p now)
  | Lower ms n1 n2 n3 => decreaseCommandTimeout t d ms n1 n2 n3
  end.
Fixpoint history (t : stable) (d : Z) (l : list act) : Z * list remaining :=
  match l with
  | [] => (d, [])
  | a :: l' => let (d', r) := step t d a in let (d'', rs) := history t d' l' in (d'', r :: rs)
  end.

(** SQLiteClusterMessenger.cpp 143-145: the header timeout of the request that is sent on *)
Definition sent_on (t : stable) (d now : Z) : stable := tput (lit "timeout") (dec (Z.to_N (u64 (d - now) / 1000))) t.
