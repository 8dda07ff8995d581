(** The Cache plugin: plugins/Cache.cpp.

    The table cache(name, value) is the list of its rows; cacheSize is its one row; the LRU map is the
    list of its names, least recently used first (the map beside it only speeds up the search).  Both
    attributes name and value come through SQ, so they end at the first NUL.  The triggers 153-164 are
    part of the statements that fire them.  The connection's recursive_triggers flag, which decides
    whether REPLACE fires the delete trigger, is set only on the connection that ran upgradeDatabase
    (152): every write carries the flag of its connection. *)
From Verif Require Import Base Dec Text_Spec Text_Model Cache_Spec.
Local Open Scope Z_scope.

(** SQLite's LENGTH() of a text: the characters of UTF-8, a stray continuation byte counting as one. *)
Fixpoint skip_cont (s : bytes) : bytes :=
  match s with c :: s' => if N.leb 128 (bcode c) && N.ltb (bcode c) 192 then skip_cont s' else s | [] => [] end.
Fixpoint chars_fuel (f : nat) (s : bytes) : Z :=
  match f, s with
  | S f', c :: s' => 1 + chars_fuel f' (if N.leb 192 (bcode c) then skip_cont s' else s')
  | _, _ => 0
  end.
Definition chars (s : bytes) : Z := chars_fuel (List.length s) s.

Record cache := mkCache { db : list (bytes * bytes); csize : Z; lru : list bytes }.

(** 150-164: DELETE FROM cache WHERE ..., with the trigger. *)
Definition delete_where (p : bytes -> bool) (c : cache) : cache :=
  mkCache (filter (fun r => negb (p (fst r))) (db c))
          (csize c - total chars (filter (fun r => p (fst r)) (db c))) (lru c).
(** INSERT OR REPLACE INTO cache, with the triggers. *)
Definition replace_row (recursive : bool) (n v : bytes) (c : cache) : cache :=
  let old := filter (fun r => bytes_eqb n (fst r)) (db c) in
  mkCache (filter (fun r => negb (bytes_eqb n (fst r))) (db c) ++ [(n, v)])
          (csize c - (if recursive then total chars old else 0) + chars v) (lru c).

(** 51-70 [pushMRU] and 76-90 [popLRU]. *)
Definition pushMRU (n : bytes) (l : list bytes) : list bytes := filter (fun m => negb (bytes_eqb n m)) l ++ [n].
Definition popLRU (l : list bytes) : option (bytes * list bytes) :=
  match l with [] => None | n :: l' => Some (n, l') end.

Inductive result {A} := Refused | Aborted | OutOfFuel | Done (a : A).
Arguments result : clear implicits.

Section plugin.
  Context (max : Z).
  (** GLOB: pattern, then name. *)
  Context (glob : bytes -> bytes -> bool).
  (** SELECT name FROM cache LIMIT 1: SQLite may take any row. *)
  Context (pick : list (bytes * bytes) -> bytes).

  (** 263-276: clear out room. *)
  Fixpoint make_room (fuel : nat) (need : Z) (c : cache) : result cache :=
    if csize c + need <=? max then Done c
    else match fuel with
    | O => OutOfFuel
    | S f =>
        let '(n, l) := match popLRU (lru c) with
                       | Some (n, l) => (n, l)
                       | None => (match db c with [] => [] | rows => pick rows end, lru c)
                       end in
        if bytes_eqb n [] then Aborted
        else make_room f need (delete_where (bytes_eqb (cstr n)) (mkCache (db c) (csize c) l))
    end.

  Record write_request := mkWrite { w_name : bytes; w_header : bytes; w_content : bytes; w_invalidate : bytes }.
  Definition w_value (w : write_request) : bytes := match w_header w with [] => w_content w | v => v end.

  (** 219-302 [process] of WriteCache on a connection with the given recursive_triggers flag. *)
  Definition write_cache (recursive : bool) (w : write_request) (c : cache) : result cache :=
    if Nat.ltb (List.length (w_name w)) 1 || Nat.ltb 255 (List.length (w_name w)) then Refused
    else if match w_header w with
            | [] => match w_content w with [] => true | b => 67108864 <? Z.of_nat (List.length b) end
            | h => 1048576 <? Z.of_nat (List.length h)
            end then Refused
    else let size := Z.of_nat (List.length (w_value w)) in
    if max <? size then Refused
    else let c := match w_invalidate w with [] => c | p => delete_where (glob (cstr p)) c end in
    match make_room (S (List.length (lru c) + List.length (db c))) size c with
    | Done c => let c := replace_row recursive (cstr (w_name w)) (cstr (w_value w)) c in
                Done (mkCache (db c) (csize c) (pushMRU (w_name w) (lru c)))
    | r => r
    end.

  (** 166-217 [peek] of ReadCache: some row whose name matches, if there is one.  Which one is up to SQLite:
      the request says. *)
  Definition read_cache (pattern row : bytes) (c : cache) : result (cache * bytes) :=
    if Nat.ltb (List.length pattern) 1 || Nat.ltb 255 (List.length pattern) then Refused
    else match find (fun r => bytes_eqb row (fst r) && glob (cstr pattern) (fst r)) (db c) with
         | Some (n, v) => Done (mkCache (db c) (csize c) (pushMRU n (lru c)), v)
         | None => Refused
         end.

  (** ** Histories *)
  Inductive event :=
  | EWrite (recursive : bool) (w : write_request)      (* processed and committed *)
  | ELost (recursive : bool) (w : write_request)       (* processed, but the transaction did not commit *)
  | ERead (pattern row : bytes)
  | ERestart.                                          (* the LRU map is in memory only *)

  Definition step (c : cache) (e : event) : result cache :=
    match e with
    | EWrite r w => match write_cache r w c with Refused => Done c | x => x end
    | ELost r w => match write_cache r w c with Refused => Done c
                   | Done c' => Done (mkCache (db c) (csize c) (lru c')) | x => x end
    | ERead p row => match read_cache p row c with Done (c', _) => Done c' | _ => Done c end
    | ERestart => Done (mkCache (db c) (csize c) [])
    end.
  Fixpoint run (c : cache) (es : list event) : result cache :=
    match es with
    | [] => Done c
    | e :: es' => match step c e with Done c' => run c' es' | x => x end
    end.
  (** 134-146: empty tables. *)
  Definition init : cache := mkCache [] 0 [].
End plugin.

(** 92-114 [initCacheSize]: None is the failed assertion.  The products overflow for huge numbers; int64
    arithmetic is not modelled there. *)
Definition ends_with (needle s : bytes) : bool :=
  if Nat.ltb (List.length s) (List.length needle) then false
  else bytes_eqb (skipn (List.length s - List.length needle) s) needle.
Definition initCacheSize (arg : bytes) : option Z :=
  let s := SToUpper arg in
  let n := SToInt64 s in
  let n := if ends_with (lit "KB") s then n * 1024 else n in
  let n := if ends_with (lit "MB") s then n * (1024 * 1024) else n in
  let n := if ends_with (lit "GB") s then n * (1024 * 1024 * 1024) else n in
  let n := if n =? 0 then 16 * 1024 * 1024 * 1024 else n in
  if 0 <? n then Some n else None.
