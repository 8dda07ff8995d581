(** Addresses, URLs, forms and searching in texts. *)
From Verif Require Import Base Text_Spec Text_Model Dec Table Http_Model Forward_Model Schema_Model Addr_Spec.

(** ** libstuff/libstuff.cpp: searching *)
(** std::string::find: where [n] begins first. *)
Fixpoint find_at (n v : bytes) : option nat :=
  if prefixb n v then Some 0 else match v with [] => None | _ :: v' => match find_at n v' with Some k => Some (S k) | None => None end end.
(** 3492-3500: SBefore *)
Definition SBefore (v n : bytes) : bytes := match find_at n v with None => [] | Some p => firstn p v end.
(** 3502-3510: SAfter *)
Definition SAfter (v n : bytes) : bytes := match find_at n v with None => [] | Some p => skipn (p + length n) v end.
(** std::string::find_last_of: the last character that is one of [n]. *)
Fixpoint last_of (n v : bytes) : option nat :=
  match v with [] => None | c :: v' => match last_of n v' with Some k => Some (S k) | None => if in_set c n then Some 0 else None end end.
(** 3512-3520: SAfterLastOf *)
Definition SAfterLastOf (v n : bytes) : bytes := match last_of n v with None => [] | Some p => skipn (p + 1) v end.
(** 3522-3525: SAfterUpTo *)
Definition SAfterUpTo (v a u : bytes) : bytes := SBefore (SAfter v a) u.
(** 699-714: SReplaceAllBut; 717-732: SReplaceAll *)
Definition SReplaceAllBut (v safe : bytes) (r : ascii) : bytes := map (fun c => if in_set c safe then c else r) v.
Definition SReplaceAll (v unsafe : bytes) (r : ascii) : bytes := map (fun c => if in_set c unsafe then r else c) v.

(** 467-482: STrim. [front] stops at the first character that is not white, [back] not before [front]. *)
Fixpoint drop_white (s : bytes) : bytes := match s with c :: s' => if is_space c then drop_white s' else s | [] => [] end.
Definition STrim (s : bytes) : bytes := match drop_white s with [] => [] | c :: r => c :: rev (drop_white (rev r)) end.

(** 775-806: SParseIntegerList, SParseIntegerVector *)
Definition SParseIntegerList (v : bytes) (sep : ascii) : list Z := map SToInt64 (SParseList v sep).

(** ** Hosts *)
(** 1414-1430: SParseHost. atoi is SToInt. *)
Definition SParseHost (h : bytes) : option (bytes * N) :=
  let domain := SBefore h (lit ":") in
  let portStr := SAfter h (lit ":") in
  if bytes_eqb domain [] || bytes_eqb portStr [] then None
  else let portInt := SToInt portStr in
       if ((portInt <? 0) || (65535 <? portInt))%Z then None else Some (domain, Z.to_N portInt).
(** 3551-3554: SComposeHost *)
Definition SComposeHost (d : bytes) (port : Z) : bytes := d ++ lit ":" ++ decZ port.
(** 3556-3561: SHostIsValid *)
Definition SHostIsValid (h : bytes) : bool := match SParseHost h with Some _ => true | None => false end.
(** 3563-3572: SGetDomain *)
Definition SGetDomain (h : bytes) : bytes := match SParseHost h with Some (d, _) => d | None => h end.

(** ** URLs *)
(** 1249-1255: what is behind the protocol. Texts of 2 GB and more, whose size is no int, are not modelled. *)
Definition behind_protocol (u : bytes) : option bytes :=
  if prefixb (lit "http://") u then Some (skipn 7 u) else if prefixb (lit "https://") u then Some (skipn 8 u) else None.
(** 1258-1263: up to the first slash *)
Fixpoint up_to_slash (s : bytes) : bytes * bytes :=
  match s with [] => ([], []) | c :: s' => if Ascii.eqb c "/"%char then ([], s) else let (h, p) := up_to_slash s' in (c :: h, p) end.
(** 1241-1275: SParseURI *)
Definition SParseURI (u : bytes) : option (bytes * bytes) :=
  match behind_protocol u with
  | None => None
  | Some s => let (h, p) := up_to_slash s in Some (h, match p with [] => lit "/" | _ => p end)
  end.

(** libstuff/SHTTPSManager.cpp, 213-243, without a proxy, and STCPManager.cpp, 198-207: where a request to a URL goes to.
    [Answered503]: the transaction is made up with the answer 503; [Ends]: the assertion in the socket's constructor
    ends the process. *)
Inductive goes := Answered503 | Ends | Connects (domain : bytes) (port : N) (tls : bool).
Definition httpsSend (u : bytes) : goes :=
  match SParseURI u with
  | None => Answered503
  | Some (h, _) => let host := if SContains h (lit ":") then h else h ++ lit ":443" in
                   match SParseHost host with None => Ends | Some (d, p) => Connects d p (prefixb (lit "https://") u) end
  end.

(** ** Forms *)
(** 1389-1411: SComposePOST. None: the resize (1409) to the greatest size_t throws length_error. *)
Definition post_item (i : bytes * bytes) : bytes :=
  match snd i with
  | [] => SEncodeURIComponent (fst i) ++ lit "=&"
  | _ => flat_map (fun v => SEncodeURIComponent (fst i) ++ lit "=" ++ SEncodeURIComponent v ++ lit "&") (SParseList (snd i) cookie_sep)
  end.
Definition SComposePOST (t : stable) : option bytes := match flat_map post_item t with [] => None | out => Some (removelast out) end.

(** ** Date modifiers *)
(** 3189-3214: the four regular expressions, which have to match all of the part (SREMatch, 3223). *)
Definition signed_number (most : nat) (units : list bytes) (s : bytes) : bool :=
  match s with
  | c :: s1 => let d := digits_of s1 in
               in_set c (lit "+-") && Nat.leb 1 (length d) && Nat.leb (length d) most && existsb (bytes_eqb (skipn (length d) s1)) units
  | [] => false
  end.
Definition with_s (u : bytes) : list bytes := [u; u ++ lit "S"].
Definition part_ok (p : bytes) : bool :=
  signed_number 8 (with_s (lit " SECOND")) p
  || signed_number 3 (flat_map with_s [lit " YEAR"; lit " MONTH"; lit " DAY"; lit " HOUR"; lit " MINUTE"]) p
  || existsb (bytes_eqb p) (map (fun u => lit "START OF " ++ u) [lit "DAY"; lit "MONTH"; lit "YEAR"])
  || existsb (bytes_eqb p) (map (fun c => lit "WEEKDAY " ++ [c]) (lit "0123456")).
Definition SIsValidSQLiteDateModifier (m : bytes) : bool := forallb part_ok (SParseList (SToUpper m) ",").

(** ** All matches *)
(** 3268-3280: SREMatchAll. [m s]: where the first match in [s] begins and how long it is. The library is given what is
    left of the text as if it were a text of its own (3235). None: the fuel does not suffice. *)
Fixpoint SREMatchAll (m : bytes -> option (nat * nat)) (fuel : nat) (s : bytes) : option (list bytes) :=
  match fuel with
  | O => None
  | S k => match m s with
           | None => Some []
           | Some (p, n) => match SREMatchAll m k (skipn (p + n) s) with Some l => Some (firstn n (skipn p s) :: l) | None => None end
           end
  end.

(** 3248-3258: the texts of a match in [s] from [offset] on.  [groups]: where the match and each of its groups begin and end, counted from the offset;
    None: the group took no part in the match *)
Fixpoint match_texts (s : bytes) (offset : nat) (groups : list (option (nat * nat))) : list bytes :=
  match groups with
  | [] => []
  | Some (a, b) :: g => firstn (b - a) (skipn (offset + a) s) :: match_texts s offset g
  | None :: g => match_texts s offset g
  end.

(** ** sqlitecluster/SQLiteNode.cpp: the peers *)
Record peer := Peer { peer_name : bytes; peer_host : bytes }.
(** 87-97: one peer; None: an assertion ends the process *)
Definition one_peer (s : bytes) : option peer :=
  match SParseURIPath s with
  | (false, _, _) => None
  | (true, host, params) =>
      let name := match List.find (fun p => ieqb (fst p) (lit "nodeName")) params with Some (_, v) => v | None => SGetDomain host end in
      if SHostIsValid host then Some (Peer name host) else None
  end.
Definition before (p q : peer) : bool := match lex (peer_name p) (peer_name q) with Lt => true | _ => false end.
(** 106-109: std::sort, modelled as inserting one after the other *)
Fixpoint insert (p : peer) (l : list peer) : list peer := match l with [] => [p] | q :: l' => if before q p then q :: insert p l' else p :: l end.
(** 77-112: _initPeers *)
Fixpoint all_peers (l : list bytes) : option (list peer) :=
  match l with
  | [] => Some []
  | s :: l' => match one_peer s with None => None | Some p => match all_peers l' with Some r => Some (p :: r) | None => None end end
  end.
Definition initPeers (s : bytes) : option (list peer) :=
  match all_peers (SParseList s ",") with Some l => Some (fold_right insert [] l) | None => None end.
(** 2300-2311: getPeerByName: lower_bound, then the comparison *)
Fixpoint lower_bound (n : bytes) (l : list peer) : option peer :=
  match l with [] => None | p :: l' => match lex (peer_name p) n with Lt => lower_bound n l' | _ => Some p end end.
Definition getPeerByName (n : bytes) (l : list peer) : option peer :=
  match lower_bound n l with Some p => if bytes_eqb (peer_name p) n then Some p else None | None => None end.
