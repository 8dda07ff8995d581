(** C55: what a client of the MySQL protocol makes of the bytes it receives (protocol 4.1, text result sets, without
    CLIENT_DEPRECATE_EOF).  Payloads of 16 MB - 1 and more are spread over several packets; this reader does not do that. *)
From Verif Require Import Base Text_Spec.
Local Open Scope N_scope.

Record packet := mkPacket { seqno : N; payload : bytes }.
(** Numbers have their least byte first. *)
Fixpoint number (b : bytes) : N := match b with [] => 0 | c :: b' => bcode c + 256 * number b' end.
Definition take (n : N) (s : bytes) : option (bytes * bytes) :=
  if N.of_nat (List.length s) <? n then None else Some (firstn (N.to_nat n) s, skipn (N.to_nat n) s).
Definition fixed_int (n : N) (s : bytes) : option (N * bytes) := match take n s with Some (b, s') => Some (number b, s') | None => None end.
(** A length-encoded integer: one byte up to 250, else a mark and 2, 3 or 8 bytes. *)
Definition lenenc_int (s : bytes) : option (N * bytes) :=
  match s with
  | [] => None
  | c :: s' => if bcode c <? 251 then Some (bcode c, s')
               else if bcode c =? 252 then fixed_int 2 s'
               else if bcode c =? 253 then fixed_int 3 s'
               else if bcode c =? 254 then fixed_int 8 s'
               else None
  end.
Definition lenenc_str (s : bytes) : option (bytes * bytes) := match lenenc_int s with Some (n, s') => take n s' | None => None end.
Fixpoint strings (n : nat) (s : bytes) : option (list bytes * bytes) :=
  match n with
  | O => Some ([], s)
  | S m => match lenenc_str s with
           | Some (x, s') => match strings m s' with Some (l, r) => Some (x :: l, r) | None => None end
           | None => None
           end
  end.

(** Three bytes of length, one with the number of the packet, the payload. *)
Definition first_packet (s : bytes) : option (packet * bytes) :=
  match s with
  | a :: b :: c :: d :: s' =>
      if number [a; b; c] =? 16777215 then None
      else match take (number [a; b; c]) s' with Some (p, r) => Some (mkPacket (bcode d) p, r) | None => None end
  | _ => None
  end.
Inductive packets : bytes -> list packet -> Prop :=
| pk_end : packets [] []
| pk_more s p r ps : first_packet s = Some (p, r) -> packets r ps -> packets s (p :: ps).
(** Packets are numbered one after the other, modulo 256. *)
Fixpoint numbered_from (n : N) (ps : list packet) : Prop :=
  match ps with [] => True | p :: ps' => seqno p = n mod 256 /\ numbered_from (n + 1) ps' end.

Inductive reply := Done | Error (code : N) (message : bytes) | Rows (columns : list bytes) (rows : list (list bytes)).
(** The rest of an OK packet: rows affected, last id, status, warnings. *)
Definition ok_packet (s : bytes) : bool :=
  match lenenc_int s with
  | Some (_, s') => match lenenc_int s' with Some (_, s'') => (4 <=? N.of_nat (List.length s'')) | None => false end
  | None => false
  end.
(** The rest of an ERR packet: a code, a state marked by # if there is one, the message. *)
Definition err_packet (s : bytes) : option reply :=
  match fixed_int 2 s with
  | Some (code, m) => Some (Error code (match m with c :: _ => if Ascii.eqb c "#" then skipn 6 m else m | [] => [] end))
  | None => None
  end.
(** The name of a column is the fifth of six strings, which 12 bytes of other things follow. *)
Definition column_name (s : bytes) : option bytes :=
  match strings 6 s with
  | Some ([_; _; _; _; name; _], c :: r) => if (bcode c =? 12) && (N.of_nat (List.length r) =? 12) then Some name else None
  | _ => None
  end.
Definition is_eof (s : bytes) : bool := match s with c :: _ => (bcode c =? 254) && (N.of_nat (List.length s) <? 9) | [] => false end.
Fixpoint read_columns (n : nat) (ps : list packet) : option (list bytes * list packet) :=
  match n, ps with
  | O, p :: ps' => if is_eof (payload p) then Some ([], ps') else None
  | S m, p :: ps' => match column_name (payload p), read_columns m ps' with Some c, Some (l, r) => Some (c :: l, r) | _, _ => None end
  | _, [] => None
  end.
(** A row is one string for each column; what follows them is not looked at. *)
Fixpoint read_rows (n : nat) (ps : list packet) : option (list (list bytes) * list packet) :=
  match ps with
  | [] => None
  | p :: ps' => if is_eof (payload p) then Some ([], ps')
                else match strings n (payload p), read_rows n ps' with Some (row, _), Some (l, r) => Some (row :: l, r) | _, _ => None end
  end.
(** The first reply, and the packets after it. *)
Definition read_reply (ps : list packet) : option (reply * list packet) :=
  match ps with
  | [] => None
  | p :: ps' =>
      match payload p with
      | [] => None
      | c :: s =>
          if bcode c =? 0 then if ok_packet s then Some (Done, ps') else None
          else if bcode c =? 255 then match err_packet s with Some r => Some (r, ps') | None => None end
          else match lenenc_int (payload p) with
               | Some (n, []) =>
                   match read_columns (N.to_nat n) ps' with
                   | Some (cols, ps1) => match read_rows (N.to_nat n) ps1 with Some (rows, ps2) => Some (Rows cols rows, ps2) | None => None end
                   | None => None
                   end
               | _ => None
               end
      end
  end.
(** Received in answer to a packet numbered n - 1, these bytes are this reply and nothing else. *)
Definition says (n : N) (out : bytes) (r : reply) : Prop := exists ps, packets out ps /\ numbered_from n ps /\ read_reply ps = Some (r, []).

(** A table has columns, and each row has a cell for each of them.  Names and rows fit in packets. *)
Definition size (l : list bytes) : N := fold_right (fun x n => N.of_nat (List.length x) + 9 + n) 0 l.
Definition table (columns : list bytes) (rows : list (list bytes)) : Prop :=
  columns <> [] /\ Forall (fun row => List.length row = List.length columns) rows.
Definition fits (columns : list bytes) (rows : list (list bytes)) : Prop :=
  N.of_nat (List.length columns) < 2 ^ 64 /\ Forall (fun c => 2 * N.of_nat (List.length c) + 100 < 2 ^ 24) columns /\ Forall (fun row => size row + 2 < 2 ^ 24) rows.

(** What the server's database says to a query. *)
Record response := mkResponse { method : bytes; error : bytes; content : bytes }.

(** The statement that a query is, without white space around it and with a semicolon at its end. *)
Definition blank (c : ascii) : Prop := In c [" "; "009"; "010"; "011"; "012"; "013"]%char.
Definition starts_tight (s : bytes) : Prop := forall c s', s = c :: s' -> ~ blank c.
Inductive meant : bytes -> bytes -> Prop :=
| m_closed w1 w2 s : Forall blank w1 -> Forall blank w2 -> starts_tight s -> meant (w1 ++ (s ++ lit ";") ++ w2) (s ++ lit ";")
| m_open w1 w2 s c : Forall blank w1 -> Forall blank w2 -> starts_tight (s ++ [c]) -> ~ blank c -> c <> ";"%char -> meant (w1 ++ (s ++ [c]) ++ w2) ((s ++ [c]) ++ lit ";").
(** A query is ordinary if it is not one that programs use to look around in a MySQL server: in capitals it has none of these
    texts in it, and does not begin with any of those. *)
Definition mentions (q w : bytes) : Prop := exists a b, map upper q = a ++ w ++ b.
Definition begins (q w : bytes) : Prop := exists b, map upper q = w ++ b.
Definition ordinary (q : bytes) : Prop :=
  Forall (fun w => ~ mentions q w) [lit "@@"; lit "SHOW"; lit "DATABASE()"; lit "INFORMATION_SCHEMA"; lit "VERSION("; lit "CONNECTION_ID("; lit "$$"] /\
  Forall (fun w => ~ begins q w) [lit "/*"; lit "SET "; lit "USE "; lit "ROLLBACK;"].
