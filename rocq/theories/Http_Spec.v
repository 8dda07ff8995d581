(** What a message is, for C14 and C15. *)
From Verif Require Import Base Dec Text_Spec Text_Model Table.

Definition eol_free (s : bytes) : Prop := ~ In "013"%char s /\ ~ In "010"%char s.
(* a space at neither end *)
Definition unpadded (s : bytes) : Prop := hd "x"%char s <> " "%char /\ last s "x"%char <> " "%char.

(** A header name other programs would accept: not empty, no colon or line end, no white space in front
    and no space behind. *)
Definition legal_name (k : bytes) : Prop :=
  k <> [] /\ ~ In ":"%char k /\ eol_free k /\ is_space (hd "x"%char k) = false /\ last k "x"%char <> " "%char.
(** A method line: printable (or tab) and not padded with spaces. *)
Definition legal_method (m : bytes) : Prop :=
  m <> [] /\ unpadded m /\ forall c, In c m -> c = "009"%char \/ (32 <= bcode c /\ bcode c <> 127)%N.
(** A cookie, as it can stand in a Set-Cookie list. *)
Definition legal_cookie (c : bytes) : Prop :=
  list_element "255" c /\ eol_free c /\ unpadded c /\ ~ In "\"%char c.
Definition is_name (k n : bytes) : Prop := SToLower k = SToLower n.
(** A header value as the receiver sees it: the text before the first NUL, without the spaces around it. *)
Definition stripped (v v' : bytes) : Prop :=
  unpadded v' /\ exists i j, cstr v = repeat " "%char i ++ v' ++ repeat " "%char j.
Definition legal_header (k v : bytes) : Prop :=
  legal_name k /\
  (is_name k (lit "Set-Cookie") -> exists c l, Forall legal_cookie (c :: l) /\ v = SComposeList (c :: l) ["255"%char]) /\
  (is_name k (lit "Transfer-Encoding") -> forall v', stripped v v' -> SToLower v' <> lit "chunked").
Record message := mkMsg { msg_method : bytes; msg_table : stable; msg_content : bytes }.
Definition legal (x : message) : Prop :=
  legal_method (msg_method x) /\ table_ok (msg_table x) /\
  (forall k v, In (k, v) (msg_table x) -> legal_header k v) /\ (N.of_nat (List.length (msg_content x)) < 2 ^ 31)%N.

(** Did the sender ask for a compressed body? *)
Definition asks_gzip (t : stable) : Prop := exists v, tfind (lit "Content-Encoding") t = Some v /\ SToLower v = lit "gzip".
(** The headers the receiver has, for the headers [sent] of a message whose body takes [n] bytes on the
    wire: everything that was sent, with the length of the body, and with Content-Encoding: gzip exactly
    when the body is compressed. *)
Record delivered (compressed : bool) (sent got : stable) (n : N) : Prop := mkDelivered {
  dl_ok : table_ok got;
  dl_length : tfind (lit "Content-Length") got = Some (dec n);
  dl_gzip : compressed = true -> tfind (lit "Content-Encoding") got = Some (lit "gzip");
  dl_no_gzip : compressed = false -> asks_gzip sent -> tfind (lit "Content-Encoding") got = None;
  dl_cookies : tfind (lit "Set-Cookie") got = tfind (lit "Set-Cookie") sent;
  dl_others : forall k, ~ is_name k (lit "Content-Length") -> ~ is_name k (lit "Set-Cookie") ->
              ~ (is_name k (lit "Content-Encoding") /\ asks_gzip sent) ->
              match tfind k sent with
              | Some v => exists v', tfind k got = Some v' /\ stripped v v'
              | None => tfind k got = None
              end }.
(** [got] is the message [x], as it arrives over a wire with the compressor [gz]. *)
Definition arrives (gz : bytes -> bytes) (x : message) (got : bytes * stable * bytes) : Prop :=
  let '(m, t, c) := got in
  m = msg_method x /\
  exists compressed, delivered compressed (msg_table x) t (N.of_nat (List.length c)) /\
    (compressed = true <-> asks_gzip (msg_table x) /\ msg_content x <> [] /\ gz (msg_content x) <> []) /\
    c = (if compressed then gz (msg_content x) else msg_content x).
