(** C14, C15, C43: the message format, and how messages are found in a stream of bytes. *)
From Verif Require Import Base Dec Text_Spec Text_Model Text_Proofs Table Http_Spec Http_Model Http_Proofs.
From Verif Require FastBuffer_Spec.

(** ** C14 *)
(** Every legal message can be composed. *)
Theorem C14_composable : forall gz x, legal x ->
  exists w, SComposeHTTP gz (msg_method x) (msg_table x) (msg_content x) = Some w.
Proof.
  intros gz x ((_ & _ & M) & _). unfold SComposeHTTP.
  replace (forallb method_char (msg_method x)) with true; [eexists; reflexivity|]. symmetry. apply forallb_forall. intros c Hc. unfold method_char.
  destruct (M c Hc) as [->|(A & B)]; [reflexivity|]. apply orb_true_iff. right. apply negb_true_iff, orb_false_iff. split; [apply N.ltb_ge; exact A|apply N.eqb_neq; exact B].
Qed.
Print Assumptions C14_composable.

(** A composed message is read back, and exactly its bytes are used, whatever follows it. *)
Theorem C14_roundtrip : forall gz x w rest,
  legal x -> (N.of_nat (List.length (gz (msg_content x))) < 2 ^ 31)%N ->
  SComposeHTTP gz (msg_method x) (msg_table x) (msg_content x) = Some w ->
  exists m t c, SParseHTTP (w ++ rest) = Done (List.length w) m t c /\ arrives gz x (m, t, c).
Proof.
  intros gz x w rest L G E.
  assert (HS : sent gz x w).
  { split; [exact L|]. split; [|exact E]. unfold final_content, gzipped. destruct (_ && _); [|apply L]. destruct (gz (msg_content x)); [apply L|exact G]. }
  pose proof (parse_whole gz x w [] rest HS (or_introl eq_refl)) as W. cbn [app] in W. eexists _, _, _. split; [exact W|].
  pose proof (got_arrives gz x L) as A. destruct (got gz x) as [[m t] c]. exact A.
Qed.
Print Assumptions C14_roundtrip.

(** Without compression, and when no value has a NUL in it or spaces around it, what arrives is exactly
    what was sent. *)
Theorem C14_exact : forall x m t c,
  arrives (fun b => b) x (m, t, c) -> ~ asks_gzip (msg_table x) ->
  (forall k v, In (k, v) (msg_table x) -> nul_free v /\ unpadded v) ->
  m = msg_method x /\ c = msg_content x /\
  tfind (lit "Content-Length") t = Some (dec (N.of_nat (List.length c))) /\
  forall k, ~ is_name k (lit "Content-Length") -> tfind k t = tfind k (msg_table x).
Proof.
  intros x m t c (-> & z & D & Z & C) NA V. destruct z; [exfalso; apply NA; apply Z; reflexivity|]. split; [reflexivity|]. split; [exact C|].
  split; [apply D|]. intros k Hk. destruct (kcmp k SC) eqn:S.
  - rewrite (tfind_cong _ _ t S), (tfind_cong _ _ (msg_table x) S). apply D.
  - assert (H : match tfind k (msg_table x) with Some v => exists v', tfind k t = Some v' /\ stripped v v' | None => tfind k t = None end).
    { apply (dl_others _ _ _ _ D); [exact Hk|rewrite is_name_kcmp; fold SC; congruence|tauto]. }
    destruct (tfind k (msg_table x)) as [v|] eqn:F; [|exact H]. destruct H as (v' & H1 & H2). rewrite H1. apply tfind_some in F.
    destruct F as (k' & Hin & _). destruct (V _ _ Hin) as (V1 & V2). apply stripped_trim in H2. rewrite cstr_nul_free, trim_id in H2 by assumption. congruence.
  - assert (H : match tfind k (msg_table x) with Some v => exists v', tfind k t = Some v' /\ stripped v v' | None => tfind k t = None end).
    { apply (dl_others _ _ _ _ D); [exact Hk|rewrite is_name_kcmp; fold SC; congruence|tauto]. }
    destruct (tfind k (msg_table x)) as [v|] eqn:F; [|exact H]. destruct H as (v' & H1 & H2). rewrite H1. apply tfind_some in F.
    destruct F as (k' & Hin & _). destruct (V _ _ Hin) as (V1 & V2). apply stripped_trim in H2. rewrite cstr_nul_free, trim_id in H2 by assumption. congruence.
Qed.
Print Assumptions C14_exact.

(** A legal message and the bytes it is sent as. *)
Definition on_wire (gz : bytes -> bytes) (x : message) (w : bytes) : Prop :=
  legal x /\ (N.of_nat (List.length (gz (msg_content x))) < 2 ^ 31)%N /\
  SComposeHTTP gz (msg_method x) (msg_table x) (msg_content x) = Some w.
Lemma on_wire_sent gz x w : on_wire gz x w -> sent gz x w.
Proof.
  intros (L & G & E). split; [exact L|]. split; [|exact E]. unfold final_content, gzipped. destruct (_ && _); [|apply L].
  destruct (gz (msg_content x)); [apply L|exact G].
Qed.
Lemma on_wire_all gz xs ws : Forall2 (on_wire gz) xs ws -> Forall2 (sent gz) xs ws.
Proof. induction 1; constructor; auto. apply on_wire_sent. assumption. Qed.
Lemma got_all gz xs ws : Forall2 (on_wire gz) xs ws -> Forall2 (arrives gz) xs (map (got gz) xs).
Proof. induction 1 as [|x w xs ws H _ IH]; constructor; auto. apply got_arrives. apply H. Qed.

(** Between nodes: however the bytes of a sequence of messages are divided on their way, exactly these
    messages are received, in order.  Nothing is left over but, possibly, the last line feed. *)
Theorem C14_stream : forall gz xs ws pieces,
  Forall2 (on_wire gz) xs ws -> concat pieces = concat ws ->
  exists got_msgs left, receive [] pieces = (got_msgs, left) /\ Forall2 (arrives gz) xs got_msgs /\ (left = [] \/ left = ["010"%char]).
Proof.
  intros gz xs ws pieces HF E. destruct (receive_spec gz pieces xs ws [] [] (on_wire_all _ _ _ HF) (or_introl eq_refl) E) as (b & H1 & H2).
  - intros N. rewrite N in E. inversion HF as [|x w xs' ws' HX _]; subst; [reflexivity|]. cbn [concat] in E. symmetry in E. apply app_eq_nil in E.
    exfalso. apply (sent_nonempty _ _ _ (on_wire_sent _ _ _ HX)). apply E.
  - exists (map (got gz) xs), b. split; [exact H1|]. split; [eapply got_all; exact HF|exact H2].
Qed.
Print Assumptions C14_stream.

(** From clients: however the bytes of their requests are divided on their way, the requests are handled in
    order, and what has not been handled is still there, unchanged. *)
Theorem C14_requests_in_order : forall gz xs ws pieces,
  Forall2 (on_wire gz) xs ws -> concat pieces = concat ws ->
  exists done todo ws2 got_msgs, xs = done ++ todo /\ Forall2 (on_wire gz) todo ws2 /\
    handle_socket [] pieces = Some (got_msgs, concat ws2) /\ Forall2 (arrives gz) done got_msgs.
Proof.
  intros gz xs ws pieces HF E. destruct (socket_spec gz pieces xs ws [] (on_wire_all _ _ _ HF) E) as (xs1 & xs2 & Xs2 & H1 & H2 & H3). subst xs.
  apply Forall2_app_inv_l in HF. destruct HF as (w1 & w2 & F1 & F2 & ->). exists xs1, xs2, w2, (map (got gz) xs1). split; [reflexivity|]. split; [exact F2|].
  split; [|eapply got_all; exact F1]. rewrite H3. do 3 f_equal. clear - H2 F2. revert Xs2 H2. induction F2 as [|x w xs ws H F IH]; intros Xs2 H2; inversion H2; subst; [reflexivity|].
  f_equal; [|auto]. destruct H as (_ & _ & H). match goal with X : sent gz x ?y |- _ => destruct X as (_ & _ & X); congruence end.
Qed.
Print Assumptions C14_requests_in_order.

(** A client that waits for each response before it sends the next request has all of them handled. *)
Theorem C14_waiting_client : forall gz xs groups,
  Forall2 (fun x g => on_wire gz x (concat g)) xs groups ->
  exists got_msgs, handle_socket [] (concat groups) = Some (got_msgs, []) /\ Forall2 (arrives gz) xs got_msgs.
Proof.
  intros gz xs gs HF. exists (map (got gz) xs). split.
  - apply socket_groups. clear -HF. induction HF; constructor; auto. apply on_wire_sent. assumption.
  - clear -HF. induction HF as [|x w xs ws H _ IH]; constructor; auto. apply got_arrives. apply H.
Qed.
Print Assumptions C14_waiting_client.

(** But of two requests that arrive together only the first is handled: the second waits until more data
    arrives, although it is complete. *)
Theorem C14_pipelined_refuted : forall gz x1 x2 w1 w2, on_wire gz x1 w1 -> on_wire gz x2 w2 ->
  exists got_msg, handle_socket [] [w1 ++ w2] = Some ([got_msg], w2) /\ arrives gz x1 got_msg.
Proof.
  intros gz x1 x2 w1 w2 H1 H2. exists (got gz x1). split; [|apply got_arrives; apply H1].
  exact (arrive_whole gz x1 w1 w2 [] (on_wire_sent _ _ _ H1)).
Qed.
Print Assumptions C14_pipelined_refuted.

(** A name with a colon, or a value of Transfer-Encoding that says "chunked", breaks the round trip: the
    composer checks only the method line. *)
Definition no_gzip (b : bytes) : bytes := [].
Theorem C14_chunked_header_refuted : exists t w, table_ok t /\
  SComposeHTTP no_gzip (lit "Ping") t (lit "body") = Some w /\ SParseHTTP w = Incomplete.
Proof. exists [(TE, lit "chunked")]. eexists. split; [repeat constructor|]. split; [vm_compute; reflexivity|]. vm_compute. reflexivity. Qed.
Print Assumptions C14_chunked_header_refuted.
(** A header name with a line end in it adds a header of the sender's choice. *)
Theorem C14_name_injection_refuted : exists k w n m t c, SComposeHTTP no_gzip (lit "Ping") [(k, lit "v")] [] = Some w /\
  SParseHTTP w = Done n m t c /\ tfind (lit "evil") t = Some (lit "1").
Proof.
  exists (lit "a: b" ++ CRLF ++ lit "evil: 1" ++ CRLF ++ lit "c"). do 5 eexists. split; [vm_compute; reflexivity|].
  split; [vm_compute; reflexivity|]. vm_compute. reflexivity.
Qed.
Print Assumptions C14_name_injection_refuted.
(** So does a cookie: cookies are written as they are. *)
Theorem C14_cookie_injection_refuted : exists v w n m t c, SComposeHTTP no_gzip (lit "200 OK") [(SC, v)] [] = Some w /\
  SParseHTTP w = Done n m t c /\ tfind (lit "evil") t = Some (lit "1").
Proof.
  exists (lit "a=b" ++ CRLF ++ lit "evil: 1"). do 5 eexists. split; [vm_compute; reflexivity|].
  split; [vm_compute; reflexivity|]. vm_compute. reflexivity.
Qed.
Print Assumptions C14_cookie_injection_refuted.
(** A message without Content-Length ends where the data that happens to have arrived ends, so where the
    boundary falls depends on how the bytes were divided. *)
Theorem C14_no_length_refuted : exists a b n1 n2 m1 m2 m3,
  receive [] [a ++ b] = ([m1], n1) /\ receive [] [a; b] = ([m2; m3], n2).
Proof. exists (lit "Ping" ++ CRLF ++ CRLF), (lit "Pong" ++ CRLF ++ CRLF). do 5 eexists. split; [vm_compute; reflexivity|]. vm_compute. reflexivity. Qed.
Print Assumptions C14_no_length_refuted.

(** ** C15 *)
(** A node never takes a proper part of a message for the message, except that a message without a body
    is accepted when only its last byte, a line feed, is missing. *)
Theorem C15_truncated_waits : forall gz x w p r,
  on_wire gz x w -> p ++ r = w -> r <> [] ->
  SParseHTTP p = Incomplete \/
  (r = ["010"%char] /\ msg_content x = [] /\ exists m t c, SParseHTTP p = Done (List.length p) m t c /\ arrives gz x (m, t, c)).
Proof.
  intros gz x w p r H E HR. destruct (parse_part gz x w [] p r (on_wire_sent _ _ _ H) (or_introl eq_refl) E HR) as [A|(A & B & C)]; [left; exact A|].
  right. split; [exact B|]. split.
  - unfold final_content, gzipped in A. destruct (msg_content x) as [|a c]; [reflexivity|].
    destruct (_ && _); [destruct (gz (a :: c)); discriminate|discriminate].
  - cbn [app] in C. eexists _, _, _. split; [exact C|]. pose proof (got_arrives gz x (proj1 H)) as G. destruct (got gz x) as [[m t] c]. exact G.
Qed.
Print Assumptions C15_truncated_waits.
(** The exception is real: of a message without body, all but the last line feed is already read as the
    whole message. *)
Theorem C15_last_byte_refuted : forall gz x w p,
  on_wire gz x w -> msg_content x = [] -> p ++ ["010"%char] = w -> exists m t c, SParseHTTP p = Done (List.length p) m t c.
Proof.
  intros gz x w p H HC E. pose proof (on_wire_sent _ _ _ H) as HS.
  assert (F : final_content gz (msg_table x) (msg_content x) = []).
  { unfold final_content, gzipped. rewrite HC. cbn [negb]. rewrite andb_false_r. reflexivity. }
  pose proof H as (L & _). pose proof E as E'. rewrite (compose_eq _ _ _ HS), F in E'.
  assert (Q : p = msg_method x ++ CRLF ++ wire (all_lines gz (msg_table x) (msg_content x)) ++ [CR]).
  { apply (app_inv_tail [LF]). rewrite <- !app_assoc. exact E'. }
  rewrite SParseHTTP_P. set (total := List.length p). rewrite Q. rewrite P_head by exact L. rewrite (P_body gz x w _ [] [] HS eq_refl), F.
  eexists _, _, _. cbn [List.length Nat.ltb Nat.leb]. f_equal. lia.
Qed.
Print Assumptions C15_last_byte_refuted.
(** ... but not on the command port, which first looks for the blank line: there, nothing is done before
    every byte of the request has arrived. *)
Theorem C15_command_port_waits : forall gz x w pieces r,
  on_wire gz x w -> concat pieces ++ r = w -> r <> [] -> handle_socket [] pieces = Some ([], concat pieces).
Proof.
  intros gz x w pieces r H E HR. apply on_wire_sent in H.
  enough (G : forall ps b, b ++ concat ps ++ r = w -> handle_socket b ps = Some ([], b ++ concat ps)) by (apply (G pieces []); exact E).
  induction ps as [|p ps IH]; intros b Eb; [cbn [concat handle_socket]; rewrite app_nil_r; reflexivity|]. cbn [handle_socket concat] in *.
  rewrite (arrive_part gz x w (b ++ p) (concat ps ++ r) ps H).
  - rewrite app_assoc. apply IH. rewrite <- Eb, <- !app_assoc. reflexivity.
  - rewrite <- Eb, <- !app_assoc. reflexivity.
  - intros X. apply app_eq_nil in X. tauto.
Qed.
Print Assumptions C15_command_port_waits.
(** The test used there is the one of C08. *)
Theorem C15_blank_line_test : forall b, header_block b = true <-> FastBuffer_Spec.has_header_block b.
Proof.
  assert (B : forall s, blank_line_in s = true <-> exists a b, s = a ++ LF :: LF :: b \/ s = a ++ CR :: LF :: CR :: LF :: b).
  { induction s as [|c s IH]; [split; [discriminate|]; intros (a & b & [H|H]); destruct a; discriminate|]. destruct s as [|d s].
    - split; [discriminate|]. intros (a & b & [H|H]); destruct a as [|? [|? a]]; discriminate.
    - change (blank_line_in (c :: d :: s)) with ((Ascii.eqb c LF && Ascii.eqb d LF)
          || (Ascii.eqb c CR && Ascii.eqb d LF && match s with x :: y :: _ => Ascii.eqb x CR && Ascii.eqb y LF | _ => false end)
          || blank_line_in (d :: s)). rewrite !orb_true_iff, IH, !andb_true_iff, !Ascii.eqb_eq. split.
      + intros [[[-> ->]|[[-> ->] H]]|(a & b & H)].
        * exists [], s. left. reflexivity.
        * destruct s as [|x [|y s]]; try discriminate. apply andb_true_iff in H. rewrite !Ascii.eqb_eq in H. destruct H as [-> ->]. exists [], s. right. reflexivity.
        * exists (c :: a), b. destruct H as [H|H]; [left|right]; cbn [app]; rewrite <- H; reflexivity.
      + intros (a & b & H). destruct a as [|z a].
        * left. destruct H as [H|H]; cbn [app] in H; injection H as -> -> H; [left; auto|right]. rewrite H. auto.
        * right. exists a, b. destruct H as [H|H]; cbn [app] in H; injection H as _ H; auto. }
  intros b. unfold header_block, FastBuffer_Spec.has_header_block. rewrite andb_true_iff, Nat.leb_le. change FastBuffer_Spec.LF with LF. change FastBuffer_Spec.CR with CR.
  destruct b as [|c s]; [split; [intros [_ H]; discriminate|intros [H _]; cbn in H; lia]|]. rewrite B. split; intros (L & a & b & H); split; auto.
  - exists (c :: a), b. split; [discriminate|]. destruct H as [H|H]; [left|right]; cbn [app]; rewrite <- H; reflexivity.
  - destruct H as (NE & H). destruct a as [|z a]; [congruence|]. exists a, b. destruct H as [H|H]; cbn [app] in H; injection H as _ H; auto.
Qed.
Print Assumptions C15_blank_line_test.

(** ** C43 *)
(** Whatever arrives: a message uses at least one byte and no more than there are, and has a method line. *)
Theorem C43_uses_what_is_there : forall b n m t c, SParseHTTP b = Done n m t c -> 1 <= n <= List.length b /\ m <> [].
Proof.
  intros b n m t c H. rewrite SParseHTTP_P in H. destruct (P_used (List.length b) (S (List.length b)) b ps0 n m t c ltac:(lia) ltac:(lia) H) as (A & B & _).
  split; assumption.
Qed.
Print Assumptions C43_uses_what_is_there.
(** The two ways to touch memory outside the buffer: a first line of spaces, or eight hexadecimal digits in a row for a
    number that, read as an int, is negative and takes away no more bytes than there are. *)
Definition spaces_first (b : bytes) : Prop := exists k c r, (c = CR \/ c = LF) /\ b = repeat " "%char (S k) ++ c :: r.
Definition huge_number (b : bytes) : Prop := exists u w v, b = u ++ w ++ v /\ List.length w = 8 /\ (forall c, In c w -> hexval c <> None) /\
  (2 ^ 32 <= SFromHex w + N.of_nat (List.length b))%N.
Theorem C43_memory_safe_partial : forall b, ~ spaces_first b -> ~ huge_number b -> SParseHTTP b <> Undefined.
Proof.
  intros b H1 H2. rewrite SParseHTTP_P. apply (P_any (List.length b) (S (List.length b))); [lia| |cbn; lia|right; right].
  - intros (w & (u & v & E) & L & F & G). apply H2. exists u, w, v. split; [exact E|]. split; [exact L|]. split; [|exact G]. intros c Hc X. rewrite forallb_forall in F. specialize (F c Hc). rewrite X in F. discriminate.
  - intros (k & c & r & E & ->). apply H1. exists k, c, r. split; [|reflexivity]. unfold is_eol in E. apply orb_prop in E as [E|E]; apply Ascii.eqb_eq in E; auto.
Qed.
Print Assumptions C43_memory_safe_partial.
(** The first of them always does. *)
Theorem C43_spaces_first_exact : forall b, spaces_first b -> SParseHTTP b = Undefined.
Proof.
  intros b (k & c & r & E & ->). rewrite SParseHTTP_P, P_eq. unfold round.
  assert (S : split_line (repeat " "%char (S k) ++ c :: r) = (repeat " "%char (S k), c :: r)).
  { induction (S k) as [|j IH]; [cbn [repeat app split_line]; destruct E as [-> | ->]; reflexivity|]. cbn [repeat app split_line]. change (is_eol " ") with false. cbv iota. rewrite IH. reflexivity. }
  rewrite S. cbn [ps0 p_method]. pose proof (trim_pad (Datatypes.S k) [] 0) as T. cbn [app repeat] in T. rewrite app_nil_r in T. cbn [repeat].
  rewrite T by (split; discriminate). cbn [repeat app]. rewrite Nat.eqb_refl. reflexivity.
Qed.
Print Assumptions C43_spaces_first_exact.
(** Without these conditions it is false: a first line of spaces, or a chunk of 2^31 bytes or more. *)
Theorem C43_blank_first_line_refuted : SParseHTTP (" "%char :: CRLF) = Undefined.
Proof. vm_compute. reflexivity. Qed.
Print Assumptions C43_blank_first_line_refuted.
Theorem C43_huge_chunk_refuted :
  SParseHTTP (lit "POST /" ++ CRLF ++ lit "Transfer-Encoding: chunked" ++ CRLF ++ CRLF ++ lit "2" ++ CRLF ++ lit "ab" ++ CRLF
              ++ lit "fffffffe" ++ CRLF ++ lit "abcd") = Undefined.
Proof. vm_compute. reflexivity. Qed.
Print Assumptions C43_huge_chunk_refuted.
(** An exception, which ends the connection, is thrown for a Content-Length that is not a number. *)
Theorem C43_bad_length_throws_refuted :
  SParseHTTP (lit "POST /" ++ CRLF ++ lit "Content-Length: x" ++ CRLF ++ CRLF) = Throws /\
  SParseHTTP (lit "POST /" ++ CRLF ++ lit "Content-Length: -1" ++ CRLF ++ CRLF) = Throws.
Proof. split; vm_compute; reflexivity. Qed.
Print Assumptions C43_bad_length_throws_refuted.
(** A Content-Length of 2^32 is taken for 0: the body is left over, as the start of the next message. *)
Theorem C43_length_truncated_refuted : exists n m t,
  SParseHTTP (lit "POST /" ++ CRLF ++ lit "Content-Length: 4294967296" ++ CRLF ++ CRLF ++ lit "body") = Done n m t [] /\
  n = List.length (lit "POST /" ++ CRLF ++ lit "Content-Length: 4294967296" ++ CRLF ++ CRLF).
Proof. do 3 eexists. split; [vm_compute; reflexivity|]. vm_compute. reflexivity. Qed.
Print Assumptions C43_length_truncated_refuted.

(** ** A case *)
Definition ex_table : stable :=
  [(lit "commandExecuteTime", lit "  5"); (lit "Content-Encoding", lit "identity"); (lit "Content-Length", lit "999");
   (lit "note", lit "tab" ++ ["009"%char] ++ lit "line" ++ CRLF ++ lit "end\"); (lit "set-cookie", lit "a=b" ++ ["255"%char] ++ lit "c=d")].
Definition ex_msg : message := mkMsg (lit "CreateJob") ex_table (lit "{""x"":" ++ CRLF ++ CRLF ++ lit "1}").
Example ex_legal : legal ex_msg.
Proof.
  split; [|split; [|split]].
  - split; [discriminate|]. split; [split; discriminate|]. intros c Hc. right.
    repeat (destruct Hc as [<-|Hc]; [split; vm_compute; congruence|]). destruct Hc.
  - repeat constructor.
  - intros k v Hin. split; [|split].
    + repeat (destruct Hin as [E|Hin]; [injection E as <- <-; split; [discriminate|]; split; [vm_compute; intuition discriminate|]; split;
        [split; vm_compute; intuition discriminate|]; split; [reflexivity|discriminate]|]). destruct Hin.
    + intros N. repeat (destruct Hin as [E|Hin]; [injection E as <- <-; try discriminate N|]); [|destruct Hin].
      exists (lit "a=b"), [lit "c=d"]. split; [|reflexivity].
      repeat constructor; try discriminate; vm_compute; intuition discriminate.
    + intros N. repeat (destruct Hin as [E|Hin]; [injection E as <- <-; discriminate N|]). destruct Hin.
  - vm_compute. reflexivity.
Qed.
Example ex_wire : exists w, on_wire no_gzip ex_msg w /\
  w = lit "CreateJob" ++ CRLF ++ lit "commandExecuteTime:   5" ++ CRLF ++ lit "Content-Encoding: identity" ++ CRLF
      ++ lit "note: tab\tline\r\nend\\" ++ CRLF ++ lit "Set-Cookie: a=b" ++ CRLF ++ lit "Set-Cookie: c=d" ++ CRLF
      ++ lit "Content-Length: 11" ++ CRLF ++ CRLF ++ lit "{""x"":" ++ CRLF ++ CRLF ++ lit "1}".
Proof.
  eexists. split; [split; [exact ex_legal|]; split; [vm_compute; reflexivity|]; vm_compute; reflexivity|]. vm_compute. reflexivity.
Qed.
