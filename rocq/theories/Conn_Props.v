(** C57: the messages between two nodes. *)
From Verif Require Import Base Dec Text_Spec Text_Model Table Http_Spec Http_Model Http_Proofs Http_Props Conn_Spec Conn_Model Conn_Proofs.

(** ** The sending end *)
(** Whatever happens at one end, the operating system is given the bytes of the messages that were sent, in order, each
    once and without gaps; as long as the connection is not dropped, the rest of them is kept and waits. *)
Theorem C57_sending : forall c0 l, start c0 -> let c := run c0 l in
  prefix (taken c) (concat (said c)) /\ (down c = false -> taken c ++ sendBuffer c = concat (said c)).
Proof.
  intros c0 l ST c. destruct (run_ok c0 l ST) as [H|(A & B & D & E)].
  - split; [exists (sendBuffer c); exact H|intros _; exact H].
  - split; [exact E|intros D0; unfold c in D0; congruence].
Qed.
Print Assumptions C57_sending.

(** What waits is sent: when the operating system, asked for the chance to send as long as [wants_to_write], gives it and
    takes at least one byte each time, then everything that was sent has been taken after as many rounds as there were
    bytes waiting, whatever comes in meanwhile. *)
Definition serve (c : conn) (r : nat * list bytes) : conn :=
  step c (Poll (Revents true (wants_to_write c) false false) false false (snd r) KNothing (KSent (S (fst r))) KAgain []).
Lemma serve_step c n p : st c = CONNECTED -> down c = false -> gone c = false -> broken c = false ->
  let c' := serve c (n, p) in
  st c' = CONNECTED /\ down c' = false /\ gone c' = false /\ said c' = said c /\
  taken c' = taken c ++ firstn (S n) (sendBuffer c) /\ sendBuffer c' = skipn (S n) (sendBuffer c).
Proof.
  intros S D G B. cbv zeta. unfold serve, step. rewrite G, B. cbn [orb fst snd]. unfold poll, postPoll. rewrite S. unfold postPoll_connected. cbn [can_read can_write hung_up orb].
  unfold wants_to_write. rewrite S. cbv beta iota delta [recv].
  set (c1 := Conn (st c) (sendBuffer c) (recvBuffer c ++ concat p) (down c) (said c) (taken c) (received c ++ concat p) (handled c) (gone c) (broken c)).
  assert (S1 : sendBuffer c1 = sendBuffer c) by reflexivity. destruct (sendBuffer c) as [|a b] eqn:SB.
  - cbn [negb orb]. replace (st c1) with CONNECTED by (symmetry; exact S). destruct (process_quiet (Datatypes.S (List.length (recvBuffer c1))) (Some HUNDRED) c1) as (A1 & A2 & A3 & A4 & A5 & A6).
    unfold processPeerMessages. rewrite A1, A2, A3, A4, A5, A6. subst c1. cbn [st down gone said taken sendBuffer firstn skipn]. rewrite ?SB, app_nil_r. auto 10.
  - unfold send. rewrite S1. change (down c1) with (down c). rewrite D. cbv beta iota. cbn [negb orb].
    replace (st (consume (Datatypes.S n) c1)) with CONNECTED by (symmetry; exact S).
    destruct (process_quiet (Datatypes.S (List.length (recvBuffer (consume (Datatypes.S n) c1)))) (Some HUNDRED) (consume (Datatypes.S n) c1)) as (A1 & A2 & A3 & A4 & A5 & A6).
    unfold processPeerMessages. rewrite A1, A2, A3, A4, A5, A6. subst c1. cbn [st down gone said taken sendBuffer consume]. rewrite ?SB. auto 10.
Qed.
Lemma step_broken c a : broken c = true -> broken (step c a) = true.
Proof. intros H. unfold step. rewrite H, orb_true_r. exact H. Qed.
Lemma serve_broken rounds : forall c, broken (fold_left serve rounds c) = false -> broken c = false.
Proof.
  induction rounds as [|r rounds IH]; intros c H; [exact H|]. cbn [fold_left] in H. apply IH in H. destruct (broken c) eqn:B; [|reflexivity].
  unfold serve in H. rewrite step_broken in H by exact B. discriminate.
Qed.
Theorem C57_sent : forall rounds c0 l, start c0 -> let c := run c0 l in let c' := fold_left serve rounds c in
  st c = CONNECTED -> down c = false -> gone c = false -> broken c' = false -> List.length (sendBuffer c) <= List.length rounds ->
  taken c' = concat (said c) /\ said c' = said c /\ sendBuffer c' = [] /\ st c' = CONNECTED.
Proof.
  intros rounds c0 l ST c. pose proof (proj2 (C57_sending c0 l ST)) as F. fold c in F. clearbody c. clear c0 l ST. revert c F.
  induction rounds as [|[n p] rounds IH]; intros c F c' S D G B HL; subst c'.
  - cbn [fold_left] in *. destruct (sendBuffer c) eqn:SB; [|cbn [List.length] in HL; lia]. specialize (F D). rewrite app_nil_r in F. auto.
  - pose proof (serve_broken _ _ B) as B0. cbn [fold_left] in *.
    destruct (serve_step c n p S D G B0) as (S' & D' & G' & A' & T' & SB').
    destruct (IH (serve c (n, p))) as (I1 & I2 & I3 & I4); auto.
    + intros _. rewrite A', T', SB', <- app_assoc, firstn_skipn. auto.
    + rewrite SB', skipn_length. cbn [List.length] in HL. lia.
    + rewrite A' in *. auto.
Qed.
Print Assumptions C57_sent.

(** A connection this node opens is made: the operating system is asked to say when, and when it does so and takes what waits, the
    connection is there. *)
Theorem C57_connected : forall c0 l n p, start c0 -> let c := run c0 l in let c' := serve c (n, p) in
  st c = CONNECTING -> down c = false -> gone c = false -> broken c = false ->
  st c' = CONNECTED /\ down c' = false /\ gone c' = false /\ said c' = said c /\ taken c' = taken c ++ firstn (S n) (sendBuffer c).
Proof.
  intros c0 l n p _. set (c := run c0 l). cbv zeta. clearbody c. intros S D G B. unfold serve, step. rewrite G, B. cbn [orb fst snd]. unfold poll, postPoll. rewrite S.
  unfold wants_to_write. rewrite S. cbn [can_read can_write hung_up in_error orb negb]. unfold postPoll_connected. cbn [can_read can_write hung_up orb]. cbv beta iota delta [recv].
  set (c1 := Conn _ _ _ _ _ _ _ _ _ _). assert (S1 : sendBuffer c1 = sendBuffer c) by reflexivity. assert (D1 : down c1 = down c) by reflexivity.
  destruct (sendBuffer c) as [|a b] eqn:SB; unfold send; rewrite S1.
  - cbn [negb orb]. change (st c1) with CONNECTED. cbv iota. unfold processPeerMessages.
    destruct (process_quiet (Datatypes.S (List.length (recvBuffer c1))) (Some HUNDRED) c1) as (A1 & A2 & A3 & A4 & A5 & A6).
    rewrite ?A1, ?A2, ?A3, ?A4, ?A5, ?A6. subst c1. cbn [st down gone said taken sendBuffer set_state firstn]. rewrite app_nil_r. auto 10.
  - rewrite D1, D. cbn [negb orb]. change (st (consume (Datatypes.S n) c1)) with CONNECTED. cbv iota. unfold processPeerMessages.
    destruct (process_quiet (Datatypes.S (List.length (recvBuffer (consume (Datatypes.S n) c1)))) (Some HUNDRED) (consume (Datatypes.S n) c1)) as (A1 & A2 & A3 & A4 & A5 & A6).
    rewrite ?A1, ?A2, ?A3, ?A4, ?A5, ?A6. subst c1. cbn [st down gone said taken sendBuffer consume set_state]. rewrite ?SB. auto 10.
Qed.
Print Assumptions C57_connected.
Example C57_connected_case : let c := run (fresh CONNECTING) [Do (Say (lit "x") KAgain)] in
  st c = CONNECTING /\ down c = false /\ gone c = false /\ broken c = false /\ taken (serve c (5, [])) = lit "x".
Proof. vm_compute. repeat split. Qed.
(** ** Both ends *)
(** [a] and [b] are the two ends of a connection after anything has happened at them.  The operating systems and the
    network deliver a prefix of the bytes they took.  Then the messages that [b] has handled are the first ones that [a]
    sent: whole, in order, each once, nothing else. *)
Theorem C57_delivery : forall gz xs sa la sb lb, start sa -> start sb -> let a := run sa la in let b := run sb lb in
  Forall2 (on_wire gz) xs (said a) -> prefix (received b) (taken a) ->
  broken b = false /\ exists n, Forall2 (arrives gz) (firstn n xs) (handled b).
Proof.
  intros gz xs sa la sb lb TA TB a b HF (r & PR). destruct (C57_sending sa la TA) as ((r' & PT) & _). fold a in PT.
  destruct (run_good gz xs (said a) (on_wire_all _ _ _ HF) sb lb TB (r ++ r')) as (B & _ & xs1 & xs2 & Xs1 & Xs2 & pre & E1 & E2 & EL & _ & _ & H & _).
  { fold b. rewrite app_assoc, PR. exact PT. }
  fold b in B, H. split; [exact B|]. exists (List.length xs1). rewrite E1, firstn_app, Nat.sub_diag, firstn_all. cbn [firstn]. rewrite app_nil_r, H.
  rewrite E1 in HF. apply Forall2_app_inv_l in HF. destruct HF as (w1 & w2 & F1 & _ & _). eapply got_all. exact F1.
Qed.
Print Assumptions C57_delivery.

(** A message whose bytes have all come in is handled in the next poll, unless a hundred others are handled in it. *)
Theorem C57_prompt : forall gz xs sa la sb lb ev f late p e k k' ds, start sa -> start sb ->
  let a := run sa la in let b0 := run sb lb in let b := run sb (lb ++ [Poll ev f late p e k k' ds]) in
  Forall2 (on_wire gz) xs (said a) -> prefix (received b) (taken a) -> gone b0 = false ->
  forall before w after, said a = before ++ w :: after -> prefix (concat before ++ w) (received b) ->
  List.length before < List.length (handled b) \/ List.length (handled b) = List.length (handled b0) + 100.
Proof.
  intros gz xs sa la sb lb ev f late p e k k' ds TA TB a b0 b HF (r & PR) NG before w after EA PW. destruct (C57_sending sa la TA) as ((r' & PT) & _). fold a in PT.
  apply on_wire_all in HF. pose proof (run_good gz xs (said a) HF sb lb TB) as GA. fold b0 in GA.
  assert (EB : b = step b0 (Poll ev f late p e k k' ds)) by (unfold b, run; rewrite fold_left_app; reflexivity).
  assert (ER : received b ++ (r ++ r') = concat (said a)) by (rewrite app_assoc, PR; exact PT).
  pose proof (run_good gz xs (said a) HF sb (lb ++ [Poll ev f late p e k k' ds]) TB _ ER) as GB. fold b in GB.
  assert (NB : broken b0 = false).
  { destruct (broken b0) eqn:X; [|reflexivity]. pose proof (step_broken b0 (Poll ev f late p e k k' ds) X) as Y. rewrite <- EB in Y. destruct GB as (Z & _). congruence. }
  unfold step in EB. rewrite NG, NB in EB. cbn [orb] in EB.
  destruct (poll_good gz xs (said a) HF (r ++ r') ev f late p e k k' ds b0 GA NG) as (_ & [I|[_ I]]); [rewrite <- EB; exact ER| |]; rewrite <- EB in I.
  - left. eapply none_waits; eauto.
  - right. exact I.
Qed.
Print Assumptions C57_prompt.

(** Before a node treats its peer as disconnected it has handled every message whose bytes had come in: also those that
    came together with the end of the connection. *)
Theorem C57_before_gone : forall gz xs sa la sb lb, start sa -> start sb -> let a := run sa la in let b := run sb lb in
  Forall2 (on_wire gz) xs (said a) -> prefix (received b) (taken a) -> gone b = true ->
  forall before w after, said a = before ++ w :: after -> prefix (concat before ++ w) (received b) ->
  List.length before < List.length (handled b).
Proof.
  intros gz xs sa la sb lb TA TB a b HF (r & PR) G before w after EA PW. destruct (C57_sending sa la TA) as ((r' & PT) & _). fold a in PT.
  apply on_wire_all in HF. assert (ER : received b ++ (r ++ r') = concat (said a)) by (rewrite app_assoc, PR; exact PT).
  pose proof (run_good gz xs (said a) HF sb lb TB _ ER) as GB. fold b in GB. eapply none_waits; eauto.
  apply (gone_settled gz xs (said a) HF lb sb (r ++ r')); auto; [apply (start_good gz xs (said a) HF sb TB)|].
  destruct (start_good gz xs (said a) HF sb TB) as (_ & N). congruence.
Qed.
Print Assumptions C57_before_gone.

(** In particular nothing is lost on a connection that brought everything. *)
Theorem C57_all : forall gz xs sa la sb lb, start sa -> start sb -> let a := run sa la in let b := run sb lb in
  Forall2 (on_wire gz) xs (said a) -> received b = concat (said a) -> taken a = concat (said a) -> gone b = true ->
  Forall2 (arrives gz) xs (handled b).
Proof.
  intros gz xs sa la sb lb TA TB a b HF ER ET G.
  assert (PR : prefix (received b) (taken a)) by (exists []; rewrite app_nil_r, ER, ET; reflexivity).
  destruct (C57_delivery gz xs sa la sb lb TA TB HF PR) as (_ & n & D). fold b in D.
  assert (L : List.length xs <= List.length (handled b)).
  { assert (LX : List.length xs = List.length (said a)) by (clear -HF; induction HF; cbn; congruence).
    destruct (said a) as [|w0 ws0] eqn:E using rev_ind; [rewrite LX; cbn; lia|]. rewrite LX, app_length. cbn [List.length]. clear IHws0.
    assert (List.length ws0 < List.length (handled b)); [|lia].
    apply (C57_before_gone gz xs sa la sb lb TA TB) with (w := w0) (after := []); fold a; rewrite ?E; auto.
    exists []. fold b. rewrite app_nil_r, ER, concat_app. cbn [concat]. rewrite app_nil_r. reflexivity. }
  assert (LN : List.length (firstn n xs) = List.length (handled b)) by (clear -D; induction D; cbn; congruence).
  rewrite firstn_length in LN. rewrite firstn_all2 in D by lia. exact D.
Qed.
Print Assumptions C57_all.

(** A connection that comes in is given to a peer only when its first message is a LOGIN with the name of a peer that has
    no connection yet. *)
Theorem C57_login : forall free us pieces e c, login free us (accepted pieces e) = LoggedIn c ->
  exists m t b, handled c = [(m, t, b)] /\ is_name m (lit "LOGIN") /\ free (match tfind (lit "Name") t with Some v => v | None => [] end) = true.
Proof.
  intros free us pieces e c. assert (H : handled (accepted pieces e) = []) by reflexivity. revert H. generalize (accepted pieces e).
  induction us as [|u us IH]; intros c0 H; cbn [login]; [discriminate|]. unfold login_poll.
  destruct (postPoll_came (f_ev u) false (f_pieces u) (f_end u) (f_send u) c0) as (d & _ & _ & HH & _). rewrite H in HH. set (c1 := postPoll _ _ _ _ _ c0) in *. cbv zeta.
  destruct (st c1); try discriminate. destruct (SParseHTTP (recvBuffer c1)) as [|[|n] m t b| | ]; try discriminate.
  - destruct (f_idle u); [discriminate|]. apply IH. exact HH.
  - destruct (f_idle u); [discriminate|]. apply IH. exact HH.
  - destruct (_ && _) eqn:E; [|discriminate]. intros X. injection X as <-. apply andb_true_iff in E. destruct E as (E1 & E2). exists m, t, b.
    cbn [pop handled]. rewrite HH. split; [reflexivity|]. split; [|exact E2]. unfold ieqb in E1. apply bytes_eqb_eq in E1. exact E1.
Qed.
Print Assumptions C57_login.

(** ** What is not so *)
(** The node port can be used by anyone to end the process: a connection whose first bytes are a message with a
    Content-Length that is not a number (or is negative) makes the parser throw an exception of the standard library, before
    anybody has logged in.  SQLiteNode::postPoll catches only SException there, and nothing in the sync thread catches the
    rest. *)
Definition attack (v : bytes) : bytes := lit "X" ++ CRLF ++ lit "Content-Length: " ++ v ++ CRLF ++ CRLF.
Lemma read_once ev w k : can_read ev = true ->
  let c := postPoll ev false [w] KNothing k (accepted [] KNothing) in st c = CONNECTED /\ recvBuffer c = w.
Proof. intros H. destruct ev as [r [] u i]; cbn in H; subst r; cbn; rewrite app_nil_r; auto. Qed.
Theorem C57_stranger_refuted : forall free ev k idle,
  can_read ev = true ->
  login free [FirstPoll ev [attack (lit "x")] KNothing k idle] (accepted [] KNothing) = NodeDies /\
  login free [FirstPoll ev [attack (lit "-1")] KNothing k idle] (accepted [] KNothing) = NodeDies.
Proof.
  intros free ev k idle H. assert (E : forall w, SParseHTTP w = Throws -> login free [FirstPoll ev [w] KNothing k idle] (accepted [] KNothing) = NodeDies).
  { intros w P. cbn [login]. unfold login_poll. cbn [f_ev f_pieces f_end f_send f_idle]. destruct (read_once ev w k H) as (A & B). cbv zeta. rewrite A, B, P. reflexivity. }
  split; apply E; vm_compute; reflexivity.
Qed.
Print Assumptions C57_stranger_refuted.
(** The same message from a peer that has logged in ends the process as well. *)
Theorem C57_bad_message_refuted : forall ev l k k' ds, can_read ev = true ->
  broken (poll ev false l [attack (lit "x")] KNothing k k' ds (accepted [] KNothing)) = true.
Proof.
  intros ev l k k' ds H. destruct (read_once ev (attack (lit "x")) k H) as (A & B). unfold poll. rewrite A.
  assert (P : SParseHTTP (attack (lit "x")) = Throws) by (vm_compute; reflexivity).
  assert (E : forall lim c, recvBuffer c = attack (lit "x") -> broken (processPeerMessages lim ds c) = true).
  { intros lim c R. unfold processPeerMessages. cbn [process]. rewrite R, P. reflexivity. }
  cbv zeta. destruct l; [|apply E; exact B]. rewrite (E None _ B). apply E. exact B.
Qed.
Print Assumptions C57_bad_message_refuted.

(** A node that drops a connection loses the messages that it has sent on it and that are still in its own send buffer, even
    when the operating system takes bytes whenever it is asked: Socket::shutdown shuts both directions of the socket first,
    so the attempts of postPoll to send the rest can only fail.  This is how a leader that shuts down leaves its followers
    (SQLiteNode.cpp 872-876), and how RECONNECT is sent (2244-2247). *)
Theorem C57_after_drop : forall c l, taken (run (do_deed c Drop) l) = taken c.
Proof. intros c l. apply (run_still (taken c) l). split; reflexivity. Qed.
Print Assumptions C57_after_drop.
Definition takes (k : ksend) : bool := match k with KSent (S _) => true | _ => false end.
Definition takes_bytes (a : action) : bool :=
  match a with Do (Say _ k) => takes k | Do Drop => true | Poll _ _ _ _ _ k k' ds => takes k && takes k' && match ds with [] => true | _ => false end end.
Definition ping : message := mkMsg (lit "PING") [(lit "Timestamp", lit "7")] [].
Definition hello : message := mkMsg (lit "LOGIN") [(lit "Name", lit "n1")] [].
Definition wire (x : message) : bytes := match SComposeHTTP no_gzip (msg_method x) (msg_table x) (msg_content x) with Some w => w | None => [] end.
Lemma wires : Forall2 (on_wire no_gzip) [hello; ping] [wire hello; wire ping].
Proof.
  assert (T : forall m k v, legal_method m -> legal_name k -> SToLower k <> lit "set-cookie" -> SToLower k <> lit "transfer-encoding" -> legal (mkMsg m [(k, v)] [])).
  { intros m k v HM HK N1 N2. split; [exact HM|]. split; [repeat constructor|]. split; [|vm_compute; reflexivity].
    intros k' v' [E|[]]. injection E as <- <-. split; [exact HK|]. split; intros X; exfalso; [apply N1|apply N2]; rewrite X; vm_compute; reflexivity. }
  assert (G : forall x, legal x -> msg_content x = [] -> SComposeHTTP no_gzip (msg_method x) (msg_table x) (msg_content x) = Some (wire x) -> on_wire no_gzip x (wire x)).
  { intros x L E1 E2. split; [exact L|]. split; [rewrite E1; vm_compute; reflexivity|exact E2]. }
  assert (M : forall m, m <> [] -> hd "x"%char m <> " "%char -> last m "x"%char <> " "%char -> forallb (fun c => N.leb 32 (bcode c) && negb (N.eqb (bcode c) 127)) m = true -> legal_method m).
  { intros m A B C D. split; [exact A|]. split; [split; assumption|]. intros c Hc. right. rewrite forallb_forall in D. specialize (D c Hc). apply andb_true_iff in D.
    destruct D as (D1 & D2). split; [apply N.leb_le; exact D1|]. apply negb_true_iff in D2. apply N.eqb_neq. exact D2. }
  constructor; [|constructor; [|constructor]]; apply G; try reflexivity; apply T; try (apply M; [discriminate|discriminate|discriminate|vm_compute; reflexivity]); try discriminate;
    (split; [discriminate|]; split; [vm_compute; intuition discriminate|]; split; [split; vm_compute; intuition discriminate|]; split; [reflexivity|discriminate]).
Qed.
Theorem C57_dropped_refuted : ~ (forall gz xs c0 l, start c0 -> Forall2 (on_wire gz) xs (said (run c0 l)) -> forallb takes_bytes l = true ->
  gone (run c0 l) = true -> taken (run c0 l) = concat (said (run c0 l))).
Proof.
  intros H. set (ev := Revents false true false false).
  specialize (H no_gzip [hello; ping] (fresh CONNECTING)
    [Poll ev false false [] KNothing (KSent 1) (KSent 1) []; Do (Say (wire hello) (KSent 30)); Do (Say (wire ping) (KSent 20)); Do Drop;
     Poll (Revents true true true false) false false [] KEof (KSent 100) (KSent 100) []] (or_introl eq_refl) wires).
  specialize (H eq_refl eq_refl). apply (f_equal (@List.length _)) in H. vm_compute in H. discriminate.
Qed.
Print Assumptions C57_dropped_refuted.

(** ** A case *)
(* one node opens the connection, sends two messages before it is established, and the bytes leave in three parts *)
Definition end_a : conn := run (fresh CONNECTING)
  [Do (Say (wire hello) KAgain); Do (Say (wire ping) KAgain); Poll (Revents false true false false) false false [] KNothing (KSent 7) KAgain [];
   Poll (Revents false true false false) false false [] KNothing (KSent 60) KAgain []; Poll (Revents false true false false) false false [] KNothing (KSent 60) KAgain []].
(* the other one gets them in other parts, and with the last one the end of the connection *)
Definition all_bytes : bytes := wire hello ++ wire ping.
Definition b_login : login_result := login (fun n => bytes_eqb n (lit "n1"))
  [FirstPoll (Revents true false false false) [firstn 30 all_bytes] KNothing KAgain false;
   FirstPoll (Revents true false false false) [firstn 20 (skipn 30 all_bytes)] KNothing KAgain false] (accepted [] KNothing).
Definition end_b : conn := match b_login with
  | LoggedIn c => run c [Do (Say (wire ping) KAgain); Poll (Revents true true true false) false false [skipn 50 all_bytes] KEof KFatal KAgain [[Drop]]]
  | _ => fresh CLOSED end.
Example C57_case :
  start (fresh CONNECTING) /\ said end_a = [wire hello; wire ping] /\ taken end_a = all_bytes /\ st end_a = CONNECTED /\
  (exists c, b_login = LoggedIn c /\ start c) /\ received end_b = all_bytes /\ gone end_b = true /\ broken end_b = false /\
  map (fun m => fst (fst m)) (handled end_b) = [lit "LOGIN"; lit "PING"].
Proof.
  split; [left; reflexivity|]. do 3 (split; [vm_compute; reflexivity|]). split; [|do 3 (split; [vm_compute; reflexivity|]); vm_compute; reflexivity].
  assert (E : exists c, b_login = LoggedIn c) by (eexists; vm_compute; reflexivity). destruct E as (c & E). exists c. split; [exact E|]. right. do 4 eexists. exact E.
Qed.
