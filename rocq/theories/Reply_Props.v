(** C45: answers to a client. *)
From Verif Require Import Base Text_Spec Text_Model Text_Proofs Table Http_Model Http_Spec Http_Proofs Http_Props Dec Timeout_Spec Timeout_Model Timeout_Props Reply_Spec Reply_Model.
From Verif Require Run_Spec Run_Model Run_Props Messenger_Model.

Lemma in_tput k v t p : In p (tput k v t) -> In p t \/ snd p = v /\ kcmp k (fst p) = Eq /\ (fst p = k \/ exists v', In (fst p, v') t).
Proof.
  induction t as [|[k' v'] t IH]; cbn [tput]; [intros [<-|[]]; right; cbn; rewrite kcmp_refl; auto|].
  destruct (kcmp k k') eqn:K.
  - intros [<-|H]; [right; cbn [fst snd]; split; [reflexivity|]; split; [exact K|]; right; exists v'; left; reflexivity|left; right; exact H].
  - intros [<-|H]; [right; cbn; rewrite kcmp_refl; auto|left; exact H].
  - intros [<-|H]; [left; left; reflexivity|]. destruct (IH H) as [X|(X & Y & [Z|(v2 & Z)])]; [left; right; exact X| |];
      right; (split; [exact X|split; [exact Y|]]); [left; exact Z|right; exists v2; right; exact Z].
Qed.
Definition harmless (k : bytes) : Prop := legal_name k /\ ~ is_name k (lit "Set-Cookie") /\ ~ is_name k (lit "Transfer-Encoding").
Lemma is_name_iff a b : is_name a b <-> kcmp a b = Eq.
Proof. rewrite is_name_kcmp. reflexivity. Qed.
Lemma is_name_via k k' n : kcmp k k' = Eq -> is_name k' n -> is_name k n.
Proof. rewrite !is_name_iff. intros H E. rewrite (kcmp_eq_l _ _ n H). exact E. Qed.
Lemma legal_tput k v t : harmless k -> (forall k v, In (k, v) t -> legal_header k v) -> forall k' v', In (k', v') (tput k v t) -> legal_header k' v'.
Proof.
  intros (L & S & T) H k' v' Hin. destruct (in_tput _ _ _ _ Hin) as [X|(E & K & X)]; [apply H; exact X|]. cbn [fst snd] in *. subst v'.
  assert (N : legal_name k') by (destruct X as [->|(v2 & X)]; [exact L|apply (H _ _ X)]).
  split; [exact N|]. split; intros Y; exfalso; [apply S|apply T]; apply (is_name_via _ _ _ K Y).
Qed.
Lemma harmless_node : harmless (lit "nodeName").
Proof. repeat split; vm_compute; intuition discriminate. Qed.
Lemma harmless_conn : harmless (lit "Connection").
Proof. repeat split; vm_compute; intuition discriminate. Qed.

(* the headers of the request that matter are those of the command *)
Lemma header_eq a b t t' : (forall k, tfind k t = tfind k t') -> header a t = header a t' /\ header b t = header b t'.
Proof. unfold header. intros H. rewrite !H. auto. Qed.
Lemma says_iff t w : SToLower w = w -> w <> [] -> (says t w <-> ieqb (header CONN t) w = true).
Proof.
  intros L NE. unfold says, header, ieqb. fold CONN. rewrite bytes_eqb_eq. change (map lower w) with (SToLower w). rewrite L. split.
  - intros (v & E & H). rewrite E. exact H.
  - destruct (tfind CONN t) as [v|]; [intros H; exists v; auto|]. intros H. exfalso. apply NE. rewrite <- H. reflexivity.
Qed.
Lemma lower_forget : SToLower (lit "forget") = lit "forget" /\ lit "forget" <> []. Proof. split; [reflexivity|discriminate]. Qed.
Lemma lower_close : SToLower (lit "close") = lit "close" /\ lit "close" <> []. Proof. split; [reflexivity|discriminate]. Qed.

(** A request and a response without surprises: no plugin header, a number as the time to run it, if any, the plugins make a command of it, the client is there, the
    response is a legal message that fits, the node's name can stand in a header; and the command is answered (C31). *)
Record plain (gz : bytes -> bytes) (e : exchange) : Prop := mkPlain {
  pl_plugin : tfind (lit "plugin") (e_request e) = None \/ tfind (lit "plugin") (e_request e) = Some [];
  pl_later : exists start, begins (e_request e) (e_now e) start /\ clock start;
  pl_now : (0 <= e_now e)%Z;
  pl_blocked : e_blocked e = false;
  pl_fails : e_fails e = false;
  pl_sent : e_sent e = true;
  pl_legal : legal (e_response e);
  pl_fits : (N.of_nat (List.length (gz (msg_content (e_response e)))) < 2 ^ 31)%N;
  pl_gz : (N.of_nat (List.length (gz [])) < 2 ^ 31)%N;
  pl_answered : exists s, In (Run_Spec.Replied s) (fst (Run_Model.life (e_runs e) (Messenger_Model.Command false ([], [], [])))) }.
(** The client is told that the connection ends if it has asked for it in these very letters, or the node is shutting down. *)
Definition told (e : exchange) (b : bool) : Prop := b = true <-> v_running (e_server e) = false \/ tfind (lit "Connection") (e_request e) = Some (lit "close").
(** Nobody waits for the outcome: the client says so, or it is to be run later. *)
Definition unattended (e : exchange) : Prop := says (e_request e) (lit "forget") \/ exists start, begins (e_request e) (e_now e) start /\ (e_now e < start)%Z.
(** The answer to expect. *)
Definition expected (e : exchange) (x : message) : Prop :=
  (unattended e /\ x = queued_answer) \/
  (~ unattended e /\ exists b, told e b /\ answer (v_node (e_server e)) b (e_response e) x).
(** It is the last on its connection. *)
Definition last_one (e : exchange) : Prop := unattended e \/ says (e_request e) (lit "close") \/ v_running (e_server e) = false.

Lemma flat_once {A} (ev : list Run_Spec.event) (l : list A) : Run_Spec.times Run_Spec.is_reply ev = 1 ->
  flat_map (fun e => match e with Run_Spec.Replied _ => l | _ => [] end) ev = l.
Proof.
  unfold Run_Spec.times. induction ev as [|e ev IH]; [discriminate|]. cbn [filter flat_map]. destruct e; cbn [Run_Spec.is_reply List.length app]; auto.
  intros H. injection H as H. assert (Z : flat_map (fun e => match e with Run_Spec.Replied _ => l | _ => [] end) ev = []).
  { clear IH. induction ev as [|e ev IH]; [reflexivity|]. cbn [filter flat_map] in *. destruct e; cbn [Run_Spec.is_reply List.length app] in *; auto. discriminate. }
  rewrite Z. apply app_nil_r.
Qed.
Lemma queued_legal : legal queued_answer.
Proof.
  split; [|split; [repeat constructor|split]]; cbn [msg_method msg_table msg_content queued_answer].
  - split; [discriminate|]. split; [split; vm_compute; discriminate|]. intros c Hc. right. revert c Hc. apply (proj1 (Forall_forall _ _)). repeat (apply Forall_cons; [vm_compute; split; [discriminate|discriminate]|]). constructor.
  - intros k v [E|[]]. injection E as <- <-. split; [apply harmless_conn|]. split; intros H; exfalso; revert H; apply harmless_conn.
  - vm_compute. reflexivity.
Qed.
Lemma answered_once e gz : plain gz e -> Run_Spec.times Run_Spec.is_reply (fst (Run_Model.life (e_runs e) (Messenger_Model.Command false ([], [], [])))) = 1.
Proof.
  intros P. destruct (pl_answered _ _ P) as (s & Hin). destruct (Run_Model.life _ _) as [ev n] eqn:E. cbn [fst] in *.
  destruct (Run_Props.C31_one_reply _ _ _ _ E) as [L _]. unfold Run_Spec.times in *.
  assert (X : In (Run_Spec.Replied s) (filter Run_Spec.is_reply ev)) by (apply filter_In; split; [exact Hin|reflexivity]).
  destruct (filter Run_Spec.is_reply ev); [destruct X|]. cbn [List.length] in *. lia.
Qed.
Lemma kept k t ip : kcmp k (lit "_source") <> Eq -> kcmp k (lit "serializedData") <> Eq -> kcmp k (lit "httpsRequests") <> Eq ->
  tfind k (tdel (lit "serializedData") (tdel (lit "httpsRequests") (match ip with Some ip => tput (lit "_source") ip t | None => t end))) = tfind k t.
Proof.
  intros A B C. rewrite !tfind_tdel. destruct (kcmp k (lit "serializedData")); [congruence| |]; (destruct (kcmp k (lit "httpsRequests")); [congruence| |]);
    (destruct ip; [rewrite tfind_tput; destruct (kcmp k (lit "_source")); [congruence| |]; reflexivity|reflexivity]).
Qed.
Lemma kept_conn t ip : header CONN (tdel (lit "serializedData") (tdel (lit "httpsRequests") (match ip with Some ip => tput (lit "_source") ip t | None => t end))) = header CONN t.
Proof. unfold header. rewrite kept by (vm_compute; discriminate). reflexivity. Qed.
Lemma kept_plugin t ip : header (lit "plugin") (tdel (lit "serializedData") (tdel (lit "httpsRequests") (match ip with Some ip => tput (lit "_source") ip t | None => t end))) = header (lit "plugin") t.
Proof. unfold header. rewrite kept by (vm_compute; discriminate). reflexivity. Qed.
Definition forgets (e : exchange) : bool := ieqb (header CONN (e_request e)) (lit "forget") || (e_now e <? u64 (calc64 (lit "commandExecuteTime") (e_request e)))%Z.
Lemma forgets_iff gz e : plain gz e -> (forgets e = true <-> unattended e).
Proof.
  intros P. destruct (pl_later _ _ P) as (start & B & C). pose proof (pl_now _ _ P) as N. unfold forgets, unattended. rewrite orb_true_iff, Z.ltb_lt, says_iff by apply lower_forget.
  enough (X : (e_now e < u64 (calc64 (lit "commandExecuteTime") (e_request e)))%Z <-> exists start, begins (e_request e) (e_now e) start /\ (e_now e < start)%Z) by (rewrite X; reflexivity).
  unfold calc64. destruct B as [(E & ->)|(n & E & ->)]; rewrite E.
  - change (u64 0) with 0%Z. split; [lia|]. intros (s & [(_ & ->)|(n & E' & _)] & L); [lia|congruence].
  - unfold clock in C. rewrite SToInt64_dec, Z.min_r by lia. rewrite u64_small by lia. split; [intros L; exists (Z.of_N n); split; [right; exists n; auto|exact L]|].
    intros (s & [(E' & _)|(n' & E' & ->)] & L); [congruence|]. assert (D : dec n = dec n') by congruence. rewrite <- (dec_value_dec n), D, dec_value_dec. exact L.
Qed.
Definition rest (e : exchange) : list out :=
  if forgets e then CloseSocket :: (if v_running (e_server e) then [NotDelivered] else [])
  else if ieqb (header CONN (e_request e)) (lit "close") || negb (v_running (e_server e)) then [CloseSocket] else [].
Lemma exchanged_plain gz e : plain gz e -> exists w x, exchanged gz e = Message w :: rest e /\ on_wire gz x w /\ expected e x.
Proof.
  intros P. pose proof (answered_once e gz P) as ONE. pose proof (forgets_iff gz e P) as FI. destruct P as [P1 P2 P3 P4 P5 P6 P7 P8 P9 P10]. unfold exchanged, build. rewrite P4, P5.
  fold (forgets e). unfold rest. destruct (forgets e) eqn:F.
  - destruct (C14_composable gz queued_answer queued_legal) as (w & E). pose proof E as E'. cbn [msg_method msg_table msg_content queued_answer] in E'. unfold CONN. rewrite E'. fold CONN.
    exists w, queued_answer. split; [|split; [split; [exact queued_legal|split; [exact P9|exact E]]|left; split; [apply FI; reflexivity|reflexivity]]].
    destruct (v_running (e_server e)); cbn [andb negb]; [|reflexivity]. rewrite flat_once by exact ONE. unfold _reply. cbn [c_pseudo c_socket]. destruct (ieqb _ _); reflexivity.
  - pose proof F as F'. unfold forgets in F'. apply orb_false_iff in F' as [FC FL].
    cbn [andb negb app]. rewrite flat_once by exact ONE. unfold _reply. cbn [c_pseudo c_socket c_request]. rewrite kept_conn, kept_plugin, FC, P6.
    replace (header (lit "plugin") (e_request e)) with (@nil ascii) by (unfold header; destruct P1 as [-> | ->]; reflexivity).
    set (b := negb (v_running (e_server e)) || bytes_eqb (header CONN (e_request e)) (lit "close")).
    set (t0 := tput (lit "nodeName") (v_node (e_server e)) (msg_table (e_response e))).
    set (x := mkMsg (msg_method (e_response e)) (if b then tput CONN (lit "close") t0 else t0) (msg_content (e_response e))).
    assert (LX : legal x).
    { destruct P7 as (A & B & C & D). assert (C0 : forall k v, In (k, v) t0 -> legal_header k v) by (apply legal_tput; [apply harmless_node|exact C]).
      split; [exact A|]. split; [|split; [|exact D]]; cbn [msg_table x]; destruct b.
      - apply tput_ok, tput_ok, B.
      - apply tput_ok, B.
      - apply legal_tput; [apply harmless_conn|exact C0].
      - exact C0. }
    destruct (C14_composable gz x LX) as (w & E). pose proof E as E'. cbn [msg_method msg_table msg_content x] in E'. rewrite E'. exists w, x. split; [reflexivity|]. split; [split; [exact LX|split; [exact P8|exact E]]|].
    right. split; [intros S; apply FI in S; discriminate|]. exists b. split.
    + unfold told, b. rewrite orb_true_iff, negb_true_iff, bytes_eqb_eq. unfold header. fold CONN. destruct (tfind CONN (e_request e)); [split; (intros [H|H]; [left; exact H|right; congruence])|]. split; (intros [H|H]; [left; exact H|discriminate]).
    + assert (T0 : forall k, tfind k t0 = match kcmp k (lit "nodeName") with Eq => Some (v_node (e_server e)) | _ => tfind k (msg_table (e_response e)) end) by (intros k; unfold t0; apply tfind_tput).
      assert (T1 : forall k, tfind k (msg_table x) = if b then match kcmp k CONN with Eq => Some (lit "close") | _ => tfind k t0 end else tfind k t0).
      { intros k. cbn [msg_table x]. destruct b; [apply tfind_tput|reflexivity]. }
      split; [reflexivity|reflexivity| | |].
      * rewrite T1, T0. replace (kcmp (lit "nodeName") (lit "nodeName")) with Eq by reflexivity. replace (kcmp (lit "nodeName") CONN) with Gt by reflexivity. destruct b; reflexivity.
      * intros ->. rewrite T1. replace (kcmp (lit "Connection") CONN) with Eq by reflexivity. reflexivity.
      * intros k N1 N2. rewrite is_name_iff in N1. rewrite T1, T0. destruct b.
        -- specialize (N2 eq_refl). rewrite is_name_iff in N2. fold CONN in N2. destruct (kcmp k CONN); [congruence| |]; (destruct (kcmp k (lit "nodeName")); [congruence| |]; reflexivity).
        -- destruct (kcmp k (lit "nodeName")); [congruence| |]; reflexivity.
Qed.
Lemma rest_ends gz e : plain gz e -> (existsb ends (rest e) = true <-> last_one e).
Proof.
  intros P. unfold rest, last_one. rewrite <- (forgets_iff gz e P). rewrite (says_iff _ (lit "close")) by apply lower_close.
  destruct (forgets e); [split; [left; reflexivity|reflexivity]|].
  destruct (ieqb (header CONN (e_request e)) (lit "close")); cbn [orb]; [split; [intros _; right; left; reflexivity|reflexivity]|].
  destruct (v_running (e_server e)); cbn; split; try discriminate; try tauto; intros [X|[X|X]]; discriminate.
Qed.
Lemma rest_wire e : wire (rest e) = [].
Proof. unfold rest. destruct (forgets e); [destruct (v_running _); reflexivity|]. destruct (_ || _); reflexivity. Qed.
Lemma wire_app a b : wire (a ++ b) = wire a ++ wire b. Proof. apply flat_map_app. Qed.

(** Each request gets exactly one message, the answer to it. *)
Theorem C45_one_answer : forall gz e, plain gz e ->
  exists w x after, exchanged gz e = Message w :: after /\ (forall o, In o after -> o = CloseSocket \/ o = NotDelivered) /\
    on_wire gz x w /\ expected e x /\ (In CloseSocket after <-> last_one e).
Proof.
  intros gz e P. destruct (exchanged_plain gz e P) as (w & x & E & W & X). exists w, x, (rest e). split; [exact E|]. split; [|split; [exact W|split; [exact X|]]].
  - unfold rest. destruct (forgets e); [destruct (v_running _); cbn; intros o H; intuition|]. destruct (_ || _); [intros o [<-|[]]; auto|intros o []].
  - rewrite <- (rest_ends gz e P), existsb_exists. split; [intros H; exists CloseSocket; auto|]. intros (o & Hin & Ho). enough (o = CloseSocket) by congruence.
    revert Hin Ho. unfold rest. destruct (forgets e); [destruct (v_running _); cbn; intuition; subst; discriminate|].
    destruct (_ || _); [intros [<-|[]]; auto|intros []].
Qed.
Print Assumptions C45_one_answer.

(** The requests that are answered: all up to the first that is the last on its connection. *)
Inductive heard : list exchange -> list exchange -> Prop :=
| heard_none : heard [] []
| heard_last e l : last_one e -> heard (e :: l) [e]
| heard_more e l l' : ~ last_one e -> heard l l' -> heard (e :: l) (e :: l').
Lemma conversation_wire gz l : Forall (plain gz) l ->
  exists es xs ws, heard l es /\ Forall2 expected es xs /\ Forall2 (on_wire gz) xs ws /\ wire (conversation gz l) = concat ws.
Proof.
  induction l as [|e l IH]; intros F; [exists [], [], []; repeat split; constructor|]. inversion F as [|? ? P F']; subst.
  destruct (exchanged_plain gz e P) as (w & x & E & W & X). cbn [conversation]. rewrite E. change (existsb ends (Message w :: rest e)) with (existsb ends (rest e)).
  pose proof (rest_ends gz e P) as R. destruct (existsb ends (rest e)).
  - exists [e], [x], [w]. split; [apply heard_last, R; reflexivity|]. split; [constructor; [exact X|constructor]|]. split; [constructor; [exact W|constructor]|].
    cbn [concat]. rewrite app_nil_r. change (wire (Message w :: rest e)) with (w ++ wire (rest e)). rewrite rest_wire. apply app_nil_r.
  - destruct (IH F') as (es & xs & ws & H1 & H2 & H3 & H4). exists (e :: es), (x :: xs), (w :: ws).
    split; [apply heard_more; [intros Y; apply R in Y; discriminate|exact H1]|]. split; [constructor; assumption|]. split; [constructor; assumption|].
    rewrite wire_app, H4. change (wire (Message w :: rest e)) with (w ++ wire (rest e)). rewrite rest_wire, app_nil_r. reflexivity.
Qed.
(** However the bytes of a connection are divided on their way, the client receives exactly the answers to its requests, in the order of the
    requests, up to the one after which the connection is closed. *)
Theorem C45_conversation : forall gz l pieces, Forall (plain gz) l -> concat pieces = wire (conversation gz l) ->
  exists es xs got_msgs left, heard l es /\ Forall2 expected es xs /\ receive [] pieces = (got_msgs, left) /\ Forall2 (arrives gz) xs got_msgs /\
    (left = [] \/ left = ["010"%char]).
Proof.
  intros gz l pieces F E. destruct (conversation_wire gz l F) as (es & xs & ws & H1 & H2 & H3 & H4). rewrite H4 in E.
  destruct (C14_stream gz xs ws pieces H3 E) as (got_msgs & left & G1 & G2 & G3). exists es, xs, got_msgs, left. auto.
Qed.
Print Assumptions C45_conversation.
Lemma heard_iff l es : heard l es -> (exists more, l = es ++ more) /\ (l <> es -> exists a e, es = a ++ [e] /\ last_one e) /\
  forall a e b, es = a ++ e :: b -> b <> [] -> ~ last_one e.
Proof.
  induction 1 as [|e l L|e l l' L H IH].
  - split; [exists []; reflexivity|]. split; [congruence|]. intros [|y a] e0 b X; discriminate.
  - split; [exists l; reflexivity|]. split; [intros _; exists [], e; auto|]. intros [|y a] e' b X NB; inversion X; subst; [congruence|destruct a; discriminate].
  - destruct IH as ((more & ->) & I2 & I3). split; [exists more; reflexivity|]. split.
    + intros N. destruct I2 as (a & e' & -> & L'); [congruence|]. exists (e :: a), e'. auto.
    + intros [|y a] e' b X NB; inversion X; subst; [exact L|]. exact (I3 a e' b eq_refl NB).
Qed.
(** Commands without a client say nothing. *)
Theorem C45_silent : forall gz srv sent c response, c_pseudo c = true \/ c_socket c = false -> _reply gz srv sent c response = [NotDelivered].
Proof. intros gz srv sent c response [H|H]; unfold _reply; rewrite H; [reflexivity|]. destruct (c_pseudo c); reflexivity. Qed.
Print Assumptions C45_silent.

(** ** Where the unrestricted statement fails *)
Definition node_up : server := Server (lit "node1") [lit "DB"; lit "Jobs"] true.
Definition node_down : server := Server (lit "node1") [lit "DB"; lit "Jobs"] false.
Definition no_gz : bytes -> bytes := fun _ => [].
Definition peeked : list (Run_Model.start * list Run_Model.pass) :=
  [(Run_Props.go, [Run_Model.Pass false false false Run_Model.PeekDone false true Run_Model.LEADING Run_Props.nothing Run_Model.NoCommit false Run_Model.LEADING false Run_Model.Sleep])].
Definition ask (srv : server) (fails : bool) (t : stable) : exchange :=
  Exchange srv 1700000000000000 false fails (Some (lit "10.1.2.3")) t peeked true (mkMsg (lit "200 OK") [(lit "result", lit "7")] (lit "body")).
Definition message_of (l : list out) : bytes := match l with Message w :: _ => w | _ => [] end.
(** Any client can end the server: it sends the header plugin with a name no plugin has, and the server aborts when it wants to answer. *)
Theorem C45_plugin_header_refuted : forall gz srv sent c response name, c_pseudo c = false -> c_socket c = true ->
  tfind (lit "plugin") (c_request c) = Some name -> name <> [] -> ~ In name (v_plugins srv) -> _reply gz srv sent c response = [ServerDies].
Proof.
  intros gz srv sent c response name P S T NE NI. unfold _reply. rewrite P, S. assert (H : header (lit "plugin") (c_request c) = name) by (unfold header; rewrite T; reflexivity). rewrite H. destruct name as [|a name]; [congruence|].
  destruct (existsb _ _) eqn:X; [|reflexivity]. exfalso. apply NI. apply existsb_exists in X as (y & Hy & E). apply bytes_eqb_eq in E. congruence.
Qed.
Print Assumptions C45_plugin_header_refuted.
Example C45_plugin_header_case : exchanged no_gz (ask node_up false [(lit "plugin", lit "x")]) = [ServerDies].
Proof. vm_compute. reflexivity. Qed.
(** With the name of a plugin in this header the client gets no answer: the response is given to that plugin, whose default is to do nothing. *)
Theorem C45_plugin_swallows_refuted : exchanged no_gz (ask node_up false [(lit "plugin", lit "DB")]) = [ToPlugin (lit "DB")].
Proof. vm_compute. reflexivity. Qed.
Print Assumptions C45_plugin_swallows_refuted.
(** A client that asks for "Connection: Close" is not told that the connection is closed, but it is closed: one test looks at the letter case, the
    other does not. *)
Theorem C45_capital_refuted : exists w m t c, exchanged no_gz (ask node_up false [(lit "Connection", lit "Close")]) = [Message w; CloseSocket] /\
  SParseHTTP w = Done (List.length w) m t c /\ tfind (lit "Connection") t = None.
Proof.
  exists (message_of (exchanged no_gz (ask node_up false [(lit "Connection", lit "Close")]))). do 3 eexists. split; [vm_compute; reflexivity|]. split; vm_compute; reflexivity.
Qed.
Print Assumptions C45_capital_refuted.
(** A node that is shutting down says "202 Successfully queued" to a request nobody waits for, and throws it away. *)
Theorem C45_discarded_refuted : exists w, build no_gz node_down 0 false false None [(lit "Connection", lit "forget")] = ([Message w; CloseSocket], None) /\
  exists t, SParseHTTP w = Done (List.length w) (lit "202 Successfully queued") t [].
Proof.
  exists (message_of (fst (build no_gz node_down 0 false false None [(lit "Connection", lit "forget")]))). split; [vm_compute; reflexivity|]. eexists. vm_compute. reflexivity.
Qed.
Print Assumptions C45_discarded_refuted.
(** If a plugin fails to make a command of the request, Connection: close is forgotten with the request. *)
Theorem C45_constructor_refuted : exists w, exchanged no_gz (ask node_up true [(lit "Connection", lit "close")]) = [Message w].
Proof. eexists. vm_compute. reflexivity. Qed.
Print Assumptions C45_constructor_refuted.

(** Three requests on one connection; the second asks to close it. *)
Definition first_ask := ask node_up false [(lit "a", lit "1")].
Definition second_ask := ask node_up false [(lit "Connection", lit "close"); (lit "httpsRequests", lit "x")].
Lemma ask_plain srv t : (tfind (lit "plugin") t = None) -> (tfind (lit "commandExecuteTime") t = None \/ exists n, (n < 2 ^ 60)%N /\ tfind (lit "commandExecuteTime") t = Some (dec n)) -> plain no_gz (ask srv false t).
Proof.
  intros A B. split; cbn [ask e_request e_now e_blocked e_fails e_sent e_response]; auto;
    try match goal with |- exists _, _ /\ _ => fail 1 | |- _ => vm_compute; reflexivity | |- _ => vm_compute; discriminate end.
  - destruct B as [B|(n & L & B)]; [exists 1700000000000000%Z|exists (Z.of_N n)]; (split; [|unfold clock; lia]); [left|right; exists n]; auto.
  - split; [|split; [repeat constructor|split; [|vm_compute; reflexivity]]]; cbn [msg_method msg_table].
    + split; [discriminate|]. split; [split; vm_compute; discriminate|]. intros c Hc. right. revert c Hc. apply (proj1 (Forall_forall _ _)). repeat (apply Forall_cons; [vm_compute; split; [discriminate|discriminate]|]). constructor.
    + intros k v [E|[]]. injection E as <- <-. repeat split; try (vm_compute; intuition discriminate).
  - exists Run_Spec.Peeked. vm_compute. auto.
Qed.
Example C45_story : Forall (plain no_gz) [first_ask; second_ask; first_ask] /\ heard [first_ask; second_ask; first_ask] [first_ask; second_ask] /\
  exists w1 w2, conversation no_gz [first_ask; second_ask; first_ask] = [Message w1; Message w2; CloseSocket].
Proof.
  split; [repeat (apply Forall_cons; [apply ask_plain; [reflexivity|left; reflexivity]|]); apply Forall_nil|]. split.
  - apply heard_more; [|apply heard_last; right; left; eexists; split; reflexivity].
    intros [[(v & H & _)|(s & [(_ & ->)|(n & H & _)] & L)]|[(v & H & _)|H]]; try discriminate.
  - do 2 eexists. vm_compute. reflexivity.
Qed.
(** A request to be run later is answered at once. *)
Definition tomorrow := ask node_up false [(lit "commandExecuteTime", lit "1700086400000000")].
Example C45_later : plain no_gz tomorrow /\ unattended tomorrow /\ exists w, exchanged no_gz tomorrow = [Message w; CloseSocket; NotDelivered].
Proof.
  split; [apply ask_plain; [reflexivity|right; exists 1700086400000000%N; split; vm_compute; reflexivity]|]. split.
  - right. exists 1700086400000000%Z. split; [right; exists 1700086400000000%N; split; vm_compute; reflexivity|reflexivity].
  - eexists. vm_compute. reflexivity.
Qed.
