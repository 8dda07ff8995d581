(** C59: through a proxy nothing of a request leaves unencrypted, and nothing of the proxy's gets into the answer. *)
From Verif Require Import Base Dec Text_Spec Text_Model Text_Proofs Table Http_Spec Http_Model Http_Proofs Http_Props Conn_Proofs Https_Model Sockpool_Model Proxy_Spec Proxy_Model.

Definition said_yes (b : bytes) : Prop := exists n m t c, SParseHTTP b = Done n m t c /\ contains m (lit " 200 ") = true.
Record good (h rid : bytes) (k : sock) : Prop := Good {
  go_clear : out_clear k ++ s_pre k = if s_filled k then connect h rid else [];
  go_order : out_tls k ++ s_send k = concat (given k);
  go_before : s_complete k = false -> s_recv k = in_clear k /\ out_tls k = [] /\ in_tls k = [] /\ s_ssl k = None;
  go_after : s_complete k = true -> s_recv k = in_tls k /\ said_yes (in_clear k) /\ (s_broken k = false -> s_ssl k = Some h) }.
Lemma good_send h rid r k : good h rid k -> good h rid (fst (send r k)).
Proof.
  intros H. pose proof H as H0. destruct H0 as [A B C D]. unfold send. destruct (s_pre k) as [|x pre] eqn:P.
  - destruct (s_complete k) eqn:K; [|exact H]. destruct (s_send k) as [|y sb] eqn:S; [exact H|]. destruct r as [n| |]; [|exact H|exact H].
    split; cbn [fst s_pre s_filled s_send s_complete s_ssl s_recv out_clear out_tls in_clear in_tls given s_broken]; rewrite ?P, ?K; auto; [|discriminate].
    rewrite <- app_assoc, firstn_skipn. exact B.
  - destruct r as [n| |]; [|exact H|exact H]. split; cbn [fst s_pre s_filled s_send s_complete s_ssl s_recv out_clear out_tls in_clear in_tls given s_broken]; auto.
    rewrite <- app_assoc, firstn_skipn. exact A.
Qed.
Lemma good_step h rid k e : good h rid k -> good h rid (step h rid k e).
Proof.
  intros H. unfold step. destruct (s_broken k) eqn:BR; [exact H|]. destruct e as [b r|r|p a|s].
  - unfold send_buffer. assert (G : good h rid (Sock (s_state k) (s_fd k) (if s_filled k then s_pre k else s_pre k ++ connect h rid) true (s_send k ++ b) (s_complete k) (s_ssl k) (s_recv k)
                     (out_clear k) (out_tls k) (in_clear k) (in_tls k) (given k ++ [b]) (s_broken k))).
    { destruct H as [A B C D]. split; cbn [fst s_pre s_filled s_send s_complete s_ssl s_recv out_clear out_tls in_clear in_tls given s_broken]; auto.
      - destruct (s_filled k); [exact A|]. rewrite app_assoc, A. reflexivity.
      - rewrite app_assoc, B, concat_app. cbn [concat]. rewrite app_nil_r. reflexivity. }
    destruct (s_state k); apply good_send; assumption.
  - apply good_send. exact H.
  - unfold recv. destruct (s_fd k); cbn [negb]; [|exact H]. destruct H as [A B C D]. destruct (s_complete k) eqn:K.
    + destruct (D eq_refl) as (D1 & D2 & D3). split; cbn [fst s_pre s_filled s_send s_complete s_ssl s_recv out_clear out_tls in_clear in_tls given s_broken]; rewrite ?K; auto; [discriminate|]. intros _. rewrite D1. auto.
    + destruct (C eq_refl) as (C1 & C2 & C3 & C4). rewrite C1. cbv zeta. destruct (SParseHTTP (in_clear k ++ p)) as [|n m t c| |] eqn:E.
      2:{ destruct (contains m (lit " 200 ")) eqn:Y; [destruct (SHostIsValid h) eqn:V|]; (split; cbn [fst s_pre s_filled s_send s_complete s_ssl s_recv out_clear out_tls in_clear in_tls given s_broken]; auto; try discriminate).
          - intros _. split; [symmetry; exact C3|]. split; [exists n, m, t, c; auto|auto].
          - intros _. split; [symmetry; exact C3|]. split; [exists n, m, t, c; auto|discriminate]. }
      all: split; cbn [fst s_pre s_filled s_send s_complete s_ssl s_recv out_clear out_tls in_clear in_tls given s_broken]; auto; discriminate.
  - destruct H as [A B C D]. split; assumption.
Qed.
Lemma good_run h rid l : good h rid (run h rid l).
Proof.
  unfold run. assert (G : good h rid opened) by (split; cbn; auto; discriminate). revert G. generalize opened. induction l as [|e l IH]; intros k G; [exact G|]. cbn [fold_left]. apply IH. apply good_step. exact G.
Qed.

(** Whatever is sent and received, in whatever pieces: what leaves unencrypted is the CONNECT message for the host that was asked for, or
    the beginning of it, and nothing else. *)
Theorem C59_clear : forall host id l, exists rest, out_clear (run host id l) ++ rest = connect host id \/ out_clear (run host id l) = [].
Proof.
  intros h rid l. destruct (good_run h rid l) as [A _ _ _]. exists (s_pre (run h rid l)). destruct (s_filled (run h rid l)); [left; exact A|right]. apply app_eq_nil in A. apply A.
Qed.
(** What was given to be sent goes to TLS, in order: what TLS has taken and what waits make up what was given.  TLS gets none
    of it, and is not even started, before the proxy has answered with 200; and TLS is started for the host that was asked for. *)
Theorem C59_order : forall host id l, let k := run host id l in out_tls k ++ s_send k = concat (given k).
Proof. intros h rid l. apply (go_order _ _ _ (good_run h rid l)). Qed.
Theorem C59_after_answer : forall host id l, let k := run host id l in (out_tls k <> [] \/ s_ssl k <> None) ->
  exists n m t c, SParseHTTP (in_clear k) = Done n m t c /\ contains m (lit " 200 ") = true.
Proof.
  intros h rid l k H. destruct (good_run h rid l) as [_ _ C D]. fold k in C, D. destruct (s_complete k) eqn:K; [destruct (D eq_refl) as (_ & Y & _); exact Y|].
  destruct (C eq_refl) as (_ & C2 & _ & C4). destruct H; congruence.
Qed.
Theorem C59_host : forall host id l x, s_ssl (run host id l) = Some x -> x = host /\ SHostIsValid host = true.
Proof.
  intros h rid l x. unfold run. assert (G : s_ssl opened = None \/ (s_ssl opened = Some h /\ SHostIsValid h = true)) by (left; reflexivity).
  assert (X : forall k, s_ssl k = None \/ (s_ssl k = Some h /\ SHostIsValid h = true) -> s_ssl (fold_left (step h rid) l k) = None \/ (s_ssl (fold_left (step h rid) l k) = Some h /\ SHostIsValid h = true)).
  { clear. induction l as [|e l IH]; intros k G; [exact G|]. cbn [fold_left]. apply IH. unfold step. destruct (s_broken k); [exact G|].
    assert (SE : forall r k', s_ssl (fst (send r k')) = s_ssl k').
    { intros r k'. unfold send. destruct (s_pre k'); [destruct (s_complete k'); [destruct (s_send k'); [reflexivity|]|reflexivity]|]; destruct r; reflexivity. }
    destruct e as [b r|r|p a|s].
    - unfold send_buffer. destruct (s_state k); rewrite SE; exact G.
    - rewrite SE. exact G.
    - unfold recv. destruct (s_fd k); [|exact G]. cbn [negb]. destruct (s_complete k); [exact G|]. cbv zeta. destruct (SParseHTTP _) as [|n m t c| |]; try exact G. destruct (contains _ _); [|exact G]. destruct (SHostIsValid h) eqn:V; [right; split; reflexivity|exact G].
    - exact G. }
  destruct (X opened G) as [E|(E & V)]; rewrite E; [discriminate|]. intros Y. injection Y as <-. split; [reflexivity|exact V].
Qed.
(** Once TLS is in use, what the socket holds for its user is what TLS has decrypted, and nothing the proxy has said. *)
Theorem C59_answer : forall host id l, let k := run host id l in s_complete k = true -> s_recv k = in_tls k.
Proof. intros h rid l k H. apply (go_after _ _ _ (good_run h rid l) H). Qed.

(** When the proxy answers with a legal message that says 200, in any pieces, TLS is started with the last piece at the latest; of the answer
    nothing is left for TLS but, possibly, the last line feed. *)
Fixpoint feed (host id : bytes) (ps : list bytes) (k : sock) : sock * list bytes :=
  match ps with
  | [] => (k, [])
  | p :: ps' => if s_complete k then (k, ps) else feed host id ps' (step host id k (Pull p true))
  end.
Theorem C59_progress : forall gz host id l x w ps, let k := run host id l in
  s_fd k = true -> s_broken k = false -> s_complete k = false -> in_clear k = [] -> SHostIsValid host = true ->
  on_wire gz x w -> contains (msg_method x) (lit " 200 ") = true -> concat ps = w ->
  let (k', rest) := feed host id ps k in s_ssl k' = Some host /\ s_recv k' = [] /\ (concat rest = [] \/ concat rest = [LF]).
Proof.
  intros gz h rid l x w ps k F BR K IN V W Y E. destruct (good_run h rid l) as [_ _ C _]. fold k in C. destruct (C K) as (C1 & _). rewrite IN in C1. clear C.
  pose proof (on_wire_sent _ _ _ W) as HS. pose proof (sent_nonempty _ _ _ HS) as NE.
  assert (G : forall ps k pre, lead pre -> s_fd k = true -> s_broken k = false -> s_complete k = false -> s_recv k ++ concat ps = w -> (ps = [] -> SParseHTTP (s_recv k) = Incomplete -> False) ->
    (s_recv k = [] \/ SParseHTTP (s_recv k) = Incomplete) -> let (k', rest) := feed h rid ps k in s_ssl k' = Some h /\ s_recv k' = [] /\ (concat rest = [] \/ concat rest = [LF])).
  2:{ apply (G ps k []); auto; [left; reflexivity|rewrite C1; exact E|]. intros ->. cbn [concat] in E. congruence. }
  clear k F BR K IN C1 ps E l. induction ps as [|p ps IH]; intros k pre HP F BR K E NI S.
  - exfalso. cbn [concat] in E. rewrite app_nil_r in E. destruct S as [S|S]; [congruence|]. exact (NI eq_refl S).
  - cbn [feed]. rewrite K. unfold step. rewrite BR. cbn [fst]. unfold recv. rewrite F, K. cbn [negb]. cbv zeta. cbn [concat] in E. rewrite app_assoc in E.
    assert (EQ : (s_recv k ++ p) ++ concat ps = [] ++ concat [w]) by (cbn [concat app]; rewrite app_nil_r; exact E).
    destruct (pop_spec gz [x] [w] [] (s_recv k ++ p) (concat ps) (Forall2_cons _ _ HS (Forall2_nil _)) (or_introl eq_refl) EQ) as [(P1 & P2)|(x0 & xs' & X0 & Xs' & m & pre' & E1 & E2 & P1 & HL & E3)].
    + rewrite P1. apply IH with (pre := pre); auto.
      * cbn [fst s_recv]. intros ->. cbn [concat] in E. rewrite app_nil_r in E. specialize (P2 w [] eq_refl). rewrite E in P2. cbn [app] in P2. lia.
    + injection E1 as <- <-. injection E2 as <- <-. rewrite P1. cbn [got fst snd]. change (fst (fst (got gz x))) with (msg_method x). rewrite Y, V. cbn [concat] in E3. rewrite app_nil_r in E3.
      assert (L : lead (concat ps)).
      { destruct HL as [HL|HL]; rewrite HL in E3; [apply app_eq_nil in E3; left; apply E3|]. apply app_eq_unit in E3. destruct E3 as [[_ ->]|[_ ->]]; [right|left]; reflexivity. }
      destruct ps as [|q ps]; cbn [feed s_complete]; cbn [fst s_ssl s_recv]; (split; [reflexivity|]); (split; [reflexivity|]); [left; reflexivity|exact L].
Qed.
(** The CONNECT message: whoever reads it finds the host that was asked for, and the identifier of the request. *)
Definition plain (s : bytes) : Prop := forall c, In c s -> (32 < bcode c /\ bcode c < 127)%N.
Lemma plain_stripped v v' : plain v -> stripped v v' -> v' = v.
Proof.
  intros H (_ & i & j & E). rewrite cstr_nul_free in E by (intros X; specialize (H _ X); vm_compute in H; destruct H; discriminate).
  assert (Z : forall n, (forall c, In c (repeat " "%char n) -> In c v) -> n = 0%nat).
  { intros [|n] X; [reflexivity|]. specialize (H _ (X " "%char (or_introl eq_refl))). vm_compute in H. destruct H; discriminate. }
  rewrite (Z i), (Z j) in E; [cbn [repeat app] in E; rewrite app_nil_r in E; congruence| |]; intros c X; rewrite E; [apply in_or_app; right; apply in_or_app; right; exact X|apply in_or_app; left; exact X].
Qed.
Theorem C59_connect : forall host id, plain host -> plain id -> exists n t,
  SParseHTTP (connect host id) = Done n (lit "CONNECT " ++ host ++ lit " HTTP/1.1") t [] /\ tfind (lit "Host") t = Some host /\ (id <> [] -> tfind (lit "X-Request-ID") t = Some id).
Proof.
  intros h rid H1 H2. set (tab := match rid with [] => [(lit "Host", h)] | _ => [(lit "Host", h); (lit "X-Request-ID", rid)] end).
  set (x := mkMsg (lit "CONNECT " ++ h ++ lit " HTTP/1.1") tab []). set (gz := fun b : bytes => b).
  assert (L : legal x).
  { split; [|split; [|split; [|vm_compute; reflexivity]]]; cbn [msg_method msg_table x].
    - split; [discriminate|]. split; [split; [discriminate|]|].
      + rewrite !last_app_ne by (try discriminate; intros X; apply app_eq_nil in X; destruct X; discriminate). discriminate.
      + assert (D : forall l, forallb (fun c => N.leb 32 (bcode c) && negb (N.eqb (bcode c) 127)) l = true -> forall c, In c l -> c = "009"%char \/ (32 <= bcode c /\ bcode c <> 127)%N).
        { intros l F c I. rewrite forallb_forall in F. specialize (F c I). apply andb_true_iff in F. destruct F as (F1 & F2). right. split; [apply N.leb_le; exact F1|]. apply negb_true_iff in F2. apply N.eqb_neq. exact F2. }
        intros c I. apply in_app_or in I. destruct I as [I|I]; [revert I; apply D; reflexivity|]. apply in_app_or in I. destruct I as [I|I]; [|revert I; apply D; reflexivity]. right. specialize (H1 c I). lia.
    - unfold tab. destruct rid; repeat constructor.
    - intros k v I. assert (K : k = lit "Host" \/ k = lit "X-Request-ID") by (unfold tab in I; destruct rid as [|a r]; cbn [In] in I; intuition congruence).
      destruct K as [-> | ->]; (split; [split; [discriminate|]; split; [vm_compute; intuition discriminate|]; split; [split; vm_compute; intuition discriminate|]; split; [reflexivity|discriminate]|split; intros X; vm_compute in X; discriminate]). }
  assert (C : SComposeHTTP gz (msg_method x) (msg_table x) (msg_content x) = Some (connect h rid)).
  { assert (T : forall y, (exists w, SComposeHTTP gz (msg_method y) (msg_table y) (msg_content y) = Some w) -> SComposeHTTP gz (msg_method y) (msg_table y) (msg_content y) = Some (match SComposeHTTP gz (msg_method y) (msg_table y) (msg_content y) with Some w => w | None => [] end)) by (intros y (w & ->); reflexivity).
    assert (E : connect h rid = match SComposeHTTP gz (msg_method x) (msg_table x) (msg_content x) with Some w => w | None => [] end) by (unfold connect, x, tab; destruct rid; reflexivity).
    rewrite E. apply T. apply (C14_composable gz x L). }
  assert (S : sent gz x (connect h rid)) by (split; [exact L|]; split; [|exact C]; unfold x, tab; destruct rid; vm_compute; reflexivity).
  pose proof (parse_whole gz x _ [] [] S (or_introl eq_refl)) as P. cbn [app] in P. rewrite app_nil_r in P.
  pose proof (got_arrives gz x L) as A. destruct (got gz x) as [[m t] c]. cbn [fst snd] in P. destruct A as (-> & cc & DL & _ & EC).
  exists (List.length (connect h rid)), t. assert (c = []) as -> by (destruct cc; exact EC). split; [exact P|].
  pose proof (dl_others _ _ _ _ DL) as O. split.
  - specialize (O (lit "Host")). assert (F : tfind (lit "Host") (msg_table x) = Some h) by (unfold x, tab; destruct rid; reflexivity). rewrite F in O.
    destruct O as (v' & E & ST); try (intros X; vm_compute in X; discriminate). { intros [X _]. vm_compute in X. discriminate. } rewrite E. f_equal. apply plain_stripped; assumption.
  - intros NE. specialize (O (lit "X-Request-ID")). assert (F : tfind (lit "X-Request-ID") (msg_table x) = Some rid) by (unfold x, tab; destruct rid; [congruence|reflexivity]). rewrite F in O.
    destruct O as (v' & E & ST); try (intros X; vm_compute in X; discriminate). { intros [X _]. vm_compute in X. discriminate. } rewrite E. f_equal. apply plain_stripped; assumption.
Qed.
Print Assumptions C59_connect.
Print Assumptions C59_clear.
Print Assumptions C59_order.
Print Assumptions C59_after_answer.
Print Assumptions C59_host.
Print Assumptions C59_answer.
Print Assumptions C59_progress.

(** A conversation in which all of this happens: the request is given before the connection stands, CONNECT leaves in two pieces, the
    answer comes in two, then the request goes to TLS and the server's answer comes from it. *)
Definition host1 := lit "example.com:443".
Definition id1 := lit "r1".
Definition request1 := lit "GET / HTTP/1.1" ++ CRLF ++ CRLF.
Definition yes1 := lit "HTTP/1.1 200 Connection established" ++ CRLF ++ CRLF.
Definition before1 := [Give request1 NotNow; Becomes CONNECTED; Push (Took 10); Push (Took 1000)].
Example C59_case :
  let k := run host1 id1 before1 in
  let k2 := run host1 id1 (before1 ++ [Pull (firstn 9 yes1) true; Push (Took 1000); Pull (skipn 9 yes1) true; Push (Took 5); Pull (lit "HTTP/1.1 404") true; Push (Took 1000)]) in
  (out_clear k, out_tls k, s_send k, s_fd k, s_broken k, s_complete k, in_clear k) = (connect host1 id1, [], request1, true, false, false, [])
  /\ SHostIsValid host1 = true
  /\ (out_clear k2, out_tls k2, s_send k2, s_ssl k2, s_recv k2) = (connect host1 id1, request1, [], Some host1, lit "HTTP/1.1 404").
Proof. vm_compute. auto. Qed.
Example C59_connect_case : plain host1 /\ plain id1.
Proof.
  assert (D : forall l, forallb (fun c => N.ltb 32 (bcode c) && N.ltb (bcode c) 127) l = true -> plain l).
  { intros l F c I. rewrite forallb_forall in F. specialize (F c I). apply andb_true_iff in F. destruct F as (F1 & F2). split; apply N.ltb_lt; assumption. }
  split; apply D; reflexivity.
Qed.
Definition answer1 : message := mkMsg (lit "HTTP/1.1 200 Connection established") [(lit "Proxy-Agent", lit "p")] [].
Definition wire1 : bytes := match SComposeHTTP (fun b => b) (msg_method answer1) (msg_table answer1) (msg_content answer1) with Some w => w | None => [] end.
Example C59_progress_case : on_wire (fun b => b) answer1 wire1 /\ contains (msg_method answer1) (lit " 200 ") = true
  /\ (let (k, rest) := feed host1 id1 [firstn 20 wire1; skipn 20 wire1] (run host1 id1 before1) in (s_ssl k, s_recv k, rest)) = (Some host1, [], []).
Proof.
  split; [|vm_compute; auto]. split; [|split; vm_compute; reflexivity]. split; [|split; [repeat constructor|split; [|vm_compute; reflexivity]]].
  - split; [discriminate|]. split; [split; discriminate|]. intros c Hc.
    assert (D : forallb (fun c => N.leb 32 (bcode c) && negb (N.eqb (bcode c) 127)) (msg_method answer1) = true) by (vm_compute; reflexivity).
    rewrite forallb_forall in D. specialize (D c Hc). apply andb_true_iff in D. destruct D as (D1 & D2). right. split; [apply N.leb_le; exact D1|]. apply negb_true_iff in D2. apply N.eqb_neq. exact D2.
  - intros k v [E|[]]. injection E as <- <-. split; [|split; intros X; vm_compute in X; discriminate].
    split; [discriminate|]; split; [vm_compute; intuition discriminate|]; split; [split; vm_compute; intuition discriminate|]; split; [reflexivity|discriminate].
Qed.

(** What the transaction of the HTTPS manager makes of such a socket (C46): it looks at what the socket has received and at its state. *)
Definition seen (k : sock) : option (Z * bytes) :=
  let st := match s_state k with CONNECTING => Https_Model.CONNECTING | CONNECTED => Https_Model.CONNECTED | SHUTTINGDOWN => Https_Model.SHUTTINGDOWN | CLOSED => Https_Model.CLOSED end in
  match postPoll 1000000 30000 (Io (s_recv k) st 900000 false) (Transaction (Some (Socket [] Https_Model.CONNECTED 900000 false)) 0 9000000 0 ([], [], []) 500000 false) with
  | Some x => Some (x_response x, fst (fst (x_message x)))
  | None => None
  end.
(** What a request is answered with is not always what the server said: when the proxy refuses, its answer is taken for the server's.  A proxy
    that wants to be logged in to first (407), or cannot reach the server (503), gives the status of a request that never left, and
    the plugin that made the request cannot tell. *)
Theorem C59_refused_refuted : let k := run host1 id1 (before1 ++ [Pull (lit "HTTP/1.1 403 Forbidden" ++ CRLF ++ lit "Content-Length: 2" ++ CRLF ++ CRLF ++ lit "no") true]) in
  out_tls k = [] /\ s_ssl k = None /\ s_send k = request1 /\ seen k = Some (403%Z, lit "HTTP/1.1 403 Forbidden").
Proof. vm_compute. auto. Qed.
(** A proxy need not say why: HTTP/1.1 200 with an empty reason is a legal answer.  The blank behind 200 is cut off when the line is read, 200 with a
    blank on both sides is then not found, and the connection is given up; but the HTTPS manager takes the same line for the server's
    answer, and the request, which was never sent, is reported to have succeeded with 200. *)
Theorem C59_no_reason_refuted : let k := run host1 id1 (before1 ++ [Pull (lit "HTTP/1.1 200 " ++ CRLF ++ lit "Content-Length: 0" ++ CRLF ++ CRLF) true]) in
  out_tls k = [] /\ s_ssl k = None /\ s_send k = request1 /\ seen k = Some (200%Z, lit "HTTP/1.1 200").
Proof. vm_compute. auto. Qed.
(** 200 with blanks around it is looked for in the whole line, so a proxy that reports a failure and mentions such a number is understood to have
    agreed: TLS is started, and its first message goes to a proxy that is not listening for it. *)
Theorem C59_anywhere_refuted : let k := run host1 id1 (before1 ++ [Pull (lit "HTTP/1.1 502 only 200 connections allowed" ++ CRLF ++ CRLF) true]) in s_ssl k = Some host1 /\ s_complete k = true.
Proof. vm_compute. auto. Qed.
(** When the proxy's answer is cut by the network between the last carriage return and the last line feed, it is taken to be whole (C14), and the line feed
    is what TLS receives as the beginning of the server's handshake, which then fails. *)
Theorem C59_split_refuted : let w := yes1 in let n := (List.length w - 1)%nat in
  let (k, rest) := feed host1 id1 [firstn n w; skipn n w] (run host1 id1 before1) in s_ssl k = Some host1 /\ concat rest = [LF].
Proof. vm_compute. auto. Qed.
(** What the proxy sends right behind its answer is thrown away with it, though it may be the server's already. *)
Theorem C59_behind_refuted : let k := run host1 id1 (before1 ++ [Pull (yes1 ++ lit "from the server") true]) in s_ssl k = Some host1 /\ s_recv k = [] /\ in_tls k = [].
Proof. vm_compute. auto. Qed.
(** While the proxy's answer is awaited, the request waits in the buffer, so the poll is asked to return as soon as the socket can be written to, which it
    can; and then nothing is written.  The thread does not sleep until the proxy has answered. *)
Theorem C59_spin_refuted : let k := run host1 id1 before1 in wants_to_write k = true /\ forall r, send r k = (k, true).
Proof. vm_compute. auto. Qed.
Print Assumptions C59_refused_refuted.
Print Assumptions C59_no_reason_refuted.
Print Assumptions C59_anywhere_refuted.
Print Assumptions C59_split_refuted.
Print Assumptions C59_behind_refuted.
Print Assumptions C59_spin_refuted.
