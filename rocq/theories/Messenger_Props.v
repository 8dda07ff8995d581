(** C33: a command is sent to another node at most once. *)
From Verif Require Import Base Dec Text_Spec Text_Model Table Http_Model Http_Spec Http_Proofs Http_Props Messenger_Spec Messenger_Model.

Lemma send_prefix l : forall w s k, send_loop w l = (s, k) -> exists rest, w = s ++ rest.
Proof.
  induction l as [|e l IH]; intros w s k; cbn [send_loop]; [intros E; injection E as <- _; exists w; reflexivity|].
  destruct e as [|n| |]; try (intros E; injection E as <- _; exists w; reflexivity); [|apply IH].
  destruct (skipn n w) as [|a rest] eqn:K; [intros E; injection E as <- _; exists []; rewrite app_nil_r; reflexivity|].
  destruct (send_loop (a :: rest) l) as [s' k'] eqn:E'. intros E. injection E as <- _. apply IH in E' as (r & E'). exists r.
  rewrite <- app_assoc, <- E', <- K. symmetry. apply firstn_skipn.
Qed.
Lemma send_all l : forall w s, send_loop w l = (s, Returns true) -> s = w.
Proof.
  induction l as [|e l IH]; intros w s; cbn [send_loop]; [discriminate|]. destruct e as [|n| |]; try discriminate; [|apply IH].
  destruct (skipn n w) as [|a rest] eqn:K; [intros E; injection E as <-; reflexivity|].
  destruct (send_loop (a :: rest) l) as [s' k'] eqn:E'. intros E. injection E as <- ->. apply IH in E'. subst s'. rewrite <- K. apply firstn_skipn.
Qed.
Lemma send_not_all l : forall w s k, send_loop w l = (s, k) -> k <> Returns true -> w <> [] -> s <> w.
Proof.
  induction l as [|e l IH]; intros w s k; cbn [send_loop]; [intros E _ HW; injection E as <- _; congruence|].
  destruct e as [|n| |]; try (intros E _ HW; injection E as <- _; congruence); [|apply IH].
  destruct (skipn n w) as [|a rest] eqn:K; [intros E HK _; injection E as _ <-; congruence|].
  destruct (send_loop (a :: rest) l) as [s' k'] eqn:E'. intros E HK HW. injection E as <- <-. intros X.
  apply (IH _ _ _ E' HK); [discriminate|]. apply (app_inv_head (firstn n w)). rewrite <- K, firstn_skipn. exact X.
Qed.
Lemma recv_over l : forall acc c k, recv_loop acc l = (c, Returns k) -> complete c = true.
Proof.
  induction l as [|e l IH]; intros acc c k; cbn [recv_loop]; [discriminate|].
  destruct e as [|b| | |]; try (intros E; injection E as <- _; reflexivity); [|apply IH].
  destruct (SParseHTTP (acc ++ b)); try discriminate; [apply IH|intros E; injection E as <- _; reflexivity].
Qed.
Lemma recv_true l : forall acc c, recv_loop acc l = (c, Returns true) ->
  exists n p m t b, SParseHTTP p = Done n m t b /\ response c = (m, t, b) /\ exists q, acc ++ concat (incoming l) = p ++ q.
Proof.
  induction l as [|e l IH]; intros acc c; cbn [recv_loop]; [discriminate|]. destruct e as [|b| | |]; try discriminate; [|apply IH].
  cbn [incoming concat]. destruct (SParseHTTP (acc ++ b)) eqn:P; try discriminate.
  - intros E. apply IH in E as (n & p & m & t & b' & E1 & E2 & q & E3). exists n, p, m, t, b'. split; [exact E1|]. split; [exact E2|]. exists q. rewrite <- app_assoc in E3. exact E3.
  - intros E. injection E as <-. eexists _, _, _, _, _. split; [exact P|]. split; [reflexivity|]. exists (concat (incoming l)). rewrite <- app_assoc. reflexivity.
Qed.

Lemma run_cases leader w l : forall c s c' k, runOnPeer leader (Some w) l c = (s, c', k) -> w <> [] ->
  (exists rest, w = s ++ rest /\ (rest <> [] /\ (c' = c \/ complete c' = true /\ k = Returns true) \/ rest = [] /\ (forall b, k = Returns b -> complete c' = true))).
Proof.
  induction l as [|e l IH]; intros c s c' k; cbn [runOnPeer]; [intros E HW; injection E as <- <- _; exists w; split; [reflexivity|left; split; [exact HW|left; reflexivity]]|].
  destruct e as [leading| |t r aborted].
  - destruct (leader && leading); [|apply IH]. intros E HW. injection E as <- <- _. exists w. split; [reflexivity|left; split; [exact HW|left; reflexivity]].
  - intros E HW. injection E as <- <- _. exists w. split; [reflexivity|left; split; [exact HW|left; reflexivity]].
  - intros E HW. cbn [_sendCommandOnSocket] in E. destruct (send_loop w t) as [s1 k1] eqn:ES.
    destruct (send_prefix _ _ _ _ ES) as (rest & HR).
    destruct k1 as [[|]| |].
    + pose proof (send_all _ _ _ ES) as ->. destruct (recv_loop [] r) as [c1 k2] eqn:ER.
      assert (G : forall b, k2 = Returns b -> complete c1 = true) by (intros b ->; exact (recv_over _ _ _ _ ER)).
      destruct k2 as [[|]| |].
      * injection E as <- <- <-. exists []. rewrite app_nil_r. split; [reflexivity|]. right. split; [reflexivity|exact G].
      * exists []. rewrite app_nil_r. destruct aborted; injection E as <- <- <-; (split; [reflexivity|]; right; split; [reflexivity|]); [reflexivity|exact G].
      * injection E as <- <- <-. exists []. rewrite app_nil_r. split; [reflexivity|]. right. split; [reflexivity|exact G].
      * injection E as <- <- <-. exists []. rewrite app_nil_r. split; [reflexivity|]. right. split; [reflexivity|exact G].
    + pose proof (send_not_all _ _ _ _ ES ltac:(discriminate) HW) as NE.
      assert (NR : rest <> []) by (intros ->; rewrite app_nil_r in HR; congruence).
      exists rest. destruct aborted; injection E as <- <- <-; (split; [exact HR|]; left; split; [exact NR|]); [right; split; reflexivity|left; reflexivity].
    + injection E as <- <- <-. pose proof (send_not_all _ _ _ _ ES ltac:(discriminate) HW) as NE. exists rest. split; [exact HR|]. left.
      split; [intros ->; rewrite app_nil_r in HR; congruence|left; reflexivity].
    + injection E as <- <- <-. pose proof (send_not_all _ _ _ _ ES ltac:(discriminate) HW) as NE. exists rest. split; [exact HR|]. left.
      split; [intros ->; rewrite app_nil_r in HR; congruence|left; reflexivity].
Qed.
Lemma wire_nonempty gz x w : on_wire gz x w -> w <> [].
Proof. intros H. apply (sent_nonempty _ _ _ (on_wire_sent _ _ _ H)). Qed.
Lemma part_takes_nothing gz x w s rest : on_wire gz x w -> w = s ++ rest -> rest <> [] -> takes_nothing s.
Proof. intros HW E HR pieces EP. rewrite <- EP. apply (C15_command_port_waits gz x w pieces rest HW); [rewrite EP; symmetry; exact E|exact HR]. Qed.

(** A call that does not complete the command has not sent all of it: whatever was sent, and however it was divided on the
    way, the peer has no request to run. *)
Theorem C33_retry_is_safe : forall gz x w leader l c s c' k,
  on_wire gz x w -> complete c = false -> runOnPeer leader (Some w) l c = (s, c', Returns k) -> complete c' = false ->
  k = false /\ c' = c /\ (exists rest, w = s ++ rest /\ rest <> []) /\ takes_nothing s.
Proof.
  intros gz x w leader l c s c' k HW HC E HC'. pose proof E as E0. apply run_cases in E as (rest & E1 & E2); [|apply (wire_nonempty gz x w HW)].
  destruct E2 as [(NR & [E2|(X & _)])|(_ & X)]; [subst c'|congruence|rewrite (X k eq_refl) in HC'; discriminate].
  split; [|split; [reflexivity|split; [exists rest; auto|exact (part_takes_nothing gz x w s rest HW E1 NR)]]].
  (* a call that returns true completes the command *)
  destruct k; [|reflexivity]. exfalso. revert E0. clear E1. induction l as [|e l IH]; cbn [runOnPeer]; [discriminate|].
  destruct e as [leading| |t r aborted]; [destruct (leader && leading); [discriminate|exact IH]|discriminate|].
  cbn [_sendCommandOnSocket]. destruct (send_loop w t) as [s1 [[|]| |]]; try discriminate.
  - destruct (recv_loop [] r) as [c1 [[|]| |]] eqn:ER; try discriminate.
    + intros E. injection E as <- <-. rewrite (recv_over _ _ _ _ ER) in HC. discriminate.
    + destruct aborted; [|discriminate]. intros E. apply (f_equal (fun z => complete (snd (fst z)))) in E. cbn [fst snd complete] in E. congruence.
  - destruct aborted; [|discriminate]. intros E. apply (f_equal (fun z => complete (snd (fst z)))) in E. cbn [fst snd complete] in E. congruence.
Qed.
Print Assumptions C33_retry_is_safe.

(** Over all attempts to send a command to the leader, whatever the network does in each: at most one attempt sends all of it,
    that is the last one, and from every other one the peer has no request. *)
Theorem C33_at_most_once : forall gz x w ls c ss c',
  on_wire gz x w -> to_leader (Some w) ls c = (ss, c') ->
  exists safe final, ss = safe ++ final /\ Forall takes_nothing safe /\ List.length final <= 1 /\
    Forall (fun s => exists rest, w = s ++ rest) ss.
Proof.
  intros gz x w ls. induction ls as [|l ls IH]; intros c ss c' HW; cbn [to_leader].
  - intros E. injection E as <- <-. exists [], []. repeat split; auto.
  - destruct (complete c) eqn:HC; [intros E; injection E as <- <-; exists [], []; repeat split; auto|].
    destruct (runOnPeer true (Some w) l c) as [[s c1] k] eqn:E1.
    pose proof (run_cases _ _ _ _ _ _ _ E1 (wire_nonempty gz x w HW)) as (rest & HR & _).
    destruct k as [b| |].
    + destruct (to_leader (Some w) ls c1) as [ss' c2] eqn:E2. intros E. injection E as <- <-. destruct (complete c1) eqn:HC1.
      * assert (X : ss' = []) by (destruct ls; cbn [to_leader] in E2; [|rewrite HC1 in E2]; injection E2 as <- _; reflexivity). subst ss'.
        exists [], [s]. split; [reflexivity|]. split; [constructor|]. split; [cbn; lia|]. constructor; [exists rest; exact HR|constructor].
      * destruct (C33_retry_is_safe gz x w true l c s c1 b HW HC E1 HC1) as (_ & _ & _ & S).
        destruct (IH c1 ss' c2 HW E2) as (safe & final & -> & A & B & C). exists (s :: safe), final.
        split; [reflexivity|]. split; [constructor; assumption|]. split; [exact B|]. constructor; [exists rest; exact HR|exact C].
    + intros E. injection E as <- <-. exists [], [s]. split; [reflexivity|]. split; [constructor|]. split; [cbn; lia|]. constructor; [exists rest; exact HR|constructor].
    + intros E. injection E as <- <-. exists [], [s]. split; [reflexivity|]. split; [constructor|]. split; [cbn; lia|]. constructor; [exists rest; exact HR|constructor].
Qed.
Print Assumptions C33_at_most_once.

(** Once everything is sent, the command is complete when the call returns: with the peer's answer, or with an error. *)
Theorem C33_sent_means_complete : forall gz x w leader l c c' k,
  on_wire gz x w -> complete c = false -> runOnPeer leader (Some w) l c = (w, c', Returns k) -> complete c' = true.
Proof.
  intros gz x w leader l c c' k HW HC E. apply run_cases in E as (rest & E1 & E2); [|apply (wire_nonempty gz x w HW)].
  assert (rest = []). { apply (app_inv_head w). rewrite app_nil_r. symmetry. exact E1. } subst rest. destruct E2 as [(X & _)|(_ & X)]; [congruence|exact (X k eq_refl)].
Qed.
Print Assumptions C33_sent_means_complete.
(** ... and no answer is made up: what a call that succeeds returns was read from the peer, or the client is gone. *)
Theorem C33_no_made_up_answer : forall w leader l c s c',
  runOnPeer leader (Some w) l c = (s, c', Returns true) ->
  fst (fst (response c')) = lit "556 Aborted" \/
  exists t r aborted n p m tb b, In (Connected t r aborted) l /\ SParseHTTP p = Done n m tb b /\ response c' = (m, tb, b) /\
    exists q, concat (incoming r) = p ++ q.
Proof.
  intros w leader l c s c'. induction l as [|e l IH]; cbn [runOnPeer]; [discriminate|].
  destruct e as [leading| |t r aborted]; [destruct (leader && leading); [discriminate|]|discriminate|].
  - intros E. destruct (IH E) as [H|(t & r & a & n & p & m & tb & b & H & H')]; [left; exact H|right]. exists t, r, a, n, p, m, tb, b. split; [right; exact H|exact H'].
  - cbn [_sendCommandOnSocket]. destruct (send_loop w t) as [s1 [[|]| |]]; try discriminate.
    + destruct (recv_loop [] r) as [c1 [[|]| |]] eqn:ER; try discriminate.
      * intros E. injection E as <- <-. right. destruct (recv_true _ _ _ ER) as (n & p & m & tb & b & E1 & E2 & E3).
        exists t, r, aborted, n, p, m, tb, b. split; [left; reflexivity|]. auto.
      * destruct aborted; [|discriminate]. intros E. injection E as _ <-. left. reflexivity.
    + destruct aborted; [|discriminate]. intros E. injection E as _ <-. left. reflexivity.
Qed.
Print Assumptions C33_no_made_up_answer.

(** The peer's answer gets through: however its bytes are divided, and also when a line feed of the answer before it is still
    to come on a connection that is used again. *)
Lemma recv_answer gz y v rest : forall l pre acc, on_wire gz y v -> lead pre -> no_failure l = true ->
  acc ++ concat (incoming l) = pre ++ v ++ rest -> (exists z, z <> [] /\ acc ++ z = pre ++ v) ->
  recv_loop acc l = (Command true (got gz y), Returns true).
Proof.
  induction l as [|e l IH]; intros pre acc HV HP HF E (z & Z1 & Z2).
  - exfalso. cbn [incoming concat] in E. rewrite app_nil_r in E. rewrite E, <- app_assoc in Z2. apply app_inv_head in Z2. rewrite <- app_assoc in Z2.
    rewrite <- (app_nil_r v) in Z2 at 2. apply app_inv_head in Z2. apply app_eq_nil in Z2. destruct Z2 as [_ Z2]. contradiction.
  - destruct e as [|b| | |]; try discriminate HF; [|cbn [recv_loop incoming no_failure] in *; apply (IH pre acc HV HP HF E); exists z; auto].
    cbn [recv_loop incoming concat] in *. assert (HF' : no_failure l = true) by (destruct b; [discriminate|exact HF]).
    pose proof (on_wire_sent _ _ _ HV) as HS. rewrite app_assoc in E.
    rewrite (app_assoc pre v rest) in E. destruct (app_eq_app _ _ _ _ E) as (u & [[E1 E2]|[E1 E2]]).
    + rewrite E1, <- app_assoc, (parse_whole gz y v pre u HS HP). destruct (got gz y) as [[m t] c]. reflexivity.
    + destruct u as [|a u].
      * rewrite app_nil_r in E1. rewrite <- E1. pose proof (parse_whole gz y v pre [] HS HP) as W. rewrite app_nil_r in W. rewrite W. destruct (got gz y) as [[m t] c]. reflexivity.
      * symmetry in E1. destruct (app_eq_app _ _ _ _ E1) as (q & [[F1 F2]|[F1 F2]]).
        -- destruct (parse_part gz y v pre q (a :: u) HS HP (eq_sym F2) ltac:(discriminate)) as [HI|(HC & HR & HD)].
           ++ rewrite F1, HI. rewrite <- F1. apply (IH pre (acc ++ b) HV HP HF'); [rewrite E, <- app_assoc; reflexivity|].
              exists (a :: u). split; [discriminate|exact E1].
           ++ rewrite F1, HD. destruct (got gz y) as [[m t] c]. reflexivity.
        -- assert (L : lead (acc ++ b)).
           { destruct HP as [-> | ->]; [left; apply (app_eq_nil _ _ (eq_sym F1))|]. symmetry in F1. apply app_eq_unit in F1.
             destruct F1 as [[-> _]|[-> _]]; [left|right]; reflexivity. }
           assert (HI : SParseHTTP (acc ++ b) = Incomplete) by (rewrite SParseHTTP_P; apply P_lead_only; exact L).
           rewrite HI. apply (IH pre (acc ++ b) HV HP HF'); [rewrite E, <- app_assoc; reflexivity|]. exists (a :: u). split; [discriminate|exact E1].
Qed.
Theorem C33_answer_arrives : forall gz x w y v leader t r aborted l c stray,
  on_wire gz x w -> on_wire gz y v -> snd (send_loop w t) = Returns true ->
  no_failure r = true -> stray = [] \/ stray = ["010"%char] -> concat (incoming r) = stray ++ v ->
  exists c', runOnPeer leader (Some w) (Connected t r aborted :: l) c = (w, c', Returns true) /\
    complete c' = true /\ arrives gz y (response c').
Proof.
  intros gz x w y v leader t r aborted l c stray HW HV HT HF HS E. cbn [runOnPeer _sendCommandOnSocket].
  destruct (send_loop w t) as [s k] eqn:ES. cbn [snd] in HT. subst k. pose proof (send_all _ _ _ ES) as ->.
  rewrite (recv_answer gz y v [] r stray [] HV HS HF).
  - eexists. split; [reflexivity|]. split; [reflexivity|]. apply got_arrives. apply HV.
  - rewrite app_nil_r. exact E.
  - exists (stray ++ v). split; [|reflexivity]. intros X. apply app_eq_nil in X as [_ X]. exact (wire_nonempty gz y v HV X).
Qed.
Print Assumptions C33_answer_arrives.

(** A call to a peer by name always leaves the command complete. *)
Theorem C33_by_name : forall w l c s c' k, runOnPeerByName (Some w) l c = (s, c', Returns k) -> complete c' = true.
Proof.
  intros w l c s c' k. unfold runOnPeerByName. destruct l as [[t r]|]; [|intros E; injection E as _ <- _; reflexivity].
  cbn [_sendCommandOnSocket]. destruct (send_loop w t) as [s1 [[|]| |]]; try discriminate; [|intros E; injection E as _ <- _; reflexivity].
  destruct (recv_loop [] r) as [c1 [[|]| |]] eqn:ER; try discriminate; intros E; injection E as _ <- _; [|reflexivity]. exact (recv_over _ _ _ _ ER).
Qed.
Print Assumptions C33_by_name.

(** A command that is escalated at once by a follower of another version may be sent to two peers.  Only one of them has a request
    to run, unless everything went to the leader and the connection broke before its answer was there. *)
Theorem C33_two_places : forall gz x w at_once other l1 l2 c s1 s2 c',
  on_wire gz x w -> escalate_first at_once other (Some w) l1 l2 c = (s1, s2, c') ->
  takes_nothing s1 \/ takes_nothing s2 \/ (s1 = w /\ exists t r, In (Connected t r false) l1 /\
    snd (send_loop w t) = Returns true /\ snd (recv_loop [] r) = Returns false).
Proof.
  intros gz x w at_once other l1 l2 c s1 s2 c' HW. pose proof (wire_nonempty gz x w HW) as NW.
  assert (N : takes_nothing []) by (apply (part_takes_nothing gz x w [] w HW eq_refl NW)).
  unfold escalate_first. destruct (negb (complete c) && (at_once || other)) eqn:C; [|intros E; injection E as <- <- _; left; exact N].
  apply andb_prop in C as [C _]. destruct at_once; [|destruct other; [|intros E; injection E as <- _ _; left; exact N];
    destruct (runOnPeer false (Some w) l2 c) as [[s3 c3] k3]; intros E; injection E as <- _ _; left; exact N].
  destruct (runOnPeer true (Some w) l1 c) as [[s c1] k] eqn:E1.
  destruct k as [[|]| |]; try (intros E; injection E as _ <- _; right; left; exact N).
  assert (F : takes_nothing s \/ (s = w /\ exists t r, In (Connected t r false) l1 /\
    snd (send_loop w t) = Returns true /\ snd (recv_loop [] r) = Returns false)).
  { clear s1 s2 c'. revert E1. induction l1 as [|e l IH]; cbn [runOnPeer]; [intros E; injection E as <- _; left; exact N|].
    destruct e as [leading| |t r aborted].
    - destruct (true && leading); [intros E; injection E as <- _; left; exact N|]. intros E. destruct (IH E) as [H|(H & t & r & H1 & H2)]; [left; exact H|].
      right. split; [exact H|]. exists t, r. split; [right; exact H1|exact H2].
    - intros E. injection E as <- _. left. exact N.
    - cbn [_sendCommandOnSocket]. destruct (send_loop w t) as [s3 k3] eqn:ES. destruct k3 as [[|]| |]; try discriminate.
      + destruct (recv_loop [] r) as [c3 k4] eqn:ER. destruct k4 as [[|]| |]; try discriminate. destruct aborted; [discriminate|].
        intros E. injection E as <- _. right. split; [exact (send_all _ _ _ ES)|]. exists t, r. rewrite ES, ER. split; [left; reflexivity|split; reflexivity].
      + destruct aborted; [discriminate|]. intros E. injection E as <- _. left. destruct (send_prefix _ _ _ _ ES) as (rest & HR).
        apply (part_takes_nothing gz x w s3 rest HW HR). intros ->. rewrite app_nil_r in HR.
        apply (send_not_all _ _ _ _ ES); [discriminate|exact NW|symmetry; exact HR]. }
  destruct other; [|intros E; injection E as _ <- _; right; left; exact N].
  destruct (runOnPeer false (Some w) l2 c1) as [[s4 c4] k4]. intros E. injection E as <- <- _. destruct F as [F|F]; [left; exact F|right; right; exact F].
Qed.
Print Assumptions C33_two_places.

(** ** Where the full statement fails *)
Definition X : message := mkMsg (lit "CreateJob") [(lit "name", lit "a")] [].
Definition XW : bytes := match SComposeHTTP (fun b => b) (msg_method X) (msg_table X) (msg_content X) with Some w => w | None => [] end.
Definition waiting : command := Command false ([], [], []).
Lemma X_wire : on_wire (fun b => b) X XW.
Proof.
  split; [|split; [reflexivity|vm_compute; reflexivity]]. split; [|split; [repeat constructor|split; [|reflexivity]]].
  - split; [discriminate|]. split; [split; discriminate|]. intros c H. right. cbn [msg_method X] in H. cbn in H.
    repeat (destruct H as [<-|H]; [split; vm_compute; discriminate|]). destruct H.
  - intros k v [E|[]]. injection E as <- <-. split; [|split; intros H; vm_compute in H; discriminate].
    split; [discriminate|]. split; [intros H; cbn in H; repeat (destruct H as [H|H]; [discriminate|]); destruct H|].
    split; [split; intros H; cbn in H; repeat (destruct H as [H|H]; [discriminate|]); destruct H|]. split; [reflexivity|discriminate].
Qed.
(** On a follower of another version, a command that is to be escalated at once and was sent in full to the leader, which then
    breaks the connection, is sent a second time, to another follower: the test looks at the result of the first call,
    not at whether the command is complete.  The leader and the follower (which passes it on) both run it. *)
Theorem C33_two_peers_refuted :
  let '(s1, s2, c) := escalate_first true true (Some XW) [Connected [TSent 100] [RClosed] false] [Connected [TSent 100] [RGot (lit "200 OK" ++ CRLF ++ CRLF)] false] waiting in
  s1 = XW /\ s2 = XW /\ complete c = true.
Proof. vm_compute. repeat split. Qed.
Print Assumptions C33_two_peers_refuted.
(** While a node synchronizes every command is passed on, also one that is complete: a command that was sent in full to the
    leader, and has its error or its answer, is run again and its answer replaced. *)
Theorem C33_synchronizing_refuted :
  let '(s1, c1, k) := runOnPeer true (Some XW) [Connected [TSent 100] [RClosed] false] waiting in
  let (s2, c2) := synchronizing (Some XW) [Connected [TSent 100] [RGot (lit "200 OK" ++ CRLF ++ CRLF)] false] c1 in
  s1 = XW /\ complete c1 = true /\ s2 = XW /\ fst (fst (response c2)) = lit "200 OK".
Proof. vm_compute. repeat split. Qed.
Print Assumptions C33_synchronizing_refuted.
(** A request whose first line has a control character is accepted, but cannot be sent on: the exception is not caught in the
    thread that runs the command, and stops the server.  The verb is what is before the first blank, so any
    command with "CreateJob", a space and the byte 1 as its first line does this to a follower. *)
Theorem C33_control_character_refuted : exists bytes n m t c,
  SParseHTTP bytes = Done n m t c /\ m = lit "CreateJob " ++ ["001"%char] /\
  runOnPeer true (SComposeHTTP (fun b => b) m t c) [Connected [] [] false] waiting = ([], waiting, Throws).
Proof.
  exists (lit "CreateJob " ++ ["001"%char] ++ CRLF ++ lit "name: a" ++ CRLF ++ CRLF). eexists _, _, _, _. split; [vm_compute; reflexivity|]. split; vm_compute; reflexivity.
Qed.
Print Assumptions C33_control_character_refuted.
(** The same happens when the peer's answer has a Content-Length that is not a number. *)
Theorem C33_bad_answer_refuted :
  snd (runOnPeer true (Some XW) [Connected [TSent 100] [RGot (lit "200 OK" ++ CRLF ++ lit "Content-Length: x" ++ CRLF ++ CRLF)] false] waiting) = Throws.
Proof. vm_compute. reflexivity. Qed.
Print Assumptions C33_bad_answer_refuted.

(** Two attempts that break off while sending, one without address, then one in small pieces that succeeds. *)
Example C33_story :
  let '(ss, c) := to_leader (Some XW)
    [[NoAddress false; Connected [TAgain; TSent 5; TFatal] [] false]; [NoAddress false; NoAddress true]; [NoAddress false; NoSocket];
     [Connected [TSent 30; TStop] [] false];
     [NoAddress false; Connected [TSent 7; TAgain; TSent 100] [RGot [LF]; RAgain; RGot (lit "200 OK" ++ [CR]); RGot (LF :: lit "Content-Length: 2" ++ CRLF ++ CRLF ++ lit "o"); RGot (lit "k")] false];
     [Connected [TSent 100] [] false]] waiting in
  map (@List.length ascii) ss = [5; 0; 0; 30; List.length XW] /\ nth 4 ss [] = XW /\ complete c = true /\
  response c = (lit "200 OK", [(lit "Content-Length", lit "2")], lit "ok").
Proof. vm_compute. repeat split. Qed.
