(** Proofs for C57. *)
From Verif Require Import Base Dec Text_Spec Text_Model Table Http_Spec Http_Model Http_Proofs Conn_Spec Conn_Model.

(** ** Sending *)
Definition full (c : conn) : Prop := taken c ++ sendBuffer c = concat (said c).
Definition out_ok (c : conn) : Prop :=
  full c \/ (sendBuffer c = [] /\ is_open c = false /\ down c = true /\ prefix (taken c) (concat (said c))).
Definition same_out (c c' : conn) : Prop :=
  sendBuffer c' = sendBuffer c /\ said c' = said c /\ taken c' = taken c.
Lemma same_full c c' : same_out c c' -> full c -> full c'.
Proof. intros (A & B & D). unfold full. rewrite A, B, D. auto. Qed.
Lemma same_ok c c' : same_out c c' -> is_open c' = is_open c -> down c' = down c -> out_ok c -> out_ok c'.
Proof. intros H E F [G|G]; [left; apply (same_full c c' H G)|right]. destruct H as (A & B & D). rewrite A, B, D, E, F. exact G. Qed.
Lemma send_ok k c : out_ok c -> out_ok (fst (send k c)).
Proof.
  intros H. unfold send. destruct (sendBuffer c) as [|a b] eqn:B; [exact H|]. destruct H as [H|H]; [|destruct H as (H & _); congruence].
  destruct (if down c then KFatal else k) as [n| |]; cbn [fst]; try (left; exact H). left. unfold full in *. cbn [taken sendBuffer said consume].
  rewrite <- H, B, <- app_assoc, firstn_skipn. reflexivity.
Qed.
Lemma send_st k c : st (fst (send k c)) = st c /\ down (fst (send k c)) = down c.
Proof. unfold send. destruct (sendBuffer c); [auto|]. destruct (if down c then KFatal else k); cbn; auto. Qed.
Lemma append_ok w c : is_open c = true -> out_ok c -> out_ok (append w c).
Proof.
  intros O [H|(_ & H & _)]; [|congruence]. left. unfold full in *. cbn [taken sendBuffer said append]. rewrite concat_app, app_assoc, H. cbn [concat].
  rewrite app_nil_r. reflexivity.
Qed.
Lemma sendMessage_ok w k c : out_ok c -> out_ok (sendMessage w k c).
Proof. intros H. unfold sendMessage. destruct (is_open c) eqn:O; [|exact H]. apply send_ok, append_ok; auto. Qed.
Lemma down_ok s c : (s = SHUTTINGDOWN \/ s = CLOSED) -> out_ok c -> out_ok (shutdown s c).
Proof. intros S [H|(A & B & D & E)]; [left; exact H|right]. cbn. split; [exact A|]. split; [destruct S as [->| ->]; reflexivity|]. split; [reflexivity|exact E]. Qed.
Lemma deed_ok c d : out_ok c -> out_ok (do_deed c d).
Proof. destruct d; cbn [do_deed]; [apply sendMessage_ok|apply down_ok; auto]. Qed.
Lemma deeds_ok l : forall c, out_ok c -> out_ok (do_deeds c l).
Proof. induction l as [|d l IH]; intros c H; [exact H|]. unfold do_deeds in *. cbn [fold_left]. apply IH, deed_ok, H. Qed.
Lemma recv_ok p e c : out_ok c -> out_ok (fst (recv p e c)).
Proof. intros H. apply (same_ok c); auto. repeat split. Qed.
Lemma closed_ok c : out_ok c -> out_ok (set_state CLOSED c).
Proof. intros [H|(A & B & D & E)]; [left; exact H|right]. cbn. auto. Qed.
Lemma connected_ok ev p e k c : out_ok c -> out_ok (postPoll_connected ev p e k c).
Proof.
  intros H. unfold postPoll_connected.
  assert (H1 : out_ok (fst (if can_read ev || hung_up ev then recv p e c else (c, true)))) by (destruct (can_read ev || hung_up ev); [apply recv_ok|]; exact H).
  destruct (if can_read ev || hung_up ev then recv p e c else (c, true)) as [c1 a1]. cbn [fst] in H1.
  assert (H2 : out_ok (fst (if can_write ev then send k c1 else (c1, true)))) by (destruct (can_write ev); [apply send_ok|]; exact H1).
  destruct (if can_write ev then send k c1 else (c1, true)) as [c2 a2]. cbn [fst] in H2. destruct (negb a1 || negb a2); [apply closed_ok|]; exact H2.
Qed.
Lemma clear_ok c : out_ok c -> out_ok (clear_send (shutdown SHUTTINGDOWN c)).
Proof.
  intros H. right. cbn. repeat split. destruct H as [H|(_ & _ & _ & H)]; [|exact H]. exists (sendBuffer c). exact H.
Qed.
Lemma postPoll_down_ok p e k c : out_ok c -> out_ok (postPoll_down p e k c).
Proof.
  intros H. unfold postPoll_down.
  set (c1 := match sendBuffer c with [] => c | _ :: _ => let (c1, alive) := send k c in if alive then c1 else clear_send (shutdown SHUTTINGDOWN c1) end).
  assert (H1 : out_ok c1).
  { unfold c1. destruct (sendBuffer c); [exact H|]. pose proof (send_ok k c H) as S. destruct (send k c) as [c' alive]. cbn [fst] in S. destruct alive; [exact S|apply clear_ok, S]. }
  destruct (sendBuffer c1); [|exact H1]. pose proof (recv_ok p e c1 H1) as R. destruct (recv p e c1) as [c2 alive]. cbn [fst] in R.
  destruct alive; [exact R|apply down_ok; auto].
Qed.
Lemma postPoll_ok ev f p e k c : out_ok c -> out_ok (postPoll ev f p e k c).
Proof.
  intros H. unfold postPoll. destruct (st c) eqn:S; [|apply connected_ok, H|apply postPoll_down_ok, H|exact H].
  destruct (negb _); [exact H|]. destruct H as [H|(_ & H & _)]; [|unfold is_open in H; rewrite S in H; discriminate].
  assert (F : full (if hung_up ev then shutdown CLOSED c else c)) by (destruct (hung_up ev); exact H).
  destruct f; [left; exact F|]. apply connected_ok. left. exact F.
Qed.
Lemma process_ok fuel : forall limit ds c, out_ok c -> out_ok (process fuel limit ds c).
Proof.
  induction fuel as [|f IH]; intros limit ds c H; [exact H|]. cbn [process].
  assert (B : out_ok (set_broken c)) by (apply (same_ok c); auto; repeat split).
  destruct (SParseHTTP (recvBuffer c)) as [|[|n] m t b| | ]; auto.
  assert (D : out_ok (do_deeds (pop (S n) (m, t, b) c) (hd [] ds))) by (apply deeds_ok, (same_ok c); auto; repeat split).
  destruct limit as [[|[|l]]|]; auto.
Qed.
Lemma poll_ok ev f late p e k k' ds c : out_ok c -> out_ok (poll ev f late p e k k' ds c).
Proof.
  intros H. unfold poll. apply (postPoll_ok ev f p e k) in H. set (c1 := postPoll ev f p e k c) in *.
  assert (P : forall l, out_ok (processPeerMessages l ds c1)) by (intros l; apply process_ok, H).
  destruct (st c1); auto.
  - destruct late; auto. cbv zeta. destruct (broken _); auto. apply down_ok; auto. apply sendMessage_ok. auto.
  - cbv zeta. destruct (broken _); auto. apply (same_ok (processPeerMessages None ds c1)); auto. repeat split.
Qed.
Lemma step_ok c a : out_ok c -> out_ok (step c a).
Proof. intros H. unfold step. destruct (_ || _); [exact H|]. destruct a; [apply deed_ok|apply poll_ok]; exact H. Qed.
Lemma run_from_ok l : forall c, out_ok c -> out_ok (fold_left step l c).
Proof. induction l as [|a l IH]; intros c H; [exact H|]. cbn [fold_left]. apply IH, step_ok, H. Qed.
Lemma login_ok free us : forall c c', out_ok c -> login free us c = LoggedIn c' -> out_ok c'.
Proof.
  induction us as [|u us IH]; intros c c' H; cbn [login]; [discriminate|]. unfold login_poll.
  apply (postPoll_ok (f_ev u) false (f_pieces u) (f_end u) (f_send u)) in H. set (c1 := postPoll _ _ _ _ _ c) in *. cbv zeta.
  destruct (st c1); try discriminate. destruct (SParseHTTP (recvBuffer c1)) as [|[|n] m t b| | ]; try discriminate.
  - destruct (f_idle u); [discriminate|]. apply IH. exact H.
  - destruct (f_idle u); [discriminate|]. apply IH. exact H.
  - destruct (_ && _); [|discriminate]. intros E. injection E as <-. apply (same_ok c1); auto. repeat split.
Qed.
Lemma run_ok c l : start c -> out_ok (run c l).
Proof.
  intros H. apply run_from_ok. destruct H as [->|(free & us & p & e & H)]; [left; reflexivity|]. apply login_ok in H; [exact H|]. left. reflexivity.
Qed.

(** ** Receiving *)
(* what a deed does not touch *)
Definition same_in (c c' : conn) : Prop :=
  recvBuffer c' = recvBuffer c /\ received c' = received c /\ handled c' = handled c /\ gone c' = gone c /\ broken c' = broken c.
Lemma same_in_refl c : same_in c c. Proof. repeat split. Qed.
Lemma same_in_trans a b c : same_in a b -> same_in b c -> same_in a c.
Proof. unfold same_in. intuition congruence. Qed.
Lemma send_in k c : same_in c (fst (send k c)).
Proof. unfold send. destruct (sendBuffer c); [apply same_in_refl|]. destruct (if down c then KFatal else k); repeat split. Qed.
Lemma deed_in c d : same_in c (do_deed c d).
Proof.
  destruct d as [w k|]; cbn [do_deed]; [|repeat split]. unfold sendMessage. destruct (is_open c); [|apply same_in_refl].
  apply (same_in_trans _ (append w c)); [repeat split|apply send_in].
Qed.
Lemma deeds_in l : forall c, same_in c (do_deeds c l).
Proof.
  induction l as [|d l IH]; intros c; [apply same_in_refl|]. unfold do_deeds in *. cbn [fold_left]. eapply same_in_trans; [apply deed_in|apply IH].
Qed.
(* bytes have come *)
Definition came (d : bytes) (c c' : conn) : Prop :=
  recvBuffer c' = recvBuffer c ++ d /\ received c' = received c ++ d /\ handled c' = handled c /\ gone c' = gone c /\ broken c' = broken c.
Lemma came_nil c c' : same_in c c' -> came [] c c'.
Proof. unfold same_in, came. rewrite !app_nil_r. auto. Qed.
Lemma came_same d c c1 c2 : came d c c1 -> same_in c1 c2 -> came d c c2.
Proof. unfold same_in, came. intuition congruence. Qed.
Lemma same_came d c c1 c2 : same_in c c1 -> came d c1 c2 -> came d c c2.
Proof. unfold same_in, came. intuition congruence. Qed.
Lemma recv_came p e c : came (concat p) c (fst (recv p e c)).
Proof. repeat split. Qed.
Lemma connected_came ev p e k c : exists d, came d c (postPoll_connected ev p e k c).
Proof.
  unfold postPoll_connected. exists (if can_read ev || hung_up ev then concat p else []).
  assert (H1 : came (if can_read ev || hung_up ev then concat p else []) c (fst (if can_read ev || hung_up ev then recv p e c else (c, true)))).
  { destruct (can_read ev || hung_up ev); [apply recv_came|apply came_nil, same_in_refl]. }
  destruct (if can_read ev || hung_up ev then recv p e c else (c, true)) as [c1 a1]. cbn [fst] in H1.
  assert (H2 : same_in c1 (fst (if can_write ev then send k c1 else (c1, true)))) by (destruct (can_write ev); [apply send_in|apply same_in_refl]).
  destruct (if can_write ev then send k c1 else (c1, true)) as [c2 a2]. cbn [fst] in H2. pose proof (came_same _ _ _ _ H1 H2) as H3.
  destruct (negb a1 || negb a2); [|exact H3]. eapply came_same; [exact H3|]. repeat split.
Qed.
Lemma down_came p e k c : exists d, came d c (postPoll_down p e k c).
Proof.
  unfold postPoll_down.
  set (c1 := match sendBuffer c with [] => c | _ :: _ => let (c1, alive) := send k c in if alive then c1 else clear_send (shutdown SHUTTINGDOWN c1) end).
  assert (H1 : same_in c c1).
  { unfold c1. destruct (sendBuffer c); [apply same_in_refl|]. pose proof (send_in k c) as S. destruct (send k c) as [c' alive]. cbn [fst] in S.
    destruct alive; [exact S|]. eapply same_in_trans; [exact S|]. repeat split. }
  destruct (sendBuffer c1); [|exists []; apply came_nil; exact H1]. exists (concat p). pose proof (recv_came p e c1) as R. destruct (recv p e c1) as [c2 alive]. cbn [fst] in R.
  pose proof (same_came _ _ _ _ H1 R) as H2. destruct alive; [exact H2|]. eapply came_same; [exact H2|]. repeat split.
Qed.
Lemma postPoll_came ev f p e k c : exists d, came d c (postPoll ev f p e k c).
Proof.
  unfold postPoll. destruct (st c) eqn:S; [|apply connected_came|apply down_came|exists []; apply came_nil, same_in_refl].
  destruct (negb _); [exists []; apply came_nil, same_in_refl|].
  assert (F : same_in c (if hung_up ev then shutdown CLOSED c else c)) by (destruct (hung_up ev); repeat split).
  destruct f; [exists []; apply came_nil; eapply same_in_trans; [exact F|]; repeat split|].
  destruct (connected_came ev p e k (set_state CONNECTED (if hung_up ev then shutdown CLOSED c else c))) as (d & D). exists d.
  eapply same_came; [|exact D]. eapply same_in_trans; [exact F|]. repeat split.
Qed.

(** One message is taken from the bytes that are there, of those that make up messages. *)
Lemma pop_spec gz xs Xs pre b future : Forall2 (sent gz) xs Xs -> lead pre -> b ++ future = pre ++ concat Xs ->
  (SParseHTTP b = Incomplete /\ (forall X Xs', Xs = X :: Xs' -> List.length b < List.length (pre ++ X))) \/
  (exists x xs' X Xs' n pre', xs = x :: xs' /\ Xs = X :: Xs' /\ SParseHTTP b = Done (S n) (fst (fst (got gz x))) (snd (fst (got gz x))) (snd (got gz x)) /\
     lead pre' /\ skipn (S n) b ++ future = pre' ++ concat Xs').
Proof.
  intros HF HP E. destruct HF as [|x X xs Xs HX HF].
  - left. split; [|intros; discriminate]. cbn [concat] in E. rewrite app_nil_r in E. rewrite SParseHTTP_P. apply P_lead_only. destruct HP as [->| ->].
    + left. apply app_eq_nil in E. apply E.
    + apply app_eq_unit in E. destruct E as [[-> _]|[-> _]]; [left|right]; reflexivity.
  - cbn [concat] in E. rewrite app_assoc in E. pose proof (sent_nonempty _ _ _ HX) as XNE.
    assert (XL : 0 < List.length X) by (destruct X; [congruence|cbn [List.length]; lia]).
    assert (STEP : forall b1 pre1, lead pre1 -> b1 ++ future = pre1 ++ concat Xs ->
              SParseHTTP b = Done (List.length b - List.length b1) (fst (fst (got gz x))) (snd (fst (got gz x))) (snd (got gz x)) ->
              skipn (List.length b - List.length b1) b = b1 -> List.length b1 < List.length b ->
              exists x0 xs' X0 Xs' n pre', x :: xs = x0 :: xs' /\ X :: Xs = X0 :: Xs' /\ SParseHTTP b = Done (S n) (fst (fst (got gz x0))) (snd (fst (got gz x0))) (snd (got gz x0)) /\
                lead pre' /\ skipn (S n) b ++ future = pre' ++ concat Xs').
    { intros b1 pre1 L1 E1 HD Hs Hl. exists x, xs, X, Xs, (List.length b - List.length b1 - 1), pre1. do 2 (split; [reflexivity|]).
      replace (S (List.length b - List.length b1 - 1)) with (List.length b - List.length b1) by lia. split; [exact HD|]. split; [exact L1|]. rewrite Hs. exact E1. }
    destruct (app_eq_app _ _ _ _ E) as (z & [[E1 E2]|[E1 E2]]).
    + right. apply (STEP z []); [left; reflexivity|symmetry; exact E2| | |].
      * rewrite E1, <- app_assoc, (parse_whole gz x X pre z) by auto. f_equal. rewrite !app_length. lia.
      * rewrite E1, app_length, Nat.add_sub, skipn_app, skipn_all, Nat.sub_diag. reflexivity.
      * rewrite E1, !app_length. lia.
    + destruct z as [|c z].
      { right. apply (STEP [] []); [left; reflexivity|exact E2| | |].
        - rewrite app_nil_r in E1. rewrite <- E1. pose proof (parse_whole gz x X pre [] HX HP) as W. rewrite app_nil_r in W. rewrite W.
          f_equal. cbn [List.length]. lia.
        - cbn [List.length]. rewrite Nat.sub_0_r. apply skipn_all.
        - rewrite app_nil_r in E1. rewrite <- E1, app_length. cbn [List.length]. lia. }
      assert (SHORT : forall X0 Xs', X :: Xs = X0 :: Xs' -> List.length b < List.length (pre ++ X0)).
      { intros X0 Xs' EX. injection EX as <- _. rewrite E1, app_length. cbn [List.length]. lia. }
      symmetry in E1. destruct (app_eq_app _ _ _ _ E1) as (q & [[F1 F2]|[F1 F2]]).
      * destruct (parse_part gz x X pre q (c :: z) HX HP) as [HI|(HC & HR & HD)]; [symmetry; exact F2|discriminate| |].
        -- left. split; [rewrite F1; exact HI|exact SHORT].
        -- right. apply (STEP [] [LF]); [right; reflexivity|rewrite E2, HR; reflexivity| | |].
           ++ rewrite F1, HD. f_equal. cbn [List.length]. lia.
           ++ cbn [List.length]. rewrite Nat.sub_0_r. apply skipn_all.
           ++ rewrite F1, app_length. rewrite F2, HR, app_length in XL. cbn [List.length] in *.
              destruct q as [|a q]; [|cbn [List.length]; lia].
              exfalso. destruct (sent_head gz x X [] HX) as (a & s & G & Ga). rewrite F2, HR in G. cbn in G. injection G as <- _. discriminate.
      * left. split; [|exact SHORT]. rewrite SParseHTTP_P. apply P_lead_only. destruct HP as [->| ->].
        -- symmetry in F1. apply app_eq_nil in F1. left. apply F1.
        -- symmetry in F1. apply app_eq_unit in F1. destruct F1 as [[-> _]|[-> _]]; [left|right]; reflexivity.
Qed.

Section Receiver.
  Variable gz : bytes -> bytes.
  Variable xs : list message.
  Variable Xs : list bytes.
  Hypothesis SENT : Forall2 (sent gz) xs Xs.

  (* the state of the receiver when the bytes [fut] are still to come *)
  Definition good (fut : bytes) (c : conn) : Prop :=
    broken c = false /\ received c ++ fut = concat Xs /\
    exists xs1 xs2 Xs1 Xs2 pre, xs = xs1 ++ xs2 /\ Xs = Xs1 ++ Xs2 /\ List.length xs1 = List.length Xs1 /\ Forall2 (sent gz) xs2 Xs2 /\ lead pre /\
      handled c = map (got gz) xs1 /\ recvBuffer c ++ fut = pre ++ concat Xs2.
  Lemma good_same fut c c' : same_in c c' -> good fut c -> good fut c'.
  Proof. intros (A & B & C & D & E). unfold good. rewrite A, B, C, E. auto. Qed.
  Lemma good_came d fut c c' : came d c c' -> good (d ++ fut) c -> good fut c'.
  Proof. intros (A & B & C & D & E). unfold good. rewrite A, B, C, E, <- !app_assoc. auto. Qed.
  Lemma good_pop fut c n m t b : good fut c -> SParseHTTP (recvBuffer c) = Done (S n) m t b -> good fut (pop (S n) (m, t, b) c).
  Proof.
    intros (B & R & xs1 & xs2 & Xs1 & Xs2 & pre & E1 & E2 & EL & F2 & L & H & E) P.
    destruct (pop_spec gz xs2 Xs2 pre _ fut F2 L E) as [(I & _)|(x & xs' & X & Xs' & n' & pre' & -> & -> & D & L' & E')]; [congruence|].
    rewrite P in D. injection D as <- -> -> ->. split; [exact B|]. split; [exact R|]. inversion F2 as [|? ? ? ? _ F2']; subst.
    exists (xs1 ++ [x]), xs', (Xs1 ++ [X]), Xs', pre'. do 2 (split; [rewrite <- app_assoc; reflexivity|]). split; [rewrite !app_length, EL; reflexivity|].
    split; [exact F2'|]. split; [exact L'|]. split; [|exact E']. cbn [handled pop]. rewrite H, map_app. reflexivity.
  Qed.
  Lemma good_not_stuck fut c : good fut c -> SParseHTTP (recvBuffer c) = Incomplete \/ exists n m t b, SParseHTTP (recvBuffer c) = Done (S n) m t b.
  Proof.
    intros (B & R & xs1 & xs2 & Xs1 & Xs2 & pre & E1 & E2 & EL & F2 & L & H & E).
    destruct (pop_spec gz xs2 Xs2 pre _ fut F2 L E) as [(I & _)|(x & xs' & X & Xs' & n' & pre' & _ & _ & D & _)]; eauto 6.
  Qed.
  Definition over (limit : option nat) (c c' : conn) : Prop :=
    SParseHTTP (recvBuffer c') = Incomplete \/
    match limit with None => False | Some l => List.length (handled c') = List.length (handled c) + Nat.max 1 l end.
  Lemma process_good fut fuel : forall limit ds c, List.length (recvBuffer c) < fuel -> good fut c ->
    good fut (process fuel limit ds c) /\ over limit c (process fuel limit ds c) /\ gone (process fuel limit ds c) = gone c.
  Proof.
    induction fuel as [|f IH]; intros limit ds c HL G; [lia|]. cbn [process].
    destruct (good_not_stuck _ _ G) as [I|(n & m & t & b & D)]; [rewrite I; split; [exact G|]; split; [left; exact I|reflexivity]|]. rewrite D.
    pose proof (deeds_in (hd [] ds) (pop (S n) (m, t, b) c)) as SI. pose proof (good_same _ _ _ SI (good_pop _ _ _ _ _ _ G D)) as G1.
    set (c1 := do_deeds (pop (S n) (m, t, b) c) (hd [] ds)) in *. destruct SI as (A1 & _ & A2 & A3 & _). cbn [pop recvBuffer handled gone] in A1, A2, A3.
    assert (L1 : List.length (recvBuffer c1) < f).
    { rewrite A1, skipn_length. destruct (recvBuffer c) as [|z y] eqn:EB; [|cbn [List.length] in *; lia].
      destruct G as (_ & _ & xs1 & xs2 & Xs1 & Xs2 & pre & _). rewrite SParseHTTP_P, P_nil in D. discriminate. }
    assert (L2 : List.length (handled c1) = S (List.length (handled c))) by (rewrite A2, app_length; cbn [List.length]; lia).
    destruct limit as [[|[|l]]|].
    - split; [exact G1|]. split; [right; cbn; lia|exact A3].
    - split; [exact G1|]. split; [right; cbn; lia|exact A3].
    - destruct (IH (Some (S l)) (tl ds) c1 L1 G1) as (I1 & I2 & I3). split; [exact I1|]. split; [|congruence]. destruct I2 as [I2|I2]; [left; exact I2|right]. lia.
    - destruct (IH None (tl ds) c1 L1 G1) as (I1 & I2 & I3). split; [exact I1|]. split; [|congruence]. destruct I2 as [I2|I2]; [left; exact I2|contradiction].
  Qed.
  (* no whole message waits *)
  Lemma none_waits fut c : good fut c -> SParseHTTP (recvBuffer c) = Incomplete ->
    forall ws1 w ws2, Xs = ws1 ++ w :: ws2 -> prefix (concat ws1 ++ w) (received c) -> List.length ws1 < List.length (handled c).
  Proof.
    intros (B & R & xs1 & xs2 & Xs1 & Xs2 & pre & E1 & E2 & EL & F2 & L & H & E) I ws1 w ws2 EW (r & PR). rewrite H, map_length, EL.
    destruct (Nat.lt_ge_cases (List.length ws1) (List.length Xs1)) as [K|K]; [exact K|exfalso].
    destruct (pop_spec gz xs2 Xs2 pre _ fut F2 L E) as [(_ & SH)|(x & xs' & X & Xs' & n' & pre' & _ & _ & D & _)]; [|congruence].
    rewrite E2 in EW. destruct (app_eq_app _ _ _ _ EW) as (z & [[G1 G2]|[G1 G2]]).
    - assert (z = []) by (apply (f_equal (@List.length _)) in G1; rewrite app_length in G1; destruct z; [reflexivity|cbn [List.length] in G1; lia]). subst z.
      rewrite app_nil_r in G1. subst Xs1. cbn [app] in G2. symmetry in G2. specialize (SH _ _ G2). rewrite E2, G2 in R. rewrite G2 in E.
      rewrite <- PR, concat_app in R. cbn [concat] in E, R. apply (f_equal (@List.length _)) in R, E. rewrite !app_length in *. lia.
    - destruct z as [|X z].
      + rewrite app_nil_r in G1. subst Xs1. cbn [app] in G2. specialize (SH _ _ G2). rewrite E2, G2 in R. rewrite G2 in E.
        rewrite <- PR, concat_app in R. cbn [concat] in E, R. apply (f_equal (@List.length _)) in R, E. rewrite !app_length in *. lia.
      + cbn [app] in G2. specialize (SH _ _ G2). rewrite G1 in PR. rewrite E2, G2 in R. rewrite G2 in E. rewrite <- PR, !concat_app in R.
        cbn [concat] in E, R. rewrite !concat_app in E, R. cbn [concat] in E, R. apply (f_equal (@List.length _)) in R, E. rewrite !app_length in *. lia.
  Qed.

  Lemma process_received fuel : forall limit ds c, received (process fuel limit ds c) = received c.
  Proof.
    induction fuel as [|f IH]; intros limit ds c; [reflexivity|]. cbn [process]. destruct (SParseHTTP (recvBuffer c)) as [|[|n] m t b| | ]; try reflexivity.
    destruct (deeds_in (hd [] ds) (pop (S n) (m, t, b) c)) as (_ & A & _). cbn [pop received] in A.
    destruct limit as [[|[|l]]|]; rewrite ?IH; exact A.
  Qed.
  Lemma sendMessage_in w k c : same_in c (sendMessage w k c).
  Proof. apply (deed_in c (Say w k)). Qed.
  Lemma poll_received ev f late p e k k' ds c : received (poll ev f late p e k k' ds c) = received (postPoll ev f p e k c).
  Proof.
    unfold poll. set (c1 := postPoll ev f p e k c). assert (P : forall l, received (processPeerMessages l ds c1) = received c1) by (intros l; apply process_received).
    destruct (st c1); auto.
    - destruct late; auto. cbv zeta. destruct (broken _); auto. cbn [shutdownSocket shutdown received].
      destruct (sendMessage_in reconnect k' (processPeerMessages None ds c1)) as (_ & A & _). rewrite A. auto.
    - cbv zeta. destruct (broken _); [auto|exact (P None)].
  Qed.
  Definition settled (c c' : conn) : Prop :=
    SParseHTTP (recvBuffer c') = Incomplete \/ (gone c' = false /\ List.length (handled c') = List.length (handled c) + HUNDRED).
  Definition good_all (c : conn) : Prop := forall fut, received c ++ fut = concat Xs -> good fut c.
  Lemma poll_good fut ev f late p e k k' ds c : good_all c -> gone c = false ->
    received (poll ev f late p e k k' ds c) ++ fut = concat Xs ->
    good fut (poll ev f late p e k k' ds c) /\ settled c (poll ev f late p e k k' ds c).
  Proof.
    intros GA NG. rewrite poll_received. destruct (postPoll_came ev f p e k c) as (d & CM). intros E.
    assert (G : good fut (postPoll ev f p e k c)).
    { eapply good_came; [exact CM|]. apply GA. destruct CM as (_ & A & _). rewrite A, <- app_assoc in E. exact E. }
    unfold poll. set (c1 := postPoll ev f p e k c) in *. destruct CM as (_ & _ & HH & HG & _).
    assert (P : forall l, good fut (processPeerMessages l ds c1) /\ over l c1 (processPeerMessages l ds c1) /\ gone (processPeerMessages l ds c1) = gone c1).
    { intros l. apply process_good; [unfold lt; apply le_n|exact G]. }
    assert (Q : good fut (processPeerMessages (Some HUNDRED) ds c1) /\ settled c (processPeerMessages (Some HUNDRED) ds c1)).
    { destruct (P (Some HUNDRED)) as (P1 & P2 & P3). split; [exact P1|]. destruct P2 as [P2|P2]; [left; exact P2|right]. split; [congruence|].
      rewrite <- HH. exact P2. }
    destruct (P None) as (P1 & P2 & P3). assert (NB : broken (processPeerMessages None ds c1) = false) by apply P1.
    assert (INC : SParseHTTP (recvBuffer (processPeerMessages None ds c1)) = Incomplete) by (destruct P2 as [P2|P2]; [exact P2|contradiction]).
    destruct (st c1).
    - exact Q.
    - destruct late; [|exact Q]. cbv zeta. rewrite NB. pose proof (sendMessage_in reconnect k' (processPeerMessages None ds c1)) as SI.
      pose proof (good_same _ _ _ SI P1) as G2. destruct SI as (A & _). split; [exact G2|]. left. cbn [shutdownSocket shutdown recvBuffer]. rewrite A. exact INC.
    - exact Q.
    - cbv zeta. rewrite NB. split; [exact P1|]. left. exact INC.
  Qed.
  Lemma step_good c a : good_all c -> good_all (step c a).
  Proof.
    intros GA fut. unfold step. destruct (gone c) eqn:G; [apply GA|]. destruct (broken c) eqn:B; [apply GA|]. cbn [orb]. destruct a as [d|ev f l p e k k' ds].
    - intros E. apply (good_same _ c); [apply deed_in|]. apply GA. destruct (deed_in c d) as (_ & A & _). rewrite <- A. exact E.
    - intros E. apply poll_good; auto.
  Qed.
  Lemma run_from_good l : forall c, good_all c -> good_all (fold_left step l c).
  Proof. induction l as [|a l IH]; intros c H; [exact H|]. cbn [fold_left]. apply IH, step_good, H. Qed.
  Lemma fresh_good s : good_all (fresh s).
  Proof.
    intros fut E. split; [reflexivity|]. split; [exact E|]. exists [], xs, [], Xs, []. do 3 (split; [reflexivity|]).
    split; [exact SENT|]. split; [left; reflexivity|]. split; [reflexivity|exact E].
  Qed.
  Lemma came_good d c c' : came d c c' -> good_all c -> good_all c'.
  Proof. intros CM GA fut E. eapply good_came; [exact CM|]. apply GA. destruct CM as (_ & A & _). rewrite A, <- app_assoc in E. exact E. Qed.
  Lemma login_good free us : forall c c', good_all c -> gone c = false -> login free us c = LoggedIn c' -> good_all c' /\ gone c' = false.
  Proof.
    induction us as [|u us IH]; intros c c' GA NG; cbn [login]; [discriminate|]. unfold login_poll.
    destruct (postPoll_came (f_ev u) false (f_pieces u) (f_end u) (f_send u) c) as (d & CM). pose proof (came_good _ _ _ CM GA) as G1.
    destruct CM as (_ & _ & _ & HG & _). rewrite NG in HG. set (c1 := postPoll _ _ _ _ _ c) in *. cbv zeta.
    destruct (st c1); try discriminate. destruct (SParseHTTP (recvBuffer c1)) as [|[|n] m t b| | ] eqn:P; try discriminate.
    - destruct (f_idle u); [discriminate|]. apply IH; assumption.
    - destruct (f_idle u); [discriminate|]. apply IH; assumption.
    - destruct (_ && _); [|discriminate]. intros E. injection E as <-. split; [|exact HG]. intros fut E. apply good_pop; [apply G1; exact E|exact P].
  Qed.
  Lemma start_good c : start c -> good_all c /\ gone c = false.
  Proof.
    intros [->|(free & us & p & e & H)]; [split; [apply fresh_good|reflexivity]|]. apply login_good in H; [exact H| |reflexivity].
    apply (came_good (concat p) (fresh CONNECTED)); [apply recv_came|apply fresh_good].
  Qed.
  Lemma run_good c l : start c -> good_all (run c l).
  Proof. intros H. apply run_from_good, start_good, H. Qed.
  (* a connection that is gone has been settled *)
  Lemma gone_settled l : forall c fut, good_all c -> (gone c = true -> SParseHTTP (recvBuffer c) = Incomplete) ->
    received (fold_left step l c) ++ fut = concat Xs -> gone (fold_left step l c) = true -> SParseHTTP (recvBuffer (fold_left step l c)) = Incomplete.
  Proof.
    induction l as [|a l IH]; intros c fut GA H E G; [auto|]. cbn [fold_left] in *. apply (IH (step c a) fut); auto; [apply step_good, GA|].
    clear IH. intros GS.
    assert (exists fut', received (step c a) ++ fut' = concat Xs) as (fut' & E').
    { assert (M : forall l c, exists d, received (fold_left step l c) = received c ++ d).
      { clear. induction l as [|a l IH]; intros c; [exists []; symmetry; apply app_nil_r|]. cbn [fold_left]. destruct (IH (step c a)) as (d & D).
        assert (exists d', received (step c a) = received c ++ d') as (d' & D').
        { unfold step. destruct (_ || _); [exists []; symmetry; apply app_nil_r|]. destruct a as [x|ev f' l' p e k k' ds].
          - exists []. rewrite app_nil_r. apply (deed_in c x).
          - rewrite poll_received. destruct (postPoll_came ev f' p e k c) as (d' & _ & A & _). exists d'. exact A. }
        exists (d' ++ d). rewrite D, D', app_assoc. reflexivity. }
      destruct (M l (step c a)) as (d & D). exists (d ++ fut). rewrite app_assoc, <- D. exact E. }
    revert GS E'. unfold step. destruct (gone c) eqn:GC; [auto|]. destruct (broken c); cbn [orb]; [congruence|]. destruct a as [d|ev f' l' p e k k' ds].
    - intros GS. destruct (deed_in c d) as (_ & _ & _ & A & _). congruence.
    - intros GS E'. destruct (poll_good fut' ev f' l' p e k k' ds c GA GC E') as (_ & [S|[S _]]); [exact S|congruence].
  Qed.
End Receiver.

(** ** Nothing is sent after the connection was dropped *)
Definition still (T : bytes) (c : conn) : Prop := down c = true /\ taken c = T.
Lemma send_still T k c : still T c -> still T (fst (send k c)).
Proof. intros (D & E). unfold send. destruct (sendBuffer c); [split; assumption|]. rewrite D. split; assumption. Qed.
Lemma deed_still T c d : still T c -> still T (do_deed c d).
Proof. intros H. destruct d as [w k|]; cbn [do_deed]; [|split; [reflexivity|apply H]]. unfold sendMessage. destruct (is_open c); [|exact H]. apply send_still. exact H. Qed.
Lemma deeds_still T l : forall c, still T c -> still T (do_deeds c l).
Proof. induction l as [|d l IH]; intros c H; [exact H|]. unfold do_deeds in *. cbn [fold_left]. apply IH, deed_still, H. Qed.
Lemma connected_still T ev p e k c : still T c -> still T (postPoll_connected ev p e k c).
Proof.
  intros H. unfold postPoll_connected.
  assert (H1 : still T (fst (if can_read ev || hung_up ev then recv p e c else (c, true)))) by (destruct (can_read ev || hung_up ev); exact H).
  destruct (if can_read ev || hung_up ev then recv p e c else (c, true)) as [c1 a1]. cbn [fst] in H1.
  assert (H2 : still T (fst (if can_write ev then send k c1 else (c1, true)))) by (destruct (can_write ev); [apply send_still|]; exact H1).
  destruct (if can_write ev then send k c1 else (c1, true)) as [c2 a2]. cbn [fst] in H2. destruct (negb a1 || negb a2); exact H2.
Qed.
Lemma down_still T p e k c : still T c -> still T (postPoll_down p e k c).
Proof.
  intros H. unfold postPoll_down.
  set (c1 := match sendBuffer c with [] => c | _ :: _ => let (c1, alive) := send k c in if alive then c1 else clear_send (shutdown SHUTTINGDOWN c1) end).
  assert (H1 : still T c1).
  { unfold c1. destruct (sendBuffer c); [exact H|]. pose proof (send_still T k c H) as S. destruct (send k c) as [c' alive]. cbn [fst] in S.
    destruct alive; [exact S|]. split; [reflexivity|apply S]. }
  destruct (sendBuffer c1); [|exact H1]. destruct e; cbn; try exact H1; (split; [reflexivity|apply H1]).
Qed.
Lemma postPoll_still T ev f p e k c : still T c -> still T (postPoll ev f p e k c).
Proof.
  intros H. unfold postPoll. destruct (st c); [|apply connected_still, H|apply down_still, H|exact H].
  destruct (negb _); [exact H|]. assert (F : still T (if hung_up ev then shutdown CLOSED c else c)) by (destruct (hung_up ev); [split; [reflexivity|apply H]|exact H]).
  destruct f; [exact F|]. apply connected_still. exact F.
Qed.
Lemma process_still T fuel : forall limit ds c, still T c -> still T (process fuel limit ds c).
Proof.
  induction fuel as [|f IH]; intros limit ds c H; [exact H|]. cbn [process]. destruct (SParseHTTP (recvBuffer c)) as [|[|n] m t b| | ]; try exact H.
  assert (D : still T (do_deeds (pop (S n) (m, t, b) c) (hd [] ds))) by (apply deeds_still; exact H). destruct limit as [[|[|l]]|]; auto.
Qed.
Lemma step_still T c a : still T c -> still T (step c a).
Proof.
  intros H. unfold step. destruct (_ || _); [exact H|]. destruct a as [d|ev f late p e k k' ds]; [apply deed_still; exact H|].
  unfold poll. apply (postPoll_still T ev f p e k) in H. set (c1 := postPoll ev f p e k c) in *.
  assert (P : forall l, still T (processPeerMessages l ds c1)) by (intros l; apply process_still, H).
  destruct (st c1); auto.
  - destruct late; auto. cbv zeta. destruct (broken _); auto. pose proof (deed_still T _ (Say reconnect k') (P None)) as (_ & E). split; [reflexivity|exact E].
  - cbv zeta. destruct (broken _); [auto|exact (P None)].
Qed.
Lemma run_still T l : forall c, still T c -> still T (fold_left step l c).
Proof. induction l as [|a l IH]; intros c H; [exact H|]. cbn [fold_left]. apply IH, step_still, H. Qed.

(** ** A connection on which bytes are taken *)
Definition same_end (c c' : conn) : Prop :=
  st c' = st c /\ down c' = down c /\ gone c' = gone c /\ said c' = said c /\ taken c' = taken c /\ sendBuffer c' = sendBuffer c.
Lemma process_quiet fuel : forall limit c, same_end c (process fuel limit [] c).
Proof.
  induction fuel as [|f IH]; intros limit c; [repeat split|]. cbn [process]. destruct (SParseHTTP (recvBuffer c)) as [|[|n] m t b| | ]; try (repeat split; fail).
  cbn [hd tl do_deeds fold_left].
  assert (Q : forall l, same_end c (process f l [] (pop (S n) (m, t, b) c))).
  { intros l. destruct (IH l (pop (S n) (m, t, b) c)) as (A & B & C & D & E & F). repeat split; assumption. }
  destruct limit as [[|[|l]]|]; auto; repeat split.
Qed.
