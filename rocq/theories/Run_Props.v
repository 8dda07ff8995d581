(** C31: a command is carried out at most once, is answered once and is not lost. *)
From Verif Require Import Base Http_Model Messenger_Spec Messenger_Model Messenger_Props Run_Spec Run_Model.

Lemma times_app p a b : times p (a ++ b) = times p a + times p b.
Proof. unfold times. rewrite filter_app, app_length. reflexivity. Qed.
Lemma times_zero p l : times p l = 0 <-> forall e, In e l -> p e = false.
Proof.
  unfold times. split.
  - intros H e Hin. destruct (p e) eqn:E; [|reflexivity]. exfalso. assert (X : In e (filter p l)) by (apply filter_In; auto). destruct (filter p l); [destruct X|discriminate].
  - intros H. induction l as [|a l IH]; [reflexivity|]. cbn [filter]. rewrite (H a (or_introl eq_refl)). apply IH. intros e He. apply H. right. exact He.
Qed.

(** ** One call of the messenger *)
Lemma composed_nonempty gz m t c w : SComposeHTTP gz m t c = Some w -> w <> [].
Proof. unfold SComposeHTTP. destruct (forallb method_char m); [|discriminate]. intros E. injection E as <-. destruct m; discriminate. Qed.
Lemma throws_unsent leader l : forall c s c' k, runOnPeer leader None l c = (s, c', k) -> c' = c /\ k <> Returns true.
Proof.
  induction l as [|e l IH]; intros c s c' k; cbn [runOnPeer]; [intros E; injection E as _ <- <-; split; [reflexivity|discriminate]|].
  destruct e as [leading| |t r aborted]; [destruct (leader && leading); [|apply IH]| |]; intros E; injection E as _ <- <-; split; (reflexivity || discriminate).
Qed.
Lemma returns_true leader w l : forall c s c', runOnPeer leader (Some w) l c = (s, c', Returns true) -> complete c' = true.
Proof.
  induction l as [|e l IH]; intros c s c'; cbn [runOnPeer]; [discriminate|].
  destruct e as [leading| |t r aborted]; [destruct (leader && leading); [discriminate|apply IH]|discriminate|].
  cbn [_sendCommandOnSocket]. destruct (send_loop w t) as [s1 [[|]| |]]; try discriminate.
  - destruct (recv_loop [] r) as [c1 [[|]| |]] eqn:ER; try discriminate.
    + intros E. injection E as _ <-. exact (recv_over _ _ _ _ ER).
    + destruct aborted; [|discriminate]. intros E. injection E as _ <-. reflexivity.
  - destruct aborted; [|discriminate]. intros E. injection E as _ <-. reflexivity.
Qed.
(* sent in full, the command is complete when the call returns *)
Lemma send_spec why leader q c ev c' k : send why leader q c = (ev, c', k) ->
  (ev = [] \/ exists w s, ev = [Sent why w s]) /\
  (times Run_Spec.carried_out ev = 1 -> forall b, k = Returns b -> complete c' = true) /\
  (complete c = true -> complete c' = true \/ k = Throws \/ k = Running) /\
  (k = Returns true -> complete c' = true).
Proof.
  unfold send. destruct (SComposeHTTP _ _ _ _) as [w|] eqn:EW.
  - destruct (runOnPeer leader (Some w) (q_looks q) c) as [[s c1] k1] eqn:E. intros X. injection X as <- <- <-.
    split; [right; eexists _, _; reflexivity|]. pose proof (run_cases _ _ _ _ _ _ _ E (composed_nonempty _ _ _ _ _ EW)) as (rest & HR & HC).
    split; [|split].
    + intros HT b ->. unfold times in HT. cbn [filter Run_Spec.carried_out] in HT. destruct (bytes_eqb w s) eqn:B; [|discriminate].
      apply bytes_eqb_eq in B. subst s. assert (rest = []) by (apply (app_inv_head w); rewrite app_nil_r; symmetry; exact HR). subst rest.
      destruct HC as [(X & _)|(_ & X)]; [congruence|exact (X b eq_refl)].
    + intros HCc. destruct HC as [(_ & [-> | (X & _)])|(_ & X)]; [left; exact HCc|left; exact X|].
      destruct k1 as [b| |]; [left; exact (X b eq_refl)|right; left; reflexivity|right; right; reflexivity].
    + intros ->. exact (returns_true _ _ _ _ _ _ E).
  - destruct (runOnPeer leader None (q_looks q) c) as [[s c1] k1] eqn:E. intros X. injection X as <- <- <-.
    destruct (throws_unsent _ _ _ _ _ _ E) as [-> HK]. split; [left; reflexivity|]. split; [discriminate|]. split; [intros H; left; exact H|]. congruence.
Qed.
Lemma send_no_end why leader q c ev c' k : send why leader q c = (ev, c', k) -> times is_end ev = 0 /\ times Run_Spec.carried_out ev <= 1.
Proof.
  intros E. destruct (send_spec _ _ _ _ _ _ _ E) as ([-> | (w & s & ->)] & _); [split; [reflexivity|cbn; lia]|]. split; [reflexivity|].
  unfold times. cbn [filter Run_Spec.carried_out]. destruct (bytes_eqb w s); cbn [List.length]; lia.
Qed.

(** ** How a run ends *)
Definition last_is (p : event -> bool) (l : list event) : Prop := exists l' e, l = l' ++ [e] /\ p e = true /\ times is_end l' = 0.
Definition replied_or_stopped (e : event) : bool := match e with Replied _ | Stopped => true | _ => false end.
Definition ends_well (ev : list event) (n : next) : Prop :=
  match n with
  | Again => times is_end ev = 0
  | Over => last_is replied_or_stopped ev
  | Waits _ => last_is is_queued ev
  | Stuck => times is_end ev = 0
  end.
Lemma last_alone p e : p e = true -> last_is p [e].
Proof. intros H. exists [], e. repeat split. exact H. Qed.
Lemma last_after p a l : times is_end a = 0 -> last_is p l -> last_is p (a ++ l).
Proof. intros HA (l' & e & -> & H1 & H2). exists (a ++ l'), e. rewrite app_assoc. split; [reflexivity|]. split; [exact H1|]. rewrite times_app. lia. Qed.
Lemma ends_after ev0 ev n : times is_end ev0 = 0 -> ends_well ev n -> ends_well (ev0 ++ ev) n.
Proof. intros H. destruct n; cbn [ends_well]; intros X; [rewrite times_app; lia|apply last_after; assumption|apply last_after; assumption|rewrite times_app; lia]. Qed.
Lemma escalate_ends q c ev n : escalate q c = (ev, n) -> ends_well ev n.
Proof.
  unfold escalate. destruct (send NeedsWrite true q c) as [[ev1 c1] k] eqn:E. apply send_no_end in E as [E _].
  destruct k as [[|]| |]; intros X; injection X as <- <-; cbn [ends_well]; try exact E; (apply last_after; [exact E|apply last_alone; reflexivity]).
Qed.
Lemma later_ends t c ev n : later t c = (ev, n) -> ends_well ev n.
Proof. destruct t as [[|]| |]; intros X; injection X as <- <-; cbn [ends_well]; try reflexivity; apply last_alone; reflexivity. Qed.
Lemma pass_ends p c ev n : one_pass p c = (ev, n) -> ends_well ev n.
Proof.
  unfold one_pass. repeat match goal with |- context [if ?b then _ else _] => match b with p_commit p => fail 1 | _ => destruct b end end;
  repeat match goal with |- context [match ?x with _ => _ end] => destruct x end; cbn [negb app];
  try (intros X; injection X as <- <-; cbn [ends_well]; try reflexivity; first [apply last_alone; reflexivity | apply (last_after _ [_]); [reflexivity|apply last_alone; reflexivity]]);
  try apply escalate_ends; try apply later_ends.
Qed.
Lemma loop_ends ps : forall c ev n, loop ps c = (ev, n) -> ends_well ev n /\ n <> Again.
Proof.
  induction ps as [|p ps IH]; intros c ev n; cbn [loop]; [intros X; injection X as <- <-; split; [reflexivity|discriminate]|].
  destruct (one_pass p c) as [ev1 n1] eqn:E. pose proof (pass_ends _ _ _ _ E) as H. destruct n1.
  - destruct (loop ps c) as [ev2 n2] eqn:E2. intros X. injection X as <- <-. destruct (IH _ _ _ E2) as [A B]. split; [|exact B]. apply ends_after; assumption.
  - intros X. injection X as <- <-. split; [exact H|discriminate].
  - intros X. injection X as <- <-. split; [exact H|discriminate].
  - intros X. injection X as <- <-. split; [exact H|discriminate].
Qed.
Lemma first_ends s c ev c1 o : first_escalation s c = (ev, c1, o) -> match o with None => times is_end ev = 0 | Some n => ends_well ev n /\ n <> Again end.
Proof.
  unfold first_escalation. destruct (_ && _ && _); [|intros X; injection X as <- <- <-; reflexivity].
  destruct (if s_at_once s then _ else _) as [[ev1 c2] k1] eqn:E1.
  assert (H1 : times is_end ev1 = 0). { destruct (s_at_once s); [apply (send_no_end _ _ _ _ _ _ _ E1)|injection E1 as <- _ _; reflexivity]. }
  destruct k1 as [[|]| |].
  - intros X. injection X as <- <- <-. exact H1.
  - destruct (s_other s).
    + destruct (send OtherVersion false (s_to_other s) c2) as [[ev2 c3] k2] eqn:E2. apply send_no_end in E2 as [H2 _].
      assert (H12 : times is_end (ev1 ++ ev2) = 0) by (rewrite times_app; lia).
      destruct k2 as [[|]| |]; intros X; injection X as <- <- <-.
      * exact H12.
      * split; [|discriminate]. rewrite app_assoc. apply last_after; [exact H12|apply last_alone; reflexivity].
      * split; [|discriminate]. rewrite app_assoc. apply last_after; [exact H12|apply last_alone; reflexivity].
      * split; [exact H12|discriminate].
    + intros X; injection X as <- <- <-. split; [|discriminate]. apply last_after; [exact H1|apply last_alone; reflexivity].
  - intros X; injection X as <- <- <-. split; [|discriminate]. apply last_after; [exact H1|apply last_alone; reflexivity].
  - intros X; injection X as <- <- <-. split; [exact H1|discriminate].
Qed.
Lemma forward_ends s c ev c1 o : forward s c = (ev, c1, o) -> match o with None => times is_end ev = 0 | Some n => ends_well ev n /\ n <> Again end.
Proof.
  unfold forward. destruct (s_state2 s); try (intros X; injection X as <- <- <-; reflexivity).
  destruct (send Synchronizing false (s_sync s) c) as [[ev1 c2] k1] eqn:E1. apply send_no_end in E1 as [H1 _].
  destruct k1 as [b| |]; intros X; injection X as <- <- <-; [exact H1| |split; [exact H1|discriminate]].
  split; [|discriminate]. apply last_after; [exact H1|apply last_alone; reflexivity].
Qed.
(** Every run of a command ends in exactly one way, and that is the last thing that happens: the client is answered, or the
    command is in exactly one queue, or the server stops.  (Stuck: the run has not ended.) *)
Theorem C31_not_lost : forall s ps c ev n, run s ps c = (ev, n) ->
  match n with
  | Again => False
  | Over => last_is replied_or_stopped ev
  | Waits _ => last_is is_queued ev
  | Stuck => times is_end ev = 0
  end.
Proof.
  intros s ps c ev n E. enough (H : ends_well ev n /\ n <> Again) by (destruct H as [H NA]; destruct n; [congruence|exact H|exact H|exact H]).
  revert E. unfold run. repeat match goal with |- (if ?b then _ else _) = _ -> _ => destruct b; [intros X; injection X as <- <-; split; [apply last_alone; reflexivity|discriminate]|] end.
  destruct (first_escalation s c) as [[ev1 c1] n1] eqn:E1. apply first_ends in E1. destruct n1 as [n1|]; [intros X; injection X as <- <-; exact E1|].
  destruct (forward s c1) as [[ev2 c2] n2] eqn:E2. apply forward_ends in E2.
  destruct n2 as [n2|]; [intros X; injection X as <- <-; destruct E2 as [A B]; split; [apply ends_after; assumption|exact B]|].
  assert (H12 : times is_end (ev1 ++ ev2) = 0) by (rewrite times_app; lia).
  destruct (complete c2); [intros X; injection X as <- <-; rewrite app_assoc; split; [|discriminate]; apply last_after; [exact H12|apply last_alone; reflexivity]|].
  destruct (s_synchronous s && is_leading (s_state3 s)).
  - destruct (s_room s); intros X; injection X as <- <-; rewrite app_assoc; (split; [|discriminate]; apply last_after; [exact H12|apply last_alone; reflexivity]).
  - destruct (loop ps c2) as [ev3 n3] eqn:E3. apply loop_ends in E3 as [A B]. intros X. injection X as <- <-. rewrite app_assoc. split; [apply ends_after; assumption|exact B].
Qed.
Print Assumptions C31_not_lost.

(** Over all the runs of a command there is at most one answer, and nothing happens after it. *)
Theorem C31_one_reply : forall rs c ev n, life rs c = (ev, n) ->
  times is_reply ev <= 1 /\ forall a s b, ev = a ++ Replied s :: b -> b = [].
Proof.
  assert (SUB : forall l, times is_end l = 0 -> times is_reply l = 0).
  { intros l H. apply times_zero. intros e Hin. pose proof (proj1 (times_zero _ _) H e Hin). destruct e; try reflexivity; discriminate. }
  assert (NONE : forall l a s b, times is_reply l = 0 -> l = a ++ Replied s :: b -> False).
  { intros l a s b H E. pose proof (proj1 (times_zero _ _) H (Replied s)) as X. cbn [is_reply] in X. enough (true = false) by discriminate. apply X. rewrite E. apply in_or_app. right. left. reflexivity. }
  assert (LAST : forall p l, last_is p l -> times is_reply l <= 1 /\ forall a s b, l = a ++ Replied s :: b -> b = []).
  { intros p l (l' & e & -> & _ & H0). apply SUB in H0. split; [rewrite times_app, H0; unfold times; cbn [filter]; destruct (is_reply e); cbn [List.length]; lia|].
    intros a s b E. destruct b as [|x b] using rev_ind; [reflexivity|exfalso]. rewrite app_comm_cons, app_assoc in E. apply app_inj_tail in E as [E _].
    exact (NONE _ _ _ _ H0 E). }
  intros rs. induction rs as [|[s ps] rs IH]; intros c ev n; cbn [life].
  - intros X. injection X as <- <-. split; [cbn; lia|]. intros a s b E. destruct a; discriminate.
  - destruct (run s ps c) as [ev1 n1] eqn:E. pose proof (C31_not_lost _ _ _ _ _ E) as H. destruct n1 as [| |c1|].
    + destruct H.
    + intros X. injection X as <- <-. exact (LAST _ _ H).
    + assert (Z : times is_reply ev1 = 0).
      { destruct H as (l' & e & -> & He & H0). rewrite times_app, (SUB _ H0). destruct e; try discriminate. reflexivity. }
      destruct (life rs c1) as [ev2 n2] eqn:E2. intros X. injection X as <- <-. destruct (IH _ _ _ E2) as [A B]. split; [rewrite times_app; lia|].
      intros a s' b E'. destruct (app_eq_app _ _ _ _ E') as (z & [[F1 F2]|[F1 F2]]).
      * destruct z as [|y z]; [cbn [app] in F2; symmetry in F2; exact (B [] s' b F2)|]. cbn [app] in F2. injection F2 as <- F2. exfalso. exact (NONE _ _ _ _ Z F1).
      * exact (B z s' b F2).
    + intros X. injection X as <- <-. split; [rewrite (SUB _ H); lia|]. intros a s' b E'. exfalso. exact (NONE _ _ _ _ (SUB _ H) E').
Qed.
Print Assumptions C31_one_reply.

(** ** At most once *)
(** The three ways in which a command can be carried out a second time. *)
Definition excused (ev : list event) : Prop :=
  In (Committed false) ev \/ (exists w, In (Sent Synchronizing w w) ev) \/ (exists w w', In (Sent AtOnce w w) ev /\ In (Sent OtherVersion w' w') ev).
Lemma excused_app a b : excused a \/ excused b -> excused (a ++ b).
Proof.
  unfold excused. intros [[H|[(w & H)|(w & w' & H & H')]]|[H|[(w & H)|(w & w' & H & H')]]].
  - left. apply in_or_app. auto.
  - right. left. exists w. apply in_or_app. auto.
  - right. right. exists w, w'. split; apply in_or_app; auto.
  - left. apply in_or_app. auto.
  - right. left. exists w. apply in_or_app. auto.
  - right. right. exists w, w'. split; apply in_or_app; auto.
Qed.
Notation carried := (times Run_Spec.carried_out).
Lemma carried_end (l : list event) e : is_end e = true -> carried (l ++ [e]) = carried l.
Proof. intros H. rewrite times_app. unfold times at 2. cbn [filter]. destruct e; try discriminate; cbn; lia. Qed.
(* what a pass or a run may do: at most once, and once means it is over or complete *)
Definition good (ev : list event) (n : next) : Prop :=
  excused ev \/ carried ev <= 1 /\
    match n with Again => carried ev = 0 | Waits c => carried ev = 1 -> complete c = true | _ => True end.
Lemma escalate_good q c ev n : escalate q c = (ev, n) -> good ev n.
Proof.
  unfold escalate. destruct (send NeedsWrite true q c) as [[ev1 c1] k] eqn:E. destruct (send_spec _ _ _ _ _ _ _ E) as (_ & H2 & _). apply send_no_end in E as [_ E].
  destruct k as [[|]| |]; intros X; injection X as <- <-; right; rewrite ?carried_end by reflexivity; split; auto. intros H. exact (H2 H false eq_refl).
Qed.
Lemma later_good t c ev n : later t c = (ev, n) -> good ev n.
Proof. destruct t as [[|]| |]; intros X; injection X as <- <-; right; cbn; repeat split; try lia; discriminate. Qed.
Lemma pass_good p c ev n : one_pass p c = (ev, n) -> good ev n.
Proof.
  unfold one_pass. destruct (p_expired p); [intros X; injection X as <- <-; right; cbn; split; auto|].
  destruct (p_future p); [intros X; injection X as <- <-; right; cbn; split; auto; discriminate|].
  destruct (p_prepeeked p); [intros X; injection X as <- <-; right; cbn; split; auto|].
  destruct (p_peek p); [intros X; injection X as <- <-; right; cbn; split; auto|].
  destruct (p_https p); [intros X; injection X as <- <-; right; cbn; split; auto|].
  destruct (p_ready p); cbn [negb]; [|intros X; injection X as <- <-; right; cbn; split; auto; discriminate].
  destruct (is_leading (p_state p)); cbn [negb]; [|apply escalate_good].
  destruct (p_process p) as [| |[|]].
  - destruct (is_leading (p_state_after p)); cbn [negb].
    + destruct (p_commit p); [intros X; injection X as <- <-; right; cbn; split; auto|].
      destruct (p_expired_after p); [intros X; injection X as <- <-; right; cbn; split; auto|apply later_good].
    + destruct (p_commit p); intros X; injection X as <- <-; [left; left; left; reflexivity|right; cbn; split; auto].
  - intros X; injection X as <- <-; right; cbn; split; auto.
  - intros X; injection X as <- <-; right; cbn; split; auto.
  - apply later_good.
Qed.
Lemma loop_good ps : forall c ev n, loop ps c = (ev, n) -> good ev n.
Proof.
  induction ps as [|p ps IH]; intros c ev n; cbn [loop]; [intros X; injection X as <- <-; right; cbn; split; auto|].
  destruct (one_pass p c) as [ev1 n1] eqn:E. pose proof (pass_good _ _ _ _ E) as H. destruct n1; try (intros X; injection X as <- <-; exact H).
  destruct (loop ps c) as [ev2 n2] eqn:E2. intros X. injection X as <- <-. destruct H as [H|[_ H]]; [left; apply excused_app; auto|].
  destruct (IH _ _ _ E2) as [A|[A B]]; [left; apply excused_app; auto|right]. rewrite times_app, H. cbn [plus]. split; assumption.
Qed.
Lemma carried_sent why w s : carried [Sent why w s] = if bytes_eqb w s then 1 else 0.
Proof. unfold times. cbn [filter Run_Spec.carried_out]. destruct (bytes_eqb w s); reflexivity. Qed.
Lemma send_carried why leader q c ev c' k : send why leader q c = (ev, c', k) -> carried ev = 0 \/ exists w, ev = [Sent why w w].
Proof.
  intros E. destruct (send_spec _ _ _ _ _ _ _ E) as ([-> | (w & s & ->)] & _); [left; reflexivity|]. rewrite carried_sent.
  destruct (bytes_eqb w s) eqn:B; [right|left; reflexivity]. apply bytes_eqb_eq in B. subst s. exists w. reflexivity.
Qed.
Definition next_command (o : option next) (c1 : command) : option command := match o with None => Some c1 | Some (Waits c') => Some c' | _ => None end.
Lemma first_good s c ev c1 o : first_escalation s c = (ev, c1, o) ->
  (complete c = true -> ev = [] /\ c1 = c /\ o = None) /\
  (excused ev \/ carried ev <= 1 /\ forall c', next_command o c1 = Some c' -> carried ev = 1 -> complete c' = true).
Proof.
  unfold first_escalation. destruct (_ && _ && _) eqn:G; [|intros X; injection X as <- <- <-; split; [auto|right; cbn; split; [lia|discriminate]]].
  rewrite !andb_true_iff in G. destruct G as [[_ G] _]. apply negb_true_iff in G.
  destruct (if s_at_once s then _ else _) as [[ev1 c2] k1] eqn:E1.
  assert (H1 : (carried ev1 = 0 \/ exists w, ev1 = [Sent AtOnce w w]) /\ (carried ev1 = 1 -> forall b, k1 = Returns b -> complete c2 = true)).
  { destruct (s_at_once s); [split; [apply (send_carried _ _ _ _ _ _ _ E1)|apply (send_spec _ _ _ _ _ _ _ E1)]|injection E1 as <- _ _; split; [left; reflexivity|discriminate]]. }
  destruct H1 as [H1 H2]. assert (L1 : carried ev1 <= 1). { destruct H1 as [-> | (w & ->)]; [lia|]. rewrite carried_sent. destruct (bytes_eqb w w); lia. }
  intros X. split; [congruence|]. revert X. destruct k1 as [[|]| |].
  - intros X. injection X as <- <- <-. right. split; [exact L1|]. intros c' C H. cbn [next_command] in C. injection C as <-. exact (H2 H true eq_refl).
  - destruct (s_other s).
    + destruct (send OtherVersion false (s_to_other s) c2) as [[ev2 c3] k2] eqn:E2. pose proof (send_carried _ _ _ _ _ _ _ E2) as H3. destruct (send_spec _ _ _ _ _ _ _ E2) as (_ & H4 & H5 & _).
      destruct (send_no_end _ _ _ _ _ _ _ E2) as [_ L2].
      assert (D : excused (ev1 ++ ev2) \/ carried (ev1 ++ ev2) <= 1 /\ (forall b, k2 = Returns b -> carried (ev1 ++ ev2) = 1 -> complete c3 = true)).
      { rewrite times_app. destruct H1 as [H1|(w & ->)].
        - right. rewrite H1. split; [lia|]. intros b Hb H. exact (H4 H b Hb).
        - destruct H3 as [H3|(w' & ->)].
          + right. split; [lia|]. intros b Hb _. rewrite carried_sent, bytes_eqb_refl in H2. destruct (H5 (H2 eq_refl false eq_refl)) as [X|[X|X]]; [exact X|congruence|congruence].
          + left. right. right. exists w, w'. split; [left; reflexivity|right; left; reflexivity]. }
      destruct k2 as [[|]| |]; intros X; injection X as <- <- <-.
      * destruct D as [D|[D1 D2]]; [left; exact D|right; split; [exact D1|]]. intros c' C H. injection C as <-. exact (D2 true eq_refl H).
      * rewrite app_assoc. destruct D as [D|[D1 D2]]; [left; apply excused_app; left; exact D|right]. rewrite carried_end by reflexivity. split; [exact D1|]. intros c' C H. injection C as <-. exact (D2 false eq_refl H).
      * rewrite app_assoc. destruct D as [D|[D1 D2]]; [left; apply excused_app; left; exact D|right]. rewrite carried_end by reflexivity. split; [exact D1|]. discriminate.
      * destruct D as [D|[D1 D2]]; [left; exact D|right; split; [exact D1|]]. discriminate.
    + intros X; injection X as <- <- <-. right. rewrite carried_end by reflexivity. split; [exact L1|]. intros c' C H. injection C as <-. exact (H2 H false eq_refl).
  - intros X; injection X as <- <- <-. right. rewrite carried_end by reflexivity. split; [exact L1|discriminate].
  - intros X; injection X as <- <- <-. right. split; [exact L1|discriminate].
Qed.
Lemma forward_good s c ev c1 o : forward s c = (ev, c1, o) ->
  excused ev \/ carried ev = 0 /\ (forall c', o <> Some (Waits c')) /\ (complete c = true -> o = None -> complete c1 = true).
Proof.
  unfold forward. destruct (s_state2 s); try (intros X; injection X as <- <- <-; right; split; [reflexivity|split; [discriminate|auto]]).
  destruct (send Synchronizing false (s_sync s) c) as [[ev1 c2] k1] eqn:E1. pose proof (send_carried _ _ _ _ _ _ _ E1) as H1. destruct (send_spec _ _ _ _ _ _ _ E1) as (_ & _ & H3 & _).
  destruct H1 as [H1|(w & ->)].
  - intros X. right. destruct k1 as [b| |]; injection X as <- <- <-; rewrite ?carried_end by reflexivity; (split; [exact H1|split; [discriminate|]]); try discriminate.
    intros HC _. destruct (H3 HC) as [X|[X|X]]; [exact X|discriminate|discriminate].
  - intros X. left. right. left. exists w. destruct k1 as [b| |]; injection X as <- _ _; left; reflexivity.
Qed.
Lemma run_good s ps c ev n : run s ps c = (ev, n) ->
  good ev n /\ (complete c = true -> excused ev \/ carried ev = 0 /\ forall c', n = Waits c' -> complete c' = true).
Proof.
  unfold run.
  destruct (s_expired s); [intros X; injection X as <- <-; split; [|intros _]; right; cbn; split; auto; discriminate|].
  destruct (s_control s); [intros X; injection X as <- <-; split; [|intros _]; right; cbn; split; auto; discriminate|].
  destruct (s_crash s); [intros X; injection X as <- <-; split; [|intros _]; right; cbn; split; auto; discriminate|].
  destruct (s_not_now s).
  { intros X; injection X as <- <-; split; [right; cbn; split; [lia|discriminate]|]. intros HC. right. split; [reflexivity|]. intros c' E; injection E as <-; exact HC. }
  destruct (s_expired_waiting s); [intros X; injection X as <- <-; split; [|intros _]; right; cbn; split; auto; discriminate|].
  destruct (first_escalation s c) as [[ev1 c1] n1] eqn:E1. pose proof (first_ends _ _ _ _ _ E1) as NA. apply first_good in E1 as [P1 P2]. destruct n1 as [n1|].
  { intros X. injection X as <- <-. split.
    - destruct P2 as [P2|[P2 P3]]; [left; exact P2|right; split; [exact P2|]]. destruct n1 as [| |c'|]; [destruct NA; congruence|exact I|intros H; exact (P3 _ eq_refl H)|exact I].
    - intros HC. destruct (P1 HC) as (_ & _ & X). discriminate. }
  destruct (forward s c1) as [[ev2 c2] n2] eqn:E2. pose proof (forward_ends _ _ _ _ _ E2) as NA2. apply forward_good in E2 as [Q|(Q1 & Q2 & Q3)].
  { assert (EX : forall l, excused ((ev1 ++ ev2) ++ l)) by (intros l; apply excused_app; left; apply excused_app; right; exact Q).
    assert (EX0 : excused (ev1 ++ ev2)) by (apply excused_app; right; exact Q).
    intros X. enough (excused ev) by (split; [|intros _]; left; assumption). revert X.
    destruct n2; [intros X; injection X as <- _; exact EX0|]. destruct (complete c2); [intros X; injection X as <- _; rewrite app_assoc; apply EX|].
    destruct (_ && _); [destruct (s_room s); intros X; injection X as <- _; rewrite app_assoc; apply EX|].
    destruct (loop ps c2) as [ev3 n3]. intros X; injection X as <- _; rewrite app_assoc; apply EX. }
  destruct P2 as [P2|[P2 P3]].
  { assert (EX : forall l, excused (ev1 ++ l)) by (intros l; apply excused_app; left; exact P2).
    intros X. enough (excused ev) by (split; [|intros _]; left; assumption). revert X.
    destruct n2; [intros X; injection X as <- _; apply EX|]. destruct (complete c2); [intros X; injection X as <- _; apply EX|].
    destruct (_ && _); [destruct (s_room s); intros X; injection X as <- _; apply EX|].
    destruct (loop ps c2) as [ev3 n3]. intros X; injection X as <- _; apply EX. }
  assert (C12 : carried (ev1 ++ ev2) = carried ev1) by (rewrite times_app; lia).
  destruct n2 as [n2|].
  { intros X. injection X as <- <-. split.
    - right. rewrite C12. split; [exact P2|]. destruct n2 as [| |c'|]; [destruct NA2; congruence|exact I|exfalso; exact (Q2 _ eq_refl)|exact I].
    - intros HC. destruct (P1 HC) as (-> & _ & _). right. cbn [app]. split; [exact Q1|]. intros c' ->. exfalso. exact (Q2 _ eq_refl). }
  destruct (complete c2) eqn:K2.
  { intros X. injection X as <- <-. rewrite app_assoc. split.
    - right. rewrite carried_end by reflexivity. rewrite C12. split; [exact P2|exact I].
    - intros HC. destruct (P1 HC) as (-> & _ & _). right. rewrite carried_end by reflexivity. cbn [app]. split; [exact Q1|discriminate]. }
  assert (Z : carried ev1 = 0).
  { destruct (Nat.eq_dec (carried ev1) 1) as [E|E]; [|lia]. pose proof (P3 _ eq_refl E) as X. discriminate (Q3 X eq_refl). }
  assert (NC : complete c = true -> False). { intros HC. destruct (P1 HC) as (_ & -> & _). discriminate (Q3 HC eq_refl). }
  intros X. split; [|intros HC; destruct (NC HC)]. revert X.
  destruct (_ && _).
  - destruct (s_room s); intros X; injection X as <- <-; rewrite app_assoc; right; rewrite carried_end by reflexivity; rewrite C12, Z; (split; [lia|]); try exact I; discriminate.
  - destruct (loop ps c2) as [ev3 n3] eqn:E3. apply loop_good in E3. intros X. injection X as <- <-. rewrite app_assoc. destruct E3 as [E3|E3]; [left; apply excused_app; right; exact E3|right].
    rewrite times_app, C12, Z. exact E3.
Qed.
Lemma life_good rs : forall c ev n, life rs c = (ev, n) ->
  (excused ev \/ carried ev <= 1) /\ (complete c = true -> excused ev \/ carried ev = 0).
Proof.
  induction rs as [|[s ps] rs IH]; intros c ev n; cbn [life]; [intros X; injection X as <- _; split; [|intros _]; right; cbn; lia|].
  destruct (run s ps c) as [ev1 n1] eqn:E. pose proof (C31_not_lost _ _ _ _ _ E) as NA. apply run_good in E as [A B].
  assert (STOP : (excused ev1 \/ carried ev1 <= 1) /\ (complete c = true -> excused ev1 \/ carried ev1 = 0)).
  { split; [destruct A as [A|[A _]]; auto|intros HC; destruct (B HC) as [X|[X _]]; auto]. }
  destruct n1 as [| |c1|]; [destruct NA|intros X; injection X as <- _; exact STOP| |intros X; injection X as <- _; exact STOP].
  destruct (life rs c1) as [ev2 n2] eqn:E2. destruct (IH _ _ _ E2) as [I1 I2]. intros X. injection X as <- _.
  destruct A as [A|[A1 A2]]; [split; [|intros _]; left; apply excused_app; auto|]. split.
  - destruct (Nat.eq_dec (carried ev1) 1) as [O1|O1].
    + destruct (I2 (A2 O1)) as [X|X]; [left; apply excused_app; auto|right; rewrite times_app; lia].
    + destruct I1 as [X|X]; [left; apply excused_app; auto|right; rewrite times_app; lia].
  - intros HC. destruct (B HC) as [X|[X Y]]; [left; apply excused_app; auto|]. destruct (I2 (Y c1 eq_refl)) as [Z|Z]; [left; apply excused_app; auto|right; rewrite times_app; lia].
Qed.
(** Over all the runs of a command it is carried out at most once, unless one of three things happens: the node stops leading
    between the commit and the look at its state; the node is synchronizing and sends it on; it is to be
    escalated at once and the node has another version than the leader. *)
Theorem C31_at_most_once : forall rs c ev n, life rs c = (ev, n) ->
  times Run_Spec.carried_out ev <= 1 \/
  In (Committed false) ev \/ (exists w, In (Sent Synchronizing w w) ev) \/
  (exists w w', In (Sent AtOnce w w) ev /\ In (Sent OtherVersion w' w') ev).
Proof. intros rs c ev n E. destruct (life_good _ _ _ _ E) as [[H|H] _]; [right; exact H|left; exact H]. Qed.
Print Assumptions C31_at_most_once.

(** ** Answers say what happened *)
Definition sent_some (ev : list event) : Prop := exists why w b, In (Sent why w b) ev.
Definition honest (ev : list event) (c : command) (n : next) : Prop :=
  (In (Replied Commit) ev -> In (Committed true) ev) /\
  (In (Replied Peer) ev -> complete c = true \/ sent_some ev) /\
  (forall c', n = Waits c' -> complete c' = true -> complete c = true \/ sent_some ev).
Lemma sent_l a b : sent_some a -> sent_some (a ++ b).
Proof. intros (y & w & x & H). exists y, w, x. apply in_or_app. auto. Qed.
Lemma sent_r a b : sent_some b -> sent_some (a ++ b).
Proof. intros (y & w & x & H). exists y, w, x. apply in_or_app. auto. Qed.
Lemma send_shows why leader q c ev c' k : send why leader q c = (ev, c', k) ->
  sent_some ev /\ (forall s, ~ In (Replied s) ev) \/ ev = [] /\ c' = c /\ k <> Returns true.
Proof.
  unfold send. destruct (SComposeHTTP _ _ _ _) as [w|]; destruct (runOnPeer _ _ _ _) as [[s c1] k1] eqn:E; intros X; injection X as <- <- <-.
  - left. split; [eexists _, _, _; left; reflexivity|]. intros x [H|[]]. discriminate.
  - right. destruct (throws_unsent _ _ _ _ _ _ E). auto.
Qed.
Lemma honest_end ev e c n : (forall s, ~ In (Replied s) ev) -> (e = Replied Commit -> In (Committed true) ev) ->
  (e = Replied Peer -> complete c = true \/ sent_some ev) ->
  (forall c', n = Waits c' -> complete c' = true -> complete c = true \/ sent_some ev) -> honest (ev ++ [e]) c n.
Proof.
  intros H1 H2 H3 H4. assert (IN : forall s, In (Replied s) (ev ++ [e]) -> e = Replied s).
  { intros s H. apply in_app_or in H as [H|[H|[]]]; [destruct (H1 _ H)|exact H]. }
  split; [|split].
  - intros H. apply in_or_app. left. apply H2. apply IN. exact H.
  - intros H. destruct (H3 (IN _ H)) as [X|X]; [left; exact X|right; apply sent_l; exact X].
  - intros c' E K. destruct (H4 c' E K) as [X|X]; [left; exact X|right; apply sent_l; exact X].
Qed.
Lemma honest_none ev c n : (forall s, ~ In (Replied s) ev) -> (forall c', n <> Waits c') -> honest ev c n.
Proof. intros H1 H2. split; [intros H; destruct (H1 _ H)|]. split; [intros H; destruct (H1 _ H)|]. intros c' E. destruct (H2 _ E). Qed.
Lemma escalate_honest q c ev n : escalate q c = (ev, n) -> honest ev c n.
Proof.
  unfold escalate. destruct (send NeedsWrite true q c) as [[ev1 c1] k] eqn:E. apply send_shows in E.
  destruct E as [(E1 & E2)|(-> & -> & E)].
  - destruct k as [[|]| |]; intros X; injection X as <- <-; try (apply honest_end; [exact E2|discriminate|auto|auto]). apply honest_none; [exact E2|discriminate].
  - destruct k as [[|]| |]; [congruence| | |]; intros X; injection X as <- <-; try (apply (honest_end []); [intros s []|discriminate|discriminate|]);
      [intros c' X; injection X as <-; auto|discriminate|]. apply honest_none; [intros s []|discriminate].
Qed.
Lemma later_honest t c ev n : later t c = (ev, n) -> honest ev c n.
Proof.
  destruct t as [[|]| |]; intros X; injection X as <- <-.
  - apply (honest_end []); [intros s []|discriminate|discriminate|]. intros c' X. injection X as <-. auto.
  - apply (honest_end []); [intros s []|discriminate|discriminate|discriminate].
  - apply honest_none; [intros s []|discriminate].
  - apply (honest_end []); [intros s []|discriminate|discriminate|]. intros c' X. injection X as <-. auto.
Qed.
Lemma pass_honest p c ev n : one_pass p c = (ev, n) -> honest ev c n.
Proof.
  assert (ONE : forall e m, (e <> Replied Commit) -> e <> Replied Peer -> (forall c', m = Waits c' -> c' = c) -> honest [e] c m).
  { intros e m H1 H2 H3. apply (honest_end []); [intros s []|congruence|congruence|]. intros c' E K. left. rewrite <- (H3 c' E). exact K. }
  unfold one_pass. destruct (p_expired p); [intros X; injection X as <- <-; apply ONE; discriminate|].
  destruct (p_future p); [intros X; injection X as <- <-; apply ONE; try discriminate; intros c' X; injection X as <-; reflexivity|].
  destruct (p_prepeeked p); [intros X; injection X as <- <-; apply ONE; discriminate|].
  destruct (p_peek p); [intros X; injection X as <- <-; apply ONE; discriminate|].
  destruct (p_https p); [intros X; injection X as <- <-; apply honest_none; [intros s []|discriminate]|].
  destruct (p_ready p); cbn [negb]; [|intros X; injection X as <- <-; apply ONE; try discriminate; intros c' X; injection X as <-; reflexivity].
  destruct (is_leading (p_state p)); cbn [negb]; [|apply escalate_honest].
  destruct (p_process p) as [| |[|]]; [|intros X; injection X as <- <-; apply ONE; discriminate|intros X; injection X as <- <-; apply ONE; discriminate|apply later_honest].
  destruct (is_leading (p_state_after p)); cbn [negb].
  - destruct (p_commit p); [intros X; injection X as <- <-; apply (honest_end [_]); [intros s [H|[]]; discriminate|intros _; left; reflexivity|discriminate|discriminate]|].
    destruct (p_expired_after p); [intros X; injection X as <- <-; apply ONE; discriminate|apply later_honest].
  - intros X; injection X as <- <-; apply honest_none; [|discriminate]. intros s. destruct (p_commit p); [intros [H|[]]; discriminate|intros []].
Qed.
Lemma no_reply_end l : times is_end l = 0 -> forall s, ~ In (Replied s) l.
Proof. intros H s Hin. pose proof (proj1 (times_zero _ _) H _ Hin). discriminate. Qed.
Lemma loop_honest ps : forall c ev n, loop ps c = (ev, n) -> honest ev c n.
Proof.
  induction ps as [|p ps IH]; intros c ev n; cbn [loop]; [intros X; injection X as <- <-; apply honest_none; [intros s []|discriminate]|].
  destruct (one_pass p c) as [ev1 n1] eqn:E. pose proof (pass_ends _ _ _ _ E) as HE. apply pass_honest in E. destruct n1; try (intros X; injection X as <- <-; exact E).
  destruct (loop ps c) as [ev2 n2] eqn:E2. intros X. injection X as <- <-. destruct (IH _ _ _ E2) as (A & B & C). cbn [ends_well] in HE. pose proof (no_reply_end _ HE) as N.
  split; [|split].
  - intros H. apply in_app_or in H as [H|H]; [destruct (N _ H)|]. apply in_or_app. right. exact (A H).
  - intros H. apply in_app_or in H as [H|H]; [destruct (N _ H)|]. destruct (B H); [left; assumption|right; apply sent_r; assumption].
  - intros c' X K. destruct (C c' X K); [left; assumption|right; apply sent_r; assumption].
Qed.
(* the parts before the loop: they only complete the command by sending it *)
Lemma first_shows s c ev c1 o : first_escalation s c = (ev, c1, o) ->
  (forall x, ~ In (Replied x) ev) /\ (complete c1 = true -> complete c = true \/ sent_some ev) /\
  (forall c', o = Some (Waits c') -> c' = c1).
Proof.
  unfold first_escalation. destruct (_ && _ && _); [|intros X; injection X as <- <- <-; split; [intros x []|split; [auto|discriminate]]].
  destruct (if s_at_once s then _ else _) as [[ev1 c2] k1] eqn:E1.
  assert (H1 : (forall x, ~ In (Replied x) ev1) /\ (sent_some ev1 \/ c2 = c)).
  { destruct (s_at_once s); [|injection E1 as <- <- _; split; [intros x []|right; reflexivity]].
    apply send_shows in E1 as [[A B]|(-> & -> & _)]; [split; [exact B|left; exact A]|split; [intros x []|right; reflexivity]]. }
  destruct H1 as [N1 S1].
  assert (K1 : complete c2 = true -> complete c = true \/ sent_some ev1) by (intros H; destruct S1 as [S1| ->]; auto).
  assert (APP : forall l l', (forall x, ~ In (Replied x) l) -> (forall x, ~ In (Replied x) l') -> forall x, ~ In (Replied x) (l ++ l')).
  { intros l l' A B x H. apply in_app_or in H as [H|H]; [exact (A x H)|exact (B x H)]. }
  assert (E1' : forall e, (forall x, e <> Replied x) -> forall x, ~ In (Replied x) [e]) by (intros e HX x [H|[]]; exact (HX x H)).
  assert (K1' : forall l, complete c2 = true -> complete c = true \/ sent_some (ev1 ++ l)) by (intros l H; destruct (K1 H); [left; assumption|right; apply sent_l; assumption]).
  destruct k1 as [[|]| |].
  - intros X; injection X as <- <- <-. split; [exact N1|]. split; [exact K1|discriminate].
  - destruct (s_other s).
    + destruct (send OtherVersion false (s_to_other s) c2) as [[ev2 c3] k2] eqn:E2.
      assert (H2 : (forall x, ~ In (Replied x) ev2) /\ (sent_some ev2 \/ c3 = c2)).
      { apply send_shows in E2 as [[A B]|(-> & -> & _)]; [split; [exact B|left; exact A]|split; [intros x []|right; reflexivity]]. }
      destruct H2 as [N2 S2].
      assert (K2 : forall l, complete c3 = true -> complete c = true \/ sent_some (ev1 ++ ev2 ++ l)).
      { intros l H. destruct S2 as [S2| ->]; [right; apply sent_r, sent_l; exact S2|]. apply K1'. exact H. }
      destruct k2 as [[|]| |]; intros X; injection X as <- <- <-.
      * split; [apply APP; assumption|]. split; [|discriminate]. intros H. rewrite <- (app_nil_r ev2). apply K2. exact H.
      * split; [repeat apply APP; try assumption; apply E1'; discriminate|]. split; [apply K2|]. intros c' X. injection X as <-. reflexivity.
      * split; [repeat apply APP; try assumption; apply E1'; discriminate|]. split; [apply K2|discriminate].
      * split; [apply APP; assumption|]. split; [|discriminate]. intros H. rewrite <- (app_nil_r ev2). apply K2. exact H.
    + intros X; injection X as <- <- <-. split; [apply APP; [assumption|apply E1'; discriminate]|]. split; [apply K1'|]. intros c' X. injection X as <-. reflexivity.
  - intros X; injection X as <- <- <-. split; [apply APP; [assumption|apply E1'; discriminate]|]. split; [apply K1'|discriminate].
  - intros X; injection X as <- <- <-. split; [exact N1|]. split; [exact K1|discriminate].
Qed.
Lemma forward_shows s c ev c1 o : forward s c = (ev, c1, o) ->
  (forall x, ~ In (Replied x) ev) /\ (complete c1 = true -> complete c = true \/ sent_some ev) /\ (forall c', o <> Some (Waits c')).
Proof.
  unfold forward. destruct (s_state2 s); try (intros X; injection X as <- <- <-; split; [intros x []|split; [auto|discriminate]]).
  destruct (send Synchronizing false (s_sync s) c) as [[ev1 c2] k1] eqn:E1.
  assert (H1 : (forall x, ~ In (Replied x) ev1) /\ (sent_some ev1 \/ c2 = c)).
  { apply send_shows in E1 as [[A B]|(-> & -> & _)]; [split; [exact B|left; exact A]|split; [intros x []|right; reflexivity]]. }
  destruct H1 as [N1 S1].
  destruct k1 as [b| |]; intros X; injection X as <- <- <-.
  - split; [exact N1|]. split; [|discriminate]. intros H. destruct S1 as [S1| ->]; auto.
  - split; [intros x H; apply in_app_or in H as [H|[H|[]]]; [exact (N1 x H)|discriminate]|]. split; [|discriminate].
    intros H. destruct S1 as [S1| ->]; [right; apply sent_l; exact S1|left; exact H].
  - split; [exact N1|]. split; [|discriminate]. intros H. destruct S1 as [S1| ->]; auto.
Qed.
Lemma run_honest s ps c ev n : run s ps c = (ev, n) -> honest ev c n.
Proof.
  assert (ONE : forall e m, (e <> Replied Commit) -> e <> Replied Peer -> (forall c', m = Waits c' -> c' = c) -> honest [e] c m).
  { intros e m H1 H2 H3. apply (honest_end []); [intros x []|congruence|congruence|]. intros c' E K. left. rewrite <- (H3 c' E). exact K. }
  unfold run.
  destruct (s_expired s); [intros X; injection X as <- <-; apply ONE; discriminate|].
  destruct (s_control s); [intros X; injection X as <- <-; apply ONE; discriminate|].
  destruct (s_crash s); [intros X; injection X as <- <-; apply ONE; discriminate|].
  destruct (s_not_now s); [intros X; injection X as <- <-; apply ONE; try discriminate; intros c' X; injection X as <-; reflexivity|].
  destruct (s_expired_waiting s); [intros X; injection X as <- <-; apply ONE; discriminate|].
  destruct (first_escalation s c) as [[ev1 c1] n1] eqn:E1. apply first_shows in E1 as (N1 & K1 & W1).
  destruct n1 as [n1|].
  { intros X. injection X as <- <-. split; [intros H; destruct (N1 _ H)|]. split; [intros H; destruct (N1 _ H)|]. intros c' -> K. apply K1. rewrite <- (W1 c' eq_refl). exact K. }
  destruct (forward s c1) as [[ev2 c2] n2] eqn:E2. apply forward_shows in E2 as (N2 & K2 & W2).
  assert (N : forall x, ~ In (Replied x) (ev1 ++ ev2)) by (intros x H; apply in_app_or in H as [H|H]; [exact (N1 x H)|exact (N2 x H)]).
  assert (K : complete c2 = true -> complete c = true \/ sent_some (ev1 ++ ev2)).
  { intros H. destruct (K2 H) as [H'|H']; [|right; apply sent_r; exact H']. destruct (K1 H'); [left; assumption|right; apply sent_l; assumption]. }
  destruct n2 as [n2|]; [intros X; injection X as <- <-; apply honest_none; [exact N|]; intros c' ->; exact (W2 c' eq_refl)|].
  destruct (complete c2) eqn:C2; [intros X; injection X as <- <-; rewrite app_assoc; apply honest_end; [exact N|discriminate|intros _; exact (K eq_refl)|discriminate]|].
  destruct (_ && _); [destruct (s_room s); intros X; injection X as <- <-; rewrite app_assoc; apply honest_end; try exact N; try discriminate; intros c' X; injection X as <-; congruence|].
  destruct (loop ps c2) as [ev3 n3] eqn:E3. apply loop_honest in E3 as (A & B & C). intros X. injection X as <- <-. rewrite app_assoc.
  assert (K' : complete c2 = true \/ sent_some ev3 -> complete c = true \/ sent_some ((ev1 ++ ev2) ++ ev3)).
  { intros [H|H]; [congruence|right; apply sent_r; exact H]. }
  split; [|split].
  - intros H. apply in_app_or in H as [H|H]; [destruct (N _ H)|]. apply in_or_app. right. exact (A H).
  - intros H. apply in_app_or in H as [H|H]; [destruct (N _ H)|]. exact (K' (B H)).
  - intros c' X H. exact (K' (C c' X H)).
Qed.
(** An answer that reports a commit comes after a commit of this node while it led; one that comes from another node comes
    after something was sent. *)
Theorem C31_truthful : forall rs c ev n, complete c = false -> life rs c = (ev, n) ->
  (In (Replied Commit) ev -> In (Committed true) ev) /\
  (In (Replied Peer) ev -> exists why w b, In (Sent why w b) ev).
Proof.
  enough (G : forall rs c ev n, life rs c = (ev, n) -> (In (Replied Commit) ev -> In (Committed true) ev) /\ (In (Replied Peer) ev -> complete c = true \/ sent_some ev)).
  { intros rs c ev n HC E. destruct (G _ _ _ _ E) as [A B]. split; [exact A|]. intros H. destruct (B H) as [X|X]; [congruence|exact X]. }
  intros rs. induction rs as [|[s ps] rs IH]; intros c ev n; cbn [life]; [intros X; injection X as <- _; split; intros []|].
  destruct (run s ps c) as [ev1 n1] eqn:E. pose proof (C31_not_lost _ _ _ _ _ E) as NL. apply run_honest in E as (A & B & C).
  destruct n1 as [| |c1|]; [destruct NL|intros X; injection X as <- _; auto| |intros X; injection X as <- _; auto].
  destruct (life rs c1) as [ev2 n2] eqn:E2. destruct (IH _ _ _ E2) as [I1 I2]. intros X. injection X as <- _. split.
  - intros H. apply in_or_app. apply in_app_or in H as [H|H]; [left; exact (A H)|right; exact (I1 H)].
  - intros H. apply in_app_or in H as [H|H]; [destruct (B H); [left; assumption|right; apply sent_l; assumption]|].
    destruct (I2 H) as [X|X]; [|right; apply sent_r; exact X]. destruct (C c1 eq_refl X); [left; assumption|right; apply sent_l; assumption].
Qed.
Print Assumptions C31_truthful.

(** ** Where the full statement fails *)
Definition nothing : sending := Sending (lit "Query") [] [] (fun b => b) [].
Definition go : start := Start false false false false false LEADING false false nothing nothing LEADING nothing false LEADING true.
Definition write_pass (committed : bool) (before after : state) (q : sending) (e : bool) : pass :=
  Pass e false false Process false true before q NeedsCommit committed after false Sleep.
(** The node commits the command, stops leading before it looks at its state, and runs the command again: here it begins to
    lead again and commits it a second time; the client is answered once. *)
Theorem C31_committed_twice_refuted :
  life [(go, [write_pass true LEADING FOLLOWING nothing false; write_pass true LEADING LEADING nothing false])] waiting
  = ([Committed false; Committed true; Replied Commit], Over).
Proof. reflexivity. Qed.
Print Assumptions C31_committed_twice_refuted.
(** The node commits the command, stops leading before it looks at its state, runs the command again as a follower and sends it
    to the new leader, which carries it out too. *)
Definition to_leader_ok : sending := Sending (lit "Query") [] [] (fun b => b) [Connected [TSent 1000] [RGot (lit "200 OK" ++ CRLF ++ CRLF)] false].
Theorem C31_committed_and_sent_refuted :
  let (ev, n) := life [(go, [write_pass true LEADING FOLLOWING nothing false; write_pass false FOLLOWING FOLLOWING to_leader_ok false])] waiting in
  n = Over /\ times Run_Spec.carried_out ev = 2 /\ last ev Stopped = Replied Peer.
Proof. vm_compute. repeat split. Qed.
Print Assumptions C31_committed_and_sent_refuted.
(** The node commits the command, stops leading before it looks at its state, and finds in the next pass that time is over: the client
    is told 555 although the command is committed. *)
Theorem C31_committed_but_expired_refuted :
  life [(go, [write_pass true LEADING FOLLOWING nothing false; write_pass false LEADING LEADING nothing true])] waiting
  = ([Committed false; Replied Expired], Over).
Proof. reflexivity. Qed.
Print Assumptions C31_committed_but_expired_refuted.

(** A conflict, a command that waits for a commit, loss of leadership without a commit, an escalation that fails for good and is answered
    from the queue. *)
Definition broken : sending := Sending (lit "Query") [] [] (fun b => b) [NoAddress false; Connected [TSent 1000] [RClosed] false].
Definition cut : sending := Sending (lit "Query") [] [] (fun b => b) [Connected [TSent 10; TFatal] [] false].
Example C31_story :
  let (ev, n) := life [(go, [write_pass false LEADING LEADING nothing false; write_pass false LEADING FOLLOWING nothing false; Pass false true false Process false true LEADING nothing NoCommit false LEADING false Sleep]);
                       (go, [write_pass false FOLLOWING FOLLOWING cut false]); (go, [write_pass false FOLLOWING FOLLOWING broken false]); (go, [])] waiting in
  n = Over /\ times Run_Spec.carried_out ev = 1 /\ map is_end ev = [true; false; true; false; true; true] /\ last ev Stopped = Replied Peer.
Proof. vm_compute. repeat split. Qed.
