(** C28: the command port is open only when no block reason is outstanding. *)
From Verif Require Import Base Port_Spec Port_Model.

(** ** Histories from the end *)
Lemma calls_app h1 h2 : forall b, calls b (h1 ++ h2) = calls b h1 ++ calls (lag_after b h1) h2.
Proof.
  induction h1 as [|e h1 IH]; intros b; [reflexivity|].
  destruct e as [r|r|s| |d| |l p o]; cbn [app calls lag_after]; try (rewrite IH; reflexivity).
  destruct (falls_behind l p o && negb b); [cbn [app]; rewrite IH; reflexivity|].
  destruct (catches_up p o && b); [cbn [app]; rewrite IH; reflexivity|]. apply IH.
Qed.
Lemma lag_after_app h1 h2 : forall b, lag_after b (h1 ++ h2) = lag_after (lag_after b h1) h2.
Proof. induction h1 as [|e h1 IH]; intros b; [reflexivity|]. destruct e; cbn [app lag_after]; apply IH. Qed.
Lemma outstanding_snoc h e r : outstanding (h ++ [e]) r =
  fold_left (fun n e => match e with
    | Block r' => if bytes_eqb r r' then S n else n
    | Unblock r' => if bytes_eqb r r' then pred n else n
    | Reset => O
    | _ => n end) (calls (lag_after false h) [e]) (outstanding h r).
Proof. unfold outstanding. rewrite calls_app, fold_left_app. reflexivity. Qed.

Fixpoint times (r : bytes) (l : list bytes) : nat := match l with [] => O | x :: l' => if bytes_eqb r x then S (times r l') else times r l' end.
Lemma times_erase r r' l : times r (erase r' l) = if bytes_eqb r r' then pred (times r l) else times r l.
Proof.
  induction l as [|x l IH]; cbn [erase times]; [destruct (bytes_eqb r r'); reflexivity|].
  destruct (bytes_eqb r' x) eqn:E1.
  - apply bytes_eqb_eq in E1. subst x. destruct (bytes_eqb r r'); reflexivity.
  - cbn [times]. rewrite IH. destruct (bytes_eqb r x) eqn:E2; [|reflexivity].
    apply bytes_eqb_eq in E2. subst x. destruct (bytes_eqb r r') eqn:E3; [|reflexivity].
    apply bytes_eqb_eq in E3. subst r'. rewrite bytes_eqb_refl in E1. discriminate.
Qed.
Lemma times_none l : (forall r, times r l = O) -> l = [].
Proof. destruct l as [|x l]; [reflexivity|]. intros H. specialize (H x). cbn [times] in H. rewrite bytes_eqb_refl in H. discriminate. Qed.

Lemma int64_of_small p o : (p < 2 ^ 63)%N -> (o < 2 ^ 63)%N -> int64_of (Z.of_N p - Z.of_N o) = (Z.of_N p - Z.of_N o)%Z.
Proof.
  intros Hp Ho. unfold int64_of. assert (Ep : (Z.of_N p < 2 ^ 63)%Z) by (apply N2Z.inj_lt in Hp; rewrite N2Z.inj_pow in Hp; exact Hp).
  assert (Eo : (Z.of_N o < 2 ^ 63)%Z) by (apply N2Z.inj_lt in Ho; rewrite N2Z.inj_pow in Ho; exact Ho).
  rewrite Z.mod_small; lia.
Qed.
Lemma heard_tests p o : (p < 2 ^ 63)%N -> (o < 2 ^ 63)%N ->
  Z.leb 12500 (int64_of (Z.of_N p - Z.of_N o)) = N.leb (o + 12500) p /\ Z.ltb (int64_of (Z.of_N p - Z.of_N o)) 1000 = catches_up p o.
Proof.
  intros Hp Ho. rewrite int64_of_small by assumption. unfold catches_up. split.
  - destruct (Z.leb_spec 12500 (Z.of_N p - Z.of_N o)), (N.leb_spec (o + 12500) p); try reflexivity; lia.
  - destruct (Z.ltb_spec (Z.of_N p - Z.of_N o) 1000), (N.ltb_spec p (o + 1000)); try reflexivity; lia.
Qed.

(** ** The invariant *)
Record Inv (h : list pevent) (s : server) : Prop := mkInv {
  i_reasons : forall r, times r (reasons s) = outstanding h r;
  i_lag : lag s = lag_after false h;
  i_up : up s = running h;
  i_state : state s = serving h;
  i_shut : up s = false -> public s = false /\ private s = false /\ plugin s = false;
  i_blocked : reasons s <> [] -> public s = false /\ plugin s = false }.

Lemma running_snoc h e : running (h ++ [e]) = match e with Shutdown _ => false | Reset => true | _ => running h end.
Proof. unfold running. rewrite fold_left_app. reflexivity. Qed.
Lemma serving_snoc h e : serving (h ++ [e]) = match e with State s => s | _ => serving h end.
Proof. unfold serving. rewrite fold_left_app. reflexivity. Qed.
Lemma small_snoc h e : small (h ++ [e]) -> small h /\ match e with Heard _ p o => (p < 2 ^ 63 /\ o < 2 ^ 63)%N | _ => True end.
Proof. intros H. apply Forall_app in H as [H1 H2]. split; [exact H1|]. inversion H2. assumption. Qed.
Lemma p_run_snoc h e : p_run (h ++ [e]) = p_step (p_run h) e.
Proof. unfold p_run. rewrite fold_left_app. reflexivity. Qed.

Lemma inv_block h s r : Inv h s -> forall h', (forall r', outstanding h' r' = if bytes_eqb r' r then S (outstanding h r') else outstanding h r') ->
  running h' = running h -> serving h' = serving h -> lag_after false h' = lag_after false h ->
  Inv h' (blockCommandPort r s).
Proof.
  intros I h' Ho Hr Hs Hl. destruct I as [I1 I2 I3 I4 I5 I6].
  assert (E : reasons (blockCommandPort r s) = r :: reasons s /\ lag (blockCommandPort r s) = lag s /\ up (blockCommandPort r s) = up s /\ state (blockCommandPort r s) = state s /\ private (blockCommandPort r s) = private s) by (unfold blockCommandPort; destruct (reasons s); auto).
  destruct E as (E1 & E2 & E3 & E4 & E5).
  assert (B : public (blockCommandPort r s) = false /\ plugin (blockCommandPort r s) = false).
  { unfold blockCommandPort. destruct (reasons s) as [|x l] eqn:E; [auto|]. cbn [public plugin]. apply I6. congruence. }
  constructor.
  - intros r'. rewrite E1, Ho. cbn [times]. rewrite I1. reflexivity.
  - rewrite E2, Hl. exact I2.
  - rewrite E3, Hr. exact I3.
  - rewrite E4, Hs. exact I4.
  - rewrite E3, E5. intros H. destruct (I5 H) as (_ & H1 & _). tauto.
  - intros _. exact B.
Qed.
Lemma inv_unblock h s r : Inv h s -> forall h', (forall r', outstanding h' r' = if bytes_eqb r' r then pred (outstanding h r') else outstanding h r') ->
  running h' = running h -> serving h' = serving h -> lag_after false h' = lag_after false h ->
  Inv h' (unblockCommandPort r s).
Proof.
  intros I h' Ho Hr Hs Hl. destruct I as [I1 I2 I3 I4 I5 I6]. unfold unblockCommandPort. constructor; cbn [reasons lag up state public private plugin].
  - intros r'. rewrite times_erase, I1, Ho. reflexivity.
  - rewrite Hl. exact I2.
  - rewrite Hr. exact I3.
  - rewrite Hs. exact I4.
  - exact I5.
  - intros H. apply I6. intros E. apply H. rewrite E. reflexivity.
Qed.
Lemma inv_same h h' s : Inv h s -> (forall r, outstanding h' r = outstanding h r) -> running h' = running h -> serving h' = serving h -> lag_after false h' = lag_after false h -> Inv h' s.
Proof. intros [I1 I2 I3 I4 I5 I6] Ho Hr Hs Hl. constructor; try congruence. exact I5. exact I6. Qed.
Lemma lag_snoc h e : lag_after false (h ++ [e]) = lag_after (lag_after false h) [e].
Proof. apply lag_after_app. Qed.

Lemma inv_set_lag h s b h' : Inv h s -> (forall r, outstanding h' r = outstanding h r) -> running h' = running h -> serving h' = serving h ->
  lag_after false h' = b -> Inv h' (set_lag b s).
Proof.
  intros [I1 I2 I3 I4 I5 I6] Ho Hr Hs Hl. unfold set_lag. constructor; cbn [reasons lag up state public private plugin]; try congruence; try assumption.
Qed.

Lemma inv_all h : small h -> Inv h (p_run h).
Proof.
  induction h as [|e h IH] using rev_ind; intros Hs.
  - constructor; cbn; auto; try discriminate.
  - apply small_snoc in Hs as [Hs He]. specialize (IH Hs). rewrite p_run_snoc. set (s := p_run h) in *.
    destruct e as [r|r|b| |d| |l p o]; cbn [p_step].
    + apply (inv_block h); [exact IH| | | |].
      * intros r'. rewrite outstanding_snoc. reflexivity.
      * rewrite running_snoc. reflexivity.
      * rewrite serving_snoc. reflexivity.
      * rewrite lag_snoc. reflexivity.
    + apply (inv_unblock h); [exact IH| | | |].
      * intros r'. rewrite outstanding_snoc. reflexivity.
      * rewrite running_snoc. reflexivity.
      * rewrite serving_snoc. reflexivity.
      * rewrite lag_snoc. reflexivity.
    + destruct IH as [I1 I2 I3 I4 I5 I6]. constructor; cbn [reasons lag up state public private plugin]; try assumption.
      * intros r. rewrite outstanding_snoc. cbn. apply I1.
      * rewrite lag_snoc. exact I2.
      * rewrite running_snoc. exact I3.
      * rewrite serving_snoc. reflexivity.
    + assert (J : Inv (h ++ [Poll]) s).
      { apply (inv_same h); [exact IH| | | |]; [intros r; rewrite outstanding_snoc; reflexivity|rewrite running_snoc; reflexivity|rewrite serving_snoc; reflexivity|rewrite lag_snoc; reflexivity]. }
      unfold postPoll. destruct (reasons s) as [|x l] eqn:E; [|exact J]. destruct (state s && up s) eqn:E2; [|exact J].
      destruct J as [I1 I2 I3 I4 I5 I6]. constructor; cbn [reasons lag up state public private plugin]; try assumption.
      * intros r. rewrite <- I1, E. reflexivity.
      * apply andb_true_iff in E2 as [_ ->]. discriminate.
      * intros H. exfalso. apply H. reflexivity.
    + destruct IH as [I1 I2 I3 I4 I5 I6]. unfold beginShutdown. destruct (up s) eqn:E; constructor; cbn [reasons lag up state public private plugin]; try assumption.
      all: rewrite ?running_snoc, ?serving_snoc, ?lag_snoc; try assumption; try reflexivity; try (intros r; rewrite outstanding_snoc; cbn; apply I1); auto.
    + destruct IH as [I1 I2 I3 I4 I5 I6]. constructor; cbn [resetServer reasons lag up state public private plugin].
      * intros r. rewrite outstanding_snoc. reflexivity.
      * rewrite lag_snoc. reflexivity.
      * rewrite running_snoc. reflexivity.
      * rewrite serving_snoc. exact I4.
      * discriminate.
      * intros H. exfalso. apply H. reflexivity.
    + destruct He as [Hp Ho]. destruct (heard_tests p o Hp Ho) as [T1 T2]. unfold heard. rewrite T1, T2.
      assert (F : l && N.leb (o + 12500) p = falls_behind l p o) by reflexivity. rewrite F, (i_lag _ _ IH).
      destruct (falls_behind l p o && negb (lag_after false h)) eqn:E1; [|destruct (catches_up p o && lag_after false h) eqn:E2].
      * set (h' := h ++ [Block LAGGING]).
        assert (J : Inv h' (blockCommandPort LAGGING s)).
        { apply (inv_block h); [exact IH| | | |].
          - intros r'. unfold h'. rewrite outstanding_snoc. reflexivity.
          - unfold h'. rewrite running_snoc. reflexivity.
          - unfold h'. rewrite serving_snoc. reflexivity.
          - unfold h'. rewrite lag_snoc. reflexivity. }
        apply (inv_set_lag h'); [exact J| | | |]; unfold h'.
        -- intros r. rewrite !outstanding_snoc. cbn [calls]. rewrite E1. reflexivity.
        -- rewrite !running_snoc. reflexivity.
        -- rewrite !serving_snoc. reflexivity.
        -- rewrite lag_snoc. cbn [lag_after]. rewrite E1. reflexivity.
      * set (h' := h ++ [Unblock LAGGING]).
        assert (J : Inv h' (unblockCommandPort LAGGING s)).
        { apply (inv_unblock h); [exact IH| | | |].
          - intros r'. unfold h'. rewrite outstanding_snoc. reflexivity.
          - unfold h'. rewrite running_snoc. reflexivity.
          - unfold h'. rewrite serving_snoc. reflexivity.
          - unfold h'. rewrite lag_snoc. reflexivity. }
        apply (inv_set_lag h'); [exact J| | | |]; unfold h'.
        -- intros r. rewrite !outstanding_snoc. cbn [calls]. rewrite E1, E2. reflexivity.
        -- rewrite !running_snoc. reflexivity.
        -- rewrite !serving_snoc. reflexivity.
        -- rewrite lag_snoc. cbn [lag_after]. rewrite E1, E2. reflexivity.
      * apply (inv_same h); [exact IH| | | |].
        -- intros r. rewrite outstanding_snoc. cbn [calls]. rewrite E1, E2. reflexivity.
        -- rewrite running_snoc. reflexivity.
        -- rewrite serving_snoc. reflexivity.
        -- rewrite lag_snoc. cbn [lag_after]. rewrite E1, E2. reflexivity.
Qed.
Lemma unblocked_iff h : small h -> (unblocked h <-> reasons (p_run h) = []).
Proof.
  intros Hs. pose proof (i_reasons _ _ (inv_all h Hs)) as I. split.
  - intros H. apply times_none. intros r. rewrite I. apply H.
  - intros E r. rewrite <- I, E. reflexivity.
Qed.

(** ** The command port *)

(** While the public port (or a plugin's) accepts connections no reason is outstanding and the server is running. *)
Theorem C28_open_only_unblocked h : small h ->
  public (p_run h) = true \/ plugin (p_run h) = true -> unblocked h /\ running h = true.
Proof.
  intros Hs H. pose proof (inv_all h Hs) as [I1 I2 I3 I4 I5 I6]. split.
  - apply unblocked_iff; [exact Hs|]. destruct (reasons (p_run h)) as [|x l]; [reflexivity|].
    destruct I6 as [E1 E2]; [congruence|]. destruct H; congruence.
  - rewrite <- I3. destruct (up (p_run h)); [reflexivity|]. destruct (I5 eq_refl) as (E1 & _ & E2). destruct H; congruence.
Qed.
Print Assumptions C28_open_only_unblocked.

Lemma may_open_iff h : small h -> (may_open h <-> reasons (p_run h) = [] /\ state (p_run h) && up (p_run h) = true).
Proof.
  intros Hs. unfold may_open. rewrite (unblocked_iff h Hs), (i_up _ _ (inv_all h Hs)), (i_state _ _ (inv_all h Hs)), andb_true_iff. tauto.
Qed.
Lemma opened_snoc h e : opened (h ++ [e]) <->
  (e = Poll /\ may_open h) \/ (opened h /\ forallb (fun e => negb (closes e)) (calls (lag_after false h) [e]) = true).
Proof.
  split.
  - intros (a & b & E & M & F). destruct b as [|x b] using rev_ind.
    + change (a ++ [Poll]) with (a ++ [Poll]) in E. apply app_inj_tail in E as [-> ->]. left. auto.
    + rewrite app_comm_cons, app_assoc in E. apply app_inj_tail in E as [-> <-]. right.
      rewrite calls_app, forallb_app in F. apply andb_true_iff in F as [F1 F2]. split.
      * exists a, b. auto.
      * rewrite lag_after_app. cbn [lag_after]. exact F2.
  - intros [[-> M]|[(a & b & -> & M & F) G]].
    + exists h, []. split; [reflexivity|]. split; [exact M|]. reflexivity.
    + exists a, (b ++ [e]). split; [rewrite <- app_assoc; reflexivity|]. split; [exact M|]. rewrite calls_app, forallb_app, F. cbn [andb].
      rewrite lag_after_app in G. exact G.
Qed.

(** Exactly: the public port is open if at some pass of the main loop the node was leading or following, the server
    was running and no reason was outstanding, and no block call, shutdown or reset has happened since. *)
Theorem C28_open_iff h : small h -> (public (p_run h) = true <-> opened h).
Proof.
  induction h as [|e h IH] using rev_ind; intros Hs.
  - split; [discriminate|]. intros (a & b & E & _). destruct a; discriminate.
  - pose proof (small_snoc _ _ Hs) as [Hs' He]. specialize (IH Hs'). rewrite opened_snoc, <- IH. clear IH.
    pose proof (inv_all h Hs') as I. rewrite p_run_snoc. set (s := p_run h) in *.
    destruct e as [r|r|b| |d| |l p o]; cbn [p_step calls forallb closes negb andb].
    + split; [|intros [[? _]|[_ ?]]; discriminate]. unfold blockCommandPort. destruct (reasons s) eqn:E; [discriminate|].
      cbn [public]. intros H. destruct (i_blocked _ _ I); [fold s; congruence|]. congruence.
    + split; [intros H; right; auto|intros [[? _]|[? _]]; [discriminate|assumption]].
    + split; [intros H; right; auto|intros [[? _]|[? _]]; [discriminate|assumption]].
    + pose proof (may_open_iff h Hs') as M. fold s in M. rewrite M. unfold postPoll. destruct (reasons s) as [|x l].
      * destruct (state s && up s) eqn:E2; cbn [public]; [tauto|]. split; [auto|]. intros [[_ [_ ?]]|[? _]]; [discriminate|assumption].
      * split; [auto|]. intros [[_ [? _]]|[? _]]; [discriminate|assumption].
    + split; [|intros [[? _]|[_ ?]]; discriminate]. unfold beginShutdown. destruct (up s) eqn:E; [discriminate|].
      intros H. destruct (i_shut _ _ I); [exact E|]. congruence.
    + split; [discriminate|intros [[? _]|[_ ?]]; discriminate].
    + destruct He as [Hp Ho]. destruct (heard_tests p o Hp Ho) as [T1 T2]. unfold heard. rewrite T1, T2.
      assert (F : l && N.leb (o + 12500) p = falls_behind l p o) by reflexivity. rewrite F. fold s. rewrite (i_lag _ _ I). fold s.
      destruct (falls_behind l p o && negb (lag_after false h)) eqn:E1; [|destruct (catches_up p o && lag_after false h) eqn:E2]; cbn [forallb closes negb andb].
      * split; [|intros [[? _]|[_ ?]]; discriminate]. unfold blockCommandPort. destruct (reasons s) eqn:E; cbn [set_lag public]; [discriminate|].
        intros H. destruct (i_blocked _ _ I); [fold s; congruence|]. congruence.
      * split; [intros H; right; auto|intros [[? _]|[? _]]; [discriminate|assumption]].
      * split; [intros H; right; auto|intros [[? _]|[? _]]; [discriminate|assumption]].
Qed.
Print Assumptions C28_open_iff.

(** Removing one of several reasons, or a reason given twice, does not reopen it; a pass does when none is left. *)
Theorem C28_one_of_several h r r' : small h ->
  (if bytes_eqb r' r then 2 <= outstanding h r else 1 <= outstanding h r')%nat ->
  public (p_run (h ++ [Unblock r; Poll])) = false /\ plugin (p_run (h ++ [Unblock r; Poll])) = false.
Proof.
  intros Hs H. assert (Hs2 : small (h ++ [Unblock r; Poll])) by (apply Forall_app; split; [exact Hs|repeat (apply Forall_cons; [exact I|]); constructor]).
  destruct (public (p_run (h ++ [Unblock r; Poll]))) eqn:E1; [|destruct (plugin (p_run (h ++ [Unblock r; Poll]))) eqn:E2; [|auto]];
    (destruct (C28_open_only_unblocked _ Hs2) as [U _]; [auto|]; exfalso; specialize (U r');
     change (h ++ [Unblock r; Poll]) with (h ++ [Unblock r] ++ [Poll]) in U; rewrite app_assoc, !outstanding_snoc in U; cbn in U;
     destruct (bytes_eqb r' r) eqn:Eb; [apply bytes_eqb_eq in Eb; subst r'|]; lia).
Qed.
Print Assumptions C28_one_of_several.
Theorem C28_reopens h : small h -> may_open h ->
  public (p_run (h ++ [Poll])) = true /\ private (p_run (h ++ [Poll])) = true /\ control (p_run (h ++ [Poll])) = true /\ plugin (p_run (h ++ [Poll])) = true.
Proof.
  intros Hs M. apply (may_open_iff h Hs) in M as [M1 M2]. rewrite p_run_snoc. cbn [p_step]. unfold postPoll. rewrite M1, M2. auto.
Qed.
Print Assumptions C28_reopens.

(** Blocking never touches the private and the control port. *)
Theorem C28_private_and_control h r : let s := p_run h in let s' := p_run (h ++ [Block r]) in
  private s' = private s /\ control s' = control s.
Proof. cbn zeta. rewrite p_run_snoc. cbn [p_step]. unfold blockCommandPort. destruct (reasons (p_run h)); auto. Qed.
Print Assumptions C28_private_and_control.
(** The private port is closed once shutdown has begun; the control port only when the server does not merely detach. *)
Theorem C28_shutdown h d : running h = true -> small h -> let s := p_run (h ++ [Shutdown d]) in
  public s = false /\ private s = false /\ plugin s = false /\ control s = d && control (p_run h).
Proof.
  intros Hr Hs. cbn zeta. rewrite p_run_snoc. cbn [p_step]. unfold beginShutdown. rewrite (i_up _ _ (inv_all h Hs)), Hr. cbn. destruct d; auto.
Qed.
Print Assumptions C28_shutdown.

(** ** The flag that makes old connections close *)
Theorem C28_flag_exact h : small h -> ~ In Reset h -> (answers_and_closes (p_run h) = true <-> ~ unblocked h).
Proof.
  intros Hs Hn. rewrite (unblocked_iff h Hs). unfold answers_and_closes.
  induction h as [|e h IH] using rev_ind; [cbn; split; [discriminate|intros H; exfalso; apply H; reflexivity]|].
  apply small_snoc in Hs as [Hs He]. specialize (IH Hs (fun H => Hn (in_or_app _ _ _ (or_introl H)))). rewrite p_run_snoc. set (s := p_run h) in *.
  assert (B : forall r s0, likely (blockCommandPort r s0) = true /\ reasons (blockCommandPort r s0) <> []).
  { intros r s0. unfold blockCommandPort. destruct (reasons s0); split; cbn; congruence. }
  assert (U : forall r, (likely (unblockCommandPort r s) = true <-> reasons (unblockCommandPort r s) <> [])).
  { intros r. unfold unblockCommandPort. cbn [likely reasons]. destruct (erase r (reasons s)) as [|x l] eqn:E; [split; [discriminate|congruence]|].
    rewrite IH. split; [congruence|]. intros _ E0. rewrite E0 in E. discriminate. }
  destruct e as [r|r|b| |d| |l p o]; cbn [p_step].
  - destruct (B r s). tauto.
  - apply U.
  - exact IH.
  - unfold postPoll. destruct (reasons s) eqn:E; [|rewrite E; exact IH]. destruct (state s && up s); [|rewrite E]; exact IH.
  - unfold beginShutdown. destruct (up s); exact IH.
  - exfalso. apply Hn. apply in_or_app. right. left. reflexivity.
  - unfold heard. destruct (_ && _ && _); [|destruct (_ && _)]; cbn [set_lag likely reasons].
    + destruct (B LAGGING s). tauto.
    + apply U.
    + exact IH.
Qed.
Print Assumptions C28_flag_exact.
(** After a detach and attach the flag can stay set although nothing is blocked: every request on the public port then
    gets its connection closed, until some reason is added and removed. *)
Theorem C28_flag_after_attach_refuted : let h := [State true; Poll; Block (lit "MANUAL"); Shutdown true; Reset; State true; Poll] in
  unblocked h /\ public (p_run h) = true /\ answers_and_closes (p_run h) = true.
Proof. cbn zeta. split; [apply unblocked_iff; [repeat (apply Forall_cons; [exact I|]); constructor|vm_compute; reflexivity]|]. split; vm_compute; reflexivity. Qed.
Print Assumptions C28_flag_after_attach_refuted.

(** ** Lagging behind *)
Lemma behind_snoc h e : behind (h ++ [e]) <->
  (exists p o, e = Heard true p o /\ (o + 12500 <= p)%N) \/
  (behind h /\ match e with Heard _ p o => (o + 1000 <= p)%N | Reset => False | _ => True end).
Proof.
  split.
  - intros (a & p & o & b & E & L & F). destruct b as [|x b] using rev_ind.
    + apply app_inj_tail in E as [-> ->]. left. eauto.
    + rewrite app_comm_cons, app_assoc in E. apply app_inj_tail in E as [-> <-]. right. split.
      * exists a, p, o, b. split; [reflexivity|]. split; [exact L|]. intros y Hy. apply F. apply in_or_app. left. exact Hy.
      * apply F. apply in_or_app. right. left. reflexivity.
  - intros [(p & o & -> & L)|[(a & p & o & b & -> & L & F) G]].
    + exists h, p, o, []. split; [reflexivity|]. split; [exact L|]. intros y [].
    + exists a, p, o, (b ++ [e]). split; [rewrite <- app_assoc; reflexivity|]. split; [exact L|].
      intros y Hy. apply in_app_iff in Hy as [Hy|[<-|[]]]; [apply F; exact Hy|exact G].
Qed.
Lemma behind_lag h : lag_after false h = true <-> behind h.
Proof.
  induction h as [|e h IH] using rev_ind.
  - split; [discriminate|]. intros (a & p & o & b & E & _). destruct a; discriminate.
  - rewrite behind_snoc, lag_snoc, <- IH.
    destruct e as [r|r|b| |d| |l p o]; cbn [lag_after]; try (split; [intros H; right; auto|intros [(p & o & ? & _)|[? _]]; [discriminate|assumption]]).
    + split; [discriminate|]. intros [(p & o & ? & _)|[_ []]]. discriminate.
    + unfold falls_behind, catches_up. destruct l; cbn [andb].
      * destruct (N.leb_spec (o + 12500) p) as [L|L]; cbn [andb].
        -- assert (X : (if negb (lag_after false h) then true else if N.ltb p (o + 1000) && lag_after false h then false else lag_after false h) = true).
           { destruct (lag_after false h); cbn [negb]; [|reflexivity]. destruct (N.ltb_spec p (o + 1000)); [lia|reflexivity]. }
           rewrite X. split; [intros _; left; eauto|reflexivity].
        -- destruct (N.ltb_spec p (o + 1000)) as [K|K]; cbn [andb].
           ++ destruct (lag_after false h); (split; [discriminate|]); (intros [(p' & o' & E & L')|[_ L']]; [injection E as -> ->|]; lia).
           ++ split; [intros H; right; auto|]. intros [(p' & o' & E & L')|[H _]]; [injection E as -> ->; lia|exact H].
      * destruct (N.ltb_spec p (o + 1000)) as [K|K]; cbn [andb].
        -- destruct (lag_after false h); (split; [discriminate|]); (intros [(p' & o' & E & L')|[_ L']]; [discriminate|lia]).
        -- split; [intros H; right; auto|]. intros [(p' & o' & E & L')|[H _]]; [discriminate|exact H].
Qed.
Lemma lagging_outstanding h : (forall e, In e h -> e <> Block LAGGING /\ e <> Unblock LAGGING) ->
  outstanding h LAGGING = if lag_after false h then 1%nat else 0%nat.
Proof.
  induction h as [|e h IH] using rev_ind; intros Hn; [reflexivity|].
  rewrite outstanding_snoc, lag_snoc, IH by (intros x Hx; apply Hn; apply in_or_app; left; exact Hx).
  assert (He : e <> Block LAGGING /\ e <> Unblock LAGGING) by (apply Hn; apply in_or_app; right; left; reflexivity).
  destruct e as [r|r|b| |d| |l p o]; cbn [calls lag_after fold_left]; try reflexivity.
  - destruct (bytes_eqb LAGGING r) eqn:E; [|reflexivity]. apply bytes_eqb_eq in E. destruct He as [He _]. congruence.
  - destruct (bytes_eqb LAGGING r) eqn:E; [|reflexivity]. apply bytes_eqb_eq in E. destruct He as [_ He]. congruence.
  - destruct (lag_after false h); rewrite ?andb_true_r, ?andb_false_r; cbn [negb]; rewrite ?andb_true_r, ?andb_false_r.
    + destruct (catches_up p o); cbn [fold_left]; rewrite ?bytes_eqb_refl; reflexivity.
    + destruct (falls_behind l p o); cbn [fold_left]; rewrite ?bytes_eqb_refl; reflexivity.
Qed.
(** The node blocks its port for lagging exactly from the moment a message of the leader is 12,500 commits ahead until
    some message is less than 1,000 ahead (nobody else uses that reason). *)
Theorem C28_lagging h : small h -> (forall e, In e h -> e <> Block LAGGING /\ e <> Unblock LAGGING) ->
  (In LAGGING (reasons (p_run h)) <-> behind h).
Proof.
  intros Hs Hn. rewrite <- behind_lag. pose proof (lagging_outstanding h Hn) as Ho. rewrite <- (i_reasons _ _ (inv_all h Hs)) in Ho.
  assert (T : forall l, In LAGGING l <-> times LAGGING l <> O).
  { induction l as [|x l IHl]; cbn [In times]; [tauto|]. destruct (bytes_eqb LAGGING x) eqn:E; [apply bytes_eqb_eq in E; subst x; split; [discriminate|auto]|].
    rewrite <- IHl. split; [intros [->|H]; [rewrite bytes_eqb_refl in E; discriminate|exact H]|auto]. }
  rewrite T, Ho. destruct (lag_after false h); split; congruence.
Qed.
Print Assumptions C28_lagging.

(** The reason is lifted by a message of any peer: a node 20,000 commits behind the leader opens its port again as soon
    as another node that is just as far behind says anything, and the leader's next message closes it again. *)
Theorem C28_lagging_other_peer_refuted :
  let behind_leader := [State true; Poll; Heard true 20000 100] in
  public (p_run behind_leader) = false /\
  public (p_run (behind_leader ++ [Heard false 200 100; Poll])) = true /\
  public (p_run (behind_leader ++ [Heard false 200 100; Poll; Heard true 20001 100])) = false.
Proof. cbn zeta. repeat split; vm_compute; reflexivity. Qed.
Print Assumptions C28_lagging_other_peer_refuted.
(** The port is not closed when the node stops leading or following: it goes on accepting connections. *)
Theorem C28_state_change_refuted : let h := [State true; Poll; State false; Poll] in
  serving h = false /\ public (p_run h) = true.
Proof. split; vm_compute; reflexivity. Qed.
Print Assumptions C28_state_change_refuted.
(** When a connection is accepted and no thread can be made for it, the thread that accepts waits for a mutex it holds
    itself: the reason NOT_ENOUGH_THREADS is never set and no port can be opened or closed any more. *)
Theorem C28_not_enough_threads_refuted : acceptSocket false false (p_run [State true; Poll]) = None.
Proof. reflexivity. Qed.
Print Assumptions C28_not_enough_threads_refuted.

(** Two reasons, one of them twice, and a lag. *)
Definition port_story : list pevent :=
  [State true; Poll; Block (lit "MANUAL"); Block (lit "MANUAL"); Heard true 12600 100; Unblock (lit "MANUAL"); Poll; Heard true 1200 201; Poll].
Example C28_story :
  map (fun n => public (p_run (firstn n port_story))) [1; 2; 3; 5; 6; 7; 8; 9]%nat = [false; true; false; false; false; false; false; false] /\
  public (p_run (port_story ++ [Unblock (lit "MANUAL"); Poll])) = true /\ private (p_run port_story) = true /\
  small port_story /\ outstanding port_story (lit "MANUAL") = 1%nat.
Proof.
  split; [vm_compute; reflexivity|]. split; [vm_compute; reflexivity|]. split; [vm_compute; reflexivity|]. split; [|vm_compute; reflexivity].
  unfold small, port_story. repeat (apply Forall_cons; [first [exact I|split; lia]|]). constructor.
Qed.
