(** Who holds the commit lock when beginTransaction never left it behind. *)
From Verif Require Import Base Maps Journal_Model Journal_Spec Journal_Proofs.

(** No thread uses two handles. *)
Definition one_handle_per_thread (thr : nat -> nat) : Prop := forall a b, thr a = thr b -> a = b.
(** A statement reported as changing nothing changes nothing. *)
Definition honest_flags {D} (exec : D -> stmt -> D * bool) : Prop := forall d q, snd (exec d q) = false -> fst (exec d q) = d.


Section Lock.
Variable D : Type.
Variable exec : D -> stmt -> D * bool.
Variable sha1hex comp : bytes -> bytes.
Variable maxJ : N.
Variable nJ : nat.
Variable thr : nat -> nat.
Notation step := (jstep D exec sha1hex comp maxJ nJ thr).
Notation run := (jrun D exec sha1hex comp maxJ nJ thr).

(** When beginTransaction never left the lock behind, the commit lock is held exactly by a
    handle inside a transaction. *)
Record LockInv (s : jstate D) : Prop := {
  lk_owner : forall o c, j_lock D s = Some (o, c) -> c = 1 /\ exists h, o = thr h /\ h_locked (j_handles D s h) = true;
  lk_held : forall h, h_locked (j_handles D s h) = true -> j_lock D s = Some (thr h, 1) /\ h_inside (j_handles D s h) = true
}.
Lemma lock_same s s' : LockInv s -> j_lock D s' = j_lock D s ->
  (forall h, h_locked (j_handles D s' h) = h_locked (j_handles D s h) /\ (h_locked (j_handles D s h) = true -> h_inside (j_handles D s' h) = true)) -> LockInv s'.
Proof.
  intros [O K] E Hh. constructor.
  - intros o c Hl. rewrite E in Hl. destruct (O o c Hl) as (-> & h & -> & Hk). split; [reflexivity|]. exists h. split; [reflexivity|].
    destruct (Hh h) as [-> _]. exact Hk.
  - intros h Hk. destruct (Hh h) as [E1 E2]. rewrite E1 in Hk. destruct (K h Hk) as [A B]. rewrite E. auto.
Qed.
Lemma lock_set s s' h x' : LockInv s -> j_lock D s' = j_lock D s -> j_handles D s' = setH D s h x' ->
  h_locked x' = h_locked (j_handles D s h) -> (h_locked x' = true -> h_inside x' = true) -> LockInv s'.
Proof.
  intros H E Eh El Ei. eapply lock_same; [exact H|exact E|]. intros a. rewrite Eh. destruct (Nat.eq_dec a h) as [->|Hne].
  - rewrite setH_same. split; [exact El|]. intros Hk. apply Ei. congruence.
  - rewrite setH_other by exact Hne. split; [reflexivity|]. apply (lk_held _ H).
Qed.
Lemma lock_free s : LockInv s -> (forall h, h_locked (j_handles D s h) = false) -> j_lock D s = None.
Proof.
  intros H Hn. destruct (j_lock D s) as [[o c]|] eqn:E; [|reflexivity]. destruct (lk_owner _ H _ _ E) as (_ & h & _ & Hk). rewrite Hn in Hk. discriminate.
Qed.
Lemma lock_acquired s h l : one_handle_per_thread thr -> LockInv s -> acquire (thr h) (j_lock D s) = Some l -> h_locked (j_handles D s h) = false ->
  l = Some (thr h, 1) /\ j_lock D s = None /\ forall a, h_locked (j_handles D s a) = false.
Proof.
  intros T H E Hk. destruct (j_lock D s) as [[o c]|] eqn:El.
  - exfalso. destruct (lk_owner _ H _ _ El) as (-> & b & -> & Hb). cbn in E. destruct (Nat.eqb_spec (thr b) (thr h)) as [Et|]; [|discriminate].
    apply T in Et. congruence.
  - injection E as <-. split; [reflexivity|]. split; [reflexivity|]. intros a. destruct (h_locked (j_handles D s a)) eqn:Ea; [|reflexivity].
    destruct (lk_held _ H a Ea). congruence.
Qed.
Lemma lock_rollback s h : one_handle_per_thread thr -> LockInv s -> LockInv (rollback D s h) /\
  (h_inside (j_handles D (rollback D s h) h) = false /\ h_locked (j_handles D (rollback D s h) h) = false /\ (forall c, j_lock D (rollback D s h) <> Some (thr h, c))).
Proof.
  intros T H. unfold rollback. destruct (h_inside (j_handles D s h)) eqn:Ei.
  - hcbn. rewrite setH_same. hcbn. destruct (h_locked (j_handles D s h)) eqn:El.
    + destruct (lk_held _ H h El) as [Lk _]. rewrite Lk. cbn [release]. split; [|repeat split; discriminate].
      constructor; hcbn; [discriminate|]. intros a Ha. exfalso. destruct (Nat.eq_dec a h) as [->|Hne]; [rewrite setH_same in Ha; discriminate|].
      rewrite setH_other in Ha by exact Hne. destruct (lk_held _ H a Ha) as [La _]. apply Hne, T. congruence.
    + split.
      * eapply lock_set with (h := h); try exact H; try reflexivity. { symmetry; exact El. } discriminate.
      * repeat split. intros c Hc. destruct (lk_owner _ H _ _ Hc) as (_ & a & Et & Ha). apply T in Et. congruence.
  - split; [exact H|]. assert (El : h_locked (j_handles D s h) = false). { destruct (h_locked (j_handles D s h)) eqn:E; [|reflexivity]. destruct (lk_held _ H h E). congruence. }
    repeat split; try assumption. intros c Hc. destruct (lk_owner _ H _ _ Hc) as (_ & a & Et & Ha). apply T in Et. congruence.
Qed.

Lemma LockInv_init d0 : LockInv (jinit D d0).
Proof. constructor; cbn; discriminate. Qed.

Lemma LockInv_step s e s' : one_handle_per_thread thr -> LockInv s -> (forall h, h_phase (j_handles D s h) = CDurable -> h_locked (j_handles D s h) = true) ->
  step s e = Some s' -> j_leak D s' = false -> LockInv s'.
Proof.
  intros T H Hdl Hst Hl. destruct e; cbn [jstep] in Hst; unfold idle_then in Hst; try (destruct (busy D s h) eqn:Hb; [discriminate|]).
  - unfold begin_transaction in Hst. destruct (if exclusive then _ else _) as [l|] eqn:El; [|discriminate].
    destruct (h_inside (j_handles D s h)) eqn:Ei; injection Hst as <-; cbn in Hl; apply orb_false_iff in Hl as [_ Hx].
    + destruct exclusive; cbn [andb] in Hx.
      * destruct (lock_acquired s h l T H El Hx) as (-> & E1 & E2).
        assert (H1 : LockInv (withHL D s h (mkH true (h_auto (j_handles D s h)) true (h_query (j_handles D s h)) (h_hash (j_handles D s h))
           (h_groups (j_handles D s h)) (h_dels (j_handles D s h)) (h_row (j_handles D s h)) (h_tab (j_handles D s h)) (h_phase (j_handles D s h)) (h_dirty (j_handles D s h))) (Some (thr h, 1)))).
        { constructor; hcbn.
          - intros o c Hoc. injection Hoc as <- <-. split; [reflexivity|]. exists h. split; [reflexivity|]. rewrite setH_same. reflexivity.
          - intros a Ha. destruct (Nat.eq_dec a h) as [->|Hne]; [|rewrite setH_other in Ha by exact Hne; rewrite E2 in Ha; discriminate].
            rewrite setH_same. split; reflexivity. }
        apply lock_rollback with (h := h) in H1; [|exact T]. destruct H1 as [H1 _]. destruct H1 as [A B]. constructor; [exact A|exact B].
      * injection El as <-. assert (H1 : LockInv (withHL D s h (j_handles D s h) (j_lock D s))).
        { eapply lock_set with (h := h); try exact H; try reflexivity. intros Hk. exact Ei. }
        apply lock_rollback with (h := h) in H1; [|exact T]. destruct H1 as [H1 _]. destruct H1 as [A B]. constructor; [exact A|exact B].
    + assert (Hk : h_locked (j_handles D s h) = false). { destruct (h_locked (j_handles D s h)) eqn:E; [|reflexivity]. destruct (lk_held _ H h E). congruence. }
      destruct exclusive; cbn [andb] in Hx.
      * destruct (lock_acquired s h l T H El Hk) as (-> & E1 & E2). apply negb_false_iff in Hx. constructor; hcbn.
        -- intros o c Hoc. injection Hoc as <- <-. split; [reflexivity|]. exists h. split; [reflexivity|]. rewrite setH_same. reflexivity.
        -- intros a Ha. destruct (Nat.eq_dec a h) as [->|Hne]; [|rewrite setH_other in Ha by exact Hne; rewrite E2 in Ha; discriminate].
           rewrite setH_same. split; [reflexivity|exact Hx].
      * injection El as <-. eapply lock_set with (h := h); try exact H; try reflexivity. hcbn. congruence.
  - injection Hst as <-. unfold write. destruct (h_inside (j_handles D s h)) eqn:Ei; cbn [negb]; [|exact H].
    destruct fail as [k|]; [destruct (run_stmts D exec d (firstn k ss)) as [? rs]; destruct auto|destruct (run_stmts D exec d ss) as [? rs]];
      (eapply lock_set with (h := h); [exact H|reflexivity|reflexivity|reflexivity|reflexivity]).
  - unfold prepare_trim in Hst. destruct (negb _); [discriminate|]. destruct (_ || _); [discriminate|]. injection Hst as <-.
    eapply lock_set with (h := h); try exact H; reflexivity.
  - unfold prepare_lock in Hst. destruct (negb _); [discriminate|]. destruct (h_locked (j_handles D s h)) eqn:Ek; [injection Hst as <-; exact H|].
    destruct (acquire _ _) as [l|] eqn:El; [|discriminate]. injection Hst as <-. destruct (lock_acquired s h l T H El Ek) as (-> & E1 & E2). constructor; hcbn.
    + intros o c Hoc. injection Hoc as <- <-. split; [reflexivity|]. exists h. split; [reflexivity|]. rewrite setH_same. reflexivity.
    + intros a Ha. destruct (Nat.eq_dec a h) as [->|Hne]; [|rewrite setH_other in Ha by exact Hne; rewrite E2 in Ha; discriminate].
      rewrite setH_same. split; reflexivity.
  - unfold prepare_insert in Hst. destruct (h_inside (j_handles D s h)) eqn:Ei; [|discriminate]. destruct (h_locked (j_handles D s h)) eqn:Ek; [|discriminate].
    cbn [andb negb] in Hst.
    destruct ok; injection Hst as <-.
    + eapply lock_set with (h := h); try exact H; try reflexivity. symmetry; exact Ek.
    + apply lock_rollback; [exact T|]. eapply lock_set with (h := h); try exact H; try reflexivity. symmetry; exact Ek.
  - unfold commit_check in Hst. destruct (negb (j_enabled D s)); [injection Hst as <-; exact H|]. destruct (negb _); [discriminate|].
    destruct (h_hash _); [discriminate|]. destruct (h_phase _); try discriminate. destruct (h_row _); [|discriminate]. injection Hst as <-.
    eapply lock_set with (h := h); try exact H; reflexivity.
  - unfold commit_sql in Hst. destruct (h_phase _); try discriminate. destruct (h_row _); [|discriminate]. destruct (h_auto _); [discriminate|].
    destruct ok; [|injection Hst as <-; eapply lock_set with (h := h); try exact H; reflexivity].
    destruct (rerun_groups _ _ _ _); [|discriminate]. injection Hst as <-. eapply lock_set with (h := h); try exact H; reflexivity.
  - unfold commit_publish in Hst. destruct (h_phase (j_handles D s h)) eqn:Ep; try discriminate. injection Hst as <-.
    destruct (lk_held _ H h (Hdl h Ep)) as [Lk _]. constructor; hcbn; rewrite ?Lk; cbn [release]; [discriminate|].
    intros a Ha. exfalso. destruct (Nat.eq_dec a h) as [->|Hne]; [rewrite setH_same in Ha; discriminate|].
    rewrite setH_other in Ha by exact Hne. destruct (lk_held _ H a Ha) as [La _]. apply Hne, T. congruence.
  - injection Hst as <-. apply lock_rollback; assumption.
  - unfold set_commit_enabled in Hst. destruct (acquire (thr h) (j_lock D s)) as [l|] eqn:El; [|discriminate]. injection Hst as <-.
    assert (Er : release l = j_lock D s).
    { destruct (j_lock D s) as [[o c]|] eqn:Ej; cbn in El; [|injection El as <-; reflexivity].
      destruct (lk_owner _ H _ _ Ej) as (-> & _). destruct (Nat.eqb_spec o (thr h)) as [E0|]; [|discriminate]. injection El as <-. rewrite E0. reflexivity. }
    eapply lock_same; [exact H|exact Er|]. intros a. split; [reflexivity|]. apply (lk_held _ H).
  - destruct (Bool.eqb _ _); [injection Hst as <-; exact H|discriminate].
  - injection Hst as <-. eapply lock_same; [exact H|reflexivity|]. intros a. split; [reflexivity|]. apply (lk_held _ H).
  - injection Hst as <-. constructor; cbn; discriminate.
Qed.
End Lock.
