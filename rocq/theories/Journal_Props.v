(** C16-C19 and the source side of C38: the transaction layer, for every number of handles and
    threads, every data type and statement semantics, every hash and compression function,
    every journal size and table count, and every interleaving of calls, failures, conflicts,
    crashes and restarts. *)
From Verif Require Import Base Maps Journal_Model Journal_Spec Journal_Proofs Journal_Lock.

Section Props.
Variable D : Type.
Variable exec : D -> stmt -> D * bool.
Variable sha1hex comp : bytes -> bytes.
Variable maxJ : N.
Variable nJ : nat.
Variable thr : nat -> nat.
Variable d0 : D.
Notation step := (jstep D exec sha1hex comp maxJ nJ thr).
Notation run := (jrun D exec sha1hex comp maxJ nJ thr).
(** Reachable from an empty database, with callers following the three rules listed with
    [j_misuse]. *)
Definition reachable (s : jstate D) : Prop := exists es, run (jinit D d0) es = Some s /\ j_misuse D s = false.

Lemma reach_inv s : one_handle_per_thread thr -> honest_flags exec -> reachable s -> JInv D exec sha1hex comp maxJ thr d0 s.
Proof.
  intros T F (es & Hr & Hm). assert (H := JInv_run D exec sha1hex comp maxJ nJ thr T F d0 es (jinit D d0) s).
  destruct H as [H _]; [apply JInv_init; assumption|exact Hr|exact Hm|exact H].
Qed.
Lemma reach_step s e s' : reachable s -> step s e = Some s' -> j_misuse D s' = false -> reachable s'.
Proof.
  intros (es & Hr & Hm) Hst Hm'. exists (es ++ [e]). split; [|exact Hm'].
  assert (G : forall es s0, run s0 es = Some s -> run s0 (es ++ [e]) = Some s').
  { clear - Hst. induction es as [|x es IH]; intros s0 Hr; cbn [jrun app] in *.
    - injection Hr as ->. rewrite Hst. reflexivity.
    - destruct (step s0 x); [|discriminate]. apply IH. exact Hr. }
  apply G. exact Hr.
Qed.

(** ** C16 *)

(** The journal tables hold, for distinct commit numbers, exactly the corresponding commits of
    one history whose hashes form a chain; outside the last instant of a commit the published
    count and hash are those of the whole history. *)
Theorem C16_history : forall s, one_handle_per_thread thr -> honest_flags exec -> reachable s ->
  chained sha1hex [] (j_hist D s) /\
  (forall e, In e (j_hist D s) -> c_query e = concat (entry_stmts e)) /\
  NoDup (map r_id (j_rows D s)) /\
  (forall r, In r (j_rows D s) -> exists e, commit_no (j_hist D s) (r_id r) = Some e /\ r_hash r = c_hash e /\ r_query r = stored comp (c_query e)) /\
  ((forall h, h_phase (j_handles D s h) <> CDurable) ->
     j_count D s = N.of_nat (List.length (j_hist D s)) /\ j_last D s = last_hash [] (j_hist D s)).
Proof.
  intros s T F Hr. pose proof (reach_inv s T F Hr) as H. repeat split; try apply H.
  - destruct (ji_len _ _ _ _ _ _ _ _ H) as [(A & _)|(k & e & l & r & _ & _ & _ & A4 & _)]; [symmetry; exact A|elim (H0 k A4)].
  - destruct (ji_len _ _ _ _ _ _ _ _ H) as [(_ & B & _)|(k & e & l & r & _ & _ & _ & A4 & _)]; [exact B|elim (H0 k A4)].
Qed.

(** Each successful COMMIT appends exactly one commit, numbered one above the count, and its
    row; the call then publishes exactly that count and hash. *)
Theorem C16_commit_is_next : forall s h s', one_handle_per_thread thr -> honest_flags exec -> reachable s ->
  step s (ECommitSql D h true) = Some s' -> j_misuse D s' = false ->
  exists e r, j_hist D s' = j_hist D s ++ [e] /\ In r (j_rows D s') /\ r_id r = (j_count D s + 1)%N /\
    r_id r = N.of_nat (List.length (j_hist D s')) /\ r_hash r = c_hash e /\ c_hash e = sha1hex (j_last D s ++ c_query e) /\
    (exists s2, step s' (EPublish D h) = Some s2 /\ j_count D s2 = r_id r /\ j_last D s2 = c_hash e).
Proof.
  intros s h s' T F Hr Hst Hm. pose proof (reach_inv s T F Hr) as H. pose proof (reach_inv s' T F (reach_step _ _ _ Hr Hst Hm)) as H'.
  cbn [jstep] in Hst. unfold commit_sql in Hst.
  destruct (h_phase (j_handles D s h)) eqn:Ep; try discriminate.
  destruct (h_row (j_handles D s h)) as [r|] eqn:Er; [|discriminate].
  destruct (h_auto (j_handles D s h)) eqn:Ea; [discriminate|].
  destruct (rerun_groups D exec (j_data D s) (h_groups (j_handles D s h))) as [d'|] eqn:Erg; [|discriminate].
  injection Hst as <-. cbn in Hm. apply orb_false_iff in Hm as [_ Hd].
  pose proof (ji_h _ _ _ _ _ _ _ _ H h) as Hh.
  destruct (hi_prep _ _ _ _ _ _ _ _ Hh r Er) as (P1 & P2 & P3 & P4 & P5); [congruence|exact Hd|].
  assert (Hnew : commit_no (j_hist D s ++ [mkC (h_groups (j_handles D s h)) (qtext (h_groups (j_handles D s h))) (r_hash r)]) (r_id r) <> None).
  { destruct (ji_rows _ _ _ _ _ _ _ _ H' r) as (e & A & _); [cbn; apply in_app_iff; right; left; reflexivity|]. cbn [j_hist] in A. fold (qtext (h_groups (j_handles D s h))) in A. congruence. }
  eexists _, r. split; [reflexivity|]. split; [apply in_app_iff; right; left; reflexivity|]. split; [exact P1|].
  split; [|split; [reflexivity|split; [exact P2|]]].
  - cbn [j_hist]. rewrite app_length. cbn [List.length].
    destruct (ji_len _ _ _ _ _ _ _ _ H) as [(A & _)|(k & e & l & r' & A1 & A2 & _ & A4 & _)]; [lia|]. exfalso.
    pose proof (durable_locked _ _ _ _ _ _ _ s k H A4) as Lk. destruct (hi_row _ _ _ _ _ _ _ _ Hh r Er) as (Ll & _).
    assert (k = h) by (eapply (lock_unique D sha1hex comp maxJ thr T s); [apply H|apply H|exact Lk|exact Ll]). congruence.
  - cbn [jstep]. unfold commit_publish. cbn [j_handles]. rewrite setH_same. cbn [h_phase].
    eexists. split; [reflexivity|]. cbn [j_count j_last c_hash h_hash]. split; [symmetry; exact P1|exact P4].
Qed.

(** Reading a commit back by number returns the committed text and hash, for every commit that
    trimming is not allowed to remove. *)
Theorem C16_read_back : forall s i e, one_handle_per_thread thr -> honest_flags exec -> reachable s ->
  commit_no (j_hist D s) i = Some e -> (N.of_nat (List.length (j_hist D s)) <= i + maxJ)%N ->
  exists r, get_commit (j_rows D s) i = Some r /\ r_query r = stored comp (c_query e) /\ r_hash r = c_hash e.
Proof.
  intros s i e T F Hr Hc Hi. pose proof (reach_inv s T F Hr) as H. assert (R : (1 <= i <= N.of_nat (List.length (j_hist D s)))%N) by (eapply commit_no_range; eauto).
  assert (Hin : In i (map r_id (j_rows D s))).
  { apply (ji_keep _ _ _ _ _ _ _ _ H i R). unfold oldest_to_keep.
    assert (Hl : (j_count D s <= N.of_nat (List.length (j_hist D s)))%N).
    { destruct (ji_len _ _ _ _ _ _ _ _ H) as [(A & _)|(k & e' & l & r & A1 & A2 & _)]; [lia|]. rewrite A1, app_length. lia. }
    destruct (N.ltb_spec (j_count D s) maxJ); lia. }
  apply in_map_iff in Hin as (r & <- & Hin). exists r. rewrite (get_commit_unique _ r (ji_nd _ _ _ _ _ _ _ _ H) Hin).
  destruct (ji_rows _ _ _ _ _ _ _ _ H r Hin) as (e' & A & B & C). split; [reflexivity|]. rewrite Hc in A. injection A as <-. auto.
Qed.

(** The committed data is what executing the journalled query texts in commit order gives. *)
Theorem C16_data_is_replay : forall s, one_handle_per_thread thr -> honest_flags exec -> reachable s ->
  replay D exec d0 (j_hist D s) = j_data D s.
Proof. intros s T F Hr. apply (reach_inv s T F Hr). Qed.

(** Restarting after a crash at any point recovers the count and hash of exactly the commits
    that became durable. *)
Theorem C16_restart : forall s, one_handle_per_thread thr -> honest_flags exec -> reachable s ->
  exists s', step s (ECrash D) = Some s' /\ j_hist D s' = j_hist D s /\ j_data D s' = j_data D s /\
    j_count D s' = N.of_nat (List.length (j_hist D s)) /\ j_last D s' = last_hash [] (j_hist D s).
Proof.
  intros s T F Hr. pose proof (reach_inv s T F Hr) as H. assert (X : max_id (j_rows D s) = N.of_nat (List.length (j_hist D s)) /\ (match get_commit (j_rows D s) (max_id (j_rows D s)) with Some r => r_hash r | None => [] end) = last_hash [] (j_hist D s)) by (eapply rows_tell; eauto). destruct X as [M L].
  eexists. split; [reflexivity|]. cbn. rewrite M. rewrite M in L. auto.
Qed.

(** ** C17 *)

(** Only a successful COMMIT changes the committed data, the journal or the history; only
    publishing one (or a restart) changes the visible count and hash. *)
Theorem C17_no_trace : forall s e s', step s e = Some s' ->
  (match e with ECommitSql _ _ true => True | _ => j_data D s' = j_data D s /\ j_rows D s' = j_rows D s /\ j_hist D s' = j_hist D s end) /\
  (match e with EPublish _ _ | ECrash _ => True | _ => j_count D s' = j_count D s /\ j_last D s' = j_last D s end).
Proof.
  assert (R : forall t h, let t' := rollback D t h in j_data D t' = j_data D t /\ j_rows D t' = j_rows D t /\ j_hist D t' = j_hist D t /\
    j_count D t' = j_count D t /\ j_last D t' = j_last D t).
  { intros t h. unfold rollback. destruct (h_inside _); cbn; auto. }
  intros s e s' Hst. destruct e; cbn [jstep] in Hst; unfold idle_then in Hst; try (destruct (busy D s h); [discriminate|]).
  - unfold begin_transaction in Hst. destruct (if exclusive then _ else _) as [l|]; [|discriminate].
    destruct (h_inside (j_handles D s h)); injection Hst as <-; cbn.
    + match goal with |- context [rollback D ?t h] => destruct (R t h) as (A & B & C & E & F) end. cbn in A, B, C, E, F. auto.
    + auto.
  - injection Hst as <-. unfold write. destruct (negb _); [auto|].
    destruct fail as [k|]; [destruct (run_stmts D exec d (firstn k ss)) as [? rs]; destruct auto|destruct (run_stmts D exec d ss) as [? rs]]; cbn; auto.
  - unfold prepare_trim in Hst. destruct (negb _); [discriminate|]. destruct (_ || _); [discriminate|]. injection Hst as <-. cbn. auto.
  - unfold prepare_lock in Hst. destruct (negb _); [discriminate|]. destruct (h_locked _); [injection Hst as <-; auto|].
    destruct (acquire _ _); [|discriminate]. injection Hst as <-. cbn. auto.
  - unfold prepare_insert in Hst. destruct (negb _); [discriminate|]. destruct ok; injection Hst as <-.
    + cbn. auto.
    + match goal with |- context [rollback D ?t h] => destruct (R t h) as (A & B & C & E & F) end. cbn in A, B, C, E, F. auto.
  - unfold commit_check in Hst. destruct (negb (j_enabled D s)); [injection Hst as <-; auto|]. destruct (negb _); [discriminate|].
    destruct (h_hash _); [discriminate|]. destruct (h_phase _); try discriminate. destruct (h_row _); [|discriminate]. injection Hst as <-. cbn. auto.
  - unfold commit_sql in Hst. destruct (h_phase _); try discriminate. destruct (h_row _); [|discriminate]. destruct (h_auto _); [discriminate|].
    destruct ok; [|injection Hst as <-; cbn; auto]. destruct (rerun_groups _ _ _ _); [|discriminate]. injection Hst as <-. cbn. auto.
  - unfold commit_publish in Hst. destruct (h_phase _); try discriminate. injection Hst as <-. cbn. auto.
  - injection Hst as <-. destruct (R s h) as (A & B & C & E & F). auto.
  - unfold set_commit_enabled in Hst. destruct (acquire _ _); [|discriminate]. injection Hst as <-. cbn. auto.
  - destruct (Bool.eqb _ _); [injection Hst as <-; auto|discriminate].
  - injection Hst as <-. cbn. auto.
  - injection Hst as <-. cbn. auto.
Qed.


Lemma reach_run es : forall s s', reachable s -> run s es = Some s' -> j_misuse D s' = false -> reachable s'.
Proof.
  induction es as [|e es IH]; intros s s' Hr Hst Hm; cbn [jrun] in Hst; [injection Hst as <-; exact Hr|].
  destruct (step s e) as [s1|] eqn:E; [|discriminate]. eapply IH; [|exact Hst|exact Hm]. eapply reach_step; [exact Hr|exact E|].
  clear - Hst Hm. revert s1 Hst. induction es as [|x es IH]; intros s1 Hst; cbn [jrun] in Hst; [congruence|].
  destruct (step s1 x) as [s2|] eqn:E; [|discriminate]. eapply misuse_mono; [exact E|]. apply IH. exact Hst.
Qed.

Lemma leak_mono s e s' : step s e = Some s' -> e <> ECrash D -> j_leak D s' = false -> j_leak D s = false.
Proof.
  assert (R : forall t h, j_leak D (rollback D t h) = j_leak D t) by (intros t h; unfold rollback; destruct (h_inside _); reflexivity).
  intros Hst Hne Hl. destruct e; cbn [jstep] in Hst; unfold idle_then in Hst; try (destruct (busy D s h); [discriminate|]); try (elim Hne; reflexivity).
  - unfold begin_transaction in Hst. destruct (if exclusive then _ else _) as [l|]; [|discriminate].
    destruct (h_inside (j_handles D s h)); injection Hst as <-; cbn in Hl; apply orb_false_iff in Hl as [Hl _]; [rewrite R in Hl|]; exact Hl.
  - injection Hst as <-. unfold write in Hl. destruct (negb _); [exact Hl|].
    destruct fail as [k|]; [destruct (run_stmts D exec d (firstn k ss)) as [? rs]; destruct auto|destruct (run_stmts D exec d ss) as [? rs]]; exact Hl.
  - unfold prepare_trim in Hst. destruct (negb _); [discriminate|]. destruct (_ || _); [discriminate|]. injection Hst as <-. exact Hl.
  - unfold prepare_lock in Hst. destruct (negb _); [discriminate|]. destruct (h_locked _); [injection Hst as <-; exact Hl|].
    destruct (acquire _ _); [|discriminate]. injection Hst as <-. exact Hl.
  - unfold prepare_insert in Hst. destruct (negb _); [discriminate|]. destruct ok; injection Hst as <-; [|rewrite R in Hl]; exact Hl.
  - unfold commit_check in Hst. destruct (negb (j_enabled D s)); [injection Hst as <-; exact Hl|]. destruct (negb _); [discriminate|].
    destruct (h_hash _); [discriminate|]. destruct (h_phase _); try discriminate. destruct (h_row _); [|discriminate]. injection Hst as <-. exact Hl.
  - unfold commit_sql in Hst. destruct (h_phase _); try discriminate. destruct (h_row _); [|discriminate]. destruct (h_auto _); [discriminate|].
    destruct ok; [|injection Hst as <-; exact Hl]. destruct (rerun_groups _ _ _ _); [|discriminate]. injection Hst as <-. exact Hl.
  - unfold commit_publish in Hst. destruct (h_phase _); try discriminate. injection Hst as <-. exact Hl.
  - injection Hst as <-. rewrite R in Hl. exact Hl.
  - unfold set_commit_enabled in Hst. destruct (acquire _ _); [|discriminate]. injection Hst as <-. exact Hl.
  - destruct (Bool.eqb _ _); [injection Hst as <-; exact Hl|discriminate].
  - injection Hst as <-. exact Hl.
Qed.

Lemma reach_lock s : one_handle_per_thread thr -> honest_flags exec -> reachable s -> j_leak D s = false -> LockInv D thr s.
Proof.
  intros T F (es & Hr & Hm).
  assert (G : forall es s0, reachable s0 -> (j_leak D s0 = false -> LockInv D thr s0) -> run s0 es = Some s -> j_leak D s = false -> LockInv D thr s).
  { clear es Hr. induction es as [|e es IH]; intros s0 R0 H0 Hr Hl; cbn [jrun] in Hr; [injection Hr as ->; auto|].
    destruct (step s0 e) as [s1|] eqn:E; [|discriminate].
    assert (Hm1 : j_misuse D s1 = false).
    { clear - Hr Hm. revert s1 Hr. induction es as [|x es IH]; intros s1 Hst; cbn [jrun] in Hst; [congruence|].
      destruct (step s1 x) as [s2|] eqn:E; [|discriminate]. eapply misuse_mono; [exact E|]. apply IH. exact Hst. }
    assert (R1 : reachable s1) by (eapply reach_step; eauto).
    apply (IH s1 R1); [|exact Hr|exact Hl]. intros Hl1.
    destruct e; try (eapply LockInv_step; [exact T|apply H0; eapply leak_mono; [exact E|discriminate|exact Hl1]| |exact E|exact Hl1];
      intros k Hk; eapply durable_locked; [apply (reach_inv s0 T F R0)|exact Hk]).
    cbn [jstep] in E. injection E as <-. constructor; cbn; discriminate. }
  apply (G es (jinit D d0)); [|intros _; apply LockInv_init|exact Hr]. exists []. split; reflexivity.
Qed.

(** Rolling back ends the transaction of that handle, forgets its text and hash, gives the
    commit lock back, and touches nothing of any other handle. *)
Theorem C17_rollback_clean : forall s h s', one_handle_per_thread thr -> honest_flags exec -> reachable s -> j_leak D s = false ->
  step s (ERollback D h) = Some s' ->
  let x := j_handles D s' h in
  h_inside x = false /\ (forall c, j_lock D s' <> Some (thr h, c)) /\
  (h_inside (j_handles D s h) = true -> h_query x = [] /\ h_hash x = [] /\ h_groups x = [] /\ h_row x = None) /\
  (forall k, k <> h -> j_handles D s' k = j_handles D s k).
Proof.
  intros s h s' T F Hr Hl Hst. pose proof (reach_lock s T F Hr Hl) as L. cbn [jstep] in Hst. unfold idle_then in Hst.
  destruct (busy D s h); [discriminate|]. injection Hst as <-. destruct (lock_rollback D thr s h T L) as (_ & A & B & C).
  cbn zeta. split; [exact A|]. split; [exact C|]. unfold rollback. split.
  - intros Ei. rewrite Ei. hcbn. rewrite setH_same. hcbn. auto.
  - intros k Hk. destruct (h_inside (j_handles D s h)); [|reflexivity]. hcbn. apply setH_other. exact Hk.
Qed.

(** So once every transaction has ended, whatever happened in them, anyone can commit. *)
Theorem C17_lock_free_when_idle : forall s, one_handle_per_thread thr -> honest_flags exec -> reachable s -> j_leak D s = false ->
  (forall h, h_inside (j_handles D s h) = false) -> j_lock D s = None.
Proof.
  intros s T F Hr Hl Hi. pose proof (reach_lock s T F Hr Hl) as L. apply (lock_free D thr s L). intros h.
  destruct (h_locked (j_handles D s h)) eqn:E; [|reflexivity]. destruct (lk_held _ _ _ L h E). rewrite Hi in *. discriminate.
Qed.

(** ** C18 *)

(** A COMMIT succeeds only while commits are enabled. *)
Theorem C18_commit_needs_enabled : forall s h s', one_handle_per_thread thr -> honest_flags exec -> reachable s ->
  step s (ECommitSql D h true) = Some s' -> j_enabled D s = true.
Proof.
  intros s h s' T F Hr Hst. pose proof (reach_inv s T F Hr) as H. cbn [jstep] in Hst. unfold commit_sql in Hst.
  destruct (h_phase (j_handles D s h)) eqn:Ep; try discriminate.
  apply (hi_phase _ _ _ _ _ _ _ _ (ji_h _ _ _ _ _ _ _ _ H h)). rewrite Ep. discriminate.
Qed.

Definition enables (e : jevent D) : bool := match e with ESetEnabled _ _ b | ESetAlready _ _ b => b | ECrash _ => true | _ => false end.

Lemma enabled_kept s e s' : step s e = Some s' -> enables e = false -> j_enabled D s = false -> j_enabled D s' = false.
Proof.
  assert (R : forall t h, j_enabled D (rollback D t h) = j_enabled D t) by (intros t h; unfold rollback; destruct (h_inside _); reflexivity).
  intros Hst Hne Hl. destruct e; cbn [jstep] in Hst; unfold idle_then in Hst; try (destruct (busy D s h); [discriminate|]); try discriminate Hne.
  - unfold begin_transaction in Hst. destruct (if exclusive then _ else _) as [l|]; [|discriminate].
    destruct (h_inside (j_handles D s h)); injection Hst as <-; cbn; [rewrite R|]; exact Hl.
  - injection Hst as <-. unfold write. destruct (negb _); [exact Hl|].
    destruct fail as [k|]; [destruct (run_stmts D exec d (firstn k ss)) as [? rs]; destruct auto|destruct (run_stmts D exec d ss) as [? rs]]; exact Hl.
  - unfold prepare_trim in Hst. destruct (negb _); [discriminate|]. destruct (_ || _); [discriminate|]. injection Hst as <-. exact Hl.
  - unfold prepare_lock in Hst. destruct (negb _); [discriminate|]. destruct (h_locked _); [injection Hst as <-; exact Hl|].
    destruct (acquire _ _); [|discriminate]. injection Hst as <-. exact Hl.
  - unfold prepare_insert in Hst. destruct (negb _); [discriminate|]. destruct ok; injection Hst as <-; [|rewrite R]; exact Hl.
  - unfold commit_check in Hst. destruct (negb (j_enabled D s)); [injection Hst as <-; exact Hl|]. destruct (negb _); [discriminate|].
    destruct (h_hash _); [discriminate|]. destruct (h_phase _); try discriminate. destruct (h_row _); [|discriminate]. injection Hst as <-. exact Hl.
  - unfold commit_sql in Hst. destruct (h_phase _); try discriminate. destruct (h_row _); [|discriminate]. destruct (h_auto _); [discriminate|].
    destruct ok; [|injection Hst as <-; exact Hl]. destruct (rerun_groups _ _ _ _); [|discriminate]. injection Hst as <-. exact Hl.
  - unfold commit_publish in Hst. destruct (h_phase _); try discriminate. injection Hst as <-. exact Hl.
  - injection Hst as <-. rewrite R. exact Hl.
  - unfold set_commit_enabled in Hst. destruct (acquire _ _); [|discriminate]. injection Hst as <-. exact Hne.
  - destruct (Bool.eqb _ _); [injection Hst as <-; exact Hl|discriminate].
  - injection Hst as <-. exact Hl.
Qed.

(** Once a call disabling commits has returned, nothing becomes durable and the visible count
    does not move, until commits are enabled again or the process restarts: not even commits
    that were already prepared or waiting for the lock. *)
Theorem C18_disabled_stays_still : forall s h e s1 es s2, one_handle_per_thread thr -> honest_flags exec -> reachable s ->
  (e = ESetEnabled D h false \/ e = ESetAlready D h false) -> step s e = Some s1 ->
  forallb (fun x => negb (enables x)) es = true -> run s1 es = Some s2 -> j_misuse D s2 = false ->
  j_hist D s2 = j_hist D s /\ j_data D s2 = j_data D s /\ j_rows D s2 = j_rows D s /\
  j_count D s2 = j_count D s /\ j_last D s2 = j_last D s /\ j_count D s = N.of_nat (List.length (j_hist D s)).
Proof.
  intros s h e s1 es s2 T F Hr He Hst Hes Hrun Hm.
  assert (Hm1 : j_misuse D s1 = false).
  { clear - Hrun Hm. revert s1 Hrun. induction es as [|x es IH]; intros s1 Hst; cbn [jrun] in Hst; [congruence|].
    destruct (step s1 x) as [s2'|] eqn:E; [|discriminate]. eapply misuse_mono; [exact E|]. apply IH. exact Hst. }
  assert (R1 : reachable s1) by (eapply reach_step; eauto).
  assert (En : j_enabled D s1 = false).
  { destruct He as [->| ->]; cbn [jstep] in Hst; unfold idle_then in Hst; destruct (busy D s h); try discriminate.
    - unfold set_commit_enabled in Hst. destruct (acquire _ _); [|discriminate]. injection Hst as <-. reflexivity.
    - destruct (j_enabled D s) eqn:E; [discriminate|]. injection Hst as <-. exact E. }
  assert (Same : j_hist D s1 = j_hist D s /\ j_data D s1 = j_data D s /\ j_rows D s1 = j_rows D s /\ j_count D s1 = j_count D s /\ j_last D s1 = j_last D s).
  { destruct (C17_no_trace s e s1 Hst) as [A B]. destruct He as [->| ->]; intuition. }
  destruct Same as (<- & <- & <- & <- & <-). clear e He Hst Hr s. rename s1 into s.
  assert (G : forall es s, reachable s -> j_enabled D s = false -> forallb (fun x => negb (enables x)) es = true -> run s es = Some s2 ->
     j_hist D s2 = j_hist D s /\ j_data D s2 = j_data D s /\ j_rows D s2 = j_rows D s /\ j_count D s2 = j_count D s /\ j_last D s2 = j_last D s).
  { clear es s Hes Hrun Hm1 R1 En. induction es as [|e es IH]; intros s Hr En Hes Hrun; cbn [jrun] in Hrun; [injection Hrun as <-; auto|].
    cbn [forallb] in Hes. apply andb_true_iff in Hes as [He Hes]. apply negb_true_iff in He.
    destruct (step s e) as [s1|] eqn:E; [|discriminate].
    assert (Hm1 : j_misuse D s1 = false).
    { clear - Hrun Hm. revert s1 Hrun. induction es as [|x es IH]; intros s1 Hst; cbn [jrun] in Hst; [congruence|].
      destruct (step s1 x) as [s2'|] eqn:E; [|discriminate]. eapply misuse_mono; [exact E|]. apply IH. exact Hst. }
    destruct (IH s1) as (A1 & A2 & A3 & A4 & A5); [eapply reach_step; eauto|eapply enabled_kept; eauto|exact Hes|exact Hrun|].
    rewrite A1, A2, A3, A4, A5. destruct (C17_no_trace s e s1 E) as [A B].
    pose proof (reach_inv s T F Hr) as H.
    assert (Idle : forall k, h_phase (j_handles D s k) = CIdle).
    { intros k. destruct (h_phase (j_handles D s k)) eqn:Ep; [reflexivity| |];
        (enough (j_enabled D s = true) by congruence; apply (hi_phase _ _ _ _ _ _ _ _ (ji_h _ _ _ _ _ _ _ _ H k)); rewrite Ep; discriminate). }
    destruct e; try (intuition; fail).
    - destruct ok; [|intuition]. exfalso. cbn [jstep] in E. unfold commit_sql in E. rewrite Idle in E. discriminate.
    - exfalso. cbn [jstep] in E. unfold commit_publish in E. rewrite Idle in E. discriminate.
    - discriminate He. }
  destruct (G es s R1 En Hes Hrun) as (A1 & A2 & A3 & A4 & A5). repeat split; try assumption.
  pose proof (reach_inv s T F R1) as H. destruct (ji_len _ _ _ _ _ _ _ _ H) as [(A & _)|(k & e & l & r & _ & _ & _ & A6 & _)]; [symmetry; exact A|].
  enough (j_enabled D s = true) by congruence. apply (hi_phase _ _ _ _ _ _ _ _ (ji_h _ _ _ _ _ _ _ _ H k)). rewrite A6. discriminate.
Qed.

(** ** C19 *)

(** The latest [maxJ] commits can always be read, and a commit that has disappeared from the
    journal was more than [maxJ] old when it did. *)
Theorem C19_recent_kept : forall s i, one_handle_per_thread thr -> honest_flags exec -> reachable s ->
  (1 <= i <= N.of_nat (List.length (j_hist D s)))%N -> (N.of_nat (List.length (j_hist D s)) <= i + maxJ)%N ->
  exists r, get_commit (j_rows D s) i = Some r /\ r_id r = i.
Proof.
  intros s i T F Hr Hi Hk.
  assert (exists e, commit_no (j_hist D s) i = Some e) as (e & He).
  { unfold commit_no. destruct (N.eqb_spec i 0); [lia|].
    destruct (nth_error (j_hist D s) (N.to_nat i - 1)) as [e|] eqn:En; [exists e; reflexivity|]. apply nth_error_None in En. lia. }
  destruct (C16_read_back s i e T F Hr He Hk) as (r & A & _). exists r. split; [exact A|].
  unfold get_commit in A. apply find_some in A as [_ A]. apply N.eqb_eq in A. exact A.
Qed.
Theorem C19_only_old_removed : forall s e s' r, one_handle_per_thread thr -> honest_flags exec -> reachable s ->
  step s e = Some s' -> In r (j_rows D s) -> ~ In r (j_rows D s') -> (r_id r + maxJ < j_count D s)%N.
Proof.
  intros s e s' r T F Hr Hst Hin Hout. destruct (C17_no_trace s e s' Hst) as [A _].
  destruct e; try (exfalso; apply Hout; destruct A as (_ & -> & _); exact Hin).
  destruct ok; [|exfalso; apply Hout; destruct A as (_ & -> & _); exact Hin]. clear A.
  pose proof (reach_inv s T F Hr) as H. cbn [jstep] in Hst. unfold commit_sql in Hst. destruct (h_phase _); try discriminate.
  destruct (h_row (j_handles D s h)) as [r0|] eqn:Er; [|discriminate]. destruct (h_auto _); [discriminate|].
  destruct (rerun_groups _ _ _ _); [|discriminate]. injection Hst as <-. cbn [j_rows] in Hout.
  destruct (existsb (fun p => same_row p r) (h_dels (j_handles D s h))) eqn:Ex.
  - apply existsb_exists in Ex as ([t i] & Hd & Hs). unfold same_row in Hs. apply andb_true_iff in Hs as [_ Hs]. apply N.eqb_eq in Hs. cbn in Hs. subst i.
    pose proof (hi_dels _ _ _ _ _ _ _ _ (ji_h _ _ _ _ _ _ _ _ H h) _ _ Hd) as Hlt. unfold oldest_to_keep in Hlt.
    destruct (N.ltb_spec (j_count D s) maxJ); lia.
  - exfalso. apply Hout, in_app_iff. left. apply filter_In. split; [exact Hin|]. rewrite Ex. reflexivity.
Qed.

(** ** C38, the source of the stream *)

(** What popCommittedTransactions has returned so far, followed by what it would return now,
    is every commit published since the process started: in order, each once, each with the
    text and hash of its journal row. *)
Theorem C38_popped_in_order : forall s, one_handle_per_thread thr -> honest_flags exec -> reachable s ->
  (forall h, h_phase (j_handles D s h) <> CDurable) ->
  j_popped D s ++ j_committed D s = numbered comp (j_base D s) (skipn (N.to_nat (j_base D s)) (j_hist D s)).
Proof.
  intros s T F Hr Hd. pose proof (reach_inv s T F Hr) as H. rewrite (ji_pop _ _ _ _ _ _ _ _ H).
  destruct (ji_len _ _ _ _ _ _ _ _ H) as [(A & _)|(k & e & l & r & _ & _ & _ & A4 & _)]; [|elim (Hd k A4)].
  rewrite firstn_all_N by exact A. reflexivity.
Qed.
End Props.

Print Assumptions C16_history.
Print Assumptions C16_commit_is_next.
Print Assumptions C16_read_back.
Print Assumptions C16_data_is_replay.
Print Assumptions C16_restart.
Print Assumptions C17_no_trace.
Print Assumptions C17_rollback_clean.
Print Assumptions C17_lock_free_when_idle.
Print Assumptions C18_commit_needs_enabled.
Print Assumptions C18_disabled_stays_still.
Print Assumptions C19_recent_kept.
Print Assumptions C19_only_old_removed.
Print Assumptions C38_popped_in_order.

(** ** A concrete database: the data is the list of statements executed; a statement "n" does
    nothing. The digest just copies its input. *)
Definition ex_exec (d : list stmt) (q : stmt) : list stmt * bool := if bytes_eqb q (lit "n") then (d, false) else (d ++ [q], true).
Definition ex_sha (b : bytes) : bytes := lit "#" ++ b.
Definition ex_comp (b : bytes) : bytes := lit "z" ++ b.
Notation ED := (list stmt).
Notation ex_step := (jstep ED ex_exec ex_sha ex_comp 1 2).
Notation ex_run := (jrun ED ex_exec ex_sha ex_comp 1 2).
Lemma ex_honest : honest_flags ex_exec.
Proof. intros d q. unfold ex_exec. destruct (bytes_eqb _ _); [reflexivity|discriminate]. Qed.
Lemma ex_threads : one_handle_per_thread (fun h => h).
Proof. intros a b H. exact H. Qed.

Definition ex_commit (h : nat) (dels : list N) : list (jevent ED) :=
  [EPrepTrim _ h dels; EPrepLock _ h; EPrepInsert _ h true; ECommitCheck _ h; ECommitSql _ h true; EPublish _ h].
(** Two handles interleaved, one conflict, one rollback, a trim that removes the first commit, and a crash between a COMMIT
    and its publication. *)
Definition ex_events : list (jevent ED) :=
  [EBegin _ 0 false true; EBegin _ 1 false true; EWrite _ 0 [] [lit "a"; lit "n"] None false false; EWrite _ 1 [] [lit "b"] None false false] ++
  ex_commit 0 [] ++
  [EPrepTrim _ 1 []; EPrepLock _ 1; EPrepInsert _ 1 true; ECommitCheck _ 1; ECommitSql _ 1 false; ERollback _ 1] ++
  [EBegin _ 1 false true; EWrite _ 1 [lit "a"] [lit "b"] None false false] ++ ex_commit 1 [] ++
  [EPop _; EBegin _ 2 true true; EWrite _ 2 [lit "a"; lit "b"] [lit "n"] None false false; EWrite _ 2 [lit "a"; lit "b"] [lit "c"] None false false] ++
  ex_commit 2 [0%N] ++
  [EBegin _ 0 false true; EWrite _ 0 [lit "a"; lit "b"; lit "c"] [lit "d"] None false false; EPrepTrim _ 0 [1%N]; EPrepLock _ 0; EPrepInsert _ 0 true;
   ECommitCheck _ 0; ECommitSql _ 0 true].

Example ex_reachable : exists s, ex_run (fun h => h) (jinit ED []) ex_events = Some s /\ j_misuse ED s = false /\ j_leak ED s = false /\
  List.length (j_hist ED s) = 4 /\ j_count ED s = 3%N /\ map r_id (j_rows ED s) = [2%N; 3%N; 4%N] /\ List.length (j_popped ED s) = 2 /\
  j_data ED s = [lit "a"; lit "b"; lit "c"; lit "d"] /\ h_phase (j_handles ED s 0) = CDurable.
Proof. eexists. split; [vm_compute; reflexivity|]. vm_compute. repeat split. Qed.
(** After the restart the fourth commit counts. *)
Example ex_restart : exists s, ex_run (fun h => h) (jinit ED []) (ex_events ++ [ECrash _]) = Some s /\ j_count ED s = 4%N /\ j_base ED s = 4%N.
Proof. eexists. split; [vm_compute; reflexivity|]. vm_compute. repeat split. Qed.
(** Disabling while a prepared transaction holds the lock waits; afterwards its commit is
    refused. *)
Example ex_disable_waits : exists s, ex_run (fun h => h) (jinit ED []) [EBegin _ 0 false true; EPrepTrim _ 0 []; EPrepLock _ 0; EPrepInsert _ 0 true] = Some s /\
  ex_step (fun h => h) s (ESetEnabled _ 1 false) = None /\
  (exists s2, ex_run (fun h => h) s [ERollback _ 0; ESetEnabled _ 1 false; EBegin _ 0 false true; EPrepTrim _ 0 []; EPrepLock _ 0; EPrepInsert _ 0 true; ECommitCheck _ 0] = Some s2 /\
     ex_step (fun h => h) s2 (ECommitSql _ 0 true) = None /\ j_misuse ED s2 = false).
Proof. eexists. split; [vm_compute; reflexivity|]. split; [reflexivity|]. eexists. split; [vm_compute; reflexivity|]. vm_compute. split; reflexivity. Qed.

(** ** What is false without the caller rules *)

(** A write call that fails after changing data, followed by a commit: the committed data is
    no longer the replay of the journal, so followers diverge. *)
Theorem C16_partial_write_refuted : exists s, ex_run (fun h => h) (jinit ED [])
    ([EBegin _ 0 false true; EWrite _ 0 [] [lit "a"; lit "bad"] (Some 1) false false; EWrite _ 0 [lit "a"] [lit "b"] None false false] ++ ex_commit 0 []) = Some s /\
  replay ED ex_exec [] (j_hist ED s) = [lit "b"] /\ j_data ED s = [lit "a"; lit "b"].
Proof. eexists. split; [vm_compute; reflexivity|]. vm_compute. split; reflexivity. Qed.

(** The lock is recursive per thread: one thread with two handles gets through prepare twice
    and commits two transactions with the same number. *)
Theorem C16_shared_thread_refuted : exists s, ex_run (fun _ => 0) (jinit ED [])
    [EBegin _ 0 false true; EBegin _ 1 false true; EWrite _ 0 [] [lit "a"] None false false; EWrite _ 1 [] [lit "b"] None false false;
     EPrepTrim _ 0 []; EPrepLock _ 0; EPrepInsert _ 0 true; EPrepTrim _ 1 []; EPrepLock _ 1; EPrepInsert _ 1 true;
     ECommitCheck _ 0; ECommitSql _ 0 true; EPublish _ 0; ECommitCheck _ 1; ECommitSql _ 1 true; EPublish _ 1] = Some s /\
  j_misuse ED s = false /\ map r_id (j_rows ED s) = [1%N; 1%N].
Proof. eexists. split; [vm_compute; reflexivity|]. vm_compute. split; reflexivity. Qed.

(** When BEGIN fails for an exclusive transaction the call reports failure but keeps the lock,
    and rolling back does not release it: no other thread can commit any more. *)
Theorem C17_begin_failure_leaks_refuted : exists s, ex_run (fun h => h) (jinit ED [])
    [EBegin _ 0 true false; ERollback _ 0; EBegin _ 1 false true; EPrepTrim _ 1 []] = Some s /\
  h_inside (j_handles ED s 0) = false /\ j_lock ED s = Some (0, 1) /\ ex_step (fun h => h) s (EPrepLock _ 1) = None.
Proof. eexists. split; [vm_compute; reflexivity|]. vm_compute. repeat split. Qed.
(** So does an exclusive begin inside a transaction that already holds the lock. *)
Theorem C17_nested_begin_leaks_refuted : exists s, ex_run (fun h => h) (jinit ED []) [EBegin _ 0 true true; EBegin _ 0 true true; ERollback _ 0] = Some s /\
  h_inside (j_handles ED s 0) = false /\ j_lock ED s = Some (0, 1).
Proof. eexists. split; [vm_compute; reflexivity|]. vm_compute. repeat split. Qed.
Print Assumptions C16_partial_write_refuted.
Print Assumptions C16_shared_thread_refuted.
Print Assumptions C17_begin_failure_leaks_refuted.
Print Assumptions C17_nested_begin_leaks_refuted.
