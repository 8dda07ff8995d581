(** Invariant of the transaction layer. *)
From Verif Require Import Base Maps Journal_Model Journal_Spec.
Require Import Permutation.

Lemma nth_error_snoc {A} (l : list A) x : nth_error (l ++ [x]) (List.length l) = Some x.
Proof. rewrite nth_error_app2 by lia. rewrite Nat.sub_diag. reflexivity. Qed.

Ltac hcbn := cbn [h_inside h_auto h_locked h_query h_hash h_groups h_dels h_row h_tab h_phase h_dirty
  withH withHL misused leaked j_data j_rows j_handles j_lock j_enabled j_count j_last j_next j_prepared j_committed j_popped j_hist j_base j_misuse j_leak].

Section P.
Variable D : Type.
Variable exec : D -> stmt -> D * bool.
Variable sha1hex comp : bytes -> bytes.
Variable maxJ : N.
Variable nJ : nat.
Variable thr : nat -> nat.
Hypothesis thr_inj : forall a b, thr a = thr b -> a = b.
Hypothesis exec_unchanged : forall d q, snd (exec d q) = false -> fst (exec d q) = d.
Variable d0 : D.

Notation jst := (jstate D).
Notation step := (jstep D exec sha1hex comp maxJ nJ thr).
Notation run := (jrun D exec sha1hex comp maxJ nJ thr).
Notation stored := (stored comp).
Notation chained := (chained sha1hex).

Lemma chained_app l : forall p e, chained p (l ++ [e]) <-> chained p l /\ c_hash e = sha1hex (last_hash p l ++ c_query e).
Proof.
  induction l as [|x l IH]; intros p e; cbn [app Journal_Spec.chained].
  - unfold last_hash. cbn. tauto.
  - rewrite IH. unfold last_hash. cbn [map]. destruct (map c_hash l) eqn:E.
    + cbn. tauto.
    + replace (last (c_hash x :: b :: l0) p) with (last (b :: l0) (c_hash x)).
      * tauto.
      * clear. revert b. induction l0 as [|y l0 IH]; intros b; [reflexivity|]. cbn [last]. cbn [last] in IH. destruct l0; [reflexivity|]. exact (IH y).
Qed.
Lemma last_hash_app p l e : last_hash p (l ++ [e]) = c_hash e.
Proof. unfold last_hash. rewrite map_app. cbn. apply last_last. Qed.

Definition qtext (gs : list wgroup) : bytes := concat (map (fun g : wgroup => if snd g then concat (map fst (fst g)) else []) gs).
Lemma qtext_app a b : qtext (a ++ b) = qtext a ++ qtext b.
Proof. unfold qtext. rewrite map_app, concat_app. reflexivity. Qed.
Lemma qtext_snoc gs rs k : qtext (gs ++ [(rs, k)]) = qtext gs ++ (if k then concat (map fst rs) else []).
Proof. rewrite qtext_app. f_equal. unfold qtext. cbn. apply app_nil_r. Qed.
Lemma qtext_entry gs : qtext gs = concat (concat (map (fun g : wgroup => if snd g then map fst (fst g) else []) gs)).
Proof.
  unfold qtext. induction gs as [|[rs k] gs IH]; [reflexivity|]. cbn. rewrite concat_app, IH. destruct k; reflexivity.
Qed.

Lemma run_stmts_fst ss : forall d, map fst (snd (run_stmts D exec d ss)) = ss.
Proof.
  induction ss as [|q ss IH]; intros d; [reflexivity|]. cbn. destruct (exec d q) as [d1 c]. specialize (IH d1).
  destruct (run_stmts D exec d1 ss) as [d2 r]. cbn in *. rewrite IH. reflexivity.
Qed.

Lemma replay_stmts_app d a b : replay_stmts D exec d (a ++ b) = replay_stmts D exec (replay_stmts D exec d a) b.
Proof. unfold replay_stmts. apply fold_left_app. Qed.
Lemma rerun_replay rs : forall d d', rerun D exec d rs = Some d' -> replay_stmts D exec d (map fst rs) = d'.
Proof.
  induction rs as [|[q c] rs IH]; intros d d' H; cbn in H; [cbn; congruence|]. cbn.
  destruct (exec d q) as [d1 c'] eqn:E. destruct (Bool.eqb c c'); [|discriminate]. cbn. apply IH. exact H.
Qed.
Lemma rerun_unchanged rs : forall d d', forallb (fun p => negb (snd p)) rs = true -> rerun D exec d rs = Some d' -> d' = d.
Proof.
  induction rs as [|[q c] rs IH]; intros d d' Hf H; cbn in H; [congruence|]. cbn in Hf. apply andb_true_iff in Hf as [Hc Hf].
  destruct c; [discriminate|]. pose proof (exec_unchanged d q) as U. destruct (exec d q) as [d1 c']. cbn in U.
  destruct c'; cbn in H; [discriminate|]. rewrite (U eq_refl) in H. exact (IH d d' Hf H).
Qed.
Definition tidy (gs : list wgroup) : Prop := forall rs, In (rs, false) gs -> forallb (fun p : stmt * bool => negb (snd p)) rs = true.
Lemma rerun_groups_replay gs : forall d d', tidy gs -> rerun_groups D exec d gs = Some d' ->
  replay_stmts D exec d (concat (map (fun g : wgroup => if snd g then map fst (fst g) else []) gs)) = d'.
Proof.
  induction gs as [|[rs k] gs IH]; intros d d' Ht H; cbn in H; [cbn; congruence|].
  destruct (rerun D exec d rs) as [d1|] eqn:E; [|discriminate].
  cbn [map concat snd fst]. assert (Ht' : tidy gs). { intros r Hr. apply Ht. right. exact Hr. }
  destruct k.
  - rewrite replay_stmts_app. rewrite (rerun_replay _ _ _ E). apply IH; assumption.
  - cbn [app]. rewrite (rerun_unchanged rs d d1 (Ht rs (or_introl eq_refl)) E) in H. apply IH; assumption.
Qed.

Lemma numbered_app l : forall n e, numbered comp n (l ++ [e]) = numbered comp n l ++ [((n + N.of_nat (List.length l) + 1)%N, (stored (c_query e), c_hash e))].
Proof.
  induction l as [|x l IH]; intros n e; cbn [app numbered List.length].
  - replace (n + N.of_nat 0)%N with n by lia. reflexivity.
  - rewrite IH. replace (n + 1 + N.of_nat (List.length l))%N with (n + N.of_nat (S (List.length l)))%N by lia. reflexivity.
Qed.
Lemma numbered_ids l : forall n i v, In (i, v) (numbered comp n l) -> (n < i <= n + N.of_nat (List.length l))%N.
Proof.
  induction l as [|x l IH]; intros n i v; cbn [numbered In List.length]; [contradiction|].
  intros [[= <- _]|Hi]; [lia|]. apply IH in Hi. lia.
Qed.

Definition row_ok (hist : list centry) (r : row) : Prop :=
  exists e, commit_no hist (r_id r) = Some e /\ r_hash r = c_hash e /\ r_query r = stored (c_query e).

(** What holds of each handle. *)
Record HInv (s : jst) (h : nat) (x : handle) : Prop := {
  hi_lock : h_locked x = true -> exists c, j_lock D s = Some (thr h, S c);
  hi_row : forall r, h_row x = Some r -> h_locked x = true /\ h_inside x = true /\ h_auto x = false;
  hi_phase : h_phase x <> CIdle -> h_row x <> None /\ j_enabled D s = true;
  hi_tidy : h_dirty x = false -> tidy (h_groups x);
  hi_query : h_dirty x = false -> h_auto x = false -> h_row x = None -> h_query x = qtext (h_groups x);
  hi_out : h_inside x = false -> h_query x = [] /\ h_hash x = [] /\ h_groups x = [] /\ h_row x = None /\ h_phase x = CIdle;
  hi_prep : forall r, h_row x = Some r -> h_phase x <> CDurable -> h_dirty x = false ->
            r_id r = (j_count D s + 1)%N /\ r_hash r = sha1hex (j_last D s ++ qtext (h_groups x)) /\ r_query r = stored (qtext (h_groups x)) /\
            h_hash x = r_hash r /\ aget N.eqb (j_count D s + 1)%N (j_prepared D s) = Some (r_query r, r_hash r);
  hi_dels : forall t i, In (t, i) (h_dels x) -> (i < oldest_to_keep maxJ (j_count D s))%N
}.

Record JInv (s : jst) : Prop := {
  ji_h : forall h, HInv s h (j_handles D s h);
  ji_lockwf : forall o c, j_lock D s = Some (o, c) -> c <> 0;
  ji_chain : chained [] (j_hist D s);
  ji_text : forall e, In e (j_hist D s) -> c_query e = concat (entry_stmts e);
  ji_rows : forall r, In r (j_rows D s) -> row_ok (j_hist D s) r;
  ji_nd : NoDup (map r_id (j_rows D s));
  ji_keep : forall i, (1 <= i <= N.of_nat (List.length (j_hist D s)))%N -> (oldest_to_keep maxJ (j_count D s) <= i)%N -> In i (map r_id (j_rows D s));
  ji_data : replay D exec d0 (j_hist D s) = j_data D s;
  ji_base : (j_base D s <= j_count D s)%N;
  ji_pop : j_popped D s ++ j_committed D s =
           numbered comp (j_base D s) (skipn (N.to_nat (j_base D s)) (firstn (N.to_nat (j_count D s)) (j_hist D s)));
  ji_len : (N.of_nat (List.length (j_hist D s)) = j_count D s /\ j_last D s = last_hash [] (j_hist D s) /\ (forall h, h_phase (j_handles D s h) <> CDurable)) \/
           (exists h e l r, j_hist D s = l ++ [e] /\ N.of_nat (List.length l) = j_count D s /\ j_last D s = last_hash [] l /\
              h_phase (j_handles D s h) = CDurable /\ h_row (j_handles D s h) = Some r /\ h_hash (j_handles D s h) = r_hash r /\ r_hash r = c_hash e /\
              r_query r = stored (c_query e) /\ aget N.eqb (j_count D s + 1)%N (j_prepared D s) = Some (r_query r, r_hash r))
}.

Lemma JInv_init : JInv (jinit D d0).
Proof.
  constructor; cbn; try easy; try constructor.
  - intros i Hi. lia.
  - repeat split; try reflexivity. discriminate.
Qed.

Lemma oldest_mono a b : (a <= b)%N -> (oldest_to_keep maxJ a <= oldest_to_keep maxJ b)%N.
Proof. unfold oldest_to_keep. destruct (N.ltb_spec a maxJ), (N.ltb_spec b maxJ); lia. Qed.

(** A handle without the lock does not care about the shared data. *)
Lemma HInv_frame s s' h x : HInv s h x ->
  (j_lock D s' = j_lock D s /\ j_enabled D s' = j_enabled D s /\ j_count D s' = j_count D s /\ j_last D s' = j_last D s /\ j_prepared D s' = j_prepared D s) ->
  HInv s' h x.
Proof.
  intros H (E1 & E2 & E3 & E4 & E5). destruct H. constructor; rewrite ?E1, ?E2, ?E3, ?E4, ?E5; assumption.
Qed.
Lemma HInv_unlocked s s' h x : HInv s h x -> h_locked x = false -> (j_count D s <= j_count D s')%N -> HInv s' h x.
Proof.
  intros H Hl Hc. assert (Hr : h_row x = None). { destruct (h_row x) eqn:E; [|reflexivity]. destruct (hi_row _ _ _ H _ E). congruence. }
  constructor; try apply H.
  - congruence.
  - intros Hp. destruct (hi_phase _ _ _ H Hp) as [? _]. contradiction.
  - intros r E. congruence.
  - intros t i Hi. pose proof (hi_dels _ _ _ H t i Hi). pose proof (oldest_mono _ _ Hc). lia.
Qed.
(** Only one handle holds the lock. *)
Lemma lock_unique s a b x y : HInv s a x -> HInv s b y -> h_locked x = true -> h_locked y = true -> a = b.
Proof.
  intros Ha Hb La Lb. destruct (hi_lock _ _ _ Ha La) as [c Ec]. destruct (hi_lock _ _ _ Hb Lb) as [c' Ec']. apply thr_inj. congruence.
Qed.
Lemma acquired_others s h l a x : HInv s a x -> acquire (thr h) (j_lock D s) = Some l -> a <> h -> h_locked x = false.
Proof.
  intros Ha E Hne. destruct (h_locked x) eqn:El; [|reflexivity]. destruct (hi_lock _ _ _ Ha El) as [c Ec]. rewrite Ec in E. cbn in E.
  destruct (Nat.eqb_spec (thr a) (thr h)) as [Et|]; [|discriminate]. elim Hne. apply thr_inj. exact Et.
Qed.
Lemma acquired_lock s h l : (forall o c, j_lock D s = Some (o, c) -> c <> 0) -> acquire (thr h) (j_lock D s) = Some l ->
  exists c, l = Some (thr h, S c) /\ release l = j_lock D s.
Proof.
  intros W. destruct (j_lock D s) as [[o c]|] eqn:E; cbn; [|intros [= <-]; exists 0; auto].
  destruct (Nat.eqb_spec o (thr h)) as [->|]; [|discriminate]. intros [= <-]. exists c. split; [reflexivity|].
  specialize (W _ _ eq_refl). destruct c; [contradiction|]. reflexivity.
Qed.
Lemma durable_locked s h : JInv s -> h_phase (j_handles D s h) = CDurable -> h_locked (j_handles D s h) = true.
Proof.
  intros H E. pose proof (ji_h _ H h) as Hh. destruct (hi_phase _ _ _ Hh) as [Hr _]; [congruence|].
  destruct (h_row (j_handles D s h)) eqn:Er; [|contradiction]. apply (hi_row _ _ _ Hh _ Er).
Qed.

Lemma setH_same s h x : setH D s h x h = x. Proof. unfold setH. rewrite Nat.eqb_refl. reflexivity. Qed.
Lemma setH_other s h x a : a <> h -> setH D s h x a = j_handles D s a.
Proof. intros Hne. unfold setH. destruct (Nat.eqb_spec a h); [contradiction|reflexivity]. Qed.

(** Steps that change only one handle and possibly the lock, when no commit of that handle is
    in progress. *)
Lemma local_inv s s' h x' :
  JInv s -> h_phase (j_handles D s h) <> CDurable -> h_phase x' <> CDurable ->
  j_handles D s' h = x' -> (forall a, a <> h -> j_handles D s' a = j_handles D s a) ->
  j_data D s' = j_data D s -> j_rows D s' = j_rows D s -> j_count D s' = j_count D s -> j_last D s' = j_last D s ->
  j_committed D s' = j_committed D s -> j_popped D s' = j_popped D s -> j_hist D s' = j_hist D s -> j_base D s' = j_base D s ->
  (forall o c, j_lock D s' = Some (o, c) -> c <> 0) ->
  HInv s' h x' ->
  (forall a, a <> h -> HInv s a (j_handles D s a) -> HInv s' a (j_handles D s a)) ->
  (forall a, a <> h -> h_phase (j_handles D s a) = CDurable -> j_prepared D s' = j_prepared D s) ->
  JInv s'.
Proof.
  intros H Hd Hd' Eh Eo Ed Er Ec El Eco Ep Ehi Eb Lw Hh Ho Hpr.
  constructor; rewrite ?Ed, ?Er, ?Ec, ?El, ?Eco, ?Ep, ?Ehi, ?Eb; try apply H.
  - intros a. destruct (Nat.eq_dec a h) as [->|Hne]; [rewrite Eh; exact Hh|].
    rewrite Eo by exact Hne. apply Ho; [exact Hne|apply H].
  - exact Lw.
  - destruct (ji_len _ H) as [(A & B & C)|(k & e & l & r & A1 & A2 & A3 & A4 & A5 & A6 & A7 & A8 & A9)].
    + left. split; [exact A|]. split; [exact B|]. intros a. destruct (Nat.eq_dec a h) as [->|Hne].
      * rewrite Eh. exact Hd'.
      * rewrite Eo by exact Hne. apply C.
    + right. assert (Hne : k <> h). { intros ->. contradiction. }
      exists k, e, l, r. rewrite Eo by exact Hne. rewrite (Hpr k Hne A4). repeat (split; [assumption|]). assumption.
Qed.

Lemma simple_local s h x' b1 b2 : JInv s -> h_phase (j_handles D s h) = CIdle -> h_phase x' <> CDurable -> HInv (withH D s h x') h x' ->
  JInv (leaked D (misused D (withH D s h x') b1) b2).
Proof.
  intros H Hp Hp' Hh. eapply (local_inv s _ h x' H); try reflexivity; try assumption.
  - congruence.
  - cbn. apply setH_same.
  - intros a Hne. cbn. apply setH_other. exact Hne.
  - cbn. apply H.
  - eapply HInv_frame; [exact Hh|]. repeat split; reflexivity.
  - intros a _ Ha. eapply HInv_frame; [exact Ha|]. repeat split; reflexivity.
Qed.

Lemma released s h l : JInv s -> HInv s h (j_handles D s h) -> h_locked (j_handles D s h) = true -> l = release (j_lock D s) ->
  (forall o c, l = Some (o, c) -> c <> 0) /\
  (forall a, a <> h -> h_locked (j_handles D s a) = false).
Proof.
  intros H Hh Hl ->. split.
  - intros o c. destruct (j_lock D s) as [[o' [|[|c']]]|]; cbn; try discriminate. intros [= _ <-]. discriminate.
  - intros a Hne. destruct (h_locked (j_handles D s a)) eqn:E; [|reflexivity].
    elim Hne. eapply (lock_unique s); [apply H|apply H|exact E|exact Hl].
Qed.

Lemma HInv_out s h t : HInv s h (mkH false false false [] [] [] [] None t CIdle false).
Proof. constructor; cbn; easy. Qed.

Lemma rollback_inv s h : JInv s -> h_phase (j_handles D s h) = CIdle -> JInv (rollback D s h).
Proof.
  intros H Hp. unfold rollback. destruct (h_inside (j_handles D s h)) eqn:Ei; [|exact H].
  destruct (h_locked (j_handles D s h)) eqn:El.
  - destruct (released s h _ H (ji_h _ H h) El eq_refl) as [W O].
    eapply (local_inv s _ h (mkH false false false [] [] [] [] None (h_tab (j_handles D s h)) CIdle false) H); try reflexivity.
    + congruence.
    + discriminate.
    + apply setH_same.
    + intros a Hne. apply setH_other. exact Hne.
    + exact W.
    + apply HInv_out.
    + intros a Hne Ha. eapply HInv_unlocked; [exact Ha|apply O; exact Hne|cbn; lia].
  - eapply (local_inv s _ h (mkH false false false [] [] [] [] None (h_tab (j_handles D s h)) CIdle false) H); try reflexivity.
    + congruence.
    + discriminate.
    + apply setH_same.
    + intros a Hne. apply setH_other. exact Hne.
    + apply H.
    + apply HInv_out.
    + intros a Hne Ha. eapply HInv_frame; [exact Ha|]. repeat split; reflexivity.
Qed.

Lemma leaked_inv s b : JInv s -> JInv (leaked D s b).
Proof.
  intros H. destruct H. constructor; try assumption. intros h. eapply HInv_frame; [apply ji_h0|]. repeat split; reflexivity.
Qed.
Lemma misused_inv s b : JInv s -> JInv (misused D s b).
Proof.
  intros H. destruct H. constructor; try assumption. intros h. eapply HInv_frame; [apply ji_h0|]. repeat split; reflexivity.
Qed.

Lemma busy_idle s h : busy D s h = false -> h_phase (j_handles D s h) = CIdle.
Proof. unfold busy. destruct (h_phase (j_handles D s h)); [reflexivity|discriminate|discriminate]. Qed.


Definition h_out (x : handle) : handle := mkH false false false [] [] [] [] None (h_tab x) CIdle false.
Lemma begin_inv s h ex ok s' : JInv s -> h_phase (j_handles D s h) = CIdle -> begin_transaction D thr s h ex ok = Some s' -> JInv s'.
Proof.
  intros H Hp Hst. pose proof (ji_h _ H h) as Hh. unfold begin_transaction in Hst.
  destruct (h_inside (j_handles D s h)) eqn:Ei.
  - (* rolled back *)
    destruct ex.
    + destruct (acquire (thr h) (j_lock D s)) as [l|] eqn:El; [|discriminate]. injection Hst as <-. apply leaked_inv.
      destruct (acquired_lock s h l (ji_lockwf _ H) El) as (c & Ec & Rl).
      unfold rollback. cbn [withHL j_handles j_lock]. rewrite setH_same. cbn [h_inside h_locked h_tab]. rewrite Rl.
      eapply (local_inv s _ h (h_out (j_handles D s h)) H); try reflexivity.
      * congruence.
      * discriminate.
      * apply setH_same.
      * intros a Hne. cbn. rewrite setH_other by exact Hne. cbn. apply setH_other. exact Hne.
      * cbn. apply H.
      * apply HInv_out.
      * intros a Hne Ha. eapply HInv_frame; [exact Ha|]. repeat split; reflexivity.
    + injection Hst as <-. apply leaked_inv.
      unfold rollback. cbn [withHL j_handles j_lock]. rewrite setH_same, ?Ei.
      destruct (h_locked (j_handles D s h)) eqn:El.
      * destruct (released s h _ H Hh El eq_refl) as [W O].
        eapply (local_inv s _ h (h_out (j_handles D s h)) H); try reflexivity.
        -- congruence.
        -- discriminate.
        -- apply setH_same.
        -- intros a Hne. cbn. rewrite setH_other by exact Hne. cbn. apply setH_other. exact Hne.
        -- exact W.
        -- apply HInv_out.
        -- intros a Hne Ha. eapply HInv_unlocked; [exact Ha|apply O; exact Hne|cbn; lia].
      * eapply (local_inv s _ h (h_out (j_handles D s h)) H); try reflexivity.
        -- congruence.
        -- discriminate.
        -- apply setH_same.
        -- intros a Hne. cbn. rewrite setH_other by exact Hne. cbn. apply setH_other. exact Hne.
        -- apply H.
        -- apply HInv_out.
        -- intros a Hne Ha. eapply HInv_frame; [exact Ha|]. repeat split; reflexivity.
  - destruct (hi_out _ _ _ Hh Ei) as (Q0 & H0 & _).
    destruct ex.
    + destruct (acquire (thr h) (j_lock D s)) as [l|] eqn:El; [|discriminate]. injection Hst as <-. apply leaked_inv.
      destruct (acquired_lock s h l (ji_lockwf _ H) El) as (c & Ec & Rl). cbn [h_locked].
      eapply (local_inv s _ h (mkH ok false true (h_query (j_handles D s h)) (h_hash (j_handles D s h)) [] [] None (h_tab (j_handles D s h)) CIdle false) H); try reflexivity.
      * congruence.
      * discriminate.
      * apply setH_same.
      * intros a Hne. apply setH_other. exact Hne.
      * cbn. rewrite Ec. intros o c' [= _ <-]. discriminate.
      * constructor; cbn; try easy. intros _. eauto.
      * intros a Hne Ha. eapply HInv_unlocked; [exact Ha|eapply acquired_others; eauto|cbn; lia].
    + injection Hst as <-. apply leaked_inv.
      eapply (local_inv s _ h (mkH ok false (h_locked (j_handles D s h)) (h_query (j_handles D s h)) (h_hash (j_handles D s h)) [] [] None (h_tab (j_handles D s h)) CIdle false) H); try reflexivity.
      * congruence.
      * discriminate.
      * apply setH_same.
      * intros a Hne. apply setH_other. exact Hne.
      * cbn. apply H.
      * constructor; cbn; try easy. apply Hh.
      * intros a Hne Ha. eapply HInv_frame; [exact Ha|]. repeat split; reflexivity.
Qed.

Lemma tidy_app a b : tidy a -> tidy b -> tidy (a ++ b).
Proof. intros Ha Hb rs Hi. apply in_app_iff in Hi as [Hi|Hi]; [apply Ha|apply Hb]; exact Hi. Qed.
Lemma existsb_forallb rs : existsb (@snd stmt bool) rs = false -> forallb (fun p : stmt * bool => negb (snd p)) rs = true.
Proof. induction rs as [|[q c] rs IH]; cbn; [reflexivity|]. destruct c; [discriminate|]. cbn. exact IH. Qed.

Lemma write_inv s h d ss fail auto keep : JInv s -> h_phase (j_handles D s h) = CIdle -> j_misuse D (write D exec s h d ss fail auto keep) = false ->
  JInv (write D exec s h d ss fail auto keep).
Proof.
  intros H Hp Hm. pose proof (ji_h _ H h) as Hh. unfold write in *. destruct (h_inside (j_handles D s h)) eqn:Ei; [|exact H]. cbn [negb] in *.
  assert (Row : forall r, h_row (j_handles D s h) = Some r -> h_locked (j_handles D s h) = true) by (intros r E; apply (hi_row _ _ _ Hh _ E)).
  destruct fail as [k|].
  - pose proof (run_stmts_fst (firstn k ss) d) as Rf. destruct (run_stmts D exec d (firstn k ss)) as [d1 rs]. cbn in Rf.
    destruct auto.
    + cbn [misused j_misuse] in Hm. apply orb_false_iff in Hm as [_ Ha].
      apply misused_inv. eapply (local_inv s _ h); try reflexivity; try exact H.
      * congruence.
      * cbn. rewrite setH_same. cbn. congruence.
      * intros a Hne. apply setH_other. exact Hne.
      * cbn. apply H.
      * hcbn. rewrite setH_same. constructor; hcbn; try easy; try apply Hh; try congruence.
      * intros a Hne Hi. eapply HInv_frame; [exact Hi|]. repeat split; reflexivity.
    + cbn [misused j_misuse] in Hm. apply orb_false_iff in Hm as [_ Ha].
      apply misused_inv. eapply (local_inv s _ h); try reflexivity; try exact H.
      * congruence.
      * cbn. rewrite setH_same. cbn. congruence.
      * intros a Hne. apply setH_other. exact Hne.
      * cbn. apply H.
      * hcbn. rewrite setH_same. constructor; hcbn; try easy; try apply Hh; try congruence.
        -- intros r Er. destruct (hi_row _ _ _ Hh r Er) as (A & B & C). auto.
        -- intros Hd. apply orb_false_iff in Hd as [Hd He]. apply tidy_app; [apply Hh; exact Hd|].
           intros rs' [[= <-]|[]]. apply existsb_forallb. exact He.
        -- intros Hd _ Er. apply orb_false_iff in Hd as [Hd He]. rewrite qtext_snoc, app_nil_r. apply Hh; assumption.
        -- intros r Er _ Hd. apply orb_false_iff in Hd as [Hd He]. rewrite qtext_snoc, app_nil_r.
           apply (hi_prep _ _ _ Hh r Er); [congruence|exact Hd].
      * intros a Hne Hi. eapply HInv_frame; [exact Hi|]. repeat split; reflexivity.
  - pose proof (run_stmts_fst ss d) as Rf. destruct (run_stmts D exec d ss) as [d1 rs]. cbn in Rf.
    cbn [misused j_misuse] in Hm. apply orb_false_iff in Hm as [_ Ha].
    apply misused_inv. eapply (local_inv s _ h); try reflexivity; try exact H.
    + congruence.
    + cbn. rewrite setH_same. cbn. congruence.
    + intros a Hne. apply setH_other. exact Hne.
    + cbn. apply H.
    + hcbn. rewrite setH_same. constructor; hcbn; try easy; try apply Hh; try congruence.
      * intros r Er. destruct (hi_row _ _ _ Hh r Er) as (A & B & C). auto.
      * intros Hd. apply orb_false_iff in Hd as [Hd He]. apply tidy_app; [apply Hh; exact Hd|].
        intros rs' [[= <- Hk]|[]]. apply orb_false_iff in Hk as [_ Hk]. apply existsb_forallb. exact Hk.
      * intros Hd _ Er. apply orb_false_iff in Hd as [Hd He]. rewrite qtext_snoc, Rf.
        rewrite (hi_query _ _ _ Hh Hd Ha Er). destruct (keep || existsb snd rs); [reflexivity|rewrite app_nil_r; reflexivity].
      * intros r Er _ Hd. rewrite Er in Hd. rewrite orb_true_r in Hd. discriminate.
    + intros a Hne Hi. eapply HInv_frame; [exact Hi|]. repeat split; reflexivity.
Qed.

Lemma trim_inv s h dels s' : JInv s -> h_phase (j_handles D s h) = CIdle -> prepare_trim D maxJ nJ s h dels = Some s' -> JInv s'.
Proof.
  intros H Hp Hst. pose proof (ji_h _ H h) as Hh. unfold prepare_trim in Hst. destruct (h_inside (j_handles D s h)) eqn:Ei; [|discriminate]. cbn [negb] in Hst.
  destruct (_ || _) eqn:E; [discriminate|]. injection Hst as <-. apply orb_false_iff in E as [_ E]. apply negb_false_iff in E.
  eapply (local_inv s _ h); try reflexivity; try exact H.
  - congruence.
  - cbn. rewrite setH_same. cbn. congruence.
  - intros a Hne. apply setH_other. exact Hne.
  - cbn. apply H.
  - hcbn. rewrite setH_same. constructor; hcbn; try easy; try apply Hh; try congruence.
    + intros r Er. destruct (hi_row _ _ _ Hh r Er) as (A & B & C). auto.
    + intros Hd. apply orb_false_iff in Hd as [Hd _]. apply Hh. exact Hd.
    + intros Hd Ha Er. apply orb_false_iff in Hd as [Hd _]. apply Hh; assumption.
    + intros r Er _ Hd. rewrite Er in Hd. rewrite orb_true_r in Hd. discriminate.
    + intros t i Hi. apply in_app_iff in Hi as [Hi|Hi]; [exact (hi_dels _ _ _ Hh t i Hi)|].
      apply in_map_iff in Hi as (j & [= <- <-] & Hj). rewrite forallb_forall in E. apply N.ltb_lt. apply E. exact Hj.
  - intros a Hne Hi. eapply HInv_frame; [exact Hi|]. repeat split; reflexivity.
Qed.

Lemma plock_inv s h s' : JInv s -> h_phase (j_handles D s h) = CIdle -> prepare_lock D thr s h = Some s' -> JInv s'.
Proof.
  intros H Hp Hst. pose proof (ji_h _ H h) as Hh. unfold prepare_lock in Hst. destruct (h_inside (j_handles D s h)) eqn:Ei; [|discriminate]. cbn [negb] in Hst.
  destruct (h_locked (j_handles D s h)) eqn:El; [congruence|].
  destruct (acquire (thr h) (j_lock D s)) as [l|] eqn:Ea; [|discriminate]. injection Hst as <-.
  destruct (acquired_lock s h l (ji_lockwf _ H) Ea) as (c & Ec & Rl).
  eapply (local_inv s _ h); try reflexivity; try exact H.
  - congruence.
  - cbn. rewrite setH_same. cbn. congruence.
  - intros a Hne. apply setH_other. exact Hne.
  - cbn. rewrite Ec. intros o c' [= _ <-]. discriminate.
  - hcbn. rewrite setH_same. constructor; hcbn; try easy; try apply Hh; try congruence.
    + intros _. eauto.
    + intros r Er. destruct (hi_row _ _ _ Hh r Er) as (A & B & C). congruence.
  - intros a Hne Ha. eapply HInv_unlocked; [exact Ha|eapply acquired_others; eauto|cbn; lia].
Qed.

Lemma aget_aset_N {V} k (v : V) m : aget N.eqb k (aset N.eqb k v m) = Some v.
Proof. apply aget_aset_same. exact N.eqb_spec. Qed.

Lemma insert_inv s h ok s' : JInv s -> h_phase (j_handles D s h) = CIdle -> prepare_insert D sha1hex comp s h ok = Some s' ->
  j_misuse D s' = false -> JInv s'.
Proof.
  intros H Hp Hst Hm. pose proof (ji_h _ H h) as Hh. unfold prepare_insert in Hst.
  destruct (h_inside (j_handles D s h)) eqn:Ei; [|discriminate]. destruct (h_locked (j_handles D s h)) eqn:El; [|discriminate]. cbn [negb andb] in Hst.
  assert (Oth : forall a, a <> h -> h_locked (j_handles D s a) = false).
  { intros a Hne. destruct (h_locked (j_handles D s a)) eqn:E; [|reflexivity]. elim Hne. eapply (lock_unique s); [apply H|apply H|exact E|exact El]. }
  assert (Prep : forall a, a <> h -> h_phase (j_handles D s a) <> CDurable).
  { intros a Hne Hdur. pose proof (durable_locked s a H Hdur) as Hx. rewrite Oth in Hx by exact Hne. discriminate. }
  destruct ok.
  - injection Hst as <-. cbn in Hm. apply orb_false_iff in Hm as [_ Haf].
    eapply (local_inv s _ h); try reflexivity; try exact H.
    + congruence.
    + cbn. rewrite setH_same. cbn. congruence.
    + intros a Hne. apply setH_other. exact Hne.
    + cbn. apply H.
    + cbn. rewrite setH_same. destruct (hi_lock _ _ _ Hh El) as [c Ec]. constructor; hcbn; try easy; try apply Hh; try congruence.
      * intros _. eauto.
      * intros Hd. apply orb_false_iff in Hd as [Hd _]. apply Hh. exact Hd.
      * intros r Er _ Hd. apply orb_false_iff in Hd as [Hd Hx]. destruct (h_row (j_handles D s h)) eqn:Er0; [discriminate|].
        injection Er as <-. cbn [r_id r_hash r_query].
        rewrite (hi_query _ _ _ Hh Hd Haf Er0). repeat split; try reflexivity. rewrite aget_aset_N. reflexivity.
    + intros a Hne Ha. eapply HInv_unlocked; [exact Ha|apply Oth; exact Hne|cbn; lia].
    + intros a Hne Hdur. elim (Prep a Hne Hdur).
  - injection Hst as <-. unfold rollback. cbn [j_handles]. rewrite setH_same. cbn [h_inside h_locked j_lock h_tab].
    destruct (released s h _ H Hh El eq_refl) as [W O].
    eapply (local_inv s _ h (h_out (j_handles D s h)) H); try reflexivity.
    + congruence.
    + discriminate.
    + apply setH_same.
    + intros a Hne. cbn. rewrite setH_other by exact Hne. cbn. apply setH_other. exact Hne.
    + exact W.
    + apply HInv_out.
    + intros a Hne Ha. eapply HInv_unlocked; [exact Ha|apply O; exact Hne|cbn; lia].
    + intros a Hne Hdur. elim (Prep a Hne Hdur).
Qed.

Lemma check_inv s h s' : JInv s -> h_phase (j_handles D s h) = CIdle -> commit_check D s h = Some s' -> JInv s'.
Proof.
  intros H Hp Hst. pose proof (ji_h _ H h) as Hh. unfold commit_check in Hst. destruct (j_enabled D s) eqn:En; cbn [negb] in Hst; [|congruence].
  destruct (h_inside (j_handles D s h)) eqn:Ei; [|discriminate]. cbn [negb] in Hst. rewrite Hp in Hst.
  destruct (h_hash (j_handles D s h)) as [|c0 hh] eqn:Ehh; [discriminate|]. destruct (h_row (j_handles D s h)) as [r|] eqn:Er; [|discriminate].
  injection Hst as <-. eapply (local_inv s _ h); try reflexivity; try exact H.
  - congruence.
  - cbn. rewrite setH_same. cbn. discriminate.
  - intros a Hne. apply setH_other. exact Hne.
  - cbn. apply H.
  - cbn. rewrite setH_same. destruct (hi_row _ _ _ Hh r Er) as (A & B & C). constructor; hcbn; try easy; try apply Hh; try congruence.
    + intros r' [= <-] _ Hd. rewrite <- Ehh. apply (hi_prep _ _ _ Hh r Er); [congruence|exact Hd].
  - intros a Hne Ha. eapply HInv_frame; [exact Ha|]. repeat split; reflexivity.
Qed.

Lemma commit_no_app l e i : commit_no l i <> None -> commit_no (l ++ [e]) i = commit_no l i.
Proof.
  unfold commit_no. destruct (N.eqb i 0); [reflexivity|]. intros Hn. apply nth_error_app1. apply nth_error_Some. exact Hn.
Qed.
Lemma commit_no_last l e i : i = N.of_nat (List.length l) -> commit_no (l ++ [e]) (i + 1)%N = Some e.
Proof.
  intros ->. unfold commit_no. destruct (N.eqb_spec (N.of_nat (List.length l) + 1) 0); [lia|].
  replace (N.to_nat (N.of_nat (List.length l) + 1) - 1) with (List.length l) by lia. apply nth_error_snoc.
Qed.
Lemma commit_no_range l i e : commit_no l i = Some e -> (1 <= i <= N.of_nat (List.length l))%N.
Proof.
  unfold commit_no. destruct (N.eqb_spec i 0); [discriminate|]. intros Hn.
  assert (Hl : N.to_nat i - 1 < List.length l) by (apply nth_error_Some; congruence). lia.
Qed.

Lemma NoDup_map_filter {A B} (f : A -> B) g l : NoDup (map f l) -> NoDup (map f (filter g l)).
Proof.
  induction l as [|x l IH]; cbn; intros H; [constructor|]. inversion H as [|? ? Hn Hd]; subst. destruct (g x); cbn; [|auto].
  constructor; [|auto]. intros Hi. apply Hn. apply in_map_iff in Hi as (y & Ey & Hy). apply filter_In in Hy as [Hy _].
  apply in_map_iff. exists y. auto.
Qed.

Lemma sql_inv s h ok s' : JInv s -> commit_sql D exec s h ok = Some s' -> j_misuse D s' = false -> JInv s'.
Proof.
  intros H Hst Hm. pose proof (ji_h _ H h) as Hh. unfold commit_sql in Hst.
  destruct (h_phase (j_handles D s h)) eqn:Ep; try discriminate.
  destruct (h_row (j_handles D s h)) as [r|] eqn:Er; [|discriminate].
  destruct (h_auto (j_handles D s h)) eqn:Ea; [discriminate|].
  destruct (hi_row _ _ _ Hh r Er) as (El & Ei & _).
  destruct ok.
  2: { injection Hst as <-. eapply (local_inv s _ h); try reflexivity; try exact H.
       - congruence.
       - cbn. rewrite setH_same. discriminate.
       - intros a Hne. apply setH_other. exact Hne.
       - cbn. apply H.
       - hcbn. rewrite setH_same. constructor; hcbn; try easy; try apply Hh; try congruence.
         + intros r' [= <-] _ Hd. apply (hi_prep _ _ _ Hh r Er); [congruence|exact Hd].
       - intros a Hne Ha. eapply HInv_frame; [exact Ha|]. repeat split; reflexivity. }
  destruct (rerun_groups D exec (j_data D s) (h_groups (j_handles D s h))) as [d'|] eqn:Erg; [|discriminate].
  injection Hst as <-. cbn in Hm. apply orb_false_iff in Hm as [_ Hd].
  assert (Oth : forall a, a <> h -> h_locked (j_handles D s a) = false).
  { intros a Hne. destruct (h_locked (j_handles D s a)) eqn:E; [|reflexivity]. elim Hne. eapply (lock_unique s); [apply H|apply H|exact E|exact El]. }
  destruct (hi_prep _ _ _ Hh r Er) as (P1 & P2 & P3 & P4 & P5); [congruence|exact Hd|].
  assert (Len : N.of_nat (List.length (j_hist D s)) = j_count D s /\ j_last D s = last_hash [] (j_hist D s)).
  { destruct (ji_len _ H) as [(A & B & _)|(k & e & l & r' & _ & _ & _ & A4 & _)]; [auto|]. exfalso.
    assert (k <> h) by congruence. pose proof (durable_locked s k H A4) as Hx. rewrite Oth in Hx by assumption. discriminate. }
  destruct Len as [Len Lst]. fold (qtext (h_groups (j_handles D s h))).
  constructor; cbn [j_data j_rows j_handles j_lock j_enabled j_count j_last j_next j_prepared j_committed j_popped j_hist j_base].
  - intros a. destruct (Nat.eq_dec a h) as [->|Hne].
    + rewrite setH_same. constructor; cbn; try easy; try congruence.
      * intros _. exact (hi_lock _ _ _ Hh El).
      * intros _. split; [discriminate|]. apply (hi_phase _ _ _ Hh). congruence.
    + rewrite setH_other by exact Hne. eapply HInv_frame; [apply H|]. repeat split; reflexivity.
  - apply H.
  - apply chained_app. split; [apply H|]. cbn [c_hash c_query]. rewrite <- Lst. exact P2.
  - intros e Hi. apply in_app_iff in Hi as [Hi|[<-|[]]]; [exact (ji_text _ H e Hi)|]. cbn [c_query]. apply qtext_entry.
  - intros r' Hi. apply in_app_iff in Hi as [Hi|[<-|[]]].
    + apply filter_In in Hi as [Hi _]. destruct (ji_rows _ H r' Hi) as (e & A & B & C). exists e. rewrite commit_no_app by congruence. auto.
    + eexists. rewrite P1. rewrite commit_no_last by (symmetry; exact Len). split; [reflexivity|]. cbn [c_hash c_query]. auto.
  - rewrite map_app. cbn [map]. eapply (Permutation_NoDup (Permutation_cons_append _ _)). constructor.
    + intros Hi. apply in_map_iff in Hi as (r' & Er' & Hi). apply filter_In in Hi as [Hi _]. destruct (ji_rows _ H r' Hi) as (e & A & _).
      apply commit_no_range in A. rewrite Er', P1 in A. lia.
    + apply NoDup_map_filter, H.
  - intros i Hi Ho. rewrite app_length in Hi. cbn [List.length] in Hi. rewrite map_app. apply in_app_iff.
    destruct (N.eq_dec i (j_count D s + 1)) as [->|Hne]; [right; left; exact P1|]. left.
    destruct (proj1 (in_map_iff _ _ _) (ji_keep _ H i ltac:(lia) Ho)) as (r' & Er' & Hr').
    apply in_map_iff. exists r'. split; [exact Er'|]. apply filter_In. split; [exact Hr'|]. apply negb_true_iff.
    destruct (existsb _ _) eqn:Ex; [|reflexivity]. exfalso. apply existsb_exists in Ex as ([t j] & Hj & Sj).
    unfold same_row in Sj. cbn in Sj. apply andb_true_iff in Sj as [_ Sj]. apply N.eqb_eq in Sj.
    pose proof (hi_dels _ _ _ Hh t j Hj). lia.
  - unfold replay. rewrite fold_left_app. cbn [fold_left]. fold (replay D exec d0 (j_hist D s)). rewrite (ji_data _ H).
    unfold entry_stmts. cbn [c_groups]. apply rerun_groups_replay; [apply Hh; exact Hd|exact Erg].
  - apply H.
  - rewrite (ji_pop _ H). rewrite firstn_app. replace (N.to_nat (j_count D s) - List.length (j_hist D s)) with 0 by lia.
    cbn [firstn]. rewrite app_nil_r. reflexivity.
  - right. eexists h, _, (j_hist D s), r. split; [reflexivity|]. rewrite setH_same. cbn. repeat (split; [assumption || reflexivity|]). assumption.
Qed.

Lemma firstn_all_N {A} (l : list A) n : N.of_nat (List.length l) = n -> firstn (N.to_nat n) l = l.
Proof. intros <-. rewrite Nat2N.id. apply firstn_all. Qed.

Lemma publish_inv s h s' : JInv s -> commit_publish D s h = Some s' -> JInv s'.
Proof.
  intros H Hst. pose proof (ji_h _ H h) as Hh. unfold commit_publish, increment_commit in Hst.
  destruct (h_phase (j_handles D s h)) eqn:Ep; try discriminate. injection Hst as <-.
  pose proof (durable_locked s h H Ep) as El. destruct (released s h _ H Hh El eq_refl) as [W O].
  destruct (ji_len _ H) as [(_ & _ & C)|(k & e & l & r & A1 & A2 & A3 & A4 & A5 & A6 & A7 & A8 & A9)]; [elim (C h Ep)|].
  assert (k = h). { destruct (Nat.eq_dec k h) as [|Hne]; [assumption|]. pose proof (durable_locked s k H A4) as Hx. rewrite O in Hx by exact Hne. discriminate. }
  subst k. rewrite A9.
  assert (Cn : aget N.eqb (j_count D s + 1)%N (j_committed D s) = None).
  { apply (aget_none N.eqb N.eqb_spec). intros Hi. apply in_map_iff in Hi as ([i v] & Ei & Hi). cbn in Ei. subst i.
    assert (Hin : In ((j_count D s + 1)%N, v) (j_popped D s ++ j_committed D s)) by (apply in_app_iff; auto).
    rewrite (ji_pop _ H) in Hin. apply numbered_ids in Hin. rewrite skipn_length, firstn_length, A1, app_length in Hin. cbn [List.length] in Hin.
    pose proof (ji_base _ H). lia. }
  rewrite Cn.
  constructor; cbn [j_data j_rows j_handles j_lock j_enabled j_count j_last j_next j_prepared j_committed j_popped j_hist j_base]; try apply H.
  - intros a. destruct (Nat.eq_dec a h) as [->|Hne]; [rewrite setH_same; apply HInv_out|].
    rewrite setH_other by exact Hne. eapply HInv_unlocked; [apply H|apply O; exact Hne|cbn; lia].
  - exact W.
  - intros i Hi Ho. apply (ji_keep _ H i Hi). pose proof (oldest_mono (j_count D s) (j_count D s + 1) ltac:(lia)). lia.
  - pose proof (ji_base _ H). lia.
  - rewrite app_assoc, (ji_pop _ H). rewrite A1. rewrite (firstn_all_N (l ++ [e]) (j_count D s + 1)) by (rewrite app_length; cbn; lia).
    replace (firstn (N.to_nat (j_count D s)) (l ++ [e])) with l.
    2: { rewrite firstn_app. rewrite (firstn_all_N l (j_count D s) A2). replace (N.to_nat (j_count D s) - List.length l) with 0 by lia. cbn. rewrite app_nil_r. reflexivity. }
    pose proof (ji_base _ H). rewrite skipn_app. replace (N.to_nat (j_base D s) - List.length l) with 0 by lia. cbn [skipn].
    rewrite numbered_app. rewrite skipn_length. f_equal. f_equal. rewrite <- A8, <- A7. f_equal. lia.
  - left. rewrite A1. rewrite app_length, last_hash_app. cbn [List.length]. split; [lia|]. split; [congruence|].
    intros a. destruct (Nat.eq_dec a h) as [->|Hne]; [rewrite setH_same; discriminate|]. rewrite setH_other by exact Hne.
    intros Hdur. pose proof (durable_locked s a H Hdur) as Hx. rewrite O in Hx by exact Hne. discriminate.
Qed.

Lemma enable_inv s h b s' : JInv s -> h_phase (j_handles D s h) = CIdle -> set_commit_enabled D thr s h b = Some s' -> JInv s'.
Proof.
  intros H Hp Hst. unfold set_commit_enabled in Hst. destruct (acquire (thr h) (j_lock D s)) as [l|] eqn:Ea; [|discriminate]. injection Hst as <-.
  destruct (acquired_lock s h l (ji_lockwf _ H) Ea) as (c & Ec & Rl). rewrite Rl.
  eapply (local_inv s _ h); try reflexivity; try exact H.
  - congruence.
  - cbn. congruence.
  - cbn. apply H.
  - cbn. pose proof (ji_h _ H h) as Hh. destruct Hh. constructor; cbn; try assumption. congruence.
  - intros a Hne Ha. eapply HInv_unlocked; [exact Ha|eapply acquired_others; eauto|cbn; lia].
Qed.

Lemma pop_inv s : JInv s -> JInv (pop_committed D s).
Proof.
  intros H. constructor; cbn [pop_committed j_data j_rows j_handles j_lock j_enabled j_count j_last j_next j_prepared j_committed j_popped j_hist j_base]; try apply H.
  - intros a. eapply HInv_frame; [apply H|]. repeat split; reflexivity.
  - rewrite app_nil_r. apply H.
Qed.

Lemma max_id_bound rows r : In r rows -> (r_id r <= max_id rows)%N.
Proof. induction rows as [|x rows IH]; [contradiction|]. change (max_id (x :: rows)) with (N.max (r_id x) (max_id rows)). intros [->|Hi]; [lia|]. specialize (IH Hi). lia. Qed.
Lemma max_id_in rows : max_id rows <> 0%N -> exists r, In r rows /\ r_id r = max_id rows.
Proof.
  induction rows as [|x rows IH]; [cbn; congruence|]. change (max_id (x :: rows)) with (N.max (r_id x) (max_id rows)). intros Hn. destruct (N.max_spec (r_id x) (max_id rows)) as [[Hl ->]|[Hl ->]].
  - destruct IH as (r & A & B); [lia|]. exists r. split; [right; exact A|exact B].
  - exists x. split; [left; reflexivity|reflexivity].
Qed.
Lemma get_commit_unique rows r : NoDup (map r_id rows) -> In r rows -> get_commit rows (r_id r) = Some r.
Proof.
  unfold get_commit. induction rows as [|x rows IH]; cbn [map find In]; [contradiction|]. intros Hn Hi. inversion Hn as [|? ? Hx Hr]; subst.
  destruct (N.eqb_spec (r_id x) (r_id r)) as [E|E].
  - destruct Hi as [->|Hi]; [reflexivity|]. elim Hx. rewrite E. apply in_map. exact Hi.
  - destruct Hi as [->|Hi]; [contradiction|]. apply IH; assumption.
Qed.

(** The stored rows determine the commit count and the last hash. *)
Lemma rows_tell s : JInv s -> max_id (j_rows D s) = N.of_nat (List.length (j_hist D s)) /\
  (match get_commit (j_rows D s) (max_id (j_rows D s)) with Some r => r_hash r | None => [] end) = last_hash [] (j_hist D s).
Proof.
  intros H. assert (Hc : (j_count D s <= N.of_nat (List.length (j_hist D s)))%N).
  { destruct (ji_len _ H) as [(A & _)|(k & e & l & r & A1 & A2 & _)]; [lia|]. rewrite A1, app_length. lia. }
  assert (M : max_id (j_rows D s) = N.of_nat (List.length (j_hist D s))).
  { apply N.le_antisymm.
    - destruct (N.eq_dec (max_id (j_rows D s)) 0) as [->|Hn]; [lia|]. destruct (max_id_in _ Hn) as (r & Hr & <-).
      destruct (ji_rows _ H r Hr) as (e & A & _). apply commit_no_range in A. lia.
    - destruct (N.eq_dec (N.of_nat (List.length (j_hist D s))) 0) as [E|Hn]; [lia|].
      assert (Hi : In (N.of_nat (List.length (j_hist D s))) (map r_id (j_rows D s))).
      { apply (ji_keep _ H); [lia|]. unfold oldest_to_keep. destruct (_ <? _)%N; lia. }
      apply in_map_iff in Hi as (r & <- & Hr). apply max_id_bound. exact Hr. }
  split; [exact M|]. rewrite M. destruct (rev (j_hist D s)) as [|e l'] eqn:Er.
  - apply (f_equal (@rev _)) in Er. rewrite rev_involutive in Er. cbn in Er. rewrite Er. cbn.
    destruct (get_commit (j_rows D s) 0) as [r|] eqn:Eg; [|reflexivity]. exfalso. unfold get_commit in Eg. apply find_some in Eg as [Hr E0].
    destruct (ji_rows _ H r Hr) as (e & A & _). rewrite Er in A. apply commit_no_range in A. cbn in A. lia.
  - apply (f_equal (@rev _)) in Er. rewrite rev_involutive in Er. cbn in Er. rewrite Er, last_hash_app.
    assert (Hi : In (N.of_nat (List.length (j_hist D s))) (map r_id (j_rows D s))).
    { apply (ji_keep _ H); [rewrite Er, app_length; cbn; lia|]. unfold oldest_to_keep. destruct (_ <? _)%N; lia. }
    apply in_map_iff in Hi as (r & Eid & Hr). rewrite <- Er, <- Eid. rewrite (get_commit_unique _ r (ji_nd _ H) Hr).
    destruct (ji_rows _ H r Hr) as (e' & A & B & _). rewrite B. rewrite Eid, Er in A. rewrite app_length in A. cbn [List.length] in A.
    replace (N.of_nat (List.length (rev l') + 1)) with (N.of_nat (List.length (rev l')) + 1)%N in A by lia.
    rewrite commit_no_last in A by reflexivity. congruence.
Qed.

Lemma crash_inv s : JInv s -> JInv (crash D s).
Proof.
  intros H. destruct (rows_tell s H) as [M L].
  assert (Hc : (j_count D s <= N.of_nat (List.length (j_hist D s)))%N).
  { destruct (ji_len _ H) as [(A & _)|(k & e & l & r & A1 & A2 & _)]; [lia|]. rewrite A1, app_length. lia. }
  unfold crash. rewrite L, M.
  constructor; cbn [j_data j_rows j_handles j_lock j_enabled j_count j_last j_next j_prepared j_committed j_popped j_hist j_base]; try apply H.
  - intros h. constructor; cbn; easy.
  - discriminate.
  - intros i Hi Ho. apply (ji_keep _ H i Hi). pose proof (oldest_mono _ _ Hc). lia.
  - lia.
  - rewrite Nat2N.id, firstn_all, skipn_all. reflexivity.
  - left. repeat split; try reflexivity. discriminate.
Qed.

Lemma misuse_mono s e s' : step s e = Some s' -> j_misuse D s' = false -> j_misuse D s = false.
Proof.
  assert (R : forall t h, j_misuse D (rollback D t h) = j_misuse D t).
  { intros t h. unfold rollback. destruct (h_inside _); reflexivity. }
  intros Hst Hm. destruct e; cbn [jstep] in Hst; unfold idle_then in Hst; try (destruct (busy D s h); [discriminate|]).
  - unfold begin_transaction in Hst. destruct (if exclusive then _ else _) as [l|]; [|discriminate].
    destruct (h_inside (j_handles D s h)); injection Hst as <-; cbn in Hm; rewrite ?R in Hm; exact Hm.
  - injection Hst as <-. unfold write in Hm. destruct (negb _); [exact Hm|].
    destruct fail as [k|]; [destruct (run_stmts D exec d (firstn k ss)) as [? rs]; destruct auto|destruct (run_stmts D exec d ss) as [? rs]];
      cbn in Hm; apply orb_false_iff in Hm; apply Hm.
  - unfold prepare_trim in Hst. destruct (negb _); [discriminate|]. destruct (_ || _); [discriminate|]. injection Hst as <-. cbn in Hm.
    apply orb_false_iff in Hm. apply Hm.
  - unfold prepare_lock in Hst. destruct (negb _); [discriminate|]. destruct (h_locked _); [congruence|]. destruct (acquire _ _); [|discriminate].
    injection Hst as <-. exact Hm.
  - unfold prepare_insert in Hst. destruct (negb _); [discriminate|]. destruct ok; injection Hst as <-; rewrite ?R in Hm; cbn in Hm;
      apply orb_false_iff in Hm; apply Hm.
  - unfold commit_check in Hst. destruct (negb (j_enabled D s)); [congruence|]. destruct (negb _); [discriminate|].
    destruct (h_hash _); [discriminate|]. destruct (h_phase _); try discriminate. destruct (h_row _); [|discriminate]. injection Hst as <-. exact Hm.
  - unfold commit_sql in Hst. destruct (h_phase _); try discriminate. destruct (h_row _); [|discriminate]. destruct (h_auto _); [discriminate|].
    destruct ok; [|injection Hst as <-; exact Hm]. destruct (rerun_groups _ _ _ _); [|discriminate]. injection Hst as <-. cbn in Hm.
    apply orb_false_iff in Hm. apply Hm.
  - unfold commit_publish in Hst. destruct (h_phase _); try discriminate. injection Hst as <-. exact Hm.
  - injection Hst as <-. rewrite R in Hm. exact Hm.
  - unfold set_commit_enabled in Hst. destruct (acquire _ _); [|discriminate]. injection Hst as <-. exact Hm.
  - destruct (Bool.eqb _ _); [congruence|discriminate].
  - injection Hst as <-. exact Hm.
  - injection Hst as <-. exact Hm.
Qed.

Lemma JInv_step s e s' : JInv s -> step s e = Some s' -> j_misuse D s' = false -> JInv s'.
Proof.
  intros H Hst Hm. destruct e; cbn [jstep] in Hst; unfold idle_then in Hst;
    try (destruct (busy D s h) eqn:Eb; [discriminate|]; apply busy_idle in Eb).
  - eapply begin_inv; eauto.
  - injection Hst as <-. apply write_inv; assumption.
  - eapply trim_inv; eauto.
  - eapply plock_inv; eauto.
  - eapply insert_inv; eauto.
  - eapply check_inv; eauto.
  - eapply sql_inv; eauto.
  - eapply publish_inv; eauto.
  - injection Hst as <-. apply rollback_inv; assumption.
  - eapply enable_inv; eauto.
  - destruct (Bool.eqb _ _); [congruence|discriminate].
  - injection Hst as <-. apply pop_inv; assumption.
  - injection Hst as <-. apply crash_inv; assumption.
Qed.

Lemma JInv_run es : forall s s', JInv s -> run s es = Some s' -> j_misuse D s' = false -> JInv s' /\ j_misuse D s = false.
Proof.
  induction es as [|e es IH]; intros s s' H Hr Hm; cbn [jrun] in Hr; [injection Hr as <-; auto|].
  destruct (step s e) as [s1|] eqn:E; [|discriminate].
  assert (Hm1 : j_misuse D s1 = false).
  { clear - Hr Hm. revert s1 Hr. induction es as [|e es IH]; intros s1 Hr; cbn [jrun] in Hr; [congruence|].
    destruct (step s1 e) as [s2|] eqn:E; [|discriminate]. eapply misuse_mono; [exact E|]. apply IH. exact Hr. }
  split; [|eapply misuse_mono; eauto]. eapply IH; [|exact Hr|exact Hm]. eapply JInv_step; eauto.
Qed.
End P.
