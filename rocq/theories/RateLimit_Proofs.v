(** Proofs about the rate limiter model. *)
From Verif Require Import Base Maps Queue_Spec Queue_Model RateLimit_Spec RateLimit_Model.
Local Open Scope N_scope.

Definition to_exec (c : sample) : execution := mkExec (fst c) (snd c).

Lemma tiw_eq w now f e : f <= now ->
  time_in_window w now (mkExec f e) = N.min e (w - since now f).
Proof. intros H. unfold time_in_window, since; cbn [ex_finish ex_elapsed]. destruct (N.ltb_spec f now); lia. Qed.

Lemma tiw_zero w now w' now' f e :
  now <= now' -> w' <= w -> f <= now -> w <= since now f -> time_in_window w' now' (mkExec f e) = 0.
Proof. unfold time_in_window, since; cbn [ex_finish ex_elapsed]. destruct (N.ltb_spec f now); lia. Qed.

Lemma tiw_le w now e : time_in_window w now e <= ex_elapsed e.
Proof. unfold time_in_window. lia. Qed.

Lemma total_app w now a b :
  total_in_window w now (a ++ b) = total_in_window w now a + total_in_window w now b.
Proof. induction a; cbn [total_in_window app]; lia. Qed.

Fixpoint sum_elapsed (es : list execution) : N :=
  match es with [] => 0 | e :: es' => ex_elapsed e + sum_elapsed es' end.

Lemma total_le w now es : total_in_window w now es <= sum_elapsed es.
Proof. induction es as [|e es IH]; cbn; [lia|]. pose proof (tiw_le w now e). lia. Qed.

Lemma prune_total w now w' now' cs :
  now <= now' -> w' <= w -> Forall (fun c => fst c <= now) cs ->
  total_in_window w' now' (map to_exec (prune w now cs)) = total_in_window w' now' (map to_exec cs).
Proof.
  intros H1 H2. induction cs as [|[f e] cs IH]; intros HF; [reflexivity|].
  inversion HF; subst. cbn [fst] in *. unfold prune in *; cbn [filter fst].
  destruct (N.leb_spec w (since now f)); cbn [negb map total_in_window]; rewrite IH by assumption; [|reflexivity].
  unfold to_exec at 2; cbn [fst snd]. rewrite (tiw_zero w now); lia.
Qed.

Lemma window_total_mod w now cs acc :
  Forall (fun c => fst c <= now) cs -> acc < two64 ->
  fold_left (fun acc c => wadd acc (N.min (snd c) (w - since now (fst c)))) cs acc
  = (acc + total_in_window w now (map to_exec cs)) mod two64.
Proof.
  revert acc. induction cs as [|[f e] cs IH]; intros acc HF Hacc; cbn [fold_left map total_in_window].
  - rewrite N.add_0_r. symmetry. apply N.mod_small. exact Hacc.
  - inversion HF; subst. cbn [fst snd] in *. rewrite IH; [|assumption|apply N.mod_lt; easy].
    unfold to_exec at 2; cbn [fst snd]. rewrite tiw_eq by assumption. unfold wadd.
    rewrite N.add_mod_idemp_l by easy. f_equal. lia.
Qed.

Lemma prune_Forall (P : sample -> Prop) w now cs : Forall P cs -> Forall P (prune w now cs).
Proof.
  intros H. apply Forall_forall. intros x Hx. unfold prune in Hx. apply filter_In in Hx.
  rewrite Forall_forall in H. apply H. tauto.
Qed.

(** One entry of the map agrees with its account. *)
Definition Rentry (w last : N) (s : istate) (a : account) : Prop :=
  is_blockedUntil s = acc_until a /\
  Forall (fun c => fst c <= last) (is_commands s) /\
  (forall w' now', w' <= w -> last <= now' ->
     total_in_window w' now' (map to_exec (is_commands s)) = total_in_window w' now' (acc_execs a)).

Definition Rmap (w last : N) (m : smap) (accts : bytes -> account) : Prop :=
  forall k, Rentry w last (get_or_create m k) (accts k).

Lemma Rentry_mono w last w2 last2 s a : w2 <= w -> last <= last2 -> Rentry w last s a -> Rentry w2 last2 s a.
Proof.
  intros H1 H2 (E1 & E2 & E3). split; [exact E1|]. split.
  - eapply Forall_impl; [|exact E2]. cbn. lia.
  - intros w' now' Hw Hn. apply E3; lia.
Qed.

Lemma Rentry0 w last : Rentry w last istate0 account0.
Proof. split; [reflexivity|]. split; [constructor|reflexivity]. Qed.

Definition budget (accts : bytes -> account) (k : bytes) : N := sum_elapsed (acc_execs (accts k)).

Lemma sum_elapsed_app a b : sum_elapsed (a ++ b) = sum_elapsed a + sum_elapsed b.
Proof. induction a; cbn [sum_elapsed app]; lia. Qed.

Lemma get_or_create_set_same m k s : get_or_create (aset bytes_eqb k s m) k = s.
Proof. unfold get_or_create. rewrite (aget_aset_same _ bytes_eqb_spec). reflexivity. Qed.
Lemma get_or_create_set_other m k k2 s : k2 <> k ->
  get_or_create (aset bytes_eqb k s m) k2 = get_or_create m k2.
Proof. intros H. unfold get_or_create. rewrite (aget_aset_other _ bytes_eqb_spec) by exact H. reflexivity. Qed.

Lemma Rmap_record w d thr m accts key now e last :
  Rmap w last m accts -> last <= now -> now + d < two64 ->
  sum_elapsed (acc_execs (accts key)) + e < two64 ->
  Rmap w now (record_and_check w d m key thr now e) (book_record w d thr accts key now e).
Proof.
  intros HR Hl Hd Hb k. unfold record_and_check, book_record.
  assert (Hk : (match key with [] => true | _ => false end) = bytes_eqb key []) by (destruct key; reflexivity).
  rewrite Hk. destruct (bytes_eqb key []) eqn:Ek; cbn [orb negb andb].
  { eapply Rentry_mono; [| |apply HR]; lia. }
  destruct (N.eqb_spec thr 0); cbn [negb andb].
  { eapply Rentry_mono; [| |apply HR]; lia. }
  destruct (bytes_eqb_spec k key) as [->|Hne].
  2: { destruct (N.ltb_spec now (is_blockedUntil (get_or_create m key)));
       rewrite get_or_create_set_other by assumption; (eapply Rentry_mono; [| |apply HR]; lia). }
  destruct (HR key) as (E1 & E2 & E3). unfold acc_record. rewrite <- E1.
  destruct (N.ltb_spec now (is_blockedUntil (get_or_create m key))) as [Hlt|Hge];
    rewrite get_or_create_set_same.
  { eapply Rentry_mono; [| |apply HR]; lia. }
  set (s := get_or_create m key) in *.
  assert (HF : Forall (fun c => fst c <= now) (is_commands s ++ [(now, e)])).
  { apply Forall_app. split; [eapply Forall_impl; [|exact E2]; cbn; lia|repeat constructor; cbn; lia]. }
  assert (HT : forall w' now', w' <= w -> now <= now' ->
     total_in_window w' now' (map to_exec (prune w now (is_commands s ++ [(now, e)])))
     = total_in_window w' now' (acc_execs (accts key) ++ [mkExec now e])).
  { intros w' now' Hw Hn. rewrite prune_total by assumption.
    rewrite map_app, !total_app, E3 by lia. reflexivity. }
  split; [|split].
  - cbn [is_blockedUntil acc_until]. unfold window_total.
    rewrite window_total_mod; [|apply prune_Forall, HF|reflexivity].
    rewrite HT by lia. rewrite N.mod_small.
    2: { pose proof (total_le w now (acc_execs (accts key) ++ [mkExec now e])) as H.
         rewrite sum_elapsed_app in H. cbn [sum_elapsed ex_elapsed] in H. rewrite N.add_0_l. lia. }
    rewrite N.add_0_l. unfold wadd. rewrite (N.mod_small (now + d)) by assumption. reflexivity.
  - cbn [is_commands]. apply prune_Forall, HF.
  - cbn [is_commands acc_execs]. exact HT.
Qed.

Lemma sum_record w d thr accts key now e k :
  sum_elapsed (acc_execs (book_record w d thr accts key now e k)) <= sum_elapsed (acc_execs (accts k)) + e.
Proof.
  unfold book_record. destruct (_ && _); [|lia]. unfold acc_record.
  destruct (N.ltb _ _); [lia|]. cbn [acc_execs]. rewrite sum_elapsed_app; cbn. lia.
Qed.

(** Full relation. *)
Record Rbook (last total : N) (l : limiter) (b : book) : Prop := {
  rb_ids : Rmap (l_window l) last (l_ids l) (bk_ids b);
  rb_cmds : Rmap (l_window l) last (l_cmds l) (bk_cmds b);
  rb_w : l_window l = bk_window b; rb_it : l_idThreshold l = bk_idThreshold b;
  rb_ct : l_cmdThreshold l = bk_cmdThreshold b; rb_d : l_blockDuration l = bk_duration b;
  rb_dok : l_blockDuration l < 9223372036854775808;
  rb_si : forall k, sum_elapsed (acc_execs (bk_ids b k)) <= total;
  rb_sc : forall k, sum_elapsed (acc_execs (bk_cmds b k)) <= total
}.

Definition rl_lim (b : bqueue) := bq_limiter b.

Lemma bq_push_limiter b c now : bq_limiter (fst (bq_push b c now)) = bq_limiter b.
Proof. unfold bq_push. destruct (is_blocked _ _ _ _); reflexivity. Qed.
Lemma bq_dequeue_limiter b now : bq_limiter (fst (bq_dequeue b now)) = bq_limiter b.
Proof. unfold bq_dequeue. destruct (q_dequeue _ _); reflexivity. Qed.

Lemma limiter_refines : forall ops last total bq b,
  Rbook last total (bq_limiter bq) b ->
  clock_ok last ops -> sizes_ok ops -> total + total_recorded ops < two64 ->
  window_shrinks (l_window (bq_limiter bq)) ops ->
  exists last' total', Rbook last' total' (bq_limiter (bq_run bq ops)) (book_run b ops).
Proof.
  induction ops as [|o ops IH]; intros last total bq b HR Hc Hs Ht Hw.
  { exists last, total. exact HR. }
  inversion Hs as [|? ? Ho Hs']; subst. destruct HR.
  destruct o; cbn [clock_ok total_recorded window_shrinks] in *;
    cbn [bq_run book_run fold_left] in *; change (fold_left bq_step ops) with (fun b => bq_run b ops);
    change (fold_left book_step ops) with (fun b => book_run b ops); cbn beta.
  - destruct Hc as [Hc1 Hc2].
    apply (IH now (total + elapsed)); try assumption; [|lia].
    cbn [bq_step bq_limiter record book_step].
    constructor; cbn [l_ids l_cmds l_window l_idThreshold l_cmdThreshold l_blockDuration
                      bk_ids bk_cmds bk_window bk_idThreshold bk_cmdThreshold bk_duration]; try assumption.
    + rewrite <- rb_w0, <- rb_d0, <- rb_it0. eapply Rmap_record; [eassumption|lia| |].
      * unfold two64 in *. lia.
      * specialize (rb_si0 id). unfold two64 in *; lia.
    + rewrite <- rb_w0, <- rb_d0, <- rb_ct0. eapply Rmap_record; [eassumption|lia| |].
      * unfold two64 in *. lia.
      * specialize (rb_sc0 cmd). unfold two64 in *; lia.
    + intros k. eapply N.le_trans; [apply sum_record|]. specialize (rb_si0 k). lia.
    + intros k. eapply N.le_trans; [apply sum_record|]. specialize (rb_sc0 k). lia.
  - cbn [bq_step book_step]. apply (IH last total); try assumption; rewrite bq_push_limiter; [constructor; assumption|assumption].
  - cbn [bq_step book_step]. apply (IH last total); try assumption; rewrite bq_dequeue_limiter; [constructor; assumption|assumption].
  - cbn [bq_step book_step]. apply (IH last total); try assumption.
    constructor; cbn; try assumption; try (intros k; apply Rentry0); intros; lia.
  - apply (IH last total); try assumption. constructor; cbn; try assumption; reflexivity.
  - apply (IH last total); try assumption. constructor; cbn; try assumption; reflexivity.
  - apply (IH last total); try assumption. constructor; cbn; try assumption; reflexivity.
  - destruct Hw as [Hw1 Hw2]. apply (IH last total); try assumption.
    constructor; cbn; try assumption; try reflexivity; intros k; (eapply Rentry_mono; [exact Hw1|apply N.le_refl|]);
      [apply rb_ids0|apply rb_cmds0].
Qed.

Lemma Rbook0 : Rbook 0 0 limiter0 book0.
Proof. constructor; cbn; try reflexivity; try (intros k; apply Rentry0); intros; lia. Qed.

(** The empty name is never tracked. *)
Definition no_empty (b : book) : Prop := bk_ids b [] = account0 /\ bk_cmds b [] = account0.
Lemma no_empty_run ops : forall b, no_empty b -> no_empty (book_run b ops).
Proof.
  induction ops as [|o ops IH]; intros b Hb; [exact Hb|]. cbn. apply IH. destruct Hb as [H1 H2].
  destruct o; cbn [book_step]; try (split; assumption).
  - split; cbn; unfold book_record.
    + destruct id; cbn; [assumption|]. rewrite andb_false_r. assumption.
    + destruct cmd; cbn; [assumption|]. rewrite andb_false_r. assumption.
  - split; reflexivity.
Qed.

Lemma is_blocked1_spec m accts k now w last : Rmap w last m accts -> accts [] = account0 ->
  is_blocked1 m k now = true <-> acc_blocked (accts k) now.
Proof.
  intros HR H0. unfold is_blocked1, acc_blocked. destruct k as [|c k'].
  - rewrite H0. cbn. split; [discriminate|lia].
  - specialize (HR (c :: k')). destruct HR as (E & _). rewrite <- E. unfold get_or_create.
    destruct (aget bytes_eqb (c :: k') m); [apply N.ltb_lt|]. cbn. split; [discriminate|lia].
Qed.

Lemma blocked_iff_book ops id cm now : realistic ops ->
  is_blocked (bq_limiter (bq_run bq_init ops)) id cm now = true <-> book_blocked (book_run book0 ops) id cm now.
Proof.
  intros (H1 & H2 & H3 & H4).
  destruct (limiter_refines ops 0 0 bq_init book0 Rbook0 H1 H2) as (last & total & HR); [exact H3|exact H4|].
  destruct HR. destruct (no_empty_run ops book0) as [N1 N2]; [split; reflexivity|].
  unfold is_blocked, book_blocked. rewrite orb_true_iff.
  rewrite (is_blocked1_spec _ _ _ _ _ _ rb_ids0 N1), (is_blocked1_spec _ _ _ _ _ _ rb_cmds0 N2). reflexivity.
Qed.

(** ** Isolation *)
Lemma get_record_other w d m key thr now e k : k <> key ->
  aget bytes_eqb k (record_and_check w d m key thr now e) = aget bytes_eqb k m.
Proof.
  intros H. unfold record_and_check. destruct (_ || _); [reflexivity|].
  destruct (N.ltb _ _); apply (aget_aset_other _ bytes_eqb_spec); exact H.
Qed.

(** Blocks: what one entry says only depends on the entry. *)
Lemma record_entry_ext w d m m2 key thr now e :
  aget bytes_eqb key m = aget bytes_eqb key m2 ->
  aget bytes_eqb key (record_and_check w d m key thr now e) = aget bytes_eqb key (record_and_check w d m2 key thr now e).
Proof.
  intros H. unfold record_and_check. destruct (_ || _); [exact H|].
  assert (G : get_or_create m key = get_or_create m2 key) by (unfold get_or_create; rewrite H; reflexivity).
  rewrite G. destruct (N.ltb _ _); rewrite !(aget_aset_same _ bytes_eqb_spec); reflexivity.
Qed.

Definition same_settings (l l2 : limiter) : Prop :=
  l_window l = l_window l2 /\ l_idThreshold l = l_idThreshold l2 /\
  l_cmdThreshold l = l_cmdThreshold l2 /\ l_blockDuration l = l_blockDuration l2.

Definition concerns_id (k : bytes) (o : bop) : bool :=
  match o with Brecord _ id _ _ => bytes_eqb id k | Bpush _ _ | Bget _ => false | _ => true end.
Definition concerns_cmd (k : bytes) (o : bop) : bool :=
  match o with Brecord _ _ c _ => bytes_eqb c k | Bpush _ _ | Bget _ => false | _ => true end.

Lemma run_cons b o ops : bq_run b (o :: ops) = bq_run (bq_step b o) ops.
Proof. reflexivity. Qed.

Lemma isolation_id k ops : forall b b2,
  same_settings (bq_limiter b) (bq_limiter b2) ->
  aget bytes_eqb k (l_ids (bq_limiter b)) = aget bytes_eqb k (l_ids (bq_limiter b2)) ->
  aget bytes_eqb k (l_ids (bq_limiter (bq_run b ops))) =
  aget bytes_eqb k (l_ids (bq_limiter (bq_run b2 (filter (concerns_id k) ops)))).
Proof.
  induction ops as [|o ops IH]; intros b b2 HS HG; [exact HG|].
  pose proof HS as (S1 & S2 & S3 & S4).
  rewrite run_cons. cbn [filter]. destruct (concerns_id k o) eqn:E; [rewrite run_cons|].
  - apply IH; destruct o; cbn [concerns_id] in E; try discriminate; cbn; try (unfold same_settings; cbn; tauto); try assumption.
    + apply bytes_eqb_eq in E. subst. rewrite S1, S2, S4. apply record_entry_ext. exact HG.
  - apply IH; destruct o; cbn [concerns_id] in E; try discriminate; cbn [bq_step];
      rewrite ?bq_push_limiter, ?bq_dequeue_limiter; try assumption.
    + cbn. apply bytes_eqb_neq in E. rewrite get_record_other by congruence. exact HG.
Qed.

Lemma isolation_cmd k ops : forall b b2,
  same_settings (bq_limiter b) (bq_limiter b2) ->
  aget bytes_eqb k (l_cmds (bq_limiter b)) = aget bytes_eqb k (l_cmds (bq_limiter b2)) ->
  aget bytes_eqb k (l_cmds (bq_limiter (bq_run b ops))) =
  aget bytes_eqb k (l_cmds (bq_limiter (bq_run b2 (filter (concerns_cmd k) ops)))).
Proof.
  induction ops as [|o ops IH]; intros b b2 HS HG; [exact HG|].
  pose proof HS as (S1 & S2 & S3 & S4).
  rewrite run_cons. cbn [filter]. destruct (concerns_cmd k o) eqn:E; [rewrite run_cons|].
  - apply IH; destruct o; cbn [concerns_cmd] in E; try discriminate; cbn; try (unfold same_settings; cbn; tauto); try assumption.
    + apply bytes_eqb_eq in E. subst. rewrite S1, S3, S4. apply record_entry_ext. exact HG.
  - apply IH; destruct o; cbn [concerns_cmd] in E; try discriminate; cbn [bq_step];
      rewrite ?bq_push_limiter, ?bq_dequeue_limiter; try assumption.
    + cbn. apply bytes_eqb_neq in E. rewrite get_record_other by congruence. exact HG.
Qed.

(** ** A block in force is not extended, shortened or lifted before its time. *)
Definition before (t : N) (o : bop) : Prop :=
  match o with Brecord now _ _ _ => now < t | BclearLimits => False | _ => True end.

Definition id_deadline (b : bqueue) (k : bytes) : option N :=
  option_map is_blockedUntil (aget bytes_eqb k (l_ids (bq_limiter b))).
Definition cmd_deadline (b : bqueue) (k : bytes) : option N :=
  option_map is_blockedUntil (aget bytes_eqb k (l_cmds (bq_limiter b))).

Lemma deadline_record w d m key thr now e k t :
  option_map is_blockedUntil (aget bytes_eqb k m) = Some t -> now < t ->
  option_map is_blockedUntil (aget bytes_eqb k (record_and_check w d m key thr now e)) = Some t.
Proof.
  intros H Hn. destruct (bytes_eqb_spec k key) as [->|Hk]; [|rewrite get_record_other by assumption; exact H].
  unfold record_and_check. destruct (_ || _); [exact H|]. unfold get_or_create.
  destruct (aget bytes_eqb key m) as [s|]; [|discriminate]. cbn in H. injection H as <-.
  destruct (N.ltb_spec now (is_blockedUntil s)); [|lia].
  rewrite (aget_aset_same _ bytes_eqb_spec). reflexivity.
Qed.

Lemma deadline_kept_id k t ops : forall b, id_deadline b k = Some t -> Forall (before t) ops ->
  id_deadline (bq_run b ops) k = Some t.
Proof.
  induction ops as [|o ops IH]; intros b Hb HF; [exact Hb|]. inversion HF; subst.
  rewrite run_cons. apply IH; [|assumption].
  destruct o; cbn [before] in *; unfold id_deadline in *; cbn [bq_step];
    rewrite ?bq_push_limiter, ?bq_dequeue_limiter; cbn; try assumption; [|easy].
  apply deadline_record; assumption.
Qed.
Lemma deadline_kept_cmd k t ops : forall b, cmd_deadline b k = Some t -> Forall (before t) ops ->
  cmd_deadline (bq_run b ops) k = Some t.
Proof.
  induction ops as [|o ops IH]; intros b Hb HF; [exact Hb|]. inversion HF; subst.
  rewrite run_cons. apply IH; [|assumption].
  destruct o; cbn [before] in *; unfold cmd_deadline in *; cbn [bq_step];
    rewrite ?bq_push_limiter, ?bq_dequeue_limiter; cbn; try assumption; [|easy].
  apply deadline_record; assumption.
Qed.
