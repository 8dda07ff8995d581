(** Invariants of every history of the jobs model. *)
Require Import List ZArith NArith Bool Ascii Lia Permutation Sorted.
Require Import Verif.Base Verif.Dec Verif.Text_Spec Verif.Text_Model Verif.Jobs_Spec Verif.Jobs_Model Verif.Jobs_Proofs.
Import ListNotations.
Open Scope Z_scope.

(** ** Repeats *)
Lemma upper_upper c : upper (upper c) = upper c.
Proof. apply Ascii.eqb_eq. revert c. apply forall_ascii. vm_compute. reflexivity. Qed.
Lemma lower_upper c : lower (upper c) = lower c.
Proof. apply Ascii.eqb_eq. revert c. apply forall_ascii. vm_compute. reflexivity. Qed.
Lemma SToUpper_idem s : SToUpper (SToUpper s) = SToUpper s.
Proof. unfold SToUpper. rewrite map_map. apply map_ext. exact upper_upper. Qed.
Lemma ieqb_upper s p : ieqb (SToUpper s) p = ieqb s p.
Proof. unfold ieqb, SToUpper. rewrite map_map. f_equal. apply map_ext. exact lower_upper. Qed.

Lemma apply_mods_none Q parts : forall v w, apply_mods Q parts v = None -> apply_mods Q parts w = None.
Proof.
  induction parts as [|p r IH]; cbn [apply_mods]; intros v w; [discriminate|].
  case_if; [apply IH|]. case_if; auto. apply IH.
Qed.
Lemma next_parts_none Q parts s l n s' l' n' :
  next_parts Q parts s l n = NoRepeat -> next_parts Q parts s' l' n' = NoRepeat.
Proof.
  unfold next_parts. destruct parts as [|b [|m ms]]; auto.
  destruct (bytes_eqb b (lit "SCHEDULED")) eqn:Eb.
  - destruct (apply_mods Q (m :: ms) s) as [[x|]|] eqn:E; try discriminate.
    + destruct s; discriminate.
    + rewrite (apply_mods_none _ _ _ s' E). auto.
  - destruct (bytes_eqb b (lit "STARTED")); [|destruct (bytes_eqb b (lit "FINISHED")); auto].
    + destruct (apply_mods Q (m :: ms) l) as [[x|]|] eqn:E; try discriminate.
      rewrite (apply_mods_none _ _ _ l' E). auto.
    + destruct (apply_mods Q (m :: ms) (Some n)) as [[x|]|] eqn:E; try discriminate.
      rewrite (apply_mods_none _ _ _ (Some n') E). auto.
Qed.
Lemma next_run_none Q rep s l n s' l' n' : next_run Q rep s l n = NoRepeat -> next_run Q rep s' l' n' = NoRepeat.
Proof. unfold next_run. destruct rep; auto. case_if; [discriminate|]. apply next_parts_none. Qed.
Lemma valid_repeat_next Q rep s l n : valid_repeat Q rep = true -> next_run Q rep s l n <> NoRepeat.
Proof.
  unfold valid_repeat. intros H E. rewrite (next_run_none _ _ _ _ _ None None 0 E) in H. discriminate.
Qed.
Lemma valid_repeat_upper Q rep : valid_repeat Q (SToUpper rep) = valid_repeat Q rep.
Proof.
  unfold valid_repeat, next_run. destruct rep as [|c r]; [reflexivity|].
  change (SToUpper (c :: r)) with (upper c :: SToUpper r) at 1.
  change (upper c :: SToUpper r) with (SToUpper (c :: r)).
  rewrite !ieqb_upper, SToUpper_idem. reflexivity.
Qed.

Definition good_repeat (Q : sql) (rep : bytes) : Prop := rep = [] \/ valid_repeat Q rep = true.
Lemma good_upper Q rep : (match rep with [] => false | _ => negb (valid_repeat Q rep) end) = false -> good_repeat Q (SToUpper rep).
Proof.
  destruct rep as [|c r] eqn:E; intros H; [left; reflexivity|]. right.
  rewrite valid_repeat_upper. apply negb_false_iff. exact H.
Qed.

(** ** Rows come from rows *)
Definition descends (Q : sql) (t t' : table) : Prop :=
  (NoDup (ids t) -> NoDup (ids t')) /\
  forall j', In j' t' -> exists j, In j t /\ j_id j' = j_id j /\ j_parent j' = j_parent j /\
                                 (j_repeat j' = j_repeat j \/ good_repeat Q (j_repeat j')).
Lemma desc_refl Q t : descends Q t t.
Proof. split; auto. intros j Hj. exists j. auto. Qed.
Lemma desc_trans Q a b c : descends Q a b -> descends Q b c -> descends Q a c.
Proof.
  intros [A1 A2] [B1 B2]. split; auto. intros j Hj. destruct (B2 j Hj) as (k & Hk & E1 & E2 & E3).
  destruct (A2 k Hk) as (l & Hl & F1 & F2 & F3). exists l.
  rewrite E1, E2, F1, F2. repeat split; auto. destruct E3 as [->|]; auto.
Qed.
Definition keeps_all (Q : sql) (f : job -> job) : Prop :=
  forall j, j_id (f j) = j_id j /\ j_parent (f j) = j_parent j /\ (j_repeat (f j) = j_repeat j \/ good_repeat Q (j_repeat (f j))).
Lemma desc_map Q f t : keeps_all Q f -> descends Q t (map f t).
Proof.
  intros K. split.
  - unfold ids. rewrite map_map. intros H. erewrite map_ext; [exact H|]. intros j. apply K.
  - intros j' H. apply in_map_iff in H. destruct H as (j & <- & Hj). exists j. destruct (K j) as (K1 & K2 & K3). auto.
Qed.
Lemma desc_update Q p f t : keeps_all Q f -> descends Q t (update p f t).
Proof.
  intros K. unfold update. apply desc_map. intros j. destruct (p j); [apply K|auto].
Qed.
Lemma desc_filter Q p t : descends Q t (filter p t).
Proof.
  split; [apply filter_ids_nodup|]. intros j H. apply filter_In in H. exists j. tauto.
Qed.

Ltac karg := intros ?; repeat (first
  [ progress cbn [j_id j_parent j_repeat with_state with_name with_next with_last with_repeat with_data with_prio]
  | case_if
  | match goal with |- context[match ?x with _ => _ end] => destruct x eqn:? end ]); auto.

(** ** The shape of FinishJob and RetryJob *)
(* nothing but data, name and priority may differ *)
Definition alike (f : job -> job) : Prop :=
  forall j, j_id (f j) = j_id j /\ j_parent (f j) = j_parent j /\ j_state (f j) = j_state j /\ j_next (f j) = j_next j /\
            j_last (f j) = j_last j /\ j_repeat (f j) = j_repeat j /\ j_retry (f j) = j_retry j /\ j_created (f j) = j_created j.
Definition leftover (id : N) (y : job) : bool := is_child id y && in_states [FINISHED; CANCELLED] y.

Inductive finished (r : finish_req) (j : job) (F : job -> job) (t : table) : table -> Prop :=
| fin_paused t3 :
    f_retry r = false ->
    t3 = map F (filter (fun y => negb (leftover (f_id r) y)) t) ->
    (exists c, In c t /\ child_of (f_id r) c /\ unfinished c) ->
    finished r j F t (update (fun y => in_states [PAUSED] y && is_child (f_id r) y) (with_state QUEUED)
                        (update_id (f_id r) (fun x => with_state PAUSED (with_next (j_last j) x)) t3))
| fin_again t3 x :
    t3 = map F (filter (fun y => negb (leftover (f_id r) y)) t) ->
    (f_retry r = true \/ forall c, In c t -> child_of (f_id r) c -> ~ unfinished c) ->
    finished r j F t (update_id (f_id r) (fun y => with_state QUEUED (with_next (Some x) y)) t3)
| fin_child t3 t2 :
    t3 = map F (filter (fun y => negb (leftover (f_id r) y)) t) ->
    f_retry r = false ->
    (forall c, In c t -> child_of (f_id r) c -> ~ unfinished c) ->
    j_parent j <> 0%N ->
    t2 = update_id (f_id r) (with_state FINISHED) t3 ->
    finished r j F t (if has_pending (j_parent j) t2 then t2 else update_id (j_parent j) (with_state QUEUED) t2)
| fin_gone t3 :
    t3 = map F (filter (fun y => negb (leftover (f_id r) y)) t) ->
    f_retry r = false ->
    (forall c, In c t -> child_of (f_id r) c -> ~ unfinished c) ->
    j_parent j = 0%N ->
    existsb (is_child (f_id r)) (filter (fun y => negb (is_id (f_id r) y)) t3) = false ->
    finished r j F t (filter (fun y => negb (is_id (f_id r) y)) t3).

Lemma unfinished_states y : in_states [QUEUED; RUNQUEUED; RUNNING; PAUSED] y = true <-> unfinished y.
Proof. rewrite in_states_true. unfold unfinished, active. cbn. intuition congruence. Qed.
Lemma has_pending_spec p t : has_pending p t = true <-> exists c, In c t /\ child_of p c /\ unfinished c.
Proof.
  unfold has_pending. rewrite existsb_exists. split; intros (c & Hc & H); exists c; split; auto.
  - apply andb_true_iff in H. rewrite is_child_true, unfinished_states in H. exact H.
  - apply andb_true_iff. rewrite is_child_true, unfinished_states. exact H.
Qed.
Lemma alike_pending f id p t : alike f ->
  has_pending p (map f (filter (fun y => negb (leftover id y)) t)) = has_pending p t.
Proof.
  intros K. apply eq_true_iff_eq. rewrite !has_pending_spec. split.
  - intros (c & Hc & C & U). apply in_map_iff in Hc. destruct Hc as (y & <- & Hy). apply filter_In in Hy.
    exists y. destruct (K y) as (K1 & K2 & K3 & _). unfold child_of, unfinished, active in *.
    rewrite K2, K3 in *. tauto.
  - intros (c & Hc & C & U). exists (f c). destruct (K c) as (K1 & K2 & K3 & _).
    split; [|unfold child_of, unfinished, active in *; rewrite K2, K3; auto].
    apply in_map. apply filter_In. split; auto. apply negb_true_iff, andb_false_iff. right.
    apply not_true_is_false. rewrite in_states_true. cbn. unfold unfinished, active in U. intuition congruence.
Qed.

Lemma finish_full Q now r t t' rp :
  finish_job Q now r t = Ok t' rp ->
  exists j F,
    In j t /\ j_id j = f_id r /\ lookup (f_id r) t = Some j /\
    (In (j_state j) [RUNNING; RUNQUEUED] \/ d_mock (j_data j) = true) /\
    (j_parent j = 0%N \/ exists p, In p t /\ j_id p = j_parent j /\ j_state p = PAUSED) /\
    alike F /\ finished r j F t t' /\ (forall y, j_id y <> f_id r -> F y = y).
Proof.
  unfold finish_job. set (id := f_id r). destruct (lookup id t) as [j|] eqn:El; [|discriminate].
  pose proof (lookup_some _ _ _ El) as [Hj Ej].
  destruct (negb (in_states [RUNNING; RUNQUEUED] j) && negb (d_mock (j_data j))) eqn:G1'; [discriminate|].
  assert (S1 : In (j_state j) [RUNNING; RUNQUEUED] \/ d_mock (j_data j) = true).
  { apply andb_false_iff in G1'. rewrite !negb_false_iff in G1'. rewrite in_states_true in G1'. exact G1'. }
  match goal with |- (if ?b then _ else _) = _ -> _ => destruct b eqn:G2; [discriminate|] end.
  assert (S2 : j_parent j = 0%N \/ exists p, In p t /\ j_id p = j_parent j /\ j_state p = PAUSED).
  { apply andb_false_iff in G2. rewrite !negb_false_iff in G2. destruct G2 as [G2|G2].
    - left. apply N.eqb_eq. exact G2.
    - right. destruct (lookup (j_parent j) t) as [p|] eqn:Ep; [|discriminate].
      apply lookup_some in Ep. exists p. apply in_states_true in G2. cbn in G2. intuition congruence. }
  match goal with |- (if ?b then _ else _) = _ -> _ => destruct b eqn:G3; [discriminate|] end.
  set (kept := filter (fun y => negb (is_child id y && in_states [FINISHED; CANCELLED] y)) t).
  set (D := fun y => if is_id id y then with_data (set_count 0 (match f_data r with Some d => d | None => j_data y end)) y else y).
  assert (KD : alike D) by (intros y; unfold D; destruct (is_id id y); repeat split; reflexivity).
  assert (E3 : update_id id (fun x => with_data (set_count 0 (j_data x)) x)
                 match f_data r with Some d => update_id id (with_data d) kept | None => kept end = map D kept).
  { unfold update_id, update, D. destruct (f_data r) as [d|]; [|reflexivity]. rewrite map_map. apply map_ext.
    intros y. destruct (is_id id y) eqn:Ey; [|rewrite Ey; reflexivity].
    replace (is_id id (with_data d y)) with true by (symmetry; exact Ey). reflexivity. }
  rewrite E3. clear E3.
  assert (EP : has_pending id (map D kept) = has_pending id t) by exact (alike_pending D id id t KD).
  rewrite EP.
  match goal with |- (if ?b then _ else _) = _ -> _ => destruct b eqn:G4 end.
  { intros H. injection H as <- _. apply andb_true_iff in G4. destruct G4 as [R P]. apply negb_true_iff in R.
    apply has_pending_spec in P. exists j, D. split; [auto|]. split; [auto|]. split; [auto|]. split; [auto|].
    split; [auto|]. split; [auto|]. split; [apply fin_paused; auto|].
    intros y Hy. unfold D. apply is_id_false in Hy. fold id in Hy. rewrite Hy. reflexivity. }
  set (rep := match f_data r with Some _ => if f_delete r then [] else j_repeat j | None => j_repeat j end).
  clearbody rep.
  assert (NP : f_retry r = true \/ forall c, In c t -> child_of id c -> ~ unfinished c).
  { destruct (f_retry r); [auto|]. right. cbn [negb andb] in G4. intros c Hc C U.
    assert (X : has_pending id t = true) by (apply has_pending_spec; eauto). congruence. }
  unfold finish_tail. fold id.
  match goal with |- (if ?b then _ else _) = _ -> _ => destruct b eqn:G5; [discriminate|] end.
  set (N0 := fun x : job => let x1 := match f_name r with [] => x | n => with_name n x end in
                   match f_prio r with Some p => with_prio (stored_prio p) x1 | None => x1 end).
  set (F := fun y => let z := D y in if f_retry r then (if is_id id z then N0 z else z) else z).
  assert (KN : alike N0).
  { intros y. unfold N0. destruct (f_name r), (f_prio r); repeat split; reflexivity. }
  assert (KF : alike F).
  { intros y. unfold F. cbv zeta. destruct (f_retry r); [|apply KD]. destruct (is_id id (D y)); [|apply KD].
    destruct (KD y) as (A1 & A2 & A3 & A4 & A5 & A6 & A7 & A8), (KN (D y)) as (B1 & B2 & B3 & B4 & B5 & B6 & B7 & B8).
    rewrite B1, B2, B3, B4, B5, B6, B7, B8. repeat split; auto. }
  assert (LF : forall y, j_id y <> f_id r -> F y = y).
  { intros y Hy. apply is_id_false in Hy. fold id in Hy. unfold F, D. rewrite Hy. cbv zeta. rewrite Hy. destruct (f_retry r); reflexivity. }
  assert (ET : (if f_retry r then update_id id N0 (map D kept) else map D kept) = map F kept).
  { unfold F, update_id, update. destruct (f_retry r); [rewrite map_map; reflexivity|reflexivity]. }
  rewrite ET.
  match goal with |- match ?n with _ => _ end = _ -> _ => destruct n as [[| |x]|] eqn:En end; try discriminate.
  - destruct (f_retry r) eqn:R; [discriminate|]. destruct NP as [NP|NP]; [discriminate|].
    destruct (negb (j_parent j =? 0)%N) eqn:EPa.
    + intros H. injection H as <- _. apply negb_true_iff, N.eqb_neq in EPa.
      exists j, F. split; [auto|]. split; [auto|]. split; [auto|]. split; [auto|]. split; [auto|]. split; [auto|].
      split; [eapply fin_child; eauto|exact LF].
    + destruct (existsb (is_child id) (filter (fun y => negb (is_id id y)) (map F kept))) eqn:EX; [discriminate|].
      intros H. injection H as <- _. apply negb_false_iff, N.eqb_eq in EPa.
      exists j, F. split; [auto|]. split; [auto|]. split; [auto|]. split; [auto|]. split; [auto|]. split; [auto|].
      split; [eapply fin_gone; eauto|exact LF].
  - intros H. injection H as <- _. exists j, F. split; [auto|]. split; [auto|]. split; [auto|]. split; [auto|].
    split; [auto|]. split; [auto|]. split; [eapply fin_again; eauto|exact LF].
Qed.
Lemma finish_spec Q now r t t' rp :
  finish_job Q now r t = Ok t' rp ->
  exists j F,
    In j t /\ j_id j = f_id r /\ lookup (f_id r) t = Some j /\
    (In (j_state j) [RUNNING; RUNQUEUED] \/ d_mock (j_data j) = true) /\
    (j_parent j = 0%N \/ exists p, In p t /\ j_id p = j_parent j /\ j_state p = PAUSED) /\
    alike F /\ finished r j F t t'.
Proof.
  intros H. destruct (finish_full _ _ _ _ _ _ H) as (j & F & A & B & C & D & E & G & K & _). exists j, F. auto 10.
Qed.

Lemma alike_keeps Q F : alike F -> keeps_all Q F.
Proof. intros K j. destruct (K j) as (A1 & A2 & _ & _ & _ & A6 & _). auto. Qed.
Lemma state_keeps Q s : keeps_all Q (with_state s).
Proof. intros j. repeat split; auto. Qed.

Lemma finished_descends Q r j F t t' : alike F -> finished r j F t t' -> descends Q t t'.
Proof.
  intros K H.
  assert (B : forall t3, t3 = map F (filter (fun y => negb (leftover (f_id r) y)) t) -> descends Q t t3).
  { intros t3 ->. eapply desc_trans; [apply desc_filter|]. apply desc_map. apply alike_keeps. exact K. }
  destruct H; subst.
  - eapply desc_trans; [apply B; reflexivity|]. eapply desc_trans; apply desc_update; [|apply state_keeps].
    intros y. repeat split; auto.
  - eapply desc_trans; [apply B; reflexivity|]. apply desc_update. intros y. repeat split; auto.
  - eapply desc_trans; [apply B; reflexivity|].
    eapply desc_trans; [apply desc_update; apply (state_keeps Q FINISHED)|].
    case_if; [apply desc_refl|]. apply desc_update. apply state_keeps.
  - eapply desc_trans; [apply B; reflexivity|]. apply desc_filter.
Qed.

Lemma take_retriable_keeps Q now s : keeps_all Q (take_retriable Q now s).
Proof. intros j. unfold take_retriable. case_if; [auto|]. destruct (retry_time _ _); auto. Qed.
Lemma taken_keeps Q now : keeps_all Q (taken Q now).
Proof. intros j. unfold taken. case_if; auto. case_if; auto. apply take_retriable_keeps. Qed.

Lemma reorders_perm t t' : NoDup (ids t) -> reorders t t' = true -> Permutation t t'.
Proof.
  intros Hn H. unfold reorders in H. apply andb_true_iff in H. destruct H as [H1 H2].
  apply Nat.eqb_eq in H1. rewrite forallb_forall in H2.
  assert (NoDup t) by (exact (NoDup_map_inv _ _ Hn)).
  apply NoDup_Permutation_bis; auto; [lia|]. intros x Hx. specialize (H2 x Hx).
  destruct (in_dec job_eq_dec x t'); [auto|discriminate].
Qed.
Lemma desc_perm Q t t' : Permutation t t' -> descends Q t t'.
Proof.
  intros P. split.
  - intros H. eapply Permutation_NoDup; [|exact H]. apply Permutation_map. exact P.
  - intros j Hj. exists j. split; auto. eapply Permutation_in; [symmetry; exact P|exact Hj].
Qed.

Lemma cmd_descends Q t c t' r : NoDup (ids t) ->
  (forall now l, c <> CCreate now l) -> run_cmd Q t c = Ok t' r -> descends Q t t'.
Proof.
  intros Hn Hc. destruct c as [now l|now g|now u|now f|id|id d|id|l n b|t0]; cbn [run_cmd].
  - exfalso. exact (Hc now l eq_refl).
  - intros H. destruct (get_rows _ _ _ _ _ _ Hn H) as [-> _]. apply desc_map.
    intros j. destruct (in_ids _ j); [apply taken_keeps|auto].
  - unfold update_job. destruct (match u_repeat u with [] => false | _ => _ end) eqn:G1; [discriminate|].
    case_if; [discriminate|]. destruct (lookup (u_id u) t) as [j|]; [|discriminate].
    assert (K : forall x, let y := (let x1 := with_data (set_mock (d_mock (j_data j)) (u_data u)) x in
          let x2 := if u_clear u then with_repeat [] x1
                    else match u_repeat u with [] => x1 | rep => with_repeat (SToUpper rep) x1 end in
          match u_prio u with Some p => with_prio (Some p) x2 | None => x2 end) in
       j_id y = j_id x /\ j_parent y = j_parent x /\ (j_repeat y = j_repeat x \/ good_repeat Q (j_repeat y))).
    { intros x. apply good_upper in G1. cbv zeta. destruct (u_clear u), (u_repeat u), (u_prio u);
        cbn [j_id j_parent j_repeat with_repeat with_data with_prio]; repeat split; auto; right; left; reflexivity. }
    match goal with |- match ?n with _ => _ end = _ -> _ => destruct n end; try discriminate;
      intros H; injection H as <- _; apply desc_update; intros x; apply (K x).
  - intros H. destruct (finish_spec _ _ _ _ _ _ H) as (j & F & _ & _ & _ & _ & _ & K & Hf).
    exact (finished_descends Q _ _ _ _ _ K Hf).
  - unfold cancel_job. destruct (lookup id t) as [j|]; [|discriminate]. case_if; [discriminate|].
    case_if; [discriminate|]. case_if; intros H; injection H as <- _; [apply desc_refl|].
    case_if; [apply desc_update; apply state_keeps|].
    eapply desc_trans; apply desc_update; apply state_keeps.
  - unfold fail_job. destruct (lookup id t) as [j|]; [|discriminate]. case_if; [discriminate|].
    intros H; injection H as <- _. apply desc_update. intros x. destruct d; repeat split; auto.
  - unfold delete_job. destruct (lookup id t) as [j|]; [|discriminate]. case_if; [discriminate|].
    intros H; injection H as <- _. apply desc_filter.
  - unfold requeue_jobs. intros H; injection H as <- _. apply desc_update. intros x. destruct n, b; repeat split; auto.
  - case_if; [|discriminate]. intros H; injection H as <- _. apply desc_perm. apply reorders_perm; auto.
Qed.

(** ** Creation *)
Lemma create_cases Q now r t t1 id : create_one Q now r t = Some (t1, id) ->
  descends Q t t1 /\ (forall j, In j t1 -> exists k, In k t /\ j_id j = j_id k /\ j_parent j = j_parent k /\ j_state j = j_state k) \/
  t1 = t ++ [new_row t now r] /\ parent_ok t r = true /\ good_repeat Q (SToUpper (c_rep r)).
Proof.
  unfold create_one. destruct (if c_unique r then find (same_job r) t else None) as [j|].
  - destruct (data_eqb _ _).
    + intros H. injection H as <- _. left. split; [apply desc_refl|]. intros k Hk. eauto.
    + destruct (match c_rep r with [] => false | _ => _ end) eqn:G; [discriminate|].
      case_if; [discriminate|]. case_if; [discriminate|]. apply good_upper in G.
      case_if; intros H; injection H as <- _; left; split; try apply desc_refl; try (intros k Hk; eauto; fail).
      * apply desc_update. intros x. cbn [j_id j_parent j_repeat with_repeat with_data with_prio]. auto.
      * intros k Hk. apply in_update in Hk. destruct Hk as (y & Hy & ->). exists y. destruct (is_id _ y); auto.
  - destruct (match c_rep r with [] => false | _ => _ end) eqn:G; [discriminate|].
    case_if; [discriminate|]. case_if; [discriminate|]. apply good_upper in G.
    intros H. injection H as <- _. right. rewrite negb_false_iff in *. auto.
Qed.

(** ** The invariant *)
Definition known (t : table) (u : list N) : Prop :=
  NoDup (ids t) /\ ~ In 0%N u /\ forall j, In j t -> In (j_id j) u /\ (j_parent j = 0%N \/ In (j_parent j) u).
Definition no_grand (t : table) : Prop :=
  forall c p, In c t -> In p t -> j_parent c <> 0%N -> j_parent c = j_id p -> j_parent p = 0%N.
Definition repeats_ok (Q : sql) (t : table) : Prop := forall j, In j t -> good_repeat Q (j_repeat j).
Definition Inv (Q : sql) (t : table) (u : list N) : Prop := known t u /\ no_grand t /\ repeats_ok Q t.

Lemma inv_desc Q t t' u : Inv Q t u -> descends Q t t' -> Inv Q t' u.
Proof.
  intros ((N1 & N2 & N3) & G & R) (D1 & D2). split; [|split].
  - split; [auto|]. split; [auto|]. intros j Hj. destruct (D2 j Hj) as (k & Hk & -> & -> & _). auto.
  - intros c p Hc Hp H0 H1. destruct (D2 c Hc) as (c0 & Hc0 & C1 & C2 & _), (D2 p Hp) as (p0 & Hp0 & P1 & P2 & _).
    rewrite P2. apply (G c0 p0); congruence.
  - intros j Hj. destruct (D2 j Hj) as (k & Hk & _ & _ & [E|E]); auto. rewrite E. auto.
Qed.
Lemma inv_more Q t u u' : Inv Q t u -> (forall x, In x u -> In x u') -> ~ In 0%N u' -> Inv Q t u'.
Proof.
  intros ((N1 & N2 & N3) & G & R) Hu H0. split; [|split; auto]. split; [auto|]. split; [auto|].
  intros j Hj. destruct (N3 j Hj) as [A [B|B]]; auto.
Qed.
Lemma lookup_parent t r : parent_ok t r = true -> c_parent r <> 0%N ->
  exists p, In p t /\ j_id p = c_parent r /\ lookup (c_parent r) t = Some p /\
            In (j_state p) [RUNNING; RUNQUEUED; PAUSED] /\ j_parent p = 0%N.
Proof.
  unfold parent_ok. intros H H0. apply orb_true_iff in H. destruct H as [H|H]; [apply N.eqb_eq in H; congruence|].
  destruct (lookup (c_parent r) t) as [p|] eqn:E; [|discriminate]. apply lookup_some in E as E'. exists p.
  rewrite !andb_true_iff, in_states_true, N.eqb_eq in H. tauto.
Qed.
Lemma inv_insert Q now r t u : Inv Q t u -> parent_ok t r = true -> good_repeat Q (SToUpper (c_rep r)) ->
  ~ In (c_new r) u -> c_new r <> 0%N -> Inv Q (t ++ [new_row t now r]) (c_new r :: u).
Proof.
  intros ((N1 & N2 & N3) & G & R) P Gr Hf H0.
  assert (Hp : c_parent r = 0%N \/ In (c_parent r) u).
  { destruct (N.eq_dec (c_parent r) 0); auto. right. destruct (lookup_parent t r P n) as (p & Hp & E & _).
    rewrite <- E. apply N3. exact Hp. }
  split; [|split].
  - split; [|split].
    + unfold ids. rewrite map_app. cbn [map new_row j_id].
      apply Permutation_NoDup with (c_new r :: map j_id t); [apply Permutation_cons_append|].
      constructor; auto. intros H. apply in_map_iff in H. destruct H as (k & E & Hk).
      apply Hf. rewrite <- E. apply N3. exact Hk.
    + intros [H|H]; [congruence|auto].
    + intros j Hj. apply in_app_or in Hj. destruct Hj as [Hj|[<-|[]]].
      * destruct (N3 j Hj) as [A [B|B]]; cbn; auto.
      * cbn [new_row j_id j_parent In]. destruct Hp; auto.
  - intros c p Hc Hpp E0 E. apply in_app_or in Hc. apply in_app_or in Hpp.
    destruct Hc as [Hc|[<-|[]]], Hpp as [Hpp|[<-|[]]].
    + exact (G c p Hc Hpp E0 E).
    + cbn [new_row j_id] in E. exfalso. apply Hf. rewrite <- E. destruct (N3 c Hc) as [_ [B|B]]; congruence.
    + cbn [new_row j_parent] in E0, E. destruct (lookup_parent t r P E0) as (p' & Hp' & E' & _ & _ & Z).
      rewrite (ids_inj t p p'); auto. congruence.
    + cbn [new_row j_parent j_id] in *. exfalso. destruct Hp as [Hp|Hp]; [congruence|]. rewrite E in Hp. auto.
  - intros j Hj. apply in_app_or in Hj. destruct Hj as [Hj|[<-|[]]]; auto.
Qed.

Lemma fresh_cons r l u : fresh_ids (r :: l) u = true ->
  c_new r <> 0%N /\ ~ In (c_new r) u /\ fresh_ids l (c_new r :: u) = true.
Proof.
  cbn [fresh_ids]. rewrite !andb_true_iff, negb_true_iff, N.ltb_lt. intros [[A B] C].
  split; [lia|]. split; auto. intros H. assert (X : existsb (N.eqb (c_new r)) u = true).
  { apply existsb_exists. exists (c_new r). split; auto. apply N.eqb_refl. } congruence.
Qed.

(** Induction over the jobs of a CreateJobs. *)
Lemma create_list_ind Q now (P : table -> list N -> Prop) :
  (forall r t t1 id u, P t u -> c_new r <> 0%N -> ~ In (c_new r) u ->
     create_one Q now r t = Some (t1, id) -> P t1 (c_new r :: u)) ->
  forall l t u t' l', P t u -> fresh_ids l u = true -> create_list Q now l t = Some (t', l') ->
    P t' (rev (map c_new l) ++ u).
Proof.
  intros H. induction l as [|r l IH]; intros t u t' l' Ht Hf; cbn [create_list].
  - intros E. injection E as <- _. exact Ht.
  - destruct (create_one Q now r t) as [[t1 id]|] eqn:E1; [|discriminate].
    destruct (create_list Q now l t1) as [[t2 l2]|] eqn:E2; [|discriminate].
    intros E. injection E as <- _. apply fresh_cons in Hf. destruct Hf as (F1 & F2 & F3).
    cbn [map rev]. rewrite <- app_assoc. cbn [app]. apply (IH t1 _ t2 l2); auto. exact (H r t t1 id u Ht F1 F2 E1).
Qed.

Lemma inv_create Q now l t u t' l' : Inv Q t u -> fresh_ids l u = true -> create_list Q now l t = Some (t', l') ->
  Inv Q t' (rev (map c_new l) ++ u).
Proof.
  apply (create_list_ind Q now (Inv Q)). intros r t0 t1 id v I H0 Hf E.
  destruct (create_cases _ _ _ _ _ _ E) as [[D _]|(-> & P & G)].
  - eapply inv_more; [exact (inv_desc _ _ _ _ I D)|intros; cbn; auto|].
    intros [X|X]; [congruence|]. destruct I as ((_ & N2 & _) & _). auto.
  - apply inv_insert; auto.
Qed.

Definition SInv (Q : sql) (s : state) : Prop := Inv Q (rows s) (used s).
Lemma fresh_zero l : forall u, fresh_ids l u = true -> ~ In 0%N (map c_new l).
Proof.
  induction l as [|r l IH]; intros u H; [intros []|]. apply fresh_cons in H. destruct H as (H0 & _ & H).
  intros [E|E]; [congruence|]. exact (IH _ H E).
Qed.
Lemma inv_step Q s c : SInv Q s -> SInv Q (fst (step Q s c)).
Proof.
  intros I. unfold step. case_if; [exact I|]. apply negb_false_iff in Heqb.
  destruct (run_cmd Q (rows s) c) as [t r| |] eqn:E; [|exact I|exact I]. unfold SInv. cbn [fst rows used].
  destruct c as [now l|now g|now u|now f|id|id d|id|l n b|t0];
    try (cbn [new_ids app]; apply (inv_desc Q (rows s)); [exact I|];
         refine (cmd_descends Q _ _ _ _ (proj1 (proj1 I)) _ E); intros; discriminate).
  cbn [run_cmd] in E. unfold create_jobs in E. case_if_in E; [discriminate|].
  destruct (create_list Q now l (rows s)) as [[t' l']|] eqn:E'; [|discriminate]. injection E as <- <-.
  pose proof (inv_create _ _ _ _ _ _ _ I Heqb E') as I'. cbn [new_ids].
  eapply inv_more; [exact I'| |].
  - intros x Hx. apply in_app_or in Hx. apply in_or_app. destruct Hx as [Hx|Hx]; auto. left. apply in_rev. exact Hx.
  - intros Hx. apply in_app_or in Hx. destruct Hx as [Hx|Hx].
    + exact (fresh_zero _ _ Heqb Hx).
    + destruct I as ((_ & N2 & _) & _). auto.
Qed.
Lemma inv_init Q : SInv Q init.
Proof.
  split; [|split]; [split; [constructor|split; [intros []|intros j []]]|intros c p []|intros j []].
Qed.
Lemma inv_exec Q l : forall s, SInv Q s -> SInv Q (exec Q s l).
Proof. induction l as [|c l IH]; intros s I; cbn [exec]; auto. apply IH. apply inv_step. exact I. Qed.

(** ** Why a job changed state *)
Inductive why (t : table) : cmd -> job -> jstate -> Prop :=
| why_get now g j s' : waiting j -> In s' [RUNNING; RUNQUEUED; FAILED] -> why t (CGet now g) j s'
| why_self now r j s' : f_id r = j_id j -> In s' [PAUSED; QUEUED; FINISHED] -> why t (CFinish now r) j s'
| why_start now r j : f_retry r = false -> child_of (f_id r) j -> j_state j = PAUSED -> why t (CFinish now r) j QUEUED
| why_resume now r j k : f_retry r = false -> In k t -> j_id k = f_id r -> child_of (j_id j) k -> j_state j = PAUSED ->
    why t (CFinish now r) j QUEUED
| why_cancel j : In (j_state j) [QUEUED; RUNQUEUED; FAILED; CANCELLED] -> j_parent j <> 0%N -> why t (CCancel (j_id j)) j CANCELLED
| why_cancel_resume j k : In k t -> child_of (j_id j) k -> why t (CCancel (j_id k)) j QUEUED
| why_fail j d : In (j_state j) [RUNNING; RUNQUEUED] -> why t (CFail (j_id j) d) j FAILED
| why_requeue j l n b : In (j_id j) l -> why t (CRequeue l n b) j QUEUED.

Lemma selected_waiting Q now g t j : NoDup (ids t) -> In j t -> in_ids (ids (select Q now g t)) j = true ->
  In j (select Q now g t) /\ wanted Q now g j = true.
Proof.
  intros Hn Hj H. apply in_ids_true in H. apply in_map_iff in H. destruct H as (k & E & Hk).
  destruct (select_in _ _ _ _ _ Hk) as [Hkt Hw]. rewrite (ids_inj t j k); auto.
Qed.

Lemma alike_in F id t j' : alike F -> In j' (map F (filter (fun y => negb (leftover id y)) t)) ->
  exists j, In j t /\ leftover id j = false /\ j' = F j /\ j_id j' = j_id j /\ j_parent j' = j_parent j /\ j_state j' = j_state j.
Proof.
  intros K H. apply in_map_iff in H. destruct H as (j & <- & Hj). apply filter_In in Hj.
  destruct (K j) as (A & B & C & _). rewrite negb_true_iff in Hj. exists j. intuition.
Qed.

Lemma cmd_why Q t c t' r : NoDup (ids t) -> no_grand t ->
  (forall now l, c <> CCreate now l) -> run_cmd Q t c = Ok t' r ->
  forall j', In j' t' -> exists j, In j t /\ j_id j' = j_id j /\ j_parent j' = j_parent j /\
    (j_state j' = j_state j \/ why t c j (j_state j')).
Proof.
  intros Hn Hg Hc. destruct c as [now l|now g|now u|now f|id|id d|id|l n b|t0]; cbn [run_cmd].
  - exfalso. exact (Hc now l eq_refl).
  - intros H j' Hj'. destruct (get_rows _ _ _ _ _ _ Hn H) as [-> _]. apply in_map_iff in Hj'.
    destruct Hj' as (j & <- & Hj). exists j. split; auto.
    destruct (in_ids (ids (select Q now g t)) j) eqn:I; [|auto].
    destruct (taken_id Q now j) as [-> ->]. split; auto. split; auto. right.
    apply selected_waiting in I; auto. apply why_get; [|apply taken_state].
    apply (wanted_waiting Q now g). tauto.
  - unfold update_job. case_if; [discriminate|]. case_if; [discriminate|]. destruct (lookup (u_id u) t) as [k|]; [|discriminate].
    assert (X : forall f, (forall x, j_id (f x) = j_id x /\ j_parent (f x) = j_parent x /\ j_state (f x) = j_state x) ->
                forall j', In j' (update_id (u_id u) f t) -> exists j, In j t /\ j_id j' = j_id j /\ j_parent j' = j_parent j /\
                  (j_state j' = j_state j \/ why t (CUpdate now u) j (j_state j'))).
    { intros f K j' Hj'. apply in_update in Hj'. destruct Hj' as (j & Hj & ->). exists j. split; auto.
      destruct (is_id (u_id u) j); auto. destruct (K j) as (-> & -> & ->). auto. }
    match goal with |- match ?n with _ => _ end = _ -> _ => destruct n end; try discriminate;
      intros H; injection H as <- _; apply X; intros x; destruct (u_clear u), (u_repeat u), (u_prio u); repeat split; reflexivity.
  - intros H j' Hj'. destruct (finish_spec _ _ _ _ _ _ H) as (j & F & Hj & Ej & El & S1 & S2 & K & Hf).
    inversion Hf as [t3 R E3 Hp|t3 x E3 NP|t3 t2 E3 R NP Hpar E2|t3 E3 R NP Hpar EX]; subst.
    + apply in_update in Hj'. destruct Hj' as (y & Hy & ->). apply in_update in Hy. destruct Hy as (z & Hz & ->).
      destruct (alike_in _ _ _ _ K Hz) as (w & Hw & _ & _ & W1 & W2 & W3). exists w. split; auto.
      destruct (is_id (f_id f) z) eqn:Ez.
      * apply is_id_true in Ez. cbn [in_states existsb j_state with_state jstate_eqb orb andb].
        destruct (is_child (f_id f) (with_state PAUSED (with_next (j_last j) z))) eqn:Ch.
        -- exfalso. apply is_child_true in Ch. destruct Ch as [C1 C2]. cbn [j_parent with_state with_next] in C2.
           assert (j_parent w = 0%N) by (apply (Hg w w); congruence). congruence.
        -- cbn [j_id j_parent j_state with_state with_next]. split; [auto|]. split; [auto|]. right. apply why_self; cbn; auto. congruence.
      * destruct (in_states [PAUSED] z && is_child (f_id f) z) eqn:Ep; [|auto].
        apply andb_true_iff in Ep. destruct Ep as [Ep Ec]. apply in_states_true in Ep. cbn in Ep. apply is_child_true in Ec.
        cbn [j_id j_parent j_state with_state]. split; [auto|]. split; [auto|]. right. apply why_start; auto.
        -- unfold child_of in *. rewrite <- W2. exact Ec.
        -- intuition congruence.
    + apply in_update in Hj'. destruct Hj' as (z & Hz & ->).
      destruct (alike_in _ _ _ _ K Hz) as (w & Hw & _ & _ & W1 & W2 & W3). exists w. split; auto.
      destruct (is_id (f_id f) z) eqn:Ez; [|auto]. apply is_id_true in Ez. cbn [j_id j_parent j_state with_state with_next].
      split; [auto|]. split; [auto|]. right. apply why_self; cbn; auto. congruence.
    + set (t2 := update_id (f_id f) (with_state FINISHED) (map F (filter (fun y => negb (leftover (f_id f) y)) t))) in *.
      assert (X : forall j', In j' t2 -> exists w, In w t /\ j_id j' = j_id w /\ j_parent j' = j_parent w /\
                   (j_state j' = j_state w \/ why t (CFinish now f) w (j_state j')) /\
                   (j_id w <> f_id f -> j_state j' = j_state w)).
      { intros y Hy. apply in_update in Hy. destruct Hy as (z & Hz & ->).
        destruct (alike_in _ _ _ _ K Hz) as (w & Hw & _ & _ & W1 & W2 & W3). exists w. split; auto.
        destruct (is_id (f_id f) z) eqn:Ez; [|auto]. apply is_id_true in Ez. cbn [j_id j_parent j_state with_state with_next].
        split; [auto|]. split; [auto|]. split; [right; apply why_self; cbn; auto; congruence|]. intros; congruence. }
      destruct (has_pending (j_parent j) t2).
      { destruct (X j' Hj') as (w & Hw & A & B & C & _). eauto. }
      apply in_update in Hj'. destruct Hj' as (z & Hz & ->).
      destruct (X z Hz) as (w & Hw & W1 & W2 & W3 & W4). exists w. split; auto.
      destruct (is_id (j_parent j) z) eqn:Ez; [|auto]. apply is_id_true in Ez. cbn [j_id j_parent j_state with_state].
      split; [auto|]. split; [auto|]. right. destruct S2 as [S2|(p & Hp & Ep & Sp)]; [congruence|].
      assert (w = p) by (apply (ids_inj t); auto; congruence). subst w.
      apply why_resume with j; auto. split; congruence.
    + apply filter_In in Hj'. destruct Hj' as [Hz _].
      destruct (alike_in _ _ _ _ K Hz) as (w & Hw & _ & _ & W1 & W2 & W3). exists w. auto.
  - unfold cancel_job. destruct (lookup id t) as [k|] eqn:El; [|discriminate]. case_if; [discriminate|].
    apply lookup_some in El. destruct El as [Hk Ek].
    destruct (j_parent k =? 0)%N eqn:P0; [discriminate|]. apply N.eqb_neq in P0.
    destruct (in_states [FINISHED; RUNNING; PAUSED] k) eqn:Sk; intros H j' Hj'; injection H as <- _; [exists j'; auto|].
    assert (X : forall j', In j' (update_id id (with_state CANCELLED) t) -> exists w, In w t /\ j_id j' = j_id w /\ j_parent j' = j_parent w /\
                   (j_state j' = j_state w \/ why t (CCancel id) w (j_state j'))).
    { intros y Hy. apply in_update in Hy. destruct Hy as (z & Hz & ->). exists z. split; auto.
      destruct (is_id id z) eqn:Ez; [|auto]. apply is_id_true in Ez. cbn [j_id j_parent j_state with_state].
      split; [auto|]. split; [auto|]. right. assert (z = k) by (apply (ids_inj t); auto; congruence). subst z.
      rewrite <- Ek. apply why_cancel; auto. apply not_true_iff_false in Sk. rewrite in_states_true in Sk.
      destruct (j_state k); cbn in *; intuition. }
    match type of Hj' with In _ (if ?b then _ else _) => destruct b; [auto|] end.
    apply in_update in Hj'. destruct Hj' as (z & Hz & ->). destruct (X z Hz) as (w & Hw & W1 & W2 & W3).
    exists w. split; auto. destruct (is_id (j_parent k) z) eqn:Ez; [|auto]. apply is_id_true in Ez.
    cbn [j_id j_parent j_state with_state]. split; [auto|]. split; [auto|]. right. rewrite <- Ek.
    apply why_cancel_resume; auto. split; congruence.
  - unfold fail_job. destruct (lookup id t) as [k|] eqn:El; [|discriminate]. case_if; [discriminate|].
    apply lookup_some in El. destruct El as [Hk Ek]. apply negb_false_iff, in_states_true in Heqb.
    intros H j' Hj'; injection H as <- _. apply in_update in Hj'. destruct Hj' as (z & Hz & ->). exists z. split; auto.
    destruct (is_id id z) eqn:Ez; [|auto]. apply is_id_true in Ez.
    assert (z = k) by (apply (ids_inj t); auto; congruence). subst z.
    split; [destruct d; reflexivity|]. split; [destruct d; reflexivity|]. right. cbn [j_state with_state].
    rewrite <- Ek. apply why_fail. exact Heqb.
  - unfold delete_job. destruct (lookup id t) as [k|]; [|discriminate]. case_if; [discriminate|].
    intros H j' Hj'; injection H as <- _. apply filter_In in Hj'. exists j'. tauto.
  - unfold requeue_jobs. intros H j' Hj'; injection H as <- _. apply in_update in Hj'. destruct Hj' as (z & Hz & ->).
    exists z. split; auto. destruct (in_ids l z) eqn:I; [|auto]. apply in_ids_true in I.
    split; [destruct n, b; reflexivity|]. split; [destruct n, b; reflexivity|]. right.
    assert (Es : forall x, j_state (let j1 := with_state QUEUED (with_next (Some (j_created x)) x) in
                  let j2 := match n with [] => j1 | _ => with_name n j1 end in
                  if b then with_data (set_count (if d_count (j_data x) =? 0 then 0 else d_count (j_data x) - 1) (j_data x)) j2
                  else j2) = QUEUED) by (intros x; destruct n, b; reflexivity).
    replace (j_state _) with QUEUED by (symmetry; destruct n, b; reflexivity). apply why_requeue. exact I.
  - case_if; [|discriminate]. intros H j' Hj'; injection H as <- _. exists j'. split; auto.
    eapply Permutation_in; [symmetry; apply reorders_perm; eauto|exact Hj'].
Qed.

(** ** A job in a worker's hands *)
Definition held (id : N) (t : table) : Prop :=
  forall j, In j t -> j_id j = id -> In (j_state j) [RUNNING; FAILED; CANCELLED].

(** The commands by which a worker or an operator gives a job back to the queue. *)
Definition releases (id : N) (t : table) (c : cmd) : Prop :=
  match c with
  | CFinish _ r => f_id r = id
  | CRequeue l _ _ => In id l
  | CCancel k => exists j, In j t /\ j_id j = k /\ child_of id j
  | _ => False
  end.

Lemma why_held t c j s' : why t c j s' -> ~ releases (j_id j) t c ->
  In (j_state j) [RUNNING; FAILED; CANCELLED] -> In s' [RUNNING; FAILED; CANCELLED].
Proof.
  intros W NR H. destruct W; cbn [releases] in NR; cbn in *; unfold waiting in *.
  - intuition congruence.
  - exfalso. apply NR. auto.
  - intuition congruence.
  - intuition congruence.
  - auto.
  - exfalso. apply NR. eauto.
  - auto.
  - exfalso. auto.
Qed.

Lemma held_step Q s c id : SInv Q s -> In id (used s) -> held id (rows s) -> ~ releases id (rows s) c ->
  held id (rows (fst (step Q s c))).
Proof.
  intros I Hu Hh NR. unfold step. destruct (match c with CCreate _ l => fresh_ids l (used s) | _ => true end) eqn:Hf; [|exact Hh].
  cbn [negb]. destruct (run_cmd Q (rows s) c) as [t r| |] eqn:E; [|exact Hh|exact Hh]. cbn [fst rows].
  destruct I as ((N1 & N2 & N3) & G & R).
  destruct c as [now l|now g|now u|now f|k|k d|k|l n b|t0];
    try (intros j' Hj' Ej; pose proof (fun P => cmd_why Q _ _ _ _ N1 G P E j' Hj') as CW;
         destruct (CW ltac:(intros; discriminate)) as (j & Hj & E1 & E2 & [E3|W]);
         [rewrite E3; apply Hh; auto; congruence
         |apply (why_held _ _ _ _ W); [intros X; apply NR; rewrite <- Ej, E1; exact X|apply Hh; auto; congruence]]; fail).
  cbn [run_cmd] in E. unfold create_jobs in E. case_if_in E; [discriminate|].
  destruct (create_list Q now l (rows s)) as [[t' l']|] eqn:E'; [|discriminate]. injection E as <- <-.
  assert (X : held id t' /\ In id (rev (map c_new l) ++ used s)).
  { apply (create_list_ind Q now (fun t u => held id t /\ In id u)) with (t := rows s) (u := used s) (l' := l') in E'; auto.
    intros r t t1 id0 u [H1 H2] H0 Hfr Ec. split; [|right; auto].
    destruct (create_cases _ _ _ _ _ _ Ec) as [[_ D]|(-> & _ & _)].
    - intros j Hj Ej. destruct (D j Hj) as (k & Hk & A & B & C). rewrite C. apply H1; auto. congruence.
    - intros j Hj Ej. apply in_app_or in Hj. destruct Hj as [Hj|[<-|[]]]; [auto|].
      cbn [new_row j_id] in Ej. congruence. }
  apply X.
Qed.
Lemma used_step Q s c id : In id (used s) -> In id (used (fst (step Q s c))).
Proof.
  intros H. unfold step. case_if; auto. destruct (run_cmd Q (rows s) c); auto. cbn [fst used]. apply in_or_app. auto.
Qed.

(** The jobs a command returns to a worker. *)
Definition handed (Q : sql) (s : state) (c : cmd) : list N :=
  match c, snd (step Q s c) with CGet _ _, RIds l => l | _, _ => [] end.
Lemma handed_spec Q s now g id : SInv Q s -> In id (handed Q s (CGet now g)) ->
  exists j, In j (rows s) /\ j_id j = id /\ In j (select Q now g (rows s)) /\ wanted Q now g j = true /\
            q_crashed Q (j_name j) = false /\ d_count (j_data j) < 10 /\
            In (taken Q now j) (rows (fst (step Q s (CGet now g)))).
Proof.
  intros I H. unfold handed, step in *. cbn [negb run_cmd] in *.
  destruct (get_jobs Q now g (rows s)) as [t r| |] eqn:E; [|destruct H|destruct H]. cbn [snd fst rows] in *.
  destruct (get_rows _ _ _ _ _ _ (proj1 (proj1 I)) E) as [-> ->].
  apply in_map_iff in H. destruct H as (j & Ej & Hj). apply filter_In in Hj. destruct Hj as [Hj Hx].
  apply andb_true_iff in Hx. rewrite negb_true_iff, Z.ltb_lt in Hx. destruct (select_in _ _ _ _ _ Hj) as [Hjt Hw].
  exists j. split; auto. split; auto. split; auto. split; auto. split; [tauto|]. split; [tauto|].
  apply in_map_iff. exists j. split; auto.
  replace (in_ids (ids (select Q now g (rows s))) j) with true; auto. symmetry. apply in_ids_true. apply in_map. exact Hj.
Qed.
Lemma held_not_handed Q s c id : SInv Q s -> held id (rows s) -> ~ In id (handed Q s c).
Proof.
  intros I Hh H. destruct c as [now l|now g|now u|now f|k|k d|k|l n b|t0]; try (cbn in H; contradiction).
  destruct (handed_spec _ _ _ _ _ I H) as (j & Hj & E & _ & W & _). apply wanted_waiting in W.
  specialize (Hh j Hj E). unfold waiting in W. cbn in Hh. intuition congruence.
Qed.

(** ** Children run only while their parent is paused *)
Definition apart (t : table) : Prop :=
  forall c p, In c t -> In p t -> child_of (j_id p) c -> active c -> j_state p = PAUSED.
(** Ordinary use: RetryJob is not used on mocked jobs, and only jobs in a worker's hands are requeued
    (as the server itself does when a reply cannot be delivered). *)
Definition orderly (t : table) (c : cmd) : Prop :=
  match c with
  | CFinish _ r => f_retry r = true -> forall j, In j t -> j_id j = f_id r -> d_mock (j_data j) = false
  | CRequeue l _ _ => forall j, In j t -> In (j_id j) l -> In (j_state j) [RUNNING; RUNQUEUED]
  | _ => True
  end.

Lemma apart_finish Q now r t t' rp : NoDup (ids t) -> no_grand t -> apart t ->
  (f_retry r = true -> forall j, In j t -> j_id j = f_id r -> d_mock (j_data j) = false) ->
  finish_job Q now r t = Ok t' rp -> apart t'.
Proof.
  intros Hn Hg Ha Ho H. destruct (finish_spec _ _ _ _ _ _ H) as (j & F & Hj & Ej & El & S1 & S2 & K & Hf).
  assert (HG : forall c p, In c t -> In p t -> child_of (j_id p) c -> j_parent p = 0%N).
  { intros c p Hc Hp [C1 C2]. apply (Hg c p); congruence. }
  inversion Hf as [t3 R E3 Hpd|t3 x E3 NP|t3 t2 E3 R NP Hpar E2|t3 E3 R NP Hpar EX]; subst.
  - intros c p Hc Hp Hcp Hact.
    apply in_update in Hp. destruct Hp as (p1 & Hp1 & ->). apply in_update in Hp1. destruct Hp1 as (p2 & Hp2 & ->).
    destruct (alike_in _ _ _ _ K Hp2) as (p0 & Hp0 & _ & _ & P1 & P2 & P3).
    apply in_update in Hc. destruct Hc as (c1 & Hc1 & ->). apply in_update in Hc1. destruct Hc1 as (c2 & Hc2 & ->).
    destruct (alike_in _ _ _ _ K Hc2) as (c0 & Hc0 & _ & _ & C1 & C2 & C3).
    assert (Hrel : child_of (j_id p0) c0).
    { revert Hcp. unfold child_of. repeat (match goal with |- context[if ?b then _ else _] => destruct b end);
        cbn [j_id j_parent with_state with_next]; rewrite ?P1, ?C2; auto. }
    pose proof (HG c0 p0 Hc0 Hp0 Hrel) as P0.
    assert (Ip : is_child (f_id r) p2 = false).
    { apply not_true_is_false. rewrite is_child_true. unfold child_of. rewrite P2, P0. intros [X1 X2]. congruence. }
    destruct (is_id (f_id r) p2) eqn:Ep.
    + change (is_child (f_id r) (with_state PAUSED (with_next (j_last j) p2))) with (is_child (f_id r) p2).
      rewrite Ip, andb_false_r. reflexivity.
    + rewrite Ip, andb_false_r. rewrite P3. apply (Ha c0 p0); auto.
      assert (NC : is_child (f_id r) c2 = false).
      { apply not_true_is_false. rewrite is_child_true. unfold child_of. rewrite C2. intros [X1 X2].
        destruct Hrel as [_ Hrel]. apply is_id_false in Ep. congruence. }
      revert Hact. destruct (is_id (f_id r) c2) eqn:Ec.
      * change (is_child (f_id r) (with_state PAUSED (with_next (j_last j) c2))) with (is_child (f_id r) c2).
        rewrite NC, andb_false_r. unfold active. cbn [j_state with_state]. intuition congruence.
      * rewrite NC, andb_false_r. unfold active. rewrite C3. auto.
  - intros c p Hc Hp Hcp Hact.
    apply in_update in Hp. destruct Hp as (p2 & Hp2 & ->).
    destruct (alike_in _ _ _ _ K Hp2) as (p0 & Hp0 & _ & _ & P1 & P2 & P3).
    apply in_update in Hc. destruct Hc as (c2 & Hc2 & ->).
    destruct (alike_in _ _ _ _ K Hc2) as (c0 & Hc0 & _ & _ & C1 & C2 & C3).
    assert (Hrel : child_of (j_id p0) c0).
    { revert Hcp. unfold child_of. repeat (match goal with |- context[if ?b then _ else _] => destruct b end);
        cbn [j_id j_parent with_state with_next]; rewrite ?P1, ?C2; auto. }
    pose proof (HG c0 p0 Hc0 Hp0 Hrel) as P0.
    assert (Hne : j_id c0 <> j_id p0).
    { intros E. assert (c0 = p0) by (apply (ids_inj t); auto). subst c0. destruct Hrel. congruence. }
    destruct (is_id (f_id r) p2) eqn:Ep.
    + exfalso. apply is_id_true in Ep. assert (p0 = j) by (apply (ids_inj t); auto; congruence). subst p0.
      assert (A0 : active c0).
      { revert Hact. destruct (is_id (f_id r) c2) eqn:Ec; [apply is_id_true in Ec; congruence|].
        unfold active. rewrite C3. auto. }
      destruct NP as [NP|NP].
      * specialize (Ho NP j Hj Ej). pose proof (Ha c0 j Hc0 Hj Hrel A0) as Pj. cbn in S1. intuition congruence.
      * apply (NP c0 Hc0); [rewrite <- Ej; exact Hrel|left; exact A0].
    + rewrite P3. destruct (is_id (f_id r) c2) eqn:Ec.
      * apply is_id_true in Ec. assert (c0 = j) by (apply (ids_inj t); auto; congruence). subst c0.
        destruct Hrel as [R1 R2]. destruct S2 as [S2|(p & Hp & Epp & Sp)]; [congruence|].
        assert (p = p0) by (apply (ids_inj t); auto; congruence). congruence.
      * apply (Ha c0 p0); auto. unfold active in *. rewrite <- C3. exact Hact.
  - set (t2 := update_id (f_id r) (with_state FINISHED) (map F (filter (fun y => negb (leftover (f_id r) y)) t))) in *.
    assert (X : forall y, In y t2 -> exists y0, In y0 t /\ j_id y = j_id y0 /\ j_parent y = j_parent y0 /\
                 (j_state y = j_state y0 \/ j_id y0 = f_id r /\ j_state y = FINISHED)).
    { intros y Hy. apply in_update in Hy. destruct Hy as (z & Hz & ->).
      destruct (alike_in _ _ _ _ K Hz) as (y0 & Hy0 & _ & _ & Y1 & Y2 & Y3). exists y0. split; auto.
      destruct (is_id (f_id r) z) eqn:Ez; [|auto]. apply is_id_true in Ez. cbn [j_id j_parent j_state with_state].
      split; [auto|]. split; [auto|]. right. split; congruence. }
    assert (A2 : forall c p, In c t2 -> In p t2 -> child_of (j_id p) c -> active c -> j_state p = PAUSED).
    { intros c p Hc Hp Hcp Hact. destruct (X c Hc) as (c0 & Hc0 & C1 & C2 & C3), (X p Hp) as (p0 & Hp0 & P1 & P2 & P3).
      assert (Hrel : child_of (j_id p0) c0) by (unfold child_of in *; rewrite <- P1, <- C2; exact Hcp).
      pose proof (HG c0 p0 Hc0 Hp0 Hrel) as P0.
      assert (A0 : active c0) by (unfold active in *; destruct C3 as [C3|[_ C3]]; [rewrite <- C3; exact Hact|intuition congruence]).
      destruct P3 as [P3|[P3 _]]; [rewrite P3; apply (Ha c0 p0); auto|].
      exfalso. assert (p0 = j) by (apply (ids_inj t); auto; congruence). congruence. }
    destruct (has_pending (j_parent j) t2) eqn:HP; [exact A2|].
    intros c p Hc Hp Hcp Hact.
    apply in_update in Hp. destruct Hp as (p2 & Hp2 & ->). apply in_update in Hc. destruct Hc as (c2 & Hc2 & ->).
    assert (Hcp' : child_of (j_id p2) c2).
    { revert Hcp. unfold child_of. repeat (match goal with |- context[if ?b then _ else _] => destruct b end); auto. }
    assert (Hch : forall c3, In c3 t2 -> child_of (j_parent j) c3 -> ~ unfinished c3).
    { intros c3 H3 C3 U. assert (Y : has_pending (j_parent j) t2 = true) by (apply has_pending_spec; eauto). congruence. }
    destruct (is_id (j_parent j) c2) eqn:Ec.
    { exfalso. apply is_id_true in Ec. destruct (X c2 Hc2) as (c0 & Hc0 & C1 & C2 & C3).
      destruct Hcp' as [Z1 Z2]. assert (E0 : j_parent c0 = 0%N) by (apply (Hg j c0); congruence). congruence. }
    destruct (is_id (j_parent j) p2) eqn:Ep; [|exact (A2 c2 p2 Hc2 Hp2 Hcp' Hact)].
    exfalso. apply is_id_true in Ep. apply (Hch c2 Hc2); [rewrite <- Ep; exact Hcp'|left; exact Hact].
  - intros c p Hc Hp Hcp Hact. apply filter_In in Hc. apply filter_In in Hp.
    destruct (alike_in _ _ _ _ K (proj1 Hc)) as (c0 & Hc0 & _ & _ & C1 & C2 & C3).
    destruct (alike_in _ _ _ _ K (proj1 Hp)) as (p0 & Hp0 & _ & _ & P1 & P2 & P3).
    rewrite P3. apply (Ha c0 p0); auto.
    + unfold child_of in *. rewrite <- P1, <- C2. exact Hcp.
    + unfold active in *. rewrite <- C3. exact Hact.
Qed.

Lemma apart_cancel id t t' rp : NoDup (ids t) -> no_grand t -> apart t -> cancel_job id t = Ok t' rp -> apart t'.
Proof.
  intros Hn Hg Ha. unfold cancel_job. destruct (lookup id t) as [k|] eqn:El; [|discriminate].
  apply lookup_some in El. destruct El as [Hk Ek].
  destruct (existsb (is_child id) t) eqn:EC; [discriminate|].
  destruct (j_parent k =? 0)%N eqn:P0; [discriminate|]. apply N.eqb_neq in P0.
  destruct (in_states [FINISHED; RUNNING; PAUSED] k) eqn:Sk; intros H; injection H as <- _; [exact Ha|].
  set (t1 := update_id id (with_state CANCELLED) t).
  assert (X : forall y, In y t1 -> exists y0, In y0 t /\ j_id y = j_id y0 /\ j_parent y = j_parent y0 /\
                (j_state y = j_state y0 \/ j_id y0 = id /\ j_state y = CANCELLED)).
  { intros y Hy. apply in_update in Hy. destruct Hy as (z & Hz & ->). exists z. split; auto.
    destruct (is_id id z) eqn:Ez; [|auto]. apply is_id_true in Ez. cbn [j_id j_parent j_state with_state]. auto. }
  assert (A1 : apart t1).
  { intros c p Hc Hp Hcp Hact. destruct (X c Hc) as (c0 & Hc0 & C1 & C2 & C3), (X p Hp) as (p0 & Hp0 & P1 & P2 & P3).
    assert (Hrel : child_of (j_id p0) c0) by (unfold child_of in *; rewrite <- P1, <- C2; exact Hcp).
    assert (A0 : active c0) by (unfold active in *; destruct C3 as [C3|[_ C3]]; [rewrite <- C3; exact Hact|intuition congruence]).
    destruct P3 as [P3|[P3 _]]; [rewrite P3; apply (Ha c0 p0); auto|].
    exfalso. assert (Y : existsb (is_child id) t = true).
    { apply existsb_exists. exists c0. split; auto. apply is_child_true. rewrite <- P3. exact Hrel. } congruence. }
  match goal with |- apart (if ?b then _ else _) => destruct b eqn:EA; [exact A1|] end.
  intros c p Hc Hp Hcp Hact.
  apply in_update in Hp. destruct Hp as (p2 & Hp2 & ->). apply in_update in Hc. destruct Hc as (c2 & Hc2 & ->).
  assert (Hcp' : child_of (j_id p2) c2).
  { revert Hcp. unfold child_of. repeat (match goal with |- context[if ?b then _ else _] => destruct b end); auto. }
  destruct (is_id (j_parent k) c2) eqn:Ec.
  { exfalso. apply is_id_true in Ec. destruct (X c2 Hc2) as (c0 & Hc0 & C1 & C2 & C3).
    destruct Hcp' as [Z1 Z2]. assert (E0 : j_parent c0 = 0%N) by (apply (Hg k c0); congruence). congruence. }
  destruct (is_id (j_parent k) p2) eqn:Ep; [|exact (A1 c2 p2 Hc2 Hp2 Hcp' Hact)].
  exfalso. apply is_id_true in Ep.
  assert (Y : existsb (fun y => is_child (j_parent k) y && in_states [QUEUED; RUNQUEUED; RUNNING] y) t1 = true).
  { apply existsb_exists. exists c2. split; auto. apply andb_true_iff. split.
    - apply is_child_true. rewrite <- Ep. exact Hcp'.
    - apply in_states_true. unfold active in Hact. cbn. intuition congruence. }
  pose proof (eq_trans (eq_sym Y) EA) as Z. discriminate Z.
Qed.

Lemma apart_step Q s c : SInv Q s -> apart (rows s) -> orderly (rows s) c -> apart (rows (fst (step Q s c))).
Proof.
  intros I Ha Ho. unfold step. destruct (match c with CCreate _ l => fresh_ids l (used s) | _ => true end) eqn:Hf; [|exact Ha].
  cbn [negb]. destruct (run_cmd Q (rows s) c) as [t r| |] eqn:E; [|exact Ha|exact Ha]. cbn [fst rows].
  pose proof I as ((N1 & N2 & N3) & G & R).
  destruct c as [now l|now g|now u|now f|k|k d|k|l n b|t0].
  2, 3, 6, 7, 8, 9:
    (intros c p Hc Hp Hcp Hact;
     pose proof (fun P => cmd_why Q _ _ _ _ N1 G P E) as CW; specialize (CW ltac:(intros; discriminate));
     destruct (CW c Hc) as (c0 & Hc0 & C1 & C2 & C3); destruct (CW p Hp) as (p0 & Hp0 & P1 & P2 & P3);
     assert (Hrel : child_of (j_id p0) c0) by (unfold child_of in *; rewrite <- P1, <- C2; exact Hcp);
     assert (A0 : active c0) by (destruct C3 as [C3|C3]; [unfold active in *; rewrite <- C3; exact Hact|];
        inversion C3; subst; unfold active, waiting in *; cbn in Ho;
        try (match goal with H : In (j_id c0) _ |- _ => specialize (Ho c0 Hc0 H) end);
        try (match goal with H : FAILED = j_state c |- _ => rewrite <- H in Hact end);
        try tauto; intuition congruence);
     pose proof (Ha c0 p0 Hc0 Hp0 Hrel A0) as Pp;
     destruct P3 as [P3|P3]; [congruence|]; exfalso; inversion P3; subst; unfold waiting in *; cbn in *;
     try (match goal with H : In (j_id p0) _ |- _ => specialize (Ho p0 Hp0 H) end); intuition congruence).
  - cbn [run_cmd] in E. unfold create_jobs in E. case_if_in E; [discriminate|].
    destruct (create_list Q now l (rows s)) as [[t' l']|] eqn:E'; [|discriminate]. injection E as <- <-.
    assert (X : Inv Q t' (rev (map c_new l) ++ used s) /\ apart t').
    { apply (create_list_ind Q now (fun t u => Inv Q t u /\ apart t)) with (t := rows s) (u := used s) (l' := l') in E'; auto.
      intros r t t1 id0 u [H1 H2] H0 Hfr Ec. split.
      - destruct (create_cases _ _ _ _ _ _ Ec) as [[D _]|(-> & P & Gr)]; [|apply inv_insert; auto].
        eapply inv_more; [exact (inv_desc _ _ _ _ H1 D)|intros; cbn; auto|].
        intros [Y|Y]; [congruence|]. destruct H1 as ((_ & M2 & _) & _). auto.
      - destruct H1 as ((M1 & M2 & M3) & G' & R').
        destruct (create_cases _ _ _ _ _ _ Ec) as [[_ D]|(-> & P & _)].
        + intros c p Hc Hp Hcp Hact. destruct (D c Hc) as (c0 & Hc0 & C1 & C2 & C3), (D p Hp) as (p0 & Hp0 & P1 & P2 & P3).
          rewrite P3. apply (H2 c0 p0); auto; unfold child_of, active in *; [rewrite <- P1, <- C2; exact Hcp|rewrite <- C3; exact Hact].
        + intros c p Hc Hp Hcp Hact. apply in_app_or in Hc. apply in_app_or in Hp.
          destruct Hc as [Hc|[<-|[]]], Hp as [Hp|[<-|[]]].
          * exact (H2 c p Hc Hp Hcp Hact).
          * exfalso. destruct Hcp as [_ Hcp]. cbn [new_row j_id] in Hcp. destruct (M3 c Hc) as [_ [Y|Y]]; congruence.
          * destruct Hcp as [Z1 Z2]. cbn [new_row j_parent] in Z2. assert (Z3 : c_parent r <> 0%N) by congruence.
            destruct (lookup_parent t r P Z3) as (p' & Hp' & Ep' & Lp & Sp & _).
            assert (p' = p) by (apply (ids_inj t); auto; congruence). subst p'.
            unfold active in Hact. cbn [new_row j_state] in Hact. unfold initial_state in Hact.
            apply N.eqb_neq in Z3. rewrite Z3, Lp in Hact.
            destruct (in_states [RUNNING; RUNQUEUED] p) eqn:Ep; [intuition congruence|].
            apply not_true_iff_false in Ep. rewrite in_states_true in Ep. cbn in Ep, Sp. intuition congruence.
          * exfalso. destruct Hcp as [Z1 Z2]. cbn [new_row j_parent j_id] in Z1, Z2.
            assert (Z3 : c_parent r <> 0%N) by congruence.
            destruct (lookup_parent t r P Z3) as (p' & Hp' & Ep' & _). apply Hfr. rewrite <- Z2, <- Ep'. apply M3. exact Hp'. }
    apply X.
  - exact (apart_finish _ _ _ _ _ _ N1 G Ha Ho E).
  - exact (apart_cancel _ _ _ _ N1 G Ha E).
Qed.

(** ** Who changes a job's next run time *)
Definition reschedules (Q : sql) (t : table) (c : cmd) (j : job) : Prop :=
  match c with
  | CGet now g => In j (select Q now g t)
  | CUpdate _ u => u_id u = j_id j
  | CFinish _ r => f_id r = j_id j
  | CRequeue l _ _ => In (j_id j) l
  | _ => False
  end.
Lemma cmd_next Q t c t' r : NoDup (ids t) ->
  (forall now l, c <> CCreate now l) -> run_cmd Q t c = Ok t' r ->
  forall j', In j' t' -> exists j, In j t /\ j_id j' = j_id j /\ (j_next j' = j_next j \/ reschedules Q t c j).
Proof.
  intros Hn Hc. destruct c as [now l|now g|now u|now f|id|id d|id|l n b|t0]; cbn [run_cmd reschedules].
  - exfalso. exact (Hc now l eq_refl).
  - intros H j' Hj'. destruct (get_rows _ _ _ _ _ _ Hn H) as [-> _]. apply in_map_iff in Hj'.
    destruct Hj' as (j & <- & Hj). exists j. split; auto.
    destruct (in_ids (ids (select Q now g t)) j) eqn:I; [|auto].
    destruct (taken_id Q now j) as [-> _]. split; auto. right. apply selected_waiting in I; tauto.
  - unfold update_job. case_if; [discriminate|]. case_if; [discriminate|]. destruct (lookup (u_id u) t) as [k|]; [|discriminate].
    match goal with |- match ?n with _ => _ end = _ -> _ => destruct n end; try discriminate;
      intros H; injection H as <- _; intros j' Hj'; apply in_update in Hj'; destruct Hj' as (j & Hj & ->);
      exists j; (split; [auto|]); destruct (is_id (u_id u) j) eqn:E; auto; apply is_id_true in E;
      split; auto; destruct (u_clear u), (u_repeat u), (u_prio u); reflexivity.
  - intros H j' Hj'. destruct (finish_spec _ _ _ _ _ _ H) as (j & F & Hj & Ej & El & S1 & S2 & K & Hf).
    assert (X : forall y, In y (map F (filter (fun y => negb (leftover (f_id f) y)) t)) ->
                exists w, In w t /\ j_id y = j_id w /\ j_next y = j_next w).
    { intros y Hy. destruct (alike_in _ _ _ _ K Hy) as (w & Hw & _ & -> & W1 & _ & _). exists w. split; auto. split; auto.
      apply K. }
    inversion Hf as [t3 R E3 Hp|t3 x E3 NP|t3 t2 E3 R NP Hpar E2|t3 E3 R NP Hpar EX]; subst.
    + apply in_update in Hj'. destruct Hj' as (y & Hy & ->). apply in_update in Hy. destruct Hy as (z & Hz & ->).
      destruct (X z Hz) as (w & Hw & W1 & W2). exists w. split; auto.
      destruct (is_id (f_id f) z) eqn:Ez.
      * apply is_id_true in Ez. split; [destruct (_ && _); auto|]. right. congruence.
      * destruct (_ && _); auto.
    + apply in_update in Hj'. destruct Hj' as (z & Hz & ->). destruct (X z Hz) as (w & Hw & W1 & W2). exists w. split; auto.
      destruct (is_id (f_id f) z) eqn:Ez; auto. apply is_id_true in Ez. split; auto. right. congruence.
    + set (t2 := update_id (f_id f) (with_state FINISHED) (map F (filter (fun y => negb (leftover (f_id f) y)) t))) in *.
      assert (Y : forall y, In y t2 -> exists w, In w t /\ j_id y = j_id w /\ j_next y = j_next w).
      { intros y Hy. apply in_update in Hy. destruct Hy as (z & Hz & ->). destruct (X z Hz) as (w & Hw & W1 & W2).
        exists w. destruct (is_id (f_id f) z); auto. }
      destruct (has_pending (j_parent j) t2).
      * destruct (Y j' Hj') as (w & Hw & W1 & W2). eauto.
      * apply in_update in Hj'. destruct Hj' as (z & Hz & ->). destruct (Y z Hz) as (w & Hw & W1 & W2).
        exists w. destruct (is_id (j_parent j) z); auto.
    + apply filter_In in Hj'. destruct (X j' (proj1 Hj')) as (w & Hw & W1 & W2). eauto.
  - unfold cancel_job. destruct (lookup id t) as [k|] eqn:El; [|discriminate]. case_if; [discriminate|].
    case_if; [discriminate|]. case_if; intros H j' Hj'; injection H as <- _; [exists j'; auto|].
    assert (Y : forall y, In y (update_id id (with_state CANCELLED) t) -> exists w, In w t /\ j_id y = j_id w /\ j_next y = j_next w).
    { intros y Hy. apply in_update in Hy. destruct Hy as (z & Hz & ->). exists z. destruct (is_id id z); auto. }
    match type of Hj' with In _ (if ?b then _ else _) => destruct b end.
    + destruct (Y j' Hj') as (w & Hw & W1 & W2). eauto.
    + apply in_update in Hj'. destruct Hj' as (z & Hz & ->). destruct (Y z Hz) as (w & Hw & W1 & W2).
      exists w. destruct (is_id (j_parent k) z); auto.
  - unfold fail_job. destruct (lookup id t) as [k|] eqn:El; [|discriminate]. case_if; [discriminate|].
    intros H j' Hj'; injection H as <- _. apply in_update in Hj'. destruct Hj' as (z & Hz & ->). exists z.
    destruct (is_id id z), d; auto.
  - unfold delete_job. destruct (lookup id t) as [k|]; [|discriminate]. case_if; [discriminate|].
    intros H j' Hj'; injection H as <- _. apply filter_In in Hj'. exists j'. tauto.
  - unfold requeue_jobs. intros H j' Hj'; injection H as <- _. apply in_update in Hj'. destruct Hj' as (z & Hz & ->).
    exists z. split; auto. destruct (in_ids l z) eqn:I; [|auto]. apply in_ids_true in I.
    split; [destruct n, b; reflexivity|]. auto.
  - case_if; [|discriminate]. intros H j' Hj'; injection H as <- _. exists j'. split; auto.
    eapply Permutation_in; [symmetry; apply reorders_perm; eauto|exact Hj'].
Qed.

(** A job that will retry by itself at time [x], and nothing else. *)
Definition parked (id : N) (x : Z) (t : table) : Prop :=
  forall j, In j t -> j_id j = id ->
    j_state j = RUNQUEUED /\ j_next j = Some x \/ In (j_state j) [FAILED; CANCELLED].
(** The command gives the job back, changes its time, or asks for jobs at or after that time. *)
Definition wakes (id : N) (x : Z) (t : table) (c : cmd) : Prop :=
  match c with
  | CGet now _ => x <= now
  | CUpdate _ u => u_id u = id
  | _ => releases id t c
  end.
Lemma parked_not_selected Q now g id x t : parked id x t -> now < x ->
  forall j, In j (select Q now g t) -> j_id j <> id.
Proof.
  intros Hp Hx j Hj E. destruct (select_in _ _ _ _ _ Hj) as [Ht W]. pose proof (wanted_waiting _ _ _ _ W) as Wt.
  destruct (Hp j Ht E) as [[S Nx]|S]; [|unfold waiting in Wt; cbn in S; intuition congruence].
  unfold wanted, eligible in W. rewrite !andb_true_iff in W. destruct W as [[[[_ D] _] _] _].
  unfold is_due in D. rewrite Nx, Z.leb_le in D. lia.
Qed.
Lemma parked_step Q s c id x : SInv Q s -> In id (used s) -> parked id x (rows s) -> ~ wakes id x (rows s) c ->
  parked id x (rows (fst (step Q s c))).
Proof.
  intros I Hu Hh NR. unfold step. destruct (match c with CCreate _ l => fresh_ids l (used s) | _ => true end) eqn:Hf; [|exact Hh].
  cbn [negb]. destruct (run_cmd Q (rows s) c) as [t r| |] eqn:E; [|exact Hh|exact Hh]. cbn [fst rows].
  destruct I as ((N1 & N2 & N3) & G & R).
  destruct c as [now l|now g|now u|now f|k|k d|k|l n b|t0];
    [|intros j' Hj' Ej; pose proof (fun P => cmd_why Q _ _ _ _ N1 G P E j' Hj') as CW;
     pose proof (fun P => cmd_next Q _ _ _ _ N1 P E j' Hj') as CN;
     destruct (CW ltac:(intros; discriminate)) as (j & Hj & E1 & E2 & E3); clear CW;
     destruct (CN ltac:(intros; discriminate)) as (j2 & Hj2 & E4 & E5); clear CN;
     assert (j2 = j) by (apply (ids_inj (rows s)); auto; congruence); subst j2;
     assert (Ei : j_id j = id) by congruence;
     specialize (Hh j Hj Ei) as Hs; cbn [reschedules] in E5 ..].
  - cbn [run_cmd] in E. unfold create_jobs in E. case_if_in E; [discriminate|].
    destruct (create_list Q now l (rows s)) as [[t' l']|] eqn:E'; [|discriminate]. injection E as <- <-.
    assert (X : parked id x t' /\ In id (rev (map c_new l) ++ used s)).
    { apply (create_list_ind Q now (fun t u => parked id x t /\ In id u)) with (t := rows s) (u := used s) (l' := l') in E'; auto.
      intros r t t1 id0 u [H1 H2] H0 Hfr Ec. split; [|right; auto].
      unfold create_one in Ec. destruct (if c_unique r then find (same_job r) t else None) as [j|].
      - case_if_in Ec; [injection Ec as <- _; auto|]. case_if_in Ec; [discriminate|]. case_if_in Ec; [discriminate|].
        case_if_in Ec; [discriminate|]. case_if_in Ec; injection Ec as <- _; auto.
        intros y Hy Ey. apply in_update in Hy. destruct Hy as (z & Hz & ->).
        destruct (is_id (j_id j) z); apply (H1 z); auto.
      - case_if_in Ec; [discriminate|]. case_if_in Ec; [discriminate|].
        case_if_in Ec; [discriminate|]. injection Ec as <- _.
        intros y Hy Ey. apply in_app_or in Hy. destruct Hy as [Hy|[<-|[]]]; [auto|]. cbn [new_row j_id] in Ey. congruence. }
    apply X.
  - assert (now < x) by (cbn [wakes] in NR; lia).
    destruct E5 as [E5|E5]; [|exfalso; exact (parked_not_selected _ _ _ _ _ _ Hh H _ E5 Ei)].
    cbn [run_cmd] in E. destruct (get_rows _ _ _ _ _ _ N1 E) as [-> _]. apply in_map_iff in Hj'.
    destruct Hj' as (y & Ey & Hy). assert (Eid : j_id j' = j_id y).
    { subst j'. destruct (in_ids _ y); auto. apply taken_id. }
    destruct (in_ids (ids (select Q now g (rows s))) y) eqn:Iy.
    + exfalso. apply selected_waiting in Iy; auto. apply (parked_not_selected _ _ _ _ _ _ Hh H y (proj1 Iy)). congruence.
    + subst j'. apply (Hh y); auto.
  - assert (E5' : j_next j' = j_next j) by (destruct E5; auto; exfalso; apply NR; cbn; congruence).
    destruct E3 as [E3|E3]; [rewrite E3, E5'; auto|inversion E3].
  - assert (E5' : j_next j' = j_next j) by (destruct E5; auto; exfalso; apply NR; cbn; congruence).
    destruct E3 as [E3|E3]; [rewrite E3, E5'; auto|].
    inversion E3; subst; try (exfalso; apply NR; cbn; congruence); cbn in Hs; intuition congruence.
  - destruct E5 as [E5|[]]. destruct E3 as [E3|E3]; [rewrite E3, E5; auto|].
    inversion E3; subst; [right; cbn; auto|]. exfalso. apply NR. cbn. exists k0. rewrite E1. auto.
  - destruct E5 as [E5|[]]. destruct E3 as [E3|E3]; [rewrite E3, E5; auto|]. inversion E3; subst. right; cbn; auto.
  - destruct E5 as [E5|[]]. destruct E3 as [E3|E3]; [rewrite E3, E5; auto|]. inversion E3.
  - assert (E5' : j_next j' = j_next j) by (destruct E5; auto; exfalso; apply NR; cbn; congruence).
    destruct E3 as [E3|E3]; [rewrite E3, E5'; auto|]. inversion E3; subst. exfalso. apply NR. cbn. rewrite E1. auto.
  - destruct E5 as [E5|[]]. destruct E3 as [E3|E3]; [rewrite E3, E5; auto|]. inversion E3.
Qed.
