(** Properties C23 - C26 of the job queue. *)
Require Import List ZArith NArith Bool Ascii Lia Permutation Sorted String.
Require Import Verif.Base Verif.Dec Verif.Text_Spec Verif.Text_Model.
Require Import Verif.Jobs_Spec Verif.Jobs_Model Verif.Jobs_Proofs Verif.Jobs_Inv.
Import ListNotations.
Open Scope Z_scope.

(** A concrete SQLite for the examples: GLOB with "*" or equality, "+10 SECONDS" style modifiers. *)
Definition exQ : sql :=
  mkSql (fun p n => bytes_eqb p (lit "*") || bytes_eqb p n)
        (fun m t => if bytes_eqb m (lit "+10 SECONDS") then Some (t + 10)
                    else if bytes_eqb m (lit "+60 SECONDS") then Some (t + 60) else None)
        (fun t => t / 3600 * 3600) (fun _ t => t + 86400)
        (fun m => bytes_eqb m (lit "+10 SECONDS") || bytes_eqb m (lit "+60 SECONDS"))
        (fun _ d => d) (fun n => bytes_eqb n (lit "bad")).
Definition plain_data : jdata := mkData false 0 None [].
Definition new (id : N) (name : string) (parent : N) : create_req :=
  mkCreate (lit name) plain_data None [] 500 false true parent [] false id.
Definition get (n : Z) : get_req := mkGet [] (lit "*") n None false.
Definition finish (id : N) : finish_req := mkFinish false id None false [] None None 0 false.
Definition states (s : state) : list (N * jstate) := map (fun j => (j_id j, j_state j)) (rows s).

(** ** C23: a job is handed to one worker at a time *)
(** No command in [l] gives job [id] back to the queue. *)
Fixpoint kept (Q : sql) (id : N) (s : state) (l : list cmd) : Prop :=
  match l with [] => True | c :: r => ~ releases id (rows s) c /\ kept Q id (fst (step Q s c)) r end.
(** No command in [l] returns job [id] to a worker. *)
Fixpoint never_handed (Q : sql) (id : N) (s : state) (l : list cmd) : Prop :=
  match l with [] => True | c :: r => ~ In id (handed Q s c) /\ never_handed Q id (fst (step Q s c)) r end.

(** After any history, a job without automatic retry that GetJob(s) returned is not returned again
    until FinishJob / RetryJob names it, RequeueJobs lists it, or CancelJob cancels a child of it. *)
Theorem C23_handed_out_once Q history now g id j later :
  let s := exec Q init history in
  In id (handed Q s (CGet now g)) -> In j (rows s) -> j_id j = id -> j_retry j = [] ->
  kept Q id (fst (step Q s (CGet now g))) later ->
  never_handed Q id (fst (step Q s (CGet now g))) later.
Proof.
  cbv zeta. intros H Hj Ej Hr. pose proof (inv_exec Q history init (inv_init Q)) as I.
  set (s := exec Q init history) in *.
  assert (Hh : held id (rows (fst (step Q s (CGet now g))))).
  { destruct (handed_spec _ _ _ _ _ I H) as (k & Hk & Ek & Hs & W & Cr & Ct & Hin).
    assert (k = j) by (apply (ids_inj (rows s)); [apply I|auto|auto|congruence]). subst k.
    pose proof (inv_step Q s (CGet now g) I) as I'.
    intros y Hy Ey. assert (y = taken Q now j).
    { apply (ids_inj (rows (fst (step Q s (CGet now g))))); [apply I'|auto|auto|].
      destruct (taken_id Q now j) as [-> _]. congruence. }
    subst y. unfold taken. rewrite Cr. unfold is_retriable. rewrite Hr. cbn. auto. }
  assert (Hu : In id (used (fst (step Q s (CGet now g))))).
  { apply used_step. rewrite <- Ej. apply I. exact Hj. }
  pose proof (inv_step Q s (CGet now g) I) as I'. clear -Hh Hu I'.
  revert Hh Hu I'. generalize (fst (step Q s (CGet now g))). clear.
  induction later as [|c l IH]; intros s Hh Hu I; cbn [kept never_handed]; auto. intros [K1 K2]. split.
  - apply held_not_handed; auto.
  - apply IH; auto.
    + apply held_step; auto.
    + apply used_step. exact Hu.
    + apply inv_step. exact I.
Qed.
Print Assumptions C23_handed_out_once.
(* a job handed out, then other commands, none of which releases it *)
Example ex_handed :
  let h := [CCreate 5 [new 1 "a" 0; new 2 "b" 0]] in
  let s := exec exQ init h in
  handed exQ s (CGet 6 (get 1)) = [1%N] /\
  let s1 := fst (step exQ s (CGet 6 (get 1))) in
  kept exQ 1 s1 [CGet 7 (get 5); CFail 2 None; CGet 8 (get 5)] /\
  handed exQ s1 (CGet 7 (get 5)) = [2%N].
Proof. vm_compute. repeat split; auto. Qed.

(** One reply never lists a job twice. *)
Theorem C23_no_duplicates Q history c : NoDup (handed Q (exec Q init history) c).
Proof.
  pose proof (inv_exec Q history init (inv_init Q)) as I. set (s := exec Q init history) in *.
  destruct c; try constructor. unfold handed, step. cbn [negb run_cmd].
  destruct (get_jobs Q now g (rows s)) as [t r| |] eqn:E; try constructor. cbn [snd].
  destruct (get_rows _ _ _ _ _ _ (proj1 (proj1 I)) E) as [_ ->].
  apply filter_ids_nodup. apply select_nodup. apply I.
Qed.
Print Assumptions C23_no_duplicates.

(** Nothing in [l] gives the job back, changes its time, or asks for jobs at or after time [x]. *)
Fixpoint asleep (Q : sql) (id : N) (x : Z) (s : state) (l : list cmd) : Prop :=
  match l with [] => True | c :: r => ~ wakes id x (rows s) c /\ asleep Q id x (fst (step Q s c)) r end.

(** A job with automatic retry that was returned is either marked FAILED or rescheduled to a retry
    time no later than its retryAfter allows, and it is not returned again before that time. *)
Theorem C23_auto_retry_waits Q history now g id j later :
  let s := exec Q init history in
  let s1 := fst (step Q s (CGet now g)) in
  In id (handed Q s (CGet now g)) -> In j (rows s) -> j_id j = id -> j_retry j <> [] ->
  exists j', In j' (rows s1) /\ j_id j' = id /\
    (j_state j' = FAILED \/
     exists x limit, j_state j' = RUNQUEUED /\ j_next j' = Some x /\ q_datetime Q (j_retry j) now = Some limit /\ x <= limit /\
       (asleep Q id x s1 later -> never_handed Q id s1 later)).
Proof.
  cbv zeta. intros H Hj Ej Hr. pose proof (inv_exec Q history init (inv_init Q)) as I.
  set (s := exec Q init history) in *.
  destruct (handed_spec _ _ _ _ _ I H) as (k & Hk & Ek & Hs & W & Cr & Ct & Hin).
  assert (k = j) by (apply (ids_inj (rows s)); [apply I|auto|auto|congruence]). subst k.
  exists (taken Q now j). split; auto. split; [rewrite (proj1 (taken_id Q now j)); auto|].
  assert (Ht : taken Q now j = take_retriable Q now j j).
  { unfold taken, is_retriable. rewrite Cr. destruct (j_retry j); congruence. }
  rewrite Ht. unfold take_retriable. destruct (10 <=? d_count (j_data j)) eqn:E10; [apply Z.leb_le in E10; lia|].
  destruct (retry_time _ _) as [x|] eqn:Ex; [right|left; reflexivity].
  unfold retry_time in Ex. destruct (q_datetime Q (j_retry j) now) as [a|] eqn:Ea; [|discriminate].
  exists x, a. split; [reflexivity|]. split; [reflexivity|]. split; [reflexivity|].
  split; [destruct (next_run _ _ _ _ _); try discriminate; injection Ex as <-; lia|].
  pose proof (inv_step Q s (CGet now g) I) as I'.
  assert (Hp : parked id x (rows (fst (step Q s (CGet now g))))).
  { intros y Hy Ey. assert (y = taken Q now j).
    { apply (ids_inj (rows (fst (step Q s (CGet now g))))); [apply I'|auto|auto|].
      destruct (taken_id Q now j) as [-> _]. congruence. }
    subst y. rewrite Ht. left. unfold take_retriable. rewrite E10, Ea.
    replace (retry_time (Some a) _) with (Some x) by (symmetry; exact Ex). auto. }
  assert (Hu : In id (used (fst (step Q s (CGet now g))))).
  { apply used_step. rewrite <- Ej. apply I. exact Hj. }
  clear -Hp Hu I'. revert Hp Hu I'. generalize (fst (step Q s (CGet now g))). clear.
  induction later as [|c l IH]; intros s Hp Hu I; cbn [asleep never_handed]; auto. intros [K1 K2]. split.
  - destruct c; try (cbn; auto; fail). intros Hx. destruct (handed_spec _ _ _ _ _ I Hx) as (y & _ & Ey & Hs & _).
    apply (parked_not_selected Q now g id x (rows s) Hp) in Hs; [auto|]. cbn [wakes] in K1. lia.
  - apply IH; auto.
    + apply parked_step; auto.
    + apply used_step. exact Hu.
    + apply inv_step. exact I.
Qed.
Print Assumptions C23_auto_retry_waits.
Definition retrying (id : N) (name : string) : create_req :=
  mkCreate (lit name) plain_data None [] 500 false true 0 (lit "+60 SECONDS") false id.
Example ex_retry :
  let s := exec exQ init [CCreate 5 [retrying 1 "a"]] in
  let s1 := fst (step exQ s (CGet 6 (get 1))) in
  handed exQ s (CGet 6 (get 1)) = [1%N] /\ map j_next (rows s1) = [Some 66] /\
  asleep exQ 1 66 s1 [CGet 7 (get 1); CGet 65 (get 1)] /\ handed exQ s1 (CGet 66 (get 1)) = [1%N].
Proof. vm_compute. repeat split; intros H; apply H; reflexivity. Qed.

(** The exception for CancelJob is needed: cancelling a child that is already cancelled puts its parent,
    which a worker is running, back in the queue, and the parent is handed out a second time. *)
Theorem C23_cancel_refuted :
  exists Q history now g, let s := exec Q init history in
    handed Q s (CGet now g) = [1%N] /\
    (exists j, In j (rows s) /\ j_id j = 1%N /\ j_retry j = []) /\
    let s1 := fst (step Q s (CGet now g)) in
    states s1 = [(1%N, RUNNING); (2%N, CANCELLED)] /\
    snd (step Q s1 (CCancel 2)) = ROk /\
    handed Q (fst (step Q s1 (CCancel 2))) (CGet (now + 1) g) = [1%N].
Proof.
  exists exQ, [CCreate 1 [new 1 "parent" 0]; CGet 2 (get 1); CCreate 3 [new 2 "child" 1]; CFinish 4 (finish 1); CCancel 2], 5, (get 1).
  vm_compute. repeat split; auto. eexists. split; [left; reflexivity|]. auto.
Qed.
Print Assumptions C23_cancel_refuted.

(** A job without automatic retry whose data says it was retried ten times is marked RUNNING but
    returned to nobody: no worker has it and GetJob(s) never returns it again. *)
Theorem C23_taken_by_nobody_refuted :
  exists Q history now g, let s := exec Q init history in
    states s = [(1%N, QUEUED)] /\ snd (step Q s (CGet now g)) = RIds [] /\
    states (fst (step Q s (CGet now g))) = [(1%N, RUNNING)].
Proof.
  exists exQ, [CCreate 1 [mkCreate (lit "a") (mkData false 10 None []) None [] 500 false true 0 [] false 1]], 2, (get 1).
  vm_compute. auto.
Qed.
Print Assumptions C23_taken_by_nobody_refuted.

(** A job whose retry time cannot be computed is marked FAILED and still returned: the worker
    runs it, and its FinishJob is then refused. *)
Theorem C23_failed_but_returned_refuted :
  exists Q history now g, let s := exec Q init history in
    handed Q s (CGet now g) = [1%N] /\
    states (fst (step Q s (CGet now g))) = [(1%N, FAILED)] /\
    snd (step Q (fst (step Q s (CGet now g))) (CFinish (now + 1) (finish 1))) = RErr.
Proof.
  exists exQ, [CCreate 1 [mkCreate (lit "a") plain_data None [] 500 false true 0 (lit "+99999999 YEARS") false 1]], 2, (get 1).
  vm_compute. auto.
Qed.
Print Assumptions C23_failed_but_returned_refuted.

(** ** C24: parents and children *)
(** No job ever has a grandparent. *)
Theorem C24_no_grandchildren Q history :
  let t := rows (exec Q init history) in
  forall a b c, In a t -> In b t -> In c t -> child_of (j_id b) a -> child_of (j_id c) b -> False.
Proof.
  cbv zeta. intros a b c Ha Hb Hc [A1 A2] [B1 B2].
  destruct (inv_exec Q history init (inv_init Q)) as (_ & G & _).
  assert (j_parent b = 0%N) by (apply (G a b); congruence). congruence.
Qed.
Print Assumptions C24_no_grandchildren.
Example ex_grandchild :
  let h := [CCreate 1 [new 1 "parent" 0]; CGet 2 (get 1); CCreate 3 [new 2 "child" 1]; CFinish 4 (finish 1); CGet 5 (get 1)] in
  states (exec exQ init h) = [(1%N, PAUSED); (2%N, RUNNING)] /\
  snd (step exQ (exec exQ init h) (CCreate 6 [new 3 "grandchild" 2])) = RErr.
Proof. vm_compute. auto. Qed.

(** Every change of a job's state has one of these causes ([why] lists them). *)
Theorem C24_state_changes Q history c j' :
  let s := exec Q init history in
  (forall now l, c <> CCreate now l) ->
  In j' (rows (fst (step Q s c))) ->
  exists j, In j (rows s) /\ j_id j' = j_id j /\ j_parent j' = j_parent j /\
    (j_state j' = j_state j \/ why (rows s) c j (j_state j')).
Proof.
  cbv zeta. intros Hc Hj'. destruct (inv_exec Q history init (inv_init Q)) as ((N1 & _) & G & _).
  set (s := exec Q init history) in *. unfold step in Hj'.
  destruct (negb _); [exists j'; auto|]. destruct (run_cmd Q (rows s) c) as [t r| |] eqn:E; [|exists j'; auto|exists j'; auto].
  exact (cmd_why Q _ _ _ _ N1 G Hc E j' Hj').
Qed.
Print Assumptions C24_state_changes.

(** A job disappears only when it is deleted while nobody works on it, when it is finished for good with no
    child left to run, or, for a finished or cancelled child, with the next report of its parent. *)
Lemma ids_in t j : In j t -> In (j_id j) (ids t). Proof. intros H. apply in_map. exact H. Qed.
Lemma ids_filter_out (p : job -> bool) t j : In j t -> ~ In (j_id j) (ids (filter p t)) -> p j = false.
Proof. intros H N. destruct (p j) eqn:E; [|reflexivity]. exfalso. apply N. apply ids_in. apply filter_In. auto. Qed.
Lemma ids_map F t : alike F -> ids (map F t) = ids t.
Proof. intros K. unfold ids. rewrite map_map. apply map_ext. intros y. apply K. Qed.
Lemma keeps_state s : keeps (with_state s). Proof. intros y. repeat split. Qed.
Lemma create_list_keeps Q now l : forall t t' l', create_list Q now l t = Some (t', l') -> forall x, In x (ids t) -> In x (ids t').
Proof.
  induction l as [|r l IH]; intros t t' l'; cbn [create_list]; [intros E; injection E as <- _; auto|].
  destruct (create_one Q now r t) as [[t1 id]|] eqn:E1; [|discriminate]. destruct (create_list Q now l t1) as [[t2 l2]|] eqn:E2; [|discriminate].
  intros E. injection E as <- _. intros x Hx. apply (IH _ _ _ E2). clear E2. unfold create_one in E1.
  destruct (if c_unique r then find (same_job r) t else None) as [j|].
  - destruct (data_eqb _ _); [injection E1 as <- _; exact Hx|]. do 3 (case_if_in E1; [discriminate|]).
    case_if_in E1; injection E1 as <- _; try exact Hx. unfold update_id. rewrite update_ids; [exact Hx|].
    intros y. repeat split.
  - do 3 (case_if_in E1; [discriminate|]). injection E1 as <- _. unfold ids. rewrite map_app. apply in_or_app. left. exact Hx.
Qed.
Theorem C24_vanishes Q history c j :
  let s := exec Q init history in
  In j (rows s) -> (forall j', In j' (rows (fst (step Q s c))) -> j_id j' <> j_id j) ->
  (c = CDelete (j_id j) /\ j_state j <> RUNNING /\ j_state j <> PAUSED) \/
  (exists now r, c = CFinish now r /\ f_retry r = false /\ f_id r = j_id j /\ j_parent j = 0%N /\
     (j_state j = RUNNING \/ j_state j = RUNQUEUED \/ d_mock (j_data j) = true) /\
     forall k, In k (rows s) -> child_of (j_id j) k -> ~ unfinished k) \/
  (exists now r, c = CFinish now r /\ child_of (f_id r) j /\ (j_state j = FINISHED \/ j_state j = CANCELLED)).
Proof.
  cbv zeta. intros Hj Hg. destruct (inv_exec Q history init (inv_init Q)) as ((N1 & _) & _ & _). set (s := exec Q init history) in *.
  assert (G : ~ In (j_id j) (ids (rows (fst (step Q s c))))).
  { intros X. apply in_map_iff in X. destruct X as (j' & E & Hj'). exact (Hg j' Hj' E). }
  clear Hg. pose proof (ids_in _ _ Hj) as Hi. unfold step in G. destruct (negb _); [contradiction|].
  destruct (run_cmd Q (rows s) c) as [t r| |] eqn:E; [|contradiction|contradiction]. cbn [fst rows] in G.
  destruct c as [now l|now g|now u|now f|id|id d|id|l n b|t0]; cbn [run_cmd] in E.
  - exfalso. unfold create_jobs in E. case_if_in E; [discriminate|]. destruct (create_list Q now l (rows s)) as [[t' l']|] eqn:EC; [|discriminate].
    injection E as <- _. apply G. eapply create_list_keeps; eauto.
  - exfalso. apply get_rows in E; [|exact N1]. destruct E as [-> _]. apply G. unfold ids. rewrite map_map.
    apply in_map_iff. exists j. split; [|exact Hj]. case_if; [apply taken_id|reflexivity].
  - exfalso. unfold update_job in E. case_if_in E; [discriminate|]. case_if_in E; [discriminate|].
    destruct (lookup (u_id u) (rows s)) as [k|]; [|discriminate].
    match type of E with match ?n with _ => _ end = _ => destruct n end; try discriminate; injection E as <- _; apply G; unfold update_id; rewrite update_ids; auto;
      intros y; destruct (u_clear u), (u_repeat u), (u_prio u); repeat split.
  - apply finish_spec in E. destruct E as (k & F & K1 & K2 & _ & K4 & _ & AF & FI).
    assert (LO : forall t3, t3 = map F (filter (fun y => negb (leftover (f_id f) y)) (rows s)) -> ~ In (j_id j) (ids t3) ->
                 child_of (f_id f) j /\ (j_state j = FINISHED \/ j_state j = CANCELLED)).
    { intros t3 -> X. rewrite ids_map in X by exact AF. apply ids_filter_out in X; [|exact Hj]. apply negb_false_iff in X. unfold leftover in X.
      apply andb_true_iff in X. rewrite is_child_true, in_states_true in X. cbn in X. destruct X as [X Y]. split; [exact X|]. intuition congruence. }
    right. destruct FI as [t3 R E3 PE|t3 x E3 NP|t3 t2 E3 R NP P0 E2|t3 E3 R NP P0 EX].
    + right. exists now, f. split; [reflexivity|]. apply (LO t3 E3). rewrite update_ids in G by apply keeps_state.
      unfold update_id in G. rewrite update_ids in G; [exact G|]. intros y. repeat split.
    + right. exists now, f. split; [reflexivity|]. apply (LO t3 E3). unfold update_id in G. rewrite update_ids in G; [exact G|]. intros y. repeat split.
    + right. exists now, f. split; [reflexivity|]. apply (LO t3 E3). subst t2. unfold update_id in G. case_if_in G; rewrite !update_ids in G by apply keeps_state; exact G.
    + destruct (in_dec N.eq_dec (j_id j) (ids t3)) as [IN|OUT]; [|right; exists now, f; split; [reflexivity|]; exact (LO t3 E3 OUT)].
      left. exists now, f. assert (EI : f_id f = j_id j).
      { apply in_map_iff in IN. destruct IN as (y & Ey & Hy). rewrite <- Ey in G. apply ids_filter_out in G; [|exact Hy]. apply negb_false_iff, is_id_true in G. congruence. }
      assert (k = j) by (apply (ids_inj (rows s)); auto; congruence). subst k. split; [reflexivity|]. split; [exact R|]. split; [exact EI|]. split; [exact P0|].
      split; [cbn in K4; intuition congruence|]. rewrite <- EI. exact NP.
  - exfalso. unfold cancel_job in E. destruct (lookup id (rows s)) as [k|]; [|discriminate]. case_if_in E; [discriminate|]. case_if_in E; [discriminate|].
    case_if_in E; [injection E as <- _; contradiction|]. injection E as <- _. apply G. unfold update_id. case_if; rewrite !update_ids by apply keeps_state; exact Hi.
  - exfalso. unfold fail_job in E. destruct (lookup id (rows s)) as [k|]; [|discriminate]. case_if_in E; [discriminate|].
    injection E as <- _. apply G. unfold update_id. rewrite update_ids; [exact Hi|]. intros y. destruct d; repeat split.
  - left. unfold delete_job in E. destruct (lookup id (rows s)) as [k|] eqn:El; [|discriminate]. case_if_in E; [discriminate|]. injection E as <- _.
    apply ids_filter_out in G; [|exact Hj]. apply negb_false_iff, is_id_true in G. subst id. apply lookup_some in El. destruct El as [El1 El2].
    assert (k = j) by (apply (ids_inj (rows s)); auto). subst k. split; [reflexivity|].
    split; intros X; match goal with H : in_states _ _ = false |- _ => apply not_true_iff_false in H; apply H; apply in_states_true; cbn; auto end.
  - exfalso. unfold requeue_jobs in E. injection E as <- _. apply G. rewrite update_ids; [exact Hi|]. intros y. destruct n, b; repeat split.
  - exfalso. case_if_in E; [|discriminate]. injection E as <- _. apply G. apply reorders_perm in Heqb; [|exact N1].
    apply (Permutation_in (j_id j) (Permutation_map j_id Heqb)). exact Hi.
Qed.
Print Assumptions C24_vanishes.
Example ex_vanishes :
  let s := exec exQ init [CCreate 1 [new 1 "a" 0]; CCreate 1 [new 2 "b" 0]; CGet 2 (get 1)] in
  states s = [(1%N, RUNNING); (2%N, QUEUED)] /\
  states (fst (step exQ s (CDelete 2))) = [(1%N, RUNNING)] /\ states (fst (step exQ s (CFinish 3 (finish 1)))) = [(2%N, QUEUED)] /\
  states (fst (step exQ s (CDelete 1))) = states s.
Proof. vm_compute. auto. Qed.

(** Used in an orderly way (RetryJob not on mocked jobs, RequeueJobs only for jobs in a worker's hands),
    a child is queued or running only while its parent is paused: they never run side by side. *)
Fixpoint orderly_history (Q : sql) (s : state) (l : list cmd) : Prop :=
  match l with [] => True | c :: r => orderly (rows s) c /\ orderly_history Q (fst (step Q s c)) r end.
Theorem C24_never_side_by_side Q history c p :
  orderly_history Q init history ->
  let t := rows (exec Q init history) in
  In c t -> In p t -> child_of (j_id p) c -> active c -> j_state p = PAUSED.
Proof.
  cbv zeta. assert (A : apart (rows init)) by (intros x y []).
  pose proof (inv_init Q) as I. revert A I. generalize init. revert c p.
  induction history as [|d h IH]; intros c p s A I; cbn [orderly_history exec].
  - intros _ Hc Hp. exact (A c p Hc Hp).
  - intros [O1 O2]. apply IH; auto; [apply apart_step; auto|apply inv_step; auto].
Qed.
Print Assumptions C24_never_side_by_side.
Example ex_orderly :
  let h := [CCreate 1 [new 1 "parent" 0]; CGet 2 (get 1); CCreate 3 [new 2 "child" 1; new 3 "child" 1]; CFinish 4 (finish 1); CGet 5 (get 1);
            CRequeue [2%N] [] true; CGet 5 (get 1)] in
  orderly_history exQ init h /\ states (exec exQ init h) = [(1%N, PAUSED); (2%N, RUNNING); (3%N, QUEUED)].
Proof.
  vm_compute. repeat split; auto; try discriminate.
  intros j [<-|[<-|[<-|[]]]] [E|[]]; try discriminate E; auto.
Qed.
(** Requeueing a job no worker has breaks it: the parent and its child are both handed out. *)
Theorem C24_requeue_side_by_side_refuted :
  exists Q history, let s := exec Q init history in
    states s = [(1%N, RUNNING); (2%N, RUNNING)] /\
    (exists c p, In c (rows s) /\ In p (rows s) /\ j_id c = 2%N /\ j_id p = 1%N /\ child_of (j_id p) c).
Proof.
  exists exQ, [CCreate 1 [new 1 "parent" 0]; CGet 2 (get 1); CCreate 3 [new 2 "child" 1]; CRequeue [2%N] [] false; CGet 5 (get 1)].
  vm_compute. split; auto. eexists. eexists. split; [right; left; reflexivity|]. split; [left; reflexivity|].
  repeat split; discriminate.
Qed.
Print Assumptions C24_requeue_side_by_side_refuted.

Lemma finish_ok Q s now r : snd (step Q s (CFinish now r)) = ROk ->
  exists t', finish_job Q now r (rows s) = Ok t' ROk /\ rows (fst (step Q s (CFinish now r))) = t'.
Proof.
  unfold step. cbn [negb run_cmd]. destruct (finish_job Q now r (rows s)) as [t rp| |]; try discriminate.
  cbn [snd fst rows]. intros ->. eauto.
Qed.

(** Finishing a child: either it repeats, and nothing happens to its parent, or it becomes FINISHED and its
    parent is queued exactly when no other child of it is queued, running or paused. *)
Theorem C24_finish_child Q history now r c p :
  let s := exec Q init history in
  let s' := fst (step Q s (CFinish now r)) in
  f_retry r = false -> In c (rows s) -> j_id c = f_id r -> In p (rows s) -> child_of (j_id p) c ->
  snd (step Q s (CFinish now r)) = ROk ->
  j_state p = PAUSED /\
  exists c', In c' (rows s') /\ j_id c' = j_id c /\
    (j_state c' = QUEUED /\ In p (rows s')
     \/ j_state c' = FINISHED /\ (exists d, In d (rows s) /\ d <> c /\ child_of (j_id p) d /\ unfinished d) /\ In p (rows s')
     \/ j_state c' = FINISHED /\ (forall d, In d (rows s) -> d <> c -> child_of (j_id p) d -> ~ unfinished d)
        /\ In (with_state QUEUED p) (rows s')).
Proof.
  cbv zeta. intros Hr Hc Ec Hp Hcp Hok. destruct (inv_exec Q history init (inv_init Q)) as ((N1 & N2 & N3) & G & _).
  set (s := exec Q init history) in *. destruct (finish_ok _ _ _ _ Hok) as (t' & Hf & ->).
  destruct (finish_full _ _ _ _ _ _ Hf) as (j & F & Hj & Ej & _ & S1 & S2 & K & Hfin & LF).
  assert (j = c) by (apply (ids_inj (rows s)); auto; congruence). subst j.
  destruct Hcp as [Z1 Z2].
  assert (Sp : j_state p = PAUSED).
  { destruct S2 as [S2|(q & Hq & Eq & Sq)]; [congruence|].
    assert (q = p) by (apply (ids_inj (rows s)); auto; congruence). congruence. }
  split; auto.
  assert (Pp : j_parent p = 0%N) by (apply (G c p); congruence).
  assert (Np : j_id p <> f_id r) by (intros E; assert (p = c) by (apply (ids_inj (rows s)); auto; congruence); congruence).
  assert (Nc : forall x, In x (rows s) -> ~ child_of (f_id r) x).
  { intros x Hx [X1 X2]. assert (j_parent c = 0%N) by (apply (G x c); congruence). congruence. }
  assert (NL : forall x, In x (rows s) -> negb (leftover (f_id r) x) = true).
  { intros x Hx. apply negb_true_iff, andb_false_iff. left. apply not_true_is_false. rewrite is_child_true. auto. }
  assert (B : forall x, In x (rows s) -> In (F x) (map F (filter (fun y => negb (leftover (f_id r) y)) (rows s)))).
  { intros x Hx. apply in_map. apply filter_In. auto. }
  assert (Ip : is_id (f_id r) p = false) by (apply is_id_false; auto).
  assert (Ic : is_id (f_id r) (F c) = true) by (apply is_id_true; destruct (K c) as (-> & _); auto).
  inversion Hfin as [t3 R E3 (d & Hd & D1 & D2)|t3 x E3 NP|t3 t2 E3 R NP Hpar E2|t3 E3 R NP Hpar EX]; subst.
  - exfalso. exact (Nc d Hd D1).
  - eexists. split; [apply update_in; exact (B c Hc)|]. rewrite Ic. cbn [j_id j_state with_state with_next].
    split; [apply K|]. left. split; auto. pose proof (update_in (is_id (f_id r)) (fun y => with_state QUEUED (with_next (Some x) y)) _ _ (B p Hp)) as X.
    rewrite (LF p Np), Ip in X. exact X.
  - set (t3 := map F (filter (fun y => negb (leftover (f_id r) y)) (rows s))) in *.
    set (t2 := update_id (f_id r) (with_state FINISHED) t3) in *.
    assert (Hc2 : In (with_state FINISHED (F c)) t2).
    { pose proof (update_in (is_id (f_id r)) (with_state FINISHED) _ _ (B c Hc)) as X. rewrite Ic in X. exact X. }
    assert (Hp2 : In p t2).
    { pose proof (update_in (is_id (f_id r)) (with_state FINISHED) _ _ (B p Hp)) as X. rewrite (LF p Np), Ip in X. exact X. }
    assert (HP : has_pending (j_parent c) t2 = true <-> exists d, In d (rows s) /\ d <> c /\ child_of (j_id p) d /\ unfinished d).
    { rewrite has_pending_spec. split.
      - intros (d & Hd & D1 & D2). apply in_update in Hd. destruct Hd as (y & Hy & ->).
        destruct (alike_in _ _ _ _ K Hy) as (w & Hw & _ & _ & W1 & W2 & W3).
        destruct (is_id (f_id r) y) eqn:Ey; [exfalso; unfold unfinished, active in D2; cbn [j_state with_state] in D2; intuition congruence|].
        apply is_id_false in Ey. exists w. split; auto. split; [congruence|]. split.
        + unfold child_of in *. rewrite <- W2. intuition congruence.
        + unfold unfinished, active in *. rewrite <- W3. exact D2.
      - intros (d & Hd & Nd & D1 & D2). assert (Ed : j_id d <> f_id r) by (intros E; apply Nd; apply (ids_inj (rows s)); auto; congruence).
        exists d. split.
        + pose proof (update_in (is_id (f_id r)) (with_state FINISHED) _ _ (B d Hd)) as X.
          assert (Id : is_id (f_id r) d = false) by (apply is_id_false; auto). rewrite (LF d Ed), Id in X. exact X.
        + split; auto. unfold child_of in *. intuition congruence. }
    destruct (has_pending (j_parent c) t2) eqn:HPE.
    + exists (with_state FINISHED (F c)). split; auto. split; [apply K|]. right. left. split; auto. split; [|exact Hp2].
      apply HP. reflexivity.
    + exists (with_state FINISHED (F c)). split.
      { pose proof (update_in (is_id (j_parent c)) (with_state QUEUED) _ _ Hc2) as X.
        replace (is_id (j_parent c) (with_state FINISHED (F c))) with false in X; [exact X|].
        symmetry. apply is_id_false. cbn [j_id with_state]. destruct (K c) as (-> & _). congruence. }
      split; [apply K|]. right. right. split; auto. split.
      { intros d Hd Nd D1 D2. assert (Y : false = true) by (apply HP; eauto). discriminate. }
      pose proof (update_in (is_id (j_parent c)) (with_state QUEUED) _ _ Hp2) as X.
      replace (is_id (j_parent c) p) with true in X; [exact X|]. symmetry. apply is_id_true. congruence.
  - exfalso. congruence.
Qed.
Print Assumptions C24_finish_child.
Definition two_children : list cmd :=
  [CCreate 1 [new 1 "parent" 0]; CGet 2 (get 1); CCreate 3 [new 2 "child" 1; new 3 "child" 1]; CFinish 4 (finish 1); CGet 5 (get 9)].
Example ex_finish_child :
  let s := exec exQ init two_children in
  states s = [(1%N, PAUSED); (2%N, RUNNING); (3%N, RUNNING)] /\
  let s1 := fst (step exQ s (CFinish 6 (finish 2))) in
  snd (step exQ s (CFinish 6 (finish 2))) = ROk /\ states s1 = [(1%N, PAUSED); (2%N, FINISHED); (3%N, RUNNING)] /\
  let s2 := fst (step exQ s1 (CFinish 7 (finish 3))) in
  states s2 = [(1%N, QUEUED); (2%N, FINISHED); (3%N, FINISHED)] /\
  (* the parent runs again and is then finished together with its children *)
  states (exec exQ s2 [CGet 8 (get 1); CFinish 9 (finish 1)]) = [].
Proof. vm_compute. auto. Qed.

(** Finishing a job that has unfinished children pauses it; its paused children are queued, finished and
    cancelled ones are deleted, and the others stay as they are. *)
Theorem C24_finish_parent Q history now r p c :
  let s := exec Q init history in
  let s' := fst (step Q s (CFinish now r)) in
  f_retry r = false -> In p (rows s) -> j_id p = f_id r -> In c (rows s) -> child_of (j_id p) c -> unfinished c ->
  snd (step Q s (CFinish now r)) = ROk ->
  (exists p', In p' (rows s') /\ j_id p' = j_id p /\ j_state p' = PAUSED) /\
  forall d, In d (rows s) -> child_of (j_id p) d ->
    match j_state d with
    | PAUSED => In (with_state QUEUED d) (rows s')
    | FINISHED | CANCELLED => forall d', In d' (rows s') -> j_id d' <> j_id d
    | _ => In d (rows s')
    end.
Proof.
  cbv zeta. intros Hr Hp Ep Hc Hcp Hu Hok. destruct (inv_exec Q history init (inv_init Q)) as ((N1 & N2 & N3) & G & _).
  set (s := exec Q init history) in *. destruct (finish_ok _ _ _ _ Hok) as (t' & Hf & ->).
  destruct (finish_full _ _ _ _ _ _ Hf) as (j & F & Hj & Ej & _ & S1 & S2 & K & Hfin & LF).
  assert (j = p) by (apply (ids_inj (rows s)); auto; congruence). subst j.
  assert (Pp : j_parent p = 0%N) by (destruct Hcp; apply (G c p); congruence).
  assert (NPF : (forall c, In c (rows s) -> child_of (f_id r) c -> ~ unfinished c) -> False).
  { intros NP. apply (NP c Hc); auto. rewrite <- Ep. exact Hcp. }
  inversion Hfin as [t3 R E3 Hex|t3 x E3 NP|t3 t2 E3 R NP Hpar E2|t3 E3 R NP Hpar EX]; subst;
    [|exfalso; destruct NP; [congruence|auto]|exfalso; auto|exfalso; auto].
  set (t3 := map F (filter (fun y => negb (leftover (f_id r) y)) (rows s))) in *.
  assert (Lp : leftover (f_id r) p = false).
  { apply andb_false_iff. left. apply not_true_is_false. rewrite is_child_true. unfold child_of. rewrite Pp. intros [X1 X2]. congruence. }
  assert (Hp3 : In (F p) t3) by (apply in_map; apply filter_In; rewrite Lp; auto).
  assert (FP : j_id (F p) = j_id p /\ j_parent (F p) = j_parent p) by (destruct (K p) as (X1 & X2 & _); auto).
  split.
  - pose proof (update_in (is_id (f_id r)) (fun x => with_state PAUSED (with_next (j_last p) x)) _ _ Hp3) as X.
    replace (is_id (f_id r) (F p)) with true in X by (symmetry; apply is_id_true; destruct FP; congruence).
    apply (update_in (fun y => in_states [PAUSED] y && is_child (f_id r) y) (with_state QUEUED)) in X.
    eexists. split; [exact X|].
    replace (is_child (f_id r) (with_state PAUSED (with_next (j_last p) (F p)))) with false.
    + rewrite andb_false_r. cbn [j_id j_state with_state with_next]. split; [apply FP|auto].
    + symmetry. apply not_true_is_false. rewrite is_child_true. unfold child_of. cbn [j_parent with_state with_next].
      destruct FP as [_ ->]. rewrite Pp. intros [X1 X2]. congruence.
  - intros d Hd Hdp. assert (Ed : j_id d <> f_id r).
    { intros E. assert (d = p) by (apply (ids_inj (rows s)); auto; congruence). subst d. destruct Hdp. congruence. }
    assert (Cd : is_child (f_id r) d = true) by (apply is_child_true; rewrite <- Ep; exact Hdp).
    assert (Id : is_id (f_id r) d = false) by (apply is_id_false; auto).
    assert (X : leftover (f_id r) d = false ->
                In (if in_states [PAUSED] d then with_state QUEUED d else d)
                   (update (fun y => in_states [PAUSED] y && is_child (f_id r) y) (with_state QUEUED)
                      (update_id (f_id r) (fun x => with_state PAUSED (with_next (j_last p) x)) t3))).
    { intros L. assert (X : In (F d) t3) by (apply in_map; apply filter_In; rewrite L; auto). rewrite (LF d Ed) in X.
      apply (update_in (is_id (f_id r)) (fun x => with_state PAUSED (with_next (j_last p) x))) in X. rewrite Id in X.
      apply (update_in (fun y => in_states [PAUSED] y && is_child (f_id r) y) (with_state QUEUED)) in X.
      rewrite Cd, andb_true_r in X. exact X. }
    assert (Y : leftover (f_id r) d = true -> forall d', In d' (update (fun y => in_states [PAUSED] y && is_child (f_id r) y) (with_state QUEUED)
                      (update_id (f_id r) (fun x => with_state PAUSED (with_next (j_last p) x)) t3)) -> j_id d' <> j_id d).
    { intros L d' Hd' E. apply in_update in Hd'. destruct Hd' as (y & Hy & ->). apply in_update in Hy. destruct Hy as (z & Hz & ->).
      destruct (alike_in _ _ _ _ K Hz) as (w & Hw & Lw & _ & W1 & _ & _).
      assert (w = d); [|congruence]. apply (ids_inj (rows s)); auto. rewrite <- W1, <- E.
      repeat (match goal with |- context[if ?b then _ else _] => destruct b end); reflexivity. }
    unfold leftover in X, Y. rewrite Cd in X, Y. cbn [andb] in X, Y. unfold in_states in X, Y.
    destruct (j_state d); cbn [existsb jstate_eqb orb] in X, Y; auto.
Qed.
Print Assumptions C24_finish_parent.
Example ex_finish_parent :
  let h := [CCreate 1 [new 1 "parent" 0]; CGet 2 (get 1); CCreate 3 [new 2 "child" 1]] in
  let s := exec exQ init h in
  states s = [(1%N, RUNNING); (2%N, PAUSED)] /\ snd (step exQ s (CFinish 4 (finish 1))) = ROk /\
  states (fst (step exQ s (CFinish 4 (finish 1)))) = [(1%N, PAUSED); (2%N, QUEUED)].
Proof. vm_compute. auto. Qed.

(** Cancelling a child that is queued (or failed or already cancelled) marks it CANCELLED, and its parent is
    queued exactly when no other child of it is queued or running. *)
Theorem C24_cancel_child Q history c p :
  let s := exec Q init history in
  let s' := fst (step Q s (CCancel (j_id c))) in
  In c (rows s) -> In p (rows s) -> child_of (j_id p) c -> ~ In (j_state c) [FINISHED; RUNNING; PAUSED] ->
  snd (step Q s (CCancel (j_id c))) = ROk /\ In (with_state CANCELLED c) (rows s') /\
  ((exists d, In d (rows s) /\ d <> c /\ child_of (j_id p) d /\ active d) /\ In p (rows s')
   \/ (forall d, In d (rows s) -> d <> c -> child_of (j_id p) d -> ~ active d) /\ In (with_state QUEUED p) (rows s')).
Proof.
  cbv zeta. intros Hc Hp Hcp Hst. destruct (inv_exec Q history init (inv_init Q)) as ((N1 & N2 & N3) & G & _).
  set (s := exec Q init history) in *. destruct Hcp as [Z1 Z2].
  assert (Pp : j_parent p = 0%N) by (apply (G c p); congruence).
  assert (Np : p <> c) by congruence.
  assert (Ip : is_id (j_id c) p = false) by (apply is_id_false; intros E; apply Np; apply (ids_inj (rows s)); auto).
  unfold step. cbn [negb run_cmd]. unfold cancel_job. rewrite (lookup_in (rows s) c N1 Hc).
  replace (existsb (is_child (j_id c)) (rows s)) with false.
  2: { symmetry. apply not_true_is_false. intros X. apply existsb_exists in X. destruct X as (x & Hx & X).
       apply is_child_true in X. destruct X as [X1 X2]. assert (j_parent c = 0%N) by (apply (G x c); congruence). congruence. }
  replace (j_parent c =? 0)%N with false by (symmetry; apply N.eqb_neq; congruence).
  replace (in_states [FINISHED; RUNNING; PAUSED] c) with false
    by (symmetry; apply not_true_is_false; rewrite in_states_true; exact Hst).
  set (t1 := update_id (j_id c) (with_state CANCELLED) (rows s)).
  assert (Hc1 : In (with_state CANCELLED c) t1).
  { pose proof (update_in (is_id (j_id c)) (with_state CANCELLED) _ _ Hc) as X.
    replace (is_id (j_id c) c) with true in X by (symmetry; apply is_id_true; auto). exact X. }
  assert (Hp1 : In p t1).
  { pose proof (update_in (is_id (j_id c)) (with_state CANCELLED) _ _ Hp) as X. rewrite Ip in X. exact X. }
  assert (HE : existsb (fun y => is_child (j_parent c) y && in_states [QUEUED; RUNQUEUED; RUNNING] y) t1 = true <->
               exists d, In d (rows s) /\ d <> c /\ child_of (j_id p) d /\ active d).
  { rewrite existsb_exists. split.
    - intros (d & Hd & D). apply andb_true_iff in D. rewrite is_child_true, in_states_true in D.
      apply in_update in Hd. destruct Hd as (y & Hy & ->). destruct (is_id (j_id c) y) eqn:Ey.
      + cbn [j_state with_state In] in D. intuition congruence.
      + apply is_id_false in Ey. exists y. split; auto. split; [congruence|]. rewrite Z2 in D. split; [tauto|].
        unfold active. cbn in D. intuition congruence.
    - intros (d & Hd & Nd & D1 & D2). exists d.
      assert (Id : is_id (j_id c) d = false) by (apply is_id_false; intros E; apply Nd; apply (ids_inj (rows s)); auto).
      pose proof (update_in (is_id (j_id c)) (with_state CANCELLED) _ _ Hd) as X. rewrite Id in X. split; [exact X|].
      rewrite andb_true_iff, is_child_true, in_states_true. rewrite Z2. split; auto.
      unfold active in D2. cbn. intuition congruence. }
  cbn [snd fst rows].
  destruct (existsb (fun y => is_child (j_parent c) y && in_states [QUEUED; RUNQUEUED; RUNNING] y) t1) eqn:EE.
  - split; [reflexivity|]. split; [exact Hc1|]. left. split; [apply HE; reflexivity|exact Hp1].
  - split; [reflexivity|].
    assert (Ic : is_id (j_parent c) (with_state CANCELLED c) = false).
    { apply is_id_false. cbn [j_id with_state]. intros E. apply Np. apply (ids_inj (rows s)); auto. congruence. }
    split.
    + pose proof (update_in (is_id (j_parent c)) (with_state QUEUED) _ _ Hc1) as X. rewrite Ic in X. exact X.
    + right. split.
      * intros d Hd Nd D1 D2. assert (Y : false = true) by (apply HE; eauto). discriminate.
      * pose proof (update_in (is_id (j_parent c)) (with_state QUEUED) _ _ Hp1) as X.
        replace (is_id (j_parent c) p) with true in X; [exact X|]. symmetry. apply is_id_true. congruence.
Qed.
Print Assumptions C24_cancel_child.
Example ex_cancel :
  let s := exec exQ init [CCreate 1 [new 1 "parent" 0]; CGet 2 (get 1); CCreate 3 [new 2 "child" 1; new 3 "child" 1]; CFinish 4 (finish 1)] in
  states (exec exQ s [CCancel 2]) = [(1%N, PAUSED); (2%N, CANCELLED); (3%N, QUEUED)] /\
  states (exec exQ s [CCancel 2; CCancel 3]) = [(1%N, QUEUED); (2%N, CANCELLED); (3%N, CANCELLED)].
Proof. vm_compute. auto. Qed.

(** When the last child fails instead of finishing, nothing resumes its parent: it stays paused although
    none of its children will run again. *)
Theorem C24_failed_child_refuted :
  exists Q history, let s := exec Q init history in
    states s = [(1%N, PAUSED); (2%N, FAILED)] /\
    (exists c p, In c (rows s) /\ In p (rows s) /\ j_id p = 1%N /\ child_of (j_id p) c) /\
    forall now n, handed Q s (CGet now (get n)) = [].
Proof.
  exists exQ, [CCreate 1 [new 1 "parent" 0]; CGet 2 (get 1); CCreate 3 [new 2 "child" 1]; CFinish 4 (finish 1); CGet 5 (get 1); CFail 2 None].
  cbv zeta. split; [vm_compute; reflexivity|]. split.
  - vm_compute. eexists. eexists. split; [right; left; reflexivity|]. split; [left; reflexivity|]. repeat split; discriminate.
  - intros now n. unfold handed, step. cbn [negb run_cmd].
    assert (E : get_jobs exQ now (get n) (rows (exec exQ init
       [CCreate 1 [new 1 "parent" 0]; CGet 2 (get 1); CCreate 3 [new 2 "child" 1]; CFinish 4 (finish 1); CGet 5 (get 1); CFail 2 None])) = Err).
    { remember (exec exQ init _) as s eqn:Es. assert (El : forall j, In j (rows s) -> in_states [QUEUED; RUNQUEUED] j = false).
      { subst s. vm_compute. intros j [<-|[<-|[]]]; reflexivity. }
      clear Es. unfold get_jobs. destruct (select exQ now (get n) (rows s)) as [|x l] eqn:Ex; [reflexivity|].
      exfalso. assert (Hx : In x (select exQ now (get n) (rows s))) by (rewrite Ex; left; reflexivity).
      destruct (select_in _ _ _ _ _ Hx) as [Hx1 Hx2]. specialize (El x Hx1). apply wanted_waiting in Hx2.
      apply not_true_iff_false in El. apply El. apply in_states_true. unfold waiting in Hx2. cbn. intuition congruence. }
    rewrite E. reflexivity.
Qed.
Print Assumptions C24_failed_child_refuted.

(** ** C25: when a repeating job runs next *)
(** The time at which the schedule's modifiers put the run after [base]. *)
Definition period_after (Q : sql) (mods : list bytes) (base t : Z) : Prop := apply_mods Q mods (Some base) = Some (Some t).
Definition fixed_offsets (mods : list bytes) : Prop :=
  forall m, In m mods -> exists r, m = "+"%char :: r \/ m = "-"%char :: r.

(** A short fixed-interval schedule that missed its window: the next run is strictly after now, at most
    one interval after now, and a whole number of intervals after the scheduled time. *)
Theorem C25_missed_window Q rep mods scheduled last now t :
  ieqb rep (lit "HOURLY") = false -> ieqb rep (lit "DAILY") = false -> ieqb rep (lit "WEEKLY") = false ->
  SParseList (SToUpper rep) "," = lit "SCHEDULED" :: mods -> mods <> [] ->
  period_after Q mods scheduled t -> fixed_offsets mods ->
  0 < t - scheduled < 14400 -> t <= now ->
  exists next k, next_run Q rep (Some scheduled) last now = At next /\
    now < next <= now + (t - scheduled) /\ next = scheduled + k * (t - scheduled).
Proof.
  intros E1 E2 E3 Ep Hm Hp Hf Hi Hn. unfold next_run.
  destruct rep as [|c r] eqn:Er; [discriminate Ep|]. rewrite <- Er in *. rewrite E1, E2, E3. cbn [orb].
  rewrite Ep. unfold next_parts. destruct mods as [|m ms]; [congruence|].
  rewrite bytes_eqb_refl. unfold period_after in Hp. rewrite Hp.
  assert (Hfx : forallb fixed_part (m :: ms) = true).
  { apply forallb_forall. intros x Hx. destruct (Hf x Hx) as (y & [->| ->]); reflexivity. }
  unfold reanchor. rewrite Hfx.
  replace (t <=? now) with true by (symmetry; apply Z.leb_le; lia).
  replace (0 <? t - scheduled) with true by (symmetry; apply Z.ltb_lt; lia).
  replace (t - scheduled <? reanchor_threshold) with true by (symmetry; apply Z.ltb_lt; unfold reanchor_threshold; lia).
  cbn [andb]. eexists. eexists. split; [reflexivity|]. split; [|reflexivity].
  rewrite Z.quot_div_nonneg by lia. set (i := t - scheduled) in *.
  pose proof (Z.div_mod (now - scheduled) i ltac:(lia)) as D.
  pose proof (Z.mod_pos_bound (now - scheduled) i ltac:(lia)) as B. nia.
Qed.
Print Assumptions C25_missed_window.
Example ex_missed : next_run exQ (lit "scheduled, +60 SECONDS") (Some 100) None 1000 = At 1060.
Proof. vm_compute. reflexivity. Qed.

(** Otherwise (window not missed, long interval, or a modifier that is not a fixed offset) the next run is
    exactly the modified scheduled time. *)
Theorem C25_otherwise Q rep mods scheduled last now t :
  ieqb rep (lit "HOURLY") = false -> ieqb rep (lit "DAILY") = false -> ieqb rep (lit "WEEKLY") = false ->
  SParseList (SToUpper rep) "," = lit "SCHEDULED" :: mods -> mods <> [] ->
  period_after Q mods scheduled t ->
  (now < t \/ ~ 0 < t - scheduled < 14400 \/ ~ fixed_offsets mods) ->
  next_run Q rep (Some scheduled) last now = At t.
Proof.
  intros E1 E2 E3 Ep Hm Hp Hc. unfold next_run.
  destruct rep as [|c r] eqn:Er; [discriminate Ep|]. rewrite <- Er in *. rewrite E1, E2, E3. cbn [orb].
  rewrite Ep. unfold next_parts. destruct mods as [|m ms]; [congruence|].
  rewrite bytes_eqb_refl. unfold period_after in Hp. rewrite Hp. f_equal. unfold reanchor.
  destruct ((t <=? now) && (0 <? t - scheduled) && (t - scheduled <? reanchor_threshold) && forallb fixed_part (m :: ms)) eqn:E; auto.
  exfalso. rewrite !andb_true_iff, Z.leb_le, !Z.ltb_lt in E. unfold reanchor_threshold in E. destruct E as [[[A B] C] D].
  destruct Hc as [Hc|[Hc|Hc]]; try lia. apply Hc. intros x Hx. rewrite forallb_forall in D. specialize (D x Hx).
  unfold fixed_part in D. destruct x as [|a x]; [discriminate|]. apply orb_true_iff in D. rewrite !Ascii.eqb_eq in D.
  exists x. destruct D as [->| ->]; auto.
Qed.
Print Assumptions C25_otherwise.
Example ex_otherwise :
  next_run exQ (lit "SCHEDULED, +60 SECONDS") (Some 1000) None 1010 = At 1060 /\
  next_run exQ (lit "SCHEDULED, START OF HOUR, +60 SECONDS") (Some 100) None 1000 = At 60 /\
  next_run exQ (lit "STARTED, +60 SECONDS") (Some 100) (Some 500) 1000 = At 560 /\
  next_run exQ (lit "FINISHED, +60 SECONDS") (Some 100) (Some 500) 1000 = At 1060.
Proof. vm_compute. auto. Qed.

(** The other two bases use exactly the modified base time: the last run or now. *)
Theorem C25_other_bases Q rep mods scheduled last now t :
  ieqb rep (lit "HOURLY") = false -> ieqb rep (lit "DAILY") = false -> ieqb rep (lit "WEEKLY") = false -> mods <> [] ->
  (SParseList (SToUpper rep) "," = lit "STARTED" :: mods /\ (exists b, last = Some b /\ period_after Q mods b t)
   \/ SParseList (SToUpper rep) "," = lit "FINISHED" :: mods /\ period_after Q mods now t) ->
  next_run Q rep scheduled last now = At t.
Proof.
  intros E1 E2 E3 Hm H. unfold next_run.
  destruct rep as [|c r] eqn:Er; [destruct H as [[H _]|[H _]]; discriminate H|]. rewrite <- Er in *. rewrite E1, E2, E3. cbn [orb].
  destruct mods as [|m ms]; [congruence|]. unfold period_after in H.
  destruct H as [(-> & b & -> & Hp)|(-> & Hp)]; unfold next_parts.
  - change (bytes_eqb (lit "STARTED") (lit "SCHEDULED")) with false.
    change (bytes_eqb (lit "STARTED") (lit "STARTED")) with true. cbv iota. rewrite Hp. reflexivity.
  - change (bytes_eqb (lit "FINISHED") (lit "SCHEDULED")) with false.
    change (bytes_eqb (lit "FINISHED") (lit "STARTED")) with false.
    change (bytes_eqb (lit "FINISHED") (lit "FINISHED")) with true. cbv iota. rewrite Hp. reflexivity.
Qed.
Print Assumptions C25_other_bases.

(** When every modifier moves a time by a constant, the interval is the sum of those constants, whatever
    the scheduled time is: a short repeat that missed its window keeps its phase forever. *)
Theorem C25_constant_interval Q mods (k : bytes -> Z) scheduled :
  (forall m t, In m mods -> q_datetime Q m t = Some (t + k m)) ->
  (forall m, In m mods -> q_valid_mod Q m = true) -> (forall m, In m mods -> bytes_eqb (SToUpper m) (lit "START OF HOUR") = false) ->
  period_after Q mods scheduled (scheduled + fold_right Z.add 0 (map k mods)).
Proof.
  unfold period_after. revert scheduled. induction mods as [|m ms IH]; intros b H1 H2 H3; cbn [apply_mods map fold_right].
  - rewrite Z.add_0_r. reflexivity.
  - rewrite H3, H2, H1 by (left; reflexivity). cbn [negb].
    rewrite IH by (intros; first [apply H1|apply H2|apply H3]; right; assumption). do 2 f_equal. lia.
Qed.
Print Assumptions C25_constant_interval.
Example ex_constant : period_after exQ [lit "+60 SECONDS"; lit "+10 SECONDS"] 5 75.
Proof. vm_compute. reflexivity. Qed.

(** FinishJob stores that time: a running top-level job without unfinished children, with a repeat, is
    queued for the next run the repeat gives. *)
Theorem C25_finish_reschedules Q history now id j x :
  let s := exec Q init history in
  In j (rows s) -> j_id j = id -> In (j_state j) [RUNNING; RUNQUEUED] -> j_parent j = 0%N ->
  (forall c, In c (rows s) -> child_of id c -> ~ unfinished c) ->
  j_repeat j <> [] ->
  next_run Q (j_repeat j) (if is_retriable j && is_scheduled (j_repeat j) then d_orig (j_data j) else j_next j) (j_last j) now = At x ->
  snd (step Q s (CFinish now (finish id))) = ROk /\
  exists j', In j' (rows (fst (step Q s (CFinish now (finish id))))) /\ j_id j' = id /\ j_state j' = QUEUED /\ j_next j' = Some x.
Proof.
  cbv zeta. intros Hj Ej Hst Hp Hc Hr Hx. destruct (inv_exec Q history init (inv_init Q)) as ((N1 & N2 & N3) & G & _).
  set (s := exec Q init history) in *. unfold step. cbn [negb run_cmd]. unfold finish_job. cbn [f_id finish f_data f_retry f_delete].
  rewrite <- Ej, (lookup_in (rows s) j N1 Hj).
  replace (in_states [RUNNING; RUNQUEUED] j) with true by (symmetry; apply in_states_true; exact Hst).
  rewrite Hp. cbn [negb andb N.eqb].
  set (D := fun y => with_data (set_count 0 (j_data y)) y).
  assert (E3 : update_id (j_id j) D (filter (fun y => negb (is_child (j_id j) y && in_states [FINISHED; CANCELLED] y)) (rows s)) =
               map (fun y => if is_id (j_id j) y then D y else y) (filter (fun y => negb (leftover (j_id j) y)) (rows s))) by reflexivity.
  rewrite E3. clear E3.
  assert (KD : alike (fun y => if is_id (j_id j) y then D y else y)) by (intros y; destruct (is_id (j_id j) y); repeat split; reflexivity).
  rewrite (alike_pending _ (j_id j) (j_id j) (rows s) KD).
  replace (has_pending (j_id j) (rows s)) with false.
  2: { symmetry. apply not_true_is_false. rewrite has_pending_spec. intros (c & Hcc & C1 & C2). apply (Hc c Hcc); auto. rewrite <- Ej. exact C1. }
  unfold finish_tail. cbn [f_retry finish andb f_id f_name f_prio f_ignore].
  destruct (j_repeat j) as [|a b] eqn:Erep; [congruence|]. rewrite Hx. cbn [snd fst rows]. split; [reflexivity|].
  eexists. split.
  - apply update_in. apply in_map. apply filter_In. split; [exact Hj|].
    apply negb_true_iff, andb_false_iff. left. apply not_true_is_false. rewrite is_child_true. unfold child_of. rewrite Hp. intros [X1 X2]; congruence.
  - assert (Ij : is_id (j_id j) j = true) by (apply is_id_true; auto). rewrite Ij.
    change (is_id (j_id j) (D j)) with (is_id (j_id j) j). rewrite Ij. auto.
Qed.
Print Assumptions C25_finish_reschedules.
Example ex_reschedule :
  let r := mkCreate (lit "a") plain_data (Some 100) (lit "scheduled, +60 SECONDS") 500 false true 0 [] false 1 in
  let s := exec exQ init [CCreate 90 [r]; CGet 500 (get 1); CFinish 1000 (finish 1)] in
  map (fun j => (j_state j, j_next j)) (rows s) = [(QUEUED, Some 1060)].
Proof. vm_compute. reflexivity. Qed.

Lemma finish_reply Q now r t t' rp : finish_job Q now r t = Ok t' rp -> rp = ROk.
Proof.
  unfold finish_job. cbv zeta. destruct (lookup (f_id r) t) as [j|]; [|discriminate].
  destruct (negb (in_states [RUNNING; RUNQUEUED] j) && negb (d_mock (j_data j))); [discriminate|].
  destruct (negb (j_parent j =? 0)%N && _); [discriminate|].
  match goal with |- (if ?b then _ else _) = _ -> _ => destruct b; [discriminate|] end.
  match goal with |- (if ?b then _ else _) = _ -> _ => destruct b; [congruence|] end.
  unfold finish_tail. cbv zeta.
  match goal with |- (if ?b then _ else _) = _ -> _ => destruct b; [discriminate|] end.
  match goal with |- match ?n with _ => _ end = _ -> _ => destruct n as [[| |x]|] end; try discriminate; try congruence.
  destruct (f_retry r); [discriminate|]. destruct (negb (j_parent j =? 0)%N); [congruence|].
  match goal with |- (if ?b then _ else _) = _ -> _ => destruct b; [discriminate|congruence] end.
Qed.
(** No RetryJob ever hits the assertion that it must know when to run next. *)
Theorem C25_retry_never_crashes Q history c : snd (step Q (exec Q init history) c) <> RCrash.
Proof.
  destruct (inv_exec Q history init (inv_init Q)) as (_ & _ & RO). set (s := exec Q init history) in *.
  unfold step. destruct (negb _); [discriminate|].
  destruct (run_cmd Q (rows s) c) as [t r| |] eqn:E; cbn [snd]; [|discriminate|].
  - intros ->. destruct c as [now l|now g|now u|now f|id|id d|id|l n b|t0]; cbn [run_cmd] in E.
    + unfold create_jobs in E. case_if_in E; [discriminate|]. destruct (create_list Q now l (rows s)) as [[t' l']|]; discriminate.
    + unfold get_jobs in E. destruct (select Q now g (rows s)); discriminate.
    + unfold update_job in E. case_if_in E; [discriminate|]. case_if_in E; [discriminate|].
      destruct (lookup (u_id u) (rows s)); [|discriminate].
      match type of E with match ?n with _ => _ end = _ => destruct n end; discriminate.
    + apply finish_reply in E. discriminate.
    + unfold cancel_job in E. destruct (lookup id (rows s)); [|discriminate]. repeat (case_if_in E; try discriminate).
    + unfold fail_job in E. destruct (lookup id (rows s)); [|discriminate]. repeat (case_if_in E; try discriminate).
    + unfold delete_job in E. destruct (lookup id (rows s)); [|discriminate]. repeat (case_if_in E; try discriminate).
    + discriminate.
    + case_if_in E; discriminate.
  - exfalso. destruct c as [now l|now g|now u|now f|id|id d|id|l n b|t0]; cbn [run_cmd] in E.
    + unfold create_jobs in E. case_if_in E; [discriminate|]. destruct (create_list Q now l (rows s)) as [[t' l']|]; discriminate.
    + unfold get_jobs in E. destruct (select Q now g (rows s)); discriminate.
    + unfold update_job in E. case_if_in E; [discriminate|]. case_if_in E; [discriminate|].
      destruct (lookup (u_id u) (rows s)); [|discriminate].
      match type of E with match ?n with _ => _ end = _ => destruct n end; discriminate.
    + unfold finish_job in E. destruct (lookup (f_id f) (rows s)) as [j|] eqn:El; [|discriminate].
      apply lookup_some in El. specialize (RO j (proj1 El)).
      cbv zeta in E.
      do 4 (match type of E with (if ?b then _ else _) = _ => destruct b; [discriminate|] end).
      assert (GR : good_repeat Q match f_data f with Some _ => if f_delete f then [] else j_repeat j | None => j_repeat j end).
      { destruct (f_data f); auto. destruct (f_delete f); auto. left. reflexivity. }
      match type of E with finish_tail _ _ _ _ ?r _ = _ => change (good_repeat Q r) in GR; revert E GR; generalize r end.
      intros rep E GR. unfold finish_tail in E. cbv zeta in E.
      match type of E with (if ?b then _ else _) = _ => destruct b; [discriminate|] end.
      assert (X : forall b : bool, match
          (if f_retry f then match f_next f with
               | Some x => Some (At x)
               | None => if f_delay f <? 0 then None
                         else match next_parts Q [lit "FINISHED"; delay_mod (f_delay f)] (j_next j) (j_last j) now with
                              | NoRepeat => None | n => Some n end end
           else Some NoRepeat) with Some NoRepeat => f_retry f = false | _ => True end).
      { intros _. destruct (f_retry f); auto. destruct (f_next f); auto. destruct (f_delay f <? 0); auto.
        destruct (next_parts _ _ _ _ _); auto. }
      assert (Y : match rep, f_ignore f with
                  | _ :: _, false => Some (next_run Q rep (if is_retriable j && is_scheduled rep then d_orig (j_data j) else j_next j) (j_last j) now)
                  | _, _ => (if f_retry f then match f_next f with
                       | Some x => Some (At x)
                       | None => if f_delay f <? 0 then None
                                 else match next_parts Q [lit "FINISHED"; delay_mod (f_delay f)] (j_next j) (j_last j) now with
                                      | NoRepeat => None | n => Some n end end
                     else Some NoRepeat) end = Some NoRepeat -> f_retry f = false).
      { specialize (X true). destruct rep as [|a b]; [intros E0; rewrite E0 in X; exact X|].
        destruct (f_ignore f); [intros E0; rewrite E0 in X; exact X|]. intros E0. exfalso.
        destruct GR as [GR|GR]; [discriminate|]. apply (valid_repeat_next Q _ _ _ _ GR (f_equal (fun o => match o with Some n => n | None => NullTime end) E0)). }
      match type of E with match ?n with _ => _ end = _ => destruct n as [[| |x]|] end; try discriminate.
      rewrite (Y eq_refl) in E.
      do 2 (match type of E with (if ?b then _ else _) = _ => destruct b; [discriminate|] end). discriminate.
    + unfold cancel_job in E. destruct (lookup id (rows s)); [|discriminate]. repeat (case_if_in E; try discriminate).
    + unfold fail_job in E. destruct (lookup id (rows s)); [|discriminate]. repeat (case_if_in E; try discriminate).
    + unfold delete_job in E. destruct (lookup id (rows s)); [|discriminate]. repeat (case_if_in E; try discriminate).
    + discriminate.
    + case_if_in E; discriminate.
Qed.
Print Assumptions C25_retry_never_crashes.

(** A job named manual... with both retryAfter and a SCHEDULED repeat can never be finished: GetJob does not
    record its original time, so FinishJob computes an empty time and is refused, every time. *)
Theorem C25_manual_refuted :
  exists Q history, let s := exec Q init history in
    states s = [(1%N, RUNQUEUED)] /\ forall now, snd (step Q s (CFinish now (finish 1))) = RErr.
Proof.
  exists exQ, [CCreate 1 [mkCreate (lit "manual/a") plain_data None (lit "SCHEDULED, +60 SECONDS") 500 false true 0 (lit "+10 SECONDS") false 1];
               CGet 2 (get 1)].
  cbv zeta. split; [vm_compute; reflexivity|]. intros now. vm_compute. reflexivity.
Qed.
Print Assumptions C25_manual_refuted.

(** ** C26: what GetJobs returns *)
(** The job is waiting, due, and what the request asks for. *)
Definition asked_for (Q : sql) (now : Z) (g : get_req) (j : job) : Prop :=
  waiting j /\ due now (j_next j) /\
  (if Nat.ltb 1 (List.length (g_names g)) then In (j_name j) (g_names g) else q_glob Q (g_pattern g) (j_name j) = true) /\
  (g_mock g = false -> d_mock (j_data j) = false) /\
  (match g_prio g with Some p => j_prio j = Some p | None => exists p, In p priorities /\ j_prio j = Some p end).
Lemma wanted_asked Q now g j : wanted Q now g j = true <-> asked_for Q now g j.
Proof.
  unfold wanted, eligible, asked_for. rewrite !andb_true_iff, in_states_true.
  assert (A : In (j_state j) [QUEUED; RUNQUEUED] <-> waiting j) by (unfold waiting; cbn; intuition congruence).
  assert (B : is_due now j = true <-> due now (j_next j)).
  { unfold is_due, due. destruct (j_next j); [apply Z.leb_le|tauto]. }
  assert (C : name_match Q g j = true <-> (if Nat.ltb 1 (List.length (g_names g)) then In (j_name j) (g_names g) else q_glob Q (g_pattern g) (j_name j) = true)).
  { unfold name_match. destruct (Nat.ltb 1 (List.length (g_names g))); [|tauto]. rewrite existsb_exists. split.
    - intros (x & Hx & E). apply bytes_eqb_eq in E. congruence.
    - intros H. exists (j_name j). split; auto. apply bytes_eqb_refl. }
  assert (D : g_mock g || negb (d_mock (j_data j)) = true <-> (g_mock g = false -> d_mock (j_data j) = false)).
  { destruct (g_mock g), (d_mock (j_data j)); cbn; intuition congruence. }
  assert (HP : forall p, has_prio p j = true <-> j_prio j = Some p).
  { intros p. unfold has_prio. destruct (j_prio j); [rewrite Z.eqb_eq; intuition congruence|intuition congruence]. }
  assert (E : match g_prio g with Some p => has_prio p j | None => existsb (fun p => has_prio p j) priorities end = true <->
              match g_prio g with Some p => j_prio j = Some p | None => exists p, In p priorities /\ j_prio j = Some p end).
  { destruct (g_prio g); [apply HP|]. rewrite existsb_exists. split; intros (p & Hp & X); exists p; split; auto; apply HP; auto. }
  tauto.
Qed.

(** After any history, GetJob(s) takes the first [n] of all jobs asked for, ranked by priority (highest
    first) and then by due time (earliest first).  The reply lists those that are not blacklisted and have
    not been retried ten times, in that order; every job that was not taken is left as it was.
    404 means that nothing asked for exists. *)
Theorem C26_best_jobs_first Q history now g :
  let s := exec Q init history in
  let n := Z.to_nat (Z.max (g_num g) 1) in
  exists ranked,
    Permutation ranked (filter (wanted Q now g) (rows s)) /\
    StronglySorted before ranked /\
    (forall j, In j ranked <-> In j (rows s) /\ asked_for Q now g j) /\
    match snd (step Q s (CGet now g)) with
    | RIds l => l = map j_id (filter (fun j => negb (q_crashed Q (j_name j)) && (d_count (j_data j) <? 10)) (firstn n ranked)) /\
                forall j, In j (rows s) -> ~ In j (firstn n ranked) -> In j (rows (fst (step Q s (CGet now g))))
    | _ => ranked = [] /\ fst (step Q s (CGet now g)) = s
    end.
Proof.
  cbv zeta. destruct (inv_exec Q history init (inv_init Q)) as ((N1 & N2 & N3) & G & _).
  set (s := exec Q init history) in *. exists (ranking Q now g (rows s)).
  split; [apply ranking_perm|]. split; [apply ranking_sorted|]. split.
  { intros j. rewrite <- wanted_asked, <- filter_In. split; apply Permutation_in; [|symmetry]; apply ranking_perm. }
  unfold step. cbn [negb run_cmd]. pose proof (select_ranking Q now g (rows s)) as SR. unfold limit in SR.
  destruct (get_jobs Q now g (rows s)) as [t r| |] eqn:E.
  - destruct (get_rows _ _ _ _ _ _ N1 E) as [-> ->]. cbn [snd fst rows]. rewrite <- SR. split; [reflexivity|].
    intros j Hj Hn. apply in_map_iff. exists j. split; auto.
    destruct (in_ids (ids (select Q now g (rows s))) j) eqn:I; auto. exfalso. apply Hn. apply selected_waiting in I; tauto.
  - cbn [snd fst]. split; [|reflexivity]. unfold get_jobs in E.
    destruct (select Q now g (rows s)) eqn:Es; [|discriminate].
    destruct (ranking Q now g (rows s)) as [|x l]; auto. destruct (Z.to_nat (Z.max (g_num g) 1)) eqn:Ez; [lia|discriminate].
  - exfalso. unfold get_jobs in E. destruct (select Q now g (rows s)); discriminate.
Qed.
Print Assumptions C26_best_jobs_first.

Lemma filter_length_le {A} (f : A -> bool) l : (List.length (filter f l) <= List.length l)%nat.
Proof. induction l as [|a l IH]; cbn [filter List.length]; [lia|]. destruct (f a); cbn [List.length]; lia. Qed.
Lemma sorted_split {A} (R : A -> A -> Prop) n l x y :
  StronglySorted R l -> In x (firstn n l) -> In y (skipn n l) -> R x y.
Proof.
  revert l. induction n as [|n IH]; intros l Hs Hx Hy; [destruct Hx|].
  destruct l as [|a l]; [destruct Hx|]. inversion Hs as [|? ? S1 S2]; subst. cbn [firstn skipn] in *.
  destruct Hx as [->|Hx]; [|eapply IH; eauto]. rewrite Forall_forall in S2. apply S2.
  rewrite <- (firstn_skipn n l). apply in_or_app. auto.
Qed.

(** In plain terms: at most the requested number is returned, each of them asked for, each once and in
    order.  If a job that was asked for is left out (and it is neither blacklisted nor worn out by ten
    retries) then the full number of jobs was taken, every one of them asked for and of a higher priority
    than the one left out, or of the same priority and due no later. *)
Theorem C26_selection Q history now g :
  let s := exec Q init history in
  let n := Z.to_nat (Z.max (g_num g) 1) in
  let l := handed Q s (CGet now g) in
  (List.length l <= n)%nat /\ NoDup l /\
  (forall id, In id l -> exists j, In j (rows s) /\ j_id j = id /\ asked_for Q now g j) /\
  (forall k, In k (rows s) -> asked_for Q now g k -> q_crashed Q (j_name k) = false -> d_count (j_data k) < 10 ->
     ~ In (j_id k) l ->
     exists top, NoDup top /\ List.length top = n /\ (forall id, In id l -> In id (map j_id top)) /\
       forall j, In j top -> In j (rows s) /\ asked_for Q now g j /\
         (prio_of j > prio_of k \/ prio_of j = prio_of k /\ no_later (j_next j) (j_next k))).
Proof.
  cbv zeta. destruct (inv_exec Q history init (inv_init Q)) as ((N1 & N2 & N3) & G & _).
  destruct (C26_best_jobs_first Q history now g) as (rk & P1 & P2 & P3 & P4). cbv zeta in P4.
  set (s := exec Q init history) in *. set (n := Z.to_nat (Z.max (g_num g) 1)) in *.
  assert (ND : NoDup (map j_id rk)).
  { eapply Permutation_NoDup; [apply Permutation_map; symmetry; exact P1|]. clear - N1. unfold ids in N1.
    induction (rows s) as [|a t IH]; [constructor|]. inversion N1 as [|? ? X Y]; subst. cbn [filter].
    destruct (wanted Q now g a); auto. cbn [map]. constructor; auto. intros H. apply X. apply in_map_iff in H.
    destruct H as (b & <- & Hb). apply filter_In in Hb. apply in_map. tauto. }
  assert (NF : NoDup (map j_id (firstn n rk))).
  { rewrite <- (firstn_skipn n rk), map_app in ND. apply NoDup_app_l in ND. exact ND. }
  unfold handed. destruct (snd (step Q s (CGet now g))) as [|l| |] eqn:E.
  2: { destruct P4 as [-> P4]. set (ok := fun j => negb (q_crashed Q (j_name j)) && (d_count (j_data j) <? 10)) in *.
       split; [|split; [|split]].
       - rewrite map_length. transitivity (List.length (firstn n rk)); [apply filter_length_le|].
         rewrite firstn_length. lia.
       - clear - NF. induction (firstn n rk) as [|a t IH]; [constructor|]. inversion NF as [|? ? X Y]; subst. cbn [filter].
         destruct (ok a); auto. cbn [map]. constructor; auto. intros H. apply X. apply in_map_iff in H.
         destruct H as (b & <- & Hb). apply filter_In in Hb. apply in_map. tauto.
       - intros id H. apply in_map_iff in H. destruct H as (j & <- & Hj). apply filter_In in Hj. exists j.
         assert (Hr : In j rk) by (rewrite <- (firstn_skipn n rk); apply in_or_app; tauto). apply P3 in Hr. tauto.
       - intros k Hk Ak K1 K2 K3. exists (firstn n rk).
         assert (Hr : In k rk) by (apply P3; auto).
         rewrite <- (firstn_skipn n rk) in Hr. apply in_app_or in Hr.
         assert (Hs : In k (skipn n rk)).
         { destruct Hr as [Hr|Hr]; auto. exfalso. apply K3. apply in_map. apply filter_In. split; auto. unfold ok.
           rewrite K1. apply Z.ltb_lt in K2. rewrite K2. reflexivity. }
         split; [eapply NoDup_map_inv; exact NF|]. split.
         + rewrite firstn_length. assert (L : (0 < List.length (skipn n rk))%nat) by (destruct (skipn n rk); [destruct Hs|cbn; lia]).
           rewrite skipn_length in L. lia.
         + split.
           * intros id H. apply in_map_iff in H. destruct H as (j & <- & Hj). apply filter_In in Hj. apply in_map. tauto.
           * intros j Hj. assert (Hjr : In j rk) by (rewrite <- (firstn_skipn n rk); apply in_or_app; tauto).
             apply P3 in Hjr. split; [tauto|]. split; [tauto|]. exact (sorted_split before n rk j k P2 Hj Hs). }
  all: destruct P4 as [-> _]; split; [cbn; lia|]; split; [constructor|]; split; [intros ? []|];
    intros k Hk Ak; exfalso; apply (proj2 (P3 k)); auto.
Qed.
Print Assumptions C26_selection.
Example ex_selection :
  let job i p t := mkCreate (lit "a") plain_data (Some t) [] p false true 0 [] false i in
  let s := exec exQ init [CCreate 5 [job 1%N 500 10; job 2%N 1000 30; job 3%N 500 20; job 4%N 1000 99; job 5%N 0 1]] in
  handed exQ s (CGet 50 (get 3)) = [2%N; 1%N; 3%N] /\ handed exQ s (CGet 0 (get 3)) = [] /\
  handed exQ s (CGet 50 (get 0)) = [2%N].
Proof. vm_compute. auto. Qed.

(** RetryJob accepts a priority like 500abc, because the check looks at the number it starts with; the text
    is stored, and no GetJob finds the job again. *)
Theorem C26_retry_priority_refuted :
  exists Q history, let s := exec Q init history in
    states s = [(1%N, QUEUED)] /\ forall now n, handed Q s (CGet now (get n)) = [].
Proof.
  exists exQ, [CCreate 1 [new 1 "a" 0]; CGet 2 (get 1);
               CFinish 3 (mkFinish true 1 None false [] (Some (lit "500abc")) (Some 10) 0 false)].
  cbv zeta. split; [vm_compute; reflexivity|]. intros now n.
  set (h := [CCreate 1 [new 1 "a" 0]; CGet 2 (get 1); CFinish 3 (mkFinish true 1 None false [] (Some (lit "500abc")) (Some 10) 0 false)]).
  destruct (handed exQ (exec exQ init h) (CGet now (get n))) as [|i l] eqn:E; [reflexivity|exfalso].
  destruct (C26_selection exQ h now (get n)) as (_ & _ & P & _). rewrite E in P.
  destruct (P i (or_introl eq_refl)) as (j & Hj & _ & _ & _ & _ & _ & A).
  assert (Z : forall j, In j (rows (exec exQ init h)) -> j_prio j = None).
  { vm_compute. intros j0 [<-|[]]. reflexivity. }
  rewrite (Z j Hj) in A. destruct A as (p & _ & A). discriminate.
Qed.
Print Assumptions C26_retry_priority_refuted.
