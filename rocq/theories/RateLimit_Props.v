(** Properties C03 and C04: the blocking-queue rate limit. *)
From Verif Require Import Base Maps Queue_Spec Queue_Model RateLimit_Spec RateLimit_Model RateLimit_Proofs.
Local Open Scope N_scope.

(** C03.  After every realistic history of calls, an (identifier, command name) pair is
    reported blocked at a time exactly when the specification's book says so: an account
    is blocked from the moment its executions' time inside the window exceeded the
    threshold until that moment plus the block duration. *)
Theorem C03_blocked_iff_over_limit :
  forall ops id cm now, realistic ops ->
    is_blocked (bq_limiter (bq_run bq_init ops)) id cm now = true <->
    book_blocked (book_run book0 ops) id cm now.
Proof. intros; apply blocked_iff_book; assumption. Qed.
Print Assumptions C03_blocked_iff_over_limit.

(** C03.  A push is refused with the 503 exception exactly when the command's identifier or
    name is blocked by the book; a refused push leaves the queue alone, and an accepted
    one is the ordinary queue push.  (The queue's own content plays no role.) *)
Theorem C03_push_refused_iff_blocked :
  forall ops c now, realistic ops ->
    let b := bq_run bq_init ops in
    let r := bq_push b c now in
    (book_blocked (book_run book0 ops) (c_ident c) (c_method c) now ->
       snd r = Some (lit "503 Blocking queue rate limited (time)") /\ fst r = b) /\
    (~ book_blocked (book_run book0 ops) (c_ident c) (c_method c) now ->
       snd r = None /\ bq_limiter (fst r) = bq_limiter b /\
       bq_base (fst r) = q_push (bq_base b) c (c_scheduled c) (c_timeout c)).
Proof.
  intros ops c now HR b r. pose proof (blocked_iff_book ops (c_ident c) (c_method c) now HR) as HB.
  subst r. unfold bq_push. fold b in HB. destruct (is_blocked _ _ _ _); split; intros H.
  - split; reflexivity.
  - exfalso; apply H, HB; reflexivity.
  - apply HB in H; discriminate.
  - repeat split; reflexivity.
Qed.
Print Assumptions C03_push_refused_iff_blocked.

(** C03.  A get hands out the command the ordinary queue would, at the same time and
    leaving the same queue; the command is marked complete with the 503 response exactly
    when it is blocked by the book, and is otherwise untouched. *)
Theorem C03_get_marks_exactly_blocked :
  forall ops now, realistic ops ->
    let b := bq_run bq_init ops in
    let r := bq_dequeue b now in
    bq_limiter (fst r) = bq_limiter b /\
    bq_base (fst r) = fst (q_dequeue (bq_base b) now) /\
    match snd (q_dequeue (bq_base b) now) with
    | None => snd r = None
    | Some c =>
        (book_blocked (book_run book0 ops) (c_ident c) (c_method c) now ->
           exists c', snd r = Some c' /\ c_complete c' = true /\
                      c_response c' = lit "503 Blocking queue rate limited (time)" /\
                      c_uid c' = c_uid c /\ c_ident c' = c_ident c /\ c_method c' = c_method c) /\
        (~ book_blocked (book_run book0 ops) (c_ident c) (c_method c) now -> snd r = Some c)
    end.
Proof.
  intros ops now HR b r. subst r. unfold bq_dequeue.
  destruct (q_dequeue (bq_base b) now) as [q [c|]]; cbn [fst snd bq_limiter bq_base];
    (split; [reflexivity|split; [reflexivity|]]); [|reflexivity].
  pose proof (blocked_iff_book ops (c_ident c) (c_method c) now HR) as HB. fold b in HB.
  destruct (is_blocked _ _ _ _); split; intros H.
  - eexists; repeat split; reflexivity.
  - exfalso; apply H, HB; reflexivity.
  - apply HB in H; discriminate.
  - reflexivity.
Qed.
Print Assumptions C03_get_marks_exactly_blocked.

(** C03.  A block lasts exactly the block duration in force when it tripped: whatever
    happens before it ends (further hits, pushes, gets, changed settings; not an explicit
    clear), the identifier is blocked at [now] iff [now < t + duration]. *)
Theorem C03_identifier_block_lasts_exactly :
  forall ops t id cm e rest now,
    let b := bq_run bq_init ops in
    let d := l_blockDuration (bq_limiter b) in
    t + d < 18446744073709551616 ->
    is_blocked (bq_limiter b) id [] t = false ->
    is_blocked (bq_limiter (bq_run b [Brecord t id cm e])) id [] t = true ->   (* this record trips it *)
    Forall (before (t + d)) rest ->
    is_blocked (bq_limiter (bq_run b (Brecord t id cm e :: rest))) id [] now = true <-> now < t + d.
Proof.
  intros ops t id cm e rest now b d Hov H0 H1 HF. rewrite run_cons.
  assert (HD : id_deadline (bq_step b (Brecord t id cm e)) id = Some (t + d)).
  { unfold is_blocked in *. cbn in H0, H1. rewrite orb_false_r in *.
    unfold id_deadline; cbn. fold d in H1 |- *. unfold record_and_check in *.
    destruct id as [|c0 id']; [discriminate|]. cbn [is_blocked1] in *. unfold get_or_create in *.
    set (k := c0 :: id') in *. cbn [orb] in *. destruct (N.eqb_spec (l_idThreshold (bq_limiter b)) 0).
    { rewrite H0 in H1. discriminate. }
    set (s := match aget bytes_eqb k _ with Some s => s | None => istate0 end) in *.
    assert (Hs : N.ltb t (is_blockedUntil s) = false).
    { subst s. destruct (aget bytes_eqb k _); [exact H0|]. cbn. apply N.ltb_ge. lia. }
    rewrite Hs in *. rewrite (aget_aset_same _ bytes_eqb_spec) in *. cbn in *.
    destruct (N.ltb (l_idThreshold _) _); [|congruence]. unfold wadd. rewrite N.mod_small by assumption. reflexivity. }
  pose proof (deadline_kept_id id (t + d) rest _ HD HF) as HK.
  unfold is_blocked. cbn [is_blocked1]. rewrite orb_false_r.
  destruct id as [|c0 id']; [discriminate|]. unfold id_deadline in HK. cbn [is_blocked1].
  destruct (aget _ _ _); [|discriminate]. cbn in HK. injection HK as ->. apply N.ltb_lt.
Qed.
Print Assumptions C03_identifier_block_lasts_exactly.

Theorem C03_command_block_lasts_exactly :
  forall ops t id cm e rest now,
    let b := bq_run bq_init ops in
    let d := l_blockDuration (bq_limiter b) in
    t + d < 18446744073709551616 ->
    is_blocked (bq_limiter b) [] cm t = false ->
    is_blocked (bq_limiter (bq_run b [Brecord t id cm e])) [] cm t = true ->
    Forall (before (t + d)) rest ->
    is_blocked (bq_limiter (bq_run b (Brecord t id cm e :: rest))) [] cm now = true <-> now < t + d.
Proof.
  intros ops t id cm e rest now b d Hov H0 H1 HF. rewrite run_cons.
  assert (HD : cmd_deadline (bq_step b (Brecord t id cm e)) cm = Some (t + d)).
  { unfold is_blocked in *. cbn in H0, H1.
    unfold cmd_deadline; cbn. fold d in H1 |- *. unfold record_and_check in *.
    destruct cm as [|c0 id']; [discriminate|]. cbn [is_blocked1] in *. unfold get_or_create in *.
    set (k := c0 :: id') in *. cbn [orb] in *. destruct (N.eqb_spec (l_cmdThreshold (bq_limiter b)) 0).
    { rewrite H0 in H1. discriminate. }
    set (s := match aget bytes_eqb k (l_cmds _) with Some s => s | None => istate0 end) in *.
    assert (Hs : N.ltb t (is_blockedUntil s) = false).
    { subst s. destruct (aget bytes_eqb k _); [exact H0|]. cbn. apply N.ltb_ge. lia. }
    rewrite Hs in *. rewrite (aget_aset_same _ bytes_eqb_spec) in *. cbn in *.
    destruct (N.ltb (l_cmdThreshold _) _); [|congruence]. unfold wadd. rewrite N.mod_small by assumption. reflexivity. }
  pose proof (deadline_kept_cmd cm (t + d) rest _ HD HF) as HK.
  unfold is_blocked. cbn [is_blocked1 orb].
  destruct cm as [|c0 id']; [discriminate|]. unfold cmd_deadline in HK. cbn [is_blocked1].
  destruct (aget _ _ _); [|discriminate]. cbn in HK. injection HK as ->. apply N.ltb_lt.
Qed.
Print Assumptions C03_command_block_lasts_exactly.

(** C04.  Isolation, for every history and with no assumption on clocks or sizes: whether an
    identifier is blocked depends only on the settings and on the executions recorded for
    that identifier; deleting every other call from the history changes nothing.  Likewise
    for command names. *)
Theorem C04_identifier_isolated :
  forall ops id now,
    is_blocked (bq_limiter (bq_run bq_init ops)) id [] now =
    is_blocked (bq_limiter (bq_run bq_init (filter (concerns_id id) ops))) id [] now.
Proof.
  intros. unfold is_blocked. f_equal. unfold is_blocked1. destruct id; [reflexivity|].
  rewrite (isolation_id _ ops bq_init bq_init); [reflexivity|repeat split|reflexivity].
Qed.
Print Assumptions C04_identifier_isolated.

Theorem C04_command_isolated :
  forall ops cm now,
    is_blocked (bq_limiter (bq_run bq_init ops)) [] cm now =
    is_blocked (bq_limiter (bq_run bq_init (filter (concerns_cmd cm) ops))) [] cm now.
Proof.
  intros. unfold is_blocked. f_equal. unfold is_blocked1. destruct cm; [reflexivity|].
  rewrite (isolation_cmd _ ops bq_init bq_init); [reflexivity|repeat split|reflexivity].
Qed.
Print Assumptions C04_command_isolated.

(** The pair is blocked iff one of its two dimensions is; together with the two theorems
    above, a pair's fate depends only on its own identifier and command name. *)
Theorem C04_blocked_is_union :
  forall l id cm now, is_blocked l id cm now = is_blocked l id [] now || is_blocked l [] cm now.
Proof. intros. unfold is_blocked. cbn. rewrite orb_false_r. reflexivity. Qed.
Print Assumptions C04_blocked_is_union.

(** Commands without an identifier are never blocked by the identifier limit, and a
    dimension switched off from the start never blocks anybody. *)
Theorem C04_empty_never_blocked :
  forall ops now, is_blocked (bq_limiter (bq_run bq_init ops)) [] [] now = false.
Proof. reflexivity. Qed.
Print Assumptions C04_empty_never_blocked.

Definition no_idThreshold_change (o : bop) : Prop := match o with BsetIdThreshold v => v = 0 | _ => True end.
Theorem C04_disabled_never_blocks :
  forall ops id now, Forall no_idThreshold_change ops ->
    is_blocked (bq_limiter (bq_run bq_init (BsetIdThreshold 0 :: ops))) id [] now = false.
Proof.
  intros ops id now HF. rewrite run_cons.
  assert (H : forall b, l_ids (bq_limiter b) = [] -> l_idThreshold (bq_limiter b) = 0 ->
              l_ids (bq_limiter (bq_run b ops)) = []).
  { induction ops as [|o ops IH]; intros b H1 H2; [exact H1|]. inversion HF; subst. rewrite run_cons.
    apply IH; [assumption| |]; destruct o; cbn [bq_step]; rewrite ?bq_push_limiter, ?bq_dequeue_limiter; cbn; try assumption; try reflexivity.
    - rewrite H2. unfold record_and_check. cbn. rewrite orb_true_r. exact H1. }
  unfold is_blocked, is_blocked1. rewrite H by reflexivity. destruct id; reflexivity.
Qed.
Print Assumptions C04_disabled_never_blocks.

(** ** Cases meeting the hypotheses. *)
Definition rl_hist : list bop :=
  [ Brecord 1000000 (lit "alice") (lit "Slow") 15000000; BsetWindow 100000000;
    Bpush 2000000 (mkCmd 1 (lit "alice") (lit "Slow") 0 9 [] false);
    Brecord 30000000 (lit "alice") (lit "Other") 6000000; BsetBlockDuration 7000000;
    Brecord 31000000 (lit "bob") (lit "Slow") 3000000 ].

Example rl_hist_realistic : realistic rl_hist.
Proof.
  repeat split; cbn; try (intro; discriminate); try reflexivity.
  repeat constructor.
Qed.
Example rl_hist_alice_blocked :
  is_blocked (bq_limiter (bq_run bq_init rl_hist)) (lit "alice") [] 89999999 = true /\
  is_blocked (bq_limiter (bq_run bq_init rl_hist)) (lit "alice") [] 90000000 = false /\
  is_blocked (bq_limiter (bq_run bq_init rl_hist)) (lit "bob") (lit "Slow") 40000000 = false.
Proof. vm_compute. repeat split. Qed.
(** The trip hypotheses of the "lasts exactly" theorems are met. *)
Example rl_trip :
  let b := bq_run bq_init [Brecord 1000000 (lit "alice") (lit "Slow") 15000000] in
  is_blocked (bq_limiter b) (lit "alice") [] 30000000 = false /\
  is_blocked (bq_limiter (bq_run b [Brecord 30000000 (lit "alice") (lit "Other") 6000000])) (lit "alice") [] 30000000 = true /\
  is_blocked (bq_limiter b) [] (lit "Slow") 30000000 = false /\
  is_blocked (bq_limiter (bq_run b [Brecord 30000000 (lit "alice") (lit "Slow") 26000000])) [] (lit "Slow") 30000000 = true /\
  Forall (before (30000000 + 60000000)) [Brecord 50000000 (lit "alice") (lit "Slow") 1; BsetBlockDuration 5; BsetWindow 3].
Proof. do 4 (split; [vm_compute; reflexivity|]). repeat constructor. Qed.

(** ** Limits of C03 *)
(** Without the "window is not enlarged" assumption the exact claim is
    false: an execution dropped under a small window is not counted again after the window
    is widened. *)
Theorem C03_window_enlarged_refuted :
  exists ops id now,
    clock_ok 0 ops /\ sizes_ok ops /\ total_recorded ops < 18446744073709551616 /\
    book_blocked (book_run book0 ops) id [] now /\
    is_blocked (bq_limiter (bq_run bq_init ops)) id [] now = false.
Proof.
  exists [ Brecord 10 (lit "a") [] 15000000; BsetWindow 5; Brecord 20 (lit "a") [] 1;
           BsetWindow 180000000; Brecord 30 (lit "a") [] 6000000 ], (lit "a"), 31.
  split; [cbn; lia|]. split; [repeat constructor|]. split; [reflexivity|]. split; [|vm_compute; reflexivity].
  left. vm_compute. reflexivity.
Qed.
Print Assumptions C03_window_enlarged_refuted.

(** With a block duration close to 2^64 the deadline wraps and the block never takes effect. *)
Theorem C03_huge_duration_refuted :
  exists ops id now, clock_ok 0 ops /\
    book_blocked (book_run book0 ops) id [] now /\
    is_blocked (bq_limiter (bq_run bq_init ops)) id [] now = false.
Proof.
  exists [ BsetBlockDuration 18446744073709551615; Brecord 100000000 (lit "a") [] 25000000 ], (lit "a"), 100000001.
  split; [cbn; lia|]. split; [|vm_compute; reflexivity]. left. vm_compute. reflexivity.
Qed.
Print Assumptions C03_huge_duration_refuted.
