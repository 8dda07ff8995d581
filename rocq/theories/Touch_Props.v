(** C77: the report about the pages of the database in memory is right, and which pages are loaded. *)
From Coq Require Import Permutation.
From Verif Require Import Base Touch_Spec Touch_Model.
Open Scope nat_scope.

(** The number of pages is the smallest that the file fits into. *)
Theorem C77_pages : forall pagesize bytes, 0 < pagesize ->
  bytes <= bytes2pages pagesize bytes * pagesize /\ forall n, bytes <= n * pagesize -> bytes2pages pagesize bytes <= n.
Proof.
  intros p b P. unfold bytes2pages. pose proof (Nat.div_mod b p ltac:(lia)) as D. pose proof (Nat.mod_upper_bound b p ltac:(lia)) as U.
  set (q := b / p) in *. set (r := b mod p) in *. destruct (Nat.eqb_spec r 0) as [Z|Z]; (split; [nia|intros n N]); nia.
Qed.
Print Assumptions C77_pages.

Section Props.
  Variable pagesize threads : nat.
  Hypothesis T : 0 < threads.

  Lemma enough pages : pages <= per_thread threads pages * threads.
  Proof.
    unfold per_thread. pose proof (Nat.div_mod pages threads ltac:(lia)) as D. pose proof (Nat.mod_upper_bound pages threads ltac:(lia)) as U. nia.
  Qed.
  (** The ranges of the first [n] threads, one after the other *)
  Lemma ranges pages limit n : concat (map (range threads pages limit) (seq 0 n)) = seq 0 (Nat.min (per_thread threads pages * n) limit).
  Proof.
    induction n as [|n IH].
    - cbn [seq map concat]. rewrite Nat.mul_0_r. reflexivity.
    - rewrite seq_S, map_app, concat_app, IH. cbn [map concat plus]. rewrite app_nil_r. unfold range. set (w := per_thread threads pages).
      destruct (Nat.le_gt_cases limit (w * n)) as [L|L].
      + replace (Nat.min (w * n + w) limit - w * n) with 0 by lia. cbn [seq]. rewrite app_nil_r. f_equal. nia.
      + replace (Nat.min (w * n) limit) with (w * n) by lia.
        replace (Nat.min (w * S n) limit) with (w * n + (Nat.min (w * n + w) limit - w * n)) by nia. rewrite seq_app. reflexivity.
  Qed.
  Lemma all_ranges pages limit : limit <= pages -> concat (map (range threads pages limit) (seq 0 threads)) = seq 0 limit.
  Proof. intros L. rewrite ranges. f_equal. pose proof (enough pages). lia. Qed.

  Lemma fold_sum f : forall (l : list nat) a, fold_left (fun t i => t + f i) l a = a + list_sum (map f l).
  Proof. induction l as [|i l IH]; intros a; [cbn; lia|]. cbn [fold_left map]. rewrite IH. change (list_sum (f i :: map f l)) with (f i + list_sum (map f l)). lia. Qed.
  Lemma sum_permutation (a b : list nat) : Permutation a b -> list_sum a = list_sum b.
  Proof. induction 1; cbn [list_sum fold_right] in *; unfold list_sum in *; cbn [fold_right] in *; lia. Qed.
  Lemma filter_concat (f : nat -> bool) (l : list (list nat)) : filter f (concat l) = concat (map (filter f) l).
  Proof. induction l as [|x l IH]; [reflexivity|]. cbn [concat map]. rewrite filter_app, IH. reflexivity. Qed.
  Lemma length_concat' (l : list (list nat)) : length (concat l) = list_sum (map (@length nat) l).
  Proof. induction l as [|x l IH]; [reflexivity|]. cbn [concat map]. rewrite app_length, IH. reflexivity. Qed.

  (** Every page is counted exactly once, however the pages divide and in whatever order the threads finish. *)
  Theorem C77_count : forall resident pages order, Permutation order (seq 0 threads) ->
    count threads resident pages order = length (pages_with resident pages).
  Proof.
    intros r n o P. unfold count. rewrite fold_sum. cbn [plus]. rewrite (sum_permutation _ _ (Permutation_map _ P)). unfold pages_with.
    rewrite <- (all_ranges n n) by lia. rewrite filter_concat, length_concat', !map_map. reflexivity.
  Qed.

  (** The pages that are read are those not in memory except the last page of the file, each by one thread and once; all are in the file. *)
  Theorem C77_touch : forall resident pages, concat (touches threads resident pages) = pages_with (fun j => negb (resident j)) (pages - 1).
  Proof.
    intros r n. unfold touches, thread_touches, pages_with. rewrite <- (all_ranges n (n - 1)) by lia. rewrite filter_concat, map_map. reflexivity.
  Qed.
  Theorem C77_in_file : forall resident bytes j, 0 < pagesize -> In j (concat (touches threads resident (bytes2pages pagesize bytes))) -> j * pagesize < bytes.
  Proof.
    intros r b j P I. rewrite C77_touch in I. apply filter_In in I as [I _]. apply in_seq in I. destruct (C77_pages pagesize b P) as [_ L].
    destruct (Nat.lt_ge_cases (j * pagesize) b) as [|G]; [assumption|]. specialize (L j G). lia.
  Qed.

  (** When the file can be read and memory can be had, what is reported is the number of pages in memory, of those the file has. *)
  Theorem C77_report : forall s touch before after order, Permutation order (seq 0 threads) ->
    readable s = true -> aligned s = true -> alloc_ok s = true -> lookup_ok s = true -> lookup2_ok s = true ->
    fst (check pagesize threads s touch before after order) = Report (length (pages_with (if touch then after else before) (bytes2pages pagesize (size s)))).
  Proof.
    intros s t b a o P RD A1 A2 A3 A4. unfold readable, can_open in RD. rewrite !Bool.andb_true_iff in RD. destruct RD as [[[[O S1] B] Z] M].
    unfold check. rewrite O, S1, M, A1, A2, A3, A4. apply Bool.negb_true_iff in Z. rewrite Z.
    replace (block_device s && negb (ioctl_ok s)) with false by (destruct (block_device s), (ioctl_ok s); cbn in B |- *; congruence).
    replace (Nat.eqb threads 0) with false by (symmetry; apply Nat.eqb_neq; lia). rewrite Bool.andb_false_r. cbn [negb orb fst].
    rewrite C77_count by exact P. reflexivity.
  Qed.
  (** A file that cannot be read is skipped and nothing stays open. *)
  Theorem C77_skipped : forall s touch before after order, readable s = false ->
    let (o, l) := check pagesize threads s touch before after order in o = Skipped /\ released l.
  Proof.
    intros s t b a o RD. unfold readable, can_open in RD. unfold check, released, times.
    destruct (open_first s || open_denied s && open_second s), (stat_ok s), (block_device s), (ioctl_ok s), (Nat.eqb (size s) 0), (map_ok s); cbn in RD |- *; try discriminate; auto.
  Qed.
  (** After loading, when no page leaves the memory, all pages of the file or all but one are reported. *)
  Theorem C77_loaded : forall s before after order, Permutation order (seq 0 threads) ->
    readable s = true -> aligned s = true -> alloc_ok s = true -> lookup_ok s = true -> lookup2_ok s = true ->
    let pages := bytes2pages pagesize (size s) in
    (forall j, before j = true -> after j = true) -> (forall j, In j (concat (touches threads before pages)) -> after j = true) ->
    exists n, fst (check pagesize threads s true before after order) = Report n /\ pages - 1 <= n <= pages /\ (before (pages - 1) = true -> n = pages).
  Proof.
    intros s b a o P RD A1 A2 A3 A4 pages K L. rewrite (C77_report s true b a o P RD A1 A2 A3 A4). fold pages. eexists. split; [reflexivity|].
    assert (F : forall j, j < pages - 1 -> a j = true).
    { intros j J. destruct (b j) eqn:B; [exact (K j B)|]. apply L. rewrite C77_touch. apply filter_In. split; [apply in_seq; lia|rewrite B; reflexivity]. }
    assert (W : length (pages_with a (pages - 1)) = pages - 1).
    { unfold pages_with. transitivity (length (seq 0 (pages - 1))); [|apply seq_length]. f_equal.
      assert (G : forall l, (forall j, In j l -> a j = true) -> filter a l = l).
      { induction l as [|x l IH]; intros H; [reflexivity|]. cbn [filter]. rewrite (H x (or_introl eq_refl)), IH; [reflexivity|]. intros j J. apply H. right. exact J. }
      apply G. intros j J. apply in_seq in J. apply F. lia. }
    destruct pages as [|n] eqn:EP.
    - cbn. split; [lia|reflexivity].
    - replace (S n - 1) with n in * by lia. unfold pages_with in *. rewrite seq_S, filter_app, app_length, W. cbn [plus filter length].
      destruct (a n) eqn:AN; cbn [length]; split; try lia. intros B. apply K in B. congruence.
  Qed.
End Props.
Print Assumptions C77_count.
Print Assumptions C77_touch.
Print Assumptions C77_in_file.
Print Assumptions C77_report.
Print Assumptions C77_skipped.
Print Assumptions C77_loaded.

Definition a_file (n : nat) : system := System true false false true false true n true true true true true.
(** Ten pages, of which some are in memory, and four threads of which the last has one page to look at *)
Example C77_met : readable (a_file 37) = true /\
  check 4 4 (a_file 37) false (fun j => Nat.even j) (fun _ => true) [2; 0; 3; 1] = (Report 5, [Opened; Mapped]) /\
  touches 4 (fun j => Nat.even j) 10 = [[1]; [3; 5]; [7]; []] /\ Permutation [2; 0; 3; 1] (seq 0 4).
Proof.
  split; [reflexivity|]. split; [reflexivity|]. split; [reflexivity|]. cbn. apply (Permutation_trans (l' := [0; 2; 3; 1])); [apply perm_swap|]. apply perm_skip.
  apply (Permutation_trans (l' := [2; 1; 3])); [apply perm_skip, perm_swap|]. apply perm_swap.
Qed.
Example C77_skipped_met : readable (a_file 0) = false /\ check 4 4 (a_file 0) true (fun _ => false) (fun _ => true) [0; 1; 2; 3] = (Skipped, [Opened; Closed]).
Proof. split; reflexivity. Qed.

(** The last page of the file is not loaded, whatever the file; of a file with one page nothing is. *)
Theorem C77_last_page_refuted : forall threads resident pages, 0 < threads -> ~ In (pages - 1) (concat (touches threads resident pages)).
Proof. intros t r n T I. rewrite C77_touch in I by exact T. apply filter_In in I as [I _]. apply in_seq in I. lia. Qed.
Print Assumptions C77_last_page_refuted.

(** When all goes well the file is neither unmapped nor closed. *)
Theorem C77_released_refuted : forall threads touch before after order n l, check 4 threads (a_file 37) touch before after order = (Report n, l) -> ~ released l.
Proof.
  intros t tc b a o n l E. unfold check in E. cbn [a_file open_first open_denied open_second stat_ok block_device ioctl_ok size map_ok aligned alloc_ok lookup_ok lookup2_ok negb orb andb Nat.eqb] in E.
  rewrite Bool.andb_false_r in E. destruct (Nat.eqb t 0); [discriminate|]. assert (L : l = [Opened; Mapped]) by congruence. subst l. intros [X _]. discriminate.
Qed.
Print Assumptions C77_released_refuted.

(** When the file cannot be mapped, the address that says so is given back as if it were a mapping. *)
Theorem C77_map_failed_refuted : snd (check 4 4 (System true false false true false true 37 false true true true true) false (fun _ => true) (fun _ => true) [0; 1; 2; 3]) =
  [Opened; Unmapped_nothing; Closed].
Proof. reflexivity. Qed.
Print Assumptions C77_map_failed_refuted.

(** Where the number of processors is not known (0, which the standard allows) the pages are divided by zero. *)
Theorem C77_no_threads_refuted : fst (check 4 0 (a_file 37) false (fun _ => true) (fun _ => true) []) = Undefined.
Proof. reflexivity. Qed.
Print Assumptions C77_no_threads_refuted.
