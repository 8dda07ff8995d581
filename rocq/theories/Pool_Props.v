(** C20: the database handle pool, for every pool size, every number of threads and every
    interleaving. *)
From Verif Require Import Base Pool_Model.
Require Import Permutation.

Lemma set_insert_in i l x : In x (set_insert i l) <-> x = i \/ In x l.
Proof.
  induction l as [|y l IH]; cbn [set_insert In]; [intuition congruence|].
  destruct (Nat.ltb i y); [cbn; intuition congruence|]. destruct (Nat.eqb_spec i y) as [->|]; cbn; [intuition congruence|].
  rewrite IH. intuition congruence.
Qed.
Lemma set_insert_length i l : ~ In i l -> List.length (set_insert i l) = S (List.length l).
Proof.
  induction l as [|y l IH]; cbn [set_insert In List.length]; intros H; [reflexivity|].
  destruct (Nat.ltb i y); [reflexivity|]. destruct (Nat.eqb_spec i y) as [->|]; [exfalso; auto|]. cbn. rewrite IH; auto.
Qed.
(** The sets are only used through membership and size, so we keep them duplicate free with
    an explicit order. *)
Fixpoint sorted (l : list nat) : Prop :=
  match l with [] => True | x :: l' => (forall y, In y l' -> x < y) /\ sorted l' end.
Lemma sorted_nodup l : sorted l -> NoDup l.
Proof.
  induction l as [|x l IH]; intros H; [constructor|]. destruct H as [H1 H2]. constructor; [|auto].
  intros Hi. specialize (H1 x Hi). lia.
Qed.
Lemma set_insert_sorted i l : sorted l -> sorted (set_insert i l).
Proof.
  induction l as [|y l IH]; cbn [set_insert sorted]; intros H; [split; [easy|constructor]|]. destruct H as [H1 H2].
  destruct (Nat.ltb_spec i y).
  - cbn. split; [|auto]. intros z [->|Hz]; [lia|]. specialize (H1 z Hz). lia.
  - destruct (Nat.eqb_spec i y); [cbn; auto|]. cbn. split; [|auto].
    intros z Hz. apply set_insert_in in Hz as [->|Hz]; [lia|auto].
Qed.
Lemma set_erase_in i l x : In x (set_erase i l) <-> x <> i /\ In x l.
Proof.
  unfold set_erase. rewrite filter_In. destruct (Nat.eqb_spec x i); cbn; intuition discriminate.
Qed.
Lemma set_erase_sorted i l : sorted l -> sorted (set_erase i l).
Proof.
  induction l as [|y l IH]; cbn; intros H; [exact I|]. destruct H as [H1 H2].
  destruct (Nat.eqb_spec y i); cbn; [auto|]. split; [|auto]. intros z Hz. apply set_erase_in in Hz as [_ Hz]. auto.
Qed.
Lemma set_erase_length i l : sorted l -> In i l -> S (List.length (set_erase i l)) = List.length l.
Proof.
  induction l as [|y l IH]; cbn; intros H Hi; [contradiction|]. destruct H as [H1 H2].
  destruct (Nat.eqb_spec y i) as [->|Hne]; cbn.
  - f_equal. assert (E : set_erase i l = l); [|exact (f_equal _ E)].
    clear - H1. induction l as [|z l IHl]; [reflexivity|]. cbn. specialize (H1 z (or_introl eq_refl)) as Hz.
    destruct (Nat.eqb_spec z i); [lia|]. cbn. f_equal. apply IHl. intros y Hy. apply H1. right. exact Hy.
  - f_equal. apply IH; [exact H2|]. destruct Hi; [contradiction|assumption].
Qed.

(** Indices held by handles that have not been released. *)
Definition held (s : pool) : list nat := map fst (filter (fun h => negb (snd h)) (p_handles s)).

Lemma held_app (l : list (nat * bool)) i :
  map fst (filter (fun h => negb (snd h)) (l ++ [(i, false)])) = map fst (filter (fun h => negb (snd h)) l) ++ [i].
Proof. rewrite filter_app, map_app. reflexivity. Qed.

Lemma held_release l : forall h i, nth_error l h = Some (i, false) ->
  exists a b, map fst (filter (fun h => negb (snd h)) l) = a ++ i :: b /\
              map fst (filter (fun h => negb (snd h)) (set_released h l)) = a ++ b.
Proof.
  induction l as [|[j r] l IH]; intros [|h] i Hn; cbn in Hn; try discriminate.
  - injection Hn as -> ->. cbn. exists [], (map fst (filter (fun h => negb (snd h)) l)). split; reflexivity.
  - destruct (IH h i Hn) as (a & b & E1 & E2). cbn. destruct r; cbn.
    + exists a, b. auto.
    + exists (j :: a), b. cbn. rewrite E1, E2. auto.
Qed.

Section P.
Variable maxDBs : nat.

Record PInv (s : pool) : Prop := {
  pi_sa : sorted (p_avail s); pi_su : sorted (p_inuse s);
  pi_nd : NoDup (held s);
  pi_held : forall i, In i (p_inuse s) <-> In i (held s);
  pi_disj : forall i, In i (p_avail s) -> In i (p_inuse s) -> False;
  pi_range : forall i, i < List.length (p_avail s) + List.length (p_inuse s) <-> In i (p_avail s) \/ In i (p_inuse s);
  pi_max : List.length (p_avail s) + List.length (p_inuse s) <= max_dbs maxDBs - 1;
  pi_wake : p_waiting s <> [] -> List.length (p_avail s) <= p_notify s + List.length (p_woken s);
  pi_wait : p_waiting s <> [] -> List.length (p_avail s) + List.length (p_inuse s) = max_dbs maxDBs - 1
}.

Lemma PInv_init : PInv pool_init.
Proof. constructor; cbn; try tauto; try lia; try constructor; intros; lia. Qed.

Lemma grant_inv s i a u w k n : PInv s -> get_index maxDBs (p_avail s) (p_inuse s) = Some (i, a, u) ->
  (w <> [] -> p_waiting s <> []) ->
  (w <> [] -> List.length a <= n + List.length k) ->
  PInv (mkPool a u w k n (p_handles s ++ [(i, false)])) /\ ~ In i (held s).
Proof.
  intros H G Hw Hn. unfold get_index in G. pose proof (sorted_nodup _ (pi_sa _ H)) as NDa.
  pose proof (pi_sa _ H) as SA. pose proof (pi_su _ H) as SU.
  destruct (p_avail s) as [|x rest] eqn:Ea.
  - cbn [List.length] in G. destruct (Nat.ltb_spec (0 + List.length (p_inuse s)) (max_dbs maxDBs - 1)) as [Hl|]; [|discriminate].
    injection G as <- <- <-.
    assert (Hni : ~ In (0 + List.length (p_inuse s)) (p_inuse s)).
    { intros Hi. pose proof (proj2 (pi_range _ H (0 + List.length (p_inuse s))) (or_intror Hi)) as R.
      rewrite Ea in R. cbn in R. lia. }
    split; [|rewrite <- (pi_held _ H); exact Hni].
    constructor; cbn [p_avail p_inuse p_waiting p_woken p_notify p_handles].
    + exact I.
    + apply set_insert_sorted. exact SU.
    + unfold held. cbn. rewrite held_app. apply (Permutation_NoDup (Permutation_cons_append _ _)). constructor; [|exact (pi_nd _ H)].
      rewrite <- (pi_held _ H). exact Hni.
    + intros j. rewrite set_insert_in. unfold held. cbn [p_handles]. rewrite held_app, in_app_iff. cbn.
      rewrite (pi_held _ H j). unfold held. intuition.
    + cbn. tauto.
    + intros j. rewrite set_insert_length by exact Hni. rewrite set_insert_in. cbn [List.length In].
      pose proof (pi_range _ H j) as R. rewrite Ea in R. cbn in R. cbn. split; intros Hj.
      * destruct (Nat.eq_dec j (List.length (p_inuse s))); [auto|]. right. right. assert (L : j < List.length (p_inuse s)) by lia. apply R in L. tauto.
      * destruct Hj as [[]|[->|Hj]]; [lia|]. assert (j < List.length (p_inuse s)) by (apply (proj2 R); auto). lia.
    + rewrite set_insert_length by exact Hni. cbn in *. lia.
    + cbn. lia.
    + intros Hwn. exfalso. pose proof (pi_wait _ H (Hw Hwn)) as E. rewrite Ea in E. cbn in *. lia.
  - injection G as <- <- <-. destruct SA as [SA1 SA2].
    assert (Hni : ~ In x (p_inuse s)). { intros Hi. apply (pi_disj _ H x); [rewrite Ea; left; reflexivity|exact Hi]. }
    split; [|rewrite <- (pi_held _ H); exact Hni].
    constructor; cbn [p_avail p_inuse p_waiting p_woken p_notify p_handles].
    + exact SA2.
    + apply set_insert_sorted. exact SU.
    + unfold held. cbn. rewrite held_app. apply (Permutation_NoDup (Permutation_cons_append _ _)). constructor; [|exact (pi_nd _ H)].
      rewrite <- (pi_held _ H). exact Hni.
    + intros j. rewrite set_insert_in. unfold held. cbn [p_handles]. rewrite held_app, in_app_iff. cbn.
      rewrite (pi_held _ H j). unfold held. intuition.
    + intros j Hj Hu. apply set_insert_in in Hu as [->|Hu]; [specialize (SA1 x Hj); lia|].
      apply (pi_disj _ H j); [rewrite Ea; right; exact Hj|exact Hu].
    + intros j. rewrite set_insert_length by exact Hni. rewrite set_insert_in.
      pose proof (pi_range _ H j) as R. rewrite Ea in R. cbn in R.
      replace (List.length rest + S (List.length (p_inuse s))) with (S (List.length rest + List.length (p_inuse s))) by lia.
      rewrite R. intuition.
    + rewrite set_insert_length by exact Hni. pose proof (pi_max _ H) as M. rewrite Ea in M. cbn in M. lia.
    + exact Hn.
    + intros Hwn. rewrite set_insert_length by exact Hni. pose proof (pi_wait _ H (Hw Hwn)) as E. rewrite Ea in E. cbn in E. lia.
Qed.

Lemma get_none s : PInv s -> get_index maxDBs (p_avail s) (p_inuse s) = None ->
  p_avail s = [] /\ List.length (p_avail s) + List.length (p_inuse s) = max_dbs maxDBs - 1.
Proof.
  intros H G. unfold get_index in G. pose proof (pi_max _ H). destruct (p_avail s) as [|x r]; [|discriminate].
  split; [reflexivity|]. destruct (Nat.ltb_spec (List.length (@nil nat) + List.length (p_inuse s)) (max_dbs maxDBs - 1)); [discriminate|lia].
Qed.

Lemma drop1_length t l : mem t l = true -> S (List.length (drop1 t l)) = List.length l.
Proof.
  unfold mem. induction l as [|x l IH]; cbn; intros H; [discriminate|].
  rewrite Nat.eqb_sym in H. destruct (Nat.eqb x t); cbn; [reflexivity|]. cbn in H. rewrite IH; auto.
Qed.
Lemma get_index_avail a u i a' u' : get_index maxDBs a u = Some (i, a', u') -> List.length a' = List.length a - 1.
Proof.
  unfold get_index. destruct a as [|x r]; [destruct (Nat.ltb (List.length (@nil nat) + List.length u) (max_dbs maxDBs - 1)); [|discriminate]|];
    intros [= <- <- <-]; cbn; lia.
Qed.
Lemma mem_nonempty t l : mem t l = true -> l <> [].
Proof. destruct l; [discriminate|discriminate]. Qed.

Lemma PInv_step s e s' : PInv s -> pstep maxDBs s e = Some s' -> PInv s'.
Proof.
  intros H Hst. destruct e as [t|t|t|h|t]; cbn [pstep] in Hst.
  - destruct (_ || _); [discriminate|]. destruct (get_index maxDBs (p_avail s) (p_inuse s)) as [[[i a] u]|] eqn:G.
    + injection Hst as <-. apply grant_inv; auto. intros Hw. rewrite (get_index_avail _ _ _ _ _ G). pose proof (pi_wake _ H Hw). lia.
    + injection Hst as <-. destruct (get_none s H G) as [Ea El]. destruct H as [? ? ? ? ? ? ? ? ?].
      constructor; cbn; auto. intros _. rewrite Ea. cbn. lia.
  - destruct (mem t (p_woken s)) eqn:Em; [|discriminate]. cbn in Hst.
    pose proof (drop1_length _ _ Em) as L.
    destruct (get_index maxDBs (p_avail s) (p_inuse s)) as [[[i a] u]|] eqn:G.
    + injection Hst as <-. apply grant_inv; auto. intros Hw. rewrite (get_index_avail _ _ _ _ _ G). pose proof (pi_wake _ H Hw). lia.
    + injection Hst as <-. destruct (get_none s H G) as [Ea El]. destruct H as [? ? ? ? ? ? ? ? ?].
      constructor; cbn; auto. intros _. rewrite Ea. cbn. lia.
  - destruct (mem t (p_waiting s)) eqn:Em; [|discriminate]. injection Hst as <-.
    pose proof (mem_nonempty _ _ Em) as Hne. destruct H as [? ? ? ? ? ? ? Hw Hm].
    constructor; cbn; auto. intros _. specialize (Hw Hne). lia.
  - destruct (nth_error (p_handles s) h) as [[i [|]]|] eqn:En; [injection Hst as <-; exact H| |discriminate].
    injection Hst as <-.
    destruct (held_release _ _ _ En) as (a & b & E1 & E2).
    assert (Hh : held s = a ++ i :: b) by exact E1.
    pose proof (pi_nd _ H) as ND. rewrite Hh in ND. pose proof (NoDup_remove_1 _ _ _ ND) as ND1. pose proof (NoDup_remove_2 _ _ _ ND) as ND2.
    assert (Hi : In i (p_inuse s)). { apply (pi_held _ H). rewrite Hh. apply in_app_iff. right; left; reflexivity. }
    assert (Hna : ~ In i (p_avail s)). { intros Ha. exact (pi_disj _ H i Ha Hi). }
    pose proof (set_erase_length i _ (pi_su _ H) Hi) as Le. pose proof (set_insert_length i _ Hna) as La.
    constructor; cbn [p_avail p_inuse p_waiting p_woken p_notify p_handles].
    + apply set_insert_sorted. apply H.
    + apply set_erase_sorted. apply H.
    + unfold held. cbn. rewrite E2. exact ND1.
    + intros j. rewrite set_erase_in. unfold held. cbn. rewrite E2, (pi_held _ H j), Hh, !in_app_iff. cbn.
      split.
      * intros [Hne [Hj|[->|Hj]]]; [auto|contradiction|auto].
      * intros Hj. split; [|tauto]. intros ->. apply ND2. apply in_app_iff. exact Hj.
    + intros j Ha Hu. apply set_insert_in in Ha. apply set_erase_in in Hu as [Hne Hu]. destruct Ha as [->|Ha]; [contradiction|].
      exact (pi_disj _ H j Ha Hu).
    + intros j. rewrite La. rewrite set_insert_in, set_erase_in.
      replace (S (List.length (p_avail s)) + List.length (set_erase i (p_inuse s))) with (List.length (p_avail s) + List.length (p_inuse s)) by lia.
      rewrite (pi_range _ H j). destruct (Nat.eq_dec j i) as [->|]; intuition.
    + pose proof (pi_max _ H). lia.
    + intros Hw. pose proof (pi_wake _ H Hw). lia.
    + intros Hw. pose proof (pi_wait _ H Hw). lia.
  - destruct (p_notify s) as [|n] eqn:En; [discriminate|]. destruct t as [t|].
    + destruct (mem t (p_waiting s)) eqn:Em; [|discriminate]. injection Hst as <-.
      pose proof (mem_nonempty _ _ Em) as Hne. destruct H as [? ? ? ? ? ? ? Hw Hm].
      constructor; cbn; auto. intros _. specialize (Hw Hne). lia.
    + destruct (p_waiting s) eqn:Ew; [|discriminate]. injection Hst as <-. destruct H as [? ? ? ? ? ? ? Hw Hm].
      constructor; cbn; auto; contradiction.
Qed.
Lemma PInv_run es : forall s s', PInv s -> prun maxDBs s es = Some s' -> PInv s'.
Proof.
  induction es as [|e es IH]; intros s s' H Hr; cbn in Hr; [congruence|].
  destruct (pstep maxDBs s e) eqn:E; [|discriminate]. eapply IH; [|exact Hr]. eapply PInv_step; eauto.
Qed.
End P.

(** Two handles that have not been released never carry the same index. *)
Theorem C20_exclusive : forall maxDBs es s h1 h2 i,
  prun maxDBs pool_init es = Some s ->
  nth_error (p_handles s) h1 = Some (i, false) -> nth_error (p_handles s) h2 = Some (i, false) -> h1 = h2.
Proof.
  intros maxDBs es s h1 h2 i Hr H1 H2. pose proof (PInv_run maxDBs es _ _ (PInv_init maxDBs) Hr) as H.
  pose proof (pi_nd _ _ H) as ND. unfold held in ND. clear - ND H1 H2.
  revert h1 h2 H1 H2. induction (p_handles s) as [|[j r] l IH]; intros [|h1] [|h2] H1 H2; cbn in *; try discriminate; auto.
  - injection H1 as -> ->. cbn in ND. inversion ND as [|? ? Hn _]. exfalso. apply Hn.
    apply in_map_iff. exists (i, false). split; [reflexivity|]. apply filter_In. split; [eapply nth_error_In; eauto|reflexivity].
  - injection H2 as -> ->. cbn in ND. inversion ND as [|? ? Hn _]. exfalso. apply Hn.
    apply in_map_iff. exists (i, false). split; [reflexivity|]. apply filter_In. split; [eapply nth_error_In; eauto|reflexivity].
  - f_equal. apply (IH); auto. destruct r; cbn in ND; [exact ND|]. inversion ND; assumption.
Qed.
Print Assumptions C20_exclusive.

(** Every index ever handed out stays below the pool size minus one (one slot of the
    configured maximum is never used), so it is within the allocated table, and at most that
    many handles are out at a time. *)
Theorem C20_bounded : forall maxDBs es s,
  prun maxDBs pool_init es = Some s ->
  (forall h i r, nth_error (p_handles s) h = Some (i, r) -> r = false -> i < Nat.max maxDBs 1 - 1) /\
  List.length (filter (fun h => negb (snd h)) (p_handles s)) <= Nat.max maxDBs 1 - 1.
Proof.
  intros maxDBs es s Hr. pose proof (PInv_run maxDBs es _ _ (PInv_init maxDBs) Hr) as H. fold (max_dbs maxDBs).
  assert (Hin : forall i, In i (held s) -> i < List.length (p_avail s) + List.length (p_inuse s)).
  { intros i Hi. apply (pi_range _ _ H). right. apply (pi_held _ _ H). exact Hi. }
  pose proof (pi_max _ _ H) as M. split.
  - intros h i r Hn ->. assert (Hi : In i (held s)).
    { unfold held. apply in_map_iff. exists (i, false). split; [reflexivity|]. apply filter_In. split; [eapply nth_error_In; eauto|reflexivity]. }
    specialize (Hin i Hi). lia.
  - rewrite <- (map_length fst). fold (held s).
    assert (I : incl (held s) (seq 0 (max_dbs maxDBs - 1))).
    { intros i Hi. apply in_seq. specialize (Hin i Hi). lia. }
    pose proof (NoDup_incl_length (pi_nd _ _ H) I) as L. rewrite seq_length in L. exact L.
Qed.
Print Assumptions C20_bounded.

(** A caller is never kept waiting while a handle is free: if fewer handles are out than the
    pool allows, getIndex succeeds at once and the index it returns was held by nobody. *)
Theorem C20_granted_when_free : forall maxDBs es s t,
  prun maxDBs pool_init es = Some s ->
  mem t (p_waiting s) = false -> mem t (p_woken s) = false ->
  List.length (filter (fun h => negb (snd h)) (p_handles s)) < Nat.max maxDBs 1 - 1 ->
  exists s' i, pstep maxDBs s (PGet t) = Some s' /\ p_handles s' = p_handles s ++ [(i, false)] /\
    ~ In (i, false) (p_handles s).
Proof.
  intros maxDBs es s t Hr Hw Hk Hl. pose proof (PInv_run maxDBs es _ _ (PInv_init maxDBs) Hr) as H.
  cbn [pstep]. rewrite Hw, Hk. cbn [orb].
  destruct (get_index maxDBs (p_avail s) (p_inuse s)) as [[[i a] u]|] eqn:G.
  - eexists _, i. split; [reflexivity|]. split; [reflexivity|].
    destruct (grant_inv maxDBs s i a u [] [] 0 H G) as [_ Hn]; [congruence|congruence|].
    intros Hi. apply Hn. unfold held. apply in_map_iff. exists (i, false). split; [reflexivity|]. apply filter_In. split; [exact Hi|reflexivity].
  - exfalso. destruct (get_none maxDBs s H G) as [Ea El]. rewrite Ea in El. cbn in El.
    assert (E : List.length (p_inuse s) <= List.length (held s)).
    { apply NoDup_incl_length; [apply sorted_nodup; apply H|]. intros i Hi. apply (pi_held _ _ H). exact Hi. }
    unfold held in E. rewrite map_length in E. unfold max_dbs in El. lia.
Qed.
Print Assumptions C20_granted_when_free.

(** No wake-up is lost: while some thread sleeps, every available handle is matched by a
    notification about to be sent or by a thread already woken. *)
Theorem C20_no_lost_wakeup : forall maxDBs es s,
  prun maxDBs pool_init es = Some s -> p_waiting s <> [] ->
  List.length (p_avail s) <= p_notify s + List.length (p_woken s).
Proof. intros maxDBs es s Hr. apply (pi_wake maxDBs s (PInv_run maxDBs es _ _ (PInv_init maxDBs) Hr)). Qed.
Print Assumptions C20_no_lost_wakeup.

(** A pool configured with at most one handle never grants any: "waits until one is
    available" is false there. *)
Theorem C20_pool_of_one_refuted : forall maxDBs es s,
  maxDBs <= 1 -> prun maxDBs pool_init es = Some s -> p_handles s = [].
Proof.
  intros maxDBs es s Hm. assert (G : forall s, p_avail s = [] -> p_handles s = [] -> forall s', prun maxDBs s es = Some s' -> p_handles s' = []).
  { induction es as [|e es IH]; intros s0 Ha Hh s' Hr; cbn in Hr; [congruence|].
    destruct (pstep maxDBs s0 e) as [s1|] eqn:E; [|discriminate]. apply (IH s1); [| |exact Hr].
    all: clear IH Hr; assert (Gn : get_index maxDBs (p_avail s0) (p_inuse s0) = None) by
        (unfold get_index; rewrite Ha; cbn [List.length Nat.add]; unfold max_dbs; destruct (Nat.ltb_spec (List.length (p_inuse s0)) (Nat.max maxDBs 1 - 1)); [lia|reflexivity]).
    all: destruct e as [t|t|t|h|t]; cbn [pstep] in E; rewrite ?Gn, ?Hh in E;
      repeat match type of E with
      | (if ?b then _ else _) = _ => destruct b
      | match nth_error [] ?h with _ => _ end = _ => destruct h; cbn in E
      | match ?b with _ => _ end = _ => destruct b
      end; try discriminate; injection E as <-; cbn; assumption || reflexivity. }
  intros Hr. exact (G pool_init eq_refl eq_refl s Hr).
Qed.
Print Assumptions C20_pool_of_one_refuted.

(** A pool of three hands out two handles; the third caller waits, is woken and gets the
    returned one; releasing the same handle twice is harmless. *)
Example C20_case : exists s, prun 3 pool_init [PGet 1; PGet 2; PGet 3; PRelease 0; PRelease 0; PNotify (Some 3); PRetry 3] = Some s /\
  p_handles s = [(0, true); (1, false); (0, false)] /\ p_waiting s = [].
Proof. eexists. split; [vm_compute; reflexivity|]. split; reflexivity. Qed.
