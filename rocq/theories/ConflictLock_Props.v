(** C21: ConflictLockGuard, for every number of guards, every identifier and every
    interleaving. *)
From Verif Require Import Base Maps ConflictLock_Model.
Require Import Permutation.

Lemma lget_set_same {A} (m : list (N * A)) k v : lget (lset m k v) k = Some v.
Proof. apply aget_aset_same. exact N.eqb_spec. Qed.
Lemma lget_set_other {A} (m : list (N * A)) k k2 v : k2 <> k -> lget (lset m k v) k2 = lget m k2.
Proof. apply aget_aset_other. exact N.eqb_spec. Qed.
Lemma lget_del_same {A} (m : list (N * A)) k : lget (ldel m k) k = None.
Proof. apply aget_adel_same. exact N.eqb_spec. Qed.
Lemma lget_del_other {A} (m : list (N * A)) k k2 : k2 <> k -> lget (ldel m k) k2 = lget m k2.
Proof. apply aget_adel_other. exact N.eqb_spec. Qed.
Lemma lset_nodup {A} (m : list (N * A)) k v : NoDup (map fst m) -> NoDup (map fst (lset m k v)).
Proof. apply aset_nodup. exact N.eqb_spec. Qed.
Lemma ldel_nodup {A} (m : list (N * A)) k : NoDup (map fst m) -> NoDup (map fst (ldel m k)).
Proof. apply adel_nodup. exact N.eqb_spec. Qed.
Lemma lget_keys {A} (m : list (N * A)) k : lget m k <> None <-> In k (map fst m).
Proof.
  unfold lget. pose proof (aget_none N.eqb N.eqb_spec k m) as E. destruct (aget N.eqb k m).
  - split; [|congruence]. intros _. destruct (in_dec N.eq_dec k (map fst m)); [assumption|]. apply E in n. discriminate.
  - split; [congruence|]. intros Hi _. apply E; auto.
Qed.
Lemma lremove_in id l x : In x (lremove id l) <-> x <> id /\ In x l.
Proof. unfold lremove. rewrite filter_In. destruct (N.eqb_spec x id); cbn; intuition discriminate. Qed.

(** The bookkeeping between the two maps and the order list. *)
Record Book (ms : list (N * mutex)) (cs : list (N * Z)) (ord : list N) : Prop := {
  bk_nd : NoDup (map fst ms); bk_no : NoDup ord;
  bk_eq : forall id, In id ord <-> lget ms id <> None
}.
Lemma Book_length ms cs ord : Book ms cs ord -> List.length ord = List.length ms.
Proof.
  intros H. rewrite <- (map_length fst ms). apply Nat.le_antisymm; apply NoDup_incl_length; try apply H.
  - intros x Hx. apply lget_keys. apply (bk_eq _ _ _ H). exact Hx.
  - intros x Hx. apply (bk_eq _ _ _ H). apply lget_keys. exact Hx.
Qed.

Definition same_at (id : N) (t t' : list (N * mutex) * list (N * Z) * list N) : Prop :=
  lget (fst (fst t')) id = lget (fst (fst t)) id /\ lget (snd (fst t')) id = lget (snd (fst t)) id /\
  (In id (snd t') <-> In id (snd t)).

Lemma fold_prune ids : forall ms cs ord, Book ms cs ord ->
  let t' := fold_left prune_one ids (ms, cs, ord) in
  Book (fst (fst t')) (snd (fst t')) (snd t') /\
  (forall id, In id ids -> count_of cs id = 0%Z -> lget (fst (fst t')) id = None /\ ~ In id (snd t')) /\
  (forall id, count_of cs id <> 0%Z \/ ~ In id ids -> same_at id (ms, cs, ord) t').
Proof.
  induction ids as [|x ids IH]; intros ms cs ord B; cbn [fold_left].
  - cbn. split; [exact B|]. split; [easy|]. intros id _. repeat split; auto.
  - assert (P1 : prune_one (ms, cs, ord) x = if Z.eqb (count_of cs x) 0 then (ldel ms x, ldel cs x, lremove x ord) else (ms, cs, ord)) by reflexivity.
    rewrite P1. clear P1.
    destruct (Z.eqb_spec (count_of cs x) 0) as [E|E].
    + assert (B' : Book (ldel ms x) (ldel cs x) (lremove x ord)).
      { constructor.
        - apply ldel_nodup, B.
        - apply NoDup_filter, B.
        - intros id. rewrite lremove_in. destruct (N.eq_dec id x) as [->|Hne].
          + rewrite lget_del_same. intuition.
          + rewrite lget_del_other by exact Hne. rewrite (bk_eq _ _ _ B id). intuition. }
      assert (Cx : forall id, id <> x -> count_of (ldel cs x) id = count_of cs id).
      { intros id Hne. unfold count_of. rewrite lget_del_other by exact Hne. reflexivity. }
      assert (Cxx : count_of (ldel cs x) x = 0%Z). { unfold count_of. rewrite lget_del_same. reflexivity. }
      destruct (IH _ _ _ B') as (H1 & H2 & H3). split; [exact H1|]. split.
      * intros id Hi Hc. destruct (N.eq_dec id x) as [->|Hne].
        -- destruct (in_dec N.eq_dec x ids) as [Hx|Hx]; [apply H2; auto|].
           destruct (H3 x (or_intror Hx)) as (S1 & S2 & S3). cbn [fst snd] in S1, S2, S3.
           split; [rewrite S1; apply lget_del_same|]. rewrite S3, lremove_in. tauto.
        -- apply H2; [destruct Hi; [congruence|assumption]|]. rewrite Cx; assumption.
      * intros id Hor. assert (Hne : id <> x). { intros ->. destruct Hor as [Hc|Hn]; [congruence|apply Hn; left; reflexivity]. }
        destruct (H3 id) as (S1 & S2 & S3). { rewrite Cx by exact Hne. destruct Hor; [auto|right]. intros Hi. apply H; right; exact Hi. }
        cbn [fst snd] in S1, S2, S3. repeat split; cbn [fst snd].
        -- rewrite S1. apply lget_del_other. exact Hne.
        -- rewrite S2. apply lget_del_other. exact Hne.
        -- intros Hx. apply S3 in Hx. apply lremove_in in Hx. apply Hx.
        -- intros Hx. apply S3. apply lremove_in. auto.
    + destruct (IH _ _ _ B) as (H1 & H2 & H3). split; [exact H1|]. split.
      * intros id [<-|Hi] Hc; [congruence|]. apply H2; assumption.
      * intros id Hor. apply H3. destruct Hor as [Hc|Hn]; [auto|right]. intros Hi. apply Hn. right. exact Hi.
Qed.

(** Guards alive (waiting or holding) on an identifier. *)
Definition alive (id : N) (g : guard) : bool :=
  N.eqb (g_id g) id && match g_phase g with GDone => false | _ => true end.
Definition nlive (id : N) (l : list guard) : nat := List.length (filter (alive id) l).
Lemma nlive_app id l g : nlive id (l ++ [g]) = nlive id l + (if alive id g then 1 else 0).
Proof. unfold nlive. rewrite filter_app, app_length. cbn. destruct (alive id g); reflexivity. Qed.
Lemma nlive_phase l : forall k p x id, nth_error l k = Some x ->
  nlive id (set_phase k p l) + (if alive id x then 1 else 0) = nlive id l + (if alive id (mkG (g_id x) (g_mutex x) p) then 1 else 0).
Proof.
  unfold nlive. induction l as [|y l IH]; intros [|k] p x id Hn; cbn in Hn; try discriminate.
  - injection Hn as ->. cbn [set_phase filter]. destruct (alive id x), (alive id (mkG (g_id x) (g_mutex x) p)); cbn [List.length]; lia.
  - cbn [set_phase filter]. specialize (IH k p x id Hn). destruct (alive id y); cbn [List.length]; lia.
Qed.
Lemma nth_set_phase l : forall k j p, nth_error (set_phase k p l) j =
  if Nat.eqb j k then match nth_error l j with Some x => Some (mkG (g_id x) (g_mutex x) p) | None => None end else nth_error l j.
Proof.
  induction l as [|y l IH]; intros [|k] [|j] p; cbn [set_phase nth_error Nat.eqb]; try reflexivity.
  - destruct (Nat.eqb j k); reflexivity.
  - apply IH.
Qed.
Lemma nth_app_one {A} (l : list A) x k y : nth_error (l ++ [x]) k = Some y -> nth_error l k = Some y \/ (k = List.length l /\ y = x).
Proof.
  intros H. destruct (Nat.lt_ge_cases k (List.length l)).
  - rewrite nth_error_app1 in H by assumption. auto.
  - rewrite nth_error_app2 in H by assumption. destruct (k - List.length l) as [|[|n]] eqn:E; cbn in H; try discriminate.
    injection H as ->. right. split; [lia|reflexivity].
Qed.

Record LInv (s : locks) : Prop := {
  li_book : Book (l_mutexes s) (l_counts s) (l_order s);
  li_cnt : forall id, lget (l_mutexes s) id <> None -> lget (l_counts s) id = Some (Z.of_nat (nlive id (l_guards s)));
  li_wait0 : forall g m, nth_error (l_guards s) g <> Some (mkG 0 m GWait);
  li_live : forall g id m p, nth_error (l_guards s) g = Some (mkG id m p) -> id <> 0%N -> p <> GDone ->
            exists h, lget (l_mutexes s) id = Some (m, h) /\ (p = GHeld -> h = Some g);
  li_zero : lget (l_mutexes s) 0%N = None;
  li_hold : forall id m g, lget (l_mutexes s) id = Some (m, Some g) -> nth_error (l_guards s) g = Some (mkG id m GHeld)
}.
Lemma LInv_init : LInv locks_init.
Proof.
  constructor; cbn.
  - constructor; cbn; [constructor|constructor|]. intros id. intuition.
  - easy.
  - intros [|g]; discriminate.
  - intros [|g]; discriminate.
  - reflexivity.
  - discriminate.
Qed.

Lemma nlive_pos l g id m p : nth_error l g = Some (mkG id m p) -> p <> GDone -> 0 < nlive id l.
Proof.
  intros Hn Hp. unfold nlive. apply nth_error_In in Hn.
  assert (Hi : In (mkG id m p) (filter (alive id) l)).
  { apply filter_In. split; [exact Hn|]. unfold alive. cbn. rewrite N.eqb_refl. destruct p; auto. }
  destruct (filter (alive id) l); [destruct Hi|cbn; lia].
Qed.

Lemma alive_other id id' m p : id' <> id -> alive id' (mkG id m p) = false.
Proof. intros H. unfold alive. cbn. destruct (N.eqb_spec id id'); [congruence|reflexivity]. Qed.
Lemma alive_same id m p : p <> GDone -> alive id (mkG id m p) = true.
Proof. intros H. unfold alive. cbn. rewrite N.eqb_refl. destruct p; auto. Qed.

(** The state right after the reference is taken, before pruning. *)
Lemma reference_inv s id ms cs ord m n : LInv s -> id <> 0%N -> reference s id = (ms, cs, ord, m, n) ->
  LInv (mkLocks ms cs ord n (l_guards s ++ [mkG id m GWait])).
Proof.
  intros H Hid R. pose proof (li_book _ H) as B. unfold reference in R.
  destruct (lget (l_mutexes s) id) as [[m0 h0]|] eqn:Em.
  - injection R as <- <- <- <- <-.
    assert (Hc : lget (l_counts s) id = Some (Z.of_nat (nlive id (l_guards s)))) by (apply (li_cnt _ H); congruence).
    constructor; cbn [l_mutexes l_counts l_order l_guards l_next].
    + assert (Ho : In id (l_order s)) by (apply (bk_eq _ _ _ B); congruence).
      assert (Hq : Book (l_mutexes s) (lset (l_counts s) id (count_of (l_counts s) id + 1)%Z) (id :: lremove id (l_order s))).
      { constructor; [apply B| |].
        - constructor; [rewrite lremove_in; tauto|apply NoDup_filter, B].
        - intros j. cbn. rewrite lremove_in, <- (bk_eq _ _ _ B j). destruct (N.eq_dec j id) as [->|]; intuition congruence. }
      destruct (l_order s) as [|x r]; [exact Hq|]. destruct (N.eqb x id); [|exact Hq]. constructor; apply B.
    + intros j Hj. rewrite nlive_app. destruct (N.eq_dec j id) as [->|Hne].
      * rewrite lget_set_same, alive_same by discriminate. unfold count_of. rewrite Hc. f_equal. lia.
      * rewrite lget_set_other by exact Hne. rewrite alive_other by exact Hne. rewrite Nat.add_0_r. apply (li_cnt _ H). exact Hj.
    + intros g' m' Hn. apply nth_app_one in Hn as [Hn|[_ E]]; [exact (li_wait0 _ H _ _ Hn)|congruence].
    + intros g id' m' p Hn Hi' Hp. apply nth_app_one in Hn as [Hn|[-> E]]; [apply (li_live _ H g id' m' p Hn Hi' Hp)|].
      injection E as -> -> ->. exists h0. split; [exact Em|discriminate].
    + apply H.
    + intros j m' g Hg. apply (li_hold _ H) in Hg. rewrite nth_error_app1; [exact Hg|]. apply nth_error_Some. congruence.
  - injection R as <- <- <- <- <-.
    assert (Ho : ~ In id (l_order s)). { intros Ho. apply (bk_eq _ _ _ B) in Ho. congruence. }
    constructor; cbn [l_mutexes l_counts l_order l_guards l_next].
    + constructor; [apply lset_nodup, B|constructor; [exact Ho|apply B]|].
      intros j. cbn. rewrite (bk_eq _ _ _ B j). destruct (N.eq_dec j id) as [->|Hne].
      * rewrite lget_set_same. split; [discriminate|auto].
      * rewrite lget_set_other by exact Hne. intuition congruence.
    + intros j Hj. rewrite nlive_app. destruct (N.eq_dec j id) as [->|Hne].
      * rewrite lget_set_same, alive_same by discriminate. f_equal.
        assert (Z0 : nlive id (l_guards s) = 0); [|rewrite Z0; reflexivity].
        destruct (nlive id (l_guards s)) eqn:E; [reflexivity|exfalso].
        unfold nlive in E. destruct (filter (alive id) (l_guards s)) as [|x r] eqn:Ef; [discriminate|].
        assert (Hx : In x (filter (alive id) (l_guards s))) by (rewrite Ef; left; reflexivity).
        apply filter_In in Hx as [Hx Ha]. destruct (In_nth_error _ _ Hx) as [g Hg]. destruct x as [xi xm xp].
        unfold alive in Ha. cbn in Ha. apply andb_true_iff in Ha as [Ha1 Ha2]. apply N.eqb_eq in Ha1 as ->.
        destruct (li_live _ H g id xm xp Hg Hid) as (h & Hh & _); [destruct xp; discriminate|congruence].
      * rewrite lget_set_other in Hj by exact Hne. rewrite lget_set_other by exact Hne. rewrite alive_other by exact Hne.
        rewrite Nat.add_0_r. apply (li_cnt _ H). exact Hj.
    + intros g' m' Hn. apply nth_app_one in Hn as [Hn|[_ E]]; [exact (li_wait0 _ H _ _ Hn)|congruence].
    + intros g id' m' p Hn Hi' Hp. apply nth_app_one in Hn as [Hn|[-> E]].
      * destruct (li_live _ H g id' m' p Hn Hi' Hp) as (h & Hh & Hh2). exists h. split; [|exact Hh2].
        rewrite lget_set_other; [exact Hh|]. congruence.
      * injection E as -> -> ->. exists None. split; [apply lget_set_same|discriminate].
    + rewrite lget_set_other by congruence. apply H.
    + intros j m' g Hg. destruct (N.eq_dec j id) as [->|Hne]; [rewrite lget_set_same in Hg; discriminate|].
      rewrite lget_set_other in Hg by exact Hne. apply (li_hold _ H) in Hg.
      rewrite nth_error_app1; [exact Hg|]. apply nth_error_Some. congruence.
Qed.

Lemma prune_inv s ms' cs' ord' : LInv s -> prune (l_mutexes s) (l_counts s) (l_order s) = (ms', cs', ord') ->
  LInv (mkLocks ms' cs' ord' (l_next s) (l_guards s)).
Proof.
  intros H P. unfold prune in P. destruct (Nat.ltb _ _).
  2: { injection P as <- <- <-. destruct s; exact H. }
  destruct (fold_prune (firstn (List.length (l_mutexes s) - MAX_PAGE_MUTEXES) (rev (l_order s))) _ _ _ (li_book _ H)) as (H1 & H2 & H3).
  rewrite P in H1, H2, H3. cbn [fst snd] in H1, H2. unfold same_at in H3. cbn [fst snd] in H3.
  assert (K : forall id, lget ms' id <> None -> lget ms' id = lget (l_mutexes s) id /\ lget cs' id = lget (l_counts s) id).
  { intros id Hn. destruct (Z.eq_dec (count_of (l_counts s) id) 0) as [E|E]; [|destruct (H3 id (or_introl E)) as (A1 & A2 & _); auto].
    destruct (in_dec N.eq_dec id (firstn (List.length (l_mutexes s) - MAX_PAGE_MUTEXES) (rev (l_order s)))) as [Hi|Hi].
    - destruct (H2 id Hi E). contradiction.
    - destruct (H3 id (or_intror Hi)) as (A1 & A2 & _). auto. }
  constructor; cbn [l_mutexes l_counts l_order l_guards l_next].
  - exact H1.
  - intros id Hn. destruct (K id Hn) as [E1 E2]. rewrite E2. apply (li_cnt _ H). congruence.
  - apply H.
  - intros g id m p Hn Hid Hp. destruct (li_live _ H g id m p Hn Hid Hp) as (h & Hh & Hh2). exists h. split; [|exact Hh2].
    assert (C : count_of (l_counts s) id <> 0%Z).
    { unfold count_of. rewrite (li_cnt _ H) by congruence. pose proof (nlive_pos _ _ _ _ _ Hn Hp). lia. }
    destruct (H3 id (or_introl C)) as (A1 & _). rewrite A1. exact Hh.
  - destruct (lget ms' 0%N) eqn:E0; [|reflexivity]. destruct (K 0%N) as [E1 _]; [congruence|]. rewrite <- E0, E1. apply H.
  - intros id m g Hg. destruct (K id) as [E1 _]; [congruence|]. rewrite E1 in Hg. apply (li_hold _ H). exact Hg.
Qed.


Lemma LInv_step s e r : LInv s -> lstep s e = Some r -> exists s', r = LState s' /\ LInv s'.
Proof.
  intros H Hst. pose proof (li_book _ H) as B. destruct e as [id|g|g]; cbn [lstep] in Hst.
  - destruct (N.eqb_spec id 0) as [->|Hid].
    + injection Hst as <-. eexists. split; [reflexivity|]. constructor; cbn [l_mutexes l_counts l_order l_guards].
      * exact B.
      * intros j Hj. rewrite nlive_app. rewrite (li_cnt _ H j Hj). destruct (N.eq_dec j 0) as [->|Hne].
        -- exfalso. apply Hj. apply H.
        -- rewrite alive_other by exact Hne. rewrite Nat.add_0_r. reflexivity.
      * intros g' m' Hn. apply nth_app_one in Hn as [Hn|[_ E]]; [exact (li_wait0 _ H _ _ Hn)|congruence].
      * intros g id m p Hn Hid Hp. apply nth_app_one in Hn as [Hn|[-> E]]; [apply (li_live _ H g id m p Hn Hid Hp)|].
        injection E as -> -> ->. contradiction.
      * apply H.
      * intros j m g Hg. apply (li_hold _ H) in Hg. rewrite nth_error_app1; [exact Hg|]. apply nth_error_Some. congruence.
    + destruct (reference s id) as [[[[ms cs] ord] m] n] eqn:R.
      pose proof (reference_inv s id ms cs ord m n H Hid R) as HR.
      pose proof (Book_length _ _ _ (li_book _ HR)) as L. cbn [l_mutexes l_order] in L. rewrite L in Hst.
      destruct (Nat.ltb_spec (List.length ms) (List.length ms - MAX_PAGE_MUTEXES)) as [Hlt|_]; [lia|].
      destruct (prune ms cs ord) as [[ms' cs'] ord'] eqn:P. injection Hst as <-. eexists. split; [reflexivity|].
      exact (prune_inv _ _ _ _ HR P).
  - destruct (nth_error (l_guards s) g) as [[id m p]|] eqn:En; [|discriminate]. destruct p; try discriminate.
    destruct (N.eq_dec id 0) as [->|Hid]; [exfalso; exact (li_wait0 _ H _ _ En)|].
    destruct (li_live _ H g id m GWait En Hid) as (h & Hh & _); [discriminate|].
    rewrite Hh, Nat.eqb_refl in Hst. destruct h as [h|]; [discriminate|]. injection Hst as <-. eexists. split; [reflexivity|].
    constructor; cbn [l_mutexes l_counts l_order l_guards].
    + constructor; [apply lset_nodup, B|apply B|]. intros j. rewrite (bk_eq _ _ _ B j).
      destruct (N.eq_dec j id) as [->|Hne]; [rewrite lget_set_same, Hh; split; discriminate|rewrite lget_set_other by exact Hne; reflexivity].
    + intros j Hj. assert (Hj' : lget (l_mutexes s) j <> None).
      { destruct (N.eq_dec j id) as [->|Hne]; [congruence|]. rewrite lget_set_other in Hj by exact Hne. exact Hj. }
      rewrite (li_cnt _ H j Hj'). f_equal. f_equal. pose proof (nlive_phase _ g GHeld _ j En) as E. cbn [g_id g_mutex] in E.
      assert (Ea : alive j (mkG id m GWait) = alive j (mkG id m GHeld)) by reflexivity. rewrite Ea in E. lia.
    + intros g' m' Hn. rewrite nth_set_phase in Hn. destruct (Nat.eqb_spec g' g) as [->|Hg]; [rewrite En in Hn; discriminate|exact (li_wait0 _ H _ _ Hn)].
    + intros g' id' m' p' Hn Hi' Hp'. rewrite nth_set_phase in Hn. destruct (Nat.eqb_spec g' g) as [->|Hg].
      * rewrite En in Hn. cbn in Hn. injection Hn as <- <- <-. eexists. split; [apply lget_set_same|reflexivity].
      * destruct (li_live _ H g' id' m' p' Hn Hi' Hp') as (h & Hh' & Hh2). destruct (N.eq_dec id' id) as [->|Hne].
        -- rewrite Hh in Hh'. injection Hh' as -> <-. exists (Some g). split; [apply lget_set_same|]. intros E. specialize (Hh2 E). discriminate.
        -- exists h. split; [|exact Hh2]. rewrite lget_set_other by exact Hne. exact Hh'.
    + rewrite lget_set_other by congruence. apply H.
    + intros j m' g' Hg'. destruct (N.eq_dec j id) as [->|Hne].
      * rewrite lget_set_same in Hg'. injection Hg' as <- <-. rewrite nth_set_phase, Nat.eqb_refl, En. reflexivity.
      * rewrite lget_set_other in Hg' by exact Hne. apply (li_hold _ H) in Hg'. rewrite nth_set_phase.
        destruct (Nat.eqb_spec g' g) as [->|]; [congruence|exact Hg'].
  - destruct (nth_error (l_guards s) g) as [[id m p]|] eqn:En; [|discriminate]. destruct p; try discriminate.
    assert (NL : forall j, nlive j (set_phase g GDone (l_guards s)) + (if N.eqb id j then 1 else 0) = nlive j (l_guards s)).
    { intros j. pose proof (nlive_phase _ g GDone _ j En) as E. cbn [g_id g_mutex] in E. unfold alive in E. cbn [g_id g_phase] in E.
      rewrite andb_true_r, andb_false_r in E. lia. }
    destruct (N.eqb_spec id 0) as [->|Hid].
    + injection Hst as <-. eexists. split; [reflexivity|]. constructor; cbn [l_mutexes l_counts l_order l_guards].
      * exact B.
      * intros j Hj. rewrite (li_cnt _ H j Hj). specialize (NL j). destruct (N.eqb_spec 0 j) as [E0|]; [exfalso; apply Hj; rewrite <- E0; apply H|].
        f_equal. lia.
      * intros g' m' Hn. rewrite nth_set_phase in Hn. destruct (Nat.eqb_spec g' g) as [->|Hg]; [rewrite En in Hn; discriminate|exact (li_wait0 _ H _ _ Hn)].
      * intros g' id' m' p' Hn Hi' Hp'. rewrite nth_set_phase in Hn. destruct (Nat.eqb_spec g' g) as [->|Hg].
        -- rewrite En in Hn. cbn in Hn. congruence.
        -- apply (li_live _ H g' id' m' p' Hn Hi' Hp').
      * apply H.
      * intros j m' g' Hg'. rewrite nth_set_phase. pose proof (li_hold _ H _ _ _ Hg') as Hg2.
        destruct (Nat.eqb_spec g' g) as [->|]; [|exact Hg2]. exfalso. rewrite En in Hg2. injection Hg2 as <- <-.
        rewrite (li_zero _ H) in Hg'. discriminate.
    + destruct (li_live _ H g id m GHeld En Hid) as (h & Hh & Hh2); [discriminate|]. rewrite (Hh2 eq_refl) in Hh. clear Hh2 h.
      rewrite Hh in Hst. rewrite (li_cnt _ H id) in Hst by congruence. rewrite Nat.eqb_refl in Hst. injection Hst as <-.
      eexists. split; [reflexivity|]. constructor; cbn [l_mutexes l_counts l_order l_guards].
      * constructor; [apply lset_nodup, B|apply B|]. intros j. rewrite (bk_eq _ _ _ B j).
        destruct (N.eq_dec j id) as [->|Hne]; [rewrite lget_set_same, Hh; split; discriminate|rewrite lget_set_other by exact Hne; reflexivity].
      * intros j Hj. specialize (NL j). destruct (N.eqb_spec id j) as [E0|Hne].
        -- rewrite <- E0 in *; rewrite lget_set_same. f_equal. lia.
        -- rewrite lget_set_other by congruence. rewrite lget_set_other in Hj by congruence. rewrite (li_cnt _ H j Hj). f_equal. lia.
      * intros g' m' Hn. rewrite nth_set_phase in Hn. destruct (Nat.eqb_spec g' g) as [->|Hg]; [rewrite En in Hn; discriminate|exact (li_wait0 _ H _ _ Hn)].
      * intros g' id' m' p' Hn Hi' Hp'. rewrite nth_set_phase in Hn. destruct (Nat.eqb_spec g' g) as [->|Hg].
        -- rewrite En in Hn. cbn in Hn. congruence.
        -- destruct (li_live _ H g' id' m' p' Hn Hi' Hp') as (h & Hh' & Hh2). destruct (N.eq_dec id' id) as [->|Hne].
           ++ rewrite Hh in Hh'. injection Hh' as <- <-. exists None. split; [apply lget_set_same|]. intros E. specialize (Hh2 E). congruence.
           ++ exists h. split; [|exact Hh2]. rewrite lget_set_other by exact Hne. exact Hh'.
      * rewrite lget_set_other by congruence. apply H.
      * intros j m' g' Hg'. destruct (N.eq_dec j id) as [->|Hne]; [rewrite lget_set_same in Hg'; discriminate|].
        rewrite lget_set_other in Hg' by exact Hne. apply (li_hold _ H) in Hg'. rewrite nth_set_phase.
        destruct (Nat.eqb_spec g' g) as [->|]; [congruence|exact Hg'].
Qed.

Lemma LInv_run es : forall s r, LInv s -> lrun s es = Some r -> exists s', r = LState s' /\ LInv s'.
Proof.
  induction es as [|e es IH]; intros s r H Hr; cbn [lrun] in Hr; [injection Hr as <-; eauto|].
  destruct (lstep s e) as [r'|] eqn:E; [|discriminate]. destruct (LInv_step _ _ _ H E) as (s' & -> & H'). exact (IH s' r H' Hr).
Qed.

(** A mutex is never destroyed while a guard holds it or waits for it: whatever the number of
    identifiers and however often the table is pruned, no guard ever touches a destroyed
    mutex. *)
Theorem C21_never_destroyed_in_use : forall es, lrun locks_init es <> Some LBad.
Proof. intros es Hr. destruct (LInv_run es _ _ LInv_init Hr) as (s' & E & _). discriminate. Qed.
Print Assumptions C21_never_destroyed_in_use.

(** At any moment at most one guard holds a given non-zero identifier. *)
Theorem C21_exclusive : forall es s g1 g2 id m1 m2,
  lrun locks_init es = Some (LState s) -> id <> 0%N ->
  nth_error (l_guards s) g1 = Some (mkG id m1 GHeld) -> nth_error (l_guards s) g2 = Some (mkG id m2 GHeld) -> g1 = g2.
Proof.
  intros es s g1 g2 id m1 m2 Hr Hid H1 H2. destruct (LInv_run es _ _ LInv_init Hr) as (s' & E & H). injection E as <-.
  destruct (li_live _ H _ _ _ _ H1 Hid) as (h1 & Hh1 & E1); [discriminate|].
  destruct (li_live _ H _ _ _ _ H2 Hid) as (h2 & Hh2 & E2); [discriminate|].
  rewrite (E1 eq_refl) in Hh1. rewrite (E2 eq_refl) in Hh2. congruence.
Qed.
Print Assumptions C21_exclusive.

(** A waiting guard is kept waiting only by a guard holding the same identifier: if none does,
    it can proceed, whatever guards on other identifiers are doing. *)
Theorem C21_only_same_identifier_blocks : forall es s g id m,
  lrun locks_init es = Some (LState s) ->
  nth_error (l_guards s) g = Some (mkG id m GWait) ->
  (forall g' m', nth_error (l_guards s) g' <> Some (mkG id m' GHeld)) ->
  exists s', lstep s (LAcquire g) = Some (LState s') /\ nth_error (l_guards s') g = Some (mkG id m GHeld) /\
    (forall g', g' <> g -> nth_error (l_guards s') g' = nth_error (l_guards s) g').
Proof.
  intros es s g id m Hr Hg Hno. destruct (LInv_run es _ _ LInv_init Hr) as (s0 & E & H). injection E as <-.
  assert (Hid : id <> 0%N). { intros ->. exact (li_wait0 _ H _ _ Hg). }
  destruct (li_live _ H _ _ _ _ Hg Hid) as (h & Hh & _); [discriminate|].
  cbn [lstep]. rewrite Hg, Hh, Nat.eqb_refl. destruct h as [h|].
  - exfalso. apply (li_hold _ H) in Hh. exact (Hno _ _ Hh).
  - eexists. split; [reflexivity|]. cbn [l_guards]. split.
    + rewrite nth_set_phase, Nat.eqb_refl, Hg. reflexivity.
    + intros g' Hne. rewrite nth_set_phase. destruct (Nat.eqb_spec g' g); [contradiction|reflexivity].
Qed.
Print Assumptions C21_only_same_identifier_blocks.

(** A guard on identifier 0 never waits, and a held guard can always be released. *)
Theorem C21_zero_and_release_never_block : forall es s,
  lrun locks_init es = Some (LState s) ->
  (exists s', lstep s (LEnter 0) = Some (LState s') /\ l_guards s' = l_guards s ++ [mkG 0 0 GHeld]) /\
  (forall g id m, nth_error (l_guards s) g = Some (mkG id m GHeld) ->
     exists s', lstep s (LLeave g) = Some (LState s') /\ nth_error (l_guards s') g = Some (mkG id m GDone)).
Proof.
  intros es s Hr. destruct (LInv_run es _ _ LInv_init Hr) as (s0 & E & H). injection E as <-. split.
  - eexists. split; reflexivity.
  - intros g id m Hg. cbn [lstep]. rewrite Hg. destruct (N.eqb_spec id 0) as [->|Hid].
    + eexists. split; [reflexivity|]. cbn [l_guards]. rewrite nth_set_phase, Nat.eqb_refl, Hg. reflexivity.
    + destruct (li_live _ H _ _ _ _ Hg Hid) as (h & Hh & E); [discriminate|]. rewrite (E eq_refl) in Hh. rewrite Hh.
      rewrite (li_cnt _ H id) by congruence. rewrite Nat.eqb_refl. eexists. split; [reflexivity|].
      cbn [l_guards]. rewrite nth_set_phase, Nat.eqb_refl, Hg. reflexivity.
Qed.
Print Assumptions C21_zero_and_release_never_block.

(** Identifiers some guard holds or waits for. *)
Definition in_use (s : locks) : list N :=
  nodup N.eq_dec (map g_id (filter (fun g => match g_phase g with GDone => false | _ => true end) (l_guards s))).

(** After each construction of a guard, at most 500 mutexes are kept besides those in use. *)
Theorem C21_table_bounded : forall es s s' id,
  lrun locks_init es = Some (LState s) -> id <> 0%N -> lstep s (LEnter id) = Some (LState s') ->
  List.length (l_mutexes s') <= 500 + List.length (in_use s').
Proof.
  intros es s s' id Hr Hid Hst. destruct (LInv_run es _ _ LInv_init Hr) as (s0 & E & H). injection E as <-.
  destruct (LInv_step _ _ _ H Hst) as (s1 & E & H'). injection E as <-.
  cbn [lstep] in Hst. destruct (N.eqb_spec id 0) as [|_]; [contradiction|].
  destruct (reference s id) as [[[[ms cs] ord] m] n] eqn:R.
  pose proof (reference_inv s id ms cs ord m n H Hid R) as HR.
  destruct (Nat.ltb (List.length ord) _); [discriminate|].
  destruct (prune ms cs ord) as [[ms' cs'] ord'] eqn:P. injection Hst as <-.
  pose proof (Book_length _ _ _ (li_book _ H')) as L'. pose proof (Book_length _ _ _ (li_book _ HR)) as L.
  cbn [l_mutexes l_order] in L, L'. cbn [l_mutexes]. fold MAX_PAGE_MUTEXES.
  unfold prune in P. destruct (Nat.ltb_spec MAX_PAGE_MUTEXES (List.length ms)) as [Hlt|Hle].
  2: { injection P as <- <- <-. lia. }
  set (k := List.length ms - MAX_PAGE_MUTEXES) in *.
  destruct (fold_prune (firstn k (rev ord)) _ _ _ (li_book _ HR)) as (H1 & H2 & H3).
  cbn [l_mutexes l_counts l_order] in H1, H2, H3. rewrite P in H1, H2, H3. cbn [fst snd] in H1, H2. unfold same_at in H3. cbn [fst snd] in H3.
  set (s' := mkLocks ms' cs' ord' n (l_guards s ++ [mkG id m GWait])) in *.
  assert (I : incl ord' (skipn k (rev ord) ++ in_use s')).
  { intros x Hx. assert (Ho : In x ord).
    { destruct (Z.eq_dec (count_of cs x) 0) as [E|E]; [|apply (H3 x (or_introl E)); exact Hx].
      destruct (in_dec N.eq_dec x (firstn k (rev ord))) as [Hi|Hi]; [destruct (H2 x Hi E); contradiction|apply (H3 x (or_intror Hi)); exact Hx]. }
    apply in_rev in Ho. rewrite <- (firstn_skipn k (rev ord)) in Ho. apply in_app_iff in Ho. apply in_app_iff.
    destruct Ho as [Ho|Ho]; [right|left; exact Ho].
    destruct (Z.eq_dec (count_of cs x) 0) as [E|E]; [destruct (H2 x Ho E); contradiction|].
    assert (Hm : lget ms x <> None). { apply (bk_eq _ _ _ (li_book _ HR)). cbn [l_order]. apply in_rev. rewrite <- (firstn_skipn k (rev ord)). apply in_app_iff. auto. }
    pose proof (li_cnt _ HR x Hm) as C. cbn [l_counts l_guards] in C. unfold count_of in E. rewrite C in E.
    unfold in_use. apply nodup_In. cbn [l_guards s'].
    unfold nlive in E. destruct (filter (alive x) (l_guards s ++ [mkG id m GWait])) as [|y r] eqn:Ef; [exfalso; apply E; reflexivity|].
    assert (Hy : In y (filter (alive x) (l_guards s ++ [mkG id m GWait]))) by (rewrite Ef; left; reflexivity).
    apply filter_In in Hy as [Hy Ha]. unfold alive in Ha. apply andb_true_iff in Ha as [Ha1 Ha2]. apply N.eqb_eq in Ha1.
    apply in_map_iff. exists y. split; [exact Ha1|]. apply filter_In. split; [exact Hy|exact Ha2]. }
  pose proof (NoDup_incl_length (bk_no _ _ _ H1) I) as Len. rewrite app_length, skipn_length, rev_length in Len.
  unfold k in Len. lia.
Qed.
Print Assumptions C21_table_bounded.

(** Two guards on identifier 7 exclude each other while one on identifier 9 proceeds. *)
Example C21_case : exists s, lrun locks_init [LEnter 7; LAcquire 0; LEnter 7; LEnter 9; LAcquire 2] = Some (LState s) /\
  lstep s (LAcquire 1) = None /\ map g_phase (l_guards s) = [GHeld; GWait; GHeld] /\ in_use s = [7; 9]%N.
Proof. eexists. split; [vm_compute; reflexivity|]. repeat split; reflexivity. Qed.
