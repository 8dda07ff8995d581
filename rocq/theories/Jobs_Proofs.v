(** Lemmas about the jobs model. *)
Require Import List ZArith NArith Bool Ascii Lia Permutation Sorted.
Require Import Verif.Base Verif.Dec Verif.Text_Model Verif.Jobs_Spec Verif.Jobs_Model.
Import ListNotations.
Open Scope Z_scope.

(** ** Rows *)
Lemma in_update (p : job -> bool) (f : job -> job) (t : table) (j' : job) : In j' (update p f t) -> exists j, In j t /\ j' = if p j then f j else j.
Proof. unfold update. rewrite in_map_iff. intros (j & E & H). exists j. auto. Qed.
Lemma update_in (p : job -> bool) (f : job -> job) (t : table) (j : job) : In j t -> In (if p j then f j else j) (update p f t).
Proof. intros H. unfold update. apply in_map_iff. exists j. auto. Qed.

Lemma is_id_true id j : is_id id j = true <-> j_id j = id.
Proof. apply N.eqb_eq. Qed.
Lemma is_id_false id j : is_id id j = false <-> j_id j <> id.
Proof. apply N.eqb_neq. Qed.
Lemma is_child_true p j : is_child p j = true <-> child_of p j.
Proof.
  unfold is_child, child_of. rewrite andb_true_iff, negb_true_iff, N.eqb_neq, N.eqb_eq.
  intuition congruence.
Qed.
Lemma jstate_eqb_eq a b : jstate_eqb a b = true <-> a = b.
Proof. destruct a, b; cbn; intuition congruence. Qed.
Lemma in_states_true l j : in_states l j = true <-> In (j_state j) l.
Proof.
  unfold in_states. rewrite existsb_exists. split.
  - intros (x & Hx & E). apply jstate_eqb_eq in E. congruence.
  - intros H. exists (j_state j). split; auto. apply jstate_eqb_eq. auto.
Qed.
Lemma in_ids_true l j : in_ids l j = true <-> In (j_id j) l.
Proof.
  unfold in_ids. rewrite existsb_exists. split.
  - intros (x & Hx & E). apply N.eqb_eq in E. congruence.
  - intros H. exists (j_id j). split; auto. apply N.eqb_refl.
Qed.

Definition ids (t : table) : list N := map j_id t.

Lemma lookup_some id t j : lookup id t = Some j -> In j t /\ j_id j = id.
Proof. unfold lookup. intros H. apply find_some in H. rewrite is_id_true in H. exact H. Qed.
Lemma lookup_none id t : lookup id t = None -> forall j, In j t -> j_id j <> id.
Proof. unfold lookup. intros H j Hj. apply is_id_false. exact (find_none _ _ H j Hj). Qed.
Lemma ids_inj t a b : NoDup (ids t) -> In a t -> In b t -> j_id a = j_id b -> a = b.
Proof.
  unfold ids. induction t as [|x t IH]; cbn [map In]; intros Hn Ha Hb E; [easy|].
  inversion Hn as [|? ? Hx Hn']; subst.
  destruct Ha as [->|Ha], Hb as [->|Hb]; auto.
  - exfalso. apply Hx. rewrite E. apply in_map. exact Hb.
  - exfalso. apply Hx. rewrite <- E. apply in_map. exact Ha.
Qed.
Lemma lookup_in t j : NoDup (ids t) -> In j t -> lookup (j_id j) t = Some j.
Proof.
  intros Hn Hj. destruct (lookup (j_id j) t) as [k|] eqn:E.
  - apply lookup_some in E. destruct E as [Hk E]. f_equal. exact (ids_inj t k j Hn Hk Hj E).
  - exfalso. exact (lookup_none _ _ E j Hj eq_refl).
Qed.

(** Updates that keep a job's identity. *)
Definition keeps (f : job -> job) : Prop := forall j, j_id (f j) = j_id j /\ j_parent (f j) = j_parent j.
Lemma update_ids p f t : keeps f -> ids (update p f t) = ids t.
Proof.
  intros K. unfold ids, update. rewrite map_map. apply map_ext. intros j.
  destruct (p j); auto. apply K.
Qed.
Lemma filter_ids_nodup (p : job -> bool) t : NoDup (ids t) -> NoDup (ids (filter p t)).
Proof.
  unfold ids. induction t as [|x t IH]; cbn [map filter]; intros Hn; auto.
  inversion Hn as [|? ? Hx Hn']; subst. destruct (p x); auto. cbn [map]. constructor; auto.
  intros H. apply Hx. apply in_map_iff in H. destruct H as (y & E & Hy). apply filter_In in Hy.
  apply in_map_iff. exists y. tauto.
Qed.

Ltac keep := intros ?; repeat (first [progress cbn [j_id j_parent with_state with_name with_next with_last with_repeat with_data with_prio] | case_if | match goal with |- context[match ?x with _ => _ end] => destruct x end]); auto.

(** ** Sorting *)
Lemma insert_perm le x l : Permutation (insert_by le x l) (x :: l).
Proof.
  induction l as [|y l IH]; cbn [insert_by]; auto. destruct (le x y); auto.
  rewrite IH. constructor.
Qed.
Lemma order_perm le l : Permutation (order_by le l) l.
Proof.
  unfold order_by. induction l as [|x l IH]; cbn [fold_right]; auto.
  rewrite insert_perm. constructor. exact IH.
Qed.
Section sorted.
Variable le : job -> job -> bool.
Hypothesis le_total : forall a b, le a b = true \/ le b a = true.
Hypothesis le_trans : forall a b c, le a b = true -> le b c = true -> le a c = true.
Let R a b := le a b = true.
Lemma insert_sorted x l : StronglySorted R l -> StronglySorted R (insert_by le x l).
Proof.
  induction l as [|y l IH]; cbn [insert_by]; intros H; [repeat constructor|].
  inversion H as [|? ? Hs Hy]; subst. destruct (le x y) eqn:E.
  - constructor; auto. constructor; auto. eapply Forall_impl; [|exact Hy].
    intros z Hz. exact (le_trans _ _ _ E Hz).
  - constructor; auto. assert (Hyx : R y x) by (destruct (le_total x y) as [|]; congruence).
    eapply Permutation_Forall; [symmetry; apply insert_perm|]. constructor; auto.
Qed.
Lemma order_sorted l : StronglySorted R (order_by le l).
Proof.
  unfold order_by. induction l as [|x l IH]; cbn [fold_right]; [constructor|]. apply insert_sorted. exact IH.
Qed.
Lemma order_id l : StronglySorted R l -> order_by le l = l.
Proof.
  unfold order_by. induction l as [|x l IH]; cbn [fold_right]; intros H; auto.
  inversion H as [|? ? Hs Hx]; subst. rewrite (IH Hs). destruct l as [|y l']; auto.
  cbn [insert_by]. inversion Hx as [|? ? Hy _]; subst. unfold R in Hy. rewrite Hy. auto.
Qed.
End sorted.

Lemma le_next_total a b : le_next a b = true \/ le_next b a = true.
Proof. unfold le_next. destruct (j_next a), (j_next b); auto. rewrite !Z.leb_le. lia. Qed.
Lemma le_next_trans a b c : le_next a b = true -> le_next b c = true -> le_next a c = true.
Proof.
  unfold le_next. destruct (j_next a), (j_next b), (j_next c); auto; try discriminate.
  rewrite !Z.leb_le. lia.
Qed.
Lemma le_next_spec a b : le_next a b = true <-> no_later (j_next a) (j_next b).
Proof.
  unfold le_next, no_later. destruct (j_next a), (j_next b); rewrite ?Z.leb_le; intuition congruence.
Qed.

(** ** Selection *)
(** The jobs a query may return. *)
Definition wanted (Q : sql) (now : Z) (g : get_req) (j : job) : bool :=
  eligible Q now g j
  && match g_prio g with Some p => has_prio p j | None => existsb (fun p => has_prio p j) priorities end.
(** Higher priority first, earlier due first within a priority. *)
Definition before (a b : job) : Prop :=
  prio_of a > prio_of b \/ prio_of a = prio_of b /\ no_later (j_next a) (j_next b).

Definition full (Q : sql) (now : Z) (g : get_req) (t : table) (p : Z) : list job :=
  order_by le_next (filter (fun j => eligible Q now g j && has_prio p j) t).

Lemma firstn_app_firstn {A} n (a b : list A) : firstn n (firstn n a ++ b) = firstn n (a ++ b).
Proof.
  rewrite !firstn_app, firstn_firstn, Nat.min_id. f_equal.
  rewrite firstn_length. destruct (Nat.le_gt_cases n (List.length a)) as [H|H].
  - rewrite Nat.min_l by exact H. replace (n - n)%nat with O by lia.
    replace (n - List.length a)%nat with O by lia. reflexivity.
  - rewrite Nat.min_r by lia. reflexivity.
Qed.
Lemma firstn_app_r {A} n (a b c : list A) : firstn n b = firstn n c -> firstn n (a ++ b) = firstn n (a ++ c).
Proof.
  intros H. rewrite !firstn_app. f_equal.
  replace (n - List.length a)%nat with (Nat.min (n - List.length a) n) by lia.
  rewrite <- !firstn_firstn, H. reflexivity.
Qed.
Lemma firstn_flat_map {A B} n (f : A -> list B) l :
  firstn n (flat_map (fun a => firstn n (f a)) l) = firstn n (flat_map f l).
Proof.
  induction l as [|a l IH]; cbn [flat_map]; auto.
  rewrite firstn_app_firstn. apply firstn_app_r. exact IH.
Qed.

Lemma full_in Q now g t p j :
  In j (full Q now g t p) <-> In j t /\ eligible Q now g j = true /\ has_prio p j = true.
Proof.
  unfold full. split; intros H.
  - apply (Permutation_in _ (order_perm _ _)) in H. apply filter_In in H. rewrite andb_true_iff in H. tauto.
  - apply (Permutation_in _ (Permutation_sym (order_perm _ _))). apply filter_In. rewrite andb_true_iff. tauto.
Qed.
Lemma has_prio_of p j : has_prio p j = true -> prio_of j = p.
Proof. unfold has_prio, prio_of. destruct (j_prio j); try discriminate. rewrite Z.eqb_eq. auto. Qed.

Lemma full_sorted Q now g t p : StronglySorted before (full Q now g t p).
Proof.
  assert (Hs : StronglySorted (fun a b => le_next a b = true) (full Q now g t p))
    by (apply order_sorted; [exact le_next_total|exact le_next_trans]).
  assert (Hp : Forall (fun j => prio_of j = p) (full Q now g t p)).
  { apply Forall_forall. intros j Hj. apply full_in in Hj. apply has_prio_of. tauto. }
  induction Hs as [|a l Hs IH Ha]; constructor.
  - apply IH. inversion Hp; auto.
  - inversion Hp as [|? ? Pa Pl]; subst. rewrite Forall_forall in *. intros b Hb. right.
    split; [symmetry; auto|]. apply le_next_spec. auto.
Qed.

Lemma sorted_app {A} (R : A -> A -> Prop) a b :
  StronglySorted R a -> StronglySorted R b -> (forall x y, In x a -> In y b -> R x y) -> StronglySorted R (a ++ b).
Proof.
  intros Ha Hb H. induction Ha as [|x l Hl IH Hx]; cbn [app]; auto.
  constructor.
  - apply IH. intros; apply H; cbn; auto.
  - apply Forall_app. split; auto. apply Forall_forall. intros y Hy. apply H; cbn; auto.
Qed.
Lemma sorted_impl {A} (R S : A -> A -> Prop) l : (forall a b, R a b -> S a b) -> StronglySorted R l -> StronglySorted S l.
Proof.
  intros H Hs. induction Hs; constructor; auto. eapply Forall_impl; [|eassumption]. auto.
Qed.

Lemma flat_sorted Q now g t ps :
  StronglySorted (fun a b => a > b) ps -> StronglySorted before (flat_map (full Q now g t) ps).
Proof.
  induction 1 as [|p l Hl IH Hp]; cbn [flat_map]; [constructor|].
  apply sorted_app; auto; [apply full_sorted|].
  intros x y Hx Hy. apply in_flat_map in Hy. destruct Hy as (q & Hq & Hy).
  apply full_in in Hx. apply full_in in Hy. left.
  rewrite (has_prio_of p x), (has_prio_of q y) by tauto. rewrite Forall_forall in Hp. auto.
Qed.
Lemma prios_sorted : StronglySorted (fun a b => a > b) [1000; 850; 750; 500; 250; 0].
Proof. repeat constructor; lia. Qed.
Lemma sorted_firstn {A} (R : A -> A -> Prop) n l : StronglySorted R l -> StronglySorted R (firstn n l).
Proof.
  intros H. revert n. induction H as [|x l Hl IH Hx]; intros [|n]; cbn [firstn]; constructor; auto.
  rewrite Forall_forall in *. intros y Hy. apply Hx. rewrite <- (firstn_skipn n l). apply in_or_app. auto.
Qed.
Lemma sorted_firstns Q now g t n ps :
  StronglySorted (fun a b => a > b) ps ->
  StronglySorted before (flat_map (fun p => firstn n (full Q now g t p)) ps).
Proof.
  induction 1 as [|p l Hl IH Hp]; cbn [flat_map]; [constructor|].
  apply sorted_app; auto; [apply sorted_firstn; apply full_sorted|].
  intros x y Hx Hy. apply in_flat_map in Hy. destruct Hy as (q & Hq & Hy).
  assert (Hx' : In x (full Q now g t p)) by (rewrite <- (firstn_skipn n (full Q now g t p)); apply in_or_app; auto).
  assert (Hy' : In y (full Q now g t q)) by (rewrite <- (firstn_skipn n (full Q now g t q)); apply in_or_app; auto).
  apply full_in in Hx'. apply full_in in Hy'. left.
  rewrite (has_prio_of p x), (has_prio_of q y) by tauto. rewrite Forall_forall in Hp. auto.
Qed.

(** All the jobs that could be returned, best first. *)
Definition ranking (Q : sql) (now : Z) (g : get_req) (t : table) : list job :=
  match g_prio g with
  | Some p => full Q now g t p
  | None => flat_map (full Q now g t) [1000; 850; 750; 500; 250; 0]
  end.

Lemma select_ranking Q now g t : select Q now g t = firstn (limit g) (ranking Q now g t).
Proof.
  unfold select, ranking. destruct (g_prio g); [reflexivity|].
  rewrite order_id.
  - unfold query. fold (full Q now g t). apply (firstn_flat_map (limit g) (full Q now g t)).
  - eapply sorted_impl; [|apply (sorted_firstns Q now g t (limit g)); apply prios_sorted].
    intros a b. unfold before, ge_prio. rewrite Z.leb_le. lia.
Qed.
Lemma ranking_sorted Q now g t : StronglySorted before (ranking Q now g t).
Proof. unfold ranking. destruct (g_prio g); [apply full_sorted|apply flat_sorted; apply prios_sorted]. Qed.

Lemma filter_perm_split (p q : job -> bool) t :
  Permutation (filter (fun j => p j || q j) t) (filter p t ++ filter (fun j => negb (p j) && q j) t).
Proof.
  induction t as [|x t IH]; cbn [filter app]; auto.
  destruct (p x); cbn [orb negb andb].
  - cbn [app]. constructor. exact IH.
  - destruct (q x); auto. rewrite IH. apply Permutation_middle.
Qed.
Lemma flat_perm Q now g t ps :
  NoDup ps ->
  Permutation (flat_map (full Q now g t) ps)
              (filter (fun j => eligible Q now g j && existsb (fun p => has_prio p j) ps) t).
Proof.
  induction ps as [|p ps IH]; intros Hn; cbn [flat_map existsb].
  - induction t as [|x t IHt]; cbn [filter]; auto. rewrite andb_false_r. exact IHt.
  - inversion Hn as [|? ? Hp Hn']; subst. rewrite (IH Hn'). unfold full. rewrite order_perm.
    symmetry.
    assert (E : forall (f h : job -> bool) (l : table), (forall j, f j = h j) -> filter f l = filter h l)
      by (intros; apply filter_ext; auto).
    rewrite (E _ (fun j => (eligible Q now g j && has_prio p j)
                           || (eligible Q now g j && existsb (fun q => has_prio q j) ps)))
      by (intros; apply andb_orb_distrib_r).
    rewrite filter_perm_split. apply Permutation_app_head.
    rewrite (E (fun j => negb (eligible Q now g j && has_prio p j) && (eligible Q now g j && existsb (fun q => has_prio q j) ps))
               (fun j => eligible Q now g j && existsb (fun q => has_prio q j) ps)); [reflexivity|]. intros j. destruct (eligible Q now g j); cbn [andb negb]; auto.
    destruct (has_prio p j) eqn:E1; cbn [negb andb]; auto.
    symmetry. apply not_true_is_false. intros H. apply existsb_exists in H. destruct H as (q & Hq & E2).
    apply Hp. apply has_prio_of in E1. apply has_prio_of in E2. congruence.
Qed.
Lemma ranking_perm Q now g t : Permutation (ranking Q now g t) (filter (wanted Q now g) t).
Proof.
  unfold ranking, wanted. destruct (g_prio g).
  - unfold full. apply order_perm.
  - apply flat_perm. repeat constructor; cbn; lia.
Qed.

Lemma select_in Q now g t j : In j (select Q now g t) -> In j t /\ wanted Q now g j = true.
Proof.
  rewrite select_ranking. intros H.
  assert (Hr : In j (ranking Q now g t))
    by (rewrite <- (firstn_skipn (limit g) (ranking Q now g t)); apply in_or_app; auto).
  apply (Permutation_in _ (ranking_perm Q now g t)) in Hr. apply filter_In in Hr. exact Hr.
Qed.
Lemma nodup_firstn {A} n (l : list A) : NoDup l -> NoDup (firstn n l).
Proof. intros H. rewrite <- (firstn_skipn n l) in H. exact (NoDup_app_l _ _ H). Qed.
Lemma select_nodup Q now g t : NoDup (ids t) -> NoDup (ids (select Q now g t)).
Proof.
  intros H. rewrite select_ranking. unfold ids. rewrite <- firstn_map. apply nodup_firstn.
  eapply Permutation_NoDup; [|exact (filter_ids_nodup (wanted Q now g) t H)].
  apply Permutation_map. symmetry. apply ranking_perm.
Qed.
Lemma wanted_waiting Q now g j : wanted Q now g j = true -> waiting j.
Proof.
  unfold wanted, eligible. rewrite !andb_true_iff. intros H.
  destruct H as [[[[H _] _] _] _]. apply in_states_true in H. cbn in H. unfold waiting. intuition congruence.
Qed.

(** ** What GetJobs does to the rows *)
(** What becomes of a selected row. *)
Definition taken (Q : sql) (now : Z) (j : job) : job :=
  if q_crashed Q (j_name j) then with_state FAILED j
  else if is_retriable j then take_retriable Q now j j
  else with_last (Some now) (with_state RUNNING j).

Lemma take_retriable_id Q now s j : j_id (take_retriable Q now s j) = j_id j /\ j_parent (take_retriable Q now s j) = j_parent j.
Proof. unfold take_retriable. case_if; [auto|]. destruct (retry_time _ _); auto. Qed.

Lemma take_all_map Q now l : forall t, NoDup (ids l) ->
  take_all Q now l t = map (fun j => match find (is_id (j_id j)) l with Some s => take_retriable Q now s j | None => j end) t.
Proof.
  induction l as [|s l IH]; intros t Hn; cbn [take_all find].
  - rewrite map_id. reflexivity.
  - inversion Hn as [|? ? Hs Hn']; subst. rewrite (IH _ Hn'). unfold update_id, update. rewrite map_map.
    apply map_ext. intros j.
    assert (Es : is_id (j_id j) s = is_id (j_id s) j) by apply N.eqb_sym. rewrite Es.
    destruct (is_id (j_id s) j) eqn:E; [|reflexivity]. apply is_id_true in E.
    destruct (take_retriable_id Q now s j) as [Ei _]. rewrite Ei.
    destruct (find (is_id (j_id j)) l) as [k|] eqn:F; [|reflexivity].
    exfalso. apply Hs. apply find_some in F. destruct F as [Hk F]. apply is_id_true in F.
    rewrite <- E, <- F. apply in_map. exact Hk.
Qed.

Lemma get_rows Q now g t t' r :
  NoDup (ids t) -> get_jobs Q now g t = Ok t' r ->
  t' = map (fun j => if in_ids (ids (select Q now g t)) j then taken Q now j else j) t /\
  r = RIds (map j_id (filter (fun j => negb (q_crashed Q (j_name j)) && (d_count (j_data j) <? 10)) (select Q now g t))).
Proof.
  intros Hn. unfold get_jobs. pose proof (select_nodup Q now g t Hn) as Hsn.
  assert (Hin := select_in Q now g t).
  destruct (select Q now g t) as [|s0 sl] eqn:Es; [discriminate|]. remember (s0 :: sl) as sel eqn:Esel.
  clear s0 sl Esel Es.
  set (crashed := filter (fun j => q_crashed Q (j_name j)) sel).
  set (rest := filter (fun j => negb (q_crashed Q (j_name j))) sel).
  set (plain := filter (fun j => negb (is_retriable j)) rest).
  intros H. injection H as H1 H2. subst r t'. split.
  2: { f_equal. f_equal. unfold rest. clear. induction sel as [|x l IH]; cbn [filter]; auto.
       destruct (q_crashed Q (j_name x)); cbn [negb andb filter]; auto. destruct (d_count (j_data x) <? 10); congruence. }
  rewrite take_all_map by (unfold rest; do 2 apply filter_ids_nodup; exact Hsn).
  unfold update. rewrite !map_map. apply map_ext_in. intros j Hj.
  assert (Huniq : forall k, In k sel -> j_id k = j_id j -> k = j).
  { intros k Hk E. apply (ids_inj t); auto. apply Hin. exact Hk. }
  assert (Hc : in_ids (map j_id crashed) j = in_ids (ids sel) j && q_crashed Q (j_name j)).
  { apply eq_true_iff_eq. rewrite andb_true_iff, !in_ids_true. unfold crashed, ids. rewrite !in_map_iff. split.
    - intros (k & E & Hk). apply filter_In in Hk. destruct Hk as [Hk C].
      pose proof (Huniq k Hk E) as Ek; subst k. split; eauto.
    - intros ((k & E & Hk) & C). pose proof (Huniq k Hk E) as Ek; subst k. exists j. rewrite filter_In. auto. }
  assert (Hf : forall (p : job -> bool), find (is_id (j_id j)) (filter p sel) =
                 if in_ids (ids sel) j && p j then Some j else None).
  { intros p. destruct (find (is_id (j_id j)) (filter p sel)) as [k|] eqn:F.
    - apply find_some in F. destruct F as [Hk F]. apply filter_In in Hk. apply is_id_true in F. destruct Hk as [Hk Pk].
      pose proof (Huniq k Hk F) as ->. assert (I : in_ids (ids sel) j = true)
        by (apply in_ids_true; apply in_map; exact Hk). rewrite I, Pk. reflexivity.
    - destruct (in_ids (ids sel) j && p j) eqn:I; [|reflexivity]. apply andb_true_iff in I. destruct I as [I Pj].
      apply in_ids_true in I. apply in_map_iff in I. destruct I as (k & E & Hk). pose proof (Huniq k Hk E) as ->.
      exfalso. assert (X : is_id (j_id j) j = false) by (apply (find_none _ _ F); apply filter_In; auto).
      apply is_id_false in X. congruence. }
  assert (Hp : in_ids (map j_id plain) j = in_ids (ids sel) j && (negb (q_crashed Q (j_name j)) && negb (is_retriable j))).
  { apply eq_true_iff_eq. rewrite !andb_true_iff, !in_ids_true. unfold plain, rest, ids. rewrite !in_map_iff. split.
    - intros (k & E & Hk). rewrite !filter_In in Hk. destruct Hk as [[Hk C] P].
      pose proof (Huniq k Hk E) as Ek; subst k. split; eauto.
    - intros ((k & E & Hk) & C). pose proof (Huniq k Hk E) as Ek; subst k. exists j. rewrite !filter_In. tauto. }
  assert (Hr : find (is_id (j_id j)) (filter is_retriable rest) =
               if in_ids (ids sel) j && (negb (q_crashed Q (j_name j)) && is_retriable j) then Some j else None).
  { rewrite <- (Hf (fun x => negb (q_crashed Q (j_name x)) && is_retriable x)). f_equal. unfold rest. clear.
    induction sel as [|x l IH]; cbn [filter]; auto.
    destruct (q_crashed Q (j_name x)); cbn [negb andb filter]; auto. destruct (is_retriable x); congruence. }
  assert (Eid : forall y, in_ids y (with_state FAILED j) = in_ids y j) by reflexivity.
  rewrite Hc. unfold taken. destruct (in_ids (ids sel) j) eqn:I; cbn [andb].
  - destruct (q_crashed Q (j_name j)) eqn:C; cbn [andb negb].
    + rewrite Eid, Hp. cbn [negb andb j_id with_state]. rewrite Hr. reflexivity.
    + rewrite Hp. destruct (is_retriable j) eqn:R; cbn [negb andb j_id with_state with_last]; rewrite Hr;
        cbn [negb andb]; reflexivity.
  - rewrite Hp. cbn [andb]. rewrite Hr. reflexivity.
Qed.

Lemma taken_id Q now j : j_id (taken Q now j) = j_id j /\ j_parent (taken Q now j) = j_parent j.
Proof. unfold taken. case_if; auto. case_if; auto. apply take_retriable_id. Qed.
Lemma taken_state Q now j : In (j_state (taken Q now j)) [RUNNING; RUNQUEUED; FAILED].
Proof.
  unfold taken, take_retriable. case_if; [cbn; auto|]. case_if; [|cbn; auto]. case_if; [cbn; auto|].
  destruct (retry_time _ _); cbn; auto.
Qed.
