(** Proofs about the command queue model. *)
From Verif Require Import Base Queue_Spec Queue_Model.

Section Proofs.
Context {A : Type}.
Notation P := (pending A).

(** Stable insertion sort by a key. *)
Fixpoint ins (key : P -> N) (x : P) (l : list P) : list P :=
  match l with
  | [] => [x]
  | y :: l' => if N.leb (key y) (key x) then y :: ins key x l' else x :: l
  end.
Definition sortby (key : P -> N) (l : list P) : list P := fold_left (fun acc x => ins key x acc) l [].

Lemma sortby_snoc key l x : sortby key (l ++ [x]) = ins key x (sortby key l).
Proof. unfold sortby. rewrite fold_left_app. reflexivity. Qed.

Inductive srt (key : P -> N) : list P -> Prop :=
| srt_nil : srt key []
| srt_cons x l : (forall y, In y l -> (key x <= key y)%N) -> srt key l -> srt key (x :: l).

Lemma ins_in key x l y : In y (ins key x l) <-> y = x \/ In y l.
Proof.
  induction l as [|z l IH]; cbn; [intuition|].
  destruct (N.leb (key z) (key x)); cbn; rewrite ?IH; intuition.
Qed.

Lemma ins_perm key x l : Permutation (ins key x l) (x :: l).
Proof.
  induction l as [|z l IH]; cbn; [reflexivity|].
  destruct (N.leb (key z) (key x)); [|reflexivity].
  rewrite IH. constructor.
Qed.

Lemma ins_srt key x l : srt key l -> srt key (ins key x l).
Proof.
  induction 1 as [|z l Hz Hl IH]; cbn.
  - constructor; [easy|constructor].
  - destruct (N.leb_spec (key z) (key x)) as [H|H].
    + constructor; [|assumption]. intros y Hy. apply ins_in in Hy as [->|Hy]; auto.
    + constructor; [|constructor; assumption]. intros y [<-|Hy]; [lia|]. specialize (Hz y Hy). lia.
Qed.

Lemma sortby_perm key l : Permutation (sortby key l) l.
Proof.
  induction l as [|x l IH] using rev_ind; [reflexivity|].
  rewrite sortby_snoc, ins_perm, IH. apply Permutation_cons_append.
Qed.

Lemma sortby_in key l y : In y (sortby key l) <-> In y l.
Proof.
  split; apply Permutation_in; [|apply Permutation_sym]; apply sortby_perm.
Qed.

Lemma sortby_srt key l : srt key (sortby key l).
Proof.
  induction l as [|x l IH] using rev_ind; [constructor|].
  rewrite sortby_snoc. apply ins_srt, IH.
Qed.

Lemma srt_app_inv key a b : srt key (a ++ b) ->
  srt key a /\ srt key b /\ (forall x y, In x a -> In y b -> (key x <= key y)%N).
Proof.
  induction a as [|z a IH]; cbn; intros H.
  - split; [constructor|split; [assumption|easy]].
  - inversion H as [|? ? Hz Hl]; subst. apply IH in Hl as (H1 & H2 & H3).
    split; [|split; [assumption|]].
    + constructor; [|assumption]. intros y Hy. apply Hz. apply in_or_app. auto.
    + intros x y [<-|Hx] Hy; [apply Hz, in_or_app; auto|auto].
Qed.

(** Insertion splits a sorted list. *)
Lemma ins_split key x l : srt key l ->
  exists a b, ins key x l = a ++ x :: b /\ l = a ++ b /\
    (forall y, In y a -> (key y <= key x)%N) /\ (forall y, In y b -> (key x < key y)%N).
Proof.
  induction 1 as [|z l Hz Hl IH]; cbn.
  - exists [], []. cbn. intuition.
  - destruct (N.leb_spec (key z) (key x)) as [H|H].
    + destruct IH as (a & b & E1 & E2 & H1 & H2). exists (z :: a), b.
      rewrite E1, E2. cbn. repeat split; auto. intros y [<-|Hy]; auto.
    + exists [], (z :: l). cbn. repeat split; [easy|]. intros y [<-|Hy]; [lia|]. specialize (Hz y Hy); lia.
Qed.

(** Removing [x] from the arrival list removes it from the sorted list, and everything
    sorted before it with the same key arrived before it. *)
Lemma sortby_split key l1 x l2 :
  exists a b, sortby key (l1 ++ x :: l2) = a ++ x :: b /\ sortby key (l1 ++ l2) = a ++ b /\
    (forall y, In y a -> key y = key x -> In y l1) /\
    (forall y, In y a -> In y (l1 ++ l2)).
Proof.
  induction l2 as [|z l2 IH] using rev_ind.
  - rewrite sortby_snoc, app_nil_r.
    destruct (ins_split key x (sortby key l1) (sortby_srt key l1)) as (a & b & E1 & E2 & H1 & H2).
    exists a, b. repeat split; auto.
    + intros y Hy _. apply (sortby_in key). rewrite E2. apply in_or_app. auto.
    + intros y Hy. apply (sortby_in key). rewrite E2. apply in_or_app; auto.
  - destruct IH as (a & b & E1 & E2 & H1 & H2).
    rewrite app_comm_cons, !app_assoc, !sortby_snoc, E1, E2.
    assert (Hs : srt key (a ++ x :: b)) by (rewrite <- E1; apply sortby_srt).
    clear E1 E2. destruct (N.leb_spec (key x) (key z)) as [Hxz|Hxz].
    + (* z goes after x *)
      assert (Hsplit : forall c, (forall y, In y c -> (key y <= key z)%N) ->
                forall d, ins key z (c ++ d) = c ++ ins key z d).
      { induction c as [|w c IHc]; intros Hc d; cbn; [reflexivity|].
        destruct (N.leb_spec (key w) (key z)) as [|Hw]; [|specialize (Hc w (or_introl eq_refl)); lia].
        rewrite IHc; [reflexivity|]. intros; apply Hc; right; assumption. }
      apply srt_app_inv in Hs as (_ & _ & Hab).
      assert (Ha : forall y, In y a -> (key y <= key z)%N).
      { intros y Hy. specialize (Hab y x Hy (or_introl eq_refl)). lia. }
      exists a, (ins key z b). rewrite !Hsplit by assumption. cbn.
      destruct (N.leb_spec (key x) (key z)); [|lia]. repeat split; auto.
      intros y Hy. rewrite <- app_assoc. specialize (H2 y Hy). apply in_app_or in H2 as []; apply in_or_app; [auto|right; apply in_or_app; auto].
    + (* z goes before x: inside a *)
      apply srt_app_inv in Hs as (Ha & Hb & Hab).
      exists (ins key z a), b.
      assert (Hsplit : forall c d, (forall y, In y d -> (key z < key y)%N) -> ins key z (c ++ d) = ins key z c ++ d).
      { intros c d Hd. induction c as [|w c IHc]; cbn.
        - destruct d as [|w d]; cbn; [reflexivity|].
          destruct (N.leb_spec (key w) (key z)) as [Hw|]; [|reflexivity].
          specialize (Hd w (or_introl eq_refl)). lia.
        - destruct (N.leb_spec (key w) (key z)); cbn; [rewrite IHc; reflexivity|reflexivity]. }
      assert (Hb' : forall y, In y b -> (key x <= key y)%N) by (inversion Hb; subst; assumption).
      rewrite !Hsplit.
      * repeat split; auto.
        -- intros y Hy Hk. apply ins_in in Hy as [->|Hy]; [lia|auto].
        -- intros y Hy. rewrite <- app_assoc. apply ins_in in Hy as [->|Hy].
           ++ apply in_or_app. right. apply in_or_app. right. left. reflexivity.
           ++ specialize (H2 y Hy). apply in_app_or in H2 as []; apply in_or_app; [auto|right; apply in_or_app; auto].
      * intros y Hy. specialize (Hb' y Hy). lia.
      * intros y [<-|Hy]; [lia|]. specialize (Hb' y Hy). lia.
Qed.

(** [pick_min] finds the first minimum. *)
Lemma pick_min_spec key (l : list P) :
  match pick_min key l with
  | None => l = []
  | Some (x, rest) => exists l1 l2, l = l1 ++ x :: l2 /\ rest = l1 ++ l2 /\
      (forall y, In y l1 -> (key x < key y)%N) /\ (forall y, In y l2 -> (key x <= key y)%N)
  end.
Proof.
  induction l as [|x l IH]; cbn; [reflexivity|].
  destruct (pick_min key l) as [[y rest]|].
  - destruct IH as (l1 & l2 & -> & -> & H1 & H2).
    destruct (N.leb_spec (key x) (key y)) as [H|H].
    + exists [], (l1 ++ y :: l2). cbn. repeat split; [easy|].
      intros z Hz. apply in_app_or in Hz as [Hz|[<-|Hz]]; [specialize (H1 z Hz)| |specialize (H2 z Hz)]; lia.
    + exists (x :: l1), l2. cbn. repeat split; auto. intros z [<-|Hz]; auto.
  - subst l. exists [], []. cbn. repeat split; easy.
Qed.

Lemma sortby_min key l1 x l2 :
  (forall y, In y l1 -> (key x < key y)%N) -> (forall y, In y l2 -> (key x <= key y)%N) ->
  sortby key (l1 ++ x :: l2) = x :: sortby key (l1 ++ l2).
Proof.
  intros H1 H2. destruct (sortby_split key l1 x l2) as (a & b & E1 & E2 & Ha & Hin).
  destruct a as [|z a]; [cbn in *; congruence|exfalso].
  assert (Hz : In z (l1 ++ l2)) by (apply Hin; left; reflexivity).
  pose proof (sortby_srt key (l1 ++ x :: l2)) as Hs. rewrite E1 in Hs.
  apply srt_app_inv in Hs as (_ & _ & Hs). specialize (Hs z x (or_introl eq_refl) (or_introl eq_refl)).
  apply in_app_or in Hz as [Hz|Hz].
  - specialize (H1 z Hz). lia.
  - specialize (H2 z Hz). assert (key z = key x) as Hk by lia.
    specialize (Ha z (or_introl eq_refl) Hk). specialize (H1 z Ha). lia.
Qed.

(** Concrete entries of a pending command. *)
Definition qent (p : P) : N * (A * N) := (p_sched p, (p_item p, p_tmo p)).
Definition lent (p : P) : N * N := (p_tmo p, p_sched p).

Definition Rep (q : queue A) (l : list P) : Prop :=
  q_queue q = map qent (sortby p_sched l) /\ q_lookup q = map lent (sortby p_tmo l).

Lemma mm_insert_q p l : mm_insert (p_sched p) (p_item p, p_tmo p) (map qent l) = map qent (ins p_sched p l).
Proof.
  induction l as [|x l IH]; cbn; [reflexivity|].
  destruct (N.leb (p_sched x) (p_sched p)); cbn; [rewrite IH; reflexivity|reflexivity].
Qed.

Lemma mm_insert_l p l : mm_insert (p_tmo p) (p_sched p) (map lent l) = map lent (ins p_tmo p l).
Proof.
  induction l as [|x l IH]; cbn; [reflexivity|].
  destruct (N.leb (p_tmo x) (p_tmo p)); cbn; [rewrite IH; reflexivity|reflexivity].
Qed.

Lemma take_match_split s t a x b :
  (forall y, In y a -> ~ (p_sched y = s /\ p_tmo y = t)) ->
  p_sched x = s -> p_tmo x = t ->
  take_match s t (map qent (a ++ x :: b)) = Some (p_item x, map qent (a ++ b)).
Proof.
  intros Ha Hs Ht. induction a as [|y a IH]; cbn.
  - subst. rewrite !N.eqb_refl. reflexivity.
  - destruct (N.eqb_spec (p_sched y) s) as [Hys|]; destruct (N.eqb_spec (p_tmo y) t) as [Hyt|]; cbn.
    + exfalso. apply (Ha y); [left; reflexivity|auto].
    + rewrite IH; [reflexivity|]. intros z Hz; apply Ha; right; assumption.
    + rewrite IH; [reflexivity|]. intros z Hz; apply Ha; right; assumption.
    + rewrite IH; [reflexivity|]. intros z Hz; apply Ha; right; assumption.
Qed.

Lemma drop_lookup_split s t a x b :
  (forall y, In y a -> ~ (p_sched y = s /\ p_tmo y = t)) ->
  p_sched x = s -> p_tmo x = t ->
  drop_lookup t s (map lent (a ++ x :: b)) = map lent (a ++ b).
Proof.
  intros Ha Hs Ht. induction a as [|y a IH]; cbn.
  - subst. rewrite !N.eqb_refl. reflexivity.
  - destruct (N.eqb_spec (p_sched y) s) as [Hys|]; destruct (N.eqb_spec (p_tmo y) t) as [Hyt|]; cbn.
    + exfalso. apply (Ha y); [left; reflexivity|auto].
    + rewrite IH; [reflexivity|]. intros z Hz; apply Ha; right; assumption.
    + rewrite IH; [reflexivity|]. intros z Hz; apply Ha; right; assumption.
    + rewrite IH; [reflexivity|]. intros z Hz; apply Ha; right; assumption.
Qed.

Lemma dequeue_refines q l now : Rep q l ->
  Rep (fst (q_dequeue q now)) (fst (spec_get l now)) /\ snd (q_dequeue q now) = snd (spec_get l now).
Proof.
  intros [Hq Hl]. unfold q_dequeue, spec_get.
  pose proof (pick_min_spec p_tmo l) as HT.
  destruct (pick_min p_tmo l) as [[x rest]|].
  - destruct HT as (l1 & l2 & E & Er & H1 & H2).
    assert (El : q_lookup q = lent x :: map lent (sortby p_tmo (l1 ++ l2)))
      by (rewrite Hl, E, (sortby_min _ _ _ _ H1 H2); reflexivity).
    rewrite El. cbn [lent].
    destruct (N.leb_spec (p_tmo x) now) as [Hnow|Hnow].
    + destruct (sortby_split p_sched l1 x l2) as (a & b & E1 & E2 & Ha & Hin).
      rewrite Hq, E, E1, take_match_split.
      * cbn. split; [|reflexivity]. unfold Rep. cbn. rewrite Er, E2. auto.
      * intros y Hy [Hys Hyt]. specialize (Ha y Hy Hys). specialize (H1 y Ha). lia.
      * reflexivity.
      * reflexivity.
    + unfold dequeue_due.
      pose proof (pick_min_spec p_sched l) as HS.
      destruct (pick_min p_sched l) as [[y rest']|].
      * destruct HS as (m1 & m2 & E' & Er' & G1 & G2).
        rewrite Hq, E', (sortby_min _ _ _ _ G1 G2). cbn [map qent].
        destruct (N.leb_spec (p_sched y) now) as [Hs|Hs].
        -- cbn. split; [|reflexivity]. unfold Rep; cbn. rewrite Er'. split; [reflexivity|].
           rewrite El. change (lent x :: map lent (sortby p_tmo (l1 ++ l2))) with (map lent (x :: sortby p_tmo (l1 ++ l2))).
           rewrite <- (sortby_min _ _ _ _ H1 H2), <- E, E'.
           destruct (sortby_split p_tmo m1 y m2) as (a & b & E1 & E2 & Ha & Hin).
           rewrite E1, E2. apply drop_lookup_split; try reflexivity.
           intros z Hz [Hzs Hzt]. specialize (Ha z Hz Hzt). specialize (G1 z Ha). lia.
        -- cbn. split; [|reflexivity]. rewrite <- E'. split; [exact Hq|exact Hl].
      * subst l. destruct l1; discriminate.
  - subst l. cbn in Hq, Hl. rewrite Hl. unfold dequeue_due. rewrite Hq. cbn. split; [split; cbn; auto|reflexivity].
Qed.

Lemma same_time_ins t x l : srt p_sched l ->
  same_time t (ins p_sched x l) = same_time t l ++ same_time t [x].
Proof.
  induction 1 as [|z l Hz Hl IH]; cbn; [reflexivity|].
  destruct (N.leb_spec (p_sched z) (p_sched x)) as [H|H]; cbn.
  - fold (same_time t (ins p_sched x l)) (same_time t l). rewrite IH. cbn.
    destruct (N.eqb (p_sched z) t); reflexivity.
  - fold (same_time t l). destruct (N.eqb_spec (p_sched x) t) as [Hx|Hx]; [|rewrite app_nil_r; reflexivity].
    assert (same_time t l = []) as Hn.
    { clear IH. induction l as [|w l IHl]; [reflexivity|]. cbn.
      destruct (N.eqb_spec (p_sched w) t) as [Hw|Hw].
      - specialize (Hz w (or_introl eq_refl)). lia.
      - apply IHl; [intros; apply Hz; right; assumption|inversion Hl; assumption]. }
    rewrite Hn. destruct (N.eqb_spec (p_sched z) t); [lia|reflexivity].
Qed.

Lemma sortby_schedule_order l : in_schedule_order l (sortby p_sched l).
Proof.
  split.
  - pose proof (sortby_srt p_sched l) as H. induction H; constructor; auto.
  - intros t. induction l as [|x l IH] using rev_ind; [reflexivity|].
    rewrite sortby_snoc, same_time_ins by apply sortby_srt.
    unfold same_time in *. rewrite filter_app, IH. reflexivity.
Qed.

Lemma spec_get_none_same l now l' : spec_get (A:=A) l now = (l', None) -> l' = l.
Proof.
  unfold spec_get. destruct (pick_min p_tmo l) as [[x r]|]; [|congruence].
  destruct (N.leb (p_tmo x) now); [congruence|].
  destruct (pick_min p_sched l) as [[y r']|]; [|congruence].
  destruct (N.leb (p_sched y) now); congruence.
Qed.

Lemma step_refines q l o : Rep q l -> is_abandon o = false ->
  exists l', spec_step l o (snd (q_step q o)) l' /\ Rep (fst (q_step q o)) l'.
Proof.
  intros HR Ho. destruct o as [x s t|now| | |lim]; cbn in Ho; try discriminate.
  - exists (l ++ [mkPending x s t]). split; [constructor|].
    destruct HR as [Hq Hl]. unfold Rep, q_step, q_push; cbn. rewrite Hq, Hl, !sortby_snoc.
    rewrite <- (mm_insert_q (mkPending x s t)), <- (mm_insert_l (mkPending x s t)). auto.
  - pose proof (dequeue_refines q l now HR) as [H1 H2].
    cbn. destruct (q_dequeue q now) as [q' r]. cbn in *.
    destruct (spec_get l now) as [l' r'] eqn:E. cbn in *. subst r'.
    exists l'. split; [|assumption].
    destruct r as [x|]; [constructor; assumption|].
    pose proof (spec_get_none_same _ _ _ E). subst. constructor. assumption.
  - exists []. split; [|split; reflexivity].
    cbn. destruct HR as [Hq _]. rewrite Hq, map_map. cbn.
    change (map (fun x : P => p_item x) (sortby p_sched l)) with (map p_item (sortby p_sched l)).
    constructor. apply sortby_schedule_order.
  - exists []. split; [constructor|split; reflexivity].
Qed.

Lemma run_refines q l ops : Rep q l -> forallb (fun o => negb (is_abandon o)) ops = true ->
  exists l', spec_run l ops (snd (q_run q ops)) l' /\ Rep (fst (q_run q ops)) l'.
Proof.
  revert q l. induction ops as [|o ops IH]; intros q l HR Hops; cbn.
  - exists l. split; [constructor|assumption].
  - cbn in Hops. apply andb_true_iff in Hops as [Ho Hops]. apply negb_true_iff in Ho.
    destruct (step_refines q l o HR Ho) as (l1 & Hs & HR1).
    destruct (q_step q o) as [q1 out]. cbn in *.
    destruct (IH q1 l1 HR1 Hops) as (l2 & Hr & HR2).
    destruct (q_run q1 ops) as [q2 outs]. cbn in *.
    exists l2. split; [econstructor; eassumption|assumption].
Qed.

Lemma Rep_init : Rep q_init [].
Proof. split; reflexivity. Qed.

(** ** Conservation, for all histories including [abandonFutureCommands]. *)

Lemma mm_insert_perm {V} k (v : V) m : Permutation (mm_insert k v m) ((k, v) :: m).
Proof.
  induction m as [|[k' v'] m IH]; cbn; [reflexivity|].
  destruct (N.leb k' k); [|reflexivity]. rewrite IH. constructor.
Qed.

Lemma take_match_perm s t m x m' : take_match (A:=A) s t m = Some (x, m') ->
  Permutation (map (fun e => fst (snd e)) m) (x :: map (fun e => fst (snd e)) m').
Proof.
  revert x m'. induction m as [|[s' [y t']] m IH]; cbn; intros x m' H; [discriminate|].
  destruct (N.eqb s' s && N.eqb t' t).
  - inversion H; subst. reflexivity.
  - destruct (take_match s t m) as [[z m'']|]; [|discriminate]. inversion H; subst.
    cbn. rewrite (IH _ _ eq_refl). constructor.
Qed.

Lemma dequeue_due_perm (q : queue A) now :
  Permutation (contents q)
    (match snd (dequeue_due q now) with Some x => [x] | None => [] end ++ contents (fst (dequeue_due q now))).
Proof.
  unfold dequeue_due, contents. destruct (q_queue q) as [|[s [x t]] rest] eqn:E; cbn; [rewrite E; reflexivity|].
  destruct (N.leb s now); cbn; [reflexivity|rewrite E; reflexivity].
Qed.

Lemma dequeue_perm (q : queue A) now :
  Permutation (contents q)
    (match snd (q_dequeue q now) with Some x => [x] | None => [] end ++ contents (fst (q_dequeue q now))).
Proof.
  unfold q_dequeue. destruct (q_lookup q) as [|[t s] rest]; [apply dequeue_due_perm|].
  destruct (N.leb t now); [|apply dequeue_due_perm].
  destruct (take_match s t (q_queue q)) as [[x m]|] eqn:E.
  - unfold contents; cbn. apply take_match_perm in E. exact E.
  - pose proof (dequeue_due_perm (mkQueue (q_queue q) rest) now) as H. exact H.
Qed.

Lemma filter_split {B} (f : B -> bool) l : Permutation l (filter (fun x => negb (f x)) l ++ filter f l).
Proof.
  induction l as [|x l IH]; cbn; [reflexivity|].
  destruct (f x); cbn; [|constructor; assumption].
  rewrite <- Permutation_middle. constructor; assumption.
Qed.

Lemma step_perm (q : queue A) o :
  Permutation (pushed [o] ++ contents q)
    (snd (q_step q o) ++ discarded q o ++ contents (fst (q_step q o))).
Proof.
  destruct o as [x s t|now| | |lim]; unfold pushed; cbn.
  - unfold contents; cbn. apply (Permutation_map (fun e : N * (A * N) => fst (snd e))) with (l' := mm_insert s (x, t) (q_queue q)) (l := (s, (x, t)) :: q_queue q). apply Permutation_sym, mm_insert_perm.
  - pose proof (dequeue_perm q now) as H. destruct (q_dequeue q now) as [q' r]. cbn in *. exact H.
  - rewrite app_nil_r. reflexivity.
  - rewrite app_nil_r. reflexivity.
  - unfold contents; cbn. rewrite <- map_app. apply Permutation_map. apply filter_split.
Qed.

Lemma run_perm (q : queue A) ops :
  Permutation (pushed ops ++ contents q)
    (concat (snd (q_run q ops)) ++ all_discarded q ops ++ contents (fst (q_run q ops))).
Proof.
  revert q. induction ops as [|o ops IH]; intros q; cbn; [reflexivity|].
  pose proof (step_perm q o) as Hs. destruct (q_step q o) as [q1 out]. cbn in *.
  specialize (IH q1). destruct (q_run q1 ops) as [q2 outs]. cbn in *.
  unfold pushed in *. cbn in *. rewrite app_nil_r in Hs.
  set (pw := match o with Opush x _ _ => [x] | _ => [] end) in *.
  set (ps := flat_map _ ops) in *.
  rewrite <- !app_assoc.
  transitivity (ps ++ (pw ++ contents q)).
  { rewrite !app_assoc. apply Permutation_app_tail. apply Permutation_app_comm. }
  rewrite Hs.
  transitivity (out ++ discarded q o ++ (ps ++ contents q1)).
  { rewrite !app_assoc. apply Permutation_app_tail. rewrite <- !app_assoc. rewrite Permutation_app_comm. rewrite <- app_assoc. reflexivity. }
  rewrite IH. apply Permutation_app_head.
  rewrite !app_assoc. apply Permutation_app_tail. rewrite <- !app_assoc.
  rewrite (app_assoc (discarded q o)). rewrite (Permutation_app_comm (discarded q o)).
  rewrite <- app_assoc. reflexivity.
Qed.

(** ** The guarantees that survive [abandonFutureCommands]. *)

Definition WRep (q : queue A) (l : list P) : Prop := q_queue q = map qent (sortby p_sched l).

Lemma ins_filter key f x l : srt key l ->
  filter f (ins key x l) = if f x then ins key x (filter f l) else filter f l.
Proof.
  induction 1 as [|z l Hz Hl IH]; cbn; [destruct (f x); reflexivity|].
  destruct (N.leb_spec (key z) (key x)) as [H|H]; cbn; rewrite ?IH.
  - destruct (f z), (f x); cbn; try reflexivity. destruct (N.leb_spec (key z) (key x)); [reflexivity|lia].
  - destruct (f x) eqn:Ex; destruct (f z) eqn:Ez; cbn; try reflexivity.
    + destruct (N.leb_spec (key z) (key x)); [lia|reflexivity].
    + assert (Hd : forall d, (forall y, In y d -> (key x < key y)%N) -> ins key x d = x :: d).
      { intros [|w d] Hd; cbn; [reflexivity|]. destruct (N.leb_spec (key w) (key x)); [|reflexivity].
        specialize (Hd w (or_introl eq_refl)). lia. }
      rewrite Hd; [reflexivity|]. intros y Hy. apply filter_In in Hy as [Hy _]. specialize (Hz y Hy). lia.
Qed.

Lemma sortby_filter key f l : sortby key (filter f l) = filter f (sortby key l).
Proof.
  induction l as [|x l IH] using rev_ind; [reflexivity|].
  rewrite filter_app, sortby_snoc, ins_filter by apply sortby_srt. cbn.
  destruct (f x); [rewrite sortby_snoc, IH; reflexivity|rewrite app_nil_r; exact IH].
Qed.

Lemma first_match (f : P -> bool) l :
  (exists l1 y l2, l = l1 ++ y :: l2 /\ f y = true /\ forall z, In z l1 -> f z = false)
  \/ (forall z, In z l -> f z = false).
Proof.
  induction l as [|x l IH]; [right; easy|].
  destruct (f x) eqn:E.
  - left. exists [], x, l. cbn. repeat split; [exact E|easy].
  - destruct IH as [(l1 & y & l2 & -> & Hy & H)|H].
    + left. exists (x :: l1), y, l2. cbn. repeat split; auto. intros z [<-|Hz]; auto.
    + right. intros z [<-|Hz]; auto.
Qed.

Lemma take_match_none s t l :
  (forall z, In z l -> (N.eqb (p_sched z) s && N.eqb (p_tmo z) t) = false) ->
  take_match s t (map qent l) = None.
Proof.
  induction l as [|x l IH]; cbn; intros H; [reflexivity|].
  rewrite (H x (or_introl eq_refl)), IH; [reflexivity|]. intros; apply H; right; assumption.
Qed.

Lemma due_weak q l now : WRep q l ->
  match snd (dequeue_due q now) with
  | Some x => exists l1 p l2, l = l1 ++ p :: l2 /\ p_item p = x /\ (p_sched p <= now)%N /\
                (forall y, In y l1 -> (p_sched p < p_sched y)%N) /\
                (forall y, In y l2 -> (p_sched p <= p_sched y)%N) /\
                WRep (fst (dequeue_due q now)) (l1 ++ l2)
  | None => (forall y, In y l -> (now < p_sched y)%N) /\ WRep (fst (dequeue_due q now)) l
  end.
Proof.
  unfold WRep. intros Hq. unfold dequeue_due.
  pose proof (pick_min_spec p_sched l) as HS.
  destruct (pick_min p_sched l) as [[y rest']|].
  - destruct HS as (m1 & m2 & E' & _ & G1 & G2).
    assert (Hq' : q_queue q = qent y :: map qent (sortby p_sched (m1 ++ m2))).
    { rewrite Hq, E', (sortby_min _ _ _ _ G1 G2). reflexivity. }
    rewrite Hq'. cbn [qent]. destruct (N.leb_spec (p_sched y) now) as [H|H]; cbn.
    + exists m1, y, m2. repeat split; auto.
    + split; [|exact Hq]. intros z Hz. rewrite E' in Hz. apply in_app_or in Hz as [Hz|[<-|Hz]].
      * specialize (G1 z Hz). lia.
      * lia.
      * specialize (G2 z Hz). lia.
  - subst l. cbn in Hq. rewrite Hq. cbn. split; [easy|exact Hq].
Qed.

Lemma dequeue_weak q l now : WRep q l ->
  match snd (q_dequeue q now) with
  | Some x => exists l1 p l2, l = l1 ++ p :: l2 /\ p_item p = x /\
                ((p_tmo p <= now)%N \/
                 ((p_sched p <= now)%N /\ (forall y, In y l1 -> (p_sched p < p_sched y)%N) /\
                  (forall y, In y l2 -> (p_sched p <= p_sched y)%N))) /\
                WRep (fst (q_dequeue q now)) (l1 ++ l2)
  | None => (forall y, In y l -> (now < p_sched y)%N) /\ WRep (fst (q_dequeue q now)) l
  end.
Proof.
  intros HW.
  assert (Hdue : forall q', q_queue q' = q_queue q ->
    match snd (dequeue_due q' now) with
    | Some x => exists l1 p l2, l = l1 ++ p :: l2 /\ p_item p = x /\
                ((p_tmo p <= now)%N \/
                 ((p_sched p <= now)%N /\ (forall y, In y l1 -> (p_sched p < p_sched y)%N) /\
                  (forall y, In y l2 -> (p_sched p <= p_sched y)%N))) /\
                WRep (fst (dequeue_due q' now)) (l1 ++ l2)
    | None => (forall y, In y l -> (now < p_sched y)%N) /\ WRep (fst (dequeue_due q' now)) l
    end).
  { intros q' Eq. assert (HW' : WRep q' l) by (unfold WRep in *; congruence).
    pose proof (due_weak q' l now HW') as H. destruct (snd (dequeue_due q' now)); [|exact H].
    destruct H as (l1 & p & l2 & H1 & H2 & H3 & H4 & H5 & H6). exists l1, p, l2. repeat split; auto. }
  unfold q_dequeue. destruct (q_lookup q) as [|[t s] rest]; [apply Hdue; reflexivity|].
  destruct (N.leb_spec t now) as [Ht|Ht]; [|apply Hdue; reflexivity].
  unfold WRep in HW.
  destruct (first_match (fun z => N.eqb (p_sched z) s && N.eqb (p_tmo z) t) l)
    as [(l1 & p & l2 & E & Hp & Hno)|Hno].
  - apply andb_true_iff in Hp as [Hps Hpt]. apply N.eqb_eq in Hps, Hpt.
    destruct (sortby_split p_sched l1 p l2) as (a & b & E1 & E2 & Ha & Hin).
    rewrite HW, E, E1, take_match_split; auto.
    + cbn. exists l1, p, l2. repeat split; auto; [left; lia|]. unfold WRep. cbn. rewrite E2. reflexivity.
    + intros y Hy [Hys Hyt]. assert (In y l1) by (apply Ha; congruence).
      specialize (Hno y H). cbn in Hno. rewrite Hys, Hyt, !N.eqb_refl in Hno. discriminate.
  - rewrite HW, take_match_none.
    + apply Hdue. cbn. rewrite HW. reflexivity.
    + intros z Hz. apply Hno. apply (sortby_in p_sched). exact Hz.
Qed.

Lemma weak_push q l x s t : WRep q l -> WRep (q_push q x s t) (l ++ [mkPending x s t]).
Proof.
  unfold WRep, q_push; cbn. intros ->. rewrite sortby_snoc. apply (mm_insert_q (mkPending x s t)).
Qed.

Lemma weak_abandon q l lim : WRep q l -> WRep (q_abandon q lim) (filter (fun x => N.ltb (p_sched x) lim) l).
Proof.
  unfold WRep, q_abandon; cbn. intros ->. rewrite sortby_filter.
  induction (sortby p_sched l) as [|x m IH]; cbn; [reflexivity|].
  destruct (N.ltb (p_sched x) lim); cbn; rewrite IH; reflexivity.
Qed.

Lemma weak_run q l ops : WRep q l ->
  exists l', spec_run_weak l ops (snd (q_run q ops)) l' /\ WRep (fst (q_run q ops)) l'.
Proof.
  revert q l. induction ops as [|o ops IH]; intros q l HW; cbn; [exists l; split; [constructor|exact HW]|].
  assert (Hstep : exists l1, spec_step_weak l o (snd (q_step q o)) l1 /\ WRep (fst (q_step q o)) l1).
  { destruct o as [x s t|now| | |lim]; cbn.
    - eexists; split; [constructor|apply weak_push; exact HW].
    - pose proof (dequeue_weak q l now HW) as H. destruct (q_dequeue q now) as [q' [x|]]; cbn in *.
      + destruct H as (l1 & p & l2 & -> & <- & H & H'). exists (l1 ++ l2). split; [econstructor; eauto|exact H'].
      + destruct H as [H H']. exists l. split; [constructor; exact H|exact H'].
    - exists []. split; [|reflexivity]. unfold WRep in HW. rewrite HW, map_map. cbn.
      change (map (fun x : P => p_item x) (sortby p_sched l)) with (map p_item (sortby p_sched l)).
      constructor. apply sortby_schedule_order.
    - exists []. split; [constructor|reflexivity].
    - eexists; split; [constructor|apply weak_abandon; exact HW]. }
  destruct Hstep as (l1 & Hs & HW1). destruct (q_step q o) as [q1 out]; cbn in *.
  destruct (IH q1 l1 HW1) as (l2 & Hr & HW2). destruct (q_run q1 ops) as [q2 outs]; cbn in *.
  exists l2. split; [econstructor; eassumption|assumption].
Qed.

(** ** Gets out of order are paid for. *)
Inductive lsrt : list (N * N) -> Prop :=
| lsrt_nil : lsrt []
| lsrt_cons x l : (forall y, In y l -> (fst x <= fst y)%N) -> lsrt l -> lsrt (x :: l).
Lemma lsrt_insert t s l : lsrt l -> lsrt (mm_insert t s l).
Proof.
  induction 1 as [|[k v] l H S IH]; cbn [mm_insert]; [constructor; [intros y []|constructor]|].
  destruct (N.leb_spec k t) as [L|L].
  - constructor; [|exact IH]. intros y I. apply (Permutation_in y (mm_insert_perm t s l)) in I. destruct I as [<-|I]; [exact L|exact (H y I)].
  - constructor; [|constructor; assumption]. intros y [<-|I]; cbn [fst] in *; [lia|]. specialize (H y I). cbn [fst] in H. lia.
Qed.
Lemma drop_lookup_perm t s l : In (t, s) l -> Permutation l ((t, s) :: drop_lookup t s l).
Proof.
  induction l as [|[k v] l IH]; intros I; [destruct I|]. cbn [drop_lookup]. destruct (N.eqb_spec k t) as [->|]; destruct (N.eqb_spec v s) as [->|]; cbn [andb]; try reflexivity;
    (destruct I as [I|I]; [congruence|]; rewrite (IH I) at 1; apply perm_swap).
Qed.
Lemma drop_lookup_in t s l y : In y (drop_lookup t s l) -> In y l.
Proof. induction l as [|[k v] l IH]; cbn [drop_lookup]; [tauto|]. destruct (N.eqb k t && N.eqb v s); [intros I; right; exact I|]. intros [<-|I]; [left; reflexivity|right; exact (IH I)]. Qed.
Lemma lsrt_drop t s l : lsrt l -> lsrt (drop_lookup t s l).
Proof.
  induction 1 as [|[k v] l H S IH]; cbn [drop_lookup]; [constructor|]. destruct (N.eqb k t && N.eqb v s); [exact S|]. constructor; [|exact IH]. intros y I. apply H. exact (drop_lookup_in t s l y I).
Qed.
(** [g]: what is left of abandoned commands. *)
Definition Paid (q : queue A) (l : list P) (g : list (N * N)) : Prop := WRep q l /\ lsrt (q_lookup q) /\ Permutation (q_lookup q) (map lent l ++ g).
Lemma paid_insert q l g x s t : Paid q l g -> Paid (q_push q x s t) (l ++ [mkPending x s t]) g.
Proof.
  intros (W & S & E). split; [apply weak_push; exact W|]. split; [apply lsrt_insert; exact S|]. cbn [q_push q_lookup]. rewrite mm_insert_perm, E, map_app. cbn [map lent p_tmo p_sched].
  rewrite <- app_assoc. cbn [app]. apply Permutation_middle.
Qed.
Lemma paid_due q l g now : Paid q l g ->
  match snd (dequeue_due q now) with
  | Some x => exists l1 p l2, l = l1 ++ p :: l2 /\ p_item p = x /\ (p_sched p <= now)%N /\ (forall y, In y l1 -> (p_sched p < p_sched y)%N) /\
                (forall y, In y l2 -> (p_sched p <= p_sched y)%N) /\ Paid (fst (dequeue_due q now)) (l1 ++ l2) g
  | None => (forall y, In y l -> (now < p_sched y)%N) /\ Paid (fst (dequeue_due q now)) l g
  end.
Proof.
  intros (W & S & E). pose proof (pick_min_spec p_sched l) as HS. unfold dequeue_due. destruct (pick_min p_sched l) as [[y rest']|].
  - destruct HS as (m1 & m2 & E' & _ & G1 & G2).
    assert (Hq' : q_queue q = qent y :: map qent (sortby p_sched (m1 ++ m2))).
    { unfold WRep in W. rewrite W, E', (sortby_min _ _ _ _ G1 G2). reflexivity. }
    rewrite Hq'. cbn [qent]. destruct (N.leb_spec (p_sched y) now) as [H|H]; cbn [fst snd].
    + exists m1, y, m2. do 5 (split; [assumption||reflexivity|]). split; [reflexivity|]. cbn [q_lookup]. split; [apply lsrt_drop; exact S|].
      assert (I : In (lent y) (q_lookup q)). { apply (Permutation_in (lent y) (Permutation_sym E)). apply in_or_app. left. apply in_map. rewrite E'. apply in_or_app. right. left. reflexivity. }
      apply (Permutation_cons_inv (a := lent y)). transitivity (q_lookup q); [symmetry; exact (drop_lookup_perm (p_tmo y) (p_sched y) _ I)|]. transitivity (map lent l ++ g); [exact E|]. rewrite E', !map_app. cbn [map]. rewrite <- !app_assoc. cbn [app]. symmetry. apply Permutation_middle.
    + split; [|split; [exact W|split; assumption]]. intros z Hz. rewrite E' in Hz. apply in_app_or in Hz as [Hz|[<-|Hz]]; [specialize (G1 z Hz)|exact H|specialize (G2 z Hz)]; lia.
  - subst l. unfold WRep in W. cbn in W. rewrite W. cbn [fst snd]. split; [easy|split; [exact W|split; assumption]].
Qed.
Lemma paid_get q l g now : Paid q l g -> exists out l' g', snd (q_dequeue q now) = match out with [] => None | x :: _ => Some x end /\ (List.length out <= 1)%nat /\
  Paid (fst (q_dequeue q now)) l' g' /\
  (get_in_order l now out l' /\ List.length g' = List.length g \/ spec_step_weak l (Oget now) out l' /\ S (List.length g') = List.length g).
Proof.
  intros HP. pose proof HP as (W & S & E).
  assert (LIVE : forall y, In y l -> In (lent y) (q_lookup q)) by (intros y I; apply (Permutation_in _ (Permutation_sym E)); apply in_or_app; left; apply in_map; exact I).
  assert (FIRST : (forall y, In y l -> (now < p_tmo y)%N) -> exists out l' g', snd (dequeue_due q now) = match out with [] => None | x :: _ => Some x end /\ (List.length out <= 1)%nat /\
    Paid (fst (dequeue_due q now)) l' g' /\ (get_in_order l now out l' /\ List.length g' = List.length g \/ spec_step_weak l (Oget now) out l' /\ Datatypes.S (List.length g') = List.length g)).
  { intros H. pose proof (paid_due q l g now HP) as D. destruct (snd (dequeue_due q now)) as [x|].
    - destruct D as (l1 & p & l2 & E1 & <- & H1 & H2 & H3 & H4). exists [p_item p], (l1 ++ l2), g. split; [reflexivity|]. split; [cbn; lia|]. split; [exact H4|]. left. split; [|reflexivity]. eapply go_due; eassumption.
    - destruct D as [H1 H2]. exists [], l, g. split; [reflexivity|]. split; [cbn; lia|]. split; [exact H2|]. left. split; [|reflexivity]. apply go_none. intros y I. split; [exact (H y I)|exact (H1 y I)]. }
  unfold q_dequeue. destruct (q_lookup q) as [|[t s] rest] eqn:L.
  { apply FIRST. intros y I. destruct (LIVE y I). }
  inversion S as [|? ? LE S']; subst. assert (LOW : forall y, In y l -> (t <= p_tmo y)%N) by (intros y I; destruct (LIVE y I) as [X|X]; [injection X as -> _; lia|specialize (LE _ X); cbn [fst lent] in LE; exact LE]).
  destruct (N.leb_spec t now) as [Ht|Ht]; [|apply FIRST; intros y I; specialize (LOW y I); lia].
  unfold WRep in W. destruct (first_match (fun z => N.eqb (p_sched z) s && N.eqb (p_tmo z) t) l) as [(l1 & p & l2 & E0 & Hp & Hno)|Hno].
  - apply andb_true_iff in Hp as [Hps Hpt]. apply N.eqb_eq in Hps, Hpt. destruct (sortby_split p_sched l1 p l2) as (a & b & E1 & E2 & Ha & Hin).
    rewrite W, E0, E1, take_match_split; [|intros y Hy [Hys Hyt]; assert (I : In y l1) by (apply Ha; [exact Hy|congruence]); specialize (Hno y I); cbn in Hno; rewrite Hys, Hyt, !N.eqb_refl in Hno; discriminate|exact Hps|exact Hpt].
    exists [p_item p], (l1 ++ l2), g. cbn [fst snd]. split; [reflexivity|]. split; [cbn; lia|]. split.
    + split; [unfold WRep; cbn [q_queue]; rewrite E2; reflexivity|]. cbn [q_lookup]. split; [exact S'|]. apply (Permutation_cons_inv (a := (t, s))). rewrite E, E0, !map_app. cbn [map].
      replace (lent p) with (t, s) by (unfold lent; congruence). rewrite <- !app_assoc. cbn [app]. symmetry. apply Permutation_middle.
    + left. split; [|reflexivity]. rewrite <- E0. eapply go_late; [exact E0|lia|]. intros y I. rewrite Hpt. exact (LOW y I).
  - assert (NM : take_match s t (q_queue q) = None) by (rewrite W; apply take_match_none; intros z Hz; apply Hno; apply (sortby_in p_sched); exact Hz). rewrite NM.
    assert (G : In (t, s) g). { assert (I : In (t, s) (map lent l ++ g)) by (apply (Permutation_in _ E); left; reflexivity). apply in_app_or in I as [I|I]; [|exact I].
      apply in_map_iff in I as (y & Y & I). specialize (Hno y I). unfold lent in Y. injection Y as Y1 Y2. cbn in Hno. rewrite Y1, Y2, !N.eqb_refl in Hno. discriminate. }
    apply in_split in G as (g1 & g2 & ->). assert (HP' : Paid (mkQueue (q_queue q) rest) l (g1 ++ g2)).
    { split; [exact W|]. split; [exact S'|]. cbn [q_lookup]. apply (Permutation_cons_inv (a := (t, s))). rewrite E. rewrite !app_assoc. symmetry. apply Permutation_middle. }
    pose proof (paid_due _ l (g1 ++ g2) now HP') as D. assert (LEN : Datatypes.S (List.length (g1 ++ g2)) = List.length (g1 ++ (t, s) :: g2)) by (rewrite !app_length; cbn [List.length]; lia).
    destruct (snd (dequeue_due (mkQueue (q_queue q) rest) now)) as [x|].
    + destruct D as (l1 & p & l2 & E1 & <- & H1 & H2 & H3 & H4). exists [p_item p], (l1 ++ l2), (g1 ++ g2). split; [reflexivity|]. split; [cbn; lia|]. split; [exact H4|]. right. split; [|exact LEN].
      eapply sw_get_some; [exact E1|]. right. auto.
    + destruct D as [H1 H2]. exists [], l, (g1 ++ g2). split; [reflexivity|]. split; [cbn; lia|]. split; [exact H2|]. right. split; [|exact LEN]. apply sw_get_none. exact H1.
Qed.
Lemma paid_abandon q l g lim : Paid q l g -> exists g', Paid (q_abandon q lim) (filter (fun x => N.ltb (p_sched x) lim) l) g' /\
  List.length g' = (List.length g + List.length (filter (fun x => negb (N.ltb (p_sched x) lim)) l))%nat.
Proof.
  intros (W & S & E). exists (map lent (filter (fun x => negb (N.ltb (p_sched x) lim)) l) ++ g). split; [|rewrite app_length, map_length; lia].
  split; [apply weak_abandon; exact W|]. cbn [q_abandon q_lookup]. split; [exact S|]. rewrite E, app_assoc. apply Permutation_app_tail. rewrite <- map_app. apply Permutation_map.
  rewrite (filter_split (fun x => N.ltb (p_sched x) lim) l) at 1. apply Permutation_app_comm.
Qed.
Lemma paid_run ops : forall q l g, Paid q l g -> spec_run_paid l (List.length g) ops (snd (q_run q ops)).
Proof.
  induction ops as [|o ops IH]; intros q l g HP; [constructor|]. cbn [q_run].
  assert (NIL : Paid (mkQueue [] []) [] []) by (split; [reflexivity|]; split; [constructor|reflexivity]).
  destruct o as [x s t|now| | |lim]; cbn [q_step].
  - specialize (IH _ _ _ (paid_insert q l g x s t HP)). destruct (q_run (q_push q x s t) ops) as [q2 outs]. constructor. exact IH.
  - destruct (paid_get q l g now HP) as (out & l' & g' & D & LE & HP' & H). destruct (q_dequeue q now) as [q' r]. cbn [fst snd] in *. subst r.
    specialize (IH _ _ _ HP'). destruct (q_run q' ops) as [q2 outs]. cbn [snd] in *.
    replace (match match out with [] => None | x :: _ => Some x end with Some x => [x] | None => [] end) with out by (destruct out as [|x [|y out]]; cbn in *; [reflexivity|reflexivity|lia]).
    destruct H as [[H G]|[H G]]; [rewrite G in IH; eapply pd_get; eassumption|rewrite <- G; eapply pd_get_paid; eassumption].
  - cbn [q_getAll]. specialize (IH _ _ _ NIL). destruct (q_run (mkQueue [] []) ops) as [q2 outs]. cbn [snd] in *. destruct HP as (W & _). unfold WRep in W. rewrite W, map_map. cbn.
    change (map (fun x : P => p_item x) (sortby p_sched l)) with (map p_item (sortby p_sched l)). constructor; [apply sortby_schedule_order|exact IH].
  - unfold q_clear. specialize (IH _ _ _ NIL). destruct (q_run (mkQueue [] []) ops) as [q2 outs]. constructor. exact IH.
  - destruct (paid_abandon q l g lim HP) as (g' & HP' & G). specialize (IH _ _ _ HP'). destruct (q_run (q_abandon q lim) ops) as [q2 outs]. rewrite G in IH. constructor. exact IH.
Qed.

End Proofs.
