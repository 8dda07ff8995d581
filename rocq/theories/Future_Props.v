(** C27: commands that wait for a future commit. *)
From Verif Require Import Base Queue_Spec Queue_Model Queue_Proofs Future_Spec Future_Model.

Section Proofs.
Context {A : Type}.
Notation P := (pending A).

Lemma filter_key_ins key t (x : P) l : srt key l ->
  filter (fun y => N.eqb (key y) t) (ins key x l) = filter (fun y => N.eqb (key y) t) l ++ filter (fun y => N.eqb (key y) t) [x].
Proof.
  induction 1 as [|z l Hz Hl IH]; [reflexivity|]. cbn [ins]. destruct (N.leb_spec (key z) (key x)) as [H|H].
  - cbn [filter]. rewrite IH. cbn [filter]. destruct (N.eqb (key z) t); reflexivity.
  - cbn [filter]. destruct (N.eqb_spec (key x) t) as [E|E]; [|rewrite app_nil_r; reflexivity].
    destruct (N.eqb_spec (key z) t); [lia|].
    assert (F : filter (fun y => N.eqb (key y) t) l = []).
    { clear - Hz H E. induction l as [|y l IH]; [reflexivity|]. cbn [filter]. pose proof (Hz y (or_introl eq_refl)).
      destruct (N.eqb_spec (key y) t); [lia|]. apply IH. intros w Hw. apply Hz. right. exact Hw. }
    rewrite F. reflexivity.
Qed.
Lemma sortby_in_order key (l : list P) : in_order_of key l (sortby key l).
Proof.
  split.
  - pose proof (sortby_srt key l) as H. induction H; cbn; auto.
  - intros t. induction l as [|x l IH] using rev_ind; [reflexivity|].
    rewrite sortby_snoc, filter_key_ins by apply sortby_srt. rewrite IH, filter_app. reflexivity.
Qed.

Definition FRep (f : future A) (l : list P) : Prop :=
  f_wait f = map qent (sortby p_sched l) /\ f_tmo f = map lent (sortby p_tmo l).

Lemma filter_all_false {X} (p : X -> bool) l : (forall x, In x l -> p x = false) -> filter p l = [].
Proof. induction l as [|x l IH]; intros H; [reflexivity|]. cbn. rewrite (H x (or_introl eq_refl)). apply IH. intros y Hy. apply H. right. exact Hy. Qed.
Lemma filter_all_true {X} (p : X -> bool) l : (forall x, In x l -> p x = true) -> filter p l = l.
Proof. induction l as [|x l IH]; intros H; [reflexivity|]. cbn. rewrite (H x (or_introl eq_refl)). f_equal. apply IH. intros y Hy. apply H. right. exact Hy. Qed.

Lemma expire_refines now n : forall l : list P, List.length l = n ->
  expire now (map lent (sortby p_tmo l)) (map qent (sortby p_sched l)) =
  (map p_item (sortby p_tmo (filter (expired now) l)),
   map qent (sortby p_sched (filter (fun p => negb (expired now p)) l)),
   map lent (sortby p_tmo (filter (fun p => negb (expired now p)) l))).
Proof.
  induction n as [|n IH]; intros l Hl.
  - destruct l; [reflexivity|discriminate].
  - pose proof (pick_min_spec p_tmo l) as HT. destruct (pick_min p_tmo l) as [[x rest]|]; [|subst l; discriminate].
    destruct HT as (l1 & l2 & E & Er & H1 & H2).
    assert (Es : sortby p_tmo l = x :: sortby p_tmo (l1 ++ l2)) by (rewrite E; apply sortby_min; assumption).
    rewrite Es. cbn [map lent expire]. destruct (N.ltb_spec (p_tmo x) now) as [L|L].
    + destruct (sortby_split p_sched l1 x l2) as (a & b & E1 & E2 & Ha & Hin).
      assert (F1 : map qent (sortby p_sched l) = map qent (a ++ x :: b)) by (rewrite E, E1; reflexivity).
      rewrite F1, take_match_split; [|intros y Hy [Hys Hyt]; specialize (Ha y Hy Hys); specialize (H1 y Ha); lia|reflexivity|reflexivity].
      rewrite <- E2, IH by (rewrite E in Hl; rewrite app_length in *; cbn [List.length] in Hl; lia).
      assert (Ex : expired now x = true) by (unfold expired, deadline; apply N.ltb_lt; exact L).
      assert (Fn : filter (fun p => negb (expired now p)) l = filter (fun p => negb (expired now p)) (l1 ++ l2)).
      { rewrite E, !filter_app. cbn [filter]. rewrite Ex. reflexivity. }
      assert (Fe : filter (expired now) l = filter (expired now) l1 ++ x :: filter (expired now) l2).
      { rewrite E, !filter_app. cbn [filter]. rewrite Ex. reflexivity. }
      rewrite Fn, Fe, filter_app. f_equal. f_equal.
      rewrite (sortby_min p_tmo (filter (expired now) l1) x (filter (expired now) l2)).
      * cbn [map]. reflexivity.
      * intros y Hy. apply filter_In in Hy as [Hy _]. apply H1. exact Hy.
      * intros y Hy. apply filter_In in Hy as [Hy _]. apply H2. exact Hy.
    + assert (Hall : forall y, In y l -> expired now y = false).
      { intros y Hy. unfold expired, deadline. apply N.ltb_ge. rewrite E in Hy. apply in_app_iff in Hy as [Hy|[<-|Hy]]; [specialize (H1 y Hy); lia|exact L|specialize (H2 y Hy); lia]. }
      rewrite (filter_all_false (expired now) l Hall).
      rewrite (filter_all_true (fun p => negb (expired now p)) l) by (intros y Hy; rewrite (Hall y Hy); reflexivity).
      rewrite Es. reflexivity.
Qed.
Lemma reach_refines count sd n : forall l : list P, List.length l = n ->
  reach count sd (map qent (sortby p_sched l)) (map lent (sortby p_tmo l)) =
  (map p_item (sortby p_sched (filter (reached count sd) l)),
   map qent (sortby p_sched (filter (fun p => negb (reached count sd p)) l)),
   map lent (sortby p_tmo (filter (fun p => negb (reached count sd p)) l))).
Proof.
  induction n as [|n IH]; intros l Hl.
  - destruct l; [reflexivity|discriminate].
  - pose proof (pick_min_spec p_sched l) as HT. destruct (pick_min p_sched l) as [[x rest]|]; [|subst l; discriminate].
    destruct HT as (l1 & l2 & E & Er & H1 & H2).
    assert (Es : sortby p_sched l = x :: sortby p_sched (l1 ++ l2)) by (rewrite E; apply sortby_min; assumption).
    rewrite Es. cbn [map qent reach]. destruct (N.leb (p_sched x) count || sd) eqn:L.
    + destruct (sortby_split p_tmo l1 x l2) as (a & b & E1 & E2 & Ha & Hin).
      assert (F1 : map lent (sortby p_tmo l) = map lent (a ++ x :: b)) by (rewrite E, E1; reflexivity).
      rewrite F1, drop_lookup_split; [|intros y Hy [Hys Hyt]; specialize (Ha y Hy Hyt); specialize (H1 y Ha); lia|reflexivity|reflexivity].
      rewrite <- E2, IH by (rewrite E in Hl; rewrite app_length in *; cbn [List.length] in Hl; lia).
      assert (Ex : reached count sd x = true) by exact L.
      assert (Fn : filter (fun p => negb (reached count sd p)) l = filter (fun p => negb (reached count sd p)) (l1 ++ l2)).
      { rewrite E, !filter_app. cbn [filter]. rewrite Ex. reflexivity. }
      assert (Fe : filter (reached count sd) l = filter (reached count sd) l1 ++ x :: filter (reached count sd) l2).
      { rewrite E, !filter_app. cbn [filter]. rewrite Ex. reflexivity. }
      rewrite Fn, Fe, filter_app. f_equal. f_equal.
      rewrite (sortby_min p_sched (filter (reached count sd) l1) x (filter (reached count sd) l2)).
      * cbn [map]. reflexivity.
      * intros y Hy. apply filter_In in Hy as [Hy _]. apply H1. exact Hy.
      * intros y Hy. apply filter_In in Hy as [Hy _]. apply H2. exact Hy.
    + apply orb_false_iff in L as [L ->]. apply N.leb_gt in L.
      assert (Hall : forall y, In y l -> reached count false y = false).
      { intros y Hy. unfold reached, commit. rewrite orb_false_r. apply N.leb_gt. rewrite E in Hy. apply in_app_iff in Hy as [Hy|[<-|Hy]]; [specialize (H1 y Hy); lia|exact L|specialize (H2 y Hy); lia]. }
      rewrite (filter_all_false (reached count false) l Hall).
      rewrite (filter_all_true (fun p => negb (reached count false p)) l) by (intros y Hy; rewrite (Hall y Hy); reflexivity).
      rewrite Es. reflexivity.
Qed.

Lemma f_step_refines f l o : FRep f l -> exists l', FRep (fst (f_step f o)) l' /\ fspec l o (snd (f_step f o)) l'.
Proof.
  intros [Hw Ht]. destruct o as [x c d n|now n sd]; cbn [f_step].
  - destruct (N.ltb_spec n c) as [L|L]; cbn [fst snd].
    + exists (l ++ [mkPending x c d]). split; [|constructor; exact L]. split; cbn [f_wait f_tmo].
      * rewrite Hw, sortby_snoc. exact (mm_insert_q (mkPending x c d) (sortby p_sched l)).
      * rewrite Ht, sortby_snoc. exact (mm_insert_l (mkPending x c d) (sortby p_tmo l)).
    + exists l. split; [split; assumption|]. constructor. exact L.
  - rewrite Hw, Ht, (expire_refines now _ l eq_refl). rewrite (reach_refines n sd _ _ eq_refl). cbn [fst snd].
    eexists. split; [split; reflexivity|]. apply fs_pass; apply sortby_in_order.
Qed.
Lemma f_run_refines ops : forall f l, FRep f l -> exists l', FRep (fst (f_run f ops)) l' /\ fspec_run l ops (snd (f_run f ops)) l'.
Proof.
  induction ops as [|o ops IH]; intros f l H; cbn [f_run].
  - exists l. split; [exact H|constructor].
  - destruct (f_step_refines f l o H) as (l1 & H1 & S1). destruct (f_step f o) as [f1 out]. cbn [fst snd] in *.
    destruct (IH f1 l1 H1) as (l2 & H2 & S2). destruct (f_run f1 ops) as [f2 outs]. cbn [fst snd] in *.
    exists l2. split; [exact H2|]. econstructor; eassumption.
Qed.

Lemma in_order_perm key (l1 l2 : list P) : in_order_of key l1 l2 -> Permutation l1 l2.
Proof.
  intros [_ H].
  (* both are permutations of the concatenation over the keys that occur *)
  assert (G : forall (l1 l2 : list P), (forall t, filter (fun x => N.eqb (key x) t) l2 = filter (fun x => N.eqb (key x) t) l1) -> Permutation l1 l2).
  { clear. intros l1. remember (List.length l1) as n eqn:En. revert l1 En. induction n as [n IH] using lt_wf_ind. intros l1 En l2 H.
    destruct l1 as [|x l1].
    - destruct l2 as [|y l2]; [reflexivity|]. specialize (H (key y)). cbn [filter] in H. rewrite N.eqb_refl in H. discriminate.
    - set (t := key x). pose proof (filter_split (fun y => N.eqb (key y) t) (x :: l1)) as S1. pose proof (filter_split (fun y => N.eqb (key y) t) l2) as S2.
      rewrite S1, S2, (H t). apply Permutation_app_tail.
      eapply IH; [|reflexivity|].
      + subst n. apply Nat.lt_succ_r. cbn [filter List.length]. fold t. unfold t at 1. rewrite N.eqb_refl. cbn [negb].
        clear. induction l1 as [|y l IH]; cbn [filter List.length]; [lia|]. destruct (negb _); cbn [List.length]; lia.
      + intros u. assert (F : forall l : list P, filter (fun y => N.eqb (key y) u) (filter (fun y => negb (N.eqb (key y) t)) l) =
                             if N.eqb u t then [] else filter (fun y => N.eqb (key y) u) l).
        { clear. induction l as [|y l IH]; [destruct (N.eqb u t); reflexivity|]. cbn [filter].
          destruct (N.eqb_spec (key y) t) as [E1|E1]; destruct (N.eqb_spec (key y) u) as [E2|E2]; cbn [negb filter]; rewrite IH;
            destruct (N.eqb_spec u t) as [E3|E3]; try congruence; try reflexivity.
          - destruct (N.eqb_spec (key y) u); [reflexivity|congruence].
          - destruct (N.eqb_spec (key y) u); [congruence|reflexivity].
          - destruct (N.eqb_spec (key y) u); [congruence|reflexivity]. }
        rewrite !F. destruct (N.eqb u t); [reflexivity|]. apply H. }
  apply G. exact H.
Qed.
End Proofs.

Lemma run_conserves A (ops : list (fop A)) l outs l' : fspec_run l ops outs l' ->
  Permutation (map p_item l ++ arrived ops) (handed outs ++ map p_item l').
Proof.
  intros H. induction H as [l|l o out l1 ops outs l2 S R IH].
    - cbn [arrived flat_map handed]. rewrite app_nil_r. reflexivity.
    - unfold arrived, handed in *. cbn [flat_map]. inversion S; subst; clear S; cbn [app].
      + rewrite <- Permutation_middle. constructor. exact IH.
      + rewrite map_app in IH. cbn [map p_item] in IH. rewrite <- app_assoc in IH. exact IH.
      + cbn [app]. rewrite <- app_assoc, <- IH. rewrite !app_assoc. apply Permutation_app_tail.
        rewrite <- !map_app. apply Permutation_map. match goal with He : in_order_of _ _ e, Hr : in_order_of _ _ r |- _ => apply in_order_perm in He; apply in_order_perm in Hr; rewrite <- He, <- Hr end.
        rewrite <- app_assoc. unfold left.
        rewrite (filter_split (expired now) l) at 1. rewrite Permutation_app_comm. apply Permutation_app_head.
        rewrite (filter_split (reached n sd) (filter (fun p => negb (expired now p)) l)) at 1. apply Permutation_app_comm.
Qed.

(** Every history is one of the specification: nothing is lost, nothing runs early, nothing waits longer than
    needed. *)
Theorem C27_future_commits A (ops : list (fop A)) :
  exists left, fspec_run [] ops (snd (f_run f_init ops)) left.
Proof.
  destruct (f_run_refines ops (f_init (A:=A)) []) as (l & _ & H); [split; reflexivity|]. exists l. exact H.
Qed.
Print Assumptions C27_future_commits.

(** Each command that arrived is handed on exactly once or is still waiting. *)
Theorem C27_exactly_once A (ops : list (fop A)) :
  exists left, fspec_run [] ops (snd (f_run f_init ops)) left /\
    Permutation (arrived ops) (handed (snd (f_run f_init ops)) ++ map p_item left).
Proof.
  destruct (C27_future_commits A ops) as (left & H). exists left. split; [exact H|].
  exact (run_conserves A _ _ _ _ H).
Qed.
Print Assumptions C27_exactly_once.

Lemma f_run_snoc A (ops : list (fop A)) o : forall f, f_run f (ops ++ [o]) =
  (fst (f_step (fst (f_run f ops)) o), snd (f_run f ops) ++ [snd (f_step (fst (f_run f ops)) o)]).
Proof.
  induction ops as [|a ops IH]; intros f; cbn [app f_run].
  - cbn [fst snd]. destruct (f_step f o). reflexivity.
  - destruct (f_step f a) as [f1 out]. rewrite IH. destruct (f_run f1 ops) as [f2 outs]. reflexivity.
Qed.
Lemma pass_facts A (l : list (pending A)) now n sd out l' : fspec l (Pass now n sd) out l' ->
  (forall p, In p l' -> (now <= deadline p /\ n < commit p)%N /\ sd = false) /\
  (exists xs, out = Returns xs /\ forall x, In x xs -> exists p, In p l /\ p_item p = x /\ ((deadline p < now)%N \/ (commit p <= n)%N \/ sd = true)).
Proof.
  intros H. inversion H; subst; clear H. split.
  - intros p Hp. apply filter_In in Hp as [Hp H1]. apply filter_In in Hp as [Hp H2].
    unfold reached in H1. apply negb_true_iff, orb_false_iff in H1 as [H1 ->]. apply N.leb_gt in H1.
    unfold expired in H2. apply negb_true_iff, N.ltb_ge in H2. auto.
  - eexists. split; [reflexivity|]. intros x Hx. apply in_app_iff in Hx as [Hx|Hx]; apply in_map_iff in Hx as (p & Ep & Hp).
    + apply (Permutation_in p (Permutation_sym (in_order_perm _ _ _ H5))) in Hp. apply filter_In in Hp as [Hp H1].
      exists p. split; [exact Hp|]. split; [exact Ep|]. left. apply N.ltb_lt. exact H1.
    + apply (Permutation_in p (Permutation_sym (in_order_perm _ _ _ H6))) in Hp. apply filter_In in Hp as [Hp H1]. apply filter_In in Hp as [Hp _].
      exists p. split; [exact Hp|]. split; [exact Ep|]. right. apply orb_true_iff in H1 as [H1|H1]; [left; apply N.leb_le; exact H1|right; exact H1].
Qed.

(** After any history, one more pass returns only commands whose deadline has passed or whose commit is there
    (or any, during shutdown), and a command that waits on has reached neither. *)
Theorem C27_pass A (ops : list (fop A)) now n sd :
  exists before after xs,
    fspec_run [] ops (snd (f_run f_init ops)) before /\
    snd (f_run f_init (ops ++ [Pass now n sd])) = snd (f_run f_init ops) ++ [Returns xs] /\
    fspec_run [] (ops ++ [Pass now n sd]) (snd (f_run f_init (ops ++ [Pass now n sd]))) after /\
    (forall x, In x xs -> exists p, In p before /\ p_item p = x /\ ((deadline p < now)%N \/ (commit p <= n)%N \/ sd = true)) /\
    (forall p, In p after -> (now <= deadline p /\ n < commit p)%N /\ sd = false).
Proof.
  rewrite f_run_snoc. cbn [snd].
  destruct (f_run_refines ops (f_init (A:=A)) []) as (l & R & H); [split; reflexivity|].
  destruct (f_step_refines _ l (Pass now n sd) R) as (l' & _ & S).
  destruct (pass_facts _ _ _ _ _ _ _ S) as (P1 & xs & P2 & P3). rewrite P2 in S |- *.
  exists l, l', xs. split; [exact H|]. split; [reflexivity|]. split; [|auto].
  clear - H S. induction H as [l|l o out l1 ops outs l2 S0 R0 IH]; cbn [app]; econstructor; try eassumption; [constructor|auto].
Qed.
Print Assumptions C27_pass.

(** A pass during shutdown leaves nothing waiting: everything that arrived has been handed on, once. *)
Theorem C27_shutdown A (ops : list (fop A)) now n :
  Permutation (arrived ops) (handed (snd (f_run f_init (ops ++ [Pass now n true])))).
Proof.
  destruct (f_run_refines (ops ++ [Pass now n true]) (f_init (A:=A)) []) as (after & _ & H); [split; reflexivity|].
  pose proof (run_conserves A _ _ _ _ H) as E. cbn [map app] in E.
  assert (Ea : after = []).
  { rewrite f_run_snoc in H. cbn [snd] in H.
    assert (G : forall (ops : list (fop A)) l o outs out l', fspec_run l (ops ++ [o]) (outs ++ [out]) l' -> List.length outs = List.length ops -> exists l1, fspec l1 o out l').
    { clear. induction ops as [|a ops IH]; intros l o outs out l' H E.
      - destruct outs; [|discriminate]. inversion H as [|? ? ? ? ? ? ? S R]; subst. inversion R; subst. eauto.
      - destruct outs; [discriminate|]. inversion H as [|? ? ? ? ? ? ? S R]; subst. eapply IH; [exact R|]. cbn [List.length] in E. lia. }
    apply G in H as (l1 & H).
    - apply pass_facts in H as [H _]. destruct after as [|p after]; [reflexivity|]. destruct (H p (or_introl eq_refl)) as [_ ?]. discriminate.
    - generalize (f_init (A:=A)). clear. induction ops as [|o ops IH]; intros f; [reflexivity|]. cbn [f_run]. destruct (f_step f o) as [f1 out].
      specialize (IH f1). destruct (f_run f1 ops). cbn [snd List.length] in *. lia. }
  rewrite Ea in E. cbn [map] in E. rewrite app_nil_r in E. rewrite <- E. unfold arrived. rewrite flat_map_app. cbn [flat_map]. rewrite app_nil_r. reflexivity.
Qed.
Print Assumptions C27_shutdown.

(** Four commands, two of them with the same commit and deadline. *)
Definition story : list (fop nat) :=
  [Arrive 1%nat 5 100 3; Arrive 2%nat 3 100 3; Arrive 3%nat 9 50 3; Arrive 4%nat 5 100 3; Arrive 5%nat 7 60 3; Arrive 6%nat 20 900 4;
   Pass 55 4 false; Pass 56 5 false; Pass 70 6 false; Pass 71 6 true].
Example C27_story : snd (f_run f_init story) =
  [Waits; Runs 2%nat; Waits; Waits; Waits; Waits; Returns [3%nat]; Returns [1%nat; 4%nat]; Returns [5%nat]; Returns [6%nat]].
Proof. reflexivity. Qed.
