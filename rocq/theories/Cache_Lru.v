(** The order in which entries are evicted. *)
From Verif Require Import Base Dec Text_Spec Text_Model Text_Proofs Cache_Spec Cache_Model Cache_Proofs.
Local Open Scope Z_scope.

Lemma existsb_app_single n l m : existsb (bytes_eqb m) (l ++ [n]) = existsb (bytes_eqb m) l || bytes_eqb m n.
Proof. rewrite existsb_app. cbn [existsb]. rewrite orb_false_r. reflexivity. Qed.
Lemma by_last_use_snoc us n : by_last_use (us ++ [n]) = pushMRU n (by_last_use us).
Proof.
  unfold pushMRU. induction us as [|m us IH]; [reflexivity|]. cbn [app by_last_use]. rewrite existsb_app_single, IH.
  destruct (existsb (bytes_eqb m) us) eqn:E; cbn [orb]; [reflexivity|]. rewrite (bytes_eqb_sym m n). cbn [filter].
  destruct (bytes_eqb n m); reflexivity.
Qed.
Lemma by_last_use_in us n : In n (by_last_use us) <-> In n us.
Proof.
  induction us as [|m us IH]; [reflexivity|]. cbn [by_last_use]. destruct (existsb (bytes_eqb m) us) eqn:E.
  - rewrite IH. split; [right; assumption|]. intros [->|H]; [|exact H].
    apply existsb_exists in E as (x & Hx & Ex). apply bytes_eqb_eq in Ex. subst. exact Hx.
  - cbn [In]. rewrite IH. reflexivity.
Qed.
Lemma by_last_use_nodup us : NoDup (by_last_use us).
Proof.
  induction us as [|m us IH]; [constructor|]. cbn [by_last_use]. destruct (existsb (bytes_eqb m) us) eqn:E; [exact IH|].
  constructor; [|exact IH]. rewrite by_last_use_in. intros H. assert (X : existsb (bytes_eqb m) us = true); [|congruence].
  apply existsb_exists. exists m. split; [exact H|apply bytes_eqb_refl].
Qed.
Lemma filter_filter {X} (p q : X -> bool) l : filter p (filter q l) = filter (fun x => q x && p x) l.
Proof. induction l as [|x l IH]; [reflexivity|]. cbn [filter]. destruct (q x); cbn [andb filter]; rewrite IH; reflexivity. Qed.
Lemma filter_same {X} (p q : X -> bool) l : (forall x, In x l -> p x = q x) -> filter p l = filter q l.
Proof.
  induction l as [|x l IH]; intros H; [reflexivity|]. cbn [filter]. rewrite (H x (or_introl eq_refl)), IH by (intros y Hy; apply H; right; exact Hy). reflexivity.
Qed.
Lemma filter_true {X} (p : X -> bool) l : (forall x, In x l -> p x = true) -> filter p l = l.
Proof.
  induction l as [|x l IH]; intros H; [reflexivity|]. cbn [filter]. rewrite (H x (or_introl eq_refl)), IH by (intros y Hy; apply H; right; exact Hy). reflexivity.
Qed.
Lemma filter_false {X} (p : X -> bool) l : (forall x, In x l -> p x = false) -> filter p l = [].
Proof.
  induction l as [|x l IH]; intros H; [reflexivity|]. cbn [filter]. rewrite (H x (or_introl eq_refl)). apply IH. intros y Hy. apply H. right. exact Hy.
Qed.

(** [present] tells the names of the entries. *)
Definition present (l : list (bytes * bytes)) (n : bytes) : bool := existsb (bytes_eqb n) (names l).
Lemma present_in l n : present l n = true <-> In n (names l).
Proof.
  unfold present. rewrite existsb_exists. split.
  - intros (x & Hx & Ex). apply bytes_eqb_eq in Ex. subst. exact Hx.
  - intros H. exists n. split; [exact H|apply bytes_eqb_refl].
Qed.

(** The LRU list leaves names out of the order of last use, but none of an entry. *)
Definition tracks (uses : list bytes) (c : cache) : Prop :=
  Forall nul_free (lru c) /\ exists f, lru c = filter f (by_last_use uses) /\ forall n, In n (names (db c)) -> f n = true /\ In n uses.

Lemma tracks_order uses c : tracks uses c -> filter (present (db c)) (lru c) = filter (present (db c)) (by_last_use uses).
Proof.
  intros (_ & f & E & H). rewrite E, filter_filter. apply filter_same. intros x _.
  destruct (present (db c) x) eqn:P; [|rewrite andb_false_r; reflexivity]. apply present_in in P. destruct (H x P) as [-> _]. reflexivity.
Qed.
Lemma tracks_push uses c n l s : tracks uses c -> nul_free n ->
  (forall m, In m (names l) -> In m (names (db c)) \/ m = n) ->
  tracks (uses ++ [n]) (mkCache (db c ++ l) s (pushMRU n (lru c))).
Proof.
  intros (N & f & E & H) Hn X. split; cbn [db lru].
  { unfold pushMRU. apply Forall_app. split; [|repeat constructor; exact Hn]. apply Forall_forall. intros y Hy. apply filter_In in Hy as [Hy _].
    rewrite Forall_forall in N. auto. }
  exists (fun m => bytes_eqb n m || f m). split.
  - rewrite by_last_use_snoc. unfold pushMRU. rewrite filter_app. cbn [filter]. rewrite bytes_eqb_refl. cbn [orb]. f_equal.
    rewrite E, !filter_filter. apply filter_same. intros x _. destruct (bytes_eqb n x); cbn [negb andb orb]; [rewrite andb_false_r; reflexivity|rewrite andb_true_r; reflexivity].
  - intros m Hm. unfold names in Hm. rewrite map_app in Hm. apply in_app_iff in Hm as [Hm|Hm].
    + destruct (H m Hm) as [-> Hu]. rewrite orb_true_r. split; [reflexivity|apply in_or_app; auto].
    + destruct (X m Hm) as [Hd| ->].
      * destruct (H m Hd) as [-> Hu]. rewrite orb_true_r. split; [reflexivity|apply in_or_app; auto].
      * rewrite bytes_eqb_refl. split; [reflexivity|apply in_or_app; right; left; reflexivity].
Qed.

Section lru.
  Context (max : Z) (glob : bytes -> bytes -> bool) (pick : list (bytes * bytes) -> bytes).

  Lemma tracks_sub uses c p s : tracks uses c -> tracks uses (mkCache (filter p (db c)) s (lru c)).
  Proof.
    intros (N & f & E & H). split; [exact N|]. exists f. split; [exact E|]. cbn [db]. intros n Hn. apply H. eapply names_filter. exact Hn.
  Qed.
  Lemma tracks_pop uses n l rows s : tracks uses (mkCache rows s (n :: l)) ->
    tracks uses (mkCache (filter (fun r => negb (bytes_eqb n (fst r))) rows) (s - total chars (filter (fun r => bytes_eqb n (fst r)) rows)) l).
  Proof.
    intros (N & f & E & H). cbn [db lru] in *. split; [inversion N; assumption|].
    exists (fun m => f m && negb (bytes_eqb n m)). split; cbn [lru db].
    - rewrite <- filter_filter, <- E. cbn [filter]. rewrite bytes_eqb_refl. cbn [negb]. symmetry. apply filter_true.
      intros x Hx. assert (D : NoDup (n :: l)) by (rewrite E; apply NoDup_filter, by_last_use_nodup).
      inversion D as [|? ? D1 D2]; subst. destruct (bytes_eqb n x) eqn:En; [|reflexivity]. apply bytes_eqb_eq in En. subst. contradiction.
    - intros m Hm. pose proof (names_filter _ _ _ Hm) as Hm'. destruct (H m Hm') as [-> Hu]. split; [|exact Hu].
      apply in_map_iff in Hm as (y & Ey & Hy). apply filter_In in Hy as [_ Hy]. rewrite <- Ey. exact Hy.
  Qed.

  Lemma filter_split_perm {X} (p : X -> bool) l : Permutation (filter p l ++ filter (fun x => negb (p x)) l) l.
  Proof.
    induction l as [|x l IH]; [constructor|]. cbn [filter]. destruct (p x); cbn [negb app].
    - constructor. exact IH.
    - rewrite <- Permutation_middle. constructor. exact IH.
  Qed.
  Lemma only_row n rows : NoDup (names rows) -> (filter (fun r => bytes_eqb n (fst r)) rows = [] /\ present rows n = false) \/
    exists v, filter (fun r => bytes_eqb n (fst r)) rows = [(n, v)] /\ present rows n = true.
  Proof.
    induction rows as [|[m v] rows IH]; intros H; [left; split; reflexivity|]. unfold names in H. cbn [map fst] in H.
    inversion H as [|? ? H1 H2]; subst. unfold present, names. cbn [filter map fst existsb].
    destruct (bytes_eqb n m) eqn:E; cbn [orb].
    - apply bytes_eqb_eq in E. subst m. right. exists v. split; [|reflexivity]. f_equal.
      apply filter_false. intros [a b] Hx. cbn [fst]. apply bytes_eqb_neq. intros ->. apply H1. apply in_map_iff. exists (a, b). auto.
    - apply IH. exact H2.
  Qed.

  (** The entries go in the order of their last use, and no more of them than needed. *)
  Lemma room_order uses fuel need : forall c c', need <= max -> rows_ok (db c) -> total chars (db c) = csize c -> tracks uses c ->
    make_room max pick fuel need c = Done c' ->
    exists evicted rest,
      Permutation (db c) (evicted ++ db c') /\
      filter (present (db c)) (lru c) = names evicted ++ rest /\
      no_more_than_needed chars evicted (db c') need max /\ tracks uses c'.
  Proof.
    induction fuel as [|fuel IH]; intros c c' Hneed Hok Ht Htr H; cbn [make_room] in H; destruct (Z.leb_spec (csize c + need) max) as [L|L].
    1, 3: injection H as <-; exists [], (filter (present (db c)) (lru c)); split; [reflexivity|]; split; [reflexivity|]; split; [|exact Htr];
      split; [lia|]; intros [|? ?] e X; discriminate.
    - discriminate.
    - destruct (lru c) as [|n l] eqn:El; cbn [popLRU] in H.
      + exfalso. destruct Htr as (_ & f & E & Hn). rewrite El in E. destruct (db c) as [|r rows] eqn:Ed; [cbn in Ht; lia|].
        destruct (Hn (fst r)) as [F1 F2]; [left; reflexivity|]. apply (in_nil (a := fst r)). rewrite E. apply filter_In. split; [apply by_last_use_in; exact F2|exact F1].
      + destruct (bytes_eqb n []); [discriminate|].
        assert (Hnn : nul_free n) by (destruct Htr as (N & _); rewrite El in N; inversion N; assumption).
        rewrite (cstr_nul_free n Hnn) in H.
        assert (Htr' : tracks uses (mkCache (db c) (csize c) (n :: l))) by (destruct Htr as (N & f & E & X); rewrite El in *; split; [exact N|exists f; split; [exact E|exact X]]).
        pose proof (tracks_pop uses n l (db c) (csize c) Htr') as T1.
        set (c1 := delete_where (bytes_eqb n) (mkCache (db c) (csize c) l)) in *.
        pose proof (delete_total (bytes_eqb n) (mkCache (db c) (csize c) l)) as D1. fold c1 in D1. cbn [db csize] in D1.
        assert (Hok1 : rows_ok (db c1)) by (apply rows_ok_filter; exact Hok).
        specialize (IH c1 c' Hneed Hok1 ltac:(lia) T1 H) as (ev & rest & I1 & I2 & (I3 & I4) & I5).
        assert (Hl : ~ In n l).
        { destruct Htr' as (_ & f & E & _). cbn [lru] in E. assert (D : NoDup (n :: l)) by (rewrite E; apply NoDup_filter, by_last_use_nodup). inversion D; assumption. }
        assert (Hp : filter (present (db c1)) l = filter (present (db c)) l).
        { apply filter_same. intros x Hx. destruct (present (db c) x) eqn:P.
          - apply present_in. apply present_in in P. apply in_map_iff in P as (y & Ey & Hy). apply in_map_iff. exists y. split; [exact Ey|].
            cbn [c1 delete_where db]. apply filter_In. split; [exact Hy|]. rewrite Ey. destruct (bytes_eqb n x) eqn:En; [apply bytes_eqb_eq in En; subst; contradiction|reflexivity].
          - destruct (present (db c1) x) eqn:P1; [|reflexivity]. apply present_in in P1. apply names_filter in P1. cbn [db] in P1. apply present_in in P1. congruence. }
        change (lru c1) with l in I2. rewrite Hp in I2.
        destruct (only_row n (db c) (proj1 Hok)) as [[O1 O2]|(v & O1 & O2)].
        * assert (Ec : db c1 = db c).
          { cbn [c1 delete_where db]. apply filter_true. intros x Hx. destruct (bytes_eqb n (fst x)) eqn:En; [|reflexivity].
            exfalso. apply (in_nil (a := x)). rewrite <- O1. apply filter_In. auto. }
          exists ev, rest. rewrite Ec in I1. split; [exact I1|]. split; [cbn [filter]; rewrite O2; exact I2|]. split; [split; assumption|exact I5].
        * exists ((n, v) :: ev), rest. split.
          { rewrite <- (filter_split_perm (fun r => bytes_eqb n (fst r)) (db c)), O1. cbn [app]. constructor. exact I1. }
          split; [cbn [filter]; rewrite O2; cbn [names map fst app]; f_equal; exact I2|]. split; [|exact I5].
          split; [exact I3|]. intros front e X. destruct front as [|y front].
          -- injection X as X1 X2. subst ev e. cbn [app] in I1.
             assert (Ept : total chars (db c) = total chars ((n, v) :: db c')).
             { apply total_perm. rewrite <- (filter_split_perm (fun r => bytes_eqb n (fst r)) (db c)), O1. cbn [app]. constructor. exact I1. }
             lia.
          -- cbn [app] in X. injection X as X1 X2. subst y. eapply I4. exact X2.
  Qed.

  (** ** The history of uses *)
  Definition use_of (c : cache) (e : event) : list bytes :=
    match e with
    | EWrite r w => match write_cache max glob pick r w c with Done _ => [w_name w] | _ => [] end
    | ERead p row => match read_cache glob p row c with Done _ => [row] | _ => [] end
    | _ => []
    end.
  Fixpoint uses_of (c : cache) (es : list event) : list bytes :=
    match es with
    | [] => []
    | e :: es' => use_of c e ++ match step max glob pick c e with Done c' => uses_of c' es' | _ => [] end
    end.
  Definition kept_event (e : event) : Prop :=
    match e with EWrite r w => r = true /\ nul_free (w_name w) | ERead _ _ => True | _ => False end.

  Definition full_inv uses c := inv max c /\ exact c /\ tracks uses c.

  Lemma write_tracks uses w c c' : nul_free (w_name w) -> full_inv uses c -> write_cache max glob pick true w c = Done c' ->
    tracks (uses ++ [w_name w]) c'.
  Proof.
    intros Hn ((Hok & _) & (E1 & _) & Ht) H.
    assert (Hmax : Z.of_nat (List.length (w_value w)) <= max).
    { unfold write_cache in H. case_if_in H; [discriminate|]. case_if_in H; [discriminate|]. destruct (Z.ltb_spec max (Z.of_nat (List.length (w_value w)))); [discriminate|lia]. }
    apply write_done in H as (c1 & H & ->). cbn zeta.
    destruct (invalidated_db glob w c) as [q Q]. pose proof (invalidated_total glob w c) as T.
    assert (Ht1 : tracks uses (invalidated glob w c)).
    { pose proof (tracks_sub uses c q (csize (invalidated glob w c)) Ht) as X. rewrite <- Q in X. rewrite <- (invalidated_lru glob w c) in X. destruct (invalidated glob w c); exact X. }
    apply room_order with (uses := uses) in H as (ev & rest & _ & _ & _ & H5); [|exact Hmax|rewrite Q; apply rows_ok_filter, Hok|lia|exact Ht1].
    rewrite (cstr_nul_free _ Hn). cbn [replace_row db lru csize].
    pose proof (tracks_sub uses c1 (fun x => negb (bytes_eqb (w_name w) (fst x))) 0 H5) as H6.
    pose proof (tracks_push uses _ (w_name w) [(w_name w, cstr (w_value w))]
      (csize c1 - total chars (filter (fun r => bytes_eqb (w_name w) (fst r)) (db c1)) + chars (cstr (w_value w))) H6 Hn) as H7.
    cbn [db lru] in H7. apply H7. intros m [<-|[]]. right. reflexivity.
  Qed.
  Lemma read_tracks uses p row c c' v : full_inv uses c -> read_cache glob p row c = Done (c', v) -> tracks (uses ++ [row]) c' /\ inv max c'.
  Proof.
    intros ((Hok & Hs) & _ & Ht) H. unfold read_cache in H. case_if_in H; [discriminate|].
    destruct (find _ _) as [[n v']|] eqn:F; [|discriminate]. injection H as <- _. split; [|split; assumption].
    apply find_some in F as [F1 F2]. cbn [fst] in F2. apply andb_true_iff in F2 as [F2 _]. apply bytes_eqb_eq in F2. subst n.
    rewrite <- (app_nil_r (db c)). apply tracks_push; [exact Ht| |intros m []].
    destruct Hok as [_ Hok]. rewrite Forall_forall in Hok. apply (Hok _ F1).
  Qed.
  Context (pick_row : forall rows, rows <> [] -> In (pick rows) (names rows)).
  Lemma run_tracks es : forall uses c c', full_inv uses c -> Forall kept_event es -> run max glob pick c es = Done c' ->
    full_inv (uses ++ uses_of c es) c'.
  Proof.
    induction es as [|e es IH]; intros uses c c' Hi Hg H; cbn [run uses_of] in *.
    - injection H as <-. rewrite app_nil_r. exact Hi.
    - inversion Hg as [|? ? G1 G2]; subst. destruct (step max glob pick c e) as [| | |c1] eqn:E; try discriminate.
      rewrite app_assoc. apply IH; [|exact G2|exact H]. destruct Hi as (I1 & I2 & I3).
      assert (GE : good_event e) by (destruct e; cbn in *; tauto).
      split; [eapply step_inv; eassumption|]. split; [eapply (step_exact max glob pick pick_row); eassumption|].
      destruct e as [r w|r w|p row|]; cbn [kept_event] in G1; try contradiction; cbn [step use_of] in *.
      + destruct G1 as [-> Hn]. destruct (write_cache max glob pick true w c) as [| | |c2] eqn:W; try discriminate; injection E as <-.
        * rewrite app_nil_r. exact I3.
        * eapply write_tracks; [exact Hn| |exact W]. repeat split; try apply I1; try apply I2; apply I3.
      + destruct (read_cache glob p row c) as [| | |[c2 v]] eqn:R; injection E as <-; try (rewrite app_nil_r; exact I3).
        eapply read_tracks; [|exact R]. repeat split; try apply I1; try apply I2; apply I3.
  Qed.
End lru.
