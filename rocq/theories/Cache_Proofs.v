(** Invariants of the cache. *)
From Verif Require Import Base Dec Text_Spec Text_Model Text_Proofs Cache_Spec Cache_Model.
Local Open Scope Z_scope.

Lemma bytes_eqb_sym a b : bytes_eqb a b = bytes_eqb b a.
Proof.
  destruct (bytes_eqb a b) eqn:E; symmetry; [apply bytes_eqb_eq in E; subst; apply bytes_eqb_refl|].
  apply bytes_eqb_neq in E. apply bytes_eqb_neq. congruence.
Qed.

(** ** Sizes *)
Lemma skip_cont_le s : (List.length (skip_cont s) <= List.length s)%nat.
Proof. induction s as [|c s IH]; [reflexivity|]. cbn [skip_cont]. destruct (_ && _); cbn [List.length]; lia. Qed.
Lemma chars_fuel_bound f : forall s, 0 <= chars_fuel f s <= Z.of_nat (List.length s).
Proof.
  induction f as [|f IH]; intros s; [destruct s; cbn [chars_fuel List.length]; lia|]. destruct s as [|c s]; [cbn; lia|].
  cbn [chars_fuel]. match goal with |- context [chars_fuel f ?X] => set (t := X); pose proof (IH t) as H end.
  assert (Ht : (List.length t <= List.length s)%nat) by (unfold t; destruct (N.leb _ _); [apply skip_cont_le|lia]).
  cbn [List.length]. lia.
Qed.
Lemma chars_bound s : 0 <= chars s <= Z.of_nat (List.length s).
Proof. apply chars_fuel_bound. Qed.
Lemma chars_ascii s : (forall c, In c s -> (bcode c < 128)%N) -> chars s = Z.of_nat (List.length s).
Proof.
  unfold chars. induction s as [|c s IH]; intros H; [reflexivity|]. cbn [List.length chars_fuel].
  pose proof (H c (or_introl eq_refl)). destruct (N.leb_spec 192 (bcode c)); [lia|].
  rewrite IH by (intros d Hd; apply H; right; exact Hd). lia.
Qed.
Lemma cstr_length s : (List.length (cstr s) <= List.length s)%nat.
Proof. induction s as [|c s IH]; [reflexivity|]. cbn [cstr]. destruct (Ascii.eqb _ _); cbn [List.length]; lia. Qed.

Lemma total_app f a b : total f (a ++ b) = total f a + total f b.
Proof. unfold total. induction a as [|p a IH]; [reflexivity|]. cbn [app fold_right]. rewrite IH. lia. Qed.
Lemma total_perm f a b : Permutation a b -> total f a = total f b.
Proof. unfold total. induction 1; cbn [fold_right]; lia. Qed.
Lemma total_nonneg f l : (forall v, 0 <= f v) -> 0 <= total f l.
Proof. intros H. unfold total. induction l as [|p l IH]; cbn [fold_right]; [lia|]. specialize (H (snd p)). lia. Qed.
Lemma total_split f (p : bytes * bytes -> bool) l : total f (filter p l) + total f (filter (fun x => negb (p x)) l) = total f l.
Proof.
  unfold total. induction l as [|x l IH]; [reflexivity|]. cbn [filter]. destruct (p x); cbn [negb fold_right]; lia.
Qed.
Lemma chars_nonneg l : 0 <= total chars l.
Proof. apply total_nonneg. intros v. apply chars_bound. Qed.

(** ** The table *)
Definition rows_ok (l : list (bytes * bytes)) : Prop :=
  NoDup (names l) /\ Forall (fun r => nul_free (fst r) /\ nul_free (snd r)) l.
Lemma NoDup_map_filter {X Y} (f : X -> Y) p l : NoDup (map f l) -> NoDup (map f (filter p l)).
Proof.
  induction l as [|x l IH]; intros H; [exact H|]. cbn [map] in H. inversion H as [|? ? H1 H2]; subst.
  cbn [filter]. destruct (p x); [|apply IH; exact H2]. cbn [map]. constructor; [|apply IH; exact H2].
  intros Hi. apply H1. apply in_map_iff in Hi as (y & Ey & Hy). apply filter_In in Hy as [Hy _]. apply in_map_iff. eauto.
Qed.
Lemma rows_ok_filter p l : rows_ok l -> rows_ok (filter p l).
Proof.
  intros [H1 H2]. split; [apply NoDup_map_filter; exact H1|].
  rewrite Forall_forall in *. intros x Hx. apply filter_In in Hx as [Hx _]. auto.
Qed.

Lemma delete_total p c : total chars (db (delete_where p c)) - csize (delete_where p c) = total chars (db c) - csize c.
Proof.
  unfold delete_where. cbn [db csize]. pose proof (total_split chars (fun r => p (fst r)) (db c)) as H. cbn beta in H. lia.
Qed.
Lemma replace_total r n v c : total chars (db (replace_row r n v c)) - csize (replace_row r n v c) =
  total chars (db c) - csize c - (if r then 0 else total chars (filter (fun x => bytes_eqb n (fst x)) (db c))).
Proof.
  unfold replace_row. cbn [db csize]. rewrite total_app. unfold total at 2. cbn [fold_right snd].
  pose proof (total_split chars (fun x => bytes_eqb n (fst x)) (db c)) as H. cbn beta in H. destruct r; lia.
Qed.
Lemma replace_ok r n v c : rows_ok (db c) -> nul_free n -> nul_free v -> rows_ok (db (replace_row r n v c)).
Proof.
  intros H Hn Hv. cbn [replace_row db].
  pose proof (rows_ok_filter (fun x => negb (bytes_eqb n (fst x))) _ H) as [H1 H2]. split.
  - unfold names. rewrite map_app. cbn [map fst]. apply Permutation_NoDup with (n :: map fst (filter (fun x => negb (bytes_eqb n (fst x))) (db c))).
    { apply Permutation_cons_append. }
    constructor; [|exact H1]. intros Hi. apply in_map_iff in Hi as (x & Ex & Hx). apply filter_In in Hx as [_ Hx].
    rewrite Ex, bytes_eqb_refl in Hx. discriminate.
  - apply Forall_app. split; [exact H2|]. constructor; [split; assumption|constructor].
Qed.
Lemma replace_present r n v c : In (n, v) (db (replace_row r n v c)).
Proof. cbn [replace_row db]. apply in_or_app. right. left. reflexivity. Qed.

Section proofs.
  Context (max : Z) (glob : bytes -> bytes -> bool) (pick : list (bytes * bytes) -> bytes).
  Context (pick_row : forall rows, rows <> [] -> In (pick rows) (names rows)).

  Definition popped (c : cache) : bytes * list bytes :=
    match popLRU (lru c) with
    | Some (n, l) => (n, l)
    | None => (match db c with [] => [] | rows => pick rows end, lru c)
    end.

  (** ** make_room *)
  Lemma room_done fuel need : forall c c', make_room max pick fuel need c = Done c' ->
    csize c' + need <= max /\ total chars (db c') - csize c' = total chars (db c) - csize c /\
    (exists p, db c' = filter p (db c)) /\ (csize c' <= csize c).
  Proof.
    induction fuel as [|fuel IH]; intros c c' H; cbn [make_room] in H; destruct (Z.leb_spec (csize c + need) max).
    - injection H as <-. repeat split; try lia. exists (fun _ => true). symmetry. clear. induction (db c) as [|x l IH]; [reflexivity|]. cbn. congruence.
    - discriminate.
    - injection H as <-. repeat split; try lia. exists (fun _ => true). symmetry. clear. induction (db c) as [|x l IH]; [reflexivity|]. cbn. congruence.
    - fold (popped c) in H. destruct (popped c) as [n l]. destruct (bytes_eqb n []); [discriminate|].
      specialize (IH _ _ H). set (c1 := mkCache (db c) (csize c) l) in *.
      destruct IH as (I1 & I2 & (p & I3) & I4). split; [exact I1|]. split; [rewrite I2; apply (delete_total _ c1)|].
      split.
      + rewrite I3. cbn [delete_where db c1]. exists (fun x => negb (bytes_eqb (cstr n) (fst x)) && p x).
        clear. induction (db c) as [|x l' IH]; [reflexivity|]. cbn [filter]. destruct (negb _); cbn [andb filter]; rewrite <- IH; destruct (p x); reflexivity.
      + cbn [delete_where csize c1 db] in I4. pose proof (chars_nonneg (filter (fun r => bytes_eqb (cstr n) (fst r)) (db c))). lia.
  Qed.

  Lemma filter_shorter {X} (p : X -> bool) l x : In x l -> p x = false -> (List.length (filter p l) < List.length l)%nat.
  Proof.
    assert (G : forall l, (List.length (filter p l) <= List.length l)%nat).
    { clear. induction l as [|y l IH]; cbn [filter List.length]; [lia|]. destruct (p y); cbn [List.length]; lia. }
    induction l as [|y l IH]; intros Hi Hp; [destruct Hi|]. cbn [filter]. destruct Hi as [->|Hi].
    - rewrite Hp. cbn [List.length]. specialize (G l). lia.
    - specialize (IH Hi Hp). destruct (p y); cbn [List.length]; lia.
  Qed.
  Lemma filter_le {X} (p : X -> bool) l : (List.length (filter p l) <= List.length l)%nat.
  Proof. induction l as [|y l IH]; cbn [filter List.length]; [lia|]. destruct (p y); cbn [List.length]; lia. Qed.
  (** The loop ends: each round takes a name off the LRU list or a row out of the table. *)
  Lemma room_fuel fuel need : forall c, Forall (fun r => nul_free (fst r) /\ nul_free (snd r)) (db c) ->
    (List.length (lru c) + List.length (db c) < fuel)%nat -> make_room max pick fuel need c <> OutOfFuel.
  Proof.
    induction fuel as [|fuel IH]; intros c Hn Hf; [lia|]. cbn [make_room]. destruct (_ <=? _); [discriminate|].
    unfold popLRU. destruct (lru c) as [|n l] eqn:El.
    - destruct (db c) as [|x rows] eqn:Ed; [destruct (bytes_eqb [] []) eqn:E0; [discriminate|apply bytes_eqb_neq in E0; congruence]|].
      pose proof (pick_row (x :: rows) ltac:(discriminate)) as Hp. set (n := pick (x :: rows)) in *.
      destruct (bytes_eqb n []); [discriminate|]. apply IH.
      + cbn [delete_where db]. apply Forall_forall. intros y Hy. apply filter_In in Hy as [Hy _]. rewrite Forall_forall in Hn. auto.
      + cbn [delete_where db lru]. apply in_map_iff in Hp as (y & Ey & Hy).
        pose proof (filter_shorter (fun r => negb (bytes_eqb (cstr n) (fst r))) (x :: rows) y Hy) as Hs.
        rewrite Forall_forall in Hn. destruct (Hn y Hy) as [Hy1 _].
        cbn beta in Hs. rewrite <- Ey, cstr_nul_free, bytes_eqb_refl in Hs by exact Hy1. specialize (Hs eq_refl).
        cbn [List.length] in *. rewrite <- Ey, cstr_nul_free by exact Hy1. lia.
    - destruct (bytes_eqb n []); [discriminate|]. apply IH.
      + cbn [delete_where db]. apply Forall_forall. intros y Hy. apply filter_In in Hy as [Hy _]. rewrite Forall_forall in Hn. auto.
      + cbn [delete_where db lru]. pose proof (filter_le (fun r => negb (bytes_eqb (cstr n) (fst r))) (db c)). cbn [List.length] in Hf. lia.
  Qed.
  (** With an exact account it does not run into the assertion. *)
  Lemma room_no_abort fuel need : need <= max -> forall c, total chars (db c) = csize c ->
    ~ In [] (names (db c)) -> ~ In [] (lru c) -> make_room max pick fuel need c <> Aborted.
  Proof.
    intros Hneed. induction fuel as [|fuel IH]; intros c Ht Hn Hl; cbn [make_room]; destruct (Z.leb_spec (csize c + need) max); try discriminate.
    unfold popLRU. destruct (lru c) as [|n l] eqn:El.
    - destruct (db c) as [|x rows] eqn:Ed; [cbn in Ht; lia|]. rewrite <- Ed in *.
      assert (Hp : In (pick (db c)) (names (db c))) by (apply pick_row; rewrite Ed; discriminate).
      replace (match db c with [] => [] | _ :: _ => pick (db c) end) with (pick (db c)) by (rewrite Ed; reflexivity).
      set (n := pick (db c)) in *.
      destruct (bytes_eqb n []) eqn:E0; [apply bytes_eqb_eq in E0; rewrite E0 in Hp; contradiction|]. apply IH.
      + pose proof (delete_total (bytes_eqb (cstr n)) (mkCache (db c) (csize c) [])) as D. cbn [db csize] in D. lia.
      + cbn [delete_where db]. intros Hi. apply Hn. apply in_map_iff in Hi as (y & Ey & Hy). apply filter_In in Hy as [Hy _]. apply in_map_iff. eauto.
      + intros [].
    - destruct (bytes_eqb n []) eqn:E0; [apply bytes_eqb_eq in E0; exfalso; apply Hl; left; exact E0|]. apply IH.
      + pose proof (delete_total (bytes_eqb (cstr n)) (mkCache (db c) (csize c) l)) as D. cbn [db csize] in D. lia.
      + cbn [delete_where db]. intros Hi. apply Hn. apply in_map_iff in Hi as (y & Ey & Hy). apply filter_In in Hy as [Hy _]. apply in_map_iff. eauto.
      + cbn [delete_where lru]. intros Hi. apply Hl. right. exact Hi.
  Qed.

  (** ** The invariant of any history *)
  Definition inv (c : cache) : Prop := rows_ok (db c) /\ total chars (db c) <= csize c <= max.

  Definition invalidated (w : write_request) (c : cache) : cache :=
    match w_invalidate w with [] => c | p => delete_where (glob (cstr p)) c end.
  Lemma invalidated_db w c : exists p, db (invalidated w c) = filter p (db c).
  Proof.
    unfold invalidated. destruct (w_invalidate w) as [|x p].
    - exists (fun _ => true). symmetry. clear. induction (db c) as [|y l IH]; [reflexivity|]. cbn. congruence.
    - eexists. reflexivity.
  Qed.
  Lemma invalidated_total w c : total chars (db (invalidated w c)) - csize (invalidated w c) = total chars (db c) - csize c.
  Proof. unfold invalidated. destruct (w_invalidate w); [reflexivity|apply delete_total]. Qed.
  Lemma invalidated_le w c : csize (invalidated w c) <= csize c.
  Proof.
    unfold invalidated. destruct (w_invalidate w) as [|x p]; [lia|]. cbn [delete_where csize].
    pose proof (chars_nonneg (filter (fun r => glob (cstr (x :: p)) (fst r)) (db c))). lia.
  Qed.
  Lemma invalidated_lru w c : lru (invalidated w c) = lru c.
  Proof. unfold invalidated. destruct (w_invalidate w); reflexivity. Qed.

  Lemma write_done r w c c' : write_cache max glob pick r w c = Done c' ->
    exists c1, make_room max pick (S (List.length (lru (invalidated w c)) + List.length (db (invalidated w c))))
                 (Z.of_nat (List.length (w_value w))) (invalidated w c) = Done c1 /\
      let c2 := replace_row r (cstr (w_name w)) (cstr (w_value w)) c1 in
      c' = mkCache (db c2) (csize c2) (pushMRU (w_name w) (lru c2)).
  Proof.
    unfold write_cache. case_if; [discriminate|]. case_if; [discriminate|]. case_if; [discriminate|].
    fold (invalidated w c). intros H.
    destruct (make_room _ _ _ _ _) as [| | |c1] eqn:E; try discriminate. injection H as <-. exists c1. auto.
  Qed.
  Lemma write_inv r w c c' : inv c -> write_cache max glob pick r w c = Done c' ->
    inv c' /\ In (cstr (w_name w), cstr (w_value w)) (db c').
  Proof.
    intros [H1 H2] H. apply write_done in H as (c1 & H & ->). cbn zeta. cbn [db csize lru].
    apply room_done in H as (R1 & R2 & (p & R3) & R4).
    destruct (invalidated_db w c) as [q Q]. pose proof (invalidated_total w c) as T.
    assert (Hok : rows_ok (db c1)) by (rewrite R3, Q; apply rows_ok_filter, rows_ok_filter, H1).
    split; [|apply replace_present]. split.
    - apply replace_ok; [exact Hok|apply cstr_is_nul_free|apply cstr_is_nul_free].
    - pose proof (replace_total r (cstr (w_name w)) (cstr (w_value w)) c1) as RT.
      pose proof (chars_nonneg (filter (fun x => bytes_eqb (cstr (w_name w)) (fst x)) (db c1))) as P1.
      pose proof (chars_bound (cstr (w_value w))) as P2. pose proof (cstr_length (w_value w)) as P3.
      split.
      + destruct r; cbn [db csize] in *; lia.
      + cbn [replace_row csize]. destruct r; lia.
  Qed.
  Lemma step_inv c e c' : inv c -> step max glob pick c e = Done c' -> inv c'.
  Proof.
    intros Hi H. destruct e as [r w|r w|p row|]; cbn [step] in H.
    - destruct (write_cache _ _ _ r w c) eqn:E; try discriminate; injection H as <-; [exact Hi|]. eapply write_inv; eassumption.
    - destruct (write_cache _ _ _ r w c) eqn:E; try discriminate; injection H as <-; [exact Hi|]. exact Hi.
    - destruct (read_cache glob p row c) as [| | |[c1 v]] eqn:E; injection H as <-; try exact Hi.
      unfold read_cache in E. case_if_in E; [discriminate|]. destruct (find _ _) as [[n v']|]; [|discriminate].
      injection E as <- _. exact Hi.
    - injection H as <-. exact Hi.
  Qed.
  Lemma run_inv es : forall c c', inv c -> run max glob pick c es = Done c' -> inv c'.
  Proof.
    induction es as [|e es IH]; intros c c' Hi H; cbn [run] in H; [injection H as <-; exact Hi|].
    destruct (step _ _ _ c e) eqn:E; try discriminate. eapply IH; [eapply step_inv; eassumption|exact H].
  Qed.
  Lemma inv_init : 0 <= max -> inv init.
  Proof. intros H. split; [split; constructor|]. cbn. lia. Qed.

  Lemma step_fuel c e : inv c -> step max glob pick c e <> OutOfFuel.
  Proof.
    intros [Hi _]. assert (W : forall r w, write_cache max glob pick r w c <> OutOfFuel).
    { intros r w. unfold write_cache. case_if; [discriminate|]. case_if; [discriminate|]. case_if; [discriminate|].
      fold (invalidated w c).
      match goal with |- context [make_room max pick ?F ?N ?C] => pose proof (room_fuel F N C) as G end.
      assert (G' := G ltac:(destruct (invalidated_db w c) as [q ->]; apply rows_ok_filter, Hi) ltac:(lia)).
      destruct (make_room _ _ _ _ _); congruence. }
    destruct e as [r w|r w|p row|]; cbn [step].
    - specialize (W r w). destruct (write_cache _ _ _ r w c); congruence.
    - specialize (W r w). destruct (write_cache _ _ _ r w c); congruence.
    - destruct (read_cache glob p row c) as [| | |[c1 v]]; discriminate.
    - discriminate.
  Qed.

  (** ** Exact accounts *)
  Definition good_event (e : event) : Prop :=
    match e with
    | EWrite r w | ELost r w => r = true /\ nul_free (w_name w)
    | ERead _ _ => True
    | ERestart => True
    end.
  Definition exact (c : cache) : Prop := total chars (db c) = csize c /\ ~ In [] (names (db c)) /\ ~ In [] (lru c).

  Lemma names_filter p l n : In n (names (filter p l)) -> In n (names l).
  Proof. intros Hi. apply in_map_iff in Hi as (y & Ey & Hy). apply filter_In in Hy as [Hy _]. apply in_map_iff. eauto. Qed.
  Lemma room_lru fuel need : forall c c', make_room max pick fuel need c = Done c' -> exists p, lru c = p ++ lru c'.
  Proof.
    induction fuel as [|fuel IH]; intros c c' H; cbn [make_room] in H; destruct (csize c + need <=? max);
      try (injection H as <-; exists []; reflexivity); [discriminate|].
    unfold popLRU in H. destruct (lru c) as [|n l] eqn:El.
    - destruct (bytes_eqb _ []); [discriminate|]. apply IH in H as (p & Hp). cbn [delete_where lru] in Hp. exists p. exact Hp.
    - destruct (bytes_eqb _ []); [discriminate|]. apply IH in H as (p & Hp). cbn [delete_where lru] in Hp. exists (n :: p). rewrite Hp. reflexivity.
  Qed.
  Lemma pushMRU_in n l m : In m (pushMRU n l) -> m = n \/ In m l.
  Proof. unfold pushMRU. intros Hi. apply in_app_iff in Hi as [Hi|[->|[]]]; [apply filter_In in Hi as [Hi _]; auto|auto]. Qed.
  Lemma write_name r w c c' : write_cache max glob pick r w c = Done c' -> w_name w <> [].
  Proof.
    unfold write_cache. case_if; [discriminate|]. intros _ E. rewrite E in Heqb. discriminate.
  Qed.
  Lemma write_exact w c : nul_free (w_name w) -> exact c ->
    write_cache max glob pick true w c <> Aborted /\ forall c', write_cache max glob pick true w c = Done c' -> exact c'.
  Proof.
    intros Hn (E1 & E2 & E3). pose proof (invalidated_total w c) as T. destruct (invalidated_db w c) as [q Q]. split.
    - unfold write_cache. case_if; [discriminate|]. case_if; [discriminate|]. destruct (Z.ltb_spec max (Z.of_nat (List.length (w_value w)))); [discriminate|].
      fold (invalidated w c).
      match goal with |- context [make_room max pick ?F ?N ?C] => pose proof (room_no_abort F N ltac:(lia) C) as G end.
      assert (G' := G ltac:(lia) ltac:(rewrite Q; intros Hi; apply names_filter in Hi; contradiction) ltac:(rewrite invalidated_lru; exact E3)).
      destruct (make_room _ _ _ _ _); congruence.
    - intros c' H. pose proof (write_name _ _ _ _ H) as Hne. apply write_done in H as (c1 & H & ->). cbn zeta.
      pose proof (room_lru _ _ _ _ H) as [p Hp]. rewrite invalidated_lru in Hp.
      apply room_done in H as (R1 & R2 & (p' & R3) & R4).
      pose proof (replace_total true (cstr (w_name w)) (cstr (w_value w)) c1) as RT.
      rewrite (cstr_nul_free (w_name w)) in * by exact Hn. split; [cbn [db csize] in *; lia|]. split.
      + cbn [replace_row db]. unfold names. rewrite map_app. intros Hi. apply in_app_iff in Hi as [Hi|[Hi|[]]]; [|cbn [fst] in Hi; congruence].
        fold (names (filter (fun r => negb (bytes_eqb (w_name w) (fst r))) (db c1))) in Hi. apply names_filter in Hi.
        rewrite R3 in Hi. apply names_filter in Hi. rewrite Q in Hi. apply names_filter in Hi. contradiction.
      + cbn [lru replace_row]. intros Hi. apply pushMRU_in in Hi as [Hi|Hi]; [congruence|]. apply E3. rewrite Hp. apply in_or_app. right. exact Hi.
  Qed.
  Lemma read_exact p row c c' v : exact c -> read_cache glob p row c = Done (c', v) -> exact c'.
  Proof.
    intros (E1 & E2 & E3) H. unfold read_cache in H. case_if_in H; [discriminate|].
    destruct (find _ _) as [[n v']|] eqn:F; [|discriminate]. injection H as <- _. split; [exact E1|]. split; [exact E2|].
    cbn [lru]. intros Hi. apply pushMRU_in in Hi as [Hi|Hi]; [|contradiction]. apply find_some in F as [F _].
    apply E2. apply in_map_iff. exists (n, v'). cbn. auto.
  Qed.
  Lemma step_exact c e : good_event e -> exact c -> step max glob pick c e <> Aborted /\
    forall c', step max glob pick c e = Done c' -> exact c'.
  Proof.
    intros Hg He. destruct e as [r w|r w|p row|]; cbn [step good_event] in *.
    - destruct Hg as [-> Hn]. destruct (write_exact w c Hn He) as [W1 W2].
      destruct (write_cache _ _ _ true w c) as [| | |c1].
      + split; [discriminate|]. intros c' H. injection H as <-. exact He.
      + exfalso. apply W1. reflexivity.
      + split; [discriminate|]. intros c' H. discriminate.
      + split; [discriminate|]. intros c' H. injection H as <-. apply W2. reflexivity.
    - destruct Hg as [-> Hn]. destruct (write_exact w c Hn He) as [W1 W2].
      destruct (write_cache _ _ _ true w c) as [| | |c1] eqn:E.
      + split; [discriminate|]. intros c' H. injection H as <-. exact He.
      + exfalso. apply W1. reflexivity.
      + split; [discriminate|]. intros c' H. discriminate.
      + split; [discriminate|]. intros c' H. injection H as <-.
        destruct He as (E1 & E2 & E3). destruct (W2 c1 eq_refl) as (F1 & F2 & F3). repeat split; assumption.
    - destruct (read_cache glob p row c) as [| | |[c1 v]] eqn:E; split; try discriminate; intros c' H; injection H as <-; try exact He.
      eapply read_exact; eassumption.
    - split; [discriminate|]. intros c' H. injection H as <-. destruct He as (E1 & E2 & E3). repeat split; try assumption. intros [].
  Qed.
  Lemma run_exact es : forall c, inv c -> exact c -> Forall good_event es ->
    exists c', run max glob pick c es = Done c' /\ exact c' /\ inv c'.
  Proof.
    induction es as [|e es IH]; intros c Hi He Hg; [exists c; auto|]. inversion Hg as [|? ? G1 G2]; subst. cbn [run].
    destruct (step_exact c e G1 He) as [S1 S2]. pose proof (step_fuel c e Hi) as S3. pose proof (step_inv c e) as S4.
    destruct (step max glob pick c e) as [| | |c1] eqn:E; try congruence.
    - exfalso. destruct e as [r w|r w|p row|]; cbn [step] in E;
        [destruct (write_cache _ _ _ r w c)|destruct (write_cache _ _ _ r w c)|destruct (read_cache glob p row c) as [| | |[? ?]]|]; discriminate.
    - apply IH; auto.
  Qed.
  Lemma exact_init : exact init.
  Proof. repeat split; intros []. Qed.
End proofs.
