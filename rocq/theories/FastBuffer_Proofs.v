(** Proofs about the SFastBuffer model. *)
From Verif Require Import Base FastBuffer_Spec FastBuffer_Model.

(** Position [p] of [d] ends a header block as the code sees it. *)
Definition hit (d : bytes) (front p : nat) : bool := at_is d p LF && negb (N.eqb (hl_at d front p) 0).

Record Inv (f : fbuf) : Prop := {
  i_front : fb_front f <= List.length (fb_data f);
  i_next : fb_front f <= fb_next f <= List.length (fb_data f);
  i_old : fb_hl f = 0%N -> forall p, fb_front f <= p < fb_next f ->
          hit (fb_data f) (fb_front f) p = false /\ p + 2 < List.length (fb_data f);
  i_hl : fb_hl f <> 0%N -> exists p, fb_front f <= p < List.length (fb_data f) /\
          hit (fb_data f) (fb_front f) p = true /\ 4 <= fb_size f
}.

Lemma at_is_app d s i c : i < List.length d -> at_is (d ++ s) i c = at_is d i c.
Proof. intros H. unfold at_is. rewrite nth_error_app1 by exact H. reflexivity. Qed.

Lemma at_is_len d i c : at_is d i c = true -> i < List.length d.
Proof.
  unfold at_is. destruct (nth_error d i) eqn:E; [|discriminate]. intros _.
  apply nth_error_Some. congruence.
Qed.

(** The value only depends on the bytes around [p]. *)
Definition hitb (d : bytes) (front p : nat) : bool :=
  at_is d p LF &&
  ((Nat.ltb front p && at_is d (p + 1) LF)
   || (negb (Nat.eqb p 0) && at_is d (p - 1) CR && at_is d (p + 1) CR && at_is d (p + 2) LF
       && (Nat.ltb p front || Nat.eqb p front || Nat.ltb (front + 1) p))).

Lemma hit_hitb d front p : front <= p -> hit d front p = hitb d front p.
Proof.
  intros Hp. unfold hit, hitb, hl_at. destruct (at_is d p LF) eqn:E0; [cbn [andb]|reflexivity].
  destruct (at_is d (p + 1) LF) eqn:E1.
  - assert (H2 : at_is d (p + 1) CR = false).
    { unfold at_is in *. destruct (nth_error d (p + 1)); [|reflexivity].
      apply Ascii.eqb_eq in E1; subst. reflexivity. }
    rewrite H2. rewrite !andb_false_r. cbn [andb orb]. pose proof (at_is_len _ _ _ E1).
    destruct (Nat.ltb_spec p (List.length d - 1)); [|lia]. cbn [andb].
    destruct (Nat.ltb_spec front p), (N.eqb_spec (N.of_nat (p - front)) 0); cbn [negb andb orb]; try reflexivity; lia.
  - rewrite !andb_false_r. cbn [orb].
    destruct (Nat.eqb_spec p 0); cbn [negb andb]; [reflexivity|].
    destruct (at_is d (p - 1) CR); cbn [andb]; [|rewrite andb_false_r; reflexivity].
    destruct (at_is d (p + 1) CR) eqn:E2; cbn [andb]; [|rewrite andb_false_r; reflexivity].
    destruct (at_is d (p + 2) LF) eqn:E3; cbn [andb]; [|rewrite andb_false_r; reflexivity].
    pose proof (at_is_len _ _ _ E3). destruct (Nat.ltb_spec p (List.length d - 2)); [|lia]. cbn [andb].
    destruct (Nat.ltb_spec p front); [lia|]. cbn [orb].
    destruct (Nat.ltb_spec front p), (Nat.eqb_spec p front); try lia; cbn [orb].
    destruct (Nat.ltb_spec (front + 1) p), (N.eqb_spec (N.of_nat (p - front - 1)) 0); cbn; try reflexivity; lia.
Qed.

Lemma hit_app d s front p : front <= p -> p + 2 < List.length d -> hit (d ++ s) front p = hit d front p.
Proof.
  intros H1 H2. rewrite !hit_hitb by exact H1. unfold hitb. rewrite !at_is_app by lia. reflexivity.
Qed.
Lemma hit_app_true d s front p : front <= p -> hit d front p = true -> hit (d ++ s) front p = true.
Proof.
  intros H1 H2. rewrite hit_hitb in * by exact H1. unfold hitb in *.
  apply andb_true_iff in H2 as [E0 E]. pose proof (at_is_len _ _ _ E0). rewrite at_is_app, E0 by lia. cbn [andb].
  apply orb_true_iff in E as [E|E].
  - apply andb_true_iff in E as [Ea Eb]. pose proof (at_is_len _ _ _ Eb).
    rewrite at_is_app, Ea, Eb by lia. reflexivity.
  - apply orb_true_iff. right. apply andb_true_iff in E as [E G1]. apply andb_true_iff in E as [E G2].
    apply andb_true_iff in E as [E G3]. apply andb_true_iff in E as [E G4].
    pose proof (at_is_len _ _ _ G2). rewrite !at_is_app by lia.
    rewrite E, G1, G2, G3, G4. reflexivity.
Qed.

Lemma scan_zero d front n p :
  scan d front p n = 0%N <-> (forall i, p <= i < p + n -> hit d front i = false).
Proof.
  revert p. induction n as [|n IH]; intros p; cbn [scan].
  - split; [intros _ i Hi; lia|reflexivity].
  - unfold hit. destruct (at_is d p LF) eqn:E.
    + destruct (N.eqb_spec (hl_at d front p) 0) as [H0|H0].
      * rewrite IH. split.
        -- intros H i Hi. destruct (Nat.eq_dec i p) as [->|]; [rewrite E, H0; reflexivity|apply H; lia].
        -- intros H i Hi. apply H; lia.
      * split; [intros; congruence|]. intros H. specialize (H p ltac:(lia)). rewrite E in H. cbn in H.
        destruct (N.eqb_spec (hl_at d front p) 0); [contradiction|discriminate].
    + rewrite N.eqb_refl, IH. split.
      * intros H i Hi. destruct (Nat.eq_dec i p) as [->|]; [rewrite E; reflexivity|apply H; lia].
      * intros H i Hi. apply H; lia.
Qed.

Lemma scan_nonzero d front n p :
  scan d front p n <> 0%N -> exists i, p <= i < p + n /\ hit d front i = true.
Proof.
  revert p. induction n as [|n IH]; intros p; cbn [scan]; [congruence|].
  unfold hit. destruct (at_is d p LF) eqn:E.
  - destruct (N.eqb_spec (hl_at d front p) 0) as [H0|H0].
    + intros H. destruct (IH _ H) as (i & Hi & Hh). exists i. split; [lia|exact Hh].
    + intros _. exists p. split; [lia|]. rewrite E. cbn. destruct (N.eqb_spec (hl_at d front p) 0); [contradiction|reflexivity].
  - rewrite N.eqb_refl. intros H. destruct (IH _ H) as (i & Hi & Hh). exists i. split; [lia|exact Hh].
Qed.

(** What [startsWithHTTPRequest] answers, in terms of hits. *)
Definition some_hit (f : fbuf) : Prop :=
  4 <= fb_size f /\ exists p, fb_front f <= p < List.length (fb_data f) /\ hit (fb_data f) (fb_front f) p = true.

Lemma starts_hit f : Inv f -> snd (fb_starts f) = true <-> some_hit f.
Proof.
  intros HI. unfold fb_starts, some_hit. destruct (Nat.ltb_spec (fb_size f) 4); cbn [snd].
  { split; [discriminate|lia]. }
  destruct HI. destruct (N.eqb_spec (fb_hl f) 0) as [E|E].
  - destruct (N.eqb_spec (scan (fb_data f) (fb_front f) (fb_next f) (List.length (fb_data f) - fb_next f)) 0) as [E2|E2]; cbn [negb].
    + split; [discriminate|]. intros (_ & p & Hp & Hh). rewrite scan_zero in E2.
      destruct (Nat.lt_ge_cases p (fb_next f)).
      * destruct (i_old0 E p ltac:(lia)). congruence.
      * rewrite E2 in Hh by lia. discriminate.
    + split; [intros _|reflexivity]. split; [assumption|]. apply scan_nonzero in E2 as (p & Hp & Hh). exists p. split; [lia|exact Hh].
  - destruct (N.eqb_spec (fb_hl f) 0); [contradiction|]. cbn. split; [intros _|reflexivity].
    destruct (i_hl0 E) as (p & Hp & Hh & _). split; [assumption|]. exists p; auto.
Qed.

Lemma Inv_init : Inv fb_init.
Proof. constructor; cbn; intros; try lia; try congruence. Qed.
Lemma Inv_fresh s : Inv (mkFB 0 s 0 0).
Proof. constructor; cbn; intros; try lia; try congruence. Qed.

Lemma Inv_step f o : Inv f -> (match o with Fconsume n => n <= List.length (fb_contents f) | _ => True end) ->
  Inv (fb_step f o).
Proof.
  intros HI Hv. pose proof (starts_hit f HI) as Hst. destruct HI. destruct o; cbn [fb_step].
  - unfold fb_append. destruct (_ && _); [apply Inv_fresh|].
    constructor; cbn [fb_front fb_data fb_next fb_hl]; rewrite ?app_length; try lia.
    + intros H p Hp. destruct (i_old0 H p Hp) as [Hh Hl]. split; [|lia]. rewrite hit_app by lia. exact Hh.
    + intros H. destruct (i_hl0 H) as (p & Hp & Hh & Hs). exists p. split; [lia|]. split; [apply hit_app_true; [lia|exact Hh]|].
      unfold fb_size in *; cbn. rewrite app_length. lia.
  - unfold fb_contents in Hv. rewrite skipn_length in Hv. unfold fb_consume.
    destruct (Nat.eqb_spec (fb_front f + n) (List.length (fb_data f))); [apply Inv_init|].
    constructor; cbn; intros; try lia; try congruence.
  - apply Inv_init.
  - apply Inv_fresh.
  - unfold fb_starts in *. destruct (Nat.ltb_spec (fb_size f) 4); cbn [fst snd] in *; [constructor; assumption|].
    unfold fb_size in *.
    constructor; cbn [fb_front fb_data fb_next fb_hl]; [assumption| | |].
    + case_if; lia.
    + intros H0. rewrite H0, N.eqb_refl. intros p Hp. split; [|lia].
      rewrite H0, N.eqb_refl in Hst. cbn in Hst. destruct (hit (fb_data f) (fb_front f) p) eqn:Eh; [|reflexivity].
      exfalso. assert (false = true); [|discriminate]. apply Hst. split; [unfold fb_size; assumption|]. exists p. split; [lia|exact Eh].
    + intros H0. destruct (N.eqb_spec (if (fb_hl f =? 0)%N then scan (fb_data f) (fb_front f) (fb_next f) (List.length (fb_data f) - fb_next f) else fb_hl f) 0); [contradiction|].
      cbn in Hst. destruct Hst as [Hst _]. destruct (Hst eq_refl) as (H4 & p & Hp & Hh). exists p. auto.
Qed.

Lemma contents_step f o : Inv f -> (match o with Fconsume n => n <= List.length (fb_contents f) | _ => True end) ->
  fb_contents (fb_step f o) = spec_step (fb_contents f) o.
Proof.
  intros HI Hv. destruct HI. destruct o; cbn [fb_step spec_step]; unfold fb_contents in *.
  - unfold fb_append. destruct (_ && _); cbn [fb_front fb_data]; [reflexivity|].
    rewrite skipn_app. replace (fb_front f - List.length (fb_data f)) with 0 by lia. reflexivity.
  - rewrite skipn_length in Hv. unfold fb_consume. rewrite skipn_skipn.
    destruct (Nat.eqb_spec (fb_front f + n) (List.length (fb_data f))).
    + cbn. symmetry. apply skipn_all2. lia.
    + cbn. f_equal. lia.
  - reflexivity.
  - reflexivity.
  - unfold fb_starts. destruct (Nat.ltb _ _); reflexivity.
Qed.

Lemma run_correct ops : forall f l, Inv f -> fb_contents f = l -> valid l ops ->
  Inv (fb_run f ops) /\ fb_contents (fb_run f ops) = spec_run l ops.
Proof.
  induction ops as [|o ops IH]; intros f l HI Hc Hv; [split; assumption|].
  cbn in Hv. destruct Hv as [Hv1 Hv2]. subst l. cbn [fb_run spec_run fold_left].
  apply IH; [apply Inv_step; assumption| |assumption].
  apply contents_step; assumption.
Qed.

(** ** Hits and the specification *)
Lemma at_is_split d i c : at_is d i c = true -> exists a b, d = a ++ c :: b /\ List.length a = i.
Proof.
  unfold at_is. destruct (nth_error d i) eqn:E; [|discriminate]. intros H. apply Ascii.eqb_eq in H. subst.
  apply nth_error_split in E. exact E.
Qed.

Lemma skipn_at d front i c : at_is (skipn front d) i c = at_is d (front + i) c.
Proof.
  unfold at_is. f_equal. revert front. induction d as [|x d IH]; intros front.
  - rewrite skipn_nil. destruct i, (front + 0); destruct front; reflexivity.
  - destruct front; [reflexivity|]. cbn. rewrite IH. reflexivity.
Qed.

Lemma two_at l i : at_is l i LF = true -> at_is l (i + 1) LF = true ->
  exists a b, l = a ++ LF :: LF :: b /\ List.length a = i.
Proof.
  intros H1 H2. apply at_is_split in H1 as (a & b & -> & Hl). unfold at_is in H2.
  rewrite nth_error_app2 in H2 by lia. replace (i + 1 - List.length a) with 1 in H2 by lia.
  cbn in H2. destruct b as [|y b]; [discriminate|]. cbn in H2. apply Ascii.eqb_eq in H2. subst. exists a, b. auto.
Qed.

Lemma four_at l i : at_is l i CR = true -> at_is l (i + 1) LF = true -> at_is l (i + 2) CR = true -> at_is l (i + 3) LF = true ->
  exists a b, l = a ++ CR :: LF :: CR :: LF :: b /\ List.length a = i.
Proof.
  intros H1 H2 H3 H4. apply at_is_split in H1 as (a & b & -> & Hl). unfold at_is in H2, H3, H4.
  rewrite nth_error_app2 in H2, H3, H4 by lia.
  replace (i + 1 - List.length a) with 1 in H2 by lia.
  replace (i + 2 - List.length a) with 2 in H3 by lia.
  replace (i + 3 - List.length a) with 3 in H4 by lia.
  destruct b as [|y [|z [|w b]]]; cbn in *; try discriminate.
  apply Ascii.eqb_eq in H2, H3, H4. subst. exists a, b. auto.
Qed.

Lemma at_is_here a (c : ascii) b : at_is (a ++ c :: b) (List.length a) c = true.
Proof. unfold at_is. rewrite nth_error_app2, Nat.sub_diag by lia. cbn. apply Ascii.eqb_refl. Qed.
Lemma at_is_off a b k c : at_is b k c = true -> at_is (a ++ b) (List.length a + k) c = true.
Proof. intros H. unfold at_is in *. rewrite nth_error_app2 by lia. replace (List.length a + k - List.length a) with k by lia. exact H. Qed.

(** The unconsumed bytes do not start in the middle of a CR LF CR LF separator. *)
Definition clean_start (l : bytes) : Prop := ~ exists b, l = LF :: CR :: LF :: b.

Lemma some_hit_spec f : Inv f -> clean_start (fb_contents f) ->
  some_hit f <-> has_header_block (fb_contents f).
Proof.
  intros HI Hcl. destruct HI. unfold some_hit, has_header_block, fb_contents, fb_size in *.
  rewrite skipn_length. set (d := fb_data f) in *. set (fr := fb_front f) in *. clearbody d fr.
  split; intros (H4 & H); (split; [exact H4|]).
  - destruct H as (p & Hp & Hh). rewrite hit_hitb in Hh by lia. unfold hitb in Hh.
    replace p with (fr + (p - fr)) in Hh by lia. set (i := p - fr) in *.
    apply andb_true_iff in Hh as [E0 E]. apply orb_true_iff in E as [E|E].
    + apply andb_true_iff in E as [Ea Eb]. apply Nat.ltb_lt in Ea.
      rewrite <- Nat.add_assoc in Eb. rewrite <- skipn_at in E0, Eb.
      destruct (two_at _ _ E0 Eb) as (a & b & Hab & Hl). exists a, b. split; [|left; exact Hab].
      intros ->. cbn in Hl. lia.
    + apply andb_true_iff in E as [E H]. apply andb_true_iff in E as [E H0].
      apply andb_true_iff in E as [E H1]. apply andb_true_iff in E as [E H2].
      destruct (Nat.eq_dec i 0) as [Hi|Hi].
      * exfalso. apply Hcl. rewrite Hi in *. rewrite <- !Nat.add_assoc in *. rewrite <- skipn_at in E0, H0, H1. cbn in H0, H1.
        destruct (skipn fr d) as [|x [|y [|z b]]]; cbn in *; try discriminate.
        apply Ascii.eqb_eq in E0, H0, H1. subst. exists b. reflexivity.
      * assert (Hi2 : i <> 1).
        { intros ->. destruct (Nat.ltb_spec (fr + 1) fr), (Nat.eqb_spec (fr + 1) fr), (Nat.ltb_spec (fr + 1) (fr + 1)); cbn in H; try discriminate; lia. }
        replace (fr + i) with (fr + (i - 1 + 1)) in E0 by lia.
        replace (fr + i - 1) with (fr + (i - 1)) in H2 by lia.
        replace (fr + i + 1) with (fr + (i - 1 + 2)) in H1 by lia.
        replace (fr + i + 2) with (fr + (i - 1 + 3)) in H0 by lia.
        rewrite <- skipn_at in *. destruct (four_at _ _ H2 E0 H1 H0) as (a & b & Hab & Hl).
        exists a, b. split; [|right; exact Hab]. intros ->. cbn in Hl. lia.
  - destruct H as (a & b & Ha & H). assert (Hla : 0 < List.length a) by (destruct a; [congruence|cbn; lia]).
    assert (Hlen : List.length (skipn fr d) = List.length d - fr) by apply skipn_length.
    destruct H as [H|H].
    + exists (fr + List.length a). rewrite hit_hitb by lia. unfold hitb.
      assert (E0 : at_is d (fr + List.length a) LF = true).
      { rewrite <- skipn_at, H. apply at_is_here. }
      assert (E1 : at_is d (fr + List.length a + 1) LF = true).
      { rewrite <- Nat.add_assoc, <- skipn_at, H. apply at_is_off. reflexivity. }
      pose proof (at_is_len _ _ _ E0). split; [lia|]. rewrite E0, E1.
      destruct (Nat.ltb_spec fr (fr + List.length a)); [reflexivity|lia].
    + exists (fr + List.length a + 1). rewrite hit_hitb by lia. unfold hitb.
      assert (E0 : at_is d (fr + List.length a + 1 - 1) CR = true).
      { replace (fr + List.length a + 1 - 1) with (fr + List.length a) by lia. rewrite <- skipn_at, H. apply at_is_here. }
      assert (E1 : at_is d (fr + List.length a + 1) LF = true).
      { rewrite <- Nat.add_assoc, <- skipn_at, H. apply at_is_off. reflexivity. }
      assert (E2 : at_is d (fr + List.length a + 1 + 1) CR = true).
      { replace (fr + List.length a + 1 + 1) with (fr + (List.length a + 2)) by lia. rewrite <- skipn_at, H. apply at_is_off. reflexivity. }
      assert (E3 : at_is d (fr + List.length a + 1 + 2) LF = true).
      { replace (fr + List.length a + 1 + 2) with (fr + (List.length a + 3)) by lia. rewrite <- skipn_at, H. apply at_is_off. reflexivity. }
      pose proof (at_is_len _ _ _ E1). split; [lia|]. rewrite E0, E1, E2, E3.
      apply orb_true_iff. right.
      destruct (Nat.eqb_spec (fr + List.length a + 1) 0); [lia|].
      destruct (Nat.ltb_spec (fr + 1) (fr + List.length a + 1)); [|lia]. rewrite !orb_true_r. reflexivity.
Qed.
