(** Decimal rendering and parsing of integers: std::to_string / SToStr on integers and
    strtoll / atoll as used through SToInt64 (libstuff.h).  *)
From Verif Require Import Base.
Local Open Scope N_scope.

Definition digit_char (d : N) : ascii := ascii_of_N (48 + d).
Definition is_digit (c : ascii) : bool := N.leb 48 (bcode c) && N.leb (bcode c) 57.
Definition digit_val (c : ascii) : N := bcode c - 48.

(** Least significant digit last; [fuel] bounds the number of digits. *)
Fixpoint dec_fuel (fuel : nat) (n : N) (acc : bytes) : bytes :=
  match fuel with
  | O => acc
  | S f => let acc' := digit_char (n mod 10) :: acc in
           if N.ltb n 10 then acc' else dec_fuel f (n / 10) acc'
  end.
(** std::to_string for an unsigned value. *)
Definition dec (n : N) : bytes := dec_fuel (S (N.to_nat (N.log2 n))) n [].

(** Value of a string of digits. *)
Definition dec_value (acc : N) (l : bytes) : N := fold_left (fun a c => 10 * a + digit_val c) l acc.

(** The longest prefix of digits. *)
Fixpoint digits_of (l : bytes) : bytes :=
  match l with c :: l' => if is_digit c then c :: digits_of l' else [] | [] => [] end.

Lemma digit_char_is_digit d : d < 10 -> is_digit (digit_char d) = true /\ digit_val (digit_char d) = d.
Proof.
  intros H. unfold is_digit, digit_val, digit_char, bcode.
  rewrite N_ascii_embedding by lia. split; [|lia].
  apply andb_true_iff. split; apply N.leb_le; lia.
Qed.

Lemma dec_fuel_spec f : forall n acc, n < 2 ^ N.of_nat f ->
  exists ds, dec_fuel f n acc = ds ++ acc /\ forallb is_digit ds = true /\
             (forall a, dec_value a ds = a * 10 ^ N.of_nat (List.length ds) + n) /\
             (f <> O -> ds <> []) /\ n < 10 ^ N.of_nat (List.length ds) /\
             (n <> 0 -> exists d r, ds = d :: r /\ digit_val d <> 0) /\ (n = 0 -> f <> O -> ds = [digit_char 0]).
Proof.
  induction f as [|f IH]; intros n acc Hn.
  { cbn in Hn. exists []. cbn [dec_fuel app List.length]. repeat split; try easy; cbn; try lia. }
  cbn [dec_fuel]. assert (Hm : n mod 10 < 10) by (apply N.mod_lt; lia).
  destruct (digit_char_is_digit _ Hm) as [D1 D2].
  destruct (N.ltb_spec n 10) as [Hs|Hs].
  - exists [digit_char (n mod 10)]. rewrite N.mod_small in * by assumption. cbn [app forallb List.length dec_value fold_left].
    rewrite D1. change (N.of_nat 1) with 1. rewrite N.pow_1_r.
    repeat split; try easy; try lia. intros H; exists (digit_char n), []; split; [reflexivity|lia].
    intros -> _. reflexivity.
  - assert (Hd : n / 10 < 2 ^ N.of_nat f).
    { rewrite Nat2N.inj_succ, N.pow_succ_r' in Hn. apply N.div_lt_upper_bound; [lia|].
      eapply N.lt_le_trans; [exact Hn|]. apply N.mul_le_mono_r. lia. }
    destruct (IH (n / 10) (digit_char (n mod 10) :: acc) Hd) as (ds & E & F1 & F2 & F3 & F4 & F5 & F6).
    exists (ds ++ [digit_char (n mod 10)]). rewrite E, <- app_assoc.
    split; [reflexivity|]. split; [rewrite forallb_app, F1; cbn; rewrite D1; reflexivity|].
    rewrite app_length. cbn [List.length]. rewrite Nat.add_1_r, Nat2N.inj_succ, N.pow_succ_r'.
    assert (Hn' : n = 10 * (n / 10) + n mod 10) by (apply N.div_mod; lia).
    split.
    { intros a. unfold dec_value in *. rewrite fold_left_app, F2. cbn [fold_left]. rewrite D2.
      rewrite Hn' at 3. generalize (10 ^ N.of_nat (List.length ds)); intros; lia. }
    split; [intros _ H; destruct ds; discriminate|].
    split; [generalize dependent (10 ^ N.of_nat (List.length ds)); intros; lia|].
    split; [|lia]. intros _. destruct F5 as (d & r & -> & Hdd).
    { intros H0. assert (n < 10); [|lia]. lia. }
    exists d, (r ++ [digit_char (n mod 10)]). split; [reflexivity|exact Hdd].
Qed.

Lemma dec_fuel_bound n : n < 2 ^ N.of_nat (S (N.to_nat (N.log2 n))).
Proof.
  rewrite Nat2N.inj_succ, N2Nat.id. destruct (N.eq_dec n 0) as [->|H]; [cbn; lia|].
  apply N.log2_spec. lia.
Qed.

Lemma dec_digits n : forallb is_digit (dec n) = true.
Proof.
  unfold dec. destruct (dec_fuel_spec _ n [] (dec_fuel_bound n)) as (ds & E & F1 & _).
  rewrite E, app_nil_r. exact F1.
Qed.
Lemma dec_nonempty n : dec n <> [].
Proof.
  unfold dec. destruct (dec_fuel_spec _ n [] (dec_fuel_bound n)) as (ds & E & _ & _ & F3 & _).
  rewrite E, app_nil_r. apply F3. discriminate.
Qed.
Lemma dec_value_dec n : dec_value 0 (dec n) = n.
Proof.
  unfold dec. destruct (dec_fuel_spec _ n [] (dec_fuel_bound n)) as (ds & E & _ & F2 & _).
  rewrite E, app_nil_r, F2. lia.
Qed.
Lemma dec_inj a b : dec a = dec b -> a = b.
Proof. intros H. rewrite <- (dec_value_dec a), <- (dec_value_dec b), H. reflexivity. Qed.
Lemma dec_no_leading_zero n : n <> 0 -> exists d r, dec n = d :: r /\ digit_val d <> 0.
Proof.
  intros H. unfold dec. destruct (dec_fuel_spec _ n [] (dec_fuel_bound n)) as (ds & E & _ & _ & _ & _ & F5 & _).
  rewrite E, app_nil_r. apply F5. exact H.
Qed.
Lemma dec_length_le n k : n < 10 ^ N.of_nat k -> (0 < k)%nat -> (List.length (dec n) <= k)%nat.
Proof.
  intros H Hk. destruct (N.eq_dec n 0) as [->|H0]; [cbn; exact Hk|].
  destruct (dec_no_leading_zero n H0) as (d & r & E & Hd).
  assert (G : forall l a, dec_value a l >= a * 10 ^ N.of_nat (List.length l)).
  { induction l as [|c l IH]; intros a; [cbn; lia|]. cbn [dec_value fold_left List.length].
    rewrite Nat2N.inj_succ, N.pow_succ_r'. specialize (IH (10 * a + digit_val c)). unfold dec_value in IH.
    generalize dependent (10 ^ N.of_nat (List.length l)). intros p. nia. }
  pose proof (dec_value_dec n) as V. rewrite E in *. cbn [dec_value fold_left] in V. fold (dec_value (10 * 0 + digit_val d) r) in V.
  specialize (G r (10 * 0 + digit_val d)). rewrite V in G. cbn [List.length].
  destruct (Nat.le_gt_cases k (List.length r)) as [Hl|Hl]; [|lia]. exfalso.
  assert (10 ^ N.of_nat k <= 10 ^ N.of_nat (List.length r)) by (apply N.pow_le_mono_r; lia).
  generalize dependent (10 ^ N.of_nat (List.length r)). intros; nia.
Qed.

Lemma digits_of_app l c r : forallb is_digit l = true -> is_digit c = false -> digits_of (l ++ c :: r) = l.
Proof.
  induction l as [|x l IH]; cbn; intros H Hc; [rewrite Hc; reflexivity|].
  apply andb_true_iff in H as [H1 H2]. rewrite H1, IH by assumption. reflexivity.
Qed.
Lemma digits_of_all l : forallb is_digit l = true -> digits_of l = l.
Proof. induction l as [|x l IH]; cbn; intros H; [reflexivity|]. apply andb_true_iff in H as [H1 H2]. rewrite H1, IH by assumption. reflexivity. Qed.

(** std::to_string for a signed value. *)
Definition decZ (z : Z) : bytes :=
  if (z <? 0)%Z then "-"%char :: dec (Z.to_N (- z)) else dec (Z.to_N z).
