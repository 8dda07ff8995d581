(** C65: times, written as texts, are in the order of the times. *)
From Verif Require Import Base Dec Text_Spec Text_Model Text_Proofs Time_Spec Time_Model.
Local Open Scope N_scope.

(** ** Digits *)
Lemma digit_code d : d < 10 -> bcode (digit_char d) = 48 + d.
Proof. intros H. unfold bcode, digit_char. rewrite N_ascii_embedding by lia. reflexivity. Qed.
Lemma pow10_pos k : 0 < 10 ^ N.of_nat k.
Proof. apply N.neq_0_lt_0. apply N.pow_nonzero. discriminate. Qed.
Lemma fixed_div k n : n < 10 ^ N.of_nat (S k) -> n / 10 ^ N.of_nat k < 10.
Proof.
  intros H. apply N.div_lt_upper_bound; [pose proof (pow10_pos k); lia|]. rewrite Nat2N.inj_succ, N.pow_succ_r' in H. lia.
Qed.
Lemma fixed_compare k : forall a b s t, a < 10 ^ N.of_nat k -> b < 10 ^ N.of_nat k ->
  text_compare (fixed k a ++ s) (fixed k b ++ t) = match a ?= b with Eq => text_compare s t | c => c end.
Proof.
  induction k as [|k IH]; intros a b s t A B.
  - cbn in A, B. assert (a = 0) by lia. assert (b = 0) by lia. subst. reflexivity.
  - cbn [fixed app text_compare]. pose proof (pow10_pos k) as P. set (p := 10 ^ N.of_nat k) in *.
    pose proof (fixed_div k a A) as DA. pose proof (fixed_div k b B) as DB. fold p in DA, DB.
    rewrite !digit_code by assumption. rewrite IH by (apply N.mod_lt; lia).
    pose proof (N.div_mod a p ltac:(lia)) as EA. pose proof (N.div_mod b p ltac:(lia)) as EB.
    pose proof (N.mod_lt a p ltac:(lia)) as MA. pose proof (N.mod_lt b p ltac:(lia)) as MB.
    set (qa := a / p) in *. set (qb := b / p) in *. set (ra := a mod p) in *. set (rb := b mod p) in *.
    destruct (N.compare_spec (48 + qa) (48 + qb)) as [E|E|E].
    + assert (Q : qa = qb) by lia. assert (R : (ra ?= rb) = (a ?= b)).
      { rewrite EA, EB, Q. destruct (N.compare_spec ra rb) as [F|F|F]; symmetry; [apply N.compare_eq_iff|apply N.compare_lt_iff|apply N.compare_gt_iff]; lia. }
      rewrite R. reflexivity.
    + assert (L : a < b) by (assert (p * qa + p <= p * qb) by nia; lia). apply N.compare_lt_iff in L. rewrite L. reflexivity.
    + assert (L : b < a) by (assert (p * qb + p <= p * qa) by nia; lia). apply N.compare_gt_iff in L. rewrite L. reflexivity.
Qed.
Lemma padded_small k n : n < 10 ^ N.of_nat k -> padded k n = fixed k n.
Proof. intros H. unfold padded. apply N.ltb_lt in H. rewrite H. reflexivity. Qed.
(** Two numbers and what follows them. *)
Lemma chain k c a b s t : a < 10 ^ N.of_nat k -> b < 10 ^ N.of_nat k ->
  text_compare (padded k a ++ c :: s) (padded k b ++ c :: t) = match a ?= b with Eq => text_compare s t | o => o end.
Proof.
  intros A B. rewrite !padded_small by assumption. rewrite fixed_compare by assumption. cbn [text_compare]. rewrite N.compare_refl. reflexivity.
Qed.

(** ** The calendar *)
Definition weight (x : date) : N := (year x * 100 + month x) * 100 + day x.
Lemma length_bounds y m : 1 <= m <= 12 -> 28 <= month_length y m <= 31.
Proof.
  intros H. unfold month_length, lengths. assert (C : m = 1 \/ m = 2 \/ m = 3 \/ m = 4 \/ m = 5 \/ m = 6 \/ m = 7 \/ m = 8 \/ m = 9 \/ m = 10 \/ m = 11 \/ m = 12) by lia.
  destruct (leap y); do 11 (destruct C as [->|C]; [split; vm_compute; discriminate|]); subst m; split; vm_compute; discriminate.
Qed.
Lemma next_valid x : is_date x -> is_date (next_day x) /\ weight x < weight (next_day x).
Proof.
  intros [M D]. unfold next_day, is_date, weight. pose proof (length_bounds (year x) (month x) M) as L.
  destruct (N.ltb_spec (day x) (month_length (year x) (month x))); cbn [year month day]; [repeat split; lia|].
  destruct (N.ltb_spec (month x) 12); cbn [year month day].
  - pose proof (length_bounds (year x) (month x + 1) ltac:(lia)). repeat split; lia.
  - pose proof (length_bounds (year x + 1) 1 ltac:(lia)). repeat split; lia.
Qed.
Lemma date_succ n : date_of (N.succ n) = next_day (date_of n).
Proof. unfold date_of. apply N.iter_succ. Qed.
Lemma date_valid n : is_date (date_of n).
Proof.
  induction n as [|n IH] using N.peano_ind; [split; split; vm_compute; discriminate|]. rewrite date_succ. apply next_valid. exact IH.
Qed.
Lemma weight_mono a b : a < b -> weight (date_of a) < weight (date_of b).
Proof.
  intros H. replace b with (N.succ (b - a - 1) + a) by lia. generalize (b - a - 1). clear H b. intros k. induction k as [|k IH] using N.peano_ind.
  - replace (N.succ 0 + a) with (N.succ a) by lia. rewrite date_succ. apply next_valid. apply date_valid.
  - replace (N.succ (N.succ k) + a) with (N.succ (N.succ k + a)) by lia. rewrite date_succ. pose proof (proj2 (next_valid _ (date_valid (N.succ k + a)))). lia.
Qed.
Lemma compare_mono (f : N -> N) a b : (forall a b, a < b -> f a < f b) -> (f a ?= f b) = (a ?= b).
Proof.
  intros M. destruct (N.compare_spec a b) as [->|H|H]; [apply N.compare_refl|apply N.compare_lt_iff|apply N.compare_gt_iff]; apply M; exact H.
Qed.
Lemma split_compare k p q a b : a < k -> b < k -> (p * k + a ?= q * k + b) = match p ?= q with Eq => a ?= b | c => c end.
Proof.
  intros A B. destruct (N.compare_spec p q) as [->|H|H].
  - destruct (N.compare_spec a b) as [->|H|H]; [apply N.compare_refl|apply N.compare_lt_iff|apply N.compare_gt_iff]; lia.
  - apply N.compare_lt_iff. nia.
  - apply N.compare_gt_iff. nia.
Qed.

(** The year of a time. *)
Definition year_of (when : N) : N := year (date_of (when / 1000000 / 86400)).

Lemma date_compare x y s t : is_date x -> is_date y -> year x < 10000 -> year y < 10000 ->
  text_compare (write_date (year x) (month x) (day x) ++ " "%char :: s) (write_date (year y) (month y) (day y) ++ " "%char :: t) =
  match weight x ?= weight y with Eq => text_compare s t | c => c end.
Proof.
  intros [MX DX] [MY DY] YX YY. pose proof (length_bounds (year x) (month x) MX). pose proof (length_bounds (year y) (month y) MY).
  unfold write_date, weight. rewrite !split_compare by lia.
  repeat (rewrite <- !app_assoc; cbn [app]). rewrite (chain 4) by (cbn; lia). destruct (year x ?= year y); try reflexivity.
  rewrite (chain 2) by (cbn; lia). destruct (month x ?= month y); try reflexivity. apply (chain 2); cbn; lia.
Qed.
Lemma clock_compare a b s t : a < 86400 -> b < 86400 ->
  text_compare (write_clock (a / 3600) (a / 60 mod 60) (a mod 60) ++ s) (write_clock (b / 3600) (b / 60 mod 60) (b mod 60) ++ t) = match a ?= b with Eq => text_compare s t | c => c end.
Proof.
  intros A B. unfold write_clock. repeat (rewrite <- !app_assoc; cbn [app]).
  assert (SP : forall x, x < 86400 -> x = (x / 3600 * 60 + x / 60 mod 60) * 60 + x mod 60 /\ x / 3600 < 100 /\ x / 60 mod 60 < 60 /\ x mod 60 < 60) by (intros; lia).
  destruct (SP a A) as (EA & A1 & A2 & A3). destruct (SP b B) as (EB & B1 & B2 & B3).
  set (ha := a / 3600) in *. set (ma := a / 60 mod 60) in *. set (sa := a mod 60) in *. set (hb := b / 3600) in *. set (mb := b / 60 mod 60) in *. set (sb := b mod 60) in *.
  rewrite EA, EB, !split_compare by lia. rewrite (chain 2) by (cbn; lia). destruct (ha ?= hb); try reflexivity.
  rewrite (chain 2) by (cbn; lia). destruct (ma ?= mb); try reflexivity. rewrite !padded_small by (cbn; lia). apply fixed_compare; cbn; lia.
Qed.
(** What follows the seconds decides only if the seconds are the same. *)
Lemma stamp_compare a b s t : year_of a < 10000 -> year_of b < 10000 ->
  text_compare (SUNQUOTED_TIMESTAMP a ++ s) (SUNQUOTED_TIMESTAMP b ++ t) = match a / 1000000 ?= b / 1000000 with Eq => text_compare s t | c => c end.
Proof.
  intros A B. unfold SUNQUOTED_TIMESTAMP, year_of in *. set (p := a / 1000000) in *. set (q := b / 1000000) in *. clearbody p q.
  repeat (rewrite <- !app_assoc; cbn [app]). rewrite date_compare by (assumption || apply date_valid).
  rewrite (compare_mono (fun n => weight (date_of n))) by apply weight_mono.
  rewrite clock_compare by (apply N.mod_lt; lia).
  rewrite (N.div_mod p 86400) at 3 by lia. rewrite (N.div_mod q 86400) at 3 by lia. rewrite (N.mul_comm 86400 (p / 86400)), (N.mul_comm 86400 (q / 86400)).
  rewrite split_compare by (apply N.mod_lt; lia). destruct (p / 86400 ?= q / 86400); reflexivity.
Qed.

(** ** The theorems *)

(** Up to the year 9999 timestamps compare as the times they stand for: those in seconds as the seconds, *)
Theorem C65_seconds a b : year_of a <= 9999 -> year_of b <= 9999 -> text_compare (SUNQUOTED_TIMESTAMP a) (SUNQUOTED_TIMESTAMP b) = (a / 1000000 ?= b / 1000000).
Proof.
  intros A B. rewrite <- (app_nil_r (SUNQUOTED_TIMESTAMP a)), <- (app_nil_r (SUNQUOTED_TIMESTAMP b)), stamp_compare by lia. destruct (a / 1000000 ?= b / 1000000); reflexivity.
Qed.
(** those in milliseconds as the milliseconds, *)
Theorem C65_milliseconds a b : year_of a <= 9999 -> year_of b <= 9999 -> text_compare (STIMESTAMP_MS a) (STIMESTAMP_MS b) = (a / 1000 ?= b / 1000).
Proof.
  intros A B. unfold STIMESTAMP_MS. rewrite stamp_compare by lia. cbn [text_compare]. rewrite N.compare_refl.
  rewrite !padded_small by (cbn; lia). rewrite <- (app_nil_r (fixed 3 (a mod 1000000 / 1000))), <- (app_nil_r (fixed 3 (b mod 1000000 / 1000))).
  rewrite fixed_compare by (cbn; lia). cbn [text_compare].
  assert (EA : a / 1000 = a / 1000000 * 1000 + a mod 1000000 / 1000) by lia. assert (EB : b / 1000 = b / 1000000 * 1000 + b mod 1000000 / 1000) by lia.
  rewrite EA, EB, split_compare by lia. destruct (a / 1000000 ?= b / 1000000); try reflexivity. destruct (a mod 1000000 / 1000 ?= b mod 1000000 / 1000); reflexivity.
Qed.
(** and a job that is due at a full second, written without milliseconds, is due from the first millisecond of that second on. *)
Theorem C65_due now due : year_of now <= 9999 -> year_of due <= 9999 -> (text_compare (STIMESTAMP_MS now) (SUNQUOTED_TIMESTAMP due) <> Lt <-> due / 1000000 <= now / 1000000).
Proof.
  intros A B. unfold STIMESTAMP_MS. rewrite <- (app_nil_r (SUNQUOTED_TIMESTAMP due)), stamp_compare by lia.
  destruct (N.compare_spec (now / 1000000) (due / 1000000)); cbn [text_compare]; split; intros; try discriminate; try lia; congruence.
Qed.
Print Assumptions C65_seconds.
Print Assumptions C65_milliseconds.
Print Assumptions C65_due.

(** ** Reading back *)
Lemma digit_facts d : d < 10 -> is_digit (digit_char d) = true /\ digit_val (digit_char d) = d.
Proof. apply digit_char_is_digit. Qed.
Lemma fixed_digits k : forall n, n < 10 ^ N.of_nat k -> forallb is_digit (fixed k n) = true.
Proof.
  induction k as [|k IH]; intros n H; [reflexivity|]. cbn [fixed forallb]. rewrite (proj1 (digit_facts _ (fixed_div k n H))). apply IH. apply N.mod_lt. pose proof (pow10_pos k). lia.
Qed.
Lemma number_fixed to k : forall n v s, n < 10 ^ N.of_nat k -> v * 10 ^ N.of_nat k + n <= to -> number k to v (fixed k n ++ s) = (v * 10 ^ N.of_nat k + n, s).
Proof.
  induction k as [|k IH]; intros n v s H L.
  - cbn in H. assert (n = 0) by lia. subst. cbn. f_equal. lia.
  - pose proof (fixed_div k n H) as D. destruct (digit_facts _ D) as [F V]. rewrite Nat2N.inj_succ, N.pow_succ_r' in *. pose proof (pow10_pos k) as P.
    set (p := 10 ^ N.of_nat k) in *. cbn [fixed app number]. fold p. rewrite F, V.
    pose proof (N.div_mod n p ltac:(lia)) as E. pose proof (N.mod_lt n p ltac:(lia)) as M. set (q := n / p) in *. set (r := n mod p) in *.
    assert (B : v * 10 <= to) by nia. apply N.leb_le in B. rewrite B. cbn [andb]. fold p in IH. rewrite IH by (lia || nia). f_equal. nia.
Qed.
Lemma get_fixed from to k n s : n < 10 ^ N.of_nat (S k) -> from <= n <= to -> get_number from to (S k) (fixed (S k) n ++ s) = Some (n, s).
Proof.
  intros H [L U]. pose proof (fixed_div k n H) as D. destruct (digit_facts _ D) as [F V]. unfold get_number. cbn [fixed app].
  assert (B : skip_blanks (digit_char (n / 10 ^ N.of_nat k) :: fixed k (n mod 10 ^ N.of_nat k) ++ s) = digit_char (n / 10 ^ N.of_nat k) :: fixed k (n mod 10 ^ N.of_nat k) ++ s).
  { generalize F. generalize (digit_char (n / 10 ^ N.of_nat k)). intros c. destruct c as [[|] [|] [|] [|] [|] [|] [|] [|]]; try reflexivity. vm_compute. discriminate. }
  rewrite B, F, V. replace (S k - 1)%nat with k by lia. pose proof (pow10_pos k) as P. pose proof (N.div_mod n (10 ^ N.of_nat k) ltac:(lia)) as E.
  rewrite number_fixed; [|apply N.mod_lt; lia|lia].
  replace (n / 10 ^ N.of_nat k * 10 ^ N.of_nat k + n mod 10 ^ N.of_nat k) with n by lia.
  assert (A1 : (n <? from) = false) by (apply N.ltb_ge; lia). assert (A2 : (to <? n) = false) by (apply N.ltb_ge; lia). rewrite A1, A2. reflexivity.
Qed.
Lemma digit_not_space c : is_digit c = true -> is_space c = false.
Proof. destruct c as [[|] [|] [|] [|] [|] [|] [|] [|]]; vm_compute; congruence. Qed.
Lemma skip_fixed k n s : n < 10 ^ N.of_nat (S k) -> skip_space (fixed (S k) n ++ s) = fixed (S k) n ++ s.
Proof.
  intros H. cbn [fixed app skip_space]. rewrite (digit_not_space _ (proj1 (digit_facts _ (fixed_div k n H)))). reflexivity.
Qed.
Lemma digits_nul_free s : forallb is_digit s = true -> nul_free s.
Proof. intros H I. rewrite forallb_forall in H. specialize (H _ I). discriminate. Qed.
Lemma cstr_app s t : nul_free s -> cstr (s ++ t) = s ++ cstr t.
Proof.
  unfold nul_free. induction s as [|c s IH]; intros H; [reflexivity|]. cbn. destruct (Ascii.eqb_spec c NUL) as [->|]; [exfalso; apply H; left; reflexivity|].
  rewrite IH; [reflexivity|]. intros Hi. apply H. right; exact Hi.
Qed.
Lemma cstr_fixed k n t : n < 10 ^ N.of_nat k -> cstr (fixed k n ++ t) = fixed k n ++ cstr t.
Proof. intros H. apply cstr_app, digits_nul_free, fixed_digits, H. Qed.
(** Reading what was written. *)
Lemma read_back y m d h mi se : y <= 9999 -> 1 <= m <= 12 -> 1 <= d <= 31 -> h <= 23 -> mi <= 59 -> se <= 59 ->
  strptime (cstr (write_date y m d ++ " "%char :: write_clock h mi se)) = Tm (Z.of_N y - 1900) (Z.of_N m - 1) (Z.of_N d) (Z.of_N h) (Z.of_N mi) (Z.of_N se).
Proof.
  intros Y M D H MI SE. unfold write_date, write_clock.
  rewrite !padded_small by (vm_compute (10 ^ _); lia). repeat (rewrite <- !app_assoc; cbn [app]).
  rewrite cstr_fixed by (vm_compute (10 ^ _); lia). cbn [cstr]. change (Ascii.eqb "-" NUL) with false. change (Ascii.eqb " " NUL) with false. change (Ascii.eqb ":" NUL) with false. cbv iota.
  do 4 (rewrite cstr_fixed by (vm_compute (10 ^ _); lia); cbn [cstr]; change (Ascii.eqb "-" NUL) with false; change (Ascii.eqb " " NUL) with false; change (Ascii.eqb ":" NUL) with false; cbv iota).
  rewrite <- (app_nil_r (fixed 2 se)), cstr_fixed by (vm_compute (10 ^ _); lia). cbn [cstr].
  unfold strptime. rewrite get_fixed by (vm_compute (10 ^ _); lia). cbn [expect]. change (Ascii.eqb "-" "-") with true. cbv iota.
  rewrite get_fixed by (vm_compute (10 ^ _); lia). cbn [expect]. change (Ascii.eqb "-" "-") with true. cbv iota.
  rewrite get_fixed by (vm_compute (10 ^ _); lia). cbn [skip_space]. change (is_space " ") with true. cbv iota. rewrite skip_fixed by (vm_compute (10 ^ _); lia).
  rewrite get_fixed by (vm_compute (10 ^ _); lia). cbn [expect]. change (Ascii.eqb ":" ":") with true. cbv iota.
  rewrite get_fixed by (vm_compute (10 ^ _); lia). cbn [expect]. change (Ascii.eqb ":" ":") with true. cbv iota.
  rewrite get_fixed by (vm_compute (10 ^ _); lia). reflexivity.
Qed.
(** Counting days. *)
Definition days (x : date) : Z := (days_before_year (Z.of_N (year x)) + Z.of_N (days_before_month (year x) (month x)) + Z.of_N (day x) - 1)%Z.
Lemma before_next y m : 1 <= m < 12 -> days_before_month y (m + 1) = days_before_month y m + month_length y m.
Proof.
  intros H. unfold days_before_month, month_length, lengths. assert (C : m = 1 \/ m = 2 \/ m = 3 \/ m = 4 \/ m = 5 \/ m = 6 \/ m = 7 \/ m = 8 \/ m = 9 \/ m = 10 \/ m = 11) by lia.
  destruct (leap y); do 10 (destruct C as [->|C]; [reflexivity|]); subst m; reflexivity.
Qed.
Lemma year_days y : days_before_year (Z.of_N (y + 1)) = (days_before_year (Z.of_N y) + 365 + if leap y then 1 else 0)%Z.
Proof.
  unfold days_before_year, leap. replace (Z.of_N (y + 1) - 1)%Z with (Z.of_N y) by lia.
  assert (ST : forall k, (0 < k)%N -> (Z.of_N y / Z.of_N k = (Z.of_N y - 1) / Z.of_N k + if (y mod k =? 0)%N then 1 else 0)%Z).
  { intros k K. pose proof (N.div_mod y k ltac:(lia)) as E. pose proof (N.mod_lt y k ltac:(lia)) as L. set (q := y / k) in *. set (r := y mod k) in *. clearbody q r. subst y.
    destruct (N.eqb_spec r 0) as [->|R].
    - rewrite <- (Z.div_unique_pos (Z.of_N (k * q + 0)) (Z.of_N k) (Z.of_N q) 0) by lia.
      rewrite <- (Z.div_unique_pos (Z.of_N (k * q + 0) - 1) (Z.of_N k) (Z.of_N q - 1) (Z.of_N k - 1)) by nia. lia.
    - rewrite <- (Z.div_unique_pos (Z.of_N (k * q + r)) (Z.of_N k) (Z.of_N q) (Z.of_N r)) by lia.
      rewrite <- (Z.div_unique_pos (Z.of_N (k * q + r) - 1) (Z.of_N k) (Z.of_N q) (Z.of_N r - 1)) by lia. lia. }
  pose proof (ST 4 ltac:(lia)) as S4. pose proof (ST 100 ltac:(lia)) as S100. pose proof (ST 400 ltac:(lia)) as S400. cbn [Z.of_N] in S4, S100, S400.
  assert (I1 : y mod 100 = 0 -> y mod 4 = 0) by lia. assert (I2 : y mod 400 = 0 -> y mod 100 = 0) by lia.
  rewrite S4, S100, S400.
  destruct (N.eqb_spec (y mod 4) 0); destruct (N.eqb_spec (y mod 100) 0); destruct (N.eqb_spec (y mod 400) 0); cbn [negb andb orb]; lia.
Qed.
Lemma december y : Z.of_N (days_before_month y 12 + month_length y 12) = (365 + if leap y then 1 else 0)%Z.
Proof. unfold days_before_month, month_length, lengths. destruct (leap y); reflexivity. Qed.
Lemma next_days x : is_date x -> days (next_day x) = (days x + 1)%Z.
Proof.
  intros [M D]. unfold next_day, days. destruct (N.ltb_spec (day x) (month_length (year x) (month x))) as [L|L]; cbn [year month day]; [lia|].
  destruct (N.ltb_spec (month x) 12) as [L2|L2]; cbn [year month day].
  - rewrite before_next by lia. lia.
  - assert (month x = 12) as E by lia. rewrite E in *. rewrite year_days. pose proof (december (year x)). change (days_before_month (year x + 1) 1) with 0. lia.
Qed.
Lemma days_date n : days (date_of n) = Z.of_N n.
Proof.
  induction n as [|n IH] using N.peano_ind; [reflexivity|]. rewrite date_succ, next_days by apply date_valid. rewrite IH. lia.
Qed.

(** Up to the year 9999, reading a timestamp gives the second it was written for, if the local time is UTC. *)
Theorem C65_epoch t : year_of t <= 9999 -> t < 2 ^ 64 -> STimestampToEpoch 0 (SUNQUOTED_TIMESTAMP t) = t / 1000000.
Proof.
  intros Y B. unfold STimestampToEpoch, SUNQUOTED_TIMESTAMP, year_of in *. assert (P64 : t / 1000000 < 18446744073709551616) by (change (2 ^ 64) with 18446744073709551616 in B; lia).
  set (p := t / 1000000) in *. clearbody p. pose proof (date_valid (p / 86400)) as [M D]. pose proof (days_date (p / 86400)) as DD.
  set (x := date_of (p / 86400)) in *. clearbody x. pose proof (length_bounds (year x) (month x) M). set (c := p mod 86400). assert (c < 86400) by (apply N.mod_lt; lia).
  rewrite read_back by lia. unfold mktime. cbn [tm_year tm_mon tm_mday tm_hour tm_min tm_sec].
  replace (Z.of_N (year x) - 1900 + 1900)%Z with (Z.of_N (year x)) by lia. replace (Z.of_N (month x) - 1 + 1)%Z with (Z.of_N (month x)) by lia. rewrite !N2Z.id.
  unfold days in DD. unfold as_u64. rewrite DD.
  replace (((Z.of_N (p / 86400) * 24 + Z.of_N (c / 3600)) * 60 + Z.of_N (c / 60 mod 60)) * 60 + Z.of_N (c mod 60) - 0)%Z with (Z.of_N p) by (unfold c; lia).
  rewrite Z.mod_small by lia. apply N2Z.id.
Qed.

(** The number of days a month has. *)
Theorem C65_days y m : 1 <= m <= 12 -> SDaysInMonth y m = month_length y m.
Proof.
  intros H. unfold SDaysInMonth, month_length, lengths, leap. set (l := (y mod 4 =? 0) && negb (y mod 100 =? 0) || (y mod 400 =? 0)).
  assert (C : m = 1 \/ m = 2 \/ m = 3 \/ m = 4 \/ m = 5 \/ m = 6 \/ m = 7 \/ m = 8 \/ m = 9 \/ m = 10 \/ m = 11 \/ m = 12) by lia.
  do 11 (destruct C as [->|C]; [reflexivity|]); subst m; reflexivity.
Qed.
Print Assumptions C65_epoch.
Print Assumptions C65_days.

(** ** The first day of a month *)
Lemma parse_acc sep s : forall comp acc, fst (parse_list s sep comp acc) = acc ++ fst (parse_list s sep comp []).
Proof.
  induction s as [|c s IH]; intros comp acc; cbn [parse_list].
  - destruct comp; cbn [fst app]; [rewrite app_nil_r|]; reflexivity.
  - destruct comp as [|x comp].
    + destruct (Ascii.eqb c " "); [apply IH|]. destruct (Ascii.eqb c sep); apply IH.
    + cbv iota. destruct (Ascii.eqb c sep); [|apply IH]. etransitivity; [apply IH|]. symmetry. etransitivity; [apply f_equal; apply IH|]. cbn [app]. rewrite <- app_assoc. reflexivity.
Qed.
Lemma digits_element s : s <> [] -> forallb is_digit s = true -> list_element "-" s.
Proof.
  intros N D. split; [exact N|]. rewrite forallb_forall in D. split; [|split].
  - intros r ->. specialize (D _ (or_introl eq_refl)). discriminate.
  - intros I. specialize (D _ I). discriminate.
  - intros I. specialize (D _ I). discriminate.
Qed.
Lemma dec_value_fixed k : forall n v, n < 10 ^ N.of_nat k -> dec_value v (fixed k n) = v * 10 ^ N.of_nat k + n.
Proof.
  induction k as [|k IH]; intros n v H.
  - cbn in H. assert (n = 0) by lia. subst. cbn. lia.
  - pose proof (fixed_div k n H) as D. destruct (digit_facts _ D) as [_ V]. rewrite Nat2N.inj_succ, N.pow_succ_r'. pose proof (pow10_pos k) as P.
    unfold dec_value. cbn [fixed fold_left]. fold (dec_value (10 * v + digit_val (digit_char (n / 10 ^ N.of_nat k))) (fixed k (n mod 10 ^ N.of_nat k))).
    rewrite V, IH by (apply N.mod_lt; lia). pose proof (N.div_mod n (10 ^ N.of_nat k) ltac:(lia)). nia.
Qed.
Lemma stoull_digits s : s <> [] -> forallb is_digit s = true -> dec_value 0 s < 18446744073709551616 -> stoull s = Some (dec_value 0 s).
Proof.
  intros N D B. unfold stoull. rewrite cstr_nul_free by (apply digits_nul_free; exact D).
  assert (S1 : skip_space s = s). { destruct s as [|c s]; [contradiction|]. cbn [forallb skip_space] in *. apply andb_prop in D as [D _]. rewrite (digit_not_space _ D). reflexivity. }
  rewrite S1.
  match goal with |- (let (_, _) := ?X in _) = _ => assert (S2 : X = (false, s)) end.
  { destruct s as [|c s]; [contradiction|]. cbn [forallb] in D. apply andb_prop in D as [D _]. clear - D. destruct c as [[|] [|] [|] [|] [|] [|] [|] [|]]; try reflexivity; discriminate D. }
  rewrite S2, digits_of_all by exact D. destruct s as [|c s]; [contradiction|]. apply N.leb_gt in B. rewrite B. reflexivity.
Qed.
Lemma signed_small w z : (0 < Z.of_N w)%Z -> (- 2 ^ (Z.of_N w - 1) <= z < 2 ^ (Z.of_N w - 1))%Z -> signed w z = z.
Proof.
  intros W B. unfold signed. cbv zeta. assert (E : (2 ^ Z.of_N w = 2 * 2 ^ (Z.of_N w - 1))%Z). { rewrite <- Z.pow_succ_r by lia. f_equal. lia. }
  set (h := (2 ^ (Z.of_N w - 1))%Z) in *. clearbody h. rewrite E. destruct (Z.lt_ge_cases z 0) as [L|L].
  - assert (M : (z mod (2 * h) = z + 2 * h)%Z). { symmetry. apply (Z.mod_unique_pos z (2 * h) (-1)); lia. }
    rewrite M. assert (F : (2 * (z + 2 * h) <? 2 * h)%Z = false) by (apply Z.ltb_ge; lia). rewrite F. lia.
  - rewrite Z.mod_small by lia. assert (F : (2 * z <? 2 * h)%Z = true) by (apply Z.ltb_lt; lia). rewrite F. reflexivity.
Qed.

(** The first day of the month that is some months later or earlier, from 1900 on: months are counted through the years. *)
Theorem C65_first_of_month y m rest offset y' m' :
  1900 <= y <= 9999 -> 1 <= m <= 12 -> 1900 <= y' -> 1 <= m' <= 12 ->
  (- 2147483648 <= offset < 2147483648)%Z -> (12 * Z.of_N y' + Z.of_N m' = 12 * Z.of_N y + Z.of_N m + offset)%Z ->
  SFirstOfMonth (padded 4 y ++ "-"%char :: padded 2 m ++ "-"%char :: rest) offset = Gives (write_date y' m' 1).
Proof.
  intros Y M Y' M' O E. rewrite !padded_small by (vm_compute (10 ^ _); lia).
  assert (FY : forallb is_digit (fixed 4 y) = true) by (apply fixed_digits; vm_compute (10 ^ _); lia).
  assert (FM : forallb is_digit (fixed 2 m) = true) by (apply fixed_digits; vm_compute (10 ^ _); lia).
  assert (VY : dec_value 0 (fixed 4 y) = y) by (rewrite dec_value_fixed by (vm_compute (10 ^ _); lia); lia).
  assert (VM : dec_value 0 (fixed 2 m) = m) by (rewrite dec_value_fixed by (vm_compute (10 ^ _); lia); lia).
  assert (NY : fixed 4 y <> []) by discriminate. assert (NM : fixed 2 m <> []) by discriminate.
  set (fy := fixed 4 y) in *. set (fm := fixed 2 m) in *. clearbody fy fm.
  assert (P : exists more, SParseList (fy ++ "-"%char :: fm ++ "-"%char :: rest) "-" = fy :: fm :: more).
  { unfold SParseList. rewrite cstr_app by (apply digits_nul_free; exact FY). cbn [cstr]. change (Ascii.eqb "-" NUL) with false. cbv iota.
    rewrite cstr_app by (apply digits_nul_free; exact FM). cbn [cstr]. change (Ascii.eqb "-" NUL) with false. cbv iota.
    rewrite parse_element by (apply digits_element; assumption). cbn [parse_list]. destruct fy as [|cy fy]; [contradiction|]. rewrite Ascii.eqb_refl.
    rewrite parse_element by (apply digits_element; assumption). cbn [parse_list]. destruct fm as [|cm fm]; [contradiction|]. rewrite Ascii.eqb_refl.
    rewrite parse_acc. cbn [app]. eexists. reflexivity. }
  destruct P as [more P]. unfold SFirstOfMonth. rewrite P, stoull_digits by (assumption || lia). rewrite VY, stoull_digits by (assumption || lia). rewrite VM.
  assert (P63 : (2 ^ (Z.of_N 64 - 1) = 9223372036854775808)%Z) by reflexivity. assert (P31 : (2 ^ (Z.of_N 32 - 1) = 2147483648)%Z) by reflexivity.
  cbv zeta. rewrite !(signed_small 64) by (rewrite ?P63; lia).
  set (t := ((Z.of_N y - 1900) * 12 + (Z.of_N m - 1) + offset)%Z). assert (T : (t = 12 * (Z.of_N y' - 1900) + (Z.of_N m' - 1))%Z) by (unfold t; lia).
  assert (B1 : (t <? - 9223372036854775808)%Z = false) by (apply Z.ltb_ge; lia). assert (B2 : (9223372036854775807 <? t)%Z = false) by (apply Z.ltb_ge; unfold t; lia). rewrite B1, B2. cbn [orb].
  assert (BT : (0 <= t < 4294967296)%Z) by (unfold t in *; lia).
  assert (Q : (Z.quot t 12 = Z.of_N y' - 1900)%Z). { rewrite Z.quot_div_nonneg by lia. symmetry. apply (Z.div_unique_pos t 12 _ (Z.of_N m' - 1)); lia. }
  assert (R : (Z.rem t 12 = Z.of_N m' - 1)%Z). { rewrite Z.rem_mod_nonneg by lia. symmetry. apply (Z.mod_unique_pos t 12 (Z.of_N y' - 1900)); lia. }
  rewrite Q, R, signed_small by (rewrite ?P31; lia).
  assert (C1 : (Z.of_N y' - 1900 + 1900 <? 0)%Z = false) by (apply Z.ltb_ge; lia). assert (C2 : (Z.of_N m' - 1 + 1 <? 0)%Z = false) by (apply Z.ltb_ge; lia). rewrite C1, C2. cbn [orb].
  replace (Z.of_N y' - 1900 + 1900)%Z with (Z.of_N y') by lia. replace (Z.of_N m' - 1 + 1)%Z with (Z.of_N m') by lia. rewrite !N2Z.id. reflexivity.
Qed.
Print Assumptions C65_first_of_month.

(** ** Dates in requests *)
Lemma value_from cs : forall v, dec_value v cs = v * 10 ^ N.of_nat (List.length cs) + dec_value 0 cs.
Proof.
  induction cs as [|c cs IH]; intros v; [cbn; lia|]. cbn [List.length]. rewrite Nat2N.inj_succ, N.pow_succ_r'.
  change (dec_value v (c :: cs)) with (dec_value (10 * v + digit_val c) cs). change (dec_value 0 (c :: cs)) with (dec_value (10 * 0 + digit_val c) cs).
  rewrite (IH (10 * v + digit_val c)), (IH (10 * 0 + digit_val c)). lia.
Qed.
Lemma digit_value c : is_digit c = true -> digit_val c < 10 /\ digit_char (digit_val c) = c.
Proof. destruct c as [[|] [|] [|] [|] [|] [|] [|] [|]]; intros H; try discriminate H; split; vm_compute; reflexivity. Qed.
Lemma value_small cs : forallb is_digit cs = true -> dec_value 0 cs < 10 ^ N.of_nat (List.length cs).
Proof.
  induction cs as [|c cs IH]; intros H; [reflexivity|]. cbn [forallb List.length] in *. apply andb_prop in H as [D H]. rewrite Nat2N.inj_succ, N.pow_succ_r'.
  change (dec_value 0 (c :: cs)) with (dec_value (10 * 0 + digit_val c) cs). rewrite value_from. destruct (digit_value c D) as [L _]. specialize (IH H). nia.
Qed.
Lemma fixed_value cs : forallb is_digit cs = true -> fixed (List.length cs) (dec_value 0 cs) = cs.
Proof.
  induction cs as [|c cs IH]; intros H; [reflexivity|]. cbn [forallb List.length] in *. apply andb_prop in H as [D H].
  change (dec_value 0 (c :: cs)) with (dec_value (10 * 0 + digit_val c) cs). rewrite value_from. destruct (digit_value c D) as [L E]. pose proof (value_small cs H) as V. pose proof (pow10_pos (List.length cs)) as P.
  cbn [fixed]. set (p := 10 ^ N.of_nat (List.length cs)) in *. set (v := dec_value 0 cs) in *.
  assert (Q : ((10 * 0 + digit_val c) * p + v) / p = digit_val c) by (symmetry; apply (N.div_unique _ p _ v); lia).
  assert (R : ((10 * 0 + digit_val c) * p + v) mod p = v) by (symmetry; apply (N.mod_unique _ p (digit_val c) v); lia).
  rewrite Q, R, E, IH by exact H. reflexivity.
Qed.
Lemma padded_value cs : forallb is_digit cs = true -> padded (List.length cs) (dec_value 0 cs) = cs.
Proof. intros H. rewrite padded_small by (apply value_small; exact H). apply fixed_value. exact H. Qed.
Lemma four a b c d : forallb is_digit [a; b; c; d] = true -> padded 4 (dec_value 0 [a; b; c; d]) = [a; b; c; d].
Proof. exact (padded_value [a; b; c; d]). Qed.
Lemma two a b : forallb is_digit [a; b] = true -> padded 2 (dec_value 0 [a; b]) = [a; b].
Proof. exact (padded_value [a; b]). Qed.
Lemma is_eq x c : is x c = true -> c = x.
Proof. apply Ascii.eqb_eq. Qed.
Lemma from_to_digit lo hi c : is_digit lo = true -> is_digit hi = true -> from_to lo hi c = true -> is_digit c = true /\ digit_val lo <= digit_val c <= digit_val hi.
Proof.
  unfold from_to, within, is_digit, digit_val. intros A B C. apply andb_prop in A as [A1 A2]. apply andb_prop in B as [B1 B2]. apply andb_prop in C as [C1 C2].
  apply N.leb_le in A1, A2, B1, B2, C1, C2. rewrite andb_true_intro by (split; apply N.leb_le; lia). split; [reflexivity|lia].
Qed.
Lemma val2 a b : dec_value 0 [a; b] = 10 * digit_val a + digit_val b.
Proof. unfold dec_value. cbn [fold_left]. lia. Qed.
Lemma val4 a b c d : dec_value 0 [a; b; c; d] = 1000 * digit_val a + 100 * digit_val b + 10 * digit_val c + digit_val d.
Proof. unfold dec_value. cbn [fold_left]. lia. Qed.
Lemma all2 a b : is_digit a = true -> is_digit b = true -> forallb is_digit [a; b] = true.
Proof. intros A B. cbn [forallb]. rewrite A, B. reflexivity. Qed.

(** The dates a request may have: a year of this millennium or the last century, a month, a day up to 31, and maybe a clock of any six digits. *)
Theorem C65_valid s : isValidDate s = true <->
  exists y m d, 1900 <= y <= 2999 /\ 1 <= m <= 12 /\ 1 <= d <= 31 /\
    (s = write_date y m d \/ exists h mi se, h < 100 /\ mi < 100 /\ se < 100 /\ s = write_date y m d ++ " "%char :: write_clock h mi se).
Proof.
  split.
  - intros H. destruct s as [|a [|b [|c [|d [|e [|f [|g [|h [|i [|j s]]]]]]]]]];
      try (unfold isValidDate in H; cbn [firstn skipn both] in H; cbv zeta in H; change (bytes_eqb [] (lit "-")) with false in H; cbn [orb andb] in H;
           rewrite ?andb_false_r in H; discriminate H).
    unfold isValidDate in H. cbn [firstn skipn both] in H. cbv zeta in H.
    apply andb_prop in H as [H HR]. apply andb_prop in H as [H1 H2]. apply andb_prop in H2 as [Dc Dd].
    apply andb_prop in HR as [He HR]. apply andb_prop in HR as [HM HR]. apply andb_prop in HR as [Hh HR]. apply andb_prop in HR as [HD HR].
    apply bytes_eqb_eq in He, Hh. injection He as ->. injection Hh as ->.
    assert (A : is_digit a = true /\ is_digit b = true /\ 1900 <= 1000 * digit_val a + 100 * digit_val b <= 2900).
    { apply orb_prop in H1 as [H1|H1]; apply andb_prop in H1 as [X Y].
      - apply is_eq in X, Y. subst. vm_compute. repeat split; discriminate.
      - apply is_eq in X. subst. destruct (digit_value b Y) as [L _]. change (digit_val "2") with 2. repeat split; (assumption || lia). }
    assert (M : is_digit f = true /\ is_digit g = true /\ 1 <= 10 * digit_val f + digit_val g <= 12).
    { apply orb_prop in HM as [X|X]; apply andb_prop in X as [X Y]; apply is_eq in X; subst; apply from_to_digit in Y as [Y1 Y2]; try reflexivity.
      - change (digit_val "0") with 0. change (digit_val "1") with 1 in Y2. change (digit_val "9") with 9 in Y2. repeat split; (assumption || lia).
      - change (digit_val "0") with 0 in Y2. change (digit_val "1") with 1. change (digit_val "2") with 2 in Y2. repeat split; (assumption || lia). }
    assert (D : is_digit i = true /\ is_digit j = true /\ 1 <= 10 * digit_val i + digit_val j <= 31).
    { apply orb_prop in HD as [X|X]; [apply orb_prop in X as [X|X]|]; apply andb_prop in X as [X Y].
      - apply is_eq in X; subst; apply from_to_digit in Y as [Y1 Y2]; try reflexivity. change (digit_val "0") with 0. change (digit_val "1") with 1 in Y2. change (digit_val "9") with 9 in Y2. repeat split; (assumption || lia).
      - apply from_to_digit in X as [X1 X2]; try reflexivity. destruct (digit_value j Y) as [L _]. change (digit_val "1") with 1 in X2. change (digit_val "2") with 2 in X2. repeat split; (assumption || lia).
      - apply is_eq in X; subst; apply from_to_digit in Y as [Y1 Y2]; try reflexivity. change (digit_val "3") with 3. change (digit_val "0") with 0 in Y2. change (digit_val "1") with 1 in Y2. repeat split; (assumption || lia). }
    destruct A as (Da & Db & A). destruct M as (Df & Dg & M). destruct D as (Di & Dj & D). destruct (digit_value c Dc) as [Lc _]. destruct (digit_value d Dd) as [Ld _].
    assert (AD : forallb is_digit [a; b; c; d] = true) by (cbn [forallb]; rewrite Da, Db, Dc, Dd; reflexivity).
    exists (dec_value 0 [a; b; c; d]), (dec_value 0 [f; g]), (dec_value 0 [i; j]). unfold write_date. rewrite four by exact AD. rewrite !two by (apply all2; assumption).
    rewrite val4, !val2. split; [lia|]. split; [lia|]. split; [lia|].
    destruct s as [|s0 [|s1 [|s2 [|s3 [|s4 [|s5 [|s6 [|s7 [|s8 [|s9 s]]]]]]]]]]; try discriminate HR; [left; reflexivity|right].
    do 8 (apply andb_prop in HR as [HR ?]). repeat match goal with X : is _ _ = true |- _ => apply is_eq in X; subst end.
    exists (dec_value 0 [s1; s2]), (dec_value 0 [s4; s5]), (dec_value 0 [s7; s8]). unfold write_clock. rewrite !two by (apply all2; assumption). rewrite !val2.
    repeat match goal with X : is_digit ?q = true |- _ => destruct (digit_value q X) as [? _]; clear X end. repeat split; lia.
  - intros (y & m & d & Y & M & D & R). unfold write_date, write_clock in R.
    assert (P : forall n, n < 100 -> padded 2 n = [digit_char (n / 10); digit_char (n mod 10)]) by (intros n H; rewrite padded_small by exact H; cbn [fixed]; rewrite N.div_1_r; reflexivity).
    assert (PY : padded 4 y = [digit_char (y / 1000); digit_char (y mod 1000 / 100); digit_char (y mod 100 / 10); digit_char (y mod 10)]).
    { rewrite padded_small by (vm_compute (10 ^ _); lia). cbn [fixed]. change (10 ^ N.of_nat 3) with 1000. change (10 ^ N.of_nat 2) with 100. change (10 ^ N.of_nat 1) with 10. change (10 ^ N.of_nat 0) with 1. rewrite N.div_1_r. replace (y mod 1000 mod 100 mod 10) with (y mod 10) by lia. replace (y mod 1000 mod 100) with (y mod 100) by lia. reflexivity. }
    assert (C1 : (both (is "1") (is "9") [digit_char (y / 1000); digit_char (y mod 1000 / 100)] || both (is "2") is_digit [digit_char (y / 1000); digit_char (y mod 1000 / 100)]) = true).
    { cbn [both]. destruct (N.lt_ge_cases y 2000).
      - replace (y / 1000) with 1 by lia. replace (y mod 1000 / 100) with 9 by lia. reflexivity.
      - replace (y / 1000) with 2 by lia. rewrite (proj1 (digit_facts (y mod 1000 / 100) ltac:(lia))). reflexivity. }
    assert (IN : forall k lo hi, k < 10 -> bcode lo <= 48 + k <= bcode hi -> from_to lo hi (digit_char k) = true).
    { intros k lo hi K B. unfold from_to, within. rewrite digit_code by exact K. apply andb_true_intro. split; apply N.leb_le; lia. }
    assert (C2 : (both (is "0") (from_to "1" "9") [digit_char (m / 10); digit_char (m mod 10)] || both (is "1") (from_to "0" "2") [digit_char (m / 10); digit_char (m mod 10)]) = true).
    { cbn [both]. destruct (N.lt_ge_cases m 10).
      - replace (m / 10) with 0 by lia. rewrite IN; [reflexivity|lia|vm_compute (bcode _); lia].
      - replace (m / 10) with 1 by lia. rewrite (IN (m mod 10) "0"%char "2"%char); [reflexivity|lia|vm_compute (bcode _); lia]. }
    assert (C3 : (both (is "0") (from_to "1" "9") [digit_char (d / 10); digit_char (d mod 10)] || both (from_to "1" "2") is_digit [digit_char (d / 10); digit_char (d mod 10)] || both (is "3") (from_to "0" "1") [digit_char (d / 10); digit_char (d mod 10)]) = true).
    { cbn [both]. destruct (N.lt_ge_cases d 10); [|destruct (N.lt_ge_cases d 30)].
      - replace (d / 10) with 0 by lia. rewrite IN; [reflexivity|lia|vm_compute (bcode _); lia].
      - rewrite (proj1 (digit_facts (d mod 10) ltac:(lia))). rewrite (IN (d / 10) "1"%char "2"%char); [apply orb_true_intro; left; apply orb_true_r|lia|vm_compute (bcode _); lia].
      - replace (d / 10) with 3 by lia. rewrite (IN (d mod 10) "0"%char "1"%char); [apply orb_true_r|lia|vm_compute (bcode _); lia]. }
    assert (DG : forall n, n < 100 -> is_digit (digit_char (n / 10)) = true /\ is_digit (digit_char (n mod 10)) = true).
    { intros n H. split; apply digit_facts; lia. }
    rewrite PY, (P m), (P d) in R by lia.
    assert (Y3 : is_digit (digit_char (y mod 100 / 10)) = true) by (apply digit_facts; lia). assert (Y4 : is_digit (digit_char (y mod 10)) = true) by (apply digit_facts; lia).
    destruct R as [->|(h & mi & se & H & MI & SE & ->)].
    + unfold isValidDate. cbn [app firstn skipn]. cbv zeta. rewrite C1, C2, C3. cbn [both]. rewrite Y3, Y4. reflexivity.
    + rewrite (P h), (P mi), (P se) by lia. destruct (DG h H) as [H1 H2]. destruct (DG mi MI) as [H3 H4]. destruct (DG se SE) as [H5 H6].
      unfold isValidDate. cbn [app firstn skipn]. cbv zeta. rewrite C1, C2, C3. cbn [both]. rewrite Y3, Y4, H1, H2, H3, H4, H5, H6. reflexivity.
Qed.
Print Assumptions C65_valid.

(** ** What does not hold *)
Lemma reach_month y m n : 1 <= m <= 12 -> date_of n = Date y m 1 -> exists n', n < n' /\ date_of n' = if m <? 12 then Date y (m + 1) 1 else Date (y + 1) 1 1.
Proof.
  intros M E. pose proof (length_bounds y m M) as L.
  assert (I : forall k, k < month_length y m -> date_of (k + n) = Date y m (1 + k)).
  { induction k as [|k IH] using N.peano_ind; intros K; [exact E|]. replace (N.succ k + n) with (N.succ (k + n)) by lia. rewrite date_succ, IH by lia. unfold next_day. cbn [year month day].
    assert (B : (1 + k <? month_length y m) = true) by (apply N.ltb_lt; lia). rewrite B. f_equal. lia. }
  exists (N.succ (month_length y m - 1 + n)). split; [lia|]. rewrite date_succ, I by lia. unfold next_day. cbn [year month day].
  assert (B : (1 + (month_length y m - 1) <? month_length y m) = false) by (apply N.ltb_ge; lia). rewrite B. reflexivity.
Qed.
Lemma reach_year y n : date_of n = Date y 1 1 -> exists n', n < n' /\ date_of n' = Date (y + 1) 1 1.
Proof.
  intros E.
  assert (I : forall k, k < 12 -> exists n', n <= n' /\ date_of n' = Date y (1 + k) 1).
  { induction k as [|k IH] using N.peano_ind; intros K; [exists n; split; [lia|exact E]|]. destruct IH as (n1 & L & E1); [lia|].
    destruct (reach_month y (1 + k) n1) as (n2 & L2 & E2); [lia|exact E1|]. exists n2. split; [lia|]. rewrite E2. assert (B : (1 + k <? 12) = true) by (apply N.ltb_lt; lia). rewrite B. f_equal. lia. }
  destruct (I 11 ltac:(lia)) as (n1 & L & E1). destruct (reach_month y (1 + 11) n1) as (n2 & L2 & E2); [lia|exact E1|]. exists n2. split; [lia|exact E2].
Qed.
Lemma reach k : exists n, date_of n = Date (1970 + k) 1 1.
Proof.
  induction k as [|k (n & IH)] using N.peano_ind; [exists 0; reflexivity|]. destruct (reach_year _ _ IH) as (n' & _ & E). exists n'. rewrite E. f_equal. lia.
Qed.

(** From the year 10000 on timestamps are no longer in the order of the times: the first second of the year 10000 is before
    the first second of the year 9999 as a text. *)
Theorem C65_year_10000_refuted : exists a b, a < b /\ b < 2 ^ 64 /\ a / 1000000 < b / 1000000 /\ text_compare (SUNQUOTED_TIMESTAMP b) (SUNQUOTED_TIMESTAMP a) = Lt.
Proof.
  destruct (reach 8029) as (n & E). change (1970 + 8029) with 9999 in E. destruct (reach_year _ _ E) as (n' & L & E'). change (9999 + 1) with 10000 in E'.
  assert (V : n' = 2932897). { pose proof (days_date n') as D. rewrite E' in D. change (days (Date 10000 1 1)) with 2932897%Z in D. lia. }
  exists (n * 86400 * 1000000), (n' * 86400 * 1000000). unfold SUNQUOTED_TIMESTAMP.
  rewrite !N.div_mul by discriminate. rewrite E, E', !N.mod_mul by discriminate. repeat split; try lia.
Qed.
(** Timestamps are written for UTC and read for the local time: an hour east of Greenwich the time read is an hour off. *)
Theorem C65_zone_refuted : STimestampToEpoch 3600 (SUNQUOTED_TIMESTAMP (2 * 86400 * 1000000)) = 2 * 86400 - 3600.
Proof. vm_compute. reflexivity. Qed.
(** A text that is no timestamp is read as a time all the same: as the last day of 1899, wrapped around below zero. *)
Theorem C65_unreadable_refuted : STimestampToEpoch 0 (lit "today") = 2 ^ 64 - 2209075200.
Proof. vm_compute. reflexivity. Qed.
(** The month before January 1900 is given as the month 00 of 1900. *)
Theorem C65_month_00_refuted : SFirstOfMonth (lit "1900-01-15") (-1) = Gives (lit "1900-00-01").
Proof. vm_compute. reflexivity. Qed.
(** The first of the month of a day before 1900 has a negative month in it, even without an offset. *)
Theorem C65_before_1900_refuted : SFirstOfMonth (lit "1899-06-10") 0 = Negative.
Proof. vm_compute. reflexivity. Qed.
(** A text without a month is no error: what is read then is the front of an empty list. *)
Theorem C65_no_month_refuted : SFirstOfMonth (lit "2024") 0 = Undefined.
Proof. vm_compute. reflexivity. Qed.
(** A date that no calendar has, with a time that no clock shows, is taken as valid. *)
Theorem C65_calendar_refuted : isValidDate (lit "2023-02-31 99:99:99") = true /\ ~ is_date (Date 2023 2 31).
Proof. split; [vm_compute; reflexivity|]. intros [_ [_ H]]. vm_compute in H. contradiction. Qed.

(** ** Cases that meet the hypotheses *)
Example C65_ex_text : SUNQUOTED_TIMESTAMP 5184061000000 = lit "1970-03-02 00:01:01" /\ STIMESTAMP_MS 5184061017999 = lit "1970-03-02 00:01:01.017".
Proof. split; vm_compute; reflexivity. Qed.
Example C65_ex_year : year_of 5184061000000 = 1970 /\ year_of 40000000000000 = 1971.
Proof. split; vm_compute; reflexivity. Qed.
Example C65_ex_due : text_compare (STIMESTAMP_MS 5184061000000) (SUNQUOTED_TIMESTAMP 5184061000000) = Gt /\ text_compare (STIMESTAMP_MS 5184060999999) (SUNQUOTED_TIMESTAMP 5184061000000) = Lt.
Proof. split; vm_compute; reflexivity. Qed.
Example C65_ex_first : SFirstOfMonth (lit "2020-07-17 10:20:30") (-13) = Gives (lit "2019-06-01").
Proof. apply (C65_first_of_month 2020 7 (lit "17 10:20:30") (-13) 2019 6); lia. Qed.
Example C65_ex_days : SDaysInMonth 2000 2 = 29 /\ SDaysInMonth 1900 2 = 28 /\ SDaysInMonth 2023 9 = 30.
Proof. repeat split; vm_compute; reflexivity. Qed.
Example C65_ex_valid : isValidDate (lit "2024-02-29") = true /\ isValidDate (lit "2024-13-01") = false /\ isValidDate (lit "2024-02-29 10:00") = false.
Proof. repeat split; vm_compute; reflexivity. Qed.
Print Assumptions C65_year_10000_refuted.
