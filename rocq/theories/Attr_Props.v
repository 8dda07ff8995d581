(** C73: the attributes of requests are checked and read as documented. *)
From Verif Require Import Base Dec Text_Spec Text_Model Text_Proofs Text_Props Table Json_Model Forward_Model Forward_Props Timeout_Model Timeout_Props Addr_Model Addr_Props Query_Model
  Schema_Spec Schema_Model Schema_Props Work_Model Attr_Spec Attr_Model.
Open Scope N_scope.

(** ** Texts of dates *)
Fixpoint upto (n : nat) : list N := match n with O => [] | S k => upto k ++ [N.of_nat k] end.
Lemma in_upto k n : n < N.of_nat k -> In n (upto k).
Proof.
  induction k as [|k IH]; [lia|]. intros L. cbn [upto]. apply in_or_app. destruct (N.eq_dec n (N.of_nat k)) as [->|D]; [right; left; reflexivity|left; apply IH; lia].
Qed.
Lemma digit_figure c : is_digit c = true -> exists n, n < 10 /\ c = figure n.
Proof.
  pose proof (forall_ascii (fun c => implb (is_digit c) (existsb (fun n => Ascii.eqb c (figure n)) (upto 10))) ltac:(vm_compute; reflexivity) c) as G. cbn beta in G.
  intros D. rewrite D in G. cbn [implb] in G. apply existsb_exists in G as (n & I & E). apply Ascii.eqb_eq in E. exists n. split; [|exact E].
  cbn in I. repeat (destruct I as [<-|I]; [lia|]). destruct I.
Qed.
Lemma pairs (f : ascii -> ascii -> bool) lo hi : (forall a b, f a b = true -> is_digit a = true /\ is_digit b = true) -> hi < 100 ->
  forallb (fun n => Bool.eqb (f (figure (n / 10)) (figure (n mod 10))) ((lo <=? n) && (n <=? hi))) (upto 100) = true ->
  forall a b, f a b = true <-> exists n, lo <= n <= hi /\ [a; b] = two n.
Proof.
  intros D H C a b. rewrite forallb_forall in C. split.
  - intros F. destruct (D a b F) as [A B]. destruct (digit_figure a A) as (x & X & ->). destruct (digit_figure b B) as (y & Y & ->).
    assert (E1 : (10 * x + y) / 10 = x) by (symmetry; apply (N.div_unique _ 10 x y); lia). assert (E2 : (10 * x + y) mod 10 = y) by (symmetry; apply (N.mod_unique _ 10 x y); lia).
    assert (I : In (10 * x + y) (upto 100)) by (apply in_upto; lia). specialize (C _ I). rewrite E1, E2, F in C. apply Bool.eqb_prop in C. symmetry in C.
    apply andb_true_iff in C as [C1 C2]. apply N.leb_le in C1, C2. exists (10 * x + y). split; [lia|]. unfold two. rewrite E1, E2. reflexivity.
  - intros (n & L & E). injection E as -> ->. assert (I : In n (upto 100)) by (apply in_upto; lia). specialize (C _ I). apply Bool.eqb_prop in C. rewrite C.
    apply andb_true_iff. split; apply N.leb_le; lia.
Qed.
Ltac chars := intros ? ?; repeat rewrite ?orb_true_iff, ?andb_true_iff.
Lemma eqb_digit c d : Ascii.eqb c d = true -> is_digit d = true -> is_digit c = true.
Proof. intros E. apply Ascii.eqb_eq in E. subst. auto. Qed.
Lemma set_digit c s : in_set c s = true -> forallb is_digit s = true -> is_digit c = true.
Proof. unfold in_set. intros H F. apply existsb_exists in H as (x & I & E). apply Ascii.eqb_eq in E. subst. rewrite forallb_forall in F. auto. Qed.
Lemma within_digit c : within "1" c "9" = true -> is_digit c = true.
Proof. pose proof (forall_ascii (fun c => implb (within "1" c "9") (is_digit c)) ltac:(vm_compute; reflexivity) c) as G. cbn beta in G. intros D. rewrite D in G. exact G. Qed.
Lemma month_text a b : re_month a b = true <-> exists n, 1 <= n <= 12 /\ [a; b] = two n.
Proof.
  apply pairs; [|lia|vm_compute; reflexivity]. unfold re_month. chars. intros [[A B]|[A B]]; split; eauto using eqb_digit, set_digit, within_digit.
Qed.
Lemma day_text a b : re_day a b = true <-> exists n, 1 <= n <= 31 /\ [a; b] = two n.
Proof.
  apply pairs; [|lia|vm_compute; reflexivity]. unfold re_day. chars. intros [[[A B]|[A B]]|[A B]]; split; eauto using eqb_digit, set_digit, within_digit.
Qed.
Lemma pair_text a b : is_digit a && is_digit b = true <-> exists n, 0 <= n <= 99 /\ [a; b] = two n.
Proof. apply (pairs (fun a b => is_digit a && is_digit b)); [|lia|vm_compute; reflexivity]. chars. tauto. Qed.
Lemma century_text a b : (Ascii.eqb a "1" && Ascii.eqb b "9") || (Ascii.eqb a "2" && is_digit b) = true <-> exists n, 19 <= n <= 29 /\ [a; b] = two n.
Proof.
  apply (pairs (fun a b => (Ascii.eqb a "1" && Ascii.eqb b "9") || (Ascii.eqb a "2" && is_digit b))); [|lia|vm_compute; reflexivity].
  chars. intros [[A B]|[A B]]; split; eauto using eqb_digit.
Qed.
Lemma time_text s : re_time s = true <-> s = [] \/ exists h i x, h < 100 /\ i < 100 /\ x < 100 /\ s = lit " " ++ two h ++ lit ":" ++ two i ++ lit ":" ++ two x.
Proof.
  split.
  - destruct s as [|sp [|a [|b [|c1 [|c [|d [|c2 [|e [|f [|z s]]]]]]]]]]; cbn [re_time]; try discriminate; [left; reflexivity|].
    repeat rewrite andb_true_iff. intros ((((((((S0 & A) & B) & C1) & C) & D) & C2) & E) & F). right. apply Ascii.eqb_eq in S0, C1, C2. subst.
    destruct (proj1 (pair_text a b)) as (h & H & Eh); [rewrite A, B; reflexivity|]. destruct (proj1 (pair_text c d)) as (i & I & Ei); [rewrite C, D; reflexivity|].
    destruct (proj1 (pair_text e f)) as (x & X & Ex); [rewrite E, F; reflexivity|]. exists h, i, x. split; [lia|]. split; [lia|]. split; [lia|].
    rewrite <- Eh, <- Ei, <- Ex. reflexivity.
  - intros [->|(h & i & x & H & I & X & ->)]; [reflexivity|].
    assert (P : forall n, n < 100 -> is_digit (figure (n / 10)) && is_digit (figure (n mod 10)) = true) by (intros n L; apply pair_text; exists n; split; [lia|reflexivity]).
    pose proof (P h H) as Ph. pose proof (P i I) as Pi. pose proof (P x X) as Px. apply andb_true_iff in Ph as [H1 H2]. apply andb_true_iff in Pi as [I1 I2]. apply andb_true_iff in Px as [X1 X2].
    unfold two. cbn [app lit re_time list_ascii_of_string]. rewrite H1, H2, I1, I2, X1, X2. reflexivity.
Qed.
Lemma valid_text s : isValidDate s = true <-> date_text s.
Proof.
  unfold isValidDate, date_text. split.
  - destruct s as [|y1 [|y2 [|y3 [|y4 [|s1 [|m1 [|m2 [|s2 [|d1 [|d2 r]]]]]]]]]]; try discriminate.
    unfold re_year. intros H. apply andb_true_iff in H as [H T]. apply andb_true_iff in H as [H D]. apply andb_true_iff in H as [H S2]. apply andb_true_iff in H as [H M].
    apply andb_true_iff in H as [H S1]. apply andb_true_iff in H as [H Y4]. apply andb_true_iff in H as [Y Y3]. apply Ascii.eqb_eq in S1, S2. subst.
    apply century_text in Y as (c & C & Ec). destruct (proj1 (pair_text y3 y4)) as (y & Y & Ey); [rewrite Y3, Y4; reflexivity|].
    apply month_text in M as (m & M & Em). apply day_text in D as (d & D & Ed). apply time_text in T.
    assert (E1 : (100 * c + y) / 100 = c) by (symmetry; apply (N.div_unique _ 100 c y); lia). assert (E2 : (100 * c + y) mod 100 = y) by (symmetry; apply (N.mod_unique _ 100 c y); lia).
    exists (100 * c + y), m, d, r. split; [lia|]. split; [lia|]. split; [lia|]. split; [|exact T]. rewrite E1, E2, <- Ec, <- Ey, <- Em, <- Ed. reflexivity.
  - intros (y & m & d & r & Y & M & D & -> & T). apply time_text in T.
    assert (C : 19 <= y / 100 <= 29) by (split; [apply N.div_le_lower_bound; lia|assert (y / 100 < 30) by (apply N.div_lt_upper_bound; lia); lia]).
    assert (B : 0 <= y mod 100 <= 99) by (pose proof (N.mod_lt y 100 ltac:(lia)); lia).
    assert (PC := proj2 (century_text _ _) (ex_intro _ (y / 100) (conj C eq_refl))). assert (PB := proj2 (pair_text _ _) (ex_intro _ (y mod 100) (conj B eq_refl))).
    assert (PM := proj2 (month_text _ _) (ex_intro _ m (conj M eq_refl))). assert (PD := proj2 (day_text _ _) (ex_intro _ d (conj D eq_refl))).
    unfold two. cbn [app lit list_ascii_of_string]. unfold re_year. rewrite <- !andb_assoc. rewrite (andb_assoc (is_digit _) (is_digit _)), PB, PC, PM, PD, T. reflexivity.
Qed.

(** ** The checks *)
Lemma size_eq v : sizeN v = size v.
Proof. reflexivity. Qed.
Lemma empty_size v : bytes_eqb v [] = true <-> size v = 0.
Proof. destruct v; cbn; [tauto|]. split; [discriminate|]. unfold size. cbn [length]. lia. Qed.
Lemma integer_text v : bytes_eqb v (decZ (SToInt64 v)) = true <-> integer v.
Proof.
  split.
  - intros E. apply bytes_eqb_eq in E. exists (SToInt64 v). split; [|exact E]. pose proof (SToInt64_range v). lia.
  - intros (z & L & ->). rewrite toint_decZ by exact L. apply bytes_eqb_refl.
Qed.
(** An integer is accepted if it is the text of a 64 bit integer with the length that is required, or not there and not required.  Otherwise it is said to be
    missing if it is too short, and malformed if not. *)
Theorem C73_int64 t name minSize : let v := header name t in
  (verifyAttributeInt64 t name minSize = None <-> minSize <= size v /\ (v = [] \/ integer v)) /\
  (size v < minSize -> verifyAttributeInt64 t name minSize = Some (lit "402 Missing " ++ name)) /\
  (minSize <= size v -> v <> [] -> ~ integer v -> verifyAttributeInt64 t name minSize = Some (lit "402 Malformed " ++ name)).
Proof.
  cbv zeta. unfold verifyAttributeInt64, too_short, wrong. rewrite size_eq. set (v := header name t).
  assert (EV : bytes_eqb v [] = true <-> v = []) by apply bytes_eqb_eq.
  destruct (N.ltb_spec (size v) minSize) as [L|L]; [split; [split; [discriminate|lia]|split; [reflexivity|lia]]|].
  pose proof (integer_text v) as IT. destruct (bytes_eqb v []) eqn:E1; cbn [negb andb].
  - split; [split; [|reflexivity]; intros _; split; [lia|left; tauto]|]. split; [lia|]. intros _ X. exfalso. apply X. tauto.
  - destruct (bytes_eqb v (decZ (SToInt64 v))) eqn:E2; cbn [negb].
    + split; [split; [|reflexivity]; intros _; split; [lia|right; tauto]|]. split; [lia|]. intros _ _ X. exfalso. tauto.
    + split; [split; [discriminate|]; intros [_ [X|X]]; exfalso; [apply EV in X; discriminate|apply IT in X; discriminate]|]. split; [lia|reflexivity].
Qed.
Print Assumptions C73_int64.
(** What was accepted as an integer is read as that integer. *)
Theorem C73_read_int64 t name z : (- 2 ^ 63 <= z < 2 ^ 63)%Z -> header name t = decZ z -> calc64 name t = z /\ ((- 2 ^ 31 <= z < 2 ^ 31)%Z -> calc name t = z) /\ ((2 ^ 31 <= z)%Z -> calc name t = (2 ^ 31 - 1)%Z).
Proof.
  intros L H. assert (C : calc64 name t = z).
  { unfold calc64, header in *. destruct (tfind name t) as [v|]; [subst v; apply toint_decZ; exact L|]. exfalso. pose proof (decZ_element z) as (X & _). symmetry in H. contradiction. }
  split; [exact C|]. unfold calc. rewrite C. split; intros B.
  - rewrite Z.min_l by lia. apply i32_small. lia.
  - rewrite Z.min_r by lia. reflexivity.
Qed.
Print Assumptions C73_read_int64.
(** A text is accepted if its length is within the bounds. *)
Theorem C73_size t name lo hi : let v := header name t in
  (verifyAttributeSize t name lo hi = None <-> lo <= size v <= hi) /\
  (size v < lo -> verifyAttributeSize t name lo hi = Some (lit "402 Missing " ++ name)) /\
  (lo <= size v -> hi < size v -> verifyAttributeSize t name lo hi = Some (lit "402 Malformed " ++ name)).
Proof.
  cbv zeta. unfold verifyAttributeSize, too_short, wrong. rewrite size_eq. set (v := header name t).
  destruct (N.ltb_spec (size v) lo); [split; [split; [discriminate|lia]|split; [reflexivity|lia]]|].
  destruct (N.ltb_spec hi (size v)); (split; [split; [try discriminate; lia|try reflexivity; lia]|split; [lia|try reflexivity; lia]]).
Qed.
Print Assumptions C73_size.
(** A yes or no is accepted if it is true or false in any letters, or not there and not required. *)
Theorem C73_bool t name require : let v := header name t in nul_free v ->
  (verifyAttributeBool t name require = None <-> v = [] /\ require = false \/ same_letters v (lit "true") \/ same_letters v (lit "false")) /\
  (v = [] -> require = true -> verifyAttributeBool t name require = Some (lit "402 Missing " ++ name)) /\
  (v <> [] -> ~ same_letters v (lit "true") -> ~ same_letters v (lit "false") -> verifyAttributeBool t name require = Some (lit "402 Malformed " ++ name)).
Proof.
  cbv zeta. unfold verifyAttributeBool, too_short, wrong. rewrite size_eq. set (v := header name t). intros NF. rewrite (cstr_nul_free v NF).
  rewrite <- !ieq_same. assert (EV : bytes_eqb v [] = true <-> v = []) by apply bytes_eqb_eq.
  destruct (N.eqb_spec (size v) 0) as [Z0|Z0].
  - assert (V0 : v = []) by (destruct v; [reflexivity|unfold size in Z0; cbn [length] in Z0; lia]). rewrite V0 in *. destruct require; cbn; intuition (try discriminate; try congruence).
  - rewrite andb_false_r. assert (V0 : v <> []) by (intros X; rewrite X in Z0; apply Z0; reflexivity). assert (V1 : bytes_eqb v [] = false) by (destruct (bytes_eqb v []); [exfalso; tauto|reflexivity]).
    rewrite V1. cbn [negb andb]. destruct (ieqb v (lit "true")), (ieqb v (lit "false")); cbn [negb andb]; intuition (try discriminate; try congruence).
Qed.
Print Assumptions C73_bool.
(** A date is accepted if it looks like one, with a time or without, or is not there and not required. *)
Theorem C73_date t name require : let v := header name t in
  (verifyAttributeDate t name require = None <-> v = [] /\ require = false \/ date_text v) /\
  (v = [] -> require = true -> verifyAttributeDate t name require = Some (lit "402 Missing " ++ name)) /\
  (v <> [] -> ~ date_text v -> verifyAttributeDate t name require = Some (lit "402 Malformed " ++ name)).
Proof.
  cbv zeta. unfold verifyAttributeDate, too_short, wrong. set (v := header name t). rewrite <- !valid_text.
  destruct (bytes_eqb v []) eqn:E.
  - apply bytes_eqb_eq in E. rewrite E. destruct require; cbn; intuition (try discriminate; try congruence).
  - assert (v <> []) by (intros X; rewrite X in E; discriminate). rewrite andb_false_r. cbn [negb andb]. destruct (isValidDate v); cbn [negb]; intuition (try discriminate; try congruence).
Qed.
Print Assumptions C73_date.
(** A test is true for the text true in any letters and for every integer but zero that fits, and false for what is not there. *)
Theorem C73_test t name : (header name t = [] -> test name t = false) /\
  (nul_free (header name t) -> same_letters (header name t) (lit "true") -> test name t = true) /\
  (forall z, (- 2 ^ 31 <= z < 2 ^ 63)%Z -> header name t = decZ z -> (test name t = true <-> z <> 0%Z)).
Proof.
  split; [|split].
  - intros H. unfold test. rewrite H. unfold calc, calc64, header in *. destruct (tfind name t) as [v|]; [subst v|]; reflexivity.
  - intros NF H. unfold test. rewrite (cstr_nul_free _ NF). apply ieq_same in H. rewrite H. reflexivity.
  - intros z L H. unfold test. assert (NT : ieqb (cstr (header name t)) (lit "true") = false).
    { rewrite H. destruct (decZ_element z) as (_ & _ & _ & NF). rewrite (cstr_nul_free _ NF). destruct (ieqb (decZ z) (lit "true")) eqn:X; [|reflexivity]. exfalso.
      apply ieq_same in X. unfold same_letters in X. assert (Y : hd "x"%char (map lower (decZ z)) = "t"%char) by (rewrite X; reflexivity).
      unfold decZ in Y. destruct (z <? 0)%Z; [discriminate|]. pose proof (dec_digits (Z.to_N z)) as D. pose proof (dec_nonempty (Z.to_N z)) as NE. destruct (dec (Z.to_N z)) as [|c r]; [contradiction|].
      cbn [forallb] in D. apply andb_true_iff in D as [D _]. cbn [map hd] in Y.
      pose proof (forall_ascii (fun c => implb (is_digit c) (negb (Ascii.eqb (lower c) "t"))) ltac:(vm_compute; reflexivity) c) as G. cbn beta in G. rewrite D, Y in G. discriminate. }
    rewrite NT. cbn [orb]. destruct (C73_read_int64 t name z ltac:(lia) H) as (_ & A & B). destruct (Z_lt_ge_dec z (2 ^ 31)) as [S0|S0].
    + rewrite A by lia. destruct (Z.eqb_spec z 0); cbn [negb]; intuition (try discriminate; try congruence).
    + rewrite B by lia. cbn. intuition (try discriminate; lia).
Qed.
Print Assumptions C73_test.
(** An unsigned integer is read as it was written. *)
Theorem C73_read_uint64 t name n : n < 2 ^ 64 -> header name t = dec n -> calcU64 name t = n.
Proof.
  intros L H. unfold calcU64, header in *. destruct (tfind name t) as [v|]; [subst v|exfalso; symmetry in H; exact (dec_nonempty n H)].
  apply SToUInt64_dec. exact L.
Qed.
Print Assumptions C73_read_uint64.

(** ** What commands require *)
Lemma or_none a b : or_else a b = None <-> a = None /\ b = None.
Proof. destruct a; cbn; intuition discriminate. Qed.
Lemma set_iff n t : isSet n t = true <-> tfind n t <> None.
Proof. unfold isSet. destruct (tfind n t); intuition congruence. Qed.
Lemma priority_ok p : validatePriority p = None <-> In p [0; 250; 500; 750; 850; 1000]%Z.
Proof.
  unfold validatePriority. destruct (existsb (Z.eqb p) [0; 250; 500; 750; 850; 1000]%Z) eqn:E.
  - apply existsb_exists in E as (x & I & E). apply Z.eqb_eq in E. subst. tauto.
  - split; [discriminate|]. intros I. assert (X : existsb (Z.eqb p) [0; 250; 500; 750; 850; 1000]%Z = true) by (apply existsb_exists; exists p; rewrite Z.eqb_refl; auto). congruence.
Qed.
Lemma priority_set_ok t : priority_set t = None <-> (tfind (lit "jobPriority") t <> None -> In (calc64 (lit "jobPriority") t) [0; 250; 500; 750; 850; 1000]%Z).
Proof.
  unfold priority_set. rewrite <- priority_ok, <- set_iff. fold PRIO. destruct (isSet PRIO t); [|intuition discriminate]. intuition.
Qed.
Lemma id_ok t : check_id t = None <-> integer (header (lit "jobID") t).
Proof.
  unfold check_id. rewrite (proj1 (C73_int64 t JOBID 1)). fold JOBID. split.
  - intros [L [E|I]]; [rewrite E in L; cbn in L; lia|exact I].
  - intros (z & L & E). split; [|right; exists z; auto]. rewrite E. destruct (decZ_element z) as (X & _). destruct (decZ z); [contradiction|]. unfold size. cbn [length]. lia.
Qed.
(** QueryJob, RetryJob, FinishJob, FailJob and DeleteJob go on if and only if their jobID is an integer. *)
Theorem C73_by_id valid m t : In (map lower (getVerb m)) [lit "queryjob"; lit "retryjob"; lit "finishjob"; lit "failjob"; lit "deletejob"] ->
  ieqb m (lit "CancelJob") = false -> (checked valid m t = Some None <-> integer (header (lit "jobID") t)) /\ checked valid m t <> None.
Proof.
  intros V M. rewrite <- id_ok. unfold checked.
  assert (W : forall n, ieqb (getVerb m) (lit n) = true <-> map lower (getVerb m) = map lower (lit n)) by (intros n; apply ieq_same).
  assert (X : forall n, ieqb (getVerb m) (lit n) = bytes_eqb (map lower (getVerb m)) (map lower (lit n))).
  { intros n. apply eq_true_iff_eq. rewrite W, bytes_eqb_eq. tauto. }
  rewrite !X, M. cbn [In] in V. destruct V as [<-|[<-|[<-|[<-|[<-|[]]]]]]; split; try discriminate; split; intros Y; try injection Y as Y; try rewrite Y; auto.
Qed.
Print Assumptions C73_by_id.
(** GetJob and GetJobs need a name, GetJobs alone a number, and if there is a priority it is one of the six. *)
Theorem C73_get many t : check_get many t = None <->
  1 <= size (header (lit "name") t) <= 12750 /\ (many = true <-> tfind (lit "numResults") t <> None) /\
  (tfind (lit "jobPriority") t <> None -> In (calc64 (lit "jobPriority") t) [0; 250; 500; 750; 850; 1000]%Z).
Proof.
  unfold check_get. rewrite !or_none, priority_set_ok. rewrite (proj1 (C73_size t NAME 1 12750)). fold NAME. rewrite <- (set_iff (lit "numResults")).
  assert (X : (if Bool.eqb many (isSet (lit "numResults") t) then None else Some (if many then lit "402 Missing numResults" else lit "402 Cannot use numResults with GetJob; try GetJobs")) = None
    <-> (many = true <-> isSet (lit "numResults") t = true)) by (destruct many, (isSet (lit "numResults") t); cbn; intuition (try discriminate; try congruence)).
  rewrite X. tauto.
Qed.
Print Assumptions C73_get.
(** CreateJob needs a name of at most 255 bytes, data that is a JSON object, a priority that is one of the six and a time to retry after that SQLite can add, if they are there. *)
Theorem C73_create t : check_create t = None <->
  1 <= size (header (lit "name") t) <= 255 /\ (tfind (lit "jobPriority") t <> None -> In (SToInt (header (lit "jobPriority") t)) [0; 250; 500; 750; 850; 1000]%Z) /\
  (tfind (lit "data") t <> None -> header (lit "data") t = lit "{}" \/ exists p o, SParseJSONObject (header (lit "data") t) (lit "null") = Some (p :: o)) /\
  (header (lit "retryAfter") t <> [] -> SIsValidSQLiteDateModifier (header (lit "retryAfter") t) = true).
Proof.
  unfold check_create, check_job. rewrite !or_none, (proj1 (C73_size t NAME 1 255)). fold NAME PRIO DATA.
  assert (P : (if isSet PRIO t then validatePriority (SToInt (header PRIO t)) else None) = None <-> (tfind PRIO t <> None -> In (SToInt (header PRIO t)) [0; 250; 500; 750; 850; 1000]%Z)).
  { rewrite <- priority_ok, <- set_iff. destruct (isSet PRIO t); [|intuition discriminate]. intuition. }
  rewrite P. clear P.
  assert (D : (if isSet DATA t && match SParseJSONObject (header DATA t) (lit "null") with Some [] | None => true | _ => false end && negb (bytes_eqb (header DATA t) (lit "{}"))
      then Some (lit "402 Data is not a valid JSON Object") else None) = None <->
    (tfind DATA t <> None -> header DATA t = lit "{}" \/ exists p o, SParseJSONObject (header DATA t) (lit "null") = Some (p :: o))).
  { rewrite <- (set_iff DATA). destruct (isSet DATA t); [|cbn [andb]; intuition discriminate]. cbn [andb]. rewrite <- (bytes_eqb_eq (header DATA t)).
    destruct (bytes_eqb (header DATA t) (lit "{}")); cbn [negb]; [rewrite andb_false_r; tauto|]. rewrite andb_true_r.
    destruct (SParseJSONObject (header DATA t) (lit "null")) as [[|p o]|].
    - split; [discriminate|]. intros X. destruct (X eq_refl) as [X'|(p & o & X')]; discriminate.
    - split; [|reflexivity]. intros _ _. right. exists p, o. reflexivity.
    - split; [discriminate|]. intros X. destruct (X eq_refl) as [X'|(p & o & X')]; discriminate. }
  rewrite D. clear D.
  assert (R : (if isSet (lit "retryAfter") t && negb (bytes_eqb (header (lit "retryAfter") t) []) && negb (SIsValidSQLiteDateModifier (header (lit "retryAfter") t))
      then Some (lit "402 Malformed retryAfter") else None) = None <-> (header (lit "retryAfter") t <> [] -> SIsValidSQLiteDateModifier (header (lit "retryAfter") t) = true)).
  { unfold header, isSet. destruct (tfind (lit "retryAfter") t) as [v|]; cbn [andb]; [|intuition congruence].
    assert (E : bytes_eqb v [] = true <-> v = []) by apply bytes_eqb_eq. destruct (bytes_eqb v []); cbn [negb andb]; [intuition|].
    assert (v <> []) by (intros X; apply E in X; discriminate). destruct (SIsValidSQLiteDateModifier v); cbn [negb]; intuition discriminate. }
  rewrite R. tauto.
Qed.
Print Assumptions C73_create.
(** UpdateJob needs an integer jobID and data of at most 1 MB; a schedule and a priority have to be valid if they are there. *)
Theorem C73_update valid t : check_update valid t = None <->
  integer (header (lit "jobID") t) /\ 1 <= size (header (lit "data") t) <= 1048576 /\ (header (lit "repeat") t <> [] -> valid (header (lit "repeat") t) = true) /\
  (tfind (lit "jobPriority") t <> None -> In (calc64 (lit "jobPriority") t) [0; 250; 500; 750; 850; 1000]%Z).
Proof.
  unfold check_update. rewrite !or_none, priority_set_ok, (proj1 (C73_size t DATA 1 1048576)). fold (check_id t). rewrite id_ok. fold DATA.
  assert (R : (if isSet (lit "repeat") t && negb (bytes_eqb (header (lit "repeat") t) []) && negb (valid (header (lit "repeat") t)) then wrong (lit "repeat") else None) = None
    <-> (header (lit "repeat") t <> [] -> valid (header (lit "repeat") t) = true)).
  { unfold header, isSet, wrong. destruct (tfind (lit "repeat") t) as [v|]; cbn [andb]; [|intuition congruence].
    assert (E : bytes_eqb v [] = true <-> v = []) by apply bytes_eqb_eq. destruct (bytes_eqb v []); cbn [negb andb]; [intuition|].
    assert (v <> []) by (intros X; apply E in X; discriminate). destruct (valid v); cbn [negb]; intuition discriminate. }
  rewrite R. tauto.
Qed.
Print Assumptions C73_update.
(** ReadCache needs a name.  WriteCache also needs a value of at most 1 MB or else a content of at most 64 MB, and whichever it is has to fit into the cache. *)
Theorem C73_cache limit t content :
  (check_read t = None <-> 1 <= size (header (lit "name") t) <= 255) /\
  (check_write limit t content = None <-> 1 <= size (header (lit "name") t) <= 255 /\
    (1 <= size (header (lit "value") t) <= 1048576 /\ size (header (lit "value") t) <= limit \/
     header (lit "value") t = [] /\ 1 <= size content <= 67108864 /\ size content <= limit)).
Proof.
  split; [apply (C73_size t NAME 1 255)|]. unfold check_write. cbv zeta. rewrite !or_none, (proj1 (C73_size t NAME 1 255)). fold NAME. change sizeN with size.
  set (v := header (lit "value") t).
  assert (Z : forall x : bytes, bytes_eqb x [] = true /\ x = [] /\ size x = 0 \/ bytes_eqb x [] = false /\ x <> [] /\ 1 <= size x).
  { intros [|c x]; [left; auto|right]. split; [reflexivity|]. split; [discriminate|]. unfold size. cbn [length]. lia. }
  destruct (Z v) as [(-> & V1 & V2)|(-> & V1 & V2)]; cbn [negb].
  - rewrite V2. destruct (Z content) as [(-> & C1 & C2)|(-> & C1 & C2)]; cbn [negb].
    + rewrite C2. intuition (try discriminate; try lia).
    + destruct (N.ltb_spec 67108864 (size content)), (N.ltb_spec limit (size content)); intuition (try discriminate; try lia).
  - destruct (N.ltb_spec 1048576 (size v)), (N.ltb_spec limit (size v)); intuition (try discriminate; try lia; try congruence).
Qed.
Print Assumptions C73_cache.

(** ** Where it falls short *)
(** Days and times that do not exist are accepted as dates. *)
Theorem C73_no_such_day_refuted : isValidDate (lit "2026-02-31") = true /\ isValidDate (lit "2026-11-16 99:99:99") = true.
Proof. vm_compute. auto. Qed.
Print Assumptions C73_no_such_day_refuted.
(** A priority that is not a number counts as the priority 0, and what follows a number is ignored. *)
Theorem C73_priority_text_refuted : priority_set [(lit "jobPriority", lit "high")] = None /\ priority_set [(lit "jobPriority", lit "500x")] = None.
Proof. vm_compute. auto. Qed.
Print Assumptions C73_priority_text_refuted.
(** CreateJobs looks for the letters of name anywhere in the text of a job.  A job without a name is accepted if they are in its data, and names can be of any length. *)
Theorem C73_nameless_refuted :
  let t := [(lit "jobs", lit "[{""data"":{""filename"":""x""}}]")] in check_create_many t = None /\
  exists job, SParseJSONArray (header (lit "jobs") t) (lit "null") = Some [job] /\ exists o, SParseJSONObject job (lit "null") = Some o /\ tfind (lit "name") o = None.
Proof. cbv zeta. split; [vm_compute; reflexivity|]. eexists. split; [vm_compute; reflexivity|]. eexists. split; vm_compute; reflexivity. Qed.
Print Assumptions C73_nameless_refuted.
(** Numbers below -2147483648 wrap around when they are read as 32 bits: -4294967296 reads as 0 and counts as false. *)
Theorem C73_wraps_refuted : exists t, header (lit "x") t = lit "-4294967296" /\ calc64 (lit "x") t = (-4294967296)%Z /\ calc (lit "x") t = 0%Z /\ test (lit "x") t = false.
Proof. exists [(lit "x", lit "-4294967296")]. vm_compute. auto. Qed.
Print Assumptions C73_wraps_refuted.
(** A negative number that is read as unsigned becomes a very large one. *)
Theorem C73_negative_refuted : calcU64 (lit "x") [(lit "x", lit "-1")] = 2 ^ 64 - 1.
Proof. vm_compute. reflexivity. Qed.
Print Assumptions C73_negative_refuted.
(** CancelJob is the only command of the jobs plugin that is recognized by the whole first line.  With anything behind its name nothing is checked and nothing is cancelled, and the answer is 200. *)
Theorem C73_cancel_refuted valid t : getVerb (lit "CancelJob HTTP/1.1") = lit "CancelJob" /\ checked valid (lit "CancelJob HTTP/1.1") t = None /\
  checked valid (lit "DeleteJob HTTP/1.1") t <> None.
Proof. split; [reflexivity|]. split; [vm_compute; reflexivity|]. unfold checked. cbn. discriminate. Qed.
Print Assumptions C73_cancel_refuted.

(** ** The hypotheses are met *)
Example C73_int_case : verifyAttributeInt64 [(lit "jobID", lit "-17")] (lit "jobid") 1 = None /\ integer (lit "-17") /\ verifyAttributeInt64 [(lit "jobID", lit "017")] (lit "jobID") 1 = Some (lit "402 Malformed jobID")
  /\ verifyAttributeInt64 [(lit "jobID", lit "9223372036854775808")] (lit "jobID") 1 = Some (lit "402 Malformed jobID") /\ verifyAttributeInt64 [] (lit "jobID") 1 = Some (lit "402 Missing jobID").
Proof. split; [vm_compute; reflexivity|]. split; [exists (-17)%Z; split; [lia|reflexivity]|]. vm_compute. auto. Qed.
Example C73_date_case : date_text (lit "2026-11-16") /\ date_text (lit "1999-01-31 23:59:00") /\ ~ date_text (lit "2026-13-01") /\ ~ date_text (lit "26-1-1").
Proof. rewrite <- !valid_text. vm_compute. repeat split; discriminate. Qed.
Example C73_checked_case : let job := [(lit "data", lit "{""a"":1}"); (lit "jobPriority", lit "750"); (lit "name", lit "mail"); (lit "retryAfter", lit "+5 MINUTES")] in
  checked (fun _ => true) (lit "CreateJob") job = Some None /\ checked (fun _ => true) (lit "getjobs") job = Some (Some (lit "402 Missing numResults")) /\
  checked (fun _ => true) (lit "FinishJob") [(lit "jobID", lit "12")] = Some None /\ checked (fun _ => true) (lit "FinishJob") [(lit "jobID", lit "12x")] = Some (Some (lit "402 Malformed jobID")) /\
  check_write 100 [(lit "name", lit "a")] (lit "xyz") = None /\ check_write 2 [(lit "name", lit "a")] (lit "xyz") <> None.
Proof. cbv zeta. repeat split; try (vm_compute; reflexivity). vm_compute. discriminate. Qed.
