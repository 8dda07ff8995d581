(** C61: texts that differ in accents only are made equal, and everything else is kept. *)
From Verif Require Import Base Text_Spec Text_Model Text_Proofs Fmt_Spec Fmt_Model Fmt_Proofs Deburr_Spec Deburr_Model.
Local Open Scope N_scope.

(** ** The bytes of a character *)
Definition lead (n : nat) (c : N) : bool := (countl_one (ascii_of_N c) =? n)%nat.
Lemma low_countl v : v < 128 -> countl_one (ascii_of_N v) = 0%nat.
Proof.
  intros H. pose proof (by_code (fun n => n <? 128) (lead 0) ltac:(vm_compute; reflexivity) v ltac:(lia) ltac:(cbv beta; lia)) as A.
  apply Nat.eqb_eq. exact A.
Qed.
Lemma trail_countl x : x < 64 -> countl_one (ascii_of_N (128 + x)) = 1%nat.
Proof.
  intros H. pose proof (by_code (fun n => (128 <=? n) && (n <? 192)) (lead 1) ltac:(vm_compute; reflexivity) (128 + x) ltac:(lia) ltac:(cbv beta; lia)) as A.
  apply Nat.eqb_eq. exact A.
Qed.
Lemma cont_1 k cp x s : x < 64 -> continuations (S k) cp (ascii_of_N (128 + x) :: s) = continuations k (cp * 64 + x) s.
Proof.
  intros H. cbn [continuations]. rewrite trail_countl by assumption. cbn [Nat.eqb]. destruct (trail_byte x H) as [_ B]. rewrite B.
  rewrite lor_shift by assumption. reflexivity.
Qed.
Lemma lead_2 q : q < 32 -> countl_one (ascii_of_N (192 + q)) = 2%nat /\ N.land (bcode (ascii_of_N (192 + q))) (N.ones 5) = q.
Proof.
  intros H. rewrite code_of by lia. pose proof (by_code (fun n => (192 <=? n) && (n <? 224)) (fun n => lead 2 n && (N.land n (N.ones 5) =? n - 192)) ltac:(vm_compute; reflexivity) (192 + q) ltac:(lia) ltac:(cbv beta; lia)) as A.
  cbv beta in A. apply andb_prop in A as [A1 A2]. apply N.eqb_eq in A2. split; [apply Nat.eqb_eq; exact A1|]. rewrite A2. lia.
Qed.
Lemma lead_3 q : q < 16 -> countl_one (ascii_of_N (224 + q)) = 3%nat /\ N.land (bcode (ascii_of_N (224 + q))) (N.ones 4) = q.
Proof.
  intros H. rewrite code_of by lia. pose proof (by_code (fun n => (224 <=? n) && (n <? 240)) (fun n => lead 3 n && (N.land n (N.ones 4) =? n - 224)) ltac:(vm_compute; reflexivity) (224 + q) ltac:(lia) ltac:(cbv beta; lia)) as A.
  cbv beta in A. apply andb_prop in A as [A1 A2]. apply N.eqb_eq in A2. split; [apply Nat.eqb_eq; exact A1|]. rewrite A2. lia.
Qed.
Lemma lead_4 q : q < 8 -> countl_one (ascii_of_N (240 + q)) = 4%nat /\ N.land (bcode (ascii_of_N (240 + q))) (N.ones 3) = q.
Proof.
  intros H. rewrite code_of by lia. pose proof (by_code (fun n => (240 <=? n) && (n <? 248)) (fun n => lead 4 n && (N.land n (N.ones 3) =? n - 240)) ltac:(vm_compute; reflexivity) (240 + q) ltac:(lia) ltac:(cbv beta; lia)) as A.
  cbv beta in A. apply andb_prop in A as [A1 A2]. apply N.eqb_eq in A2. split; [apply Nat.eqb_eq; exact A1|]. rewrite A2. lia.
Qed.
(** What the loop does with one character. *)
Definition kept (v : N) : bytes := if mark v then [] else match unicodeToAscii v with None => utf8_1 v | Some m => m end.
Lemma step_low f v s : v < 128 -> run (S f) (utf8_1 v ++ s) = option_map (app (kept v)) (run f s).
Proof.
  intros H. rewrite utf8_small by assumption. cbn [app run]. rewrite low_countl by assumption. cbn [Nat.eqb]. unfold kept, mark, unicodeToAscii.
  replace (768 <=? v) with false by lia. replace (192 <=? v) with false by lia. cbn [andb]. rewrite utf8_small by assumption.
  destruct (run f s); reflexivity.
Qed.
Lemma step_high f v s : code_point v -> 128 <= v -> run (S f) (utf8_1 v ++ s) = option_map (app (kept v)) (run f s).
Proof.
  intros V H.
  assert (G : exists c t, utf8_1 v = c :: t /\ (1 < countl_one c)%nat /\ (countl_one c <= 4)%nat /\ List.length (c :: t) = countl_one c /\
              continuations (countl_one c - 1) (N.land (bcode c) (N.ones (N.of_nat (7 - countl_one c)))) (t ++ s) = Some (v, s)).
  { unfold code_point in V. unfold utf8_1. replace (v <? 128) with false by lia. destruct (N.ltb_spec v 2048); [|destruct (N.ltb_spec v 65536)].
    - assert (Q : v / 64 < 32) by (apply N.div_lt_upper_bound; lia). destruct (lead_2 _ Q) as [C L]. eexists _, _. split; [reflexivity|]. rewrite C.
      repeat split; try (cbn [List.length]; lia). change (N.of_nat (7 - 2)) with 5. rewrite L. change (2 - 1)%nat with 1%nat. cbn [app].
      rewrite cont_1 by (apply N.mod_lt; lia). cbn [continuations]. f_equal. f_equal. pose proof (N.div_mod v 64). lia.
    - assert (Q : v / 4096 < 16) by (apply N.div_lt_upper_bound; lia). destruct (lead_3 _ Q) as [C L]. eexists _, _. split; [reflexivity|]. rewrite C.
      repeat split; try (cbn [List.length]; lia). change (N.of_nat (7 - 3)) with 4. rewrite L. change (3 - 1)%nat with 2%nat. cbn [app].
      rewrite !cont_1 by (apply N.mod_lt; lia). cbn [continuations]. f_equal. f_equal.
      replace (v / 4096) with (v / 64 / 64) by (rewrite N.div_div by lia; reflexivity). pose proof (N.div_mod v 64). pose proof (N.div_mod (v / 64) 64). lia.
    - assert (Q : v / 262144 < 8) by (apply N.div_lt_upper_bound; lia). destruct (lead_4 _ Q) as [C L]. eexists _, _. split; [reflexivity|]. rewrite C.
      repeat split; try (cbn [List.length]; lia). change (N.of_nat (7 - 4)) with 3. rewrite L. change (4 - 1)%nat with 3%nat. cbn [app].
      rewrite !cont_1 by (apply N.mod_lt; lia). cbn [continuations]. f_equal. f_equal.
      replace (v / 262144) with (v / 64 / 64 / 64) by (rewrite !N.div_div by lia; reflexivity). replace (v / 4096) with (v / 64 / 64) by (rewrite N.div_div by lia; reflexivity).
      pose proof (N.div_mod v 64). pose proof (N.div_mod (v / 64) 64). pose proof (N.div_mod (v / 64 / 64) 64). lia. }
  destruct G as (c & t & E & L1 & L4 & Len & C). rewrite E. cbn [app run]. set (n := countl_one c) in *.
  replace (n =? 0)%nat with false by lia. replace (n =? 1)%nat with false by lia. replace (4 <? n)%nat with false by lia.
  replace (List.length (c :: t ++ s) <? n)%nat with false by (symmetry; apply Nat.ltb_ge; cbn [List.length] in *; rewrite app_length; lia). cbn [orb].
  rewrite C. unfold kept, mark. destruct ((768 <=? v) && (v <=? 879)).
  - destruct (run f s); reflexivity.
  - f_equal. f_equal. destruct (unicodeToAscii v); [reflexivity|]. rewrite E. change (c :: t ++ s) with ((c :: t) ++ s).
    replace (List.length ((c :: t) ++ s) - List.length s)%nat with (List.length (c :: t)) by (rewrite app_length; lia).
    rewrite firstn_app, Nat.sub_diag, firstn_all, firstn_O, app_nil_r. reflexivity.
Qed.
Lemma step f v s : code_point v -> run (S f) (utf8_1 v ++ s) = option_map (app (kept v)) (run f s).
Proof. intros V. destruct (N.ltb_spec v 128); [apply step_low|apply step_high]; assumption. Qed.
Lemma run_text t : Forall code_point t -> forall f, (List.length t <= f)%nat -> run f (utf8 t) = Some (flat_map kept t).
Proof.
  induction 1 as [|v t V _ IH]; intros f L; [destruct f; reflexivity|]. destruct f as [|f]; cbn [List.length] in L; [lia|].
  rewrite utf8_cons, step by assumption. rewrite IH by lia. reflexivity.
Qed.
Lemma no_nul t : Forall character t -> cstr (utf8 t) = utf8 t.
Proof.
  intros F. apply cstr_nul_free. intros I. assert (F' : Forall code_point t) by (eapply Forall_impl; [|exact F]; intros ? []; assumption).
  apply (in_utf8 0 t) in I; [|lia|assumption]. rewrite Forall_forall in F. destruct (F 0 I). lia.
Qed.
Lemma deburr_text t : Forall character t -> deburr (utf8 t) = Some (flat_map kept t).
Proof.
  intros F. unfold deburr. rewrite no_nul by assumption. apply run_text; [|apply utf8_length].
  eapply Forall_impl; [|exact F]. intros ? []. assumption.
Qed.
(** ** The table *)
Definition mapped_range : list N := map N.of_nat (seq 192 192).
Lemma in_range v : 192 <= v <= 383 -> In v mapped_range.
Proof. intros H. unfold mapped_range. rewrite <- (N2Nat.id v). apply in_map. apply in_seq. lia. Qed.
Lemma by_range (p : N -> bool) : forallb p mapped_range = true -> forall v, 192 <= v <= 383 -> p v = true.
Proof. intros A v H. rewrite forallb_forall in A. apply A, in_range, H. Qed.
Lemma outside v : v < 192 \/ 383 < v -> unicodeToAscii v = None /\ letter v = None.
Proof.
  intros H. unfold unicodeToAscii, letter. split; [replace ((192 <=? v) && (v <=? 383)) with false by lia; reflexivity|].
  destruct (N.ltb_spec v 192); [reflexivity|]. rewrite nth_overflow; [reflexivity|]. change (List.length latin) with 192%nat. lia.
Qed.
Definition same_entry (a b : option bytes) : bool :=
  match a, b with None, None => true | Some x, Some y => bytes_eqb x y | _, _ => false end.
Lemma same_entry_eq a b : same_entry a b = true -> a = b.
Proof. destruct a, b; cbn [same_entry]; try discriminate; [|reflexivity]. intros H. apply bytes_eqb_eq in H. congruence. Qed.
Lemma table_right v : missed v = false -> unicodeToAscii v = letter v.
Proof.
  intros M. destruct (N.ltb_spec v 192); [destruct (outside v) as [-> ->]; [lia|reflexivity]|].
  destruct (N.ltb_spec 383 v); [destruct (outside v) as [-> ->]; [lia|reflexivity]|].
  pose proof (by_range (fun v => missed v || same_entry (unicodeToAscii v) (letter v)) ltac:(vm_compute; reflexivity) v ltac:(lia)) as A. cbv beta in A.
  rewrite M in A. apply same_entry_eq. exact A.
Qed.
Lemma kept_bare v : missed v = false -> kept v = bare v.
Proof. intros M. unfold kept, bare. rewrite table_right by assumption. destruct (mark v), (letter v); reflexivity. Qed.
Lemma entry_short v m : unicodeToAscii v = Some m -> 192 <= v <= 383 /\ forallb (fun c => (0 <? bcode c) && (bcode c <? 128)) m = true /\ (List.length m <= 2)%nat.
Proof.
  intros E. assert (R : 192 <= v <= 383).
  { unfold unicodeToAscii in E. destruct ((192 <=? v) && (v <=? 383)) eqn:B; [|discriminate]. lia. }
  pose proof (by_range (fun v => match unicodeToAscii v with None => true | Some m => forallb (fun c => (0 <? bcode c) && (bcode c <? 128)) m && (List.length m <=? 2)%nat end)
    ltac:(vm_compute; reflexivity) v R) as A. cbv beta in A. rewrite E in A. apply andb_prop in A as [A B]. split; [exact R|]. split; [exact A|]. lia.
Qed.

(** ** Texts *)
(** Every letter of the two blocks becomes the letter without its accent, combining marks go, everything else stays, in the same order. *)
Theorem C61_text : forall t, Forall character t -> forallb (fun v => negb (missed v)) t = true -> deburr (utf8 t) = Some (flat_map bare t).
Proof.
  intros t F M. rewrite deburr_text by assumption. f_equal. rewrite forallb_forall in M. clear F.
  induction t as [|v t IH]; [reflexivity|]. cbn [flat_map]. rewrite IH by (intros x I; apply M; right; exact I). f_equal.
  apply kept_bare. specialize (M v (or_introl eq_refl)). destruct (missed v); [discriminate|reflexivity].
Qed.
Print Assumptions C61_text.
(** Two texts put together give the two results put together. *)
Theorem C61_together : forall a b, Forall character a -> Forall character b -> exists x y,
  deburr (utf8 a) = Some x /\ deburr (utf8 b) = Some y /\ deburr (utf8 a ++ utf8 b) = Some (x ++ y).
Proof.
  intros a b A B. exists (flat_map kept a), (flat_map kept b). rewrite <- utf8_app, !deburr_text by (try apply Forall_app; try split; assumption).
  repeat split. rewrite flat_map_app. reflexivity.
Qed.
Print Assumptions C61_together.
(** Combining marks make no difference, wherever they are: texts that are equal without them give the same. *)
Theorem C61_marks : forall a b, Forall character a -> Forall character b ->
  filter (fun v => negb (mark v)) a = filter (fun v => negb (mark v)) b -> deburr (utf8 a) = deburr (utf8 b).
Proof.
  assert (K : forall a, flat_map kept a = flat_map kept (filter (fun v => negb (mark v)) a)).
  { induction a as [|v a IH]; [reflexivity|]. cbn [flat_map filter]. rewrite IH. destruct (mark v) eqn:M; cbn [negb flat_map]; [|reflexivity].
    unfold kept at 1. rewrite M. reflexivity. }
  intros a b A B E. rewrite !deburr_text by assumption. rewrite (K a), (K b), E. reflexivity.
Qed.
Print Assumptions C61_marks.
(** Once is enough: what came out does not change any more, and is a text again. *)
Definition pieces (v : N) : text := if mark v then [] else match unicodeToAscii v with None => [v] | Some m => map bcode m end.
Lemma utf8_codes m : forallb (fun c => (0 <? bcode c) && (bcode c <? 128)) m = true -> utf8 (map bcode m) = m /\ Forall character (map bcode m) /\ flat_map kept (map bcode m) = m.
Proof.
  induction m as [|c m IH]; [repeat split; constructor|]. cbn [forallb map]. intros H. apply andb_prop in H as [H H']. destruct (IH H') as (A & B & C).
  apply andb_prop in H as [Z S]. apply N.ltb_lt in Z, S. assert (E : utf8_1 (bcode c) = [c]) by (rewrite utf8_small by assumption; unfold bcode; rewrite ascii_N_embedding; reflexivity).
  rewrite utf8_cons, A, E. split; [reflexivity|]. split.
  - constructor; [|exact B]. unfold character, code_point. lia.
  - cbn [flat_map]. rewrite C. unfold kept, mark. replace (768 <=? bcode c) with false by lia. cbn [andb]. destruct (outside (bcode c)) as [-> _]; [lia|]. rewrite E. reflexivity.
Qed.
Lemma pieces_ok v : character v -> utf8 (pieces v) = kept v /\ Forall character (pieces v) /\ flat_map kept (pieces v) = kept v.
Proof.
  intros C. unfold pieces, kept. destruct (mark v) eqn:M; [repeat split; constructor|]. destruct (unicodeToAscii v) as [m|] eqn:E.
  - destruct (entry_short v m E) as (_ & A & _). exact (utf8_codes m A).
  - split; [apply app_nil_r|]. split; [constructor; [exact C|constructor]|]. cbn [flat_map]. unfold kept. rewrite M, E. apply app_nil_r.
Qed.
Theorem C61_once : forall t, Forall character t -> exists u, Forall character u /\ deburr (utf8 t) = Some (utf8 u) /\ deburr (utf8 u) = Some (utf8 u).
Proof.
  intros t F. exists (flat_map pieces t).
  assert (A : Forall character (flat_map pieces t) /\ utf8 (flat_map pieces t) = flat_map kept t /\ flat_map kept (flat_map pieces t) = flat_map kept t).
  { induction F as [|v t V F IH]; [repeat split; constructor|]. destruct IH as (A & B & C). destruct (pieces_ok v V) as (P & Q & R). cbn [flat_map].
    rewrite utf8_app, flat_map_app, B, C, P, R. split; [apply Forall_app; split; assumption|]. split; reflexivity. }
  destruct A as (A & B & C). split; [exact A|]. rewrite !deburr_text by assumption. rewrite B, C. split; reflexivity.
Qed.
Print Assumptions C61_once.
(** Text of letters, marks and ASCII characters becomes ASCII. *)
Theorem C61_ascii : forall t r, Forall character t -> forallb (fun v => negb (missed v)) t = true ->
  Forall (fun v => v < 128 \/ mark v = true \/ letter v <> None) t -> deburr (utf8 t) = Some r -> Forall is_ascii r.
Proof.
  intros t r F M L E. rewrite C61_text in E by assumption. injection E as <-. rewrite forallb_forall in M. apply Forall_flat_map. rewrite Forall_forall in *.
  intros v I. specialize (M v I). specialize (L v I). cbv beta in M. apply negb_true_iff in M. unfold bare. destruct (mark v) eqn:K; [constructor|]. destruct (letter v) as [l|] eqn:Q.
  - rewrite <- table_right in Q by assumption. destruct (entry_short v l Q) as (_ & A & _). rewrite forallb_forall in A. apply Forall_forall. intros c J. specialize (A c J).
    cbv beta in A. unfold is_ascii. lia.
  - destruct L as [L|[L|L]]; [|congruence|congruence]. rewrite utf8_small by assumption. constructor; [|constructor]. unfold is_ascii. rewrite code_of by lia. lia.
Qed.
Print Assumptions C61_ascii.
(** ASCII stays as it is. *)
Theorem C61_same : forall s, nul_free s -> Forall is_ascii s -> deburr s = Some s.
Proof.
  intros s N F. assert (H : forallb (fun c => (0 <? bcode c) && (bcode c <? 128)) s = true).
  { apply forallb_forall. intros c I. rewrite Forall_forall in F. specialize (F c I). unfold is_ascii in F. apply andb_true_intro. split; [|lia].
    apply N.ltb_lt. destruct (N.eq_dec (bcode c) 0) as [Z|]; [|lia]. exfalso. apply N. replace NUL with c; [exact I|].
    rewrite <- (ascii_N_embedding c). change (N_of_ascii c) with (bcode c). rewrite Z. reflexivity. }
  destruct (utf8_codes s H) as (A & B & C). rewrite <- A at 1. rewrite deburr_text by assumption. rewrite C. reflexivity.
Qed.
Print Assumptions C61_same.

(** ** Any bytes *)
Lemma cont_spec k : forall cp s, (k <= List.length s)%nat -> exists cp' a b, continuations k cp s = Some (cp', b) /\ s = a ++ b /\ (a = [] -> cp' = cp).
Proof.
  induction k as [|k IH]; intros cp s L; [exists cp, [], s; repeat split|]. destruct s as [|c s]; cbn [List.length] in L; [lia|]. cbn [continuations].
  destruct (countl_one c =? 1)%nat; [|exists cp, [], (c :: s); repeat split]. destruct (IH (N.lor (N.shiftl cp 6) (N.land (bcode c) 63)) s ltac:(lia)) as (cp' & a & b & E & S & _).
  exists cp', (c :: a), b. rewrite E, S. repeat split. discriminate.
Qed.
Lemma run_any f : forall s, (List.length s <= f)%nat -> exists r, run f s = Some r /\ (List.length r <= List.length s)%nat.
Proof.
  induction f as [|f IH]; intros s L; [exists []; split; [destruct s; reflexivity|cbn; lia]|]. destruct s as [|c t]; [exists []; split; [reflexivity|cbn; lia]|].
  cbn [List.length] in L. cbn [run]. set (n := countl_one c). destruct (n =? 0)%nat eqn:N0.
  - destruct (IH t ltac:(lia)) as (r & -> & B). exists (c :: r). split; [reflexivity|]. cbn [List.length]. lia.
  - destruct ((n =? 1)%nat || (4 <? n)%nat || (List.length (c :: t) <? n)%nat) eqn:G.
    + destruct (IH t ltac:(lia)) as (r & -> & B). exists r. split; [reflexivity|]. cbn [List.length]. lia.
    + apply orb_false_iff in G as [G G3]. apply orb_false_iff in G as [G1 G2]. apply Nat.ltb_ge in G2, G3. apply Nat.eqb_neq in N0, G1. cbn [List.length] in G3.
      destruct (cont_spec (n - 1) (N.land (bcode c) (N.ones (N.of_nat (7 - n)))) t ltac:(lia)) as (cp & a & b & E & S & Z). rewrite E. subst t. rewrite app_length in L.
      destruct (IH b ltac:(lia)) as (r & Er & B). rewrite Er. destruct ((768 <=? cp) && (cp <=? 879)).
      * exists r. split; [reflexivity|]. cbn [List.length]. rewrite app_length. lia.
      * eexists. split; [reflexivity|]. rewrite app_length. cbn [List.length]. rewrite app_length. destruct (unicodeToAscii cp) as [m|] eqn:U.
        -- destruct (entry_short cp m U) as ((R & _) & _ & M2). destruct a as [|x a]; [|cbn [List.length]; lia]. exfalso. specialize (Z eq_refl). subst cp.
           assert (Q : N.land (bcode c) (N.ones (N.of_nat (7 - n))) < 64).
           { rewrite N.land_ones. eapply N.lt_le_trans; [apply N.mod_lt; apply N.pow_nonzero; lia|]. change 64 with (2 ^ 6). apply N.pow_le_mono_r; lia. }
           lia.
        -- rewrite firstn_length. cbn [List.length]. rewrite app_length. lia.
Qed.
(** Whatever the bytes are: no byte beyond the end is read, there is a result, and it is not longer than the text. *)
Theorem C61_any : forall s, exists r, deburr s = Some r /\ (List.length r <= List.length s)%nat.
Proof.
  intros s. destruct (run_any (List.length (cstr s)) (cstr s) (le_n _)) as (r & E & B). exists r. split; [exact E|].
  assert (L : forall s, (List.length (cstr s) <= List.length s)%nat) by (induction s0 as [|c s0 I]; cbn [cstr List.length]; [lia|]; destruct (Ascii.eqb c NUL); cbn [List.length]; lia).
  specialize (L s). lia.
Qed.
Print Assumptions C61_any.
(** In SQL: NULL gives NULL, everything else gives a text. *)
Theorem C61_sql : forall v, sql_deburr v = Some None <-> v = None.
Proof.
  intros [s|]; cbn [sql_deburr]; [|split; reflexivity]. destruct (C61_any s) as (r & -> & _). cbn [option_map]. split; intros H; discriminate.
Qed.
Print Assumptions C61_sql.

(** ** It is so *)
(** Creme brulee with its accents, the second one as a combining mark; and a pizza. *)
Definition creme : text := [67; 114; 232; 109; 101; 32; 98; 114; 117; 770; 108; 233; 101; 32; 127829].
Example creme_shown : deburr (utf8 creme) = Some (lit "Creme brulee " ++ utf8 [127829]).
Proof. vm_compute. reflexivity. Qed.
Example creme_characters : Forall character creme /\ forallb (fun v => negb (missed v)) creme = true.
Proof. split; [repeat constructor; unfold character, code_point; lia|reflexivity]. Qed.
Example creme_other : deburr (utf8 [67; 114; 101; 768; 109; 101]) = deburr (utf8 [67; 114; 101; 109; 101]) /\ deburr (utf8 [67; 114; 232; 109; 101]) = Some (lit "Creme").
Proof. vm_compute. split; reflexivity. Qed.

(** ** What is not so *)
(** The header promises that the result is lower case and ASCII only, and that characters it has no letter for are dropped (SDeburr.h 20-25).
    The code does none of this: letters keep their case and other characters stay as they are.  A search that relies on it finds STRASSE
    and strasse different. *)
Theorem C61_lower_refuted : deburr (lit "WARIO") = Some (lit "WARIO") /\ deburr (utf8 [197]) = Some (lit "A") /\ deburr (utf8 [26481; 20140]) = Some (utf8 [26481; 20140]).
Proof. vm_compute. repeat split; reflexivity. Qed.
(** Letters of Latin Extended-A are missing from the table.  All of G and H with accents (U+011C to U+0127, among them the Turkish soft g) and
    the small d with caron are left as they are, and the capital D with stroke becomes a small d, because the list of the small letters
    names U+0110 where it should name U+010F (SDeburr.h 98). *)
Theorem C61_missed_refuted : forall v, missed v = true -> letter v <> None /\
  deburr (utf8 [v]) = Some (if v =? 272 then lit "d" else utf8 [v]) /\ letter 272 = Some (lit "D").
Proof.
  intros v M. assert (R : 192 <= v <= 383) by (unfold missed in M; lia).
  pose proof (by_range (fun v => negb (missed v) || (negb (same_entry (letter v) None) && same_entry (deburr (utf8 [v])) (Some (if v =? 272 then lit "d" else utf8 [v]))))
    ltac:(vm_compute; reflexivity) v R) as A. cbv beta in A. rewrite M in A. cbn [negb orb] in A. apply andb_prop in A as [A B].
  split; [intros E; rewrite E in A; discriminate|]. split; [apply same_entry_eq; exact B|reflexivity].
Qed.
(** Bytes that are not UTF-8 are dropped in some places and kept in others: of the bytes C3 FF only the second goes, and applied again the
    first goes too.  And an unfinished character can become a letter: E3 81, the beginning of any Hiragana character, is taken for U+00C1. *)
Theorem C61_malformed_refuted :
  deburr ["195"; "255"]%char = Some ["195"]%char /\ deburr ["195"]%char = Some [] /\ deburr ["227"; "129"; "x"]%char = Some (lit "Ax").
Proof. vm_compute. repeat split; reflexivity. Qed.
(** A text ends at its first NUL: DEBURR('a' || char(0) || 'b') is 'a', although SQL texts can hold NULs. *)
Theorem C61_nul_refuted : forall a b, deburr (a ++ NUL :: b) = deburr a.
Proof.
  intros a b. unfold deburr. replace (cstr (a ++ NUL :: b)) with (cstr a); [reflexivity|]. induction a as [|c a IH]; [reflexivity|].
  cbn [app cstr]. rewrite IH. reflexivity.
Qed.
