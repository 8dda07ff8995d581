(** Proofs about the text codecs. *)
From Verif Require Import Base Dec Text_Spec Text_Model.
Local Open Scope N_scope.

(** Lift a boolean fact about all bytes. *)
Ltac by_bytes c :=
  revert c; match goal with |- forall c, @?P c => idtac end.

Lemma implb_forall (p q : ascii -> bool) :
  forallb (fun c => implb (p c) (q c)) all_ascii = true -> forall c, p c = true -> q c = true.
Proof.
  intros H c Hp. pose proof (forall_ascii _ H c) as G. cbn in G. rewrite Hp in G. exact G.
Qed.

(** Lift a fact about all pairs of hexadecimal digits. *)
Definition hex_chars : bytes := filter is_hex all_ascii.
Lemma forall_hex2 f : forallb (fun a => forallb (f a) hex_chars) hex_chars = true ->
  forall a b, is_hex a = true -> is_hex b = true -> f a b = true.
Proof.
  assert (I : forall c, is_hex c = true -> In c hex_chars).
  { intros c H. apply filter_In. split; [|exact H]. apply all_ascii_complete. }
  intros H a b Ha Hb. rewrite forallb_forall in H. specialize (H a (I a Ha)).
  rewrite forallb_forall in H. exact (H b (I b Hb)).
Qed.

(** ** C strings *)
Lemma cstr_nul_free s : nul_free s -> cstr s = s.
Proof.
  unfold nul_free. induction s as [|c s IH]; intros H; [reflexivity|]. cbn.
  destruct (Ascii.eqb_spec c NUL) as [->|]; [exfalso; apply H; left; reflexivity|].
  rewrite IH; [reflexivity|]. intros Hi. apply H. right; exact Hi.
Qed.
Lemma cstr_is_nul_free s : nul_free (cstr s).
Proof.
  unfold nul_free. induction s as [|c s IH]; cbn; [easy|].
  destruct (Ascii.eqb_spec c NUL) as [->|]; [easy|]. intros [H|H]; [congruence|contradiction].
Qed.

(** ** Hexadecimal *)
Lemma hexval_spec c : hexval c = hex_digit_value c.
Proof.
  assert (H : forall c, (match hexval c, hex_digit_value c with
            | Some a, Some b => N.eqb a b | None, None => true | _, _ => false end) = true).
  { apply forall_ascii. vm_compute. reflexivity. }
  specialize (H c). destruct (hexval c), (hex_digit_value c); try discriminate; [|reflexivity].
  apply N.eqb_eq in H. subst. reflexivity.
Qed.

Lemma hex_digit_value_lt c d : hex_digit_value c = Some d -> d < 16.
Proof.
  intros H. pose proof (implb_forall (fun _ => true)
    (fun c => match hex_digit_value c with Some d => N.ltb d 16 | None => true end)) as G.
  specialize (G ltac:(vm_compute; reflexivity) c eq_refl). cbn in G. rewrite H in G. apply N.ltb_lt. exact G.
Qed.

Lemma hexchar_value d : d < 16 -> hex_digit_value (hexchar d) = Some d.
Proof.
  intros H. assert (G : forall n, (n < 16)%nat -> hex_digit_value (hexchar (N.of_nat n)) = Some (N.of_nat n)).
  { intros n Hn. do 16 (destruct n; [vm_compute; reflexivity|]). lia. }
  rewrite <- (N2Nat.id d). apply G. lia.
Qed.

Lemma from_hex_number l : forall acc, forallb is_hex l = true ->
  acc < 16 ^ N.of_nat (16 - List.length l) -> (List.length l <= 16)%nat ->
  from_hex acc l = hex_number acc l.
Proof.
  induction l as [|c l IH]; intros acc HF Hacc Hl; [reflexivity|].
  cbn [forallb] in HF. apply andb_true_iff in HF as [Hc HF]. unfold is_hex in Hc. cbn [from_hex hex_number].
  rewrite hexval_spec. destruct (hex_digit_value c) as [d|] eqn:Ed; [|discriminate].
  pose proof (hex_digit_value_lt _ _ Ed). cbn [List.length] in *.
  replace (16 - List.length l)%nat with (S (16 - S (List.length l))) in IH by lia.
  rewrite Nat2N.inj_succ, N.pow_succ_r' in IH.
  assert (Hp : 16 * 16 ^ N.of_nat (16 - S (List.length l)) <= 18446744073709551616).
  { rewrite <- N.pow_succ_r'. change 18446744073709551616 with (16 ^ 16). apply N.pow_le_mono_r; lia. }
  rewrite N.mod_small by (generalize dependent (16 ^ N.of_nat (16 - S (List.length l))); intros; lia).
  rewrite IH; [f_equal; lia|assumption| |lia].
  generalize dependent (16 ^ N.of_nat (16 - S (List.length l))). intros; lia.
Qed.

(** A trailing invalid character is harmless as long as there are at most 15 digits. *)
Lemma from_hex_stop l : forall acc c r, forallb is_hex l = true -> is_hex c = false ->
  acc < 16 ^ N.of_nat (15 - List.length l) -> (List.length l <= 15)%nat ->
  from_hex acc (l ++ c :: r) = hex_number acc l.
Proof.
  induction l as [|x l IH]; intros acc c r HF Hc Hacc Hl.
  - cbn [app from_hex hex_number]. rewrite hexval_spec. unfold is_hex in Hc.
    destruct (hex_digit_value c); [discriminate|]. change (N.of_nat (15 - List.length [])) with 15 in Hacc.
    change (16 ^ 15) with 1152921504606846976 in Hacc. rewrite N.mod_small by lia. apply N.div_mul. lia.
  - cbn [forallb app] in *. apply andb_true_iff in HF as [Hx HF]. unfold is_hex in Hx. cbn [from_hex hex_number].
    rewrite hexval_spec. destruct (hex_digit_value x) as [d|] eqn:Ed; [|discriminate].
    pose proof (hex_digit_value_lt _ _ Ed). cbn [List.length] in *.
    replace (15 - List.length l)%nat with (S (15 - S (List.length l))) in IH by lia.
    rewrite Nat2N.inj_succ, N.pow_succ_r' in IH.
    assert (Hp : 16 * 16 ^ N.of_nat (15 - S (List.length l)) <= 18446744073709551616).
    { rewrite <- N.pow_succ_r'. change 18446744073709551616 with (16 ^ 16). apply N.pow_le_mono_r; lia. }
    rewrite N.mod_small by (generalize dependent (16 ^ N.of_nat (15 - S (List.length l))); intros; lia).
    rewrite IH; [f_equal; lia|assumption|assumption| |lia].
    generalize dependent (16 ^ N.of_nat (15 - S (List.length l))). intros; lia.
Qed.

Lemma to_hex_num_spec d : forall v acc,
  exists l, to_hex_num v d acc = l ++ acc /\ List.length l = d /\ forallb is_hex l = true /\
            (forall a, hex_number a l = a * 16 ^ N.of_nat d + v mod 16 ^ N.of_nat d).
Proof.
  induction d as [|d IH]; intros v acc; cbn [to_hex_num].
  - exists []. repeat split; try reflexivity. intros a. cbn [hex_number]. change (N.of_nat 0) with 0.
    rewrite N.pow_0_r, N.mod_1_r. lia.
  - destruct (IH (v / 16) (hexchar (v mod 16) :: acc)) as (l & E & L & F & V).
    assert (Hm : v mod 16 < 16) by (apply N.mod_lt; lia).
    exists (l ++ [hexchar (v mod 16)]). split; [rewrite E, <- app_assoc; reflexivity|].
    split; [rewrite app_length, L; cbn; lia|]. split.
    { rewrite forallb_app, F. cbn. unfold is_hex. rewrite hexchar_value by assumption. reflexivity. }
    intros a. assert (A : forall l1 l2 x, hex_number x (l1 ++ l2) = hex_number (hex_number x l1) l2).
    { induction l1; intros; [reflexivity|]. cbn. apply IHl1. }
    rewrite A, V. cbn [hex_number]. rewrite hexchar_value by assumption.
    rewrite Nat2N.inj_succ, N.pow_succ_r'.
    rewrite (N.mod_mul_r v 16 (16 ^ N.of_nat d)) by (try lia; apply N.pow_nonzero; lia).
    generalize (16 ^ N.of_nat d), ((v / 16) mod 16 ^ N.of_nat d). intros; lia.
Qed.

Lemma hex_byte_roundtrip c : strtol16_2 [hexchar (bcode c / 16); hexchar (bcode c mod 16)] = c.
Proof.
  apply Ascii.eqb_eq.
  apply (forall_ascii (fun c => Ascii.eqb (strtol16_2 [hexchar (bcode c / 16); hexchar (bcode c mod 16)]) c)).
  vm_compute. reflexivity.
Qed.

Lemma SStrFromHex_SToHexS s : SStrFromHex (SToHexS s) = s.
Proof.
  unfold SToHexS. induction s as [|c s IH]; [reflexivity|]. cbn [flat_map app SStrFromHex].
  rewrite hex_byte_roundtrip, IH. reflexivity.
Qed.

Lemma hex_pair_roundtrip a b : is_hex a = true -> is_hex b = true ->
  [hexchar (bcode (strtol16_2 [a; b]) / 16); hexchar (bcode (strtol16_2 [a; b]) mod 16)] = [upper a; upper b].
Proof.
  intros Ha Hb.
  pose proof (forall_hex2 (fun a b =>
    bytes_eqb [hexchar (bcode (strtol16_2 [a; b]) / 16); hexchar (bcode (strtol16_2 [a; b]) mod 16)] [upper a; upper b])) as G.
  specialize (G ltac:(vm_compute; reflexivity) a b Ha Hb). cbn beta in G.
  apply bytes_eqb_eq in G. exact G.
Qed.

Lemma SToHexS_SStrFromHex : forall n h, List.length h = (2 * n)%nat -> forallb is_hex h = true ->
  SToHexS (SStrFromHex h) = map upper h.
Proof.
  induction n as [|n IH]; intros h Hl HF.
  - destruct h; [reflexivity|discriminate].
  - destruct h as [|a [|b h]]; cbn in Hl; try lia. cbn [forallb] in HF.
    apply andb_true_iff in HF as [Ha HF]. apply andb_true_iff in HF as [Hb HF].
    cbn [SStrFromHex map]. unfold SToHexS. cbn [flat_map]. fold (SToHexS (SStrFromHex h)).
    rewrite hex_pair_roundtrip by assumption. cbn [app]. rewrite IH by (try assumption; lia). reflexivity.
Qed.

(** ** Constant-time comparison *)
Lemma ct_loop_spec secret input : forall i eq cnt,
  ct_loop secret input i eq cnt =
  (eq && forallb (fun p => Ascii.eqb (fst p) (snd p))
          (combine secret (map (fun k => nth (Nat.modulo k (List.length input)) input NUL) (seq i (List.length secret)))),
   (cnt + List.length secret)%nat).
Proof.
  induction secret as [|c s IH]; intros i eq cnt; cbn [ct_loop List.length seq map combine forallb].
  - rewrite andb_true_r, Nat.add_0_r. reflexivity.
  - rewrite IH. cbn [fst snd]. rewrite andb_assoc. f_equal. lia.
Qed.

Lemma combine_eq_all (a b : bytes) : List.length a = List.length b ->
  forallb (fun p => Ascii.eqb (fst p) (snd p)) (combine a b) = true <-> a = b.
Proof.
  revert b; induction a as [|x a IH]; intros [|y b] H; cbn in *; try discriminate; [easy|].
  rewrite andb_true_iff, Ascii.eqb_eq, IH by lia. split; [intros [-> ->]; reflexivity|intros [= -> ->]; auto].
Qed.

Lemma nth_seq_id (input : bytes) :
  map (fun k => nth (Nat.modulo k (List.length input)) input NUL) (seq 0 (List.length input)) = input.
Proof.
  transitivity (map (fun k => nth k input NUL) (seq 0 (List.length input))).
  - apply map_ext_in. intros k Hk. apply in_seq in Hk. rewrite Nat.mod_small by lia. reflexivity.
  - induction input as [|c l IH]; [reflexivity|]. cbn [List.length seq map nth]. f_equal.
    rewrite <- seq_shift, map_map. exact IH.
Qed.

Lemma ct_equals_correct secret input : fst (ct_equals secret input) = true <-> secret = input.
Proof.
  unfold ct_equals. destruct (List.length secret =? List.length input)%nat eqn:El.
  - apply Nat.eqb_eq in El. destruct secret as [|c s], input as [|d t]; cbn in El; try discriminate; cbn [Bool.eqb negb]; [easy|].
    rewrite ct_loop_spec. cbn [fst andb]. assert (El' : List.length (c :: s) = List.length (d :: t)) by exact El.
    rewrite El'. rewrite nth_seq_id. apply combine_eq_all. exact El'.
  - split.
    + destruct (negb _); [discriminate|]. rewrite ct_loop_spec. cbn. discriminate.
    + intros ->. rewrite Nat.eqb_refl in El. discriminate.
Qed.

(** ** Escaping *)
Definition special (c : ascii) : bool := in_set c (lit "bfnrtu").

Lemma u_scan c : bcode c <> 0 -> (bcode c < 32 \/ bcode c = 127) -> utf8_expand (scan_x (tl (u_code c))) = [c].
Proof.
  intros H1 H2.
  pose proof (implb_forall (fun c => negb (N.eqb (bcode c) 0) && (N.ltb (bcode c) 32 || N.eqb (bcode c) 127))
     (fun c => bytes_eqb (utf8_expand (scan_x (tl (u_code c)))) [c])) as G.
  specialize (G ltac:(vm_compute; reflexivity) c). cbn beta in G. apply bytes_eqb_eq. apply G.
  apply andb_true_iff. split; [apply negb_true_iff, N.eqb_neq; exact H1|].
  apply orb_true_iff. destruct H2; [left; apply N.ltb_lt|right; apply N.eqb_eq]; assumption.
Qed.

Lemma unescape_escaped e c rest : c <> NUL -> special c = false ->
  unescape e (e :: escape_char c ++ rest) = c :: unescape e rest.
Proof.
  intros Hn Hs. unfold escape_char.
  destruct (Ascii.eqb_spec c "008"); [subst; cbn [app unescape]; rewrite Ascii.eqb_refl; reflexivity|].
  destruct (Ascii.eqb_spec c "012"); [subst; cbn [app unescape]; rewrite Ascii.eqb_refl; reflexivity|].
  destruct (Ascii.eqb_spec c "010"); [subst; cbn [app unescape]; rewrite Ascii.eqb_refl; reflexivity|].
  destruct (Ascii.eqb_spec c "013"); [subst; cbn [app unescape]; rewrite Ascii.eqb_refl; reflexivity|].
  destruct (Ascii.eqb_spec c "009"); [subst; cbn [app unescape]; rewrite Ascii.eqb_refl; reflexivity|].
  destruct (_ || _) eqn:E.
  - assert (Hc : bcode c <> 0 /\ (bcode c < 32 \/ bcode c = 127)).
    { apply orb_true_iff in E as [E|E].
      - apply andb_true_iff in E as [E1 E2]. apply N.ltb_lt in E1, E2. lia.
      - apply N.eqb_eq in E. lia. }
    destruct Hc as [Hc1 Hc2]. pose proof (u_scan c Hc1 Hc2) as U.
    unfold u_code in *. cbn [tl app] in *.
    cbn [unescape]. rewrite Ascii.eqb_refl. cbn [Ascii.eqb Bool.eqb].
    rewrite U. reflexivity.
  - cbn [app unescape]. rewrite Ascii.eqb_refl. unfold special, in_set in Hs. cbn in Hs.
    repeat (apply orb_false_iff in Hs as [? Hs]).
    repeat match goal with H : Ascii.eqb c _ = false |- _ => rewrite H; clear H end. reflexivity.
Qed.

Lemma unescape_plain e c rest : c <> e -> unescape e (c :: rest) = c :: unescape e rest.
Proof. intros H. cbn [unescape]. destruct (Ascii.eqb_spec c e); [contradiction|reflexivity]. Qed.

Lemma unescape_escape s unsafe e :
  (forall c, In c unsafe -> special c = false) -> special e = false -> nul_free s ->
  unescape e (escape s unsafe e) = s.
Proof.
  intros Hu He. induction s as [|c s IH]; intros Hn; [reflexivity|].
  assert (Hc : c <> NUL) by (intros ->; apply Hn; left; reflexivity).
  assert (Hs : nul_free s) by (intros Hi; apply Hn; right; exact Hi).
  cbn [escape]. destruct (in_set c unsafe) eqn:E1; cbn [orb].
  - rewrite <- app_comm_cons. rewrite unescape_escaped, IH; auto.
    apply Hu. unfold in_set in E1. apply existsb_exists in E1 as (x & Hx & Ex). apply Ascii.eqb_eq in Ex. subst. exact Hx.
  - destruct (Ascii.eqb_spec c e) as [->|Hce].
    + rewrite <- app_comm_cons. rewrite unescape_escaped, IH; auto.
    + cbn [app]. rewrite unescape_plain, IH; auto.
Qed.

(** Escaped text has no NUL and the escaper is only followed by something. *)
Lemma hexchar_lc_not_nul d : d < 16 -> hexchar_lc d <> NUL.
Proof.
  intros H. assert (G : forall n, (n < 16)%nat -> Ascii.eqb (hexchar_lc (N.of_nat n)) NUL = false).
  { intros n Hn. do 16 (destruct n; [vm_compute; reflexivity|]). lia. }
  specialize (G (N.to_nat d) ltac:(lia)). rewrite N2Nat.id in G. intros E. rewrite E in G. discriminate.
Qed.
Lemma bcode_lt c : bcode c < 256.
Proof. unfold bcode. apply N_ascii_bounded. Qed.

Lemma escape_char_nul_free c : c <> NUL -> nul_free (escape_char c).
Proof.
  intros Hc. unfold escape_char, nul_free. pose proof (bcode_lt c).
  repeat (case_if; [cbn; intros [|[]]; discriminate|]).
  case_if.
  - unfold u_code. cbn [In]. intros [Hx|[Hx|[Hx|[Hx|[Hx|[]]]]]]; try discriminate; revert Hx;
      apply hexchar_lc_not_nul; [apply N.div_lt_upper_bound; lia|apply N.mod_lt; lia].
  - cbn. intros [|[]]. contradiction.
Qed.
Lemma escape_nul_free s unsafe e : nul_free s -> e <> NUL -> nul_free (escape s unsafe e).
Proof.
  intros Hs He. induction s as [|c s IH]; [exact Hs|]. cbn [escape]. intros Hi. apply in_app_iff in Hi as [Hi|Hi].
  - assert (Hc : c <> NUL) by (intros ->; apply Hs; left; reflexivity).
    destruct (_ || _); [destruct Hi as [Hi|Hi]; [contradiction|revert Hi; apply escape_char_nul_free; exact Hc]|].
    destruct Hi as [|[]]; contradiction.
  - revert Hi. apply IH. intros H. apply Hs. right. exact H.
Qed.

(** \uXXXX *)
Lemma below_forall (f : N -> bool) k : forallb f (map N.of_nat (seq 0 k)) = true -> forall x, x < N.of_nat k -> f x = true.
Proof.
  intros H x Hx. rewrite forallb_forall in H. apply H. apply in_map_iff. exists (N.to_nat x).
  split; [apply N2Nat.id|]. apply in_seq. lia.
Qed.
Lemma lor_high x : x < 64 -> N.lor 192 x = 192 + x /\ N.lor 128 x = 128 + x.
Proof.
  intros H. pose proof (below_forall (fun x => N.eqb (N.lor 192 x) (192 + x) && N.eqb (N.lor 128 x) (128 + x)) 64) as G.
  specialize (G ltac:(vm_compute; reflexivity) x H). cbn beta in G. apply andb_true_iff in G as [G1 G2].
  apply N.eqb_eq in G1, G2. auto.
Qed.
Lemma lor_high3 x : x < 16 -> N.lor 224 x = 224 + x.
Proof.
  intros H. pose proof (below_forall (fun x => N.eqb (N.lor 224 x) (224 + x)) 16) as G.
  specialize (G ltac:(vm_compute; reflexivity) x H). apply N.eqb_eq in G. auto.
Qed.
Lemma land63 v : N.land v 63 = v mod 64.
Proof. change 63 with (N.ones 6). rewrite N.land_ones. reflexivity. Qed.
Lemma utf8_expand_spec v : v < 65536 -> utf8_expand v = utf8_encoding v.
Proof.
  intros H. unfold utf8_expand, utf8_encoding. rewrite !land63, !N.shiftr_div_pow2.
  change (2 ^ 6) with 64. change (2 ^ 12) with 4096.
  assert (M : forall w, w mod 64 < 64) by (intros; apply N.mod_lt; lia).
  destruct (N.leb_spec v 127), (N.ltb_spec v 128); try lia; [reflexivity|].
  destruct (N.leb_spec v 2047), (N.ltb_spec v 2048); try lia.
  - assert (v / 64 < 64) by (apply N.div_lt_upper_bound; lia).
    rewrite (proj1 (lor_high (v / 64) ltac:(assumption))), (proj2 (lor_high _ (M v))). reflexivity.
  - destruct (N.leb_spec v 65535); [|lia].
    assert (v / 4096 < 16) by (apply N.div_lt_upper_bound; lia).
    rewrite lor_high3 by assumption. rewrite (proj2 (lor_high _ (M v))), (proj2 (lor_high _ (M (v / 64)))). reflexivity.
Qed.

Lemma hex_prefix_number l : forall acc, forallb is_hex l = true -> hex_prefix acc l = hex_number acc l.
Proof.
  induction l as [|c l IH]; intros acc H; [reflexivity|]. cbn [forallb hex_prefix hex_number] in *.
  apply andb_true_iff in H as [H1 H2]. unfold is_hex in H1. rewrite hexval_spec.
  destruct (hex_digit_value c); [|discriminate]. apply IH. exact H2.
Qed.

Lemma hex_not_special c : is_hex c = true ->
  is_space c = false /\ c <> "-"%char /\ c <> "+"%char /\ Ascii.eqb c "x" = false /\ Ascii.eqb c "X" = false.
Proof.
  intros H.
  pose proof (implb_forall is_hex (fun c => negb (is_space c) && negb (Ascii.eqb c "-") && negb (Ascii.eqb c "+") && negb (Ascii.eqb c "x") && negb (Ascii.eqb c "X"))) as G.
  specialize (G ltac:(vm_compute; reflexivity) c H). cbn beta in G.
  repeat (apply andb_true_iff in G as [G ?]).
  repeat match goal with H : negb _ = true |- _ => apply negb_true_iff in H end.
  repeat split; try assumption; apply Ascii.eqb_neq; assumption.
Qed.

Lemma scan_x_hex a1 a2 a3 a4 : forallb is_hex [a1; a2; a3; a4] = true ->
  scan_x [a1; a2; a3; a4] = hex_number 0 [a1; a2; a3; a4].
Proof.
  intros H. assert (H' := H). cbn [forallb] in H. repeat (apply andb_true_iff in H as [? H]).
  destruct (hex_not_special a1) as (S1 & M1 & P1 & _); [assumption|].
  destruct (hex_not_special a2) as (_ & _ & _ & X1 & X2); [assumption|].
  unfold scan_x. rewrite S1. rewrite <- (hex_prefix_number [a1; a2; a3; a4] 0 H').
  cbv zeta. rewrite X1, X2. cbn [orb].
  assert (Q : match a1 with
    | "0"%char => hex_prefix 0 [a1; a2; a3; a4] | _ => hex_prefix 0 [a1; a2; a3; a4] end = hex_prefix 0 [a1; a2; a3; a4]).
  { destruct a1 as [[] [] [] [] [] [] [] []]; reflexivity. }
  destruct a1 as [[] [] [] [] [] [] [] []]; try reflexivity; try (exfalso; apply M1; reflexivity); exfalso; apply P1; reflexivity.
Qed.

(** ** SQL quoting *)
Lemma sql_body_plain c l : c <> "'"%char -> c <> NUL ->
  sql_body (c :: l) = match sql_body l with Some (v, r) => Some (c :: v, r) | None => None end.
Proof.
  intros H1 H2. cbn [sql_body]. destruct (Ascii.eqb_spec c NUL); [contradiction|].
  destruct c as [[] [] [] [] [] [] [] []]; try reflexivity. exfalso; apply H1; reflexivity.
Qed.
Lemma sql_body_close rest : (forall r, rest <> "'"%char :: r) -> sql_body ("'"%char :: rest) = Some ([], rest).
Proof.
  intros H. cbn [sql_body]. destruct rest as [|c r]; [reflexivity|].
  destruct c as [[] [] [] [] [] [] [] []]; try reflexivity. exfalso; apply (H r); reflexivity.
Qed.

Lemma sql_body_escape s rest : nul_free s -> (forall r, rest <> "'"%char :: r) ->
  sql_body (escape s ["'"%char] "'" ++ "'"%char :: rest) = Some (s, rest).
Proof.
  intros Hs Hr. induction s as [|c s IH].
  - cbn [escape app]. apply sql_body_close. exact Hr.
  - assert (Hc : c <> NUL) by (intros ->; apply Hs; left; reflexivity).
    assert (Hs' : nul_free s) by (intros Hi; apply Hs; right; exact Hi). specialize (IH Hs').
    cbn [escape]. unfold in_set. cbn [existsb]. rewrite orb_false_r, orb_diag.
    destruct (Ascii.eqb_spec c "'") as [->|Hq].
    + change (escape_char "'") with ["'"%char]. cbn [app sql_body].
      cbn [app] in IH. rewrite IH. reflexivity.
    + cbn [app]. rewrite sql_body_plain, IH by assumption. reflexivity.
Qed.

Lemma sql_literal_SQ s rest : (forall r, rest <> "'"%char :: r) -> sql_literal (SQ s ++ rest) = Some (cstr s, rest).
Proof.
  intros Hr. unfold SQ, SEscape. cbn [app sql_literal]. rewrite <- app_assoc. cbn [app].
  apply sql_body_escape; [apply cstr_is_nul_free|exact Hr].
Qed.

(** ** Separated lists *)
Lemma fold_compose l : forall w sep, fold_left (fun w v => w ++ v ++ sep) l w = w ++ flat_map (fun v : bytes => v ++ sep) l.
Proof.
  induction l as [|v l IH]; intros w sep; cbn; [rewrite app_nil_r; reflexivity|].
  rewrite IH, <- app_assoc. reflexivity.
Qed.
(** Joining, as it is usually defined. *)
Fixpoint join (sep : bytes) (l : list bytes) : bytes :=
  match l with [] => [] | [v] => v | v :: l' => v ++ sep ++ join sep l' end.
Lemma flat_map_join sep v l : flat_map (fun v : bytes => v ++ sep) (v :: l) = join sep (v :: l) ++ sep.
Proof.
  revert v. induction l as [|w l IH]; intros v; [cbn; rewrite app_nil_r; reflexivity|].
  change (flat_map (fun v : bytes => v ++ sep) (v :: w :: l)) with ((v ++ sep) ++ flat_map (fun v : bytes => v ++ sep) (w :: l)).
  rewrite IH. change (join sep (v :: w :: l)) with (v ++ sep ++ join sep (w :: l)). rewrite <- !app_assoc. reflexivity.
Qed.
Lemma SComposeList_join l sep : SComposeList l sep = join sep l.
Proof.
  unfold SComposeList. destruct l as [|v l]; [reflexivity|]. cbv zeta. rewrite fold_compose, app_nil_l, flat_map_join.
  rewrite app_length, Nat.add_sub, firstn_app, Nat.sub_diag, firstn_all. cbn. apply app_nil_r.
Qed.

Lemma parse_component sep s : forall comp acc rest, ~ In sep s -> comp <> [] ->
  parse_list (s ++ rest) sep comp acc = parse_list rest sep (comp ++ s) acc.
Proof.
  induction s as [|c s IH]; intros comp acc rest Hs Hc; [rewrite app_nil_r; reflexivity|].
  cbn [app parse_list]. destruct comp as [|x comp]; [contradiction|].
  destruct (Ascii.eqb_spec c sep) as [->|]; [exfalso; apply Hs; left; reflexivity|].
  rewrite IH; [rewrite <- app_assoc; reflexivity|intros H; apply Hs; right; exact H|discriminate].
Qed.
Lemma parse_element sep s acc rest : list_element sep s ->
  parse_list (s ++ rest) sep [] acc = parse_list rest sep s acc.
Proof.
  intros (H1 & H2 & H3 & _). destruct s as [|c s]; [contradiction|]. cbn [app parse_list].
  destruct (Ascii.eqb_spec c " ") as [->|]; [exfalso; apply (H2 s); reflexivity|].
  destruct (Ascii.eqb_spec c sep) as [->|]; [exfalso; apply H3; left; reflexivity|].
  rewrite parse_component; [reflexivity|intros H; apply H3; right; exact H|discriminate].
Qed.
Lemma parse_spaces sep k acc rest : parse_list (repeat " "%char k ++ rest) sep [] acc = parse_list rest sep [] acc.
Proof. induction k as [|k IH]; [reflexivity|]. cbn [repeat app parse_list]. rewrite Ascii.eqb_refl. exact IH. Qed.

Lemma parse_join sep k l : forall acc, Forall (list_element sep) l ->
  fst (parse_list (join (sep :: repeat " "%char k) l) sep [] acc) = acc ++ l.
Proof.
  induction l as [|v l IH]; intros acc HF; [cbn; rewrite app_nil_r; reflexivity|].
  inversion HF as [|? ? Hv HF']; subst. destruct l as [|w l].
  - cbn [join]. rewrite <- (app_nil_r v) at 1. rewrite parse_element by exact Hv.
    destruct v; [destruct Hv; contradiction|]. reflexivity.
  - change (join (sep :: repeat " "%char k) (v :: w :: l)) with (v ++ (sep :: repeat " "%char k) ++ join (sep :: repeat " "%char k) (w :: l)).
    rewrite parse_element by exact Hv. cbn [app parse_list].
    destruct v as [|c v]; [destruct Hv; contradiction|]. rewrite Ascii.eqb_refl, parse_spaces.
    rewrite IH by exact HF'. rewrite <- app_assoc. reflexivity.
Qed.

Lemma nul_free_app a b : nul_free a -> nul_free b -> nul_free (a ++ b).
Proof. unfold nul_free. intros H1 H2 Hi. apply in_app_iff in Hi as [|]; contradiction. Qed.
Lemma join_nul_free sep l : nul_free sep -> Forall nul_free l -> nul_free (join sep l).
Proof.
  intros Hs. induction l as [|v l IH]; intros HF; [easy|]. inversion HF; subst.
  destruct l as [|w l]; [assumption|]. apply nul_free_app; [assumption|]. apply nul_free_app; [assumption|]. auto.
Qed.

(** What a parse can return. *)
Definition list_component (sep : ascii) (s : bytes) : Prop :=
  s = [] \/ list_element sep s.
Lemma parse_elements sep s : forall comp acc, nul_free s -> list_component sep comp -> Forall (list_element sep) acc ->
  Forall (list_element sep) (fst (parse_list s sep comp acc)).
Proof.
  induction s as [|c s IH]; intros comp acc Hs Hc Ha; cbn [parse_list].
  - destruct comp; [exact Ha|]. cbn. apply Forall_app. split; [exact Ha|]. destruct Hc as [|Hc]; [discriminate|auto].
  - assert (Hcn : c <> NUL) by (intros ->; apply Hs; left; reflexivity).
    assert (Hs' : nul_free s) by (intros Hi; apply Hs; right; exact Hi).
    destruct comp as [|x comp].
    + destruct (Ascii.eqb_spec c " "); [apply IH; auto; left; reflexivity|].
      destruct (Ascii.eqb_spec c sep); [apply IH; auto; left; reflexivity|].
      apply IH; auto. right. repeat split; try discriminate.
      * intros r [= E _]. contradiction.
      * intros [|[]]; contradiction.
      * intros [|[]]; contradiction.
    + destruct Hc as [|Hc]; [discriminate|].
      destruct (Ascii.eqb_spec c sep).
      * apply IH; auto; [left; reflexivity|]. apply Forall_app. auto.
      * apply IH; auto. right. destruct Hc as (H1 & H2 & H3 & H4). repeat split; try discriminate.
        -- intros r [= E _]. apply (H2 comp). subst. reflexivity.
        -- intros Hi. apply in_app_iff in Hi as [Hi|[|[]]]; contradiction.
        -- apply nul_free_app; [exact H4|]. intros [|[]]; contradiction.
Qed.

(** ** URI components *)
Lemma encode_uri_char_cases c :
  (exists x, encode_uri_char c = [x] /\ x <> "%"%char /\ (if Ascii.eqb x "+" then " "%char else x) = c) \/
  (exists h1 h2, encode_uri_char c = ["%"%char; h1; h2] /\
     exists a b, hexval h1 = Some a /\ hexval h2 = Some b /\ ascii_of_N (N.lor (N.shiftl a 4) b) = c).
Proof.
  assert (G : (match encode_uri_char c with
    | [x] => negb (Ascii.eqb x "%") && Ascii.eqb (if Ascii.eqb x "+" then " "%char else x) c
    | [p; h1; h2] => Ascii.eqb p "%" && match hexval h1, hexval h2 with
          | Some a, Some b => Ascii.eqb (ascii_of_N (N.lor (N.shiftl a 4) b)) c | _, _ => false end
    | _ => false end) = true).
  { apply (forall_ascii (fun c => match encode_uri_char c with
    | [x] => negb (Ascii.eqb x "%") && Ascii.eqb (if Ascii.eqb x "+" then " "%char else x) c
    | [p; h1; h2] => Ascii.eqb p "%" && match hexval h1, hexval h2 with
          | Some a, Some b => Ascii.eqb (ascii_of_N (N.lor (N.shiftl a 4) b)) c | _, _ => false end
    | _ => false end)). vm_compute. reflexivity. }
  destruct (encode_uri_char c) as [|x [|h1 [|h2 [|y r]]]]; try discriminate.
  - left. exists x. apply andb_true_iff in G as [G1 G2]. apply negb_true_iff, Ascii.eqb_neq in G1. apply Ascii.eqb_eq in G2. auto.
  - right. apply andb_true_iff in G as [G1 G2]. apply Ascii.eqb_eq in G1. subst.
    destruct (hexval h1) as [a|] eqn:E1; [|discriminate]. destruct (hexval h2) as [b|] eqn:E2; [|discriminate].
    apply Ascii.eqb_eq in G2. exists h1, h2. split; [reflexivity|]. exists a, b. auto.
Qed.

Lemma decode_encoded c rest :
  decode_uri_char (encode_uri_char c ++ rest) = ([c], List.length (encode_uri_char c)).
Proof.
  destruct (encode_uri_char_cases c) as [(x & E & Hx & Hc)|(h1 & h2 & E & a & b & H1 & H2 & Hc)]; rewrite E.
  - cbn [app decode_uri_char List.length]. apply Ascii.eqb_neq in Hx.
    assert (Q : (if Ascii.eqb x "+" then [" "%char] else [x]) = [c]).
    { rewrite <- Hc. destruct (Ascii.eqb x "+"); reflexivity. }
    destruct rest as [|r1 [|r2 rest]]; rewrite ?Hx; cbn [negb]; rewrite Q; reflexivity.
  - cbn [app decode_uri_char List.length]. rewrite Ascii.eqb_refl, H1, H2, Hc. reflexivity.
Qed.
Lemma encode_uri_char_nonempty c : exists x r, encode_uri_char c = x :: r.
Proof. destruct (encode_uri_char_cases c) as [(x & E & _)|(h1 & h2 & E & _)]; rewrite E; eauto. Qed.

Lemma decode_uri_encode s : forall fuel, (List.length (SEncodeURIComponent s) <= fuel)%nat ->
  decode_uri fuel (SEncodeURIComponent s) = s.
Proof.
  unfold SEncodeURIComponent. induction s as [|c s IH]; intros fuel Hf; [destruct fuel; reflexivity|].
  cbn [flat_map] in *. destruct (encode_uri_char_nonempty c) as (x & r & E).
  rewrite app_length in Hf. rewrite E in Hf. cbn [List.length] in Hf. destruct fuel as [|fuel]; [lia|].
  assert (D : decode_uri (S fuel) (encode_uri_char c ++ flat_map encode_uri_char s) =
          (let (o, n) := decode_uri_char (encode_uri_char c ++ flat_map encode_uri_char s) in
           o ++ decode_uri fuel (skipn n (encode_uri_char c ++ flat_map encode_uri_char s)))).
  { rewrite E. reflexivity. }
  rewrite D, decode_encoded. rewrite skipn_app, skipn_all, Nat.sub_diag. cbn [app skipn]. rewrite IH by lia. reflexivity.
Qed.

Lemma encode_safe s : forallb uri_safe (SEncodeURIComponent s) = true.
Proof.
  unfold SEncodeURIComponent. induction s as [|c s IH]; [reflexivity|]. cbn [flat_map]. rewrite forallb_app, IH, andb_true_r.
  apply (forall_ascii (fun c => forallb uri_safe (encode_uri_char c))). vm_compute. reflexivity.
Qed.

Lemma decode_until_encode stop s : uri_safe stop = false -> forall fuel out rest,
  (List.length (SEncodeURIComponent s ++ rest) <= fuel)%nat -> (rest = [] \/ exists r, rest = stop :: r) ->
  decode_until fuel stop (SEncodeURIComponent s ++ rest) out = (out ++ s, rest).
Proof.
  intros Hst. unfold SEncodeURIComponent. induction s as [|c s IH]; intros fuel out rest Hf Hr.
  - cbn [flat_map app List.length] in *. rewrite app_nil_r.
    destruct Hr as [->|[r ->]]; [destruct fuel; reflexivity|]. cbn in Hf. destruct fuel as [|fuel]; [lia|].
    cbn [decode_until]. rewrite Ascii.eqb_refl. reflexivity.
  - cbn [flat_map] in *. destruct (encode_uri_char_nonempty c) as (x & r & E).
    pose proof (encode_safe [c]) as Hsafe. unfold SEncodeURIComponent in Hsafe. cbn [flat_map] in Hsafe.
    rewrite app_nil_r, E in Hsafe. cbn [forallb] in Hsafe. apply andb_true_iff in Hsafe as [Hx _].
    assert (Hxs : Ascii.eqb x stop = false).
    { apply Ascii.eqb_neq. intros ->. congruence. }
    rewrite <- app_assoc in *.
    set (tl := flat_map encode_uri_char s ++ rest) in *.
    rewrite app_length in Hf. rewrite E in Hf. cbn [List.length] in Hf. destruct fuel as [|fuel]; [lia|].
    assert (D : decode_until (S fuel) stop (encode_uri_char c ++ tl) out =
       (let (o, n) := decode_uri_char (encode_uri_char c ++ tl) in decode_until fuel stop (skipn n (encode_uri_char c ++ tl)) (out ++ o))).
    { rewrite E. cbn [app decode_until]. rewrite Hxs. reflexivity. }
    rewrite D, decode_encoded, skipn_app, skipn_all, Nat.sub_diag. cbn [app skipn]. subst tl.
    rewrite IH by (try assumption; lia). rewrite <- app_assoc. reflexivity.
Qed.

Lemma encode_empty s : SEncodeURIComponent s = [] -> s = [].
Proof.
  destruct s as [|c s]; [reflexivity|]. unfold SEncodeURIComponent; cbn [flat_map].
  destruct (encode_uri_char_nonempty c) as (x & r & ->). discriminate.
Qed.

Definition encode_pair (p : bytes * bytes) : bytes :=
  SEncodeURIComponent (fst p) ++ "="%char :: SEncodeURIComponent (snd p).

Lemma parse_pairs_step fuel n v tail m :
  (tail = [] \/ exists r, tail = "&"%char :: r) ->
  parse_pairs (S fuel) (encode_pair (n, v) ++ tail) m = parse_pairs fuel (skipn 1 tail) (tset n v m).
Proof.
  intros Ht. unfold encode_pair. cbn [fst snd]. rewrite <- app_assoc. cbn [app].
  set (s0 := SEncodeURIComponent n ++ "="%char :: SEncodeURIComponent v ++ tail).
  assert (D : parse_pairs (S fuel) s0 m =
    (let (name, s1) := decode_until (List.length s0) "=" s0 [] in
      let s2 := skipn 1 s1 in
      let (value, s3) := decode_until (List.length s2) "&" s2 [] in
      parse_pairs fuel (skipn 1 s3) (tset name value m))).
  { subst s0. destruct (SEncodeURIComponent n); reflexivity. }
  rewrite D. clear D. subst s0.
  rewrite decode_until_encode; [|reflexivity|lia|right; eauto].
  cbn [app skipn]. cbv zeta.
  rewrite decode_until_encode; [reflexivity|reflexivity|lia|exact Ht].
Qed.

Lemma parse_pairs_encode l : forall fuel m,
  (List.length (join ["&"%char] (map encode_pair l)) <= fuel)%nat ->
  parse_pairs fuel (join ["&"%char] (map encode_pair l)) m = fold_left (fun m p => tset (fst p) (snd p) m) l m.
Proof.
  induction l as [|[n v] l IH]; intros fuel m Hf; [destruct fuel; reflexivity|].
  assert (Hne : forall p, (1 <= List.length (encode_pair p))%nat).
  { intros p. unfold encode_pair. rewrite app_length. cbn. lia. }
  destruct l as [|q l].
  - cbn [map join] in *. specialize (Hne (n, v)). destruct fuel as [|fuel]; [lia|].
    rewrite <- (app_nil_r (encode_pair (n, v))). rewrite parse_pairs_step by auto.
    cbn [skipn fold_left fst snd]. destruct fuel; reflexivity.
  - change (map encode_pair ((n, v) :: q :: l)) with (encode_pair (n, v) :: encode_pair q :: map encode_pair l) in *.
    change (join ["&"%char] (encode_pair (n, v) :: encode_pair q :: map encode_pair l))
      with (encode_pair (n, v) ++ "&"%char :: join ["&"%char] (map encode_pair (q :: l))) in *.
    rewrite app_length in Hf. cbn [List.length] in Hf. destruct fuel as [|fuel]; [lia|].
    rewrite parse_pairs_step by (right; eauto). cbn [skipn]. rewrite IH by lia. reflexivity.
Qed.

Lemma tset_fold_distinct l : forall m,
  NoDup (map (fun p => map lower (fst p)) (m ++ l)) ->
  fold_left (fun m p => tset (fst p) (snd p) m) l m = m ++ l.
Proof.
  induction l as [|[k v] l IH]; intros m Hn; [cbn; rewrite app_nil_r; reflexivity|].
  cbn [fold_left fst snd].
  assert (E : tset k v m = m ++ [(k, v)]).
  { rewrite map_app in Hn. cbn [map fst] in Hn. clear IH.
    assert (Hk : ~ In (map lower k) (map (fun p => map lower (fst p)) m)).
    { intros Hi. apply (NoDup_app_disj _ _ (map lower k) Hn Hi). left; reflexivity. }
    clear Hn. induction m as [|[k' v'] m IHm]; [reflexivity|]. cbn [tset app].
    unfold ieqb. destruct (bytes_eqb (map lower k') (map lower k)) eqn:Eq.
    - exfalso. apply Hk. apply bytes_eqb_eq in Eq. left. exact Eq.
    - rewrite IHm; [reflexivity|]. intros Hi. apply Hk. right. exact Hi. }
  rewrite E. rewrite IH; rewrite <- app_assoc; [reflexivity|exact Hn].
Qed.

Lemma SToInt64_range s : (-9223372036854775808 <= SToInt64 s <= 9223372036854775807)%Z.
Proof.
  unfold SToInt64. destruct (skip_space (cstr s)) as [|c r]; [cbn; lia|].
  assert (P : forall n : N, (-9223372036854775808 <= Z.min 9223372036854775807 (Z.of_N n) <= 9223372036854775807)%Z) by (intros; lia).
  assert (M : forall n : N, (-9223372036854775808 <= Z.max (-9223372036854775808) (- Z.of_N n) <= 9223372036854775807)%Z) by (intros; lia).
  destruct c as [[] [] [] [] [] [] [] []]; (apply P || apply M).
Qed.
