(** The parser reads every JSON text, and the composer writes JSON texts. *)
From Verif Require Import Base Dec Text_Spec Text_Model Text_Proofs Table Json_Spec Json_Model.
Local Open Scope N_scope.

(** ** White space and characters *)
Lemma skip_space_stop c s : is_space c = false -> skip_space (c :: s) = c :: s.
Proof. intros H. cbn [skip_space]. rewrite H. reflexivity. Qed.
Lemma ws_is_space w : json_ws w -> forall c, In c w -> is_space c = true.
Proof. intros H c Hc. specialize (H c Hc). cbn [In] in H. destruct H as [<-|[<-|[<-|[<-|[]]]]]; reflexivity. Qed.
Lemma skip_space_ws w s : json_ws w -> skip_space (w ++ s) = skip_space s.
Proof.
  intros H. pose proof (ws_is_space w H) as H'. clear H. induction w as [|c w IH]; [reflexivity|].
  cbn [app skip_space]. rewrite (H' c) by (left; reflexivity). apply IH. intros d Hd. apply H'. right. exact Hd.
Qed.
Lemma skip_space_all w : (forall c, In c w -> is_space c = true) -> skip_space w = [].
Proof.
  induction w as [|c w IH]; intros H; [reflexivity|]. cbn [skip_space]. rewrite (H c) by (left; reflexivity).
  apply IH. intros d Hd. apply H. right. exact Hd.
Qed.
Lemma skip_space_nonempty w c : In c w -> is_space c = false -> skip_space w <> [].
Proof.
  induction w as [|d w IH]; intros Hi Hc; [destruct Hi|]. cbn [skip_space].
  destruct (is_space d) eqn:E; [|discriminate]. destruct Hi as [->|Hi]; [congruence|auto].
Qed.
Lemma ws_nil : json_ws []. Proof. intros c []. Qed.

Lemma chars_nul_free s d : json_chars s d -> nul_free s.
Proof.
  assert (Hh : forall c, is_hex c = true -> c <> NUL) by (intros c Hc ->; discriminate).
  unfold nul_free. induction 1 as [|c s d H1 H2 H3 H IH|c x s d Hi H IH|a1 a2 a3 a4 s d H1 H2 H3 H4 H IH].
  - easy.
  - intros [->|Hx]; [|contradiction]. apply H1. reflexivity.
  - intros [Hx|[->|Hx]]; [discriminate| |contradiction].
    cbn [In] in Hi. repeat destruct Hi as [Hi|Hi]; discriminate || contradiction.
  - intros [Hx|[Hx|[->|[->|[->|[->|Hx]]]]]]; discriminate || contradiction.
Qed.
Lemma chars_scan s d r : json_chars s d -> scan_string (s ++ quote :: r) = Some (s, r).
Proof.
  intros H. pose proof (chars_nul_free s d H) as Hn. revert Hn.
  assert (Hh : forall c, is_hex c = true -> Ascii.eqb c NUL = false /\ Ascii.eqb c """" = false /\ Ascii.eqb c "\" = false).
  { intros c Hc. repeat split; destruct (Ascii.eqb_spec c NUL), (Ascii.eqb_spec c """"), (Ascii.eqb_spec c "\"); subst;
      try discriminate; reflexivity. }
  induction H as [|c s d H1 H2 H3 H IH|c x s d Hi H IH|a1 a2 a3 a4 s d H1 H2 H3 H4 H IH]; intros Hn.
  - reflexivity.
  - cbn [app scan_string].
    destruct (Ascii.eqb_spec c NUL); [exfalso; apply Hn; left; assumption|].
    destruct (Ascii.eqb_spec c """"); [contradiction|]. destruct (Ascii.eqb_spec c "\"); [contradiction|].
    rewrite IH; [reflexivity|]. intros Hx; apply Hn; right; exact Hx.
  - cbn [app scan_string]. change (Ascii.eqb backslash NUL) with false. change (Ascii.eqb backslash """") with false.
    change (Ascii.eqb backslash "\") with true. cbn iota.
    rewrite IH; [reflexivity|]. intros Hx; apply Hn; right; right; exact Hx.
  - cbn [app scan_string]. change (Ascii.eqb backslash NUL) with false. change (Ascii.eqb backslash """") with false.
    change (Ascii.eqb backslash "\") with true. cbn iota.
    destruct (Hh a1 H1) as (-> & -> & ->), (Hh a2 H2) as (-> & -> & ->), (Hh a3 H3) as (-> & -> & ->), (Hh a4 H4) as (-> & -> & ->).
    rewrite IH; [reflexivity|]. intros Hx; apply Hn; do 6 right; exact Hx.
Qed.
Lemma hex_number_4 a1 a2 a3 a4 : hex_number 0 [a1; a2; a3; a4] < 65536.
Proof.
  cbn [hex_number].
  assert (B : forall c, match hex_digit_value c with Some d => d | None => 0 end < 16).
  { intros c. unfold hex_digit_value. cbv zeta.
    repeat (case_if; [match goal with H : _ = true |- _ => apply andb_true_iff in H as [? ?] end;
                      repeat match goal with H : N.leb _ _ = true |- _ => apply N.leb_le in H end; lia|]). lia. }
  pose proof (B a1). pose proof (B a2). pose proof (B a3). pose proof (B a4). lia.
Qed.
Lemma chars_unescape s d : json_chars s d -> SUnescape s "\" = d.
Proof.
  intros H. unfold SUnescape. rewrite cstr_nul_free by (eapply chars_nul_free; exact H).
  induction H as [|c s d H1 H2 H3 H IH|c x s d Hi H IH|a1 a2 a3 a4 s d H1 H2 H3 H4 H IH].
  - reflexivity.
  - rewrite unescape_plain, IH by assumption. reflexivity.
  - cbn [In] in Hi. repeat destruct Hi as [Hi|Hi]; try contradiction; injection Hi as <- <-;
      cbn [unescape]; change (Ascii.eqb backslash "\") with true; cbn iota; rewrite IH; reflexivity.
  - cbn [unescape]. change (Ascii.eqb backslash "\") with true. cbn [Ascii.eqb Bool.eqb].
    rewrite IH, scan_x_hex by (cbn [forallb]; rewrite H1, H2, H3, H4; reflexivity).
    rewrite utf8_expand_spec by apply hex_number_4. reflexivity.
Qed.

(** ** Numbers *)
Definition boundary (r : bytes) : Prop :=
  is_digit (at0 r) = false /\ at0 r <> "."%char /\ at0 r <> "e"%char /\ at0 r <> "E"%char.
Lemma skip_digits_app ds r : (forall c, In c ds -> is_digit c = true) -> is_digit (at0 r) = false ->
  skip_digits (ds ++ r) = r.
Proof.
  intros H Hr. induction ds as [|c ds IH].
  - destruct r as [|c r]; [reflexivity|]. cbn [app skip_digits]. cbn [at0] in Hr. rewrite Hr. reflexivity.
  - cbn [app skip_digits]. rewrite (H c) by (left; reflexivity). apply IH. intros d Hd. apply H. right. exact Hd.
Qed.
Lemma at0_app s r : s <> [] -> at0 (s ++ r) = at0 s.
Proof. destruct s; [congruence|reflexivity]. Qed.
Lemma digit_not c (d : ascii) : is_digit c = true -> is_digit d = false -> Ascii.eqb c d = false.
Proof. intros H1 H2. destruct (Ascii.eqb_spec c d); [subst; congruence|reflexivity]. Qed.
Lemma all_digits_at0 ds r : all_digits ds -> is_digit (at0 (ds ++ r)) = true.
Proof. intros [H1 H2]. destruct ds as [|c ds]; [congruence|]. apply H2. left. reflexivity. Qed.
Lemma number_skip s r : json_number s -> boundary r -> skip_number (s ++ r) = r.
Proof.
  intros H (B1 & B2 & B3 & B4). destruct H as [sign int frac ex Hs [Hi1 Hi2] _ Hf He].
  unfold skip_number.
  assert (E0 : (if Ascii.eqb (at0 ((sign ++ int ++ frac ++ ex) ++ r)) "-" then tl ((sign ++ int ++ frac ++ ex) ++ r)
                else (sign ++ int ++ frac ++ ex) ++ r) = int ++ (frac ++ ex ++ r)).
  { destruct Hs as [-> | ->].
    - cbn [app]. rewrite <- !app_assoc. rewrite (digit_not _ "-"); [reflexivity|apply all_digits_at0; split; assumption|reflexivity].
    - cbn. rewrite <- !app_assoc. reflexivity. }
  rewrite E0. clear E0.
  assert (Eex : is_digit (at0 (ex ++ r)) = false /\ at0 (ex ++ r) <> "."%char).
  { destruct He as [-> | (e & sg & ds & -> & He & _)]; [cbn [app]; auto|].
    cbn [app at0]. destruct He as [-> | ->]; split; (reflexivity || discriminate). }
  destruct Eex as [Eex1 Eex2].
  assert (Efr : is_digit (at0 (frac ++ ex ++ r)) = false).
  { destruct Hf as [-> | (ds & -> & _)]; [exact Eex1|reflexivity]. }
  rewrite (skip_digits_app int) by assumption.
  assert (E1 : (if Ascii.eqb (at0 (frac ++ ex ++ r)) "." then skip_digits (tl (frac ++ ex ++ r)) else frac ++ ex ++ r) = ex ++ r).
  { destruct Hf as [-> | (ds & -> & Hd1 & Hd2)].
    - cbn [app]. destruct (Ascii.eqb_spec (at0 (ex ++ r)) "."); [contradiction|reflexivity].
    - cbn [app at0 tl]. rewrite Ascii.eqb_refl. apply skip_digits_app; assumption. }
  rewrite E1. clear E1.
  destruct He as [-> | (e & sg & ds & -> & He & Hsg & Hd)].
  - cbn [app]. destruct (Ascii.eqb_spec (at0 r) "e"); [contradiction|]. destruct (Ascii.eqb_spec (at0 r) "E"); [contradiction|reflexivity].
  - cbn [app at0 tl]. assert (He' : Ascii.eqb e "e" || Ascii.eqb e "E" = true) by (destruct He as [-> | ->]; reflexivity).
    rewrite He'. rewrite <- app_assoc.
    assert (E2 : (if Ascii.eqb (at0 (sg ++ ds ++ r)) "-" || Ascii.eqb (at0 (sg ++ ds ++ r)) "+" then tl (sg ++ ds ++ r)
                  else sg ++ ds ++ r) = ds ++ r).
    { destruct Hsg as [-> | [-> | ->]]; try reflexivity. cbn [app].
      rewrite !(digit_not (at0 (ds ++ r))); try reflexivity; apply all_digits_at0; exact Hd. }
    rewrite E2. apply skip_digits_app; [apply Hd|exact B1].
Qed.
Lemma number_head s : json_number s -> exists c s', s = c :: s' /\
  (is_digit c = true \/ (c = "-"%char /\ forall r, is_digit (at0 (s' ++ r)) = true)).
Proof.
  intros [sign int frac ex Hs Hi _ _ _]. destruct Hs as [-> | ->].
  - destruct Hi as [Hi1 Hi2]. destruct int as [|c int]; [congruence|]. exists c, (int ++ frac ++ ex). split; [reflexivity|].
    left. apply Hi2. left. reflexivity.
  - exists "-"%char, (int ++ frac ++ ex). split; [reflexivity|]. right. split; [reflexivity|]. intros r.
    rewrite <- !app_assoc. apply all_digits_at0. exact Hi.
Qed.

(** ** Reading *)
Lemma upto_app t r : upto (t ++ r) r = t.
Proof.
  unfold upto. rewrite app_length. replace (List.length t + List.length r - List.length r)%nat with (List.length t) by lia.
  rewrite firstn_app, firstn_all, Nat.sub_diag. cbn [firstn]. apply app_nil_r.
Qed.
Lemma boundary_cons c r : In c [","; "]"; "}"; " "; "009"; "010"; "013"]%char -> boundary (c :: r).
Proof.
  intros H. unfold boundary. cbn [at0].
  cbn [In] in H. repeat destruct H as [<-|H]; try contradiction; repeat split; (reflexivity || discriminate).
Qed.
Lemma boundary_ws w c r : json_ws w -> In c [","; "]"; "}"]%char -> boundary (w ++ c :: r).
Proof.
  intros Hw Hc. destruct w as [|d w]; cbn [app]; apply boundary_cons.
  - cbn [In] in *. tauto.
  - specialize (Hw d (or_introl eq_refl)). cbn [In] in *. tauto.
Qed.
Lemma boundary_nil : boundary []. Proof. repeat split; discriminate || reflexivity. Qed.

Scheme jv_ind := Induction for json_value Sort Prop
  with ja_ind := Induction for json_array Sort Prop
  with je_ind := Induction for json_elements Sort Prop
  with jo_ind := Induction for json_object Sort Prop
  with jm_ind := Induction for json_members Sort Prop.
Combined Scheme json_mutind from jv_ind, ja_ind, je_ind, jo_ind, jm_ind.

Section reading.
  Context (null : bytes).
  Lemma array_head s l : json_array null s l -> exists s', s = "["%char :: s'.
  Proof. destruct 1; eexists; reflexivity. Qed.
  Lemma object_head s l : json_object null s l -> exists s', s = "{"%char :: s'.
  Proof. destruct 1; eexists; reflexivity. Qed.
  Lemma value_head t v : json_value null t v -> exists c t', t = c :: t' /\ is_space c = false /\ c <> "]"%char /\ c <> "}"%char.
  Proof.
    assert (D : forall c, is_digit c = true -> is_space c = false /\ c <> "]"%char /\ c <> "}"%char).
    { intros c Hc. pose proof (forall_ascii (fun c => implb (is_digit c) (negb (is_space c)))) as G.
      specialize (G ltac:(vm_compute; reflexivity) c). cbn beta in G. rewrite Hc in G. cbn in G. apply negb_true_iff in G.
      split; [exact G|]. split; intros ->; discriminate. }
    intros [s d _|s H| | | |s l H|s l H].
    - exists quote, (s ++ [quote]). repeat split; discriminate.
    - destruct (number_head s H) as (c & s' & -> & [Hc|[-> _]]); [|eexists _, _; repeat split; discriminate].
      destruct (D c Hc) as (? & ? & ?). eexists _, _. repeat split; assumption.
    - eexists _, _. repeat split; discriminate.
    - eexists _, _. repeat split; discriminate.
    - eexists _, _. repeat split; discriminate.
    - destruct (array_head s l H) as [s' ->]. eexists _, _. repeat split; discriminate.
    - destruct (object_head s l H) as [s' ->]. eexists _, _. repeat split; discriminate.
  Qed.

  (* one call of the loop on white space, a value and what follows *)
  Lemma parse_quoted s d r : json_chars s d -> parse_string (quote :: s ++ quote :: r) = RAt r d.
  Proof.
    intros H. unfold parse_string. cbn [at0]. change (Ascii.eqb quote NUL) with false. cbn iota.
    rewrite skip_space_stop by reflexivity. change (Ascii.eqb quote """") with true. cbn iota.
    rewrite (chars_scan s d) by exact H. rewrite (chars_unescape s d H). reflexivity.
  Qed.

  Definition V (t v : bytes) : Prop := forall f r, (3 * List.length t + 1 <= f)%nat -> boundary r ->
    parse_value null f (t ++ r) = RAt r v.
  Definition A (s : bytes) (l : list bytes) : Prop := forall f r, (3 * List.length s <= f)%nat ->
    parse_array null f (s ++ r) = RAt r l.
  Definition E (s : bytes) (l : list bytes) : Prop := forall f r out, (3 * List.length s + 4 <= f)%nat ->
    array_loop null f (s ++ "]"%char :: r) out = RAt r (out ++ l).
  Definition O (s : bytes) (l : list (bytes * bytes)) : Prop := forall f r, (3 * List.length s <= f)%nat ->
    parse_object null f (s ++ r) = RAt r l.
  Definition M (s : bytes) (l : list (bytes * bytes)) : Prop := forall f r out, (3 * List.length s + 4 <= f)%nat ->
    object_loop null f (s ++ "}"%char :: r) out = RAt r (out ++ l).

  Lemma reads : (forall t v, json_value null t v -> V t v) /\ (forall s l, json_array null s l -> A s l) /\
    (forall s l, json_elements null s l -> E s l) /\ (forall s l, json_object null s l -> O s l) /\
    (forall s l, json_members null s l -> M s l).
  Proof.
    apply json_mutind; unfold V, A, E, O, M.
    - intros s d H f r Hf _. destruct f as [|f]; [lia|]. cbn [parse_value app].
      rewrite skip_space_stop by reflexivity. change (Ascii.eqb quote """") with true. cbn iota.
      rewrite <- app_assoc. cbn [app]. apply parse_quoted. exact H.
    - intros s H f r Hf Hb. destruct f as [|f]; [lia|]. cbn [parse_value].
      pose proof (number_skip s r H Hb) as Hsk.
      destruct (value_head s s (jv_number null s H)) as (c0 & s0 & E0 & Hsp & _).
      destruct (number_head s H) as (c & s' & -> & Hc). injection E0 as <- <-.
      cbn [app]. rewrite skip_space_stop by exact Hsp.
      assert (Hd : is_digit c || Ascii.eqb c "-" && is_digit (at0 (tl (c :: s' ++ r))) = true).
      { destruct Hc as [-> |[-> Hc]]; [reflexivity|]. cbn [tl]. rewrite Hc. reflexivity. }
      assert (Hq : Ascii.eqb c """" = false /\ Ascii.eqb c "{" = false /\ Ascii.eqb c "[" = false).
      { destruct Hc as [Hc|[-> _]]; [|repeat split; reflexivity]. repeat split; apply digit_not; (exact Hc || reflexivity). }
      destruct Hq as (-> & -> & ->). rewrite Hd. cbn [app] in Hsk. rewrite Hsk.
      change (c :: s' ++ r) with ((c :: s') ++ r). rewrite upto_app. reflexivity.
    - intros f r Hf _. destruct f as [|f]; [lia|]. reflexivity.
    - intros f r Hf _. destruct f as [|f]; [lia|]. reflexivity.
    - intros f r Hf _. destruct f as [|f]; [lia|]. reflexivity.
    - intros s l H IH f r Hf _. destruct f as [|f]; [lia|]. cbn [parse_value].
      destruct (array_head s l H) as [s' ->]. cbn [app]. rewrite skip_space_stop by reflexivity.
      change (Ascii.eqb "[" """") with false. change (Ascii.eqb "[" "{") with false. change (Ascii.eqb "[" "[") with true. cbn iota.
      change ("["%char :: s' ++ r) with (("["%char :: s') ++ r). rewrite IH by lia. rewrite upto_app. reflexivity.
    - intros s l H IH f r Hf _. destruct f as [|f]; [lia|]. cbn [parse_value].
      destruct (object_head s l H) as [s' ->]. cbn [app]. rewrite skip_space_stop by reflexivity.
      change (Ascii.eqb "{" """") with false. change (Ascii.eqb "{" "{") with true. cbn iota.
      change ("{"%char :: s' ++ r) with (("{"%char :: s') ++ r). rewrite IH by lia. rewrite upto_app. reflexivity.
    - intros w Hw f r Hf. destruct f as [|f]; [cbn [List.length] in Hf; lia|]. cbn [parse_array app at0].
      change (Ascii.eqb "[" NUL) with false. cbn iota. rewrite skip_space_stop by reflexivity.
      rewrite Ascii.eqb_refl. rewrite <- app_assoc, skip_space_ws by exact Hw. reflexivity.
    - intros s l H IH f r Hf. cbn [List.length] in Hf. rewrite app_length in Hf. cbn [List.length] in Hf.
      destruct f as [|f]; [lia|]. cbn [parse_array app at0].
      change (Ascii.eqb "[" NUL) with false. cbn iota. rewrite skip_space_stop by reflexivity.
      rewrite Ascii.eqb_refl. rewrite <- app_assoc. cbn [app].
      assert (Hh : exists w c s1, s = w ++ c :: s1 /\ json_ws w /\ is_space c = false /\ c <> "]"%char).
      { destruct H as [w1 t v w2 Hw1 Ht _|w1 t v w2 s l Hw1 Ht _ _]; destruct (value_head t v Ht) as (c & t' & -> & ? & ? & ?);
          eexists w1, c, _; (split; [reflexivity|auto]). }
      destruct Hh as (w & c & s1 & -> & Hw & Hc & Hc').
      specialize (IH f r [] ltac:(lia)). destruct f as [|f]; [lia|]. cbn [array_loop] in IH |- *.
      rewrite <- app_assoc in IH |- *. rewrite skip_space_ws in IH |- * by exact Hw. cbn [app] in IH |- *.
      rewrite skip_space_stop in IH |- * by exact Hc. destruct (Ascii.eqb_spec c "]"); [contradiction|].
      rewrite skip_space_stop by exact Hc. exact IH.
    - intros w1 t v w2 Hw1 Ht IH Hw2 f r out Hf. rewrite !app_length in Hf. destruct f as [|f]; [lia|]. cbn [array_loop].
      rewrite <- !app_assoc, skip_space_ws by exact Hw1.
      destruct (value_head t v Ht) as (c & t' & Et & Hc & _). rewrite Et at 1. cbn [app]. rewrite skip_space_stop by exact Hc.
      change (c :: t' ++ w2 ++ "]"%char :: r) with ((c :: t') ++ w2 ++ "]"%char :: r). rewrite <- Et.
      rewrite IH; [|lia|apply boundary_ws; [exact Hw2|cbn; auto]].
      rewrite skip_space_ws by exact Hw2. reflexivity.
    - intros w1 t v w2 s l Hw1 Ht IH Hw2 Hs IHs f r out Hf.
      rewrite !app_length in Hf. cbn [List.length] in Hf. destruct f as [|f]; [lia|]. cbn [array_loop].
      rewrite <- !app_assoc, skip_space_ws by exact Hw1. cbn [app].
      destruct (value_head t v Ht) as (c & t' & Et & Hc & _).
      assert (Hg : forall X, skip_space (t ++ X) = t ++ X) by (intros X; rewrite Et; cbn [app]; apply skip_space_stop; exact Hc).
      rewrite Hg.
      match goal with |- context [t ++ ?X] => set (rest := X) end.
      assert (Hm : forall (g : bytes -> res (list bytes)), match t ++ rest with [] => RAt [] out | a :: b => g (a :: b) end = g (t ++ rest)).
      { intros g. rewrite Et. reflexivity. }
      rewrite (Hm (fun z => match parse_value null f z with RNull => RNull | RAt _ _ => _ | RAbort => RAbort | RFuel => RFuel end)).
      rewrite IH; [|lia|apply boundary_ws; [exact Hw2|cbn; auto]].
      unfold rest. rewrite skip_space_ws by exact Hw2. cbn [skip_space]. change (is_space ",") with false. cbn iota.
      change (Ascii.eqb "," "]") with false. change (Ascii.eqb "," ",") with true. cbn iota.
      rewrite IHs by lia. rewrite <- app_assoc. reflexivity.
    - intros w Hw f r Hf. destruct f as [|f]; [cbn [List.length] in Hf; lia|]. cbn [parse_object app at0].
      change (Ascii.eqb "{" NUL) with false. cbn iota. rewrite skip_space_stop by reflexivity.
      rewrite Ascii.eqb_refl. rewrite <- app_assoc, skip_space_ws by exact Hw. reflexivity.
    - intros s l H IH f r Hf. cbn [List.length] in Hf. rewrite app_length in Hf. cbn [List.length] in Hf.
      destruct f as [|f]; [lia|]. cbn [parse_object app at0].
      change (Ascii.eqb "{" NUL) with false. cbn iota. rewrite skip_space_stop by reflexivity.
      rewrite Ascii.eqb_refl. rewrite <- app_assoc. cbn [app].
      assert (Hh : exists w s1, s = w ++ quote :: s1 /\ json_ws w).
      { destruct H; eexists _, _; (split; [reflexivity|assumption]). }
      destruct Hh as (w & s1 & -> & Hw).
      specialize (IH f r [] ltac:(lia)). destruct f as [|f]; [lia|]. cbn [object_loop] in IH |- *.
      rewrite <- app_assoc in IH |- *. rewrite skip_space_ws in IH |- * by exact Hw. cbn [app] in IH |- *.
      rewrite skip_space_stop in IH |- * by reflexivity. change (Ascii.eqb quote "}") with false. cbn iota.
      rewrite skip_space_stop by reflexivity. exact IH.
    - intros w1 k n w2 w3 t v w4 Hw1 Hk Hw2 Hw3 Ht IH Hw4 f r out Hf.
      rewrite !app_length in Hf. cbn [List.length] in Hf. rewrite !app_length in Hf. cbn [List.length] in Hf.
      rewrite !app_length in Hf. cbn [List.length] in Hf. rewrite !app_length in Hf.
      destruct f as [|f]; [lia|]. cbn [object_loop].
      repeat (rewrite <- app_assoc; cbn [app]). rewrite skip_space_ws by exact Hw1. rewrite skip_space_stop by reflexivity.
      rewrite (parse_quoted k n) by exact Hk. rewrite skip_space_ws by exact Hw2. rewrite skip_space_stop by reflexivity.
      rewrite Ascii.eqb_refl. rewrite skip_space_ws by exact Hw3.
      destruct (value_head t v Ht) as (c & t' & Et & Hc & _).
      assert (Hg : forall X, skip_space (t ++ X) = t ++ X) by (intros X; rewrite Et; cbn [app]; apply skip_space_stop; exact Hc).
      rewrite Hg.
      match goal with |- context [t ++ ?X] => set (rest := X) end.
      assert (Hm : forall (g : bytes -> res (list (bytes * bytes))), match t ++ rest with [] => RAt [] out | a :: b => g (a :: b) end = g (t ++ rest)).
      { intros g. rewrite Et. reflexivity. }
      rewrite (Hm (fun z => match parse_value null f z with RNull => RNull | RAt _ _ => _ | RAbort => RAbort | RFuel => RFuel end)).
      rewrite IH; [|lia|apply boundary_ws; [exact Hw4|cbn; auto]].
      unfold rest. rewrite skip_space_ws by exact Hw4. reflexivity.
    - intros w1 k n w2 w3 t v w4 s l Hw1 Hk Hw2 Hw3 Ht IH Hw4 Hs IHs f r out Hf.
      rewrite !app_length in Hf. cbn [List.length] in Hf. rewrite !app_length in Hf. cbn [List.length] in Hf.
      rewrite !app_length in Hf. cbn [List.length] in Hf. rewrite !app_length in Hf. cbn [List.length] in Hf.
      destruct f as [|f]; [lia|]. cbn [object_loop].
      repeat (rewrite <- app_assoc; cbn [app]). rewrite skip_space_ws by exact Hw1. rewrite skip_space_stop by reflexivity.
      rewrite (parse_quoted k n) by exact Hk. rewrite skip_space_ws by exact Hw2. rewrite skip_space_stop by reflexivity.
      rewrite Ascii.eqb_refl. rewrite skip_space_ws by exact Hw3.
      destruct (value_head t v Ht) as (c & t' & Et & Hc & _).
      assert (Hg : forall X, skip_space (t ++ X) = t ++ X) by (intros X; rewrite Et; cbn [app]; apply skip_space_stop; exact Hc).
      rewrite Hg.
      match goal with |- context [t ++ ?X] => set (rest := X) end.
      assert (Hm : forall (g : bytes -> res (list (bytes * bytes))), match t ++ rest with [] => RAt [] out | a :: b => g (a :: b) end = g (t ++ rest)).
      { intros g. rewrite Et. reflexivity. }
      rewrite (Hm (fun z => match parse_value null f z with RNull => RNull | RAt _ _ => _ | RAbort => RAbort | RFuel => RFuel end)).
      rewrite IH; [|lia|apply boundary_ws; [exact Hw4|cbn; auto]].
      unfold rest. rewrite skip_space_ws by exact Hw4. cbn [skip_space]. change (is_space ",") with false. cbn iota.
      change (Ascii.eqb "," "}") with false. change (Ascii.eqb "," ",") with true. cbn iota.
      rewrite IHs by lia. rewrite <- app_assoc. reflexivity.
  Qed.
End reading.

(** ** The whole text *)
Lemma array_ws null f w s : json_ws w -> parse_array null f (w ++ "["%char :: s) = parse_array null f ("["%char :: s).
Proof.
  intros Hw. destruct f as [|f]; [reflexivity|]. cbn [parse_array]. rewrite skip_space_ws by exact Hw.
  assert (H : Ascii.eqb (at0 (w ++ "["%char :: s)) NUL = false).
  { destruct w as [|c w]; [reflexivity|]. cbn [app at0]. specialize (Hw c (or_introl eq_refl)). cbn [In] in Hw.
    destruct Hw as [<-|[<-|[<-|[<-|[]]]]]; reflexivity. }
  rewrite H. reflexivity.
Qed.
Lemma object_ws null f w s : json_ws w -> parse_object null f (w ++ "{"%char :: s) = parse_object null f ("{"%char :: s).
Proof.
  intros Hw. destruct f as [|f]; [reflexivity|]. cbn [parse_object]. rewrite skip_space_ws by exact Hw.
  assert (H : Ascii.eqb (at0 (w ++ "{"%char :: s)) NUL = false).
  { destruct w as [|c w]; [reflexivity|]. cbn [app at0]. specialize (Hw c (or_introl eq_refl)). cbn [In] in Hw.
    destruct Hw as [<-|[<-|[<-|[<-|[]]]]]; reflexivity. }
  rewrite H. reflexivity.
Qed.
Lemma array_size null s l : json_array null s l -> (2 <= List.length s)%nat.
Proof. destruct 1; cbn [List.length]; rewrite app_length; cbn [List.length]; lia. Qed.
Lemma object_size null s l : json_object null s l -> (2 <= List.length s)%nat.
Proof. destruct 1; cbn [List.length]; rewrite app_length; cbn [List.length]; lia. Qed.
Lemma P_array null w s l r : json_ws w -> json_array null s l ->
  SParseJSONArray (w ++ s ++ r) null = Some (match skip_space r with [] => l | _ => [] end).
Proof.
  intros Hw H. unfold SParseJSONArray.
  assert (Hl : (Nat.ltb (List.length (w ++ s ++ r)) 2) = false).
  { apply Nat.ltb_ge. rewrite !app_length. pose proof (array_size _ _ _ H). lia. }
  rewrite Hl. destruct (array_head _ _ _ H) as [s' Es]. rewrite Es at 2. cbn [app]. rewrite array_ws by exact Hw.
  change ("["%char :: s' ++ r) with (("["%char :: s') ++ r). rewrite <- Es.
  rewrite (proj1 (proj2 (reads null)) s l H); [reflexivity|]. unfold fuel_for. rewrite !app_length. lia.
Qed.
Lemma P_object null w s l r : json_ws w -> json_object null s l ->
  SParseJSONObject_cb (w ++ s ++ r) null = Some (match skip_space r with [] => (table_of l, l) | _ => ([], []) end).
Proof.
  intros Hw H. unfold SParseJSONObject_cb.
  assert (Hl : (Nat.ltb (List.length (w ++ s ++ r)) 2) = false).
  { apply Nat.ltb_ge. rewrite !app_length. pose proof (object_size _ _ _ H). lia. }
  rewrite Hl. destruct (object_head _ _ _ H) as [s' Es]. rewrite Es at 2. cbn [app]. rewrite object_ws by exact Hw.
  change ("{"%char :: s' ++ r) with (("{"%char :: s') ++ r). rewrite <- Es.
  rewrite (proj1 (proj2 (proj2 (proj2 (reads null)))) s l H); [reflexivity|]. unfold fuel_for. rewrite !app_length. lia.
Qed.
Lemma P_array0 null s l : json_array null s l -> SParseJSONArray s null = Some l.
Proof. intros H. pose proof (P_array null [] s l [] ws_nil H) as P. cbn [app skip_space] in P. rewrite app_nil_r in P. exact P. Qed.
Lemma P_object0 null s l : json_object null s l -> SParseJSONObject_cb s null = Some (table_of l, l).
Proof. intros H. pose proof (P_object null [] s l [] ws_nil H) as P. cbn [app skip_space] in P. rewrite app_nil_r in P. exact P. Qed.
Lemma table_of_denotes l : denotes l (table_of l).
Proof.
  unfold denotes, table_of. induction l as [|p l IH] using rev_ind; [split; [constructor|reflexivity]|].
  rewrite fold_left_app, rev_app_distr. cbn [fold_left rev app find]. destruct IH as [IH1 IH2]. split.
  - apply tput_ok. exact IH1.
  - intros k. rewrite tfind_tput, IH2. destruct (kcmp k (fst p)); reflexivity.
Qed.

(** ** The parser never runs out of fuel, and aborts only at a NUL *)
Definition suffix (r s : bytes) : Prop := exists p, s = p ++ r.
Lemma suffix_refl s : suffix s s. Proof. exists []. reflexivity. Qed.
Lemma suffix_trans a b c : suffix a b -> suffix b c -> suffix a c.
Proof. intros [p ->] [q ->]. exists (q ++ p). apply app_assoc. Qed.
Lemma suffix_cons a c b : suffix (c :: a) b -> suffix a b.
Proof. intros [p ->]. exists (p ++ [c]). rewrite <- app_assoc. reflexivity. Qed.
Lemma suffix_length a b : suffix a b -> (List.length a <= List.length b)%nat.
Proof. intros [p ->]. rewrite app_length. lia. Qed.
Lemma suffix_nul a b : suffix a b -> nul_free b -> nul_free a.
Proof. intros [p ->] H Hi. apply H, in_or_app. right. exact Hi. Qed.
Lemma skip_space_suffix s : suffix (skip_space s) s.
Proof.
  induction s as [|c s IH]; [apply suffix_refl|]. cbn [skip_space]. destruct (is_space c); [|apply suffix_refl].
  eapply suffix_trans; [exact IH|]. exists [c]. reflexivity.
Qed.
Lemma tl_suffix s : suffix (tl s) s.
Proof. destruct s as [|c s]; [apply suffix_refl|]. exists [c]. reflexivity. Qed.
Lemma skip_digits_suffix s : suffix (skip_digits s) s.
Proof.
  induction s as [|c s IH]; [apply suffix_refl|]. cbn [skip_digits]. destruct (is_digit c); [|apply suffix_refl].
  eapply suffix_trans; [exact IH|]. exists [c]. reflexivity.
Qed.
Lemma skip_number_suffix s : suffix (skip_number s) s.
Proof.
  unfold skip_number.
  set (s1 := if Ascii.eqb (at0 s) "-" then tl s else s).
  assert (H1 : suffix s1 s) by (unfold s1; destruct (Ascii.eqb _ _); [apply tl_suffix|apply suffix_refl]).
  clearbody s1.
  set (s2 := skip_digits s1). assert (H2 : suffix s2 s) by (eapply suffix_trans; [apply skip_digits_suffix|exact H1]).
  clearbody s2.
  set (s3 := if Ascii.eqb (at0 s2) "." then skip_digits (tl s2) else s2).
  assert (H3 : suffix s3 s).
  { unfold s3. destruct (Ascii.eqb _ _); [|exact H2]. eapply suffix_trans; [apply skip_digits_suffix|].
    eapply suffix_trans; [apply tl_suffix|exact H2]. }
  clearbody s3. destruct (_ || _); [|exact H3].
  eapply suffix_trans; [apply skip_digits_suffix|]. eapply suffix_trans; [|exact H3].
  destruct (_ || _); [eapply suffix_trans; [apply tl_suffix|apply tl_suffix]|apply tl_suffix].
Qed.
Lemma skipn_suffix n (s : bytes) : suffix (skipn n s) s.
Proof. exists (firstn n s). symmetry. apply firstn_skipn. Qed.
Lemma scan_suffix_n n : forall s b r, (List.length s <= n)%nat -> scan_string s = Some (b, r) -> suffix r s.
Proof.
  induction n as [|n IH]; intros s b r Hn H; (destruct s as [|c s]; [discriminate|cbn [List.length] in Hn]); [lia|].
  cbn [scan_string] in H. destruct (Ascii.eqb c NUL); [discriminate|].
  destruct (Ascii.eqb c """"); [injection H as <- <-; exists [c]; reflexivity|].
  destruct (Ascii.eqb c "\").
  - destruct s as [|d s]; [discriminate|]. destruct (scan_string s) as [[b' r']|] eqn:E; [|discriminate]. injection H as <- <-.
    cbn [List.length] in Hn. eapply suffix_trans; [eapply IH; [|exact E]; lia|]. exists [c; d]. reflexivity.
  - destruct (scan_string s) as [[b' r']|] eqn:E; [|discriminate]. injection H as <- <-.
    eapply suffix_trans; [eapply IH; [|exact E]; lia|]. exists [c]. reflexivity.
Qed.
Lemma at0_nul s : s <> [] -> nul_free s -> Ascii.eqb (at0 s) NUL = false.
Proof.
  intros H1 H2. destruct s as [|c s]; [congruence|]. cbn [at0]. destruct (Ascii.eqb_spec c NUL); [|reflexivity].
  subst. exfalso. apply H2. left. reflexivity.
Qed.

Definition fine {X} (s : bytes) (x : res X) : Prop :=
  x <> RFuel /\ (nul_free s -> s <> [] -> x <> RAbort) /\ forall r a, x = RAt r a -> suffix r s.
Lemma fine_null {X} s : @fine X s RNull.
Proof. repeat split; try discriminate. Qed.
Lemma fine_abort {X} s : ~ nul_free s \/ s = [] -> @fine X s RAbort.
Proof. intros H. repeat split; try discriminate. destruct H as [H|H]; intros; contradiction. Qed.
Lemma fine_at {X} s r (a : X) : suffix r s -> fine s (RAt r a).
Proof. intros H. repeat split; try discriminate. intros r' a' E. injection E as <- <-. exact H. Qed.
Lemma fine_suffix {X} s s' (x : res X) : fine s x -> suffix s s' -> s <> [] -> fine s' x.
Proof.
  intros (H1 & H2 & H3) Hs Hn. split; [exact H1|]. split.
  - intros Hf _. apply H2; [|exact Hn]. eapply suffix_nul; [exact Hs|exact Hf].
  - intros r a E. eapply suffix_trans; [exact (H3 r a E)|exact Hs].
Qed.
Lemma parse_string_fine s : fine s (parse_string s).
Proof.
  unfold parse_string. destruct (Ascii.eqb (at0 s) NUL) eqn:E0.
  - apply fine_abort. destruct s as [|c s]; [right; reflexivity|]. left. intros H.
    rewrite at0_nul in E0; [discriminate|discriminate|exact H].
  - pose proof (skip_space_suffix s) as Hs. destruct (skip_space s) as [|c s'] eqn:E; [apply fine_at; exact Hs|].
    destruct (Ascii.eqb c """"); [|apply fine_null].
    destruct (scan_string s') as [[b r]|] eqn:Es; [|apply fine_null]. apply fine_at.
    eapply suffix_trans; [eapply scan_suffix_n; [|exact Es]; reflexivity|]. eapply suffix_cons. exact Hs.
Qed.

Lemma fine_all null f :
  (forall s, (3 * List.length s + 1 <= f)%nat -> fine s (parse_value null f s)) /\
  (forall s, (3 * List.length s <= f)%nat -> (0 < f)%nat -> fine s (parse_array null f s)) /\
  (forall s out, (3 * List.length s + 2 <= f)%nat -> fine s (array_loop null f s out)) /\
  (forall s, (3 * List.length s <= f)%nat -> (0 < f)%nat -> fine s (parse_object null f s)) /\
  (forall s out, (3 * List.length s + 2 <= f)%nat -> fine s (object_loop null f s out)).
Proof.
  induction f as [|f (IHv & IHa & IHal & IHo & IHol)].
  { repeat split; intros; lia. }
  split; [|split; [|split; [|split]]].
  - intros s Hf. cbn [parse_value]. pose proof (skip_space_suffix s) as Hs. pose proof (suffix_length _ _ Hs) as Hl.
    destruct (skip_space s) as [|c s'] eqn:E; [apply fine_at; exact Hs|]. cbn zeta. set (s0 := c :: s') in *.
    assert (Hn0 : s0 <> []) by (unfold s0; discriminate).
    assert (Hlen : (0 < List.length s0)%nat) by (unfold s0; cbn [List.length]; lia).
    destruct (Ascii.eqb c """").
    { eapply fine_suffix; [apply parse_string_fine|exact Hs|exact Hn0]. }
    destruct (Ascii.eqb c "{").
    { pose proof (IHo s0 ltac:(lia) ltac:(lia)) as H. pose proof (fine_suffix _ _ _ H Hs Hn0) as (F1 & F2 & F3).
      fold (parse_object null f s0). destruct (parse_object null f s0) as [|r a| |]; [apply fine_null|apply fine_at; eapply F3; reflexivity| |congruence].
      repeat split; try discriminate. intros; exfalso; apply F2; auto. }
    destruct (Ascii.eqb c "[").
    { pose proof (IHa s0 ltac:(lia) ltac:(lia)) as H. pose proof (fine_suffix _ _ _ H Hs Hn0) as (F1 & F2 & F3).
      fold (parse_array null f s0). destruct (parse_array null f s0) as [|r a| |]; [apply fine_null|apply fine_at; eapply F3; reflexivity| |congruence].
      repeat split; try discriminate. intros; exfalso; apply F2; auto. }
    destruct (_ || _).
    { apply fine_at. eapply suffix_trans; [apply skip_number_suffix|exact Hs]. }
    destruct (starts _ _); [apply fine_at; eapply suffix_trans; [apply skipn_suffix|exact Hs]|].
    destruct (starts _ _); [apply fine_at; eapply suffix_trans; [apply skipn_suffix|exact Hs]|].
    destruct (starts _ _); [apply fine_at; eapply suffix_trans; [apply skipn_suffix|exact Hs]|].
    apply fine_at. exact Hs.
  - intros s Hf _. cbn [parse_array]. destruct (Ascii.eqb (at0 s) NUL) eqn:E0.
    { apply fine_abort. destruct s as [|c s]; [right; reflexivity|]. left. intros H.
      rewrite at0_nul in E0; [discriminate|discriminate|exact H]. }
    pose proof (skip_space_suffix s) as Hs. pose proof (suffix_length _ _ Hs) as Hl.
    destruct (skip_space s) as [|c s'] eqn:E; [apply fine_at; exact Hs|]. cbn [List.length] in Hl.
    destruct (Ascii.eqb c "["); [|apply fine_null]. apply suffix_cons in Hs.
    pose proof (skip_space_suffix s') as Hs2. pose proof (suffix_length _ _ Hs2) as Hl2.
    destruct (skip_space s') as [|d s2] eqn:E2; [apply fine_at; eapply suffix_trans; [exact Hs2|exact Hs]|].
    destruct (Ascii.eqb d "]"); [apply fine_at; eapply suffix_trans; [apply suffix_cons in Hs2; exact Hs2|exact Hs]|].
    eapply fine_suffix; [apply IHal; lia|eapply suffix_trans; [exact Hs2|exact Hs]|discriminate].
  - intros s out Hf. cbn [array_loop]. pose proof (skip_space_suffix s) as Hs. pose proof (suffix_length _ _ Hs) as Hl.
    destruct (skip_space s) as [|c s'] eqn:E; [apply fine_at; exact Hs|]. set (s0 := c :: s') in *.
    pose proof (fine_suffix _ _ _ (IHv s0 ltac:(lia)) Hs ltac:(unfold s0; discriminate)) as (F1 & F2 & F3).
    assert (Hs0 : s <> []) by (intros ->; destruct Hs as [p Hp]; destruct p; discriminate).
    destruct (IHv s0 ltac:(lia)) as (_ & _ & G3).
    fold (parse_value null f s0). destruct (parse_value null f s0) as [|r a| |]; [apply fine_null| | |congruence].
    + specialize (F3 r a eq_refl). specialize (G3 r a eq_refl). pose proof (suffix_length _ _ G3) as Hlr.
      pose proof (skip_space_suffix r) as Hs2. pose proof (suffix_length _ _ Hs2) as Hl2.
      pose proof (suffix_trans _ _ _ Hs2 F3) as Hs3.
      destruct (skip_space r) as [|d r'] eqn:E2; [apply fine_at; exact Hs3|].
      destruct (Ascii.eqb d "]"); [apply fine_at; eapply suffix_cons; exact Hs3|].
      destruct (Ascii.eqb d ","); [|apply fine_null]. cbn [List.length] in Hl2.
      pose proof (IHal r' (out ++ [a]) ltac:(lia)) as H. apply suffix_cons in Hs3.
      destruct r' as [|e r'].
      * destruct f as [|f]; [lia|]. cbn [array_loop skip_space]. apply fine_at. exact Hs3.
      * eapply fine_suffix; [exact H|exact Hs3|discriminate].
    + repeat split; try discriminate. intros; exfalso; apply F2; auto.
  - intros s Hf _. cbn [parse_object]. destruct (Ascii.eqb (at0 s) NUL) eqn:E0.
    { apply fine_abort. destruct s as [|c s]; [right; reflexivity|]. left. intros H.
      rewrite at0_nul in E0; [discriminate|discriminate|exact H]. }
    pose proof (skip_space_suffix s) as Hs. pose proof (suffix_length _ _ Hs) as Hl.
    destruct (skip_space s) as [|c s'] eqn:E; [apply fine_at; exact Hs|]. cbn [List.length] in Hl.
    destruct (Ascii.eqb c "{"); [|apply fine_null]. apply suffix_cons in Hs.
    pose proof (skip_space_suffix s') as Hs2. pose proof (suffix_length _ _ Hs2) as Hl2.
    destruct (skip_space s') as [|d s2] eqn:E2; [apply fine_at; eapply suffix_trans; [exact Hs2|exact Hs]|].
    destruct (Ascii.eqb d "}"); [apply fine_at; eapply suffix_trans; [apply suffix_cons in Hs2; exact Hs2|exact Hs]|].
    eapply fine_suffix; [apply IHol; lia|eapply suffix_trans; [exact Hs2|exact Hs]|discriminate].
  - intros s out Hf. cbn [object_loop]. pose proof (skip_space_suffix s) as Hs. pose proof (suffix_length _ _ Hs) as Hl.
    destruct (skip_space s) as [|c s'] eqn:E; [apply fine_at; exact Hs|]. set (s0 := c :: s') in *.
    pose proof (fine_suffix _ _ _ (parse_string_fine s0) Hs ltac:(unfold s0; discriminate)) as (F1 & F2 & F3).
    assert (Hs0 : s <> []) by (intros ->; destruct Hs as [p Hp]; destruct p; discriminate).
    destruct (parse_string s0) as [|r name| |]; [apply fine_null| | |congruence];
      [|repeat split; try discriminate; intros; exfalso; apply F2; auto].
    specialize (F3 r name eq_refl). clear F1 F2. pose proof (skip_space_suffix r) as Hs2.
    pose proof (suffix_trans _ _ _ Hs2 F3) as Hs3. clear Hs2.
    destruct (skip_space r) as [|d r1]; [apply fine_at; exact Hs3|].
    destruct (Ascii.eqb d ":"); [|apply fine_null]. pose proof (suffix_length _ _ Hs3) as Hl3. cbn [List.length] in Hl3.
    apply suffix_cons in Hs3. pose proof (skip_space_suffix r1) as Hs4. pose proof (suffix_length _ _ Hs4) as Hl4.
    pose proof (suffix_trans _ _ _ Hs4 Hs3) as Hs5. destruct (skip_space r1) as [|e r2]; [apply fine_at; exact Hs5|].
    set (s5 := e :: r2) in *.
    pose proof (fine_suffix _ _ _ (IHv s5 ltac:(lia)) Hs5 ltac:(unfold s5; discriminate)) as (F1 & F2 & F4).
    destruct (IHv s5 ltac:(lia)) as (_ & _ & G3).
    fold (parse_value null f s5). destruct (parse_value null f s5) as [|r3 v| |]; [apply fine_null| | |congruence];
      [|repeat split; try discriminate; intros; exfalso; apply F2; auto].
    specialize (F4 r3 v eq_refl). specialize (G3 r3 v eq_refl). pose proof (suffix_length _ _ G3) as Hlr.
    pose proof (skip_space_suffix r3) as Hs6. pose proof (suffix_length _ _ Hs6) as Hl6.
    pose proof (suffix_trans _ _ _ Hs6 F4) as Hs7.
    destruct (skip_space r3) as [|g r4]; [apply fine_at; exact Hs7|].
    destruct (Ascii.eqb g "}"); [apply fine_at; eapply suffix_cons; exact Hs7|].
    destruct (Ascii.eqb g ","); [|apply fine_null]. cbn [List.length] in Hl6.
    pose proof (IHol r4 (out ++ [(name, v)]) ltac:(lia)) as H. apply suffix_cons in Hs7.
    destruct r4 as [|h r4].
    + destruct f as [|f]; [lia|]. cbn [object_loop skip_space]. apply fine_at. exact Hs7.
    + eapply fine_suffix; [exact H|exact Hs7|discriminate].
Qed.
