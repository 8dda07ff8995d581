(** Facts about base64, used by C47 and C48. *)
From Verif Require Import Base Base64_Spec Base64_Model.
Local Open Scope N_scope.

Definition under (k : nat) : list N := map N.of_nat (seq 0 k).
Lemma under_all (f : N -> bool) k : forallb f (under k) = true -> forall n, n < N.of_nat k -> f n = true.
Proof.
  intros H n L. rewrite forallb_forall in H. apply H. unfold under. apply in_map_iff. exists (N.to_nat n). split; [lia|]. apply in_seq. lia.
Qed.
Definition bcmp (a b : list bool) : bool := if list_eq_dec Bool.bool_dec a b then true else false.
Lemma bcmp_eq a b : bcmp a b = true -> a = b. Proof. unfold bcmp. destruct (list_eq_dec _ a b); [auto|discriminate]. Qed.

Lemma bcode_lt c : bcode c < 256.
Proof. apply N.ltb_lt. revert c. apply forall_ascii. vm_compute. reflexivity. Qed.
Lemma letter_nth g : g < 64 -> letter g = nth (N.to_nat g) alphabet "="%char.
Proof.
  intros L. apply Ascii.eqb_eq. apply (under_all (fun g => Ascii.eqb (letter g) (nth (N.to_nat g) alphabet "="%char)) 64); [vm_compute; reflexivity|exact L].
Qed.
Lemma value_letter g : g < 64 -> value (letter g) = Some g.
Proof.
  intros L. assert (H : match value (letter g) with Some h => N.eqb h g | None => false end = true).
  { apply (under_all (fun g => match value (letter g) with Some h => N.eqb h g | None => false end) 64); [vm_compute; reflexivity|exact L]. }
  destruct (value (letter g)); [apply N.eqb_eq in H; congruence|discriminate].
Qed.
Lemma value_eq c : value c = None \/ c <> "="%char.
Proof. destruct (Ascii.eqb c "=") eqn:E; [apply Ascii.eqb_eq in E; subst; left; reflexivity|right; intros ->; discriminate]. Qed.
Lemma letter_eq g : g < 64 -> letter g <> "="%char.
Proof. intros L E. pose proof (value_letter g L) as V. rewrite E in V. discriminate. Qed.

(** ** The text is what the RFC says *)
Lemma split8 c : bits 8 (bcode c) = bits 6 (bcode c / 4) ++ bits 2 (bcode c mod 4) /\ bits 8 (bcode c) = bits 4 (bcode c / 16) ++ bits 4 (bcode c mod 16)
  /\ bits 8 (bcode c) = bits 2 (bcode c / 64) ++ bits 6 (bcode c mod 64).
Proof.
  assert (H : (bcmp (bits 8 (bcode c)) (bits 6 (bcode c / 4) ++ bits 2 (bcode c mod 4)) &&
               bcmp (bits 8 (bcode c)) (bits 4 (bcode c / 16) ++ bits 4 (bcode c mod 16)) &&
               bcmp (bits 8 (bcode c)) (bits 2 (bcode c / 64) ++ bits 6 (bcode c mod 64)))%bool = true).
  { revert c. apply forall_ascii. vm_compute. reflexivity. }
  rewrite !andb_true_iff in H. destruct H as [[A B] C]. apply bcmp_eq in A, B, C. auto.
Qed.
Lemma join24 x y : x < 4 -> y < 16 -> bits 6 (x * 16 + y) = bits 2 x ++ bits 4 y.
Proof.
  intros Hx Hy. apply bcmp_eq. apply (under_all (fun y => bcmp (bits 6 (x * 16 + y)) (bits 2 x ++ bits 4 y)) 16); [|exact Hy].
  apply (under_all (fun x => forallb (fun y => bcmp (bits 6 (x * 16 + y)) (bits 2 x ++ bits 4 y)) (under 16)) 4); [vm_compute; reflexivity|exact Hx].
Qed.
Lemma join42 x y : x < 16 -> y < 4 -> bits 6 (x * 4 + y) = bits 4 x ++ bits 2 y.
Proof.
  intros Hx Hy. apply bcmp_eq. apply (under_all (fun y => bcmp (bits 6 (x * 4 + y)) (bits 4 x ++ bits 2 y)) 4); [|exact Hy].
  apply (under_all (fun x => forallb (fun y => bcmp (bits 6 (x * 4 + y)) (bits 4 x ++ bits 2 y)) (under 4)) 16); [vm_compute; reflexivity|exact Hx].
Qed.
Ltac ranges :=
  repeat match goal with c : ascii |- _ => lazymatch goal with H : bcode c < 256 |- _ => fail | _ => pose proof (bcode_lt c) end end.
Ltac small := ranges; repeat match goal with |- context [?a / ?b] => lazymatch goal with H : context [a = b * (a / b) + a mod b] |- _ => fail | _ =>
  pose proof (N.div_mod a b ltac:(lia)); pose proof (N.mod_lt a b ltac:(lia)) end
  | |- context [?a mod ?b] => lazymatch goal with H : context [a = b * (a / b) + a mod b] |- _ => fail | _ =>
  pose proof (N.div_mod a b ltac:(lia)); pose proof (N.mod_lt a b ltac:(lia)) end end; lia.

Lemma encode_is_base64_aux n : forall b, (List.length b <= n)%nat -> base64 b (encode b).
Proof.
  induction n as [|n IH]; intros b L.
  { destruct b; [|cbn in L; lia]. exists [], O, O. repeat split; auto; try lia. exists O. reflexivity. }
  destruct b as [|x [|y [|z r]]]; cbn [encode].
  - exists [], O, O. repeat split; auto; try lia. exists O. reflexivity.
  - exists [bcode x / 4; (bcode x mod 4) * 16], 4%nat, 2%nat. split; [repeat constructor; small|].
    split; [|split; [lia|split; [|split; [lia|exists 1%nat; reflexivity]]]].
    + cbn [flat_map]. rewrite !app_nil_r. destruct (split8 x) as (-> & _). rewrite <- app_assoc. f_equal.
      replace (bcode x mod 4 * 16) with (bcode x mod 4 * 16 + 0) by lia. rewrite join24 by small. reflexivity.
    + cbn [map repeat app]. rewrite !letter_nth by small. reflexivity.
  - exists [bcode x / 4; (bcode x mod 4) * 16 + bcode y / 16; (bcode y mod 16) * 4], 2%nat, 1%nat. split; [repeat constructor; small|].
    split; [|split; [lia|split; [|split; [lia|exists 1%nat; reflexivity]]]].
    + cbn [flat_map]. rewrite !app_nil_r. destruct (split8 x) as (-> & _). destruct (split8 y) as (_ & -> & _). rewrite <- !app_assoc. f_equal.
      rewrite join24 by small. rewrite <- !app_assoc. do 2 f_equal.
      replace (bcode y mod 16 * 4) with (bcode y mod 16 * 4 + 0) by lia. rewrite join42 by small. reflexivity.
    + cbn [map repeat app]. rewrite !letter_nth by small. reflexivity.
  - destruct (IH r ltac:(cbn in L; lia)) as (g & f & s & G & B & F & T & S4 & q & Q).
    exists (bcode x / 4 :: (bcode x mod 4) * 16 + bcode y / 16 :: (bcode y mod 16) * 4 + bcode z / 64 :: bcode z mod 64 :: g), f, s.
    split; [repeat (apply Forall_cons; [small|]); exact G|]. split; [|split; [lia|split; [|split; [lia|]]]].
    + cbn [flat_map]. rewrite B. destruct (split8 x) as (-> & _). destruct (split8 y) as (_ & -> & _). destruct (split8 z) as (_ & _ & ->).
      rewrite join24, join42 by small. rewrite <- !app_assoc. reflexivity.
    + cbn [map app]. rewrite T, !letter_nth by small. reflexivity.
    + exists (S q). cbn [List.length]. lia.
Qed.
Lemma encode_is_base64 b : base64 b (encode b). Proof. apply (encode_is_base64_aux (List.length b)). lia. Qed.

(** ** Round trip *)
Lemma back c n : n = bcode c -> ascii_of_N n = c.
Proof. intros ->. apply ascii_N_embedding. Qed.
Lemma decode_4 a b c d r : a < 64 -> b < 64 -> c < 64 -> d < 64 ->
  decode (letter a :: letter b :: letter c :: letter d :: r) =
  match decode r with
  | Some l => Some (ascii_of_N (a * 4 + b / 16) :: ascii_of_N ((b mod 16) * 16 + c / 4) :: ascii_of_N ((c mod 4) * 64 + d) :: l)
  | None => None
  end.
Proof.
  intros A B C D. cbn [decode]. rewrite !value_letter by assumption. pose proof (letter_eq d D) as E. apply Ascii.eqb_neq in E. rewrite E. reflexivity.
Qed.
Lemma decode_encode_aux n : forall b, (List.length b <= n)%nat -> decode (encode b) = Some b.
Proof.
  induction n as [|n IH]; intros b L; [destruct b; [reflexivity|cbn in L; lia]|].
  destruct b as [|x [|y [|z r]]]; cbn [encode]; [reflexivity| | |].
  - pose proof (value_letter (bcode x / 4) ltac:(small)) as V1. pose proof (value_letter (bcode x mod 4 * 16) ltac:(small)) as V2.
    cbn [decode]. rewrite V1, V2, !Ascii.eqb_refl. do 2 f_equal. apply back. small.
  - pose proof (value_letter (bcode x / 4) ltac:(small)) as V1. pose proof (value_letter (bcode x mod 4 * 16 + bcode y / 16) ltac:(small)) as V2.
    pose proof (value_letter (bcode y mod 16 * 4) ltac:(small)) as V3. pose proof (letter_eq (bcode y mod 16 * 4) ltac:(small)) as E3.
    apply Ascii.eqb_neq in E3. cbn [decode]. rewrite E3, V1, V2, V3, Ascii.eqb_refl. do 2 f_equal; [|f_equal]; apply back; small.
  - rewrite decode_4 by small. rewrite IH by (cbn in L; lia). do 2 f_equal; [|f_equal; [|f_equal]]; apply back; small.
Qed.
Lemma decode_encode b : decode (encode b) = Some b. Proof. apply (decode_encode_aux (List.length b)). lia. Qed.

(** ** The shape of the text *)
Lemma letter_plain g : g < 64 -> In (letter g) alphabet.
Proof.
  intros L. rewrite letter_nth by exact L. apply nth_In. change (List.length alphabet) with 64%nat. lia.
Qed.
Lemma encode_chars b : Forall (fun c => In c alphabet \/ c = "="%char) (encode b).
Proof.
  destruct (encode_is_base64 b) as (g & f & s & G & _ & _ & T & _). rewrite T. apply Forall_app. split.
  - clear T. induction G as [|x l Hx _ IH]; cbn [map]; [constructor|]. constructor; [|exact IH]. left. rewrite <- letter_nth by exact Hx. apply letter_plain. exact Hx.
  - apply Forall_forall. intros c Hc. right. apply repeat_spec in Hc. exact Hc.
Qed.
Lemma encode_length b : exists q, List.length (encode b) = (4 * q)%nat.
Proof. destruct (encode_is_base64 b) as (g & f & s & _ & _ & _ & _ & _ & q & Q). exists q. exact Q. Qed.
Lemma encode_long b : (3 < List.length b)%nat -> (8 <= List.length (encode b))%nat.
Proof. destruct b as [|x [|y [|z [|w r]]]]; cbn [List.length]; try lia. intros _. destruct r as [|u [|v r]]; cbn [encode List.length]; lia. Qed.
Lemma encode_empty b : encode b = [] -> b = [].
Proof. intros E. pose proof (decode_encode b) as D. rewrite E in D. cbn in D. congruence. Qed.
