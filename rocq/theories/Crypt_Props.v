(** C67: what is encrypted can be decrypted, authentication codes are those of RFC 2104, and base 32 is read back. *)
From Verif Require Import Base Text_Spec Text_Model Text_Proofs Crypt_Spec Crypt_Model.

Lemma xor8_twice a b : xor8 (xor8 a b) b = a.
Proof. destruct a as [a0 a1 a2 a3 a4 a5 a6 a7], b as [b0 b1 b2 b3 b4 b5 b6 b7]. unfold xor8. rewrite !xorb_assoc, !xorb_nilpotent, !xorb_false_r. reflexivity. Qed.
Lemma xors_twice a : forall b, length a = length b -> xors (xors a b) b = a.
Proof. induction a as [|x a IH]; intros [|y b] L; try discriminate; [reflexivity|]. cbn [xors]. rewrite xor8_twice, IH by (cbn in L; lia). reflexivity. Qed.
Lemma xors_length a : forall b, length a = length b -> length (xors a b) = length a.
Proof. induction a as [|x a IH]; intros [|y b] L; try discriminate; [reflexivity|]. cbn [xors length]. rewrite IH by (cbn in L; lia). reflexivity. Qed.

Lemma cstr_app_nul a t : nul_free a -> cstr (a ++ repeat NUL t) = a.
Proof.
  unfold nul_free. induction a as [|c a IH]; intros N; [destruct t; reflexivity|]. cbn [app cstr].
  destruct (Ascii.eqb_spec c NUL) as [->|]; [exfalso; apply N; left; reflexivity|]. rewrite IH; [reflexivity|]. intros I. apply N. right. exact I.
Qed.

Lemma Ret_inj {A} (x y : A) : Ret x = Ret y -> x = y.
Proof. congruence. Qed.

Section Aes.
Variables E D : bytes -> bytes -> bytes.
(** AES with a key of 32 bytes: blocks to blocks, and back. *)
Hypothesis E_block : forall key b, length key = 32 -> length b = 16 -> length (E key b) = 16.
Hypothesis D_block : forall key b, length key = 32 -> length b = 16 -> length (D key b) = 16.
Hypothesis D_E : forall key b, length key = 32 -> length b = 16 -> D key (E key b) = b.

Lemma cbc_length key n : forall iv s, length key = 32 -> length iv = 16 -> length s = 16 * n -> length (cbc_encrypt E key n iv s) = 16 * n.
Proof.
  induction n as [|n IH]; intros iv s K I L; [reflexivity|]. cbn [cbc_encrypt]. assert (F : length (firstn 16 s) = 16) by (rewrite firstn_length; lia).
  assert (C : length (E key (xors (firstn 16 s) iv)) = 16) by (apply E_block; [exact K|rewrite xors_length; lia]).
  rewrite app_length, C, IH; [lia|exact K|exact C|rewrite skipn_length; lia].
Qed.
Lemma cbc_round key n : forall iv s, length key = 32 -> length iv = 16 -> length s = 16 * n -> fst (cbc_decrypt D key n iv (cbc_encrypt E key n iv s)) = s.
Proof.
  induction n as [|n IH]; intros iv s K I L; [destruct s; [reflexivity|discriminate]|]. cbn [cbc_encrypt cbc_decrypt]. assert (F : length (firstn 16 s) = 16) by (rewrite firstn_length; lia).
  assert (X : length (xors (firstn 16 s) iv) = 16) by (rewrite xors_length; lia).
  assert (C : length (E key (xors (firstn 16 s) iv)) = 16) by (apply E_block; assumption). set (c := E key (xors (firstn 16 s) iv)) in *.
  rewrite (firstn_app 16 c), (skipn_app 16 c), C, (firstn_all2 c), (skipn_all2 c) by lia. change (16 - 16) with 0. rewrite (firstn_O (cbc_encrypt _ _ _ _ _)), (skipn_O (cbc_encrypt _ _ _ _ _)). cbn [app]. rewrite app_nil_r.
  specialize (IH c (skipn 16 s) K C). destruct (cbc_decrypt D key n c (cbc_encrypt E key n c (skipn 16 s))) as [t iv']. cbn [fst] in *.
  rewrite IH by (rewrite skipn_length; lia). unfold c. rewrite D_E by assumption. rewrite xors_twice by lia. apply firstn_skipn.
Qed.

Definition padding (n : nat) : nat := (16 - n mod 16) mod 16.
Lemma padded b : (if length b mod 16 =? 0 then b else b ++ repeat NUL (16 - length b mod 16)) = b ++ repeat NUL (padding (length b)).
Proof.
  unfold padding. pose proof (Nat.mod_upper_bound (length b) 16). destruct (Nat.eqb_spec (length b mod 16) 0) as [Z|Z].
  - rewrite Z. change ((16 - 0) mod 16) with 0. symmetry. apply app_nil_r.
  - rewrite (Nat.mod_small (16 - length b mod 16)) by lia. reflexivity.
Qed.
Lemma padding_whole n : exists k, n + padding n = 16 * k.
Proof.
  unfold padding. pose proof (Nat.div_mod n 16). pose proof (Nat.mod_upper_bound n 16). destruct (Nat.eq_dec (n mod 16) 0) as [Z|Z].
  - rewrite Z. change ((16 - 0) mod 16) with 0. exists (n / 16). lia.
  - rewrite (Nat.mod_small (16 - n mod 16)) by lia. exists (n / 16 + 1). lia.
Qed.

(** What is encrypted takes whole blocks of 16 bytes, less than one more than there was. *)
Theorem C67_size b iv key : length key = 32 -> length iv = 16 ->
  exists c, SAESEncrypt E b iv key = Ret c /\ length c mod 16 = 0 /\ length b <= length c < length b + 16.
Proof.
  intros K I. unfold SAESEncrypt. rewrite K, I. cbn [Nat.eqb negb]. change (16 + 1 <? 16) with false. cbv zeta iota. eexists. split; [reflexivity|].
  rewrite padded. destruct (padding_whole (length b)) as (k & P). assert (L : length (b ++ repeat NUL (padding (length b))) = 16 * k) by (rewrite app_length, repeat_length; exact P).
  assert (IV : length (firstn 16 (iv ++ [NUL])) = 16) by (rewrite firstn_length, app_length; cbn [length]; lia).
  assert (N : length (b ++ repeat NUL (padding (length b))) / 16 = k) by (rewrite L, Nat.mul_comm; apply Nat.div_mul; discriminate).
  rewrite N, (cbc_length key k _ _ K IV L), (Nat.mul_comm 16 k), Nat.mod_mul by discriminate. split; [reflexivity|].
  assert (padding (length b) < 16) by (apply Nat.mod_upper_bound; discriminate). lia.
Qed.
Lemma decrypted b iv key c : length key = 32 -> length iv = 16 -> SAESEncrypt E b iv key = Ret c ->
  exists iv', SAESDecryptNoStrip D c (length c) iv key = Ret (b ++ repeat NUL (padding (length b)), iv').
Proof.
  intros K I R. destruct (C67_size b iv key K I) as (c' & R' & M & _). rewrite R in R'. injection R' as <-.
  unfold SAESEncrypt in R. rewrite K, I in R. cbn [Nat.eqb negb] in R. change (16 + 1 <? 16) with false in R. cbv zeta iota in R. rewrite padded in R. apply Ret_inj in R.
  destruct (padding_whole (length b)) as (k & P). set (pb := b ++ repeat NUL (padding (length b))) in *. assert (L : length pb = 16 * k) by (unfold pb; rewrite app_length, repeat_length; exact P).
  assert (IV : firstn 16 (iv ++ [NUL]) = iv) by (rewrite firstn_app, I, firstn_all2 by lia; apply app_nil_r).
  assert (N : length pb / 16 = k) by (rewrite L, Nat.mul_comm; apply Nat.div_mul; discriminate). rewrite N, IV in R.
  assert (LC : length c = 16 * k) by (rewrite <- R; apply cbc_length; assumption).
  unfold SAESDecryptNoStrip. rewrite K, M, Nat.ltb_irrefl, Nat.sub_diag. cbn [Nat.eqb negb].
  replace (length c / 16) with k by (rewrite LC, Nat.mul_comm; symmetry; apply Nat.div_mul; discriminate).
  pose proof (cbc_round key k iv pb K I L) as X. rewrite R in X. destruct (cbc_decrypt D key k iv c) as [t iv']. cbn [fst] in X. subst t. exists iv'. cbn [repeat]. rewrite app_nil_r. reflexivity.
Qed.
(** Whatever has no NUL byte is decrypted to what it was; without stripping, everything is, with less than a block of NULs behind it. *)
Theorem C67_round_trip b iv key c : length key = 32 -> length iv = 16 -> nul_free b -> SAESEncrypt E b iv key = Ret c -> SAESDecrypt D c iv key = Ret b.
Proof.
  intros K I N R. destruct (decrypted b iv key c K I R) as (iv' & X). unfold SAESDecrypt, SAESDecryptP. rewrite I, X, cstr_app_nul by exact N. reflexivity.
Qed.
Theorem C67_round_trip_any b iv key c : length key = 32 -> length iv = 16 -> SAESEncrypt E b iv key = Ret c ->
  exists n, n < 16 /\ SAESDecryptNoStripS D c (length c) iv key = Ret (b ++ repeat NUL n).
Proof.
  intros K I R. destruct (decrypted b iv key c K I R) as (iv' & X). exists (padding (length b)). split; [apply Nat.mod_upper_bound; discriminate|].
  unfold SAESDecryptNoStripS. rewrite I, X. reflexivity.
Qed.
(** Different texts without NUL bytes are encrypted differently. *)
Theorem C67_distinct b b' iv key : length key = 32 -> length iv = 16 -> nul_free b -> nul_free b' -> b <> b' -> SAESEncrypt E b iv key <> SAESEncrypt E b' iv key.
Proof.
  intros K I N N' NE X. destruct (C67_size b iv key K I) as (c & R & _). pose proof (C67_round_trip b iv key c K I N R) as A. rewrite X in R.
  pose proof (C67_round_trip b' iv key c K I N' R) as B. congruence.
Qed.

(** A message can be decrypted in pieces of whole blocks: the first call leaves in the vector what the next one needs. *)
Lemma cbc_pieces key n m : forall iv s t, length s = 16 * n ->
  cbc_decrypt D key (n + m) iv (s ++ t) = let (a, iv') := cbc_decrypt D key n iv s in let (b, iv'') := cbc_decrypt D key m iv' t in (a ++ b, iv'').
Proof.
  induction n as [|n IH]; intros iv s t L; [destruct s; [|discriminate]; cbn [Nat.add cbc_decrypt app]; destruct (cbc_decrypt D key m iv t); reflexivity|].
  cbn [Nat.add cbc_decrypt]. assert (F : firstn 16 (s ++ t) = firstn 16 s) by (rewrite firstn_app; replace (16 - length s) with 0 by lia; apply app_nil_r).
  assert (G : skipn 16 (s ++ t) = skipn 16 s ++ t) by (rewrite skipn_app; replace (16 - length s) with 0 by lia; reflexivity).
  rewrite F, G, IH by (rewrite skipn_length; lia). destruct (cbc_decrypt D key n (firstn 16 s) (skipn 16 s)) as [a iv']. destruct (cbc_decrypt D key m iv' t) as [b iv'']. rewrite app_assoc. reflexivity.
Qed.
Lemma cbc_decrypt_length key n : forall iv s, length key = 32 -> length iv = 16 -> length s = 16 * n ->
  length (fst (cbc_decrypt D key n iv s)) = 16 * n /\ length (snd (cbc_decrypt D key n iv s)) = 16.
Proof.
  induction n as [|n IH]; intros iv s K I L; [split; [reflexivity|exact I]|]. cbn [cbc_decrypt]. assert (F : length (firstn 16 s) = 16) by (rewrite firstn_length; lia).
  destruct (IH (firstn 16 s) (skipn 16 s) K F) as [A B]; [rewrite skipn_length; lia|]. destruct (cbc_decrypt D key n (firstn 16 s) (skipn 16 s)) as [a iv']. cbn [fst snd] in *.
  split; [|exact B]. rewrite app_length, A, xors_length by (rewrite D_block; auto). rewrite D_block by assumption. lia.
Qed.
Theorem C67_pieces c1 c2 iv key t1 iv1 t2 iv2 : length key = 32 -> length iv = 16 -> length c1 mod 16 = 0 -> length c2 mod 16 = 0 ->
  SAESDecryptNoStrip D c1 (length c1) iv key = Ret (t1, iv1) -> SAESDecryptNoStrip D c2 (length c2) iv1 key = Ret (t2, iv2) ->
  SAESDecryptNoStrip D (c1 ++ c2) (length (c1 ++ c2)) iv key = Ret (t1 ++ t2, iv2).
Proof.
  intros K I M1 M2. unfold SAESDecryptNoStrip. rewrite K, M1, M2, !Nat.ltb_irrefl, !Nat.sub_diag. cbn [Nat.eqb negb repeat].
  pose proof (Nat.div_mod (length c1) 16) as L1. pose proof (Nat.div_mod (length c2) 16) as L2. rewrite app_length.
  assert (S : length c1 + length c2 = (length c1 / 16 + length c2 / 16) * 16) by lia. rewrite S, Nat.mod_mul, Nat.div_mul by discriminate. cbn [Nat.eqb negb].
  rewrite cbc_pieces by lia. destruct (cbc_decrypt D key (length c1 / 16) iv c1) as [a iv']. intros R1 R2. injection R1 as <- <-.
  destruct (cbc_decrypt D key (length c2 / 16) iv' c2) as [b iv'']. injection R2 as <- <-. rewrite !app_nil_r. reflexivity.
Qed.
(** What is not whole blocks is decrypted to nothing. *)
Theorem C67_cut_off c iv key : length key = 32 -> length iv = 16 -> length c mod 16 <> 0 -> SAESDecrypt D c iv key = Ret [].
Proof. intros K I M. unfold SAESDecrypt, SAESDecryptP, SAESDecryptNoStrip. apply Nat.eqb_neq in M. rewrite K, I, M. reflexivity. Qed.
End Aes.
Print Assumptions C67_size.
Print Assumptions C67_round_trip.
Print Assumptions C67_round_trip_any.
Print Assumptions C67_distinct.
Print Assumptions C67_pieces.
Print Assumptions C67_cut_off.

(** ** Authentication codes *)
Lemma mask_short p key n : length key <= n -> mask (repeat p n) key = Some (map (xor8 p) (key ++ repeat NUL (n - length key))).
Proof.
  revert n. induction key as [|k key IH]; intros n L; cbn [mask app length].
  - replace (mask (repeat p n) []) with (Some (repeat p n)) by (destruct n; reflexivity). rewrite Nat.sub_0_r. f_equal. clear L. induction n as [|n IH]; [reflexivity|]. cbn [repeat map]. rewrite IH. f_equal. destruct p as [p0 p1 p2 p3 p4 p5 p6 p7]. unfold xor8, NUL. rewrite !xorb_false_r. reflexivity.
  - destruct n as [|n]; [cbn in L; lia|]. cbn [repeat mask]. rewrite IH by (cbn in L; lia). reflexivity.
Qed.
Lemma mask_long p key n : n < length key -> mask (repeat p n) key = None.
Proof. revert n. induction key as [|k key IH]; intros n L; [cbn in L; lia|]. destruct n as [|n]; [reflexivity|]. cbn [repeat mask]. rewrite IH by (cbn in L; lia). reflexivity. Qed.
(** With a key of at most 64 bytes the code is the one of RFC 2104, whatever the hash function. *)
Theorem C67_hmac H key text : length key <= 64 -> SHMAC H key text = Ret (rfc2104 H key text).
Proof.
  intros L. unfold SHMAC, rfc2104. rewrite !mask_short by exact L. destruct (Nat.ltb_spec 64 (length key)); [lia|]. reflexivity.
Qed.
Print Assumptions C67_hmac.
(** A longer key is not hashed first as it should be: the loop goes on writing behind the end of the two strings (libstuff.cpp 2722-2726). *)
Theorem C67_long_key_refuted : forall H key text, 64 < length key -> SHMAC H key text = Undefined.
Proof. intros H key text L. unfold SHMAC. rewrite !mask_long by exact L. reflexivity. Qed.
Print Assumptions C67_long_key_refuted.

(** ** Base 32 *)
Lemma digits32_small k : forall v, Forall (fun d => d < 32)%N (digits32 k v).
Proof. induction k as [|k IH]; intros v; cbn [digits32]; [constructor|]. apply Forall_app. split; [apply IH|]. constructor; [apply N.mod_upper_bound; discriminate|constructor]. Qed.
Lemma digits32_length k : forall v, length (digits32 k v) = k.
Proof. induction k as [|k IH]; intros v; cbn [digits32]; [reflexivity|]. rewrite app_length, IH. cbn. lia. Qed.
Lemma all_digits (P : N -> bool) : forallb P (map N.of_nat (seq 0 32)) = true -> forall d, (d < 32)%N -> P d = true.
Proof. intros H d L. rewrite forallb_forall in H. apply H. apply in_map_iff. exists (N.to_nat d). split; [apply N2Nat.id|apply in_seq; lia]. Qed.
Lemma one_digit d s : (d < 32)%N -> SBase32HexStringFromBase32 (digit base32_alphabet d :: s) =
  match SBase32HexStringFromBase32 s with Ret r => Ret (digit base32hex_alphabet d :: r) | x => x end.
Proof.
  intros L. assert (X : forallb (fun d => match nth_error b32map (Z.to_nat (to_char (digit base32_alphabet d) - 50)) with Some m => Ascii.eqb m (digit base32hex_alphabet d) && negb (Ascii.eqb m NUL) | None => false end
    && negb (42 <? to_char (digit base32_alphabet d) - 50)%Z && negb (to_char (digit base32_alphabet d) - 50 <? 0)%Z) (map N.of_nat (seq 0 32)) = true) by (vm_compute; reflexivity).
  pose proof (all_digits _ X d L) as Y. clear X. cbv beta in Y. cbn [SBase32HexStringFromBase32]. apply andb_prop in Y as [Y Z]. apply andb_prop in Y as [Y W].
  apply negb_true_iff in Z, W. rewrite Z, W. destruct (nth_error b32map _) as [m|]; [|discriminate]. apply andb_prop in Y as [Y V]. apply negb_true_iff in V. rewrite V. apply Ascii.eqb_eq in Y as ->. reflexivity.
Qed.
Lemma digits_map ds : Forall (fun d => d < 32)%N ds -> forall s r, SBase32HexStringFromBase32 s = Ret r ->
  SBase32HexStringFromBase32 (map (digit base32_alphabet) ds ++ s) = Ret (map (digit base32hex_alphabet) ds ++ r).
Proof. induction 1 as [|d ds L F IH]; intros s r R; [exact R|]. cbn [map app]. rewrite one_digit by exact L. rewrite (IH s r R). reflexivity. Qed.
(** Texts of base 32 become the texts of the same bytes in base32hex. *)
Theorem C67_base32 groups : SBase32HexStringFromBase32 (base32 base32_alphabet groups) = Ret (base32 base32hex_alphabet groups).
Proof. induction groups as [|g gs IH]; [reflexivity|]. cbn [base32]. apply digits_map; [apply digits32_small|exact IH]. Qed.
Print Assumptions C67_base32.
(** Nothing else does: a text it accepts is in the alphabet of base 32. *)
Theorem C67_base32_only s r : SBase32HexStringFromBase32 s = Ret r -> forall c, In c s -> In c base32_alphabet.
Proof.
  revert r. induction s as [|c s IH]; intros r R x; [intros []|intros [<-|I]].
  - cbn [SBase32HexStringFromBase32] in R. assert (X : forallb (fun c => (42 <? to_char c - 50)%Z || (to_char c - 50 <? 0)%Z || match nth_error b32map (Z.to_nat (to_char c - 50)) with Some m => Ascii.eqb m NUL | None => true end || existsb (Ascii.eqb c) base32_alphabet) all_ascii = true) by (vm_compute; reflexivity).
    pose proof (forall_ascii _ X c) as Y. clear X. cbv beta in Y. destruct (42 <? to_char c - 50)%Z; [discriminate|]. destruct (to_char c - 50 <? 0)%Z; [discriminate|]. cbn [orb] in Y.
    destruct (nth_error b32map _) as [m|]; [|discriminate]. destruct (Ascii.eqb m NUL); [discriminate|]. cbn [orb] in Y. apply existsb_exists in Y as (y & I & E). apply Ascii.eqb_eq in E as ->. exact I.
  - cbn [SBase32HexStringFromBase32] in R. destruct (42 <? to_char c - 50)%Z; [discriminate|]. destruct (to_char c - 50 <? 0)%Z; [discriminate|].
    destruct (nth_error b32map _) as [m|]; [|discriminate]. destruct (Ascii.eqb m NUL); [discriminate|]. destruct (SBase32HexStringFromBase32 s) as [r'| | |]; try discriminate. apply (IH r' eq_refl x I).
Qed.
Print Assumptions C67_base32_only.

Lemma prefix32_app ds : Forall (fun d => d < 32)%N ds -> forall acc s, prefix32 acc (map (digit base32hex_alphabet) ds ++ s) = prefix32 (fold_left (fun a d => 32 * a + d)%N ds acc) s.
Proof.
  assert (X : forallb (fun d => match val32 (digit base32hex_alphabet d) with Some e => N.eqb e d | None => false end) (map N.of_nat (seq 0 32)) = true) by (vm_compute; reflexivity).
  induction 1 as [|d ds L F IH]; intros acc s; [reflexivity|]. cbn [map app prefix32 fold_left]. pose proof (all_digits _ X d L) as Y. cbv beta in Y.
  destruct (val32 (digit base32hex_alphabet d)) as [e|]; [|discriminate]. apply N.eqb_eq in Y as ->. apply IH.
Qed.
Lemma digits32_value k : forall v acc, (v < 32 ^ N.of_nat k)%N -> fold_left (fun a d => 32 * a + d)%N (digits32 k v) acc = (acc * 32 ^ N.of_nat k + v)%N.
Proof.
  induction k as [|k IH]; intros v acc L; [cbn [digits32 fold_left]; change (32 ^ N.of_nat 0)%N with 1%N in *; lia|]. cbn [digits32]. rewrite fold_left_app. cbn [fold_left].
  rewrite Nat2N.inj_succ, N.pow_succ_r' in *. rewrite IH by (apply N.div_lt_upper_bound; [discriminate|exact L]). pose proof (N.div_mod v 32). nia.
Qed.
Lemma hexdigit_plain d : (d < 32)%N -> Ascii.eqb (digit base32hex_alphabet d) NUL = false /\ is_space (digit base32hex_alphabet d) = false /\ Ascii.eqb (digit base32hex_alphabet d) "-" = false /\ Ascii.eqb (digit base32hex_alphabet d) "+" = false /\ exists e, val32 (digit base32hex_alphabet d) = Some e.
Proof.
  intros L. assert (X : forallb (fun d => negb (Ascii.eqb (digit base32hex_alphabet d) NUL) && negb (is_space (digit base32hex_alphabet d)) && negb (Ascii.eqb (digit base32hex_alphabet d) "-") && negb (Ascii.eqb (digit base32hex_alphabet d) "+")
    && match val32 (digit base32hex_alphabet d) with Some _ => true | None => false end) (map N.of_nat (seq 0 32)) = true) by (vm_compute; reflexivity).
  pose proof (all_digits _ X d L) as Y. clear X. cbv beta in Y. repeat (apply andb_prop in Y as [Y ?Z]). rewrite negb_true_iff in *. repeat split; try assumption. destruct (val32 _) as [e|]; [exists e; reflexivity|discriminate].
Qed.
Lemma cstr_digits ds : Forall (fun d => d < 32)%N ds -> cstr (map (digit base32hex_alphabet) ds) = map (digit base32hex_alphabet) ds.
Proof. induction 1 as [|d ds L F IH]; [reflexivity|]. cbn [map cstr]. destruct (hexdigit_plain d L) as (A & _). rewrite A, IH. reflexivity. Qed.
Lemma stoull32_digits v : (v < 32 ^ 8)%N -> stoull32 (map (digit base32hex_alphabet) (digits32 8 v)) = Some v.
Proof.
  intros L. pose proof (digits32_small 8 v) as F. pose proof (digits32_value 8 v 0 L) as V. pose proof (prefix32_app _ F 0 []) as P. rewrite app_nil_r, V in P. cbn [prefix32] in P.
  unfold stoull32. rewrite cstr_digits by exact F. destruct (digits32 8 v) as [|d ds] eqn:E; [pose proof (digits32_length 8 v) as X; rewrite E in X; discriminate|].
  inversion F as [|? ? LD FD]; subst. destruct (hexdigit_plain d LD) as (_ & S & M & Q & (e & VE)). cbn [map]. cbn [skip_space]. rewrite S.
  set (c := digit base32hex_alphabet d) in *. match goal with |- (let (_, _) := ?X in _) = _ => assert (C : X = (false, c :: map (digit base32hex_alphabet) ds)) end.
  { apply Ascii.eqb_neq in M, Q. destruct c as [[] [] [] [] [] [] [] []]; try reflexivity; congruence. }
  rewrite C, VE. f_equal. rewrite <- (N.add_0_l v). exact P.
Qed.
Lemma number_snoc g c : number (g ++ [c]) = (number g * 256 + bcode c)%N.
Proof. unfold number. rewrite fold_left_app. reflexivity. Qed.
Lemma number_bound g : (number g < 256 ^ N.of_nat (length g))%N.
Proof.
  induction g as [|c g IH] using rev_ind; [reflexivity|]. rewrite number_snoc, app_length. cbn [length]. rewrite Nat.add_1_r, Nat2N.inj_succ, N.pow_succ_r'. pose proof (N_ascii_bounded c). unfold bcode. lia.
Qed.
Lemma hex_number_bytes g : forall acc, to_hex_num (number g) (2 * length g) acc = SToHexS g ++ acc.
Proof.
  induction g as [|c g IH] using rev_ind; intros acc; [reflexivity|]. rewrite app_length, number_snoc. cbn [length]. replace (2 * (length g + 1)) with (S (S (2 * length g))) by lia. cbn [to_hex_num].
  assert (B : (bcode c < 256)%N) by apply N_ascii_bounded. pose proof (N.div_mod (bcode c) 16). pose proof (N.mod_upper_bound (bcode c) 16).
  assert (D1 : ((number g * 256 + bcode c) / 16 = number g * 16 + bcode c / 16)%N) by (replace (number g * 256 + bcode c)%N with (bcode c + (number g * 16) * 16)%N by lia; rewrite N.div_add by discriminate; lia).
  assert (M1 : ((number g * 256 + bcode c) mod 16 = bcode c mod 16)%N) by (replace (number g * 256 + bcode c)%N with (bcode c + (number g * 16) * 16)%N by lia; apply N.mod_add; discriminate).
  assert (B2 : (bcode c / 16 < 16)%N) by (apply N.div_lt_upper_bound; [discriminate|exact B]).
  rewrite D1, M1. assert (D2 : ((number g * 16 + bcode c / 16) / 16 = number g)%N) by (rewrite N.add_comm, N.div_add by discriminate; rewrite N.div_small by exact B2; reflexivity).
  assert (M2 : ((number g * 16 + bcode c / 16) mod 16 = bcode c / 16)%N) by (rewrite N.add_comm, N.mod_add by discriminate; apply N.mod_small; exact B2).
  rewrite D2, M2, IH. unfold SToHexS. rewrite flat_map_app, <- app_assoc. reflexivity.
Qed.
Lemma base32_length al gs : length (base32 al gs) = 8 * length gs.
Proof. induction gs as [|g gs IH]; [reflexivity|]. cbn [base32]. rewrite app_length, map_length, digits32_length, IH. cbn [length]. lia. Qed.
Lemma base32_app al a b : base32 al (a ++ b) = base32 al a ++ base32 al b.
Proof. induction a as [|g a IH]; [reflexivity|]. cbn [app base32]. rewrite IH, app_assoc. reflexivity. Qed.
Lemma hex_groups_all gs : Forall (fun g => length g = 5) gs -> forall t hex, hex_groups (length gs) (base32 base32hex_alphabet gs ++ t) hex = Ret (flat_map SToHexS gs ++ hex).
Proof.
  induction gs as [|g gs IH] using rev_ind; intros F t hex; [reflexivity|]. apply Forall_app in F as [F G]. inversion G as [|? ? LG _]; subst. rewrite app_length. cbn [length]. rewrite Nat.add_1_r. cbn [hex_groups].
  rewrite base32_app. cbn [base32]. rewrite app_nil_r, <- app_assoc. assert (X : skipn (8 * length gs) (base32 base32hex_alphabet gs ++ map (digit base32hex_alphabet) (digits32 8 (number g)) ++ t) = map (digit base32hex_alphabet) (digits32 8 (number g)) ++ t).
  { pose proof (base32_length base32hex_alphabet gs) as BL. etransitivity; [apply skipn_app|]. rewrite skipn_all2, BL by (rewrite BL; apply le_n). rewrite Nat.sub_diag. reflexivity. }
  rewrite X. assert (Y : firstn 8 (map (digit base32hex_alphabet) (digits32 8 (number g)) ++ t) = map (digit base32hex_alphabet) (digits32 8 (number g))).
  { rewrite firstn_app, map_length, digits32_length, firstn_all2 by (rewrite map_length, digits32_length; lia). apply app_nil_r. }
  rewrite Y. pose proof (number_bound g) as B. rewrite LG in B. rewrite stoull32_digits by exact B.
  rewrite IH by exact F. f_equal. rewrite flat_map_app. cbn [flat_map]. rewrite app_nil_r, <- app_assoc. f_equal. unfold SToHexN. pose proof (hex_number_bytes g []) as Z. rewrite LG in Z. change (2 * 5) with 10 in Z. rewrite Z, app_nil_r. reflexivity.
Qed.
(** From base 32 to bytes: what was written in groups of five bytes is read back. *)
Theorem C67_base32_bytes groups : Forall (fun g => length g = 5) groups ->
  exists t h, SBase32HexStringFromBase32 (base32 base32_alphabet groups) = Ret t /\ SHexStringFromBase32 t = Ret h /\ SStrFromHex h = List.concat groups.
Proof.
  intros F. eexists _, _. split; [apply C67_base32|]. split.
  - unfold SHexStringFromBase32. rewrite base32_length, (Nat.mul_comm 8), Nat.mod_mul, Nat.div_mul by discriminate. cbn [Nat.eqb negb].
    rewrite <- (app_nil_r (base32 base32hex_alphabet groups)). apply hex_groups_all. exact F.
  - rewrite app_nil_r. rewrite <- (SStrFromHex_SToHexS (List.concat groups)). f_equal. unfold SToHexS. clear F. induction groups as [|g gs IH]; [reflexivity|]. cbn [flat_map List.concat]. rewrite flat_map_app, IH. reflexivity.
Qed.
Print Assumptions C67_base32_bytes.

(** ** Cases *)
(** A cipher that adds the first byte of the key. *)
Definition toy_E (key b : bytes) : bytes := map (xor8 (hd NUL key)) b.
Definition ex_key : bytes := lit "0123456789abcdef0123456789ABCDEF".
Definition ex_iv : bytes := lit "fedcba9876543210".
Lemma toy_ok : (forall key b, length key = 32 -> length b = 16 -> length (toy_E key b) = 16) /\ (forall key b, length key = 32 -> length b = 16 -> toy_E key (toy_E key b) = b).
Proof.
  split; intros key b _ L; unfold toy_E; [rewrite map_length; exact L|]. rewrite map_map. rewrite <- (map_id b) at 2. apply map_ext. intros a.
  generalize (hd NUL key) as k. intros [k0 k1 k2 k3 k4 k5 k6 k7]. destruct a as [a0 a1 a2 a3 a4 a5 a6 a7]. unfold xor8. rewrite <- !xorb_assoc, !xorb_nilpotent, !xorb_false_l. reflexivity.
Qed.
Example ex_round : exists c, SAESEncrypt toy_E (lit "attack at dawn, twice") ex_iv ex_key = Ret c /\ length c = 32 /\ SAESDecrypt toy_E c ex_iv ex_key = Ret (lit "attack at dawn, twice").
Proof. eexists. split; [vm_compute; reflexivity|]. split; vm_compute; reflexivity. Qed.
Example ex_base32 : base32 base32_alphabet [lit "hello"; lit "world"] = lit "NBSWY3DPO5XXE3DE" /\
  SBase32HexStringFromBase32 (lit "NBSWY3DPO5XXE3DE") = Ret (lit "D1IMOR3FETNN4R34") /\ SHexStringFromBase32 (lit "D1IMOR3FETNN4R34") = Ret (lit "68656C6C6F776F726C64").
Proof. vm_compute. repeat split. Qed.
Example ex_hmac : SHMAC (fun b => firstn 3 (rev b)) (lit "key") (lit "text") = Ret (rfc2104 (fun b => firstn 3 (rev b)) (lit "key") (lit "text")).
Proof. vm_compute. reflexivity. Qed.

(** ** What does not hold *)
(** What follows a NUL byte is lost when it is decrypted: padding is told from data by its value (libstuff.cpp 2441-2445). *)
Theorem C67_nul_refuted : exists b c, SAESEncrypt toy_E b ex_iv ex_key = Ret c /\ SAESDecrypt toy_E c ex_iv ex_key = Ret (lit "ab") /\ b = lit "ab" ++ NUL :: lit "cd".
Proof. eexists _, _. split; [|split; [|reflexivity]]; [vm_compute; reflexivity|vm_compute; reflexivity]. Qed.
Print Assumptions C67_nul_refuted.
(** The length of the vector is checked when decrypting but not when encrypting (libstuff.cpp 2424-2425): with a shorter one,
    memory behind it is used as if it belonged to it; one of 15 bytes works, but nothing can be decrypted with it. *)
Theorem C67_vector_refuted :
  SAESEncrypt toy_E (lit "a") (lit "short") ex_key = Undefined /\
  (exists c, SAESEncrypt toy_E (lit "a") (firstn 15 ex_iv) ex_key = Ret c /\ SAESDecrypt toy_E c (firstn 15 ex_iv) ex_key = Abort).
Proof. split; [vm_compute; reflexivity|]. eexists. split; vm_compute; reflexivity. Qed.
Print Assumptions C67_vector_refuted.
(** Characters below the digit 2 and a backslash are looked up outside the table (libstuff.cpp 408-410): the test has no lower
    bound, and its upper one lets through one place too many.  So a text with a space, a line end or the digits 0 and 1 is
    not refused but read with whatever is there. *)
Theorem C67_outside_table_refuted :
  (forall c, (bcode c < 50)%N \/ (128 <= bcode c)%N \/ c = "\"%char -> SBase32HexStringFromBase32 [c] = Undefined).
Proof.
  intros c H. assert (X : forallb (fun c => negb ((bcode c <? 50)%N || (128 <=? bcode c)%N || Ascii.eqb c "\") || match SBase32HexStringFromBase32 [c] with Undefined => true | _ => false end) all_ascii = true) by (vm_compute; reflexivity).
  pose proof (forall_ascii _ X c) as Y. clear X. cbv beta in Y. assert (T : ((bcode c <? 50)%N || (128 <=? bcode c)%N || Ascii.eqb c "\") = true).
  { destruct H as [H|[H|H]]; [apply N.ltb_lt in H; rewrite H; reflexivity|apply N.leb_le in H; rewrite H; rewrite orb_true_r; reflexivity|subst c; reflexivity]. }
  rewrite T in Y. cbn [negb orb] in Y. destruct (SBase32HexStringFromBase32 [c]); try discriminate. reflexivity.
Qed.
Print Assumptions C67_outside_table_refuted.
(** The second step takes texts that are not base32hex: a group is read up to the first character that is no digit, and a
    sign makes it negative. *)
Theorem C67_not_digits_refuted : SHexStringFromBase32 (lit "1!!!!!!!") = Ret (lit "0000000001") /\ SHexStringFromBase32 (lit "-1!!!!!!") = Ret (lit "FFFFFFFFFF").
Proof. vm_compute. split; reflexivity. Qed.
Print Assumptions C67_not_digits_refuted.
