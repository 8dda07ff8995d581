(** C69: what must not be seen is not in the log. *)
From Verif Require Import Base Maps Text_Spec Text_Model Text_Proofs Redact_Spec Redact_Model.

(** ** Substitution *)
Definition good (m : bytes -> option nat) : Prop := forall s n, m s = Some n -> 0 < n.
Definition go (m : bytes -> option nat) (r s : bytes) : bytes := substitute m r (length s) s.

Lemma substitute_fuel m r : good m -> forall f s, length s <= f -> substitute m r f s = substitute m r (length s) s.
Proof.
  intros G. assert (H : forall k f s, length s <= k -> length s <= f -> substitute m r f s = substitute m r (length s) s).
  { induction k as [|k IH]; intros f [|c s] K F; try (destruct f; reflexivity); [cbn in K; lia|]. destruct f as [|f]; [cbn in F; lia|]. cbn [length substitute] in *.
    destruct (m (c :: s)) as [n|] eqn:M.
    - f_equal. pose proof (G _ _ M). assert (length (skipn n (c :: s)) <= length s) by (rewrite skipn_length; cbn [length]; lia).
      rewrite (IH f (skipn n (c :: s))) by lia. symmetry. apply IH; lia.
    - f_equal. rewrite (IH f s) by lia. symmetry. apply IH; lia. }
  intros f s L. exact (H (length s) f s (Nat.le_refl _) L).
Qed.
Lemma go_nil m r : go m r [] = []. Proof. reflexivity. Qed.
Lemma go_match m r c s n : good m -> m (c :: s) = Some n -> go m r (c :: s) = r ++ go m r (skipn n (c :: s)).
Proof. intros G M. unfold go at 1. cbn [length substitute]. rewrite M. f_equal. apply substitute_fuel; [exact G|]. pose proof (G _ _ M). rewrite skipn_length. cbn [length]. lia. Qed.
Lemma go_keep m r c s : m (c :: s) = None -> go m r (c :: s) = c :: go m r s.
Proof. intros M. unfold go. cbn [length substitute]. rewrite M. reflexivity. Qed.
Lemma go_none m r s : (forall p q, s = p ++ q -> m q = None) -> go m r s = s.
Proof. induction s as [|c s IH]; intros H; [reflexivity|]. rewrite go_keep by exact (H [] _ eq_refl). rewrite IH; [reflexivity|]. intros p q E. apply (H (c :: p)). rewrite E. reflexivity. Qed.

Lemma line_one s : one_line (line s).
Proof. induction s as [|c s IH]; [intros []|]. cbn [line]. destruct (Ascii.eqb_spec c LF); [intros []|]. intros [I|I]; [exact (n I)|exact (IH I)]. Qed.
Lemma line_app a b : one_line a -> line (a ++ b) = a ++ line b.
Proof. unfold one_line. induction a as [|c a IH]; intros N; [reflexivity|]. cbn [app line]. destruct (Ascii.eqb_spec c LF) as [->|]; [exfalso; apply N; left; reflexivity|]. rewrite IH; [reflexivity|]. intros I. apply N. right. exact I. Qed.
Lemma line_split s : exists t, s = line s ++ t.
Proof. induction s as [|c s [t IH]]; [exists []; reflexivity|]. cbn [line]. destruct (Ascii.eqb c LF); [exists (c :: s); reflexivity|]. exists t. cbn [app]. rewrite <- IH. reflexivity. Qed.
Lemma line_length s : length (line s) <= length s.
Proof. destruct (line_split s) as [t E]. rewrite E at 2. rewrite app_length. lia. Qed.
Lemma one_line_app a b : one_line (a ++ b) <-> one_line a /\ one_line b.
Proof. unfold one_line. rewrite in_app_iff. tauto. Qed.
Lemma lf_dec s : one_line s \/ exists p q, s = p ++ LF :: q /\ one_line p.
Proof.
  induction s as [|c s IH]; [left; intros []|]. destruct (Ascii.eqb_spec c LF) as [->|N]; [right; exists [], s; split; [reflexivity|intros []]|].
  destruct IH as [H|(p & q & -> & H)]; [left; intros [I|I]; [exact (N I)|exact (H I)]|]. right. exists (c :: p), q. split; [reflexivity|]. intros [I|I]; [exact (N I)|exact (H I)].
Qed.

Lemma starts_true p s : starts p s = true -> exists t, s = p ++ t.
Proof. unfold starts. intros H. apply bytes_eqb_eq in H. exists (skipn (length p) s). rewrite <- H at 1. symmetry. apply firstn_skipn. Qed.
Lemma starts_app p t : starts p (p ++ t) = true.
Proof. unfold starts. rewrite firstn_app, Nat.sub_diag, firstn_O, app_nil_r, firstn_all. apply bytes_eqb_refl. Qed.
Lemma starts_more p s t : length p <= length s -> starts p (s ++ t) = starts p s.
Proof. intros L. unfold starts. rewrite firstn_app. replace (length p - length s) with 0 by lia. rewrite firstn_O, app_nil_r. reflexivity. Qed.

Lemma from_to_good P e : 0 < length P -> good (from_to P e).
Proof. intros L s n. unfold from_to. destruct (starts P s); [|discriminate]. destruct (e _); [|discriminate]. intros E. injection E as <-. lia. Qed.

(** ** What stands between a beginning and an end has no influence *)
Section Between.
Variable P R : bytes.
Variable e : bytes -> option nat.
Hypothesis P_some : 0 < length P.
Hypothesis P_line : one_line P.
Hypothesis e_bound : forall l k, e l = Some k -> k <= length l.
Notation m := (from_to P e).


Variables x y b : bytes.
Hypothesis x_line : one_line x.
Hypothesis y_line : one_line y.
(** Wherever a match begins before them, it ends before them or behind them. *)
Hypothesis ends : forall u t, one_line u -> (exists p, P = p ++ t) ->
  (exists k, 0 < k <= length u /\ e (u ++ t ++ x ++ line b) = Some k /\ e (u ++ t ++ y ++ line b) = Some k) \/
  (exists j, e (u ++ t ++ x ++ line b) = Some (length (u ++ t ++ x) + j) /\ e (u ++ t ++ y ++ line b) = Some (length (u ++ t ++ y) + j)).

Lemma go_some s n : m s = Some n -> s <> [] -> go m R s = R ++ go m R (skipn n s).
Proof. intros M N. destruct s as [|c s]; [congruence|]. apply go_match; [apply from_to_good, P_some|exact M]. Qed.
Lemma between_le k : forall a, length a <= k -> go m R (a ++ P ++ x ++ b) = go m R (a ++ P ++ y ++ b).
Proof.
  induction k as [k IHk] using lt_wf_ind. intros a L.
  assert (IH : forall a', length a' < length a -> go m R (a' ++ P ++ x ++ b) = go m R (a' ++ P ++ y ++ b)).
  { intros a' L'. apply (IHk (length a')); lia. }
  assert (NE : forall z, a ++ P ++ z ++ b <> []) by (intros z E; apply (f_equal (@length _)) in E; rewrite !app_length in E; cbn [length] in E; lia).
  assert (ST : forall z, starts P (a ++ P ++ z ++ b) = starts P (a ++ P)) by (intros z; rewrite (app_assoc a P); apply starts_more; rewrite app_length; lia).
  assert (KEEP : (forall z, m (a ++ P ++ z ++ b) = None) -> a <> [] -> go m R (a ++ P ++ x ++ b) = go m R (a ++ P ++ y ++ b)).
  { intros M N. destruct a as [|c a']; [congruence|]. cbn [app]. pose proof (M x) as Mx. pose proof (M y) as My. cbn [app] in Mx, My. rewrite !go_keep by assumption. f_equal. apply IH. cbn [length]. lia. }
  destruct (starts P (a ++ P)) eqn:E.
  2:{ apply KEEP; [intros z; unfold from_to; rewrite ST; reflexivity|]. intros ->. cbn [app] in E. rewrite <- (app_nil_r P) in E at 2. rewrite starts_app in E. discriminate. }
  set (u := skipn (length P) a) in *. set (t := skipn (length P - length a) P) in *.
  assert (W : forall z, skipn (length P) (a ++ P ++ z ++ b) = u ++ t ++ z ++ b).
  { intros z. rewrite skipn_app. fold u. f_equal. rewrite skipn_app. fold t. f_equal. replace (length P - length a - length P) with 0 by lia. reflexivity. }
  assert (T : exists p, P = p ++ t) by (exists (firstn (length P - length a) P); symmetry; apply firstn_skipn).
  assert (TL : one_line t) by (destruct T as [p T]; rewrite T in P_line; apply one_line_app in P_line; apply P_line).
  assert (UL : length u = length a - length P) by apply skipn_length.
  assert (TP : u <> [] -> t = P) by (intros N; unfold t; replace (length P - length a) with 0 by (destruct u; [congruence|cbn [length] in UL; lia]); reflexivity).
  assert (Q : forall z k0, skipn (length P + k0) (a ++ P ++ z ++ b) = skipn k0 (u ++ t ++ z ++ b)) by (intros z k0; rewrite <- W, skipn_skipn; f_equal; lia).
  destruct (lf_dec u) as [U|(p & q & U & N)].
  - assert (LN : forall z, one_line z -> line (u ++ t ++ z ++ b) = u ++ t ++ z ++ line b) by (intros z Z; rewrite !line_app by assumption; reflexivity).
    destruct (ends u t U T) as [(k0 & K & X & Y)|(j & X & Y)].
    + assert (M : forall z, one_line z -> e (u ++ t ++ z ++ line b) = Some k0 -> go m R (a ++ P ++ z ++ b) = R ++ go m R (skipn k0 u ++ P ++ z ++ b)).
      { intros z Z EZ. rewrite (go_some _ (length P + k0)); [|unfold from_to; rewrite ST, W, LN, EZ by exact Z; reflexivity|apply NE]. f_equal. f_equal. rewrite Q, skipn_app. replace (k0 - length u) with 0 by lia. rewrite skipn_O, TP; [reflexivity|]. intros ->. cbn [length] in K. lia. }
      rewrite (M x), (M y) by assumption. f_equal. apply IH. rewrite skipn_length. lia.
    + assert (M : forall z, one_line z -> e (u ++ t ++ z ++ line b) = Some (length (u ++ t ++ z) + j) -> go m R (a ++ P ++ z ++ b) = R ++ go m R (skipn j b)).
      { intros z Z EZ. rewrite (go_some _ (length P + (length (u ++ t ++ z) + j))); [|unfold from_to; rewrite ST, W, LN, EZ by exact Z; reflexivity|apply NE]. f_equal. f_equal. rewrite Q. replace (u ++ t ++ z ++ b) with ((u ++ t ++ z) ++ b) by (rewrite <- !app_assoc; reflexivity).
        rewrite skipn_app, skipn_all2 by lia. cbn [app]. f_equal. lia. }
      rewrite (M x), (M y) by assumption. reflexivity.
  - assert (UN : u <> []) by (rewrite U; destruct p; discriminate). specialize (TP UN). assert (LN : forall z, line (u ++ t ++ z ++ b) = p).
    { intros z. rewrite U, <- app_assoc, line_app by exact N. cbn [app line]. change (Ascii.eqb LF LF) with true. cbv iota. apply app_nil_r. }
    destruct (e p) as [k0|] eqn:K.
    + pose proof (e_bound _ _ K) as B. assert (M : forall z, go m R (a ++ P ++ z ++ b) = R ++ go m R (skipn k0 u ++ P ++ z ++ b)).
      { intros z. rewrite (go_some _ (length P + k0)); [|unfold from_to; rewrite ST, W, LN, K; reflexivity|apply NE]. f_equal. f_equal. rewrite Q, skipn_app. assert (length u = length p + S (length q)) by (rewrite U, app_length; reflexivity). replace (k0 - length u) with 0 by lia. rewrite skipn_O, TP. reflexivity. }
      rewrite !M. f_equal. apply IH. rewrite skipn_length. destruct u; [congruence|]. cbn [length] in *. lia.
    + apply KEEP; [intros z; unfold from_to; rewrite ST, W, LN, K; reflexivity|]. intros ->. unfold u in UN. rewrite skipn_nil in UN. congruence.
Qed.
Lemma between a : go m R (a ++ P ++ x ++ b) = go m R (a ++ P ++ y ++ b).
Proof. apply (between_le (length a)). lia. Qed.
End Between.

Lemma from_to_none P e R s : ~ occurs P s -> go (from_to P e) R s = s.
Proof. intros N. apply go_none. intros p q ->. unfold from_to. destruct (starts P q) eqn:S; [|reflexivity]. apply starts_true in S. destruct S as [t ->]. exfalso. apply N. exists p, t. reflexivity. Qed.

(** ** Ends *)
Lemma behind_last_bound c l : forall k, behind_last c l = Some k -> k <= length l.
Proof. induction l as [|d l IH]; intros k H; [discriminate|]. cbn [behind_last] in H. destruct (behind_last c l) as [n|]; [injection H as <-; specialize (IH n eq_refl); cbn [length]; lia|]. destruct (Ascii.eqb d c); [|discriminate]. injection H as <-. cbn [length]. lia. Qed.
Lemma behind_first_bound c l : forall k, behind_first c l = Some k -> 0 < k <= length l.
Proof. induction l as [|d l IH]; intros k H; [discriminate|]. cbn [behind_first] in H. destruct (Ascii.eqb d c); [injection H as <-; cbn [length]; lia|]. destruct (behind_first c l) as [n|]; [|discriminate]. injection H as <-. specialize (IH n eq_refl). cbn [length]. lia. Qed.
Lemma behind_last_app c a l k : behind_last c l = Some k -> behind_last c (a ++ l) = Some (length a + k).
Proof. intros H. induction a as [|d a IH]; [exact H|]. cbn [app behind_last length]. rewrite IH. reflexivity. Qed.
Lemma behind_last_here c l : exists k, behind_last c (c :: l) = Some (S k).
Proof. cbn [behind_last]. destruct (behind_last c l) as [n|]; [exists n; reflexivity|]. rewrite Ascii.eqb_refl. exists 0. reflexivity. Qed.
Lemma behind_first_app c a l : ~ In c a -> behind_first c (a ++ l) = match behind_first c l with Some k => Some (length a + k) | None => None end.
Proof.
  induction a as [|d a IH]; intros N; [cbn [app length]; destruct (behind_first c l); reflexivity|]. cbn [app behind_first length]. destruct (Ascii.eqb_spec d c) as [->|]; [exfalso; apply N; left; reflexivity|].
  rewrite IH by (intros I; apply N; right; exact I). destruct (behind_first c l); reflexivity.
Qed.
Lemma behind_first_in c a l : In c a -> exists k, 0 < k <= length a /\ behind_first c (a ++ l) = Some k.
Proof.
  induction a as [|d a IH]; intros I; [destruct I|]. cbn [app behind_first length]. destruct (Ascii.eqb_spec d c) as [->|N]; [exists 1; split; [lia|reflexivity]|]. destruct I as [I|I]; [contradiction|].
  destruct (IH I) as (k & K & E). rewrite E. exists (S k). split; [lia|reflexivity].
Qed.

Lemma token_line : one_line TOKEN. Proof. vm_compute. intuition discriminate. Qed.
Lemma html_line : one_line HTML. Proof. vm_compute. intuition discriminate. Qed.
Lemma edits_line : one_line EDITS. Proof. vm_compute. intuition discriminate. Qed.

Lemma token_step a x y b : one_line x -> one_line y -> (b = [] \/ exists b', b = LF :: b') ->
  go token_match TOKEN_GONE (a ++ TOKEN ++ x ++ b) = go token_match TOKEN_GONE (a ++ TOKEN ++ y ++ b).
Proof.
  intros X Y B. apply between; try assumption; [cbn; lia|exact token_line|intros l k E; injection E as <-; lia|].
  intros u t _ _. right. exists 0. assert (line b = []) as -> by (destruct B as [->|[b' ->]]; reflexivity). rewrite !app_nil_r, !Nat.add_0_r. split; reflexivity.
Qed.
Lemma html_step a x y b : one_line x -> one_line y -> go html_match HTML_GONE (a ++ HTML ++ x ++ QUOTE :: b) = go html_match HTML_GONE (a ++ HTML ++ y ++ QUOTE :: b).
Proof.
  intros X Y. apply between; try assumption; [cbn; lia|exact html_line|apply behind_last_bound|].
  intros u t _ _. right. cbn [line]. change (Ascii.eqb QUOTE LF) with false. cbv iota. destruct (behind_last_here QUOTE (line b)) as [k K]. exists (S k).
  split; (rewrite !app_assoc; rewrite (behind_last_app _ _ _ _ K); reflexivity).
Qed.
Lemma edits_step a x y b : one_line x -> one_line y -> ~ In "]"%char x -> ~ In "]"%char y -> go edits_match EDITS_GONE (a ++ EDITS ++ x ++ "]"%char :: b) = go edits_match EDITS_GONE (a ++ EDITS ++ y ++ "]"%char :: b).
Proof.
  intros X Y NX NY. apply between; try assumption; [cbn; lia|exact edits_line|intros l k H; apply behind_first_bound in H; lia|].
  intros u t _ [p T]. change (line ("]"%char :: b)) with ("]"%char :: line b). destruct (in_dec ascii_dec "]"%char u) as [I|N].
  - left. destruct (behind_first_in _ u (t ++ x ++ "]"%char :: line b) I) as (k & K & E). exists k. split; [exact K|]. split; [exact E|].
    assert (behind_first_in' : forall l l', In "]"%char u -> behind_first "]"%char (u ++ l) = behind_first "]"%char (u ++ l')).
    { clear. intros l l'. induction u as [|d u IH]; intros I; [destruct I|]. cbn [app behind_first]. destruct (Ascii.eqb_spec d "]"%char); [reflexivity|]. destruct I as [I|I]; [contradiction|]. rewrite IH by exact I. reflexivity. }
    rewrite <- E. apply behind_first_in', I.
  - right. exists 1. assert (NT : ~ In "]"%char t) by (intros I; assert (J : In "]"%char EDITS) by (rewrite T; apply in_or_app; right; exact I); revert J; vm_compute; intuition discriminate).
    split; (rewrite !app_assoc; rewrite behind_first_app by (rewrite !in_app_iff; tauto); cbn [behind_first]; change (Ascii.eqb "]"%char "]"%char) with true; cbv iota; reflexivity).
Qed.

(** ** Encrypted values *)
Definition in_encrypted (c : ascii) : bool := Ascii.eqb c "v"%char || hexadecimal c || Ascii.eqb c ":"%char.
Lemma count_app f u c w : f c = false -> count f (u ++ c :: w) = count f u.
Proof. intros F. induction u as [|d u IH]; cbn [app count]; [rewrite F; reflexivity|]. rewrite IH. reflexivity. Qed.
Lemma count_le f s : count f s <= length s.
Proof. induction s as [|c s IH]; cbn [count length]; [lia|]. destruct (f c); lia. Qed.
Lemma not_in_encrypted c : in_encrypted c = false -> Ascii.eqb c "v"%char = false /\ digit c = false /\ hexadecimal c = false /\ Ascii.eqb c ":"%char = false.
Proof. unfold in_encrypted, hexadecimal. intros H. apply orb_false_elim in H. destruct H as [H H4]. apply orb_false_elim in H. destruct H as [H1 H2]. pose proof H2 as H3. apply orb_false_elim in H3. destruct H3 as [H3 _]. repeat split; assumption. Qed.
Lemma encrypted_match_app u c w : in_encrypted c = false -> u <> [] -> encrypted_match (u ++ c :: w) = encrypted_match u.
Proof.
  intros F N. apply not_in_encrypted in F. destruct F as (F1 & F2 & F3 & F4). destruct u as [|d u]; [congruence|]. cbn [app encrypted_match]. destruct (negb (Ascii.eqb d "v"%char)); [reflexivity|].
  rewrite count_app by exact F2. pose proof (count_le digit u). rewrite skipn_app. replace (count digit u - length u) with 0 by lia. rewrite skipn_O. destruct (skipn (count digit u) u) as [|d2 u2]; cbn [app].
  - rewrite F4, andb_false_r. reflexivity.
  - rewrite count_app by exact F3. reflexivity.
Qed.
Lemma encrypted_match_bound s n : encrypted_match s = Some n -> 0 < n <= length s.
Proof.
  destruct s as [|c s]; [discriminate|]. cbn [encrypted_match]. destruct (negb _); [discriminate|]. pose proof (count_le digit s). destruct (skipn (count digit s) s) as [|c2 s2] eqn:E; [discriminate|].
  destruct (_ && _); [|discriminate]. intros H0. injection H0 as <-. apply (f_equal (@length _)) in E. rewrite skipn_length in E. cbn [length] in *. pose proof (count_le hexadecimal s2). lia.
Qed.
Lemma encrypted_good : good encrypted_match.
Proof. intros s n H. apply encrypted_match_bound in H. lia. Qed.
Notation hide := (go encrypted_match ENCRYPTED_GONE).
Lemma hide_split c w : in_encrypted c = false -> forall u, hide (u ++ c :: w) = hide u ++ c :: hide w.
Proof.
  intros F. assert (H : forall k u, length u <= k -> hide (u ++ c :: w) = hide u ++ c :: hide w).
  { induction k as [|k IH]; intros [|d u] L; [| cbn in L; lia| |].
    1, 2: (cbn [app]; rewrite go_nil, go_keep; [reflexivity|]; cbn [encrypted_match]; apply not_in_encrypted in F; destruct F as [-> _]; reflexivity).
    assert (M : encrypted_match ((d :: u) ++ c :: w) = encrypted_match (d :: u)) by (apply encrypted_match_app; [exact F|discriminate]). destruct (encrypted_match (d :: u)) as [n|] eqn:E.
    - pose proof (encrypted_match_bound _ _ E). cbn [app] in *. rewrite (go_match _ _ _ _ n encrypted_good M), (go_match _ _ _ _ n encrypted_good E). rewrite <- app_assoc. f_equal. change (d :: u ++ c :: w) with ((d :: u) ++ c :: w). rewrite skipn_app.
      replace (n - length (d :: u)) with 0 by lia. rewrite skipn_O. apply IH. rewrite skipn_length. cbn [length] in *. lia.
    - cbn [app] in *. rewrite !go_keep by assumption. cbn [app]. f_equal. apply IH. cbn [length] in L. lia. }
  intros u. exact (H (length u) u (Nat.le_refl _)).
Qed.

(** What is left after a substitution was there before, unless it is in what was put in. *)
Lemma kept_prefix m r q e : good m -> (exists c r', r = c :: r' /\ ~ In c e) -> forall s, go m r s = e ++ q -> exists t, s = e ++ t.
Proof.
  intros G (c0 & r' & -> & N) s. revert e q N. induction s as [|c s IH]; intros e q N E.
  - rewrite go_nil in E. destruct e; [exists []; reflexivity|discriminate].
  - destruct (m (c :: s)) as [n|] eqn:M.
    + rewrite (go_match _ _ _ _ _ G M) in E. destruct e as [|d e]; [exists (c :: s); reflexivity|]. cbn [app] in E. injection E as <- _. exfalso. apply N. left. reflexivity.
    + rewrite go_keep in E by exact M. destruct e as [|d e]; [exists (c :: s); reflexivity|]. cbn [app] in E. injection E as <- E. destruct (IH e q) as [t ->]; [intros I; apply N; right; exact I|exact E|]. exists t. reflexivity.
Qed.
Lemma app_split {A} (r o p e q : list A) : r ++ o = p ++ e ++ q -> e <> [] -> (exists q', r = p ++ e ++ q') \/ (exists p', o = p' ++ e ++ q) \/ (exists e1 e2 c, e = e1 ++ e2 /\ e2 <> [] /\ r = p ++ e1 /\ e1 <> [] /\ last e1 c = last r c).
Proof.
  revert p. induction r as [|x r IH]; intros p E N.
  - right. left. exists p. exact E.
  - destruct p as [|y p].
    + clear IH. set (r0 := x :: r) in *. cbn [app] in E |- *. destruct (le_lt_dec (length e) (length r0)) as [L|L].
      * left. exists (skipn (length e) r0). apply (f_equal (firstn (length e))) in E. rewrite !firstn_app, Nat.sub_diag, firstn_O, app_nil_r, firstn_all in E. replace (length e - length r0) with 0 in E by lia. rewrite firstn_O, app_nil_r in E. rewrite <- E at 1. symmetry. apply firstn_skipn.
      * right. right. exists r0, (skipn (length r0) e), x. apply (f_equal (firstn (length r0))) in E. rewrite !firstn_app, Nat.sub_diag, firstn_O, app_nil_r, firstn_all in E. replace (length r0 - length e) with 0 in E by lia. rewrite firstn_O, app_nil_r in E.
        split; [rewrite E at 1; symmetry; apply firstn_skipn|]. split; [intros Z; apply (f_equal (@length _)) in Z; rewrite skipn_length in Z; cbn [length] in Z; lia|]. repeat split. discriminate.
    + cbn [app] in E. injection E as <- E. destruct (IH p E N) as [[q' Q]|[[p' Q]|(e1 & e2 & c & Q1 & Q2 & Q3 & Q4 & Q5)]].
      * left. exists q'. rewrite Q. reflexivity.
      * right. left. exists p'. exact Q.
      * right. right. exists e1, e2, c. repeat split; try assumption; [rewrite Q3; reflexivity|]. rewrite Q5. rewrite Q3. destruct e1; [congruence|]. destruct p; reflexivity.
Qed.
Lemma last_in {A} (l : list A) c : l <> [] -> In (last l c) l.
Proof. induction l as [|x l IH]; [congruence|]. intros _. destruct l; [left; reflexivity|]. right. apply IH. discriminate. Qed.
Lemma kept m r e s : good m -> (exists c r', r = c :: r' /\ ~ In c e) -> (forall c, ~ In (last r c) e) -> e <> [] -> ~ occurs e r -> occurs e (go m r s) -> occurs e s.
Proof.
  intros G F L N O. assert (H : forall k s, length s <= k -> occurs e (go m r s) -> occurs e s).
  { clear s. induction k as [|k IH]; intros [|c s] K (p & q & E); try (rewrite go_nil in E; destruct p; [destruct e; [congruence|discriminate]|discriminate]); [cbn in K; lia|]. destruct (m (c :: s)) as [n|] eqn:M.
    - rewrite (go_match _ _ _ _ _ G M) in E. apply app_split in E; [|exact N]. destruct E as [[q' E]|[[p' E]|(e1 & e2 & d & E1 & E2 & E3 & E4 & E5)]].
      + exfalso. apply O. exists p, q'. exact E.
      + assert (occurs e (skipn n (c :: s))) as (a & b & A) by (apply IH; [pose proof (G _ _ M); rewrite skipn_length; cbn [length] in *; lia|exists p', q; exact E]).
        exists (firstn n (c :: s) ++ a), b. rewrite <- app_assoc, <- A. symmetry. apply firstn_skipn.
      + exfalso. apply (L d). rewrite <- E5, E1. apply in_or_app. left. apply last_in, E4.
    - destruct p as [|d p].
      + destruct (kept_prefix m r q e G F (c :: s) E) as [t T]. exists [], t. exact T.
      + rewrite go_keep in E by exact M. cbn [app] in E. injection E as <- E. destruct (IH s) as (a & b & A); [cbn [length] in K; lia|exists p, q; exact E|]. exists (c :: a), b. rewrite A. reflexivity. }
  exact (H (length s) s (Nat.le_refl _)).
Qed.
Lemma occurs_cstr e s : occurs e (cstr s) -> occurs e s.
Proof.
  intros (p & q & E). assert (P : exists t, s = cstr s ++ t).
  { clear. induction s as [|c s [t IH]]; [exists []; reflexivity|]. cbn [cstr]. destruct (Ascii.eqb c NUL); [exists (c :: s); reflexivity|]. exists t. cbn [app]. rewrite <- IH. reflexivity. }
  destruct P as [t P]. exists p, (q ++ t). rewrite P, E, <- !app_assoc. reflexivity.
Qed.
Lemma token_good : good token_match. Proof. apply from_to_good. cbn. lia. Qed.
Lemma html_good : good html_match. Proof. apply from_to_good. cbn. lia. Qed.
Lemma edits_good : good edits_match. Proof. apply from_to_good. cbn. lia. Qed.

Lemma encrypted_chars e : encrypted e -> (forall c, In c e -> in_encrypted c = true) /\ In "v"%char e /\ e <> [].
Proof.
  intros (d & h & -> & _ & D & _ & H). split; [|split; [left; reflexivity|discriminate]]. unfold in_encrypted. intros c [<-|I]; [reflexivity|]. apply in_app_or in I. destruct I as [I|[<-|I]].
  - unfold hexadecimal. rewrite (D _ I). rewrite orb_true_r. reflexivity.
  - apply orb_true_r.
  - rewrite (H _ I), orb_true_r. reflexivity.
Qed.
Lemma count_all f a b : (forall c, In c a -> f c = true) -> count f (a ++ b) = length a + count f b.
Proof. induction a as [|c a IH]; intros H; [reflexivity|]. cbn [app count length]. rewrite (H c (or_introl eq_refl)), IH; [reflexivity|]. intros d I. apply H. right. exact I. Qed.
Lemma encrypted_matches e t : encrypted e -> encrypted_match (e ++ t) <> None.
Proof.
  intros (d & h & -> & ND & D & L & H). cbn [app encrypted_match]. change (negb (Ascii.eqb "v"%char "v"%char)) with false. cbv iota. rewrite <- app_assoc, count_all by exact D. cbn [app count]. change (digit ":"%char) with false. cbv iota.
  rewrite Nat.add_0_r, skipn_app, skipn_all, Nat.sub_diag, skipn_O. cbn [app]. rewrite count_all, L by exact H. destruct d; [congruence|]. cbn [length Nat.eqb negb andb]. change (Ascii.eqb ":"%char ":"%char) with true. change (10 <=? 10 + count hexadecimal t) with true. discriminate.
Qed.
Lemma hidden e s : encrypted e -> ~ occurs e (hide s).
Proof.
  intros X. pose proof (encrypted_chars e X) as (C & V & N). assert (F : exists c r', ENCRYPTED_GONE = c :: r' /\ ~ In c e) by (exists "<"%char, (lit "REDACTED>"); split; [reflexivity|]; intros I; discriminate (C _ I)).
  assert (H : forall k s, length s <= k -> ~ occurs e (hide s)).
  { clear s. induction k as [|k IH]; intros [|c s] K (p & q & E); try (rewrite go_nil in E; destruct p; [destruct e; [congruence|discriminate]|discriminate]); [cbn in K; lia|]. destruct (encrypted_match (c :: s)) as [n|] eqn:M.
    - rewrite (go_match _ _ _ _ _ encrypted_good M) in E. apply app_split in E; [|exact N]. destruct E as [[q' E]|[[p' E]|(e1 & e2 & d & E1 & E2 & E3 & E4 & E5)]].
      + assert (J : In "v"%char ENCRYPTED_GONE) by (rewrite E, !in_app_iff; tauto). revert J. vm_compute. intuition discriminate.
      + apply (IH (skipn n (c :: s))); [pose proof (encrypted_good _ _ M); rewrite skipn_length; cbn [length] in *; lia|exists p', q; exact E].
      + assert (I : In (last ENCRYPTED_GONE d) e) by (rewrite <- E5, E1; apply in_or_app; left; apply last_in, E4). discriminate (C _ I).
    - destruct p as [|d p].
      + destruct (kept_prefix _ _ _ _ encrypted_good F _ E) as [t T]. apply (encrypted_matches e t X). rewrite <- T. exact M.
      + rewrite go_keep in E by exact M. cbn [app] in E. injection E as <- E. apply (IH s); [cbn [length] in K; lia|exists p, q; exact E]. }
  exact (H (length s) s (Nat.le_refl _)).
Qed.

(** No encrypted value is ever in what is logged. *)
Theorem C69_encrypted s e : encrypted e -> ~ occurs e (SRedactSensitiveValues s).
Proof.
  intros X O. pose proof (encrypted_chars e X) as (C & V & N). unfold SRedactSensitiveValues, SREReplace in O. apply occurs_cstr in O. apply kept in O; [|exact edits_good| | |exact N|].
  - apply occurs_cstr in O. apply kept in O; [|exact html_good| | |exact N|].
    + apply occurs_cstr in O. revert O. apply hidden, X.
    + exists QUOTE, (tl HTML_GONE). split; [reflexivity|]. intros I. discriminate (C _ I).
    + intros c I. discriminate (C _ I).
    + intros (p & q & E). assert (J : In "v"%char HTML_GONE) by (rewrite E, !in_app_iff; tauto). revert J. vm_compute. intuition discriminate.
  - exists QUOTE, (tl EDITS_GONE). split; [reflexivity|]. intros I. discriminate (C _ I).
  - intros c I. discriminate (C _ I).
  - intros (p & q & E). assert (J : In "v"%char EDITS_GONE) by (rewrite E, !in_app_iff; tauto). revert J. vm_compute. intuition discriminate.
Qed.
Print Assumptions C69_encrypted.

(** What is logged does not depend on an authentication token, nor on anything behind it in its line. *)
Theorem C69_token a x y b : one_line x -> one_line y -> (b = [] \/ exists b', b = LF :: b') ->
  SRedactSensitiveValues (a ++ TOKEN ++ x ++ b) = SRedactSensitiveValues (a ++ TOKEN ++ y ++ b).
Proof. intros X Y B. unfold SRedactSensitiveValues, SREReplace. fold (go token_match TOKEN_GONE (a ++ TOKEN ++ x ++ b)). fold (go token_match TOKEN_GONE (a ++ TOKEN ++ y ++ b)). rewrite (token_step a x y b X Y B). reflexivity. Qed.
Print Assumptions C69_token.

Lemma cstr_id s : ~ In NUL s -> cstr s = s.
Proof. induction s as [|c s IH]; intros N; [reflexivity|]. cbn [cstr]. destruct (Ascii.eqb_spec c NUL) as [->|]; [exfalso; apply N; left; reflexivity|]. rewrite IH; [reflexivity|]. intros I. apply N. right. exact I. Qed.
Lemma go_in m r s c : In c (go m r s) -> In c s \/ In c r.
Proof.
  unfold go. generalize (length s). intros f. revert s. induction f as [|f IH]; intros [|d s]; cbn [substitute]; try solve [intros []]. destruct (m (d :: s)).
  - intros I. apply in_app_or in I. destruct I as [I|I]; [tauto|]. apply IH in I. destruct I as [I|I]; [|tauto]. left. rewrite <- (firstn_skipn n (d :: s)). apply in_or_app. right. exact I.
  - intros [<-|I]; [left; left; reflexivity|]. apply IH in I. cbn [In]. tauto.
Qed.
Lemma hide_nul s : ~ In NUL s -> ~ In NUL (hide s).
Proof. intros N I. apply go_in in I. destruct I as [I|I]; [exact (N I)|]. revert I. vm_compute. intuition discriminate. Qed.
Lemma hide_line s : one_line s -> one_line (hide s).
Proof. intros N I. apply go_in in I. destruct I as [I|I]; [exact (N I)|]. revert I. vm_compute. intuition discriminate. Qed.

(** What is logged does not depend on the text of a chat in a line with its closing quote. *)
Theorem C69_html a x y b : one_line x -> one_line y -> ~ In NUL (a ++ HTML ++ x ++ QUOTE :: b) -> ~ In NUL (a ++ HTML ++ y ++ QUOTE :: b) ->
  ~ occurs TOKEN (a ++ HTML ++ x ++ QUOTE :: b) -> ~ occurs TOKEN (a ++ HTML ++ y ++ QUOTE :: b) ->
  SRedactSensitiveValues (a ++ HTML ++ x ++ QUOTE :: b) = SRedactSensitiveValues (a ++ HTML ++ y ++ QUOTE :: b).
Proof.
  intros X Y NX NY TX TY. assert (H : forall z, ~ In NUL (a ++ HTML ++ z ++ QUOTE :: b) -> ~ occurs TOKEN (a ++ HTML ++ z ++ QUOTE :: b) ->
    SRedactSensitiveValues (a ++ HTML ++ z ++ QUOTE :: b) = SREReplace edits_match (SREReplace html_match (hide a ++ HTML ++ hide z ++ QUOTE :: hide b) HTML_GONE) EDITS_GONE).
  { intros z NZ TZ. unfold SRedactSensitiveValues. unfold SREReplace at 4. fold (go token_match TOKEN_GONE (a ++ HTML ++ z ++ QUOTE :: b)). unfold token_match. rewrite from_to_none by exact TZ. rewrite cstr_id by exact NZ.
    unfold SREReplace at 3. fold (hide (a ++ HTML ++ z ++ QUOTE :: b)). rewrite cstr_id by (apply hide_nul; exact NZ). do 2 f_equal.
    change (HTML ++ z ++ QUOTE :: b) with (QUOTE :: lit "html" ++ QUOTE :: ":"%char :: [] ++ QUOTE :: z ++ QUOTE :: b).
    rewrite hide_split by reflexivity. rewrite hide_split by reflexivity. change (":"%char :: [] ++ QUOTE :: z ++ QUOTE :: b) with ([":"%char] ++ QUOTE :: z ++ QUOTE :: b). rewrite hide_split by reflexivity. rewrite (hide_split QUOTE b) by reflexivity. reflexivity. }
  rewrite (H x NX TX), (H y NY TY). f_equal. unfold SREReplace. f_equal. apply html_step; apply hide_line; assumption.
Qed.
Print Assumptions C69_html.

Lemma html_in_hide s : occurs HTML (hide s) -> occurs HTML s.
Proof.
  apply kept; [exact encrypted_good| | |discriminate|].
  - exists "<"%char, (lit "REDACTED>"). split; [reflexivity|]. vm_compute. intuition discriminate.
  - intros c. vm_compute. intuition discriminate.
  - intros (p & q & E). assert (J : In QUOTE ENCRYPTED_GONE) by (rewrite E, !in_app_iff; right; left; left; reflexivity). revert J. vm_compute. intuition discriminate.
Qed.

(** What is logged does not depend on edits without brackets in a line with their closing bracket. *)
Theorem C69_edits a x y b : one_line x -> one_line y -> ~ In "]"%char x -> ~ In "]"%char y -> 
  (forall z, z = x \/ z = y -> ~ In NUL (a ++ EDITS ++ z ++ "]"%char :: b) /\ ~ occurs TOKEN (a ++ EDITS ++ z ++ "]"%char :: b) /\ ~ occurs HTML (a ++ EDITS ++ z ++ "]"%char :: b)) ->
  SRedactSensitiveValues (a ++ EDITS ++ x ++ "]"%char :: b) = SRedactSensitiveValues (a ++ EDITS ++ y ++ "]"%char :: b).
Proof.
  intros X Y BX BY Z. assert (H : forall z, z = x \/ z = y -> SRedactSensitiveValues (a ++ EDITS ++ z ++ "]"%char :: b) = cstr (go edits_match EDITS_GONE (hide a ++ EDITS ++ hide z ++ "]"%char :: hide b))).
  { intros z I. destruct (Z z I) as (NZ & TZ & HZ). unfold SRedactSensitiveValues. unfold SREReplace at 4. fold (go token_match TOKEN_GONE (a ++ EDITS ++ z ++ "]"%char :: b)). unfold token_match. rewrite from_to_none by exact TZ. rewrite cstr_id by exact NZ.
    unfold SREReplace at 3. fold (hide (a ++ EDITS ++ z ++ "]"%char :: b)). rewrite cstr_id by (apply hide_nul; exact NZ).
    unfold SREReplace at 2. fold (go html_match HTML_GONE (hide (a ++ EDITS ++ z ++ "]"%char :: b))). unfold html_match. rewrite from_to_none by (intros O; apply HZ, html_in_hide, O). rewrite cstr_id by (apply hide_nul; exact NZ).
    unfold SREReplace. fold (go edits_match EDITS_GONE (hide (a ++ EDITS ++ z ++ "]"%char :: b))). do 2 f_equal.
    change (EDITS ++ z ++ "]"%char :: b) with (QUOTE :: lit "edits" ++ QUOTE :: ":"%char :: [] ++ "["%char :: z ++ "]"%char :: b).
    rewrite hide_split by reflexivity. rewrite hide_split by reflexivity. change (":"%char :: [] ++ "["%char :: z ++ "]"%char :: b) with ([":"%char] ++ "["%char :: z ++ "]"%char :: b). rewrite hide_split by reflexivity. rewrite (hide_split "]"%char b) by reflexivity. reflexivity. }
  rewrite (H x (or_introl eq_refl)), (H y (or_intror eq_refl)). f_equal. apply edits_step; try (apply hide_line; assumption); intros I; apply go_in in I; destruct I as [I|I]; try contradiction; revert I; vm_compute; intuition discriminate.
Qed.
Print Assumptions C69_edits.

(** A text with nothing to hide is logged as it is. *)
Theorem C69_unchanged s : ~ In NUL s -> ~ occurs TOKEN s -> ~ occurs HTML s -> ~ occurs EDITS s -> (forall e, encrypted e -> ~ occurs e s) -> SRedactSensitiveValues s = s.
Proof.
  intros N T H E X. assert (M : forall p q, s = p ++ q -> encrypted_match q = None).
  { intros p q ->. destruct (encrypted_match q) as [n|] eqn:M; [|reflexivity]. exfalso. destruct q as [|c q]; [discriminate|]. cbn [encrypted_match] in M. destruct (Ascii.eqb_spec c "v"%char) as [->|]; [|discriminate]. cbn [negb] in M.
    destruct (skipn (count digit q) q) as [|c2 q2] eqn:K; [discriminate|]. destruct (Nat.eqb_spec (count digit q) 0); [discriminate|]. cbn [negb andb] in M. destruct (Ascii.eqb_spec c2 ":"%char) as [->|]; [|discriminate]. cbn [andb] in M. destruct (Nat.leb_spec 10 (count hexadecimal q2)); [|discriminate].
    assert (CI : forall f l k, k <= count f l -> forall c, In c (firstn k l) -> f c = true).
    { intros f. induction l as [|d l IH]; intros k L c I; [destruct k; destruct I|]. cbn [count] in L. destruct k; [destruct I|]. cbn [firstn] in I. destruct (f d) eqn:F; [|lia]. destruct I as [<-|I]; [exact F|]. apply (IH k); [lia|exact I]. }
    apply (X ("v"%char :: firstn (count digit q) q ++ ":"%char :: firstn 10 q2)).
    - exists (firstn (count digit q) q), (firstn 10 q2). pose proof (count_le digit q). pose proof (count_le hexadecimal q2). split; [reflexivity|]. split; [intros Z; apply (f_equal (@length _)) in Z; rewrite firstn_length in Z; cbn [length] in Z; lia|].
      split; [apply CI; lia|]. split; [rewrite firstn_length; lia|apply CI; lia].
    - exists p, (skipn 10 q2). f_equal. cbn [app]. f_equal. rewrite <- app_assoc. cbn [app]. rewrite firstn_skipn, <- K. symmetry. apply firstn_skipn. }
  unfold SRedactSensitiveValues. unfold SREReplace at 4. fold (go token_match TOKEN_GONE s). unfold token_match. rewrite from_to_none, cstr_id by assumption.
  unfold SREReplace at 3. fold (hide s). rewrite go_none, cstr_id by assumption. unfold SREReplace at 2. fold (go html_match HTML_GONE s). unfold html_match. rewrite from_to_none, cstr_id by assumption.
  unfold SREReplace. fold (go edits_match EDITS_GONE s). unfold edits_match. rewrite from_to_none, cstr_id by assumption. reflexivity.
Qed.
Print Assumptions C69_unchanged.

Example C69_ex_token : SRedactSensitiveValues (lit "SELECT '{""authToken"":""ABC"",""x"":1}';") = lit "SELECT '{""authToken"":<REDACTED>".
Proof. vm_compute. reflexivity. Qed.
Example C69_ex_html : SRedactSensitiveValues (lit "{""html"":""hello ""you"""",""n"":""m""};") = lit "{""html"":""<REDACTED>""};".
Proof. vm_compute. reflexivity. Qed.
Example C69_ex_edits : SRedactSensitiveValues (lit "{""edits"":[""a"",""b""],""n"":[1]}") = lit "{""edits"":[""REDACTED""],""n"":[1]}".
Proof. vm_compute. reflexivity. Qed.
Example C69_ex_encrypted : encrypted (lit "v12:0123456789") /\ SRedactSensitiveValues (lit "x='v12:0123456789ABCDEF' v1:AB") = lit "x='<REDACTED>' v1:AB".
Proof.
  split; [|vm_compute; reflexivity]. exists (lit "12"), (lit "0123456789"). split; [reflexivity|]. split; [discriminate|]. split; [|split; [reflexivity|]]; intros c I; vm_compute in I; repeat destruct I as [<-|I]; try reflexivity; destruct I.
Qed.

Lemma occurs_char c e s : In c e -> ~ In c s -> ~ occurs e s.
Proof. intros I N (p & q & ->). apply N. rewrite !in_app_iff. tauto. Qed.
Example C69_ex_chat : let s := lit "{" ++ HTML ++ lit "hello ""you""" ++ QUOTE :: lit ",1}" in one_line (lit "hello ""you""") /\ ~ In NUL s /\ ~ occurs TOKEN s.
Proof. split; [vm_compute; intuition discriminate|]. split; [vm_compute; intuition discriminate|]. apply (occurs_char "T"%char); vm_compute; intuition discriminate. Qed.
Example C69_ex_edited : let s := lit "{" ++ EDITS ++ lit """a"",""b""" ++ "]"%char :: lit ",1}" in ~ In "]"%char (lit """a"",""b""") /\ ~ In NUL s /\ ~ occurs TOKEN s /\ ~ occurs HTML s.
Proof. split; [vm_compute; intuition discriminate|]. split; [vm_compute; intuition discriminate|]. split; [apply (occurs_char "T"%char)|apply (occurs_char "h"%char)]; vm_compute; intuition discriminate. Qed.
Example C69_ex_plain : SRedactSensitiveValues (lit "SELECT 1 FROM [t];") = lit "SELECT 1 FROM [t];".
Proof.
  apply C69_unchanged; [vm_compute; intuition discriminate| | | |]; try (apply (occurs_char QUOTE); vm_compute; intuition discriminate).
  intros e X. apply (occurs_char "v"%char); [apply (encrypted_chars e X)|vm_compute; intuition discriminate].
Qed.

(** Queries are cut to their greatest length before anything is taken out, and the text of a chat is taken out only up to
    a closing quote: a chat whose end is cut off is logged. Tokens are spared this by an optional quote. *)
Theorem C69_cut_off_refuted : logged_query 24 (lit "SET x='{""html"":""secret words""}';") = lit "SET x='{""html"":""secret w".
Proof. vm_compute. reflexivity. Qed.
Print Assumptions C69_cut_off_refuted.

(** The text of a chat that goes over several lines is logged. *)
Theorem C69_lines_refuted : SRedactSensitiveValues (lit "{""html"":""secret" ++ LF :: lit "words""}") = lit "{""html"":""secret" ++ LF :: lit "words""}".
Proof. vm_compute. reflexivity. Qed.
Print Assumptions C69_lines_refuted.

(** Edits are taken out up to the first closing bracket, even one in their text: the rest of them is logged. *)
Theorem C69_bracket_refuted : SRedactSensitiveValues (lit "{""edits"":[""see [1] for the secret""]}") = lit "{""edits"":[""REDACTED""] for the secret""]}".
Proof. vm_compute. reflexivity. Qed.
Print Assumptions C69_bracket_refuted.

(** One blank behind the colon, or lower case in an encrypted value, and nothing is taken out. *)
Theorem C69_spelling_refuted : SRedactSensitiveValues (lit "{""authToken"": ""ABC""}") = lit "{""authToken"": ""ABC""}" /\
  SRedactSensitiveValues (lit "v1:0123456789abcdef") = lit "<REDACTED>abcdef" /\ SRedactSensitiveValues (lit "v1:abcdef0123456789") = lit "v1:abcdef0123456789".
Proof. vm_compute. repeat split. Qed.
Print Assumptions C69_spelling_refuted.

(** The file of queries gets every query without anything taken out. *)
Theorem C69_query_log_refuted : query_log_row 99 (lit "a.db") (lit "SELECT '{""authToken"":""ABC""}';") (lit "5") = lit """a.db"", ""SELECT '{""""authToken"""":""""ABC""""}';"", 5" ++ [LF].
Proof. vm_compute. reflexivity. Qed.
Print Assumptions C69_query_log_refuted.
