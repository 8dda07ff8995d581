From Verif Require Import Base Dec Text_Spec Text_Model Text_Proofs Query_Spec Lex_Spec Lex_Model Query_Props.

Lemma go_head s : forall k cur, exists k' t l, go k cur s = (k', cur ++ t) :: l.
Proof.
  induction s as [|c s IH]; intros k cur; cbn [go].
  - exists k, [], []. rewrite app_nil_r. reflexivity.
  - destruct (extends k c) as [k'|].
    + destruct (IH k' (cur ++ [c])) as (a & t & l & ->). exists a, (c :: t), l. rewrite <- app_assoc. reflexivity.
    + exists k, [], (go (start c) [c] s). rewrite app_nil_r. reflexivity.
Qed.
Lemma go_concat s : forall k cur, concat (map snd (go k cur s)) = cur ++ s.
Proof.
  induction s as [|c s IH]; intros k cur; cbn [go].
  - reflexivity.
  - destruct (extends k c) as [k'|]; [rewrite IH, <- app_assoc; reflexivity|]. cbn [map concat snd]. rewrite IH. reflexivity.
Qed.
Lemma words_concat s : concat (map snd (words s)) = s.
Proof. destruct s; [reflexivity|]. cbn [words]. apply go_concat. Qed.

Definition one (x : word) : Prop := words (snd x) = [x] /\ snd x <> [].
Definition sep (x y : word) : Prop := exists c s, snd y = c :: s /\ extends (fst x) c = None.
Fixpoint adj (l : list word) : Prop :=
  match l with [] => True | x :: r => match r with [] => True | y :: _ => sep x y end /\ adj r end.
Definition chain (l : list word) : Prop := Forall one l /\ adj l.

Lemma go_seam s c rest : forall k cur l k' t, go k cur s = l ++ [(k', t)] -> extends k' c = None ->
  go k cur (s ++ c :: rest) = l ++ [(k', t)] ++ words (c :: rest).
Proof.
  induction s as [|d s IH]; intros k cur l k' t; cbn [go app].
  - intros E X. destruct l as [|y l]; [|destruct l; discriminate]. injection E as -> ->. rewrite X. reflexivity.
  - destruct (extends k d) as [k2|]; [apply IH|]. intros E X. destruct l as [|y l].
    + destruct (go_head s (start d) [d]) as (a & b & e & H). rewrite H in E. discriminate.
    + injection E as -> E. rewrite (IH _ _ _ _ _ E X). reflexivity.
Qed.
Lemma words_seam a c rest l k t : words a = l ++ [(k, t)] -> extends k c = None -> words (a ++ c :: rest) = l ++ [(k, t)] ++ words (c :: rest).
Proof. destruct a as [|d a]; [destruct l; discriminate|]. cbn [words app]. apply go_seam. Qed.
Lemma words_chain l : chain l -> words (concat (map snd l)) = l.
Proof.
  intros [F A]. induction l as [|x l IH]; [reflexivity|]. inversion F as [|? ? Hx Hl]; subst. destruct A as [S A]. cbn [map concat]. specialize (IH Hl A).
  destruct l as [|y l]; [cbn [map concat]; rewrite app_nil_r; apply Hx|]. destruct S as (c & s & E & X). cbn [map concat] in *. rewrite E in *. cbn [app] in *.
  destruct x as [k t]. rewrite (words_seam t c _ [] k t); [|exact (proj1 Hx)|exact X]. cbn [app]. rewrite IH. reflexivity.
Qed.
Lemma go_snoc s c k' : forall k cur k1 t, go k cur s = [(k1, t)] -> extends k1 c = Some k' -> go k cur (s ++ [c]) = [(k', t ++ [c])].
Proof.
  induction s as [|d s IH]; intros k cur k1 t; cbn [go app].
  - intros E X. injection E as -> ->. rewrite X. reflexivity.
  - destruct (extends k d) as [k2|]; [apply IH|]. intros E. destruct (go_head s (start d) [d]) as (a & b & e & H). rewrite H in E. discriminate.
Qed.
Lemma one_snoc k cur c k' : one (k, cur) -> extends k c = Some k' -> one (k', cur ++ [c]).
Proof.
  intros [W N] X. cbn [snd] in *. split; [|destruct cur; discriminate]. destruct cur as [|d cur]; [congruence|]. cbn [words snd app] in *. apply (go_snoc _ _ _ _ _ _ _ W X).
Qed.
Lemma chain_go s : forall k cur, one (k, cur) -> chain (go k cur s).
Proof.
  induction s as [|c s IH]; intros k cur O; cbn [go].
  - split; [apply Forall_cons; [exact O|apply Forall_nil]|split; exact I].
  - destruct (extends k c) as [k'|] eqn:X; [apply IH, (one_snoc k); assumption|]. destruct (IH (start c) [c]) as [F A]; [split; [reflexivity|discriminate]|].
    split; [constructor; assumption|]. destruct (go_head s (start c) [c]) as (a & b & e & H). rewrite H in *. split; [|exact A]. exists c, b. split; [reflexivity|exact X].
Qed.
Lemma chain_words s : chain (words s).
Proof. destruct s as [|c s]; [split; [constructor|exact I]|]. apply chain_go. split; [reflexivity|discriminate]. Qed.
Lemma chain_app a b : chain (a ++ b) <-> chain a /\ chain b /\ (forall a' x y b', a = a' ++ [x] -> b = y :: b' -> sep x y).
Proof.
  unfold chain. rewrite Forall_app. induction a as [|x a IH]; cbn [app adj].
  - split; [intros [[H1 H2] H3]; repeat split; try assumption; intros [|? ?] ? ? ? E; discriminate|]. intros ([H1 H2] & [H3 H4] & H5). tauto.
  - split.
    + intros ((Fx & Fb) & S & A). inversion Fx as [|? ? Ox Fa]; subst. destruct (proj1 IH (conj (conj Fa Fb) A)) as ((_ & Aa) & Cb & J). repeat split; try tauto.
      * destruct a; [exact I|exact S].
      * intros a' z y b' E1 E2. destruct a' as [|w a']; injection E1 as -> E1.
        { subst a b. cbn [app] in S. exact S. }
        { apply (J a' z y b'); assumption. }
    + intros ((Fx & S & Aa) & (Fb & Ab) & J). inversion Fx as [|? ? Ox Fa]; subst. destruct (proj2 IH) as ((_ & _) & A).
      { repeat split; try assumption. intros a' z y b' E1 E2. apply (J (x :: a') z y b'); [subst; reflexivity|exact E2]. }
      repeat split; try assumption. destruct a as [|w a]; [|exact S]. cbn [app]. destruct b as [|y b]; [exact I|]. apply (J [] x y b); reflexivity.
Qed.

(** Where a word may start. *)
Lemma go_kind (P : kind -> Prop) : (forall k c k', P k -> extends k c = Some k' -> P k') -> forall s k cur k' t, P k -> go k cur s = [(k', t)] -> P k'.
Proof.
  intros C. induction s as [|c s IH]; intros k cur k' t Hk; cbn [go].
  - intros E. injection E as -> _. exact Hk.
  - destruct (extends k c) as [k2|] eqn:X; [apply IH, (C k c); assumption|]. intros E. destruct (go_head s (start c) [c]) as (a & b & e & H). rewrite H in E. discriminate.
Qed.
Lemma one_kind (P : kind -> Prop) k c s : (forall k c k', P k -> extends k c = Some k' -> P k') -> one (k, c :: s) -> P (start c) -> P k.
Proof. intros C [W _] H. cbn [snd words] in W. apply (go_kind P C _ _ _ _ _ H W). Qed.
Ltac kind_steps := intros k0 c0 k1 Hk Hx; destruct k0; cbn [extends] in Hx; try (exfalso; tauto || discriminate); repeat (destruct (Ascii.eqb _ _) in Hx || destruct (is_space _) in Hx || destruct (id_char _) in Hx); try discriminate; injection Hx as <-; auto.
Lemma one_space k c s : one (k, c :: s) -> is_space c = true -> k = Space.
Proof. intros O H. refine (one_kind (fun k => k = Space) k c s _ O _); [|unfold start; rewrite H; reflexivity]. intros k0 c0 k1 -> Hx. cbn [extends] in Hx. destruct (is_space c0); congruence. Qed.
Lemma one_quote k s : one (k, "'"%char :: s) -> k = Quote "'" \/ k = Quoted "'".
Proof.
  intros O. refine (one_kind (fun k => k = Quote "'" \/ k = Quoted "'") k "'"%char s _ O _); [|left; reflexivity].
  intros k0 c0 k1 [-> | ->] Hx; cbn [extends] in Hx; destruct (Ascii.eqb c0 "'"); try discriminate; injection Hx as <-; auto.
Qed.
Lemma one_star k s : one (k, "*"%char :: s) -> k = Op.
Proof. intros O. refine (one_kind (fun k => k = Op) k "*"%char s _ O _); [|reflexivity]. intros k0 c0 k1 -> Hx. discriminate. Qed.

Definition head_kind (k : kind) : Prop := k = Word \/ k = Minus \/ k = Quoted "'".
Definition last_kind (k : kind) : Prop := k = Word \/ k = Quoted "'".
Lemma sep_before x y : ok_before x -> one y -> head_kind (fst y) -> sep x y.
Proof.
  intros [B _] O H. destruct y as [k [|c s]]; [exfalso; apply (proj2 O); reflexivity|]. exists c, s. split; [reflexivity|]. cbn [fst] in H.
  destruct B as [B|[B|[B|B]]]; rewrite B; cbn [extends]; try reflexivity.
  - destruct (is_space c) eqn:E; [|reflexivity]. rewrite (one_space _ _ _ O E) in H. destruct H as [H|[H|H]]; discriminate.
  - destruct (Ascii.eqb c "*") eqn:E; [|reflexivity]. apply Ascii.eqb_eq in E. subst c. rewrite (one_star _ _ O) in H. destruct H as [H|[H|H]]; discriminate.
Qed.
Lemma sep_after z x y : last_kind (fst z) -> fst x = Var -> sep x y -> one y -> ok_after y -> sep z y.
Proof.
  intros L V (c & s & E & X) O (Q & _). exists c, s. split; [exact E|]. rewrite V in X. cbn [extends] in X. destruct L as [L|L]; rewrite L; cbn [extends].
  - destruct (id_char c); [discriminate|reflexivity].
  - destruct (Ascii.eqb c "'") eqn:EQ; [|reflexivity]. apply Ascii.eqb_eq in EQ. subst c. destruct y as [k t]. cbn [snd] in E. subst t. specialize (Q "'"%char). cbn [fst] in Q.
    destruct (one_quote _ _ O) as [-> | ->]; destruct Q; congruence.
Qed.

(** The words of a value. *)
Lemma go_word s : forall cur, forallb id_char s = true -> go Word cur s = [(Word, cur ++ s)].
Proof.
  induction s as [|c s IH]; intros cur H; cbn [go]; [rewrite app_nil_r; reflexivity|]. cbn [forallb] in H. apply andb_true_iff in H as [H1 H2]. cbn [extends]. rewrite H1, IH by exact H2.
  rewrite <- app_assoc. reflexivity.
Qed.
Lemma one_digits s : s <> [] -> forallb is_digit s = true -> one (Word, s).
Proof.
  intros N D. split; [|exact N]. cbn [snd]. destruct s as [|c s]; [congruence|]. cbn [words]. cbn [forallb] in D. apply andb_true_iff in D as [D1 D2].
  assert (S : start c = Word). { assert (A : forall c, implb (is_digit c) (match start c with Word => true | _ => false end) = true) by (apply forall_ascii; vm_compute; reflexivity). specialize (A c). rewrite D1 in A. destruct (start c); try discriminate; reflexivity. }
  rewrite S, go_word; [reflexivity|]. assert (A : forall c, implb (is_digit c) (id_char c) = true) by (apply forall_ascii; vm_compute; reflexivity). clear - D2 A.
  induction s as [|d s IH]; [reflexivity|]. cbn [forallb] in *. apply andb_true_iff in D2 as [D1 D2]. specialize (A d) as Ad. rewrite D1 in Ad. cbn [implb] in Ad. rewrite Ad. apply IH, D2.
Qed.
Lemma go_quote b : forall cur, go (Quote "'") cur (doubled b ++ ["'"%char]) = [(Quoted "'", cur ++ doubled b ++ ["'"%char])].
Proof.
  induction b as [|c b IH]; intros cur; [reflexivity|]. unfold doubled in *. cbn [flat_map]. destruct (Ascii.eqb c "'") eqn:E.
  - cbn [app go extends]. rewrite !Ascii.eqb_refl. cbn [go extends]. rewrite !Ascii.eqb_refl. rewrite IH, <- !app_assoc. reflexivity.
  - cbn [app go extends]. rewrite E. rewrite IH, <- !app_assoc. reflexivity.
Qed.
Lemma one_quoted b : one (Quoted "'", "'"%char :: doubled b ++ ["'"%char]).
Proof. split; [|discriminate]. cbn [snd words]. change (start "'") with (Quote "'"). rewrite go_quote. reflexivity. Qed.
Lemma doubled_hex b : doubled (SToHexS b) = SToHexS b.
Proof.
  assert (A : forall n, (n < 16)%N -> Ascii.eqb (hexchar n) "'" = false).
  { intros n L. assert (D : In n (map N.of_nat (seq 0 16))). { apply in_map_iff. exists (N.to_nat n). split; [lia|]. apply in_seq. lia. }
    cbn in D. repeat (destruct D as [<-|D]; [reflexivity|]). destruct D. }
  assert (B : forall c, (bcode c < 256)%N) by (intros c; apply N_ascii_bounded).
  unfold SToHexS, doubled. induction b as [|c b IH]; [reflexivity|]. cbn [flat_map app]. specialize (B c). rewrite !A.
  - cbn [app]. rewrite IH. reflexivity.
  - apply N.mod_lt. discriminate.
  - apply N.div_lt_upper_bound; [discriminate|lia].
Qed.
Lemma sql_quoted b : nul_free b -> sql_body (doubled b ++ ["'"%char]) = Some (b, []).
Proof.
  intros NF. induction b as [|c b IH]; [reflexivity|].
  assert (NF' : nul_free b) by (intros H; apply NF; right; exact H). specialize (IH NF').
  unfold doubled in *. cbn [flat_map app]. destruct (Ascii.eqb c "'") eqn:E.
  - apply Ascii.eqb_eq in E. subst c. cbn [app sql_body]. rewrite IH. reflexivity.
  - assert (Z : Ascii.eqb c NUL = false) by (apply Ascii.eqb_neq; intros ->; apply NF; left; reflexivity). cbn [app].
    destruct c as [[] [] [] [] [] [] [] []]; try discriminate; cbn [sql_body]; rewrite IH; reflexivity.
Qed.
