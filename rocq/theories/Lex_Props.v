(** C50: a follower finds in the text of the journal the statements of the leader, with their values. *)
From Verif Require Import Base Dec Text_Spec Text_Model Text_Proofs Query_Spec Lex_Spec Lex_Model Query_Props Lex_Proofs.

Section props.
  Context {R : Type} (print15 : R -> bytes).
  Notation writable := (writable print15). Notation value_words := (value_words print15). Notation with_values := (with_values print15). Notation literal := (literal print15).

  Record fine (l : list word) : Prop := {
    f_chain : chain l;
    f_head : exists x r, l = x :: r /\ head_kind (fst x);
    f_last : exists r z, l = r ++ [z] /\ last_kind (fst z);
    f_semi : Forall (fun x => is_semicolon x = false) l }.
  Lemma value_fine v : writable v -> fine (value_words v) /\ concat (map snd (value_words v)) = literal v.
  Proof.
    assert (D : forall n, one (Word, dec n)) by (intros n; apply one_digits; [apply dec_nonempty|apply dec_digits]).
    assert (S1 : forall x, one x -> chain [x]) by (intros x O; split; [apply Forall_cons; [exact O|apply Forall_nil]|split; exact I]).
    destruct v as [|z|r|b|b]; cbn [Lex_Spec.writable Lex_Spec.value_words Lex_Model.literal]; intros W.
    - split; [|reflexivity]. split; [apply S1; split; [reflexivity|discriminate]|eexists _, _; split; [reflexivity|left; reflexivity]|exists [], (Word, lit "NULL"); split; [reflexivity|left; reflexivity]|].
      apply Forall_cons; [reflexivity|apply Forall_nil].
    - unfold decZ. destruct (z <? 0)%Z eqn:E.
      + split; [|cbn [map concat snd app lit list_ascii_of_string]; rewrite app_nil_r; reflexivity]. split.
        * split; [apply Forall_cons; [split; [reflexivity|discriminate]|apply Forall_cons; [apply D|apply Forall_nil]]|]. cbn [adj]. split; [|split; exact I].
          destruct (dec (Z.to_N (- z))) as [|c s] eqn:Ed; [destruct (dec_nonempty _ Ed)|]. exists c, s. split; [reflexivity|]. cbn [fst extends].
          destruct (Ascii.eqb c "-") eqn:Ec; [|reflexivity]. apply Ascii.eqb_eq in Ec. pose proof (dec_digits (Z.to_N (- z))) as F. rewrite Ed, Ec in F. discriminate.
        * eexists _, _. split; [reflexivity|right; left; reflexivity].
        * exists [(Minus, lit "-")], (Word, dec (Z.to_N (- z))). split; [reflexivity|left; reflexivity].
        * repeat (apply Forall_cons; [reflexivity|]). apply Forall_nil.
      + split; [|cbn [map concat snd]; apply app_nil_r]. split; [apply S1, D|eexists _, _; split; [reflexivity|left; reflexivity]|exists [], (Word, dec (Z.to_N z)); split; [reflexivity|left; reflexivity]|].
        apply Forall_cons; [reflexivity|apply Forall_nil].
    - split; [|apply words_concat]. destruct W as ((l & d & E1) & (k & d' & l' & E2 & K) & F). split.
      + apply chain_words.
      + exists (k, d'), l'. split; [exact E2|]. cbn [fst]. unfold head_kind. tauto.
      + exists l, (Word, d). split; [exact E1|left; reflexivity].
      + revert F. apply Forall_impl. intros [k0 t]. cbn [fst]. intros [->|[->|[-> N]]]; [reflexivity|reflexivity|]. cbn [is_semicolon].
        destruct t as [|c [|? ?]]; [reflexivity| |reflexivity]. destruct (Ascii.eqb c ";") eqn:E; [|reflexivity]. apply Ascii.eqb_eq in E. subst c. destruct N. reflexivity.
    - split; [|cbn [map concat snd]; rewrite app_nil_r, (cstr_nul_free b W); reflexivity]. split; [apply S1, one_quoted|eexists _, _; split; [reflexivity|right; right; reflexivity]|eexists [], _; split; [reflexivity|right; reflexivity]|].
      apply Forall_cons; [reflexivity|apply Forall_nil].
    - split; [|cbn [map concat snd]; rewrite app_nil_r; reflexivity]. split.
      + split; [apply Forall_cons; [split; [reflexivity|discriminate]|apply Forall_cons; [|apply Forall_nil]]|].
        * rewrite <- doubled_hex. apply one_quoted.
        * cbn [adj]. split; [|split; exact I]. eexists _, _. split; reflexivity.
      + eexists _, _. split; [reflexivity|left; reflexivity].
      + exists [(Word, lit "x")], (Quoted "'", "'"%char :: SToHexS b ++ ["'"%char]). split; [reflexivity|right; reflexivity].
      + repeat (apply Forall_cons; [reflexivity|]). apply Forall_nil.
  Qed.
  Lemma value_of_in n (vs : list (bytes * bound R)) v : value_of n vs = Some v -> exists m, In (m, v) vs.
  Proof.
    induction vs as [|[m w] vs IH]; cbn [value_of]; [discriminate|]. destruct (bytes_eqb n m); [intros E; injection E as ->; exists m; left; reflexivity|].
    intros H. destruct (IH H) as (m' & I). exists m'. right. exact I.
  Qed.
  Lemma given vs n : Forall (fun e => writable (snd e)) vs -> writable (match value_of n vs with Some v => v | None => Null end).
  Proof. intros F. destruct (value_of n vs) as [v|] eqn:E; [|exact I]. apply value_of_in in E as (m & E). rewrite Forall_forall in F. apply (F _ E). Qed.

  Section one_statement.
    Context (vs : list (bytes * bound R)) (V : Forall (fun e => writable (snd e)) vs).
    Lemma expanded_words p : expanded print15 vs p = concat (map snd (with_values vs p)).
    Proof.
      unfold expanded, Lex_Spec.with_values. induction p as [|x p IH]; [reflexivity|]. cbn [map concat flat_map]. rewrite map_app, concat_app, <- IH. f_equal.
      destruct (fst x); try (cbn [map concat]; rewrite app_nil_r; reflexivity). symmetry. apply value_fine, given, V.
    Qed.
    Lemma apart_tail x p : apart (x :: p) -> apart p.
    Proof.
      intros A a y b E Y. destruct (A (x :: a) y b) as [A1 A2]; [subst; reflexivity|exact Y|]. split; [|exact A2].
      intros a' z E2. apply (A1 (x :: a') z). subst. reflexivity.
    Qed.
    Lemma with_values_chain p : chain p -> apart p -> chain (with_values vs p) /\
      (forall y r, with_values vs p = y :: r -> exists x p', p = x :: p' /\ (fst x <> Var -> y = x) /\ (fst x = Var -> one y /\ head_kind (fst y))).
    Proof.
      induction p as [|x p IH]; intros C A; [split; [split; [constructor|exact I]|discriminate]|].
      change (x :: p) with ([x] ++ p) in C. apply chain_app in C as (Cx & Cp & J). destruct (IH Cp (apart_tail _ _ A)) as (IH1 & IH2). clear IH.
      assert (Var_dec : fst x = Var \/ fst x <> Var) by (destruct (fst x); (left; reflexivity) || (right; discriminate)).
      destruct Var_dec as [X|X].
      - assert (W : with_values vs (x :: p) = value_words (match value_of (snd x) vs with Some v => v | None => Null end) ++ with_values vs p) by (unfold Lex_Spec.with_values; cbn [flat_map]; rewrite X; reflexivity).
        rewrite W. destruct (value_fine _ (given vs (snd x) V)) as [[F1 (h & r & F2 & F2') (r' & z & F3 & F3') F4] _].
        set (vw := value_words _) in *. split.
        + apply chain_app. split; [exact F1|]. split; [exact IH1|]. intros a' z' y b' E1 E2. rewrite F3 in E1. apply app_inj_tail in E1 as [_ <-].
          destruct (IH2 _ _ E2) as (x2 & p' & -> & H1 & H2). destruct (A [] x (x2 :: p') eq_refl X) as [_ A2]. specialize (A2 x2 p' eq_refl).
          assert (N2 : fst x2 <> Var) by apply A2. rewrite (H1 N2). apply (sep_after z x x2); [exact F3'|exact X|apply (J [] x x2 p'); reflexivity| |exact A2].
          destruct Cp as [Cp _]. inversion Cp; assumption.
        + intros y r0 E. rewrite F2 in E. cbn [app] in E. injection E as <- _. exists x, p. split; [reflexivity|]. split; [congruence|]. intros _. split; [|exact F2'].
          destruct F1 as [F1 _]. rewrite F2 in F1. inversion F1; assumption.
      - assert (E : with_values vs (x :: p) = [x] ++ with_values vs p) by (unfold Lex_Spec.with_values; cbn [flat_map]; destruct (fst x); reflexivity || congruence).
        rewrite E. split.
        + apply chain_app. split; [exact Cx|]. split; [exact IH1|]. intros a' z' y b' E1 E2. destruct a' as [|? [|? ?]]; try discriminate. injection E1 as <-.
          destruct (IH2 _ _ E2) as (x2 & p' & -> & H1 & H2). assert (D2 : fst x2 = Var \/ fst x2 <> Var) by (destruct (fst x2); (left; reflexivity) || (right; discriminate)).
          destruct D2 as [D2|D2].
          * destruct (A [x] x2 p' eq_refl D2) as [A1 _]. destruct (H2 D2). apply sep_before; [apply (A1 [] x eq_refl)|assumption|assumption].
          * rewrite (H1 D2). apply (J [] x x2 p'); reflexivity.
        + intros y r0 E2. cbn [app] in E2. injection E2 as <- _. exists x, p. split; [reflexivity|]. split; [reflexivity|congruence].
    Qed.
    Lemma with_values_semi l : Forall (fun x => is_semicolon x = false) l -> Forall (fun x => is_semicolon x = false) (with_values vs l).
    Proof.
      unfold Lex_Spec.with_values. induction 1 as [|x l H _ IH]; [constructor|]. cbn [flat_map]. apply Forall_app. split; [|exact IH].
      destruct (fst x) eqn:E; try (apply Forall_cons; [exact H|apply Forall_nil]). apply value_fine, given, V.
    Qed.
    Lemma head_says x : head_kind (fst x) -> says_nothing x = false.
    Proof. destruct x as [k t]. cbn [fst]. intros [->|[->| ->]]; reflexivity. Qed.
    Lemma with_values_says p : forallb says_nothing p = false -> forallb says_nothing (with_values vs p) = false.
    Proof.
      unfold Lex_Spec.with_values. induction p as [|x p IH]; [discriminate|]. cbn [forallb flat_map]. rewrite forallb_app. intros H. apply andb_false_iff. apply andb_false_iff in H as [H|H]; [left|right; apply IH, H].
      destruct (fst x) eqn:E; try (cbn [forallb]; rewrite H; reflexivity).
      destruct (value_fine _ (given vs (snd x) V)) as [[_ (h & r & F2 & F2') _ _] _]. rewrite F2. cbn [forallb]. rewrite (head_says _ F2'). reflexivity.
    Qed.
  End one_statement.

  (** Pieces. *)
  Lemma pieces_chain l : forall cur, chain (cur ++ l) -> Forall chain (pieces cur l).
  Proof.
    induction l as [|x l IH]; intros cur C; cbn [pieces].
    - rewrite app_nil_r in C. destruct cur; [constructor|]. apply Forall_cons; [exact C|apply Forall_nil].
    - change (x :: l) with ([x] ++ l) in C. rewrite app_assoc in C. destruct (is_semicolon x).
      + apply chain_app in C as (C1 & C2 & _). apply Forall_cons; [exact C1|]. apply (IH [] C2).
      + apply IH, C.
  Qed.
  Lemma pieces_semi l : forall cur, Forall (fun x => is_semicolon x = false) cur ->
    Forall (fun p => exists r, Forall (fun x => is_semicolon x = false) r /\ (p = r \/ exists s, p = r ++ [s])) (pieces cur l).
  Proof.
    induction l as [|x l IH]; intros cur F; cbn [pieces].
    - destruct cur as [|y cur]; [constructor|]. apply Forall_cons; [|apply Forall_nil]. exists (y :: cur). split; [exact F|left; reflexivity].
    - destruct (is_semicolon x) eqn:E.
      + apply Forall_cons; [|apply IH; constructor]. exists cur. split; [exact F|]. right. exists x. reflexivity.
      + apply IH. apply Forall_app. split; [exact F|]. apply Forall_cons; [exact E|apply Forall_nil].
  Qed.
  (** A statement that ends in its semicolon, and has no other. *)
  Definition closed (p : list word) : Prop := exists r, p = r ++ [semicolon] /\ Forall (fun x => is_semicolon x = false) r.
  Lemma pieces_closed r l : Forall (fun x => is_semicolon x = false) r -> forall cur, pieces cur (r ++ semicolon :: l) = (cur ++ r ++ [semicolon]) :: pieces [] l.
  Proof.
    induction 1 as [|x r H _ IH]; intros cur; cbn [app pieces]; [reflexivity|]. rewrite H, IH, <- app_assoc. reflexivity.
  Qed.
  Lemma pieces_concat ps : Forall closed ps -> pieces [] (concat ps) = ps.
  Proof.
    induction 1 as [|p ps (r & -> & F) _ IH]; [reflexivity|]. cbn [concat]. rewrite <- app_assoc. cbn [app]. rewrite (pieces_closed r _ F), IH. reflexivity.
  Qed.
  Lemma chain_concat ps : Forall closed ps -> Forall chain ps -> chain (concat ps).
  Proof.
    induction 1 as [|p ps (r & -> & F) _ IH]; intros C; [split; [constructor|exact I]|]. inversion C as [|? ? C1 C2]; subst. cbn [concat]. specialize (IH C2). apply chain_app.
    split; [exact C1|]. split; [exact IH|]. intros a' x y b' E1 E2. apply app_inj_tail in E1 as [_ <-]. destruct IH as [IH _]. rewrite E2 in IH. inversion IH as [|? ? O _]; subst.
    destruct y as [k [|c s]]; [exfalso; apply (proj2 O); reflexivity|]. exists c, s. split; reflexivity.
  Qed.
  Definition ready (p : list word) : Prop := closed p /\ chain p /\ forallb says_nothing p = false.
  Lemma statements_concat ps : Forall ready ps -> statements (concat (map (fun p => concat (map snd p)) ps)) = ps.
  Proof.
    intros F. assert (E : concat (map (fun p => concat (map snd p)) ps) = concat (map snd (concat ps))).
    { clear F. induction ps as [|p ps IH]; [reflexivity|]. cbn [map concat]. rewrite IH, map_app, concat_app. reflexivity. }
    rewrite E. unfold statements. rewrite words_chain, pieces_concat.
    - clear E. induction F as [|p ps (_ & _ & H) _ IH]; [reflexivity|]. cbn [filter]. rewrite H, IH. reflexivity.
    - revert F. apply Forall_impl. intros p (H & _). exact H.
    - apply chain_concat; revert F; apply Forall_impl; intros p (H1 & H2 & H3); assumption.
  Qed.
  Lemma ready_values w : regular print15 w -> Forall ready (map (with_values (snd w)) (statements (fst w))).
  Proof.
    intros [F V]. rewrite Forall_map. rewrite Forall_forall in *. intros p P. destruct (F p P) as ((l & E) & A). unfold statements in P. apply filter_In in P as [P N]. apply negb_true_iff in N.
    pose proof (pieces_chain (words (fst w)) [] (chain_words _)) as C. rewrite Forall_forall in C. specialize (C p P).
    pose proof (pieces_semi (words (fst w)) [] (Forall_nil _)) as S. rewrite Forall_forall in S. destruct (S p P) as (r & R1 & R2).
    assert (V' : Forall (fun e => writable (snd e)) (snd w)) by (rewrite Forall_forall; exact V).
    assert (CL : p = r ++ [semicolon]).
    { destruct R2 as [-> | (s & ->)].
      - rewrite E in R1. apply Forall_app in R1 as [_ R1]. inversion R1 as [|? ? X _]. discriminate.
      - apply app_inj_tail in E as [_ ->]. reflexivity. }
    split; [|split].
    - exists (with_values (snd w) r). split; [|apply with_values_semi; assumption]. rewrite CL. unfold Lex_Spec.with_values. rewrite flat_map_app. reflexivity.
    - apply with_values_chain; assumption.
    - apply with_values_says; assumption.
  Qed.

  (** The statements a follower finds in the row are those of the leader's writes, in order, with the values in place of the
      placeholders: no value adds, ends, joins or hides a statement. *)
  Theorem C50_journal : forall ws row, Forall (regular print15) ws -> transaction print15 ws [] = Some row ->
    follower_statements row = flat_map (fun w => map (with_values (snd w)) (statements (fst w))) ws.
  Proof.
    intros ws row F. unfold follower_statements.
    assert (G : forall ws u, transaction print15 ws u = Some row -> Forall (regular print15) ws ->
      row = u ++ concat (map (fun p => concat (map snd p)) (flat_map (fun w => map (with_values (snd w)) (statements (fst w))) ws))).
    { clear. induction ws as [|w ws IH]; intros u; cbn [transaction flat_map].
      - intros E _. injection E as <-. cbn. rewrite app_nil_r. reflexivity.
      - unfold write. destruct (ends_in_semicolon (fst w)); [|discriminate]. intros E F. inversion F as [|? ? [F1 V] F2]; subst. rewrite (IH _ E F2).
        rewrite map_app, concat_app, app_assoc. f_equal. f_equal. unfold SQuery_expanded. rewrite map_map. f_equal. apply map_ext. intros p. apply (expanded_words _ V). }
    intros E. rewrite (G _ _ E F). cbn [app]. apply statements_concat. apply Forall_flat_map. revert F. apply Forall_impl. apply ready_values.
  Qed.

  (** The words that take the place of a placeholder stand for its value. *)
  Theorem C50_value : forall v, writable v -> stands_for print15 (value_words v) v.
  Proof.
    intros v W. pose proof (value_fine v W) as (_ & E). destruct v as [|z|r|b|b]; cbn [stands_for].
    - reflexivity.
    - rewrite E. apply SToInt64_decZ, W.
    - exact E.
    - eexists. split; [reflexivity|]. cbn [sql_literal]. apply sql_quoted, W.
    - eexists. split; [reflexivity|]. apply SStrFromHex_SToHexS.
  Qed.

  Lemma value_words_var v : writable v -> Forall (fun x => fst x <> Var) (value_words v).
  Proof.
    destruct v as [|z|r|b|b]; cbn [Lex_Spec.writable Lex_Spec.value_words]; intros W; [| |destruct W as (_ & _ & W); revert W; apply Forall_impl; intros [k t]; cbn [fst]; intros [->|[->|[-> _]]]; discriminate| |];
      [| destruct (z <? 0)%Z| |]; repeat (apply Forall_cons; [discriminate|]); apply Forall_nil.
  Qed.
  Lemma with_values_var vs p : Forall (fun e => writable (snd e)) vs -> Forall (fun x => fst x <> Var) (with_values vs p).
  Proof.
    intros V. unfold Lex_Spec.with_values. induction p as [|x p IH]; [constructor|]. cbn [flat_map]. apply Forall_app. split; [|exact IH].
    destruct (fst x) eqn:E; try (apply Forall_cons; [rewrite E; discriminate|apply Forall_nil]). apply value_words_var, given, V.
  Qed.
  (** The text the follower keeps for its own journal is, byte for byte, the text of the row; so the two nodes compute the same hash (SQLite.cpp 1036). *)
  Theorem C50_same_text : forall ws row, Forall (regular print15) ws -> transaction print15 ws [] = Some row -> SQuery_expanded print15 row [] = row.
  Proof.
    intros ws row F E. pose proof (C50_journal ws row F E) as S. unfold follower_statements in S. unfold SQuery_expanded. rewrite S.
    rewrite flat_map_concat_map, concat_map, !map_map.
    assert (G : forall ws u, transaction print15 ws u = Some row -> Forall (regular print15) ws ->
      row = u ++ concat (concat (map (fun w => map (expanded print15 []) (map (with_values (snd w)) (statements (fst w)))) ws))).
    { clear. induction ws as [|w ws IH]; intros u; cbn [transaction map concat].
      - intros E _. injection E as <-. rewrite app_nil_r. reflexivity.
      - unfold write. destruct (ends_in_semicolon (fst w)); [|discriminate]. intros E F. inversion F as [|? ? [F1 V] F2]; subst. rewrite (IH _ E F2).
        rewrite concat_app, app_assoc. f_equal. f_equal. unfold SQuery_expanded. rewrite map_map. f_equal. apply map_ext. intros p. rewrite (expanded_words _ V).
        pose proof (with_values_var (snd w) p V) as N. unfold expanded. f_equal. apply map_ext_in. intros x X. rewrite Forall_forall in N. specialize (N x X). destruct (fst x); reflexivity || congruence. }
    rewrite (G _ _ E F) at 1. reflexivity.
  Qed.
End props.

Print Assumptions C50_journal.
Print Assumptions C50_value.
Print Assumptions C50_same_text.

(** * Cases *)
Definition printed (r : bytes) : bytes := r.
Definition ws_case : list (bytes * list (bytes * bound bytes)) :=
  [(lit "INSERT INTO t VALUES(:a, :b); -- and then
UPDATE t SET x=x+@c WHERE y='--;';", [(lit ":a", Text (lit "it's; --")); (lit ":b", Int64 (-5)); (lit "@c", Double (lit "1.5e-05"))]);
   (lit "DELETE FROM t WHERE b=:b;", [(lit ":b", Blob (lit "'"))])].
Fixpoint apart_b (prev : option word) (p : list word) : bool :=
  match p with
  | [] => true
  | x :: r => match fst x with
              | Var => match prev with
                       | Some y => match fst y with Space | Slash | Comment => true | Op => negb (bytes_eqb (snd y) ["."%char]) | _ => false end
                       | None => true
                       end && match r with
                              | y :: _ => match fst y with Quote _ | Quoted _ | Var => false | Op => negb (bytes_eqb (snd y) ["."%char]) | _ => true end
                              | [] => true
                              end
              | _ => true
              end && apart_b (Some x) r
  end.
Lemma apart_b_ok p : forall prev, apart_b prev p = true -> forall a x b, p = a ++ x :: b -> fst x = Var ->
  (forall y, match rev a with z :: _ => Some z | [] => prev end = Some y -> ok_before y) /\ (forall y b', b = y :: b' -> ok_after y).
Proof.
  induction p as [|z p IH]; intros prev H a x b E X; [destruct a; discriminate|]. cbn [apart_b] in H. apply andb_true_iff in H as [H1 H2]. destruct a as [|z' a]; injection E as -> E.
  - subst p. rewrite X in H1. apply andb_true_iff in H1 as [H1 H3]. cbn [rev]. split.
    + intros y ->. unfold ok_before. destruct y as [k t]. cbn [fst snd] in *. destruct k; try discriminate; (split; [tauto|]); try discriminate. intros E. injection E as ->. discriminate.
    + intros y b' ->. unfold ok_after. destruct y as [k t]. cbn [fst snd] in *. destruct k; try discriminate; (split; [intros; split; discriminate|]); (split; [|discriminate]); try discriminate. intros E. injection E as ->. discriminate.
  - destruct (IH (Some z') H2 a x b E X) as [I1 I2]. split; [|exact I2]. intros y Y. apply I1. cbn [rev] in Y. destruct (rev a); exact Y.
Qed.
Lemma apart_check p : apart_b None p = true -> apart p.
Proof.
  intros H a x b E X. destruct (apart_b_ok p None H a x b E X) as [A B]. split; [|exact B]. intros a' y ->. apply A. rewrite rev_app_distr. reflexivity.
Qed.

Example C50_case : Forall (regular printed) ws_case /\
  transaction printed ws_case [] = Some (lit "INSERT INTO t VALUES('it''s; --', -5); -- and then
UPDATE t SET x=x+1.5e-05 WHERE y='--;';DELETE FROM t WHERE b=x'27';") /\
  List.length (flat_map (fun w => statements (fst w)) ws_case) = 3%nat.
Proof.
  split; [|split; vm_compute; reflexivity]. unfold ws_case.
  apply Forall_cons; [|apply Forall_cons; [|apply Forall_nil]]; split.
  - cbn [fst]. match goal with |- Forall _ ?s => let v := eval vm_compute in s in change s with v end.
    repeat (apply Forall_cons; [split; [match goal with |- exists l, ?p = _ => let v := eval vm_compute in (removelast p) in exists v; reflexivity end|apply apart_check; reflexivity]|]). apply Forall_nil.
  - cbn [snd]. repeat (apply Forall_cons; [cbn [snd writable]|]); [| | |apply Forall_nil].
    + unfold nul_free. vm_compute. intuition discriminate.
    + lia.
    + unfold printed, numeral. split; [|split].
      * exists (removelast (words (lit "1.5e-05"))), (lit "05"). vm_compute. reflexivity.
      * eexists _, _, _. split; [vm_compute; reflexivity|]. left. reflexivity.
      * match goal with |- Forall _ ?s => let v := eval vm_compute in s in change s with v end.
        repeat (apply Forall_cons; [cbn [fst]; tauto || (right; right; split; [reflexivity|discriminate])|]). apply Forall_nil.
  - cbn [fst]. match goal with |- Forall _ ?s => let v := eval vm_compute in s in change s with v end.
    repeat (apply Forall_cons; [split; [match goal with |- exists l, ?p = _ => let v := eval vm_compute in (removelast p) in exists v; reflexivity end|apply apart_check; reflexivity]|]). apply Forall_nil.
  - cbn [snd]. apply Forall_cons; [exact I|apply Forall_nil].
Qed.

(** The words that matter: without white space and comments. *)
Definition gist (p : list word) : list bytes := map snd (filter (fun x => match fst x with Space | Line | Block | Star | Comment => false | _ => true end) p).

(** Refuted: a query may end in ';' without its statement ending there, and the journal then joins it to the next write.  The
    check on a write only looks at the last byte.  "DELETE FROM t --;" passes, and deletes the rows on the leader; the text
    of the next write of the transaction, put right behind it, is part of the comment for every follower: on them that
    write does not happen, and no error is seen. *)
Theorem C50_comment_refuted : exists ws row, transaction printed ws [] = Some row /\
  map gist (flat_map (fun w => statements (fst w)) ws) = [[lit "DELETE"; lit "FROM"; lit "t"]; [lit "INSERT"; lit "INTO"; lit "u"; lit "VALUES"; lit "("; lit "1"; lit ")"; lit ";"]] /\
  map gist (follower_statements row) = [[lit "DELETE"; lit "FROM"; lit "t"]].
Proof. exists [(lit "DELETE FROM t --;", []); (lit "INSERT INTO u VALUES(1);", [])]. eexists. split; [reflexivity|]. split; vm_compute; reflexivity. Qed.

(** Refuted: a negative number bound right behind a minus sign opens a comment.  "UPDATE t SET x=x-:n WHERE id=1;" with -5
    for :n adds 5 to one row on the leader; the text for the followers is "UPDATE t SET x=x--5 WHERE id=1;", which leaves
    out the condition: they set x=x on every row, and the two databases differ from then on. *)
Theorem C50_minus_refuted : exists w row, transaction printed [w] [] = Some row /\ row = lit "UPDATE t SET x=x--5 WHERE id=1;" /\
  map gist (map (with_values printed (snd w)) (statements (fst w))) =
    [[lit "UPDATE"; lit "t"; lit "SET"; lit "x"; lit "="; lit "x"; lit "-"; lit "-"; lit "5"; lit "WHERE"; lit "id"; lit "="; lit "1"; lit ";"]] /\
  map gist (follower_statements row) = [[lit "UPDATE"; lit "t"; lit "SET"; lit "x"; lit "="; lit "x"]].
Proof. exists (lit "UPDATE t SET x=x-:n WHERE id=1;", [(lit ":n", Int64 (-5))]). eexists. split; [reflexivity|]. split; [reflexivity|]. split; vm_compute; reflexivity. Qed.

(** Refuted: a placeholder right behind a keyword or a name is fine for SQLite, but its value becomes part of that word in the journal: "LIMIT:n"
    with 5 turns into "LIMIT5", a name, and "WHERE x IS:n" with no value into "WHERE x ISNULL".  A follower fails on the first. *)
Theorem C50_joined_refuted : exists w row, transaction printed [w] [] = Some row /\
  map gist (map (with_values printed (snd w)) (statements (fst w))) = [[lit "DELETE"; lit "FROM"; lit "t"; lit "LIMIT"; lit "5"; lit ";"]] /\
  map gist (follower_statements row) = [[lit "DELETE"; lit "FROM"; lit "t"; lit "LIMIT5"; lit ";"]].
Proof. exists (lit "DELETE FROM t LIMIT:n;", [(lit ":n", Int64 5)]). eexists. split; [reflexivity|]. split; vm_compute; reflexivity. Qed.

(** Refuted: a text value with a zero byte in it does not reach the followers whole.  The leader binds all of its bytes; the expanded text stops
    at the zero byte, so the followers store only what comes before. *)
Theorem C50_zero_refuted : exists w row, transaction printed [w] [] = Some row /\ value_of (lit ":a") (snd w) = Some (Text (lit "ab" ++ [NUL] ++ lit "cd")) /\
  row = lit "INSERT INTO t VALUES('ab');".
Proof. exists (lit "INSERT INTO t VALUES(:a);", [(lit ":a", Text (lit "ab" ++ [NUL] ++ lit "cd"))]). eexists. split; [reflexivity|]. split; [reflexivity|]. vm_compute. reflexivity. Qed.

(** "%!.15g" for the doubles m / 2^54 between 0.1 and 1: fifteen digits, rounded, without the zeros at the end. *)
Fixpoint stripped (fuel : nat) (n : Z) : Z := match fuel with O => n | S f => if (n mod 10 =? 0)%Z then stripped f (n / 10) else n end.
Definition fifteen (m : Z) : bytes := lit "0." ++ decZ (stripped 14 ((m * 10 ^ 15 + 2 ^ 53) / 2 ^ 54)).
(** Refuted: a floating point value does not reach the followers exactly.  The text of the journal has fifteen digits of it, and doubles that differ only
    behind those become one: 0.3 and 0.1 + 0.2 (0.30000000000000004) both are "0.3" there, so a leader and a follower may hold different numbers. *)
Theorem C50_digits_refuted : exists a b row, a <> b /\
  transaction fifteen [(lit "INSERT INTO t VALUES(:x);", [(lit ":x", Double a)])] [] = Some row /\
  transaction fifteen [(lit "INSERT INTO t VALUES(:x);", [(lit ":x", Double b)])] [] = Some row /\ row = lit "INSERT INTO t VALUES(0.3);".
Proof. exists 5404319552844595%Z, 5404319552844596%Z. eexists. split; [discriminate|]. split; [vm_compute; reflexivity|]. split; [vm_compute; reflexivity|]. reflexivity. Qed.
