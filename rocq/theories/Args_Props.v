(** C74: the options for the output of a query are split and read as in a shell, and the caret shown for an error is where the error is. *)
From Verif Require Import Base Text_Model Text_Proofs Table Timeout_Model Query_Model Args_Spec Args_Model.
Open Scope nat_scope.

(** ** Characters *)
Lemma is_space_white c : is_space c = true <-> white c.
Proof.
  split.
  - intros E.
    assert (X : implb (is_space c) (existsb (Ascii.eqb c) (lit " " ++ ["009"; "010"; "011"; "012"; "013"]%char)) = true).
    { revert c E. intros c _. revert c. apply forall_ascii. vm_compute. reflexivity. }
    rewrite E in X. cbn [implb] in X. apply existsb_exists in X as [d [I Q]]. apply Ascii.eqb_eq in Q. subst d. exact I.
  - intros I. unfold white in I. cbn in I. repeat (destruct I as [<-|I]; [reflexivity|]). contradiction.
Qed.
Lemma not_white c : ~ white c -> is_space c = false.
Proof. intros E. destruct (is_space c) eqn:Q; [|reflexivity]. apply is_space_white in Q. contradiction. Qed.
Lemma cont_spec c : cont c = true <-> continues c.
Proof. unfold cont, continues. rewrite Bool.andb_true_iff, Nat.leb_le, Nat.ltb_lt. reflexivity. Qed.

(** ** Splitting *)
Lemma within q x : ~ In q x -> forall s word, split_args (x ++ q :: s) (Within q) word = split_args s Open (word ++ x).
Proof.
  induction x as [|c x IH]; intros N s word; cbn [app split_args].
  - rewrite Ascii.eqb_refl, app_nil_r. reflexivity.
  - destruct (Ascii.eqb_spec c q) as [->|D]; [destruct N; left; reflexivity|].
    rewrite IH by (intros I; apply N; right; exact I). rewrite <- app_assoc. reflexivity.
Qed.
Lemma quote_eqb q : quote_mark q -> Ascii.eqb q "'" || Ascii.eqb q """" = true /\ is_space q = false.
Proof. intros [-> | ->]; split; reflexivity. Qed.
Lemma split_writes w t : writes w t -> forall s word, split_args (t ++ s) Open word = split_args s Open (word ++ w).
Proof.
  induction 1 as [|c w t NW NQ NB W IH|c w t W IH|q x w t Q N W IH]; intros s word.
  - rewrite app_nil_r. reflexivity.
  - cbn [app split_args]. rewrite (not_white c NW).
    destruct (Ascii.eqb_spec c "'") as [->|D1]; [destruct NQ; left; reflexivity|].
    destruct (Ascii.eqb_spec c """") as [->|D2]; [destruct NQ; right; reflexivity|].
    destruct (Ascii.eqb_spec c "\") as [->|D3]; [destruct NB; reflexivity|].
    cbn [orb]. rewrite IH, <- app_assoc. reflexivity.
  - cbn [app split_args]. change (is_space backslash) with false. cbn. rewrite IH, <- app_assoc. reflexivity.
  - cbn [app split_args]. destruct (quote_eqb q Q) as [-> ->]. cbn [app]. rewrite <- app_assoc. cbn [app].
    rewrite within by exact N. rewrite IH, <- app_assoc. reflexivity.
Qed.
Lemma split_space sp : Forall white sp -> forall s, split_args (sp ++ s) Open [] = split_args s Open [].
Proof.
  induction 1 as [|c sp W F IH]; intros s; [reflexivity|]. cbn [app split_args]. apply is_space_white in W. rewrite W. cbn [keep app]. apply IH.
Qed.

(** The words are those that were written, whatever is in them and however they were quoted. *)
Theorem C74_words : forall ws t, line ws t -> split_args t Open [] = ws.
Proof.
  induction 1 as [sp F|sp w t F W N|sp w t c ws rest F W N C L IH].
  - rewrite <- (app_nil_r sp), split_space by exact F. reflexivity.
  - rewrite split_space by exact F. rewrite <- (app_nil_r t), (split_writes w t W). cbn [split_args app]. destruct w; [contradiction|reflexivity].
  - rewrite split_space by exact F. rewrite (split_writes w t W). cbn [split_args app]. apply is_space_white in C. rewrite C, IH.
    destruct w; [contradiction|reflexivity].
Qed.
Print Assumptions C74_words.

(** Every list of words that are not empty can be written. *)
Theorem C74_any : forall ws, Forall (fun w => w <> []) ws -> exists t, line ws t.
Proof.
  assert (E : forall w, exists t, writes w t).
  { induction w as [|c w [t W]]; [exists []; constructor|]. exists (backslash :: c :: t). constructor. exact W. }
  induction 1 as [|w ws N F [t L]].
  - exists []. constructor. constructor.
  - destruct (E w) as [x W]. exists ([] ++ x ++ " "%char :: t). apply More; [constructor|exact W|exact N|left; reflexivity|exact L].
Qed.
Print Assumptions C74_any.

(** ** Reading *)
Definition step (o : shown) (w : wish) : shown :=
  match w with WStyle s => set_style s o | WTitles s => set_titles s o | WNull v => set_null v o | WSeparator v => set_separator v o | WOther _ => o end.
Lemma cstr_id v : ~ In "000"%char v -> cstr v = v.
Proof.
  induction v as [|c v IH]; intros N; [reflexivity|]. cbn [cstr].
  unfold Text_Spec.NUL. destruct (Ascii.eqb_spec c "000") as [->|D]; [destruct N; left; reflexivity|]. f_equal. apply IH. intros I. apply N. right. exact I.
Qed.
Lemma is_option_dashed n w : is_option n w = true -> dashed (lit n) w.
Proof.
  unfold is_option, dashed. intros E. apply Bool.orb_true_iff in E as [E|E]; apply bytes_eqb_eq in E; [left|right]; exact E.
Qed.
Lemma option_other w o : (forall w' name values, named w' name values -> ~ dashed name w) -> option_name w o = (o, []).
Proof.
  intros N. unfold option_name.
  assert (A : forall n w' values, named w' (lit n) values -> is_option n w = false).
  { intros n w' values M. destruct (is_option n w) eqn:E; [|reflexivity]. apply is_option_dashed in E. destruct (N _ _ _ M E). }
  rewrite (A "box"%string _ _ NBox), (A "column"%string _ _ NColumn), (A "csv"%string _ _ NCsv), (A "header"%string _ _ NHeader),
    (A "noheader"%string _ _ NNoHeader), (A "html"%string _ _ NHtml), (A "explain"%string _ _ NExplain), (A "eqp"%string _ _ NPlan),
    (A "explainqueryplan"%string _ _ NPlan2), (A "json"%string _ _ NJson), (A "line"%string _ _ NLine), (A "list"%string _ _ NList),
    (A "markdown"%string _ _ NMarkdown), (A "quote"%string _ _ NQuote), (A "table"%string _ _ NTable).
  assert (V : ~ In "000"%char (lit "x") /\ lit "x" <> []) by (split; [cbn; intros [E|[]]; discriminate|discriminate]). destruct V as [V1 V2].
  rewrite (A "nullvalue"%string _ _ (NNull _ V2 V1)), (A "separator"%string _ _ (NSeparator _ V2 V1)).
  cbn [orb]. destruct (is_option "ascii" w), (is_option "tabs" w); reflexivity.
Qed.
Lemma read_asked w words : asked w words -> forall l o, read_options (words ++ l) [] o = read_options l [] (step o w).
Proof.
  intros [[name [word [values [M [D ->]]]]] | [word [-> [-> N]]]] l o.
  - destruct M; destruct D as [-> | ->]; cbn [app read_options]; try reflexivity.
    all: match goal with H : ~ In _ _ |- _ => cbn; rewrite (cstr_id _ H); reflexivity end.
  - cbn [app read_options]. rewrite (option_other word o N). reflexivity.
Qed.
Lemma read_all os wss : Forall2 asked os wss -> forall l o, read_options (concat wss ++ l) [] o = read_options l [] (fold_left step os o).
Proof.
  induction 1 as [|w ws os wss A F IH]; intros l o; [reflexivity|]. cbn [concat fold_left]. rewrite <- app_assoc, (read_asked w ws A). apply IH.
Qed.
Lemma folded os : forall o, fold_left step os o =
  Shown (last_said (fun w => match w with WStyle s => Some s | _ => None end) (style_of o) os)
        (last_said (fun w => match w with WTitles s => Some s | _ => None end) (titles_of o) os)
        (last_said (fun w => match w with WNull v => Some (Some v) | _ => None end) (null_of o) os)
        (last_said (fun w => match w with WSeparator v => Some (Some v) | _ => None end) (separator_of o) os).
Proof.
  induction os as [|w os IH]; intros o; [destruct o; reflexivity|]. cbn [fold_left last_said]. rewrite IH. destruct w; reflexivity.
Qed.

(** The options are those that were asked for, of each kind the last one; what is not known is left alone, and so is an option without its value. *)
Theorem C74_options : forall os wss t, Forall2 asked os wss -> line (concat wss) t -> parseSQLite3Args t = wanted os.
Proof.
  intros os wss t F L. unfold parseSQLite3Args. rewrite (C74_words _ _ L), <- (app_nil_r (concat wss)), (read_all os wss F). cbn [read_options]. rewrite folded. reflexivity.
Qed.
Print Assumptions C74_options.
Theorem C74_unfinished : forall os wss w t, Forall2 asked os wss -> dashed (lit "nullvalue") w \/ dashed (lit "separator") w ->
  line (concat wss ++ [w]) t -> parseSQLite3Args t = wanted os.
Proof.
  intros os wss w t F D L. unfold parseSQLite3Args. rewrite (C74_words _ _ L), (read_all os wss F).
  assert (E : read_options [w] [] (fold_left step os plain_shown) = fold_left step os plain_shown) by (destruct D as [[-> | ->]|[-> | ->]]; reflexivity).
  rewrite E, folded. reflexivity.
Qed.
Print Assumptions C74_unfinished.

(** SQLiteArgs goes before ReadDBFlags, MYSQLFlags before both; SuppressResult shows nothing, unless the schema is asked for. *)
Theorem C74_request : forall t schema args os wss,
  tfind (lit "SQLiteArgs") t = Some args \/
  (tfind (lit "SQLiteArgs") t = None /\ (tfind (lit "ReadDBFlags") t = Some args \/ (tfind (lit "ReadDBFlags") t = None /\ args = []))) ->
  Forall2 asked os wss -> line (concat wss) args ->
  let o := shown_for t schema in
  style_of o = (if schema then Column else match tfind (lit "SuppressResult") t with Some _ => Nothing | None => style_of (wanted os) end) /\
  titles_of o = (if schema then Auto else match tfind (lit "MYSQLFlags") t with Some _ => Off | None => titles_of (wanted os) end) /\
  null_of o = match tfind (lit "MYSQLFlags") t with Some _ => Some ["010"%char] | None => null_of (wanted os) end /\
  separator_of o = match tfind (lit "MYSQLFlags") t with Some _ => Some ["030"%char] | None => separator_of (wanted os) end.
Proof.
  intros t schema args os wss A F L. pose proof (C74_options os wss args F L) as P. unfold shown_for, isSet, header.
  assert (E : (if match tfind (lit "SQLiteArgs") t with Some _ => true | None => false end
               then parseSQLite3Args match tfind (lit "SQLiteArgs") t with Some v => v | None => [] end
               else if match tfind (lit "ReadDBFlags") t with Some _ => true | None => false end
                    then parseSQLite3Args match tfind (lit "ReadDBFlags") t with Some v => v | None => [] end else parseSQLite3Args []) = wanted os).
  { destruct A as [-> | [-> [-> | [-> ->]]]]; exact P. }
  rewrite E. destruct (tfind (lit "MYSQLFlags") t), (tfind (lit "SuppressResult") t), schema; repeat split.
Qed.
Print Assumptions C74_request.

Example C74_options_met : exists os wss t, Forall2 asked os wss /\ line (concat wss) t /\
  wanted os = Shown Csv Off (Some (lit "no value")) None /\ parseSQLite3Args t = wanted os.
Proof.
  exists [WStyle Box; WTitles Off; WNull (lit "no value"); WOther (lit "-bail"); WStyle Csv],
    [[lit "-box"]; [lit "--noheader"]; [lit "-nullvalue"; lit "no value"]; [lit "-bail"]; [lit "-csv"]], (lit "-box --noheader -nullvalue 'no value' -bail -csv").
  assert (F : Forall2 asked [WStyle Box; WTitles Off; WNull (lit "no value"); WOther (lit "-bail"); WStyle Csv]
    [[lit "-box"]; [lit "--noheader"]; [lit "-nullvalue"; lit "no value"]; [lit "-bail"]; [lit "-csv"]]).
  { apply Forall2_cons; [left; do 3 eexists; repeat split; [apply NBox|left; reflexivity]|].
    apply Forall2_cons; [left; do 3 eexists; repeat split; [apply NNoHeader|right; reflexivity]|].
    apply Forall2_cons; [left; exists (lit "nullvalue"), (lit "-nullvalue"), [lit "no value"]; repeat split; [|left; reflexivity]|].
    { apply NNull; [discriminate|]. cbn. intros I. repeat (destruct I as [I|I]; [discriminate|]). exact I. }
    apply Forall2_cons; [right; eexists; repeat split|].
    { intros w' name values M D. destruct M; destruct D as [D|D]; discriminate. }
    apply Forall2_cons; [left; do 3 eexists; repeat split; [apply NCsv|left; reflexivity]|apply Forall2_nil]. }
  assert (P : forall c, In c (lit "abcdefghijklmnopqrstuvwxyz-") -> ~ white c /\ ~ quote_mark c /\ c <> backslash).
  { intros c I. cbn in I. repeat (destruct I as [<-|I]; [split; [|split; [intros [D|D]; discriminate|discriminate]];
      intros J; cbn in J; repeat (destruct J as [J|J]; [discriminate|]); exact J|]). contradiction. }
  assert (W : forall w, Forall (fun c => In c (lit "abcdefghijklmnopqrstuvwxyz-")) w -> writes w w).
  { induction 1 as [|c w I _ IH]; [constructor|]. destruct (P c I) as [A [B D]]. apply Plain; assumption. }
  assert (G : forall w, forallb (fun c => existsb (Ascii.eqb c) (lit "abcdefghijklmnopqrstuvwxyz-")) w = true -> writes w w).
  { intros w E. apply W. apply Forall_forall. intros c I. rewrite forallb_forall in E. specialize (E c I).
    apply existsb_exists in E as [d [J Q]]. apply Ascii.eqb_eq in Q. subst d. exact J. }
  assert (B : white " "%char) by (left; reflexivity).
  assert (L : line (concat [[lit "-box"]; [lit "--noheader"]; [lit "-nullvalue"; lit "no value"]; [lit "-bail"]; [lit "-csv"]])
                   (lit "-box --noheader -nullvalue 'no value' -bail -csv")).
  { apply (More [] (lit "-box") (lit "-box") " "%char); [constructor|apply G; reflexivity|discriminate|exact B|].
    apply (More [] (lit "--noheader") (lit "--noheader") " "%char); [constructor|apply G; reflexivity|discriminate|exact B|].
    apply (More [] (lit "-nullvalue") (lit "-nullvalue") " "%char); [constructor|apply G; reflexivity|discriminate|exact B|].
    apply (More [] (lit "no value") (lit "'no value'") " "%char); [constructor| |discriminate|exact B|].
    { apply (Quoted "'"%char (lit "no value") [] []); [left; reflexivity| |constructor].
      cbn. intros I. repeat (destruct I as [I|I]; [discriminate|]). exact I. }
    apply (More [] (lit "-bail") (lit "-bail") " "%char); [constructor|apply G; reflexivity|discriminate|exact B|].
    apply (Last [] (lit "-csv") (lit "-csv")); [constructor|apply G; reflexivity|discriminate]. }
  split; [exact F|]. split; [exact L|]. split; [reflexivity|]. apply (C74_options _ _ _ F L).
Qed.

(** A backslash between quotes is an ordinary character: a quote behind it ends the quoted text.  The comment in the code says the opposite. *)
Theorem C74_escaped_quote_refuted : ~ (forall x y, ~ In """"%char x -> ~ In """"%char y ->
  split_args ([""""%char] ++ x ++ [backslash; """"%char] ++ y ++ [""""%char]) Open [] = [x ++ """"%char :: y]).
Proof.
  intros F. specialize (F (lit "a") (lit "b")). cbn in F.
  assert (A : [lit "a\b"] = [lit "a""b"]) by (apply F; intros [I|[]]; discriminate). discriminate A.
Qed.
Print Assumptions C74_escaped_quote_refuted.

(** An empty value disappears: "-nullvalue '' -csv" shows NULL as -csv, in the ordinary style. *)
Theorem C74_empty_value_refuted : parseSQLite3Args (lit "-nullvalue '' -csv") = Shown Listing On (Some (lit "-csv")) None.
Proof. reflexivity. Qed.
Print Assumptions C74_empty_value_refuted.

(** The options -tabs and -ascii are taken and change nothing. *)
Theorem C74_tabs_refuted : forall o, option_name (lit "-tabs") o = (o, []) /\ option_name (lit "-ascii") o = (o, []).
Proof. intros o. split; reflexivity. Qed.
Print Assumptions C74_tabs_refuted.

(** SuppressResult does not suppress the result of .schema. *)
Theorem C74_suppress_refuted : exists t, tfind (lit "SuppressResult") t = Some (lit "true") /\ style_of (shown_for t true) = Column.
Proof. exists (tput (lit "SuppressResult") (lit "true") []). split; reflexivity. Qed.
Print Assumptions C74_suppress_refuted.

(** ** The text shown for an error *)
Lemma window_spec : forall rest inner e r e', window inner rest e = Some (r, e') ->
  exists before, rest = before ++ r /\ e = (Z.of_nat (length before) + e')%Z /\ (e' <= 50)%Z /\
    (inner = true \/ before <> [] -> match r with c :: _ => ~ continues c | [] => True end) /\ ((e <= 50)%Z -> inner = false -> before = []).
Proof.
  induction rest as [|c rest IH]; intros inner e r e' W; cbn [window] in W.
  - destruct (Z.leb_spec e 50) as [L|L]; [|discriminate]. injection W as <- <-. exists []. repeat split; auto; lia.
  - destruct (inner && cont c) eqn:I; cbn [orb] in W.
    + apply IH in W as [b [-> [E [L [N _]]]]]. exists (c :: b). split; [reflexivity|]. split; [cbn [length]; lia|]. split; [exact L|].
      apply Bool.andb_true_iff in I as [-> _]. split; [intros _; apply N; left; reflexivity|]. discriminate.
    + destruct (Z.ltb_spec 50 e) as [G|G].
      * apply IH in W as [b [-> [E [L [N _]]]]]. exists (c :: b). split; [reflexivity|]. split; [cbn [length]; lia|]. split; [exact L|].
        split; [intros _; apply N; left; reflexivity|lia].
      * injection W as <- <-. exists []. split; [reflexivity|]. split; [cbn [length]; lia|]. split; [exact G|]. split; [|reflexivity].
        intros [-> | D]; [|destruct D; reflexivity]. cbn [andb] in I. intros C. apply cont_spec in C. congruence.
Qed.
Lemma window_total : forall rest inner e, (e <= Z.of_nat (length rest) + 50)%Z -> exists p, window inner rest e = Some p.
Proof.
  induction rest as [|c rest IH]; intros inner e L; cbn [window length] in *.
  - destruct (Z.leb_spec e 50) as [G|G]; [eexists; reflexivity|lia].
  - destruct ((inner && cont c) || (50 <? e)%Z); [apply IH; lia|eexists; reflexivity].
Qed.
(** The place of the error is never skipped *)
Lemma window_stays : forall rest inner off, off <= length rest ->
  (off = 0 -> inner = true -> match rest with c :: _ => ~ continues c | [] => True end) ->
  match nth_error rest off with Some c => ~ continues c | None => True end ->
  forall r e', window inner rest (Z.of_nat off) = Some (r, e') -> (0 <= e')%Z.
Proof.
  induction rest as [|c rest IH]; intros inner off L Z0 N r e' W; cbn [window length] in *.
  - destruct (Z.leb_spec (Z.of_nat off) 50); [|discriminate]. injection W as <- <-. lia.
  - destruct ((inner && cont c) || (50 <? Z.of_nat off)%Z) eqn:G.
    + destruct off as [|off].
      * exfalso. apply Bool.orb_true_iff in G as [G|G]; [|apply Z.ltb_lt in G; lia].
        apply Bool.andb_true_iff in G as [-> G]. apply cont_spec in G. exact (Z0 eq_refl eq_refl G).
      * replace (Z.of_nat (S off) - 1)%Z with (Z.of_nat off) in W by lia. apply (IH true off) in W; [exact W|lia| |exact N].
        intros -> _. cbn [nth_error] in N. destruct rest; exact N.
    + injection W as <- <-. lia.
Qed.

Lemma drop_cont_spec r : exists l, r = l ++ drop_cont r /\ Forall continues l /\ match drop_cont r with c :: _ => ~ continues c | [] => True end.
Proof.
  induction r as [|c r [l [E [F N]]]]; [exists []; repeat split; constructor|]. cbn [drop_cont]. destruct (cont c) eqn:Q.
  - exists (c :: l). split; [cbn; f_equal; exact E|]. split; [constructor; [apply cont_spec; exact Q|exact F]|exact N].
  - exists []. split; [reflexivity|]. split; [constructor|]. intros C. apply cont_spec in C. congruence.
Qed.
Lemma snippet_spec rest : exists after, rest = snippet rest ++ after /\ length (snippet rest) <= 78 /\
  (after = [] \/ exists l tail, after = l ++ tail /\ Forall continues l /\ length (snippet rest ++ l) = 78).
Proof.
  unfold snippet. destruct (Nat.ltb_spec 78 (length rest)) as [L|L]; [|exists []; rewrite app_nil_r; repeat split; auto].
  destruct (drop_cont_spec (rev (firstn 78 rest))) as [l [E [F N]]]. remember (drop_cont (rev (firstn 78 rest))) as d.
  assert (X : firstn 78 rest = rev d ++ rev l) by (rewrite <- (rev_involutive (firstn 78 rest)), E, rev_app_distr; reflexivity).
  exists (rev l ++ skipn 78 rest). split; [rewrite app_assoc, <- X; symmetry; apply firstn_skipn|].
  assert (Y : length (rev d ++ rev l) = 78) by (rewrite <- X; apply firstn_length_le; lia).
  split; [rewrite app_length in Y; lia|]. right. exists (rev l), (skipn 78 rest). split; [reflexivity|]. split; [apply Forall_rev; exact F|exact Y].
Qed.

Lemma no_caret_spaces n : ~ In "^"%char (repeat " "%char n).
Proof. intros I. apply repeat_spec in I. discriminate. Qed.
Lemma marker_spec n : n <= 50 -> caret_at n (marker (Z.of_nat n)).
Proof.
  intros L. unfold marker, spaces, caret_at. destruct (Z.ltb_spec (Z.of_nat n) 25) as [A|A].
  - exists (repeat " "%char n), (lit "--- error here"). rewrite Nat2Z.id, repeat_length. split; [reflexivity|]. split; [reflexivity|].
    split; [apply no_caret_spaces|]. cbn. intros I. repeat (destruct I as [I|I]; [discriminate|]). exact I.
  - exists (repeat " "%char (Z.to_nat (Z.of_nat n - 14)) ++ lit "error here ---"), []. rewrite <- app_assoc. split; [reflexivity|].
    rewrite app_length, repeat_length. split; [cbn [length lit list_ascii_of_string]; lia|]. split; [|intros []].
    intros I. apply in_app_or in I as [I|I]; [exact (no_caret_spaces _ I)|]. cbn in I. repeat (destruct I as [I|I]; [discriminate|]). exact I.
Qed.
Lemma blanked_map l : Forall2 blanked l (map blank l).
Proof.
  induction l as [|c l IH]; [constructor|]. cbn [map]. constructor; [|exact IH]. unfold blank, blanked. destruct (is_space c) eqn:E.
  - left. split; [apply is_space_white; exact E|reflexivity].
  - right. split; [|reflexivity]. intros W. apply is_space_white in W. congruence.
Qed.

(** For an error at a character of the query, or at its end: under the message is a piece of the query of at most 78 bytes with that
    character in it, white space shown as blanks, and the caret below is in the column of the first byte of that character.  The piece begins
    with the query if the error is within its first 51 bytes, and otherwise at a character; it goes to the end of the query or to 78
    bytes, less the bytes in the middle of a character it would have ended with. *)
Theorem C74_caret : forall query message off, off <= length query ->
  match nth_error query off with Some c => ~ continues c | None => True end ->
  exists before piece after col piece' below,
    query = before ++ piece ++ after /\ off = length before + col /\
    generateErrorContextMessage query message (Z.of_nat off) = Some (message ++ ["010"%char] ++ piece' ++ ["010"%char] ++ below ++ ["010"%char]) /\
    Forall2 blanked piece piece' /\ caret_at col below /\
    length piece <= 78 /\ col <= 50 /\ (off < length query -> col < length piece) /\
    (off <= 50 -> before = []) /\ (before <> [] -> match piece ++ after with c :: _ => ~ continues c | [] => True end) /\
    (after = [] \/ exists l tail, after = l ++ tail /\ Forall continues l /\ length (piece ++ l) = 78).
Proof.
  intros query message off L N. destruct (window_total query false (Z.of_nat off)) as [[rest e] W]; [lia|].
  pose proof (window_stays query false off L ltac:(discriminate) N rest e W) as P.
  apply window_spec in W as W'. destruct W' as [before [Q [E [B [H0 H1]]]]].
  destruct (snippet_spec rest) as [after [R [S1 S2]]].
  exists before, (snippet rest), after, (Z.to_nat e), (map blank (snippet rest)), (marker e).
  split; [rewrite <- R; exact Q|]. split; [lia|].
  split. { unfold generateErrorContextMessage. destruct (Z.ltb_spec (Z.of_nat off) 0); [lia|]. rewrite W. reflexivity. }
  split; [apply blanked_map|].
  split. { rewrite <- (Z2Nat.id e) at 2 by exact P. apply marker_spec. lia. }
  split; [exact S1|]. split; [lia|].
  split.
  { intros L'. destruct S2 as [-> | [l [tail [-> [F Y]]]]].
    - rewrite app_nil_r in R. rewrite <- R. rewrite Q, app_length in L'. lia.
    - destruct (Nat.lt_ge_cases (Z.to_nat e) (length (snippet rest))) as [G|G]; [exact G|]. exfalso.
      rewrite Q in N. rewrite nth_error_app2 in N by lia. replace (off - length before) with (Z.to_nat e) in N by lia.
      rewrite R in N. rewrite nth_error_app2 in N by exact G. rewrite app_length in Y.
      rewrite nth_error_app1 in N by lia. destruct (nth_error l (Z.to_nat e - length (snippet rest))) eqn:X.
      + apply nth_error_In in X. rewrite Forall_forall in F. exact (N (F _ X)).
      + apply nth_error_None in X. lia. }
  split; [intros; apply H1; [lia|reflexivity]|].
  split; [rewrite <- R; intros D; apply H0; right; exact D|exact S2].
Qed.
Print Assumptions C74_caret.

(** If the place of the error is not known, the message is shown and nothing else. *)
Theorem C74_unknown : forall query message off, (off < 0)%Z -> generateErrorContextMessage query message off = Some message.
Proof. intros query message off L. unfold generateErrorContextMessage. apply Z.ltb_lt in L. rewrite L. reflexivity. Qed.
Print Assumptions C74_unknown.

(** An error in the first statement is answered with its place in the query. *)
Theorem C74_first_statement : forall prepare query message off, query <> [] -> prepare query = inr off ->
  bad_query prepare query message = Some (generateErrorContextMessage query message off).
Proof. intros prepare query message off N E. unfold bad_query. destruct query; [contradiction|]. cbn [length getPreparedStatements]. rewrite E. reflexivity. Qed.
Print Assumptions C74_first_statement.

Example C74_caret_met : let q := lit "SELECT a FORM t;" in
  9 <= length q /\ match nth_error q 9 with Some c => ~ continues c | None => True end /\
  generateErrorContextMessage q (lit "near FORM") 9 = Some (lit "near FORM" ++ NL ++ lit "SELECT a FORM t;" ++ NL ++ lit "         ^--- error here" ++ NL).
Proof. cbn [lit list_ascii_of_string length nth_error]. split; [lia|]. split; [intros C; apply cont_spec in C; discriminate C|reflexivity]. Qed.

(** The offset of an error in a later statement counts from that statement, but is used for the whole query: in "BEGIN;SELEC 1;" the caret
    is under BEGIN. *)
Theorem C74_later_statement_refuted : exists prepare,
  (forall s, s = lit "BEGIN;SELEC 1;" -> prepare s = inl 6) /\ prepare (lit "SELEC 1;") = inr 0%Z /\
  bad_query prepare (lit "BEGIN;SELEC 1;") (lit "near SELEC") =
    Some (Some (lit "near SELEC" ++ NL ++ lit "BEGIN;SELEC 1;" ++ NL ++ lit "^--- error here" ++ NL)).
Proof.
  exists (fun s => if bytes_eqb s (lit "BEGIN;SELEC 1;") then inl 6 else inr 0%Z).
  split; [intros s ->; reflexivity|]. split; reflexivity.
Qed.
Print Assumptions C74_later_statement_refuted.

(** The column counts bytes: behind a letter of two bytes the caret is one column too far to the right. *)
Theorem C74_column_refuted : exists query off,
  generateErrorContextMessage query [] off = Some (NL ++ query ++ NL ++ lit "   ^--- error here" ++ NL) /\
  length (filter (fun c => negb (cont c)) (firstn (Z.to_nat off) query)) = 2.
Proof. exists (["195"; "169"]%char ++ lit " x;"), 3%Z. split; reflexivity. Qed.
Print Assumptions C74_column_refuted.

(** The piece can end in the middle of a character: of a character that just fits, the bytes after the first are dropped and the first is
    kept, so what is answered is not UTF-8. *)
Theorem C74_cut_refuted : exists query,
  query = repeat "a"%char 76 ++ ["195"; "169"]%char ++ lit " ;" /\
  generateErrorContextMessage query [] 0 = Some (NL ++ repeat "a"%char 76 ++ ["195"%char] ++ NL ++ lit "^--- error here" ++ NL).
Proof. eexists. split; [reflexivity|reflexivity]. Qed.
Print Assumptions C74_cut_refuted.
