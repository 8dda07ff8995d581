(** C75: the place of a conflict is found, and the next try waits for those that conflicted there. *)
From Verif Require Import Base Text_Spec Text_Model Text_Proofs Text_Props Dec Table Forward_Model Schema_Model Timeout_Props Addr_Spec Addr_Model Addr_Props
  Place_Spec Place_Model.
Open Scope nat_scope.

(** ** Words *)
Definition BL : ascii := " "%char.
Lemma space_in c : is_space c = true <-> In c (lit " " ++ ["009"; "010"; "011"; "012"; "013"]%char).
Proof.
  split.
  - intros E.
    assert (X : implb (is_space c) (existsb (Ascii.eqb c) (lit " " ++ ["009"; "010"; "011"; "012"; "013"]%char)) = true).
    { revert c E. intros c _. revert c. apply forall_ascii. vm_compute. reflexivity. }
    rewrite E in X. cbn [implb] in X. apply existsb_exists in X as [d [I Q]]. apply Ascii.eqb_eq in Q. subst d. exact I.
  - intros I. cbn in I. repeat (destruct I as [<-|I]; [reflexivity|]). contradiction.
Qed.
Lemma word_no_blank w : word w -> ~ In BL w.
Proof. intros [_ W] I. apply (W BL I). left. reflexivity. Qed.
Lemma solid_word w r : word w -> solid (w ++ BL :: r) = w.
Proof.
  intros [_ W]. induction w as [|c w IH]; [reflexivity|]. cbn [app solid]. destruct (is_space c) eqn:E.
  - apply space_in in E. destruct (W c (or_introl eq_refl) E).
  - f_equal. apply IH. intros d I. apply W. right. exact I.
Qed.
Lemma prefixb_app p : forall s, prefixb p (p ++ s) = true.
Proof. intros s. apply prefixb_spec. exists s. reflexivity. Qed.
Lemma skipn_app_len (p s : bytes) : skipn (length p) (p ++ s) = s.
Proof. rewrite skipn_app, skipn_all, Nat.sub_diag. reflexivity. Qed.
Lemma behind_app p g s : behind p g (p ++ s) = g s.
Proof. unfold behind. rewrite prefixb_app, skipn_app_len. reflexivity. Qed.

(** If a text begins with a pattern of words, its second word is that of the pattern. *)
Lemma split_blank : forall (w x p y : bytes), ~ In BL w -> ~ In BL x -> w ++ BL :: p = x ++ BL :: y -> w = x /\ p = y.
Proof.
  induction w as [|c w IH]; intros x p y W X E.
  - destruct x as [|d x]; [injection E as E; auto|]. cbn in E. injection E as E1 _. destruct X. left. symmetry. exact E1.
  - destruct x as [|d x].
    + cbn in E. injection E as E1 _. destruct W. left. exact E1.
    + cbn in E. assert (c = d) by congruence. assert (E2 : w ++ BL :: p = x ++ BL :: y) by congruence. apply IH in E2 as [-> ->].
      * subst. auto.
      * intros I. apply W. right. exact I.
      * intros I. apply X. right. exact I.
Qed.
Lemma prefix_words w p x y : ~ In BL w -> ~ In BL x -> prefixb (w ++ BL :: p) (x ++ BL :: y) = true -> prefixb p y = true.
Proof.
  intros W X P. apply prefixb_spec in P as [t E]. rewrite <- app_assoc in E. cbn [app] in E. symmetry in E. apply split_blank in E as [_ E]; [|exact W|exact X].
  apply prefixb_spec. exists t. symmetry. exact E.
Qed.
Lemma prefix_blank (p s : bytes) : In BL p -> ~ In BL s -> prefixb p s = false.
Proof.
  intros I N. destruct (prefixb p s) eqn:P; [|reflexivity]. apply prefixb_spec in P as [t ->]. destruct N. apply in_or_app. left. exact I.
Qed.
Lemma prefix_short (p x y : bytes) : ~ In BL p -> prefixb p (x ++ BL :: y) = true -> prefixb p x = true.
Proof.
  revert x. induction p as [|a p IH]; intros x N P; [reflexivity|]. destruct x as [|c x]; cbn [app prefixb] in *.
  - apply Bool.andb_true_iff in P as [P _]. apply Ascii.eqb_eq in P. destruct N. left. exact P.
  - apply Bool.andb_true_iff in P as [P1 P2]. rewrite P1. cbn [andb]. apply IH; [|exact P2]. intros I. apply N. right. exact I.
Qed.

(** ** The last match *)
Lemma last_match_app f a : forall s x, last_match f s = Some x -> last_match f (a ++ s) = Some x.
Proof. intros s x E. induction a as [|c a IH]; [exact E|]. cbn [app last_match]. rewrite IH. reflexivity. Qed.
Lemma last_match_here f c s x : last_match f s = None -> f (c :: s) = Some x -> last_match f (c :: s) = Some x.
Proof. intros N E. cbn [last_match]. rewrite N. exact E. Qed.
Lemma none_app f a s : last_match f s = None -> (forall b c, a = b ++ c -> c <> [] -> f (c ++ s) = None) -> last_match f (a ++ s) = None.
Proof.
  intros N. induction a as [|d a IH]; intros H; [exact N|]. cbn [app last_match]. rewrite IH.
  - apply (H [] (d :: a)); [reflexivity|discriminate].
  - intros b c E C. apply (H (d :: b) c); [cbn; f_equal; exact E|exact C].
Qed.
Lemma none_in f (s : bytes) : f [] = None -> (forall b c, s = b ++ c -> c <> [] -> f c = None) -> last_match f s = None.
Proof.
  intros E H. rewrite <- (app_nil_r s). apply none_app; [exact E|]. intros b c A C. rewrite app_nil_r. exact (H b c A C).
Qed.
Lemma not_in_suffix (x : ascii) a b c : ~ In x a -> a = b ++ c -> ~ In x c.
Proof. intros N -> I. apply N. apply in_or_app. right. exact I. Qed.

(** A pattern of two words is not found where the word behind is another one. *)
Definition never2 (f : bytes -> option bytes) (p : bytes) : Prop := forall s, f s <> None -> exists w, ~ In BL w /\ In BL (w ++ BL :: p) /\ prefixb (w ++ BL :: p) s = true.
Lemma skip_word f p x y : never2 f p -> ~ In BL x -> prefixb p y = false -> f (BL :: y) = None -> last_match f y = None -> last_match f (x ++ BL :: y) = None.
Proof.
  intros V X P B L. apply none_app.
  - cbn [last_match]. rewrite L. exact B.
  - intros b c E C. destruct (f (c ++ BL :: y)) eqn:F; [|reflexivity]. exfalso. destruct (V (c ++ BL :: y)) as [w [W [_ Q]]]; [congruence|].
    apply prefix_words in Q; [congruence|exact W|exact (not_in_suffix BL x b c X E)].
Qed.
Lemma last_word f p x : never2 f p -> ~ In BL x -> f [] = None -> last_match f x = None.
Proof.
  intros V X N. apply none_in; [exact N|]. intros b c E C. destruct (f c) eqn:F; [|reflexivity]. exfalso. destruct (V c) as [w [_ [I Q]]]; [congruence|].
  rewrite (prefix_blank _ c I) in Q; [discriminate|]. exact (not_in_suffix BL x b c X E).
Qed.

Lemma either_some p q g h s : either (behind p g) (behind q h) s <> None -> prefixb p s = true \/ prefixb q s = true.
Proof. unfold either, behind. destruct (prefixb p s); [auto|]. destruct (prefixb q s); [auto|contradiction]. Qed.
Lemma blank_free (w : bytes) : forallb (fun c => negb (Ascii.eqb c BL)) w = true -> ~ In BL w.
Proof. intros F I. rewrite forallb_forall in F. specialize (F BL I). discriminate. Qed.
Lemma prefixb_cut p q : forall s, prefixb (p ++ q) s = true -> prefixb p s = true.
Proof. intros s E. apply prefixb_spec in E as [t ->]. apply prefixb_spec. exists (q ++ t). apply app_assoc_reverse. Qed.
Lemma page_two : never2 re_page (lit "of db ").
Proof.
  intros s E. exists (lit "part"). split; [apply blank_free; reflexivity|]. split; [cbn; auto 10|].
  apply either_some in E as [E|E]; [apply (prefixb_cut _ (lit "table "))|apply (prefixb_cut _ (lit "index "))]; exact E.
Qed.
Lemma row_two : never2 re_row (lit "on ").
Proof.
  intros s E. exists (lit "conflict"). split; [apply blank_free; reflexivity|]. split; [cbn; auto 10|].
  apply either_some in E as [E|E]; [apply (prefixb_cut _ (lit "index "))|apply (prefixb_cut _ (lit "table "))]; exact E.
Qed.

Lemma upto_spec d x s : ~ In d x -> upto d (x ++ d :: s) = Some x.
Proof.
  induction x as [|c x IH]; intros N; cbn [app upto].
  - rewrite Ascii.eqb_refl. reflexivity.
  - destruct (Ascii.eqb_spec c d) as [->|D]; [destruct N; left; reflexivity|]. rewrite IH; [reflexivity|]. intros I. apply N. right. exact I.
Qed.
Lemma extract_spec f s x : ~ In LF s -> last_match f s = Some x -> extract f s = x.
Proof.
  intros N E.
  assert (B : in_set LF s = false).
  { destruct (in_set LF s) eqn:I; [|reflexivity]. unfold in_set in I. apply existsb_exists in I as [d [J Q]]. apply Ascii.eqb_eq in Q. subst d. contradiction. }
  unfold extract. destruct (rev s) as [|c r] eqn:R.
  - rewrite B, E. apply app_nil_r.
  - destruct (Ascii.eqb_spec c LF) as [->|D].
    + destruct N. apply in_rev. rewrite R. left. reflexivity.
    + rewrite B, E. apply app_nil_r.
Qed.
Lemma quiet msg : ~ noise msg -> find_at (lit "automatic index on") msg = None.
Proof. intros N. apply find_absent. intros b a E. apply N. exists b, a. exact E. Qed.

(** ** The number of the page *)
Lemma digits_behind n (r : bytes) : match r with c :: _ => is_digit c = false | [] => True end -> digits_of (dec n ++ r) = dec n.
Proof.
  intros R. pose proof (dec_digits n) as D. revert D. generalize (dec n) as l. induction l as [|c l IH]; intros D.
  - destruct r as [|c r]; [reflexivity|]. cbn [app digits_of]. rewrite R. reflexivity.
  - cbn [forallb] in D. apply Bool.andb_true_iff in D as [D1 D2]. cbn [app digits_of]. rewrite D1, IH by exact D2. reflexivity.
Qed.
Lemma cstr_digits n (r : bytes) : cstr (dec n ++ r) = dec n ++ cstr r.
Proof.
  pose proof (dec_digits n) as D. revert D. generalize (dec n) as l. induction l as [|c l IH]; intros D; [reflexivity|].
  cbn [forallb] in D. apply Bool.andb_true_iff in D as [D1 D2]. cbn [app cstr]. destruct (digit_ok c D1) as (-> & _). rewrite IH by exact D2. reflexivity.
Qed.
Lemma number_behind n (r : bytes) : SToInt64 (dec n ++ BL :: r) = Z.min 9223372036854775807 (Z.of_N n).
Proof.
  unfold SToInt64. rewrite cstr_digits. cbn [cstr]. change (Ascii.eqb BL NUL) with false. cbn iota.
  pose proof (digits_behind n (BL :: cstr r) eq_refl) as DO. pose proof (dec_value_dec n) as V. pose proof (dec_digits n) as D. pose proof (dec_nonempty n) as NE.
  destruct (dec n) as [|c l] eqn:E; [congruence|].
  cbn [forallb] in D. apply Bool.andb_true_iff in D as [D1 D2]. destruct (digit_ok c D1) as (_ & SP & M & P).
  cbn [app] in *. cbn [skip_space]. rewrite SP. rewrite <- DO in V. rewrite <- V. clear V DO D1 SP D2 E NE.
  destruct c as [[] [] [] [] [] [] [] []]; try reflexivity; congruence.
Qed.

Lemma re_page_table s x : upto ";" s = Some x -> re_page (lit "part of db table " ++ s) = Some x.
Proof. intros E. unfold re_page, either. rewrite behind_app, E. reflexivity. Qed.
Lemma re_page_index s x : upto ";" s = Some x -> re_page (lit "part of db index " ++ s) = Some x.
Proof. intros E. unfold re_page, either. rewrite behind_app, E. reflexivity. Qed.
(** A conflict on a page: the number of the page and the name of the table or index. *)
Theorem C75_page : forall hash page how table name content, (Z.of_N page < 2 ^ 63)%Z -> word name -> ~ In ";"%char name -> ~ In " "%char content ->
  let msg := page_message page how table name content in ~ In LF msg -> ~ noise msg ->
  commit_place hash [msg] = (Z.of_N page, name).
Proof.
  intros hash page how table name content PL W SC NC msg NL NO. unfold commit_place. cbn [fold_left]. unfold log_callback. rewrite (quiet msg NO).
  assert (A : prefixb (lit "cannot commit") msg = true) by reflexivity. rewrite A.
  assert (F : find_at (lit "conflict at page ") msg = Some 39) by reflexivity. rewrite F.
  change (skipn (39 + length (lit "conflict at page ")) msg) with (dec page ++ BL :: lit "(" ++ how ++ lit "; part of db " ++ what table ++ lit " " ++ name ++ lit "; " ++ content).
  rewrite number_behind, Z.min_r by lia. f_equal. apply extract_spec; [exact NL|].
  assert (T : last_match re_page (name ++ lit "; " ++ content) = None).
  { change (name ++ lit "; " ++ content) with (name ++ [";"%char] ++ BL :: content). rewrite app_assoc. apply (skip_word _ (lit "of db ")); [exact page_two| | | |].
    - intros I. apply in_app_or in I as [I|[I|[]]]; [exact (word_no_blank name W I)|discriminate].
    - apply prefix_blank; [cbn; auto|exact NC].
    - reflexivity.
    - apply (last_word _ (lit "of db ")); [exact page_two|exact NC|reflexivity]. }
  assert (G : forall t, last_match re_page (lit "part of db " ++ what t ++ lit " " ++ name ++ lit "; " ++ content) = Some name).
  { intros [|]; cbn [what].
    - change (lit "part of db " ++ lit "table" ++ lit " " ++ name ++ lit "; " ++ content) with (lit "part of db table " ++ name ++ lit "; " ++ content).
      apply last_match_here.
      + apply (none_app re_page (lit "art of db table ")); [exact T|]. intros b c E C.
        do 17 (destruct b as [|? b]; [cbn in E; subst c; try reflexivity; try (destruct C; reflexivity)|cbn in E; try discriminate; injection E as _ E]).
      + apply (re_page_table (name ++ lit "; " ++ content)). apply (upto_spec ";" name). exact SC.
    - change (lit "part of db " ++ lit "index" ++ lit " " ++ name ++ lit "; " ++ content) with (lit "part of db index " ++ name ++ lit "; " ++ content).
      apply last_match_here.
      + apply (none_app re_page (lit "art of db index ")); [exact T|]. intros b c E C.
        do 17 (destruct b as [|? b]; [cbn in E; subst c; try reflexivity; try (destruct C; reflexivity)|cbn in E; try discriminate; injection E as _ E]).
      + apply (re_page_index (name ++ lit "; " ++ content)). apply (upto_spec ";" name). exact SC. }
  replace msg with ((lit "cannot commit CONCURRENT transaction - conflict at page " ++ dec page ++ lit " (" ++ how ++ lit "; ") ++
    lit "part of db " ++ what table ++ lit " " ++ name ++ lit "; " ++ content) by (unfold msg, page_message; rewrite <- !app_assoc; reflexivity).
  apply last_match_app. apply G.
Qed.
Print Assumptions C75_page.

(** ** Conflicts on rows *)
Lemma solid1_word w r : word w -> solid1 (w ++ BL :: r) = Some w.
Proof. intros W. unfold solid1. rewrite solid_word by exact W. destruct w; [destruct W as [W _]; contradiction|reflexivity]. Qed.
Lemma re_row_index s x : solid1 s = Some x -> re_row (lit "conflict on index " ++ s) = Some x.
Proof. intros E. unfold re_row, either. rewrite behind_app, E. reflexivity. Qed.
Lemma re_row_table s x : solid1 s = Some x -> re_row (lit "conflict on table " ++ s) = Some x.
Proof. intros E. unfold re_row, either. rewrite behind_app, E. reflexivity. Qed.
Lemma re_key_here s x : solid1 s = Some x -> re_key (lit "key=" ++ s) = Some x.
Proof. intros E. unfold re_key. rewrite behind_app. exact E. Qed.
Lemma key_skip x y : (forall b c, x = b ++ c -> prefixb (lit "key=") c = false) -> last_match re_key y = None -> last_match re_key (x ++ BL :: y) = None.
Proof.
  intros N L. apply none_app; [cbn [last_match]; rewrite L; reflexivity|]. intros b c E C. unfold re_key, behind.
  destruct (prefixb (lit "key=") (c ++ BL :: y)) eqn:P; [|reflexivity]. apply prefix_short in P; [|apply blank_free; reflexivity]. rewrite (N b c E) in P. discriminate.
Qed.
Lemma no_k (x : bytes) : ~ In "k"%char x -> forall b c, x = b ++ c -> prefixb (lit "key=") c = false.
Proof.
  intros N b c E. destruct (prefixb (lit "key=") c) eqn:P; [|reflexivity]. apply prefixb_spec in P as [t ->]. destruct N. rewrite E. apply in_or_app. right. left. reflexivity.
Qed.
Ltac not_in := let I := fresh in intros I; repeat (apply in_app_or in I as [I|I]); try contradiction; cbn in I; repeat (destruct I as [I|I]; [discriminate|]); try contradiction.

(** A conflict on a row: the name of the table or index, and a number that depends on the name and the key only. *)
Theorem C75_row : forall hash how table name root key with' tid, how = lit "write/write" \/ how = lit "read/write" ->
  word name -> word key -> ~ within (lit "key=") key -> ~ In " "%char root ->
  ~ In " "%char with' /\ ~ In "k"%char with' -> ~ In " "%char tid /\ ~ In "k"%char tid ->
  let msg := row_message how table name root key with' tid in ~ In LF msg -> ~ noise msg ->
  commit_place hash [msg] = (hash (name ++ key), name).
Proof.
  intros hash how table name root key with' tid H W K NK R [X1 X2] [Y1 Y2] msg NL NO. unfold commit_place. cbn [fold_left]. unfold log_callback. rewrite (quiet msg NO).
  assert (A : prefixb (lit "cannot commit") msg = false) by (destruct H as [-> | ->]; reflexivity). rewrite A.
  assert (B : prefixb (lit "write/write conflict on") msg || prefixb (lit "read/write conflict on") msg = true) by (destruct H as [-> | ->]; reflexivity). rewrite B.
  pose proof (word_no_blank name W) as WB. pose proof (word_no_blank key K) as KB.
  assert (T : last_match re_row (name ++ BL :: (lit "(root=" ++ root ++ lit "),") ++ BL :: (lit "key=" ++ key) ++ BL :: (lit "conflicting=" ++ with') ++ BL :: lit "(mytid=" ++ tid) = None).
  { apply (skip_word _ (lit "on ")); [exact row_two|exact WB|reflexivity|reflexivity|].
    apply (skip_word _ (lit "on ")); [exact row_two|not_in|reflexivity|reflexivity|].
    apply (skip_word _ (lit "on ")); [exact row_two|not_in|reflexivity|reflexivity|].
    apply (skip_word _ (lit "on ")); [exact row_two|not_in|reflexivity|reflexivity|].
    apply (last_word _ (lit "on ")); [exact row_two|not_in|reflexivity]. }
  assert (L : extract re_row msg = name).
  { apply extract_spec; [exact NL|].
    replace msg with ((how ++ lit " ") ++ lit "conflict on " ++ what table ++ lit " " ++ name ++ BL :: (lit "(root=" ++ root ++ lit "),") ++ BL :: (lit "key=" ++ key) ++ BL :: (lit "conflicting=" ++ with') ++ BL :: lit "(mytid=" ++ tid)
      by (unfold msg, row_message; rewrite <- !app_assoc; reflexivity).
    apply last_match_app. destruct table; cbn [what].
    - apply last_match_here.
      + apply (none_app re_row (lit "onflict on table ")); [exact T|]. intros b c E C.
        do 18 (destruct b as [|? b]; [cbn in E; subst c; try reflexivity; try (destruct C; reflexivity)|cbn in E; try discriminate; injection E as _ E]).
      + apply (re_row_table (name ++ BL :: _)). apply solid1_word. exact W.
    - apply last_match_here.
      + apply (none_app re_row (lit "onflict on index ")); [exact T|]. intros b c E C.
        do 18 (destruct b as [|? b]; [cbn in E; subst c; try reflexivity; try (destruct C; reflexivity)|cbn in E; try discriminate; injection E as _ E]).
      + apply (re_row_index (name ++ BL :: _)). apply solid1_word. exact W. }
  assert (M : extract re_key msg = key).
  { apply extract_spec; [exact NL|].
    replace msg with ((how ++ lit " conflict on " ++ what table ++ lit " " ++ name ++ lit " (root=" ++ root ++ lit "), ") ++ lit "key=" ++ key ++ BL :: (lit "conflicting=" ++ with') ++ BL :: lit "(mytid=" ++ tid)
      by (unfold msg, row_message; rewrite <- !app_assoc; reflexivity).
    apply last_match_app. apply last_match_here.
    - assert (Z : last_match re_key (key ++ BL :: (lit "conflicting=" ++ with') ++ BL :: lit "(mytid=" ++ tid) = None).
      { apply key_skip.
        - intros b c E. destruct (prefixb (lit "key=") c) eqn:P; [|reflexivity]. apply prefixb_spec in P as [t ->]. destruct NK. exists b, t. exact E.
        - apply key_skip; [apply no_k; not_in|]. apply none_in; [reflexivity|]. intros b c E C. unfold re_key, behind. rewrite (no_k (lit "(mytid=" ++ tid)) with (b := b); [reflexivity|not_in|exact E]. }
      apply (none_app re_key (lit "ey=")); [exact Z|]. intros b c E C.
      do 4 (destruct b as [|? b]; [cbn in E; subst c; try reflexivity; try (destruct C; reflexivity)|cbn in E; try discriminate; injection E as _ E]).
    - apply (re_key_here (key ++ BL :: _)). apply solid1_word. exact K. }
  rewrite L, M. destruct (find_at (lit "key=") msg) eqn:F; [reflexivity|]. exfalso.
  pose proof (find_at_spec (lit "key=") msg) as Q. rewrite F in Q.
  apply (Q (how ++ lit " conflict on " ++ what table ++ lit " " ++ name ++ lit " (root=" ++ root ++ lit "), ") (key ++ lit " conflicting=" ++ with' ++ lit " (mytid=" ++ tid)).
  unfold msg, row_message. rewrite <- !app_assoc. reflexivity.
Qed.
Print Assumptions C75_row.

(** ** The next try *)
(** If nothing about a conflict was logged, there is no lock. *)
Theorem C75_nothing : forall hash msgs,
  Forall (fun m => forall a, m <> lit "cannot commit" ++ a /\ m <> lit "write/write conflict on" ++ a /\ m <> lit "read/write conflict on" ++ a) msgs ->
  commit_place hash msgs = (0%Z, []).
Proof.
  intros hash msgs F. unfold commit_place. induction F as [|m msgs N F IH]; [reflexivity|]. cbn [fold_left].
  assert (E : log_callback hash (0%Z, []) m = (0%Z, [])).
  { unfold log_callback. destruct (find_at _ m); [reflexivity|].
    assert (P : forall p, (forall a, m <> p ++ a) -> prefixb p m = false).
    { intros p Q. destruct (prefixb p m) eqn:X; [|reflexivity]. apply prefixb_spec in X as [t ->]. destruct (Q t eq_refl). }
    rewrite (P (lit "cannot commit")), (P (lit "write/write conflict on")), (P (lit "read/write conflict on")); [reflexivity| | |]; intros a; apply N. }
  rewrite E. exact IH.
Qed.
Print Assumptions C75_nothing.

(** Messages about other things, before or behind that of a conflict, do not change what is known of it; only messages before it may be about conflicts. *)
Theorem C75_among : forall hash before msg after id name, name <> [] -> commit_place hash [msg] = (id, name) ->
  Forall (fun m => noise m \/ forall a, m <> lit "cannot commit" ++ a /\ m <> lit "write/write conflict on" ++ a /\ m <> lit "read/write conflict on" ++ a) after ->
  commit_place hash (before ++ msg :: after) = (id, name).
Proof.
  intros hash before msg after id name N E F. unfold commit_place in *. rewrite fold_left_app. cbn [fold_left] in *.
  assert (A : forall p, log_callback hash p msg = (id, name)).
  { intros p. unfold log_callback in *. destruct (find_at (lit "automatic index on") msg); [congruence|]. destruct (prefixb (lit "cannot commit") msg).
    - destruct (find_at (lit "conflict at page ") msg); [exact E|congruence].
    - destruct (_ || _); [exact E|congruence]. }
  rewrite A. induction F as [|m l O F IH]; [reflexivity|]. cbn [fold_left].
  assert (Q : log_callback hash (id, name) m = (id, name)); [|rewrite Q; exact IH].
  unfold log_callback. destruct (find_at (lit "automatic index on") m) eqn:Z; [reflexivity|]. destruct O as [O|O].
  - exfalso. destruct O as (a & b & ->). pose proof (find_at_spec (lit "automatic index on") (a ++ lit "automatic index on" ++ b)) as X. rewrite Z in X. exact (X a b eq_refl).
  - assert (P : forall p, (forall a, m <> p ++ a) -> prefixb p m = false).
    { intros p X. destruct (prefixb p m) eqn:Y; [|reflexivity]. apply prefixb_spec in Y as [t ->]. destruct (X t eq_refl). }
    rewrite !P; [reflexivity|intros a; apply O|intros a; apply O|intros a; apply O].
Qed.
Print Assumptions C75_among.
Example C75_among_met : let m := page_message 5 (lit "read/write page") true (lit "t") (lit "content=00)") in
  commit_place (fun _ => 0%Z) [lit "cannot commit - busy"; m; lit "automatic index on t(x)"; lit "database is locked"] = (5%Z, lit "t").
Proof. apply (C75_among (fun _ => 0%Z) [lit "cannot commit - busy"]); [discriminate|vm_compute; reflexivity|]. apply Forall_cons; [left; exists [], (lit " t(x)"); reflexivity|].
  apply Forall_cons; [right; intros a; repeat split; discriminate|apply Forall_nil]. Qed.

(** The lock of the next try is that of the place of the last conflict that counts: not on a journal, not one the plugin does not want; no lock if
    locks are switched off or there was none. *)
Theorem C75_lock : forall hash plugin tries id name,
  (forall a, name <> lit "journal" ++ a) -> plugin name = true ->
  forall msgs later, commit_place hash msgs = (id, name) ->
  Forall (fun m => let l := snd (commit_place hash m) in (exists a, l = lit "journal" ++ a) \/ plugin l = false) later ->
  lock_after hash true plugin (tries ++ msgs :: later) = id.
Proof.
  intros hash plugin tries id name J P msgs later E F. unfold lock_after. rewrite fold_left_app. cbn [fold_left].
  assert (A : forall previous, next_lock true plugin previous (commit_place hash msgs) = id).
  { intros previous. rewrite E. unfold next_lock. cbn [fst snd]. rewrite P. destruct (prefixb (lit "journal") name) eqn:X; [|reflexivity].
    apply prefixb_spec in X as [t X]. destruct (J t X). }
  rewrite A. clear A E J P. induction F as [|m later N F IH]; [reflexivity|]. cbn [fold_left]. cbn zeta in N.
  assert (B : next_lock true plugin id (commit_place hash m) = id).
  { unfold next_lock. destruct N as [[a ->] | ->]; [rewrite prefixb_app; reflexivity|rewrite Bool.andb_false_r; reflexivity]. }
  rewrite B. exact IH.
Qed.
Print Assumptions C75_lock.
Theorem C75_off : forall hash plugin tries, lock_after hash false plugin tries = 0%Z.
Proof. intros hash plugin tries. unfold lock_after. induction tries as [|m tries IH]; [reflexivity|exact IH]. Qed.
Print Assumptions C75_off.

(** Two commands that conflicted on the same page, or on the same row, wait for the same lock. *)
Theorem C75_same : forall hash plugin tries tries' page how how' table table' name content content',
  (Z.of_N page < 2 ^ 63)%Z -> word name -> ~ In ";"%char name -> (forall a, name <> lit "journal" ++ a) -> plugin name = true ->
  ~ In " "%char content -> ~ In " "%char content' ->
  let m := page_message page how table name content in let m' := page_message page how' table' name content' in
  ~ In LF m -> ~ noise m -> ~ In LF m' -> ~ noise m' ->
  lock_after hash true plugin (tries ++ [[m]]) = Z.of_N page /\ lock_after hash true plugin (tries' ++ [[m']]) = Z.of_N page.
Proof.
  intros hash plugin tries tries' page how how' table table' name content content' L W SC J P C1 C2 m m' N1 N2 N3 N4.
  split; apply (C75_lock hash plugin _ _ name J P); try apply Forall_nil.
  - apply C75_page; assumption.
  - apply C75_page; assumption.
Qed.
Print Assumptions C75_same.

(** The samples of SQLite.cpp *)
Example C75_page_met :
  let name := lit "reports" in let content := lit "content=0D00000009007100...)" in
  let msg := page_message 1854553 (lit "read/write page") true name content in
  word name /\ ~ In ";"%char name /\ ~ In " "%char content /\ ~ In LF msg /\ ~ noise msg /\ commit_place (fun _ => 7%Z) [msg] = (1854553%Z, name).
Proof.
  cbn zeta.
  assert (W : word (lit "reports")).
  { split; [discriminate|]. intros c I J. apply space_in in J. cbn in I. repeat (destruct I as [<-|I]; [discriminate|]). contradiction. }
  assert (S1 : ~ In ";"%char (lit "reports")) by (cbn; intros I; repeat (destruct I as [I|I]; [discriminate|]); contradiction).
  assert (S2 : ~ In " "%char (lit "content=0D00000009007100...)")) by (cbn; intros I; repeat (destruct I as [I|I]; [discriminate|]); contradiction).
  assert (S3 : ~ In LF (page_message 1854553 (lit "read/write page") true (lit "reports") (lit "content=0D00000009007100...)"))).
  { intros I. assert (E : existsb (Ascii.eqb LF) (page_message 1854553 (lit "read/write page") true (lit "reports") (lit "content=0D00000009007100...)")) = true).
    { apply existsb_exists. exists LF. split; [exact I|apply Ascii.eqb_refl]. }
    vm_compute in E. discriminate. }
  assert (S4 : ~ noise (page_message 1854553 (lit "read/write page") true (lit "reports") (lit "content=0D00000009007100...)"))).
  { intros [a [b E]]. pose proof (find_at_spec (lit "automatic index on") (page_message 1854553 (lit "read/write page") true (lit "reports") (lit "content=0D00000009007100...)"))) as Q.
    assert (F : find_at (lit "automatic index on") (page_message 1854553 (lit "read/write page") true (lit "reports") (lit "content=0D00000009007100...)")) = None) by (vm_compute; reflexivity).
    rewrite F in Q. exact (Q a b E). }
  repeat split; try assumption; try apply W.
Qed.
Example C75_row_met : forall hash,
  commit_place hash [lit "write/write conflict on index nameValuePairs.nameValuePairsAccountIDName (root=30440763), key=(20539758,lastIP), conflicting=(116607308) (mytid=116607309)"]
  = (hash (lit "nameValuePairs.nameValuePairsAccountIDName(20539758,lastIP),"), lit "nameValuePairs.nameValuePairsAccountIDName").
Proof. intros hash. vm_compute. reflexivity. Qed.

(** Keys with blanks in them are cut at the first: different rows get the same lock. *)
Theorem C75_blank_key_refuted : exists a b, a <> b /\ forall hash,
  let m k := row_message (lit "write/write") true (lit "t") (lit "1") k (lit "(2)") (lit "3)") in commit_place hash [m a] = commit_place hash [m b].
Proof. exists (lit "(x y),"), (lit "(x z),"). split; [discriminate|]. intros hash. vm_compute. reflexivity. Qed.
Print Assumptions C75_blank_key_refuted.

(** A table of the application whose name begins with journal is taken for one of the journals: conflicts on it never lead to a lock. *)
Theorem C75_journal_refuted : forall hash plugin, let m := page_message 5 (lit "read/write page") true (lit "journalEntries") (lit "content=00)") in
  commit_place hash [m] = (5%Z, lit "journalEntries") /\ lock_after hash true plugin [[m]; [m]; [m]] = 0%Z.
Proof. intros hash plugin. split; vm_compute; reflexivity. Qed.
Print Assumptions C75_journal_refuted.

(** If the log does not say what the page is part of, the whole message is taken for the name of the table. *)
Theorem C75_unknown_refuted : forall hash, let m := lit "cannot commit CONCURRENT transaction - conflict at page 9" in commit_place hash [m] = (9%Z, m).
Proof. intros hash. vm_compute. reflexivity. Qed.
Print Assumptions C75_unknown_refuted.
