(** C63: a check of the schema changes nothing that is there already, makes what is missing, and says what it finds. *)
From Verif Require Import Base Text_Spec Text_Model Text_Proofs Mysql_Model Schema_Spec Schema_Model.

(** ** Texts *)
Lemma collapse_nul w s : nul_free s -> nul_free (collapse w s).
Proof.
  revert w. induction s as [|c s IH]; intros w H; [exact H|]. assert (H' : nul_free s) by (intros N; apply H; right; exact N).
  assert (C : c <> NUL) by (intros ->; apply H; left; reflexivity). cbn [collapse]. destruct (is_space c).
  - destruct w; [apply IH; exact H'|]. intros [E|E]; [discriminate|]. apply (IH true H' E).
  - intros [E|E]; [exact (C E)|]. apply (IH false H' E).
Qed.
Lemma collapse_app w a b : exists w', collapse w (a ++ b) = collapse w a ++ collapse w' b /\ (forall c a', a = a' ++ [c] -> w' = is_space c) /\ (a = [] -> w' = w).
Proof.
  revert w. induction a as [|x a IH]; intros w.
  - exists w. split; [reflexivity|]. split; [|reflexivity]. intros c a' E. destruct a'; discriminate.
  - cbn [app collapse]. destruct (IH (is_space x)) as (w' & E & L & N).
    assert (X : forall c a', x :: a = a' ++ [c] -> w' = is_space c).
    { intros c a' Y. destruct a' as [|y a']; [injection Y as -> ->; apply N; reflexivity|]. injection Y as -> ->. eapply L. reflexivity. }
    exists w'. split; [|split; [exact X|intros Y; discriminate]].
    destruct (is_space x); [destruct w|]; rewrite E; reflexivity.
Qed.
Lemma collapse_solid w s : forallb (fun c => negb (is_space c)) s = true -> collapse w s = s.
Proof.
  revert w. induction s as [|c s IH]; intros w H; [reflexivity|]. cbn [forallb] in H. apply andb_prop in H as [A B].
  cbn [collapse]. destruct (is_space c); [discriminate|]. rewrite IH by exact B. reflexivity.
Qed.
Lemma strip_collapse w s : filter (fun c => Bool.eqb (in_set c (lit " ")) false) (collapse w s) = without_white s.
Proof.
  revert w. induction s as [|c s IH]; intros w; [reflexivity|]. cbn [collapse without_white filter]. unfold white at 1. destruct (is_space c) eqn:E; cbn [negb].
  - destruct w; cbn [filter]; apply IH.
  - cbn [filter]. assert (I : in_set c (lit " ") = false).
    { cbn. rewrite orb_false_r. destruct (Ascii.eqb_spec c " "); [subst; discriminate|reflexivity]. }
    rewrite I. cbn. f_equal. apply IH.
Qed.
Lemma strip_text s : nul_free s -> SStrip (SCollapse s) (lit " ") false = without_white s.
Proof.
  intros H. unfold SStrip, SCollapse. rewrite (cstr_nul_free s H), (cstr_nul_free _ (collapse_nul false s H)). apply strip_collapse.
Qed.
Lemma white_collapse w s : without_white (collapse w s) = without_white s.
Proof.
  revert w. induction s as [|c s IH]; intros w; [reflexivity|]. cbn [collapse without_white filter]. unfold white at 2. destruct (is_space c) eqn:E; cbn [negb].
  - destruct w; [apply IH|]. cbn [filter]. change (negb (white " ")) with false. cbv iota. apply IH.
  - cbn [filter]. unfold white at 1. rewrite E. cbn [negb]. f_equal. apply IH.
Qed.
Lemma replace_blanks f s : List.length s <= f -> replace f s (lit " ") [] = without_blanks s.
Proof.
  revert s. induction f as [|f IH]; intros [|c s] H; cbn [List.length] in H; try reflexivity; [lia|].
  cbn [replace lit list_ascii_of_string prefixb List.length skipn app without_blanks filter]. rewrite andb_true_r. unfold blank at 1.
  change ([" "%char]) with (lit " "). rewrite (Ascii.eqb_sym " " c). destruct (Ascii.eqb c " "); cbn [negb]; [apply IH; lia|]. f_equal. apply IH. lia.
Qed.
Lemma replace_text s : SReplace s (lit " ") [] = without_blanks s.
Proof. unfold SReplace. change (lit " ") with [" "%char] at 1. cbv iota. apply replace_blanks. lia. Qed.
Lemma blanks_nul s : nul_free s -> nul_free (without_blanks s).
Proof. intros H N. apply filter_In in N as [N _]. exact (H N). Qed.
Lemma ieq_same a b : ieqb a b = true <-> same_letters a b.
Proof. unfold ieqb, same_letters. apply bytes_eqb_eq. Qed.
Lemma nul_app a b : nul_free (a ++ b) <-> nul_free a /\ nul_free b.
Proof. unfold nul_free. rewrite in_app_iff. tauto. Qed.

(** ** Words *)
Definition ends_name (s : bytes) : Prop := match s with [] => True | c :: _ => name_char c = false end.
Lemma name_solid : forall c, (implb (name_char c) (negb (is_space c)))  = true.
Proof. apply (forall_ascii (fun c => implb (name_char c) (negb (is_space c)))). vm_compute. reflexivity. Qed.
Lemma name_not_space c : name_char c = true -> is_space c = false.
Proof. intros H. pose proof (name_solid c) as A. rewrite H in A. cbn [implb] in A. destruct (is_space c); [discriminate|reflexivity]. Qed.
Lemma names_solid n : forallb name_char n = true -> forallb (fun c => negb (is_space c)) n = true.
Proof. rewrite !forallb_forall. intros H c I. rewrite (name_not_space c (H c I)). reflexivity. Qed.
Lemma take_name_app n s : forallb name_char n = true -> ends_name s -> take_name (n ++ s) = (n, s).
Proof.
  intros H E. induction n as [|c n IH]; cbn [app].
  - destruct s as [|c s]; [reflexivity|]. cbn [take_name]. cbn in E. rewrite E. reflexivity.
  - cbn [forallb] in H. apply andb_prop in H as [A B]. cbn [take_name]. rewrite A, (IH B). reflexivity.
Qed.
Lemma skip_name n s : is_name n -> skip_space (n ++ s) = n ++ s.
Proof.
  intros [N H]. destruct n as [|c n]; [congruence|]. cbn [app skip_space]. cbn [forallb] in H. apply andb_prop in H as [A _].
  rewrite (name_not_space c A). reflexivity.
Qed.
Lemma word_name n s : is_name n -> ends_name s -> word (n ++ s) = (n, s).
Proof. intros N E. unfold word. rewrite (skip_name n s N). apply take_name_app; [exact (proj2 N)|exact E]. Qed.
Lemma word_blank s : word (" "%char :: s) = word s.
Proof. reflexivity. Qed.
Lemma statement_semi t : statement (t ++ lit ";") = t.
Proof. unfold statement. change (lit ";") with [";"%char]. rewrite last_last. cbn. apply removelast_last. Qed.
Lemma ends_collapse w s : ends_name s -> ends_name (collapse w s) \/ w = true.
Proof.
  destruct w; [right; reflexivity|]. intros H. left. destruct s as [|c s]; [exact I|]. cbn [collapse]. cbn in H.
  destruct (is_space c); [reflexivity|exact H].
Qed.

Section Proofs.
  Variable accepts : bytes -> bool.
  Variable columns : bytes -> list bytes.
  Variable add_at : bytes -> nat.
  Notation write := (write accepts columns add_at).
  Notation verifyTable := (verifyTable accepts columns add_at).
  Notation verifyIndex := (verifyIndex accepts columns add_at).
  Notation addColumn := (addColumn accepts columns add_at).
  Notation perform := (perform accepts columns add_at).
  Notation upgradeDatabase := (upgradeDatabase accepts columns add_at).

  Lemma not_if n s : is_name n -> ~ same_letters n (lit "IF") -> ends_name s -> if_not_exists (n ++ s) = (false, n ++ s).
  Proof.
    intros N I E. unfold if_not_exists. rewrite (word_name n s N E). destruct (word s) as [b r']. destruct (word r') as [c r''].
    unfold keyword at 1. destruct (ieqb n (lit "IF")) eqn:K; [apply ieq_same in K; contradiction|]. reflexivity.
  Qed.
  Lemma name_nil n : is_name n -> bytes_eqb n [] = false.
  Proof. intros [N _]. apply bytes_eqb_neq. exact N. Qed.
  Lemma skip_skip c s : is_space c = false -> skip_space (c :: s) = c :: s.
  Proof. intros H. cbn. rewrite H. reflexivity. Qed.

  Lemma write_table d n body : is_name n -> ~ same_letters n (lit "IF") -> ends_name body ->
    write d ((lit "CREATE TABLE " ++ n ++ body) ++ lit ";") =
    if named n d then None else if accepts (n ++ body) then Some (d ++ [Object Table n n (lit "CREATE TABLE " ++ n ++ body)]) else None.
  Proof.
    intros N I E. unfold Schema_Model.write, exec. rewrite statement_semi.
    change (lit "CREATE TABLE " ++ n ++ body) with (lit "CREATE" ++ " "%char :: lit "TABLE" ++ " "%char :: n ++ body) at 1.
    rewrite (word_name (lit "CREATE")) by (try split; easy). rewrite word_blank.
    rewrite (word_name (lit "TABLE")) by (try split; easy).
    change (keyword (lit "CREATE") "CREATE") with true. change (keyword (lit "TABLE") "TABLE") with true. cbv iota.
    unfold create_table. assert (Q : if_not_exists (" "%char :: n ++ body) = (false, " "%char :: n ++ body)).
    { pose proof (not_if n body N I E) as H. unfold if_not_exists in *. rewrite word_blank. destruct (word (n ++ body)) as [a r]. destruct (word r) as [b r']. destruct (word r') as [c r''].
      destruct (keyword a "IF" && keyword b "NOT" && keyword c "EXISTS"); [discriminate|reflexivity]. }
    rewrite Q. change (skip_space (" "%char :: n ++ body)) with (skip_space (n ++ body)). rewrite (skip_name n body N).
    rewrite (word_name n body N E). cbn [fst]. rewrite (name_nil n N). reflexivity.
  Qed.

  Lemma write_index d n t def u : is_name n -> is_name t ->
    write d (createSQL n t def u ++ lit ";") =
    match table_named t d with
    | None => None
    | Some o => if named n d then None
                else if accepts (n ++ lit " ON " ++ t ++ lit " " ++ def) then Some (d ++ [Object Index n (o_name o) (createSQL n t def u)]) else None
    end.
  Proof.
    intros N T. unfold Schema_Model.write, exec. rewrite statement_semi.
    assert (G : forall words, create_index accepts words d (" "%char :: n ++ lit " ON " ++ t ++ lit " " ++ def) =
        match table_named t d with
        | None => None
        | Some o => if named n d then None else if accepts (n ++ lit " ON " ++ t ++ lit " " ++ def) then Some (d ++ [Object Index n (o_name o) (words ++ n ++ lit " ON " ++ t ++ lit " " ++ def)]) else None
        end).
    { intros words. unfold create_index.
      assert (Q : if_not_exists (" "%char :: n ++ lit " ON " ++ t ++ lit " " ++ def) = (false, " "%char :: n ++ lit " ON " ++ t ++ lit " " ++ def)).
      { unfold if_not_exists. rewrite word_blank, (word_name n) by (try exact N; reflexivity).
        change (lit " ON " ++ t ++ lit " " ++ def) with (" "%char :: lit "ON" ++ " "%char :: t ++ lit " " ++ def). rewrite word_blank, (word_name (lit "ON")) by (try split; easy).
        destruct (word (" "%char :: t ++ lit " " ++ def)) as [c r]. change (keyword (lit "ON") "NOT") with false. rewrite andb_false_r. reflexivity. }
      rewrite Q. change (skip_space (" "%char :: n ++ lit " ON " ++ t ++ lit " " ++ def)) with (skip_space (n ++ lit " ON " ++ t ++ lit " " ++ def)).
      rewrite (skip_name n _ N). rewrite (word_name n) by (try exact N; reflexivity).
      change (word (lit " ON " ++ t ++ lit " " ++ def)) with (word (lit "ON" ++ " "%char :: t ++ lit " " ++ def)). rewrite (word_name (lit "ON")) by (try split; easy).
      rewrite word_blank, (word_name t) by (try exact T; reflexivity). cbn [fst]. rewrite (name_nil n N). change (keyword (lit "ON") "ON") with true. cbn [orb negb].
      reflexivity. }
    unfold createSQL. destruct u.
    - change (lit "CREATE" ++ lit " UNIQUE " ++ lit "INDEX " ++ n ++ lit " ON " ++ t ++ lit " " ++ def)
        with (lit "CREATE" ++ " "%char :: lit "UNIQUE" ++ " "%char :: lit "INDEX" ++ " "%char :: n ++ lit " ON " ++ t ++ lit " " ++ def) at 1.
      rewrite (word_name (lit "CREATE")) by (try split; easy). rewrite word_blank, (word_name (lit "UNIQUE")) by (try split; easy).
      rewrite word_blank, (word_name (lit "INDEX")) by (try split; easy).
      change (keyword (lit "CREATE") "CREATE") with true. change (keyword (lit "UNIQUE") "TABLE") with false. change (keyword (lit "UNIQUE") "VIEW") with false.
      change (keyword (lit "UNIQUE") "INDEX") with false. change (keyword (lit "UNIQUE") "UNIQUE") with true. change (keyword (lit "INDEX") "INDEX") with true. cbv iota.
      rewrite G. reflexivity.
    - change (lit "CREATE" ++ lit " " ++ lit "INDEX " ++ n ++ lit " ON " ++ t ++ lit " " ++ def)
        with (lit "CREATE" ++ " "%char :: lit "INDEX" ++ " "%char :: n ++ lit " ON " ++ t ++ lit " " ++ def) at 1.
      rewrite (word_name (lit "CREATE")) by (try split; easy). rewrite word_blank, (word_name (lit "INDEX")) by (try split; easy).
      change (keyword (lit "CREATE") "CREATE") with true. change (keyword (lit "INDEX") "TABLE") with false. change (keyword (lit "INDEX") "VIEW") with false.
      change (keyword (lit "INDEX") "INDEX") with true. cbv iota. rewrite G. reflexivity.
  Qed.

  Lemma name_nul n : is_name n -> nul_free n.
  Proof. intros [_ H] I. rewrite forallb_forall in H. specialize (H _ I). discriminate. Qed.
  Lemma collapse_create n body : is_name n -> nul_free body -> SCollapse (lit "CREATE TABLE " ++ n ++ body) = lit "CREATE TABLE " ++ n ++ collapse false body.
  Proof.
    intros N B. unfold SCollapse. rewrite cstr_nul_free.
    2: { apply nul_app. split; [intros I; cbn in I; intuition discriminate|]. apply nul_app. split; [apply name_nul; exact N|exact B]. }
    change (lit "CREATE TABLE " ++ n ++ body) with (lit "CREATE" ++ " "%char :: lit "TABLE" ++ " "%char :: n ++ body). cbn [lit list_ascii_of_string app collapse].
    destruct (collapse_app true n body) as (w & E & L & _).
    assert (W : w = false).
    { destruct N as [N H]. destruct (exists_last N) as (n' & c & ->). rewrite (L c n' eq_refl). rewrite forallb_app in H. apply andb_prop in H as [_ H]. cbn in H.
      rewrite andb_true_r in H. apply name_not_space. exact H. }
    subst w. rewrite (collapse_solid true n) in E by (apply names_solid; exact (proj2 N)).
    change (is_space "C") with false. change (is_space "R") with false. change (is_space "E") with false. change (is_space "A") with false. change (is_space "T") with false.
    change (is_space "B") with false. change (is_space "L") with false. change (is_space " ") with true. cbv iota. rewrite E. reflexivity.
  Qed.

  (** ** What is found *)
  Definition first_with (k : kind) (t : bytes) (d : catalogue) : option object := List.find (fun o => same_kind (o_kind o) k && bytes_eqb (o_table o) t) d.
  Lemma rows_find {A B} (f : A -> bool) (g : A -> B) (l : list A) :
    match map g (filter f l) with [] => List.find f l = None | y :: _ => exists x, List.find f l = Some x /\ y = g x end.
  Proof. induction l as [|x l IH]; [reflexivity|]. cbn [filter List.find]. destruct (f x); [exists x; split; reflexivity|exact IH]. Qed.
  Lemma rows_app {A B} (f : A -> bool) (g : A -> B) (l e : list A) y r : map g (filter f l) = y :: r -> exists r', map g (filter f (l ++ e)) = y :: r'.
  Proof. intros H. rewrite filter_app, map_app, H. eexists. reflexivity. Qed.
  Lemma ends_semi s : SEndsWith s (lit ";") = Ascii.eqb (last s " "%char) ";".
  Proof.
    unfold SEndsWith. destruct s as [|c s] using rev_ind; [reflexivity|]. clear IHs. rewrite last_last, app_length. change (List.length (lit ";")) with 1. cbn [List.length].
    replace (Nat.ltb (List.length s + 1) 1) with false by (symmetry; apply Nat.ltb_ge; lia). replace (List.length s + 1 - 1) with (List.length s) by lia.
    rewrite skipn_app, skipn_all, Nat.sub_diag. cbn. apply andb_true_r.
  Qed.

  Lemma verify_found d n sql k row r : nul_free sql -> nul_free row -> last sql " "%char <> ";"%char -> rows_of_table k n d = row :: r ->
    verifyTable d n sql k = Some (d, false, bytes_eqb (without_white row) (without_white sql)).
  Proof.
    intros N R L H. unfold Schema_Model.verifyTable. rewrite ends_semi. destruct (Ascii.eqb_spec (last sql " "%char) ";"); [contradiction|]. rewrite H.
    rewrite (strip_text row R), (strip_text sql N). reflexivity.
  Qed.

  (** ** A list of checks *)
  Definition well_formed (c : check) : Prop :=
    match c with
    | Check_table n sql => is_name n /\ ~ same_letters n (lit "IF") /\ exists body, nul_free body /\ ends_name body /\ sql = lit "CREATE TABLE " ++ n ++ body
    | Check_index n t def _ _ => is_name n /\ is_name t /\ nul_free def
    end.
  Definition names_in (d : catalogue) (l : list check) : list bytes :=
    map o_name (filter is_table d) ++ map (fun c => match c with Check_table n _ => n | Check_index _ t _ _ _ => t end) l.
  Definition one_spelling (names : list bytes) : Prop := forall a b, In a names -> In b names -> same_letters a b -> a = b.

  Lemma table_step d n sql : well_formed (Check_table n sql) -> forall d' r, perform d (Check_table n sql) = Some (d', r) ->
    exists x, d' = d ++ x /\ (forall a, In a (map o_name (filter is_table d')) -> In a (map o_name (filter is_table d)) \/ a = n) /\
      forall e, perform (d' ++ e) (Check_table n sql) = Some (d' ++ e, r).
  Proof.
    intros (N & I & body & B & E & ->) d' r H. cbn [Schema_Model.perform] in *. unfold Schema_Model.verifyTable in *. rewrite ends_semi in *.
    destruct (Ascii.eqb (last (lit "CREATE TABLE " ++ n ++ body) " "%char) ";") eqn:L; [discriminate|].
    destruct (rows_of_table Table n d) as [|row rest] eqn:R.
    - rewrite (collapse_create n body N B) in *. destruct (ends_collapse false body E) as [E'|F]; [|discriminate]. rewrite (write_table d n _ N I E') in H.
      destruct (named n d); [discriminate|]. destruct (accepts (n ++ collapse false body)); [|discriminate].
      remember (lit "CREATE TABLE " ++ n ++ collapse false body) as text eqn:TX. injection H as <- <-.
      eexists. split; [reflexivity|]. split.
      + intros a A. rewrite filter_app, map_app in A. apply in_app_or in A as [A|A]; [left; exact A|]. right. destruct A as [A|[]]. symmetry. exact A.
      + intros e. assert (Q : exists q, rows_of_table Table n ((d ++ [Object Table n n text]) ++ e) = text :: q).
        { unfold rows_of_table in *. rewrite <- app_assoc, filter_app, map_app, R. cbn [app filter o_kind o_table same_kind]. rewrite bytes_eqb_refl. cbn [andb map]. eexists. reflexivity. }
        destruct Q as [q Q]. rewrite Q. f_equal. f_equal. subst text.
        assert (X : nul_free (lit "CREATE TABLE " ++ n ++ collapse false body)).
        { apply nul_app. split; [intros J; cbn in J; intuition discriminate|]. apply nul_app. split; [apply name_nul; exact N|apply collapse_nul; exact B]. }
        assert (Y : nul_free (lit "CREATE TABLE " ++ n ++ body)).
        { apply nul_app. split; [intros J; cbn in J; intuition discriminate|]. apply nul_app. split; [apply name_nul; exact N|exact B]. }
        rewrite (strip_text _ X). rewrite <- (collapse_create n body N B) at 1. rewrite <- (collapse_create n body N B). rewrite (strip_text _ Y). apply bytes_eqb_eq.
        unfold SCollapse. rewrite (cstr_nul_free _ Y). apply white_collapse.
    - injection H as <- <-. exists []. split; [symmetry; apply app_nil_r|]. split; [intros a A; left; exact A|]. intros e.
      unfold rows_of_table in *. destruct (rows_app _ o_text d e row rest R) as [q Q]. rewrite Q. reflexivity.
  Qed.

  Lemma index_step d n t def u k : well_formed (Check_index n t def u k) -> one_spelling (names_in d [Check_index n t def u k]) ->
    forall d' r, perform d (Check_index n t def u k) = Some (d', r) ->
    exists x, d' = d ++ x /\ map o_name (filter is_table d') = map o_name (filter is_table d) /\
      forall e, exists r', perform (d' ++ e) (Check_index n t def u k) = Some (d' ++ e, r') /\ (r = true -> r' = true).
  Proof.
    intros (N & T & D) S d' r H. cbn [Schema_Model.perform] in *. unfold Schema_Model.verifyIndex in *.
    destruct (rows_of_index t n d) as [|row rest] eqn:R.
    - destruct k; cbn [negb] in *.
      + rewrite (write_index d n t def u N T) in H. destruct (table_named t d) as [o|] eqn:O; [|discriminate]. destruct (named n d); [discriminate|].
        destruct (accepts (n ++ lit " ON " ++ t ++ lit " " ++ def)); [|discriminate]. injection H as <- <-.
        assert (ON : o_name o = t).
        { unfold table_named in O. apply find_some in O as [O1 O2]. apply andb_prop in O2 as [O2 O3]. apply ieq_same in O3. symmetry. apply S; [..|exact O3].
          - apply in_or_app. right. left. reflexivity.
          - apply in_or_app. left. apply in_map. apply filter_In. split; assumption. }
        eexists. split; [reflexivity|]. split; [rewrite filter_app, map_app; apply app_nil_r|]. intros e. exists true. split; [|reflexivity].
        assert (Q : exists q, rows_of_index t n ((d ++ [Object Index n (o_name o) (createSQL n t def u)]) ++ e) = createSQL n t def u :: q).
        { unfold rows_of_index in *. rewrite <- app_assoc, filter_app, map_app, R. cbn [app filter o_kind o_table o_name same_kind]. rewrite ON, !bytes_eqb_refl. cbn [andb map]. eexists. reflexivity. }
        destruct Q as [q Q]. rewrite Q. f_equal. f_equal. unfold SIEquals, ieqb. apply bytes_eqb_refl.
      + injection H as <- <-. exists []. split; [symmetry; apply app_nil_r|]. split; [reflexivity|]. intros e. destruct (rows_of_index t n (d ++ e)) as [|row rest].
        * exists false. split; [reflexivity|intros; discriminate].
        * eexists. split; [reflexivity|intros; discriminate].
    - injection H as <- <-. exists []. split; [symmetry; apply app_nil_r|]. split; [reflexivity|]. intros e.
      unfold rows_of_index in *. destruct (rows_app _ o_text d e row rest R) as [q Q]. rewrite Q. eexists. split; [reflexivity|]. intros X. exact X.
  Qed.

  Lemma again l : forall d d1 rs, Forall well_formed l -> one_spelling (names_in d l) -> upgradeDatabase d l = Some (d1, rs) ->
    exists x, d1 = d ++ x /\ forall e, exists rs', upgradeDatabase (d1 ++ e) l = Some (d1 ++ e, rs') /\ Forall2 (fun r r' => r = true -> r' = true) rs rs'.
  Proof.
    induction l as [|c l IH]; intros d d1 rs W S H.
    - injection H as <- <-. exists []. split; [symmetry; apply app_nil_r|]. intros e. exists []. split; [reflexivity|constructor].
    - cbn [Schema_Model.upgradeDatabase] in *. inversion W as [|? ? W1 W2]; subst. destruct (perform d c) as [[d' r]|] eqn:P; [|discriminate].
      destruct (upgradeDatabase d' l) as [[d'' rs0]|] eqn:U; [|discriminate]. injection H as <- <-.
      assert (G : exists x, d' = d ++ x /\ (forall a, In a (names_in d' l) -> In a (names_in d (c :: l))) /\
                  forall e, exists r', perform (d' ++ e) c = Some (d' ++ e, r') /\ (r = true -> r' = true)).
      { destruct c as [n sql|n t def u k].
        - destruct (table_step d n sql W1 d' r P) as (x & E & A & F). exists x. split; [exact E|]. split.
          + intros a J. apply in_app_or in J as [J|J]; [destruct (A a J) as [K| ->]; apply in_or_app; [left; exact K|right; left; reflexivity]|apply in_or_app; right; right; exact J].
          + intros e. exists r. split; [apply F|auto].
        - assert (S1 : one_spelling (names_in d [Check_index n t def u k])).
          { intros a b J K. apply S; [apply in_app_or in J as [J|[J|[]]]|apply in_app_or in K as [J'|[J'|[]]]];
              (apply in_or_app; first [left; assumption | right; left; assumption]). }
          destruct (index_step d n t def u k W1 S1 d' r P) as (x & E & A & F). exists x. split; [exact E|]. split; [|exact F].
          intros a J. unfold names_in in *. rewrite A in J. apply in_app_or in J as [J|J]; apply in_or_app; [left; exact J|right; right; exact J]. }
      destruct G as (x & E & A & F). destruct (IH d' d'' rs0 W2) as (y & E' & F'); [|exact U|].
      + intros a b J K. apply S; apply A; assumption.
      + exists (x ++ y). split; [rewrite E', E, app_assoc; reflexivity|]. intros e.
        destruct (F (y ++ e)) as (r' & P' & R'). destruct (F' e) as (rs' & U' & R''). exists (r' :: rs').
        rewrite app_assoc in P'. rewrite <- E' in P'. rewrite P', U'. split; [reflexivity|constructor; assumption].
  Qed.

  (** ** Columns *)
  Lemma trim_solid s c : is_space c = false -> trim_end (s ++ [c]) = s ++ [c].
  Proof. intros H. unfold trim_end. rewrite rev_app_distr. cbn [rev app skip_space]. rewrite H. cbn [rev]. rewrite rev_involutive. reflexivity. Qed.
  Lemma write_column d t c ty z : is_name t -> is_name c -> is_space z = false ->
    write d (lit "ALTER TABLE " ++ t ++ lit " ADD COLUMN " ++ c ++ lit " " ++ (ty ++ [z]) ++ lit ";") =
    match table_named t d with
    | None => None
    | Some o =>
        if existsb (ieqb c) (columns (o_text o)) || negb (accepts (c ++ lit " " ++ ty ++ [z])) then None
        else Some (map (fun x => if is_table x && ieqb t (o_name x)
                                 then Object (o_kind x) (o_name x) (o_table x)
                                        (firstn (add_at (o_text o)) (o_text o) ++ lit ", " ++ (c ++ lit " " ++ ty ++ [z]) ++ skipn (add_at (o_text o)) (o_text o)) else x) d)
    end.
  Proof.
    intros T C Z. unfold Schema_Model.write, exec.
    replace (lit "ALTER TABLE " ++ t ++ lit " ADD COLUMN " ++ c ++ lit " " ++ (ty ++ [z]) ++ lit ";")
      with ((lit "ALTER" ++ " "%char :: lit "TABLE" ++ " "%char :: t ++ " "%char :: lit "ADD" ++ " "%char :: lit "COLUMN" ++ " "%char :: c ++ lit " " ++ ty ++ [z]) ++ lit ";")
      by (cbn [lit list_ascii_of_string app]; repeat (rewrite <- !app_assoc; cbn [app]); reflexivity).
    rewrite statement_semi.
    rewrite (word_name (lit "ALTER")) by (try split; easy). rewrite word_blank, (word_name (lit "TABLE")) by (try split; easy).
    change (keyword (lit "ALTER") "CREATE") with false. change (keyword (lit "ALTER") "ALTER") with true. change (keyword (lit "TABLE") "TABLE") with true. cbn [andb].
    unfold add_column. rewrite word_blank, (word_name t) by (try exact T; reflexivity).
    rewrite word_blank, (word_name (lit "ADD")) by (try split; easy). rewrite word_blank, (word_name (lit "COLUMN")) by (try split; easy).
    change (keyword (lit "ADD") "ADD") with true. change (keyword (lit "COLUMN") "COLUMN") with true. cbn [andb].
    change (skip_space (" "%char :: c ++ lit " " ++ ty ++ [z])) with (skip_space (c ++ lit " " ++ ty ++ [z])). rewrite (skip_name c _ C).
    assert (D : trim_end (c ++ lit " " ++ ty ++ [z]) = c ++ lit " " ++ ty ++ [z]).
    { replace (c ++ lit " " ++ ty ++ [z]) with ((c ++ lit " " ++ ty) ++ [z]) by (rewrite <- !app_assoc; reflexivity). apply trim_solid. exact Z. }
    rewrite D. rewrite (word_name c) by (try exact C; reflexivity). cbn [fst]. rewrite (name_nil c C). reflexivity.
  Qed.
  Lemma prefix_self p s : prefixb p (p ++ s) = true.
  Proof. induction p as [|a p IH]; [reflexivity|]. cbn [app prefixb]. rewrite Ascii.eqb_refl. exact IH. Qed.
  Lemma contains_mid a p b : SContains (a ++ p ++ b) p = true.
  Proof.
    induction a as [|x a IH]; cbn [app].
    - destruct (p ++ b) eqn:E; cbn [SContains]; rewrite <- E, prefix_self; reflexivity.
    - cbn [SContains]. rewrite IH. apply orb_true_r.
  Qed.
  Lemma collapse_column a c b : nul_free a -> nul_free b -> is_name c -> SContains (SCollapse (a ++ lit ", " ++ c ++ lit " " ++ b)) (lit " " ++ c ++ lit " ") = true.
  Proof.
    intros A B C. unfold SCollapse. rewrite cstr_nul_free.
    2: { apply nul_app. split; [exact A|]. apply nul_app. split; [intros J; cbn in J; intuition discriminate|]. apply nul_app. split; [apply name_nul; exact C|].
         apply nul_app. split; [intros J; cbn in J; intuition discriminate|exact B]. }
    destruct (collapse_app false a (lit ", " ++ c ++ lit " " ++ b)) as (w & E & _). rewrite E.
    change (collapse w (lit ", " ++ c ++ lit " " ++ b)) with (","%char :: " "%char :: collapse true (c ++ lit " " ++ b)).
    destruct (collapse_app true c (lit " " ++ b)) as (w' & E' & L & _). rewrite E', (collapse_solid true c) by (apply names_solid; exact (proj2 C)).
    assert (W : w' = false).
    { destruct C as [N H]. destruct (exists_last N) as (n' & x & ->). rewrite (L x n' eq_refl). rewrite forallb_app in H. apply andb_prop in H as [_ H]. cbn in H.
      rewrite andb_true_r in H. apply name_not_space. exact H. }
    subst w'. change (collapse false (lit " " ++ b)) with (" "%char :: collapse true b).
    replace (collapse false a ++ ","%char :: " "%char :: c ++ " "%char :: collapse true b) with ((collapse false a ++ [","%char]) ++ (lit " " ++ c ++ lit " ") ++ collapse true b)
      by (cbn [lit list_ascii_of_string app]; repeat (rewrite <- !app_assoc; cbn [app]); reflexivity).
    apply contains_mid.
  Qed.

  (** ** The theorems *)

  (** The catalogue has exactly one table of that name, [o], and it is spelt that way. *)
  Definition only_table (d1 : catalogue) (o : object) (d2 : catalogue) (t : bytes) : Prop :=
    o_kind o = Table /\ o_name o = t /\ o_table o = t /\ Forall (fun x => o_kind x = Table -> ~ same_letters t (o_name x) /\ o_table x <> t) (d1 ++ d2).
  Lemma only_rows d1 o d2 t : only_table d1 o d2 t -> rows_of_table Table t (d1 ++ o :: d2) = [o_text o].
  Proof.
    intros (K & N & T & F). unfold rows_of_table. apply Forall_app in F as [F1 F2].
    assert (G : forall l, Forall (fun x => o_kind x = Table -> ~ same_letters t (o_name x) /\ o_table x <> t) l -> filter (fun o => same_kind (o_kind o) Table && bytes_eqb (o_table o) t) l = []).
    { induction 1 as [|x l H _ IH]; [reflexivity|]. cbn [filter]. destruct (o_kind x) eqn:Q; cbn [same_kind andb]; try exact IH.
      destruct (H eq_refl) as [_ E]. apply bytes_eqb_neq in E. rewrite E. exact IH. }
    rewrite filter_app. cbn [filter]. rewrite (G d1 F1), (G d2 F2), K, T, bytes_eqb_refl. reflexivity.
  Qed.
  Lemma only_named d1 o d2 t : only_table d1 o d2 t -> table_named t (d1 ++ o :: d2) = Some o.
  Proof.
    intros (K & N & T & F). apply Forall_app in F as [F1 _]. unfold table_named. induction F1 as [|x l H _ IH]; cbn [app List.find].
    - unfold is_table at 1. rewrite K, N. replace (ieqb t t) with true by (symmetry; apply ieq_same; reflexivity). reflexivity.
    - unfold is_table at 1. destruct (o_kind x) eqn:Q; cbn [andb]; try exact IH. destruct (ieqb t (o_name x)) eqn:E; [|exact IH].
      apply ieq_same in E. destruct (H eq_refl). contradiction.
  Qed.
  Lemma only_map d1 o d2 t f : only_table d1 o d2 t -> map (fun x => if is_table x && ieqb t (o_name x) then f x else x) (d1 ++ o :: d2) = d1 ++ f o :: d2.
  Proof.
    intros (K & N & T & F). apply Forall_app in F as [F1 F2].
    assert (G : forall l, Forall (fun x => o_kind x = Table -> ~ same_letters t (o_name x) /\ o_table x <> t) l -> map (fun x => if is_table x && ieqb t (o_name x) then f x else x) l = l).
    { induction 1 as [|x l H _ IH]; [reflexivity|]. cbn [map]. rewrite IH. f_equal. unfold is_table. destruct (o_kind x) eqn:Q; cbn [andb]; try reflexivity.
      destruct (ieqb t (o_name x)) eqn:E; [|reflexivity]. apply ieq_same in E. destruct (H eq_refl). contradiction. }
    rewrite map_app. cbn [map]. rewrite (G d1 F1), (G d2 F2). f_equal. f_equal. unfold is_table. rewrite K, N. cbn [andb].
    replace (ieqb t t) with true by (symmetry; apply ieq_same; reflexivity). reflexivity.
  Qed.

  (** A table that is there is not touched, and the answer is yes exactly if the text SQLite keeps and the text that is
      asked for are the same but for white space. *)
  Theorem C63_table_verdict d1 o d2 t sql : only_table d1 o d2 t -> nul_free (o_text o) -> nul_free sql -> last sql " "%char <> ";"%char ->
    exists answer, verifyTable (d1 ++ o :: d2) t sql Table = Some (d1 ++ o :: d2, false, answer) /\
                   (answer = true <-> without_white (o_text o) = without_white sql).
  Proof.
    intros O N S L. exists (bytes_eqb (without_white (o_text o)) (without_white sql)). split; [|apply bytes_eqb_eq].
    exact (verify_found _ _ _ _ _ _ S N L (only_rows _ _ _ _ O)).
  Qed.

  (** A table that is not there is made, with the text that is asked for but for white space. *)
  Theorem C63_table_made d n body : is_name n -> ~ same_letters n (lit "IF") -> nul_free body -> ends_name body -> last body " "%char <> ";"%char ->
    Forall (fun o => ~ same_letters n (o_name o) /\ o_table o <> n) d -> accepts (n ++ SCollapse body) = true ->
    exists text, without_white text = without_white (lit "CREATE TABLE " ++ n ++ body) /\
                 verifyTable d n (lit "CREATE TABLE " ++ n ++ body) Table = Some (d ++ [Object Table n n text], true, true).
  Proof.
    intros N I B E L F A. exists (SCollapse (lit "CREATE TABLE " ++ n ++ body)).
    assert (Y : nul_free (lit "CREATE TABLE " ++ n ++ body)).
    { apply nul_app. split; [intros J; cbn in J; intuition discriminate|]. apply nul_app. split; [apply name_nul; exact N|exact B]. }
    split; [unfold SCollapse; rewrite (cstr_nul_free _ Y); apply white_collapse|].
    unfold Schema_Model.verifyTable. rewrite ends_semi.
    assert (L' : last (lit "CREATE TABLE " ++ n ++ body) " "%char <> ";"%char).
    { destruct body as [|z body'] using rev_ind.
      - rewrite app_nil_r. destruct N as [N1 N2]. destruct (exists_last N1) as (n' & x & ->). rewrite app_assoc, last_last. rewrite forallb_app in N2. apply andb_prop in N2 as [_ N2].
        intros ->. discriminate.
      - rewrite !app_assoc, last_last. rewrite last_last in L. exact L. }
    destruct (Ascii.eqb_spec (last (lit "CREATE TABLE " ++ n ++ body) " "%char) ";"); [contradiction|].
    assert (R : rows_of_table Table n d = []).
    { unfold rows_of_table. clear -F. induction F as [|x l [_ H] _ IH]; [reflexivity|]. cbn [filter]. apply bytes_eqb_neq in H. rewrite H, andb_false_r. exact IH. }
    assert (D : named n d = false).
    { unfold named. clear -F. induction F as [|x l [H _] _ IH]; [reflexivity|]. cbn [existsb]. rewrite IH. destruct (ieqb n (o_name x)) eqn:E; [|reflexivity]. apply ieq_same in E. contradiction. }
    rewrite R, (collapse_create n body N B). destruct (ends_collapse false body E) as [E'|X]; [|discriminate]. rewrite (write_table d n _ N I E').
    rewrite D. unfold SCollapse in A. rewrite (cstr_nul_free _ B) in A. rewrite A. reflexivity.
  Qed.

  (** An index that is there is not touched, and the answer is yes exactly if the texts are the same but for spaces and the case of letters. *)
  Theorem C63_index_verdict d1 o d2 n t def u k : o_kind o = Index -> o_name o = n -> o_table o = t -> Forall (fun x => o_name x <> n) (d1 ++ d2) ->
    nul_free (o_text o) -> nul_free n -> nul_free t -> nul_free def ->
    exists answer, verifyIndex (d1 ++ o :: d2) n t def u k = Some (d1 ++ o :: d2, answer) /\
                   (answer = true <-> same_letters (without_blanks (o_text o))
                      (without_blanks (lit (if u then "CREATE UNIQUE INDEX " else "CREATE INDEX ") ++ n ++ lit " ON " ++ t ++ lit " " ++ def))).
  Proof.
    intros K N T F X Nn Nt Nd. unfold Schema_Model.verifyIndex.
    assert (R : rows_of_index t n (d1 ++ o :: d2) = [o_text o]).
    { unfold rows_of_index. apply Forall_app in F as [F1 F2].
      assert (G : forall l, Forall (fun x => o_name x <> n) l -> filter (fun o => same_kind (o_kind o) Index && bytes_eqb (o_table o) t && bytes_eqb (o_name o) n) l = []).
      { induction 1 as [|x l H _ IH]; [reflexivity|]. cbn [filter]. apply bytes_eqb_neq in H. rewrite H, andb_false_r. exact IH. }
      rewrite filter_app. cbn [filter]. rewrite (G d1 F1), (G d2 F2), K, T, N, !bytes_eqb_refl. reflexivity. }
    rewrite R, !replace_text. eexists. split; [reflexivity|]. unfold SIEquals.
    assert (E : createSQL n t def u = lit (if u then "CREATE UNIQUE INDEX " else "CREATE INDEX ") ++ n ++ lit " ON " ++ t ++ lit " " ++ def) by (destruct u; reflexivity).
    rewrite E, ieq_same. rewrite !cstr_nul_free.
    - split; intros Q; symmetry; exact Q.
    - apply blanks_nul. exact X.
    - apply blanks_nul. repeat (apply nul_app; split); try assumption; [destruct u|..]; intros J; cbn in J; intuition discriminate.
  Qed.

  (** Performing the checks again, later, when other tables and indexes may have been made, changes nothing and whatever
      was found right is found right; and the first time nothing that was there is changed. *)
  Theorem C63_again l d d1 answers : Forall well_formed l -> one_spelling (names_in d l) -> upgradeDatabase d l = Some (d1, answers) ->
    exists made, d1 = d ++ made /\
      forall later, exists answers', upgradeDatabase (d1 ++ later) l = Some (d1 ++ later, answers') /\ Forall2 (fun a a' => a = true -> a' = true) answers answers'.
  Proof. apply again. Qed.

  (** A column that SQLite lets be added is added, once, in the place SQLite has for it; a further call changes nothing;
      and the table then is the one that is asked for with the column in its text. *)
  Theorem C63_column d1 o d2 t c ty : only_table d1 o d2 t -> nul_free (o_text o) -> is_name t -> is_name c -> nul_free ty -> ty <> [] -> white (last ty " "%char) = false ->
    SContains (SCollapse (o_text o)) (lit " " ++ c ++ lit " ") = false -> existsb (ieqb c) (columns (o_text o)) = false -> accepts (c ++ lit " " ++ ty) = true ->
    let text := firstn (add_at (o_text o)) (o_text o) ++ lit ", " ++ (c ++ lit " " ++ ty) ++ skipn (add_at (o_text o)) (o_text o) in
    let d' := d1 ++ Object Table t t text :: d2 in
    addColumn (d1 ++ o :: d2) t c ty = Some (d', true) /\
    (forall ty', addColumn d' t c ty' = Some (d', false)) /\
    (forall sql, nul_free sql -> last sql " "%char <> ";"%char ->
       exists answer, verifyTable d' t sql Table = Some (d', false, answer) /\ (answer = true <-> without_white text = without_white sql)).
  Proof.
    intros O X T C Y NE W M D A text d'.
    assert (O' : only_table d1 (Object Table t t text) d2 t) by (destruct O as (_ & _ & _ & F); repeat split; exact F).
    assert (FN : nul_free (firstn (add_at (o_text o)) (o_text o)) /\ nul_free (skipn (add_at (o_text o)) (o_text o))).
    { apply nul_app. rewrite firstn_skipn. exact X. }
    destruct FN as [FN SN].
    assert (TN : nul_free text).
    { unfold text. repeat (apply nul_app; split); try assumption; try (apply name_nul; assumption); intros J; cbn in J; intuition discriminate. }
    split; [|split].
    - unfold Schema_Model.addColumn. rewrite (only_rows _ _ _ _ O). cbv beta iota. rewrite M. cbn [negb].
      destruct (exists_last NE) as (ty0 & z & ->). rewrite last_last in W. rewrite (write_column _ t c ty0 z T C W). rewrite (only_named _ _ _ _ O), D, A. cbn [orb negb].
      apply (f_equal (fun m => Some (m, true))). etransitivity; [exact (only_map d1 o d2 t (fun x => Object (o_kind x) (o_name x) (o_table x) text) O)|].
      destruct O as (K & N & TT & _). rewrite K, N, TT. reflexivity.
    - intros ty'. unfold Schema_Model.addColumn. unfold d' at 1. rewrite (only_rows _ _ _ _ O'). cbv beta iota. cbn [o_text].
      assert (Z : SContains (SCollapse text) (lit " " ++ c ++ lit " ") = true).
      { unfold text. replace (firstn (add_at (o_text o)) (o_text o) ++ lit ", " ++ (c ++ lit " " ++ ty) ++ skipn (add_at (o_text o)) (o_text o))
          with (firstn (add_at (o_text o)) (o_text o) ++ lit ", " ++ c ++ lit " " ++ (ty ++ skipn (add_at (o_text o)) (o_text o))) by (rewrite <- !app_assoc; reflexivity).
        apply collapse_column; [exact FN|apply nul_app; split; assumption|exact C]. }
      rewrite Z. reflexivity.
    - intros sql S L. exact (C63_table_verdict d1 (Object Table t t text) d2 t sql O' TN S L).
  Qed.
End Proofs.
Print Assumptions C63_table_verdict.
Print Assumptions C63_table_made.
Print Assumptions C63_index_verdict.
Print Assumptions C63_again.
Print Assumptions C63_column.

(** ** Cases and counterexamples *)
Definition any (_ : bytes) : bool := true.
Definition no_columns (_ : bytes) : list bytes := [].
(** The place of the last closing parenthesis. *)
Definition before_last (s : bytes) : nat := List.length s - 1.
Definition jobs_sql : bytes := lit "CREATE TABLE jobs ( jobID INTEGER NOT NULL PRIMARY KEY,  name TEXT NOT NULL )".
Definition jobs_spaced : bytes := lit "CREATE TABLE jobs (jobID INTEGER NOT NULL PRIMARY KEY, name TEXT NOT NULL)".
Definition jobs_object : object := Object Table (lit "jobs") (lit "jobs") jobs_spaced.

Example C63_table_case :
  only_table [] jobs_object [] (lit "jobs") /\ nul_free (o_text jobs_object) /\ nul_free jobs_sql /\ last jobs_sql " "%char <> ";"%char /\
  verifyTable any no_columns before_last [jobs_object] (lit "jobs") jobs_sql Table = Some ([jobs_object], false, true) /\
  verifyTable any no_columns before_last [jobs_object] (lit "jobs") (lit "CREATE TABLE jobs ( jobID INTEGER )") Table = Some ([jobs_object], false, false) /\
  verifyTable any no_columns before_last [] (lit "jobs") jobs_sql Table =
    Some ([Object Table (lit "jobs") (lit "jobs") (lit "CREATE TABLE jobs ( jobID INTEGER NOT NULL PRIMARY KEY, name TEXT NOT NULL )")], true, true).
Proof. repeat split; try (vm_compute; reflexivity); try (intros H; vm_compute in H; intuition discriminate). constructor. Qed.

Definition checks : list check :=
  [Check_table (lit "jobs") jobs_sql; Check_index (lit "jobsName") (lit "jobs") (lit "( name )") false true;
   Check_index (lit "jobsID") (lit "jobs") (lit "( jobID )") true false].
Example C63_again_case :
  Forall well_formed checks /\ one_spelling (names_in [] checks) /\
  exists d1, upgradeDatabase any no_columns before_last [] checks = Some (d1, [true; true; false]) /\ List.length d1 = 2 /\
             upgradeDatabase any no_columns before_last d1 checks = Some (d1, [true; true; false]).
Proof.
  split; [|split].
  - repeat constructor; try (intros H; vm_compute in H; intuition discriminate); try discriminate.
    exists (lit " ( jobID INTEGER NOT NULL PRIMARY KEY,  name TEXT NOT NULL )"). repeat split. intros H. vm_compute in H. intuition discriminate.
  - intros a b A B _. cbn in A, B. destruct A as [<-|[<-|[<-|[]]]]; destruct B as [<-|[<-|[<-|[]]]]; reflexivity.
  - exists [Object Table (lit "jobs") (lit "jobs") (lit "CREATE TABLE jobs ( jobID INTEGER NOT NULL PRIMARY KEY, name TEXT NOT NULL )");
            Object Index (lit "jobsName") (lit "jobs") (lit "CREATE INDEX jobsName ON jobs ( name )")].
    repeat split; vm_compute; reflexivity.
Qed.

Example C63_index_case :
  verifyIndex any no_columns before_last [jobs_object; Object Index (lit "jobsName") (lit "jobs") (lit "CREATE INDEX jobsName ON jobs(name)")]
    (lit "jobsName") (lit "jobs") (lit "( NAME )") false true =
  Some ([jobs_object; Object Index (lit "jobsName") (lit "jobs") (lit "CREATE INDEX jobsName ON jobs(name)")], true).
Proof. vm_compute. reflexivity. Qed.

Example C63_column_case :
  only_table [] jobs_object [] (lit "jobs") /\ is_name (lit "state") /\ white (last (lit "TEXT") " "%char) = false /\
  SContains (SCollapse (o_text jobs_object)) (lit " state ") = false /\
  addColumn any no_columns before_last [jobs_object] (lit "jobs") (lit "state") (lit "TEXT") =
    Some ([Object Table (lit "jobs") (lit "jobs") (lit "CREATE TABLE jobs (jobID INTEGER NOT NULL PRIMARY KEY, name TEXT NOT NULL, state TEXT)")], true).
Proof. repeat split; try (vm_compute; reflexivity); try discriminate. constructor. Qed.

(** Checking a table takes white space out of literals and between words too: a table with another default value, or
    with other columns, is taken for the right one. *)
Theorem C63_literal_refuted : exists stored asked,
  stored = lit "CREATE TABLE t ( a TEXT DEFAULT 'x y', b INT )" /\ asked = lit "CREATE TABLE t ( aTEXT DEFAULT 'xy', b INT )" /\
  verifyTable any no_columns before_last [Object Table (lit "t") (lit "t") stored] (lit "t") asked Table = Some ([Object Table (lit "t") (lit "t") stored], false, true).
Proof. eexists _, _. split; [reflexivity|]. split; [reflexivity|]. vm_compute. reflexivity. Qed.

(** The text that SQLite gets has no line ends, so a comment in it reaches to its end: a definition with a comment to the
    end of the line, which SQLite accepts as it is, is refused and the process ends.  [closes] says whether the
    parentheses outside of such comments close. *)
Fixpoint closes (depth : nat) (comment : bool) (s : bytes) : bool :=
  match s with
  | [] => Nat.eqb depth 0
  | c :: s' =>
      if comment then closes depth (negb (Ascii.eqb c "010")) s'
      else if prefixb (lit "--") s then closes depth true s'
      else if Ascii.eqb c "(" then closes (S depth) false s'
      else if Ascii.eqb c ")" then match depth with 0 => false | S n => closes n false s' end
      else closes depth false s'
  end.
Theorem C63_comment_refuted : exists body,
  body = lit "t ( a TEXT, -- the first" ++ "010"%char :: lit " b INT )" /\
  exec (closes 0 false) no_columns before_last [] (lit "CREATE TABLE " ++ body ++ lit ";") = Some [Object Table (lit "t") (lit "t") (lit "CREATE TABLE " ++ body)] /\
  verifyTable (closes 0 false) no_columns before_last [] (lit "t") (lit "CREATE TABLE " ++ body) Table = None.
Proof. eexists. split; [reflexivity|]. split; vm_compute; reflexivity. Qed.

(** SQLite keeps the text without IF NOT EXISTS and with its first words in capitals.  A definition that has IF NOT
    EXISTS, or create table in small letters, makes the table and is not recognized afterwards. *)
Theorem C63_first_words_refuted : forall sql, In sql [lit "CREATE TABLE IF NOT EXISTS t ( a TEXT )"; lit "create table t ( a TEXT )"] ->
  exists d, verifyTable any no_columns before_last [] (lit "t") sql Table = Some (d, true, true) /\
            verifyTable any no_columns before_last d (lit "t") sql Table = Some (d, false, false).
Proof.
  intros sql [<-|[<-|[]]]; exists [Object Table (lit "t") (lit "t") (lit "CREATE TABLE t ( a TEXT )")]; split; vm_compute; reflexivity.
Qed.

(** Checking an index takes no notice of the case of letters in literals: an index of other rows is taken for the right one. *)
Theorem C63_index_case_refuted : exists d, d = [jobs_object; Object Index (lit "i") (lit "jobs") (lit "CREATE INDEX i ON jobs (name) WHERE name GLOB 'WWW/*'")] /\
  verifyIndex any no_columns before_last d (lit "i") (lit "jobs") (lit "(name) WHERE name GLOB 'www/*'") false true = Some (d, true).
Proof. eexists. split; [reflexivity|]. vm_compute. reflexivity. Qed.

(** Of white space only spaces are overlooked in indexes: an index whose definition has been broken into lines is taken for a wrong one. *)
Theorem C63_index_lines_refuted : exists d, d = [jobs_object; Object Index (lit "i") (lit "jobs") (lit "CREATE INDEX i ON jobs (name, jobID)")] /\
  verifyIndex any no_columns before_last d (lit "i") (lit "jobs") (lit "(name," ++ "010"%char :: lit "jobID)") false true = Some (d, false).
Proof. eexists. split; [reflexivity|]. vm_compute. reflexivity. Qed.

(** Names are looked up as they are spelt, and SQLite does not tell capitals from small letters: if the table is there in
    another spelling the process ends. *)
Theorem C63_spelling_refuted : verifyTable any no_columns before_last [jobs_object] (lit "Jobs") (lit "CREATE TABLE Jobs ( jobID INTEGER )") Table = None.
Proof. vm_compute. reflexivity. Qed.

(** addColumn() takes a column to be there if its name stands between spaces in the text.  For a column that stands right
    after the opening parenthesis it does not, and adding the column again ends the process. *)
Theorem C63_column_first_refuted : addColumn any (fun _ => [lit "jobID"; lit "name"]) before_last [jobs_object] (lit "jobs") (lit "jobID") (lit "INTEGER") = None.
Proof. vm_compute. reflexivity. Qed.

(** A column whose name stands somewhere else in the text, as here in a constraint, is never added. *)
Theorem C63_column_mention_refuted : exists d, d = [Object Table (lit "t") (lit "t") (lit "CREATE TABLE t ( a TEXT CONSTRAINT state UNIQUE )")] /\
  addColumn any (fun _ => [lit "a"]) before_last d (lit "t") (lit "state") (lit "TEXT") = Some (d, false).
Proof. eexists. split; [reflexivity|]. vm_compute. reflexivity. Qed.

(** A column without a type is added the first time, and the second time ends the process. *)
Theorem C63_column_untyped_refuted : exists d',
  addColumn any (fun t => if SContains t (lit ", flag)") then [lit "flag"] else []) before_last [jobs_object] (lit "jobs") (lit "flag") [] = Some (d', true) /\
  addColumn any (fun t => if SContains t (lit ", flag)") then [lit "flag"] else []) before_last d' (lit "jobs") (lit "flag") [] = None.
Proof.
  exists [Object Table (lit "jobs") (lit "jobs") (lit "CREATE TABLE jobs (jobID INTEGER NOT NULL PRIMARY KEY, name TEXT NOT NULL, flag)")]. split; vm_compute; reflexivity.
Qed.
Print Assumptions C63_comment_refuted.
