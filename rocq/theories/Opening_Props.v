(** C78: a process that opens the database finds all commits, whatever happened to the database before. *)
From Verif Require Import Base Dec Opening_Spec Opening_Model.
Open Scope nat_scope.

(** What has been committed: the commits of the processes that ran *)
Definition recorded (h : history) (p : option process) (e : event) : history :=
  match e, p with
  | Commit _ q hash, Some _ => History (commits h ++ [(q, hash)]) (kept_from h)
  | Trim _ oldest _, Some _ => History (commits h) (Nat.max (kept_from h) oldest)
  | _, _ => h
  end.
(** [es] leads from the database and process [s] with the history [h] to [s'] and [h'], every event being allowed *)
Inductive leads : (database * option process) -> history -> list event -> (database * option process) -> history -> Prop :=
| leads_nil s h : leads s h [] s h
| leads_cons s h e es s' h' : allowed h e -> leads (happen s e) (recorded h (snd s) e) es s' h' -> leads s h (e :: es) s' h'.
Definition nothing : history := History [] 0.

(** ** Names *)
Lemma dec_value_app a b : forall x, dec_value x (a ++ b) = dec_value (dec_value x a) b.
Proof. induction a as [|c a IH]; intros x; [reflexivity|]. cbn [app dec_value]. apply IH. Qed.
Lemma dec_value_zeros n : dec_value 0 (repeat "0"%char n) = 0%N.
Proof. induction n as [|n IH]; [reflexivity|]. cbn [repeat dec_value]. exact IH. Qed.
Lemma four_value n : dec_value 0 (four n) = N.of_nat n.
Proof. unfold four. rewrite dec_value_app, dec_value_zeros. apply dec_value_dec. Qed.
Lemma four_digits n : forallb is_digit (four n) = true.
Proof. unfold four. rewrite forallb_app, dec_digits, Bool.andb_true_r. apply forallb_forall. intros c I. apply repeat_spec in I. subst c. reflexivity. Qed.
Lemma four_nonempty n : four n <> [].
Proof. unfold four. intros E. apply app_eq_nil in E as [_ E]. exact (dec_nonempty _ E). Qed.
Lemma journal_inj a b : journal a = journal b -> a = b.
Proof.
  destruct a as [|a], b as [|b]; cbn [journal]; intros E; [reflexivity| | |].
  - destruct (four_nonempty b). apply (app_inv_head (lit "journal")). rewrite <- E. reflexivity.
  - destruct (four_nonempty a). apply (app_inv_head (lit "journal")). rewrite E. reflexivity.
  - apply app_inv_head in E. f_equal. apply Nat2N.inj. rewrite <- !four_value, E. reflexivity.
Qed.
Lemma journal_prefix k : exists t, journal k = lit "journal" ++ t.
Proof. destruct k as [|k]; [exists []; reflexivity|exists (four k); reflexivity]. Qed.
Lemma journal_not_view k : journal k <> lit "journalEntries".
Proof.
  destruct k as [|k]; [discriminate|]. cbn [journal]. change (lit "journalEntries") with (lit "journal" ++ lit "Entries"). intros E. apply app_inv_head in E.
  pose proof (four_digits k) as D. rewrite E in D. discriminate.
Qed.
Lemma table_name_journal k : table_name k = journal k.
Proof. destruct k; reflexivity. Qed.

(** ** What sqlite_master has *)
Definition jentry (k : nat) : entry := Entry (lit "table") (journal k) (journal k) (table_sql (journal k)).
Definition app_entry (e : entry) : Prop := of_application (ename e) /\ of_application (tbl e).
Definition a_view (e : entry) : Prop := kind e = lit "view" /\ ename e = lit "journalEntries" /\ tbl e = lit "journalEntries".
Definition shape (n : nat) (d : database) : Prop :=
  (forall e, In e (master d) -> app_entry e \/ (exists k, k < n /\ e = jentry k) \/ a_view e) /\
  (forall k, k < n -> In (jentry k) (master d)) /\
  length (filter is_view (master d)) <= 1.

Lemma jentry_not_view k : is_view (jentry k) = false.
Proof. apply bytes_eqb_neq. apply journal_not_view. Qed.
Lemma app_not_view e : app_entry e -> is_view e = false.
Proof. intros [A _]. apply bytes_eqb_neq. intros E. apply (A (lit "Entries")). exact E. Qed.
Lemma with_table_some n d k : shape n d -> k < n -> with_table (table_name k) d = Some (jentry k).
Proof.
  intros (A & B & C) L. rewrite table_name_journal. unfold with_table. destruct (List.find _ _) as [e|] eqn:F.
  - apply List.find_some in F as [I E]. apply bytes_eqb_eq in E. destruct (A e I) as [[_ X]|[[k' [L' ->]]|[_ [_ X]]]].
    + destruct (journal_prefix k) as [t P]. destruct (X t). congruence.
    + cbn [jentry tbl] in E. apply journal_inj in E. subst k'. reflexivity.
    + destruct (journal_not_view k). congruence.
  - pose proof (List.find_none _ _ F _ (B k L)) as Q. cbn [jentry tbl] in Q. rewrite bytes_eqb_refl in Q. discriminate.
Qed.
Lemma with_table_none n d k : shape n d -> n <= k -> with_table (table_name k) d = None.
Proof.
  intros (A & B & C) L. rewrite table_name_journal. unfold with_table. destruct (List.find _ _) as [e|] eqn:F; [|reflexivity].
  apply List.find_some in F as [I E]. apply bytes_eqb_eq in E. destruct (A e I) as [[_ X]|[[k' [L' ->]]|[_ [_ X]]]].
  - destruct (journal_prefix k) as [t P]. destruct (X t). congruence.
  - cbn [jentry tbl] in E. apply journal_inj in E. lia.
  - destruct (journal_not_view k). congruence.
Qed.
Lemma has_name_none n d k : shape n d -> n <= k -> has_name (table_name k) d = false.
Proof.
  intros (A & B & C) L. rewrite table_name_journal. unfold has_name. destruct (existsb _ _) eqn:F; [|reflexivity].
  apply existsb_exists in F as [e [I E]]. apply bytes_eqb_eq in E. destruct (A e I) as [[X _]|[[k' [L' ->]]|[_ [X _]]]].
  - destruct (journal_prefix k) as [t P]. destruct (X t). congruence.
  - cbn [jentry ename] in E. apply journal_inj in E. lia.
  - destruct (journal_not_view k). congruence.
Qed.
Lemma shape_add n d : shape n d -> shape (S n) (add_entry (jentry n) d).
Proof.
  intros (A & B & C). unfold add_entry. split; [|split]; cbn [master].
  - intros e I. apply in_app_or in I as [I|[<-|[]]].
    + destruct (A e I) as [X|[[k [L E]]|X]]; [left; exact X|right; left; exists k; split; [lia|exact E]|right; right; exact X].
    + right. left. exists n. split; [lia|reflexivity].
  - intros k L. apply in_or_app. destruct (Nat.eq_dec k n) as [->|D]; [right; left; reflexivity|left; apply B; lia].
  - rewrite filter_app. cbn [filter]. rewrite jentry_not_view, app_nil_r. exact C.
Qed.
Lemma shape_app n d e : shape n d -> app_entry e -> shape n (add_entry e d).
Proof.
  intros (A & B & C) E. unfold add_entry. split; [|split]; cbn [master].
  - intros x I. apply in_app_or in I as [I|[<-|[]]]; [exact (A x I)|left; exact E].
  - intros k L. apply in_or_app. left. exact (B k L).
  - rewrite filter_app. cbn [filter]. rewrite (app_not_view e E), app_nil_r. exact C.
Qed.
Lemma shape_content n d c : shape n d -> shape n (Database (master d) c).
Proof. intros A. exact A. Qed.
Lemma shape_length n d : shape n d -> n <= length (master d).
Proof.
  intros (A & B & C). rewrite <- (seq_length n 0), <- (map_length jentry). apply NoDup_incl_length.
  - apply FinFun.Injective_map_NoDup; [|apply seq_NoDup]. intros a b E. apply journal_inj. exact (f_equal ename E).
  - intros e I. apply in_map_iff in I as [k [<- I]]. apply in_seq in I. apply B. lia.
Qed.

Lemma create_spec m : forall a w n d, shape n d -> a <= n ->
  match create w (seq a m) d with
  | inl (d', w') => shape (Nat.max n (a + m)) d' /\ content d' = content d /\ w <= w' + m /\ (a + m <= n -> d' = d /\ w' = w)
  | inr (Killed d') => (exists n', n <= n' /\ shape n' d') /\ content d' = content d /\ w < m
  | inr _ => False
  end.
Proof.
  induction m as [|m IH]; intros a w n d A L.
  - cbn [seq create]. replace (Nat.max n (a + 0)) with n by lia. split; [exact A|]. split; [reflexivity|]. split; [lia|]. intros _. split; reflexivity.
  - cbn [seq create]. destruct (Nat.lt_ge_cases a n) as [Q|Q].
    + rewrite (with_table_some n d a A Q). rewrite table_name_journal. cbn [jentry sql]. rewrite bytes_eqb_refl. specialize (IH (S a) w n d A ltac:(lia)).
      destruct (create w (seq (S a) m) d) as [[d' w']|[d' l|d'|d']]; try contradiction.
      * destruct IH as (X & Y & Z & W). replace (a + S m) with (S a + m) by lia. split; [exact X|]. split; [exact Y|]. split; [lia|exact W].
      * destruct IH as (X & Y & Z). split; [exact X|]. split; [exact Y|lia].
    + assert (a = n) by lia. subst a. rewrite (with_table_none n d n A ltac:(lia)), (has_name_none n d n A ltac:(lia)). rewrite table_name_journal.
      destruct w as [|w]; [split; [exists n; split; [lia|exact A]|split; [reflexivity|lia]]|].
      fold (jentry n). specialize (IH (S n) w (S n) (add_entry (jentry n) d) (shape_add n d A) ltac:(lia)).
      destruct (create w (seq (S n) m) (add_entry (jentry n) d)) as [[d' w']|[d' l|d'|d']]; try contradiction.
      * destruct IH as (X & Y & Z & W). replace (Nat.max n (n + S m)) with (Nat.max (S n) (S n + m)) by lia. split; [exact X|]. split; [exact Y|]. split; lia.
      * destruct IH as ([n' [P X]] & Y & Z). split; [exists n'; split; [lia|exact X]|]. split; [exact Y|lia].
Qed.
Lemma find_journals_spec n d f : shape n d -> forall k, k <= n -> n - k < f -> find_journals f k d = map journal (seq k (n - k)).
Proof.
  intros A. induction f as [|f IH]; intros k L F; [lia|]. cbn [find_journals]. destruct (Nat.eq_dec k n) as [->|D].
  - rewrite (with_table_none n d n A ltac:(lia)), Nat.sub_diag. reflexivity.
  - rewrite (with_table_some n d k A ltac:(lia)). replace (n - k) with (S (n - S k)) by lia. cbn [seq map]. rewrite table_name_journal, IH by lia. reflexivity.
Qed.

(** There is one view, and it is that of [names] *)
Definition has_view (names : list bytes) (d : database) : Prop := filter is_view (master d) = [view_entry names].
Lemma view_is_view names : is_view (view_entry names) = true.
Proof. reflexivity. Qed.
Lemma filter_not_filter {A} (f : A -> bool) (l : list A) : filter f (filter (fun x => negb (f x)) l) = [].
Proof. induction l as [|x l IH]; [reflexivity|]. cbn [filter]. destruct (f x) eqn:E; cbn [negb filter]; [exact IH|]. rewrite E. exact IH. Qed.
Lemma update_view_spec w n names d : shape n d -> names <> [] ->
  match update_view w names d with
  | Done d' l => l = names /\ shape n d' /\ content d' = content d /\ has_view names d' /\ (has_view names d -> d' = d)
  | Killed d' => d' = d /\ w = 0 /\ ~ has_view names d
  | Aborted _ => False
  end.
Proof.
  intros A N. unfold update_view. pose proof A as (S1 & S2 & S3). unfold has_view. destruct (filter is_view (master d)) as [|e [|e2 l]] eqn:F.
  - destruct names as [|x names]; [congruence|]. destruct w as [|w]; [repeat split; discriminate|].
    split; [reflexivity|]. split; [|split; [reflexivity|split; [|discriminate]]].
    + unfold add_entry. split; [|split]; cbn [master].
      * intros e I. apply in_app_or in I as [I|[<-|[]]]; [exact (S1 e I)|right; right; repeat split].
      * intros k L. apply in_or_app. left. exact (S2 k L).
      * rewrite filter_app, F. cbn. lia.
    + unfold add_entry. cbn [master]. rewrite filter_app, F. reflexivity.
  - assert (I : In e (filter is_view (master d))) by (rewrite F; left; reflexivity). apply filter_In in I as [I V].
    assert (W : a_view e).
    { destruct (S1 e I) as [X|[[k [_ ->]]|X]]; [rewrite (app_not_view e X) in V; discriminate|rewrite jentry_not_view in V; discriminate|exact X]. }
    destruct W as (K & E1 & E2). rewrite K, bytes_eqb_refl. cbn [negb]. destruct (bytes_eqb (sql e) (view_sql names)) eqn:Q.
    + apply bytes_eqb_eq in Q. split; [reflexivity|]. split; [exact A|]. split; [reflexivity|]. split; [|reflexivity].
      rewrite F. f_equal. destruct e as [a b c q]. cbn in K, E1, E2, Q. subst. reflexivity.
    + apply bytes_eqb_neq in Q. destruct names as [|x names]; [congruence|]. destruct w as [|w].
      * split; [reflexivity|]. split; [reflexivity|]. intros E. injection E as ->. apply Q. reflexivity.
      * split; [reflexivity|]. split; [|split; [reflexivity|split]].
        -- split; [|split]; cbn [master].
           ++ intros y J. apply in_app_or in J as [J|[<-|[]]]; [apply filter_In in J as [J _]; exact (S1 y J)|right; right; repeat split].
           ++ intros k L. apply in_or_app. left. apply filter_In. split; [exact (S2 k L)|]. rewrite jentry_not_view. reflexivity.
           ++ rewrite filter_app, filter_not_filter. cbn. lia.
        -- cbn [master]. rewrite filter_app, filter_not_filter. reflexivity.
        -- intros E. injection E as ->. destruct Q. reflexivity.
  - cbn in S3. lia.
Qed.

Lemma seq_nonempty n : 0 < n -> map journal (seq 0 n) <> [].
Proof. destruct n; [lia|]. discriminate. Qed.
Lemma initialize_spec w least n d : shape n d -> (-1 <= least < 10000)%Z ->
  match initializeJournal w least d with
  | Done d' names => exists n', n' = Nat.max n (Z.to_nat (least + 2)) /\ names = journals n' /\ shape n' d' /\ content d' = content d /\ has_view names d'
  | Killed d' => (exists n', n <= n' /\ shape n' d') /\ content d' = content d /\ w < Z.to_nat (least + 2) + 1
  | Aborted _ => False
  end.
Proof.
  intros A L. unfold initializeJournal. replace (least <? 10000)%Z with true by (symmetry; apply Z.ltb_lt; lia). cbn [negb].
  set (m := Z.to_nat (least + 2)). assert (M : 0 < m) by (unfold m; lia).
  pose proof (create_spec m 0 w n d A ltac:(lia)) as C. destruct (create w (seq 0 m) d) as [[d' w']|[x y|x|d']]; try contradiction.
  - destruct C as (S' & E & W & _). cbn [plus] in S'. set (n' := Nat.max n m) in *.
    rewrite (find_journals_spec n' d' _ S' 0 ltac:(lia)) by (pose proof (shape_length n' d' S'); lia). rewrite Nat.sub_0_r.
    pose proof (update_view_spec w' n' (map journal (seq 0 n')) d' S' (seq_nonempty n' ltac:(lia))) as U.
    destruct (update_view w' (map journal (seq 0 n')) d') as [d2 l|x|d2]; [|contradiction|].
    + destruct U as (-> & U1 & U2 & U3 & _). exists n'. split; [reflexivity|]. split; [reflexivity|]. split; [exact U1|]. split; [congruence|exact U3].
    + destruct U as (-> & -> & _). split; [exists n'; split; [lia|exact S']|]. split; [exact E|lia].
  - destruct C as (X & E & W). split; [exact X|]. split; [exact E|lia].
Qed.

(** ** The rows *)
Definition sound (n : nat) (d : database) (h : history) : Prop :=
  (forall t id c, In (id, c) (content d t) -> exists i, id = S i /\ nth_error (commits h) i = Some c) /\
  (forall t, content d t <> [] -> exists k, k < n /\ t = journal k) /\
  (forall i c, nth_error (commits h) i = Some c -> kept_from h <= S i -> exists t, In (S i, c) (content d t)) /\
  kept_from h <= length (commits h) /\
  (forall q x, In (q, x) (commits h) -> x <> []).
Lemma sound_more n n' d d' h : n <= n' -> content d' = content d -> sound n d h -> sound n' d' h.
Proof.
  intros L E (A & B & C & D & F). unfold sound. rewrite E. split; [exact A|]. split; [|split; [exact C|split; [exact D|exact F]]].
  intros t X. destruct (B t X) as [k [K T]]. exists k. split; [lia|exact T].
Qed.
Lemma rows_in n d h id c : sound n d h -> In (id, c) (all_rows (journals n) d) <-> exists t, In (id, c) (content d t).
Proof.
  intros (A & B & _). unfold all_rows. rewrite in_flat_map. split; [intros [t [_ I]]; exists t; exact I|]. intros [t I].
  destruct (B t) as [k [K ->]]; [intros E; rewrite E in I; exact I|]. exists (journal k). split; [|exact I]. apply in_map, in_seq. lia.
Qed.
Lemma fold_max_spec l : forall a, a <= fold_left Nat.max l a /\ (forall x, In x l -> x <= fold_left Nat.max l a) /\ (fold_left Nat.max l a = a \/ In (fold_left Nat.max l a) l).
Proof.
  induction l as [|x l IH]; intros a; [cbn; repeat split; [lia|intros ? []|left; reflexivity]|]. cbn [fold_left]. destruct (IH (Nat.max a x)) as (P & Q & T).
  split; [lia|]. split.
  - intros y [->|I]; [lia|exact (Q y I)].
  - destruct T as [T|T]; [|right; right; exact T]. rewrite T. destruct (Nat.max_spec a x) as [[_ ->]|[_ ->]]; [right; left; reflexivity|left; reflexivity].
Qed.
Lemma count_spec n d h : sound n d h -> commit_count (journals n) d = length (commits h).
Proof.
  intros R. pose proof R as (A & B & C & D & _). unfold commit_count. set (l := map fst (all_rows (journals n) d)). destruct (fold_max_spec l 0) as (_ & Q & T).
  assert (U : forall x, In x l -> x <= length (commits h)).
  { intros x I. apply in_map_iff in I as [[id c] [<- I]]. apply (rows_in n d h id c R) in I as [t I]. destruct (A t id c I) as [i [-> E]]. cbn [fst].
    assert (i < length (commits h)) by (apply nth_error_Some; congruence). lia. }
  assert (V : length (commits h) <= fold_left Nat.max l 0).
  { destruct (length (commits h)) as [|m] eqn:M; [lia|]. destruct (nth_error (commits h) m) as [c|] eqn:E; [|apply nth_error_None in E; lia].
    destruct (C m c E D) as [t I]. apply Q. apply in_map_iff. exists (S m, c). split; [reflexivity|]. apply (rows_in n d h (S m) c R). exists t. exact I. }
  destruct T as [T|T]; [lia|]. specialize (U _ T). lia.
Qed.
Lemma get_spec n d h id : sound n d h ->
  match getCommit (journals n) d id with
  | Some c => exists i, id = S i /\ nth_error (commits h) i = Some c
  | None => forall i, id = S i -> i < length (commits h) -> S i < kept_from h
  end.
Proof.
  intros R. pose proof R as (A & B & C & D & _). unfold getCommit. destruct (List.find _ _) as [[x c]|] eqn:F.
  - apply List.find_some in F as [I E]. apply Nat.eqb_eq in E. cbn [fst snd] in *. subst x. apply (rows_in n d h id c R) in I as [t I]. exact (A t id c I).
  - intros i -> L. destruct (Nat.lt_ge_cases (S i) (kept_from h)) as [|G]; [assumption|]. destruct (nth_error (commits h) i) as [c|] eqn:E; [|apply nth_error_None in E; lia].
    destruct (C i c E G) as [t I]. assert (J : In (S i, c) (all_rows (journals n) d)) by (apply (rows_in n d h (S i) c R); exists t; exact I).
    apply (List.find_none _ _ F) in J. cbn [fst] in J. rewrite Nat.eqb_refl in J. discriminate.
Qed.
Lemma last_hash_spec l i c : S i = length l -> nth_error l i = Some c -> last_hash l = snd c.
Proof.
  intros L E. destruct l as [|x l] using rev_ind; [destruct i; discriminate|]. rewrite app_length in L. cbn in L. assert (i = length l) by lia. subst i.
  rewrite nth_error_app2, Nat.sub_diag in E by lia. injection E as ->. unfold last_hash. rewrite rev_app_distr. destruct c. reflexivity.
Qed.
Lemma load_spec n d h : sound n d h -> load (journals n) d = Some (Process (journals n) (length (commits h)) (last_hash (commits h))).
Proof.
  intros R. unfold load. rewrite (count_spec n d h R). pose proof (get_spec n d h (length (commits h)) R) as G. pose proof R as (A & B & C & D & F).
  destruct (commits h) as [|x l] eqn:E.
  - cbn [length] in *. destruct (getCommit (journals n) d 0) as [c|]; [destruct G as [i [G _]]; discriminate|]. reflexivity.
  - rewrite <- E in *. assert (P : 0 < length (commits h)) by (rewrite E; cbn; lia).
    destruct (getCommit (journals n) d (length (commits h))) as [[q y]|].
    + destruct G as [i [L N]]. rewrite (last_hash_spec (commits h) i (q, y) ltac:(lia) N). cbn [snd].
      replace (bytes_eqb y []) with false; [rewrite Bool.andb_false_r; reflexivity|]. symmetry. apply bytes_eqb_neq. apply (F q). apply (nth_error_In _ _ N).
    + exfalso. specialize (G (length (commits h) - 1) ltac:(lia) ltac:(lia)). lia.
Qed.

(** ** All histories *)
Definition invariant (s : database * option process) (h : history) : Prop :=
  exists n, shape n (fst s) /\ sound n (fst s) h /\
    match snd s with Some p => 0 < n /\ p = Process (journals n) (length (commits h)) (last_hash (commits h)) | None => True end.

Lemma start_invariant w least d p h : (-1 <= least < 10000)%Z -> invariant (d, p) h ->
  let s := start w least d in invariant s h /\ content (fst s) = content d /\
  (Z.to_nat (least + 2) + 1 <= w -> exists n, Z.to_nat (least + 2) <= n /\ snd s = Some (Process (journals n) (length (commits h)) (last_hash (commits h)))) /\
  (forall q, snd s = Some q -> exists n, Z.to_nat (least + 2) <= n /\ q = Process (journals n) (length (commits h)) (last_hash (commits h)) /\ has_view (journals n) (fst s)).
Proof.
  intros L (n & A & R & _). cbn [fst] in *. unfold start. pose proof (initialize_spec w least n d A L) as I.
  destruct (initializeJournal w least d) as [d' names|x|d']; [|contradiction|]; cbn [fst snd].
  - destruct I as (n' & E & -> & S' & C & V). assert (R' : sound n' d' h) by (apply (sound_more n n' d d' h); [lia|exact C|exact R]).
    rewrite (load_spec n' d' h R'). split; [|split; [exact C|split]].
    + exists n'. cbn [fst snd]. split; [exact S'|]. split; [exact R'|]. split; [lia|reflexivity].
    + intros _. exists n'. split; [lia|reflexivity].
    + intros q Q. exists n'. split; [lia|]. split; [congruence|exact V].
  - destruct I as ((n' & N & S') & C & W). split; [|split; [exact C|split]].
    + exists n'. cbn [fst snd]. split; [exact S'|]. split; [apply (sound_more n n' d d' h); [exact N|exact C|exact R]|exact I].
    + intros. lia.
    + intros; discriminate.
Qed.
Lemma nth_journals n j : 0 < n -> exists k, k < n /\ nth (j mod length (journals n)) (journals n) [] = journal k.
Proof.
  intros P. unfold journals. rewrite map_length, seq_length. exists (j mod n). pose proof (Nat.mod_upper_bound j n ltac:(lia)). split; [assumption|].
  rewrite (nth_indep _ [] (journal 0)) by (rewrite map_length, seq_length; assumption). rewrite map_nth, seq_nth by assumption. reflexivity.
Qed.
Lemma last_hash_app l q x : last_hash (l ++ [(q, x)]) = x.
Proof. unfold last_hash. rewrite rev_app_distr. reflexivity. Qed.
Lemma happen_invariant s h e : allowed h e -> invariant s h -> invariant (happen s e) (recorded h (snd s) e).
Proof.
  intros W A. destruct s as [d p]. destruct e as [least w|j q x|j oldest gone|e].
  - cbn [happen recorded snd]. apply (start_invariant w least d p h W A).
  - destruct p as [p|]; [|exact A]. destruct A as (n & A & R & N & ->). cbn [fst snd happen recorded pnames pcount] in *.
    destruct (nth_journals n j N) as [k [K ->]]. exists n. cbn [fst snd]. split; [exact (shape_content n d _ A)|]. split; [|split; [exact N|]].
    + destruct R as (R1 & R2 & R3 & R4 & R5). unfold sound, set_rows. cbn [content commits kept_from]. split; [|split; [|split; [|split]]].
      * assert (OLD : forall t id c, In (id, c) (content d t) -> exists i, id = S i /\ nth_error (commits h ++ [(q, x)]) i = Some c).
        { intros t id c I. destruct (R1 t id c I) as [i [E F]]. exists i. split; [exact E|]. rewrite nth_error_app1; [exact F|]. apply nth_error_Some. congruence. }
        intros t id c I. destruct (bytes_eqb t (journal k)); [|exact (OLD t id c I)]. apply in_app_or in I as [I|[I|[]]]; [exact (OLD _ id c I)|].
        injection I as <- <-. exists (length (commits h)). split; [reflexivity|]. rewrite nth_error_app2, Nat.sub_diag by lia. reflexivity.
      * intros t I. destruct (bytes_eqb t (journal k)) eqn:T; [apply bytes_eqb_eq in T; exists k; split; [exact K|exact T]|exact (R2 t I)].
      * intros i c E G. destruct (Nat.lt_ge_cases i (length (commits h))) as [L|L].
        -- rewrite nth_error_app1 in E by exact L. destruct (R3 i c E G) as [t I]. exists t. destruct (bytes_eqb t (journal k)) eqn:T; [|exact I].
           apply bytes_eqb_eq in T. subst t. apply in_or_app. left. exact I.
        -- assert (i < length (commits h ++ [(q, x)])) by (apply nth_error_Some; congruence). rewrite app_length in H. cbn in H.
           assert (i = length (commits h)) by lia. subst i. rewrite nth_error_app2, Nat.sub_diag in E by lia. injection E as <-. exists (journal k).
           rewrite bytes_eqb_refl. apply in_or_app. right. left. reflexivity.
      * rewrite app_length. cbn. lia.
      * intros y z I. apply in_app_or in I as [I|[I|[]]]; [exact (R5 y z I)|]. injection I as <- <-. exact W.
    + cbn [commits]. rewrite app_length, last_hash_app. cbn. f_equal. lia.
  - destruct p as [p|]; [|exact A]. destruct A as (n & A & R & N & ->). cbn [fst snd happen recorded pnames pcount] in *.
    destruct (nth_journals n j N) as [k [K ->]]. exists n. cbn [fst snd]. split; [exact (shape_content n d _ A)|]. split; [|split; [exact N|reflexivity]].
    destruct R as (R1 & R2 & R3 & R4 & R5). unfold sound, set_rows. cbn [content commits kept_from]. split; [|split; [|split; [|split; [cbn [allowed] in W; lia|exact R5]]]].
    + intros t id c I. destruct (bytes_eqb t (journal k)); [|exact (R1 t id c I)]. apply filter_In in I as [I _]. exact (R1 _ id c I).
    + intros t I. destruct (bytes_eqb t (journal k)) eqn:T; [apply bytes_eqb_eq in T; exists k; split; [exact K|exact T]|exact (R2 t I)].
    + intros i c E G. destruct (R3 i c E ltac:(lia)) as [t I]. exists t. destruct (bytes_eqb t (journal k)) eqn:T; [|exact I].
      apply bytes_eqb_eq in T. subst t. apply filter_In. split; [exact I|]. cbn [fst]. replace (Nat.ltb (S i) oldest) with false; [reflexivity|]. symmetry. apply Nat.ltb_ge. lia.
  - destruct p as [p|]; [|exact A]. destruct A as (n & A & R & N & ->). cbn [fst snd happen recorded] in *. exists n. cbn [fst snd].
    split; [apply shape_app; [exact A|exact W]|]. split; [exact R|]. split; [exact N|reflexivity].
Qed.
Lemma leads_invariant s h es s' h' : leads s h es s' h' -> invariant s h -> invariant s' h'.
Proof. induction 1 as [|s h e es s' h' W _ IH]; intros A; [exact A|]. apply IH. apply happen_invariant; assumption. Qed.
Lemma invariant_new : invariant (new_database, None) nothing.
Proof.
  exists 0. split; [|split; [|exact I]]; cbn [fst].
  - split; [intros e []|]. split; [intros k L; lia|cbn; lia].
  - split; [intros t id c []|]. split; [intros t E; destruct E; reflexivity|]. split; [intros [|i] c E; discriminate|]. split; [cbn; lia|intros q x []].
Qed.

(** Whatever happened to the database, with processes killed at any point while they were starting: a process that is started and gets to the end knows
    the number of all commits and the hash of the last, and finds every commit that is kept, and no others. *)
Theorem C78_found : forall es d p h, leads (new_database, None) nothing es (d, p) h -> forall least w d' q, (-1 <= least < 10000)%Z -> start w least d = (d', Some q) ->
  pcount q = length (commits h) /\ phash q = last_hash (commits h) /\
  (forall i c, nth_error (commits h) i = Some c -> kept_from h <= S i -> getCommit (pnames q) d' (S i) = Some c) /\
  (forall id c, getCommit (pnames q) d' id = Some c -> exists i, id = S i /\ nth_error (commits h) i = Some c).
Proof.
  intros es d p h A least w d' q L E. apply leads_invariant in A; [|exact invariant_new]. destruct (start_invariant w least d p h L A) as (B & _ & _ & V). rewrite E in B, V.
  destruct (V q eq_refl) as (m & _ & Q & _). destruct B as (n & _ & R & N & Q'). cbn [fst snd] in *. rewrite Q'. cbn [pcount phash pnames].
  split; [reflexivity|]. split; [reflexivity|]. split.
  - intros i c F G. pose proof (get_spec n d' h (S i) R) as X. destruct (getCommit (journals n) d' (S i)) as [c'|].
    + destruct X as [i' [X Y]]. injection X as <-. congruence.
    + assert (i < length (commits h)) by (apply nth_error_Some; congruence). specialize (X i eq_refl H). lia.
  - intros id c F. pose proof (get_spec n d' h id R) as X. rewrite F in X. exact X.
Qed.
Print Assumptions C78_found.

(** A process that is not killed gets to the end, with at least the journals that were asked for; a killed one changes no row of a journal. *)
Theorem C78_starts : forall es d p h, leads (new_database, None) nothing es (d, p) h -> forall least w, (-1 <= least < 10000)%Z ->
  (forall t, content (fst (start w least d)) t = content d t) /\
  (Z.to_nat (least + 2) + 1 <= w -> exists n q, snd (start w least d) = Some q /\ pnames q = journals n /\ Z.to_nat (least + 2) <= n).
Proof.
  intros es d p h A least w L. apply leads_invariant in A; [|exact invariant_new]. destruct (start_invariant w least d p h L A) as (_ & C & S' & _).
  split; [intros t; rewrite C; reflexivity|]. intros W. destruct (S' W) as [n [N E]]. exists n. eexists. split; [exact E|]. split; [reflexivity|exact N].
Qed.
Print Assumptions C78_starts.

(** The text of the view *)
Fixpoint union_all (names : list bytes) : bytes :=
  match names with
  | [] => []
  | [n] => lit "SELECT id, query, hash FROM " ++ n
  | n :: names' => lit "SELECT id, query, hash FROM " ++ n ++ lit " UNION ALL " ++ union_all names'
  end.
Lemma view_text names : forall q, q <> [] -> names <> [] ->
  fold_left (fun q n => (match q with [] => [] | _ => q ++ lit " UNION ALL " end) ++ lit "SELECT id, query, hash FROM " ++ n) names q = q ++ lit " UNION ALL " ++ union_all names.
Proof.
  induction names as [|n names IH]; intros q Q N; [congruence|]. cbn [fold_left]. destruct q as [|c q]; [congruence|]. destruct names as [|m names].
  - cbn [fold_left union_all]. rewrite <- !app_assoc. reflexivity.
  - rewrite IH; [|discriminate|discriminate]. cbn [union_all]. rewrite <- !app_assoc. reflexivity.
Qed.
Lemma view_sql_text names : view_sql names = lit "CREATE VIEW journalEntries AS " ++ union_all names.
Proof.
  unfold view_sql. f_equal. destruct names as [|n [|m names]]; [reflexivity|reflexivity|]. cbn [fold_left]. change ([] ++ lit "SELECT id, query, hash FROM " ++ n) with (lit "SELECT id, query, hash FROM " ++ n).
  pose proof (view_text (m :: names) (lit "SELECT id, query, hash FROM " ++ n)) as V. cbn [fold_left] in V. rewrite V; [|discriminate|discriminate]. cbn [union_all]. rewrite <- !app_assoc. reflexivity.
Qed.
(** After a start there is one view of that name, and it shows all journals. *)
Theorem C78_view : forall es d p h, leads (new_database, None) nothing es (d, p) h -> forall least w d' q, (-1 <= least < 10000)%Z -> start w least d = (d', Some q) ->
  exists e, sql e = lit "CREATE VIEW journalEntries AS " ++ union_all (pnames q) /\ kind e = lit "view" /\
    forall x, In x (master d') /\ ename x = lit "journalEntries" <-> x = e.
Proof.
  intros es d p h A least w d' q L E. apply leads_invariant in A; [|exact invariant_new]. destruct (start_invariant w least d p h L A) as (_ & _ & _ & V). rewrite E in V.
  destruct (V q eq_refl) as (n & _ & -> & F). cbn [fst pnames] in *. exists (view_entry (journals n)). split; [apply view_sql_text|]. split; [reflexivity|].
  intros x. unfold has_view in F. rewrite <- (bytes_eqb_eq (ename x)). fold (is_view x). rewrite <- filter_In, F. split; [intros [->|[]]; reflexivity|intros ->; left; reflexivity].
Qed.
Print Assumptions C78_view.

(** Whatever the database is: if one of the tables that this start needs is there with another definition, not only in its spaces, the node does not start. *)
Definition without_spaces (l : bytes) : bytes := filter (fun c => negb (Ascii.eqb c " "%char)) l.
Lemma create_wrong k e : sql e <> table_sql (table_name k) -> forall ks w d, In k ks -> with_table (table_name k) d = Some e -> exists o, create w ks d = inr o /\ forall d' q, o <> Done d' q.
Proof.
  intros W ks. induction ks as [|k' ks IH]; intros w d I F; [destruct I|]. destruct I as [E|I]; cbn [create].
  - subst k'. rewrite F. destruct (bytes_eqb (sql e) (table_sql (table_name k))) eqn:B; [apply bytes_eqb_eq in B; contradiction|]. eexists. split; [reflexivity|discriminate].
  - destruct (with_table (table_name k') d) as [e'|].
    + destruct (bytes_eqb (sql e') (table_sql (table_name k'))); [exact (IH w d I F)|]. eexists. split; [reflexivity|discriminate].
    + destruct (has_name (table_name k') d); [eexists; split; [reflexivity|discriminate]|]. destruct w as [|w]; [eexists; split; [reflexivity|discriminate]|].
      apply IH; [exact I|]. unfold with_table, add_entry in *. cbn [master]. clear -F. induction (master d) as [|x l IHl]; cbn [List.find app] in *; [discriminate|]. destruct (bytes_eqb (tbl x) (table_name k)); auto.
Qed.
Theorem C78_wrong_table : forall d least w k e, (-1 <= least < 10000)%Z -> (Z.of_nat k < least + 2)%Z ->
  (exists before after, master d = before ++ e :: after /\ (forall x, In x before -> tbl x <> table_name k)) -> tbl e = table_name k ->
  without_spaces (sql e) <> without_spaces (lit "CREATE TABLE " ++ table_name k ++ lit " ( id INTEGER PRIMARY KEY, query TEXT, hash TEXT )") ->
  snd (start w least d) = None.
Proof.
  intros d least w k e L K (l1 & l2 & M & B) T W. unfold start, initializeJournal. destruct (negb (least <? 10000)%Z); [reflexivity|].
  destruct (create_wrong k e) with (ks := seq 0 (Z.to_nat (least + 2))) (w := w) (d := d) as (o & -> & O).
  - intros X. apply W. rewrite X. reflexivity.
  - apply in_seq. lia.
  - unfold with_table. rewrite M. clear M. induction l1 as [|x l1 IH]; cbn [app List.find].
    + rewrite T. rewrite (proj2 (bytes_eqb_eq _ _) eq_refl). reflexivity.
    + destruct (bytes_eqb (tbl x) (table_name k)) eqn:X; [apply bytes_eqb_eq in X; exfalso; apply (B x); [left; reflexivity|exact X]|]. apply IH. intros y Y. apply B. right. exact Y.
  - destruct o; [exfalso; exact (O _ _ eq_refl)|reflexivity|reflexivity].
Qed.
Print Assumptions C78_wrong_table.
Example C78_wrong_table_case : start 9 (-1) (Database [Entry (lit "table") (lit "journal") (lit "journal") (lit "CREATE TABLE journal ( id INTEGER PRIMARY KEY, query TEXT )")] (fun _ => [])) =
  (Database [Entry (lit "table") (lit "journal") (lit "journal") (lit "CREATE TABLE journal ( id INTEGER PRIMARY KEY, query TEXT )")] (fun _ => []), None).
Proof. reflexivity. Qed.

(** Starting again with no more journals changes nothing, not even sqlite_master. *)
Theorem C78_again : forall es d p h, leads (new_database, None) nothing es (d, p) h -> forall least w d' q, (-1 <= least < 10000)%Z -> start w least d = (d', Some q) ->
  forall least', (-1 <= least' < 10000)%Z -> Z.to_nat (least' + 2) <= length (pnames q) -> forall w', start w' least' d' = (d', Some q).
Proof.
  intros es d p h A least w d' q L E least' L' N w'. apply leads_invariant in A; [|exact invariant_new]. destruct (start_invariant w least d p h L A) as (B & _ & _ & V).
  rewrite E in B, V. destruct (V q eq_refl) as (m & _ & Q & F). destruct B as (n & S' & R & P & Q'). cbn [fst snd] in *.
  assert (NM : n = m).
  { assert (X : length (journals n) = length (journals m)) by (f_equal; congruence). unfold journals in X. rewrite !map_length, !seq_length in X. exact X. }
  subst m. rewrite Q in N. cbn [pnames] in N. unfold journals in N. rewrite map_length, seq_length in N.
  unfold start, initializeJournal. replace (least' <? 10000)%Z with true by (symmetry; apply Z.ltb_lt; lia). cbn [negb].
  pose proof (create_spec (Z.to_nat (least' + 2)) 0 w' n d' S' ltac:(lia)) as C.
  assert (C0 : create w' (seq 0 (Z.to_nat (least' + 2))) d' = inl (d', w')).
  { clear -S' N. revert N. set (k := Z.to_nat (least' + 2)). intros N. assert (G : forall k a, a + k <= n -> create w' (seq a k) d' = inl (d', w')).
    { induction k0 as [|k0 IH]; intros a K; [reflexivity|]. cbn [seq create]. rewrite (with_table_some n d' a S' ltac:(lia)), table_name_journal. cbn [jentry sql]. rewrite bytes_eqb_refl. apply IH. lia. }
    apply G. lia. }
  rewrite C0. rewrite (find_journals_spec n d' _ S' 0 ltac:(lia)) by (pose proof (shape_length n d' S'); lia). rewrite Nat.sub_0_r. fold (journals n).
  assert (U : update_view w' (journals n) d' = Done d' (journals n)).
  { unfold update_view. unfold has_view in F. rewrite F. cbn [view_entry kind sql]. rewrite !bytes_eqb_refl. reflexivity. }
  rewrite U, (load_spec n d' h R), Q. reflexivity.
Qed.
Print Assumptions C78_again.

(** A first process is killed after two journals, a second makes four and commits three times in them, old rows are removed, and a third asks for fewer journals. *)
Definition a_history : list event :=
  [Start 2 2; Start 2 9; Schema (Entry (lit "table") (lit "jobs") (lit "jobs") (lit "CREATE TABLE jobs (id)")); Commit 0 (lit "a") (lit "h1"); Commit 3 (lit "b") (lit "h2");
   Commit 2 (lit "c") (lit "h3"); Trim 0 2 [1]].
Lemma leads_step s h e es s1 h1 s' h' : allowed h e -> happen s e = s1 -> recorded h (snd s) e = h1 -> leads s1 h1 es s' h' -> leads s h (e :: es) s' h'.
Proof. intros W <- <- L. apply leads_cons; assumption. Qed.
Ltac next_step W :=
  match goal with |- leads ?s ?h (?e :: _) _ _ =>
    let s1 := eval vm_compute in (happen s e) in let h1 := eval vm_compute in (recorded h (snd s) e) in
    apply (leads_step s h e _ s1 h1); [W|vm_compute; reflexivity|vm_compute; reflexivity|] end.
Example C78_met : exists d p, leads (new_database, None) nothing a_history (d, p) (History [(lit "a", lit "h1"); (lit "b", lit "h2"); (lit "c", lit "h3")] 2) /\
  exists d' q, start 0 (-1) d = (d', Some q) /\ pcount q = 3 /\ phash q = lit "h3" /\
    pnames q = [lit "journal"; lit "journal0000"; lit "journal0001"; lit "journal0002"] /\ getCommit (pnames q) d' 2 = Some (lit "b", lit "h2") /\ getCommit (pnames q) d' 1 = None.
Proof.
  eexists. eexists. split.
  - unfold a_history. next_step ltac:(cbn; lia). next_step ltac:(cbn; lia). next_step ltac:(split; intros t E; discriminate).
    next_step ltac:(discriminate). next_step ltac:(discriminate). next_step ltac:(discriminate). next_step ltac:(cbn; lia). apply leads_nil.
  - match goal with |- exists d' q, start ?w ?l ?d = _ /\ _ => let r := eval vm_compute in (start w l d) in
      match r with (?d1, Some ?q1) => exists d1, q1 end end. split; [vm_compute; reflexivity|]. repeat split.
Qed.

(** Journals behind a missing one are not looked for: with journal0000 dropped by hand, the commits in journal0001 are not seen, and the next commit gets
    a number that is taken. *)
Theorem C78_gap_refuted : exists d, content d (lit "journal0001") = [(2, (lit "b", lit "h2"))] /\
  exists d' q, start 9 (-1) d = (d', Some q) /\ pcount q = 1 /\ getCommit (pnames q) d' 2 = None.
Proof.
  exists (Database [jentry 0; jentry 2] (fun t => if bytes_eqb t (lit "journal") then [(1, (lit "a", lit "h1"))] else if bytes_eqb t (lit "journal0001") then [(2, (lit "b", lit "h2"))] else [])).
  split; [reflexivity|]. eexists. eexists. split; [reflexivity|]. split; reflexivity.
Qed.
Print Assumptions C78_gap_refuted.

(** A table of the application with the next name is taken for a journal, without a look at its columns, and the largest id in it is the number of commits. *)
Theorem C78_foreign_refuted : exists d d' q, start 9 (-1) d = (d', Some q) /\ In (lit "journal0000") (pnames q) /\ pcount q = 77 /\
  In (Entry (lit "table") (lit "journal0000") (lit "journal0000") (lit "CREATE TABLE journal0000 ( id, query, hash, note )")) (master d).
Proof.
  exists (Database [jentry 0; Entry (lit "table") (lit "journal0000") (lit "journal0000") (lit "CREATE TABLE journal0000 ( id, query, hash, note )")]
    (fun t => if bytes_eqb t (lit "journal") then [(1, (lit "a", lit "h1"))] else if bytes_eqb t (lit "journal0000") then [(77, (lit "b", lit "x"))] else [])).
  eexists. eexists. split; [reflexivity|]. split; [right; left; reflexivity|]. split; [reflexivity|right; left; reflexivity].
Qed.
Print Assumptions C78_foreign_refuted.

(** With less than -1 journals (which an option of 4294967294 becomes as an int) a new database cannot be opened. *)
Theorem C78_negative_refuted : forall w, initializeJournal w (-2) new_database = Aborted new_database.
Proof. intros w. reflexivity. Qed.
Print Assumptions C78_negative_refuted.
