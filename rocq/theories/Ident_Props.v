From Verif Require Import Base Dec Text_Spec Text_Model Table Http_Spec Ident_Spec Ident_Model.
From Coq Require Import Permutation Sorted.

(** ** Headers *)
Lemma ieqb_ieq a b : ieqb a b = true <-> ieq a b.
Proof. unfold ieqb, ieq. apply bytes_eqb_eq. Qed.
Lemma tfind_none k t : tfind k t = None <-> no_header k t.
Proof.
  unfold no_header. induction t as [|[k' v'] t IH]; cbn [tfind].
  - split; [intros _ ? ? []|reflexivity].
  - destruct (kcmp k k') eqn:E.
    + split; [discriminate|]. intros H. exfalso. apply (H k' v'); [left; reflexivity|]. apply ieqb_ieq, kcmp_eq, kcmp_sym, E.
    + rewrite IH. split; [|intros H a b I; apply (H a b); right; exact I].
      intros H a b [I|I]; [|apply (H a b I)]. intros X. apply ieqb_ieq, kcmp_eq, kcmp_sym in X. congruence.
    + rewrite IH. split; [|intros H a b I; apply (H a b); right; exact I].
      intros H a b [I|I]; [|apply (H a b I)]. intros X. apply ieqb_ieq, kcmp_eq, kcmp_sym in X. congruence.
Qed.
Lemma tfind_header k t v : table_ok t -> tfind k t = Some v <-> has_header k t v.
Proof.
  intros O. unfold has_header. split.
  - intros F. destruct (tfind_some _ _ _ F) as (k' & I & E). exists k'. split; [exact I|]. apply ieqb_ieq, kcmp_eq, kcmp_sym, E.
  - intros (k' & I & E). rewrite (tfind_cong k k') by (apply kcmp_sym, kcmp_eq, ieqb_ieq, E). apply tfind_in; assumption.
Qed.

(** ** IDs of requests *)
Lemma random_text_length f m d k : forall i, length (random_text f m d i k) = k.
Proof. induction k as [|k IH]; intros i; cbn [random_text length]; [reflexivity|]. rewrite IH. reflexivity. Qed.
Lemma random_text_in (P : ascii -> Prop) f m d k : (0 < m <= size f)%N -> Forall P (firstn (N.to_nat m) f) -> forall i, Forall P (random_text f m d i k).
Proof.
  intros [L U] F. unfold size in U. induction k as [|k IH]; intros i; cbn [random_text]; [constructor|]. apply Forall_cons; [|apply IH].
  pose proof (N.mod_lt (d i) m ltac:(lia)) as B. unfold char_at.
  assert (Hn : nth (N.to_nat (d i mod m)%N) f " "%char = nth (N.to_nat (d i mod m)%N) (firstn (N.to_nat m) f) " "%char).
  { rewrite <- (firstn_skipn (N.to_nat m) f) at 1. apply app_nth1. rewrite firstn_length. lia. }
  rewrite Hn. rewrite Forall_forall in F. apply F, nth_In. rewrite firstn_length. lia.
Qed.
Definition letter_or_digit_b (c : ascii) : bool :=
  let n := bcode c in ((97 <=? n) && (n <=? 122) || (65 <=? n) && (n <=? 90) || (48 <=? n) && (n <=? 57))%N.
Lemma letter_or_digit_of c : letter_or_digit_b c = true -> letter_or_digit c.
Proof. unfold letter_or_digit_b, letter_or_digit. rewrite !orb_true_iff, !andb_true_iff, !N.leb_le. lia. Qed.
Lemma Forall_b (P : ascii -> Prop) b l : (forall c, b c = true -> P c) -> forallb b l = true -> Forall P l.
Proof. intros H. rewrite forallb_forall, Forall_forall. intros F x I. apply H, F, I. Qed.

(** A request that has an ID keeps it, whatever it is; another gets one of six letters or digits, and nothing else of it changes. *)
Theorem C79_request_id : forall draws r, table_ok (msg_table r) ->
  exists r', preprocessRequest draws r = r' /\ msg_method r' = msg_method r /\ msg_content r' = msg_content r /\
    (forall k v, ~ ieq k (lit "requestID") -> (has_header k (msg_table r') v <-> has_header k (msg_table r) v)) /\
    (forall v, has_header (lit "requestID") (msg_table r) v -> r' = r) /\
    (no_header (lit "requestID") (msg_table r) ->
      exists w, has_header (lit "requestID") (msg_table r') w /\ length w = 6 /\ Forall letter_or_digit w /\
        forall v, has_header (lit "requestID") (msg_table r') v -> v = w).
Proof.
  intros draws r O. eexists. split; [reflexivity|]. unfold preprocessRequest.
  destruct (tfind (lit "requestID") (msg_table r)) as [x|] eqn:F; cbn [msg_method msg_table msg_content].
  - split; [reflexivity|]. split; [reflexivity|]. split; [tauto|]. split; [reflexivity|]. intros A. apply tfind_none in A. congruence.
  - pose proof (tput_ok (lit "requestID") (random_text chars (size chars) draws 0 6) _ O) as O'.
    split; [reflexivity|]. split; [reflexivity|]. split; [|split].
    + intros k v D. rewrite <- !tfind_header by assumption. rewrite tfind_tput.
      destruct (kcmp k (lit "requestID")) eqn:E; try tauto. exfalso. apply D, ieqb_ieq, kcmp_eq, E.
    + intros v V. apply tfind_header in V; [congruence|assumption].
    + intros _. exists (random_text chars (size chars) draws 0 6).
      assert (T : tfind (lit "requestID") (tput (lit "requestID") (random_text chars (size chars) draws 0 6) (msg_table r)) = Some (random_text chars (size chars) draws 0 6)).
      { rewrite tfind_tput, kcmp_refl. reflexivity. }
      split; [apply tfind_header; assumption|]. split; [apply random_text_length|]. split.
      * apply random_text_in; [vm_compute; split; [reflexivity|discriminate]|]. apply (Forall_b _ letter_or_digit_b); [apply letter_or_digit_of|vm_compute; reflexivity].
      * intros v V. apply tfind_header in V; [congruence|assumption].
Qed.
Print Assumptions C79_request_id.
Example C79_request_id_case : table_ok (msg_table (mkMsg (lit "GetJob") [(lit "name", lit "x")] [])) /\ no_header (lit "requestID") [(lit "name", lit "x")].
Proof. split; [repeat constructor|]. intros k v [E|[]]. injection E as <- <-. discriminate. Qed.

(** Each text of six letters or digits can be given. *)
Fixpoint find_index (c : ascii) (l : bytes) : nat := match l with [] => 0 | d :: l' => if Ascii.eqb c d then 0 else S (find_index c l') end.
Lemma find_index_nth c l : In c l -> find_index c l < length l /\ nth (find_index c l) l " "%char = c.
Proof.
  induction l as [|d l IH]; [intros []|]. intros I. cbn [find_index]. destruct (Ascii.eqb c d) eqn:E.
  - apply Ascii.eqb_eq in E. subst d. cbn [length nth]. split; [lia|reflexivity].
  - destruct I as [->|I]; [rewrite Ascii.eqb_refl in E; discriminate|]. destruct (IH I). cbn [length nth]. split; [lia|assumption].
Qed.
Lemma random_text_any f w : (forall c, In c w -> In c f) -> forall d i, (forall j, j < length w -> d (i + j)%nat = N.of_nat (find_index (nth j w " "%char) f)) ->
  random_text f (size f) d i (length w) = w.
Proof.
  induction w as [|c w IH]; intros H d i D; cbn [length random_text]; [reflexivity|].
  f_equal.
  - specialize (D 0 ltac:(cbn [length]; lia)). rewrite Nat.add_0_r in D. cbn [nth] in D. rewrite D.
    destruct (find_index_nth c f (H c (or_introl eq_refl))) as [A B]. unfold char_at, size. rewrite N.mod_small by lia. rewrite Nat2N.id. exact B.
  - apply IH; [intros x I; apply H; right; exact I|]. intros j J. specialize (D (S j) ltac:(cbn [length]; lia)). rewrite Nat.add_succ_r in D. cbn [nth] in D. exact D.
Qed.
Lemma all_ascii (P : ascii -> Prop) (b : ascii -> bool) :
  forallb b (map ascii_of_nat (seq 0 256)) = true -> (forall c, b c = true -> P c) -> forall c, P c.
Proof.
  intros F H c. apply H. rewrite forallb_forall in F. apply F. rewrite <- (ascii_nat_embedding c). apply in_map, in_seq.
  pose proof (nat_ascii_bounded c). lia.
Qed.
Lemma in_chars c : letter_or_digit c -> In c chars.
Proof.
  revert c. apply (all_ascii (fun c => letter_or_digit c -> In c chars) (fun c => negb (letter_or_digit_b c) || existsb (Ascii.eqb c) chars)); [vm_compute; reflexivity|].
  intros c H L. apply orb_true_iff in H. destruct H as [H|H].
  - exfalso. apply negb_true_iff in H. unfold letter_or_digit_b, letter_or_digit in *. rewrite !orb_false_iff, !andb_false_iff, !N.leb_gt in H. lia.
  - apply existsb_exists in H. destruct H as (x & I & E). apply Ascii.eqb_eq in E. subst. exact I.
Qed.
Theorem C79_any_request_id : forall r w, table_ok (msg_table r) -> no_header (lit "requestID") (msg_table r) -> length w = 6 -> Forall letter_or_digit w ->
  exists draws, (forall i, (draws i < 2 ^ 64)%N) /\ has_header (lit "requestID") (msg_table (preprocessRequest draws r)) w.
Proof.
  intros r w O N L F. exists (fun j => N.of_nat (find_index (nth j w " "%char) chars)). split.
  - intros i. assert (B : find_index (nth i w " "%char) chars <= length chars).
    { generalize (nth i w " "%char). intros c. induction chars as [|d l IH]; cbn [find_index length]; [lia|]. destruct (Ascii.eqb c d); lia. }
    change (length chars) with 62 in B. assert (E : (N.of_nat 62 < 2 ^ 64)%N) by reflexivity. lia.
  - unfold preprocessRequest. apply tfind_none in N. rewrite N. cbn [msg_table]. apply tfind_header; [apply tput_ok, O|].
    rewrite tfind_tput, kcmp_refl. f_equal. rewrite <- L. apply random_text_any.
    + intros c I. apply in_chars. rewrite Forall_forall in F. apply F, I.
    + reflexivity.
Qed.
Print Assumptions C79_any_request_id.
Example C79_any_request_id_case : Forall letter_or_digit (lit "zZ09aA").
Proof. apply (Forall_b _ letter_or_digit_b); [apply letter_or_digit_of|vm_compute; reflexivity]. Qed.

(** False: a random text made for other purposes (SRandom::randStr) can hold every letter and digit.  The letter z never occurs in it:
    the remainder is taken by one less than the number of characters. *)
Theorem C79_random_text_refuted : forall draws len, ~ In "z"%char (randStr draws len).
Proof.
  intros draws len I. unfold randStr in I.
  assert (F : Forall (fun c => c <> "z"%char) (random_text randStr_chars (size randStr_chars - 1) draws 0 len)).
  { apply random_text_in; [vm_compute; split; [reflexivity|discriminate]|]. apply (Forall_b _ (fun c => negb (Ascii.eqb c "z"))); [|vm_compute; reflexivity].
    intros c H ->. discriminate. }
  rewrite Forall_forall in F. exact (F _ I eq_refl).
Qed.
Print Assumptions C79_random_text_refuted.

(** ** The plugin *)
(** The plugins are asked in their order; the first that does not decline decides, and only the name of who handles the command, the request
    and the answer depend on it.  Without such a plugin the command is kept for the server itself. *)
Lemma dispatch l r id :
  (exists before g after, l = before ++ g :: after /\ (forall b, In b before -> g_get b r id = Declined) /\ g_get g r id <> Declined) \/
  (forall g, In g l -> g_get g r id = Declined).
Proof.
  induction l as [|g l IH]; [right; intros ? []|]. destruct (g_get g r id) eqn:E.
  - destruct IH as [(b & g' & a & -> & B & G)|A].
    + left. exists (g :: b), g', a. split; [reflexivity|]. split; [|exact G]. intros x [<-|I]; auto.
    + right. intros x [<-|I]; auto.
  - left. exists [], g, l. split; [reflexivity|]. split; [intros ? []|congruence].
  - left. exists [], g, l. split; [reflexivity|]. split; [intros ? []|congruence].
  - left. exists [], g, l. split; [reflexivity|]. split; [intros ? []|congruence].
Qed.
Lemma from_plugins_skip before g after r id : (forall b, In b before -> g_get b r id = Declined) -> from_plugins (before ++ g :: after) r id = from_plugins (g :: after) r id.
Proof.
  induction before as [|b l IH]; intros B; [reflexivity|]. change ((b :: l) ++ g :: after) with (b :: (l ++ g :: after)). cbn [from_plugins]. rewrite (B b (or_introl eq_refl)).
  apply IH. intros x I. apply B. right. exact I.
Qed.
Lemma from_plugins_none l r id : (forall b, In b l -> g_get b r id = Declined) -> from_plugins l r id = Command None r id false nothing.
Proof.
  induction l as [|b l IH]; intros B; [reflexivity|]. cbn [from_plugins]. rewrite (B b (or_introl eq_refl)). apply IH. intros x I. apply B. right. exact I.
Qed.
Definition decides (l : list plugin) (g : plugin) (r : message) (id : bytes) : Prop :=
  exists before after, l = before ++ g :: after /\ (forall b, In b before -> g_get b r id = Declined).
Theorem C79_plugin : forall l n draws request,
  exists c n' r id, getCommandFromPlugins l n draws request = (c, n') /\ r = preprocessRequest draws request /\ m_id c = id /\
    (forall g, decides l g r id ->
      (g_get g r id = Accepted -> c = Command (Some (g_name g)) r id false nothing) /\
      (forall what headers body, g_get g r id = Fails what headers body -> c = Command None nothing id true (mkMsg what headers body)) /\
      (g_get g r id = Breaks -> c = Command None nothing id true (mkMsg (lit "500 Internal server error") [] []))) /\
    ((forall g, In g l -> g_get g r id = Declined) -> c = Command None r id false nothing).
Proof.
  intros l n draws request. unfold getCommandFromPlugins.
  destruct (match tfind (lit "ID") (msg_table (preprocessRequest draws request)) with Some v => (v, n) | None => generateCommandID n end) as [id n'].
  eexists _, _, (preprocessRequest draws request), id. split; [reflexivity|]. split; [reflexivity|]. split; [reflexivity|]. split.
  - intros g (before & after & -> & B). rewrite from_plugins_skip by exact B. cbn [from_plugins].
    split; [intros ->; reflexivity|]. split; [intros what headers body ->; reflexivity|intros ->; reflexivity].
  - intros A. rewrite from_plugins_none by exact A. reflexivity.
Qed.
Print Assumptions C79_plugin.
Example C79_plugin_case : decides (own_plugins (fun _ _ _ => Accepted)) (takes_if (fun _ _ _ => Accepted) (lit "DB") db_takes) (mkMsg (lit "Query: SELECT 1;") [] []) (lit "n#0").
Proof. exists [takes_if (fun _ _ _ => Accepted) (lit "Cache") cache_takes], [takes_if (fun _ _ _ => Accepted) (lit "Jobs") jobs_takes; takes_if (fun _ _ _ => Accepted) (lit "MySQL") (fun _ => false)].
  split; [reflexivity|]. intros b [<-|[]]. vm_compute. reflexivity. Qed.

(** Each request is taken by at most one of the plugins of this repository, so their order makes no difference. *)
Lemma starts_map s n : starts (map lower s) n = true -> exists t, map lower s = n ++ t.
Proof.
  generalize (map lower s). clear s. induction n as [|c n IH]; intros s H; [exists s; reflexivity|].
  destruct s as [|d s]; [discriminate|]. cbn [starts] in H. apply andb_true_iff in H. destruct H as [E H]. apply Ascii.eqb_eq in E. subst d.
  destruct (IH _ H) as [t ->]. exists t. reflexivity.
Qed.
Lemma starts_app n t : starts (n ++ t) n = true.
Proof. induction n as [|c n IH]; [destruct t; reflexivity|]. cbn [app starts]. rewrite Ascii.eqb_refl, IH. reflexivity. Qed.
Lemma verb_starts s : forall n t, ~ In " "%char n -> map lower s = n ++ t -> exists t', map lower (verb s) = n ++ t'.
Proof.
  induction s as [|c s IH]; intros n t A E.
  - destruct n as [|x n]; [exists []; reflexivity|discriminate].
  - destruct n as [|x n]; [eexists; reflexivity|]. cbn [map app] in E. injection E as E1 E2. cbn [verb].
    destruct (Ascii.eqb c " ") eqn:C.
    + exfalso. apply Ascii.eqb_eq in C. subst c. apply A. left. rewrite <- E1. reflexivity.
    + destruct (IH n t ltac:(intros I; apply A; right; exact I) E2) as [t' T]. exists t'. cbn [map app]. rewrite T, E1. reflexivity.
Qed.
Lemma among_in v l : among v l = true -> exists x, In x l /\ map lower v = map lower x.
Proof. intros H. apply existsb_exists in H. destruct H as (x & I & E). exists x. split; [exact I|]. apply bytes_eqb_eq, E. Qed.
Lemma db_verb r : db_takes r = true -> map lower (verb (msg_method r)) = map lower (lit "Query") \/ exists t, map lower (verb (msg_method r)) = lit "query:" ++ t.
Proof.
  unfold db_takes. rewrite orb_true_iff. intros [H|H].
  - right. apply starts_map in H. destruct H as [t H]. eapply verb_starts; [|exact H]. vm_compute. intuition discriminate.
  - left. apply bytes_eqb_eq, H.
Qed.
Lemma not_both_1 r : cache_takes r = true -> db_takes r = true -> False.
Proof.
  intros C D. apply among_in in C. destruct C as (x & I & E). apply db_verb in D. rewrite E in D. clear E.
  destruct I as [<-|[<-|[]]]; destruct D as [D|[t D]]; vm_compute in D; discriminate.
Qed.
Lemma not_both_2 r : cache_takes r = true -> jobs_takes r = true -> False.
Proof.
  intros C D. apply among_in in C. destruct C as (x & I & E). apply among_in in D. destruct D as (y & J & F). rewrite E in F. clear E.
  assert (G : existsb (fun x => existsb (fun y => bytes_eqb (map lower x) (map lower y)) jobs_verbs) cache_verbs = true).
  { apply existsb_exists. exists x. split; [exact I|]. apply existsb_exists. exists y. split; [exact J|]. apply bytes_eqb_eq, F. }
  vm_compute in G. discriminate.
Qed.
Lemma not_both_3 r : jobs_takes r = true -> db_takes r = true -> False.
Proof.
  intros C D. apply among_in in C. destruct C as (x & I & E). apply db_verb in D. rewrite E in D. clear E.
  assert (G : forallb (fun x => negb (bytes_eqb (map lower x) (map lower (lit "Query"))) && negb (starts (map lower x) (lit "query:"))) jobs_verbs = true) by (vm_compute; reflexivity).
  rewrite forallb_forall in G. specialize (G x I). apply andb_true_iff in G. destruct G as [G1 G2]. destruct D as [D|[t D]].
  - rewrite D, (proj2 (bytes_eqb_eq _ _) eq_refl) in G1. discriminate.
  - rewrite D, starts_app in G2. discriminate.
Qed.
Lemma own_once make g g' r id : In g (own_plugins make) -> In g' (own_plugins make) -> g_get g r id <> Declined -> g_get g' r id <> Declined -> g = g'.
Proof.
  unfold own_plugins. intros I J A B. cbn [In] in I, J.
  pose proof (not_both_1 r) as X. pose proof (not_both_2 r) as Y. pose proof (not_both_3 r) as Z.
  destruct I as [<-|[<-|[<-|[<-|[]]]]]; destruct J as [<-|[<-|[<-|[<-|[]]]]]; try reflexivity; exfalso; cbn [takes_if g_get] in A, B;
    destruct (cache_takes r), (db_takes r), (jobs_takes r); auto.
Qed.
Lemma from_plugins_perm l l' r id : Permutation l l' -> (forall g g', In g l -> In g' l -> g_get g r id <> Declined -> g_get g' r id <> Declined -> g = g') ->
  from_plugins l' r id = from_plugins l r id.
Proof.
  intros P U. destruct (dispatch l r id) as [(b & g & a & E & B & G)|A].
  - destruct (dispatch l' r id) as [(b' & g' & a' & E' & B' & G')|A'].
    + assert (g' = g) as ->.
      { apply U; auto; [apply (Permutation_in _ (Permutation_sym P)); rewrite E'|rewrite E]; apply in_or_app; right; left; reflexivity. }
      rewrite E, E', !from_plugins_skip by assumption. cbn [from_plugins]. destruct (g_get g r id); [contradiction|reflexivity..].
    + exfalso. apply G, A'. apply (Permutation_in _ P). rewrite E. apply in_or_app; right; left; reflexivity.
  - rewrite (from_plugins_none l) by exact A. apply from_plugins_none. intros x I. apply A. apply (Permutation_in _ (Permutation_sym P)), I.
Qed.
Theorem C79_own_plugins : forall make l n draws request, Permutation (own_plugins make) l ->
  getCommandFromPlugins l n draws request = getCommandFromPlugins (own_plugins make) n draws request /\
  (forall g g' r id, In g l -> In g' l -> g_get g r id <> Declined -> g_get g' r id <> Declined -> g = g').
Proof.
  intros make l n draws request P. split.
  - unfold getCommandFromPlugins. destruct (match tfind _ _ with Some v => (v, n) | None => generateCommandID n end) as [id n'].
    rewrite (from_plugins_perm _ _ _ id P); [reflexivity|]. intros g g'. apply own_once.
  - intros g g' r id I J. apply (own_once make); apply (Permutation_in _ (Permutation_sym P)); assumption.
Qed.
Print Assumptions C79_own_plugins.

(** ** IDs of commands *)
Lemma kcmp_ID_requestID : kcmp (lit "ID") (lit "requestID") = Lt.
Proof. vm_compute. reflexivity. Qed.
Lemma tfind_ID draws r : tfind (lit "ID") (msg_table (preprocessRequest draws r)) = tfind (lit "ID") (msg_table r).
Proof.
  unfold preprocessRequest. destruct (tfind (lit "requestID") (msg_table r)); [reflexivity|]. cbn [msg_table]. rewrite tfind_tput, kcmp_ID_requestID. reflexivity.
Qed.
Lemma made_id l n draws r : m_id (fst (getCommandFromPlugins l n draws r)) = match tfind (lit "ID") (msg_table r) with Some v => v | None => n_name n ++ "#"%char :: dec (n_count n) end.
Proof. unfold getCommandFromPlugins. rewrite tfind_ID. destruct (tfind (lit "ID") (msg_table r)); reflexivity. Qed.
Lemma made_node l n draws r : snd (getCommandFromPlugins l n draws r) = match tfind (lit "ID") (msg_table r) with Some v => n | None => Node (n_name n) ((n_count n + 1) mod 2 ^ 64) end.
Proof. unfold getCommandFromPlugins. rewrite tfind_ID. destruct (tfind (lit "ID") (msg_table r)); reflexivity. Qed.

(** A command has the ID of its request, or the name of the node and a number; also if making it failed.  A command that is sent on has
    the same ID where it arrives. *)
Theorem C79_id : forall l n draws r, table_ok (msg_table r) ->
  (forall v, has_header (lit "ID") (msg_table r) v -> m_id (fst (getCommandFromPlugins l n draws r)) = v) /\
  (no_header (lit "ID") (msg_table r) -> m_id (fst (getCommandFromPlugins l n draws r)) = n_name n ++ lit "#" ++ dec (n_count n)) /\
  (forall l' n' draws', m_id (fst (getCommandFromPlugins l' n' draws' (sent_on (fst (getCommandFromPlugins l n draws r))))) = m_id (fst (getCommandFromPlugins l n draws r))).
Proof.
  intros l n draws r O. split; [|split].
  - intros v V. rewrite made_id. apply tfind_header in V; [|exact O]. rewrite V. reflexivity.
  - intros A. rewrite made_id. apply tfind_none in A. rewrite A. reflexivity.
  - intros l' n' draws'. rewrite made_id. unfold sent_on. cbn [msg_table]. rewrite tfind_tput, kcmp_refl. reflexivity.
Qed.
Print Assumptions C79_id.
Example C79_id_case : table_ok [(lit "id", lit "other#7")] /\ has_header (lit "ID") [(lit "id", lit "other#7")] (lit "other#7").
Proof. split; [repeat constructor|]. exists (lit "id"). split; [left; reflexivity|vm_compute; reflexivity]. Qed.

Lemma no_hash n : ~ In "#"%char (dec n).
Proof. intros I. pose proof (dec_digits n) as D. rewrite forallb_forall in D. specialize (D _ I). vm_compute in D. discriminate. Qed.
Lemma last_split (a b x y : bytes) (c : ascii) : ~ In c x -> ~ In c y -> a ++ c :: x = b ++ c :: y -> a = b /\ x = y.
Proof.
  revert b. induction a as [|u a IH]; intros [|v b] X Y E; cbn [app] in E.
  - injection E as ->. auto.
  - injection E as -> E. exfalso. apply X. rewrite E. apply in_or_app. right. left. reflexivity.
  - injection E as -> E. exfalso. apply Y. rewrite <- E. apply in_or_app. right. left. reflexivity.
  - injection E as -> E. destruct (IH _ X Y E) as [-> ->]. auto.
Qed.
Lemma id_inj a b m n : a ++ "#"%char :: dec m = b ++ "#"%char :: dec n -> a = b /\ m = n.
Proof. intros E. apply last_split in E; try apply no_hash. destruct E as [-> E]. apply dec_inj in E. auto. Qed.

Definition new (p : message * command) : bool := match tfind (lit "ID") (msg_table (fst p)) with Some _ => false | None => true end.
Lemma on_node_asked l name draws r nodes :
  (~ In name (map n_name nodes) /\ on_node name (fun n => let (c, n') := getCommandFromPlugins l n draws r in (Some c, n')) nodes = (None, nodes)) \/
  (exists a n b, nodes = a ++ n :: b /\ n_name n = name /\
    on_node name (fun n => let (c, n') := getCommandFromPlugins l n draws r in (Some c, n')) nodes =
      (Some (fst (getCommandFromPlugins l n draws r)), a ++ snd (getCommandFromPlugins l n draws r) :: b)).
Proof.
  induction nodes as [|n nodes IH]; [left; split; [intros []|reflexivity]|]. cbn [on_node]. destruct (bytes_eqb (n_name n) name) eqn:E.
  - apply bytes_eqb_eq in E. right. exists [], n, nodes. split; [reflexivity|]. split; [exact E|]. destruct (getCommandFromPlugins l n draws r). reflexivity.
  - destruct IH as [[A ->]|(a & m & b & -> & M & ->)].
    + left. split; [|reflexivity]. cbn [map]. intros [X|X]; [|auto]. subst name. rewrite (proj2 (bytes_eqb_eq _ _) eq_refl) in E. discriminate.
    + right. exists (n :: a), m, b. split; [reflexivity|]. split; [exact M|reflexivity].
Qed.
Lemma history_unique l : forall h nodes, (forall n, ~ In (Restarted n) h) -> NoDup (map n_name nodes) ->
  (forall n, In n nodes -> (n_count n + N.of_nat (length h) <= 2 ^ 64)%N) ->
  NoDup (map (fun p => m_id (snd p)) (filter new (history l nodes h))) /\
  (forall p, In p (filter new (history l nodes h)) -> exists n k, In n nodes /\ (n_count n <= k)%N /\ m_id (snd p) = n_name n ++ "#"%char :: dec k).
Proof.
  induction h as [|e h IH]; intros nodes R D B; [split; [constructor|intros ? []]|].
  destruct e as [name draws r|name]; [|exfalso; apply (R name); left; reflexivity].
  cbn [history]. destruct (on_node_asked l name draws r nodes) as [[A ->]|(a & n & b & -> & M & ->)].
  - apply IH; [intros n I; apply (R n); right; exact I|exact D|]. intros n I. specialize (B n I). cbn [length] in B. lia.
  - rewrite made_node. pose proof (B n ltac:(apply in_or_app; right; left; reflexivity)) as Bn. cbn [length] in Bn.
    assert (R' : forall m, ~ In (Restarted m) h) by (intros m I; apply (R m); right; exact I).
    cbn [filter]. assert (Hw : forall c, new (r, c) = match tfind (lit "ID") (msg_table r) with Some _ => false | None => true end) by reflexivity.
    rewrite !Hw. clear Hw. destruct (tfind (lit "ID") (msg_table r)) eqn:F.
    + apply IH; [exact R'|exact D|]. intros m I. specialize (B m I). cbn [length] in B. lia.
    + set (n' := Node (n_name n) ((n_count n + 1) mod 2 ^ 64)).
      destruct (N.eq_dec (N.of_nat (length h)) 0) as [Z|Z].
      { destruct h as [|? h]; [|cbn [length] in Z; lia]. cbn [history filter map In snd]. split; [apply NoDup_cons; [intros []|constructor]|].
        intros p [<-|[]]. exists n, (n_count n). split; [apply in_or_app; right; left; reflexivity|]. split; [lia|]. cbn [snd]. rewrite made_id, F. reflexivity. }
      assert (C : n_count n' = (n_count n + 1)%N) by (unfold n'; cbn [n_count]; apply N.mod_small; lia).
      destruct (IH (a ++ n' :: b)) as [I1 I2]; [exact R'| | |].
      * rewrite map_app in *. exact D.
      * intros m I. apply in_app_or in I. destruct I as [I|[<-|I]].
        -- specialize (B m ltac:(apply in_or_app; left; exact I)). cbn [length] in B. lia.
        -- rewrite C. lia.
        -- specialize (B m ltac:(apply in_or_app; right; right; exact I)). cbn [length] in B. lia.
      * split.
        -- cbn [map snd]. apply NoDup_cons; [|exact I1]. rewrite made_id, F. intros I. apply in_map_iff in I. destruct I as (p & E & I).
           destruct (I2 p I) as (m & k & Im & K & Ep). rewrite Ep in E. apply id_inj in E. destruct E as [E1 E2]. subst k.
           apply in_app_or in Im. rewrite map_app in D. cbn [map] in D. apply NoDup_remove_2 in D.
           destruct Im as [Im|[<-|Im]]; [| lia |]; apply D; rewrite <- E1; apply in_or_app; [left|right]; apply in_map, Im.
        -- intros p [<-|I].
           ++ exists n, (n_count n). split; [apply in_or_app; right; left; reflexivity|]. split; [lia|]. cbn [snd]. rewrite made_id, F. reflexivity.
           ++ destruct (I2 p I) as (m & k & Im & K & Ep). apply in_app_or in Im. destruct Im as [Im|[<-|Im]].
              ** exists m, k. split; [apply in_or_app; left; exact Im|]. auto.
              ** exists n, k. split; [apply in_or_app; right; left; reflexivity|]. split; [lia|exact Ep].
              ** exists m, k. split; [apply in_or_app; right; right; exact Im|]. auto.
Qed.
(** While no node starts again, no two of the IDs that nodes of different names give are the same: in whatever order requests come, a position
    of the history is determined by the ID of its command. *)
Theorem C79_unique : forall plugins names h, NoDup names -> (forall n, ~ In (Restarted n) h) -> (N.of_nat (length h) <= 2 ^ 64)%N ->
  forall i j r r' c c', nth_error (history plugins (map (fun n => Node n 0) names) h) i = Some (r, c) ->
    nth_error (history plugins (map (fun n => Node n 0) names) h) j = Some (r', c') ->
    no_header (lit "ID") (msg_table r) -> no_header (lit "ID") (msg_table r') -> m_id c = m_id c' -> i = j.
Proof.
  intros plugins names h D R L. destruct (history_unique plugins h (map (fun n => Node n 0) names)) as [U _]; [exact R| | |].
  - rewrite map_map. cbn [n_name]. rewrite map_id. exact D.
  - intros n I. apply in_map_iff in I. destruct I as (x & <- & _). cbn [n_count]. lia.
  - revert U. generalize (history plugins (map (fun n => Node n 0) names) h). clear. intros H U i j r r' c c' I J A B E. revert i j U I J.
    assert (G : forall l k r c, nth_error l k = Some (r, c) -> no_header (lit "ID") (msg_table r) -> In (m_id c) (map (fun p => m_id (snd p)) (filter new l))).
    { intros l k x d N X. apply in_map_iff. exists (x, d). split; [reflexivity|]. apply filter_In. split; [eapply nth_error_In, N|]. unfold new. cbn [fst].
      apply tfind_none in X. rewrite X. reflexivity. }
    induction H as [|p H IH]; intros i j U I J; [destruct i; discriminate|]. cbn [filter] in U.
    destruct i as [|i], j as [|j]; cbn [nth_error] in I, J; [reflexivity| | |].
    + injection I as ->. exfalso. unfold new in U at 1. cbn [fst] in U. apply tfind_none in A. rewrite A in U. cbn [map snd] in U. inversion U as [|? ? X _]; subst.
      apply X. rewrite E. eapply G; eassumption.
    + injection J as ->. exfalso. unfold new in U at 1. cbn [fst] in U. apply tfind_none in B. rewrite B in U. cbn [map snd] in U. inversion U as [|? ? X _]; subst.
      apply X. rewrite <- E. eapply G; eassumption.
    + f_equal. apply IH; [|exact I|exact J]. destruct (new p); [inversion U; assumption|exact U].
Qed.
Print Assumptions C79_unique.
Definition ping : message := mkMsg (lit "Ping") [] [].
Definition pings (names : list bytes) : list event := map (fun n => Asked n (fun _ => 0%N) ping) names.
Example C79_unique_case : map (fun p => m_id (snd p)) (history [] (map (fun n => Node n 0) [lit "a"; lit "a#0"]) (pings [lit "a"; lit "a#0"; lit "a"; lit "a"])) =
  [lit "a#0"; lit "a#0#0"; lit "a#1"; lit "a#2"].
Proof. vm_compute. reflexivity. Qed.

(** False: IDs are not repeated.  The number starts at 0 again with each start of the process and each time a node is attached again, so the IDs
    given before are given again. *)
Theorem C79_restart_refuted : forall plugins name draws draws' r r', no_header (lit "ID") (msg_table r) -> no_header (lit "ID") (msg_table r') ->
  exists c c', history plugins [Node name 0] [Asked name draws r; Restarted name; Asked name draws' r'] = [(r, c); (r', c')] /\ m_id c = m_id c'.
Proof.
  intros plugins name draws draws' r r' A B. apply tfind_none in A. apply tfind_none in B.
  exists (fst (getCommandFromPlugins plugins (Node name 0) draws r)), (fst (getCommandFromPlugins plugins (Node name 0) draws' r')).
  pose proof (made_node plugins (Node name 0) draws r) as Hn. cbn [history on_node n_name]. rewrite !(proj2 (bytes_eqb_eq _ _) eq_refl).
  destruct (getCommandFromPlugins plugins (Node name 0) draws r) as [c n] eqn:E1. cbn [snd fst] in *. rewrite A in Hn. subst n. cbn [on_node n_name resetServer].
  rewrite (proj2 (bytes_eqb_eq _ _) eq_refl). unfold resetServer. cbn [n_name on_node]. rewrite (proj2 (bytes_eqb_eq _ _) eq_refl).
  destruct (getCommandFromPlugins plugins (Node name 0) draws' r') as [c' n'] eqn:E2. cbn [fst]. split; [reflexivity|].
  pose proof (made_id plugins (Node name 0) draws r) as M. pose proof (made_id plugins (Node name 0) draws' r') as M'. rewrite E1, A in M. rewrite E2, B in M'.
  cbn [fst n_name n_count] in *. congruence.
Qed.
Print Assumptions C79_restart_refuted.
(** False: the ID of a command is unique in the cluster.  The header ID is taken from any client, on any port, so a client can choose the ID of
    another command, or none at all. *)
Theorem C79_chosen_refuted : forall plugins n draws method content v, m_id (fst (getCommandFromPlugins plugins n draws (mkMsg method [(lit "id", v)] content))) = v.
Proof. intros. rewrite made_id. cbn [msg_table]. unfold tfind. replace (kcmp (lit "ID") (lit "id")) with Eq by (vm_compute; reflexivity). reflexivity. Qed.
Print Assumptions C79_chosen_refuted.

(** ** The follower *)
Definition by_name (p q : peer) : Prop := lex (p_name p) (p_name q) = Lt.
Lemma lower_bound_found p l : StronglySorted by_name l -> In p l -> lower_bound (p_name p) l = Some p.
Proof.
  induction 1 as [|q l SS IH F]; [intros []|]. intros [->|I]; cbn [lower_bound].
  - rewrite (proj2 (lex_eq _ _) eq_refl). reflexivity.
  - rewrite Forall_forall in F. rewrite (F p I). apply IH, I.
Qed.
Lemma by_name_found p l : StronglySorted by_name l -> In p l -> getPeerByName (p_name p) l = Some p.
Proof. intros SS I. unfold getPeerByName. rewrite lower_bound_found by assumption. rewrite (proj2 (bytes_eqb_eq _ _) eq_refl). reflexivity. Qed.
Lemma chosen draw v peers : v <> [] -> length (filter (valid v) peers) <> 0 ->
  getEligibleFollowerForForwardingAddress draw v peers =
  match getPeerByName (nth (N.to_nat (draw mod N.of_nat (length (filter (valid v) peers)))) (map p_name (filter (valid v) peers)) []) peers with
  | Some p => Some (p_address p) | None => None end.
Proof.
  intros V L. unfold getEligibleFollowerForForwardingAddress. destruct v; [contradiction|].
  rewrite <- (map_length p_name (filter _ peers)) in *. destruct (map p_name (filter _ peers)); [cbn [length] in L; lia|reflexivity].
Qed.
Lemma valid_iff v p : valid v p = true <-> p_version p = v /\ p_state p = FOLLOWING.
Proof. unfold valid. rewrite andb_true_iff, bytes_eqb_eq. destruct (p_state p); split; intros [? ?]; split; auto; discriminate. Qed.
(** If the names of the peers differ, a command is sent to a follower with the version of the leader, each of them can be chosen, and
    only if there is none the address is empty. *)
Theorem C79_follower : forall v peers, StronglySorted (fun p q => lex (p_name p) (p_name q) = Lt) peers ->
  let fits p := In p peers /\ v <> [] /\ p_version p = v /\ p_state p = FOLLOWING in
  (forall draw, (exists p, fits p /\ getEligibleFollowerForForwardingAddress draw v peers = Some (p_address p)) \/
                ((forall p, ~ fits p) /\ getEligibleFollowerForForwardingAddress draw v peers = Some [])) /\
  (forall p, fits p -> exists draw, (draw < N.of_nat (length peers))%N /\ getEligibleFollowerForForwardingAddress draw v peers = Some (p_address p)).
Proof.
  intros v peers SS fits.
  assert (Fi : forall p, fits p <-> In p peers /\ v <> [] /\ p_version p = v /\ p_state p = FOLLOWING) by (intros p; reflexivity). clearbody fits.
  destruct v as [|c w].
  - split; [intros draw; right; split; [intros p X; apply Fi in X; destruct X as (_ & X & _); congruence|reflexivity]|]. intros p X. apply Fi in X. destruct X as (_ & X & _). congruence.
  - set (v' := c :: w) in *. assert (NE : v' <> []) by discriminate.
    pose proof (fun draw => chosen draw v' peers NE) as CH. set (ok := filter (valid v') peers) in *.
    assert (OK : forall p, In p ok <-> fits p).
    { intros p. rewrite Fi. unfold ok. rewrite filter_In, valid_iff. tauto. }
    assert (AT : forall k d, k < length ok -> nth k (map p_name ok) [] = p_name (nth k ok d)).
    { intros k d K. rewrite (nth_indep _ [] (p_name d)) by (rewrite map_length; exact K). apply map_nth. }
    split.
    + intros draw. destruct (Nat.eq_dec (length ok) 0) as [Z|Z].
      * right. apply length_zero_iff_nil in Z. split; [intros p X; apply OK in X; rewrite Z in X; destruct X|].
        unfold getEligibleFollowerForForwardingAddress. fold v'. fold ok. rewrite Z. reflexivity.
      * left. rewrite (CH draw Z). set (k := N.to_nat (draw mod N.of_nat (length ok))). assert (K : k < length ok).
        { unfold k. pose proof (N.mod_lt draw (N.of_nat (length ok))). lia. }
        assert (p0 : peer) by (destruct ok as [|p0 ?]; [cbn in K; lia|exact p0]).
        exists (nth k ok p0). split; [apply OK, nth_In, K|]. rewrite (AT k p0 K).
        rewrite by_name_found; [reflexivity|exact SS|]. exact (proj1 (proj1 (Fi _) (proj1 (OK _) (nth_In _ _ K)))).
    + intros p X. apply OK in X. destruct (In_nth _ _ p X) as (k & K & Ek).
      exists (N.of_nat k). assert (LO : length ok <= length peers).
      { unfold ok. clear. induction peers as [|q l IH]; cbn [filter length]; [lia|]. destruct (valid v' q); cbn [length]; lia. }
      split; [lia|]. rewrite CH by lia. rewrite N.mod_small by lia. rewrite Nat2N.id, (AT k p K), Ek.
      rewrite by_name_found; [reflexivity|exact SS|]. exact (proj1 (proj1 (Fi _) (proj1 (OK _) X))).
Qed.
Print Assumptions C79_follower.
Definition three : list peer :=
  [Peer (lit "a") (lit "v1") LEADING (lit "a:1"); Peer (lit "b") (lit "v2") FOLLOWING (lit "b:1"); Peer (lit "c") (lit "v1") FOLLOWING (lit "c:1")].
Example C79_follower_case : StronglySorted (fun p q => lex (p_name p) (p_name q) = Lt) three /\ getEligibleFollowerForForwardingAddress 7 (lit "v1") three = Some (lit "c:1").
Proof. split; [|vm_compute; reflexivity]. repeat (apply SSorted_cons; [|repeat constructor]). apply SSorted_nil. Qed.
(** False: a command is sent to a follower with the version of the leader also if two peers have the same name, as peers on one host without
    a name have (C70).  The peer is looked up again by its name, and the first of that name is taken, whatever its version and state. *)
Theorem C79_same_name_refuted : exists peers p q, peers = [p; q] /\ p_name p = p_name q /\ p_state p = LEADING /\ p_version q = lit "v1" /\ p_state q = FOLLOWING /\
  forall draw, getEligibleFollowerForForwardingAddress draw (lit "v1") peers = Some (p_address p) /\ p_address p <> p_address q.
Proof.
  exists [Peer (lit "h") (lit "v1") LEADING (lit "h:1"); Peer (lit "h") (lit "v1") FOLLOWING (lit "h:2")], (Peer (lit "h") (lit "v1") LEADING (lit "h:1")), (Peer (lit "h") (lit "v1") FOLLOWING (lit "h:2")).
  repeat (split; [reflexivity|]). intros draw. split; [|discriminate].
  rewrite chosen; [|discriminate|vm_compute; discriminate].
  match goal with |- context [N.of_nat ?x] => replace x with 1 by (vm_compute; reflexivity) end.
  rewrite N.mod_1_r. vm_compute. reflexivity.
Qed.
Print Assumptions C79_same_name_refuted.

(** The version of the leader is the own one while leading and otherwise that of the peer that leads, if there is one. *)
Theorem C79_leader_version : forall own s lead,
  (s = LEADING \/ s = STANDINGDOWN -> getLeaderVersion own s lead = own) /\
  (s <> LEADING -> s <> STANDINGDOWN -> getLeaderVersion own s lead = match lead with Some p => p_version p | None => [] end).
Proof. intros own s lead. destruct s; cbn [getLeaderVersion]; split; intros; try reflexivity; try congruence; intuition discriminate. Qed.
Print Assumptions C79_leader_version.

(** ** States *)
(** Each state is found again from its name, in upper or lower case; another text is no state. *)
Lemma upper_lower c : upper (lower c) = upper c.
Proof.
  revert c. apply (all_ascii (fun c => upper (lower c) = upper c) (fun c => Ascii.eqb (upper (lower c)) (upper c))); [vm_compute; reflexivity|]. intros c H. apply Ascii.eqb_eq, H.
Qed.
Lemma upper_ieq a b : ieq a b -> SToUpper a = SToUpper b.
Proof.
  unfold ieq, SToUpper. intros E. assert (U : forall l, map upper l = map upper (map lower l)).
  { intros l. rewrite map_map. apply map_ext. intros c. rewrite upper_lower. reflexivity. }
  rewrite (U a), (U b), E. reflexivity.
Qed.
Lemma lower_upper c : lower (upper c) = lower c.
Proof.
  revert c. apply (all_ascii (fun c => lower (upper c) = lower c) (fun c => Ascii.eqb (lower (upper c)) (lower c))); [vm_compute; reflexivity|]. intros c H. apply Ascii.eqb_eq, H.
Qed.
Lemma ieq_upper a b : SToUpper a = b -> ieq a b.
Proof. unfold ieq, SToUpper. intros <-. rewrite map_map. apply map_ext. intros c. rewrite lower_upper. reflexivity. Qed.
Theorem C79_states : forall name,
  (forall s, ieq name (stateName s) -> stateFromName name = s) /\
  (stateFromName name <> UNKNOWN -> ieq name (stateName (stateFromName name))) /\
  (forall s s', stateName s = stateName s' -> s = s').
Proof.
  intros name. split; [|split].
  - intros s E. unfold stateFromName. rewrite (upper_ieq _ _ E). destruct s; vm_compute; reflexivity.
  - unfold stateFromName. destruct (List.find _ lookup) as [[t s]|] eqn:F; [|congruence]. intros _. apply List.find_some in F. cbn [fst] in F. destruct F as [I E].
    apply bytes_eqb_eq in E. apply ieq_upper. rewrite <- E. repeat (destruct I as [I|I]; [injection I as <- <-; reflexivity|]). destruct I.
  - intros s s' E. destruct s, s'; try reflexivity; vm_compute in E; discriminate.
Qed.
Print Assumptions C79_states.
Example C79_states_case : stateFromName (lit "Following") = FOLLOWING.
Proof. vm_compute. reflexivity. Qed.
