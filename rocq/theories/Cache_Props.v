(** C22: the cache stays within its size and evicts the least recently used entries. *)
From Verif Require Import Base Dec Text_Spec Text_Model Text_Proofs Cache_Spec Cache_Model Cache_Proofs Cache_Lru.
Local Open Scope Z_scope.

(** SQLite's choice for SELECT ... LIMIT 1 is a row of the table. *)
Definition picks_a_row (pick : list (bytes * bytes) -> bytes) : Prop := forall rows, rows <> [] -> In (pick rows) (names rows).
Definition pick_first (rows : list (bytes * bytes)) : bytes := hd [] (names rows).
Lemma pick_first_row : picks_a_row pick_first.
Proof. intros [|r rows] H; [congruence|left; reflexivity]. Qed.
Definition pick_last (rows : list (bytes * bytes)) : bytes := last (names rows) [].
Lemma pick_last_row : picks_a_row pick_last.
Proof.
  intros rows H. unfold pick_last. destruct (names rows) as [|x l] eqn:E; [destruct rows; [congruence|discriminate]|].
  clear. revert x. induction l as [|y l IH]; intros x; [left; reflexivity|]. right. apply IH.
Qed.
(** Patterns without wild cards, for the examples. *)
Definition exactly (pattern name : bytes) : bool := bytes_eqb pattern name.

Definition wr (n v : bytes) : write_request := mkWrite n v [] [].
Definition kv (n v : string) : write_request := wr (lit n) (lit v).

(** ** The limit *)
(** After any history of writes, lost writes, reads and restarts on any connections, a successful write leaves
    the recorded size within the limit, the recorded size covers the entries, names are unique and the entry
    is there with its value. *)
Theorem C22_within_limit max glob pick es recursive w c c' : 0 <= max ->
  run max glob pick init es = Done c -> write_cache max glob pick recursive w c = Done c' ->
  total chars (db c') <= csize c' <= max /\ NoDup (names (db c')) /\
  In (cstr (w_name w), cstr (w_value w)) (db c').
Proof.
  intros Hm H Hw. pose proof (run_inv max glob pick es init c (inv_init max Hm) H) as Hi.
  destruct (write_inv max glob pick recursive w c c' Hi Hw) as [[[H1 _] H2] H3]. auto.
Qed.
Print Assumptions C22_within_limit.

(** The same at every moment of every history. *)
Theorem C22_always_within_limit max glob pick es c : 0 <= max -> run max glob pick init es = Done c ->
  total chars (db c) <= csize c <= max /\ NoDup (names (db c)).
Proof.
  intros Hm H. destruct (run_inv max glob pick es init c (inv_init max Hm) H) as [[H1 _] H2]. auto.
Qed.
Print Assumptions C22_always_within_limit.

(** For ASCII values the size is the number of bytes. *)
Theorem C22_ascii_bytes max glob pick es c : 0 <= max -> run max glob pick init es = Done c ->
  (forall n v x, In (n, v) (db c) -> In x v -> (bcode x < 128)%N) ->
  total (fun v => Z.of_nat (List.length v)) (db c) <= max.
Proof.
  intros Hm H Ha. destruct (C22_always_within_limit max glob pick es c Hm H) as [H1 _].
  assert (E : total (fun v => Z.of_nat (List.length v)) (db c) = total chars (db c)); [|lia].
  clear - Ha. induction (db c) as [|[n v] l IH]; [reflexivity|]. unfold total in *. cbn [fold_right snd].
  rewrite IH by (intros a b x Hi; apply (Ha a b x); right; exact Hi). f_equal. symmetry. apply chars_ascii.
  intros x. apply (Ha n v x). left. reflexivity.
Qed.
Print Assumptions C22_ascii_bytes.

(** What was just written is what is read back. *)
Theorem C22_read_after_write max glob pick es recursive w c c' pattern : 0 <= max ->
  run max glob pick init es = Done c -> write_cache max glob pick recursive w c = Done c' ->
  glob (cstr pattern) (cstr (w_name w)) = true -> (1 <= List.length pattern <= 255)%nat ->
  exists c'', read_cache glob pattern (cstr (w_name w)) c' = Done (c'', cstr (w_value w)).
Proof.
  intros Hm H Hw Hg Hl. destruct (C22_within_limit _ _ _ _ _ _ _ _ Hm H Hw) as (_ & Hn & Hi).
  unfold read_cache. destruct (Nat.ltb_spec (List.length pattern) 1); [lia|]. destruct (Nat.ltb_spec 255 (List.length pattern)); [lia|]. cbn [orb].
  destruct (find (fun r => bytes_eqb (cstr (w_name w)) (fst r) && glob (cstr pattern) (fst r)) (db c')) as [[n v]|] eqn:F.
  - apply find_some in F as [F1 F2]. cbn [fst] in F2. apply andb_true_iff in F2 as [F2 _]. apply bytes_eqb_eq in F2. subst n.
    assert (v = cstr (w_value w)) as ->; [|eexists; reflexivity].
    clear - Hn Hi F1. induction (db c') as [|[a b] l IH]; [destruct Hi|]. unfold names in Hn. cbn [map fst] in Hn. inversion Hn as [|? ? N1 N2]; subst.
    destruct Hi as [Hi|Hi]; destruct F1 as [F1|F1].
    + congruence.
    + injection Hi as -> ->. exfalso. apply N1. apply in_map_iff. eexists. split; [|exact F1]. reflexivity.
    + injection F1 as -> ->. exfalso. apply N1. apply in_map_iff. eexists. split; [|exact Hi]. reflexivity.
    + apply IH; assumption.
  - exfalso. apply find_none with (x := (cstr (w_name w), cstr (w_value w))) in F; [|exact Hi]. cbn [fst] in F.
    rewrite bytes_eqb_refl, Hg in F. discriminate.
Qed.
Print Assumptions C22_read_after_write.

(** ** The server stays up *)
(** While writes run on connections whose triggers are recursive, and names have no NUL, the recorded size is
    exact and no history runs into the assertion or an endless loop. *)
Theorem C22_never_aborts max glob pick es : 0 <= max -> picks_a_row pick -> Forall good_event es ->
  exists c, run max glob pick init es = Done c /\ csize c = total chars (db c) /\ csize c <= max.
Proof.
  intros Hm Hp Hg. destruct (run_exact max glob pick Hp es init (inv_init max Hm) exact_init Hg) as (c & H1 & (H2 & _) & H3).
  exists c. split; [exact H1|]. split; [symmetry; exact H2|]. apply H3.
Qed.
Print Assumptions C22_never_aborts.
(** On any connections the clearing loop ends. *)
Theorem C22_clearing_ends max glob pick es : 0 <= max -> picks_a_row pick -> run max glob pick init es <> OutOfFuel.
Proof.
  intros Hm Hp. pose proof (inv_init max Hm) as Hi. revert Hi. generalize init. induction es as [|e es IH]; intros c Hi; [discriminate|].
  cbn [run]. pose proof (step_fuel max glob pick Hp c e Hi) as S1. pose proof (step_inv max glob pick c e) as S2.
  destruct (step max glob pick c e) as [| | |c1]; try congruence. apply IH. apply S2; [exact Hi|reflexivity].
Qed.
Print Assumptions C22_clearing_ends.

(** ** The order of eviction *)
(** With committed writes and reads since start-up: [entries] are those left by the request's own invalidation;
    a write evicts a front part of them in order of last use, and no more than it takes. *)
Theorem C22_evicts_least_recently_used max glob pick es w c c' : 0 <= max -> picks_a_row pick ->
  Forall kept_event es -> nul_free (w_name w) ->
  run max glob pick init es = Done c -> write_cache max glob pick true w c = Done c' ->
  exists entries evicted kept rest,
    entries = filter (fun r => match w_invalidate w with [] => true | p => negb (glob (cstr p) (fst r)) end) (db c) /\
    Permutation entries (evicted ++ kept) /\
    filter (fun n => existsb (bytes_eqb n) (names entries)) (by_last_use (uses_of max glob pick init es)) = names evicted ++ rest /\
    Permutation rest (names kept) /\
    no_more_than_needed chars evicted kept (Z.of_nat (List.length (w_value w))) max /\
    db c' = filter (fun r => negb (bytes_eqb (w_name w) (fst r))) kept ++ [(w_name w, cstr (w_value w))].
Proof.
  intros Hm Hp Hk Hn H Hw.
  assert (F0 : full_inv max [] init).
  { split; [apply inv_init, Hm|]. split; [apply exact_init|]. split; [constructor|]. exists (fun _ => true). split; [reflexivity|intros n []]. }
  pose proof (run_tracks max glob pick Hp es [] init c F0 Hk H) as ((I0 & I1) & (I2 & _) & I3). cbn [app] in I3.
  assert (Hmax : Z.of_nat (List.length (w_value w)) <= max).
  { unfold write_cache in Hw. case_if_in Hw; [discriminate|]. case_if_in Hw; [discriminate|]. destruct (Z.ltb_spec max (Z.of_nat (List.length (w_value w)))); [discriminate|lia]. }
  apply write_done in Hw as (c1 & Hw & ->). cbn zeta.
  destruct (invalidated_db glob w c) as [q Q]. pose proof (invalidated_total glob w c) as T.
  assert (Ht1 : tracks (uses_of max glob pick init es) (invalidated glob w c)).
  { pose proof (tracks_sub _ c q (csize (invalidated glob w c)) I3) as X. rewrite <- Q in X. rewrite <- (invalidated_lru glob w c) in X. destruct (invalidated glob w c); exact X. }
  assert (Hok : rows_ok (db (invalidated glob w c))) by (rewrite Q; apply rows_ok_filter, I0).
  assert (Hx : total chars (db (invalidated glob w c)) = csize (invalidated glob w c)) by lia.
  eapply (room_order max glob pick) in Hw as (ev & rest & R1 & R2 & R3 & _); [|exact Hmax|exact Hok|exact Hx|exact Ht1].
  exists (db (invalidated glob w c)), ev, (db c1), rest.
  assert (Ef : filter (fun n => existsb (bytes_eqb n) (names (db (invalidated glob w c)))) (by_last_use (uses_of max glob pick init es)) = names ev ++ rest).
  { rewrite <- R2. symmetry. apply tracks_order. exact Ht1. }
  split; [unfold invalidated; destruct (w_invalidate w); [symmetry; apply filter_true; reflexivity|reflexivity]|].
  split; [exact R1|]. split; [exact Ef|]. split.
  - apply (Permutation_app_inv_l (names ev)). rewrite <- Ef. unfold names. rewrite <- map_app, <- R1.
    apply NoDup_Permutation; [apply NoDup_filter, by_last_use_nodup|apply Hok|].
    intros x. rewrite filter_In. fold (names (db (invalidated glob w c))). rewrite <- (present_in (db (invalidated glob w c)) x). unfold present.
    split; [tauto|]. intros Hy. split; [|exact Hy]. apply by_last_use_in. destruct Ht1 as (_ & f & _ & Hf). apply Hf. apply present_in. exact Hy.
  - split; [exact R3|]. cbn [replace_row db]. rewrite (cstr_nul_free _ Hn). reflexivity.
Qed.
Print Assumptions C22_evicts_least_recently_used.

(** Three entries, the first touched again, then a fourth that needs the room of one: the second goes. *)
Definition story : list event :=
  [EWrite true (kv "a" "11111"); EWrite true (kv "b" "22222"); EWrite true (kv "c" "33333"); ERead (lit "a") (lit "a")].
Example C22_story : exists c c',
  run 16 exactly pick_first init story = Done c /\ Forall kept_event story /\
  write_cache 16 exactly pick_first true (kv "d" "4444") c = Done c' /\
  names (db c) = [lit "a"; lit "b"; lit "c"] /\ names (db c') = [lit "a"; lit "c"; lit "d"] /\
  by_last_use (uses_of 16 exactly pick_first init story) = [lit "b"; lit "c"; lit "a"].
Proof.
  eexists. eexists. split; [vm_compute; reflexivity|]. split; [repeat (apply Forall_cons; [first [exact I|split; [reflexivity|intros [X|[]]; discriminate X]]|]); constructor|].
  split; [vm_compute; reflexivity|]. split; [vm_compute; reflexivity|]. split; vm_compute; reflexivity.
Qed.

(** ** The configured size *)
Lemma upper_digit c : is_digit c = true -> upper c = c.
Proof.
  intros H. pose proof (forall_ascii (fun c => negb (is_digit c) || Ascii.eqb (upper c) c) eq_refl c) as X. cbn beta in X.
  rewrite H in X. cbn [negb orb] in X. apply Ascii.eqb_eq. exact X.
Qed.
Lemma digit_plain c : is_digit c = true -> is_space c = false /\ Ascii.eqb c NUL = false /\ Ascii.eqb c "-" = false /\ Ascii.eqb c "+" = false.
Proof.
  intros H. pose proof (forall_ascii (fun c => negb (is_digit c) || (negb (is_space c) && negb (Ascii.eqb c NUL) && negb (Ascii.eqb c "-") && negb (Ascii.eqb c "+"))) eq_refl c) as X.
  cbn beta in X. rewrite H in X. cbn [negb orb] in X.
  destruct (is_space c), (Ascii.eqb c NUL), (Ascii.eqb c "-"), (Ascii.eqb c "+"); cbn in X; try discriminate. auto.
Qed.
Lemma toint_dec n u : (n < 2 ^ 63)%N -> u = [] \/ (exists c r, u = c :: r /\ is_digit c = false) -> nul_free u -> SToInt64 (dec n ++ u) = Z.of_N n.
Proof.
  intros Hn Hu Hz.
  assert (Hd : forallb is_digit (dec n) = true) by apply dec_digits.
  assert (Hc : nul_free (dec n ++ u)).
  { apply nul_free_app; [|exact Hz]. intros Hc. rewrite forallb_forall in Hd. specialize (Hd _ Hc). discriminate Hd. }
  unfold SToInt64. rewrite cstr_nul_free by exact Hc.
  assert (E : digits_of (dec n ++ u) = dec n).
  { destruct Hu as [->|(c & r & -> & Hc')]; [rewrite app_nil_r; apply digits_of_all, Hd|apply digits_of_app; assumption]. }
  destruct (dec n) as [|d ds] eqn:Ed; [exfalso; revert Ed; apply dec_nonempty|]. rewrite <- Ed in E.
  assert (Hdd : is_digit d = true) by (cbn [forallb] in Hd; apply andb_true_iff in Hd; apply Hd).
  destruct (digit_plain d Hdd) as (D1 & D2 & D3 & D4).
  cbn [app]. replace (skip_space (d :: ds ++ u)) with (d :: ds ++ u) by (cbn [skip_space]; rewrite D1; reflexivity).
  assert (G : Z.min 9223372036854775807 (Z.of_N (dec_value 0 (digits_of (d :: ds ++ u)))) = Z.of_N n).
  { change (d :: ds ++ u) with ((d :: ds) ++ u). rewrite <- Ed, E, dec_value_dec. change (2 ^ 63)%N with 9223372036854775808%N in Hn. lia. }
  apply Ascii.eqb_neq in D3, D4.
  clear - G D3 D4. destruct d as [[|] [|] [|] [|] [|] [|] [|] [|]]; try exact G; first [exfalso; apply D3; reflexivity|exfalso; apply D4; reflexivity].
Qed.
Lemma ends_with_app needle s u : List.length u = List.length needle -> ends_with needle (s ++ u) = bytes_eqb u needle.
Proof.
  intros H. unfold ends_with. rewrite app_length. destruct (Nat.ltb_spec (List.length s + List.length u) (List.length needle)); [lia|].
  replace (List.length s + List.length u - List.length needle)%nat with (List.length s) by lia.
  rewrite skipn_app, skipn_all, Nat.sub_diag. reflexivity.
Qed.
Lemma ends_with_digits needle s : forallb is_digit s = true -> (exists c, In c needle /\ is_digit c = false) -> ends_with needle s = false.
Proof.
  intros H (c & Hc & Hd). unfold ends_with. destruct (Nat.ltb _ _); [reflexivity|]. apply bytes_eqb_neq. intros E.
  rewrite <- E in Hc. rewrite forallb_forall in H.
  assert (X : In c s) by (rewrite <- (firstn_skipn (List.length s - List.length needle) s); apply in_or_app; right; exact Hc).
  specialize (H c X). congruence.
Qed.
(** A positive number with or without a unit means what it says; nothing means 16 GB; nothing negative or zero
    ever becomes the size. *)
Theorem C22_configured_size n : (0 < n < 2 ^ 63)%N ->
  initCacheSize (dec n) = Some (Z.of_N n) /\
  initCacheSize (dec n ++ lit "KB") = Some (Z.of_N n * 2 ^ 10) /\
  initCacheSize (dec n ++ lit "MB") = Some (Z.of_N n * 2 ^ 20) /\
  initCacheSize (dec n ++ lit "GB") = Some (Z.of_N n * 2 ^ 30) /\
  initCacheSize (dec n ++ lit "gb") = Some (Z.of_N n * 2 ^ 30) /\
  initCacheSize [] = Some (16 * 2 ^ 30) /\
  (forall arg size, initCacheSize arg = Some size -> 0 < size).
Proof.
  intros Hn. assert (Hd : forallb is_digit (dec n) = true) by apply dec_digits.
  assert (U : forall u, SToUpper (dec n ++ u) = dec n ++ SToUpper u).
  { intros u. unfold SToUpper. rewrite map_app. f_equal. rewrite <- map_id. apply map_ext_in. intros c Hc. apply upper_digit.
    rewrite forallb_forall in Hd. auto. }
  assert (K : forall u, List.length u = 2%nat -> nul_free u -> (exists c r, u = c :: r /\ is_digit c = false) ->
    SToInt64 (dec n ++ u) = Z.of_N n) by (intros u _ Hz Hc; apply toint_dec; [lia|right; exact Hc|exact Hz]).
  assert (NF : forall a b, a <> NUL -> b <> NUL -> nul_free [a; b]) by (intros a b Ha Hb [X|[X|[]]]; congruence).
  split; [|split; [|split; [|split; [|split; [|split]]]]].
  - unfold initCacheSize. rewrite <- (app_nil_r (dec n)), U. cbn [SToUpper map]. rewrite toint_dec; [|lia|left; reflexivity|intros []].
    rewrite app_nil_r. rewrite !ends_with_digits by first [exact Hd|eexists; split; [left; reflexivity|reflexivity]].
    destruct (Z.eqb_spec (Z.of_N n) 0); [lia|]. destruct (Z.ltb_spec 0 (Z.of_N n)); [reflexivity|lia].
  - unfold initCacheSize. rewrite U. rewrite K; [|reflexivity|apply NF; discriminate|eexists; eexists; split; reflexivity].
    rewrite !ends_with_app by reflexivity. change (bytes_eqb (SToUpper (lit "KB")) (lit "KB")) with true. change (bytes_eqb (SToUpper (lit "KB")) (lit "MB")) with false.
    change (bytes_eqb (SToUpper (lit "KB")) (lit "GB")) with false. cbv iota zeta. change (2 ^ 10) with 1024.
    destruct (Z.eqb_spec (Z.of_N n * 1024) 0); [lia|]. destruct (Z.ltb_spec 0 (Z.of_N n * 1024)); [reflexivity|lia].
  - unfold initCacheSize. rewrite U. rewrite K; [|reflexivity|apply NF; discriminate|eexists; eexists; split; reflexivity].
    rewrite !ends_with_app by reflexivity. change (bytes_eqb (SToUpper (lit "MB")) (lit "KB")) with false. change (bytes_eqb (SToUpper (lit "MB")) (lit "MB")) with true.
    change (bytes_eqb (SToUpper (lit "MB")) (lit "GB")) with false. cbv iota zeta. change (2 ^ 20) with (1024 * 1024).
    destruct (Z.eqb_spec (Z.of_N n * (1024 * 1024)) 0); [lia|]. destruct (Z.ltb_spec 0 (Z.of_N n * (1024 * 1024))); [reflexivity|lia].
  - unfold initCacheSize. rewrite U. rewrite K; [|reflexivity|apply NF; discriminate|eexists; eexists; split; reflexivity].
    rewrite !ends_with_app by reflexivity. change (bytes_eqb (SToUpper (lit "GB")) (lit "KB")) with false. change (bytes_eqb (SToUpper (lit "GB")) (lit "MB")) with false.
    change (bytes_eqb (SToUpper (lit "GB")) (lit "GB")) with true. cbv iota zeta. change (2 ^ 30) with (1024 * 1024 * 1024).
    destruct (Z.eqb_spec (Z.of_N n * (1024 * 1024 * 1024)) 0); [lia|]. destruct (Z.ltb_spec 0 (Z.of_N n * (1024 * 1024 * 1024))); [reflexivity|lia].
  - unfold initCacheSize. rewrite U. rewrite K; [|reflexivity|apply NF; discriminate|eexists; eexists; split; reflexivity].
    rewrite !ends_with_app by reflexivity. change (bytes_eqb (SToUpper (lit "gb")) (lit "KB")) with false. change (bytes_eqb (SToUpper (lit "gb")) (lit "MB")) with false.
    change (bytes_eqb (SToUpper (lit "gb")) (lit "GB")) with true. cbv iota zeta. change (2 ^ 30) with (1024 * 1024 * 1024).
    destruct (Z.eqb_spec (Z.of_N n * (1024 * 1024 * 1024)) 0); [lia|]. destruct (Z.ltb_spec 0 (Z.of_N n * (1024 * 1024 * 1024))); [reflexivity|lia].
  - reflexivity.
  - intros arg size. unfold initCacheSize. cbv zeta. intros H. case_if_in H; [injection H as <-; apply Z.ltb_lt; assumption|discriminate].
Qed.
Print Assumptions C22_configured_size.

(** ** What does not hold *)
(** On connections that did not run upgradeDatabase the triggers are not recursive: overwriting an entry counts
    its size twice, and a later write that fits finds nothing left to evict and brings the server down. *)
Theorem C22_overwrite_aborts_refuted :
  run 20 exactly pick_first init
    [EWrite false (kv "a" "666666"); EWrite false (kv "a" "666666"); EWrite false (kv "a" "666666");
     EWrite false (kv "b" "333"); EWrite false (kv "b" "333"); EWrite false (kv "b" "333"); EWrite false (kv "c" "999999999")] = Aborted.
Proof. vm_compute. reflexivity. Qed.
Print Assumptions C22_overwrite_aborts_refuted.
(** Sizes are counted in characters: three-byte characters hold three times the configured bytes. *)
Definition han : bytes := [ascii_of_N 228; ascii_of_N 184; ascii_of_N 173].
Theorem C22_bytes_refuted : exists c,
  run 12 exactly pick_first init (map (fun n => EWrite true (wr n han)) [lit "a"; lit "b"; lit "c"; lit "d"; lit "e"; lit "f"]) = Done c /\
  total (fun v => Z.of_nat (List.length v)) (db c) = 18 /\ csize c = 6.
Proof. eexists. split; [vm_compute; reflexivity|]. split; vm_compute; reflexivity. Qed.
Print Assumptions C22_bytes_refuted.
(** The order of use is kept in memory: after a restart an entry just read goes before one nobody touched. *)
Theorem C22_restart_order_refuted : exists c c',
  run 16 exactly pick_first init
    [EWrite true (kv "old" "11111"); EWrite true (kv "hot" "22222"); EWrite true (kv "warm" "33333"); ERestart; ERead (lit "hot") (lit "hot")] = Done c /\
  write_cache 16 exactly pick_first true (kv "new" "4444") c = Done c' /\
  names (db c') = [lit "old"; lit "warm"; lit "new"].
Proof. eexists. eexists. split; [vm_compute; reflexivity|]. split; vm_compute; reflexivity. Qed.
Print Assumptions C22_restart_order_refuted.
(** A write that does not commit still takes names off the list and puts its own at the end: the entries it
    would have evicted are no longer known as old, and the next to go is a newer one. *)
Theorem C22_lost_write_order_refuted : exists c c',
  run 16 exactly pick_last init
    [EWrite true (kv "a" "11111"); EWrite true (kv "b" "22222"); EWrite true (kv "c" "33333"); ELost true (kv "d" "4444")] = Done c /\
  write_cache 16 exactly pick_last true (kv "e" "5555") c = Done c' /\
  names (db c') = [lit "a"; lit "c"; lit "e"].
Proof. eexists. eexists. split; [vm_compute; reflexivity|]. split; vm_compute; reflexivity. Qed.
Print Assumptions C22_lost_write_order_refuted.
(** A name that begins with a NUL is stored as the empty name; after a restart, making room finds it and aborts. *)
Theorem C22_empty_name_aborts_refuted :
  run 16 exactly pick_first init
    [EWrite true (wr (NUL :: lit "a") (lit "111111111")); ERestart; EWrite true (kv "b" "222222222")] = Aborted.
Proof. vm_compute. reflexivity. Qed.
Print Assumptions C22_empty_name_aborts_refuted.
(** The value ends at its first NUL. *)
Theorem C22_nul_value_refuted : exists c,
  run 16 exactly pick_first init [EWrite true (wr (lit "a") (lit "x" ++ NUL :: lit "y"))] = Done c /\ db c = [(lit "a", lit "x")].
Proof. eexists. split; [vm_compute; reflexivity|]. vm_compute. reflexivity. Qed.
Print Assumptions C22_nul_value_refuted.
