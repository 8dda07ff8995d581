(** Lemmas about the message parser and composer. *)
From Verif Require Import Base Dec Text_Spec Text_Model Text_Proofs Table Http_Spec Http_Model.

(** ** Rounds *)
Lemma split_line_app s : s = fst (split_line s) ++ snd (split_line s).
Proof. induction s as [|c s IH]; cbn [split_line]; [reflexivity|]. destruct (is_eol c); [reflexivity|]. destruct (split_line s) as [a b]. cbn [fst snd app] in *. congruence. Qed.
Lemma split_line_eol s : match snd (split_line s) with [] => True | c :: _ => is_eol c = true end.
Proof. induction s as [|c s IH]; cbn [split_line]; [exact I|]. destruct (is_eol c) eqn:E; [exact E|]. destruct (split_line s) as [a b]. exact IH. Qed.
Lemma eat_eol_le s : List.length (eat_eol s) <= List.length s.
Proof. destruct s as [|a [|b s]]; cbn [eat_eol]; [lia| |]; repeat case_if; cbn [List.length]; lia. Qed.
Lemma eat_eol_lt c s : is_eol c = true -> List.length (eat_eol (c :: s)) < List.length (c :: s).
Proof. intros H. destruct s as [|b s]; cbn [eat_eol]; rewrite H; [|case_if]; cbn [List.length]; lia. Qed.

Lemma round_ext r1 r2 total s st :
  (forall s' st', List.length s' < List.length s -> r1 s' st' = r2 s' st') -> round r1 total s st = round r2 total s st.
Proof.
  intros H. unfold round. pose proof (split_line_app s) as A. pose proof (split_line_eol s) as B.
  destruct (split_line s) as [line e]. cbn [fst snd] in A, B. destruct e as [|x e]; [reflexivity|].
  assert (L : List.length (eat_eol (x :: e)) < List.length s).
  { rewrite A, app_length. pose proof (eat_eol_lt x e B). lia. }
  destruct line as [|y line]; destruct (p_method st) as [|z m]; auto.
  - destruct (p_chunked st); auto. destruct (says_chunked (p_table st)); auto.
  - destruct (trim (y :: line)); auto. destruct (Nat.eqb (List.length s) total); auto.
  - destruct (p_chunked st && hex8 (chunk_size (y :: line))); auto.
    set (n := to_int _). destruct (Z.eqb n 0) eqn:N0; auto. destruct (Z.leb _ (2 + n)) eqn:N1; auto. destruct (Z.ltb n 0) eqn:N2; auto.
    apply H. eapply Nat.le_lt_trans; [apply eat_eol_le|]. rewrite skipn_length, A, app_length. cbn [List.length]. lia.
Qed.

(** The parser without its fuel. *)
Definition P (total : nat) (s : bytes) (st : ps) : outcome := parse_from (S (List.length s)) total s st.
Lemma parse_fuel f total s st : List.length s < f -> parse_from f total s st = P total s st.
Proof.
  enough (G : forall n f1 f2 s st, List.length s < n -> List.length s < f1 -> List.length s < f2 ->
              parse_from f1 total s st = parse_from f2 total s st).
  { intros H. apply (G (S (List.length s))); lia. }
  clear. induction n as [|n IH]; intros f1 f2 s st Hn H1 H2; [lia|].
  destruct f1 as [|f1]; [lia|]. destruct f2 as [|f2]; [lia|]. cbn [parse_from]. apply round_ext.
  intros s' st' Hs. apply IH; lia.
Qed.
Lemma P_eq total s st : P total s st = round (P total) total s st.
Proof. unfold P at 1. cbn [parse_from]. apply round_ext. intros s' st' H. apply parse_fuel. exact H. Qed.
Lemma SParseHTTP_P b : SParseHTTP b = P (List.length b) b ps0.
Proof. reflexivity. Qed.

(** ** Lines *)
Definition clean (l : bytes) : Prop := forall c, In c l -> is_eol c = false.
Lemma clean_spec l : clean l <-> eol_free l.
Proof.
  unfold clean, eol_free, is_eol. split.
  - intros H. split; intros X; specialize (H _ X); discriminate.
  - intros [A B] c Hc. apply orb_false_iff. split; apply Ascii.eqb_neq; intros ->; contradiction.
Qed.
Lemma split_clean l x : clean l -> split_line (l ++ CR :: x) = (l, CR :: x).
Proof.
  induction l as [|c l IH]; cbn [app split_line]; intros H; [reflexivity|].
  rewrite (H c) by (left; reflexivity). rewrite IH; [reflexivity|]. intros d Hd. apply H. right. exact Hd.
Qed.
Lemma split_clean_all l : clean l -> split_line l = (l, []).
Proof.
  induction l as [|c l IH]; cbn [split_line]; intros H; [reflexivity|].
  rewrite (H c) by (left; reflexivity). rewrite IH; [reflexivity|]. intros d Hd. apply H. right. exact Hd.
Qed.
Lemma clean_app a b : clean (a ++ b) <-> clean a /\ clean b.
Proof. unfold clean. split; [intros H; split; intros c Hc; apply H; apply in_or_app; auto|]. intros [A B] c Hc. apply in_app_or in Hc. destruct Hc; auto. Qed.

Lemma P_line total l x st :
  clean l -> l <> [] -> p_method st <> [] -> p_chunked st = false ->
  P total (l ++ CR :: LF :: x) st = P total x (header_line st l).
Proof.
  intros Hc Hl Hm Hk. rewrite P_eq. unfold round. rewrite split_clean by exact Hc.
  destruct l as [|a l]; [congruence|]. destruct (p_method st) as [|z m]; [congruence|]. rewrite Hk. reflexivity.
Qed.
Lemma P_cut total q st : clean q -> P total q st = Incomplete.
Proof. intros H. rewrite P_eq. unfold round. rewrite split_clean_all by exact H. reflexivity. Qed.
Lemma P_nil total st : P total [] st = Incomplete.
Proof. apply P_cut. intros c []. Qed.
Lemma P_cut_cr total l st : clean l -> l <> [] -> p_method st <> [] -> p_chunked st = false -> P total (l ++ [CR]) st = Incomplete.
Proof.
  intros Hc Hl Hm Hk. rewrite P_eq. unfold round. rewrite split_clean by exact Hc.
  destruct l as [|a l]; [congruence|]. destruct (p_method st) as [|z m]; [congruence|]. rewrite Hk. cbn [andb]. apply P_nil.
Qed.
Lemma P_method total m x :
  clean m -> trim m <> [] -> P total (m ++ CR :: LF :: x) ps0 = P total x (with_method (trim m) ps0).
Proof.
  intros Hc Hl. rewrite P_eq. unfold round. rewrite split_clean by exact Hc.
  destruct m as [|a m]; [exfalso; apply Hl; reflexivity|]. cbn [p_method ps0]. destruct (trim (a :: m)); [congruence|]. reflexivity.
Qed.
Lemma P_method_cr total m : clean m -> trim m <> [] -> P total (m ++ [CR]) ps0 = Incomplete.
Proof.
  intros Hc Hl. rewrite P_eq. unfold round. rewrite split_clean by exact Hc.
  destruct m as [|a m]; [exfalso; apply Hl; reflexivity|]. cbn [p_method ps0]. destruct (trim (a :: m)); [congruence|]. apply P_nil.
Qed.
Lemma P_blank total x st : p_method st <> [] -> p_chunked st = false -> says_chunked (p_table st) = false ->
  P total (CR :: x) st = finish total (CR :: x) st.
Proof. intros Hm Hk Hs. rewrite P_eq. unfold round. cbn [split_line]. change (is_eol CR) with true. cbv iota. destruct (p_method st); [congruence|]. rewrite Hk, Hs. reflexivity. Qed.

(** ** Trimming *)
Definition unpad_l (s : bytes) : Prop := hd "x"%char s <> " "%char.
Lemma ltrim_id s : unpad_l s -> ltrim s = s.
Proof. destruct s as [|c s]; cbn [ltrim]; [reflexivity|]. intros H. destruct (Ascii.eqb_spec c " ") as [E|]; [|reflexivity]. subst c. exfalso. apply H. reflexivity. Qed.
Lemma ltrim_unpad s : unpad_l (ltrim s).
Proof. unfold unpad_l. induction s as [|c s IH]; cbn [ltrim hd]; [discriminate|]. destruct (Ascii.eqb_spec c " ") as [E|E]; [exact IH|]. exact E. Qed.
Lemma ltrim_split s : exists i, s = repeat " "%char i ++ ltrim s.
Proof.
  induction s as [|c s (i & IH)]; [exists 0; reflexivity|]. cbn [ltrim]. destruct (Ascii.eqb_spec c " ") as [->|E].
  - exists (S i). cbn [repeat app]. congruence.
  - exists 0. reflexivity.
Qed.
Lemma last_rev (s : bytes) d : hd d (rev s) = last s d.
Proof.
  induction s as [|c s IH]; [reflexivity|]. cbn [rev]. destruct s as [|e s]; [reflexivity|].
  change (last (c :: e :: s) d) with (last (e :: s) d). rewrite <- IH. destruct (rev (e :: s)) as [|z r] eqn:Ez; [|reflexivity].
  exfalso. apply (f_equal (@List.length ascii)) in Ez. rewrite rev_length in Ez. discriminate.
Qed.
Lemma trim_id s : unpadded s -> trim s = s.
Proof.
  intros [A B]. unfold trim. rewrite (ltrim_id s A). rewrite ltrim_id, rev_involutive; [reflexivity|]. unfold unpad_l. rewrite last_rev. exact B.
Qed.
Lemma repeat_rev {A} (c : A) n : rev (repeat c n) = repeat c n.
Proof.
  induction n as [|n IH]; [reflexivity|]. cbn [repeat rev]. rewrite IH. clear IH. induction n as [|n IH]; [reflexivity|].
  cbn [repeat app]. rewrite IH. reflexivity.
Qed.
Lemma trim_split s : exists i j, s = repeat " "%char i ++ trim s ++ repeat " "%char j.
Proof.
  unfold trim. destruct (ltrim_split s) as (i & E). destruct (ltrim_split (rev (ltrim s))) as (j & F).
  exists i, j. rewrite E at 1. f_equal. apply (f_equal (@rev ascii)) in F. rewrite rev_involutive, rev_app_distr, repeat_rev in F. exact F.
Qed.
Lemma hd_app_ne (a b : bytes) d : a <> [] -> hd d (a ++ b) = hd d a.
Proof. destruct a; [congruence|reflexivity]. Qed.
Lemma trim_unpadded s : unpadded (trim s).
Proof.
  unfold unpadded, trim. set (t := ltrim s). pose proof (ltrim_unpad s) as Ht. fold t in Ht.
  destruct (ltrim_split (rev t)) as (j & F). pose proof (ltrim_unpad (rev t)) as Hu.
  split.
  - apply (f_equal (@rev ascii)) in F. rewrite rev_involutive, rev_app_distr, repeat_rev in F.
    destruct (rev (ltrim (rev t))) as [|c r] eqn:Er; [discriminate|]. unfold unpad_l in Ht. rewrite F in Ht. exact Ht.
  - rewrite <- last_rev, rev_involutive. exact Hu.
Qed.
Lemma ltrim_repeat i s : ltrim (repeat " "%char i ++ s) = ltrim s.
Proof. induction i as [|i IH]; [reflexivity|]. cbn [repeat app ltrim]. exact IH. Qed.
Lemma ltrim_app s t : ltrim s <> [] -> ltrim (s ++ t) = ltrim s ++ t.
Proof. induction s as [|c s IH]; cbn [ltrim app]; [congruence|]. destruct (Ascii.eqb c " "); auto. Qed.
(* the middle of a padded text *)
Lemma trim_pad i s j : unpadded s -> trim (repeat " "%char i ++ s ++ repeat " "%char j) = s.
Proof.
  intros H. unfold trim. rewrite ltrim_repeat. destruct s as [|c s].
  - cbn [app]. replace (repeat " "%char j) with (repeat " "%char j ++ []) by apply app_nil_r. rewrite ltrim_repeat. reflexivity.
  - rewrite ltrim_app.
    + rewrite (ltrim_id _ (proj1 H)), rev_app_distr, repeat_rev, ltrim_repeat. rewrite ltrim_id, rev_involutive; [reflexivity|].
      unfold unpad_l. rewrite last_rev. apply H.
    + rewrite (ltrim_id _ (proj1 H)). discriminate.
Qed.
Lemma stripped_trim v v' : stripped v v' <-> v' = trim (cstr v).
Proof.
  split.
  - intros (A & i & j & E). rewrite E, trim_pad; auto.
  - intros ->. split; [apply trim_unpadded|]. apply trim_split.
Qed.

(** ** Header values *)
Definition esc (s : bytes) : bytes := escape s unsafe_chars "\".
Definition piece (c : ascii) : bytes := if in_set c unsafe_chars || Ascii.eqb c "\" then "\"%char :: escape_char c else [c].
Lemma esc_cons c s : esc (c :: s) = piece c ++ esc s. Proof. reflexivity. Qed.
Lemma esc_app a b : esc (a ++ b) = esc a ++ esc b.
Proof. induction a as [|c a IH]; [reflexivity|]. cbn [app]. rewrite !esc_cons, IH, app_assoc. reflexivity. Qed.
Lemma esc_spaces n : esc (repeat " "%char n) = repeat " "%char n.
Proof. induction n as [|n IH]; [reflexivity|]. cbn [repeat]. rewrite esc_cons, IH. reflexivity. Qed.
Lemma piece_clean c : forallb (fun d => negb (is_eol d)) (piece c) = true.
Proof. revert c. apply forall_ascii. vm_compute. reflexivity. Qed.
Lemma piece_ends c : Ascii.eqb c " " || (negb (Ascii.eqb (hd "x"%char (piece c)) " ") && negb (Ascii.eqb (last (piece c) "x"%char) " ")
                      && negb (match piece c with [] => true | _ => false end)) = true.
Proof. revert c. apply forall_ascii. vm_compute. reflexivity. Qed.
Lemma esc_clean s : clean (esc s).
Proof.
  induction s as [|c s IH]; [intros c []|]. rewrite esc_cons, clean_app. split; auto. intros d Hd.
  pose proof (piece_clean c) as X. rewrite forallb_forall in X. specialize (X d Hd). apply negb_true_iff in X. exact X.
Qed.
Lemma last_app_ne (a b : bytes) d : b <> [] -> last (a ++ b) d = last b d.
Proof.
  intros H. induction a as [|x a IH]; [reflexivity|]. cbn [app]. destruct (a ++ b) as [|y r] eqn:E.
  - destruct a; [cbn in E; congruence|discriminate].
  - change (last (x :: y :: r) d) with (last (y :: r) d). exact IH.
Qed.
Lemma esc_unpadded w : unpadded w -> unpadded (esc w).
Proof.
  intros [A B]. destruct w as [|c w]; [split; discriminate|]. split.
  - rewrite esc_cons. pose proof (piece_ends c) as X. cbn [hd] in A. apply Ascii.eqb_neq in A. rewrite A in X. cbn [orb] in X.
    rewrite !andb_true_iff, !negb_true_iff in X. destruct X as [[X1 X2] X3]. rewrite hd_app_ne by (intros E; rewrite E in X3; discriminate).
    apply Ascii.eqb_neq in X1. exact X1.
  - destruct (exists_last (l := c :: w)) as (w' & d & E); [discriminate|]. rewrite E in *. rewrite last_last in B.
    rewrite esc_app. change (esc [d]) with (piece d ++ []). rewrite app_nil_r.
    pose proof (piece_ends d) as X. apply Ascii.eqb_neq in B. rewrite B in X. cbn [orb] in X.
    rewrite !andb_true_iff, !negb_true_iff in X. destruct X as [[X1 X2] X3].
    rewrite last_app_ne by (intros Z; rewrite Z in X3; discriminate). apply Ascii.eqb_neq in X2. exact X2.
Qed.
Lemma nul_free_app_l a b : nul_free (a ++ b) -> nul_free a. Proof. unfold nul_free. intros H X. apply H. apply in_or_app. auto. Qed.
Lemma nul_free_app_r a b : nul_free (a ++ b) -> nul_free b. Proof. unfold nul_free. intros H X. apply H. apply in_or_app. auto. Qed.
Lemma unescape_esc w : nul_free w -> SUnescape (esc w) "\" = w.
Proof.
  intros H. unfold SUnescape, esc. rewrite cstr_nul_free by (apply escape_nul_free; [exact H|discriminate]).
  apply unescape_escape; auto. intros c [<-|[<-|[<-|[]]]]; reflexivity.
Qed.
(* what the receiver makes of " " followed by the escaped value *)
Lemma value_received v : SUnescape (trim (" "%char :: SEscape v unsafe_chars "\")) "\" = trim (cstr v).
Proof.
  destruct (trim_split (cstr v)) as (i & j & E). pose proof (trim_unpadded (cstr v)) as U. set (w := trim (cstr v)) in *.
  assert (N : nul_free w).
  { pose proof (cstr_is_nul_free v) as X. rewrite E in X. apply nul_free_app_r in X. apply nul_free_app_l in X. exact X. }
  unfold SEscape. fold (esc (cstr v)). rewrite E, !esc_app, !esc_spaces.
  change (" "%char :: repeat " "%char i ++ esc w ++ repeat " "%char j) with (repeat " "%char (S i) ++ esc w ++ repeat " "%char j).
  rewrite trim_pad by (apply esc_unpadded; exact U). apply unescape_esc. exact N.
Qed.

(** ** Header lines *)
Lemma find_sep_app sep k x : ~ In sep k -> find_sep sep (k ++ sep :: x) = (k, sep :: x).
Proof.
  induction k as [|c k IH]; cbn [app find_sep]; intros H; [rewrite Ascii.eqb_refl; reflexivity|].
  destruct (Ascii.eqb_spec c sep) as [E|E]; [exfalso; apply H; left; exact E|]. rewrite IH; [reflexivity|]. intros X. apply H. right. exact X.
Qed.
Lemma header_line_std st k v : legal_name k ->
  header_line st (k ++ ":"%char :: v) =
  mkPs (p_method st)
       (tput k (match tfind k (p_table st) with
                | Some old => if ieqb k SC then old ++ cookie_sep :: trim v else SUnescape (trim v) "\"
                | None => SUnescape (trim v) "\" end) (p_table st))
       (p_content st) k (p_chunked st).
Proof.
  intros (H1 & H2 & H3 & H4 & H5). unfold header_line.
  replace (match k ++ ":"%char :: v with c :: _ => is_space c | [] => false end) with false
    by (destruct k; [congruence|]; cbn [app]; symmetry; exact H4).
  unfold up_to_next. rewrite find_sep_app by exact H2. unfold rtrim.
  rewrite ltrim_id by (unfold unpad_l; rewrite last_rev; exact H5). rewrite rev_involutive.
  destruct k as [|c k]; [congruence|]. reflexivity.
Qed.

Definition lines_of (p : bytes * bytes) : list bytes :=
  let (k, v) := p in
  if ieqb SC k then map (fun c => lit "Set-Cookie: " ++ c) (SParseList v cookie_sep)
  else if ieqb CL k then []
  else if ieqb CE k && ieqb (lit "gzip") v then []
  else [k ++ lit ": " ++ SEscape v unsafe_chars "\"].
Definition wire (ls : list bytes) : bytes := flat_map (fun l => l ++ CRLF) ls.
Lemma wire_app a b : wire (a ++ b) = wire a ++ wire b. Proof. apply flat_map_app. Qed.
Lemma header_text_wire p : header_text p = wire (lines_of p).
Proof.
  destruct p as [k v]. unfold header_text, lines_of, wire. destruct (ieqb SC k).
  - induction (SParseList v cookie_sep) as [|c l IH]; [reflexivity|]. cbn [map flat_map]. rewrite IH, <- !app_assoc. reflexivity.
  - destruct (ieqb CL k); [reflexivity|]. destruct (ieqb CE k && ieqb (lit "gzip") v); [reflexivity|].
    cbn [flat_map]. rewrite app_nil_r, <- !app_assoc. reflexivity.
Qed.
Lemma table_wire t : flat_map header_text t = wire (flat_map lines_of t).
Proof. induction t as [|p t IH]; [reflexivity|]. cbn [flat_map]. rewrite IH, header_text_wire, wire_app. reflexivity. Qed.

(* what each entry becomes at the receiver *)
Definition kept (p : bytes * bytes) : bool := negb (ieqb CL (fst p)) && negb (ieqb CE (fst p) && ieqb (lit "gzip") (snd p)).
Definition arrived (p : bytes * bytes) : bytes * bytes :=
  if ieqb SC (fst p) then (SC, snd p) else (fst p, trim (cstr (snd p))).

Definition same_state (a b : ps) : Prop := p_method a = p_method b /\ p_content a = p_content b /\ p_chunked a = p_chunked b.
Lemma same_refl a : same_state a a. Proof. repeat split. Qed.
Lemma same_trans a b c : same_state a b -> same_state b c -> same_state a c.
Proof. unfold same_state. intuition congruence. Qed.
Definition headers (st : ps) (ls : list bytes) : ps := fold_left header_line ls st.

Lemma ieqb_sym a b : ieqb a b = ieqb b a.
Proof.
  destruct (ieqb a b) eqn:E, (ieqb b a) eqn:F; auto; unfold ieqb in *; apply bytes_eqb_eq in E || apply bytes_eqb_eq in F; rewrite ?E, ?F in *;
    rewrite bytes_eqb_refl in *; discriminate.
Qed.
Lemma legal_SC : legal_name SC.
Proof. repeat split; try discriminate; vm_compute; intuition discriminate. Qed.
Lemma tput_tput k v w t : tput k v (tput k w t) = tput k v t.
Proof.
  induction t as [|[k' v'] t IH]; cbn [tput]; [rewrite kcmp_refl; reflexivity|].
  destruct (kcmp k k') eqn:E; cbn [tput]; rewrite ?kcmp_refl, ?E, ?IH; reflexivity.
Qed.
Lemma unescape_plain_all s : ~ In "\"%char s -> nul_free s -> SUnescape s "\" = s.
Proof.
  intros H N. unfold SUnescape. rewrite cstr_nul_free by exact N. clear N. induction s as [|c s IH]; [reflexivity|].
  rewrite unescape_plain by (intros ->; apply H; left; reflexivity). rewrite IH; [reflexivity|]. intros X. apply H. right. exact X.
Qed.
Lemma trim_space s : unpadded s -> trim (" "%char :: s) = s.
Proof. intros H. pose proof (trim_pad 1 s 0 H) as X. cbn [repeat app] in X. rewrite app_nil_r in X. exact X. Qed.

Lemma cookie_line st c : unpadded c -> ~ In "\"%char c -> nul_free c ->
  header_line st (lit "Set-Cookie: " ++ c) =
  mkPs (p_method st) (tput SC (match tfind SC (p_table st) with Some old => old ++ cookie_sep :: c | None => c end) (p_table st))
       (p_content st) SC (p_chunked st).
Proof.
  intros U B N. change (lit "Set-Cookie: " ++ c) with (SC ++ ":"%char :: " "%char :: c).
  rewrite header_line_std by exact legal_SC. rewrite trim_space by exact U. rewrite unescape_plain_all by assumption.
  change (ieqb SC SC) with true. reflexivity.
Qed.
Lemma cookie_lines l : forall st v, Forall legal_cookie l -> tfind SC (p_table st) = Some v ->
  let st' := headers st (map (fun c => lit "Set-Cookie: " ++ c) l) in
  same_state st' st /\ (l <> [] -> p_table st' = tput SC (v ++ flat_map (fun c => cookie_sep :: c) l) (p_table st)) /\ (l = [] -> p_table st' = p_table st).
Proof.
  induction l as [|c l IH]; intros st v HF Hv; cbn [map headers fold_left].
  - split; [apply same_refl|]. split; congruence.
  - inversion HF as [|? ? (L1 & L2 & L3 & L4) HF']; subst. rewrite cookie_line by (auto; apply L1). rewrite Hv.
    set (st1 := mkPs _ _ _ _ _). destruct (IH st1 (v ++ cookie_sep :: c) HF') as (S1 & T1 & T2).
    { unfold st1. cbn [p_table]. rewrite tfind_tput, kcmp_refl. reflexivity. }
    split; [eapply same_trans; [exact S1|]; unfold st1; repeat split|]. split; [|discriminate]. intros _.
    destruct l as [|c2 l].
    + cbn [map fold_left flat_map]. rewrite app_nil_r. reflexivity.
    + fold (headers st1 (map (fun c => lit "Set-Cookie: " ++ c) (c2 :: l))). rewrite T1 by discriminate. unfold st1. cbn [p_table].
      rewrite tput_tput. f_equal. cbn [flat_map]. rewrite <- !app_assoc. reflexivity.
Qed.
Lemma join_cookies c l : SComposeList (c :: l) [cookie_sep] = c ++ flat_map (fun c => cookie_sep :: c) l.
Proof.
  rewrite SComposeList_join. revert c. induction l as [|d l IH]; intros c; [cbn; rewrite app_nil_r; reflexivity|].
  change (join [cookie_sep] (c :: d :: l)) with (c ++ [cookie_sep] ++ join [cookie_sep] (d :: l)). rewrite IH. reflexivity.
Qed.
Lemma parse_cookies c l : Forall legal_cookie (c :: l) -> SParseList (SComposeList (c :: l) [cookie_sep]) cookie_sep = c :: l.
Proof.
  intros H. assert (HF : Forall (list_element cookie_sep) (c :: l)) by (eapply Forall_impl; [|exact H]; intros a (A & _); exact A).
  unfold SParseList. rewrite SComposeList_join, cstr_nul_free.
  - pose proof (parse_join cookie_sep 0 (c :: l) [] HF) as X. cbn [repeat] in X. rewrite X. reflexivity.
  - apply join_nul_free; [intros [X|[]]; discriminate|]. eapply Forall_impl; [|exact HF]. intros a (_ & _ & _ & X). exact X.
Qed.

Lemma entry_lines st k v : legal_header k v -> tfind k (p_table st) = None ->
  let st' := headers st (lines_of (k, v)) in
  same_state st' st /\
  p_table st' = (if kept (k, v) then tput (fst (arrived (k, v))) (snd (arrived (k, v))) (p_table st) else p_table st).
Proof.
  intros (HN & HC & _) Hf. unfold lines_of, kept, arrived. cbn [fst snd]. destruct (ieqb SC k) eqn:E1.
  - assert (K : is_name k SC) by (unfold is_name; unfold ieqb in E1; apply bytes_eqb_eq in E1; symmetry; exact E1).
    destruct (HC K) as (c & l & HF & ->). fold cookie_sep. rewrite parse_cookies by exact HF.
    assert (X1 : ieqb CL k = false).
    { unfold ieqb in *. apply bytes_eqb_eq in E1. rewrite <- E1. reflexivity. }
    assert (X2 : ieqb CE k = false).
    { unfold ieqb in *. apply bytes_eqb_eq in E1. rewrite <- E1. reflexivity. }
    rewrite X1, X2. cbn [negb andb fst snd]. cbn [map headers fold_left].
    inversion HF as [|? ? (L1 & L2 & L3 & L4) HF']; subst. rewrite cookie_line by (auto; apply L1).
    assert (E2 : tfind SC (p_table st) = None).
    { rewrite <- Hf. apply tfind_cong. apply kcmp_eq. exact E1. }
    rewrite E2. set (st1 := mkPs _ _ _ _ _).
    destruct (cookie_lines l st1 c HF') as (S1 & T1 & T2).
    { unfold st1. cbn [p_table]. rewrite tfind_tput, kcmp_refl. reflexivity. }
    split; [eapply same_trans; [exact S1|]; unfold st1; repeat split|].
    rewrite join_cookies. destruct l as [|c2 l].
    + cbn [map fold_left flat_map]. rewrite app_nil_r. reflexivity.
    + fold (headers st1 (map (fun c => lit "Set-Cookie: " ++ c) (c2 :: l))). rewrite T1 by discriminate. unfold st1. cbn [p_table]. apply tput_tput.
  - destruct (ieqb CL k) eqn:E2; [split; [apply same_refl|reflexivity]|].
    destruct (ieqb CE k && ieqb (lit "gzip") v) eqn:E3; [split; [apply same_refl|reflexivity]|].
    cbn [negb andb headers fold_left fst snd]. change (lit ": " ++ SEscape v unsafe_chars "\") with (":"%char :: " "%char :: SEscape v unsafe_chars "\").
    rewrite header_line_std by exact HN. rewrite Hf. cbn [p_table]. split; [repeat split|]. rewrite value_received. reflexivity.
Qed.

(** ** All headers *)
Definition good_line (l : bytes) : Prop := clean l /\ l <> [] /\ is_space (hd "x"%char l) = false.
Lemma header_line_same st l : good_line l -> same_state (header_line st l) st.
Proof.
  intros (_ & H & S). unfold header_line. destruct l as [|c l]; [congruence|]. cbn [hd] in S. rewrite S.
  destruct (up_to_next ":" (c :: l) (p_name st)) as [[|a n] rest]; repeat split.
Qed.
Lemma headers_same ls : forall st, Forall good_line ls -> same_state (headers st ls) st.
Proof.
  induction ls as [|l ls IH]; intros st H; [apply same_refl|]. inversion H; subst. cbn [headers fold_left].
  eapply same_trans; [apply (IH (header_line st l)); assumption|]. apply header_line_same. assumption.
Qed.
Lemma headers_app st a b : headers st (a ++ b) = headers (headers st a) b.
Proof. apply fold_left_app. Qed.
Lemma P_lines total ls : forall x st, Forall good_line ls -> p_method st <> [] -> p_chunked st = false ->
  P total (wire ls ++ x) st = P total x (headers st ls).
Proof.
  induction ls as [|l ls IH]; intros x st H Hm Hk; [reflexivity|]. inversion H as [|? ? G H']; subst.
  cbn [wire flat_map headers fold_left]. fold (wire ls).
  replace (((l ++ CRLF) ++ wire ls) ++ x) with (l ++ CR :: LF :: (wire ls ++ x)) by (rewrite <- !app_assoc; reflexivity).
  rewrite P_line by (auto; apply G). destruct (header_line_same st l G) as (A & B & C).
  apply IH; [assumption|rewrite A; assumption|rewrite C; assumption].
Qed.
Lemma P_prefix total ls : forall q r Y st, Forall good_line ls -> p_method st <> [] -> p_chunked st = false ->
  q ++ r = wire ls ++ Y -> (exists q', q = wire ls ++ q' /\ q' ++ r = Y) \/ P total q st = Incomplete.
Proof.
  induction ls as [|l ls IH]; intros q r Y st H Hm Hk E; [left; exists q; split; [reflexivity|exact E]|].
  inversion H as [|? ? G H']; subst. cbn [wire flat_map] in E. fold (wire ls) in E. rewrite <- app_assoc in E.
  destruct (app_eq_app _ _ _ _ E) as (z & [[E1 E2]|[E1 E2]]).
  - subst q. destruct (header_line_same st l G) as (A & B & C).
    destruct (IH z r Y (header_line st l) H') as [(q' & F1 & F2)|F]; [rewrite A; assumption|rewrite C; assumption|symmetry; exact E2| |].
    + left. exists q'. split; [|exact F2]. cbn [wire flat_map]. fold (wire ls). rewrite F1, <- !app_assoc. reflexivity.
    + right. replace ((l ++ CRLF) ++ z) with (l ++ CR :: LF :: z) by (rewrite <- app_assoc; reflexivity).
      rewrite P_line by (auto; apply G). exact F.
  - right. symmetry in E1. destruct (app_eq_app _ _ _ _ E1) as (w & [[F1 F2]|[F1 F2]]).
    + subst q. destruct w as [|a [|b [|c w]]].
      * rewrite app_nil_r. apply P_cut. apply G.
      * cbn in F2. injection F2 as <- _. apply P_cut_cr; auto; apply G.
      * cbn in F2. injection F2 as <- <- _. rewrite P_line by (auto; apply G). apply P_nil.
      * cbn in F2. discriminate.
    + apply P_cut. destruct G as (G & _). rewrite F1 in G. apply clean_app in G. apply G.
Qed.

Lemma legal_name_line k v : legal_name k -> clean v -> good_line (k ++ ":"%char :: v).
Proof.
  intros (H1 & H2 & H3 & H4 & H5) Hv. split; [|split].
  - apply clean_app. split; [apply clean_spec; exact H3|]. intros c [<-|Hc]; [reflexivity|]. apply Hv. exact Hc.
  - destruct k; discriminate.
  - destruct k; [congruence|]. exact H4.
Qed.
Lemma lines_good k v : legal_header k v -> Forall good_line (lines_of (k, v)).
Proof.
  intros (HN & HC & _). unfold lines_of. destruct (ieqb SC k) eqn:E1.
  - assert (K : is_name k SC) by (unfold is_name; unfold ieqb in E1; apply bytes_eqb_eq in E1; symmetry; exact E1).
    destruct (HC K) as (c & l & HF & ->). fold cookie_sep. rewrite parse_cookies by exact HF. apply Forall_forall.
    intros x Hx. apply in_map_iff in Hx. destruct Hx as (d & <- & Hd). rewrite Forall_forall in HF. destruct (HF d Hd) as (_ & F & _).
    change (lit "Set-Cookie: " ++ d) with (SC ++ ":"%char :: " "%char :: d). apply legal_name_line; [apply legal_SC|].
    intros a [<-|Ha]; [reflexivity|]. apply clean_spec in F. apply F. exact Ha.
  - destruct (ieqb CL k); [constructor|]. destruct (ieqb CE k && ieqb (lit "gzip") v); [constructor|]. constructor; [|constructor].
    apply (legal_name_line k (" "%char :: SEscape v unsafe_chars "\")); [exact HN|].
    intros a [<-|Ha]; [reflexivity|]. eapply esc_clean. exact Ha.
Qed.

Lemma arrived_key p : kcmp (fst (arrived p)) (fst p) = Eq.
Proof. unfold arrived. destruct (ieqb SC (fst p)) eqn:E; cbn [fst]; [apply kcmp_eq; exact E|apply kcmp_refl]. Qed.
Lemma tfind_below k t : Forall (fun p => kcmp (fst p) k = Lt) t -> tfind k t = None.
Proof.
  induction t as [|[k' v'] t IH]; intros H; [reflexivity|]. inversion H as [|? ? A B]; subst. cbn [fst] in A. cbn [tfind].
  rewrite (kcmp_flip k' k), A. cbn [CompOpp]. apply IH. exact B.
Qed.
Definition arrival (t : stable) : stable := map arrived (filter kept t).
Lemma arrival_app a b : arrival (a ++ b) = arrival a ++ arrival b.
Proof. unfold arrival. rewrite filter_app, map_app. reflexivity. Qed.
Lemma arrival_below k t : Forall (fun p => kcmp (fst p) k = Lt) t -> Forall (fun p => kcmp (fst p) k = Lt) (arrival t).
Proof.
  intros H. apply Forall_forall. intros x Hx. unfold arrival in Hx. apply in_map_iff in Hx. destruct Hx as (p & <- & Hp).
  apply filter_In in Hp. rewrite Forall_forall in H. rewrite (kcmp_eq_l _ _ k (arrived_key p)). apply H. apply Hp.
Qed.
Lemma table_lines t : forall acc st, table_ok (acc ++ t) -> (forall k v, In (k, v) t -> legal_header k v) ->
  p_table st = arrival acc -> p_table (headers st (flat_map lines_of t)) = arrival (acc ++ t).
Proof.
  induction t as [|[k v] t IH]; intros acc st Hok Hl Ht; [rewrite app_nil_r; exact Ht|].
  cbn [flat_map]. rewrite headers_app. replace (acc ++ (k, v) :: t) with ((acc ++ [(k, v)]) ++ t) by (rewrite <- app_assoc; reflexivity).
  apply IH; [rewrite <- app_assoc; exact Hok|intros; apply Hl; right; assumption|].
  pose proof (table_ok_below _ _ _ Hok) as B. cbn [fst] in B. apply arrival_below in B.
  destruct (entry_lines st k v) as (_ & E); [apply Hl; left; reflexivity|rewrite Ht; apply tfind_below; exact B|].
  rewrite E, Ht, arrival_app. unfold arrival at 4. cbn [filter]. destruct (kept (k, v)); [|cbn [map]; rewrite app_nil_r; reflexivity].
  cbn [map]. rewrite tput_last.
  - destruct (arrived (k, v)). reflexivity.
  - eapply Forall_impl; [|exact B]. intros p Hp. cbn beta in *. rewrite (kcmp_eq_r _ _ (fst p) (arrived_key (k, v))). exact Hp.
Qed.
Lemma all_good t : (forall k v, In (k, v) t -> legal_header k v) -> Forall good_line (flat_map lines_of t).
Proof.
  induction t as [|[k v] t IH]; intros H; [constructor|]. cbn [flat_map]. apply Forall_app. split.
  - apply lines_good. apply H. left. reflexivity.
  - apply IH. intros. apply H. right. assumption.
Qed.

(** ** A composed message *)
Definition compressed (gz : bytes -> bytes) (t : stable) (c : bytes) : bool := match gzipped gz t c with [] => false | _ => true end.
Definition tail_lines (gz : bytes -> bytes) (t : stable) (c : bytes) : list bytes :=
  (if compressed gz t c then [lit "Content-Encoding: gzip"] else [])
  ++ [lit "Content-Length: " ++ dec (N.of_nat (List.length (final_content gz t c)))].
Definition all_lines gz t c : list bytes := flat_map lines_of t ++ tail_lines gz t c.
Definition final_table (gz : bytes -> bytes) (t : stable) (c : bytes) : stable :=
  tput CL (dec (N.of_nat (List.length (final_content gz t c))))
       (if compressed gz t c then tput CE (lit "gzip") (arrival t) else arrival t).
Definition got (gz : bytes -> bytes) (x : message) : bytes * stable * bytes :=
  (msg_method x, final_table gz (msg_table x) (msg_content x), final_content gz (msg_table x) (msg_content x)).
Definition sent (gz : bytes -> bytes) (x : message) (X : bytes) : Prop :=
  legal x /\ (N.of_nat (List.length (final_content gz (msg_table x) (msg_content x))) < 2 ^ 31)%N /\
  SComposeHTTP gz (msg_method x) (msg_table x) (msg_content x) = Some X.

Lemma legal_CL : legal_name CL.
Proof. repeat split; try discriminate; vm_compute; intuition discriminate. Qed.
Lemma legal_CE : legal_name CE.
Proof. repeat split; try discriminate; vm_compute; intuition discriminate. Qed.
Lemma digit_plain c : is_digit c = true -> is_eol c = false /\ c <> " "%char /\ c <> "\"%char /\ c <> NUL /\ is_space c = false.
Proof.
  intros H. assert (X : forallb (fun c => implb (is_digit c) (negb (is_eol c) && negb (Ascii.eqb c " ") && negb (Ascii.eqb c "\") && negb (Ascii.eqb c NUL) && negb (is_space c))) all_ascii = true) by (vm_compute; reflexivity).
  pose proof (forall_ascii _ X c) as Y. cbn beta in Y. rewrite H in Y. cbn [implb] in Y. rewrite !andb_true_iff, !negb_true_iff, !Ascii.eqb_neq in Y. tauto.
Qed.
Lemma dec_plain n c : In c (dec n) -> is_eol c = false /\ c <> " "%char /\ c <> "\"%char /\ c <> NUL /\ is_space c = false.
Proof. intros H. apply digit_plain. pose proof (dec_digits n) as D. rewrite forallb_forall in D. apply D. exact H. Qed.
Lemma last_in (s : bytes) d : s <> [] -> In (last s d) s.
Proof. intros H. destruct (exists_last H) as (s' & a & ->). rewrite last_last. apply in_or_app. right. left. reflexivity. Qed.
Lemma dec_unpadded n : unpadded (dec n).
Proof.
  split.
  - pose proof (dec_nonempty n). destruct (dec n) as [|c r] eqn:E; [congruence|]. apply (dec_plain n). rewrite E. left. reflexivity.
  - apply (dec_plain n). apply last_in. apply dec_nonempty.
Qed.
Lemma tail_good gz t c : Forall good_line (tail_lines gz t c).
Proof.
  unfold tail_lines. apply Forall_app. split.
  - destruct (compressed gz t c); [|constructor]. constructor; [|constructor].
    apply (legal_name_line CE (lit " gzip")); [exact legal_CE|]. intros d Hd. repeat (destruct Hd as [<-|Hd]; [reflexivity|]). destruct Hd.
  - constructor; [|constructor]. set (n := N.of_nat _). apply (legal_name_line CL (" "%char :: dec n)); [exact legal_CL|].
    intros d [<-|Hd]; [reflexivity|]. apply (dec_plain n). exact Hd.
Qed.
Lemma tail_table gz t c st : p_table st = arrival t -> p_table (headers st (tail_lines gz t c)) = final_table gz t c.
Proof.
  intros H. unfold tail_lines, final_table. set (n := N.of_nat _).
  assert (A : forall st, p_table (header_line st (lit "Content-Length: " ++ dec n)) = tput CL (dec n) (p_table st)).
  { intros s. change (lit "Content-Length: " ++ dec n) with (CL ++ ":"%char :: " "%char :: dec n). rewrite header_line_std by exact legal_CL.
    rewrite trim_space by apply dec_unpadded. change (ieqb CL SC) with false.
    rewrite unescape_plain_all by (intros X; apply dec_plain in X; tauto). cbn [p_table]. destruct (tfind CL (p_table s)); reflexivity. }
  destruct (compressed gz t c).
  - cbn [app headers fold_left]. rewrite A. f_equal.
    change (lit "Content-Encoding: gzip") with (CE ++ ":"%char :: lit " gzip"). rewrite header_line_std by exact legal_CE.
    change (ieqb CE SC) with false. change (SUnescape (trim (lit " gzip")) "\") with (lit "gzip"). cbn [p_table]. rewrite H.
    destruct (tfind CE (arrival t)); reflexivity.
  - cbn [app headers fold_left]. rewrite A, H. reflexivity.
Qed.
Lemma compose_eq gz x X : sent gz x X ->
  X = msg_method x ++ CRLF ++ wire (all_lines gz (msg_table x) (msg_content x)) ++ CRLF ++ final_content gz (msg_table x) (msg_content x).
Proof.
  intros (_ & _ & E). unfold SComposeHTTP in E. destruct (negb _); [discriminate|]. injection E as <-.
  unfold all_lines. rewrite wire_app, <- table_wire. unfold tail_lines, compressed. set (t := msg_table x). set (c := msg_content x).
  rewrite <- !app_assoc. do 3 f_equal. destruct (gzipped gz t c) as [|a g]; cbn [app wire flat_map]; rewrite ?app_nil_r, <- ?app_assoc; reflexivity.
Qed.
Lemma tfind_arrival k t : table_ok t -> tfind k (arrival t) = match tfind k t with
   | Some v => if kept (k, v) then Some (snd (arrived (k, v))) else None | None => None end.
Proof.
  induction t as [|[k' v'] t IH]; intros H; [reflexivity|]. inversion H as [|? ? H1 H2]; subst. unfold arrival. cbn [tfind filter].
  destruct (kcmp k k') eqn:E.
  - assert (Q : forall z, ieqb z k = ieqb z k').
    { intros z. destruct (ieqb z k) eqn:A, (ieqb z k') eqn:B; auto.
      - apply kcmp_eq in A. rewrite (kcmp_eq_r _ _ z E) in A. apply kcmp_eq in A. congruence.
      - apply kcmp_eq in B. rewrite <- (kcmp_eq_r _ _ z E) in B. apply kcmp_eq in B. congruence. }
    replace (kept (k, v')) with (kept (k', v')) by (unfold kept; cbn [fst snd]; rewrite !Q; reflexivity).
    replace (snd (arrived (k, v'))) with (snd (arrived (k', v'))) by (unfold arrived; cbn [fst snd]; rewrite !Q; destruct (ieqb SC k'); reflexivity).
    destruct (kept (k', v')) eqn:K.
    + cbn [map]. destruct (arrived (k', v')) as [ka va] eqn:Ar. cbn [tfind snd].
      pose proof (arrived_key (k', v')) as AK. rewrite Ar in AK. cbn [fst] in AK. rewrite (kcmp_eq_r _ _ k AK), E. reflexivity.
    + assert (N : tfind k t = None).
      { clear - H2 E. induction t as [|[a b] t IH]; [reflexivity|]. inversion H2 as [|? ? A B]; subst. cbn [tfind].
        unfold klt in A. cbn [fst] in A. rewrite (kcmp_eq_l _ _ a E), A. apply IH. exact B. }
      change (map arrived (filter kept t)) with (arrival t). rewrite IH, N by exact H1. reflexivity.
  - destruct (kept (k', v')); cbn [map]; [|apply IH; exact H1].
    destruct (arrived (k', v')) as [ka va] eqn:Ar. pose proof (arrived_key (k', v')) as AK. rewrite Ar in AK. cbn [fst] in AK.
    cbn [tfind]. rewrite (kcmp_eq_r _ _ k AK), E. apply IH. exact H1.
  - destruct (kept (k', v')); cbn [map]; [|apply IH; exact H1].
    destruct (arrived (k', v')) as [ka va] eqn:Ar. pose proof (arrived_key (k', v')) as AK. rewrite Ar in AK. cbn [fst] in AK.
    cbn [tfind]. rewrite (kcmp_eq_r _ _ k AK), E. apply IH. exact H1.
Qed.

(** ** Parsing what was composed *)
Lemma final_lookup_TE gz t c v : table_ok t -> tfind TE (final_table gz t c) = Some v ->
  exists k w, In (k, w) t /\ is_name k TE /\ v = trim (cstr w).
Proof.
  intros Hok H. unfold final_table in H. rewrite tfind_tput in H. change (kcmp TE CL) with Gt in H. cbv iota in H.
  assert (H' : tfind TE (arrival t) = Some v).
  { destruct (compressed gz t c); [|exact H]. rewrite tfind_tput in H. exact H. }
  clear H. rewrite tfind_arrival in H' by exact Hok. destruct (tfind TE t) as [w|] eqn:E; [|discriminate].
  apply tfind_some in E. destruct E as (k & Hin & K). exists k, w. split; [exact Hin|]. split.
  - apply kcmp_sym, kcmp_eq in K. unfold ieqb in K. apply bytes_eqb_eq in K. exact K.
  - injection H' as <-. reflexivity.
Qed.
Lemma not_chunked gz x : legal x -> says_chunked (final_table gz (msg_table x) (msg_content x)) = false.
Proof.
  intros (_ & Hok & Hl & _). unfold says_chunked. destruct (tfind TE _) as [v|] eqn:E; [|reflexivity].
  apply final_lookup_TE in E; [|exact Hok]. destruct E as (k & w & Hin & Hk & ->).
  destruct (Hl _ _ Hin) as (_ & _ & X). specialize (X Hk (trim (cstr w)) (proj2 (stripped_trim w _) eq_refl)).
  destruct (ieqb (trim (cstr w)) (lit "chunked")) eqn:Y; [|reflexivity]. exfalso. apply X.
  unfold ieqb in Y. apply bytes_eqb_eq in Y. exact Y.
Qed.
Lemma method_parts m : legal_method m -> m <> [] /\ clean m /\ trim m = m.
Proof.
  intros (A & B & C). split; [exact A|]. split; [|apply trim_id; exact B].
  intros c Hc. destruct (C c Hc) as [->|(D & _)]; [reflexivity|].
  assert (X : forallb (fun c => implb (N.leb 32 (bcode c)) (negb (is_eol c))) all_ascii = true) by (vm_compute; reflexivity).
  pose proof (forall_ascii _ X c) as Y. cbn beta in Y. apply N.leb_le in D. rewrite D in Y. cbn [implb] in Y. apply negb_true_iff in Y. exact Y.
Qed.
Lemma stoll_dec n : (n < 2 ^ 31)%N -> stoll (dec n) = Some (Z.of_N n).
Proof.
  intros H. unfold stoll. assert (C : cstr (dec n) = dec n) by (apply cstr_nul_free; intros X; apply dec_plain in X; tauto).
  rewrite C. pose proof (dec_nonempty n) as NE. pose proof (dec_digits n) as D. pose proof (dec_value_dec n) as V.
  assert (P1 : forall c, In c (dec n) -> is_space c = false /\ c <> "-"%char /\ c <> "+"%char).
  { intros c Hc. rewrite forallb_forall in D. specialize (D c Hc).
    assert (X : forallb (fun c => implb (is_digit c) (negb (is_space c) && negb (Ascii.eqb c "-") && negb (Ascii.eqb c "+"))) all_ascii = true) by (vm_compute; reflexivity).
    pose proof (forall_ascii _ X c) as Y. cbn beta in Y. rewrite D in Y. cbn [implb] in Y. rewrite !andb_true_iff, !negb_true_iff, !Ascii.eqb_neq in Y. tauto. }
  destruct (dec n) as [|c r] eqn:E; [congruence|]. destruct (P1 c (or_introl eq_refl)) as (Q1 & Q2 & Q3).
  assert (S : skip_space (c :: r) = c :: r) by (cbn [skip_space]; rewrite Q1; reflexivity). rewrite S.
  cbv zeta.
  match goal with |- (let (_, _) := ?m in _) = _ => replace m with (false, c :: r) end.
  2:{ destruct c as [[] [] [] [] [] [] [] []]; try reflexivity; exfalso; [apply Q3|apply Q2]; reflexivity. }
  rewrite digits_of_all by exact D. rewrite V.
  replace ((Z.of_N n <? -9223372036854775808) || (9223372036854775807 <? Z.of_N n))%Z with false; [reflexivity|].
  symmetry. apply orb_false_iff. change (2 ^ 31)%N with 2147483648%N in H. split; apply Z.ltb_ge; lia.
Qed.
Lemma to_int_small z : (0 <= z < 2147483648)%Z -> to_int z = z.
Proof. intros H. unfold to_int. rewrite Z.mod_small by lia. lia. Qed.
Lemma final_CL gz t c : tfind CL (final_table gz t c) = Some (dec (N.of_nat (List.length (final_content gz t c)))).
Proof. unfold final_table. rewrite tfind_tput, kcmp_refl. reflexivity. Qed.
Lemma dec_length gz x X : sent gz x X ->
  stoll (dec (N.of_nat (List.length (final_content gz (msg_table x) (msg_content x))))) = Some (Z.of_nat (List.length (final_content gz (msg_table x) (msg_content x))))
  /\ to_int (Z.of_nat (List.length (final_content gz (msg_table x) (msg_content x)))) = Z.of_nat (List.length (final_content gz (msg_table x) (msg_content x))).
Proof.
  intros (_ & H & _). split; [rewrite stoll_dec by exact H; f_equal; lia|]. apply to_int_small. change (2 ^ 31)%N with 2147483648%N in H. lia.
Qed.

Definition after_headers (gz : bytes -> bytes) (x : message) : ps :=
  headers (with_method (msg_method x) ps0) (all_lines gz (msg_table x) (msg_content x)).
Lemma after_headers_spec gz x : legal x ->
  p_method (after_headers gz x) = msg_method x /\ p_chunked (after_headers gz x) = false /\ p_content (after_headers gz x) = [] /\
  p_table (after_headers gz x) = final_table gz (msg_table x) (msg_content x) /\
  Forall good_line (all_lines gz (msg_table x) (msg_content x)).
Proof.
  intros (Hm & Hok & Hl & _).
  assert (G : Forall good_line (all_lines gz (msg_table x) (msg_content x))) by (apply Forall_app; split; [apply all_good; exact Hl|apply tail_good]).
  destruct (headers_same _ (with_method (msg_method x) ps0) G) as (A & B & C).
  split; [exact A|]. split; [exact C|]. split; [exact B|]. split; [|exact G].
  unfold after_headers, all_lines. rewrite headers_app. apply tail_table. apply (table_lines (msg_table x) []); auto.
Qed.
Lemma P_head gz x total y : legal x ->
  P total (msg_method x ++ CRLF ++ wire (all_lines gz (msg_table x) (msg_content x)) ++ y) ps0 = P total y (after_headers gz x).
Proof.
  intros L. destruct (after_headers_spec gz x L) as (A & B & C & D & G). destruct L as (Hm & _).
  destruct (method_parts _ Hm) as (M1 & M2 & M3).
  change (msg_method x ++ CRLF ++ wire (all_lines gz (msg_table x) (msg_content x)) ++ y)
    with (msg_method x ++ CR :: LF :: (wire (all_lines gz (msg_table x) (msg_content x)) ++ y)).
  rewrite P_method by (auto; rewrite M3; exact M1). rewrite M3. apply P_lines; auto.
Qed.
Lemma P_body gz x X total y z : sent gz x X -> drop_eols 2 (CR :: y) = z ->
  P total (CR :: y) (after_headers gz x) =
  if Nat.ltb (List.length z) (List.length (final_content gz (msg_table x) (msg_content x))) then Incomplete
  else Done (total - List.length z + List.length (final_content gz (msg_table x) (msg_content x))) (msg_method x)
            (final_table gz (msg_table x) (msg_content x)) (firstn (List.length (final_content gz (msg_table x) (msg_content x))) z).
Proof.
  intros HS Hz. pose proof HS as (L & _). destruct (after_headers_spec gz x L) as (A & B & C & D & G).
  rewrite P_blank; [|rewrite A; apply L|exact B|rewrite D; apply not_chunked; exact L].
  unfold finish. rewrite Hz, D, final_CL. destruct (dec_length gz x X HS) as (E1 & E2). rewrite E1, E2, A.
  set (n := List.length (final_content gz (msg_table x) (msg_content x))).
  destruct (Nat.ltb_spec (List.length z) n) as [H|H].
  - replace (Z.of_nat (List.length z) <? Z.of_nat n)%Z with true by (symmetry; apply Z.ltb_lt; lia). reflexivity.
  - replace (Z.of_nat (List.length z) <? Z.of_nat n)%Z with false by (symmetry; apply Z.ltb_ge; lia).
    replace (Z.of_nat n <? 0)%Z with false by (symmetry; apply Z.ltb_ge; lia). rewrite Nat2Z.id. reflexivity.
Qed.

(* a whole message, whatever follows *)
Lemma P_sent gz x X total rest : sent gz x X -> List.length (X ++ rest) <= total ->
  P total (X ++ rest) ps0 = Done (total - List.length rest) (fst (fst (got gz x))) (snd (fst (got gz x))) (snd (got gz x)).
Proof.
  intros HS HT. pose proof HS as (L & _). rewrite (compose_eq _ _ _ HS) in *. rewrite !app_length in HT. cbn [List.length CRLF] in HT. rewrite <- !app_assoc.
  rewrite P_head by exact L. change (CRLF ++ ?y) with (CR :: LF :: y).
  rewrite (P_body gz x X) with (z := final_content gz (msg_table x) (msg_content x) ++ rest); [|exact HS|reflexivity].
  rewrite app_length. set (fc := final_content gz (msg_table x) (msg_content x)) in *.
  destruct (Nat.ltb_spec (List.length fc + List.length rest) (List.length fc)) as [H|H]; [lia|].
  unfold got. cbn [fst snd]. fold fc. rewrite firstn_app, Nat.sub_diag, firstn_all. cbn [firstn]. rewrite app_nil_r. f_equal. lia.
Qed.
(* part of a message *)
Lemma P_part gz x X total q r : sent gz x X -> q ++ r = X -> r <> [] ->
  P total q ps0 = Incomplete \/
  (final_content gz (msg_table x) (msg_content x) = [] /\ r = [LF] /\
   P total q ps0 = Done total (fst (fst (got gz x))) (snd (fst (got gz x))) (snd (got gz x))).
Proof.
  intros HS E HR. pose proof HS as (L & _). destruct (after_headers_spec gz x L) as (A & B & C & D & G).
  destruct (method_parts _ (proj1 L)) as (M1 & M2 & M3). rewrite (compose_eq _ _ _ HS) in E.
  set (ls := all_lines gz (msg_table x) (msg_content x)) in *. set (fc := final_content gz (msg_table x) (msg_content x)) in *.
  destruct (app_eq_app _ _ _ _ E) as (z & [[E1 E2]|[E1 E2]]).
  2:{ left. apply P_cut. rewrite E1 in M2. apply clean_app in M2. apply M2. }
  destruct z as [|a [|b z]].
  - left. rewrite E1, app_nil_r. apply P_cut. exact M2.
  - cbn in E2. injection E2 as <- E2. left. rewrite E1. apply P_method_cr; auto. rewrite M3. exact M1.
  - cbn in E2. injection E2 as <- <- E2. rewrite E1. rewrite P_method by (auto; rewrite M3; exact M1). rewrite M3.
    destruct (P_prefix total ls z r (CR :: LF :: fc) (with_method (msg_method x) ps0) G) as [(q' & F1 & F2)|F]; auto.
    rewrite F1. rewrite P_lines by auto.
    change (headers (with_method (msg_method x) ps0) ls) with (after_headers gz x).
    destruct q' as [|a q']; [left; apply P_nil|]. cbn [app] in F2. injection F2 as -> F2. destruct q' as [|b q'].
    + cbn [app] in F2. rewrite (P_body gz x X total [] []) by (auto; reflexivity). fold fc.
      destruct fc as [|f fc'] eqn:Ef; [|left; reflexivity]. right. split; [reflexivity|]. split; [exact F2|].
      unfold got. cbn [fst snd]. fold fc. rewrite Ef. cbn [List.length Nat.ltb Nat.leb firstn]. f_equal. lia.
    + cbn [app] in F2. injection F2 as -> F2. left. rewrite (P_body gz x X total (LF :: q') q') by (auto; reflexivity). fold fc.
      replace (Nat.ltb (List.length q') (List.length fc)) with true; [reflexivity|]. symmetry. apply Nat.ltb_lt.
      rewrite <- F2, app_length. destruct r; [congruence|]. cbn [List.length]. lia.
Qed.

(** ** Several messages *)
Definition lead (pre : bytes) : Prop := pre = [] \/ pre = [LF].
Lemma method_head m y : legal_method m -> exists a s, m ++ y = a :: s /\ is_eol a = false.
Proof. intros H. destruct (method_parts _ H) as (A & B & _). destruct m as [|a m]; [congruence|]. exists a, (m ++ y). split; [reflexivity|]. apply B. left. reflexivity. Qed.
Lemma P_lead total pre a s : lead pre -> is_eol a = false -> P total (pre ++ a :: s) ps0 = P total (a :: s) ps0.
Proof.
  intros [->| ->] H; [reflexivity|]. cbn [app]. rewrite P_eq. unfold round. cbn [split_line]. change (is_eol LF) with true. cbv iota. cbn [p_method ps0 eat_eol].
  change (Ascii.eqb LF CR) with false. change (Ascii.eqb LF LF) with true. unfold is_eol in H. apply orb_false_iff in H. destruct H as [H _].
  rewrite H. reflexivity.
Qed.
Lemma P_lead_only total pre : lead pre -> P total pre ps0 = Incomplete.
Proof. intros [->| ->]; [apply P_nil|]. rewrite P_eq. unfold round. cbn [split_line]. change (is_eol LF) with true. cbv iota. cbn [p_method ps0 eat_eol]. change (is_eol LF) with true. cbv iota. apply P_nil. Qed.
Lemma sent_head gz x X y : sent gz x X -> exists a s, X ++ y = a :: s /\ is_eol a = false.
Proof. intros H. rewrite (compose_eq _ _ _ H), <- !app_assoc. apply method_head. apply H. Qed.
Lemma sent_nonempty gz x X : sent gz x X -> X <> [].
Proof. intros H E. destruct (sent_head gz x X [] H) as (a & s & F & _). rewrite E in F. discriminate. Qed.

Lemma parse_whole gz x X pre rest : sent gz x X -> lead pre ->
  SParseHTTP (pre ++ X ++ rest) = Done (List.length (pre ++ X)) (fst (fst (got gz x))) (snd (fst (got gz x))) (snd (got gz x)).
Proof.
  intros HS HP. rewrite SParseHTTP_P. destruct (sent_head gz x X rest HS) as (a & s & E & Ha).
  rewrite E at 2. rewrite P_lead by auto. rewrite <- E. rewrite (P_sent gz x) by (auto; rewrite !app_length; lia). f_equal. rewrite !app_length. lia.
Qed.
Lemma parse_part gz x X pre q r : sent gz x X -> lead pre -> q ++ r = X -> r <> [] ->
  SParseHTTP (pre ++ q) = Incomplete \/
  (final_content gz (msg_table x) (msg_content x) = [] /\ r = [LF] /\
   SParseHTTP (pre ++ q) = Done (List.length (pre ++ q)) (fst (fst (got gz x))) (snd (fst (got gz x))) (snd (got gz x))).
Proof.
  intros HS HP E HR. rewrite SParseHTTP_P. destruct q as [|a q]; [left; rewrite app_nil_r; apply P_lead_only; exact HP|].
  destruct (sent_head gz x X [] HS) as (b & s & F & Hb). rewrite app_nil_r, <- E in F. cbn [app] in F. injection F as -> _.
  rewrite P_lead by auto. eapply P_part; eauto.
Qed.

Lemma drain_none f b : SParseHTTP b = Incomplete -> drain f b = ([], b).
Proof. intros H. destruct f as [|f]; [reflexivity|]. cbn [drain]. rewrite H. reflexivity. Qed.
Lemma drain_step f b n m t c : SParseHTTP b = Done n m t c -> n <> 0 ->
  drain (S f) b = ((m, t, c) :: fst (drain f (skipn n b)), snd (drain f (skipn n b))).
Proof. intros H Hn. cbn [drain]. rewrite H. destruct n as [|n]; [congruence|]. destruct (drain f (skipn (S n) b)) as [l b']. reflexivity. Qed.

Lemma drain_spec gz xs : forall Xs pre b future f, Forall2 (sent gz) xs Xs -> lead pre -> List.length b < f ->
  b ++ future = pre ++ concat Xs ->
  exists xs1 xs2 Xs2 pre' b', xs = xs1 ++ xs2 /\ drain f b = (map (got gz) xs1, b') /\ Forall2 (sent gz) xs2 Xs2 /\ lead pre' /\
     b' ++ future = pre' ++ concat Xs2 /\ (future = [] -> xs2 = []).
Proof.
  induction xs as [|x xs IH]; intros Xs pre b future f HF HP Hf E.
  - inversion HF; subst. cbn [concat] in E. rewrite app_nil_r in E. exists [], [], [], pre, b. split; [reflexivity|]. split; [|].
    + apply drain_none. rewrite SParseHTTP_P. apply P_lead_only. destruct HP as [->| ->].
      * left. apply app_eq_nil in E. apply E.
      * apply app_eq_unit in E. destruct E as [[-> _]|[-> _]]; [left|right]; reflexivity.
    + split; [constructor|]. split; [exact HP|]. split; [cbn [concat]; rewrite app_nil_r; exact E|reflexivity].
  - inversion HF as [|? X ? Xs' HX HF']; subst. cbn [concat] in E. destruct f as [|f]; [lia|]. rewrite app_assoc in E.
    assert (STEP : forall b1 pre1, lead pre1 -> b1 ++ future = pre1 ++ concat Xs' ->
              SParseHTTP b = Done (List.length b - List.length b1) (fst (fst (got gz x))) (snd (fst (got gz x))) (snd (got gz x)) ->
              skipn (List.length b - List.length b1) b = b1 -> List.length b1 < List.length b ->
              exists xs1 xs2 Xs2 pre' b', x :: xs = xs1 ++ xs2 /\ drain (S f) b = (map (got gz) xs1, b') /\ Forall2 (sent gz) xs2 Xs2 /\ lead pre' /\
                 b' ++ future = pre' ++ concat Xs2 /\ (future = [] -> xs2 = [])).
    { intros b1 pre1 L1 E1 HD Hs Hl. destruct (IH Xs' pre1 b1 future f HF' L1) as (xs1 & xs2 & Xs2 & pre' & b' & I1 & I2 & I3 & I4 & I5 & I6); [lia|exact E1|].
      exists (x :: xs1), xs2, Xs2, pre', b'. split; [cbn [app]; congruence|]. split; [|auto].
      rewrite (drain_step _ _ _ _ _ _ HD) by lia. rewrite Hs, I2. cbn [fst snd map]. destruct (got gz x) as [[m t] c]. reflexivity. }
    pose proof (sent_nonempty _ _ _ HX) as XNE. assert (XL : 0 < List.length X) by (destruct X; [congruence|cbn [List.length]; lia]).
    destruct (app_eq_app _ _ _ _ E) as (z & [[E1 E2]|[E1 E2]]).
    + apply (STEP z []); [left; reflexivity|symmetry; exact E2| | |].
      * rewrite E1, <- app_assoc, (parse_whole gz x X pre z) by auto. f_equal. rewrite !app_length. lia.
      * rewrite E1, app_length, Nat.add_sub, skipn_app, skipn_all, Nat.sub_diag. reflexivity.
      * rewrite E1, !app_length. lia.
    + destruct z as [|c z].
      { apply (STEP [] []); [left; reflexivity|exact E2| | |].
        - rewrite app_nil_r in E1. rewrite <- E1. pose proof (parse_whole gz x X pre [] HX HP) as W. rewrite app_nil_r in W. rewrite W.
          f_equal. cbn [List.length]. lia.
        - cbn [List.length]. rewrite Nat.sub_0_r. apply skipn_all.
        - rewrite app_nil_r in E1. rewrite <- E1, app_length. cbn [List.length]. lia. }
      symmetry in E1. destruct (app_eq_app _ _ _ _ E1) as (q & [[F1 F2]|[F1 F2]]).
      * destruct (parse_part gz x X pre q (c :: z) HX HP) as [HI|(HC & HR & HD)]; [symmetry; exact F2|discriminate| |].
        -- exists [], (x :: xs), (X :: Xs'), pre, b. split; [reflexivity|]. split; [apply drain_none; rewrite F1; exact HI|].
           split; [exact HF|]. split; [exact HP|]. split; [cbn [concat]; rewrite app_assoc; exact E|]. rewrite E2. discriminate.
        -- apply (STEP [] [LF]); [right; reflexivity|rewrite E2, HR; reflexivity| | |].
           ++ rewrite F1, HD. f_equal. cbn [List.length]. lia.
           ++ cbn [List.length]. rewrite Nat.sub_0_r. apply skipn_all.
           ++ rewrite F1, app_length. rewrite F2, HR, app_length in XL. cbn [List.length] in *.
              destruct q as [|a q]; [|cbn [List.length]; lia].
              exfalso. destruct (sent_head gz x X [] HX) as (a & s & G & Ga). rewrite F2, HR in G. cbn in G. injection G as <- _. discriminate.
      * exists [], (x :: xs), (X :: Xs'), pre, b. split; [reflexivity|]. split.
        -- apply drain_none. rewrite SParseHTTP_P. apply P_lead_only. destruct HP as [->| ->].
           ++ symmetry in F1. apply app_eq_nil in F1. left. apply F1.
           ++ symmetry in F1. apply app_eq_unit in F1. destruct F1 as [[-> _]|[-> _]]; [left|right]; reflexivity.
        -- split; [exact HF|]. split; [exact HP|]. split; [cbn [concat]; rewrite app_assoc; exact E|]. rewrite E2. discriminate.
Qed.
Lemma receive_spec gz pieces : forall xs Xs pre b, Forall2 (sent gz) xs Xs -> lead pre -> b ++ concat pieces = pre ++ concat Xs ->
  (concat pieces = [] -> xs = []) -> exists b', receive b pieces = (map (got gz) xs, b') /\ lead b'.
Proof.
  induction pieces as [|p r IH]; intros xs Xs pre b HF HP E HN; cbn [receive].
  - assert (xs = []) by (apply HN; reflexivity). subst xs. inversion HF; subst. cbn [concat] in E. rewrite !app_nil_r in E. subst b. exists pre. split; [reflexivity|exact HP].
  - cbn [concat] in E. rewrite app_assoc in E.
    destruct (drain_spec gz xs Xs pre (b ++ p) (concat r) (S (List.length (b ++ p))) HF HP) as (xs1 & xs2 & Xs2 & pre' & b' & I1 & I2 & I3 & I4 & I5 & I6); [lia|exact E|].
    rewrite I2. destruct (IH xs2 Xs2 pre' b' I3 I4 I5 I6) as (b2 & J1 & J2). rewrite J1. exists b2. split; [|exact J2].
    rewrite I1, map_app. reflexivity.
Qed.

(** ** What arrives *)
Lemma wants_gzip_asks t : table_ok t -> wants_gzip t = true <-> asks_gzip t.
Proof.
  intros Hok. unfold wants_gzip, asks_gzip. rewrite existsb_exists. split.
  - intros ((k & v) & Hin & H). cbn [fst snd] in H. rewrite !andb_true_iff in H. destruct H as [[[_ _] H] H2]. exists v. split.
    + rewrite (tfind_cong CE k) by (apply kcmp_eq; exact H). apply tfind_in; auto.
    + unfold ieqb in H2. apply bytes_eqb_eq in H2. symmetry. exact H2.
  - intros (v & H1 & H2). fold CE in H1. apply tfind_some in H1. destruct H1 as (k & Hin & K). exists (k, v). split; [exact Hin|]. cbn [fst snd].
    assert (Q : forall z, ieqb z k = ieqb z CE).
    { intros z. destruct (ieqb z k) eqn:A, (ieqb z CE) eqn:B; auto.
      - apply kcmp_eq in A. rewrite <- (kcmp_eq_r _ _ z K) in A. apply kcmp_eq in A. congruence.
      - apply kcmp_eq in B. rewrite (kcmp_eq_r _ _ z K) in B. apply kcmp_eq in B. congruence. }
    rewrite !Q. change (ieqb SC CE) with false. change (ieqb CL CE) with false. change (ieqb CE CE) with true. cbn [negb andb].
    unfold ieqb. unfold SToLower in H2. rewrite H2. reflexivity.
Qed.
Lemma arrival_ok t : table_ok t -> table_ok (arrival t).
Proof.
  intros H. unfold arrival. apply (table_ok_filter kept) in H. revert H. generalize (filter kept t). clear t. intros t.
  induction t as [|p t IH]; intros H; [constructor|]. inversion H as [|? ? A B]; subst. cbn [map]. constructor; [apply IH; exact A|].
  apply Forall_forall. intros q Hq. apply in_map_iff in Hq. destruct Hq as (q' & <- & Hq). rewrite Forall_forall in B. specialize (B _ Hq).
  unfold klt in *. rewrite (kcmp_eq_l _ _ _ (arrived_key p)), (kcmp_eq_r _ _ _ (arrived_key q')). exact B.
Qed.
Lemma is_name_kcmp k n : is_name k n <-> kcmp k n = Eq.
Proof. rewrite kcmp_eq. unfold ieqb, is_name. rewrite bytes_eqb_eq. reflexivity. Qed.
Lemma compressed_spec gz t c : table_ok t -> compressed gz t c = true <-> asks_gzip t /\ c <> [] /\ gz c <> [].
Proof.
  intros H. rewrite <- wants_gzip_asks by exact H. unfold compressed, gzipped. destruct (wants_gzip t).
  - destruct c as [|a c]; [cbn [andb negb]; intuition congruence|]. cbn [andb negb]. destruct (gz (a :: c)); intuition congruence.
  - cbn [andb]. intuition congruence.
Qed.
Lemma got_arrives gz x : legal x -> arrives gz x (got gz x).
Proof.
  intros (_ & Hok & Hl & _). unfold arrives, got. split; [reflexivity|]. set (t := msg_table x) in *. set (c := msg_content x) in *.
  exists (compressed gz t c). split; [|split; [apply compressed_spec; exact Hok|]].
  2:{ unfold final_content, compressed, gzipped. destruct (wants_gzip t && _); [|reflexivity]. destruct (gz c); reflexivity. }
  assert (AR : forall k, kcmp k CL <> Eq -> kcmp k CE <> Eq -> tfind k (final_table gz t c) = tfind k (arrival t)).
  { intros k H1 H2. unfold final_table. rewrite tfind_tput. destruct (kcmp k CL); [congruence| |]; (destruct (compressed gz t c); [|reflexivity]);
    rewrite tfind_tput; destruct (kcmp k CE); congruence. }
  assert (ARC : forall k, kcmp k CE = Eq -> tfind k (final_table gz t c) = if compressed gz t c then Some (lit "gzip") else tfind k (arrival t)).
  { intros k H2. unfold final_table. rewrite tfind_tput. rewrite (kcmp_eq_l _ _ CL H2). change (kcmp CE CL) with Lt. cbv iota.
    destruct (compressed gz t c); [|reflexivity]. rewrite tfind_tput, H2. reflexivity. }
  constructor.
  - unfold final_table. apply tput_ok. destruct (compressed gz t c); [apply tput_ok|]; apply arrival_ok; exact Hok.
  - apply final_CL.
  - intros HC. fold CE. rewrite ARC by reflexivity. rewrite HC. reflexivity.
  - intros HC (v & A & B). fold CE in *. rewrite ARC by reflexivity. rewrite HC, tfind_arrival, A by exact Hok. unfold kept. cbn [fst snd].
    change (ieqb CE CE) with true. unfold ieqb, SToLower in *. rewrite B. reflexivity.
  - fold SC. rewrite AR by discriminate. rewrite tfind_arrival by exact Hok. destruct (tfind SC t) as [v|]; [|reflexivity].
    unfold kept, arrived. cbn [fst snd]. reflexivity.
  - intros k N1 N2 N3. fold CL SC CE in *. rewrite is_name_kcmp in N1, N2, N3.
    assert (V : tfind k (final_table gz t c) = tfind k (arrival t)).
    { destruct (kcmp k CE) eqn:K; [|apply AR; congruence|apply AR; congruence]. rewrite ARC by exact K.
      destruct (compressed gz t c) eqn:HC; [|reflexivity]. exfalso. apply N3. split; [reflexivity|]. apply compressed_spec in HC; [|exact Hok]. apply HC. }
    rewrite V, tfind_arrival by exact Hok. destruct (tfind k t) as [v|] eqn:F; [|reflexivity].
    assert (K : kept (k, v) = true).
    { unfold kept. cbn [fst snd]. rewrite andb_true_iff, !negb_true_iff. split.
      - destruct (ieqb CL k) eqn:Z; [|reflexivity]. exfalso. apply N1. apply kcmp_sym. apply kcmp_eq. exact Z.
      - destruct (ieqb CE k) eqn:Z; [|reflexivity]. cbn [andb]. destruct (ieqb (lit "gzip") v) eqn:Y; [|reflexivity].
        exfalso. apply N3. apply kcmp_eq in Z. split; [apply kcmp_sym; exact Z|]. exists v. split; [rewrite <- F; apply tfind_cong; exact Z|].
        unfold ieqb in Y. apply bytes_eqb_eq in Y. symmetry. exact Y. }
    rewrite K. unfold arrived. cbn [fst snd]. destruct (ieqb SC k) eqn:Z; [exfalso; apply N2; apply kcmp_sym; apply kcmp_eq; exact Z|].
    eexists. split; [reflexivity|]. apply stripped_trim. reflexivity.
Qed.

(** ** The command port *)
Lemma blank_cons c s : is_eol c = false -> blank_line_in (c :: s) = blank_line_in s.
Proof.
  intros H. unfold is_eol in H. apply orb_false_iff in H. destruct H as [H1 H2]. destruct s as [|b s]; [reflexivity|].
  change (blank_line_in (c :: b :: s)) with ((Ascii.eqb c LF && Ascii.eqb b LF)
          || (Ascii.eqb c CR && Ascii.eqb b LF && match s with x :: y :: _ => Ascii.eqb x CR && Ascii.eqb y LF | _ => false end)
          || blank_line_in (b :: s)). rewrite H1, H2. reflexivity.
Qed.
Lemma blank_in a y : blank_line_in (a ++ CR :: LF :: CR :: LF :: y) = true.
Proof.
  induction a as [|c a IH]; [reflexivity|]. cbn [app]. destruct (a ++ CR :: LF :: CR :: LF :: y) as [|b s] eqn:E; [destruct a; discriminate|].
  change (blank_line_in (c :: b :: s)) with ((Ascii.eqb c LF && Ascii.eqb b LF)
          || (Ascii.eqb c CR && Ascii.eqb b LF && match s with x :: y :: _ => Ascii.eqb x CR && Ascii.eqb y LF | _ => false end)
          || blank_line_in (b :: s)). rewrite IH, !orb_true_r. reflexivity.
Qed.
Lemma blank_skip l y : clean l -> blank_line_in (l ++ y) = blank_line_in y.
Proof.
  induction l as [|c l IH]; intros H; [reflexivity|]. cbn [app]. rewrite blank_cons by (apply H; left; reflexivity). apply IH.
  intros d Hd. apply H. right. exact Hd.
Qed.
Lemma blank_not_in ls : forall l, clean l -> Forall good_line ls -> blank_line_in (l ++ CR :: LF :: wire ls ++ [CR]) = false.
Proof.
  induction ls as [|l2 ls IH]; intros l H HF; rewrite blank_skip by exact H; [reflexivity|].
  inversion HF as [|? ? G HF']; subst. cbn [wire flat_map]. fold (wire ls).
  replace (((l2 ++ CRLF) ++ wire ls) ++ [CR]) with (l2 ++ CR :: LF :: wire ls ++ [CR]) by (rewrite <- !app_assoc; reflexivity).
  destruct G as (G1 & G2 & G3). specialize (IH l2 G1 HF'). destruct l2 as [|a l2]; [congruence|]. cbn [app] in *.
  set (y := l2 ++ CR :: LF :: wire ls ++ [CR]) in *. pose proof (G1 a (or_introl eq_refl)) as Ha. unfold is_eol in Ha. apply orb_false_iff in Ha.
  destruct Ha as [A1 A2].
  change (blank_line_in (CR :: LF :: a :: y)) with (match y with b :: _ => Ascii.eqb a CR && Ascii.eqb b LF | _ => false end
       || ((Ascii.eqb a LF || false) || blank_line_in (a :: y))). rewrite A1, A2, IH. destruct y; reflexivity.
Qed.
Lemma tail_split gz t c : exists ls0 l, all_lines gz t c = ls0 ++ [l].
Proof. unfold all_lines, tail_lines. rewrite app_assoc. eexists _, _. reflexivity. Qed.
Lemma block_whole gz x X rest : sent gz x X -> header_block (X ++ rest) = true.
Proof.
  intros HS. pose proof HS as (L & _). rewrite (compose_eq _ _ _ HS). destruct (tail_split gz (msg_table x) (msg_content x)) as (ls0 & l & ->).
  rewrite wire_app. cbn [wire flat_map]. fold (wire ls0). destruct (method_parts _ (proj1 L)) as (A & _). destruct (msg_method x) as [|a m]; [congruence|].
  set (fc := final_content _ _ _).
  replace (((a :: m) ++ CRLF ++ (wire ls0 ++ (l ++ CRLF) ++ []) ++ CRLF ++ fc) ++ rest)
    with (a :: (m ++ CRLF ++ wire ls0 ++ l) ++ CR :: LF :: CR :: LF :: (fc ++ rest))
    by (rewrite app_nil_r; cbn [app]; rewrite <- !app_assoc; reflexivity).
  unfold header_block. rewrite blank_in, andb_true_r. apply Nat.leb_le. cbn [List.length]. rewrite app_length. cbn [List.length]. lia.
Qed.
Lemma block_part gz x X q : sent gz x X -> final_content gz (msg_table x) (msg_content x) = [] -> q ++ [LF] = X -> header_block q = false.
Proof.
  intros HS HC E. pose proof HS as (L & _). rewrite (compose_eq _ _ _ HS), HC in E.
  destruct (after_headers_spec gz x L) as (_ & _ & _ & _ & G). destruct (method_parts _ (proj1 L)) as (M1 & M2 & _).
  set (ls := all_lines gz (msg_table x) (msg_content x)) in *.
  assert (Q : q = msg_method x ++ CR :: LF :: wire ls ++ [CR]).
  { apply (app_inv_tail [LF]). rewrite E. rewrite <- !app_assoc. cbn [app]. rewrite <- !app_assoc. reflexivity. }
  rewrite Q. unfold header_block. destruct (msg_method x) as [|a m]; [congruence|]. cbn [app].
  rewrite blank_not_in; [apply andb_false_r| |exact G]. intros c Hc. apply M2. right. exact Hc.
Qed.
Lemma arrive_part gz x X q r pieces : sent gz x X -> q ++ r = X -> r <> [] ->
  (if header_block q
      then match SParseHTTP q with
           | Done n m t c => match handle_socket (skipn n q) pieces with
                             | Some (l, b') => Some ((m, t, c) :: l, b')
                             | None => None
                             end
           | Incomplete => handle_socket q pieces
           | _ => None
           end
      else handle_socket q pieces) = handle_socket q pieces.
Proof.
  intros HS E HR. destruct (header_block q) eqn:B; [|reflexivity].
  destruct (parse_part gz x X [] q r HS (or_introl eq_refl) E HR) as [H|(H1 & H2 & _)]; cbn [app] in *; [rewrite H; reflexivity|].
  exfalso. subst r. rewrite (block_part gz x X q HS H1 E) in B. discriminate.
Qed.
Lemma arrive_whole gz x X z pieces : sent gz x X ->
  (if header_block (X ++ z)
      then match SParseHTTP (X ++ z) with
           | Done n m t c => match handle_socket (skipn n (X ++ z)) pieces with
                             | Some (l, b') => Some ((m, t, c) :: l, b')
                             | None => None
                             end
           | Incomplete => handle_socket (X ++ z) pieces
           | _ => None
           end
      else handle_socket (X ++ z) pieces) =
  match handle_socket z pieces with Some (l, b') => Some (got gz x :: l, b') | None => None end.
Proof.
  intros HS. rewrite (block_whole gz x X z HS). pose proof (parse_whole gz x X [] z HS (or_introl eq_refl)) as W. cbn [app] in W. rewrite W.
  rewrite skipn_app, skipn_all, Nat.sub_diag. cbn [app skipn]. destruct (got gz x) as [[m t] c]. reflexivity.
Qed.
Lemma socket_spec gz pieces : forall xs Xs b, Forall2 (sent gz) xs Xs -> b ++ concat pieces = concat Xs ->
  exists xs1 xs2 Xs2, xs = xs1 ++ xs2 /\ Forall2 (sent gz) xs2 Xs2 /\ handle_socket b pieces = Some (map (got gz) xs1, concat Xs2).
Proof.
  induction pieces as [|p r IH]; intros xs Xs b HF E.
  - cbn [concat] in E. rewrite app_nil_r in E. exists [], xs, Xs. split; [reflexivity|]. split; [exact HF|]. rewrite <- E. reflexivity.
  - cbn [concat] in E. rewrite app_assoc in E. cbn [handle_socket]. inversion HF as [|x X xs' Xs' HX HF']; subst.
    + cbn [concat] in E. apply app_eq_nil in E. destruct E as [E1 E2]. rewrite E1. change (header_block []) with false. cbv iota.
      apply (IH [] [] []); [constructor|]. rewrite E2. reflexivity.
    + cbn [concat] in E. destruct (app_eq_app _ _ _ _ E) as (z & [[E1 E2]|[E1 E2]]).
      * rewrite E1, (arrive_whole gz x X z r HX). destruct (IH xs' Xs' z HF') as (xs1 & xs2 & Xs2 & I1 & I2 & I3); [symmetry; exact E2|].
        exists (x :: xs1), xs2, Xs2. split; [cbn [app]; congruence|]. split; [exact I2|]. rewrite I3. reflexivity.
      * destruct z as [|c z].
        -- rewrite app_nil_r in E1. rewrite <- E1. pose proof (arrive_whole gz x X [] r HX) as W. rewrite app_nil_r in W. rewrite W.
           destruct (IH xs' Xs' [] HF') as (xs1 & xs2 & Xs2 & I1 & I2 & I3); [exact E2|].
           exists (x :: xs1), xs2, Xs2. split; [cbn [app]; congruence|]. split; [exact I2|]. rewrite I3. reflexivity.
        -- rewrite (arrive_part gz x X (b ++ p) (c :: z) r HX); [|symmetry; exact E1|discriminate].
           apply (IH (x :: xs') (X :: Xs') (b ++ p) HF). exact E.
Qed.
Lemma socket_empties zs R : concat zs = [] -> handle_socket [] (zs ++ R) = handle_socket [] R.
Proof.
  induction zs as [|z zs IH]; intros H; [reflexivity|]. cbn [concat] in H. apply app_eq_nil in H. destruct H as [-> H].
  cbn [app handle_socket]. change (header_block []) with false. cbv iota. apply IH. exact H.
Qed.
Lemma socket_group gz x X R ps : forall q, sent gz x X -> q ++ concat ps = X -> concat ps <> [] ->
  handle_socket q (ps ++ R) = match handle_socket [] R with Some (l, b') => Some (got gz x :: l, b') | None => None end.
Proof.
  induction ps as [|p ps IH]; intros q HS E HN; [exfalso; apply HN; reflexivity|]. cbn [concat] in E, HN. cbn [app handle_socket]. rewrite app_assoc in E.
  destruct (concat ps) as [|c w] eqn:Ec.
  - rewrite app_nil_r in E. rewrite E. pose proof (arrive_whole gz x X [] (ps ++ R) HS) as W. rewrite app_nil_r in W. rewrite W.
    rewrite socket_empties by exact Ec. reflexivity.
  - rewrite (arrive_part gz x X (q ++ p) (c :: w) (ps ++ R) HS E); [|discriminate]. apply IH; auto; discriminate.
Qed.
Lemma socket_groups gz xs gs : Forall2 (fun x g => sent gz x (concat g)) xs gs -> handle_socket [] (concat gs) = Some (map (got gz) xs, []).
Proof.
  induction 1 as [|x g xs gs HX HF IH]; [reflexivity|]. cbn [concat].
  rewrite (socket_group gz x (concat g) (concat gs) g []) by (auto; apply (sent_nonempty _ _ _ HX)). rewrite IH. reflexivity.
Qed.

(** ** Any input *)
Definition infix (w s : bytes) : Prop := exists a b, s = a ++ w ++ b.
Lemma infix_refl s : infix s s. Proof. exists [], []. rewrite app_nil_r. reflexivity. Qed.
Lemma infix_trans a b c : infix a b -> infix b c -> infix a c.
Proof. intros (x & y & ->) (u & v & ->). exists (u ++ x), (y ++ v). rewrite <- !app_assoc. reflexivity. Qed.
Lemma infix_l a b : infix a (a ++ b). Proof. exists [], b. reflexivity. Qed.
Lemma infix_r a b : infix b (a ++ b). Proof. exists a, []. rewrite app_nil_r. reflexivity. Qed.
Lemma infix_skipn n s : infix (skipn n s) s.
Proof. rewrite <- (firstn_skipn n s) at 2. apply infix_r. Qed.
Lemma infix_eat s : infix (eat_eol s) s.
Proof.
  destruct s as [|a [|b s]]; cbn [eat_eol]; repeat case_if; try apply infix_refl; try (apply (infix_r [a])); apply (infix_r [a; b]).
Qed.
Lemma infix_trim s : infix (trim s) s.
Proof. destruct (trim_split s) as (i & j & E). exists (repeat " "%char i), (repeat " "%char j). exact E. Qed.
Lemma find_sep_split sep s : s = fst (find_sep sep s) ++ snd (find_sep sep s).
Proof. induction s as [|c s IH]; cbn [find_sep]; [reflexivity|]. destruct (Ascii.eqb c sep); [reflexivity|]. destruct (find_sep sep s) as [a b]. cbn [fst snd app] in *. congruence. Qed.
Lemma up_to_end_trim line : up_to_end line [] = trim line.
Proof. unfold up_to_end. destruct (trim line); reflexivity. Qed.
Lemma infix_chunk line : infix (chunk_size line) line.
Proof.
  unfold chunk_size. cbv zeta. rewrite up_to_end_trim. apply (infix_trans _ (trim line)); [|apply infix_trim].
  pose proof (find_sep_split ";" (trim line)) as E. destruct (find_sep ";" (trim line)) as [a [|x r]]; [apply infix_refl|].
  cbn [fst snd] in E. rewrite E. apply infix_l.
Qed.
(* eight hexadecimal digits in a row, for a number that is negative as an int and takes away no more than there is *)
Definition long_hex (total : nat) (s : bytes) : Prop := exists w, infix w s /\ List.length w = 8 /\ forallb (fun c => match hexval c with Some _ => true | None => false end) w = true /\
  (4294967296 <= SFromHex w + N.of_nat total)%N.
Lemma header_line_content st line : p_content (header_line st line) = p_content st.
Proof.
  unfold header_line. destruct (match line with [] => false | c :: _ => is_space c end).
  - destruct (p_name st); reflexivity.
  - destruct (up_to_next ":" line (p_name st)) as [[|a n] rest]; reflexivity.
Qed.
Lemma header_line_method st line : p_method st <> [] -> p_method (header_line st line) <> [].
Proof.
  intros H. unfold header_line. destruct (match line with [] => false | c :: _ => is_space c end).
  - destruct (p_name st); [|exact H]. cbn [p_method]. destruct (p_method st); [congruence|discriminate].
  - destruct (up_to_next ":" line (p_name st)) as [[|a n] rest]; exact H.
Qed.

Lemma from_hex_bound s : forall acc, (from_hex acc s < (acc + 1) * 16 ^ N.of_nat (List.length s))%N.
Proof.
  induction s as [|c s IH]; intros acc; cbn [from_hex List.length]; [change (16 ^ N.of_nat 0)%N with 1%N; lia|].
  rewrite Nat2N.inj_succ, N.pow_succ_r'. set (p := (16 ^ N.of_nat (List.length s))%N) in *.
  assert (Hp : (1 <= p)%N) by (unfold p; assert (16 ^ N.of_nat (List.length s) <> 0)%N by (apply N.pow_nonzero; lia); lia).
  pose proof (N.mod_le (acc * 16) 18446744073709551616 ltac:(lia)) as M. set (sh := (acc * 16 mod 18446744073709551616)%N) in *.
  destruct (hexval c) as [d|] eqn:E.
  - assert (d < 16)%N.
    { assert (X : forallb (fun c => match hexval c with Some d => N.ltb d 16 | None => true end) all_ascii = true) by (vm_compute; reflexivity).
      pose proof (forall_ascii _ X c) as Y. cbn beta in Y. rewrite E in Y. apply N.ltb_lt in Y. exact Y. }
    eapply N.lt_le_trans; [apply IH|]. fold p. rewrite N.mul_assoc. apply N.mul_le_mono_r. lia.
  - assert (sh / 16 <= acc)%N by (replace acc with (acc * 16 / 16)%N by (apply N.div_mul; lia); apply N.div_le_mono; lia). nia.
Qed.
Lemma hex8_int total h k : hex8 h = true -> ~ long_hex total h -> to_int (Z.of_N (SFromHex h)) = k -> (k < 0 -> Z.of_nat total < - k)%Z.
Proof.
  intros H HL <- K. unfold hex8 in H. rewrite !andb_true_iff, !Nat.leb_le in H. destruct H as [[H1 H2] H3].
  pose proof (from_hex_bound h 0) as B. fold (SFromHex h) in B. rewrite N.add_0_l, N.mul_1_l in B.
  destruct (Nat.eq_dec (List.length h) 8) as [E|E].
  - destruct (Z.lt_ge_cases (Z.of_nat total) (- to_int (Z.of_N (SFromHex h)))) as [G|G]; [exact G|exfalso]. apply HL. exists h. split; [apply infix_refl|]. split; [exact E|]. split; [exact H1|].
    rewrite E in B. change (16 ^ N.of_nat 8)%N with 4294967296%N in B. unfold to_int in *. destruct (Z.lt_ge_cases (Z.of_N (SFromHex h)) 2147483648) as [S|S].
    + rewrite Z.mod_small in K by lia. lia.
    + assert (R : ((Z.of_N (SFromHex h) + 2147483648) mod 4294967296 = Z.of_N (SFromHex h) - 2147483648)%Z) by (symmetry; apply (Z.mod_unique _ _ 1); lia). rewrite R in G. lia.
  - exfalso. assert (SFromHex h < 16 ^ 7)%N by (eapply N.lt_le_trans; [exact B|]; apply N.pow_le_mono_r; lia).
    change (16 ^ 7)%N with 268435456%N in H. rewrite to_int_small in K; lia.
Qed.
(* a first line of spaces *)
Definition blank_line (s : bytes) : Prop := exists k c r, is_eol c = true /\ s = repeat " "%char (S k) ++ c :: r.

Lemma P_any total n : forall s st, List.length s < n -> ~ long_hex total s -> List.length (p_content st) + List.length s <= total ->
  (List.length s < total \/ p_method st <> [] \/ ~ blank_line s) -> P total s st <> Undefined.
Proof.
  induction n as [|n IH]; intros s st Hn HL HT HU; [lia|]. rewrite P_eq. unfold round.
  pose proof (split_line_app s) as A. pose proof (split_line_eol s) as B.
  destruct (split_line s) as [line e]. cbn [fst snd] in A, B. destruct e as [|x e]; [discriminate|].
  assert (LE : List.length (eat_eol (x :: e)) < List.length s).
  { rewrite A, app_length. pose proof (eat_eol_lt x e B). lia. }
  assert (IE : infix (eat_eol (x :: e)) s).
  { apply (infix_trans _ (x :: e)); [apply infix_eat|]. rewrite A. apply infix_r. }
  assert (REC : forall st', p_content st' = p_content st -> P total (eat_eol (x :: e)) st' <> Undefined).
  { intros st' C. apply IH; [lia| |rewrite C; lia|left; lia]. intros (w & W1 & W2). apply HL. exists w. split; [|exact W2]. eapply infix_trans; eauto. }
  assert (FIN : finish total (x :: e) st <> Undefined).
  { unfold finish. destruct (tfind CL (p_table st)) as [v|]; [|discriminate]. destruct (stoll v) as [z|]; [|discriminate].
    destruct (_ <? _)%Z; [discriminate|]. destruct (_ <? _)%Z; discriminate. }
  destruct line as [|y line]; destruct (p_method st) as [|z m] eqn:M.
  - apply REC. reflexivity.
  - destruct (p_chunked st); [unfold finish_chunks; discriminate|]. destruct (says_chunked (p_table st)); [apply REC; reflexivity|exact FIN].
  - destruct (trim (y :: line)) eqn:T; [|apply REC; reflexivity]. destruct (Nat.eqb_spec (List.length s) total) as [E|E]; [|apply REC; reflexivity].
    exfalso. destruct HU as [HU|[HU|HU]]; [lia|congruence|]. apply HU. destruct (trim_split (y :: line)) as (i & j & F). rewrite T in F. cbn [app] in F. rewrite <- repeat_app in F.
    destruct (i + j) as [|k]; [discriminate|]. exists k, x, e. split; [exact B|]. rewrite A, F. reflexivity.
  - destruct (p_chunked st && hex8 (chunk_size (y :: line))) eqn:C; [|apply REC; apply header_line_content].
    apply andb_true_iff in C. destruct C as [_ C].
    assert (HN : ~ long_hex total (chunk_size (y :: line))).
    { intros (w & W1 & W2). apply HL. exists w. split; [|exact W2]. eapply infix_trans; [exact W1|]. eapply infix_trans; [apply infix_chunk|]. rewrite A. apply infix_l. }
    cbv zeta. pose proof (hex8_int total _ _ C HN eq_refl) as NN. set (k := to_int _) in *. destruct (Z.eqb k 0); [apply REC; reflexivity|]. destruct (Z.leb_spec (Z.of_nat (List.length (x :: e))) (2 + k)) as [K2|K2]; [discriminate|].
    destruct (Z.ltb_spec k 0) as [K|K].
    { destruct (Z.leb_spec (- k) (Z.of_nat (List.length (p_content st)))) as [G|G]; [|discriminate]. specialize (NN K). lia. }
    assert (LS : List.length s = List.length (y :: line) + List.length (x :: e)) by (rewrite A, app_length; reflexivity).
    pose proof (eat_eol_le (skipn (2 + Z.to_nat k) (x :: e))) as L1. rewrite skipn_length in L1. cbn [List.length] in LS, L1, K2.
    apply IH; [lia| | |left; lia].
    + intros (w & W1 & W2). apply HL. exists w. split; [|exact W2].
      eapply infix_trans; [exact W1|]. eapply infix_trans; [apply infix_eat|]. eapply infix_trans; [apply infix_skipn|]. rewrite A. apply infix_r.
    + cbn [with_content p_content]. rewrite app_length, firstn_length. lia.
Qed.
Lemma drop_eols_le n s : List.length (drop_eols n s) <= List.length s.
Proof. revert s. induction n as [|n IH]; intros [|c s]; cbn [drop_eols]; try lia. destruct (is_eol c); cbn [List.length]; [specialize (IH s)|]; lia. Qed.
Lemma drop_eols_lt c s : is_eol c = true -> List.length (drop_eols 2 (c :: s)) < List.length (c :: s).
Proof. intros H. cbn [drop_eols]. rewrite H. pose proof (drop_eols_le 1 s). cbn [drop_eols List.length] in *. lia. Qed.
Lemma P_used total n : forall s st u m t c, List.length s < n -> List.length s <= total -> P total s st = Done u m t c ->
  1 <= u <= total /\ m <> [] /\ (tfind CL t = None -> u = total).
Proof.
  induction n as [|n IH]; intros s st u m t c Hn HT; [lia|]. rewrite P_eq. unfold round.
  pose proof (split_line_app s) as A. pose proof (split_line_eol s) as B.
  destruct (split_line s) as [line e]. cbn [fst snd] in A, B. destruct e as [|x e]; [discriminate|].
  assert (LE : List.length (eat_eol (x :: e)) < List.length s).
  { rewrite A, app_length. pose proof (eat_eol_lt x e B). lia. }
  assert (REC : forall st', P total (eat_eol (x :: e)) st' = Done u m t c -> 1 <= u <= total /\ m <> [] /\ (tfind CL t = None -> u = total)).
  { intros st' H. eapply IH; [| |exact H]; lia. }
  pose proof (drop_eols_lt x e B) as DL. assert (LX : List.length (x :: e) <= List.length s) by (rewrite A, app_length; lia).
  destruct line as [|y line]; destruct (p_method st) as [|z mm] eqn:M.
  - apply REC.
  - destruct (p_chunked st).
    + unfold finish_chunks. set (d := drop_eols 2 (x :: e)) in *. intros H. injection H as <- <- <- <-. rewrite M. split; [lia|]. split; [discriminate|].
      rewrite tfind_tput, kcmp_refl. discriminate.
    + destruct (says_chunked (p_table st)); [apply REC|]. unfold finish. set (d := drop_eols 2 (x :: e)) in *.
      destruct (tfind CL (p_table st)) as [v|] eqn:V.
      * destruct (stoll v) as [w|]; [|discriminate]. destruct (Z.ltb_spec (Z.of_nat (List.length d)) (to_int w)); [discriminate|].
        destruct (Z.ltb_spec (to_int w) 0); [discriminate|]. intros E. injection E as <- <- <- <-. rewrite M. split; [lia|]. split; [discriminate|]. congruence.
      * intros E. injection E as <- <- <- <-. rewrite M. split; [lia|]. split; [discriminate|]. reflexivity.
  - destruct (trim (y :: line)) eqn:T; [|apply REC]. destruct (Nat.eqb_spec (List.length s) total) as [E|E]; [discriminate|apply REC].
  - destruct (p_chunked st && hex8 (chunk_size (y :: line))) eqn:C; [|apply REC].
    cbv zeta. set (k := to_int _) in *. destruct (Z.eqb k 0); [apply REC|]. destruct (Z.leb _ (2 + k)); [discriminate|].
    destruct (Z.ltb_spec k 0) as [K|K]; [destruct (Z.leb _ _); discriminate|].
    intros H. refine (IH _ _ _ _ _ _ _ _ H); (eapply Nat.le_lt_trans || eapply Nat.le_trans); try apply eat_eol_le; rewrite skipn_length; cbn [List.length] in *; lia.
Qed.
