(** C51: compression of the journal does not change what the nodes of a cluster agree on. *)
From Verif Require Import Base Text_Spec Text_Model Text_Proofs Zstd_Spec Zstd_Model.
From Verif Require Query_Spec Lex_Spec Lex_Model Lex_Props.
Local Open Scope N_scope.

Section props.
  Context (z : zstd) (Z_ok : zstd_ok z) (sha : bytes -> bytes) (kept : bytes -> option bytes) (shown : Z -> bytes).
  Context (D : dictionaries) (D_ok : numbered z D).

  (** What may be committed: SQuery takes the text and keeps it as it is (C50_same_text), and it passes the check on its last byte. *)
  Definition proper (t : bytes) : Prop := plain z t /\ kept t = Some t /\ ends_in_semicolon t = true.
  (** The dictionaries [D] are known to the node, and the one it is set to use, if any, is among them. *)
  Definition equipped (n : node) : Prop :=
    (forall i d, lookup i D = Some d -> lookup i (n_dicts n) = Some d) /\ (n_id n = 0 \/ exists d, lookup (n_id n) D = Some d).
  (** The node has committed these texts: what it returns for each commit, and how many there are. *)
  Definition holds (n : node) (ts : list bytes) : Prop :=
    forall k, getCommit z shown n k = Ok (nth_error (combine ts (chain sha [] ts)) k).

  Definition stored (q t : bytes) : Prop := q = t \/ (t <> [] /\ exists i d, lookup i D = Some d /\ q = z_compress z d t).
  Lemma decompress_stored l q t : (forall i d, lookup i D = Some d -> lookup i l = Some d) -> plain z t -> stored q t -> decompress z l q = t.
  Proof.
    intros L [P _] [->|(NE & i & d & Hd & ->)].
    - unfold decompress. destruct t; [reflexivity|]. rewrite P. reflexivity.
    - destruct (Z_ok d t NE) as (N & F & I & S & R). destruct (D_ok i d Hd) as (N0 & E). unfold decompress. destruct (z_compress z d t) as [|c q] eqn:Q; [congruence|]. rewrite <- Q in *.
      rewrite F, I, E. cbn [negb]. destruct (N.eqb_spec i 0) as [->|_]; [congruence|]. rewrite (L i d Hd), S, R. reflexivity.
  Qed.
  Lemma sql_stored l q t : (forall i d, lookup i D = Some d -> lookup i l = Some d) -> plain z t -> stored q t ->
    sqliteDecompress z shown l (SBlob q) = SText t \/ (sqliteDecompress z shown l (SBlob q) = SBlob t).
  Proof.
    intros L [P _] [->|(NE & i & d & Hd & ->)].
    - right. unfold sqliteDecompress. cbn [raw]. destruct t; [reflexivity|]. rewrite P. reflexivity.
    - left. destruct (Z_ok d t NE) as (N & F & I & S & R). destruct (D_ok i d Hd) as (N0 & E). unfold sqliteDecompress. cbn [raw]. destruct (z_compress z d t) as [|c q] eqn:Q; [congruence|]. rewrite <- Q in *.
      rewrite F, I, E. cbn [negb]. destruct (N.eqb_spec i 0) as [->|_]; [congruence|]. rewrite (L i d Hd), S, R. reflexivity.
  Qed.
  Lemma compress_stored n t : equipped n -> exists q, compress z n t = Ok q /\ stored q t.
  Proof.
    intros [L [E|(d & Hd)]]; unfold compress.
    - rewrite E. cbn [N.eqb orb]. exists t. split; [reflexivity|left; reflexivity].
    - destruct (D_ok _ _ Hd) as (N0 & _). apply N.eqb_neq in N0. rewrite N0. cbn [orb]. destruct t as [|c t]; [exists []; split; [reflexivity|left; reflexivity]|].
      rewrite (L _ _ Hd). eexists. split; [reflexivity|]. right. split; [discriminate|]. exists (n_id n), d. split; [exact Hd|reflexivity].
  Qed.

  Definition honest (n : node) (ts : list bytes) : Prop :=
    Forall2 stored (map fst (n_journal n)) ts /\ map snd (n_journal n) = chain sha [] ts /\ Forall proper ts.
  Fixpoint last_of (h : bytes) (ts : list bytes) : bytes := match ts with [] => h | t :: ts => last_of (sha (h ++ t)) ts end.
  Lemma chain_app ts t : forall h, chain sha h (ts ++ [t]) = chain sha h ts ++ [sha (last_of h ts ++ t)].
  Proof. induction ts as [|s ts IH]; intros h; cbn [chain app last_of]; [reflexivity|]. rewrite IH. reflexivity. Qed.
  Lemma chain_length ts : forall h, List.length (chain sha h ts) = List.length ts.
  Proof. induction ts as [|s ts IH]; intros h; cbn [chain List.length]; [reflexivity|]. rewrite IH. reflexivity. Qed.
  Lemma last_chain ts : forall h, match rev (chain sha h ts) with [] => h | x :: _ => x end = last_of h ts.
  Proof.
    induction ts as [|s ts IH] using rev_ind; intros h; [reflexivity|]. rewrite chain_app, rev_app_distr. cbn [rev app].
    clear. revert h. induction ts as [|r ts IH]; intros h; [reflexivity|]. cbn [last_of app]. apply IH.
  Qed.
  Lemma last_hash_of n ts : honest n ts -> last_hash n = last_of [] ts.
  Proof.
    intros (_ & H & _). rewrite <- last_chain, <- H. unfold last_hash. rewrite <- map_rev. destruct (rev (n_journal n)) as [|[q h] l]; reflexivity.
  Qed.
  Lemma honest_add n ts q t : honest n ts -> stored q t -> proper t -> honest (add n (q, sha (last_hash n ++ t))) (ts ++ [t]).
  Proof.
    intros Hn S P. pose proof (last_hash_of n ts Hn) as E. destruct Hn as (H1 & H2 & H3). unfold honest, add. cbn [n_journal]. rewrite !map_app. cbn [map fst snd]. split; [|split].
    - apply Forall2_app; [exact H1|]. constructor; [exact S|constructor].
    - rewrite chain_app, H2, E. reflexivity.
    - apply Forall_app. split; [exact H3|]. constructor; [exact P|constructor].
  Qed.
  Lemma honest_length n ts : honest n ts -> List.length (n_journal n) = List.length ts.
  Proof. intros (H & _). assert (X : List.length (map fst (n_journal n)) = List.length ts) by (induction H; cbn [List.length]; congruence). rewrite map_length in X. exact X. Qed.
  Lemma nth_map2 {A B} (l : list (A * B)) a b k : map fst l = a -> map snd l = b -> nth_error l k = nth_error (combine a b) k.
  Proof.
    intros <- <-. revert k. induction l as [|[x y] l IH]; intros [|k]; try reflexivity. cbn [map combine nth_error]. apply IH.
  Qed.
  Lemma nth_chain ts : forall h k t, nth_error ts k = Some t -> exists x, nth_error (chain sha h ts) k = Some x.
  Proof.
    induction ts as [|s ts IH]; intros h [|k] t; cbn [nth_error chain]; try discriminate; [eexists; reflexivity|]. apply IH.
  Qed.
  Lemma nth_combine {A B} (a : list A) : forall (b : list B) k x y, nth_error a k = Some x -> nth_error b k = Some y -> nth_error (combine a b) k = Some (x, y).
  Proof. induction a as [|u a IH]; intros [|v b] [|k] x y; cbn [nth_error combine]; try discriminate; [congruence|]. apply IH. Qed.
  Lemma row_at n ts k : honest n ts -> match nth_error ts k with
    | None => nth_error (n_journal n) k = None
    | Some t => exists q h, nth_error (n_journal n) k = Some (q, h) /\ stored q t /\ nth_error (chain sha [] ts) k = Some h /\ proper t
    end.
  Proof.
    intros Hn. pose proof (honest_length n ts Hn) as L. destruct Hn as (H1 & H2 & H3). destruct (nth_error ts k) as [t|] eqn:E.
    - destruct (nth_chain ts [] k t E) as (h & Eh). rewrite (nth_map2 _ _ _ k eq_refl eq_refl), H2. clear L H2.
      assert (Q : exists q, nth_error (map fst (n_journal n)) k = Some q /\ stored q t).
      { clear - H1 E. revert k E. induction H1 as [|q s l l' S _ IH]; intros [|k]; cbn [nth_error]; try discriminate; [intros X; injection X as <-; exists q; split; [reflexivity|exact S]|apply IH]. }
      destruct Q as (q & Q1 & Q2). exists q, h. split; [apply nth_combine; assumption|]. split; [exact Q2|]. split; [exact Eh|]. rewrite Forall_forall in H3. apply H3. apply (nth_error_In _ _ E).
    - apply nth_error_None in E. apply nth_error_None. lia.
  Qed.
  Lemma honest_holds n ts : equipped n -> honest n ts -> holds n ts.
  Proof.
    intros [L _] Hn k. pose proof (row_at n ts k Hn) as R. unfold getCommit. destruct (nth_error ts k) as [t|] eqn:E.
    - destruct R as (q & h & -> & S & Eh & (P & _)). rewrite (nth_combine _ _ _ _ _ E Eh). destruct (sql_stored _ q t L P S) as [-> | ->]; [|reflexivity].
      rewrite cstr_nul_free by apply P. reflexivity.
    - rewrite R. assert (X : nth_error (combine ts (chain sha [] ts)) k = None); [|rewrite X; reflexivity]. apply nth_error_None. apply nth_error_None in E. rewrite combine_length. lia.
  Qed.
  Lemma holds_unique n ts ts' : holds n ts -> holds n ts' -> ts = ts'.
  Proof.
    intros H H'. assert (E : forall k, nth_error (combine ts (chain sha [] ts)) k = nth_error (combine ts' (chain sha [] ts')) k).
    { intros k. specialize (H k). specialize (H' k). congruence. }
    assert (C : combine ts (chain sha [] ts) = combine ts' (chain sha [] ts')).
    { clear - E. revert E. generalize (combine ts (chain sha [] ts)) (combine ts' (chain sha [] ts')). induction l as [|x l IH]; intros [|y l'] E; [reflexivity|specialize (E 0%nat); discriminate|specialize (E 0%nat); discriminate|].
      pose proof (E 0%nat) as E0. injection E0 as ->. f_equal. apply IH. intros k. apply (E (S k)). }
    assert (F : forall l : list bytes, map fst (combine l (chain sha [] l)) = l).
    { intros l. generalize (chain sha [] l) (chain_length l []). induction l as [|x l IH]; intros [|y c] L; try discriminate; [reflexivity|]. cbn [combine map fst]. f_equal. apply IH. injection L as L. exact L. }
    rewrite <- (F ts), <- (F ts'), C. reflexivity.
  Qed.
  Lemma lead_honest n ts t : equipped n -> honest n ts -> proper t -> exists n', lead z sha n t = Ok n' /\ honest n' (ts ++ [t]) /\ n_id n' = n_id n /\ n_dicts n' = n_dicts n.
  Proof.
    intros E H P. destruct (compress_stored n t E) as (q & Q & S). unfold lead, prepare. rewrite Q. eexists. split; [reflexivity|]. split; [apply honest_add; assumption|split; reflexivity].
  Qed.
  Lemma follow_honest n ts r t : equipped n -> honest n ts -> proper t -> stored (fst r) t ->
    match follow z sha kept n r with
    | Ok n' => honest n' (ts ++ [t]) /\ snd r = sha (last_of [] ts ++ t) /\ n_id n' = n_id n /\ n_dicts n' = n_dicts n
    | Refuses => snd r <> sha (last_of [] ts ++ t)
    | Dies => False
    end.
  Proof.
    intros E H P S. destruct P as (P1 & P2 & P3). unfold follow. rewrite (decompress_stored _ _ t); [|apply E|exact P1|exact S]. rewrite P3, P2. cbn [negb].
    destruct (compress_stored n t E) as (q & Q & Sq). unfold prepare. rewrite Q. rewrite (last_hash_of n ts H). destruct (bytes_eqb _ (snd r)) eqn:B.
    - apply bytes_eqb_eq in B. rewrite <- (last_hash_of n ts H). split; [apply honest_add; [exact H|exact Sq|repeat split; try apply P1; assumption]|]. split; [|split; reflexivity]. rewrite (last_hash_of n ts H). symmetry. exact B.
    - intros X. rewrite X, bytes_eqb_refl in B. discriminate.
  Qed.

  Definition good (n : node) : Prop := equipped n /\ exists ts, honest n ts.
  Lemma set_nth_in i n c m : In m (set_nth i n c) -> m = n \/ In m c.
  Proof.
    unfold set_nth. rewrite in_app_iff. intros [H|[H|H]]; [right|left; congruence|right].
    - rewrite <- (firstn_skipn i c). apply in_or_app. left. exact H.
    - rewrite <- (firstn_skipn (S i) c). apply in_or_app. right. exact H.
  Qed.
  Lemma set_nth_same i n c : (i < List.length c)%nat -> nth_error (set_nth i n c) i = Some n.
  Proof.
    intros L. unfold set_nth. rewrite nth_error_app2; rewrite firstn_length_le by lia; [|lia]. rewrite Nat.sub_diag. reflexivity.
  Qed.
  Lemma set_nth_length i n c : (i < List.length c)%nat -> List.length (set_nth i n c) = List.length c.
  Proof. intros L. unfold set_nth. rewrite app_length. cbn [List.length]. rewrite firstn_length_le, skipn_length by lia. lia. Qed.
  Definition lead_ok (o : op) : Prop := match o with Lead _ t => proper t | Follow _ _ => True end.
  Lemma equipped_same n n' : n_id n' = n_id n -> n_dicts n' = n_dicts n -> equipped n -> equipped n'.
  Proof. intros E1 E2 [A B]. split; [rewrite E2; exact A|rewrite E1; exact B]. Qed.
  Lemma step_good c o : Forall good c -> lead_ok o -> match step z sha kept c o with Ok c' => Forall good c' /\ List.length c' = List.length c | Refuses => True | Dies => False end.
  Proof.
    intros F P. assert (G : forall i n, nth_error c i = Some n -> good n) by (intros i n E; rewrite Forall_forall in F; apply F, (nth_error_In _ _ E)).
    assert (K : forall i n n', nth_error c i = Some n -> good n' -> Forall good (set_nth i n' c) /\ List.length (set_nth i n' c) = List.length c).
    { intros i n n' E Gn. split; [|apply set_nth_length; apply nth_error_Some; congruence]. rewrite Forall_forall in *. intros m M. apply set_nth_in in M as [->|M]; [exact Gn|apply F, M]. }
    destruct o as [i t|i j]; cbn [step].
    - destruct (nth_error c i) as [n|] eqn:E; [|exact I]. destruct (G i n E) as (Q & ts & H). destruct (lead_honest n ts t Q H P) as (n' & -> & H' & E1 & E2).
      apply (K i n n' E). split; [apply (equipped_same n); assumption|]. exists (ts ++ [t]). exact H'.
    - destruct (nth_error c i) as [n|] eqn:E; [|exact I]. destruct (nth_error c j) as [m|] eqn:Em; [|exact I]. destruct (G i n E) as (Q & ts & H). destruct (G j m Em) as (Qm & tsm & Hm).
      pose proof (row_at m tsm (List.length (n_journal n)) Hm) as R. destruct (nth_error tsm (List.length (n_journal n))) as [t|] eqn:Et; [|rewrite R; exact I].
      destruct R as (q & h & -> & S & Eh & Pt). pose proof (follow_honest n ts (q, h) t Q H Pt S) as X. destruct (follow z sha kept n (q, h)) as [n'| |]; [|exact I|exact X].
      destruct X as (H' & _ & E1 & E2). apply (K i n n' E). split; [apply (equipped_same n); assumption|]. exists (ts ++ [t]). exact H'.
  Qed.
  Lemma run_good ops : Forall lead_ok ops -> forall c, Forall good c -> exists c', run z sha kept c ops = Some c' /\ Forall good c' /\ List.length c' = List.length c.
  Proof.
    induction 1 as [|o ops P _ IH]; intros c F; cbn [run]; [exists c; repeat split; assumption|]. pose proof (step_good c o F P) as S. destruct (step z sha kept c o) as [c1| |]; [|apply IH, F|contradiction].
    destruct S as (S1 & S2). destruct (IH c1 S1) as (c' & A & B & C). exists c'. split; [exact A|]. split; [exact B|congruence].
  Qed.
  Lemma start_good c : Forall (fun n => equipped n /\ n_journal n = []) c -> Forall good c.
  Proof. apply Forall_impl. intros n [E J]. split; [exact E|]. exists []. unfold honest. rewrite J. repeat split; constructor. Qed.

  (** Whatever the nodes are set to - no compression, or any of the dictionaries, each node its own - no node ever stops, and each node returns for
      each of its commits the text and the hash of that text chained to the one before. *)
  Theorem C51_cluster : forall c ops, Forall (fun n => equipped n /\ n_journal n = []) c -> Forall lead_ok ops ->
    exists c', run z sha kept c ops = Some c' /\ List.length c' = List.length c /\ Forall (fun n => exists ts, Forall proper ts /\ holds n ts) c'.
  Proof.
    intros c ops S P. destruct (run_good ops P c (start_good c S)) as (c' & A & B & C). exists c'. split; [exact A|]. split; [exact C|]. revert B. apply Forall_impl. intros n (E & ts & H).
    exists ts. split; [apply H|]. apply honest_holds; assumption.
  Qed.
  (** A node that is behind another takes over its next commit, with its text and its hash; one whose history is another refuses. *)
  Theorem C51_follow : forall c ops c' i j n m ts us, Forall (fun n => equipped n /\ n_journal n = []) c -> Forall lead_ok ops -> run z sha kept c ops = Some c' ->
    nth_error c' i = Some n -> nth_error c' j = Some m -> holds n ts -> holds m us ->
    match step z sha kept c' (Follow i j) with
    | Ok c'' => exists n' t, nth_error c'' i = Some n' /\ nth_error us (List.length ts) = Some t /\ holds n' (ts ++ [t]) /\ nth_error (chain sha [] us) (List.length ts) = nth_error (chain sha [] (ts ++ [t])) (List.length ts)
    | Refuses => forall t rest, us <> ts ++ t :: rest
    | Dies => False
    end.
  Proof.
    intros c ops c' i j n m ts us S P R En Em Hn Hm. destruct (run_good ops P c (start_good c S)) as (c1 & A & B & _). rewrite R in A. injection A as <-.
    assert (G : forall i n, nth_error c' i = Some n -> good n) by (intros i0 n0 E; rewrite Forall_forall in B; apply B, (nth_error_In _ _ E)).
    destruct (G i n En) as (Qn & ts' & On). destruct (G j m Em) as (Qm & us' & Om).
    rewrite (holds_unique n ts ts' Hn (honest_holds n ts' Qn On)) in *. rewrite (holds_unique m us us' Hm (honest_holds m us' Qm Om)) in *. clear Hn Hm.
    cbn [step]. rewrite En, Em. rewrite (honest_length n ts' On). pose proof (row_at m us' (List.length ts') Om) as X.
    destruct (nth_error us' (List.length ts')) as [t|] eqn:Et.
    - destruct X as (q & h & -> & Sq & Eh & Pt). pose proof (follow_honest n ts' (q, h) t Qn On Pt Sq) as Y. destruct (follow z sha kept n (q, h)) as [n'| |]; [| |exact Y].
      + destruct Y as (H' & Y & E1 & E2). exists n', t. split; [apply set_nth_same; apply nth_error_Some; congruence|]. split; [reflexivity|]. split; [apply honest_holds; [apply (equipped_same n); assumption|exact H']|].
        cbn [snd] in Y. rewrite Eh, chain_app, nth_error_app2, chain_length, Nat.sub_diag by (rewrite chain_length; lia). cbn [nth_error]. congruence.
      + intros t' rest ->. apply Y. cbn [snd]. rewrite nth_error_app2, Nat.sub_diag in Et by lia. cbn [nth_error] in Et. injection Et as ->.
        replace (ts' ++ t :: rest) with ((ts' ++ [t]) ++ rest) in Eh by (rewrite <- app_assoc; reflexivity).
        assert (CA : forall a b h0, chain sha h0 (a ++ b) = chain sha h0 a ++ chain sha (last_of h0 a) b).
        { clear. induction a as [|x a IH]; intros b h0; cbn [app chain last_of]; [reflexivity|]. rewrite IH. reflexivity. }
        rewrite CA, nth_error_app1 in Eh by (rewrite chain_length, app_length; cbn [List.length]; lia). rewrite chain_app, nth_error_app2, chain_length, Nat.sub_diag in Eh by (rewrite chain_length; lia). cbn [nth_error] in Eh. congruence.
    - rewrite X. intros t rest ->. rewrite nth_error_app2, Nat.sub_diag in Et by lia. discriminate.
  Qed.
  (** The SQL functions: what compress() returns, decompress() turns back, as text; and compress() gives the bytes that go into the journal. *)
  Theorem C51_functions : forall l v i d, (0 < i < 2 ^ 32)%Z -> lookup (Z.to_N i) l = Some d -> z_dict_id z d = Z.to_N i -> v <> SNull -> raw shown v <> [] ->
    sqliteDecompress z shown l (sqliteCompress z shown l v (SInt i)) = SText (raw shown v) /\
    exists q, sqliteCompress z shown l v (SInt i) = SBlob q /\ compress z (Node (Z.to_N i) l []) (raw shown v) = Ok q.
  Proof.
    intros l v i d Hi L E NV NE. assert (M : Z.to_N (i mod 2 ^ 64) = Z.to_N i) by (rewrite Z.mod_small; [reflexivity|lia]).
    assert (I0 : (Z.to_N i =? 0) = false) by (apply N.eqb_neq; lia).
    assert (Q : sqliteCompress z shown l v (SInt i) = SBlob (z_compress z d (raw shown v))).
    { unfold sqliteCompress. rewrite M, I0, L. destruct v; try congruence; destruct (raw shown _) eqn:R; congruence. }
    rewrite Q. split.
    - destruct (Z_ok d (raw shown v) NE) as (N & F & I & S & R). unfold sqliteDecompress. cbn [raw]. destruct (z_compress z d (raw shown v)) as [|c q] eqn:X; [congruence|]. rewrite <- X in *.
      rewrite F, I, E, I0. cbn [negb]. rewrite L, S, R. reflexivity.
    - eexists. split; [reflexivity|]. unfold compress. cbn [n_id n_dicts]. rewrite I0, L. destruct (raw shown v); [congruence|reflexivity].
  Qed.
  (** Reading, for any bytes: a frame that can be read is given as what it holds, by followers and by decompress().  Anything else followers take as it is; decompress() gives an error for a frame
      it cannot read, and leaves what is no frame as it is. *)
  Theorem C51_reading : forall l v, v <> SNull -> v <> SError -> let x := raw shown v in
    (forall y, opens z l x y -> decompress z l x = y /\ sqliteDecompress z shown l v = SText y) /\
    ((forall y, ~ opens z l x y) -> decompress z l x = x /\ sqliteDecompress z shown l v = match x with [] => v | _ => if z_is_frame z x then SError else v end).
  Proof.
    intros l v NV NE x. assert (Q : sqliteDecompress z shown l v = match x with [] => v | _ => if negb (z_is_frame z x) then v else
        match (if z_frame_id z x =? 0 then Some None else match lookup (z_frame_id z x) l with Some d => Some (Some d) | None => None end) with
        | None => SError
        | Some d => match z_content_size z x with None => SError | Some _ => match z_decompress z d x with Some y => SText y | None => SError end end
        end end) by (unfold sqliteDecompress; fold x; destruct v; try congruence; destruct x; reflexivity).
    rewrite Q. clear Q. clearbody x. clear NE. split.
    - intros y (O1 & O2 & O3 & O4). unfold decompress. destruct x as [|c r]; [congruence|]. rewrite O2. cbn [negb]. destruct (z_content_size z (c :: r)); [|congruence].
      destruct O4 as [(F & DD)|(F & d & L & DD)]; [rewrite F; change (0 =? 0) with true; cbv iota; rewrite DD; split; reflexivity|]. apply N.eqb_neq in F. rewrite F, L, DD. split; reflexivity.
    - intros N. unfold decompress. destruct x as [|c r]; [split; reflexivity|]. destruct (z_is_frame z (c :: r)) eqn:F; [|split; reflexivity]. cbn [negb].
      destruct (z_content_size z (c :: r)) as [k|] eqn:S.
      + unfold opens in N. rewrite F, S in N. destruct (N.eqb_spec (z_frame_id z (c :: r)) 0) as [I|I].
        * destruct (z_decompress z None (c :: r)) as [y|] eqn:DD; [|split; reflexivity]. exfalso. apply (N y). split; [discriminate|]. split; [reflexivity|]. split; [discriminate|]. left. split; [exact I|reflexivity].
        * destruct (lookup _ l) as [d|] eqn:L; [|split; reflexivity]. destruct (z_decompress z (Some d) (c :: r)) as [y|] eqn:DD; [|split; reflexivity].
          exfalso. apply (N y). split; [discriminate|]. split; [reflexivity|]. split; [discriminate|]. right. split; [exact I|]. exists d. split; [reflexivity|exact DD].
      + destruct (if _ =? 0 then _ else _); split; reflexivity.
  Qed.
  (** compress() with the number of no dictionary is an error; with number 0 or NULL it leaves its argument as it is; NULL stays NULL, and so do the functions leave an empty text. *)
  Theorem C51_unknown : forall l v i, v <> SNull -> (0 < i < 2 ^ 63)%Z -> lookup (Z.to_N i) l = None -> sqliteCompress z shown l v (SInt i) = SError.
  Proof.
    intros l v i NV Hi L. unfold sqliteCompress. rewrite Z.mod_small by lia. assert (I0 : (Z.to_N i =? 0) = false) by (apply N.eqb_neq; lia). rewrite I0, L. destruct v; congruence.
  Qed.
  Theorem C51_nothing : forall l v i, (v = SNull \/ i = SInt 0 \/ i = SNull \/ raw shown v = [] /\ exists n d, i = SInt n /\ (0 < n < 2 ^ 63)%Z /\ lookup (Z.to_N n) l = Some d) ->
    sqliteCompress z shown l v i = v /\ sqliteDecompress z shown l SNull = SNull.
  Proof.
    intros l v i H. split; [|reflexivity]. destruct H as [->|[->|[->|(E & n & d & -> & Hn & L)]]].
    - reflexivity.
    - destruct v; reflexivity.
    - destruct v; reflexivity.
    - unfold sqliteCompress. rewrite Z.mod_small by lia. assert (I0 : (Z.to_N n =? 0) = false) by (apply N.eqb_neq; lia). rewrite I0, L, E. destruct v; reflexivity.
  Qed.
End props.

(** The texts of transactions are such texts: with [kept] as C50 has it, a row made of regular writes is proper, unless it should itself look like a zstd frame
    or hold a zero byte. *)
Section rows.
  Context {R : Type} (print15 : R -> bytes).
  Lemma last_semicolon (l : list (list Lex_Spec.word)) : Forall Lex_Props.closed l -> ends_in_semicolon (concat (map (Lex_Model.expanded print15 []) l)) = true.
  Proof.
    intros F. induction l as [|p l _] using rev_ind; [reflexivity|]. apply Forall_app in F as [_ F]. inversion F as [|? ? (r & -> & _) _]; subst.
    rewrite map_app, concat_app. cbn [map concat]. rewrite app_nil_r. unfold Lex_Model.expanded at 2. rewrite map_app, concat_app. cbn [map concat fst snd Lex_Spec.semicolon]. rewrite app_assoc. cbn [app].
    unfold ends_in_semicolon. destruct ((_ ++ _) ++ [";"%char]) eqn:E; [reflexivity|]. rewrite <- E, last_last. reflexivity.
  Qed.
  Theorem C51_rows : forall z ws row, Forall (Lex_Spec.regular print15) ws -> Lex_Model.transaction print15 ws [] = Some row -> plain z row ->
    proper z (fun t => Some (Lex_Model.SQuery_expanded print15 t [])) row.
  Proof.
    intros z ws row F E P. split; [exact P|]. pose proof (Lex_Props.C50_same_text print15 ws row F E) as S. split; [rewrite S; reflexivity|].
    rewrite <- S. unfold Lex_Model.SQuery_expanded. apply last_semicolon. pose proof (Lex_Props.C50_journal print15 ws row F E) as J. unfold Lex_Model.follower_statements in J. rewrite J.
    apply Forall_flat_map. revert F. apply Forall_impl. intros w W. pose proof (Lex_Props.ready_values print15 w W) as Q. revert Q. apply Forall_impl. intros p (C & _). exact C.
  Qed.
End rows.

Print Assumptions C51_cluster.
Print Assumptions C51_follow.
Print Assumptions C51_functions.
Print Assumptions C51_reading.
Print Assumptions C51_unknown.
Print Assumptions C51_nothing.
Print Assumptions C51_rows.

(** * Cases
    A stand-in for zstd: a frame is '(', a sign that says whether a dictionary was used, the number of the dictionary, the data, and ')'.  A dictionary has its number as its
    first byte. *)
Definition number_of (d : bytes) : ascii := match d with [] => NUL | c :: _ => c end.
Definition used (d : bytes) : ascii := match d with [] => "-"%char | _ => "d"%char end.
Definition toy : zstd := {|
  z_compress := fun d x => "("%char :: used d :: number_of d :: x ++ [")"%char];
  z_decompress := fun d f => match f with
    | _ :: u :: _ :: x => if Ascii.eqb u "d" then match d with None => None | Some _ => Some (removelast x) end else Some (removelast x)
    | _ => None end;
  z_is_frame := fun f => match f with c :: _ => Ascii.eqb c "(" | [] => false end;
  z_frame_id := fun f => match f with _ :: _ :: i :: _ => bcode i | _ => 0 end;
  z_dict_id := fun d => bcode (number_of d);
  z_content_size := fun f => match f with _ :: _ :: _ :: x => Some (N.of_nat (List.length (removelast x))) | _ => None end |}.
Lemma toy_ok : zstd_ok toy.
Proof.
  intros d x _. cbn [toy z_compress z_is_frame z_frame_id z_dict_id z_content_size z_decompress]. split; [discriminate|]. split; [reflexivity|]. split; [reflexivity|]. rewrite removelast_last. split; [reflexivity|].
  destruct (Ascii.eqb (used d) "d"); reflexivity.
Qed.
Definition dict (i : N) : bytes := ascii_of_N i :: lit "ictionary".
Definition two : dictionaries := [(1, dict 1); (2, dict 2)].
Lemma two_numbered : numbered toy two.
Proof.
  intros i d. unfold two. cbn [lookup]. destruct (N.eqb_spec i 1) as [->|_]; [intros E; injection E as <-; split; [discriminate|reflexivity]|].
  destruct (N.eqb_spec i 2) as [->|_]; [intros E; injection E as <-; split; [discriminate|reflexivity]|discriminate].
Qed.
Definition toy_sha (x : bytes) : bytes := lit "#" ++ x.
Definition all_kept (t : bytes) : option bytes := Some t.
Definition first_text : bytes := lit "INSERT INTO t VALUES(1);".
Definition second_text : bytes := lit "DELETE FROM t;".
(** Three nodes: one without compression, one for each dictionary. *)
Definition trio : list node := [Node 0 two []; Node 1 two []; Node 2 (two ++ [(3, dict 3)]) []].
Definition history : list op := [Lead 1 first_text; Follow 0 1; Follow 2 0; Lead 2 second_text; Follow 1 2; Follow 0 1].
Example C51_case : Forall (fun n => equipped two n /\ n_journal n = []) trio /\ Forall (lead_ok toy all_kept) history /\
  exists c, run toy toy_sha all_kept trio history = Some c /\
    map (fun n => map fst (n_journal n)) c =
      [[first_text; second_text];
       ["("%char :: "d"%char :: ascii_of_N 1 :: first_text ++ lit ")"; "("%char :: "d"%char :: ascii_of_N 1 :: second_text ++ lit ")"];
       ["("%char :: "d"%char :: ascii_of_N 2 :: first_text ++ lit ")"; "("%char :: "d"%char :: ascii_of_N 2 :: second_text ++ lit ")"]] /\
    Forall (fun n => holds toy toy_sha (fun _ => []) n [first_text; second_text]) c.
Proof.
  split; [|split].
  - assert (L : forall i d, lookup i two = Some d -> lookup i (two ++ [(3, dict 3)]) = Some d).
    { intros i d. unfold two. cbn [app lookup]. destruct (i =? 1); [tauto|]. destruct (i =? 2); [tauto|discriminate]. }
    repeat (apply Forall_cons; [split; [split; [|]|reflexivity]|]); [tauto|left; reflexivity|tauto|right; eexists; reflexivity|exact L|right; eexists; reflexivity|apply Forall_nil].
  - assert (P : forall t, nul_free t -> z_is_frame toy t = false -> ends_in_semicolon t = true -> proper toy all_kept t) by (intros t A B C; split; [split; assumption|split; [reflexivity|exact C]]).
    repeat (apply Forall_cons; [cbn [lead_ok]; (exact I || (apply P; [unfold nul_free; vm_compute; intuition discriminate|reflexivity|reflexivity]))|]). apply Forall_nil.
  - eexists. split; [reflexivity|]. split; [reflexivity|].
    repeat (apply Forall_cons; [intros [|[|[|k]]]; reflexivity|]). apply Forall_nil.
Qed.
Example C51_functions_case : lookup (Z.to_N 2) two = Some (dict 2) /\ z_dict_id toy (dict 2) = 2 /\
  sqliteCompress toy (fun _ => []) two (SText (lit "abc")) (SInt 2) = SBlob ("("%char :: "d"%char :: ascii_of_N 2 :: lit "abc)").
Proof. repeat split. Qed.

(* a frame that names no dictionary, one with a dictionary, one whose dictionary is not there *)
Example C51_reading_case : let frame u i := "("%char :: u :: ascii_of_N i :: lit "abc)" in
  opens toy two (frame "-"%char 0) (lit "abc") /\ opens toy two (frame "d"%char 2) (lit "abc") /\ (forall y, ~ opens toy two (frame "d"%char 7) y) /\
  lookup 7 two = None /\ sqliteCompress toy (fun _ => []) two (SText (lit "abc")) (SInt 7) = SError.
Proof.
  intros frame. split; [|split; [|split; [|split; reflexivity]]].
  - split; [discriminate|]. split; [reflexivity|]. split; [discriminate|]. left. split; reflexivity.
  - split; [discriminate|]. split; [reflexivity|]. split; [discriminate|]. right. split; [discriminate|]. exists (dict 2). split; reflexivity.
  - intros y (_ & _ & _ & [(F & _)|(_ & d & L & _)]); discriminate.
Qed.

(** Refuted: with a dictionary that has no number in it - any bytes can serve zstd as a dictionary - the journal cannot be read.  The frame names no dictionary, so
    reading it is tried without one, fails, and gives back the frame; a follower takes that for the query, finds that it does not end in ';' (its last byte is a matter of chance), and stops in an
    assertion.  Nothing checks the dictionary before. *)
Theorem C51_raw_dictionary_refuted : exists d c c', z_dict_id toy d = 0 /\ c = [Node 1 [(1, d)] []; Node 1 [(1, d)] []] /\
  step toy toy_sha all_kept c (Lead 0 first_text) = Ok c' /\ step toy toy_sha all_kept c' (Follow 1 0) = Dies.
Proof. exists (dict 0). eexists _, _. split; [reflexivity|]. split; [reflexivity|]. split; reflexivity. Qed.

(** Refuted: a dictionary listed in the table under another number than it has in itself makes a journal that no node can read: the frame names the dictionary's own
    number, which is not in the table.  Followers stop in an assertion at the first commit, and so does any node that is asked for the text of the commit. *)
Theorem C51_misnumbered_refuted : exists d c c', z_dict_id toy d = 2 /\ c = [Node 1 [(1, d)] []; Node 1 [(1, d)] []] /\
  step toy toy_sha all_kept c (Lead 0 first_text) = Ok c' /\ step toy toy_sha all_kept c' (Follow 1 0) = Dies /\
  (exists n, nth_error c' 0 = Some n /\ getCommit toy (fun _ => []) n 0 = Dies).
Proof. exists (dict 2). eexists _, _. split; [reflexivity|]. split; [reflexivity|]. split; [reflexivity|]. split; [reflexivity|]. eexists. split; reflexivity. Qed.

(** Refuted: a node cannot catch up past the point where a new dictionary came into use.  A node reads the table of dictionaries only when it starts; one that gets the new dictionary
    as part of a commit it synchronizes does not load it, takes the next commit, compressed with it, for a query, and stops in an assertion.  Started
    again it would go on. *)
Theorem C51_new_dictionary_refuted : exists leader node again,
  n_dicts leader = [(1, dict 1)] /\ n_dicts node = [] /\ again = Node (n_id node) (n_dicts leader) (n_journal node) /\
  step toy toy_sha all_kept [leader; node] (Follow 1 0) = Dies /\ exists c, step toy toy_sha all_kept [leader; again] (Follow 1 0) = Ok c.
Proof.
  exists (Node 1 [(1, dict 1)] [(z_compress toy (dict 1) first_text, toy_sha first_text)]), (Node 0 [] []). eexists.
  split; [reflexivity|]. split; [reflexivity|]. split; [reflexivity|]. split; [reflexivity|]. eexists. reflexivity.
Qed.

(** Refuted: a node that is set to use a dictionary the table does not have starts, and stops at its first commit: the compression of the query ends the process.
    As a follower it does so too, for a commit that every other node takes. *)
Theorem C51_missing_dictionary_refuted : exists n m, n_id n = 7 /\ lead toy toy_sha n first_text = Dies /\
  step toy toy_sha all_kept [n; m] (Follow 0 1) = Dies /\ (exists c, step toy toy_sha all_kept [Node 0 two []; m] (Follow 0 1) = Ok c).
Proof. exists (Node 7 two []), (Node 0 two [(first_text, toy_sha first_text)]). split; [reflexivity|]. split; [reflexivity|]. split; [reflexivity|]. eexists. reflexivity. Qed.

(** Refuted: decompress() does not always give back what compress() was given.  With number 0, compress() leaves its argument as it is; if that is a zstd frame itself,
    decompress() decompresses it.  And a BLOB comes back as TEXT, which SQLite never finds equal to the BLOB it was. *)
Theorem C51_round_trip_refuted : exists x b,
  sqliteDecompress toy (fun _ => []) two (sqliteCompress toy (fun _ => []) two (SBlob x) (SInt 0)) <> SBlob x /\
  sqliteDecompress toy (fun _ => []) two (sqliteCompress toy (fun _ => []) two (SBlob x) (SInt 0)) = SText (lit "abc") /\
  sqliteDecompress toy (fun _ => []) two (sqliteCompress toy (fun _ => []) two (SBlob b) (SInt 1)) = SText b.
Proof. exists ("("%char :: "d"%char :: ascii_of_N 1 :: lit "abc)"), (lit "xyz"). split; [discriminate|]. split; reflexivity. Qed.
