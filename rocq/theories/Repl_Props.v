(** Replication: C36 (follower histories are prefixes), C37 (synchronization), C38 (the
    transaction stream). *)
From Verif Require Import Base Repl_Spec Repl_Model Repl_Proofs Repl_Inv.

(** A node that has just become leader with some history, nodes with arbitrary histories, and any
    schedule of commits, messages, connection losses, restarts and failures. *)
Definition reachable (sha comp decomp : bytes -> bytes) (s : state) : Prop :=
  exists h base popped hs es,
    valid sha h /\ base <= length h /\ popped <= length h /\ (forall j, valid sha (hs j)) /\
    Forall (clean sha) es /\ run sha comp decomp (init h base popped hs) es = Some s.

Lemma reachable_inv sha comp decomp s :
  (forall q, decomp (comp q) = q) -> reachable sha comp decomp s -> Inv sha comp s.
Proof.
  intros Hd (h & base & popped & hs & es & V & Hb & Hp & Hs & Hc & Hr).
  eapply inv_run; eauto. apply inv_init; auto.
Qed.

(** ** C36: what a following node has committed is what the leader has committed. *)
Theorem C36_following_is_prefix :
  forall (sha comp decomp : bytes -> bytes) (n : nat) (s : state) (j : nat),
  (forall x, length (sha x) = n) -> (forall q, decomp (comp q) = q) ->
  reachable sha comp decomp s ->
  f_mode (fols s j) = Following ->
  is_prefix (f_hist (fols s j)) (l_hist s) \/ collision sha (f_hist (fols s j)) (l_hist s).
Proof.
  intros sha comp decomp n s j Hn Hd Hr Hm.
  destruct (reachable_inv _ _ _ _ Hd Hr) as (I1 & _ & _ & _ & _ & I6).
  destruct (I6 j) as (V & _ & _ & _ & _ & M). eapply matches_prefix; eauto.
Qed.
Print Assumptions C36_following_is_prefix.

Theorem C36_followers_agree :
  forall (sha comp decomp : bytes -> bytes) (n : nat) (s : state) (i j : nat),
  (forall x, length (sha x) = n) -> (forall q, decomp (comp q) = q) ->
  reachable sha comp decomp s ->
  f_mode (fols s i) = Following -> f_mode (fols s j) = Following ->
  is_prefix (f_hist (fols s i)) (f_hist (fols s j)) \/ is_prefix (f_hist (fols s j)) (f_hist (fols s i)) \/
  collision sha (f_hist (fols s i)) (l_hist s) \/ collision sha (f_hist (fols s j)) (l_hist s).
Proof.
  intros sha comp decomp n s i j Hn Hd Hr Hi Hj.
  destruct (C36_following_is_prefix _ _ _ _ _ _ Hn Hd Hr Hi) as [[x Hx]|]; [|auto].
  destruct (C36_following_is_prefix _ _ _ _ _ _ Hn Hd Hr Hj) as [[y Hy]|]; [|auto].
  rewrite Hx in Hy. revert Hy. generalize (f_hist (fols s i)) as a, (f_hist (fols s j)) as b. clear.
  intros a b E. enough (is_prefix a b \/ is_prefix b a) by tauto.
  revert b E. induction a as [|u a IH]; intros [|v b] E.
  - left. exists []. reflexivity.
  - left. exists (v :: b). reflexivity.
  - right. exists (u :: a). reflexivity.
  - cbn in E. injection E as -> E. destruct (IH _ E) as [[z ->]|[z ->]]; [left|right]; exists z; reflexivity.
Qed.
Print Assumptions C36_followers_agree.

(** Each step leaves a following node's history alone or adds the leader's next commit. *)
Theorem C36_one_at_a_time :
  forall (sha comp decomp : bytes -> bytes) (s s' : state) (e : event) (j : nat),
  (forall q, decomp (comp q) = q) ->
  reachable sha comp decomp s -> step sha comp decomp s e = Some s' ->
  f_mode (fols s j) = Following ->
  f_hist (fols s' j) = f_hist (fols s j) \/
  exists c, nth_error (l_hist s) (length (f_hist (fols s j))) = Some c /\
            f_hist (fols s' j) = f_hist (fols s j) ++ [c].
Proof.
  intros sha comp decomp s s' e j Hd Hr Hs Hm.
  pose proof (reachable_inv _ _ _ _ Hd Hr) as HI.
  assert (forall s1 k f, s' = upd s1 k f -> fols s1 = fols s -> f_hist f = f_hist (fols s k) -> f_hist (fols s' j) = f_hist (fols s j)) as U.
  { intros s1 k f -> E H. cbn [upd fols]. destruct (Nat.eqb_spec j k); [subst; assumption|now rewrite E]. }
  assert (forall ms f, f_hist (send_down ms f) = f_hist f) as HD by (intros; unfold send_down; destruct (_ && _); reflexivity).
  assert (forall m f, f_hist (send_up m f) = f_hist f) as HU by (intros; unfold send_up; destruct (_ && _); reflexivity).
  destruct e as [q| |b| | |k|k|k|k h|k|k fails|k os|k o|k]; cbn [step] in Hs.
  - left. destruct (l_phase s); inversion Hs; reflexivity.
  - left. destruct (l_phase s); try discriminate; assert (flush comp s = s') as <- by congruence;
      rewrite (flush_eq sha) by assumption; cbn [fols]; destruct (f_subs (fols s j)); rewrite ?HD; reflexivity.
  - left. destruct (_ && _); inversion Hs; reflexivity.
  - left. destruct (l_phase s); inversion Hs; reflexivity.
  - left. destruct (l_phase s); try discriminate; assert (stop comp s = s') as <- by congruence; unfold stop;
      rewrite (flush_eq sha) by assumption; cbn [fols]; rewrite HD; cbn [set_subs f_hist];
      destruct (f_subs (fols s j)); rewrite ?HD; reflexivity.
  - left. destruct (f_mode (fols s k)); try discriminate; destruct (_ || _); inversion Hs; subst s';
      eapply U; reflexivity.
  - left. destruct (f_open (fols s k)); inversion Hs; subst s'; eapply U; reflexivity.
  - left. destruct (f_lopen (fols s k)); inversion Hs; subst s'; eapply U; reflexivity.
  - left. destruct (Nat.eq_dec j k) as [->|Hne].
    + rewrite Hm in Hs. discriminate.
    + destruct (f_mode (fols s k)); try discriminate; inversion Hs; subst s'; cbn [upd fols];
        destruct (Nat.eqb_spec j k); congruence.
  - left. destruct (f_mode (fols s k)); try discriminate. destruct (f_open (fols s k)); inversion Hs; subst s'.
    eapply U; [reflexivity..|]. rewrite HU. reflexivity.
  - left. destruct (f_up (fols s k)) as [|m up]; [discriminate|]. destruct (f_lopen (fols s k)); [|discriminate].
    destruct m; [|inversion Hs; subst s'; eapply U; reflexivity].
    destruct (l_phase s); [destruct (q_sync _ _ _ _ _ _ _ _)| |]; inversion Hs; subst s'; (eapply U; [reflexivity..|]);
      cbn [set_subs f_hist]; rewrite ?HD; reflexivity.
  - destruct (Nat.eq_dec j k) as [<-|Hne].
    + left. destruct (f_down (fols s j)) as [|m down]; [discriminate|]. destruct (f_open (fols s j)); [|discriminate].
      rewrite Hm in Hs. destruct m as [w|r|]; inversion Hs; subst s'; eapply U; reflexivity.
    + left. destruct (f_down (fols s k)) as [|m down]; [discriminate|]. destruct (f_open (fols s k)); [|discriminate].
      assert (forall f, fols (upd s k f) j = fols s j) as K by (intros f; cbn [upd fols]; destruct (Nat.eqb_spec j k); congruence).
      destruct m as [w|r|].
      * destruct (f_mode (fols s k)); inversion Hs; subst s'; now rewrite K.
      * destruct (f_mode (fols s k)), r as [ms|]; try (inversion Hs; subst s'; now rewrite K).
        destruct (recv_commits _ _ _ _ _) as [h ok]. destruct ok; inversion Hs; subst s'; now rewrite K.
      * inversion Hs; subst s'; now rewrite K.
  - destruct (Nat.eq_dec j k) as [<-|Hne].
    + destruct HI as (I1 & _ & _ & I4 & _ & I6). destruct (I6 j) as (V & F1 & F2 & F3 & F4 & F5).
      rewrite Hm in *. destruct (f_queue (fols s j)) as [|m qs] eqn:Eq; [discriminate|].
      destruct (f_open (fols s j)) eqn:Eo; [|destruct (F3 eq_refl) as [_ [X|X]]; discriminate].
      specialize (F4 eq_refl). destruct F4 as (_ & _ & M & (b & tail & B1 & B2 & B3 & _ & B5)).
      destruct (Nat.eq_dec (length (f_hist (fols s j))) b) as [E|E].
      { exfalso. rewrite E in B3. rewrite num_nil in B3. destruct B5 as [->|(-> & _)]; cbn in B3; discriminate. }
      destruct (nth_error_ex (l_hist s) (length (f_hist (fols s j)))) as [c Hc]; [lia|].
      rewrite (num_cons _ _ b c) in B3 by (lia || assumption). cbn [map app] in B3.
      assert (m = to_wire comp (S (length (f_hist (fols s j))), c)) as -> by (injection B3; auto).
      rewrite (apply_honest sha comp decomp Hd _ _ c o I1 M Hc) in Hs.
      destruct o; inversion Hs; subst s'; cbn [upd fols]; rewrite Nat.eqb_refl; cbn [f_hist]; eauto.
    + left. assert (forall f, fols (upd s k f) j = fols s j) as K by (intros f; cbn [upd fols]; destruct (Nat.eqb_spec j k); congruence).
      destruct (f_mode (fols s k)); try discriminate. destruct (f_queue (fols s k)); [discriminate|].
      destruct (apply_txn _ _ _ _ _); inversion Hs; subst s'; now rewrite K.
  - left. destruct (f_mode (fols s k)); try discriminate. inversion Hs; subst s'. eapply U; [reflexivity..|]. rewrite HU. reflexivity.
Qed.
Print Assumptions C36_one_at_a_time.

(** Whoever sends it and whatever it says: a node that accepts a transaction carrying the number
    and hash of one of the leader's commits then has the leader's history up to that commit. *)
Theorem C36_accepted_transaction :
  forall (sha decomp : bytes -> bytes) (n : nat) (h L h' : list entry) (i : nat) (hash content : bytes) (o : outcome) (c : entry),
  (forall x, length (sha x) = n) -> valid sha h -> valid sha L ->
  nth_error L (i - 1) = Some c -> hash = snd c ->
  apply_txn sha decomp h (i, hash, content) o = Some h' ->
  h' = firstn i L \/ collision sha h' (firstn i L).
Proof.
  intros sha decomp n h L h' i hash content o c Hn Vh VL Hc Hh Ha.
  apply apply_accepts in Ha. destruct Ha as (-> & E & ->).
  replace (length h + 1 - 1) with (length h) in Hc by lia.
  apply (same_tip sha n); auto.
  - rewrite E. apply valid_snoc. assumption.
  - now apply valid_firstn.
  - rewrite app_length, firstn_length. cbn [length].
    assert (length h < length L) by (apply nth_error_Some; congruence). lia.
  - rewrite tip_app. cbn [snd]. rewrite Hh. symmetry. rewrite Nat.add_1_r. now apply hash_at_nth.
Qed.
Print Assumptions C36_accepted_transaction.

(** ** C37: synchronization. *)
(** Whatever the message: the commits added are exactly its first commits, each with the next
    number, with the hash it announces, and that hash is the digest of the previous hash and the
    text (so the result is again a hash chain); all of them if it ends normally. *)
Theorem C37_commits_checked :
  forall (sha decomp : bytes -> bytes) (h : list entry) (ms : list wire) (os : list outcome) (h' : list entry) (ok : bool),
  valid sha h -> ~ In CommitFailed os ->
  recv_commits sha decomp h ms os = (h', ok) ->
  valid sha h' /\
  exists k, k <= length ms /\ (ok = true -> k = length ms) /\
    h' = h ++ map (fun w : wire => (decomp (snd w), snd (fst w))) (firstn k ms) /\
    map (fun w : wire => fst (fst w)) (firstn k ms) = seq (length h + 1) k.
Proof.
  intros sha decomp h ms os h' ok V Hn E.
  pose proof (recv_valid sha decomp h ms os V) as Hv.
  destruct (recv_picks sha decomp h ms os Hn) as (k & Hk & Hm & Ho).
  destruct (recv_extends sha decomp h ms os) as [a Ha].
  rewrite E in *. cbn [fst snd] in *. split; [assumption|]. subst h'.
  exists k. split; [assumption|]. split; [assumption|].
  rewrite skipn_app, Nat.sub_diag, skipn_all in Hm. cbn [skipn app] in Hm.
  assert (length (firstn k ms) = k) as HL by (rewrite firstn_length; lia).
  revert Hm HL. generalize (firstn k ms) as l. clear. intros l Hm <-.
  revert Hm. generalize (length h) as m. intros m Hm.
  enough (a = map (fun w : wire => (decomp (snd w), snd (fst w))) l /\
          map (fun w : wire => fst (fst w)) l = seq (m + 1) (length l)) as [-> ?] by auto.
  revert m l Hm. induction a as [|[q hh] a IH]; intros m [|[[i x] c] l] Hm; cbn in Hm; try discriminate; [auto|].
  injection Hm as <- <- -> Hm. destruct (IH _ _ Hm) as [-> E]. cbn [map length seq fst snd]. rewrite E.
  split; [reflexivity|]. rewrite !Nat.add_1_r. reflexivity.
Qed.
Print Assumptions C37_commits_checked.

(** A round with a peer that has the commits: at most 101 of them are taken, and afterwards the
    node's history is a prefix of the peer's. *)
Theorem C37_round :
  forall (sha comp decomp : bytes -> bytes) (n : nat) (h p : list entry) (base : nat) (fails : bool) (os : list outcome),
  (forall x, length (sha x) = n) -> (forall q, decomp (comp q) = q) ->
  valid sha h -> valid sha p -> base <= length p -> ~ In CommitFailed os ->
  let (h', ok) := sync_round sha comp decomp h p base fails os in
  is_prefix h h' /\ valid sha h' /\
  (ok = true -> length h' = min (length p) (length h + 101)) /\
  (h' <> h \/ ok = true -> is_prefix h' p \/ collision sha h' p).
Proof.
  intros sha comp decomp n h p base fails os Hn Hd Vh Vp Hb Ho. unfold sync_round.
  pose proof (q_sync_spec comp p base (length p) (length h) (tip h) false fails (le_n _) Hb) as Q.
  destruct (q_sync comp p base (length p) (length h) (tip h) false fails) as [| |ms].
  - repeat split; auto; try discriminate; [exists []; now rewrite app_nil_r|]. intros [X|X]; congruence.
  - repeat split; auto; try discriminate; [exists []; now rewrite app_nil_r|]. intros [X|X]; congruence.
  - destruct Q as (Q1 & Q2 & Q3 & ->).
    assert (matches h p) as M.
    { split; [assumption|]. destruct h as [|e h]; [reflexivity|]. apply Q3. cbn; lia. }
    set (b := min (length p) (length h + 101)) in *.
    pose proof (recv_honest sha comp decomp Hd p b Vp ltac:(lia) _ h os eq_refl ltac:(lia) M Ho) as R.
    pose proof (recv_valid sha decomp h (map (to_wire comp) (num p (length h) b)) os Vh) as RV.
    destruct (recv_commits sha decomp h (map (to_wire comp) (num p (length h) b)) os) as [h' ok].
    cbn [fst] in RV. destruct R as (L1 & M1 & E1 & O1 & _).
    split; [eexists; exact E1|]. split; [assumption|]. split; [assumption|].
    intros _. eapply matches_prefix; eauto.
Qed.
Print Assumptions C37_round.

(** A node whose history is not a prefix of the peer's gets nothing from it. *)
Theorem C37_fork_detected :
  forall (sha comp decomp : bytes -> bytes) (n : nat) (h p : list entry) (base : nat) (fails : bool) (os : list outcome),
  (forall x, length (sha x) = n) -> (forall q, decomp (comp q) = q) ->
  valid sha h -> valid sha p -> base <= length p ->
  ~ is_prefix h p ->
  sync_round sha comp decomp h p base fails os = (h, false) \/ collision sha h p.
Proof.
  intros sha comp decomp n h p base fails os Hn Hd Vh Vp Hb Hf. unfold sync_round.
  pose proof (q_sync_spec comp p base (length p) (length h) (tip h) false fails (le_n _) Hb) as Q.
  destruct (q_sync comp p base (length p) (length h) (tip h) false fails) as [| |ms]; [auto..|].
  destruct Q as (Q1 & Q2 & Q3 & ->).
  destruct (matches_prefix sha n h p) as [X|X]; auto; [|contradiction].
  split; [assumption|]. destruct h as [|e h]; [reflexivity|]. apply Q3. cbn; lia.
Qed.
Print Assumptions C37_fork_detected.

(** A peer that no longer has the commits the node needs does not serve it at all. *)
Theorem C37_no_gap :
  forall (sha comp decomp : bytes -> bytes) (h p : list entry) (base : nat) (fails : bool) (os : list outcome),
  base <= length p -> length h < base ->
  sync_round sha comp decomp h p base fails os = (h, false).
Proof.
  intros sha comp decomp h p base fails os Hb Hlt. unfold sync_round.
  pose proof (q_sync_spec comp p base (length p) (length h) (tip h) false fails (le_n _) Hb) as Q.
  destruct (q_sync comp p base (length p) (length h) (tip h) false fails) as [| |ms]; auto.
  destruct Q as (Q1 & Q2 & _). specialize (Q2 ltac:(lia)). lia.
Qed.
Print Assumptions C37_no_gap.

(** Rounds without failures reach the peer's whole history. *)
Fixpoint rounds (sha comp decomp : bytes -> bytes) (h p : list entry) (base k : nat) : list entry * bool :=
  match k with
  | 0 => (h, true)
  | S k' => let (h', ok) := sync_round sha comp decomp h p base false [] in
            if ok then rounds sha comp decomp h' p base k' else (h', false)
  end.

Theorem C37_converges :
  forall (sha comp decomp : bytes -> bytes) (h more : list entry) (base k : nat),
  (forall q, decomp (comp q) = q) ->
  valid sha (h ++ more) -> base < length h \/ base = 0 ->
  length more <= 101 * k ->
  rounds sha comp decomp h (h ++ more) base k = (h ++ more, true).
Proof.
  intros sha comp decomp h more base k Hd V Hb. revert h more V Hb.
  induction k as [|k IH]; intros h more V Hb Hk.
  - destruct more; [now rewrite app_nil_r|cbn in Hk; lia].
  - cbn [rounds]. unfold sync_round.
    pose proof (q_sync_spec comp (h ++ more) base (length (h ++ more)) (length h) (tip h) false false (le_n _)) as Q.
    specialize (Q ltac:(rewrite app_length; lia)).
    assert (forall k, k <= length h -> firstn k (h ++ more) = firstn k h) as F.
    { intros k' Hk'. rewrite firstn_app. replace (k' - length h) with 0 by lia. cbn. now rewrite app_nil_r. }
    assert (hash_at (h ++ more) (length h) = tip h) as Ht by (unfold hash_at; now rewrite F, firstn_all by lia).
    destruct (q_sync comp (h ++ more) base (length (h ++ more)) (length h) (tip h) false false) as [| |ms].
    + rewrite app_length in Q. exfalso. destruct Q as [Q|[Q|[Q|[Q|Q]]]]; try lia; discriminate.
    + destruct Q as [_ Q]. congruence.
    + destruct Q as (_ & _ & _ & ->).
      assert (matches h (h ++ more)) as M by (split; [rewrite app_length; lia|congruence]).
      set (b := min (length (h ++ more)) (length h + 101)).
      assert (length h <= b) by (unfold b; rewrite app_length; lia).
      pose proof (recv_honest sha comp decomp Hd (h ++ more) b V ltac:(lia) _ h [] eq_refl ltac:(lia) M ltac:(cbn; tauto)) as R.
      destruct (recv_commits sha decomp h (map (to_wire comp) (num (h ++ more) (length h) b)) []) as [h' ok].
      destruct R as (L1 & M1 & E1 & O1 & T1).
      rewrite (T1 ltac:(cbn; tauto)) in *. specialize (O1 eq_refl).
      rewrite skipn_app, Nat.sub_diag, skipn_all in E1. cbn [skipn app] in E1.
      set (d := length h' - length h) in *.
      replace (h ++ more) with (h' ++ skipn d more) in V |- *
        by (rewrite E1, <- app_assoc, firstn_skipn; reflexivity).
      apply IH; [assumption|lia|].
      rewrite skipn_length. unfold d. unfold b in O1. rewrite app_length in O1. lia.
Qed.
Print Assumptions C37_converges.

(** ** C38: the stream of transactions to a follower. *)
Definition txn_of (m : dmsg) : list wire := match m with DTxn w => [w] | _ => [] end.

(** What is queued and in flight for a following node continues its history without gap,
    duplicate or reordering, and is what the leader committed under those numbers; while it is
    subscribed it reaches exactly what the leader has sent. *)
Theorem C38_stream_exact :
  forall (sha comp decomp : bytes -> bytes) (s : state) (j : nat),
  (forall q, decomp (comp q) = q) ->
  reachable sha comp decomp s -> f_mode (fols s j) = Following ->
  let f := fols s j in
  let ws := f_queue f ++ concat (map txn_of (f_down f)) in
  map (fun w : wire => fst (fst w)) ws = seq (length (f_hist f) + 1) (length ws) /\
  (forall i hash content, In (i, hash, content) ws ->
     exists c, nth_error (l_hist s) (i - 1) = Some c /\ hash = snd c /\ decomp content = fst c) /\
  length (f_hist f) + length ws <= l_sent s /\
  (f_subs f = true -> length (f_hist f) + length ws = l_sent s).
Proof.
  intros sha comp decomp s j Hd Hr Hm f ws.
  pose proof (reachable_inv _ _ _ _ Hd Hr) as (I1 & _ & _ & I4 & _ & I6).
  destruct (I6 j) as (V & F1 & F2 & F3 & F4 & F5). fold f in Hm, V, F1, F2, F3, F4, F5.
  rewrite Hm in *. destruct (f_open f) eqn:Eo; [|destruct (F3 eq_refl) as [_ [X|X]]; discriminate].
  specialize (F4 eq_refl). destruct F4 as (_ & _ & M & (b & tail & B1 & B2 & B3 & B4 & B5)).
  assert (ws = map (to_wire comp) (num (l_hist s) (length (f_hist f)) b)) as ->.
  { assert (forall l, concat (map txn_of (map DTxn l)) = l) as X by (intros l; induction l; cbn; congruence).
    unfold ws. rewrite <- (X (f_queue f)), <- concat_app, <- map_app, B3, map_app, concat_app, X.
    destruct B5 as [->|(-> & _)]; cbn; now rewrite app_nil_r. }
  rewrite map_length, num_length by lia.
  split; [|split; [|split]].
  - rewrite map_map. unfold to_wire. cbn [fst].
    assert (forall l k, map (fun x : nat * entry => fst x) (number k l) = seq (k + 1) (length l)) as X.
    { clear. induction l as [|e l IH]; intros k; cbn [number map length seq fst]; [reflexivity|].
      rewrite IH, !Nat.add_1_r. reflexivity. }
    unfold num. rewrite X, firstn_length, skipn_length. f_equal. lia.
  - intros i hash content Hin. apply in_map_iff in Hin. destruct Hin as ([i' c] & E & Hin).
    unfold to_wire in E. cbn [fst snd] in E. injection E as <- <- <-.
    exists c. split; [|split; [reflexivity|apply Hd]].
    assert (forall l k, In (i', c) (number k l) -> nth_error l (i' - k - 1) = Some c /\ k < i') as X.
    { clear. induction l as [|e l IH]; intros k H; cbn in H; [tauto|].
      destruct H as [H|H].
      - injection H as <- <-. replace (S k - k - 1) with 0 by lia. auto.
      - apply IH in H. destruct H as [H H1]. replace (i' - k - 1) with (S (i' - S k - 1)) by lia. split; [exact H|lia]. }
    apply X in Hin. destruct Hin as [Hin Hk].
    assert (i' - length (f_hist f) - 1 < b - length (f_hist f)) as Hlt.
    { assert (i' - length (f_hist f) - 1 < length (firstn (b - length (f_hist f)) (skipn (length (f_hist f)) (l_hist s)))) as Y
        by (apply nth_error_Some; congruence). rewrite firstn_length in Y. lia. }
    rewrite <- Hin. clear -Hlt Hk. revert Hlt Hk. generalize (length (f_hist f)) as a, (l_hist s) as L. intros a L Hlt Hk.
    replace (i' - 1) with (a + (i' - a - 1)) by lia. revert Hlt. generalize (i' - a - 1) as x, (b - a) as y. clear.
    intros x y Hlt. rewrite nth_error_skipn, (nth_error_skipn (firstn y (skipn a L))).
    replace (skipn (a + x) L) with (skipn x (skipn a L)) by (rewrite skipn_skipn; f_equal; lia).
    generalize (skipn a L) as l. clear a L. revert y Hlt. induction x as [|x IH]; intros y Hlt l.
    + destruct y; [lia|]. destruct l; reflexivity.
    + destruct y; [lia|]. destruct l as [|z l]; [reflexivity|]. cbn. apply IH. lia.
  - lia.
  - intros Hs. destruct (B4 Hs) as [-> _]. lia.
Qed.
Print Assumptions C38_stream_exact.

(** A following node never stops because of a number or hash mismatch: applying the next queued
    transaction succeeds and adds the leader's next commit, unless its own database fails. *)
Theorem C38_never_rejected :
  forall (sha comp decomp : bytes -> bytes) (s : state) (j : nat),
  (forall q, decomp (comp q) = q) ->
  reachable sha comp decomp s -> f_mode (fols s j) = Following -> f_queue (fols s j) <> [] ->
  exists s' c, step sha comp decomp s (ERepl j Applied) = Some s' /\
    nth_error (l_hist s) (length (f_hist (fols s j))) = Some c /\
    f_mode (fols s' j) = Following /\
    f_hist (fols s' j) = f_hist (fols s j) ++ [c] /\
    f_queue (fols s' j) = tl (f_queue (fols s j)) /\
    l_hist s' = l_hist s /\ f_down (fols s' j) = f_down (fols s j).
Proof.
  intros sha comp decomp s j Hd Hr Hm Hq.
  pose proof (reachable_inv _ _ _ _ Hd Hr) as (I1 & _ & _ & I4 & _ & I6).
  destruct (I6 j) as (V & F1 & F2 & F3 & F4 & F5). cbn [step].
  rewrite Hm in *. destruct (f_open (fols s j)) eqn:Eo; [|destruct (F3 eq_refl) as [_ [X|X]]; discriminate].
  specialize (F4 eq_refl). destruct F4 as (_ & _ & M & (b & tail & B1 & B2 & B3 & B4 & B5)).
  destruct (f_queue (fols s j)) as [|m qs] eqn:Eq; [congruence|].
  destruct (Nat.eq_dec (length (f_hist (fols s j))) b) as [E|E].
  { exfalso. rewrite E in B3. rewrite num_nil in B3. destruct B5 as [->|(-> & _)]; cbn in B3; discriminate. }
  destruct (nth_error_ex (l_hist s) (length (f_hist (fols s j)))) as [c Hc]; [lia|].
  rewrite (num_cons _ _ b c) in B3 by (lia || assumption). cbn [map app] in B3.
  assert (m = to_wire comp (S (length (f_hist (fols s j))), c)) as -> by (injection B3; auto).
  rewrite (apply_honest sha comp decomp Hd _ _ c Applied I1 M Hc).
  eexists. exists c. split; [reflexivity|]. cbn [upd fols l_hist]. rewrite Nat.eqb_refl.
  cbn [f_mode f_hist f_queue f_down tl]. auto 8.
Qed.
Print Assumptions C38_never_rejected.

Lemma reachable_step sha comp decomp s e s' :
  reachable sha comp decomp s -> clean sha e -> step sha comp decomp s e = Some s' -> reachable sha comp decomp s'.
Proof.
  intros (h & base & popped & hs & es & V & Hb & Hp & Hs & Hc & Hr) He Hst.
  exists h, base, popped, hs, (es ++ [e]). repeat split; auto.
  - apply Forall_app. auto.
  - revert Hr. generalize (init h base popped hs) as s0. clear -Hst. intros s0. revert s0.
    induction es as [|x es IH]; intros s0 Hr; cbn in *.
    + injection Hr as ->. now rewrite Hst.
    + destruct (step sha comp decomp s0 x); [auto|discriminate].
Qed.

(** Handing over: when the leader's farewell (it stopped leading) reaches a node that is still
    following, everything the leader ever committed is in the node's history or its queue:
    applying the queue gives the leader's history. *)
Theorem C38_handover :
  forall (sha comp decomp : bytes -> bytes) (n : nat) (s : state) (j : nat) (rest : list dmsg),
  (forall x, length (sha x) = n) -> (forall q, decomp (comp q) = q) ->
  reachable sha comp decomp s -> f_mode (fols s j) = Following -> f_down (fols s j) = DStopped :: rest ->
  exists s', run sha comp decomp s (repeat (ERepl j Applied) (length (f_queue (fols s j)))) = Some s' /\
    length (f_hist (fols s' j)) = length (l_hist s) /\
    (f_hist (fols s' j) = l_hist s \/ collision sha (f_hist (fols s' j)) (l_hist s)).
Proof.
  intros sha comp decomp n s j rest Hn Hd Hr Hm HD.
  remember (length (f_queue (fols s j))) as k eqn:Ek. revert s Hr Hm HD Ek.
  induction k as [|k IH]; intros s Hr Hm HD Ek.
  - exists s. split; [reflexivity|].
    pose proof (reachable_inv _ _ _ _ Hd Hr) as (I1 & _ & _ & I4 & _ & I6).
    destruct (I6 j) as (V & F1 & F2 & F3 & F4 & F5).
    rewrite Hm in *. destruct (f_open (fols s j)) eqn:Eo; [|destruct (F3 eq_refl) as [_ [X|X]]; discriminate].
    specialize (F4 eq_refl). destruct F4 as (_ & _ & M & (b & tail & B1 & B2 & B3 & B4 & B5)).
    destruct (f_queue (fols s j)); [|discriminate]. rewrite HD in B3. cbn [map app] in B3.
    assert (length (f_hist (fols s j)) = length (l_hist s)) as EL.
    { destruct (Nat.eq_dec (length (f_hist (fols s j))) b) as [E|E].
      - destruct B5 as [->|(-> & -> & _)]; [|assumption].
        rewrite E, num_nil in B3. discriminate.
      - destruct (nth_error_ex (l_hist s) (length (f_hist (fols s j)))) as [c Hc]; [lia|].
        rewrite (num_cons _ _ b c) in B3 by (lia || assumption). discriminate. }
    split; [assumption|].
    destruct (same_tip sha n (f_hist (fols s j)) (l_hist s)); auto.
    destruct M as [_ M]. rewrite M, EL. unfold hash_at. now rewrite firstn_all.
  - destruct (C38_never_rejected sha comp decomp s j Hd Hr Hm) as (s1 & c & S1 & _ & M1 & _ & Q1 & L1 & D1).
    { intros X. rewrite X in Ek. discriminate. }
    destruct (IH s1) as (s' & R & E1 & E2).
    + eapply reachable_step; eauto. exact I.
    + assumption.
    + now rewrite D1.
    + rewrite Q1. destruct (f_queue (fols s j)); [discriminate|]. cbn in *. congruence.
    + exists s'. cbn [repeat run]. rewrite S1. rewrite <- L1. auto.
Qed.
Print Assumptions C38_handover.

(** A subscribed follower with nothing queued or in flight has everything the leader has sent;
    if the leader has nothing outstanding, their histories are the same. *)
Theorem C38_caught_up :
  forall (sha comp decomp : bytes -> bytes) (n : nat) (s : state) (j : nat),
  (forall x, length (sha x) = n) -> (forall q, decomp (comp q) = q) ->
  reachable sha comp decomp s ->
  f_mode (fols s j) = Following -> f_subs (fols s j) = true ->
  f_queue (fols s j) = [] -> f_down (fols s j) = [] ->
  length (f_hist (fols s j)) = l_sent s /\
  (l_sent s = length (l_hist s) -> f_hist (fols s j) = l_hist s \/ collision sha (f_hist (fols s j)) (l_hist s)).
Proof.
  intros sha comp decomp n s j Hn Hd Hr Hm Hs Hq HD.
  destruct (C38_stream_exact sha comp decomp s j Hd Hr Hm) as (_ & _ & _ & H).
  cbv zeta in H. rewrite Hq, HD in H. cbn in H. specialize (H Hs). split; [lia|].
  intros E. destruct (C36_following_is_prefix sha comp decomp n s j Hn Hd Hr Hm) as [[more X]|]; [|auto].
  left. assert (length (l_hist s) = length (f_hist (fols s j)) + length more) by (rewrite X, app_length; reflexivity).
  destruct more; [rewrite app_nil_r in X; auto|cbn in *; lia].
Qed.
Print Assumptions C38_caught_up.

(** After the leader has stopped, nothing is committed that was not sent. *)
Theorem C38_all_sent_when_stopped :
  forall (sha comp decomp : bytes -> bytes) (s : state),
  (forall q, decomp (comp q) = q) ->
  reachable sha comp decomp s -> l_phase s = Stopped -> l_sent s = length (l_hist s).
Proof.
  intros sha comp decomp s Hd Hr Hp.
  pose proof (reachable_inv _ _ _ _ Hd Hr) as (_ & _ & _ & _ & H & _). auto.
Qed.
Print Assumptions C38_all_sent_when_stopped.

(** ** Concrete runs *)
Definition toy_sha (x : bytes) : bytes :=
  [ascii_of_N (fold_left (fun a c => N.modulo (3 * a + N_of_ascii c + 7)%N 251%N) x 1%N)].
Definition keep (x : bytes) : bytes := x.
Definition toy_hist (qs : list bytes) : list entry :=
  fold_left (fun h q => h ++ [(q, toy_sha (tip h ++ q))]) qs [].

Lemma toy_len x : length (toy_sha x) = 1.
Proof. reflexivity. Qed.
Lemma toy_valid qs : valid toy_sha (toy_hist qs).
Proof.
  unfold toy_hist. assert (valid toy_sha []) as V by exact I. revert V. generalize (@nil entry) as h.
  induction qs as [|q qs IH]; intros h V; cbn [fold_left]; [assumption|]. apply IH. now apply valid_snoc.
Qed.

Definition ex_init : state :=
  init (toy_hist [lit "a"; lit "b"; lit "c"]) 1 3 (fun j => toy_hist (if j =? 0 then [lit "a"; lit "b"] else [lit "x"])).
Definition ex_events : list event :=
  [EConnect 0; EConnect 1; ECommit (lit "d"); ESubscribe 0; ELRecv 0 false; ECommit (lit "e"); EFlush; EFRecv 0 []; EFRecv 0 []; EFRecv 0 [];
   ECommit (lit "f"); EStandDown; EStop; ERepl 0 Applied].
(** What can be seen of node [j] in a state. *)
Definition view (j : nat) (s : state) :=
  let f := fols s j in
  (f_mode f, f_open f, f_subs f, map fst (f_hist f), map (fun w : wire => fst (fst w)) (f_queue f),
   map (fun m => match m with DTxn w => fst (fst w) | _ => 0 end) (f_down f), map fst (l_hist s), l_sent s, l_phase s).

Lemma view_run sha comp decomp s0 es j v :
  option_map (view j) (run sha comp decomp s0 es) = Some v ->
  exists s, run sha comp decomp s0 es = Some s /\ view j s = v.
Proof.
  destruct (run sha comp decomp s0 es) as [s|]; [|discriminate]. cbn [option_map]. intros E. exists s. split; [reflexivity|congruence].
Qed.

(** Node 0 joins two commits behind and follows to the farewell: the hypotheses of the theorems
    above are met, with transaction 4 applied, 5 queued, 6 and the farewell (0) still in flight. *)
Example ex_stream :
  exists s, reachable toy_sha keep keep s /\
    view 0 s = (Following, true, false, [lit "a"; lit "b"; lit "c"; lit "d"], [5], [6; 0],
                [lit "a"; lit "b"; lit "c"; lit "d"; lit "e"; lit "f"], 6, Stopped).
Proof.
  destruct (view_run toy_sha keep keep ex_init ex_events 0
    (Following, true, false, [lit "a"; lit "b"; lit "c"; lit "d"], [5], [6; 0],
                [lit "a"; lit "b"; lit "c"; lit "d"; lit "e"; lit "f"], 6, Stopped)) as (s & R & E).
  { vm_compute. reflexivity. }
  exists s. split; [|exact E].
  exists (toy_hist [lit "a"; lit "b"; lit "c"]), 1, 3, (fun j => toy_hist (if j =? 0 then [lit "a"; lit "b"] else [lit "x"])), ex_events.
  split; [apply toy_valid|]. split; [cbn; lia|]. split; [cbn; lia|]. split; [intros j; apply toy_valid|].
  split; [|exact R]. repeat constructor; cbn; tauto.
Qed.

(** A forked node that subscribes is answered with the mismatch and does not follow. *)
Example ex_forked :
  option_map (view 1)
    (run toy_sha keep keep (init (toy_hist [lit "a"; lit "b"; lit "c"]) 0 3 (fun _ => toy_hist [lit "x"]))
      [EConnect 1; ESubscribe 1; ELRecv 1 false; EFRecv 1 []]) =
  Some (Off, false, true, [lit "x"], [], [], [lit "a"; lit "b"; lit "c"], 3, Leading).
Proof. vm_compute. reflexivity. Qed.

(** Synchronization rounds with a trimmed peer, as in C37_converges. *)
Example ex_rounds :
  rounds toy_sha keep keep (toy_hist [lit "a"; lit "b"]) (toy_hist [lit "a"; lit "b"; lit "c"; lit "d"]) 1 1 =
  (toy_hist [lit "a"; lit "b"; lit "c"; lit "d"], true).
Proof. vm_compute. reflexivity. Qed.

(** Two histories that have no collision, so that the theorems above say the first part of their conclusion. *)
Fixpoint texts (prev : bytes) (h : list entry) : list bytes := match h with [] => [] | e :: h' => (prev ++ fst e) :: texts (snd e) h' end.
Lemma digested_texts h x : digested h x -> In x (texts [] h).
Proof.
  intros (a & e & b & -> & ->). change (tip a) with (last (map snd a) []). generalize (@nil ascii) as prev. induction a as [|u a IH]; intros prev; [left; reflexivity|].
  right. specialize (IH (snd u)). cbn [map]. destruct a as [|v a]; [exact IH|]. replace (last (snd u :: map snd (v :: a)) prev) with (last (map snd (v :: a)) (snd u)); [exact IH|].
  cbn [map]. generalize (snd v) (map snd a). clear. intros y l. revert y. induction l as [|z l IH]; intros y; [reflexivity|]. cbn [last] in *. apply (IH z).
Qed.
Example ex_no_collision : ~ collision toy_sha (toy_hist [lit "a"; lit "x"]) (toy_hist [lit "a"; lit "b"; lit "c"]).
Proof.
  intros (x & y & A & B & N & E). apply digested_texts in A, B.
  assert (F : forallb (fun x => forallb (fun y => bytes_eqb x y || negb (bytes_eqb (toy_sha x) (toy_sha y))) (texts [] (toy_hist [lit "a"; lit "b"; lit "c"]))) (texts [] (toy_hist [lit "a"; lit "x"])) = true) by (vm_compute; reflexivity).
  rewrite forallb_forall in F. specialize (F x A). cbv beta in F. rewrite forallb_forall in F. specialize (F y B). cbv beta in F.
  rewrite E, bytes_eqb_refl in F. cbn [negb] in F. rewrite orb_false_r in F. apply bytes_eqb_eq in F. contradiction.
Qed.

(** Without the condition that no commit fails silently the claims are false: the result of the
    commit of a received COMMIT is not looked at (SQLiteNode.cpp 1811), so a node whose last
    commit failed goes FOLLOWING without it, and the next transaction ends its process. *)
Theorem C37_ignored_commit_result_refuted :
  exists es,
    option_map (view 0) (run toy_sha keep keep (init (toy_hist [lit "a"]) 0 1 (fun _ => [])) es) =
      Some (Following, true, true, [], [], [], [lit "a"], 1, Leading) /\
    option_map (view 0) (run toy_sha keep keep (init (toy_hist [lit "a"]) 0 1 (fun _ => []))
                          (es ++ [ECommit (lit "b"); EFlush; EFRecv 0 []; ERepl 0 Applied])) =
      Some (Dead, false, true, [], [], [], [lit "a"; lit "b"], 2, Leading).
Proof.
  exists [EConnect 0; ESubscribe 0; ELRecv 0 false; EFRecv 0 [CommitFailed]].
  split; vm_compute; reflexivity.
Qed.
Print Assumptions C37_ignored_commit_result_refuted.
