(** Proofs about replication: history agreement, synchronization, and the stream invariant. *)
From Verif Require Import Base Repl_Spec Repl_Model.

(** ** Histories *)
Lemma tip_app h e : tip (h ++ [e]) = snd e.
Proof. unfold tip. rewrite map_app. cbn [map]. apply last_last. Qed.

Lemma linked_app sha p a b : linked sha p (a ++ b) <-> linked sha p a /\ linked sha (last (map snd a) p) b.
Proof.
  revert p. induction a as [|e a IH]; intros p.
  - cbn. tauto.
  - cbn [app linked]. rewrite IH. cbn [map].
    replace (last (snd e :: map snd a) p) with (last (map snd a) (snd e)); [tauto|].
    clear. destruct a as [|x a]; [reflexivity|]. cbn [map].
    generalize (snd x) as y, (map snd a) as l. intros y l. revert y.
    induction l as [|z l IH]; intros y; [reflexivity|]. cbn [last]. apply (IH z).
Qed.

Lemma valid_snoc sha h q : valid sha h -> valid sha (h ++ [(q, sha (tip h ++ q))]).
Proof. intros H. unfold valid. apply linked_app. split; [exact H|]. cbn. auto. Qed.

Lemma valid_app_l sha a b : valid sha (a ++ b) -> valid sha a.
Proof. intros H. apply linked_app in H. tauto. Qed.

Lemma valid_firstn sha n p : valid sha p -> valid sha (firstn n p).
Proof. intros H. rewrite <- (firstn_skipn n p) in H. eapply valid_app_l; eauto. Qed.

Lemma valid_last sha h e : valid sha (h ++ [e]) -> snd e = sha (tip h ++ fst e).
Proof. intros H. apply linked_app in H. destruct H as [_ H]. cbn in H. unfold tip. tauto. Qed.

Lemma tip_len sha n h :
  (forall x, length (sha x) = n) -> valid sha h -> length (tip h) = match h with [] => 0 | _ => n end.
Proof.
  intros Hs Hv. destruct h as [|e h] using rev_ind; [reflexivity|].
  rewrite tip_app, (valid_last _ _ _ Hv), Hs. destruct h; reflexivity.
Qed.

Lemma app_same_len {A} (a b c d : list A) : length a = length c -> a ++ b = c ++ d -> a = c /\ b = d.
Proof.
  revert c. induction a as [|x a IH]; destruct c as [|y c]; cbn; intros HL HE; try discriminate; auto.
  injection HE as -> HE. injection HL as HL. destruct (IH _ HL HE) as [-> ->]. auto.
Qed.

Lemma digested_app h t x : digested h x -> digested (h ++ t) x.
Proof. intros (a & e & b & -> & ->). exists a, e, (b ++ t). split; [rewrite <- app_assoc; reflexivity|reflexivity]. Qed.
Lemma digested_last h e : digested (h ++ [e]) (tip h ++ fst e).
Proof. exists h, e, []. split; reflexivity. Qed.
Lemma collision_app sha h p s t : collision sha h p -> collision sha (h ++ s) (p ++ t).
Proof. intros (x & y & A & B & C). exists x, y. split; [apply digested_app; exact A|]. split; [apply digested_app; exact B|exact C]. Qed.

(** Two hash chains of the same length with the same last hash are the same chain, unless the
    digest has a collision. *)
Lemma same_tip sha n h p :
  (forall x, length (sha x) = n) ->
  valid sha h -> valid sha p -> length h = length p -> tip h = tip p -> h = p \/ collision sha h p.
Proof.
  intros Hs. revert p. induction h as [|e h IH] using rev_ind; intros p Vh Vp HL HT.
  - destruct p; [auto|discriminate].
  - destruct p as [|e' p] using rev_ind; [rewrite app_length in HL; cbn in HL; lia|]. clear IHp.
    rewrite !app_length in HL. cbn in HL.
    rewrite !tip_app in HT.
    pose proof (valid_last _ _ _ Vh) as E1. pose proof (valid_last _ _ _ Vp) as E2.
    destruct (list_eq_dec ascii_dec (tip h ++ fst e) (tip p ++ fst e')) as [Heq|Hne].
    + assert (length (tip h) = length (tip p)) as HL2.
      { rewrite (tip_len sha n h), (tip_len sha n p); eauto using valid_app_l.
        destruct h, p; cbn in *; try reflexivity; lia. }
      destruct (app_same_len _ _ _ _ HL2 Heq) as [Ht Hq].
      destruct (IH p) as [->|C]; eauto using valid_app_l; [lia| |right; apply collision_app; exact C].
      left. f_equal. f_equal. destruct e, e'; cbn in *. congruence.
    + right. exists (tip h ++ fst e), (tip p ++ fst e'). split; [apply digested_last|]. split; [apply digested_last|]. split; [exact Hne|congruence].
Qed.

(** ** Numbering *)
Lemma number_app k a b : number k (a ++ b) = number k a ++ number (k + length a) b.
Proof.
  revert k. induction a as [|e a IH]; intros k; cbn [app number length].
  - now rewrite Nat.add_0_r.
  - rewrite IH. cbn [app]. do 3 f_equal. lia.
Qed.
Lemma number_length k l : length (number k l) = length l.
Proof. revert k. induction l; intros; cbn; auto. Qed.

Definition num (p : list entry) (a b : nat) : list (nat * entry) := number a (firstn (b - a) (skipn a p)).

Lemma num_nil p a : num p a a = [].
Proof. unfold num. now rewrite Nat.sub_diag. Qed.
Lemma num_length p a b : a <= b -> b <= length p -> length (num p a b) = b - a.
Proof. intros. unfold num. rewrite number_length, firstn_length, skipn_length. lia. Qed.

Lemma num_app p a b c : a <= b -> b <= c -> c <= length p -> num p a b ++ num p b c = num p a c.
Proof.
  intros. unfold num. replace (c - a) with ((b - a) + (c - b)) by lia.
  replace (firstn (b - a + (c - b)) (skipn a p)) with (firstn (b - a) (skipn a p) ++ firstn (c - b) (skipn b p)).
  - rewrite number_app. f_equal. f_equal. rewrite firstn_length, skipn_length. lia.
  - replace (skipn b p) with (skipn (b - a) (skipn a p)) by (rewrite skipn_skipn; f_equal; lia).
    generalize (skipn a p) as l. generalize (b - a) as x, (c - b) as y. clear.
    intros x y. induction x as [|x IH]; intros l; [reflexivity|]. destruct l; cbn; [now rewrite firstn_nil|].
    now rewrite IH.
Qed.

Lemma num_ext p x a b : b <= length p -> num (p ++ x) a b = num p a b.
Proof.
  intros. unfold num. f_equal.
  destruct (Nat.le_gt_cases a b) as [H1|H1].
  - rewrite skipn_app. replace (a - length p) with 0 by lia. cbn [skipn].
    rewrite firstn_app. rewrite skipn_length. replace (b - a - (length p - a)) with 0 by lia.
    cbn [firstn]. now rewrite app_nil_r.
  - replace (b - a) with 0 by lia. reflexivity.
Qed.

Lemma nth_error_skipn {A} (p : list A) a : nth_error p a = hd_error (skipn a p).
Proof. revert p. induction a; destruct p; cbn; auto. Qed.

Lemma num_cons p a b e : a < b -> b <= length p -> nth_error p a = Some e -> num p a b = (S a, e) :: num p (S a) b.
Proof.
  intros H1 H2 He. rewrite <- (num_app p a (S a) b) by lia. unfold num at 1.
  replace (S a - a) with 1 by lia. rewrite nth_error_skipn in He.
  destruct (skipn a p) as [|x r]; [discriminate|]. cbn in He. injection He as ->. reflexivity.
Qed.

Lemma number_0_num p : number 0 p = num p 0 (length p).
Proof. unfold num. cbn [skipn]. now rewrite Nat.sub_0_r, firstn_all. Qed.

Lemma skipn_num p a b k : a + k <= b -> b <= length p -> skipn k (num p a b) = num p (a + k) b.
Proof.
  intros. rewrite <- (num_app p a (a + k) b) by lia.
  rewrite skipn_app, num_length by lia. replace (k - (a + k - a)) with 0 by lia.
  rewrite skipn_all2; [reflexivity|rewrite num_length; lia].
Qed.

Lemma num_range p a b x : In x (num p a b) -> a < fst x <= b.
Proof.
  unfold num. intros H.
  assert (forall l k, In x (number k l) -> k < fst x <= k + length l) as G.
  { clear. induction l as [|e l IH]; intros k H; cbn in H; [tauto|].
    destruct H as [<-|H]; cbn [fst length]; [lia|]. apply IH in H. lia. }
  apply G in H. rewrite firstn_length in H. lia.
Qed.

Lemma filter_all {A} (f : A -> bool) l : (forall x, In x l -> f x = true) -> filter f l = l.
Proof. induction l as [|x l IH]; cbn; intros H; [reflexivity|]. rewrite H by auto. f_equal. auto. Qed.
Lemma filter_none {A} (f : A -> bool) l : (forall x, In x l -> f x = false) -> filter f l = [].
Proof. induction l as [|x l IH]; cbn; intros H; [reflexivity|]. rewrite H by auto. auto. Qed.

Lemma get_rows_num p base pc to :
  base <= pc -> pc <= to -> to <= length p -> get_rows p base (pc + 1) to = num p pc to.
Proof.
  intros. unfold get_rows. rewrite number_0_num.
  rewrite <- (num_app p 0 pc (length p)), <- (num_app p pc to (length p)) by lia.
  rewrite !filter_app.
  rewrite (filter_none _ (num p 0 pc)), (filter_none _ (num p to (length p))), (filter_all _ (num p pc to)).
  - now rewrite app_nil_r.
  - intros x Hx. apply num_range in Hx. rewrite !andb_true_iff, !Nat.leb_le, Nat.ltb_lt. lia.
  - intros x Hx. apply num_range in Hx. rewrite !andb_false_iff, !Nat.leb_gt. lia.
  - intros x Hx. apply num_range in Hx. rewrite !andb_false_iff, !Nat.leb_gt. lia.
Qed.

Lemma get_rows_short p base pc to :
  pc < base -> pc < to -> to <= length p -> length (get_rows p base (pc + 1) to) < to - pc.
Proof.
  intros. unfold get_rows. rewrite number_0_num.
  destruct (Nat.le_gt_cases base to).
  - rewrite <- (num_app p 0 base (length p)), <- (num_app p base to (length p)) by lia.
    rewrite !filter_app.
    rewrite (filter_none _ (num p 0 base)), (filter_none _ (num p to (length p))).
    + rewrite app_nil_r. cbn [app].
      rewrite filter_all; [rewrite num_length; lia|].
      intros x Hx. apply num_range in Hx. rewrite !andb_true_iff, !Nat.leb_le, Nat.ltb_lt. lia.
    + intros x Hx. apply num_range in Hx. rewrite !andb_false_iff, !Nat.leb_gt. lia.
    + intros x Hx. apply num_range in Hx. rewrite !andb_false_iff, Nat.ltb_ge. lia.
  - rewrite filter_none; [cbn; lia|]. intros x Hx. apply num_range in Hx.
    rewrite !andb_false_iff, Nat.ltb_ge, !Nat.leb_gt. lia.
Qed.

Section Reply.
Variable comp : bytes -> bytes.
Notation to_wire := (to_wire comp).
Notation q_sync := (q_sync comp).

Lemma wires_num p pc to :
  pc <= to -> to <= length p ->
  map (fun x => (pc + fst x + 1, snd (snd (snd x)), comp (fst (snd (snd x)))))
      (combine (seq 0 (length (num p pc to))) (num p pc to)) = map to_wire (num p pc to).
Proof.
  intros H1 H2. unfold num. generalize (firstn (to - pc) (skipn pc p)) as l. clear. intros l.
  enough (forall k off, map (fun x => (pc + fst x + 1, snd (snd (snd x)), comp (fst (snd (snd x)))))
      (combine (seq off (length (number k l))) (number k l)) = map to_wire (number k l) \/ k <> pc + off) as G.
  { destruct (G pc 0); [assumption|lia]. }
  induction l as [|e l IH]; intros k off; cbn [number length seq combine map]; [auto|].
  destruct (Nat.eq_dec k (pc + off)) as [->|]; [left|auto].
  f_equal.
  - unfold Repl_Model.to_wire. cbn [fst snd]. do 2 f_equal. lia.
  - destruct (IH (S (pc + off)) (S off)); [assumption|lia].
Qed.

(** What [q_sync] answers, in plain terms. *)
Definition hash_at (p : list entry) (k : nat) : bytes := tip (firstn k p).

Lemma hash_at_nth p k e : nth_error p k = Some e -> hash_at p (S k) = snd e.
Proof.
  intros He. unfold hash_at.
  destruct (nth_error_split p k He) as (l1 & l2 & -> & HL).
  replace (S k) with (length (l1 ++ [e])) by (rewrite app_length; cbn; lia).
  replace (l1 ++ e :: l2) with ((l1 ++ [e]) ++ l2) by (rewrite <- app_assoc; reflexivity).
  rewrite firstn_app, Nat.sub_diag, firstn_all. cbn [firstn]. rewrite app_nil_r. apply tip_app.
Qed.

Lemma q_sync_spec p base target pc ph all fails :
  target <= length p -> base <= length p ->
  match q_sync p base target pc ph all fails with
  | QErr => length p < pc \/ pc < base \/ (0 < pc /\ pc = base) \/ target < pc \/ fails = true
  | QMismatch => 0 < pc <= length p /\ ph <> hash_at p pc
  | QCommits ms =>
    pc <= target /\ (pc <> target -> base <= pc) /\ (0 < pc -> ph = hash_at p pc) /\
    ms = map to_wire (num p pc (if all then target else min target (pc + 101)))
  end.
Proof.
  intros HT HB. unfold Repl_Model.q_sync.
  destruct (Nat.ltb_spec (length p) pc); [auto|].
  assert (exists mine, (if pc =? 0 then Some None else option_map Some (get_hash p base pc)) = mine /\
     match mine with
     | None => 0 < pc <= base
     | Some None => pc = 0
     | Some (Some h) => 0 < pc /\ base < pc /\ h = hash_at p pc
     end) as (mine & -> & Hm).
  { eexists. split; [reflexivity|].
    destruct (Nat.eqb_spec pc 0); [assumption|].
    unfold get_hash. destruct (Nat.leb_spec pc base); cbn [orb option_map]; [lia|].
    destruct (Nat.eqb_spec pc 0); [lia|].
    destruct (nth_error p (pc - 1)) as [e|] eqn:E.
    - cbn [option_map]. apply hash_at_nth in E. replace (S (pc - 1)) with pc in E by lia. intuition (congruence || lia).
    - apply nth_error_None in E. lia. }
  destruct mine as [mine|]; [|lia].
  assert (match mine with None => false | Some h => negb (bytes_eqb h ph) end = true -> 0 < pc <= length p /\ ph <> hash_at p pc) as H1.
  { destruct mine as [h|]; [|discriminate]. destruct Hm as (?&?&->). rewrite negb_true_iff. intros E.
    split; [lia|]. intros ->. rewrite bytes_eqb_refl in E. discriminate. }
  assert (match mine with None => false | Some h => negb (bytes_eqb h ph) end = false -> base < pc \/ pc = 0) as H2.
  { destruct mine as [h|]; [|auto]. destruct Hm as (?&?&->). auto. }
  assert (match mine with None => false | Some h => negb (bytes_eqb h ph) end = false -> 0 < pc -> ph = hash_at p pc) as H3.
  { destruct mine as [h|]; [|lia]. destruct Hm as (?&?&->). rewrite negb_false_iff. intros E _.
    symmetry. now apply bytes_eqb_eq. }
  destruct (match mine with None => false | Some h => negb (bytes_eqb h ph) end); [auto|].
  specialize (H2 eq_refl). specialize (H3 eq_refl). clear H1 Hm mine.
  destruct (Nat.eqb_spec pc target) as [E0|Hne].
  - subst target. split; [lia|]. split; [lia|]. split; [auto|].
    destruct all; [now rewrite num_nil|].
    rewrite Nat.min_l by lia. now rewrite num_nil.
  - destruct fails; [auto 6|].
    set (to := if all then target else min target (pc + 1 + 100)).
    assert (to = if all then target else min target (pc + 101)) as Eto.
    { unfold to. destruct all; [reflexivity|]. f_equal. lia. }
    destruct (Nat.ltb_spec to (pc + 1)); cbn [orb].
    { right; right; right; left. destruct all; lia. }
    assert (pc < target) by (destruct all; lia).
    destruct (Nat.le_gt_cases base pc) as [Hb|Hb].
    + rewrite get_rows_num by (destruct all; lia).
      destruct (Nat.eqb_spec (length (num p pc to)) (to - (pc + 1) + 1)) as [El|El]; cbn [negb].
      * split; [lia|]. split; [lia|]. split; [auto|].
        rewrite <- Eto. apply wires_num; destruct all; lia.
      * rewrite num_length in El by (destruct all; lia). lia.
    + pose proof (get_rows_short p base pc to Hb ltac:(lia) ltac:(destruct all; lia)).
      destruct (Nat.eqb_spec (length (get_rows p base (pc + 1) to)) (to - (pc + 1) + 1)); cbn [negb]; [lia|auto].
Qed.
End Reply.

Section Proofs.
Variable sha : bytes -> bytes.
Variable comp decomp : bytes -> bytes.
Notation to_wire := (to_wire comp).
Notation q_sync := (q_sync comp).

(** The histories agree as far as counts and hashes can tell. *)
Definition matches (h p : list entry) : Prop := length h <= length p /\ tip h = hash_at p (length h).

Lemma matches_prefix n h p :
  (forall x, length (sha x) = n) -> valid sha h -> valid sha p -> matches h p -> is_prefix h p \/ collision sha h p.
Proof.
  intros Hs Vh Vp [HL HT].
  destruct (same_tip sha n h (firstn (length h) p)) as [E|C]; auto.
  - apply valid_firstn; assumption.
  - rewrite firstn_length. lia.
  - left. exists (skipn (length h) p). rewrite E at 1. symmetry. apply firstn_skipn.
  - right. rewrite <- (app_nil_r h), <- (firstn_skipn (length h) p). rewrite app_nil_r. rewrite <- (app_nil_r h) at 1. apply collision_app. exact C.
Qed.

Lemma nth_error_ex {A} (p : list A) k : k < length p -> exists e, nth_error p k = Some e.
Proof. intros H. destruct (nth_error p k) eqn:E; eauto. apply nth_error_None in E. lia. Qed.

Lemma valid_nth p k e : valid sha p -> nth_error p k = Some e -> snd e = sha (hash_at p k ++ fst e).
Proof.
  intros V He. destruct (nth_error_split p k He) as (l1 & l2 & -> & HL).
  unfold hash_at. subst k. rewrite firstn_app, Nat.sub_diag, firstn_all. cbn [firstn]. rewrite app_nil_r.
  apply valid_last. replace (l1 ++ e :: l2) with ((l1 ++ [e]) ++ l2) in V by (rewrite <- app_assoc; reflexivity).
  eapply valid_app_l; eauto.
Qed.

Lemma matches_snoc h p e :
  valid sha p -> matches h p -> nth_error p (length h) = Some e ->
  sha (tip h ++ fst e) = snd e /\ matches (h ++ [e]) p.
Proof.
  intros V [HL HT] He. split.
  - rewrite HT. symmetry. now apply valid_nth.
  - split.
    + rewrite app_length. cbn. assert (length h < length p); [|lia]. apply nth_error_Some. congruence.
    + rewrite tip_app, app_length. cbn [length]. rewrite Nat.add_1_r. symmetry. now apply hash_at_nth.
Qed.

Lemma recv_extends h ms os : exists added, fst (recv_commits sha decomp h ms os) = h ++ added.
Proof.
  revert h os. induction ms as [|[[i hash] content] ms IH]; intros h os; cbn [recv_commits].
  - exists []. cbn. now rewrite app_nil_r.
  - destruct (negb _); [exists []; cbn; now rewrite app_nil_r|].
    destruct (hd Applied os); cbn [fst].
    + destruct (negb _); [exists []; cbn; now rewrite app_nil_r|].
      destruct (IH (h ++ [(decomp content, sha (tip h ++ decomp content))]) (tl os)) as [a ->].
      exists ((decomp content, sha (tip h ++ decomp content)) :: a). now rewrite <- app_assoc.
    + exists []; now rewrite app_nil_r.
    + destruct (negb _); [exists []; cbn; now rewrite app_nil_r|]. apply IH.
Qed.

Lemma recv_valid h ms os : valid sha h -> valid sha (fst (recv_commits sha decomp h ms os)).
Proof.
  revert h os. induction ms as [|[[i hash] content] ms IH]; intros h os V; cbn [recv_commits]; [assumption|].
  destruct (negb _); [assumption|].
  destruct (hd Applied os); cbn [fst]; [|assumption|].
  - destruct (negb _); [assumption|]. apply IH. now apply valid_snoc.
  - destruct (negb _); [assumption|]. now apply IH.
Qed.

(** Whatever the message: what is added are its first commits, with their numbers, hashes and
    texts; all of them when it ends normally. *)
Lemma recv_picks h ms os :
  ~ In CommitFailed os ->
  exists k, k <= length ms /\
    map (fun x => (fst x, snd (snd x), fst (snd x)))
        (number (length h) (skipn (length h) (fst (recv_commits sha decomp h ms os)))) =
    map (fun w => (fst (fst w), snd (fst w), decomp (snd w))) (firstn k ms) /\
    (snd (recv_commits sha decomp h ms os) = true -> k = length ms).
Proof using sha decomp.
  clear comp.
  revert h os. induction ms as [|[[i hash] content] ms IH]; intros h os Hn; cbn [recv_commits].
  - exists 0. cbn [fst snd firstn length]. rewrite skipn_all. auto.
  - assert (exists k, k <= S (length ms) /\
      map (fun x => (fst x, snd (snd x), fst (snd x))) (number (length h) (skipn (length h) h)) =
      map (fun w => (fst (fst w), snd (fst w), decomp (snd w))) (firstn k ((i, hash, content) :: ms)) /\
      (false = true -> k = S (length ms))) as Stop.
    { exists 0. rewrite skipn_all. cbn. split; [lia|]. split; [reflexivity|discriminate]. }
    destruct (Nat.eqb_spec i (length h + 1)) as [Ei|]; cbn [negb]; [|exact Stop].
    destruct os as [|o os]; cbn [hd tl].
    + destruct (bytes_eqb _ hash) eqn:Eh; cbn [negb]; [|exact Stop].
      apply bytes_eqb_eq in Eh. subst hash.
      set (e := (decomp content, sha (tip h ++ decomp content))) in *.
      destruct (IH (h ++ [e]) []) as (k & Hk & Hm & Ho); [auto|].
      destruct (recv_extends (h ++ [e]) ms []) as [a Ha].
      exists (S k). split; [cbn; lia|]. split; [|intros H; cbn; f_equal; auto].
      rewrite Ha in Hm |- *. cbn [firstn map].
      rewrite <- app_assoc. cbn [app].
      rewrite skipn_app, Nat.sub_diag, skipn_all. cbn [skipn app number map].
      rewrite skipn_app, Nat.sub_diag, skipn_all in Hm. cbn [skipn app] in Hm.
      rewrite app_length in Hm. cbn [length] in Hm. rewrite Nat.add_1_r in Hm.
      f_equal; [|assumption]. cbn [fst snd]. do 2 f_equal. lia.
    + destruct o; [|exact Stop|cbn in Hn; tauto].
      destruct (bytes_eqb _ hash) eqn:Eh; cbn [negb]; [|exact Stop].
      apply bytes_eqb_eq in Eh. subst hash.
      set (e := (decomp content, sha (tip h ++ decomp content))) in *.
      destruct (IH (h ++ [e]) os) as (k & Hk & Hm & Ho); [cbn in Hn; tauto|].
      destruct (recv_extends (h ++ [e]) ms os) as [a Ha].
      exists (S k). split; [cbn; lia|]. split; [|intros H; cbn; f_equal; auto].
      rewrite Ha in Hm |- *. cbn [firstn map].
      rewrite <- app_assoc. cbn [app].
      rewrite skipn_app, Nat.sub_diag, skipn_all. cbn [skipn app number map].
      rewrite skipn_app, Nat.sub_diag, skipn_all in Hm. cbn [skipn app] in Hm.
      rewrite app_length in Hm. cbn [length] in Hm. rewrite Nat.add_1_r in Hm.
      f_equal; [|assumption]. cbn [fst snd]. do 2 f_equal. lia.
Qed.

Hypothesis decomp_comp : forall q, decomp (comp q) = q.

(** An honest message is applied up to the first local failure. *)
Lemma recv_honest p b : valid sha p -> b <= length p ->
  forall n h os, b - length h = n -> length h <= b -> matches h p -> ~ In CommitFailed os ->
  let (h', ok) := recv_commits sha decomp h (map to_wire (num p (length h) b)) os in
  length h <= length h' <= b /\ matches h' p /\
  h' = h ++ firstn (length h' - length h) (skipn (length h) p) /\
  (ok = true -> length h' = b) /\ (~ In Threw os -> ok = true).
Proof.
  intros V Hb. induction n as [|n IH]; intros h os En Hle Hm Hn.
  - replace b with (length h) by lia. rewrite num_nil. cbn [map recv_commits].
    rewrite Nat.sub_diag. cbn [firstn]. rewrite app_nil_r. repeat split; auto; try lia; apply Hm.
  - destruct (nth_error_ex p (length h)) as [e He]; [lia|].
    rewrite (num_cons p (length h) b e) by (lia || assumption).
    cbn [map]. unfold Repl_Model.to_wire at 1. cbn [fst snd recv_commits].
    replace (S (length h) =? length h + 1) with true by (symmetry; apply Nat.eqb_eq; lia).
    cbn [negb]. rewrite decomp_comp.
    destruct (matches_snoc h p e V Hm He) as [Hsha Hm'].
    rewrite Hsha, bytes_eqb_refl. cbn [negb].
    replace (fst e, snd e) with e by (destruct e; reflexivity).
    assert (forall os', ~ In CommitFailed os' ->
      let (h', ok) := recv_commits sha decomp (h ++ [e]) (map to_wire (num p (S (length h)) b)) os' in
      length h <= length h' <= b /\ matches h' p /\
      h' = h ++ firstn (length h' - length h) (skipn (length h) p) /\
      (ok = true -> length h' = b) /\ (~ In Threw os' -> ok = true)) as G.
    { intros os' Hn'. specialize (IH (h ++ [e]) os').
      rewrite app_length in IH. cbn [length] in IH. rewrite Nat.add_1_r in IH.
      specialize (IH ltac:(lia) ltac:(lia) Hm' Hn').
      destruct (recv_commits sha decomp (h ++ [e]) (map to_wire (num p (S (length h)) b)) os') as [h' ok].
      destruct IH as (L1 & M1 & E1 & O1 & T1).
      split; [lia|]. split; [assumption|]. split; [|auto].
      rewrite E1 at 1. rewrite <- app_assoc. f_equal.
      rewrite nth_error_skipn in He.
      replace (skipn (S (length h)) p) with (skipn 1 (skipn (length h) p)) by (rewrite skipn_skipn; f_equal; lia).
      destruct (skipn (length h) p) as [|x r]; [discriminate|]. cbn in He. injection He as ->.
      cbn [skipn]. replace (length h' - length h) with (S (length h' - S (length h))) by lia. reflexivity. }
    assert (forall (P : Prop), (length h <= length h <= b /\ matches h p /\
      h = h ++ firstn (length h - length h) (skipn (length h) p) /\ (false = true -> length h = b) /\ (~ P -> false = true)) <->
       ~ ~ P) as St.
    { intros P. rewrite Nat.sub_diag. cbn [firstn]. rewrite app_nil_r.
      split; [intros (_&_&_&_&H) HP; apply H in HP; discriminate|].
      intros HP. repeat split; auto; try lia; try apply Hm; try discriminate; intros; exfalso; auto. }
    destruct os as [|o os]; cbn [hd tl].
    + apply G. auto.
    + destruct o.
      * assert (~ In CommitFailed os) as Hn' by (cbn in Hn; tauto). specialize (G os Hn').
        match goal with |- context[recv_commits ?u ?v ?w ?x ?y] => destruct (recv_commits u v w x y) as [h' ok] eqn:ER end.
        match type of G with context[recv_commits ?u ?v ?w ?x ?y] => replace (recv_commits u v w x y) with (h', ok) in G end.
        destruct G as (L1 & M1 & E1 & O1 & T1). split; [exact L1|]. split; [exact M1|]. split; [exact E1|]. split; [exact O1|].
        intros HT. apply T1. intros X. apply HT. now right.
      * apply St. intros X. apply X. now left.
      * exfalso. apply Hn. now left.
Qed.

Lemma apply_honest h p e o :
  valid sha p -> matches h p -> nth_error p (length h) = Some e ->
  apply_txn sha decomp h (to_wire (S (length h), e)) o = match o with Applied => Some (h ++ [e]) | _ => None end.
Proof.
  intros V Hm He. unfold apply_txn, Repl_Model.to_wire. cbn [fst snd].
  rewrite decomp_comp. destruct (matches_snoc h p e V Hm He) as [-> _].
  replace (S (length h) =? length h + 1) with true by (symmetry; apply Nat.eqb_eq; lia).
  rewrite bytes_eqb_refl. cbn [negb]. destruct o; try reflexivity. destruct e; reflexivity.
Qed.

Lemma apply_accepts h i hash content o h' :
  apply_txn sha decomp h (i, hash, content) o = Some h' ->
  i = length h + 1 /\ hash = sha (tip h ++ decomp content) /\ h' = h ++ [(decomp content, hash)].
Proof.
  unfold apply_txn. destruct o; try discriminate.
  - destruct (Nat.eqb_spec i (length h + 1)); cbn [negb]; [|discriminate].
    destruct (bytes_eqb hash _) eqn:E; cbn [negb]; [|discriminate].
    apply bytes_eqb_eq in E. intros H. injection H as <-. subst hash. auto.
  - destruct (negb _); [discriminate|]. destruct (negb _); discriminate.
Qed.

(** ** The stream *)
Lemma outgoing_num p : forall a sent, a <= sent -> sent <= length p ->
  outgoing comp sent (num p a (length p)) = (map to_wire (num p sent (length p)), length p).
Proof.
  intros a sent. remember (length p - a) as n eqn:En. revert a sent En.
  induction n as [|n IH]; intros a sent En Ha Hs.
  - replace a with (length p) by lia. replace sent with (length p) by lia. rewrite !num_nil. reflexivity.
  - destruct (nth_error_ex p a) as [e He]; [lia|].
    rewrite (num_cons p a (length p) e) by (lia || assumption). cbn [outgoing fst].
    destruct (Nat.leb_spec (S a) sent).
    + apply IH; lia.
    + replace sent with a by lia. rewrite (num_cons p a (length p) e) by (lia || assumption).
      rewrite (IH (S a) (S a)) by lia. reflexivity.
Qed.

Definition junk (m : dmsg) : Prop := match m with DApproved _ => False | _ => True end.
Definition is_search (m : umsg) : Prop := m = USearching.

(** The rest of the stream: transactions [a]+1..[b], then possibly the leader's farewell. *)
Definition stream (L : list entry) (sent : nat) (ph : phase) (live : bool) (a : nat) (ms : list dmsg) : Prop :=
  exists b tail, a <= b /\ b <= sent /\ ms = map DTxn (map to_wire (num L a b)) ++ tail /\
    (live = true -> b = sent /\ tail = []) /\
    (tail = [] \/ (tail = [DStopped] /\ b = length L /\ ph = Stopped)).

Definition Fol (L : list entry) (sent : nat) (ph : phase) (f : fol) : Prop :=
  valid sha (f_hist f) /\
  (f_lopen f = false -> f_up f = [] /\ f_subs f = false) /\
  (ph = Stopped -> f_subs f = false) /\
  (f_open f = false -> f_down f = [] /\ (f_mode f = Off \/ f_mode f = Dead)) /\
  (f_open f = true ->
    match f_mode f with
    | Off => Forall junk (f_down f) /\ Forall is_search (f_up f)
    | Subscribing =>
      (Forall junk (f_down f) /\
        (Forall is_search (f_up f) \/
         exists us, f_up f = us ++ [USubscribe (length (f_hist f)) (tip (f_hist f))] /\ Forall is_search us)) \/
      (f_up f = [] /\ (f_lopen f = true -> ph <> Stopped -> f_subs f = true) /\ exists js r rest, f_down f = js ++ DApproved r :: rest /\ Forall junk js /\
         match r with
         | None => True
         | Some ms => matches (f_hist f) L /\
           exists b0, length (f_hist f) <= b0 /\ b0 <= sent /\ ms = map to_wire (num L (length (f_hist f)) b0) /\
             stream L sent ph (f_subs f) b0 rest
         end)
    | Following => f_up f = [] /\ (f_lopen f = true -> ph <> Stopped -> f_subs f = true) /\ matches (f_hist f) L /\
        stream L sent ph (f_subs f) (length (f_hist f)) (map DTxn (f_queue f) ++ f_down f)
    | Dead => False
    end) /\
  (f_mode f = Following -> matches (f_hist f) L).

Definition Inv (s : state) : Prop :=
  valid sha (l_hist s) /\ l_base s <= length (l_hist s) /\ l_popped s <= l_sent s /\ l_sent s <= length (l_hist s) /\
  (l_phase s = Stopped -> l_sent s = length (l_hist s)) /\
  forall j, Fol (l_hist s) (l_sent s) (l_phase s) (fols s j).

(** Events in which no local commit fails silently, and databases stay hash chains. *)
Definition clean (e : event) : Prop :=
  match e with
  | EFRecv _ os => ~ In CommitFailed os
  | EChange _ h => valid sha h
  | _ => True
  end.
End Proofs.
