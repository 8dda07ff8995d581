(** C66: nodes with diverged histories find out when they connect, and the minority stops. *)
From Verif Require Import Base Repl_Spec Repl_Proofs Repl_Props Fork_Spec Fork_Model.

(** ** Histories *)
Lemma common {A} (a b s t : list A) : a ++ s = b ++ t -> (exists u, b = a ++ u) \/ (exists u, a = b ++ u).
Proof.
  revert b. induction a as [|x a IH]; intros [|y b] E; [left; exists []; reflexivity|left; exists (y :: b); reflexivity|right; exists (x :: a); reflexivity|].
  cbn in E. injection E as -> E. destruct (IH _ E) as [[u ->]|[u ->]]; [left|right]; exists u; reflexivity.
Qed.
Lemma compatible_app h p s t : compatible (h ++ s) (p ++ t) -> compatible h p.
Proof.
  intros [[u E]|[u E]].
  - rewrite <- !app_assoc in E. destruct (common _ _ _ _ E) as [[v ->]|[v ->]]; [right|left]; exists v; reflexivity.
  - rewrite <- !app_assoc in E. destruct (common _ _ _ _ E) as [[v ->]|[v ->]]; [left|right]; exists v; reflexivity.
Qed.
Lemma compatible_sym h p : compatible h p -> compatible p h.
Proof. unfold compatible. tauto. Qed.
Lemma collision_sym sha h p : collision sha h p -> collision sha p h.
Proof. intros (x & y & A & B & N & E). exists y, x. repeat split; auto. Qed.
Lemma compatible_firstn h p c : compatible h p -> c <= length h -> c <= length p -> firstn c h = firstn c p.
Proof.
  intros [[u ->]|[u ->]] A B; rewrite firstn_app; [replace (c - length h) with 0 by lia|replace (c - length p) with 0 by lia]; cbn [firstn]; rewrite app_nil_r; reflexivity.
Qed.
Lemma tip_firstn h c : 0 < c -> c <= length h -> exists e, nth_error h (c - 1) = Some e /\ tip (firstn c h) = snd e.
Proof.
  intros P L. destruct (nth_error_ex h (c - 1)) as [e E]; [lia|]. exists e. split; [exact E|]. destruct (nth_error_split _ _ E) as (l1 & l2 & -> & L1).
  replace c with (length l1 + 1) by lia. rewrite firstn_app_2. cbn [firstn]. apply tip_app.
Qed.

Section Proofs.
Variable sha : bytes -> bytes.
Variable total : nat.
Variable full : nat -> bool.
Notation step := (step sha total full).
Notation run := (run sha total full).

(** ** What a step changes *)
Definition same_data (x y : node) : Prop := hist x = hist y /\ ph x = ph y /\ oldest x = oldest y.
Lemma die_links s a : links (dieIfForkedFromCluster total full s a) = links s.
Proof. unfold dieIfForkedFromCluster. destruct (must_die total full s a); reflexivity. Qed.
Lemma die_data s a i : same_data (nodes (dieIfForkedFromCluster total full s a) i) (nodes s i).
Proof.
  unfold dieIfForkedFromCluster. destruct (must_die total full s a); [|repeat split]. cbn [set_node nodes]. destruct (Nat.eqb_spec i a) as [->|]; repeat split.
Qed.
Lemma link_same s a b l : links (set_link s a b l) a b = l.
Proof. cbn [set_link links]. rewrite !Nat.eqb_refl. reflexivity. Qed.
Lemma link_other s a b l i j : i <> a \/ j <> b -> links (set_link s a b l) i j = links s i j.
Proof. intros H. cbn [set_link links]. destruct (Nat.eqb_spec i a), (Nat.eqb_spec j b); cbn [andb]; try reflexivity. destruct H; congruence. Qed.
Lemma receive_data s a b m i : same_data (nodes (receive total full s a b m) i) (nodes s i).
Proof.
  unfold receive. destruct (forked (links s b a)); [repeat split|]. destruct m as [c h|].
  - destruct (hashesMatch (nodes s b) c h); [repeat split|]. exact (die_data (set_link s b a _) b i).
  - exact (die_data (set_link s b a _) b i).
Qed.
Lemma receive_other s a b m i j : i <> b \/ j <> a -> links (receive total full s a b m) i j = links s i j.
Proof.
  intros H. unfold receive. destruct (forked (links s b a)); [reflexivity|]. destruct m as [c h|].
  - destruct (hashesMatch (nodes s b) c h); [apply link_other; exact H|]. rewrite die_links. apply link_other. exact H.
  - rewrite die_links. apply link_other. exact H.
Qed.
Lemma receive_link s a b m : links (receive total full s a b m) b a =
  let l := links s b a in
  if forked l then l else match m with
    | Login c h => if hashesMatch (nodes s b) c h then Link (composed l) (queue l) false (Some c) else Link (composed l) (queue l ++ [Forked]) true (peer_count l)
    | Forked => Link (composed l) (queue l) true (peer_count l) end.
Proof.
  unfold receive. cbv zeta. destruct (forked (links s b a)); [reflexivity|]. destruct m as [c h|].
  - destruct (hashesMatch (nodes s b) c h); [apply link_same|]. rewrite die_links. apply link_same.
  - rewrite die_links. apply link_same.
Qed.

(** What a node has can only grow. *)
Definition sane (x : node) : Prop := ph x <> Settled -> hist x <> [].
Definition grown (x y : node) : Prop := (exists t, hist y = hist x ++ t) /\ getCommitCount x <= getCommitCount y.
Lemma grown_refl x : grown x x.
Proof. split; [exists []; symmetry; apply app_nil_r|lia]. Qed.
Lemma same_grown x y : same_data y x -> grown x y.
Proof. intros (A & B & C). split; [exists []; rewrite app_nil_r; exact A|]. unfold getCommitCount. rewrite A, B. lia. Qed.
Lemma step_node s e s' i : (forall j, sane (nodes s j)) -> step s e = Some s' ->
  grown (nodes s i) (nodes s' i) /\ sane (nodes s' i) /\ (valid sha (hist (nodes s i)) -> valid sha (hist (nodes s' i))).
Proof.
  intros SN H. assert (SAME : forall x, same_data x (nodes s i) -> grown (nodes s i) x /\ sane x /\ (valid sha (hist (nodes s i)) -> valid sha (hist x))).
  { intros x D. split; [apply same_grown; exact D|]. destruct D as (A & B & _). unfold sane. rewrite A, B. split; [apply SN|tauto]. }
  specialize (SN i). destruct e as [a q|a|a|a k|a b|a b|a b|a b]; cbn [Fork_Model.step] in H.
  - destruct (ph (nodes s a)) eqn:P; try discriminate. destruct (alive (nodes s a)); [|discriminate]. injection H as <-. cbn [set_node nodes].
    destruct (Nat.eqb_spec i a) as [->|]; [|apply SAME; repeat split]. split; [|split].
    + split; [eexists; reflexivity|]. unfold getCommitCount. cbn [ph hist]. rewrite P, app_length. cbn [length]. lia.
    + intros _. cbn [hist]. destruct (hist (nodes s a)); discriminate.
    + intros V. cbn [hist]. apply valid_snoc. exact V.
  - destruct (ph (nodes s a)) eqn:P; try discriminate. destruct (alive (nodes s a)); [|discriminate]. injection H as <-. cbn [set_node nodes].
    destruct (Nat.eqb_spec i a) as [->|]; [|apply SAME; repeat split]. split; [|split].
    + split; [exists []; symmetry; apply app_nil_r|]. unfold getCommitCount. cbn [ph hist]. rewrite P. lia.
    + intros _. cbn [hist]. apply SN. congruence.
    + cbn [hist]. tauto.
  - destruct (ph (nodes s a)) eqn:P; try discriminate. destruct (alive (nodes s a)); [|discriminate]. injection H as <-. cbn [set_node nodes].
    destruct (Nat.eqb_spec i a) as [->|]; [|apply SAME; repeat split]. split; [|split].
    + split; [exists []; symmetry; apply app_nil_r|]. unfold getCommitCount. cbn [ph hist]. rewrite P. lia.
    + intros X. cbn [ph] in X. congruence.
    + cbn [hist]. tauto.
  - destruct (alive (nodes s a) && (oldest (nodes s a) <=? k) && (k <=? length (hist (nodes s a)))); [|discriminate]. injection H as <-. cbn [set_node nodes].
    destruct (Nat.eqb_spec i a) as [->|]; [|apply SAME; repeat split]. split; [|split].
    + split; [exists []; symmetry; apply app_nil_r|]. unfold getCommitCount. cbn [ph hist]. lia.
    + exact SN.
    + cbn [hist]. tauto.
  - destruct (negb (a =? b) && (a <? total) && (b <? total) && alive (nodes s a) && alive (nodes s b)); [|discriminate]. injection H as <-. apply SAME. repeat split.
  - destruct (composed (links s a b)); try discriminate. destruct (alive (nodes s a) && negb (a =? b)); [|discriminate]. injection H as <-. apply SAME. repeat split.
  - destruct (composed (links s a b)); try discriminate. destruct (alive (nodes s a)); [|discriminate]. injection H as <-. apply SAME. repeat split.
  - destruct (composed (links s b a)); try discriminate. destruct (queue (links s a b)); [discriminate|]. destruct (alive (nodes s b) && negb (a =? b)); [|discriminate]. injection H as <-.
    apply SAME. exact (receive_data (set_link s a b _) a b _ i).
Qed.

(** ** Orderly runs: the two halves of a LOGIN are of the same commit, and the journal is complete. *)
Definition orderly (s : state) (e : event) : Prop :=
  match e with
  | Prune _ _ => False
  | ReadHash a b => match composed (links s a b) with Half c => ph (nodes s a) = Settled /\ c = length (hist (nodes s a)) | _ => True end
  | _ => True
  end.
Fixpoint orderly_run (s : state) (es : list event) : Prop :=
  match es with [] => True | e :: es' => orderly s e /\ match step s e with Some s' => orderly_run s' es' | None => True end end.

Record sound (s : state) : Prop := {
  s_valid : forall a, valid sha (hist (nodes s a));
  s_old : forall a, oldest (nodes s a) = 0;
  s_sane : forall a, sane (nodes s a);
  s_login : forall a b c h, In (Login c h) (queue (links s a b)) -> c <= length (hist (nodes s a)) /\ h = tip (firstn c (hist (nodes s a)));
  s_msg : forall a b, In Forked (queue (links s a b)) -> ~ compatible (hist (nodes s a)) (hist (nodes s b));
  s_flag : forall a b, forked (links s a b) = true -> ~ compatible (hist (nodes s a)) (hist (nodes s b))
}.
Lemma sound_start hs : (forall a, valid sha (hs a)) -> sound (start hs).
Proof. intros V. split; cbn; try (intros; contradiction); try discriminate; auto. intros a H. exfalso. apply H. reflexivity. Qed.

Lemma count_bound x : sane x -> getCommitCount x <= length (hist x).
Proof. intros _. unfold getCommitCount. destruct (ph x); lia. Qed.
(** A LOGIN that does not match is one of a history that has diverged. *)
Lemma mismatch s a b c h : sound s -> c <= length (hist (nodes s a)) -> h = tip (firstn c (hist (nodes s a))) -> hashesMatch (nodes s b) c h = false -> ~ compatible (hist (nodes s a)) (hist (nodes s b)).
Proof.
  intros S C -> M K. unfold hashesMatch in M. destruct (negb (bytes_eqb (tip (firstn c (hist (nodes s a)))) [])) eqn:E; [|discriminate]. cbn [andb] in M.
  destruct (Nat.leb_spec c (getCommitCount (nodes s b))) as [L|]; [|discriminate]. pose proof (count_bound _ (s_sane _ S b)).
  destruct (Nat.eq_dec c 0) as [->|Z]; [discriminate|]. rewrite (compatible_firstn _ _ c K) in M by lia.
  destruct (tip_firstn (hist (nodes s b)) c) as (e & NE & T); [lia..|]. unfold getCommit in M. rewrite (s_old _ S b) in M.
  apply Nat.eqb_neq in Z. rewrite Z in M. change (c <? 0) with false in M. cbn [orb] in M. rewrite NE, T in M. cbn [option_map] in M. rewrite bytes_eqb_refl in M. discriminate.
Qed.
Lemma firstn_grow {A} (l t : list A) c : c <= length l -> firstn c (l ++ t) = firstn c l.
Proof. intros H. rewrite firstn_app. replace (c - length l) with 0 by lia. cbn [firstn]. apply app_nil_r. Qed.

Lemma oldest_step s e s' i : orderly s e -> step s e = Some s' -> oldest (nodes s' i) = oldest (nodes s i).
Proof.
  intros O H. destruct e as [a q|a|a|a k|a b|a b|a b|a b]; cbn [Fork_Model.step] in H; try contradiction O.
  - destruct (ph (nodes s a)); try discriminate. destruct (alive (nodes s a)); [|discriminate]. injection H as <-. cbn [set_node nodes]. destruct (Nat.eqb_spec i a) as [->|]; reflexivity.
  - destruct (ph (nodes s a)); try discriminate. destruct (alive (nodes s a)); [|discriminate]. injection H as <-. cbn [set_node nodes]. destruct (Nat.eqb_spec i a) as [->|]; reflexivity.
  - destruct (ph (nodes s a)); try discriminate. destruct (alive (nodes s a)); [|discriminate]. injection H as <-. cbn [set_node nodes]. destruct (Nat.eqb_spec i a) as [->|]; reflexivity.
  - destruct (negb (a =? b) && (a <? total) && (b <? total) && alive (nodes s a) && alive (nodes s b)); [|discriminate]. injection H as <-. reflexivity.
  - destruct (composed (links s a b)); try discriminate. destruct (alive (nodes s a) && negb (a =? b)); [|discriminate]. injection H as <-. reflexivity.
  - destruct (composed (links s a b)); try discriminate. destruct (alive (nodes s a)); [|discriminate]. injection H as <-. reflexivity.
  - destruct (composed (links s b a)); try discriminate. destruct (queue (links s a b)); [discriminate|]. destruct (alive (nodes s b) && negb (a =? b)); [|discriminate]. injection H as <-.
    exact (proj2 (proj2 (receive_data (set_link s a b _) a b _ i))).
Qed.

(** The three kinds of steps on links. *)
Inductive link_step (s : state) : event -> state -> Prop :=
  | LNone e s' : links s' = links s -> link_step s e s'
  | LConnect a b s' : a <> b -> (forall i j, links s' i j = if (i =? a) && (j =? b) || (i =? b) && (j =? a) then reset else links s i j) -> link_step s (Connect a b) s'
  | LCount a b s' : a <> b -> composed (links s a b) = Unsent -> links s' a b = Link (Half (getCommitCount (nodes s a))) (queue (links s a b)) (forked (links s a b)) (peer_count (links s a b)) ->
      (forall i j, i <> a \/ j <> b -> links s' i j = links s i j) -> link_step s (ReadCount a b) s'
  | LHash a b c s' : composed (links s a b) = Half c -> links s' a b = Link Sent (queue (links s a b) ++ [Login c (getCommittedHash (nodes s a))]) (forked (links s a b)) (peer_count (links s a b)) ->
      (forall i j, i <> a \/ j <> b -> links s' i j = links s i j) -> link_step s (ReadHash a b) s'
  | LReceive a b m rest s' : a <> b -> composed (links s b a) = Sent -> queue (links s a b) = m :: rest ->
      links s' a b = Link (composed (links s a b)) rest (forked (links s a b)) (peer_count (links s a b)) ->
      links s' b a = (let l := links s b a in
        if forked l then l else match m with
          | Login c h => if hashesMatch (nodes s b) c h then Link (composed l) (queue l) false (Some c) else Link (composed l) (queue l ++ [Forked]) true (peer_count l)
          | Forked => Link (composed l) (queue l) true (peer_count l) end) ->
      (forall i j, (i <> a \/ j <> b) -> (i <> b \/ j <> a) -> links s' i j = links s i j) -> link_step s (Receive a b) s'.
Lemma step_links s e s' : step s e = Some s' -> link_step s e s'.
Proof.
  intros H. destruct e as [a q|a|a|a k|a b|a b|a b|a b]; cbn [Fork_Model.step] in H.
  - destruct (ph (nodes s a)); try discriminate. destruct (alive (nodes s a)); [|discriminate]. injection H as <-. apply LNone. reflexivity.
  - destruct (ph (nodes s a)); try discriminate. destruct (alive (nodes s a)); [|discriminate]. injection H as <-. apply LNone. reflexivity.
  - destruct (ph (nodes s a)); try discriminate. destruct (alive (nodes s a)); [|discriminate]. injection H as <-. apply LNone. reflexivity.
  - destruct (alive (nodes s a) && (oldest (nodes s a) <=? k) && (k <=? length (hist (nodes s a)))); [|discriminate]. injection H as <-. apply LNone. reflexivity.
  - destruct (negb (a =? b) && (a <? total) && (b <? total) && alive (nodes s a) && alive (nodes s b)) eqn:B; [|discriminate]. injection H as <-.
    do 4 (apply andb_prop in B as [B _]). apply negb_true_iff in B. apply Nat.eqb_neq in B. apply LConnect; [exact B|].
    intros i j. cbn [set_link links]. destruct ((i =? b) && (j =? a)); [rewrite orb_true_r; reflexivity|]. rewrite orb_false_r. reflexivity.
  - destruct (composed (links s a b)) eqn:C; try discriminate. destruct (alive (nodes s a) && negb (a =? b)) eqn:B; [|discriminate]. injection H as <-.
    apply andb_prop in B as [_ B]. apply negb_true_iff in B. apply Nat.eqb_neq in B. apply LCount; [exact B|exact C|apply link_same|]. intros i j N. apply link_other. exact N.
  - destruct (composed (links s a b)) eqn:C; try discriminate. destruct (alive (nodes s a)); [|discriminate]. injection H as <-. eapply LHash; [exact C|apply link_same|]. intros i j N. apply link_other. exact N.
  - destruct (composed (links s b a)) eqn:C; try discriminate. destruct (queue (links s a b)) as [|m rest] eqn:Q; [discriminate|]. destruct (alive (nodes s b) && negb (a =? b)) eqn:B; [|discriminate]. injection H as <-.
    apply andb_prop in B as [_ B]. apply negb_true_iff in B. apply Nat.eqb_neq in B. eapply LReceive; [exact B|exact C|exact Q| | |].
    + rewrite receive_other by (left; exact B). apply link_same.
    + rewrite receive_link. rewrite link_other by (left; congruence). reflexivity.
    + intros i j N1 N2. rewrite receive_other by exact N2. apply link_other. exact N1.
Qed.

Lemma sound_step s e s' : sound s -> orderly s e -> step s e = Some s' -> sound s'.
Proof.
  intros S O H. pose proof (fun i => step_node s e s' i (s_sane _ S) H) as NS.
  assert (KEEP : forall a b, ~ compatible (hist (nodes s a)) (hist (nodes s b)) -> ~ compatible (hist (nodes s' a)) (hist (nodes s' b))).
  { intros a b N K. apply N. destruct (NS a) as (((t & T) & _) & _). destruct (NS b) as (((u & U) & _) & _). rewrite T, U in K. eapply compatible_app. exact K. }
  assert (KEEPL : forall a c h, c <= length (hist (nodes s a)) /\ h = tip (firstn c (hist (nodes s a))) -> c <= length (hist (nodes s' a)) /\ h = tip (firstn c (hist (nodes s' a)))).
  { intros a c h (L & ->). destruct (NS a) as (((t & ->) & _) & _). rewrite app_length, firstn_grow by lia. split; [lia|reflexivity]. }
  split.
  - intros a. apply NS. apply S.
  - intros a. rewrite (oldest_step s e s' a O H). apply S.
  - intros a. apply NS.
  - intros a b c h I. destruct (step_links _ _ _ H) as [e s' E|x y s' N L|x y s' N C L1 L2|x y k s' C L1 L2|x y m rest s' N C Q L1 L2 L3].
    + rewrite E in I. apply KEEPL, (s_login _ S _ _ _ _ I).
    + rewrite L in I. destruct ((a =? x) && (b =? y) || (a =? y) && (b =? x)); [contradiction I|]. apply KEEPL, (s_login _ S _ _ _ _ I).
    + destruct (Nat.eq_dec a x) as [->|A]; [destruct (Nat.eq_dec b y) as [->|B]|]; [rewrite L1 in I|rewrite L2 in I by (right; exact B)|rewrite L2 in I by (left; exact A)]; apply KEEPL, (s_login _ S _ _ _ _ I).
    + destruct (Nat.eq_dec a x) as [->|A]; [destruct (Nat.eq_dec b y) as [->|B]|]; [rewrite L1 in I|rewrite L2 in I by (right; exact B)|rewrite L2 in I by (left; exact A)]; [|apply KEEPL, (s_login _ S _ _ _ _ I)..].
      cbn [queue] in I. apply in_app_iff in I as [I|[I|[]]]; [apply KEEPL, (s_login _ S _ _ _ _ I)|]. injection I as <- <-. apply KEEPL.
      cbn [orderly] in O. rewrite C in O. destruct O as (P & ->). unfold getCommittedHash. rewrite P, firstn_all. split; [lia|reflexivity].
    + destruct (Nat.eq_dec a x) as [->|A]; [destruct (Nat.eq_dec b y) as [->|B]|].
      * rewrite L1 in I. cbn [queue] in I. apply KEEPL, (s_login _ S x y). rewrite Q. right. exact I.
      * rewrite L3 in I by (tauto || (left; congruence)). apply KEEPL, (s_login _ S _ _ _ _ I).
      * destruct (Nat.eq_dec a y) as [->|A2]; [destruct (Nat.eq_dec b x) as [->|B2]|]; [|rewrite L3 in I by tauto; apply KEEPL, (s_login _ S _ _ _ _ I)..].
        rewrite L2 in I. cbv zeta in I. apply KEEPL, (s_login _ S y x). destruct (forked (links s y x)); [exact I|]. destruct m as [c0 h0|].
        -- destruct (hashesMatch (nodes s y) c0 h0); cbn [queue] in I; [exact I|]. apply in_app_iff in I as [I|[I|[]]]; [exact I|discriminate].
        -- exact I.
  - intros a b I. destruct (step_links _ _ _ H) as [e s' E|x y s' N L|x y s' N C L1 L2|x y k s' C L1 L2|x y m rest s' N C Q L1 L2 L3].
    + rewrite E in I. apply KEEP, (s_msg _ S _ _ I).
    + rewrite L in I. destruct ((a =? x) && (b =? y) || (a =? y) && (b =? x)); [contradiction I|]. apply KEEP, (s_msg _ S _ _ I).
    + destruct (Nat.eq_dec a x) as [->|A]; [destruct (Nat.eq_dec b y) as [->|B]|]; [rewrite L1 in I|rewrite L2 in I by (right; exact B)|rewrite L2 in I by (left; exact A)]; apply KEEP, (s_msg _ S _ _ I).
    + destruct (Nat.eq_dec a x) as [->|A]; [destruct (Nat.eq_dec b y) as [->|B]|]; [rewrite L1 in I|rewrite L2 in I by (right; exact B)|rewrite L2 in I by (left; exact A)]; [|apply KEEP, (s_msg _ S _ _ I)..].
      cbn [queue] in I. apply in_app_iff in I as [I|[I|[]]]; [apply KEEP, (s_msg _ S _ _ I)|discriminate].
    + destruct (Nat.eq_dec a x) as [->|A]; [destruct (Nat.eq_dec b y) as [->|B]|].
      * rewrite L1 in I. cbn [queue] in I. apply KEEP, (s_msg _ S x y). rewrite Q. right. exact I.
      * rewrite L3 in I by (tauto || (left; congruence)). apply KEEP, (s_msg _ S _ _ I).
      * destruct (Nat.eq_dec a y) as [->|A2]; [destruct (Nat.eq_dec b x) as [->|B2]|]; [|rewrite L3 in I by tauto; apply KEEP, (s_msg _ S _ _ I)..].
        rewrite L2 in I. cbv zeta in I. apply KEEP. destruct (forked (links s y x)); [apply (s_msg _ S _ _ I)|]. destruct m as [c0 h0|]; [|apply (s_msg _ S _ _ I)].
        destruct (hashesMatch (nodes s y) c0 h0) eqn:M; cbn [queue] in I; [apply (s_msg _ S _ _ I)|]. destruct (s_login _ S x y c0 h0) as [LC EH]; [rewrite Q; left; reflexivity|].
        intros K. apply compatible_sym in K. revert K. eapply mismatch; eassumption.
  - intros a b I. destruct (step_links _ _ _ H) as [e s' E|x y s' N L|x y s' N C L1 L2|x y k s' C L1 L2|x y m rest s' N C Q L1 L2 L3].
    + rewrite E in I. apply KEEP, (s_flag _ S _ _ I).
    + rewrite L in I. destruct ((a =? x) && (b =? y) || (a =? y) && (b =? x)); [discriminate I|]. apply KEEP, (s_flag _ S _ _ I).
    + destruct (Nat.eq_dec a x) as [->|A]; [destruct (Nat.eq_dec b y) as [->|B]|]; [rewrite L1 in I|rewrite L2 in I by (right; exact B)|rewrite L2 in I by (left; exact A)]; apply KEEP, (s_flag _ S _ _ I).
    + destruct (Nat.eq_dec a x) as [->|A]; [destruct (Nat.eq_dec b y) as [->|B]|]; [rewrite L1 in I|rewrite L2 in I by (right; exact B)|rewrite L2 in I by (left; exact A)]; apply KEEP, (s_flag _ S _ _ I).
    + destruct (Nat.eq_dec a x) as [->|A]; [destruct (Nat.eq_dec b y) as [->|B]|].
      * rewrite L1 in I. apply KEEP, (s_flag _ S _ _ I).
      * rewrite L3 in I by (tauto || (left; congruence)). apply KEEP, (s_flag _ S _ _ I).
      * destruct (Nat.eq_dec a y) as [->|A2]; [destruct (Nat.eq_dec b x) as [->|B2]|]; [|rewrite L3 in I by tauto; apply KEEP, (s_flag _ S _ _ I)..].
        rewrite L2 in I. cbv zeta in I. apply KEEP. destruct (forked (links s y x)) eqn:F; [apply (s_flag _ S _ _ F)|]. destruct m as [c0 h0|].
        -- destruct (hashesMatch (nodes s y) c0 h0) eqn:M; cbn [forked] in I; [discriminate|]. destruct (s_login _ S x y c0 h0) as [LC EH]; [rewrite Q; left; reflexivity|].
           intros K. apply compatible_sym in K. revert K. eapply mismatch; eassumption.
        -- intros K. apply compatible_sym in K. revert K. apply (s_msg _ S x y). rewrite Q. left. reflexivity.
Qed.
Lemma sound_run es : forall s s', sound s -> orderly_run s es -> run s es = Some s' -> sound s'.
Proof.
  induction es as [|e es IH]; intros s s' S O R; cbn [Fork_Model.run orderly_run] in *; [injection R as <-; exact S|]. destruct O as [O OR].
  destruct (step s e) as [s1|] eqn:E; [|discriminate]. eapply IH; [eapply sound_step; eassumption|exact OR|exact R].
Qed.

(** ** Diverged histories are found *)
Variable width : nat.
Hypothesis width_pos : 0 < width.
Hypothesis sha_width : forall x, length (sha x) = width.

Lemma accepted_ahead s x y c h : sound s -> ~ collision sha (hist (nodes s x)) (hist (nodes s y)) ->
  c <= length (hist (nodes s x)) -> h = tip (firstn c (hist (nodes s x))) -> ~ compatible (firstn c (hist (nodes s x))) (hist (nodes s y)) ->
  hashesMatch (nodes s y) c h = true -> getCommitCount (nodes s y) < c.
Proof.
  intros S NC L -> NK M. destruct (Nat.lt_ge_cases (getCommitCount (nodes s y)) c) as [G|G]; [exact G|exfalso].
  pose proof (count_bound _ (s_sane _ S y)) as CB. set (hx := hist (nodes s x)) in *. set (hy := hist (nodes s y)) in *.
  assert (Z : c <> 0). { intros ->. apply NK. left. exists hy. reflexivity. }
  assert (VX : valid sha (firstn c hx)) by (apply valid_firstn; apply S). assert (LX : length (firstn c hx) = c) by (rewrite firstn_length; lia).
  assert (TL : length (tip (firstn c hx)) = width). { rewrite (tip_len sha width _ sha_width VX). destruct (firstn c hx); [cbn in LX; lia|reflexivity]. }
  unfold hashesMatch in M. destruct (bytes_eqb (tip (firstn c hx)) []) eqn:E; [apply bytes_eqb_eq in E; rewrite E in TL; cbn in TL; lia|]. cbn [negb andb] in M.
  apply Nat.leb_le in G. rewrite G in M. unfold getCommit in M. rewrite (s_old _ S y) in M. pose proof Z as Z'. apply Nat.eqb_neq in Z'. rewrite Z' in M. change (c <? 0) with false in M. cbn [orb] in M.
  apply Nat.leb_le in G. destruct (tip_firstn hy c) as (e & NE & T); [lia..|]. fold hy in M. rewrite NE in M. cbn [option_map] in M. apply bytes_eqb_eq in M. rewrite <- T in M.
  destruct (same_tip sha width (firstn c hx) (firstn c hy)) as [EQ|CO]; [exact sha_width|exact VX|apply valid_firstn; apply S|rewrite !firstn_length; lia|exact M| |].
  - apply NK. left. rewrite EQ. exists (skipn c hy). symmetry. apply firstn_skipn.
  - apply NC. rewrite <- (firstn_skipn c hx), <- (firstn_skipn c hy). apply collision_app. exact CO.
Qed.

Record told (s : state) (x y : nat) : Prop := {
  k_login : forall c h, In (Login c h) (queue (links s x y)) ->
    composed (links s x y) = Sent /\ c <= getCommitCount (nodes s x) /\ ~ compatible (firstn c (hist (nodes s x))) (hist (nodes s y));
  k_in : forall c, peer_count (links s y x) = Some c -> c <= getCommitCount (nodes s x) /\ composed (links s y x) = Sent /\
    (forall c' h, In (Login c' h) (queue (links s y x)) -> c' < c) /\ (forall c', peer_count (links s x y) = Some c' -> c' < c);
  k_sent : composed (links s x y) = Sent -> (exists c h, In (Login c h) (queue (links s x y))) \/ peer_count (links s y x) <> None \/ forked (links s y x) = true;
  k_both : forked (links s y x) = true -> forked (links s x y) = true \/ In Forked (queue (links s y x));
  k_own : In Forked (queue (links s x y)) -> forked (links s x y) = true
}.
Lemma told_reset s x y : links s x y = reset -> links s y x = reset -> told s x y.
Proof. intros A B. split; rewrite ?A, ?B; cbn; intros; try contradiction; discriminate. Qed.

(** The histories and counts grow, the links of the two stay. *)
Lemma told_grow s s' x y : sound s -> told s x y -> grown (nodes s x) (nodes s' x) -> grown (nodes s y) (nodes s' y) ->
  links s' x y = links s x y -> links s' y x = links s y x -> told s' x y.
Proof.
  intros S T ((t & Gx) & Cx) ((u & Gy) & Cy) L1 L2. split; rewrite ?L1, ?L2.
  - intros c h I. destruct (k_login _ _ _ T c h I) as (A & B & N). split; [exact A|]. split; [lia|]. rewrite Gx, Gy, firstn_grow by (apply (s_login _ S _ _ _ _ I)).
    intros K. apply N. rewrite <- (app_nil_r (firstn c (hist (nodes s x)))) in K. eapply compatible_app. exact K.
  - intros c P. destruct (k_in _ _ _ T c P) as (A & B). split; [lia|exact B].
  - apply T.
  - apply T.
  - apply T.
Qed.
Lemma told_step s e s' x y : x <> y -> sound s -> orderly s e -> step s e = Some s' ->
  ~ compatible (hist (nodes s x)) (hist (nodes s y)) -> ~ collision sha (hist (nodes s x)) (hist (nodes s y)) -> told s x y -> told s y x -> told s' x y.
Proof.
  intros XY S O H NK NC T T'. pose proof (step_node s e s' x (s_sane _ S) H) as (GX & _). pose proof (step_node s e s' y (s_sane _ S) H) as (GY & _).
  destruct (step_links _ _ _ H) as [e s' E|p q s' N L|p q s' N C L1 L2|p q k s' C L1 L2|p q m rest s' N C Q L1 L2 L3].
  - eapply told_grow; try eassumption; rewrite E; reflexivity.
  - destruct ((x =? p) && (y =? q) || (x =? q) && (y =? p)) eqn:B.
    + apply told_reset; rewrite L; [rewrite B; reflexivity|]. rewrite (andb_comm (y =? p)), (andb_comm (y =? q)), orb_comm, B. reflexivity.
    + eapply told_grow; try eassumption; rewrite L; [rewrite B; reflexivity|]. rewrite (andb_comm (y =? p)), (andb_comm (y =? q)), orb_comm, B. reflexivity.
  - (* ReadCount *)
    assert (ND : nodes s' = nodes s). { cbn [Fork_Model.step] in H. rewrite C in H. destruct (alive (nodes s p) && negb (p =? q)); [|discriminate]. injection H as <-. reflexivity. }
    destruct (Nat.eq_dec p x) as [->|PX]; [destruct (Nat.eq_dec q y) as [->|QY]|destruct (Nat.eq_dec p y) as [->|PY]; [destruct (Nat.eq_dec q x) as [->|QX]|]].
    + split; rewrite ?ND, ?L1, ?(L2 y x) by (left; congruence); cbn [composed queue forked peer_count].
      * intros c h I. destruct (k_login _ _ _ T c h I). congruence.
      * apply T.
      * discriminate.
      * apply T.
      * apply T.
    + eapply told_grow; try eassumption; apply L2; [right|left]; congruence.
    + split; rewrite ?ND, ?L1, ?(L2 x y) by (left; congruence); cbn [composed queue forked peer_count].
      * apply T.
      * intros c P. destruct (k_in _ _ _ T c P) as (_ & X & _). congruence.
      * apply T.
      * apply T.
      * apply T.
    + eapply told_grow; try eassumption; apply L2; [left|right]; congruence.
    + eapply told_grow; try eassumption; apply L2; left; congruence.
  - (* ReadHash *)
    assert (ND : nodes s' = nodes s). { cbn [Fork_Model.step] in H. rewrite C in H. destruct (alive (nodes s p)); [|discriminate]. injection H as <-. reflexivity. }
    destruct (Nat.eq_dec p x) as [->|PX]; [destruct (Nat.eq_dec q y) as [->|QY]|destruct (Nat.eq_dec p y) as [->|PY]; [destruct (Nat.eq_dec q x) as [->|QX]|]].
    + cbn [orderly] in O. rewrite C in O. destruct O as (P & ->). split; rewrite ?ND, ?L1, ?(L2 y x) by (left; congruence); cbn [composed queue forked peer_count].
      * intros c h I. split; [reflexivity|]. apply in_app_iff in I as [I|[I|[]]]; [apply (k_login _ _ _ T c h I)|]. injection I as <- <-. unfold getCommitCount. rewrite P, firstn_all. split; [lia|exact NK].
      * apply T.
      * intros _. left. eexists _, _. apply in_app_iff. right. left. reflexivity.
      * apply T.
      * intros I. apply in_app_iff in I as [I|[I|[]]]; [apply T; exact I|discriminate].
    + eapply told_grow; try eassumption; apply L2; [right|left]; congruence.
    + split; rewrite ?ND, ?L1, ?(L2 x y) by (left; congruence); cbn [composed queue forked peer_count].
      * apply T.
      * intros c P. destruct (k_in _ _ _ T c P) as (_ & X & _). congruence.
      * apply T.
      * intros F. destruct (k_both _ _ _ T F) as [X|X]; [left; exact X|right; apply in_app_iff; left; exact X].
      * apply T.
    + eapply told_grow; try eassumption; apply L2; [left|right]; congruence.
    + eapply told_grow; try eassumption; apply L2; left; congruence.
  - (* Receive *)
    assert (CX : getCommitCount (nodes s x) <= getCommitCount (nodes s' x)) by apply GX.
    assert (HX : hist (nodes s' x) = hist (nodes s x) /\ hist (nodes s' y) = hist (nodes s y)).
    { cbn [Fork_Model.step] in H. rewrite C, Q in H. destruct (alive (nodes s q) && negb (p =? q)); [|discriminate]. injection H as <-.
      split; [exact (proj1 (receive_data (set_link s p q _) p q m x))|exact (proj1 (receive_data (set_link s p q _) p q m y))]. }
    destruct HX as [HX HY].
    destruct (Nat.eq_dec p x) as [->|PX]; [destruct (Nat.eq_dec q y) as [->|QY]|destruct (Nat.eq_dec p y) as [->|PY]; [destruct (Nat.eq_dec q x) as [->|QX]|]].
    + (* y takes a message from x *)
      assert (K1 : forall c h, In (Login c h) (queue (links s' x y)) -> composed (links s' x y) = Sent /\ c <= getCommitCount (nodes s' x) /\ ~ compatible (firstn c (hist (nodes s' x))) (hist (nodes s' y))).
      { rewrite L1, HX, HY. cbn [queue composed]. intros c h I. destruct (k_login _ _ _ T c h) as (A & B & D); [rewrite Q; right; exact I|]. split; [exact A|]. split; [lia|exact D]. }
      destruct (forked (links s y x)) eqn:F; cbv zeta in L2; [rewrite F in L2|].
      * split; [exact K1|rewrite ?L1, ?L2; cbn [composed queue forked peer_count]..].
        -- intros c P. destruct (k_in _ _ _ T c P) as (A & B). split; [lia|exact B].
        -- intros _. right. right. exact F.
        -- intros _. apply T. exact F.
        -- intros I. apply T. rewrite Q. right. exact I.
      * rewrite F in L2. destruct m as [c0 h0|].
        -- destruct (k_login _ _ _ T c0 h0) as (A0 & B0 & D0); [rewrite Q; left; reflexivity|]. destruct (s_login _ S x y c0 h0) as [LC EH]; [rewrite Q; left; reflexivity|].
           destruct (hashesMatch (nodes s y) c0 h0) eqn:M.
           ++ pose proof (accepted_ahead s x y c0 h0 S NC LC EH D0 M) as AH.
              split; [exact K1|rewrite ?L1, ?L2; cbn [composed queue forked peer_count]..].
              ** intros c P. injection P as <-. split; [lia|]. split; [exact C|]. split.
                 --- intros c' h I. destruct (k_login _ _ _ T' c' h I) as (_ & B & _). lia.
                 --- intros c' P. destruct (k_in _ _ _ T' c' P) as (B & _). lia.
              ** intros _. right. left. discriminate.
              ** discriminate.
              ** intros I. apply T. rewrite Q. right. exact I.
           ++ split; [exact K1|rewrite ?L1, ?L2; cbn [composed queue forked peer_count]..].
              ** intros c P. destruct (k_in _ _ _ T c P) as (A & B & E1 & E2). split; [lia|]. split; [exact B|]. split; [|exact E2].
                 intros c' h I. apply in_app_iff in I as [I|[I|[]]]; [apply (E1 c' h I)|discriminate].
              ** intros _. right. right. reflexivity.
              ** intros _. right. apply in_app_iff. right. left. reflexivity.
              ** intros I. apply T. rewrite Q. right. exact I.
        -- split; [exact K1|rewrite ?L1, ?L2; cbn [composed queue forked peer_count]..].
           ++ intros c P. destruct (k_in _ _ _ T c P) as (A & B). split; [lia|exact B].
           ++ intros _. right. right. reflexivity.
           ++ intros _. left. apply T. rewrite Q. left. reflexivity.
           ++ intros I. apply T. rewrite Q. right. exact I.
    + eapply told_grow; try eassumption; apply L3; lia.
    + (* x takes a message from y *)
      split; rewrite ?HX, ?HY, ?L1; cbn [composed queue forked peer_count].
      * intros c h I. rewrite L2 in *. cbv zeta in *. assert (I' : In (Login c h) (queue (links s x y))).
        { destruct (forked (links s x y)); [exact I|]. destruct m as [c0 h0|]; [|exact I]. destruct (hashesMatch (nodes s x) c0 h0); [exact I|]. apply in_app_iff in I as [I|[I|[]]]; [exact I|discriminate]. }
        destruct (k_login _ _ _ T c h I') as (A & B & D). split; [|split; [lia|exact D]]. destruct (forked (links s x y)); [exact A|]. destruct m as [c0 h0|]; [|exact A]. destruct (hashesMatch (nodes s x) c0 h0); exact A.
      * intros c P. destruct (k_in _ _ _ T c P) as (A & B & E1 & E2). split; [lia|]. split; [exact B|]. split.
        -- intros c' h I. apply (E1 c' h). rewrite Q. right. exact I.
        -- intros c' P'. rewrite L2 in P'. cbv zeta in P'. destruct (forked (links s x y)); [apply (E2 c' P')|]. destruct m as [c0 h0|]; [|apply (E2 c' P')].
           destruct (hashesMatch (nodes s x) c0 h0); [|apply (E2 c' P')]. cbn [peer_count] in P'. injection P' as <-. apply (E1 c0 h0). rewrite Q. left. reflexivity.
      * rewrite L2. cbv zeta. intros CS. assert (CS' : composed (links s x y) = Sent).
        { destruct (forked (links s x y)); [exact CS|]. destruct m as [c0 h0|]; [|exact CS]. destruct (hashesMatch (nodes s x) c0 h0); exact CS. }
        destruct (k_sent _ _ _ T CS') as [(c & h & I)|R]; [left; exists c, h|right; exact R].
        destruct (forked (links s x y)); [exact I|]. destruct m as [c0 h0|]; [|exact I]. destruct (hashesMatch (nodes s x) c0 h0); [exact I|]. apply in_app_iff. left. exact I.
      * intros F. rewrite L2. cbv zeta. destruct (forked (links s x y)) eqn:FX; [left; exact FX|]. destruct (k_both _ _ _ T F) as [X|X]; [congruence|]. rewrite Q in X.
        destruct m as [c0 h0|]; [|left; reflexivity]. destruct X as [X|X]; [discriminate|]. right. exact X.
      * rewrite L2. cbv zeta. intros I. destruct (forked (links s x y)) eqn:FX; [exact FX|]. destruct m as [c0 h0|]; [|reflexivity].
        destruct (hashesMatch (nodes s x) c0 h0); [|reflexivity]. cbn [queue] in I. apply T in I. congruence.
    + eapply told_grow; try eassumption; apply L3; lia.
    + eapply told_grow; try eassumption; apply L3; lia.
Qed.

Lemma apart_step s e s' x y : sound s -> step s e = Some s' ->
  (compatible (hist (nodes s' x)) (hist (nodes s' y)) -> compatible (hist (nodes s x)) (hist (nodes s y))) /\
  (collision sha (hist (nodes s x)) (hist (nodes s y)) -> collision sha (hist (nodes s' x)) (hist (nodes s' y))).
Proof.
  intros S H. destruct (step_node s e s' x (s_sane _ S) H) as (((t & ->) & _) & _). destruct (step_node s e s' y (s_sane _ S) H) as (((u & ->) & _) & _).
  split; [apply compatible_app|apply collision_app].
Qed.
Lemma apart_run es : forall s s' x y, sound s -> orderly_run s es -> run s es = Some s' -> collision sha (hist (nodes s x)) (hist (nodes s y)) -> collision sha (hist (nodes s' x)) (hist (nodes s' y)).
Proof.
  induction es as [|e es IH]; intros s s' x y S O R C; cbn [Fork_Model.run orderly_run] in *; [injection R as <-; exact C|]. destruct O as [O OR].
  destruct (step s e) as [s1|] eqn:E; [|discriminate]. eapply IH; [eapply sound_step; eassumption|exact OR|exact R|]. apply (apart_step _ _ _ x y S E). exact C.
Qed.
Lemma told_run es : forall s s' x y, x <> y -> sound s -> orderly_run s es -> run s es = Some s' ->
  ~ compatible (hist (nodes s x)) (hist (nodes s y)) -> ~ collision sha (hist (nodes s' x)) (hist (nodes s' y)) -> told s x y -> told s y x -> told s' x y /\ told s' y x.
Proof.
  induction es as [|e es IH]; intros s s' x y XY S O R NK NC T T'; cbn [Fork_Model.run orderly_run] in *; [injection R as <-; split; assumption|]. destruct O as [O OR].
  destruct (step s e) as [s1|] eqn:E; [|discriminate]. pose proof (sound_step _ _ _ S O E) as S1.
  assert (NC0 : ~ collision sha (hist (nodes s x)) (hist (nodes s y))). { intros C. apply NC. eapply apart_run; [exact S1|exact OR|exact R|]. apply (apart_step _ _ _ x y S E). exact C. }
  eapply IH; [exact XY|exact S1|exact OR|exact R| |exact NC| |].
  - intros K. apply NK. apply (apart_step _ _ _ x y S E). exact K.
  - apply (told_step s e s1 x y); assumption.
  - apply (told_step s e s1 y x); try assumption; [congruence|intros K; apply NK, compatible_sym, K|intros C; apply NC0, collision_sym, C].
Qed.

(** A node says that another one is forked only if their histories have diverged: neither is the beginning of the other. *)
Theorem C66_sound hs es s a b : (forall i, valid sha (hs i)) -> orderly_run (start hs) es -> run (start hs) es = Some s ->
  forked (links s a b) = true -> ~ compatible (hist (nodes s a)) (hist (nodes s b)).
Proof. intros V O R. apply (s_flag s (sound_run es (start hs) s (sound_start hs V) O R)). Qed.

(** Two nodes with diverged histories that connect both know of it once they have got each other's messages. *)
Theorem C66_found hs es s0 a b es' s : (forall i, valid sha (hs i)) -> orderly_run (start hs) es -> run (start hs) es = Some s0 ->
  ~ compatible (hist (nodes s0 a)) (hist (nodes s0 b)) ->
  orderly_run s0 (Connect a b :: es') -> run s0 (Connect a b :: es') = Some s ->
  composed (links s a b) = Sent -> composed (links s b a) = Sent -> queue (links s a b) = [] -> queue (links s b a) = [] ->
  ~ collision sha (hist (nodes s a)) (hist (nodes s b)) -> forked (links s a b) = true /\ forked (links s b a) = true.
Proof.
  intros V O0 R0 NK O R CA CB QA QB NC. pose proof (sound_run es (start hs) s0 (sound_start hs V) O0 R0) as S0.
  destruct (forked (links s a b) && forked (links s b a)) eqn:F; [apply andb_prop; exact F|exfalso].
  cbn [Fork_Model.run orderly_run] in R, O. destruct O as [_ O]. destruct (step s0 (Connect a b)) as [s1|] eqn:E; [|discriminate].
  pose proof (sound_step _ (Connect a b) _ S0 I E) as S1. assert (L : a <> b /\ links s1 a b = reset /\ links s1 b a = reset).
  { cbn [Fork_Model.step] in E. destruct (negb (a =? b) && (a <? total) && (b <? total) && alive (nodes s0 a) && alive (nodes s0 b)) eqn:B; [|discriminate]. injection E as <-.
    do 4 (apply andb_prop in B as [B _]). apply negb_true_iff in B. apply Nat.eqb_neq in B. split; [exact B|]. rewrite link_same, link_other by (left; exact B). rewrite link_same. split; reflexivity. }
  destruct L as (AB & L1 & L2).
  destruct (told_run es' s1 s a b AB S1 O R) as [T T'].
  - intros K. apply NK. apply (apart_step _ _ _ a b S0 E). exact K.
  - exact NC.
  - apply told_reset; assumption.
  - apply told_reset; assumption.
  - assert (W : forall x y, told s x y -> queue (links s y x) = [] -> forked (links s y x) = true -> forked (links s x y) = true).
    { intros x y K Q H. destruct (k_both _ _ _ K H) as [X|X]; [exact X|]. rewrite Q in X. contradiction X. }
    destruct (forked (links s a b)) eqn:FA; [rewrite (W b a T' QA FA) in F; discriminate|]. destruct (forked (links s b a)) eqn:FB; [rewrite (W a b T QB FB) in FA; discriminate|].
    destruct (k_sent _ _ _ T CA) as [(c & h & X)|[X|X]]; [rewrite QA in X; contradiction X| |congruence].
    destruct (k_sent _ _ _ T' CB) as [(c & h & Y)|[Y|Y]]; [rewrite QB in Y; contradiction Y| |congruence].
    destruct (peer_count (links s b a)) as [c|] eqn:PB; [|congruence]. destruct (peer_count (links s a b)) as [d|] eqn:PA; [|congruence].
    destruct (k_in _ _ _ T c PB) as (_ & _ & _ & H1). destruct (k_in _ _ _ T' d PA) as (_ & _ & _ & H2). specialize (H1 d PA). specialize (H2 c PB). lia.
Qed.

(** ** Stopping *)
Definition forked_full (s : state) (a : nat) : nat := length (filter (fun b => full b && negb (b =? a) && forked (links s a b)) (seq 0 total)).
Definition full_nodes : nat := length (filter full (seq 0 total)).
Lemma filter_filter {A} (f g : A -> bool) l : filter f (filter g l) = filter (fun x => f x && g x) l.
Proof. induction l as [|x l IH]; [reflexivity|]. cbn [filter]. destruct (g x) eqn:G; cbn [filter]; [|rewrite andb_false_r; exact IH]. rewrite andb_true_r. destruct (f x); rewrite IH; reflexivity. Qed.
Lemma count_all a l : NoDup l -> length (filter (fun b => full b && negb (b =? a)) l) + (if full a && existsb (Nat.eqb a) l then 1 else 0) = length (filter full l).
Proof.
  induction l as [|x l IH]; intros N; [cbn; rewrite andb_false_r; reflexivity|]. inversion N as [|y m NI N' E]; subst. specialize (IH N'). cbn [filter existsb].
  rewrite (Nat.eqb_sym x a). destruct (Nat.eqb_spec a x) as [->|AX]; cbn [negb orb].
  - rewrite andb_false_r, andb_true_r. assert (X : existsb (Nat.eqb x) l = false).
    { destruct (existsb (Nat.eqb x) l) eqn:B; [|reflexivity]. apply existsb_exists in B as (z & I & B). apply Nat.eqb_eq in B as <-. contradiction. }
    rewrite X, andb_false_r in IH. destruct (full x); cbn [length]; lia.
  - rewrite andb_true_r. destruct (full x); cbn [length]; lia.
Qed.
Lemma quorum_full a : a < total -> quorumNodeCount total full a = full_nodes.
Proof.
  intros L. unfold quorumNodeCount, others, full_nodes. rewrite filter_filter, <- (count_all a (seq 0 total)) by apply seq_NoDup. f_equal.
  assert (X : existsb (Nat.eqb a) (seq 0 total) = true) by (apply existsb_exists; exists a; split; [apply in_seq; lia|apply Nat.eqb_refl]). rewrite X, andb_true_r. reflexivity.
Qed.
Lemma forked_same s a : forkedFullPeerCount total full s a = forked_full s a.
Proof.
  unfold forkedFullPeerCount, others, forked_full. rewrite filter_filter. f_equal. apply filter_ext. intros b. destruct (full b), (b =? a), (forked (links s a b)); reflexivity.
Qed.
Lemma dies_when s a : a < total -> must_die total full s a = true <-> full_nodes <= 2 * forked_full s a.
Proof. intros L. unfold must_die. rewrite quorum_full, forked_same by exact L. rewrite Nat.leb_le. pose proof (Nat.div_mod (full_nodes + 1) 2). pose proof (Nat.mod_upper_bound (full_nodes + 1) 2). lia. Qed.
Lemma filter_le {A} (f g : A -> bool) l : (forall x, f x = true -> g x = true) -> length (filter f l) <= length (filter g l).
Proof. intros H. induction l as [|x l IH]; [reflexivity|]. cbn [filter]. destruct (f x) eqn:F; [rewrite (H x F); cbn [length]; lia|]. destruct (g x); cbn [length]; lia. Qed.
Lemma forked_le s s' a : (forall b, forked (links s' a b) = true -> forked (links s a b) = true) -> forked_full s' a <= forked_full s a.
Proof. intros H. apply filter_le. intros b B. apply andb_prop in B as [B F]. rewrite B, (H b F). reflexivity. Qed.
Lemma forked_full_links s s' a : links s = links s' -> forked_full s a = forked_full s' a.
Proof. intros H. unfold forked_full. rewrite H. reflexivity. Qed.
Lemma die_alive s a i : alive (nodes (dieIfForkedFromCluster total full s a) i) = alive (nodes s i) && negb ((i =? a) && must_die total full s a).
Proof.
  unfold dieIfForkedFromCluster. destruct (must_die total full s a); [|rewrite andb_false_r, andb_true_r; reflexivity]. rewrite andb_true_r.
  cbn [set_node nodes]. destruct (i =? a); cbn [alive negb]; [rewrite andb_false_r; reflexivity|rewrite andb_true_r; reflexivity].
Qed.

(** The effect of a step on who lives and on how many forked peers a node has. *)
Lemma step_alive s e s' i : step s e = Some s' ->
  (alive (nodes s' i) = alive (nodes s i) /\ forked_full s' i <= forked_full s i) \/
  (alive (nodes s' i) = alive (nodes s i) && negb (must_die total full s' i)).
Proof.
  intros H. destruct e as [a q|a|a|a k|a b|a b|a b|a b]; cbn [Fork_Model.step] in H.
  - left. destruct (ph (nodes s a)); try discriminate. destruct (alive (nodes s a)) eqn:A; [|discriminate]. injection H as <-. split; [|reflexivity]. cbn [set_node nodes]. destruct (Nat.eqb_spec i a) as [->|]; [rewrite A|]; reflexivity.
  - left. destruct (ph (nodes s a)); try discriminate. destruct (alive (nodes s a)) eqn:A; [|discriminate]. injection H as <-. split; [|reflexivity]. cbn [set_node nodes]. destruct (Nat.eqb_spec i a) as [->|]; [rewrite A|]; reflexivity.
  - left. destruct (ph (nodes s a)); try discriminate. destruct (alive (nodes s a)) eqn:A; [|discriminate]. injection H as <-. split; [|reflexivity]. cbn [set_node nodes]. destruct (Nat.eqb_spec i a) as [->|]; [rewrite A|]; reflexivity.
  - left. destruct (alive (nodes s a)) eqn:A; [|discriminate]. destruct ((oldest (nodes s a) <=? k) && (k <=? length (hist (nodes s a)))) eqn:B; cbn [andb] in H; rewrite B in H; [|discriminate]. injection H as <-. split; [|reflexivity]. cbn [set_node nodes]. destruct (Nat.eqb_spec i a) as [->|]; [rewrite A|]; reflexivity.
  - left. destruct (negb (a =? b) && (a <? total) && (b <? total) && alive (nodes s a) && alive (nodes s b)); [|discriminate]. injection H as <-. split; [reflexivity|]. apply forked_le. intros j. cbn [set_link links].
    destruct ((i =? b) && (j =? a)); [discriminate|]. destruct ((i =? a) && (j =? b)); [discriminate|auto].
  - left. destruct (composed (links s a b)); try discriminate. destruct (alive (nodes s a) && negb (a =? b)); [|discriminate]. injection H as <-. split; [reflexivity|]. apply forked_le. intros j. cbn [set_link links].
    destruct (Nat.eqb_spec i a) as [->|], (Nat.eqb_spec j b) as [->|]; cbn [andb forked]; auto.
  - left. destruct (composed (links s a b)); try discriminate. destruct (alive (nodes s a)); [|discriminate]. injection H as <-. split; [reflexivity|]. apply forked_le. intros j. cbn [set_link links].
    destruct (Nat.eqb_spec i a) as [->|], (Nat.eqb_spec j b) as [->|]; cbn [andb forked]; auto.
  - destruct (composed (links s b a)); try discriminate. destruct (queue (links s a b)) as [|m rest]; [discriminate|]. destruct (alive (nodes s b) && negb (a =? b)); [|discriminate]. injection H as <-.
    set (t := set_link s a b _). assert (TF : forall i j, forked (links t i j) = forked (links s i j)). { intros i' j'. unfold t. cbn [set_link links]. destruct (Nat.eqb_spec i' a) as [->|], (Nat.eqb_spec j' b) as [->|]; reflexivity. }
    assert (TA : alive (nodes t i) = alive (nodes s i)) by reflexivity. clearbody t. unfold receive. destruct (forked (links t b a)) eqn:F; [left; split; [exact TA|apply forked_le; intros j; rewrite TF; auto]|].
    assert (DIE : forall l, (alive (nodes (dieIfForkedFromCluster total full (set_link t b a l) b) i) = alive (nodes s i) /\ forked_full (dieIfForkedFromCluster total full (set_link t b a l) b) i <= forked_full s i) \/
      alive (nodes (dieIfForkedFromCluster total full (set_link t b a l) b) i) = alive (nodes s i) && negb (must_die total full (dieIfForkedFromCluster total full (set_link t b a l) b) i)).
    { intros l. destruct (Nat.eq_dec i b) as [->|IB].
      - right. rewrite die_alive, Nat.eqb_refl. cbn [andb set_link nodes]. rewrite TA. f_equal. f_equal. unfold must_die, forkedFullPeerCount. rewrite die_links. reflexivity.
      - left. rewrite die_alive. apply Nat.eqb_neq in IB. rewrite IB. cbn [andb negb]. rewrite andb_true_r. split; [exact TA|]. apply forked_le. intros j. rewrite die_links. cbn [set_link links]. rewrite IB. cbn [andb]. rewrite TF. auto. }
    destruct m as [c h|]; [|apply DIE]. destruct (hashesMatch (nodes t b) c h); [|apply DIE]. left. split; [exact TA|]. apply forked_le. intros j. cbn [set_link links].
    destruct ((i =? b) && (j =? a)); [discriminate|]. rewrite TF. auto.
Qed.
Lemma alive_run es : forall s s' a, a < total -> full_nodes > 0 -> (alive (nodes s a) = true -> 2 * forked_full s a < full_nodes) -> run s es = Some s' -> alive (nodes s' a) = true -> 2 * forked_full s' a < full_nodes.
Proof.
  induction es as [|e es IH]; intros s s' a L Q P R; cbn [Fork_Model.run] in R; [injection R as <-; exact P|]. destruct (step s e) as [s1|] eqn:E; [|discriminate].
  eapply IH; [exact L|exact Q| |exact R]. intros A. destruct (step_alive _ _ _ a E) as [(A1 & LE)|A1]; [rewrite A1 in A; specialize (P A); lia|]. rewrite A1 in A.
  apply andb_prop in A as [_ A]. apply negb_true_iff in A. destruct (Nat.lt_ge_cases (2 * forked_full s1 a) full_nodes) as [X|X]; [exact X|]. apply (dies_when s1 a L) in X. congruence.
Qed.

(** A node that is alive has not found itself forked from half of the full nodes or more, whatever happened. *)
Theorem C66_alive hs es s a : run (start hs) es = Some s -> a < total -> full_nodes > 0 -> alive (nodes s a) = true ->
  2 * forked_full s a < full_nodes.
Proof.
  intros R L Q. eapply alive_run; [exact L|exact Q| |exact R]. intros _. unfold forked_full. rewrite (filter_ext _ (fun _ => false)); [|intros b; cbn [start links reset forked]; apply andb_false_r].
  assert (Z : forall m : list nat, length (filter (fun _ => false) m) = 0) by (intros m; induction m; auto). rewrite Z. lia.
Qed.
(** A node that stops has found itself forked from half of the full nodes or more. *)
Theorem C66_stops hs es s e s' a : run (start hs) es = Some s -> step s e = Some s' -> a < total ->
  alive (nodes s a) = true -> alive (nodes s' a) = false -> full_nodes <= 2 * forked_full s' a.
Proof.
  intros _ E L A D. destruct (step_alive _ _ _ a E) as [(X & _)|X]; rewrite A in X; cbn [andb] in X; [congruence|]. rewrite D in X. symmetry in X. apply negb_false_iff in X. apply (dies_when s' a L). exact X.
Qed.

Lemma filter_or {A} (f g : A -> bool) l : length (filter (fun x => f x || g x) l) <= length (filter f l) + length (filter g l).
Proof. induction l as [|x l IH]; [reflexivity|]. cbn [filter]. destruct (f x), (g x); cbn [orb length]; lia. Qed.
Lemma filter_missed {A} (f g : A -> bool) l : length (filter g l) < length (filter f l) -> exists x, In x l /\ f x = true /\ g x = false.
Proof.
  induction l as [|x l IH]; [cbn; lia|]. cbn [filter]. intros H. destruct (f x && negb (g x)) eqn:B.
  - apply andb_prop in B as [F G]. apply negb_true_iff in G. exists x. split; [left; reflexivity|]. split; assumption.
  - destruct IH as (y & I & Y); [|exists y; split; [right; exact I|exact Y]]. destruct (f x), (g x); cbn [length andb negb] in *; try discriminate; lia.
Qed.
(** Of two living nodes, there is always a full node from which neither has found itself forked. *)
Theorem C66_majority hs es s a b : run (start hs) es = Some s -> a < total -> b < total -> full_nodes > 0 ->
  alive (nodes s a) = true -> alive (nodes s b) = true ->
  exists c, c < total /\ full c = true /\ (c = a \/ forked (links s a c) = false) /\ (c = b \/ forked (links s b c) = false).
Proof.
  intros R LA LB Q A B. pose proof (C66_alive _ _ _ _ R LA Q A) as FA. pose proof (C66_alive _ _ _ _ R LB Q B) as FB.
  destruct (filter_missed full (fun c => (full c && negb (c =? a) && forked (links s a c)) || (full c && negb (c =? b) && forked (links s b c))) (seq 0 total)) as (c & I & F & G).
  - eapply Nat.le_lt_trans; [apply filter_or|]. fold (forked_full s a) (forked_full s b) full_nodes. lia.
  - exists c. apply in_seq in I. split; [lia|]. split; [exact F|]. rewrite F in G. cbn [andb] in G. apply orb_false_iff in G as [G1 G2].
    split; [destruct (Nat.eqb_spec c a); [left; assumption|right; exact G1]|destruct (Nat.eqb_spec c b); [left; assumption|right; exact G2]].
Qed.
End Proofs.
Print Assumptions C66_sound.
Print Assumptions C66_found.
Print Assumptions C66_alive.
Print Assumptions C66_stops.
Print Assumptions C66_majority.

(** ** The peer to synchronize from *)
Definition usable (mine : N) (p : peer) : Prop := loggedIn p = true /\ (mine < commitCount p)%N /\ forked_peer p = false.
Definition not_better_peer (q p : peer) : Prop := not_better (latency q) (commitCount q) (latency p) (commitCount p).
Definition chosen (mine : N) (peers : list peer) (b : best) : Prop :=
  match newSyncPeer b with
  | Some p => In p peers /\ usable mine p /\ leaderish p = false /\ (forall q, In q peers -> usable mine q -> leaderish q = false -> not_better_peer q p)
  | None => forall q, In q peers -> usable mine q -> leaderish q = true
  end /\
  match potentialLeadPeer b with
  | Some p => In p peers /\ usable mine p /\ leaderish p = true
  | None => forall q, In q peers -> usable mine q -> leaderish q = false
  end.
Lemma chosen_more mine peers b p : chosen mine peers b -> chosen mine (peers ++ [p]) (consider mine b p).
Proof.
  intros (A & B). unfold consider, chosen. destruct (negb (loggedIn p) || (commitCount p <=? mine)%N || forked_peer p) eqn:U.
  - assert (NU : ~ usable mine p).
    { intros (L & C & F). rewrite L, F in U. apply N.leb_gt in C. rewrite C in U. discriminate. }
    replace (if negb (loggedIn p) || (commitCount p <=? mine)%N then b else if forked_peer p then b else _) with b
      by (destruct (negb (loggedIn p) || (commitCount p <=? mine)%N); [reflexivity|]; cbn [orb] in U; rewrite U; reflexivity).
    split.
    + destruct (newSyncPeer b) as [o|].
      * destruct A as (I & OU & L & BST). split; [apply in_app_iff; left; exact I|]. split; [exact OU|]. split; [exact L|]. intros q IQ UQ LQ. apply in_app_iff in IQ as [IQ|[<-|[]]]; [apply BST; assumption|contradiction].
      * intros q IQ UQ. apply in_app_iff in IQ as [IQ|[<-|[]]]; [apply A; assumption|contradiction].
    + destruct (potentialLeadPeer b) as [o|].
      * destruct B as (I & OU & L). split; [apply in_app_iff; left; exact I|]. split; assumption.
      * intros q IQ UQ. apply in_app_iff in IQ as [IQ|[<-|[]]]; [apply B; assumption|contradiction].
  - apply orb_false_iff in U as [U F]. rewrite U, F. apply orb_false_iff in U as [LG C]. apply negb_false_iff in LG. apply N.leb_gt in C.
    assert (UP : usable mine p) by (repeat split; assumption). assert (IP : In p (peers ++ [p])) by (apply in_app_iff; right; left; reflexivity).
    destruct (leaderish p) eqn:LP; cbn [newSyncPeer potentialLeadPeer].
    + split; [|repeat split; assumption]. destruct (newSyncPeer b) as [o|].
      * destruct A as (I & OU & L & BST). split; [apply in_app_iff; left; exact I|]. split; [exact OU|]. split; [exact L|]. intros q IQ UQ LQ. apply in_app_iff in IQ as [IQ|[<-|[]]]; [apply BST; assumption|congruence].
      * intros q IQ UQ. apply in_app_iff in IQ as [IQ|[<-|[]]]; [apply A; assumption|assumption].
    + assert (LEAD : match potentialLeadPeer b with Some p0 => In p0 (peers ++ [p]) /\ usable mine p0 /\ leaderish p0 = true | None => forall q, In q (peers ++ [p]) -> usable mine q -> leaderish q = false end).
      { destruct (potentialLeadPeer b) as [o|].
        - destruct B as (I & OU & L). split; [apply in_app_iff; left; exact I|]. split; assumption.
        - intros q IQ UQ. apply in_app_iff in IQ as [IQ|[<-|[]]]; [apply B; assumption|assumption]. }
      destruct (newSyncPeer b) as [o|] eqn:NB.
      * destruct A as (I & OU & L & BST).
        assert (NEW : (forall q, not_better_peer q o -> not_better_peer q p) -> In p (peers ++ [p]) /\ usable mine p /\ leaderish p = false /\ (forall q, In q (peers ++ [p]) -> usable mine q -> leaderish q = false -> not_better_peer q p)).
        { intros BT. split; [exact IP|]. split; [exact UP|]. split; [exact LP|]. intros q IQ UQ LQ. apply in_app_iff in IQ as [IQ|[<-|[]]]; [apply BT, BST; assumption|]. unfold not_better_peer, not_better, sooner. lia. }
        assert (OLD : not_better_peer p o -> In o (peers ++ [p]) /\ usable mine o /\ leaderish o = false /\ (forall q, In q (peers ++ [p]) -> usable mine q -> leaderish q = false -> not_better_peer q o)).
        { intros BT. split; [apply in_app_iff; left; exact I|]. split; [exact OU|]. split; [exact L|]. intros q IQ UQ LQ. apply in_app_iff in IQ as [IQ|[<-|[]]]; [apply BST; assumption|exact BT]. }
        unfold not_better_peer, not_better, sooner in NEW, OLD |- *.
        destruct (N.eqb_spec (latency o) (latency p)) as [E|E].
        { destruct (N.ltb_spec (commitCount o) (commitCount p)); cbn [newSyncPeer potentialLeadPeer]; rewrite ?NB; split; try exact LEAD; [apply NEW; intros q; lia|apply OLD; lia]. }
        destruct (N.eqb_spec (latency o) 0) as [E0|E0]; [cbn [newSyncPeer potentialLeadPeer]; split; [apply NEW; intros q; lia|exact LEAD]|].
        destruct (N.eqb_spec (latency p) 0) as [P0|P0]; cbn [negb andb]; [rewrite NB; split; [apply OLD; lia|exact LEAD]|].
        destruct (N.ltb_spec (latency p) (latency o)); cbn [newSyncPeer potentialLeadPeer]; rewrite ?NB; split; try exact LEAD; [apply NEW; intros q; lia|apply OLD; lia].
      * cbn [newSyncPeer potentialLeadPeer]. split; [|exact LEAD]. split; [exact IP|]. split; [exact UP|]. split; [exact LP|]. intros q IQ UQ LQ.
        apply in_app_iff in IQ as [IQ|[<-|[]]]; [rewrite (A q IQ UQ) in LQ; discriminate|]. unfold not_better_peer, not_better, sooner. lia.
Qed.
(** A node synchronizes from a peer that is logged in, has more commits and is not known to be forked; not from the leader
    if there is any other such peer; and among the others from one with the lowest latency (the most commits, if
    latencies are the same).  It finds none only if there is none. *)
Theorem C66_sync_peer mine peers :
  match updateSyncPeer mine peers with
  | Some p => In p peers /\ usable mine p /\ (forall q, In q peers -> usable mine q -> leaderish q = false -> leaderish p = false /\ not_better_peer q p)
  | None => forall q, In q peers -> ~ usable mine q
  end.
Proof.
  assert (C : chosen mine peers (fold_left (consider mine) peers (Best None None))).
  { induction peers as [|p peers IH] using rev_ind; [split; intros q []|]. rewrite fold_left_app. cbn [fold_left]. apply chosen_more. exact IH. }
  unfold updateSyncPeer. destruct C as (A & B). destruct (newSyncPeer _) as [p|].
  - destruct A as (I & U & L & BST). split; [exact I|]. split; [exact U|]. intros q IQ UQ LQ. split; [exact L|apply BST; assumption].
  - destruct (potentialLeadPeer _) as [p|].
    + destruct B as (I & U & L). split; [exact I|]. split; [exact U|]. intros q IQ UQ LQ. rewrite (A q IQ UQ) in LQ. discriminate.
    + intros q IQ UQ. specialize (A q IQ UQ). rewrite (B q IQ UQ) in A. discriminate.
Qed.
Print Assumptions C66_sync_peer.

(** ** Cases *)
Example ex_sync_peer :
  updateSyncPeer 5 [Peer true 9 false true 1; Peer true 7 false false 0; Peer true 8 true false 2; Peer true 6 false false 30; Peer true 9 false false 40; Peer false 9 false false 1] =
  Some (Peer true 6 false false 30).
Proof. reflexivity. Qed.

(** Two nodes connect, exchange their LOGINs and take all messages. *)
Definition meet (a b : nat) : list event := [Connect a b; ReadCount a b; ReadHash a b; ReadCount b a; ReadHash b a; Receive a b; Receive b a].
Definition every (_ : nat) : bool := true.
Definition toy_run (total : nat) (hs : nat -> list bytes) (es : list event) : option state := Fork_Model.run toy_sha total every (start (fun a => toy_hist (hs a))) es.
Definition seen (s : state) (n : nat) : list bool * list (nat * nat) :=
  (map (fun a => alive (nodes s a)) (seq 0 n), filter (fun ab => forked (links s (fst ab) (snd ab))) (list_prod (seq 0 n) (seq 0 n))).
Fixpoint orderlyb (total : nat) (s : state) (es : list event) : bool :=
  match es with
  | [] => true
  | e :: es' =>
      match e with
      | Prune _ _ => false
      | ReadHash a b => match composed (links s a b) with Half c => match ph (nodes s a) with Settled => c =? length (hist (nodes s a)) | _ => false end | _ => true end
      | _ => true
      end && match Fork_Model.step toy_sha total every s e with Some s' => orderlyb total s' es' | None => true end
  end.
Lemma orderlyb_run total es : forall s, orderlyb total s es = true -> orderly_run toy_sha total every s es.
Proof.
  induction es as [|e es IH]; intros s H; cbn [orderlyb orderly_run] in *; [exact I|]. apply andb_prop in H as [A B]. split.
  - destruct e; cbn [orderly]; try exact I; try discriminate. destruct (composed _); try exact I. destruct (ph _); try discriminate. apply Nat.eqb_eq in A. split; [reflexivity|exact A].
  - destruct (Fork_Model.step toy_sha total every s e); [apply IH; exact B|exact I].
Qed.

(** Three nodes; the history of the last one has diverged from the two others: it stops, the others go on. *)
Definition ex_hs (a : nat) : list bytes := nth a [[lit "a"; lit "b"]; [lit "a"; lit "b"; lit "c"]; [lit "a"; lit "x"; lit "y"]] [].
Definition ex_meeting : list event := meet 0 1 ++ meet 0 2 ++ [Receive 2 0].
Example ex_found :
  orderlyb 3 (start (fun a => toy_hist (ex_hs a))) (ex_meeting ++ meet 1 2) = true /\
  option_map (fun s => seen s 3) (toy_run 3 ex_hs ex_meeting) = Some ([true; true; true], [(0, 2); (2, 0)]) /\
  option_map (fun s => (composed (links s 0 2), composed (links s 2 0), queue (links s 0 2), queue (links s 2 0))) (toy_run 3 ex_hs ex_meeting) = Some (Sent, Sent, [], []) /\
  option_map (fun s => seen s 3) (toy_run 3 ex_hs (ex_meeting ++ meet 1 2)) = Some ([true; true; false], [(0, 2); (1, 2); (2, 0); (2, 1)]).
Proof. vm_compute. repeat split. Qed.
Example ex_met :
  (forall i, valid toy_sha (toy_hist (ex_hs i))) /\ (forall x, length (toy_sha x) = 1) /\ full_nodes 3 every > 0 /\
  ~ compatible (toy_hist (ex_hs 0)) (toy_hist (ex_hs 2)) /\ ~ collision toy_sha (toy_hist (ex_hs 0)) (toy_hist (ex_hs 2)).
Proof.
  split; [intros i; apply toy_valid|]. split; [exact toy_len|]. split; [vm_compute; lia|]. split.
  - intros [[t E]|[t E]]; vm_compute in E; discriminate.
  - intros (x & y & A & B & N & E). apply digested_texts in A, B.
    assert (F : forallb (fun x => forallb (fun y => bytes_eqb x y || negb (bytes_eqb (toy_sha x) (toy_sha y))) (texts [] (toy_hist (ex_hs 2)))) (texts [] (toy_hist (ex_hs 0))) = true) by (vm_compute; reflexivity).
    rewrite forallb_forall in F. specialize (F x A). cbv beta in F. rewrite forallb_forall in F. specialize (F y B). cbv beta in F.
    rewrite E, bytes_eqb_refl in F. cbn [negb] in F. rewrite orb_false_r in F. apply bytes_eqb_eq in F. contradiction.
Qed.

(** ** What does not hold *)
(** A node can call a peer forked whose history is its own and one commit more.  The count and the hash in a LOGIN are read
    one after the other (SQLiteNode.cpp 1503-1513) while another thread commits: the LOGIN has the count of one commit and
    the hash of the next one.  In a cluster of two this ends the process of a healthy node. *)
Theorem C66_torn_refuted : exists s,
  toy_run 2 (fun _ => [lit "a"]) [Connect 0 1; ReadCount 1 0; ReadHash 1 0; ReadCount 0 1; Write 0 (lit "b"); Count 0; Store 0; ReadHash 0 1; Receive 0 1] = Some s /\
  compatible (hist (nodes s 0)) (hist (nodes s 1)) /\ forked (links s 1 0) = true /\ alive (nodes s 1) = false.
Proof. eexists. split; [vm_compute; reflexivity|]. split; [right; eexists [_]; vm_compute; reflexivity|]. vm_compute. split; reflexivity. Qed.
Print Assumptions C66_torn_refuted.

(** A node that has been away for long is called forked although its history is the beginning of its peer's: the commit it
    names is no longer in the peer's journal, the lookup gives an empty hash (SQLiteNode.cpp 1058-1060), and this is
    compared like any other one. *)
Theorem C66_behind_refuted : exists s,
  toy_run 3 (fun a => if a =? 0 then [lit "a"] else [lit "a"; lit "b"; lit "c"]) (Prune 1 2 :: meet 0 1) = Some s /\
  is_prefix (hist (nodes s 0)) (hist (nodes s 1)) /\ forked (links s 1 0) = true.
Proof. eexists. split; [vm_compute; reflexivity|]. split; [eexists [_; _]; vm_compute; reflexivity|]. vm_compute. reflexivity. Qed.
Print Assumptions C66_behind_refuted.

(** The check says that a node has forked from over half of the cluster, but exactly half is enough (SQLiteNode.cpp 2483):
    when the histories of a cluster of two diverge, both nodes stop. *)
Theorem C66_half_refuted : exists s,
  toy_run 2 (fun a => if a =? 0 then [lit "a"] else [lit "b"]) (meet 0 1) = Some s /\
  alive (nodes s 0) = false /\ alive (nodes s 1) = false /\ 2 * forked_full 2 every s 0 = full_nodes 2 every.
Proof. eexists. split; [vm_compute; reflexivity|]. vm_compute. repeat split; reflexivity. Qed.
Print Assumptions C66_half_refuted.

(** Nodes with diverged histories can go on side by side, all messages delivered: each of them is with a third node that
    has less than both.  What the third node does next decides which of them stops. *)
Theorem C66_side_by_side_refuted : exists s,
  toy_run 3 (fun a => nth a [[lit "a"; lit "b"]; [lit "a"; lit "x"]; [lit "a"]] []) (meet 0 1 ++ meet 0 2 ++ meet 1 2) = Some s /\
  seen s 3 = ([true; true; true], [(0, 1); (1, 0)]) /\ ~ compatible (hist (nodes s 0)) (hist (nodes s 1)) /\
  forallb (fun ab => match queue (links s (fst ab) (snd ab)) with [] => true | [Forked] => forked (links s (snd ab) (fst ab)) | _ => false end) (list_prod (seq 0 3) (seq 0 3)) = true.
Proof. eexists. split; [vm_compute; reflexivity|]. split; [vm_compute; reflexivity|]. split; [intros [[t E]|[t E]]; vm_compute in E; discriminate|vm_compute; reflexivity]. Qed.
Print Assumptions C66_side_by_side_refuted.
