(** C85: a write that is not replicated is done whole or not at all. *)
From Verif Require Import Base Local_Spec Local_Model.

Lemma clashes_spec a b : clashes a b = true <-> clash a b.
Proof.
  unfold clashes, clash. rewrite existsb_exists. split.
  - intros (x & I & X). apply existsb_exists in X as (y & J & Y). apply Nat.eqb_eq in Y. exists x, y. repeat split; assumption.
  - intros (x & y & I & J & E). exists x. split; [exact I|]. apply existsb_exists. exists y. split; [exact J|]. apply Nat.eqb_eq, E.
Qed.

(** What others have committed while [k] statements ran. *)
Definition committed_by_others (h : happens) : list change := concat (map fst h).
(** [came h h' o]: between [h] and [h'] the others committed [o] and nothing else. *)
Definition came (h h' : happens) (o : list change) : Prop := exists p, (h = p ++ h' /\ o = committed_by_others p).
Lemma came_tl h : came h (tl h) (others_next h).
Proof.
  destruct h as [|[o f] h]; [exists []; split; reflexivity|]. exists [(o, f)]. split; [reflexivity|]. unfold committed_by_others. cbn [map fst concat]. rewrite app_nil_r. reflexivity.
Qed.
Lemma came_refl h : came h h [].
Proof. exists []. split; reflexivity. Qed.
Lemma came_trans h h1 h2 o o1 : came h h1 o -> came h1 h2 o1 -> came h h2 (o ++ o1).
Proof.
  intros (p & -> & ->) (p1 & -> & ->). exists (p ++ p1). rewrite <- app_assoc. split; [reflexivity|]. unfold committed_by_others. rewrite map_app, concat_app. reflexivity.
Qed.

Definition busy_in (h : happens) : Prop := exists o, In (o, Busy) h.
Lemma fault_busy h h' : fault_next h = Busy -> busy_in (h ++ h').
Proof. destruct h as [|[o f] h]; [discriminate|]. cbn [fault_next]. intros ->. exists o. left. reflexivity. Qed.
Lemma came_busy h h' o : came h h' o -> busy_in h' -> busy_in h.
Proof. intros (p & -> & _) (x & I). exists x. apply in_or_app. right. exact I. Qed.

(** The writes of a query inside a transaction that is open. *)
Lemma walk_writes cs : forall d n pend h, let '(c, e, h') := walk (map Write cs) (Engine d (Some (n, pend))) h in
  exists o, came h h' o /\ disk e = d ++ o /\
    (c = OK -> opened e = Some (n, pend ++ cs)) /\
    (c = BUSY -> busy_in h /\ exists k, k < length cs /\ opened e = Some (n, pend ++ firstn k cs)).
Proof.
  induction cs as [|c cs IH]; intros d n pend h; cbn [map walk].
  - exists []. split; [apply came_refl|]. cbn [disk opened]. rewrite !app_nil_r. repeat split; discriminate.
  - cbn [disk opened exec]. destruct (fault_next h) eqn:FN.
    + specialize (IH (d ++ others_next h) n (pend ++ [c]) (tl h)). destruct (walk (map Write cs) (Engine (d ++ others_next h) (Some (n, pend ++ [c]))) (tl h)) as [[r e] h'].
      destruct IH as (o & A & B & C & D). exists (others_next h ++ o). split; [exact (came_trans _ _ _ _ _ (came_tl h) A)|]. rewrite app_assoc. split; [exact B|]. split.
      * intros X. rewrite (C X), <- app_assoc. reflexivity.
      * intros X. destruct (D X) as (E & k & K & F). split; [exact (came_busy _ _ _ (came_tl h) E)|]. exists (S k). split; [cbn [length]; lia|]. rewrite F, <- app_assoc. reflexivity.
    + exists (others_next h). split; [apply came_tl|]. cbn [disk opened]. split; [reflexivity|]. split; [discriminate|]. intros _.
      split; [rewrite <- (app_nil_r h); apply fault_busy, FN|]. exists 0. split; [cbn [length]; lia|]. rewrite firstn_O, app_nil_r. reflexivity.
    + exists (others_next h). split; [apply came_tl|]. cbn [disk opened]. split; [reflexivity|]. split; discriminate.
    + exists (others_next h). split; [apply came_tl|]. cbn [disk opened]. split; [reflexivity|]. split; discriminate.
Qed.
Lemma tries_writes cs m : forall d n pend h, let '(ok, e, h') := tries m (map Write cs) (Engine d (Some (n, pend))) h in
  exists o, came h h' o /\ disk e = d ++ o /\
    (ok = true -> exists again l, again <= m /\ begun_before cs again l /\ (again <> 0 -> busy_in h) /\ opened e = Some (n, pend ++ l ++ cs)).
Proof.
  induction m as [|m IH]; intros d n pend h; cbn [tries]; pose proof (walk_writes cs d n pend h) as W;
    destruct (walk (map Write cs) (Engine d (Some (n, pend))) h) as [[c e] h']; destruct W as (o & A & B & C & D).
  - destruct c; exists o; (split; [exact A|]; split; [exact B|]); try discriminate. intros _. exists 0, []. split; [lia|]. split; [constructor|]. split; [congruence|]. exact (C eq_refl).
  - destruct c.
    + exists o. split; [exact A|]. split; [exact B|]. intros _. exists 0, []. split; [lia|]. split; [constructor|]. split; [congruence|]. exact (C eq_refl).
    + destruct (D eq_refl) as (BU & k & K & O). destruct e as [d' op]. cbn [disk opened] in *. subst d' op.
      specialize (IH (d ++ o) n (pend ++ firstn k cs) h'). destruct (tries m (map Write cs) (Engine (d ++ o) (Some (n, pend ++ firstn k cs))) h') as [[ok e2] h2].
      destruct IH as (o2 & A2 & B2 & C2). exists (o ++ o2). split; [exact (came_trans _ _ _ _ _ A A2)|]. split; [rewrite B2, app_assoc; reflexivity|].
      intros X. destruct (C2 X) as (again & l & L1 & L2 & L3 & L4). exists (S again), (firstn k cs ++ l). split; [lia|]. split; [constructor; assumption|]. split; [intros _; exact BU|].
      rewrite L4, <- !app_assoc. reflexivity.
    + exists o. split; [exact A|]. split; [exact B|]. discriminate.
Qed.
Lemma tries_begin m : forall d h, let '(ok, e, h') := tries m [Begin] (Engine d None) h in
  exists o, came h h' o /\ e = Engine (d ++ o) (if ok then Some (length (d ++ o), []) else None) /\ (fault_next h = Fine -> ok = true /\ o = others_next h).
Proof.
  induction m as [|m IH]; intros d h; cbn [tries walk exec disk opened]; destruct (fault_next h) eqn:FN;
    try (exists (others_next h); split; [apply came_tl|split; [reflexivity|try discriminate; intros _; split; reflexivity]]; fail).
  specialize (IH (d ++ others_next h) (tl h)). destruct (tries m [Begin] (Engine (d ++ others_next h) None) (tl h)) as [[ok e] h'].
  destruct IH as (o & A & B & _). exists (others_next h ++ o). split; [exact (came_trans _ _ _ _ _ (came_tl h) A)|]. split; [rewrite app_assoc; exact B|discriminate].
Qed.
Lemma tries_commit m : forall d n pend h, let '(ok, e, h') := tries m [Commit] (Engine d (Some (n, pend))) h in
  exists o, came h h' o /\ if ok then e = Engine (d ++ o ++ pend) None /\ clashes pend (skipn n (d ++ o)) = false else disk e = d ++ o.
Proof.
  induction m as [|m IH]; intros d n pend h; cbn [tries walk exec disk opened]; destruct (fault_next h) eqn:FN;
    try (exists (others_next h); split; [apply came_tl|reflexivity]; fail);
    try (destruct (clashes pend (skipn n (d ++ others_next h))) eqn:K; exists (others_next h); (split; [apply came_tl|]); [reflexivity|split; [rewrite app_assoc; reflexivity|exact K]]; fail).
  specialize (IH (d ++ others_next h) n pend (tl h)). destruct (tries m [Commit] (Engine (d ++ others_next h) (Some (n, pend))) (tl h)) as [[ok e] h'].
  destruct IH as (o & A & B). exists (others_next h ++ o). split; [exact (came_trans _ _ _ _ _ (came_tl h) A)|]. destruct ok.
  - destruct B as (-> & B). split; [rewrite <- !app_assoc; reflexivity|]. rewrite app_assoc. exact B.
  - rewrite B, app_assoc. reflexivity.
Qed.
Lemma rollback_any e h : let '(_, e', h') := SQuery [Rollback] e h in came h h' (others_next h) /\ disk e' = disk e ++ others_next h /\ opened e' = None.
Proof.
  unfold SQuery. cbn [tries walk exec disk opened]. destruct (opened e) as [[n l]|] eqn:O; cbn [disk opened]; (split; [apply came_tl|split; [reflexivity|reflexivity || exact O]]).
Qed.
Lemma begun_pages cs m l : begun_before cs m l -> forall x, In x l -> In x cs.
Proof.
  induction 1 as [|m k l K H IH]; intros x I; [destruct I|]. apply in_app_or in I as [I|I]; [|apply IH, I]. rewrite <- (firstn_skipn k cs). apply in_or_app. left. exact I.
Qed.

(** Whatever fails, and whatever others commit meanwhile: if the write succeeds all its changes are in the database, in one
    piece, and nothing that others committed since it began changes a page it changes; if it fails none of its changes is in
    the database. Nothing else changes, no journal row either, what others commit stays, and no transaction is left open.
    Only if the database was busy, at most twice, can there be more: the first changes of the write, made before all of them. *)
Theorem C85_whole q cs d h : writes q cs -> let '(ok, e, h') := writeLocalUnreplicated false q (Engine d None) h in
  opened e = None /\
  if ok then exists before since again extra,
    came h h' (before ++ since) /\ disk e = d ++ before ++ since ++ extra ++ cs /\ (fault_next h = Fine -> before = others_next h) /\ ~ clash cs since /\
    again <= 2 /\ begun_before cs again extra /\ (again <> 0 -> busy_in h)
  else exists o, came h h' o /\ disk e = d ++ o.
Proof.
  intros ->. unfold writeLocalUnreplicated. pose proof (tries_begin 2 d h) as HB. fold SQuery in HB. destruct (SQuery [Begin] (Engine d None) h) as [[ok e] h0].
  destruct HB as (o0 & A0 & -> & F0). destruct ok; [|cbn [opened disk]; split; [reflexivity|exists o0; split; [exact A0|reflexivity]]].
  pose proof (tries_writes cs 2 (d ++ o0) (length (d ++ o0)) [] h0) as HW. fold SQuery in HW.
  destruct (SQuery (map Write cs) (Engine (d ++ o0) (Some (length (d ++ o0), []))) h0) as [[ok e] h1]. destruct HW as (o1 & A1 & B1 & C1).
  pose proof (came_trans _ _ _ _ _ A0 A1) as A01. destruct ok.
  - destruct (C1 eq_refl) as (again & l & L1 & L2 & L3 & L4). destruct e as [d1 op]. cbn [disk opened app] in *. subst d1 op.
    pose proof (tries_commit 2 ((d ++ o0) ++ o1) (length (d ++ o0)) (l ++ cs) h1) as HC. fold SQuery in HC.
    destruct (SQuery [Commit] (Engine ((d ++ o0) ++ o1) (Some (length (d ++ o0), l ++ cs))) h1) as [[ok e] h2]. destruct HC as (o2 & A2 & B2). destruct ok.
    + destruct B2 as (-> & K). cbn [opened disk]. split; [reflexivity|]. exists o0, (o1 ++ o2), again, l.
      split; [rewrite app_assoc; exact (came_trans _ _ _ _ _ A01 A2)|]. split; [rewrite <- !app_assoc; reflexivity|]. split; [intros X; apply F0, X|]. split.
      * intros (x & y & I & J & P). rewrite <- (app_assoc (d ++ o0)), skipn_app, skipn_all, Nat.sub_diag in K. cbn [app skipn] in K.
        assert (Y : clashes (l ++ cs) (o1 ++ o2) = true) by (apply clashes_spec; exists x, y; split; [apply in_or_app; right; exact I|split; [exact J|exact P]]). congruence.
      * split; [exact L1|]. split; [exact L2|]. intros X. exact (came_busy _ _ _ A0 (L3 X)).
    + pose proof (rollback_any e h2) as R. destruct (SQuery [Rollback] e h2) as [[z e3] h3]. destruct R as (R1 & R2 & R3). split; [exact R3|].
      exists (((o0 ++ o1) ++ o2) ++ others_next h2). split; [exact (came_trans _ _ _ _ _ (came_trans _ _ _ _ _ A01 A2) R1)|]. rewrite R2, B2, <- !app_assoc. reflexivity.
  - pose proof (rollback_any e h1) as R. destruct (SQuery [Rollback] e h1) as [[z e3] h3]. destruct R as (R1 & R2 & R3). split; [exact R3|].
    exists ((o0 ++ o1) ++ others_next h1). split; [exact (came_trans _ _ _ _ _ A01 R1)|]. rewrite R2, B1, <- !app_assoc. reflexivity.
Qed.
Print Assumptions C85_whole.

(** A write of one statement is made exactly once if it succeeds, busy or not. *)
Theorem C85_once c d h : let '(ok, e, h') := writeLocalUnreplicated false [Write c] (Engine d None) h in
  opened e = None /\ exists o, came h h' o /\ disk e = d ++ o ++ (if ok then [c] else []).
Proof.
  pose proof (C85_whole [Write c] [c] d h eq_refl) as H. destruct (writeLocalUnreplicated false [Write c] (Engine d None) h) as [[ok e] h'].
  destruct H as (A & H). split; [exact A|]. destruct ok.
  - destruct H as (b & s & again & extra & C & D & _ & _ & _ & E & _). exists (b ++ s). split; [exact C|]. rewrite D.
    assert (X : extra = []) by (clear -E; induction E as [|m k l K E IH]; [reflexivity|]; cbn [length] in K; replace k with 0 by lia; rewrite firstn_O; exact IH). rewrite X, <- !app_assoc. reflexivity.
  - destruct H as (o & C & D). exists o. split; [exact C|]. rewrite app_nil_r. exact D.
Qed.
Print Assumptions C85_once.

(** A handle that is inside a transaction, by its own note or by that of SQLite, refuses, and its transaction and the database
    are as they were. *)
Theorem C85_refused q e h : writeLocalUnreplicated true q e h = (false, e, h) /\
  (opened e <> None -> writeLocalUnreplicated false q e h = (false, Engine (disk e ++ others_next h) (opened e), tl h)).
Proof.
  split; [reflexivity|]. intros O. unfold writeLocalUnreplicated, SQuery. cbn [tries walk exec disk opened]. destruct (opened e) as [[n l]|]; [reflexivity|contradiction].
Qed.
Print Assumptions C85_refused.

(** The write succeeds if nothing fails and nobody commits a change of a page it changes meanwhile. *)
Theorem C85_succeeds q cs d h : writes q cs -> (forall o f, In (o, f) h -> f = Fine) -> (forall x y, In x (committed_by_others h) -> In y cs -> page x <> page y) ->
  fst (fst (writeLocalUnreplicated false q (Engine d None) h)) = true.
Proof.
  intros -> F N.
  assert (FN : forall p k, h = p ++ k -> fault_next k = Fine).
  { intros p [|[o f] k] ->; [reflexivity|]. cbn [fault_next]. apply (F o). apply in_or_app. right. left. reflexivity. }
  assert (SQ : forall l p k e n pend, h = p ++ k -> opened e = Some (n, pend) ->
    exists p' k' e', h = p' ++ k' /\ walk (map Write l) e k = (OK, e', k') /\ opened e' = Some (n, pend ++ l) /\ exists o, came k k' o /\ disk e' = disk e ++ o).
  { induction l as [|c l IH]; intros p k e n pend H O.
    - exists p, k, e. split; [exact H|]. split; [reflexivity|]. rewrite app_nil_r. split; [exact O|]. exists []. split; [apply came_refl|rewrite app_nil_r; reflexivity].
    - cbn [map walk exec opened disk]. rewrite O, (FN p k H).
      assert (H' : exists p1, h = p1 ++ tl k) by (destruct k as [|x k]; [exists p; exact H|exists (p ++ [x]); rewrite <- app_assoc; exact H]).
      destruct H' as (p1 & H'). destruct (IH p1 (tl k) (Engine (disk e ++ others_next k) (Some (n, pend ++ [c]))) n (pend ++ [c]) H' eq_refl) as (p' & k' & e' & A & B & C & o & D & E).
      exists p', k', e'. split; [exact A|]. split; [exact B|]. split; [rewrite C, <- app_assoc; reflexivity|]. exists (others_next k ++ o). split; [exact (came_trans _ _ _ _ _ (came_tl k) D)|].
      rewrite E. cbn [disk]. rewrite app_assoc. reflexivity. }
  unfold writeLocalUnreplicated, SQuery. cbn [tries walk exec disk opened]. rewrite (FN [] h eq_refl).
  assert (H1 : exists p1, h = p1 ++ tl h) by (destruct h as [|x k]; [exists []; reflexivity|exists [x]; reflexivity]). destruct H1 as (p1 & H1).
  destruct (SQ cs p1 (tl h) (Engine (d ++ others_next h) (Some (length (d ++ others_next h), []))) _ [] H1 eq_refl) as (p' & k' & e' & A & B & C & o & D & E).
  cbn [disk] in E. rewrite B. cbn [tries walk exec disk opened]. rewrite C, (FN p' k' A), E. cbn [app]. rewrite <- (app_assoc (d ++ others_next h)), skipn_app, skipn_all, Nat.sub_diag. cbn [app skipn].
  destruct (clashes cs (o ++ others_next k')) eqn:K; [|reflexivity]. exfalso. apply clashes_spec in K as (x & y & I & J & P).
  assert (M : In y (committed_by_others h)).
  { destruct (came_trans _ _ _ _ _ D (came_tl k')) as (r & R1 & R2). rewrite R2 in J. rewrite H1, R1. unfold committed_by_others in *. rewrite !map_app, !concat_app. apply in_or_app. right. apply in_or_app. left. exact J. }
  apply (N y x M I). symmetry. exact P.
Qed.
Print Assumptions C85_succeeds.

Example C85_ex : let w := map Write [Change 1 10; Change 2 20] in
  fst (writeLocalUnreplicated false w (Engine [Change 1 0] None) [([], Fine); ([Change 3 5], Fine); ([], Fine)]) = (true, Engine [Change 1 0; Change 3 5; Change 1 10; Change 2 20] None) /\
  fst (writeLocalUnreplicated false w (Engine [Change 1 0] None) [([], Fine); ([Change 2 5], Fine)]) = (false, Engine [Change 1 0; Change 2 5] None) /\
  fst (writeLocalUnreplicated false w (Engine [Change 1 0] None) [([Change 2 5], Fine)]) = (true, Engine [Change 1 0; Change 2 5; Change 1 10; Change 2 20] None) /\
  fst (writeLocalUnreplicated false w (Engine [Change 1 0] None) [([], Fine); ([], Fine); ([], FailsAndRollsBack)]) = (false, Engine [Change 1 0] None).
Proof. vm_compute. repeat split. Qed.
Example C85_ex_writes : writes (map Write [Change 1 10; Change 2 20]) [Change 1 10; Change 2 20].
Proof. reflexivity. Qed.
Example C85_ex_refused : opened (Engine [Change 1 0] (Some (1, [Change 4 4]))) <> None.
Proof. discriminate. Qed.
Example C85_ex_succeeds : let h := [([], Fine); ([Change 3 5], Fine)] in (forall o f, In (o, f) h -> f = Fine) /\ (forall x y, In x (committed_by_others h) -> In y [Change 1 10; Change 2 20] -> page x <> page y).
Proof. split; [intros o f [X|[X|[]]]; congruence|]. intros x y [<-|[]] [<-|[<-|[]]]; discriminate. Qed.

(** False: whatever the query, its changes are made whole or not at all. Nobody looks for statements about transactions in the query: after a COMMIT
    in it what came before stays and what comes after is written at once, though the write says that it failed. *)
Theorem C85_commit_inside_refuted : fst (writeLocalUnreplicated false [Write (Change 1 10); Commit; Write (Change 2 20)] (Engine [] None) []) = (false, Engine [Change 1 10; Change 2 20] None).
Proof. vm_compute. reflexivity. Qed.
Print Assumptions C85_commit_inside_refuted.

(** False: a write of several statements that succeeds is made exactly once. If the database is busy at the second statement all of them are done again, from
    the first, in the same transaction: the first is done twice. *)
Theorem C85_busy_refuted : fst (writeLocalUnreplicated false [Write (Change 1 10); Write (Change 2 20)] (Engine [] None) [([], Fine); ([], Fine); ([], Busy)]) =
  (true, Engine [Change 1 10; Change 1 10; Change 2 20] None).
Proof. vm_compute. reflexivity. Qed.
Print Assumptions C85_busy_refuted.

(** False: if the write says that it succeeded its changes are in the database. A query that rolls back and begins anew loses what came before, and the write says
    that it succeeded. *)
Theorem C85_rollback_inside_refuted : fst (writeLocalUnreplicated false [Write (Change 1 10); Rollback; Begin; Write (Change 2 20)] (Engine [] None) []) = (true, Engine [Change 2 20] None).
Proof. vm_compute. reflexivity. Qed.
Print Assumptions C85_rollback_inside_refuted.
