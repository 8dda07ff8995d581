(** C71: the times and counts that are reported are right. *)
From Verif Require Import Base Maps Text_Spec Text_Model Dec Table Schema_Model Addr_Model Addr_Props Stats_Spec Stats_Model.
Open Scope N_scope.

(** ** The times *)
Lemma spent_app p h g : spent p (h ++ g) = spent p h + spent p g.
Proof. induction h as [|[d n] h IH]; cbn [app spent]; [lia|]. rewrite IH. lia. Qed.
Lemma last_app h d n : last_escalation (h ++ [(d, n)]) = if escalates d then Some n else last_escalation h.
Proof.
  induction h as [|[d' n'] h IH]; cbn [app last_escalation]; [destruct (escalates d); reflexivity|]. rewrite IH. destruct (escalates d); reflexivity.
Qed.
Lemma spent_le p q h : (forall d, p d = true -> q d = true) -> spent p h <= spent q h.
Proof.
  intros I. induction h as [|[d n] h IH]; cbn [spent]; [lia|]. destruct (p d) eqn:P; [rewrite (I d P); lia|]. destruct (q d); lia.
Qed.
Definition pred (a : total) : doing -> bool :=
  match a with
  | PrePeekTotal => prepeeks | PeekTotal => peeks | ProcessTotal => processes | PostProcessTotal => postprocesses
  | CommitWorkerTotal => commits | QueueWorkerTotal => queued | QueueBlockingTotal => queued_blocking | QueuePageLockTotal => waits_page
  | BlockingPrePeekTotal => fun d => match d with Prepeeks true => true | _ => false end
  | BlockingPeekTotal => fun d => match d with Peeks true => true | _ => false end
  | BlockingProcessTotal => fun d => match d with Processes true => true | _ => false end
  | BlockingPostProcessTotal => fun d => match d with Postprocesses true => true | _ => false end
  | BlockingCommitWorkerTotal => fun d => match d with Commits true => true | _ => false end
  end.
Lemma wsub_le a b : b <= a -> a < two64 -> wsub a b = a - b.
Proof.
  intros L B. unfold wsub. rewrite (N.mod_small b) by lia. replace (a + two64 - b) with (a - b + 1 * two64) by lia.
  rewrite N.mod_add by discriminate. apply N.mod_small. lia.
Qed.
Lemma wadd_small a b : a + b < two64 -> wadd a b = a + b.
Proof. intros B. unfold wadd. apply N.mod_small. exact B. Qed.
Lemma summed_app a l e : summed a (l ++ [e]) = if adds (fst (fst e)) a then wadd (summed a l) (wsub (snd e) (snd (fst e))) else summed a l.
Proof. unfold summed. rewrite fold_left_app. reflexivity. Qed.
Lemma live_app t0 h p : live t0 (h ++ [p]) = piece (live t0 h) p.
Proof. unfold live. rewrite fold_left_app. reflexivity. Qed.
Lemma live_spec t0 h : t0 + whole h < two64 ->
  snd (live t0 h) = t0 + whole h /\ inProgress (fst (live t0 h)) = (INVALID, 0, 0)
  /\ escalationTimeUS (fst (live t0 h)) = match last_escalation h with Some n => n | None => 0 end
  /\ forall a, summed a (timingInfo (fst (live t0 h))) = spent (pred a) h.
Proof.
  induction h as [|[d n] h IH] using rev_ind; intros B.
  - cbn [live fold_left fst snd whole spent last_escalation fresh inProgress escalationTimeUS timingInfo]. repeat split; try lia. 
  - unfold whole in *. rewrite spent_app in B |- *. cbn [spent] in B |- *. destruct IH as (T & P & E & A); [lia|].
    assert (G : forall a, spent (pred a) h <= spent (fun _ => true) h) by (intros; apply spent_le; reflexivity).
    rewrite live_app, last_app. destruct (live t0 h) as [c t]. cbn [fst snd] in T, P, E, A. subst t. split; [|split; [|split]].
    + cbn [piece snd]. lia.
    + cbn [piece fst snd]. destruct d; assumption || reflexivity.
    + cbn [piece fst snd]. destruct d; cbn [escalates auto stopTiming startTiming escalate escalationTimeUS]; try assumption.
      rewrite wsub_le by lia. lia.
    + intros a. rewrite spent_app. cbn [spent]. specialize (G a). specialize (A a). rewrite <- A in G |- *.
      cbn [piece fst snd]. destruct d; cbn [auto stopTiming startTiming escalate timingInfo inProgress fst snd]; rewrite ?summed_app; cbn [fst snd];
        rewrite ?wsub_le by lia; try (match goal with b : bool |- _ => destruct b end); destruct a; cbn [adds pred prepeeks peeks processes postprocesses commits queued queued_blocking waits_page];
        rewrite ?wadd_small by lia; lia.
Qed.
Lemma parts h : spent prepeeks h + spent peeks h + spent processes h + spent postprocesses h + spent commits h + spent escalates h
  + spent queued h + spent queued_blocking h + spent waits_page h + spent elsewhere h = whole h.
Proof.
  induction h as [|[d n] h IH]; [reflexivity|]. unfold whole in *. destruct d;
    cbn [spent prepeeks peeks processes postprocesses commits queued queued_blocking waits_page escalates elsewhere]; lia.
Qed.
Lemma lock_parts h : spent (pred BlockingPeekTotal) h + spent (pred BlockingProcessTotal) h + spent (pred BlockingCommitWorkerTotal) h = spent holds_lock h.
Proof. induction h as [|[d n] h IH]; [reflexivity|]. destruct d; try (match goal with b : bool |- _ => destruct b end); cbn [spent pred holds_lock] in *; lia. Qed.
Lemma thread_parts h : spent holds_lock h + spent (pred BlockingPrePeekTotal) h + spent (pred BlockingPostProcessTotal) h = spent on_blocking h.
Proof. induction h as [|[d n] h IH]; [reflexivity|]. destruct d; try (match goal with b : bool |- _ => destruct b end); cbn [spent pred holds_lock on_blocking] in *; lia. Qed.
Lemma last_le h : match last_escalation h with Some n => n | None => 0 end <= spent escalates h.
Proof.
  induction h as [|[d n] h IH]; cbn [last_escalation spent]; [lia|]. destruct (last_escalation h); [lia|]. destruct (escalates d); lia.
Qed.
Ltac unwrap := repeat match goal with |- context [wadd ?a ?b] => rewrite (wadd_small a b) by lia end.
Definition final (t0 : N) (h : history) : report := reported t0 (snd (live t0 h)) (fst (live t0 h)).
(** Each time that is reported is the time the command spent so.  What is reported as not accounted for is the time it
    spent otherwise, with the attempts to escalate before the last one. *)
Theorem C71_times t0 h : t0 + whole h < two64 ->
  let r := final t0 h in
  prePeekTime r = spent prepeeks h /\ peekTime r = spent peeks h /\ processTime r = spent processes h /\ postProcessTime r = spent postprocesses h
  /\ commitTime r = spent commits h /\ queueTime r = spent queued h /\ queueBlockingTime r = spent queued_blocking h /\ pageLockTime r = spent waits_page h
  /\ exclusiveTransactionLockTime r = spent holds_lock h /\ blockingCommitThreadTime r = spent on_blocking h
  /\ escalationTime r = match last_escalation h with Some n => n | None => 0 end
  /\ totalTime r = whole h
  /\ unaccountedTime r + escalationTime r = spent elsewhere h + spent escalates h.
Proof.
  intros B. cbv zeta. unfold final. destruct (live_spec t0 h B) as (T & _ & E & A). rewrite T. pose proof (parts h) as Q. pose proof (last_le h) as L.
  pose proof (lock_parts h) as K. pose proof (thread_parts h) as W.
  assert (F : spent on_blocking h <= whole h) by (apply spent_le; reflexivity).
  unfold reported. cbn [prePeekTime peekTime processTime postProcessTime commitTime queueTime queueBlockingTime pageLockTime exclusiveTransactionLockTime blockingCommitThreadTime escalationTime totalTime unaccountedTime].
  rewrite !A, E. set (x := match last_escalation h with Some n => n | None => 0 end) in *. cbn [pred] in *. rewrite (wsub_le (t0 + whole h) t0) by lia.
  do 12 (split; [unwrap; lia|]).
  unwrap. rewrite wsub_le by lia. lia.
Qed.
Lemma one_attempt h : (attempts h <= 1)%nat -> match last_escalation h with Some n => n | None => 0 end = spent escalates h.
Proof.
  induction h as [|[d n] h IH]; cbn [attempts last_escalation spent]; intros A; [reflexivity|].
  destruct (escalates d) eqn:D.
  - assert (Z : attempts h = O) by lia. assert (N0 : last_escalation h = None /\ spent escalates h = 0).
    { clear - Z. induction h as [|[d n] h IH]; cbn [attempts last_escalation spent] in *; [auto|]. destruct (escalates d); [discriminate|]. destruct (IH Z) as [-> ->]. auto. }
    destruct N0 as [-> ->]. lia.
  - rewrite <- IH by exact A. destruct (last_escalation h); lia.
Qed.
(** If at most one attempt was made to escalate it, the parts add up to the total, and what is not accounted for is just
    what was spent otherwise. *)
Theorem C71_adds_up t0 h : t0 + whole h < two64 -> (attempts h <= 1)%nat ->
  let r := final t0 h in
  unaccountedTime r = spent elsewhere h
  /\ totalTime r = prePeekTime r + peekTime r + processTime r + postProcessTime r + commitTime r + escalationTime r
       + queueTime r + queueBlockingTime r + pageLockTime r + unaccountedTime r.
Proof.
  intros B L. cbv zeta. destruct (C71_times t0 h B) as (-> & -> & -> & -> & -> & -> & -> & -> & _ & _ & E & -> & U).
  rewrite (one_attempt h L) in E. pose proof (parts h). lia.
Qed.
(** No time is larger than the total, so that none is a difference that went below zero. *)
Theorem C71_no_wrap t0 h : t0 + whole h < two64 -> unaccountedTime (final t0 h) <= totalTime (final t0 h).
Proof.
  intros B. destruct (C71_times t0 h B) as (_ & _ & _ & _ & _ & _ & _ & _ & _ & _ & E & T & U). pose proof (parts h). rewrite T. lia.
Qed.
Definition ex_history : history := [(Else, 5); (Queued, 100); (Prepeeks false, 7); (WaitsPage, 3); (Peeks false, 20); (Processes false, 30); (Commits false, 2);
  (Queued, 50); (QueuedBlocking, 60); (Peeks true, 11); (Processes true, 12); (Commits true, 13); (Postprocesses true, 14); (Else, 1)].
Example C71_ex_times : let r := final 1700000000000000 ex_history in
  (attempts ex_history <= 1)%nat /\ 1700000000000000 + whole ex_history < two64
  /\ [prePeekTime r; peekTime r; processTime r; postProcessTime r; commitTime r; queueTime r; queueBlockingTime r; pageLockTime r; unaccountedTime r; totalTime r]
     = [7; 31; 42; 14; 15; 150; 60; 3; 6; 328].
Proof. vm_compute. repeat split; auto. Qed.
(** Only the last attempt to have another node do it is reported as such.  The time of an attempt that failed is
    reported as not accounted for. *)
Theorem C71_attempts_refuted : exists t0 h, t0 + whole h < two64
  /\ spent escalates h = 5001000 /\ spent elsewhere h = 0
  /\ escalationTime (final t0 h) = 1000 /\ unaccountedTime (final t0 h) = 5000000.
Proof. exists 1700000000000000, [(Peeks false, 10); (Escalates, 5000000); (Queued, 4); (Peeks false, 10); (Escalates, 1000)]. vm_compute. repeat split; auto. Qed.

(** ** The headers of the reply *)
Definition own_names : list bytes := [lit "peekTime"; lit "postProcessTime"; lit "prePeekTime"; lit "processTime"; lit "totalTime"; lit "unaccountedTime"].
Definition upstream_names : list bytes :=
  [lit "upstreamPeekTime"; lit "upstreamPostProcessTime"; lit "upstreamPrePeekTime"; lit "upstreamProcessTime"; lit "upstreamTotalTime"; lit "upstreamUnaccountedTime"].
Definition value_of (r : report) (n : bytes) : N :=
  if bytes_eqb n (lit "peekTime") then peekTime r else if bytes_eqb n (lit "postProcessTime") then postProcessTime r
  else if bytes_eqb n (lit "prePeekTime") then prePeekTime r else if bytes_eqb n (lit "processTime") then processTime r
  else if bytes_eqb n (lit "totalTime") then totalTime r else unaccountedTime r.
Lemma tfind_promote k n t : kcmp n (upstream n) <> Eq ->
  tfind k (promote t n) = match kcmp k (upstream n) with
    | Eq => match tfind n t with Some v => Some v | None => tfind k t end
    | _ => match kcmp k n with Eq => None | _ => tfind k t end end.
Proof.
  intros D. unfold promote. destruct (tfind n t) as [v|] eqn:F.
  - rewrite tfind_tput, tfind_tdel. reflexivity.
  - destruct (kcmp k (upstream n)) eqn:K; try reflexivity; (destruct (kcmp k n) eqn:K2; [rewrite (tfind_cong k n t K2); exact F|reflexivity|reflexivity]).
Qed.
Lemma tfind_put_own k n v t : tfind k (put_own t (n, v)) = if v =? 0 then tfind k t else match kcmp k n with Eq => Some (dec v) | _ => tfind k t end.
Proof. unfold put_own. cbn [fst snd]. destruct (v =? 0); [reflexivity|]. apply tfind_tput. Qed.
Definition apart (k n : bytes) : Prop := kcmp k n <> Eq /\ kcmp k (upstream n) <> Eq.
Lemma promote_other k ns : Forall (apart k) ns -> forall t, tfind k (fold_left promote ns t) = tfind k t.
Proof.
  induction 1 as [|n ns [A B] F IH]; intros t; cbn [fold_left]; [reflexivity|]. rewrite IH. unfold promote. destruct (tfind n t); [|reflexivity].
  rewrite tfind_tput, tfind_tdel. destruct (kcmp k (upstream n)), (kcmp k n); congruence.
Qed.
Lemma promote_gone n a b : Forall (apart n) b -> kcmp n (upstream n) <> Eq -> forall t, tfind n (fold_left promote (a ++ n :: b) t) = None.
Proof.
  intros B U t. rewrite fold_left_app. cbn [fold_left]. rewrite promote_other by exact B. rewrite tfind_promote, kcmp_refl by exact U.
  destruct (kcmp n (upstream n)); congruence.
Qed.
Lemma promote_up n a b : Forall (apart n) a -> Forall (apart (upstream n)) (a ++ b) -> kcmp n (upstream n) <> Eq ->
  forall t, tfind (upstream n) (fold_left promote (a ++ n :: b) t) = match tfind n t with Some v => Some v | None => tfind (upstream n) t end.
Proof.
  intros A B U t. apply Forall_app in B as [B1 B2]. rewrite fold_left_app. cbn [fold_left]. rewrite promote_other by exact B2. rewrite tfind_promote, kcmp_refl by exact U.
  rewrite !promote_other by assumption. reflexivity.
Qed.
Lemma own_other k ps : Forall (fun p => kcmp k (fst p) <> Eq) ps -> forall t, tfind k (fold_left put_own ps t) = tfind k t.
Proof.
  induction 1 as [|[n v] ps A F IH]; intros t; cbn [fold_left]; [reflexivity|]. rewrite IH, tfind_put_own. cbn [fst] in A. destruct (v =? 0), (kcmp k n); congruence.
Qed.
Lemma own_in n v a b : Forall (fun p => kcmp n (fst p) <> Eq) (a ++ b) ->
  forall t, tfind n (fold_left put_own (a ++ (n, v) :: b) t) = if v =? 0 then tfind n t else Some (dec v).
Proof.
  intros F t. apply Forall_app in F as [A B]. rewrite fold_left_app. cbn [fold_left]. rewrite own_other by exact B. rewrite tfind_put_own, kcmp_refl, own_other by exact A. reflexivity.
Qed.
Ltac far := repeat (apply Forall_cons || apply Forall_nil); try split; try (cbn [fst]; vm_compute; discriminate).
Lemma escalation_step k t b e v : tfind k (if andb b e then tput (lit "escalationTime") v t else t)
  = match kcmp k (lit "escalationTime") with Eq => if andb b e then Some v else tfind k t | _ => tfind k t end.
Proof. destruct (andb b e); [apply tfind_tput|]. destruct (kcmp k (lit "escalationTime")); reflexivity. Qed.
Lemma own_at r t n v a b a' b' : pairs r = a ++ (n, v) :: b -> map fst (pairs r) = a' ++ n :: b' -> Forall (fun p => kcmp n (fst p) <> Eq) (a ++ b) -> Forall (apart n) b' ->
  kcmp n (upstream n) <> Eq -> kcmp n (lit "escalationTime") <> Eq -> tfind n (finalizeTimingInfo r t) = if v =? 0 then None else Some (dec v).
Proof.
  intros P M F G U E. unfold finalizeTimingInfo. rewrite escalation_step, M, P. rewrite own_in, promote_gone by assumption. destruct (kcmp n (lit "escalationTime")); congruence.
Qed.
(** The time that this node measured is in the reply under its name, or nothing is if it is zero. *)
Theorem C71_own r t n : In n own_names ->
  tfind n (finalizeTimingInfo r t) = if value_of r n =? 0 then None else Some (dec (value_of r n)).
Proof.
  intros I. cbn [own_names In] in I. destruct I as [<-|[<-|[<-|[<-|[<-|[<-|[]]]]]]].
  - exact (own_at r t (lit "peekTime") (peekTime r) [] _ [] _ eq_refl eq_refl ltac:(far) ltac:(far) ltac:(far) ltac:(far)).
  - refine (own_at r t (lit "postProcessTime") (postProcessTime r) (firstn 1 (pairs r)) (skipn 2 (pairs r)) (firstn 1 own_names) (skipn 2 own_names) eq_refl eq_refl _ _ _ _); cbn [firstn skipn pairs own_names app]; far.
  - refine (own_at r t (lit "prePeekTime") (prePeekTime r) (firstn 2 (pairs r)) (skipn 3 (pairs r)) (firstn 2 own_names) (skipn 3 own_names) eq_refl eq_refl _ _ _ _); cbn [firstn skipn pairs own_names app]; far.
  - refine (own_at r t (lit "processTime") (processTime r) (firstn 3 (pairs r)) (skipn 4 (pairs r)) (firstn 3 own_names) (skipn 4 own_names) eq_refl eq_refl _ _ _ _); cbn [firstn skipn pairs own_names app]; far.
  - refine (own_at r t (lit "totalTime") (totalTime r) (firstn 4 (pairs r)) (skipn 5 (pairs r)) (firstn 4 own_names) (skipn 5 own_names) eq_refl eq_refl _ _ _ _); cbn [firstn skipn pairs own_names app]; far.
  - refine (own_at r t (lit "unaccountedTime") (unaccountedTime r) (firstn 5 (pairs r)) [] (firstn 5 own_names) [] eq_refl eq_refl _ _ _ _); cbn [firstn skipn pairs own_names app]; far.
Qed.
Lemma up_at r t n a b : own_names = a ++ n :: b -> Forall (fun m => kcmp (upstream n) m <> Eq) own_names -> Forall (apart n) a -> Forall (apart (upstream n)) (a ++ b) ->
  kcmp n (upstream n) <> Eq -> kcmp (upstream n) (lit "escalationTime") <> Eq ->
  tfind (upstream n) (finalizeTimingInfo r t) = match tfind n t with Some v => Some v | None => tfind (upstream n) t end.
Proof.
  intros P M F G U E. unfold finalizeTimingInfo. rewrite escalation_step. change (map fst (pairs r)) with own_names. rewrite (own_other (upstream n)) by (apply (proj1 (Forall_map fst (fun m => kcmp (upstream n) m <> Eq) (pairs r))); exact M).
  rewrite P, promote_up by assumption.
  destruct (kcmp (upstream n) (lit "escalationTime")); congruence.
Qed.
(** What the other node measured is in the reply under the name of this node's with upstream before it. *)
Theorem C71_upstream r t n : In n own_names ->
  tfind (upstream n) (finalizeTimingInfo r t) = match tfind n t with Some v => Some v | None => tfind (upstream n) t end.
Proof.
  intros I. cbn [own_names In] in I. destruct I as [<-|[<-|[<-|[<-|[<-|[<-|[]]]]]]].
  - refine (up_at r t _ [] (skipn 1 own_names) eq_refl _ _ _ _ _); cbn [firstn skipn own_names app]; far.
  - refine (up_at r t _ (firstn 1 own_names) (skipn 2 own_names) eq_refl _ _ _ _ _); cbn [firstn skipn own_names app]; far.
  - refine (up_at r t _ (firstn 2 own_names) (skipn 3 own_names) eq_refl _ _ _ _ _); cbn [firstn skipn own_names app]; far.
  - refine (up_at r t _ (firstn 3 own_names) (skipn 4 own_names) eq_refl _ _ _ _ _); cbn [firstn skipn own_names app]; far.
  - refine (up_at r t _ (firstn 4 own_names) (skipn 5 own_names) eq_refl _ _ _ _ _); cbn [firstn skipn own_names app]; far.
  - refine (up_at r t _ (firstn 5 own_names) [] eq_refl _ _ _ _ _); cbn [firstn skipn own_names app]; far.
Qed.
(** That name is the one written here. *)
Theorem C71_upstream_names : map upstream own_names = upstream_names.
Proof. vm_compute. reflexivity. Qed.
(** No other header of the reply is touched but the time of the escalation. *)
Theorem C71_other r t k : (forall n, In n own_names \/ In n upstream_names \/ n = lit "escalationTime" -> kcmp k n <> Eq) ->
  tfind k (finalizeTimingInfo r t) = tfind k t.
Proof.
  intros H. unfold finalizeTimingInfo. rewrite escalation_step. assert (E : kcmp k (lit "escalationTime") <> Eq) by (apply H; auto).
  change (map fst (pairs r)) with own_names.
  rewrite (own_other k), (promote_other k); [destruct (kcmp k (lit "escalationTime")); congruence| |].
  - apply Forall_forall. intros n I. split; apply H; [auto|]. right; left. rewrite <- C71_upstream_names. apply in_map. exact I.
  - apply Forall_forall. intros p I. apply H. left. change own_names with (map fst (pairs r)). apply in_map. exact I.
Qed.
(** The time of the escalation is what the other node reported for one of its own, or else what this node measured. *)
Theorem C71_escalation r t :
  tfind (lit "escalationTime") (finalizeTimingInfo r t)
  = match tfind (lit "escalationTime") t with Some v => Some v | None => if escalationTime r =? 0 then None else Some (dec (escalationTime r)) end.
Proof.
  unfold finalizeTimingInfo. set (t2 := fold_left put_own _ _). assert (E : tfind (lit "escalationTime") t2 = tfind (lit "escalationTime") t).
  { unfold t2. change (map fst (pairs r)) with own_names. rewrite own_other, promote_other; [reflexivity|unfold own_names; far|unfold pairs; far]. }
  rewrite escalation_step. rewrite kcmp_refl, E. destruct (tfind (lit "escalationTime") t); destruct (escalationTime r =? 0); reflexivity.
Qed.
Definition leader_reply : stable := tput (lit "totalTime") (lit "700") (tput (lit "peekTime") (lit "20") (tput (lit "commitCount") (lit "9") [])).
Definition follower_report : report := final 1000000 [(Queued, 8); (Peeks false, 5); (Escalates, 900)].
Example C71_ex_headers : forall n v, In (n, v) [(lit "totalTime", lit "913"); (lit "peekTime", lit "5"); (lit "upstreamTotalTime", lit "700"); (lit "upstreamPeekTime", lit "20");
    (lit "escalationTime", lit "900"); (lit "commitCount", lit "9")] -> tfind n (finalizeTimingInfo follower_report leader_reply) = Some v.
Proof. intros n v I. cbn [In] in I. decompose [or] I; try contradiction; match goal with E : _ = (n, v) |- _ => injection E as <- <- end; vm_compute; reflexivity. Qed.
(** A node that hands on a reply which was already handed on once loses what the node that did the work measured: the
    upstream names hold what the node in between measured, and the time of the escalation is that node's. *)
Theorem C71_two_hops_refuted : exists r1 r2 t,
  tfind (lit "upstreamPeekTime") (finalizeTimingInfo r1 t) = Some (lit "20")
  /\ tfind (lit "upstreamPeekTime") (finalizeTimingInfo r2 (finalizeTimingInfo r1 t)) = Some (lit "5")
  /\ tfind (lit "escalationTime") (finalizeTimingInfo r2 (finalizeTimingInfo r1 t)) = Some (lit "900") /\ escalationTime r2 = 950.
Proof. exists follower_report, (final 1000000 [(Queued, 1); (Peeks false, 4); (Escalates, 950)]), leader_reply. vm_compute. repeat split; reflexivity. Qed.
(** A time of zero is not there: a reply does not say that a command was not processed, it says nothing about it. *)
Theorem C71_zero_refuted : exists r t, processTime r = 0 /\ tfind (lit "processTime") (finalizeTimingInfo r t) = None.
Proof. exists follower_report, []. vm_compute. split; reflexivity. Qed.

(** ** The report of the tables that commands use *)
Lemma beqb_spec a b : reflect (a = b) (bytes_eqb a b).
Proof. destruct (bytes_eqb a b) eqn:E; constructor; [apply bytes_eqb_eq; exact E|]. intros ->. rewrite (proj2 (bytes_eqb_eq b b) eq_refl) in E. discriminate. Qed.
Definition counted (m : list (bytes * info)) (c : bytes) : N := match aget bytes_eqb c m with Some i => count i | None => 0 end.
Definition used (m : list (bytes * info)) (c t : bytes) : N := match aget bytes_eqb c m with Some i => got t (tableUseCounts i) | None => 0 end.
Lemma got_use m x t : got t (use m x) = (if andb (bytes_eqb x t) (negb (skipped t)) then 1 else 0) + got t m.
Proof.
  unfold use. destruct (beqb_spec x t) as [->|D].
  - destruct (skipped t); [reflexivity|]. cbn [andb negb]. unfold got. destruct (aget bytes_eqb t m); rewrite (aget_aset_same _ beqb_spec); lia.
  - destruct (skipped x); [cbn [andb]; lia|]. unfold got. destruct (aget bytes_eqb x m); rewrite (aget_aset_other _ beqb_spec) by congruence; cbn [andb]; lia.
Qed.
Lemma got_uses ts : NoDup ts -> forall m t, skipped t = false -> got t (fold_left use ts m) = (if existsb (bytes_eqb t) ts then 1 else 0) + got t m.
Proof.
  induction 1 as [|x ts Hx ND IH]; intros m t K; cbn [fold_left existsb]; [lia|]. rewrite (IH (use m x) t K), got_use, K.
  destruct (beqb_spec x t) as [->|D].
  - rewrite (proj2 (bytes_eqb_eq t t) eq_refl). cbn [orb andb negb].
    destruct (existsb (bytes_eqb t) ts) eqn:E; [|lia]. apply existsb_exists in E as (y & I & Y). apply bytes_eqb_eq in Y. subst y. contradiction.
  - destruct (beqb_spec t x); [congruence|]. cbn [orb andb]. lia.
Qed.
Lemma got_skipped ts t : skipped t = true -> forall m, got t (fold_left use ts m) = got t m.
Proof. intros K. induction ts as [|x ts IH]; intros m; cbn [fold_left]; [reflexivity|]. rewrite IH, got_use, K, andb_false_r. reflexivity. Qed.
Lemma recorded_app l e : recorded (l ++ [e]) = recordTables (recorded l) e.
Proof. unfold recorded. rewrite fold_left_app. reflexivity. Qed.
Lemma times_app {A} (p : A -> bool) l x : times p (l ++ [x]) = times p l + (if p x then 1 else 0).
Proof. induction l as [|y l IH]; cbn [app times]; [lia|]. rewrite IH. lia. Qed.
(** The count of a command is the number of its commits. *)
Theorem C71_commands l c : counted (recorded l) c = times (fun e => bytes_eqb (fst e) c) l.
Proof.
  induction l as [|e l IH] using rev_ind; [reflexivity|]. rewrite recorded_app, times_app, <- IH. unfold counted, recordTables.
  destruct (beqb_spec (fst e) c) as [<-|D].
  - rewrite (aget_aset_same _ beqb_spec). cbn [count]. destruct (aget bytes_eqb (fst e) (recorded l)); cbn [count]; lia.
  - rewrite (aget_aset_other _ beqb_spec) by congruence. lia.
Qed.
Lemma used_spec l c t : (forall e, In e l -> NoDup (snd e)) ->
  used (recorded l) c t = if skipped t then 0 else times (fun e => andb (bytes_eqb (fst e) c) (existsb (bytes_eqb t) (snd e))) l.
Proof.
  induction l as [|e l IH] using rev_ind; intros ND; [cbn; destruct (skipped t); reflexivity|].
  assert (IH' := IH ltac:(intros e' I'; apply ND; apply in_or_app; auto)). clear IH.
  rewrite recorded_app, times_app. unfold used, recordTables in *. destruct (beqb_spec (fst e) c) as [<-|D].
  - rewrite (aget_aset_same _ beqb_spec). cbn [tableUseCounts andb].
    assert (G : got t (tableUseCounts match aget bytes_eqb (fst e) (recorded l) with Some i => i | None => {| count := 0; tableUseCounts := [] |} end)
                = if skipped t then 0 else times (fun e0 => andb (bytes_eqb (fst e0) (fst e)) (existsb (bytes_eqb t) (snd e0))) l).
    { rewrite <- IH'. destruct (aget bytes_eqb (fst e) (recorded l)); reflexivity. }
    destruct (skipped t) eqn:K; [rewrite (got_skipped _ _ K); exact G|].
    rewrite got_uses, G by (try exact K; apply ND; apply in_or_app; cbn; auto). lia.
  - rewrite (aget_aset_other _ beqb_spec) by congruence. rewrite IH'. cbn [andb]. destruct (skipped t); lia.
Qed.
(** The count of a table for a command is the number of that command's commits that used it, unless the name begins
    like that of a journal or is json_each. *)
Theorem C71_tables l c t : (forall e, In e l -> NoDup (snd e)) -> (forall x, t <> lit "journal" ++ x) -> t <> lit "json_each" ->
  used (recorded l) c t = times (fun e => andb (bytes_eqb (fst e) c) (existsb (bytes_eqb t) (snd e))) l.
Proof.
  intros ND J E. rewrite used_spec by exact ND. replace (skipped t) with false; [reflexivity|]. symmetry. unfold skipped. apply orb_false_iff. split.
  - destruct (prefixb (lit "journal") t) eqn:P; [|reflexivity]. apply prefixb_spec in P as [x P]. contradiction (J x P).
  - destruct (beqb_spec t (lit "json_each")); congruence.
Qed.
(** Those are never counted. *)
Theorem C71_tables_left_out l c t : (forall e, In e l -> NoDup (snd e)) -> (exists x, t = lit "journal" ++ x) \/ t = lit "json_each" -> used (recorded l) c t = 0.
Proof.
  intros ND J. rewrite used_spec by exact ND. replace (skipped t) with true; [reflexivity|]. symmetry. unfold skipped. apply orb_true_iff.
  destruct J as [J| ->]; [left; apply prefixb_spec; exact J|right; apply bytes_eqb_eq; reflexivity].
Qed.
Definition ex_commits : list (bytes * list bytes) :=
  [(lit "Pay", [lit "accounts"; lit "journal0003"]); (lit "Rename", [lit "accounts"]); (lit "Pay", [lit "accounts"; lit "json_each"; lit "payments"])].
Example C71_ex_conflicts : (forall e, In e ex_commits -> NoDup (snd e))
  /\ counted (recorded ex_commits) (lit "Pay") = 2 /\ used (recorded ex_commits) (lit "Pay") (lit "accounts") = 2
  /\ used (recorded ex_commits) (lit "Pay") (lit "payments") = 1 /\ used (recorded ex_commits) (lit "Pay") (lit "journal0003") = 0
  /\ used (recorded ex_commits) (lit "Rename") (lit "accounts") = 1.
Proof.
  split; [|vm_compute; repeat split; reflexivity]. intros e I. cbn [ex_commits In] in I.
  decompose [or] I; subst; try contradiction; cbn [snd]; repeat constructor; cbn [In]; intuition discriminate.
Qed.
(** A table of one's own whose name begins with journal is left out of the report. *)
Theorem C71_own_journal_refuted : exists l c, In (c, [lit "journalEntries"]) l /\ counted (recorded l) c = 1 /\ used (recorded l) c (lit "journalEntries") = 0.
Proof. exists [(lit "Pay", [lit "journalEntries"])], (lit "Pay"). vm_compute. auto. Qed.

(** ** Performance timers *)
Lemma measured_app d b l e : measured d b (l ++ [e]) = measure d (measured d b l) e.
Proof. unfold measured. rewrite fold_left_app. reflexivity. Qed.
Lemma sum_app {A} (f : A -> N) l x : sum f (l ++ [x]) = sum f l + f x.
Proof. induction l as [|y l IH]; cbn [app sum]; [lia|]. rewrite IH. lia. Qed.
Lemma got_aset k k2 v m : got k2 (aset bytes_eqb k v m) = if bytes_eqb k k2 then v else got k2 m.
Proof. unfold got. destruct (beqb_spec k k2) as [->|D]; [rewrite (aget_aset_same _ beqb_spec); reflexivity|]. rewrite (aget_aset_other _ beqb_spec) by congruence. reflexivity. Qed.
(** No time is lost or counted twice: what the lines in the log say for a type, with what is not logged yet, is what was
    measured for it. *)
Theorem C71_timer d b l k : (forall x, got x d = 0) ->
  let p := measured d b l in
  sum (fun line => got k (snd line)) (logged p) + got k (totals p) = sum (fun e => if bytes_eqb (fst (fst e)) k then snd e - snd (fst e) else 0) l.
Proof.
  intros D. cbv zeta. induction l as [|[[x s] n] l IH] using rev_ind; [cbn; apply D|]. rewrite measured_app, sum_app, <- IH. cbn [fst snd].
  set (p := measured d b l). unfold measure.
  set (t := match aget bytes_eqb x (totals p) with Some n0 => _ | None => _ end).
  assert (T : got k t = got k (totals p) + if bytes_eqb x k then n - s else 0).
  { unfold t. destruct (aget bytes_eqb x (totals p)) as [n0|] eqn:E; rewrite got_aset; destruct (beqb_spec x k) as [->|]; try lia; unfold got; rewrite E; lia. }
  destruct (ten_seconds <? n - lastLog p); cbn [logged totals].
  - rewrite sum_app. cbn [snd]. rewrite D. lia.
  - lia.
Qed.
(** A line is logged for no less than ten seconds, and the lines follow on one another. *)
Theorem C71_timer_lines d b l : (forall e, In e l -> b <= snd e) ->
  let p := measured d b l in
  Forall (fun line => ten_seconds < fst line) (logged p) /\ b + sum fst (logged p) = lastLog p.
Proof.
  intros H. cbv zeta. induction l as [|[[x s] n] l IH] using rev_ind; [cbn; split; [constructor|lia]|].
  assert (IH' := IH ltac:(intros e' I'; apply H; apply in_or_app; auto)). destruct IH' as [F E]. rewrite measured_app. unfold measure. set (p := measured d b l) in *.
  destruct (ten_seconds <? n - lastLog p) eqn:C; cbn [logged lastLog]; [|split; assumption]. apply N.ltb_lt in C. split.
  - apply Forall_app. split; [exact F|]. constructor; [exact C|constructor].
  - rewrite sum_app. cbn [fst]. lia.
Qed.
Definition ex_timed : list (bytes * N * N) := [(lit "work", 0, 4000000000); (lit "wait", 4000000000, 9000000000); (lit "work", 9000000000, 12000000000); (lit "wait", 12000000000, 13000000000)].
Example C71_ex_timer : let p := measured [(lit "wait", 0)] 0 ex_timed in
  map fst (logged p) = [12000000000] /\ map (fun line => got (lit "work") (snd line)) (logged p) = [7000000000] /\ got (lit "wait") (totals p) = 1000000000.
Proof. vm_compute. repeat split; reflexivity. Qed.
(** Nothing is logged by the passing of time alone: what was measured stays unsaid until something else is measured. *)
Theorem C71_unsaid_refuted : exists l, sum (fun e => snd e - snd (fst e)) l = 9000000000 /\ logged (measured [] 0 l) = [].
Proof. exists [(lit "work", 0, 9000000000)]. vm_compute. split; reflexivity. Qed.

(** ** Random texts *)
(** A random text has the length that was asked for and only letters and digits in it. *)
Theorem C71_random rs : length (randStr rs) = length rs /\ Forall alphanumeric (randStr rs).
Proof.
  unfold randStr. rewrite map_length. split; [reflexivity|]. apply Forall_forall. intros c I. apply in_map_iff in I as (r & <- & _).
  assert (A : Forall alphanumeric characters) by (unfold characters; cbn [lit list_ascii_of_string]; repeat (apply Forall_cons; [unfold alphanumeric; cbn; lia|]); apply Forall_nil).
  rewrite Forall_forall in A. apply A. apply nth_In.
  assert (B : r mod (N.of_nat (length characters) - 1) < N.of_nat (length characters) - 1) by (apply N.mod_lt; vm_compute; discriminate). lia.
Qed.
(** Each character but the last comes up, whichever is wanted, and different numbers below 61 give different characters. *)
Theorem C71_random_reaches c : In c characters -> c <> "z"%char -> exists r, r < 61 /\ randStr [r] = [c].
Proof.
  intros I D. apply (In_nth _ _ zero) in I as (i & L & E). change (length characters) with 62%nat in L.
  assert (i <> 61)%nat by (intros ->; apply D; rewrite <- E; reflexivity).
  exists (N.of_nat i). split; [lia|]. cbn [randStr map]. f_equal. change (N.of_nat (length characters) - 1) with 61. rewrite N.mod_small by lia. rewrite Nat2N.id. exact E.
Qed.
(** The letter z never comes up in a random text. *)
Theorem C71_z_refuted : In "z"%char characters /\ forall rs, ~ In "z"%char (randStr rs).
Proof.
  split; [cbn; tauto|]. intros rs I. unfold randStr in I. apply in_map_iff in I as (r & E & _). change (N.of_nat (length characters) - 1) with 61 in E.
  assert (B : r mod 61 < 61) by (apply N.mod_lt; discriminate). set (i := N.to_nat (r mod 61)) in E. assert (L : (i < 61)%nat) by (unfold i; lia). clearbody i.
  do 61 (destruct i as [|i]; [vm_compute in E; discriminate|]). lia.
Qed.
Example C71_ex_random : randStr [0; 10; 60; 61; 100] = lit "0Ay0d".
Proof. vm_compute. reflexivity. Qed.

Print Assumptions C71_times.
Print Assumptions C71_adds_up.
Print Assumptions C71_no_wrap.
Print Assumptions C71_attempts_refuted.
Print Assumptions C71_own.
Print Assumptions C71_upstream.
Print Assumptions C71_upstream_names.
Print Assumptions C71_other.
Print Assumptions C71_escalation.
Print Assumptions C71_two_hops_refuted.
Print Assumptions C71_zero_refuted.
Print Assumptions C71_commands.
Print Assumptions C71_tables.
Print Assumptions C71_tables_left_out.
Print Assumptions C71_own_journal_refuted.
Print Assumptions C71_timer.
Print Assumptions C71_timer_lines.
Print Assumptions C71_unsaid_refuted.
Print Assumptions C71_random.
Print Assumptions C71_random_reaches.
Print Assumptions C71_z_refuted.
