(** C34, C35 and C40: elections and the node state machine. *)
From Verif Require Import Base Cluster_Model Cluster_Spec Cluster_Proofs Cluster_Local.

(** Any number [n] of nodes, any versions, any priorities. [full] says which nodes are not
    permafollowers; the nodes' first announced priorities and their configured knowledge of each
    other agree with it. [es] is any sequence of connections, disconnections, deliveries, updates,
    priority changes and shutdowns. *)
Definition agrees (n : nat) (full : nat -> bool) (p0 : nat -> Z) (perma : nat -> bool) : Prop :=
  forall i, i < n -> (p0 i = 0%Z <-> full i = false) /\ (perma i = true <-> full i = false).
(** No voter has cut off a peer whose standup it had approved and whose claim was still going on. *)
Definition no_vote_dropped (c : cluster) : Prop := c_lost c = false.
(** No node's announced priority has gone to or from 0. *)
Definition no_role_change (c : cluster) : Prop := c_cross c = false.

Lemma agrees_inv n full p0 conf perma : agrees n full p0 perma -> Inv n full (init p0 conf perma).
Proof.
  intros H. apply inv_init. intros i Hi. destruct (H i Hi) as [A B]. split.
  - destruct (Z.eqb_spec (p0 i) 0) as [E|E]; destruct (full i); cbn; auto; exfalso.
    + apply A in E. discriminate.
    + apply E, A. reflexivity.
  - destruct (perma i), (full i); cbn; auto; exfalso; destruct B as [B1 B2]; [discriminate (B1 eq_refl)|discriminate (B2 eq_refl)].
Qed.

Theorem C34_at_most_one_leader n ver full p0 conf perma es c :
  agrees n full p0 perma -> run n ver (init p0 conf perma) es = Some c -> no_vote_dropped c -> no_role_change c ->
  forall a b, a < n -> b < n -> in_charge (n_st (c_node c a)) = true -> in_charge (n_st (c_node c b)) = true -> a = b.
Proof.
  intros Ha Hr H1 H2 a b La Lb. eapply two_leaders; eauto. eapply inv_run; eauto. apply agrees_inv. exact Ha.
Qed.

(** The code starts every node with priority -1: the cluster without permafollowers. *)
Theorem C34_without_permafollowers n ver conf es c :
  run n ver (init (fun _ => (-1)%Z) conf (fun _ => false)) es = Some c -> no_vote_dropped c -> no_role_change c ->
  forall a b, a < n -> b < n -> in_charge (n_st (c_node c a)) = true -> in_charge (n_st (c_node c b)) = true -> a = b.
Proof.
  intros Hr. eapply (C34_at_most_one_leader n ver (fun _ => true)); [|exact Hr]. intros i _. split; split; discriminate.
Qed.

(** ** C35 *)

(** Whoever leads has the approval of enough voters for this very standup that, with itself, they
    are a strict majority of all voters. [c_appr c x] is the log of the approvals [x] has sent:
    who, and for which state change. *)
Theorem C35_leader_has_majority n ver full p0 conf perma es c :
  agrees n full p0 perma -> run n ver (init p0 conf perma) es = Some c -> no_vote_dropped c -> no_role_change c ->
  forall a, a < n -> 1 < n -> in_charge (n_st (c_node c a)) = true ->
  full a = true /\
  exists Q, majority n full (a :: Q) /\ (forall x, In x Q -> In (a, n_stint (c_node c a)) (c_appr c x)).
Proof.
  intros Ha Hr H1 H2 a La Hn Hc.
  assert (K : Core n full c) by (eapply inv_run; eauto; apply agrees_inv; exact Ha).
  assert (Np : peers n a <> []).
  { intros E. destruct (Nat.eqb_spec a 0) as [Ea|Ea].
    - assert (X : In 1 (peers n a)) by (apply peers_in; split; [exact Hn|congruence]). rewrite E in X. contradiction.
    - assert (X : In 0 (peers n a)) by (apply peers_in; split; [eapply Nat.lt_trans; [apply Nat.lt_0_1|exact Hn]|congruence]). rewrite E in X. contradiction. }
  assert (Cl : claiming (n_st (c_node c a)) = true) by (destruct (n_st (c_node c a)); try discriminate Hc; reflexivity).
  destruct (k_stint _ _ _ K a La Cl) as [?|[S1 Fa]]; [contradiction|].
  destruct (k_lead _ _ _ K a La Hc) as [?|(Q & Q1 & Q2 & Q3 & Q4)]; [contradiction|].
  split; [exact Fa|]. exists Q. split; [|intros x Hx; apply Q3; exact Hx]. repeat split.
  - constructor; [|exact Q1]. intros X. apply Q2, peers_in in X. lia.
  - intros x [<-|X]; apply filter_In; [split; [apply in_seq; lia|exact Fa]|]. split; [|apply Q3, X]. apply Q2, peers_in in X. apply in_seq. lia.
  - assert (E : count full (peers n a) + 1 = List.length (filter full (seq 0 n))) by (eapply count_peers; eauto). unfold voters. cbn [List.length]. lia.
Qed.
(** Two strict majorities share a voter. *)
Theorem C35_majorities_meet n full Q Q' : majority n full Q -> majority n full Q' -> exists x, In x Q /\ In x Q'.
Proof.
  intros (A1 & A2 & A3) (B1 & B2 & B3).
  destruct (existsb (fun x => existsb (Nat.eqb x) Q') Q) eqn:E.
  - apply existsb_exists in E as (x & X1 & X2). apply existsb_exists in X2 as (y & Y1 & Y2). apply Nat.eqb_eq in Y2. subst y. eauto.
  - exfalso. assert (D : forall x, In x Q -> In x Q' -> False).
    { intros x X Y. assert (T : existsb (fun x => existsb (Nat.eqb x) Q') Q = true); [|congruence].
      apply existsb_exists. exists x. split; [exact X|]. apply existsb_exists. exists x. split; [exact Y|apply Nat.eqb_refl]. }
    assert (N : NoDup (Q ++ Q')).
    { clear - A1 B1 D. induction A1 as [|x l N _ IH]; cbn [app]; [exact B1|]. constructor.
      - intros X. apply in_app_iff in X as [X|X]; [contradiction|]. apply (D x); [left; reflexivity|exact X].
      - apply IH. intros y Y. apply D. right. exact Y. }
    assert (L := NoDup_incl_length N (incl_app A2 B2)). rewrite app_length in L. lia.
Qed.
(** Without any assumption on connections: whatever happened before, a step only makes a node
    with peers LEADING if it was STANDINGUP and, among the peers it believes to be full members, at
    least half are logged in and have approved and none has denied. *)
Theorem C35_needs_approvals n ver c e c' i :
  step n ver c e = Some c' -> n_st (c_node c i) <> LEADING -> n_st (c_node c' i) = LEADING -> peers n i <> [] ->
  n_st (c_node c i) = STANDINGUP /\ num_full n c i <= 2 * num_approve n c i /\ any_deny n c i = false.
Proof. intros Hs H1 H2 Hp. destruct (step_leads n ver c e c' i Hs H1 H2) as [[_ E]|E]; [contradiction|exact E]. Qed.

(** ** C40 *)

(** Each step changes the state of at most one node, along documented transitions only; the count
    of state changes the node announces grows by the number of transitions. *)
Theorem C40_transitions n ver p0 conf perma es c e c' :
  run n ver (init p0 conf perma) es = Some c -> step n ver c e = Some c' ->
  forall i, exists k, moves (match peers n i with [] => true | _ => false end) (n_st (c_node c i)) k (n_st (c_node c' i)) /\
                      n_scc (c_node c' i) = n_scc (c_node c i) + k /\
                      (i <> actor e -> k = 0).
Proof.
  intros Hr Hs i. assert (G := good_run n ver es _ _ (good_init p0 conf perma) Hr).
  destruct (step_local n ver c e c' Hs) as [[_ M] O]. destruct (Nat.eq_dec i (actor e)) as [->|Hi].
  - destruct (M (G (actor e))) as [(k & M1 & M2) _]. exists k. repeat split; [exact M1|exact M2|]. intros X. contradiction.
  - specialize (O i Hi). exists 0. injection O as E1 E2 _ _ _. rewrite E1, E2. repeat split; [constructor|lia].
Qed.
(** In particular no node goes to LEADING in one step except from STANDINGUP, or from SEARCHING
    when it has no peers. *)
Theorem C40_leading_from n ver p0 conf perma es c e c' i :
  run n ver (init p0 conf perma) es = Some c -> step n ver c e = Some c' ->
  n_st (c_node c i) <> LEADING -> n_st (c_node c' i) = LEADING ->
  n_st (c_node c i) = STANDINGUP \/ (n_st (c_node c i) = SEARCHING /\ peers n i = []).
Proof.
  intros _ Hs H1 H2. destruct (step_leads n ver c e c' i Hs H1 H2) as [E|(E & _)]; auto.
Qed.
(** A node that stops leading is SEARCHING with commits disabled; commits are disabled only while
    SEARCHING. *)
Theorem C40_commits n ver p0 conf perma es c e c' :
  run n ver (init p0 conf perma) es = Some c -> step n ver c e = Some c' ->
  forall i, (n_commits (c_node c' i) = false -> n_st (c_node c' i) = SEARCHING) /\
            (in_charge (n_st (c_node c i)) = true -> in_charge (n_st (c_node c' i)) = false ->
             n_st (c_node c' i) = SEARCHING /\ n_commits (c_node c' i) = false).
Proof.
  intros Hr Hs i. assert (G := good_run n ver es _ _ (good_init p0 conf perma) Hr).
  split; [exact (g_commits _ (good_step n ver c e c' G Hs i))|].
  destruct (step_local n ver c e c' Hs) as [[_ M] O]. destruct (Nat.eq_dec i (actor e)) as [->|Hi].
  - apply (M (G (actor e))).
  - specialize (O i Hi). injection O as E1 _ _ _ _. rewrite E1. congruence.
Qed.
(** A node knows a leader exactly when it is subscribing or following (so the assertion of
    update's FOLLOWING case never fails), and has a synchronization peer exactly when it is
    synchronizing. *)
Theorem C40_leader_known n ver p0 conf perma es c i :
  run n ver (init p0 conf perma) es = Some c ->
  ((exists l, n_lead (c_node c i) = Some l) <-> n_st (c_node c i) = SUBSCRIBING \/ n_st (c_node c i) = FOLLOWING) /\
  ((exists l, n_sync (c_node c i) = Some l) <-> n_st (c_node c i) = SYNCHRONIZING).
Proof.
  intros Hr. destruct (good_run n ver es _ _ (good_init p0 conf perma) Hr i) as [G1 G2 _]. cbn in G1, G2.
  split; split.
  - intros [l E]. rewrite E in G1. destruct (n_st (c_node c i)); try discriminate G1; auto.
  - intros E. destruct (n_lead (c_node c i)) as [l|]; [eauto|]. destruct E as [E|E]; rewrite E in G1; discriminate.
  - intros [l E]. rewrite E in G2. destruct (n_st (c_node c i)); try discriminate G2; reflexivity.
  - intros E. destruct (n_sync (c_node c i)) as [l|]; [eauto|]. rewrite E in G2. discriminate.
Qed.

(** ** Executions *)

Definition go := mkO true false None false false false.
Definition rc i j := ERecv i j true SyncDone.
(** Connect and exchange logins; drop a connection at both ends; boot two nodes; elect [i] with the
    vote of [v]. *)
Definition link i j := [EConnect i j; EConnect j i; rc i j; rc j i].
Definition drop i j := [EDisconnect i j; EDisconnect j i].
Definition boot2 i j := link i j ++ [EUpdate i go; EUpdate j go] ++ drop i j ++ link i j.
Definition elect i v := [EUpdate i go; rc v i; rc i v; EUpdate i go].
Definition fresh := init (fun _ => (-1)%Z) (fun i => Z.of_nat (10 + i)) (fun _ => false).

(** Three nodes boot and elect the one with the highest priority; then the leader is shut down and
    steps down. *)
Definition election := boot2 1 0 ++ link 2 1 ++ [EUpdate 2 go] ++ drop 2 1 ++ link 2 1 ++ link 2 0 ++ [EUpdate 2 go; rc 1 2; rc 0 2; rc 2 1; EUpdate 2 go; rc 2 0].
Example ex_election : exists c, run 3 (fun _ => 1) fresh election = Some c /\ no_vote_dropped c /\ no_role_change c /\
  n_st (c_node c 2) = LEADING /\ n_prio (c_node c 2) = 12%Z /\ n_scc (c_node c 2) = 4.
Proof. eexists. split; [vm_compute; reflexivity|]. vm_compute. auto 10. Qed.
Example ex_stepdown : exists c c', run 3 (fun _ => 1) fresh (election ++ [EShutdown 2]) = Some c /\ step 3 (fun _ => 1) c (EUpdate 2 go) = Some c' /\
  in_charge (n_st (c_node c 2)) = true /\ n_st (c_node c' 2) = SEARCHING /\ n_scc (c_node c' 2) = 6 /\ n_commits (c_node c' 2) = false.
Proof. eexists. eexists. split; [vm_compute; reflexivity|]. split; [vm_compute; reflexivity|]. vm_compute. auto 10. Qed.
Example ex_agrees : agrees 3 (fun _ => true) (fun _ => (-1)%Z) (fun _ => false).
Proof. intros i _. split; split; discriminate. Qed.
(** A node that never has peers leads at once. *)
Example ex_alone : exists c, run 1 (fun _ => 1) fresh [EUpdate 0 go] = Some c /\ n_st (c_node c 0) = LEADING.
Proof. eexists. split; vm_compute; reflexivity. Qed.

(** ** What does not hold *)

(** If a voter loses its connection to the leader it voted for, it may vote for another: here node
    0 votes for 1, drops it, and votes for 2, while 1 has not yet noticed. *)
Theorem C34_dropped_voter_refuted : exists c,
  run 3 (fun _ => 1) fresh (boot2 1 0 ++ elect 1 0 ++ [EDisconnect 0 1] ++ link 2 0 ++ [EUpdate 2 go] ++ drop 2 0 ++ link 2 0 ++ elect 2 0) = Some c /\
  no_role_change c /\ n_st (c_node c 1) = LEADING /\ n_st (c_node c 2) = LEADING.
Proof. eexists. split; [vm_compute; reflexivity|]. vm_compute. auto. Qed.
(** A permafollower announces priority -1 while it boots, so the others count it as a full
    member. Nodes 3 and 4 are permafollowers: 0 leads with their votes, 2 leads with 1's. Nothing
    was dropped that mattered and no priority went to or from 0. *)
Definition perma34 := fun j => Nat.leb 3 j.
Definition fresh5 := init (fun _ => (-1)%Z) (fun i => if perma34 i then 0%Z else Z.of_nat (10 + i)) perma34.
Theorem C34_booting_permafollowers_refuted : exists c,
  run 5 (fun _ => 1) fresh5 (link 0 3 ++ link 0 4 ++ [EUpdate 0 go] ++ drop 0 3 ++ drop 0 4 ++ link 0 3 ++ link 0 4 ++
     [EUpdate 0 go; rc 3 0; rc 4 0; rc 0 3; rc 0 4; EUpdate 0 go] ++ boot2 2 1 ++ elect 2 1) = Some c /\
  no_vote_dropped c /\ no_role_change c /\ n_st (c_node c 0) = LEADING /\ n_st (c_node c 2) = LEADING.
Proof. eexists. split; [vm_compute; reflexivity|]. vm_compute. auto. Qed.
(** A permafollower that is shutting down announces priority 1 (setShutdownPriority), so again it
    is counted as a full member. *)
Theorem C34_shutdown_permafollowers_refuted : exists c,
  run 5 (fun _ => 1) fresh5 (link 0 3 ++ link 0 4 ++ link 1 3 ++ link 1 4 ++ [EUpdate 0 go; EUpdate 3 go; EUpdate 4 go] ++
     drop 0 3 ++ drop 0 4 ++ drop 1 3 ++ drop 1 4 ++ link 0 3 ++ link 0 4 ++
     [EShutdownPriority 3; EShutdownPriority 4; rc 0 3; rc 0 4; EUpdate 0 go; rc 3 0; rc 4 0; rc 0 3; rc 0 4; EUpdate 0 go] ++
     link 2 1 ++ [EUpdate 2 go] ++ drop 2 1 ++ link 2 1 ++ elect 2 1) = Some c /\
  no_vote_dropped c /\ n_st (c_node c 0) = LEADING /\ n_st (c_node c 2) = LEADING.
Proof. eexists. split; [vm_compute; reflexivity|]. vm_compute. auto. Qed.
(** A majority is needed to start leading but not to go on: the leader of two nodes that loses its
    only peer keeps leading, alone. *)
Theorem C35_keeps_leading_alone_refuted : exists c,
  run 2 (fun _ => 1) fresh (boot2 0 1 ++ elect 1 0 ++ [EDisconnect 1 0; EUpdate 1 go]) = Some c /\
  n_st (c_node c 1) = LEADING /\ num_full_logged 2 c 1 = 0 /\ List.length (voters 2 (fun _ => true)) = 2.
Proof. eexists. split; [vm_compute; reflexivity|]. vm_compute. auto. Qed.

Print Assumptions C34_at_most_one_leader.
Print Assumptions C34_without_permafollowers.
Print Assumptions C35_leader_has_majority.
Print Assumptions C35_majorities_meet.
Print Assumptions C35_needs_approvals.
Print Assumptions C40_transitions.
Print Assumptions C40_leading_from.
Print Assumptions C40_commits.
Print Assumptions C40_leader_known.
Print Assumptions C34_dropped_voter_refuted.
Print Assumptions C34_booting_permafollowers_refuted.
Print Assumptions C34_shutdown_permafollowers_refuted.
Print Assumptions C35_keeps_leading_alone_refuted.
