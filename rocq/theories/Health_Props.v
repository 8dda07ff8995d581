(** C82: health checks tell the truth. *)
From Verif Require Import Base Table Text_Spec Text_Proofs Ident_Spec Ident_Model Health_Spec Health_Model.

Lemma is_spec s m : s <> SEARCHING -> is s m = true <-> node m = Some s.
Proof. intros N. unfold is, getState. rewrite bytes_eqb_eq. destruct (node m) as [[]|], s; split; intros E; try reflexivity; try discriminate; try congruence; exfalso; apply N; reflexivity. Qed.
Lemma is_false s m : s <> SEARCHING -> is s m = false -> node m <> Some s.
Proof. intros N E F. apply (is_spec s m N) in F. congruence. Qed.
Ltac no_begin := intros (? & X); discriminate X.

(** As long as nothing changes during a request: the answer to isFollower is a 200 exactly if the node follows. *)
Theorem C82_follower : forall m w, (forall k, w k = m) -> (begins "HTTP/1.1 200" (is_follower w) <-> node m = Some FOLLOWING) /\ (begins "HTTP/1.1 500" (is_follower w) <-> node m <> Some FOLLOWING).
Proof.
  intros m w W. unfold is_follower. rewrite !W. rewrite <- (is_spec FOLLOWING m) by discriminate. destruct (is FOLLOWING m).
  - split; split; try reflexivity; [intros _; exists (lit " Following"); reflexivity|no_begin|intros X; exfalso; apply X; reflexivity].
  - split; split; [no_begin|discriminate|discriminate|]. intros _. exists (lit " Not Following. State=" ++ stateName (getState m)). reflexivity.
Qed.
Print Assumptions C82_follower.
(** Also while the node changes: a 200 means that it followed at some moment of the request, a 500 that it did not at some moment. *)
Theorem C82_follower_always : forall w,
  (begins "HTTP/1.1 200" (is_follower w) /\ exists k, node (w k) = Some FOLLOWING) \/ (begins "HTTP/1.1 500" (is_follower w) /\ exists k, node (w k) <> Some FOLLOWING).
Proof.
  intros w. unfold is_follower. destruct (is FOLLOWING (w 0)) eqn:E.
  - left. split; [exists (lit " Following"); reflexivity|]. exists 0. apply is_spec; [discriminate|exact E].
  - right. split; [exists (lit " Not Following. State=" ++ stateName (getState (w 1))); reflexivity|]. exists 0. apply is_false; [discriminate|exact E].
Qed.
Print Assumptions C82_follower_always.

(** As long as nothing changes: the answer to handlingCommands is a 200 exactly if the node makes no backup, is not told to detach, has the version of the leader, as far as
    that is known, and is in a state in which it handles commands. *)
Definition fits (version : bytes) (m : moment) : Prop := backing_up m = false /\ detach m = false /\ (leader_version m = [] \/ leader_version m = version).
Lemma mismatch version l : match l with [] => false | _ => negb (bytes_eqb version l) end = false <-> l = [] \/ l = version.
Proof.
  destruct l as [|c l]; [split; auto|]. rewrite negb_false_iff, bytes_eqb_eq. split; [intros ->; auto|]. intros [X|X]; [discriminate|congruence].
Qed.
Theorem C82_handling : forall version m w, (forall k, w k = m) -> (begins "HTTP/1.1 200" (handling_commands version w) <-> fits version m /\ handles m).
Proof.
  intros version m w W. unfold handling_commands. rewrite !W. unfold fits, handles. rewrite <- mismatch.
  destruct (backing_up m); [split; [no_begin|intros ((X & _) & _); discriminate]|]. destruct (detach m); [split; [no_begin|intros ((_ & X & _) & _); discriminate]|].
  destruct (match leader_version m with [] => false | _ => negb (bytes_eqb version (leader_version m)) end); [split; [no_begin|intros ((_ & _ & X) & _); discriminate]|].
  rewrite <- (is_spec FOLLOWING m), <- (is_spec LEADING m), <- (is_spec STANDINGDOWN m) by discriminate.
  destruct (is FOLLOWING m), (is LEADING m), (is STANDINGDOWN m); (split; [try no_begin; intros _; repeat split; auto|intros (_ & X)]);
    try (eexists; cbn [lit app]; reflexivity); destruct X as [X|[X|X]]; discriminate.
Qed.
Print Assumptions C82_handling.
(** Why it does not, the answer says. *)
Theorem C82_reason : forall version m w, (forall k, w k = m) ->
  (backing_up m = true -> handling_commands version w = lit "HTTP/1.1 503 Backup In Progress") /\
  (backing_up m = false -> detach m = true -> handling_commands version w = lit "HTTP/1.1 503 Detached") /\
  (backing_up m = false -> detach m = false -> leader_version m <> [] -> leader_version m <> version -> handling_commands version w = lit "HTTP/1.1 500 Mismatched version. Version=" ++ version) /\
  (fits version m -> handling_commands version w = lit (if is FOLLOWING m || is LEADING m || is STANDINGDOWN m then "HTTP/1.1 200 " else "HTTP/1.1 500 ") ++ stateName (getState m)).
Proof.
  intros version m w W. unfold handling_commands. rewrite !W. split; [intros ->; reflexivity|]. split; [intros -> ->; reflexivity|]. split.
  - intros -> -> A B. destruct (leader_version m) as [|c l]; [contradiction|]. destruct (bytes_eqb version (c :: l)) eqn:E; [apply bytes_eqb_eq in E; congruence|reflexivity].
  - intros (-> & -> & A). rewrite (proj2 (mismatch _ _) A). destruct (is FOLLOWING m), (is LEADING m), (is STANDINGDOWN m); reflexivity.
Qed.
Print Assumptions C82_reason.
(** Also while things change: a 200 means that at some moment of the request the node was in a state in which it handles commands, at some moment it made no backup, at some it was not told
    to detach and at some its version was that of the leader. *)
Theorem C82_handling_always : forall version w, begins "HTTP/1.1 200" (handling_commands version w) ->
  (exists k, handles (w k)) /\ (exists k, backing_up (w k) = false) /\ (exists k, detach (w k) = false) /\ (exists k, leader_version (w k) = [] \/ leader_version (w k) = version).
Proof.
  intros version w. unfold handling_commands. destruct (backing_up (w 1)) eqn:B; [no_begin|]. destruct (detach (w 2)) eqn:D; [no_begin|].
  destruct (match leader_version (w 0) with [] => false | _ => negb (bytes_eqb version (leader_version (w 0))) end) eqn:V; [no_begin|]. apply mismatch in V. intros H.
  enough (exists k, handles (w k)) by (split; [assumption|split; [eexists; exact B|split; [eexists; exact D|eexists; exact V]]]). unfold handles.
  destruct (is FOLLOWING (w 3)) eqn:E3; [exists 3; left; apply is_spec; [discriminate|exact E3]|].
  destruct (is LEADING (w 4)) eqn:E4; [exists 4; right; left; apply is_spec; [discriminate|exact E4]|].
  destruct (is STANDINGDOWN (w 5)) eqn:E5; [exists 5; right; right; apply is_spec; [discriminate|exact E5]|]. destruct H as (r & X); discriminate X.
Qed.
Print Assumptions C82_handling_always.
(** A node that handles commands all the time is never reported as one that does not, also if it begins to stand down meanwhile. *)
Theorem C82_never_missed : forall version w, (forall k, fits version (w k) /\ handles (w k) /\ goes_on (w k) (w (S k))) -> begins "HTTP/1.1 200" (handling_commands version w).
Proof.
  intros version w H. unfold handling_commands. destruct (H 0) as ((_ & _ & V) & _). destruct (H 1) as ((-> & _) & _). destruct (H 2) as ((_ & -> & _) & _). rewrite (proj2 (mismatch _ _) V).
  destruct (is FOLLOWING (w 3)) eqn:E3; [eexists; cbn [lit app]; reflexivity|]. destruct (is LEADING (w 4)) eqn:E4; [eexists; cbn [lit app]; reflexivity|].
  destruct (is STANDINGDOWN (w 5)) eqn:E5; [eexists; cbn [lit app]; reflexivity|]. exfalso.
  apply is_false in E3; [|discriminate]. apply is_false in E4; [|discriminate]. apply is_false in E5; [|discriminate].
  destruct (H 3) as (_ & H3 & G3). destruct (H 4) as (_ & H4 & G4). destruct (H 5) as (_ & H5 & _). unfold handles, goes_on in *.
  destruct H3 as [H3|[H3|H3]], G3 as [G3|[_ G3]], G4 as [G4|[_ G4]], H5 as [H5|[H5|H5]]; congruence.
Qed.
Print Assumptions C82_never_missed.

(** As long as nothing changes, Status says whether the node leads, which state it is in and whether it is detached. *)
Theorem C82_status : forall version m w, (forall k, w k = m) -> let c := status version w in
  (tfind (lit "isLeader") c = Some (lit "true") <-> node m = Some LEADING) /\ (tfind (lit "isLeader") c = Some (lit "false") <-> node m <> Some LEADING) /\
  (forall s, node m = Some s -> tfind (lit "state") c = Some (stateName s)) /\ (node m = None -> tfind (lit "state") c = Some (lit "SEARCHING")) /\
  tfind (lit "version") c = Some version /\
  (tfind (lit "isDetached") c = Some (lit "true") <-> detach m = true /\ loop m = false /\ plugins_detached m = true).
Proof.
  intros version m w W c. subst c. unfold status. rewrite !W, !tfind_tput.
  repeat match goal with |- context [kcmp (lit ?a) (lit ?b)] => let v := eval vm_compute in (kcmp (lit a) (lit b)) in change (kcmp (lit a) (lit b)) with v end. cbv iota.
  rewrite <- (is_spec LEADING m) by discriminate. destruct (is LEADING m).
  - split; [split; reflexivity|]. split; [split; [discriminate|intros X; exfalso; apply X; reflexivity]|]. split; [intros s E; unfold getState; rewrite E; reflexivity|].
    split; [intros E; unfold getState; rewrite E; reflexivity|]. split; [reflexivity|]. destruct (detach m), (loop m), (plugins_detached m); cbn [andb negb]; (split; [try discriminate; auto|intros (A & B & C); try discriminate; reflexivity]).
  - split; [split; discriminate|]. split; [split; [discriminate|reflexivity]|]. split; [intros s E; unfold getState; rewrite E; reflexivity|].
    split; [intros E; unfold getState; rewrite E; reflexivity|]. split; [reflexivity|]. destruct (detach m), (loop m), (plugins_detached m); cbn [andb negb]; (split; [try discriminate; auto|intros (A & B & C); try discriminate; reflexivity]).
Qed.
Print Assumptions C82_status.

(** *** What is false *)
Definition at_state (s : state) : moment := Moment (Some s) false false true false [].
Definition changes_at (n : nat) (a b : state) (k : nat) : moment := if Nat.ltb k n then at_state a else at_state b.
(** False: the number and the state in an answer to handlingCommands belong together.  The state is read again for its name, so a node that loses its leader meanwhile answers "HTTP/1.1 200 SEARCHING". *)
Theorem C82_line_refuted : exists w, handling_commands (lit "v1") w = lit "HTTP/1.1 200 SEARCHING".
Proof. exists (changes_at 4 FOLLOWING SEARCHING). reflexivity. Qed.
Print Assumptions C82_line_refuted.
(** False: the number and the state in an answer to isFollower belong together.  A node that begins to follow meanwhile answers that it does not follow and that its state is FOLLOWING. *)
Theorem C82_follower_refuted : exists w, is_follower w = lit "HTTP/1.1 500 Not Following. State=FOLLOWING".
Proof. exists (changes_at 1 SUBSCRIBING FOLLOWING). reflexivity. Qed.
Print Assumptions C82_follower_refuted.
(** False: in the answer to Status, isLeader is true exactly if the state is LEADING.  Both are read apart: a leader that begins to stand down meanwhile says isLeader true and STANDINGDOWN, and a node that
    becomes leader says isLeader false and LEADING. *)
Theorem C82_status_refuted : (exists w, tfind (lit "isLeader") (status (lit "v1") w) = Some (lit "true") /\ tfind (lit "state") (status (lit "v1") w) = Some (lit "STANDINGDOWN")) /\
  (exists w, tfind (lit "isLeader") (status (lit "v1") w) = Some (lit "false") /\ tfind (lit "state") (status (lit "v1") w) = Some (lit "LEADING")).
Proof. split; [exists (changes_at 1 LEADING STANDINGDOWN)|exists (changes_at 1 STANDINGUP LEADING)]; split; reflexivity. Qed.
Print Assumptions C82_status_refuted.

(** *** Cases *)
Example C82_case : (forall k, fits (lit "v1") (changes_at 5 LEADING STANDINGDOWN k) /\ handles (changes_at 5 LEADING STANDINGDOWN k) /\ goes_on (changes_at 5 LEADING STANDINGDOWN k) (changes_at 5 LEADING STANDINGDOWN (S k))) /\
  handling_commands (lit "v1") (changes_at 5 LEADING STANDINGDOWN) = lit "HTTP/1.1 200 STANDINGDOWN".
Proof.
  split; [|reflexivity]. intros k. unfold changes_at, fits, handles, goes_on, at_state. destruct (Nat.ltb_spec k 5), (Nat.ltb_spec (S k) 5); cbn [node backing_up detach leader_version]; repeat split; auto; lia.
Qed.
Example C82_case_other : handling_commands (lit "v2") (fun _ => Moment (Some FOLLOWING) false false true false (lit "v1")) = lit "HTTP/1.1 500 Mismatched version. Version=v2" /\
  handling_commands (lit "v2") (fun _ => Moment None false false true false []) = lit "HTTP/1.1 500 SEARCHING".
Proof. split; reflexivity. Qed.
