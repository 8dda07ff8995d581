(** C86: no command is lost, and none is answered twice, when the queue of commands that block is emptied. *)
From Verif Require Import Base Queue_Spec Queue_Model Queue_Proofs RateLimit_Model Flush_Spec Flush_Model.

Lemma drop_perm l : forall i t, nth_error l i = Some t -> Permutation (flat_map in_hand l) (in_hand t ++ flat_map in_hand (drop i l)).
Proof.
  induction l as [|u l IH]; intros [|i] t E; try discriminate E; cbn [nth_error drop flat_map] in *; [injection E as ->; reflexivity|].
  rewrite (IH i t E), !app_assoc. apply Permutation_app_tail, Permutation_app_comm.
Qed.
Lemma drop_in l : forall i (t : task), In t (drop i l) -> In t l.
Proof. induction l as [|u l IH]; intros [|i] t; cbn [drop]; [tauto|tauto|right; assumption|]. intros [<-|I]; [left; reflexivity|right; exact (IH i t I)]. Qed.


Section props.
Context (scheduled timeout : nat -> N) (identifier name : nat -> bytes).
Notation push := (push scheduled timeout).
Notation step := (step scheduled timeout identifier name).
Notation run := (run scheduled timeout identifier name).

(** The commands that have come in. *)
Definition arrived (es : list event) : list nat := flat_map (fun e => match e with Arrive c => [c] | _ => [] end) es.
(** Where the commands are: in a queue, in the hands of a thread, or answered. *)
Definition everywhere (s : server) : list nat := map fst (answered s) ++ flat_map in_hand (tasks s) ++ contents (main s) ++ contents (blocking s).

Lemma push_perm (q : queue nat) c : Permutation (contents (push q c)) (c :: contents q).
Proof.
  unfold push, Flush_Model.push, contents, q_push. cbn [q_queue]. rewrite (Permutation_map (fun e => fst (snd e)) (mm_insert_perm (scheduled c) (c, timeout c) (q_queue q))). reflexivity.
Qed.
Ltac counts := intros; repeat match goal with H : Permutation _ _ |- _ => rewrite (Permutation_count_occ Nat.eq_dec) in H end;
  apply (Permutation_count_occ Nat.eq_dec); intros z; repeat match goal with H : forall x : nat, count_occ _ _ x = _ |- _ => specialize (H z) end;
  repeat rewrite ?count_occ_app, ?flat_map_app in *; cbn [map fst flat_map in_hand app count_occ] in *;
  repeat rewrite ?count_occ_app in *; cbn [count_occ] in *; repeat match goal with |- context [Nat.eq_dec ?a ?b] => destruct (Nat.eq_dec a b) | H : context [Nat.eq_dec ?a ?b] |- _ => destruct (Nat.eq_dec a b) end; try lia.

Lemma step_everywhere s e : Permutation (everywhere (step s e)) (match e with Arrive c => [c] | _ => [] end ++ everywhere s).
Proof.
  unfold everywhere. destruct e as [c|now|now|i|i now|i|id nm now el| |i|i| |i|i]; cbn [Flush_Model.step].
  - pose proof (push_perm (main s) c). cbn [answered tasks main blocking]. counts.
  - pose proof (dequeue_perm (main s) now) as H. destruct (q_dequeue (main s) now) as [q [c|]]; cbn [snd fst answered tasks main blocking] in *; counts.
  - pose proof (dequeue_perm (blocking s) now) as H. destruct (q_dequeue (blocking s) now) as [q [c|]]; cbn [snd fst answered tasks main blocking] in *; counts.
  - destruct (nth_error (tasks s) i) as [[c|took l|l]|] eqn:E; try reflexivity. apply drop_perm in E. pose proof (push_perm (main s) c). cbn [answered tasks main blocking]. counts.
  - destruct (nth_error (tasks s) i) as [[c|took l|l]|] eqn:E; try reflexivity. destruct (is_blocked (limits s) (identifier c) (name c) now); [reflexivity|].
    apply drop_perm in E. pose proof (push_perm (blocking s) c). cbn [answered tasks main blocking]. counts.
  - destruct (nth_error (tasks s) i) as [[c|took l|l]|] eqn:E; try reflexivity. apply drop_perm in E. cbn [answered tasks main blocking]. counts.
  - reflexivity.
  - cbn [q_getAll answered tasks main blocking]. change (map (fun e => fst (snd e)) (q_queue (blocking s))) with (contents (blocking s)). change (contents (mkQueue [] [])) with (@nil nat). counts.
  - destruct (nth_error (tasks s) i) as [[c|took [|c l]|l]|] eqn:E; try reflexivity. apply drop_perm in E. cbn [answered tasks main blocking]. counts.
  - destruct (nth_error (tasks s) i) as [[c|took [|c l]|l]|] eqn:E; try reflexivity. apply drop_perm in E. cbn [answered tasks main blocking]. counts.
  - cbn [q_getAll answered tasks main blocking]. change (map (fun e => fst (snd e)) (q_queue (blocking s))) with (contents (blocking s)). change (contents (mkQueue [] [])) with (@nil nat). counts.
  - destruct (nth_error (tasks s) i) as [[c|took l|[|c l]]|] eqn:E; try reflexivity. apply drop_perm in E. pose proof (push_perm (main s) c). cbn [answered tasks main blocking]. counts.
  - destruct (nth_error (tasks s) i) as [[c|took l|[|c l]]|] eqn:E; try reflexivity. apply drop_perm in E. cbn [answered tasks main blocking]. counts.
Qed.
Lemma run_everywhere es : forall s, Permutation (everywhere (run es s)) (arrived es ++ everywhere s).
Proof.
  induction es as [|e es IH]; intros s; [reflexivity|]. change (run (e :: es) s) with (run es (step s e)). rewrite IH, (step_everywhere s e).
  change (arrived (e :: es)) with ((match e with Arrive c => [c] | _ => [] end) ++ arrived es). rewrite !app_assoc. apply Permutation_app_tail, Permutation_app_comm.
Qed.
End props.

(** Whatever threads do, and however often the queue is emptied, by ClearBlockingQueue or because the node no longer leads: every
    command that came in is, once, answered, in the hands of a thread or in one of the two queues. *)
Theorem C86_one_place scheduled timeout identifier name es :
  let s := run scheduled timeout identifier name es start in
  Permutation (arrived es) (map fst (answered s) ++ flat_map in_hand (tasks s) ++ contents (main s) ++ contents (blocking s)) /\
  (NoDup (arrived es) -> NoDup (map fst (answered s))).
Proof.
  cbv zeta. pose proof (run_everywhere scheduled timeout identifier name es start) as P. change (everywhere start) with (@nil nat) in P. rewrite app_nil_r in P.
  split; [symmetry; exact P|]. intros N. apply (Permutation_NoDup (Permutation_sym P)) in N. unfold everywhere in N.
  revert N. generalize (map fst (answered (run scheduled timeout identifier name es start))). intros l N. induction l as [|x l IH]; [constructor|].
  inversion N as [|? ? A B]; subst. constructor; [intros I; apply A, in_or_app; left; exact I|exact (IH B)].
Qed.
Print Assumptions C86_one_place.

(** Each command that a ClearBlockingQueue that has ended took from the queue was answered by it with 503, and so were those
    another one has taken and has not yet to answer. *)
Definition told_true (s : server) : Prop :=
  (forall took c, In took (told s) -> In c took -> In (c, Unavailable) (answered s)) /\
  (forall took left, In (Flushing took left) (tasks s) -> exists done, took = done ++ left /\ forall c, In c done -> In (c, Unavailable) (answered s)).
Theorem C86_flushed scheduled timeout identifier name es : let s := run scheduled timeout identifier name es start in
  (forall took c, In took (told s) -> In c took -> In (c, Unavailable) (answered s)) /\
  (forall took left, In (Flushing took left) (tasks s) -> exists done, took = done ++ left /\ forall c, In c done -> In (c, Unavailable) (answered s)).
Proof.
  cbv zeta. change (told_true (run scheduled timeout identifier name es start)).
  assert (K : forall s e, told_true s -> told_true (step scheduled timeout identifier name s e)).
  { intros s e [A B].
    assert (SAME : forall b m l ts an, (forall t, In t ts -> In t (tasks s) \/ (exists c, t = Working c) \/ (exists l, t = Moving l)) -> (forall x, In x (answered s) -> In x an) ->
      told_true (Server b m l ts an (told s))).
    { intros b m l ts an T W. split; cbn [told tasks answered]; [intros took c I J; apply W, (A took c I J)|]. intros took left I.
      destruct (T _ I) as [J|[(c & X)|(k & X)]]; try discriminate X. destruct (B _ _ J) as (d & D1 & D2). exists d. split; [exact D1|]. intros c C. apply W, D2, C. }
    destruct e as [c|now|now|i|i now|i|id nm now el| |i|i| |i|i]; cbn [step].
    - apply SAME; auto.
    - destruct (q_dequeue (main s) now) as [q [c|]]; apply SAME; auto. intros t [<-|I]; [right; left; exists c; reflexivity|left; exact I].
    - destruct (q_dequeue (blocking s) now) as [q [c|]]; apply SAME; auto. intros t [<-|I]; [right; left; exists c; reflexivity|left; exact I].
    - destruct (nth_error (tasks s) i) as [[c|took l|l]|] eqn:E; try (split; assumption). apply SAME; [intros t I; left; exact (drop_in _ _ _ I)|auto].
    - destruct (nth_error (tasks s) i) as [[c|took l|l]|] eqn:E; try (split; assumption). destruct (is_blocked (limits s) (identifier c) (name c) now); [split; assumption|].
      apply SAME; [intros t I; left; exact (drop_in _ _ _ I)|auto].
    - destruct (nth_error (tasks s) i) as [[c|took l|l]|] eqn:E; try (split; assumption). apply SAME; [intros t I; left; exact (drop_in _ _ _ I)|intros x I; right; exact I].
    - apply SAME; auto.
    - cbn [q_getAll]. split; cbn [told tasks answered]; [exact A|]. intros took left [X|I]; [|exact (B _ _ I)]. injection X as <- <-. exists []. split; [reflexivity|]. intros c [].
    - destruct (nth_error (tasks s) i) as [[c|took [|c l]|l]|] eqn:E; try (split; assumption). split; cbn [told tasks answered].
      + intros k z I J. right. exact (A k z I J).
      + apply nth_error_In in E. intros k left [X|I].
        * injection X as <- <-. destruct (B _ _ E) as (d & -> & D). exists (d ++ [c]). rewrite <- app_assoc. split; [reflexivity|].
          intros z Z. apply in_app_or in Z as [Z|[<-|[]]]; [right; exact (D z Z)|left; reflexivity].
        * destruct (B _ _ (drop_in _ _ _ I)) as (d & D1 & D2). exists d. split; [exact D1|]. intros z Z. right. exact (D2 z Z).
    - destruct (nth_error (tasks s) i) as [[c|took [|c l]|l]|] eqn:E; try (split; assumption). apply nth_error_In in E. split; cbn [told tasks answered].
      + intros k z [<-|I] J; [|exact (A k z I J)]. destruct (B _ _ E) as (d & -> & D). rewrite app_nil_r in J. exact (D z J).
      + intros k left I. exact (B _ _ (drop_in _ _ _ I)).
    - cbn [q_getAll]. apply SAME; [|auto]. intros t [<-|I]; [right; right; eexists; reflexivity|left; exact I].
    - destruct (nth_error (tasks s) i) as [[c|took l|[|c l]]|] eqn:E; try (split; assumption). apply SAME; [|auto]. intros t [<-|I]; [right; right; eexists; reflexivity|left; exact (drop_in _ _ _ I)].
    - destruct (nth_error (tasks s) i) as [[c|took l|[|c l]]|] eqn:E; try (split; assumption). apply SAME; [intros t I; left; exact (drop_in _ _ _ I)|auto]. }
  assert (R : forall es s, told_true s -> told_true (run scheduled timeout identifier name es s)).
  { clear es. induction es as [|e es IH]; intros s H; [exact H|]. apply IH, K, H. }
  apply R. split; [intros took c []|intros took left []].
Qed.
Print Assumptions C86_flushed.

(** A ClearBlockingQueue that nobody disturbs answers every command of the queue, and no other, in their order, with 503; it
    leaves the queue empty, the main queue as it was and nobody blocked, and tells their number. *)
Theorem C86_clear scheduled timeout identifier name s : let cs := contents (blocking s) in
  let s' := run scheduled timeout identifier name (Flush :: repeat (FlushOne 0) (length cs) ++ [FlushEnd 0]) s in
  contents (blocking s') = [] /\ main s' = main s /\ tasks s' = tasks s /\ answered s' = rev (map (fun c => (c, Unavailable)) cs) ++ answered s /\
  told s' = cs :: told s /\ forall id nm now, is_blocked (limits s') id nm now = false.
Proof.
  cbv zeta. unfold run. cbn [fold_left step q_getAll]. change (map (fun e => fst (snd e)) (q_queue (blocking s))) with (contents (blocking s)).
  rewrite fold_left_app. set (cs := contents (blocking s)).
  assert (L : forall l a, fold_left (step scheduled timeout identifier name) (repeat (FlushOne 0) (length l)) (Server (mkQueue [] []) (main s) (limits s) (Flushing cs l :: tasks s) a (told s)) =
    Server (mkQueue [] []) (main s) (limits s) (Flushing cs [] :: tasks s) (rev (map (fun c => (c, Unavailable)) l) ++ a) (told s)).
  { induction l as [|c l IH]; intros a; [reflexivity|]. cbn [length repeat fold_left step nth_error tasks blocking main limits answered told drop]. rewrite IH. cbn [map rev]. rewrite <- app_assoc. reflexivity. }
  rewrite L. cbn [fold_left step nth_error tasks blocking main limits answered told drop]. repeat split.
  intros id nm now. unfold is_blocked, is_blocked1. cbn [clear_limits fst l_ids l_cmds]. destruct id, nm; reflexivity.
Qed.
Print Assumptions C86_clear.

(** When a node stops leading and nobody disturbs, every command of the queue is moved to the main queue and none is answered; the
    queue is empty and nobody blocked. *)
Theorem C86_moved scheduled timeout identifier name s : let cs := contents (blocking s) in
  let s' := run scheduled timeout identifier name (Move :: repeat (MoveOne 0) (length cs) ++ [MoveEnd 0]) s in
  contents (blocking s') = [] /\ Permutation (contents (main s')) (cs ++ contents (main s)) /\ tasks s' = tasks s /\ answered s' = answered s /\
  told s' = told s /\ forall id nm now, is_blocked (limits s') id nm now = false.
Proof.
  cbv zeta. unfold run. cbn [fold_left step q_getAll]. change (map (fun e => fst (snd e)) (q_queue (blocking s))) with (contents (blocking s)).
  rewrite fold_left_app. set (cs := contents (blocking s)).
  assert (L : forall l m, exists m', fold_left (step scheduled timeout identifier name) (repeat (MoveOne 0) (length l)) (Server (mkQueue [] []) m (limits s) (Moving l :: tasks s) (answered s) (told s)) =
    Server (mkQueue [] []) m' (limits s) (Moving [] :: tasks s) (answered s) (told s) /\ Permutation (contents m') (l ++ contents m)).
  { induction l as [|c l IH]; intros m; [exists m; split; reflexivity|]. cbn [length repeat fold_left step nth_error tasks blocking main limits answered told drop].
    destruct (IH (push scheduled timeout m c)) as (m' & E & P). exists m'. split; [exact E|]. rewrite P, (push_perm scheduled timeout m c). symmetry. apply Permutation_middle. }
  destruct (L cs (main s)) as (m' & E & P). rewrite E. cbn [fold_left step nth_error tasks blocking main limits answered told drop]. repeat split; [exact P|].
  intros id nm now. unfold is_blocked, is_blocked1. cbn [clear_limits fst l_ids l_cmds]. destruct id, nm; reflexivity.
Qed.
Print Assumptions C86_moved.

Example C86_ex : let s := run (fun _ => 0%N) (fun _ => 100%N) (fun _ => lit "u") (fun _ => lit "Write")
    [Arrive 1; Arrive 2; Arrive 3; GetMain 5; GetMain 5; PutBlocking 0 5; PutBlocking 0 5; Flush; FlushOne 0; GetMain 6; PutBlocking 0 6; FlushOne 0; FlushEnd 0] start in
  answered s = [(1, Unavailable); (2, Unavailable)] /\ contents (blocking s) = [3] /\ tasks s = [] /\ told s = [[2; 1]].
Proof. vm_compute. repeat split. Qed.
Example C86_ex_nodup : NoDup (arrived [Arrive 1; Arrive 2; Flush; Arrive 3]).
Proof. cbn. repeat (constructor; [cbn; intuition discriminate|]). constructor. Qed.

(** False: a ClearBlockingQueue that has ended leaves the queue empty. A command that another thread puts into the queue while those
    that were there are being answered stays in it. *)
Theorem C86_late_refuted : let s := run (fun _ => 0%N) (fun _ => 100%N) (fun _ => lit "u") (fun _ => lit "Write")
    [Arrive 1; Arrive 2; GetMain 5; GetMain 5; PutBlocking 0 5; Flush; PutBlocking 1 5; FlushOne 0; FlushEnd 0] start in
  told s = [[2]] /\ contents (blocking s) = [1].
Proof. vm_compute. split; reflexivity. Qed.
Print Assumptions C86_late_refuted.

(** False: when a node has stopped leading, its commands that block are in the main queue. A command that a thread took before, and
    puts into the queue of those that block after the others were moved, stays there, though the node does not lead. *)
Theorem C86_left_behind_refuted : let s := run (fun _ => 0%N) (fun _ => 100%N) (fun _ => lit "u") (fun _ => lit "Write")
    [Arrive 1; GetMain 5; Move; MoveEnd 0; PutBlocking 0 5] start in
  contents (blocking s) = [1] /\ contents (main s) = [].
Proof. vm_compute. split; reflexivity. Qed.
Print Assumptions C86_left_behind_refuted.
