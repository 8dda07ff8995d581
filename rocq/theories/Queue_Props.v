(** Properties C01 and C02: the command queue. *)
From Verif Require Import Base Queue_Spec Queue_Model Queue_Proofs.

(** C01.  For every history of calls (any clock values, any times, any equal keys):
    the commands pushed are, as a multiset, exactly those handed out, those still
    queued, and those thrown away by [clear]/[abandonFutureCommands].  So nothing is
    lost or handed out twice. *)
Theorem C01_queue_conserves_commands :
  forall (A : Type) (ops : list (op A)),
    Permutation (pushed ops)
      (concat (snd (q_run q_init ops))              (* handed out *)
       ++ all_discarded q_init ops                  (* thrown away by clear / abandon *)
       ++ contents (fst (q_run q_init ops))).       (* still queued *)
Proof. intros A ops. pose proof (run_perm q_init ops) as H. cbn in H. rewrite app_nil_r in H. exact H. Qed.
Print Assumptions C01_queue_conserves_commands.

(** C01, consequence in terms of identities: if all pushed commands are distinct and
    nothing is cleared or abandoned, no command is handed out twice, and each one is
    either handed out or still queued. *)
Theorem C01_exactly_once :
  forall (A : Type) (ops : list (op A)),
    NoDup (pushed ops) ->
    (forall o, In o ops -> o <> Oclear /\ is_abandon o = false) ->
    NoDup (concat (snd (q_run q_init ops))) /\
    (forall x, In x (pushed ops) <->
       In x (concat (snd (q_run q_init ops))) \/ In x (contents (fst (q_run q_init ops)))).
Proof.
  intros A ops Hnd Hops. pose proof (C01_queue_conserves_commands A ops) as HP.
  assert (Hd : forall q, all_discarded q ops = []).
  { clear HP Hnd. induction ops as [|o ops IH]; intros q; [reflexivity|]. cbn.
    rewrite IH by (intros o' Ho'; apply Hops; right; exact Ho').
    destruct (Hops o (or_introl eq_refl)) as [H1 H2].
    destruct o; cbn in *; try reflexivity; congruence. }
  rewrite Hd in HP. cbn in HP. split.
  - apply (Permutation_NoDup HP) in Hnd. apply NoDup_app_l in Hnd. exact Hnd.
  - intros x. rewrite (Permutation_in' eq_refl HP). apply in_app_iff.
Qed.
Print Assumptions C01_exactly_once.

(** What [abandonFutureCommands] throws away: exactly the commands scheduled at or
    after the limit. *)
Theorem C01_abandon_discards_exactly_future :
  forall (A : Type) (q : queue A) (limit : N) (s t : N) (x : A),
    In (s, (x, t)) (q_queue (q_abandon q limit)) <->
    In (s, (x, t)) (q_queue q) /\ (s < limit)%N.
Proof. intros. cbn. rewrite filter_In. cbn. rewrite N.ltb_lt. reflexivity. Qed.
Print Assumptions C01_abandon_discards_exactly_future.

(** C02.  For every history without [abandonFutureCommands], every output of the queue
    is the one prescribed by the specification over the plain arrival-ordered list of
    pending commands ([Queue_Spec.spec_step]). *)
Theorem C02_queue_refines_priority_list :
  forall (A : Type) (ops : list (op A)),
    forallb (fun o => negb (is_abandon o)) ops = true ->
    exists l, spec_run [] ops (snd (q_run q_init ops)) l.
Proof.
  intros A ops H. destruct (run_refines q_init [] ops Rep_init H) as (l & Hl & _). exists l; exact Hl.
Qed.
Print Assumptions C02_queue_refines_priority_list.

(** C02 with [abandonFutureCommands] allowed: the part that still holds. *)
Theorem C02_queue_order_with_abandon_partial :
  forall (A : Type) (ops : list (op A)), exists l, spec_run_weak [] ops (snd (q_run q_init ops)) l.
Proof.
  intros A ops. destruct (weak_run q_init [] ops eq_refl) as (l & Hl & _). exists l; exact Hl.
Qed.
Print Assumptions C02_queue_order_with_abandon_partial.

(** C02 with [abandonFutureCommands] allowed: gets keep the order up to the choice among equal timeouts, except for at most as
    many as there were commands abandoned since the last [getAll] or [clear]; those keep the weaker order. *)
Theorem C02_queue_order_with_abandon_paid :
  forall (A : Type) (ops : list (op A)), spec_run_paid [] 0 ops (snd (q_run q_init ops)).
Proof. intros A ops. apply (paid_run ops q_init [] []). split; [reflexivity|]. split; [constructor|reflexivity]. Qed.
Print Assumptions C02_queue_order_with_abandon_paid.

(** C02 with [abandonFutureCommands] allowed, full strength, is false: abandoned commands
    leave stale timeout entries behind, and the next get then returns command 2 although
    command 3 has timed out and command 2 has not. *)
Definition abandon_history : list (op N) :=
  [Opush 1 100 50; Oabandon 60; Opush 2 10 200; Opush 3 20 150; Oget 150]%N.

Theorem C02_queue_order_with_abandon_refuted :
  exists ops : list (op N), ~ exists l, spec_run [] ops (snd (q_run q_init ops)) l.
Proof.
  exists abandon_history. unfold abandon_history. intros [l H]. vm_compute in H.
  repeat match goal with
         | H : spec_run _ (_ :: _) _ _ |- _ => inversion H; subst; clear H
         | H : spec_step _ _ _ _ |- _ => inversion H; subst; clear H
         end.
  match goal with H : spec_get _ _ = _ |- _ => vm_compute in H; discriminate end.
Qed.
Print Assumptions C02_queue_order_with_abandon_refuted.

(** The limit computed by [abandonFutureCommands] is undefined behaviour for large
    arguments, and is as documented for every argument the server uses (5000 ms,
    BedrockServer.cpp:_beginShutdown). *)
Theorem C01_abandon_limit_defined :
  forall (now : N) (ms : Z), (0 <= ms <= 2147483)%Z -> (now + 2147483000 < 18446744073709551616)%N ->
    abandon_limit now ms = Some (now + Z.to_N ms * 1000)%N.
Proof.
  intros now ms Hms Hnow. unfold abandon_limit. cbn zeta.
  destruct ((ms * 1000 <? -2147483648) || (2147483647 <? ms * 1000))%Z eqn:E; [lia|].
  f_equal. rewrite Z.mod_small by lia. lia.
Qed.
Print Assumptions C01_abandon_limit_defined.
Theorem C01_abandon_limit_overflow_refuted : exists ms, abandon_limit 0 ms = None.
Proof. exists 2147484%Z. reflexivity. Qed.

(** Non-vacuity: a history with equal scheduled times and equal timeouts, a timed-out
    command overtaking, and two commands left. *)
Definition sample_history : list (op N) :=
  [Opush 1 10 100; Opush 2 10 100; Opush 3 5 300; Opush 4 90 40; Oget 50; Oget 50; Opush 5 10 100; Oget 50]%N.
Example sample_no_abandon : forallb (fun o => negb (is_abandon o)) sample_history = true.
Proof. reflexivity. Qed.
Example sample_outputs : snd (q_run q_init sample_history) = [[]; []; []; []; [4]; [3]; []; [1]]%N
  /\ contents (fst (q_run q_init sample_history)) = [2; 5]%N.
Proof. split; reflexivity. Qed.
Example sample_distinct : NoDup (pushed sample_history)
  /\ forall o, In o sample_history -> o <> Oclear /\ is_abandon o = false.
Proof.
  split; [cbn; repeat constructor; cbn; intuition discriminate|].
  cbn. intros o H. intuition; subst; try discriminate; reflexivity.
Qed.
