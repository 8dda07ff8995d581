(** C81: what the control commands that change settings do. *)
From Verif Require Import Base Dec Text_Spec Text_Model Text_Proofs Table Timeout_Model Query_Model Query_Props Attr_Model Forward_Props Settings_Spec Settings_Model.
Local Open Scope Z_scope.

Ltac lits := repeat match goal with
  | |- context [ieqb (lit ?a) (lit ?b)] => let v := eval vm_compute in (ieqb (lit a) (lit b)) in change (ieqb (lit a) (lit b)) with v
  | |- context [kcmp (lit ?a) (lit ?b)] => let v := eval vm_compute in (kcmp (lit a) (lit b)) in change (kcmp (lit a) (lit b)) with v
  end; cbv iota.
Lemma ieqb_l m x y : ieqb m x = true -> ieqb m y = ieqb x y.
Proof. intros E. apply kcmp_eq in E. apply eq_true_iff_eq. rewrite <- !kcmp_eq, (kcmp_eq_l _ _ _ E). reflexivity. Qed.
Lemma control_as m x t s : ieqb m x = true -> control m t s = control x t s.
Proof. intros E. unfold control. rewrite !(ieqb_l m x _ E). reflexivity. Qed.
Lemma says_calc k t n : says k t n -> - 2 ^ 63 <= n < 2 ^ 63 -> isSet (lit k) t = true /\ calc64 (lit k) t = n.
Proof. intros E L. unfold says in E. unfold isSet, calc64. rewrite E. split; [reflexivity|apply SToInt64_decZ, L]. Qed.
Lemma silent_calc k t : silent k t -> isSet (lit k) t = false.
Proof. intros E. unfold silent in E. unfold isSet. rewrite E. reflexivity. Qed.
Lemma yes_test k t : yes k t -> test (lit k) t = true.
Proof. intros [E|E]; unfold test, header, calc, calc64; rewrite !E; reflexivity. Qed.
Lemma no_test k t : no k t -> test (lit k) t = false.
Proof. intros [E|[E|E]]; unfold test, header, calc, calc64; rewrite !E; reflexivity. Qed.
Lemma i32_small n : 0 <= n < 2 ^ 31 -> i32 n = n.
Proof. intros L. unfold i32. rewrite Z.mod_small by lia. destruct (Z.ltb_spec n (2 ^ 31)); lia. Qed.
Lemma i32_range n : - 2 ^ 31 <= i32 n < 2 ^ 31.
Proof. unfold i32. pose proof (Z.mod_pos_bound n (2 ^ 32) ltac:(lia)). destruct (Z.ltb_spec (n mod 2 ^ 32) (2 ^ 31)); lia. Qed.

(** SetConflictParams with a number that fits sets it, tells the old one and leaves the rest alone; a negative number does nothing. *)
Theorem C81_retries : forall m t s n, ieqb m (lit "SetConflictParams") = true -> says "MaxConflictRetries" t n -> - 2 ^ 63 <= n < 2 ^ 31 ->
  let '(line, r, s') := control m t s in
  line = lit "200 OK" /\ told "previousMaxConflictRetries" r (if n <? 0 then None else Some (retries s)) /\
  s' = Settings (if n <? 0 then retries s else n) (page_locks s) (window s) (identifier_limit s) (command_limit s) (block_time s) (blocks s) (sockets s) (tracing s).
Proof.
  intros m t s n E S' L. rewrite (control_as _ _ _ _ E). unfold control. lits. destruct (says_calc _ _ _ S' ltac:(lia)) as (_ & ->).
  destruct (Z.ltb_spec n 0) as [N|N].
  - rewrite (proj2 (Z.leb_gt 0 n) N). split; [reflexivity|]. split; [reflexivity|]. destruct s; reflexivity.
  - rewrite (proj2 (Z.leb_le 0 n) N). rewrite i32_small by lia. split; [reflexivity|]. split; reflexivity.
Qed.
Print Assumptions C81_retries.

(** SetBlockingQueueTimeRateLimit sets the limits that are named, in milliseconds, tells what they were, and leaves the others alone. *)
Lemma set_ms_spec key out t n old r : asks_ms key t n -> set_ms key out t old r = (new_us n old, match n with Some _ => tput (lit out) (decZ (old / 1000)) r | None => r end).
Proof.
  intros A. unfold set_ms. destruct n as [n|]; cbn [asks_ms new_us] in *.
  - destruct A as (A & L). assert (B : 2 ^ 64 / 1000 = 18446744073709551) by reflexivity. rewrite B in L.
    destruct (says_calc _ _ _ A ltac:(lia)) as (-> & ->). rewrite (proj2 (Z.leb_le 0 n)) by lia. unfold u64. rewrite (Z.mod_small n) by lia. rewrite Z.mod_small by lia. reflexivity.
  - rewrite (silent_calc _ _ A). reflexivity.
Qed.
Theorem C81_limits : forall m t s w i c b, ieqb m (lit "SetBlockingQueueTimeRateLimit") = true ->
  asks_ms "windowMS" t w -> asks_ms "identifierThresholdMS" t i -> asks_ms "commandThresholdMS" t c -> asks_ms "blockDurationMS" t b ->
  let '(line, r, s') := control m t s in
  line = lit "200 OK" /\
  told "previousBlockingQueueWindowMS" r (old_ms w (window s)) /\ told "previousBlockingQueueIdentifierThresholdMS" r (old_ms i (identifier_limit s)) /\
  told "previousBlockingQueueCommandThresholdMS" r (old_ms c (command_limit s)) /\ told "previousBlockingQueueBlockDurationMS" r (old_ms b (block_time s)) /\
  window s' = new_us w (window s) /\ identifier_limit s' = new_us i (identifier_limit s) /\ command_limit s' = new_us c (command_limit s) /\ block_time s' = new_us b (block_time s) /\
  (yes "ClearBlocks" t -> blocks s' = []) /\ (no "ClearBlocks" t -> blocks s' = blocks s) /\
  retries s' = retries s /\ page_locks s' = page_locks s /\ sockets s' = sockets s /\ tracing s' = tracing s.
Proof.
  intros m t s w i c b E W I C B. rewrite (control_as _ _ _ _ E). unfold control. lits.
  rewrite (set_ms_spec _ _ _ _ _ _ W), (set_ms_spec _ _ _ _ _ _ I), (set_ms_spec _ _ _ _ _ _ C), (set_ms_spec _ _ _ _ _ _ B).
  cbn [window identifier_limit command_limit block_time blocks retries page_locks sockets tracing].
  split; [reflexivity|]. unfold told.
  split; [destruct w, i, c, b; rewrite ?tfind_tput; lits; reflexivity|]. split; [destruct w, i, c, b; rewrite ?tfind_tput; lits; reflexivity|].
  split; [destruct w, i, c, b; rewrite ?tfind_tput; lits; reflexivity|]. split; [destruct w, i, c, b; rewrite ?tfind_tput; lits; reflexivity|].
  repeat (split; [reflexivity|]). split; [intros Y; rewrite (yes_test _ _ Y); reflexivity|]. split; [intros Y; rewrite (no_test _ _ Y); reflexivity|]. repeat split.
Qed.
Print Assumptions C81_limits.
(** So the next such command tells in milliseconds what this one was given. *)
Theorem C81_told_back : forall n old, match n with Some n => old_ms (Some n) (new_us (Some n) old) = Some n | None => True end.
Proof. intros [n|] old; [|exact I]. cbn [new_us old_ms]. rewrite Z.div_mul by lia. reflexivity. Qed.
Print Assumptions C81_told_back.

(** SetMaxSocketThreads sets any number but 0.  With 0, or with no number, it does nothing and says so. *)
Theorem C81_sockets : forall m t s, ieqb m (lit "SetMaxSocketThreads") = true ->
  (forall n, 0 < n < 2 ^ 64 -> says "socketThreadsCount" t n ->
     control m t s = ((lit "200 OK", []), Settings (retries s) (page_locks s) (window s) (identifier_limit s) (command_limit s) (block_time s) (blocks s) n (tracing s))) /\
  (says "socketThreadsCount" t 0 \/ silent "socketThreadsCount" t -> control m t s = ((lit "401 Don't Use Zero", []), s)).
Proof.
  intros m t s E. rewrite (control_as _ _ _ _ E). unfold control. lits. unfold calcU64. split.
  - intros n L S'. unfold says in S'. rewrite S'. replace (decZ n) with (dec (Z.to_N n)) by (unfold decZ; destruct n; [lia|reflexivity|lia]).
    rewrite SToUInt64_dec by lia. rewrite Z2N.id by lia. rewrite (proj2 (Z.eqb_neq n 0)) by lia. reflexivity.
  - intros [S'|S']; unfold says, silent in S'; rewrite S'; reflexivity.
Qed.
Print Assumptions C81_sockets.

(** EnableSQLTracing and SetConflictPageLocks *)
Theorem C81_tracing : forall m t s, ieqb m (lit "EnableSQLTracing") = true ->
  let '(line, r, s') := control m t s in
  line = lit "200 OK" /\ tfind (lit "oldValue") r = Some (if tracing s then lit "true" else lit "false") /\
  (silent "enable" t -> s' = s /\ tfind (lit "newValue") r = None) /\
  (yes "enable" t -> tracing s' = true /\ tfind (lit "newValue") r = Some (lit "true")) /\
  (no "enable" t -> ~ silent "enable" t -> tracing s' = false /\ tfind (lit "newValue") r = Some (lit "false")) /\
  s' = Settings (retries s) (page_locks s) (window s) (identifier_limit s) (command_limit s) (block_time s) (blocks s) (sockets s) (tracing s').
Proof.
  intros m t s E. rewrite (control_as _ _ _ _ E). unfold control. lits. destruct (isSet (lit "enable") t) eqn:I; cbn [tracing]; (split; [reflexivity|]).
  - split; [rewrite !tfind_tput; lits; reflexivity|]. split; [intros S'; apply silent_calc in S'; congruence|].
    split; [intros Y; rewrite (yes_test _ _ Y), tfind_tput; lits; split; reflexivity|]. split; [|reflexivity]. intros Y _. rewrite (no_test _ _ Y), tfind_tput. lits. split; reflexivity.
  - unfold isSet in I. destruct (tfind (lit "enable") t) eqn:F; [discriminate|]. split; [rewrite tfind_tput; lits; reflexivity|]. split; [intros _; split; reflexivity|].
    split; [intros [X|X]; congruence|]. split; [intros _ X; exfalso; apply X; exact F|destruct s; reflexivity].
Qed.
Print Assumptions C81_tracing.
Theorem C81_page_locks : forall m t s, ieqb m (lit "SetConflictPageLocks") = true ->
  let '(line, r, s') := control m t s in
  line = lit "200 OK" /\ (yes "enable" t -> page_locks s' = true) /\ (no "enable" t -> page_locks s' = false) /\
  s' = Settings (retries s) (page_locks s') (window s) (identifier_limit s) (command_limit s) (block_time s) (blocks s) (sockets s) (tracing s).
Proof.
  intros m t s E. rewrite (control_as _ _ _ _ E). unfold control. lits. cbn [page_locks]. split; [reflexivity|]. split; [apply yes_test|]. split; [apply no_test|reflexivity].
Qed.
Print Assumptions C81_page_locks.

(** Whatever the request is: a setting is changed only by the command for it, and the number of threads for sockets never becomes 0. *)
Theorem C81_only : forall m t s, let s' := snd (control m t s) in
  (retries s' <> retries s -> ieqb m (lit "SetConflictParams") = true) /\
  (page_locks s' <> page_locks s -> ieqb m (lit "SetConflictPageLocks") = true) /\
  (window s' <> window s \/ identifier_limit s' <> identifier_limit s \/ command_limit s' <> command_limit s \/ block_time s' <> block_time s \/ blocks s' <> blocks s ->
     ieqb m (lit "SetBlockingQueueTimeRateLimit") = true) /\
  (sockets s' <> sockets s -> ieqb m (lit "SetMaxSocketThreads") = true) /\
  (tracing s' <> tracing s -> ieqb m (lit "EnableSQLTracing") = true) /\
  (0 < sockets s -> 0 < sockets s').
Proof.
  intros m t s s'. subst s'. unfold control.
  destruct (ieqb m (lit "EnableSQLTracing")); [destruct (isSet (lit "enable") t); cbn [snd retries page_locks window identifier_limit command_limit block_time blocks sockets tracing]; tauto|].
  destruct (ieqb m (lit "SetConflictParams")); [destruct (0 <=? calc64 (lit "MaxConflictRetries") t); cbn [snd retries page_locks window identifier_limit command_limit block_time blocks sockets tracing]; tauto|].
  destruct (ieqb m (lit "SetConflictPageLocks")); [cbn [snd retries page_locks window identifier_limit command_limit block_time blocks sockets tracing]; tauto|].
  destruct (ieqb m (lit "SetBlockingQueueTimeRateLimit")).
  { destruct (set_ms _ _ t (window s) []) as [w r1]. destruct (set_ms _ _ t (identifier_limit s) r1) as [i r2]. destruct (set_ms _ _ t (command_limit s) r2) as [c r3]. destruct (set_ms _ _ t (block_time s) r3) as [b r4].
    cbn [snd retries page_locks window identifier_limit command_limit block_time blocks sockets tracing]. tauto. }
  destruct (ieqb m (lit "SetMaxSocketThreads")); [|cbn [snd]; tauto]. destruct (Z.eqb_spec (Z.of_N (calcU64 (lit "socketThreadsCount") t)) 0) as [Z0|Z0];
    cbn [snd retries page_locks window identifier_limit command_limit block_time blocks sockets tracing]; [tauto|]. assert (0 < Z.of_N (calcU64 (lit "socketThreadsCount") t)) by lia. tauto.
Qed.
Print Assumptions C81_only.

(** SetPriority with a number that an int holds is accepted exactly if it is not 1, no peer that is logged in has it (unless it is 0), and, if it makes a full
    node a permafollower, at least half of the cluster are other full nodes.  Then the node is configured with it (and shows it at once, unless it is standing down or waiting) and the answer tells this number and the old one;
    else nothing changes. *)
Definition acceptable (p : Z) (n : node) : Prop :=
  0 <= p /\ p <> 1 /\ (0 < p -> forall x, In x (peers n) -> logged_in x = true -> peer_priority x <> p) /\
  (p = 0 -> 0 < priority n -> Z.of_nat (length (peers n)) + 1 <= 2 * Z.of_nat (length (filter (fun x => negb (permafollower x)) (peers n)))).
Lemma setPriority_spec p n : match setPriority p n with
  | (inl e, n') => ~ acceptable p n /\ n' = n /\ e <> OK
  | (inr old, n') => acceptable p n /\ old = configured n /\ configured n' = p /\ peers n' = peers n /\
      priority n' = (if (configured n =? p) || (priority n =? -1) || (priority n =? 1) then priority n else p) end.
Proof.
  unfold setPriority, acceptable. destruct (Z.ltb_spec p 0) as [A|A]; cbn [orb]; [repeat split; [lia|discriminate]|].
  destruct (Z.eqb_spec p 1) as [B|B]; [repeat split; [lia|discriminate]|].
  destruct (List.find _ (peers n)) as [x|] eqn:F.
  - apply find_some in F. destruct F as (I & F). apply andb_true_iff in F. destruct F as (F & G). apply andb_true_iff in F. destruct F as (F & P). apply Z.eqb_eq in G. apply Z.ltb_lt in P.
    split; [intros (_ & _ & X & _); exact (X P x I F G)|]. split; [reflexivity|discriminate].
  - assert (U : 0 < p -> forall x, In x (peers n) -> logged_in x = true -> peer_priority x <> p).
    { intros P x I L E. pose proof (find_none _ _ F x I) as X. cbv beta in X. rewrite L, (proj2 (Z.ltb_lt 0 p) P), (proj2 (Z.eqb_eq _ _) E) in X. discriminate. }
    set (full := Z.of_nat (length (filter (fun x => negb (permafollower x)) (peers n)))). set (k := Z.of_nat (length (peers n))).
    destruct ((p =? 0) && (0 <? priority n) && (full <? (k + 1 + 1) / 2)) eqn:Q.
    + apply andb_true_iff in Q. destruct Q as (Q & R). apply andb_true_iff in Q. destruct Q as (Q & P). apply Z.eqb_eq in Q. apply Z.ltb_lt in P. apply Z.ltb_lt in R.
      split; [|split; [reflexivity|discriminate]]. intros (_ & _ & _ & X). specialize (X Q P). pose proof (Z.div_mod (k + 1 + 1) 2 ltac:(lia)). pose proof (Z.mod_pos_bound (k + 1 + 1) 2 ltac:(lia)). lia.
    + assert (V : p = 0 -> 0 < priority n -> k + 1 <= 2 * full).
      { intros -> P. rewrite Z.eqb_refl, (proj2 (Z.ltb_lt _ _) P) in Q. cbn [andb] in Q. apply Z.ltb_ge in Q. pose proof (Z.div_mod (k + 1 + 1) 2 ltac:(lia)). pose proof (Z.mod_pos_bound (k + 1 + 1) 2 ltac:(lia)). lia. }
      destruct (Z.eqb_spec (configured n) p) as [C|C]; cbn [configured peers priority orb]; repeat split; auto; lia.
Qed.
Theorem C81_priority : forall t n p, says "priority" t p -> - 2 ^ 63 <= p < 2 ^ 31 ->
  exists line r n', control_priority t (Some n) = ((line, r), Some n') /\
  (line = lit "200 OK" <-> acceptable p n) /\
  (acceptable p n -> configured n' = p /\ peers n' = peers n /\
     (configured n <> p -> priority n <> -1 -> priority n <> 1 -> priority n' = p) /\ (configured n = p \/ priority n = -1 \/ priority n = 1 -> priority n' = priority n) /\ told "newPriority" r (Some p) /\ told "oldPriority" r (Some (configured n))) /\
  (~ acceptable p n -> n' = n).
Proof.
  intros t n p S' L. unfold control_priority. destruct (says_calc _ _ _ S' ltac:(lia)) as (-> & ->). cbn [negb].
  destruct ((p <? 0) || (p =? 1)) eqn:B.
  - assert (N : ~ acceptable p n) by (intros (X & Y & _); apply orb_true_iff in B; destruct B as [B|B]; [apply Z.ltb_lt in B|apply Z.eqb_eq in B]; lia).
    eexists _, _, _. split; [reflexivity|]. split; [split; [discriminate|contradiction]|]. split; [contradiction|reflexivity].
  - apply orb_false_iff in B. destruct B as (B & _). apply Z.ltb_ge in B. rewrite i32_small by lia. pose proof (setPriority_spec p n) as X. destruct (setPriority p n) as [[e|old] n'].
    + destruct X as (N & -> & E). eexists _, _, _. split; [reflexivity|]. split; [split; [contradiction|contradiction]|]. split; [contradiction|reflexivity].
    + destruct X as (A & -> & C & D & F). eexists _, _, _. split; [reflexivity|]. split; [split; auto|]. split; [|contradiction]. intros _. split; [exact C|]. split; [exact D|].
      split; [intros X Y W; rewrite F, (proj2 (Z.eqb_neq _ _) X), (proj2 (Z.eqb_neq _ _) Y), (proj2 (Z.eqb_neq _ _) W); reflexivity|].
      split; [intros [X|[X|X]]; rewrite F, (proj2 (Z.eqb_eq _ _) X), ?orb_true_r; reflexivity|].
      unfold told. rewrite !tfind_tput. lits. split; reflexivity.
Qed.
Print Assumptions C81_priority.
(** Whatever is written there: the node is only ever configured with a priority that is acceptable, and only when it says "200 OK". *)
Theorem C81_priority_any : forall t n line r n', control_priority t (Some n) = ((line, r), n') ->
  exists x, n' = Some x /\ (x = n \/ line = lit "200 OK" /\ acceptable (configured x) n /\ - 2 ^ 31 <= configured x < 2 ^ 31).
Proof.
  intros t n line r n' E. unfold control_priority in E. destruct (isSet (lit "priority") t); cbn [negb] in E; [|injection E as <- <- <-; eauto].
  destruct ((calc64 (lit "priority") t <? 0) || (calc64 (lit "priority") t =? 1)); [injection E as <- <- <-; eauto|]. pose proof (setPriority_spec (i32 (calc64 (lit "priority") t)) n) as X.
  pose proof (i32_range (calc64 (lit "priority") t)) as R. destruct (setPriority _ n) as [[e|old] x]; injection E as <- <- <-; exists x; (split; [reflexivity|]).
  - left. apply X.
  - destruct X as (A & _ & C & _). right. rewrite C. auto.
Qed.
Print Assumptions C81_priority_any.

(** GetCommitHash gives the hash of exactly the commit that is asked for. *)
Theorem C81_hash : forall t f n, (0 < n < 2 ^ 64)%N -> says "commitCount" t (Z.of_N n) ->
  (forall h, f n = Some h -> exists r, control_hash t (Some f) = (lit "200 OK", r) /\ tfind (lit "hash") r = Some h /\ told "commitCount" r (Some (Z.of_N n))) /\
  (f n = None -> control_hash t (Some f) = (lit "404 Commit not found", [])).
Proof.
  intros t f n L S'. assert (D : decZ (Z.of_N n) = dec n) by (unfold decZ; destruct n; [lia|reflexivity]). unfold control_hash, isSet, calcU64. unfold says in S'. rewrite S', D.
  rewrite SToUInt64_dec by apply L. cbn [negb]. rewrite (proj2 (N.eqb_neq n 0)) by lia. split.
  - intros h ->. eexists. split; [reflexivity|]. unfold told. rewrite D, !tfind_tput. lits. split; reflexivity.
  - intros ->. reflexivity.
Qed.
Print Assumptions C81_hash.

(** *** What is false *)
(** False: a SetConflictParams that names no number changes nothing.  It sets the number of retries to 0, which makes commands that conflict wait between tries instead of going to the blocking queue. *)
Theorem C81_no_number_refuted : forall t s, silent "MaxConflictRetries" t -> retries (snd (control (lit "SetConflictParams") t s)) = 0.
Proof. intros t s E. unfold control. lits. unfold calc64. unfold silent in E. rewrite E. reflexivity. Qed.
Print Assumptions C81_no_number_refuted.
(** False: the number of retries is the one that was asked for, and never negative.  It is kept in 32 bits: 2147483648 becomes a negative number and 4294967296 becomes 0. *)
Theorem C81_retries_refuted : forall t s,
  (says "MaxConflictRetries" t 2147483648 -> retries (snd (control (lit "SetConflictParams") t s)) = -2147483648) /\
  (says "MaxConflictRetries" t 4294967296 -> retries (snd (control (lit "SetConflictParams") t s)) = 0).
Proof. intros t s. split; intros E; unfold control; lits; destruct (says_calc _ _ _ E ltac:(lia)) as (_ & ->); reflexivity. Qed.
Print Assumptions C81_retries_refuted.
(** False: a limit of the blocking queue is at least what was asked for.  The milliseconds times 1000 wrap: a window of 18446744073709552 milliseconds becomes one of 384 microseconds,
    and the next such command tells that it was 0. *)
Theorem C81_limits_refuted : forall t s, says "windowMS" t 18446744073709552 -> let s' := snd (control (lit "SetBlockingQueueTimeRateLimit") t s) in window s' = 384 /\ window s' / 1000 = 0.
Proof.
  intros t s E. cbv zeta. enough (X : window (snd (control (lit "SetBlockingQueueTimeRateLimit") t s)) = 384) by (rewrite X; split; reflexivity).
  unfold control. lits. unfold set_ms at 1. destruct (says_calc _ _ _ E ltac:(lia)) as (-> & ->). change (0 <=? 18446744073709552) with true. cbv iota.
  destruct (set_ms _ _ t (identifier_limit s) _) as [i r2]. destruct (set_ms _ _ t (command_limit s) r2) as [c r3]. destruct (set_ms _ _ t (block_time s) r3) as [b r4]. cbn [snd window].
  reflexivity.
Qed.
Print Assumptions C81_limits_refuted.
(** False: a negative number of threads for sockets is refused.  -1 becomes 18446744073709551615, that is no limit. *)
Theorem C81_sockets_refuted : forall t s, says "socketThreadsCount" t (-1) ->
  fst (fst (control (lit "SetMaxSocketThreads") t s)) = lit "200 OK" /\ sockets (snd (control (lit "SetMaxSocketThreads") t s)) = 18446744073709551615.
Proof. intros t s E. unfold control. lits. unfold calcU64. unfold says in E. rewrite E. split; reflexivity. Qed.
Print Assumptions C81_sockets_refuted.
(** False: after "200 OK" the node has the priority that the answer names.  The number is cut to 32 bits: with 4294967301 the answer says
    that the new priority is 4294967301, but it is 5. *)
Theorem C81_priority_refuted : exists t n r n', says "priority" t 4294967301 /\ control_priority t (Some n) = ((lit "200 OK", r), Some n') /\
  told "newPriority" r (Some 4294967301) /\ configured n' = 5 /\ priority n' = 5.
Proof.
  exists [(lit "priority", lit "4294967301")], (Node 200 200 [Peer (lit "b") 100 false true]), [(lit "newPriority", lit "4294967301"); (lit "oldPriority", lit "200")], (Node 5 5 [Peer (lit "b") 100 false true]).
  repeat split.
Qed.
Print Assumptions C81_priority_refuted.

(** *** Cases *)
Definition example : settings := Settings 3 false 60000000 5000000 10000000 30000000 [lit "u1"] 1000 false.
Example C81_case_retries : says "MaxConflictRetries" [(lit "MaxConflictRetries", lit "7")] 7 /\
  control (lit "setconflictparams") [(lit "MaxConflictRetries", lit "7")] example =
  ((lit "200 OK", [(lit "previousMaxConflictRetries", lit "3")]), Settings 7 false 60000000 5000000 10000000 30000000 [lit "u1"] 1000 false).
Proof. split; reflexivity. Qed.
Definition limits : stable := [(lit "ClearBlocks", lit "true"); (lit "commandThresholdMS", lit "20"); (lit "windowMS", lit "5")].
Example C81_case_limits : (asks_ms "windowMS" limits (Some 5) /\ asks_ms "identifierThresholdMS" limits None /\ asks_ms "commandThresholdMS" limits (Some 20) /\ asks_ms "blockDurationMS" limits None /\ yes "ClearBlocks" limits) /\
  control (lit "SetBlockingQueueTimeRateLimit") limits example =
  ((lit "200 OK", [(lit "previousBlockingQueueCommandThresholdMS", lit "10000"); (lit "previousBlockingQueueWindowMS", lit "60000")]), Settings 3 false 5000 5000000 20000 30000000 [] 1000 false).
Proof. split; [|reflexivity]. repeat split; try (vm_compute; congruence). left. reflexivity. Qed.
Definition cluster : node := Node 200 200 [Peer (lit "b") 100 false true; Peer (lit "c") 50 false true; Peer (lit "d") 0 true true].
Example C81_case_priority : acceptable 150 cluster /\ ~ acceptable 100 cluster /\ acceptable 0 cluster /\
  control_priority [(lit "priority", lit "150")] (Some cluster) = ((lit "200 OK", [(lit "newPriority", lit "150"); (lit "oldPriority", lit "200")]), Some (Node 150 150 (peers cluster))) /\
  control_priority [(lit "priority", lit "100")] (Some cluster) = ((lit "409 Priority 100 already in use by b", []), Some cluster).
Proof.
  repeat split; try lia.
  - intros _ x [<-|[<-|[<-|[]]]] _; discriminate.
  - intros (_ & _ & X & _). apply (X ltac:(lia) (Peer (lit "b") 100 false true)); [left; reflexivity|reflexivity|reflexivity].
  - intros _ _. vm_compute. discriminate.
Qed.
