(** C39: a command's time. *)
From Verif Require Import Base Dec Text_Spec Text_Model Text_Proofs Table Timeout_Spec Timeout_Model.
From Verif Require Run_Spec Run_Model Core_Model.
Local Open Scope Z_scope.

Lemma u64_small z : 0 <= z < 2 ^ 64 -> u64 z = z.
Proof. intros H. apply Z.mod_small. exact H. Qed.
Lemma i64_small z : - 2 ^ 63 <= z < 2 ^ 63 -> i64 z = z.
Proof.
  intros H. unfold i64. destruct (Z_lt_ge_dec z 0) as [L|L].
  - replace (z mod 2 ^ 64) with (z + 2 ^ 64); [destruct (z + 2 ^ 64 <? 2 ^ 63) eqn:E; [apply Z.ltb_lt in E|]; lia|].
    apply Z.mod_unique with (q := -1); lia.
  - rewrite Z.mod_small by lia. destruct (z <? 2 ^ 63) eqn:E; [reflexivity|apply Z.ltb_ge in E; lia].
Qed.
Lemma i32_small z : - 2 ^ 31 <= z < 2 ^ 31 -> i32 z = z.
Proof.
  intros H. unfold i32. destruct (Z_lt_ge_dec z 0) as [L|L].
  - replace (z mod 2 ^ 32) with (z + 2 ^ 32); [destruct (z + 2 ^ 32 <? 2 ^ 31) eqn:E; [apply Z.ltb_lt in E|]; lia|].
    apply Z.mod_unique with (q := -1); lia.
  - rewrite Z.mod_small by lia. destruct (z <? 2 ^ 31) eqn:E; [reflexivity|apply Z.ltb_ge in E; lia].
Qed.
Lemma i32_range z : - 2 ^ 31 <= i32 z < 2 ^ 31.
Proof. unfold i32. pose proof (Z.mod_pos_bound z (2 ^ 32) ltac:(lia)). destruct (z mod 2 ^ 32 <? 2 ^ 31) eqn:E; [apply Z.ltb_lt in E|apply Z.ltb_ge in E]; lia. Qed.
Lemma i64_cong z : u64 (i64 z) = u64 z.
Proof.
  unfold u64, i64. destruct (z mod 2 ^ 64 <? 2 ^ 63); [apply Z.mod_mod; lia|].
  replace (z mod 2 ^ 64 - 2 ^ 64) with (z mod 2 ^ 64 + (-1) * 2 ^ 64) by lia. rewrite Z.mod_add by lia. apply Z.mod_mod. lia.
Qed.
Lemma u64_u64 z : u64 (u64 z) = u64 z. Proof. apply Z.mod_mod. lia. Qed.
Definition digit_facts (c : ascii) : bool := implb (is_digit c) (negb (Ascii.eqb c NUL) && negb (is_space c) && negb (Ascii.eqb c "-") && negb (Ascii.eqb c "+")).
Lemma digit_ok c : is_digit c = true -> Ascii.eqb c NUL = false /\ is_space c = false /\ c <> "-"%char /\ c <> "+"%char.
Proof.
  intros H. pose proof (forall_ascii digit_facts ltac:(vm_compute; reflexivity) c) as F. unfold digit_facts in F. rewrite H in F. cbn [implb] in F.
  rewrite !andb_true_iff, !negb_true_iff in F. destruct F as [[[A B] C] D]. apply Ascii.eqb_neq in C, D. auto.
Qed.
Lemma SToInt64_dec n : SToInt64 (dec n) = Z.min 9223372036854775807 (Z.of_N n).
Proof.
  pose proof (dec_digits n) as D. pose proof (dec_nonempty n) as NE.
  assert (C : cstr (dec n) = dec n).
  { clear NE. revert D. generalize (dec n). induction b as [|c l IH]; [reflexivity|]. cbn [forallb cstr]. intros H. apply andb_true_iff in H as [H1 H2]. destruct (digit_ok c H1) as (-> & _). rewrite IH by exact H2. reflexivity. }
  unfold SToInt64. rewrite C. pose proof (dec_value_dec n) as V. pose proof (digits_of_all _ D) as DO. destruct (dec n) as [|c l] eqn:E; [congruence|].
  cbn [forallb] in D. apply andb_true_iff in D as [D1 D2]. destruct (digit_ok c D1) as (_ & S & M & P).
  cbn [skip_space]. rewrite S. clear E NE C. rewrite <- DO in V. rewrite <- V. clear V DO D1 S D2.
  destruct c as [[] [] [] [] [] [] [] []]; try reflexivity; congruence.
Qed.

(** ** The deadline *)
Lemma deadline_eq t now : deadline t now = u64 ((if isSet (lit "timeout") t then calc (lit "timeout") t
            else if ieqb (match tfind (lit "connection") t with Some v => v | None => [] end) (lit "forget") then DEFAULT_TIMEOUT_FORGET
            else DEFAULT_TIMEOUT) * 1000 + scheduledTime t now).
Proof. unfold deadline, _getTimeout. rewrite i64_cong, u64_u64. reflexivity. Qed.
Lemma asks_ms t ms : asks t ms -> (if isSet (lit "timeout") t then calc (lit "timeout") t
            else if ieqb (match tfind (lit "connection") t with Some v => v | None => [] end) (lit "forget") then DEFAULT_TIMEOUT_FORGET
            else DEFAULT_TIMEOUT) = ms.
Proof.
  unfold isSet, calc, calc64. intros [(n & E & -> & L)|[(E & (v & Ev & F) & ->)|(E & F & ->)]]; rewrite E.
  - rewrite SToInt64_dec. rewrite i32_small; lia.
  - rewrite Ev. unfold ieqb. rewrite F. reflexivity.
  - destruct (ieqb _ _) eqn:I; [|reflexivity]. exfalso. unfold ieqb in I. apply bytes_eqb_eq in I. change (map lower (lit "forget")) with (lit "forget") in I.
    destruct (tfind (lit "connection") t) as [v|]; [exact (F v eq_refl I)|discriminate].
Qed.
Lemma begins_at t now s : begins t now s -> clock s -> scheduledTime t now = s.
Proof.
  unfold scheduledTime, isSet, calc64, clock. intros [(E & ->)|(n & E & ->)] C; rewrite E; [reflexivity|]. rewrite SToInt64_dec. rewrite Z.min_r by lia. apply u64_small. lia.
Qed.
(** The deadline is the beginning plus what the client asks for. *)
Theorem C39_deadline : forall t now ms start, asks t ms -> begins t now start -> clock start -> 0 <= ms ->
  deadline t now = start + 1000 * ms.
Proof.
  intros t now ms s A B C P. rewrite deadline_eq, (asks_ms t ms A), (begins_at t now s B C). unfold clock in C. rewrite u64_small; [lia|].
  assert (ms <= 2147483647) by (destruct A as [(n & _ & -> & L)|[(_ & _ & ->)|(_ & _ & ->)]]; lia). lia.
Qed.
Print Assumptions C39_deadline.
(** Whatever the header says, the deadline is at most 2147483647 ms after the beginning (about 25 days). *)
Theorem C39_bounded : forall t now start, begins t now start -> clock start -> 2147483648000 <= start ->
  start - 2147483648000 <= deadline t now <= start + 2147483647000.
Proof.
  intros t now s B C P. rewrite deadline_eq, (begins_at t now s B C). unfold clock in C.
  match goal with |- context [u64 (?x * 1000 + s)] => assert (R : - 2 ^ 31 <= x < 2 ^ 31) end.
  { destruct (isSet (lit "timeout") t); [apply i32_range|]. destruct (ieqb _ _); unfold DEFAULT_TIMEOUT_FORGET, DEFAULT_TIMEOUT; lia. }
  rewrite u64_small; lia.
Qed.
Print Assumptions C39_bounded.

(** ** What is left *)
Definition process_us (t : stable) : Z := (if isSet (lit "processTimeout") t then calc (lit "processTimeout") t else DEFAULT_PROCESS_TIMEOUT) * 1000.
Lemma remaining_eq t d p now : clock d -> clock now ->
  getRemainingTime t d p now = if (d <=? now) || (p && (process_us t <=? 0)) then Expired else Left_ (if p then Z.min (process_us t) (d - now) else d - now).
Proof.
  unfold clock. intros D N. unfold getRemainingTime. rewrite !i64_small by lia.
  destruct ((d - now <? - 2 ^ 63) || (2 ^ 63 - 1 <? d - now)) eqn:O; [apply orb_true_iff in O as [O|O]; apply Z.ltb_lt in O; lia|].
  replace (d - now <=? 0) with (d <=? now); [reflexivity|]. destruct (d <=? now) eqn:E; symmetry; [apply Z.leb_le in E; apply Z.leb_le|apply Z.leb_gt in E; apply Z.leb_gt]; lia.
Qed.
(** Time is over exactly from the deadline on, and what is left is exactly the time to it; while a command is
    processed it is also at most its processTimeout. *)
Theorem C39_remaining : forall t d now, clock d -> clock now ->
  (isTimedOut t d now = true <-> d <= now) /\
  (d > now -> getRemainingTime t d false now = Left_ (d - now)) /\
  (forall us, getRemainingTime t d true now = Left_ us -> 0 < us <= d - now /\ (isSet (lit "processTimeout") t = false -> us <= 5000000) /\
              (forall n, tfind (lit "processTimeout") t = Some (dec n) -> us <= 1000 * Z.of_N n)) /\
  (getRemainingTime t d true now = Expired -> d <= now \/ process_us t <= 0).
Proof.
  intros t d now D N. unfold isTimedOut. rewrite !remaining_eq by assumption. cbn [andb]. rewrite orb_false_r.
  destruct (d <=? now) eqn:E; [apply Z.leb_le in E|apply Z.leb_gt in E]; cbn [orb].
  - split; [tauto|]. split; [lia|]. split; [discriminate|auto].
  - split; [split; [discriminate|lia]|]. split; [reflexivity|]. destruct (process_us t <=? 0) eqn:P; [apply Z.leb_le in P|apply Z.leb_gt in P].
    + split; [discriminate|auto].
    + split; [|discriminate]. intros us X. injection X as <-. split; [lia|]. split.
      * intros S. unfold process_us in *. rewrite S in *. unfold DEFAULT_PROCESS_TIMEOUT in *. lia.
      * intros n T. unfold process_us, isSet, calc, calc64 in *. rewrite T in *. rewrite SToInt64_dec in *.
        rewrite i32_small by lia. lia.
Qed.
Print Assumptions C39_remaining.

(** ** The deadline only moves earlier *)
Definition act_ok (a : act) : Prop :=
  match a with
  | Look _ now => clock now
  | Lower ms n1 n2 n3 => 0 <= ms <= 20000 /\ 0 <= n1 <= n2 /\ n2 <= n3 /\ n3 < 2 ^ 62 - 20000000
  end.
(* the time the thread loses between two readings of the clock *)
Definition gap (a : act) : Z := match a with Look _ _ => 0 | Lower _ n1 n2 _ => n2 - n1 end.
Definition gaps (l : list act) : Z := fold_right (fun a s => gap a + s) 0 l.
Lemma step_bound t d a : clock d -> act_ok a -> clock (fst (step t d a)) /\ fst (step t d a) <= d + gap a.
Proof.
  intros D A. destruct a as [p now|ms n1 n2 n3]; cbn [step fst gap]; [split; [exact D|lia]|]. cbn [act_ok] in A. destruct A as (A1 & A2 & A3 & A4).
  unfold decreaseCommandTimeout. rewrite remaining_eq by (unfold clock in *; lia). cbn [andb]. rewrite orb_false_r.
  destruct (d <=? n1) eqn:E; [apply Z.leb_le in E|apply Z.leb_gt in E]; cbn [fst]; [split; [exact D|lia]|].
  destruct (ms * 1000 <? d - n1) eqn:L; [apply Z.ltb_lt in L|apply Z.ltb_ge in L]; cbn [fst]; [|split; [exact D|lia]].
  unfold setTimeout, clock in *. rewrite !u64_small by (rewrite ?u64_small; lia). lia.
Qed.
(** Over any history the deadline moves later by no more than the thread's delays between two readings of the clock: with no
    delay it only moves earlier. *)
Theorem C39_not_later : forall t l d, clock d -> Forall act_ok l ->
  clock (fst (history t d l)) /\ fst (history t d l) <= d + gaps l.
Proof.
  intros t l. induction l as [|a l IH]; intros d D F; cbn [history fst gaps fold_right]; [split; [exact D|lia]|]. inversion F as [|x y A F']; subst.
  destruct (step t d a) as [d' r] eqn:E. pose proof (step_bound t d a D A) as [S1 S2]. rewrite E in S1, S2. cbn [fst] in *.
  destruct (IH d' S1 F') as [I1 I2]. destruct (history t d' l) as [d'' rs]. cbn [fst] in *. split; [exact I1|]. fold (gaps l). lia.
Qed.
Print Assumptions C39_not_later.
Corollary C39_only_earlier : forall t l d, clock d -> Forall act_ok l -> Forall (fun a => gap a = 0) l -> fst (history t d l) <= d.
Proof.
  intros t l d D F G. destruct (C39_not_later t l d D F) as [_ H]. replace (gaps l) with 0 in H; [lia|]. symmetry. clear -G. induction G as [|a l A _ IH]; [reflexivity|]. cbn [gaps fold_right]. fold (gaps l). lia.
Qed.
Print Assumptions C39_only_earlier.
(** Once time is over it stays over: later acts change nothing and each finds the same. *)
Definition not_before (now : Z) (a : act) : Prop := match a with Look _ n => now <= n | Lower _ n1 _ _ => now <= n1 end.
Theorem C39_stays_expired : forall t l d now, clock d -> d <= now -> Forall act_ok l -> Forall (not_before now) l ->
  history t d l = (d, map (fun _ => Expired) l).
Proof.
  intros t l d now D H F B. induction l as [|a l IH]; [reflexivity|]. inversion F as [|x y A F']; subst. inversion B as [|x y A' B']; subst.
  assert (S : step t d a = (d, Expired)).
  { destruct a as [p n|ms n1 n2 n3]; cbn [step act_ok not_before] in *.
    - rewrite remaining_eq by assumption. replace (d <=? n) with true by (symmetry; apply Z.leb_le; lia). reflexivity.
    - unfold decreaseCommandTimeout. rewrite remaining_eq by (unfold clock in *; lia). replace (d <=? n1) with true by (symmetry; apply Z.leb_le; lia). reflexivity. }
  cbn [history map]. rewrite S, (IH F' B'). reflexivity.
Qed.
Print Assumptions C39_stays_expired.
(** On the blocking thread a command with more than [ms] left keeps at most [ms] from the second reading of the clock on, and the database
    gives up no later than that, plus the delay until it is told. *)
Theorem C39_lowered : forall t d ms n1 n2 n3 n4, clock d -> act_ok (Lower ms n1 n2 n3) -> clock n4 -> n3 <= n4 ->
  ms * 1000 < d - n1 ->
  fst (decreaseCommandTimeout t d ms n1 n2 n3) = n2 + ms * 1000 /\
  forall us, snd (decreaseCommandTimeout t d ms n1 n2 n3) = Left_ us -> us <= ms * 1000 /\ db_limit us n4 = n2 + ms * 1000 + (n4 - n3).
Proof.
  intros t d ms n1 n2 n3 n4 D (A1 & A2 & A3 & A4) C4 L4 L. unfold decreaseCommandTimeout. rewrite remaining_eq by (unfold clock in *; lia). cbn [andb]. rewrite orb_false_r.
  replace (d <=? n1) with false by (symmetry; apply Z.leb_gt; lia). replace (ms * 1000 <? d - n1) with true by (symmetry; apply Z.ltb_lt; lia). cbn [fst snd].
  assert (S : setTimeout ms n2 = n2 + ms * 1000) by (unfold setTimeout; rewrite !u64_small by (rewrite ?u64_small; lia); lia).
  rewrite S. split; [reflexivity|]. intros us. rewrite remaining_eq by (unfold clock in *; lia). cbn [andb]. rewrite orb_false_r. destruct (_ <=? n3) eqn:X; [discriminate|]. apply Z.leb_gt in X.
  intros Y. injection Y as <-. split; [lia|]. unfold db_limit, clock in *. rewrite u64_small; lia.
Qed.
Print Assumptions C39_lowered.

(** ** An expired command is answered, not run *)
(** At each of the places where a run looks at the clock, a command whose deadline has passed is answered 555 and nothing else happens. *)
Theorem C39_answered : forall t d now s p ps c, clock d -> clock now -> d <= now ->
  (Run_Model.s_expired s = isTimedOut t d now -> Run_Model.run s ps c = ([Run_Spec.Replied Run_Spec.Expired], Run_Model.Over)) /\
  (Run_Model.p_expired p = isTimedOut t d now -> Run_Model.loop (p :: ps) c = ([Run_Spec.Replied Run_Spec.Expired], Run_Model.Over)).
Proof.
  intros t d now s p ps c D N H. rewrite (proj2 (proj1 (C39_remaining t d now D N)) H). split; intros E.
  - unfold Run_Model.run. rewrite E. reflexivity.
  - cbn [Run_Model.loop]. unfold Run_Model.one_pass. rewrite E. reflexivity.
Qed.
Print Assumptions C39_answered.
(** At each stage the command's own code is not called: the result is the same whatever it would do, and it is 555. *)
Theorem C39_not_performed : forall s b b' h c x m e y, Core_Model.s_gone s = false -> Core_Model.s_expired s = true ->
  (Core_Model.peekCommand x m y s b h c = Core_Model.peekCommand x m y s b' h c /\
   Core_Model.r_method (Core_Model.m_reply (snd (fst (Core_Model.peekCommand x m y s b h c)))) = lit "555 Timeout" /\
   snd (Core_Model.peekCommand x m y s b h c) = Core_Model.COMPLETE) /\
  (Core_Model.processCommand x m e s b h c = Core_Model.processCommand x m e s b' h c /\
   Core_Model.r_method (Core_Model.m_reply (snd (fst (Core_Model.processCommand x m e s b h c)))) = lit "555 Timeout" /\
   snd (Core_Model.processCommand x m e s b h c) = Core_Model.NO_COMMIT_REQUIRED) /\
  (Core_Model.prePeekCommand s b h c = Core_Model.prePeekCommand s b' h c /\
   Core_Model.r_method (Core_Model.m_reply (snd (Core_Model.prePeekCommand s b h c))) = lit "555 Timeout" /\
   Core_Model.m_complete (snd (Core_Model.prePeekCommand s b h c)) = true).
Proof.
  intros s b b' h c x m e y G X. unfold Core_Model.peekCommand, Core_Model.processCommand, Core_Model.prePeekCommand. rewrite G, X. repeat split.
Qed.
Print Assumptions C39_not_performed.

(** ** A command that is sent on *)
Lemma timeout_not_execute : kcmp (lit "commandExecuteTime") (lit "timeout") <> Eq. Proof. vm_compute. discriminate. Qed.
Lemma sent_on_timeout t d now : tfind (lit "timeout") (sent_on t d now) = Some (dec (Z.to_N (u64 (d - now) / 1000))).
Proof. unfold sent_on. rewrite tfind_tput, kcmp_refl. reflexivity. Qed.
Lemma sent_on_begins t d now x s : begins t x s -> begins (sent_on t d now) x s.
Proof.
  assert (E : tfind (lit "commandExecuteTime") (sent_on t d now) = tfind (lit "commandExecuteTime") t).
  { unfold sent_on. rewrite tfind_tput. pose proof timeout_not_execute. destruct (kcmp _ _); [congruence|reflexivity|reflexivity]. }
  unfold begins. rewrite E. auto.
Qed.
Lemma sent_on_deadline t d now now' s : begins t now' s -> clock s ->
  deadline (sent_on t d now) now' = s + 1000 * Z.min (u64 (d - now) / 1000) 2147483647.
Proof.
  intros B C. pose proof (sent_on_begins t d now _ _ B) as B'. rewrite deadline_eq, (begins_at _ _ _ B' C). unfold isSet, calc, calc64. rewrite sent_on_timeout, SToInt64_dec.
  pose proof (Z.mod_pos_bound (d - now) (2 ^ 64) ltac:(lia)) as M. fold (u64 (d - now)) in M.
  assert (Q : 0 <= u64 (d - now) / 1000 < 2 ^ 63) by (split; [apply Z.div_pos; lia|apply Z.div_lt_upper_bound; lia]).
  rewrite Z2N.id by lia. rewrite (Z.min_r 9223372036854775807) by lia. rewrite i32_small by lia. unfold clock in C. rewrite u64_small; lia.
Qed.
(** A node that sends a command on before its deadline gives the other node no more time than is left, and no less, to the millisecond:
    [now] is when the message is made, [now'] when it arrives. *)
Theorem C39_sent_on : forall t d now now', tfind (lit "commandExecuteTime") t = None -> clock d -> clock now -> clock now' -> now <= d ->
  deadline (sent_on t d now) now' <= now' + (d - now) /\
  (d - now < 2147483648000 -> now' + (d - now) - 1000 < deadline (sent_on t d now) now').
Proof.
  intros t d now now' E D N N' H. rewrite (sent_on_deadline t d now now' now') by (try assumption; left; auto). unfold clock in *. rewrite u64_small by lia.
  pose proof (Z.div_mod (d - now) 1000 ltac:(lia)) as DM. pose proof (Z.mod_pos_bound (d - now) 1000 ltac:(lia)). split; [lia|]. intros L.
  assert ((d - now) / 1000 < 2147483648) by (apply Z.div_lt_upper_bound; lia). lia.
Qed.
Print Assumptions C39_sent_on.
(** A command that is sent on after its deadline gets 2147483647 ms, almost 25 days, at the other node: the difference is unsigned.  (Before it
    sends, the node looks at the clock only when the socket is not ready, and it waits up to five seconds for a leader.) *)
Theorem C39_sent_on_late_refuted : forall t d now now', tfind (lit "commandExecuteTime") t = None -> clock d -> clock now -> clock now' -> d < now ->
  deadline (sent_on t d now) now' = now' + 2147483647000.
Proof.
  intros t d now now' E D N N' H. rewrite (sent_on_deadline t d now now' now') by (try assumption; left; auto). unfold clock in *.
  assert (U : u64 (d - now) = d - now + 2 ^ 64) by (symmetry; apply Z.mod_unique with (q := -1); lia). rewrite U.
  assert (2147483647 <= (d - now + 2 ^ 64) / 1000) by (apply Z.div_le_lower_bound; lia). lia.
Qed.
Print Assumptions C39_sent_on_late_refuted.
(** A command with commandExecuteTime that is sent on has its time counted from commandExecuteTime again: after half of its time the other node
    finds that it has expired. *)
Definition noon : Z := 1700000000000000.
Theorem C39_execute_time_refuted : exists t d now, asks t 110000 /\ begins t now noon /\ d = deadline t now /\ d = now + 50000000 /\
  isTimedOut t d now = false /\ isTimedOut (sent_on t d now) (deadline (sent_on t d now) now) now = true.
Proof.
  exists [(lit "commandExecuteTime", dec 1700000000000000)], (noon + 110000000), (noon + 60000000).
  split; [right; right; split; [reflexivity|split; [discriminate|reflexivity]]|]. split; [right; exists 1700000000000000%N; split; reflexivity|].
  vm_compute. repeat split.
Qed.
Print Assumptions C39_execute_time_refuted.
(** A client's commandExecuteTime can make the subtraction overflow. *)
Theorem C39_overflow_refuted : exists t now, clock now /\ getRemainingTime t (deadline t now) false now = Undefined.
Proof. exists [(lit "commandExecuteTime", lit "-9223372036854775808")], noon. vm_compute. repeat split; discriminate. Qed.
Print Assumptions C39_overflow_refuted.
(** Lowering can move the deadline later, by the delay between the two readings of the clock. *)
Theorem C39_later_refuted : exists t d, clock d /\ act_ok (Lower 5000 noon (noon + 300) (noon + 301)) /\
  d < fst (decreaseCommandTimeout t d 5000 noon (noon + 300) (noon + 301)).
Proof. exists [], (noon + 5000001). vm_compute. repeat split; discriminate. Qed.
Print Assumptions C39_later_refuted.

(** A command with 20 s, lowered to 5 s on the blocking thread, that expires there; sent on with 3 s left. *)
Example C39_story :
  let t := [(lit "timeout", dec 20000)] in let d := deadline t noon in
  d = noon + 20000000 /\
  history t d [Look false (noon + 1); Lower 5000 (noon + 2) (noon + 2) (noon + 3); Look true (noon + 1000002); Lower 5000 (noon + 3) (noon + 3) (noon + 4); Look false (noon + 5000002)]
  = (noon + 5000002, [Left_ 19999999; Left_ 4999999; Left_ 4000000; Left_ 4999999; Expired]) /\
  deadline (sent_on t d (noon + 17000000)) (noon + 17000400) = noon + 20000400.
Proof. vm_compute. repeat split. Qed.
