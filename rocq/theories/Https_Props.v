(** C46: outside requests of a command. *)
From Verif Require Import Base Dec Text_Spec Text_Model Text_Proofs Table Http_Model Http_Spec Http_Proofs Http_Props Timeout_Props Https_Spec Https_Model.
Local Open Scope Z_scope.

Definition has_result (x : transaction) : Prop := x_response x <> 0.
Definition all_have (l : list transaction) : Prop := Forall has_result l.

(** ** Codes *)
Lemma code_nonzero m d : d <> 0 -> getHTTPResponseCode m d <> 0.
Proof.
  intros D. unfold getHTTPResponseCode. destruct (find_sep " " m) as [a [|b r]]; [exact D|]. destruct (ltrim (b :: r)) as [|c r']; [exact D|].
  destruct (Z.eqb_spec (atoi (c :: r')) 0); assumption.
Qed.
Lemma cstr_digits l r : forallb is_digit l = true -> cstr (l ++ r) = l ++ cstr r.
Proof.
  induction l as [|c l IH]; [reflexivity|]. cbn [forallb cstr app]. intros H. apply andb_true_iff in H as [H1 H2]. destruct (digit_ok c H1) as (-> & _). rewrite IH by exact H2. reflexivity.
Qed.
Lemma SToInt64_dec_then n r : r = [] \/ (exists r', r = " "%char :: r') -> SToInt64 (dec n ++ r) = Z.min 9223372036854775807 (Z.of_N n).
Proof.
  intros R. pose proof (dec_digits n) as D. pose proof (dec_nonempty n) as NE. unfold SToInt64. rewrite cstr_digits by exact D.
  assert (DO : digits_of (dec n ++ cstr r) = dec n).
  { destruct R as [->|(r' & ->)]; [rewrite app_nil_r; apply digits_of_all; exact D|]. cbn [cstr]. change (Ascii.eqb " " NUL) with false. apply digits_of_app; [exact D|reflexivity]. }
  pose proof (dec_value_dec n) as V. destruct (dec n) as [|c l] eqn:E; [congruence|]. cbn [forallb] in D. apply andb_true_iff in D as [D1 D2]. destruct (digit_ok c D1) as (_ & S & M & P).
  cbn [app] in *. cbn [skip_space]. rewrite S. rewrite <- DO in V. rewrite <- V. clear E NE DO D1 S D2 V.
  destruct c as [[] [] [] [] [] [] [] []]; try reflexivity; congruence.
Qed.
Lemma find_sep_here sep a b : ~ In sep a -> find_sep sep (a ++ sep :: b) = (a, sep :: b).
Proof.
  induction a as [|c a IH]; cbn [app find_sep]; intros H; [rewrite Ascii.eqb_refl; reflexivity|].
  destruct (Ascii.eqb_spec c sep); [exfalso; apply H; left; congruence|]. rewrite IH; [reflexivity|]. intros X. apply H. right. exact X.
Qed.
Lemma code_status m n d : status m n -> getHTTPResponseCode m d = n.
Proof.
  intros (v & k & reason & V & -> & R & -> & B). unfold getHTTPResponseCode. rewrite find_sep_here by exact V. cbn [ltrim]. change (Ascii.eqb " " " ") with true. cbv iota.
  pose proof (dec_digits k) as D. pose proof (SToInt64_dec_then k reason R) as T. destruct (dec k) as [|c l] eqn:E; [exfalso; apply (dec_nonempty k); exact E|].
  cbn [forallb] in D. apply andb_true_iff in D as [D1 _]. assert (S : Ascii.eqb c " " = false). { destruct (digit_ok c D1) as (_ & S & _). destruct (Ascii.eqb_spec c " "); [subst; discriminate|reflexivity]. }
  cbn [app ltrim]. rewrite S. unfold atoi. cbn [app] in T. rewrite T, Z.min_r by lia. rewrite to_int_small by lia. destruct (Z.eqb_spec (Z.of_N k) 0); [lia|reflexivity].
Qed.
(** The number the other server gives as its status is the result. *)
Theorem C46_status : forall m n d, status m n -> getHTTPResponseCode m d = n.
Proof. exact code_status. Qed.
Print Assumptions C46_status.
Example C46_status_case : status (lit "HTTP/1.1 404 Not Found") 404.
Proof. exists (lit "HTTP/1.1"), 404%N, (lit " Not Found"). split; [vm_compute; intuition discriminate|]. split; [reflexivity|]. split; [right; eexists; reflexivity|]. split; [reflexivity|lia]. Qed.

(** ** Complete means that every request has a result *)
Definition inv (c : command) : Prop := match c_last c with None => True | Some i => (i < List.length (c_requests c))%nat /\ all_have (firstn (S i) (c_requests c)) end.
Lemma scan_spec l : forall i last b last', scan i l last = (b, last') ->
  (b = true <-> all_have l) /\ (last' = last \/ exists j, last' = Some (i + j)%nat /\ (j < List.length l)%nat /\ all_have (firstn (S j) l)).
Proof.
  induction l as [|x l IH]; intros i last b last'; cbn [scan].
  - intros E. injection E as <- <-. split; [split; [intros _; constructor|reflexivity]|left; reflexivity].
  - destruct (Z.eqb_spec (x_response x) 0) as [Z|Z].
    + intros E. injection E as <- <-. split; [split; [discriminate|]|left; reflexivity]. intros H. inversion H; subst. contradiction.
    + intros E. destruct (IH _ _ _ _ E) as (B & L). split; [rewrite B; split; [intros H; constructor; assumption|intros H; inversion H; assumption]|].
      right. destruct L as [->|(j & -> & J & H)].
      * exists 0%nat. rewrite Nat.add_0_r. split; [reflexivity|]. split; [cbn; lia|]. cbn. constructor; [exact Z|constructor].
      * exists (S j). split; [f_equal; lia|]. split; [cbn; lia|]. cbn [firstn]. constructor; [exact Z|exact H].
Qed.
Lemma firstn_split {A} i j (l : list A) : firstn (i + j) l = firstn i l ++ firstn j (skipn i l).
Proof.
  revert l. induction i as [|i IH]; intros l; [reflexivity|]. destruct l as [|a l]; [rewrite firstn_nil; cbn; rewrite firstn_nil; reflexivity|]. cbn [firstn skipn Nat.add app]. rewrite IH. reflexivity.
Qed.
Lemma all_have_before c : inv c -> all_have (firstn (first_of (c_last c)) (c_requests c)).
Proof.
  unfold inv. destruct (c_last c) as [i|]; [|intros _; constructor]. intros (_ & H). cbn [first_of]. replace (S i) with (i + 1)%nat in H by lia. rewrite firstn_split in H. apply Forall_app in H. apply H.
Qed.
Lemma are_complete c b c' : inv c -> areHttpsRequestsComplete c = (b, c') ->
  (b = true <-> all_have (c_requests c)) /\ inv c' /\ c_requests c' = c_requests c /\ c_timeout c' = c_timeout c.
Proof.
  intros I. unfold areHttpsRequestsComplete. destruct (scan _ _ _) as [b0 last'] eqn:E. intros X. injection X as <- <-. destruct (scan_spec _ _ _ _ _ E) as (B & L).
  pose proof (all_have_before c I) as P. split; [|split; [|split; reflexivity]].
  - rewrite B. rewrite <- (firstn_skipn (first_of (c_last c)) (c_requests c)) at 2. unfold all_have in *. rewrite Forall_app. tauto.
  - unfold inv. cbn [c_last c_requests]. destruct L as [->|(j & -> & J & H)]; [exact I|]. rewrite skipn_length in J. split; [lia|].
    replace (S (first_of (c_last c) + j)) with (first_of (c_last c) + S j)%nat by lia. rewrite firstn_split. apply Forall_app. split; [exact P|exact H].
Qed.

(** ** One round *)
(** A request that is over: it has its result and its answer, and is not to be started. *)
Definition settled (x : transaction) : Prop := x_finished x <> 0 /\ has_result x /\ x_start x = 0.
(** What may become of a request: a result stays a result; one that is over keeps its result and its answer. *)
Definition kept (a b : transaction) : Prop :=
  (has_result a -> has_result b) /\ (settled a -> settled b /\ x_response b = x_response a /\ x_message b = x_message a) /\ (x_start a = 0 -> x_start b = 0).
Lemma kept_refl a : kept a a. Proof. split; [auto|]. split; auto. Qed.
Lemma kept_trans a b c : kept a b -> kept b c -> kept a c.
Proof. intros (A1 & A2 & A3) (B1 & B2 & B3). split; [auto|]. split; [|auto]. intros S. destruct (A2 S) as (X & Y & Z). destruct (B2 X) as (X' & Y' & Z'). repeat split; try congruence; apply X'. Qed.
Lemma postPoll_kept now ms i x y : postPoll now ms i x = Some y -> kept x y /\ x_start y = x_start x.
Proof.
  unfold postPoll. destruct (x_socket x) as [k|]; [|intros E; injection E as <-; split; [apply kept_refl|reflexivity]].
  destruct (Z.eqb_spec (x_finished x) 0) as [F|F]; cbn [negb]; [|intros E; injection E as <-; split; [apply kept_refl|reflexivity]].
  assert (NS : forall P, settled x -> P) by (intros P (A & _); contradiction).
  destruct (match SParseHTTP _ with Incomplete => _ | Done n m t c => _ | Throws | Undefined => _ end) as [[size [[m t] c]]|]; [|discriminate].
  cbv zeta. destruct (_ && _).
  - intros E. injection E as <-. split; [|reflexivity]. split; [|split; [apply NS|intros Z; exact Z]]. intros _. unfold has_result. cbn [x_response]. destruct (_ || _); apply code_nonzero; discriminate.
  - destruct (_ || _).
    + destruct (_ || _); intros E; injection E as <-; (split; [|reflexivity]; split; [|split; [apply NS|intros Z; exact Z]]); unfold has_result; cbn [x_response]; intros H.
      * destruct m; [exact H|]. apply code_nonzero. discriminate.
      * cbn [transfer k_sendEmpty]; destruct (io_sendEmpty i); discriminate.
    + intros E. injection E as <-. split; [|reflexivity]. split; [|split; [apply NS|intros Z; exact Z]]. auto.
Qed.
Lemma with_timeout_kept t x : kept x (with_timeout t x) /\ x_start (with_timeout t x) = x_start x.
Proof. unfold with_timeout. destruct (x_timeoutAt x =? 0); (split; [|reflexivity]); [|apply kept_refl]. split; [auto|]. split; [|auto]. intros S. repeat split; try apply S; reflexivity. Qed.
Lemma polls_kept t ms r l : forall i l', polls t ms r i l = Some l' -> Forall2 (fun a b => kept a b /\ x_start b = x_start a) l l'.
Proof.
  induction l as [|x l IH]; intros i l'; cbn [polls]; [intros E; injection E as <-; constructor|].
  destruct (postPoll _ _ _ _) as [y|] eqn:P; [|discriminate]. destruct (polls t ms r (S i) l) as [l2|] eqn:Q; [|discriminate]. intros E. injection E as <-.
  constructor; [|apply (IH _ _ Q)]. destruct (postPoll_kept _ _ _ _ _ P) as (A & A'). destruct (with_timeout_kept t x) as (B & B'). split; [eapply kept_trans; eauto|congruence].
Qed.
Lemma starts_kept r l : forall i w ev w' l', starts r i l w = (ev, w', l') -> Forall2 kept l l'.
Proof.
  induction l as [|x l IH]; intros i w ev w' l'; cbn [starts]; [intros E; injection E as _ _ <-; constructor|].
  destruct (Z.eqb_spec (x_start x) 0) as [Z0|Z0].
  - destruct (starts r (S i) l w) as [[e2 w2] l2] eqn:Q. intros E. injection E as _ _ <-. constructor; [apply kept_refl|apply (IH _ _ _ _ _ Q)].
  - destruct (Z.leb_spec (x_start x) (r_now r)).
    + destruct (starts r (S i) l w) as [[e2 w2] l2] eqn:Q. intros E. injection E as _ _ <-. constructor; [|apply (IH _ _ _ _ _ Q)].
      destruct (x_startFunc x); (split; [|split; [intros (_ & _ & X); contradiction|reflexivity]]); unfold has_result; cbn [x_response]; [|auto].
      intros H0. destruct (Z.eqb_spec (snd (r_start r i)) 0); assumption.
    + destruct (starts r (S i) l _) as [[e2 w2] l2] eqn:Q. intros E. injection E as _ _ <-. constructor; [apply kept_refl|apply (IH _ _ _ _ _ Q)].
Qed.
Lemma fail_kept l : Forall2 kept l (map fail_one l).
Proof.
  induction l as [|x l IH]; constructor; [|exact IH]. unfold fail_one. destruct (Z.eqb_spec (x_response x) 0) as [Z|Z]; [|apply kept_refl].
  split; [intros H; contradiction|]. split; [intros (_ & H & _); contradiction|auto].
Qed.
Lemma fail_all l : all_have (map fail_one l).
Proof. unfold all_have. apply Forall_map, Forall_forall. intros x _. unfold fail_one, has_result. destruct (Z.eqb_spec (x_response x) 0); [discriminate|assumption]. Qed.
Lemma F2_refl l : Forall2 kept l l. Proof. induction l; constructor; [apply kept_refl|assumption]. Qed.
Lemma F2_trans a b c : Forall2 kept a b -> Forall2 kept b c -> Forall2 kept a c.
Proof. intros H. revert c. induction H; intros c H2; inversion H2; subst; constructor; [eapply kept_trans; eauto|auto]. Qed.
Lemma F2_weak l l' : Forall2 (fun a b => kept a b /\ x_start b = x_start a) l l' -> Forall2 kept l l'.
Proof. induction 1; constructor; [apply H|assumption]. Qed.
Lemma kept_firstn n l l' : Forall2 kept l l' -> all_have (firstn n l) -> all_have (firstn n l').
Proof.
  intros H. revert n. induction H as [|a b l l' K H IH]; intros n; [auto|]. destruct n as [|n]; [constructor|]. cbn [firstn]. intros X. inversion X as [|? ? X1 X2]; subst. constructor; [apply (proj1 K); exact X1|apply IH; exact X2].
Qed.
Lemma F2_len {A B} (P : A -> B -> Prop) l l' : Forall2 P l l' -> List.length l = List.length l'.
Proof. induction 1; cbn; congruence. Qed.
Lemma inv_kept c l' t : inv c -> Forall2 kept (c_requests c) l' -> inv (Command l' (c_last c) t).
Proof.
  unfold inv. cbn [c_last c_requests]. destruct (c_last c); [|auto]. intros (A & B) H. split; [rewrite <- (F2_len _ _ _ H); exact A|]. apply (kept_firstn _ _ _ H B).
Qed.
Lemma split_kept n l l' : Forall2 kept (skipn n l) l' -> Forall2 kept l (firstn n l ++ l').
Proof. intros H. rewrite <- (firstn_skipn n l) at 1. apply Forall2_app; [apply F2_refl|exact H]. Qed.

(** A wait that is over leaves every request with a result.  Results do not get lost, and a request that was over before is as it was. *)
Definition of_result (res : result) : option command := match res with Finished c | Waiting c => Some c | Stopped => None end.
Lemma wait_spec rounds : forall c ev res, inv c -> wait rounds c = (ev, res) ->
  (forall c', of_result res = Some c' -> inv c' /\ Forall2 kept (c_requests c) (c_requests c') /\ c_timeout c' = c_timeout c) /\
  (forall c', res = Finished c' -> all_have (c_requests c')) /\
  (forall c', res = Waiting c' -> ~ all_have (c_requests c') /\ Forall (fun r => r_now r < c_timeout c /\ r_abort r = false) rounds).
Proof.
  induction rounds as [|r rounds IH]; intros c ev res I; cbn [wait]; destruct (areHttpsRequestsComplete c) as [b c1] eqn:A;
    destruct (are_complete c b c1 I A) as (B & I1 & R1 & T1); (destruct b; [intros E; injection E as <- <-;
      (split; [intros c' X; injection X as <-; rewrite R1; auto using F2_refl|split; [intros c' X; injection X as <-; rewrite R1; apply B; reflexivity|discriminate]])|]).
  - intros E. injection E as <- <-. split; [intros c' X; injection X as <-; rewrite R1; auto using F2_refl|]. split; [discriminate|].
    intros c' X. injection X as <-. split; [rewrite R1; intros H; apply B in H; discriminate|constructor].
  - destruct ((r_now r <? c_timeout c1) && negb (r_abort r)) eqn:G.
    + destruct (starts r (first_of (c_last c1)) (skipn (first_of (c_last c1)) (c_requests c1)) (c_timeout c1 - r_now r)) as [[e2 w2] l2] eqn:S.
      apply andb_true_iff in G as [G1 G2]. apply Z.ltb_lt in G1. apply negb_true_iff in G2.
      destruct (polls _ _ r _ l2) as [l3|] eqn:P; [|intros E; injection E as <- <-; split; [discriminate|]; split; discriminate].
      assert (K : Forall2 kept (c_requests c1) (firstn (first_of (c_last c1)) (c_requests c1) ++ l3)).
      { apply split_kept. eapply F2_trans; [apply (starts_kept _ _ _ _ _ _ _ S)|apply F2_weak, (polls_kept _ _ _ _ _ _ P)]. }
      destruct (wait rounds _) as [e4 r4] eqn:W. intros E. injection E as <- <-.
      destruct (IH _ _ _ (inv_kept c1 _ _ I1 K) W) as (H1 & H2 & H3). split; [|split; [exact H2|]].
      * intros c' X. destruct (H1 c' X) as (Y1 & Y2 & Y3). split; [exact Y1|]. split; [|cbn [c_timeout] in Y3; congruence]. rewrite <- R1. eapply F2_trans; [exact K|exact Y2].
      * intros c' X. destruct (H3 c' X) as (Y1 & Y2). split; [exact Y1|]. cbn [c_timeout] in Y2. rewrite T1 in *. constructor; [auto|exact Y2].
    + intros E. injection E as <- <-. pose proof (split_kept (first_of (c_last c1)) (c_requests c1) _ (fail_kept (skipn (first_of (c_last c1)) (c_requests c1)))) as K.
      split; [|split; [|discriminate]].
      * intros c' X. injection X as <-. cbn [c_requests c_timeout]. split; [apply (inv_kept c1 _ _ I1 K)|]. split; [rewrite <- R1; exact K|exact T1].
      * intros c' X. injection X as <-. cbn [c_requests]. apply Forall_app. split; [apply all_have_before; exact I1|apply fail_all].
Qed.

(** Every state of a command's requests: requests are added, waited for, looked at, and get results in other ways (a manager of a plugin). *)
Inductive reach (timeout : Z) : command -> Prop :=
| reach_new : reach timeout (Command [] None timeout)
| reach_add x c : reach timeout c -> reach timeout (push_back x c)
| reach_ask c : reach timeout c -> reach timeout (snd (areHttpsRequestsComplete c))
| reach_wait c rounds ev res c' : reach timeout c -> wait rounds c = (ev, res) -> of_result res = Some c' -> reach timeout c'
| reach_other c l' : reach timeout c -> Forall2 (fun a b => has_result a -> has_result b) (c_requests c) l' -> reach timeout (Command l' (c_last c) timeout).
Lemma reach_inv t c : reach t c -> inv c /\ c_timeout c = t.
Proof.
  induction 1 as [|x c H [IH T]|c H [IH T]|c rounds ev res c' H [IH T] W O|c l' H [IH T] K].
  - split; [exact I|reflexivity].
  - split; [|exact T]. unfold inv in *. cbn [push_back c_last c_requests]. destruct (c_last c) as [i|]; [|exact I]. destruct IH as (A & B). split; [rewrite app_length; cbn; lia|].
    rewrite firstn_app. replace (S i - List.length (c_requests c))%nat with 0%nat by lia. cbn [firstn]. rewrite app_nil_r. exact B.
  - destruct (areHttpsRequestsComplete c) as [b c1] eqn:A. destruct (are_complete c b c1 IH A) as (_ & X & _ & Y). cbn [snd]. split; [exact X|congruence].
  - destruct (wait_spec _ _ _ _ IH W) as (X & _). destruct (X c' O) as (Y1 & _ & Y3). split; [exact Y1|congruence].
  - split; [|reflexivity]. unfold inv in *. cbn [c_last c_requests]. destruct (c_last c) as [i|]; [|exact I]. destruct IH as (A & B). split; [rewrite <- (F2_len _ _ _ K); exact A|].
    revert B. generalize (S i). clear A. induction K as [|a b l l' Ka K IHK]; intros n B; [exact B|]. destruct n as [|n]; [constructor|]. cbn [firstn] in *. inversion B; subst. constructor; [auto|]. apply IHK. assumption.
Qed.
(** A command is told that its requests are complete exactly when each of them has a result. *)
Theorem C46_complete : forall timeout c, reach timeout c -> (fst (areHttpsRequestsComplete c) = true <-> all_have (c_requests c)).
Proof.
  intros t c H. destruct (areHttpsRequestsComplete c) as [b c1] eqn:A. apply (are_complete c b c1 (proj1 (reach_inv t c H)) A).
Qed.
Print Assumptions C46_complete.
(** It goes on only when each of them has a result; results do not get lost, and requests that were over are as they were. *)
Theorem C46_wait : forall timeout c rounds ev c', reach timeout c -> wait rounds c = (ev, Finished c') ->
  all_have (c_requests c') /\ Forall2 kept (c_requests c) (c_requests c').
Proof.
  intros t c rounds ev c' H W. destruct (wait_spec _ _ _ _ (proj1 (reach_inv t c H)) W) as (A & B & _). split; [apply B; reflexivity|]. apply (A c' eq_refl).
Qed.
Print Assumptions C46_wait.
(** It does not go on waiting when its time is over or its client has gone. *)
Theorem C46_in_time : forall timeout c rounds, reach timeout c -> Exists (fun r => timeout <= r_now r \/ r_abort r = true) rounds ->
  forall ev c', wait rounds c <> (ev, Waiting c').
Proof.
  intros t c rounds H X ev c' W. destruct (reach_inv t c H) as (I & T). destruct (wait_spec _ _ _ _ I W) as (_ & _ & C). destruct (C c' eq_refl) as (_ & F). rewrite T in F.
  apply Exists_exists in X as (r & Hin & Hr). rewrite Forall_forall in F. destruct (F r Hin) as (A & B). destruct Hr; [lia|congruence].
Qed.
Print Assumptions C46_in_time.

(** ** Pauses and starts *)
Lemma starts_wait r l : forall i w ev w' l', starts r i l w = (ev, w', l') -> 0 < w ->
  0 < w' <= w /\ (forall x, In x l -> x_start x <> 0 -> r_now r < x_start x -> r_now r + w' <= x_start x).
Proof.
  induction l as [|x l IH]; intros i w ev w' l'; cbn [starts]; [intros E W; injection E as _ <- _; split; [lia|intros x []]|].
  destruct (Z.eqb_spec (x_start x) 0) as [Z0|Z0].
  - destruct (starts r (S i) l w) as [[e2 w2] l2] eqn:Q. intros E W. injection E as _ <- _. destruct (IH _ _ _ _ _ Q W) as (A & B). split; [exact A|]. intros y [<-|Hy]; [contradiction|auto].
  - destruct (Z.leb_spec (x_start x) (r_now r)).
    + destruct (starts r (S i) l w) as [[e2 w2] l2] eqn:Q. intros E W. injection E as _ <- _. destruct (IH _ _ _ _ _ Q W) as (A & B). split; [exact A|]. intros y [<-|Hy]; [lia|auto].
    + destruct (starts r (S i) l _) as [[e2 w2] l2] eqn:Q. intros E W. injection E as _ <- _. destruct (IH _ _ _ _ _ Q ltac:(lia)) as (A & B). split; [lia|]. intros y [<-|Hy]; [lia|auto].
Qed.
Lemma starts_events r l : forall i w ev w' l', starts r i l w = (ev, w', l') -> forall e, In e ev -> exists j, e = Started (i + j) (r_now r) /\
  exists x, nth_error l j = Some x /\ x_start x <> 0 /\ x_start x <= r_now r.
Proof.
  induction l as [|x l IH]; intros i w ev w' l'; cbn [starts]; [intros E e; injection E as <- _ _; intros []|].
  assert (SH : forall e2 w1 w2 l2 e, starts r (S i) l w1 = (e2, w2, l2) -> In e e2 -> exists j, e = Started (i + j) (r_now r) /\ exists y, nth_error (x :: l) j = Some y /\ x_start y <> 0 /\ x_start y <= r_now r).
  { intros e2 w1 w2 l2 e Q He. destruct (IH _ _ _ _ _ Q e He) as (j & -> & y & Y). exists (S j). split; [f_equal; lia|]. exists y. exact Y. }
  destruct (Z.eqb_spec (x_start x) 0) as [Z0|Z0].
  - destruct (starts r (S i) l w) as [[e2 w2] l2] eqn:Q. intros E e. injection E as <- _ _. intros He. exact (SH _ _ _ _ _ Q He).
  - destruct (Z.leb_spec (x_start x) (r_now r)).
    + destruct (starts r (S i) l w) as [[e2 w2] l2] eqn:Q. intros E e. injection E as <- _ _. intros He. apply in_app_or in He as [He|He]; [|exact (SH _ _ _ _ _ Q He)].
      destruct (x_startFunc x); [|destruct He]. destruct He as [<-|[]]. exists 0%nat. rewrite Nat.add_0_r. split; [reflexivity|]. exists x. split; [reflexivity|]. split; [exact Z0|lia].
    + destruct (starts r (S i) l _) as [[e2 w2] l2] eqn:Q. intros E e. injection E as <- _ _. intros He. exact (SH _ _ _ _ _ Q He).
Qed.
Definition is_start (i : nat) (e : event) : bool := match e with Started j _ => Nat.eqb i j | _ => false end.
Definition times_started (i : nat) (ev : list event) : nat := List.length (filter (is_start i) ev).
Lemma started_app i a b : times_started i (a ++ b) = (times_started i a + times_started i b)%nat.
Proof. unfold times_started. rewrite filter_app, app_length. reflexivity. Qed.
(* a request is started once, and then it is no longer to be started *)
Lemma starts_once r l : forall i w ev w' l', starts r i l w = (ev, w', l') -> forall j, (j < i)%nat /\ times_started j ev = 0%nat \/
  (i <= j)%nat /\ (times_started j ev = 0%nat \/ times_started j ev = 1%nat /\ exists y, nth_error l' (j - i) = Some y /\ x_start y = 0).
Proof.
  induction l as [|x l IH]; intros i w ev w' l'; cbn [starts]; [intros E j; injection E as <- _ <-; destruct (Nat.lt_ge_cases j i); auto|].
  assert (SH : forall e2 w1 w2 l2 y, starts r (S i) l w1 = (e2, w2, l2) -> forall j, (j <= i)%nat /\ times_started j e2 = 0%nat \/
    (i < j)%nat /\ (times_started j e2 = 0%nat \/ times_started j e2 = 1%nat /\ exists z, nth_error (y :: l2) (j - i) = Some z /\ x_start z = 0)).
  { intros e2 w1 w2 l2 y Q j. destruct (IH _ _ _ _ _ Q j) as [(A & B)|(A & B)]; [left; split; [lia|exact B]|right; split; [lia|]]. destruct B as [B|(B & z & Z & Z')]; [left; exact B|].
    right. split; [exact B|]. exists z. replace (j - i)%nat with (S (j - S i)) by lia. auto. }
  destruct (Z.eqb_spec (x_start x) 0) as [Z0|Z0].
  - destruct (starts r (S i) l w) as [[e2 w2] l2] eqn:Q. intros E j. injection E as <- _ <-. destruct (SH _ _ _ _ x Q j) as [(A & B)|(A & B)]; [|right; split; [lia|exact B]].
    destruct (Nat.eq_dec j i) as [->|]; [right; split; [lia|left; exact B]|left; split; [lia|exact B]].
  - destruct (Z.leb_spec (x_start x) (r_now r)).
    + destruct (starts r (S i) l w) as [[e2 w2] l2] eqn:Q. intros E j. injection E as <- _ <-. rewrite started_app.
      destruct (SH _ _ _ _ (if x_startFunc x then Transaction (fst (r_start r i)) (x_finished x) (x_timeoutAt x) (if snd (r_start r i) =? 0 then x_response x else snd (r_start r i)) (x_message x) 0 (x_startFunc x)
                  else Transaction (x_socket x) (x_finished x) (x_timeoutAt x) (x_response x) (x_message x) 0 (x_startFunc x)) Q j) as [(A & B)|(A & B)].
      * rewrite B, Nat.add_0_r. destruct (Nat.eq_dec j i) as [->|N].
        -- right. split; [lia|]. destruct (x_startFunc x); [|left; reflexivity]. right. unfold times_started. cbn. rewrite Nat.eqb_refl. split; [reflexivity|]. rewrite Nat.sub_diag. eexists. split; reflexivity.
        -- left. split; [lia|]. destruct (x_startFunc x); [|reflexivity]. unfold times_started. cbn. destruct (Nat.eqb_spec j i); [contradiction|reflexivity].
      * right. split; [lia|]. replace (times_started j (if x_startFunc x then [Started i (r_now r)] else [])) with 0%nat; [exact B|].
        destruct (x_startFunc x); [|reflexivity]. unfold times_started. cbn. destruct (Nat.eqb_spec j i); [lia|reflexivity].
    + destruct (starts r (S i) l _) as [[e2 w2] l2] eqn:Q. intros E j. injection E as <- _ <-. destruct (SH _ _ _ _ x Q j) as [(A & B)|(A & B)]; [|right; split; [lia|exact B]].
      destruct (Nat.eq_dec j i) as [->|]; [right; split; [lia|left; exact B]|left; split; [lia|exact B]].
Qed.
(** The time request [i] of [c] is to be started at; 0: it is not to be started. *)
Definition to_start (c : command) (i : nat) : Z := match nth_error (c_requests c) i with Some x => x_start x | None => 0 end.
Lemma nth_F2 {A B} (P : A -> B -> Prop) l l' i : Forall2 P l l' -> match nth_error l i, nth_error l' i with Some a, Some b => P a b | None, None => True | _, _ => False end.
Proof. intros H. revert i. induction H; intros [|i]; cbn; auto. apply IHForall2. Qed.
Lemma wait_events rounds : forall c ev res, inv c -> wait rounds c = (ev, res) ->
  (forall now us, In (Paused now us) ev -> 0 < us <= 1000000 /\ now + us <= c_timeout c) /\
  (forall i, (times_started i ev <= 1)%nat /\ (to_start c i = 0 -> times_started i ev = 0%nat)) /\
  (forall i t, In (Started i t) ev -> to_start c i <= t).
Proof.
  induction rounds as [|r rounds IH]; intros c ev res I; cbn [wait]; destruct (areHttpsRequestsComplete c) as [b c1] eqn:A;
    destruct (are_complete c b c1 I A) as (B & I1 & R1 & T1); (destruct b; [intros E; injection E as <- <-; split; [intros ? ? []|]; split; [intros i; split; [cbn; lia|reflexivity]|intros ? ? []]|]).
  - intros E. injection E as <- <-. split; [intros ? ? []|]. split; [intros i; split; [cbn; lia|reflexivity]|intros ? ? []].
  - destruct ((r_now r <? c_timeout c1) && negb (r_abort r)) eqn:G; [|intros E; injection E as <- <-; split; [intros ? ? []|]; split; [intros i; split; [cbn; lia|reflexivity]|intros ? ? []]].
    apply andb_true_iff in G as [G1 _]. apply Z.ltb_lt in G1. set (n := first_of (c_last c1)) in *.
    destruct (starts r n (skipn n (c_requests c1)) (c_timeout c1 - r_now r)) as [[e2 w2] l2] eqn:S.
    destruct (starts_wait _ _ _ _ _ _ _ S ltac:(lia)) as (W2 & _).
    assert (ST : forall i t, In (Started i t) e2 -> to_start c i <= t /\ to_start c i <> 0).
    { intros i t Hin. destruct (starts_events _ _ _ _ _ _ _ S _ Hin) as (j & X & x & N & NZ & L). injection X as -> ->. unfold to_start. rewrite <- R1.
      rewrite <- (firstn_skipn n (c_requests c1)), nth_error_app2; rewrite firstn_length; [|lia].
      assert (LN : (n <= List.length (c_requests c1))%nat). { unfold n, inv in *. destruct (c_last c1); cbn; lia. }
      replace (n + j - Nat.min n (List.length (c_requests c1)))%nat with j by lia. rewrite N. auto. }
    assert (P0 : forall now us, In (Paused now us) (e2 ++ [Paused (r_now r) (Z.min w2 1000000)]) -> 0 < us <= 1000000 /\ now + us <= c_timeout c).
    { intros now us Hin. apply in_app_or in Hin as [Hin|[Hin|[]]]; [destruct (starts_events _ _ _ _ _ _ _ S _ Hin) as (j & X & _); discriminate|]. injection Hin as <- <-. lia. }
    assert (ONE : forall i, (times_started i e2 <= 1)%nat /\ (to_start c i = 0 -> times_started i e2 = 0%nat)).
    { intros i. split; [destruct (starts_once _ _ _ _ _ _ _ S i) as [(_ & X)|(_ & [X|(X & _)])]; lia|]. intros Z0. destruct (times_started i e2) eqn:TS; [reflexivity|]. exfalso.
      unfold times_started in TS. destruct (filter (is_start i) e2) as [|e fl] eqn:F; [discriminate|]. assert (Hin : In e (filter (is_start i) e2)) by (rewrite F; left; reflexivity).
      apply filter_In in Hin as (Hin & He). destruct e as [k t|]; [|discriminate]. cbn in He. apply Nat.eqb_eq in He. subst k. destruct (ST i t Hin) as (_ & NZ). contradiction. }
    destruct (polls _ _ r n l2) as [l3|] eqn:P.
    + set (c2 := Command (firstn n (c_requests c1) ++ l3) (c_last c1) (c_timeout c1)).
      pose proof (starts_kept _ _ _ _ _ _ _ S) as K2. pose proof (polls_kept _ _ _ _ _ _ P) as K3.
      assert (K : Forall2 kept (c_requests c1) (c_requests c2)) by (apply split_kept; eapply F2_trans; [exact K2|apply F2_weak, K3]).
      assert (LN : (n <= List.length (c_requests c1))%nat). { unfold n, inv in *. destruct (c_last c1); cbn; lia. }
      assert (AT : forall j, to_start c2 (n + j) = match nth_error l2 j with Some y => x_start y | None => 0 end).
      { intros j. unfold to_start, c2. cbn [c_requests]. rewrite nth_error_app2; rewrite firstn_length; [|lia]. replace (n + j - Nat.min n (List.length (c_requests c1)))%nat with j by lia.
        pose proof (nth_F2 _ _ _ j K3) as X. destruct (nth_error l2 j), (nth_error l3 j); try contradiction; [apply X|reflexivity]. }
      assert (Z2 : forall i, to_start c i = 0 -> to_start c2 i = 0).
      { intros i. unfold to_start. rewrite <- R1. pose proof (nth_F2 _ _ _ i K) as X. destruct (nth_error (c_requests c1) i), (nth_error (c_requests c2) i); try contradiction; [apply X|reflexivity]. }
      assert (S2 : forall i, times_started i e2 = 1%nat -> to_start c2 i = 0).
      { intros i T. destruct (starts_once _ _ _ _ _ _ _ S i) as [(_ & X)|(L & [X|(_ & y & Y & Y0)])]; try lia. replace i with (n + (i - n))%nat by lia. rewrite AT, Y. exact Y0. }
      assert (U2 : forall i, to_start c2 i = to_start c i \/ to_start c2 i = 0).
      { intros i. destruct (Nat.lt_ge_cases i n) as [L|L].
        - left. unfold to_start, c2. cbn [c_requests]. rewrite nth_error_app1 by (rewrite firstn_length; lia). rewrite <- R1. rewrite <- (firstn_skipn n (c_requests c1)) at 2. rewrite nth_error_app1 by (rewrite firstn_length; lia). reflexivity.
        - replace i with (n + (i - n))%nat by lia. rewrite AT. assert (SU : forall l m w e w' l' j, starts r m l w = (e, w', l') -> match nth_error l' j with Some y => x_start y | None => 0 end = match nth_error l j with Some y => x_start y | None => 0 end \/ match nth_error l' j with Some y => x_start y | None => 0 end = 0).
          { clear. induction l as [|x l IH]; intros m w e w' l' j; cbn [starts]; [intros E; injection E as _ _ <-; left; reflexivity|].
            destruct (x_start x =? 0); [|destruct (x_start x <=? r_now r)]; (destruct (starts r (S m) l _) as [[e2 w2] l2] eqn:Q); intros E; injection E as _ _ <-; (destruct j as [|j]; [|exact (IH _ _ _ _ _ _ Q)]); cbn; auto.
            right. destruct (x_startFunc x); reflexivity. }
          destruct (SU _ _ _ _ _ _ (i - n)%nat S) as [X|X]; [|right; exact X]. left. rewrite X. unfold to_start. rewrite <- R1. rewrite <- (firstn_skipn n (c_requests c1)) at 2. rewrite nth_error_app2; rewrite firstn_length; [|lia].
          replace (n + (i - n) - Nat.min n (List.length (c_requests c1)))%nat with (i - n)%nat by lia. reflexivity. }
      destruct (wait rounds c2) as [e4 r4] eqn:W. intros E. injection E as <- <-. assert (I2 : inv c2) by exact (inv_kept c1 _ _ I1 K). destruct (IH _ _ _ I2 W) as (H1 & H2 & H3). change (c_timeout c2) with (c_timeout c1) in H1. rewrite T1 in H1.
      split; [|split].
      * intros now us Hin. rewrite <- (app_nil_l e4), app_comm_cons, app_assoc in Hin. apply in_app_or in Hin as [Hin|Hin]; [apply P0; exact Hin|apply H1; exact Hin].
      * intros i. rewrite started_app. change (times_started i (Paused (r_now r) (Z.min w2 1000000) :: e4)) with (times_started i e4). destruct (ONE i) as (O1 & O2). destruct (H2 i) as (O3 & O4). split.
        -- destruct (times_started i e2) as [|[|k]] eqn:TS; [lia| |lia]. rewrite (O4 (S2 i TS)). lia.
        -- intros Z0. rewrite (O2 Z0), (O4 (Z2 i Z0)). reflexivity.
      * intros i t Hin. apply in_app_or in Hin as [Hin|[Hin|Hin]]; [apply (ST i t Hin)|discriminate|].
        specialize (H3 i t Hin). destruct (U2 i) as [X|X]; [lia|].
        exfalso. destruct (H2 i) as (_ & O4). specialize (O4 X). unfold times_started in O4. assert (F : In (Started i t) (filter (is_start i) e4)) by (apply filter_In; split; [exact Hin|cbn; apply Nat.eqb_refl]). destruct (filter (is_start i) e4); [destruct F|discriminate].
    + intros E. injection E as <- <-. split; [exact P0|]. split; [|intros i t Hin; apply in_app_or in Hin as [Hin|[Hin|[]]]; [apply (ST i t Hin)|discriminate]].
      intros i. rewrite started_app. change (times_started i [Paused (r_now r) (Z.min w2 1000000)]) with 0%nat. rewrite Nat.add_0_r. apply ONE.
Qed.
(** It never sleeps for more than a second or beyond its time, starts a request that is to be started at a given time at most once, and not
    before that time. *)
Theorem C46_pauses : forall timeout c rounds ev res, reach timeout c -> wait rounds c = (ev, res) ->
  (forall now us, In (Paused now us) ev -> 0 < us <= 1000000 /\ now + us <= timeout) /\
  (forall i, times_started i ev <= 1)%nat /\ (forall i t, In (Started i t) ev -> 0 < to_start c i -> to_start c i <= t).
Proof.
  intros t c rounds ev res H W. destruct (reach_inv t c H) as (I & T). destruct (wait_events _ _ _ _ I W) as (A & B & C). rewrite T in A. split; [exact A|]. split; [intros i; apply B|]. intros i u Hin _. exact (C i u Hin).
Qed.
Print Assumptions C46_pauses.
(** And it wakes up in time to start a request that has no result yet. *)
Theorem C46_wakes : forall timeout c r rounds ev res i x, reach timeout c -> wait (r :: rounds) c = (ev, res) -> r_now r < timeout -> r_abort r = false ->
  nth_error (c_requests c) i = Some x -> x_response x = 0 -> r_now r < x_start x -> x_start x <> 0 ->
  exists before us after, ev = before ++ Paused (r_now r) us :: after /\ r_now r + us <= x_start x.
Proof.
  intros t c r rounds ev res i x H W NT NA NX NR NS NZ. destruct (reach_inv t c H) as (I & T). cbn [wait] in W. destruct (areHttpsRequestsComplete c) as [b c1] eqn:A.
  destruct (are_complete c b c1 I A) as (B & I1 & R1 & T1). destruct b.
  { exfalso. assert (X : all_have (c_requests c)) by (apply B; reflexivity). unfold all_have in X. rewrite Forall_forall in X. apply (X x); [apply nth_error_In with i; exact NX|exact NR]. }
  rewrite T1, T, NA in W. destruct (Z.ltb_spec (r_now r) t); [|lia]. cbn [andb negb] in W. set (n := first_of (c_last c1)) in *.
  destruct (starts r n (skipn n (c_requests c1)) (t - r_now r)) as [[e2 w2] l2] eqn:S. destruct (starts_wait _ _ _ _ _ _ _ S ltac:(lia)) as (_ & X).
  assert (Hin : In x (skipn n (c_requests c1))).
  { rewrite <- R1 in NX. rewrite <- (firstn_skipn n (c_requests c1)) in NX. destruct (Nat.lt_ge_cases i (List.length (firstn n (c_requests c1)))) as [L|L].
    - exfalso. rewrite nth_error_app1 in NX by exact L. pose proof (all_have_before c1 I1) as F. unfold all_have in F. rewrite Forall_forall in F. apply (F x); [apply nth_error_In with i; exact NX|exact NR].
    - rewrite nth_error_app2 in NX by exact L. apply nth_error_In in NX. exact NX. }
  specialize (X x Hin NZ NS). destruct (polls _ _ _ _ _).
  - destruct (wait rounds _) as [e4 r4]. injection W as <- <-. exists e2, (Z.min w2 1000000), e4. split; [reflexivity|lia].
  - injection W as <- <-. exists e2, (Z.min w2 1000000), []. split; [reflexivity|lia].
Qed.
Print Assumptions C46_wakes.

(** ** Where the results come from *)
(** One request that is polled again and again: the clock and what the network does each time. *)
Fixpoint talk (ms : Z) (l : list (Z * io)) (x : transaction) : option transaction :=
  match l with
  | [] => Some x
  | (now, i) :: l' => match postPoll now ms i x with Some y => talk ms l' y | None => None end
  end.
Definition arrived (l : list (Z * io)) : bytes := flat_map (fun p => io_new (snd p)) l.
(** A request that was sent and has got nothing yet. *)
Definition fresh (x : transaction) : Prop := x_finished x = 0 /\ x_response x = 0 /\ exists k, x_socket x = Some k /\ k_recv k = [].
(** The connection is open and no time limit has passed. *)
Definition alive (x : transaction) (ms : Z) (p : Z * io) : Prop :=
  over (io_state (snd p)) = false /\ fst p <= io_lastSend (snd p) + ms * 1000 /\ fst p <= x_timeoutAt x.
Lemma talk_done ms l x : x_socket x = None -> talk ms l x = Some x.
Proof. intros H. induction l as [|[now i] l IH]; [reflexivity|]. cbn [talk]. unfold postPoll. rewrite H. exact IH. Qed.
Lemma got_length gz x : legal x -> exists v, tfind CL (snd (fst (got gz x))) = Some v.
Proof. intros L. pose proof (got_arrives gz x L) as A. destruct (got gz x) as [[m t] c]. destruct A as (_ & z & D & _). cbn [fst snd]. eexists. apply (dl_length _ _ _ _ D). Qed.
Lemma poll_whole gz m n now ms i x k u : legal m -> status (msg_method m) n -> x_socket x = Some k -> x_finished x = 0 -> u <> 0%nat ->
  SParseHTTP (k_recv k ++ io_new i) = Done u (fst (fst (got gz m))) (snd (fst (got gz m))) (snd (got gz m)) ->
  postPoll now ms i x = Some (Transaction None now (x_timeoutAt x) n (got gz m) (x_start x) (x_startFunc x)).
Proof.
  intros L S K F U E. unfold postPoll. rewrite K, F. cbn [Z.eqb negb]. unfold transfer at 1. cbn [k_recv]. rewrite E. destruct (got_length gz m L) as (v & V). rewrite V.
  destruct (Nat.eqb_spec u 0); [contradiction|]. cbn [negb andb]. rewrite orb_true_r. cbn [orb].
  assert (M : fst (fst (got gz m)) = msg_method m). { pose proof (got_arrives gz m L) as A. destruct (got gz m) as [[m' t] c]. apply A. }
  rewrite M, !(code_status _ _ _ S). destruct (_ || _); rewrite <- M; destruct (got gz m) as [[? ?] ?]; reflexivity.
Qed.
Lemma poll_part now ms i x k : x_socket x = Some k -> x_finished x = 0 -> SParseHTTP (k_recv k ++ io_new i) = Incomplete ->
  exists y, postPoll now ms i x = Some y /\ x_socket y = Some (transfer i k) /\ x_finished y = 0 /\ x_timeoutAt y = x_timeoutAt x /\
    (x_response y = x_response x \/ ~ alive x ms (now, i) /\ (x_response y = 500 \/ x_response y = 501)).
Proof.
  intros K F E. unfold postPoll. rewrite K, F. cbn [Z.eqb negb]. unfold transfer at 1. cbn [k_recv]. rewrite E. cbv zeta. cbn [Nat.eqb negb andb orb].
  change (k_state (transfer i k)) with (io_state i). change (k_lastSend (transfer i k)) with (io_lastSend i). change (k_sendEmpty (transfer i k)) with (io_sendEmpty i).
  destruct (over (io_state i) || (io_lastSend i + ms * 1000 <? now) || (x_timeoutAt x <? now)) eqn:O.
  - eexists. split; [reflexivity|]. cbn [x_socket x_finished x_timeoutAt x_response]. split; [reflexivity|]. split; [reflexivity|]. split; [reflexivity|]. right. split; [|destruct (io_sendEmpty i); auto].
    unfold alive. cbn [fst snd]. intros (A & B & C). rewrite A in O. cbn [orb] in O. apply orb_true_iff in O as [O|O]; apply Z.ltb_lt in O; lia.
  - eexists. split; [reflexivity|]. cbn. auto.
Qed.
Lemma talk_whole gz m w n ms l : forall x k r, on_wire gz m w -> status (msg_method m) n -> x_socket x = Some k -> x_finished x = 0 ->
  k_recv k ++ r = w -> r <> [] -> arrived l = r ->
  (forall l1 p l2, l = l1 ++ p :: l2 -> arrived (l1 ++ [p]) <> r -> alive x ms p) -> (forall p, In p l -> 0 < fst p) ->
  exists y, talk ms l x = Some y /\ x_response y = n /\ x_finished y <> 0 /\ x_message y = got gz m.
Proof.
  induction l as [|[now i] l IH]; intros x k r W S K F E R A AL PO; [cbn in A; congruence|]. cbn [talk]. pose proof (on_wire_sent _ _ _ W) as HS. cbn [arrived flat_map snd] in A. fold (arrived l) in A.
  assert (P0 : 0 < now) by (apply (PO (now, i)); left; reflexivity).
  assert (FIN : forall u, u <> 0%nat -> SParseHTTP (k_recv k ++ io_new i) = Done u (fst (fst (got gz m))) (snd (fst (got gz m))) (snd (got gz m)) ->
    exists y, match postPoll now ms i x with Some y => talk ms l y | None => None end = Some y /\ x_response y = n /\ x_finished y <> 0 /\ x_message y = got gz m).
  { intros u U D. rewrite (poll_whole gz m n now ms i x k u (proj1 W) S K F U D). eexists. split; [apply talk_done; reflexivity|]. cbn. repeat split. lia. }
  destruct (list_eq_dec ascii_dec (arrived l) []) as [L0|L0].
  - assert (B : k_recv k ++ io_new i = w) by (rewrite L0, app_nil_r in A; rewrite A; exact E).
    pose proof (parse_whole gz m w [] [] HS (or_introl eq_refl)) as D. rewrite app_nil_r in D. cbn [app] in D. rewrite <- B in D at 1. apply (FIN _ ltac:(intros Z; apply length_zero_iff_nil in Z; exact (sent_nonempty _ _ _ HS Z)) D).
  - assert (B : (k_recv k ++ io_new i) ++ arrived l = w) by (rewrite <- app_assoc, A; exact E).
    destruct (parse_part gz m w [] (k_recv k ++ io_new i) (arrived l) HS (or_introl eq_refl) B L0) as [D|(_ & _ & D)]; cbn [app] in D.
    + destruct (poll_part now ms i x k K F D) as (y & Y & Y1 & Y2 & Y3 & Y4). rewrite Y.
      assert (AR : alive x ms (now, i)). { apply (AL [] (now, i) l eq_refl). cbn [arrived app flat_map snd]. rewrite app_nil_r. intros Z. apply L0. rewrite <- Z in A. rewrite <- (app_nil_r (io_new i)) in A at 2. apply app_inv_head in A. exact A. }
      apply (IH y _ (arrived l) W S Y1 Y2); auto.
      * intros l1 p l2 EL N. unfold alive. rewrite Y3. apply (AL ((now, i) :: l1) p l2); [rewrite EL; reflexivity|]. cbn [app arrived flat_map snd]. fold (arrived (l1 ++ [p])). rewrite <- A. intros Z. apply app_inv_head in Z. contradiction.
      * intros p Hp. apply PO. right. exact Hp.
    + destruct (k_recv k ++ io_new i) as [|a b] eqn:Q; [rewrite SParseHTTP_P in D; discriminate|]. apply (FIN (List.length (a :: b))); [discriminate|exact D].
Qed.
(** When the other server's answer has arrived, in whatever pieces, the request has the status in it as its result, and the answer is what was
    sent.  [w] is the answer in the format of C14, which has a Content-Length. *)
Theorem C46_answer : forall gz m w n ms l x, on_wire gz m w -> status (msg_method m) n -> fresh x -> arrived l = w ->
  (forall l1 p l2, l = l1 ++ p :: l2 -> arrived (l1 ++ [p]) <> w -> alive x ms p) -> (forall p, In p l -> 0 < fst p) ->
  exists y, talk ms l x = Some y /\ x_response y = n /\ x_finished y <> 0 /\ arrives gz m (x_message y).
Proof.
  intros gz m w n ms l x W S (F & _ & k & K & Q) A AL PO. destruct (talk_whole gz m w n ms l x k w W S K F) as (y & H1 & H2 & H3 & H4); auto.
  - rewrite Q. reflexivity.
  - apply (sent_nonempty _ _ _ (on_wire_sent _ _ _ W)).
  - exists y. rewrite H4. pose proof (got_arrives gz m (proj1 W)). auto.
Qed.
Print Assumptions C46_answer.
(** A part of an answer is never taken for the answer, whatever happens to the connection: the request gets no result, or 500 or 501.  (Of an
    answer without a body, the last line feed may be missing.) *)
Theorem C46_truncated : forall gz m w p r ms l x, on_wire gz m w -> p ++ r = w -> r <> [] -> (r = ["010"%char] -> msg_content m <> []) -> fresh x -> arrived l = p ->
  exists y, talk ms l x = Some y /\ x_finished y = 0 /\ (x_response y = 0 \/ x_response y = 500 \/ x_response y = 501).
Proof.
  intros gz m w p r ms l x W E R LF (F & Z & k & K & Q) A.
  assert (G : forall l x k p, x_finished x = 0 -> (x_response x = 0 \/ x_response x = 500 \/ x_response x = 501) -> x_socket x = Some k -> arrived l = p -> (k_recv k ++ p) ++ r = w ->
    exists y, talk ms l x = Some y /\ x_finished y = 0 /\ (x_response y = 0 \/ x_response y = 500 \/ x_response y = 501)).
  { clear - W R LF. induction l as [|[now i] l IH]; intros x k p F Z K A E; [exists x; auto|]. cbn [talk]. cbn [arrived flat_map snd] in A. fold (arrived l) in A. subst p.
    assert (B : (k_recv k ++ io_new i) ++ (arrived l ++ r) = w) by (rewrite <- E, !app_assoc; reflexivity).
    assert (NR : arrived l ++ r <> []) by (intros X; apply app_eq_nil in X; apply R, X).
    destruct (C15_truncated_waits gz m w _ _ W B NR) as [D|(X & C & _)].
    - destruct (poll_part now ms i x k K F D) as (y & Y & Y1 & Y2 & _ & Y4). rewrite Y. apply (IH y (transfer i k) (arrived l) Y2); auto; [destruct Y4 as [->|(_ & Y4)]; auto|]. cbn [transfer k_recv]. rewrite <- E, <- !app_assoc. reflexivity.
    - exfalso. destruct (arrived l) as [|a al]; [exact (LF X C)|]. injection X as _ X. apply app_eq_nil in X. apply R, X. }
  apply (G l x k p); auto. rewrite Q. exact E.
Qed.
Print Assumptions C46_truncated.
(** An answer without Content-Length (and other than 204) is over when the other side closes the connection, not before. *)
Theorem C46_until_close : forall now ms i x k u m t c, x_socket x = Some k -> x_finished x = 0 -> SParseHTTP (k_recv k ++ io_new i) = Done u m t c ->
  tfind (lit "Content-Length") t = None -> (forall s, status m s -> s <> 204) -> (exists s, status m s) ->
  (alive x ms (now, i) -> exists y, postPoll now ms i x = Some y /\ x_response y = x_response x /\ x_socket y = Some (transfer i k) /\ x_finished y = 0) /\
  (io_state i = CLOSED -> exists y, postPoll now ms i x = Some y /\ status m (x_response y) /\ x_message y = (m, t, c) /\ x_finished y = now).
Proof.
  intros now ms i x k u m t c K F D NC N4 (s & HS). unfold postPoll. rewrite K, F. cbn [Z.eqb negb]. change (k_recv (transfer i k)) with (k_recv k ++ io_new i). rewrite D. fold CL in NC. rewrite NC.
  destruct (C43_uses_what_is_there _ _ _ _ _ D) as (U & _). destruct (Nat.eqb_spec u 0); [lia|]. cbv zeta. cbn [negb andb]. rewrite orb_false_r.
  assert (ST : (match find_sep " " m with (_, []) => 0 | (_, r) => atoi r end) = s).
  { pose proof HS as HS'. destruct HS' as (v & j & reason & V & -> & R & -> & B). rewrite find_sep_here by exact V. unfold atoi.
    assert (X : SToInt64 (" "%char :: dec j ++ reason) = SToInt64 (dec j ++ reason)) by reflexivity. rewrite X, SToInt64_dec_then by exact R. rewrite Z.min_r by lia. apply to_int_small. lia. }
  rewrite ST. destruct (Z.eqb_spec s 204); [exfalso; exact (N4 s HS e)|]. cbn [orb].
  change (k_state (transfer i k)) with (io_state i). change (k_lastSend (transfer i k)) with (io_lastSend i). split.
  - intros (A & B & C). cbn [fst snd] in *. assert (CL : closed (io_state i) = false) by (destruct (io_state i); try discriminate; reflexivity). rewrite CL, A. cbn [orb].
    destruct (Z.ltb_spec (io_lastSend i + ms * 1000) now); [lia|]. destruct (Z.ltb_spec (x_timeoutAt x) now); [lia|]. cbn [orb]. eexists. split; [reflexivity|]. cbn. auto.
  - intros ->. cbn [closed]. eexists. split; [reflexivity|]. cbn [x_response x_message x_finished]. rewrite !(code_status _ _ _ HS). destruct (_ || _); auto.
Qed.
Print Assumptions C46_until_close.

(** ** Where the unrestricted statement fails *)
Definition open_socket : socket := Socket [] CONNECTED 0 true.
Definition asked (timeoutAt : Z) : transaction := Transaction (Some open_socket) 0 timeoutAt 0 ([], [], []) 0 false.
Definition quiet : io := Io [] CONNECTED 0 true.
Definition hears (s : bytes) (st : sstate) : io := Io s st 0 true.
Definition at_time (now : Z) (f : nat -> io) : round := Round now false (fun _ => (None, 0)) f (fun _ => now) false.
Definition command_of (l : list transaction) : command := Command l None 1000.
Definition ok_head : bytes := lit "HTTP/1.1 200 OK" ++ CRLF.
(** An outside server whose answer has a Content-Length that is not a number ends the server: the exception is not caught in the thread that
    waits for the answer (runCommand). *)
Theorem C46_bad_length_refuted : exists ev, wait [at_time 10 (fun _ => hears (ok_head ++ lit "Content-Length: x" ++ CRLF ++ CRLF) CONNECTED)] (command_of [asked 0]) = (ev, Stopped).
Proof. eexists. vm_compute. reflexivity. Qed.
Print Assumptions C46_bad_length_refuted.
(** A part of an answer without Content-Length is taken for the whole when time is over: the result is 200. *)
Theorem C46_truncated_refuted : exists y t, talk 300000 [(5, hears (ok_head ++ CRLF ++ lit "the first half of") CONNECTED); (11, quiet)] (asked 10) = Some y /\
  x_response y = 200 /\ x_message y = (lit "HTTP/1.1 200 OK", t, lit "the first half of").
Proof. eexists _, _. vm_compute. repeat split. Qed.
Print Assumptions C46_truncated_refuted.
(** A request that failed for lack of time keeps its connection, and is polled again when the command waits for another request: a command that
    was told 501 finds 200 later. *)
Theorem C46_changes_refuted : exists c1 ev1 c2 ev2,
  wait [at_time 11 (fun _ => quiet)] (push_back (asked 10) (Command [] None 1000)) = (ev1, Finished c1) /\ map x_response (c_requests c1) = [501] /\
  wait [at_time 12 (fun i => match i with O => hears (ok_head ++ lit "Content-Length: 0" ++ CRLF ++ CRLF) CONNECTED | _ => hears (lit "HTTP/1.1 404 X" ++ CRLF ++ CRLF) CLOSED end)]
       (push_back (asked 500) c1) = (ev2, Finished c2) /\ map x_response (c_requests c2) = [200; 404].
Proof. do 4 eexists. split; [vm_compute; reflexivity|]. split; [reflexivity|]. split; vm_compute; reflexivity. Qed.
Print Assumptions C46_changes_refuted.
(** A status is cut to 32 bits: 4294967496 is read as 200. *)
Theorem C46_status_overflow_refuted : getHTTPResponseCode (lit "HTTP/1.1 4294967496 Bad") 400 = 200.
Proof. vm_compute. reflexivity. Qed.
Print Assumptions C46_status_overflow_refuted.

(** Three requests: the answer to the first comes in two pieces, the second is started later, the third is never answered. *)
Definition later_one : transaction := Transaction None 0 0 0 ([], [], []) 30 true.
Example C46_story : exists c ev, wait
  [at_time 10 (fun i => match i with O => hears (ok_head ++ lit "Content-Length: 5" ++ CRLF ++ CRLF ++ lit "he") CONNECTED | _ => quiet end);
   Round 30 false (fun _ => (Some open_socket, 0)) (fun i => match i with O => hears (lit "llo") CONNECTED | 1%nat => hears (lit "HTTP/1.1 404 X" ++ CRLF ++ CRLF) CLOSED | _ => quiet end) (fun _ => 31) false;
   at_time 1000 (fun _ => quiet)]
  (push_back (asked 0) (push_back later_one (push_back (asked 0) (Command [] None 1000)))) = (ev, Finished c) /\
  map x_response (c_requests c) = [200; 404; 500] /\ ev = [Paused 10 20; Started 1 30; Paused 30 970].
Proof. do 2 eexists. split; [vm_compute; reflexivity|]. split; reflexivity. Qed.
Lemma ok_legal : legal (mkMsg (lit "HTTP/1.1 200 OK") [] (lit "hello")).
Proof.
  split; [|split; [constructor|split; [intros ? ? []|vm_compute; reflexivity]]]; cbn [msg_method].
  split; [discriminate|]. split; [split; vm_compute; discriminate|]. intros c Hc. right. revert c Hc. apply (proj1 (Forall_forall _ _)). repeat (apply Forall_cons; [vm_compute; split; [discriminate|discriminate]|]). constructor.
Qed.
Example C46_answer_case : exists w, on_wire (fun b => b) (mkMsg (lit "HTTP/1.1 200 OK") [] (lit "hello")) w /\ fresh (asked 10) /\ status (lit "HTTP/1.1 200 OK") 200.
Proof.
  destruct (C14_composable (fun b => b) _ ok_legal) as (w & E). exists w. split; [split; [exact ok_legal|split; [vm_compute; reflexivity|exact E]]|].
  split; [split; [reflexivity|split; [reflexivity|exists open_socket; split; reflexivity]]|].
  exists (lit "HTTP/1.1"), 200%N, (lit " OK"). split; [vm_compute; intuition discriminate|]. split; [reflexivity|]. split; [right; eexists; reflexivity|]. split; [reflexivity|lia].
Qed.
