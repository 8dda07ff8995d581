(** C64: nothing is written on a leader before its database is upgraded. *)
From Verif Require Import Base Upgrade_Spec Upgrade_Model.

(** ** Traces *)
Definition node_after (t : list event) : node := fold_left (fun n e => match e with Became m => m | _ => n end) t Other.
Local Arguments node_after : simpl never.
Lemma node_snoc t e : node_after (t ++ [e]) = match e with Became m => m | _ => node_after t end.
Proof. unfold node_after. rewrite fold_left_app. reflexivity. Qed.
Lemma became a b : node_after a <> Leading -> node_after (a ++ b) = Leading -> In (Became Leading) b.
Proof.
  intros A. induction b as [|e b IH] using rev_ind; intros H; [rewrite app_nil_r in H; contradiction|]. rewrite app_assoc, node_snoc in H. apply in_or_app.
  destruct e; try (left; apply IH; exact H). right. left. rewrite H. reflexivity.
Qed.
Definition followed (i : nat) (t : list event) : Prop := exists a b, t = a ++ Asks i Following :: b /\ asks_not i b /\ node_after a = Following.
Definition other_ask (i : nat) (e : event) : Prop := forall n, e <> Asks i n.
Lemma asks_snoc i t e : asks_not i t -> other_ask i e -> asks_not i (t ++ [e]).
Proof. intros A B n H. apply in_app_or in H as [H|[H|[]]]; [exact (A n H)|exact (B n H)]. Qed.
Lemma followed_snoc i t e : followed i t -> other_ask i e -> followed i (t ++ [e]).
Proof. intros (a & b & -> & B & N) O. exists a, (b ++ [e]). rewrite <- app_assoc. cbn [app]. split; [reflexivity|]. split; [apply asks_snoc; assumption|exact N]. Qed.
Lemma overtaken_snoc i t e : overtaken i t -> other_ask i e -> overtaken i (t ++ [e]).
Proof.
  intros (a & b & -> & B & L) O. exists a, (b ++ [e]). rewrite <- app_assoc. cbn [app]. split; [reflexivity|]. split; [apply asks_snoc; assumption|]. apply in_or_app. left. exact L.
Qed.
Lemma upgraded_snoc t e : upgraded t -> upgraded (t ++ [e]).
Proof. intros [i H]. exists i. apply in_or_app. left. exact H. Qed.
Lemma followed_overtaken i t : followed i t -> node_after t = Leading -> overtaken i t.
Proof.
  intros (a & b & -> & B & N) L. exists a, b. split; [reflexivity|]. split; [exact B|].
  change (a ++ Asks i Following :: b) with (a ++ [Asks i Following] ++ b) in L. rewrite app_assoc in L. apply (became (a ++ [Asks i Following]) b); [|exact L].
  rewrite node_snoc, N. discriminate.
Qed.

(** ** The invariant *)
Definition command_ok (t : list event) (c : command) : Prop :=
  if c_upgrade c then match c_place c with Finished true => upgraded t | _ => True end
  else match c_place c with
       | Allowed => upgraded t \/ followed (c_id c) t
       | Processing => upgraded t \/ overtaken (c_id c) t
       | _ => True
       end.
Definition writes_ok (t : list event) : Prop := forall a i b, t = a ++ Writes i :: b -> upgraded a \/ overtaken i a.
Definition ups (l : list command) : nat := List.length (filter c_upgrade l).
Local Arguments ups : simpl never.
Record inv (s : state) : Prop := {
  i_node : node_after (s_trace s) = s_node s;
  i_ids : NoDup (map c_id (s_commands s));
  i_next : Forall (fun c => c_id c < s_next s) (s_commands s);
  i_completed : s_completed s = true -> upgraded (s_trace s);
  i_commands : Forall (command_ok (s_trace s)) (s_commands s);
  i_writes : writes_ok (s_trace s);
  i_ups : ups (s_commands s) = if s_running s then 1 else 0;
  i_sync : s_sync s = Reads_state \/ s_sync s = Asks_majority -> s_running s = false }.

Lemma ok_snoc t c e : command_ok t c -> other_ask (c_id c) e -> command_ok (t ++ [e]) c.
Proof.
  unfold command_ok. intros H O. destruct (c_upgrade c).
  - destruct (c_place c) as [| | | | | | | |[|]]; try exact I. apply upgraded_snoc. exact H.
  - destruct (c_place c); try exact I; (destruct H as [H|H]; [left; apply upgraded_snoc; exact H|right]).
    + apply followed_snoc; assumption.
    + apply overtaken_snoc; assumption.
Qed.
Lemma writes_snoc t e : writes_ok t -> (forall i, e = Writes i -> upgraded t \/ overtaken i t) -> writes_ok (t ++ [e]).
Proof.
  intros W H a i b E. destruct b as [|x b _] using rev_ind.
  - apply app_inj_tail in E as [<- E]. apply H. exact E.
  - change (Writes i :: b ++ [x]) with ((Writes i :: b) ++ [x]) in E. rewrite app_assoc in E. apply app_inj_tail in E as [-> _]. apply (W a i b eq_refl).
Qed.
(** A trace with one event more, or none. *)
Definition more (e : option event) (t : list event) : list event := match e with Some e => t ++ [e] | None => t end.
Definition add_ (e : option event) (s : state) : state := match e with Some e => add e s | None => s end.

Lemma map_ids i p l : map c_id (map (fun c => if Nat.eqb (c_id c) i then Command i (c_upgrade c) p else c) l) = map c_id l.
Proof. induction l as [|c l IH]; [reflexivity|]. cbn [map]. rewrite IH. destruct (Nat.eqb_spec (c_id c) i) as [<-|]; reflexivity. Qed.
Lemma map_ups i p l : ups (map (fun c => if Nat.eqb (c_id c) i then Command i (c_upgrade c) p else c) l) = ups l.
Proof.
  unfold ups. induction l as [|c l IH]; [reflexivity|]. cbn [map filter]. destruct (Nat.eqb (c_id c) i); cbn [c_upgrade]; destruct (c_upgrade c); cbn [List.length]; rewrite IH; reflexivity.
Qed.
Lemma find_in i s c : find_command i s = Some c -> In c (s_commands s) /\ c_id c = i.
Proof. intros H. apply find_some in H as [H E]. apply Nat.eqb_eq in E. split; assumption. Qed.
Lemma same_id l (c d : command) : NoDup (map c_id l) -> In c l -> In d l -> c_id c = c_id d -> c = d.
Proof.
  induction l as [|x l IH]; intros N C D E; [destruct C|]. cbn [map] in N. inversion N as [|? ? N1 N2]; subst.
  destruct C as [->|C], D as [->|D]; try reflexivity.
  - exfalso. apply N1. rewrite E. apply in_map. exact D.
  - exfalso. apply N1. rewrite <- E. apply in_map. exact C.
  - apply IH; assumption.
Qed.
Lemma inv_put s i c p e : inv s -> find_command i s = Some c ->
  (forall m, e <> Some (Became m)) -> (forall j n, e = Some (Asks j n) -> j = i) -> (forall j, e = Some (Writes j) -> upgraded (s_trace s) \/ overtaken j (s_trace s)) ->
  command_ok (more e (s_trace s)) (Command i (c_upgrade c) p) -> inv (add_ e (put i p s)).
Proof.
  intros V F B A W K. apply find_in in F as [F ID]. destruct V. destruct s as [n co ru sy cs nx tr]; cbn in *.
  assert (G : inv (State n co ru sy (map (fun c => if Nat.eqb (c_id c) i then Command i (c_upgrade c) p else c) cs) nx (more e tr))).
  { constructor; cbn.
    - destruct e as [e|]; [|exact i_node0]. cbn. rewrite node_snoc. destruct e; try exact i_node0. exfalso. exact (B _ eq_refl).
    - rewrite map_ids. exact i_ids0.
    - rewrite Forall_forall in *. intros x X. apply in_map_iff in X as (y & <- & Y). specialize (i_next0 y Y). destruct (Nat.eqb_spec (c_id y) i) as [<-|]; exact i_next0.
    - intros H. destruct e; [apply upgraded_snoc|]; apply i_completed0; exact H.
    - rewrite Forall_forall in *. intros x X. apply in_map_iff in X as (y & <- & Y). destruct (Nat.eqb_spec (c_id y) i) as [E|E].
      + assert (Q : y = c) by (apply (same_id cs); [assumption..|rewrite ID; exact E]). subst y. exact K.
      + specialize (i_commands0 y Y). destruct e as [e|]; [|exact i_commands0]. apply ok_snoc; [exact i_commands0|]. intros m Q. subst e. apply E. apply (A _ m eq_refl).
    - destruct e as [e|]; [|exact i_writes0]. apply writes_snoc; [exact i_writes0|]. intros j Q. subst e. apply W. reflexivity.
    - rewrite map_ups. exact i_ups0.
    - exact i_sync0. }
  destruct e; exact G.
Qed.
Lemma ups_drop l c : NoDup (map c_id l) -> In c l -> ups (filter (fun x => negb (Nat.eqb (c_id x) (c_id c))) l) = ups l - (if c_upgrade c then 1 else 0).
Proof.
  intros N I. unfold ups. induction l as [|x l IH]; [destruct I|]. cbn [map] in N. inversion N as [|? ? N1 N2]; subst. cbn [filter].
  destruct I as [->|I].
  - rewrite Nat.eqb_refl. cbn [negb]. assert (Q : filter (fun y => negb (Nat.eqb (c_id y) (c_id c))) l = l).
    { clear -N1. induction l as [|y l IH]; [reflexivity|]. cbn [filter]. destruct (Nat.eqb_spec (c_id y) (c_id c)) as [E|E]; cbn [negb].
      - exfalso. apply N1. left. exact E.
      - f_equal. apply IH. intros H. apply N1. right. exact H. }
    rewrite Q. destruct (c_upgrade c); cbn [List.length]; lia.
  - destruct (Nat.eqb_spec (c_id x) (c_id c)) as [E|E]; cbn [negb].
    + exfalso. apply N1. rewrite E. apply in_map. exact I.
    + cbn [filter]. specialize (IH N2 I). destruct (c_upgrade x); cbn [List.length]; [|exact IH]. rewrite IH.
      assert (Q : c_upgrade c = true -> 0 < List.length (filter c_upgrade l)).
      { intros U. assert (Z : In c (filter c_upgrade l)) by (apply filter_In; split; assumption). destruct (filter c_upgrade l); [destruct Z|cbn; lia]. }
      destruct (c_upgrade c); [specialize (Q eq_refl)|]; lia.
Qed.
Lemma NoDup_ids_filter f (l : list command) : NoDup (map c_id l) -> NoDup (map c_id (filter f l)).
Proof.
  induction l as [|x l IH]; intros N; [constructor|]. cbn [map] in N. inversion N as [|? ? N1 N2]; subst. cbn [filter]. destruct (f x); [|apply IH; exact N2].
  cbn [map]. constructor; [|apply IH; exact N2]. intros H. apply N1. apply in_map_iff in H as (y & E & Y). apply filter_In in Y as [Y _]. rewrite <- E. apply in_map. exact Y.
Qed.
Lemma Forall_sub {T} (P : T -> Prop) f l : Forall P l -> Forall P (filter f l).
Proof. rewrite !Forall_forall. intros H x X. apply filter_In in X as [X _]. apply H. exact X. Qed.
Lemma inv_destroy s i c ok : inv s -> find_command i s = Some c -> c_place c = Finished ok -> inv (destroy i (c_upgrade c) ok s).
Proof.
  intros V F P. apply find_in in F as [F ID]. destruct V. destruct s as [n co ru sy cs nx tr]; cbn in *.
  pose proof (ups_drop cs c i_ids0 F) as U. rewrite ID in U. unfold destroy. destruct (c_upgrade c) eqn:Q.
  - assert (UP : ok = true -> upgraded tr).
    { intros ->. rewrite Forall_forall in i_commands0. specialize (i_commands0 c F). unfold command_ok in i_commands0. rewrite Q, P in i_commands0. exact i_commands0. }
    assert (Z : ups (filter (fun c => negb (Nat.eqb (c_id c) i)) cs) = 0) by (destruct ru; lia).
    destruct ok; constructor; cbn; try assumption; try (apply NoDup_ids_filter; assumption); try (apply Forall_sub; assumption); try reflexivity.
    + rewrite node_snoc. assumption.
    + intros _. apply upgraded_snoc. apply UP. reflexivity.
    + apply Forall_sub. rewrite Forall_forall in *. intros x X. apply ok_snoc; [apply i_commands0; exact X|]. intros m; discriminate.
    + apply writes_snoc; [assumption|]. intros; discriminate.
  - constructor; cbn; try assumption; try (apply NoDup_ids_filter; assumption); try (apply Forall_sub; assumption). lia.
Qed.
Lemma inv_at s p : inv s -> (p = Reads_state \/ p = Asks_majority -> s_running s = false) -> inv (at_ p s).
Proof. intros V H. destruct V. constructor; assumption. Qed.
Lemma NoDup_snoc (l : list nat) x : NoDup l -> ~ In x l -> NoDup (l ++ [x]).
Proof. intros N I. apply (Permutation_NoDup (l := x :: l)); [apply Permutation_cons_append|constructor; assumption]. Qed.

Lemma inv_start n : inv (start n).
Proof.
  constructor; cbn; try (constructor; fail); try reflexivity; try (intros; discriminate).
  - intros a i b E. destruct a as [|x a]; [discriminate|]. injection E as _ E. destruct a; discriminate.
Qed.

Lemma inv_step s a s' : inv s -> step s a = Some s' -> inv s'.
Proof.
  intros V H. destruct a as [n|m| |i l]; cbn [step] in H.
  - injection H as <-. destruct V. constructor; cbn; try assumption.
    + rewrite node_snoc. reflexivity.
    + intros C. apply upgraded_snoc. apply i_completed0. exact C.
    + rewrite Forall_forall in *. intros x X. apply ok_snoc; [apply i_commands0; exact X|]. intros k; discriminate.
    + apply writes_snoc; [assumption|]. intros; discriminate.
  - injection H as <-. unfold sync_step. destruct (s_sync s) eqn:S.
    + destruct (negb (s_completed s)); [|exact V]. apply inv_at; [exact V|]. intros [E|E]; discriminate.
    + destruct (s_running s) eqn:R; cbn [negb]; apply inv_at; try exact V; [intros [E|E]; discriminate|intros _; exact R].
    + destruct (s_node s); apply inv_at; try exact V; try (intros [E|E]; discriminate). intros _. apply (i_sync s V). left. exact S.
    + assert (R : s_running s = false) by (apply (i_sync s V); right; exact S). destruct m; cbn [negb]; [|apply inv_at; [exact V|intros [E|E]; discriminate]].
      destruct V. rewrite R in *. constructor; cbn.
      * rewrite node_snoc. assumption.
      * rewrite map_app. apply NoDup_snoc; [assumption|]. intros I. apply in_map_iff in I as (y & E & Y). rewrite Forall_forall in i_next0. specialize (i_next0 y Y). cbn in E. lia.
      * apply Forall_app. split; [|constructor; [cbn; lia|constructor]]. eapply Forall_impl; [|exact i_next0]. cbn. intros; lia.
      * intros C. apply upgraded_snoc. apply i_completed0. exact C.
      * apply Forall_app. split; [|constructor; [exact I|constructor]]. rewrite Forall_forall in *. intros x X. apply ok_snoc; [apply i_commands0; exact X|]. intros k; discriminate.
      * apply writes_snoc; [assumption|]. intros; discriminate.
      * unfold ups in *. rewrite filter_app, app_length, i_ups0. reflexivity.
      * intros [E|E]; discriminate.
    + apply inv_at; [exact V|]. intros [E|E]; discriminate.
  - injection H as <-. destruct V. constructor; cbn; try assumption.
    + rewrite map_app. apply NoDup_snoc; [assumption|]. intros I. apply in_map_iff in I as (y & E & Y). rewrite Forall_forall in i_next0. specialize (i_next0 y Y). cbn in E. lia.
    + apply Forall_app. split; [|constructor; [cbn; lia|constructor]]. eapply Forall_impl; [|exact i_next0]. cbn. intros; lia.
    + apply Forall_app. split; [assumption|constructor; [exact I|constructor]].
    + unfold ups in *. rewrite filter_app, app_length, i_ups0. cbn. lia.
  - destruct (find_command i s) as [c|] eqn:F; [|discriminate]. pose proof (find_in i s c F) as [IN ID].
    assert (CO : command_ok (s_trace s) c) by (pose proof (i_commands s V) as Q; rewrite Forall_forall in Q; apply Q; exact IN).
    assert (NO := i_node s V).
    assert (P0 : forall p, (c_upgrade c = true -> p = Finished true -> upgraded (s_trace s)) -> (c_upgrade c = false -> p = Allowed -> upgraded (s_trace s) \/ followed i (s_trace s)) ->
                 (c_upgrade c = false -> p = Processing -> upgraded (s_trace s) \/ overtaken i (s_trace s)) -> inv (put i p s)).
    { intros p H1 H2 H3. apply (inv_put s i c p None V F); try (intros; discriminate). unfold command_ok. cbn. destruct (c_upgrade c).
      - destruct p as [| | | | | | | |[|]]; try exact I. apply H1; reflexivity.
      - destruct p; try exact I; auto. }
    assert (P1 : forall p e, (forall m, e <> Became m) -> (forall j n, e = Asks j n -> j = i) -> (forall j, e = Writes j -> upgraded (s_trace s) \/ overtaken j (s_trace s)) ->
                 command_ok (s_trace s ++ [e]) (Command i (c_upgrade c) p) -> inv (add e (put i p s))).
    { intros p e H1 H2 H3 H4. apply (inv_put s i c p (Some e) V F); [..|exact H4]; intros.
      - intros Q. injection Q as ->. exact (H1 _ eq_refl).
      - injection H0 as ->. eapply H2. reflexivity.
      - injection H0 as ->. apply H3. reflexivity. }
    unfold command_ok in CO. rewrite ID in CO.
    destruct (c_place c) as [| | | | | | | |ok] eqn:P; destruct l as [|ok'|]; cbn [command_step] in H; try discriminate;
      try (injection H as <-);
      try (destruct (c_upgrade c) eqn:U);
      try (apply P0; intros; congruence);
      try (destruct (s_completed s) eqn:C; apply P0; intros; try congruence; left; apply (i_completed s V); exact C).
    (* Queued *)
    + destruct (s_node s); try exact V; apply P0; intros; congruence.
    (* Queued_state *)
    + destruct (s_node s); apply P0; intros; congruence.
    + destruct (s_node s); apply P0; intros; congruence.
    (* Peeked *)
    + destruct (s_node s) eqn:N; apply P1; try (intros; congruence); try exact I.
      unfold command_ok. cbn. right. exists (s_trace s), []. repeat split; [intros m []|]. exact NO.
    (* Allowed *)
    + destruct (s_node s); try exact V. apply P0; intros; congruence.
    + destruct (s_node s) eqn:N; try exact V. apply P0; intros; try congruence. destruct CO as [CO|CO]; [left; exact CO|right].
      apply followed_overtaken; [exact CO|exact NO].
    + destruct (s_node s); try discriminate; injection H as <-; apply P0; intros; congruence.
    + destruct (s_node s); try discriminate; injection H as <-; apply P0; intros; congruence.
    + destruct (s_node s); try discriminate; injection H as <-; apply P0; intros; congruence.
    + destruct (s_node s); try discriminate; injection H as <-; apply P0; intros; congruence.
    (* Processing *)
    + apply P1; try (intros; congruence); exact I.
    + destruct ok'; [|apply P0; intros; congruence]. apply P1; try (intros; congruence). exists i. apply in_or_app. right. left. reflexivity.
    + apply P1; try (intros; congruence); exact I.
    + apply P1; try (intros; congruence); exact I.
    (* Committing *)
    + apply P1; try (intros; congruence). exists i. apply in_or_app. right. left. reflexivity.
    + destruct ok'; [discriminate|]. injection H as <-. apply P0; intros; congruence.
    + destruct ok'; [discriminate|]. injection H as <-. apply P0; intros; congruence.
    (* Finished *)
    + rewrite <- U. apply inv_destroy; assumption.
    + rewrite <- U. apply inv_destroy; assumption.
Qed.
Lemma inv_run l : forall s s', inv s -> run s l = Some s' -> inv s'.
Proof.
  induction l as [|a l IH]; intros s s' V H; cbn [run] in H; [injection H as <-; exact V|].
  destruct (step s a) as [s1|] eqn:E; [|discriminate]. apply (IH s1); [apply (inv_step s a); assumption|exact H].
Qed.
Lemma inv_reachable s : reachable s -> inv s.
Proof. intros (n & l & H). exact (inv_run l _ _ (inv_start n) H). Qed.

(** ** Theorems *)

(** A command writes only after an upgrade is done, unless the node has become the leader between the command's look at
    its state and its writing. *)
Theorem C64_first s : reachable s -> forall before i after, s_trace s = before ++ Writes i :: after -> upgraded before \/ overtaken i before.
Proof. intros R before i after E. exact (i_writes s (inv_reachable s R) before i after E). Qed.
Print Assumptions C64_first.

(** There is one upgrade at a time. *)
Theorem C64_one s : reachable s -> forall c d, In c (s_commands s) -> In d (s_commands s) -> c_upgrade c = true -> c_upgrade d = true -> c = d.
Proof.
  intros R c d C D UC UD. pose proof (i_ups s (inv_reachable s R)) as U. unfold ups in U.
  assert (L : List.length (filter c_upgrade (s_commands s)) <= 1) by (destruct (s_running s); lia).
  assert (FC : In c (filter c_upgrade (s_commands s))) by (apply filter_In; split; assumption).
  assert (FD : In d (filter c_upgrade (s_commands s))) by (apply filter_In; split; assumption).
  destruct (filter c_upgrade (s_commands s)) as [|x [|y l]]; [destruct FC|..].
  - destruct FC as [<-|[]], FD as [<-|[]]. reflexivity.
  - cbn in L. lia.
Qed.
Print Assumptions C64_one.

(** Once the server has taken note of an upgrade it begins at most one more. *)
Definition pending (p : sync) : nat := match p with Reads_running | Reads_state | Asks_majority => 1 | _ => 0 end.
Definition kinv (s : state) : Prop := forall before after, s_trace s = before ++ Known :: after -> s_completed s = true /\ starts after + pending (s_sync s) <= 1.
Lemma starts_snoc t e : starts (t ++ [e]) = starts t + match e with Starts _ => 1 | _ => 0 end.
Proof. unfold starts. rewrite filter_app, app_length. destruct e; reflexivity. Qed.
Lemma known_snoc t e before after : t ++ [e] = before ++ Known :: after ->
  (after = [] /\ e = Known) \/ exists after', after = after' ++ [e] /\ t = before ++ Known :: after'.
Proof.
  intros E. destruct after as [|x after _] using rev_ind.
  - apply app_inj_tail in E as [_ ->]. left. split; reflexivity.
  - change (Known :: after ++ [x]) with ((Known :: after) ++ [x]) in E. rewrite app_assoc in E. apply app_inj_tail in E as [-> ->]. right. exists after. split; reflexivity.
Qed.
(** A step that leaves the sync thread where it is and begins no upgrade. *)
Lemma kinv_same s s' : kinv s -> s_sync s' = s_sync s -> (s_completed s = true -> s_completed s' = true) ->
  (s_trace s' = s_trace s \/ exists e, s_trace s' = s_trace s ++ [e] /\ (e = Known -> s_completed s' = true) /\ forall i, e <> Starts i) -> kinv s'.
Proof.
  intros K S C T before after E. rewrite S. destruct T as [T|(e & T & KN & NS)]; rewrite T in E.
  - destruct (K _ _ E) as [A B]. split; [apply C; exact A|exact B].
  - apply known_snoc in E as [[-> Q]|(after' & -> & E)].
    + split; [apply KN; exact Q|]. unfold starts. cbn. destruct (s_sync s); cbn; lia.
    + destruct (K _ _ E) as [A B]. split; [apply C; exact A|]. rewrite starts_snoc. destruct e; try lia. exfalso. exact (NS _ eq_refl).
Qed.
Lemma kinv_step s a s' : kinv s -> step s a = Some s' -> kinv s'.
Proof.
  intros K H. destruct a as [n|m| |i l]; cbn [step] in H.
  - injection H as <-. apply (kinv_same s); try reflexivity; try exact K; [intros C; exact C|]. right. eexists. split; [reflexivity|]. split; [intros; discriminate|intros i; discriminate].
  - injection H as <-. intros before after E. unfold sync_step in E |- *. destruct (s_sync s) eqn:S.
    + destruct (s_completed s) eqn:C; cbn [negb] in *.
      * destruct (K _ _ E) as [_ A]. split; [exact C|exact A].
      * destruct (K _ _ E) as [A _]. congruence.
    + destruct (s_running s); cbn [negb] in *; destruct (K _ _ E) as [A B]; rewrite S in B; cbn in *; split; try exact A; lia.
    + destruct (s_node s); destruct (K _ _ E) as [A B]; rewrite S in B; cbn in *; split; try exact A; lia.
    + destruct m; cbn [negb] in *.
      * cbn in E. apply known_snoc in E as [[_ Q]|(after' & -> & E)]; [discriminate|]. destruct (K _ _ E) as [A B]. rewrite S in B. split; [exact A|].
        rewrite starts_snoc. cbn in *. lia.
      * destruct (K _ _ E) as [A B]. rewrite S in B. cbn in *. split; [exact A|lia].
    + destruct (K _ _ E) as [A B]. rewrite S in B. cbn in *. split; [exact A|lia].
  - injection H as <-. apply (kinv_same s); try reflexivity; try exact K; [intros C; exact C|left; reflexivity].
  - destruct (find_command i s) as [c|]; [|discriminate].
    assert (P0 : forall p, kinv (put i p s)) by (intros p; apply (kinv_same s); try reflexivity; try exact K; [intros C; exact C|left; reflexivity]).
    assert (P1 : forall p e, e <> Known -> (forall j, e <> Starts j) -> kinv (add e (put i p s))).
    { intros p e N1 N2. apply (kinv_same s); try reflexivity; try exact K; [intros C; exact C|]. right. exists e. split; [reflexivity|]. split; [intros Q; contradiction|exact N2]. }
    destruct (c_place c) as [| | | | | | | |ok] eqn:P; destruct l as [|ok'|]; cbn [command_step] in H; try discriminate;
      repeat match type of H with
             | context [if ?b then _ else _] => destruct b
             | context [match s_node s with _ => _ end] => destruct (s_node s)
             end; try discriminate; injection H as <-; try apply P0; try exact K; try (apply P1; try intros j; discriminate).
    unfold destroy. destruct (c_upgrade c); [destruct ok|].
    + apply (kinv_same s); try reflexivity; try exact K. right. exists Known. split; [reflexivity|]. split; [reflexivity|intros j; discriminate].
    + apply (kinv_same s); try reflexivity; try exact K; [intros C; exact C|left; reflexivity].
    + apply (kinv_same s); try reflexivity; try exact K; [intros C; exact C|left; reflexivity].
Qed.
Theorem C64_once_more s : reachable s -> forall before after, s_trace s = before ++ Known :: after -> starts after <= 1.
Proof.
  intros (n & l & H) before after E.
  assert (G : forall l s s', kinv s -> run s l = Some s' -> kinv s').
  { clear. induction l as [|a l IH]; intros s s' K H; cbn [run] in H; [injection H as <-; exact K|]. destruct (step s a) as [s1|] eqn:E; [|discriminate].
    apply (IH s1); [apply (kinv_step s a); assumption|exact H]. }
  assert (K0 : kinv (start n)) by (intros b a Q; destruct b as [|x [|]]; discriminate).
  destruct (G l _ _ K0 H _ _ E) as [_ B]. lia.
Qed.
Print Assumptions C64_once_more.

(** A leader can always get to the point where the upgrade is done, whatever has failed before: without changing its
    state, and without any command but the upgrade taking a step. *)
Definition only_upgrade (s : state) (a : act) : Prop :=
  match a with Syncs _ => True | Moves i _ => exists c, find_command i s = Some c /\ c_upgrade c = true | _ => False end.
Inductive gets_ready : state -> Prop :=
| Ready s : s_completed s = true -> gets_ready s
| Ready_after s a s' : only_upgrade s a -> step s a = Some s' -> gets_ready s' -> gets_ready s.
Lemma find_put i p s c : find_command i s = Some c -> find_command i (put i p s) = Some (Command i (c_upgrade c) p).
Proof.
  unfold find_command, put. cbn [s_commands]. induction (s_commands s) as [|x l IH]; intros H; [discriminate|]. cbn [map List.find] in *.
  destruct (Nat.eqb (c_id x) i) eqn:E; cbn [c_id].
  - injection H as <-. rewrite Nat.eqb_refl. reflexivity.
  - rewrite E. apply IH. exact H.
Qed.
Lemma go s i p s' : find_command i s = Some (Command i true p) -> command_step i true p Goes s = Some s' -> gets_ready s' -> gets_ready s.
Proof. intros F H G. apply (Ready_after s (Moves i Goes) s'); [exists (Command i true p); split; [exact F|reflexivity]| |exact G]. cbn [step]. rewrite F. exact H. Qed.
Lemma from_finished s i : find_command i s = Some (Command i true (Finished true)) -> gets_ready s.
Proof. intros F. eapply go; [exact F|reflexivity|]. apply Ready. reflexivity. Qed.
Lemma from_peeked s i : s_node s = Leading -> find_command i s = Some (Command i true Peeked) -> gets_ready s.
Proof.
  intros N F. eapply go; [exact F|reflexivity|]. cbn [command_step]. set (s1 := put i Allowed s).
  assert (F1 : find_command i s1 = Some (Command i true Allowed)) by (apply (find_put i Allowed s _ F)). assert (N1 : s_node s1 = Leading) by exact N.
  eapply go; [exact F1|cbn [command_step]; rewrite N1; reflexivity|]. set (s2 := put i Processing s1).
  assert (F2 : find_command i s2 = Some (Command i true Processing)) by (apply (find_put i Processing s1 _ F1)).
  eapply go; [exact F2|reflexivity|]. cbn [command_step]. set (s3 := put i Committing s2).
  assert (F3 : find_command i s3 = Some (Command i true Committing)) by (apply (find_put i Committing s2 _ F2)).
  eapply go; [exact F3|reflexivity|]. cbv zeta. apply (from_finished _ i). exact (find_put i (Finished true) s3 _ F3).
Qed.
Lemma from_none s : inv s -> s_node s = Leading -> s_running s = false -> gets_ready s.
Proof.
  intros V N R.
  assert (A : forall s, inv s -> s_node s = Leading -> s_running s = false -> s_sync s = Asks_majority -> gets_ready s).
  { clear. intros s V N R S. eapply (Ready_after s (Syncs true)); [exact I|reflexivity|]. unfold sync_step. rewrite S. cbn [negb].
    apply (from_peeked _ (s_next s)); [exact N|]. unfold find_command. cbn. pose proof (i_next s V) as X. induction X as [|x l H _ IH]; cbn [app List.find c_id].
    - rewrite Nat.eqb_refl. reflexivity.
    - replace (Nat.eqb (c_id x) (s_next s)) with false by (symmetry; apply Nat.eqb_neq; lia). exact IH. }
  assert (B : forall s, inv s -> s_node s = Leading -> s_running s = false -> s_sync s = Reads_state -> gets_ready s).
  { intros t V' N' R' S. eapply (Ready_after t (Syncs true)); [exact I|reflexivity|]. unfold sync_step. rewrite S, N'. apply A; try assumption; [|reflexivity].
    apply inv_at; [exact V'|intros _; exact R']. }
  assert (C : forall s, inv s -> s_node s = Leading -> s_running s = false -> s_sync s = Reads_running -> gets_ready s).
  { intros t V' N' R' S. eapply (Ready_after t (Syncs true)); [exact I|reflexivity|]. unfold sync_step. rewrite S, R'. cbn [negb]. apply B; try assumption; [|reflexivity].
    apply inv_at; [exact V'|intros _; exact R']. }
  assert (D : forall s, inv s -> s_node s = Leading -> s_running s = false -> s_sync s = Reads_completed -> gets_ready s).
  { intros t V' N' R' S. destruct (s_completed t) eqn:E; [apply Ready; exact E|]. eapply (Ready_after t (Syncs true)); [exact I|reflexivity|]. unfold sync_step. rewrite S, E. cbn [negb].
    apply C; try assumption; [|reflexivity]. apply inv_at; [exact V'|intros _; exact R']. }
  destruct (s_sync s) eqn:S; auto. eapply (Ready_after s (Syncs true)); [exact I|reflexivity|]. unfold sync_step. rewrite S. apply D; try assumption; [|reflexivity].
  apply inv_at; [exact V|intros _; exact R].
Qed.
Theorem C64_ready s : reachable s -> s_node s = Leading -> gets_ready s.
Proof.
  intros RE N. pose proof (inv_reachable s RE) as V. destruct (s_completed s) eqn:C; [apply Ready; exact C|].
  destruct (s_running s) eqn:R; [|apply from_none; assumption].
  pose proof (i_ups s V) as U. rewrite R in U. unfold ups in U. destruct (filter c_upgrade (s_commands s)) as [|c l] eqn:F; [discriminate|]. clear U.
  assert (I : In c (filter c_upgrade (s_commands s))) by (rewrite F; left; reflexivity). apply filter_In in I as [I U].
  assert (FC : find_command (c_id c) s = Some c).
  { unfold find_command. destruct (List.find (fun x => Nat.eqb (c_id x) (c_id c)) (s_commands s)) as [d|] eqn:G.
    - apply find_some in G as [G E]. apply Nat.eqb_eq in E. f_equal. apply (same_id (s_commands s)); try assumption. apply (i_ids s V).
    - exfalso. pose proof (find_none _ _ G c I) as E. cbv beta in E. rewrite Nat.eqb_refl in E. discriminate. }
  destruct c as [i up p]. cbn [c_id c_upgrade] in *. subst up.
  assert (Q : forall s, s_node s = Leading -> find_command i s = Some (Command i true Queued) -> gets_ready s).
  { intros t N' F'. eapply go; [exact F'|reflexivity|]. apply (from_peeked _ i); [exact N'|]. exact (find_put i Peeked t _ F'). }
  destruct p as [| | | | | | | |[|]].
  - apply Q; assumption.
  - eapply go; [exact FC|cbn [command_step]; rewrite C; reflexivity|]. apply Q; [exact N|exact (find_put i Queued s _ FC)].
  - eapply go; [exact FC|cbn [command_step]; rewrite N; reflexivity|]. apply (from_peeked _ i); [exact N|exact (find_put i Peeked s _ FC)].
  - apply (from_peeked s i); assumption.
  - eapply go; [exact FC|cbn [command_step]; rewrite C; reflexivity|]. apply Q; [exact N|exact (find_put i Queued s _ FC)].
  - eapply go; [exact FC|cbn [command_step]; rewrite N; reflexivity|]. set (s2 := put i Processing s).
    assert (F2 : find_command i s2 = Some (Command i true Processing)) by (apply (find_put i Processing s _ FC)).
    eapply go; [exact F2|reflexivity|]. cbn [command_step]. set (s3 := put i Committing s2).
    assert (F3 : find_command i s3 = Some (Command i true Committing)) by (apply (find_put i Committing s2 _ F2)).
    eapply go; [exact F3|reflexivity|]. cbv zeta. apply (from_finished _ i). exact (find_put i (Finished true) s3 _ F3).
  - eapply go; [exact FC|reflexivity|]. cbn [command_step]. set (s3 := put i Committing s).
    assert (F3 : find_command i s3 = Some (Command i true Committing)) by (apply (find_put i Committing s _ FC)).
    eapply go; [exact F3|reflexivity|]. cbv zeta. apply (from_finished _ i). exact (find_put i (Finished true) s3 _ F3).
  - eapply go; [exact FC|reflexivity|]. cbv zeta. apply (from_finished _ i). exact (find_put i (Finished true) s _ FC).
  - apply (from_finished s i). exact FC.
  - eapply go; [exact FC|reflexivity|]. apply from_none; [|exact N|reflexivity]. exact (inv_destroy s i _ false V FC eq_refl).
Qed.
Print Assumptions C64_ready.

(** ** Cases and counterexamples *)
Definition moves (i n : nat) : list act := repeat (Moves i Goes) n.
Definition upgrades : list act := repeat (Syncs true) 4 ++ moves 0 5.
Definition after (n : node) (l : list act) : list event := match run (start n) l with Some s => s_trace s | None => [] end.
(** The usual course: the upgrade, then a command. *)
Example C64_case : after Leading (upgrades ++ [Arrives] ++ moves 1 7) =
  [Became Leading; Starts 0; Upgraded 0; Known; Asks 1 Leading; Writes 1].
Proof. vm_compute. reflexivity. Qed.
(** A command that comes before the upgrade waits; one that was peeked while the node followed is sent back. *)
Example C64_waits_case : after Leading ([Arrives] ++ moves 0 10) = [Became Leading] /\
  after Following ([Arrives] ++ moves 0 2 ++ [Changes Other; Changes Leading] ++ moves 0 10) = [Became Following; Became Other; Became Leading; Asks 0 Leading].
Proof. split; vm_compute; reflexivity. Qed.

(** A command reads the state of the node twice, first to see whether the database is ready, then to see whether the node
    leads.  If the node becomes the leader in between the command writes before the upgrade. *)
Theorem C64_race_refuted : exists s, reachable s /\ In (Writes 0) (s_trace s) /\ ~ upgraded (s_trace s).
Proof.
  destruct (run (start Following) ([Arrives] ++ moves 0 3 ++ [Changes Other; Changes Leading] ++ moves 0 2)) as [s|] eqn:E; [|vm_compute in E; discriminate].
  exists s. split; [eexists _, _; exact E|]. vm_compute in E. injection E as <-. cbn. split; [intuition|]. intros [i H]. cbn in H. intuition discriminate.
Qed.

(** The sync thread reads that no upgrade is done before it reads that none is running.  If the upgrade ends on another
    thread in between, a second one is run although the first has succeeded. *)
Theorem C64_twice_refuted : exists s before after, reachable s /\ s_trace s = before ++ Known :: after /\ In (Starts 1) after.
Proof.
  destruct (run (start Leading) (repeat (Syncs true) 4 ++ moves 0 3 ++ [Moves 0 Again; Moves 0 Again; Syncs true; Syncs true] ++ moves 0 6 ++ repeat (Syncs true) 3)) as [s|] eqn:E;
    [|vm_compute in E; discriminate].
  exists s, [Became Leading; Starts 0; Upgraded 0], [Starts 1]. split; [eexists _, _; exact E|]. vm_compute in E. injection E as <-. cbn. split; [reflexivity|left; reflexivity].
Qed.
