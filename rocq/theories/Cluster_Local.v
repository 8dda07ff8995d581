(** What one step does to the state of one node. *)
From Verif Require Import Base Cluster_Model Cluster_Spec.

Section P.
Variable n : nat.
Variable ver : nat -> nat.

Record loc := mkL { l_st : nstate; l_scc : nat; l_lead : option nat; l_sync : option nat; l_commits : bool }.
Definition l5 (x : nd) : loc := mkL (n_st x) (n_scc x) (n_lead x) (n_sync x) (n_commits x).
Notation L c i := (l5 (c_node c i)).

Definition cs (x : loc) (new : nstate) : loc :=
  if nstate_eqb new (l_st x) then x
  else mkL new (S (l_scc x))
       (if before_subscribing new then None else match l_st x with FOLLOWING => None | _ => l_lead x end)
       (l_sync x)
       (match new with SEARCHING => if in_charge (l_st x) then false else l_commits x | _ => true end).

Lemma L_setnode c i x k : L (setnode c i x) k = if Nat.eqb k i then l5 x else L c k.
Proof. unfold setnode. cbn [c_node]. destruct (Nat.eqb k i); reflexivity. Qed.
Ltac same := intros; unfold setview, set_prio, flag_cross, set_conf, set_shut, set_boot, clear_subs, clear_resp; cbn zeta;
  try change (c_node (mkCl ?a _ _ _ _ _ _)) with a; cbn [c_node]; rewrite ?L_setnode; cbn [c_node setnode];
  match goal with |- context [Nat.eqb ?k ?i] => destruct (Nat.eqb_spec k i) as [->|]; reflexivity | _ => reflexivity end.
Lemma L_setview c i j v k : L (setview c i j v) k = L c k. Proof. same. Qed.
Lemma L_setlink c i j q k : L (setlink c i j q) k = L c k. Proof. reflexivity. Qed.
Lemma L_setsock c i j q k : L (setsock c i j q) k = L c k. Proof. reflexivity. Qed.
Lemma L_setdead c i j q k : L (setdead c i j q) k = L c k. Proof. reflexivity. Qed.
Lemma L_setappr c i q k : L (setappr c i q) k = L c k. Proof. reflexivity. Qed.
Lemma L_flag_lost c b k : L (flag_lost c b) k = L c k. Proof. reflexivity. Qed.
Lemma L_set_prio c i p k : L (set_prio c i p) k = L c k. Proof. same. Qed.
Lemma L_set_conf c i p k : L (set_conf c i p) k = L c k. Proof. same. Qed.
Lemma L_set_shut c i p k : L (set_shut c i p) k = L c k. Proof. same. Qed.
Lemma L_set_boot c i p q k : L (set_boot c i p q) k = L c k. Proof. same. Qed.
Lemma L_clear_subs c i k : L (clear_subs c i) k = L c k. Proof. same. Qed.
Lemma L_clear_resp c i k : L (clear_resp c i) k = L c k. Proof. same. Qed.
Lemma L_send c i j m k : L (send c i j m) k = L c k.
Proof. unfold send. destruct (c_sock c i j); try reflexivity. destruct (c_dead c i j); reflexivity. Qed.
Lemma L_shutdown_socket c i j k : L (shutdown_socket c i j) k = L c k.
Proof. unfold shutdown_socket. destruct (c_sock c i j); reflexivity. Qed.
Lemma L_fold {A} (f : cluster -> A -> cluster) l k : (forall c a, L (f c a) k = L c k) -> forall c, L (fold_left f l c) k = L c k.
Proof. intros H. induction l as [|a l IH]; intros c; cbn [fold_left]; [reflexivity|]. rewrite IH. apply H. Qed.
Lemma L_broadcast c i m k : L (broadcast n c i m) k = L c k.
Proof. apply L_fold. intros. apply L_send. Qed.
Lemma L_reconnect_peer c i j k : L (reconnect_peer c i j) k = L c k.
Proof. unfold reconnect_peer. rewrite L_shutdown_socket, L_flag_lost, L_setview. reflexivity. Qed.
Lemma L_reconnect_all c i k : L (reconnect_all n c i) k = L c k.
Proof. apply L_fold. intros. apply L_reconnect_peer. Qed.
Lemma L_throw c i j k : L (throw_ c i j) k = L c k.
Proof. unfold throw_. rewrite L_shutdown_socket, L_send. reflexivity. Qed.
Lemma L_shutdown_all c i l k : L (fold_left (fun c j => shutdown_socket c i j) l c) k = L c k.
Proof. apply L_fold. intros. apply L_shutdown_socket. Qed.
Lemma L_close c i j k : L (close c i j) k = L c k.
Proof. unfold close. rewrite L_flag_lost, L_setview, L_setdead. destruct (_ && _); rewrite ?L_setdead, ?L_setlink; reflexivity. Qed.

Lemma L_set_lead c i l : L (set_lead c i l) i = mkL (l_st (L c i)) (l_scc (L c i)) l (l_sync (L c i)) (l_commits (L c i)).
Proof. unfold set_lead. cbn zeta. rewrite L_setnode, Nat.eqb_refl. reflexivity. Qed.
Lemma L_set_lead_o c i l k : k <> i -> L (set_lead c i l) k = L c k.
Proof. intros H. apply Nat.eqb_neq in H. unfold set_lead. cbn zeta. rewrite L_setnode, H. reflexivity. Qed.
Lemma L_set_sync c i l : L (set_sync c i l) i = mkL (l_st (L c i)) (l_scc (L c i)) (l_lead (L c i)) l (l_commits (L c i)).
Proof. unfold set_sync. cbn zeta. rewrite L_setnode, Nat.eqb_refl. reflexivity. Qed.
Lemma L_set_sync_o c i l k : k <> i -> L (set_sync c i l) k = L c k.
Proof. intros H. apply Nat.eqb_neq in H. unfold set_sync. cbn zeta. rewrite L_setnode, H. reflexivity. Qed.
Lemma L_set_commits c i l : L (set_commits c i l) i = mkL (l_st (L c i)) (l_scc (L c i)) (l_lead (L c i)) (l_sync (L c i)) l.
Proof. unfold set_commits. cbn zeta. rewrite L_setnode, Nat.eqb_refl. reflexivity. Qed.
Lemma L_set_commits_o c i l k : k <> i -> L (set_commits c i l) k = L c k.
Proof. intros H. apply Nat.eqb_neq in H. unfold set_commits. cbn zeta. rewrite L_setnode, H. reflexivity. Qed.
Lemma L_enter c i new : L (enter n c i new) i = mkL new (S (l_scc (L c i))) (l_lead (L c i)) (l_sync (L c i)) (l_commits (L c i)).
Proof. unfold enter. cbn zeta. rewrite L_broadcast, L_setnode, Nat.eqb_refl. reflexivity. Qed.
Lemma L_enter_o c i new k : k <> i -> L (enter n c i new) k = L c k.
Proof. intros H. apply Nat.eqb_neq in H. unfold enter. cbn zeta. rewrite L_broadcast, L_setnode, H. reflexivity. Qed.

Ltac norm := repeat first
  [ rewrite L_setview | rewrite L_setlink | rewrite L_setsock | rewrite L_setdead | rewrite L_setappr | rewrite L_flag_lost | rewrite L_set_prio
  | rewrite L_set_conf | rewrite L_set_shut | rewrite L_set_boot | rewrite L_clear_subs | rewrite L_clear_resp | rewrite L_send | rewrite L_shutdown_socket
  | rewrite L_broadcast | rewrite L_reconnect_peer | rewrite L_reconnect_all | rewrite L_throw | rewrite L_shutdown_all | rewrite L_close
  | rewrite L_set_lead | rewrite L_set_sync | rewrite L_set_commits | rewrite L_enter
  | rewrite L_set_lead_o by assumption | rewrite L_set_sync_o by assumption | rewrite L_set_commits_o by assumption | rewrite L_enter_o by assumption ].

Definition waiting_boot (c : cluster) (i : nat) : cluster :=
  let x := c_node c i in
  if n_waited x then c
  else let c := set_boot c i (n_seen x) true in
       if n_seen x then reconnect_all n (set_prio c i (n_conf x)) i else c.
Lemma L_waiting_boot c i k : L (waiting_boot c i) k = L c k.
Proof.
  unfold waiting_boot. cbn zeta. destruct (n_waited (c_node c i)); [reflexivity|]. destruct (n_seen (c_node c i)).
  - rewrite L_reconnect_all, L_set_prio. apply L_set_boot.
  - apply L_set_boot.
Qed.
Lemma change_eq c i new : change_state n c i new =
  let st := n_st (c_node c i) in
  if nstate_eqb new st then c
  else
    let c1 := match st with FOLLOWING => set_lead c i None | _ => c end in
    let c2 := if in_charge st && negb (in_charge new) then clear_subs (set_commits c1 i false) i else c1 in
    let c3 := if before_subscribing new then set_lead c2 i None else c2 in
    let c4 := match new with SEARCHING => c3 | _ => set_commits c3 i true end in
    let c5 := match new with WAITING => waiting_boot c4 i | _ => c4 end in
    enter n c5 i new.
Proof. reflexivity. Qed.
Lemma L_change c i new : L (change_state n c i new) i = cs (L c i) new.
Proof.
  rewrite change_eq. cbn zeta. unfold cs. change (l_st (L c i)) with (n_st (c_node c i)). destruct (nstate_eqb new (n_st (c_node c i))) eqn:E; [reflexivity|].
  rewrite L_enter. set (x := L c i).
  set (c1 := match n_st (c_node c i) with FOLLOWING => set_lead c i None | _ => c end).
  assert (E1 : L c1 i = mkL (l_st x) (l_scc x) (match l_st x with FOLLOWING => None | _ => l_lead x end) (l_sync x) (l_commits x)).
  { unfold c1, x. change (l_st (L c i)) with (n_st (c_node c i)). destruct (n_st (c_node c i)) eqn:Es; rewrite ?L_set_lead; unfold l5; cbn [l_st l_scc l_lead l_sync l_commits]; rewrite ?Es; reflexivity. }
  change (n_st (c_node c i)) with (l_st x) in *. clearbody c1 x.
  set (c2 := if in_charge (l_st x) && negb (in_charge new) then clear_subs (set_commits c1 i false) i else c1).
  assert (E2 : L c2 i = mkL (l_st x) (l_scc x) (match l_st x with FOLLOWING => None | _ => l_lead x end) (l_sync x) (if in_charge (l_st x) && negb (in_charge new) then false else l_commits x)).
  { unfold c2. destruct (in_charge (l_st x) && negb (in_charge new)); rewrite ?L_clear_subs, ?L_set_commits, ?E1; reflexivity. }
  clearbody c2.
  set (c3 := if before_subscribing new then set_lead c2 i None else c2).
  assert (E3 : L c3 i = mkL (l_st x) (l_scc x) (if before_subscribing new then None else match l_st x with FOLLOWING => None | _ => l_lead x end) (l_sync x) (if in_charge (l_st x) && negb (in_charge new) then false else l_commits x)).
  { unfold c3. destruct (before_subscribing new); rewrite ?L_set_lead, ?E2; reflexivity. }
  clearbody c3.
  set (c4 := match new with SEARCHING => c3 | _ => set_commits c3 i true end).
  assert (E4 : L c4 i = mkL (l_st x) (l_scc x) (if before_subscribing new then None else match l_st x with FOLLOWING => None | _ => l_lead x end) (l_sync x)
     (match new with SEARCHING => if in_charge (l_st x) then false else l_commits x | _ => true end)).
  { unfold c4. destruct new; rewrite ?L_set_commits, ?E3; try reflexivity. cbn. destruct (in_charge (l_st x)); reflexivity. }
  clearbody c4. destruct new; rewrite ?L_waiting_boot, E4; reflexivity.
Qed.
Lemma L_change_o c i new k : k <> i -> L (change_state n c i new) k = L c k.
Proof.
  intros H. rewrite change_eq. cbn zeta. destruct (nstate_eqb new (n_st (c_node c i))) eqn:E; [reflexivity|]. rewrite L_enter_o by exact H.
  set (c1 := match n_st (c_node c i) with FOLLOWING => set_lead c i None | _ => c end).
  assert (E1 : L c1 k = L c k) by (unfold c1; destruct (n_st (c_node c i)); rewrite ?L_set_lead_o by exact H; reflexivity).
  set (c2 := if in_charge (n_st (c_node c i)) && negb (in_charge new) then clear_subs (set_commits c1 i false) i else c1).
  assert (E2 : L c2 k = L c k) by (unfold c2; destruct (_ && _); rewrite ?L_clear_subs, ?L_set_commits_o by exact H; exact E1).
  set (c3 := if before_subscribing new then set_lead c2 i None else c2).
  assert (E3 : L c3 k = L c k) by (unfold c3; destruct (before_subscribing new); rewrite ?L_set_lead_o by exact H; exact E2).
  set (c4 := match new with SEARCHING => c3 | _ => set_commits c3 i true end).
  assert (E4 : L c4 k = L c k) by (unfold c4; destruct new; rewrite ?L_set_commits_o by exact H; exact E3).
  destruct new; rewrite ?L_waiting_boot; exact E4.
Qed.
Definition following (s : nstate) : bool := match s with SUBSCRIBING | FOLLOWING => true | _ => false end.
Definition some {A} (o : option A) : bool := match o with Some _ => true | None => false end.
Record Good (x : loc) : Prop := {
  g_lead : some (l_lead x) = following (l_st x);
  g_sync : some (l_sync x) = nstate_eqb (l_st x) SYNCHRONIZING;
  g_commits : l_commits x = false -> l_st x = SEARCHING
}.
Record Move (alone : bool) (x x' : loc) : Prop := {
  m_moves : exists k, moves alone (l_st x) k (l_st x') /\ l_scc x' = l_scc x + k;
  m_down : in_charge (l_st x) = true -> in_charge (l_st x') = false -> l_st x' = SEARCHING /\ l_commits x' = false
}.
Definition alone (i : nat) : bool := match peers n i with [] => true | _ => false end.
Definition GM (i : nat) (x x' : loc) : Prop := (Good x -> Good x') /\ (Good x -> Move (alone i) x x').

Lemma GM_refl i x : GM i x x.
Proof. split; [auto|]. intros _. split; [exists 0; split; [constructor|lia]|congruence]. Qed.
Lemma moves_trans a x k y k' z : moves a x k y -> moves a y k' z -> moves a x (k + k') z.
Proof. induction 1; cbn; [auto|]. intros. econstructor; eauto. Qed.
Lemma moves_one a x y : may_follow a x y = true -> moves a x 1 y.
Proof. intros. econstructor; [eassumption|constructor]. Qed.
Lemma moves_to_searching a x : x <> SEARCHING -> may_follow a x SEARCHING = true.
Proof. destruct x; congruence || reflexivity. Qed.

Ltac fields := cbn [cs l_st l_scc l_lead l_sync l_commits nstate_eqb before_subscribing in_charge following some].
(* one transition, from an explicit state *)
Ltac gm := unfold GM, cs; fields;
  split; [intros [G1 G2 G3]; constructor; revert G1 G2 G3; fields; (congruence || (intros; reflexivity) || (intros; congruence) || auto)
         |intros _; constructor; [exists 1; split; [apply moves_one; try reflexivity|fields; lia]|fields; auto; try discriminate]].

Lemma cs_search i x : GM i x (cs (mkL (l_st x) (l_scc x) (l_lead x) None (l_commits x)) SEARCHING).
Proof.
  destruct x as [s k l y m]. destruct s; unfold cs; fields; try gm.
  split.
  - intros [G1 G2 G3]. constructor; cbn in *; auto.
  - intros _. constructor; cbn; [exists 0; split; [constructor|lia]|discriminate].
Qed.
Lemma cs_search' i x : (Good x -> l_sync x = None) -> GM i x (cs x SEARCHING).
Proof.
  destruct x as [s k l y m]. intros H. destruct s; unfold cs; fields; try (apply GM_refl);
  (split; [intros G; pose proof (H G) as E; destruct G as [G1 G2 G3]; cbn in *; constructor; cbn; rewrite ?E; auto; try discriminate
          |intros G; constructor; [exists 1; split; [apply moves_one; reflexivity|cbn; lia]|cbn; auto; discriminate]]).
Qed.
Lemma good_not_sync x : Good x -> l_st x <> SYNCHRONIZING -> l_sync x = None.
Proof. intros [_ G _] H. destruct (l_sync x); [|reflexivity]. destruct (l_st x); try discriminate G. congruence. Qed.
Lemma cs_search_lead i x : l_st x <> SYNCHRONIZING -> GM i x (cs (mkL (l_st x) (l_scc x) None (l_sync x) (l_commits x)) SEARCHING).
Proof.
  intros H. destruct x as [s k l y m]. cbn [l_st l_scc l_sync l_commits] in *.
  destruct s; try contradiction; unfold cs; fields;
  (split; [intros G; pose proof (good_not_sync _ G H) as E; destruct G as [G1 G2 G3]; cbn in *; constructor; cbn; rewrite ?E; auto; try discriminate
          |intros G; constructor; cbn; [first [exists 0; split; [constructor|lia]|exists 1; split; [apply moves_one; reflexivity|lia]]|auto; discriminate]]).
Qed.

Lemma GM_trans i x y z : GM i x y -> GM i y z -> (in_charge (l_st x) = true -> in_charge (l_st y) = false -> y = z) -> GM i x z.
Proof.
  intros [A1 A2] [B1 B2] C. split; [auto|]. intros G. destruct (A2 G) as [(k & M1 & E1) D1]. destruct (B2 (A1 G)) as [(k' & M2 & E2) D2]. constructor.
  - exists (k + k'). split; [eapply moves_trans; eauto|lia].
  - intros I1 I2. destruct (in_charge (l_st y)) eqn:Ey; [auto|]. rewrite <- (C I1 eq_refl) in *. auto.
Qed.

Ltac lr Est := match goal with |- context [l5 (c_node ?c ?i)] =>
   replace (l5 (c_node c i)) with (mkL (n_st (c_node c i)) (n_scc (c_node c i)) (n_lead (c_node c i)) (n_sync (c_node c i)) (n_commits (c_node c i))) by reflexivity; rewrite Est end.
Ltac nrm := repeat (progress norm || rewrite L_change || rewrite L_change_o by assumption).

Lemma update_local c i o : GM i (L c i) (L (update n c i o) i).
Proof.
  unfold update. destruct (n_st (c_node c i)) eqn:Est.
  - destruct (n_shut (c_node c i)); [apply GM_refl|]. destruct (peers n i) eqn:Ep.
    + nrm. lr Est. gm. unfold alone. rewrite Ep. reflexivity.
    + destruct (Nat.ltb _ _); [apply GM_refl|]. destruct (negb (o_usable o)); [apply GM_refl|].
      destruct (negb (o_behind o)); [nrm; lr Est; gm|]. destruct (o_sync o); [|apply GM_refl]. nrm. lr Est. gm.
  - destruct (_ || _); [|apply GM_refl]. destruct (n_sync (c_node c i)); nrm; apply cs_search.
  - destruct (n_shut (c_node c i)); [nrm; lr Est; gm|]. destruct (highest n c i) as [hp|]; [|nrm; lr Est; gm].
    match goal with |- context [match ?sub with Some l => change_state _ _ _ _ | None => _ end] => destruct sub as [l|] end; [nrm; lr Est; gm|].
    destruct (o_behind o); [nrm; lr Est; gm|]. destruct (_ && _ && _ && _) eqn:Ec; [|apply GM_refl]. nrm. lr Est. gm.
  - destruct (n_shut (c_node c i)); [nrm; lr Est; gm|]. destruct (any_deny n c i); [nrm; lr Est; gm|].
    destruct (_ && _) eqn:Ec; [nrm; lr Est; gm|]. destruct (o_timeout o); [nrm; lr Est; gm|apply GM_refl].
  - destruct (_ || _ || _ || _); [|apply GM_refl].
    assert (G : forall y, y = cs (cs (L c i) STANDINGDOWN) SEARCHING -> GM i (L c i) y).
    { intros y ->. lr Est. match goal with |- GM _ _ (cs ?z SEARCHING) => apply GM_trans with (y := z) end; [| |cbn; discriminate].
      - gm.
      - apply cs_search'. intros G. apply good_not_sync; [exact G|]. cbn. discriminate. }
    apply G. nrm. destruct (n_shut (c_node c i)), (negb (Z.eqb (n_prio (c_node c i)) 1)); cbn [andb]; nrm; reflexivity.
  - destruct (n_shut (c_node c i)); nrm; (apply cs_search'; intros G; apply good_not_sync; [exact G|]; cbn; rewrite Est; discriminate).
  - destruct (n_shut (c_node c i)); [nrm; lr Est; gm|]. destruct (o_timeout o); [|apply GM_refl].
    destruct (n_lead (c_node c i)) eqn:El; nrm; lr Est; gm.
  - destruct (_ && _); [nrm; lr Est; gm|]. destruct (n_lead (c_node c i)) as [l|] eqn:El; [|apply GM_refl]. destruct (in_charge _); [apply GM_refl|]. nrm. lr Est. gm.
Qed.
Lemma update_local_o c i o k : k <> i -> L (update n c i o) k = L c k.
Proof.
  intros Hk. unfold update. destruct (n_st (c_node c i)) eqn:Est;
  repeat (nrm; try reflexivity; match goal with
    | |- context [if ?b then _ else _] => destruct b
    | |- context [match ?x with Some _ => _ | None => _ end] => destruct x
    | |- context [match peers n i with [] => _ | _ => _ end] => destruct (peers n i) end).
Qed.

Lemma standup_local c i j k : GM i (L c i) (L (send_standup_response n c i j k) i).
Proof.
  unfold send_standup_response. destruct (v_perma _); [nrm; apply GM_refl|].
  destruct (claiming (n_st (c_node c i))) eqn:Ec.
  - destruct (Z.ltb _ _).
    + nrm. destruct (n_st (c_node c i)) eqn:Est; try discriminate Ec; nrm; try apply GM_refl; lr Est; gm.
    + destruct (majority_subscribed n c i); nrm; [apply GM_refl|]. apply cs_search'. intros G. apply good_not_sync; [exact G|]. cbn. intros E. rewrite E in Ec. discriminate.
  - destruct (existsb _ _); nrm; apply GM_refl.
Qed.
Lemma standup_local_o c i j k a : a <> i -> L (send_standup_response n c i j k) a = L c a.
Proof.
  intros Hk. unfold send_standup_response.
  repeat (nrm; try reflexivity; match goal with
    | |- context [if ?b then _ else _] => destruct b
    | |- context [match n_st ?x with _ => _ end] => destruct (n_st x) end).
Qed.

Lemma on_message_local c i j m ok sr : GM i (L c i) (L (on_message n ver c i j m ok sr) i).
Proof.
  unfold on_message. destruct m as [k s p|k s p|k r| | | | |].
  - destruct (v_logged _); [nrm; apply GM_refl|]. destruct (_ && _); [nrm; apply GM_refl|].
    match goal with |- context [n_view (c_node ?y i) j] => match y with c => fail 1 | _ => assert (E : L y i = L c i); [|set (d := y) in *; clearbody d] end end.
    { destruct (_ && _); [destruct (n_waited _)|]; nrm; reflexivity. }
    destruct s; nrm; rewrite <- ?E; try apply GM_refl.
    eapply eq_ind with (P := fun z => GM i z _); [apply standup_local|]. nrm. reflexivity.
  - destruct (negb _); [nrm; apply GM_refl|]. destruct (nstate_eqb _ _); [nrm; apply GM_refl|]. destruct s; nrm; try apply GM_refl.
    eapply eq_ind with (P := fun z => GM i z _); [apply standup_local|]. nrm. reflexivity.
  - destruct (negb _); [nrm; apply GM_refl|]. destruct (n_st (c_node c i)); try apply GM_refl. destruct (negb _); [apply GM_refl|].
    destruct r; nrm; apply GM_refl.
  - destruct (negb _); nrm; apply GM_refl.
  - destruct (negb _); [nrm; apply GM_refl|]. destruct (n_st (c_node c i)) eqn:Est; try (nrm; apply GM_refl).
    destruct (n_sync (c_node c i)) as [p|] eqn:Esy; [|nrm; apply GM_refl]. destruct (negb _); [nrm; apply GM_refl|].
    destruct sr as [| |[r|]|]; nrm; try (apply cs_search).
    + lr Est. gm.
    + lr Est. split; [intros [G1 G2 G3]; constructor; cbn in *; auto|]. intros _. constructor; cbn; [exists 0; split; [constructor|lia]|discriminate].
  - destruct (negb _); [nrm; apply GM_refl|]. destruct (n_st (c_node c i)); nrm; apply GM_refl.
  - destruct (negb _); [nrm; apply GM_refl|]. destruct (n_st (c_node c i)) eqn:Est; try (nrm; apply GM_refl).
    destruct (n_lead (c_node c i)) as [l|] eqn:El; [|nrm; apply GM_refl]. destruct (negb _); [nrm; apply GM_refl|]. destruct ok; nrm; lr Est; gm.
  - destruct (negb _); nrm; apply GM_refl.
Qed.
Lemma on_message_local_o c i j m ok sr k : k <> i -> L (on_message n ver c i j m ok sr) k = L c k.
Proof.
  intros Hk. unfold on_message. destruct m as [a s p|a s p|a r| | | | |].
  - destruct (v_logged _); [nrm; reflexivity|]. destruct (_ && _); [nrm; reflexivity|].
    match goal with |- context [n_view (c_node ?y i) j] => match y with c => fail 1 | _ => assert (E : L y k = L c k); [|set (d := y) in *; clearbody d] end end.
    { destruct (_ && _); [destruct (n_waited _)|]; nrm; reflexivity. }
    destruct s; rewrite ?standup_local_o by exact Hk; nrm; exact E.
  - destruct (negb _); [nrm; reflexivity|]. destruct (nstate_eqb _ _); [nrm; reflexivity|].
    destruct s; rewrite ?standup_local_o by exact Hk; nrm; reflexivity.
  - destruct (negb _); [nrm; reflexivity|]. destruct (n_st (c_node c i)); try reflexivity. destruct (negb _); [reflexivity|].
    destruct r; nrm; reflexivity.
  - destruct (negb _); nrm; reflexivity.
  - destruct (negb _); [nrm; reflexivity|]. destruct (n_st (c_node c i)) eqn:Est; try (nrm; reflexivity).
    destruct (n_sync (c_node c i)) as [p|] eqn:Esy; [|nrm; reflexivity]. destruct (negb _); [nrm; reflexivity|].
    destruct sr as [| |[r|]|]; nrm; reflexivity.
  - destruct (negb _); [nrm; reflexivity|]. destruct (n_st (c_node c i)); nrm; reflexivity.
  - destruct (negb _); [nrm; reflexivity|]. destruct (n_st (c_node c i)) eqn:Est; try (nrm; reflexivity).
    destruct (n_lead (c_node c i)) as [l|] eqn:El; [|nrm; reflexivity]. destruct (negb _); [nrm; reflexivity|]. destruct ok; nrm; reflexivity.
  - destruct (negb _); nrm; reflexivity.
Qed.

Lemma on_disconnect_local c i j : GM i (L c i) (L (on_disconnect n c i j) i).
Proof.
  assert (Y : Good (L c i) -> GM i (L c i) (L (on_disconnect n c i j) i)).
  { intros G. unfold on_disconnect. pose proof (g_lead _ G) as GL. pose proof (g_sync _ G) as GS. cbn in GL, GS.
    destruct (n_lead (c_node c i)) as [l|] eqn:El.
    - (* subscribed or following *)
      assert (F : following (n_st (c_node c i)) = true) by (cbn in GL; congruence).
      assert (NS : n_st (c_node c i) <> SYNCHRONIZING) by (intros E; rewrite E in F; discriminate).
      assert (NC : claiming (n_st (c_node c i)) = false) by (destruct (n_st (c_node c i)); try discriminate F; reflexivity).
      assert (Sy : n_sync (c_node c i) = None) by (apply (good_not_sync _ G NS)).
      destruct (Nat.eqb l j).
      + set (c1 := change_state n (set_lead c i None) i SEARCHING).
        assert (E1 : L c1 i = cs (mkL (n_st (c_node c i)) (n_scc (c_node c i)) None (n_sync (c_node c i)) (n_commits (c_node c i))) SEARCHING)
          by (unfold c1; nrm; reflexivity).
        clearbody c1.
        assert (E2 : L c1 i = mkL SEARCHING (S (n_scc (c_node c i))) None None (n_commits (c_node c i))).
        { rewrite E1, Sy. unfold cs. cbn [l_st l_scc l_lead l_sync l_commits]. destruct (n_st (c_node c i)); try discriminate F; reflexivity. }
        change (n_sync (c_node c1 i)) with (l_sync (L c1 i)). rewrite E2. cbn [l_sync]. change (n_st (c_node c1 i)) with (l_st (L c1 i)). rewrite E2. cbn [l_st claiming andb].
        rewrite E1. apply (cs_search_lead i (L c i)). exact NS.
      + rewrite Sy, NC. cbn [andb]. apply GM_refl.
    - destruct (n_sync (c_node c i)) as [l|] eqn:Es.
      + assert (NC : claiming (n_st (c_node c i)) = false) by (destruct (n_st (c_node c i)); try discriminate GS; reflexivity).
        destruct (Nat.eqb l j); [|rewrite NC; apply GM_refl].
        set (c1 := change_state n (set_sync c i None) i SEARCHING).
        assert (E1 : L c1 i = cs (mkL (n_st (c_node c i)) (n_scc (c_node c i)) (n_lead (c_node c i)) None (n_commits (c_node c i))) SEARCHING)
          by (unfold c1; nrm; reflexivity).
        clearbody c1.
        assert (NC1 : claiming (n_st (c_node c1 i)) = false).
        { change (n_st (c_node c1 i)) with (l_st (L c1 i)). rewrite E1. unfold cs. cbn [l_st]. destruct (n_st (c_node c i)); reflexivity. }
        rewrite NC1. cbn [andb]. rewrite E1. apply (cs_search i (L c i)).
      + destruct (_ && _); [|apply GM_refl]. nrm. apply cs_search'. intros _. exact Es. }
  split; intros G; apply Y; assumption.
Qed.
Lemma on_disconnect_local_o c i j k : k <> i -> L (on_disconnect n c i j) k = L c k.
Proof.
  intros Hk. unfold on_disconnect.
  match goal with |- context [match n_sync (c_node ?x i) with _ => _ end] => set (c1 := x) end.
  assert (E1 : L c1 k = L c k) by (unfold c1; destruct (n_lead (c_node c i)) as [l|]; [destruct (Nat.eqb l j)|]; nrm; reflexivity). clearbody c1.
  match goal with |- context [claiming (n_st (c_node ?x i))] => set (c2 := x) end.
  assert (E2 : L c2 k = L c1 k) by (unfold c2; destruct (n_sync (c_node c1 i)) as [l|]; [destruct (Nat.eqb l j)|]; nrm; reflexivity). clearbody c2.
  destruct (_ && _); nrm; congruence.
Qed.

Lemma set_priority_local c i p : GM i (L c i) (L (set_priority n c i p) i).
Proof.
  unfold set_priority. destruct (_ || _); [apply GM_refl|]. destruct (_ && _); [apply GM_refl|]. destruct (_ && _ && _); [apply GM_refl|].
  destruct (Z.eqb _ _); [apply GM_refl|]. destruct (_ || _); [nrm; apply GM_refl|].
  destruct (n_st (c_node c i)) eqn:Est; nrm; try apply GM_refl.
  - destruct (existsb _ _); nrm; [|apply GM_refl]. lr Est. gm.
  - destruct (n_lead (c_node c i)) eqn:El; nrm; [|apply GM_refl]. destruct (_ && _ && _); nrm; [|apply GM_refl]. lr Est. gm.
Qed.
Lemma set_priority_local_o c i p k : k <> i -> L (set_priority n c i p) k = L c k.
Proof.
  intros Hk. unfold set_priority. destruct (_ || _); [reflexivity|]. destruct (_ && _); [reflexivity|]. destruct (_ && _ && _); [reflexivity|].
  destruct (Z.eqb _ _); [reflexivity|]. destruct (_ || _); [nrm; reflexivity|].
  destruct (n_st (c_node c i)) eqn:Est; nrm; try reflexivity.
  - destruct (existsb _ _); nrm; reflexivity.
  - destruct (n_lead (c_node c i)) eqn:El; nrm; [|reflexivity]. destruct (_ && _ && _); nrm; reflexivity.
Qed.

(** The node an event happens at. *)
Definition actor (e : event) : nat :=
  match e with EConnect i _ | EDisconnect i _ | EBreak i _ | ERecv i _ _ _ | EUpdate i _ | ESetPriority i _ | EShutdown i | EShutdownPriority i => i end.

Theorem step_local c e c' : step n ver c e = Some c' -> GM (actor e) (L c (actor e)) (L c' (actor e)) /\ (forall k, k <> actor e -> L c' k = L c k).
Proof.
  destruct e as [i j|i j|i j|i j ok sr|i o|i p|i|i]; cbn [step actor]; intros E.
  - destruct (_ && _ && _); [|discriminate]. injection E as <-. unfold on_connect. split; intros; nrm; [apply GM_refl|reflexivity].
  - destruct (_ && _); [|discriminate]. injection E as <-. split.
    + rewrite <- (L_close c i j i) at 1. apply on_disconnect_local.
    + intros k Hk. rewrite on_disconnect_local_o by exact Hk. apply L_close.
  - destruct (valid n i j); [|discriminate]. injection E as <-. split; intros; nrm; [apply GM_refl|reflexivity].
  - destruct (_ && _); [|discriminate]. destruct (c_link c j i) as [|m q]; [discriminate|]. injection E as <-. split.
    + rewrite <- (L_setlink c j i q i) at 1. apply on_message_local.
    + intros k Hk. rewrite on_message_local_o by exact Hk. reflexivity.
  - destruct (Nat.ltb i n); [|discriminate]. injection E as <-. split; [apply update_local|]. intros. apply update_local_o. assumption.
  - destruct (Nat.ltb i n); [|discriminate]. injection E as <-. split; [apply set_priority_local|]. intros. apply set_priority_local_o. assumption.
  - destruct (Nat.ltb i n); [|discriminate]. injection E as <-. split; intros; nrm; [apply GM_refl|reflexivity].
  - destruct (Nat.ltb i n); [|discriminate]. injection E as <-. unfold set_shutdown_priority. split; intros; destruct (n_st (c_node c i)); nrm; try apply GM_refl; reflexivity.
Qed.
Theorem good_step c e c' : (forall i, Good (L c i)) -> step n ver c e = Some c' -> forall i, Good (L c' i).
Proof.
  intros G E i. destruct (step_local c e c' E) as [[A _] B]. destruct (Nat.eq_dec i (actor e)) as [->|H]; [auto|]. rewrite B by exact H. apply G.
Qed.
Theorem good_run es : forall c c', (forall i, Good (L c i)) -> run n ver c es = Some c' -> forall i, Good (L c' i).
Proof.
  induction es as [|e es IH]; intros c c' G; cbn [run]; intros E; [injection E as <-; exact G|].
  destruct (step n ver c e) as [c1|] eqn:E1; [|discriminate]. eapply IH; [|exact E]. eapply good_step; eauto.
Qed.
Theorem good_init p0 conf perma i : Good (L (init p0 conf perma) i).
Proof. constructor; cbn; congruence || reflexivity. Qed.

(** Becoming the leader. *)
Definition NL (x x' : loc) : Prop := l_st x' = LEADING -> l_st x = LEADING.
Lemma NL_refl x : NL x x. Proof. unfold NL; auto. Qed.
Lemma NL_cs x s : s <> LEADING -> NL x (cs x s).
Proof. unfold NL, cs. intros H. destruct (nstate_eqb s (l_st x)); [auto|]. cbn. congruence. Qed.
Lemma NL_cs_lead x l s : s <> LEADING -> NL x (cs (mkL (l_st x) (l_scc x) l (l_sync x) (l_commits x)) s).
Proof. unfold NL, cs. intros H. cbn [l_st]. destruct (nstate_eqb s (l_st x)); [auto|]. cbn. congruence. Qed.
Lemma NL_cs_sync x l s : s <> LEADING -> NL x (cs (mkL (l_st x) (l_scc x) (l_lead x) l (l_commits x)) s).
Proof. unfold NL, cs. intros H. cbn [l_st]. destruct (nstate_eqb s (l_st x)); [auto|]. cbn. congruence. Qed.
Lemma NL_sync x l : NL x (mkL (l_st x) (l_scc x) (l_lead x) l (l_commits x)).
Proof. unfold NL. auto. Qed.
Lemma NL_trans x y z : NL x y -> NL y z -> NL x z.
Proof. unfold NL. auto. Qed.
Ltac nl := nrm; first [apply NL_refl|apply NL_cs; discriminate|apply NL_cs_lead; discriminate|apply NL_cs_sync; discriminate|apply NL_sync].

Lemma standup_nl c i j k : NL (L c i) (L (send_standup_response n c i j k) i).
Proof.
  unfold send_standup_response. destruct (v_perma _); [nl|]. destruct (claiming _).
  - destruct (Z.ltb _ _); [destruct (n_st (c_node c i)); nl|]. destruct (majority_subscribed n c i); nl.
  - destruct (existsb _ _); nl.
Qed.
Lemma on_message_nl c i j m ok sr : NL (L c i) (L (on_message n ver c i j m ok sr) i).
Proof.
  unfold on_message. destruct m as [k s p|k s p|k r| | | | |].
  - destruct (v_logged _); [nl|]. destruct (_ && _); [nl|].
    match goal with |- context [n_view (c_node ?y i) j] => match y with c => fail 1 | _ => assert (E : L y i = L c i); [|set (d := y) in *; clearbody d] end end.
    { destruct (_ && _); [destruct (n_waited _)|]; nrm; reflexivity. }
    destruct s; rewrite <- E; try nl. eapply NL_trans; [|apply standup_nl]. nl.
  - destruct (negb _); [nl|]. destruct (nstate_eqb _ _); [nl|]. destruct s; try nl. eapply NL_trans; [|apply standup_nl]. nl.
  - destruct (negb _); [nl|]. destruct (n_st (c_node c i)); try nl. destruct (negb _); [nl|]. destruct r; nl.
  - destruct (negb _); nl.
  - destruct (negb _); [nl|]. destruct (n_st (c_node c i)) eqn:Est; try nl.
    destruct (n_sync (c_node c i)) as [p|] eqn:Esy; [|nl]. destruct (negb _); [nl|]. destruct sr as [| |[r|]|]; nl.
  - destruct (negb _); [nl|]. destruct (n_st (c_node c i)); nl.
  - destruct (negb _); [nl|]. destruct (n_st (c_node c i)) eqn:Est; try nl.
    destruct (n_lead (c_node c i)) as [l|] eqn:El; [|nl]. destruct (negb _); [nl|]. destruct ok; nl.
  - destruct (negb _); nl.
Qed.
Lemma on_disconnect_nl c i j : NL (L c i) (L (on_disconnect n c i j) i).
Proof.
  unfold on_disconnect.
  match goal with |- context [match n_sync (c_node ?x i) with _ => _ end] => set (c1 := x) end.
  assert (E1 : NL (L c i) (L c1 i)) by (unfold c1; destruct (n_lead (c_node c i)) as [l|]; [destruct (Nat.eqb l j)|]; nl). clearbody c1.
  match goal with |- context [claiming (n_st (c_node ?x i))] => set (c2 := x) end.
  assert (E2 : NL (L c1 i) (L c2 i)) by (unfold c2; destruct (n_sync (c_node c1 i)) as [l|]; [destruct (Nat.eqb l j)|]; nl). clearbody c2.
  eapply NL_trans; [exact E1|]. eapply NL_trans; [exact E2|]. destruct (_ && _); nl.
Qed.
Lemma set_priority_nl c i p : NL (L c i) (L (set_priority n c i p) i).
Proof.
  unfold set_priority. destruct (_ || _); [nl|]. destruct (_ && _); [nl|]. destruct (_ && _ && _); [nl|].
  destruct (Z.eqb _ _); [nl|]. destruct (_ || _); [nl|].
  destruct (n_st (c_node c i)) eqn:Est; try nl.
  - destruct (existsb _ _); nl.
  - destruct (n_lead (c_node c i)) eqn:El; [|nl]. destruct (_ && _ && _); nl.
Qed.
Lemma update_leads c i o : n_st (c_node c i) <> LEADING -> n_st (c_node (update n c i o) i) = LEADING ->
  (n_st (c_node c i) = SEARCHING /\ peers n i = []) \/
  (n_st (c_node c i) = STANDINGUP /\ num_full n c i <= 2 * num_approve n c i /\ any_deny n c i = false).
Proof.
  intros H. assert (K : NL (L c i) (L (update n c i o) i) -> n_st (c_node (update n c i o) i) = LEADING -> False) by (intros K E; apply H, K, E).
  revert K. unfold update. destruct (n_st (c_node c i)) eqn:Est; intros K E; try contradiction.
  - left. split; [reflexivity|]. destruct (n_shut (c_node c i)); [exfalso; apply K; [nl|exact E]|]. destruct (peers n i); [reflexivity|exfalso].
    apply K; [|exact E]. destruct (Nat.ltb _ _); [nl|]. destruct (negb (o_usable o)); [nl|]. destruct (negb (o_behind o)); [nl|]. destruct (o_sync o); nl.
  - exfalso. apply K; [|exact E]. destruct (_ || _); [|nl]. destruct (n_sync (c_node c i)); nl.
  - exfalso. apply K; [|exact E]. destruct (n_shut (c_node c i)); [nl|]. destruct (highest n c i) as [hp|]; [|nl].
    match goal with |- context [match ?sub with Some l => change_state _ _ _ _ | None => _ end] => destruct sub as [l|] end; [nl|].
    destruct (o_behind o); [nl|]. destruct (_ && _ && _ && _); nl.
  - right. split; [reflexivity|]. destruct (n_shut (c_node c i)); [exfalso; apply K; [nl|exact E]|].
    destruct (any_deny n c i); [exfalso; apply K; [nl|exact E]|].
    destruct (_ && _) eqn:Ec; [|exfalso; apply K; [destruct (o_timeout o); nl|exact E]].
    apply Bool.andb_true_iff in Ec as [_ Ec]. apply Nat.leb_le in Ec. auto.
  - exfalso. apply K; [|exact E]. destruct (n_shut (c_node c i)); nl.
  - exfalso. apply K; [|exact E]. destruct (n_shut (c_node c i)); [nl|]. destruct (o_timeout o); [|nl]. destruct (n_lead (c_node c i)); nl.
  - exfalso. apply K; [|exact E]. destruct (_ && _); [nl|]. destruct (n_lead (c_node c i)); [|nl]. destruct (in_charge _); nl.
Qed.
Lemma step_leads c e c' i : step n ver c e = Some c' -> n_st (c_node c i) <> LEADING -> n_st (c_node c' i) = LEADING ->
  (n_st (c_node c i) = SEARCHING /\ peers n i = []) \/
  (n_st (c_node c i) = STANDINGUP /\ num_full n c i <= 2 * num_approve n c i /\ any_deny n c i = false).
Proof.
  intros Hs H1 H2. destruct (step_local c e c' Hs) as [_ O]. destruct (Nat.eq_dec i (actor e)) as [->|Hi].
  2: { exfalso. specialize (O i Hi). injection O as E _ _ _ _. congruence. }
  assert (K : NL (L c (actor e)) (L c' (actor e)) -> False) by (intros K; apply H1, K, H2). clear O.
  destruct e as [i j|i j|i j|i j ok sr|i o|i p|i|i]; cbn [step actor] in *.
  - exfalso. destruct (_ && _ && _); [|discriminate]. injection Hs as <-. apply K. unfold on_connect. nl.
  - exfalso. destruct (_ && _); [|discriminate]. injection Hs as <-. apply K. rewrite <- (L_close c i j i) at 1. apply on_disconnect_nl.
  - exfalso. destruct (valid n i j); [|discriminate]. injection Hs as <-. apply K. nl.
  - exfalso. destruct (_ && _); [|discriminate]. destruct (c_link c j i) as [|m q]; [discriminate|]. injection Hs as <-. apply K.
    rewrite <- (L_setlink c j i q i) at 1. apply on_message_nl.
  - destruct (Nat.ltb i n); [|discriminate]. injection Hs as <-. eapply update_leads; eauto.
  - exfalso. destruct (Nat.ltb i n); [|discriminate]. injection Hs as <-. apply K, set_priority_nl.
  - exfalso. destruct (Nat.ltb i n); [|discriminate]. injection Hs as <-. apply K. nl.
  - exfalso. destruct (Nat.ltb i n); [|discriminate]. injection Hs as <-. apply K. unfold set_shutdown_priority. destruct (n_st (c_node c i)); nl.
Qed.
End P.
