From Verif Require Import Base Cluster_Model.
Require Import Sorted.

Section P.
Variable n : nat.
Notation peers := (peers n).
Lemma peers_in i j : In j (peers i) <-> j < n /\ j <> i.
Proof.
  unfold Cluster_Model.peers. rewrite filter_In, in_seq. destruct (Nat.eqb_spec j i); cbn; split; intros; intuition; try discriminate; lia.
Qed.
Variable ver : nat -> nat.
Variable full : nat -> bool.                (* the nodes that are not permafollowers *)

Definition smsg (m : msg) : list (nat * nstate) := match m with MLogin k s _ | MState k s _ => [(k, s)] | _ => [] end.
Definition smsgs (q : list msg) : list (nat * nstate) := flat_map smsg q.
Definition mprio (m : msg) : option Z := match m with MLogin _ _ p | MState _ _ p => Some p | _ => None end.

Notation st c i := (n_st (c_node c i)).
Notation scc c i := (n_scc (c_node c i)).
Notation stint c i := (n_stint (c_node c i)).
Notation vw c i j := (n_view (c_node c i) j).

Record Core (c : cluster) : Prop := {
  k_scc : forall i, 1 <= scc c i /\ stint c i <= scc c i;
  k_stint : forall i, i < n -> claiming (st c i) = true -> peers i = [] \/ (1 <= stint c i /\ full i = true);
  k_up : forall i, st c i = STANDINGUP -> stint c i = scc c i;
  k_prio : forall i, i < n -> Z.eqb (n_prio (c_node c i)) 0 = negb (full i);
  k_perma : forall i j, i < n -> j < n -> v_perma (vw c i j) = negb (full j);
  k_mprio : forall i j m p, i < n -> In m (c_link c i j) -> mprio m = Some p -> Z.eqb p 0 = negb (full i);
  k_sorted : forall i j, StronglySorted le (map fst (smsgs (c_link c i j)));
  k_bound : forall i j k s, In (k, s) (smsgs (c_link c i j)) -> k <= scc c i;
  k_claim : forall i j k s, In (k, s) (smsgs (c_link c i j)) -> peers i <> [] -> claiming (st c i) = true -> stint c i <= k -> claiming s = true;
  k_resp_msg : forall i j k, In (MResp k (Some true)) (c_link c i j) -> k = 0 \/ In (j, k) (c_appr c i);
  k_resp : forall a x, st c a = STANDINGUP -> v_resp (vw c a x) = RApprove -> In (a, scc c a) (c_appr c x);
  k_appr : forall a k x, In (a, k) (c_appr c x) -> In a (peers x) /\ x < n /\ k <= scc c a;
  k_view : forall a k x, In (a, k) (c_appr c x) -> claiming (st c a) = true -> stint c a = k -> 1 <= k ->
           claiming (v_state (vw c x a)) = true /\ v_logged (vw c x a) = true /\
           (forall p, In p (smsgs (c_link c a x)) -> claiming (snd p) = true) /\ claiming (st c x) = false;
  k_one : forall a k b k' x, In (a, k) (c_appr c x) -> In (b, k') (c_appr c x) ->
          claiming (st c a) = true -> stint c a = k -> 1 <= k -> claiming (st c b) = true -> stint c b = k' -> 1 <= k' -> a = b;
  k_lead : forall a, a < n -> in_charge (st c a) = true -> peers a = [] \/
           exists Q, NoDup Q /\ incl Q (peers a) /\ (forall x, In x Q -> full x = true /\ In (a, stint c a) (c_appr c x)) /\
             count full (peers a) <= 2 * List.length Q
}.
Definition Inv (c : cluster) : Prop := c_lost c = false -> c_cross c = false -> Core c.

(** Changes the invariant does not see. *)
Record ess (c c' : cluster) : Prop := {
  es_node : forall i, st c' i = st c i /\ scc c' i = scc c i /\ stint c' i = stint c i /\ n_prio (c_node c' i) = n_prio (c_node c i);
  es_view : forall i j, v_state (vw c' i j) = v_state (vw c i j) /\ v_prio (vw c' i j) = v_prio (vw c i j) /\ v_perma (vw c' i j) = v_perma (vw c i j) /\
            v_logged (vw c' i j) = v_logged (vw c i j) /\ v_resp (vw c' i j) = v_resp (vw c i j);
  es_link : forall i j, c_link c' i j = c_link c i j;
  es_appr : forall i, c_appr c' i = c_appr c i;
  es_flags : c_lost c' = c_lost c /\ c_cross c' = c_cross c
}.
Lemma ess_refl c : ess c c.
Proof. constructor; intros; repeat split; reflexivity. Qed.
Lemma ess_trans a b c : ess a b -> ess b c -> ess a c.
Proof.
  intros [N1 V1 L1 A1 F1] [N2 V2 L2 A2 F2]. constructor; intros.
  - specialize (N1 i). specialize (N2 i). intuition congruence.
  - specialize (V1 i j). specialize (V2 i j). intuition congruence.
  - congruence.
  - congruence.
  - intuition congruence.
Qed.
Lemma ess_inv c c' : ess c c' -> Inv c -> Inv c'.
Proof.
  intros [N V L A [F1 F2]] H H1 H2. rewrite F1 in H1. rewrite F2 in H2. specialize (H H1 H2). destruct H.
  assert (NS : forall i, st c' i = st c i) by (intros i; apply N).
  assert (NC : forall i, scc c' i = scc c i) by (intros i; apply N).
  assert (NT : forall i, stint c' i = stint c i) by (intros i; apply N).
  assert (NP : forall i, n_prio (c_node c' i) = n_prio (c_node c i)) by (intros i; apply N).
  assert (VS : forall i j, v_state (vw c' i j) = v_state (vw c i j)) by (intros i j; apply (V i j)).
  assert (VP : forall i j, v_perma (vw c' i j) = v_perma (vw c i j)) by (intros i j; apply (V i j)).
  assert (VL : forall i j, v_logged (vw c' i j) = v_logged (vw c i j)) by (intros i j; apply (V i j)).
  assert (VR : forall i j, v_resp (vw c' i j) = v_resp (vw c i j)) by (intros i j; apply (V i j)).
  constructor.
  - intros i. rewrite NC, NT. auto.
  - intros i Hi. rewrite NS, NT. auto.
  - intros i. rewrite NS, NT, NC. auto.
  - intros i Hi. rewrite NP. auto.
  - intros i j. rewrite VP. auto.
  - intros i j m p. rewrite L. eauto.
  - intros i j. rewrite L. auto.
  - intros i j k s. rewrite L, NC. eauto.
  - intros i j k s. rewrite L, NS, NT. eauto.
  - intros i j k. rewrite L, A. eauto.
  - intros a x. rewrite NS, VR, NC, A. eauto.
  - intros a k x. rewrite A, NC. eauto.
  - intros a k x. rewrite A, !NS, NT, VS, VL, L. eauto.
  - intros a k b k' x. rewrite A, !NS, !NT. eauto.
  - intros a Ha. rewrite NS, NT. intros Hc. destruct (k_lead0 a Ha Hc) as [E|(Q & Q1 & Q2 & Q3 & Q4)]; [left; exact E|].
    right. exists Q. repeat split; try assumption; [apply Q3; assumption|]. rewrite A. apply Q3. assumption.
Qed.

Ltac eqbs := repeat match goal with |- context [Nat.eqb ?a ?b] => destruct (Nat.eqb_spec a b); [try subst a|] end.
Ltac es := constructor; [intros i0|intros i0 j0|intros i0 j0|intros i0|]; cbn; eqbs; cbn; eqbs; repeat split; try reflexivity.

Lemma ess_set_conf c i p : ess c (set_conf c i p). Proof. es. Qed.
Lemma ess_set_lead c i p : ess c (set_lead c i p). Proof. es. Qed.
Lemma ess_set_sync c i p : ess c (set_sync c i p). Proof. es. Qed.
Lemma ess_set_shut c i p : ess c (set_shut c i p). Proof. es. Qed.
Lemma ess_set_boot c i p q : ess c (set_boot c i p q). Proof. es. Qed.
Lemma ess_set_commits c i p : ess c (set_commits c i p). Proof. es. Qed.
Lemma ess_clear_subs c i : ess c (clear_subs c i). Proof. es. Qed.
Lemma ess_setsock c i j k : ess c (setsock c i j k). Proof. es. Qed.
Lemma ess_setdead c i j k : ess c (setdead c i j k). Proof. es. Qed.
Lemma ess_shutdown_socket c i j : ess c (shutdown_socket c i j).
Proof. unfold shutdown_socket. destruct (c_sock c i j); [apply ess_refl|apply ess_setsock|apply ess_refl]. Qed.
Lemma ess_setsubs c i j v : let w := vw c i j in v = mkV (v_state w) (v_prio w) (v_perma w) (v_logged w) (v_resp w) (v_subs v) -> ess c (setview c i j v).
Proof. cbn zeta. intros E. rewrite E. es. Qed.

Lemma smsgs_app a b : smsgs (a ++ b) = smsgs a ++ smsgs b.
Proof. apply flat_map_app. Qed.
Lemma sorted_snoc l x : StronglySorted le l -> (forall y, In y l -> y <= x) -> StronglySorted le (l ++ [x]).
Proof.
  induction 1 as [|a l H IH F]; intros Hx; cbn [app]; [constructor; [constructor|constructor]|].
  constructor; [apply IH; intros y Hy; apply Hx; right; exact Hy|]. rewrite Forall_forall in *. intros y Hy.
  apply in_app_iff in Hy as [Hy|[<-|[]]]; [apply F; exact Hy|apply Hx; left; reflexivity].
Qed.
Lemma peers_nodup i : NoDup (peers i).
Proof. apply NoDup_filter, seq_NoDup. Qed.

(** What a node may send. *)
Definition sendable (c : cluster) (i j : nat) (m : msg) : Prop :=
  match m with
  | MLogin k s p | MState k s p => k = scc c i /\ s = st c i /\ (i < n -> Z.eqb p 0 = Z.eqb (n_prio (c_node c i)) 0)
  | MResp k (Some true) => k = 0 \/ In (j, k) (c_appr c i)
  | _ => True
  end.
Lemma send_cases c i j m : send c i j m = c \/ send c i j m = setlink c i j (c_link c i j ++ [m]).
Proof. unfold send. destruct (c_sock c i j); auto. destruct (c_dead c i j); auto. Qed.

Lemma link_setlink c i j q a b : c_link (setlink c i j q) a b = if Nat.eqb a i && Nat.eqb b j then q else c_link c a b.
Proof. reflexivity. Qed.

Lemma send_inv c i j m : Inv c -> sendable c i j m -> Inv (send c i j m).
Proof.
  intros H Hm. destruct (send_cases c i j m) as [->| ->]; [exact H|]. intros H1 H2. specialize (H H1 H2).
  assert (HL : forall a b, c_link (setlink c i j (c_link c i j ++ [m])) a b = c_link c a b \/
     (a = i /\ b = j /\ c_link (setlink c i j (c_link c i j ++ [m])) a b = c_link c i j ++ [m])).
  { intros a b. rewrite link_setlink. destruct (Nat.eqb_spec a i) as [->|]; [|auto]. destruct (Nat.eqb_spec b j) as [->|]; cbn [andb]; auto. }
  constructor; try apply H.
  - intros a b m' p Ha. destruct (HL a b) as [->|(-> & -> & ->)]; [apply H; exact Ha|]. intros Hin Hp.
    apply in_app_iff in Hin as [Hin|[<-|[]]]; [eapply (k_mprio _ H); eauto|].
    destruct m; cbn in Hp; try discriminate; injection Hp as <-; destruct Hm as (_ & _ & E); cbn; rewrite E by exact Ha; apply (k_prio _ H); exact Ha.
  - intros a b. destruct (HL a b) as [->|(-> & -> & ->)]; [apply H|]. rewrite smsgs_app, map_app. destruct m; cbn; rewrite ?app_nil_r; try apply H;
      (apply sorted_snoc; [apply H|]); intros y Hy; apply in_map_iff in Hy as ([k s] & <- & Hy); cbn; destruct Hm as (-> & _); eapply (k_bound _ H); eauto.
  - intros a b k s. destruct (HL a b) as [->|(-> & -> & ->)]; [apply H|]. rewrite smsgs_app. intros Hin. apply in_app_iff in Hin as [Hin|Hin]; [eapply (k_bound _ H); eauto|].
    destruct m; cbn in Hin; try contradiction; destruct Hin as [Hin|[]]; injection Hin as <- <-; destruct Hm as (-> & _); apply le_n.
  - intros a b k s. destruct (HL a b) as [->|(-> & -> & ->)]; [apply H|]. rewrite smsgs_app. intros Hin. apply in_app_iff in Hin as [Hin|Hin]; [eapply (k_claim _ H); eauto|].
    intros _ Hc _. destruct m; cbn in Hin; try contradiction; destruct Hin as [Hin|[]]; injection Hin as <- <-; destruct Hm as (_ & -> & _); exact Hc.
  - intros a b k. destruct (HL a b) as [->|(-> & -> & ->)]; [apply H|]. intros Hin. apply in_app_iff in Hin as [Hin|[Hin|[]]]; [eapply (k_resp_msg _ H); eauto|].
    rewrite Hin in Hm. exact Hm.
  - intros a k x Ha Hc Hs Hk. destruct (k_view _ H a k x Ha Hc Hs Hk) as (A & B & C & E). repeat split; try assumption.
    destruct (HL a x) as [->|(-> & -> & ->)]; [exact C|]. intros p. rewrite smsgs_app. intros Hin. apply in_app_iff in Hin as [Hin|Hin]; [auto|].
    destruct m; cbn in Hin; try contradiction; destruct Hin as [Hin|[]]; rewrite <- Hin; destruct Hm as (_ & -> & _); exact Hc.
Qed.
Lemma send_node c i j m : c_node (send c i j m) = c_node c /\ c_appr (send c i j m) = c_appr c /\ c_lost (send c i j m) = c_lost c /\ c_cross (send c i j m) = c_cross c.
Proof. destruct (send_cases c i j m) as [->| ->]; auto. Qed.

Definition statemsg (m : msg) : Prop := match m with MLogin _ _ _ | MState _ _ _ => True | _ => False end.
Lemma broadcast_inv c i m : Inv c -> statemsg m -> sendable c i 0 m -> Inv (broadcast n c i m).
Proof.
  intros H Hs Hm. unfold broadcast. assert (Hm' : forall j, sendable c i j m) by (intros j; destruct m; try contradiction; exact Hm). clear Hm.
  revert c H Hm'. induction (peers i) as [|j l IH]; intros c H Hm; cbn [fold_left]; [exact H|].
  apply IH; [apply send_inv; auto|]. intros k. specialize (Hm k). destruct (send_node c i j m) as (N & A & _). destruct m; try contradiction; cbn in *; rewrite N; exact Hm.
Qed.
Lemma broadcast_node c i m : c_node (broadcast n c i m) = c_node c /\ c_appr (broadcast n c i m) = c_appr c /\ c_lost (broadcast n c i m) = c_lost c /\ c_cross (broadcast n c i m) = c_cross c.
Proof.
  unfold broadcast. revert c. induction (peers i) as [|j l IH]; intros c; cbn [fold_left]; [auto|].
  destruct (IH (send c i j m)) as (A & B & C & E). destruct (send_node c i j m) as (A' & B' & C' & E'). rewrite A, B, C, E. auto.
Qed.

(** Receiving takes the head off. *)
Lemma dequeue_inv c i j m q : c_link c j i = m :: q -> Inv c -> Inv (setlink c j i q).
Proof.
  intros E H H1 H2. specialize (H H1 H2).
  assert (HL : forall a b, c_link (setlink c j i q) a b = c_link c a b \/ (a = j /\ b = i /\ c_link (setlink c j i q) a b = q)).
  { intros a b. rewrite link_setlink. destruct (Nat.eqb_spec a j) as [->|]; [|auto]. destruct (Nat.eqb_spec b i) as [->|]; cbn [andb]; auto. }
  assert (HI : forall x, In x q -> In x (c_link c j i)) by (intros x Hx; rewrite E; right; exact Hx).
  assert (HS : forall x, In x (smsgs q) -> In x (smsgs (c_link c j i))) by (intros x Hx; rewrite E; cbn; apply in_app_iff; right; exact Hx).
  constructor; try apply H.
  - intros a b m' p Ha. destruct (HL a b) as [->|(-> & -> & ->)]; [apply H; exact Ha|]. intros Hin. eapply (k_mprio _ H); eauto.
  - intros a b. destruct (HL a b) as [->|(-> & -> & ->)]; [apply H|]. pose proof (k_sorted _ H j i) as S. rewrite E in S. cbn in S. rewrite map_app in S.
    destruct m; cbn in S; try exact S; inversion S; assumption.
  - intros a b k s. destruct (HL a b) as [->|(-> & -> & ->)]; [apply H|]. intros Hin. eapply (k_bound _ H); eauto.
  - intros a b k s. destruct (HL a b) as [->|(-> & -> & ->)]; [apply H|]. intros Hin. eapply (k_claim _ H); eauto.
  - intros a b k. destruct (HL a b) as [->|(-> & -> & ->)]; [apply H|]. intros Hin. eapply (k_resp_msg _ H); eauto.
  - intros a k x Ha Hc Hs Hk. destruct (k_view _ H a k x Ha Hc Hs Hk) as (A & B & C & F). repeat split; try assumption.
    destruct (HL a x) as [->|(-> & -> & ->)]; [exact C|]. intros p Hp. apply C, HS, Hp.
Qed.
(** Losing messages. *)
Lemma clear_link_inv c i j : Inv c -> Inv (setlink c i j []).
Proof.
  intros H H1 H2. specialize (H H1 H2).
  assert (HL : forall a b, c_link (setlink c i j []) a b = c_link c a b \/ (a = i /\ b = j /\ c_link (setlink c i j []) a b = [])).
  { intros a b. rewrite link_setlink. destruct (Nat.eqb_spec a i) as [->|]; [|auto]. destruct (Nat.eqb_spec b j) as [->|]; cbn [andb]; auto. }
  constructor; try apply H.
  - intros a b m' p Ha. destruct (HL a b) as [->|(-> & -> & ->)]; [apply H; exact Ha|contradiction].
  - intros a b. destruct (HL a b) as [->|(-> & -> & ->)]; [apply H|constructor].
  - intros a b k s. destruct (HL a b) as [->|(-> & -> & ->)]; [apply H|contradiction].
  - intros a b k s. destruct (HL a b) as [->|(-> & -> & ->)]; [apply H|contradiction].
  - intros a b k. destruct (HL a b) as [->|(-> & -> & ->)]; [apply H|contradiction].
  - intros a k x Ha Hc Hs Hk. destruct (k_view _ H a k x Ha Hc Hs Hk) as (A & B & C & F). repeat split; try assumption.
    destruct (HL a x) as [->|(-> & -> & ->)]; [exact C|contradiction].
Qed.

(** Changing one view. *)
Lemma view_setview c i j v a b : vw (setview c i j v) a b = if Nat.eqb a i && Nat.eqb b j then v else vw c a b.
Proof.
  unfold setview, setnode. cbn [c_node]. destruct (Nat.eqb_spec a i) as [->|]; cbn [andb]; [|reflexivity]. cbn [n_view]. reflexivity.
Qed.
Lemma node_setview c i j v a : let x := c_node (setview c i j v) a in
  n_st x = st c a /\ n_scc x = scc c a /\ n_stint x = stint c a /\ n_prio x = n_prio (c_node c a) /\ n_conf x = n_conf (c_node c a) /\
  n_lead x = n_lead (c_node c a) /\ n_sync x = n_sync (c_node c a) /\ n_shut x = n_shut (c_node c a) /\ n_seen x = n_seen (c_node c a) /\ n_waited x = n_waited (c_node c a) /\ n_commits x = n_commits (c_node c a).
Proof. unfold setview, setnode. cbn [c_node]. destruct (Nat.eqb_spec a i) as [->|]; cbn; repeat split. Qed.
Definition view_ok (c : cluster) (i j : nat) (v : view) : Prop :=
  (i < n -> j < n -> v_perma v = negb (full j)) /\
  (v_resp v = RApprove -> st c i = STANDINGUP -> In (i, scc c i) (c_appr c j)) /\
  (forall k, In (j, k) (c_appr c i) -> claiming (st c j) = true -> stint c j = k -> 1 <= k -> claiming (v_state v) = true /\ v_logged v = true).
Lemma setview_core c i j v : Core c -> view_ok c i j v -> Core (setview c i j v).
Proof.
  intros H (V1 & V2 & V3).
  assert (NS : forall a, st (setview c i j v) a = st c a) by (intros a; apply node_setview).
  assert (NC : forall a, scc (setview c i j v) a = scc c a) by (intros a; apply node_setview).
  assert (NT : forall a, stint (setview c i j v) a = stint c a) by (intros a; apply node_setview).
  assert (NP : forall a, n_prio (c_node (setview c i j v) a) = n_prio (c_node c a)) by (intros a; apply node_setview).
  assert (HV : forall a b, vw (setview c i j v) a b = vw c a b \/ (a = i /\ b = j /\ vw (setview c i j v) a b = v)).
  { intros a b. rewrite view_setview. destruct (Nat.eqb_spec a i) as [->|]; [|auto]. destruct (Nat.eqb_spec b j) as [->|]; cbn [andb]; auto. }
  constructor.
  - intros a. rewrite NC, NT. apply H.
  - intros a. rewrite NS, NT. apply H.
  - intros a. rewrite NS, NT, NC. apply H.
  - intros a. rewrite NP. apply H.
  - intros a b. destruct (HV a b) as [->|(-> & -> & ->)]; [apply H|exact V1].
  - apply H.
  - apply H.
  - intros a b k s. rewrite NC. apply H.
  - intros a b k s. rewrite NS, NT. apply H.
  - apply H.
  - intros a x. rewrite NS, NC. destruct (HV a x) as [->|(-> & -> & ->)]; [apply H|]. intros X Y. apply V2; assumption.
  - intros a k x. rewrite NC. apply H.
  - intros a k x Ha. rewrite !NS, NT. intros Hc Hs Hk. destruct (k_view _ H a k x Ha Hc Hs Hk) as (A & B & C & E).
    destruct (HV x a) as [->|(-> & -> & ->)]; [auto|]. destruct (V3 k Ha Hc Hs Hk). auto.
  - intros a k b k' x. rewrite !NS, !NT. apply H.
  - intros a Ha. rewrite NS, NT. apply H. exact Ha.
Qed.

Lemma setview_inv c i j v : Inv c -> (c_lost c = false -> c_cross c = false -> view_ok c i j v) -> Inv (setview c i j v).
Proof. intros H Hv H1 H2. apply setview_core; [apply H|apply Hv]; assumption. Qed.

Lemma core_flag_lost c b : Core c -> Core (flag_lost c b).
Proof. intros H; destruct H; constructor; assumption. Qed.
Lemma core_flag_cross c b : Core c -> Core (flag_cross c b).
Proof. intros H; destruct H; constructor; assumption. Qed.

Lemma not_approved c i j k : approved_claim c i j = false -> In (j, k) (c_appr c i) -> claiming (st c j) = true -> stint c j = k -> False.
Proof.
  unfold approved_claim. intros E Hin Hc Hs. rewrite Hc in E. cbn [andb] in E.
  assert (X : existsb (fun p => Nat.eqb (fst p) j && Nat.eqb (snd p) (n_stint (c_node c j))) (c_appr c i) = true); [|congruence].
  apply existsb_exists. exists (j, k). split; [exact Hin|]. cbn. rewrite Nat.eqb_refl, Hs, Nat.eqb_refl. reflexivity.
Qed.

(** What a step that only touches views, priorities and links keeps. *)
Record keeps (c c' : cluster) : Prop := {
  kp_node : forall a, st c' a = st c a /\ stint c' a = stint c a /\ scc c' a = scc c a;
  kp_appr : forall a, c_appr c' a = c_appr c a;
  kp_lost : c_lost c' = false -> c_lost c = false;
  kp_cross : c_cross c' = false -> c_cross c = false
}.
Lemma keeps_refl c : keeps c c.
Proof. constructor; intros; auto. Qed.
Lemma keeps_trans a b c : keeps a b -> keeps b c -> keeps a c.
Proof.
  intros [A1 B1 C1 D1] [A2 B2 C2 D2]. constructor; intros; auto.
  - specialize (A1 a0). specialize (A2 a0). intuition congruence.
  - rewrite B2. apply B1.
Qed.
Lemma ess_keeps c c' : ess c c' -> keeps c c'.
Proof.
  intros [A B C D [E F]]. constructor; intros; auto; try congruence. specialize (A a). intuition.
Qed.
Lemma keeps_setview c i j v : keeps c (setview c i j v).
Proof. constructor; intros; auto. pose proof (node_setview c i j v a) as H. cbn zeta in H. intuition. Qed.
Lemma keeps_flag_lost c b : keeps c (flag_lost c b).
Proof. constructor; intros; auto. cbn in H. apply Bool.orb_false_iff in H. apply H. Qed.
Lemma keeps_setlink c i j q : keeps c (setlink c i j q).
Proof. constructor; intros; auto. Qed.
Lemma keeps_send c i j m : keeps c (send c i j m).
Proof. destruct (send_cases c i j m) as [->| ->]; [apply keeps_refl|apply keeps_setlink]. Qed.
Lemma keeps_set_prio c i p : keeps c (set_prio c i p).
Proof.
  constructor; intros; auto.
  - unfold set_prio, flag_cross, setnode. cbn [c_node]. destruct (Nat.eqb_spec a i) as [->|]; cbn; auto.
  - cbn in H. apply Bool.orb_false_iff in H. apply H.
Qed.
Lemma keeps_reconnect_peer c i j : keeps c (reconnect_peer c i j).
Proof.
  unfold reconnect_peer. eapply keeps_trans; [|apply ess_keeps, ess_shutdown_socket]. eapply keeps_trans; [|apply keeps_flag_lost]. apply keeps_setview.
Qed.
Lemma keeps_reconnect_all c i : keeps c (reconnect_all n c i).
Proof.
  unfold reconnect_all. revert c. induction (peers i) as [|j l IH]; intros c; cbn [fold_left]; [apply keeps_refl|].
  eapply keeps_trans; [|apply IH]. apply keeps_reconnect_peer.
Qed.

Lemma drop_inv c i j v : Inv c -> v_perma v = v_perma (vw c i j) -> (v_resp v = RApprove -> v_resp (vw c i j) = RApprove) ->
  Inv (flag_lost (setview c i j v) (approved_claim c i j)).
Proof.
  intros H Ep Er H1 H2. cbn in H1, H2. apply Bool.orb_false_iff in H1 as [H1 HA]. specialize (H H1 H2).
  apply core_flag_lost, setview_core; [exact H|]. repeat split.
  - intros Hi Hj. rewrite Ep. apply (k_perma _ H); assumption.
  - intros E Hs. apply (k_resp _ H); auto.
  - exfalso. eapply not_approved; eauto.
  - exfalso. eapply not_approved; eauto.
Qed.
Lemma reconnect_peer_inv c i j : Inv c -> Inv (reconnect_peer c i j).
Proof. intros H. unfold reconnect_peer. eapply ess_inv; [apply ess_shutdown_socket|]. apply drop_inv; auto. Qed.
Lemma reconnect_all_inv c i : Inv c -> Inv (reconnect_all n c i).
Proof.
  unfold reconnect_all. revert c. induction (peers i) as [|j l IH]; intros c H; cbn [fold_left]; [exact H|].
  apply IH, reconnect_peer_inv, H.
Qed.
Lemma throw_inv c i j : Inv c -> Inv (throw_ c i j).
Proof. intros H. unfold throw_. eapply ess_inv; [apply ess_shutdown_socket|]. apply send_inv; [exact H|exact I]. Qed.

Lemma same_nodes_core c c' :
  (forall i, st c' i = st c i /\ scc c' i = scc c i /\ stint c' i = stint c i) ->
  (forall i, i < n -> Z.eqb (n_prio (c_node c' i)) 0 = Z.eqb (n_prio (c_node c i)) 0) ->
  (forall i j, v_state (vw c' i j) = v_state (vw c i j) /\ v_perma (vw c' i j) = v_perma (vw c i j) /\ v_logged (vw c' i j) = v_logged (vw c i j) /\
               (v_resp (vw c' i j) = RApprove -> v_resp (vw c i j) = RApprove)) ->
  (forall i j, c_link c' i j = c_link c i j) -> (forall i, c_appr c' i = c_appr c i) -> Core c -> Core c'.
Proof.
  intros N P V L A H. destruct H.
  assert (NS : forall i, st c' i = st c i) by (intros i; apply N).
  assert (NC : forall i, scc c' i = scc c i) by (intros i; apply N).
  assert (NT : forall i, stint c' i = stint c i) by (intros i; apply N).
  assert (VS : forall i j, v_state (vw c' i j) = v_state (vw c i j)) by (intros i j; apply (V i j)).
  assert (VP : forall i j, v_perma (vw c' i j) = v_perma (vw c i j)) by (intros i j; apply (V i j)).
  assert (VL : forall i j, v_logged (vw c' i j) = v_logged (vw c i j)) by (intros i j; apply (V i j)).
  assert (VR : forall i j, v_resp (vw c' i j) = RApprove -> v_resp (vw c i j) = RApprove) by (intros i j; apply (V i j)).
  constructor.
  - intros i. rewrite NC, NT. auto.
  - intros i. rewrite NS, NT. auto.
  - intros i. rewrite NS, NT, NC. auto.
  - intros i Hi. rewrite P by exact Hi. auto.
  - intros i j. rewrite VP. auto.
  - intros i j m p. rewrite L. eauto.
  - intros i j. rewrite L. auto.
  - intros i j k s. rewrite L, NC. eauto.
  - intros i j k s. rewrite L, NS, NT. eauto.
  - intros i j k. rewrite L, A. eauto.
  - intros a x. rewrite NS, NC, A. eauto.
  - intros a k x. rewrite A, NC. eauto.
  - intros a k x. rewrite A, !NS, NT, VS, VL, L. eauto.
  - intros a k b k' x. rewrite A, !NS, !NT. eauto.
  - intros a Ha. rewrite NS, NT. intros Hc. destruct (k_lead0 a Ha Hc) as [E|(Q & Q1 & Q2 & Q3 & Q4)]; [auto|right]. exists Q. repeat split; auto.
    + apply Q3; assumption.
    + rewrite A. apply Q3; assumption.
Qed.
Lemma set_prio_inv c i p : Inv c -> Inv (set_prio c i p).
Proof.
  intros H H1 H2. cbn in H1, H2. apply Bool.orb_false_iff in H2 as [H2 HA]. specialize (H H1 H2).
  apply Bool.negb_false_iff, Bool.eqb_prop in HA.
  eapply same_nodes_core; [| | | | |exact H]; intros; unfold set_prio, flag_cross, setnode; cbn [c_node c_link c_appr]; try reflexivity;
    destruct (Nat.eqb_spec i0 i) as [->|]; cbn; auto.
Qed.
Lemma clear_resp_inv c i : Inv c -> Inv (clear_resp c i).
Proof.
  intros H H1 H2. specialize (H H1 H2).
  eapply same_nodes_core; [| | | | |exact H]; intros; unfold clear_resp, setnode; cbn [c_node c_link c_appr]; try reflexivity;
    destruct (Nat.eqb_spec i0 i) as [->|]; cbn; repeat split; auto; discriminate.
Qed.
Lemma close_inv c i j : Inv c -> Inv (close c i j).
Proof.
  intros H. unfold close.
  set (c1 := setlink (setsock c i j SNone) j i []).
  set (c2 := setdead (if has_socket c1 j i && negb (c_dead c1 i j) then setdead c1 j i true else setlink c1 i j []) i j false).
  assert (I1 : Inv c1) by (apply clear_link_inv; eapply ess_inv; [apply ess_setsock|exact H]).
  assert (I2 : Inv c2).
  { unfold c2. eapply ess_inv; [apply ess_setdead|]. destruct (_ && _); [eapply ess_inv; [apply ess_setdead|exact I1]|apply clear_link_inv, I1]. }
  replace (approved_claim c i j) with (approved_claim c2 i j).
  - apply drop_inv; [exact I2|reflexivity|discriminate].
  - unfold c2. destruct (_ && _); reflexivity.
Qed.

Lemma setappr_inv c i j k : Inv c -> i < n -> In j (peers i) ->
  (c_lost c = false -> c_cross c = false -> claiming (st c i) = false /\ k <= scc c j /\
     (1 <= k -> claiming (st c j) = true -> stint c j = k ->
        claiming (v_state (vw c i j)) = true /\ v_logged (vw c i j) = true /\ (forall p, In p (smsgs (c_link c j i)) -> claiming (snd p) = true)) /\
     (forall b k', In (b, k') (c_appr c i) -> claiming (st c b) = true -> stint c b = k' -> 1 <= k' -> b = j)) ->
  Inv (setappr c i ((j, k) :: c_appr c i)).
Proof.
  intros H Hi Hj Hc H1 H2. specialize (H H1 H2). destruct (Hc H1 H2) as (C1 & C2 & C3 & C4).
  assert (HA : forall x, c_appr (setappr c i ((j, k) :: c_appr c i)) x = c_appr c x \/ (x = i /\ c_appr (setappr c i ((j, k) :: c_appr c i)) x = (j, k) :: c_appr c i)).
  { intros x. unfold setappr. cbn [c_appr]. destruct (Nat.eqb_spec x i) as [->|]; auto. }
  assert (HM : forall x p, In p (c_appr c x) -> In p (c_appr (setappr c i ((j, k) :: c_appr c i)) x)).
  { intros x p Hp. destruct (HA x) as [->|[-> ->]]; [exact Hp|right; exact Hp]. }
  assert (HB : forall x p, In p (c_appr (setappr c i ((j, k) :: c_appr c i)) x) -> In p (c_appr c x) \/ (x = i /\ p = (j, k))).
  { intros x p. destruct (HA x) as [->|[-> ->]]; [auto|]. intros [<-|Hp]; auto. }
  constructor; try apply H.
  - intros a b k0 Hin. destruct (k_resp_msg _ H a b k0 Hin) as [E|E]; [auto|right; apply HM, E].
  - intros a x Ha Hx. apply HM. apply (k_resp _ H); assumption.
  - intros a k0 x Hin. apply HB in Hin as [Hin|[-> E]]; [eapply (k_appr _ H); eauto|]. injection E as -> ->. auto.
  - intros a k0 x Hin Hca Hs Hk. apply HB in Hin as [Hin|[-> E]]; [eapply (k_view _ H); eauto|]. injection E as -> ->.
    destruct (C3 Hk Hca Hs) as (A & B & D). auto.
  - intros a k0 b k' x Ha Hb Ca Sa Ka Cb Sb Kb. apply HB in Ha as [Ha|[-> E]].
    + apply HB in Hb as [Hb|[-> E]]; [eapply (k_one _ H) with (a := a) (b := b); eauto|]. injection E as -> ->. eapply C4; eauto.
    + injection E as -> ->. apply HB in Hb as [Hb|[_ E]]; [symmetry; eapply C4; eauto|]. injection E as -> ->. reflexivity.
  - intros a Ha Hin. destruct (k_lead _ H a Ha Hin) as [E|(Q & Q1 & Q2 & Q3 & Q4)]; [auto|right]. exists Q. repeat split; auto.
    + apply Q3; assumption.
    + apply HM. apply Q3; assumption.
Qed.

(** Entering a state. *)
Definition current (c : cluster) (x a k : nat) : Prop := In (a, k) (c_appr c x) /\ claiming (st c a) = true /\ stint c a = k /\ 1 <= k.
Definition enter_ok (c : cluster) (i : nat) (new : nstate) : Prop :=
  match new with
  | STANDINGUP => full i = true /\ (forall j, v_resp (vw c i j) <> RApprove) /\ (forall a k, ~ current c i a k)
  | LEADING => peers i = [] \/
      (st c i = STANDINGUP /\ exists Q, NoDup Q /\ incl Q (peers i) /\ (forall x, In x Q -> full x = true /\ In (i, stint c i) (c_appr c x)) /\
         count full (peers i) <= 2 * List.length Q)
  | STANDINGDOWN => st c i = LEADING
  | _ => True
  end.
Lemma no_peers_no_appr c i x k : Core c -> peers i = [] -> i < n -> In (i, k) (c_appr c x) -> False.
Proof.
  intros H E Hi Hin. destruct (k_appr _ H _ _ _ Hin) as (A & B & _). apply peers_in in A as [_ A].
  assert (X : In x (peers i)) by (apply peers_in; auto). rewrite E in X. contradiction.
Qed.
Lemma no_peers_no_appr' c i x k : Core c -> peers i = [] -> In (x, k) (c_appr c i) -> False.
Proof.
  intros H E Hin. destruct (k_appr _ H _ _ _ Hin) as (A & B & _). rewrite E in A. contradiction.
Qed.
Lemma enter_core c i new : Core c -> i < n -> enter_ok c i new ->
  let x := c_node c i in
  Core (setnode c i (mkN new (S (n_scc x)) (n_prio x) (n_conf x) (n_lead x) (n_sync x) (n_shut x) (n_seen x) (n_waited x) (n_commits x)
                         (match new with STANDINGUP => S (n_scc x) | _ => n_stint x end) (n_view x))).
Proof.
  intros H Hi Hok x. set (c' := setnode _ _ _).
  assert (NS : forall a, a <> i -> st c' a = st c a /\ scc c' a = scc c a /\ stint c' a = stint c a).
  { intros a Ha. unfold c', setnode. cbn [c_node]. apply Nat.eqb_neq in Ha. rewrite Ha. auto. }
  assert (NI : st c' i = new /\ scc c' i = S (scc c i) /\ stint c' i = match new with STANDINGUP => S (scc c i) | _ => stint c i end).
  { unfold c', setnode. cbn [c_node]. rewrite Nat.eqb_refl. cbn. auto. }
  destruct NI as (NI1 & NI2 & NI3).
  assert (NP : forall a, n_prio (c_node c' a) = n_prio (c_node c a)).
  { intros a. unfold c', setnode. cbn [c_node]. destruct (Nat.eqb_spec a i) as [->|]; reflexivity. }
  assert (NV : forall a b, vw c' a b = vw c a b).
  { intros a b. unfold c', setnode. cbn [c_node]. destruct (Nat.eqb_spec a i) as [->|]; reflexivity. }
  assert (NK : forall a, scc c a <= scc c' a).
  { intros a. destruct (Nat.eq_dec a i) as [->|Ha]; [rewrite NI2; lia|]. destruct (NS a Ha) as (_ & -> & _). lia. }
  (* a claim that is current afterwards was current before, unless it is the new one *)
  assert (CL : forall a, a < n -> peers a <> [] -> claiming (st c' a) = true -> (claiming (st c a) = true /\ stint c' a = stint c a) \/ (a = i /\ new = STANDINGUP)).
  { intros a Han Hp Hc. destruct (Nat.eq_dec a i) as [->|Ha].
    - rewrite NI1 in Hc. rewrite NI3. destruct new; try discriminate Hc; auto; left; cbn in Hok.
      + destruct Hok as [E|[E _]]; [contradiction|]. rewrite E. auto.
      + rewrite Hok. auto.
    - destruct (NS a Ha) as (E1 & _ & E2). rewrite E1 in Hc. rewrite E2. auto. }
  assert (CL' : forall a k x0, In (a, k) (c_appr c x0) -> claiming (st c' a) = true -> stint c' a = k -> 1 <= k ->
             claiming (st c a) = true /\ stint c a = k).
  { intros a k x0 Hin Hc Hs Hk. destruct (k_appr _ H _ _ _ Hin) as (A & B & C). apply peers_in in A as [A1 A2].
    assert (Hp : peers a <> []). { intros E. eapply no_peers_no_appr; eauto. }
    destruct (CL a A1 Hp Hc) as [[E1 E2]|[-> ->]]; [split; congruence|]. rewrite NI3 in Hs. lia. }
  constructor.
  - intros a. destruct (Nat.eq_dec a i) as [->|Ha].
    + rewrite NI2, NI3. pose proof (k_scc _ H i). destruct new; lia.
    + destruct (NS a Ha) as (_ & -> & ->). apply H.
  - intros a Han. destruct (Nat.eq_dec a i) as [->|Ha].
    + rewrite NI1, NI3. pose proof (k_stint _ H i Hi) as K. destruct new; try discriminate; intros _; cbn in Hok.
      * right. split; [lia|apply Hok].
      * destruct Hok as [E|[E _]]; [auto|]. apply K. rewrite E. reflexivity.
      * apply K. rewrite Hok. reflexivity.
    + destruct (NS a Ha) as (-> & _ & ->). apply H. exact Han.
  - intros a. destruct (Nat.eq_dec a i) as [->|Ha].
    + rewrite NI1, NI2, NI3. intros ->. reflexivity.
    + destruct (NS a Ha) as (-> & -> & ->). apply H.
  - intros a. rewrite NP. apply H.
  - intros a b. rewrite NV. apply H.
  - apply H.
  - apply H.
  - intros a b k s Hin. specialize (NK a). pose proof (k_bound _ H _ _ _ _ Hin). lia.
  - intros a b k s Hin Hp Hc Hs. destruct (Nat.eq_dec a i) as [->|Ha].
    + destruct (CL i Hi Hp Hc) as [[E1 E2]|[_ E]]; [rewrite E2 in Hs; eapply (k_claim _ H); eauto|].
      rewrite NI3, E in Hs. pose proof (k_bound _ H _ _ _ _ Hin). lia.
    + destruct (NS a Ha) as (E1 & _ & E2). rewrite E1 in Hc. rewrite E2 in Hs. eapply (k_claim _ H); eauto.
  - apply H.
  - intros a y. rewrite NV. destruct (Nat.eq_dec a i) as [->|Ha].
    + rewrite NI1. intros -> E. destruct Hok as (_ & N & _). exfalso. apply (N y E).
    + destruct (NS a Ha) as (-> & -> & _). apply H.
  - intros a k y Hin. destruct (k_appr _ H _ _ _ Hin) as (A & B & C). specialize (NK a). repeat split; try assumption. lia.
  - intros a k y Hin Hc Hs Hk. destruct (CL' _ _ _ Hin Hc Hs Hk) as (E1 & E2). destruct (k_view _ H _ _ _ Hin E1 E2 Hk) as (A & B & C & D).
    rewrite !NV. repeat split; try assumption. destruct (Nat.eq_dec y i) as [->|Hy]; [|destruct (NS y Hy) as (-> & _); exact D].
    rewrite NI1. destruct new; try reflexivity; exfalso; cbn in Hok.
    + destruct Hok as (_ & _ & N). apply (N a k). split; [exact Hin|auto].
    + destruct Hok as [E|[E _]]; [eapply no_peers_no_appr'; eauto|]. rewrite E in D. discriminate.
    + rewrite Hok in D. discriminate.
  - intros a k b k' y Ha Hb Ca Sa Ka Cb Sb Kb. destruct (CL' _ _ _ Ha Ca Sa Ka) as (E1 & E2). destruct (CL' _ _ _ Hb Cb Sb Kb) as (E3 & E4).
    eapply (k_one _ H) with (a := a) (b := b); eauto.
  - intros a Han. destruct (Nat.eq_dec a i) as [->|Ha].
    + rewrite NI1, NI3. intros Hc. destruct new; try discriminate Hc; cbn in Hok.
      * destruct Hok as [E|[_ E]]; auto.
      * apply (k_lead _ H); [exact Hi|]. rewrite Hok. reflexivity.
    + destruct (NS a Ha) as (-> & _ & ->). apply (k_lead _ H). exact Han.
Qed.
Lemma enter_inv c i new : Inv c -> i < n -> (c_lost c = false -> c_cross c = false -> enter_ok c i new) -> Inv (enter n c i new).
Proof.
  intros H Hi Hok. unfold enter. apply broadcast_inv; [|exact I|].
  - intros H1 H2. apply enter_core; auto.
  - cbn. rewrite Nat.eqb_refl. cbn. auto.
Qed.

Definition plain (s : nstate) : bool := negb (claiming s).
Lemma ess_sym c c' : ess c c' -> ess c' c.
Proof.
  intros [N V L A [F1 F2]]. constructor; intros; auto.
  - specialize (N i). intuition.
  - specialize (V i j). intuition.
Qed.
Lemma ess_enter_ok c c' i new : ess c c' -> enter_ok c i new -> enter_ok c' i new.
Proof.
  intros E. assert (T := es_node _ _ E). assert (V := es_view _ _ E). assert (A := es_appr _ _ E).
  assert (Ti : st c' i = st c i /\ stint c' i = stint c i) by (specialize (T i); intuition). destruct Ti as [T1 T2].
  destruct new; cbn; auto.
  - intros (B & C & D). repeat split; [exact B| |].
    + intros j. destruct (V i j) as (_ & _ & _ & _ & ->). apply C.
    + intros a k (F1 & F2 & F3 & F4). apply (D a k). destruct (T a) as (T3 & _ & T4 & _). rewrite T3 in F2. rewrite T4 in F3. rewrite A in F1. split; auto.
  - intros [B|(B & Q & Q1 & Q2 & Q3 & Q4)]; [auto|right]. rewrite T1, T2. split; [exact B|]. exists Q. repeat split; auto.
    + apply Q3; assumption.
    + rewrite A. apply Q3; assumption.
  - rewrite T1. auto.
Qed.
Lemma change_state_inv c i new : Inv c -> i < n -> (c_lost c = false -> c_cross c = false -> enter_ok c i new) -> Inv (change_state n c i new).
Proof.
  intros H Hi Hok. unfold change_state. destruct (nstate_eqb new (st c i)); [exact H|].
  set (c1 := match st c i with FOLLOWING => set_lead c i None | _ => c end).
  assert (E1 : ess c c1) by (unfold c1; destruct (st c i); first [apply ess_refl|apply ess_set_lead]).
  set (c2 := if in_charge (st c i) && negb (in_charge new) then clear_subs (set_commits c1 i false) i else c1).
  assert (E2 : ess c c2).
  { eapply ess_trans; [exact E1|]. unfold c2. destruct (_ && _); [|apply ess_refl]. eapply ess_trans; [apply ess_set_commits|apply ess_clear_subs]. }
  set (c3 := if before_subscribing new then set_lead c2 i None else c2).
  assert (E3 : ess c c3). { eapply ess_trans; [exact E2|]. unfold c3. destruct (before_subscribing new); [apply ess_set_lead|apply ess_refl]. }
  set (c4 := match new with SEARCHING => c3 | _ => set_commits c3 i true end).
  assert (E4 : ess c c4). { eapply ess_trans; [exact E3|]. unfold c4. destruct new; first [apply ess_refl|apply ess_set_commits]. }
  clearbody c4. clear E1 E2 E3 c1 c2 c3.
  assert (H4 : Inv c4) by (eapply ess_inv; eauto).
  assert (Hok4 : c_lost c4 = false -> c_cross c4 = false -> enter_ok c4 i new).
  { destruct (es_flags _ _ E4) as [-> ->]. intros F1 F2. eapply ess_enter_ok; eauto. }
  destruct new; try (apply enter_inv; assumption).
  apply enter_inv; [|assumption|intros; exact I].
  destruct (n_waited (c_node c4 i)); [exact H4|].
  assert (H5 : Inv (set_boot c4 i (n_seen (c_node c4 i)) true)) by (eapply ess_inv; [apply ess_set_boot|exact H4]).
  destruct (n_seen (c_node c4 i)); [|exact H5]. apply reconnect_all_inv, set_prio_inv, H5.
Qed.
Lemma change_plain_inv c i new : claiming new = false -> Inv c -> i < n -> Inv (change_state n c i new).
Proof. intros Hc H Hi. apply change_state_inv; [exact H|exact Hi|]. destruct new; try discriminate Hc; intros; exact I. Qed.

Ltac ess1 := first [apply ess_set_conf|apply ess_set_lead|apply ess_set_sync|apply ess_set_shut|apply ess_set_boot|apply ess_set_commits|apply ess_clear_subs|apply ess_setsock|apply ess_setdead|apply ess_shutdown_socket].
Ltac inv1 := first
  [ assumption
  | apply reconnect_peer_inv | apply reconnect_all_inv | apply throw_inv | apply set_prio_inv | apply clear_resp_inv | apply close_inv
  | eapply change_plain_inv; [reflexivity| |assumption]
  | eapply ess_inv; [ess1|]
  | apply send_inv; [|exact I] ].

Lemma shutdown_all_inv c i l : Inv c -> Inv (fold_left (fun c j => shutdown_socket c i j) l c).
Proof. revert c. induction l as [|j l IH]; intros c H; cbn [fold_left]; [exact H|]. apply IH. eapply ess_inv; [apply ess_shutdown_socket|exact H]. Qed.

Lemma set_prio_st c i p a : st (set_prio c i p) a = st c a.
Proof. apply (kp_node _ _ (keeps_set_prio c i p)). Qed.

Lemma fold_last (f : nat -> bool) l m : fold_left (fun m j => if f j then Some j else m) l m = None -> forall j, In j l -> f j = false.
Proof.
  revert m. induction l as [|x l IH]; intros m H j Hj; [contradiction|]. cbn [fold_left] in H. destruct Hj as [<-|Hj].
  - destruct (f x) eqn:E; [|reflexivity]. exfalso. clear IH. revert H. generalize x at 1. induction l as [|y l IH]; intros z H; cbn [fold_left] in H; [discriminate|].
    destruct (f y); eapply IH; exact H.
  - eapply IH; eauto.
Qed.
Lemma count_ext f g l : (forall x, In x l -> f x = g x) -> count f l = count g l.
Proof.
  unfold count. intros H. f_equal. induction l as [|x l IH]; [reflexivity|]. cbn [filter]. rewrite (H x) by (left; reflexivity).
  rewrite IH by (intros; apply H; right; assumption). reflexivity.
Qed.

Lemma update_inv c i o : Inv c -> i < n -> Inv (update n c i o).
Proof.
  intros H Hi. unfold update. destruct (st c i) eqn:Est.
  - (* SEARCHING *)
    destruct (n_shut (c_node c i)); [exact H|]. destruct (peers i) as [|p0 pl] eqn:Ep.
    + apply change_state_inv; [repeat inv1|assumption|]. intros. left. exact Ep.
    + destruct (Nat.ltb _ _); [exact H|]. destruct (negb (o_usable o)); [exact H|].
      destruct (negb (o_behind o)); [repeat inv1|]. destruct (o_sync o); repeat inv1.
  - (* SYNCHRONIZING *)
    destruct (_ || _); [|exact H]. destruct (n_sync (c_node c i)); repeat inv1.
  - (* WAITING *)
    destruct (n_shut (c_node c i)); [repeat inv1|]. destruct (highest n c i) as [hp|]; [|repeat inv1].
    match goal with |- context [match ?sub with Some l => change_state _ _ _ _ | None => _ end] => destruct sub as [l|] end; [repeat inv1|].
    destruct (o_behind o); [repeat inv1|]. destruct (_ && _ && _ && _) eqn:Ec; [|exact H].
    apply Bool.andb_true_iff in Ec as [Ec _]. apply Bool.andb_true_iff in Ec as [Ec Epr]. apply Bool.andb_true_iff in Ec as [Ecl _].
    apply change_state_inv; [repeat inv1|assumption|]. intros F1 F2. specialize (H F1 F2).
    repeat split.
    + pose proof (k_prio _ H i Hi) as K. apply Z.ltb_lt in Epr. destruct (full i); [reflexivity|]. apply Z.eqb_eq in K. lia.
    + intros j. unfold clear_resp, setnode. cbn [c_node]. rewrite Nat.eqb_refl. cbn. discriminate.
    + intros a k (A & B & C & D).
      assert (N : forall a, st (clear_resp c i) a = st c a /\ stint (clear_resp c i) a = stint c a).
      { intros b. unfold clear_resp, setnode. cbn [c_node]. destruct (Nat.eqb_spec b i) as [->|]; auto. }
      destruct (N a) as [N1 N2]. rewrite N1 in B. rewrite N2 in C. cbn in A.
      destruct (k_view _ H _ _ _ A B C D) as (V1 & V2 & _). destruct (k_appr _ H _ _ _ A) as (P1 & _ & _).
      destruct (current_leader n c i) eqn:El; [discriminate|]. unfold current_leader in El.
      pose proof (fold_last _ _ _ El a P1) as X. cbn beta in X. unfold full_logged in X. rewrite V1, V2 in X.
      apply peers_in in P1 as [P1 P2]. rewrite (k_perma _ H i a Hi P1) in X.
      destruct (k_stint _ H a P1 B) as [E|[_ E]]; [|rewrite E in X; discriminate].
      assert (Y : In i (peers a)) by (apply peers_in; auto). rewrite E in Y. contradiction.
  - (* STANDINGUP *)
    destruct (n_shut (c_node c i)); [repeat inv1|]. destruct (any_deny n c i); [repeat inv1|].
    destruct (_ && _) eqn:Ec; [|destruct (o_timeout o); repeat inv1].
    apply Bool.andb_true_iff in Ec as [_ Ec]. apply Nat.leb_le in Ec.
    apply change_state_inv; [exact H|exact Hi|]. intros F1 F2. specialize (H F1 F2). right. split; [exact Est|].
    exists (filter (fun j => full_logged c i j && match v_resp (vw c i j) with RApprove => true | _ => false end) (peers i)). repeat split.
    + apply NoDup_filter, peers_nodup.
    + intros j Hj. apply filter_In in Hj. apply Hj.
    + apply filter_In in H0 as [P1 P2]. apply Bool.andb_true_iff in P2 as [P2 P3]. unfold full_logged in P2.
      apply peers_in in P1 as [P1 _]. rewrite (k_perma _ H i x Hi P1) in P2. destruct (full x); [reflexivity|discriminate].
    + apply filter_In in H0 as [P1 P2]. apply Bool.andb_true_iff in P2 as [P2 P3]. rewrite (k_up _ H i Est). apply (k_resp _ H); [exact Est|].
      destruct (v_resp (vw c i x)); [discriminate|reflexivity|discriminate].
    + replace (count full (peers i)) with (num_full n c i); [exact Ec|]. apply count_ext. intros j Hj. apply peers_in in Hj as [Hj _].
      unfold is_full. rewrite (k_perma _ H i j Hi Hj). apply Bool.negb_involutive.
  - (* LEADING *)
    destruct (_ || _ || _ || _); [|exact H].
    set (c1 := if negb (Z.eqb (n_prio (c_node c i)) 1) && n_shut (c_node c i) then set_prio c i 1 else c).
    assert (H1 : Inv c1) by (unfold c1; destruct (_ && _); repeat inv1).
    assert (E1 : st c1 i = LEADING) by (unfold c1; destruct (_ && _); [rewrite set_prio_st|]; exact Est).
    assert (H2 : Inv (change_state n c1 i STANDINGDOWN)) by (apply change_state_inv; [exact H1|exact Hi|intros; exact E1]).
    destruct (n_shut (c_node c i)); eapply change_plain_inv; try reflexivity; try exact Hi; [apply shutdown_all_inv|]; exact H2.
  - (* STANDINGDOWN *)
    destruct (n_shut (c_node c i)); eapply change_plain_inv; try reflexivity; try exact Hi; [apply shutdown_all_inv|]; exact H.
  - (* SUBSCRIBING *)
    destruct (n_shut (c_node c i)); [repeat inv1|]. destruct (o_timeout o); [|exact H]. destruct (n_lead (c_node c i)); repeat inv1.
  - (* FOLLOWING *)
    destruct (_ && _); [repeat inv1|]. destruct (n_lead (c_node c i)) as [l|]; [|exact H]. destruct (in_charge _); repeat inv1.
Qed.

(** Answering a standup: [k] is the count parroted back. *)
Lemma standup_inv c i j k : Inv c -> i < n -> In j (peers i) ->
  (c_lost c = false -> c_cross c = false -> k <= scc c j /\
     (1 <= k -> claiming (st c j) = true -> stint c j = k ->
        claiming (v_state (vw c i j)) = true /\ v_logged (vw c i j) = true /\ (forall p, In p (smsgs (c_link c j i)) -> claiming (snd p) = true))) ->
  Inv (send_standup_response n c i j k).
Proof.
  intros H Hi Hj Hk. unfold send_standup_response. destruct (v_perma (vw c i j)); [repeat inv1|].
  destruct (claiming (st c i)) eqn:Ecl.
  - destruct (Z.ltb _ _).
    + apply send_inv; [|exact I]. destruct (st c i) eqn:Est; try exact H; [repeat inv1|].
      apply change_state_inv; [exact H|exact Hi|]. intros. exact Est.
    + destruct (majority_subscribed n c i); repeat inv1.
  - destruct (existsb _ (peers i)) eqn:Eex; [repeat inv1|].
    apply send_inv.
    + apply setappr_inv; [exact H|exact Hi|exact Hj|]. intros F1 F2. destruct (Hk F1 F2) as [K1 K2]. specialize (H F1 F2). repeat split; auto; try (apply K2; assumption).
      intros b k' A B C D. destruct (k_view _ H _ _ _ A B C D) as (V1 & _). destruct (k_appr _ H _ _ _ A) as (P1 & _).
      destruct (Nat.eq_dec b j) as [E|E]; [exact E|]. exfalso.
      assert (X : existsb (fun k0 => negb (Nat.eqb k0 j) && claiming (v_state (vw c i k0))) (peers i) = true); [|congruence].
      apply existsb_exists. exists b. split; [exact P1|]. apply Nat.eqb_neq in E. rewrite E, V1. reflexivity.
    + cbn. right. rewrite Nat.eqb_refl. left. reflexivity.
Qed.

(** Facts about the next message of a link. *)
Lemma head_facts c j i m q k s p : Core c -> j < n -> peers j <> [] -> c_link c j i = m :: q -> smsg m = [(k, s)] -> mprio m = Some p ->
  k <= scc c j /\ (claiming (st c j) = true -> stint c j <= k -> claiming s = true) /\ (forall y, In y (smsgs q) -> k <= fst y) /\
  Z.eqb p 0 = negb (full j) /\
  (forall k', In (j, k') (c_appr c i) -> claiming (st c j) = true -> stint c j = k' -> 1 <= k' -> claiming s = true).
Proof.
  intros H Hj Hp E Em Ep.
  assert (Hin : In (k, s) (smsgs (c_link c j i))). { rewrite E. cbn. rewrite Em. left. reflexivity. }
  repeat split.
  - eapply (k_bound _ H); eauto.
  - intros A B. eapply (k_claim _ H); eauto.
  - intros y Hy. pose proof (k_sorted _ H j i) as S. rewrite E in S. cbn in S. rewrite Em in S. cbn in S. inversion S as [|? ? _ F]; subst.
    rewrite Forall_forall in F. apply F. apply in_map, Hy.
  - eapply (k_mprio _ H); eauto. rewrite E. left. reflexivity.
  - intros k' A B C D. destruct (k_view _ H _ _ _ A B C D) as (_ & _ & V & _). apply (V (k, s) Hin).
Qed.

Lemma on_message_inv c i j m q ok sr : Inv c -> i < n -> j < n -> i <> j -> c_link c j i = m :: q ->
  Inv (on_message n ver (setlink c j i q) i j m ok sr).
Proof.
  intros H Hi Hj Hij El.
  assert (H0 : Inv (setlink c j i q)) by (eapply dequeue_inv; eauto).
  assert (Pj : In j (peers i)) by (apply peers_in; auto).
  assert (Pi : peers j <> []). { intros E. assert (X : In i (peers j)) by (apply peers_in; auto). rewrite E in X. contradiction. }
  unfold on_message.
  assert (EL : c_link (setlink c j i q) j i = q) by (rewrite link_setlink, !Nat.eqb_refl; reflexivity).
  assert (D : c_lost (setlink c j i q) = false -> c_cross (setlink c j i q) = false -> Core c) by exact H.
  assert (DN : forall a, c_node (setlink c j i q) a = c_node c a) by reflexivity.
  assert (DA : forall a, c_appr (setlink c j i q) a = c_appr c a) by reflexivity.
  assert (DF : c_lost (setlink c j i q) = c_lost c /\ c_cross (setlink c j i q) = c_cross c) by auto.
  set (d := setlink c j i q) in *. clearbody d.
  destruct m as [k s p|k s p|k r| | | | |].
  - (* LOGIN *)
    destruct (v_logged (vw d i j)) eqn:Elg; [repeat inv1|]. destruct (_ && _); [repeat inv1|].
    assert (V1 : v_resp (vw d i j) = RApprove -> c_lost d = false -> c_cross d = false -> st d i = STANDINGUP -> In (i, scc d i) (c_appr d j)).
    { intros A B C E. apply (k_resp _ (H0 B C)); assumption. }
    assert (NA : c_lost d = false -> c_cross d = false -> forall k0, In (j, k0) (c_appr d i) -> claiming (st d j) = true -> stint d j = k0 -> 1 <= k0 -> False).
    { intros A B k0 F1 F2 F3 F4. destruct (k_view _ (H0 A B) _ _ _ F1 F2 F3 F4) as (_ & X & _). congruence. }
    set (d1 := setview d i j (mkV s p (Z.eqb p 0) false (v_resp (vw d i j)) (v_subs (vw d i j)))).
    assert (K1 : keeps d d1) by apply keeps_setview.
    assert (H1 : Inv d1).
    { apply setview_inv; [exact H0|]. intros F1 F2. pose proof (D F1 F2) as C0.
      destruct (head_facts c j i _ q k s p C0 Hj Pi El eq_refl eq_refl) as (_ & _ & _ & Y & _). repeat split.
      - intros _ _. exact Y.
      - intros A B. apply V1; assumption.
      - exfalso. eapply NA; eauto.
      - exfalso. eapply NA; eauto. }
    match goal with |- context [set_boot d1 i true ?w] => set (d2 := if negb (n_seen (c_node d i)) && Nat.eqb (ver j) (ver i) then if w then reconnect_all n (set_prio (set_boot d1 i true w) i (n_conf (c_node d i))) i else set_boot d1 i true w else d1) end.
    assert (K2 : keeps d1 d2).
    { unfold d2. destruct (_ && _); [|apply keeps_refl]. destruct (n_waited (c_node d i)); [|apply ess_keeps, ess_set_boot].
      eapply keeps_trans; [apply ess_keeps, ess_set_boot|]. eapply keeps_trans; [apply keeps_set_prio|apply keeps_reconnect_all]. }
    assert (H2 : Inv d2) by (unfold d2; destruct (_ && _); [|exact H1]; destruct (n_waited (c_node d i)); repeat inv1).
    assert (K : keeps d d2) by (eapply keeps_trans; eauto). clearbody d2. clear d1 K1 H1 K2.
    assert (NA2 : c_lost d2 = false -> c_cross d2 = false -> forall k0, In (j, k0) (c_appr d2 i) -> claiming (st d2 j) = true -> stint d2 j = k0 -> 1 <= k0 -> False).
    { intros A B k0. destruct (kp_node _ _ K j) as (-> & -> & _). rewrite (kp_appr _ _ K i). apply NA; [apply (kp_lost _ _ K A)|apply (kp_cross _ _ K B)]. }
    set (w := vw d2 i j).
    assert (H3 : Inv (setview d2 i j (mkV (v_state w) (v_prio w) (v_perma w) true (v_resp w) (v_subs w)))).
    { apply setview_inv; [exact H2|]. intros F1 F2. pose proof (H2 F1 F2) as C2. repeat split.
      - intros _ _. apply (k_perma _ C2); assumption.
      - intros A B. apply (k_resp _ C2); assumption.
      - exfalso. eapply NA2; eauto.
    }
    destruct s; try exact H3. apply standup_inv; [exact H3|exact Hi|exact Pj|]. intros. split; [lia|lia].
  - (* STATE *)
    destruct (v_logged (vw d i j)) eqn:Elg; cbn [negb]; [|repeat inv1].
    set (v1 := mkV s p (Z.eqb p 0) true (v_resp (vw d i j)) (v_subs (vw d i j))).
    assert (VO : forall sb, c_lost d = false -> c_cross d = false -> view_ok d i j (mkV s p (Z.eqb p 0) true (v_resp (vw d i j)) sb)).
    { intros sb F1 F2. pose proof (D F1 F2) as C0. destruct (head_facts c j i _ q k s p C0 Hj Pi El eq_refl eq_refl) as (_ & _ & _ & Y & Y2). repeat split.
      - intros _ _. exact Y.
      - intros A B. apply (k_resp _ (H0 F1 F2)); assumption.
      - cbn. rewrite DA, DN in *. eapply Y2; eauto. }
    assert (H1 : Inv (setview d i j v1)) by (apply setview_inv; [exact H0|apply VO]).
    destruct (nstate_eqb (v_state (vw d i j)) s); [exact H1|].
    destruct s; try exact H1.
    + apply setview_inv; [exact H1|]. intros F1 F2. pose proof (H1 F1 F2) as C1.
      assert (X := VO false F1 F2). destruct X as (X1 & X2 & X3).
      pose proof (node_setview d i j v1 i) as N1. pose proof (node_setview d i j v1 j) as N2. cbn zeta in N1, N2.
      destruct N1 as (N1a & N1b & _). destruct N2 as (N2a & _ & N2c & _).
      split; [exact X1|]. split.
      * rewrite N1a, N1b. exact X2.
      * intros k0. rewrite N2a, N2c. apply X3.
    + apply standup_inv; [exact H1|exact Hi|exact Pj|]. intros F1 F2. pose proof (D F1 F2) as C0.
      destruct (head_facts c j i _ q k STANDINGUP p C0 Hj Pi El eq_refl eq_refl) as (Y1 & Y2 & Y3 & _ & _).
      pose proof (node_setview d i j v1 j) as N2. cbn zeta in N2. destruct N2 as (N2a & N2b & N2c & _). rewrite N2a, N2b, N2c, !DN. split; [exact Y1|].
      intros A B C. rewrite view_setview, !Nat.eqb_refl. cbn. repeat split. intros y Hy.
      change (c_link (setview d i j v1) j i) with (c_link d j i) in Hy. rewrite EL in Hy. pose proof (Y3 y Hy) as Z1. destruct y as [ky sy]. cbn in *.
      eapply (k_claim _ C0) with (i := j) (j := i) (k := ky); eauto; [|lia]. rewrite El. cbn. right. exact Hy.
  - (* STANDUP_RESPONSE *)
    destruct (v_logged (vw d i j)) eqn:Elg; cbn [negb]; [|repeat inv1].
    destruct (st d i) eqn:Est; try exact H0. destruct (Nat.eqb_spec k (scc d i)) as [Ek|]; cbn [negb]; [|exact H0].
    destruct r as [b|]; [|repeat inv1]. apply setview_inv; [exact H0|]. intros F1 F2. pose proof (H0 F1 F2) as C0. repeat split.
    + intros _ _. apply (k_perma _ C0); assumption.
    + cbn. intros E _. destruct b; [|discriminate]. pose proof (D F1 F2) as C1.
      assert (X : In (MResp k (Some true)) (c_link c j i)) by (rewrite El; left; reflexivity).
      destruct (k_resp_msg _ C1 _ _ _ X) as [E0|E0]; [|rewrite DA, <- Ek; exact E0]. pose proof (k_scc _ C0 i). lia.
    + eapply (k_view _ C0); eauto.
  - destruct (v_logged (vw d i j)); cbn [negb]; repeat inv1.
  - (* SYNCHRONIZE_RESPONSE *)
    destruct (v_logged (vw d i j)); cbn [negb]; [|repeat inv1].
    destruct (st d i); try (repeat inv1; fail). destruct (n_sync (c_node d i)) as [p|]; [|repeat inv1].
    destruct (negb _); [repeat inv1|]. destruct sr as [| |[r|]|]; repeat inv1.
  - (* SUBSCRIBE *)
    destruct (v_logged (vw d i j)) eqn:Elg; cbn [negb]; [|repeat inv1].
    destruct (st d i); try (repeat inv1; fail).
    apply ess_inv with (c := send d i j MSubApproved); [|apply send_inv; [exact H0|exact I]]. apply ess_setsubs. cbn zeta. destruct (send_node d i j MSubApproved) as (-> & _). rewrite Elg. reflexivity.
  - (* SUBSCRIPTION_APPROVED *)
    destruct (v_logged (vw d i j)); cbn [negb]; [|repeat inv1].
    destruct (st d i); try (repeat inv1; fail). destruct (n_lead (c_node d i)) as [p|]; [|repeat inv1].
    destruct (negb _); [repeat inv1|]. destruct ok; repeat inv1.
  - destruct (v_logged (vw d i j)); cbn [negb]; repeat inv1.
Qed.

Lemma on_disconnect_inv c i j : Inv c -> i < n -> Inv (on_disconnect n c i j).
Proof.
  intros H Hi. unfold on_disconnect.
  match goal with |- context [match n_sync (c_node ?x i) with _ => _ end] => set (c1 := x) end.
  assert (H1 : Inv c1).
  { unfold c1. destruct (n_lead (c_node c i)); [|exact H]. destruct (Nat.eqb _ _); repeat inv1. }
  clearbody c1.
  match goal with |- context [claiming (n_st (c_node ?x i))] => set (c2 := x) end.
  assert (H2 : Inv c2).
  { unfold c2. destruct (n_sync (c_node c1 i)); [|exact H1]. destruct (Nat.eqb _ _); repeat inv1. }
  clearbody c2. destruct (_ && _); repeat inv1.
Qed.
Lemma on_connect_inv c i j : Inv c -> Inv (on_connect c i j).
Proof. intros H. unfold on_connect. apply send_inv; [repeat inv1|]. cbn. auto. Qed.

Lemma set_prio_self c i p : n_prio (c_node (set_prio c i p) i) = p.
Proof. unfold set_prio, flag_cross, setnode. cbn [c_node]. rewrite Nat.eqb_refl. reflexivity. Qed.
Lemma set_prio_scc c i p a : scc (set_prio c i p) a = scc c a.
Proof. apply (kp_node _ _ (keeps_set_prio c i p)). Qed.

Lemma announce_inv c i p : Inv c -> Inv (broadcast n (set_prio c i p) i (MState (scc c i) (st c i) p)).
Proof.
  intros H. apply broadcast_inv; [repeat inv1|exact I|]. cbn [sendable]. rewrite set_prio_st, set_prio_scc, set_prio_self. auto.
Qed.
Lemma set_priority_inv c i p : Inv c -> i < n -> Inv (set_priority n c i p).
Proof.
  intros H Hi. unfold set_priority. destruct (_ || _); [exact H|]. destruct (_ && _); [exact H|]. destruct (_ && _ && _); [exact H|].
  destruct (Z.eqb _ _); [exact H|].
  assert (H1 : Inv (set_conf c i p)) by repeat inv1. destruct (_ || _); [exact H1|].
  assert (N : scc (set_conf c i p) i = scc c i /\ st (set_conf c i p) i = st c i).
  { unfold set_conf, setnode. cbn [c_node]. rewrite Nat.eqb_refl. auto. }
  destruct N as [N1 N2]. rewrite <- N1. pose proof (announce_inv (set_conf c i p) i p H1) as H2. rewrite N2 in H2.
  set (c2 := broadcast _ _ _ _) in *.
  assert (N3 : st c2 i = st c i).
  { unfold c2. destruct (broadcast_node (set_prio (set_conf c i p) i p) i (MState (scc (set_conf c i p) i) (st c i) p)) as (-> & _). rewrite set_prio_st. exact N2. }
  destruct (st c i) eqn:Est; try exact H2.
  - destruct (existsb _ _); [|exact H2]. apply change_state_inv; [exact H2|exact Hi|]. intros. exact N3.
  - destruct (n_lead (c_node c i)); [|exact H2]. destruct (_ && _ && _); repeat inv1.
Qed.

Theorem inv_step c e c' : Inv c -> step n ver c e = Some c' -> Inv c'.
Proof.
  intros H. destruct e as [i j|i j|i j|i j ok sr|i o|i p|i|i]; cbn [step].
  - destruct (_ && _ && _); intros E; [|discriminate]. injection E as <-. apply on_connect_inv, H.
  - unfold valid. destruct (Nat.ltb_spec i n) as [Hi|]; cbn [andb]; [|discriminate]. destruct (_ && _ && _); intros E; [|discriminate]. injection E as <-.
    apply on_disconnect_inv; [|exact Hi]. apply close_inv, H.
  - destruct (valid n i j); intros E; [|discriminate]. injection E as <-. apply throw_inv, H.
  - unfold valid. destruct (Nat.ltb_spec i n) as [Hi|]; cbn [andb]; [|discriminate]. destruct (Nat.ltb_spec j n) as [Hj|]; cbn [andb]; [|discriminate].
    destruct (Nat.eqb_spec i j) as [|Hij]; cbn [negb andb]; [discriminate|]. destruct (has_socket c i j); [|discriminate].
    destruct (c_link c j i) as [|m q] eqn:El; intros E; [discriminate|]. injection E as <-. eapply on_message_inv; eauto.
  - destruct (Nat.ltb_spec i n) as [Hi|]; intros E; [|discriminate]. injection E as <-. apply update_inv; assumption.
  - destruct (Nat.ltb_spec i n) as [Hi|]; intros E; [|discriminate]. injection E as <-. apply set_priority_inv; assumption.
  - destruct (Nat.ltb_spec i n) as [Hi|]; intros E; [|discriminate]. injection E as <-. repeat inv1.
  - destruct (Nat.ltb_spec i n) as [Hi|]; intros E; [|discriminate]. injection E as <-. unfold set_shutdown_priority.
    destruct (st c i) eqn:Est; try (rewrite <- Est; apply announce_inv, H). repeat inv1.
Qed.
Theorem inv_run es : forall c c', Inv c -> run n ver c es = Some c' -> Inv c'.
Proof.
  induction es as [|e es IH]; intros c c' H; cbn [run]; intros E; [injection E as <-; exact H|].
  destruct (step n ver c e) as [c1|] eqn:E1; [|discriminate]. eapply IH; [|exact E]. eapply inv_step; eauto.
Qed.
Theorem inv_init p0 conf perma : (forall i, i < n -> Z.eqb (p0 i) 0 = negb (full i) /\ perma i = negb (full i)) -> Inv (init p0 conf perma).
Proof.
  intros H _ _. constructor; cbn; intros; try contradiction; try discriminate; auto.
  - apply H. assumption.
  - apply H. assumption.
  - constructor.
Qed.

Lemma count_peers z : z < n -> full z = true -> count full (peers z) + 1 = List.length (filter full (seq 0 n)).
Proof.
  intros Hz Fz. unfold count, Cluster_Model.peers.
  assert (G : forall l, NoDup l -> In z l -> List.length (filter full (filter (fun j => negb (Nat.eqb j z)) l)) + 1 = List.length (filter full l)).
  { assert (G0 : forall l, ~ In z l -> filter (fun j => negb (Nat.eqb j z)) l = l).
    { induction l as [|y l IH]; intros N; [reflexivity|]. cbn [filter]. destruct (Nat.eqb_spec y z) as [->|]; [exfalso; apply N; left; reflexivity|].
      cbn [negb]. rewrite IH; [reflexivity|]. intros X. apply N. right. exact X. }
    induction l as [|y l IH]; intros N I0; [contradiction|]. inversion N; subst. cbn [filter]. destruct (Nat.eqb_spec y z) as [->|Hyz]; cbn [negb].
    - rewrite G0 by assumption. rewrite Fz. cbn. lia.
    - destruct I0 as [I0|I0]; [contradiction|]. specialize (IH H2 I0). cbn [filter]. destruct (full y); cbn [List.length]; lia. }
  apply G; [apply seq_NoDup|apply in_seq; lia].
Qed.
(** Two quorums meet. *)
Lemma two_leaders c a b : Core c -> a < n -> b < n -> in_charge (st c a) = true -> in_charge (st c b) = true -> a = b.
Proof.
  intros H Ha Hb Ca Cb. destruct (Nat.eq_dec a b) as [E|E]; [exact E|exfalso].
  assert (Pab : In b (peers a)) by (apply peers_in; auto). assert (Pba : In a (peers b)) by (apply peers_in; auto).
  assert (Cla : claiming (st c a) = true) by (destruct (st c a); try discriminate Ca; reflexivity).
  assert (Clb : claiming (st c b) = true) by (destruct (st c b); try discriminate Cb; reflexivity).
  assert (Na : peers a <> []) by (intros X; rewrite X in Pab; contradiction). assert (Nb : peers b <> []) by (intros X; rewrite X in Pba; contradiction).
  destruct (k_stint _ H a Ha Cla) as [?|[Sa Fa]]; [contradiction|]. destruct (k_stint _ H b Hb Clb) as [?|[Sb Fb]]; [contradiction|].
  destruct (k_lead _ H a Ha Ca) as [?|(Qa & A1 & A2 & A3 & A4)]; [contradiction|]. destruct (k_lead _ H b Hb Cb) as [?|(Qb & B1 & B2 & B3 & B4)]; [contradiction|].
  (* neither leader approved anybody *)
  assert (Xa : ~ In a Qb). { intros X. destruct (B3 a X) as [_ Y]. destruct (k_view _ H _ _ _ Y Clb eq_refl Sb) as (_ & _ & _ & Z). congruence. }
  assert (Xb : ~ In b Qa). { intros X. destruct (A3 b X) as [_ Y]. destruct (k_view _ H _ _ _ Y Cla eq_refl Sa) as (_ & _ & _ & Z). congruence. }
  assert (Disj : forall x, In x Qa -> In x Qb -> False).
  { intros x X Y. apply E. destruct (A3 x X) as [_ X']. destruct (B3 x Y) as [_ Y']. eapply (k_one _ H a _ b _ x X' Y'); auto. }
  set (F := filter full (seq 0 n)).
  assert (HF : NoDup (a :: b :: Qa ++ Qb)).
  { constructor; [intros [X|X]; [auto|]|constructor].
    - apply in_app_iff in X as [X|X]; [|contradiction]. apply A2, peers_in in X. lia.
    - intros X. apply in_app_iff in X as [X|X]; [contradiction|]. apply B2, peers_in in X. lia.
    - clear - A1 B1 Disj. induction A1 as [|x l N _ IH]; cbn [app]; [exact B1|]. constructor.
      + intros X. apply in_app_iff in X as [X|X]; [contradiction|]. apply (Disj x); [left; reflexivity|exact X].
      + apply IH. intros y Y. apply Disj. right. exact Y. }
  assert (HI : incl (a :: b :: Qa ++ Qb) F).
  { intros x [<-|[<-|X]].
    - apply filter_In. split; [apply in_seq; lia|exact Fa].
    - apply filter_In. split; [apply in_seq; lia|exact Fb].
    - apply filter_In. apply in_app_iff in X as [X|X]; split.
      + apply A2, peers_in in X. apply in_seq. lia.
      + apply A3, X.
      + apply B2, peers_in in X. apply in_seq. lia.
      + apply B3, X. }
  pose proof (NoDup_incl_length HF HI) as L. cbn [List.length] in L. rewrite app_length in L.
  pose proof (count_peers a Ha Fa). pose proof (count_peers b Hb Fb). unfold F in L. lia.
Qed.
End P.
