From Verif Require Import Base Quiesce_Spec Quiesce_Model.

(** ** What holds in each state *)
Definition role (s : state) : option cpc := match qlock s with Some k => Some (pc s k) | None => None end.
Definition inv (s : state) : Prop :=
  (forall k, pc s k = InB \/ pc s k = InU <-> qlock s = Some k) /\
  (excl s = true -> readers s = []) /\
  match q s with
  | None => role s = None /\ flag s = false /\ clock s <> Some Quiesce /\ excl s = false
  | Some Starting | Some GotPool | Some NeedsCommit => role s = Some InB /\ flag s = false /\ locked s = false /\ clock s <> Some Quiesce /\ excl s = false
  | Some NeedsWrite => role s = Some InB /\ flag s = false /\ locked s = false /\ clock s = Some Quiesce /\ excl s = false
  | Some HasBoth => role s = Some InB /\ flag s = false /\ locked s = false /\ clock s = Some Quiesce /\ excl s = true
  | Some Holding => clock s = Some Quiesce /\ excl s = true /\
      (role s = None /\ flag s = false \/ role s = Some InB /\ flag s = false /\ locked s = true \/ role s = Some InU /\ flag s = true)
  | Some Unlocked1 => role s = Some InU /\ flag s = true /\ clock s = Some Quiesce /\ excl s = false
  | Some Unlocked2 => role s = Some InU /\ flag s = true /\ clock s <> Some Quiesce /\ excl s = false
  | Some Ended => clock s <> Some Quiesce /\ excl s = false /\ flag s = false /\ (role s = Some InU \/ role s = Some InB /\ locked s = false)
  end.
Lemma set_same f i c : set f i c i = c.
Proof. unfold set. rewrite Nat.eqb_refl. reflexivity. Qed.
Lemma set_other f i c k : k <> i -> set f i c k = f k.
Proof. intros N. unfold set. apply Nat.eqb_neq in N. rewrite N. reflexivity. Qed.
Lemma roles_ask (f : nat -> cpc) ql i c : (forall k, f k = InB \/ f k = InU <-> ql = Some k) -> f i <> InB -> f i <> InU -> c <> InB -> c <> InU ->
  (forall k, set f i c k = InB \/ set f i c k = InU <-> ql = Some k) /\ match ql with Some k => Some (set f i c k) | None => None end = match ql with Some k => Some (f k) | None => None end.
Proof.
  intros H A B C D. assert (X : ql <> Some i) by (intros E; apply H in E; tauto). split.
  - intros k. destruct (Nat.eq_dec k i) as [->|N].
    + rewrite set_same. split; [intros [E|E]; congruence|intros E; contradiction].
    + rewrite set_other by exact N. apply H.
  - destruct ql as [k|]; [|reflexivity]. rewrite set_other; [reflexivity|]. intros ->. apply X. reflexivity.
Qed.
Lemma roles_enter (f : nat -> cpc) i c : (forall k, f k = InB \/ f k = InU <-> None = Some k) -> c = InB \/ c = InU ->
  forall k, set f i c k = InB \/ set f i c k = InU <-> Some i = Some k.
Proof.
  intros H C k. destruct (Nat.eq_dec k i) as [->|N].
  - rewrite set_same. split; auto.
  - rewrite set_other by exact N. split; [intros E; apply H in E; discriminate|intros E; injection E as ->; contradiction].
Qed.
Lemma roles_leave (f : nat -> cpc) ql i : (forall k, f k = InB \/ f k = InU <-> ql = Some k) -> f i = InB \/ f i = InU ->
  ql = Some i /\ forall k, set f i Idle k = InB \/ set f i Idle k = InU <-> None = Some k.
Proof.
  intros H C. assert (Q : ql = Some i) by (apply H, C). split; [exact Q|]. intros k. destruct (Nat.eq_dec k i) as [->|N].
  - rewrite set_same. split; [intros [E|E]; discriminate|discriminate].
  - rewrite set_other by exact N. split; [|discriminate]. intros E. apply H in E. congruence.
Qed.

Ltac cases E := repeat (match type of E with context [match ?x with _ => _ end] => destruct x eqn:? end; try discriminate).
Lemma inv_step l s s' o : inv s -> step l s = Some (s', o) -> inv s'.
Proof.
  intros (H & X & Z) E. destruct s as [f ql qq fl lo cl ex rd po de].
  unfold role in Z. cbn [pc qlock q flag locked clock excl readers pool dead] in *. unfold step in E. destruct de; [discriminate|].
  destruct l as [i a|i|i|i| |j|j|j|j|j|p].
  - destruct (f i) eqn:Fi; try discriminate.
    destruct (roles_ask f ql i (match a with BlockWrites => WantB | UnblockWrites => WantU end) H) as [A B]; [congruence|congruence|destruct a; discriminate|destruct a; discriminate|].
    injection E as <- <-. unfold inv, role. cbn [pc qlock q flag locked clock excl readers pool dead]. rewrite B. auto.
  - destruct ql; [discriminate|]. destruct (f i) eqn:Fi; try discriminate; destruct qq as [qq|]; injection E as <- <-; unfold inv, role; cbn [pc qlock q flag locked clock excl readers pool dead].
    + destruct (roles_ask f None i Idle H) as [A B]; [congruence|congruence|discriminate|discriminate|]. auto.
    + split; [apply (roles_enter f i InB H); auto|]. split; [exact X|]. rewrite set_same. tauto.
    + split; [apply (roles_enter f i InU H); auto|]. split; [exact X|]. rewrite set_same. destruct qq; intuition congruence.
    + destruct (roles_ask f None i Idle H) as [A B]; [congruence|congruence|discriminate|discriminate|]. auto.
  - destruct (f i) eqn:Fi; try discriminate. destruct lo; [|discriminate]. destruct (roles_leave f ql i H ltac:(auto)) as [-> A].
    injection E as <- <-. unfold inv, role. cbn [pc qlock q flag locked clock excl readers pool dead]. rewrite Fi in Z. split; [exact A|]. split; [exact X|]. destruct qq as [[]|]; intuition congruence.
  - destruct (f i) eqn:Fi; try discriminate. destruct qq as [[]|]; try discriminate. destruct (roles_leave f ql i H ltac:(auto)) as [-> A].
    injection E as <- <-. unfold inv, role. cbn [pc qlock q flag locked clock excl readers pool dead]. rewrite Fi in Z. split; [exact A|]. split; [exact X|]. intuition congruence.
  - destruct qq as [[]|]; cases E; try discriminate; injection E as <- <-; unfold inv, role; cbn [pc qlock q flag locked clock excl readers pool dead]; (split; [exact H|]); (split; [solve [exact X|auto|discriminate]|]); try destruct po; intuition congruence.
  - destruct cl; [discriminate|]. cases E. injection E as <- <-. unfold inv, role. cbn [pc qlock q flag locked clock excl readers pool dead]. split; [exact H|]. split; [exact X|]. destruct qq as [[]|]; intuition congruence.
  - cases E. injection E as <- <-. unfold inv, role. cbn [pc qlock q flag locked clock excl readers pool dead]. split; [exact H|]. split; [exact X|]. destruct qq as [[]|]; intuition congruence.
  - destruct ex; [discriminate|]. cbn [orb] in E. cases E. injection E as <- <-. unfold inv, role. cbn [pc qlock q flag locked clock excl readers pool dead]. split; [exact H|]. split; [discriminate|]. exact Z.
  - cases E. injection E as <- <-. unfold inv, role. cbn [pc qlock q flag locked clock excl readers pool dead]. split; [exact H|]. split; [|exact Z]. intros Ex. rewrite (X Ex). reflexivity.
  - cases E; injection E as <- <-; unfold inv, role; cbn [pc qlock q flag locked clock excl readers pool dead]; auto.
  - injection E as <- <-. unfold inv, role. cbn [pc qlock q flag locked clock excl readers pool dead]. auto.
Qed.
Lemma inv_init p : inv (init p).
Proof. unfold inv, role, init. cbn. split; [intros k; split; [intros [E|E]; discriminate|discriminate]|]. split; [discriminate|]. repeat split; discriminate. Qed.
Lemma reach_inv p may s t : reach p may s t -> inv s.
Proof. induction 1; [apply inv_init|eapply inv_step; eassumption]. Qed.

(** The commands that wait for an answer are those of the control threads that are not idle. *)
Definition wants (a : asked) (c : cpc) : bool :=
  match a, c with BlockWrites, WantB | BlockWrites, InB | UnblockWrites, WantU | UnblockWrites, InU => true | _, _ => false end.
Lemma waits_step l s s' o t : (forall a k, waiting a k t = wants a (pc s k)) -> step l s = Some (s', o) -> forall a k, waiting a k (note o t) = wants a (pc s' k).
Proof.
  intros W E a k. destruct s as [f ql qq fl lo cl ex rd po de]. unfold step in E. cbn [pc] in *. destruct de; [discriminate|].
  destruct l as [i b|i|i|i| |j|j|j|j|j|p]; cases E; injection E as <- <-; cbn [note waiting pc]; try (apply W);
    (destruct (Nat.eq_dec k i) as [->|N]; [rewrite ?set_same, ?Nat.eqb_refl, ?W, ?Heqc; destruct a; try destruct b; try discriminate; reflexivity|
       rewrite ?(set_other _ i _ k N), ?(proj2 (Nat.eqb_neq i k) (not_eq_sym N)); apply W]).
Qed.
Lemma reach_waits p may s t : reach p may s t -> forall a k, waiting a k t = wants a (pc s k).
Proof. induction 1; [intros [] k; reflexivity|eapply waits_step; eassumption]. Qed.

(** ** While writes are blocked *)
Lemma holding_step l s s' o : inv s -> q s = Some Holding -> qlock s = None -> flag s = false -> step l s = Some (s', o) ->
  (q s' = Some Holding /\ qlock s' = None /\ flag s' = false /\ forall j, o <> Some (Changes j)) \/ (o = None /\ exists i, l = Enter i /\ pc s i = WantU).
Proof.
  intros (H & X & Z) Q L F E. destruct s as [f ql qq fl lo cl ex rd po de]. unfold role in Z. cbn [pc qlock q flag locked clock excl readers pool dead] in *. subst ql qq fl.
  destruct Z as (-> & -> & _). rewrite (X eq_refl) in *. unfold step in E. destruct de; [discriminate|].
  destruct l as [i b|i|i|i| |j|j|j|j|j|p]; try discriminate; cases E; try (injection E as <- <-; cbn [q qlock flag]); try (left; repeat split; try reflexivity; discriminate).
  - right. split; [reflexivity|]. exists i. auto.
Qed.
Definition moment (a : asked) (u t : list seen) : Prop := exists u2 u1 k, u = u2 ++ u1 /\ waiting a k (u1 ++ t) = true.
Lemma moment_cons a x u t : moment a u t -> moment a (x :: u) t.
Proof. intros (u2 & u1 & k & -> & W). exists (x :: u2), u1, k. split; [reflexivity|exact W]. Qed.
Lemma moment_now a u t k : waiting a k (u ++ t) = true -> moment a u t.
Proof. intros W. exists [], u, k. split; [reflexivity|exact W]. Qed.
Lemma note_app o t u x t1 : note o t = u ++ x :: t1 -> (o = None /\ t = u ++ x :: t1) \/ (o = Some x /\ u = [] /\ t = t1) \/ (exists y u', o = Some y /\ u = y :: u' /\ t = u' ++ x :: t1).
Proof.
  destruct o as [y|]; cbn [note]; intros E; [|auto]. destruct u as [|z u]; cbn [app] in E; injection E as -> ->; [auto|]. right. right. exists z, u. auto.
Qed.
Lemma reach_split p may x t3 : forall s t', reach p may s (t3 ++ x :: t') -> exists s0 l s1, reach p may s0 t' /\ step l s0 = Some (s1, Some x).
Proof.
  intros s t' R. remember (t3 ++ x :: t') as t eqn:E. revert t3 E. induction R as [|s t l s' o R IH M ST]; intros t3 E; [destruct t3; discriminate|].
  apply note_app in E. destruct E as [[-> E]|[(-> & -> & <-)|(y & u & -> & -> & E)]]; [eapply IH, E|exists s, l, s'; auto|eapply IH, E].
Qed.
Lemma blocked_since p may s t : reach p may s t -> forall u i t1, t = u ++ Answers i Blocked :: t1 ->
  moment UnblockWrites u (Answers i Blocked :: t1) \/ (q s = Some Holding /\ qlock s = None /\ flag s = false).
Proof.
  induction 1 as [|s t l s' o R IH M ST]; intros u i t1 E; [destruct u; discriminate|]. pose proof (reach_inv _ _ _ _ R) as I.
  apply note_app in E. destruct E as [[-> E]|[(-> & -> & <-)|(y & u' & -> & -> & E)]].
  - destruct (IH _ _ _ E) as [A|(A & B & C)]; [left; exact A|]. destruct (holding_step _ _ _ _ I A B C ST) as [(A' & B' & C' & _)|(_ & k & -> & K)]; [right; auto|].
    left. apply (moment_now _ _ _ k). rewrite <- E, (reach_waits _ _ _ _ R), K. reflexivity.
  - right. clear IH. destruct I as (H & X & Z). destruct s as [f ql qq fl lo cl ex rd po de]. unfold role in Z. cbn [pc qlock q flag locked clock excl readers pool dead] in *.
    unfold step in ST. destruct de; [discriminate|]. destruct l as [k b|k|k|k| |j|j|j|j|j|b]; cases ST; try discriminate. injection ST as <- ->. cbn [q qlock flag].
    pose proof (proj1 (H i) (or_introl Heqc)) as ->. rewrite Heqc in Z. destruct qq as [[]|]; intuition congruence.
  - destruct (IH _ _ _ E) as [A|(A & B & C)]; [left; apply moment_cons, A|]. destruct (holding_step _ _ _ _ I A B C ST) as [(A' & B' & C' & _)|(X & _)]; [right; auto|discriminate].
Qed.
(** Once BlockWrites has been answered with "200 Blocked", nothing is written and nothing committed until there is an UnblockWrites that waits for its answer. *)
Theorem C80_still : forall p may s t3 j t2 i t1, reach p may s (t3 ++ Changes j :: t2 ++ Answers i Blocked :: t1) ->
  exists later earlier k, t2 = later ++ earlier /\ waiting UnblockWrites k (earlier ++ Answers i Blocked :: t1) = true.
Proof.
  intros p may s t3 j t2 i t1 R. apply reach_split in R. destruct R as (s0 & l & s1 & R & ST).
  destruct (blocked_since _ _ _ _ R _ _ _ eq_refl) as [A|(A & B & C)]; [exact A|].
  destruct (holding_step _ _ _ _ (reach_inv _ _ _ _ R) A B C ST) as [(_ & _ & _ & X)|(X & _)]; [exfalso; apply (X j); reflexivity|discriminate].
Qed.
Print Assumptions C80_still.

(** "200 Blocked" and "200 Unblocked" alternate. *)
Lemma kept_step l s s' o : inv s -> q s <> None -> role s <> Some InB -> step l s = Some (s', o) ->
  (q s' <> None /\ role s' <> Some InB /\ forall i, o <> Some (Answers i Blocked)) \/ exists i, o = Some (Answers i Unblocked).
Proof.
  intros (H & X & Z) Q L E. destruct s as [f ql qq fl lo cl ex rd po de]. unfold role in *. cbn [pc qlock q flag locked clock excl readers pool dead] in *.
  unfold step in E. destruct de; [discriminate|].
  destruct l as [i b|i|i|i| |j|j|j|j|j|p]; cases E; try discriminate; injection E as <- <-; cbn [Quiesce_Model.q qlock pc]; try (left; repeat split; solve [discriminate|exact L|exact Q|contradiction]).
  - left. repeat split; try discriminate; [exact Q|]. destruct ql as [k|]; [|discriminate]. unfold set. destruct (Nat.eqb k i); congruence.
  - left. repeat split; try discriminate; [exact Q|]. destruct ql as [k|]; [|discriminate]. unfold set. destruct (Nat.eqb k i); congruence.
  - left. repeat split; try discriminate. rewrite set_same. discriminate.
  - exfalso. pose proof (proj1 (H i) (or_introl Heqc)) as ->. congruence.
  - right. exists i. reflexivity.
Qed.
Lemma poll_state p may s t i l s' : reach p may s t -> step l s = Some (s', Some (Answers i Blocked)) -> Quiesce_Model.q s' <> None /\ role s' <> Some InB /\ (Quiesce_Model.q s <> None /\ role s = Some InB).
Proof.
  intros R ST. destruct (reach_inv _ _ _ _ R) as (H & X & Z). destruct s as [f ql qq fl lo cl ex rd po de]. unfold role in *. cbn [pc qlock Quiesce_Model.q flag locked clock excl readers pool dead] in *.
  unfold step in ST. destruct de; [discriminate|]. destruct l as [k b|k|k|k| |j|j|j|j|j|b]; cases ST; try discriminate. injection ST as <- ->. cbn [Quiesce_Model.q qlock flag].
  pose proof (proj1 (H i) (or_introl Heqc)) as ->. rewrite Heqc in *. destruct qq as [[]|]; intuition congruence.
Qed.
Lemma kept_since p may s t : reach p may s t -> forall u i t1, t = u ++ Answers i Blocked :: t1 ->
  (exists k, In (Answers k Unblocked) u) \/ (Quiesce_Model.q s <> None /\ role s <> Some InB).
Proof.
  induction 1 as [|s t l s' o R IH M ST]; intros u i t1 E; [destruct u; discriminate|]. pose proof (reach_inv _ _ _ _ R) as I.
  apply note_app in E. destruct E as [[-> E]|[(-> & -> & <-)|(y & u' & -> & -> & E)]].
  - destruct (IH _ _ _ E) as [A|(A & B)]; [left; exact A|]. destruct (kept_step _ _ _ _ I A B ST) as [(A' & B' & _)|(k & X)]; [right; auto|discriminate].
  - right. destruct (poll_state _ _ _ _ _ _ _ R ST) as (A & B & _). auto.
  - destruct (IH _ _ _ E) as [(k & A)|(A & B)]; [left; exists k; right; exact A|]. destruct (kept_step _ _ _ _ I A B ST) as [(A' & B' & _)|(k & X)]; [right; auto|].
    left. exists k. left. congruence.
Qed.
Lemma free_step l s s' o : inv s -> Quiesce_Model.q s = None \/ role s = Some InB -> step l s = Some (s', o) ->
  ((Quiesce_Model.q s' = None \/ role s' = Some InB) /\ forall i, o <> Some (Answers i Unblocked)) \/ exists i, o = Some (Answers i Blocked).
Proof.
  intros (H & X & Z) Q E. destruct s as [f ql qq fl lo cl ex rd po de]. unfold role in *. cbn [pc qlock Quiesce_Model.q flag locked clock excl readers pool dead] in *.
  unfold step in E. destruct de; [discriminate|].
  destruct l as [i b|i|i|i| |j|j|j|j|j|p]; cases E; try discriminate; injection E as <- <-; cbn [Quiesce_Model.q qlock pc];
    try solve [right; eexists; reflexivity]; try (left; (split; [|discriminate]); try exact Q; try solve [left; reflexivity]; (destruct Q as [Q|Q]; [try discriminate; try (left; exact Q)|]); try discriminate; try (right; exact Q)).
  all: try (exfalso; pose proof (proj1 (H i) (or_intror Heqc)) as ->; destruct Q as [Q|Q]; congruence).
  all: try (right; destruct ql as [k|]; [|discriminate]; rewrite set_other; [exact Q|]; intros ->; congruence).
  all: try (right; rewrite set_same; reflexivity).
Qed.
Lemma join_state p may s t i l s' : reach p may s t -> step l s = Some (s', Some (Answers i Unblocked)) -> Quiesce_Model.q s' = None /\ Quiesce_Model.q s <> None /\ role s = Some InU.
Proof.
  intros R ST. destruct (reach_inv _ _ _ _ R) as (H & X & Z). destruct s as [f ql qq fl lo cl ex rd po de]. unfold role in *. cbn [pc qlock Quiesce_Model.q flag locked clock excl readers pool dead] in *.
  unfold step in ST. destruct de; [discriminate|]. destruct l as [k b|k|k|k| |j|j|j|j|j|b]; cases ST; try discriminate. injection ST as <- ->. cbn [Quiesce_Model.q qlock flag].
  pose proof (proj1 (H i) (or_intror Heqc)) as ->. rewrite Heqc. repeat split; discriminate.
Qed.
Lemma freed_since p may s t : reach p may s t -> forall u i t1, t = u ++ Answers i Unblocked :: t1 ->
  (exists k, In (Answers k Blocked) u) \/ Quiesce_Model.q s = None \/ role s = Some InB.
Proof.
  induction 1 as [|s t l s' o R IH M ST]; intros u i t1 E; [destruct u; discriminate|]. pose proof (reach_inv _ _ _ _ R) as I.
  apply note_app in E. destruct E as [[-> E]|[(-> & -> & <-)|(y & u' & -> & -> & E)]].
  - destruct (IH _ _ _ E) as [A|A]; [left; exact A|]. destruct (free_step _ _ _ _ I A ST) as [(A' & _)|(k & X)]; [right; auto|discriminate].
  - right. left. eapply join_state; eassumption.
  - destruct (IH _ _ _ E) as [(k & A)|A]; [left; exists k; right; exact A|]. destruct (free_step _ _ _ _ I A ST) as [(A' & _)|(k & X)]; [right; auto|].
    left. exists k. left. congruence.
Qed.
Lemma freed_start p may s t : reach p may s t -> (exists k, In (Answers k Blocked) t) \/ Quiesce_Model.q s = None \/ role s = Some InB.
Proof.
  induction 1 as [|s t l s' o R IH M ST]; [right; left; reflexivity|]. pose proof (reach_inv _ _ _ _ R) as I.
  destruct IH as [(k & A)|A]; [left; exists k; destruct o; [right|]; exact A|]. destruct (free_step _ _ _ _ I A ST) as [(A' & _)|(k & ->)]; [right; auto|].
  left. exists k. left. reflexivity.
Qed.
Theorem C80_alternate : forall p may s t,  reach p may s t ->
  (forall t3 j t2 i t1, t = t3 ++ Answers j Blocked :: t2 ++ Answers i Blocked :: t1 -> exists k, In (Answers k Unblocked) t2) /\
  (forall t3 j t2 i t1, t = t3 ++ Answers j Unblocked :: t2 ++ Answers i Unblocked :: t1 -> exists k, In (Answers k Blocked) t2) /\
  (forall t3 j t1, t = t3 ++ Answers j Unblocked :: t1 -> exists k, In (Answers k Blocked) t1).
Proof.
  intros p may s t R. split; [|split].
  - intros t3 j t2 i t1 ->. apply reach_split in R. destruct R as (s0 & l & s1 & R & ST). destruct (kept_since _ _ _ _ R _ _ _ eq_refl) as [A|(A & B)]; [exact A|].
    destruct (poll_state _ _ _ _ _ _ _ R ST) as (_ & _ & _ & C). contradiction.
  - intros t3 j t2 i t1 ->. apply reach_split in R. destruct R as (s0 & l & s1 & R & ST). destruct (join_state _ _ _ _ _ _ _ R ST) as (_ & C & D).
    destruct (freed_since _ _ _ _ R _ _ _ eq_refl) as [A|[A|A]]; [exact A|contradiction|congruence].
  - intros t3 j t1 ->. apply reach_split in R. destruct R as (s0 & l & s1 & R & ST). destruct (join_state _ _ _ _ _ _ _ R ST) as (_ & C & D).
    destruct (freed_start _ _ _ _ R) as [A|[A|A]]; [exact A|contradiction|congruence].
Qed.
Print Assumptions C80_alternate.

(** Each answer agrees with the last answer "200 Blocked" or "200 Unblocked". *)
Definition held (s : state) : Prop := Quiesce_Model.q s <> None /\ role s <> Some InB.
Lemma blocked_held p may s t : reach p may s t -> (blocked t = true <-> held s).
Proof.
  induction 1 as [|s t l s' o R IH M ST]; [split; [discriminate|intros (A & _); exfalso; apply A; reflexivity]|]. pose proof (reach_inv _ _ _ _ R) as I.
  assert (N : (forall i, o <> Some (Answers i Blocked)) -> (forall i, o <> Some (Answers i Unblocked)) -> blocked t = true <-> held s').
  { intros NB NU. rewrite IH. split.
    - intros (A & B). destruct (kept_step _ _ _ _ I A B ST) as [(A' & B' & _)|(k & X)]; [split; assumption|exfalso; exact (NU _ X)].
    - intros (A & B). assert (D : (Quiesce_Model.q s = None \/ role s = Some InB) \/ held s).
      { unfold held. destruct (Quiesce_Model.q s); [|left; left; reflexivity]. destruct (role s) as [[]|]; try (left; right; reflexivity); right; split; discriminate. }
      destruct D as [D|D]; [|exact D]. destruct (free_step _ _ _ _ I D ST) as [([E|E] & _)|(k & X)]; [contradiction|contradiction|exfalso; exact (NB _ X)]. }
  destruct o as [[k a|k []|k|]|]; cbn [note blocked]; try (apply N; discriminate).
  - destruct (poll_state _ _ _ _ _ _ _ R ST) as (A & B & _). split; [split; assumption|reflexivity].
  - destruct (join_state _ _ _ _ _ _ _ R ST) as (A & _). split; [discriminate|intros (B & _); contradiction].
Qed.
Theorem C80_told : forall p may s t2 i a t1, reach p may s (t2 ++ Answers i a :: t1) ->
  blocked t1 = match a with AlreadyBlocked | Unblocked => true | Blocked | NotBlocked => false end /\
  waiting match a with Blocked | AlreadyBlocked => BlockWrites | Unblocked | NotBlocked => UnblockWrites end i t1 = true.
Proof.
  intros p may s t2 i a t1 R. apply reach_split in R. destruct R as (s0 & l & s1 & R & ST). rewrite (reach_waits _ _ _ _ R).
  pose proof (blocked_held _ _ _ _ R) as B. pose proof (poll_state _ _ _ _ i l s1 R) as PS. pose proof (join_state _ _ _ _ i l s1 R) as JS. destruct (reach_inv _ _ _ _ R) as (H & X & Z).
  destruct s0 as [f ql qq fl lo cl ex rd po de]. unfold held, role in *. cbn [pc qlock Quiesce_Model.q flag locked clock excl readers pool dead] in *.
  unfold step in ST. destruct de; [discriminate|]. destruct l as [k b|k|k|k| |j|j|j|j|j|b]; cases ST; try discriminate; injection ST as <- -> <-; rewrite Heqc; (split; [|reflexivity]).
  - apply B. split; discriminate.
  - apply not_true_iff_false. rewrite B. intros (A & _). apply A. reflexivity.
  - apply not_true_iff_false. rewrite B. intros (_ & A). apply A. rewrite (proj1 (H i) (or_introl Heqc)), Heqc. reflexivity.
  - apply B. split; [discriminate|]. rewrite (proj1 (H i) (or_intror Heqc)), Heqc. discriminate.
Qed.
Print Assumptions C80_told.

(** ** While writes are not blocked *)
Lemma none_step l s s' o : Quiesce_Model.q s = None -> dead s = false -> step l s = Some (s', o) ->
  (Quiesce_Model.q s' = None /\ dead s' = false) \/ exists i, l = Enter i /\ pc s i = WantB.
Proof.
  intros Q D E. destruct s as [f ql qq fl lo cl ex rd po de]. cbn [pc qlock Quiesce_Model.q flag locked clock excl readers pool dead] in *. subst qq de.
  unfold step in E. destruct l as [i b|i|i|i| |j|j|j|j|j|p]; cases E; try discriminate; injection E as <- <-; cbn [Quiesce_Model.q dead]; auto. right. exists i. auto.
Qed.
Definition free_start (t1 : list seen) : Prop := t1 = [] \/ exists i t0, t1 = Answers i Unblocked :: t0.
Lemma none_since p may s t : reach p may s t -> forall u t1, t = u ++ t1 -> free_start t1 -> moment BlockWrites u t1 \/ (Quiesce_Model.q s = None /\ dead s = false).
Proof.
  induction 1 as [|s t l s' o R IH M ST]; intros u t1 E F.
  - right. split; reflexivity.
  - destruct o as [x|]; cbn [note] in E.
    + destruct u as [|y u]; cbn [app] in E.
      * subst t1. destruct F as [F|(i & t0 & F)]; [discriminate|]. injection F as -> ->. right. split; [eapply join_state; eassumption|].
        destruct s as [f ql qq fl lo cl ex rd po de]. unfold step in ST. destruct de; [discriminate|]. destruct l as [k b|k|k|k| |j|j|j|j|j|b]; cases ST; try discriminate. injection ST as <- ->. reflexivity.
      * injection E as -> E. destruct (IH _ _ E F) as [A|[A B]]; [left; apply moment_cons, A|]. destruct (none_step _ _ _ _ A B ST) as [C|(k & -> & K)]; [right; exact C|].
        left. apply moment_cons, (moment_now _ _ _ k). rewrite <- E, (reach_waits _ _ _ _ R), K. reflexivity.
    + destruct (IH _ _ E F) as [A|[A B]]; [left; exact A|]. destruct (none_step _ _ _ _ A B ST) as [C|(k & -> & K)]; [right; exact C|].
      left. apply (moment_now _ _ _ k). rewrite <- E, (reach_waits _ _ _ _ R), K. reflexivity.
Qed.
(** As long as there has been no BlockWrites since the start or since UnblockWrites was answered with "200 Unblocked", each thread can write, whatever the others do. *)
Theorem C80_free : forall p may s u t1, reach p may s (u ++ t1) -> t1 = [] \/ (exists i t0, t1 = Answers i Unblocked :: t0) ->
  (forall later earlier k, u = later ++ earlier -> waiting BlockWrites k (earlier ++ t1) = false) ->
  forall j, exists s', go [Change j] s (u ++ t1) = Some (s', Changes j :: u ++ t1) \/ go [TakeWrite j; Change j] s (u ++ t1) = Some (s', Changes j :: u ++ t1).
Proof.
  intros p may s u t1 R F A j. destruct (none_since _ _ _ _ R u t1 eq_refl F) as [(u2 & u1 & k & E & W)|[Q D]]; [rewrite (A u2 u1 k E) in W; discriminate|].
  destruct (reach_inv _ _ _ _ R) as (H & X & Z). destruct s as [f ql qq fl lo cl ex rd po de]. cbn [pc qlock Quiesce_Model.q flag locked clock excl readers pool dead] in *. subst qq de.
  destruct Z as (_ & _ & _ & ->). destruct (existsb (Nat.eqb j) rd) eqn:B.
  - eexists. left. cbn [go step]. rewrite B. cbn [orb note go]. reflexivity.
  - eexists. right. cbn [go step]. rewrite B. cbn [orb note go step existsb]. rewrite Nat.eqb_refl. cbn [orb note go]. reflexivity.
Qed.
Print Assumptions C80_free.

(** ** Each command can be answered *)
Definition calm (s : state) : Prop := pool s = true /\ dead s = false /\ (Quiesce_Model.q s = Some Ended -> role s = Some InU).
Lemma calm_step l s s' o : inv s -> calm s -> (forall b, l <> SetPool b) -> step l s = Some (s', o) -> calm s'.
Proof.
  intros I (P & D & C) N E. pose proof (inv_step _ _ _ _ I E) as I'. destruct I as (H & X & Z). destruct I' as (H' & _ & Z').
  destruct s as [f ql qq fl lo cl ex rd po de]. unfold calm, role in *. cbn [pc qlock Quiesce_Model.q flag locked clock excl readers pool dead] in *. subst po de.
  unfold step in E. destruct l as [i b|i|i|i| |j|j|j|j|j|b]; [..|exfalso; apply (N b); reflexivity]; cases E; try discriminate; injection E as <- <-;
    cbn [pc qlock Quiesce_Model.q flag locked clock excl readers pool dead] in *; (split; [reflexivity|]); (split; [reflexivity|]); intros Q; try discriminate; try (exact (C Q)); try (specialize (C Q)).
  all: try solve [destruct ql as [k|]; [|discriminate]; rewrite set_other; [exact C|intros ->; congruence]].
  all: try solve [rewrite set_same; reflexivity].
  all: try solve [pose proof (proj1 (H i) (or_introl Heqc)) as ->; congruence].
  all: intuition congruence.
Qed.
Lemma reach_calm s t : reach true false s t -> calm s.
Proof.
  induction 1 as [|s t l s' o R IH M ST]; [repeat split; discriminate|]. eapply calm_step; [eapply reach_inv, R|exact IH| |exact ST]. destruct M as [M|M]; [discriminate|exact M].
Qed.

Definition quiet_label (l : label) : Prop := match l with Ask _ _ | SetPool _ => False | _ => True end.
Definition leads (s : state) (t : list seen) (s' : state) (t' : list seen) : Prop := exists ls, Forall quiet_label ls /\ go ls s t = Some (s', t').
Lemma go_app a b s t : go (a ++ b) s t = match go a s t with Some (s', t') => go b s' t' | None => None end.
Proof. revert s t. induction a as [|l a IH]; intros s t; cbn [app go]; [reflexivity|]. destruct (step l s) as [[s' o]|]; [apply IH|reflexivity]. Qed.
Lemma leads_trans s t s1 t1 s2 t2 : leads s t s1 t1 -> leads s1 t1 s2 t2 -> leads s t s2 t2.
Proof. intros (a & A & E) (b & B & F). exists (a ++ b). split; [apply Forall_app; auto|]. rewrite go_app, E. exact F. Qed.
Lemma leads_refl s t : leads s t s t.
Proof. exists []. split; [constructor|reflexivity]. Qed.
(** The writing threads end what they do. *)
Lemma drop_readers f ql qq fl lo cl ex po t : forall n rd, length rd <= n -> exists ls, Forall quiet_label ls /\
  go ls (State f ql qq fl lo cl ex rd po false) t = Some (State f ql qq fl lo cl ex [] po false, t).
Proof.
  induction n as [|n IH]; intros rd L.
  - destruct rd; [|cbn [length] in L; lia]. exists []. split; [constructor|reflexivity].
  - destruct rd as [|j rd]; [exists []; split; [constructor|reflexivity]|].
    destruct (IH (filter (fun k => negb (Nat.eqb k j)) rd)) as (ls & A & B).
    { cbn [length] in L. assert (F : length (filter (fun k => negb (Nat.eqb k j)) rd) <= length rd) by (clear; induction rd as [|x rd IH]; cbn [filter length]; [lia|destruct (negb (Nat.eqb x j)); cbn [length]; lia]). lia. }
    exists (DropWrite j :: ls). split; [apply Forall_cons; [exact I|exact A]|]. cbn [go step existsb]. rewrite Nat.eqb_refl. cbn [orb filter note]. rewrite Nat.eqb_refl. cbn [negb]. exact B.
Qed.
Definition left_to (c : option owner) : option owner := match c with Some Quiesce => Some Quiesce | _ => None end.
Lemma drop_all f ql qq fl lo cl ex rd po t : leads (State f ql qq fl lo cl ex rd po false) t (State f ql qq fl lo (left_to cl) ex [] po false) t.
Proof.
  destruct (drop_readers f ql qq fl lo cl ex po t (length rd) rd ltac:(lia)) as (ls & A & B). apply (leads_trans _ _ (State f ql qq fl lo cl ex [] po false) t); [exists ls; auto|].
  destruct cl as [[|j]|]; try apply leads_refl. exists [DropCommit j]. split; [apply Forall_cons; [exact I|constructor]|]. cbn [go step]. rewrite Nat.eqb_refl. reflexivity.
Qed.
Ltac by_steps ls := exists ls; split; [repeat (apply Forall_cons; [exact I|]); apply Forall_nil|].
(** The command that holds __quiesceLock is answered. *)
Lemma holder_ends s t k : inv s -> calm s -> qlock s = Some k ->
  exists s' x, leads s t s' (Answers k x :: t) /\ inv s' /\ calm s' /\ qlock s' = None /\ forall i, i <> k -> pc s' i = pc s i.
Proof.
  intros J C L. assert (G : exists s' x, leads s t s' (Answers k x :: t) /\ qlock s' = None /\ forall i, i <> k -> pc s' i = pc s i).
  { destruct J as (H & X & Z). destruct C as (P & D & C). destruct s as [f ql qq fl lo cl ex rd po de]. unfold role in *. cbn [pc qlock Quiesce_Model.q flag locked clock excl readers pool dead] in *. subst ql po de.
    assert (O : forall i, i <> k -> set f k Idle i = f i) by (intros i N; apply set_other, N).
    destruct qq as [qq|]; [|destruct Z as (Z & _); discriminate]. destruct (f k) eqn:Fk; try solve [destruct (proj2 (H k) eq_refl) as [E|E]; congruence].
    - assert (K : fl = false /\ (qq <> Holding -> qq <> Ended -> lo = false) /\ (qq = Holding -> lo = true) /\ qq <> Unlocked1 /\ qq <> Unlocked2 /\ qq <> Ended) by (destruct qq; intuition congruence).
      destruct K as (-> & K1 & K2 & K3 & K4 & K5).
      exists (State (set f k Idle) None (Some Holding) false true (Some Quiesce) true [] true false), Blocked.
      split; [|split; [reflexivity|exact O]].
      eapply leads_trans; [apply drop_all|].
      destruct qq; try contradiction.
      + destruct Z as (_ & _ & -> & Zc & ->). destruct cl as [[|j]|]; [congruence|..]; cbn [left_to]; by_steps [Thread; Thread; Thread; Thread; Thread; Poll k]; cbn [go step note]; rewrite Fk; reflexivity.
      + destruct Z as (_ & _ & -> & Zc & ->). destruct cl as [[|j]|]; [congruence|..]; cbn [left_to]; by_steps [Thread; Thread; Thread; Thread; Poll k]; cbn [go step note]; rewrite Fk; reflexivity.
      + destruct Z as (_ & _ & -> & Zc & ->). destruct cl as [[|j]|]; [congruence|..]; cbn [left_to]; by_steps [Thread; Thread; Thread; Poll k]; cbn [go step note]; rewrite Fk; reflexivity.
      + destruct Z as (_ & _ & -> & -> & ->). cbn [left_to]; by_steps [Thread; Thread; Poll k]; cbn [go step note]; rewrite Fk; reflexivity.
      + destruct Z as (_ & _ & -> & -> & ->). cbn [left_to]; by_steps [Thread; Poll k]; cbn [go step note]; rewrite Fk; reflexivity.
      + destruct Z as (-> & -> & _). rewrite (K2 eq_refl). cbn [left_to]; by_steps [Poll k]; cbn [go step note]; rewrite Fk; reflexivity.
    - assert (K : (qq = Holding \/ qq = Unlocked1 \/ qq = Unlocked2) /\ fl = true \/ qq = Ended /\ fl = false) by (destruct qq; intuition congruence).
      exists (State (set f k Idle) None None false lo None false [] true false), Unblocked.
      split; [|split; [reflexivity|exact O]].
      eapply leads_trans; [apply drop_all|].
      destruct K as [([->|[->| ->]] & ->)|(-> & ->)].
      + destruct Z as (-> & -> & _). cbn [left_to]; by_steps [Thread; Thread; Thread; Join k]; cbn [go step note]; rewrite Fk; reflexivity.
      + destruct Z as (_ & _ & -> & ->). cbn [left_to]; by_steps [Thread; Thread; Join k]; cbn [go step note]; rewrite Fk; reflexivity.
      + destruct Z as (_ & _ & Zc & ->). destruct cl as [[|j]|]; [congruence|..]; cbn [left_to]; by_steps [Thread; Join k]; cbn [go step note]; rewrite Fk; reflexivity.
      + destruct Z as (Zc & -> & _). destruct cl as [[|j]|]; [congruence|..]; cbn [left_to]; by_steps [Join k]; cbn [go step note]; rewrite Fk; reflexivity. }
  destruct G as (s' & x & G & A & B). exists s', x. split; [exact G|]. enough (inv s' /\ calm s') by tauto.
  destruct G as (ls & F & G). clear A B L. revert G. generalize (Answers k x :: t). intros t'. revert s t J C. induction F as [|l ls Hl F IH]; intros s t J C G; cbn [go] in G.
  - injection G as -> _. auto.
  - destruct (step l s) as [[s1 o]|] eqn:E; [|discriminate]. eapply IH; [eapply inv_step; eassumption| |exact G]. eapply calm_step; try eassumption. intros b ->. exact Hl.
Qed.
Lemma want_ends s t i : inv s -> calm s -> qlock s = None -> pc s i = WantB \/ pc s i = WantU -> exists s' x, leads s t s' (Answers i x :: t).
Proof.
  intros J C L W. assert (D : dead s = false) by apply C.
  assert (EX : exists s1 o, step (Enter i) s = Some (s1, o) /\ ((exists x, o = Some (Answers i x)) \/ o = None /\ qlock s1 = Some i)).
  { destruct s as [f ql qq fl lo cl ex rd po de]. cbn [pc qlock dead] in *. subst ql de. cbn [step]. destruct W as [W|W]; rewrite W; destruct qq as [qq|]; eexists _, _; (split; [reflexivity|]); eauto. }
  destruct EX as (s1 & o & E & [(x & ->)|(-> & Q)]).
  - exists s1, x. exists [Enter i]. split; [apply Forall_cons; [exact I|constructor]|]. cbn [go]. rewrite E. reflexivity.
  - assert (J1 : inv s1) by (eapply inv_step; eassumption). assert (C1 : calm s1) by (apply (calm_step (Enter i) s s1 None J C); [intros b X; discriminate X|exact E]).
    destruct (holder_ends s1 t i J1 C1 Q) as (s' & x & G & _). exists s', x. eapply leads_trans; [|exact G]. exists [Enter i]. split; [apply Forall_cons; [exact I|constructor]|]. cbn [go]. rewrite E. reflexivity.
Qed.
(** As long as the node has its database, nothing gets stuck: at any time each command that waits can be answered, without any other command
    being given, by the writing threads ending their transactions. *)
Theorem C80_answered : forall s t a i, reach true false s t -> waiting a i t = true ->
  exists ls s' u x, (forall l, In l ls -> match l with Ask _ _ | SetPool _ => False | _ => True end) /\ go ls s t = Some (s', u ++ t) /\ In (Answers i x) u.
Proof.
  intros s t a i R W. rewrite (reach_waits _ _ _ _ R) in W. pose proof (reach_inv _ _ _ _ R) as J. pose proof (reach_calm _ _ R) as C.
  assert (G : exists s' u x, leads s t s' (u ++ t) /\ In (Answers i x) u).
  { destruct (qlock s) as [k|] eqn:L.
    - destruct (holder_ends s t k J C L) as (s1 & x & G & J1 & C1 & L1 & O). destruct (Nat.eq_dec i k) as [->|N].
      + exists s1, [Answers k x], x. split; [exact G|left; reflexivity].
      + destruct (want_ends s1 (Answers k x :: t) i J1 C1 L1) as (s2 & y & G2).
        { rewrite (O i N). destruct J as (H & _). specialize (H i). rewrite L in H. destruct a, (pc s i); try discriminate; auto; exfalso; apply N; intuition congruence. }
        exists s2, [Answers i y; Answers k x], y. split; [eapply leads_trans; eassumption|left; reflexivity].
    - destruct (want_ends s t i J C L) as (s2 & y & G2).
      { destruct J as (H & _). specialize (H i). rewrite L in H. destruct a, (pc s i); try discriminate; auto; exfalso; intuition congruence. }
      exists s2, [Answers i y], y. split; [exact G2|left; reflexivity]. }
  destruct G as (s' & u & x & (ls & F & G) & B). exists ls, s', u, x. rewrite Forall_forall in F. auto.
Qed.
Print Assumptions C80_answered.

(** No thread loses its locks: one that can write can go on until it gives them back itself, whatever the others do. *)
Theorem C80_kept : forall p may s t j l s' o, reach p may s t -> step (Change j) s <> None -> step l s = Some (s', o) -> l <> DropCommit j -> l <> DropWrite j -> o <> Some Crashes ->
  step (Change j) s' <> None.
Proof.
  intros p may s t j l s' o R C E N1 N2 NC. destruct (reach_inv _ _ _ _ R) as (_ & X & Z). destruct s as [f ql qq fl lo cl ex rd po de]. cbn [pc qlock Quiesce_Model.q flag locked clock excl readers pool dead] in *.
  assert (D : de = false) by (destruct de; [discriminate|reflexivity]). subst de. assert (H : existsb (Nat.eqb j) rd = true \/ cl = Some (Writer j)).
  { cbn [step] in C. destruct (existsb (Nat.eqb j) rd); [auto|]. cbn [orb] in C. destruct cl as [[|k]|]; try (exfalso; apply C; reflexivity). destruct (Nat.eqb_spec k j) as [->|K]; [auto|exfalso; apply C; reflexivity]. }
  assert (G : forall f ql qq fl lo cl ex rd po, existsb (Nat.eqb j) rd = true \/ cl = Some (Writer j) -> step (Change j) (State f ql qq fl lo cl ex rd po false) <> None).
  { clear. intros f ql qq fl lo cl ex rd po [H|H]; cbn [step]; [rewrite H; discriminate|]. subst cl. rewrite Nat.eqb_refl, orb_true_r. discriminate. }
  unfold step in E. destruct l as [i b|i|i|i| |k|k|k|k|k|b]; cases E; try discriminate; injection E as <- <-; try (exfalso; apply NC; reflexivity); apply G; try exact H.
  all: try (destruct H as [H|H]; [left; exact H|exfalso; discriminate || (destruct Z as (_ & _ & Z & _); congruence)]).
  - destruct H as [H|H]; [auto|]. right. injection H as ->. exfalso. apply N1. match goal with Y : Nat.eqb _ _ = true |- _ => apply Nat.eqb_eq in Y; congruence end.
  - destruct H as [H|H]; [|auto]. left. cbn [existsb]. rewrite H, orb_true_r. reflexivity.
  - destruct H as [H|H]; [|auto]. left. apply existsb_exists in H. destruct H as (y & I & Y). apply Nat.eqb_eq in Y. subst y. apply existsb_exists. exists j. split; [|apply Nat.eqb_refl].
    apply filter_In. split; [exact I|]. apply negb_true_iff, Nat.eqb_neq. intros ->. apply N2. reflexivity.
Qed.
Print Assumptions C80_kept.

(** *** Cases *)
Lemma go_reach p may ls : Forall (fun l => may = true \/ forall b, l <> SetPool b) ls -> forall s t s' t', reach p may s t -> go ls s t = Some (s', t') -> reach p may s' t'.
Proof.
  induction 1 as [|l ls A F IH]; intros s t s' t' R G; cbn [go] in G; [injection G as <- <-; exact R|]. destruct (step l s) as [[s1 o]|] eqn:E; [|discriminate].
  eapply IH; [|exact G]. eapply Reach1; eassumption.
Qed.
(** A thread that is writing, BlockWrites, which has to wait for it, a second BlockWrites, and UnblockWrites. *)
Definition example : list label :=
  [TakeWrite 7; Change 7; Ask 0 BlockWrites; Enter 0; Thread; Thread; Thread; Change 7; DropWrite 7; Thread; Thread; Poll 0; Ask 1 BlockWrites; Enter 1;
   Ask 2 UnblockWrites; Enter 2; Thread; TakeWrite 8; Change 8; Thread; Thread; Join 2].
Example C80_case : exists s, reach true false s
  [Answers 2 Unblocked; Changes 8; Asks 2 UnblockWrites; Answers 1 AlreadyBlocked; Asks 1 BlockWrites; Answers 0 Blocked; Changes 7; Asks 0 BlockWrites; Changes 7].
Proof. eexists. eapply (go_reach true false example); [repeat (apply Forall_cons; [right; intros b X; discriminate|]); apply Forall_nil|apply Reach0|]. vm_compute. reflexivity. Qed.

Definition stuck (i : nat) (s : state) : Prop := pc s i = InB /\ qlock s = Some i /\ Quiesce_Model.q s = Some Ended /\ locked s = false.
Lemma stuck_step i l s s' o : inv s -> stuck i s -> step l s = Some (s', o) -> stuck i s' /\ forall k x, o <> Some (Answers k x).
Proof.
  intros (H & _) (A & B & C & D) E. destruct s as [f ql qq fl lo cl ex rd po de]. unfold stuck. cbn [pc qlock Quiesce_Model.q locked] in *. subst ql qq lo.
  unfold step in E. destruct de; [discriminate|].
  destruct l as [k b|k|k|k| |j|j|j|j|j|p]; cases E; try discriminate; injection E as <- <-; cbn [pc qlock Quiesce_Model.q locked]; split; try solve [repeat split; exact A]; try solve [intros ? ? X; discriminate X].
  all: try solve [rewrite set_other; [auto|intros ->; congruence]].
  all: try solve [exfalso; assert (X : Some i = Some k) by (apply H; auto); injection X as ->; congruence].
Qed.
Lemma stuck_go i ls : forall s t s' t', inv s -> stuck i s -> go ls s t = Some (s', t') -> stuck i s' /\ exists u, t' = u ++ t /\ forall k x, ~ In (Answers k x) u.
Proof.
  induction ls as [|l ls IH]; intros s t s' t' J K G; cbn [go] in G.
  - injection G as <- <-. split; [exact K|]. exists []. split; [reflexivity|]. intros k x [].
  - destruct (step l s) as [[s1 o]|] eqn:E; [|discriminate]. destruct (stuck_step _ _ _ _ _ J K E) as (K1 & O).
    destruct (IH s1 _ s' t' (inv_step _ _ _ _ J E) K1 G) as (K2 & u & -> & U). split; [exact K2|]. destruct o as [o|]; cbn [note].
    + exists (u ++ [o]). rewrite <- app_assoc. split; [reflexivity|]. intros k x H. apply in_app_or in H. destruct H as [H|[->|[]]]; [exact (U _ _ H)|]. exact (O _ _ eq_refl).
    + exists u. auto.
Qed.
(** False: BlockWrites is answered.  While the node has no database (while it is detached, and before it is open), the thread that should take the locks ends
    without a word, the command waits for it forever and keeps its lock, so that no later BlockWrites and no UnblockWrites is ever answered either,
    also not when there is a database again. *)
Theorem C80_detached_refuted : forall i, exists ls s t, go ls (init false) [] = Some (s, t) /\ waiting BlockWrites i t = true /\
  forall ls' s' t', go ls' s t = Some (s', t') -> waiting BlockWrites i t' = true /\ (exists u, t' = u ++ t /\ forall k x, ~ In (Answers k x) u).
Proof.
  intros i. assert (G : exists s, go [Ask i BlockWrites; Enter i; Thread] (init false) [] = Some (s, [Asks i BlockWrites]) /\ stuck i s).
  { eexists. cbn [go step init pc note]. unfold set at 1. rewrite Nat.eqb_refl. cbn [go step note]. unfold stuck. split; [reflexivity|]. cbn [pc qlock Quiesce_Model.q locked]. rewrite set_same. auto. }
  destruct G as (s & G & K). exists [Ask i BlockWrites; Enter i; Thread], s, [Asks i BlockWrites]. split; [exact G|].
  assert (A : forall ls, Forall (fun l => true = true \/ forall b, l <> SetPool b) ls) by (intros ls; apply Forall_forall; auto).
  assert (R : reach false true s [Asks i BlockWrites]) by (eapply go_reach; [apply A|apply Reach0|exact G]).
  split; [rewrite (reach_waits _ _ _ _ R); destruct K as (-> & _); reflexivity|].
  intros ls' s' t' G'. destruct (stuck_go i ls' s _ s' t' (reach_inv _ _ _ _ R) K G') as (K' & U). split; [|exact U].
  rewrite (reach_waits false true s' t'); [destruct K' as (-> & _); reflexivity|]. eapply go_reach; [apply A|exact R|exact G'].
Qed.
Print Assumptions C80_detached_refuted.

(** False: BlockWrites does no harm to the node.  The thread that takes the locks looks whether there is a database and then reads the pointer to it a
    second time.  If the node is detached in between, that pointer is null and is followed. *)
Theorem C80_detaching_refuted : forall i, exists s t, reach true true s (Crashes :: t) /\ waiting BlockWrites i t = true.
Proof.
  intros i. assert (G : exists s, go [Ask i BlockWrites; Enter i; Thread; SetPool false; Thread] (init true) [] = Some (s, [Crashes; Asks i BlockWrites])).
  { eexists. cbn [go step init pc note]. unfold set at 1. rewrite Nat.eqb_refl. cbn [go step note]. reflexivity. }
  destruct G as (s & G). exists s, [Asks i BlockWrites]. split; [|cbn [waiting]; rewrite Nat.eqb_refl; reflexivity].
  eapply go_reach; [|apply Reach0|exact G]. apply Forall_forall. auto.
Qed.
Print Assumptions C80_detaching_refuted.
