(** Invariant of the ring buffer. *)
From Verif Require Import Base Ring_Spec Ring_Model.

Section P.
Context {T : Type}.
Variable C : nat.

Lemma upd_same {A} (f : nat -> A) k v : upd f k v k = v.
Proof. unfold upd. rewrite Nat.eqb_refl. reflexivity. Qed.
Lemma upd_other {A} (f : nat -> A) k v x : x <> k -> upd f k v x = f x.
Proof. intros H. unfold upd. destruct (Nat.eqb_spec x k); [contradiction|reflexivity]. Qed.

(** Indices closer than the number of slots use different slots. *)
Lemma slot_distinct i j : slot_of C i = slot_of C j -> i < j + (C + 1) -> j < i + (C + 1) -> i = j.
Proof.
  unfold slot_of. set (B := C + 1). intros H H1 H2. assert (HB : B <> 0) by (unfold B; lia).
  pose proof (Nat.div_mod i B HB) as Ei. pose proof (Nat.div_mod j B HB) as Ej. rewrite H in Ei.
  assert (i / B = j / B) by nia. nia.
Qed.

Definition owns (c : ppc T) : option nat :=
  match c with PClaimed _ i | PWriting _ i | PWritten _ i | PShut i => Some i | _ => None end.
Definition entry_of (c : ppc T) : entry T :=
  match c with PClaimed v _ | PWriting v _ | PWritten v _ => Item v | _ => Marker end.
Definition pslot (c : ppc T) (x : slot T) : Prop :=
  sl_state x = Empty /\
  match c with
  | PWriting _ _ => sl_busy x = true
  | PWritten v _ => sl_busy x = false /\ sl_data x = Some v
  | _ => sl_busy x = false
  end.
Definition committed (e : entry T) (x : slot T) : Prop :=
  match e with
  | Item v => sl_state x = Ready /\ sl_data x = Some v /\ sl_busy x = false
  | Marker => sl_state x = Shut /\ sl_busy x = false
  end.
Definition cslot (c : cpc T) (e : entry T) (x : slot T) : Prop :=
  match c with
  | CIdle => committed e x
  | CReady => committed e x /\ exists v, e = Item v
  | CTaking => exists v, e = Item v /\ sl_state x = Ready /\ sl_data x = Some v /\ sl_busy x = true
  | CTaken d => exists v, e = Item v /\ d = Some v /\ sl_state x = Ready /\ sl_busy x = false
  | CEmptied d => exists v, e = Item v /\ d = Some v /\ sl_state x = Empty /\ sl_busy x = false
  | CShut => e = Marker /\ sl_state x = Shut /\ sl_busy x = false
  | CShutEmptied => e = Marker /\ sl_state x = Empty /\ sl_busy x = false
  end.

Definition markers (l : list (nat * entry T)) : nat := List.length l - count_items l.

Record Inv (s : ring T) : Prop := {
  i_len : List.length (r_line s) = r_w s;
  i_le : r_r s <= r_w s;
  i_room : r_w s - r_r s <= C + markers (skipn (r_r s) (r_line s));
  i_own : forall p i, owns (r_prod s p) = Some i ->
            r_r s <= i < r_w s /\ nth_error (r_line s) i = Some (p, entry_of (r_prod s p)) /\
            pslot (r_prod s p) (r_slots s (slot_of C i));
  i_com : forall i p e, r_r s <= i < r_w s -> nth_error (r_line s) i = Some (p, e) -> owns (r_prod s p) <> Some i ->
            (if Nat.eqb i (r_r s) then cslot (r_cons s) e else committed e) (r_slots s (slot_of C i));
  i_free : forall k, (forall i, r_r s <= i < r_w s -> slot_of C i <> k) ->
            sl_state (r_slots s k) = Empty /\ sl_busy (r_slots s k) = false;
  i_cons : r_cons s <> CIdle -> r_r s < r_w s /\
            (forall p, owns (r_prod s p) <> Some (r_r s));
  i_chk : forall p v g, r_prod s p = PChecked v g -> g < r_r s + C;
  i_race : r_race s = false;
  i_out : r_out s = map (fun pe => delivers (snd pe)) (firstn (r_r s) (r_line s));
  i_ret : forall p, items_of p (r_line s) =
            map snd (filter (fun q => Nat.eqb (fst q) p) (r_true s)) ++
            match r_prod s p with PClaimed v _ | PWriting v _ | PWritten v _ => [v] | _ => [] end
}.

Lemma Inv_init : Inv ring_init.
Proof.
  constructor; cbn; intros; try lia; try discriminate; try reflexivity; try (destruct (r_r ring_init); lia).
  - split; reflexivity.
  - contradiction.
Qed.

Lemma count_items_app (a b : list (nat * entry T)) : count_items (a ++ b) = count_items a + count_items b.
Proof. induction a as [|[p e] a IH]; cbn; [reflexivity|]. rewrite IH. lia. Qed.
Lemma count_items_le (a : list (nat * entry T)) : count_items a <= List.length a.
Proof. induction a as [|[p e] a IH]; cbn; [lia|]. destruct (is_item e); lia. Qed.
Lemma items_of_app p (a b : list (nat * entry T)) : items_of p (a ++ b) = items_of p a ++ items_of p b.
Proof.
  induction a as [|[q [v|]] a IH]; cbn; [reflexivity| |exact IH]. rewrite IH. destruct (Nat.eqb q p); reflexivity.
Qed.

(** The room for one more place. *)
Lemma markers_app a (b : list (nat * entry T)) : markers (a ++ b) = markers a + markers b.
Proof. unfold markers. rewrite app_length, count_items_app. pose proof (count_items_le a). pose proof (count_items_le b). lia. Qed.

Lemma skipn_app_le {A} n (l l' : list A) : n <= List.length l -> skipn n (l ++ l') = skipn n l ++ l'.
Proof. intros H. rewrite skipn_app. replace (n - List.length l) with 0 by lia. reflexivity. Qed.
Lemma firstn_app_le {A} n (l l' : list A) : n <= List.length l -> firstn n (l ++ l') = firstn n l.
Proof. intros H. rewrite firstn_app. replace (n - List.length l) with 0 by lia. cbn. apply app_nil_r. Qed.
Lemma firstn_S_nth {A} n (l : list A) x : nth_error l n = Some x -> firstn (n + 1) l = firstn n l ++ [x].
Proof.
  revert l. induction n as [|n IH]; intros [|y l] H; cbn in *; try discriminate; [congruence|].
  f_equal. apply IH. exact H.
Qed.
Lemma skipn_nth {A} n (l : list A) x : nth_error l n = Some x -> skipn n l = x :: skipn (n + 1) l.
Proof.
  revert l. induction n as [|n IH]; intros [|y l] H; cbn in *; try discriminate; [congruence|].
  apply IH. exact H.
Qed.

Lemma markers_skipn n (l : list (nat * entry T)) : markers (skipn n l) <= markers l.
Proof. rewrite <- (firstn_skipn n l) at 2. rewrite markers_app. lia. Qed.

Lemma Inv_room s : Inv s -> markers (r_line s) <= 1 -> r_w s - r_r s <= C + 1.
Proof. intros H Hm. pose proof (i_room _ H). pose proof (markers_skipn (r_r s) (r_line s)). lia. Qed.

Lemma same_slot s i j : Inv s -> markers (r_line s) <= 1 -> r_r s <= i < r_w s -> r_r s <= j < r_w s ->
  slot_of C i = slot_of C j -> i = j.
Proof. intros H Hm Hi Hj E. pose proof (Inv_room s H Hm). apply slot_distinct; [exact E|lia|lia]. Qed.

Lemma owner_unique s p q i : Inv s -> owns (r_prod s p) = Some i -> owns (r_prod s q) = Some i -> p = q.
Proof.
  intros H Hp Hq. destruct (i_own _ H _ _ Hp) as (_ & E1 & _). destruct (i_own _ H _ _ Hq) as (_ & E2 & _). congruence.
Qed.

Definition pending (c : ppc T) : list T := match c with PClaimed v _ | PWriting v _ | PWritten v _ => [v] | _ => [] end.

(** Producer [p] moves on inside its own slot. *)
Lemma own_slot_step s p i c' x' : Inv s -> markers (r_line s) <= 1 ->
  owns (r_prod s p) = Some i -> owns c' = Some i -> entry_of c' = entry_of (r_prod s p) -> pending c' = pending (r_prod s p) ->
  pslot c' x' ->
  Inv (mkRing (r_w s) (r_r s) (upd (r_slots s) (slot_of C i) x') (upd (r_prod s) p c') (r_cons s) (r_line s) (r_out s)
              (r_true s) (r_false s) (r_race s)).
Proof.
  intros H Hm Ho Ho' He Hp Hs. destruct (i_own _ H _ _ Ho) as (Hi & Hn & _).
  constructor; cbn; try apply H.
  - intros q j Hq. unfold upd in Hq at 1. destruct (Nat.eqb_spec q p) as [->|Hne].
    + rewrite !upd_same. assert (j = i) by congruence. subst j. split; [exact Hi|]. split; [rewrite He; exact Hn|].
      rewrite upd_same. exact Hs.
    + rewrite !upd_other by exact Hne. destruct (i_own _ H _ _ Hq) as (A & B & D). split; [exact A|]. split; [exact B|].
      rewrite upd_other; [exact D|]. intros E. apply Hne. apply (same_slot s j i H Hm A Hi) in E. subst j.
      eapply owner_unique; eauto.
  - intros j q e Hj Hnj Hno. assert (Hji : j <> i).
    { intros ->. rewrite Hn in Hnj. injection Hnj as <- _. rewrite upd_same in Hno. contradiction. }
    assert (Hno' : owns (r_prod s q) <> Some j).
    { destruct (Nat.eq_dec q p) as [->|Hne]; [congruence|]. rewrite upd_other in Hno by exact Hne. exact Hno. }
    pose proof (i_com _ H j q e Hj Hnj Hno') as D.
    rewrite upd_other; [exact D|]. intros E. apply Hji. exact (same_slot s j i H Hm Hj Hi E).
  - intros k Hk. rewrite upd_other; [exact (i_free _ H k Hk)|]. intros ->. exact (Hk i Hi eq_refl).
  - intros Hc. destruct (i_cons _ H Hc) as [A B]. split; [exact A|]. intros q Hq. unfold upd in Hq.
    destruct (Nat.eqb_spec q p) as [Eq|]; [|exact (B q Hq)]. apply (B p). congruence.
  - intros q v g Hq. unfold upd in Hq. destruct (Nat.eqb_spec q p) as [Eq|]; [|exact (i_chk _ H _ _ _ Hq)].
    subst c'. discriminate.
  - intros q. rewrite (i_ret _ H q). f_equal. unfold upd. destruct (Nat.eqb_spec q p) as [->|]; [|reflexivity].
    symmetry. exact Hp.
Qed.

(** Producer [p] publishes its slot. *)
Lemma own_commit s p i x' ret : Inv s -> markers (r_line s) <= 1 ->
  owns (r_prod s p) = Some i -> committed (entry_of (r_prod s p)) x' ->
  map snd (filter (fun q => Nat.eqb (fst q) p) ret) = map snd (filter (fun q => Nat.eqb (fst q) p) (r_true s)) ++ pending (r_prod s p) ->
  (forall q, q <> p -> filter (fun z => Nat.eqb (fst z) q) ret = filter (fun z => Nat.eqb (fst z) q) (r_true s)) ->
  Inv (mkRing (r_w s) (r_r s) (upd (r_slots s) (slot_of C i) x') (upd (r_prod s) p PIdle) (r_cons s) (r_line s) (r_out s)
              ret (r_false s) (r_race s)).
Proof.
  intros H Hm Ho Hc Hret Hret'. destruct (i_own _ H _ _ Ho) as (Hi & Hn & _).
  assert (HrI : Nat.eqb i (r_r s) = true -> r_cons s = CIdle).
  { intros E. apply Nat.eqb_eq in E. subst i. destruct (r_cons s) eqn:Ec; [reflexivity| | | | | |];
      exfalso; assert (Hc' : r_cons s <> CIdle) by congruence; apply (proj2 (i_cons _ H Hc') p Ho). }
  constructor; cbn; try apply H.
  - intros q j Hq. unfold upd in Hq at 1. destruct (Nat.eqb_spec q p) as [->|Hne]; [discriminate|].
    rewrite !upd_other by exact Hne. destruct (i_own _ H _ _ Hq) as (A & B & D). split; [exact A|]. split; [exact B|].
    rewrite upd_other; [exact D|]. intros E. apply Hne. apply (same_slot s j i H Hm A Hi) in E. subst j.
    eapply owner_unique; eauto.
  - intros j q e Hj Hnj Hno. destruct (Nat.eq_dec j i) as [->|Hji].
    + rewrite Hn in Hnj. injection Hnj as <- <-. rewrite upd_same.
      destruct (Nat.eqb i (r_r s)) eqn:E; [|exact Hc]. rewrite (HrI eq_refl). exact Hc.
    + assert (Hno' : owns (r_prod s q) <> Some j).
      { destruct (Nat.eq_dec q p) as [->|Hne]; [congruence|]. rewrite upd_other in Hno by exact Hne. exact Hno. }
      pose proof (i_com _ H j q e Hj Hnj Hno') as D.
      rewrite upd_other; [exact D|]. intros E. apply Hji. exact (same_slot s j i H Hm Hj Hi E).
  - intros k Hk. rewrite upd_other; [exact (i_free _ H k Hk)|]. intros ->. exact (Hk i Hi eq_refl).
  - intros Hc'. destruct (i_cons _ H Hc') as [A B]. split; [exact A|]. intros q Hq. unfold upd in Hq.
    destruct (Nat.eqb_spec q p) as [Eq|]; [discriminate|exact (B q Hq)].
  - intros q v g Hq. unfold upd in Hq. destruct (Nat.eqb_spec q p) as [Eq|]; [discriminate|exact (i_chk _ H _ _ _ Hq)].
  - intros q. rewrite (i_ret _ H q). unfold upd. destruct (Nat.eqb_spec q p) as [->|Hne].
    + rewrite Hret, app_nil_r. reflexivity.
    + rewrite Hret' by exact Hne. reflexivity.
Qed.

(** Producer [p] changes its program counter without owning a place before or after. *)
Lemma pc_step s p c' fl : Inv s -> owns (r_prod s p) = None -> owns c' = None -> pending c' = [] ->
  (forall v g, c' = PChecked v g -> g < r_r s + C) ->
  Inv (mkRing (r_w s) (r_r s) (r_slots s) (upd (r_prod s) p c') (r_cons s) (r_line s) (r_out s)
              (r_true s) fl (r_race s)).
Proof.
  intros H Ho Ho' Hp Hk. constructor; cbn; try apply H.
  - intros q j Hq. unfold upd in Hq at 1. destruct (Nat.eqb_spec q p) as [->|Hne]; [congruence|].
    rewrite !upd_other by exact Hne. exact (i_own _ H _ _ Hq).
  - intros j q e Hj Hnj Hno. apply (i_com _ H j q e Hj Hnj).
    destruct (Nat.eq_dec q p) as [->|Hne]; [congruence|]. rewrite upd_other in Hno by exact Hne. exact Hno.
  - intros Hc'. destruct (i_cons _ H Hc') as [A B]. split; [exact A|]. intros q Hq. unfold upd in Hq.
    destruct (Nat.eqb_spec q p) as [Eq|]; [congruence|exact (B q Hq)].
  - intros q v g Hq. unfold upd in Hq. destruct (Nat.eqb_spec q p) as [Eq|]; [exact (Hk _ _ Hq)|exact (i_chk _ H _ _ _ Hq)].
  - intros q. rewrite (i_ret _ H q). f_equal. unfold upd. destruct (Nat.eqb_spec q p) as [->|]; [|reflexivity].
    transitivity (@nil T); [|symmetry; exact Hp]. destruct (r_prod s p); try reflexivity; discriminate.
Qed.

(** A new place at the end of the line. *)
Lemma claim_step s p e c' : Inv s -> markers (r_line s ++ [(p, e)]) <= 1 ->
  owns (r_prod s p) = None -> owns c' = Some (r_w s) -> entry_of c' = e ->
  pending c' = (match e with Item v => [v] | Marker => [] end) ->
  (forall x, sl_state x = Empty -> sl_busy x = false -> pslot c' x) ->
  (match e with Item _ => r_w s < r_r s + C | Marker => True end) ->
  Inv (mkRing (r_w s + 1) (r_r s) (r_slots s) (upd (r_prod s) p c') (r_cons s) (r_line s ++ [(p, e)]) (r_out s)
              (r_true s) (r_false s) (r_race s)).
Proof.
  intros H Hm Ho Ho' He Hp Hs Hroom.
  assert (Hle := i_le _ H). assert (Hlen := i_len _ H).
  assert (Hroom' : r_w s + 1 - r_r s <= C + markers (skipn (r_r s) (r_line s ++ [(p, e)]))).
  { rewrite skipn_app_le by lia. rewrite markers_app. pose proof (i_room _ H).
    destruct e; cbn [markers count_items is_item List.length] in *; unfold markers at 2; cbn; lia. }
  assert (Hnew : forall i, r_r s <= i < r_w s -> slot_of C i <> slot_of C (r_w s)).
  { intros i Hi E. apply slot_distinct in E; pose proof (markers_skipn (r_r s) (r_line s ++ [(p, e)])); lia. }
  assert (Hnth : nth_error (r_line s ++ [(p, e)]) (r_w s) = Some (p, e)).
  { rewrite nth_error_app2 by lia. rewrite Hlen, Nat.sub_diag. reflexivity. }
  constructor; cbn; try apply H.
  - rewrite app_length. cbn. lia.
  - lia.
  - exact Hroom'.
  - intros q j Hq. unfold upd in Hq at 1. destruct (Nat.eqb_spec q p) as [->|Hne].
    + rewrite upd_same. assert (j = r_w s) by congruence. subst j. split; [lia|]. split; [rewrite He; exact Hnth|].
      apply Hs; apply (i_free _ H _ Hnew).
    + rewrite !upd_other by exact Hne. destruct (i_own _ H _ _ Hq) as (A & B & D). split; [lia|]. split; [|exact D].
      rewrite nth_error_app1 by lia. exact B.
  - intros j q e0 Hj Hnj Hno. destruct (Nat.eq_dec j (r_w s)) as [->|Hjw].
    + rewrite Hnth in Hnj. injection Hnj as <- <-. rewrite upd_same in Hno. contradiction.
    + rewrite nth_error_app1 in Hnj by lia. apply (i_com _ H j q e0); [lia|exact Hnj|].
      destruct (Nat.eq_dec q p) as [->|Hne]; [congruence|]. rewrite upd_other in Hno by exact Hne. exact Hno.
  - intros k Hk. apply (i_free _ H). intros i Hi. apply Hk. lia.
  - intros Hc'. destruct (i_cons _ H Hc') as [A B]. split; [lia|]. intros q Hq. unfold upd in Hq.
    destruct (Nat.eqb_spec q p) as [Eq|]; [|exact (B q Hq)]. assert (r_r s = r_w s) by congruence. lia.
  - intros q v g Hq. unfold upd in Hq. destruct (Nat.eqb_spec q p) as [Eq|]; [|exact (i_chk _ H _ _ _ Hq)]. subst c'. discriminate.
  - rewrite firstn_app_le by lia. apply H.
  - intros q. rewrite items_of_app, (i_ret _ H q). rewrite <- app_assoc. f_equal. unfold upd.
    destruct (Nat.eqb_spec q p) as [->|Hne].
    + assert (E1 : match r_prod s p with PClaimed v _ | PWriting v _ | PWritten v _ => [v] | _ => [] end = []) by
        (destruct (r_prod s p); try reflexivity; discriminate).
      rewrite E1. cbn [app]. transitivity (pending c'); [|reflexivity]. rewrite Hp. destruct e; cbn; [rewrite Nat.eqb_refl|]; reflexivity.
    + assert (E2 : items_of q [(p, e)] = []).
      { destruct e; cbn; [|reflexivity]. destruct (Nat.eqb_spec p q); [congruence|reflexivity]. }
      rewrite E2. apply app_nil_r.
Qed.

(** The consumer works in its slot. *)
Lemma cons_step s c' x' p e : Inv s -> markers (r_line s) <= 1 -> r_cons s <> CIdle -> c' <> CIdle ->
  nth_error (r_line s) (r_r s) = Some (p, e) -> cslot c' e x' ->
  Inv (mkRing (r_w s) (r_r s) (upd (r_slots s) (slot_of C (r_r s)) x') (r_prod s) c' (r_line s) (r_out s)
              (r_true s) (r_false s) (r_race s)).
Proof.
  intros H Hm Hc Hc' Hn Hs. destruct (i_cons _ H Hc) as [Hlt Hno].
  constructor; cbn; try apply H.
  - intros q j Hq. destruct (i_own _ H _ _ Hq) as (A & B & D). split; [exact A|]. split; [exact B|].
    rewrite upd_other; [exact D|]. intros E. assert (Ej : j = r_r s) by (apply (same_slot s); auto; lia). subst j. exact (Hno q Hq).
  - intros j q e0 Hj Hnj Hnoq. destruct (Nat.eqb_spec j (r_r s)) as [->|Hne].
    + rewrite Hn in Hnj. injection Hnj as <- <-. rewrite upd_same. exact Hs.
    + pose proof (i_com _ H j q e0 Hj Hnj Hnoq) as D. destruct (Nat.eqb_spec j (r_r s)); [contradiction|].
      rewrite upd_other; [exact D|]. intros E. assert (Ej : j = r_r s) by (apply (same_slot s); auto; lia). lia.
  - intros k Hk. rewrite upd_other; [exact (i_free _ H k Hk)|]. intros ->. apply (Hk (r_r s)); [lia|reflexivity].
  - intros _. auto.
Qed.

(** The consumer moves to the next place. *)
Lemma advance_step s p e d : Inv s -> markers (r_line s) <= 1 -> r_cons s <> CIdle ->
  nth_error (r_line s) (r_r s) = Some (p, e) -> d = delivers e ->
  sl_state (r_slots s (slot_of C (r_r s))) = Empty -> sl_busy (r_slots s (slot_of C (r_r s))) = false ->
  Inv (mkRing (r_w s) (r_r s + 1) (r_slots s) (r_prod s) CIdle (r_line s) (r_out s ++ [d])
              (r_true s) (r_false s) (r_race s)).
Proof.
  intros H Hm Hc Hn Hd Hst Hb. destruct (i_cons _ H Hc) as [Hlt Hno].
  constructor; cbn; try apply H.
  - lia.
  - pose proof (i_room _ H) as Hr. rewrite (skipn_nth _ _ _ Hn) in Hr. 
    change ((p, e) :: skipn (r_r s + 1) (r_line s)) with ([(p, e)] ++ skipn (r_r s + 1) (r_line s)) in Hr.
    rewrite markers_app in Hr. assert (markers [(p, e)] <= 1) by (unfold markers; cbn; destruct (is_item e); cbn; lia).
    fold (markers (skipn (r_r s + 1) (r_line s))). lia.
  - intros q j Hq. destruct (i_own _ H _ _ Hq) as (A & B & D). split; [|split; assumption].
    assert (j <> r_r s) by (intros ->; exact (Hno q Hq)). lia.
  - intros j q e0 Hj Hnj Hnoq. pose proof (i_com _ H j q e0 ltac:(lia) Hnj Hnoq) as D.
    destruct (Nat.eqb_spec j (r_r s)); [lia|]. destruct (Nat.eqb_spec j (r_r s + 1)); exact D.
  - intros k Hk. destruct (Nat.eq_dec (slot_of C (r_r s)) k) as [<-|Hne]; [auto|].
    apply (i_free _ H). intros i Hi. destruct (Nat.eq_dec i (r_r s)) as [->|]; [exact Hne|]. apply Hk. lia.
  - contradiction.
  - intros q v g Hq. pose proof (i_chk _ H _ _ _ Hq). lia.
  - rewrite (firstn_S_nth _ _ _ Hn), map_app, (i_out _ H). cbn. rewrite Hd. reflexivity.
Qed.

(** The consumer looks at its slot. *)
Lemma peek_step s c' : Inv s -> r_cons s = CIdle ->
  (sl_state (r_slots s (slot_of C (r_r s))) = Ready /\ c' = CReady \/
   sl_state (r_slots s (slot_of C (r_r s))) = Shut /\ c' = CShut) ->
  Inv (set_cons s c').
Proof.
  intros H Hc Hst.
  assert (Hlt : r_r s < r_w s).
  { pose proof (i_le _ H). destruct (Nat.eq_dec (r_r s) (r_w s)) as [E|]; [|lia]. exfalso.
    destruct (i_free _ H (slot_of C (r_r s))) as [A _]; [intros; lia|]. destruct Hst as [[B _]|[B _]]; congruence. }
  assert (Hno : forall p, owns (r_prod s p) <> Some (r_r s)).
  { intros p Hp. destruct (i_own _ H _ _ Hp) as (_ & _ & D & _). destruct Hst as [[B _]|[B _]]; congruence. }
  constructor; cbn; try apply H.
  - intros j q e Hj Hnj Hnoq. pose proof (i_com _ H j q e Hj Hnj Hnoq) as D. rewrite Hc in D.
    destruct (Nat.eqb_spec j (r_r s)) as [->|]; [|exact D]. cbn in D.
    destruct Hst as [[B ->]|[B ->]]; cbn.
    + split; [exact D|]. destruct e as [v|]; [eauto|]. destruct D as [D _]. congruence.
    + destruct e as [v|]; cbn in D; [destruct D as [D _]; congruence|]. destruct D. auto.
  - auto.
Qed.

Lemma cons_slot s : Inv s -> r_cons s <> CIdle -> exists p e, nth_error (r_line s) (r_r s) = Some (p, e) /\
  cslot (r_cons s) e (r_slots s (slot_of C (r_r s))).
Proof.
  intros H Hc. destruct (i_cons _ H Hc) as [Hlt Hno].
  destruct (nth_error (r_line s) (r_r s)) as [[p e]|] eqn:En.
  - exists p, e. split; [reflexivity|]. pose proof (i_com _ H (r_r s) p e ltac:(lia) En (Hno p)) as D.
    rewrite Nat.eqb_refl in D. exact D.
  - apply nth_error_None in En. rewrite (i_len _ H) in En. lia.
Qed.

Lemma Inv_step s e s' : Inv s -> rstep C s e = Some s' -> markers (r_line s') <= 1 -> Inv s'.
Proof.
  intros H Hst Hm. destruct e as [p v g|p g|p weak g|p|p|p|p|p|stale| | | |]; cbn [rstep] in Hst.
  - (* EPush *) destruct (r_prod s p) eqn:Ep; try discriminate. destruct (Nat.leb g (r_w s)) eqn:Eg; [|discriminate].
    injection Hst as <-. apply pc_step; auto; [rewrite Ep; reflexivity|discriminate].
  - (* ECheck *) destruct (r_prod s p) as [|v w| | | | |] eqn:Ep; try discriminate.
    destruct (Nat.leb_spec g (r_r s)) as [Hg|]; [|discriminate].
    unfold full_check in Hst. destruct (Nat.leb_spec g w) as [Hgw|].
    + destruct (Nat.leb_spec C (w - g)) as [|Hroom]; injection Hst as <-.
      * apply pc_step; auto; [rewrite Ep; reflexivity|discriminate].
      * apply pc_step; auto; [rewrite Ep; reflexivity|]. intros ? ? [= <- <-]. lia.
    + injection Hst as <-. apply pc_step; auto; [rewrite Ep; reflexivity|discriminate].
  - (* ECas *) destruct (r_prod s p) as [| |v w| | | |] eqn:Ep; try discriminate.
    destruct (Nat.eqb_spec (r_w s) w) as [Ew|]; cbn [andb] in Hst.
    + destruct weak; cbn [negb] in Hst.
      * destruct (Nat.leb g (r_w s)); [|discriminate]. injection Hst as <-.
        apply pc_step; auto; [rewrite Ep; reflexivity|discriminate].
      * injection Hst as <-. subst w. apply claim_step; auto; [rewrite Ep; reflexivity| |].
        { intros x ? ?. split; assumption. }
        exact (i_chk _ H _ _ _ Ep).
    + destruct (Nat.leb g (r_w s)); [|discriminate]. injection Hst as <-.
      apply pc_step; auto; [rewrite Ep; reflexivity|discriminate].
  - (* EWriteBegin *) destruct (r_prod s p) as [| | |v i| | |] eqn:Ep; try discriminate. injection Hst as <-.
    assert (Ho : owns (r_prod s p) = Some i) by (rewrite Ep; reflexivity).
    destruct (i_own _ H _ _ Ho) as (_ & _ & Hsl). rewrite Ep in Hsl. destruct Hsl as [Hs1 Hs2].
    unfold set_prod, set_slot. cbn. rewrite Hs2, orb_false_r.
    apply own_slot_step; auto; try (rewrite Ep; reflexivity). split; [exact Hs1|reflexivity].
  - (* EWriteEnd *) destruct (r_prod s p) as [| | | |v i| |] eqn:Ep; try discriminate. injection Hst as <-.
    assert (Ho : owns (r_prod s p) = Some i) by (rewrite Ep; reflexivity).
    destruct (i_own _ H _ _ Ho) as (_ & _ & Hsl). rewrite Ep in Hsl. destruct Hsl as [Hs1 Hs2].
    unfold set_prod, set_slot. cbn. rewrite orb_false_r.
    apply own_slot_step; auto; try (rewrite Ep; reflexivity). split; [exact Hs1|split; reflexivity].
  - (* EReady *) destruct (r_prod s p) as [| | | | |v i|] eqn:Ep; try discriminate. injection Hst as <-.
    assert (Ho : owns (r_prod s p) = Some i) by (rewrite Ep; reflexivity).
    destruct (i_own _ H _ _ Ho) as (_ & _ & Hsl). rewrite Ep in Hsl. destruct Hsl as [Hs1 [Hs2 Hs3]].
    apply own_commit; auto.
    + rewrite Ep. cbn. auto.
    + rewrite filter_app, map_app, Ep. cbn. rewrite Nat.eqb_refl. reflexivity.
    + intros q Hq. rewrite filter_app. cbn. destruct (Nat.eqb_spec p q); [congruence|]. apply app_nil_r.
  - (* EShutdown *) destruct (r_prod s p) eqn:Ep; try discriminate. injection Hst as <-.
    apply claim_step; auto; [rewrite Ep; reflexivity|]. intros x ? ?. split; assumption.
  - (* EShutStore *) destruct (r_prod s p) as [| | | | | |i] eqn:Ep; try discriminate. injection Hst as <-.
    assert (Ho : owns (r_prod s p) = Some i) by (rewrite Ep; reflexivity).
    destruct (i_own _ H _ _ Ho) as (_ & _ & Hsl). rewrite Ep in Hsl. destruct Hsl as [Hs1 Hs2].
    unfold set_prod, set_slot. cbn. rewrite orb_false_r.
    apply own_commit; auto.
    + rewrite Ep. cbn. auto.
    + rewrite Ep. cbn. rewrite app_nil_r. reflexivity.
  - (* EPeek *) destruct (r_cons s) eqn:Ec; try discriminate. destruct stale; [injection Hst as <-; exact H|].
    destruct (sl_state (r_slots s (slot_of C (r_r s)))) eqn:Es; injection Hst as <-; [exact H| |]; apply peek_step; auto.
  - (* ETakeBegin *) destruct (r_cons s) eqn:Ec; try discriminate. injection Hst as <-.
    assert (Hc : r_cons s <> CIdle) by congruence. destruct (cons_slot s H Hc) as (p & e & Hn & Hsl). rewrite Ec in Hsl.
    destruct Hsl as [Hcm [v ->]]. cbn in Hcm. destruct Hcm as (A & B & D).
    unfold set_cons, set_slot. cbn. rewrite D, orb_false_r.
    apply (cons_step s CTaking _ p (Item v)); auto; [discriminate|]. exists v. cbn. auto.
  - (* ETakeEnd *) destruct (r_cons s) eqn:Ec; try discriminate. injection Hst as <-.
    assert (Hc : r_cons s <> CIdle) by congruence. destruct (cons_slot s H Hc) as (p & e & Hn & Hsl). rewrite Ec in Hsl.
    destruct Hsl as (v & -> & A & B & D).
    unfold set_cons, set_slot. cbn. rewrite orb_false_r.
    apply (cons_step s _ _ p (Item v)); auto; [discriminate|]. exists v. cbn. auto.
  - (* EEmpty *) destruct (r_cons s) eqn:Ec; try discriminate; injection Hst as <-;
    assert (Hc : r_cons s <> CIdle) by congruence; destruct (cons_slot s H Hc) as (p & e & Hn & Hsl); rewrite Ec in Hsl;
    unfold set_cons, set_slot; cbn; rewrite orb_false_r.
    + destruct Hsl as (v & -> & A & B & D).
      apply (cons_step s _ _ p (Item v)); auto; [discriminate|]. exists v. cbn. auto.
    + destruct Hsl as (-> & A & B).
      apply (cons_step s _ _ p Marker); auto; [discriminate|]. cbn. auto.
  - (* EAdvance *) destruct (r_cons s) eqn:Ec; try discriminate; injection Hst as <-;
    assert (Hc : r_cons s <> CIdle) by congruence; destruct (cons_slot s H Hc) as (p & e & Hn & Hsl); rewrite Ec in Hsl.
    + destruct Hsl as (v & -> & -> & B & D). apply (advance_step s p (Item v)); auto.
    + destruct Hsl as (-> & A & B). apply (advance_step s p Marker); auto.
Qed.

Lemma markers_step s e s' : rstep C s e = Some s' -> markers (r_line s') = markers (r_line s) + (if is_shutdown e then 1 else 0).
Proof.
  intros Hst. destruct e as [p v g|p g|p weak g|p|p|p|p|p|stale| | | |]; cbn [rstep is_shutdown] in *;
  try destruct (r_prod s p); try destruct (r_cons s); try discriminate;
  repeat match type of Hst with
  | (if ?b then _ else _) = _ => destruct b
  | match ?b with _ => _ end = _ => destruct b
  end; try discriminate; injection Hst as <-; cbn [r_line set_prod set_cons set_slot]; rewrite ?markers_app; try lia;
  change (markers [(p, Item v)]) with 0 || change (markers [(p, @Marker T)]) with 1; lia.
Qed.

Lemma Inv_run es : forall s s', Inv s -> rrun C s es = Some s' -> markers (r_line s) + shutdowns es <= 1 ->
  Inv s' /\ markers (r_line s') = markers (r_line s) + shutdowns es.
Proof.
  induction es as [|e es IH]; intros s s' H Hr Hm; cbn in Hr.
  - injection Hr as <-. cbn in *. split; [exact H|lia].
  - destruct (rstep C s e) as [s1|] eqn:Es; [|discriminate]. pose proof (markers_step _ _ _ Es) as Ems.
    unfold shutdowns in *. cbn [filter] in *.
    assert (L : markers (r_line s1) + List.length (filter is_shutdown es) <= 1) by (destruct (is_shutdown e); cbn in *; lia).
    destruct (IH s1 s') as [A B]; auto.
    + apply (Inv_step s e s1 H Es). lia.
    + split; [exact A|]. rewrite B. destruct (is_shutdown e); cbn in *; lia.
Qed.

Lemma reach_inv es s : rrun C ring_init es = Some s -> shutdowns es <= 1 -> Inv s.
Proof. intros Hr Hs. destruct (Inv_run es ring_init s Inv_init Hr) as [H _]; [cbn; lia|exact H]. Qed.

(** One full pop by an undisturbed consumer. *)
Definition pop_item : list (event T) := [EPeek false; ETakeBegin; ETakeEnd; EEmpty; EAdvance].
Definition pop_marker : list (event T) := [EPeek false; EEmpty; EAdvance].

Lemma rrun_app (es1 : list (event T)) : forall (s : ring T) es2, rrun C s (es1 ++ es2) = match rrun C s es1 with Some s' => rrun C s' es2 | None => None end.
Proof. induction es1 as [|e es1 IH]; intros s es2; cbn; [reflexivity|]. destruct (rstep C s e); [apply IH|reflexivity]. Qed.

(** An undisturbed pop delivers the head of the line once its producer has finished. *)
Lemma pop_head s p e : Inv s -> markers (r_line s) <= 1 -> r_cons s = CIdle ->
  nth_error (r_line s) (r_r s) = Some (p, e) -> r_r s < r_w s -> owns (r_prod s p) <> Some (r_r s) ->
  exists s', rrun C s (match e with Item _ => pop_item | Marker => pop_marker end) = Some s' /\
    r_out s' = r_out s ++ [delivers e] /\ r_r s' = r_r s + 1 /\ r_line s' = r_line s /\ r_w s' = r_w s /\
    r_prod s' = r_prod s /\ r_cons s' = CIdle.
Proof.
  intros H Hm Hc Hn Hlt Hno.
  pose proof (i_com _ H (r_r s) p e ltac:(lia) Hn Hno) as D. rewrite Nat.eqb_refl, Hc in D. cbn [cslot] in D.
  destruct e as [v|]; cbn [committed] in D.
  - destruct D as (A & B & E). unfold pop_item. cbn [rrun rstep]. rewrite Hc, A. cbn. rewrite !upd_same. cbn. rewrite B.
    eexists. split; [reflexivity|]. cbn. repeat split; reflexivity.
  - destruct D as (A & E). unfold pop_marker. cbn [rrun rstep]. rewrite Hc, A. cbn.
    eexists. split; [reflexivity|]. cbn. repeat split; reflexivity.
Qed.

Lemma drain_idle n : forall s, Inv s -> markers (r_line s) <= 1 -> r_cons s = CIdle ->
  (forall p, r_prod s p = PIdle) -> r_w s - r_r s = n ->
  exists es s', Forall consumer_event es /\
    rrun C s es = Some s' /\ r_line s' = r_line s /\ r_out s' = map (fun pe => delivers (snd pe)) (r_line s).
Proof.
  induction n as [|n IH]; intros s H Hm Hc Hp Hn.
  - exists [], s. split; [constructor|]. split; [reflexivity|]. split; [reflexivity|].
    rewrite (i_out _ H). rewrite firstn_all2; [reflexivity|]. rewrite (i_len _ H). lia.
  - assert (Hlt : r_r s < r_w s) by lia.
    destruct (nth_error (r_line s) (r_r s)) as [[p e]|] eqn:En.
    2: { apply nth_error_None in En. rewrite (i_len _ H) in En. lia. }
    assert (Hno : owns (r_prod s p) <> Some (r_r s)) by (rewrite Hp; discriminate).
    destruct (pop_head s p e H Hm Hc En Hlt Hno) as (s1 & R & O & Rr & L & W & P & Cc).
    set (es1 := match e with Item _ => pop_item | Marker => pop_marker end) in *.
    assert (Hsh : shutdowns es1 = 0) by (destruct e; reflexivity).
    destruct (Inv_run es1 s s1 H R) as [I1 M1]; [lia|].
    destruct (IH s1) as (es2 & s' & F & R2 & L2 & O2); auto.
    + rewrite L. exact Hm.
    + intros q. rewrite P. apply Hp.
    + lia.
    + exists (es1 ++ es2), s'. split; [|split; [|split]].
      * apply Forall_app. split; [|exact F]. destruct e; repeat constructor.
      * rewrite rrun_app, R. exact R2.
      * congruence.
      * congruence.
Qed.

End P.
