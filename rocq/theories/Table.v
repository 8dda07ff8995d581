(** STable: std::map<string, SString, STableComp> (libstuff.h:154), ordered by
    lexicographical_compare on tolower of each character (libstuff.cpp:3686-3694), as a list of
    pairs in iteration order.  [tolower] is the C locale's. *)
From Verif Require Import Base Text_Spec Text_Model.
From Coq Require Import Sorted.

Definition stable := list (bytes * bytes).

Fixpoint lex (a b : bytes) : comparison :=
  match a, b with
  | [], [] => Eq
  | [], _ :: _ => Lt
  | _ :: _, [] => Gt
  | x :: a', y :: b' => match N.compare (bcode x) (bcode y) with Eq => lex a' b' | c => c end
  end.
(* STableComp, libstuff.cpp:3686-3694 *)
Definition kcmp (a b : bytes) : comparison := lex (map lower a) (map lower b).

(* m.find(k) *)
Fixpoint tfind (k : bytes) (m : stable) : option bytes :=
  match m with
  | [] => None
  | (k', v) :: m' => match kcmp k k' with Eq => Some v | _ => tfind k m' end
  end.
(* m[k] = v: an existing key keeps its spelling *)
Fixpoint tput (k v : bytes) (m : stable) : stable :=
  match m with
  | [] => [(k, v)]
  | (k', v') :: m' => match kcmp k k' with
                      | Lt => (k, v) :: m
                      | Eq => (k', v) :: m'
                      | Gt => (k', v') :: tput k v m'
                      end
  end.
(* m.erase(k) *)
Definition tdel (k : bytes) (m : stable) : stable :=
  filter (fun p => match kcmp k (fst p) with Eq => false | _ => true end) m.

(* what a std::map always satisfies *)
Definition klt (p q : bytes * bytes) : Prop := kcmp (fst p) (fst q) = Lt.
Definition table_ok (m : stable) : Prop := StronglySorted klt m.

(** ** Facts about the order *)
Lemma bcode_inj a b : bcode a = bcode b -> a = b.
Proof. unfold bcode. intros H. rewrite <- (ascii_N_embedding a), <- (ascii_N_embedding b), H. reflexivity. Qed.
Lemma lex_eq a b : lex a b = Eq <-> a = b.
Proof.
  revert b. induction a as [|x a IH]; destruct b as [|y b]; cbn [lex]; try (split; intros; congruence).
  destruct (N.compare_spec (bcode x) (bcode y)) as [H|H|H].
  - apply bcode_inj in H. subst y. rewrite IH. split; congruence.
  - split; intros E; [discriminate|]. injection E as -> ->. lia.
  - split; intros E; [discriminate|]. injection E as -> ->. lia.
Qed.
Lemma lex_flip a b : lex b a = CompOpp (lex a b).
Proof.
  revert b. induction a as [|x a IH]; destruct b as [|y b]; cbn [lex CompOpp]; auto.
  rewrite (N.compare_antisym (bcode x) (bcode y)). destruct (N.compare (bcode x) (bcode y)); cbn [CompOpp]; auto.
Qed.
Lemma lex_trans a b c : lex a b = Lt -> lex b c = Lt -> lex a c = Lt.
Proof.
  revert b c. induction a as [|x a IH]; destruct b as [|y b]; destruct c as [|z c]; cbn [lex]; auto; try discriminate.
  destruct (N.compare_spec (bcode x) (bcode y)); destruct (N.compare_spec (bcode y) (bcode z)); try discriminate; intros.
  - replace (bcode x ?= bcode z)%N with Eq by (symmetry; apply N.compare_eq_iff; congruence). eauto.
  - replace (bcode x ?= bcode z)%N with Lt by (symmetry; apply N.compare_lt_iff; lia). auto.
  - replace (bcode x ?= bcode z)%N with Lt by (symmetry; apply N.compare_lt_iff; lia). auto.
  - replace (bcode x ?= bcode z)%N with Lt by (symmetry; apply N.compare_lt_iff; lia). auto.
Qed.
Lemma kcmp_eq a b : kcmp a b = Eq <-> ieqb a b = true.
Proof. unfold kcmp, ieqb. rewrite lex_eq, bytes_eqb_eq. tauto. Qed.
Lemma kcmp_refl a : kcmp a a = Eq.
Proof. apply lex_eq. reflexivity. Qed.
Lemma kcmp_flip a b : kcmp b a = CompOpp (kcmp a b).
Proof. apply lex_flip. Qed.
Lemma kcmp_trans a b c : kcmp a b = Lt -> kcmp b c = Lt -> kcmp a c = Lt.
Proof. apply lex_trans. Qed.
Lemma kcmp_eq_l a b c : kcmp a b = Eq -> kcmp a c = kcmp b c.
Proof. unfold kcmp. rewrite lex_eq. intros ->. reflexivity. Qed.
Lemma kcmp_eq_r a b c : kcmp a b = Eq -> kcmp c a = kcmp c b.
Proof. unfold kcmp. rewrite lex_eq. intros ->. reflexivity. Qed.
Lemma kcmp_sym a b : kcmp a b = Eq -> kcmp b a = Eq.
Proof. rewrite (kcmp_flip a b). intros ->. reflexivity. Qed.
Lemma kcmp_gt a b : kcmp a b = Gt <-> kcmp b a = Lt.
Proof. rewrite (kcmp_flip b a). destruct (kcmp b a); cbn; split; congruence. Qed.

(** ** Facts about tables *)
Lemma tfind_tput k k2 v m : tfind k2 (tput k v m) = match kcmp k2 k with Eq => Some v | _ => tfind k2 m end.
Proof.
  induction m as [|[k' v'] m IH]; cbn [tput tfind]; [reflexivity|].
  destruct (kcmp k k') eqn:E; cbn [tfind].
  - rewrite (kcmp_eq_r _ _ k2 E). destruct (kcmp k2 k'); reflexivity.
  - reflexivity.
  - rewrite IH. destruct (kcmp k2 k') eqn:E2; auto.
    destruct (kcmp k2 k) eqn:E3; auto. exfalso. apply kcmp_sym in E3. rewrite (kcmp_eq_l _ _ k' E3) in E. congruence.
Qed.
Lemma tfind_cong a b m : kcmp a b = Eq -> tfind a m = tfind b m.
Proof.
  intros E. induction m as [|[k' v'] m IH]; cbn [tfind]; [reflexivity|]. rewrite (kcmp_eq_l _ _ k' E), IH. reflexivity.
Qed.
Lemma tput_forall k v m (P : bytes -> Prop) : P k -> Forall (fun p => P (fst p)) m -> Forall (fun p => P (fst p)) (tput k v m).
Proof.
  intros Hk. induction m as [|[k' v'] m IH]; cbn [tput]; intros H; [constructor; auto|].
  inversion H as [|? ? X Y]; subst. destruct (kcmp k k'); constructor; auto.
Qed.
Lemma tput_ok k v m : table_ok m -> table_ok (tput k v m).
Proof.
  unfold table_ok. induction m as [|[k' v'] m IH]; cbn [tput]; intros H; [constructor; constructor|].
  inversion H as [|? ? X Y]; subst. destruct (kcmp k k') eqn:E.
  - constructor; auto.
  - constructor; auto. constructor; auto. eapply Forall_impl; [|exact Y]. intros q Hq. unfold klt in *. cbn [fst] in *.
    eapply kcmp_trans; eauto.
  - constructor; auto. apply kcmp_gt in E.
    apply (tput_forall k v m (fun x => kcmp k' x = Lt)); auto.
Qed.
Lemma tput_last k v m : Forall (fun p => kcmp (fst p) k = Lt) m -> tput k v m = m ++ [(k, v)].
Proof.
  induction m as [|[k' v'] m IH]; cbn [tput app]; intros H; [reflexivity|].
  inversion H as [|? ? X Y]; subst. cbn [fst] in X. apply kcmp_gt in X. rewrite X, IH; auto.
Qed.
Lemma table_ok_app_l a b : table_ok (a ++ b) -> table_ok a.
Proof.
  unfold table_ok. induction a as [|p a IH]; cbn [app]; intros H; [constructor|]. inversion H as [|? ? X Y]; subst.
  constructor; auto. apply Forall_app in Y. tauto.
Qed.
Lemma table_ok_below a p b : table_ok (a ++ p :: b) -> Forall (fun q => kcmp (fst q) (fst p) = Lt) a.
Proof.
  unfold table_ok. induction a as [|q a IH]; cbn [app]; intros H; constructor; inversion H as [|? ? X Y]; subst; auto.
  rewrite Forall_forall in Y. apply (Y p). apply in_or_app. right. left. reflexivity.
Qed.
Lemma table_ok_filter f m : table_ok m -> table_ok (filter f m).
Proof.
  unfold table_ok. induction m as [|p m IH]; cbn [filter]; intros H; [constructor|]. inversion H as [|? ? X Y]; subst.
  destruct (f p); auto. constructor; auto. apply Forall_forall. intros q Hq. apply filter_In in Hq. rewrite Forall_forall in Y. apply Y. tauto.
Qed.
Lemma table_ok_map (g : bytes * bytes -> bytes * bytes) m : (forall p, fst (g p) = fst p) -> table_ok m -> table_ok (map g m).
Proof.
  intros Hg. unfold table_ok. induction m as [|p m IH]; cbn [map]; intros H; [constructor|]. inversion H as [|? ? X Y]; subst.
  constructor; auto. apply Forall_forall. intros q Hq. apply in_map_iff in Hq. destruct Hq as (r & <- & Hr).
  unfold klt. rewrite !Hg. rewrite Forall_forall in Y. apply (Y r Hr).
Qed.
(* inserting the entries of a table in iteration order rebuilds it *)
Lemma tput_all m acc : table_ok (acc ++ m) -> fold_left (fun t p => tput (fst p) (snd p) t) m acc = acc ++ m.
Proof.
  revert acc. induction m as [|[k v] m IH]; cbn [fold_left]; intros acc H; [rewrite app_nil_r; reflexivity|].
  cbn [fst snd]. rewrite tput_last by (exact (table_ok_below _ _ _ H)). rewrite IH; rewrite <- app_assoc; auto.
Qed.
Lemma tfind_in k v m : table_ok m -> In (k, v) m -> tfind k m = Some v.
Proof.
  unfold table_ok. induction m as [|[k' v'] m IH]; cbn [tfind In]; intros H Hin; [destruct Hin|].
  inversion H as [|? ? X Y]; subst. destruct Hin as [E|Hin].
  - injection E as -> ->. rewrite kcmp_refl. reflexivity.
  - rewrite Forall_forall in Y. specialize (Y _ Hin). unfold klt in Y. cbn [fst] in Y. apply kcmp_gt in Y. rewrite Y. auto.
Qed.
Lemma tfind_some k v m : tfind k m = Some v -> exists k', In (k', v) m /\ kcmp k k' = Eq.
Proof.
  induction m as [|[k' v'] m IH]; cbn [tfind]; [discriminate|].
  destruct (kcmp k k') eqn:E.
  - intros X. injection X as ->. exists k'. split; [left; reflexivity|auto].
  - intros X. destruct (IH X) as (q & Hq & Eq'). exists q. split; [right; auto|auto].
  - intros X. destruct (IH X) as (q & Hq & Eq'). exists q. split; [right; auto|auto].
Qed.
Lemma tfind_tdel k k2 m : tfind k2 (tdel k m) = match kcmp k2 k with Eq => None | _ => tfind k2 m end.
Proof.
  unfold tdel. induction m as [|[k' v'] m IH]; cbn [filter tfind fst]; [destruct (kcmp k2 k); reflexivity|].
  destruct (kcmp k k') eqn:E; cbn [tfind]; rewrite ?IH.
  - rewrite (kcmp_eq_r _ _ k2 E). destruct (kcmp k2 k'); reflexivity.
  - destruct (kcmp k2 k') eqn:E2; auto. destruct (kcmp k2 k) eqn:E3; auto. apply kcmp_sym in E3. rewrite (kcmp_eq_l _ _ k' E3) in E. congruence.
  - destruct (kcmp k2 k') eqn:E2; auto. destruct (kcmp k2 k) eqn:E3; auto. apply kcmp_sym in E3. rewrite (kcmp_eq_l _ _ k' E3) in E. congruence.
Qed.
Lemma tdel_ok k m : table_ok m -> table_ok (tdel k m).
Proof. apply table_ok_filter. Qed.
Lemma table_ok_sorted m : table_ok m <-> StronglySorted klt m. Proof. reflexivity. Qed.
