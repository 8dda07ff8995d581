(** Association-list maps keyed by a type with decidable equality.  Used to model
    std::map / std::unordered_map where only lookup matters.  No modelled code here. *)
From Verif Require Import Base.

Section AMap.
Context {K V : Type} (keq : K -> K -> bool).

Fixpoint aget (k : K) (m : list (K * V)) : option V :=
  match m with
  | [] => None
  | (k', v) :: m' => if keq k' k then Some v else aget k m'
  end.

(** Insert or overwrite. *)
Fixpoint aset (k : K) (v : V) (m : list (K * V)) : list (K * V) :=
  match m with
  | [] => [(k, v)]
  | (k', v') :: m' => if keq k' k then (k, v) :: m' else (k', v') :: aset k v m'
  end.

Fixpoint adel (k : K) (m : list (K * V)) : list (K * V) :=
  match m with
  | [] => []
  | (k', v') :: m' => if keq k' k then adel k m' else (k', v') :: adel k m'
  end.

Hypothesis keq_spec : forall a b, reflect (a = b) (keq a b).

Lemma aget_aset_same k v m : aget k (aset k v m) = Some v.
Proof.
  induction m as [|[k' v'] m IH]; cbn.
  - destruct (keq_spec k k); [reflexivity|congruence].
  - destruct (keq_spec k' k); cbn.
    + destruct (keq_spec k k); [reflexivity|congruence].
    + destruct (keq_spec k' k); [congruence|exact IH].
Qed.

Lemma aget_aset_other k k2 v m : k2 <> k -> aget k2 (aset k v m) = aget k2 m.
Proof.
  intros Hk. induction m as [|[k' v'] m IH]; cbn.
  - destruct (keq_spec k k2); [congruence|reflexivity].
  - destruct (keq_spec k' k) as [->|]; cbn.
    + destruct (keq_spec k k2); [congruence|reflexivity].
    + rewrite IH. reflexivity.
Qed.

Lemma aget_adel_same k m : aget k (adel k m) = None.
Proof.
  induction m as [|[k' v'] m IH]; cbn; [reflexivity|].
  destruct (keq_spec k' k); cbn; [exact IH|]. destruct (keq_spec k' k); [congruence|exact IH].
Qed.

Lemma aget_adel_other k k2 m : k2 <> k -> aget k2 (adel k m) = aget k2 m.
Proof.
  intros Hk. induction m as [|[k' v'] m IH]; cbn; [reflexivity|].
  destruct (keq_spec k' k) as [->|]; cbn; rewrite IH.
  - destruct (keq_spec k k2); [congruence|reflexivity].
  - reflexivity.
Qed.

Lemma aget_in k v m : aget k m = Some v -> In (k, v) m.
Proof.
  induction m as [|[k' v'] m IH]; cbn; [discriminate|].
  destruct (keq_spec k' k) as [->|]; [intros [= ->]; left; reflexivity|right; auto].
Qed.

Lemma aget_none k m : aget k m = None <-> ~ In k (map fst m).
Proof.
  induction m as [|[k' v'] m IH]; cbn; [intuition|].
  destruct (keq_spec k' k) as [->|]; [split; [discriminate|intros H; exfalso; apply H; auto]|].
  rewrite IH. intuition.
Qed.

Lemma in_aget k v m : NoDup (map fst m) -> In (k, v) m -> aget k m = Some v.
Proof.
  induction m as [|[k' v'] m IH]; cbn; intros Hn Hi; [easy|].
  inversion Hn; subst. destruct Hi as [[= -> ->]|Hi].
  - destruct (keq_spec k k); [reflexivity|congruence].
  - destruct (keq_spec k' k) as [->|]; [|auto].
    exfalso. apply H1. apply (in_map fst) in Hi. exact Hi.
Qed.

Lemma aset_keys k v m : forall x, In x (map fst (aset k v m)) <-> x = k \/ In x (map fst m).
Proof.
  intros x. induction m as [|[k' v'] m IH]; cbn; [intuition|].
  destruct (keq_spec k' k) as [->|]; cbn; [intuition|]. rewrite IH. intuition.
Qed.

Lemma aset_nodup k v m : NoDup (map fst m) -> NoDup (map fst (aset k v m)).
Proof.
  induction m as [|[k' v'] m IH]; cbn; intros Hn; [constructor; [easy|constructor]|].
  inversion Hn; subst. destruct (keq_spec k' k) as [->|]; cbn; [constructor; assumption|].
  constructor; [|auto]. rewrite aset_keys. intuition.
Qed.

Lemma adel_keys k m : forall x, In x (map fst (adel k m)) <-> x <> k /\ In x (map fst m).
Proof.
  intros x. induction m as [|[k' v'] m IH]; cbn; [intuition|].
  destruct (keq_spec k' k) as [->|]; cbn; rewrite IH; intuition; subst; congruence.
Qed.

Lemma adel_nodup k m : NoDup (map fst m) -> NoDup (map fst (adel k m)).
Proof.
  induction m as [|[k' v'] m IH]; cbn; intros Hn; [constructor|].
  inversion Hn; subst. destruct (keq_spec k' k) as [->|]; cbn; [auto|].
  constructor; [|auto]. rewrite adel_keys. intuition.
Qed.

Lemma adel_in k m k2 v : In (k2, v) (adel k m) <-> k2 <> k /\ In (k2, v) m.
Proof.
  induction m as [|[k' v'] m IH]; cbn; [intuition|].
  destruct (keq_spec k' k) as [->|]; cbn; rewrite IH; intuition; try congruence.
Qed.
End AMap.

Lemma bytes_eqb_spec a b : reflect (a = b) (bytes_eqb a b).
Proof. apply iff_reflect. symmetry. apply bytes_eqb_eq. Qed.
