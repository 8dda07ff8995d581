(** C76: rows of query results give the value of the column that is asked for, and values compare as what they are. *)
From Verif Require Import Base Text_Spec Text_Model Text_Proofs Text_Props Dec Table Forward_Model Schema_Model Timeout_Props Addr_Props Rows_Spec Rows_Model.
Open Scope nat_scope.

Section Props.
  Context {R : Type}.
  Variable real_text : R -> bytes.
  Variable close : R -> R -> bool.

  (** ** Values *)
  (** Values other than floating point numbers are equal exactly if they are the same. *)
  Theorem C76_equal : forall a b : value R, (forall r, a <> Real r) -> equal close a b = true <-> a = b.
  Proof.
    intros a b N. destruct a, b; cbn [equal]; try (split; [discriminate|congruence]).
    - split; reflexivity.
    - rewrite Z.eqb_eq. split; congruence.
    - destruct (N r eq_refl).
    - rewrite bytes_eqb_eq. split; congruence.
    - rewrite bytes_eqb_eq. split; congruence.
  Qed.
  (** A value is a text if that is what it is shown as: different integers are different texts. *)
  Theorem C76_text : forall (v : value R) s, is_text real_text v s = true <-> text real_text v = s.
  Proof. intros v s. apply bytes_eqb_eq. Qed.
  Theorem C76_integers : forall x y, (- 2 ^ 63 <= x < 2 ^ 63)%Z -> (- 2 ^ 63 <= y < 2 ^ 63)%Z ->
    text real_text (Int x) = text real_text (Int y) -> x = y.
  Proof. intros x y X Y E. cbn [text] in E. rewrite <- (toint_decZ x X), <- (toint_decZ y Y), E. reflexivity. Qed.
  (** A value is empty exactly if it is shown as nothing. *)
  Theorem C76_empty : (forall r, real_text r <> []) -> forall v : value R,
    (value_empty v = true <-> text real_text v = []) /\ (value_size real_text v = 0 <-> text real_text v = []).
  Proof.
    intros N v. split.
    - destruct v as [|z|r|[|c b]|[|c b]]; cbn [value_empty text]; try (split; [reflexivity|reflexivity]); try (split; discriminate).
      + split; [discriminate|]. intros E. destruct (decZ_nonempty z E).
      + split; [discriminate|]. intros E. destruct (N r E).
    - unfold value_size. destruct (text real_text v); cbn [length]; split; congruence || discriminate.
  Qed.

  (** ** Rows *)
  Lemma find_column_some hs : forall d c v, column hs d c v -> find_column real_text hs d c = Value (text real_text v).
  Proof.
    induction hs as [|n hs IH]; intros d c v [k [E [F L]]]; [destruct k; discriminate|].
    destruct d as [|w d]; [destruct k; discriminate|]. cbn [find_column]. destruct k as [|k].
    - cbn in E, F. injection E as ->. injection F as ->. rewrite bytes_eqb_refl. reflexivity.
    - destruct (bytes_eqb n c) eqn:Q.
      + apply bytes_eqb_eq in Q. subst n. destruct (L 0 ltac:(lia) eq_refl).
      + apply IH. exists k. split; [exact E|]. split; [exact F|]. intros j J. exact (L (S j) ltac:(lia)).
  Qed.
  Lemma find_column_none hs : forall (d : list (value R)) c, no_column hs d c -> find_column real_text hs d c = Thrown.
  Proof.
    induction hs as [|n hs IH]; intros d c N; [reflexivity|]. destruct d as [|w d]; [reflexivity|]. cbn [find_column].
    destruct (bytes_eqb n c) eqn:Q.
    - apply bytes_eqb_eq in Q. subst n. specialize (N 0 eq_refl). cbn in N. lia.
    - apply IH. intros k E. specialize (N (S k) E). cbn in N. lia.
  Qed.

  Lemma cstr_plain (b : bytes) : ~ In "000"%char b -> cstr b = b.
  Proof.
    induction b as [|c b IH]; intros N; [reflexivity|]. cbn [cstr]. destruct (Ascii.eqb_spec c NUL) as [->|D]; [destruct N; left; reflexivity|].
    f_equal. apply IH. intros I. apply N. right. exact I.
  Qed.
  Lemma kept_same (cs : list (value R)) : Forall no_nul cs -> map kept cs = cs.
  Proof. induction 1 as [|v cs N F IH]; [reflexivity|]. cbn [map]. rewrite IH. f_equal. destruct v; cbn [kept]; try reflexivity. rewrite cstr_plain; [reflexivity|exact N]. Qed.

  (** What a result has to do with its plain table *)
  Definition matches (i : nat) (r : option (result R)) (p : option (plain R)) : Prop :=
    match r, p with
    | None, None => True
    | Some r, Some p => headers r = names p /\ map data (rows r) = cells p /\ (named p = true -> Forall (fun w => owner w = Some i) (rows r))
    | _, _ => False
    end.
  Definition related (h : heap R) (p : nat -> option (plain R)) : Prop := forall i, matches i (h i) (p i).

  Lemma related_put h p i r q : related h p -> matches i r q -> related (put i r h) (put i q p).
  Proof. intros A M j. unfold put. destruct (Nat.eqb_spec j i) as [->|D]; [exact M|apply A]. Qed.
  Lemma statements i l : forall r, Forall (fun s : list bytes * list (list (value R)) => Forall (Forall no_nul) (snd s)) l ->
    let r' := fold_left (add_statement i) l r in
    headers r' = last (map fst l) (headers r) /\ map data (rows r') = map data (rows r) ++ concat (map snd l) /\
    (Forall (fun w => owner w = Some i) (rows r) -> Forall (fun w => owner w = Some i) (rows r')).
  Proof.
    induction l as [|[ns cs] l IH]; intros r F; [cbn; rewrite app_nil_r; auto|]. inversion F as [|x y F1 F2]; subst. cbn [fold_left].
    destruct (IH (add_statement i r (ns, cs)) F2) as [A [B C]]. cbn zeta. split; [|split].
    - rewrite A. cbn [add_statement headers fst map]. destruct l; [reflexivity|]. cbn [map last]. clear. revert p. induction l as [|q l IH]; intros p; [reflexivity|]. apply IH.
    - rewrite B. cbn [add_statement rows snd map concat]. rewrite map_app, map_map, <- app_assoc. f_equal. f_equal. cbn [data snd] in *.
      clear -F1. induction F1 as [|x y G F IH]; [reflexivity|]. cbn [map]. rewrite IH, kept_same by exact G. reflexivity.
    - intros O. apply C. cbn [add_statement rows]. apply Forall_app. split; [exact O|]. apply Forall_map, Forall_forall. intros. reflexivity.
  Qed.
  Lemma related_none h p i : related h p -> p i = None -> h i = None.
  Proof. intros A E. specialize (A i). rewrite E in A. destruct (h i); [contradiction|reflexivity]. Qed.
  Lemma related_some h p i : related h p -> p i <> None -> exists r t, h i = Some r /\ p i = Some t /\ headers r = names t /\ map data (rows r) = cells t /\
    (named t = true -> Forall (fun w => owner w = Some i) (rows r)).
  Proof. intros A E. specialize (A i). destruct (p i) as [t|]; [|contradiction]. destruct (h i) as [r|]; [|contradiction]. exists r, t. cbn in A. tauto. Qed.
  Lemma map_repeat_row n : map data (repeat (Row (R := R) None []) n) = repeat [] n.
  Proof. induction n as [|n IH]; [reflexivity|]. cbn [repeat map]. rewrite IH. reflexivity. Qed.
  Lemma related_step h p o : related h p -> fine p o -> exists h', step h o = Some h' /\ related h' (plain_step p o).
  Proof.
    intros A F. destruct o as [i|i l|i j|i j|i ns cs|i|i n|i]; cbn [fine step plain_step] in *.
    - rewrite (related_none h p i A F). eexists. split; [reflexivity|]. apply related_put; [exact A|]. cbn. repeat split. constructor.
    - destruct F as [F N]. destruct (related_some h p i A F) as (r & t & -> & _). eexists. split; [reflexivity|]. apply related_put; [exact A|].
      destruct (statements i l empty_result N) as [X [Y Z]]. cbn [matches headers rows empty_result names cells named]. split; [exact X|]. split; [exact Y|].
      intros _. apply Z. constructor.
    - destruct F as [F N]. destruct (related_some h p i A F) as (r & t & -> & -> & X & Y & Z). rewrite (related_none h p j A N). eexists. split; [reflexivity|].
      apply related_put; [exact A|]. cbn. repeat split; [exact X|exact Y|discriminate].
    - destruct F as [F N]. destruct (related_some h p i A F) as (r & t & -> & -> & X & Y & Z). destruct (related_some h p j A N) as (r2 & t2 & -> & _). eexists.
      split; [reflexivity|]. apply related_put; [exact A|]. cbn. split; [exact X|]. split; [rewrite map_map; exact Y|].
      intros _. apply Forall_map, Forall_forall. intros. reflexivity.
    - rewrite (related_none h p i A F). eexists. split; [reflexivity|]. apply related_put; [exact A|]. cbn. split; [reflexivity|].
      split; [rewrite map_map; cbn; apply map_id|discriminate].
    - destruct (related_some h p i A F) as (r & t & -> & _). eexists. split; [reflexivity|]. apply related_put; [exact A|]. cbn. repeat split. constructor.
    - destruct (related_some h p i A F) as (r & t & -> & -> & X & Y & Z). eexists. split; [reflexivity|]. apply related_put; [exact A|]. cbn.
      assert (LN : length (rows r) = length (cells t)) by (rewrite <- Y; symmetry; apply map_length).
      split; [exact X|]. split; [rewrite map_app, <- firstn_map, Y, map_repeat_row, LN; reflexivity|].
      intros E. apply Bool.andb_true_iff in E as [E1 E2]. apply Nat.leb_le in E2. replace (n - length (rows r)) with 0 by lia. cbn [repeat]. rewrite app_nil_r.
      specialize (Z E1). apply Forall_forall. intros w I. rewrite Forall_forall in Z. apply Z. rewrite <- (firstn_skipn n (rows r)). apply in_or_app. left. exact I.
    - destruct (related_some h p i A F) as (r & t & -> & _). eexists. split; [reflexivity|]. apply related_put; [exact A|]. exact I.
  Qed.
  Lemma related_run ops : forall h p, related h p -> fine_run p ops -> exists h', run h ops = Some h' /\ related h' (fold_left plain_step ops p).
  Proof.
    induction ops as [|o ops IH]; intros h p A F; [exists h; split; [reflexivity|exact A]|]. destruct F as [F1 F2]. cbn [run fold_left].
    destruct (related_step h p o A F1) as [h' [-> B]]. exact (IH h' _ B F2).
  Qed.

  (** Whatever a program does with its results, each gives the values that a plain table gives: by the number of the column always, by its name unless
      the result is a new copy or its rows were made without it. *)
  Theorem C76_rows : forall ops : list (op R), fine_run (fun _ => None) ops -> exists h, run (fun _ => None) ops = Some h /\
    forall i t, plain_run ops i = Some t ->
      (forall n, length (cells t) <= n -> forall c k, by_name real_text h i n c = Thrown /\ by_index real_text h i n k = Thrown) /\
      (forall n cs, nth_error (cells t) n = Some cs ->
        (forall k v, nth_error cs k = Some v -> by_index real_text h i n k = Value (text real_text v)) /\
        (forall k, length cs <= k -> by_index real_text h i n k = Thrown) /\
        (named t = true -> (forall c v, column (names t) cs c v -> by_name real_text h i n c = Value (text real_text v)) /\
                           (forall c, no_column (names t) cs c -> by_name real_text h i n c = Thrown))).
  Proof.
    intros ops F. assert (A0 : related (fun _ => None) (fun _ => None)) by (intros i; exact I).
    destruct (related_run ops _ _ A0 F) as [h [E A]]. exists h. split; [exact E|]. intros i t P.
    destruct (related_some h _ i A) as (r & t' & Er & Et & X & Y & Z); [unfold plain_run in P; congruence|]. unfold plain_run in P. rewrite P in Et. injection Et as <-.
    split.
    - intros n L c k. rewrite <- Y, map_length in L. apply nth_error_None in L. unfold by_name, by_index. rewrite Er, L. split; reflexivity.
    - intros n cs C. rewrite <- Y in C. rewrite nth_error_map in C. destruct (nth_error (rows r) n) as [w|] eqn:W; [|discriminate]. injection C as <-.
      split; [|split].
      + intros k v V. unfold by_index. rewrite Er, W, V. reflexivity.
      + intros k L. apply nth_error_None in L. unfold by_index. rewrite Er, W, L. reflexivity.
      + intros N. specialize (Z N). rewrite Forall_forall in Z. specialize (Z w (nth_error_In _ _ W)). unfold by_name. rewrite Er, W, Z, Er, X.
        split; [intros c v; apply find_column_some|intros c; apply find_column_none].
  Qed.
End Props.
Print Assumptions C76_equal.
Print Assumptions C76_text.
Print Assumptions C76_integers.
Print Assumptions C76_empty.
Print Assumptions C76_rows.

(** What the cache of queries does: a copy is kept while the result is gone, and is assigned to another result later. *)
Example C76_rows_met : let q := [([lit "a"; lit "b"], [[Int 1%Z; Text (lit "x")]; [Int 2%Z; Null]])] in
  let ops : list (op N) := [New 0; Query 0 q; Copy 0 9; Destroy 0; New 1; Assign 9 1] in
  fine_run (fun _ => None) ops /\ plain_run ops 1 = Some (Plain N [lit "a"; lit "b"] [[Int 1%Z; Text (lit "x")]; [Int 2%Z; Null]] true) /\
  exists h, run (fun _ => None) ops = Some h /\ by_name dec h 1 0 (lit "b") = Value (lit "x").
Proof.
  cbn zeta. split; [|split; [reflexivity|eexists; split; reflexivity]].
  cbn. repeat split; try discriminate. repeat constructor; cbn; auto. intros [E|[]]. discriminate.
Qed.

(** A result made as a copy of another still looks for names in the other one: undefined when that is gone, and what the other one says if that
    was used for another query. *)
Theorem C76_copy_refuted : let q := [([lit "a"; lit "b"], [[Int 1%Z; Int 2%Z]])] in
  (exists h, run (R := N) (fun _ => None) [New 0; Query 0 q; Copy 0 1; Destroy 0] = Some h /\ by_name dec h 1 0 (lit "a") = Undefined) /\
  (exists h, run (R := N) (fun _ => None) [New 0; Query 0 q; Copy 0 1; Query 0 [([lit "b"], [])]] = Some h /\ by_name dec h 1 0 (lit "b") = Value (lit "1") /\
             by_index dec h 1 0 1 = Value (lit "2")).
Proof. split; eexists; repeat split. Qed.
Print Assumptions C76_copy_refuted.

(** Rows made without a result, as the MySQL plugin makes them, have no names although the result has. *)
Theorem C76_made_refuted : exists h, run (R := N) (fun _ => None) [Make 0 [lit "version"] [[Text (lit "8")]]] = Some h /\ by_name dec h 0 0 (lit "version") = Thrown /\
  by_index dec h 0 0 0 = Value (lit "8").
Proof. eexists. repeat split. Qed.
Print Assumptions C76_made_refuted.

(** Of several statements in one query the names are those of the last, for the rows of all: a row of the first statement gives a value of its first
    column for a name it does not have. *)
Theorem C76_statements_refuted : exists h, run (R := N) (fun _ => None) [New 0; Query 0 [([lit "a"], [[Int 1%Z]]); ([lit "b"], [[Int 2%Z]])]] = Some h /\
  by_name dec h 0 0 (lit "b") = Value (lit "1") /\ by_name dec h 0 0 (lit "a") = Thrown.
Proof. eexists. repeat split. Qed.
Print Assumptions C76_statements_refuted.

(** A text in the database is read up to its first NUL; a blob is read as it is. *)
Theorem C76_nul_refuted : exists h, run (R := N) (fun _ => None) [New 0; Query 0 [([lit "a"; lit "b"], [[Text ["x"; "000"; "y"]%char; Blob ["x"; "000"; "y"]%char]])]] = Some h /\
  by_index dec h 0 0 0 = Value (lit "x") /\ by_index dec h 0 0 1 = Value ["x"; "000"; "y"]%char.
Proof. eexists. repeat split. Qed.
Print Assumptions C76_nul_refuted.

(** Two values that are equal to the same text need not be equal to each other: 1 and '1', NULL and the empty text. *)
Theorem C76_equality_refuted : forall close, is_text dec (Int 1%Z) (lit "1") = true /\ is_text dec (Text (lit "1")) (lit "1") = true /\
  equal close (Int 1%Z) (Text (lit "1")) = false /\ is_text dec Null [] = true /\ is_text dec (Text []) [] = true /\ equal (R := N) close Null (Text []) = false.
Proof. intros close. repeat split. Qed.
Print Assumptions C76_equality_refuted.
