(** C49: a follower that carries out the journal row of a transaction gets the state the leader has. *)
From Verif Require Import Base Write_Spec Write_Model.
Local Open Scope N_scope.

Section props.
  Context (D : database).
  Lemma walk_done l : forall o s total done, Forall (eq Done) o ->
    exists o', Forall (eq Done) o' /\ walk D l o s total done = (replay D l s, total + all_rows D l s, done ++ l, Done, o').
  Proof.
    induction l as [|x l IH]; intros o s total done F; cbn [walk replay fold_left all_rows].
    - exists o. split; [exact F|]. rewrite N.add_0_r, app_nil_r. reflexivity.
    - destruct o as [|e o]; [|inversion F as [|? ? E F']; subst e].
      + destruct (IH [] (exec D x s) (total + rows D x s) (done ++ [x]) F) as (o' & A & ->). exists o'. split; [exact A|]. rewrite <- N.add_assoc, <- app_assoc. reflexivity.
      + destruct (IH o (exec D x s) (total + rows D x s) (done ++ [x]) F') as (o' & A & ->). exists o'. split; [exact A|]. rewrite <- N.add_assoc, <- app_assoc. reflexivity.
  Qed.
  Lemma tries_done n l k rest s total : (k <= n)%nat -> Forall (eq Done) rest -> l <> [] ->
    exists o', tries D n l (repeat Busy k ++ rest) s total = (replay D l s, total + all_rows D l s, l, Done, o').
  Proof.
    revert n. induction k as [|k IH]; intros n L F NE.
    - destruct (walk_done l rest s total [] F) as (o' & _ & E). exists o'. cbn [repeat app]. destruct n; cbn [tries]; rewrite E; reflexivity.
    - destruct n as [|n]; [lia|]. destruct l as [|x l]; [congruence|]. cbn [repeat app]. cbn [tries walk]. apply IH; [lia|exact F|exact NE].
  Qed.
  Lemma replay_app a b s : replay D (a ++ b) s = replay D b (replay D a s).
  Proof. apply fold_left_app. Qed.
  Lemma schema_up l : Forall (counts_changes D) l -> forall s, schema D s <= schema D (replay D l s).
  Proof.
    induction 1 as [|x l H _ IH]; intros s; [cbn; lia|]. cbn [replay fold_left]. specialize (IH (exec D x s)). unfold replay in IH. destruct (H s) as (A & _). lia.
  Qed.
  Lemma unchanged l : Forall (counts_changes D) l -> forall s, all_rows D l s = 0 -> schema D (replay D l s) <= schema D s -> replay D l s = s.
  Proof.
    induction 1 as [|x l H F IH]; intros s; [reflexivity|]. cbn [replay fold_left all_rows]. intros Z L. destruct (H s) as (A & B).
    pose proof (schema_up l F (exec D x s)) as U. unfold replay in U. fold (replay D l (exec D x s)) in *. assert (Q : exec D x s = s) by (apply B; lia). rewrite Q in *. apply IH; [lia|exact L].
  Qed.
  Lemma reported_lt a b : a / 2 ^ 32 = b / 2 ^ 32 -> (reported a < reported b <-> a < b).
  Proof.
    intros E. unfold reported. pose proof (N.div_mod a (2 ^ 32)) as A. pose proof (N.div_mod b (2 ^ 32)) as B. rewrite E in A.
    pose proof (N.mod_lt a (2 ^ 32)) as C. pose proof (N.mod_lt b (2 ^ 32)) as F.
    change (2 ^ 32) with 4294967296 in *. change (2 ^ 31) with 2147483648. change (2 ^ 64 - 4294967296) with 18446744069414584320.
    destruct (N.ltb_spec (a mod 4294967296) 2147483648); destruct (N.ltb_spec (b mod 4294967296) 2147483648); lia.
  Qed.
  (** A transaction whose writes are undisturbed, do not go through a rewrite, count what they change, and do not take the
      counter of changed rows of this handle past a multiple of 2^32. *)
  Fixpoint regular (l : list (a_write D)) (s : state D) (total : N) : Prop :=
    match l with
    | [] => True
    | w :: l => undisturbed w /\ Forall (counts_changes D) (w_stmts w) /\ total / 2 ^ 32 = (total + all_rows D (w_stmts w) s) / 2 ^ 32 /\
                regular l (replay D (w_stmts w) s) (total + all_rows D (w_stmts w) s)
    end.
  Lemma write_regular w s total kept : undisturbed w -> Forall (counts_changes D) (w_stmts w) -> total / 2 ^ 32 = (total + all_rows D (w_stmts w) s) / 2 ^ 32 ->
    exists b : bool, write D w (T s total kept) = (T (replay D (w_stmts w) s) (total + all_rows D (w_stmts w) s) (if b then kept ++ w_stmts w else kept), True_) /\
    (b = false -> replay D (w_stmts w) s = s /\ w_always w = false) /\ (b = true -> w_always w = true \/ schema D s < schema D (replay D (w_stmts w) s) \/ 0 < all_rows D (w_stmts w) s).
  Proof.
    intros (k & rest & O & K & F) C B. unfold write. cbn [t_state t_total t_kept]. rewrite O.
    assert (Q : exists o', SQuery D (w_stmts w) (repeat Busy k ++ rest) s total = (replay D (w_stmts w) s, total + all_rows D (w_stmts w) s, w_stmts w, Done, o')).
    { destruct (w_stmts w) as [|x l] eqn:E; [|apply tries_done; [lia|exact F|discriminate]]. cbn [all_rows]. rewrite N.add_0_r. exists (repeat Busy k ++ rest). reflexivity. }
    destruct Q as (o' & ->). cbn iota beta. eexists. split; [reflexivity|]. split.
    - intros X. apply orb_false_iff in X as [X Y]. apply orb_false_iff in X as [X Z]. apply N.ltb_ge in Y, Z. split; [|exact X]. apply unchanged; [exact C| |exact Z].
      pose proof (proj2 (reported_lt _ _ B)) as R. lia.
    - intros X. apply orb_true_iff in X as [X|X]; [apply orb_true_iff in X as [X|X]; [left; exact X|right; left; apply N.ltb_lt; exact X]|].
      right. right. apply N.ltb_lt in X. apply (reported_lt _ _ B) in X. lia.
  Qed.
  (** Every write of such a transaction succeeds, and a follower that starts from the same state and carries out what was kept
      for the journal ends in the state the leader is in. *)
  Theorem C49_replay : forall l s total, regular l s total ->
    let (t, results) := writes D l (T s total []) in
    Forall (eq True_) results /\ replay D (t_kept t) s = t_state t /\ t_state t = replay D (concat (map w_stmts l)) s.
  Proof.
    assert (A : forall l s total kept s0, regular l s total -> replay D kept s0 = s ->
      let (t, results) := writes D l (T s total kept) in
      Forall (eq True_) results /\ replay D (t_kept t) s0 = t_state t /\ t_state t = replay D (concat (map w_stmts l)) s).
    { induction l as [|w l IH]; intros s total kept s0 R K; cbn [writes].
      - split; [constructor|]. split; [exact K|reflexivity].
      - destruct R as (R1 & R2 & R3 & R4). destruct (write_regular w s total kept R1 R2 R3) as (b & E & B0 & _). rewrite E.
        specialize (IH _ _ (if b then kept ++ w_stmts w else kept) s0 R4).
        assert (K2 : replay D (if b then kept ++ w_stmts w else kept) s0 = replay D (w_stmts w) s).
        { destruct b; [rewrite replay_app, K; reflexivity|]. destruct (B0 eq_refl) as (-> & _). exact K. }
        specialize (IH K2). destruct (writes D l _) as [t rs]. destruct IH as (I1 & I2 & I3). split; [constructor; [reflexivity|exact I1]|]. split; [exact I2|].
        rewrite I3. cbn [map concat]. rewrite replay_app. reflexivity. }
    intros l s total R. apply A; [exact R|reflexivity].
  Qed.
  (** A write that changes nothing is not kept, unless it is to be kept always. *)
  Theorem C49_kept : forall w s total kept, undisturbed w -> Forall (counts_changes D) (w_stmts w) -> total / 2 ^ 32 = (total + all_rows D (w_stmts w) s) / 2 ^ 32 ->
    let t := fst (write D w (T s total kept)) in
    (t_kept t = kept ++ w_stmts w \/ t_kept t = kept /\ t_state t = s /\ w_always w = false) /\
    (w_always w = false -> schema D (t_state t) = schema D s -> all_rows D (w_stmts w) s = 0 -> t_kept t = kept).
  Proof.
    intros w s total kept U C B. destruct (write_regular w s total kept U C B) as (b & E & B0 & B1). cbn zeta. rewrite E. cbn [fst t_kept t_state]. split.
    - destruct b; [left; reflexivity|right]. destruct (B0 eq_refl). auto.
    - intros A S Z. destruct b; [|reflexivity]. destruct (B1 eq_refl) as [X|[X|X]]; [congruence|lia|lia].
  Qed.
End props.
Print Assumptions C49_replay.
Print Assumptions C49_kept.

(** ** A database to show it on: its state is the list of rows of a table and a number (PRAGMA user_version). *)
Inductive demo := Insert (x : N) | DeleteAll | UserVersion (n : N) | Select.
Definition tables : database := Database (list N * N) demo
  (fun x s => match x with Insert v => (fst s ++ [v], snd s) | DeleteAll => ([], snd s) | UserVersion n => (fst s, n) | Select => s end)
  (fun x s => match x with Insert _ => 1 | DeleteAll => N.of_nat (List.length (fst s)) | _ => 0 end)
  (fun _ => 1).
Example C49_counts : counts_changes tables (Insert 5) /\ counts_changes tables DeleteAll /\ counts_changes tables Select.
Proof.
  split; [|split]; intros s; cbn [exec rows schema tables]; (split; [lia|]); intros Z _; [discriminate| |reflexivity].
  destruct s as [[|? ?] n]; [reflexivity|]. cbn [fst List.length] in Z. lia.
Qed.
Definition one (l : list demo) (always : bool) (rewrite : option (list demo)) (o : list outcome) : a_write tables := @Write tables l always rewrite o.
Definition tx (s : list N * N) (total : N) (kept : list demo) : transaction tables := @T tables s total kept.
Definition ws : list (a_write tables) := [one [Insert 5; Insert 6] false None [Busy]; one [Select] false None []; one [DeleteAll; Insert 7] false None [Busy; Busy; Done]].
Example C49_case : regular tables ws ([], 0) 7 /\ fst (writes tables ws (tx ([], 0) 7 [])) = tx (([7], 0)) 12 [Insert 5; Insert 6; DeleteAll; Insert 7].
Proof.
  split; [|reflexivity]. destruct C49_counts as (C1 & C2 & C3).
  assert (CI : forall n, counts_changes tables (Insert n)) by (intros n s; cbn [exec rows schema tables]; split; [lia|discriminate]).
  split; [exists 1%nat, []; repeat split; [lia|constructor]|]. split; [repeat (apply Forall_cons; [apply CI|]); apply Forall_nil|]. split; [reflexivity|].
  split; [exists 0%nat, []; repeat split; [lia|constructor]|]. split; [apply Forall_cons; [exact C3|apply Forall_nil]|]. split; [reflexivity|].
  split; [exists 2%nat, [Done]; repeat split; [lia|repeat constructor]|]. split; [apply Forall_cons; [exact C2|apply Forall_cons; [apply CI|apply Forall_nil]]|]. split; reflexivity.
Qed.
(** When the database is busy after some statements of a write are done, all of them are done again: the leader has done the
    first twice, and the journal, which followers go by, has it once. *)
Theorem C49_busy_refuted : let w := one [Insert 5; Insert 6] false None [Done; Busy] in
  write tables w (tx ([], 0) 0 []) = (tx (([5; 5; 6], 0)) 3 [Insert 5; Insert 6], True_) /\ replay tables [Insert 5; Insert 6] ([], 0) = ([5; 6], 0).
Proof. split; reflexivity. Qed.
Print Assumptions C49_busy_refuted.
(** A write that returns false may have done its first statements: they stay in the transaction, the journal does not have
    them, and a command that goes on and commits other changes leaves the followers without them. *)
Theorem C49_failed_refuted : let l := [one [Insert 5; Insert 6] false None [Done; Error]; one [Insert 7] false None []] in
  writes tables l (tx ([], 0) 0 []) = (tx (([5; 7], 0)) 2 [Insert 7], [False_; True_]) /\ replay tables [Insert 7] ([], 0) = ([7], 0).
Proof. split; reflexivity. Qed.
Print Assumptions C49_failed_refuted.
(** The counter of changed rows is an int that is compared as an unsigned number: the write that takes it past a multiple of
    2^32 looks as if it changed nothing, succeeds on the leader and is never sent to the followers. *)
Theorem C49_counter_refuted : let w := one [Insert 5] false None [] in
  write tables w (tx ([], 0) (2 ^ 32 - 1) []) = (tx (([5], 0)) (2 ^ 32) [], True_).
Proof. vm_compute. reflexivity. Qed.
Print Assumptions C49_counter_refuted.
(** A statement that changes the database without changing a row or the schema, such as PRAGMA user_version, is carried out on
    the leader and not sent to the followers. *)
Theorem C49_uncounted_refuted : let l := [one [UserVersion 3] false None []; one [Insert 7] false None []] in
  fst (writes tables l (tx ([], 0) 0 [])) = tx (([7], 3)) 1 [Insert 7] /\ replay tables [Insert 7] ([], 0) = ([7], 0).
Proof. split; reflexivity. Qed.
Print Assumptions C49_uncounted_refuted.
(** When a later statement of a write is rewritten, what the earlier ones did stays, and the journal has only the new text. *)
Theorem C49_rewrite_refuted : let w := one [Insert 5; Insert 6] false (Some [Insert 16]) [Done; Auth] in
  write tables w (tx ([], 0) 0 []) = (tx (([5; 16], 0)) 2 [Insert 16], True_).
Proof. reflexivity. Qed.
Print Assumptions C49_rewrite_refuted.
