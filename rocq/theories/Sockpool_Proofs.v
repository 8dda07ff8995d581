(** Proofs for C58. *)
From Verif Require Import Base Dec Text_Spec Text_Model Table Http_Spec Http_Model Http_Proofs Conn_Proofs Sockpool_Spec Sockpool_Model.
From Coq Require Import Sorting.Sorted.

Lemma put_eq {A} f k (v : A) : put f k v k = v. Proof. unfold put. rewrite Nat.eqb_refl. reflexivity. Qed.
Lemma put_neq {A} f k (v : A) x : x <> k -> put f k v x = f x. Proof. intros H. unfold put. apply Nat.eqb_neq in H. rewrite H. reflexivity. Qed.
Lemma putb_eq {A} f k (v : A) : putb f k v k = v. Proof. unfold putb. rewrite (proj2 (bytes_eqb_eq k k) eq_refl). reflexivity. Qed.
Lemma putb_neq {A} f k (v : A) x : x <> k -> putb f k v x = f x.
Proof. intros H. unfold putb. destruct (bytes_eqb x k) eqn:E; [apply bytes_eqb_eq in E; congruence|reflexivity]. Qed.
Lemma bytes_dec (a b : bytes) : a = b \/ a <> b.
Proof. destruct (bytes_eqb a b) eqn:E; [left; apply bytes_eqb_eq; exact E|right]. intros X. apply bytes_eqb_eq in X. congruence. Qed.

(** ** Every connection is in one place *)
Definition ids (w : world) (h : bytes) : list nat := map snd (p_items (w_pools w h)).
Definition holds (p : phase) (i : nat) : Prop := match p with Testing _ _ j | Using _ _ j | Done_with _ _ j => i = j | _ => False end.
Record placed (loc : nat -> place) (w : world) : Prop := Placed {
  pl_nodup : forall h, NoDup (ids w h);
  pl_pool : forall h i, In i (ids w h) <-> i < w_next w /\ loc i = InPool h;
  pl_user : forall u i, holds (w_users w u) i <-> i < w_next w /\ loc i = InUse u;
  pl_closed : forall i, w_closed w i = true <-> i < w_next w /\ loc i = Closed }.

(* the same connections in the same places *)
Lemma placed_same loc w w' : (forall h, ids w' h = ids w h) -> (forall u i, holds (w_users w' u) i <-> holds (w_users w u) i) ->
  (forall i, w_closed w' i = w_closed w i) -> w_next w' = w_next w -> placed loc w -> placed loc w'.
Proof.
  intros A B C D [P1 P2 P3 P4]. split.
  - intros h. rewrite A. apply P1.
  - intros h i. rewrite A, D. apply P2.
  - intros u i. rewrite B, D. apply P3.
  - intros i. rewrite C, D. apply P4.
Qed.
Lemma ids_same_pool w h p : p_items p = p_items (w_pools w h) -> forall h', ids (set_pool h p w) h' = ids w h'.
Proof.
  intros E h'. unfold ids. cbn [w_pools set_pool]. destruct (bytes_dec h' h) as [->|N]; [rewrite putb_eq, E; reflexivity|rewrite putb_neq by exact N; reflexivity].
Qed.
Lemma user_same w u p : (forall i, holds p i <-> holds (w_users w u) i) -> forall u' i, holds (put (w_users w) u p u') i <-> holds (w_users w u') i.
Proof.
  intros E u' i. destruct (Nat.eq_dec u' u) as [->|N]; [rewrite put_eq; apply E|rewrite put_neq by exact N; reflexivity].
Qed.
(* a connection moves *)
Lemma moved loc w w' i pl : placed loc w -> i < w_next w -> w_next w' = w_next w ->
  (forall h, NoDup (ids w' h)) ->
  (forall h j, j <> i -> (In j (ids w' h) <-> In j (ids w h))) -> (forall h, In i (ids w' h) <-> pl = InPool h) ->
  (forall u j, j <> i -> (holds (w_users w' u) j <-> holds (w_users w u) j)) -> (forall u, holds (w_users w' u) i <-> pl = InUse u) ->
  (forall j, j <> i -> w_closed w' j = w_closed w j) -> (w_closed w' i = true <-> pl = Closed) ->
  placed (put loc i pl) w'.
Proof.
  intros [P1 P2 P3 P4] L N A B1 B2 C1 C2 D1 D2. split; [exact A| | |].
  - intros h j. rewrite N. destruct (Nat.eq_dec j i) as [->|K]; [rewrite put_eq, B2; intuition|rewrite put_neq, B1 by exact K; apply P2].
  - intros u j. rewrite N. destruct (Nat.eq_dec j i) as [->|K]; [rewrite put_eq, C2; intuition|rewrite put_neq, C1 by exact K; apply P3].
  - intros j. rewrite N. destruct (Nat.eq_dec j i) as [->|K]; [rewrite put_eq, D2; intuition|rewrite put_neq, D1 by exact K; apply P4].
Qed.

Lemma placed_ask loc u a w : placed loc w -> placed loc (ask u a w).
Proof.
  intros P. unfold ask. destruct (w_users w u) eqn:U; try exact P. destruct (host_of a) as [h|]; [|exact P]. cbv zeta.
  apply (placed_same loc w); try (destruct (p_made _); reflexivity); [| |exact P].
  - intros h'. destruct (p_made _); [reflexivity|]. apply (ids_same_pool w h). reflexivity.
  - intros u' i. transitivity (holds (put (w_users w) u (Looking a h) u') i); [destruct (p_made _); reflexivity|]. apply user_same. rewrite U. reflexivity.
Qed.
Lemma placed_take loc u w : placed loc w -> exists loc', placed loc' (take u w).
Proof.
  intros P. unfold take. destruct (w_users w u) as [|a h| | | |] eqn:U; try (exists loc; exact P). cbv zeta. destruct (p_items (w_pools w h)) as [|[t i] r] eqn:I.
  - exists loc. apply (placed_same loc w); try reflexivity; [|exact P]. intros u' j. refine (user_same w u _ _ u' j). rewrite U. reflexivity.
  - exists (put loc i (InUse u)). assert (IN : In i (ids w h)) by (unfold ids; rewrite I; left; reflexivity).
    pose proof (pl_nodup _ _ P h) as ND. unfold ids in ND. rewrite I in ND. cbn [map snd] in ND. inversion ND as [|? ? ND1 ND2]; subst.
    pose proof (proj1 (pl_pool _ _ P h i) IN) as (L & LI).
    assert (E : forall h', ids (set_user u (Testing a h i) (set_pool h (Pool (p_made (w_pools w h)) r (p_thread (w_pools w h)) (p_due (w_pools w h))) w)) h' = if bytes_eqb h' h then map snd r else ids w h').
    { intros h'. unfold ids. cbn [w_pools set_user set_pool]. unfold putb. destruct (bytes_eqb h' h); reflexivity. }
    apply (moved loc w); auto.
    + intros h'. rewrite E. destruct (bytes_eqb h' h); [exact ND2|apply (pl_nodup _ _ P)].
    + intros h' j K. rewrite E. destruct (bytes_eqb h' h) eqn:B; [|reflexivity]. apply bytes_eqb_eq in B. subst h'. unfold ids. rewrite I. cbn [map snd In]. intuition congruence.
    + intros h'. rewrite E. split; [|discriminate]. destruct (bytes_eqb h' h) eqn:B; [contradiction|]. intros X. apply (pl_pool _ _ P) in X. destruct X as (_ & X).
      rewrite LI in X. injection X as ->. rewrite (proj2 (bytes_eqb_eq h' h') eq_refl) in B. discriminate.
    + intros u' j K. cbn [w_users set_user]. destruct (Nat.eq_dec u' u) as [->|N]; [rewrite put_eq, U; cbn; intuition congruence|rewrite put_neq by exact N; reflexivity].
    + intros u'. cbn [w_users set_user]. destruct (Nat.eq_dec u' u) as [->|N]; [rewrite put_eq; cbn; intuition|rewrite put_neq by exact N].
      split; [intros X; apply (pl_user _ _ P) in X; destruct X; congruence|intros X; congruence].
    + cbn [w_closed set_user set_pool]. split; [intros X; apply (pl_closed _ _ P) in X; destruct X; congruence|discriminate].
Qed.
(* a user gives up its connection and it is closed *)
Lemma placed_drop loc u i p w : placed loc w -> holds (w_users w u) i -> (forall j, ~ holds p j) -> placed (put loc i Closed) (set_user u p (close i w)).
Proof.
  intros P H N. pose proof (proj1 (pl_user _ _ P u i) H) as (L & LI). apply (moved loc w); auto.
  - apply (pl_nodup _ _ P).
  - reflexivity.
  - intros h. split; [|discriminate]. intros X. apply (pl_pool _ _ P) in X. destruct X; congruence.
  - intros u' j K. cbn [w_users set_user]. destruct (Nat.eq_dec u' u) as [->|M]; [rewrite put_eq|rewrite put_neq by exact M; reflexivity].
    split; [intros X; destruct (N _ X)|]. intros X. exfalso. apply K. destruct (w_users w u); cbn in *; congruence || contradiction.
  - intros u'. split; [|discriminate]. cbn [w_users set_user]. destruct (Nat.eq_dec u' u) as [->|M]; [rewrite put_eq; intros X; destruct (N _ X)|rewrite put_neq by exact M].
    intros X. apply (pl_user _ _ P) in X. destruct X as (_ & X). rewrite LI in X. congruence.
  - intros j K. cbn [w_closed set_user close]. apply put_neq. exact K.
  - cbn [w_closed set_user close]. rewrite put_eq. intuition.
Qed.
Lemma placed_test loc u w : placed loc w -> exists loc', placed loc' (test u w).
Proof.
  intros P. unfold test. destruct (w_users w u) as [| |a h i| | |] eqn:U; try (exists loc; exact P). destruct (quiet _).
  - exists loc. apply (placed_same loc w); try reflexivity; [|exact P]. intros u' j. refine (user_same w u _ _ u' j). rewrite U. reflexivity.
  - exists (put loc i Closed). apply placed_drop; auto. rewrite U. reflexivity.
Qed.
Lemma placed_open loc u ok w : placed loc w -> exists loc', placed loc' (open u ok w).
Proof.
  intros P. unfold open. destruct (w_users w u) as [| | |a h| |] eqn:U; try (exists loc; exact P). destruct ok.
  2:{ exists loc. apply (placed_same loc w); try reflexivity; [|exact P]. intros u' j. refine (user_same w u _ _ u' j). rewrite U. reflexivity. }
  cbv zeta. set (i := w_next w). exists (put loc i (InUse u)).
  assert (A : forall h', ~ In i (ids w h')) by (intros h' X; apply (pl_pool _ _ P) in X; unfold i in X; lia).
  assert (B : forall u', ~ holds (w_users w u') i) by (intros u' X; apply (pl_user _ _ P) in X; unfold i in X; lia).
  assert (C : w_closed w i <> true) by (intros X; apply (pl_closed _ _ P) in X; unfold i in X; lia).
  split.
  - apply (pl_nodup _ _ P).
  - intros h' j. cbn [w_next]. change (ids _ h') with (ids w h'). destruct (Nat.eq_dec j i) as [->|K].
    + rewrite put_eq. split; [intros X; destruct (A _ X)|intros [_ X]; discriminate].
    + rewrite put_neq by exact K. rewrite (pl_pool _ _ P). fold i. intuition lia.
  - intros u' j. cbn [w_next w_users]. destruct (Nat.eq_dec j i) as [->|K].
    + rewrite put_eq. destruct (Nat.eq_dec u' u) as [->|M]; [rewrite put_eq; cbn; intuition|rewrite put_neq by exact M].
      split; [intros X; destruct (B _ X)|intros [_ X]; congruence].
    + rewrite (put_neq loc) by exact K. destruct (Nat.eq_dec u' u) as [->|M].
      * rewrite put_eq. cbn [holds]. split; [intros X; congruence|]. intros [X Y]. exfalso. assert (Z : holds (w_users w u) j) by (apply (pl_user _ _ P); split; [fold i; lia|exact Y]).
        rewrite U in Z. exact Z.
      * rewrite put_neq by exact M. rewrite (pl_user _ _ P). fold i. intuition lia.
  - intros j. cbn [w_next w_closed]. destruct (Nat.eq_dec j i) as [->|K].
    + rewrite put_eq. split; [intros X; destruct (C X)|intros [_ X]; discriminate].
    + rewrite put_neq by exact K. rewrite (pl_closed _ _ P). fold i. intuition lia.
Qed.
Lemma placed_use loc u x bs ns w : placed loc w -> exists loc', placed loc' (use u x bs ns w).
Proof.
  intros P. unfold use. destruct (w_users w u) as [| | | |a h i|] eqn:U; try (exists loc; exact P). cbv zeta. destruct (read_answer _ _ _) as [[r rest]|].
  - exists loc. apply (placed_same loc w); try reflexivity; [|exact P]. intros u' j. refine (user_same w u _ _ u' j). rewrite U. reflexivity.
  - exists (put loc i Closed). apply placed_drop; auto. rewrite U. reflexivity.
Qed.
Lemma placed_finish loc u keep w : placed loc w -> exists loc', placed loc' (finish u keep w).
Proof.
  intros P. unfold finish. destruct (w_users w u) as [| | | | |a h i] eqn:U; try (exists loc; exact P). cbv zeta.
  assert (H : holds (w_users w u) i) by (rewrite U; reflexivity). pose proof (proj1 (pl_user _ _ P u i) H) as (L & LI).
  destruct (keep && p_made (w_pools w a)).
  2:{ exists (put loc i Closed). apply (placed_drop loc u i Idle w P H). intros j []. }
  set (p := Pool _ _ _ _). exists (put loc i (InPool a)).
  assert (NI : forall h', ~ In i (ids w h')) by (intros h' X; apply (pl_pool _ _ P) in X; destruct X; congruence).
  assert (E : forall h', ids (set_pool a p (set_user u Idle w)) h' = if bytes_eqb h' a then ids w a ++ [i] else ids w h').
  { intros h'. unfold ids. cbn [w_pools set_user set_pool]. unfold putb. destruct (bytes_eqb h' a) eqn:B; [|reflexivity]. subst p. cbn [p_items]. rewrite map_app. reflexivity. }
  apply (moved loc w); auto.
  - intros h'. rewrite E. destruct (bytes_eqb h' a); [|apply (pl_nodup _ _ P)].
    apply (Permutation.Permutation_NoDup (l := i :: ids w a)); [apply Permutation.Permutation_cons_append|]. constructor; [apply NI|apply (pl_nodup _ _ P)].
  - intros h' j K. rewrite E. destruct (bytes_eqb h' a) eqn:B; [|reflexivity]. apply bytes_eqb_eq in B. subst h'. rewrite in_app_iff. cbn [In]. intuition congruence.
  - intros h'. rewrite E. destruct (bytes_eqb h' a) eqn:B.
    + apply bytes_eqb_eq in B. subst h'. rewrite in_app_iff. cbn [In]. intuition.
    + split; [intros X; destruct (NI _ X)|]. intros X. injection X as ->. rewrite (proj2 (bytes_eqb_eq h' h') eq_refl) in B. discriminate.
  - intros u' j K. cbn [w_users set_user set_pool]. destruct (Nat.eq_dec u' u) as [->|M]; [rewrite put_eq, U; cbn; intuition congruence|rewrite put_neq by exact M; reflexivity].
  - intros u'. split; [|discriminate]. cbn [w_users set_user set_pool]. destruct (Nat.eq_dec u' u) as [->|M]; [rewrite put_eq; intros []|rewrite put_neq by exact M].
    intros X. apply (pl_user _ _ P) in X. destruct X as (_ & X). rewrite LI in X. congruence.
  - split; [|discriminate]. intros X. apply (pl_closed _ _ P) in X. destruct X; congruence.
Qed.
Lemma expired_fresh now l : expired now l ++ fresh now l = l.
Proof. induction l as [|[t i] r IH]; [reflexivity|]. cbn [expired fresh]. destruct (Nat.ltb _ _); [cbn [app]; rewrite IH|]; reflexivity. Qed.
Lemma fold_close l : forall w, let w' := fold_left (fun w e => close (snd e) w) l w in
  w_pools w' = w_pools w /\ w_users w' = w_users w /\ w_conns w' = w_conns w /\ w_next w' = w_next w /\ w_clock w' = w_clock w /\ w_log w' = w_log w /\
  (forall i, w_closed w' i = true <-> In i (map (@snd nat nat) l) \/ w_closed w i = true).
Proof.
  induction l as [|[t j] l IH]; intros w; cbn [fold_left].
  - do 6 (split; [reflexivity|]). intros i. cbn. intuition.
  - destruct (IH (close j w)) as (A & B & C & D & E & F & G). cbv zeta. cbn [snd]. split; [exact A|]. split; [exact B|]. split; [exact C|]. split; [exact D|]. split; [exact E|]. split; [exact F|].
    intros i. rewrite G. cbn [map snd In w_closed close]. unfold put. destruct (Nat.eqb_spec i j) as [->|N]; intuition congruence.
Qed.
Lemma placed_clean loc h w : placed loc w -> exists loc', placed loc' (clean h w).
Proof.
  intros P. unfold clean. cbv zeta. destruct (p_made _); [|exists loc; exact P]. destruct (p_thread _); try (exists loc; exact P).
  set (l := p_items (w_pools w h)). pose proof (expired_fresh (w_clock w) l) as EF. set (ex := expired (w_clock w) l) in *. set (fr := fresh (w_clock w) l) in *.
  destruct (fold_close ex w) as (A & B & C & D & _ & _ & G). cbv zeta in *. set (w1 := fold_left _ ex w) in *. set (p := Pool _ _ _ _).
  exists (fun i => if existsb (Nat.eqb i) (map snd ex) then Closed else loc i).
  assert (I : ids w h = map snd ex ++ map snd fr) by (unfold ids; fold l; rewrite <- map_app, EF; reflexivity).
  pose proof (pl_nodup _ _ P h) as ND. rewrite I in ND.
  assert (X : forall i, existsb (Nat.eqb i) (map snd ex) = true <-> In i (map snd ex)).
  { intros i. rewrite existsb_exists. split; [intros (y & Y1 & Y2); apply Nat.eqb_eq in Y2; subst y; exact Y1|intros Y; exists i; split; [exact Y|apply Nat.eqb_refl]]. }
  assert (XL : forall i, In i (map snd ex) -> i < w_next w /\ loc i = InPool h) by (intros i Y; apply (pl_pool _ _ P); rewrite I, in_app_iff; left; exact Y).
  assert (E : forall h', ids (set_pool h p w1) h' = if bytes_eqb h' h then map snd fr else ids w h').
  { intros h'. unfold ids. cbn [w_pools set_pool]. unfold putb. rewrite A. destruct (bytes_eqb h' h); reflexivity. }
  split.
  - intros h'. rewrite E. destruct (bytes_eqb h' h); [|apply (pl_nodup _ _ P)]. clear -ND. induction (map snd ex) as [|a r IH]; [exact ND|]. inversion ND; auto.
  - intros h' i. rewrite E. cbn [w_next set_pool]. rewrite D. destruct (bytes_eqb h' h) eqn:BB.
    + apply bytes_eqb_eq in BB. subst h'. destruct (existsb (Nat.eqb i) (map snd ex)) eqn:EX.
      * split; [|intros [_ Y]; discriminate]. apply X in EX. intros Y. exfalso. clear -ND EX Y. induction (map snd ex) as [|a r IH]; [destruct EX|].
        cbn [app] in ND. inversion ND; subst. destruct EX as [->|EX]; [|auto]. match goal with Z : ~ In _ _ |- _ => apply Z end. apply in_app_iff. right. exact Y.
      * rewrite <- (pl_pool _ _ P h i), I, in_app_iff. split; [auto|]. intros [Y|Y]; [apply X in Y; congruence|exact Y].
    + destruct (existsb (Nat.eqb i) (map snd ex)) eqn:EX; [|apply (pl_pool _ _ P)]. apply X, XL in EX. destruct EX as (_ & EX). rewrite (pl_pool _ _ P h' i), EX.
      split; [intros [_ Y]; injection Y as ->; rewrite (proj2 (bytes_eqb_eq h' h') eq_refl) in BB; discriminate|intros [_ Y]; discriminate].
  - intros u i. cbn [w_users set_pool w_next]. rewrite B, D, (pl_user _ _ P u i). destruct (existsb (Nat.eqb i) (map snd ex)) eqn:EX; [|reflexivity].
    apply X, XL in EX. destruct EX as (_ & EX). rewrite EX. split; intros [_ Y]; discriminate.
  - intros i. cbn [w_closed set_pool w_next]. rewrite G, D, (pl_closed _ _ P i), <- X. destruct (existsb (Nat.eqb i) (map snd ex)) eqn:EX.
    + apply X, XL in EX. intuition.
    + intuition congruence.
Qed.
Lemma placed_step loc w e : placed loc w -> exists loc', placed loc' (step w e).
Proof.
  intros P. destruct e; cbn [step]; eauto using placed_ask, placed_take, placed_test, placed_open, placed_use, placed_finish, placed_clean.
  - exists loc. apply (placed_same loc w); try reflexivity. exact P.
  - exists loc. apply (placed_same loc w); try reflexivity. exact P.
  - exists loc. unfold notify. destruct (p_due _); [exact P|]. apply (placed_same loc w); try reflexivity; [|exact P]. intros h'. apply ids_same_pool. reflexivity.
  - exists loc. unfold wake. apply (placed_same loc w); try reflexivity; [|exact P]. intros h'. apply ids_same_pool. reflexivity.
  - exists loc. apply (placed_same loc w); try reflexivity. exact P.
Qed.
Lemma placed_run l : exists loc, placed loc (run l).
Proof.
  unfold run. assert (P : exists loc, placed loc init).
  { exists (fun _ => Closed). split; [constructor| | |]; cbn; intuition (lia || discriminate). }
  revert P. generalize init. induction l as [|e l IH]; intros w (loc & P); [exists loc; exact P|]. cbn [fold_left]. apply IH. eapply placed_step. exact P.
Qed.

(** ** Hosts *)
Lemma upto_idem c s : upto c (upto c s) = upto c s.
Proof. induction s as [|a s IH]; [reflexivity|]. cbn [upto]. destruct (Ascii.eqb a c) eqn:E; [reflexivity|]. cbn [upto]. rewrite E, IH. reflexivity. Qed.
Lemma host_host a h : host_of a = Some h -> host_of h = Some h.
Proof. unfold host_of. destruct (SHostIsValid (upto "/" a)) eqn:V; [|discriminate]. intros H. injection H as <-. rewrite upto_idem, V. reflexivity. Qed.
Definition fits (conns : nat -> conn) (p : phase) : Prop :=
  match p with
  | Idle => True
  | Looking a h | Opening a h => host_of a = Some h
  | Testing a h i | Using a h i | Done_with a h i => host_of a = Some h /\ c_host (conns i) = h
  end.
Record hosted (w : world) : Prop := Hosted {
  ho_made : forall h, p_made (w_pools w h) = true -> host_of h = Some h;
  ho_pool : forall h i, In i (ids w h) -> p_made (w_pools w h) = true /\ c_host (w_conns w i) = h;
  ho_user : forall u, fits (w_conns w) (w_users w u) }.
Lemma hosted_same w w' : (forall h, p_made (w_pools w' h) = p_made (w_pools w h)) -> (forall h i, In i (ids w' h) -> In i (ids w h)) ->
  (forall i, c_host (w_conns w' i) = c_host (w_conns w i)) -> (forall u, w_users w' u = w_users w u) -> hosted w -> hosted w'.
Proof.
  intros A B C D [H1 H2 H3]. split.
  - intros h. rewrite A. apply H1.
  - intros h i X. rewrite A, C. apply H2. apply B. exact X.
  - intros u. rewrite D. specialize (H3 u). destruct (w_users w u); cbn [fits] in *; rewrite ?C; exact H3.
Qed.
Lemma hosted_user w u p : hosted w -> fits (w_conns w) p -> hosted (set_user u p w).
Proof.
  intros [H1 H2 H3] F. split; [exact H1|exact H2|]. intros u'. cbn [w_users w_conns set_user]. destruct (Nat.eq_dec u' u) as [->|N]; [rewrite put_eq; exact F|rewrite put_neq by exact N; apply H3].
Qed.
Lemma hosted_close w i : hosted w -> hosted (close i w).
Proof. intros [H1 H2 H3]. split; assumption. Qed.
Lemma hosted_pool w h p : hosted w -> (p_made p = true -> host_of h = Some h) -> (forall i, In i (map snd (p_items p)) -> p_made p = true /\ c_host (w_conns w i) = h) -> hosted (set_pool h p w).
Proof.
  intros [H1 H2 H3] A B. split; [| |exact H3].
  - intros h'. cbn [w_pools set_pool]. destruct (bytes_dec h' h) as [->|N]; [rewrite putb_eq; exact A|rewrite putb_neq by exact N; apply H1].
  - intros h' i. unfold ids. cbn [w_pools set_pool w_conns]. destruct (bytes_dec h' h) as [->|N]; [rewrite putb_eq; apply B|rewrite putb_neq by exact N; apply H2].
Qed.
Lemma hosted_conn w i c : hosted w -> c_host c = c_host (w_conns w i) -> hosted (set_conn i c w).
Proof.
  intros H E. apply (hosted_same w); auto. intros j. cbn [w_conns set_conn]. destruct (Nat.eq_dec j i) as [->|N]; [rewrite put_eq; exact E|rewrite put_neq by exact N; reflexivity].
Qed.
Lemma hosted_step loc w e : placed loc w -> hosted w -> hosted (step w e).
Proof.
  intros P H. destruct e as [u a|u|u|u ok|u x bs ns|u keep|i n|i|h|h|h|d]; cbn [step].
  - unfold ask. destruct (w_users w u) eqn:U; try exact H. destruct (host_of a) as [h|] eqn:A; [|exact H]. cbv zeta. apply hosted_user; [|exact A].
    destruct (p_made (w_pools w h)) eqn:M; [exact H|]. apply hosted_pool; [exact H|intros _; apply (host_host a); exact A|]. intros i X. destruct (ho_pool _ H h i X) as (Y & Z). split; [reflexivity|exact Z].
  - unfold take. pose proof (ho_user _ H u) as F. destruct (w_users w u) as [|a h| | | |] eqn:U; try exact H. cbn [fits] in F. cbv zeta. destruct (p_items (w_pools w h)) as [|[t i] r] eqn:I.
    + apply hosted_user; [exact H|exact F].
    + assert (Q : forall j, In j (map snd ((t, i) :: r)) -> p_made (w_pools w h) = true /\ c_host (w_conns w j) = h) by (intros j X; apply (ho_pool _ H); unfold ids; rewrite I; exact X).
      apply hosted_user; [apply hosted_pool; [exact H|apply (ho_made _ H)|]|].
      * cbn [p_items p_made]. intros j X. apply Q. right. exact X.
      * cbn [fits w_conns set_pool]. split; [exact F|]. apply Q. left. reflexivity.
  - unfold test. pose proof (ho_user _ H u) as F. destruct (w_users w u) as [| |a h i| | |] eqn:U; try exact H. cbn [fits] in F. destruct (quiet _); apply hosted_user; auto; try apply hosted_close; auto. apply F.
  - unfold open. pose proof (ho_user _ H u) as F. destruct (w_users w u) as [| | |a h| |] eqn:U; try exact H. destruct ok; [|apply hosted_user; [exact H|exact I]]. cbn [fits] in F. cbv zeta. set (i := w_next w).
    split; [apply (ho_made _ H)| |].
    + intros h' j X. change (ids _ h') with (ids w h') in X. destruct (ho_pool _ H h' j X) as (Y & Z). split; [exact Y|]. cbn [w_conns]. rewrite put_neq; [exact Z|]. intros ->. apply (pl_pool _ _ P) in X. unfold i in X. lia.
    + intros u'. cbn [w_users w_conns]. destruct (Nat.eq_dec u' u) as [->|N]; [rewrite put_eq; cbn [fits]; rewrite put_eq; split; [exact F|reflexivity]|rewrite put_neq by exact N].
      pose proof (ho_user _ H u') as F'. pose proof (pl_user _ _ P u' i) as L. destruct (w_users w u') as [|a' h'|a' h' j|a' h'|a' h' j|a' h' j]; cbn [fits holds] in *; try exact F'.
      all: rewrite put_neq; [exact F'|]; intros ->; destruct L as [L _]; specialize (L eq_refl); unfold i in L; lia.
  - unfold use. pose proof (ho_user _ H u) as F. destruct (w_users w u) as [| | | |a h i|] eqn:U; try exact H. cbn [fits] in F. cbv zeta. destruct (read_answer _ _ _) as [[r rest]|].
    + apply hosted_user.
      * apply (hosted_same (set_conn i (Conn (c_host (w_conns w i)) [] rest (c_hup (w_conns w i))) w)); auto. apply hosted_conn; auto.
      * cbn [fits w_conns log set_conn]. rewrite put_eq. exact F.
    + apply hosted_user; [apply hosted_close; exact H|exact I].
  - unfold finish. pose proof (ho_user _ H u) as F. destruct (w_users w u) as [| | | | |a h i] eqn:U; try exact H. cbn [fits] in F. destruct F as (F1 & F2). cbv zeta. assert (H1 : hosted (set_user u Idle w)) by (apply hosted_user; [exact H|exact I]).
    destruct (keep && p_made (w_pools w a)) eqn:K; [|apply hosted_close; exact H1]. apply andb_true_iff in K. destruct K as (_ & K). pose proof (ho_made _ H a K) as HA. rewrite F1 in HA. injection HA as ->.
    apply hosted_pool; [exact H1|intros _; exact F1|]. cbn [p_items p_made]. intros j X. rewrite map_app, in_app_iff in X. split; [reflexivity|]. destruct X as [X|[<-|[]]]; [apply (ho_pool _ H _ _ X)|exact F2].
  - unfold arrive. apply hosted_conn; auto.
  - unfold hang_up. apply hosted_conn; auto.
  - unfold notify. destruct (p_due _); [exact H|]. apply hosted_pool; [exact H|apply (ho_made _ H)|apply (ho_pool _ H)].
  - unfold wake. apply hosted_pool; [exact H|apply (ho_made _ H)|apply (ho_pool _ H)].
  - unfold clean. cbv zeta. destruct (p_made (w_pools w h)) eqn:M; [|exact H]. destruct (p_thread _); try exact H. pose proof (expired_fresh (w_clock w) (p_items (w_pools w h))) as EF.
    set (ex := expired _ _) in *. set (fr := fresh _ _) in *. destruct (fold_close ex w) as (A & B & C & _). set (w1 := fold_left _ ex w) in *.
    apply hosted_pool; [apply (hosted_same w); auto; [intros h'; rewrite A; reflexivity|intros h' i; unfold ids; rewrite A; auto|intros i; rewrite C; reflexivity|intros u; rewrite B; reflexivity]|intros _; apply (ho_made _ H); exact M|].
    cbn [p_items p_made]. intros i X. split; [reflexivity|]. rewrite C. apply (ho_pool _ H). unfold ids. rewrite <- EF, map_app, in_app_iff. right. exact X.
  - apply (hosted_same w); auto.
Qed.
Lemma hosted_init : hosted init.
Proof. split; cbn; [discriminate|contradiction|exact (fun _ => I)]. Qed.

(** ** Answers *)
Lemma lead_suffix a b : lead (a ++ b) -> lead b.
Proof. intros [E|E]; [apply app_eq_nil in E; left; apply E|]. apply app_eq_unit in E. destruct E as [[_ ->]|[_ ->]]; [right|left]; reflexivity. Qed.
Lemma read_answer_spec gz x X : sent gz x X -> forall ns pre acc coming, lead pre -> acc ++ coming = pre ++ X ->
  match read_answer acc ns coming with Some (r, rest) => r = got gz x /\ lead rest | None => True end.
Proof.
  intros HX. induction ns as [|n ns IH]; intros pre acc coming HP E; cbn [read_answer]; [exact I|].
  pose proof (firstn_skipn (S n) coming) as FS. set (b := firstn (S n) coming) in *. set (r := skipn (S n) coming) in *. clearbody b r.
  assert (EQ : (acc ++ b) ++ r = pre ++ concat [X]) by (cbn [concat]; rewrite app_nil_r, <- app_assoc, FS; exact E).
  destruct (pop_spec gz [x] [X] pre (acc ++ b) r (Forall2_cons _ _ HX (Forall2_nil _)) HP EQ) as [(P1 & _)|(x0 & xs' & X0 & Xs' & m & pre' & E1 & E2 & P1 & HL & E3)].
  - destruct b as [|c b]; [exact I|]. rewrite P1. apply (IH pre); [exact HP|]. rewrite <- app_assoc, FS. exact E.
  - destruct b as [|c b]; [exact I|]. rewrite P1. injection E1 as <- <-. injection E2 as <- <-. split; [destruct (got gz x) as [[? ?] ?]; reflexivity|]. cbn [concat] in E3. rewrite app_nil_r in E3. apply (lead_suffix (skipn (S m) (acc ++ c :: b))). rewrite E3. exact HL.
Qed.
Record answered (gz : bytes -> bytes) (w : world) : Prop := Answered {
  an_left : forall i, lead (c_unread (w_conns w i) ++ c_flight (w_conns w i));
  an_log : Forall (fun e => snd e = got gz (fst e) /\ legal (fst e)) (w_log w) }.
Lemma answered_same gz w w' : w_conns w' = w_conns w -> w_log w' = w_log w -> answered gz w -> answered gz w'.
Proof. intros A B [H1 H2]. split; rewrite ?A, ?B; assumption. Qed.
Lemma answered_conn gz w i c : lead (c_unread c ++ c_flight c) -> answered gz w -> answered gz (set_conn i c w).
Proof.
  intros L [H1 H2]. split; [|exact H2]. intros j. cbn [w_conns set_conn]. destruct (Nat.eq_dec j i) as [->|N]; [rewrite put_eq; exact L|rewrite put_neq by exact N; apply H1].
Qed.
Lemma answered_step gz w e : answers (sent gz) e -> answered gz w -> answered gz (step w e).
Proof.
  intros HA H. destruct e as [u a|u|u|u ok|u x bs ns|u keep|i n|i|h|h|h|d]; cbn [step].
  - unfold ask. destruct (w_users w u); try exact H. destruct (host_of a) as [h|]; [|exact H]. cbv zeta. apply (answered_same gz w); auto; destruct (p_made _); reflexivity.
  - unfold take. destruct (w_users w u) as [|a h| | | |]; try exact H. cbv zeta. destruct (p_items (w_pools w h)) as [|[t i] r]; apply (answered_same gz w); auto.
  - unfold test. destruct (w_users w u) as [| |a h i| | |]; try exact H. destruct (quiet _); apply (answered_same gz w); auto.
  - unfold open. destruct (w_users w u) as [| | |a h| |]; try exact H. destruct ok; [|apply (answered_same gz w); auto]. cbv zeta.
    apply (answered_same gz (set_conn (w_next w) (Conn h [] [] false) w)); auto. apply answered_conn; [left; reflexivity|exact H].
  - unfold use. destruct (w_users w u) as [| | | |a h i|]; try exact H. cbv zeta. cbn [answers] in HA.
    pose proof (read_answer_spec gz x bs HA ns (c_unread (w_conns w i) ++ c_flight (w_conns w i)) [] (c_unread (w_conns w i) ++ c_flight (w_conns w i) ++ bs) (an_left _ _ H i)) as R. cbn [app] in R. rewrite app_assoc in R. specialize (R eq_refl).
    rewrite app_assoc. destruct (read_answer _ _ _) as [[r rest]|]; [|apply (answered_same gz w); auto]. destruct R as (R1 & R2).
    apply (answered_same gz (log (x, r) (set_conn i (Conn (c_host (w_conns w i)) [] rest (c_hup (w_conns w i))) w))); auto.
    pose proof (answered_conn gz w i (Conn (c_host (w_conns w i)) [] rest (c_hup (w_conns w i))) R2 H) as [K1 K2]. split; [exact K1|]. cbn [w_log log]. apply Forall_app. split; [exact K2|]. constructor; [|constructor]. cbn. split; [exact R1|apply HA].
  - unfold finish. destruct (w_users w u) as [| | | | |a h i]; try exact H. cbv zeta. destruct (keep && _); apply (answered_same gz w); auto.
  - unfold arrive. apply answered_conn; [|exact H]. cbn [c_unread c_flight]. rewrite <- app_assoc, firstn_skipn. apply (an_left _ _ H).
  - unfold hang_up. apply answered_conn; [|exact H]. apply (an_left _ _ H).
  - unfold notify. destruct (p_due _); [exact H|]. apply (answered_same gz w); auto.
  - apply (answered_same gz w); auto.
  - unfold clean. cbv zeta. destruct (p_made _); [|exact H]. destruct (p_thread _); try exact H. destruct (fold_close (expired (w_clock w) (p_items (w_pools w h))) w) as (_ & _ & C & _ & _ & L & _).
    apply (answered_same gz w); auto.
  - apply (answered_same gz w); auto.
Qed.
Lemma answered_init gz : answered gz init.
Proof. split; [intros i; left; reflexivity|constructor]. Qed.

(** ** Time *)
Definition due (p : pool) : Prop :=
  p_items p = [] \/ p_due p <> 0 \/ p_thread p = Runnable \/ exists t, p_thread p = Until t /\ match p_items p with (t0, _) :: _ => t <= t0 + timeout | [] => True end.
Definition times (p : pool) : list nat := map fst (p_items p).
Record timed (w : world) : Prop := Timed {
  ti_sorted : forall h, StronglySorted le (times (w_pools w h));
  ti_past : forall h, Forall (fun t => t <= w_clock w) (times (w_pools w h));
  ti_due : forall h, due (w_pools w h) }.
Lemma timed_same w w' : w_pools w' = w_pools w -> w_clock w' = w_clock w -> timed w -> timed w'.
Proof. intros A B [H1 H2 H3]. split; rewrite ?A, ?B; assumption. Qed.
Lemma timed_user w u p : timed w -> timed (set_user u p w). Proof. apply timed_same; reflexivity. Qed.
Lemma timed_pool w h p : timed w -> StronglySorted le (times p) -> Forall (fun t => t <= w_clock w) (times p) -> due p -> timed (set_pool h p w).
Proof.
  intros [H1 H2 H3] A B C. split; intros h'; cbn [w_pools set_pool w_clock]; (destruct (bytes_dec h' h) as [->|N]; [rewrite putb_eq; assumption|rewrite putb_neq by exact N; auto]).
Qed.
Lemma sorted_end (l : list nat) t : StronglySorted le l -> Forall (fun x => x <= t) l -> StronglySorted le (l ++ [t]).
Proof.
  induction 1 as [|a l S IH F]; intros B; [repeat constructor|]. inversion B; subst. cbn [app]. constructor; [apply IH; assumption|]. apply Forall_app. split; [exact F|]. constructor; [assumption|constructor].
Qed.
Lemma sorted_app (l r : list nat) : StronglySorted le (l ++ r) -> StronglySorted le r.
Proof. induction l as [|a l IH]; [auto|]. cbn [app]. intros H. inversion H; auto. Qed.
Lemma timed_step w e : timed w -> timed (step w e).
Proof.
  intros H. destruct e as [u a|u|u|u ok|u x bs ns|u keep|i n|i|h|h|h|d]; cbn [step].
  - unfold ask. destruct (w_users w u); try exact H. destruct (host_of a) as [h|]; [|exact H]. cbv zeta. destruct (p_made _); [apply (timed_same w); auto|].
    apply timed_user. apply timed_pool; [exact H|apply (ti_sorted _ H)|apply (ti_past _ H)|apply (ti_due _ H)].
  - unfold take. destruct (w_users w u) as [|a h| | | |]; try exact H. cbv zeta. pose proof (ti_sorted _ H h) as T1. pose proof (ti_past _ H h) as T2. pose proof (ti_due _ H h) as T3. unfold times in T1, T2.
    destruct (p_items (w_pools w h)) as [|[t i] r] eqn:I; [apply (timed_same w); auto|]. cbn [map fst] in T1, T2. inversion T1 as [|? ? T11 T12]; subst. inversion T2; subst.
    apply timed_user. apply timed_pool; [exact H|assumption|assumption|]. unfold due in *. rewrite I in T3. cbn [p_items p_due p_thread].
    destruct r as [|[t1 i1] r]; [left; reflexivity|right]. destruct T3 as [T3|[T3|[T3|(t2 & T3 & T4)]]]; [discriminate|left; exact T3|right; left; exact T3|right; right]. exists t2. split; [exact T3|].
    cbn [map fst] in T12. inversion T12; subst. lia.
  - unfold test. destruct (w_users w u) as [| |a h i| | |]; try exact H. destruct (quiet _); apply (timed_same w); auto.
  - unfold open. destruct (w_users w u) as [| | |a h| |]; try exact H. destruct ok; apply (timed_same w); auto.
  - unfold use. destruct (w_users w u) as [| | | |a h i|]; try exact H. cbv zeta. destruct (read_answer _ _ _) as [[r rest]|]; apply (timed_same w); auto.
  - unfold finish. destruct (w_users w u) as [| | | | |a h i]; try exact H. cbv zeta. destruct (keep && _); [|apply (timed_same w); auto].
    pose proof (ti_sorted _ H a) as T1. pose proof (ti_past _ H a) as T2. pose proof (ti_due _ H a) as T3.
    apply timed_pool; [apply (timed_same w); auto| | |]; unfold times in *; cbn [p_items].
    + rewrite map_app. apply sorted_end; assumption.
    + rewrite map_app. apply Forall_app. split; [exact T2|]. constructor; [apply Nat.le_refl|constructor].
    + unfold due in *. right. cbn [p_due p_items p_thread]. destruct (p_items (w_pools w a)) as [|[t j] r]; [left; discriminate|]. cbn [app]. destruct T3 as [T3|T3]; [discriminate|exact T3].
  - apply (timed_same w); auto.
  - apply (timed_same w); auto.
  - unfold notify. destruct (p_due _); [exact H|]. apply timed_pool; [exact H|apply (ti_sorted _ H)|apply (ti_past _ H)|]. right. right. left. reflexivity.
  - unfold wake. apply timed_pool; [exact H|apply (ti_sorted _ H)|apply (ti_past _ H)|]. right. right. left. reflexivity.
  - unfold clean. cbv zeta. destruct (p_made _); [|exact H]. destruct (p_thread _); try exact H. pose proof (ti_sorted _ H h) as T1. pose proof (ti_past _ H h) as T2. unfold times in *.
    pose proof (expired_fresh (w_clock w) (p_items (w_pools w h))) as EF. set (ex := expired _ _) in *. set (fr := fresh _ _) in *. destruct (fold_close ex w) as (A & _ & _ & _ & K & _). rewrite <- EF, map_app in T1, T2.
    apply timed_pool; [apply (timed_same w); auto| | |].
    + exact (sorted_app _ _ T1).
    + apply Forall_app in T2. rewrite K. apply T2.
    + unfold due. cbn [p_items p_thread p_due]. clearbody fr. destruct fr as [|[t i] fr]; [left; reflexivity|]. right. right. right. exists (t + timeout). split; [reflexivity|apply Nat.le_refl].
  - destruct H as [H1 H2 H3]. split; [exact H1| |exact H3]. intros h. cbn [w_clock tick]. specialize (H2 h). revert H2. apply Forall_impl. lia.
Qed.
Lemma timed_init : timed init.
Proof. split; intros h; [constructor|constructor|left; reflexivity]. Qed.

Lemma all_run l : (exists loc, placed loc (run l)) /\ hosted (run l) /\ timed (run l).
Proof.
  unfold run. assert (P : exists loc, placed loc init) by apply (placed_run []). pose proof hosted_init as HH. pose proof timed_init as HT. revert P HH HT. generalize init.
  induction l as [|e l IH]; intros w (loc & P) HH HT; [split; [exists loc; exact P|split; assumption]|]. cbn [fold_left]. apply IH; [eapply placed_step; exact P|eapply hosted_step; eassumption|apply timed_step; exact HT].
Qed.
Lemma answered_run gz l : Forall (answers (sent gz)) l -> answered gz (run l).
Proof.
  unfold run. pose proof (answered_init gz) as A. revert A. generalize init. induction l as [|e l IH]; intros w A F; [exact A|]. inversion F; subst. cbn [fold_left]. apply IH; [apply answered_step; assumption|assumption].
Qed.
