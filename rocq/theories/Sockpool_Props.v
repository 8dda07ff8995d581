(** C58: connections between nodes are reused by one command at a time, for the right node, and no command gets another's answer. *)
From Verif Require Import Base Dec Text_Spec Text_Model Table Http_Spec Http_Model Http_Proofs Http_Props Sockpool_Spec Sockpool_Model Sockpool_Proofs.
From Coq Require Import Sorting.Sorted.
From Verif Require Conn_Props Messenger_Spec Messenger_Model.

(** Where a connection is. *)
Definition at_ (w : world) (i : nat) (p : place) : Prop :=
  match p with
  | InPool h => exists t, In (t, i) (p_items (w_pools w h))
  | InUse u => exists a h, w_users w u = Testing a h i \/ w_users w u = Using a h i \/ w_users w u = Done_with a h i
  | Closed => w_closed w i = true
  end.
Lemma at_loc loc w i p : placed loc w -> (at_ w i p <-> i < w_next w /\ loc i = p).
Proof.
  intros P. destruct p as [h|u|]; cbn [at_].
  - rewrite <- (pl_pool _ _ P h i). unfold ids. rewrite in_map_iff. split; [intros (t & T); exists (t, i); split; [reflexivity|exact T]|intros ([t j] & T & S); cbn [snd] in T; subst j; exists t; exact S].
  - rewrite <- (pl_user _ _ P u i). split.
    + intros (a & h & [E|[E|E]]); rewrite E; reflexivity.
    + destruct (w_users w u) as [|a h|a h j|a h|a h j|a h j]; cbn [holds]; try contradiction; intros <-; exists a, h; auto.
  - apply (pl_closed _ _ P).
Qed.

(** Whatever happens: each connection that was opened is at exactly one place - kept for one host, with one user, or closed -
    and is kept there once. *)
Theorem C58_one_place : forall l i, i < w_next (run l) -> exists p, at_ (run l) i p /\ forall q, at_ (run l) i q -> q = p.
Proof.
  intros l i L. destruct (placed_run l) as (loc & P). exists (loc i). split; [apply (at_loc loc); auto|]. intros q Q. apply (at_loc loc) in Q; [|exact P]. symmetry. apply Q.
Qed.
Theorem C58_once : forall l h, NoDup (map snd (p_items (w_pools (run l) h))).
Proof. intros l h. destruct (placed_run l) as (loc & P). apply (pl_nodup _ _ P h). Qed.
(** So two users never have the same connection, and what a user has is not kept for others and not closed. *)
Theorem C58_not_shared : forall l u v a h i b k, w_users (run l) u = Using a h i -> w_users (run l) v = Using b k i ->
  u = v /\ w_closed (run l) i = false /\ forall h', ~ at_ (run l) i (InPool h').
Proof.
  intros l u v a h i b k U V. destruct (placed_run l) as (loc & P).
  assert (A : i < w_next (run l) /\ loc i = InUse u) by (apply (pl_user _ _ P); rewrite U; reflexivity). assert (B : i < w_next (run l) /\ loc i = InUse v) by (apply (pl_user _ _ P); rewrite V; reflexivity).
  split; [destruct A, B; congruence|]. split.
  - destruct (w_closed (run l) i) eqn:C; [|reflexivity]. apply (pl_closed _ _ P) in C. destruct A, C; congruence.
  - intros h' X. apply (at_loc loc) in X; [|exact P]. destruct A, X; congruence.
Qed.
(** A connection that was closed stays so. *)
Lemma closed_step w e i : w_closed w i = true -> w_closed (step w e) i = true.
Proof.
  intros C. destruct e as [u a|u|u|u ok|u x bs ns|u keep|j n|j|h|h|h|d]; cbn [step].
  - unfold ask. destruct (w_users w u); try exact C. destruct (host_of a); [|exact C]. cbv zeta. destruct (p_made _); exact C.
  - unfold take. destruct (w_users w u); try exact C. cbv zeta. destruct (p_items _) as [|[? ?] ?]; exact C.
  - unfold test. destruct (w_users w u); try exact C. destruct (quiet _); [exact C|]. cbn. unfold put. destruct (Nat.eqb _ _); [reflexivity|exact C].
  - unfold open. destruct (w_users w u); try exact C. destruct ok; exact C.
  - unfold use. destruct (w_users w u); try exact C. cbv zeta. destruct (read_answer _ _ _) as [[? ?]|]; [exact C|]. cbn. unfold put. destruct (Nat.eqb _ _); [reflexivity|exact C].
  - unfold finish. destruct (w_users w u); try exact C. cbv zeta. destruct (keep && _); [exact C|]. cbn. unfold put. destruct (Nat.eqb _ _); [reflexivity|exact C].
  - exact C.
  - exact C.
  - unfold notify. destruct (p_due _); exact C.
  - exact C.
  - unfold clean. cbv zeta. destruct (p_made _); [|exact C]. destruct (p_thread _); try exact C. cbn [w_closed set_pool]. apply fold_close. right. exact C.
  - exact C.
Qed.
Theorem C58_closed : forall l m i, at_ (run l) i Closed -> at_ (run (l ++ m)) i Closed.
Proof.
  intros l m i. unfold run. rewrite fold_left_app. generalize (fold_left step l init). cbn [at_]. induction m as [|e m IH]; intros w C; [exact C|]. cbn [fold_left]. apply IH. apply closed_step. exact C.
Qed.

(** A command that goes to an address is sent on a connection to the host of that address: no other. *)
Theorem C58_host : forall l u a h i, w_users (run l) u = Using a h i -> host_of a = Some h /\ c_host (w_conns (run l) i) = h.
Proof. intros l u a h i U. destruct (all_run l) as (_ & H & _). pose proof (ho_user _ H u) as F. rewrite U in F. exact F. Qed.

(** As long as the other nodes answer each command with one legal message, every command that gets an answer gets its own: the
    one that was sent for it, on whatever connection, new or used, in whatever pieces it came, and whatever was done with the
    connection before. *)
Theorem C58_answers : forall gz l, Forall (answers (on_wire gz)) l -> Forall (fun e => arrives gz (fst e) (snd e)) (w_log (run l)).
Proof.
  intros gz l F. assert (F' : Forall (answers (sent gz)) l).
  { revert F. apply Forall_impl. intros e. destruct e; cbn [answers]; auto. apply on_wire_sent. }
  pose proof (an_log _ _ (answered_run gz l F')) as A. revert A. apply Forall_impl. intros [x r] (-> & L). apply got_arrives. exact L.
Qed.

(** The reading of an answer is that of C33: the pieces, given to the receiving loop there, have the same result. *)
Theorem C58_reading : forall ns acc coming r rest, read_answer acc ns coming = Some (r, rest) ->
  exists pieces, Forall (fun p => p <> []) pieces /\ concat pieces ++ rest = coming /\
    Messenger_Model.recv_loop acc (map Messenger_Spec.RGot pieces) = (Messenger_Model.Command true r, Messenger_Model.Returns true).
Proof.
  induction ns as [|n ns IH]; intros acc coming r rest; cbn [read_answer]; [discriminate|]. pose proof (firstn_skipn (S n) coming) as FS.
  destruct (firstn (S n) coming) as [|c b] eqn:F; [discriminate|]. rewrite <- F in *. assert (NE : firstn (S n) coming <> []) by congruence. destruct (SParseHTTP (acc ++ firstn (S n) coming)) as [|k m t y| |] eqn:E; try discriminate.
  - intros H. destruct (IH _ _ _ _ H) as (ps & A & B & C). exists (firstn (S n) coming :: ps). split; [constructor; assumption|]. split; [cbn [concat]; rewrite <- app_assoc, B; exact FS|].
    cbn [map Messenger_Model.recv_loop]. rewrite E. exact C.
  - intros H. injection H as <- <-. exists [firstn (S n) coming]. split; [repeat constructor; assumption|]. split; [cbn [concat]; rewrite app_nil_r; exact FS|]. cbn [map Messenger_Model.recv_loop]. rewrite E. reflexivity.
Qed.

(** A connection that was used before is handed out only when nothing is waiting on it and the other side has not closed it. *)
Theorem C58_tested : forall w u e a h i, w_users w u <> Using a h i -> w_users (step w e) u = Using a h i ->
  c_unread (w_conns (step w e) i) = [] /\ c_hup (w_conns (step w e) i) = false /\ (i < w_next w -> e = Test u /\ w_users w u = Testing a h i).
Proof.
  intros w u e a h i N.
  assert (PU : forall v p, w_users (set_user v p w) u = Using a h i -> v = u /\ p = Using a h i).
  { intros v p. cbn [w_users set_user]. unfold put. destruct (Nat.eqb_spec u v) as [->|M]; [auto|contradiction]. }
  assert (PW : forall v p, put (w_users w) v p u = Using a h i -> v = u /\ p = Using a h i) by (intros v p; apply (PU v p)).
  destruct e as [v b|v|v|v ok|v x bs ns|v keep|j n|j|k|k|k|d]; cbn [step]; try contradiction.
  - unfold ask. destruct (w_users w v); try contradiction. destruct (host_of b); [|contradiction]. cbv zeta. intros H. exfalso.
    assert (X : w_users (set_user v (Looking b b0) w) u = Using a h i) by (revert H; destruct (p_made _); auto). apply PU in X. destruct X; discriminate.
  - unfold take. destruct (w_users w v); try contradiction. cbv zeta. destruct (p_items _) as [|[? ?] ?]; intros H; exfalso; apply PW in H; destruct H; discriminate.
  - unfold test. destruct (w_users w v) as [| |b k j| | |] eqn:V; try contradiction. destruct (quiet (w_conns w j)) eqn:Q; intros H; apply PW in H; destruct H as [-> H]; [|discriminate]. injection H as -> -> ->.
    cbn [w_conns set_user]. unfold quiet in Q. destruct (c_unread (w_conns w i)); [|discriminate]. split; [reflexivity|]. split; [destruct (c_hup _); [discriminate|reflexivity]|]. intros _. split; [reflexivity|exact V].
  - unfold open. destruct (w_users w v) as [| | |b k| |] eqn:V; try contradiction. destruct ok; cbv zeta; intros H; apply PW in H; destruct H as [-> H]; [|discriminate]. injection H as -> -> <-.
    cbn [w_conns]. rewrite put_eq. split; [reflexivity|]. split; [reflexivity|]. lia.
  - unfold use. destruct (w_users w v); try contradiction. cbv zeta. destruct (read_answer _ _ _) as [[? ?]|]; intros H; exfalso; apply PW in H; destruct H; discriminate.
  - unfold finish. destruct (w_users w v); try contradiction. cbv zeta. destruct (keep && _); intros H; exfalso; apply PW in H; destruct H; discriminate.
  - unfold notify. destruct (p_due _); contradiction.
  - unfold clean. cbv zeta. destruct (p_made _); [|contradiction]. destruct (p_thread _); try contradiction. intros H. exfalso. cbn [w_users set_pool] in H.
    destruct (fold_close (expired (w_clock w) (p_items (w_pools w k))) w) as (_ & B & _). rewrite B in H. contradiction.
Qed.

Lemma made_stays w e h : p_made (w_pools w h) = true -> p_made (w_pools (step w e) h) = true.
Proof.
  intros C. assert (PP : forall k p, (k = h -> p_made p = true) -> p_made (putb (w_pools w) k p h) = true).
  { intros k p X. destruct (bytes_dec h k) as [->|N]; [rewrite putb_eq; auto|rewrite putb_neq by exact N; exact C]. }
  destruct e as [u a|u|u|u ok|u x bs ns|u keep|j n|j|k|k|k|d]; cbn [step]; try exact C.
  - unfold ask. destruct (w_users w u); try exact C. destruct (host_of a) as [b|]; [|exact C]. cbv zeta. cbn [w_pools set_user]. destruct (p_made (w_pools w b)); [exact C|]. apply PP. reflexivity.
  - unfold take. destruct (w_users w u); try exact C. cbv zeta. destruct (p_items _) as [|[? ?] ?]; [exact C|]. apply PP. intros ->. exact C.
  - unfold test. destruct (w_users w u); try exact C. destruct (quiet _); exact C.
  - unfold open. destruct (w_users w u); try exact C. destruct ok; exact C.
  - unfold use. destruct (w_users w u); try exact C. cbv zeta. destruct (read_answer _ _ _) as [[? ?]|]; exact C.
  - unfold finish. destruct (w_users w u); try exact C. cbv zeta. destruct (keep && _); [|exact C]. apply PP. reflexivity.
  - unfold notify. destruct (p_due _); [exact C|]. apply PP. intros ->. exact C.
  - unfold wake. apply PP. intros ->. exact C.
  - unfold clean. cbv zeta. destruct (p_made (w_pools w k)) eqn:M; [|exact C]. destruct (p_thread _); try exact C. cbn [w_pools set_pool].
    destruct (fold_close (expired (w_clock w) (p_items (w_pools w k))) w) as (A & _). rewrite A. apply PP. reflexivity.
Qed.
Lemma user_made_step w e : (forall u a h i, w_users w u = Looking a h \/ w_users w u = Testing a h i \/ w_users w u = Opening a h \/ w_users w u = Using a h i \/ w_users w u = Done_with a h i -> p_made (w_pools w h) = true) ->
  forall u a h i, w_users (step w e) u = Looking a h \/ w_users (step w e) u = Testing a h i \/ w_users (step w e) u = Opening a h \/ w_users (step w e) u = Using a h i \/ w_users (step w e) u = Done_with a h i -> p_made (w_pools (step w e) h) = true.
Proof.
  intros H.
  assert (G : forall u, match w_users w u with Idle => True | Looking _ h | Testing _ h _ | Opening _ h | Using _ h _ | Done_with _ h _ => p_made (w_pools w h) = true end).
  { intros u. destruct (w_users w u) as [|a h|a h i|a h|a h i|a h i] eqn:U; [exact I|apply (H u a h 0)|apply (H u a h i)|apply (H u a h 0)|apply (H u a h i)|apply (H u a h i)]; rewrite U; auto 6. }
  assert (G' : forall u, match w_users (step w e) u with Idle => True | Looking _ h | Testing _ h _ | Opening _ h | Using _ h _ | Done_with _ h _ => p_made (w_pools (step w e) h) = true end).
  2:{ intros u a h i U. specialize (G' u). destruct U as [U|[U|[U|[U|U]]]]; rewrite U in G'; exact G'. }
  clear H. intros u.
  assert (ST : w_users (step w e) u = w_users w u -> match w_users (step w e) u with Idle => True | Looking _ h | Testing _ h _ | Opening _ h | Using _ h _ | Done_with _ h _ => p_made (w_pools (step w e) h) = true end).
  { intros E. rewrite E. specialize (G u). destruct (w_users w u); auto; apply made_stays; exact G. }
  assert (MV : forall v p, w_users (step w e) u = put (w_users w) v p u -> (u = v -> match p with Idle => True | Looking _ h | Testing _ h _ | Opening _ h | Using _ h _ | Done_with _ h _ => p_made (w_pools (step w e) h) = true end) ->
    match w_users (step w e) u with Idle => True | Looking _ h | Testing _ h _ | Opening _ h | Using _ h _ | Done_with _ h _ => p_made (w_pools (step w e) h) = true end).
  { intros v p E X. unfold put in E. destruct (Nat.eqb_spec u v) as [->|N]; [rewrite E; apply X; reflexivity|apply ST; exact E]. }
  pose proof (fun h => made_stays w e h) as MS.
  destruct e as [v b|v|v|v ok|v x bs ns|v keep|j n|j|k|k|k|d]; try (apply ST; reflexivity).
  - cbn [step] in *. unfold ask in *. destruct (w_users w v) eqn:V; try (apply ST; reflexivity). destruct (host_of b) as [h|]; [|apply ST; reflexivity]. cbv zeta in *.
    apply (MV v (Looking b h)); [destruct (p_made _); reflexivity|]. intros _. destruct (p_made (w_pools w h)) eqn:M; [exact M|]. cbn [w_pools set_user set_pool]. rewrite putb_eq. reflexivity.
  - specialize (G v). cbn [step] in *. unfold take in *. destruct (w_users w v) as [|b h| | | |] eqn:V; try (apply ST; reflexivity). cbv zeta in *. destruct (p_items _) as [|[t i] r] eqn:I.
    + apply (MV v (Opening b h)); [reflexivity|]. intros _. apply MS. exact G.
    + apply (MV v (Testing b h i)); [reflexivity|]. intros _. apply MS. exact G.
  - specialize (G v). cbn [step] in *. unfold test in *. destruct (w_users w v) as [| |b h i| | |] eqn:V; try (apply ST; reflexivity). destruct (quiet _).
    + apply (MV v (Using b h i)); [reflexivity|]. intros _. apply MS. exact G.
    + apply (MV v (Looking b h)); [reflexivity|]. intros _. apply MS. exact G.
  - specialize (G v). cbn [step] in *. unfold open in *. destruct (w_users w v) as [| | |b h| |] eqn:V; try (apply ST; reflexivity). destruct ok.
    + apply (MV v (Using b h (w_next w))); [reflexivity|]. intros _. apply MS. exact G.
    + apply (MV v Idle); [reflexivity|]. auto.
  - specialize (G v). cbn [step] in *. unfold use in *. destruct (w_users w v) as [| | | |b h i|] eqn:V; try (apply ST; reflexivity). cbv zeta in *. destruct (read_answer _ _ _) as [[r rest]|].
    + apply (MV v (Done_with b h i)); [reflexivity|]. intros _. apply MS. exact G.
    + apply (MV v Idle); [reflexivity|]. auto.
  - cbn [step] in *. unfold finish in *. destruct (w_users w v) as [| | | | |b h i] eqn:V; try (apply ST; reflexivity). cbv zeta in *. apply (MV v Idle); [destruct (keep && _); reflexivity|]. auto.
  - apply ST. cbn [step]. unfold notify. destruct (p_due _); reflexivity.
  - apply ST. cbn [step]. unfold clean. cbv zeta. destruct (p_made _); [|reflexivity]. destruct (p_thread _); try reflexivity. cbn [w_users set_pool].
    destruct (fold_close (expired (w_clock w) (p_items (w_pools w k))) w) as (_ & B & _). rewrite B. reflexivity.
Qed.
Lemma user_made l u a h i : w_users (run l) u = Looking a h \/ w_users (run l) u = Testing a h i \/ w_users (run l) u = Opening a h \/ w_users (run l) u = Using a h i \/ w_users (run l) u = Done_with a h i ->
  p_made (w_pools (run l) h) = true.
Proof.
  revert u a h i. unfold run. assert (B : forall u a h i, w_users init u = Looking a h \/ w_users init u = Testing a h i \/ w_users init u = Opening a h \/ w_users init u = Using a h i \/ w_users init u = Done_with a h i -> p_made (w_pools init h) = true).
  { intros u a h i. cbn. intuition discriminate. }
  revert B. generalize init. induction l as [|e l IH]; intros w B; [exact B|]. cbn [fold_left]. apply IH. apply user_made_step. exact B.
Qed.
(** A connection that a user is done with and may keep is kept, behind the others; and the next who asks for the host gets the one
    that has been kept for the longest time, without opening another. *)
Theorem C58_kept : forall l u h i, w_users (run l) u = Done_with h h i -> let w := run (l ++ [Finish u true]) in
  p_items (w_pools w h) = p_items (w_pools (run l) h) ++ [(w_clock (run l), i)] /\ w_users w u = Idle.
Proof.
  intros l u h i U. assert (M : p_made (w_pools (run l) h) = true) by (apply (user_made l u h h i); rewrite U; auto 6).
  unfold run. rewrite fold_left_app. fold (run l). cbn [fold_left step]. cbv zeta. unfold finish. rewrite U, M. cbn [andb w_pools set_pool w_users set_user]. rewrite putb_eq, put_eq. split; reflexivity.
Qed.
Theorem C58_reused : forall l u a h t i r, w_users (run l) u = Idle -> host_of a = Some h -> p_items (w_pools (run l) h) = (t, i) :: r ->
  c_unread (w_conns (run l) i) = [] -> c_hup (w_conns (run l) i) = false ->
  let w := run (l ++ [Ask u a; Take u; Test u]) in w_users w u = Using a h i /\ p_items (w_pools w h) = r /\ w_next w = w_next (run l).
Proof.
  intros l u a h t i r U A I C1 C2. unfold run. rewrite fold_left_app. fold (run l). cbn [fold_left step]. cbv zeta. unfold ask. rewrite U, A. cbv zeta.
  set (w1 := set_user u (Looking a h) _). assert (U1 : w_users w1 u = Looking a h) by (unfold w1; cbn [w_users set_user]; apply put_eq).
  assert (I1 : p_items (w_pools w1 h) = (t, i) :: r) by (unfold w1; cbn [w_pools set_user]; destruct (p_made _); [exact I|]; cbn [w_pools set_pool]; rewrite putb_eq; exact I).
  assert (K1 : w_conns w1 = w_conns (run l) /\ w_next w1 = w_next (run l)) by (unfold w1; destruct (p_made _); split; reflexivity). destruct K1 as (K1 & K2). clearbody w1.
  unfold take. rewrite U1. cbv zeta. rewrite I1. unfold test. cbn [w_users set_user]. rewrite put_eq. cbn [w_conns set_user set_pool]. rewrite K1. unfold quiet. rewrite C1, C2. cbn [negb].
  cbn [w_users w_pools w_next set_user set_pool]. rewrite put_eq, putb_eq. split; [reflexivity|]. split; [reflexivity|exact K2].
Qed.

(** Connections that nobody uses are closed in time.  After the thread of a pool has run, no connection in it is older than the
    time limit; and unless it is about to run, none can be older: it has been notified, or it will wake up before any of them is. *)
Theorem C58_cleaned : forall l h t i, p_thread (w_pools (run l) h) = Runnable -> In (t, i) (p_items (w_pools (run (l ++ [Clean h])) h)) -> w_clock (run l) <= t + timeout.
Proof.
  intros l h t i R. unfold run. rewrite fold_left_app. fold (run l). cbn [fold_left step]. unfold clean. cbv zeta. rewrite R. destruct (all_run l) as (_ & H & T).
  destruct (p_made (w_pools (run l) h)) eqn:M.
  - cbn [w_pools set_pool]. rewrite putb_eq. cbn [p_items]. pose proof (ti_sorted _ T h) as S. unfold times in S. revert S. generalize (p_items (w_pools (run l) h)). generalize (w_clock (run l)). intros now q S.
    induction q as [|[t0 j] q IH]; cbn [fresh]; [intros []|]. cbn [map fst] in S. inversion S as [|? ? S1 S2]; subst. destruct (Nat.ltb_spec (t0 + timeout) now) as [L|L]; [apply IH; exact S1|].
    intros [E|X]; [injection E as -> ->; exact L|]. rewrite Forall_forall in S2. assert (t0 <= t) by (apply S2; apply (in_map fst) in X; exact X). lia.
  - intros X. apply (in_map snd) in X. destruct (ho_pool _ H h i X) as (Y & _). congruence.
Qed.
Theorem C58_watched : forall l h t i, In (t, i) (p_items (w_pools (run l) h)) ->
  p_due (w_pools (run l) h) <> 0 \/ p_thread (w_pools (run l) h) = Runnable \/ (exists t', p_thread (w_pools (run l) h) = Until t' /\ t' <= t + timeout).
Proof.
  intros l h t i X. destruct (all_run l) as (_ & _ & T). pose proof (ti_due _ T h) as D. pose proof (ti_sorted _ T h) as S. unfold times in S. unfold due in D.
  destruct (p_items (w_pools (run l) h)) as [|[t0 j] r]; [destruct X|]. destruct D as [D|[D|[D|(t' & D & L)]]]; [discriminate|auto|auto|]. right. right. exists t'. split; [exact D|].
  destruct X as [X|X]; [injection X as -> ->; exact L|]. cbn [map fst] in S. inversion S as [|? ? _ S2]; subst. rewrite Forall_forall in S2. assert (t0 <= t) by (apply S2; apply (in_map fst) in X; exact X). lia.
Qed.
(** And none is closed before its time: only a user takes it from the pool, or the thread when it is older than the limit. *)
Theorem C58_not_early : forall l e h t i, In (t, i) (p_items (w_pools (run l) h)) ->
  In (t, i) (p_items (w_pools (step (run l) e) h)) \/ (e = Clean h /\ t + timeout < w_clock (run l)) \/ (exists u a, e = Take u /\ w_users (step (run l) e) u = Testing a h i).
Proof.
  intros l e h t i. generalize (run l). clear l. intros w X.
  assert (PP : forall k p, (k = h -> In (t, i) (p_items p)) -> In (t, i) (p_items (putb (w_pools w) k p h))).
  { intros k p Y. destruct (bytes_dec h k) as [->|N]; [rewrite putb_eq; auto|rewrite putb_neq by exact N; exact X]. }
  destruct e as [u a|u|u|u ok|u x bs ns|u keep|j n|j|k|k|k|d]; cbn [step]; try (left; exact X).
  - left. unfold ask. destruct (w_users w u); try exact X. destruct (host_of a) as [b|]; [|exact X]. cbv zeta. cbn [w_pools set_user]. destruct (p_made (w_pools w b)); [exact X|]. apply PP. intros ->. exact X.
  - unfold take. destruct (w_users w u) as [|a k| | | |] eqn:U; try (left; exact X). cbv zeta. destruct (p_items (w_pools w k)) as [|[t0 j] r] eqn:I; [left; exact X|].
    destruct (bytes_dec h k) as [->|N]; [|left; cbn [w_pools set_user set_pool]; rewrite putb_neq by exact N; exact X]. rewrite I in X. destruct X as [E|X].
    + injection E as -> ->. right. right. exists u, a. split; [reflexivity|]. cbn [w_users set_user]. apply put_eq.
    + left. cbn [w_pools set_user set_pool]. rewrite putb_eq. exact X.
  - left. unfold test. destruct (w_users w u); try exact X. destruct (quiet _); exact X.
  - left. unfold open. destruct (w_users w u); try exact X. destruct ok; exact X.
  - left. unfold use. destruct (w_users w u); try exact X. cbv zeta. destruct (read_answer _ _ _) as [[? ?]|]; exact X.
  - left. unfold finish. destruct (w_users w u); try exact X. cbv zeta. destruct (keep && _); [|exact X]. apply PP. intros ->. cbn [p_items]. apply in_app_iff. left. exact X.
  - left. unfold notify. destruct (p_due _); [exact X|]. apply PP. intros ->. exact X.
  - left. unfold wake. apply PP. intros ->. exact X.
  - unfold clean. cbv zeta. destruct (p_made (w_pools w k)) eqn:M; [|left; exact X]. destruct (p_thread _); try (left; exact X). cbn [w_pools set_pool].
    destruct (fold_close (expired (w_clock w) (p_items (w_pools w k))) w) as (A & _). rewrite A. destruct (bytes_dec h k) as [->|N]; [|left; rewrite putb_neq by exact N; exact X].
    rewrite putb_eq. cbn [p_items]. rewrite <- (expired_fresh (w_clock w)) in X. apply in_app_iff in X. destruct X as [X|X]; [right; left|left; exact X]. split; [reflexivity|].
    revert X. generalize (p_items (w_pools w k)). intros q. induction q as [|[t0 j] q IH]; cbn [expired]; [intros []|]. destruct (Nat.ltb_spec (t0 + timeout) (w_clock w)) as [L|L]; [|intros []].
    intros [E|Y]; [injection E as -> ->; exact L|apply IH; exact Y].
Qed.
(** A closing that both ends spell the same way is agreed on: when the request or the answer says "close", the connection is not kept. *)
Theorem C58_close_agreed : forall request response, table_ok request -> tfind (lit "Connection") request = Some (lit "close") ->
  server_closes request = true /\ commandWillCloseSocket request (parrot request response) = true.
Proof. intros q r _ E. unfold server_closes, commandWillCloseSocket, says_close. rewrite E. split; reflexivity. Qed.
Print Assumptions C58_one_place.
Print Assumptions C58_once.
Print Assumptions C58_not_shared.
Print Assumptions C58_closed.
Print Assumptions C58_host.
Print Assumptions C58_answers.
Print Assumptions C58_reading.
Print Assumptions C58_tested.
Print Assumptions C58_kept.
Print Assumptions C58_reused.
Print Assumptions C58_cleaned.
Print Assumptions C58_watched.
Print Assumptions C58_not_early.
Print Assumptions C58_close_agreed.

(** * Cases *)
Definition node2 : bytes := lit "n2:8888".
Definition ping := Conn_Props.ping.
Definition wping := Conn_Props.wire ping.
Lemma wire_ping : on_wire no_gzip ping wping.
Proof. pose proof Conn_Props.wires as W. inversion W as [|? ? ? ? _ W2]; subst. inversion W2; subst. assumption. Qed.
(* one command; its connection is kept and used for a second; the thread closes it later *)
Definition story : list event :=
  [Ask 1 node2; Take 1; Open 1 true; Use 1 ping wping [9; 9; 99]; Clean node2; Tick 3; Finish 1 true; Notify node2; Clean node2;
   Tick 4; Arrive 0 1; Ask 2 node2; Take 2; Test 2; Use 2 ping wping [99]; Finish 2 true; Notify node2; Clean node2].
Example C58_case : Forall (answers (on_wire no_gzip)) story /\
  let w := run story in
  map (fun e => fst (fst (snd e))) (w_log w) = [lit "PING"; lit "PING"] /\ w_next w = 1 /\ p_items (w_pools w node2) = [(7, 0)] /\ p_thread (w_pools w node2) = Until 17 /\
  let w' := run (story ++ [Tick 11; Wake node2; Clean node2]) in p_items (w_pools w' node2) = [] /\ w_closed w' 0 = true /\ p_thread (w_pools w' node2) = Forever.
Proof.
  split.
  - repeat (apply Forall_cons; [try exact I; exact wire_ping|]). apply Forall_nil.
  - vm_compute. repeat split.
Qed.
(* hypotheses of the theorems on single steps *)
Example C58_case_states : w_users (run (firstn 6 story)) 1 = Done_with node2 node2 0 /\ w_users (run (firstn 14 story)) 2 = Using node2 node2 0 /\
  p_thread (w_pools (run story) node2) <> Runnable /\ p_thread (w_pools (run (story ++ [Tick 11; Wake node2])) node2) = Runnable /\
  host_of node2 = Some node2 /\ tfind (lit "Connection") [(lit "connection", lit "close")] = Some (lit "close").
Proof. vm_compute. repeat split. discriminate. Qed.

(** Refuted: connections to every address a command can be sent to are reused.  A connection is asked for with the host of the address, but
    given back with the whole address.  For an address with a slash, as "n2:8888/", there is no pool of that name: the connection
    is closed, and every command opens another. *)
Theorem C58_slash_refuted : ~ (forall l u a h i, w_users (run l) u = Done_with a h i -> at_ (run (l ++ [Finish u true])) i (InPool h)).
Proof.
  intros H. specialize (H [Ask 1 (lit "n2:8888/"); Take 1; Open 1 true; Use 1 ping wping [99]] 1 (lit "n2:8888/") node2 0).
  assert (E : w_users (run [Ask 1 (lit "n2:8888/"); Take 1; Open 1 true; Use 1 ping wping [99]]) 1 = Done_with (lit "n2:8888/") node2 0) by (vm_compute; reflexivity).
  specialize (H E). vm_compute in H. destruct H as (t & []).
Qed.
Print Assumptions C58_slash_refuted.

(** Refuted: a connection that the other node is about to close is not kept.  A client that writes "Connection: Close" - header values
    like this one are not sensitive to case - gets its command forwarded like that.  The node that runs it closes the connection behind its
    answer, because it compares without regard to case; but it only repeats the header in its answer when it is spelled "close", and the node
    that forwarded the command compares exactly too, and keeps the connection.  The next command can get it before the end of the
    connection is seen, is sent into it, and fails: 500 Internal Server Error for a command that had nothing to do with it. *)
Theorem C58_close_refuted :
  ~ (forall request response, table_ok request -> table_ok response -> server_closes request = true -> commandWillCloseSocket request (parrot request response) = true) /\
  exists l, Forall (answers (on_wire no_gzip)) l /\ w_users (run l) 1 = Done_with node2 node2 0 /\
    w_users (run (l ++ [Finish 1 true; Ask 2 node2; Take 2; Test 2; HangUp 0])) 2 = Using node2 node2 0.
Proof.
  split.
  - intros H. specialize (H [(lit "Connection", lit "Close")] [] ltac:(repeat constructor) ltac:(constructor) eq_refl). discriminate.
  - exists (firstn 4 story). split; [|split; vm_compute; reflexivity]. cbn [firstn story]. repeat (apply Forall_cons; [try exact I; exact wire_ping|]). apply Forall_nil.
Qed.
Print Assumptions C58_close_refuted.
