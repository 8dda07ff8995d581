(** C62: a server that is stopped or detached answers what it has accepted before it lets go of the database, and a server that is told to stop
    can always do so, unless it has been detached. *)
From Verif Require Import Base Life_Spec Life_Model.

Ltac fields := cbn [sd detach should plugs backup term other terms node pool command_ports control_port conns queued mpc spc
  set_sd set_detach set_should set_plugs set_backup set_signals set_node set_pool set_ports set_conns set_queued main_at sync_at running ctl at_ fst snd] in *.
Lemma Forall_replace {T} (P : T -> Prop) i x (l : list T) : Forall P l -> Forall P x -> Forall P (firstn i l ++ x ++ skipn (S i) l).
Proof.
  intros L X. apply Forall_app. split; [|apply Forall_app; split; [exact X|]].
  - rewrite <- (firstn_skipn i l) in L. apply Forall_app in L. apply L.
  - rewrite <- (firstn_skipn (S i) l) in L. apply Forall_app in L. apply L.
Qed.

(** ** Nothing is being run when the server has finished *)
(** Connections that can be there then: to the control port, and with nothing that needs the database. *)
Definition harmless (k : conn) : Prop :=
  ctl k = true /\ match at_ k with KMade Forget | KAdmitted | KAttach | KRun => False | KBegin B0 => True | KBegin _ => False | _ => True end.
Definition over (x : shutdown_state) : bool := match x with COMMANDS_FINISHED | DONE => true | _ => false end.
Definition deciding (m : main_pc) : bool := match m with MLock | MCount | MOut _ | MStore => true | _ => false end.
Record inv (s : server) : Prop := mkInv {
  i_ports : running (sd s) = false -> command_ports s = false;
  i_deciding : deciding (mpc s) = true -> over (sd s) = false /\ command_ports s = false;
  i_store : mpc s = MStore -> conns s = [];
  i_over : over (sd s) = true -> Forall harmless (conns s) /\ match mpc s with MBegin B1 | MBegin B2 | MBegin B3 => False | _ => True end;
  i_node : match spc s with
           | STop | SRunning | SPlugins | SWait | SReset | SOpen | SNode => node s = None
           | SLoop => node s = Some false \/ node s = Some true /\ sd s = COMMANDS_FINISHED
           | SDone => sd s = COMMANDS_FINISHED
           | SClear | SRelease | SFlag | SDecide => sd s = DONE
           | SReturned => True
           end;
  i_late : match spc s with SRelease | SFlag | SDecide => node s = None | _ => True end;
  i_queue : match spc s with SDone | SClear | SRelease | SFlag | SDecide => queued s = 0 | _ => True end }.
Lemma inv_start b : inv (start b).
Proof. constructor; cbn; try discriminate; auto. Qed.
Ltac use_all := repeat match goal with
  | H : ?a = ?a -> _ |- _ => specialize (H eq_refl)
  | H : _ /\ _ |- _ => destruct H
  | H : False |- _ => destruct H
  | H : match ?x with _ => _ end |- _ => is_var x; destruct x
  | H : running ?x = false -> _ |- _ => is_var x; destruct x; cbn [running] in *
  | H : over ?x = true -> _ |- _ => is_var x; destruct x; cbn [over] in *
  end; cbn [over running deciding] in *; subst; try discriminate; auto.
Ltac inv_by := constructor; fields; cbn [over running deciding] in *; intros; subst; try discriminate; auto; use_all; try tauto.
Lemma inv_sync d s : inv s -> inv (sync_step d s).
Proof.
  intros [P D S O N L Q]. unfold sync_step. destruct s as [x de sh pl ba te ot tn no po cp ct cs qu m p]. fields.
  destruct p; fields; subst.
  all: try (inv_by; fail).
  - destruct de; inv_by.
  - destruct de; inv_by.
  - destruct N as [->|[-> ->]]; fields; [destruct x; inv_by|]. destruct (d && _)%bool eqn:W; [|inv_by]. apply andb_prop in W as [_ W]. apply Nat.eqb_eq in W.
    unfold command_count in W. fields. inv_by; lia.
  - destruct de; inv_by.
Qed.
Lemma inv_main v r s : inv s -> inv (main_step v r s).
Proof.
  intros [P D S O N L Q]. unfold main_step. destruct s as [x de sh pl ba te ot tn no po cp ct cs qu m p]. fields.
  destruct m as [| | | |b| | | | |none| | | |]; fields.
  all: try (inv_by; fail).
  - destruct te; [destruct (Nat.leb 2 tn)|]; inv_by.
  - destruct (shutdownComplete _ || Nat.leb 2 tn)%bool; [|destruct (ba && isDetached _)%bool]; inv_by.
  - destruct (v && running x)%bool eqn:E; fields; [apply andb_prop in E as [_ E]; destruct x; try discriminate; destruct no; fields|]; destruct (te || ot)%bool; inv_by.
  - destruct b; cbn [begin_step]; fields.
    + destruct x; fields; inv_by.
    + inv_by.
    + inv_by.
    + destruct x; destruct p; inv_by; try (destruct N; use_all).
  - destruct (existsb holds cs); inv_by.
  - destruct cs; [destruct none|]; inv_by.
  - destruct p; inv_by.
Qed.
(** What a step of a connection changes for the others. *)
Lemma conn_effect c k h s s' n : conn_step c k h s = (s', n) ->
  node s' = node s /\ mpc s' = mpc s /\ spc s' = spc s /\ conns s' = conns s /\
  ((sd s' = sd s /\ command_ports s' = command_ports s) \/ k = KBegin B3 /\ sd s' = START_SHUTDOWN /\ command_ports s' = false).
Proof.
  intros E. destruct s as [x de sh pl ba te ot tn no po cp ct cs qu m p]. unfold conn_step in E. destruct k as [| |r|r| |b| | | |].
  - destruct (c && main_holds _)%bool; injection E as <- <-; fields; auto 10.
  - destruct h; injection E as <- <-; fields; auto 10.
  - destruct r; injection E as <- <-; fields; auto 10.
  - destruct r; fields; try (injection E as <- <-; fields; auto 10; fail). destruct x; injection E as <- <-; fields; auto 10.
  - injection E as <- <-; fields; auto 10.
  - destruct b; cbn [begin_step] in E; fields; try (injection E as <- <-; fields; auto 10; fail). destruct x; injection E as <- <-; fields; auto 10.
  - fields. destruct no; injection E as <- <-; fields; auto 10.
  - injection E as <- <-; fields; auto 10.
  - injection E as <- <-; fields; auto 10.
  - injection E as <- <-; fields; auto 10.
Qed.
Lemma conn_harmless k h s s' n : over (sd s) = true -> harmless k -> conn_step (ctl k) (at_ k) h s = (s', n) -> (sd s' = sd s /\ queued s' = queued s) /\ Forall harmless match n with Some p => [mkConn (ctl k) p] | None => [] end.
Proof.
  intros O [C H] E. rewrite C in *. assert (R : running (sd s) = false) by (destruct (sd s); try discriminate; reflexivity).
  Local Ltac harm E := injection E as <- <-; split; [split; reflexivity|repeat constructor].
  unfold conn_step in E. destruct (at_ k) as [| |r|r| |b| | | |] eqn:K; try (destruct H; fail).
  - destruct (true && main_holds s)%bool; harm E.
  - destruct h; rewrite ?R in E; harm E.
  - destruct r; rewrite ?R in E; harm E.
  - destruct r; rewrite ?R in E; try (destruct H; fail); try (harm E; fail). destruct (isDetached s); harm E.
  - destruct b; try (destruct H; fail). cbn [begin_step] in E. rewrite R in E. harm E.
  - rewrite R in E. harm E.
  - harm E.
Qed.
Lemma inv_conn s i h : inv s -> inv match nth_error (conns s) i with
        | Some k => let (s', n) := conn_step (ctl k) (at_ k) h s in
                    set_conns (firstn i (conns s) ++ match n with Some p => [mkConn (ctl k) p] | None => [] end ++ skipn (S i) (conns s)) s'
        | None => s
        end.
Proof.
  intros I. destruct (nth_error (conns s) i) as [k|] eqn:K; [|exact I]. destruct (conn_step (ctl k) (at_ k) h s) as [s' n] eqn:E.
  destruct (conn_effect _ _ _ _ _ _ E) as (Hn & Hm & Hs & Hc & Ch). destruct I as [P D S O N L Q].
  assert (HK : In k (conns s)) by (eapply nth_error_In, K).
  assert (Ov : over (sd s) = true -> (sd s' = sd s /\ queued s' = queued s) /\ Forall harmless match n with Some p => [mkConn (ctl k) p] | None => [] end /\ Forall harmless (conns s)).
  { intros H. destruct (O H) as [F _]. rewrite Forall_forall in F. pose proof (F k HK) as Hk. destruct (conn_harmless _ _ _ _ _ H Hk E). split; [assumption|]. split; [assumption|]. apply Forall_forall. exact F. }
  assert (No : sd s' = sd s \/ over (sd s) = false /\ sd s' = START_SHUTDOWN).
  { destruct (over (sd s)) eqn:V; [left; apply Ov; reflexivity|]. destruct Ch as [[A _]|(_ & A & _)]; auto. }
  constructor; fields; rewrite ?Hn, ?Hm, ?Hs.
  - destruct Ch as [[-> ->]|(_ & -> & ->)]; auto.
  - intros H. destruct (D H) as [D1 D2]. destruct Ch as [[-> ->]|(_ & -> & ->)]; auto.
  - intros H. rewrite (S H) in HK. destruct HK.
  - intros H. destruct No as [V|[_ V]]; rewrite V in H; [|discriminate]. destruct (Ov H) as (_ & F1 & F2). split; [apply Forall_replace; assumption|]. apply (O H).
  - destruct No as [->|[V ->]]; [exact N|]. destruct (spc s); try exact N; try (rewrite N in V; discriminate).
    destruct N as [N|[_ N]]; [auto|]. rewrite N in V. discriminate.
  - exact L.
  - destruct (spc s); auto; rewrite N in Ov; destruct (Ov eq_refl) as ((_ & U) & _); rewrite U; exact Q.
Qed.
Lemma inv_step s e : inv s -> inv (step s e).
Proof.
  intros I. destruct e as [v r|d|c|i h| | |]; cbn [step].
  - apply inv_main, I.
  - destruct (mpc s); try exact I; apply inv_sync, I.
  - destruct (accepting s && (if c then control_port s else command_ports s))%bool eqn:E; [|exact I].
    apply andb_prop in E as [A E]. destruct I as [P D S O N L Q]. unfold accepting in A. destruct s as [x de sh pl ba te ot tn no po cp ct cs qu m p]. fields.
    constructor; fields; auto.
    + intros ->. rewrite (S eq_refl) in A. discriminate.
    + intros H. destruct (O H) as [F B]. split; [|exact B]. constructor; [|exact F]. split; [|exact Logic.I]. fields. destruct c; [reflexivity|].
      rewrite P in E; [discriminate|]. destruct x; try discriminate; reflexivity.
  - destruct (mpc s) eqn:M; try exact I; apply inv_conn; try exact I; rewrite M; discriminate.
  - destruct (queued s) eqn:U; [exact I|]. destruct (node s) eqn:E; [|exact I]. destruct I as [P D S O N L Q]. constructor; fields; auto. destruct (spc s); auto; lia.
  - destruct I as [P D S O N L Q]. constructor; fields; auto.
  - destruct I as [P D S O N L Q]. constructor; fields; auto.
Qed.
Lemma inv_run es : forall s, inv s -> inv (run s es).
Proof. induction es as [|e es IH]; intros s I; [exact I|]. apply IH, inv_step, I. Qed.
Lemma inv_reachable s : reachable s -> inv s.
Proof. intros (b & es & ->). apply inv_run, inv_start. Qed.
(** When the server has finished its commands, and until it runs again, nobody waits for a command: there are only connections to the control
    port, none of them has a command that runs, and the command ports are closed. *)
Theorem C62_finished : forall s, reachable s -> sd s = COMMANDS_FINISHED \/ sd s = DONE ->
  command_ports s = false /\ Forall (fun k => ctl k = true /\ at_ k <> KRun) (conns s).
Proof.
  intros s R D. destruct (inv_reachable s R) as [P _ _ O _ _]. assert (V : over (sd s) = true) by (destruct D as [-> | ->]; reflexivity). split.
  - apply P. destruct D as [-> | ->]; reflexivity.
  - eapply Forall_impl; [|apply (O V)]. intros k [C H]. split; [exact C|]. intros E. rewrite E in H. exact H.
Qed.
Print Assumptions C62_finished.
Lemma main_keeps v r s : node (main_step v r s) = node s /\ pool (main_step v r s) = pool s.
Proof.
  unfold main_step. destruct s as [x de sh pl ba te ot tn no po cp ct cs qu m p]. destruct m as [| | | |b| | | | |none| | | |]; fields; try (split; reflexivity).
  - destruct te; split; reflexivity.
  - destruct (shutdownComplete _ || _)%bool; split; reflexivity.
  - destruct (v && running x)%bool; [destruct no|]; split; reflexivity.
  - destruct b; cbn [begin_step]; try (split; reflexivity). fields. destruct x; split; reflexivity.
  - destruct (existsb holds cs); split; reflexivity.
  - destruct p; split; reflexivity.
Qed.
Lemma conn_pool c k h s s' n : conn_step c k h s = (s', n) -> pool s' = pool s.
Proof.
  intros E. destruct s as [x de sh pl ba te ot tn no po cp ct cs qu m p]. unfold conn_step in E. destruct k as [| |r|r| |b| | | |].
  - destruct (c && main_holds _)%bool; injection E as <- <-; reflexivity.
  - destruct h; injection E as <- <-; reflexivity.
  - destruct r; injection E as <- <-; reflexivity.
  - destruct r; fields; try (injection E as <- <-; reflexivity). destruct x; injection E as <- <-; reflexivity.
  - injection E as <- <-; reflexivity.
  - destruct b; cbn [begin_step] in E; fields; try (injection E as <- <-; reflexivity). destruct x; injection E as <- <-; reflexivity.
  - fields. destruct no; injection E as <- <-; reflexivity.
  - injection E as <- <-; reflexivity.
  - injection E as <- <-; reflexivity.
  - injection E as <- <-; reflexivity.
Qed.
Lemma step_keeps s e : (forall d, e <> Sync d) -> node (step s e) = node s /\ pool (step s e) = pool s.
Proof.
  intros NS. destruct e as [v r|d|c|i h| | |]; cbn [step]; try (split; reflexivity).
  - apply main_keeps.
  - destruct (NS d eq_refl).
  - destruct (accepting s && _)%bool; split; reflexivity.
  - assert (G : forall s', s' = match nth_error (conns s) i with
        | Some k => let (s', n) := conn_step (ctl k) (at_ k) h s in
                    set_conns (firstn i (conns s) ++ match n with Some p => [mkConn (ctl k) p] | None => [] end ++ skipn (S i) (conns s)) s'
        | None => s
        end -> node s' = node s /\ pool s' = pool s).
    { intros s' ->. destruct (nth_error (conns s) i) as [k|]; [|split; reflexivity]. destruct (conn_step (ctl k) (at_ k) h s) as [s' n] eqn:E. fields.
      split; [apply (conn_effect _ _ _ _ _ _ E)|apply (conn_pool _ _ _ _ _ _ E)]. }
    destruct (mpc s); try (apply G; reflexivity); split; reflexivity.
  - destruct (queued s), (node s) eqn:N; fields; auto.
Qed.
(** The node and the database are let go only then, when there is no command that nobody waits for either: nothing is thrown away. *)
Theorem C62_let_go : forall s e, reachable s -> (node s <> None /\ node (step s e) = None) \/ (pool s = true /\ pool (step s e) = false) ->
  Forall (fun k => ctl k = true /\ at_ k <> KRun) (conns s) /\ queued s = 0.
Proof.
  intros s e R H. pose proof (inv_reachable s R) as I.
  assert (G : spc s = SClear \/ spc s = SRelease).
  { assert (NS : exists d, e = Sync d).
    { destruct e; try (exists node_down; reflexivity); exfalso; match goal with H : context [step s ?e] |- _ => destruct (step_keeps s e) as [A B] end; try discriminate; rewrite A, B in H; destruct H as [[? ?]|[? ?]]; congruence. }
    destruct NS as [d ->]. cbn [step] in H.
    assert (H' : (node s <> None /\ node (sync_step d s) = None) \/ (pool s = true /\ pool (sync_step d s) = false)).
    { destruct (mpc s); try exact H; exfalso; destruct H as [[? ?]|[? ?]]; congruence. }
    clear H. rename H' into H. destruct I as [P D S O N L Q]. unfold sync_step in H. destruct s as [x de sh pl ba te ot tn no po cp ct cs qu m p]. fields.
    destruct p; fields; auto; exfalso; try (destruct H as [[? ?]|[? ?]]; congruence).
    - destruct de; destruct H as [[? ?]|[? ?]]; fields; congruence.
    - destruct N as [->|[-> ->]]; [destruct x|destruct (d && _)%bool]; destruct H as [[? ?]|[? ?]]; fields; congruence. }
  destruct I as [P D S O N L Q].
  assert (V : over (sd s) = true) by (destruct G as [G|G]; rewrite G in N; rewrite N; reflexivity). split.
  - eapply Forall_impl; [|apply (O V)]. intros k [C K]. split; [exact C|]. intros E. rewrite E in K. exact K.
  - destruct G as [G|G]; rewrite G in Q; exact Q.
Qed.
Print Assumptions C62_let_go.

(** ** A server that nobody detaches stops when it is told to *)
Definition late (p : sync_pc) : bool := match p with SDecide | SReturned => true | _ => false end.
Definition tame (k : conn) : Prop :=
  match at_ k with KRead Detach | KMade Detach | KRead BeginBackup | KMade BeginBackup | KBegin _ => False | _ => True end.
Record nd (b : bool) (s : server) : Prop := mkNd {
  n_detach : detach s = false;
  n_backup : backup s = false /\ mpc s <> MBackup;
  n_tame : Forall tame (conns s);
  n_spc : match spc s with SRunning | SPlugins | SWait | SReset => False | _ => True end;
  n_deciding : deciding (mpc s) = true -> sd s = START_SHUTDOWN;
  n_should : should s = negb (late (spc s));
  n_done : match spc s with SClear | SRelease | SFlag | SDecide | SReturned => sd s = DONE | _ => sd s <> DONE end;
  n_term : 1 <= terms s -> term s = true \/ match mpc s with MJoin | MEnd | MAbort => True | _ => False end;
  n_outer : mpc s = MOuter -> late (spc s) = true \/ 2 <= terms s \/ b = true;
  n_join : mpc s = MJoin -> late (spc s) = true;
  n_b : b = true -> terms s = 0 /\ term s = false }.
Lemma nd_start : nd true (start false).
Proof. constructor; cbn; auto; try discriminate. split; [reflexivity|discriminate]. lia. Qed.
Ltac nd_by := constructor; fields; cbn [over running deciding late negb] in *; intros; subst; try discriminate; auto; try (split; [assumption || reflexivity|discriminate]); try congruence.
Lemma nd_sync b d s : inv s -> nd b s -> nd b (sync_step d s).
Proof.
  intros [P D S O N L Q] [Hd [Hb Hm] Ht Hs Hg Hh He Hr Ho Hj H0]. unfold sync_step. destruct s as [x de sh pl ba te ot tn no po cp ct cs qu m p]. fields. subst de ba.
  destruct p; fields; try (destruct Hs; fail); cbn [late negb] in *; subst.
  all: try (nd_by; fail).
  - destruct N as [->|[-> ->]]; fields; [destruct x; nd_by|]. destruct (d && _)%bool; nd_by.
  - nd_by. specialize (Hg H). discriminate.
Qed.
Lemma nd_main b v r s : inv s -> nd b s -> nd b (main_step v r s).
Proof.
  intros [P D S O N L Q] [Hd [Hb Hm] Ht Hs Hg Hh He Hr Ho Hj H0]. unfold main_step. destruct s as [x de sh pl ba te ot tn no po cp ct cs qu m p]. fields. subst de ba.
  destruct m as [| | | |b'| | | | |none| | | |]; fields; cbn [deciding] in *.
  all: try (nd_by; fail).
  - destruct te.
    + destruct b; [destruct (H0 eq_refl); discriminate|]. destruct (2 <=? tn) eqn:T; [nd_by|]. apply Nat.leb_gt in T. nd_by.
      destruct (Ho eq_refl) as [|[|]]; [assumption|lia|discriminate].
    + nd_by.
  - cbn [andb]. destruct (shutdownComplete _ || _)%bool eqn:C; [|nd_by]. apply Bool.orb_prop in C. nd_by. destruct C as [C|C].
    + unfold shutdownComplete in C. fields. left. destruct (late p); [reflexivity|discriminate].
    + apply Nat.leb_le in C. auto.
  - destruct (v && running x)%bool, no; fields; destruct (te || ot)%bool; nd_by.
  - destruct b'; fields; cbn [begin_step]; fields; try (nd_by; fail).
    + destruct (running x); nd_by.
    + destruct (over x) eqn:X; [destruct (O eq_refl) as [_ []]|]. destruct p; subst; cbn [over] in X; try discriminate; try (destruct Hs; fail); nd_by.
  - destruct x; nd_by.
  - destruct (existsb holds cs); nd_by.
  - destruct cs; [destruct none|]; nd_by.
  - specialize (Hg eq_refl). subst x. destruct p; nd_by.
  - destruct p; nd_by.
Qed.
Lemma nd_step b s e : inv s -> nd b s -> no_detach e = true -> (b = true -> e <> Term) -> nd b (step s e).
Proof.
  intros I Hn E B. destruct e as [v r|d|c|i h| | |]; cbn [step].
  - apply nd_main; assumption.
  - destruct (mpc s); try (apply nd_sync; assumption); exact Hn.
  - destruct (accepting s && _)%bool; [|exact Hn]. destruct Hn as [Hd Hb Ht Hs Hg Hh He Hr Ho Hj H0]. constructor; fields; auto. constructor; [exact Logic.I|exact Ht].
  - assert (nd b (match nth_error (conns s) i with
        | Some k => let (s', n) := conn_step (ctl k) (at_ k) h s in
                    set_conns (firstn i (conns s) ++ match n with Some p => [mkConn (ctl k) p] | None => [] end ++ skipn (S i) (conns s)) s'
        | None => s end)) as R; [|destruct (mpc s); exact R || exact Hn].
    destruct (nth_error (conns s) i) as [k|] eqn:K; [|exact Hn]. pose proof (nth_error_In _ _ K) as IK.
    destruct (conn_step (ctl k) (at_ k) h s) as [s' n] eqn:C.
    assert (T : tame k) by (exact (proj1 (Forall_forall _ _) (n_tame b s Hn) k IK)).
    assert (nd b s' /\ match n with Some p => tame (mkConn (ctl k) p) | None => True end) as [[Hd Hb Ht Hs Hg Hh He Hr Ho Hj H0] G].
    { destruct Hn as [Hd Hb Ht Hs Hg Hh He Hr Ho Hj H0]. unfold conn_step in C. unfold tame in T.
      destruct (at_ k) as [| |r|r| |b'| | | |]; try (destruct T; fail).
      - destruct (ctl k && main_holds s)%bool; injection C as <- <-; (split; [constructor; assumption|exact Logic.I]).
      - destruct h as [| |r]; injection C as <- <-; (split; [constructor; assumption|]); unfold tame; fields; try (destruct (running (sd s)); exact Logic.I); destruct r; exact Logic.I || discriminate E.
      - destruct r; try (destruct T; fail); injection C as <- <-; (split; [constructor; assumption|]); unfold tame; fields; exact Logic.I || (destruct (running (sd s)); exact Logic.I).
      - destruct r; try (destruct T; fail).
        + injection C as <- <-; (split; [constructor; assumption|]). unfold tame; fields. destruct (ctl k && negb (running (sd s)))%bool; exact Logic.I.
        + injection C as <- <-. split; [constructor; fields; assumption|exact Logic.I].
        + destruct (running (sd s)) eqn:R; injection C as <- <-; (split; [|exact Logic.I]); constructor; fields; try assumption.
          destruct (spc s); try reflexivity; rewrite He in R; discriminate.
        + injection C as <- <-; (split; [constructor; assumption|exact Logic.I]).
      - injection C as <- <-. split; [|exact Logic.I]. constructor; fields; auto.
      - destruct (node s); injection C as <- <-; (split; [constructor; assumption|]); unfold tame; fields; try (destruct (running (sd s)); exact Logic.I); exact Logic.I.
      - injection C as <- <-; (split; [constructor; assumption|]); unfold tame; fields; destruct (running (sd s)); exact Logic.I.
      - injection C as <- <-; (split; [constructor; assumption|exact Logic.I]).
      - injection C as <- <-; (split; [constructor; assumption|exact Logic.I]). }
    constructor; fields; auto. apply Forall_replace; [exact (n_tame b s Hn)|]. destruct n; repeat constructor; assumption.
  - destruct (queued s); [exact Hn|]. destruct (node s) eqn:K; [|exact Hn]. destruct Hn. constructor; fields; auto.
  - destruct Hn as [Hd Hb Ht Hs Hg Hh He Hr Ho Hj H0]. destruct b; [destruct (B eq_refl eq_refl)|]. constructor; fields; auto; try discriminate.
    intros M. destruct (Ho M) as [|[|]]; auto. 
  - destruct Hn as [Hd Hb Ht Hs Hg Hh He Hr Ho Hj H0]. constructor; fields; auto.
Qed.
Lemma nd_run b es s : inv s -> nd b s -> forallb no_detach es = true -> (b = true -> ~ In Term es) -> nd b (run s es).
Proof.
  unfold run. revert s. induction es as [|e es IH]; intros s I Hn E B; cbn [fold_left]; [exact Hn|]. cbn [forallb] in E. apply andb_prop in E as [E1 E2].
  apply IH; [apply inv_step, I|apply nd_step; auto; intros X; specialize (B X); cbn [In] in B; intros ->; tauto|exact E2|intros X; specialize (B X); cbn [In] in B; tauto].
Qed.
Lemma nd_first v r s : inv s -> nd true s -> nd false (step s (Main v r)).
Proof.
  intros I Hn. pose proof (nd_main true v r s I Hn) as H. cbn [step]. destruct (n_b true s Hn eq_refl) as [T0 T1].
  destruct H as [Hd Hb Ht Hs Hg Hh He Hr Ho Hj H0]. constructor; auto; try discriminate.
  intros M. clear - M T0 T1 Hn. revert M. destruct Hn as [Hd _ _ _ _ Hh _ _ _ _ _]. unfold main_step.
  destruct s as [x de sh pl ba te ot tn no po cp ct cs qu m p]. fields. subst.
  destruct m as [| | | |b'| | | | |none| | | |]; fields; try (intros; discriminate).
  - unfold shutdownComplete; fields. destruct (late p) eqn:LP; cbn; [intros _; left; exact LP|]; destruct ba; cbn; intros; discriminate.
  - destruct (v && running x)%bool, no; fields; destruct (false || ot)%bool; (intros; discriminate).
  - destruct b'; cbn [begin_step]; fields; try (intros; discriminate). destruct (running x); (intros; discriminate).
  - destruct x; (intros; discriminate).
  - destruct (existsb holds cs); (intros; discriminate).
  - destruct cs, none; (intros; discriminate).
  - destruct p; (intros; discriminate).
Qed.

Definition reaches (s : server) (P : server -> Prop) : Prop := exists fs, forallb calm fs = true /\ P (run s fs).
Lemma here (P : server -> Prop) s : P s -> reaches s P.
Proof. intros H. exists []. split; [reflexivity|exact H]. Qed.
Lemma first e (P : server -> Prop) s : calm e = true -> reaches (step s e) P -> reaches s P.
Proof. intros C (fs & F & H). exists (e :: fs). cbn [forallb run fold_left]. rewrite C, F. split; [reflexivity|exact H]. Qed.
Lemma then_ (P Q : server -> Prop) s : reaches s P -> (forall t, P t -> reaches t Q) -> reaches s Q.
Proof.
  intros (fs & F & H) G. destruct (G _ H) as (gs & F2 & H2). exists (fs ++ gs). split; [rewrite forallb_app, F, F2; reflexivity|]. unfold run in *. rewrite fold_left_app. exact H2.
Qed.
Definition ok (s : server) : Prop := inv s /\ nd false s /\ 1 <= terms s.
Lemma calm_no_detach e : calm e = true -> no_detach e = true.
Proof. destruct e as [| | |i [| |[]]| | |]; cbn; auto. Qed.
Lemma terms_step s e : terms (step s e) = signals [e] + terms s.
Proof.
  unfold signals. cbn [filter]. destruct s as [x de sh pl ba te ot tn no po cp ct cs qu m p]. destruct e as [v r|d|c|i h| | |]; cbn [step List.length Nat.add]; fields.
  - unfold main_step. fields. destruct m as [| | | |b'| | | | |none| | | |]; fields; try reflexivity.
    + destruct te; fields; reflexivity.
    + destruct (_ || _)%bool; fields; reflexivity.
    + destruct (v && running x)%bool, no; fields; reflexivity.
    + destruct b'; cbn [begin_step]; fields; try reflexivity. destruct (running x); fields; reflexivity.
    + destruct (existsb holds cs); fields; reflexivity.
    + destruct p; fields; reflexivity.
  - destruct m; try (fields; reflexivity); unfold sync_step; fields; destruct p; fields; try reflexivity; try (destruct de; fields; reflexivity); destruct no as [[|]|]; try (destruct x; fields; reflexivity); destruct (d && _)%bool; fields; reflexivity.
  - destruct (_ && _)%bool; fields; reflexivity.
  - assert (forall k, terms (fst (conn_step (ctl k) (at_ k) h (mkServer x de sh pl ba te ot tn no po cp ct cs qu m p))) = tn) as A.
    { intros k. unfold conn_step. destruct (at_ k) as [| |r|r| |b'| | | |]; fields; try reflexivity.
      - destruct (_ && _)%bool; reflexivity.
      - destruct h; reflexivity.
      - destruct r; reflexivity.
      - destruct r; try reflexivity. destruct (running x); reflexivity.
      - destruct b'; cbn [begin_step]; fields; try reflexivity. destruct (running x); reflexivity.
      - destruct no; reflexivity. }
    destruct m; try (fields; reflexivity); (destruct (nth_error cs i) as [k|]; [|fields; reflexivity]); specialize (A k); destruct (conn_step _ _ _ _) as [s' n]; fields; exact A.
  - destruct qu; [fields; reflexivity|]. destruct no; fields; reflexivity.
  - reflexivity.
  - reflexivity.
Qed.
Lemma ok_step s e : ok s -> calm e = true -> ok (step s e).
Proof.
  intros (I & Hn & T) C. split; [apply inv_step, I|]. split; [apply nd_step; auto using calm_no_detach; discriminate|]. rewrite terms_step. lia.
Qed.
Lemma then_ok (P Q : server -> Prop) s : ok s -> reaches s P -> (forall t, ok t -> P t -> reaches t Q) -> reaches s Q.
Proof.
  intros O (fs & F & H) G. apply (then_ (fun t => ok t /\ P t)); [|intros t [A B]; auto]. exists fs. split; [exact F|]. split; [|exact H].
  clear H G. unfold run. revert s O. induction fs as [|e fs IH]; intros s O; [exact O|]. cbn [forallb] in F. apply andb_prop in F as [C F]. cbn [fold_left]. apply IH; [exact F|].
  apply ok_step; assumption.
Qed.
Definition stopped (s : server) : Prop := mpc s = MEnd \/ mpc s = MAbort.
(** Connections end when no client sends anything. *)
Definition can_end (no : option bool) (k : conn) : Prop := no <> None \/ ctl k = true /\ at_ k <> KRun.
Lemma one x sh pl ba te ot tn no po cp ct k cs qu m p :
  running x = false -> m = MInner \/ m = MLock -> tame k -> can_end no k ->
  reaches (mkServer x false sh pl ba te ot tn no po cp ct (k :: cs) qu m p) (fun t => exists q, t = mkServer x false sh pl ba te ot tn no po cp ct cs q m p).
Proof.
  intros X M T E. destruct k as [c a].
  Local Ltac tick := apply (first (Conn 0 Nothing)); [reflexivity|]; cbn [step mpc conns nth_error ctl at_ conn_step firstn skipn app]; fields.
  assert (Gone : forall q, reaches (mkServer x false sh pl ba te ot tn no po cp ct (mkConn c KGone :: cs) q m p) (fun t => exists q, t = mkServer x false sh pl ba te ot tn no po cp ct cs q m p)).
  { intros q. destruct M as [-> | ->]; tick; apply here; exists q; reflexivity. }
  assert (Reply : forall q, reaches (mkServer x false sh pl ba te ot tn no po cp ct (mkConn c KReply :: cs) q m p) (fun t => exists q, t = mkServer x false sh pl ba te ot tn no po cp ct cs q m p)).
  { intros q. destruct M as [-> | ->]; tick; rewrite X; apply Gone. }
  assert (Idle : forall q, reaches (mkServer x false sh pl ba te ot tn no po cp ct (mkConn c KIdle :: cs) q m p) (fun t => exists q, t = mkServer x false sh pl ba te ot tn no po cp ct cs q m p)).
  { intros q. destruct M as [-> | ->]; tick; rewrite X; apply Gone. }
  assert (Run : forall q, no <> None -> reaches (mkServer x false sh pl ba te ot tn no po cp ct (mkConn c KRun :: cs) q m p) (fun t => exists q, t = mkServer x false sh pl ba te ot tn no po cp ct cs q m p)).
  { intros q N. destruct no as [no|]; [|destruct (N eq_refl)]. destruct M as [-> | ->]; tick; rewrite X; apply Gone. }
  assert (Made : forall r q, match r with Detach | BeginBackup => False | _ => True end ->
    reaches (mkServer x false sh pl ba te ot tn no po cp ct (mkConn c (KMade r) :: cs) q m p) (fun t => exists q, t = mkServer x false sh pl ba te ot tn no po cp ct cs q m p)).
  { intros r q R. destruct r; try (destruct R; fail); (destruct M as [-> | ->]; tick); rewrite ?X; fields; cbn [negb]; rewrite ?Bool.andb_true_r.
    1,2: destruct c; [apply Reply|]; apply Run; destruct E as [|[]]; [assumption|discriminate].
    1,2: apply Gone.
    all: apply Reply. }
  destruct a as [| |r|r| |b'| | | |].
  - destruct M as [-> | ->]; tick; cbn [main_holds mpc]; rewrite Bool.andb_false_r; apply Idle.
  - apply Idle.
  - assert (R : match r with Detach | BeginBackup => False | _ => True end) by (destruct r; exact Logic.I || destruct T).
    destruct M as [-> | ->]; tick; destruct r; try (destruct R; fail); rewrite ?X; fields; try (apply Gone); apply Made; exact Logic.I.
  - apply Made. destruct r; exact Logic.I || destruct T.
  - destruct M as [-> | ->]; tick; apply Reply.
  - destruct T.
  - apply Run. destruct E as [|[_ E]]; [assumption|destruct (E eq_refl)].
  - apply Reply.
  - apply Gone.
  - destruct M as [-> | ->]; tick; apply Made; exact Logic.I.
Qed.
Lemma drain x sh pl ba te ot tn no po cp ct cs qu m p :
  running x = false -> m = MInner \/ m = MLock -> Forall tame cs -> Forall (can_end no) cs ->
  reaches (mkServer x false sh pl ba te ot tn no po cp ct cs qu m p) (fun t => exists q, t = mkServer x false sh pl ba te ot tn no po cp ct [] q m p).
Proof.
  intros X M T E. revert qu. induction cs as [|k cs IH]; intros qu; [apply here; exists qu; reflexivity|].
  eapply then_; [apply (one x sh pl ba te ot tn no po cp ct k cs qu m p X M (Forall_inv T) (Forall_inv E))|].
  intros t [q ->]. apply IH; [exact (Forall_inv_tail T)|exact (Forall_inv_tail E)].
Qed.
Lemma all_run x sh pl ba te ot tn n po cp ct cs qu m p :
  reaches (mkServer x false sh pl ba te ot tn (Some n) po cp ct cs qu m p) (fun t => t = mkServer x false sh pl ba te ot tn (Some n) po cp ct cs 0 m p).
Proof. induction qu as [|q IH]; [apply here; reflexivity|]. apply (first Ran); [reflexivity|]. exact IH. Qed.

Lemma from_join s : ok s -> mpc s = MJoin -> reaches s stopped.
Proof.
  intros (I & N & T) M. pose proof (n_join _ _ N M) as L. pose proof (n_detach _ _ N) as D.
  destruct (spc s) eqn:P; try discriminate L.
  - apply (first (Sync false)); [reflexivity|]. apply (first (Main false 0)); [reflexivity|]. apply here. left. cbn [step]. rewrite M. unfold sync_step. rewrite P, D.
    unfold main_step. fields. rewrite M. reflexivity.
  - apply (first (Main false 0)); [reflexivity|]. apply here. left. cbn [step]. unfold main_step. rewrite M, P. reflexivity.
Qed.
Lemma from_outer s : ok s -> mpc s = MOuter -> reaches s stopped.
Proof.
  intros O M. pose proof O as (I & N & T). destruct (n_term _ _ N T) as [Te|X]; [|rewrite M in X; destruct X].
  apply (then_ok (fun t => mpc t = MAbort \/ mpc t = MJoin) _ s O).
  - apply (first (Main false 0)); [reflexivity|]. apply here. cbn [step]. unfold main_step. rewrite M, Te. destruct (2 <=? terms s); fields; auto.
  - intros t Ot [A|A]; [apply here; right; exact A|apply from_join; assumption].
Qed.
Lemma from_inner_done s : ok s -> mpc s = MInner -> should s = false \/ 2 <= terms s -> reaches s stopped.
Proof.
  intros O M H. pose proof O as (I & N & T). apply (then_ok (fun t => mpc t = MOuter) _ s O); [|apply from_outer].
  apply (first (Main false 0)); [reflexivity|]. apply here. cbn [step]. unfold main_step. rewrite M. unfold shutdownComplete. rewrite (n_detach _ _ N).
  destruct H as [-> |H]; [reflexivity|]. apply Nat.leb_le in H. rewrite H, Bool.orb_true_r. reflexivity.
Qed.
Lemma sync_up s : ok s -> mpc s = MInner \/ mpc s = MLock ->
  reaches s (fun t => mpc t = mpc s /\ sd t = sd s /\ match spc t with STop | SOpen | SNode => False | _ => True end).
Proof.
  intros (I & N & T) M. pose proof (n_detach _ _ N) as D. destruct s as [x de sh pl ba te ot tn no po cp ct cs qu m p]. fields. subst de.
  Local Ltac sync_ d := apply (first (Sync d)); [reflexivity|]; cbn [step mpc]; unfold sync_step; fields.
  destruct p; try (apply here; cbn; tauto); destruct M as [-> | ->].
  1,2: sync_ false; sync_ false; sync_ false; apply here; cbn; tauto.
  1,2: sync_ false; sync_ false; apply here; cbn; tauto.
  1,2: sync_ false; apply here; cbn; tauto.
Qed.
Lemma from_done s : ok s -> mpc s = MInner -> match spc s with SDone | SClear | SRelease | SFlag | SDecide | SReturned => True | _ => False end -> reaches s stopped.
Proof.
  intros O M P. apply (then_ok (fun t => mpc t = MInner /\ should t = false) _ s O); [|intros t Ot [A B]; apply from_inner_done; auto].
  destruct O as (I & N & T). pose proof (n_should _ _ N) as H. destruct s as [x de sh pl ba te ot tn no po cp ct cs qu m p]. fields. subst m sh.
  destruct p; try (destruct P; fail); cbn [late negb].
  - do 4 sync_ false. apply here. cbn. auto.
  - do 3 sync_ false. apply here. cbn. auto.
  - do 2 sync_ false. apply here. cbn. auto.
  - do 1 sync_ false. apply here. cbn. auto.
  - apply here. cbn. auto.
  - apply here. cbn. auto.
Qed.
Lemma from_fin s : ok s -> mpc s = MInner -> over (sd s) = true -> reaches s stopped.
Proof.
  intros O M X. apply (then_ok (fun t => mpc t = MInner /\ sd t = sd s /\ match spc t with STop | SOpen | SNode => False | _ => True end) _ s O).
  { rewrite <- M. apply sync_up; auto. }
  intros t Ot (M1 & X1 & P1). rewrite <- X1 in X. clear s O M X1. rename t into s, Ot into O.
  apply (then_ok (fun t => mpc t = MInner /\ conns t = [] /\ spc t = spc s /\ over (sd t) = true) _ s O).
  { destruct O as (I & N & _). pose proof (n_detach _ _ N) as D. pose proof (n_tame _ _ N) as Tm. pose proof (proj1 (i_over _ I X)) as Hm.
    destruct s as [x de sh pl ba te ot tn no po cp ct cs qu m p]. fields. subst de m.
    eapply then_; [apply drain; auto|].
    - destruct x; auto; discriminate.
    - apply Forall_impl with (2 := Hm). intros k [A B]. right. split; [exact A|]. intros E. rewrite E in B. exact B.
    - intros t [q ->]. apply here. cbn. auto. }
  intros t Ot (M2 & C2 & P2 & X2). rewrite <- P2 in P1. clear s O M1 P2 X. rename t into s, Ot into O.
  destruct (spc s) eqn:P; try (destruct P1; fail).
  all: try (apply from_done; rewrite ?P; auto; fail).
  all: try (destruct O as (_ & N & _); pose proof (n_spc _ _ N) as Q; rewrite P in Q; destruct Q; fail).
  apply (then_ok (fun t => mpc t = MInner /\ spc t = SDone) _ s O); [|intros t Ot [A B]; apply from_done; rewrite ?B; auto].
  destruct O as (I & N & _). pose proof (i_node _ I) as In. pose proof (n_done _ _ N) as Dn. pose proof (n_detach _ _ N) as D. rewrite P in In, Dn.
  destruct s as [x de sh pl ba te ot tn no po cp ct cs qu m p]. fields. subst de m p cs. destruct x; try discriminate X2; [|destruct (Dn eq_refl)].
  assert (exists b, no = Some b) as [b ->] by (destruct In as [|[]]; eauto).
  eapply then_; [apply all_run|]. intros t ->. destruct b; [|sync_ false]; sync_ true; apply here; cbn; auto.
Qed.
Lemma from_lock s : ok s -> mpc s = MLock -> reaches s (fun t => mpc t = MInner /\ over (sd t) = true).
Proof.
  intros O M. apply (then_ok (fun t => mpc t = MLock /\ sd t = sd s /\ match spc t with STop | SOpen | SNode => False | _ => True end) _ s O).
  { rewrite <- M. apply sync_up; auto. }
  intros t Ot (M1 & _ & P1). clear s O M. rename t into s, Ot into O. destruct O as (I & N & _).
  assert (X : sd s = START_SHUTDOWN) by (apply (n_deciding _ _ N); rewrite M1; reflexivity).
  pose proof (n_done _ _ N) as Dn. pose proof (n_spc _ _ N) as Sp. pose proof (i_node _ I) as In. pose proof (n_detach _ _ N) as D. pose proof (n_tame _ _ N) as Tm.
  destruct s as [x de sh pl ba te ot tn no po cp ct cs qu m p]. fields. subst de m x.
  destruct p; try (destruct P1; fail); try (destruct Sp; fail); try discriminate Dn; try discriminate In.
  assert (no = Some false) as -> by (destruct In as [|[]]; congruence).
  eapply then_; [apply drain; auto; apply Forall_forall; intros k _; left; discriminate|]. intros t [q ->].
  eapply then_; [apply all_run|]. intros t ->.
  do 4 (apply (first (Main false 0)); [reflexivity|]; cbn [step]; unfold main_step; fields; cbn [existsb command_count conns queued filter List.length Nat.add Nat.eqb]).
  apply here. cbn. auto.
Qed.
Lemma from_any s : ok s -> reaches s (fun t => stopped t \/ mpc t = MJoin \/ mpc t = MOuter \/ mpc t = MLock \/ mpc t = MInner /\ over (sd t) = true).
Proof.
  intros O. 
  Local Ltac main_ := apply (first (Main false 0)); [reflexivity|]; cbn [step]; unfold main_step; fields.
  assert (St : forall s, mpc s = MStart -> running (sd s) = false -> reaches s (fun t => stopped t \/ mpc t = MJoin \/ mpc t = MOuter \/ mpc t = MLock \/ mpc t = MInner /\ over (sd t) = true)).
  { clear. intros s M R. destruct s as [x de sh pl ba te ot tn no po cp ct cs qu m p]. fields. subst m. destruct x; try discriminate R; main_; apply here; cbn; tauto. }
  assert (Ac : forall s, mpc s = MAccept -> running (sd s) = false -> reaches s (fun t => stopped t \/ mpc t = MJoin \/ mpc t = MOuter \/ mpc t = MLock \/ mpc t = MInner /\ over (sd t) = true)).
  { clear - St. intros s M R. destruct s as [x de sh pl ba te ot tn no po cp ct cs qu m p]. fields. subst m. main_. apply St; [reflexivity|exact R]. }
  assert (B3_ : forall s, mpc s = MBegin B3 -> reaches s (fun t => stopped t \/ mpc t = MJoin \/ mpc t = MOuter \/ mpc t = MLock \/ mpc t = MInner /\ over (sd t) = true)).
  { clear - Ac. intros s M. destruct s as [x de sh pl ba te ot tn no po cp ct cs qu m p]. fields. subst m. main_. cbn [begin_step]. fields. apply Ac; reflexivity. }
  assert (B0_ : forall s, mpc s = MBegin B0 -> reaches s (fun t => stopped t \/ mpc t = MJoin \/ mpc t = MOuter \/ mpc t = MLock \/ mpc t = MInner /\ over (sd t) = true)).
  { clear - Ac B3_. intros s M. destruct s as [x de sh pl ba te ot tn no po cp ct cs qu m p]. fields. subst m. main_. cbn [begin_step]. fields.
    destruct (running x) eqn:R; [|apply Ac; [reflexivity|exact R]]. do 2 (main_; cbn [begin_step]; fields). apply B3_. reflexivity. }
  assert (Po : forall s, mpc s = MPoll -> term s = true -> reaches s (fun t => stopped t \/ mpc t = MJoin \/ mpc t = MOuter \/ mpc t = MLock \/ mpc t = MInner /\ over (sd t) = true)).
  { clear - B0_. intros s M R. destruct s as [x de sh pl ba te ot tn no po cp ct cs qu m p]. fields. subst m te. main_. cbn [andb orb]. fields. apply B0_; reflexivity. }
  assert (In_ : forall s, mpc s = MInner -> term s = true -> backup s = false -> reaches s (fun t => stopped t \/ mpc t = MJoin \/ mpc t = MOuter \/ mpc t = MLock \/ mpc t = MInner /\ over (sd t) = true)).
  { clear - Po. intros s M R B. destruct s as [x de sh pl ba te ot tn no po cp ct cs qu m p]. fields. subst m te ba. main_. cbn [andb].
    destruct (shutdownComplete _ || _)%bool; [apply here; cbn; tauto|]. apply Po; reflexivity. }
  assert (St2 : forall s, mpc s = MStart -> term s = true -> backup s = false -> reaches s (fun t => stopped t \/ mpc t = MJoin \/ mpc t = MOuter \/ mpc t = MLock \/ mpc t = MInner /\ over (sd t) = true)).
  { clear - In_ St. intros s M R B. destruct (running (sd s)) eqn:X; [|apply St; assumption]. destruct s as [x de sh pl ba te ot tn no po cp ct cs qu m p]. fields. subst m te ba.
    destruct x; try discriminate X. main_. apply In_; reflexivity. }
  destruct O as (I & N & T). pose proof (n_term _ _ N T) as Te. destruct (n_backup _ _ N) as [Ba Mb]. pose proof (n_deciding _ _ N) as Dc.
  destruct s as [x de sh pl ba te ot tn no po cp ct cs qu m p]. fields. subst ba. destruct m as [| | | |b'| | | | |none| | | |]; try (apply here; cbn; tauto); try (destruct Te as [-> |[]]).
  - apply In_; reflexivity.
  - apply Po; reflexivity.
  - destruct b'; [apply B0_; reflexivity|do 2 (main_; cbn [begin_step]; fields)|main_; cbn [begin_step]; fields|]; apply B3_; reflexivity.
  - main_. apply St2; reflexivity.
  - apply St2; reflexivity.
  - main_. main_. destruct cs; [destruct (Nat.eqb _ _)|]; try (apply In_; reflexivity). main_. apply here; cbn; tauto.
  - main_. destruct cs; [destruct none|]; try (apply In_; reflexivity). main_. apply here; cbn; tauto.
  - main_. apply here; cbn; tauto.
  - apply here. left. left. reflexivity.
  - apply here. left. left. reflexivity.
  - apply here. left. right. reflexivity.
  - apply here. left. right. reflexivity.
Qed.
Lemma from_ok s : ok s -> reaches s stopped.
Proof.
  intros O. apply (then_ok _ _ s O (from_any s O)). intros t Ot [A|[A|[A|[A|[A B]]]]].
  - apply here, A.
  - apply from_join; assumption.
  - apply from_outer; assumption.
  - apply (then_ok _ _ t Ot (from_lock t Ot A)). intros u Ou [C D]. apply from_fin; assumption.
  - apply from_fin; assumption.
Qed.
Lemma signals_app a b : signals (a ++ b) = signals a + signals b.
Proof. unfold signals. rewrite filter_app, app_length. reflexivity. Qed.
Lemma terms_run es s : terms (run s es) = signals es + terms s.
Proof.
  revert s. induction es as [|e es IH]; intros s; [reflexivity|]. cbn [run fold_left]. pose proof (terms_step s e). pose proof (IH (step s e)). change (e :: es) with ([e] ++ es).
  rewrite signals_app. unfold run in *. lia.
Qed.
Lemma abort_step s e : (mpc s = MAbort -> 2 <= terms s) -> mpc (step s e) = MAbort -> 2 <= terms (step s e).
Proof.
  intros H. rewrite terms_step. destruct e as [v r|d|c|i h| | |]; cbn [step].
  - destruct s as [x de sh pl ba te ot tn no po cp ct cs qu m p]. unfold main_step. fields. change (signals [Main v r]) with 0.
    destruct m as [| | | |b'| | | | |none| | | |]; fields; try (intros; discriminate).
    + destruct te; fields; [|intros; discriminate]. destruct (2 <=? tn) eqn:T; [|intros; discriminate]. apply Nat.leb_le in T. intros _. exact T.
    + destruct (_ || _)%bool; fields; [intros; discriminate|]. destruct (ba && _)%bool; intros; discriminate.
    + destruct (v && running x)%bool, no; fields; destruct (te || ot)%bool; intros; discriminate.
    + destruct b'; cbn [begin_step]; fields; try (intros; discriminate). destruct (running x); intros; discriminate.
    + destruct x; intros; discriminate.
    + destruct (existsb holds cs); intros; discriminate.
    + destruct cs; [destruct none|]; intros; discriminate.
    + destruct p; intros; discriminate.
    + exact H.
  - change (signals [Sync d]) with 0. assert (mpc (sync_step d s) = mpc s) as A.
    { unfold sync_step. destruct (spc s); try reflexivity; try (destruct (detach s); reflexivity). destruct (node s) as [[|]|]; try (destruct (sd s); reflexivity). destruct (d && _)%bool; reflexivity. }
    destruct (mpc s) eqn:M; rewrite ?A; try (intros; discriminate); auto. rewrite M. discriminate.
  - change (signals [Accept c]) with 0. destruct (_ && _)%bool; exact H.
  - change (signals [Conn i h]) with 0. assert (forall k, mpc (fst (conn_step (ctl k) (at_ k) h s)) = mpc s) as A.
    { intros k. unfold conn_step. destruct (at_ k) as [| |r|r| |b'| | | |]; fields; try reflexivity.
      - destruct (_ && _)%bool; reflexivity.
      - destruct h; reflexivity.
      - destruct r; reflexivity.
      - destruct r; try reflexivity. destruct (running (sd s)); reflexivity.
      - destruct b'; cbn [begin_step]; fields; try reflexivity. destruct (running (sd s)); reflexivity.
      - destruct (node s); reflexivity. }
    destruct (nth_error (conns s) i) as [k|]; [|destruct (mpc s) eqn:M; rewrite M; intros; auto; discriminate].
    specialize (A k). destruct (conn_step (ctl k) (at_ k) h s) as [s' n]. fields. destruct (mpc s) eqn:M; fields; try (rewrite A; intros; discriminate); rewrite M; auto.
  - change (signals [Ran]) with 0. destruct (queued s); [exact H|]. destruct (node s); exact H.
  - cbn [mpc set_signals]. intros M. specialize (H M). lia.
  - exact H.
Qed.
Lemma abort_run es s : (mpc s = MAbort -> 2 <= terms s) -> mpc (run s es) = MAbort -> 2 <= terms (run s es).
Proof. revert s. induction es as [|e es IH]; intros s H; [exact H|]. cbn [run fold_left]. apply IH, abort_step, H. Qed.
Lemma terms_in es s : In Term es -> 1 <= terms (run s es).
Proof.
  intros H. apply in_split in H as (a & b & ->). unfold run. rewrite fold_left_app. cbn [fold_left]. pose proof (terms_run b (step (fold_left step a s) Term)) as A.
  unfold run in A. rewrite terms_step in A. change (signals [Term]) with 1 in A. lia.
Qed.

(** C62: a server that nobody detaches and that gets a SIGTERM after the main thread has entered its loop can stop: whatever has happened
    before and after the signal, there is a way on, without any help from a client and without another signal, at whose end the main thread
    has ended (or has aborted because the signal came twice).  In particular it is never in a deadlock, and never in a loop it cannot
    leave. *)
Theorem C62_stops : forall before v r after,
  forallb no_detach (before ++ after) = true -> ~ In Term before -> In Term after ->
  exists fs, forallb calm fs = true /\
    let s := run (start false) (before ++ Main v r :: after ++ fs) in mpc s = MEnd \/ mpc s = MAbort /\ 2 <= signals after.
Proof.
  intros before v r after E B A. rewrite forallb_app in E. apply andb_prop in E as [E1 E2].
  assert (I1 : inv (run (start false) before)) by (apply inv_run, inv_start).
  assert (N1 : nd true (run (start false) before)) by (apply nd_run; auto using inv_start, nd_start).
  assert (I2 : inv (run (step (run (start false) before) (Main v r)) after)) by (apply inv_run, inv_step, I1).
  assert (N2 : nd false (run (step (run (start false) before) (Main v r)) after)) by (apply nd_run; [apply inv_step, I1|apply nd_first; assumption|exact E2|discriminate]).
  destruct (from_ok _ (conj I2 (conj N2 (terms_in after (step (run (start false) before) (Main v r)) A)))) as (fs & F & H).
  exists fs. split; [exact F|]. cbv zeta.
  assert (R : run (start false) (before ++ Main v r :: after ++ fs) = run (run (step (run (start false) before) (Main v r)) after) fs).
  { unfold run. rewrite fold_left_app. cbn [fold_left]. rewrite fold_left_app. reflexivity. }
  destruct H as [H|H]; [left; rewrite R; exact H|right]. split; [rewrite R; exact H|]. rewrite <- R in H. apply abort_run in H; [|discriminate].
  rewrite terms_run, signals_app in H. change (Main v r :: after ++ fs) with ([Main v r] ++ after ++ fs) in H. rewrite !signals_app in H.
  assert (signals fs = 0) as Z. { clear - F. induction fs as [|e fs IH]; [reflexivity|]. cbn [forallb] in F. apply andb_prop in F as [C F]. specialize (IH F). destruct e; try discriminate C; exact IH. }
  assert (signals before = 0) as Z2. { clear - B. induction before as [|e l IH]; [reflexivity|]. cbn [In] in B. destruct e; try (apply IH; tauto). tauto. }
  rewrite Z, Z2 in H. change (signals [Main v r]) with 0 in H. cbn [terms start] in H. lia.
Qed.
Print Assumptions C62_stops.

(** A run: the server starts, a client has a command run, the signal comes while another command is in the queue, and the server stops. *)
Definition up : list event := [Sync false; Sync false; Sync false; Main false 0; Main false 0; Main true 0].
Definition lap : list event := [Main false 0; Main false 0; Main false 0; Main false 0].
Example C62_stops_case :
  let before := Sync false :: Sync false :: Sync false :: [] in
  let after := [Main false 0; Main true 0; Accept false; Main false 0; Main false 0; Conn 0 Nothing; Conn 0 (Send Forget); Conn 0 Nothing; Conn 0 Nothing; Conn 0 Nothing; Term; Ran] in
  forallb no_detach (before ++ after) = true /\
  let s := run (start false) (before ++ Main false 0 :: after ++ [Conn 0 Nothing; Main false 0; Main false 0; Main false 0; Main false 0; Main false 0;
    Main false 0; Main false 0; Main false 0; Main false 0; Main false 0; Main false 0; Main false 0; Sync false; Sync true; Sync false; Sync false; Sync false; Sync false; Sync false; Main false 0; Main false 0; Main false 0]) in
  mpc s = MEnd /\ spc s = SReturned /\ pool s = false /\ conns s = [].
Proof. vm_compute. repeat split. Qed.

(** What one control connection does: it is accepted, it sends a control command and goes away. *)
Definition control (r : request) (n : nat) : list event := Accept true :: Conn 0 Nothing :: Conn 0 (Send r) :: repeat (Conn 0 Nothing) n.
Definition mains (n : nat) : list event := repeat (Main false 0) n.
Definition syncs (n : nat) : list event := repeat (Sync true) n.
(** The server comes up, is detached, and the sync thread waits to be attached again. *)
Definition detached : list event := up ++ control Detach 8 ++ mains 6 ++ syncs 10.
Example C62_detached_case : let s := run (start false) detached in isDetached s = true /\ pool s = false /\ node s = None /\ control_port s = true /\ command_ports s = false /\ conns s = [].
Proof. vm_compute. repeat split. Qed.
(** And attached again. *)
Example C62_attached_case : let s := run (start false) (detached ++ mains 2 ++ control Attach 5 ++ syncs 4 ++ mains 3 ++ [Main true 0]) in
  isDetached s = false /\ pool s = true /\ node s = Some false /\ command_ports s = true.
Proof. vm_compute. repeat split. Qed.

(** ** Where a signal does not stop the server *)
Lemma closed_run (P : server -> Prop) (es : list event) s : (forall t e, P t -> In e es -> P (step t e)) -> P s -> P (run s es).
Proof.
  intros H. assert (forall l, incl l es -> forall t, P t -> P (run t l)) as G; [|apply (G es (incl_refl es))].
  induction l as [|e l IH]; intros L t T; [exact T|]. cbn [run fold_left]. apply IH; [intros y Y; apply L; right; exact Y|]. apply H; [exact T|]. apply L. left. reflexivity.
Qed.
Lemma run_app s a b : run s (a ++ b) = run (run s a) b.
Proof. unfold run. apply fold_left_app. Qed.
(** The main thread waits for the sync thread, which works on. *)
Definition waits_for_ever (s : server) : Prop :=
  mpc s = MJoin /\ spc s = SLoop /\ node s = Some false /\ sd s = RUNNING /\ conns s = [] /\ pool s = true /\ command_ports s = false.
Lemma waits_for_ever_step s e : waits_for_ever s -> waits_for_ever (step s e).
Proof.
  intros (M & P & N & X & C & D & O). destruct s as [x de sh pl ba te ot tn no po cp ct cs qu m p]. fields. subst.
  destruct e as [v r|d|c|i h| | |]; cbn [step mpc]; unfold main_step, sync_step, accepting; fields; try (repeat split; fail).
  - destruct i; repeat split.
  - destruct qu; repeat split.
Qed.
(** If a SIGTERM comes when the server has been started but the main thread has not yet entered its loop
    (main.cpp 383), for instance while the server is constructed, that loop is skipped, and with it everything that begins a shutdown.  The main
    thread goes on to delete the server (main.cpp 444) and waits there for the sync thread, which opens the database and works as ever: the
    node takes part in the cluster, and can come to lead it, with its command ports never opened.  Nothing that happens later ends it, not even
    a second SIGTERM, because that is looked at before. *)
Theorem C62_early_refuted :
  exists es, forallb no_detach es = true /\ signals es = 1 /\
    forall later, let s := run (start false) (es ++ later) in
      mpc s = MJoin /\ node s = Some false /\ pool s = true /\ command_ports s = false.
Proof.
  exists (Term :: mains 1 ++ syncs 3). split; [reflexivity|]. split; [reflexivity|]. intros later. cbv zeta. rewrite run_app.
  assert (waits_for_ever (run (run (start false) (Term :: mains 1 ++ syncs 3)) later)) as (A & _ & B & _ & _ & C & D); [|auto].
  apply closed_run; [intros; apply waits_for_ever_step; assumption|]. vm_compute. repeat split.
Qed.
Print Assumptions C62_early_refuted.
(** A SIGTERM does not stop a server that is detached.  _beginShutdown clears the flag that the sync thread waits for (BedrockServer.cpp 1954),
    so the main thread finds the shutdown complete (1148-1157: not detached, and the sync loop is not running) and waits for the sync thread
    (main.cpp 444), and the sync thread takes the cleared flag for an Attach: it resets the server, opens the database and joins the cluster
    again (BedrockServer.cpp 52-62).  The process goes on for ever with its command ports and its control port closed, and no later signal ends it.
    (shutdownWhileDetached, which main.cpp 426 looks at, is never set to true.) *)
Theorem C62_detached_term_refuted :
  exists es, signals es = 0 /\ isDetached (run (start false) es) = true /\ conns (run (start false) es) = [] /\
  exists fs, signals fs = 1 /\
    forall later, let s := run (start false) (es ++ fs ++ later) in
      mpc s = MJoin /\ node s = Some false /\ pool s = true /\ command_ports s = false.
Proof.
  exists detached. split; [reflexivity|]. split; [vm_compute; reflexivity|]. split; [vm_compute; reflexivity|].
  exists (Term :: mains 14 ++ syncs 4). split; [reflexivity|]. intros later. cbv zeta. rewrite !run_app.
  assert (waits_for_ever (run (run (run (start false) detached) (Term :: mains 14 ++ syncs 4)) later)) as (A & _ & B & _ & _ & C & D); [|auto].
  apply closed_run; [intros; apply waits_for_ever_step; assumption|]. vm_compute. repeat split.
Qed.
Print Assumptions C62_detached_term_refuted.
(** Signals other than SIGTERM and SIGINT are neither ignored, as the message in main.cpp 386 says, nor do they end the process.  Any of them (SIGHUP, SIGUSR1, SIGCHLD)
    begins a shutdown (BedrockServer.cpp 1238-1240), which the server carries out: it closes its ports and its database, and the sync thread returns.  But the
    main thread leaves its outer loop for SIGTERM and SIGINT only: it goes round that loop without waiting anywhere, for ever, in a process that
    does nothing, until SIGTERM comes. *)
Theorem C62_other_refuted :
  exists es, forallb no_detach es = true /\ signals es = 0 /\
    forall later, signals later = 0 -> let s := run (start false) (es ++ later) in
      (mpc s = MOuter \/ mpc s = MInner) /\ spc s = SReturned /\ pool s = false /\ command_ports s = false /\ control_port s = false.
Proof.
  exists (up ++ [Other] ++ mains 17 ++ syncs 9 ++ mains 4). split; [reflexivity|]. split; [reflexivity|]. intros later Z. cbv zeta. rewrite run_app.
  set (P := fun s => (mpc s = MOuter \/ mpc s = MInner) /\ spc s = SReturned /\ pool s = false /\ command_ports s = false /\ control_port s = false /\ should s = false /\ detach s = false /\
    conns s = [] /\ term s = false).
  assert (P (run (run (start false) (up ++ [Other] ++ mains 17 ++ syncs 9 ++ mains 4)) later)) as (A & B & C & D & E & _); [|auto].
  apply closed_run; [|vm_compute; repeat split; auto].
  intros t e (A & B & C & D & E & F & G & H & I) J. destruct t as [x de sh pl ba te ot tn no po cp ct cs qu m p]. unfold P in *. fields. subst.
  assert (e <> Term) as K.
  { intros ->. unfold signals in Z. apply length_zero_iff_nil in Z. apply in_split in J as (a & b & ->). rewrite filter_app in Z. apply app_eq_nil in Z as [_ Z]. discriminate. }
  destruct A as [-> | ->]; destruct e as [v r|d|c|i h| | |]; cbn [step mpc]; unfold main_step, sync_step, accepting, shutdownComplete; fields; cbn [existsb andb orb negb]; fields;
    try (repeat split; auto; fail); try (destruct (K eq_refl)); try (destruct i; fields; repeat split; auto; fail); (destruct qu; [|destruct no]; fields; repeat split; auto).
Qed.
Print Assumptions C62_other_refuted.
(** ** Where a detached server is lost *)
Lemma conn_dead k h s s' n : over (sd s) = true -> harmless k -> conn_step (ctl k) (at_ k) h s = (s', n) ->
  detach s' = detach s /\ should s' = should s /\ pool s' = pool s /\ terms s' = terms s.
Proof.
  intros O [C H] E. rewrite C in *. assert (R : running (sd s) = false) by (destruct (sd s); try discriminate; reflexivity).
  unfold conn_step in E. destruct (at_ k) as [| |r|r| |b| | | |] eqn:K; try (destruct H; fail).
  - destruct (true && main_holds s)%bool; injection E as <- <-; auto.
  - destruct h; injection E as <- <-; auto.
  - destruct r; injection E as <- <-; auto.
  - destruct r; rewrite ?R in E; try (destruct H; fail); injection E as <- <-; auto.
  - destruct b; try (destruct H; fail). cbn [begin_step] in E. rewrite R in E. injection E as <- <-; auto.
  - injection E as <- <-; auto.
  - injection E as <- <-; auto.
Qed.
Record lost (s : server) : Prop := mkLost {
  l_inv : inv s; l_sd : sd s = COMMANDS_FINISHED; l_detach : detach s = true; l_should : should s = true; l_spc : spc s = SWait; l_pool : pool s = false;
  l_mpc : match mpc s with MInner | MPoll | MBegin B0 | MAccept | MStart => True | MOuter | MAbort => 2 <= terms s | _ => False end }.
Lemma lost_step s e : lost s -> lost (step s e).
Proof.
  intros [I X D Sh P Po M]. pose proof (inv_step s e I) as I'. destruct e as [v r|d|c|i h| | |].
  - destruct s as [x de sh pl ba te ot tn no po cp ct cs qu m p]. cbn [step] in *. fields. subst. constructor; [exact I'|..]; clear I I'; unfold main_step; fields;
      destruct m as [| | | |b'| | | | |none| | | |]; try (destruct M; fail); fields; try reflexivity; try exact Logic.I; try assumption.
    all: try (destruct te; reflexivity).
    all: try (destruct b'; try (destruct M; fail); reflexivity || exact Logic.I).
    all: try (unfold shutdownComplete, isDetached; fields; cbn [andb orb negb]; rewrite ?Bool.andb_false_r; destruct (2 <=? tn); reflexivity).
    all: try (rewrite Bool.andb_false_r; fields; try (destruct (te || ot)%bool); reflexivity || exact Logic.I).
    + destruct te; fields; [|exact Logic.I]. rewrite (proj2 (Nat.leb_le 2 tn) M). exact M.
    + unfold shutdownComplete, isDetached; fields. cbn [andb orb negb]. rewrite ?Bool.andb_false_r. destruct (2 <=? tn) eqn:T; fields; [apply Nat.leb_le, T|exact Logic.I].
  - destruct s as [x de sh pl ba te ot tn no po cp ct cs qu m p]. cbn [step] in *. fields. subst. destruct m; try (destruct M; fail); constructor; auto; reflexivity.
  - cbn [step] in *. destruct (_ && _)%bool; [|constructor; assumption]. constructor; [exact I'|..]; fields; assumption.
  - cbn [step] in *. assert (mpc s <> MAbort -> lost match nth_error (conns s) i with
        | Some k => let (s', n) := conn_step (ctl k) (at_ k) h s in
                    set_conns (firstn i (conns s) ++ match n with Some p => [mkConn (ctl k) p] | None => [] end ++ skipn (S i) (conns s)) s'
        | None => s end) as G.
    { intros NA. assert (I2 := inv_conn s i h I). destruct (nth_error (conns s) i) as [k|] eqn:K; [|constructor; assumption].
      assert (O : over (sd s) = true) by (rewrite X; reflexivity). destruct (i_over s I O) as [F _]. pose proof (proj1 (Forall_forall _ _) F k (nth_error_In _ _ K)) as Hk.
      destruct (conn_step (ctl k) (at_ k) h s) as [s' n] eqn:E. destruct (conn_effect _ _ _ _ _ _ E) as (Hn & Hm & Hs & Hc & _).
      destruct (conn_harmless _ _ _ _ _ O Hk E) as [[H1 _] _]. destruct (conn_dead _ _ _ _ _ O Hk E) as (H2 & H3 & H4 & H5).
      constructor; [exact I2|..]; fields; try congruence. rewrite Hm, H5. exact M. }
    destruct (mpc s) eqn:Q; try (destruct M; fail); try (apply G; discriminate). constructor; try assumption. rewrite Q. exact M.
  - cbn [step] in *. destruct (queued s); [constructor; assumption|]. destruct (node s); [|constructor; assumption]. constructor; [exact I'|..]; fields; assumption.
  - constructor; [exact I'|..]; cbn [step]; fields; try assumption. destruct (mpc s); try (destruct M; fail); try exact M; lia.
  - constructor; [exact I'|..]; cbn [step]; fields; assumption.
Qed.
(** A server that is sent Detach at the wrong time can never be attached again.  Detach tells a server that is detached already so only if _syncLoopShouldBeRunning is false
    (BedrockServer.cpp 1474-1477), and that is not so in a server started detached (-bootstrap), nor between an Attach and the sync thread's waking up from its
    sleep(1).  A Detach then begins another shutdown.  The sync thread, asleep until _detach is false, does not see it; Attach is refused because the server is
    not RUNNING (1715), and only the sync thread makes it RUNNING again.  The server stays without a database for ever, and a SIGTERM has no
    effect: _beginShutdown does nothing (1953), and shutdownComplete is false as long as _detach is true.  A second SIGTERM aborts it. *)
Theorem C62_detach_twice_refuted :
  (exists es, let s := run (start true) es in
    node s = None /\ signals es = 0 /\
    forall later, let t := run (start true) (es ++ later) in pool t = false /\ mpc t <> MEnd /\ (signals later <= 1 -> mpc t <> MAbort)) /\
  (exists es, let s := run (start false) es in
    node s = None /\ signals es = 0 /\
    forall later, let t := run (start false) (es ++ later) in pool t = false /\ mpc t <> MEnd /\ (signals later <= 1 -> mpc t <> MAbort)).
Proof.
  assert (forall b es, lost (run (start b) es) -> signals es = 0 -> forall later, let t := run (start b) (es ++ later) in pool t = false /\ mpc t <> MEnd /\ (signals later <= 1 -> mpc t <> MAbort)) as G.
  { intros b es L Z later. cbv zeta. rewrite run_app. assert (lost (run (run (start b) es) later)) as [_ _ _ _ _ P M]; [apply closed_run; [intros; apply lost_step; assumption|exact L]|].
    split; [exact P|]. split; [intros E; rewrite E in M; exact M|]. intros U A. rewrite A in M. rewrite !terms_run, Z in M. cbn [terms start] in M. lia. }
  split.
  - exists (syncs 5 ++ mains 3 ++ control Detach 8 ++ mains 12). split; [vm_compute; reflexivity|]. split; [reflexivity|]. apply G; [|reflexivity].
    constructor; try (vm_compute; reflexivity). apply inv_run, inv_start.
  - exists (detached ++ mains 2 ++ control Attach 4 ++ [Conn 0 Hangup; Conn 0 Nothing] ++ control Detach 8 ++ mains 12). split; [vm_compute; reflexivity|]. split; [reflexivity|]. apply G; [|reflexivity].
    constructor; try (vm_compute; reflexivity). apply inv_run, inv_start.
Qed.
Print Assumptions C62_detach_twice_refuted.
(** ** Backup *)
Definition pending (k : conn) : bool := match at_ k with KRead Detach | KMade Detach | KRead BeginBackup | KMade BeginBackup | KBegin B0 | KBegin B1 => true | _ => false end.
Definition pend (l : list conn) : nat := List.length (filter pending l).
Definition attaching (k : conn) : bool := match at_ k with KRead Attach | KMade Attach | KAttach => true | _ => false end.
Definition away (p : sync_pc) : bool := match p with SRunning | SPlugins | SWait | SReset => true | _ => false end.
Record once (u : bool) (m : nat) (s : server) : Prop := mkOnce {
  o_count : pend (conns s) + (if u then 1 else 0) + m <= 1;
  o_unused : u = false -> detach s = false /\ away (spc s) = false;
  o_attach : Forall (fun k => attaching k = false) (conns s);
  o_plugs : plugs s = true -> (spc s = SWait \/ spc s = SReset /\ detach s = false);
  o_away : away (spc s) = true -> pool s = false /\ node s = None;
  o_reset : spc s = SReset -> detach s = false;
  o_release : match spc s with SFlag | SDecide | STop => pool s = false /\ node s = None | _ => True end;
  o_backup : mpc s = MBackup -> detach s = true /\ plugs s = true }.
Lemma pend_replace i k x l : nth_error l i = Some k -> pend (firstn i l ++ x ++ skipn (S i) l) + (if pending k then 1 else 0) = pend l + pend x.
Proof.
  unfold pend. intros H. rewrite <- (firstn_skipn i l) at 3. assert (skipn i l = k :: skipn (S i) l) as ->.
  { clear x. revert l H. induction i as [|i IH]; intros [|y l] H; try discriminate; [injection H as ->; reflexivity|]. cbn [skipn]. apply IH, H. }
  rewrite !filter_app, !app_length. cbn [filter]. destruct (pending k); cbn [List.length]; lia.
Qed.
Lemma once_start : once false 1 (start false).
Proof. constructor; cbn; auto; try discriminate. Qed.
Ltac once_by := constructor; fields; cbn [away] in *; intros; subst; try discriminate; auto; try lia; try tauto; try (intuition congruence).
Lemma once_sync u m d s : inv s -> once u m s -> once u m (sync_step d s).
Proof.
  intros [_ _ _ _ N L _] [Oc Ou Oa Op Ow Or Ol Ob]. unfold sync_step. destruct s as [x de sh pl ba te ot tn no po cp ct cs qu mp p]. fields.
  assert (Pl : match p with SWait | SReset => True | _ => pl = false end).
  { destruct pl; [|destruct p; auto]. destruct (Op eq_refl) as [->|[-> _]]; exact Logic.I. }
  assert (Bk : mp = MBackup -> p = SWait /\ de = true /\ pl = true).
  { intros M. destruct (Ob M) as [B1 B2]. split; [|auto]. destruct (Op B2) as [|[_ B3]]; [assumption|congruence]. }
  destruct p; fields; cbn [away] in *.
  all: try (once_by; fail).
  - destruct de; once_by.
  - destruct de; once_by.
  - destruct no as [[|]|]; [destruct (d && _)%bool|destruct x|destruct x]; once_by.
  - destruct de; once_by.
Qed.
Lemma once_main u m v r s : once u m s -> once u m (main_step v r s).
Proof.
  intros [Oc Ou Oa Op Ow Or Ol Ob]. unfold main_step. destruct s as [x de sh pl ba te ot tn no po cp ct cs qu mp p]. fields.
  destruct mp as [| | | |b'| | | | |none| | | |]; fields.
  all: try (once_by; fail).
  - destruct te; [destruct (2 <=? tn)|]; once_by.
  - destruct (_ || _)%bool; [once_by|]. destruct (ba && _)%bool eqn:B; [|once_by]. apply andb_prop in B as [_ B]. unfold isDetached in B. fields. apply andb_prop in B as [B Bp]. apply andb_prop in B as [B _].
    once_by.
  - destruct (v && running x)%bool, no; fields; destruct (te || ot)%bool; once_by.
  - destruct b'; cbn [begin_step]; fields; [destruct (running x)|..]; once_by.
  - destruct x; once_by.
  - destruct (existsb holds cs); once_by.
  - destruct cs; [destruct none|]; once_by.
  - destruct p; once_by.
Qed.
Definition detaching (e : event) : nat := match e with Conn _ (Send Detach) | Conn _ (Send BeginBackup) => 1 | _ => 0 end.
Lemma once_step u m s e : inv s -> once u (detaching e + m) s -> sent Attach [e] = 0 -> exists u', once u' m (step s e).
Proof.
  intros I O A. destruct e as [v r|d|c|i h| | |]; cbn [step] in *; try change (once u m s) in O.
  - exists u. apply once_main, O.
  - exists u. destruct (mpc s); try exact O; apply once_sync; assumption.
  - exists u. destruct (_ && _)%bool; [|exact O]. destruct O as [Oc Ou Oa Op Ow Or Ol Ob]. constructor; fields; auto.
  - assert (Less : exists u', once u' m s).
    { exists u. destruct O. constructor; auto. lia. }
    assert (exists u', once u' m match nth_error (conns s) i with
        | Some k => let (s', n) := conn_step (ctl k) (at_ k) h s in
                    set_conns (firstn i (conns s) ++ match n with Some p => [mkConn (ctl k) p] | None => [] end ++ skipn (S i) (conns s)) s'
        | None => s end) as G; [|destruct (mpc s); assumption].
    destruct (nth_error (conns s) i) as [k|] eqn:K; [|exact Less]. pose proof (nth_error_In _ _ K) as IK. clear Less.
    destruct (conn_step (ctl k) (at_ k) h s) as [s' n] eqn:E. destruct (conn_effect _ _ _ _ _ _ E) as (Hn & Hm & Hs & Hc & _).
    destruct O as [Oc Ou Oa Op Ow Or Ol Ob]. pose proof (proj1 (Forall_forall _ _) Oa k IK) as Ak.
    pose proof (pend_replace i k match n with Some p => [mkConn (ctl k) p] | None => [] end (conns s) K) as PR.
    assert (detach s' = detach s /\ plugs s' = plugs s /\ pool s' = pool s /\
            pend match n with Some p => [mkConn (ctl k) p] | None => [] end <= (if pending k then 1 else 0) + detaching (Conn i h) /\
            Forall (fun k => attaching k = false) match n with Some p => [mkConn (ctl k) p] | None => [] end \/
            detach s' = true /\ plugs s' = plugs s /\ pool s' = pool s /\ pending k = true /\ n = Some (KBegin B2)) as [(D & P & Q & C & F)|(D & P & Q & C & F)].
    { clear PR Oc. unfold conn_step in E. unfold attaching in Ak. unfold pending. destruct (at_ k) as [| |r|r| |b'| | | |] eqn:At; try discriminate Ak.
      - destruct (ctl k && main_holds s)%bool; injection E as <- <-; left; repeat split; try (cbn; lia); repeat constructor.
      - destruct h as [| |r]; injection E as <- <-; left; repeat split; try (destruct (running (sd s))); try (cbn; lia); repeat constructor; destruct r; cbn; auto; discriminate A.
      - destruct r; try discriminate Ak; injection E as <- <-; left; repeat split; try (destruct (running (sd s))); try (cbn; lia); repeat constructor.
      - destruct r; try discriminate Ak; injection E as <- <-; left; repeat split; try (destruct (ctl k && negb (running (sd s)))%bool); try (destruct (isDetached s)); try (cbn; lia); repeat constructor.
      - destruct b'; cbn [begin_step] in E; [destruct (running (sd s))|..]; injection E as <- <-.
        + left. repeat split; try (cbn; lia); repeat constructor.
        + left. repeat split; try (cbn; lia); repeat constructor.
        + right. repeat split.
        + left. repeat split; try (cbn; lia); repeat constructor.
        + left. repeat split; try (cbn; lia); repeat constructor.
      - destruct (node s); injection E as <- <-; left; repeat split; try (destruct (running (sd s))); try (cbn; lia); repeat constructor.
      - injection E as <- <-; left; repeat split; try (destruct (running (sd s))); try (cbn; lia); repeat constructor.
      - injection E as <- <-; left; repeat split; try (cbn; lia); repeat constructor.
      - injection E as <- <-; left; repeat split; try (cbn; lia); repeat constructor. }
    + exists u. constructor; fields; rewrite ?Hn, ?Hm, ?Hs, ?D, ?P, ?Q; auto; [lia|]. apply Forall_replace; assumption.
    + subst n. rewrite C in PR. change (pend [mkConn (ctl k) (KBegin B2)]) with 0 in PR. destruct u; [lia|]. destruct (Ou eq_refl) as [O1 O2].
      exists true. constructor; fields; rewrite ?Hn, ?Hm, ?Hs, ?D, ?P, ?Q; auto.
      * lia.
      * apply Forall_replace; [assumption|repeat constructor].
      * intros X. destruct (Op X) as [Y|[Y _]]; rewrite Y in O2; discriminate.
      * intros X. rewrite X in O2. discriminate.
      * intros M. destruct (Ob M) as [B _]. congruence.
  - exists u. destruct (queued s); [exact O|]. destruct (node s); [|exact O]. destruct O. constructor; fields; auto.
  - exists u. destruct O. constructor; fields; auto.
  - exists u. destruct O. constructor; fields; auto.
Qed.
Lemma once_run es : forall u m s, inv s -> once u m s -> sent Attach es = 0 -> sent Detach es + sent BeginBackup es <= m -> exists u' m', once u' m' (run s es).
Proof.
  induction es as [|e es IH]; intros u m s I O A D; [eauto|].
  assert (sent Attach [e] = 0 /\ sent Attach es = 0) as [A1 A2].
  { unfold sent in *. change (e :: es) with ([e] ++ es) in A. rewrite filter_app, app_length in A. lia. }
  assert (detaching e + (sent Detach es + sent BeginBackup es) <= m) as D1.
  { unfold sent in *. cbn [filter] in D. destruct e as [| | |i [| |[]]| | |]; cbn [detaching List.length] in *; lia. }
  destruct (once_step u (m - detaching e) s e I) as [u' O'].
  - replace (detaching e + (m - detaching e)) with m by lia. exact O.
  - exact A1.
  - cbn [run fold_left]. apply (IH u' (m - detaching e) (step s e)); [apply inv_step, I|exact O'|exact A2|lia].
Qed.
(** C62: a server that is told once to make a backup copies a database that is closed. *)
Theorem C62_backup : forall es, sent Attach es = 0 -> sent Detach es + sent BeginBackup es <= 1 ->
  let s := run (start false) es in mpc s = MBackup -> pool s = false /\ node s = None.
Proof.
  intros es A D. cbv zeta. intros M. destruct (once_run es false 1 (start false) (inv_start false) once_start A D) as (u & m & [Oc Ou Oa Op Ow Or Ol Ob]).
  destruct (Ob M) as [B1 B2]. apply Ow. destruct (Op B2) as [->|[_ B]]; [reflexivity|congruence].
Qed.
Print Assumptions C62_backup.
Definition backup_begun : list event := up ++ control BeginBackup 8 ++ mains 6.
Example C62_backup_case : let es := backup_begun ++ syncs 10 ++ mains 1 in
  sent Attach es = 0 /\ sent Detach es + sent BeginBackup es = 1 /\ mpc (run (start false) es) = MBackup.
Proof. vm_compute. repeat split. Qed.
(** And then the server attaches itself again. *)
Example C62_backup_over_case : let s := run (start false) (backup_begun ++ syncs 10 ++ mains 2 ++ syncs 4 ++ mains 4 ++ [Main true 0]) in pool s = true /\ node s = Some false /\ command_ports s = true /\ backup s = false.
Proof. vm_compute. repeat split. Qed.
(** A backup can be a copy of a database that is in use.  An Attach is obeyed while the files are copied (BedrockServer.cpp 1713-1724 look
    only at _shutdownState, which is RUNNING in a detached server): the sync thread opens the database, and the node joins the cluster and
    writes, while the main thread copies the database file, then the write-ahead log, then the shared memory file.  (A connection to the
    control port is needed that was opened before, because the main thread does not accept any meanwhile.) *)
Theorem C62_backup_refuted :
  exists es, sent BeginBackup es = 1 /\ sent Attach es = 1 /\ sent Detach es = 0 /\
    let s := run (start false) es in mpc s = MBackup /\ pool s = true /\ node s = Some false.
Proof.
  exists (backup_begun ++ mains 2 ++ [Accept true; Conn 0 Nothing] ++ syncs 10 ++ mains 3 ++ Conn 0 (Send Attach) :: repeat (Conn 0 Nothing) 3 ++ [Sync false; Sync false; Sync false; Sync false]).
  vm_compute. repeat split.
Qed.
Print Assumptions C62_backup_refuted.
(** A command sent to the control port of a detached server can block it for ever.  An ordinary command
    waits in the queue, where no worker takes it, and its connection keeps the shared lock of the control port.  A BeginBackup that comes then on another connection
    begins a shutdown (it does not ask whether the server is detached), and the main thread waits for that lock exclusively
    (BedrockServer.cpp 1260) for ever: it accepts no connection, makes no backup, and looks at no signal. *)
Theorem C62_control_waits_refuted :
  exists es, isDetached (run (start false) (firstn (List.length detached) es)) = true /\ signals es = 0 /\
    forall later, let s := run (start false) (es ++ later) in
      mpc s = MLock /\ conns s = [mkConn true KRun] /\ pool s = false.
Proof.
  exists (detached ++ mains 2 ++ [Accept true; Conn 0 Nothing; Conn 0 (Send Plain); Conn 0 Nothing; Conn 0 Nothing] ++ control BeginBackup 8 ++ mains 2).
  split; [vm_compute; reflexivity|]. split; [reflexivity|]. intros later. cbv zeta. rewrite run_app.
  set (P := fun s => mpc s = MLock /\ conns s = [mkConn true KRun] /\ pool s = false /\ spc s = SWait /\ detach s = true /\ node s = None).
  assert (P (run (run (start false) (detached ++ mains 2 ++ [Accept true; Conn 0 Nothing; Conn 0 (Send Plain); Conn 0 Nothing; Conn 0 Nothing] ++ control BeginBackup 8 ++ mains 2)) later)) as (A & B & C & _); [|auto].
  apply closed_run; [|vm_compute; repeat split].
  intros t e (A & B & C & D & E & F) _. destruct t as [x de sh pl ba te ot tn no po cp ct cs qu m p]. unfold P in *. fields. subst.
  destruct e as [v r|d|c|i h| | |]; cbn [step mpc]; unfold main_step, sync_step, accepting; fields; try (repeat split; fail).
  - destruct i as [|i]; [|destruct i]; repeat split.
  - destruct qu; repeat split.
Qed.
Print Assumptions C62_control_waits_refuted.
(** When all commands are said to be finished there can be one.  The main thread counts the commands before it looks whether there are connections
    (BedrockServer.cpp 1264-1268): a connection with "Connection: forget" that is in between reading its request and making a command of
    it when they are counted, and gone when the connections are, leaves a command in the queue.  That one is run, however: the sync thread
    lets go of the database only when there is no command left (C62_let_go).  If it is one for the future, the node stays up until its time has come. *)
Theorem C62_count_refuted :
  exists es, forallb no_detach es = true /\ let s := run (start false) es in sd s = COMMANDS_FINISHED /\ queued s = 1.
Proof.
  exists (up ++ [Accept false; Conn 0 Nothing; Conn 0 (Send Forget); Conn 0 Nothing; Term] ++ mains 12 ++ [Conn 0 Nothing; Conn 0 Nothing; Conn 0 Nothing] ++ mains 2).
  split; [reflexivity|]. vm_compute. repeat split.
Qed.
Print Assumptions C62_count_refuted.
