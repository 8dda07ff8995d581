(** C52: reads return what the database holds for this transaction, in spite of the cache. *)
From Verif Require Import Base Reads_Spec Reads_Model Reads_Proofs.

Section props.
  Context (E : engine).
  (** [Q]: no read uses a function that is refused in writes. *)
  Section one.
    Context (Q : Prop).
    Definition entry_ok (a : option authorizer) (w : option whitelist) (d : e_db E) (e : bytes * e_rows E) : Prop :=
      forall env, evaluate E (permitted a w false) env (e_parse E (fst e)) d (e_none E) = (Done, snd e, d).
    Definition rel (s : ideal E) (h : handle E) : Prop :=
      h_file h = i_db s /\ h_auth h = i_auth s /\ h_white h = i_white s /\ h_rewrite h = None /\ (h_writing h = false \/ Q) /\
      match i_phase s with
      | Idle => h_inside h = false /\ h_view h = None /\ h_cache h = []
      | Inside v => h_inside h = true /\ h_view h = Some v /\ match v with None => h_cache h = [] | Some d => Forall (entry_ok (i_auth s) (i_white s) d) (h_cache h) end
      | Given_up => h_inside h = true /\ h_view h = None
      | Gone => False
      end.
    Definition fits (o : op E) : Prop := reads_well E o /\ keeps_whitelist E o /\ ((write_in_time E o /\ ~ Q) \/ (Q /\ no_refused E o)).
    Lemma cached_in q c r : cached E q c = Some r -> In (q, r) c.
    Proof.
      induction c as [|[k x] c IH]; cbn [cached]; [discriminate|]. destruct (bytes_eqb q k) eqn:B; [|intros H; right; apply IH, H]. apply bytes_eqb_eq in B. subst. intros H. injection H as ->. left. reflexivity.
    Qed.
    Lemma allow_read s h q b env t : rel s h -> fits (Query q b env t) -> forall env' d acc, evaluate E (allow E h) env' (e_parse E q) d acc = evaluate E (permitted (i_auth s) (i_white s) false) env' (e_parse E q) d acc.
    Proof.
      intros (_ & A & W & _ & Wr & _) (_ & _ & F) env' d acc. unfold allow. rewrite A, W. destruct Wr as [-> |HQ]; [reflexivity|]. destruct F as [[_ N]|[_ N]]; [contradiction|]. cbn [no_refused] in N. rewrite Forall_forall in N.
      apply evaluate_ext. intros st d' a S Ha. unfold permitted. destruct a; try reflexivity. rewrite (N st S d' name Ha), !andb_false_r. reflexivity.
    Qed.
    Lemma step_ok s h o : rel s h -> fits o -> match ideal_step E s o with (s', Some x) => exists h', step E h o = Some (h', x) /\ rel s' h' | (s', None) => True end.
    Proof.
      intros Hr Hf. pose proof Hr as (Rf & Ra & Rw & Rr & Rq & Rp). destruct s as [p d0 a w]. cbn [i_phase i_db i_auth i_white] in *. destruct o as [|q b env t|q env t|r| |d|a'|w']; cbn [step].
      - (* Begin *)
        destruct p as [|v| |]; cbn [ideal_step i_phase i_db]; try exact I; destruct Rp as (P1 & P2 & P3); unfold begin_; rewrite P1.
        + eexists. split; [reflexivity|]. unfold rel, in_phase. cbn. repeat split; assumption.
        + eexists. split; [reflexivity|]. unfold rel, in_phase, rollback. rewrite P1. cbn. repeat split; assumption.
      - (* Query *)
        assert (Hw : forall env' d acc, evaluate E (allow E h) env' (e_parse E q) d acc = evaluate E (permitted a w false) env' (e_parse E q) d acc) by (apply (allow_read _ _ _ _ _ _ Hr Hf)).
        destruct Hf as (HP & _ & _). cbn [reads_well] in HP.
        assert (Pu : Forall (pure E) (e_parse E q)) by (revert HP; apply Forall_impl; tauto). assert (Se : Forall (settled E) (e_parse E q)) by (revert HP; apply Forall_impl; tauto).
        destruct p as [|v| |]; [| |exact I|exact I].
        + (* outside *)
          destruct Rp as (P1 & P2 & P3).
          assert (X : exists h', read E h q b env t = (h', match t with InTime => match evaluate E (permitted a w false) env (e_parse E q) d0 (e_none E) with (Done, r, _) => Rows r | _ => False_ end | _ => Throws end) /\ rel (Ideal Idle d0 a w) h').
          { unfold read. rewrite P3. cbn [cached]. replace (if b then None else None) with (@None (e_rows E)) by (destruct b; reflexivity). replace (current E h) with d0 by (unfold current; rewrite P2, Rf; reflexivity).
            pose proof (squery_eq E h false env Rr (e_parse E q) d0 (e_none E) true) as S. pose proof (evaluate_pure E (allow E h) env (e_parse E q) Pu d0 (e_none E)) as PV.
            destruct (squery E h false env (e_parse E q) d0 (e_none E) true) as [[[[c r] d1] rq] det]. destruct S as (S1 & -> & _). rewrite S1 in PV. destruct PV as [NL ->]. rewrite Hw in S1. rewrite S1. cbn [with_rewritten].
            assert (H1 : with_db E h d0 = h) by (unfold with_db; rewrite P2, <- Rf; destruct h; cbn in *; subst; reflexivity). rewrite H1. destruct c; cbn [seen] in *; try congruence; rewrite P1, andb_false_r; (eexists; split; [|exact Hr]); destruct t; reflexivity. }
          destruct X as (h' & X1 & X2). rewrite X1. destruct t; cbn [ideal_step i_phase i_db i_auth i_white]; exists h'; (split; [reflexivity|exact X2]).
        + (* inside *)
          destruct Rp as (P1 & P2 & P3). set (d := match v with Some d => d | None => d0 end).
          assert (Cu : current E h = d) by (unfold current, d; rewrite P2, Rf; destruct v; reflexivity).
          assert (Ch : Forall (entry_ok a w d) (h_cache h)) by (unfold d; destruct v; [exact P3|rewrite P3; constructor]).
          assert (X : exists h', read E h q b env t = (h', match t with InTime => match evaluate E (permitted a w false) env (e_parse E q) d (e_none E) with (Done, r, _) => Rows r | _ => False_ end | _ => Throws end) /\ rel (Ideal (Inside (Some d)) d0 a w) h').
          { unfold read. destruct (if b then None else cached E q (h_cache h)) as [r|] eqn:Hc.
            - destruct b; [discriminate|]. apply cached_in in Hc. assert (V : v = Some d). { unfold d. destruct v; [reflexivity|]. rewrite P3 in Hc. destruct Hc. }
              rewrite Forall_forall in Ch. specialize (Ch _ Hc env). cbn [fst snd] in Ch. rewrite Ch. exists h. split; [reflexivity|]. rewrite <- V. exact Hr.
            - clear Hc. rewrite Cu. pose proof (squery_eq E h false env Rr (e_parse E q) d (e_none E) true) as S. pose proof (evaluate_pure E (allow E h) env (e_parse E q) Pu d (e_none E)) as PV.
              destruct (squery E h false env (e_parse E q) d (e_none E) true) as [[[[c r] d1] rq] det]. destruct S as (S1 & -> & S3). rewrite S1 in PV. destruct PV as [NL ->]. rewrite Hw in S1. rewrite S1. cbn [with_rewritten].
              assert (R1 : rel (Ideal (Inside (Some d)) d0 a w) (with_db E h d)) by (unfold rel, with_db; rewrite P2; cbn; repeat split; assumption).
              assert (R2 : c = RDone -> det = true -> rel (Ideal (Inside (Some d)) d0 a w) (with_cache E (with_db E h d) (h_cache (with_db E h d) ++ [(q, r)]))).
              { intros -> ->. unfold rel, with_db, with_cache. rewrite P2. cbn. repeat split; try assumption. apply Forall_app. split; [exact Ch|]. constructor; [|constructor]. intros env'. cbn [fst snd].
                change (Done, r, d) with (seen RDone, r, d). rewrite <- S1. apply evaluate_env; [exact Pu|exact Se|]. apply S3; [exact Pu|reflexivity|reflexivity]. }
              destruct (negb b && det)%bool eqn:Bd; [apply andb_true_iff in Bd as [_ ->]|]; cbn [andb].
              + destruct c; cbn [seen] in *; try congruence; destruct t; cbn [andb]; try (eexists; split; [reflexivity|exact R1]); replace (h_inside (with_db E h d)) with true by (unfold with_db; rewrite P2; cbn; symmetry; exact P1); (eexists; split; [reflexivity|apply R2; reflexivity]).
              + destruct c; cbn [seen] in *; try congruence; destruct t; (eexists; split; [reflexivity|exact R1]). }
          destruct X as (h' & X1 & X2). rewrite X1. destruct t; cbn [ideal_step i_phase i_db i_auth i_white]; exists h'; (split; [reflexivity|exact X2]).
      - (* Write *)
        destruct p as [|v| |]; [| |exact I|exact I].
        + destruct Rp as (P1 & P2 & P3). cbn [ideal_step i_phase]. unfold write. rewrite P1. cbn [negb]. exists h. split; [reflexivity|exact Hr].
        + destruct Rp as (P1 & P2 & P3). cbn [ideal_step i_phase i_db i_auth i_white]. set (d := match v with Some d => d | None => d0 end). unfold write. rewrite P1. cbn [negb].
          set (h1 := with_writing E (with_cache E h []) true). assert (Cu : current E h1 = d) by (unfold current, d, h1; cbn; rewrite P2, Rf; destruct v; reflexivity).
          assert (Hq : t = InTime \/ Q) by (destruct Hf as (_ & _ & [[F _]|[F _]]); [left; exact F|right; exact F]).
          assert (Rr1 : h_rewrite h1 = None) by exact Rr. rewrite Cu.
          pose proof (squery_eq E h1 false env Rr1 (e_parse E q) d (e_none E) true) as S. unfold allow in S. change (h_writing h1) with true in S. change (h_auth h1) with (h_auth h) in S. change (h_white h1) with (h_white h) in S. rewrite Ra, Rw in S.
          destruct (squery E h1 false env (e_parse E q) d (e_none E) true) as [[[[c r] d1] rq] det]. destruct S as (S1 & -> & _). rewrite S1. cbn [with_rewritten].
          assert (Rr2 : h_rewrite (with_db E h1 d1) = None) by (unfold with_db; destruct (h_view h1); exact Rr). rewrite Rr2.
          assert (G : Q -> rel (Ideal Given_up d0 a w) (given_up E h1)) by (intros HQ; unfold rel, given_up, h1; cbn; repeat split; try assumption; right; exact HQ).
          assert (G' : forall b, (b = true -> Q) -> rel (Ideal Given_up d0 a w) (with_writing E (given_up E (with_db E h1 d1)) b)).
          { intros b Hb. unfold rel, given_up, with_db, with_writing, h1. cbn. rewrite P2. cbn. repeat split; try assumption. destruct b; [right; apply Hb; reflexivity|left; reflexivity]. }
          assert (N : forall b, (b = true -> Q) -> rel (Ideal (Inside (Some d1)) d0 a w) (with_writing E (with_db E h1 d1) b)).
          { intros b Hb. unfold rel, with_db, with_writing, h1. cbn. rewrite P2. cbn. repeat split; try assumption; [|constructor]. destruct b; [right; apply Hb; reflexivity|left; reflexivity]. }
          assert (K : rel (Ideal (Inside (Some d1)) d0 a w) (keep E (with_writing E (with_db E h1 d1) false) q)).
          { unfold rel, with_db, with_writing, keep, h1. cbn. rewrite P2. cbn. repeat split; try assumption; [|constructor]. left; reflexivity. }
          assert (W1 : with_db E h1 d1 = with_writing E (with_db E h1 d1) true) by (unfold with_db, with_writing, h1; cbn; rewrite P2; reflexivity).
          assert (W2 : given_up E (with_db E h1 d1) = with_writing E (given_up E (with_db E h1 d1)) true) by (unfold given_up, with_db, with_writing, h1; cbn; rewrite P2; reflexivity).
          assert (HQ : t <> InTime -> Q) by (intros T; destruct Hq; [contradiction|assumption]).
          destruct t; destruct c; cbn [seen];
            try (eexists; split; [reflexivity|]; first [exact K | apply N; discriminate | apply G'; discriminate | apply G, HQ; discriminate]).
          all: try (eexists; split; [reflexivity|]; rewrite W1; apply N; intros _; apply HQ; discriminate).
          all: try (eexists; split; [reflexivity|]; rewrite W2; apply G'; intros _; apply HQ; discriminate).
      - (* Commit *)
        destruct p as [|v| |]; [exact I| |exact I|exact I]. destruct Rp as (P1 & P2 & P3). unfold commit. rewrite P1, P2. cbn [negb ideal_step i_phase i_db i_auth i_white]. destruct r as [d|].
        + eexists. split; [reflexivity|]. unfold rel. cbn. repeat split; assumption.
        + eexists. split; [reflexivity|]. unfold rel, with_db, current, in_phase. rewrite P2. cbn. rewrite Rf. repeat split; try assumption. destruct v; [exact P3|]. cbn. rewrite P3. constructor.
      - (* Rollback *)
        unfold rollback. destruct p as [|v| |]; [| | |exact I]; cbn [ideal_step i_phase].
        + destruct Rp as (P1 & P2 & P3). rewrite P1. eexists. split; [reflexivity|]. unfold rel, in_phase. cbn. repeat split; assumption.
        + destruct Rp as (P1 & P2 & P3). rewrite P1. eexists. split; [reflexivity|]. unfold rel, in_phase. cbn. repeat split; assumption.
        + destruct Rp as (P1 & P2). rewrite P1. eexists. split; [reflexivity|]. unfold rel, in_phase. cbn. repeat split; assumption.
      - (* Others *)
        destruct p as [|v| |]; [| | |exact I]; cbn [ideal_step i_phase i_auth i_white]; (eexists; split; [reflexivity|]); unfold rel; cbn; repeat split; try assumption; try apply Rp.
      - (* SetAuthorizer *)
        destruct p as [|v| |]; [| | |exact I]; cbn [ideal_step i_phase i_db i_white]; (eexists; split; [reflexivity|]); unfold rel; cbn; repeat split; try assumption; try apply Rp.
        destruct v; [constructor|reflexivity].
      - destruct Hf as (_ & [] & _).
    Qed.
    Lemma run_ok l : Forall fits l -> forall s h, rel s h -> agree E (ideal_run E s l) (run E h l).
    Proof.
      induction 1 as [|o l F _ IH]; intros s h R; cbn [ideal_run run]; [reflexivity|]. pose proof (step_ok s h o R F) as S. destruct (ideal_step E s o) as [s' [x|]]; cbn [agree]; [|exact I].
      destruct S as (h' & -> & R'). split; [reflexivity|]. apply IH, R'.
    Qed.
  End one.

  (** A handle that has just been opened. *)
  Definition fresh (d : e_db E) (a : option authorizer) (w : option whitelist) : handle E := Handle d None false [] false None [] a w [].
  (** Whatever is read and written on a handle in whatever order, while others commit: every read and every write gives what it gives without a cache, on the one view its transaction has
      of the database.  Provided what is read does not write, depends on nothing but the database unless it calls one of the functions known for that, the whitelist is set once, and either no write runs over its
      time or the reads do without the functions that are refused in writes. *)
  Theorem C52_reads : forall d a w l, Forall (reads_well E) l -> Forall (keeps_whitelist E) l -> (Forall (write_in_time E) l \/ Forall (no_refused E) l) ->
    agree E (ideal_run E (Ideal Idle d a w) l) (run E (fresh d a w) l).
  Proof.
    intros d a w l H1 H2 [H3|H3]; [apply (run_ok False)|apply (run_ok True)];
      try (unfold rel, fresh; cbn; repeat split; left; reflexivity); rewrite Forall_forall in *; intros o O; (split; [apply H1, O|split; [apply H2, O|]]).
    - left. split; [apply H3, O|tauto].
    - right. split; [exact I|apply H3, O].
  Qed.
  (** What goes into the journal is what was carried out: the writes of the open transaction that gave rows, each once, in their order, and nothing else. *)
  Lemma read_kept h q b env t : h_rewrite h = None -> let h' := fst (read E h q b env t) in h_kept h' = h_kept h /\ h_inside h' = h_inside h /\ h_rewrite h' = None.
  Proof.
    intros R. unfold read. destruct (if b then None else _); [repeat split; exact R|]. destruct (squery _ _ _ _ _ _ _) as [[[[c r] d] rq] det]. cbn [fst]. cbv zeta.
    assert (G : forall h' : handle E, h_kept h' = h_kept h /\ h_inside h' = h_inside h /\ h_rewrite h' = None -> forall c, h_kept (with_cache E h' c) = h_kept h /\ h_inside (with_cache E h' c) = h_inside h /\ h_rewrite (with_cache E h' c) = None) by (intros h' H c0; exact H).
    match goal with |- context [if _ && _ && _ && _ then with_cache E ?x _ else _] => assert (X : h_kept x = h_kept h /\ h_inside x = h_inside h /\ h_rewrite x = None) end.
    { unfold with_db. destruct (h_view h), rq, c; cbn; repeat split; exact R. }
    destruct (_ && _ && _ && _); [apply G, X|exact X].
  Qed.
  Lemma step_kept h o h' x : h_rewrite h = None -> (h_inside h = false -> h_kept h = []) -> step E h o = Some (h', x) ->
    h_kept h' = carried_out (h_kept h) (o, x) /\ h_rewrite h' = None /\ (h_inside h' = false -> h_kept h' = []).
  Proof.
    intros R I. destruct o as [|q b env t|q env t|r| |d|a|w]; cbn [step].
    - unfold begin_, rollback. destruct (h_inside h) eqn:IN; intros H; injection H as <- <-; cbn; repeat split; auto; discriminate.
    - intros H. injection H as H. pose proof (read_kept h q b env t R) as K. rewrite H in K. cbn [fst] in K. destruct K as (K1 & K2 & K3). rewrite K1, K2. cbn. repeat split; auto.
    - unfold write. destruct (h_inside h) eqn:IN; cbn [negb]; [|intros H; injection H as <- <-; repeat split; auto; rewrite IN; exact I].
      set (h1 := with_writing E (with_cache E h []) true). assert (R1 : h_rewrite h1 = None) by exact R. assert (K1 : h_kept h1 = h_kept h) by reflexivity. assert (I1 : h_inside h1 = true) by exact IN. clearbody h1.
      assert (DONE : forall h' : handle E, h_kept h' = h_kept h -> h_inside h' = true -> h_rewrite h' = None -> forall y, (forall z, y <> Rows z) ->
        h_kept h' = carried_out (h_kept h) (Write q env t, y) /\ h_rewrite h' = None /\ (h_inside h' = false -> h_kept h' = [])).
      { intros g A B C y Y. rewrite A, B. split; [|split; [exact C|discriminate]]. destruct y; try reflexivity. destruct (Y r eq_refl). }
      pose proof (squery_eq E h1 false env R1 (e_parse E q) (current E h1) (e_none E) true) as S.
      destruct (squery E h1 false env (e_parse E q) (current E h1) (e_none E) true) as [[[[c r] d] rq] det]. destruct S as (_ & -> & _). cbn [with_rewritten].
      assert (W : h_rewrite (with_db E h1 d) = None /\ h_kept (with_db E h1 d) = h_kept h /\ h_inside (with_db E h1 d) = true) by (unfold with_db; destruct (h_view h1); cbn; auto).
      destruct W as (W1 & W2 & W3). rewrite W1. set (h2 := with_db E h1 d) in *. clearbody h2.
      destruct t; [| |intros H; injection H as <- <-; apply DONE; cbn; auto; discriminate].
      all: destruct c; intros H; injection H as <- <-; try (apply DONE; cbn; auto; discriminate).
      cbn. rewrite W2, W3. repeat split; auto. discriminate.
    - unfold commit. destruct (h_inside h) eqn:IN; cbn [negb]; [|discriminate]. destruct (h_view h) as [v|] eqn:V; [|discriminate]. destruct r as [d|]; intros H; injection H as <- <-; cbn; auto.
      unfold with_db. rewrite V. cbn. rewrite IN. repeat split; auto.
    - intros H. injection H as <- <-. unfold rollback. cbn. destruct (h_inside h); repeat split; auto.
    - intros H. injection H as <- <-. cbn. auto.
    - intros H. injection H as <- <-. cbn. auto.
    - intros H. injection H as <- <-. cbn. auto.
  Qed.
  Theorem C52_kept : forall d a w l h, after E (fresh d a w) l = Some h -> h_kept h = fold_left carried_out (combine l (run E (fresh d a w) l)) [].
  Proof.
    intros d a w l h. set (g := fresh d a w). assert (R : h_rewrite g = None) by reflexivity. assert (I : h_inside g = false -> h_kept g = []) by reflexivity.
    change (@nil bytes) with (h_kept g). clearbody g. clear d a w. revert g R I. induction l as [|o l IH]; intros g R I; cbn [after run]; [intros H; injection H as <-; reflexivity|].
    destruct (step E g o) as [[g' x]|] eqn:S; [|discriminate]. destruct (step_kept g o g' x R I S) as (A & B & C). cbn [combine fold_left]. rewrite <- A. apply IH; assumption.
  Qed.
  (** Rewriting.  When the handler claims an action of a write that is one statement, the write does what the text the handler gives would have done, with rewriting off; only the rows that
      text returns are not given to the caller. *)
  Definition off (h : handle E) : handle E := Handle (h_file h) (h_view h) (h_inside h) (h_cache h) (h_writing h) None (h_rewritten h) (h_auth h) (h_white h) (h_kept h).
  Lemma authorize_running h h' a : h_auth h = h_auth h' -> h_white h = h_white h' -> h_writing h = h_writing h' -> h_rewrite h' = None -> authorize E h true a = authorize E h' false a.
  Proof. intros E1 E2 E3 E4. unfold authorize. rewrite E1, E2, E3, E4. reflexivity. Qed.
  Lemma compile_running h h' : h_auth h = h_auth h' -> h_white h = h_white h' -> h_writing h = h_writing h' -> h_rewrite h' = None -> forall l ign det, compile E h true l ign det = compile E h' false l ign det.
  Proof.
    intros E1 E2 E3 E4. induction l as [|a l IH]; intros ign det; [reflexivity|]. cbn [compile]. rewrite (authorize_running h h' a E1 E2 E3 E4). destruct (authorize E h' false a) as [[v q] d]. destruct v; try reflexivity; apply IH.
  Qed.
  Lemma squery_running h h' env : h_auth h = h_auth h' -> h_white h = h_white h' -> h_writing h = h_writing h' -> h_rewrite h' = None -> forall l d rows det, squery E h true env l d rows det = squery E h' false env l d rows det.
  Proof.
    intros E1 E2 E3 E4. induction l as [|s l IH]; intros d rows det; [reflexivity|]. cbn [squery]. rewrite (compile_running h h' E1 E2 E3 E4). destruct (compile E h' false _ _ _) as [[[ok ign] q] dd]. destruct ok; [|reflexivity].
    destruct (e_exec E s ign env d) as [[c r] d1]. destruct c; try reflexivity. apply IH.
  Qed.
  Lemma compile_claimed h f pre a post q2 : h_rewrite h = Some f -> (forall b, In b pre -> f b = None /\ permitted (h_auth h) (h_white h) (h_writing h) b <> Deny) -> f a = Some q2 ->
    forall ign det, exists ign' det', compile E h false (pre ++ a :: post) ign det = (false, ign', Some q2, det').
  Proof.
    intros R P A. induction pre as [|b pre IH]; intros ign det; cbn [app compile].
    - unfold authorize at 1. rewrite R, A. eexists _, _. reflexivity.
    - destruct (P b (or_introl eq_refl)) as (P1 & P2).
      assert (X : authorize E h false b = authorize E (off h) false b) by (unfold authorize; rewrite R, P1; reflexivity). rewrite X, (authorize_eq E (off h) false b eq_refl). change (allow E (off h) b) with (permitted (h_auth h) (h_white h) (h_writing h) b).
      specialize (IH (fun b' B => P b' (or_intror B))). destruct (permitted (h_auth h) (h_white h) (h_writing h) b); [apply IH|apply IH|congruence].
  Qed.
  Theorem C52_rewrite : forall h f q q2 env s pre a post, h_inside h = true -> h_rewrite h = Some f -> e_parse E q = [s] -> e_actions E s (current E h) = pre ++ a :: post ->
    (forall b, In b pre -> f b = None /\ permitted (h_auth h) (h_white h) true b <> Deny) -> f a = Some q2 -> ends_in_semicolon q2 = true ->
    exists h1 h2 x y, write E h q env InTime = Some (h1, x) /\ write E (off h) q2 env InTime = Some (h2, y) /\
      h_file h1 = h_file h2 /\ h_view h1 = h_view h2 /\ h_kept h1 = h_kept h2 /\ x = match y with Rows _ => Rows (e_none E) | _ => y end.
  Proof.
    intros h f q q2 env s pre a post I R P Ac Pre A S. unfold write. change (h_inside (off h)) with (h_inside h). rewrite I. cbn [negb].
    set (g := with_writing E (with_cache E h []) true). set (g' := with_writing E (with_cache E (off h) []) true).
    assert (Cg : current E g = current E h) by reflexivity. assert (Cg' : current E g' = current E h) by reflexivity. rewrite P. cbn [squery]. rewrite Cg, Ac.
    destruct (compile_claimed g f pre a post q2 R Pre A [] true) as (ign' & det' & ->).
    set (k := with_rewritten E (with_db E g (current E h)) (Some q2)).
    assert (Kr : h_rewrite k = Some f) by (unfold k, with_rewritten, with_db; destruct (h_view g); exact R). rewrite Kr.
    assert (Kq : h_rewritten k = q2) by reflexivity. rewrite Kq, S.
    assert (Kc : current E k = current E h) by (unfold k, with_rewritten, with_db, current, g; cbn; destruct (h_view h) as [[?|]|]; reflexivity). rewrite Kc, Cg'.
    assert (Ka : h_auth k = h_auth g') by (unfold k, with_rewritten, with_db; destruct (h_view g); reflexivity). assert (Kw : h_white k = h_white g') by (unfold k, with_rewritten, with_db; destruct (h_view g); reflexivity).
    assert (Kv : h_writing k = h_writing g') by (unfold k, with_rewritten, with_db; destruct (h_view g); reflexivity).
    rewrite (squery_running k g' env Ka Kw Kv eq_refl). pose proof (squery_eq E g' false env eq_refl (e_parse E q2) (current E h) (e_none E) true) as SQ.
    destruct (squery E g' false env (e_parse E q2) (current E h) (e_none E) true) as [[[[c r] d] rq] dd]. destruct SQ as (_ & -> & _). cbn [with_rewritten].
    assert (O : h_rewrite (with_db E g' d) = None) by (unfold with_db; destruct (h_view g'); reflexivity). rewrite O.
    assert (F : h_file (with_db E k d) = h_file (with_db E g' d) /\ h_view (with_db E k d) = h_view (with_db E g' d) /\ h_kept (with_db E k d) = h_kept (with_db E g' d)).
    { unfold k, with_rewritten, with_db, g, g'. cbn. destruct (h_view h); cbn; repeat split. }
    destruct F as (F1 & F2 & F3). clearbody k g'. destruct c; eexists _, _, _, _; (split; [reflexivity|]); (split; [reflexivity|]); cbn; rewrite ?F1, ?F2, ?F3; repeat split; reflexivity.
  Qed.
End props.
Print Assumptions C52_reads.
Print Assumptions C52_kept.
Print Assumptions C52_rewrite.

(** * Cases
    A small database: one table t with one column x of numbers; the environment is a number, the time or a random number. *)
Inductive tstmt := List_ | Count | Add (n : N) | Now | Random | AddAny | Full | AddOther.
Definition toy_parse (q : bytes) : list tstmt :=
  if bytes_eqb q (lit "SELECT x FROM t;") then [List_] else if bytes_eqb q (lit "SELECT count(*) FROM t;") then [Count] else if bytes_eqb q (lit "INSERT INTO t VALUES(5);") then [Add 5]
  else if bytes_eqb q (lit "INSERT INTO t VALUES(6);") then [Add 6] else if bytes_eqb q (lit "SELECT current_timestamp;") then [Now] else if bytes_eqb q (lit "SELECT random();") then [Random]
  else if bytes_eqb q (lit "INSERT INTO t VALUES(randomblob(1));") then [AddAny] else if bytes_eqb q (lit "INSERT INTO t SELECT * FROM big;") then [Full]
  else if bytes_eqb q (lit "INSERT INTO u VALUES(1);") then [AddOther] else [].
Definition toy_actions (s : tstmt) : list action :=
  match s with
  | List_ => [Select; Read (lit "t") (lit "x")] | Count => [Select; Function_ (lit "count"); Read (lit "t") []] | Add _ => [Insert (lit "t")] | Now => [Select; Function_ (lit "current_timestamp")]
  | Random => [Select; Function_ (lit "random")] | AddAny => [Insert (lit "t"); Function_ (lit "randomblob")] | Full => [Insert (lit "t"); Select] | AddOther => [Insert (lit "u")]
  end.
Definition toy_exec (s : tstmt) (ign : list action) (env : N) (d : list N) : code * list N * list N :=
  match s with
  | List_ => (Done, match ign with [] => d | _ => [] end, d) | Count => (Done, [N.of_nat (List.length d)], d) | Add n => (Done, [], d ++ [n]) | Now | Random => (Done, [env], d)
  | AddAny => (Done, [], d ++ [env]) | Full => (Lost, [], d) | AddOther => (Done, [], d)
  end.
Definition toy : engine := {| e_db := list N; e_stmt := tstmt; e_env := N; e_rows := list N; e_none := []; e_add := @app N; e_parse := toy_parse; e_actions := fun s _ => toy_actions s; e_exec := toy_exec |}.
Definition rd (q : string) (env : N) : op toy := Query (E := toy) (lit q) false env InTime.
Definition wr (q : string) (env : N) : op toy := Write (E := toy) (lit q) env InTime.
Definition opened (d : list N) : handle toy := fresh toy d None None.
Definition ideally (d : list N) : ideal toy := Ideal (E := toy) Idle d None None.

Definition some_ops : list (op toy) :=
  [Begin; rd "SELECT x FROM t;" 1; Others (E := toy) [7; 8]%N; rd "SELECT x FROM t;" 2; rd "SELECT random();" 3; rd "SELECT random();" 4; wr "INSERT INTO t VALUES(5);" 5; rd "SELECT x FROM t;" 6; Rollback; rd "SELECT x FROM t;" 7].
Lemma toy_reads q env : (q = "SELECT x FROM t;" \/ q = "SELECT random();" \/ q = "SELECT count(*) FROM t;")%string -> reads_well toy (rd q env).
Proof.
  intros [->|[->| ->]]; (apply Forall_cons; [|apply Forall_nil]); (split; [intros ign e d; split; [discriminate|reflexivity]|intros d H ign e e'; try reflexivity]).
  specialize (H (lit "random") (or_intror (or_introl eq_refl))). discriminate.
Qed.
Example C52_kept_case :
  match after toy (opened [1]%N) (some_ops ++ [Begin; wr "INSERT INTO t VALUES(6);" 0; wr "INSERT INTO t SELECT * FROM big;" 0]) with Some h => h_kept h | None => [] end = [lit "INSERT INTO t VALUES(6);"].
Proof. vm_compute. reflexivity. Qed.
Example C52_case : Forall (reads_well toy) some_ops /\ Forall (keeps_whitelist toy) some_ops /\ Forall (write_in_time toy) some_ops /\
  run toy (opened [1]%N) some_ops = [Quiet; Rows (E := toy) [1]%N; Quiet; Rows (E := toy) [1]%N; Rows (E := toy) [3]%N; Rows (E := toy) [4]%N; Rows (E := toy) []; Rows (E := toy) [1; 5]%N; Quiet; Rows (E := toy) [7; 8]%N] /\
  (exists h, after toy (opened [1]%N) (firstn 4 some_ops) = Some h /\ h_cache h = [(lit "SELECT x FROM t;", [1]%N)]).
Proof.
  split; [|split; [|split; [|split; [reflexivity|eexists; split; reflexivity]]]].
  - repeat (apply Forall_cons; [first [exact I | apply toy_reads; tauto]|]). apply Forall_nil.
  - repeat (apply Forall_cons; [exact I|]). apply Forall_nil.
  - repeat (apply Forall_cons; [first [exact I | reflexivity]|]). apply Forall_nil.
Qed.
Definition mocking (a : action) : option bytes := match a with Insert t => if bytes_eqb t (lit "u") then Some (lit "INSERT INTO t VALUES(5);") else None | _ => None end.
Definition mocked (rewritten : bytes) : handle toy := Handle (E := toy) [1]%N (Some None) true [] false (Some mocking) rewritten None None [].
Example C52_rewrite_case : exists s a, e_parse toy (lit "INSERT INTO u VALUES(1);") = [s] /\ e_actions toy s (current toy (mocked [])) = [] ++ a :: [] /\ mocking a = Some (lit "INSERT INTO t VALUES(5);") /\
  ends_in_semicolon (lit "INSERT INTO t VALUES(5);") = true /\
  exists h, write toy (mocked []) (lit "INSERT INTO u VALUES(1);") 0%N InTime = Some (h, Rows (E := toy) []) /\ h_view h = Some (Some [1; 5]%N) /\ h_kept h = [lit "INSERT INTO t VALUES(5);"].
Proof. exists AddOther, (Insert (lit "u")). repeat split. eexists. repeat split. Qed.

(** Refuted: the list of functions whose results are not kept is incomplete.  current_timestamp (and current_time, current_date, unixepoch, randomblob, total_changes) is not on it, so within one transaction a
    query with it returns the time of the first call again and again: a command that waits for a time to come by reading it never sees it come. *)
Theorem C52_volatile_refuted : exists l, run toy (opened []) l = [Quiet; Rows (E := toy) [1]%N; Rows (E := toy) [1]%N] /\
  ideal_run toy (ideally []) l = [Some Quiet; Some (Rows (E := toy) [1]%N); Some (Rows (E := toy) [2]%N)].
Proof. exists [Begin; rd "SELECT current_timestamp;" 1; rd "SELECT current_timestamp;" 2]. split; reflexivity. Qed.

(** Refuted: a whitelist set during a transaction does not hold for queries that were run before in it: their results come from the cache, with the columns that are not on the list.
    Setting an authorizer empties the cache; the whitelist is a public member and setting it does not. *)
Theorem C52_whitelist_refuted : exists l, run toy (opened [1]%N) l = [Quiet; Rows (E := toy) [1]%N; Quiet; Rows (E := toy) [1]%N] /\
  ideal_run toy (ideally [1]%N) l = [Some Quiet; Some (Rows (E := toy) [1]%N); Some Quiet; Some (Rows (E := toy) [])].
Proof. exists [Begin; rd "SELECT x FROM t;" 1; SetWhitelist (E := toy) (Some []); rd "SELECT x FROM t;" 1]. split; reflexivity. Qed.

(** Refuted: after a write has run over its time the handle refuses reads it should allow.  The write throws before it notes that it is no longer writing; from then on, even after the rollback and for other commands
    that get the handle, reads that use random(), changes(), last_insert_rowid(), current_timestamp or sqlite_version() fail, until another write comes to its end. *)
Theorem C52_late_write_refuted : exists l, run toy (opened [1]%N) l = [Quiet; Throws; Quiet; False_] /\
  ideal_run toy (ideally [1]%N) l = [Some Quiet; Some Throws; Some Quiet; Some (Rows (E := toy) [3]%N)].
Proof. exists [Begin; Write (E := toy) (lit "INSERT INTO t VALUES(5);") 0%N Late; Rollback; rd "SELECT random();" 3]. split; reflexivity. Qed.

(** Refuted: read() also carries out statements that write.  They change the database and are not kept for the journal, so followers never have the change; and the results in the cache are not dropped, so
    that later reads in the transaction do not show it.  (While a command is peeked at the handle is set to query-only, which prevents this; while it is processed it is not.) *)
Theorem C52_read_writes_refuted : exists l h, run toy (opened [1]%N) l = [Quiet; Rows (E := toy) [1]%N; Rows (E := toy) []; Rows (E := toy) [1]%N] /\
  after toy (opened [1]%N) l = Some h /\ h_view h = Some (Some [1; 5]%N) /\ h_kept h = [].
Proof. exists [Begin; rd "SELECT x FROM t;" 1; rd "INSERT INTO t VALUES(5);" 1; rd "SELECT x FROM t;" 1]. eexists. repeat split. Qed.

(** Refuted: after an error for which SQLite gives up the whole transaction by itself (a full disk, an I/O error) write() returns false, as for any error, and the handle still counts as inside a transaction.
    A command that goes on writes in autocommit mode: the write is in the database at once, and stays there after the rollback; it is not in the journal.  If the command ends normally instead, the commit fails an assertion
    and the process stops. *)
Theorem C52_given_up_refuted : exists l h, run toy (opened [1]%N) l = [Quiet; False_; Rows (E := toy) []; Quiet] /\ after toy (opened [1]%N) l = Some h /\ h_file h = [1; 6]%N /\ h_kept h = [] /\
  after toy (opened [1]%N) (firstn 3 l ++ [Commit (E := toy) (Some [1]%N)]) = None.
Proof. exists [Begin; wr "INSERT INTO t SELECT * FROM big;" 0; wr "INSERT INTO t VALUES(6);" 0; Rollback]. eexists. repeat split. Qed.

(** Refuted: with rewriting on, a write that is refused for another reason - it uses random(), say - is taken for one the handler wanted to rewrite.  What is run instead is the text the handler gave for an earlier write, a second
    time, and the caller is told that all went well; if there was no earlier one, an assertion fails and the process stops. *)
Theorem C52_stale_rewrite_refuted : (exists l h, run toy (mocked []) l = [Rows (E := toy) []; Rows (E := toy) []] /\ after toy (mocked []) l = Some h /\ h_view h = Some (Some [1; 5; 5]%N) /\
    h_kept h = [lit "INSERT INTO t VALUES(5);"; lit "INSERT INTO t VALUES(5);"] /\ l = [wr "INSERT INTO u VALUES(1);" 0; wr "SELECT random();" 0]) /\
  write toy (mocked []) (lit "SELECT random();") 0%N InTime = None.
Proof.
  split; [|vm_compute; reflexivity]. exists [wr "INSERT INTO u VALUES(1);" 0; wr "SELECT random();" 0].
  let h := eval vm_compute in (after toy (mocked []) [wr "INSERT INTO u VALUES(1);" 0; wr "SELECT random();" 0]) in
  match h with Some ?h => exists h end. split; [vm_compute; reflexivity|]. split; [vm_compute; reflexivity|]. repeat split; reflexivity.
Qed.

(** Refuted: a write may use functions that give something else on every node.  Only five are refused; with randomblob(), total_changes(), current_date or current_time the text of the write goes into the journal, and each follower that
    runs it has its own result: the databases differ. *)
Theorem C52_volatile_write_refuted : exists q h h', after toy (opened []) [Begin; wr q 1] = Some h /\ after toy (opened []) [Begin; wr q 2] = Some h' /\ h_kept h = h_kept h' /\ h_kept h <> [] /\ h_view h <> h_view h'.
Proof. exists "INSERT INTO t VALUES(randomblob(1));"%string. eexists _, _. split; [reflexivity|]. split; [reflexivity|]. split; [reflexivity|]. split; discriminate. Qed.
