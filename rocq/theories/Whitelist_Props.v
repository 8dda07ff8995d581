(** C53: a handle with a whitelist changes nothing and shows nothing but the columns on the list. *)
From Verif Require Import Base Reads_Spec Reads_Model Reads_Proofs.

(** What SQLite documents about authorizer callbacks: a statement that was only asked about reading changes nothing, and its result depends only on the columns it asked for and that are not
    to be ignored, on how many rows tables have, and on the environment. *)
Definition harmless (a : action) : Prop :=
  match a with Select | Function_ _ | Read _ _ => True | Pragma n None => n = lit "schema_version" | _ => False end.
Record columns (E : engine) := Columns { c_value : Type; c_column : e_db E -> bytes -> bytes -> c_value; c_count : e_db E -> bytes -> N }.
Arguments c_value {E}. Arguments c_column {E}. Arguments c_count {E}.
Section props.
  Context (E : engine) (C : columns E).
  Definition only_reads_change_nothing : Prop := forall s ign env d, Forall harmless (e_actions E s d) -> match e_exec E s ign env d with (c, _, d') => c <> Lost /\ d' = d end.
  Definition results_depend_on_columns : Prop := forall s ign env d d', e_actions E s d = e_actions E s d' -> Forall harmless (e_actions E s d) -> (forall t, c_count C d t = c_count C d' t) ->
    (forall t c, In (Read t c) (e_actions E s d) -> ~ In (Read t c) ign -> c_column C d t c = c_column C d' t c) -> fst (e_exec E s ign env d) = fst (e_exec E s ign env d').
  (** Two databases that look the same through the whitelist: the same schema, the same numbers of rows, the same columns as far as they are listed. *)
  Definition alike (w : whitelist) (d d' : e_db E) : Prop :=
    (forall s, e_actions E s d = e_actions E s d') /\ (forall t, c_count C d t = c_count C d' t) /\ (forall t c, listed w t c = true -> c_column C d t c = c_column C d' t c).
  (** No ANALYZE among the statements. *)
  Definition no_analyze (o : op E) : Prop :=
    match o with Query q _ _ _ | Write q _ _ => Forall (fun s => forall d, ~ In Analyze (e_actions E s d)) (e_parse E q) | _ => True end.
  (** What a command may do with the handle, short of committing or setting another whitelist. *)
  Definition asks (o : op E) : Prop := match o with Commit _ | Others _ | SetWhitelist _ => False | _ => True end.

  Section one.
    Context (w : whitelist) (L1 : only_reads_change_nothing) (L2 : results_depend_on_columns).
    Lemma permitted_harmless a wr x : permitted a (Some w) wr x <> Deny -> x <> Analyze -> harmless x.
    Proof.
      unfold permitted. destruct (match x with Function_ f => wr && among f refused_in_writes | _ => false end); [congruence|]. destruct (match a with Some a => negb (a x) | None => false end); [congruence|].
      destruct x as [| | | |n [r|]| | | | |]; cbn [harmless]; try tauto; try congruence. destruct (bytes_eqb n (lit "schema_version")) eqn:B; [|congruence]. intros _ _. apply bytes_eqb_eq, B.
    Qed.
    Lemma permitted_ignore a wr t c : permitted a (Some w) wr (Read t c) = OK -> listed w t c = true.
    Proof. unfold permitted. destruct (match a with Some a => _ | None => _ end); [discriminate|]. destruct (listed w t c); [reflexivity|discriminate]. Qed.
    Lemma allowed_harmless a wr l : existsb (fun x => match permitted a (Some w) wr x with Deny => true | _ => false end) l = false -> ~ In Analyze l -> Forall harmless l.
    Proof.
      intros H N. rewrite Forall_forall. intros x X. apply (permitted_harmless a wr); [|intros ->; contradiction]. intros D.
      assert (T : existsb (fun x => match permitted a (Some w) wr x with Deny => true | _ => false end) l = true) by (apply existsb_exists; exists x; split; [exact X|rewrite D; reflexivity]). congruence.
    Qed.
    Lemma evaluate_same a wr env l : Forall (fun s => forall d, ~ In Analyze (e_actions E s d)) l -> forall d acc, match evaluate E (permitted a (Some w) wr) env l d acc with (c, _, d') => c <> Lost /\ d' = d end.
    Proof.
      induction 1 as [|s l N _ IH]; intros d acc; cbn [evaluate]; [split; [discriminate|reflexivity]|]. destruct (existsb _ (e_actions E s d)) eqn:X; [split; [discriminate|reflexivity]|].
      pose proof (L1 s (filter (fun x => match permitted a (Some w) wr x with Ignore => true | _ => false end) (e_actions E s d)) env d (allowed_harmless _ _ _ X (N d))) as P.
      destruct (e_exec E s _ env d) as [[c r] d1]. destruct P as [P ->]. destruct c; try (split; [congruence|reflexivity]). apply IH.
    Qed.
    Lemma evaluate_alike a wr env l : Forall (fun s => forall d, ~ In Analyze (e_actions E s d)) l -> forall d d' acc, alike w d d' ->
      fst (evaluate E (permitted a (Some w) wr) env l d acc) = fst (evaluate E (permitted a (Some w) wr) env l d' acc).
    Proof.
      induction 1 as [|s l N _ IH]; intros d d' acc A; cbn [evaluate]; [reflexivity|]. destruct A as (A1 & A2 & A3). rewrite <- (A1 s). destruct (existsb _ (e_actions E s d)) eqn:X; [reflexivity|].
      pose proof (allowed_harmless _ _ _ X (N d)) as H. set (ign := filter _ _).
      assert (F : fst (e_exec E s ign env d) = fst (e_exec E s ign env d')).
      { apply L2; [apply A1|exact H|exact A2|]. intros t c I NI. apply A3. apply (permitted_ignore a wr). unfold ign in NI. rewrite filter_In in NI.
        destruct (permitted a (Some w) wr (Read t c)) eqn:P; [reflexivity|destruct NI; split; [exact I|reflexivity]|].
        assert (T : existsb (fun x => match permitted a (Some w) wr x with Deny => true | _ => false end) (e_actions E s d) = true) by (apply existsb_exists; exists (Read t c); split; [exact I|rewrite P; reflexivity]). congruence. }
      pose proof (L1 s ign env d H) as P. assert (H' : Forall harmless (e_actions E s d')) by (rewrite <- A1; exact H). pose proof (L1 s ign env d' H') as P'.
      destruct (e_exec E s ign env d) as [[c r] d1]. destruct (e_exec E s ign env d') as [[c' r'] d1']. destruct P as [P ->]. destruct P' as [P' ->]. cbn [fst] in F. injection F as <- <-.
      destruct c; try reflexivity. apply IH. repeat split; assumption.
    Qed.
    Lemma compile_det (h h' : handle E) running l : h_auth h = h_auth h' -> h_white h = h_white h' -> h_writing h = h_writing h' -> h_rewrite h = h_rewrite h' -> forall ign det, compile E h running l ign det = compile E h' running l ign det.
    Proof.
      intros E1 E2 E3 E4. induction l as [|a l IH]; intros ign det; [reflexivity|]. cbn [compile]. assert (X : authorize E h running a = authorize E h' running a) by (unfold authorize; rewrite E1, E2, E3, E4; reflexivity). rewrite X.
      destruct (authorize E h' running a) as [[v q] d]. destruct v; try reflexivity; apply IH.
    Qed.
    Lemma squery_alike h h' env l : h_auth h = h_auth h' -> h_white h = Some w -> h_white h' = Some w -> h_writing h = h_writing h' -> h_rewrite h = None -> h_rewrite h' = None ->
      Forall (fun s => forall d, ~ In Analyze (e_actions E s d)) l -> forall d d' acc det, alike w d d' ->
      match squery E h false env l d acc det, squery E h' false env l d' acc det with (c, r, d1, q, x), (c', r', d1', q', x') => c = c' /\ r = r' /\ q = None /\ q' = None /\ x = x' /\ d1 = d /\ d1' = d' /\ c <> RLost end.
    Proof.
      intros E1 E2 E2' E3 E4 E4'. induction 1 as [|s l N _ IH]; intros d d' acc det A; cbn [squery]; [repeat split; discriminate|]. pose proof A as (A1 & A2 & A3). rewrite <- (A1 s).
      assert (E22 : h_white h = h_white h') by congruence. assert (E44 : h_rewrite h = h_rewrite h') by congruence. rewrite <- (compile_det h h' false _ E1 E22 E3 E44).
      pose proof (compile_eq E h false E4 (e_actions E s d) [] det) as K. unfold allow in K. rewrite E2 in K. destruct (existsb _ (e_actions E s d)) eqn:X.
      - destruct K as (ign' & det' & ->). repeat split; discriminate.
      - rewrite K. cbn [app]. pose proof (allowed_harmless _ _ _ X (N d)) as H. set (ign := filter _ _).
        assert (F : fst (e_exec E s ign env d) = fst (e_exec E s ign env d')).
        { apply L2; [apply A1|exact H|exact A2|]. intros t c I NI. apply A3. apply (permitted_ignore (h_auth h) (h_writing h)). unfold ign in NI. rewrite filter_In in NI.
          destruct (permitted (h_auth h) (Some w) (h_writing h) (Read t c)) eqn:P; [reflexivity|destruct NI; split; [exact I|reflexivity]|].
          assert (T : existsb (fun x => match permitted (h_auth h) (Some w) (h_writing h) x with Deny => true | _ => false end) (e_actions E s d) = true) by (apply existsb_exists; exists (Read t c); split; [exact I|rewrite P; reflexivity]). congruence. }
        pose proof (L1 s ign env d H) as P. assert (H' : Forall harmless (e_actions E s d')) by (rewrite <- A1; exact H). pose proof (L1 s ign env d' H') as P'.
        destruct (e_exec E s ign env d) as [[c r] d1]. destruct (e_exec E s ign env d') as [[c' r'] d1']. destruct P as [P ->]. destruct P' as [P' ->]. cbn [fst] in F. injection F as <- <-.
        destruct c; try congruence; try (repeat split; discriminate). apply IH, A.
    Qed.
    (** Two handles that have been asked the same. *)
    Definition pair_ok (h h' : handle E) : Prop :=
      h_auth h = h_auth h' /\ h_white h = Some w /\ h_white h' = Some w /\ h_writing h = h_writing h' /\ h_rewrite h = None /\ h_rewrite h' = None /\ h_inside h = h_inside h' /\ h_cache h = h_cache h' /\
      alike w (h_file h) (h_file h') /\ match h_view h, h_view h' with None, None => True | Some None, Some None => True | Some (Some d), Some (Some d') => alike w d d' | _, _ => False end.
    Lemma pair_current h h' : pair_ok h h' -> alike w (current E h) (current E h').
    Proof. intros (_ & _ & _ & _ & _ & _ & _ & _ & F & V). unfold current. destruct (h_view h) as [[d|]|], (h_view h') as [[d'|]|]; try contradiction; assumption. Qed.
    Lemma pair_with h h' : pair_ok h h' -> pair_ok (with_db E h (current E h)) (with_db E h' (current E h')).
    Proof.
      intros H. pose proof (pair_current h h' H) as K. destruct H as (H1 & H2 & H3 & H4 & H5 & H6 & H7 & H8 & F & V). unfold with_db. destruct (h_view h) as [v|], (h_view h') as [v'|];
        [|destruct v as [d|]; contradiction|contradiction|]; unfold pair_ok; cbn; repeat split; try assumption; try apply K; try apply F.
    Qed.
    Lemma pair_cache h h' c : pair_ok h h' -> pair_ok (with_cache E h c) (with_cache E h' c).
    Proof. intros (H1 & H2 & H3 & H4 & H5 & H6 & H7 & H8 & F & V). unfold pair_ok, with_cache. cbn. repeat split; try assumption; apply F. Qed.
    Lemma pair_writing h h' b : pair_ok h h' -> pair_ok (with_writing E h b) (with_writing E h' b).
    Proof. intros (H1 & H2 & H3 & H4 & H5 & H6 & H7 & H8 & F & V). unfold pair_ok, with_writing. cbn. repeat split; try assumption; apply F. Qed.
    Lemma pair_keep h h' q : pair_ok h h' -> pair_ok (keep E h q) (keep E h' q).
    Proof. intros (H1 & H2 & H3 & H4 & H5 & H6 & H7 & H8 & F & V). unfold pair_ok, keep. cbn. repeat split; try assumption; apply F. Qed.
    Lemma pair_given_up h h' : pair_ok h h' -> pair_ok (given_up E h) (given_up E h').
    Proof. intros (H1 & H2 & H3 & H4 & H5 & H6 & H7 & H8 & F & V). unfold pair_ok, given_up. cbn. repeat split; try assumption; apply F. Qed.
    Lemma step_pair h h' o : pair_ok h h' -> asks o -> no_analyze o -> match step E h o, step E h' o with Some (g, x), Some (g', x') => x = x' /\ pair_ok g g' | None, None => True | _, _ => False end.
    Proof.
      intros H As An. pose proof H as (H1 & H2 & H3 & H4 & H5 & H6 & H7 & H8 & F & V). destruct o as [|q b env t|q env t|r| |d|a'|w']; cbn [asks] in As; try contradiction; cbn [step].
      - unfold begin_. rewrite <- H7. destruct (h_inside h) eqn:I; (split; [reflexivity|]); unfold pair_ok, rollback; cbn; rewrite <- ?H7, ?I; repeat split; try assumption; apply F.
      - unfold read. rewrite <- H8. destruct (if b then None else cached E q (h_cache h)) as [r|]; [split; [reflexivity|exact H]|].
        pose proof (squery_alike h h' env (e_parse E q) H1 H2 H3 H4 H5 H6 An _ _ (e_none E) true (pair_current h h' H)) as S.
        destruct (squery E h false env (e_parse E q) (current E h) (e_none E) true) as [[[[c r] d1] rq] x]. destruct (squery E h' false env (e_parse E q) (current E h') (e_none E) true) as [[[[c' r'] d1'] rq'] x'].
        destruct S as (<- & <- & -> & -> & <- & -> & -> & NL). cbn [with_rewritten]. pose proof (pair_with h h' H) as W. pose proof W as (_ & _ & _ & _ & _ & _ & W7 & W8 & _). 
        destruct c; try congruence; rewrite <- W7, <- W8; (split; [reflexivity|]); destruct (_ && _ && _ && _)%bool; try (apply pair_cache); exact W.
      - unfold write. rewrite <- H7. destruct (h_inside h) eqn:I; cbn [negb]; [|split; [reflexivity|exact H]].
        pose proof (pair_writing _ _ true (pair_cache h h' [] H)) as W. set (g := with_writing E (with_cache E h []) true) in *. set (g' := with_writing E (with_cache E h' []) true) in *.
        pose proof W as (W1 & W2 & W3 & W4 & W5 & W6 & _).
        pose proof (squery_alike g g' env (e_parse E q) W1 W2 W3 W4 W5 W6 An _ _ (e_none E) true (pair_current g g' W)) as S.
        destruct (squery E g false env (e_parse E q) (current E g) (e_none E) true) as [[[[c r] d1] rq] x]. destruct (squery E g' false env (e_parse E q) (current E g') (e_none E) true) as [[[[c' r'] d1'] rq'] x'].
        destruct S as (<- & <- & -> & -> & <- & -> & -> & NL). cbn [with_rewritten]. pose proof (pair_with g g' W) as Z. pose proof Z as (_ & _ & _ & _ & Z5 & Z6 & _). rewrite Z5, Z6.
        destruct t; [| |split; [reflexivity|apply pair_given_up, W]]; destruct c; try congruence; (split; [reflexivity|]); try apply pair_keep; try apply pair_writing; exact Z.
      - split; [reflexivity|]. unfold pair_ok, rollback. cbn. rewrite <- H7. destruct (h_inside h); repeat split; try assumption; apply F.
      - split; [reflexivity|]. unfold pair_ok. cbn. repeat split; try assumption; apply F.
    Qed.
  End one.

  (** What a command gets to see through a handle with a whitelist is the same for any two databases that are alike through it: nothing of the columns that are not on the list gets through, whatever is
      asked in whatever order, inside transactions and outside, from the cache or not. *)
  Theorem C53_hidden : forall w a d d' l, only_reads_change_nothing -> results_depend_on_columns -> alike w d d' -> Forall asks l -> Forall no_analyze l ->
    run E (Handle d None false [] false None [] a (Some w) []) l = run E (Handle d' None false [] false None [] a (Some w) []) l.
  Proof.
    intros w a d d' l L1 L2 A F1 F2.
    assert (G : forall h h', pair_ok w h h' -> run E h l = run E h' l).
    { revert F2. induction F1 as [|o l P _ IH]; intros F2 h h' H; [reflexivity|]. inversion F2; subst. cbn [run]. pose proof (step_pair w L1 L2 h h' o H P H2) as S.
      destruct (step E h o) as [[g x]|], (step E h' o) as [[g' x']|]; try contradiction; [|reflexivity]. destruct S as [<- S]. f_equal. apply IH; assumption. }
    apply G. unfold pair_ok. cbn. repeat split; apply A.
  Qed.
  (** And nothing is changed: the database is what it was, and inside a transaction so is the view of it. *)
  Theorem C53_unchanged : forall w a d l h, only_reads_change_nothing -> Forall asks l -> Forall no_analyze l ->
    after E (Handle d None false [] false None [] a (Some w) []) l = Some h -> h_file h = d /\ (h_view h = None \/ h_view h = Some None \/ h_view h = Some (Some d)).
  Proof.
    intros w a d l h L1 F1 F2.
    assert (G : forall h0, h_white h0 = Some w -> h_rewrite h0 = None -> h_file h0 = d -> (h_view h0 = None \/ h_view h0 = Some None \/ h_view h0 = Some (Some d)) ->
      after E h0 l = Some h -> h_file h = d /\ (h_view h = None \/ h_view h = Some None \/ h_view h = Some (Some d))); [|apply G; try reflexivity; left; reflexivity].
    revert F2. induction F1 as [|o l P _ IH]; intros F2 h0 W R F V; cbn [after]; [intros X; injection X as <-; split; assumption|]. inversion F2 as [|? ? An F3];  specialize (IH F3).
    assert (C0 : current E h0 = d) by (unfold current; destruct V as [-> |[-> | ->]]; exact F || reflexivity).
    assert (K : forall g x, step E h0 o = Some (g, x) -> h_white g = Some w /\ h_rewrite g = None /\ h_file g = d /\ (h_view g = None \/ h_view g = Some None \/ h_view g = Some (Some d))).
    { intros g y S. assert (SQ : forall k, h_rewrite k = None -> h_white k = Some w -> forall q env, Forall (fun s => forall d, ~ In Analyze (e_actions E s d)) (e_parse E q) ->
        match squery E k false env (e_parse E q) d (e_none E) true with (c, _, d1, rq, _) => rq = None /\ d1 = d /\ c <> RLost end).
      { intros k K1 K2 q env N. pose proof (squery_eq E k false env K1 (e_parse E q) d (e_none E) true) as S1. unfold allow in S1. rewrite K2 in S1. pose proof (evaluate_same w L1 (h_auth k) (h_writing k) env (e_parse E q) N d (e_none E)) as S2.
        destruct (squery E k false env (e_parse E q) d (e_none E) true) as [[[[c r] d1] rq] dd]. destruct S1 as (S1 & S3 & _). rewrite S1 in S2. destruct S2 as [S2 ->]. split; [exact S3|]. split; [reflexivity|]. intros ->. apply S2. reflexivity. }
      assert (WD : forall k, h_white k = Some w -> h_rewrite k = None -> h_file k = d -> (h_view k = None \/ h_view k = Some None \/ h_view k = Some (Some d)) ->
        h_white (with_db E k d) = Some w /\ h_rewrite (with_db E k d) = None /\ h_file (with_db E k d) = d /\ (h_view (with_db E k d) = None \/ h_view (with_db E k d) = Some None \/ h_view (with_db E k d) = Some (Some d))).
      { intros k K1 K2 K3 K4. unfold with_db. destruct K4 as [-> |[-> | ->]]; cbn; repeat split; try assumption; tauto. }
      destruct o as [|q b env t|q env t|r| |d1|a'|w']; cbn [asks] in P; try contradiction; cbn [step] in S.
      - injection S as S. unfold begin_ in S. destruct (h_inside h0) eqn:I; injection S as <- _; unfold rollback; cbn; rewrite ?I; repeat split; try assumption; tauto.
      - injection S as S. unfold read in S. destruct (if b then None else cached E q (h_cache h0)); [injection S as <- _; repeat split; assumption|]. rewrite C0 in S. specialize (SQ h0 R W q env An).
        destruct (squery E h0 false env (e_parse E q) d (e_none E) true) as [[[[c r] d1] rq] dd]. destruct SQ as (-> & -> & NL). cbn [with_rewritten] in S. specialize (WD h0 W R F V).
        destruct c; try congruence; destruct (_ && _ && _ && _)%bool in S; injection S as <- _; exact WD.
      - unfold write in S. destruct (h_inside h0) eqn:I; cbn [negb] in S; [|injection S as <- _; repeat split; assumption]. set (k := with_writing E (with_cache E h0 []) true) in *.
        assert (Ck : current E k = d) by exact C0. rewrite Ck in S. specialize (SQ k R W q env An). destruct (squery E k false env (e_parse E q) d (e_none E) true) as [[[[c r] d1] rq] dd]. destruct SQ as (-> & -> & NL). cbn [with_rewritten] in S.
        pose proof (WD k W R F V) as Z. destruct Z as (Z1 & Z2 & Z3 & Z4). rewrite Z2 in S.
        destruct t; [| |injection S as <- _; unfold given_up; cbn; repeat split; try assumption; tauto]; destruct c; try congruence; injection S as <- _; unfold keep, with_writing; cbn; repeat split; assumption.
      - injection S as <- _. unfold rollback. cbn. destruct (h_inside h0); repeat split; try assumption; tauto.
      - injection S as <- _. cbn. repeat split; assumption. }
    destruct (step E h0 o) as [[g y]|]; [|discriminate]. destruct (K g y eq_refl) as (K1 & K2 & K3 & K4). intros X. apply (IH g); assumption.
  Qed.
End props.
Print Assumptions C53_hidden.
Print Assumptions C53_unchanged.

(** * Cases
    A table t with two columns, pub and secret, and the statistics that ANALYZE leaves. *)
Inductive tstmt := Pub | PubWhere | Count | Remove | Analyze_.
Definition toy_parse (q : bytes) : list tstmt :=
  if bytes_eqb q (lit "SELECT pub FROM t;") then [Pub] else if bytes_eqb q (lit "SELECT pub FROM t WHERE secret=1;") then [PubWhere] else if bytes_eqb q (lit "SELECT count(*) FROM t;") then [Count]
  else if bytes_eqb q (lit "DELETE FROM t;") then [Remove] else if bytes_eqb q (lit "ANALYZE;") then [Analyze_] else [].
Definition toy_actions (s : tstmt) : list action :=
  match s with
  | Pub => [Select; Read (lit "t") (lit "pub")] | PubWhere => [Select; Read (lit "t") (lit "pub"); Read (lit "t") (lit "secret")] | Count => [Select; Function_ (lit "count"); Read (lit "t") []]
  | Remove => [Delete (lit "t")] | Analyze_ => [Analyze]
  end.
Definition ignored (t c : bytes) (ign : list action) : bool := existsb (fun a => match a with Read t' c' => bytes_eqb t t' && bytes_eqb c c' | _ => false end) ign.
Definition tdb : Type := list N * list N * N.
Definition where1 (pub secret : list N) : list N := map fst (filter (fun e => N.eqb (snd e) 1) (combine pub secret)).
Definition toy_exec (s : tstmt) (ign : list action) (env : unit) (d : tdb) : code * list N * tdb :=
  let '(pub, secret, st) := d in
  match s with
  | Pub => (Done, if ignored (lit "t") (lit "pub") ign then [] else pub, d)
  | PubWhere => (Done, if ignored (lit "t") (lit "pub") ign || ignored (lit "t") (lit "secret") ign then [] else where1 pub secret, d)
  | Count => (Done, [N.of_nat (List.length pub)], d)
  | Remove => (Done, [], ([], [], st))
  | Analyze_ => (Done, [], (pub, secret, st + 1)%N)
  end.
Definition toy : engine := {| e_db := tdb; e_stmt := tstmt; e_env := unit; e_rows := list N; e_none := []; e_add := @app N; e_parse := toy_parse; e_actions := fun s _ => toy_actions s; e_exec := toy_exec |}.
Definition toy_columns : columns toy := {| c_value := list N;
  c_column := fun (d : e_db toy) t c => let '(pub, secret, _) := d in if bytes_eqb t (lit "t") then if bytes_eqb c (lit "pub") then pub else if bytes_eqb c (lit "secret") then secret else [] else [];
  c_count := fun (d : e_db toy) t => let '(pub, _, _) := d in if bytes_eqb t (lit "t") then N.of_nat (List.length pub) else 0%N |}.
Lemma toy_changes_nothing : only_reads_change_nothing toy.
Proof.
  intros s ign env [[pub secret] st] H. destruct s; cbn; try (split; [discriminate|reflexivity]); inversion H as [|? ? X _]; destruct X.
Qed.
Lemma not_ignored t c ign : ignored t c ign = false -> ~ In (Read t c) ign.
Proof.
  intros H I. assert (X : ignored t c ign = true); [|congruence]. apply existsb_exists. exists (Read t c). split; [exact I|]. rewrite !bytes_eqb_refl. reflexivity.
Qed.
Lemma toy_depends : results_depend_on_columns toy toy_columns.
Proof.
  intros s ign env [[pub secret] st] [[pub' secret'] st'] _ H Cn Co. destruct s; cbn [toy e_exec toy_exec fst]; try reflexivity.
  - destruct (ignored (lit "t") (lit "pub") ign) eqn:I; [reflexivity|]. specialize (Co (lit "t") (lit "pub")). cbn in Co. rewrite Co; [reflexivity|tauto|apply not_ignored, I].
  - destruct (ignored (lit "t") (lit "pub") ign) eqn:I; [reflexivity|]. destruct (ignored (lit "t") (lit "secret") ign) eqn:J; [reflexivity|]. cbn [orb].
    pose proof (Co (lit "t") (lit "pub")) as C1. pose proof (Co (lit "t") (lit "secret")) as C2. cbn in C1, C2. rewrite C1, C2; [reflexivity|tauto|apply not_ignored, J|tauto|apply not_ignored, I].
  - specialize (Cn (lit "t")). cbn in Cn. rewrite Cn. reflexivity.
Qed.
Definition rd (q : string) : op toy := Query (E := toy) (lit q) false tt InTime.
Definition only_pub : whitelist := [(lit "t", [lit "pub"])].
Definition with_list (d : tdb) : handle toy := Handle (E := toy) d None false [] false None [] None (Some only_pub) [].
Definition fresh_without (d : tdb) : handle toy := Handle (E := toy) d None false [] false None [] None None [].
Definition asked : list (op toy) := [rd "SELECT pub FROM t WHERE secret=1;"; Begin; rd "SELECT pub FROM t;"; rd "SELECT pub FROM t WHERE secret=1;"; rd "DELETE FROM t;"; Write (E := toy) (lit "DELETE FROM t;") tt InTime; rd "SELECT pub FROM t;"].
Example C53_case : alike toy toy_columns only_pub ([10; 20], [1; 2], 0)%N ([10; 20], [7; 1], 3)%N /\ Forall (asks toy) asked /\ Forall (no_analyze toy) asked /\
  run toy (with_list ([10; 20], [1; 2], 0)%N) asked = [Rows (E := toy) []; Quiet; Rows (E := toy) [10; 20]%N; Rows (E := toy) []; False_; False_; Rows (E := toy) [10; 20]%N] /\
  run toy (fresh_without ([10; 20], [1; 2], 0)%N) asked = [Rows (E := toy) [10]%N; Quiet; Rows (E := toy) [10; 20]%N; Rows (E := toy) [10]%N; Rows (E := toy) []; Rows (E := toy) []; Rows (E := toy) []].
Proof.
  split; [|split; [|split; [|split; [reflexivity|]]]].
  - split; [reflexivity|]. split; [intros t; reflexivity|]. intros t c L. unfold listed, only_pub in L. cbn [find fst snd] in L. destruct (bytes_eqb (lit "t") t) eqn:B; [|discriminate L]. apply bytes_eqb_eq in B. subst t.
    cbn [snd] in L. unfold among in L. cbn [existsb] in L. rewrite orb_false_r in L. apply bytes_eqb_eq in L. subst c. reflexivity.
  - repeat (apply Forall_cons; [exact I|]). apply Forall_nil.
  - repeat (apply Forall_cons; [first [exact I | apply Forall_cons; [intros d; cbn; intuition discriminate|apply Forall_nil]]|]). apply Forall_nil.
  - reflexivity.
Qed.

(** Refuted: a whitelist does not hide how many rows a table has that is not on it.  A query that only counts rows takes no column, so there is none to put on the list: SQLite asks about a column with an empty name, the answer is to
    ignore it, and that changes nothing. *)
Theorem C53_count_refuted : exists d d' l, d = ([1], [1], 0)%N /\ d' = ([], [], 0)%N /\
  run toy (Handle (E := toy) d None false [] false None [] None (Some []) []) l <> run toy (Handle (E := toy) d' None false [] false None [] None (Some []) []) l.
Proof. exists ([1], [1], 0)%N, ([], [], 0)%N, [rd "SELECT count(*) FROM t;"]. split; [reflexivity|]. split; [reflexivity|]. intros X. apply (f_equal (fun r : list (output toy) => match r with [Rows x] => match x : list N with [n] => n | _ => 5%N end | _ => 5%N end)) in X. discriminate X. Qed.

(** Refuted: ANALYZE is on the list of what is always allowed in whitelist mode, although it writes: it fills SQLite's tables of statistics.  Sent as a read, the change is not in the journal either. *)
Theorem C53_analyze_refuted : exists d h, after toy (with_list d) [rd "ANALYZE;"] = Some h /\ h_file h <> d.
Proof. exists ([1], [1], 0)%N. eexists. split; [reflexivity|]. intros X. apply (f_equal snd) in X. discriminate X. Qed.
