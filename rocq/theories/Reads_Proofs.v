From Verif Require Import Base Reads_Spec Reads_Model.

Section proofs.
  Context (E : engine).
  Notation handle := (handle E).
  Definition stable (a : action) : bool := match a with Function_ f => negb (among f known_volatile) | _ => true end.
  Definition allow (h : handle) : action -> verdict := permitted (h_auth h) (h_white h) (h_writing h).
  Lemma authorize_eq h running a : h_rewrite h = None -> authorize E h running a = (allow h a, None, stable a).
  Proof.
    intros R. unfold authorize, allow, permitted, stable. rewrite R. replace (if running then None else None) with (@None bytes) by (destruct running; reflexivity).
    assert (D : match a with
          | Function_ f => negb (bytes_eqb f (lit "random") || bytes_eqb f (lit "date") || bytes_eqb f (lit "time") || bytes_eqb f (lit "datetime") || bytes_eqb f (lit "julianday") ||
              bytes_eqb f (lit "strftime") || bytes_eqb f (lit "changes") || bytes_eqb f (lit "last_insert_rowid") || bytes_eqb f (lit "sqlite_version"))
          | _ => true
          end = match a with Function_ f => negb (among f known_volatile) | _ => true end).
    { destruct a; try reflexivity. unfold among, known_volatile. cbn [existsb]. rewrite orb_false_r, !orb_assoc. reflexivity. }
    rewrite D. clear D.
    assert (W : match a with
          | Function_ f => (bytes_eqb f (lit "current_timestamp") || bytes_eqb f (lit "random") || bytes_eqb f (lit "last_insert_rowid") || bytes_eqb f (lit "changes") ||
              bytes_eqb f (lit "sqlite_version")) && h_writing h
          | _ => false
          end = match a with Function_ f => h_writing h && among f refused_in_writes | _ => false end).
    { destruct a; try reflexivity. unfold among, refused_in_writes. cbn [existsb]. rewrite orb_false_r, !orb_assoc. apply andb_comm. }
    rewrite W. clear W. destruct (match a with Function_ f => h_writing h && among f refused_in_writes | _ => false end); [reflexivity|].
    destruct (match h_auth h with Some f => negb (f a) | None => false end); [reflexivity|]. destruct (h_white h) as [w|]; [|reflexivity].
    f_equal. f_equal. destruct a; try reflexivity.
    - unfold listed. destruct (find _ w) as [[t cols]|]; reflexivity.
    - destruct arg; [rewrite andb_false_r; reflexivity|rewrite andb_true_r; reflexivity].
  Qed.
  Lemma compile_eq h running : h_rewrite h = None -> forall l ign det,
    if existsb (fun a => match allow h a with Deny => true | _ => false end) l
    then exists ign' det', compile E h running l ign det = (false, ign', None, det')
    else compile E h running l ign det = (true, ign ++ filter (fun a => match allow h a with Ignore => true | _ => false end) l, None, det && forallb stable l).
  Proof.
    intros R. induction l as [|a l IH]; intros ign det; cbn [existsb compile filter forallb]; [rewrite app_nil_r, andb_true_r; reflexivity|].
    rewrite (authorize_eq h running a R). destruct (allow h a); cbn [orb].
    - specialize (IH ign (det && stable a)%bool). rewrite <- andb_assoc in IH. exact IH.
    - specialize (IH (ign ++ [a]) (det && stable a)%bool). rewrite <- app_assoc, <- andb_assoc in IH. exact IH.
    - exists ign, (det && stable a)%bool. reflexivity.
  Qed.
  Definition seen (c : result) : code := match c with RDone => Done | RFailed | RAuth => Failed | RConstraint => Constraint | RLost => Lost end.
  (** All statements have only stable actions, each at the database it runs on; for pure statements that is one database. *)
  Lemma squery_eq h running env : h_rewrite h = None -> forall l d rows det,
    match squery E h running env l d rows det with
    | (c, r, d', rq, det') => evaluate E (allow h) env l d rows = (seen c, r, d') /\ rq = None /\
        (Forall (pure E) l -> c = RDone -> det' = true -> Forall (fun s => forall f, In (Function_ f) (e_actions E s d) -> among f known_volatile = false) l)
    end.
  Proof.
    intros R. induction l as [|s l IH]; intros d rows det; cbn [squery evaluate]; [repeat split; constructor|].
    pose proof (compile_eq h running R (e_actions E s d) [] det) as C. destruct (existsb _ (e_actions E s d)).
    - destruct C as (ign' & det' & ->). split; [reflexivity|]. split; [reflexivity|]. discriminate.
    - rewrite C. cbn [app]. destruct (e_exec E s _ env d) as [[c r] d1] eqn:X. destruct c.
      + specialize (IH d1 (e_add E rows r) (det && forallb stable (e_actions E s d))%bool). destruct (squery E h running env l d1 (e_add E rows r) _) as [[[[c' r'] d'] rq] det'] eqn:Q.
        destruct IH as (I1 & I2 & I3). split; [exact I1|]. split; [exact I2|]. intros P Hc Hd. inversion P as [|? ? P1 P2]; subst. specialize (P1 (filter (fun a => match allow h a with Ignore => true | _ => false end) (e_actions E s d)) env d). rewrite X in P1. destruct P1 as [_ ->].
        constructor; [|apply I3; assumption || reflexivity].
        assert (B : forallb stable (e_actions E s d) = true).
        { assert (M : forall l d rows det, snd (squery E h running env l d rows det) = true -> det = true).
          { clear - R. induction l as [|s l IH]; intros d rows det; cbn [squery]; [tauto|]. pose proof (compile_eq h running R (e_actions E s d) [] det) as C. destruct (existsb _ (e_actions E s d)) eqn:EX.
            - clear C EX. assert (G : forall l ign det, snd (compile E h running l ign det) = true -> det = true).
              { induction l0 as [|a l0 IHl]; intros ign det0; cbn [compile]; [tauto|]. destruct (authorize E h running a) as [[v q] dd]. destruct v; intros H; try (apply IHl in H); try (cbn [snd] in H); apply andb_true_iff in H; apply H. }
              destruct (compile E h running (e_actions E s d) [] det) as [[[ok ign] q] dd] eqn:CE. specialize (G (e_actions E s d) [] det). rewrite CE in G. cbn [snd] in G. destruct ok.
              + destruct (e_exec E s ign env d) as [[c r] d1]. destruct c; cbn [snd]; try exact G. intros H. apply G, (IH _ _ _ H).
              + exact G.
            - rewrite C. destruct (e_exec E s _ env d) as [[c r] d1]. destruct c; cbn [snd]; try (intros H; apply andb_true_iff in H; apply H). intros H. apply IH in H. apply andb_true_iff in H. apply H. }
          specialize (M l d (e_add E rows r) (det && forallb stable (e_actions E s d))%bool). rewrite Q in M. specialize (M eq_refl). apply andb_true_iff in M. apply M. }
        rewrite forallb_forall in B. intros f F. specialize (B _ F). apply negb_true_iff in B. exact B.
      + split; [reflexivity|]. split; [reflexivity|]. discriminate.
      + split; [reflexivity|]. split; [reflexivity|]. discriminate.
      + split; [reflexivity|]. split; [reflexivity|]. discriminate.
  Qed.
  Lemma evaluate_pure v env l : Forall (pure E) l -> forall d acc, match evaluate E v env l d acc with (c, _, d') => c <> Lost /\ d' = d end.
  Proof.
    induction 1 as [|s l P _ IH]; intros d acc; cbn [evaluate]; [split; [discriminate|reflexivity]|]. destruct (existsb _ _); [split; [discriminate|reflexivity]|].
    specialize (P (filter (fun a => match v a with Ignore => true | _ => false end) (e_actions E s d)) env d). destruct (e_exec E s _ env d) as [[c r] d1]. destruct P as [P1 ->]. destruct c; try (split; [congruence|reflexivity]). apply IH.
  Qed.
  Lemma evaluate_env v env env' l : Forall (pure E) l -> Forall (settled E) l -> forall d acc, Forall (fun s => forall f, In (Function_ f) (e_actions E s d) -> among f known_volatile = false) l ->
    evaluate E v env l d acc = evaluate E v env' l d acc.
  Proof.
    induction 1 as [|s l P _ IH]; intros S d acc F; [reflexivity|]. inversion S as [|? ? S1 S2]; inversion F as [|? ? F1 F2]; subst. cbn [evaluate]. destruct (existsb _ _); [reflexivity|].
    rewrite (S1 d F1 _ env env'). specialize (P (filter (fun a => match v a with Ignore => true | _ => false end) (e_actions E s d)) env' d). destruct (e_exec E s _ env' d) as [[c r] d1]. destruct P as [_ ->]. destruct c; try reflexivity. apply IH; assumption.
  Qed.
  Lemma evaluate_ext v v' env l : (forall s d a, In s l -> In a (e_actions E s d) -> v a = v' a) -> forall d acc, evaluate E v env l d acc = evaluate E v' env l d acc.
  Proof.
    induction l as [|s l IH]; intros H d acc; [reflexivity|]. cbn [evaluate].
    assert (X : existsb (fun a => match v a with Deny => true | _ => false end) (e_actions E s d) = existsb (fun a => match v' a with Deny => true | _ => false end) (e_actions E s d) /\
      filter (fun a => match v a with Ignore => true | _ => false end) (e_actions E s d) = filter (fun a => match v' a with Ignore => true | _ => false end) (e_actions E s d)).
    { assert (G : forall a, In a (e_actions E s d) -> v a = v' a) by (intros a A; apply (H s d a); [left; reflexivity|exact A]). induction (e_actions E s d) as [|a t IHt]; [split; reflexivity|].
      cbn [existsb filter]. destruct IHt as [I1 I2]; [intros b B; apply G; right; exact B|]. rewrite (G a (or_introl eq_refl)), I1, I2. split; reflexivity. }
    destruct X as [-> ->]. destruct (existsb _ _); [reflexivity|]. destruct (e_exec E s _ env d) as [[c r] d1]. destruct c; try reflexivity. apply IH. intros s' d' a A B. apply (H s' d' a); [right; exact A|exact B].
  Qed.
End proofs.
