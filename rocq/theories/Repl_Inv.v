(** The stream invariant of replication is kept by every step. *)
From Verif Require Import Base Repl_Spec Repl_Model Repl_Proofs.

Section Inv.
Variable sha : bytes -> bytes.
Variable comp decomp : bytes -> bytes.
Hypothesis decomp_comp : forall q, decomp (comp q) = q.
Notation stream := (stream comp).
Notation Fol := (Fol sha comp).
Notation Inv := (Inv sha comp).
Notation to_wire := (to_wire comp).
Notation step := (step sha comp decomp).

Lemma matches_ext h L x : matches h L -> matches h (L ++ x).
Proof.
  intros [H1 H2]. split; [rewrite app_length; lia|]. rewrite H2. unfold hash_at.
  rewrite firstn_app. replace (length h - length L) with 0 by lia. cbn [firstn]. now rewrite app_nil_r.
Qed.

Lemma stream_ext L x sent ph live a ms :
  sent <= length L -> ph <> Stopped -> stream L sent ph live a ms -> stream (L ++ x) sent ph live a ms.
Proof.
  intros HL Hp (b & tail & H1 & H2 & -> & H4 & H5). exists b, tail.
  rewrite num_ext by lia. repeat split; auto; try (apply H4; assumption).
  destruct H5 as [H5|(_&_&H5)]; [auto|contradiction].
Qed.

Lemma stream_phase L sent ph ph' live a ms :
  (ph = Stopped -> ph' = Stopped) -> stream L sent ph live a ms -> stream L sent ph' live a ms.
Proof. intros HP (b & tail & H1 & H2 & -> & H4 & H5). exists b, tail. intuition. Qed.

Lemma stream_dead L sent ph live a ms : stream L sent ph live a ms -> stream L sent ph false a ms.
Proof. intros (b & tail & H1 & H2 & -> & H4 & H5). exists b, tail. intuition discriminate. Qed.

Lemma stream_grow L sent sent' ph a ms :
  sent <= sent' -> stream L sent ph false a ms -> stream L sent' ph false a ms.
Proof. intros HP (b & tail & H1 & H2 & -> & H4 & H5). exists b, tail. intuition (lia || discriminate). Qed.

Lemma stream_flush L sent ph a ms :
  sent <= length L -> stream L sent ph true a ms ->
  stream L (length L) ph true a (ms ++ map DTxn (map to_wire (num L sent (length L)))).
Proof.
  intros HP (b & tail & H1 & H2 & -> & H4 & H5). destruct (H4 eq_refl) as [-> ->].
  exists (length L), []. rewrite !app_nil_r, <- !map_app, num_app by lia. intuition lia.
Qed.

Lemma stream_bye L ph a ms :
  stream L (length L) ph true a ms -> stream L (length L) Stopped false a (ms ++ [DStopped]).
Proof.
  intros (b & tail & H1 & H2 & -> & H4 & H5). destruct (H4 eq_refl) as [-> ->].
  exists (length L), [DStopped]. rewrite app_nil_r. intuition discriminate.
Qed.

Lemma junk_txns ms : Forall junk (map DTxn ms).
Proof. apply Forall_forall. intros m H. apply in_map_iff in H. destruct H as (?&<-&_). exact I. Qed.

Lemma fol_commit L e sent ph f :
  sent <= length L -> ph <> Stopped -> Fol L sent ph f -> Fol (L ++ [e]) sent ph f.
Proof.
  intros HL Hp (V & F1 & F2 & F3 & F4 & F5). unfold Fol, Repl_Proofs.Fol.
  split; [exact V|]. split; [exact F1|]. split; [exact F2|]. split; [exact F3|].
  split; [|intros HF; apply matches_ext; auto].
  intros Ho. specialize (F4 Ho). destruct (f_mode f); try exact F4.
  - destruct F4 as [F4|(U & S & js & r & rest & D & J & R)]; [left; exact F4|right].
    split; [exact U|]. split; [exact S|]. exists js, r, rest. split; [exact D|]. split; [exact J|].
    destruct r as [ms|]; [|exact I]. destruct R as (M & b0 & B1 & B2 & -> & St).
    split; [now apply matches_ext|]. exists b0. split; [exact B1|]. split; [exact B2|].
    split; [now rewrite num_ext by lia|]. now apply stream_ext.
  - destruct F4 as (U & S & M & St). split; [exact U|]. split; [exact S|].
    split; [now apply matches_ext|]. now apply stream_ext.
Qed.

Lemma fol_phase L sent ph f : ph <> Stopped -> Fol L sent ph f -> Fol L sent StandingDown f.
Proof.
  intros Hp (V & F1 & F2 & F3 & F4 & F5). unfold Fol, Repl_Proofs.Fol.
  split; [exact V|]. split; [exact F1|]. split; [discriminate|]. split; [exact F3|]. split; [|exact F5].
  intros Ho. specialize (F4 Ho). destruct (f_mode f); try exact F4.
  - destruct F4 as [F4|(U & S & js & r & rest & D & J & R)]; [left; exact F4|right].
    split; [exact U|]. split; [auto|]. exists js, r, rest. split; [exact D|]. split; [exact J|].
    destruct r as [ms|]; [|exact I]. destruct R as (M & b0 & B1 & B2 & -> & St).
    split; [exact M|]. exists b0. split; [exact B1|]. split; [exact B2|]. split; [reflexivity|].
    eapply stream_phase; [|exact St]. congruence.
  - destruct F4 as (U & S & M & St). split; [exact U|]. split; [auto|]. split; [exact M|].
    eapply stream_phase; [|exact St]. congruence.
Qed.

Lemma fol_flush L sent ph f :
  sent <= length L -> Fol L sent ph f ->
  Fol L (length L) ph (if f_subs f then send_down (map DTxn (map to_wire (num L sent (length L)))) f else f).
Proof.
  intros HL (V & F1 & F2 & F3 & F4 & F5).
  destruct (f_subs f) eqn:Es.
  - destruct (f_lopen f) eqn:El; [|destruct (F1 eq_refl); discriminate].
    unfold send_down. rewrite El. cbn [andb].
    destruct (f_open f) eqn:Eo.
    + unfold Fol, Repl_Proofs.Fol. cbn [f_hist f_mode f_queue f_open f_lopen f_subs f_down f_up].
      split; [exact V|]. split; [discriminate|]. split; [rewrite Es; auto|]. split; [discriminate|]. split; [|exact F5].
      intros _. specialize (F4 eq_refl). destruct (f_mode f); try exact F4.
      * destruct F4 as [J U]. split; [|exact U]. apply Forall_app. split; [exact J|apply junk_txns].
      * destruct F4 as [[J U]|(U & S & js & r & rest & D & J & R)].
        { left. split; [|exact U]. apply Forall_app. split; [exact J|apply junk_txns]. }
        right. split; [exact U|]. split; [auto|]. exists js, r, (rest ++ map DTxn (map to_wire (num L sent (length L)))).
        split; [rewrite D, <- app_assoc; reflexivity|]. split; [exact J|].
        destruct r as [ms|]; [|exact I]. destruct R as (M & b0 & B1 & B2 & -> & St).
        split; [exact M|]. exists b0. split; [exact B1|]. split; [lia|]. split; [reflexivity|].
        rewrite Es in *. now apply stream_flush.
      * destruct F4 as (U & S & M & St). split; [exact U|]. split; [auto|]. split; [exact M|].
        rewrite Es in *. rewrite app_assoc. now apply stream_flush.
    + unfold Fol, Repl_Proofs.Fol. rewrite El, Eo, Es. intuition discriminate.
  - unfold Fol, Repl_Proofs.Fol. rewrite Es.
    split; [exact V|]. split; [exact F1|]. split; [auto|]. split; [exact F3|]. split; [|exact F5].
    intros Ho. specialize (F4 Ho). destruct (f_mode f); try exact F4.
    + destruct F4 as [F4|(U & S & js & r & rest & D & J & R)]; [left; exact F4|right].
      split; [exact U|]. split; [exact S|]. exists js, r, rest. split; [exact D|]. split; [exact J|].
      destruct r as [ms|]; [|exact I]. destruct R as (M & b0 & B1 & B2 & -> & St).
      split; [exact M|]. exists b0. split; [exact B1|]. split; [lia|]. split; [reflexivity|].
      eapply stream_grow; eauto.
    + destruct F4 as (U & S & M & St). split; [exact U|]. split; [exact S|]. split; [exact M|].
      eapply stream_grow; eauto.
Qed.

Lemma fol_bye L ph f :
  ph <> Stopped -> Fol L (length L) ph f -> Fol L (length L) Stopped (send_down [DStopped] (set_subs false f)).
Proof.
  intros Hp (V & F1 & F2 & F3 & F4 & F5).
  unfold send_down. cbn [set_subs f_lopen f_open].
  destruct (f_lopen f) eqn:El; cbn [andb].
  - destruct (f_open f) eqn:Eo.
    + unfold Fol, Repl_Proofs.Fol. cbn [set_subs f_hist f_mode f_queue f_open f_lopen f_subs f_down f_up].
      split; [exact V|]. split; [discriminate|]. split; [auto|]. split; [discriminate|]. split; [|exact F5].
      intros _. specialize (F4 eq_refl).
      assert (Forall junk [DStopped]) as JS by (constructor; [exact I|constructor]).
      destruct (f_mode f); try exact F4.
      * destruct F4 as [J U]. split; [|exact U]. apply Forall_app. auto.
      * destruct F4 as [[J U]|(U & S & js & r & rest & D & J & R)].
        { left. split; [|exact U]. apply Forall_app. auto. }
        right. split; [exact U|]. split; [congruence|]. exists js, r, (rest ++ [DStopped]).
        split; [rewrite D, <- app_assoc; reflexivity|]. split; [exact J|].
        destruct r as [ms|]; [|exact I]. destruct R as (M & b0 & B1 & B2 & -> & St).
        split; [exact M|]. exists b0. split; [exact B1|]. split; [lia|]. split; [reflexivity|].
        rewrite (S eq_refl Hp) in St. eapply stream_bye; eauto.
      * destruct F4 as (U & S & M & St). split; [exact U|]. split; [congruence|]. split; [exact M|].
        rewrite (S eq_refl Hp) in St. rewrite app_assoc. eapply stream_bye; eauto.
    + unfold Fol, Repl_Proofs.Fol. cbn [set_subs f_hist f_mode f_queue f_open f_lopen f_subs f_down f_up].
      rewrite El, Eo. intuition discriminate.
  - unfold Fol, Repl_Proofs.Fol. cbn [set_subs f_hist f_mode f_queue f_open f_lopen f_subs f_down f_up].
    split; [exact V|]. split; [tauto|]. split; [auto|]. split; [exact F3|]. split; [|exact F5].
    intros Ho. specialize (F4 Ho). destruct (F1 eq_refl) as [_ Es]. rewrite Es in F4.
    destruct (f_mode f); try exact F4.
    + destruct F4 as [F4|(U & S & js & r & rest & D & J & R)]; [left; exact F4|right].
      split; [exact U|]. split; [congruence|]. exists js, r, rest. split; [exact D|]. split; [exact J|].
      destruct r as [ms|]; [|exact I]. destruct R as (M & b0 & B1 & B2 & -> & St).
      split; [exact M|]. exists b0. split; [exact B1|]. split; [lia|]. split; [reflexivity|].
      eapply stream_phase; [|exact St]. auto.
    + destruct F4 as (U & S & M & St). split; [exact U|]. split; [congruence|]. split; [exact M|].
      eapply stream_phase; [|exact St]. auto.
Qed.

Lemma fol_fclose L sent ph f : Fol L sent ph f -> Fol L sent ph (f_close f).
Proof.
  intros (V & F1 & F2 & F3 & F4 & F5). unfold Fol, Repl_Proofs.Fol, f_close.
  cbn [f_hist f_mode f_queue f_open f_lopen f_subs f_down f_up].
  split; [exact V|]. split; [exact F1|]. split; [exact F2|].
  split; [destruct (f_mode f); auto|]. split; [discriminate|]. destruct (f_mode f); discriminate.
Qed.

Lemma fol_lclose L sent ph f : Fol L sent ph f -> Fol L sent ph (l_close f).
Proof.
  intros (V & F1 & F2 & F3 & F4 & F5). unfold Fol, Repl_Proofs.Fol, l_close.
  cbn [f_hist f_mode f_queue f_open f_lopen f_subs f_down f_up].
  split; [exact V|]. split; [auto|]. split; [auto|]. split; [exact F3|]. split; [|exact F5].
  intros Ho. specialize (F4 Ho). destruct (f_mode f); try exact F4.
  - destruct F4 as [J U]. auto.
  - destruct F4 as [[J U]|(U & S & js & r & rest & D & J & R)]; [left; auto|right].
    split; [auto|]. split; [discriminate|]. exists js, r, rest. split; [exact D|]. split; [exact J|].
    destruct r as [ms|]; [|exact I]. destruct R as (M & b0 & B1 & B2 & -> & St).
    split; [exact M|]. exists b0. split; [exact B1|]. split; [lia|]. split; [reflexivity|].
    eapply stream_dead; eauto.
  - destruct F4 as (U & S & M & St). split; [auto|]. split; [discriminate|]. split; [exact M|].
    eapply stream_dead; eauto.
Qed.

Lemma inv_upd s j f :
  Inv s -> Fol (l_hist s) (l_sent s) (l_phase s) f -> Inv (upd s j f).
Proof.
  intros (I1 & I2 & I3 & I4 & I5 & I6) H. unfold Inv, Repl_Proofs.Inv, upd.
  cbn [l_hist l_base l_popped l_sent l_phase fols].
  split; [exact I1|]. split; [exact I2|]. split; [exact I3|]. split; [exact I4|]. split; [exact I5|].
  intros k. destruct (k =? j); auto.
Qed.

Lemma flush_eq s : Inv s ->
  flush comp s = mkS (l_hist s) (l_base s) (length (l_hist s)) (length (l_hist s)) (l_phase s)
      (fun j => let f := fols s j in
         if f_subs f then send_down (map DTxn (map to_wire (num (l_hist s) (l_sent s) (length (l_hist s))))) f else f).
Proof.
  intros (I1 & I2 & I3 & I4 & I5 & I6). unfold flush. rewrite number_0_num, skipn_num by lia.
  cbn [Nat.add]. rewrite outgoing_num by lia. reflexivity.
Qed.

Lemma flush_inv s : Inv s -> Inv (flush comp s).
Proof.
  intros H. rewrite flush_eq by assumption. destruct H as (I1 & I2 & I3 & I4 & I5 & I6).
  unfold Inv, Repl_Proofs.Inv. cbn [l_hist l_base l_popped l_sent l_phase fols].
  split; [exact I1|]. split; [exact I2|]. split; [lia|]. split; [lia|]. split; [auto|].
  intros j. apply fol_flush; auto.
Qed.

Lemma junk_head m l : Forall junk (m :: l) -> junk m /\ Forall junk l.
Proof. intros H. inversion H. auto. Qed.

Lemma inv_step s e s' : Inv s -> clean sha e -> step s e = Some s' -> Inv s'.
Proof.
  intros HI Hc. pose proof HI as (I1 & I2 & I3 & I4 & I5 & I6).
  destruct e as [q| |b| | |j|j|j|j h|j|j fails|j os|j o|j]; cbn [Repl_Model.step].
  - (* commit *)
    destruct (l_phase s) eqn:Ep; intros HS; inversion HS; subst s'; clear HS;
      unfold Inv, Repl_Proofs.Inv; cbn [l_hist l_base l_popped l_sent l_phase fols]; rewrite app_length;
      (split; [now apply valid_snoc|]); (split; [lia|]); (split; [lia|]); (split; [lia|]); (split; [discriminate|]);
      intros j; apply fol_commit; auto; discriminate.
  - destruct (l_phase s); intros HS; inversion HS; subst; apply flush_inv; assumption.
  - destruct ((l_base s <=? b) && (b <=? length (l_hist s))) eqn:E; intros HS; inversion HS; subst s'; clear HS.
    apply andb_true_iff in E. rewrite !Nat.leb_le in E.
    unfold Inv, Repl_Proofs.Inv; cbn [l_hist l_base l_popped l_sent l_phase fols].
    split; [exact I1|]. split; [lia|]. auto.
  - destruct (l_phase s) eqn:Ep; intros HS; inversion HS; subst s'; clear HS.
    unfold Inv, Repl_Proofs.Inv; cbn [l_hist l_base l_popped l_sent l_phase fols].
    split; [exact I1|]. split; [exact I2|]. split; [exact I3|]. split; [exact I4|]. split; [discriminate|].
    intros j. eapply fol_phase; [|apply I6]. discriminate.
  - (* stop *)
    assert (l_phase s <> Stopped -> Inv (stop comp s)) as G.
    { intros Hp. unfold stop. rewrite flush_eq by assumption. pose proof (flush_inv s HI) as HF.
      rewrite flush_eq in HF by assumption.
      cbn [l_hist l_base l_popped l_sent l_phase fols].
      destruct HF as (J1 & J2 & J3 & J4 & J5 & J6).
      cbn [l_hist l_base l_popped l_sent l_phase fols] in *.
      unfold Inv, Repl_Proofs.Inv; cbn [l_hist l_base l_popped l_sent l_phase fols].
      split; [exact J1|]. split; [exact J2|]. split; [exact J3|]. split; [exact J4|]. split; [auto|].
      intros j. eapply fol_bye; [exact Hp|]. apply J6. }
    destruct (l_phase s) eqn:Ep; intros HS; inversion HS; subst s'; apply G; discriminate.
  - (* connect *)
    assert (f_mode (fols s j) <> Dead -> f_open (fols s j) = false -> f_lopen (fols s j) = false ->
      Inv (upd s j (mkF (f_hist (fols s j)) (f_mode (fols s j)) (f_queue (fols s j)) true true false [] []))) as G.
    { intros Hd Ho Hl. apply inv_upd; [assumption|].
      destruct (I6 j) as (V & F1 & F2 & F3 & F4 & F5).
      unfold Fol, Repl_Proofs.Fol. cbn [f_hist f_mode f_queue f_open f_lopen f_subs f_down f_up].
      destruct (F3 Ho) as [_ [Hm|Hm]]; [|congruence]. rewrite Hm.
      split; [exact V|]. split; [auto|]. split; [auto|]. split; [discriminate|]. split; [|discriminate].
      intros _. auto. }
    destruct (f_mode (fols s j)) eqn:Em; destruct (f_open (fols s j)) eqn:Eo; destruct (f_lopen (fols s j)) eqn:El;
      cbn [orb]; intros HS; inversion HS; subst s'; apply G; auto; discriminate.
  - destruct (f_open (fols s j)); intros HS; inversion HS; subst s'. apply inv_upd; auto using fol_fclose.
  - destruct (f_lopen (fols s j)); intros HS; inversion HS; subst s'. apply inv_upd; auto using fol_lclose.
  - (* change *)
    cbn [clean] in Hc. destruct (I6 j) as (V & F1 & F2 & F3 & F4 & F5).
    assert (f_mode (fols s j) = Off \/ f_mode (fols s j) = Dead ->
      Inv (upd s j (mkF h Off [] (f_open (fols s j)) (f_lopen (fols s j)) (f_subs (fols s j)) (f_down (fols s j)) (f_up (fols s j))))) as G.
    { intros Hm. apply inv_upd; [assumption|].
      unfold Fol, Repl_Proofs.Fol. cbn [f_hist f_mode f_queue f_open f_lopen f_subs f_down f_up].
      split; [exact Hc|]. split; [auto|]. split; [auto|]. split; [intros Ho; split; [apply F3; auto|auto]|]. split; [|discriminate].
      intros Ho. specialize (F4 Ho). destruct Hm as [Hm|Hm]; rewrite Hm in F4; tauto. }
    destruct (f_mode (fols s j)) eqn:Em; intros HS; inversion HS; subst s'; apply G; auto.
  - (* subscribe *)
    destruct (I6 j) as (V & F1 & F2 & F3 & F4 & F5).
    destruct (f_mode (fols s j)) eqn:Em; [|discriminate..].
    destruct (f_open (fols s j)) eqn:Eo; intros HS; inversion HS; subst s'; clear HS.
    apply inv_upd; [assumption|]. specialize (F4 eq_refl). destruct F4 as [J U].
    unfold send_up. cbn [f_lopen f_open].
    destruct (f_lopen (fols s j)) eqn:El; cbn [andb];
      unfold Fol, Repl_Proofs.Fol; cbn [f_hist f_mode f_queue f_open f_lopen f_subs f_down f_up];
      (split; [exact V|]); (split; [auto; discriminate|]); (split; [exact F2|]); (split; [discriminate|]); (split; [|discriminate]);
      intros _; left; (split; [exact J|]).
    + right. exists (f_up (fols s j)). auto.
    + left. exact U.
  - (* leader receives *)
    destruct (I6 j) as (V & F1 & F2 & F3 & F4 & F5).
    set (f := fols s j) in *.
    destruct (f_up f) as [|m up] eqn:Eu; [discriminate|].
    destruct (f_lopen f) eqn:El; [|discriminate].
    set (f1 := mkF (f_hist f) (f_mode f) (f_queue f) (f_open f) true (f_subs f) (f_down f) up).
    assert (f_open f = true ->
      (m = USearching /\ Forall is_search up /\ (f_mode f = Off \/ f_mode f = Subscribing) /\ Forall junk (f_down f)) \/
      (m = USearching /\ f_mode f = Subscribing /\ Forall junk (f_down f) /\
         exists us, up = us ++ [USubscribe (length (f_hist f)) (tip (f_hist f))] /\ Forall is_search us) \/
      (m = USubscribe (length (f_hist f)) (tip (f_hist f)) /\ up = [] /\ f_mode f = Subscribing /\ Forall junk (f_down f))) as Cases.
    { intros Ho. specialize (F4 Ho). destruct (f_mode f).
      - destruct F4 as [J U]. inversion U; subst. left. auto.
      - destruct F4 as [[J [U|(us & E & U)]]|(E & _)]; [| |discriminate].
        + inversion U; subst. left. auto.
        + destruct us as [|u us].
          * cbn in E. inversion E; subst. right; right. auto.
          * cbn in E. inversion E; subst. inversion U; subst. right; left. repeat split; eauto.
      - destruct F4; discriminate.
      - tauto. }
    assert (Fol (l_hist s) (l_sent s) (l_phase s) (l_close f1)) as HClose.
    { unfold Fol, Repl_Proofs.Fol, l_close, f1. cbn [f_hist f_mode f_queue f_open f_lopen f_subs f_down f_up].
      split; [exact V|]. split; [auto|]. split; [auto|]. split; [exact F3|]. split; [|exact F5].
      intros Ho. destruct (Cases Ho) as [(-> & U & [Hm|Hm] & J)|[(-> & Hm & J & _)|(-> & _ & Hm & J)]]; rewrite Hm; auto. }
    destruct m as [pc ph|].
    + (* subscribe *)
      destruct (l_phase s) eqn:Ep; [|intros HS; inversion HS; subst s'; apply inv_upd; rewrite ?Ep; assumption..].
      pose proof (q_sync_spec comp (l_hist s) (l_base s) (l_sent s) pc ph true fails I4 I2) as Q.
      destruct (q_sync comp (l_hist s) (l_base s) (l_sent s) pc ph true fails) as [| |ms];
        intros HS; inversion HS; subst s'; clear HS; (apply inv_upd; [assumption|]); rewrite ?Ep; [assumption| |].
      * (* mismatch *)
        unfold send_down. cbn [f_lopen f_open f1].
        destruct (f_open f) eqn:Eo; cbn [andb];
          unfold Fol, Repl_Proofs.Fol, set_subs; cbn [f_hist f_mode f_queue f_open f_lopen f_subs f_down f_up f1];
          (split; [exact V|]); (split; [discriminate|]); (split; [discriminate|]); rewrite ?Eo.
        -- split; [discriminate|]. split; [|exact F5]. intros _.
           destruct (Cases eq_refl) as [(X & _)|[(X & _)|(X & -> & Hm & J)]]; [discriminate X..|]. rewrite Hm.
           right. split; [reflexivity|]. split; [auto|]. exists (f_down f), None, []. auto.
        -- split; [exact F3|]. split; [discriminate|exact F5].
      * destruct Q as (Q1 & Q2 & Q3 & ->).
        unfold send_down. cbn [f_lopen f_open f1].
        destruct (f_open f) eqn:Eo; cbn [andb];
          unfold Fol, Repl_Proofs.Fol, set_subs; cbn [f_hist f_mode f_queue f_open f_lopen f_subs f_down f_up f1];
          (split; [exact V|]); (split; [discriminate|]); (split; [discriminate|]); rewrite ?Eo.
        -- split; [discriminate|]. split; [|exact F5]. intros _.
           destruct (Cases eq_refl) as [(X & _)|[(X & _)|(X & -> & Hm & J)]]; [discriminate X..|]. rewrite Hm.
           injection X as -> ->.
           right. split; [reflexivity|]. split; [auto|].
           exists (f_down f), (Some (map to_wire (num (l_hist s) (length (f_hist f)) (l_sent s)))), [].
           split; [reflexivity|]. split; [exact J|].
           split.
           { split; [lia|]. destruct (length (f_hist f)) eqn:EL.
             - destruct (f_hist f); [reflexivity|discriminate].
             - apply Q3. lia. }
           exists (l_sent s). split; [lia|]. split; [lia|]. split; [reflexivity|].
           exists (l_sent s), []. rewrite num_nil. cbn. intuition lia.
        -- split; [exact F3|]. split; [discriminate|exact F5].
    + (* searching *)
      intros HS; inversion HS; subst s'; clear HS. apply inv_upd; [assumption|].
      unfold Fol, Repl_Proofs.Fol, set_subs; cbn [f_hist f_mode f_queue f_open f_lopen f_subs f_down f_up f1].
      split; [exact V|]. split; [discriminate|]. split; [auto|]. split; [exact F3|]. split; [|exact F5].
      intros Ho. destruct (Cases Ho) as [(_ & U & [Hm|Hm] & J)|[(_ & Hm & J & us & -> & U)|(X & _)]]; [| | |discriminate X]; rewrite Hm.
      * auto.
      * left. auto.
      * left. split; [exact J|]. right. exists us. auto.
  - (* follower receives *)
    cbn [clean] in Hc. destruct (I6 j) as (V & F1 & F2 & F3 & F4 & F5).
    set (f := fols s j) in *.
    destruct (f_down f) as [|m down] eqn:Ed; [discriminate|].
    destruct (f_open f) eqn:Eo; [|discriminate]. specialize (F4 eq_refl).
    set (f1 := mkF (f_hist f) (f_mode f) (f_queue f) true (f_lopen f) (f_subs f) down (f_up f)).
    assert (junk m -> f_mode f <> Following -> Fol (l_hist s) (l_sent s) (l_phase s) f1) as Skip.
    { intros Jm Hn. unfold Fol, Repl_Proofs.Fol, f1; cbn [f_hist f_mode f_queue f_open f_lopen f_subs f_down f_up].
      split; [exact V|]. split; [exact F1|]. split; [exact F2|]. split; [discriminate|]. split; [|exact F5].
      intros _. destruct (f_mode f).
      - destruct F4 as [J U]. apply junk_head in J. tauto.
      - destruct F4 as [[J U]|(U & S & js & r & rest & D & J & R)].
        + left. apply junk_head in J. tauto.
        + right. split; [exact U|]. split; [exact S|].
          destruct js as [|x js]; cbn in D; injection D as -> D; [destruct Jm|].
          exists js, r, rest. apply junk_head in J. tauto.
      - congruence.
      - exact F4. }
    assert (forall h md qu, valid sha h ->
      Fol (l_hist s) (l_sent s) (l_phase s) (f_close (mkF h md qu true (f_lopen f) (f_subs f) down (f_up f)))) as HClose.
    { intros h md qu Vh. unfold Fol, Repl_Proofs.Fol, f_close; cbn [f_hist f_mode f_queue f_open f_lopen f_subs f_down f_up].
      split; [exact Vh|]. split; [exact F1|]. split; [exact F2|].
      split; [destruct md; auto|]. split; [discriminate|]. destruct md; discriminate. }
    destruct m as [w|r|].
    + (* a transaction *)
      destruct (f_mode f) eqn:Em; intros HS; inversion HS; subst s'; clear HS;
        (apply inv_upd; [assumption|]); try (apply Skip; [exact I|discriminate]).
      destruct F4 as (U & S & M & St).
      unfold Fol, Repl_Proofs.Fol; cbn [f_hist f_mode f_queue f_open f_lopen f_subs f_down f_up].
      split; [exact V|]. split; [exact F1|]. split; [exact F2|]. split; [discriminate|]. split; [|exact F5].
      intros _. split; [exact U|]. split; [exact S|]. split; [exact M|].
      rewrite map_app, <- app_assoc. exact St.
    + (* approved *)
      destruct (f_mode f) eqn:Em;
        [intros HS; inversion HS; subst s'; clear HS; apply inv_upd; [assumption|]; now apply HClose| |
         intros HS; inversion HS; subst s'; clear HS; apply inv_upd; [assumption|]; now apply HClose|
         intros HS; inversion HS; subst s'; clear HS; apply inv_upd; [assumption|]; now apply HClose].
      destruct r as [ms|]; [|intros HS; inversion HS; subst s'; clear HS; apply inv_upd; [assumption|]; now apply HClose].
      destruct F4 as [[J _]|(U & S & js & r & rest & D & J & R)].
      { apply junk_head in J. destruct J as [[] _]. }
      destruct js as [|x js]; cbn in D; injection D as D1 D2.
      2:{ subst x. apply junk_head in J. destruct J as [[] _]. }
      subst r rest. destruct R as (M & b0 & B1 & B2 & -> & St).
      pose proof (recv_honest sha comp decomp decomp_comp (l_hist s) b0 I1 ltac:(lia) _ (f_hist f) os eq_refl B1 M Hc) as RH.
      pose proof (recv_valid sha decomp (f_hist f) (map to_wire (num (l_hist s) (length (f_hist f)) b0)) os V) as RV.
      destruct (recv_commits sha decomp (f_hist f) (map to_wire (num (l_hist s) (length (f_hist f)) b0)) os) as [h ok].
      cbn [fst] in RV. destruct RH as (L1 & M1 & E1 & O1 & _).
      destruct ok; intros HS; inversion HS; subst s'; clear HS; (apply inv_upd; [assumption|]); [|now apply HClose].
      specialize (O1 eq_refl).
      unfold Fol, Repl_Proofs.Fol; cbn [f_hist f_mode f_queue f_open f_lopen f_subs f_down f_up].
      split; [exact RV|]. split; [exact F1|]. split; [exact F2|]. split; [discriminate|]. split; [|auto].
      intros _. split; [exact U|]. split; [exact S|]. split; [exact M1|].
      cbn [map app]. rewrite O1. exact St.
    + (* stopped *)
      intros HS; inversion HS; subst s'; clear HS. apply inv_upd; [assumption|].
      destruct (f_mode f) eqn:Em; try (apply Skip; [exact I|discriminate]).
      destruct F4 as (U & S & M & (b & tail & B1 & B2 & B3 & B4 & B5)).
      unfold Fol, Repl_Proofs.Fol; cbn [f_hist f_mode f_queue f_open f_lopen f_subs f_down f_up f1].
      split; [exact V|]. split; [exact F1|]. split; [exact F2|]. split; [discriminate|]. split; [|exact F5].
      intros _. split; [exact U|]. split; [exact S|]. split; [exact M|].
      (* the farewell is the last message *)
      destruct B5 as [->|(-> & -> & Hp)].
      { exfalso. rewrite app_nil_r in B3.
        assert (In DStopped (map DTxn (map to_wire (num (l_hist s) (length (f_hist f)) b)))) as X
          by (rewrite <- B3; apply in_or_app; right; left; reflexivity).
        apply in_map_iff in X. destruct X as (?&X&_). discriminate X. }
      assert (down = [] /\ map DTxn (f_queue f) = map DTxn (map to_wire (num (l_hist s) (length (f_hist f)) (length (l_hist s))))) as [-> EQ].
      { revert B3. generalize (map to_wire (num (l_hist s) (length (f_hist f)) (length (l_hist s)))) as l2, (f_queue f) as l1.
        clear. intros l2 l1. revert l2. induction l1 as [|x l1 IH]; intros [|y l2] E; cbn in *.
        - injection E as ->. auto.
        - discriminate.
        - injection E as X E. destruct l1; discriminate.
        - injection E as -> E. destruct (IH _ E) as [-> E2]. split; [reflexivity|]. now rewrite E2. }
      exists (length (l_hist s)), []. rewrite !app_nil_r.
      split; [assumption|]. split; [lia|]. split; [exact EQ|]. split; [|auto].
      intros X. rewrite (F2 Hp) in X. discriminate.
  - (* replicate *)
    destruct (I6 j) as (V & F1 & F2 & F3 & F4 & F5).
    set (f := fols s j) in *.
    destruct (f_mode f) eqn:Em; try discriminate.
    destruct (f_queue f) as [|m qs] eqn:Eq; [discriminate|].
    destruct (f_open f) eqn:Eo; [|destruct (F3 eq_refl) as [_ [X|X]]; discriminate].
    specialize (F4 eq_refl). destruct F4 as (U & Sb & M & (b & tail & B1 & B2 & B3 & B4 & B5)).
    assert (exists e, nth_error (l_hist s) (length (f_hist f)) = Some e /\ m = to_wire (S (length (f_hist f)), e) /\
       length (f_hist f) < b /\
       map DTxn qs ++ f_down f = map DTxn (map to_wire (num (l_hist s) (S (length (f_hist f))) b)) ++ tail) as (e & He & -> & Hlt & Hrest).
    { destruct (Nat.eq_dec (length (f_hist f)) b) as [E|E].
      - subst b. rewrite num_nil in B3. cbn in B3. destruct B5 as [->|(-> & _)]; cbn in B3; discriminate.
      - destruct (nth_error_ex (l_hist s) (length (f_hist f))) as [e He]; [lia|].
        rewrite (num_cons _ _ b e) in B3 by (lia || assumption). cbn [map app] in B3. injection B3 as -> B3.
        exists e. repeat split; auto; lia. }
    rewrite (apply_honest sha comp decomp decomp_comp _ _ e o I1 M He).
    assert (Fol (l_hist s) (l_sent s) (l_phase s) (mkF (f_hist f) Dead [] false (f_lopen f) (f_subs f) [] (f_up f))) as HDead.
    { unfold Fol, Repl_Proofs.Fol; cbn [f_hist f_mode f_queue f_open f_lopen f_subs f_down f_up].
      split; [exact V|]. split; [exact F1|]. split; [exact F2|]. split; [auto|]. split; discriminate. }
    destruct o; intros HS; inversion HS; subst s'; clear HS; (apply inv_upd; [assumption|]); try exact HDead.
    destruct (matches_snoc sha _ _ _ I1 M He) as [Hs M'].
    unfold Fol, Repl_Proofs.Fol; cbn [f_hist f_mode f_queue f_open f_lopen f_subs f_down f_up].
    split; [replace e with (fst e, sha (tip (f_hist f) ++ fst e)) by (rewrite Hs; destruct e; reflexivity); now apply valid_snoc|].
    split; [exact F1|]. split; [exact F2|]. split; [congruence|]. split; [|auto].
    intros _. split; [exact U|]. split; [exact Sb|]. split; [exact M'|].
    rewrite app_length. cbn [length]. rewrite Nat.add_1_r.
    exists b, tail. auto.
  - (* leave *)
    destruct (I6 j) as (V & F1 & F2 & F3 & F4 & F5).
    set (f := fols s j) in *.
    destruct (f_mode f) eqn:Em; try discriminate. intros HS; inversion HS; subst s'; clear HS. apply inv_upd; [assumption|].
    destruct (f_open f) eqn:Eo; [|destruct (F3 eq_refl) as [_ [X|X]]; discriminate].
    specialize (F4 eq_refl). destruct F4 as (U & Sb & M & (b & tail & B1 & B2 & B3 & B4 & B5)).
    assert (Forall junk (f_down f)) as J.
    { assert (Forall junk (map DTxn (f_queue f) ++ f_down f)) as X.
      { rewrite B3. apply Forall_app. split; [apply junk_txns|].
        destruct B5 as [->|(-> & _)]; [constructor|]. constructor; [exact I|constructor]. }
      apply Forall_app in X. tauto. }
    unfold send_up. cbn [f_lopen f_open].
    destruct (f_lopen f) eqn:El; cbn [andb];
      unfold Fol, Repl_Proofs.Fol; cbn [f_hist f_mode f_queue f_open f_lopen f_subs f_down f_up];
      (split; [exact V|]); (split; [auto; discriminate|]); (split; [exact F2|]); (split; [discriminate|]); (split; [|discriminate]);
      intros _; (split; [exact J|]); rewrite U; [|constructor].
    constructor; [reflexivity|constructor].
Qed.

Lemma inv_run es : forall s s', Inv s -> Forall (clean sha) es -> run sha comp decomp s es = Some s' -> Inv s'.
Proof.
  induction es as [|e es IH]; intros s s' HI HC HR; cbn in HR; [congruence|].
  inversion HC; subst. destruct (step s e) eqn:E; [|discriminate]. apply (IH s0 s'); auto. exact (inv_step s e s0 HI H1 E).
Qed.

Lemma inv_init h base popped hs :
  valid sha h -> base <= length h -> popped <= length h -> (forall j, valid sha (hs j)) -> Inv (init h base popped hs).
Proof.
  intros V Hb Hp Hs. unfold Inv, Repl_Proofs.Inv, init. cbn [l_hist l_base l_popped l_sent l_phase fols].
  split; [exact V|]. split; [exact Hb|]. split; [exact Hp|]. split; [lia|]. split; [discriminate|].
  intros j. unfold Fol, Repl_Proofs.Fol. cbn [f_hist f_mode f_queue f_open f_lopen f_subs f_down f_up].
  split; [apply Hs|]. split; [auto|]. split; [auto|]. split; [auto|]. split; discriminate.
Qed.
End Inv.
