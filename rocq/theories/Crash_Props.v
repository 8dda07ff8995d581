(** C29: crash-inducing commands are refused precisely. *)
From Verif Require Import Base Dec Text_Spec Text_Model Text_Proofs Table Http_Spec Http_Model Http_Proofs Http_Props Crash_Spec Crash_Model.

Definition c_step (c : crash) (e : cevent) : crash := match e with Report m t => add m t c | Clear => [] end.
Definition c_run (h : list cevent) : crash := fold_left c_step h [].

Lemma table_eqb_eq a b : table_eqb a b = true <-> a = b.
Proof.
  revert b. induction a as [|[k v] a IH]; intros [|[k' v'] b]; cbn [table_eqb]; try (split; congruence).
  rewrite !andb_true_iff, !bytes_eqb_eq, IH. split; [intros [[-> ->] ->]; reflexivity|]. intros E. injection E as -> -> ->. auto.
Qed.
Definition holds (c : crash) (m : bytes) (t : stable) : Prop := exists l, lookup m c = Some l /\ In t l.
Definition crash_ok (c : crash) : Prop := forall m l, lookup m c = Some l -> l <> [] /\ NoDup l.
Lemma in_set_insert t x l : In x (set_insert t l) <-> x = t \/ In x l.
Proof.
  unfold set_insert. destruct (existsb (table_eqb t) l) eqn:E.
  - apply existsb_exists in E as (y & Hy & E). apply table_eqb_eq in E. subst y. split; [auto|]. intros [->|H]; auto.
  - rewrite in_app_iff. cbn [In]. split; [intros [H|[<-|[]]]; auto|intros [->|H]; auto].
Qed.
Lemma nodup_set_insert t l : NoDup l -> NoDup (set_insert t l).
Proof.
  intros H. unfold set_insert. destruct (existsb (table_eqb t) l) eqn:E; [exact H|].
  apply NoDup_Add with (a := t) (l := l).
  - replace (l ++ [t]) with (l ++ t :: []) by reflexivity. rewrite <- (app_nil_r l) at 1. apply Add_app.
  - split; [exact H|]. intros Hin. assert (X : existsb (table_eqb t) l = true) by (apply existsb_exists; exists t; split; [exact Hin|apply table_eqb_eq; reflexivity]). congruence.
Qed.
Lemma lookup_add m t c m2 : lookup m2 (add m t c) =
  if bytes_eqb m2 m then Some (match lookup m c with Some l => set_insert t l | None => [t] end) else lookup m2 c.
Proof.
  induction c as [|[m' l] c IH]; cbn [add lookup].
  - destruct (bytes_eqb m2 m) eqn:E; reflexivity.
  - destruct (bytes_eqb m m') eqn:E; cbn [lookup].
    + apply bytes_eqb_eq in E. subst m'. destruct (bytes_eqb m2 m); reflexivity.
    + rewrite IH. destruct (bytes_eqb m2 m') eqn:E2; [|reflexivity]. apply bytes_eqb_eq in E2. subst m'.
      destruct (bytes_eqb m2 m) eqn:E3; [|reflexivity]. apply bytes_eqb_eq in E3. subst m2. rewrite bytes_eqb_refl in E. discriminate.
Qed.
Lemma holds_add m t c m2 t2 : holds (add m t c) m2 t2 <-> (m2 = m /\ t2 = t) \/ holds c m2 t2.
Proof.
  unfold holds. rewrite lookup_add. destruct (bytes_eqb m2 m) eqn:E.
  - apply bytes_eqb_eq in E. subst m2. destruct (lookup m c) as [l|].
    + split.
      * intros (l' & E & H). injection E as <-. apply in_set_insert in H as [->|H]; [left; auto|right; eauto].
      * intros [[_ ->]|(l' & E & H)]; eexists; (split; [reflexivity|]); apply in_set_insert; [left; reflexivity|]. injection E as ->. right. exact H.
    + split.
      * intros (l' & E & H). injection E as <-. destruct H as [<-|[]]. left. auto.
      * intros [[_ ->]|(l' & E & H)]; [|discriminate]. eexists. split; [reflexivity|]. left. reflexivity.
  - split; [intros H; right; exact H|]. intros [[-> _]|H]; [rewrite bytes_eqb_refl in E; discriminate|exact H].
Qed.
Lemma ok_add m t c : crash_ok c -> crash_ok (add m t c).
Proof.
  intros H m2 l. rewrite lookup_add. destruct (bytes_eqb m2 m) eqn:E; [|apply H]. intros X. injection X as <-.
  destruct (lookup m c) as [l|] eqn:El.
  - destruct (H m l El) as [H1 H2]. split; [|apply nodup_set_insert; exact H2]. unfold set_insert. destruct (existsb _ l); [exact H1|]. destruct l; discriminate.
  - split; [discriminate|]. repeat constructor. intros [].
Qed.
Lemma run_from h : forall c acc, crash_ok c -> (forall m t, holds c m t <-> In (m, t) acc) ->
  crash_ok (fold_left c_step h c) /\ forall m t, holds (fold_left c_step h c) m t <-> In (m, t) (in_force acc h).
Proof.
  induction h as [|e h IH]; intros c acc Hok H; cbn [fold_left in_force]; [auto|]. destruct e as [m t|]; cbn [c_step].
  - apply IH; [apply ok_add; exact Hok|]. intros m2 t2. rewrite holds_add, H. cbn [In]. split; [intros [[-> ->]|X]; auto|].
    intros [X|X]; [injection X as -> ->; auto|auto].
  - apply IH; [intros m l; discriminate|]. intros m t. split; [intros (l & E & _); discriminate|intros []].
Qed.
Lemma run_facts h : crash_ok (c_run h) /\ forall m t, holds (c_run h) m t <-> reported h m t.
Proof. apply run_from; [intros m l; discriminate|]. intros m t. split; [intros (l & E & _); discriminate|intros []]. Qed.

Lemma is_match_iff values request : is_match values request = true <-> matches values request.
Proof.
  induction values as [|[k v] rest IH]; cbn [is_match]; [split; [intros _ k v []|reflexivity]|].
  assert (N : is_name k (lit "Content-Length") <-> ieqb k CL = true) by (unfold is_name, ieqb; rewrite bytes_eqb_eq; reflexivity).
  assert (R : matches ((k, v) :: rest) request <-> (ieqb k CL = true \/ tfind k request = Some v) /\ matches rest request).
  { split.
    - intros H. split; [|intros k' v' Hin; apply H; right; exact Hin]. destruct (ieqb k CL) eqn:E; [left; reflexivity|]. right. apply H; [left; reflexivity|]. rewrite N. congruence.
    - intros [H1 H2] k' v' [E|Hin] Hn; [injection E as <- <-|apply H2; assumption]. destruct H1 as [H1|H1]; [exfalso; apply Hn, N, H1|exact H1]. }
  rewrite R. destruct (ieqb k CL); [rewrite IH; tauto|]. destruct (tfind k request) as [v'|]; [|split; [discriminate|intros [[?|?] _]; discriminate]].
  destruct (bytes_eqb v' v) eqn:E.
  - apply bytes_eqb_eq in E. subst v'. rewrite IH. tauto.
  - split; [discriminate|]. intros [[?|X] _]; [discriminate|]. injection X as ->. rewrite bytes_eqb_refl in E. discriminate.
Qed.

Lemma wouldCrash_iff c m request : crash_ok c ->
  (wouldCrash c m request = true <-> (exists t1 t2, holds c m t1 /\ holds c m t2 /\ t1 <> t2) \/ (exists t, holds c m t /\ matches t request)).
Proof.
  intros Hok. unfold wouldCrash, holds. destruct (lookup m c) as [l|] eqn:E.
  - destruct (Hok m l E) as [Hne Hnd]. destruct l as [|t1 [|t2 l]]; [congruence| |].
    + cbn [List.length Nat.ltb Nat.leb existsb]. rewrite orb_false_r, is_match_iff. split.
      * intros H. right. exists t1. split; [exists [t1]; split; [reflexivity|left; reflexivity]|exact H].
      * intros [(a & b & (l1 & E1 & H1) & (l2 & E2 & H2) & D)|(t & (l1 & E1 & H1) & H)].
        -- injection E1 as <-. injection E2 as <-. destruct H1 as [<-|[]], H2 as [<-|[]]. congruence.
        -- injection E1 as <-. destruct H1 as [<-|[]]. exact H.
    + cbn [List.length]. split; [|reflexivity]. intros _. left. exists t1, t2.
      split; [eexists; split; [reflexivity|left; reflexivity]|]. split; [eexists; split; [reflexivity|right; left; reflexivity]|].
      intros <-. inversion Hnd as [|? ? X _]; subst. apply X. left. reflexivity.
  - split; [discriminate|]. intros [(a & b & (l1 & E1 & H1) & _)|(t & (l1 & E1 & H1) & H)]; discriminate.
Qed.

(** A command is refused exactly if its method line has been reported with two different sets of identifying values
    since the list was last cleared, or with one set that it carries. *)
Theorem C29_exact h m request : wouldCrash (c_run h) m request = true <-> refused h m request.
Proof.
  destruct (run_facts h) as [Hok H]. rewrite (wouldCrash_iff _ _ _ Hok). unfold refused. split.
  - intros [(a & b & H1 & H2 & D)|(t & H1 & D)]; [left; exists a, b|right; exists t]; rewrite <- !H; auto.
  - intros [(a & b & H1 & H2 & D)|(t & H1 & D)]; [left; exists a, b|right; exists t]; rewrite !H; auto.
Qed.
Print Assumptions C29_exact.
(** Nothing is refused under a method line nobody reported. *)
Theorem C29_others_unaffected h m request : (forall t, ~ reported h m t) -> wouldCrash (c_run h) m request = false.
Proof.
  intros H. destruct (wouldCrash (c_run h) m request) eqn:E; [|reflexivity]. apply C29_exact in E as [(a & b & H1 & _)|(t & H1 & _)]; exfalso; eapply H; exact H1.
Qed.
Print Assumptions C29_others_unaffected.

(** ** The report on its way to another node *)
Lemma plain_not t n k v : plain_values t -> In (k, v) t ->
  n = CL \/ n = CE \/ n = SC \/ n = TE -> ieqb n k = false.
Proof.
  intros [_ H] Hin Hn. destruct (H k v Hin) as (_ & _ & _ & H1 & H2 & H3 & H4). destruct (ieqb n k) eqn:E; [|reflexivity].
  unfold ieqb in E. apply bytes_eqb_eq in E. unfold is_name, SToLower in *. symmetry in E. exfalso. destruct Hn as [Hn|[Hn|[Hn|Hn]]]; subst n; auto.
Qed.
Lemma trim_clean v : nul_free v -> unpadded v -> trim (cstr v) = v.
Proof. intros N U. rewrite cstr_nul_free by exact N. pose proof (trim_pad 0 v 0 U) as X. cbn [repeat app] in X. rewrite app_nil_r in X. exact X. Qed.

Lemma arrival_plain t : plain_values t -> arrival t = t.
Proof.
  intros P. unfold arrival. assert (G : forall l, (forall p, In p l -> In p t) -> map arrived (filter kept l) = l); [|apply G; auto].
  induction l as [|[k v] l IH]; intros Hin; [reflexivity|]. cbn [filter]. pose proof (Hin _ (or_introl eq_refl)) as H0.
  unfold kept at 1. cbn [fst snd]. rewrite (plain_not t CL k v P H0), (plain_not t CE k v P H0) by auto. cbn [negb andb map].
  rewrite IH by (intros; apply Hin; right; assumption). f_equal. unfold arrived. cbn [fst snd]. rewrite (plain_not t SC k v P H0) by auto.
  destruct P as [_ P]. destruct (P k v H0) as (_ & N & U & _). rewrite trim_clean by assumption. reflexivity.
Qed.
Lemma plain_gzip gz t : plain_values t -> forall c, gzipped gz t c = [] /\ final_content gz t c = c.
Proof.
  intros P c. assert (W : wants_gzip t = false).
  { unfold wants_gzip. destruct (existsb _ t) eqn:E; [|reflexivity]. apply existsb_exists in E as ([k v] & Hin & E). cbn [fst snd] in E.
    rewrite (plain_not t CE k v P Hin) in E by auto. rewrite andb_false_r in E. discriminate. }
  unfold final_content, gzipped. rewrite W. auto.
Qed.
Lemma plain_legal t : plain_values t -> forall k v, In (k, v) t -> legal_header k v.
Proof.
  intros [_ P] k v H. destruct (P k v H) as (H1 & _ & _ & _ & _ & H2 & H3). split; [exact H1|]. split; intros; exfalso; auto.
Qed.
(* a table as it is stored after a report has arrived *)
Definition stored (t : stable) : stable := tput CL (lit "0") t.
Lemma tput_split k v t : table_ok t -> (forall k' v', In (k', v') t -> kcmp k k' <> Eq) -> exists a b, t = a ++ b /\ tput k v t = a ++ (k, v) :: b.
Proof.
  intros _. induction t as [|[k' v'] t IH]; intros H; cbn [tput]; [exists [], []; auto|].
  pose proof (H k' v' (or_introl eq_refl)) as H0. destruct (kcmp k k') eqn:E; [congruence| |].
  - exists [], ((k', v') :: t). auto.
  - destruct IH as (a & b & -> & ->); [intros; apply (H k'0 v'0); right; assumption|]. exists ((k', v') :: a), b. auto.
Qed.
Lemma stored_split t : plain_values t -> exists a b, t = a ++ b /\ stored t = a ++ (CL, lit "0") :: b.
Proof.
  intros P. apply tput_split; [apply P|]. intros k v Hin E. apply kcmp_eq in E. rewrite (plain_not t CL k v P Hin) in E by auto. discriminate.
Qed.
Lemma arrival_stored t : plain_values t -> arrival (stored t) = t.
Proof.
  intros P. destruct (stored_split t P) as (a & b & E & ->). rewrite <- (arrival_plain t P) at 1.
  change ((CL, lit "0") :: b) with ([(CL, lit "0")] ++ b). rewrite !arrival_app, E, arrival_app.
  change (arrival [(CL, lit "0")]) with (@nil (bytes * bytes)). reflexivity.
Qed.
Lemma legal_CL0 : legal_header CL (lit "0").
Proof. split; [apply legal_CL|]. split; intros H; vm_compute in H; discriminate. Qed.
Lemma legal_method_ok gz m t c : legal_method m -> exists w, SComposeHTTP gz m t c = Some w.
Proof.
  intros (_ & _ & M). unfold SComposeHTTP. replace (forallb method_char m) with true; [eexists; reflexivity|]. symmetry. apply forallb_forall. intros x Hx. unfold method_char.
  destruct (M x Hx) as [->|(A & B)]; [reflexivity|]. apply orb_true_iff. right. apply negb_true_iff, orb_false_iff. split; [apply N.ltb_ge; exact A|apply N.eqb_neq; exact B].
Qed.

(* what arrives when a plain table, or one that is stored already, is sent without a body *)
Lemma hop gz m t0 t : legal_method m -> plain_values t -> t0 = t \/ t0 = stored t ->
  exists w, SComposeHTTP gz m t0 [] = Some w /\ SParseHTTP w = Done (List.length w) m (stored t) [].
Proof.
  intros M P Ht. destruct (legal_method_ok gz m t0 [] M) as (w & E). exists w. split; [exact E|].
  assert (Ok : table_ok t0) by (destruct Ht as [->| ->]; [apply P|apply tput_ok; apply P]).
  assert (Lg : forall k v, In (k, v) t0 -> legal_header k v).
  { destruct Ht as [->| ->]; [apply plain_legal; exact P|]. intros k v. destruct (stored_split t P) as (a & b & Et & ->). intros Hin.
    apply in_app_iff in Hin as [Hin|[Hin|Hin]].
    - apply (plain_legal t P). rewrite Et. apply in_or_app. left. exact Hin.
    - injection Hin as <- <-. apply legal_CL0.
    - apply (plain_legal t P). rewrite Et. apply in_or_app. right. exact Hin. }
  assert (Gz : gzipped gz t0 [] = []) by (unfold gzipped; rewrite andb_false_r; reflexivity).
  assert (Fc : final_content gz t0 [] = []) by (unfold final_content; rewrite Gz; reflexivity).
  assert (S : sent gz (mkMsg m t0 []) w).
  { split; [|split]; cbn [msg_method msg_table msg_content]; [|rewrite Fc; cbn; lia|exact E]. split; [exact M|]. split; [exact Ok|]. split; [exact Lg|]. cbn. lia. }
  pose proof (parse_whole gz _ w [] [] S (or_introl eq_refl)) as W. cbn [app] in W. rewrite app_nil_r in W. rewrite W.
  unfold got, final_table, compressed. cbn [msg_method msg_table msg_content fst snd]. rewrite Gz, Fc.
  replace (arrival t0) with t; [reflexivity|]. symmetry. destruct Ht as [->| ->]; [apply arrival_plain|apply arrival_stored]; exact P.
Qed.

Lemma tfind_emplace k k2 v t : tfind k2 (emplace k v t) = match tfind k2 t with Some x => Some x | None => match kcmp k2 k with Eq => Some v | _ => None end end.
Proof.
  unfold emplace. destruct (tfind k t) as [w|] eqn:E.
  - destruct (tfind k2 t) eqn:E2; [reflexivity|]. destruct (kcmp k2 k) eqn:K; try reflexivity. rewrite (tfind_cong _ _ t K), E in E2. discriminate.
  - rewrite tfind_tput. destruct (kcmp k2 k) eqn:K.
    + rewrite (tfind_cong _ _ t K), E. reflexivity.
    + destruct (tfind k2 t); reflexivity.
    + destruct (tfind k2 t); reflexivity.
Qed.
Lemma tput_new_in k v t p : tfind k t = None -> (In p (tput k v t) <-> p = (k, v) \/ In p t).
Proof.
  induction t as [|[k' v'] t IH]; cbn [tput tfind]; [cbn [In]; intuition|]. destruct (kcmp k k') eqn:E; [discriminate| |]; intros H.
  - cbn [In]. intuition.
  - cbn [In]. rewrite (IH H). cbn [In]. intuition.
Qed.
Lemma identifying_facts request keys : let t := identifying request keys in
  table_ok t /\ (forall k v, In (k, v) t -> In k keys /\ tfind k request = Some v) /\
  (forall k v, In k keys -> tfind k request = Some v -> tfind k t = Some v).
Proof.
  cbn zeta. induction keys as [|k keys IH] using rev_ind.
  - split; [constructor|]. split; [intros k v []|intros k v []].
  - assert (F : identifying request (keys ++ [k]) = match tfind k request with Some v => emplace k v (identifying request keys) | None => identifying request keys end)
      by (unfold identifying; rewrite fold_left_app; reflexivity).
    rewrite F. clear F. set (t := identifying request keys) in *. destruct IH as (I1 & I2 & I3).
    destruct (tfind k request) as [v|] eqn:E.
    + split; [unfold emplace; destruct (tfind k t); [exact I1|apply tput_ok; exact I1]|]. split.
      * intros k2 v2 Hin. unfold emplace in Hin. destruct (tfind k t) eqn:Et.
        -- destruct (I2 _ _ Hin). split; [apply in_or_app; left|]; assumption.
        -- apply (tput_new_in _ _ _ _ Et) in Hin as [X|Hin]; [injection X as -> ->; split; [apply in_or_app; right; left; reflexivity|exact E]|].
           destruct (I2 _ _ Hin). split; [apply in_or_app; left|]; assumption.
      * intros k2 v2 Hin H2. rewrite tfind_emplace. destruct (tfind k2 t) as [w|] eqn:Et.
        -- apply tfind_some in Et as (k3 & Hk3 & K). destruct (I2 _ _ Hk3) as [_ X]. rewrite <- (tfind_cong _ _ request K), H2 in X. congruence.
        -- apply in_app_iff in Hin as [Hin|[<-|[]]]; [rewrite (I3 _ _ Hin H2) in Et; discriminate|]. rewrite kcmp_refl. congruence.
    + split; [exact I1|]. split.
      * intros k2 v2 Hin. destruct (I2 _ _ Hin). split; [apply in_or_app; left|]; assumption.
      * intros k2 v2 Hin H2. apply in_app_iff in Hin as [Hin|[<-|[]]]; [exact (I3 _ _ Hin H2)|congruence].
Qed.
Lemma matches_stored t request : plain_values t -> (matches (stored t) request <-> forall k v, In (k, v) t -> tfind k request = Some v).
Proof.
  intros P. destruct (stored_split t P) as (a & b & Et & Es). unfold matches. rewrite Es. split.
  - intros H k v Hin. apply H; [rewrite Et in Hin; apply in_app_iff in Hin; apply in_or_app; cbn [In]; tauto|].
    destruct P as [_ P]. apply (P k v Hin).
  - intros H k v Hin Hn. apply in_app_iff in Hin as [Hin|[Hin|Hin]].
    + apply H. rewrite Et. apply in_or_app. auto.
    + injection Hin as <- <-. exfalso. apply Hn. reflexivity.
    + apply H. rewrite Et. apply in_or_app. auto.
Qed.

(** A command that crashes one node is refused by every node its report reaches, whatever that node knows already: the
    report travels as a message in a message, and at the other end it refuses exactly the commands with the same values
    under all identifying names the crashed command carried. *)
Definition plain_identifying (request : stable) (keys : list bytes) : Prop :=
  forall k v, In k keys -> tfind k request = Some v ->
    legal_name k /\ nul_free v /\ unpadded v /\
    ~ is_name k (lit "Content-Length") /\ ~ is_name k (lit "Content-Encoding") /\ ~ is_name k (lit "Set-Cookie") /\ ~ is_name k (lit "Transfer-Encoding").
Lemma plain_identifying_values request keys : plain_identifying request keys -> plain_values (identifying request keys).
Proof.
  intros H. destruct (identifying_facts request keys) as (I1 & I2 & _). split; [exact I1|]. intros k v Hin. destruct (I2 k v Hin) as [H1 H2]. exact (H k v H1 H2).
Qed.
Lemma plain_timeout : plain_values [(lit "timeout", lit "5000")].
Proof.
  split; [repeat constructor|]. intros k v [E|[]]. injection E as <- <-.
  repeat split; try (vm_compute; intuition discriminate).
Qed.
Theorem C29_report gz m request keys : legal_method m -> plain_identifying request keys ->
  (forall w, crash_content gz m request keys = Some w -> (N.of_nat (List.length w) < 2 ^ 31)%N) ->
  exists w t content values,
    crash_message gz m request keys = Some w /\
    SParseHTTP w = Done (List.length w) (lit "CRASH_COMMAND") t content /\
    (forall h, crash_command content (c_run h) = Some (c_run (h ++ [Report m values]))) /\
    (forall other, matches values other <-> forall k v, In k keys -> tfind k request = Some v -> tfind k other = Some v).
Proof.
  intros M HP HL. pose proof (plain_identifying_values _ _ HP) as P. destruct (hop gz m _ _ M P (or_introl eq_refl)) as (w1 & E1 & D1).
  assert (L1 : (N.of_nat (List.length w1) < 2 ^ 31)%N) by (apply HL; exact E1).
  assert (MC : legal_method (lit "CRASH_COMMAND")).
  { split; [discriminate|]. split; [split; vm_compute; discriminate|]. intros c Hc. right. revert c Hc. apply (proj1 (Forall_forall _ _)). repeat (apply Forall_cons; [vm_compute; split; [discriminate|discriminate]|]). constructor. }
  destruct (legal_method_ok gz (lit "CRASH_COMMAND") [(lit "timeout", lit "5000")] w1 MC) as (w & E).
  exists w. eexists _, w1, (stored (identifying request keys)). split; [unfold crash_message, crash_content; rewrite E1; exact E|]. split; [|split].
  - destruct (plain_gzip gz _ plain_timeout w1) as [G F].
    assert (S : sent gz (mkMsg (lit "CRASH_COMMAND") [(lit "timeout", lit "5000")] w1) w).
    { split; [|split]; cbn [msg_method msg_table msg_content]; [|rewrite F; exact L1|exact E]. split; [exact MC|]. split; [apply plain_timeout|]. split; [apply (plain_legal _ plain_timeout)|exact L1]. }
    pose proof (parse_whole gz _ w [] [] S (or_introl eq_refl)) as W. cbn [app] in W. rewrite app_nil_r in W. rewrite W.
    unfold got. cbn [msg_method msg_table msg_content fst snd]. rewrite F. reflexivity.
  - intros h. unfold crash_command. rewrite D1. unfold c_run. rewrite fold_left_app. reflexivity.
  - intros other. rewrite (matches_stored _ _ P). destruct (identifying_facts request keys) as (I1 & I2 & I3). split.
    + intros H k v Hk Hf. pose proof (I3 k v Hk Hf) as X. apply tfind_some in X as (k' & Hk' & K). rewrite (tfind_cong _ _ other K). exact (H k' v Hk').
    + intros H k v Hin. destruct (I2 k v Hin) as [A B]. exact (H k v A B).
Qed.
Print Assumptions C29_report.
(** A report of which the end is missing is no report: the list stays as it is.  The exception, as in C15, is the last
    line feed, which is not needed. *)
Theorem C29_cut_report gz m request keys w p r h : legal_method m -> plain_identifying request keys ->
  crash_content gz m request keys = Some w -> p ++ r = w -> r <> [] ->
  crash_command p (c_run h) = Some (c_run h) \/ (r = ["010"%char] /\ crash_command p (c_run h) = crash_command w (c_run h)).
Proof.
  intros M HP E Ep HR. pose proof (plain_identifying_values _ _ HP) as P. unfold crash_content in E.
  assert (Gz : forall t, gzipped gz t [] = []) by (intros t; unfold gzipped; rewrite andb_false_r; reflexivity).
  assert (Fc : forall t, final_content gz t [] = []) by (intros t; unfold final_content; rewrite Gz; reflexivity).
  assert (S : sent gz (mkMsg m (identifying request keys) []) w).
  { split; [|split]; cbn [msg_method msg_table msg_content]; [|rewrite Fc; cbn; lia|exact E]. split; [exact M|]. split; [apply P|]. split; [apply (plain_legal _ P)|]. cbn. lia. }
  destruct (parse_part gz _ w [] p r S (or_introl eq_refl) Ep HR) as [A|(_ & B & C)]; cbn [app] in *.
  - left. unfold crash_command. rewrite A. reflexivity.
  - right. split; [exact B|]. pose proof (parse_whole gz _ w [] [] S (or_introl eq_refl)) as W. cbn [app] in W. rewrite app_nil_r in W.
    unfold crash_command. rewrite C, W. reflexivity.
Qed.
Print Assumptions C29_cut_report.

(** ** A node that logs in *)
Lemma identifying_all t : table_ok t -> identifying t (map fst t) = t.
Proof.
  intros H. assert (G : forall b a, t = a ++ b -> fold_left (fun t0 k => match tfind k t with Some v => emplace k v t0 | None => t0 end) (map fst b) a = t).
  { induction b as [|[k v] b IH]; intros a E; cbn [map fold_left fst]; [rewrite E, app_nil_r; reflexivity|].
    rewrite (tfind_in k v t H) by (rewrite E; apply in_or_app; right; left; reflexivity).
    replace (emplace k v a) with (a ++ [(k, v)]); [apply IH; rewrite E, <- app_assoc; reflexivity|].
    assert (B : Forall (fun q => kcmp (fst q) k = Lt) a) by (rewrite E in H; exact (table_ok_below a (k, v) b H)).
    unfold emplace. assert (N : tfind k a = None).
    { destruct (tfind k a) eqn:F; [|reflexivity]. apply tfind_some in F as (k' & Hin & K). rewrite Forall_forall in B. specialize (B _ Hin). cbn [fst] in B. apply kcmp_sym in K. congruence. }
    rewrite N. symmetry. apply tput_last. exact B. }
  exact (G t [] eq_refl).
Qed.
Definition receive_all (cs : list (option bytes)) (c : crash) : option crash :=
  fold_left (fun c w => match c, w with Some c, Some w => crash_command w c | _, _ => None end) cs (Some c).
Lemma lookup_in m c l : lookup m c = Some l -> exists m', In (m', l) c /\ m' = m.
Proof.
  induction c as [|[m' l'] c IH]; cbn [lookup]; [discriminate|]. destruct (bytes_eqb m m') eqn:E.
  - intros X. injection X as ->. apply bytes_eqb_eq in E. subst m'. exists m. split; [left; reflexivity|reflexivity].
  - intros X. destruct (IH X) as (m2 & H1 & H2). exists m2. split; [right; exact H1|exact H2].
Qed.
Definition keys_ok (c : crash) : Prop := NoDup (map fst c).
Lemma in_lookup m l c : keys_ok c -> In (m, l) c -> lookup m c = Some l.
Proof.
  unfold keys_ok. induction c as [|[m' l'] c IH]; cbn [map fst lookup In]; intros N H; [destruct H|]. inversion N as [|? ? N1 N2]; subst.
  destruct H as [E|H]; [injection E as -> ->; rewrite bytes_eqb_refl; reflexivity|]. destruct (bytes_eqb m m') eqn:E; [|auto].
  apply bytes_eqb_eq in E. subst m'. exfalso. apply N1. apply in_map_iff. exists (m, l). auto.
Qed.
Lemma keys_add m t c : keys_ok c -> keys_ok (add m t c).
Proof.
  unfold keys_ok. assert (K : forall x, In x (map fst (add m t c)) -> x = m \/ In x (map fst c)).
  { induction c as [|[m' l] c IH]; cbn [add map fst]; intros x; [intros [<-|[]]; auto|]. destruct (bytes_eqb m m'); cbn [map fst In]; [auto|]. intros [<-|H]; [auto|]. destruct (IH x H); auto. }
  induction c as [|[m' l] c IH]; cbn [add map fst]; intros N; [repeat constructor; intros []|]. inversion N as [|? ? N1 N2]; subst.
  destruct (bytes_eqb m m') eqn:E; cbn [map fst]; constructor; auto.
  - intros H. assert (K2 : forall c x, In x (map fst (add m t c)) -> x = m \/ In x (map fst c)).
    { clear. induction c as [|[m' l] c IH]; cbn [add map fst]; intros x; [intros [<-|[]]; auto|]. destruct (bytes_eqb m m'); cbn [map fst In]; [auto|]. intros [<-|H]; [auto|]. destruct (IH x H); auto. }
    destruct (K2 _ _ H) as [->|X]; [rewrite bytes_eqb_refl in E; discriminate|]. apply N1. exact X.
  - apply IH; [|exact N2]. clear. induction c as [|[m' l] c IH]; cbn [add map fst]; intros x; [intros [<-|[]]; auto|]. destruct (bytes_eqb m m'); cbn [map fst In]; [auto|]. intros [<-|H]; [auto|]. destruct (IH x H); auto.
Qed.
Lemma keys_run h : keys_ok (c_run h).
Proof.
  unfold c_run. assert (G : forall c, keys_ok c -> keys_ok (fold_left c_step h c)); [|apply G; constructor].
  induction h as [|[m t|] h IH]; intros c H; cbn [fold_left c_step]; auto; apply IH; [apply keys_add; exact H|constructor].
Qed.

Definition pairs (c : crash) : list (bytes * stable) := flat_map (fun p => map (pair (fst p)) (snd p)) c.
Lemma login_pairs gz c : login_contents gz c = map (fun q => crash_content gz (fst q) (snd q) (map fst (snd q))) (pairs c).
Proof.
  unfold login_contents, pairs. induction c as [|[m l] c IH]; [reflexivity|]. cbn [flat_map fst snd]. rewrite map_app, IH, map_map. reflexivity.
Qed.
Lemma in_pairs c m t : keys_ok c -> (In (m, t) (pairs c) <-> holds c m t).
Proof.
  intros HK. unfold pairs. rewrite in_flat_map. split.
  - intros ((m' & l) & H1 & H2). cbn [fst snd] in H2. apply in_map_iff in H2 as (t' & E & H2). injection E as -> ->. exists l. split; [apply in_lookup; assumption|exact H2].
  - intros (l & H1 & H2). apply lookup_in in H1 as (m' & H1 & ->). exists (m, l). split; [exact H1|]. apply in_map. exact H2.
Qed.

(** What a node that logs in is sent, in whatever order it arrives, makes it refuse exactly what the sender refuses. *)
Definition arrived_reports (h : list cevent) : Prop :=
  forall m t, reported h m t -> legal_method m /\ exists t0, plain_values t0 /\ t = stored t0.
Theorem C29_login gz h cs : arrived_reports h -> Permutation cs (login_contents gz (c_run h)) ->
  exists c, receive_all cs [] = Some c /\ forall m request, wouldCrash c m request = wouldCrash (c_run h) m request.
Proof.
  intros HA HP. destruct (run_facts h) as [Hok HR]. rewrite login_pairs in HP. apply Permutation_map_inv in HP as (ps & -> & HP).
  assert (Hin : forall m t, In (m, t) ps <-> holds (c_run h) m t).
  { intros m t. rewrite <- (in_pairs _ m t (keys_run h)). split; apply Permutation_in; [apply Permutation_sym|]; exact HP. }
  assert (G : forall qs c, (forall m t, In (m, t) qs -> reported h m t) ->
    receive_all (map (fun q => crash_content gz (fst q) (snd q) (map fst (snd q))) qs) c = Some (fold_left c_step (map (fun q => Report (fst q) (snd q)) qs) c)).
  { induction qs as [|[m t] qs IH]; intros c H; [reflexivity|]. cbn [map fold_left receive_all fst snd].
    destruct (HA m t (H m t (or_introl eq_refl))) as (M & t0 & P & ->). unfold crash_content at 2. rewrite identifying_all by (apply tput_ok; apply P).
    destruct (hop gz m _ _ M P (or_intror eq_refl)) as (w & E & D). rewrite E. unfold crash_command at 2. rewrite D. cbn [c_step].
    apply IH. intros m' t' H'. apply H. right. exact H'. }
  eexists. split; [apply G; intros m t H; apply HR, Hin; exact H|]. fold (c_run (map (fun q => Report (fst q) (snd q)) ps)).
  assert (R2 : forall m t, reported (map (fun q => Report (fst q) (snd q)) ps) m t <-> reported h m t).
  { intros m t. rewrite <- HR, <- Hin. unfold reported. assert (X : forall l acc, In (m, t) (in_force acc (map (fun q => Report (fst q) (snd q)) l)) <-> In (m, t) l \/ In (m, t) acc).
    { induction l as [|[m' t'] l IH]; intros acc; cbn [map in_force fst snd In]; [tauto|]. rewrite IH. cbn [In]. tauto. }
    rewrite X. cbn [In]. tauto. }
  intros m request. apply eq_true_iff_eq. rewrite !C29_exact. unfold refused. split.
  - intros [(a & b & H1 & H2 & D)|(t & H1 & D)]; [left; exists a, b|right; exists t]; rewrite <- !R2; auto.
  - intros [(a & b & H1 & H2 & D)|(t & H1 & D)]; [left; exists a, b|right; exists t]; rewrite !R2; auto.
Qed.
Print Assumptions C29_login.
(** Every report that arrives as in [C29_report] is of this kind. *)
Theorem C29_login_applies m request keys : legal_method m -> plain_identifying request keys ->
  forall gz w, crash_content gz m request keys = Some w ->
  forall h, arrived_reports h -> exists values, crash_command w (c_run h) = Some (c_run (h ++ [Report m values])) /\ arrived_reports (h ++ [Report m values]).
Proof.
  intros M HP gz w Ew h HA. pose proof (plain_identifying_values _ _ HP) as P. destruct (hop gz m _ _ M P (or_introl eq_refl)) as (w1 & E1 & D1).
  unfold crash_content in Ew. rewrite E1 in Ew. injection Ew as ->. exists (stored (identifying request keys)). split.
  - unfold crash_command. rewrite D1. unfold c_run. rewrite fold_left_app. reflexivity.
  - intros m2 t2 H. unfold reported in H. assert (X : forall h acc, in_force acc (h ++ [Report m (stored (identifying request keys))]) = (m, stored (identifying request keys)) :: in_force acc h).
    { clear. induction h as [|[m' t'|] h IH]; intros acc; cbn [app in_force]; auto. }
    rewrite X in H. destruct H as [E|H]; [injection E as <- <-; split; [exact M|]; eexists; split; [exact P|reflexivity]|]. apply HA. exact H.
Qed.
Print Assumptions C29_login_applies.

(** ** Cases *)
Definition write_a : stable := [(lit "name", lit "a"); (lit "value", lit "1")].
Definition write_b : stable := [(lit "name", lit "b"); (lit "value", lit "1")].
Definition no_gzip : bytes -> bytes := fun _ => [].
(** The Cache plugin names "name" and "value" as identifying: the same write is refused elsewhere, another is not,
    and after a second crash with other values every write is. *)
Example C29_story : exists w1 w2 c1 c2,
  crash_content no_gzip (lit "WriteCache") write_a [lit "name"; lit "value"] = Some w1 /\
  crash_content no_gzip (lit "WriteCache") write_b [lit "name"; lit "value"] = Some w2 /\
  crash_command w1 [] = Some c1 /\ crash_command w2 c1 = Some c2 /\
  wouldCrash c1 (lit "WriteCache") (tput CL (lit "7") (tput (lit "x") (lit "y") write_a)) = true /\
  wouldCrash c1 (lit "WriteCache") write_b = false /\ wouldCrash c1 (lit "ReadCache") write_a = false /\
  wouldCrash c2 (lit "WriteCache") [] = true /\
  plain_identifying write_a [lit "name"; lit "value"] /\ legal_method (lit "WriteCache").
Proof.
  do 4 eexists. split; [vm_compute; reflexivity|]. split; [vm_compute; reflexivity|]. split; [vm_compute; reflexivity|]. split; [vm_compute; reflexivity|].
  split; [vm_compute; reflexivity|]. split; [vm_compute; reflexivity|]. split; [vm_compute; reflexivity|]. split; [vm_compute; reflexivity|]. split.
  - intros k v [<-|[<-|[]]]; vm_compute; intros E; injection E as <-; repeat split; intuition discriminate.
  - split; [discriminate|]. split; [split; vm_compute; discriminate|]. intros c Hc. right. revert c Hc. apply (proj1 (Forall_forall _ _)). repeat (apply Forall_cons; [vm_compute; split; [discriminate|discriminate]|]). constructor.
Qed.

(** Method lines are compared letter by letter, although plugins recognise their commands in any case: the same command
    spelled differently is not refused. *)
Theorem C29_case_refuted : wouldCrash (c_run [Report (lit "WriteCache") write_a]) (lit "writecache") write_a = false /\
  SToLower (lit "WriteCache") = SToLower (lit "writecache").
Proof. split; vm_compute; reflexivity. Qed.
Print Assumptions C29_case_refuted.
(** An identifying value with a NUL (a client sends it as \u0000) does not survive the report: the very command that
    crashed the first node is not refused by the next. *)
Theorem C29_nul_value_refuted : exists request w c,
  crash_content no_gzip (lit "WriteCache") request [lit "name"] = Some w /\ crash_command w [] = Some c /\
  wouldCrash c (lit "WriteCache") request = false.
Proof.
  exists [(lit "name", lit "a" ++ [NUL] ++ lit "b")]. do 2 eexists. split; [vm_compute; reflexivity|]. split; [vm_compute; reflexivity|]. vm_compute. reflexivity.
Qed.
Print Assumptions C29_nul_value_refuted.
(** Two reports with the same values, one under "name" and one under "Name", count as two different sets: every command
    with that method line is refused from then on. *)
Theorem C29_spelling_refuted : wouldCrash (c_run [Report (lit "ReadCache") [(lit "name", lit "a")]; Report (lit "ReadCache") [(lit "Name", lit "a")]]) (lit "ReadCache") [(lit "name", lit "b")] = true /\
  forall request, matches [(lit "name", lit "a")] request <-> matches [(lit "Name", lit "a")] request.
Proof.
  split; [vm_compute; reflexivity|]. intros request.
  assert (E : tfind (lit "name") request = tfind (lit "Name") request) by (apply tfind_cong; vm_compute; reflexivity).
  split; intros H k v [X|[]] Hn.
  - replace k with (lit "Name") by congruence. replace v with (lit "a") by congruence. rewrite <- E. apply H; [left; reflexivity|vm_compute; discriminate].
  - replace k with (lit "name") by congruence. replace v with (lit "a") by congruence. rewrite E. apply H; [left; reflexivity|vm_compute; discriminate].
Qed.
Print Assumptions C29_spelling_refuted.
