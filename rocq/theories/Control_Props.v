(** C30: who may give control commands. *)
From Verif Require Import Base Dec Text_Spec Text_Model Text_Proofs Table Http_Spec Http_Model Http_Proofs Http_Props Control_Spec Control_Model.

(** ** Addresses *)
Lemma dec_no_dot n : ~ In "."%char (dec n).
Proof. intros H. apply (proj1 (forallb_forall _ _) (dec_digits n)) in H. vm_compute in H. discriminate. Qed.
Lemma dot_inj a b x y : dec (bcode a) ++ "."%char :: x = dec (bcode b) ++ "."%char :: y -> a = b /\ x = y.
Proof.
  intros H. pose proof (find_sep_app "." (dec (bcode a)) x (dec_no_dot _)) as F. rewrite H, find_sep_app in F by apply dec_no_dot.
  injection F as F1 F2. split; [symmetry; apply bcode_inj, dec_inj; exact F1|congruence].
Qed.
Lemma ntoa_inj a b : ntoa a = ntoa b -> a = b.
Proof.
  destruct a as [[[a1 a2] a3] a4], b as [[[b1 b2] b3] b4]. cbn [ntoa]. intros H.
  apply dot_inj in H as [-> H]. apply dot_inj in H as [-> H]. apply dot_inj in H as [-> H]. apply dec_inj, bcode_inj in H. congruence.
Qed.
Lemma ntoa_localhost a : bytes_eqb (ntoa a) (lit "127.0.0.1") = true <-> a = localhost.
Proof. change (lit "127.0.0.1") with (ntoa localhost). rewrite bytes_eqb_eq. split; [apply ntoa_inj|congruence]. Qed.
Lemma ntoa_nonempty a : exists c s, ntoa a = c :: s.
Proof. destruct a as [[[a b] c] d]. cbn [ntoa]. pose proof (dec_nonempty (bcode a)). destruct (dec (bcode a)); [congruence|]. cbn [app]. eauto. Qed.

(** ** The lists *)
Lemma in_names m l : existsb (ieqb m) l = true <-> exists x, In x l /\ SToLower m = SToLower x.
Proof.
  rewrite existsb_exists. split; intros (x & H1 & H2); exists x; (split; [exact H1|]); [|unfold ieqb; apply bytes_eqb_eq; exact H2].
  unfold ieqb in H2. apply bytes_eqb_eq in H2. exact H2.
Qed.
Lemma non_secure_names m : isNonSecureControlCommand m = true <-> is_non_secure m.
Proof. apply in_names. Qed.
Lemma control_names m : isControlCommand m = true <-> is_privileged m \/ is_non_secure m.
Proof.
  unfold isControlCommand. rewrite in_names. unfold is_privileged, is_non_secure. split.
  - intros (x & H1 & H2). assert (D : In x privileged \/ In x non_secure) by (cbn [map In] in H1; cbn [privileged non_secure map In]; tauto).
    destruct D; [left|right]; exists x; auto.
  - intros [(x & H1 & H2)|(x & H1 & H2)]; exists x; (split; [|exact H2]); cbn [privileged non_secure map In] in H1; cbn [map In]; tauto.
Qed.
Lemma not_status m : is_privileged m \/ is_non_secure m -> isStatusCommand m = false.
Proof.
  intros H. destruct (isStatusCommand m) eqn:E; [exfalso|reflexivity]. apply in_names in E as (y & Hy & E).
  assert (D : exists x, In x (privileged ++ non_secure) /\ SToLower m = SToLower x).
  { destruct H as [(x & H1 & H2)|(x & H1 & H2)]; exists x; (split; [apply in_or_app; auto|exact H2]). }
  destruct D as (x & Hx & D). rewrite E in D. clear E m H.
  assert (F : forallb (fun y => forallb (fun x => negb (bytes_eqb (SToLower y) (SToLower x))) (privileged ++ non_secure))
                (map lit ["GET /status/isFollower HTTP/1.1"; "GET /status/handlingCommands HTTP/1.1"; "Ping"; "Status"]%string) = true) by (vm_compute; reflexivity).
  rewrite forallb_forall in F. specialize (F y Hy). rewrite forallb_forall in F. specialize (F x Hx). apply negb_true_iff in F.
  rewrite D in F. rewrite (proj2 (bytes_eqb_eq _ _) eq_refl) in F. discriminate.
Qed.
Lemma privileged_not_open m : is_privileged m -> ~ is_non_secure m.
Proof.
  intros (x & Hx & E) (y & Hy & D). rewrite E in D.
  assert (F : forallb (fun y => forallb (fun x => negb (bytes_eqb (SToLower x) (SToLower y))) privileged) non_secure = true) by (vm_compute; reflexivity).
  rewrite forallb_forall in F. specialize (F y Hy). rewrite forallb_forall in F. specialize (F x Hx). apply negb_true_iff in F.
  rewrite D in F. rewrite (proj2 (bytes_eqb_eq _ _) eq_refl) in F. discriminate.
Qed.

(** ** What the gate sees *)
Lemma tfind_touch k k2 t : tfind k2 (touch k t) = match tfind k t with None => (match kcmp k2 k with Eq => Some [] | _ => tfind k2 t end) | Some _ => tfind k2 t end.
Proof. unfold touch. destruct (tfind k t); [reflexivity|]. apply tfind_tput. Qed.
Lemma source_seen treat ip t : tfind SOURCE (buildCommandFromRequest treat ip t) =
  if treat || bytes_eqb (ntoa ip) (lit "127.0.0.1") then tfind SOURCE t else Some (ntoa ip).
Proof.
  unfold buildCommandFromRequest. rewrite !tfind_tdel.
  change (kcmp SOURCE (lit "serializedData")) with Lt. change (kcmp SOURCE (lit "httpsRequests")) with Lt. cbn [andb].
  destruct treat, (bytes_eqb (ntoa ip) (lit "127.0.0.1")); cbn [negb andb orb];
    rewrite ?tfind_tput, ?kcmp_refl, ?tfind_touch; change (kcmp SOURCE (lit "Connection")) with Lt; destruct (tfind (lit "Connection") t); reflexivity.
Qed.
Definition unmarked (t : stable) : Prop := tfind (lit "_source") t = None \/ tfind (lit "_source") t = Some [].
Lemma unmarked_dec t : match tfind SOURCE t with Some (_ :: _) => false | _ => true end = true <-> unmarked t.
Proof. unfold unmarked, SOURCE. destruct (tfind (lit "_source") t) as [[|c s]|]; split; auto; intros H; [discriminate|destruct H; discriminate]. Qed.

(** A control command is carried out exactly when anybody may give it, or when it comes from the machine itself
    or over the private port and carries no `_source`. *)
Theorem C30_exact : forall treat ip m t,
  on_request treat ip m t = Control <->
  is_non_secure m \/ (is_privileged m /\ (treat = true \/ ip = localhost) /\ unmarked t).
Proof.
  intros treat ip m t. unfold on_request, handleIfStatusOrControl. rewrite source_seen.
  destruct (isControlCommand m) eqn:C.
  - apply control_names in C as C'. rewrite (not_status m C'). destruct (isNonSecureControlCommand m) eqn:N.
    + apply non_secure_names in N. rewrite orb_true_r. tauto.
    + assert (~ is_non_secure m) by (rewrite <- non_secure_names, N; discriminate). rewrite orb_false_r.
      destruct treat; cbn [orb].
      * rewrite <- unmarked_dec. destruct (tfind SOURCE t) as [[|c s]|]; intuition (discriminate || auto).
      * destruct (bytes_eqb (ntoa ip) (lit "127.0.0.1")) eqn:L.
        -- apply ntoa_localhost in L. rewrite <- unmarked_dec. destruct (tfind SOURCE t) as [[|c s]|]; intuition (discriminate || auto).
        -- assert (ip <> localhost) by (rewrite <- ntoa_localhost, L; discriminate). destruct (ntoa_nonempty ip) as (c & s & ->). intuition discriminate.
  - assert (X : ~ (is_privileged m \/ is_non_secure m)) by (rewrite <- control_names, C; discriminate).
    destruct (isStatusCommand m); split; try discriminate; tauto.
Qed.
Print Assumptions C30_exact.

(** Whatever a client elsewhere puts in its request, a privileged command on the public port is refused. *)
Theorem C30_remote_refused : forall ip m t, ip <> localhost -> is_privileged m -> on_request false ip m t = Unauthorized.
Proof.
  intros ip m t H P. pose proof (C30_exact false ip m t) as X.
  assert (N : on_request false ip m t <> Control).
  { intros E. apply X in E. destruct E as [E|(_ & [E|E] & _)]; [exact (privileged_not_open m P E)|discriminate|contradiction]. }
  unfold on_request, handleIfStatusOrControl in *. rewrite (not_status m) in * by auto.
  assert (C : isControlCommand m = true) by (apply control_names; auto). rewrite C in *. destruct (_ || _); [congruence|reflexivity].
Qed.
Print Assumptions C30_remote_refused.
Theorem C30_others_pass : forall treat ip m t, ~ is_privileged m -> ~ is_non_secure m ->
  on_request treat ip m t = Status \/ on_request treat ip m t = NotControl.
Proof.
  intros treat ip m t H1 H2. unfold on_request, handleIfStatusOrControl. destruct (isStatusCommand m); [auto|].
  destruct (isControlCommand m) eqn:C; [apply control_names in C; tauto|auto].
Qed.
Print Assumptions C30_others_pass.

(** ** Requests that are passed on to another node *)
Definition names_ok (st : ps) : Prop :=
  table_ok (p_table st) /\ Forall (fun p => legal_name (fst p)) (p_table st) /\ (p_name st = [] \/ legal_name (p_name st)).
Lemma find_sep_fst sep s c : In c (fst (find_sep sep s)) -> In c s /\ c <> sep.
Proof.
  induction s as [|x s IH]; cbn [find_sep fst]; [intros []|]. destruct (Ascii.eqb_spec x sep) as [E|E]; [intros []|].
  destruct (find_sep sep s) as [a b]. cbn [fst] in *. intros [->|H]; [split; [left; reflexivity|exact E]|]. destruct (IH H). split; [right|]; assumption.
Qed.
Lemma rtrim_prefix s : exists j, s = rtrim s ++ repeat " "%char j.
Proof.
  unfold rtrim. destruct (ltrim_split (rev s)) as (j & E). exists j. rewrite <- (repeat_rev " "%char j), <- rev_app_distr, <- E. symmetry. apply rev_involutive.
Qed.
Lemma header_names st line : clean line -> line <> [] -> names_ok st -> names_ok (header_line st line).
Proof.
  intros CL0 NE (T & F & N). unfold header_line. destruct line as [|c line]; [congruence|]. destruct (is_space c) eqn:SP.
  - destruct (p_name st) as [|d n] eqn:E; (split; [|split]); cbn [p_table p_name]; auto.
    + apply tput_ok; exact T.
    + apply tput_forall; [|exact F]. destruct N as [N|N]; [discriminate|exact N].
  - unfold up_to_next. pose proof (find_sep_split ":" (c :: line)) as S1. pose proof (find_sep_fst ":" (c :: line)) as S2.
    destruct (find_sep ":" (c :: line)) as [a b]. cbn [fst snd] in S1, S2.
    assert (G : (match rtrim a with [] => p_name st | n => n end) = [] \/ legal_name (match rtrim a with [] => p_name st | n => n end)).
    { destruct (rtrim a) as [|d r] eqn:R; [exact N|]. right. destruct (rtrim_prefix a) as (j & Ea). rewrite R in Ea.
      assert (S3 : forall x, In x (d :: r) -> In x (c :: line) /\ x <> ":"%char).
      { intros x Hx. apply S2. rewrite Ea. apply in_or_app. left. exact Hx. }
      split; [discriminate|]. split; [intros X; apply S3 in X; tauto|]. split; [|split].
      - apply clean_spec. intros x Hx. apply CL0, S3, Hx.
      - cbn [hd]. rewrite Ea in S1. cbn [app] in S1. injection S1 as E1 _. rewrite <- E1. exact SP.
      - rewrite <- last_rev. pose proof (ltrim_unpad (rev a)) as U. unfold unpad_l in U. unfold rtrim in R.
        rewrite <- R, rev_involutive. exact U. }
    destruct (match rtrim a with [] => p_name st | n => n end) as [|d r] eqn:R; (split; [|split]); cbn [p_table p_name]; auto.
    + apply tput_ok; exact T.
    + destruct G as [G|G]; [discriminate|]. apply tput_forall; [exact G|exact F].
Qed.
Lemma clean_line s : clean (fst (split_line s)).
Proof.
  induction s as [|c s IH]; cbn [split_line fst]; [intros x []|]. destruct (is_eol c) eqn:E; [intros x []|].
  destruct (split_line s) as [l e]. cbn [fst] in *. intros x [<-|H]; [exact E|apply IH; exact H].
Qed.
Lemma tdel_forall k m (P : bytes -> Prop) : Forall (fun p => P (fst p)) m -> Forall (fun p => P (fst p)) (tdel k m).
Proof. rewrite !Forall_forall. intros H p Hp. apply H. unfold tdel in Hp. apply filter_In in Hp. tauto. Qed.
Lemma P_names total n : forall s st u m t c, List.length s < n -> names_ok st -> P total s st = Done u m t c ->
  table_ok t /\ Forall (fun p => legal_name (fst p)) t.
Proof.
  induction n as [|n IH]; intros s st u m t c Hn HI; [lia|]. rewrite P_eq. unfold round.
  pose proof (split_line_app s) as A. pose proof (split_line_eol s) as B. pose proof (clean_line s) as D.
  destruct (split_line s) as [line e]. cbn [fst snd] in A, B, D. destruct e as [|x e]; [discriminate|].
  assert (LE : List.length (eat_eol (x :: e)) < List.length s).
  { rewrite A, app_length. pose proof (eat_eol_lt x e B). lia. }
  assert (REC : forall st', names_ok st' -> P total (eat_eol (x :: e)) st' = Done u m t c -> table_ok t /\ Forall (fun p => legal_name (fst p)) t).
  { intros st' H' H. eapply IH; [|exact H'|exact H]; lia. }
  assert (LX : List.length (x :: e) <= List.length s) by (rewrite A, app_length; lia).
  destruct line as [|y line]; destruct (p_method st) as [|z mm] eqn:M.
  - apply REC. exact HI.
  - destruct HI as (T & F & N). destruct (p_chunked st).
    + unfold finish_chunks. intros H. injection H as _ _ <- _. split; [apply tput_ok, tdel_ok; exact T|].
      apply tput_forall; [apply legal_CL|]. apply tdel_forall. exact F.
    + destruct (says_chunked (p_table st)); [apply REC; split; [exact T|split; [exact F|exact N]]|]. unfold finish.
      destruct (tfind CL (p_table st)) as [v|] eqn:V.
      * destruct (stoll v) as [w|]; [|discriminate]. destruct (Z.ltb_spec (Z.of_nat (List.length (drop_eols 2 (x :: e)))) (to_int w)); [discriminate|].
        destruct (Z.ltb_spec (to_int w) 0); [discriminate|]. intros E. injection E as _ _ <- _. split; assumption.
      * intros E. injection E as _ _ <- _. split; assumption.
  - destruct (trim (y :: line)) eqn:T; [|apply REC; exact HI]. destruct (Nat.eqb_spec (List.length s) total) as [E|E]; [discriminate|apply REC; exact HI].
  - destruct (p_chunked st && hex8 (chunk_size (y :: line))) eqn:C; [|apply REC, header_names; [exact D|discriminate|exact HI]].
    cbv zeta. set (k := to_int _) in *. destruct (Z.eqb k 0); [apply REC; exact HI|]. destruct (Z.leb _ (2 + k)); [discriminate|].
    destruct (Z.ltb_spec k 0) as [K|K]; [destruct (Z.leb _ _); discriminate|].
    intros H. refine (IH _ _ _ _ _ _ _ _ H); [|exact HI]. eapply Nat.le_lt_trans; [apply eat_eol_le|]. rewrite skipn_length. cbn [List.length] in *. lia.
Qed.
Lemma parsed_names b u m t c : SParseHTTP b = Done u m t c -> table_ok t /\ (forall k v, In (k, v) t -> legal_name k).
Proof.
  rewrite SParseHTTP_P. intros H. assert (names_ok ps0) as I by (split; [constructor|split; [constructor|left; reflexivity]]).
  destruct (P_names _ (S (List.length b)) _ _ _ _ _ _ (Nat.lt_succ_diag_r _) I H) as [T F]. split; [exact T|].
  rewrite Forall_forall in F. intros k v Hin. exact (F (k, v) Hin).
Qed.

Lemma touch_ok k t : table_ok t -> table_ok (touch k t).
Proof. unfold touch. destruct (tfind k t); [auto|apply tput_ok]. Qed.
Lemma build_ok treat ip t : table_ok t -> table_ok (buildCommandFromRequest treat ip t).
Proof.
  intros H. unfold buildCommandFromRequest. apply tdel_ok, tdel_ok. destruct (negb treat && _); [apply tput_ok|]; apply touch_ok; exact H.
Qed.
Lemma touch_forall k t (P : bytes -> Prop) : P k -> Forall (fun p => P (fst p)) t -> Forall (fun p => P (fst p)) (touch k t).
Proof. intros H. unfold touch. destruct (tfind k t); [auto|apply tput_forall; exact H]. Qed.
Lemma legal_here k : (negb (match k with [] => true | _ => false end) && forallb (fun c => negb (Ascii.eqb c ":" || Ascii.eqb c "013" || Ascii.eqb c "010")) k
  && negb (is_space (hd "x"%char k)) && negb (Ascii.eqb (last k "x"%char) " ")) = true -> legal_name k.
Proof.
  intros H. apply andb_true_iff in H as [H H4]. apply andb_true_iff in H as [H H3]. apply andb_true_iff in H as [H1 H2]. rewrite forallb_forall in H2.
  assert (G : forall c, In c k -> c <> ":"%char /\ c <> "013"%char /\ c <> "010"%char).
  { intros c Hc. specialize (H2 c Hc). apply negb_true_iff in H2. apply orb_false_iff in H2 as [H2 H2c]. apply orb_false_iff in H2 as [H2a H2b].
    apply Ascii.eqb_neq in H2a, H2b, H2c. auto. }
  split; [destruct k; [discriminate|discriminate]|]. split; [intros X; destruct (G _ X) as (X1 & _); auto|].
  split; [split; intros X; destruct (G _ X) as (_ & X1 & X2); auto|]. split; [apply negb_true_iff in H3; exact H3|].
  apply negb_true_iff, Ascii.eqb_neq in H4. exact H4.
Qed.
Lemma forward_names treat ip timeout id t : Forall (fun p => legal_name (fst p)) t ->
  Forall (fun p => legal_name (fst p)) (escalated timeout id (buildCommandFromRequest treat ip t)).
Proof.
  intros H. unfold escalated, buildCommandFromRequest.
  apply tput_forall; [apply legal_here; reflexivity|]. apply tput_forall; [apply legal_here; reflexivity|]. apply tdel_forall, tdel_forall.
  assert (Forall (fun p => legal_name (fst p)) (touch (lit "Connection") t)) by (apply touch_forall; [apply legal_here; reflexivity|exact H]).
  destruct (negb treat && _); [apply tput_forall; [apply legal_here; reflexivity|]|]; assumption.
Qed.
Lemma forward_other k timeout id ip t : kcmp k (lit "ID") <> Eq -> kcmp k (lit "timeout") <> Eq -> kcmp k (lit "serializedData") <> Eq ->
  kcmp k (lit "httpsRequests") <> Eq -> kcmp k SOURCE <> Eq -> kcmp k (lit "Connection") <> Eq ->
  tfind k (escalated timeout id (buildCommandFromRequest false ip t)) = tfind k t.
Proof.
  intros H1 H2 H3 H4 H5 H6. unfold escalated, buildCommandFromRequest. rewrite !tfind_tput, !tfind_tdel.
  assert (D : tfind k (touch (lit "Connection") t) = tfind k t) by (rewrite tfind_touch; destruct (tfind (lit "Connection") t), (kcmp k (lit "Connection")); congruence).
  destruct (kcmp k (lit "ID")), (kcmp k (lit "timeout")), (kcmp k (lit "serializedData")), (kcmp k (lit "httpsRequests")); try congruence;
    (destruct (negb false && _); [rewrite tfind_tput; destruct (kcmp k SOURCE); congruence|exact D]).
Qed.

(** A request from elsewhere that is passed on reaches the other node's private port as one request, with the same method
    line and marked with the client's address, whatever bytes the client sent: so a command that needs a local client is
    refused there too.  The method line must be one that can be sent, and neither Set-Cookie nor a Transfer-Encoding that
    turns into "chunked" on the way may be present: see below. *)
Theorem C30_passed_on : forall gz b u m t c timeout id ip rest,
  SParseHTTP b = Done u m t c -> ip <> localhost ->
  legal_method m -> tfind (lit "Set-Cookie") t = None ->
  (forall v v', tfind (lit "Transfer-Encoding") t = Some v -> stripped v v' -> SToLower v' <> lit "chunked") ->
  (N.of_nat (List.length c) < 2 ^ 31)%N -> (N.of_nat (List.length (gz c)) < 2 ^ 31)%N ->
  exists w t' c', forward gz timeout id ip m t c = Some w /\
    SParseHTTP (w ++ rest) = Done (List.length w) m t' c' /\
    tfind (lit "_source") t' = Some (ntoa ip) /\
    (is_privileged m -> forall ip2, on_request true ip2 m t' = Unauthorized) /\
    (on_request false ip m t = NotControl -> forall ip2, on_request true ip2 m t' = NotControl).
Proof.
  intros gz b u m t c timeout id ip rest HP HI HM HC HT L1 L2.
  destruct (parsed_names _ _ _ _ _ HP) as [T F0]. assert (F : Forall (fun p => legal_name (fst p)) t) by (apply Forall_forall; intros [k v] H; exact (F0 k v H)).
  set (x := mkMsg m (escalated timeout id (buildCommandFromRequest false ip t)) c).
  assert (Tx : table_ok (msg_table x)) by (cbn [msg_table x]; unfold escalated; apply tput_ok, tput_ok, build_ok; exact T).
  assert (Lx : legal x).
  { split; [exact HM|]. split; [exact Tx|]. split; [|exact L1]. intros k v Hin.
    pose proof (forward_names false ip timeout id t F) as FN. rewrite Forall_forall in FN. split; [exact (FN (k, v) Hin)|].
    pose proof (tfind_in k v _ Tx Hin) as FI. split; intros Hn.
    - exfalso. apply is_name_kcmp in Hn. rewrite (tfind_cong _ _ _ Hn) in FI. cbn [msg_table x] in FI. rewrite forward_other in FI by (vm_compute; discriminate). congruence.
    - apply is_name_kcmp in Hn. rewrite (tfind_cong _ _ _ Hn) in FI. cbn [msg_table x] in FI. rewrite forward_other in FI by (vm_compute; discriminate).
      intros v'. exact (HT v v' FI). }
  destruct (C14_composable gz x Lx) as (w & Ew). destruct (C14_roundtrip gz x w rest Lx L2 Ew) as (m' & t' & c' & D & (Em & z & DL & _)).
  cbn [msg_method x] in Em. subst m'. exists w, t', c'. split; [exact Ew|]. split; [exact D|].
  assert (SRC : tfind (lit "_source") t' = Some (ntoa ip)).
  { assert (X : tfind SOURCE (msg_table x) = Some (ntoa ip)).
    { cbn [msg_table x]. unfold escalated. rewrite !tfind_tput. change (kcmp SOURCE (lit "ID")) with Lt. change (kcmp SOURCE (lit "timeout")) with Lt.
      cbn iota. rewrite source_seen. destruct (bytes_eqb (ntoa ip) (lit "127.0.0.1")) eqn:L; [apply ntoa_localhost in L; contradiction|reflexivity]. }
    assert (Y : match tfind SOURCE (msg_table x) with Some v => exists v', tfind SOURCE t' = Some v' /\ stripped v v' | None => tfind SOURCE t' = None end).
    { apply (dl_others _ _ _ _ DL); try (rewrite is_name_kcmp; vm_compute; discriminate). intros [Y _]. apply is_name_kcmp in Y. vm_compute in Y. discriminate. }
    rewrite X in Y. destruct Y as (v' & Y1 & Y2). apply stripped_trim in Y2. fold SOURCE. rewrite Y1. f_equal. rewrite Y2.
    assert (PL : forall y, In y (ntoa ip) -> y <> " "%char /\ y <> NUL).
    { destruct ip as [[[i1 i2] i3] i4]. cbn [ntoa]. intros y Hy. rewrite !in_app_iff in Hy.
      destruct Hy as [Hy|[[<-|[]]|[Hy|[[<-|[]]|[Hy|[[<-|[]]|Hy]]]]]]; try (split; discriminate); apply dec_plain in Hy; tauto. }
    rewrite cstr_nul_free by (intros Hy; apply PL in Hy; tauto). apply trim_id.
    destruct (ntoa_nonempty ip) as (c0 & s0 & E0). rewrite E0 in *. split.
    - cbn [hd]. apply PL. left. reflexivity.
    - apply PL. apply last_in. discriminate. }
  split; [exact SRC|].
  assert (N : forall ip2, on_request true ip2 m t' = Control -> is_non_secure m).
  { intros ip2 H. apply C30_exact in H as [H|(_ & _ & [H|H])]; [exact H|congruence|]. destruct (ntoa_nonempty ip) as (c0 & s0 & E0). congruence. }
  split.
  - intros P ip2. specialize (N ip2). unfold on_request, handleIfStatusOrControl in *. rewrite (not_status m) in * by auto.
    assert (C : isControlCommand m = true) by (apply control_names; auto). rewrite C in *. destruct (_ || _); [|reflexivity].
    exfalso. exact (privileged_not_open m P (N eq_refl)).
  - unfold on_request, handleIfStatusOrControl. intros H ip2. destruct (isStatusCommand m); [discriminate|]. destruct (isControlCommand m); [destruct (_ || _); discriminate|reflexivity].
Qed.
Print Assumptions C30_passed_on.

(** ** Requests that are passed on as two *)
Definition elsewhere : address := ("203", "000", "113", "007")%char.
(* what the node that passes a request on makes of it, and what it sends *)
Definition passes_on (b : bytes) : option (handling * bytes) :=
  match SParseHTTP b with
  | Done _ m t c => match forward no_gzip (lit "60000") (lit "Q1") elsewhere m t c with
                    | Some w => Some (on_request false elsewhere m t, w)
                    | None => None
                    end
  | _ => None
  end.
(* the requests found on the private port when these pieces arrive *)
Definition private_port (pieces : list bytes) : option (list (bytes * handling)) :=
  match handle_socket [] pieces with
  | Some (l, _) => Some (map (fun q => let '(m, t, _) := q in (m, on_request true elsewhere m t)) l)
  | None => None
  end.
Definition harmless : bytes := lit "Query" ++ CRLF ++ CRLF.
Definition seen_by_leader (attack : bytes) : option (handling * handling * list (bytes * handling)) :=
  match passes_on attack, passes_on harmless with
  | Some (h1, w1), Some (h2, w2) => match private_port [w1; w2] with Some l => Some (h1, h2, l) | None => None end
  | _, _ => None
  end.

(** "A control command is carried out only for a local client" is false when nodes pass requests on.  A client elsewhere
    sends a request that is not a control command, with a Set-Cookie header whose value has escaped line ends in it.  The node
    it is sent to unescapes the first Set-Cookie value, and writes it unescaped when it sends the request on to the leader's
    private port; what follows the blank line in the cookie is the next request there, and it has no `_source`.  It is taken
    when the next request, of any client, is sent on the same connection. *)
Definition cookie_attack : bytes :=
  lit "Query" ++ CRLF ++ lit "Set-Cookie: a\r\nContent-Length: 0\r\n\r\nDetach\r\nContent-Length: 0\r\n\r\n" ++ CRLF ++ CRLF.
Theorem C30_cookie_smuggles_refuted :
  seen_by_leader cookie_attack = Some (NotControl, NotControl, [(lit "Query", NotControl); (lit "Detach", Control)]).
Proof. vm_compute. reflexivity. Qed.
Print Assumptions C30_cookie_smuggles_refuted.

(** The same with a Transfer-Encoding header: "chunked" followed by an escaped NUL is not "chunked" for the node that gets the
    request, so it passes on the body with its length; the value is cut at the NUL when it is written, so the leader
    reads the body as chunks, and what follows the last chunk is a request of its own. *)
Definition chunk_attack : bytes :=
  lit "Query" ++ CRLF ++ lit "Transfer-Encoding: chunked\u0000" ++ CRLF ++ lit "Content-Length: 15" ++ CRLF ++ CRLF ++
  lit "0" ++ CRLF ++ CRLF ++ lit "Detach" ++ CRLF ++ CRLF.
Theorem C30_chunked_smuggles_refuted :
  seen_by_leader chunk_attack = Some (NotControl, NotControl, [(lit "Query", NotControl); (lit "Detach", Control)]).
Proof. vm_compute. reflexivity. Qed.
Print Assumptions C30_chunked_smuggles_refuted.

(** A method line that the receiver compares with the names is not always the one the other node sees: a folded line after
    the method line adds spaces to it, which the next node removes.  The node that gets the request does not take
    "Detach " for a control command; the other node does, and refuses it, as it is marked. *)
Definition padded : bytes := lit "Detach" ++ CRLF ++ lit " " ++ CRLF ++ CRLF.
Theorem C30_same_method_refuted :
  seen_by_leader padded = Some (NotControl, NotControl, [(lit "Detach", Unauthorized); (lit "Query", NotControl)]).
Proof. vm_compute. reflexivity. Qed.
Print Assumptions C30_same_method_refuted.

(** A concrete client elsewhere, its request as the leader sees it, and the four answers. *)
Example C30_story :
  seen_by_leader (lit "CreateJob" ++ CRLF ++ lit "_source: " ++ CRLF ++ lit "name: x" ++ CRLF ++ CRLF)
    = Some (NotControl, NotControl, [(lit "CreateJob", NotControl); (lit "Query", NotControl)]) /\
  on_request false elsewhere (lit "detach") [(lit "_SOURCE", [])] = Unauthorized /\
  on_request false localhost (lit "DETACH") [] = Control /\
  on_request true elsewhere (lit "Detach") [(SOURCE, lit "10.0.0.1")] = Unauthorized /\
  on_request false elsewhere (lit "GetCommitHash") [] = Control /\
  on_request false elsewhere (lit "Status") [] = Status.
Proof. vm_compute. repeat split. Qed.
