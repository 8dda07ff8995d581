(** C48: the Query command and its bound values. *)
From Verif Require Import Base Dec Text_Spec Text_Model Text_Proofs Table Http_Spec Http_Model Http_Proofs Http_Props Timeout_Props Reply_Props
  Base64_Spec Base64_Model Base64_Proofs Core_Spec Core_Model Forward_Props Query_Spec Query_Model.

(** ** Names *)
Lemma special_cases c : special c = true -> encode_name_char c = ["#"; hexchar (bcode c / 16); hexchar (bcode c mod 16)]%char /\
  hex2 (hexchar (bcode c / 16)) (hexchar (bcode c mod 16)) = Some c /\
  hex2 (lower (hexchar (bcode c / 16))) (lower (hexchar (bcode c mod 16))) = Some c /\ lower c = c.
Proof.
  intros H. unfold encode_name_char. rewrite H. unfold special, in_set in H. apply existsb_exists in H as (d & Hd & E). apply Ascii.eqb_eq in E. subst d.
  cbn [lit In] in Hd. repeat (destruct Hd as [<-|Hd]; [vm_compute; auto|]). destruct Hd.
Qed.
Lemma plain_char c : special c = false -> encode_name_char c = [c] /\ Ascii.eqb c "#" = false /\ Ascii.eqb (lower c) "#" = false /\ c <> ":"%char.
Proof.
  intros H. unfold encode_name_char. rewrite H.
  assert (X : forallb (fun c => special c || (negb (Ascii.eqb c "#") && negb (Ascii.eqb (lower c) "#") && negb (Ascii.eqb c ":"))) all_ascii = true) by (vm_compute; reflexivity).
  pose proof (forall_ascii _ X c) as Y. cbn beta in Y. rewrite H in Y. cbn [orb] in Y. rewrite !andb_true_iff, !negb_true_iff in Y.
  destruct Y as ((Y1 & Y2) & Y3). apply Ascii.eqb_neq in Y3. auto.
Qed.
Lemma decode_name_lower n : forall f, (List.length (SToLower (uriEncodeParamName n)) <= f)%nat -> decode_name f (SToLower (uriEncodeParamName n)) = SToLower n.
Proof.
  unfold uriEncodeParamName. induction n as [|c n IH]; intros f Hf; [destruct f; reflexivity|]. cbn [flat_map] in *. unfold SToLower in *. rewrite map_app in *. cbn [map].
  destruct (special c) eqn:S.
  - destruct (special_cases c S) as (E & _ & D & L). rewrite E in *. cbn [map app] in *. change (lower "#") with "#"%char in *. destruct f as [|f]; [cbn in Hf; lia|].
    cbn [decode_name]. rewrite Ascii.eqb_refl, D, L. cbn [skipn]. rewrite IH by (cbn [List.length] in Hf; lia). reflexivity.
  - destruct (plain_char c S) as (E & _ & L & _). rewrite E in *. cbn [map app] in *. destruct f as [|f]; [cbn in Hf; lia|].
    cbn [decode_name]. rewrite L. rewrite IH by (cbn [List.length] in Hf; lia). reflexivity.
Qed.
Lemma decode_encode_name n : forall f, (List.length (uriEncodeParamName n) <= f)%nat -> decode_name f (uriEncodeParamName n) = n.
Proof.
  unfold uriEncodeParamName. induction n as [|c n IH]; intros f Hf; [destruct f; reflexivity|]. cbn [flat_map] in *.
  destruct (special c) eqn:S.
  - destruct (special_cases c S) as (E & D & _). rewrite E in *. cbn [app] in *. destruct f as [|f]; [cbn in Hf; lia|].
    cbn [decode_name]. rewrite Ascii.eqb_refl, D. cbn [skipn]. rewrite IH by (cbn [List.length] in Hf; lia). reflexivity.
  - destruct (plain_char c S) as (E & L & _). rewrite E in *. cbn [app] in *. destruct f as [|f]; [cbn in Hf; lia|].
    cbn [decode_name]. rewrite L. rewrite IH by (cbn [List.length] in Hf; lia). reflexivity.
Qed.
Lemma encoded_chars c n : In c (uriEncodeParamName n) -> In c n \/ In c (lit "#0123456789ABCDEF").
Proof.
  unfold uriEncodeParamName. rewrite in_flat_map. intros (d & Hd & Hc). destruct (special d) eqn:S.
  - right. unfold encode_name_char in Hc. rewrite S in Hc. unfold special, in_set in S. apply existsb_exists in S as (e & He & E). apply Ascii.eqb_eq in E. subst e.
    cbn [lit In] in He. repeat (destruct He as [<-|He]; [vm_compute in Hc; vm_compute; tauto|]). destruct He.
  - left. destruct (plain_char d S) as (E & _). rewrite E in Hc. destruct Hc as [<-|[]]. exact Hd.
Qed.
(** The name of a placeholder can stand in the name of a header, and is read back, whatever its bytes. *)
Theorem C48_name : forall n, uriDecodeParamName (uriEncodeParamName n) = n /\ ~ In ":"%char (uriEncodeParamName n).
Proof.
  intros n. split; [apply decode_encode_name; lia|]. intros X. unfold uriEncodeParamName in X. apply in_flat_map in X. destruct X as (d & _ & Hc). destruct (special d) eqn:S.
  - unfold encode_name_char in Hc. rewrite S in Hc. unfold special, in_set in S. apply existsb_exists in S as (e & He & E). apply Ascii.eqb_eq in E. subst e.
    cbn [lit In] in He. repeat (destruct He as [He|He]; [rewrite <- He in Hc; vm_compute in Hc; intuition discriminate|]). destruct He.
  - destruct (plain_char d S) as (E & _ & _ & N). rewrite E in Hc. destruct Hc as [Hc|[]]. congruence.
Qed.
Print Assumptions C48_name.
Example C48_name_case : uriEncodeParamName (lit ":a#b") = lit "#3Aa#23b". Proof. reflexivity. Qed.

(** ** Values *)
Section values.
  Context {R : Type} (print17 : R -> bytes) (strtod : bytes -> R).
  (** Numbers fit, the text of a floating point number says which it is (17 digits do), texts and blobs are not empty. *)
  Definition good (v : bound R) : Prop :=
    match v with
    | Null => True
    | Int64 z => (- 2 ^ 63 <= z < 2 ^ 63)%Z
    | Double r => strtod (print17 r) = r /\ nul_free (print17 r) /\ last (print17 r) "x"%char <> " "%char
    | Text b | Blob b => b <> []
    end.
  Lemma SToInt64_decZ z : (- 2 ^ 63 <= z < 2 ^ 63)%Z -> SToInt64 (decZ z) = z.
  Proof.
    intros L. unfold decZ. destruct (z <? 0)%Z eqn:Z0.
    - apply Z.ltb_lt in Z0. pose proof (dec_digits (Z.to_N (- z))) as D. unfold SToInt64.
      change (cstr ("-"%char :: dec (Z.to_N (- z)))) with ("-"%char :: cstr (dec (Z.to_N (- z)))). rewrite (cstr_digits _ D).
      change (skip_space ("-"%char :: dec (Z.to_N (- z)))) with ("-"%char :: dec (Z.to_N (- z))). cbn iota.
      rewrite digits_of_all by exact D. rewrite dec_value_dec. lia.
    - apply Z.ltb_ge in Z0. rewrite SToInt64_dec. lia.
  Qed.
  Lemma last_cons (c : ascii) s d : s <> [] -> last (c :: s) d = last s d.
  Proof. destruct s; [congruence|reflexivity]. Qed.
  Lemma base64_plain b : nul_free (encode b) /\ (b <> [] -> last (encode b) "x"%char <> " "%char).
  Proof.
    assert (A : forall c, In c alphabet \/ c = "="%char -> c <> NUL /\ c <> " "%char).
    { intros c [H| ->]; [|split; discriminate]. unfold alphabet in H. cbn [lit In] in H. repeat (destruct H as [<-|H]; [split; discriminate|]). destruct H. }
    pose proof (encode_chars b) as C. rewrite Forall_forall in C. split.
    - intros H. destruct (A _ (C _ H)). congruence.
    - intros Hb. destruct (encode b) as [|c l] eqn:E; [discriminate|]. rewrite <- E in *. apply (A (last (encode b) "x"%char)). apply C. apply last_in. rewrite E. discriminate.
  Qed.
  Lemma decZ_plain z : nul_free (decZ z) /\ decZ z <> [] /\ last (decZ z) "x"%char <> " "%char.
  Proof.
    assert (A : forall n, nul_free (dec n) /\ dec n <> [] /\ last (dec n) "x"%char <> " "%char).
    { intros n. pose proof (dec_nonempty n) as NE. split; [intros H; apply dec_plain in H; tauto|]. split; [exact NE|]. apply (dec_plain n). apply last_in. exact NE. }
    unfold decZ. destruct (z <? 0)%Z; [|apply A]. destruct (A (Z.to_N (- z))) as (X & Y & Z). split; [intros [H|H]; [discriminate|unfold nul_free in *; tauto]|]. split; [discriminate|].
    rewrite last_cons by exact Y. exact Z.
  Qed.
  Lemma serialized v : good v -> exists s, serialize print17 v = Some s /\ deserialize strtod s = v /\ nul_free s /\ unpadded s.
  Proof.
    intros G. destruct v as [|z|r|b|b]; cbn [good serialize] in *.
    - exists (lit "N"). repeat split; try discriminate. vm_compute. intuition discriminate.
    - exists ("I"%char :: decZ z). destruct (decZ_plain z) as (P1 & P2 & P3). split; [reflexivity|]. split; [|split].
      + unfold deserialize. change (Ascii.eqb "I" "N") with false. rewrite Ascii.eqb_refl. cbn iota. rewrite SToInt64_decZ by exact G. reflexivity.
      + intros [H|H]; [discriminate|unfold nul_free in *; tauto].
      + split; [discriminate|]. rewrite last_cons by exact P2. exact P3.
    - destruct G as (G1 & G2 & G3). exists ("D"%char :: print17 r). split; [reflexivity|]. split; [|split].
      + unfold deserialize. change (Ascii.eqb "D" "N") with false. change (Ascii.eqb "D" "I") with false. rewrite Ascii.eqb_refl. cbn iota.
        rewrite cstr_nul_free by exact G2. rewrite G1. reflexivity.
      + intros [H|H]; [discriminate|unfold nul_free in *; tauto].
      + split; [discriminate|]. destruct (print17 r) eqn:E; [discriminate|]. rewrite <- E in *. rewrite last_cons by (rewrite E; discriminate). exact G3.
    - destruct (base64_plain b) as (P1 & P2). assert (E : SEncodeBase64 b = Some (encode b)) by (destruct b; [congruence|reflexivity]). rewrite E.
      exists ("T"%char :: encode b). split; [reflexivity|]. split; [|split].
      + unfold deserialize. change (Ascii.eqb "T" "N") with false. change (Ascii.eqb "T" "I") with false. change (Ascii.eqb "T" "D") with false. rewrite Ascii.eqb_refl. cbn iota.
        unfold SDecodeBase64. rewrite decode_encode. reflexivity.
      + intros [H|H]; [discriminate|unfold nul_free in *; tauto].
      + split; [discriminate|]. destruct (encode b) eqn:F; [discriminate|]. rewrite <- F in *. rewrite last_cons by (rewrite F; discriminate). apply P2, G.
    - destruct (base64_plain b) as (P1 & P2). assert (E : SEncodeBase64 b = Some (encode b)) by (destruct b; [congruence|reflexivity]). rewrite E.
      exists ("B"%char :: encode b). split; [reflexivity|]. split; [|split].
      + unfold deserialize. change (Ascii.eqb "B" "N") with false. change (Ascii.eqb "B" "I") with false. change (Ascii.eqb "B" "D") with false. change (Ascii.eqb "B" "T") with false. rewrite Ascii.eqb_refl. cbn iota.
        unfold SDecodeBase64. rewrite decode_encode. reflexivity.
      + intros [H|H]; [discriminate|unfold nul_free in *; tauto].
      + split; [discriminate|]. destruct (encode b) eqn:F; [discriminate|]. rewrite <- F in *. rewrite last_cons by (rewrite F; discriminate). apply P2, G.
  Qed.
  (** Every value is read back as it was written. *)
  Theorem C48_value : forall v, good v -> exists s, serialize print17 v = Some s /\ deserialize strtod s = v.
  Proof. intros v G. destruct (serialized v G) as (s & A & B & _). exists s. auto. Qed.
End values.
Print Assumptions C48_value.
(** An empty text (or blob) cannot be sent: writing it throws. *)
Theorem C48_empty_text_refuted : forall (R : Type) (print17 : R -> bytes), serialize print17 (Text []) = None /\ serialize print17 (Blob []) = None.
Proof. split; reflexivity. Qed.
Print Assumptions C48_empty_text_refuted.
Example C48_value_case : forall (R : Type) (print17 : R -> bytes), serialize print17 (Int64 (-42)) = Some (lit "I-42") /\ serialize print17 (Text (lit "a'b")) = Some (lit "TYSdi").
Proof. intros. split; vm_compute; reflexivity. Qed.

(** ** On the wire *)
Lemma starts_app p s : SStartsWith (p ++ s) p = true.
Proof. induction p as [|a p IH]; [destruct s; reflexivity|]. cbn [app SStartsWith]. rewrite Ascii.eqb_refl. exact IH. Qed.
Lemma starts_lower p : map lower p = p -> forall s, SStartsWith s p = true -> SStartsWith (SToLower s) p = true.
Proof.
  induction p as [|a p IH]; intros L s H; [reflexivity|]. destruct s as [|c s]; [discriminate|]. cbn [map SStartsWith SToLower] in *. injection L as La Lp.
  apply andb_true_iff in H as [H1 H2]. apply Ascii.eqb_eq in H1. subst c. rewrite La, Ascii.eqb_refl. apply (IH Lp _ H2).
Qed.
Lemma starts_split p s : SStartsWith s p = true -> s = p ++ skipn (List.length p) s.
Proof.
  revert s. induction p as [|a p IH]; intros s H; [reflexivity|]. destruct s as [|c s]; [discriminate|]. cbn [SStartsWith] in H. apply andb_true_iff in H as [H1 H2].
  apply Ascii.eqb_eq in H1. subst c. cbn [List.length skipn app]. f_equal. apply IH. exact H2.
Qed.
Definition reserved (k : bytes) : Prop := SStartsWith (SToLower k) PARAM = true.
Lemma kcmp_lower a b : kcmp a b = Eq -> SToLower a = SToLower b.
Proof. intros H. apply is_name_kcmp in H. exact H. Qed.
Lemma starts_reserved k : SStartsWith k PARAM = true -> reserved k.
Proof. apply starts_lower. reflexivity. Qed.
Lemma reserved_via a b : kcmp a b = Eq -> reserved a -> reserved b.
Proof. unfold reserved. intros H. rewrite (kcmp_lower _ _ H). auto. Qed.
Lemma in_tput_other k v t k' v' : kcmp k k' <> Eq -> (In (k', v') (tput k v t) <-> In (k', v') t).
Proof.
  intros H. induction t as [|[a b] t IH]; cbn [tput].
  - split; [intros [E|[]]; injection E as <- _; rewrite kcmp_refl in H; congruence|intros []].
  - destruct (kcmp k a) eqn:K.
    + split; intros [E|E]; [injection E as <- _; congruence|right; exact E|injection E as <- _; congruence|right; exact E].
    + split; [intros [E|E]; [injection E as <- _; rewrite kcmp_refl in H; congruence|exact E]|intros E; right; exact E].
    + cbn [In]. rewrite IH. reflexivity.
Qed.
Lemma in_tput_new k v t p : (forall q, In q t -> kcmp k (fst q) <> Eq) -> (In p (tput k v t) <-> p = (k, v) \/ In p t).
Proof.
  induction t as [|[a b] t IH]; intros H; cbn [tput].
  - cbn [In]. intuition.
  - destruct (kcmp k a) eqn:K.
    + exfalso. apply (H (a, b)); [left; reflexivity|exact K].
    + cbn [In]. intuition.
    + cbn [In]. rewrite IH by (intros q Hq; apply H; right; exact Hq). intuition.
Qed.
Section wire.
  Context {R : Type} (print17 : R -> bytes) (strtod : bytes -> R).
  (** What may be sent: a name without line ends and without a space at its end, with a value that can be written. *)
  Definition sendable (p : bytes * bound R) : Prop :=
    eol_free (fst p) /\ last (fst p) "x"%char <> " "%char /\ good print17 strtod (snd p).
  Definition key (n : bytes) : bytes := PARAM ++ uriEncodeParamName n.
  Lemma key_reserved n : reserved (key n).
  Proof. apply starts_reserved, starts_app. Qed.
  Lemma lower_app a b : SToLower (a ++ b) = SToLower a ++ SToLower b.
  Proof. apply map_app. Qed.
  Lemma key_inj a b : kcmp (key a) (key b) = Eq -> SToLower a = SToLower b.
  Proof.
    intros H. apply kcmp_lower in H. unfold key in H. rewrite !lower_app in H. apply app_inv_head in H.
    rewrite <- (decode_name_lower a (List.length (SToLower (uriEncodeParamName a)))) by lia. rewrite H. apply decode_name_lower. lia.
  Qed.
  Lemma key_harmless n : eol_free n -> last n "x"%char <> " "%char -> harmless (key n).
  Proof.
    intros (E1 & E2) L. unfold harmless. split; [|split].
    - split; [discriminate|]. split; [|split; [|split; [reflexivity|]]].
      + intros H. apply in_app_or in H as [H|H]; [vm_compute in H; intuition discriminate|]. apply (proj2 (C48_name n)). exact H.
      + split; intros H; apply in_app_or in H as [H|H]; try (vm_compute in H; intuition discriminate); apply encoded_chars in H as [H|H];
          try tauto; vm_compute in H; intuition discriminate.
      + unfold key. destruct n as [|c n'] eqn:En; [vm_compute; discriminate|]. rewrite <- En in *.
        assert (NE : uriEncodeParamName n <> []) by (rewrite En; unfold uriEncodeParamName; cbn [flat_map]; unfold encode_name_char; destruct (special c); discriminate).
        rewrite last_app_ne by exact NE. clear NE.
        assert (X : exists m d, n = m ++ [d]) by (destruct (exists_last (l := n)) as (m & d & X); [rewrite En; discriminate|eauto]). destruct X as (m & d & X).
        rewrite X in *. rewrite last_last in L. unfold uriEncodeParamName. rewrite flat_map_app. cbn [flat_map]. rewrite app_nil_r. destruct (special d) eqn:S.
        * unfold encode_name_char. rewrite S. unfold special, in_set in S. apply existsb_exists in S as (e & He & E). apply Ascii.eqb_eq in E. subst e.
          rewrite last_app_ne by discriminate. cbn [lit In] in He. repeat (destruct He as [He|He]; [rewrite <- He; vm_compute; discriminate|]). destruct He.
        * destruct (plain_char d S) as (-> & _). rewrite last_last. exact L.
    - intros H. pose proof (key_reserved n) as K. unfold reserved in K. rewrite H in K. discriminate.
    - intros H. pose proof (key_reserved n) as K. unfold reserved in K. rewrite H in K. discriminate.
  Qed.
  (* what [with_params] puts into the table *)
  Lemma with_params_spec ps : forall t t', Forall sendable ps -> distinct ps ->
    (forall k v, In (k, v) t -> forall p, In p ps -> kcmp (key (fst p)) k <> Eq) ->
    with_params print17 ps t = Some t' ->
    (table_ok t -> table_ok t') /\ ((forall k v, In (k, v) t -> legal_header k v) -> forall k v, In (k, v) t' -> legal_header k v) /\
    (forall q, In q t' <-> In q t \/ exists n v s, In (n, v) ps /\ serialize print17 v = Some s /\ q = (key n, s)) /\
    (forall k, ~ reserved k -> tfind k t' = tfind k t).
  Proof.
    induction ps as [|[n v] ps IH]; intros t t' S D N E.
    - injection E as <-. split; [auto|]. split; [auto|]. split; [|auto]. intros q. split; [auto|intros [H|(? & ? & ? & [] & _)]; exact H].
    - inversion S as [|? ? (S1 & S2 & S3) S']; subst. cbn [fst snd] in *. inversion D as [|? ? D1 D2]; subst. cbn [with_params] in E.
      destruct (serialized _ _ v S3) as (s & Es & _). rewrite Es in E. fold (key n) in E.
      assert (NW : forall q, In q t -> kcmp (key n) (fst q) <> Eq) by (intros [k w] Hq; apply (N k w Hq (n, v)); left; reflexivity).
      assert (K : forall p, In p ps -> kcmp (key (fst p)) (key n) <> Eq).
      { intros p Hp X. apply key_inj in X. apply D1. rewrite in_map_iff. exists p. auto. }
      destruct (IH (tput (key n) s t) t') as (A & B & C & F); try assumption.
      { intros k w Hk p Hp. apply in_tput_new in Hk; [|exact NW]. destruct Hk as [Hk|Hk]; [injection Hk as -> _; apply K; exact Hp|apply (N k w Hk p); right; exact Hp]. }
      split; [intros O; apply A, tput_ok, O|]. split; [intros L; apply B; apply legal_tput; [apply key_harmless; assumption|exact L]|]. split.
      + intros q. rewrite C, in_tput_new by exact NW. cbn [fst] in *. split.
        * intros [[->|H]|(n' & v' & s' & H1 & H2 & H3)]; [right; exists n, v, s; cbn; auto|left; exact H|right; exists n', v', s'; cbn; auto].
        * intros [H|(n' & v' & s' & [H1|H1] & H2 & H3)]; [auto|injection H1 as <- <-; rewrite Es in H2; injection H2 as <-; auto|right; exists n', v', s'; auto].
      + intros k Hk. rewrite F by exact Hk. rewrite tfind_tput. destruct (kcmp k (key n)) eqn:X; try reflexivity. exfalso. apply Hk. apply (reserved_via (key n) k); [apply kcmp_sym; exact X|apply key_reserved].
  Qed.
  Lemma value_of_in n (l : list (bytes * bound R)) v : value_of n l = Some v -> In (n, v) l.
  Proof.
    induction l as [|[m w] l IH]; [discriminate|]. cbn [value_of]. destruct (bytes_eqb n m) eqn:E.
    - intros X. injection X as ->. apply bytes_eqb_eq in E. subst m. left. reflexivity.
    - intros X. right. apply IH. exact X.
  Qed.
  Lemma value_of_unique (l : list (bytes * bound R)) n v : (forall v', In (n, v') l -> v' = v) -> In (n, v) l -> value_of n l = Some v.
  Proof.
    induction l as [|[m w] l IH]; intros U H; [destruct H|]. destruct H as [H|H]; cbn [value_of].
    - injection H as -> ->. rewrite bytes_eqb_refl. reflexivity.
    - destruct (bytes_eqb n m) eqn:E; [apply bytes_eqb_eq in E; subst m; f_equal; apply U; left; reflexivity|]. apply IH; [intros v' H'; apply U; right; exact H'|exact H].
  Qed.
  Lemma same_values (a b : list (bytes * bound R)) : distinct b -> (forall p, In p a <-> In p b) -> forall n, value_of n a = value_of n b.
  Proof.
    intros D E n.
    assert (U : forall v v', In (n, v) b -> In (n, v') b -> v' = v).
    { clear E. unfold distinct in D. induction b as [|[m w] b IH]; [intros v v' []|]. intros v v' [H|H] [H'|H'].
      - congruence.
      - exfalso. injection H as -> ->. inversion D as [|? ? X _]; subst. apply X. apply in_map_iff. exists (n, v'). auto.
      - exfalso. injection H' as -> ->. inversion D as [|? ? X _]; subst. apply X. apply in_map_iff. exists (n, v). auto.
      - inversion D; subst. apply IH; assumption. }
    destruct (value_of n b) as [v|] eqn:B.
    - apply value_of_in in B. apply value_of_unique; [intros v' H; apply E in H; apply (U v v' B H)|apply E; exact B].
    - destruct (value_of n a) as [v|] eqn:A; [|reflexivity]. apply value_of_in, E in A. rewrite (value_of_unique b n v) in B; [discriminate|intros v' H; apply (U v v' A H)|exact A].
  Qed.
End wire.
Lemma skip_space_split s : exists a, s = a ++ skip_space s /\ Forall (fun c => is_space c = true) a /\ is_space (hd "x"%char (skip_space s)) = false.
Proof.
  induction s as [|c s (a & E & F & H)]; [exists []; repeat split; constructor|]. cbn [skip_space]. destruct (is_space c) eqn:S.
  - exists (c :: a). split; [cbn [app]; f_equal; exact E|]. split; [constructor; assumption|exact H].
  - exists []. split; [reflexivity|]. split; [constructor|exact S].
Qed.
Lemma STrim_inner s : inner s (STrim s).
Proof.
  destruct (skip_space_split s) as (a & E & F & H). destruct (skip_space_split (rev (skip_space s))) as (b & E' & F' & H').
  exists a, (rev b). unfold STrim. assert (X : skip_space s = rev (skip_space (rev (skip_space s))) ++ rev b).
  { rewrite <- rev_app_distr, <- E', rev_involutive. reflexivity. }
  split; [rewrite <- X; exact E|]. split; [exact F|]. split; [apply Forall_rev; exact F'|]. split.
  - destruct (rev (skip_space (rev (skip_space s)))) as [|c r] eqn:Z; [reflexivity|]. rewrite X in H. cbn [app hd] in *. exact H.
  - rewrite <- last_rev, rev_involutive. exact H'.
Qed.
Lemma inner_stripped v v' q : nul_free v -> stripped v v' -> inner v' q -> inner v q.
Proof.
  intros N (_ & i & j & E) (a & b & E' & A & B & C & D). rewrite cstr_nul_free in E by exact N.
  assert (SP : forall n, Forall (fun c => is_space c = true) (repeat " "%char n)) by (intros n; apply Forall_forall; intros c Hc; apply repeat_spec in Hc; subst c; reflexivity).
  exists (repeat " "%char i ++ a), (b ++ repeat " "%char j). split; [rewrite E, E', <- !app_assoc; reflexivity|].
  split; [apply Forall_app; auto|]. split; [apply Forall_app; auto|]. auto.
Qed.
Lemma not_via n k : SStartsWith (SToLower n) PARAM = false -> reserved k -> kcmp n k <> Eq.
Proof. intros H K E. apply kcmp_sym, kcmp_lower in E. unfold reserved in K. rewrite E in K. congruence. Qed.
Lemma in_arrival t k v : reserved k -> (In (k, v) (arrival t) <-> exists v0, In (k, v0) t /\ v = trim (cstr v0)).
Proof.
  intros K.
  assert (A : ieqb SC k = false /\ ieqb CL k = false /\ ieqb CE k = false).
  { repeat split; (destruct (ieqb _ k) eqn:X; [exfalso; apply kcmp_eq in X; revert X; apply not_via; [reflexivity|exact K]|reflexivity]). }
  destruct A as (A1 & A2 & A3). unfold arrival. rewrite in_map_iff. split.
  - intros ([k0 v0] & E & H). apply filter_In in H as [H _]. unfold arrived in E. cbn [fst snd] in E. destruct (ieqb SC k0) eqn:X.
    + injection E as <- <-. exfalso. apply kcmp_eq in X. revert K. unfold reserved. vm_compute. discriminate.
    + injection E as <- <-. exists v0. auto.
  - intros (v0 & H & ->). exists (k, v0). unfold arrived, Http_Proofs.kept. cbn [fst snd]. rewrite A1. split; [reflexivity|]. apply filter_In. split; [exact H|]. cbn [fst snd]. rewrite A2, A3. reflexivity.
Qed.
Lemma in_final gz t c k v : reserved k -> (In (k, v) (final_table gz t c) <-> exists v0, In (k, v0) t /\ v = trim (cstr v0)).
Proof.
  intros K. unfold final_table. rewrite in_tput_other by (apply not_via; [reflexivity|exact K]).
  destruct (compressed gz t c); [rewrite in_tput_other by (apply not_via; [reflexivity|exact K])|]; apply in_arrival; exact K.
Qed.
Section request.
  Context {R : Type} (print17 : R -> bytes) (strtod : bytes -> R).
  (** A request with bound values, sent and read: the command has exactly the values that were given, under the names they
      were given, and the text of the query is the one in the method line or in the Query header, without the white space
      around it. *)
  Theorem C48_request : forall gz x ps t X,
    legal x -> (forall k v, In (k, v) (msg_table x) -> ~ reserved k) ->
    Forall (sendable print17 strtod) ps -> distinct ps ->
    with_params print17 ps (msg_table x) = Some t ->
    (N.of_nat (List.length (final_content gz t (msg_content x))) < 2 ^ 31)%N ->
    SComposeHTTP gz (msg_method x) t (msg_content x) = Some X ->
    exists t' c', SParseHTTP X = Done (List.length X) (msg_method x) t' c' /\
      (forall n, value_of n (params_of strtod t') = value_of n ps) /\
      (SStartsWith (SToLower (msg_method x)) (lit "query:") = true -> inner (skipn 6 (msg_method x)) (query_text (msg_method x) t')) /\
      (SStartsWith (SToLower (msg_method x)) (lit "query:") = false -> forall q, nul_free q -> tfind (lit "query") (msg_table x) = Some q ->
       inner q (query_text (msg_method x) t')).
  Proof.
    intros gz x ps t X L NR S D E B EX. destruct L as (L1 & L2 & L3 & L4).
    destruct (with_params_spec print17 strtod ps (msg_table x) t S D) as (A1 & A2 & A3 & A4); [|exact E|].
    { intros k v Hk p _ C. apply (NR k v Hk). apply (reserved_via _ _ C). apply key_reserved. }
    set (x' := mkMsg (msg_method x) t (msg_content x)).
    assert (L' : legal x') by (split; [exact L1|]; split; [apply A1; exact L2|]; split; [apply A2; exact L3|exact L4]).
    assert (HS : sent gz x' X) by (split; [exact L'|]; split; [exact B|exact EX]).
    pose proof (parse_whole gz x' X [] [] HS (or_introl eq_refl)) as P. rewrite app_nil_r in P. cbn [app] in P.
    exists (snd (fst (got gz x'))), (snd (got gz x')). split; [exact P|]. split; [|split].
    - apply same_values; [exact D|]. intros [n v]. unfold params_of. rewrite in_map_iff. cbn [got fst snd x' msg_table msg_content]. split.
      + intros ([k w] & Ek & H). apply filter_In in H as [H F]. cbn [fst snd] in *. pose proof (starts_reserved _ F) as K. apply in_final in H; [|exact K]. destruct H as (w0 & H & ->).
        apply A3 in H as [H|(n' & v' & s' & H1 & H2 & H3)]; [exfalso; exact (NR _ _ H K)|]. injection H3 as -> ->. injection Ek as En Ev.
        assert (Sv : sendable print17 strtod (n', v')) by (rewrite Forall_forall in S; apply S; exact H1). destruct Sv as (_ & _ & G). destruct (serialized _ _ _ G) as (s & Es & Ed & Nf & Up).
        cbn [snd] in *. rewrite H2 in Es. injection Es as ->. rewrite cstr_nul_free, trim_id in Ev by assumption. rewrite Ed in Ev. subst v'.
        change (uriDecodeParamName (uriEncodeParamName n') = n) in En. rewrite (proj1 (C48_name n')) in En. subst n'. exact H1.
      + intros H. assert (Sv : sendable print17 strtod (n, v)) by (rewrite Forall_forall in S; apply S; exact H). destruct Sv as (_ & _ & G). destruct (serialized _ _ _ G) as (s & Es & Ed & Nf & Up). cbn [snd] in *.
        exists (key n, s). cbn [fst snd]. split.
        * f_equal; [|exact Ed]. apply (proj1 (C48_name n)).
        * apply filter_In. split; [|apply starts_app]. apply in_final; [apply key_reserved|]. exists s. split; [|rewrite cstr_nul_free, trim_id by assumption; reflexivity].
          apply A3. right. exists n, v, s. auto.
    - intros M. unfold query_text. rewrite M. apply STrim_inner.
    - intros M q Nq Hq. unfold query_text. rewrite M. pose proof (got_arrives gz x' L') as AR. unfold arrives in AR. destruct (got gz x') as [[m' t'] c'] eqn:G. cbn [fst snd].
      destruct AR as (_ & comp & DL & _). pose proof (dl_others _ _ _ _ DL (lit "query")) as O.
      assert (Z : forall n, (SToLower n <> lit "query")%type -> ~ is_name (lit "query") n) by (unfold is_name; intros n Hn H; apply Hn; rewrite <- H; reflexivity).
      assert (Z1 : ~ is_name (lit "query") (lit "Content-Length")) by (apply Z; discriminate). assert (Z2 : ~ is_name (lit "query") (lit "Set-Cookie")) by (apply Z; discriminate). specialize (O Z1 Z2). cbn [x' msg_table] in O.
      rewrite A4, Hq in O by (unfold reserved; discriminate). destruct O as (v' & F1 & F2); [intros [H _]; revert H; apply Z; discriminate|].
      unfold header. rewrite F1. apply (inner_stripped _ _ _ Nq F2). apply STrim_inner.
  Qed.
End request.
Print Assumptions C48_request.
(** Two placeholders that differ only in case become one header: the first gets the value of the second, the second has none. *)
Theorem C48_case_refuted : forall (R : Type) (print17 : R -> bytes) (strtod : bytes -> R),
  exists t, with_params print17 [(lit ":a", Int64 1); (lit ":A", Int64 2)] [] = Some t /\
  value_of (lit ":a") (params_of strtod t) = Some (Int64 2) /\ value_of (lit ":A") (params_of strtod t) = None.
Proof. intros. exists [(lit "sql-param-#3Aa", lit "I2")]. repeat split; vm_compute; reflexivity. Qed.
Print Assumptions C48_case_refuted.
(** A header is found whatever its case, but not these: [SQL-Param-#3Aa] is no value for [:a], which is then NULL. *)
Theorem C48_spelling_refuted : forall (R : Type) (strtod : bytes -> R), params_of strtod [(lit "SQL-Param-#3Aa", lit "I2")] = [].
Proof. reflexivity. Qed.
Print Assumptions C48_spelling_refuted.
Definition ask : message := mkMsg (lit "Query") [(lit "Query", lit " DELETE FROM t WHERE id = :id AND name = :name;  ")] [].
Definition values : list (bytes * bound unit) := [(lit ":id", Int64 (-7)); (lit ":name", Text (lit "O'Neil"))].
Definition asked : stable :=
  [(lit "Query", lit " DELETE FROM t WHERE id = :id AND name = :name;  "); (lit "sql-param-#3Aid", lit "I-7"); (lit "sql-param-#3Aname", lit "TTydOZWls")].
Example C48_request_case : legal ask /\ (forall k v, In (k, v) (msg_table ask) -> ~ reserved k) /\
  Forall (sendable (fun _ => []) (fun _ => tt)) values /\ distinct values /\ with_params (fun _ => []) values (msg_table ask) = Some asked /\
  exists X t', SComposeHTTP (fun b => b) (msg_method ask) asked (msg_content ask) = Some X /\ SParseHTTP X = Done (List.length X) (msg_method ask) t' [] /\
    params_of (fun _ => tt) t' = values /\ query_text (msg_method ask) t' = lit "DELETE FROM t WHERE id = :id AND name = :name;".
Proof.
  split; [|split; [|split; [|split; [|split]]]].
  - legal_case.
  - intros k v [E|[]]. injection E as <- _. unfold reserved. discriminate.
  - repeat (apply Forall_cons; [|]); [| |apply Forall_nil]; (split; [vm_compute; intuition discriminate|split; [vm_compute; discriminate|vm_compute; intuition discriminate]]).
  - repeat (constructor; [vm_compute; intuition discriminate|]). constructor.
  - vm_compute. reflexivity.
  - let v := eval vm_compute in (SComposeHTTP (fun b => b) (msg_method ask) asked (msg_content ask)) in match v with Some ?s => exists s end.
    eexists. split; [vm_compute; reflexivity|]. split; [vm_compute; reflexivity|]. split; vm_compute; reflexivity.
Qed.

(** ** Running *)
(** A handle between two commands. *)
Definition idle (h : handle) : Prop :=
  h_inside h = false /\ h_sql h = false /\ h_pending h = [] /\ h_query h = [] /\ h_hash h = false /\ h_locked h = false /\
  h_queryonly h = false /\ h_noop h = false.
(** The text of the query is one of those that are not even looked at. *)
Definition unusable (q : bytes) : Prop := q = [] \/ (2 ^ 20 < N.of_nat (List.length q))%N \/ forall a, rewritten q <> a ++ [";"%char].
Lemma ends_iff q : ends_with_semicolon q = true <-> exists a, q = a ++ [";"%char].
Proof.
  unfold ends_with_semicolon. split.
  - intros H. destruct (rev q) as [|c r] eqn:E; [discriminate|]. apply Ascii.eqb_eq in H. subst c. exists (rev r). rewrite <- (rev_involutive q), E. reflexivity.
  - intros (a & ->). rewrite rev_app_distr. reflexivity.
Qed.
Definition benign (l : list sql) : Prop := forall s, In s l -> transaction_control s = false.
Lemma run_reads l h : benign l -> existsb can_write l = false -> fst (run_all l h) = h /\ (snd (run_all l h) = false -> existsb goes_wrong l = true) /\
  (existsb goes_wrong l = false -> snd (run_all l h) = true).
Proof.
  intros B. induction l as [|s l IH]; intros W; [repeat split; discriminate|]. cbn [existsb] in *. apply orb_false_iff in W as [W1 W2].
  assert (B' : benign l) by (intros x Hx; apply B; right; exact Hx). pose proof (B s (or_introl eq_refl)) as Bs.
  cbn [run_all]. destruct s as [[]| | | |]; try discriminate; cbn [run1 negb goes_wrong fst snd orb]; [repeat split; discriminate|]. apply IH; assumption.
Qed.
Lemma run_first l h : benign l -> existsb can_write l = false -> fst (run_formatted l h) = h /\ (snd (run_formatted l h) = false -> existsb goes_wrong l = true) /\
  (existsb goes_wrong l = false -> snd (run_formatted l h) = true).
Proof.
  intros B W. destruct l as [|s l]; [repeat split; discriminate|]. cbn [existsb] in *. apply orb_false_iff in W as [W1 W2]. pose proof (B s (or_introl eq_refl)) as Bs.
  destruct s as [[]| | | |]; try discriminate; cbn [run_formatted run1 negb goes_wrong fst snd orb]; repeat split; discriminate.
Qed.
Lemma run_writes l : forall h, benign l -> h_sql h = true -> h_queryonly h = false ->
  let h' := fst (run_all l h) in
  h_db h' = h_db h /\ h_journal h' = h_journal h /\ h_inside h' = h_inside h /\ h_sql h' = true /\ h_query h' = h_query h /\ h_hash h' = h_hash h /\
  h_locked h' = h_locked h /\ h_queryonly h' = false /\ h_noop h' = h_noop h /\
  snd (run_all l h) = negb (existsb goes_wrong l) /\ (snd (run_all l h) = true -> h_pending h' = h_pending h ++ concat (map changed l)).
Proof.
  induction l as [|s l IH]; intros h B Q O; cbn zeta.
  - cbn [run_all fst snd existsb negb map concat]. rewrite app_nil_r. repeat split; auto.
  - assert (B' : benign l) by (intros x Hx; apply B; right; exact Hx). pose proof (B s (or_introl eq_refl)) as Bs.
    cbn [run_all]. destruct s as [[]|q []| | |]; try discriminate; cbn [run1 negb]; rewrite ?O; cbn iota beta.
    + cbn [existsb goes_wrong negb orb]. repeat split; auto; try discriminate.
    + cbn [existsb goes_wrong orb map changed concat app]. exact (IH h B' Q O).
    + unfold sql_change. rewrite Q.
      specialize (IH (H (h_inside h) true (h_pending h ++ [q]) (h_query h) (h_hash h) (h_locked h) (h_held h) (h_queryonly h) (h_noop h) (h_timeout h) (h_abort h) (h_db h) (h_journal h)) B' eq_refl O).
      cbn zeta in IH. cbn [h_db h_journal h_inside h_sql h_query h_hash h_locked h_queryonly h_noop h_pending] in IH.
      cbn [existsb goes_wrong orb map changed concat app]. destruct IH as (I1 & I2 & I3 & I4 & I5 & I6 & I7 & I8 & I9 & I10 & I11). repeat split; auto.
      intros T. rewrite (I11 T), <- app_assoc. reflexivity.
    + cbn [existsb goes_wrong orb map changed concat app]. exact (IH h B' Q O).
    + cbn [existsb goes_wrong negb orb]. repeat split; auto; try discriminate.
Qed.
Lemma nothing_changed l : existsb (fun s => match changed s with [] => false | _ => true end) l = false <-> concat (map changed l) = [].
Proof.
  induction l as [|s l IH]; [split; reflexivity|]. cbn [existsb map concat]. destruct (changed s) eqn:C; cbn [orb app]; [exact IH|split; discriminate].
Qed.
Lemma starts_iff p s : SStartsWith s p = true <-> exists r, s = p ++ r.
Proof. split; [intros H; exists (skipn (List.length p) s); apply starts_split; exact H|intros (r & ->); apply starts_app]. Qed.
Lemma contains_iff n s : SContains s n = true <-> exists a b, s = a ++ n ++ b.
Proof.
  induction s as [|c s IH]; cbn [SContains]; rewrite orb_true_iff, starts_iff.
  - split; [intros [(r & E)|E]; [exists [], r; exact E|discriminate]|]. intros (a & b & E). left. destruct a; [exists b; exact E|discriminate].
  - rewrite IH. split.
    + intros [(r & E)|(a & b & E)]; [exists [], r; exact E|exists (c :: a), b; rewrite E; reflexivity].
    + intros (a & b & E). destruct a as [|d a]; [left; exists b; exact E|right; injection E as _ E; exists a, b; exact E].
Qed.
(** The text begins with UPDATE or DELETE, in any case, and has nowhere the word WHERE between two spaces. *)
Definition no_where (q : bytes) : Prop :=
  (exists r, SToUpper q = lit "UPDATE" ++ r \/ SToUpper q = lit "DELETE" ++ r) /\ ~ exists a b, SToUpper q = a ++ lit " WHERE " ++ b.
Lemma lacks_where_iff q : lacks_where q = true <-> no_where q.
Proof.
  unfold lacks_where, no_where. rewrite andb_true_iff, orb_true_iff, negb_true_iff, !starts_iff, <- contains_iff.
  split; intros [A B]; (split; [|destruct (SContains _ _); congruence]).
  - destruct A as [(r & A)|(r & A)]; exists r; auto.
  - destruct A as (r & [A|A]); eauto.
Qed.
Section command.
  Context (compile : bytes -> option (list sql)) (method : bytes) (t : stable) (h : handle) (free : idle h)
          (plain : forall q l, compile q = Some l -> benign l).
  Let q : bytes := rewritten (query_text method t).
  Lemma command_eq : exists h0 h1, 
    (idle (setQueryOnly false (rollback h1)) /\ h_db (setQueryOnly false (rollback h1)) = h_db h /\ h_journal (setQueryOnly false (rollback h1)) = h_journal h) /\
    (h_inside h0 = true /\ h_sql h0 = true /\ h_pending h0 = [] /\ h_query h0 = [] /\ h_hash h0 = false /\ h_locked h0 = false /\ h_queryonly h0 = false /\ h_noop h0 = false /\ h_db h0 = h_db h /\ h_journal h0 = h_journal h) /\
    command compile method t h =
      match peek compile t (query_text method t) h1 with
      | (h, Refused m) => (setQueryOnly false (rollback h), Fails m)
      | (h, Query_Model.Answers) => (setQueryOnly false (rollback h), Answered)
      | (h, Escalates) => match process compile t q (setQueryOnly false h) with
                          | (h, Some m) => (rollback h, Fails m)
                          | (h, None) => match h_query h with [] => (rollback h, Answered) | _ => (h, Ready) end
                          end
      end /\ h0 = setQueryOnly false h1 /\ rollback (rollback h1) = rollback h1.
  Proof.
    destruct free as (F1 & F2 & F3 & F4 & F5 & F6 & F7 & F8).
    set (b := H true true [] [] false (h_locked h) (h_held h) (h_queryonly h) (h_noop h) (h_timeout h) (h_abort h) (h_db h) (h_journal h)).
    exists (setQueryOnly false (setQueryOnly true b)), (setQueryOnly true b). unfold command, beginTransaction. rewrite F1, F2, F4, F5. cbn [orb negb].
    fold b. cbn iota. split; [|split; [|split; [reflexivity|split; reflexivity]]].
    - cbv beta iota zeta delta [idle rollback setQueryOnly b h_inside h_sql h_pending h_query h_hash h_locked h_queryonly h_noop h_db h_journal]. repeat split; assumption.
    - cbv beta iota zeta delta [rollback setQueryOnly b h_inside h_sql h_pending h_query h_hash h_locked h_queryonly h_noop h_db h_journal]. repeat split; assumption.
  Qed.
  Lemma peek_cases h1 : unusable (query_text method t) \/
    (~ unusable (query_text method t) /\ peek compile t (query_text method t) h1 =
     match compile q with
     | None => (h1, Refused BAD)
     | Some l => if existsb can_write l then (h1, Escalates)
                 else match (if ieqb (cstr (header (lit "Format") t)) (lit "json") then run_all l (rollback h1) else run_formatted l (rollback h1)) with
                      | (h, true) => (h, Query_Model.Answers) | (h, false) => (h, Refused BAD) end
     end).
  Proof.
    unfold peek. fold q. destruct (ends_with_semicolon q) eqn:E.
    - destruct ((N.of_nat (List.length (query_text method t)) <? 1)%N || (MAX_SIZE_QUERY <? N.of_nat (List.length (query_text method t)))%N) eqn:Z.
      + left. apply orb_true_iff in Z as [Z|Z]; apply N.ltb_lt in Z; [left; destruct (query_text method t); [reflexivity|cbn [List.length] in Z; lia]|right; left; exact Z].
      + right. apply orb_false_iff in Z as [Z1 Z2]. apply N.ltb_ge in Z1, Z2. split.
        * intros [U|[U|U]]; [rewrite U in Z1; cbn in Z1; lia|change (2 ^ 20)%N with MAX_SIZE_QUERY in U; lia|]. apply ends_iff in E as (a & E). exact (U a E).
        * cbn [negb]. destruct (compile q) as [l|]; [|reflexivity].
          replace (existsb (fun s => negb (stmt_readonly s)) l) with (existsb can_write l); [reflexivity|].
          clear. induction l as [|s l IH]; [reflexivity|]. cbn [existsb]. rewrite IH. unfold stmt_readonly. rewrite negb_involutive. reflexivity.
    - left. right. right. intros a X. assert (Y : ends_with_semicolon q = true) by (apply ends_iff; exists a; exact X). congruence.
  Qed.
  Lemma peek_unusable h1 : unusable (query_text method t) -> exists m, peek compile t (query_text method t) h1 = (h1, Refused m).
  Proof.
    intros U. unfold peek. fold q. destruct (_ || _) eqn:Z; [eauto|]. destruct U as [U|[U|U]].
    - rewrite U in Z. discriminate.
    - exfalso. apply orb_false_iff in Z as [_ Z]. apply N.ltb_ge in Z. change (2 ^ 20)%N with MAX_SIZE_QUERY in U. lia.
    - destruct (ends_with_semicolon q) eqn:E; [|cbn [negb]; eauto]. exfalso. apply ends_iff in E as (a & E). exact (U a E).
  Qed.
  (** What a query does, whatever its text, when its statements do not control the transaction themselves: nothing is committed
      by running it.  Refused or failed, it leaves the handle as before.  Answered at once, it had nothing to change.  Otherwise
      it is ready to be committed: every statement went well, the transaction has all their changes, and the journal is to have
      the text of the query. *)
  Theorem C48_command :
    let (h', v) := command compile method t h in
    h_db h' = h_db h /\ h_journal h' = h_journal h /\
    match v with
    | Fails _ => idle h'
    | Answered => idle h' /\ exists l, compile q = Some l /\ concat (map changed l) = []
    | Ready => h_inside h' = true /\ h_sql h' = true /\ h_query h' = [(q, true)] /\
               exists l, compile q = Some l /\ h_pending h' = concat (map changed l) /\ concat (map changed l) <> [] /\ existsb goes_wrong l = false
    end.
  Proof.
    destruct command_eq as (h0 & h1 & (I & D & J) & H0 & E & E0 & RR). rewrite E. clear E.
    assert (IR : idle (setQueryOnly false (rollback (rollback h1))) /\ h_db (setQueryOnly false (rollback (rollback h1))) = h_db h /\ h_journal (setQueryOnly false (rollback (rollback h1))) = h_journal h) by (rewrite RR; auto).
    destruct (peek_cases h1) as [U|(U & ->)].
    { destruct (peek_unusable h1 U) as (m & ->). auto. }
    destruct (compile q) as [l|] eqn:C; [|auto]. pose proof (plain _ _ C) as B. destruct (existsb can_write l) eqn:W.
    - rewrite <- E0. destruct H0 as (P1 & P2 & P3 & P4 & P5 & P6 & P7 & P8 & P9 & P10).
      assert (I0 : idle (rollback h0) /\ h_db (rollback h0) = h_db h /\ h_journal (rollback h0) = h_journal h).
      { unfold rollback. rewrite P1. unfold idle. cbn [h_inside h_sql h_pending h_query h_hash h_locked h_queryonly h_noop h_db h_journal]. repeat split; assumption. }
      unfold process. rewrite P8. destruct (malformed_bool NOWHERE t); [tauto|]. destruct (_ && _); [tauto|]. rewrite P1. cbn [negb]. rewrite C.
      pose proof (run_writes l h0 B P2 P7) as X. cbn zeta in X. destruct (run_all l h0) as [h2 ok] eqn:RA. cbn [fst snd] in X.
      destruct X as (X1 & X2 & X3 & X4 & X5 & X6 & X7 & X8 & X9 & X10 & X11).
      assert (I2 : idle (rollback h2) /\ h_db (rollback h2) = h_db h /\ h_journal (rollback h2) = h_journal h).
      { unfold rollback. rewrite X3, P1. unfold idle. cbn [h_inside h_sql h_pending h_query h_hash h_locked h_queryonly h_noop h_db h_journal]. repeat split; congruence. }
      destruct ok; [|tauto]. destruct (existsb (fun s => match changed s with [] => false | _ => true end) l) eqn:CH.
      + unfold keep. cbn [h_query]. rewrite X5, P4. cbn [app]. cbn [h_inside h_sql h_pending h_query h_db h_journal].
        split; [congruence|]. split; [congruence|]. split; [congruence|]. split; [congruence|]. split; [reflexivity|]. exists l. split; [reflexivity|].
        rewrite (X11 eq_refl), P3. split; [reflexivity|]. split; [intros Y; apply nothing_changed in Y; congruence|]. destruct (existsb goes_wrong l); [discriminate|reflexivity].
      + rewrite X5, P4. cbn iota. destruct I2 as (A & A2 & A3). split; [exact A2|]. split; [exact A3|]. split; [exact A|]. exists l. split; [reflexivity|]. apply nothing_changed. exact CH.
    - assert (NC : concat (map changed l) = []).
      { clear - W. induction l as [|s l IH]; [reflexivity|]. cbn [existsb map concat] in *. apply orb_false_iff in W as [W1 W2]. destruct s; try discriminate; apply IH; exact W2. }
      assert (XF : forall x : handle * bool, fst x = rollback h1 ->
        let (h', v) := match (let (h, b) := x in if b then (h, Query_Model.Answers) else (h, Refused BAD)) with
                       | (h, Refused m) => (setQueryOnly false (rollback h), Fails m)
                       | (h, Query_Model.Answers) => (setQueryOnly false (rollback h), Answered)
                       | (h, Escalates) => match process compile t q (setQueryOnly false h) with
                          | (h, Some m) => (rollback h, Fails m)
                          | (h, None) => match h_query h with [] => (rollback h, Answered) | _ => (h, Ready) end
                          end end in
        h_db h' = h_db h /\ h_journal h' = h_journal h /\
        match v with
        | Fails _ => idle h'
        | Answered => idle h' /\ exists l0, Some l = Some l0 /\ concat (map changed l0) = []
        | Ready => h_inside h' = true /\ h_sql h' = true /\ h_query h' = [(q, true)] /\
               exists l0, Some l = Some l0 /\ h_pending h' = concat (map changed l0) /\ concat (map changed l0) <> [] /\ existsb goes_wrong l0 = false
        end).
      { intros [h2 b] X. cbn [fst] in X. subst h2. destruct IR as (A & A2 & A3). destruct b; cbn iota beta; [|auto]. split; [exact A2|]. split; [exact A3|]. split; [exact A|]. exists l. auto. }
      destruct (ieqb _ _); apply XF; [apply (run_reads l (rollback h1) B W)|apply (run_first l (rollback h1) B W)].
  Qed.
  Theorem C48_verdict :
    let v := snd (command compile method t h) in
    (unusable (query_text method t) -> exists m, v = Fails m) /\
    (~ unusable (query_text method t) ->
     (compile q = None -> v = Fails (lit "402 Bad query")) /\
     (forall l, compile q = Some l ->
      (existsb can_write l = false -> existsb goes_wrong l = false -> v = Answered) /\
      (existsb can_write l = true ->
       (no_where q -> tfind NOWHERE t = None -> v = Fails (lit "502 Query aborted")) /\
       ((~ no_where q /\ tfind NOWHERE t = None \/ exists w, tfind NOWHERE t = Some w /\ SToLower w = lit "true") ->
        v = if existsb goes_wrong l then Fails (lit "502 Query failed")
            else match concat (map changed l) with [] => Answered | _ => Ready end)))).
  Proof.
    destruct command_eq as (h0 & h1 & _ & H0 & E & E0 & RR). cbn zeta. rewrite E. clear E.
    split; [intros U; destruct (peek_unusable h1 U) as (m & ->); exists m; reflexivity|]. intros U. destruct (peek_cases h1) as [U'|(_ & ->)]; [contradiction|].
    split; [intros ->; reflexivity|]. intros l C. rewrite C. pose proof (plain _ _ C) as B. split; [|].
    - intros W G. rewrite W. destruct (ieqb _ _).
      + destruct (run_reads l (rollback h1) B W) as (_ & _ & X). specialize (X G). destruct (run_all l (rollback h1)) as [h2 b]. cbn [snd] in X. rewrite X. reflexivity.
      + destruct (run_first l (rollback h1) B W) as (_ & _ & X). specialize (X G). destruct (run_formatted l (rollback h1)) as [h2 b]. cbn [snd] in X. rewrite X. reflexivity.
    - intros W. rewrite W, <- E0. destruct H0 as (P1 & P2 & P3 & P4 & P5 & P6 & P7 & P8 & P9 & P10). unfold process. rewrite P8. split.
      + intros NW N. assert (M : malformed_bool NOWHERE t = false) by (unfold malformed_bool, header; rewrite N; reflexivity). rewrite M.
        assert (T : test NOWHERE t = false) by (unfold test, header, Timeout_Model.calc, Timeout_Model.calc64; rewrite N; reflexivity). rewrite T. apply lacks_where_iff in NW. rewrite NW. reflexivity.
      + intros K.
        assert (M : malformed_bool NOWHERE t = false /\ negb (test NOWHERE t) && lacks_where q = false).
        { destruct K as [(NW & N)|(w & N & Lw)].
          - split; [unfold malformed_bool, header; rewrite N; reflexivity|]. destruct (lacks_where q) eqn:Z; [apply lacks_where_iff in Z; contradiction|apply andb_false_r].
          - assert (TR : ieqb (cstr w) (lit "true") = true).
            { assert (NF : nul_free w). { intros X. apply (in_map lower) in X. unfold SToLower in Lw. rewrite Lw in X. vm_compute in X. intuition discriminate. }
              rewrite cstr_nul_free by exact NF. unfold ieqb. apply bytes_eqb_eq. unfold SToLower in Lw. rewrite Lw. reflexivity. }
            split; [unfold malformed_bool, header; rewrite N; destruct w; [reflexivity|]; rewrite TR; reflexivity|]. unfold test, header. rewrite N, TR. reflexivity. }
        destruct M as (-> & ->). rewrite P1. cbn [negb]. rewrite C. pose proof (run_writes l h0 B P2 P7) as X. cbn zeta in X. destruct (run_all l h0) as [h2 ok] eqn:RA. cbn [fst snd] in X.
        destruct X as (X1 & X2 & X3 & X4 & X5 & X6 & X7 & X8 & X9 & X10 & X11). rewrite X10. destruct (existsb goes_wrong l); cbn [negb]; [reflexivity|].
        destruct (existsb (fun s => match changed s with [] => false | _ => true end) l) eqn:CH.
        * unfold keep. cbn [h_query]. rewrite X5, P4. cbn [app snd]. destruct (concat (map changed l)) eqn:Z; [apply nothing_changed in Z; congruence|reflexivity].
        * apply nothing_changed in CH. rewrite CH, X5, P4. reflexivity.
  Qed.
End command.
Print Assumptions C48_command.
Print Assumptions C48_verdict.
Definition fresh : handle := H false false [] [] false false 0 false false false false [] [].
Example fresh_idle : idle fresh. Proof. repeat split. Qed.
Definition parser (q : bytes) : option (list sql) :=
  if bytes_eqb q (lit "INSERT INTO t VALUES (1); DELETE FROM u WHERE id = 2;") then Some [Writes (lit "t+1") Changes; Writes (lit "u-2") Changes]
  else if bytes_eqb q ALL_TABLES then Some [Reads false] else None.
Example C48_command_case : (forall q l, parser q = Some l -> benign l) /\
  h_pending (fst (command parser (lit "Query: INSERT INTO t VALUES (1); DELETE FROM u WHERE id = 2; ") [] fresh)) = [lit "t+1"; lit "u-2"] /\
  snd (command parser (lit "Query: INSERT INTO t VALUES (1); DELETE FROM u WHERE id = 2; ") [] fresh) = Ready /\
  snd (command parser (lit "query:.Schema") [] fresh) = Answered /\
  snd (command parser (lit "query: SELECT 1") [] fresh) = Fails (lit "502 Query Missing Semicolon").
Proof.
  split; [|repeat split; vm_compute; reflexivity].
  intros q l. unfold parser. destruct (bytes_eqb _ _); [|destruct (bytes_eqb _ _); [|discriminate]]; intros E; injection E as <-; intros s Hs; cbn [In] in Hs; intuition; subst s; reflexivity.
Qed.
(** [Query: BEGIN;] is answered like a read, because SQLite calls it read-only, and leaves SQLite inside a transaction that the
    handle knows nothing of: from then on no command at all can begin a transaction on this handle, and nothing ends it. *)
Theorem C48_begin_refuted : forall compile h, compile (lit "BEGIN;") = Some [Begins] -> idle h ->
  exists h', command compile (lit "Query: BEGIN;") [] h = (h', Answered) /\
  forall compile2 method t, command compile2 method t h' = (h', Fails (lit "501 Failed to begin shared transaction")).
Proof.
  intros compile h C (F1 & F2 & F3 & F4 & F5 & F6 & F7 & F8).
  exists (H false true [] [] false false (h_held h) false (h_noop h) (h_timeout h) (h_abort h) (h_db h) (h_journal h)). split.
  - unfold command, beginTransaction. rewrite F1, F2, F4, F5, F6. cbn [orb negb]. change (query_text (lit "Query: BEGIN;") []) with (lit "BEGIN;"). unfold peek.
    change (rewritten (lit "BEGIN;")) with (lit "BEGIN;"). rewrite C. reflexivity.
  - intros compile2 method t. reflexivity.
Qed.
Print Assumptions C48_begin_refuted.
(** A query that commits first and begins again at its end has its changes in the database at once, outside the transaction of
    the command: when that is undone, as it is after a conflict, the change stays, and no journal row has it. *)
Definition ESCAPE : bytes := lit "COMMIT; UPDATE t SET a = 1 WHERE id = 2; BEGIN;".
Theorem C48_escape_refuted : forall compile h u, compile ESCAPE = Some [Commits; Writes u Changes; Begins] -> idle h ->
  let h' := fst (command compile (lit "Query: " ++ ESCAPE) [] h) in
  snd (command compile (lit "Query: " ++ ESCAPE) [] h) = Ready /\ h_db (rollback h') = h_db h ++ [u] /\ h_journal (rollback h') = h_journal h.
Proof.
  intros compile h u C (F1 & F2 & F3 & F4 & F5 & F6 & F7 & F8). cbn zeta. unfold command, beginTransaction. rewrite F1, F2, F4, F5, F6. cbn [orb negb].
  change (query_text (lit "Query: " ++ ESCAPE) []) with ESCAPE. unfold peek. change (rewritten ESCAPE) with ESCAPE.
  replace (_ || _) with false by (vm_compute; reflexivity). change (ends_with_semicolon ESCAPE) with true. cbn [negb]. rewrite C.
  cbn [existsb stmt_readonly can_write negb orb]. unfold process. cbn [setQueryOnly h_noop]. rewrite F8.
  change (malformed_bool NOWHERE []) with false. replace (lacks_where ESCAPE) with false by (vm_compute; reflexivity). rewrite andb_false_r. cbn [h_inside negb]. rewrite C.
  cbv beta iota zeta delta [run_all run1 h_sql h_queryonly sql_change keep existsb changed orb h_query h_inside h_pending h_hash h_locked h_held h_noop h_timeout h_abort h_db h_journal snd fst rollback].
  rewrite !app_nil_r. change ([] ++ [(ESCAPE, true)]) with [(ESCAPE, true)]. cbv beta iota. repeat split.
Qed.
Print Assumptions C48_escape_refuted.
(** The test for a missing WHERE looks only at how the text begins: a DELETE of every row passes behind another statement ... *)
Theorem C48_where_refuted : ~ no_where (lit "SELECT 1; DELETE FROM t;") /\ ~ no_where (lit "WITH x AS (SELECT 1) DELETE FROM t;").
Proof. split; intros H; apply lacks_where_iff in H; vm_compute in H; discriminate. Qed.
Print Assumptions C48_where_refuted.
(** ... and a DELETE of one row is refused when a line end, a tab or a bracket stands beside its WHERE. *)
Theorem C48_where_line_refuted : no_where (lit "DELETE FROM t" ++ ["010"%char] ++ lit "WHERE id = 1;") /\ no_where (lit "DELETE FROM t WHERE(id = 1);").
Proof. split; apply lacks_where_iff; vm_compute; reflexivity. Qed.
Print Assumptions C48_where_line_refuted.
(** Of several reads only the first is run, unless the format asked for is json: the others are neither answered nor checked. *)
Theorem C48_first_only_refuted : forall compile q h, compile q = Some [Reads false; Reads true] -> idle h -> q = lit "SELECT 1; SELECT abs(-9223372036854775808);" ->
  snd (command compile (lit "Query") [(lit "Query", q)] h) = Answered /\
  snd (command compile (lit "Query") [(lit "Format", lit "json"); (lit "Query", q)] h) = Fails (lit "402 Bad query").
Proof.
  intros compile q h C (F1 & F2 & F3 & F4 & F5 & F6 & F7 & F8) Q.
  assert (T1 : query_text (lit "Query") [(lit "Query", q)] = q) by (rewrite Q; vm_compute; reflexivity).
  assert (T2 : query_text (lit "Query") [(lit "Format", lit "json"); (lit "Query", q)] = q) by (rewrite Q; vm_compute; reflexivity).
  assert (RW : rewritten q = q) by (rewrite Q; vm_compute; reflexivity).
  assert (SZ : (N.of_nat (List.length q) <? 1)%N || (MAX_SIZE_QUERY <? N.of_nat (List.length q))%N = false) by (rewrite Q; vm_compute; reflexivity).
  assert (SE : ends_with_semicolon q = true) by (rewrite Q; vm_compute; reflexivity). clear Q.
  split; unfold command, beginTransaction; rewrite F1, F2, F4, F5, F6; cbn [orb negb]; rewrite ?T1, ?T2; unfold peek; rewrite RW, SZ, SE; cbn [negb]; rewrite C; reflexivity.
Qed.
Print Assumptions C48_first_only_refuted.
