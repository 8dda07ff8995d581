(** C47: the results of outside requests at the node a command is sent on to. *)
From Verif Require Import Base Dec Text_Spec Text_Model Text_Proofs Table Http_Spec Http_Model Http_Proofs Http_Props Json_Spec Json_Model Json_Proofs Json_Compose Json_Props
  Base64_Spec Base64_Model Base64_Proofs Timeout_Props Reply_Props Forward_Spec Forward_Model.

(** ** Base64 *)
(** What is written is base64 as RFC 4648 has it, and it is read back, whatever the bytes. *)
Theorem C47_base64 : forall b, b <> [] -> exists t, SEncodeBase64 b = Some t /\ base64 b t /\ SDecodeBase64 t = b.
Proof.
  intros b H. exists (encode b). split; [destruct b; [congruence|reflexivity]|]. split; [apply encode_is_base64|]. unfold SDecodeBase64. rewrite decode_encode. reflexivity.
Qed.
Print Assumptions C47_base64.
(** Writing no bytes throws. *)
Theorem C47_empty_refuted : SEncodeBase64 [] = None. Proof. reflexivity. Qed.
Print Assumptions C47_empty_refuted.
Example C47_base64_case : SEncodeBase64 (lit "foobar!") = Some (lit "Zm9vYmFyIQ==") /\ SDecodeBase64 (lit "Zm9vYmFyIQ==") = lit "foobar!".
Proof. split; vm_compute; reflexivity. Qed.

(** ** Numbers *)
Lemma cstr_digits l : forallb is_digit l = true -> cstr l = l.
Proof.
  induction l as [|c l IH]; [reflexivity|]. cbn [forallb cstr]. intros H. apply andb_true_iff in H as [H1 H2]. destruct (digit_ok c H1) as (-> & _). rewrite IH by exact H2. reflexivity.
Qed.
Lemma SToUInt64_dec n : (n < 2 ^ 64)%N -> SToUInt64 (dec n) = n.
Proof.
  intros L. pose proof (dec_digits n) as D. pose proof (dec_nonempty n) as NE. unfold SToUInt64. rewrite (cstr_digits _ D).
  pose proof (dec_value_dec n) as V. pose proof (digits_of_all _ D) as DO. destruct (dec n) as [|c l] eqn:E; [congruence|].
  cbn [forallb] in D. apply andb_true_iff in D as [D1 D2]. destruct (digit_ok c D1) as (_ & S & M & P).
  cbn [skip_space]. rewrite S. clear E NE. rewrite <- DO in V.
  assert (X : N.min (2 ^ 64 - 1) (dec_value 0 (digits_of (c :: l))) = n) by (rewrite V; lia).
  clear V DO D1 S D2 L. revert X. generalize (2 ^ 64 - 1)%N. intros k X.
  destruct c as [[] [] [] [] [] [] [] []]; try exact X; congruence.
Qed.
Lemma SToInt_decZ z : (- 2 ^ 31 <= z < 2 ^ 31)%Z -> SToInt (decZ z) = z.
Proof.
  intros L. unfold SToInt, decZ.
  assert (E : SToInt64 (decZ z) = z).
  { unfold decZ. destruct (z <? 0)%Z eqn:Z0.
    - apply Z.ltb_lt in Z0. pose proof (dec_digits (Z.to_N (- z))) as D. unfold SToInt64.
      change (cstr ("-"%char :: dec (Z.to_N (- z)))) with ("-"%char :: cstr (dec (Z.to_N (- z)))). rewrite (cstr_digits _ D).
      change (skip_space ("-"%char :: dec (Z.to_N (- z)))) with ("-"%char :: dec (Z.to_N (- z))). cbn iota.
      rewrite digits_of_all by exact D. rewrite dec_value_dec. lia.
    - apply Z.ltb_ge in Z0. rewrite SToInt64_dec. lia. }
  fold (decZ z). rewrite E. unfold to_int. rewrite Z.mod_small by lia. lia.
Qed.

(** ** The texts *)
Section text.
  Context (is_float : bytes -> bool) (float_text : forall v, is_float v = true -> fixed_float v).
  Lemma not_misspelt_head c v : ~ In c (lit "tfnTFN") -> ~ misspelt (c :: v).
  Proof.
    intros H (w & Hw & E & _). apply H. cbn [In] in Hw.
    assert (X : lower c = "t"%char \/ lower c = "f"%char \/ lower c = "n"%char).
    { destruct Hw as [<-|[<-|[<-|[]]]]; cbn [map] in E; injection E as E _; auto. }
    clear -X. destruct c as [[] [] [] [] [] [] [] []]; vm_compute in X; vm_compute; intuition discriminate.
  Qed.
  Lemma number_faithful v : json_number v -> faithful is_float v.
  Proof.
    intros H. destruct (number_head v H) as (c & s & -> & Hc). apply C13_plain_strings; [apply number_nul_free; exact H| |].
    - apply not_misspelt_head. intros X. destruct Hc as [Hc|[-> _]]; cbn [lit In] in X.
      + repeat destruct X as [<-|X]; try discriminate; destruct X.
      + repeat destruct X as [X|X]; try discriminate; destruct X.
    - intros (s' & [E|E]); injection E as -> _; destruct Hc as [Hc|[Hc _]]; discriminate.
  Qed.
  Lemma long_base64_faithful b : (3 < List.length b)%nat -> faithful is_float (encode b).
  Proof.
    intros L. pose proof (encode_chars b) as C. pose proof (encode_long b L) as LL.
    assert (A : forall c, In c alphabet \/ c = "="%char -> c <> NUL /\ c <> "["%char /\ c <> "{"%char).
    { intros c [H| ->]; [|repeat split; discriminate]. cbn [alphabet lit In] in H. unfold alphabet in H. cbn [lit In] in H.
      repeat (destruct H as [<-|H]; [repeat split; discriminate|]). destruct H. }
    apply C13_plain_strings.
    - intros H. rewrite Forall_forall in C. destruct (A _ (C _ H)) as (X & _). congruence.
    - intros (w & Hw & E & _). assert (X : List.length (map lower (encode b)) = List.length w) by (rewrite E; reflexivity).
      rewrite map_length in X. cbn [In] in Hw. destruct Hw as [<-|[<-|[<-|[]]]]; cbn in X; lia.
    - intros (s & H). rewrite Forall_forall in C.
      destruct H as [E|E]; rewrite E in C; [destruct (A _ (C _ (or_introl eq_refl))) as (_ & N & _)|destruct (A _ (C _ (or_introl eq_refl))) as (_ & _ & N)]; congruence.
  Qed.
  Lemma tojson_nul v f t : nul_free v -> SToJSON is_float v f = Some t -> nul_free t.
  Proof.
    intros N. unfold SToJSON.
    assert (Q : nul_free (""""%char :: SEscape v json_unsafe "\" ++ [""""%char])).
    { apply (nul_free_app [""""%char]); [intros [H|[]]; discriminate|]. apply nul_free_app; [|intros [H|[]]; discriminate].
      exact (chars_nul_free _ _ (escape_chars v N)). }
    repeat (match goal with |- context [if ?b then _ else _] => destruct b end; try (intros E; injection E as <-; try assumption; intros H; vm_compute in H; intuition discriminate)).
    destruct (parse_value _ _ v) as [|r a| |]; try discriminate; [|destruct r]; intros E; injection E as <-; assumption.
  Qed.
  Lemma values_nul l s : Forall nul_free l -> compose_values is_float l = Some s -> nul_free s.
  Proof.
    intros F. revert s. induction F as [|v l Hv _ IH]; cbn [compose_values]; intros s E; [injection E as <-; intros []|].
    destruct (SToJSON is_float v false) as [j|] eqn:J; [|discriminate]. destruct (compose_values is_float l) as [r|]; [|discriminate]. injection E as <-.
    apply nul_free_app; [exact (tojson_nul _ _ _ Hv J)|]. apply (nul_free_app [","%char]); [intros [H|[]]; discriminate|]. apply IH. reflexivity.
  Qed.
  Lemma members_nul t f s : Forall (fun p => nul_free (fst p) /\ nul_free (snd p)) t -> compose_members is_float t f = Some s -> nul_free s.
  Proof.
    intros F. revert s. induction F as [|[k v] l [Hk Hv] _ IH]; cbn [compose_members]; intros s E; [injection E as <-; intros []|]. cbn [fst snd] in *.
    destruct (SToJSON is_float v f) as [j|] eqn:J; [|discriminate]. destruct (compose_members is_float l f) as [r|]; [|discriminate]. injection E as <-.
    specialize (IH r eq_refl). pose proof (tojson_nul _ _ _ Hv J) as Nj. clear - Nj IH Hk. unfold nul_free in *. cbn [In]. rewrite !in_app_iff. cbn [In]. rewrite !in_app_iff. cbn [In].
    intuition discriminate.
  Qed.
  Lemma removelast_nul s : nul_free s -> nul_free (removelast s).
  Proof.
    intros H X. apply H. destruct s as [|c s] using rev_ind; [destruct X|]. rewrite removelast_last in X. apply in_or_app. left. exact X.
  Qed.
  Lemma array_text l s : Forall nul_free l -> SComposeJSONArray is_float l = Some s -> nul_free s /\ unpadded s /\ s <> [].
  Proof.
    intros F. unfold SComposeJSONArray. destruct l as [|v l].
    - intros E. injection E as <-. split; [intros H; vm_compute in H; intuition discriminate|]. split; [split; discriminate|discriminate].
    - destruct (compose_values is_float (v :: l)) as [w|] eqn:W; [|discriminate]. intros E. injection E as <-. split; [|split; [|discriminate]].
      + apply (nul_free_app ["["%char]); [intros [H|[]]; discriminate|]. apply nul_free_app; [|intros [H|[]]; discriminate]. apply removelast_nul. exact (values_nul _ _ F W).
      + split; [discriminate|]. rewrite app_comm_cons, last_last. discriminate.
  Qed.
  Lemma object_text t f s : Forall (fun p => nul_free (fst p) /\ nul_free (snd p)) t -> SComposeJSONObject is_float t f = Some s -> nul_free s /\ exists r, s = "{"%char :: r.
  Proof.
    intros F. unfold SComposeJSONObject. destruct t as [|p t].
    - intros E. injection E as <-. split; [intros H; vm_compute in H; intuition discriminate|eexists; reflexivity].
    - destruct (compose_members is_float (p :: t) f) as [w|] eqn:W; [|discriminate]. intros E. injection E as <-. split; [|eexists; reflexivity].
      apply (nul_free_app ["{"%char]); [intros [H|[]]; discriminate|]. apply nul_free_app; [|intros [H|[]]; discriminate]. apply removelast_nul. exact (members_nul _ _ _ F W).
  Qed.
End text.

(** ** One request *)
Lemma composed_long gz x w : legal x -> serialize gz x = Some w -> (3 < List.length w)%nat.
Proof.
  intros ((N & _) & _) E. unfold serialize, SComposeHTTP in E. destruct (negb _); [discriminate|]. injection E as <-.
  rewrite app_length. cbn [List.length]. rewrite !app_length. cbn [List.length]. destruct (msg_method x) as [|c m]; [congruence|]. cbn [List.length]. lia.
Qed.
Lemma encoded_ok gz x : legal x -> (N.of_nat (List.length (gz (msg_content x))) < 2 ^ 31)%N ->
  exists b y, encoded gz x = Some (encode b) /\ (3 < List.length b)%nat /\ deserialize (SDecodeBase64 (encode b)) = Some y /\ arrives gz x (parts y).
Proof.
  intros L G. destruct (C14_composable gz x L) as (w & W). destruct (C14_roundtrip gz x w [] L G W) as (m & t & c & P & A).
  rewrite app_nil_r in P. exists w, (mkMsg m t c). fold (serialize gz x) in W. pose proof (composed_long gz x w L W) as LL.
  unfold encoded. rewrite W. split; [destruct w; [cbn in LL; lia|reflexivity]|]. split; [exact LL|]. split; [|exact A].
  unfold deserialize, SDecodeBase64. rewrite decode_encode, P. reflexivity.
Qed.
Definition one_table (o : outside) (q a : bytes) : stable :=
  [(lit "created", dec (o_created o)); (lit "finished", dec (o_finished o)); (lit "fullRequest", q); (lit "fullResponse", a);
   (lit "response", decZ (o_response o)); (lit "timeoutAt", dec (o_timeoutAt o))].
Lemma dec_number n : json_number (dec n).
Proof. exact (dec_is_number n [] (or_introl eq_refl)). Qed.

Section forward.
  Context (is_float : bytes -> bool) (float_text : forall v, is_float v = true -> fixed_float v) (gz : bytes -> bytes).

  Lemma one_ok o : outside_ok gz o -> exists s o', serialize_one is_float gz o = Some s /\ faithful is_float s /\ deserialize_one s = Some o' /\ same gz o o'.
  Proof.
    intros [(K1 & K2 & K3) K4 [K5 K6] [K7 K8]].
    destruct (encoded_ok gz _ K5 K6) as (bq & yq & Eq & Lq & Dq & Aq). destruct (encoded_ok gz _ K7 K8) as (ba & ya & Ea & La & Da & Aa).
    assert (T : Forall (fun p => plain_name (fst p) /\ faithful_if is_float false (snd p)) (one_table o (encode bq) (encode ba))).
    { pose proof (long_base64_faithful is_float float_text bq Lq) as F1. pose proof (long_base64_faithful is_float float_text ba La) as F2.
      assert (PN : forall k, forallb (fun c => (32 <=? bcode c)%N && negb (Ascii.eqb c quote) && negb (Ascii.eqb c backslash)) k = true -> plain_name k).
      { intros k H c Hc. rewrite forallb_forall in H. specialize (H c Hc). rewrite !andb_true_iff, !negb_true_iff in H. destruct H as [[H1 H2] H3].
        apply N.leb_le in H1. apply Ascii.eqb_neq in H2, H3. auto. }
      unfold one_table. repeat (apply Forall_cons; [split; [apply PN; vm_compute; reflexivity|]|]); try apply Forall_nil; cbn [fst snd faithful_if].
      - apply number_faithful, dec_number.
      - apply number_faithful, dec_number.
      - exact F1.
      - exact F2.
      - apply number_faithful, decZ_is_number.
      - apply number_faithful, dec_number. }
    assert (TO : table_ok (one_table o (encode bq) (encode ba))).
    { unfold one_table, table_ok. repeat (constructor; [|repeat (apply Forall_cons; [reflexivity|]); apply Forall_nil]). constructor. }
    destruct (C13_object_roundtrip is_float float_text _ false TO T) as (s & Es & Ps).
    destruct (C13_object_is_json is_float float_text _ false T) as (s2 & Es2 & Js). assert (s2 = s) by congruence. subst s2.
    exists s, (Outside (o_created o) (o_finished o) (o_timeoutAt o) (o_response o) yq ya).
    split; [unfold serialize_one; rewrite Eq, Ea; exact Es|].
    assert (TX : nul_free s /\ exists r, s = "{"%char :: r).
    { apply (object_text is_float (one_table o (encode bq) (encode ba)) false); [|exact Es]. rewrite Forall_forall in T |- *. intros p Hp.
      destruct (T p Hp) as (PN & FF). split; [|apply FF]. intros H. destruct (PN _ H) as (H1 & _). vm_compute in H1. apply H1. reflexivity. }
    destruct TX as (NF & r & Er). split; [|split].
    - split; [exact NF|]. split; [rewrite Er; apply not_misspelt_head; vm_compute; intuition discriminate|]. intros _. left. exact (jv_object _ _ _ Js).
    - unfold deserialize_one. rewrite Ps.
      change (member (lit "fullRequest") (one_table o (encode bq) (encode ba))) with (encode bq).
      change (member (lit "fullResponse") (one_table o (encode bq) (encode ba))) with (encode ba).
      change (member (lit "created") (one_table o (encode bq) (encode ba))) with (dec (o_created o)).
      change (member (lit "finished") (one_table o (encode bq) (encode ba))) with (dec (o_finished o)).
      change (member (lit "timeoutAt") (one_table o (encode bq) (encode ba))) with (dec (o_timeoutAt o)).
      change (member (lit "response") (one_table o (encode bq) (encode ba))) with (decZ (o_response o)).
      rewrite Dq, Da, !SToUInt64_dec, SToInt_decZ by assumption. reflexivity.
    - constructor; cbn; auto.
  Qed.
  Lemma all_ok l : Forall (outside_ok gz) l ->
    exists ts l', serialize_all is_float gz l = Some ts /\ Forall (faithful is_float) ts /\ deserialize_all ts = Some l' /\ Forall2 (same gz) l l' /\ (l <> [] -> ts <> []).
  Proof.
    induction 1 as [|o l Ho _ IH]; [exists [], []; repeat split; auto; constructor|].
    destruct (one_ok o Ho) as (s & o' & S1 & S2 & S3 & S4). destruct IH as (ts & l' & I1 & I2 & I3 & I4 & _).
    exists (s :: ts), (o' :: l'). cbn [serialize_all deserialize_all]. rewrite S1, I1, S3, I3. repeat split; auto. discriminate.
  Qed.

  (** ** The requests of a command *)
  (** Written as text and read again, they are the same. *)
  Theorem C47_codec : forall l, Forall (outside_ok gz) l ->
    exists s l', serializeHTTPSRequests is_float gz l = Some s /\ deserializeHTTPSRequests s = Some l' /\ Forall2 (same gz) l l' /\
      nul_free s /\ (l <> [] -> unpadded s /\ s <> []).
  Proof.
    intros l H. destruct (all_ok l H) as (ts & l' & A & B & C & D & E). destruct l as [|o l].
    - exists [], []. cbn. repeat split; auto; try congruence. intros [].
    - destruct (C13_array_roundtrip is_float float_text ts B) as (s & Es & Ps). exists s, l'.
      assert (NF : Forall nul_free ts) by (eapply Forall_impl; [|exact B]; intros v (X & _); exact X).
      destruct (array_text is_float ts s NF Es) as (T1 & T2 & T3).
      unfold serializeHTTPSRequests. rewrite A. split; [exact Es|]. split; [|repeat split; auto; apply T2].
      unfold deserializeHTTPSRequests. destruct s; [congruence|]. rewrite Ps. exact C.
  Qed.

  Lemma harmless_requests : harmless (lit "httpsRequests").
  Proof. repeat split; vm_compute; intuition discriminate. Qed.
  (** A command [x] with the outside requests [l] is sent on; the bytes are parsed by the other node, together with whatever follows
      them, and a command is built: it has the requests [l], the method line and the body of [x], its headers, and no header
      more than those and the length of the body. *)
  Theorem C47_sent_on : forall x l, legal x -> (N.of_nat (List.length (gz (msg_content x))) < 2 ^ 31)%N -> Forall (outside_ok gz) l -> l <> [] ->
    exists y w, escalated is_float gz x l = Some y /\ serialize gz y = Some w /\
    forall rest, exists m t c l', SParseHTTP (w ++ rest) = Done (List.length w) m t c /\ arrives gz y (m, t, c) /\
      snd (built t) = Some l' /\ Forall2 (same gz) l l' /\ tfind (lit "httpsRequests") (fst (built t)) = None /\
      m = msg_method x /\
      forall k, ~ is_name k (lit "httpsRequests") -> ~ is_name k (lit "serializedData") ->
        tfind k (msg_table y) = tfind k (msg_table x) /\ tfind k (fst (built t)) = tfind k t.
  Proof.
    intros x l L G H NE. destruct (C47_codec l H) as (s & l' & S1 & S2 & S3 & S4 & S5). destruct (S5 NE) as (S6 & S7).
    set (y := mkMsg (msg_method x) (tput (lit "httpsRequests") s (msg_table x)) (msg_content x)).
    assert (LY : legal y).
    { destruct L as (L1 & L2 & L3 & L4). split; [exact L1|]. split; [apply tput_ok; exact L2|]. split; [|exact L4]. apply legal_tput; [apply harmless_requests|exact L3]. }
    destruct (C14_composable gz y LY) as (w & W). exists y, w. split; [unfold escalated; destruct l; [congruence|]; rewrite S1; reflexivity|]. split; [exact W|].
    intros rest. destruct (C14_roundtrip gz y w rest LY G W) as (m & t & c & P & A). exists m, t, c, l'. split; [exact P|]. split; [exact A|].
    destruct A as (M & z & D & _ & _).
    assert (F : tfind (lit "httpsRequests") t = Some s).
    { assert (X : match tfind (lit "httpsRequests") (msg_table y) with Some v => exists v', tfind (lit "httpsRequests") t = Some v' /\ stripped v v' | None => tfind (lit "httpsRequests") t = None end).
      { apply (dl_others _ _ _ _ D); try (intros E; vm_compute in E; discriminate). intros (E & _). vm_compute in E. discriminate. }
      unfold y in X. cbn [msg_table] in X. rewrite tfind_tput, kcmp_refl in X. destruct X as (v' & X1 & X2). apply stripped_trim in X2.
      rewrite cstr_nul_free, trim_id in X2 by assumption. congruence. }
    cbn [built fst snd]. split; [unfold member; rewrite F; exact S2|]. split; [exact S3|]. split; [|split; [exact M|]].
    - rewrite tfind_tdel. destruct (kcmp (lit "httpsRequests") (lit "serializedData")); [reflexivity| |]; rewrite tfind_tdel, kcmp_refl; reflexivity.
    - intros k K1 K2. rewrite is_name_kcmp in K1, K2. rewrite !tfind_tdel. unfold y. cbn [msg_table]. rewrite tfind_tput.
      destruct (kcmp k (lit "httpsRequests")); [congruence| |]; destruct (kcmp k (lit "serializedData")); try congruence; auto.
  Qed.
End forward.
Print Assumptions C47_codec.
Print Assumptions C47_sent_on.

(** A message that does not ask for compression and has no value with a NUL or spaces around it is exactly the same at the other
    node, up to the header with the length of its body. *)
Theorem C47_exact : forall a b, same (fun b => b) a b ->
  (forall x, x = o_request a \/ x = o_answer a -> ~ asks_gzip (msg_table x) /\ forall k v, In (k, v) (msg_table x) -> nul_free v /\ unpadded v) ->
  forall x y, (x, y) = (o_request a, o_request b) \/ (x, y) = (o_answer a, o_answer b) ->
    msg_method y = msg_method x /\ msg_content y = msg_content x /\
    forall k, ~ is_name k (lit "Content-Length") -> tfind k (msg_table y) = tfind k (msg_table x).
Proof.
  intros a b [_ _ _ _ Q A] H x y E.
  assert (X : arrives (fun b => b) x (msg_method y, msg_table y, msg_content y) /\ (x = o_request a \/ x = o_answer a)).
  { destruct E as [E|E]; injection E as -> ->; auto. }
  destruct X as (X & Y). destruct (H x Y) as (H1 & H2). destruct (C14_exact x _ _ _ X H1 H2) as (R1 & R2 & _ & R3). auto.
Qed.
Print Assumptions C47_exact.

(** ** A case *)
Definition bank : message := mkMsg (lit "GET /rate HTTP/1.1") [(lit "Host", lit "bank")] [].
Definition rate : message := mkMsg (lit "HTTP/1.1 200 OK") [(lit "Content-Length", lit "3"); (lit "X-Rate", lit "1.5")] (lit "abc").
Definition asked_bank : outside := Outside 1000 2000 9000 200 bank rate.
Definition paying : message := mkMsg (lit "Pay") [(lit "amount", lit "7")] [].
Ltac header_case := split; [split; [discriminate|]; split; [vm_compute; intuition discriminate|]; split; [split; vm_compute; intuition discriminate|]; split; [reflexivity|discriminate]|];
  split; intros X; vm_compute in X; discriminate.
Ltac legal_case :=
  split; [split; [discriminate|]; split; [split; discriminate|];
          let c := fresh in let Hc := fresh in intros c Hc; right; cbn [lit In msg_method] in Hc; repeat (destruct Hc as [<-|Hc]; [split; vm_compute; discriminate|]); destruct Hc|];
  split; [unfold table_ok; repeat (constructor; [|repeat (apply Forall_cons; [reflexivity|]); apply Forall_nil]); constructor|];
  split; [let k := fresh in let v := fresh in let H := fresh in intros k v H; cbn [msg_table In] in H; repeat (destruct H as [H|H]; [injection H as <- <-; header_case|]); destruct H|reflexivity].
Lemma bank_legal : legal bank. Proof. unfold bank. legal_case. Qed.
Lemma rate_legal : legal rate. Proof. unfold rate. legal_case. Qed.
Lemma paying_legal : legal paying. Proof. unfold paying. legal_case. Qed.
(** The hypotheses of C47_sent_on and of C47_exact hold, and the text is what one expects. *)
Example C47_case : legal paying /\ Forall (outside_ok (fun b => b)) [asked_bank] /\
  (forall x, x = o_request asked_bank \/ x = o_answer asked_bank -> ~ asks_gzip (msg_table x) /\ forall k v, In (k, v) (msg_table x) -> nul_free v /\ unpadded v) /\
  exists q a, encoded (fun b => b) bank = Some q /\ encoded (fun b => b) rate = Some a /\
    serializeHTTPSRequests no_float (fun b => b) [asked_bank] =
      Some (lit "[{""created"":1000,""finished"":2000,""fullRequest"":""" ++ q ++ lit """,""fullResponse"":""" ++ a ++ lit """,""response"":200,""timeoutAt"":9000}]").
Proof.
  split; [exact paying_legal|]. split; [apply Forall_cons; [|apply Forall_nil]|].
  { constructor; [repeat split; reflexivity|split; [discriminate|reflexivity]|split; [exact bank_legal|reflexivity]|split; [exact rate_legal|reflexivity]]. }
  split.
  - intros x [->| ->]; (split; [intros (v & E & _); vm_compute in E; discriminate|]); intros k v H; cbn in H; repeat (destruct H as [H|H]; [injection H as <- <-; split; [vm_compute; intuition discriminate|split; discriminate]|]); destruct H.
  - eexists _, _. split; [vm_compute; reflexivity|]. split; [vm_compute; reflexivity|]. vm_compute. reflexivity.
Qed.

(** ** Where it fails *)
(** A request that failed without an answer (its message is empty) has an answer at the other node: one that says
    "Content-Length: 0". *)
Theorem C47_no_answer_refuted : exists s o, serialize_one no_float (fun b => b) (Outside 1000 2000 9000 500 bank (mkMsg [] [] [])) = Some s /\
  deserialize_one s = Some o /\ msg_method (o_answer o) = lit "Content-Length: 0".
Proof.
  set (r := Outside 1000 2000 9000 500 bank (mkMsg [] [] [])).
  let v := eval vm_compute in (serialize_one no_float (fun b => b) r) in match v with Some ?s => exists s; let w := eval vm_compute in (deserialize_one s) in match w with Some ?o => exists o end end.
  split; [vm_compute; reflexivity|]. split; vm_compute; reflexivity.
Qed.
Print Assumptions C47_no_answer_refuted.
(** An answer that says it is compressed is compressed once more when it is sent on, and nothing on the other side undoes that:
    the body there is not the body the outside server sent. *)
Theorem C47_gzip_refuted : forall gz body, body <> [] -> gz body <> [] -> gz body <> body -> (N.of_nat (List.length body) < 2 ^ 31)%N -> (N.of_nat (List.length (gz body)) < 2 ^ 31)%N ->
  exists q a, encoded gz (mkMsg (lit "HTTP/1.1 200 OK") [(lit "Content-Encoding", lit "gzip")] body) = Some q /\ deserialize (SDecodeBase64 q) = Some a /\
    msg_content a = gz body /\ msg_content a <> body.
Proof.
  intros gz body B1 B2 B3 B4 B5. set (x := mkMsg _ _ body).
  assert (L : legal x).
  { unfold x. split; [split; [discriminate|]; split; [split; discriminate|];
          intros c Hc; right; cbn [lit In msg_method] in Hc; repeat (destruct Hc as [<-|Hc]; [split; vm_compute; discriminate|]); destruct Hc|].
    split; [unfold table_ok; repeat constructor|]. split; [|exact B4]. intros k v H; cbn [msg_table In] in H. destruct H as [H|[]]; injection H as <- <-; header_case. }
  destruct (encoded_ok gz x L B5) as (b & y & E & _ & D & (_ & z & _ & Z & C)). exists (encode b), y. split; [exact E|]. split; [exact D|].
  assert (Zt : z = true). { apply Z. split; [exists (lit "gzip"); split; reflexivity|]. split; assumption. }
  subst z. cbn [msg_content x] in C. rewrite C. split; [reflexivity|exact B3].
Qed.
Print Assumptions C47_gzip_refuted.
Example C47_gzip_case : exists (gz : bytes -> bytes) (body : bytes), body <> [] /\ gz body <> [] /\ gz body <> body /\ (N.of_nat (List.length body) < 2 ^ 31)%N /\ (N.of_nat (List.length (gz body)) < 2 ^ 31)%N.
Proof. exists (fun b => lit "z" ++ b), (lit "abc"). repeat split; discriminate. Qed.
(** Nothing asks who sends the results: a client on the public port that puts them into a header of its request has a command
    with the results it wants, for example that its payment is approved. *)
Definition forged : bytes := lit "[{""created"":1,""finished"":2,""fullRequest"":""UGF5DQoNCg=="",""fullResponse"":""YXBwcm92ZWQNCg0K"",""response"":200,""timeoutAt"":9}]".
Theorem C47_forged_refuted : exists n m t c r, SParseHTTP (lit "Pay" ++ CRLF ++ lit "httpsRequests: " ++ forged ++ CRLF ++ CRLF) = Done n m t c /\
  snd (built t) = Some [r] /\ o_response r = 200%Z /\ msg_method (o_answer r) = lit "approved".
Proof.
  let v := eval vm_compute in (SParseHTTP (lit "Pay" ++ CRLF ++ lit "httpsRequests: " ++ forged ++ CRLF ++ CRLF)) in
  match v with Done ?n ?m ?t ?c => exists n, m, t, c; let w := eval vm_compute in (snd (built t)) in match w with Some [?r] => exists r end end.
  split; [vm_compute; reflexivity|]. split; [vm_compute; reflexivity|]. split; reflexivity.
Qed.
Print Assumptions C47_forged_refuted.
