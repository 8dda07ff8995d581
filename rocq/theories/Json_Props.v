(** C13 (JSON) and C44 (query results as JSON). *)
From Verif Require Import Base Dec Text_Spec Text_Model Text_Proofs Table Json_Spec Json_Model Json_Proofs Json_Compose Result_Model.
Local Open Scope N_scope.

Section statements.
  (** Which texts are what "%.6f" prints for a finite float is left open, except that such a text is an
      optional minus sign, digits, a point and digits. *)
  Context (is_float : bytes -> bool) (float_text : forall v, is_float v = true -> fixed_float v).

  (** ** C13 *)
  (** What the composer writes for a list is a JSON array of those values... *)
  Theorem C13_array_is_json l : Forall (faithful is_float) l ->
    exists s, SComposeJSONArray is_float l = Some s /\ json_array (lit "null") s l.
  Proof. apply P_compose_array, float_text. Qed.
  (** ... and the parser gives the list back. *)
  Theorem C13_array_roundtrip l : Forall (faithful is_float) l ->
    exists s, SComposeJSONArray is_float l = Some s /\ SParseJSONArray s (lit "null") = Some l.
  Proof.
    intros H. destruct (P_compose_array is_float float_text l H) as (s & Es & Hs). exists s. split; [exact Es|].
    apply P_array0. exact Hs.
  Qed.
  Theorem C13_object_is_json t force :
    Forall (fun p => plain_name (fst p) /\ faithful_if is_float force (snd p)) t ->
    exists s, SComposeJSONObject is_float t force = Some s /\ json_object (lit "null") s t.
  Proof. apply P_compose_object, float_text. Qed.
  Theorem C13_object_roundtrip t force : table_ok t ->
    Forall (fun p => plain_name (fst p) /\ faithful_if is_float force (snd p)) t ->
    exists s, SComposeJSONObject is_float t force = Some s /\ SParseJSONObject s (lit "null") = Some t.
  Proof.
    intros Ht H. destruct (P_compose_object is_float float_text t force H) as (s & Es & Hs). exists s. split; [exact Es|].
    unfold SParseJSONObject. rewrite (P_object0 _ _ _ Hs). cbn [option_map fst]. rewrite table_of_ok by exact Ht. reflexivity.
  Qed.
  (** Every string without NUL that is no literal is faithful unless it looks like an array or object. *)
  Theorem C13_plain_strings v : nul_free v -> ~ misspelt v -> ~ bracketed v -> faithful is_float v.
  Proof. intros H1 H2 H3. split; [exact H1|]. split; [exact H2|]. intros H. contradiction. Qed.
  (** Any value that does not look like an array or object, and with forceString any value at all, is written
      as a JSON value. *)
  Theorem C13_value_is_json v force : ~ bracketed v \/ force = true ->
    exists t d, SToJSON is_float v force = Some t /\ json_value (lit "null") t d.
  Proof.
    intros Hb. unfold SToJSON.
    destruct (bytes_eqb (decZ (SToInt64 v)) v) eqn:E1.
    { apply bytes_eqb_eq in E1. exists v, v. split; [reflexivity|]. apply jv_number. rewrite <- E1. apply decZ_is_number. }
    destruct (is_float v) eqn:E2; [exists v, v; split; [reflexivity|]; apply jv_number, fixed_is_number, float_text, E2|].
    destruct (ieqb v (lit "true")); [eexists _, _; split; [reflexivity|apply jv_true]|].
    destruct (ieqb v (lit "false")); [eexists _, _; split; [reflexivity|apply jv_false]|].
    destruct (ieqb v (lit "null")); [eexists _, _; split; [reflexivity|apply jv_null]|].
    destruct (negb force && Nat.leb 2 (List.length v) && (ends "[" "]" v || ends "{" "}" v)) eqn:E6.
    - exfalso. apply andb_true_iff in E6 as [E6 E8]. apply andb_true_iff in E6 as [E6 E7]. apply Nat.leb_le in E7.
      apply negb_true_iff in E6. destruct Hb as [Hb|Hb]; [|congruence]. apply Hb.
      apply orb_true_iff in E8 as [E8|E8]; destruct (ends_bracketed _ _ _ E7 E8) as [s Es]; exists s; auto.
    - eexists _, _. split; [reflexivity|]. apply (jv_string (lit "null")), escape_chars_cut.
  Qed.
  (** Composing aborts only if there is a NUL. *)
  Theorem C13_compose_never_aborts v force : nul_free v -> SToJSON is_float v force <> None.
  Proof.
    intros Hn. unfold SToJSON. repeat (case_if; [discriminate|]). case_if; [|discriminate].
    apply andb_true_iff in Heqb4 as [E6 _]. apply andb_true_iff in E6 as [_ E7]. apply Nat.leb_le in E7.
    pose proof (proj1 (fine_all (lit "null") (fuel_for v)) v ltac:(unfold fuel_for; lia)) as (F1 & F2 & F3).
    assert (Hv : v <> []) by (intros ->; cbn in E7; lia). specialize (F2 Hn Hv).
    destruct (parse_value (lit "null") (fuel_for v) v) as [|r a| |]; try congruence. destruct r; congruence.
  Qed.
End statements.

(** The parser reads every JSON text, whoever wrote it: the values in order, or the table they denote. *)
Theorem C13_reads_array null w s l w' : json_ws w -> json_array null s l -> json_ws w' ->
  SParseJSONArray (w ++ s ++ w') null = Some l.
Proof.
  intros Hw H Hw'. rewrite (P_array null w s l w' Hw H), skip_space_all by (apply ws_is_space; exact Hw'). reflexivity.
Qed.
Theorem C13_reads_object null w s l w' : json_ws w -> json_object null s l -> json_ws w' ->
  exists t, SParseJSONObject_cb (w ++ s ++ w') null = Some (t, l) /\ SParseJSONObject (w ++ s ++ w') null = Some t /\ denotes l t.
Proof.
  intros Hw H Hw'. exists (table_of l). unfold SParseJSONObject.
  rewrite (P_object null w s l w' Hw H), skip_space_all by (apply ws_is_space; exact Hw').
  split; [reflexivity|]. split; [reflexivity|]. apply table_of_denotes.
Qed.
(** Anything but white space behind the array or object: nothing is returned. *)
Theorem C13_trailing_garbage null w s l r c : json_ws w -> json_array null s l -> In c r -> is_space c = false ->
  SParseJSONArray (w ++ s ++ r) null = Some [].
Proof.
  intros Hw H Hi Hc. rewrite (P_array null w s l r Hw H). destruct (skip_space r) eqn:E; [|reflexivity].
  exfalso. exact (skip_space_nonempty r c Hi Hc E).
Qed.
Theorem C13_trailing_garbage_object null w s l r c : json_ws w -> json_object null s l -> In c r -> is_space c = false ->
  SParseJSONObject (w ++ s ++ r) null = Some [].
Proof.
  intros Hw H Hi Hc. unfold SParseJSONObject. rewrite (P_object null w s l r Hw H). destruct (skip_space r) eqn:E; [|reflexivity].
  exfalso. exact (skip_space_nonempty r c Hi Hc E).
Qed.
(** Whatever the text is, the parser returns, unless there is a NUL in it. *)
Theorem C13_parser_never_aborts s null : nul_free s ->
  SParseJSONArray s null <> None /\ SParseJSONObject s null <> None.
Proof.
  intros Hn. unfold SParseJSONArray, SParseJSONObject, SParseJSONObject_cb.
  destruct (Nat.ltb_spec (List.length s) 2) as [|Hl]; [split; discriminate|].
  assert (Hs : s <> []) by (intros ->; cbn in Hl; lia).
  destruct (fine_all null (fuel_for s)) as (_ & Fa & _ & Fo & _).
  destruct (Fa s ltac:(unfold fuel_for; lia) ltac:(unfold fuel_for; lia)) as (A1 & A2 & _).
  destruct (Fo s ltac:(unfold fuel_for; lia) ltac:(unfold fuel_for; lia)) as (B1 & B2 & _).
  specialize (A2 Hn Hs). specialize (B2 Hn Hs). split.
  - destruct (parse_array null (fuel_for s) s); congruence.
  - destruct (parse_object null (fuel_for s) s); cbn [option_map]; congruence.
Qed.
(** The abort is the NUL check and not the bound of the model: with any larger bound the answer is the same
    question, so the model never stops for lack of fuel. *)
Theorem C13_model_terminates s null :
  parse_array null (fuel_for s) s <> RFuel /\ parse_object null (fuel_for s) s <> RFuel /\ parse_value null (fuel_for s) s <> RFuel.
Proof.
  destruct (fine_all null (fuel_for s)) as (Fv & Fa & _ & Fo & _).
  split; [|split]; [apply Fa|apply Fo|apply Fv]; unfold fuel_for; lia.
Qed.
(** A string between quotes comes back as the bytes it was made from. *)
Theorem C13_string_roundtrip v : nul_free v ->
  SParseJSONArray ("["%char :: quote :: SEscape v json_unsafe "\" ++ [quote; "]"%char]) (lit "null") = Some [v].
Proof.
  intros Hn. pose proof (jv_string (lit "null") _ _ (escape_chars v Hn)) as Hv.
  pose proof (je_last (lit "null") [] _ _ [] ws_nil Hv ws_nil) as He. apply ja_some in He.
  cbn [app] in He. rewrite app_nil_r in He.
  pose proof (P_array0 _ _ _ He) as P.
  rewrite <- P. f_equal. cbn [app]. rewrite <- app_assoc. reflexivity.
Qed.

(** ** Where the full statements fail *)
Definition no_float (v : bytes) : bool := false.
Lemma no_float_text v : no_float v = true -> fixed_float v. Proof. discriminate. Qed.

(** A text that breaks off is read as if it were complete: data with the closing brace missing is accepted. *)
Theorem C13_truncated_accepted_refuted :
  SParseJSONObject (lit "{""a"":1") (lit "null") = Some [(lit "a", lit "1")] /\
  SParseJSONArray (lit "[1,[2") (lit "null") = Some [lit "1"; lit "[2"] /\
  SParseJSONObject (lit "{""a"":1,""b""") (lit "null") = Some [(lit "a", lit "1")].
Proof. split; [|split]; vm_compute; reflexivity. Qed.
(** A missing element is read as an empty string. *)
Theorem C13_missing_element_refuted :
  SParseJSONArray (lit "[1,]") (lit "null") = Some [lit "1"; []] /\
  SParseJSONArray (lit "[,]") (lit "null") = Some [[]; []] /\
  SParseJSONObject (lit "{""a"":}") (lit "null") = Some [(lit "a", [])].
Proof. split; [|split]; vm_compute; reflexivity. Qed.
(** Names are not escaped: a quote in a name changes the structure of the object. *)
Theorem C13_name_injection_refuted : exists t s, table_ok t /\
  SComposeJSONObject no_float t true = Some s /\ SParseJSONObject s (lit "null") = Some [(lit "a", lit "1"); (lit "b", lit "2")] /\
  t = [(lit "a"":1,""b", lit "2")].
Proof.
  eexists _, _. split; [|split; [|split; [|reflexivity]]]; [|vm_compute; reflexivity|].
  - repeat constructor.
  - vm_compute. reflexivity.
Qed.
(** A value cut off behind an inner bracket passes for JSON and is copied as it is: the list changes. *)
Theorem C13_unbalanced_value_refuted : exists l s,
  l = [lit "[[1]"; lit "x"] /\ SComposeJSONArray no_float l = Some s /\
  SParseJSONArray s (lit "null") = Some [lit "[[1],""x""]"].
Proof. eexists _, _. split; [reflexivity|]. split; [vm_compute; reflexivity|]. vm_compute. reflexivity. Qed.
(** Strings that spell a literal in capitals come back in small letters. *)
Theorem C13_capitals_refuted : exists s,
  SComposeJSONArray no_float [lit "TRUE"; lit "Null"] = Some s /\ SParseJSONArray s (lit "null") = Some [lit "true"; lit "null"].
Proof. eexists. split; [vm_compute; reflexivity|]. vm_compute. reflexivity. Qed.
(** What follows a NUL is lost. *)
Theorem C13_nul_cut_refuted : exists s,
  SComposeJSONArray no_float [["a"; "000"; "b"]%char] = Some s /\ SParseJSONArray s (lit "null") = Some [lit "a"].
Proof. eexists. split; [vm_compute; reflexivity|]. vm_compute. reflexivity. Qed.
(** A NUL where a name should begin stops the process: reading it, and also writing a value that has it,
    such as the blob of SELECT x'7B007D' in a query answered in JSON.  A header value reaches the parser
    with such a byte if the client sends the six characters \u0000. *)
Theorem C13_nul_aborts_refuted :
  let blob := ["{"; "000"; "}"]%char in
  SParseJSONObject blob (lit "null") = None /\ SToJSON no_float blob false = None /\
  serializeToJSON no_float (mkResult [lit "x"] [[blob]]) = None /\ SUnescape (lit "{\u0000}") "\" = blob.
Proof. cbv zeta. split; [|split; [|split]]; vm_compute; reflexivity. Qed.
(** A surrogate pair is not one character: U+1F600 should be the four bytes F0 9F 98 80. *)
Theorem C13_surrogate_pair_refuted :
  json_array (lit "null") (lit "[""\ud83d\ude00""]") [["237"; "160"; "189"; "237"; "184"; "128"]%char] /\
  SParseJSONArray (lit "[""\ud83d\ude00""]") (lit "null") = Some [["237"; "160"; "189"; "237"; "184"; "128"]%char].
Proof.
  split; [|vm_compute; reflexivity].
  apply (ja_some (lit "null") (lit """\ud83d\ude00""")).
  apply (je_last (lit "null") [] (lit """\ud83d\ude00""") _ [] ws_nil); [|apply ws_nil].
  apply (jv_string (lit "null") (lit "\ud83d\ude00")).
  apply (jc_unicode "d" "8" "3" "d" _ (["237"; "184"; "128"]%char)); try reflexivity.
  apply (jc_unicode "d" "e" "0" "0" [] []); try reflexivity. constructor.
Qed.

(** ** C44 *)
Lemma json_nul_free null : (forall t v, json_value null t v -> nul_free t) /\ (forall s l, json_array null s l -> nul_free s) /\
  (forall s l, json_elements null s l -> nul_free s) /\ (forall s l, json_object null s l -> nul_free s) /\
  (forall s l, json_members null s l -> nul_free s).
Proof.
  assert (W : forall w, json_ws w -> nul_free w).
  { intros w Hw Hi. specialize (Hw _ Hi). cbn [In] in Hw. repeat destruct Hw as [Hw|Hw]; discriminate || contradiction. }
  assert (C : forall c s, c <> NUL -> nul_free s -> nul_free (c :: s)).
  { intros c s Hc Hs [Hi|Hi]; [congruence|exact (Hs Hi)]. }
  assert (N0 : nul_free []) by (intros []).
  apply json_mutind; intros;
    repeat match goal with
    | H : json_chars _ _ |- _ => apply chars_nul_free in H
    | |- nul_free (_ ++ _) => apply nul_free_app
    | |- nul_free (_ :: _) => apply C; [discriminate|]
    end; auto using number_nul_free;
    intros Hi; cbn in Hi; repeat destruct Hi as [Hi|Hi]; discriminate || contradiction.
Qed.
Lemma array_faithful isf s l : json_array (lit "null") s l -> faithful isf s.
Proof.
  intros H. split; [apply (proj1 (proj2 (json_nul_free (lit "null"))) s l H)|].
  destruct (array_head _ _ _ H) as [s' Es]. split.
  - intros (w & Hw & E & _). rewrite Es in E. cbn [map] in E. cbn [In] in Hw.
    destruct Hw as [<-|[<-|[<-|[]]]]; discriminate.
  - intros _. left. eapply jv_array. exact H.
Qed.
(** A query result with as many cells in each row as there are headers survives being written as JSON. *)
Theorem C44_result_roundtrip is_float (float_text : forall v, is_float v = true -> fixed_float v) r :
  Forall (faithful is_float) (headers r) -> Forall (Forall (faithful is_float)) (rows r) ->
  Forall (fun row => List.length row = List.length (headers r)) (rows r) ->
  exists s, serializeToJSON is_float r = Some s /\ deserialize s = Loaded r.
Proof.
  destruct r as [hs rs]. cbn [headers rows]. intros Hh Hr Hn.
  destruct (P_compose_array is_float float_text hs Hh) as (h & Eh & Jh).
  assert (X : exists ts, opt_map (SComposeJSONArray is_float) rs = Some ts /\ Forall (faithful is_float) ts /\
                         opt_map (fun j => SParseJSONArray j (lit "null")) ts = Some rs).
  { clear Hn. induction rs as [|row rs IH]; [exists []; repeat split; constructor|].
    inversion Hr as [|? ? Hr1 Hr2]; subst. destruct (IH Hr2) as (ts & E1 & E2 & E3).
    destruct (P_compose_array is_float float_text row Hr1) as (t & Et & Jt).
    exists (t :: ts). cbn [opt_map]. rewrite Et, E1. split; [reflexivity|]. split.
    - constructor; [eapply array_faithful; exact Jt|exact E2].
    - rewrite E3. rewrite (P_array0 _ _ _ Jt). reflexivity. }
  destruct X as (ts & E1 & E2 & E3).
  destruct (P_compose_array is_float float_text ts E2) as (rj & Er & Jr).
  unfold serializeToJSON. cbn [headers rows]. rewrite Eh, E1, Er.
  change (tput (lit "rows") rj (tput (lit "headers") h [])) with [(lit "headers", h); (lit "rows", rj)].
  assert (Ht : table_ok [(lit "headers", h); (lit "rows", rj)]) by (repeat constructor).
  assert (K : forall k, In k [lit "headers"; lit "rows"] -> plain_name k).
  { intros k Hk c Hc. cbn [In] in Hk. destruct Hk as [<-|[<-|[]]]; cbn [lit list_ascii_of_string In] in Hc;
      repeat destruct Hc as [<-|Hc]; try contradiction; repeat split; discriminate. }
  assert (Hf : Forall (fun p => plain_name (fst p) /\ faithful_if is_float false (snd p)) [(lit "headers", h); (lit "rows", rj)]).
  { constructor; [|constructor; [|constructor]]; cbn [fst snd faithful_if]; (split; [apply K; cbn; auto|eapply array_faithful; eassumption]). }
  destruct (P_compose_object is_float float_text _ false Hf) as (s & Es & Js). exists s. split; [exact Es|].
  unfold deserialize. destruct (object_head _ _ _ Js) as [s' Es']. rewrite Es' at 1. cbn [is_object]. rewrite Ascii.eqb_refl. cbn [negb].
  unfold SParseJSONObject. rewrite (P_object0 _ _ _ Js). cbn [option_map fst]. rewrite table_of_ok by exact Ht.
  change (tfind (lit "headers") [(lit "headers", h); (lit "rows", rj)]) with (Some h).
  change (tfind (lit "rows") [(lit "headers", h); (lit "rows", rj)]) with (Some rj). cbv iota beta.
  rewrite (P_array0 _ _ _ Jh), (P_array0 _ _ _ Jr), E3.
  assert (Hall : forallb (fun row => Nat.eqb (List.length row) (List.length hs)) rs = true).
  { apply forallb_forall. intros row Hi. rewrite Forall_forall in Hn. apply Nat.eqb_eq, Hn, Hi. }
  rewrite Hall. reflexivity.
Qed.

(** ** The hypotheses can be met *)
Definition demo : list bytes := [lit "12"; lit "it's a ""test"" \ /"; lit "-3"; lit "{""a"":[1, 2]}"; lit "null"; []; lit "1.5"; lit "[nope]"; ["010"; "127"; "200"]%char].
Example ex_demo_faithful : Forall (faithful no_float) demo.
Proof.
  assert (H : forall v, forallb (fun c => negb (Ascii.eqb c NUL)) v = true -> nul_free v).
  { intros v Hv Hi. rewrite forallb_forall in Hv. specialize (Hv _ Hi). discriminate. }
  assert (Hm : forall v, forallb (fun w => negb (bytes_eqb (map lower v) w) || bytes_eqb v w) [lit "true"; lit "false"; lit "null"] = true -> ~ misspelt v).
  { intros v Hv (w & Hw & E1 & E2). rewrite forallb_forall in Hv. specialize (Hv w Hw). cbn beta in Hv.
    rewrite E1, bytes_eqb_refl in Hv. cbn in Hv. apply bytes_eqb_eq in Hv. contradiction. }
  assert (Hq : forall v b, SToJSON no_float v false = Some (quote :: b) -> nul_free v -> ~ misspelt v -> faithful no_float v).
  { intros v b E H1 H2. split; [exact H1|]. split; [exact H2|]. intros _. right. exists b. exact E. }
  assert (Hnb : forall v c v', v = c :: v' -> c <> "["%char -> c <> "{"%char -> nul_free v -> ~ misspelt v -> faithful no_float v).
  { intros v c v' -> H1 H2 H3 H4. split; [exact H3|]. split; [exact H4|]. intros (s & [E|E]); injection E as E _; contradiction. }
  unfold demo. repeat (apply Forall_cons); [| | | | | | | | |apply Forall_nil].
  - eapply Hnb; [reflexivity|discriminate|discriminate|apply H; reflexivity|apply Hm; reflexivity].
  - eapply Hq; [vm_compute; reflexivity|apply H; reflexivity|apply Hm; reflexivity].
  - eapply Hnb; [reflexivity|discriminate|discriminate|apply H; reflexivity|apply Hm; reflexivity].
  - split; [apply H; reflexivity|]. split; [apply Hm; reflexivity|].
    intros _. left. apply (jv_object (lit "null") _ [(lit "a", lit "[1, 2]")]).
    apply (jo_some (lit "null") (lit """a"":[1, 2]")).
    apply (jm_last (lit "null") [] (lit "a") (lit "a") [] [] (lit "[1, 2]") (lit "[1, 2]") []); try apply ws_nil.
    + apply jc_plain; try discriminate. constructor.
    + apply (jv_array (lit "null") _ [lit "1"; lit "2"]).
      apply (ja_some (lit "null") (lit "1, 2")).
      apply (je_more (lit "null") [] (lit "1") (lit "1") [] (lit " 2")); try apply ws_nil.
      * apply jv_number. apply (decZ_is_number 1).
      * apply (je_last (lit "null") (lit " ") (lit "2") (lit "2") []); [|apply jv_number; apply (decZ_is_number 2)|apply ws_nil].
        intros c [<-|[]]. cbn; auto.
  - eapply Hnb; [reflexivity|discriminate|discriminate|apply H; reflexivity|apply Hm; reflexivity].
  - split; [apply H; reflexivity|]. split; [apply Hm; reflexivity|]. intros (s & [E|E]); discriminate.
  - eapply Hq; [vm_compute; reflexivity|apply H; reflexivity|apply Hm; reflexivity].
  - eapply Hq; [vm_compute; reflexivity|apply H; reflexivity|apply Hm; reflexivity].
  - eapply Hq; [vm_compute; reflexivity|apply H; reflexivity|apply Hm; reflexivity].
Qed.
Example ex_demo : exists s, SComposeJSONArray no_float demo = Some s /\ SParseJSONArray s (lit "null") = Some demo.
Proof. exact (C13_array_roundtrip no_float no_float_text demo ex_demo_faithful). Qed.
Example ex_demo_text : SComposeJSONArray no_float [lit "12"; lit "a""b"; lit "1.5"; lit "[1]"] = Some (lit "[12,""a\""b"",""1.5"",[1]]").
Proof. vm_compute. reflexivity. Qed.
Example ex_result : exists s, serializeToJSON no_float (mkResult [lit "id"; lit "v"] [[lit "1"; lit "x"]; [lit "2"; lit "y,"]]) = Some s /\
  deserialize s = Loaded (mkResult [lit "id"; lit "v"] [[lit "1"; lit "x"]; [lit "2"; lit "y,"]]).
Proof. eexists. split; [vm_compute; reflexivity|]. vm_compute. reflexivity. Qed.
Example ex_object_case : SParseJSONObject (lit "{""a"":1,""A"":2}") (lit "null") = Some [(lit "a", lit "2")].
Proof. vm_compute. reflexivity. Qed.

Print Assumptions C13_array_is_json.
Print Assumptions C13_array_roundtrip.
Print Assumptions C13_object_is_json.
Print Assumptions C13_object_roundtrip.
Print Assumptions C13_plain_strings.
Print Assumptions C13_value_is_json.
Print Assumptions C13_compose_never_aborts.
Print Assumptions C13_reads_array.
Print Assumptions C13_reads_object.
Print Assumptions C13_trailing_garbage.
Print Assumptions C13_trailing_garbage_object.
Print Assumptions C13_parser_never_aborts.
Print Assumptions C13_model_terminates.
Print Assumptions C13_string_roundtrip.
Print Assumptions C44_result_roundtrip.
