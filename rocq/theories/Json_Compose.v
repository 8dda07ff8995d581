(** What the composer writes is JSON, and denotes the values it was given. *)
From Verif Require Import Base Dec Text_Spec Text_Model Text_Proofs Table Json_Spec Json_Model Json_Proofs.
Local Open Scope N_scope.

Notation NULL := (lit "null").

Lemma escape_one c rest d : c <> NUL -> json_chars rest d ->
  json_chars ((if in_set c json_unsafe || Ascii.eqb c "\" then "\"%char :: escape_char c else [c]) ++ rest) (c :: d).
Proof.
  intros Hn Hr.
  pose proof (forall_ascii (fun c => implb (negb (Ascii.eqb c NUL))
    (if in_set c json_unsafe || Ascii.eqb c "\" then
       (if (N.ltb 0 (bcode c) && N.ltb (bcode c) 32) || N.eqb (bcode c) 127 then
          if existsb (Ascii.eqb c) ["008"; "012"; "010"; "013"; "009"]%char then true
          else is_hex (hexchar_lc (bcode c / 16)) && is_hex (hexchar_lc (bcode c mod 16)) &&
               bytes_eqb (utf8_encoding (hex_number 0 (tl (u_code c)))) [c]
        else existsb (Ascii.eqb c) [quote; backslash; "/"%char])
     else N.leb 32 (bcode c) && negb (Ascii.eqb c quote) && negb (Ascii.eqb c backslash)))) as G.
  specialize (G ltac:(vm_compute; reflexivity) c). cbn beta in G.
  destruct (Ascii.eqb_spec c NUL) as [|_]; [contradiction|]. cbn [negb implb] in G.
  destruct (in_set c json_unsafe || Ascii.eqb c "\").
  - unfold escape_char.
    destruct (Ascii.eqb_spec c "008") as [E|_]; [rewrite E; apply jc_escape; [cbn; tauto|exact Hr]|].
    destruct (Ascii.eqb_spec c "012") as [E|_]; [rewrite E; apply jc_escape; [cbn; tauto|exact Hr]|].
    destruct (Ascii.eqb_spec c "010") as [E|_]; [rewrite E; apply jc_escape; [cbn; tauto|exact Hr]|].
    destruct (Ascii.eqb_spec c "013") as [E|_]; [rewrite E; apply jc_escape; [cbn; tauto|exact Hr]|].
    destruct (Ascii.eqb_spec c "009") as [E|_]; [rewrite E; apply jc_escape; [cbn; tauto|exact Hr]|].
    destruct (_ || _).
    + destruct (existsb _ _) eqn:Ex in G.
      * apply existsb_exists in Ex as (x & Hx & Ex). apply Ascii.eqb_eq in Ex. subst x. cbn [In] in Hx.
        destruct Hx as [<-|[<-|[<-|[<-|[<-|[]]]]]]; unfold u_code; cbn [app]; cbn.
        all: match goal with |- json_chars (_ :: _ :: ?a1 :: ?a2 :: ?a3 :: ?a4 :: _) _ =>
               apply (jc_unicode a1 a2 a3 a4 _ _ eq_refl eq_refl eq_refl eq_refl Hr) end.
      * apply andb_true_iff in G as [G G3]. apply andb_true_iff in G as [G1 G2]. apply bytes_eqb_eq in G3.
        unfold u_code in *. cbn [tl app] in *. change (c :: d) with ([c] ++ d). rewrite <- G3.
        apply jc_unicode; auto.
    + apply existsb_exists in G as (x & Hx & Ex). apply Ascii.eqb_eq in Ex. subst x. cbn [In] in Hx. cbn [app].
      apply jc_escape; [|exact Hr]. destruct Hx as [<-|[<-|[<-|[]]]]; cbn; tauto.
  - apply andb_true_iff in G as [G G3]. apply andb_true_iff in G as [G1 G2].
    apply N.leb_le in G1. cbn [app]. apply jc_plain; auto; intros ->; [rewrite Ascii.eqb_refl in G2|rewrite Ascii.eqb_refl in G3]; discriminate.
Qed.
Lemma escape_chars v : nul_free v -> json_chars (SEscape v json_unsafe "\") v.
Proof.
  intros H. unfold SEscape. rewrite cstr_nul_free by exact H. induction v as [|c v IH]; [constructor|].
  cbn [escape]. apply escape_one; [intros ->; apply H; left; reflexivity|]. apply IH. intros Hi. apply H. right. exact Hi.
Qed.
Lemma escape_chars_cut v : json_chars (SEscape v json_unsafe "\") (cstr v).
Proof.
  pose proof (escape_chars (cstr v) (cstr_is_nul_free v)) as H. unfold SEscape in *.
  rewrite (cstr_nul_free (cstr v)) in H by apply cstr_is_nul_free. exact H.
Qed.

Lemma forallb_In {X} (f : X -> bool) l : forallb f l = true -> forall x, In x l -> f x = true.
Proof. intros H. apply forallb_forall. exact H. Qed.
Lemma dec_is_number n sign : sign = [] \/ sign = lit "-" -> json_number (sign ++ dec n).
Proof.
  intros Hs. rewrite <- (app_nil_r (dec n)). change [] with ([] ++ [] : bytes) at 1.
  constructor; auto.
  - split; [apply dec_nonempty|]. apply forallb_In, dec_digits.
  - destruct (N.eq_dec n 0) as [-> |Hn]; [right; reflexivity|]. left.
    destruct (dec_no_leading_zero n Hn) as (d & r & -> & Hd). cbn [hd]. intros ->. apply Hd. reflexivity.
Qed.
Lemma decZ_is_number z : json_number (decZ z).
Proof.
  unfold decZ. destruct (z <? 0)%Z; [apply (dec_is_number _ (lit "-")); auto|apply (dec_is_number _ []); auto].
Qed.
Lemma fixed_is_number v : fixed_float v -> json_number v.
Proof.
  intros (sign & int & frac & -> & Hs & H1 & H2 & H3). rewrite <- (app_nil_r ("."%char :: frac)).
  constructor; auto. right. exists frac. auto.
Qed.
Lemma number_first v : json_number v -> exists c v', v = c :: v' /\ c <> "["%char /\ c <> "{"%char /\ c <> quote.
Proof.
  intros H. destruct (number_head v H) as (c & s & -> & Hc). exists c, s. split; [reflexivity|].
  destruct Hc as [Hc|[-> _]]; [|repeat split; discriminate]. repeat split; intros ->; discriminate.
Qed.
Lemma number_nul_free v : json_number v -> nul_free v.
Proof.
  assert (D : forall ds, all_digits ds -> nul_free ds).
  { intros ds [_ H] Hi. specialize (H _ Hi). discriminate. }
  intros [sign int frac ex Hs Hi _ Hf He].
  repeat apply nul_free_app; auto.
  - destruct Hs as [-> | ->]; intros Hx; repeat destruct Hx as [Hx|Hx]; discriminate || contradiction.
  - destruct Hf as [-> |(ds & -> & Hd)]; [intros []|]. intros [|Hx]; [discriminate|]. exact (D ds Hd Hx).
  - destruct He as [-> |(e & sg & ds & -> & He & Hsg & Hd)]; [intros []|].
    intros [-> |Hx]; [destruct He; discriminate|]. apply in_app_iff in Hx as [Hx|Hx]; [|exact (D ds Hd Hx)].
    destruct Hsg as [-> |[-> | ->]]; repeat destruct Hx as [Hx|Hx]; discriminate || contradiction.
Qed.
Lemma last_cons_app (c : ascii) v x : v <> [] -> last (c :: v) x = last v x.
Proof. destruct v; [congruence|reflexivity]. Qed.
Lemma ends_bracketed o c v : (2 <= List.length v)%nat -> ends o c v = true -> exists s, v = o :: s ++ [c].
Proof.
  intros Hl H. unfold ends in H. apply andb_true_iff in H as [H1 H2]. apply Ascii.eqb_eq in H1, H2.
  destruct v as [|a v]; cbn [List.length] in Hl; [lia|]. cbn [at0] in H1. subst a.
  destruct v as [|b v] using rev_ind; cbn [List.length] in Hl; [lia|]. rewrite last_cons_app in H2 by (destruct v; discriminate).
  rewrite last_last in H2. subst. eauto.
Qed.
Lemma ieqb_lower v w : ieqb v w = true -> map lower v = map lower w.
Proof. unfold ieqb. intros H. apply bytes_eqb_eq in H. exact H. Qed.
Lemma ieqb_spelt v w : In w [lit "true"; lit "false"; lit "null"] -> ~ misspelt v -> ieqb v w = true -> v = w.
Proof.
  intros Hw Hm H. apply ieqb_lower in H. destruct (bytes_eq_dec v w) as [E|E]; [exact E|]. exfalso. apply Hm. exists w.
  split; [exact Hw|]. split; [|exact E]. rewrite H. cbn [In] in Hw. destruct Hw as [<-|[<-|[<-|[]]]]; reflexivity.
Qed.

Section compose.
  Context (is_float : bytes -> bool) (float_text : forall v, is_float v = true -> fixed_float v).

  (** A value that comes back as it was: no NUL in it, not a misspelt literal, and if it looks like an array
      or an object, then it is one or is written as a string. *)
  Definition faithful (v : bytes) : Prop :=
    nul_free v /\ ~ misspelt v /\
    (bracketed v -> json_value NULL v v \/ exists b, SToJSON is_float v false = Some (quote :: b)).
  Definition faithful_string (v : bytes) : Prop := nul_free v /\ ~ misspelt v.

  Lemma P_tojson v force : nul_free v -> ~ misspelt v ->
    (force = false -> bracketed v -> json_value NULL v v \/ exists b, SToJSON is_float v false = Some (quote :: b)) ->
    exists t, SToJSON is_float v force = Some t /\ json_value NULL t v.
  Proof.
    intros Hn Hm Hb. unfold SToJSON in *.
    destruct (bytes_eqb (decZ (SToInt64 v)) v) eqn:E1.
    { apply bytes_eqb_eq in E1. exists v. split; [reflexivity|]. apply jv_number. rewrite <- E1. apply decZ_is_number. }
    destruct (is_float v) eqn:E2.
    { exists v. split; [reflexivity|]. apply jv_number, fixed_is_number, float_text, E2. }
    destruct (ieqb v (lit "true")) eqn:E3.
    { eexists. split; [reflexivity|]. rewrite (ieqb_spelt v (lit "true")); [apply jv_true| |exact Hm|exact E3]. cbn; auto. }
    destruct (ieqb v (lit "false")) eqn:E4.
    { eexists. split; [reflexivity|]. rewrite (ieqb_spelt v (lit "false")); [apply jv_false| |exact Hm|exact E4]. cbn; auto. }
    destruct (ieqb v (lit "null")) eqn:E5.
    { eexists. split; [reflexivity|]. rewrite (ieqb_spelt v NULL); [apply jv_null| |exact Hm|exact E5]. cbn; auto. }
    assert (Q : json_value NULL (""""%char :: SEscape v json_unsafe "\" ++ [""""%char]) v)
      by (apply (jv_string NULL), escape_chars, Hn).
    destruct (negb force && Nat.leb 2 (List.length v) && (ends "[" "]" v || ends "{" "}" v)) eqn:E6.
    2:{ eexists. split; [reflexivity|exact Q]. }
    apply andb_true_iff in E6 as [E6 E8]. apply andb_true_iff in E6 as [E6 E7]. apply negb_true_iff in E6. subst force.
    cbn [negb andb] in Hb. rewrite E7, E8 in Hb. cbn [andb] in Hb. apply Nat.leb_le in E7.
    assert (Hbr : bracketed v).
    { apply orb_true_iff in E8 as [E8|E8]; destruct (ends_bracketed _ _ _ E7 E8) as [s Es]; exists s; auto. }
    specialize (Hb eq_refl Hbr).
    pose proof (proj1 (fine_all NULL (fuel_for v)) v ltac:(unfold fuel_for; lia)) as (F1 & F2 & F3).
    assert (Hv : v <> []) by (intros ->; cbn in E7; lia). specialize (F2 Hn Hv).
    destruct (parse_value NULL (fuel_for v) v) as [|r a| |] eqn:Ep; try congruence.
    - eexists. split; [reflexivity|exact Q].
    - destruct r as [|x r]; [|eexists; split; [reflexivity|exact Q]].
      exists v. split; [reflexivity|]. destruct Hb as [Hb|(b & Hb)]; [exact Hb|]. injection Hb as Hb.
      destruct Hbr as [s [Es|Es]]; rewrite Es in Hb; discriminate.
  Qed.

  Lemma P_elements l : l <> [] -> Forall faithful l ->
    exists s, compose_values is_float l = Some (s ++ [","%char]) /\ json_elements NULL s l.
  Proof.
    induction l as [|v l IH]; intros Hl Hf; [congruence|]. inversion Hf as [|? ? Hv Hf']; subst.
    destruct Hv as (H1 & H2 & H3). destruct (P_tojson v false H1 H2 (fun _ => H3)) as (t & Et & Ht).
    cbn [compose_values]. rewrite Et. destruct l as [|w l].
    - cbn [compose_values]. exists t. split; [reflexivity|].
      rewrite <- (app_nil_r t). apply (je_last NULL [] t v []); auto using ws_nil.
    - destruct (IH ltac:(discriminate) Hf') as (s & Es & Hs). rewrite Es.
      exists (t ++ ","%char :: s). split; [rewrite <- app_assoc; reflexivity|].
      apply (je_more NULL [] t v [] s (w :: l)); auto using ws_nil.
  Qed.
  Lemma P_compose_array l : Forall faithful l ->
    exists s, SComposeJSONArray is_float l = Some s /\ json_array NULL s l.
  Proof.
    intros Hf. destruct l as [|v l].
    - exists (lit "[]"). split; [reflexivity|]. apply (ja_empty NULL []). apply ws_nil.
    - destruct (P_elements (v :: l) ltac:(discriminate) Hf) as (s & Es & Hs). unfold SComposeJSONArray. rewrite Es, removelast_last.
      eexists. split; [reflexivity|]. apply ja_some. exact Hs.
  Qed.

  Lemma plain_chars k : plain_name k -> json_chars k k.
  Proof.
    induction k as [|c k IH]; intros H; [constructor|]. destruct (H c (or_introl eq_refl)) as (H1 & H2 & H3).
    apply jc_plain; auto. apply IH. intros d Hd. apply H. right. exact Hd.
  Qed.
  Definition faithful_if (force : bool) (v : bytes) : Prop := if force then faithful_string v else faithful v.
  Lemma P_tojson' v force : faithful_if force v -> exists t, SToJSON is_float v force = Some t /\ json_value NULL t v.
  Proof.
    destruct force; cbn [faithful_if].
    - intros [H1 H2]. apply P_tojson; auto. discriminate.
    - intros (H1 & H2 & H3). apply P_tojson; auto.
  Qed.
  Lemma P_members t force : t <> [] -> Forall (fun p => plain_name (fst p) /\ faithful_if force (snd p)) t ->
    exists s, compose_members is_float t force = Some (s ++ [","%char]) /\ json_members NULL s t.
  Proof.
    induction t as [|[k v] t IH]; intros Hl Hf; [congruence|]. inversion Hf as [|? ? [Hk Hv] Hf']; subst. cbn [fst snd] in *.
    destruct (P_tojson' v force Hv) as (j & Ej & Hj). apply plain_chars in Hk.
    cbn [compose_members]. rewrite Ej. destruct t as [|p t].
    - cbn [compose_members]. exists (quote :: k ++ quote :: ":"%char :: j).
      split; [cbn [app]; rewrite <- app_assoc; reflexivity|].
      rewrite <- (app_nil_r j). apply (jm_last NULL [] k k [] [] j v []); auto using ws_nil.
    - destruct (IH ltac:(discriminate) Hf') as (s & Es & Hs). rewrite Es.
      exists (quote :: k ++ quote :: ":"%char :: j ++ ","%char :: s).
      split; [cbn [app]; rewrite <- !app_assoc; cbn [app]; rewrite <- !app_assoc; reflexivity|].
      apply (jm_more NULL [] k k [] [] j v [] s (p :: t)); auto using ws_nil.
  Qed.
  Lemma P_compose_object t force : Forall (fun p => plain_name (fst p) /\ faithful_if force (snd p)) t ->
    exists s, SComposeJSONObject is_float t force = Some s /\ json_object NULL s t.
  Proof.
    intros Hf. destruct t as [|p t].
    - exists (lit "{}"). split; [reflexivity|]. apply (jo_empty NULL []). apply ws_nil.
    - destruct (P_members (p :: t) force ltac:(discriminate) Hf) as (s & Es & Hs). unfold SComposeJSONObject. rewrite Es, removelast_last.
      eexists. split; [reflexivity|]. apply jo_some. exact Hs.
  Qed.
  Lemma table_of_ok t : table_ok t -> table_of t = t.
  Proof. intros H. unfold table_of. apply (tput_all t []). exact H. Qed.
End compose.
