(** C54: a query result in SQLite's JSON is read back as it was. *)
From Verif Require Import Base Dec Text_Spec Text_Model Text_Proofs Table Json_Spec Json_Model Json_Proofs Json_Compose Result_Model Qrf_Spec Qrf_Model.
Local Open Scope N_scope.

(** * Text *)
Definition char_fine (c : ascii) : bool :=
  Ascii.eqb c NUL ||
  match json_char c with
  | [x] => Ascii.eqb x c && (32 <=? bcode c) && negb (Ascii.eqb c quote) && negb (Ascii.eqb c backslash)
  | [b; e] => Ascii.eqb b backslash && existsb (fun p => Ascii.eqb (fst p) e && Ascii.eqb (snd p) c)
      [(quote, quote); (backslash, backslash); ("/", "/"); ("b", "008"); ("f", "012"); ("n", "010"); ("r", "013"); ("t", "009")]%char
  | [b; u; a1; a2; a3; a4] => Ascii.eqb b backslash && Ascii.eqb u "u" && is_hex a1 && is_hex a2 && is_hex a3 && is_hex a4 &&
      bytes_eqb (utf8_encoding (hex_number 0 [a1; a2; a3; a4])) [c]
  | _ => false
  end.
Lemma chars_fine : forall c, char_fine c = true.
Proof. apply forall_ascii. vm_compute. reflexivity. Qed.
Lemma json_char_chars c s d : c <> NUL -> json_chars s d -> json_chars (json_char c ++ s) (c :: d).
Proof.
  intros HC HS. pose proof (chars_fine c) as F. unfold char_fine in F. destruct (Ascii.eqb_spec c NUL) as [->|_]; [congruence|]. cbn [orb] in F.
  destruct (json_char c) as [|x [|e [|a1 [|a2 [|a3 [|a4 [|z r]]]]]]]; try discriminate F.
  - apply andb_prop in F as [F F4]. apply andb_prop in F as [F F3]. apply andb_prop in F as [F1 F2]. apply Ascii.eqb_eq in F1. subst x.
    apply N.leb_le in F2. cbn [app]. apply jc_plain; [exact F2| | |exact HS].
    + intros ->. rewrite Ascii.eqb_refl in F3. discriminate.
    + intros ->. rewrite Ascii.eqb_refl in F4. discriminate.
  - apply andb_prop in F as [F1 F2]. apply Ascii.eqb_eq in F1. subst x. apply existsb_exists in F2 as ([e' c'] & I & F2). apply andb_prop in F2 as [F2 F3].
    apply Ascii.eqb_eq in F2, F3. cbn [fst snd] in F2, F3. subst e' c'. cbn [app]. apply jc_escape; assumption.
  - repeat (apply andb_prop in F as [F ?]). apply Ascii.eqb_eq in F. subst x. match goal with H : Ascii.eqb e "u" = true |- _ => apply Ascii.eqb_eq in H; subst e end.
    match goal with H : bytes_eqb _ _ = true |- _ => apply bytes_eqb_eq in H; rename H into E end. cbn [app].
    change (c :: d) with ([c] ++ d). rewrite <- E. apply jc_unicode; assumption.
Qed.
Lemma text_chars t : nul_free t -> json_chars (flat_map json_char t) t.
Proof.
  induction t as [|c t IH]; intros H; cbn [flat_map]; [constructor|]. apply json_char_chars; [intros ->; apply H; left; reflexivity|].
  apply IH. intros X. apply H. right. exact X.
Qed.
Lemma blob_char_fine : forall c, is_hex (hexchar_lc (bcode c / 16)) && is_hex (hexchar_lc (bcode c mod 16)) &&
  (hex_number 0 ["0"; "0"; hexchar_lc (bcode c / 16); hexchar_lc (bcode c mod 16)]%char =? bcode c) = true.
Proof. apply (forall_ascii (fun c => is_hex (hexchar_lc (bcode c / 16)) && is_hex (hexchar_lc (bcode c mod 16)) &&
  (hex_number 0 ["0"; "0"; hexchar_lc (bcode c / 16); hexchar_lc (bcode c mod 16)]%char =? bcode c))). vm_compute. reflexivity. Qed.
(** A blob is read back as the text whose characters are numbered by its bytes, in UTF-8. *)
Definition widened (b : bytes) : bytes := flat_map (fun c => utf8_encoding (bcode c)) b.
Lemma blob_chars b : json_chars (flat_map (fun c => "\"%char :: u_code c) b) (widened b).
Proof.
  induction b as [|c b IH]; cbn [flat_map widened]; [constructor|]. pose proof (blob_char_fine c) as F. apply andb_prop in F as [F F3]. apply andb_prop in F as [F1 F2].
  apply N.eqb_eq in F3. unfold u_code. cbn [app]. unfold widened in *. cbn [flat_map]. apply (f_equal utf8_encoding) in F3. rewrite <- F3. apply jc_unicode; [reflexivity|reflexivity|exact F1|exact F2|exact IH].
Qed.
Lemma widened_ascii b : (forall c, In c b -> bcode c < 128) -> widened b = b.
Proof.
  unfold widened. induction b as [|c b IH]; intros H; [reflexivity|]. cbn [flat_map]. rewrite IH by (intros x X; apply H; right; exact X).
  unfold utf8_encoding. specialize (H c (or_introl eq_refl)). apply N.ltb_lt in H. rewrite H. cbn [app]. unfold bcode. rewrite ascii_N_embedding. reflexivity.
Qed.
Lemma escape_nothing s : (forall c, In c s -> 32 <= bcode c) -> qrfEscape s = s.
Proof.
  induction s as [|c s IH]; intros H; [reflexivity|]. cbn [qrfEscape]. assert (L : 31 <? bcode c = true) by (apply N.ltb_lt; specialize (H c (or_introl eq_refl)); lia).
  rewrite L. cbn [orb]. rewrite IH; [reflexivity|]. intros x X. apply H. right. exact X.
Qed.
Lemma hex_printable a : is_hex a = true -> 32 <= bcode a.
Proof. intros H. pose proof (forall_ascii (fun a => negb (is_hex a) || (32 <=? bcode a)) ltac:(vm_compute; reflexivity) a) as F. cbn beta in F. rewrite H in F. apply N.leb_le. exact F. Qed.
Lemma chars_printable s d : json_chars s d -> forall c, In c s -> 32 <= bcode c.
Proof.
  assert (B : 32 <= bcode backslash) by (vm_compute; discriminate). assert (U : 32 <= bcode "u"%char) by (vm_compute; discriminate).
  induction 1 as [|c s d H1 H2 H3 H IH|c x s d Hi H IH|a1 a2 a3 a4 s d H1 H2 H3 H4 H IH]; intros z Z.
  - destruct Z.
  - destruct Z as [<-|Z]; [exact H1|apply IH; exact Z].
  - destruct Z as [<-|[<-|Z]]; [exact B| |apply IH; exact Z]. cbn [In] in Hi. repeat destruct Hi as [Hi|Hi]; try contradiction; injection Hi as <- <-; vm_compute; discriminate.
  - destruct Z as [<-|[<-|[<-|[<-|[<-|[<-|Z]]]]]]; [exact B|exact U|apply hex_printable; assumption..|apply IH; exact Z].
Qed.
Lemma encode_spec t : nul_free t -> exists s, qrfEncodeText t = quote :: s ++ [quote] /\ json_chars s t.
Proof.
  intros H. exists (flat_map json_char t). pose proof (text_chars t H) as C. split; [|exact C]. unfold qrfEncodeText. rewrite cstr_nul_free by exact H.
  apply escape_nothing. intros c [<-|I]; [vm_compute; discriminate|]. apply in_app_or in I as [I|[<-|[]]]; [exact (chars_printable _ _ C c I)|vm_compute; discriminate].
Qed.

(** * Rows *)
Section rows.
  Context (jsonb : bytes -> option bytes) (cut : bytes -> bytes).
  (** A value that is not too long to be shown and, if a blob, not taken for JSON. *)
  Definition shown_in_full (v : value) : Prop := N.of_nat (List.length (rendered jsonb v)) <= nCharLimit /\ forall b, v = Blob b -> jsonb b = None.
  (** What arrives when null is to be read as [null]. *)
  Definition arrives_as (null : bytes) (v : value) : bytes := match v with Null => null | Blob b => widened b | _ => shown v end.
  Definition sound (v : value) : Prop := match v with Real t => json_number t | Text t => nul_free t | _ => True end.
  Lemma value_spec null v : sound v -> shown_in_full v -> json_value null (qrfRenderValue jsonb cut v) (arrives_as null v).
  Proof.
    intros P [L J]. unfold qrfRenderValue. replace (nCharLimit <? N.of_nat (List.length (rendered jsonb v))) with false by (symmetry; apply N.ltb_ge; exact L).
    clear L. destruct v as [|z|t|t|b]; cbn [rendered arrives_as shown sound] in *.
    - apply jv_null.
    - apply jv_number. apply decZ_is_number.
    - apply jv_number. exact P.
    - destruct (encode_spec t P) as (s & -> & C). apply jv_string. exact C.
    - rewrite (J b eq_refl). apply jv_string. apply blob_chars.
  Qed.
  Lemma row_spec null cols : forall row, cols <> [] -> Forall nul_free cols -> List.length row = List.length cols -> Forall sound row -> Forall shown_in_full row ->
    json_members null (qrfOneJsonRow jsonb cut cols row) (combine cols (map (arrives_as null) row)).
  Proof.
    induction cols as [|c cols IH]; intros row HN HC HL HP HF; [congruence|]. destruct row as [|v row]; [discriminate|].
    inversion HC as [|? ? HC1 HC2]; subst. inversion HP as [|? ? HP1 HP2]; subst. inversion HF as [|? ? HF1 HF2]; subst.
    cbn [qrfOneJsonRow map combine]. destruct (encode_spec c HC1) as (s & -> & C). pose proof (value_spec null v HP1 HF1) as V.
    destruct cols as [|c2 cols].
    - destruct row; [|discriminate]. cbn [map combine]. pose proof (jm_last null [] s c [] [] _ _ [] ws_nil C ws_nil ws_nil V ws_nil) as M.
      cbn [app] in M. cbn [app]. rewrite <- app_assoc. cbn [app]. exact M.
    - pose proof (jm_more null [] s c [] [] _ _ [] _ _ ws_nil C ws_nil ws_nil V ws_nil (IH row ltac:(discriminate) HC2 ltac:(cbn in HL |- *; lia) HP2 HF2)) as M.
      cbn [app] in M. cbn [app]. rewrite <- app_assoc. cbn [app]. exact M.
  Qed.
  Definition object_text (cols : list bytes) (row : list value) : bytes := "{"%char :: qrfOneJsonRow jsonb cut cols row ++ ["}"%char].
  Lemma object_spec null cols row : cols <> [] -> Forall nul_free cols -> List.length row = List.length cols -> Forall sound row -> Forall shown_in_full row ->
    json_object null (object_text cols row) (combine cols (map (arrives_as null) row)).
  Proof. intros H1 H2 H3 H4 H5. apply jo_some. apply row_spec; assumption. Qed.
  Lemma rows_spec cols : cols <> [] -> Forall nul_free cols -> forall rows row, Forall (fun row => List.length row = List.length cols) (row :: rows) ->
    Forall (Forall sound) (row :: rows) -> Forall (Forall shown_in_full) (row :: rows) ->
    exists s, json_elements (lit "null") s (map (object_text cols) (row :: rows)) /\
      "{"%char :: qrfOneJsonRow jsonb cut cols row ++ rows_out jsonb cut false cols rows = s ++ "]"%char :: ["010"%char].
  Proof.
    intros HN HC. induction rows as [|row2 rows IH]; intros row HL HS HF.
    - apply Forall_inv in HL, HS, HF. exists (object_text cols row). cbn [map rows_out]. split.
      + pose proof (je_last (lit "null") [] (object_text cols row) (object_text cols row) [] ws_nil) as M. cbn [app] in M. rewrite app_nil_r in M. apply M; [|apply ws_nil].
        apply (jv_object _ _ _ (object_spec (lit "null") cols row HN HC HL HS HF)).
      + unfold object_text. cbn [app]. rewrite <- app_assoc. reflexivity.
    - pose proof (Forall_inv HL) as L1. pose proof (Forall_inv HS) as S1. pose proof (Forall_inv HF) as F1.
      apply Forall_inv_tail in HL, HS, HF. destruct (IH row2 HL HS HF) as (s & E1 & E2).
      exists (object_text cols row ++ ","%char :: "010"%char :: s). cbn [map rows_out]. split.
      + assert (W : json_ws ["010"%char]) by (intros c [<-|[]]; right; right; left; reflexivity).
        assert (E1' : json_elements (lit "null") ("010"%char :: s) (map (object_text cols) (row2 :: rows))).
        { cbn [map] in *. inversion E1 as [w1 t v w2 A1 A2 A3 A4 A5|w1 t v w2 s0 l A1 A2 A3 A4 A5 A6]; subst.
          - change ("010"%char :: w1 ++ t ++ w2) with (("010"%char :: w1) ++ t ++ w2). apply je_last; [|exact A2|exact A3]. intros c [<-|X]; [apply W; left; reflexivity|apply A1; exact X].
          - change ("010"%char :: w1 ++ t ++ w2 ++ ","%char :: s0) with (("010"%char :: w1) ++ t ++ w2 ++ ","%char :: s0). apply je_more; [|exact A2|exact A3|exact A4]. intros c [<-|X]; [apply W; left; reflexivity|apply A1; exact X]. }
        pose proof (je_more (lit "null") [] (object_text cols row) (object_text cols row) [] ("010"%char :: s) (map (object_text cols) (row2 :: rows)) ws_nil) as M. cbn [app] in M. apply M; [|apply ws_nil|exact E1'].
        apply (jv_object _ _ _ (object_spec (lit "null") cols row HN HC L1 S1 F1)).
      + change ("{"%char :: qrfOneJsonRow jsonb cut cols row ++ "}"%char :: ","%char :: "010"%char :: ("{"%char :: qrfOneJsonRow jsonb cut cols row2 ++ rows_out jsonb cut false cols rows) =
          (object_text cols row ++ ","%char :: "010"%char :: s) ++ "]"%char :: ["010"%char]).
        rewrite E2. unfold object_text. cbn [app]. rewrite <- !app_assoc. reflexivity.
  Qed.
  Lemma bracket_first cols row rows : first_bracket (format_json jsonb cut cols (row :: rows)) = Some false.
  Proof. reflexivity. Qed.
  Theorem json_arrives cols rows : table_of_values cols rows -> rows <> [] -> Forall (Forall sound) rows -> Forall (Forall shown_in_full) rows ->
    deserialize_any (format_json jsonb cut cols rows) = Loaded (mkResult cols (map (map (arrives_as [])) rows)).
  Proof.
    intros (HN & HC & HL) HR HS HF. destruct rows as [|row rows]; [congruence|]. unfold deserialize_any. rewrite bracket_first.
    destruct (rows_spec cols HN HC rows row HL HS HF) as (s & E1 & E2).
    assert (E : format_json jsonb cut cols (row :: rows) = [] ++ ("["%char :: s ++ ["]"%char]) ++ ["010"%char]).
    { change ("["%char :: ("{"%char :: qrfOneJsonRow jsonb cut cols row ++ rows_out jsonb cut false cols rows) = "["%char :: (s ++ ["]"%char]) ++ ["010"%char]). rewrite E2, <- app_assoc. reflexivity. }
    rewrite E, (P_array (lit "null") [] _ _ ["010"%char] ws_nil (ja_some _ _ _ E1)). change (skip_space ["010"%char]) with (@nil ascii). cbn [map].
    assert (O : forall r, List.length r = List.length cols -> Forall sound r -> Forall shown_in_full r -> exists t, SParseJSONObject_cb (object_text cols r) [] = Some (t, combine cols (map (arrives_as []) r))).
    { intros r A B C. eexists. apply P_object0. apply object_spec; assumption. }
    assert (CF : forall r, List.length r = List.length cols -> map fst (combine cols (map (arrives_as []) r)) = cols /\ map snd (combine cols (map (arrives_as []) r)) = map (arrives_as []) r).
    { clear. induction cols as [|c cols IH]; intros [|v r] H; try discriminate; [split; reflexivity|]. cbn [map combine fst snd]. destruct (IH r ltac:(cbn in H; lia)) as [-> ->]. split; reflexivity. }
    destruct (O row (Forall_inv HL) (Forall_inv HS) (Forall_inv HF)) as [t Et]. rewrite Et.
    assert (M : exists ls, opt_map (fun x => SParseJSONObject_cb x []) (map (object_text cols) (row :: rows)) = Some ls /\ map (fun p => map snd (snd p)) ls = map (map (arrives_as [])) (row :: rows)).
    { clear E1 E2 E s HR Et t. revert HL HS HF. generalize (row :: rows). clear row rows. intros rows. induction rows as [|r rows IH]; intros HL HS HF; [exists []; split; reflexivity|].
      destruct (O r (Forall_inv HL) (Forall_inv HS) (Forall_inv HF)) as [t Et]. destruct (IH (Forall_inv_tail HL) (Forall_inv_tail HS) (Forall_inv_tail HF)) as (ls & L1 & L2).
      exists ((t, combine cols (map (arrives_as []) r)) :: ls). cbn [map opt_map]. rewrite Et, L1, L2. split; [reflexivity|]. cbn [snd]. rewrite (proj2 (CF r (Forall_inv HL))). reflexivity. }
    destruct M as (ls & M1 & M2). cbn [map] in M1. rewrite M1, M2, (proj1 (CF row (Forall_inv HL))). reflexivity.
  Qed.
End rows.

(** A query result in SQLite's JSON, of any number of rows and columns: what is read back has the same column names, the same rows in the same order and in each cell the
    text of its value. *)
Theorem C54_json : forall jsonb cut cols rows,
  table_of_values cols rows -> rows <> [] -> Forall (Forall plain) rows -> Forall (Forall (shown_in_full jsonb)) rows ->
  deserialize_any (format_json jsonb cut cols rows) = Loaded (mkResult cols (map (map shown) rows)).
Proof.
  intros jsonb cut cols rows HT HR HP HF. rewrite json_arrives; [|exact HT|exact HR| |exact HF].
  - f_equal. f_equal. apply map_ext_Forall. revert HP. apply Forall_impl. intros row HP. apply map_ext_Forall. revert HP. apply Forall_impl.
    intros v. destruct v; cbn [plain arrives_as shown]; try reflexivity. apply widened_ascii.
  - revert HP. apply Forall_impl. intros row. apply Forall_impl. intros []; cbn [plain sound]; auto.
Qed.
Print Assumptions C54_json.
(** Blobs that are not ASCII: each byte is taken for the number of a character. *)
Theorem C54_blob : forall jsonb cut cols rows,
  table_of_values cols rows -> rows <> [] -> Forall (Forall sound) rows -> Forall (Forall (shown_in_full jsonb)) rows ->
  exists got, deserialize_any (format_json jsonb cut cols rows) = Loaded (mkResult cols got) /\
    Forall2 (Forall2 (fun v g => match v with Blob b => g = flat_map (fun c => utf8_encoding (bcode c)) b | _ => g = shown v end)) rows got.
Proof.
  intros jsonb cut cols rows HT HR HP HF. eexists. split; [apply (json_arrives jsonb cut cols rows HT HR HP HF)|].
  assert (G : forall X Y (f : X -> Y) (R : X -> Y -> Prop) l, (forall x, R x (f x)) -> Forall2 R l (map f l)) by (intros X Y f R l H; induction l; constructor; auto).
  apply G. intros row. apply G. intros []; reflexivity.
Qed.
Print Assumptions C54_blob.

(** * Cases *)
Definition no_json (b : bytes) : option bytes := None.
Definition first_bytes (b : bytes) : bytes := firstn (N.to_nat nCharLimit) b ++ lit "...".
Definition some_rows : list (list value) :=
  [[Int (-5); Text (lit "a""\,}]" ++ ["010"; "001"; "200"]%char)]; [Null; Real (lit "1.5e+20")]; [Blob (lit "x" ++ [NUL]); Text []]].
Lemma json_small v : (List.length (rendered no_json v) <= 100)%nat -> shown_in_full no_json v.
Proof. intros H. split; [|reflexivity]. unfold nCharLimit. lia. Qed.
Example C54_case : let cols := [lit "n"; lit "n"] in
  table_of_values cols some_rows /\ Forall (Forall plain) some_rows /\ Forall (Forall (shown_in_full no_json)) some_rows /\
  deserialize_any (format_json no_json first_bytes cols some_rows) = Loaded (mkResult cols (map (map shown) some_rows)).
Proof.
  cbv zeta. assert (T : table_of_values [lit "n"; lit "n"] some_rows).
  { split; [discriminate|]. assert (N1 : nul_free (lit "n")) by (intros [H|[]]; discriminate H). split; [repeat (apply Forall_cons; [exact N1|]); apply Forall_nil|].
    repeat (apply Forall_cons; [reflexivity|]). apply Forall_nil. }
  assert (P : Forall (Forall plain) some_rows).
  { repeat (apply Forall_cons; [apply Forall_cons; [|apply Forall_cons; [|apply Forall_nil]]|]); try apply Forall_nil; cbn [plain]; try exact I.
    - intros H. cbn in H. repeat (destruct H as [H|H]; [discriminate|]). exact H.
    - apply (json_num [] (lit "1") (lit ".5") (lit "e+20")); [left; reflexivity| | | |].
      + split; [discriminate|]. intros c [<-|[]]; reflexivity.
      + left. discriminate.
      + right. exists (lit "5"). split; [reflexivity|]. split; [discriminate|]. intros c [<-|[]]; reflexivity.
      + right. exists "e"%char, (lit "+"), (lit "20"). split; [reflexivity|]. split; [left; reflexivity|]. split; [right; left; reflexivity|]. split; [discriminate|]. intros c [<-|[<-|[]]]; reflexivity.
    - intros c H. cbn in H. repeat (destruct H as [<-|H]; [vm_compute; reflexivity|]). destruct H.
    - intros []. }
  assert (F : Forall (Forall (shown_in_full no_json)) some_rows).
  { repeat (apply Forall_cons; [apply Forall_cons; [|apply Forall_cons; [|apply Forall_nil]]|]); try apply Forall_nil; apply json_small; apply Nat.leb_le; vm_compute; reflexivity. }
  split; [exact T|]. split; [exact P|]. split; [exact F|]. apply C54_json; [exact T|discriminate|exact P|exact F].
Qed.

(** Refuted: a result without rows is the empty text, which is no result: its column names are lost, and reading it back fails. *)
Theorem C54_no_rows_refuted : forall jsonb cut cols, format_json jsonb cut cols [] = [] /\ deserialize_any [] = Failed.
Proof. intros. split; reflexivity. Qed.
Print Assumptions C54_no_rows_refuted.
(** Refuted: an infinite number is written as the word Inf, which is not JSON.  The whole result is then read back as one without rows and without columns, and no error is reported. *)
Theorem C54_infinite_refuted : forall jsonb cut,
  deserialize_any (format_json jsonb cut [lit "a"] [[Int 1]; [Real (lit "Inf")]]) = Loaded (mkResult [] []) /\
  deserialize_any (format_json jsonb cut [lit "a"] [[Int 1]; [Real (lit "-Inf")]]) = Loaded (mkResult [] []).
Proof. intros. split; vm_compute; reflexivity. Qed.
Print Assumptions C54_infinite_refuted.
(** Refuted: a blob that is not ASCII comes back longer: the bytes of an image, say, are no longer those of the database.  NULL and the empty text come back alike. *)
Theorem C54_bytes_refuted : forall cut, deserialize_any (format_json no_json cut [lit "a"] [[Blob ["255"%char]]; [Null]; [Text []]]) = Loaded (mkResult [lit "a"] [[["195"; "191"]%char]; [[]]; [[]]]).
Proof. intros. vm_compute. reflexivity. Qed.
Print Assumptions C54_bytes_refuted.
(** Refuted: a blob that could be JSON in SQLite's binary form, such as the one byte 1, comes back as that JSON: here the word true. *)
Theorem C54_jsonb_refuted : forall cut (jsonb : bytes -> option bytes), jsonb ["001"%char] = Some (lit "true") ->
  deserialize_any (format_json jsonb cut [lit "a"] [[Blob ["001"%char]]]) = Loaded (mkResult [lit "a"] [[lit "true"]]).
Proof.
  intros cut jsonb H. rewrite (eq_refl : format_json jsonb cut [lit "a"] [[Blob ["001"%char]]] = lit "[{" ++ (qrfEncodeText (lit "a") ++ ":"%char :: qrfRenderValue jsonb cut (Blob ["001"%char]) ++ []) ++ lit "}]" ++ ["010"%char]).
  unfold qrfRenderValue. cbn [rendered]. rewrite H. vm_compute. reflexivity.
Qed.
Print Assumptions C54_jsonb_refuted.
Lemma no_quote_scan s : ~ In quote s -> ~ In backslash s -> scan_string s = None.
Proof.
  induction s as [|c s IH]; intros H1 H2; [reflexivity|]. cbn [scan_string]. destruct (Ascii.eqb c NUL); [reflexivity|].
  destruct (Ascii.eqb_spec c """") as [->|_]; [exfalso; apply H1; left; reflexivity|]. destruct (Ascii.eqb_spec c "\") as [->|_]; [exfalso; apply H2; left; reflexivity|].
  rewrite IH; [reflexivity|intros X; apply H1; right; exact X|intros X; apply H2; right; exact X].
Qed.
Lemma long_text n : (1 <= n)%nat -> nCharLimit = N.of_nat n ->
  deserialize_any (format_json no_json (fun b : bytes => firstn n b ++ lit "...") [lit "a"] [[Text (repeat "x"%char n)]]) = Loaded (mkResult [] []).
Proof.
  intros P EN. set (first_n := fun b : bytes => firstn n b ++ lit "...").
  assert (R : qrfRenderValue no_json first_n (Text (repeat "x"%char n)) = quote :: repeat "x"%char (n - 1) ++ lit "...").
  { unfold qrfRenderValue. cbn [rendered]. assert (E : qrfEncodeText (repeat "x"%char n) = quote :: repeat "x"%char n ++ [quote]).
    { unfold qrfEncodeText. rewrite cstr_nul_free by (intros H; apply repeat_spec in H; discriminate).
      assert (F : flat_map json_char (repeat "x"%char n) = repeat "x"%char n) by (clear; induction n as [|k IH]; [reflexivity|cbn [repeat flat_map]; rewrite IH; reflexivity]).
      rewrite F. apply escape_nothing. intros c [<-|I]; [vm_compute; discriminate|]. apply in_app_or in I as [I|[<-|[]]]; [apply repeat_spec in I; subst c|]; vm_compute; discriminate. }
    rewrite E. assert (L : nCharLimit <? N.of_nat (List.length (quote :: repeat "x"%char n ++ [quote])) = true).
    { apply N.ltb_lt. cbn [List.length]. rewrite app_length, repeat_length, EN. cbn [List.length]. lia. }
    rewrite L. unfold first_n. clear - P. destruct n as [|k]; [lia|]. cbn [firstn app]. f_equal. f_equal.
    replace (S k - 1)%nat with k by lia. clear. rewrite firstn_app, repeat_length. replace (k - S k)%nat with 0%nat by lia. cbn [firstn]. rewrite app_nil_r.
    replace (S k) with (k + 1)%nat by lia. rewrite repeat_app, firstn_app, repeat_length, Nat.sub_diag. cbn [firstn]. rewrite app_nil_r. apply firstn_all2. rewrite repeat_length. lia. }
  assert (E : format_json no_json first_n [lit "a"] [[Text (repeat "x"%char n)]] = lit "[{""a"":""" ++ repeat "x"%char (n - 1) ++ lit "...}]" ++ ["010"%char]).
  { unfold format_json. cbn [rows_out qrfOneJsonRow]. rewrite R. rewrite app_nil_r. change (qrfEncodeText (lit "a")) with (lit """a"""). cbn [app lit list_ascii_of_string]. rewrite <- !app_assoc. reflexivity. }
  rewrite E. set (body := repeat "x"%char (n - 1) ++ lit "...}]" ++ ["010"%char]).
  assert (S0 : scan_string body = None).
  { apply no_quote_scan; intros H; apply in_app_or in H as [H|H]; [apply repeat_spec in H; discriminate| |apply repeat_spec in H; discriminate|]; cbn in H; repeat (destruct H as [H|H]; [discriminate|]); exact H. }
  clearbody body. unfold deserialize_any. change (first_bracket (lit "[{""a"":""" ++ body)) with (Some false). cbv iota.
  assert (A : SParseJSONArray (lit "[{""a"":""" ++ body) (lit "null") = Some []).
  { unfold SParseJSONArray. change (Nat.ltb (List.length (lit "[{""a"":""" ++ body)) 2) with false. cbv iota. unfold fuel_for. rewrite app_length. change (List.length (lit "[{""a"":""")) with 7%nat.
    replace (3 * (7 + List.length body) + 6)%nat with (6 + (3 * List.length body + 21))%nat by lia. generalize (3 * List.length body + 21)%nat. intros f.
    assert (K : forall c l, is_space c = false -> skip_space (c :: l) = c :: l) by (intros c l H; cbn [skip_space]; rewrite H; reflexivity).
    assert (V : parse_value (lit "null") (S f) (quote :: body) = RNull).
    { cbn [parse_value parse_array array_loop parse_object object_loop]. rewrite K by reflexivity. change (Ascii.eqb quote """") with true. cbv iota. unfold parse_string. change (Ascii.eqb (at0 (quote :: body)) NUL) with false. cbv iota.
      rewrite K by reflexivity. change (Ascii.eqb quote """") with true. cbv iota. rewrite S0. reflexivity. }
    assert (L : object_loop (lit "null") (S (S f)) (lit """a"":""" ++ body) [] = RNull).
    { revert V. generalize (S f). intros g V. cbn [parse_value parse_array array_loop parse_object object_loop]. change (lit """a"":""" ++ body) with (quote :: (lit "a"":""" ++ body)). rewrite K by reflexivity.
      change (parse_string (quote :: lit "a"":""" ++ body)) with (RAt (lit ":""" ++ body) (SUnescape (lit "a") "\")). cbv iota.
      change (lit ":""" ++ body) with (":"%char :: quote :: body). rewrite K by reflexivity. change (Ascii.eqb ":" ":") with true. cbv iota. rewrite K by reflexivity. cbv iota. unfold parse_value in V. rewrite V. reflexivity. }
    assert (O : parse_object (lit "null") (S (S (S f))) ("{"%char :: lit """a"":""" ++ body) = RNull).
    { revert L. generalize (S (S f)). intros g L. cbn [parse_value parse_array array_loop parse_object object_loop]. rewrite K by reflexivity. change (lit """a"":""" ++ body) with (quote :: (lit "a"":""" ++ body)) in *. rewrite K by reflexivity. cbv iota. exact L. }
    assert (W : parse_value (lit "null") (S (S (S (S f)))) ("{"%char :: lit """a"":""" ++ body) = RNull).
    { revert O. generalize (S (S (S f))). intros g O. cbn [parse_value parse_array array_loop parse_object object_loop]. rewrite K by reflexivity. change (Ascii.eqb "{" """") with false. change (Ascii.eqb "{" "{") with true. cbv iota zeta. first [rewrite O|unfold parse_object in O; rewrite O]. reflexivity. }
    assert (Q : parse_array (lit "null") (6 + f) (lit "[{""a"":""" ++ body) = RNull).
    { cbn [plus]. revert W. generalize (S (S (S (S f)))). intros g W. cbn [parse_value parse_array array_loop parse_object object_loop]. change (lit "[{""a"":""" ++ body) with ("["%char :: "{"%char :: lit """a"":""" ++ body).
      rewrite K by reflexivity. change (Ascii.eqb (at0 ("["%char :: "{"%char :: lit """a"":""" ++ body)) NUL) with false. change (Ascii.eqb "[" "[") with true. cbv iota. rewrite K by reflexivity.
      change (Ascii.eqb "{" "]") with false. cbv iota. rewrite K by reflexivity. cbv iota. first [rewrite W|unfold parse_value in W; rewrite W]. reflexivity. }
    rewrite Q. reflexivity. }
  rewrite A. reflexivity.
Qed.
Lemma positive_nat l : 0 < l -> (1 <= N.to_nat l)%nat.
Proof. lia. Qed.
(** Refuted: a text of more than 16 megabytes is cut, with its closing quotation mark: the result is no JSON, and it is read back as one without rows and without columns. *)
Theorem C54_long_text_refuted : exists t, nul_free t /\ deserialize_any (format_json no_json first_bytes [lit "a"] [[Text t]]) = Loaded (mkResult [] []).
Proof.
  exists (repeat "x"%char (N.to_nat nCharLimit)). split; [intros H; apply repeat_spec in H; discriminate|].
  apply (long_text (N.to_nat nCharLimit)); [apply positive_nat; reflexivity|symmetry; apply N2Nat.id].
Qed.
Print Assumptions C54_long_text_refuted.
