(** Properties C09 (hex), C10 (URI), C11 (SQL quoting), C12 (lists), C41 (constant-time
    comparison), C42 (escaping). *)
From Verif Require Import Base Dec Text_Spec Text_Model Text_Proofs.
Local Open Scope N_scope.

(** ** C09 *)
(** Every byte string survives hex encoding. *)
Theorem C09_bytes_roundtrip : forall s, SStrFromHex (SToHexS s) = s.
Proof. exact SStrFromHex_SToHexS. Qed.
Print Assumptions C09_bytes_roundtrip.

(** Every well-formed hex string survives decoding, up to letter case. *)
Theorem C09_hex_roundtrip : forall h,
  Nat.even (List.length h) = true -> forallb is_hex h = true -> SToHexS (SStrFromHex h) = map upper h.
Proof.
  intros h He HF. apply Nat.even_spec in He as [n Hn]. apply (SToHexS_SStrFromHex n); assumption.
Qed.
Print Assumptions C09_hex_roundtrip.

(** So different byte strings (for instance hashes) have different hex strings. *)
Theorem C09_hex_injective : forall a b, SToHexS a = SToHexS b -> a = b.
Proof. intros a b H. rewrite <- (C09_bytes_roundtrip a), <- (C09_bytes_roundtrip b), H. reflexivity. Qed.
Print Assumptions C09_hex_injective.

(** Integers: the rendering has the requested number of hex digits, and reading it back gives
    the value modulo 16^digits; so a 64-bit value with 16 digits survives. *)
Theorem C09_integer_roundtrip : forall v digits, (digits <= 16)%nat ->
  List.length (SToHexN v digits) = digits /\ forallb is_hex (SToHexN v digits) = true /\
  SFromHex (SToHexN v digits) = v mod 16 ^ N.of_nat digits.
Proof.
  intros v d Hd. unfold SToHexN, SFromHex. destruct (to_hex_num_spec d v []) as (l & E & L & F & V).
  rewrite E, app_nil_r. split; [exact L|]. split; [exact F|].
  rewrite from_hex_number; [rewrite V; lia|exact F| |lia].
  apply N.neq_0_lt_0, N.pow_nonzero. lia.
Qed.
Print Assumptions C09_integer_roundtrip.

(** Reading a number: the positional value of the digits, in either case. *)
Theorem C09_reads_hex_number : forall l, forallb is_hex l = true -> (List.length l <= 16)%nat ->
  SFromHex l = hex_number 0 l.
Proof.
  intros l HF Hl. apply from_hex_number; try assumption. apply N.neq_0_lt_0, N.pow_nonzero. lia.
Qed.
Print Assumptions C09_reads_hex_number.

(** Trailing garbage is ignored after at most 15 digits... *)
Theorem C09_trailing_garbage : forall l c r, forallb is_hex l = true -> is_hex c = false -> (List.length l <= 15)%nat ->
  SFromHex (l ++ c :: r) = hex_number 0 l.
Proof.
  intros l c r HF Hc Hl. apply from_hex_stop; try assumption. apply N.neq_0_lt_0, N.pow_nonzero. lia.
Qed.
Print Assumptions C09_trailing_garbage.
(** A byte that is no digit after 16 digits destroys the top digit (the "undone" shift has lost it). *)
Theorem C09_trailing_garbage_16_refuted : exists l c,
  forallb is_hex l = true /\ is_hex c = false /\ List.length l = 16%nat /\
  SFromHex l <> SFromHex (l ++ [c]).
Proof. exists (lit "FFFFFFFFFFFFFFFF"), " "%char. repeat split; try reflexivity. vm_compute. discriminate. Qed.
Print Assumptions C09_trailing_garbage_16_refuted.

Example C09_case : SToHexS (lit "Az" ++ ["255"%char; "000"%char]) = lit "417AFF00" /\ forallb is_hex (lit "417aFF00") = true /\
  SFromHex (SToHexN 48879 8) = 48879.
Proof. vm_compute. auto. Qed.

(** ** C10 *)
(** Every byte string survives URI encoding. *)
Theorem C10_component_roundtrip : forall s, SDecodeURIComponent (SEncodeURIComponent s) = s.
Proof. intros s. apply decode_uri_encode. lia. Qed.
Print Assumptions C10_component_roundtrip.

(** The encoding contains only safe characters, so it cannot be confused with a delimiter. *)
Theorem C10_encoding_is_safe : forall s c, In c (SEncodeURIComponent s) ->
  uri_safe c = true /\ ~ In c (lit "/?&=# ").
Proof.
  intros s c H. pose proof (encode_safe s) as E. rewrite forallb_forall in E. specialize (E c H).
  split; [exact E|]. intros Hi. cbn in Hi.
  repeat (destruct Hi as [<-|Hi]; [discriminate E|]). exact Hi.
Qed.
Print Assumptions C10_encoding_is_safe.

(** A path and parameters written with encoded components are read back exactly, whatever
    bytes they contain, when the names differ (case-insensitively). *)
Theorem C10_uri_path_roundtrip : forall path pairs,
  path <> [] -> NoDup (map (fun p => map lower (fst p)) pairs) ->
  SParseURIPath (SEncodeURIComponent path ++ "?"%char :: join ["&"%char] (map encode_pair pairs))
  = (true, path, pairs).
Proof.
  intros path pairs Hp Hn. unfold SParseURIPath.
  rewrite decode_until_encode; [|reflexivity|lia|right; eauto].
  cbn [app skipn]. rewrite parse_pairs_encode by (rewrite app_length; cbn; lia).
  rewrite tset_fold_distinct by exact Hn. cbn [app]. destruct path; [contradiction|reflexivity].
Qed.
Print Assumptions C10_uri_path_roundtrip.

Example C10_case : SEncodeURIComponent (lit "a b&c=%/+") = lit "a+b%26c%3D%25%2F%2B" /\
  SParseURIPath (lit "/x%20y?Name=J%26J&q=a+b") = (true, lit "/x y", [(lit "Name", lit "J&J"); (lit "q", lit "a b")]).
Proof. vm_compute. auto. Qed.

(** ** C11 *)
(** A quoted string, put anywhere in SQL text, is read back by SQLite's tokenizer as exactly
    one literal whose value is the string (up to its first NUL): nothing in the string can
    end the literal early, provided the text that follows does not itself start with a quote. *)
Theorem C11_quoted_string_is_one_literal : forall s rest,
  (forall r, rest <> "'"%char :: r) -> sql_literal (SQ s ++ rest) = Some (cstr s, rest).
Proof. exact sql_literal_SQ. Qed.
Print Assumptions C11_quoted_string_is_one_literal.

(** For strings without NUL the value is the string itself. *)
Theorem C11_value_is_exact : forall s rest, nul_free s ->
  (forall r, rest <> "'"%char :: r) -> sql_literal (SQ s ++ rest) = Some (s, rest).
Proof. intros s rest Hs Hr. rewrite sql_literal_SQ by exact Hr. rewrite cstr_nul_free by exact Hs. reflexivity. Qed.
Print Assumptions C11_value_is_exact.

(** With a NUL byte the value is silently cut. *)
Theorem C11_nul_truncates_refuted : exists s, sql_literal (SQ s) <> Some (s, []).
Proof. exists ("a"%char :: NUL :: lit "b"). vm_compute. discriminate. Qed.
Print Assumptions C11_nul_truncates_refuted.

(** A list of quoted strings, as used inside IN ( ... ), is read back as exactly that list. *)
Theorem C11_quoted_list : forall l rest, l <> [] ->
  (forall r, rest <> "'"%char :: r) -> (forall r, rest <> ","%char :: " "%char :: r) ->
  sql_literals (List.length l) (SQListC l ++ rest) = Some (map cstr l, rest).
Proof.
  intros l rest Hl Hr Hc. unfold SQListC. rewrite SComposeList_join.
  destruct l as [|s l]; [contradiction|]. clear Hl. revert s. induction l as [|t l IH]; intros s.
  - cbn [map join List.length sql_literals]. rewrite sql_literal_SQ by exact Hr.
    destruct rest as [|x [|y rest]]; [reflexivity| |].
    + destruct x as [[] [] [] [] [] [] [] []]; reflexivity.
    + assert (E : x <> ","%char \/ y <> " "%char).
      { destruct (Ascii.eqb_spec x ","); [|auto]. destruct (Ascii.eqb_spec y " "); [|auto]. subst. exfalso. eapply Hc. reflexivity. }
      destruct E as [E|E].
      * destruct x as [[] [] [] [] [] [] [] []]; try reflexivity. contradiction E; reflexivity.
      * destruct x as [[] [] [] [] [] [] [] []]; try reflexivity.
        destruct y as [[] [] [] [] [] [] [] []]; try reflexivity. contradiction E; reflexivity.
  - change (join (lit ", ") (map SQ (s :: t :: l))) with (SQ s ++ lit ", " ++ join (lit ", ") (map SQ (t :: l))).
    rewrite <- !app_assoc. change (List.length (s :: t :: l)) with (S (List.length (t :: l))).
    cbn [sql_literals]. rewrite sql_literal_SQ by (cbn; discriminate).
    change (lit ", ") with [","%char; " "%char] in *. cbn [app]. rewrite IH. reflexivity.
Qed.
Print Assumptions C11_quoted_list.

(** SQList on text in its default integers-only mode produces only integers: the output is
    the comma-separated decimal rendering of 64-bit integers, each an element of the input. *)
Theorem C11_integer_list_is_integers : forall val,
  exists zs, SQListInts val = join (lit ", ") (map decZ zs) /\
    Forall (fun z => (-9223372036854775808 <= z <= 9223372036854775807)%Z) zs /\
    (forall z, In z zs -> In (decZ z) (SParseList val ",")).
Proof.
  intros val. unfold SQListInts. rewrite SComposeList_join.
  set (f := fun d => negb (bytes_eqb (decZ (SToInt64 d)) []) && bytes_eqb (decZ (SToInt64 d)) d).
  exists (map SToInt64 (filter f (SParseList val ","))).
  assert (M : map decZ (map SToInt64 (filter f (SParseList val ","))) = filter f (SParseList val ",")).
  { rewrite map_map. rewrite <- (map_id (filter f _)) at 2. apply map_ext_in. intros d Hd.
    apply filter_In in Hd as [_ Hd]. apply andb_true_iff in Hd as [_ Hd]. apply bytes_eqb_eq. exact Hd. }
  split; [rewrite M; reflexivity|]. split.
  - apply Forall_forall. intros z Hz. apply in_map_iff in Hz as (d & <- & _). apply SToInt64_range.
  - intros z Hz. apply (in_map decZ) in Hz. rewrite M in Hz. apply filter_In in Hz. tauto.
Qed.
Print Assumptions C11_integer_list_is_integers.

(** In particular its characters are digits, minus signs, commas and spaces. *)
Theorem C11_integer_list_alphabet : forall val c, In c (SQListInts val) -> In c (lit "0123456789-, ").
Proof.
  intros val c Hc. destruct (C11_integer_list_is_integers val) as (zs & E & _). rewrite E in Hc. clear E.
  assert (D : forall z x, In x (decZ z) -> In x (lit "0123456789-, ")).
  { intros z x Hx. unfold decZ in Hx.
    assert (Hd : forall n y, In y (dec n) -> In y (lit "0123456789-, ")).
    { intros n y Hy. pose proof (dec_digits n) as F. rewrite forallb_forall in F. specialize (F y Hy).
      pose proof (implb_forall is_digit (fun y => existsb (Ascii.eqb y) (lit "0123456789-, "))) as G.
      specialize (G ltac:(vm_compute; reflexivity) y F). cbn beta in G. apply existsb_exists in G as (w & Hw & Ew).
      apply Ascii.eqb_eq in Ew. subst. exact Hw. }
    destruct (z <? 0)%Z; [destruct Hx as [<-|Hx]; [cbn; tauto|]|]; eapply Hd; exact Hx. }
  induction zs as [|z zs IH]; [easy|]. destruct zs as [|w zs].
  - cbn in Hc. eapply D. exact Hc.
  - change (join (lit ", ") (map decZ (z :: w :: zs))) with (decZ z ++ lit ", " ++ join (lit ", ") (map decZ (w :: zs))) in Hc.
    apply in_app_iff in Hc as [Hc|Hc]; [eapply D; exact Hc|].
    apply in_app_iff in Hc as [Hc|Hc]; [|auto]. cbn in Hc. destruct Hc as [<-|[<-|[]]]; cbn; tauto.
Qed.
Print Assumptions C11_integer_list_alphabet.

Example C11_case : SQ (lit "O'Brien'); DROP TABLE x;--") = lit "'O''Brien''); DROP TABLE x;--'" /\
  sql_literal (SQ (lit "O'Brien'); DROP TABLE x;--") ++ lit ", 1)") = Some (lit "O'Brien'); DROP TABLE x;--", lit ", 1)") /\
  SQListInts (lit "1, -22,x') OR 1=1, 007,9") = lit "1, -22, 9".
Proof. vm_compute. auto. Qed.

(** ** C12 *)
(** A list of well-formed elements survives composing (with the separator and any number of
    spaces, as in the default ", ") and parsing. *)
Theorem C12_list_roundtrip : forall sep k l, sep <> NUL -> Forall (list_element sep) l ->
  SParseList (SComposeList l (sep :: repeat " "%char k)) sep = l.
Proof.
  intros sep k l Hsep HF. unfold SParseList. rewrite SComposeList_join, cstr_nul_free.
  - apply (parse_join sep k l []). exact HF.
  - apply join_nul_free.
    + intros [H|H]; [congruence|]. apply repeat_spec in H. discriminate.
    + eapply Forall_impl; [|exact HF]. intros a (_ & _ & _ & H). exact H.
Qed.
Print Assumptions C12_list_roundtrip.

(** Every parse returns well-formed elements, so parsing what was composed from a parse
    gives the same list again, for every input text. *)
Theorem C12_parse_wellformed : forall s sep, Forall (list_element sep) (SParseList s sep).
Proof.
  intros s sep. unfold SParseList. apply parse_elements; [apply cstr_is_nul_free|left; reflexivity|constructor].
Qed.
Print Assumptions C12_parse_wellformed.
Theorem C12_parse_idempotent : forall s sep k, sep <> NUL ->
  SParseList (SComposeList (SParseList s sep) (sep :: repeat " "%char k)) sep = SParseList s sep.
Proof. intros s sep k H. apply C12_list_roundtrip; [exact H|apply C12_parse_wellformed]. Qed.
Print Assumptions C12_parse_idempotent.

(** The boolean result says whether anything was found only when the text does not end with
    a separator: "a," finds "a" but reports false. *)
Theorem C12_found_flag_refuted : exists s, SParseList s "," <> [] /\ SParseListFound s "," = false.
Proof. exists (lit "a,"). vm_compute. split; [discriminate|reflexivity]. Qed.
Print Assumptions C12_found_flag_refuted.

Example C12_case : Forall (list_element ",") [lit "a b "; lit "'x'"] /\
  SParseList (lit " a b ,, 'x'") "," = [lit "a b "; lit "'x'"].
Proof.
  split; [|reflexivity].
  assert (H : Forall (list_element ",") (SParseList (lit " a b ,, 'x'") ",")) by apply C12_parse_wellformed. exact H.
Qed.

(** ** C41 *)
Theorem C41_equals_is_equality : forall secret input, SConstantTimeEquals secret input = true <-> secret = input.
Proof. exact ct_equals_correct. Qed.
Print Assumptions C41_equals_is_equality.

(** The number of byte comparisons does not depend on the input's content: it is the secret's
    length for every non-empty input (and zero for the empty one). *)
Theorem C41_work_independent_of_input : forall secret i1 i2, i1 <> [] -> i2 <> [] ->
  snd (ct_equals secret i1) = snd (ct_equals secret i2) /\
  (secret <> [] -> snd (ct_equals secret i1) = List.length secret).
Proof.
  intros secret i1 i2 H1 H2. destruct i1 as [|a i1]; [contradiction|]. destruct i2 as [|b i2]; [contradiction|].
  unfold ct_equals. destruct secret as [|c s]; cbn [Bool.eqb negb].
  - split; [reflexivity|contradiction].
  - rewrite !ct_loop_spec. cbn [snd]. split; [reflexivity|intros _; reflexivity].
Qed.
Print Assumptions C41_work_independent_of_input.

(** The case-insensitive variant compares the lower-cased strings. *)
Theorem C41_iequals : forall secret input,
  SConstantTimeIEquals secret input = true <-> map lower secret = map lower input.
Proof. intros. apply ct_equals_correct. Qed.
Print Assumptions C41_iequals.

Example C41_case : SConstantTimeEquals (lit "abab") (lit "ab") = false /\ SConstantTimeIEquals (lit "AbC") (lit "aBc") = true /\
  ct_equals (lit "abab") (lit "xyzabc") = (false, 4%nat).
Proof. vm_compute. auto. Qed.

(** ** C42 *)
(** Unescaping undoes escaping for every NUL-free string, every set of unsafe characters and
    every escape character, provided neither uses the letters b f n r t u. *)
Theorem C42_escape_roundtrip : forall s unsafe e,
  nul_free s -> e <> NUL -> ~ In e (lit "bfnrtu") -> (forall c, In c unsafe -> ~ In c (lit "bfnrtu")) ->
  SUnescape (SEscape s unsafe e) e = s.
Proof.
  assert (Q : forall c, ~ In c (lit "bfnrtu") -> special c = false).
  { intros c Hc. unfold special, in_set. destruct (existsb _ _) eqn:E; [|reflexivity]. exfalso. apply Hc.
    apply existsb_exists in E as (x & Hx & Ex). apply Ascii.eqb_eq in Ex. subst. exact Hx. }
  intros s unsafe e Hs He H1 H2. unfold SUnescape, SEscape. rewrite (cstr_nul_free s Hs).
  rewrite cstr_nul_free by (apply escape_nul_free; assumption).
  apply unescape_escape; auto.
Qed.
Print Assumptions C42_escape_roundtrip.

(** Outside that condition it fails: escaping the letter n turns it into a newline. *)
Theorem C42_letters_refuted : exists s unsafe e, nul_free s /\ e <> NUL /\ SUnescape (SEscape s unsafe e) e <> s.
Proof.
  exists (lit "n"), (lit "n"), "\"%char. split; [|split; [discriminate|vm_compute; discriminate]].
  intros [H|[]]. discriminate.
Qed.
Print Assumptions C42_letters_refuted.

(** A \uXXXX escape becomes the UTF-8 encoding of that code point, for all 65536 of them, in
    any letter case. *)
Theorem C42_unicode_escape : forall e a1 a2 a3 a4 rest,
  e <> NUL -> forallb is_hex [a1; a2; a3; a4] = true -> nul_free rest ->
  SUnescape (e :: "u"%char :: a1 :: a2 :: a3 :: a4 :: rest) e =
  utf8_encoding (hex_number 0 [a1; a2; a3; a4]) ++ SUnescape rest e.
Proof.
  intros e a1 a2 a3 a4 rest He Hh Hr. unfold SUnescape.
  assert (Hn : forall c, is_hex c = true -> c <> NUL) by (intros c Hc ->; discriminate Hc).
  pose proof Hh as Hh'. cbn [forallb] in Hh'.
  apply andb_true_iff in Hh' as [B1 Hh']. apply andb_true_iff in Hh' as [B2 Hh'].
  apply andb_true_iff in Hh' as [B3 Hh']. apply andb_true_iff in Hh' as [B4 _].
  rewrite (cstr_nul_free rest Hr).
  rewrite cstr_nul_free.
  2: { intros Hi. cbn [In] in Hi. destruct Hi as [Hi|[Hi|[Hi|[Hi|[Hi|[Hi|Hi]]]]]].
       - exact (He Hi). - discriminate. - exact (Hn _ B1 Hi). - exact (Hn _ B2 Hi).
       - exact (Hn _ B3 Hi). - exact (Hn _ B4 Hi). - exact (Hr Hi). }
  cbn [unescape]. rewrite Ascii.eqb_refl. cbn [Ascii.eqb Bool.eqb]. rewrite scan_x_hex by exact Hh.
  rewrite utf8_expand_spec; [reflexivity|].
  cbn [hex_number]. assert (B : forall c, (match hex_digit_value c with Some d => d | None => 0 end) < 16).
  { intros c. destruct (hex_digit_value c) eqn:Ec; [eapply hex_digit_value_lt; exact Ec|lia]. }
  pose proof (B a1); pose proof (B a2); pose proof (B a3); pose proof (B a4). lia.
Qed.
Print Assumptions C42_unicode_escape.

Example C42_case : SEscape (["010"%char; "001"%char] ++ lit "a""b\") (lit """\" ++ ["010"%char; "001"%char]) "\" = lit "\n\u0001a\""b\\" /\
  SUnescape (lit "\u20AC\u00e9") "\" = map ascii_of_N [226; 130; 172; 195; 169].
Proof. vm_compute. auto. Qed.
