(** C56: the text forms of a query result can be read back, and the columns of its screen form are aligned. *)
From Verif Require Import Base Dec Text_Spec Text_Model Json_Spec Result_Model Qrf_Spec Fmt_Spec Fmt_Model Fmt_Proofs.
Local Open Scope N_scope.

(** The lines of the output: the names come first if asked for. *)
Definition with_header {T} (o : options) (heads : T) (rs : list T) : list T := if header o then heads :: rs else rs.

Lemma fields_all heads rs : Forall (fun row => List.length row = List.length heads) rs -> forall (g : list bytes -> bytes),
  flat_map (fun row => g (fields (mkResult heads rs) row)) rs = flat_map g rs.
Proof.
  intros F g. rewrite !flat_map_concat_map. f_equal. apply map_ext_Forall. eapply Forall_impl; [|exact F]. intros row L. cbv beta in L. rewrite fields_whole by assumption. reflexivity.
Qed.
(** CSV: a reader of comma separated values gets every cell of the table, whatever bytes are in it. *)
Theorem C56_csv o heads rs : rectangular heads rs -> csv_table (formatCSV o (mkResult heads rs)) = Some (with_header o heads rs).
Proof.
  intros [NE F]. unfold formatCSV, headers, rows. rewrite (fields_all heads rs F (fun l => line_of "," (map quoteCSV l))).
  transitivity (csv_table (flat_map (fun l => line_of "," (map quoteCSV l)) (with_header o heads rs))).
  - unfold with_header. destruct (header o); reflexivity.
  - apply csv_lines. assert (R : Forall (fun l => l <> []) rs) by (eapply Forall_impl; [|exact F]; intros [|] L; destruct heads; easy).
    unfold with_header. destruct (header o); [constructor|]; assumption.
Qed.
Print Assumptions C56_csv.
(** QUOTE: each cell is an SQL literal with the text of the cell, a number just when the text is one; names are in quotes. *)
Theorem C56_quote o heads rs : rectangular heads rs ->
  exists lits, literal_table (formatQuote o (mkResult heads rs)) = Some (with_header o (map Str heads) lits) /\ Forall2 (Forall2 reads_as) rs lits.
Proof.
  intros [NE F]. exists (map (map as_literal) rs). split.
  - unfold formatQuote, headers, rows. rewrite (fields_all heads rs F (fun l => line_of "," (map (fun f => if isNumeric f then f else quoteSQL f) l))).
    assert (R : literal_table (flat_map (fun l => line_of "," (map (fun f => if isNumeric f then f else quoteSQL f) l)) rs) = Some (map (map as_literal) rs)).
    { unfold literal_table. induction F as [|row rs L F IH]; [reflexivity|]. cbn [flat_map map]. rewrite (lit_line _ as_literal) by (try apply lit_value; destruct row, heads; easy). rewrite IH. reflexivity. }
    unfold with_header. destruct (header o); [|exact R]. unfold literal_table in *. rewrite (lit_line _ Str) by (try apply lit_quoted; assumption). rewrite R. reflexivity.
  - clear. induction rs as [|row rs IH]; constructor; [|exact IH]. clear. induction row; constructor; [apply as_literal_reads|assumption].
Qed.
Print Assumptions C56_quote.
(** TABS: the reader gets every cell, those cut at the end of a row being empty, provided no cell has a tab or line feed. *)
Theorem C56_tabs o heads rs : rectangular heads rs -> Forall (separable "009") heads -> Forall (Forall (separable "009")) rs ->
  map (filled (List.length heads)) (read_separated "009" (formatTabs o (mkResult heads rs))) = with_header o heads rs.
Proof.
  intros [NE F] SH SR. unfold formatTabs, headers, rows. rewrite (fields_all heads rs F (fun l => line_of "009" (trimmed l))).
  assert (FT : forall l, Forall (separable "009") l -> Forall (separable "009") (trimmed l)).
  { intros l FL. unfold trimmed. apply Forall_rev. apply Forall_rev in FL. destruct (drop_empty_split (rev l)) as [n E]. rewrite E in FL. apply Forall_app in FL as [_ FL]. exact FL. }
  replace (flat_map (fun l => line_of "009" (trimmed l)) rs) with (flat_map (line_of "009") (map trimmed rs)) by (clear; induction rs; cbn; [reflexivity|congruence]).
  replace ((if header o then line_of "009" heads else []) ++ flat_map (line_of "009") (map trimmed rs)) with (flat_map (line_of "009") (with_header o heads (map trimmed rs))) by (unfold with_header; destruct (header o); reflexivity).
  rewrite read_lines; [|discriminate|].
  - assert (R : map (filled (List.length heads)) (map (fun l => match l with [] => [[]] | _ => l end) (map trimmed rs)) = rs).
    { rewrite !map_map. rewrite <- (map_id rs) at 2. apply map_ext_Forall. eapply Forall_impl; [|exact F]. intros row L. cbv beta in *. rewrite <- L.
      rewrite <- (trimmed_filled row) at 3. destruct (trimmed row); [|reflexivity]. unfold filled. cbn [List.length app]. destruct (List.length row) eqn:Q; [destruct heads; easy|]. cbn. rewrite Nat.sub_0_r. reflexivity. }
    unfold with_header. destruct (header o); [|exact R]. cbn [map]. rewrite R. f_equal. destruct heads as [|h heads]; [easy|]. unfold filled. rewrite Nat.sub_diag. apply app_nil_r.
  - assert (R : Forall (Forall (separable "009")) (map trimmed rs)) by (apply Forall_map; eapply Forall_impl; [|exact SR]; exact FT).
    unfold with_header. destruct (header o); [constructor|]; assumption.
Qed.
Print Assumptions C56_tabs.
(** LIST: the reader gets every cell, provided no cell has a bar or line feed. *)
Theorem C56_list o heads rs : rectangular heads rs -> Forall (separable "|") heads -> Forall (Forall (separable "|")) rs ->
  read_separated "|" (formatList o (mkResult heads rs)) = with_header o heads rs.
Proof.
  intros [NE F] SH SR. unfold formatList, headers, rows.
  replace ((if header o then line_of "|" heads else []) ++ flat_map (line_of "|") rs) with (flat_map (line_of "|") (with_header o heads rs)) by (unfold with_header; destruct (header o); reflexivity).
  rewrite read_lines; [|discriminate|unfold with_header; destruct (header o); [constructor|]; assumption].
  rewrite <- (map_id (with_header o heads rs)) at 2. apply map_ext_Forall.
  assert (R : Forall (fun l => l <> []) rs) by (eapply Forall_impl; [|exact F]; intros [|] L; destruct heads; easy).
  assert (W : Forall (fun l => l <> []) (with_header o heads rs)) by (unfold with_header; destruct (header o); [constructor|]; assumption).
  eapply Forall_impl; [|exact W]. intros [|] ?; easy.
Qed.
Print Assumptions C56_list.

(** COLUMN: the output is a title line, a ruler and the lines of the rows.  Every column is as wide as the widest text in
    it; the texts of all lines begin at the same places, at least two blanks from what is before them; a cell with line
    feeds goes on below itself. *)
Theorem C56_column o heads rs : rectangular heads rs -> Forall (Forall code_point) heads -> Forall (Forall (Forall code_point)) rs ->
  Forall (fun h => ~ In 10 h) heads ->
  exists widths title rule blocks,
    formatColumn o (mkResult (map utf8 heads) (map (map utf8) rs))
      = Some (flat_map (fun line => utf8 line ++ [LF]) ((if header o then [title; rule] else []) ++ concat blocks)) /\
    as_wide_as_needed heads rs widths /\
    shows_trimmed widths (map (tabs_out 0) heads) title /\
    (exists n, rule ++ blank n = ruler widths) /\ (forall l, rule <> l ++ [32]) /\
    Forall2 (row_shown widths) rs blocks /\
    ~ In 10 title /\ Forall (Forall (fun line => ~ In 10 line)) blocks.
Proof.
  intros [NE F] CH CR NF. pose proof (widths_needed heads rs CH CR F) as AW. unfold to_result in AW.
  assert (Z32 : code_point 32) by (unfold code_point; lia).
  unfold formatColumn. set (r := mkResult (map utf8 heads) (map (map utf8) rs)) in *. set (ws := widths_of r) in *.
  assert (X : existsb (fun row => Nat.ltb (List.length (headers r)) (List.length row)) (rows r) = false).
  { apply Bool.not_true_is_false. intros E. apply existsb_exists in E as (row & I & E). cbn [r rows] in I. apply in_map_iff in I as (row0 & <- & I).
    rewrite Forall_forall in F. apply F in I. cbn [r headers] in E. rewrite !map_length in E. apply Nat.ltb_lt in E. lia. }
  rewrite X. cbv zeta.
  assert (WN : ws <> []) by (destruct AW as [LW _]; destruct ws, heads; easy).
  assert (NIn : forall l, Forall (fun v : N => v <> 10) l -> ~ In 10 l) by (intros l FL I; rewrite Forall_forall in FL; apply (FL 10 I); reflexivity).
  destruct (render_shown ws (map (tabs_out 0) heads) WN) as (title & T1 & T2 & T3).
  { apply (fits_column heads rs); [assumption|apply map_length|]. intros j t E. apply nth_map_inv in E as (h & E & ->). left. left. exists h. split; [assumption|reflexivity]. }
  { apply Forall_map. eapply Forall_impl; [|exact CH]. intros h C. apply tabs_out_forall; assumption. }
  { apply Forall_map. eapply Forall_impl; [|exact NF]. intros h C. apply tabs_out_forall; [discriminate|]. apply Forall_forall. intros x I ->. apply C. assumption. }
  destruct (trim_utf8 (ruler ws)) as (rule & k & U1 & U2 & U3); [apply ruler_forall; unfold code_point; lia|].
  assert (B : exists blocks, flat_map (render_row ws) (map (map utf8) rs) = flat_map (fun line => utf8 line ++ [LF]) (concat blocks) /\ Forall2 (row_shown ws) rs blocks /\ Forall (Forall (fun line => ~ In 10 line)) blocks).
  { assert (G : forall l, incl l rs -> exists blocks, flat_map (render_row ws) (map (map utf8) l) = flat_map (fun line => utf8 line ++ [LF]) (concat blocks) /\ Forall2 (row_shown ws) l blocks /\ Forall (Forall (fun line => ~ In 10 line)) blocks).
    { induction l as [|row l IH]; intros I; [exists []; split; [reflexivity|split; constructor]|].
      destruct IH as (blocks & B1 & B2 & B3); [intros x Ix; apply I; right; assumption|]. assert (IR : In row rs) by (apply I; left; reflexivity).
      destruct (row_render heads rs ws row NE AW IR) as (lines & L1 & L2 & L3); [rewrite Forall_forall in F; apply F; assumption|rewrite Forall_forall in CR; apply CR; assumption|].
      exists (lines :: blocks). cbn [map flat_map concat]. rewrite B1, L1, flat_map_app. split; [reflexivity|]. split; constructor; try assumption. eapply Forall_impl; [|exact L3]. exact NIn. }
    apply G. apply incl_refl. }
  destruct B as (blocks & B1 & B2 & B3). exists ws, title, rule, blocks. split.
  - f_equal. rewrite flat_map_app. cbn [r rows headers]. rewrite B1. f_equal. destruct (header o); [|reflexivity].
    rewrite map_map. replace (map (fun x => expandTabs (utf8 x)) heads) with (map utf8 (map (tabs_out 0) heads)).
    + rewrite T1, ruler_joined, U3. cbn [flat_map]. rewrite app_nil_r. reflexivity.
    + rewrite map_map. apply map_ext_Forall. eapply Forall_impl; [|exact CH]. intros h C. symmetry. apply expandTabs_utf8. assumption.
  - repeat (split; [assumption|]). split; [exists k; symmetry; assumption|]. split; [assumption|]. split; [assumption|]. split; [apply NIn; assumption|assumption].
Qed.
Print Assumptions C56_column.

(** A table with quotes, separators, line breaks and an empty cell. *)
Definition sample_heads : list bytes := [lit "id"; lit "a ""name"""].
Definition sample_rows : list (list bytes) := [[lit "1"; lit "O'Neil, ""Pat"""]; [lit "-2.5e3"; []]; [[LF; "009"; "'"]%char; lit "x"]].
Example C56_case : rectangular sample_heads sample_rows /\
  csv_table (formatCSV defaultOptions (mkResult sample_heads sample_rows)) = Some (sample_heads :: sample_rows) /\
  formatQuote (mkOptions false [] []) (mkResult sample_heads [[lit "1"; lit "it's"]; [lit "-2.5e3"; lit "1e"]]) = lit "1,'it''s'" ++ LF :: lit "-2.5e3,'1e'" ++ [LF].
Proof. repeat split; try discriminate. repeat constructor. Qed.
(** Two columns, a wide character, a cell of two lines and a tab. *)
Definition column_heads : list text := [[110; 49]; [98]].
Definition column_rows : list (list text) := [[[20013; 97; 10; 98]; [99]]; [[9; 120]; [100; 10; 101]]].
Example C56_column_case : rectangular column_heads column_rows /\ Forall (Forall code_point) column_heads /\
  Forall (Forall (Forall code_point)) column_rows /\ Forall (fun h => ~ In 10 h) column_heads /\
  as_wide_as_needed column_heads column_rows [9%nat; 1%nat] /\
  formatColumn defaultOptions (mkResult (map utf8 column_heads) (map (map utf8) column_rows)) =
    Some (lit "n1         b" ++ LF :: lit "---------  -" ++ LF :: utf8 [20013] ++ lit "a        c" ++ LF :: lit "b" ++ LF
          :: lit "        x  d" ++ LF :: lit "           e" ++ [LF]).
Proof.
  split; [split; [discriminate|repeat constructor]|].
  split; [repeat constructor|]. split; [repeat constructor|].
  split; [repeat constructor; intros I; cbn in I; intuition discriminate|].
  split; [|vm_compute; reflexivity].
  assert (E : widths_of (to_result column_heads column_rows) = [9%nat; 1%nat]) by (vm_compute; reflexivity).
  rewrite <- E. apply widths_needed; repeat constructor.
Qed.

(** Tabs style writes cells as they are: a cell with a tab reads as two cells, and the row seems to have a column more. *)
Theorem C56_tabs_cells_refuted : exists heads rs, rectangular heads rs /\
  map (filled (List.length heads)) (read_separated "009" (formatTabs defaultOptions (mkResult heads rs))) <> heads :: rs.
Proof. exists [lit "a"], [[["x"; "009"; "y"]%char]]. split; [split; [discriminate|repeat constructor]|]. vm_compute. discriminate. Qed.
(** List style writes cells as they are: a line feed in a cell makes two rows of one. *)
Theorem C56_list_cells_refuted : exists heads rs, rectangular heads rs /\
  List.length (read_separated "|" (formatList defaultOptions (mkResult heads rs))) <> List.length (heads :: rs).
Proof. exists [lit "a"], [[["x"; LF; "y"]%char]]. split; [split; [discriminate|repeat constructor]|]. vm_compute. discriminate. Qed.
(** FORMAT_OPTIONS has a separator and a text for NULL, but no form looks at them: a caller that asks for another separator
    in list style still gets bars. *)
Theorem C56_options_refuted : forall o r sep null, let o' := mkOptions (header o) null sep in
  formatList o' r = formatList o r /\ formatCSV o' r = formatCSV o r /\ formatTabs o' r = formatTabs o r /\
  formatQuote o' r = formatQuote o r /\ formatColumn o' r = formatColumn o r.
Proof. intros o r sep null. repeat split. Qed.
(** The comment of formatCSV says that SQL NULL stays empty between separators while empty text is written as two quotes.
    NULL is written as two quotes as well, so the two cannot be told apart; nor can they in quote style, where NULL becomes
    an empty text. *)
Theorem C56_null_refuted : exists o heads rs rs', rs <> rs' /\
  formatCSV o (mkResult heads (map (map shown) rs)) = formatCSV o (mkResult heads (map (map shown) rs')) /\
  formatQuote o (mkResult heads (map (map shown) rs)) = formatQuote o (mkResult heads (map (map shown) rs')).
Proof. exists defaultOptions, [lit "a"], [[Null]], [[Text []]]. repeat split. discriminate. Qed.
(** In quote style a text of digits is written as a number: the type of the value is lost, and with it leading zeros for a
    program that reads the literals. *)
Theorem C56_quote_type_refuted : exists o heads t, sql_number t /\ t <> lit "7" /\
  formatQuote o (mkResult heads [[shown (Text t)]]) = t ++ [LF].
Proof.
  exists (mkOptions false [] []), [lit "a"], (lit "007"). split; [apply isNumeric_iff; reflexivity|]. split; [discriminate|reflexivity].
Qed.
(** Column style splits cells at line feeds but not column names: a name with a line feed breaks the title line in two, and
    the names behind it are not above their columns. *)
Theorem C56_name_feed_refuted : exists heads rs out, rectangular heads rs /\
  formatColumn defaultOptions (mkResult heads rs) = Some out /\
  text_lines out = [lit "a"; lit "b  c"; lit "--  -"; lit "x   y"].
Proof.
  exists [["a"; LF; "b"]%char; lit "c"], [[lit "x"; lit "y"]]. eexists. split; [split; [discriminate|repeat constructor]|]. split; vm_compute; reflexivity.
Qed.
(** Column style with a row that has more cells than there are names writes behind the end of the vector of widths. *)
Theorem C56_long_row_refuted : exists heads rs, formatColumn defaultOptions (mkResult heads rs) = None.
Proof. exists [lit "a"], [[lit "x"; lit "y"]]. reflexivity. Qed.
(** Column style leaves carriage returns inside a line as they are and gives them no room: on a screen what follows them
    is written over the start of the line. *)
Theorem C56_return_refuted : exists heads rs out, rectangular heads rs /\
  formatColumn (mkOptions false [] []) (mkResult heads rs) = Some out /\ In "013"%char out.
Proof.
  exists [lit "a"], [[["x"; "013"; "y"]%char]]. eexists. split; [split; [discriminate|repeat constructor]|]. split; [vm_compute; reflexivity|]. right. left. reflexivity.
Qed.
