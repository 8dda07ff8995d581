(** Lemmas for C56. *)
From Verif Require Import Base Dec Text_Spec Text_Model Json_Spec Result_Model Fmt_Spec Fmt_Model.
Local Open Scope N_scope.

Ltac chr := repeat match goal with
  | |- context [Ascii.eqb ?a ?b] => destruct (Ascii.eqb_spec a b); [try subst; try congruence|]
  end.

(** * Comma separated values *)
Lemma csv_inside s : forall t rec rest,
  read_csv Inside t rec (flat_map (fun c => if Ascii.eqb c """" then [""""; """"]%char else [c]) s ++ """"%char :: rest) = read_csv After (t ++ s) rec rest.
Proof.
  induction s as [|c s IH]; intros t rec rest; cbn [flat_map app].
  - cbn. rewrite app_nil_r. reflexivity.
  - destruct (Ascii.eqb_spec c """").
    + subst. cbn [app read_csv]. rewrite Ascii.eqb_refl. etransitivity; [apply IH|]. rewrite <- app_assoc. reflexivity.
    + cbn [app]. cbn [read_csv]. rewrite (proj2 (Ascii.eqb_neq c """") n). rewrite IH, <- app_assoc. reflexivity.
Qed.
Definition csv_plain (c : ascii) : bool :=
  negb (Ascii.eqb c "," || Ascii.eqb c """" || Ascii.eqb c LF || Ascii.eqb c "013" || (bcode c <=? 32) || (128 <=? bcode c)).
Lemma csv_plain_not c : csv_plain c = true -> c <> ","%char /\ c <> """"%char /\ c <> LF /\ c <> "013"%char.
Proof. unfold csv_plain. intros H. repeat split; intros ->; discriminate. Qed.
Lemma csv_bare s : forall t rec rest, forallb csv_plain s = true -> read_csv Bare t rec (s ++ rest) = read_csv Bare (t ++ s) rec rest.
Proof.
  induction s as [|c s IH]; intros t rec rest H; cbn [app].
  - rewrite app_nil_r. reflexivity.
  - cbn [forallb] in H. apply andb_prop in H as [H1 H2]. apply csv_plain_not in H1 as (A & B & C & D). cbn [read_csv].
    rewrite (proj2 (Ascii.eqb_neq c _) A), (proj2 (Ascii.eqb_neq c _) B), (proj2 (Ascii.eqb_neq c _) C), (proj2 (Ascii.eqb_neq c _) D).
    rewrite IH by assumption. rewrite <- app_assoc. reflexivity.
Qed.
Definition csv_end (f : bytes) (rec : list bytes) (d : ascii) (rest : bytes) : option (list (list bytes)) :=
  if Ascii.eqb d "," then read_csv Start [] (rec ++ [f]) rest
  else match read_csv Start [] [] rest with Some l => Some ((rec ++ [f]) :: l) | None => None end.
Lemma csv_field f rec d rest : d = ","%char \/ d = LF -> read_csv Start [] rec (quoteCSV f ++ d :: rest) = csv_end f rec d rest.
Proof.
  intros D. assert (DQ : d <> """"%char) by (destruct D; subst; discriminate).
  assert (A : forall t, read_csv After t rec (d :: rest) = csv_end t rec d rest).
  { intros t. cbn [read_csv]. rewrite (proj2 (Ascii.eqb_neq d _) DQ). unfold csv_end. destruct D; subst; reflexivity. }
  assert (B : forall t, read_csv Bare t rec (d :: rest) = csv_end t rec d rest).
  { intros t. cbn [read_csv]. unfold csv_end. destruct D; subst; reflexivity. }
  unfold quoteCSV. destruct f as [|c f]; [apply A|].
  destruct (needsQuoting (c :: f)) eqn:Q; cbn [negb].
  - rewrite <- app_comm_cons, <- app_assoc. etransitivity; [|apply A].
    etransitivity; [|apply (csv_inside (c :: f) [])]. reflexivity.
  - assert (P : forallb csv_plain (c :: f) = true).
    { apply forallb_forall. intros x I. unfold csv_plain. apply negb_true_iff. apply Bool.not_true_is_false. intros E.
      assert (N : needsQuoting (c :: f) = true) by (apply existsb_exists; exists x; split; assumption). congruence. }
    cbn [forallb] in P. apply andb_prop in P as [P1 P2]. pose proof (csv_plain_not _ P1) as (X & Y & Z & W).
    cbn [app]. cbn [read_csv].
    rewrite (proj2 (Ascii.eqb_neq c _) X), (proj2 (Ascii.eqb_neq c _) Y), (proj2 (Ascii.eqb_neq c _) Z), (proj2 (Ascii.eqb_neq c _) W).
    cbn [app]. rewrite csv_bare by assumption. apply B.
Qed.
Lemma csv_line l : l <> [] -> forall rec rest, read_csv Start [] rec (line_of "," (map quoteCSV l) ++ rest)
  = match read_csv Start [] [] rest with Some t => Some ((rec ++ l) :: t) | None => None end.
Proof.
  unfold line_of. induction l as [|f l IH]; intros NE rec rest; [easy|]. destruct l as [|g l].
  - cbn [map joined]. rewrite <- app_assoc. apply (csv_field f rec LF rest). right. reflexivity.
  - cbn [map]. change (joined [","%char] (quoteCSV f :: quoteCSV g :: map quoteCSV l)) with (quoteCSV f ++ [","%char] ++ joined [","%char] (map quoteCSV (g :: l))).
    rewrite <- !app_assoc. cbn [app]. rewrite csv_field by (left; reflexivity). unfold csv_end.
    rewrite Ascii.eqb_refl. specialize (IH ltac:(discriminate) (rec ++ [f]) rest). rewrite <- !app_assoc in IH. cbn [app] in IH. exact IH.
Qed.
Lemma csv_lines ls : Forall (fun l => l <> []) ls -> csv_table (flat_map (fun l => line_of "," (map quoteCSV l)) ls) = Some ls.
Proof.
  unfold csv_table. induction 1 as [|l ls NE _ IH]; [reflexivity|]. cbn [flat_map]. rewrite csv_line by assumption. rewrite IH. reflexivity.
Qed.

(** * SQL literals *)
Lemma lit_inside s : forall t rec rest,
  read_literals Inside t rec (flat_map (fun c => if Ascii.eqb c "'" then ["'"; "'"]%char else [c]) s ++ "'"%char :: rest) = read_literals After (t ++ s) rec rest.
Proof.
  induction s as [|c s IH]; intros t rec rest; cbn [flat_map app].
  - cbn. rewrite app_nil_r. reflexivity.
  - destruct (Ascii.eqb_spec c "'").
    + subst. cbn [app read_literals]. rewrite Ascii.eqb_refl. etransitivity; [apply IH|]. rewrite <- app_assoc. reflexivity.
    + cbn [app]. cbn [read_literals]. rewrite (proj2 (Ascii.eqb_neq c "'") n). rewrite IH, <- app_assoc. reflexivity.
Qed.
Definition lit_plain (c : ascii) : bool := negb (Ascii.eqb c "," || Ascii.eqb c "'" || Ascii.eqb c LF).
Lemma lit_plain_not c : lit_plain c = true -> c <> ","%char /\ c <> "'"%char /\ c <> LF.
Proof. unfold lit_plain. intros H. repeat split; intros ->; discriminate. Qed.
Lemma lit_bare s : forall t rec rest, forallb lit_plain s = true -> read_literals Bare t rec (s ++ rest) = read_literals Bare (t ++ s) rec rest.
Proof.
  induction s as [|c s IH]; intros t rec rest H; cbn [app].
  - rewrite app_nil_r. reflexivity.
  - cbn [forallb] in H. apply andb_prop in H as [H1 H2]. apply lit_plain_not in H1 as (A & B & C). cbn [read_literals].
    rewrite (proj2 (Ascii.eqb_neq c _) A), (proj2 (Ascii.eqb_neq c _) B), (proj2 (Ascii.eqb_neq c _) C).
    rewrite IH by assumption. rewrite <- app_assoc. reflexivity.
Qed.
Definition lit_end (f : literal) (rec : list literal) (d : ascii) (rest : bytes) : option (list (list literal)) :=
  if Ascii.eqb d "," then read_literals Start [] (rec ++ [f]) rest
  else match read_literals Start [] [] rest with Some l => Some ((rec ++ [f]) :: l) | None => None end.
Lemma lit_quoted f rec d rest : d = ","%char \/ d = LF -> read_literals Start [] rec (quoteSQL f ++ d :: rest) = lit_end (Str f) rec d rest.
Proof.
  intros D. unfold quoteSQL. rewrite <- app_comm_cons, <- app_assoc.
  etransitivity; [etransitivity; [|apply (lit_inside f [] rec (d :: rest))]; reflexivity|].
  cbn [read_literals app]. unfold lit_end. destruct D; subst; reflexivity.
Qed.
Lemma lit_number f rec d rest : d = ","%char \/ d = LF -> f <> [] -> forallb lit_plain f = true ->
  read_literals Start [] rec (f ++ d :: rest) = lit_end (Number f) rec d rest.
Proof.
  intros D NE P. destruct f as [|c f]; [easy|]. cbn [forallb] in P. apply andb_prop in P as [P1 P2]. pose proof (lit_plain_not _ P1) as (X & Y & Z).
  cbn [app]. cbn [read_literals].
  rewrite (proj2 (Ascii.eqb_neq c _) X), (proj2 (Ascii.eqb_neq c _) Y), (proj2 (Ascii.eqb_neq c _) Z).
  cbn [orb]. rewrite lit_bare by assumption. cbn [read_literals app]. unfold lit_end. destruct D; subst; reflexivity.
Qed.

(** * Numbers *)
Lemma skip_digits_app ds s : digits ds -> starts_digit s = false -> skip_digits (ds ++ s) = s.
Proof.
  intros D S. induction ds as [|c ds IH]; cbn [app].
  - destruct s; [reflexivity|]. cbn in *. rewrite S. reflexivity.
  - cbn. rewrite (D c) by (left; reflexivity). apply IH. intros x I. apply D. right. assumption.
Qed.
Lemma skip_digits_split s : exists ds, s = ds ++ skip_digits s /\ digits ds /\ starts_digit (skip_digits s) = false /\ (starts_digit s = true <-> ds <> []).
Proof.
  induction s as [|c s (ds & E & D & S & NE)].
  - exists []. repeat split; easy.
  - cbn. destruct (is_digit c) eqn:Q.
    + exists (c :: ds). repeat split; try easy.
      * cbn. congruence.
      * intros x [<-|I]; [assumption|apply D; assumption].
    + exists []. cbn. rewrite Q. repeat split; easy.
Qed.
Lemma starts_app ds s : digits ds -> starts_digit s = false -> starts_digit (ds ++ s) = match ds with [] => false | _ => true end.
Proof. intros D S. destruct ds as [|c ds]; [assumption|]. cbn. apply D. left. reflexivity. Qed.
Lemma sign_not_digit c : sign_char c = true -> is_digit c = false.
Proof. unfold sign_char. intros H. apply orb_prop in H as [H|H]; apply Ascii.eqb_eq in H; subst; reflexivity. Qed.
Lemma digit_not_sign c : is_digit c = true -> sign_char c = false.
Proof. intros H. destruct (sign_char c) eqn:E; [|reflexivity]. apply sign_not_digit in E. congruence. Qed.

Lemma exponent_tail ex : (ex = [] \/ exists e sg ds, ex = e :: sg ++ ds /\ (e = "e"%char \/ e = "E"%char) /\ a_sign sg /\ all_digits ds) <->
  match ex with
  | [] => true
  | e :: s => if Ascii.eqb e "e" || Ascii.eqb e "E" then
      let s := match s with c :: s' => if sign_char c then s' else s | [] => s end in
      if negb (starts_digit s) then false else match skip_digits s with [] => true | _ => false end
    else false
  end = true.
Proof.
  split.
  - intros [->|(e & sg & ds & -> & E & S & [NE D])]; [reflexivity|].
    replace (Ascii.eqb e "e" || Ascii.eqb e "E") with true by (destruct E; subst; reflexivity).
    assert (X : match sg ++ ds with c :: s' => if sign_char c then s' else sg ++ ds | [] => sg ++ ds end = ds).
    { destruct S as [->|[->| ->]]; cbn [app lit list_ascii_of_string]; [|reflexivity|reflexivity].
      destruct ds as [|c ds]; [reflexivity|]. rewrite digit_not_sign by (apply D; left; reflexivity). reflexivity. }
    cbv zeta. rewrite X.
    pose proof (skip_digits_app ds [] D eq_refl) as Y. rewrite app_nil_r in Y. rewrite Y.
    destruct ds as [|c ds]; [easy|]. cbn [starts_digit]. rewrite (D c) by (left; reflexivity). reflexivity.
  - destruct ex as [|e s]; [left; reflexivity|]. intros H. right. destruct (Ascii.eqb e "e" || Ascii.eqb e "E") eqn:E; [|discriminate].
    assert (EE : e = "e"%char \/ e = "E"%char) by (apply orb_prop in E as [E|E]; apply Ascii.eqb_eq in E; auto).
    cbv zeta in H. set (u := match s with c :: s' => if sign_char c then s' else s | [] => s end) in *.
    destruct (starts_digit u) eqn:SD; cbn [negb] in H; [|discriminate].
    destruct (skip_digits_split u) as (ds & U & D & _ & NE). destruct (skip_digits u) eqn:K; [|discriminate]. rewrite app_nil_r in U.
    assert (S : exists sg, s = sg ++ u /\ a_sign sg).
    { subst u. destruct s as [|c s']; [exists []; split; [reflexivity|left; reflexivity]|]. destruct (sign_char c) eqn:Q.
      - exists [c]. split; [reflexivity|]. unfold sign_char in Q. apply orb_prop in Q as [Q|Q]; apply Ascii.eqb_eq in Q; subst; [right; left|right; right]; reflexivity.
      - exists []. split; [reflexivity|left; reflexivity]. }
    destruct S as (sg & S & A). exists e, sg, ds. split; [rewrite <- U, <- S; reflexivity|]. split; [assumption|]. split; [assumption|]. split; [apply NE; assumption|assumption].
Qed.
Lemma exponent_start ex : (ex = [] \/ exists e sg ds, ex = e :: sg ++ ds /\ (e = "e"%char \/ e = "E"%char) /\ a_sign sg /\ all_digits ds) ->
  starts_digit ex = false /\ (forall s, ex <> "."%char :: s).
Proof. intros [->|(e & sg & ds & -> & [->| ->] & _)]; split; easy. Qed.

Lemma isNumeric_iff t : isNumeric t = true <-> sql_number t.
Proof.
  split.
  - unfold isNumeric. destruct t as [|c0 s0]; [discriminate|]. set (start := if sign_char c0 then s0 else c0 :: s0).
    destruct (sign_char c0 && match s0 with [] => true | _ => false end); [discriminate|]. cbv zeta.
    assert (S : exists sg, c0 :: s0 = sg ++ start /\ a_sign sg).
    { subst start. destruct (sign_char c0) eqn:Q.
      - exists [c0]. split; [reflexivity|]. unfold sign_char in Q. apply orb_prop in Q as [Q|Q]; apply Ascii.eqb_eq in Q; subst; [right; left|right; right]; reflexivity.
      - exists []. split; [reflexivity|left; reflexivity]. }
    destruct S as (sg & S & A). destruct (skip_digits_split start) as (int & I & DI & NI & II).
    set (ai := skip_digits start) in *.
    destruct (match ai with c :: s => if Ascii.eqb c "." then (starts_digit s, skip_digits s) else (false, ai) | [] => (false, []) end) as [fd af] eqn:F.
    destruct (starts_digit start || fd) eqn:HD; cbn [negb]; [|discriminate]. intros EX.
    apply (exponent_tail af) in EX.
    assert (FR : exists frac, ai = frac ++ af /\ (frac = [] /\ fd = false \/ exists ds, frac = "."%char :: ds /\ digits ds /\ (fd = true -> ds <> []))).
    { destruct ai as [|c s]; [injection F as <- <-; exists []; split; [reflexivity|left; split; reflexivity]|].
      destruct (Ascii.eqb_spec c ".").
      - subst c. injection F as <- <-. destruct (skip_digits_split s) as (ds & E & D & _ & N). exists ("."%char :: ds). split; [cbn; congruence|].
        right. exists ds. repeat split; try assumption. intros X. apply N. assumption.
      - injection F as <- <-. exists []. split; [reflexivity|left; split; reflexivity]. }
    destruct FR as (frac & FE & FC). exists sg, int, frac, af. split; [congruence|]. split; [assumption|]. split; [assumption|]. split; [|assumption].
    destruct FC as [[-> ->]|(ds & -> & D & N)].
    + left. split; [reflexivity|]. apply II. rewrite orb_false_r in HD. assumption.
    + right. exists ds. repeat split; try assumption. apply orb_prop in HD as [HD|HD]; [left; apply II|right; apply N]; assumption.
  - intros (sg & int & frac & ex & -> & A & DI & FC & EX). pose proof (exponent_start _ EX) as [XS XD]. apply (exponent_tail ex) in EX.
    set (start := int ++ frac ++ ex).
    assert (SF : starts_digit (frac ++ ex) = false) by (destruct FC as [[-> _]|(ds & -> & _)]; [assumption|reflexivity]).
    assert (NE : exists c s, start = c :: s /\ sign_char c = false).
    { unfold start. destruct int as [|c int]; [|exists c, (int ++ frac ++ ex); split; [reflexivity|apply digit_not_sign, DI; left; reflexivity]].
      destruct FC as [[_ N]|(ds & -> & _)]; [easy|]. exists "."%char, (ds ++ ex). split; reflexivity. }
    destruct NE as (c & s & NE & NS).
    assert (M : isNumeric (sg ++ start) =
      (let afterInt := skip_digits start in
        let '(fracDigits, afterFrac) :=
          match afterInt with
          | c :: s => if Ascii.eqb c "." then (starts_digit s, skip_digits s) else (false, afterInt)
          | [] => (false, [])
          end in
        if negb (starts_digit start || fracDigits) then false
        else match afterFrac with
        | [] => true
        | e :: s =>
            if Ascii.eqb e "e" || Ascii.eqb e "E" then
              let s := match s with c :: s' => if sign_char c then s' else s | [] => s end in
              if negb (starts_digit s) then false else match skip_digits s with [] => true | _ => false end
            else false
        end)).
    { destruct A as [->|[->| ->]]; cbn [app lit list_ascii_of_string]; rewrite NE; unfold isNumeric; [rewrite NS|..]; reflexivity. }
    rewrite M. cbv zeta. unfold start. rewrite skip_digits_app by assumption. rewrite starts_app by assumption.
    destruct FC as [[-> N]|(ds & -> & D & N)].
    + cbn [app]. destruct int as [|i0 int]; [easy|]. destruct ex as [|e ex]; [reflexivity|].
      destruct (Ascii.eqb_spec e "."); [subst; exfalso; eapply XD; reflexivity|]. cbn [orb negb]. exact EX.
    + cbn [app]. rewrite Ascii.eqb_refl. rewrite skip_digits_app, starts_app by assumption.
      destruct int; [destruct ds; [destruct N; easy|]|]; cbn [orb negb]; assumption.
Qed.
Lemma number_chars t : sql_number t -> t <> [] /\ forallb lit_plain t = true.
Proof.
  intros (sg & int & frac & ex & -> & A & DI & FC & EX).
  assert (DP : forall l, digits l -> forallb lit_plain l = true).
  { intros l D. apply forallb_forall. intros x I. apply D in I. unfold lit_plain. destruct (Ascii.eqb_spec x ","); [subst; discriminate|].
    destruct (Ascii.eqb_spec x "'"); [subst; discriminate|]. destruct (Ascii.eqb_spec x LF); [subst; discriminate|]. reflexivity. }
  assert (SP : forall l, a_sign l -> forallb lit_plain l = true) by (intros l [->|[->| ->]]; reflexivity).
  split.
  - intros E. apply app_eq_nil in E as [_ E]. apply app_eq_nil in E as [-> E]. apply app_eq_nil in E as [-> _]. destruct FC as [[_ ?]|(ds & ? & _)]; easy.
  - rewrite !forallb_app. rewrite SP, DP by assumption. cbn [andb]. apply andb_true_intro; split.
    + destruct FC as [[-> _]|(ds & -> & D & _)]; [reflexivity|]. cbn. apply DP. assumption.
    + destruct EX as [->|(e & sg' & ds & -> & E & S & [_ D])]; [reflexivity|]. cbn [forallb]. rewrite forallb_app, SP, DP by assumption. destruct E; subst; reflexivity.
Qed.
Definition as_literal (f : bytes) : literal := if isNumeric f then Number f else Str f.
Lemma as_literal_reads f : reads_as f (as_literal f).
Proof.
  unfold reads_as, as_literal. destruct (isNumeric f) eqn:E; cbn [written]; (split; [reflexivity|]).
  - apply isNumeric_iff in E. split; [intros _; assumption|]. intros _. exists f. reflexivity.
  - split; [intros [t H]; discriminate|]. intros S. apply isNumeric_iff in S. congruence.
Qed.
Lemma lit_line (g : bytes -> bytes) (h : bytes -> literal) l :
  (forall f rec d rest, d = ","%char \/ d = LF -> read_literals Start [] rec (g f ++ d :: rest) = lit_end (h f) rec d rest) ->
  l <> [] -> forall rec rest, read_literals Start [] rec (line_of "," (map g l) ++ rest)
  = match read_literals Start [] [] rest with Some t => Some ((rec ++ map h l) :: t) | None => None end.
Proof.
  intros G. unfold line_of. induction l as [|f l IH]; intros NE rec rest; [easy|]. destruct l as [|k l].
  - cbn [map joined]. rewrite <- app_assoc. apply (G f rec LF rest). right. reflexivity.
  - cbn [map]. change (joined [","%char] (g f :: g k :: map g l)) with (g f ++ [","%char] ++ joined [","%char] (map g (k :: l))).
    rewrite <- !app_assoc. cbn [app]. rewrite G by (left; reflexivity). unfold lit_end.
    rewrite Ascii.eqb_refl. specialize (IH ltac:(discriminate) (rec ++ [h f]) rest). rewrite <- !app_assoc in IH. cbn [app] in IH. exact IH.
Qed.
Lemma lit_value f rec d rest : d = ","%char \/ d = LF ->
  read_literals Start [] rec ((if isNumeric f then f else quoteSQL f) ++ d :: rest) = lit_end (as_literal f) rec d rest.
Proof.
  intros D. unfold as_literal. destruct (isNumeric f) eqn:E; [|apply lit_quoted; assumption].
  apply isNumeric_iff, number_chars in E as [? ?]. apply lit_number; assumption.
Qed.

(** * Separators without quoting *)
Lemma split_not_nil d s : split d s <> [].
Proof. destruct s as [|c s]; [discriminate|]. cbn. destruct (Ascii.eqb c d); [discriminate|]. destruct (split d s); discriminate. Qed.
Lemma split_app d x rest : ~ In d x -> split d (x ++ d :: rest) = x :: split d rest.
Proof.
  induction x as [|c x IH]; intros N.
  - cbn. rewrite Ascii.eqb_refl. reflexivity.
  - cbn. destruct (Ascii.eqb_spec c d); [subst; exfalso; apply N; left; reflexivity|]. rewrite IH by (intros I; apply N; right; assumption). reflexivity.
Qed.
Lemma split_whole d x : ~ In d x -> split d x = [x].
Proof.
  induction x as [|c x IH]; intros N; [reflexivity|].
  cbn. destruct (Ascii.eqb_spec c d); [subst; exfalso; apply N; left; reflexivity|]. rewrite IH by (intros I; apply N; right; assumption). reflexivity.
Qed.
Lemma split_joined d l : l <> [] -> Forall (fun x => ~ In d x) l -> split d (joined [d] l) = l.
Proof.
  induction l as [|x l IH]; intros NE F; [easy|]. inversion F; subst. destruct l as [|y l]; [apply split_whole; assumption|].
  change (joined [d] (x :: y :: l)) with (x ++ [d] ++ joined [d] (y :: l)). cbn [app]. rewrite split_app by assumption. f_equal. apply IH; [discriminate|assumption].
Qed.
Lemma text_lines_flat ls : Forall (fun x => ~ In LF x) ls -> text_lines (flat_map (fun x => x ++ [LF]) ls) = ls.
Proof.
  unfold text_lines. induction 1 as [|x ls N _ IH]; [reflexivity|]. cbn [flat_map]. rewrite <- app_assoc. cbn [app]. rewrite split_app by assumption.
  pose proof (split_not_nil LF (flat_map (fun x => x ++ [LF]) ls)). destruct (split LF (flat_map (fun x => x ++ [LF]) ls)) eqn:E; [easy|].
  change (removelast (x :: b :: l)) with (x :: removelast (b :: l)). rewrite IH. reflexivity.
Qed.
Lemma joined_free d c l : d <> c -> Forall (fun x => ~ In c x) l -> ~ In c (joined [d] l).
Proof.
  intros N. induction l as [|x l IH]; intros F; [easy|]. inversion F; subst. destruct l as [|y l]; [assumption|].
  change (joined [d] (x :: y :: l)) with (x ++ [d] ++ joined [d] (y :: l)). intros I. apply in_app_or in I as [I|I]; [easy|].
  apply in_app_or in I as [[I|[]]|I]; [easy|]. apply IH; assumption.
Qed.
Lemma read_lines d ls : d <> LF -> Forall (Forall (separable d)) ls ->
  read_separated d (flat_map (line_of d) ls) = map (fun l => match l with [] => [[]] | _ => l end) ls.
Proof.
  intros D F. unfold read_separated.
  replace (flat_map (line_of d) ls) with (flat_map (fun x => x ++ [LF]) (map (joined [d]) ls)).
  - rewrite text_lines_flat.
    + rewrite map_map. apply map_ext_Forall. eapply Forall_impl; [|exact F]. intros l FL.
      destruct l as [|x l]; [reflexivity|]. apply split_joined; [discriminate|]. eapply Forall_impl; [|exact FL]. intros a [A _]. exact A.
    + apply Forall_map. eapply Forall_impl; [|exact F]. intros l FL. apply joined_free; [assumption|]. eapply Forall_impl; [|exact FL]. intros a [_ A]. exact A.
  - clear. induction ls; cbn; [reflexivity|]. rewrite IHls. reflexivity.
Qed.
Lemma fields_whole r row : List.length row = List.length (headers r) -> fields r row = row.
Proof.
  intros L. assert (C : columnCount r row = List.length row) by (unfold columnCount; destruct (headers r); congruence).
  unfold fields. rewrite C. clear. induction row as [|x row IH]; [reflexivity|]. cbn [List.length seq map nth]. f_equal.
  rewrite <- seq_shift, map_map. exact IH.
Qed.
Lemma drop_empty_split l : exists n, l = repeat [] n ++ drop_empty l.
Proof.
  induction l as [|[|c x] l [n IH]]; [exists 0%nat; reflexivity| |exists 0%nat; reflexivity]. exists (S n). cbn. f_equal. exact IH.
Qed.
Lemma repeat_rev {T} (x : T) n : rev (repeat x n) = repeat x n.
Proof.
  induction n; [reflexivity|]. cbn. rewrite IHn. clear. induction n; [reflexivity|]. cbn. rewrite IHn. reflexivity.
Qed.
Lemma trimmed_filled row : filled (List.length row) (trimmed row) = row.
Proof.
  destruct (drop_empty_split (rev row)) as [n E]. unfold trimmed, filled. set (k := drop_empty (rev row)) in *.
  assert (R : row = rev k ++ repeat [] n). { rewrite <- (rev_involutive row), E, rev_app_distr, repeat_rev. reflexivity. }
  etransitivity; [|symmetry; exact R]. f_equal. f_equal. apply (f_equal (@List.length _)) in R. rewrite app_length, repeat_length in R. lia.
Qed.

(** * UTF-8 *)
Lemma land_low a k : N.land a (N.ones k) = a mod 2 ^ k.
Proof. apply N.land_ones. Qed.
Lemma lor_shift a b : b < 64 -> N.lor (N.shiftl a 6) b = a * 64 + b.
Proof.
  intros B. assert (L : N.land (N.shiftl a 6) b = 0).
  { apply N.bits_inj_0. intros n. rewrite N.land_spec. destruct (N.ltb_spec n 6).
    - rewrite N.shiftl_spec_low by assumption. reflexivity.
    - replace (N.testbit b n) with false; [apply andb_false_r|]. symmetry. destruct (N.eq_dec b 0) as [->|NZ]; [apply N.bits_0|].
      apply N.bits_above_log2. apply N.lt_le_trans with 6; [|assumption]. apply N.log2_lt_pow2; [lia|]. exact B. }
  rewrite <- N.lxor_lor by assumption. rewrite <- N.add_nocarry_lxor by assumption. rewrite N.shiftl_mul_pow2. reflexivity.
Qed.
Lemma code_of n : n < 256 -> bcode (ascii_of_N n) = n.
Proof. intros H. unfold bcode. apply N_ascii_embedding. exact H. Qed.
Definition implb_all (p q : N -> bool) := forallb (fun c => implb (p (bcode c)) (q (bcode c))) all_ascii.
Lemma by_code (p q : N -> bool) : implb_all p q = true -> forall n, n < 256 -> p n = true -> q n = true.
Proof.
  intros A n L P. pose proof (forall_ascii _ A (ascii_of_N n)) as H. cbv beta in H. rewrite code_of in H by assumption. rewrite P in H. exact H.
Qed.
Lemma trail_byte x : x < 64 -> N.land (bcode (ascii_of_N (128 + x))) 192 = 128 /\ N.land (bcode (ascii_of_N (128 + x))) 63 = x.
Proof.
  intros H. rewrite code_of by lia. pose proof (by_code (fun n => (128 <=? n) && (n <? 192)) (fun n => (N.land n 192 =? 128) && (N.land n 63 =? n - 128)) ltac:(vm_compute; reflexivity) (128 + x) ltac:(lia)) as A.
  cbv beta in A. specialize (A ltac:(lia)). apply andb_prop in A as [A1 A2]. apply N.eqb_eq in A1, A2. split; [exact A1|]. rewrite A2. lia.
Qed.
Lemma continue_1 k cp x s : x < 64 -> continuation (S k) cp (ascii_of_N (128 + x) :: s) = continuation k (cp * 64 + x) s.
Proof. intros H. cbn [continuation]. destruct (trail_byte x H) as [A B]. rewrite A, B. rewrite lor_shift by assumption. reflexivity. Qed.
Lemma next_utf8 v : code_point v -> exists c s, utf8_1 v = c :: s /\ forall rest, utf8Next c (s ++ rest) = (v, rest).
Proof.
  unfold code_point. intros V. unfold utf8_1. destruct (N.ltb_spec v 128).
  - eexists _, _. split; [reflexivity|]. intros rest. unfold utf8Next. rewrite code_of by lia. apply N.ltb_lt in H. rewrite H. reflexivity.
  - destruct (N.ltb_spec v 2048).
    + eexists _, _. split; [reflexivity|]. intros rest. unfold utf8Next.
      assert (Q : v / 64 < 32) by (apply N.div_lt_upper_bound; lia). rewrite code_of by lia.
      pose proof (by_code (fun n => (192 <=? n) && (n <? 224)) (fun n => negb (n <? 128) && (N.land n 224 =? 192) && (N.land n 31 =? n - 192)) ltac:(vm_compute; reflexivity) (192 + v / 64) ltac:(lia) ltac:(cbv beta; lia)) as A.
      cbv beta in A. apply andb_prop in A as [A A2]. apply andb_prop in A as [A0 A1]. apply negb_true_iff in A0. apply N.eqb_eq in A2. rewrite A0, A1, A2.
      cbn [app]. rewrite continue_1 by (apply N.mod_lt; lia). cbn [continuation]. f_equal. pose proof (N.div_mod v 64). lia.
    + destruct (N.ltb_spec v 65536).
      * eexists _, _. split; [reflexivity|]. intros rest. unfold utf8Next.
        assert (Q : v / 4096 < 16) by (apply N.div_lt_upper_bound; lia). rewrite code_of by lia.
        pose proof (by_code (fun n => (224 <=? n) && (n <? 240)) (fun n => negb (n <? 128) && negb (N.land n 224 =? 192) && (N.land n 240 =? 224) && (N.land n 15 =? n - 224)) ltac:(vm_compute; reflexivity) (224 + v / 4096) ltac:(lia) ltac:(cbv beta; lia)) as A.
        cbv beta in A. apply andb_prop in A as [A A2]. apply andb_prop in A as [A A1]. apply andb_prop in A as [A0 A3]. apply negb_true_iff in A0, A3. apply N.eqb_eq in A2. rewrite A0, A3, A1, A2.
        cbn [app]. rewrite !continue_1 by (apply N.mod_lt; lia). cbn [continuation]. f_equal.
        replace (v / 4096) with (v / 64 / 64) by (rewrite N.div_div by lia; reflexivity). pose proof (N.div_mod v 64). pose proof (N.div_mod (v / 64) 64). lia.
      * eexists _, _. split; [reflexivity|]. intros rest. unfold utf8Next.
        assert (Q : v / 262144 < 8) by (apply N.div_lt_upper_bound; lia). rewrite code_of by lia.
        pose proof (by_code (fun n => (240 <=? n) && (n <? 248)) (fun n => negb (n <? 128) && negb (N.land n 224 =? 192) && negb (N.land n 240 =? 224) && (N.land n 248 =? 240) && (N.land n 7 =? n - 240)) ltac:(vm_compute; reflexivity) (240 + v / 262144) ltac:(lia) ltac:(cbv beta; lia)) as A.
        cbv beta in A. apply andb_prop in A as [A A2]. apply andb_prop in A as [A A1]. apply andb_prop in A as [A A4]. apply andb_prop in A as [A0 A3]. apply negb_true_iff in A0, A3, A4. apply N.eqb_eq in A2. rewrite A0, A3, A4, A1, A2.
        cbn [app]. rewrite !continue_1 by (apply N.mod_lt; lia). cbn [continuation]. f_equal.
        replace (v / 262144) with (v / 64 / 64 / 64) by (rewrite !N.div_div by lia; reflexivity). replace (v / 4096) with (v / 64 / 64) by (rewrite N.div_div by lia; reflexivity).
        pose proof (N.div_mod v 64). pose proof (N.div_mod (v / 64) 64). pose proof (N.div_mod (v / 64 / 64) 64). lia.
Qed.
(** Bytes below 128 stand for themselves and are part of nothing else. *)
Lemma utf8_small v : v < 128 -> utf8_1 v = [ascii_of_N v].
Proof. intros H. unfold utf8_1. apply N.ltb_lt in H. rewrite H. reflexivity. Qed.
Lemma utf8_big v c : code_point v -> 128 <= v -> In c (utf8_1 v) -> 128 <= bcode c.
Proof.
  unfold code_point. intros V H I. unfold utf8_1 in I. assert (M : forall x, x mod 64 < 64) by (intros; apply N.mod_lt; lia).
  pose proof (M v). pose proof (M (v / 64)). pose proof (M (v / 4096)).
  destruct (N.ltb_spec v 128); [lia|]. destruct (N.ltb_spec v 2048); [|destruct (N.ltb_spec v 65536)].
  - assert (Q : v / 64 < 32) by (apply N.div_lt_upper_bound; lia). destruct I as [<-|[<-|[]]]; rewrite code_of; lia.
  - assert (Q : v / 4096 < 16) by (apply N.div_lt_upper_bound; lia). destruct I as [<-|[<-|[<-|[]]]]; rewrite code_of; lia.
  - assert (Q : v / 262144 < 8) by (apply N.div_lt_upper_bound; lia). destruct I as [<-|[<-|[<-|[<-|[]]]]]; rewrite code_of; lia.
Qed.
Lemma utf8_not_nil v : utf8_1 v <> [].
Proof. unfold utf8_1. repeat (destruct (_ <? _); [discriminate|]). discriminate. Qed.
Lemma utf8_app a b : utf8 (a ++ b) = utf8 a ++ utf8 b.
Proof. apply flat_map_app. Qed.
Lemma utf8_repeat v n : v < 128 -> utf8 (repeat v n) = repeat (ascii_of_N v) n.
Proof. intros H. induction n; [reflexivity|]. cbn [repeat]. change (utf8 (v :: repeat v n)) with (utf8_1 v ++ utf8 (repeat v n)). rewrite IHn, utf8_small by assumption. reflexivity. Qed.
Lemma utf8_cons v t : utf8 (v :: t) = utf8_1 v ++ utf8 t.
Proof. reflexivity. Qed.
Lemma in_utf8 n t : n < 128 -> Forall code_point t -> In (ascii_of_N n) (utf8 t) -> In n t.
Proof.
  intros L F I. apply in_flat_map in I as (v & Iv & I). assert (V : code_point v) by (rewrite Forall_forall in F; apply F; assumption).
  destruct (N.ltb_spec v 128).
  - rewrite utf8_small in I by assumption. destruct I as [I|[]]. apply (f_equal bcode) in I. rewrite !code_of in I by lia. congruence.
  - apply utf8_big in I; [|assumption|assumption]. rewrite code_of in I by lia. lia.
Qed.

(** * Widths *)
Lemma combining_iff v : isCombining v = among no_room v.
Proof. unfold isCombining, between, among, no_room, existsb, fst, snd. apply Bool.eq_iff_eq_true. rewrite !orb_true_iff, !andb_true_iff, !N.leb_le, !N.eqb_eq. lia. Qed.
Lemma wide_iff v : isWide v = among two_cells v.
Proof. unfold isWide, between, among, two_cells, existsb, fst, snd. apply Bool.eq_iff_eq_true. rewrite !orb_true_iff, !andb_true_iff, !N.leb_le. lia. Qed.
Lemma utf8_length t : (List.length t <= List.length (utf8 t))%nat.
Proof.
  induction t as [|v t IH]; [reflexivity|]. rewrite utf8_cons, app_length. pose proof (utf8_not_nil v). destruct (utf8_1 v); [easy|]. cbn [List.length]. lia.
Qed.
Lemma dw_utf8 t : Forall code_point t -> forall fuel, (List.length t <= fuel)%nat -> dw fuel (utf8 t) = width t.
Proof.
  induction 1 as [|v t V _ IH]; intros fuel L; [destruct fuel; reflexivity|]. destruct fuel as [|fuel]; [cbn in L; lia|].
  destruct (next_utf8 v V) as (c & s & E & N). rewrite utf8_cons, E. cbn [app dw]. rewrite N. cbn [List.length] in L.
  unfold width. cbn [fold_right]. fold (width t). rewrite IH by lia. unfold cells_of. rewrite combining_iff, wide_iff.
  destruct (N.eqb_spec v 0); [subst; reflexivity|]. destruct ((v <? 32) || (v =? 127)); [reflexivity|]. cbn [orb]. destruct (among no_room v); [reflexivity|].
  destruct (among two_cells v); reflexivity.
Qed.
Lemma displayWidth_utf8 t : Forall code_point t -> displayWidth (utf8 t) = width t.
Proof. intros F. apply dw_utf8; [assumption|apply utf8_length]. Qed.
Lemma et_utf8 t : Forall code_point t -> forall fuel col, (List.length t <= fuel)%nat -> et fuel col (utf8 t) = utf8 (tabs_out col t).
Proof.
  induction 1 as [|v t V _ IH]; intros fuel col L; [destruct fuel; reflexivity|]. destruct fuel as [|fuel]; [cbn in L; lia|].
  destruct (next_utf8 v V) as (c & s & E & N). rewrite utf8_cons, E. cbn [List.length] in L. rewrite <- app_comm_cons. cbn [et tabs_out]. rewrite N.
  destruct (N.eqb_spec v 9).
  - cbv zeta. rewrite utf8_app, utf8_repeat by lia. rewrite IH by lia. reflexivity.
  - rewrite utf8_cons. rewrite IH by lia. f_equal.
    + rewrite E. cbn [List.length]. rewrite app_length. replace (S (List.length s + List.length (utf8 t)) - List.length (utf8 t))%nat with (S (List.length s)) by lia.
      rewrite app_comm_cons. replace (S (List.length s)) with (List.length (c :: s) + 0)%nat by (cbn; lia). rewrite firstn_app_2. cbn. rewrite app_nil_r. reflexivity.
    + f_equal. f_equal. unfold cells_of. rewrite combining_iff, wide_iff.
      destruct (N.ltb_spec v 32); cbn [orb]; [replace (32 <=? v) with false by lia; cbn [andb]; lia|]. replace (32 <=? v) with true by lia. cbn [andb].
      destruct (v =? 127); cbn [orb negb andb]; [lia|]. destruct (among no_room v); cbn [negb]; [lia|]. destruct (among two_cells v); reflexivity.
Qed.
Lemma expandTabs_utf8 t : Forall code_point t -> expandTabs (utf8 t) = utf8 (tabs_out 0 t).
Proof. intros F. apply et_utf8; [assumption|apply utf8_length]. Qed.

(** * Lines *)
Lemma split_skip d x s : ~ In d x -> split d (x ++ s) = match split d s with y :: l => (x ++ y) :: l | [] => [] end.
Proof.
  intros N. induction x as [|c x IH]; cbn [app].
  - pose proof (split_not_nil d s). destruct (split d s); [easy|reflexivity].
  - cbn [split]. destruct (Ascii.eqb_spec c d); [subst; exfalso; apply N; left; reflexivity|]. rewrite IH by (intros I; apply N; right; assumption).
    pose proof (split_not_nil d s). destruct (split d s); [easy|reflexivity].
Qed.
Lemma split_utf8 t : Forall code_point t -> split LF (utf8 t) = map utf8 (cut t).
Proof.
  induction 1 as [|v t V _ IH]; [reflexivity|]. rewrite utf8_cons. cbn [cut]. destruct (N.eqb_spec v 10).
  - subst. change (utf8_1 10) with [LF]. cbn [app split]. rewrite Ascii.eqb_refl, IH. reflexivity.
  - rewrite split_skip.
    + rewrite IH. destruct (cut t); [|reflexivity]. exfalso. cbn in IH. revert IH. apply split_not_nil.
    + intros I. assert (I' : In (ascii_of_N 10) (utf8 [v])) by (rewrite utf8_cons; apply in_or_app; left; exact I). clear I. rename I' into I.
      apply (in_utf8 10 [v]) in I; [destruct I as [I|[]]; congruence|lia|constructor; [assumption|constructor]].

Qed.
Lemma ends_utf8 n t : n < 128 -> Forall code_point t ->
  (exists t', t = t' ++ [n]) \/ ((forall t', t <> t' ++ [n]) /\ (forall s, utf8 t <> s ++ [ascii_of_N n])).
Proof.
  intros L F. destruct t as [|w t0] using rev_ind; [right; split; intros ? E; [destruct t'|destruct s]; discriminate|]. clear IHt0.
  apply Forall_app in F as [_ V]. inversion V as [|? ? VW _]; subst. destruct (N.eq_dec w n) as [->|NE]; [left; eexists; reflexivity|].
  right. split; [intros t' E; apply app_inj_tail in E as [_ E]; congruence|]. intros s E. rewrite utf8_app, utf8_cons in E. rewrite app_nil_r in E.
  pose proof (utf8_not_nil w) as NN. destruct (utf8_1 w) as [|x l] eqn:U using rev_ind; [easy|]. clear IHl. rewrite app_assoc in E. apply app_inj_tail in E as [_ E]. subst x.
  assert (I : In (ascii_of_N n) (utf8_1 w)) by (rewrite U; apply in_or_app; right; left; reflexivity).
  assert (I' : In (ascii_of_N n) (utf8 [w])) by (rewrite utf8_cons; apply in_or_app; left; exact I).
  apply in_utf8 in I'; [|assumption|constructor; [assumption|constructor]]. destruct I' as [I'|[]]. congruence.
Qed.
Lemma pop_return_utf8 t : Forall code_point t -> pop_return (utf8 t) = utf8 (without_return t).
Proof.
  intros F. destruct (ends_utf8 13 t ltac:(lia) F) as [[t' ->]|[A B]].
  - unfold pop_return, without_return. rewrite utf8_app, !rev_app_distr. cbn [rev app]. change (utf8 [13]) with ["013"%char]. cbn [rev app]. rewrite Ascii.eqb_refl. rewrite !rev_involutive. reflexivity.
  - assert (X : pop_return (utf8 t) = utf8 t).
    { unfold pop_return. destruct (rev (utf8 t)) as [|c r] eqn:E; [reflexivity|]. destruct (Ascii.eqb_spec c "013"); [|reflexivity]. subst.
      exfalso. apply (B (rev r)). rewrite <- (rev_involutive (utf8 t)), E. reflexivity. }
    assert (Y : without_return t = t).
    { unfold without_return. destruct (rev t) as [|c r] eqn:E; [reflexivity|]. destruct (N.eqb_spec c 13); [|reflexivity]. subst.
      exfalso. apply (A (rev r)). rewrite <- (rev_involutive t), E. reflexivity. }
    congruence.
Qed.
Lemma trim_end_blank s n : (forall l, s <> l ++ [" "%char]) -> trim_end (s ++ repeat " "%char n) = s.
Proof.
  intros N. unfold trim_end. rewrite rev_app_distr, repeat_rev.
  assert (X : drop_blanks (rev s) = rev s).
  { destruct (rev s) as [|c r] eqn:E; [reflexivity|]. cbn. destruct (Ascii.eqb_spec c " "); [|reflexivity]. subst. exfalso. apply (N (rev r)). rewrite <- (rev_involutive s), E. reflexivity. }
  induction n as [|n IH]; cbn [repeat app]; [rewrite X; apply rev_involutive|]. cbn. exact IH.
Qed.
Lemma trim_text (t : text) : exists t' k, t = t' ++ blank k /\ forall l, t' <> l ++ [32].
Proof.
  induction t as [|v t (t' & k & E & N)] using rev_ind.
  - exists [], 0%nat. split; [reflexivity|]. intros [|] E; discriminate.
  - destruct (N.eq_dec v 32) as [->|NE].
    + exists t', (S k). split; [|assumption]. rewrite E, <- app_assoc. f_equal. unfold blank. change [32] with (repeat 32 1). rewrite <- repeat_app. f_equal. lia.
    + exists (t ++ [v]), 0%nat. split; [cbn; rewrite app_nil_r; reflexivity|]. intros l X. apply app_inj_tail in X as [_ X]. congruence.
Qed.
Lemma trim_utf8 t : Forall code_point t -> exists t' k, t = t' ++ blank k /\ (forall l, t' <> l ++ [32]) /\ trim_end (utf8 t) = utf8 t'.
Proof.
  intros F. destruct (trim_text t) as (t' & k & E & N). exists t', k. split; [assumption|]. split; [assumption|]. rewrite E. unfold blank.
  rewrite utf8_app, utf8_repeat by lia. apply trim_end_blank.
  assert (F' : Forall code_point t') by (rewrite E in F; apply Forall_app in F as [F _]; exact F).
  destruct (ends_utf8 32 t' ltac:(lia) F') as [[l X]|[_ B]]; [exfalso; apply (N l); assumption|]. exact B.
Qed.

(** What the pieces are made of. *)
Lemma cut_forall (P : N -> Prop) t : Forall P t -> Forall (Forall P) (cut t).
Proof.
  induction 1 as [|v t V _ IH]; [repeat constructor|]. cbn. destruct (v =? 10); [constructor; [constructor|assumption]|].
  destruct (cut t); [repeat constructor; assumption|]. inversion IH; subst. constructor; [constructor; assumption|assumption].
Qed.
Lemma cut_no_feed t : Forall (Forall (fun v => v <> 10)) (cut t).
Proof.
  induction t as [|v t IH]; [repeat constructor|]. cbn. destruct (N.eqb_spec v 10); [constructor; [constructor|assumption]|].
  destruct (cut t); [repeat constructor; assumption|]. inversion IH; subst. constructor; [constructor; assumption|assumption].
Qed.
Lemma without_return_forall (P : N -> Prop) t : Forall P t -> Forall P (without_return t).
Proof.
  intros F. unfold without_return. destruct (rev t) as [|v r] eqn:E; [assumption|]. destruct (v =? 13); [|assumption].
  apply Forall_rev. apply Forall_rev in F. rewrite E in F. inversion F; assumption.
Qed.
Lemma tabs_out_forall (P : N -> Prop) t : P 32 -> Forall P t -> forall col, Forall P (tabs_out col t).
Proof.
  intros P32. induction 1 as [|v t V _ IH]; intros col; [constructor|]. cbn [tabs_out]. destruct (v =? 9); [|constructor; [assumption|apply IH]].
  apply Forall_app. split; [|apply IH]. apply Forall_forall. intros x I. apply repeat_spec in I. subst. assumption.
Qed.
Lemma lines_of_forall (P : N -> Prop) c : P 32 -> Forall P c -> Forall (Forall P) (lines_of c).
Proof.
  intros P32 F. unfold lines_of. apply Forall_map. eapply Forall_impl; [|apply cut_forall; exact F]. intros l L. apply tabs_out_forall; [assumption|]. apply without_return_forall. assumption.
Qed.
Lemma lines_of_no_feed c : Forall (Forall (fun v => v <> 10)) (lines_of c).
Proof.
  unfold lines_of. apply Forall_map. eapply Forall_impl; [|apply cut_no_feed]. intros l L. apply tabs_out_forall; [discriminate|]. apply without_return_forall. assumption.
Qed.
Lemma sublines_utf8 c : Forall code_point c -> sublines (utf8 c) = map utf8 (lines_of c).
Proof.
  intros F. unfold sublines, splitLines, lines_of. rewrite split_utf8 by assumption. rewrite !map_map. apply map_ext_Forall.
  eapply Forall_impl; [|apply cut_forall; exact F]. intros l L. cbv beta. rewrite pop_return_utf8 by assumption. apply expandTabs_utf8. apply without_return_forall. assumption.
Qed.
Lemma splitLines_length c : Forall code_point c -> List.length (splitLines (utf8 c)) = List.length (lines_of c).
Proof. intros F. unfold splitLines, lines_of. rewrite split_utf8 by assumption. rewrite !map_length. reflexivity. Qed.
Lemma subline_nth c k : Forall code_point c -> expandTabs (nth k (splitLines (utf8 c)) []) = utf8 (nth k (lines_of c) []).
Proof.
  intros F. change (@nil ascii) with (expandTabs []) at 1. change (expandTabs []) with (@nil ascii).
  transitivity (nth k (sublines (utf8 c)) []).
  - unfold sublines. rewrite <- (map_nth expandTabs). reflexivity.
  - rewrite sublines_utf8 by assumption. change (@nil ascii) with (utf8 []). apply map_nth.
Qed.

(** * The columns *)
Lemma nth_map_inv {A B} (f : A -> B) l : forall j y, nth_error (map f l) j = Some y -> exists x, nth_error l j = Some x /\ y = f x.
Proof. induction l as [|a l IH]; intros [|j] y E; try discriminate; cbn in E; [injection E as <-; exists a; split; reflexivity|apply IH; assumption]. Qed.
Lemma max_subline_spec c w : Forall code_point c ->
  (w <= max_subline (utf8 c) w)%nat /\ (forall t, In t (lines_of c) -> (width t <= max_subline (utf8 c) w)%nat) /\
  (max_subline (utf8 c) w = w \/ exists t, In t (lines_of c) /\ width t = max_subline (utf8 c) w).
Proof.
  intros F. unfold max_subline. rewrite sublines_utf8 by assumption. pose proof (lines_of_forall code_point c ltac:(unfold code_point; lia) F) as L. revert w.
  induction L as [|l ls FL _ IH]; intros w; cbn [map fold_left].
  - repeat split; [lia|intros t []|left; reflexivity].
  - rewrite displayWidth_utf8 by assumption. destruct (IH (Nat.max w (width l))) as (A & B & C). split; [lia|]. split.
    + intros t [<-|I]; [lia|apply B; assumption].
    + destruct C as [C|(t & I & C)]; [|right; exists t; split; [right; assumption|assumption]].
      rewrite C. destruct (Nat.max_spec w (width l)) as [[? E]|[? E]]; [right; exists l; split; [left; reflexivity|lia]|left; assumption].
Qed.
Definition to_result (heads : list text) (rs : list (list text)) : sqresult := mkResult (map utf8 heads) (map (map utf8) rs).
Definition add_row (ws : list nat) (row : list bytes) : list nat :=
  map (fun p => match snd p with Some c => max_subline c (fst p) | None => fst p end)
      (combine ws (map Some row ++ repeat None (List.length ws - List.length row))).
Lemma add_row_nth row : forall ws j w, List.length row = List.length ws -> nth_error (add_row ws row) j = Some w ->
  exists c w0, nth_error row j = Some c /\ nth_error ws j = Some w0 /\ w = max_subline c w0.
Proof.
  unfold add_row. intros ws j w L. rewrite L, Nat.sub_diag. cbn [repeat]. rewrite app_nil_r.
  revert ws j L. induction row as [|c row IH]; intros [|w0 ws] j L; cbn in L; try discriminate; [destruct j; discriminate|].
  destruct j as [|j]; cbn.
  - intros H. injection H as <-. exists c, w0. repeat split.
  - apply IH. lia.
Qed.
Lemma add_row_length ws row : List.length row = List.length ws -> List.length (add_row ws row) = List.length ws.
Proof.
  intros L. unfold add_row. rewrite map_length, combine_length, app_length, map_length, repeat_length. lia.
Qed.
Lemma widths_needed heads rs : Forall (Forall code_point) heads -> Forall (Forall (Forall code_point)) rs ->
  Forall (fun row => List.length row = List.length heads) rs -> as_wide_as_needed heads rs (widths_of (to_result heads rs)).
Proof.
  intros FH FR LR. unfold widths_of, to_result, rows, headers.
  change (as_wide_as_needed heads rs (fold_left add_row (map (map utf8) rs) (map (fun h => displayWidth (expandTabs h)) (map utf8 heads)))).
  assert (B : as_wide_as_needed heads [] (map (fun h => displayWidth (expandTabs h)) (map utf8 heads))).
  { rewrite map_map. split; [apply map_length|]. intros j w E. apply nth_map_inv in E as (h & H & ->).
    assert (C : Forall code_point h) by (rewrite Forall_forall in FH; apply FH; eapply nth_error_In; exact H).
    rewrite expandTabs_utf8 by assumption. rewrite displayWidth_utf8 by (apply tabs_out_forall; [unfold code_point; lia|assumption]).
    split.
    - intros t [(h' & E & ->)|(row & _ & [] & _)]. rewrite H in E. injection E as <-. reflexivity.
    - eexists. split; [|reflexivity]. left. exists h. split; [assumption|reflexivity]. }
  assert (S : forall row done ws, Forall (Forall code_point) row -> List.length row = List.length heads -> as_wide_as_needed heads done ws ->
              as_wide_as_needed heads (done ++ [row]) (add_row ws (map utf8 row))).
  { clear. intros row done ws FC L [LW A]. split; [rewrite add_row_length by (rewrite map_length; lia); assumption|]. intros j w E.
    apply add_row_nth in E; [|rewrite map_length; lia]. destruct E as (c & w0 & EC & EW & ->). apply nth_map_inv in EC as (c0 & EC0 & ->).
    assert (C : Forall code_point c0) by (rewrite Forall_forall in FC; apply FC; eapply nth_error_In; exact EC0).
    destruct (max_subline_spec c0 w0 C) as (M1 & M2 & M3). destruct (A j w0 EW) as [A1 (t0 & I0 & A2)]. split.
    - intros t [H|(row' & cell & I & EC & It)]; [specialize (A1 t (or_introl H)); lia|]. apply in_app_or in I as [I|[<-|[]]].
      + specialize (A1 t (or_intror (ex_intro _ row' (ex_intro _ cell (conj I (conj EC It)))))). lia.
      + rewrite EC0 in EC. injection EC as <-. apply M2. assumption.
    - destruct M3 as [->|(t & It & Et)].
      + exists t0. split; [|assumption]. destruct I0 as [H|(row' & cell & I & EC & It)]; [left; assumption|]. right. exists row', cell. split; [apply in_or_app; left; assumption|split; assumption].
      + exists t. split; [|assumption]. right. exists row, c0. split; [apply in_or_app; right; left; reflexivity|split; assumption]. }
  change rs with ([] ++ rs) at 1. revert B. generalize (@nil (list text)) as done. generalize (map (fun h => displayWidth (expandTabs h)) (map utf8 heads)) as ws.
  induction rs as [|row rs IH]; intros ws done B; [rewrite app_nil_r; exact B|]. inversion FR; subst. inversion LR; subst. cbn [map fold_left].
  replace (done ++ row :: rs) with ((done ++ [row]) ++ rs) by (rewrite <- app_assoc; reflexivity). apply IH; [assumption|assumption|]. apply S; assumption.
Qed.
Fixpoint laid (ws : list nat) (ts : list text) : text :=
  match ws, ts with
  | [_], [t] => t
  | w :: ws, t :: ts => t ++ blank (w - width t) ++ blank 2 ++ laid ws ts
  | _, _ => []
  end.
Definition fits (ws : list nat) (ts : list text) : Prop := Forall2 (fun w t => (width t <= w)%nat) ws ts.
Lemma laid_shows ws : forall ts, ws <> [] -> fits ws ts -> shows ws ts (laid ws ts).
Proof.
  induction ws as [|w ws IH]; intros ts NE F; [easy|]. inversion F as [|? t ? ts' W F']; subst.
  destruct ws as [|w' ws]; inversion F' as [|? t' ? ts W' F'']; subst; [reflexivity|].
  exists (laid (w' :: ws) (t' :: ts)). split; [assumption|]. split; [reflexivity|]. apply IH; [discriminate|assumption].
Qed.
Lemma laid_utf8 ws : forall ts, ws <> [] -> fits ws ts -> Forall (Forall code_point) ts -> joined (lit "  ") (padded ws (map utf8 ts)) = utf8 (laid ws ts).
Proof.
  induction ws as [|w ws IH]; intros ts NE F C; [easy|]. inversion F as [|? t ? ts' W F']; subst. inversion C as [|? ? Ct C']; subst.
  destruct ws as [|w' ws]; inversion F' as [|? t' ? ts W' F'']; subst; [reflexivity|].
  specialize (IH (t' :: ts) ltac:(discriminate) F' C').
  change (map utf8 (t :: t' :: ts)) with (utf8 t :: map utf8 (t' :: ts)).
  change (padded (w :: w' :: ws) (utf8 t :: map utf8 (t' :: ts))) with (padToWidth (utf8 t) w :: padded (w' :: ws) (map utf8 (t' :: ts))).
  assert (NN : padded (w' :: ws) (map utf8 (t' :: ts)) <> []) by (destruct ts; discriminate).
  destruct (padded (w' :: ws) (map utf8 (t' :: ts))) as [|p ps]; [easy|].
  change (joined (lit "  ") (padToWidth (utf8 t) w :: p :: ps)) with (padToWidth (utf8 t) w ++ lit "  " ++ joined (lit "  ") (p :: ps)).
  rewrite IH. change (laid (w :: w' :: ws) (t :: t' :: ts)) with (t ++ blank (w - width t) ++ blank 2 ++ laid (w' :: ws) (t' :: ts)).
  rewrite !utf8_app. change (utf8 (blank 2)) with (lit "  "). unfold blank. rewrite utf8_repeat by lia. rewrite (app_assoc (utf8 t)). f_equal.
  unfold padToWidth. rewrite displayWidth_utf8 by assumption. cbv zeta. destruct (Nat.ltb_spec (width t) w); [reflexivity|].
  replace (w - width t)%nat with 0%nat by lia. cbn. rewrite app_nil_r. reflexivity.
Qed.
Lemma laid_forall (P : N -> Prop) ws : P 32 -> forall ts, Forall (Forall P) ts -> Forall P (laid ws ts).
Proof.
  intros P32. assert (B : forall n, Forall P (blank n)) by (intros n; apply Forall_forall; intros x I; apply repeat_spec in I; subst; assumption).
  induction ws as [|w ws IH]; intros ts F; [constructor|]. inversion F; subst; [destruct ws; constructor|].
  destruct ws; [destruct l; [assumption|]|]; cbn [laid]; repeat (apply Forall_app; split; try assumption; try apply B); try apply IH; try assumption; constructor.
Qed.
Lemma render_shown ws ts : ws <> [] -> fits ws ts -> Forall (Forall code_point) ts -> Forall (Forall (fun v => v <> 10)) ts ->
  exists line, render ws (map utf8 ts) = utf8 line ++ [LF] /\ shows_trimmed ws ts line /\ Forall (fun v => v <> 10) line.
Proof.
  intros NE F C NF. unfold render. rewrite laid_utf8 by assumption.
  destruct (trim_utf8 (laid ws ts)) as (line & k & E & N & T); [apply laid_forall; [unfold code_point; lia|assumption]|].
  exists line. rewrite T. split; [reflexivity|]. split.
  - split; [|assumption]. exists k. rewrite <- E. apply laid_shows; assumption.
  - pose proof (laid_forall (fun v => v <> 10) ws ltac:(discriminate) ts NF) as X. rewrite E in X. apply Forall_app in X as [X _]. exact X.
Qed.
Lemma height_tallest row : row <> [] -> Forall (Forall code_point) row -> height (map utf8 row) = tallest row.
Proof.
  intros NE F. unfold height.
  assert (G : forall l n, Forall (Forall code_point) l -> fold_left (fun n c => Nat.max n (List.length (splitLines c))) (map utf8 l) n = Nat.max n (tallest l)).
  { clear. induction l as [|c l IH]; intros n F; cbn [map fold_left]; [unfold tallest; cbn; lia|]. inversion F; subst. rewrite IH by assumption. rewrite splitLines_length by assumption.
    unfold tallest. cbn [fold_right]. lia. }
  rewrite G by assumption. destruct row as [|c row]; [easy|]. unfold tallest. cbn [fold_right].
  assert (1 <= List.length (lines_of c))%nat; [|lia]. unfold lines_of. rewrite map_length. destruct c as [|v c]; cbn; [lia|]. destruct (v =? 10); [cbn; lia|]. destruct (cut c); cbn; lia.
Qed.
Lemma fits_column heads rs ws ts : as_wide_as_needed heads rs ws -> List.length ts = List.length heads ->
  (forall j t, nth_error ts j = Some t -> in_column j heads rs t \/ t = []) -> fits ws ts.
Proof.
  intros [L A] LT I. assert (LW : List.length ws = List.length ts) by lia.
  assert (P : forall j w t, nth_error ws j = Some w -> nth_error ts j = Some t -> (width t <= w)%nat).
  { intros j w t Ew Et. destruct (A j w Ew) as [A1 _]. destruct (I j t Et) as [H| ->]; [apply A1; assumption|cbn; lia]. }
  clear - LW P. revert ts LW P. unfold fits. induction ws as [|w ws IH]; intros [|t ts] LW P; try discriminate; [constructor|]. constructor.
  - apply (P 0%nat); reflexivity.
  - apply IH; [cbn in LW; lia|]. intros j w' t' Ew Et. apply (P (S j)); assumption.
Qed.
Lemma nth_line_in c k : nth k (lines_of c) [] = [] \/ In (nth k (lines_of c) []) (lines_of c).
Proof. destruct (Nat.ltb_spec k (List.length (lines_of c))); [right; apply nth_In; assumption|left; apply nth_overflow; assumption]. Qed.
Lemma row_render heads rs ws row : heads <> [] -> as_wide_as_needed heads rs ws -> In row rs -> List.length row = List.length heads -> Forall (Forall code_point) row ->
  exists lines, render_row ws (map utf8 row) = flat_map (fun l => utf8 l ++ [LF]) lines /\ row_shown ws row lines /\ Forall (Forall (fun v => v <> 10)) lines.
Proof.
  intros HN AW I L C. assert (RN : row <> []) by (destruct row, heads; easy).
  assert (WN : ws <> []) by (destruct AW as [LW _]; destruct ws, heads; easy).
  unfold render_row. rewrite height_tallest by assumption.
  assert (K : forall k, exists line, render ws (map (fun c => expandTabs (nth k (splitLines c) [])) (map utf8 row)) = utf8 line ++ [LF]
              /\ shows_trimmed ws (map (fun c => nth k (lines_of c) []) row) line /\ Forall (fun v => v <> 10) line).
  { intros k. rewrite map_map.
    replace (map (fun x => expandTabs (nth k (splitLines (utf8 x)) [])) row) with (map utf8 (map (fun c => nth k (lines_of c) []) row)).
    - apply render_shown; [assumption| | |].
      + apply (fits_column heads rs); [assumption|rewrite map_length; assumption|]. intros j t E. apply nth_map_inv in E as (c & EC & ->).
        destruct (nth_line_in c k) as [H|H]; [right; assumption|]. left. right. exists row, c. repeat split; assumption.
      + apply Forall_map. eapply Forall_impl; [|exact C]. intros c Cc. destruct (nth_line_in c k) as [H|H]; [rewrite H; constructor|].
        pose proof (lines_of_forall code_point c ltac:(unfold code_point; lia) Cc) as X. rewrite Forall_forall in X. apply X. assumption.
      + apply Forall_map. apply Forall_forall. intros c _. destruct (nth_line_in c k) as [H|H]; [rewrite H; constructor|].
        pose proof (lines_of_no_feed c) as X. rewrite Forall_forall in X. apply X. assumption.
    - rewrite map_map. apply map_ext_Forall. eapply Forall_impl; [|exact C]. intros c Cc. symmetry. apply subline_nth. assumption. }
  assert (G : forall n s, exists lines, flat_map (fun k => render ws (map (fun c => expandTabs (nth k (splitLines c) [])) (map utf8 row))) (seq s n) = flat_map (fun l => utf8 l ++ [LF]) lines
              /\ List.length lines = n /\ (forall k line, nth_error lines k = Some line -> shows_trimmed ws (map (fun c => nth (s + k) (lines_of c) []) row) line) /\ Forall (Forall (fun v => v <> 10)) lines).
  { induction n as [|n IH]; intros s.
    - exists []. split; [reflexivity|]. split; [reflexivity|]. split; [intros [|k] line E; discriminate|constructor].
    - destruct (IH (S s)) as (lines & E1 & E2 & E3 & E4). destruct (K s) as (line & K1 & K2 & K3). exists (line :: lines). cbn [seq flat_map List.length]. rewrite E1, K1, E2. split; [reflexivity|]. split; [reflexivity|]. split.
      + intros [|k] l E; cbn in E; [injection E as <-; rewrite Nat.add_0_r; assumption|]. apply E3 in E. replace (s + S k)%nat with (S s + k)%nat by lia. assumption.
      + constructor; assumption. }
  destruct (G (tallest row) 0%nat) as (lines & E1 & E2 & E3 & E4). exists lines. split; [exact E1|]. split; [split; assumption|assumption].
Qed.
Lemma ruler_joined ws : joined (lit "  ") (map (fun w => repeat "-"%char w) ws) = utf8 (ruler ws).
Proof.
  induction ws as [|w ws IH]; [reflexivity|]. destruct ws as [|w' ws]; [symmetry; apply (utf8_repeat 45); lia|].
  change (ruler (w :: w' :: ws)) with (repeat 45 w ++ blank 2 ++ ruler (w' :: ws)). rewrite !utf8_app, <- IH. rewrite utf8_repeat by lia. reflexivity.
Qed.
Lemma ruler_forall (P : N -> Prop) ws : P 32 -> P 45 -> Forall P (ruler ws).
Proof.
  intros A B. assert (R : forall v n, P v -> Forall P (repeat v n)) by (intros v n V; apply Forall_forall; intros x I; apply repeat_spec in I; subst; assumption).
  induction ws as [|w ws IH]; [constructor|]. destruct ws as [|w' ws]; [apply R; assumption|].
  change (ruler (w :: w' :: ws)) with (repeat 45 w ++ blank 2 ++ ruler (w' :: ws)). repeat (apply Forall_app; split); [apply R; assumption|apply R; assumption|exact IH].
Qed.
