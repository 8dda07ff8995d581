(** C84: the version a server tells. *)
From Verif Require Import Base Text_Spec Text_Model Text_Proofs Text_Props Start_Model Start_Props Version_Spec Version_Model.

(** ** Sorting *)
Lemma leb_total a : forall b, leb a b = true \/ leb b a = true.
Proof.
  induction a as [|x a IH]; intros [|y b]; cbn [leb]; auto.
  destruct (N.ltb_spec (N_of_ascii x) (N_of_ascii y)); [auto|]. destruct (N.ltb_spec (N_of_ascii y) (N_of_ascii x)); [auto|apply IH].
Qed.
Lemma leb_antisym a : forall b, leb a b = true -> leb b a = true -> a = b.
Proof.
  induction a as [|x a IH]; intros [|y b]; cbn [leb]; try discriminate; [reflexivity|].
  destruct (N.ltb_spec (N_of_ascii x) (N_of_ascii y)), (N.ltb_spec (N_of_ascii y) (N_of_ascii x)); try lia; try discriminate.
  intros A B. rewrite (IH b A B). f_equal. rewrite <- (ascii_N_embedding x), <- (ascii_N_embedding y). f_equal. lia.
Qed.
Lemma leb_trans a : forall b c, leb a b = true -> leb b c = true -> leb a c = true.
Proof.
  induction a as [|x a IH]; intros [|y b] [|z c]; cbn [leb]; try discriminate; auto.
  destruct (N.ltb_spec (N_of_ascii x) (N_of_ascii y)), (N.ltb_spec (N_of_ascii y) (N_of_ascii x)),
    (N.ltb_spec (N_of_ascii y) (N_of_ascii z)), (N.ltb_spec (N_of_ascii z) (N_of_ascii y)),
    (N.ltb_spec (N_of_ascii x) (N_of_ascii z)), (N.ltb_spec (N_of_ascii z) (N_of_ascii x)); try lia; try discriminate; auto. apply IH.
Qed.
Inductive ordered : list bytes -> Prop :=
| ordered_nil : ordered []
| ordered_cons x l : (forall y, In y l -> leb x y = true) -> ordered l -> ordered (x :: l).
Lemma insert_perm x l : Permutation (insert x l) (x :: l).
Proof.
  induction l as [|y l IH]; cbn [insert]; [reflexivity|]. destruct (leb x y); [reflexivity|]. rewrite IH. apply perm_swap.
Qed.
Lemma sort_perm l : Permutation (sort l) l.
Proof. induction l as [|x l IH]; [reflexivity|]. cbn [sort fold_right]. rewrite insert_perm. constructor. exact IH. Qed.
Lemma insert_ordered x l : ordered l -> ordered (insert x l).
Proof.
  induction 1 as [|y l H O IH]; cbn [insert]; [constructor; [intros y []|constructor]|].
  destruct (leb x y) eqn:E.
  - constructor; [|constructor; assumption]. intros z [<-|I]; [exact E|]. apply (leb_trans x y z E), H, I.
  - constructor; [|exact IH]. intros z I. apply (Permutation_in z (insert_perm x l)) in I. destruct I as [<-|I]; [|apply H, I].
    destruct (leb_total x y) as [Q|Q]; [congruence|exact Q].
Qed.
Lemma sort_ordered l : ordered (sort l).
Proof. induction l as [|x l IH]; cbn [sort fold_right]; [constructor|apply insert_ordered, IH]. Qed.
Lemma ordered_unique l : forall l', ordered l -> ordered l' -> Permutation l l' -> l = l'.
Proof.
  induction l as [|x l IH]; intros l' O O' P; [apply Permutation_nil in P; congruence|].
  destruct l' as [|y l']; [apply Permutation_sym, Permutation_nil in P; discriminate P|].
  inversion O as [|? ? A OA]; subst. inversion O' as [|? ? B OB]; subst.
  assert (x = y) as ->.
  { assert (I : In x (y :: l')) by (apply (Permutation_in x P); left; reflexivity).
    assert (J : In y (x :: l)) by (apply (Permutation_in y (Permutation_sym P)); left; reflexivity).
    destruct I as [I|I]; [congruence|]. destruct J as [J|J]; [congruence|]. apply leb_antisym; [apply A, J|apply B, I]. }
  f_equal. apply IH; try assumption. exact (Permutation_cons_inv P).
Qed.
Lemma sort_same l l' : Permutation l l' -> sort l = sort l'.
Proof. intros P. apply ordered_unique; try apply sort_ordered. rewrite !sort_perm. exact P. Qed.
Lemma sort_inj l l' : sort l = sort l' -> Permutation l l'.
Proof. intros E. rewrite <- (sort_perm l), E. apply sort_perm. Qed.

(** ** Parts *)
Lemma compose_parse l : Forall (list_element ":") l -> SParseList (SComposeList (sort l) (lit ":")) ":" = sort l.
Proof.
  intros F. apply (C12_list_roundtrip ":" 0); [discriminate|]. rewrite Forall_forall in *. intros x I. apply F, (Permutation_in x (sort_perm l)), I.
Qed.
Lemma parts_perm V ps l l' : parts V ps l -> Permutation l l' -> parts V ps l' .
Proof.
  intros H. revert l'. induction H as [|p s ps l l1 E H IH P|p ps l E H IH]; intros l' Q.
  - apply Permutation_length_1_inv in Q. subst. constructor.
  - econstructor; [exact E|exact H|]. rewrite P. exact Q.
  - apply parts_silent; [exact E|apply IH, Q].
Qed.
Lemma parts_unique V ps l l' : parts V ps l -> parts V ps l' -> Permutation l l'.
Proof.
  intros H. revert l'. induction H as [|p s ps l l1 E H IH P|p ps l E H IH]; intros l' Q; inversion Q as [|? s' ? k k' E' H' P'|? ? k E' H']; subst; try congruence.
  - reflexivity.
  - rewrite <- P, <- P'. assert (s = s') as -> by congruence. constructor. apply IH. exact H'.
  - apply IH. assumption.
Qed.
Lemma parts_snoc V ps p l s : parts V ps l -> said p = Some s -> parts V (ps ++ [p]) (l ++ [s]).
Proof.
  intros H E. induction H as [|q t ps l l1 F H IH P|q ps l F H IH]; cbn [app].
  - econstructor; [exact E|constructor|]. apply perm_swap.
  - econstructor; [exact F|exact IH|]. rewrite app_comm_cons, P. reflexivity.
  - apply parts_silent; assumption.
Qed.
Lemma parts_snoc_silent V ps p l : parts V ps l -> said p = None -> parts V (ps ++ [p]) l.
Proof.
  intros H E. induction H as [|q t ps l l1 F H IH P|q ps l F H IH]; cbn [app].
  - apply parts_silent; [exact E|constructor].
  - econstructor; [exact F|exact IH|exact P].
  - apply parts_silent; assumption.
Qed.

Lemma parts_map V make k k' : Permutation k k' -> forall v, parts V (map make k) v -> parts V (map (make : bytes -> plugin) k') v.
Proof.
  induction 1 as [|x k k' P IH|x y k|k k' k'' P IH P' IH']; intros v Q; cbn [map] in *; [exact Q| | |apply IH', IH, Q].
  - inversion Q as [|? s ? w ? X Y Z|? ? w X Y]; subst; [econstructor; [exact X|apply IH, Y|exact Z]|apply parts_silent; [exact X|apply IH, Y]].
  - inversion Q as [|? s ? w ? X Y Z|? ? w X Y]; subst; inversion Y as [|? t ? u ? X1 Y1 Z1|? ? u X1 Y1]; subst.
    + eapply parts_says; [exact X1|eapply parts_says; [exact X|exact Y1|reflexivity]|]. rewrite <- Z, <- Z1. apply perm_swap.
    + apply parts_silent; [exact X1|]. eapply parts_says; [exact X|exact Y1|exact Z].
    + eapply parts_says; [exact X1|apply parts_silent; [exact X|exact Y1]|exact Z1].
    + apply parts_silent; [exact X1|]. apply parts_silent; assumption.
Qed.

(** ** Creating the plugins *)
Lemma create_inv V registered make l : forall done ps vs, parts V done vs ->
  (forall p, In p ps -> In p done) -> NoDup (map p_name ps) -> (forall p, In p done -> In (p_name p) (map p_name ps)) ->
  match create registered make l ps vs with
  | Some (ps', vs') => (forall n, In n l -> In (SToUpper n) registered) /\ parts V (done ++ map (fun n => make (SToUpper n)) l) vs' /\
      (forall p, In p ps' -> In p (done ++ map (fun n => make (SToUpper n)) l)) /\ NoDup (map p_name ps') /\
      (forall p, In p (done ++ map (fun n => make (SToUpper n)) l) -> In (p_name p) (map p_name ps'))
  | None => exists n, In n l /\ ~ In (SToUpper n) registered
  end.
Proof.
  induction l as [|n l IH]; intros done ps vs PT A B C; cbn [create].
  - cbn [map]. rewrite app_nil_r. repeat split; try assumption. intros n [].
  - destruct (known (SToUpper n) registered) eqn:K.
    + apply known_in in K. cbv zeta. set (p := make (SToUpper n)).
      set (vs1 := match p_version p with Some v => vs ++ [p_name p ++ lit "_" ++ v] | None => vs end).
      assert (PT1 : parts V (done ++ [p]) vs1).
      { unfold vs1. destruct (p_version p) as [v|] eqn:E; [apply parts_snoc; [exact PT|]|apply parts_snoc_silent; [exact PT|]]; unfold said; rewrite E; reflexivity. }
      assert (EM : (forall q, In q (emplace p ps) -> In q (done ++ [p])) /\ NoDup (map p_name (emplace p ps)) /\ (forall q, In q (done ++ [p]) -> In (p_name q) (map p_name (emplace p ps)))).
      { unfold emplace. destruct (existsb (fun q => bytes_eqb (p_name q) (p_name p)) ps) eqn:X.
        - apply existsb_exists in X as (q & I & X). apply bytes_eqb_eq in X. split; [|split; [exact B|]].
          + intros r J. apply in_or_app. left. apply A, J.
          + intros r J. apply in_app_or in J as [J|[<-|[]]]; [apply C, J|]. rewrite <- X. apply in_map, I.
        - split; [|split].
          + intros r J. apply in_app_or in J as [J|J]; apply in_or_app; [left; apply A, J|right; exact J].
          + rewrite map_app. cbn [map]. apply (Permutation_NoDup (Permutation_cons_append _ _)). constructor; [|exact B].
            intros J. apply in_map_iff in J as (q & E & J). assert (existsb (fun q => bytes_eqb (p_name q) (p_name p)) ps = true) as Y by (apply existsb_exists; exists q; split; [exact J|apply bytes_eqb_eq, E]). congruence.
          + intros r J. rewrite map_app. apply in_or_app. apply in_app_or in J as [J|[<-|[]]]; [left; apply C, J|right; left; reflexivity]. }
      destruct EM as (A1 & B1 & C1). specialize (IH _ _ _ PT1 A1 B1 C1).
      destruct (create registered make l (emplace p ps) vs1) as [[ps' vs']|].
      * rewrite <- app_assoc in IH. cbn [app] in IH. destruct IH as (H1 & H2 & H3 & H4 & H5). cbn [map]. fold p.
        split; [intros m [<-|I]; [exact K|apply H1, I]|]. repeat split; assumption.
      * destruct IH as (m & I & J). exists m. split; [right; exact I|exact J].
    + exists n. split; [left; reflexivity|]. intros I. apply known_in in I. congruence.
Qed.

Lemma upper_upper_bytes b : SToUpper (map upper b) = map upper b.
Proof.
  unfold SToUpper. rewrite map_map. apply map_ext. intros [[] [] [] [] [] [] [] []]; reflexivity.
Qed.

(** The server runs if every plugin that is enabled is known, and only then. Then it has one plugin of each name, its plugins
    are those that are enabled, none is missing if their names differ, and its version is made of the version of the program
    and of what each enabled plugin says. *)
Theorem C84_runs V registered make enabled : Forall (list_element ",") enabled -> (forall n, In n enabled -> SToUpper n = n) ->
  match construct V registered make (plugins_option enabled) None with
  | None => exists n, In n enabled /\ ~ In n registered
  | Some (ps, version) =>
      (forall n, In n enabled -> In n registered) /\ NoDup (map p_name ps) /\ (forall p, In p ps -> exists n, In n enabled /\ p = make n) /\
      ((forall n m, In n enabled -> In m enabled -> p_name (make n) = p_name (make m) -> n = m) -> forall n, In n enabled -> In (make n) ps) /\
      exists l, parts V (map make enabled) l /\ (Forall (list_element ":") l -> Permutation (SParseList version ":") l)
  end.
Proof.
  intros F U.
  assert (PO : SParseList (plugins_option enabled) "," = sort enabled).
  { apply (C12_list_roundtrip "," 1); [discriminate|]. rewrite Forall_forall in *. intros x I. apply F, (Permutation_in x (sort_perm enabled)), I. }
  unfold construct. rewrite PO.
  assert (U' : map (fun n => make (SToUpper n)) (sort enabled) = map make (sort enabled)).
  { apply map_ext_in. intros n I. rewrite U; [reflexivity|]. apply (Permutation_in n (sort_perm enabled)), I. }
  pose proof (create_inv V registered make (sort enabled) [] [] [V] (parts_program V) (fun p H => H) (NoDup_nil _) (fun p H => match H with end)) as I.
  destruct (create registered make (sort enabled) [] [V]) as [[ps vs]|].
  - cbn [app] in I. rewrite U' in I. destruct I as (A & B & C & D & E).
    assert (SE : forall n, In n (sort enabled) <-> In n enabled) by (intros n; split; apply Permutation_in; [|symmetry]; apply sort_perm).
    assert (C' : forall p, In p ps -> exists n, In n enabled /\ p = make n).
    { intros p H. apply C, in_map_iff in H as (n & <- & H). exists n. split; [apply SE, H|reflexivity]. }
    split; [intros n H; rewrite <- (U n H); apply A, SE, H|]. split; [exact D|]. split; [exact C'|]. split.
    + intros INJ n H. assert (X : In (p_name (make n)) (map p_name ps)) by (apply E, in_map, SE, H).
      apply in_map_iff in X as (q & X & Y). destruct (C' q Y) as (m & M & ->). rewrite <- (INJ m n M H X). exact Y.
    + exists vs. split; [exact (parts_map V make _ _ (sort_perm enabled) vs B)|]. intros G. rewrite compose_parse by exact G. apply sort_perm.
  - destruct I as (n & I & J). apply (Permutation_in n (sort_perm enabled)) in I. exists n. split; [exact I|]. rewrite <- (U n I). exact J.
Qed.
Print Assumptions C84_runs.

Lemma built_in_element n : In n built_in -> list_element "," n.
Proof.
  intros [<-|[<-|[<-|[<-|[<-|[]]]]]]; (split; [discriminate|split; [intros r X; discriminate X|split; intros X; vm_compute in X; intuition discriminate]]).
Qed.

(** The server is the same, with the same version, in whatever order, in whatever case and however often the plugins
    are named on the command line: it is the names that count. *)
Theorem C84_order V found make l1 l2 o : incl (map (map upper) l1) built_in ->
  (forall n, In n (map (map upper) l1) <-> In n (map (map upper) l2)) ->
  let server l := let (registered, enabled) := load_plugins found l built_in [] in construct V registered make (plugins_option enabled) o in
  server l1 = server l2 /\ server l1 <> None.
Proof.
  intros IN SAME.
  assert (BASE : forall p, In (map upper p) built_in -> plugin_base p = p).
  { intros p H. unfold plugin_base. destruct (rfind "/" p) as [i|] eqn:R; [exfalso|reflexivity].
    assert (S1 : In "/"%char p).
    { clear H. revert i R. induction p as [|c p IH]; cbn [rfind]; intros i R; [discriminate|]. destruct (rfind "/" p) as [j|]; [right; eapply IH; reflexivity|].
      destruct (Ascii.eqb_spec "/" c) as [<-|]; [left; reflexivity|discriminate]. }
    apply (in_map upper) in S1. change (upper "/") with "/"%char in S1. exact (built_in_free _ H S1). }
  assert (L : forall l, incl (map (map upper) l) built_in -> exists e, load_plugins found l built_in [] = (built_in, e) /\ NoDup e /\ forall n, In n e <-> In n (map (map upper) l)).
  { intros l H. pose proof (C68_plugins found l) as P.
    assert (R : forall names, fst (load_plugins found l built_in names) = built_in).
    { clear P. induction l as [|p l IH]; intros names; [reflexivity|]. cbn [load_plugins].
      assert (K : known (upper_bytes p) built_in = true) by (apply known_in, H; left; reflexivity). rewrite K. apply IH. intros n I. apply H. right. exact I. }
    specialize (R []). destruct (load_plugins found l built_in []) as [r e]. cbn [fst] in R. subst r. destruct P as (A & B & _). exists e. split; [reflexivity|]. split; [exact A|].
    intros n. rewrite B, in_map_iff. split.
    - intros (p & I & ->). exists p. split; [|exact I]. rewrite BASE; [reflexivity|]. apply H, in_map, I.
    - intros (p & <- & I). exists p. split; [exact I|]. rewrite BASE; [reflexivity|]. apply H, in_map, I. }
  assert (IN2 : incl (map (map upper) l2) built_in) by (intros n I; apply IN, SAME, I).
  destruct (L l1 IN) as (e1 & L1 & N1 & M1). destruct (L l2 IN2) as (e2 & L2 & N2 & M2). cbv beta zeta. rewrite L1, L2.
  assert (P : Permutation e1 e2) by (apply NoDup_Permutation; [exact N1|exact N2|intros n; rewrite M1, M2; apply SAME]).
  assert (Q : plugins_option e1 = plugins_option e2) by (unfold plugins_option; rewrite (sort_same _ _ P); reflexivity).
  rewrite Q. split; [reflexivity|]. rewrite <- Q.
  assert (BI : forall n, In n e1 -> In n built_in) by (intros n I; apply IN, M1, I).
  assert (F : Forall (list_element ",") e1).
  { apply Forall_forall. intros n I. apply built_in_element, BI, I. }
  pose proof (C84_runs V built_in make e1 F) as H.
  assert (U : forall n, In n e1 -> SToUpper n = n) by (intros n I; apply M1, in_map_iff in I as (p & <- & _); apply upper_upper_bytes).
  specialize (H U). unfold construct in *. destruct (create built_in make (SParseList (plugins_option e1) ",") [] [V]) as [[ps vs]|]; [destruct o; discriminate|].
  destruct H as (n & I & J). exfalso. apply J, BI, I.
Qed.
Print Assumptions C84_order.

(** [tells V reg make e o v]: a server of the program [V] with the plugins [e] enabled, and the option -versionOverride [o], runs and tells [v]. *)
Definition usable (e : list bytes) := Forall (list_element ",") e /\ forall n, In n e -> SToUpper n = n.
Definition tells V reg make e o v := exists ps, construct V reg make (plugins_option e) o = Some (ps, v).
Lemma tells_sorted V reg make e v : usable e -> tells V reg make e None v -> exists l, parts V (map make e) l /\ v = SComposeList (sort l) (lit ":").
Proof.
  intros (F & U) (ps & T).
  assert (PO : SParseList (plugins_option e) "," = sort e).
  { apply (C12_list_roundtrip "," 1); [discriminate|]. rewrite Forall_forall in *. intros x I. apply F, (Permutation_in x (sort_perm e)), I. }
  unfold construct in T. rewrite PO in T.
  assert (U' : map (fun n => make (SToUpper n)) (sort e) = map make (sort e)).
  { apply map_ext_in. intros n I. rewrite U; [reflexivity|]. apply (Permutation_in n (sort_perm e)), I. }
  pose proof (create_inv V reg make (sort e) [] [] [V] (parts_program V) (fun p H => H) (NoDup_nil _) (fun p H => match H with end)) as I.
  destruct (create reg make (sort e) [] [V]) as [[qs vs]|]; [|discriminate T]. cbn [app] in I. rewrite U' in I. destruct I as (_ & B & _).
  exists vs. split; [exact (parts_map V make _ _ (sort_perm e) vs B)|]. congruence.
Qed.

(** Two servers tell the same version exactly if they have the same parts: the same version of the program and plugins that
    say the same, whatever the order of their names. *)
Theorem C84_same V1 reg1 make1 e1 v1 l1 V2 reg2 make2 e2 v2 l2 : usable e1 -> usable e2 ->
  tells V1 reg1 make1 e1 None v1 -> tells V2 reg2 make2 e2 None v2 -> parts V1 (map make1 e1) l1 -> parts V2 (map make2 e2) l2 ->
  Forall (list_element ":") l1 -> Forall (list_element ":") l2 -> v1 = v2 <-> Permutation l1 l2.
Proof.
  intros U1 U2 T1 T2 P1 P2 F1 F2.
  destruct (tells_sorted _ _ _ _ _ U1 T1) as (k1 & Q1 & ->). destruct (tells_sorted _ _ _ _ _ U2 T2) as (k2 & Q2 & ->).
  rewrite (sort_same _ _ (parts_unique _ _ _ _ Q1 P1)), (sort_same _ _ (parts_unique _ _ _ _ Q2 P2)). split.
  - intros E. apply sort_inj. rewrite <- (compose_parse l1 F1), <- (compose_parse l2 F2), E. reflexivity.
  - intros P. rewrite (sort_same _ _ P). reflexivity.
Qed.
Print Assumptions C84_same.

(** With -versionOverride a server tells the parts given there and nothing else, whatever its program and its plugins; their
    order does not matter. *)
Theorem C84_override V1 reg1 make1 e1 v1 o1 V2 reg2 make2 e2 v2 o2 :
  tells V1 reg1 make1 e1 (Some o1) v1 -> tells V2 reg2 make2 e2 (Some o2) v2 ->
  Permutation (SParseList v1 ":") (SParseList o1 ":") /\ (v1 = v2 <-> Permutation (SParseList o1 ":") (SParseList o2 ":")).
Proof.
  intros (ps1 & T1) (ps2 & T2). unfold construct in *.
  destruct (create reg1 make1 (SParseList (plugins_option e1) ",") [] [V1]) as [[qs1 vs1]|]; [|discriminate T1].
  destruct (create reg2 make2 (SParseList (plugins_option e2) ",") [] [V2]) as [[qs2 vs2]|]; [|discriminate T2].
  assert (v1 = SComposeList (sort (SParseList o1 ":")) (lit ":")) as -> by congruence. assert (v2 = SComposeList (sort (SParseList o2 ":")) (lit ":")) as -> by congruence.
  rewrite !compose_parse by apply C12_parse_wellformed. split; [apply sort_perm|]. split.
  - intros E. apply sort_inj. rewrite <- (compose_parse _ (C12_parse_wellformed o1 ":")), E. apply compose_parse, C12_parse_wellformed.
  - intros P. rewrite (sort_same _ _ P). reflexivity.
Qed.
Print Assumptions C84_override.

(** A server that is given the version another one tells as -versionOverride tells the same. *)
Theorem C84_adopted V1 reg1 make1 e1 o v l V2 reg2 make2 e2 v2 : usable e1 -> parts V1 (map make1 e1) l -> Forall (list_element ":") l ->
  tells V1 reg1 make1 e1 o v -> tells V2 reg2 make2 e2 (Some v) v2 -> v2 = v.
Proof.
  intros U P F T (ps2 & T2). unfold construct in T2. destruct (create reg2 make2 (SParseList (plugins_option e2) ",") [] [V2]) as [[qs2 vs2]|]; [|discriminate T2].
  assert (v2 = SComposeList (sort (SParseList v ":")) (lit ":")) as -> by congruence.
  assert (S1 : exists k, Forall (list_element ":") k /\ v = SComposeList (sort k) (lit ":")).
  { destruct o as [o|].
    - destruct T as (ps & T). unfold construct in T. destruct (create reg1 make1 (SParseList (plugins_option e1) ",") [] [V1]) as [[qs1 vs1]|]; [|discriminate T].
      exists (SParseList o ":"). split; [apply C12_parse_wellformed|congruence].
    - destruct (tells_sorted _ _ _ _ _ U T) as (k & Q & ->). exists k. split; [|reflexivity].
      rewrite Forall_forall in *. intros x I. apply F, (Permutation_in x (parts_unique _ _ _ _ Q P)), I. }
  destruct S1 as (k & G & ->). rewrite compose_parse by exact G. f_equal. apply sort_same, sort_perm.
Qed.
Print Assumptions C84_adopted.

(** ** A server with two plugins that say their versions, and one that does not *)
Definition make_ex (n : bytes) : plugin :=
  if bytes_eqb n (lit "FOO") then Plugin (lit "Foo") (Some (lit "2")) else if bytes_eqb n (lit "BAR") then Plugin (lit "Bar") (Some (lit "1"))
  else if bytes_eqb n (lit "FOO2") then Plugin (lit "Foo") (Some (lit "3")) else if bytes_eqb n (lit "ODD") then Plugin (lit "Bar") (Some (lit "1:Foo_2")) else Plugin n None.
Definition reg_ex : list bytes := [lit "FOO"; lit "BAR"; lit "FOO2"; lit "ODD"] ++ built_in.
Example C84_ex : construct (lit "9.1") reg_ex make_ex (plugins_option [lit "FOO"; lit "DB"; lit "BAR"]) None =
    Some ([Plugin (lit "Bar") (Some (lit "1")); Plugin (lit "DB") None; Plugin (lit "Foo") (Some (lit "2"))], lit "9.1:Bar_1:Foo_2") /\
  construct (lit "9.1") reg_ex make_ex (plugins_option [lit "BAZ"; lit "DB"]) None = None /\
  option_map snd (construct (lit "9.1") reg_ex make_ex (plugins_option []) (Some (lit "Foo_2:: Bar_1:9.0"))) = Some (lit "9.0:Bar_1:Foo_2").
Proof. vm_compute. repeat split. Qed.
Example C84_ex_usable : usable [lit "FOO"; lit "DB"; lit "BAR"] /\ NoDup [lit "FOO"; lit "DB"; lit "BAR"] /\
  parts (lit "9.1") (map make_ex [lit "FOO"; lit "DB"; lit "BAR"]) [lit "Foo_2"; lit "Bar_1"; lit "9.1"] /\ Forall (list_element ":") [lit "Foo_2"; lit "Bar_1"; lit "9.1"].
Proof.
  assert (W : forall sep l, Forall (list_element sep) l <-> forall x, In x l -> list_element sep x) by (intros; apply Forall_forall).
  split; [split|split; [|split]].
  - apply W. intros n [<-|[<-|[<-|[]]]]; (split; [discriminate|split; [intros r X; discriminate X|split; intros X; vm_compute in X; intuition discriminate]]).
  - intros n [<-|[<-|[<-|[]]]]; vm_compute; reflexivity.
  - constructor; [intros X; vm_compute in X; intuition discriminate|constructor; [intros X; vm_compute in X; intuition discriminate|constructor; [intros []|constructor]]].
  - cbn [map]. eapply parts_says; [vm_compute; reflexivity| |reflexivity]. apply parts_silent; [vm_compute; reflexivity|].
    eapply parts_says; [vm_compute; reflexivity|constructor|reflexivity].
  - apply W. intros n [<-|[<-|[<-|[]]]]; (split; [discriminate|split; [intros r X; discriminate X|split; intros X; vm_compute in X; intuition discriminate]]).
Qed.
Example C84_ex_order : let server l := let (registered, enabled) := load_plugins (fun _ _ => false) l built_in [] in construct (lit "9.1") registered make_ex (plugins_option enabled) None in
  server [lit "db"; lit "Jobs"] = server [lit "JOBS"; lit "DB"; lit "jobs"] /\ server [lit "db"; lit "Jobs"] <> None.
Proof. apply C84_order; [intros n [<-|[<-|[]]]; vm_compute; tauto|intros n; vm_compute; tauto]. Qed.

(** False: servers with different plugins tell different versions. A plugin that gives no version of itself, as none of the
    built-in ones does, leaves no trace in the version: a server with the plugin Jobs and one without it tell the same, so the
    checks for a different version between a follower and its leader do not see the difference. *)
Theorem C84_silent_refuted : option_map snd (construct (lit "9.1") reg_ex make_ex (plugins_option [lit "DB"; lit "JOBS"]) None) = Some (lit "9.1") /\
  option_map snd (construct (lit "9.1") reg_ex make_ex (plugins_option [lit "DB"]) None) = Some (lit "9.1").
Proof. vm_compute. split; reflexivity. Qed.
Print Assumptions C84_silent_refuted.

(** False: the version tells the plugins apart whatever they say. A plugin whose version has a colon in it can be mistaken for
    two plugins. *)
Theorem C84_colon_refuted : option_map snd (construct (lit "9.1") reg_ex make_ex (plugins_option [lit "ODD"]) None) =
  option_map snd (construct (lit "9.1") reg_ex make_ex (plugins_option [lit "BAR"; lit "FOO"]) None).
Proof. vm_compute. reflexivity. Qed.
Print Assumptions C84_colon_refuted.

(** False: a server runs every plugin whose version it tells. Of two enabled plugins that give the same name only the first, in
    the order of the names they are enabled by, runs; the version of the other is told all the same. *)
Theorem C84_name_taken_refuted : construct (lit "9.1") reg_ex make_ex (plugins_option [lit "FOO2"; lit "FOO"]) None =
  Some ([Plugin (lit "Foo") (Some (lit "2"))], lit "9.1:Foo_2:Foo_3").
Proof. vm_compute. reflexivity. Qed.
Print Assumptions C84_name_taken_refuted.
