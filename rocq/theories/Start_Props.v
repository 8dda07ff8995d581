(** C68: the command line, files, the backup and the names of plugins. *)
From Verif Require Import Base Maps Text_Spec Text_Model Text_Proofs Table Start_Spec Start_Model.

(** ** The command line *)
Lemma is_name_option w : is_name w = is_option w. Proof. reflexivity. Qed.
Lemma option_not_empty w : is_option w = true -> w <> []. Proof. destruct w; [discriminate|congruence]. Qed.

Lemma tput_given n nm v t : tfind n (tput nm v t) = if bytes_eqb (map lower n) (map lower nm) then Some v else tfind n t.
Proof. rewrite tfind_tput. pose proof (kcmp_eq n nm) as K. unfold ieqb in K. destruct (bytes_eqb (map lower n) (map lower nm)), (kcmp n nm); try reflexivity; destruct K as [K1 K2]; try discriminate (K1 eq_refl); discriminate (K2 eq_refl). Qed.
Definition at_name (name : bytes) (words : list bytes) : list bytes := match name with [] => words | _ => name :: words end.
Lemma given_word n w rest : is_option w = false -> given n (w :: rest) = given n rest.
Proof. intros H. cbn [given]. rewrite H. cbn [andb]. destruct (given n rest); reflexivity. Qed.
Lemma given_two n a b rest : given n (a :: b :: rest) = match given n (b :: rest) with Some v => Some v | None => if is_option a && bytes_eqb (map lower n) (map lower a) then Some (if is_option b then [] else b) else None end.
Proof. reflexivity. Qed.
Lemma command_line_given n words : forall name t, (name = [] \/ is_option name = true) ->
  tfind n (command_line words name t) = match given n (at_name name words) with Some v => Some v | None => tfind n t end.
Proof.
  induction words as [|w rest IH]; intros name t N.
  - destruct name as [|c name]; [reflexivity|]. destruct N as [N|N]; [discriminate|]. cbn [command_line at_name given]. rewrite tput_given, N. cbn [andb].
    destruct (bytes_eqb (map lower n) (map lower (c :: name))); reflexivity.
  - destruct name as [|c name].
    + cbn [command_line at_name]. rewrite is_name_option. destruct (is_option w) eqn:W.
      * rewrite IH by (right; exact W). destruct w as [|d w]; [discriminate|]. reflexivity.
      * rewrite IH by (left; reflexivity). cbn [at_name]. rewrite given_word by exact W. reflexivity.
    + destruct N as [N|N]; [discriminate|]. cbn [command_line at_name]. rewrite is_name_option, given_two, N. cbn [andb]. destruct (is_option w) eqn:W.
      * rewrite IH by (right; exact W). replace (at_name w rest) with (w :: rest) by (destruct w; [discriminate|reflexivity]).
        destruct (given n (w :: rest)); [reflexivity|]. rewrite tput_given. destruct (bytes_eqb _ _); reflexivity.
      * rewrite IH by (left; reflexivity). cbn [at_name]. rewrite given_word by exact W. destruct (given n rest); [reflexivity|]. rewrite tput_given. destruct (bytes_eqb _ _); reflexivity.
Qed.

(** An option has the value given behind its last occurrence, nothing if no value stands there, and is not set if it
    does not occur. *)
Theorem C68_command_line n words : tfind n (SParseCommandLine words) = given n words.
Proof. unfold SParseCommandLine. rewrite command_line_given by (left; reflexivity). cbn [at_name]. destruct (given n words); reflexivity. Qed.
Print Assumptions C68_command_line.

Example C68_ex_command_line : let l := [lit "bedrock.db"; lit "-db"; lit "a.db"; lit "-clean"; lit "-DB"; lit "b.db"; lit "c.db"] in
  given (lit "-db") l = Some (lit "b.db") /\ given (lit "-clean") l = Some [] /\ given (lit "bedrock.db") l = None /\ given (lit "c.db") l = None.
Proof. vm_compute. repeat split. Qed.

(** Options with values that do not look like options: every one is set as it was written. *)
Theorem C68_pairs l n v : NoDup (map (fun p => map lower (fst p)) l) -> (forall p, In p l -> is_option (fst p) = true /\ is_option (snd p) = false) ->
  In (n, v) l -> tfind n (SParseCommandLine (concat (map (fun p => [fst p; snd p]) l))) = Some v.
Proof.
  rewrite C68_command_line. assert (A : forall m k, (forall p, In p m -> map lower (fst p) <> map lower k) -> (forall p, In p m -> is_option (snd p) = false) -> given k (concat (map (fun p => [fst p; snd p]) m)) = None).
  { induction m as [|[a b] m IH]; intros k D O; [reflexivity|]. cbn [map concat fst snd app]. assert (G : given k (b :: concat (map (fun p => [fst p; snd p]) m)) = None).
    { rewrite given_word by exact (O _ (or_introl eq_refl)). apply IH; intros p I; [apply D|apply O]; right; exact I. }
    rewrite given_two, G.
    destruct (bytes_eqb (map lower k) (map lower a)) eqn:E; [|rewrite andb_false_r; reflexivity]. exfalso. apply bytes_eqb_eq in E. exact (D _ (or_introl eq_refl) (eq_sym E)). }
  induction l as [|[a b] l IH]; intros ND O I; [destruct I|]. cbn [map concat fst snd app] in *. apply NoDup_cons_iff in ND. destruct ND as [NI ND].
  rewrite given_two.
  pose proof (O _ (or_introl eq_refl)) as [Oa Ob]. cbn [fst snd] in Oa, Ob. rewrite given_word by exact Ob. destruct I as [I|I].
  - injection I as -> ->. rewrite A; [|intros p J E; apply NI; rewrite <- E; apply (in_map (fun p => map lower (fst p)) l p J)|intros p J; apply (O p); right; exact J].
    rewrite Oa, Ob, bytes_eqb_refl. reflexivity.
  - rewrite IH; [reflexivity|exact ND|intros p J; apply O; right; exact J|exact I].
Qed.
Print Assumptions C68_pairs.

(** A default is used exactly for the options that were not given. *)
Theorem C68_default n v words k : tfind k (set_default n v (SParseCommandLine words)) =
  match given k words with Some x => Some x | None => if bytes_eqb (map lower k) (map lower n) then Some v else None end.
Proof.
  unfold set_default. assert (C : forall a b, map lower a = map lower b -> given a words = given b words).
  { intros a b E. rewrite <- !C68_command_line. apply tfind_cong. unfold kcmp. apply lex_eq, E. }
  rewrite C68_command_line. destruct (given n words) eqn:G.
  - rewrite C68_command_line. destruct (given k words) eqn:K; [reflexivity|]. destruct (bytes_eqb (map lower k) (map lower n)) eqn:E; [|reflexivity].
    apply bytes_eqb_eq, C in E. congruence.
  - rewrite tput_given, C68_command_line. destruct (bytes_eqb (map lower k) (map lower n)) eqn:E; [|destruct (given k words); reflexivity].
    apply bytes_eqb_eq, C in E. rewrite E, G. reflexivity.
Qed.
Print Assumptions C68_default.

(** A value that starts with a dash, such as a negative number, is lost: it becomes an option of its own and the option
    it was meant for is set to nothing. Nothing is reported. *)
Theorem C68_negative_refuted : tfind (lit "-priority") (SParseCommandLine [lit "-priority"; lit "-5"]) = Some [] /\
  tfind (lit "-5") (SParseCommandLine [lit "-priority"; lit "-5"]) = Some [].
Proof. vm_compute. split; reflexivity. Qed.
Print Assumptions C68_negative_refuted.

(** ** Files *)
Lemma put_same p v f : put p v f p = v. Proof. unfold put. rewrite bytes_eqb_refl. reflexivity. Qed.
Lemma put_other p v f q : q <> p -> put p v f q = f q.
Proof. intros N. unfold put. destruct (bytes_eqb_spec q p); [contradiction|reflexivity]. Qed.

Lemma upto_prefix n b : prefix (upto n b) b.
Proof. destruct n as [n|]; [exists (skipn n b); symmetry; apply firstn_skipn|exists []; symmetry; apply app_nil_r]. Qed.
Lemma prefix_refl a : prefix a a. Proof. exists []. symmetry. apply app_nil_r. Qed.
Lemma prefix_trans a b c : prefix a b -> prefix b c -> prefix a c.
Proof. intros [x ->] [y ->]. exists (x ++ y). symmetry. apply app_assoc. Qed.

Section Stdio.
Variables bufsize block : nat.
Hypothesis block_some : 0 < block.

Lemma load_loop_all fuel : forall todo buffer, length todo < fuel -> load_loop block fuel todo buffer = buffer ++ todo.
Proof.
  induction fuel as [|k IH]; intros todo buffer L; [lia|]. cbn [load_loop]. destruct (firstn block todo) as [|c r] eqn:F.
  - destruct todo; [symmetry; apply app_nil_r|]. destruct block; [lia|discriminate].
  - rewrite IH; [rewrite <- app_assoc, <- F, firstn_skipn; reflexivity|]. rewrite skipn_length. destruct todo; [destruct block; discriminate|]. cbn [length] in *. lia.
Qed.

(** What is saved is read back, as long as nothing goes wrong. *)
Theorem C68_saved p b f : let (ok, f') := SFileSave bufsize fine p b f in
  ok = true /\ f' p = Some b /\ SFileLoad block fine p f' = (true, b) /\ same_but [p] f' f.
Proof.
  unfold SFileSave, fine. cbn [no_write room]. unfold fwrite, flush. cbn [waiting stored app fits upto]. destruct (length b <=? bufsize);
    (split; [reflexivity|]; unfold fclose, flush; cbn [stored waiting snd upto app]; rewrite ?app_nil_r; rewrite put_same; split; [reflexivity|]; split;
      [unfold SFileLoad, readable; cbn [no_read read_stop upto]; rewrite put_same, load_loop_all by lia; reflexivity|intros q N; apply put_other; intros ->; apply N; left; reflexivity]).
Qed.

(** A save that fails once the file is open leaves no file, and whatever happens no other file is touched and the file
    holds a beginning of the text. *)
Theorem C68_save_any d p b f : let (ok, f') := SFileSave bufsize d p b f in
  same_but [p] f' f /\ (ok = false -> no_write d = false -> f' p = None) /\ (ok = true -> exists c, f' p = Some c /\ prefix c b) /\ (no_write d = true -> ok = false /\ f' p = f p).
Proof.
  unfold SFileSave. destruct (no_write d) eqn:W; [split; [intros q _; reflexivity|]; split; [discriminate|]; split; [discriminate|]; intros _; split; reflexivity|].
  unfold fwrite, flush. cbn [waiting stored app]. destruct (length b <=? bufsize).
  - split; [intros q N; apply put_other; intros ->; apply N; left; reflexivity|]. split; [discriminate|]. split; [|discriminate]. intros _.
    rewrite put_same. eexists. split; [reflexivity|]. unfold fclose, flush. cbn [stored waiting snd app]. apply upto_prefix.
  - destruct (fits (room d) b).
    + split; [intros q N; apply put_other; intros ->; apply N; left; reflexivity|]. split; [discriminate|]. split; [|discriminate]. intros _.
      rewrite put_same. eexists. split; [reflexivity|]. unfold fclose, flush. cbn [stored waiting snd app]. rewrite app_nil_r. eapply prefix_trans; apply upto_prefix.
    + split; [intros q N; apply put_other; intros ->; apply N; left; reflexivity|]. split; [intros _ _; apply put_same|]. split; discriminate.
Qed.

(** Loading says whether the file could be opened, and gives a beginning of it. *)
Theorem C68_load d p f : fst (SFileLoad block d p f) = negb (no_read d) && SFileExists p f /\
  (forall c, f p = Some c -> prefix (snd (SFileLoad block d p f)) c) /\ (fst (SFileLoad block d p f) = false -> snd (SFileLoad block d p f) = []).
Proof.
  unfold SFileLoad, readable, SFileExists. destruct (no_read d); [split; [reflexivity|]; split; [intros c _; exists c; reflexivity|reflexivity]|].
  destruct (f p) as [c|]; [|split; [reflexivity|]; split; [discriminate|reflexivity]]. cbn [fst snd negb andb]. split; [reflexivity|]. split; [|discriminate].
  intros c' E. injection E as <-. rewrite load_loop_all; [apply upto_prefix|]. destruct (read_stop d) as [n|]; cbn [upto]; [rewrite firstn_length|]; lia.
Qed.

Lemma fits_upto r b : fits r b = true -> upto r b = b.
Proof. destruct r as [n|]; [|reflexivity]. cbn [fits upto]. intros H. apply Nat.leb_le in H. apply firstn_all2, H. Qed.

Lemma fwrite_all r b s s' : fwrite bufsize r b s = (true, s') -> stored s' ++ waiting s' = stored s ++ waiting s ++ b.
Proof.
  unfold fwrite. destruct (length (waiting s ++ b) <=? bufsize); intros H.
  - injection H as <-. reflexivity.
  - unfold flush in H. cbn [stored waiting] in H. injection H as F <-. cbn [stored waiting]. rewrite (fits_upto _ _ F), app_nil_r. reflexivity.
Qed.
Lemma fwrite_prefix r b s ok s' : fwrite bufsize r b s = (ok, s') -> prefix (stored s' ++ waiting s') (stored s ++ waiting s ++ b).
Proof.
  unfold fwrite. destruct (length (waiting s ++ b) <=? bufsize); intros H.
  - injection H as _ <-. apply prefix_refl.
  - unfold flush in H. cbn [stored waiting] in H. injection H as _ <-. cbn [stored waiting]. rewrite app_nil_r. apply upto_prefix.
Qed.
Lemma copy_loop_prefix r fuel : forall todo s ok s', copy_loop bufsize block r fuel todo s = (ok, s') -> length todo < fuel ->
  prefix (stored s' ++ waiting s') ((stored s ++ waiting s) ++ todo) /\ (ok = true -> stored s' ++ waiting s' = (stored s ++ waiting s) ++ todo).
Proof.
  induction fuel as [|k IH]; intros todo s ok s' H L; [lia|]. cbn [copy_loop] in H. destruct (firstn block todo) as [|c b] eqn:F.
  - injection H as <- <-. destruct todo; [|destruct block; [lia|discriminate]]. rewrite app_nil_r. split; [apply prefix_refl|reflexivity].
  - destruct (fwrite bufsize r (c :: b) s) as [o s1] eqn:W. assert (T : todo = (c :: b) ++ skipn block todo) by (rewrite <- F; symmetry; apply firstn_skipn). destruct o.
    + apply IH in H; [|rewrite skipn_length; destruct todo; [destruct block; discriminate|]; cbn [length] in *; lia]. rewrite (fwrite_all _ _ _ _ W) in H.
      replace ((stored s ++ waiting s) ++ todo) with ((stored s ++ waiting s ++ c :: b) ++ skipn block todo); [exact H|]. rewrite T at 2. unfold bytes. rewrite !app_assoc. reflexivity.
    + injection H as <- <-. split; [|discriminate]. apply fwrite_prefix in W. eapply prefix_trans; [exact W|]. exists (skipn block todo). rewrite T at 1. unfold bytes. rewrite !app_assoc. reflexivity.
Qed.
Lemma copy_loop_fine fuel : forall todo s ok s', copy_loop bufsize block None fuel todo s = (ok, s') -> ok = true.
Proof.
  induction fuel as [|k IH]; intros todo s ok s' H; cbn [copy_loop] in H; [congruence|]. destruct (firstn block todo) as [|c b]; [congruence|].
  unfold fwrite, flush in H. cbn [fits upto] in H. destruct (length (waiting s ++ c :: b) <=? bufsize); exact (IH _ _ _ _ H).
Qed.

Definition source (from to : bytes) (f : files) : bytes := match put to (Some []) f from with Some c => c | None => [] end.
Lemma source_other from to f c : from <> to -> f from = Some c -> source from to f = c.
Proof. intros N E. unfold source. rewrite put_other by exact N. rewrite E. reflexivity. Qed.

(** A copy is a beginning of its source, and no other file is touched, whatever goes wrong. *)
Theorem C68_copy_any d from to f : let (ok, f') := SFileCopy bufsize block d from to f in
  same_but [to] f' f /\ (ok = true -> from <> to -> exists c c', f from = Some c /\ f' to = Some c' /\ prefix c' c).
Proof.
  unfold SFileCopy, readable. destruct (no_read d); [split; [intros q _; reflexivity|discriminate]|]. destruct (f from) as [c|] eqn:E; [|split; [intros q _; reflexivity|discriminate]].
  destruct (no_write d); [split; [intros q _; reflexivity|discriminate]|]. fold (source from to f). destruct (copy_loop _ _ _ _ _ _) as [ok s] eqn:L. split.
  - intros q N. rewrite !put_other; [reflexivity| |]; intros ->; apply N; left; reflexivity.
  - intros -> N. exists c. rewrite put_same. eexists. split; [reflexivity|]. split; [reflexivity|]. apply copy_loop_prefix in L; [|destruct (read_stop d); cbn [upto]; [rewrite firstn_length|]; lia]. destruct L as [L _]. cbn [stored waiting app] in L.
    rewrite (source_other _ _ _ _ N E) in L. unfold fclose, flush. cbn [snd stored]. eapply prefix_trans; [apply upto_prefix|]. eapply prefix_trans; [exact L|apply upto_prefix].
Qed.

(** A copy to another path is the same as its source when nothing goes wrong. *)
Theorem C68_copied from to f c : from <> to -> f from = Some c ->
  let (ok, f') := SFileCopy bufsize block fine from to f in ok = true /\ f' to = Some c /\ same_but [to] f' f.
Proof.
  intros N E. pose proof (C68_copy_any fine from to f) as A. unfold SFileCopy, readable, fine in *. cbn [no_read no_write read_stop room upto] in *. rewrite E in *. fold (source from to f) in *. rewrite (source_other _ _ _ _ N E) in *.
  destruct (copy_loop _ _ _ _ _ _) as [ok s] eqn:L. destruct A as [A _]. pose proof (copy_loop_fine _ _ _ _ _ L) as ->. apply copy_loop_prefix in L; [|lia]. destruct L as [_ L]. split; [reflexivity|]. split; [|exact A].
  rewrite put_same. unfold fclose, flush. cbn [snd stored upto]. rewrite (L eq_refl). reflexivity.
Qed.

(** ** The backup *)
Lemma no_slash f : slash_free f -> existsb (Ascii.eqb "/"%char) f = false.
Proof. intros N. destruct (existsb _ f) eqn:E; [|reflexivity]. apply existsb_exists in E. destruct E as (c & I & C). apply Ascii.eqb_eq in C. subst c. contradiction. Qed.
Lemma base_free f : slash_free f -> base_name f = f.
Proof. intros N. destruct f as [|c f]; [reflexivity|]. cbn [base_name]. rewrite no_slash by (intros I; apply N; right; exact I). destruct (Ascii.eqb_spec c "/"%char) as [->|]; [exfalso; apply N; left; reflexivity|reflexivity]. Qed.
Lemma base_behind d f : slash_free f -> base_name (d ++ "/"%char :: f) = f.
Proof.
  intros N. induction d as [|c d IH]; cbn [app base_name].
  - rewrite no_slash by exact N. reflexivity.
  - assert (existsb (Ascii.eqb "/"%char) (d ++ "/"%char :: f) = true) as -> by (apply existsb_exists; exists "/"%char; split; [apply in_elt|reflexivity]). exact IH.
Qed.
Lemma base_split p d f : split_path p d f -> base_name p = f.
Proof. intros (-> & N & [->|[d' ->]]); [apply base_free, N|]. rewrite <- app_assoc. apply base_behind, N. Qed.
Lemma split_exists p : exists d f, split_path p d f.
Proof.
  induction p as [|c p (d & f & -> & N & D)].
  - exists [], []. repeat split; [intros []|left; reflexivity].
  - destruct D as [->|[d' ->]].
    + destruct (Ascii.eqb_spec c "/"%char) as [->|C]; [exists ["/"%char], f; repeat split; [exact N|right; exists []; reflexivity]|].
      exists [], (c :: f). repeat split; [intros [I|I]; [exact (C I)|exact (N I)]|left; reflexivity].
    + exists (c :: d' ++ ["/"%char]), f. repeat split; [exact N|right; exists (c :: d'); reflexivity].
Qed.

Definition copy_of (db sfx : bytes) : bytes := BACKUP_DIR ++ base_name db ++ sfx.
Lemma base_more db sfx : slash_free sfx -> base_name (db ++ sfx) = base_name db ++ sfx.
Proof.
  intros N. destruct (split_exists db) as (d & f & S). rewrite (base_split _ _ _ S). destruct S as (-> & Nf & D). rewrite <- app_assoc.
  apply (base_split _ d). split; [reflexivity|]. split; [|exact D]. intros I. apply in_app_or in I. destruct I; contradiction.
Qed.
Lemma base_shortest db : exists d, db = d ++ base_name db.
Proof. destruct (split_exists db) as (d & f & S). rewrite (base_split _ _ _ S). destruct S as (-> & _ & _). exists d. reflexivity. Qed.
Lemma wal_free : slash_free (lit "-wal"). Proof. vm_compute. intuition discriminate. Qed.
Lemma shm_free : slash_free (lit "-shm"). Proof. vm_compute. intuition discriminate. Qed.

Lemma backup_dir_base db sfx : slash_free sfx -> base_name (copy_of db sfx) = base_name db ++ sfx.
Proof.
  intros N. unfold copy_of. change BACKUP_DIR with (lit "/var/tmp" ++ ["/"%char]). rewrite <- app_assoc. apply base_behind. destruct (split_exists db) as (d & f & S). rewrite (base_split _ _ _ S). destruct S as (_ & Nf & _).
  intros I. apply in_app_or in I. destruct I; contradiction.
Qed.
(** No file of the database is where a copy goes, unless the database is in the directory of the backups. *)
Lemma copies_apart db s1 s2 : slash_free s1 -> slash_free s2 -> db <> BACKUP_DIR ++ base_name db -> db ++ s1 <> copy_of db s2.
Proof.
  intros N1 N2 D E. pose proof (f_equal base_name E) as B. rewrite base_more, backup_dir_base in B by assumption. apply app_inv_head in B. subst s2. unfold copy_of in E. rewrite app_assoc in E. apply app_inv_tail in E. exact (D E).
Qed.
Lemma copies_distinct db s1 s2 : s1 <> s2 -> copy_of db s1 <> copy_of db s2.
Proof. intros N E. unfold copy_of in E. apply app_inv_head, app_inv_head in E. exact (N E). Qed.

Definition suffixes : list bytes := [[]; lit "-wal"; lit "-shm"].
Lemma suffix_free s : In s suffixes -> slash_free s.
Proof. intros [<-|[<-|[<-|[]]]]; [intros []|apply wal_free|apply shm_free]. Qed.

Lemma backup_file_fine db s f c : slash_free s -> db <> BACKUP_DIR ++ base_name db -> f (db ++ s) = Some c ->
  exists f', backup_file bufsize block fine (db ++ s) f = Some f' /\ f' (copy_of db s) = Some c /\ same_but [copy_of db s] f' f.
Proof.
  intros N D E. unfold backup_file. rewrite base_more by exact N. fold (copy_of db s). pose proof (C68_copied (db ++ s) (copy_of db s) f c (copies_apart _ _ _ N N D) E) as C.
  destruct (SFileCopy _ _ _ _ _ _) as [ok f']. destruct C as (-> & C & O). exists f'. repeat split; assumption.
Qed.

(** A backup of a database elsewhere, when nothing goes wrong: the database and, if they exist, its -wal and -shm are
    copied as they are, and no other file is touched. *)
Theorem C68_backup db f : db <> BACKUP_DIR ++ base_name db -> f db <> None ->
  exists f', BackupDB bufsize block fine fine fine db f = Some f' /\ same_but (map (copy_of db) suffixes) f' f /\
    forall s c, In s suffixes -> f (db ++ s) = Some c -> f' (copy_of db s) = Some c.
Proof.
  intros D X. destruct (f db) as [c0|] eqn:E0; [clear X|congruence].
  assert (W : forall g s, In s suffixes -> exists g', (match s with [] => Some g | _ => backup_if bufsize block fine (db ++ s) g end) = Some g' /\ same_but [copy_of db s] g' g /\ (s <> [] -> forall c, g (db ++ s) = Some c -> g' (copy_of db s) = Some c)).
  { intros g s I. destruct s as [|x s]; [exists g; repeat split; try (intros q _; reflexivity); congruence|]. unfold backup_if, SFileExists. destruct (g (db ++ x :: s)) as [c|] eqn:E.
    - destruct (backup_file_fine db (x :: s) g c (suffix_free _ I) D E) as (g' & B & C & O). exists g'. split; [exact B|]. split; [exact O|]. intros _ c' E'. injection E' as <-. exact C.
    - exists g. split; [reflexivity|]. split; [intros q _; reflexivity|discriminate]. }
  destruct (backup_file_fine db [] f c0 (suffix_free [] (or_introl eq_refl)) D) as (f0 & B0 & C0 & O0); [rewrite app_nil_r; exact E0|]. rewrite app_nil_r in B0.
  destruct (W f0 (lit "-wal") (or_intror (or_introl eq_refl))) as (f1 & B1 & O1 & C1). change (match lit "-wal" with [] => Some f0 | _ => backup_if bufsize block fine (db ++ lit "-wal") f0 end) with (backup_if bufsize block fine (db ++ lit "-wal") f0) in B1.
  destruct (W f1 (lit "-shm") (or_intror (or_intror (or_introl eq_refl)))) as (f2 & B2 & O2 & C2). change (match lit "-shm" with [] => Some f1 | _ => backup_if bufsize block fine (db ++ lit "-shm") f1 end) with (backup_if bufsize block fine (db ++ lit "-shm") f1) in B2.
  exists f2. split; [unfold BackupDB; rewrite B0, B1; exact B2|].
  assert (K : forall s, In s suffixes -> forall t, In t suffixes -> db ++ s <> copy_of db t) by (intros s I t J; apply copies_apart; [apply suffix_free, I|apply suffix_free, J|exact D]).
  assert (S1 : forall s, In s suffixes -> f1 (db ++ s) = f (db ++ s)).
  { intros s I. rewrite O1 by (intros [J|[]]; symmetry in J; revert J; apply K; [exact I|right; left; reflexivity]). apply O0. intros [J|[]]. symmetry in J. revert J. apply K; [exact I|left; reflexivity]. }
  split.
  - intros q N. cbn [map suffixes] in N. rewrite O2, O1, O0; [reflexivity| | |]; intros [J|[]]; apply N; [left|right; left|right; right; left]; exact J.
  - intros s c [<-|[<-|[<-|[]]]] E.
    + rewrite O2, O1; [rewrite app_nil_r in E; congruence| |]; intros [J|[]]; revert J; apply copies_distinct; discriminate.
    + rewrite O2 by (intros [J|[]]; revert J; apply copies_distinct; discriminate). apply C1; [discriminate|]. rewrite O0; [exact E|]. intros [J|[]]. symmetry in J. revert J. apply K; [right; left; reflexivity|left; reflexivity].
    + apply C2; [discriminate|]. rewrite S1; [exact E|right; right; left; reflexivity].
Qed.

(** Whatever goes wrong, a backup touches nothing but the three copies. *)
Theorem C68_backup_only d0 d1 d2 db f f' : BackupDB bufsize block d0 d1 d2 db f = Some f' -> same_but (map (copy_of db) suffixes) f' f.
Proof.
  assert (B : forall d s g g', In s suffixes -> backup_file bufsize block d (db ++ s) g = Some g' -> same_but [copy_of db s] g' g).
  { intros d s g g' I H. unfold backup_file in H. rewrite base_more in H by (apply suffix_free, I). fold (copy_of db s) in H. pose proof (C68_copy_any d (db ++ s) (copy_of db s) g) as C. destruct (SFileCopy _ _ _ _ _ _) as [[|] g'']; [|discriminate]. injection H as <-. apply C. }
  assert (W : forall d s g g', In s suffixes -> backup_if bufsize block d (db ++ s) g = Some g' -> same_but [copy_of db s] g' g).
  { intros d s g g' I H. unfold backup_if in H. destruct (SFileExists (db ++ s) g); [exact (B _ _ _ _ I H)|]. injection H as <-. intros q _. reflexivity. }
  unfold BackupDB. intros H. destruct (backup_file bufsize block d0 db f) as [f0|] eqn:E0; [|discriminate]. destruct (backup_if bufsize block d1 (db ++ lit "-wal") f0) as [f1|] eqn:E1; [|discriminate].
  rewrite <- (app_nil_r db) in E0 at 1. apply B in E0; [|left; reflexivity]. apply W in E1; [|right; left; reflexivity]. apply W in H; [|right; right; left; reflexivity].
  intros q N. cbn [map suffixes] in N. rewrite H, E1, E0; [reflexivity| | |]; intros [J|[]]; apply N; [left|right; left|right; right; left]; exact J.
Qed.
End Stdio.
Print Assumptions C68_saved.
Print Assumptions C68_save_any.
Print Assumptions C68_load.
Print Assumptions C68_copy_any.
Print Assumptions C68_copied.
Print Assumptions C68_backup.
Print Assumptions C68_backup_only.

(** ** Starting afresh *)
(** -clean removes the database and the files beside it, and nothing else. *)
Theorem C68_clean db f : let gone := [db; db ++ lit "-pagemap"; db ++ lit "-wal2"; db ++ lit "-wal"; db ++ lit "-shm"] in
  same_but gone (clean db f) f /\ forall p, In p gone -> clean db f p = None.
Proof.
  cbn [clean fold_left]. rewrite app_nil_r. set (p1 := db ++ lit "-pagemap"). set (p2 := db ++ lit "-wal2"). set (p3 := db ++ lit "-wal"). set (p4 := db ++ lit "-shm"). split.
  - intros q N. rewrite !put_other; [reflexivity| | | | |]; intros ->; apply N; cbn; tauto.
  - intros p I. unfold put. destruct (bytes_eqb_spec p p4); [reflexivity|]. destruct (bytes_eqb_spec p p3); [reflexivity|]. destruct (bytes_eqb_spec p p2); [reflexivity|]. destruct (bytes_eqb_spec p p1); [reflexivity|].
    destruct (bytes_eqb_spec p db); [reflexivity|]. exfalso. cbn in I. intuition congruence.
Qed.
Print Assumptions C68_clean.

(** Files used below. *)
Definition disk (l : list (bytes * bytes)) : files := fun p => match List.find (fun e => bytes_eqb p (fst e)) l with Some e => Some (snd e) | None => None end.
Definition database : files := disk [(lit "/d/a.db", lit "0123456789"); (lit "/d/a.db-wal", lit "wal"); (lit "/d/a.db-wal2", lit "wal2"); (lit "/d/a.db-pagemap", lit "map")].
Definition at_copy (r : option files) (s : string) : option bytes := match r with Some f => f (lit ("/var/tmp/" ++ s)) | None => None end.

Example C68_ex_backup : let r := BackupDB 4 3 fine fine fine (lit "/d/a.db") database in
  lit "/d/a.db" <> BACKUP_DIR ++ base_name (lit "/d/a.db") /\ at_copy r "a.db" = Some (lit "0123456789") /\ at_copy r "a.db-wal" = Some (lit "wal") /\ at_copy r "a.db-shm" = None.
Proof. split; [discriminate|]. vm_compute. repeat split. Qed.

(** A read error in the middle of the database is logged only: the copy is cut off, the backup counts as done and the
    server goes on. *)
Theorem C68_read_error_refuted : at_copy (BackupDB 4 3 (Faults false false (Some 5) None) fine fine (lit "/d/a.db") database) "a.db" = Some (lit "01234").
Proof. vm_compute. reflexivity. Qed.
Print Assumptions C68_read_error_refuted.

(** A disk that is full when the last buffer is written goes unnoticed, because nobody looks at what fclose returns:
    the copy is cut off and counts as done, and a text is saved in part although the save is said to be a success. *)
Theorem C68_disk_full_refuted : SFileCopy 4 3 (Faults false false None (Some 9)) (lit "/d/a.db") (lit "/x") database = (true, snd (SFileCopy 4 3 (Faults false false None (Some 9)) (lit "/d/a.db") (lit "/x") database)) /\
  snd (SFileCopy 4 3 (Faults false false None (Some 9)) (lit "/d/a.db") (lit "/x") database) (lit "/x") = Some (lit "012345678") /\
  fst (SFileSave 4 (Faults false false None (Some 2)) (lit "/x") (lit "abc") database) = true /\
  snd (SFileSave 4 (Faults false false None (Some 2)) (lit "/x") (lit "abc") database) (lit "/x") = Some (lit "ab").
Proof. repeat split; vm_compute; reflexivity. Qed.
Print Assumptions C68_disk_full_refuted.

(** A file that could be read in part only is loaded in part, and loading it counts as a success. *)
Theorem C68_load_error_refuted : SFileLoad 3 (Faults false false (Some 5) None) (lit "/d/a.db") database = (true, lit "01234").
Proof. vm_compute. reflexivity. Qed.
Print Assumptions C68_load_error_refuted.

(** Databases are opened in WAL2 mode, where commits alternate between the files -wal and -wal2, or keep their page map
    in -pagemap, but neither -wal2 nor -pagemap is copied: what they hold is missing in the backup. -clean knows both. *)
Theorem C68_wal2_refuted : database (lit "/d/a.db-wal2") = Some (lit "wal2") /\ database (lit "/d/a.db-pagemap") = Some (lit "map") /\
  at_copy (BackupDB 4 3 fine fine fine (lit "/d/a.db") database) "a.db-wal2" = None /\ at_copy (BackupDB 4 3 fine fine fine (lit "/d/a.db") database) "a.db-pagemap" = None.
Proof. vm_compute. repeat split. Qed.
Print Assumptions C68_wal2_refuted.

(** A -wal file left by an earlier backup is not removed when the database has none now: it stays beside the new copy
    of the database, which it does not belong to. *)
Theorem C68_old_wal_refuted : at_copy (BackupDB 4 3 fine fine fine (lit "/d/a.db") (disk [(lit "/d/a.db", lit "new"); (lit "/var/tmp/a.db", lit "old"); (lit "/var/tmp/a.db-wal", lit "old wal")])) "a.db-wal" = Some (lit "old wal").
Proof. vm_compute. reflexivity. Qed.
Print Assumptions C68_old_wal_refuted.

(** A database in the directory of the backups is copied onto itself. Opening the copy for writing empties the database
    before it is read, and the backup counts as done: the database is lost. *)
Theorem C68_onto_itself_refuted : at_copy (BackupDB 4 3 fine fine fine (lit "/var/tmp/a.db") (disk [(lit "/var/tmp/a.db", lit "data")])) "a.db" = Some [].
Proof. vm_compute. reflexivity. Qed.
Print Assumptions C68_onto_itself_refuted.

(** ** Plugins *)
Lemma find_from_none c b : ~ In c b -> find_from c b = None.
Proof. induction b as [|d b IH]; intros N; [reflexivity|]. cbn [find_from]. destruct (Ascii.eqb_spec c d) as [->|]; [exfalso; apply N; left; reflexivity|]. rewrite IH; [reflexivity|]. intros I. apply N. right. exact I. Qed.
Lemma find_from_at c a b : ~ In c a -> find_from c (a ++ c :: b) = Some (length a).
Proof.
  induction a as [|d a IH]; intros N; cbn [app find_from length]; [rewrite Ascii.eqb_refl; reflexivity|].
  destruct (Ascii.eqb_spec c d) as [->|]; [exfalso; apply N; left; reflexivity|]. rewrite IH; [reflexivity|]. intros I. apply N. right. exact I.
Qed.
Lemma rfind_none c b : ~ In c b -> rfind c b = None.
Proof. induction b as [|d b IH]; intros N; [reflexivity|]. cbn [rfind]. rewrite IH by (intros I; apply N; right; exact I). destruct (Ascii.eqb_spec c d) as [->|]; [exfalso; apply N; left; reflexivity|reflexivity]. Qed.
Lemma rfind_at c a b : ~ In c b -> rfind c (a ++ c :: b) = Some (length a).
Proof. intros N. induction a as [|d a IH]; cbn [app rfind length]; [rewrite rfind_none, Ascii.eqb_refl by exact N; reflexivity|rewrite IH; reflexivity]. Qed.

(** A plugin given by its path has the name of the file, without its extension; one given by a plain name has that
    name. *)
Theorem C68_plugin_name d n ext : slash_free n -> dot_free n -> slash_free ext -> ext = [] \/ (exists e, ext = "."%char :: e) ->
  plugin_base (d ++ "/"%char :: n ++ ext) = n /\ plugin_base n = n.
Proof.
  intros N D X E. split; [|unfold plugin_base; rewrite rfind_none by exact N; reflexivity]. unfold plugin_base. rewrite rfind_at by (intros I; apply in_app_or in I; destruct I; contradiction).
  rewrite skipn_app, skipn_all, Nat.sub_diag. cbn [app skipn]. destruct E as [->|[e ->]].
  - rewrite app_nil_r. rewrite find_from_none; [reflexivity|]. intros [I|I]; [discriminate|exact (D I)].
  - change ("/"%char :: n ++ "."%char :: e) with (("/"%char :: n) ++ "."%char :: e). rewrite find_from_at by (intros [I|I]; [discriminate|exact (D I)]). cbn [length]. replace (S (length n) - 1) with (length n + 0) by lia. rewrite firstn_app_2. cbn [firstn]. apply app_nil_r.
Qed.
Print Assumptions C68_plugin_name.

Lemma known_in n l : known n l = true <-> In n l.
Proof. unfold known. rewrite existsb_exists. split; [intros (x & I & E); apply bytes_eqb_eq in E; subst; exact I|intros I; exists n; split; [exact I|apply bytes_eqb_refl]]. Qed.
Lemma known_not n l : known n l = false <-> ~ In n l.
Proof. rewrite <- known_in. destruct (known n l); intuition congruence. Qed.

Definition wanted (p : bytes) : bytes := map upper (plugin_base p).
Lemma upper_slash : forall c, upper c = "/"%char -> c = "/"%char.
Proof. intros c. revert c. assert (H : forall c, negb (Ascii.eqb (upper c) "/"%char) || Ascii.eqb c "/"%char = true) by (apply forall_ascii; vm_compute; reflexivity). intros c E. specialize (H c). rewrite E, Ascii.eqb_refl in H. apply Ascii.eqb_eq, H. Qed.
Lemma upper_free b : slash_free b -> slash_free (map upper b).
Proof. intros N I. apply in_map_iff in I. destruct I as (c & E & I). apply upper_slash in E. subst c. exact (N I). Qed.
Lemma rfind_some c b i : rfind c b = Some i -> slash_free (skipn (S i) b) \/ c <> "/"%char.
Proof.
  destruct (Ascii.eqb_spec c "/"%char) as [->|C]; [|right; exact C]. left. revert i H. induction b as [|d b IH]; intros i H; [discriminate|]. cbn [rfind] in H. cbn [skipn]. destruct (rfind "/"%char b) as [k|] eqn:R.
  - injection H as <-. exact (IH _ eq_refl).
  - destruct (Ascii.eqb "/"%char d); [|discriminate]. injection H as <-. cbn [skipn]. clear IH. induction b as [|e b IH]; [intros []|]. cbn [rfind] in R. destruct (rfind "/"%char b); [discriminate|]. destruct (Ascii.eqb_spec "/"%char e); [discriminate|]. intros [I|I]; [congruence|exact (IH eq_refl I)].
Qed.
Lemma rfind_none_free b : rfind "/"%char b = None -> slash_free b.
Proof. induction b as [|e b IH]; intros R; [intros []|]. cbn [rfind] in R. destruct (rfind "/"%char b); [discriminate|]. destruct (Ascii.eqb_spec "/"%char e); [discriminate|]. intros [I|I]; [congruence|exact (IH eq_refl I)]. Qed.
Lemma plugin_base_free p : slash_free (plugin_base p).
Proof.
  unfold plugin_base. destruct (rfind "/"%char p) as [i|] eqn:R; [|apply rfind_none_free, R]. destruct (rfind_some _ _ _ R) as [F|C]; [|congruence].
  assert (K : skipn 1 (skipn i p) = skipn (S i) p) by (rewrite skipn_skipn; f_equal; lia). rewrite K. destruct (find_from _ _); [|exact F]. intros I. apply F. rewrite <- (firstn_skipn (n - 1)). apply in_or_app. left. exact I.
Qed.
Lemma known_plain p l : (forall x, In x l -> slash_free x) -> known (upper_bytes p) l = true -> upper_bytes p = wanted p.
Proof.
  intros F K. apply known_in, F in K. unfold wanted, plugin_base. destruct (rfind "/"%char p) as [i|] eqn:R; [|reflexivity]. exfalso. apply K. clear F K. unfold upper_bytes. apply in_map_iff. exists "/"%char. split; [reflexivity|].
  revert i R. induction p as [|d p IH]; intros i R; [discriminate|]. cbn [rfind] in R. destruct (rfind "/"%char p) eqn:Q; [right; exact (IH _ eq_refl)|]. destruct (Ascii.eqb_spec "/"%char d); [left; congruence|discriminate].
Qed.

Lemma load_plugins_inv found l : forall reg names, (forall x, In x reg -> slash_free x) -> NoDup names ->
  let (reg', names') := load_plugins found l reg names in
  NoDup names' /\ (forall n, In n names' <-> In n names \/ exists p, In p l /\ n = wanted p) /\
  (forall n, In n reg' -> In n reg \/ exists p, In p l /\ n = wanted p /\ found (library p) (symbol (plugin_base p)) = true) /\
  (forall n, In n reg -> In n reg') /\
  ((forall p, In p l -> In (wanted p) reg \/ In (wanted p) names \/ found (library p) (symbol (plugin_base p)) = true) -> forall p, In p l -> In (wanted p) reg' \/ In (wanted p) names).
Proof.
  induction l as [|p l IH]; intros reg names F ND; cbn [load_plugins].
  - split; [exact ND|]. split; [intros n; split; [tauto|intros [I|(p & [] & _)]; exact I]|]. split; [tauto|]. split; [tauto|]. intros _ p [].
  - destruct (known (upper_bytes p) reg) eqn:K.
    + pose proof (known_plain p reg F K) as W. set (names1 := if known (upper_bytes p) names then names else upper_bytes p :: names).
      assert (N1 : NoDup names1 /\ forall n, In n names1 <-> In n names \/ n = wanted p).
      { unfold names1. destruct (known (upper_bytes p) names) eqn:Q.
        - apply known_in in Q. rewrite W in Q. split; [exact ND|]. intros n. split; [tauto|intros [I| ->]; assumption].
        - apply known_not in Q. split; [constructor; assumption|]. rewrite W. intros n. cbn [In]. intuition congruence. }
      destruct N1 as [ND1 N1]. specialize (IH reg names1 F ND1). destruct (load_plugins found l reg names1) as [reg' names']. destruct IH as (A & B & C & D & E).
      split; [exact A|]. split; [intros n; rewrite B, N1; split; [intros [[I| ->]|(q & I & ->)]; [left; exact I|right; exists p; split; [left|]; reflexivity|right; exists q; split; [right; exact I|reflexivity]]|intros [I|(q & [<-|I] & ->)]; [left; left; exact I|left; right; reflexivity|right; exists q; split; [exact I|reflexivity]]]|].
      split; [intros n I; apply C in I; destruct I as [I|(q & I & J)]; [left; exact I|right; exists q; split; [right; exact I|exact J]]|]. split; [exact D|].
      apply known_in in K. rewrite W in K. intros H q [<-|I]; [left; apply D, K|]. destruct (E) with (p := q) as [J|J]; [|exact I|left; exact J|].
      * intros r J. destruct (H r (or_intror J)) as [G|[G|G]]; [left; exact G|right; left; apply N1; left; exact G|right; right; exact G].
      * apply N1 in J. destruct J as [J|J]; [right; exact J|left; rewrite J; apply D, K].
    + change (upper_bytes (plugin_base p)) with (wanted p). destruct (known (wanted p) names) eqn:Q.
      * apply known_in in Q. specialize (IH reg names F ND). destruct (load_plugins found l reg names) as [reg' names']. destruct IH as (A & B & C & D & E).
        split; [exact A|]. split; [intros n; rewrite B; split; [intros [I|(q & I & ->)]; [left; exact I|right; exists q; split; [right; exact I|reflexivity]]|intros [I|(q & [<-|I] & ->)]; [left; exact I|left; exact Q|right; exists q; split; [exact I|reflexivity]]]|].
        split; [intros n I; apply C in I; destruct I as [I|(q & I & J)]; [left; exact I|right; exists q; split; [right; exact I|exact J]]|]. split; [exact D|].
        intros H q [<-|I]; [right; exact Q|]. apply E; [|exact I]. intros r J. apply H. right. exact J.
      * apply known_not in Q. assert (ND1 : NoDup (wanted p :: names)) by (constructor; assumption). destruct (found (library p) (symbol (plugin_base p))) eqn:L.
        -- set (reg1 := if known (wanted p) reg then reg else wanted p :: reg). assert (R1 : forall n, In n reg1 <-> In n reg \/ n = wanted p).
           { intros n. unfold reg1. destruct (known (wanted p) reg) eqn:G; [apply known_in in G; split; [tauto|intros [I| ->]; assumption]|cbn [In]; intuition congruence]. }
           assert (F1 : forall x, In x reg1 -> slash_free x) by (intros x I; apply R1 in I; destruct I as [I| ->]; [apply F, I|apply upper_free, plugin_base_free]).
           specialize (IH reg1 (wanted p :: names) F1 ND1). destruct (load_plugins found l reg1 (wanted p :: names)) as [reg' names']. destruct IH as (A & B & C & D & E).
           split; [exact A|]. split; [intros n; rewrite B; cbn [In]; split; [intros [[<-|I]|(q & I & ->)]; [right; exists p; split; [left|]; reflexivity|left; exact I|right; exists q; split; [right; exact I|reflexivity]]|intros [I|(q & [<-|I] & ->)]; [left; right; exact I|left; left; reflexivity|right; exists q; split; [exact I|reflexivity]]]|].
           split; [intros n I; apply C in I; destruct I as [I|(q & I & J)]; [apply R1 in I; destruct I as [I| ->]; [left; exact I|right; exists p; split; [left; reflexivity|split; [reflexivity|exact L]]]|right; exists q; split; [right; exact I|exact J]]|].
           split; [intros n I; apply D, R1; left; exact I|]. assert (P : In (wanted p) reg') by (apply D, R1; right; reflexivity).
           intros H q [<-|I]; [left; exact P|]. destruct E with (p := q) as [J|[J|J]]; [|exact I|left; exact J|left; rewrite <- J; exact P|right; exact J].
           intros r J. destruct (H r (or_intror J)) as [G|[G|G]]; [left; apply R1; left; exact G|right; left; right; exact G|right; right; exact G].
        -- specialize (IH reg (wanted p :: names) F ND1). destruct (load_plugins found l reg (wanted p :: names)) as [reg' names']. destruct IH as (A & B & C & D & E).
           split; [exact A|]. split; [intros n; rewrite B; cbn [In]; split; [intros [[<-|I]|(q & I & ->)]; [right; exists p; split; [left|]; reflexivity|left; exact I|right; exists q; split; [right; exact I|reflexivity]]|intros [I|(q & [<-|I] & ->)]; [left; right; exact I|left; left; reflexivity|right; exists q; split; [exact I|reflexivity]]]|].
           split; [intros n I; apply C in I; destruct I as [I|(q & I & J)]; [left; exact I|right; exists q; split; [right; exact I|exact J]]|]. split; [exact D|].
           intros H. assert (P : In (wanted p) reg' \/ In (wanted p) names) by (destruct (H p (or_introl eq_refl)) as [G|[G|G]]; [left; apply D, G|right; exact G|rewrite L in G; discriminate]).
           intros q [<-|I]; [exact P|]. destruct E with (p := q) as [J|[J|J]]; [|exact I|left; exact J|rewrite <- J; exact P|right; exact J].
           intros r J. destruct (H r (or_intror J)) as [G|[G|G]]; [left; exact G|right; left; right; exact G|right; right; exact G].
Qed.
Lemma built_in_free x : In x built_in -> slash_free x.
Proof. intros [<-|[<-|[<-|[<-|[<-|[]]]]]]; vm_compute; intuition discriminate. Qed.

(** The plugins that are enabled are those that were asked for, each once; the server knows of no others than the
    built-in ones and those whose library was found with the symbol of its name; and it can start (it aborts on an
    enabled plugin it does not know) if every plugin asked for is built in or was found. *)
Theorem C68_plugins found l : let (registered, enabled) := load_plugins found l built_in [] in
  NoDup enabled /\ (forall n, In n enabled <-> exists p, In p l /\ n = map upper (plugin_base p)) /\
  (forall n, In n registered -> In n built_in \/ exists p, In p l /\ n = map upper (plugin_base p) /\ found (library p) (symbol (plugin_base p)) = true) /\
  ((forall p, In p l -> In (map upper (plugin_base p)) built_in \/ found (library p) (symbol (plugin_base p)) = true) -> forall n, In n enabled -> In n registered).
Proof.
  pose proof (load_plugins_inv found l built_in [] built_in_free (NoDup_nil _)) as H. destruct (load_plugins found l built_in []) as [r e]. destruct H as (A & B & C & D & E).
  split; [exact A|]. split; [intros n; rewrite B; cbn [In]; split; [intros [[]|H]; exact H|intros H; right; exact H]|]. split; [exact C|].
  intros H n I. apply B in I. destruct I as [[]|(p & I & ->)]. destruct (E) with (p := p) as [J|[]]; [|exact I|exact J]. intros q J. destruct (H q J) as [G|G]; [left; exact G|right; right; exact G].
Qed.
Print Assumptions C68_plugins.

Example C68_ex_plugins : load_plugins (fun file sym => bytes_eqb file (lit "/lib/foo.so") && bytes_eqb sym (lit "BEDROCK_PLUGIN_REGISTER_FOO")) [lit "db"; lit "/lib/foo"; lit "Jobs"; lit "DB"] built_in [] =
  (lit "FOO" :: built_in, [lit "JOBS"; lit "FOO"; lit "DB"]).
Proof. vm_compute. reflexivity. Qed.

(** The extension of a library that is given without a path is kept in its name: the symbol looked for contains a dot,
    no library has such a symbol, and the server aborts. Without the extension, or with a path, it is found. *)
Theorem C68_no_path_refuted : plugin_base (lit "foo.so") = lit "foo.so" /\ symbol (plugin_base (lit "foo.so")) = lit "BEDROCK_PLUGIN_REGISTER_FOO.SO" /\
  plugin_base (lit "/lib/foo.so") = lit "foo" /\ library (lit "foo") = lit "foo.so".
Proof. vm_compute. repeat split. Qed.
Print Assumptions C68_no_path_refuted.

(** A library named like a built-in plugin is opened, but the built-in plugin is used in its place, without a word. *)
Theorem C68_shadowed_refuted : load_plugins (fun _ _ => true) [lit "/lib/jobs.so"] built_in [] = (built_in, [lit "JOBS"]).
Proof. vm_compute. reflexivity. Qed.
Print Assumptions C68_shadowed_refuted.
