(** C83: a database is opened in its own format, and the wait for it ends. *)
From Verif Require Import Base Text_Spec Text_Model Https_Model Dbfile_Spec Dbfile_Model.

Lemma prefix_spec p s : prefix p s = true <-> exists r, s = p ++ r.
Proof.
  revert s. induction p as [|c p IH]; intros s; [split; [intros _; exists s; reflexivity|intros _; destruct s; reflexivity]|].
  destruct s as [|d s]; cbn [prefix]; [split; [discriminate|intros (r & X); discriminate]|]. rewrite andb_true_iff, IH, Ascii.eqb_eq. split.
  - intros (-> & r & ->). exists r. reflexivity.
  - intros (r & X). injection X as -> ->. split; [reflexivity|exists r; reflexivity].
Qed.
Definition no_zero (p : bytes) : bool := forallb (fun c => negb (Ascii.eqb c NUL)) p.
Lemma cstr_prefix p : no_zero p = true -> forall s, (exists r, cstr s = p ++ r) <-> (exists r, s = p ++ r).
Proof.
  induction p as [|c p IH]; intros Z s; [split; intros _; [exists s|exists (cstr s)]; reflexivity|]. cbn [no_zero forallb] in Z. apply andb_true_iff in Z. destruct Z as (C & Z).
  apply negb_true_iff in C. destruct s as [|d s]; cbn [cstr]; [split; intros (r & X); discriminate|]. destruct (Ascii.eqb d NUL) eqn:D.
  - split; intros (r & X); [discriminate|]. injection X as -> _. congruence.
  - split; intros (r & X); injection X as -> X.
    + destruct (proj1 (IH Z s) (ex_intro _ r X)) as (q & ->). exists q. reflexivity.
    + destruct (proj2 (IH Z s) (ex_intro _ r X)) as (q & E). exists q. rewrite E. reflexivity.
Qed.
Lemma firstn_prefix (p : bytes) : forall n (s : bytes), length p <= n -> (exists r, firstn n s = p ++ r) <-> (exists r, s = p ++ r).
Proof.
  induction p as [|c p IH]; intros n s L; [split; intros _; eexists; reflexivity|]. destruct n as [|n]; cbn [length] in L; [lia|]. destruct s as [|d s]; cbn [firstn app]; [split; intros (r & X); discriminate|].
  split; intros (r & X); injection X as -> X.
  - destruct (proj1 (IH n s ltac:(lia)) (ex_intro _ r X)) as (q & ->). exists q. reflexivity.
  - destruct (proj2 (IH n s ltac:(lia)) (ex_intro _ r X)) as (q & ->). exists q. reflexivity.
Qed.
Lemma header_prefix (p content old : bytes) : no_zero p = true -> length p <= 31 -> prefix p (header content old) = true <-> (exists r, firstn 32 content ++ skipn (length (firstn 32 content)) old = p ++ r).
Proof. intros Z L. rewrite prefix_spec. unfold header. rewrite (cstr_prefix p Z). apply firstn_prefix, L. Qed.
Lemma header_begins (p content old : bytes) : no_zero p = true -> length p <= 31 -> (exists r, content = p ++ r) -> prefix p (header content old) = true.
Proof.
  intros Z L (r & ->). apply header_prefix; [exact Z|exact L|]. destruct (proj2 (firstn_prefix p 32 (p ++ r) ltac:(lia)) (ex_intro _ r eq_refl)) as (q & ->). rewrite <- app_assoc. eexists. reflexivity.
Qed.
Lemma header_not (p content old : bytes) : no_zero p = true -> length p <= 31 -> length p <= length content -> ~ (exists r, content = p ++ r) -> prefix p (header content old) = false.
Proof.
  intros Z L N H. apply not_true_iff_false. rewrite (header_prefix _ _ _ Z L). intros (r & X). apply H.
  assert (Y : firstn (length p) content = p).
  { apply (f_equal (firstn (length p))) in X. rewrite (firstn_app _ p r), Nat.sub_diag, firstn_all, firstn_O, app_nil_r in X.
    rewrite firstn_app, firstn_firstn, firstn_length in X. replace (Nat.min (length p) 32) with (length p) in X by lia.
    replace (length p - Nat.min 32 (length content)) with 0 in X by lia. rewrite firstn_O, app_nil_r in X. exact X. }
  exists (skipn (length p) content). rewrite <- Y at 1. symmetry. apply firstn_skipn.
Qed.
(** A new or an empty database gets the format that is asked for; one that is there keeps its own, whatever is asked for and whatever was in memory. *)
Theorem C83_format : forall hctree old,
  validateDBFormat Missing hctree old = hctree /\ validateDBFormat (File []) hctree old = hctree /\
  (forall content, begins_with "Hctree database version" content -> validateDBFormat (File content) hctree old = true) /\
  (forall content, begins_with "SQLite format 3" content -> validateDBFormat (File content) hctree old = false) /\
  (forall content, 23 <= length content -> ~ begins_with "Hctree database version" content -> ~ begins_with "SQLite format 3" content -> validateDBFormat (File content) hctree old = hctree).
Proof.
  assert (U : forall content hctree old, content <> [] -> validateDBFormat (File content) hctree old =
    if prefix (lit "Hctree database version") (header content old) then true else if prefix (lit "SQLite format 3") (header content old) then false else hctree) by (intros [|c l] hctree old N; [contradiction|reflexivity]).
  intros hctree old. split; [reflexivity|]. split; [reflexivity|]. split; [|split].
  - intros content B. rewrite U by (intros ->; destruct B as (r & B); discriminate). rewrite header_begins; [reflexivity|reflexivity|vm_compute; lia|exact B].
  - intros content B. rewrite U by (intros ->; destruct B as (r & B); discriminate). rewrite (header_begins (lit "SQLite format 3")); [|reflexivity|vm_compute; lia|exact B].
    replace (prefix (lit "Hctree database version") (header content old)) with false; [reflexivity|]. destruct B as (r & ->). reflexivity.
  - intros content L A B. rewrite U by (intros ->; cbn [length] in L; lia). rewrite !header_not; try reflexivity; try assumption; try (vm_compute; lia); change (length (lit "Hctree database version")) with 23; change (length (lit "SQLite format 3")) with 15; lia.
Qed.
Print Assumptions C83_format.

(** The tries end, after 181 of them and 15 minutes of waiting at most.  The database is used exactly if it is opened at the first try that does not find it locked; before each further try the process was not told to end. *)
Lemma loop_spec result told : forall fuel k, k + fuel = 181 -> 0 < fuel -> exists e, open_loop result told fuel k = Some e /\
  exists j, k <= j <= 180 /\ (forall i, k <= i < j -> result i = Busy /\ told i = false) /\
  match e with
  | Opened n => n = j /\ result j = Good
  | Dies n => n = j /\ (result j = Bad \/ result j = Busy /\ j = 180)
  | Exits n => n = j /\ result j = Busy /\ told j = true
  end.
Proof.
  induction fuel as [|fuel IH]; intros k K F; [lia|]. cbn [open_loop]. destruct (result k) eqn:R.
  - eexists. split; [reflexivity|]. exists k. repeat split; try lia; exact R.
  - destruct (Nat.leb_spec maxRetrySeconds (k * retryIntervalSeconds)) as [M|M]; unfold maxRetrySeconds, retryIntervalSeconds in M.
    + assert (k = 180) by lia. eexists. split; [reflexivity|]. exists k. repeat split; try lia. auto.
    + destruct (told k) eqn:T; [eexists; split; [reflexivity|]; exists k; repeat split; try lia; assumption|].
      destruct (IH (S k)) as (e & E & j & J & B & P); [lia|lia|]. exists e. split; [exact E|]. exists j. split; [lia|]. split; [|exact P].
      intros i I. destruct (Nat.eq_dec i k) as [->|N]; [auto|]. apply B. lia.
  - eexists. split; [reflexivity|]. exists k. repeat split; try lia. auto.
Qed.
Theorem C83_waits : forall result told, exists e, open_loop result told 181 0 = Some e /\ exists j, j <= 180 /\ (forall i, i < j -> result i = Busy /\ told i = false) /\
  match e with
  | Opened n => n = j /\ result j = Good
  | Dies n => n = j /\ (result j = Bad \/ result j = Busy /\ j * 5 = 15 * 60)
  | Exits n => n = j /\ result j = Busy /\ told j = true
  end.
Proof.
  intros result told. destruct (loop_spec result told 181 0 eq_refl ltac:(lia)) as (e & E & j & J & B & P). exists e. split; [exact E|]. exists j. split; [lia|]. split; [intros i I; apply B; lia|].
  destruct e; try exact P. destruct P as (A & [P|(P & ->)]); split; auto.
Qed.
Print Assumptions C83_waits.

(** False: the format depends only on the file and on what is asked for.  Of a file shorter than the header it is not noticed how much was read: the rest comes from memory that
    was not initialized, so that a file with one letter can be taken for an SQLite database although an HC-tree database is asked for. *)
Theorem C83_short_refuted : exists content old, content = lit "S" /\ validateDBFormat (File content) true old = false /\ validateDBFormat (File content) true [] = true.
Proof. exists (lit "S"), (lit "SQLite format 3 and other things"). repeat split. Qed.
Print Assumptions C83_short_refuted.
Example C83_case : begins_with "SQLite format 3" (lit "SQLite format 3" ++ [NUL] ++ lit "more than these thirty-two bytes") /\
  open_loop (fun k => if Nat.ltb k 3 then Busy else Good) (fun _ => false) 181 0 = Some (Opened 3) /\ open_loop (fun _ => Busy) (fun k => Nat.eqb k 2) 181 0 = Some (Exits 2).
Proof. split; [eexists; reflexivity|split; reflexivity]. Qed.
