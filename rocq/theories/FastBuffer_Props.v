(** Properties C07 and C08: SFastBuffer. *)
From Verif Require Import Base FastBuffer_Spec FastBuffer_Model FastBuffer_Proofs.

(** C07.  For every sequence of calls that never consumes more than is there, and for every
    behaviour of the allocator, the buffer's content is that of a plain byte string under
    the same calls: append adds at the end, consumeFront(n) removes the first n bytes. *)
Theorem C07_buffer_is_byte_string :
  forall ops, valid [] ops -> fb_contents (fb_run fb_init ops) = spec_run [] ops.
Proof. intros ops H. apply (run_correct ops fb_init []); [apply Inv_init|reflexivity|exact H]. Qed.
Print Assumptions C07_buffer_is_byte_string.

(** C07.  size() and empty() agree with that byte string. *)
Theorem C07_size_and_empty :
  forall ops, valid [] ops ->
    fb_size (fb_run fb_init ops) = List.length (spec_run [] ops) /\
    (fb_empty (fb_run fb_init ops) = true <-> spec_run [] ops = []).
Proof.
  intros ops H. pose proof (C07_buffer_is_byte_string ops H) as E. rewrite <- E.
  assert (Hs : fb_size (fb_run fb_init ops) = List.length (fb_contents (fb_run fb_init ops))).
  { unfold fb_size, fb_contents. rewrite skipn_length. reflexivity. }
  split; [exact Hs|]. unfold fb_empty. rewrite Hs, Nat.eqb_eq. split; intros H0.
  - apply length_zero_iff_nil. exact H0.
  - rewrite H0. reflexivity.
Qed.
Print Assumptions C07_size_and_empty.

(** C07.  So the allocator's choices are invisible: two runs of the same calls that differ
    only in when the string had to grow have the same content. *)
Definition erase_grow (o : fop) : fop := match o with Fappend _ s => Fappend false s | o => o end.
Theorem C07_allocator_independent :
  forall ops1 ops2, map erase_grow ops1 = map erase_grow ops2 -> valid [] ops1 ->
    fb_contents (fb_run fb_init ops1) = fb_contents (fb_run fb_init ops2).
Proof.
  intros ops1 ops2 HE HV.
  assert (G : forall l o1 o2, map erase_grow o1 = map erase_grow o2 ->
            spec_run l o1 = spec_run l o2 /\ (valid l o1 -> valid l o2)).
  { intros l o1; revert l; induction o1 as [|x o1 IH]; intros l [|y o2] E; try discriminate; [auto|].
    cbn in E. injection E as E1 E2. cbn.
    assert (Hs : spec_step l x = spec_step l y) by (destruct x, y; cbn in *; congruence).
    rewrite Hs. destruct (IH (spec_step l y) _ E2) as [I1 I2].
    split; [exact I1|]. intros [V1 V2]. split; [|auto]. destruct x, y; cbn in *; congruence || auto. }
  destruct (G [] _ _ HE) as [G1 G2].
  rewrite (C07_buffer_is_byte_string ops1 HV), (C07_buffer_is_byte_string ops2 (G2 HV)). exact G1.
Qed.
Print Assumptions C07_allocator_independent.

(** C08.  After any valid history, [startsWithHTTPRequest] answers whether the unconsumed
    bytes contain a complete header block, unless those bytes begin with LF CR LF. *)
Theorem C08_answer_depends_on_content_only :
  forall ops, valid [] ops -> clean_start (spec_run [] ops) ->
    (snd (fb_starts (fb_run fb_init ops)) = true <-> has_header_block (spec_run [] ops)).
Proof.
  intros ops HV HC. destruct (run_correct ops fb_init [] Inv_init eq_refl HV) as [HI HE].
  rewrite (starts_hit _ HI), <- HE. apply some_hit_spec; [exact HI|]. rewrite HE. exact HC.
Qed.
Print Assumptions C08_answer_depends_on_content_only.

(** C08, chunking: feed a message in any chunks, polling in between or not, and the final
    answer is the same as after feeding it in one piece. *)
Definition feed (chunks : list (bool * bytes)) (polls : list bool) : list fop :=
  flat_map (fun cp => Fappend (fst (fst cp)) (snd (fst cp)) :: if snd cp : bool then [Fstarts] else []) (combine chunks polls).
Theorem C08_chunking_independent :
  forall chunks polls grow, List.length polls = List.length chunks ->
    clean_start (concat (map snd chunks)) ->
    snd (fb_starts (fb_run fb_init (feed chunks polls))) =
    snd (fb_starts (fb_run fb_init [Fappend grow (concat (map snd chunks))])).
Proof.
  intros chunks polls grow HL HC.
  assert (G : forall l ch po, List.length po = List.length ch ->
    spec_run l (feed ch po) = l ++ concat (map snd ch) /\ valid l (feed ch po)).
  { intros l ch; revert l; induction ch as [|[g c] ch IH]; intros l [|b po] H; try discriminate.
    - cbn. rewrite app_nil_r. auto.
    - cbn in H. injection H as H. cbn. fold (feed ch po).
      destruct (IH (l ++ c) po H) as [I1 I2]. unfold spec_run in *.
      destruct b; cbn; rewrite I1, <- app_assoc; auto 6. }
  destruct (G [] chunks polls HL) as [G1 G2]. cbn in G1.
  pose proof (C08_answer_depends_on_content_only (feed chunks polls) G2) as A1.
  pose proof (C08_answer_depends_on_content_only [Fappend grow (concat (map snd chunks))] ltac:(cbn; auto)) as A2.
  cbn [spec_run fold_left spec_step app] in A2. rewrite G1 in A1. specialize (A1 HC). specialize (A2 HC).
  destruct (snd (fb_starts (fb_run fb_init (feed chunks polls)))),
           (snd (fb_starts (fb_run fb_init [Fappend grow (concat (map snd chunks))]))); try reflexivity.
  - destruct A1 as [A1 _]. destruct A2 as [_ A2]. symmetry. apply A2, A1. reflexivity.
  - destruct A2 as [A2 _]. destruct A1 as [_ A1]. apply A1, A2. reflexivity.
Qed.
Print Assumptions C08_chunking_independent.

(** Without the [clean_start] condition the claim is false: the look-behind at line 44 reads
    a byte that was already consumed, so the same content gives two answers, and one of
    them is "yes" without any header block. *)
Theorem C08_consumed_byte_leaks_refuted :
  exists ops1 ops2, valid [] ops1 /\ valid [] ops2 /\ spec_run [] ops1 = spec_run [] ops2 /\
    snd (fb_starts (fb_run fb_init ops1)) = true /\ snd (fb_starts (fb_run fb_init ops2)) = false /\
    ~ has_header_block (spec_run [] ops2).
Proof.
  exists [Fappend false (CR :: LF :: CR :: LF :: lit "x"); Fconsume 1], [Fappend false (LF :: CR :: LF :: lit "x")].
  split; [cbn; lia|]. split; [cbn; lia|]. split; [reflexivity|]. split; [vm_compute; reflexivity|]. split; [vm_compute; reflexivity|].
  intros (_ & a & b & Ha & [H|H]); cbn in H.
  - destruct a as [|? [|? [|? [|? [|? a]]]]]; cbn in H; try congruence; injection H; intros; try discriminate.
  - destruct a as [|? [|? [|? [|? [|? a]]]]]; cbn in H; try congruence; injection H; intros; try discriminate.
Qed.
Print Assumptions C08_consumed_byte_leaks_refuted.

(** Stream output ([operator<<]) is the content only when it has no NUL byte. *)
Theorem C07_print_without_nul :
  forall f, fb_print f = fb_contents f <-> ~ In "000"%char (fb_contents f).
Proof.
  intros f. unfold fb_print. generalize (fb_contents f) as l. induction l as [|c l IH]; cbn; [easy|].
  destruct (Ascii.eqb_spec c "000"%char) as [->|Hc].
  - split; [discriminate|]. intros H. exfalso. apply H. auto.
  - split.
    + intros H [E|E]; [congruence|]. injection H as H. apply IH in H. contradiction.
    + intros H. f_equal. apply IH. intros E. apply H. auto.
Qed.
Print Assumptions C07_print_without_nul.

(** ** Cases meeting the hypotheses *)
Definition fb_hist : list fop :=
  [Fappend true (lit "GET / HTTP/1.1"); Fstarts; Fappend false [CR; LF; CR]; Fstarts; Fconsume 4; Fappend true (LF :: lit "body"); Fstarts].
Example fb_hist_ok : valid [] fb_hist /\ clean_start (spec_run [] fb_hist) /\
  snd (fb_starts (fb_run fb_init fb_hist)) = true.
Proof. split; [cbn; lia|]. split; [intros [b H]; discriminate|reflexivity]. Qed.
Example fb_feed_ok :
  clean_start (concat (map snd [(true, lit "GET /"); (false, [CR; LF]); (true, [CR; LF])])) /\
  snd (fb_starts (fb_run fb_init (feed [(true, lit "GET /"); (false, [CR; LF]); (true, [CR; LF])] [true; true; false]))) = true.
Proof. split; [intros [b H]; discriminate|reflexivity]. Qed.
