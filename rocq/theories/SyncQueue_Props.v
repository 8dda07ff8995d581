(** C06: the synchronized queue with its wake-up pipe, for every number of threads and every
    interleaving. *)
From Verif Require Import Base SyncQueue_Model.

Section P.
Context {T : Type}.
Variable K : nat.

Definition SInv (s : squeue T) : Prop :=
  sq_pushed s = map fst (sq_removed s) ++ sq_items s /\
  (sq_items s <> [] -> 0 < sq_pipe s \/ sq_lock s <> None \/ sq_awake s <> []).

Lemma SInv_step s e s' : SInv s -> sq_step K s e = Some s' -> SInv s'.
Proof.
  intros [H1 H2] Hst. destruct e as [t v|t|t|t|t|t]; cbn [sq_step] in Hst.
  - destruct (sq_lock s); [discriminate|]. injection Hst as <-. split; cbn.
    + rewrite H1, app_assoc. reflexivity.
    + intros _. right; left; discriminate.
  - destruct (sq_lock s); [|discriminate]. destruct (_ && _); [|discriminate]. injection Hst as <-. split; cbn; [exact H1|].
    intros _. left. lia.
  - destruct (sq_lock s) eqn:El; [discriminate|]. destruct (sq_items s) as [|v l] eqn:Ei; injection Hst as <-; split; cbn.
    + rewrite H1. reflexivity.
    + contradiction.
    + rewrite H1, map_app, <- app_assoc. reflexivity.
    + intros _. destruct H2 as [H2|[H2|H2]]; [discriminate|auto|contradiction|auto].
  - destruct (sq_lock s); [discriminate|]. injection Hst as <-. split; cbn; [|contradiction].
    rewrite H1, map_app, map_map, map_id, app_nil_r. reflexivity.
  - destruct (sq_pipe s); [discriminate|]. injection Hst as <-. split; cbn; [exact H1|]. intros _. right; right; discriminate.
  - destruct (sq_pipe s) eqn:Ep; [|discriminate]. injection Hst as <-. split; [exact H1|]. rewrite Ep. exact H2.
Qed.
Lemma SInv_run es : forall s s', SInv s -> sq_run K s es = Some s' -> SInv s'.
Proof.
  induction es as [|e es IH]; intros s s' H Hr; cbn in Hr; [congruence|].
  destruct (sq_step K s e) eqn:E; [|discriminate]. eapply IH; [|exact Hr]. eapply SInv_step; eauto.
Qed.
Lemma SInv_init : SInv sq_init.
Proof. split; [reflexivity|contradiction]. Qed.

Lemma pipe_step (s : squeue T) e s' : sq_step K s e = Some s' -> ~ is_read e -> sq_pipe s <= sq_pipe s'.
Proof.
  intros Hst Hn. destruct e as [t v|t|t|t|t|t]; cbn [sq_step] in Hst; [| | | |cbn in Hn; tauto|];
  repeat match type of Hst with
  | (if ?b then _ else _) = _ => destruct b
  | match ?b with _ => _ end = _ => destruct b eqn:?
  end; try discriminate; injection Hst as <-; cbn; lia.
Qed.

End P.

(** First in, first out, exactly once: at any time what was pushed is what has been taken out
    (by pop, or dropped by clear), in order, followed by what is queued. *)
Theorem C06_fifo : forall (T : Type) K (es : list (sqev T)) s,
  sq_run K sq_init es = Some s -> sq_pushed s = map fst (sq_removed s) ++ sq_items s.
Proof. intros T K es s H. apply (SInv_run K es sq_init s SInv_init H). Qed.
Print Assumptions C06_fifo.

(** No sleeping on work: whenever an item is queued, the pipe is readable (so a poll returns
    at once), or a push is just about to write its byte, or some thread has been woken and has
    not yet looked at the queue until it was empty. *)
Theorem C06_never_sleeps_on_work : forall (T : Type) K (es : list (sqev T)) s,
  sq_run K sq_init es = Some s -> sq_items s <> [] ->
  0 < sq_pipe s \/ sq_lock s <> None \/ sq_awake s <> [].
Proof. intros T K es s H. apply (SInv_run K es sq_init s SInv_init H). Qed.
Print Assumptions C06_never_sleeps_on_work.

(** Every push wakes somebody afterwards: if the pipe is found empty later, some thread has
    read a byte after the push. *)
Theorem C06_push_wakes : forall (T : Type) K (s s1 s2 : squeue T) t es,
  sq_step K s (QWrite t) = Some s1 -> sq_run K s1 es = Some s2 -> sq_pipe s2 = 0 ->
  exists e, In e es /\ is_read e.
Proof.
  intros T K s s1 s2 t es Hw Hr Hp.
  assert (Hpos : 0 < sq_pipe s1).
  { cbn in Hw. destruct (sq_lock s); [|discriminate]. destruct (_ && _); [|discriminate]. injection Hw as <-. cbn. lia. }
  clear Hw. revert s1 Hpos Hr. induction es as [|e es IH]; intros s1 Hpos Hr; cbn in Hr; [injection Hr as ->; lia|].
  destruct (sq_step K s1 e) as [s1'|] eqn:E; [|discriminate].
  assert (D : is_read e \/ ~ is_read e) by (destruct e; cbn; tauto). destruct D as [D|D].
  - exists e. split; [left; reflexivity|exact D].
  - destruct (IH s1') as (e' & Hi & He); [pose proof (pipe_step K _ _ _ E D); lia|exact Hr|]. exists e'. split; [right; exact Hi|exact He].
Qed.
Print Assumptions C06_push_wakes.

(** The wake-up pipe is finite and push() writes to it while holding the mutex.  For every
    pipe capacity there is a run (more pushes than the capacity while the woken thread is
    still busy) after which no thread can take another queue step: the pusher waits for room
    in the pipe and the woken thread, about to pop or clear, waits for the mutex; only a
    thread that polls again without popping first could get out. *)
Fixpoint many_pushes (n : nat) : list (sqev nat) :=
  match n with O => [] | S n' => QAppend 1 n :: QWrite 1 :: many_pushes n' end.
Lemma many_pushes_run K n : forall (s : squeue nat), sq_lock s = None -> sq_pipe s + n <= K ->
  exists s', sq_run K s (many_pushes n) = Some s' /\ sq_lock s' = None /\ sq_pipe s' = sq_pipe s + n /\ sq_awake s' = sq_awake s.
Proof.
  induction n as [|n IH]; intros s Hl Hp; cbn [many_pushes sq_run].
  - exists s. repeat split; auto.
  - cbn [sq_step]. rewrite Hl. cbn [sq_lock sq_pipe sq_items sq_awake sq_pushed sq_removed Nat.eqb andb].
    destruct (Nat.ltb_spec (sq_pipe s) K); [|lia].
    destruct (IH (mkSQ (sq_items s ++ [S n]) (S (sq_pipe s)) None (sq_awake s) (sq_pushed s ++ [S n]) (sq_removed s)))
      as (s' & R & L & P & A); [reflexivity|cbn; lia|].
    exists s'. split; [exact R|]. split; [exact L|]. split; [cbn in P; lia|exact A].
Qed.
Theorem C06_full_pipe_blocks_refuted : forall K, 1 <= K -> exists es (s : squeue nat),
  sq_run K sq_init es = Some s /\ sq_items s <> [] /\ sq_awake s = [2] /\
  (forall t v, sq_step K s (QAppend t v) = None) /\ (forall t, sq_step K s (QWrite t) = None) /\
  (forall t, sq_step K s (QPop t) = None) /\ (forall t, sq_step K s (QClear t) = None).
Proof.
  intros K HK.
  set (s1 := mkSQ [7] 0 None [2] [7] []).
  destruct (many_pushes_run K K s1 eq_refl ltac:(unfold s1; cbn; lia)) as (s2 & R & L & P & A). cbn in P, A.
  exists ([QAppend 1 7; QWrite 1; QRead 2] ++ many_pushes K ++ [QAppend 1 9]).
  exists (mkSQ (sq_items s2 ++ [9]) (sq_pipe s2) (Some 1) (sq_awake s2) (sq_pushed s2 ++ [9]) (sq_removed s2)).
  assert (App : forall es1 es2 (s : squeue nat), sq_run K s (es1 ++ es2) = match sq_run K s es1 with Some s' => sq_run K s' es2 | None => None end).
  { induction es1 as [|e es1 IH]; intros es2 s; cbn; [reflexivity|]. destruct (sq_step K s e); auto. }
  split; [|split; [|split; [|split; [|split; [|split]]]]]; cbn [sq_items sq_awake sq_step sq_lock sq_pipe]; auto.
  - rewrite App. assert (E : sq_run K sq_init [QAppend 1 7; QWrite 1; QRead 2] = Some s1).
    { destruct K as [|K']; [lia|reflexivity]. }
    rewrite E, App, R. cbn. rewrite L. reflexivity.
  - destruct (sq_items s2); discriminate.
  - intros t. rewrite P. rewrite (Nat.ltb_irrefl K). destruct (Nat.eqb 1 t); reflexivity.
Qed.
Print Assumptions C06_full_pipe_blocks_refuted.

(** A concrete run: two pushers, a poller that drains between append and write, then pops. *)
Definition sq_mixed : list (sqev nat) :=
  [QAppend 1 10; QWrite 1; QAppend 2 20; QRead 3; QReadEmpty 3; QWrite 2; QPop 3; QRead 3; QPop 3; QPop 3; QAppend 1 30; QWrite 1].
Example C06_case : exists s, sq_run 8 sq_init sq_mixed = Some s /\ sq_items s = [30] /\ sq_pipe s = 1 /\
  sq_removed s = [(10, true); (20, true)] /\ sq_awake s = [].
Proof. eexists. split; [vm_compute; reflexivity|]. repeat split; reflexivity. Qed.
