(** C05: the lock-free ring buffer, for every number of producers, every capacity and every
    interleaving of the individual atomic accesses, including stale reads of the indices and
    spurious compare-exchange failures.

    Hypothesis of the main theorems: shutdown() is called at most once, which is how the one
    caller (the logger's destructor) uses it; with two calls the property is false
    ([C05_two_shutdowns_refuted]). *)
From Verif Require Import Base Ring_Spec Ring_Model Ring_Proofs.

(** What the consumer has received is exactly an initial part of the line, in order, with no
    element read while being written. *)
Theorem C05_fifo : forall (T : Type) C (es : list (event T)) s,
  rrun C ring_init es = Some s -> shutdowns es <= 1 ->
  exists n, r_out s = map (fun pe => delivers (snd pe)) (firstn n (r_line s)).
Proof. intros T C es s Hr Hs. exists (r_r s). apply (i_out C s (reach_inv C es s Hr Hs)). Qed.
Print Assumptions C05_fifo.

(** No two threads ever touch the same element at the same time. *)
Theorem C05_no_data_race : forall (T : Type) C (es : list (event T)) s,
  rrun C ring_init es = Some s -> shutdowns es <= 1 -> r_race s = false.
Proof. intros T C es s Hr Hs. apply (i_race C s (reach_inv C es s Hr Hs)). Qed.
Print Assumptions C05_no_data_race.

(** A producer's elements in line are exactly those of its pushes that returned true, in the
    order of the calls, followed by at most the one it is pushing right now: nothing is lost,
    duplicated or reordered, and refused pushes leave nothing behind. *)
Theorem C05_accepted_exactly_once : forall (T : Type) C (es : list (event T)) s p,
  rrun C ring_init es = Some s -> shutdowns es <= 1 ->
  exists now, items_of p (r_line s) = map snd (filter (fun q => Nat.eqb (fst q) p) (r_true s)) ++ now /\
    List.length now <= 1 /\ (r_prod s p = PIdle -> now = []).
Proof.
  intros T C es s p Hr Hs. pose proof (i_ret C s (reach_inv C es s Hr Hs) p) as H.
  eexists. split; [exact H|]. split; [destruct (r_prod s p); cbn; lia|]. intros ->. reflexivity.
Qed.
Print Assumptions C05_accepted_exactly_once.

(** At most [C] elements are in flight: accepted and not yet received. *)
Theorem C05_capacity : forall (T : Type) C (es : list (event T)) s,
  rrun C ring_init es = Some s -> shutdowns es <= 1 ->
  count_items (skipn (List.length (r_out s)) (r_line s)) <= C.
Proof.
  intros T C es s Hr Hs. pose proof (reach_inv C es s Hr Hs) as H.
  assert (E : List.length (r_out s) = r_r s).
  { rewrite (i_out C s H), map_length, firstn_length, (i_len C s H). pose proof (i_le C s H). lia. }
  rewrite E. pose proof (i_room C s H) as R. unfold markers in R.
  pose proof (count_items_le (skipn (r_r s) (r_line s))) as L. rewrite skipn_length, (i_len C s H) in *. lia.
Qed.
Print Assumptions C05_capacity.

(** Nothing is lost: whenever no producer is in the middle of a call, the consumer alone can
    receive everything that is in line. *)
Theorem C05_everything_is_received : forall (T : Type) C (es : list (event T)) s,
  rrun C ring_init es = Some s -> shutdowns es <= 1 -> (forall p, r_prod s p = PIdle) -> r_cons s = CIdle ->
  exists pops s', Forall consumer_event pops /\
    rrun C s pops = Some s' /\ r_line s' = r_line s /\
    r_out s' = map (fun pe => delivers (snd pe)) (r_line s).
Proof.
  intros T C es s Hr Hs Hp Hc. destruct (Inv_run C es ring_init s (Inv_init C) Hr) as [H M]; [cbn; lia|].
  eapply drain_idle; eauto. rewrite M. cbn. lia.
Qed.
Print Assumptions C05_everything_is_received.

(** A push whose two index loads are up to date at the check is refused exactly when [C]
    places are taken. *)
Theorem C05_refused_only_when_full : forall (T : Type) C (es : list (event T)) s p v s',
  rrun C ring_init es = Some s -> shutdowns es <= 1 ->
  r_prod s p = PLoaded v (r_w s) -> rstep C s (ECheck p (r_r s)) = Some s' ->
  (r_prod s' p = PIdle /\ r_false s' = r_false s ++ [(p, v)] <-> C <= List.length (r_line s) - List.length (r_out s)).
Proof.
  intros T C es s p v s' Hr Hs Hp Hst. pose proof (reach_inv C es s Hr Hs) as H.
  assert (E : List.length (r_out s) = r_r s).
  { rewrite (i_out C s H), map_length, firstn_length, (i_len C s H). pose proof (i_le C s H). lia. }
  rewrite E, (i_len C s H). cbn [rstep] in Hst. rewrite Hp, Nat.leb_refl in Hst. unfold full_check in Hst.
  pose proof (i_le C s H). destruct (Nat.leb_spec (r_r s) (r_w s)); [|lia].
  destruct (Nat.leb_spec C (r_w s - r_r s)) as [Hf|Hf]; injection Hst as <-; cbn; rewrite upd_same.
  - split; intros _; [exact Hf|split; reflexivity].
  - split; [intros [A _]; discriminate|lia].
Qed.
Print Assumptions C05_refused_only_when_full.

(** Without that assumption the claim is false: a producer that loads the write index and is
    then overtaken by another producer and the consumer sees the read index beyond its own
    copy; the unsigned difference wraps and the push is refused although the buffer (of two
    places) is empty.  All loads in this run return the current value. *)
Definition overtaken : list (event nat) :=
  [EPush 1 11 0; EPush 2 22 0; ECheck 2 0; ECas 2 false 0; EWriteBegin 2; EWriteEnd 2; EReady 2;
   EPeek false; ETakeBegin; ETakeEnd; EEmpty; EAdvance; ECheck 1 1].
Theorem C05_refused_only_when_full_refuted : exists s, rrun 2 ring_init overtaken = Some s /\
  r_false s = [(1, 11)] /\ List.length (r_line s) = List.length (r_out s).
Proof. eexists. split; [vm_compute; reflexivity|]. split; reflexivity. Qed.
Print Assumptions C05_refused_only_when_full_refuted.

(** Two shutdown calls on a full buffer overwrite an element that has not been received. *)
Definition two_shutdowns : list (event nat) :=
  [EPush 1 11 0; ECheck 1 0; ECas 1 false 0; EWriteBegin 1; EWriteEnd 1; EReady 1;
   EShutdown 1; EShutStore 1; EShutdown 1; EShutStore 1; EPeek false; EEmpty; EAdvance].
Theorem C05_two_shutdowns_refuted : exists s, rrun 1 ring_init two_shutdowns = Some s /\
  r_true s = [(1, 11)] /\ r_out s = [GotShutdown] /\ nth_error (r_line s) 0 = Some (1, Item 11).
Proof. eexists. split; [vm_compute; reflexivity|]. repeat split; reflexivity. Qed.
Print Assumptions C05_two_shutdowns_refuted.

(** A concrete run: two producers interleave, one retries after losing the race, the buffer
    wraps, the third push finds the buffer full, and shutdown arrives last. *)
Definition mixed : list (event nat) :=
  [EPush 1 11 0; EPush 2 22 0; ECheck 1 0; ECheck 2 0; ECas 2 false 0; ECas 1 false 1; ECheck 1 0;
   ECas 1 false 0; EWriteBegin 1; EWriteBegin 2; EWriteEnd 1; EReady 1; EPeek false; EWriteEnd 2; EReady 2;
   EPush 2 23 2; ECheck 2 0; EPeek false; ETakeBegin; ETakeEnd; EEmpty; EAdvance;
   EPush 2 24 2; ECheck 2 1; ECas 2 false 0; EShutdown 1; EShutStore 1; EWriteBegin 2; EWriteEnd 2; EReady 2;
   EPeek false; ETakeBegin; ETakeEnd; EEmpty; EAdvance].
Example C05_case : shutdowns mixed <= 1 /\ exists s, rrun 2 ring_init mixed = Some s /\
  r_out s = [Got 22; Got 11] /\ map snd (r_line s) = [Item 22; Item 11; Item 24; Marker] /\
  r_false s = [(2, 23)] /\ r_true s = [(1, 11); (2, 22); (2, 24)] /\ r_race s = false.
Proof. split; [cbn; lia|]. eexists. split; [vm_compute; reflexivity|]. repeat split; reflexivity. Qed.
