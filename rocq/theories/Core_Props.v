(** C32: the stages of a command and the database handle they use. *)
From Verif Require Import Base Core_Spec Core_Model.

(** A handle nobody is using: outside any transaction, nothing left over, no lock, no limit and no mode in force. *)
Definition at_rest (db : list bytes) (j : list (list statement)) : handle :=
  H false false [] [] false false 0 false false false false db j.
(** A handle inside a transaction with these changes and this text for the journal; the blocking thread has the lock. *)
Definition in_transaction (exclusive : bool) (p : list bytes) (q : list statement) (db : list bytes) (j : list (list statement)) : handle :=
  H true true p q false exclusive (if exclusive then 1 else 0) false false false false db j.

(** ** Writes *)
Definition kept (mocked : bool) (c : call) : list statement :=
  if carried_out mocked c then [(c_query c, true)]
  else match c_outcome c, c_kind c with NothingChanged, Unmodified => [(c_query c, false)] | _, _ => [] end.
Definition stops (c : call) : Prop := c_outcome c = ChangedTooLate \/ c_outcome c = UndoneAll.
Lemma stops_dec c : {stops c} + {~ stops c}.
Proof. unfold stops. destruct (c_outcome c); ((left; left; reflexivity) || (left; right; reflexivity) || (right; intros [X|X]; discriminate)). Qed.
Lemma changes_app a b : changes (a ++ b) = changes a ++ changes b.
Proof. unfold changes. rewrite filter_app, map_app. reflexivity. Qed.
Lemma changes_kept mocked l : changes (flat_map (kept mocked) l) = map c_query (filter (carried_out mocked) l).
Proof.
  induction l as [|c l IH]; [reflexivity|]. cbn [flat_map filter]. rewrite changes_app, IH. unfold kept.
  destruct (carried_out mocked c); [reflexivity|]. destruct (c_outcome c), (c_kind c); reflexivity.
Qed.
Lemma write_runs noop lk hd t a p q db j c : ~ stops c ->
  write (H true true p q false lk hd false noop t a db j) c =
  H true true (p ++ map c_query (filter (carried_out noop) [c])) (q ++ kept noop c) false lk hd false noop t a db j.
Proof.
  intros H. unfold write, kept, carried_out, stops in *. cbn [h_inside h_noop h_queryonly negb filter].
  destruct c as [k qu o]; cbn [c_outcome c_kind c_query] in *.
  destruct o, k, noop; cbn [negb orb map sql_change keep h_sql h_inside h_pending h_query h_hash h_locked h_held h_queryonly h_noop h_timeout h_abort h_db h_journal];
    rewrite ?app_nil_r; try reflexivity; exfalso; apply H; (left; reflexivity) || (right; reflexivity).
Qed.
Lemma writes_run noop lk hd t a db j l : forall p q, (forall c, In c l -> ~ stops c) ->
  fold_left write l (H true true p q false lk hd false noop t a db j) =
  H true true (p ++ map c_query (filter (carried_out noop) l)) (q ++ flat_map (kept noop) l) false lk hd false noop t a db j.
Proof.
  induction l as [|c l IH]; intros p q HS; [cbn [fold_left filter map flat_map]; rewrite !app_nil_r; reflexivity|].
  cbn [fold_left]. rewrite write_runs by (apply HS; left; reflexivity). rewrite IH by (intros; apply HS; right; assumption).
  cbn [flat_map]. change (c :: l) with ([c] ++ l). rewrite filter_app, map_app, <- !app_assoc. reflexivity.
Qed.
(* after any well behaved run the database is untouched, whatever state the transaction is in *)
Lemma writes_any noop lk hd t a db j l : forall p q, (forall pre c post, l = pre ++ c :: post -> stops c -> post = []) ->
  exists s p' q', fold_left write l (H true true p q false lk hd false noop t a db j) = H true s p' q' false lk hd false noop t a db j.
Proof.
  induction l as [|c l IH]; intros p q HS; [eexists _, _, _; reflexivity|]. cbn [fold_left].
  destruct (stops_dec c) as [SC|SC].
  - rewrite (HS [] c l eq_refl SC). cbn [fold_left]. unfold write. cbn [h_inside h_noop h_queryonly negb]. rewrite orb_false_r.
    destruct (match c_kind c with Plain => noop | _ => false end); [eexists _, _, _; reflexivity|].
    destruct SC as [-> | ->]; eexists _, _, _; reflexivity.
  - rewrite write_runs by exact SC. apply IH. intros pre c' post -> H'. exact (HS (c :: pre) c' post eq_refl H').
Qed.
Lemma query_only_writes l : forall i s p q lk hd n t a db j, (forall c, In c l -> c_kind c <> Unmodified) ->
  fold_left write l (H i s p q false lk hd true n t a db j) = H i s p q false lk hd true n t a db j.
Proof.
  induction l as [|c l IH]; intros i s p q lk hd n t a db j HN; [reflexivity|]. cbn [fold_left].
  replace (write _ c) with (H i s p q false lk hd true n t a db j); [apply IH; intros; apply HN; right; assumption|].
  unfold write. cbn [h_inside h_noop h_queryonly]. destruct (_ || _); [reflexivity|].
  pose proof (HN c (or_introl eq_refl)) as X. destruct (c_outcome c); try reflexivity. destruct (c_kind c); try reflexivity. contradiction.
Qed.

(** ** The stages *)
(** Only replication uses writeUnmodified (SQLiteNode.cpp 1797, 1973). *)
Definition command_code (b : behaviour) : Prop := forall c, In c (b_calls b) -> c_kind c <> Unmodified.

Ltac fields := cbv beta iota zeta delta [h_inside h_sql h_pending h_query h_hash h_locked h_held h_queryonly h_noop h_timeout h_abort h_db h_journal
  set_limits setQueryOnly at_rest in_transaction rollback beginTransaction orb andb negb pred m_reply m_complete fst snd] in *.

(** Whatever a command does while it is peeked, the database is not changed.  A command that peek completes leaves the handle
    at rest; one that has to be processed leaves it inside an empty transaction. *)
Theorem C32_peek : forall exclusive prePeeks done s b db j c h' c' res,
  command_code b -> s_begin s = true ->
  peekCommand exclusive prePeeks done s b (at_rest db j) c = (h', c', res) ->
  match res with
  | COMPLETE => h' = at_rest db j /\ m_complete c' = true
  | SHOULD_PROCESS => h' = in_transaction exclusive [] [] db j /\ m_complete c' = m_complete c
                      /\ done = false /\ b_end b = None
  end.
Proof.
  intros exclusive prePeeks done s b db j c h' c' res HC HB. unfold peekCommand. rewrite HB.
  destruct (s_gone s); [intros E; injection E as <- <- <-; split; reflexivity|].
  destruct (s_expired s); [intros E; injection E as <- <- <-; split; reflexivity|].
  unfold perform. destruct exclusive; fields.
  - destruct (s_expired_later s); [intros E; injection E as <- <- <-; split; reflexivity|].
    rewrite query_only_writes by exact HC. destruct (b_end b) as [e|]; [intros E; injection E as <- <- <-; split; reflexivity|].
    destruct (s_gone_later s); [intros E; injection E as <- <- <-; split; reflexivity|].
    destruct done; intros E; injection E as <- <- <-; repeat split; reflexivity.
  - rewrite query_only_writes by exact HC. destruct (b_end b) as [e|]; [intros E; injection E as <- <- <-; split; reflexivity|].
    destruct (s_gone_later s); [intros E; injection E as <- <- <-; split; reflexivity|].
    destruct done; intros E; injection E as <- <- <-; repeat split; reflexivity.
Qed.
Print Assumptions C32_peek.
(** The same for the stages before and after: nothing is changed, and the handle is left as it was found. *)
Theorem C32_prepeek : forall s b db j c h' c', command_code b -> prePeekCommand s b (at_rest db j) c = (h', c') -> h' = at_rest db j.
Proof.
  intros s b db j c h' c' HC. unfold prePeekCommand, perform.
  destruct (s_gone s); [intros E; injection E as <- <-; reflexivity|]. destruct (s_expired s); [intros E; injection E as <- <-; reflexivity|].
  fields. rewrite query_only_writes by exact HC. destruct (b_end b); [intros E; injection E as <- <-; reflexivity|].
  destruct (s_gone_later s); intros E; injection E as <- <-; reflexivity.
Qed.
Print Assumptions C32_prepeek.
Theorem C32_postprocess : forall s b db j c h' c', command_code b -> postProcessCommand s b (at_rest db j) c = (h', c') -> h' = at_rest db j /\ m_complete c' = true.
Proof.
  intros s b db j c h' c' HC. unfold postProcessCommand, perform.
  destruct (s_gone s); [intros E; injection E as <- <-; split; reflexivity|]. destruct (s_expired s); [intros E; injection E as <- <-; split; reflexivity|].
  fields. rewrite query_only_writes by exact HC. destruct (b_end b); [intros E; injection E as <- <-; split; reflexivity|].
  destruct (s_gone_later s); intros E; injection E as <- <-; split; reflexivity.
Qed.
Print Assumptions C32_postprocess.

Lemma well_behaved_stops b : well_behaved b -> forall pre c post, b_calls b = pre ++ c :: post -> stops c -> post = [].
Proof. intros H pre c post E S. apply (H pre c post E S). Qed.
Lemma well_behaved_runs b : well_behaved b -> b_end b = None -> forall c, In c (b_calls b) -> ~ stops c.
Proof. intros H E c Hin S. apply in_split in Hin as (pre & post & Hin). destruct (H pre c post Hin S) as [_ X]. contradiction. Qed.
(* process, from inside an empty transaction *)
Definition noop_text (mocked : bool) : list statement * list statement := if mocked then ([NOOP_ON], [NOOP_OFF]) else ([], []).
Lemma process_inside exclusive mocked empty s b db j c h' c' res :
  well_behaved b ->
  processCommand exclusive mocked empty s b (in_transaction exclusive [] [] db j) c = (h', c', res) ->
  match res with
  | NO_COMMIT_REQUIRED => h' = at_rest db j /\ m_complete c' = true
  | NEEDS_COMMIT => b_end b = None /\ s_gone s = false /\ s_expired s = false /\ s_gone_later s = false /\ m_complete c' = false /\
      h' = in_transaction exclusive (effect mocked b) (fst (noop_text mocked) ++ flat_map (kept mocked) (b_calls b) ++ snd (noop_text mocked)) db j
  end.
Proof.
  intros HW. unfold processCommand, perform.
  destruct (s_gone s) eqn:G1; [intros E; injection E as <- <- <-; destruct exclusive; split; reflexivity|].
  destruct (s_expired s) eqn:G2; [intros E; injection E as <- <- <-; destruct exclusive; split; reflexivity|].
  destruct (b_end b) as [e|] eqn:EB.
  - assert (G : forall p q noop, exists s' p' q',
      fold_left write (b_calls b) (H true true p q false exclusive (if exclusive then 1 else 0) false noop true true db j)
      = H true s' p' q' false exclusive (if exclusive then 1 else 0) false noop true true db j).
    { intros p q noop. apply writes_any. exact (well_behaved_stops b HW). }
    fields. unfold setUpdateNoopMode. fields. destruct mocked; cbn [Bool.eqb]; fields.
    + destruct (G [] ([] ++ [NOOP_ON]) true) as (s' & p' & q' & ->). intros E. injection E as <- <- <-. destruct exclusive; split; reflexivity.
    + destruct (G [] [] false) as (s' & p' & q' & ->). intros E. injection E as <- <- <-. destruct exclusive; split; reflexivity.
  - pose proof (well_behaved_runs b HW EB) as NS. fields. unfold setUpdateNoopMode. fields. destruct mocked; cbn [Bool.eqb]; fields.
    + rewrite writes_run by exact NS. cbn [app]. fields. destruct (s_gone_later s) eqn:G3.
      * intros E. injection E as <- <- <-. destruct exclusive; split; reflexivity.
      * intros E. injection E as <- <- <-. repeat (split; [reflexivity|]). reflexivity.
    + rewrite writes_run by exact NS. cbn [app]. fields. destruct (s_gone_later s) eqn:G3.
      * intros E. injection E as <- <- <-. destruct exclusive; split; reflexivity.
      * cbn [noop_text fst snd app]. rewrite app_nil_r. destruct (flat_map (kept false) (b_calls b)) eqn:K.
        -- destruct empty; intros E; injection E as <- <- <-; [repeat (split; [reflexivity|]); reflexivity|].
           destruct exclusive; split; reflexivity.
        -- intros E. injection E as <- <- <-. repeat (split; [reflexivity|]). reflexivity.
Qed.
Lemma changes_text mocked b : changes (fst (noop_text mocked) ++ flat_map (kept mocked) (b_calls b) ++ snd (noop_text mocked)) = effect mocked b.
Proof. rewrite !changes_app, changes_kept. destruct mocked; cbn [noop_text fst snd]; unfold changes; cbn [filter map NOOP_ON NOOP_OFF snd app]; rewrite app_nil_r; reflexivity. Qed.

(** Whatever a command does while it is processed and however that ends, the database is not changed yet.  When no commit is
    needed the handle is at rest; otherwise the code returned normally, and the transaction holds exactly what it wrote,
    and the text that will be replicated says exactly that. *)
Theorem C32_process : forall exclusive mocked empty s b db j c h' c' res,
  well_behaved b ->
  processCommand exclusive mocked empty s b (in_transaction exclusive [] [] db j) c = (h', c', res) ->
  match res with
  | NO_COMMIT_REQUIRED => h' = at_rest db j /\ m_complete c' = true
  | NEEDS_COMMIT => b_end b = None /\ s_gone s = false /\ s_expired s = false /\ s_gone_later s = false /\ m_complete c' = false /\
      exists text, changes text = effect mocked b /\ h' = in_transaction exclusive (effect mocked b) text db j
  end.
Proof.
  intros exclusive mocked empty s b db j c h' c' res HW E. apply process_inside in E; [|exact HW]. destruct res; [|exact E].
  destruct E as (E1 & G1 & G2 & G3 & E2 & E3). repeat (split; [assumption|]). eexists. split; [apply changes_text|exact E3].
Qed.
Print Assumptions C32_process.
(** A command with HTTPS requests is processed without a peek before it, from a handle at rest. *)
Theorem C32_process_again : forall exclusive mocked empty s b db j c h' c' res,
  well_behaved b -> s_begin s = true ->
  processCommand exclusive mocked empty s b (at_rest db j) c = (h', c', res) ->
  match res with
  | NO_COMMIT_REQUIRED => h' = at_rest db j /\ m_complete c' = true
  | NEEDS_COMMIT => b_end b = None /\ s_gone s = false /\ s_expired s = false /\ s_gone_later s = false /\ m_complete c' = false /\
      exists text, changes text = effect mocked b /\ h' = in_transaction exclusive (effect mocked b) text db j
  end.
Proof.
  intros exclusive mocked empty s b db j c h' c' res HW HB E.
  destruct (s_gone s) eqn:G1; [unfold processCommand in E; rewrite G1 in E; injection E as <- <- <-; split; reflexivity|].
  destruct (s_expired s) eqn:G2; [unfold processCommand in E; rewrite G1, G2 in E; injection E as <- <- <-; split; reflexivity|].
  destruct (exclusive && s_expired_later s) eqn:G3.
  { apply andb_true_iff in G3 as [-> G3]. unfold processCommand in E. rewrite G1, G2, HB in E. fields. rewrite G3 in E. injection E as <- <- <-. split; reflexivity. }
  pose proof (C32_process exclusive mocked empty s b db j c h' c' res HW) as T. rewrite G1, G2 in T. apply T. rewrite <- E. unfold processCommand. rewrite G1, G2, HB. fields.
  destruct exclusive; cbn [andb] in G3; fields; rewrite ?G3; reflexivity.
Qed.
Print Assumptions C32_process_again.

(** A commit that succeeds puts exactly the transaction's changes into the database and its text into the journal; one that
    fails changes nothing.  Either way the handle is at rest afterwards and the lock is free. *)
Theorem C32_commit : forall exclusive f p q db j h' res,
  commit f (in_transaction exclusive p q db j) = (h', res) ->
  match res with
  | CommitTrue => h' = at_rest (db ++ p) (j ++ [q]) /\ f_leading f = true /\ f_enabled f = true /\ f_conflict f = false
  | CommitFalse => h' = at_rest db j
  | CommitAborts => False
  end.
Proof.
  intros exclusive f p q db j h' res. unfold commit, prepare. destruct exclusive; fields.
  - destruct (f_row f); [|intros E; injection E as <- <-; reflexivity].
    fields. destruct (f_leading f); [|intros E; injection E as <- <-; reflexivity].
    destruct (f_enabled f); [|intros E; injection E as <- <-; reflexivity].
    destruct (f_conflict f); intros E; injection E as <- <-; [reflexivity|]. repeat split; reflexivity.
  - destruct (f_lock f); [|intros E; injection E as <- <-; reflexivity]. fields. destruct (f_row f); [|intros E; injection E as <- <-; reflexivity].
    fields. destruct (f_leading f); [|intros E; injection E as <- <-; reflexivity].
    destruct (f_enabled f); [|intros E; injection E as <- <-; reflexivity].
    destruct (f_conflict f); intros E; injection E as <- <-; [reflexivity|]. repeat split; reflexivity.
Qed.
Print Assumptions C32_commit.

(** A whole attempt at a command on the leader: it always leaves the handle at rest.  The database is changed only when the
    commit succeeds, then by exactly what the processed code wrote, and the journal row says the same. *)
Theorem C32_attempt : forall a db j c h' c' e,
  command_code (snd (a_pre a)) -> command_code (snd (a_peek a)) -> well_behaved (snd (a_process a)) -> s_begin (fst (a_peek a)) = true ->
  try a (at_rest db j) c = (h', c', e) ->
  match e with
  | Committed => exists text, changes text = effect (a_mocked a) (snd (a_process a)) /\
      h' = at_rest (db ++ effect (a_mocked a) (snd (a_process a))) (j ++ [text]) /\ b_end (snd (a_process a)) = None /\ m_complete c' = true
  | Answered => h' = at_rest db j /\ m_complete c' = true
  | Retry => h' = at_rest db j /\ m_complete c' = false
  | Aborts => False
  end.
Proof.
  intros a db j c h' c' e H1 H2 H3 H4. unfold try.
  assert (P : exists c1, (if a_prePeeks a then prePeekCommand (fst (a_pre a)) (snd (a_pre a)) (at_rest db j) c else (at_rest db j, c)) = (at_rest db j, c1)).
  { destruct (a_prePeeks a); [|eexists; reflexivity]. destruct (prePeekCommand _ _ _ _) as [h1 c1] eqn:E. apply C32_prepeek in E; [|exact H1]. subst h1. eexists. reflexivity. }
  destruct P as (c1 & ->). destruct (m_complete c1) eqn:M1; [intros E; injection E as <- <- <-; split; [reflexivity|exact M1]|].
  destruct (peekCommand _ _ _ _ _ _ _) as [[h2 c2] [|]] eqn:E2; (apply C32_peek in E2; [|exact H2|exact H4]).
  - intros E. injection E as <- <- <-. exact E2.
  - destruct E2 as (-> & E2 & _ & _). destruct (processCommand _ _ _ _ _ _ _) as [[h3 c3] [|]] eqn:E3; apply C32_process in E3; try exact H3.
    + destruct E3 as (B & _ & _ & _ & M3 & text & T & ->). destruct (commit _ _) as [h4 [| |]] eqn:E4; apply C32_commit in E4.
      * intros E. injection E as <- <- <-. destruct E4 as (-> & _). exists text. repeat split; assumption.
      * intros E. injection E as <- <- <-. split; assumption.
      * destruct E4.
    + intros E. injection E as <- <- <-. exact E3.
Qed.
Print Assumptions C32_attempt.

(** Nothing is lost in silence: a command whose peek does not complete it, whose code ends normally while time and client last and
    which changes something is not answered without a commit. *)
Lemma process_answered exclusive mocked empty s b db j c h' c' :
  well_behaved b -> b_end b = None -> s_gone s = false -> s_expired s = false -> s_gone_later s = false ->
  processCommand exclusive mocked empty s b (in_transaction exclusive [] [] db j) c = (h', c', NO_COMMIT_REQUIRED) ->
  effect mocked b = [].
Proof.
  intros HW EB G1 G2 G3. unfold processCommand, perform. rewrite G1, G2, G3, EB. pose proof (well_behaved_runs b HW EB) as NS.
  fields. unfold setUpdateNoopMode. fields. rewrite <- (changes_text mocked b). destruct mocked; cbn [Bool.eqb]; fields; rewrite writes_run by exact NS; cbn [app]; fields; [discriminate|].
  cbn [noop_text fst snd app]. rewrite app_nil_r. destruct (flat_map (kept false) (b_calls b)); [reflexivity|discriminate].
Qed.
Definition undisturbed (s : situation) : Prop := s_gone s = false /\ s_expired s = false /\ s_begin s = true /\ s_expired_later s = false /\ s_gone_later s = false.
Theorem C32_not_lost : forall a db j c h' c' e,
  a_prePeeks a = false -> command_code (snd (a_peek a)) -> well_behaved (snd (a_process a)) ->
  undisturbed (fst (a_peek a)) -> undisturbed (fst (a_process a)) ->
  b_end (snd (a_peek a)) = None -> a_done a = false -> b_end (snd (a_process a)) = None ->
  effect (a_mocked a) (snd (a_process a)) <> [] -> m_complete c = false ->
  try a (at_rest db j) c = (h', c', e) ->
  e = Committed /\ h_db h' = db ++ effect (a_mocked a) (snd (a_process a)) \/ e = Retry /\ h_db h' = db.
Proof.
  intros a db j c h' c' e HP H2 H3 (P1 & P2 & P3 & P4 & P5) (Q1 & Q2 & Q3 & Q4 & Q5) B1 HD B2 HE HM E.
  assert (A : e = Committed \/ e = Retry).
  { unfold try in E. rewrite HP, HM in E. destruct (peekCommand _ _ _ _ _ _ _) as [[h2 c2] res] eqn:E2.
    assert (X : res = SHOULD_PROCESS). { unfold peekCommand in E2. rewrite P1, P2, P3, P4, P5, B1, HD, andb_false_r in E2. destruct (a_exclusive a); fields; injection E2 as _ _ <-; reflexivity. }
    subst res. apply C32_peek in E2; [|exact H2|exact P3]. destruct E2 as (-> & _).
    destruct (processCommand _ _ _ _ _ _ _) as [[h3 c3] [|]] eqn:E3.
    - apply C32_process in E3; [|exact H3]. destruct E3 as (_ & _ & _ & _ & _ & text & _ & ->).
      destruct (commit _ _) as [h4 [| |]] eqn:E4; injection E as _ _ <-; [left; reflexivity|right; reflexivity|]. apply C32_commit in E4. destruct E4.
    - exfalso. apply HE. exact (process_answered _ _ _ _ _ _ _ _ _ _ H3 B2 Q1 Q2 Q5 E3). }
  assert (K : command_code (snd (a_pre (Attempt (a_exclusive a) false (a_done a) (a_mocked a) (a_empty a) (Situation false false false false false, Behaviour [] None [] None) (a_peek a) (a_process a) (a_fate a))))) by (intros x []).
  assert (E' : try (Attempt (a_exclusive a) false (a_done a) (a_mocked a) (a_empty a) (Situation false false false false false, Behaviour [] None [] None) (a_peek a) (a_process a) (a_fate a)) (at_rest db j) c = (h', c', e)).
  { rewrite <- E. unfold try. cbn [a_prePeeks a_exclusive a_done a_mocked a_empty a_peek a_process a_fate]. rewrite HP. reflexivity. }
  pose proof (C32_attempt _ db j c h' c' e K H2 H3 P3 E') as T. destruct A as [-> | ->].
  - destruct T as (text & _ & -> & _). left. split; reflexivity.
  - destruct T as (-> & _). right. split; reflexivity.
Qed.
Print Assumptions C32_not_lost.

(** ** The reply *)
(** Without prePeek, what the client is told by a peek comes from that peek alone: nothing of an attempt that was rolled
    back is left. *)
Theorem C32_fresh_reply : forall exclusive done s b db j c1 c2,
  s_gone s = false -> s_expired s = false -> s_begin s = true -> s_expired_later s = false -> m_complete c1 = m_complete c2 ->
  snd (fst (peekCommand exclusive false done s b (at_rest db j) c1)) = snd (fst (peekCommand exclusive false done s b (at_rest db j) c2)).
Proof.
  intros exclusive done s b db j c1 c2 G1 G2 G3 G4 HM. unfold peekCommand. rewrite G1, G2, G3, G4, andb_false_r. unfold perform, reset_for_peek. destruct exclusive; fields;
    (destruct (b_end b); [reflexivity|]; destruct (s_gone_later s); [reflexivity|]; destruct done; [reflexivity|]; cbn [fst snd]; rewrite HM; reflexivity).
Qed.
Print Assumptions C32_fresh_reply.

(** ** Where the full statements fail *)
Definition calm : situation := Situation false false true false false.
Definition quiet : behaviour := Behaviour [] None [] None.
Definition fine : fate := Fate true true true true false.
Definition fresh : cmd := Cmd (Reply [] []) false.
Definition plain (q : bytes) (o : write_outcome) : call := Call Plain q o.
Definition simple (calls : list call) (e : option stop) : attempt :=
  Attempt false false false false false (calm, quiet) (calm, quiet) (calm, Behaviour calls None [] e) fine.

(** "After a failed stage no lock is held" is false on the blocking thread when SQLite refuses the BEGIN: beginTransaction has
    taken the commit lock, but rollback does not release it, as there is no transaction.  From then on no other thread
    can commit, also after this thread's next commands succeed. *)
Theorem C32_begin_fails_refuted : forall db j,
  let s := Situation false false false false false in
  let '(h1, _, r1) := peekCommand true false true s quiet (at_rest db j) fresh in
  let '(h2, _, r2) := peekCommand true false true calm quiet h1 fresh in
  r1 = COMPLETE /\ h_held h1 = 1 /\ r2 = COMPLETE /\ h_held h2 = 1.
Proof. intros. vm_compute. repeat split. Qed.
Print Assumptions C32_begin_fails_refuted.

(** "Every change is replicated" is false when the code of a command goes on after a time-out exception from a write: the
    write was carried out, but is not in the journal. *)
Theorem C32_too_late_refuted : forall db j,
  let a := simple [plain (lit "A;") ChangedTooLate; plain (lit "B;") Changed] None in
  let '(h, _, e) := try a (at_rest db j) fresh in
  e = Committed /\ h_db h = db ++ [lit "A;"; lit "B;"] /\ h_journal h = j ++ [[(lit "B;", true)]].
Proof. intros. vm_compute. repeat split. Qed.
Print Assumptions C32_too_late_refuted.

(** "Nothing is changed before the commit" is false when the code of a command ignores a write that failed so badly that
    SQLite undid the transaction (disk full, i/o error): later writes are then committed one by one, outside the journal, even
    though the command ends with an error. *)
Theorem C32_undone_refuted : forall db j,
  let a := simple [plain (lit "A;") UndoneAll; plain (lit "B;") Changed] (Some (SExc (lit "502 failed") [])) in
  let '(h, c, e) := try a (at_rest db j) fresh in
  e = Answered /\ r_method (m_reply c) = lit "502 failed" /\ h_db h = db ++ [lit "B;"] /\ h_journal h = j.
Proof. intros. vm_compute. repeat split. Qed.
Print Assumptions C32_undone_refuted.
(** If the command then returns normally, its journal row is committed on its own too, and the server stops at the COMMIT
    (SASSERT in SQLite::commit), with a commit no other node has. *)
Theorem C32_undone_stops_refuted : forall db j,
  let a := simple [plain (lit "A;") UndoneAll; plain (lit "B;") Changed] None in
  let '(h, c, e) := try a (at_rest db j) fresh in
  e = Aborts /\ h_db h = db ++ [lit "B;"] /\ h_journal h = j ++ [[(lit "B;", true)]].
Proof. intros. vm_compute. repeat split. Qed.
Print Assumptions C32_undone_stops_refuted.

(** "An error means nothing was done" is false for a command with a postProcess stage: it runs after the commit, and when
    time is over or the client is gone by then, the answer is an error. *)
Theorem C32_error_after_commit_refuted : forall db j,
  let '(h, c, e) := try (simple [plain (lit "A;") Changed] None) (at_rest db j) fresh in
  let '(h', c') := postProcessCommand (Situation false true true false false) quiet h c in
  e = Committed /\ r_method (m_reply c) = lit "200 OK" /\ r_method (m_reply c') = lit "555 Timeout" /\ h_db h' = db ++ [lit "A;"].
Proof. intros. vm_compute. repeat split. Qed.
Print Assumptions C32_error_after_commit_refuted.

(** "The answer tells only about the attempt that counts" is false for a command with a prePeek stage: what a rolled-back
    attempt put into the response is still there in the next one. *)
Theorem C32_stale_reply_refuted : forall db j,
  let a f items := Attempt false true false false false (calm, quiet) (calm, quiet) (calm, Behaviour [plain (lit "A;") Changed] None items None) f in
  let '(h1, c1, e1) := try (a (Fate true true true true true) [lit "jobID: 1"]) (at_rest db j) fresh in
  let '(h2, c2, e2) := try (a fine [lit "jobID: 2"]) h1 c1 in
  e1 = Retry /\ e2 = Committed /\ r_items (m_reply c2) = [lit "jobID: 1"; lit "jobID: 2"].
Proof. intros. vm_compute. repeat split. Qed.
Print Assumptions C32_stale_reply_refuted.

(** A conflict, then a success; a constraint violation; a mocked command on the blocking thread. *)
Definition W : list call := [plain (lit "A;") Changed; plain (lit "B;") NothingChanged; Call Idempotent (lit "C;") Changed].
Definition V : list call := [plain (lit "D;") Changed; plain (lit "E;") Violated].
Definition O : list call := [plain (lit "D;") Changed; plain (lit "E;") ChangedTooLate].
Example C32_behaves : well_behaved (Behaviour W None [] None) /\ well_behaved (Behaviour V None [] (Some ConstraintError))
  /\ well_behaved (Behaviour O None [] (Some TimeoutError)) /\ command_code (Behaviour W None [] None).
Proof.
  assert (D : forall l e, (forall c, In c l -> ~ stops c) -> well_behaved (Behaviour l None [] e)).
  { intros l e HS pre c post E X. exfalso. apply (HS c); [|exact X]. cbn [b_calls] in E. rewrite E. apply in_or_app. right. left. reflexivity. }
  split; [|split; [|split]].
  - apply D. intros c [<-|[<-|[<-|[]]]] [X|X]; discriminate.
  - apply D. intros c [<-|[<-|[]]] [X|X]; discriminate.
  - intros pre c post E X. cbn [b_calls b_end] in *. unfold O in E. destruct pre as [|x [|y pre]].
    + injection E as <- <-. destruct X as [X|X]; discriminate.
    + injection E as <- <- <-. split; [reflexivity|discriminate].
    + injection E as _ _ E. destruct pre; discriminate.
  - intros c [<-|[<-|[<-|[]]]]; discriminate.
Qed.
Example C32_story :
  let '(h1, c1, e1) := try (Attempt false false false false false (calm, quiet) (calm, quiet) (calm, Behaviour W None [lit "x"] None) (Fate true true true true true)) (at_rest [] []) fresh in
  let '(h2, c2, e2) := try (simple W None) h1 c1 in
  let '(h3, c3, e3) := try (simple V (Some ConstraintError)) h2 fresh in
  let '(h4, c4, e4) := try (Attempt true false false true false (calm, quiet) (calm, quiet) (calm, Behaviour W None [] None) fine) h3 fresh in
  let '(h5, c5, e5) := try (simple O (Some TimeoutError)) h4 fresh in
  (e1, e2, e3, e4, e5) = (Retry, Committed, Answered, Committed, Answered) /\
  (m_reply c2, r_method (m_reply c3), r_method (m_reply c5)) = (Reply (lit "200 OK") [], lit "400 Unique Constraints Violation", lit "555 Timeout processing command") /\
  h5 = at_rest [lit "A;"; lit "C;"; lit "C;"] [[(lit "A;", true); (lit "C;", true)]; [NOOP_ON; (lit "C;", true); NOOP_OFF]].
Proof. vm_compute. repeat split. Qed.
