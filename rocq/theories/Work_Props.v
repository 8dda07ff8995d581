(** C72: a worker is told what is in the jobs it gets, jobs whose answer cannot be sent go back into the queue, and
    blacklisted jobs are not handed out. *)
From Verif Require Import Base Dec Text_Spec Text_Model Text_Proofs Text_Props Table Json_Spec Json_Model Json_Proofs Json_Compose Json_Props Result_Model
  Forward_Model Timeout_Props Addr_Model Addr_Props Jobs_Spec Jobs_Model Jobs_Proofs Schema_Spec Schema_Model Schema_Props Work_Spec Work_Model.
Open Scope nat_scope.

(** ** The answer *)
Section answers.
Context (is_float : bytes -> bool) (float_text : forall v, is_float v = true -> fixed_float v).
(** Every text of the row comes back from JSON as it was (see C13). *)
Definition fine (r : told) : Prop :=
  Forall (faithful is_float) [t_name r; t_data r; t_retry r; t_created r; t_repeat r; t_last r; t_next r; t_prio r]
  /\ match t_parent r with None => True | Some (_, d) => faithful is_float d end
  /\ Forall (fun c => faithful is_float (snd (fst c))) (t_children r).
(** The text [s] is an object with the id and the data of the child. *)
Definition tells_child (s : bytes) (c : N * bytes * bool) : Prop :=
  exists t, SParseJSONObject s (lit "null") = Some t /\ tfind (lit "jobID") t = Some (dec (fst (fst c))) /\ tfind (lit "data") t = Some (snd (fst c)).
(** The text [s] is an array of such objects. *)
Definition tells_children (s : bytes) (l : list (N * bytes * bool)) : Prop :=
  exists ts, SParseJSONArray s (lit "null") = Some ts /\ Forall2 tells_child ts l.
(** The text [s] is an object with everything in the row. *)
Definition tells (s : bytes) (r : told) : Prop :=
  exists t, SParseJSONObject s (lit "null") = Some t /\
    tfind (lit "jobID") t = Some (dec (t_id r)) /\ tfind (lit "name") t = Some (t_name r) /\ tfind (lit "data") t = Some (t_data r) /\
    tfind (lit "retryAfter") t = Some (t_retry r) /\ tfind (lit "created") t = Some (t_created r) /\ tfind (lit "repeat") t = Some (t_repeat r) /\
    tfind (lit "lastRun") t = Some (t_last r) /\ tfind (lit "nextRun") t = Some (t_next r) /\ tfind (lit "priority") t = Some (t_prio r) /\
    tfind (lit "parentJobID") t = option_map (fun p => dec (fst p)) (t_parent r) /\ tfind (lit "parentData") t = option_map snd (t_parent r) /\
    match t_children r with
    | [] => tfind (lit "finishedChildJobs") t = None /\ tfind (lit "cancelledChildJobs") t = None
    | l => exists f c, tfind (lit "finishedChildJobs") t = Some f /\ tfind (lit "cancelledChildJobs") t = Some c /\
             tells_children f (filter snd l) /\ tells_children c (filter (fun x => negb (snd x)) l)
    end.

Definition good (t : stable) : Prop := table_ok t /\ Forall (fun p => plain_name (fst p) /\ faithful is_float (snd p)) t.
Lemma plainb k : forallb (fun c => N.leb 32 (bcode c) && negb (Ascii.eqb c quote) && negb (Ascii.eqb c backslash)) k = true -> plain_name k.
Proof.
  intros H c I. rewrite forallb_forall in H. specialize (H c I). apply andb_true_iff in H as [H A]. apply andb_true_iff in H as [B C].
  apply N.leb_le in B. apply negb_true_iff, Ascii.eqb_neq in A, C. auto.
Qed.
Lemma good_put k v t : plain_name k -> faithful is_float v -> good t -> good (tput k v t).
Proof.
  intros K V [O F]. split; [apply tput_ok; exact O|]. clear O. induction t as [|[k' v'] t IH]; cbn [tput]; [apply Forall_cons; [split; auto|apply Forall_nil]|].
  pose proof (Forall_inv F) as A. pose proof (Forall_inv_tail F) as B. cbn [fst snd] in *. destruct (kcmp k k'); apply Forall_cons; cbn [fst snd]; tauto.
Qed.
Lemma good_nil : good [].
Proof. split; constructor. Qed.
Lemma object_faithful s t : json_object (lit "null") s t -> faithful is_float s.
Proof.
  intros Js. split; [apply (proj1 (proj2 (proj2 (proj2 (json_nul_free (lit "null"))))) s t Js)|]. destruct (object_head _ _ _ Js) as [s' Es']. split.
  - intros (w & Hw & E & _). rewrite Es' in E. cbn [map] in E. cbn [In] in Hw. destruct Hw as [<-|[<-|[<-|[]]]]; discriminate.
  - intros _. left. eapply jv_object. exact Js.
Qed.
Lemma list_faithful s l : json_array (lit "null") s l -> faithful is_float s.
Proof.
  intros Js. split; [apply (proj1 (proj2 (json_nul_free (lit "null"))) s l Js)|]. destruct (array_head _ _ _ Js) as [s' Es']. split.
  - intros (w & Hw & E & _). rewrite Es' in E. cbn [map] in E. cbn [In] in Hw. destruct Hw as [<-|[<-|[<-|[]]]]; discriminate.
  - intros _. left. eapply jv_array. exact Js.
Qed.
Lemma good_text t : good t -> exists s, SComposeJSONObject is_float t false = Some s /\ SParseJSONObject s (lit "null") = Some t /\ faithful is_float s.
Proof.
  intros [O F]. destruct (P_compose_object is_float float_text t false F) as (s & Es & Js). exists s. split; [exact Es|]. split.
  - unfold SParseJSONObject. rewrite (P_object0 _ _ _ Js). cbn [option_map fst]. rewrite table_of_ok by exact O. reflexivity.
  - exact (object_faithful _ _ Js).
Qed.
Lemma array_text l : Forall (faithful is_float) l -> exists s, SComposeJSONArray is_float l = Some s /\ SParseJSONArray s (lit "null") = Some l /\ faithful is_float s.
Proof.
  intros F. destruct (P_compose_array is_float float_text l F) as (s & Es & Js). exists s. split; [exact Es|]. split; [exact (P_array0 _ _ _ Js)|exact (list_faithful _ _ Js)].
Qed.
Lemma lower_digit c : is_digit c = true -> lower c = c.
Proof.
  pose proof (forall_ascii (fun c => implb (is_digit c) (Ascii.eqb (lower c) c)) ltac:(vm_compute; reflexivity) c) as G. cbn beta in G.
  intros D. rewrite D in G. apply Ascii.eqb_eq. exact G.
Qed.
Lemma dec_faithful n : faithful is_float (dec n).
Proof.
  pose proof (dec_is_number n [] (or_introl eq_refl)) as J. cbn [app] in J. split; [exact (number_nul_free _ J)|]. split.
  - intros (w & _ & E & X). apply X. rewrite <- E, <- (map_id (dec n)) at 1. apply map_ext_in. intros c I. symmetry. apply lower_digit. exact (forallb_In _ _ (dec_digits n) c I).
  - intros (s & B). exfalso. destruct (number_first _ J) as (c & v & E & A & C & _). destruct B as [B|B]; rewrite E in B; injection B as B _; contradiction.
Qed.
Ltac put := apply good_put; [apply plainb; vm_compute; reflexivity| |].
Lemma child_said c : faithful is_float (snd (fst c)) -> exists s, child_text is_float c = Some s /\ tells_child s c /\ faithful is_float s.
Proof.
  intros F. destruct (good_text (tput (lit "data") (snd (fst c)) (tput (lit "jobID") (dec (fst (fst c))) []))) as (s & A & B & C).
  { put; [exact F|]. put; [apply dec_faithful|exact good_nil]. }
  exists s. split; [exact A|]. split; [|exact C]. eexists. split; [exact B|]. split; reflexivity.
Qed.
Lemma children_said b l : Forall (fun c => faithful is_float (snd (fst c))) l ->
  exists s, children_text is_float b l = Some s /\ tells_children s (filter (fun c => Bool.eqb (snd c) b) l) /\ faithful is_float s.
Proof.
  intros F. unfold children_text. set (l' := filter _ l).
  assert (F' : Forall (fun c => faithful is_float (snd (fst c))) l').
  { rewrite Forall_forall in *. intros c I. apply F. apply filter_In in I. tauto. }
  assert (X : exists ts, opt_map (child_text is_float) l' = Some ts /\ Forall2 tells_child ts l' /\ Forall (faithful is_float) ts).
  { clear F. induction F' as [|c l0 A B (ts & E & G & H)]; [exists []; cbn; auto|].
    destruct (child_said c A) as (s & E' & G' & H'). exists (s :: ts). cbn [opt_map]. rewrite E', E. auto. }
  destruct X as (ts & E & G & H). rewrite E. destruct (array_text ts H) as (s & A & B & C). exists s. split; [exact A|]. split; [|exact C].
  exists ts. auto.
Qed.
Lemma eqb_true_filter (l : list (N * bytes * bool)) : filter (fun c => Bool.eqb (snd c) true) l = filter snd l.
Proof. apply filter_ext. intros [[a b] []]; reflexivity. Qed.
Lemma eqb_false_filter (l : list (N * bytes * bool)) : filter (fun c => Bool.eqb (snd c) false) l = filter (fun x => negb (snd x)) l.
Proof. apply filter_ext. intros [[a b] []]; reflexivity. Qed.
Lemma row_good r : fine r -> good (row_table r).
Proof.
  intros (A & B & _). do 8 (inversion A as [|? ? A1 A2]; subst; clear A; rename A2 into A; rename A1 into A0; revert A0). intros.
  unfold row_table. destruct (t_parent r) as [[p d]|]; repeat put; auto using dec_faithful, good_nil.
Qed.
Lemma job_said r : fine r -> exists s, job_text is_float r = Some s /\ tells s r /\ faithful is_float s.
Proof.
  intros F. pose proof (row_good r F) as G. unfold job_text, job_table. destruct F as (_ & _ & F).
  destruct (children_said true _ F) as (f & Ef & Tf & Ff). destruct (children_said false _ F) as (c & Ec & Tc & Fc).
  rewrite eqb_true_filter in Tf. rewrite eqb_false_filter in Tc. unfold tells.
  destruct (t_children r) as [|ch l].
  - destruct (good_text _ G) as (s & A & B & C). exists s. split; [exact A|]. split; [|exact C]. eexists. split; [exact B|].
    unfold row_table. destruct (t_parent r) as [[p d]|]; repeat split.
  - rewrite Ef, Ec. destruct (good_text (tput (lit "cancelledChildJobs") c (tput (lit "finishedChildJobs") f (row_table r)))) as (s & A & B & C).
    { repeat put; auto. }
    exists s. split; [exact A|]. split; [|exact C]. eexists. split; [exact B|].
    unfold row_table. destruct (t_parent r) as [[p d]|]; repeat split; exists f, c; repeat split; assumption.
Qed.
(** The answer to GetJob has everything the database has about the job, with the data of its parent and of its children. *)
Theorem C72_job r rest : fine r -> exists s, get_job_content is_float (r :: rest) = Some s /\ tells s r.
Proof. intros F. destruct (job_said r F) as (s & A & B & _). exists s. auto. Qed.
Lemma jobs_said l : Forall fine l -> exists s a ts, get_jobs_content is_float l = Some s /\ SParseJSONObject s (lit "null") = Some [(lit "jobs", a)] /\
  SParseJSONArray a (lit "null") = Some ts /\ Forall2 tells ts l.
Proof.
  intros F. unfold get_jobs_content.
  assert (X : exists ts, opt_map (job_text is_float) l = Some ts /\ Forall2 tells ts l /\ Forall (faithful is_float) ts).
  { induction F as [|c l0 A B (ts & E & G & H)]; [exists []; cbn; auto|].
    destruct (job_said c A) as (s & E' & G' & H'). exists (s :: ts). cbn [opt_map]. rewrite E', E. auto. }
  destruct X as (ts & E & G & H). rewrite E. destruct (array_text ts H) as (a & A & B & C). rewrite A.
  destruct (good_text [(lit "jobs", a)]) as (s & A' & B' & _).
  { apply (good_put (lit "jobs") a []); [apply plainb; vm_compute; reflexivity|exact C|exact good_nil]. }
  exists s, a, ts. auto.
Qed.
(** The answer to GetJobs has the same about each job, in order. *)
Theorem C72_jobs l : Forall fine l -> exists s t a ts, get_jobs_content is_float l = Some s /\ SParseJSONObject s (lit "null") = Some t /\
  tfind (lit "jobs") t = Some a /\ SParseJSONArray a (lit "null") = Some ts /\ Forall2 tells ts l.
Proof.
  intros F. destruct (jobs_said l F) as (s & a & ts & A & B & C & D). exists s, [(lit "jobs", a)], a, ts. repeat split; auto.
Qed.

(** ** Answers that cannot be sent *)
Lemma tells_id s r : tells s r -> one_id s = Some [dec (t_id r)].
Proof. intros (t & A & B & _). unfold one_id. rewrite A, B. reflexivity. Qed.
Lemma all_tell ts l : Forall2 tells ts l -> option_map (@concat bytes) (opt_map one_id ts) = Some (map dec (map t_id l)).
Proof.
  induction 1 as [|s r ts l A B IH]; [reflexivity|]. cbn [opt_map map]. rewrite (tells_id _ _ A).
  destruct (opt_map one_id ts) as [x|]; [|discriminate]. cbn [option_map concat] in *. injection IH as IH. rewrite IH. reflexivity.
Qed.
Lemma named m content l : Forall fine l ->
  (ieqb m (lit "GetJobs") = true /\ get_jobs_content is_float l = Some content \/ ieqb m (lit "GetJob") = true /\ length l <= 1 /\ get_job_content is_float l = Some content) ->
  handleFailedReply m content = Some (Some (SComposeList (map dec (map t_id l)) (lit ", "))).
Proof.
  intros F [(M & E)|(M & L & E)]; unfold handleFailedReply; rewrite M, ?orb_true_r, ?orb_true_l.
  - assert (N : ieqb m (lit "GetJob") = false).
    { destruct (ieqb m (lit "GetJob")) eqn:X; [|reflexivity]. exfalso. apply ieq_same in M, X. unfold same_letters in M, X. rewrite X in M. vm_compute in M. discriminate. }
    rewrite N. destruct (jobs_said l F) as (s & a & ts & A & B & C & D). rewrite A in E. injection E as ->.
    unfold all_ids. rewrite B. assert (Z0 : tfind (lit "jobs") [(lit "jobs", a)] = Some a) by reflexivity. rewrite Z0, C, (all_tell _ _ D). reflexivity.
  - destruct l as [|r [|r2 l]]; [|clear L|cbn in L; lia].
    + injection E as <-. vm_compute. reflexivity.
    + destruct (C72_job r [] (Forall_inv F)) as (s & A & B). rewrite A in E. injection E as ->. rewrite (tells_id _ _ B). reflexivity.
Qed.
Lemma ids_read l : (forall n, In n l -> (n < 2 ^ 63)%N) -> map Z.to_N (SParseIntegerList (SComposeList (map dec l) (lit ", ")) ",") = l.
Proof.
  intros L. pose proof (C70_integers (map Z.of_N l) 1) as X. cbn [repeat] in X.
  assert (Y : map decZ (map Z.of_N l) = map dec l) by (rewrite map_map; apply map_ext; intros n; symmetry; apply dec_decZ).
  rewrite Y in X. change (lit ", ") with [","; " "]%char. rewrite X.
  - rewrite map_map. rewrite <- (map_id l) at 2. apply map_ext. intros n. apply N2Z.id.
  - intros z I. apply in_map_iff in I as (n & <- & I). apply L in I. lia.
Qed.
Lemma taken_keeps Q now j : (0 <= d_count (j_data j))%Z -> let j' := taken Q now j in
  j_name j' = j_name j /\ j_repeat j' = j_repeat j /\ j_prio j' = j_prio j /\ j_parent j' = j_parent j /\ j_retry j' = j_retry j /\ j_created j' = j_created j /\ j_id j' = j_id j /\
  (d_count (j_data j') = d_count (j_data j) \/ d_count (j_data j') = d_count (j_data j) + 1)%Z /\ d_rest (j_data j') = d_rest (j_data j) /\ d_mock (j_data j') = d_mock (j_data j).
Proof.
  intros _. unfold taken, take_retriable. cbv zeta. destruct (q_crashed Q (j_name j)); [cbn; auto 20|]. destruct (is_retriable j); [|cbn; auto 20].
  destruct (10 <=? d_count (j_data j))%Z; [cbn; auto 20|]. destruct (retry_time _ _); [|cbn; auto 20].
  destruct (is_manual j); [cbn; auto 20|]. destruct (is_scheduled _); cbn; auto 20.
Qed.
(** If the answer to GetJob or GetJobs cannot be sent, every job in it is in the queue again, with what it is and its data as before
    and not counted as tried, and all other jobs are left alone. *)
Theorem C72_put_back Q now g t t' l m content rows :
  NoDup (map j_id t) -> (forall j, In j t -> (j_id j < 2 ^ 63)%N /\ (0 <= d_count (j_data j))%Z) -> get_jobs Q now g t = Ok t' (RIds l) ->
  Forall fine rows -> map t_id rows = l ->
  (ieqb m (lit "GetJobs") = true /\ get_jobs_content is_float rows = Some content \/
   ieqb m (lit "GetJob") = true /\ length l <= 1 /\ get_job_content is_float rows = Some content) ->
  exists t'', not_sent m content t' = Some (Ok t'' ROk) /\ map j_id t'' = map j_id t /\ (forall id, In id l -> In id (map j_id t)) /\
    forall j j' j'', In j t -> In j' t' -> In j'' t'' -> j_id j' = j_id j -> j_id j'' = j_id j ->
      (~ In (j_id j) l -> j'' = j') /\
      (In (j_id j) l -> j_state j'' = QUEUED /\ j_next j'' = Some (j_created j) /\ j_name j'' = j_name j /\ j_repeat j'' = j_repeat j /\ j_prio j'' = j_prio j /\
         j_parent j'' = j_parent j /\ j_retry j'' = j_retry j /\ j_created j'' = j_created j /\ d_rest (j_data j'') = d_rest (j_data j) /\ d_mock (j_data j'') = d_mock (j_data j) /\
         (d_count (j_data j'') <= d_count (j_data j))%Z /\ (d_count (j_data j') <> d_count (j_data j) -> d_count (j_data j'') = d_count (j_data j))).
Proof.
  intros N B G F M C. destruct (get_rows Q now g t t' _ N G) as [Et El]. injection El as El.
  assert (I : forall id, In id l -> In id (map j_id t)).
  { intros id X. rewrite El in X. apply in_map_iff in X as (j & <- & X). apply filter_In in X as [X _]. apply select_in in X as [X _]. apply in_map. exact X. }
  assert (Im : map j_id t' = map j_id t).
  { rewrite Et, map_map. apply map_ext. intros j. destruct (in_ids _ j); [apply taken_id|reflexivity]. }
  unfold not_sent. rewrite (named m content rows F).
  2: { destruct C as [C|(C1 & C2 & C3)]; [left; exact C|right]. split; [exact C1|]. split; [|exact C3]. rewrite <- M, map_length in C2. exact C2. }
  rewrite M. unfold requeued. rewrite ids_read.
  2: { intros n X. apply I, in_map_iff in X as (j & <- & X). apply B, X. }
  eexists. split; [reflexivity|]. unfold update. split.
  { rewrite map_map, <- Im. apply map_ext. intros j. destruct (in_ids l j); reflexivity. }
  split; [exact I|]. intros j j' j'' J J' J'' E' E''.
  assert (N' : NoDup (ids t')) by (unfold ids; rewrite Im; exact N).
  apply in_map_iff in J'' as (k & Ek & K).
  assert (k = j').
  { apply (ids_inj t' k j' N' K J'). rewrite E', <- E'', <- Ek. destruct (in_ids l k); reflexivity. }
  subst k. rewrite Et in J'. apply in_map_iff in J' as (k & Ek' & K').
  assert (k = j).
  { apply (ids_inj t k j N K' J). rewrite <- E', <- Ek'. destruct (in_ids _ k); [symmetry; apply taken_id|reflexivity]. }
  subst k. clear K K'.
  assert (X : in_ids l j' = in_ids l j) by (unfold in_ids; rewrite E'; reflexivity). rewrite X in Ek. split.
  - intros Z0. destruct (in_ids l j) eqn:Y; [apply in_ids_true in Y; contradiction|]. symmetry. exact Ek.
  - intros Z0. apply in_ids_true in Z0. rewrite Z0 in Ek.
    assert (Y : in_ids (ids (select Q now g t)) j = true).
    { apply in_ids_true in Z0. apply in_ids_true. rewrite El in Z0. apply in_map_iff in Z0 as (x & Ex & Z0). apply filter_In in Z0 as [Z0 _]. rewrite <- Ex. apply in_map. exact Z0. }
    rewrite Y in Ek'. destruct (B j J) as [_ B0]. destruct (taken_keeps Q now j B0) as (K1 & K2 & K3 & K4 & K5 & K6 & K7 & K8 & K9 & K10). rewrite Ek' in *.
    rewrite <- Ek. cbn -[Z.eqb Z.sub Z.le]. rewrite K1, K2, K3, K4, K5, K6, K9, K10. repeat split.
    + destruct (Z.eqb_spec (d_count (j_data j')) 0); lia.
    + intros Z1. destruct (Z.eqb_spec (d_count (j_data j')) 0); lia.
Qed.
End answers.
Print Assumptions C72_job.
Print Assumptions C72_jobs.
Print Assumptions C72_put_back.
(** Nothing is done for other commands. *)
Theorem C72_only_those m content t : ieqb m (lit "GetJob") = false -> ieqb m (lit "GetJobs") = false -> not_sent m content t = Some (Ok t ROk).
Proof. intros A B. unfold not_sent, handleFailedReply. rewrite A, B. reflexivity. Qed.
Print Assumptions C72_only_those.

(** ** Blacklisting *)
Lemma set_same s k p : set_pats s k p k = p.
Proof. unfold set_pats. rewrite Nat.eqb_refl. reflexivity. Qed.
Lemma set_diff s k p m : m <> k -> set_pats s k p m = s m.
Proof. intros H. unfold set_pats. destruct (Nat.eqb_spec m k); [contradiction|reflexivity]. Qed.
Lemma tell_crash names reached : forall s s' n, tell (CrashBedrockJob names) reached s = (s', n) ->
  n = 0 /\ forall m p, In p (s' m) <-> In p (s m) \/ In m reached /\ In p (SParseList names ",").
Proof.
  induction reached as [|k r IH]; intros s s' n; cbn [tell].
  - intros E. injection E as <- <-. split; [reflexivity|]. intros m p. cbn. tauto.
  - unfold blacklist. cbn -[SParseList tell]. destruct (tell (CrashBedrockJob names) r (set_pats s k (SParseList names "," ++ s k))) as [s1 n1] eqn:T. intros E. injection E as <- <-.
    destruct (IH _ _ _ T) as [A B]. split; [exact A|]. intros m p. rewrite B. destruct (Nat.eq_dec m k) as [->|D].
    + rewrite set_same, in_app_iff. cbn [In]. tauto.
    + rewrite set_diff by exact D. cbn [In]. intuition congruence.
Qed.
Lemma tell_clear reached : forall s s' n, tell ClearCrashedBedrockJobs reached s = (s', n) ->
  n = 0 /\ forall m, (In m reached -> s' m = []) /\ (~ In m reached -> s' m = s m).
Proof.
  induction reached as [|k r IH]; intros s s' n; cbn [tell].
  - intros E. injection E as <- <-. split; [reflexivity|]. intros m. cbn. tauto.
  - unfold blacklist. cbn -[tell]. destruct (tell ClearCrashedBedrockJobs r (set_pats s k [])) as [s1 n1] eqn:T. intros E. injection E as <- <-.
    destruct (IH _ _ _ T) as [A B]. split; [exact A|]. intros m. destruct (B m) as [B1 B2]. cbn [In]. destruct (in_dec Nat.eq_dec m r) as [I|I].
    + split; [auto|tauto].
    + rewrite (B2 I). destruct (Nat.eq_dec m k) as [->|D]; [rewrite set_same|rewrite set_diff by exact D]; intuition congruence.
Qed.
(** CrashBedrockJob blacklists the names on the node that gets it and on every peer it reaches, on no other, keeps what was
    blacklisted, and no peer passes it on. *)
Theorem C72_blacklist names k reached s s' again : blacklist_all (CrashBedrockJob names) [] k reached s = (s', again) ->
  again = 0 /\ forall m p, In p (s' m) <-> In p (s m) \/ (m = k \/ In m reached) /\ In p (SParseList names ",").
Proof.
  unfold blacklist_all, blacklist. cbn -[SParseList]. intros T. destruct (tell_crash _ _ _ _ _ T) as [A B]. split; [exact A|].
  intros m p. rewrite B. destruct (Nat.eq_dec m k) as [->|D]; [rewrite set_same, in_app_iff|rewrite set_diff by exact D]; intuition congruence.
Qed.
Print Assumptions C72_blacklist.
(** ClearCrashedBedrockJobs empties the lists of the same nodes. *)
Theorem C72_clear k reached s s' again : blacklist_all ClearCrashedBedrockJobs [] k reached s = (s', again) ->
  again = 0 /\ forall m, (m = k \/ In m reached -> s' m = []) /\ (m <> k -> ~ In m reached -> s' m = s m).
Proof.
  unfold blacklist_all, blacklist. cbn. intros T. destruct (tell_clear _ _ _ _ T) as [A B]. split; [exact A|].
  intros m. destruct (B m) as [B1 B2]. destruct (in_dec Nat.eq_dec m reached) as [I|I]; [split; [auto|tauto]|]. rewrite (B2 I).
  destruct (Nat.eq_dec m k) as [->|D]; [rewrite set_same|rewrite set_diff by exact D]; intuition congruence.
Qed.
Print Assumptions C72_clear.
(** Both are refused if they did not come through the private port. *)
Theorem C72_private c source k reached s : source <> [] -> blacklist_all c source k reached s = (s, 0).
Proof. intros H. unfold blacklist_all, blacklist. destruct source; [congruence|reflexivity]. Qed.
Print Assumptions C72_private.
(** Two nodes that connect tell each other: afterwards both have all that either had, and the others have what they had. *)
Theorem C72_connect k m s : Forall (list_element ",") (s k) -> Forall (list_element ",") (s m) ->
  forall x p, In p (connect k m s x) <-> In p (s x) \/ (x = k \/ x = m) /\ (In p (s k) \/ In p (s m)).
Proof.
  intros Fk Fm.
  assert (T : forall a b s0, Forall (list_element ",") (s0 a) -> tell_peer a b s0 = s0 /\ s0 a = [] \/ tell_peer a b s0 = set_pats s0 b (s0 a ++ s0 b)).
  { intros a b s0 F. unfold tell_peer. destruct (s0 a) as [|p0 l0] eqn:E; [left; auto|right]. rewrite <- E in *. unfold blacklist. cbn [bytes_eqb negb].
    change (lit ", ") with (","%char :: repeat " "%char 1). rewrite C12_list_roundtrip by (discriminate || exact F). reflexivity. }
  assert (T' : forall a b s0, Forall (list_element ",") (s0 a) -> forall x p, In p (tell_peer a b s0 x) <-> In p (s0 x) \/ x = b /\ In p (s0 a)).
  { intros a b s0 F x p. destruct (T a b s0 F) as [[-> E]| ->]; [rewrite E; cbn; tauto|]. destruct (Nat.eq_dec x b) as [->|D]; [rewrite set_same, in_app_iff|rewrite set_diff by exact D]; intuition congruence. }
  intros x p. unfold connect. rewrite T'.
  - rewrite !(T' k m s Fk). intuition (subst; auto).
  - rewrite Forall_forall in *. intros q I. apply (T' k m s) in I; [|rewrite Forall_forall; exact Fk]. destruct I as [I|[_ I]]; auto.
Qed.
Print Assumptions C72_connect.
(** A node hands out no job whose name matches one of its patterns: it fails it. *)
Theorem C72_not_handed_out Q glob pats now g t t' l : (forall n, q_crashed Q n = crashed_by glob pats n) -> NoDup (map j_id t) -> get_jobs Q now g t = Ok t' (RIds l) ->
  (forall id, In id l -> exists j, In j t /\ j_id j = id /\ forall p, In p pats -> glob p (j_name j) = false) /\
  (forall j j', In j t -> In j' t' -> j_id j' = j_id j -> (exists p, In p pats /\ glob p (j_name j) = true) -> j' = j \/ j_state j' = FAILED).
Proof.
  intros H N G. destruct (get_rows Q now g t t' _ N G) as [Et El]. injection El as El. split.
  - intros id X. rewrite El in X. apply in_map_iff in X as (j & <- & X). apply filter_In in X as [X C]. apply select_in in X as [X _].
    exists j. split; [exact X|]. split; [reflexivity|]. intros p I. apply andb_true_iff in C as [C _]. rewrite H in C. apply negb_true_iff in C.
    destruct (glob p (j_name j)) eqn:E; [|reflexivity]. unfold crashed_by in C. rewrite <- C. symmetry. apply existsb_exists. exists p. auto.
  - intros j j' J J' E (p & I & P). rewrite Et in J'. apply in_map_iff in J' as (k & Ek' & K').
    assert (k = j).
    { apply (ids_inj t k j N K' J). rewrite <- E, <- Ek'. destruct (in_ids _ k); [symmetry; apply taken_id|reflexivity]. }
    subst k. destruct (in_ids _ j); [right|left; auto]. rewrite <- Ek'. unfold taken.
    assert (C : q_crashed Q (j_name j) = true) by (rewrite H; apply existsb_exists; exists p; auto). rewrite C. reflexivity.
Qed.
Print Assumptions C72_not_handed_out.

(** ** Where it falls short *)
Definition daily : sql :=
  mkSql (fun p n => bytes_eqb p n) (fun _ t => Some (t + 86400)%Z) (fun t => t) (fun _ t => t) (fun _ => true) (fun _ d => d) (fun _ => false).
Definition a_job (id : N) (n : bytes) (rep : bytes) (next : Z) : job := mkJob id QUEUED n (Some next) None rep (mkData false 0 None []) (Some 500%Z) 0 [] 0.
Definition some_job (n : bytes) : get_req := mkGet [n] n 0 None false.
Definition row_of (j : job) : told := Build_told (j_id j) (j_name j) (lit "{}") [] (lit "2026-11-16 00:00:00") (j_repeat j) [] (lit "2026-11-16 00:00:00") (lit "500") None [].
(** A job is handed out by the first word of the request, but put back only if the whole first line is GetJob or GetJobs.  The job of
    a request that begins "GetJob HTTP/1.1" stays RUNNING forever if its answer is not sent. *)
Theorem C72_more_words_refuted :
  let t := [a_job 1 (lit "a") [] 5%Z] in let m := lit "GetJob HTTP/1.1" in
  getVerb m = lit "GetJob" /\ exists t' content, get_jobs daily 9 (some_job (lit "a")) t = Ok t' (RIds [1%N]) /\ get_job_content no_float [row_of (a_job 1 (lit "a") [] 5%Z)] = Some content /\
    not_sent m content t' = Some (Ok t' ROk) /\ map j_state t' = [RUNNING].
Proof. cbv zeta. split; [reflexivity|]. do 2 eexists. split; [vm_compute; reflexivity|]. split; [vm_compute; reflexivity|]. split; vm_compute; reflexivity. Qed.
Print Assumptions C72_more_words_refuted.
(** A job that is put back is due at the time it was created, not at the time it was scheduled for.  A daily job that was created thirty
    days ago is then run for each of those days again: finished today, its next run is the second of them. *)
Theorem C72_from_the_beginning_refuted :
  let day := 86400%Z in let now := (30 * day)%Z in let t := [a_job 1 (lit "a") (lit "SCHEDULED, +1 DAY") now] in
  exists t1 t2 t3 t4 content, get_jobs daily now (some_job (lit "a")) t = Ok t1 (RIds [1%N]) /\
    get_job_content no_float [row_of (a_job 1 (lit "a") (lit "SCHEDULED, +1 DAY") now)] = Some content /\ not_sent (lit "GetJob") content t1 = Some (Ok t2 ROk) /\ map j_next t2 = [Some 0%Z] /\
    get_jobs daily now (some_job (lit "a")) t2 = Ok t3 (RIds [1%N]) /\ finish_job daily now (mkFinish false 1 None false [] None None 0 false) t3 = Ok t4 ROk /\ map j_next t4 = [Some day] /\
    (exists t5, finish_job daily now (mkFinish false 1 None false [] None None 0 false) t1 = Ok t5 ROk /\ map j_next t5 = [Some (now + day)%Z]).
Proof.
  cbv zeta. do 5 eexists. split; [vm_compute; reflexivity|]. split; [vm_compute; reflexivity|]. split; [vm_compute; reflexivity|]. split; [vm_compute; reflexivity|].
  split; [vm_compute; reflexivity|]. split; [vm_compute; reflexivity|]. split; [vm_compute; reflexivity|]. eexists. split; vm_compute; reflexivity.
Qed.
Print Assumptions C72_from_the_beginning_refuted.
(** What has been cleared comes back: a node that was not reached by ClearCrashedBedrockJobs brings its patterns along when it connects, and the others
    take them for new ones. *)
Theorem C72_comes_back_refuted :
  exists s s1 again, Forall (list_element ",") (s 0) /\ Forall (list_element ",") (s 2) /\ blacklist_all ClearCrashedBedrockJobs [] 0 [1] s = (s1, again) /\
    s1 0 = [] /\ s1 1 = [] /\ connect 0 2 s1 0 = [lit "a*"].
Proof.
  exists (fun _ => [lit "a*"]). do 2 eexists. assert (F : Forall (list_element ",") [lit "a*"]) by (apply (C12_parse_wellformed (lit "a*") ",")).
  split; [exact F|]. split; [exact F|]. split; [reflexivity|]. split; [reflexivity|]. split; vm_compute; reflexivity.
Qed.
Print Assumptions C72_comes_back_refuted.

(** ** The hypotheses are met *)
Definition ex_told : told := Build_told 7 (lit "send/mail") (lit "{""to"":5}") (lit "+5 MINUTES") (lit "2026-11-16 00:00:00") [] [] (lit "2026-11-16 08:00:00") (lit "500")
  (Some (3%N, lit "{}")) [(9%N, lit "{""x"":1}", true); (12%N, lit "{}", false)].
Example C72_told_case : fine no_float ex_told /\ exists s, get_jobs_content no_float [ex_told] = Some s /\ all_ids s = Some [lit "7"].
Proof.
  split.
  - assert (P : forall v, nul_free v -> ~ misspelt v -> ~ bracketed v -> faithful no_float v) by (intros; split; auto; split; auto; intros; contradiction).
    assert (Q : forall v, forallb (fun c => negb (Ascii.eqb c NUL)) v = true -> map lower v <> lit "true" -> map lower v <> lit "false" -> map lower v <> lit "null" -> hd "x"%char v <> "["%char -> hd "x"%char v <> "{"%char -> faithful no_float v).
    { intros v A B C D E F. apply P.
      - intros I. rewrite forallb_forall in A. specialize (A _ I). discriminate.
      - intros (w & I & W & _). cbn [In] in I. destruct I as [<-|[<-|[<-|[]]]]; contradiction.
      - intros (x & [->| ->]); cbn in E, F; contradiction. }
    assert (R : forall k v s, plain_name k -> faithful no_float v -> SComposeJSONObject no_float [(k, v)] false = Some s -> faithful no_float s).
    { intros k v s K V E. destruct (good_text no_float no_float_text [(k, v)]) as (s' & E' & _ & G); [split; repeat (apply Forall_cons || apply Forall_nil); cbn [fst snd]; auto|].
      - repeat constructor.
      - rewrite E' in E. injection E as <-. exact G. }
    assert (R0 : faithful no_float (lit "{}")) by (apply (object_faithful no_float _ []); apply (jo_empty (lit "null") []); apply ws_nil).
    assert (R1 : faithful no_float (lit "{""to"":5}")) by (apply (R (lit "to") (lit "5")); [apply plainb; reflexivity|apply Q; (reflexivity || discriminate)|vm_compute; reflexivity]).
    assert (R2 : faithful no_float (lit "{""x"":1}")) by (apply (R (lit "x") (lit "1")); [apply plainb; reflexivity|apply Q; (reflexivity || discriminate)|vm_compute; reflexivity]).
    split; [|split]; [|exact R0|].
    + repeat (apply Forall_cons; [first [exact R1|apply Q; vm_compute; (reflexivity || discriminate)]|]). apply Forall_nil.
    + repeat (apply Forall_cons; [first [exact R2|exact R0]|]). apply Forall_nil.
  - eexists. split; [vm_compute; reflexivity|vm_compute; reflexivity].
Qed.
Example C72_put_back_case : let t := [a_job 1 (lit "a") [] 5%Z; a_job 2 (lit "b") [] 5%Z] in
  NoDup (map j_id t) /\ (forall j, In j t -> (j_id j < 2 ^ 63)%N /\ (0 <= d_count (j_data j))%Z) /\
  exists t' content t'', get_jobs daily 9 (some_job (lit "a")) t = Ok t' (RIds [1%N]) /\ get_job_content no_float [row_of (a_job 1 (lit "a") [] 5%Z)] = Some content /\
    map j_state t' = [RUNNING; QUEUED] /\ not_sent (lit "GetJob") content t' = Some (Ok t'' ROk) /\ map j_state t'' = [QUEUED; QUEUED].
Proof.
  cbv zeta. split; [repeat constructor; cbn; intuition discriminate|]. split; [intros j [<-|[<-|[]]]; vm_compute; split; (reflexivity || discriminate)|].
  do 3 eexists. split; [vm_compute; reflexivity|]. split; [vm_compute; reflexivity|]. split; [vm_compute; reflexivity|]. split; vm_compute; reflexivity.
Qed.
Example C72_blacklist_case : let s := fst (blacklist_all (CrashBedrockJob (lit "a*, b")) [] 0 [1] (fun m => match m with 2 => [lit "c"] | _ => [] end)) in
  s 0 = [lit "a*"; lit "b"] /\ s 1 = s 0 /\ s 2 = [lit "c"] /\ connect 0 2 s 2 = [lit "a*"; lit "b"; lit "c"] /\ crashed_by (fun p n => bytes_eqb p n) (s 0) (lit "b") = true.
Proof. vm_compute. auto. Qed.
