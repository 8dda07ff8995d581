(** C60: what must not be logged is not logged, what is logged is complete and is marked with the request it belongs to, and what is sent to
    Fluentd arrives there or in syslog. *)
From Verif Require Import Base Dec Text_Spec Text_Model Text_Proofs Table Json_Spec Json_Model Json_Compose Json_Props Log_Spec Log_Model.

(** ** What is not on the list *)
Lemma params_same live wl p q : same_for wl p q -> params_text live wl p = params_text live wl q.
Proof.
  induction 1 as [|[k v] [k2 v2] p q (E & V) H IH]; [reflexivity|]. cbn [fst snd] in *. subst k2. cbn [params_text]. rewrite IH. destruct (listed wl k) eqn:L; [|reflexivity].
  rewrite V; [reflexivity|]. unfold listed in L. apply existsb_exists in L. destruct L as (y & I & B). apply bytes_eqb_eq in B. subst y. exact I.
Qed.
Lemma same_find wl p q k : same_for wl p q -> match tfind k p with None => true | Some _ => false end = match tfind k q with None => true | Some _ => false end.
Proof. induction 1 as [|[k1 v1] [k2 v2] p q (E & _) H IH]; [reflexivity|]. cbn [fst] in E. subst k2. cbn [tfind]. destruct (kcmp k k1); [reflexivity|exact IH|exact IH]. Qed.
Lemma same_put wl p q : same_for wl p q -> forall r, fold_left (fun r p => tput (fst p) (if listed wl (fst p) then snd p else REDACTED) r) p r =
  fold_left (fun r p => tput (fst p) (if listed wl (fst p) then snd p else REDACTED) r) q r.
Proof.
  induction 1 as [|[k v] [k2 v2] p q (E & V) H IH]; intros r; [reflexivity|]. cbn [fst snd] in *. subst k2. cbn [fold_left fst snd]. rewrite IH. destruct (listed wl k) eqn:L; [|reflexivity].
  rewrite V; [reflexivity|]. unfold listed in L. apply existsb_exists in L. destruct L as (y & I & B). apply bytes_eqb_eq in B. subst y. exact I.
Qed.
Definition with_params (p : stable) (c : call) : call := Call (tag c) (message c) (file c) (line c) (function c) p.
(** The value of a parameter whose name is not on the list has no influence on what is logged, neither in syslog nor in Fluentd. *)
Theorem C60_redacted : forall is_float live wl x c ftag now secs p q, same_for wl p q ->
  ssyslog live wl x (with_params p c) = ssyslog live wl x (with_params q c) /\
  fluentd_json is_float ftag wl now secs x (with_params p c) = fluentd_json is_float ftag wl now secs x (with_params q c).
Proof.
  intros fl live wl x c ft now secs p q H. split.
  - unfold ssyslog, addLogParams, with_params, whereami. cbn [tag message file line function params]. rewrite (params_same live wl p q H). rewrite (same_find wl p q (lit "command") H).
    replace (match p with [] => true | _ => false end) with (match q with [] => true | _ => false end) by (destruct H; reflexivity). reflexivity.
  - unfold fluentd_json, record_of, with_params. cbn [tag message file line function params]. rewrite (same_put wl p q H). reflexivity.
Qed.
(** A server that is not live refuses instead, exactly when there is such a parameter: the call ends with an exception; on a live server
    logging does not. *)
Lemma params_live wl p : params_text true wl p = Some (shown wl p).
Proof.
  induction p as [|[k v] p IH]; [reflexivity|]. cbn [params_text]. rewrite andb_false_r, IH. f_equal. unfold shown. cbn [flat_map fst snd]. fold (shown wl p). unfold listed. fold REDACTED.
  rewrite <- !app_assoc. reflexivity.
Qed.
Lemma params_dead wl p : params_text false wl p = (if forallb (fun a => listed wl (fst a)) p then Some (shown wl p) else None).
Proof.
  induction p as [|[k v] p IH]; [reflexivity|]. cbn [params_text forallb fst]. rewrite andb_true_r. destruct (listed wl k) eqn:L; cbn [negb andb]; [|reflexivity]. rewrite IH. destruct (forallb _ p); [|reflexivity].
  f_equal. unfold shown. cbn [flat_map fst snd]. fold (shown wl p). unfold listed in L. rewrite L. rewrite <- !app_assoc. reflexivity.
Qed.
Theorem C60_refused : forall wl x c, (ssyslog false wl x c = None <-> exists k v, In (k, v) (params c) /\ ~ In k wl) /\ ssyslog true wl x c <> None.
Proof.
  intros wl x c. assert (L : forall k, listed wl k = true <-> In k wl).
  { intros k. unfold listed. rewrite existsb_exists. split; [intros (y & I & B); apply bytes_eqb_eq in B; subst y; exact I|intros I; exists k; split; [exact I|apply bytes_eqb_refl]]. }
  split.
  - unfold ssyslog, addLogParams. rewrite params_dead. destruct (params c) as [|[k v] p] eqn:P.
    + cbn [forallb andb]. split; [|intros (k & v & [] & _)]. destruct (negb _); discriminate.
    + cbn [andb]. rewrite <- P. destruct (forallb _ (params c)) eqn:F.
      * split; [discriminate|]. intros (k0 & v0 & I & N). exfalso. rewrite forallb_forall in F. specialize (F _ I). apply N. apply L. exact F.
      * split; [intros _|reflexivity]. clear P k v p. induction (params c) as [|[k v] p IH]; [discriminate|]. cbn [forallb fst] in F. destruct (listed wl k) eqn:K.
        -- destruct (IH F) as (k0 & v0 & I & N). exists k0, v0. split; [right; exact I|exact N].
        -- exists k, v. split; [left; reflexivity|]. intros I. apply L in I. congruence.
  - unfold ssyslog, addLogParams. rewrite params_live. destruct (_ && _); discriminate.
Qed.

(** ** What is logged *)
Lemma pieces_spec : forall fuel s, (List.length s <= fuel)%nat -> concat (pieces fuel s) = s /\ Forall (fun p => (1 <= List.length p <= LINE)%nat) (pieces fuel s).
Proof.
  assert (L : (1 <= LINE)%nat) by (unfold LINE; lia). induction fuel as [|f IH]; intros s F.
  - destruct s; [split; [reflexivity|constructor]|cbn [List.length] in F; lia].
  - destruct s as [|a s]; [split; [reflexivity|constructor]|]. cbn [pieces]. assert (F2 : (List.length (skipn LINE (a :: s)) <= f)%nat) by (rewrite skipn_length; cbn [List.length] in *; lia).
    destruct (IH _ F2) as (E & A). split; [cbn [concat]; rewrite E; apply firstn_skipn|]. constructor; [|exact A]. rewrite firstn_length. cbn [List.length] in *. lia.
Qed.
(** On a live server everything is logged: the lines begin with the context and the place, and what follows there, put together, is the tag, the message, the parameters,
    and the command if there is one and no parameter is called so; no line has more than 7168 bytes of it.  If there is no NUL. *)
Theorem C60_complete : forall wl x c, exists lines text, ssyslog true wl x c = Some lines /\
  let named := match tfind (lit "command") (params c) with Some _ => true | None => false end in
  text = tag c ++ lit " " ++ message c
         ++ (match params c, command x with [], [] => [] | _, _ => lit " ~~" end) ++ shown wl (params c)
         ++ (match command x with [] => [] | m => if named then [] else lit " command: '" ++ m ++ lit "'" end)
  /\ (nul_free (whereami x c ++ text) -> exists ps, lines = map (fun p => whereami x c ++ p) ps /\ concat ps = text /\ Forall (fun p => (1 <= List.length p <= LINE)%nat) ps).
Proof.
  intros wl x c. set (text := tag c ++ lit " " ++ message c ++ (match params c, command x with [], [] => [] | _, _ => lit " ~~" end) ++ shown wl (params c)
         ++ (match command x with [] => [] | m => if match tfind (lit "command") (params c) with Some _ => true | None => false end then [] else lit " command: '" ++ m ++ lit "'" end)).
  assert (A : addLogParams true wl (command x) (tag c ++ lit " " ++ message c) (params c) = Some text).
  { unfold addLogParams. rewrite params_live. unfold text. destruct (params c) as [|[k v] p] eqn:P.
    - destruct (command x) as [|a m]; [cbn [andb negb shown flat_map]; rewrite !app_nil_r; reflexivity|]. cbn [tfind andb negb]. rewrite <- !app_assoc. reflexivity.
    - cbn [andb]. rewrite <- P. destruct (command x) as [|a m]; [rewrite !app_nil_r; rewrite <- !app_assoc; reflexivity|]. destruct (tfind (lit "command") (params c)); rewrite <- !app_assoc; reflexivity. }
  exists (map (fun p => cstr (whereami x c ++ p)) (pieces (List.length text) text)), text. split; [unfold ssyslog; rewrite A; reflexivity|]. cbv zeta. split; [reflexivity|].
  intros N. destruct (pieces_spec (List.length text) text (Nat.le_refl _)) as (E & F). exists (pieces (List.length text) text). split; [|split; assumption].
  apply map_ext_in. intros p I. apply cstr_nul_free. intros X. apply N. apply in_app_or in X. apply in_or_app. destruct X as [X|X]; [left; exact X|right]. rewrite <- E. apply in_concat. exists p. split; assumption.
Qed.
(** Lines go to the syslog socket whole, as long as the context, the place, the priority and the name of the process take less than 1024 bytes together. *)
Theorem C60_direct : forall head x c p, (List.length p <= LINE)%nat -> (N.of_nat (List.length head + List.length (whereami x c)) < 1024)%N ->
  socket_direct head (whereami x c ++ p) = Sent (head ++ whereami x c ++ p).
Proof.
  intros head x c p P H. unfold socket_direct. rewrite app_length. assert (E : (N.of_nat (List.length head) + N.of_nat (List.length (whereami x c) + List.length p) <? MAX_MESSAGE_SIZE)%N = true); [|rewrite E; reflexivity].
  apply N.ltb_lt. unfold MAX_MESSAGE_SIZE. assert (P2 : (N.of_nat (List.length p) <= 7168)%N) by (unfold LINE in P; lia). lia.
Qed.

(** The record for Fluentd has the parameters, the others hidden, and what is named otherwise as it was. *)
Lemma put_find wl : forall p r k, table_ok p -> tfind k (fold_left (fun r p => tput (fst p) (if listed wl (fst p) then snd p else REDACTED) r) p r) =
  match find (fun a => match kcmp k (fst a) with Eq => true | _ => false end) p with Some a => Some (if listed wl (fst a) then snd a else REDACTED) | None => tfind k r end.
Proof.
  induction p as [|[k1 v1] p IH]; intros r k T; [reflexivity|]. cbn [fold_left fst snd]. inversion T as [|? ? T2 A]; subst. rewrite IH by exact T2. cbn [find fst snd]. destruct (kcmp k k1) eqn:K.
  - destruct (find _ p) as [b|] eqn:F.
    + exfalso. apply find_some in F. destruct F as (I & F). rewrite Forall_forall in A. specialize (A _ I). unfold klt in A. cbn [fst] in A. destruct (kcmp k (fst b)) eqn:B; try discriminate.
      unfold kcmp in *. apply lex_eq in K. apply lex_eq in B. rewrite <- K, <- B in A. pose proof (proj2 (lex_eq (map lower k) (map lower k)) eq_refl). congruence.
    + rewrite tfind_tput, K. reflexivity.
  - destruct (find _ p); [reflexivity|]. rewrite tfind_tput, K. reflexivity.
  - destruct (find _ p); [reflexivity|]. rewrite tfind_tput, K. reflexivity.
Qed.
Lemma find_tfind k p : (match find (fun a : bytes * bytes => match kcmp k (fst a) with Eq => true | _ => false end) p with Some a => Some (snd a) | None => None end) = tfind k p.
Proof. induction p as [|[k1 v1] p IH]; [reflexivity|]. cbn [find fst tfind]. destruct (kcmp k k1); [reflexivity|exact IH|exact IH]. Qed.
Theorem C60_record : forall wl now x c, table_ok (params c) ->
  let r := record_of wl now x c in
  (forall k v, In (k, v) (params c) -> tfind k r = Some (if existsb (bytes_eqb k) wl then v else lit "<REDACTED>")) /\
  (forall k v, In (k, v) [(lit "request_id", request_id x); (lit "log_param", log_param x); (lit "command", command x); (lit "type_tag", tag c); (lit "thread_name", thread_name x);
                          (lit "file", file c); (lit "line", dec (line c)); (lit "function", function c); (lit "message", message c)] -> tfind k (params c) = None -> tfind k r = Some v).
Proof.
  intros wl now x c T r. unfold r, record_of. cbv zeta. set (base := fold_left (fun r p => tput (fst p) (snd p) r) _ []). split.
  - intros k v I. rewrite put_find by exact T. destruct (find _ (params c)) as [[k2 v2]|] eqn:F.
    + apply find_some in F. destruct F as (I2 & F). cbn [fst snd] in *. destruct (kcmp k k2) eqn:K; try discriminate.
      assert (E : (k2, v2) = (k, v)).
      { clear F. revert I I2 K T. generalize (params c). induction s as [|[k3 v3] s IH]; intros I I2 K T; [destruct I|]. inversion T as [|? ? T2 A]; subst. rewrite Forall_forall in A. unfold kcmp in K. apply lex_eq in K.
        assert (NO : forall y, In y s -> map lower (fst y) = map lower k3 -> False).
        { intros y J E. specialize (A _ J). unfold klt, kcmp in A. cbn [fst] in A. rewrite E in A. pose proof (proj2 (lex_eq (map lower k3) (map lower k3)) eq_refl). congruence. }
        destruct I as [I|I], I2 as [I2|I2]; [congruence| | |].
        - exfalso. injection I as <- <-. apply (NO _ I2). cbn [fst]. congruence.
        - exfalso. injection I2 as <- <-. apply (NO _ I). cbn [fst]. congruence.
        - apply IH; auto. unfold kcmp. apply lex_eq. exact K. }
      injection E as -> ->. reflexivity.
    + exfalso. apply (find_none _ _ F) in I. cbn [fst] in I. unfold kcmp in I. rewrite (proj2 (lex_eq (map lower k) (map lower k)) eq_refl) in I. discriminate.
  - intros k v I N. rewrite put_find by exact T. rewrite <- find_tfind in N. destruct (find _ (params c)); [discriminate|]. unfold base.
    repeat (destruct I as [I|I]; [injection I as <- <-; reflexivity|]). destruct I.
Qed.
(** Fluentd reads it back, if the names and values are as C13 wants them. *)
Section json.
  Context (is_float : bytes -> bool) (float_text : forall v, is_float v = true -> fixed_float v).
  Lemma record_ok wl now x c : table_ok (record_of wl now x c).
  Proof.
    unfold record_of. cbv zeta. assert (G : forall (f : bytes * bytes -> bytes) l r, table_ok r -> table_ok (fold_left (fun r p => tput (fst p) (f p) r) l r)).
    { intros f. induction l as [|a l IH]; intros r H; [exact H|]. cbn [fold_left]. apply IH. apply tput_ok. exact H. }
    apply (G (fun p => if listed wl (fst p) then snd p else REDACTED)). apply (G snd). constructor.
  Qed.
  Theorem C60_json : forall ftag wl now secs x c, Forall (fun p => plain_name (fst p) /\ nul_free (snd p) /\ ~ misspelt (snd p)) (record_of wl now x c) ->
    exists j, fluentd_json is_float ftag wl now secs x c = Some (lit "[""" ++ ftag ++ lit """," ++ dec secs ++ lit "," ++ j ++ lit "]" ++ ["010"%char]) /\ SParseJSONObject j (lit "null") = Some (record_of wl now x c).
  Proof.
    intros ft wl now secs x c F. destruct (C13_object_roundtrip is_float float_text (record_of wl now x c) true (record_ok wl now x c)) as (j & E & R).
    - eapply Forall_impl; [|exact F]. intros a (H1 & H2 & H3). split; [exact H1|]. split; assumption.
    - exists j. unfold fluentd_json. rewrite E. split; [reflexivity|exact R].
  Qed.
End json.

(** ** Which request a line belongs to *)
Lemma balanced_acts l : balanced l -> forall t, now_in (acts l t) = now_in t /\ kept (acts l t) = kept t.
Proof.
  induction 1 as [|c l B IH|i p m l l' B1 IH1 B2 IH2|i l l' B1 IH1 B2 IH2]; intros t.
  - split; reflexivity.
  - unfold acts. cbn [fold_left]. destruct (IH (act_step t (Say c))) as (A & C). unfold acts in *. rewrite A, C. split; reflexivity.
  - unfold acts in *. cbn [fold_left]. rewrite fold_left_app. cbn [fold_left]. set (t1 := act_step t (Enter i p m)). destruct (IH1 t1) as (A & C). set (t2 := fold_left act_step l t1) in *.
    destruct (IH2 (act_step t2 Leave)) as (A2 & C2). rewrite A2, C2. unfold act_step. rewrite C. unfold t1, act_step. cbn [kept now_in]. rewrite A. unfold t1, act_step. cbn [now_in thread_name]. destruct (now_in t); split; reflexivity.
  - unfold acts in *. cbn [fold_left]. rewrite fold_left_app. cbn [fold_left]. set (t1 := act_step t (EnterPart i)). destruct (IH1 t1) as (A & C). set (t2 := fold_left act_step l t1) in *.
    destruct (IH2 (act_step t2 Leave)) as (A2 & C2). rewrite A2, C2. unfold act_step. rewrite C. unfold t1, act_step. cbn [kept now_in]. rewrite A. unfold t1, act_step. cbn [now_in thread_name]. destruct (now_in t); split; reflexivity.
Qed.
(** When a request, or a part of one, is over, the thread is marked as before; and whatever happened in between, a line is marked with the request that was begun last and is not over,
    its command, and the thread. *)
Theorem C60_scope : forall l t, balanced l -> now_in (acts l t) = now_in t.
Proof. intros l t B. apply balanced_acts. exact B. Qed.
Theorem C60_marked : forall t i p m l c, balanced l ->
  let t' := acts (Enter i p m :: l ++ [Say c]) t in
  exists x, last (logged t') (now_in t, c) = (x, c) /\ request_id x = match i with Some v => v | None => lit "xxxxxx" end /\ command x = m /\ thread_name x = thread_name (now_in t).
Proof.
  intros t i p m l c B t'. exists (now_in (act_step t (Enter i p m))). split; [|split; [|split]; reflexivity]. unfold t', acts. cbn [fold_left]. rewrite fold_left_app. cbn [fold_left act_step logged].
  rewrite last_last. f_equal. apply (balanced_acts l B (act_step t (Enter i p m))).
Qed.
Theorem C60_marked_part : forall t i l c, balanced l ->
  let t' := acts (EnterPart i :: l ++ [Say c]) t in
  exists x, last (logged t') (now_in t, c) = (x, c) /\ request_id x = match i with [] => lit "xxxxxx" | _ => i end /\ command x = command (now_in t) /\ thread_name x = thread_name (now_in t).
Proof.
  intros t i l c B t'. exists (now_in (act_step t (EnterPart i))). split; [|split; [|split]; reflexivity]. unfold t', acts. cbn [fold_left]. rewrite fold_left_app. cbn [fold_left act_step logged].
  rewrite last_last. f_equal. apply (balanced_acts l B (act_step t (EnterPart i))).
Qed.

(** ** The list of names *)
Record list_inv (init : list bytes) (s : lists) : Prop := ListInv {
  li_names : forall y, In y (names s) <-> In y init \/ exists ns, In ns (done s) /\ In y ns;
  li_busy : forall t v cur ns, busy s t = Some (v, cur, ns) -> (v <= version s)%nat /\ (v = version s -> cur = names s);
  li_version : version s = List.length (done s) }.
Lemma list_inv_step init s e : list_inv init s -> list_inv init (listing_step s e).
Proof.
  intros [N B V]. destruct e as [t ns|t]; cbn [listing_step].
  - destruct (busy s t) eqn:E; [split; assumption|]. split; cbn [names busy version done]; auto. intros t2 v cur ns2. unfold put_busy. destruct (Nat.eqb t2 t); [|apply B]. intros X. injection X as <- <- <-. auto.
  - destruct (busy s t) as [[[v cur] ns]|] eqn:E; [|split; assumption]. destruct (B _ _ _ _ E) as (B1 & B2). destruct (Nat.eqb_spec v (version s)) as [->|NE].
    + rewrite (B2 eq_refl). split; cbn [names busy version done].
      * intros y. split.
        -- intros I. apply in_app_or in I. destruct I as [I|I]; [apply N in I; destruct I as [I|(n & I & J)]; [left; exact I|right; exists n; split; [apply in_or_app; left; exact I|exact J]]|].
           right. exists ns. split; [apply in_or_app; right; left; reflexivity|exact I].
        -- intros I. apply in_or_app. destruct I as [I|(n & I & J)]; [left; apply N; left; exact I|]. apply in_app_or in I. destruct I as [I|[<-|[]]]; [left; apply N; right; exists n; split; assumption|right; exact J].
      * intros t2 v2 cur2 ns2. unfold put_busy. destruct (Nat.eqb t2 t); [discriminate|]. intros X. destruct (B _ _ _ _ X) as (Y & _). split; [lia|intros; lia].
      * rewrite app_length. cbn [List.length]. lia.
    + split; cbn [names busy version done]; auto. intros t2 v2 cur2 ns2. unfold put_busy. destruct (Nat.eqb t2 t); [|apply B]. intros X. injection X as <- <- <-. auto.
Qed.
Lemma list_inv_run init l : list_inv init (listings init l).
Proof.
  unfold listings. assert (G : list_inv init (Lists 0 init (fun _ => None) [])).
  { split; cbn [names busy version done]; [|discriminate|reflexivity]. intros y. split; [auto|]. intros [I|(ns & [] & _)]. exact I. }
  revert G. generalize (Lists 0 init (fun _ => None) []). induction l as [|e l IH]; intros s G; [exact G|]. cbn [fold_left]. apply IH. apply list_inv_step. exact G.
Qed.
(** However many threads extend the list at the same time: it holds what it held at first and what those calls brought that have returned, and nothing else.  What is on it stays. *)
Theorem C60_names : forall init l y, In y (names (listings init l)) <-> In y init \/ exists ns, In ns (done (listings init l)) /\ In y ns.
Proof. intros init l. apply (li_names _ _ (list_inv_run init l)). Qed.
Theorem C60_names_stay : forall init l l' y, In y (names (listings init l)) -> In y (names (listings init (l ++ l'))).
Proof.
  intros init l l' y H. unfold listings in *. rewrite fold_left_app. pose proof (list_inv_run init l) as G. unfold listings in G. revert G H. generalize (fold_left listing_step l (Lists 0 init (fun _ => None) [])).
  induction l' as [|e l' IH]; intros s G H; [exact H|]. cbn [fold_left]. apply IH; [apply list_inv_step; exact G|]. destruct e as [t ns|t]; cbn [listing_step].
  - destruct (busy s t); exact H.
  - destruct (busy s t) as [[[v cur] ns]|] eqn:E; [|exact H]. destruct (li_busy _ _ G _ _ _ _ E) as (_ & B). destruct (Nat.eqb_spec v (version s)) as [->|NE]; [|exact H]. cbn [names]. rewrite B by reflexivity. apply in_or_app. left. exact H.
Qed.
(** An attempt fails only when another call has returned in between. *)
Theorem C60_names_progress : forall init l t v cur ns, let s := listings init l in busy s t = Some (v, cur, ns) ->
  (v = List.length (done s) -> done (listing_step s (Try t)) = done s ++ [ns]) /\ (v <> List.length (done s) -> (v < List.length (done s))%nat).
Proof.
  intros init l t v cur ns s E. pose proof (list_inv_run init l) as G. fold s in G. destruct (li_busy _ _ G _ _ _ _ E) as (B1 & B2). pose proof (li_version _ _ G) as V. split.
  - intros X. cbn [listing_step]. rewrite E. rewrite X, <- V, Nat.eqb_refl. reflexivity.
  - intros. lia.
Qed.

(** ** Sending to Fluentd *)
Lemma sendAll_spec takes : forall data, let (b, ok) := sendAll takes data in exists rest, data = b ++ rest /\ (ok = true <-> rest = []).
Proof.
  induction takes as [|o takes IH]; intros data.
  - destruct data; cbn; [exists []; split; [reflexivity|tauto]|]. eexists. split; [reflexivity|]. split; discriminate.
  - destruct data as [|a data]; [cbn; exists []; split; [reflexivity|tauto]|]. destruct o as [[|n]|]; cbn [sendAll]; try (eexists; split; [reflexivity|split; discriminate]).
    specialize (IH (skipn (S n) (a :: data))). destruct (sendAll takes (skipn (S n) (a :: data))) as [b ok]. destruct IH as (rest & E & O). exists rest. split; [|exact O].
    rewrite <- app_assoc, <- E. symmetry. apply firstn_skipn.
Qed.
Lemma pick_app b l fates a f : List.length fates = List.length l -> pick b (l ++ [a]) (fates ++ [f]) = pick b l fates ++ (if Bool.eqb f b then [a] else []).
Proof.
  unfold pick. revert fates. induction l as [|x l IH]; intros [|g fates] L; try discriminate.
  - cbn. destruct (Bool.eqb f b); reflexivity.
  - cbn [app combine filter snd]. injection L as L. specialize (IH fates L). destruct (Bool.eqb g b); cbn [map fst app]; rewrite IH; reflexivity.
Qed.
Lemma Forall2_weaken {A B} (P Q : A -> B -> Prop) l m : (forall a b, P a b -> Q a b) -> Forall2 P l m -> Forall2 Q l m.
Proof. intros H. induction 1; constructor; auto. Qed.
(** Every record is either sent whole, behind the others on its connection, or given whole to syslog, and both in order.  A connection that is no longer used has carried whole records, and behind them
    at most the beginning of one that was given to syslog. *)
Theorem C60_sent : forall l, Forall (fun e => fst e <> [] /\ nul_free (fst e)) l -> exists fates groups last, let s := senderLoop l in
  List.length fates = List.length l /\ syslog s = pick false (map fst l) fates /\ concat groups ++ last = pick true (map fst l) fates /\
  Forall2 (fun stream g => exists r begun rest, In r (pick false (map fst l) fates) /\ r = begun ++ rest /\ rest <> [] /\ stream = concat g ++ begun) (closed s) groups /\
  match open s with Some b => b = concat last | None => last = [] end.
Proof.
  intros l. induction l as [|e l IH] using rev_ind; intros F.
  - exists [], [], []. cbv zeta. unfold senderLoop. cbn. repeat split. constructor.
  - apply Forall_app in F. destruct F as (F & Fe). inversion Fe as [|? ? (NE & NF) _]; subst. destruct (IH F) as (fates & groups & last & L & S1 & S2 & S3 & S4). clear IH F Fe. cbv zeta in *.
    assert (ST : senderLoop (l ++ [e]) = sender_step (senderLoop l) e) by (unfold senderLoop; rewrite fold_left_app; reflexivity). rewrite ST. clear ST. set (s := senderLoop l) in *. clearbody s.
    destruct e as [json k]. cbn [fst] in *. rewrite map_app. cbn [map fst].
    assert (LM : List.length fates = List.length (map fst l)) by (rewrite map_length; exact L).
    assert (MONO : forall f, Forall2 (fun stream g => exists r begun rest, In r (pick false (map fst l ++ [json]) (fates ++ [f])) /\ r = begun ++ rest /\ rest <> [] /\ stream = concat g ++ begun) (closed s) groups).
    { intros f. revert S3. apply Forall2_weaken. intros st g (r & bg & rest & I & X). exists r, bg, rest. split; [|exact X]. rewrite pick_app by exact LM. apply in_or_app. left. exact I. }
    unfold sender_step. set (o := match open s with None => if opens k then Some [] else None | x => x end).
    assert (LO : match o with Some b => b = concat last | None => last = [] end) by (unfold o; destruct (open s); [exact S4|]; rewrite S4; destruct (opens k); reflexivity).
    destruct o as [b|].
    + pose proof (sendAll_spec (takes k) json) as SA. destruct (sendAll (takes k) json) as [sent ok]. destruct SA as (rest & E & O). destruct ok.
      * exists (fates ++ [true]), groups, (last ++ [json]). cbn [syslog closed open]. rewrite !(pick_app _ _ _ _ _ LM). cbn [Bool.eqb]. rewrite ?app_nil_r. split; [rewrite !app_length, L; reflexivity|]. split; [exact S1|]. split; [rewrite app_assoc, S2; reflexivity|].
        split; [specialize (MONO true); rewrite pick_app in MONO by exact LM; cbn [Bool.eqb] in MONO; rewrite app_nil_r in MONO; exact MONO|]. rewrite (proj1 O eq_refl), app_nil_r in E. rewrite concat_app. cbn [concat]. rewrite app_nil_r. congruence.
      * exists (fates ++ [false]), (groups ++ [last]), []. cbn [syslog closed open]. split; [rewrite !app_length, L; reflexivity|]. split; [rewrite pick_app by exact LM; cbn [Bool.eqb]; rewrite S1, cstr_nul_free by exact NF; reflexivity|].
        split; [rewrite pick_app by exact LM; cbn [Bool.eqb]; rewrite concat_app; cbn [concat]; rewrite !app_nil_r; exact S2|]. split; [|reflexivity]. apply Forall2_app; [apply MONO|]. constructor; [|constructor].
        exists json, sent, rest. split; [rewrite pick_app by exact LM; cbn [Bool.eqb]; apply in_or_app; right; left; reflexivity|]. split; [exact E|]. split; [intros X; apply O in X; discriminate|]. rewrite LO. reflexivity.
    + exists (fates ++ [false]), groups, []. cbn [syslog closed open]. destruct json as [|a json]; [congruence|]. split; [rewrite !app_length, L; reflexivity|].
      split; [rewrite pick_app by exact LM; cbn [Bool.eqb]; rewrite S1, cstr_nul_free by exact NF; reflexivity|]. split; [rewrite pick_app by exact LM; cbn [Bool.eqb]; rewrite <- S2, LO, !app_nil_r; reflexivity|]. split; [apply MONO|reflexivity].
Qed.
Print Assumptions C60_redacted.
Print Assumptions C60_refused.
Print Assumptions C60_complete.
Print Assumptions C60_direct.
Print Assumptions C60_record.
Print Assumptions C60_json.
Print Assumptions C60_scope.
Print Assumptions C60_marked.
Print Assumptions C60_marked_part.
Print Assumptions C60_names.
Print Assumptions C60_names_stay.
Print Assumptions C60_names_progress.
Print Assumptions C60_sent.

(** ** Cases *)
Definition list1 := [lit "reason"; lit "message"; lit "peer"].
Definition ctx1 := Context (lit "r7") (lit "a@b.c") (lit "CreateJob") (lit "worker1").
Definition params1 := [(lit "authToken", lit "secret"); (lit "reason", lit "timeout")].
Definition call1 := Call (lit "[warn]") (lit "no luck") (lit "a.cpp") 12 (lit "run") params1.
Example C60_redacted_case :
  same_for list1 params1 [(lit "authToken", lit "other"); (lit "reason", lit "timeout")] /\ table_ok params1 /\
  ssyslog true list1 ctx1 call1 = Some [lit "r7 a@b.c (a.cpp:12) run [worker1] [warn] no luck ~~ authToken: '<REDACTED>' reason: 'timeout' command: 'CreateJob'"] /\
  ssyslog false list1 ctx1 call1 = None.
Proof.
  split; [constructor; [split; [reflexivity|intros I; vm_compute in I; repeat (destruct I as [I|I]; [discriminate|]); destruct I]|constructor; [split; reflexivity|constructor]]|]. split; [repeat constructor|].
  unfold ssyslog. assert (T : addLogParams true list1 (command ctx1) (tag call1 ++ lit " " ++ message call1) (params call1) = Some (lit "[warn] no luck ~~ authToken: '<REDACTED>' reason: 'timeout' command: 'CreateJob'")) by (vm_compute; reflexivity).
  split; [rewrite T|vm_compute; reflexivity]. cbn [List.length lit list_ascii_of_string pieces]. rewrite firstn_all2, skipn_all2 by (cbn [List.length]; unfold LINE; lia). vm_compute. reflexivity.
Qed.
Example C60_json_case : Forall (fun p => plain_name (fst p) /\ nul_free (snd p) /\ ~ misspelt (snd p)) (record_of list1 5 ctx1 call1).
Proof.
  assert (D : forall l, forallb (fun p => forallb (fun c => N.leb 32 (bcode c) && negb (Ascii.eqb c quote) && negb (Ascii.eqb c backslash)) (fst p) && forallb (fun c => negb (Ascii.eqb c NUL)) (snd p)
    && forallb (fun w => negb (bytes_eqb (map lower (snd p)) w)) [lit "true"; lit "false"; lit "null"]) l = true -> Forall (fun p : bytes * bytes => plain_name (fst p) /\ nul_free (snd p) /\ ~ misspelt (snd p)) l).
  { intros l F. apply Forall_forall. intros p I. rewrite forallb_forall in F. specialize (F p I). apply andb_true_iff in F. destruct F as (F & F3). apply andb_true_iff in F. destruct F as (F1 & F2).
    rewrite forallb_forall in F1, F2, F3. split; [|split].
    - intros c Ic. specialize (F1 c Ic). apply andb_true_iff in F1. destruct F1 as (F1 & B). apply andb_true_iff in F1. destruct F1 as (F1 & A). apply negb_true_iff in A, B. split; [apply N.leb_le; exact F1|]. split; apply Ascii.eqb_neq; assumption.
    - intros X. specialize (F2 _ X). rewrite Ascii.eqb_refl in F2. discriminate.
    - intros (w & Iw & E & _). specialize (F3 w Iw). cbv beta in F3. apply negb_true_iff in F3. apply bytes_eqb_neq in F3. apply F3. exact E. }
  apply D. vm_compute. reflexivity.
Qed.
Example C60_scope_case : balanced (Enter (Some (lit "r1")) None (lit "Q") :: [EnterPart (lit "h1"); Say call1; Leave; Say call1] ++ Leave :: []).
Proof. apply b_enter; [|constructor]. apply (b_part _ [Say call1] [Say call1]); apply b_say; constructor. Qed.
Example C60_names_case : names (listings list1 [Begin 1 [lit "a"]; Begin 2 [lit "b"]; Try 2; Try 1; Try 1]) = list1 ++ [lit "b"; lit "a"].
Proof. vm_compute. reflexivity. Qed.
Example C60_sent_case : senderLoop [(lit "{1}", Luck false []); (lit "{2}", Luck true [Some 1; Some 5]); (lit "{3}", Luck false [Some 2; None]); (lit "{4}", Luck true [Some 9])] =
  Sender (Some (lit "{4}")) [lit "{2}{3"] [lit "{1}"; lit "{3}"].
Proof. vm_compute. reflexivity. Qed.

(** ** What does not hold *)
(** Refuted: a line that is sent directly to the syslog socket can be longer than the buffer it is made in.  The identifier of the request is written in front of every line and
    is what the client sends; when it has 8192 bytes, memory behind the buffer is sent to syslog with every line that is logged for the request, or the process ends. *)
Theorem C60_direct_refuted : forall head x c p, (N.of_nat (List.length (request_id x)) >= 8192)%N -> socket_direct head (whereami x c ++ p) = Beyond.
Proof.
  intros head x c p H. unfold socket_direct, whereami. set (n := N.of_nat (List.length _)). set (m := N.of_nat (List.length (_ ++ p))).
  assert (M : (m > 8192)%N) by (unfold m; rewrite <- app_assoc, !app_length; cbn [List.length lit list_ascii_of_string]; lia). clearbody m n. unfold MAX_MESSAGE_SIZE.
  replace (n + m <? 8192)%N with false by (symmetry; apply N.ltb_ge; lia). replace (n + m =? 8192)%N with false by (symmetry; apply N.eqb_neq; lia). reflexivity.
Qed.
(** Refuted: the message itself can be missing in the record for Fluentd.  Parameters are put into the same table; one called message, as there are in the code that handles messages from other
    nodes, takes the place of the message. *)
Theorem C60_overwritten_refuted : forall now, tfind (lit "message") (record_of list1 now ctx1 (Call (lit "[warn]") (lit "Error processing message, reconnecting") (lit "SQLiteNode.cpp") 1400 (lit "_onMESSAGE")
  [(lit "message", lit "SUBSCRIBE"); (lit "peer", lit "n2")])) = Some (lit "SUBSCRIBE").
Proof. intros now. unfold record_of. set (d := dec now). clearbody d. vm_compute. reflexivity. Qed.
(** Refuted: what follows a NUL in a message or a value is not logged in syslog, parameters included. *)
Theorem C60_nul_refuted : let c := Call (lit "[info]") (lit "got " ++ NUL :: lit "x") (lit "a.cpp") 1 (lit "f") [(lit "reason", lit "r")] in
  ssyslog true list1 ctx1 c = Some [whereami ctx1 c ++ lit "[info] got "].
Proof.
  intros c. unfold ssyslog. assert (T : addLogParams true list1 (command ctx1) (tag c ++ lit " " ++ message c) (params c) = Some (lit "[info] got " ++ NUL :: lit "x ~~ reason: 'r' command: 'CreateJob'")) by (vm_compute; reflexivity).
  rewrite T. cbn [List.length lit list_ascii_of_string app pieces]. rewrite firstn_all2, skipn_all2 by (cbn [List.length]; unfold LINE; lia). vm_compute. reflexivity.
Qed.
(** Refuted: values are not escaped: a value can look like another parameter, and the same line is logged for different parameters. *)
Theorem C60_forged_refuted : addLogParams true list1 [] (lit "m") [(lit "message", lit "a' reason: 'b")] = addLogParams true list1 [] (lit "m") [(lit "message", lit "a"); (lit "reason", lit "b")].
Proof. vm_compute. reflexivity. Qed.
(** Refuted: the command is not always logged: a parameter called Command, in any letters, suppresses it, though its value is not logged. *)
Theorem C60_command_refuted : addLogParams true list1 (lit "CreateJob") (lit "m") [(lit "COMMAND", lit "x")] = Some (lit "m ~~ COMMAND: '<REDACTED>'").
Proof. vm_compute. reflexivity. Qed.
Print Assumptions C60_direct_refuted.
Print Assumptions C60_overwritten_refuted.
Print Assumptions C60_nul_refuted.
Print Assumptions C60_forged_refuted.
Print Assumptions C60_command_refuted.
