(** C55: the MySQL port. *)
From Verif Require Import Base Dec Json_Spec Text_Spec Text_Model Text_Proofs Query_Model Query_Props Result_Model Qrf_Spec Qrf_Model Qrf_Props Lex_Spec Lex_Proofs Https_Props Mysql_Vars Mysql_Spec Mysql_Model Mysql_Proofs.
Local Open Scope N_scope.

(** A client reads a table, an OK and an error as they were, whatever is in them, and whatever the number of its own packet. *)
Theorem C55_reply : forall n,
  (forall cols rows, table cols rows -> fits cols rows -> says (n + 1) (serializeQueryResponse (Z.of_N n) (mkResult cols rows)) (Rows cols rows)) /\
  says (n + 1) (serializeOK (Z.of_N n)) Done /\
  (forall code m, code < 2 ^ 16 -> N.of_nat (List.length m) + 10 < 2 ^ 24 -> (forall m', m <> "#"%char :: m') ->
     says (n + 1) (serializeERR (Z.of_N n) code m) (Error code m)).
Proof. intros n. split; [apply table_says|]. split; [apply ok_says|apply error_says]. Qed.
Print Assumptions C55_reply.

(** * Conversations *)
(** A client reads one thing only. *)
Lemma packets_unique s ps : packets s ps -> forall ps', packets s ps' -> ps = ps'.
Proof.
  induction 1 as [|s p r ps F P IH]; intros ps' H; inversion H; subst; try reflexivity; try discriminate. rewrite F in H0. injection H0 as <- <-. f_equal. apply IH. assumption.
Qed.
Theorem C55_one_meaning : forall n out r r', says n out r -> says n out r' -> r = r'.
Proof. intros n out r r' (ps & P & _ & R) (ps' & P' & _ & R'). rewrite (packets_unique _ _ P _ P') in R. congruence. Qed.
Print Assumptions C55_one_meaning.

(** What the database says, and what the client should see of it. *)
Inductive answer_of : response -> reply -> Prop :=
| a_table jsonb cut cols rows reason e :
    table_of_values cols rows -> rows <> [] -> Forall (Forall plain) rows -> Forall (Forall (shown_in_full jsonb)) rows -> fits cols (map (map shown) rows) ->
    answer_of (mkResponse (lit "200 " ++ reason) e (format_json jsonb cut cols rows)) (Rows cols (map (map shown) rows))
| a_nothing reason e : answer_of (mkResponse (lit "200 " ++ reason) e []) Done
| a_error code text e c : 0 < code < 2 ^ 16 -> code <> 200 -> N.of_nat (List.length text + List.length e) + 11 < 2 ^ 24 -> (forall t, text <> "#"%char :: t) ->
    answer_of (mkResponse (dec code ++ lit " " ++ text) e c) (Error code (text ++ lit " " ++ e)).
(** How the server should answer a list of queries, one after the other. *)
Inductive local_reply : action -> reply -> Prop :=
| l_result cols rows : cols <> [] -> local_reply (Says_result (mkResult cols rows)) (Rows cols rows)
| l_ok : local_reply Says_ok Done
| l_error code m : local_reply (Says_error code m) (Error code m).
Inductive answered VERSION {DB} (ask : DB -> bytes -> DB * response) : DB -> list bytes -> list reply -> DB -> Prop :=
| an_end db : answered VERSION ask db [] [] db
| an_local db q r qs rs db' : local_reply (treat VERSION (decoded q)) r -> answered VERSION ask db qs rs db' -> answered VERSION ask db (q :: qs) (r :: rs) db'
| an_ask db q q' db1 resp r qs rs db' : treat VERSION (decoded q) = Asks q' -> ask db q' = (db1, resp) -> answer_of resp r ->
    answered VERSION ask db1 qs rs db' -> answered VERSION ask db (q :: qs) (r :: rs) db'.
(** The command a client sends for a query, in however many parts. *)
Definition command (q : bytes) : bytes := serialize (mkPacket 0 ("003"%char :: q)).
Definition sent_as (q : bytes) (chunks : list bytes) : Prop := concat chunks = command q.

Lemma find_space n rest : find (lit " ") (dec n ++ lit " " ++ rest) = Some (dec n, rest).
Proof.
  pose proof (dec_digits n) as D. induction (dec n) as [|c l IH]; [reflexivity|]. cbn [forallb] in D. apply andb_true_iff in D as [D1 D2].
  cbn [app find]. replace (SStartsWith (c :: l ++ lit " " ++ rest) (lit " ")) with false; [rewrite IH by exact D2; reflexivity|].
  unfold lit. cbn [list_ascii_of_string SStartsWith]. destruct (Ascii.eqb_spec c " ") as [->|]; [discriminate|reflexivity].
Qed.
Lemma complete_says resp r : answer_of resp r -> exists out, onPortRequestComplete [ascii_of_N 0] resp = Some out /\ says 1 out r.
Proof.
  intros A. unfold onPortRequestComplete. change (SToInt64 [ascii_of_N 0]) with (Z.of_N 0). change 1 with (0 + 1). destruct A as [jsonb cut cols rows reason e T R P F S|reason e|code text e c H1 H2 H3 H4]; cbn [method content error].
  - change (lit "200 " ++ reason) with (dec 200 ++ (" "%char :: reason)). rewrite SToInt64_dec_then by (right; eexists; reflexivity). change (_ =? 200)%Z with true. cbv iota.
    pose proof (C54_json jsonb cut cols rows T R P F) as J. destruct (format_json jsonb cut cols rows) as [|x l] eqn:E; [destruct rows; [congruence|discriminate]|]. rewrite J. eexists. split; [reflexivity|].
    apply table_says; [|exact S]. split; [exact (proj1 T)|]. destruct T as (_ & _ & T). clear - T. induction T; [constructor|]. cbn [map]. constructor; [rewrite map_length; assumption|assumption].
  - change (lit "200 " ++ reason) with (dec 200 ++ (" "%char :: reason)). rewrite SToInt64_dec_then by (right; eexists; reflexivity). change (_ =? 200)%Z with true. cbv iota. eexists. split; [reflexivity|apply ok_says].
  - rewrite SToInt64_dec_then by (right; eexists; reflexivity). rewrite Z.min_r by lia. replace (Z.of_N code =? 200)%Z with false by (symmetry; apply Z.eqb_neq; lia).
    eexists. split; [reflexivity|]. unfold SBefore, SAfter. rewrite find_space. pose proof (SToInt64_dec_then code [] (or_introl eq_refl)) as E. rewrite app_nil_r in E. rewrite E, Z.min_r by lia.
    replace (Z.to_N (Z.of_N code mod 65536)) with code by lia. apply error_says; [lia|rewrite !app_length; cbn [List.length lit list_ascii_of_string]; lia|].
    intros m' X. destruct text as [|x t]; [discriminate|]. injection X as X _. apply (H4 t). congruence.
Qed.

(** The sizes of local answers. *)
Definition small_var (v : bytes * bytes) : bool := N.of_nat (List.length (fst v)) + N.of_nat (List.length (snd v)) <? 2 ^ 21.
Lemma vars_split VERSION : g_MySQLVariables VERSION = firstn 287 (g_MySQLVariables []) ++ (lit "version_comment", VERSION) :: skipn 288 (g_MySQLVariables []).
Proof. reflexivity. Qed.
Lemma vars_small VERSION : N.of_nat (List.length VERSION) < 2 ^ 20 -> Forall (fun v : bytes * bytes => N.of_nat (List.length (fst v)) + N.of_nat (List.length (snd v)) < 2 ^ 21) (g_MySQLVariables VERSION).
Proof.
  intros H. assert (B : forallb small_var (firstn 287 (g_MySQLVariables [])) && forallb small_var (skipn 288 (g_MySQLVariables [])) = true) by (vm_compute; reflexivity).
  apply andb_prop in B as [B1 B2]. rewrite vars_split. assert (T : forall l, forallb small_var l = true -> Forall (fun v : bytes * bytes => N.of_nat (List.length (fst v)) + N.of_nat (List.length (snd v)) < 2 ^ 21) l).
  { intros l F. apply Forall_forall. intros v I. apply N.ltb_lt. exact (proj1 (forallb_forall _ _) F v I). }
  apply Forall_app. split; [exact (T _ B1)|]. apply Forall_cons; [|exact (T _ B2)]. cbn [fst snd]. change (List.length (lit "version_comment")) with 15%nat. lia.
Qed.
Lemma skip_space_len s : (List.length (skip_space s) <= List.length s)%nat.
Proof. induction s as [|c s IH]; cbn [skip_space]; [lia|]. destruct (is_space c); cbn [List.length]; lia. Qed.
Lemma after_word_len w s r : after_word w s = Some r -> (List.length r <= List.length s)%nat.
Proof. unfold after_word. destruct (SStartsWith _ _); [|discriminate]. intros E. injection E as <-. rewrite skipn_length. lia. Qed.
Lemma spaces_len s r : spaces s = Some r -> (List.length r <= List.length s)%nat.
Proof. destruct s as [|c s]; cbn [spaces]; [discriminate|]. destruct (is_space c); [|discriminate]. intros E. injection E as <-. pose proof (skip_space_len s). cbn [List.length]. lia. Qed.
Lemma word_prefix_len s : (List.length (word_prefix s) <= List.length s)%nat.
Proof. induction s as [|c s IH]; cbn [word_prefix]; [lia|]. destruct (is_word c); cbn [List.length]; lia. Qed.
Lemma parse_call_len name q w : parse_call name q = Some (Some w) -> (List.length w <= List.length q)%nat.
Proof.
  unfold parse_call. intros H. destruct (after_word (lit "SELECT") (SToUpper q)) as [r|] eqn:E1; [|discriminate]. destruct (spaces r) as [r1|] eqn:E2; [|discriminate].
  destruct (after_word (name ++ lit "(") r1) as [r2|] eqn:E3; [|discriminate]. destruct (skip_space r2) as [|c r3] eqn:E4; [discriminate|]. destruct (negb (Ascii.eqb c ")")); [discriminate|].
  destruct (closes r3); [discriminate|]. destruct (spaces r3) as [r4|] eqn:E5; [|discriminate]. destruct (after_word (lit "AS") r4) as [r5|] eqn:E6; [|discriminate].
  destruct (spaces r5) as [r6|] eqn:E7; [|discriminate]. destruct (negb _ && _); [|discriminate]. injection H as <-.
  apply after_word_len in E1, E3, E6. apply spaces_len in E2, E5, E7. pose proof (skip_space_len r2) as L. rewrite E4 in L. pose proof (word_prefix_len r6). unfold SToUpper in E1. rewrite map_length in E1. cbn [List.length] in L. lia.
Qed.
Lemma find_len needle s : forall a b, find needle s = Some (a, b) -> (List.length b <= List.length s)%nat.
Proof.
  induction s as [|c s IH]; intros a b; cbn [find].
  - destruct (SStartsWith [] needle); [|discriminate]. intros E. injection E as <- <-. rewrite skipn_length. lia.
  - destruct (SStartsWith (c :: s) needle); [intros E; injection E as <- <-; rewrite skipn_length; lia|]. destruct (find needle s) as [[a' b']|]; [|discriminate]. intros E. injection E as <- <-. specialize (IH a' b' eq_refl). cbn [List.length]. lia.
Qed.
Lemma decoded_len q : (List.length (decoded q) <= List.length q + 1)%nat.
Proof.
  unfold decoded. set (t := STrim q). assert (T : (List.length t <= List.length q)%nat).
  { unfold t, STrim. rewrite rev_length. pose proof (skip_space_len (rev (skip_space q))) as A. rewrite rev_length in A. pose proof (skip_space_len q). lia. }
  set (u := if ends_with_semicolon t then t else t ++ lit ";"). assert (U : (List.length u <= List.length q + 1)%nat) by (unfold u; destruct (ends_with_semicolon t); [lia|rewrite app_length; cbn [List.length lit list_ascii_of_string]; lia]).
  destruct (SStartsWith u (lit "/*")); [|exact U]. destruct (find (lit "*/") u) as [[a b]|] eqn:E; [|exact U]. apply find_len in E. lia.
Qed.
Ltac small_table := split; [split; [discriminate|repeat (apply Forall_cons; [reflexivity|]); apply Forall_nil]|split; [reflexivity|split; [repeat (apply Forall_cons; [try (vm_compute; reflexivity)|]); try apply Forall_nil|repeat (apply Forall_cons; [try (vm_compute; reflexivity)|]); try apply Forall_nil]]].
Lemma local_fits VERSION q cols rows : N.of_nat (List.length VERSION) < 2 ^ 20 -> N.of_nat (List.length q) < 2 ^ 21 -> treat VERSION q = Says_result (mkResult cols rows) -> cols <> [] ->
  table cols rows /\ fits cols rows.
Proof.
  intros HV HQ T C. pose proof (vars_small VERSION HV) as V. revert V T. unfold treat. generalize (g_MySQLVariables VERSION). intros vars V T.
  destruct (is_variable_query q).
  { injection T as <- <-. split; [split; [discriminate|]|split; [reflexivity|split; [apply Forall_cons; [lia|apply Forall_nil]|]]];
    (match goal with |- context [List.find ?f ?l] => destruct (List.find f l) as [v|] eqn:F end; [|apply Forall_nil]); (apply Forall_cons; [|apply Forall_nil]); [reflexivity|]. cbn [size fold_right]. apply List.find_some in F as [F _].
    pose proof (proj1 (Forall_forall _ _) V v F). cbn beta in *. lia. }
  destruct (SIEquals q (lit "SHOW VARIABLES;")).
  { injection T as <- <-. split; [split; [discriminate|]|split; [reflexivity|split; [repeat (apply Forall_cons; [reflexivity|]); apply Forall_nil|]]].
    - apply Forall_forall. intros x I. apply in_map_iff in I as (v & <- & _). reflexivity.
    - apply Forall_forall. intros x I. apply in_map_iff in I as (v & <- & I). pose proof (proj1 (Forall_forall _ _) V v I). cbn [size fold_right] in *. lia. }
  destruct (_ || _ || _); [injection T as <- <-; small_table|].
  destruct (_ || _); [discriminate|]. destruct (SIEquals _ ALTERYX); [discriminate|]. destruct (SContains _ (lit "INFORMATION_SCHEMA.TABLES")); [discriminate|].
  destruct (SContains _ (lit "INFORMATION_SCHEMA.VIEWS")); [discriminate|].
  destruct (SContains _ (lit "INFORMATION_SCHEMA.COLUMNS")); [destruct (extractTableNameFromColumnsQuery q); discriminate|].
  destruct (SContains q (lit "information_schema")); [injection T as <- <-; congruence|].
  destruct (_ || _ || _); [discriminate|]. destruct (SIEquals _ _); [discriminate|].
  destruct (parse_call (lit "VERSION") q) as [a|] eqn:P1.
  { injection T as <- <-. destruct a as [w|]; [|small_table]. apply parse_call_len in P1. split; [split; [discriminate|apply Forall_cons; [reflexivity|apply Forall_nil]]|split; [reflexivity|split; (apply Forall_cons; [|apply Forall_nil])]]; [unfold SToLower; rewrite map_length; lia|vm_compute; reflexivity]. }
  destruct (parse_call (lit "CONNECTION_ID") q) as [a|] eqn:P2.
  { injection T as <- <-. destruct a as [w|]; [|small_table]. apply parse_call_len in P2. split; [split; [discriminate|apply Forall_cons; [reflexivity|apply Forall_nil]]|split; [reflexivity|split; (apply Forall_cons; [|apply Forall_nil])]]; [unfold SToLower; rewrite map_length; lia|vm_compute; reflexivity]. }
  destruct (SContains _ (lit "SHOW KEYS FROM")); [destruct (extractTableNameFromShowKeysQuery q); discriminate|]. destruct (_ && _); [destruct (extractTableNameFromForeignKeyQuery q); discriminate|discriminate].
Qed.
Lemma local_error VERSION q code m : treat VERSION q = Says_error code m -> code < 2 ^ 16 /\ N.of_nat (List.length m) + 10 < 2 ^ 24 /\ (forall m', m <> "#"%char :: m').
Proof.
  intros T. assert (X : forall what, N.of_nat (List.length what) < 100 -> NO_NAME what = Says_error code m -> code < 2 ^ 16 /\ N.of_nat (List.length m) + 10 < 2 ^ 24 /\ (forall m', m <> "#"%char :: m')).
  { intros what W E. assert (E1 : code = 1046) by (unfold NO_NAME in E; congruence). assert (E2 : m = lit "Could not extract table name from " ++ what ++ lit " query") by (unfold NO_NAME in E; congruence).
    subst code m. clear E T. split; [reflexivity|]. split; [rewrite !app_length; cbn [List.length lit list_ascii_of_string]; lia|intros m'; discriminate]. }
  unfold treat in T. destruct (is_variable_query q); [discriminate|]. destruct (SIEquals q (lit "SHOW VARIABLES;")); [discriminate|]. destruct (_ || _ || _); [discriminate|].
  destruct (_ || _); [discriminate|]. destruct (SIEquals _ ALTERYX); [discriminate|]. destruct (SContains _ (lit "INFORMATION_SCHEMA.TABLES")); [discriminate|].
  destruct (SContains _ (lit "INFORMATION_SCHEMA.VIEWS")); [discriminate|].
  destruct (SContains _ (lit "INFORMATION_SCHEMA.COLUMNS")); [destruct (extractTableNameFromColumnsQuery q); [|discriminate]; exact (X (lit "columns") eq_refl T)|].
  destruct (SContains q (lit "information_schema")); [discriminate|]. destruct (_ || _ || _); [discriminate|]. destruct (SIEquals _ _); [discriminate|].
  destruct (parse_call (lit "VERSION") q); [discriminate|]. destruct (parse_call (lit "CONNECTION_ID") q); [discriminate|].
  destruct (SContains _ (lit "SHOW KEYS FROM")); [destruct (extractTableNameFromShowKeysQuery q); [|discriminate]; exact (X (lit "SHOW KEYS") eq_refl T)|].
  destruct (_ && _); [destruct (extractTableNameFromForeignKeyQuery q); [|discriminate]; exact (X (lit "foreign key") eq_refl T)|discriminate].
Qed.

Section conversation.
  Context (VERSION : bytes) (HV : N.of_nat (List.length VERSION) < 2 ^ 20) {DB : Type} (ask : DB -> bytes -> DB * response).
  (** A whole command in the buffer. *)
  Definition dealt (db : DB) (p : packet) : option (DB * bytes) :=
    match on_packet VERSION p with
    | inl out => Some (db, out)
    | inr (s, q) => match onPortRequestComplete s (snd (ask db q)) with Some out => Some (fst (ask db q), out) | None => None end
    end.
  Lemma recv_part p a b sent : N.of_nat (List.length (payload p)) < 2 ^ 24 -> serialize p = a ++ b -> b <> [] -> forall f, onPortRecv VERSION f a sent None = (a, sent, None).
  Proof. intros H E B [|f]; [reflexivity|]. cbn [onPortRecv]. rewrite (deserialize_part p a b H E B). reflexivity. Qed.
  Lemma arrives_whole db p a c : seqno p < 256 -> N.of_nat (List.length (payload p)) < 2 ^ 24 -> a ++ c = serialize p ->
    arrives VERSION ask db a c = match dealt db p with Some (db', out) => Some (db', [], out) | None => None end.
  Proof.
    intros H1 H2 E. unfold arrives. rewrite E. assert (L : exists f, List.length (serialize p) = S (S f)) by (unfold serialize; cbn [le app List.length]; eauto). destruct L as [f ->].
    cbn [onPortRecv]. pose proof (deserialize_of p [] H1 H2) as D. rewrite app_nil_r in D. rewrite D. unfold dealt. destruct (on_packet VERSION p) as [out|[s q]].
    - change (deserialize []) with (@None (packet * bytes)). reflexivity.
    - change (deserialize []) with (@None (packet * bytes)). cbn [app]. destruct (ask db q) as [db' r]. cbn [fst snd]. destruct (onPortRequestComplete s r); reflexivity.
  Qed.
  Lemma arrive_nothing chunks : concat chunks = [] -> forall db, arrive VERSION ask db [] chunks = Some (db, [], []).
  Proof.
    induction chunks as [|c l IH]; intros E db; [reflexivity|]. cbn [concat] in E. apply app_eq_nil in E as [-> E]. cbn [arrive]. unfold arrives. cbn [app List.length onPortRecv].
    rewrite IH by exact E. reflexivity.
  Qed.
  Lemma arrive_command p : seqno p < 256 -> N.of_nat (List.length (payload p)) < 2 ^ 24 -> forall chunks db a, concat chunks <> [] -> a ++ concat chunks = serialize p ->
    arrive VERSION ask db a chunks = match dealt db p with Some (db', out) => Some (db', [], out) | None => None end.
  Proof.
    intros H1 H2. induction chunks as [|c l IH]; intros db a N0 E; [exfalso; apply N0; reflexivity|]. cbn [concat] in *. cbn [arrive]. destruct (concat l) as [|x rest] eqn:C.
    - rewrite app_nil_r in *. rewrite (arrives_whole db p a c H1 H2 E). destruct (dealt db p) as [[db' out]|]; [|reflexivity]. rewrite arrive_nothing by exact C. rewrite app_nil_r. reflexivity.
    - unfold arrives. rewrite (recv_part p (a ++ c) (x :: rest) [] H2) by (try discriminate; rewrite <- app_assoc; symmetry; exact E).
      rewrite (IH db (a ++ c)) by (try discriminate; rewrite <- app_assoc; exact E). destruct (dealt db p) as [[db' out]|]; reflexivity.
  Qed.
  Lemma dealt_local db q r : N.of_nat (List.length q) < 2 ^ 20 -> local_reply (treat VERSION (decoded q)) r -> exists out, dealt db (mkPacket 0 ("003"%char :: q)) = Some (db, out) /\ says 1 out r.
  Proof.
    intros HQ L. unfold dealt, on_packet. cbn [payload seqno]. change (bcode "003" =? 3) with true. cbv iota. pose proof (decoded_len q) as DL. change (Z.of_N 0) with (Z.of_N 0). change 1 with (0 + 1).
    destruct (treat VERSION (decoded q)) as [[cols rows]| |code m|q'] eqn:T; inversion L; subst.
    - eexists. split; [reflexivity|]. destruct (local_fits VERSION (decoded q) cols rows HV ltac:(lia) T) as [A B]; [assumption|]. apply table_says; assumption.
    - eexists. split; [reflexivity|]. apply ok_says.
    - eexists. split; [reflexivity|]. destruct (local_error _ _ _ _ T) as (A & B & C). apply error_says; assumption.
  Qed.
  Lemma dealt_ask db q q' db1 resp r : treat VERSION (decoded q) = Asks q' -> ask db q' = (db1, resp) -> answer_of resp r -> exists out, dealt db (mkPacket 0 ("003"%char :: q)) = Some (db1, out) /\ says 1 out r.
  Proof.
    intros T A R. unfold dealt, on_packet. cbn [payload seqno]. change (bcode "003" =? 3) with true. cbv iota. rewrite T, A. cbn [fst snd]. destruct (complete_says resp r R) as (out & -> & S). eexists. split; [reflexivity|exact S].
  Qed.
  Theorem conversation db qs rs db' : answered VERSION ask db qs rs db' -> Forall (fun q => N.of_nat (List.length q) < 2 ^ 20) qs -> forall arrivals, Forall2 sent_as qs arrivals ->
    exists outs, talk VERSION ask db [] arrivals = Some (db', [], outs) /\ Forall2 (says 1) outs rs.
  Proof.
    assert (C : forall db q chunks, N.of_nat (List.length q) < 2 ^ 20 -> sent_as q chunks -> arrive VERSION ask db [] chunks =
      match dealt db (mkPacket 0 ("003"%char :: q)) with Some (db', out) => Some (db', [], out) | None => None end).
    { intros d q chunks H S. apply arrive_command; [reflexivity|cbn [payload List.length]; lia|unfold sent_as in S; rewrite S; discriminate|exact S]. }
    induction 1 as [db|db q r qs rs db' L A IH|db q q' db1 resp r qs rs db' T K R A IH]; intros HS arrivals HA.
    - inversion HA; subst. exists []. split; [reflexivity|constructor].
    - inversion HA as [|? chunks ? arrivals' S1 S2]; subst. inversion HS; subst. destruct (dealt_local db q r) as (out & D & S); [assumption|exact L|].
      destruct (IH ltac:(assumption) _ S2) as (outs & E & F). exists (out :: outs). cbn [talk]. rewrite (C db q chunks) by assumption. rewrite D, E. split; [reflexivity|constructor; assumption].
    - inversion HA as [|? chunks ? arrivals' S1 S2]; subst. inversion HS; subst. destruct (dealt_ask db q q' db1 resp r T K R) as (out & D & S).
      destruct (IH ltac:(assumption) _ S2) as (outs & E & F). exists (out :: outs). cbn [talk]. rewrite (C db q chunks) by assumption. rewrite D, E. split; [reflexivity|constructor; assumption].
  Qed.
End conversation.

(** A client that sends queries of up to a megabyte one after the other, however they are cut up on the way: the server goes on, each query is answered
    by one reply and no other bytes, in order; each query meant for the database is run once, in order, and its table, error or success is what the client reads. *)
Theorem C55_conversation : forall VERSION DB (ask : DB -> bytes -> DB * response) db qs rs db' arrivals,
  N.of_nat (List.length VERSION) < 2 ^ 20 -> answered VERSION ask db qs rs db' ->
  Forall (fun q => N.of_nat (List.length q) < 2 ^ 20) qs -> Forall2 sent_as qs arrivals ->
  exists outs, talk VERSION ask db [] arrivals = Some (db', [], outs) /\ Forall2 (says 1) outs rs.
Proof. intros. eapply conversation; eassumption. Qed.
Print Assumptions C55_conversation.

(** * Ordinary queries *)
Lemma blank_space c : is_space c = true <-> blank c.
Proof.
  assert (E : forall c, Bool.eqb (is_space c) (in_set c [" "; "009"; "010"; "011"; "012"; "013"]%char) = true) by (apply forall_ascii; vm_compute; reflexivity).
  specialize (E c). apply eqb_prop in E. rewrite E. unfold in_set, blank. rewrite existsb_exists. split; [intros (x & I & X); apply Ascii.eqb_eq in X; subst; exact I|intros I; exists c; split; [exact I|apply Ascii.eqb_refl]].
Qed.
Lemma skip_white w s : Forall blank w -> skip_space (w ++ s) = skip_space s.
Proof. induction 1 as [|c w B F IH]; [reflexivity|]. cbn [app skip_space]. apply blank_space in B. rewrite B. exact IH. Qed.
Lemma skip_tight s : starts_tight s -> skip_space s = s.
Proof. destruct s as [|c s]; [reflexivity|]. intros T. cbn [skip_space]. destruct (is_space c) eqn:E; [apply blank_space in E; destruct (T c s eq_refl E)|reflexivity]. Qed.
Lemma trim_tight w1 w2 s c : Forall blank w1 -> Forall blank w2 -> starts_tight (s ++ [c]) -> ~ blank c -> STrim (w1 ++ (s ++ [c]) ++ w2) = s ++ [c].
Proof.
  intros H1 H2 T B. unfold STrim. rewrite skip_white by exact H1. rewrite (skip_tight ((s ++ [c]) ++ w2)).
  - rewrite rev_app_distr, skip_white by (apply Forall_rev; exact H2). rewrite skip_tight; [apply rev_involutive|]. rewrite rev_app_distr. intros d s' E. injection E as <- _. exact B.
  - intros d s' E. destruct s as [|x s]; injection E as <- _; [exact B|apply (T x (s ++ [c])); reflexivity].
Qed.
Lemma decoded_meant q s : meant q s -> ~ begins s (lit "/*") -> decoded q = s.
Proof.
  intros M C. assert (X : forall u, SStartsWith s (lit "/*") = true -> u = s). { intros u H. destruct C. apply starts_iff in H as [b ->]. exists (map upper b). rewrite map_app. reflexivity. }
  unfold decoded. destruct M as [w1 w2 s H1 H2 T|w1 w2 s c H1 H2 T B N].
  - change (lit ";") with [";"%char] in *. rewrite (trim_tight w1 w2 s ";"); [|assumption|assumption| |intros I; repeat (destruct I as [I|I]; [discriminate|]); destruct I].
    + unfold ends_with_semicolon. rewrite rev_app_distr. cbn [rev app]. cbv iota beta. rewrite Ascii.eqb_refl. destruct (SStartsWith _ (lit "/*")) eqn:E; [destruct (find _ _) as [[a b]|]; apply X; reflexivity|reflexivity].
    + intros d s' E. destruct s as [|x s]; injection E as <- _; [intros I; repeat (destruct I as [I|I]; [discriminate|]); destruct I|exact (T x s eq_refl)].
  - rewrite (trim_tight w1 w2 s c) by assumption. replace (ends_with_semicolon (s ++ [c])) with false.
    + destruct (SStartsWith _ (lit "/*")) eqn:E; [destruct (find _ _) as [[a b]|]; apply X; reflexivity|reflexivity].
    + unfold ends_with_semicolon. rewrite rev_app_distr. cbn [rev app]. symmetry. apply Ascii.eqb_neq. exact N.
Qed.
Definition suffix (r s : bytes) : Prop := exists a, s = a ++ r.
Lemma suffix_refl s : suffix s s. Proof. exists []. reflexivity. Qed.
Lemma suffix_trans a b c : suffix a b -> suffix b c -> suffix a c.
Proof. intros [x ->] [y ->]. exists (y ++ x). rewrite app_assoc. reflexivity. Qed.
Lemma skip_space_suffix s : suffix (skip_space s) s.
Proof. induction s as [|c s IH]; cbn [skip_space]; [apply suffix_refl|]. destruct (is_space c); [|apply suffix_refl]. destruct IH as [a E]. exists (c :: a). cbn [app]. f_equal. exact E. Qed.
Lemma spaces_suffix s r : spaces s = Some r -> suffix r s.
Proof. destruct s as [|c s]; cbn [spaces]; [discriminate|]. destruct (is_space c); [|discriminate]. intros E. injection E as <-. destruct (skip_space_suffix s) as [a E]. exists (c :: a). cbn [app]. f_equal. exact E. Qed.
Lemma after_word_suffix w s r : after_word w s = Some r -> suffix r s /\ begins s w.
Proof. unfold after_word. destruct (SStartsWith _ _) eqn:E; [|discriminate]. intros H. injection H as <-. split; [exists (firstn (List.length w) s); symmetry; apply firstn_skipn|apply starts_iff in E as [b E]; exists b; exact E]. Qed.
Lemma begins_mentions r s w : suffix r s -> begins r w -> mentions s w.
Proof. intros [a ->] [b E]. exists (map upper a), b. rewrite map_app, E. reflexivity. Qed.
Lemma mentions_part s u v w : mentions s (u ++ v ++ w) -> mentions s v.
Proof. intros (a & b & E). exists (a ++ u), (w ++ b). rewrite E, <- !app_assoc. reflexivity. Qed.
Lemma SIEquals_begins a b : SIEquals a b = true -> nul_free b -> begins a (SToUpper b).
Proof.
  unfold SIEquals, ieqb. intros E N. apply bytes_eqb_eq in E. rewrite (cstr_nul_free b N) in E. clear N. revert b E. induction a as [|c a IH]; intros b E; cbn [cstr map] in E.
  - destruct b; [exists []; reflexivity|discriminate].
  - destruct (Ascii.eqb c NUL); [destruct b; [exists (map upper (c :: a)); reflexivity|discriminate]|]. destruct b as [|d b]; [discriminate|]. cbn [map] in E. injection E as E1 E2. destruct (IH b E2) as [t T]. exists t. unfold SToUpper in *. cbn [map app]. rewrite T. f_equal.
    assert (U : forall c, Ascii.eqb (upper (lower c)) (upper c) = true) by (apply forall_ascii; vm_compute; reflexivity). pose proof (U c) as U1. pose proof (U d) as U2. apply Ascii.eqb_eq in U1, U2. congruence.
Qed.
Lemma begins_upper s w : begins (SToUpper s) w -> begins s w.
Proof. intros [b E]. exists b. unfold SToUpper in E. rewrite map_map in E. rewrite <- E. apply map_ext. intros c. assert (U : forall c, Ascii.eqb (upper c) (upper (upper c)) = true) by (apply forall_ascii; vm_compute; reflexivity). apply Ascii.eqb_eq, U. Qed.
Lemma SContains_mentions s w : SContains (SToUpper s) w = true -> mentions s w.
Proof. intros H. apply contains_iff in H as (a & b & E). exists a, b. exact E. Qed.
Lemma lit_nul_free (s : string) : in_set NUL (lit s) = false -> nul_free (lit s).
Proof. intros H I. unfold in_set in H. rewrite <- not_true_iff_false in H. apply H. apply existsb_exists. exists NUL. split; [exact I|reflexivity]. Qed.
Lemma parse_call_mentions name q w : parse_call name q = Some w -> mentions q (name ++ lit "(").
Proof.
  unfold parse_call. intros H. destruct (after_word (lit "SELECT") (SToUpper q)) as [r|] eqn:E1; [|discriminate]. destruct (spaces r) as [r1|] eqn:E2; [|discriminate].
  destruct (after_word (name ++ lit "(") r1) as [r2|] eqn:E3; [|discriminate]. apply after_word_suffix in E1 as [E1 _], E3 as [_ E3]. apply spaces_suffix in E2.
  pose proof (suffix_trans _ _ _ E2 E1) as [a S]. destruct E3 as [b E3]. exists (map upper a), b. rewrite <- E3, <- map_app, <- S. unfold SToUpper. rewrite map_map. apply map_ext.
  intros c. assert (U : forall c, Ascii.eqb (upper c) (upper (upper c)) = true) by (apply forall_ascii; vm_compute; reflexivity). apply Ascii.eqb_eq, U.
Qed.
Lemma treat_ordinary VERSION s : ordinary s -> treat VERSION s = Asks s.
Proof.
  intros [M B]. assert (M' : forall w, In w [lit "@@"; lit "SHOW"; lit "DATABASE()"; lit "INFORMATION_SCHEMA"; lit "VERSION("; lit "CONNECTION_ID("; lit "$$"] -> ~ mentions s w) by (apply Forall_forall; exact M).
  assert (B' : forall w, In w [lit "/*"; lit "SET "; lit "USE "; lit "ROLLBACK;"] -> ~ begins s w) by (apply Forall_forall; exact B). clear M B.
  assert (P : forall w u v x, SIEquals s x = true \/ SIEquals (SToUpper s) x = true -> in_set NUL x = false -> SToUpper x = u ++ w ++ v -> mentions s w).
  { intros w u v x E N X. assert (Bx : begins s (SToUpper x)). { assert (F : nul_free x) by (intros I; unfold in_set in N; rewrite <- not_true_iff_false in N; apply N; apply existsb_exists; exists NUL; split; [exact I|reflexivity]).
      destruct E as [E|E]; [exact (SIEquals_begins _ _ E F)|exact (begins_upper _ _ (SIEquals_begins _ _ E F))]. }
    rewrite X in Bx. apply (mentions_part s u w v). exact (begins_mentions s s _ (suffix_refl s) Bx). }
  unfold treat.
  destruct (is_variable_query s) eqn:V.
  { exfalso. unfold is_variable_query in V. apply orb_true_iff in V as [V|V]; [apply orb_true_iff in V as [V|V]|].
    - destruct (after_word (lit "@@") s) as [r|] eqn:E; [|discriminate]. apply after_word_suffix in E as [_ E]. apply (M' (lit "@@")); [cbn [In]; tauto|exact (begins_mentions s s _ (suffix_refl s) E)].
    - destruct (after_word (lit "SELECT") s) as [r|] eqn:E; [|discriminate]. destruct (spaces r) as [r'|] eqn:E2; [|discriminate]. destruct (after_word (lit "@@") r') as [r2|] eqn:E3; [|discriminate].
      apply after_word_suffix in E as [E _], E3 as [_ E3]. apply spaces_suffix in E2. apply (M' (lit "@@")); [cbn [In]; tauto|exact (begins_mentions _ _ _ (suffix_trans _ _ _ E2 E) E3)].
    - destruct (after_word (lit "SHOW VARIABLES LIKE '") s) as [r|] eqn:E; [|discriminate]. apply after_word_suffix in E as [_ E]. apply (M' (lit "SHOW")); [cbn [In]; tauto|].
      apply (mentions_part s [] (lit "SHOW") (lit " VARIABLES LIKE '")). exact (begins_mentions s s _ (suffix_refl s) E). }
  destruct (SIEquals s (lit "SHOW VARIABLES;")) eqn:E1; [exfalso; apply (M' (lit "SHOW")); [cbn [In]; tauto|apply (P _ [] (lit " VARIABLES;") (lit "SHOW VARIABLES;")); [auto|reflexivity|reflexivity]]|].
  destruct (SIEquals s (lit "SHOW DATABASES;")) eqn:E2; [exfalso; apply (M' (lit "SHOW")); [cbn [In]; tauto|apply (P _ [] (lit " DATABASES;") (lit "SHOW DATABASES;")); [auto|reflexivity|reflexivity]]|].
  destruct (SIEquals (SToUpper s) (lit "SELECT DATABASE();")) eqn:E3; [exfalso; apply (M' (lit "DATABASE()")); [cbn [In]; tauto|apply (P _ (lit "SELECT ") (lit ";") (lit "SELECT DATABASE();")); [auto|reflexivity|reflexivity]]|].
  destruct (SIEquals (SToUpper s) (lit "SELECT * FROM (SELECT DATABASE() AS DATABASE_NAME) A WHERE A.DATABASE_NAME IS NOT NULL;")) eqn:E4;
    [exfalso; apply (M' (lit "DATABASE()")); [cbn [In]; tauto|apply (P _ (lit "SELECT * FROM (SELECT ") (lit " AS DATABASE_NAME) A WHERE A.DATABASE_NAME IS NOT NULL;") (lit "SELECT * FROM (SELECT DATABASE() AS DATABASE_NAME) A WHERE A.DATABASE_NAME IS NOT NULL;")); [auto|reflexivity|reflexivity]]|].
  destruct (SIEquals (SToUpper s) (lit "SHOW /*!50002 FULL*/ TABLES;")) eqn:E5; [exfalso; apply (M' (lit "SHOW")); [cbn [In]; tauto|apply (P _ [] (lit " /*!50002 FULL*/ TABLES;") (lit "SHOW /*!50002 FULL*/ TABLES;")); [auto|reflexivity|reflexivity]]|].
  destruct (SIEquals (SToUpper s) (lit "SHOW FULL TABLES;")) eqn:E6; [exfalso; apply (M' (lit "SHOW")); [cbn [In]; tauto|apply (P _ [] (lit " FULL TABLES;") (lit "SHOW FULL TABLES;")); [auto|reflexivity|reflexivity]]|].
  destruct (SIEquals (SToUpper s) ALTERYX) eqn:E7.
  { exfalso. apply (M' (lit "INFORMATION_SCHEMA")); [cbn [In]; tauto|]. apply (P _ (firstn 99 (SToUpper ALTERYX)) (skipn 117 (SToUpper ALTERYX)) ALTERYX); [auto|reflexivity|vm_compute; reflexivity]. }
  assert (I : forall v, SContains (SToUpper s) (lit "INFORMATION_SCHEMA" ++ v) = false).
  { intros v. apply not_true_iff_false. intros H. apply SContains_mentions in H. apply (M' (lit "INFORMATION_SCHEMA")); [cbn [In]; tauto|]. apply (mentions_part s [] (lit "INFORMATION_SCHEMA") v). exact H. }
  pose proof (I (lit ".TABLES") : SContains (SToUpper s) (lit "INFORMATION_SCHEMA.TABLES") = false) as I1. pose proof (I (lit ".VIEWS") : SContains (SToUpper s) (lit "INFORMATION_SCHEMA.VIEWS") = false) as I2.
  pose proof (I (lit ".COLUMNS") : SContains (SToUpper s) (lit "INFORMATION_SCHEMA.COLUMNS") = false) as I3. pose proof (I (lit ".KEY_COLUMN_USAGE") : SContains (SToUpper s) (lit "INFORMATION_SCHEMA.KEY_COLUMN_USAGE") = false) as I4.
  rewrite I1, I2, I3.
  destruct (SContains s (lit "information_schema")) eqn:E8.
  { exfalso. apply (M' (lit "INFORMATION_SCHEMA")); [cbn [In]; tauto|]. apply contains_iff in E8 as (a & b & ->). exists (map upper a), (map upper b). rewrite !map_app. reflexivity. }
  destruct (SStartsWith (SToUpper s) (lit "SET ")) eqn:E9; [exfalso; apply (B' (lit "SET ")); [cbn [In]; tauto|apply starts_iff in E9; exact E9]|].
  destruct (SStartsWith (SToUpper s) (lit "USE ")) eqn:E10; [exfalso; apply (B' (lit "USE ")); [cbn [In]; tauto|apply starts_iff in E10; exact E10]|].
  destruct (SIEquals s (lit "ROLLBACK;")) eqn:E11; [exfalso; apply (B' (lit "ROLLBACK;")); [cbn [In]; tauto|apply (SIEquals_begins _ _ E11); apply lit_nul_free; reflexivity]|].
  destruct (SIEquals (SToUpper s) (lit "SELECT $$;")) eqn:E12; [exfalso; apply (M' (lit "$$")); [cbn [In]; tauto|apply (P _ (lit "SELECT ") (lit ";") (lit "SELECT $$;")); [auto|reflexivity|reflexivity]]|].
  cbn [orb]. destruct (parse_call (lit "VERSION") s) as [w|] eqn:E13; [exfalso; apply (M' (lit "VERSION(")); [cbn [In]; tauto|exact (parse_call_mentions _ _ _ E13)]|].
  destruct (parse_call (lit "CONNECTION_ID") s) as [w|] eqn:E14; [exfalso; apply (M' (lit "CONNECTION_ID(")); [cbn [In]; tauto|exact (parse_call_mentions _ _ _ E14)]|].
  destruct (SContains (SToUpper s) (lit "SHOW KEYS FROM")) eqn:E15; [exfalso; apply (M' (lit "SHOW")); [cbn [In]; tauto|apply SContains_mentions in E15; exact (mentions_part s [] (lit "SHOW") (lit " KEYS FROM") E15)]|].
  rewrite I4. reflexivity.
Qed.
(** A client that sends ordinary queries: each, as a statement, is run by the database, once and in order, and the client reads what came of it. *)
Inductive run_in_turn {DB} (ask : DB -> bytes -> DB * response) : DB -> list bytes -> list reply -> DB -> Prop :=
| rt_end db : run_in_turn ask db [] [] db
| rt_more db q s db1 resp r qs rs db' : meant q s -> ordinary s -> ask db s = (db1, resp) -> answer_of resp r -> run_in_turn ask db1 qs rs db' -> run_in_turn ask db (q :: qs) (r :: rs) db'.
Theorem C55_queries : forall VERSION DB (ask : DB -> bytes -> DB * response) db qs rs db' arrivals,
  N.of_nat (List.length VERSION) < 2 ^ 20 -> run_in_turn ask db qs rs db' ->
  Forall (fun q => N.of_nat (List.length q) < 2 ^ 20) qs -> Forall2 sent_as qs arrivals ->
  exists outs, talk VERSION ask db [] arrivals = Some (db', [], outs) /\ Forall2 (says 1) outs rs.
Proof.
  intros VERSION DB ask db qs rs db' arrivals V R. apply C55_conversation; [exact V|]. clear arrivals. induction R as [|db q s db1 resp r qs rs db' M O A P R IH]; [constructor|].
  eapply an_ask; [|exact A|exact P|exact IH]. rewrite (decoded_meant q s M); [apply treat_ordinary; exact O|]. destruct O as [_ O]. inversion O; assumption.
Qed.
Print Assumptions C55_queries.

(** * Names of tables *)
Lemma SQ_doubled s : SQ s = "'"%char :: doubled (cstr s) ++ ["'"%char].
Proof.
  unfold SQ, SEscape. f_equal. f_equal. induction (cstr s) as [|c l IH]; [reflexivity|]. cbn [escape]. unfold in_set, doubled in *. cbn [existsb flat_map]. rewrite IH, orb_false_r, orb_diag.
  destruct (Ascii.eqb_spec c "'") as [->|]; reflexivity.
Qed.
Definition literal (name : bytes) : word := (Quoted "'", "'"%char :: doubled (cstr name) ++ ["'"%char]).
Lemma words_literal a l k t name c rest : words a = l ++ [(k, t)] -> extends k "'" = None -> Ascii.eqb c "'" = false ->
  words (a ++ SQ name ++ c :: rest) = words a ++ literal name :: words (c :: rest).
Proof.
  intros W X Q. rewrite SQ_doubled.
  assert (X2 : extends (Quoted "'") c = None) by (cbn [extends]; rewrite Q; reflexivity).
  pose proof (words_seam ("'"%char :: doubled (cstr name) ++ ["'"%char]) c rest [] (Quoted "'") _ (proj1 (one_quoted (cstr name))) X2) as E.
  pose proof (words_seam a "'" ((doubled (cstr name) ++ ["'"%char]) ++ c :: rest) l k t W X) as E2.
  cbn [app] in E, E2 |- *. rewrite E2, E, W, <- (app_assoc l). reflexivity.
Qed.
(** The statements made for the database hold the name of the table only as a literal: the words around it are the same whatever the name. *)
Theorem C55_names :
  (exists a b c, forall name, words (COLUMNS name) = a ++ literal name :: b ++ literal name :: c) /\
  (exists a b c, forall name, words (KEYS name) = a ++ literal name :: b ++ literal name :: c) /\
  (exists a b, forall name, words (FOREIGN_KEYS name) = a ++ literal name :: b).
Proof.
  split; [|split].
  - unfold COLUMNS. eexists _, _, _. intros name.
    match goal with |- words (?x ++ SQ _ ++ ?y ++ SQ _ ++ ?z) = _ =>
      etransitivity; [exact (words_literal x (removelast (words x)) (fst (last (words x) semicolon)) (snd (last (words x) semicolon)) name " " (skipn 1 y ++ SQ name ++ z) eq_refl eq_refl eq_refl)|];
      etransitivity; [apply (f_equal (fun w => words x ++ literal name :: w)); exact (words_literal y (removelast (words y)) (fst (last (words y) semicolon)) (snd (last (words y) semicolon)) name ")" (skipn 1 z) eq_refl eq_refl eq_refl)|]
    end. reflexivity.
  - unfold KEYS. eexists _, _, _. intros name.
    match goal with |- words (?x ++ SQ _ ++ ?y ++ SQ _ ++ ?z) = _ =>
      etransitivity; [exact (words_literal x (removelast (words x)) (fst (last (words x) semicolon)) (snd (last (words x) semicolon)) name " " (skipn 1 y ++ SQ name ++ z) eq_refl eq_refl eq_refl)|];
      etransitivity; [apply (f_equal (fun w => words x ++ literal name :: w)); exact (words_literal y (removelast (words y)) (fst (last (words y) semicolon)) (snd (last (words y) semicolon)) name ")" (skipn 1 z) eq_refl eq_refl eq_refl)|]
    end. reflexivity.
  - unfold FOREIGN_KEYS. eexists _, _. intros name.
    match goal with |- words (?x ++ SQ _ ++ ?z) = _ => exact (words_literal x (removelast (words x)) (fst (last (words x) semicolon)) (snd (last (words x) semicolon)) name ")" (skipn 1 z) eq_refl eq_refl eq_refl) end.
Qed.
Print Assumptions C55_names.

(** * A case *)
(** A database that remembers what it was asked. *)
Definition some_answer (q : bytes) : response :=
  if bytes_eqb q (lit "SELECT a, b FROM t;") then mkResponse (lit "200 OK") [] (format_json no_json first_bytes [lit "a"; lit "b"] [[Int 7; Text (lit "it's")]; [Null; Real (lit "2.5")]])
  else if bytes_eqb q (lit "INSERT INTO t VALUES (1, 2);") then mkResponse (lit "200 OK") [] []
  else mkResponse (lit "402 Bad query") (lit "no such table: u") [].
Definition some_ask (db : list bytes) (q : bytes) : list bytes * response := (db ++ [q], some_answer q).
Definition some_queries : list bytes := [lit " SELECT a, b FROM t "; lit "INSERT INTO t VALUES (1, 2);"; lit "SELECT * FROM u;"].
Definition some_replies : list reply := [Rows [lit "a"; lit "b"] [[lit "7"; lit "it's"]; [[]; lit "2.5"]]; Done; Error 402 (lit "Bad query no such table: u")].
Definition not_in (s w : bytes) : bool := negb (SContains (SToUpper s) w).
Lemma ordinary_by s : forallb (not_in s) [lit "@@"; lit "SHOW"; lit "DATABASE()"; lit "INFORMATION_SCHEMA"; lit "VERSION("; lit "CONNECTION_ID("; lit "$$"; lit "/*"; lit "SET "; lit "USE "; lit "ROLLBACK;"] = true -> ordinary s.
Proof.
  assert (X : forall w, not_in s w = true -> ~ mentions s w) by (intros w H (a & b & E); unfold not_in in H; apply negb_true_iff in H; rewrite <- not_true_iff_false in H; apply H; apply contains_iff; exists a, b; exact E).
  intros H. cbn [forallb] in H. repeat (apply andb_prop in H as [? H]).
  split; repeat apply Forall_cons; try apply Forall_nil; try (apply X; assumption); intros B; [apply (X (lit "/*"))|apply (X (lit "SET "))|apply (X (lit "USE "))|apply (X (lit "ROLLBACK;"))]; try assumption; exact (begins_mentions s s _ (suffix_refl s) B).
Qed.
Ltac tight := let c := fresh in let s := fresh in let E := fresh in let I := fresh in
  intros c s E; injection E as <- _; intros I; unfold blank in I; cbn [In] in I; repeat (destruct I as [I|I]; [discriminate|]); destruct I.
Lemma some_run : run_in_turn some_ask [] some_queries some_replies [lit "SELECT a, b FROM t;"; lit "INSERT INTO t VALUES (1, 2);"; lit "SELECT * FROM u;"].
Proof.
  unfold some_queries, some_replies. eapply (rt_more _ _ _ (lit "SELECT a, b FROM t;")).
  - apply (m_open (lit " ") (lit " ") (lit "SELECT a, b FROM ") "t"); [repeat constructor|repeat constructor|tight|intros I; unfold blank in I; cbn [In] in I; repeat (destruct I as [I|I]; [discriminate|]); destruct I|discriminate].
  - apply ordinary_by. vm_compute. reflexivity.
  - reflexivity.
  - change (some_answer (lit "SELECT a, b FROM t;")) with (mkResponse (lit "200 " ++ lit "OK") [] (format_json no_json first_bytes [lit "a"; lit "b"] [[Int 7; Text (lit "it's")]; [Null; Real (lit "2.5")]])).
    apply (a_table no_json first_bytes [lit "a"; lit "b"] [[Int 7; Text (lit "it's")]; [Null; Real (lit "2.5")]] (lit "OK") []).
    + split; [discriminate|]. split; [repeat (apply Forall_cons; [apply lit_nul_free; reflexivity|]); apply Forall_nil|repeat (apply Forall_cons; [reflexivity|]); apply Forall_nil].
    + discriminate.
    + repeat (apply Forall_cons; [apply Forall_cons; [|apply Forall_cons; [|apply Forall_nil]]|]); try apply Forall_nil; cbn [plain]; try exact I; [apply lit_nul_free; reflexivity|].
      apply (json_num [] (lit "2") (lit ".5") []); [left; reflexivity| | | |].
      * split; [discriminate|]. intros c [<-|[]]; reflexivity.
      * left. discriminate.
      * right. exists (lit "5"). split; [reflexivity|]. split; [discriminate|]. intros c [<-|[]]; reflexivity.
      * left. reflexivity.
    + repeat (apply Forall_cons; [apply Forall_cons; [|apply Forall_cons; [|apply Forall_nil]]|]); try apply Forall_nil; apply json_small; apply Nat.leb_le; vm_compute; reflexivity.
    + split; [reflexivity|]. split; repeat (apply Forall_cons; [vm_compute; reflexivity|]); apply Forall_nil.
  - eapply (rt_more _ _ _ (lit "INSERT INTO t VALUES (1, 2);")).
    + apply (m_closed [] [] (lit "INSERT INTO t VALUES (1, 2)")); [constructor|constructor|tight].
    + apply ordinary_by. vm_compute. reflexivity.
    + reflexivity.
    + exact (a_nothing (lit "OK") []).
    + eapply (rt_more _ _ _ (lit "SELECT * FROM u;")).
      * apply (m_closed [] [] (lit "SELECT * FROM u")); [constructor|constructor|tight].
      * apply ordinary_by. vm_compute. reflexivity.
      * reflexivity.
      * apply (a_error 402 (lit "Bad query") (lit "no such table: u") []); [lia|discriminate|vm_compute; reflexivity|intros t; discriminate].
      * constructor.
Qed.
(** The second query comes in three parts. *)
Example C55_case : forall VERSION, N.of_nat (List.length VERSION) < 2 ^ 20 -> exists outs,
  talk VERSION some_ask [] [] [[command (lit " SELECT a, b FROM t ")]; [firstn 2 (command (lit "INSERT INTO t VALUES (1, 2);")); firstn 9 (skipn 2 (command (lit "INSERT INTO t VALUES (1, 2);"))); skipn 11 (command (lit "INSERT INTO t VALUES (1, 2);"))]; [command (lit "SELECT * FROM u;"); []]] =
    Some ([lit "SELECT a, b FROM t;"; lit "INSERT INTO t VALUES (1, 2);"; lit "SELECT * FROM u;"], [], outs) /\ Forall2 (says 1) outs some_replies.
Proof.
  intros VERSION V. refine (C55_queries VERSION _ some_ask [] some_queries some_replies _ _ V some_run _ _).
  - repeat (apply Forall_cons; [vm_compute; reflexivity|]). apply Forall_nil.
  - repeat (apply Forall2_cons; [unfold sent_as; vm_compute; reflexivity|]). apply Forall2_nil.
Qed.
(** A name that would end the literal does not. *)
Example C55_names_case : treat [] (decoded (lit "SELECT * FROM information_schema.columns WHERE table_name=""x'); DROP TABLE t; --""")) = Asks (COLUMNS (lit "x'); DROP TABLE t; --")) /\
  In (literal (lit "x'); DROP TABLE t; --")) (words (COLUMNS (lit "x'); DROP TABLE t; --"))) /\ snd (literal (lit "x'); DROP TABLE t; --")) = lit "'x''); DROP TABLE t; --'".
Proof. split; [vm_compute; reflexivity|]. split; [destruct C55_names as [(a & b & c & E) _]; rewrite E; apply in_or_app; right; left; reflexivity|reflexivity]. Qed.
(** Questions that the port answers itself. *)
Example C55_local_case : forall VERSION,
  local_reply (treat VERSION (decoded (lit "show databases"))) (Rows [lit "Database"] [[lit "main"]]) /\
  local_reply (treat VERSION (decoded (lit "SET NAMES utf8"))) Done /\
  local_reply (treat VERSION (decoded (lit "SELECT VERSION() AS v"))) (Rows [lit "v"] [[mysqlVersion]]).
Proof. intros VERSION. split; [|split]; [exact (l_result [lit "Database"] [[lit "main"]] ltac:(discriminate))|exact l_ok|exact (l_result [lit "v"] [[mysqlVersion]] ltac:(discriminate))]. Qed.

(** Questions that the port answers itself may be sent without waiting: when they arrive together, each is answered, and in their order. *)
Theorem C55_together : forall VERSION DB (ask : DB -> bytes -> DB * response) db qs rs, N.of_nat (List.length VERSION) < 2 ^ 20 ->
  Forall2 (fun q r => N.of_nat (List.length q) < 2 ^ 20 /\ local_reply (treat VERSION (decoded q)) r) qs rs ->
  exists outs, arrives VERSION ask db [] (concat (map command qs)) = Some (db, [], concat outs) /\ Forall2 (says 1) outs rs.
Proof.
  intros V DB ask db qs rs HV H. assert (G : forall f sent, (List.length qs <= f)%nat -> exists outs, onPortRecv V f (concat (map command qs)) sent None = ([], sent ++ concat outs, None) /\ Forall2 (says 1) outs rs).
  { induction H as [|q r qs rs (HQ & L) H IH]; intros f sent F.
    - exists []. cbn [map concat]. rewrite app_nil_r. split; [destruct f; reflexivity|constructor].
    - destruct f as [|f]; cbn [List.length] in F; [lia|]. destruct (dealt_local V HV ask db q r HQ L) as (out & D & S). unfold dealt in D.
      destruct (on_packet V (mkPacket 0 ("003"%char :: q))) as [out'|[s q']] eqn:P.
      + injection D as <-. destruct (IH f (sent ++ out') ltac:(lia)) as (outs & E & FF). exists (out' :: outs). split; [|constructor; assumption].
        cbn [map concat onPortRecv]. change (command q) with (serialize (mkPacket 0 ("003"%char :: q))). rewrite deserialize_of; [|reflexivity|cbn [payload List.length]; lia]. rewrite P, E, <- app_assoc. reflexivity.
      + exfalso. unfold on_packet in P. cbn [payload] in P. change (bcode "003" =? 3) with true in P. cbv iota in P. destruct (treat V (decoded q)); inversion L; subst; discriminate. }
  unfold arrives. cbn [app]. destruct (G (List.length (concat (map command qs))) []) as (outs & E & F).
  - clear. induction qs as [|q qs IH]; [apply Nat.le_refl|]. cbn [map concat List.length]. rewrite app_length. assert (1 <= List.length (command q))%nat by (unfold command; cbn; lia). lia.
  - exists outs. rewrite E. split; [reflexivity|exact F].
Qed.
Print Assumptions C55_together.

(** * What does not hold *)
(** Refuted: a client that does not wait for an answer before it sends its next query loses queries.  Of two queries for the database that arrive together only the second is run, and there is only one answer. *)
Theorem C55_pipelined_refuted : forall VERSION DB (ask : DB -> bytes -> DB * response) db,
  arrives VERSION ask db [] (command (lit "DELETE FROM t") ++ command (lit "SELECT 2")) = arrives VERSION ask db [] (command (lit "SELECT 2")).
Proof.
  intros. unfold arrives. assert (R : onPortRecv VERSION (List.length ([] ++ command (lit "DELETE FROM t") ++ command (lit "SELECT 2"))) ([] ++ command (lit "DELETE FROM t") ++ command (lit "SELECT 2")) [] None =
    onPortRecv VERSION (List.length ([] ++ command (lit "SELECT 2"))) ([] ++ command (lit "SELECT 2")) [] None) by (vm_compute; reflexivity).
  rewrite R. reflexivity.
Qed.
Print Assumptions C55_pipelined_refuted.
(** Refuted: the order of answers is not that of the queries.  If a query for the database arrives together with one that the port answers itself, the answer to the second comes first. *)
Theorem C55_order_refuted : forall VERSION DB (ask : DB -> bytes -> DB * response) db db' resp out, ask db (lit "SELECT 1;") = (db', resp) -> onPortRequestComplete [ascii_of_N 0] resp = Some out ->
  exists databases, arrives VERSION ask db [] (command (lit "SELECT 1") ++ command (lit "SHOW DATABASES")) = Some (db', [], databases ++ out) /\ says 1 databases (Rows [lit "Database"] [[lit "main"]]).
Proof.
  intros VERSION DB ask db db' resp out A C. exists (serializeQueryResponse 0 (mkResult [lit "Database"] [[lit "main"]])). split.
  - unfold arrives. assert (R : onPortRecv VERSION (List.length ([] ++ command (lit "SELECT 1") ++ command (lit "SHOW DATABASES"))) ([] ++ command (lit "SELECT 1") ++ command (lit "SHOW DATABASES")) [] None =
      ([], serializeQueryResponse 0 (mkResult [lit "Database"] [[lit "main"]]), Some ([ascii_of_N 0], lit "SELECT 1;"))) by (vm_compute; reflexivity).
    rewrite R, A, C. reflexivity.
  - apply (proj1 (C55_reply 0)); [split; [discriminate|repeat (apply Forall_cons; [reflexivity|]); apply Forall_nil]|].
    split; [reflexivity|]. split; repeat (apply Forall_cons; [vm_compute; reflexivity|]); apply Forall_nil.
Qed.
Print Assumptions C55_order_refuted.
Lemma not_said n out ps : packets out ps -> read_reply ps = None -> forall r, ~ says n out r.
Proof. intros P R r (ps' & P' & _ & R'). rewrite (packets_unique _ _ P _ P') in R. congruence. Qed.
Lemma no_columns seq : forall r n, ~ says n (serializeQueryResponse seq (mkResult [] [])) r.
Proof.
  intros r n. apply (not_said n _ [mkPacket (Z.to_N ((seq + 1) mod 256)) ["000"%char]; mkPacket (Z.to_N ((seq + 1 + 1) mod 256)) eof_payload; mkPacket (Z.to_N ((seq + 1 + 1 + 1) mod 256)) eof_payload]); [|reflexivity].
  assert (B : forall z, Z.to_N (z mod 256) < 256) by (intros z; pose proof (Z.mod_pos_bound z 256 ltac:(lia)); lia).
  assert (F : forall m p r, m < 256 -> N.of_nat (List.length p) < 100 -> first_packet (serialize (mkPacket m p) ++ r) = Some (mkPacket m p, r)) by (intros m p r' H1 H2; apply first_packet_of; cbn [seqno payload]; lia).
  unfold serializeQueryResponse. cbn [headers rows map app numbered List.length]. eapply pk_more; [apply F; [apply B|vm_compute; reflexivity]|]. eapply pk_more; [apply F; [apply B|vm_compute; reflexivity]|].
  eapply pk_more; [apply F; [apply B|vm_compute; reflexivity]|]. constructor.
Qed.
(** Refuted: queries about parts of MySQL's information schema that the port does not know are answered with a result of no columns, and that is not a reply in the protocol: the client cannot make sense of what it receives. *)
Theorem C55_schema_refuted : forall VERSION DB (ask : DB -> bytes -> DB * response) db, exists out,
  arrives VERSION ask db [] (command (lit "SELECT index_name FROM information_schema.statistics")) = Some (db, [], out) /\ forall r, ~ says 1 out r.
Proof. intros. exists (serializeQueryResponse 0 (mkResult [] [])). split; [vm_compute; reflexivity|intros r; apply no_columns]. Qed.
Print Assumptions C55_schema_refuted.
(** Refuted: so is a query whose result has an infinite number in it: the text of the result cannot be read as JSON, and what the client receives is not a reply. *)
Theorem C55_infinite_refuted : forall jsonb cut, exists out,
  onPortRequestComplete [ascii_of_N 0] (mkResponse (lit "200 OK") [] (format_json jsonb cut [lit "a"] [[Int 1]; [Real (lit "Inf")]])) = Some out /\ forall r, ~ says 1 out r.
Proof.
  intros jsonb cut. exists (serializeQueryResponse 0 (mkResult [] [])). split; [|intros r; apply no_columns]. pose proof (proj1 (C54_infinite_refuted jsonb cut)) as J.
  unfold onPortRequestComplete. cbn [method content]. change (SToInt64 (lit "200 OK") =? 200)%Z with true. cbv iota. rewrite J. reflexivity.
Qed.
Print Assumptions C55_infinite_refuted.
(** Refuted: asked for one of its variables, the port gives no rows, although it has a value for it, and gives that value in the list of all of them.  It looks for a variable whose name is the whole query. *)
Theorem C55_variable_refuted : forall VERSION,
  treat VERSION (decoded (lit "SELECT @@version")) = Says_result (mkResult [lit "SELECT @@version;"] []) /\
  treat VERSION (decoded (lit "SHOW VARIABLES LIKE 'version'")) = Says_result (mkResult [lit "SHOW VARIABLES LIKE 'version';"] []) /\
  exists rows, treat VERSION (decoded (lit "SHOW VARIABLES")) = Says_result (mkResult [lit "Variable Name"; lit "Value"] rows) /\ In [lit "version"; mysqlVersion] rows.
Proof.
  intros VERSION. split; [vm_compute; reflexivity|]. split; [vm_compute; reflexivity|]. eexists. split; [vm_compute; reflexivity|].
  match goal with |- In ?x ?l => assert (E : exists n, nth_error l n = Some x) by (exists 286%nat; vm_compute; reflexivity) end. destruct E as [n E]. exact (nth_error_In _ _ E).
Qed.
Print Assumptions C55_variable_refuted.
(** Refuted: a statement is not run if the text information_schema.tables is anywhere in it, even in a literal: this row is never stored, and the client receives the names of the tables for it. *)
Theorem C55_swallowed_refuted : forall VERSION, treat VERSION (decoded (lit "INSERT INTO log VALUES ('read information_schema.tables')")) = Asks TABLES.
Proof. intros. vm_compute. reflexivity. Qed.
Print Assumptions C55_swallowed_refuted.
(** Refuted: the question for foreign keys is understood only if the words information_schema are not all in small letters; with small letters the reply is the one without columns. *)
Theorem C55_foreign_keys_refuted : forall VERSION,
  treat VERSION (decoded (lit "SELECT 1 FROM INFORMATION_SCHEMA.key_column_usage k, INFORMATION_SCHEMA.referential_constraints r WHERE k.table_name = 't'")) = Asks (FOREIGN_KEYS (lit "t")) /\
  treat VERSION (decoded (lit "SELECT 1 FROM information_schema.key_column_usage k, information_schema.referential_constraints r WHERE k.table_name = 't'")) = Says_result (mkResult [] []).
Proof. intros. split; vm_compute; reflexivity. Qed.
Print Assumptions C55_foreign_keys_refuted.
(** Refuted: nobody has to say who they are.  Whatever user and password are sent, the port says OK. *)
Theorem C55_login_refuted : forall VERSION n s, n < 256 -> (forall s', s <> "003"%char :: s') -> on_packet VERSION (mkPacket n s) = inl (serializeOK (Z.of_N n)).
Proof.
  intros VERSION n s H S. unfold on_packet. cbn [payload seqno]. destruct s as [|c s]; [reflexivity|]. destruct (N.eqb_spec (bcode c) 3) as [E|_]; [|reflexivity].
  destruct (S s). f_equal. rewrite <- (ascii_N_embedding c). unfold bcode in E. rewrite E. reflexivity.
Qed.
Print Assumptions C55_login_refuted.
(** Refuted: a query with no rows in its result gets OK, as a statement that has no result does: the client does not see the columns. *)
Theorem C55_no_rows_refuted : forall jsonb cut cols, exists out,
  onPortRequestComplete [ascii_of_N 0] (mkResponse (lit "200 OK") [] (format_json jsonb cut cols [])) = Some out /\ says 1 out Done.
Proof. intros. eexists. split; [reflexivity|exact (ok_says 0)]. Qed.
Print Assumptions C55_no_rows_refuted.
(** Refuted: NULL is the empty text. *)
Theorem C55_null_refuted : forall jsonb cut, exists out,
  onPortRequestComplete [ascii_of_N 0] (mkResponse (lit "200 OK") [] (format_json jsonb cut [lit "a"] [[Null]; [Text []]])) = Some out /\ says 1 out (Rows [lit "a"] [[[]]; [[]]]).
Proof.
  intros jsonb cut. eexists. split; [vm_compute; reflexivity|]. apply (table_says 0 [lit "a"] [[[]]; [[]]]); [split; [discriminate|repeat (apply Forall_cons; [reflexivity|]); apply Forall_nil]|].
  split; [reflexivity|]. split; repeat (apply Forall_cons; [vm_compute; reflexivity|]); apply Forall_nil.
Qed.
Print Assumptions C55_null_refuted.
(** Refuted: a comment in front of a statement, as some drivers write it, is taken away but not the space after it, so that a SET that the port would answer itself goes to the database. *)
Theorem C55_comment_refuted : forall VERSION,
  treat VERSION (decoded (lit "/* driver */SET NAMES utf8")) = Says_ok /\ treat VERSION (decoded (lit "/* driver */ SET NAMES utf8")) = Asks (lit " SET NAMES utf8;").
Proof. intros. split; vm_compute; reflexivity. Qed.
Print Assumptions C55_comment_refuted.
(** Refuted: answers from the database do not carry the number after that of the client's packet, as the protocol asks: a packet with the number 1 is answered as if it had the number 0. *)
Theorem C55_number_refuted : forall VERSION, exists out,
  arrives VERSION some_ask [] [] (serialize (mkPacket 1 ("003"%char :: lit "INSERT INTO t VALUES (1, 2);"))) = Some ([lit "INSERT INTO t VALUES (1, 2);"], [], out) /\
  says 1 out Done /\ forall r, ~ says 2 out r.
Proof.
  intros VERSION. exists (serializeOK 0). split; [vm_compute; reflexivity|]. split; [exact (ok_says 0)|]. intros r (ps & P & F & _). destruct (ok_says 0) as (ps' & P' & F' & R'). rewrite (packets_unique _ _ P _ P') in F.
  destruct ps' as [|p ps']; [discriminate|]. cbn [numbered_from] in F, F'. destruct F as [F _], F' as [F' _]. rewrite F in F'. discriminate.
Qed.
Print Assumptions C55_number_refuted.
(** Refuted: a row of 16 MB is announced as one of no bytes, and the client takes what is in it for further packets. *)
Theorem C55_long_row_refuted : forall n s, n < 256 -> N.of_nat (List.length s) = 2 ^ 24 -> first_packet (serialize (mkPacket n s)) = Some (mkPacket n [], s).
Proof.
  intros n s H L. unfold serialize. cbn [payload seqno]. rewrite L. change (le 3 (2 ^ 24)) with ["000"; "000"; "000"]%char. cbn [app first_packet]. change (number ["000"; "000"; "000"]%char) with 0. cbn [N.eqb]. cbv iota.
  unfold take. replace (N.of_nat (List.length s) <? 0) with false by (symmetry; apply N.ltb_ge; lia). change (N.to_nat 0) with O. cbn [firstn skipn]. unfold bcode. rewrite N_ascii_embedding by exact H. reflexivity.
Qed.
Print Assumptions C55_long_row_refuted.
