(** C55: packets and replies. *)
From Verif Require Import Base Dec Text_Spec Text_Model Query_Model Result_Model Qrf_Model Mysql_Vars Mysql_Spec Mysql_Model.
Local Open Scope N_scope.

(** * Numbers *)
Lemma le_length k : forall v, List.length (le k v) = k.
Proof. induction k as [|k IH]; intros v; [reflexivity|]. cbn [le List.length]. rewrite IH. reflexivity. Qed.
Lemma bcode_of v : v < 256 -> bcode (ascii_of_N v) = v.
Proof. intros H. unfold bcode. apply N_ascii_embedding. exact H. Qed.
Lemma number_le k : forall v, v < 256 ^ N.of_nat k -> number (le k v) = v.
Proof.
  induction k as [|k IH]; intros v H; [cbn in H |- *; lia|]. cbn [le number]. rewrite bcode_of by (apply N.mod_lt; lia). rewrite IH.
  - pose proof (N.div_mod v 256). lia.
  - rewrite Nat2N.inj_succ, N.pow_succ_r in H by lia. apply N.div_lt_upper_bound; lia.
Qed.
Lemma take_app a s : take (N.of_nat (List.length a)) (a ++ s) = Some (a, s).
Proof.
  unfold take. rewrite app_length, Nat2N.inj_add. replace (N.of_nat (List.length a) + N.of_nat (List.length s) <? N.of_nat (List.length a)) with false by (symmetry; apply N.ltb_ge; lia).
  rewrite Nat2N.id, firstn_app, Nat.sub_diag, firstn_all, firstn_O, app_nil_r, skipn_app, Nat.sub_diag, skipn_all. reflexivity.
Qed.
Lemma fixed_le k v s : v < 256 ^ N.of_nat k -> fixed_int (N.of_nat k) (le k v ++ s) = Some (v, s).
Proof. intros H. unfold fixed_int. pose proof (take_app (le k v) s) as T. rewrite le_length in T. rewrite T, number_le by exact H. reflexivity. Qed.
Lemma lenenc_int_of v s : v < 2 ^ 64 -> lenenc_int (lenEncInt v ++ s) = Some (v, s).
Proof.
  intros H. unfold lenEncInt. destruct (N.ltb_spec v 251) as [L|L].
  - cbn [le app lenenc_int]. rewrite N.mod_small, bcode_of by lia. replace (v <? 251) with true by (symmetry; apply N.ltb_lt; exact L). reflexivity.
  - destruct (N.ltb_spec v (2 ^ 16)) as [M|M]; [|destruct (N.ltb_spec v (2 ^ 24)) as [K|K]]; cbn [app lenenc_int].
    + change (bcode "252" <? 251) with false. change (bcode "252" =? 252) with true. cbv iota. apply (fixed_le 2). exact M.
    + change (bcode "253" <? 251) with false. change (bcode "253" =? 252) with false. change (bcode "253" =? 253) with true. cbv iota. apply (fixed_le 3). exact K.
    + change (bcode "254" <? 251) with false. change (bcode "254" =? 252) with false. change (bcode "254" =? 253) with false. change (bcode "254" =? 254) with true. cbv iota. apply (fixed_le 8). exact H.
Qed.
Lemma lenenc_str_of x s : N.of_nat (List.length x) < 2 ^ 64 -> lenenc_str (lenEncStr x ++ s) = Some (x, s).
Proof. intros H. unfold lenenc_str, lenEncStr. rewrite <- app_assoc, lenenc_int_of by exact H. apply take_app. Qed.
Lemma strings_of l s : Forall (fun x => N.of_nat (List.length x) < 2 ^ 64) l -> strings (List.length l) (flat_map lenEncStr l ++ s) = Some (l, s).
Proof.
  induction l as [|x l IH]; intros H; [reflexivity|]. inversion H; subst. cbn [List.length strings flat_map]. rewrite <- app_assoc, lenenc_str_of by assumption.
  rewrite IH by assumption. reflexivity.
Qed.
Lemma lenEncInt_short v : v < 2 ^ 24 -> (List.length (lenEncInt v) <= 4)%nat.
Proof.
  intros H. unfold lenEncInt. destruct (v <? 251); [rewrite le_length; lia|]. destruct (v <? 2 ^ 16); [cbn [List.length]; rewrite le_length; lia|].
  replace (v <? 2 ^ 24) with true by (symmetry; apply N.ltb_lt; exact H). cbn [List.length]. rewrite le_length. lia.
Qed.
Lemma lenEncInt_length v : (List.length (lenEncInt v) <= 9)%nat.
Proof. unfold lenEncInt. destruct (v <? 251); [|destruct (v <? 2 ^ 16); [|destruct (v <? 2 ^ 24)]]; cbn [List.length]; rewrite le_length; lia. Qed.
(** The first byte of a length is no mark of the end unless 16 MB follow. *)
Lemma lenEncInt_first v : exists c r, lenEncInt v = c :: r /\ bcode c <> 255 /\ (v <> 0 -> bcode c <> 0) /\ (v < 2 ^ 24 -> bcode c <> 254).
Proof.
  unfold lenEncInt. destruct (N.ltb_spec v 251) as [L|L].
  - cbn [le]. eexists _, _. split; [reflexivity|]. rewrite N.mod_small, bcode_of by lia. repeat split; lia.
  - destruct (v <? 2 ^ 16); [|destruct (N.ltb_spec v (2 ^ 24))]; eexists _, _; (split; [reflexivity|]); repeat split; intros; try (vm_compute; discriminate); lia.
Qed.

(** * Packets *)
Lemma first_packet_of p s : seqno p < 256 -> N.of_nat (List.length (payload p)) < 16777215 -> first_packet (serialize p ++ s) = Some (p, s).
Proof.
  intros H1 H2. unfold serialize. set (n := N.of_nat (List.length (payload p))) in *. rewrite <- app_assoc. cbn [le app].
  set (a := ascii_of_N (n mod 256)). set (b := ascii_of_N (n / 256 mod 256)). set (c := ascii_of_N (n / 256 / 256 mod 256)).
  assert (E : number [a; b; c] = n) by (change [a; b; c] with (le 3 n); apply number_le; lia).
  unfold first_packet. rewrite E. replace (n =? 16777215) with false by (symmetry; apply N.eqb_neq; lia).
  unfold n. rewrite take_app, bcode_of by exact H1. destruct p; reflexivity.
Qed.
Lemma deserialize_of p s : seqno p < 256 -> N.of_nat (List.length (payload p)) < 2 ^ 24 -> deserialize (serialize p ++ s) = Some (p, s).
Proof.
  intros H1 H2. unfold serialize. set (n := N.of_nat (List.length (payload p))) in *. rewrite <- app_assoc. cbn [le app].
  set (a := ascii_of_N (n mod 256)). set (b := ascii_of_N (n / 256 mod 256)). set (c := ascii_of_N (n / 256 / 256 mod 256)).
  assert (E : number [a; b; c] = n) by (change [a; b; c] with (le 3 n); apply number_le; exact H2).
  unfold deserialize. rewrite E. pose proof (take_app (payload p) s) as T. unfold take in T. fold n in T.
  destruct (N.of_nat (List.length (payload p ++ s)) <? n); [discriminate|]. injection T as -> ->. rewrite bcode_of by exact H1. destruct p; reflexivity.
Qed.
(** A part of a packet is no packet. *)
Lemma deserialize_part p a b : N.of_nat (List.length (payload p)) < 2 ^ 24 -> serialize p = a ++ b -> b <> [] -> deserialize a = None.
Proof.
  intros H E B. unfold deserialize. destruct a as [|a1 [|a2 [|a3 [|a4 s]]]]; try reflexivity.
  unfold serialize in E. set (n := N.of_nat (List.length (payload p))) in *. cbn [le app] in E. injection E as E1 E2 E3 E4 E5.
  assert (E : number [a1; a2; a3] = n) by (rewrite <- E1, <- E2, <- E3; change (number (le 3 n) = n); apply number_le; exact H).
  rewrite E. replace (N.of_nat (List.length s) <? n) with true; [reflexivity|]. symmetry. apply N.ltb_lt. unfold n. rewrite E5, app_length. destruct b; [congruence|]. cbn [List.length]. lia.
Qed.

Fixpoint packets_of (z : Z) (l : list bytes) : list packet :=
  match l with [] => [] | p :: l' => mkPacket (Z.to_N ((z + 1) mod 256)) p :: packets_of (z + 1) l' end.
Lemma payload_packets l : forall z, map payload (packets_of z l) = l.
Proof. induction l as [|p l IH]; intros z; [reflexivity|]. cbn [packets_of map payload]. rewrite IH. reflexivity. Qed.
Lemma numbered_packets l : forall z, Forall (fun p => N.of_nat (List.length p) < 16777215) l -> packets (numbered z l) (packets_of z l).
Proof.
  induction l as [|p l IH]; intros z H; cbn [numbered packets_of]; [constructor|]. inversion H; subst.
  apply (pk_more _ _ (numbered (z + 1) l)); [|apply IH; assumption]. apply first_packet_of; [cbn [seqno]; lia|assumption].
Qed.
Lemma numbered_seq l : forall n, numbered_from (n + 1) (packets_of (Z.of_N n) l).
Proof.
  induction l as [|p l IH]; intros n; cbn [packets_of numbered_from]; [exact I|]. cbn [seqno]. split; [lia|].
  replace (Z.of_N n + 1)%Z with (Z.of_N (n + 1)) by lia. apply IH.
Qed.
Lemma says_of n l r : Forall (fun p => N.of_nat (List.length p) < 16777215) l -> read_reply (packets_of (Z.of_N n) l) = Some (r, []) -> says (n + 1) (numbered (Z.of_N n) l) r.
Proof. intros H R. exists (packets_of (Z.of_N n) l). split; [apply numbered_packets; exact H|]. split; [apply numbered_seq|exact R]. Qed.

(** * Replies *)
Lemma column_name_of c : N.of_nat (List.length c) < 2 ^ 64 -> column_name (column_payload c) = Some c.
Proof.
  intros H. unfold column_name.
  assert (E : column_payload c = flat_map lenEncStr [lit "def"; lit "unknown"; lit "unknown"; lit "unknown"; c; c] ++ (le 1 0x0c ++ le 2 8 ++ le 4 1024 ++ le 1 254 ++ le 2 0 ++ le 1 0 ++ le 2 0)).
  { unfold column_payload. cbn [flat_map]. rewrite app_nil_r, <- !app_assoc. reflexivity. }
  rewrite E. change 6%nat with (List.length [lit "def"; lit "unknown"; lit "unknown"; lit "unknown"; c; c]). rewrite strings_of; [reflexivity|].
  repeat (apply Forall_cons; [reflexivity || exact H|]). apply Forall_nil.
Qed.
Lemma cell_bound row x : In x row -> size row + 2 < 2 ^ 24 -> N.of_nat (List.length x) < 2 ^ 24.
Proof.
  unfold size. induction row as [|y row IH]; intros I H; [destruct I|]. cbn [fold_right] in H. destruct I as [->|I]; [lia|]. apply IH; [exact I|lia].
Qed.
Lemma row_strings row n : List.length row = n -> size row + 2 < 2 ^ 24 -> exists r, strings n (row_payload row) = Some (row, r).
Proof.
  intros <- H. unfold row_payload. eexists. apply strings_of. apply Forall_forall. intros x I. pose proof (cell_bound row x I H). lia.
Qed.
Lemma row_not_eof row : row <> [] -> size row + 2 < 2 ^ 24 -> is_eof (row_payload row) = false.
Proof.
  intros N0 H. destruct row as [|x row]; [congruence|]. unfold row_payload. cbn [flat_map]. unfold lenEncStr at 1.
  destruct (lenEncInt_first (N.of_nat (List.length x))) as (c & r & -> & _ & _ & F). cbn [app is_eof]. replace (bcode c =? 254) with false; [reflexivity|].
  symmetry. apply N.eqb_neq. apply F. apply (cell_bound (x :: row)); [left; reflexivity|exact H].
Qed.
Lemma read_columns_of cols : forall ps eof, Forall (fun c => N.of_nat (List.length c) < 2 ^ 64) cols -> is_eof (payload eof) = true ->
  forall cs, map payload cs = map column_payload cols -> read_columns (List.length cols) (cs ++ eof :: ps) = Some (cols, ps).
Proof.
  induction cols as [|c cols IH]; intros ps eof H E cs M.
  - destruct cs; [|discriminate]. cbn [List.length read_columns app]. rewrite E. reflexivity.
  - destruct cs as [|p cs]; [discriminate|]. cbn [map] in M. injection M as M1 M2. inversion H; subst. cbn [List.length read_columns app]. rewrite M1, column_name_of by assumption.
    rewrite (IH ps eof) by assumption. reflexivity.
Qed.
Lemma read_rows_of n rows : (0 < n)%nat -> forall ps eof, Forall (fun row => List.length row = n) rows -> Forall (fun row => size row + 2 < 2 ^ 24) rows -> is_eof (payload eof) = true ->
  forall rs, map payload rs = map row_payload rows -> read_rows n (rs ++ eof :: ps) = Some (rows, ps).
Proof.
  intros N0. induction rows as [|row rows IH]; intros ps eof H1 H2 E rs M.
  - destruct rs; [|discriminate]. cbn [read_rows app]. rewrite E. reflexivity.
  - destruct rs as [|p rs]; [discriminate|]. cbn [map] in M. injection M as M1 M2. inversion H1; subst. inversion H2; subst. cbn [read_rows app]. rewrite M1, row_not_eof; [|intros ->; cbn in N0; lia|assumption].
    destruct (row_strings row (List.length row) eq_refl) as [r ->]; [assumption|]. rewrite (IH ps eof) by assumption. reflexivity.
Qed.
Lemma packets_app a : forall z b, packets_of z (a ++ b) = packets_of z a ++ packets_of (z + Z.of_nat (List.length a)) b.
Proof.
  induction a as [|p a IH]; intros z b; cbn [app packets_of List.length]; [f_equal; lia|]. rewrite IH. do 2 f_equal. f_equal. lia.
Qed.
Lemma row_length row : N.of_nat (List.length (row_payload row)) <= size row + 1.
Proof.
  unfold row_payload, size. rewrite app_length. cbn [List.length]. induction row as [|x row IH]; cbn [flat_map fold_right List.length]; [lia|].
  rewrite app_length. unfold lenEncStr at 1. rewrite app_length. pose proof (lenEncInt_length (N.of_nat (List.length x))). lia.
Qed.
Lemma column_length c : 2 * N.of_nat (List.length c) + 100 < 2 ^ 24 -> N.of_nat (List.length (column_payload c)) < 16777215.
Proof.
  intros H. unfold column_payload. rewrite !app_length, !le_length. unfold lenEncStr at 5 6. rewrite !app_length. cbn - [N.of_nat N.lt lenEncInt lit].
  change (List.length (lenEncStr (lit "def"))) with 4%nat. change (List.length (lenEncStr (lit "unknown"))) with 8%nat.
  pose proof (lenEncInt_short (N.of_nat (List.length c)) ltac:(lia)). lia.
Qed.
Theorem table_says n cols rows : table cols rows -> fits cols rows -> says (n + 1) (serializeQueryResponse (Z.of_N n) (mkResult cols rows)) (Rows cols rows).
Proof.
  intros [T1 T2] (F1 & F2 & F3). unfold serializeQueryResponse. cbn [headers Result_Model.rows]. apply says_of.
  - apply Forall_app. split; [apply Forall_cons; [pose proof (lenEncInt_length (N.of_nat (List.length cols))); lia|apply Forall_nil]|].
    apply Forall_app. split; [apply Forall_forall; intros x I; apply in_map_iff in I as (c & <- & I); apply column_length; exact (proj1 (Forall_forall _ _) F2 c I)|].
    apply Forall_app. split; [apply Forall_cons; [reflexivity|apply Forall_nil]|]. apply Forall_app. split; [|apply Forall_cons; [reflexivity|apply Forall_nil]].
    apply Forall_forall. intros x I. apply in_map_iff in I as (r & <- & I). pose proof (row_length r). pose proof (proj1 (Forall_forall _ _) F3 r I) as F. cbn beta in F. lia.
  - rewrite !packets_app. cbn [app]. set (z1 := (_ + _)%Z). set (z2 := (_ + _)%Z). set (z3 := (_ + _)%Z). set (z4 := (_ + _)%Z). cbn [packets_of app]. unfold read_reply.
    cbn [payload]. destruct (lenEncInt_first (N.of_nat (List.length cols))) as (c & r & E & X1 & X2 & _).
    pose proof (lenenc_int_of (N.of_nat (List.length cols)) [] F1) as L. rewrite app_nil_r, E in L. rewrite E.
    replace (bcode c =? 0) with false by (symmetry; apply N.eqb_neq; apply X2; destruct cols; [congruence|cbn [List.length]; lia]).
    replace (bcode c =? 255) with false by (symmetry; apply N.eqb_neq; exact X1). rewrite L, Nat2N.id.
    assert (F2' : Forall (fun c => N.of_nat (List.length c) < 2 ^ 64) cols) by (revert F2; apply Forall_impl; intros; lia).
    rewrite (read_columns_of cols _ (mkPacket (Z.to_N ((z2 + 1) mod 256)) eof_payload) F2' eq_refl) by apply payload_packets.
    rewrite (read_rows_of (List.length cols) rows ltac:(destruct cols; [congruence|cbn [List.length]; lia]) [] (mkPacket (Z.to_N ((z4 + 1) mod 256)) eof_payload) T2 F3 eq_refl) by apply payload_packets. reflexivity.
Qed.
Theorem ok_says n : says (n + 1) (serializeOK (Z.of_N n)) Done.
Proof. unfold serializeOK. apply says_of; [apply Forall_cons; [reflexivity|apply Forall_nil]|reflexivity]. Qed.
Theorem error_says n code m : code < 2 ^ 16 -> N.of_nat (List.length m) + 10 < 2 ^ 24 -> (forall m', m <> "#"%char :: m') -> says (n + 1) (serializeERR (Z.of_N n) code m) (Error code m).
Proof.
  intros H1 H2 H3. unfold serializeERR. apply says_of; [apply Forall_cons; [|apply Forall_nil]; cbn [List.length]; rewrite app_length, le_length; lia|].
  cbn [packets_of read_reply payload]. change (bcode "255" =? 0) with false. change (bcode "255" =? 255) with true. cbv iota. unfold err_packet. rewrite (fixed_le 2) by exact H1.
  destruct m as [|c m']; [reflexivity|]. destruct (Ascii.eqb_spec c "#") as [->|_]; [exfalso; exact (H3 m' eq_refl)|reflexivity].
Qed.
