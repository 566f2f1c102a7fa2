(** Properties C56 and C63: retrying, and attributes stored in a database. *)
From Verif Require Import Base BaseFacts UtilsModel UtilsSpec UtilsProofs UtilsProofs2 UtilsProps SqlModel SqlProofs ConfigModel ConfigSpec ConfigProofs.
Local Open Scope Z_scope.

(** ** C56 *)
(** One series of tries: between 1 and n of them, all but the last refused, and the last
    one not refused unless all n tries are used up. *)
Definition tries (n : nat) (call : nat -> Z) (rc : Z) (k : nat) : Prop :=
  (0 < k <= n)%nat /\ rc = call (k - 1)%nat /\
  (forall i, (i < k - 1)%nat -> call i = 5 \/ call i = 6) /\
  (k = n \/ (rc <> 5 /\ rc <> 6)).
Lemma retry_tries n call : (0 < n)%nat -> tries n call (fst (retry_loop n call 0 SQLITE_BUSY)) (snd (retry_loop n call 0 SQLITE_BUSY)).
Proof.
  intros N. destruct (retry_spec n call 0 SQLITE_BUSY) as (k & K1 & K2 & K3 & K4). rewrite K2. cbn [fst snd]. rewrite Nat.add_0_l.
  assert (P : (0 < k)%nat) by lia. destruct k as [|k]; [lia|]. unfold tries. cbn [Nat.sub] in *. rewrite Nat.sub_0_r in *. cbn [Nat.add] in *.
  split; [lia|]. split; [reflexivity|]. split; [exact K3|]. destruct K4 as [K4|(_ & K5 & K6)]; [left; exact K4|right; split; assumption].
Qed.
Theorem C56_run_query n call : (0 < n)%nat -> tries n call (fst (sqlite3_run_query n call)) (snd (sqlite3_run_query n call)).
Proof. exact (retry_tries n call). Qed.
Print Assumptions C56_run_query.
Theorem C56_prepare n call : (0 < n)%nat -> exists rc k, sqlite3_prepare_statement n call = Ok (rc, k) /\ tries n call rc k.
Proof.
  intros N. pose proof (retry_tries n call N) as T. unfold sqlite3_prepare_statement. destruct (retry_loop n call 0 SQLITE_BUSY) as [rc k].
  exists rc, k. split; [|exact T]. destruct n; [lia|]. destruct (rc =? 0); reflexivity.
Qed.
Print Assumptions C56_prepare.
(** Defect: with no try allowed an uninitialised statement is finalised. *)
Theorem C56_no_tries_refuted call : sqlite3_prepare_statement 0 call = UB.
Proof. reflexivity. Qed.
Print Assumptions C56_no_tries_refuted.
(** sqlite_command: true exactly if the statement was prepared and ran to OK, ROW or DONE. *)
Theorem C56_command n prepare step : (0 < n)%nat -> exists b code p kp s ks,
  sqlite_command n prepare step = Ok (b, code) /\ tries n prepare p kp /\ tries n step s ks /\
  (b = true <-> p = 0 /\ (s = 0 \/ s = 100 \/ s = 101)) /\
  code = (if Z.eq_dec p 0 then s else -2).
Proof.
  intros N. destruct (C56_prepare n prepare N) as (p & kp & E & T). pose proof (C56_run_query n step N) as T2.
  unfold sqlite_command. rewrite E. cbn [bind]. destruct (sqlite3_run_query n step) as [s ks]. cbn [fst snd] in T2.
  destruct (p =? 0) eqn:P.
  - exists ((s =? SQLITE_DONE) || (s =? SQLITE_OK) || (s =? SQLITE_ROW)), s, p, kp, s, ks. split; [reflexivity|]. split; [exact T|]. split; [exact T2|].
    split; [unfold SQLITE_DONE, SQLITE_OK, SQLITE_ROW; lia|]. destruct (Z.eq_dec p 0); [reflexivity|lia].
  - exists false, (-2), p, kp, s, ks. split; [reflexivity|]. split; [exact T|]. split; [exact T2|]. split; [lia|]. destruct (Z.eq_dec p 0); [lia|reflexivity].
Qed.
Print Assumptions C56_command.
(** sqlQuery: rows are reported exactly while the database yields rows; afterwards the
    statement is never stepped again. *)
Fixpoint step_all (n : nat) (step : nat -> Z) (q : query) : list bool * query :=
  match n with
  | O => ([], q)
  | S n => let (b, q) := sqlStep step q in let (bs, q) := step_all n step q in (b :: bs, q)
  end.
Theorem C56_query_stops n step q : mQueryRC q <> 100 -> step_all n step q = (repeat false n, q).
Proof.
  intros H. induction n as [|n IH]; [reflexivity|]. cbn [step_all repeat]. unfold sqlStep, SQLITE_ROW. replace (mQueryRC q =? 100) with false by lia.
  rewrite IH. replace (mQueryRC q =? 100) with false by lia. reflexivity.
Qed.
Print Assumptions C56_query_stops.
Theorem C56_query_step step q : mQueryRC q = 100 ->
  exists k, (0 < k <= 5)%nat /\ steps (snd (sqlStep step q)) = (steps q + k)%nat /\
    mQueryRC (snd (sqlStep step q)) = step (steps q + (k - 1))%nat /\ (fst (sqlStep step q) = true <-> step (steps q + (k - 1))%nat = 100).
Proof.
  intros H. unfold sqlStep, SQLITE_ROW. replace (mQueryRC q =? 100) with true by lia.
  pose proof (C56_run_query 5 (fun i => step (steps q + i)%nat) ltac:(lia)) as (T1 & T2 & _). destruct (sqlite3_run_query 5 (fun i => step (steps q + i)%nat)) as [rc k].
  cbn [fst snd steps mQueryRC] in *. exists k. split; [exact T1|]. split; [reflexivity|]. split; [exact T2|]. subst rc. lia.
Qed.
Print Assumptions C56_query_step.
Theorem C56_query_start prepare step : exists q p kp, queryStart prepare step = Ok q /\ tries 5 prepare p kp /\
  (p <> 0 -> steps q = O /\ sqlSuccess q = false /\ mQueryRC q <> 100) /\
  (p = 0 -> tries 5 step (mQueryRC q) (steps q) /\ (sqlSuccess q = true <-> mQueryRC q = 100)).
Proof.
  destruct (C56_prepare 5 prepare ltac:(lia)) as (p & kp & E & T). unfold queryStart. rewrite E. cbn [bind].
  pose proof (C56_run_query 5 step ltac:(lia)) as T2. destruct (sqlite3_run_query 5 step) as [s ks]. destruct (p =? 0) eqn:P.
  - exists (Query true s ks), p, kp. split; [reflexivity|]. split; [exact T|]. split; [lia|]. intros _. split; [exact T2|]. unfold sqlSuccess, SQLITE_ROW. cbn [mStmt mQueryRC]. lia.
  - exists (Query false SQLITE_ERROR 0), p, kp. split; [reflexivity|]. split; [exact T|]. split; [intros _; repeat split; cbn [mQueryRC]; unfold SQLITE_ERROR; lia|lia].
Qed.
Print Assumptions C56_query_start.
Example C56_example :
  sqlite_command 5 (fun i => nth i [5; 6; 0] 0) (fun i => nth i [5; 101] 0) = Ok (true, 101) /\
  sqlite_command 2 (fun i => nth i [5; 6; 0] 0) (fun i => 101) = Ok (false, -2) /\
  sqlite3_run_query 3 (fun _ => 5) = (5, 3%nat).
Proof. repeat split. Qed.

(** ** C63: attributes *)
Definition attr_prefix : list Z := lit "REPLACE INTO ATTR_TABLE (ATTR_NAME,ATTR_VALUE) VALUES('".
(** The statement fits its buffer of 100 characters. *)
Definition fits_buffer (name value : list Z) : Prop := (length name + length value <= 39)%nat.

Lemma attr_lex_full name value : ~ In 39 name -> ~ In 39 value ->
  lex_ (LSq []) (name ++ lit "','" ++ value ++ lit "')") = Some [Sq name; Punct 44; Sq value; Punct 41].
Proof.
  intros N V. rewrite lex_sq by exact N. change (lit "','" ++ value ++ lit "')") with (39 :: 44 :: (39 :: value ++ [39; 41])).
  rewrite lex_sq_end by lia. rewrite (lex_cons LStart 44 _ [Punct 44] LStart eq_refl), (lex_cons LStart 39 _ [] (LSq []) eq_refl).
  rewrite lex_sq by exact V. rewrite lex_sq_end by lia. reflexivity.
Qed.
Lemma attr_set_sql name value r : sq_plain name -> sq_plain value ->
  sql attr_table (attr_prefix ++ name ++ lit "','" ++ value ++ lit "')") r = Some ([], replace_row r name (Some value)).
Proof.
  intros [N1 N2] [V1 V2]. unfold sql. rewrite c_str_id by (unfold attr_prefix; nonul).
  erewrite lex_prefix by (vm_compute; reflexivity). rewrite attr_lex_full by assumption. reflexivity.
Qed.
(** A statement that is cut anywhere before its end is refused. *)
Lemma attr_set_cut name value r m : sq_plain name -> sq_plain value -> (m < length name + length value + 5)%nat ->
  sql attr_table (attr_prefix ++ firstn m (name ++ lit "','" ++ value ++ lit "')")) r = None.
Proof.
  intros [N1 N2] [V1 V2] L. unfold sql.
  assert (NN : no_nul (name ++ lit "','" ++ value ++ lit "')")) by nonul.
  rewrite c_str_id by (apply no_nul_app; [apply no_nul_lit; reflexivity|apply no_nul_firstn; exact NN]).
  erewrite lex_prefix by (vm_compute; reflexivity). clear NN.
  destruct (Nat.leb_spec m (length name)) as [L1|L1].
  { rewrite firstn_app. replace (m - length name)%nat with O by lia. cbn [firstn]. rewrite app_nil_r.
    rewrite lex_sq_open; [reflexivity|]. intros K. apply N1. rewrite <- (firstn_skipn m name). apply in_app_iff. left. exact K. }
  rewrite firstn_app, firstn_all2 by lia. rewrite lex_sq by exact N1.
  change (lit "','" ++ value ++ lit "')") with (39 :: 44 :: 39 :: (value ++ [39; 41])).
  destruct (m - length name)%nat as [|[|[|m']]] eqn:E; [lia| | |]; cbn [firstn].
  - rewrite lex_sq_last. reflexivity.
  - rewrite lex_sq_end by lia. reflexivity.
  - rewrite lex_sq_end by lia. rewrite (lex_cons LStart 44 _ [Punct 44] LStart eq_refl), (lex_cons LStart 39 _ [] (LSq []) eq_refl).
    destruct (Nat.leb_spec m' (length value)) as [L2|L2].
    + rewrite firstn_app. replace (m' - length value)%nat with O by lia. cbn [firstn]. rewrite app_nil_r.
      rewrite lex_sq_open; [reflexivity|]. intros K. apply V1. rewrite <- (firstn_skipn m' value). apply in_app_iff. left. exact K.
    + rewrite firstn_app, firstn_all2 by lia. replace (m' - length value)%nat with 1%nat by lia. cbn [firstn].
      rewrite lex_sq by exact V1. rewrite lex_sq_last. reflexivity.
Qed.
Lemma get_attr_stored name r : sq_plain name -> (length name <= 78)%nat ->
  get_attr true r name = match stored r name with Some (Some v) => v | _ => [] end.
Proof.
  intros [N1 N2] L. unfold get_attr, lookup_string, condition_c.
  change (kcol attr_table) with (lit "ATTR_NAME"). change (vcol attr_table) with (lit "ATTR_VALUE"). change (tname attr_table) with (lit "ATTR_TABLE").
  rewrite (c_str_id name N2), (c_str_id (lit "ATTR_NAME")) by (apply no_nul_lit; reflexivity).
  rewrite buf_text by nonul. set (cond := lit "WHERE " ++ lit "ATTR_NAME" ++ lit " == '" ++ name ++ lit "'").
  assert (LC : length cond = (21 + length name)%nat) by (unfold cond; rewrite !app_length; cbn [length lit]; change (length (lit "WHERE ")) with 6%nat; change (length (lit "ATTR_NAME")) with 9%nat; change (length (lit " == '")) with 5%nat; change (length (lit "'")) with 1%nat; lia).
  rewrite firstn_all2 by (rewrite LC; lia).
  assert (NC : no_nul (lit "SELECT " ++ lit "ATTR_VALUE" ++ lit " FROM " ++ lit "ATTR_TABLE" ++ lit " " ++ cond)) by (unfold cond; nonul).
  assert (FM : format (lit "SELECT " ++ lit "ATTR_VALUE" ++ lit " FROM " ++ lit "ATTR_TABLE" ++ lit " " ++ cond) = lit "SELECT ATTR_VALUE FROM ATTR_TABLE WHERE ATTR_NAME == '" ++ name ++ lit "'").
  { assert (LT : length (lit "SELECT " ++ lit "ATTR_VALUE" ++ lit " FROM " ++ lit "ATTR_TABLE" ++ lit " " ++ cond) = (34 + length cond)%nat) by reflexivity.
    unfold format. rewrite LT, LC. replace (Z.of_nat (34 + (21 + length name)) <=? 199) with true by lia.
    rewrite buf_text by exact NC. rewrite firstn_all2 by (rewrite LT, LC; lia). reflexivity. }
  rewrite FM. unfold sql. rewrite c_str_id by nonul.
  erewrite lex_prefix by (vm_compute; reflexivity). rewrite lex_sq by exact N1. change (lit "'") with [39]. rewrite lex_sq_last.
  match goal with |- context [parse ?t] => change (parse t) with (Some (SSelect (lit "ATTR_VALUE") (lit "ATTR_TABLE") [(VWord (lit "ATTR_NAME"), VStr name)])) end.
  destruct (match_one attr_table (VStr name) name ltac:(discriminate) eq_refl (fun _ => eq_refl) r) as (yes & M & St).
  unfold exec. rewrite !weqb_refl. change (lit "ATTR_NAME") with (kcol attr_table). cbn [andb]. rewrite M, St. destruct yes as [|[x [v|]] yes]; reflexivity.
Qed.
Lemma attr_text name value : no_nul name -> no_nul value ->
  c_str (vsnprintf_buf 100 (attr_prefix ++ c_str name ++ lit "','" ++ c_str value ++ lit "')")) =
  attr_prefix ++ firstn 44 (name ++ lit "','" ++ value ++ lit "')").
Proof.
  intros N V. rewrite (c_str_id name N), (c_str_id value V). rewrite buf_text by (unfold attr_prefix; nonul). rewrite firstn_app.
  replace (firstn (100 - 1) attr_prefix) with attr_prefix by (vm_compute; reflexivity).
  replace (100 - 1 - length attr_prefix)%nat with 44%nat by (vm_compute; reflexivity). reflexivity.
Qed.

(** An attribute whose text fits is stored verbatim and can be read back; other
    attributes stay.  One that does not fit is refused and nothing changes. *)
Theorem C63_set_get name value r : quote_free 39 name -> quote_free 39 value -> fits_buffer name value ->
  exists r', set_attr true r name value = (true, r') /\ get_attr true r' name = value /\
    forall other, quote_free 39 other -> (length other <= 78)%nat -> other <> name -> get_attr true r' other = get_attr true r other.
Proof.
  intros N V F. unfold fits_buffer in F. exists (replace_row r name (Some value)). unfold set_attr. fold attr_prefix.
  rewrite attr_text by (apply N || apply V). rewrite firstn_all2.
  2:{ rewrite !app_length. change (length (lit "','")) with 3%nat. change (length (lit "')")) with 2%nat. lia. }
  unfold command. rewrite attr_set_sql by assumption. split; [reflexivity|]. split.
  - rewrite get_attr_stored by (assumption || lia). rewrite stored_replace, weqb_refl. reflexivity.
  - intros other O LO D. rewrite !get_attr_stored by (assumption || lia). rewrite stored_replace, weqb_neq by congruence. reflexivity.
Qed.
Print Assumptions C63_set_get.
Theorem C63_too_long name value r : quote_free 39 name -> quote_free 39 value -> ~ fits_buffer name value ->
  set_attr true r name value = (false, r).
Proof.
  intros N V F. unfold fits_buffer in F. unfold set_attr. fold attr_prefix. rewrite attr_text by (apply N || apply V).
  unfold command. rewrite attr_set_cut by (assumption || lia). reflexivity.
Qed.
Print Assumptions C63_too_long.
(** Missing attributes, and a database that fails, give the empty string. *)
Theorem C63_missing name r up : quote_free 39 name -> (length name <= 78)%nat -> (forall v, ~ In (name, v) r) -> get_attr up r name = [].
Proof.
  intros N L H. destruct up; [|reflexivity]. rewrite get_attr_stored by assumption.
  destruct (stored r name) as [v|] eqn:E; [|reflexivity]. exfalso.
  assert (I : In (name, v) r); [|exact (H v I)]. clear H. induction r as [|[x u] r IH]; [discriminate|]. cbn [stored] in E. destruct (weqb x name) eqn:W.
  - apply weqb_iff in W. left. congruence.
  - right. apply IH. exact E.
Qed.
Print Assumptions C63_missing.
(** Defects: a stored attribute with a longer name cannot be found; an apostrophe in a
    value writes other attributes. *)
Theorem C63_long_name_refuted name value r : quote_free 39 name -> (78 < length name)%nat -> get_attr true ((name, Some value) :: r) name = [].
Proof.
  intros [N1 N2] L. unfold get_attr, lookup_string, condition_c.
  change (kcol attr_table) with (lit "ATTR_NAME"). change (vcol attr_table) with (lit "ATTR_VALUE"). change (tname attr_table) with (lit "ATTR_TABLE").
  rewrite (c_str_id name N2), (c_str_id (lit "ATTR_NAME")) by (apply no_nul_lit; reflexivity).
  rewrite buf_text by nonul. rewrite !app_assoc. rewrite <- (app_assoc _ name). rewrite firstn_app.
  change (length ((lit "WHERE " ++ lit "ATTR_NAME") ++ lit " == '")) with 20%nat. cbn [Nat.sub].
  rewrite (firstn_all2 (n := 99) ((lit "WHERE " ++ lit "ATTR_NAME") ++ lit " == '")) by (cbn [length]; vm_compute; lia).
  rewrite firstn_app. replace (79 - length name)%nat with O by lia. cbn [firstn]. rewrite app_nil_r.
  set (cut := firstn 79 name). assert (C1 : ~ In 39 cut) by (intros K; apply N1; rewrite <- (firstn_skipn 79 name); apply in_app_iff; left; exact K).
  assert (C2 : no_nul cut) by (intros K; apply N2; rewrite <- (firstn_skipn 79 name); apply in_app_iff; left; exact K).
  assert (LC : length cut = 79%nat) by (unfold cut; rewrite firstn_length; lia).
  match goal with |- context [format ?t] => assert (FM : format t = lit "SELECT ATTR_VALUE FROM ATTR_TABLE WHERE ATTR_NAME == '" ++ cut) end.
  { match goal with |- format ?t = _ => set (text := t) end. assert (TX : text = lit "SELECT ATTR_VALUE FROM ATTR_TABLE WHERE ATTR_NAME == '" ++ cut) by reflexivity.
    assert (NT : no_nul text) by (rewrite TX; nonul). assert (LT : length text = 133%nat) by (rewrite TX, app_length, LC; reflexivity).
    unfold format. rewrite LT. change (Z.of_nat 133 <=? 199) with true. cbv iota. rewrite buf_text by exact NT. rewrite firstn_all2 by (rewrite LT; lia). exact TX. }
  rewrite FM. unfold sql. rewrite c_str_id by nonul. erewrite lex_prefix by (vm_compute; reflexivity). rewrite lex_sq_open by exact C1. reflexivity.
Qed.
Print Assumptions C63_long_name_refuted.
Theorem C63_injection_refuted : exists v,
  set_attr true [(lit "b", Some (lit "1"))] (lit "a") v = (true, [(lit "a", Some (lit "x")); (lit "b", Some (lit "2"))]).
Proof. exists (lit "x'),('b','2"). vm_compute. reflexivity. Qed.
Print Assumptions C63_injection_refuted.
Example C63_example :
  let r := snd (set_attr true [(lit "b", Some (lit "1"))] (lit "a") (lit "say ""hi"";")) in
  get_attr true r (lit "a") = lit "say ""hi"";" /\ get_attr true r (lit "b") = lit "1" /\
  fst (set_attr true r (lit "0123456789") (lit "01234567890123456789012345678")) = true /\
  fst (set_attr true r (lit "0123456789") (lit "012345678901234567890123456789")) = false.
Proof. repeat split; vm_compute; reflexivity. Qed.
