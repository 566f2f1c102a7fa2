(** Proofs for LogStmtModel.v. *)
From Verif Require Import Base BaseFacts UtilsModel UtilsSpec UtilsProofs SqlModel SqlProofs KvModel.
From Verif Require LoggerModel LoggerSpec LoggerProps.
From Verif Require Import ConfigModel ConfigSpec ConfigProofs LogStmtModel LogStmtSpec.
Local Open Scope Z_scope.

(** ** The calls without fuel *)
Definition missed (E : env) (s : st) (key : list Z) : option (list Z) * st :=
  let value := match snd (single_lookup config_table (up E (stmts s)) (db s) key) with Some v => Some v | None => option_map fst (mSchema E key) end in
  let t := if refused E s (select_cmd key) then say (stated s (db s)) 3 DbError else stated s (db s) in
  (value, with_cache t (cset (mCache t) key value)).
Definition look (E : env) (s : st) (key : list Z) : option (list Z) * st :=
  match cfind (mCache (aged E s)) key with Some v => (v, aged E s) | None => missed E (aged E s) key end.
Lemma record_low k E s level x : 2 < level -> record_ (S k) E s level x = Ok (say s level x).
Proof. intros H. cbn [record_]. replace (level <=? 2) with false by lia. reflexivity. Qed.
Lemma lookup_look k E s key : lookup_ (S (S k)) E s key = Ok (look E s key).
Proof.
  change (lookup_ (S (S k)) E s key) with (let s := aged E s in
      match cfind (mCache s) key with
      | Some v => Ok (v, s)
      | None =>
          let value := match snd (single_lookup config_table (up E (stmts s)) (db s) key) with Some v => Some v | None => option_map fst (mSchema E key) end in
          do s <- (if refused E s (select_cmd key) then record_ (S k) E (stated s (db s)) 3 DbError else Ok (stated s (db s)));
          Ok (value, with_cache s (cset (mCache s) key value))
      end).
  unfold look, missed. cbv zeta. destruct (cfind (mCache (aged E s)) key) as [v|]; [reflexivity|]. rewrite record_low by lia. destruct (refused E (aged E s) (select_cmd key)); reflexivity.
Qed.
Definition alarm (E : env) (s : st) (level : Z) (x : note) : option st :=
  let (v, s) := look E (with_alarms s (alarms s ++ [x])) (lit "Log.Alarms.Max") in
  match v with Some v => Some (say (with_alarms s (trim (alarms s) (u32 (number v)))) level x) | None => None end.
Definition recorded (E : env) (s : st) (level : Z) (x : note) : option st := if (level <=? 2) && inited E then alarm E s level x else Some (say s level x).
Lemma record_recorded k E s level x : record_ (S (S (S k))) E s level x = match recorded E s level x with Some s => Ok s | None => Abort end.
Proof.
  change (record_ (S (S (S k))) E s level x) with (do s <- (if (level <=? 2) && inited E then
                 do (v, s) <- lookup_ (S (S k)) E (with_alarms s (alarms s ++ [x])) (lit "Log.Alarms.Max");
                 match v with Some v => Ok (with_alarms s (trim (alarms s) (u32 (number v)))) | None => Abort end
               else Ok s); Ok (say s level x)).
  unfold recorded, alarm. destruct ((level <=? 2) && inited E); [|reflexivity]. rewrite lookup_look. cbn [bind]. destruct (look E _ _) as [[v|] t]; reflexivity.
Qed.
Definition wrote (E : env) (s : st) (key value : list Z) : st :=
  let cmd := set_cmd (mSchema E) key value in
  let (success, r) := command config_table (up E (stmts s)) (db s) cmd in
  let t := if refused E s cmd then say (stated s r) 3 DbError else stated s r in
  if success then with_cache t (cset (mCache t) key (Some value)) else t.
Lemma set_wrote k E s key value : set (S k) E s key value = Ok (wrote E s key value).
Proof. unfold set, wrote. destruct (command _ _ _ _) as [success r]. rewrite record_low by lia. destruct (refused E s _); cbn [bind]; destruct success; reflexivity. Qed.
(** The depth does not matter. *)
Definition got (E : env) (s : st) (key : list Z) : option (list Z) * st :=
  match look E s key with (Some v, t) => (Some v, t) | (None, t) => (None, say t 7 (Missing key)) end.
Lemma getStr_got k E s key : getStr (S (S k)) E s key = Ok (got E s key).
Proof. unfold getStr, got. rewrite lookup_look. cbn [bind]. destruct (look E s key) as [[v|] t]; reflexivity. Qed.
Lemma level2_fuel k E s key v : lookupLevel2 (S (S (S k))) E s key v = lookupLevel2 3 E s key v.
Proof.
  unfold lookupLevel2. destruct (_ =? -1); [|reflexivity]. rewrite (record_recorded k), (record_recorded 0). destruct (recorded E s 2 _) as [t|]; [|reflexivity]. cbn [bind]. rewrite !set_wrote. reflexivity.
Qed.
Lemma level_fuel k E s key : lookupLevel (S (S (S k))) E s key = lookupLevel 3 E s key.
Proof. unfold lookupLevel. rewrite (getStr_got (S k)), (getStr_got 1). cbn [bind]. destruct (got E s key) as [[v|] t]; [|reflexivity]. rewrite level2_fuel. reflexivity. Qed.
Lemma log_fuel k E nd s f level : log (S (S (S k))) E nd s f level = log 3 E nd s f level.
Proof.
  unfold log. destruct (nd && _); [reflexivity|].
  assert (G : gGetLoggingLevel (S (S (S k))) E s f = gGetLoggingLevel 3 E s f).
  { unfold gGetLoggingLevel. set (s1 := with_levels _ _ (_ + 1)). destruct (LoggerModel.cfind _ _); [reflexivity|].
    enough (Q : getLoggingLevel (S (S (S k))) E s1 f = getLoggingLevel 3 E s1 f) by (rewrite Q; reflexivity).
    unfold getLoggingLevel. rewrite (lookup_look (S k)), (lookup_look 1). cbn [bind]. destruct (look E s1 _) as [[v|] t]; [|apply level_fuel].
    rewrite (getStr_got (S k)), (getStr_got 1). cbn [bind]. destruct (got E t _) as [[[|c w]|] t2]; [apply level_fuel| |reflexivity]. rewrite level2_fuel. reflexivity. }
  rewrite G. destruct (gGetLoggingLevel 3 E s f) as [[[l|] t]| | |]; cbn [bind]; reflexivity.
Qed.

(** ** Failures and records *)
Lemma failures_none E a : failures E a a = 0%nat.
Proof. unfold failures. rewrite Nat.sub_diag. reflexivity. Qed.
Lemma failures_one E a : failures E a (S a) = if up E a then 0%nat else 1%nat.
Proof. unfold failures. replace (S a - a)%nat with 1%nat by lia. cbn [seq filter]. destruct (up E a); reflexivity. Qed.
Lemma failures_add E a b c : (a <= b <= c)%nat -> failures E a c = (failures E a b + failures E b c)%nat.
Proof. intros H. unfold failures. replace (c - a)%nat with ((b - a) + (c - b))%nat by lia. rewrite seq_app, filter_app, app_length. replace (a + (b - a))%nat with b by lia. reflexivity. Qed.
Definition isdb (x : Z * note) : bool := match snd x with DbError => true | _ => false end.
Notation dbs := only_db_errors (only parsing).
(** [l] was reported on the way from [s] to [t], with at most [n] statements. *)
Definition eff (E : env) (s t : st) (l : list (Z * note)) (n : nat) : Prop :=
  out t = out s ++ l /\ (stmts s <= stmts t <= stmts s + n)%nat /\ length (filter isdb l) = failures E (stmts s) (stmts t).
Lemma eff_same E s t : out t = out s -> stmts t = stmts s -> eff E s t [] 0.
Proof. intros O N. split; [rewrite app_nil_r; exact O|]. rewrite N, failures_none. split; [lia|reflexivity]. Qed.
Lemma eff_say E s level x : isdb (level, x) = false -> eff E s (say s level x) [(level, x)] 0.
Proof. intros D. split; [reflexivity|]. cbn [say stmts filter]. rewrite D, failures_none. split; [lia|reflexivity]. Qed.
Lemma eff_trans E a b c l1 l2 n1 n2 : eff E a b l1 n1 -> eff E b c l2 n2 -> eff E a c (l1 ++ l2) (n1 + n2).
Proof.
  intros (O1 & N1 & F1) (O2 & N2 & F2). split; [rewrite O2, O1, app_assoc; reflexivity|]. split; [lia|]. rewrite filter_app, app_length, F1, F2. symmetry. apply failures_add. lia.
Qed.
Lemma eff_more E a b l n m : eff E a b l n -> (n <= m)%nat -> eff E a b l m.
Proof. intros (O & N & F) H. split; [exact O|]. split; [lia|exact F]. Qed.
(** Keys and texts that cannot be confused with SQL. *)
Lemma select_ok k r : plain_key k -> sql config_table (select_cmd k) r <> None.
Proof.
  intros [[K1 K2] (N1 & N2 & N3)]. unfold select_cmd, sql. rewrite (c_str_id k) by exact K2. rewrite c_str_id by nonul.
  erewrite lex_prefix by (vm_compute; reflexivity). rewrite lex_dq by exact K1. change (lit """") with [34]. rewrite lex_dq_last.
  match goal with |- context [parse ?t] => change (parse t) with (Some (SSelect (lit "VALUESTRING") (lit "CONFIG") [(VWord (lit "KEYSTRING"), VName k)])) end.
  assert (Y : forall row, in_row config_table row (VName k) = Some (Some k)).
  { intros row. unfold in_row. rewrite (weqb_neq _ _ N1), (weqb_neq _ _ N2), N3. reflexivity. }
  destruct (match_one config_table (VName k) k ltac:(discriminate) eq_refl Y r) as (yes & M & St).
  cbv iota beta. unfold exec. rewrite !weqb_refl. change (lit "KEYSTRING") with (kcol config_table).
  cbn [andb]. rewrite M. discriminate.
Qed.
Lemma refused_select E s k : plain_key k -> refused E s (select_cmd k) = negb (up E (stmts s)).
Proof. intros P. unfold refused. destruct (sql config_table (select_cmd k) (db s)) eqn:Q; [apply Bool.orb_false_r|]. contradiction (select_ok k (db s) P Q). Qed.
Definition plain_text (E : env) (k v : list Z) : Prop := quote_free 34 k /\ quote_free 34 v /\ forall d t, mSchema E k = Some (d, t) -> quote_free 39 t.
Lemma refused_set E s k v : plain_text E k v -> refused E s (set_cmd (mSchema E) k v) = negb (up E (stmts s)).
Proof. intros (K & V & D). unfold refused. rewrite (sql_set (mSchema E) k v (db s) K V D). apply Bool.orb_false_r. Qed.

(** ** What the calls leave *)
(** Keys known to be undefined have no default; keys with a value have one. *)
Definition inv (E : env) (s : st) : Prop :=
  (forall k, plain_key k -> cfind (mCache s) k = Some None -> mSchema E k = None) /\
  (forall k v, plain_key k -> cfind (mCache s) k = Some (Some v) -> prescribed (mSchema E) (db s) k <> None).
Lemma aged_cache E s k v : cfind (mCache (aged E s)) k = Some v -> cfind (mCache s) k = Some v.
Proof. unfold aged, checkCacheAge. destruct (_ <? 3); cbn [mCache]; [intros H; exact H|discriminate]. Qed.
Lemma aged_eq E s : db (aged E s) = db s /\ sLogCache (aged E s) = sLogCache s /\ sCacheCount (aged E s) = sCacheCount s /\ alarms (aged E s) = alarms s /\ out (aged E s) = out s /\ stmts (aged E s) = stmts s /\ times (aged E s) = S (times s).
Proof. unfold aged. destruct (checkCacheAge _ _ _) as [l c]. repeat split. Qed.
Lemma aged_inv E s : inv E s -> inv E (aged E s).
Proof.
  intros [A B]. split.
  - intros k P H. exact (A k P (aged_cache _ _ _ _ H)).
  - intros k v P H. rewrite (proj1 (aged_eq E s)). exact (B k v P (aged_cache _ _ _ _ H)).
Qed.
(** Everything but the cache, the clock and the reports. *)
Definition same (s t : st) : Prop := db t = db s /\ sLogCache t = sLogCache s /\ sCacheCount t = sCacheCount s.
Lemma look_post E s key v t : plain_key key -> inv E s -> look E s key = (v, t) ->
  exists l, dbs l /\ eff E s t l 1 /\ inv E t /\ same s t /\ alarms t = alarms s /\ times t = S (times s) /\ (v = None -> mSchema E key = None) /\ (v <> None -> prescribed (mSchema E) (db s) key <> None) /\
    cfind (mCache t) key = Some v /\ (forall j w, cfind (mCache t) j = Some w -> (j = key /\ w = v) \/ cfind (mCache (aged E s)) j = Some w) /\
    ((cfind (mCache (aged E s)) key = Some v /\ stmts t = stmts s /\ l = []) \/ (cfind (mCache (aged E s)) key = None /\ stmts t = S (stmts s) /\ l = (if up E (stmts s) then [] else [(3, DbError)]) /\ v = if up E (stmts s) then prescribed (mSchema E) (db s) key else option_map fst (mSchema E key))).
Proof.
  intros P I H. destruct (aged_eq E s) as (D & LC & CC & AL & OU & ST & TI). pose proof (aged_inv E s I) as [I1 I2]. unfold look in H. destruct (cfind (mCache (aged E s)) key) as [w|] eqn:C.
  - injection H as <- <-. exists []. split; [constructor|]. split; [apply eff_more with 0%nat; [apply eff_same; assumption|lia]|]. split; [split; assumption|]. split; [repeat split; assumption|].
    split; [exact AL|]. split; [exact TI|]. split; [intros ->; exact (I1 key P C)|]. split; [intros N; destruct w as [w|]; [rewrite <- D; exact (I2 key w P C)|contradiction]|]. split; [exact C|]. split; [intros j x J; right; exact J|]. left. repeat split; assumption.
  - set (value := match snd (single_lookup config_table (up E (stmts (aged E s))) (db (aged E s)) key) with Some v => Some v | None => option_map fst (mSchema E key) end) in *.
    assert (V : value = if up E (stmts s) then prescribed (mSchema E) (db s) key else option_map fst (mSchema E key)).
    { unfold value. rewrite ST, D. destruct (up E (stmts s)); [|reflexivity]. rewrite <- (miss_prescribed (mSchema E) (db s) key P). destruct (snd (single_lookup config_table true (db s) key)); [reflexivity|]. destruct (mSchema E key) as [[d x]|]; reflexivity. }
    unfold missed in H. fold value in H. rewrite (refused_select E (aged E s) key P), ST in H.
    assert (VN : value = None -> mSchema E key = None).
    { rewrite V. destruct (up E (stmts s)); [|destruct (mSchema E key); [discriminate|reflexivity]]. unfold prescribed. destruct (stored (db s) key) as [[x|]|]; [discriminate| |]; destruct (mSchema E key); try discriminate; reflexivity. }
    assert (VS : value <> None -> prescribed (mSchema E) (db s) key <> None).
    { rewrite V. destruct (up E (stmts s)); [intros N; exact N|]. unfold prescribed. destruct (stored (db s) key) as [[x|]|]; [discriminate| |]; intros N; exact N. }
    set (t0 := if negb (up E (stmts s)) then say (stated (aged E s) (db (aged E s))) 3 DbError else stated (aged E s) (db (aged E s))) in *.
    injection H as <- <-. exists (if up E (stmts s) then [] else [(3, DbError)]).
    assert (T0 : mCache t0 = mCache (aged E s) /\ same (aged E s) t0 /\ alarms t0 = alarms s /\ times t0 = S (times s) /\ stmts t0 = S (stmts s)).
    { unfold t0. destruct (up E (stmts s)); cbn [negb say stated mCache alarms times stmts]; (split; [reflexivity|]); (split; [repeat split|]); repeat split; congruence. }
    destruct T0 as (T1 & (T2 & T3 & T4) & T5 & T6 & T7).
    assert (T8 : out t0 = out s ++ if up E (stmts s) then [] else [(3, DbError)]).
    { unfold t0. destruct (up E (stmts s)); cbn [negb say stated out]; rewrite OU; [rewrite app_nil_r; reflexivity|reflexivity]. }
    assert (CF : forall j, cfind (cset (mCache t0) key value) j = if weqb key j then Some value else cfind (mCache (aged E s)) j) by (intros j; rewrite cfind_cset, T1; reflexivity).
    split; [destruct (up E (stmts s)); repeat constructor|]. split.
    { split; [exact T8|]. cbn [with_cache stmts]. rewrite T7. split; [lia|]. rewrite failures_one. destruct (up E (stmts s)); reflexivity. }
    split; [split|].
    { cbn [with_cache mCache]. intros k PK. rewrite CF. destruct (weqb key k) eqn:W; [|apply I1, PK]. apply weqb_iff in W. subst k. intros K. injection K as K. exact (VN K). }
    { cbn [with_cache mCache db]. rewrite T2, D. intros k x PK. rewrite CF. destruct (weqb key k) eqn:W; [|rewrite <- D; apply I2, PK]. apply weqb_iff in W. subst k. intros K. injection K as K. apply VS. rewrite K. discriminate. }
    split; [unfold same; cbn [with_cache db sLogCache sCacheCount]; repeat split; congruence|]. split; [exact T5|]. split; [exact T6|]. split; [exact VN|]. split; [exact VS|].
    cbn [with_cache mCache stmts]. split; [rewrite CF, weqb_refl; reflexivity|]. split.
    { intros j x. rewrite CF. destruct (weqb key j) eqn:W; [apply weqb_iff in W; intros K; injection K as <-; left; split; [symmetry; exact W|reflexivity]|intros K; right; exact K]. }
    right. split; [reflexivity|]. split; [exact T7|]. split; [reflexivity|exact V].
Qed.

(** *** Steps *)
Definition fresh (E : env) (s : st) : Prop := forall k v, plain_key k -> cfind (mCache s) k = Some v -> v = prescribed (mSchema E) (db s) k.
Lemma fresh_inv E s : fresh E s -> inv E s.
Proof.
  intros F. split.
  - intros k P C. pose proof (F k None P C) as H. unfold prescribed in H. destruct (stored (db s) k) as [[x|]|]; [discriminate| |]; destruct (mSchema E k); try discriminate; reflexivity.
  - intros k v P C. rewrite <- (F k (Some v) P C). discriminate.
Qed.
Definition Max : list Z := lit "Log.Alarms.Max".
Notation alarmed := alarms_in (only parsing).
Lemma alarmed_app E l m : alarmed E (l ++ m) = alarmed E l ++ alarmed E m.
Proof. unfold alarms_in. destruct (inited E); [rewrite filter_app, map_app; reflexivity|reflexivity]. Qed.
Lemma alarmed_dbs E l : dbs l -> alarmed E l = [].
Proof. intros H. unfold alarms_in. destruct (inited E); [|reflexivity]. induction H as [|x l X L IH]; [reflexivity|]. rewrite X. cbn [filter fst]. exact IH. Qed.
Definition limit (E : env) (r : rows) : nat := match prescribed (mSchema E) r Max with Some v => Z.to_nat (u32 (number v)) | None => O end.
Lemma last_of_suffix {A} n (a b : list A) : LoggerSpec.last_n n (a ++ b) = LoggerSpec.last_n n (LoggerSpec.last_n n a ++ b).
Proof.
  unfold LoggerSpec.last_n. rewrite !app_length, skipn_length, !skipn_app, skipn_skipn, skipn_length. destruct (Nat.le_gt_cases n (length a)).
  - f_equal; [f_equal; lia|f_equal; lia].
  - replace (length a - n)%nat with 0%nat by lia. f_equal; [f_equal; lia|f_equal; lia].
Qed.
Record step (E : env) (s t : st) (l : list (Z * note)) (n : nat) : Prop := Step {
  s_eff : eff E s t l n;
  s_inv : inv E t;
  s_cache : sLogCache t = sLogCache s /\ sCacheCount t = sCacheCount s;
  s_alarms : exists p, p ++ alarms t = alarms s ++ alarmed E l;
  s_quiet : alarmed E l = [] -> alarms t = alarms s;
  s_fresh : (forall i, up E i = true) -> fresh E s -> fresh E t /\ limit E (db t) = limit E (db s) /\ (alarmed E l <> [] -> alarms t = LoggerSpec.last_n (limit E (db s)) (alarms s ++ alarmed E l)) }.
Lemma step_trans E a b c l1 l2 n1 n2 : step E a b l1 n1 -> step E b c l2 n2 -> step E a c (l1 ++ l2) (n1 + n2).
Proof.
  intros [A1 A2 [A3 A4] (p & A5) A6 A7] [B1 B2 [B3 B4] (q & B5) B6 B7]. split.
  - exact (eff_trans E a b c l1 l2 n1 n2 A1 B1).
  - exact B2.
  - split; congruence.
  - exists (p ++ q). rewrite <- app_assoc, B5, app_assoc, A5, alarmed_app, app_assoc. reflexivity.
  - rewrite alarmed_app. intros H. apply app_eq_nil in H. destruct H as [H1 H2]. rewrite (B6 H2). exact (A6 H1).
  - intros U F. destruct (A7 U F) as (F1 & L1 & V1). destruct (B7 U F1) as (F2 & L2 & V2). split; [exact F2|]. split; [congruence|]. rewrite alarmed_app. intros H.
    destruct (alarmed E l1) as [|x y] eqn:X1.
    + cbn [app] in *. rewrite (V2 H), L1, (A6 eq_refl). reflexivity.
    + destruct (alarmed E l2) as [|z w] eqn:X2.
      * rewrite (B6 eq_refl), app_nil_r. apply V1. discriminate.
      * rewrite V2, L1, V1 by discriminate. rewrite (app_assoc (alarms a) (x :: y)). symmetry. apply last_of_suffix.
Qed.
Lemma step_more E a b l n m : step E a b l n -> (n <= m)%nat -> step E a b l m.
Proof. intros [A1 A2 A3 A4 A5 A6] H. split; try assumption. exact (eff_more E a b l n m A1 H). Qed.
Lemma step_refl E s : inv E s -> step E s s [] 0.
Proof.
  intros I. assert (N : alarmed E [] = []) by (unfold alarms_in; destruct (inited E); reflexivity). split.
  - apply eff_same; reflexivity.
  - exact I.
  - split; reflexivity.
  - exists []. rewrite N, app_nil_r. reflexivity.
  - reflexivity.
  - intros U F. split; [exact F|]. split; [reflexivity|]. intros H. contradiction (H N).
Qed.
Lemma step_say E s level x : inv E s -> isdb (level, x) = false -> (level <=? 2) && inited E = false -> step E s (say s level x) [(level, x)] 0.
Proof.
  intros I D L. assert (N : alarmed E [(level, x)] = []).
  { unfold alarms_in. destruct (inited E); [|reflexivity]. cbn [filter fst]. rewrite Bool.andb_true_r in L. rewrite L. reflexivity. }
  split.
  - apply eff_say, D.
  - exact I.
  - split; reflexivity.
  - exists []. rewrite N, app_nil_r. reflexivity.
  - reflexivity.
  - intros U F. split; [exact F|]. split; [reflexivity|]. intros H. contradiction (H N).
Qed.
Lemma look_step E s key v t : plain_key key -> inv E s -> look E s key = (v, t) -> exists l, dbs l /\ step E s t l 1 /\ ((forall i, up E i = true) -> fresh E s -> v = prescribed (mSchema E) (db s) key).
Proof.
  intros P I H. destruct (look_post E s key v t P I H) as (l & D & F & J & (S1 & S2 & S3) & A & T & VN & VS & C & O & X). exists l. split; [exact D|].
  assert (FV : (forall i, up E i = true) -> fresh E s -> v = prescribed (mSchema E) (db s) key).
  { intros U Fr. destruct X as [(X & _ & _)|(_ & _ & _ & X)]; [exact (Fr key v P (aged_cache _ _ _ _ X))|]. rewrite U in X. exact X. }
  split; [|exact FV]. split.
  - exact F.
  - exact J.
  - split; assumption.
  - exists []. rewrite (alarmed_dbs E l D), app_nil_r. exact A.
  - intros _. exact A.
  - intros U Fr. split; [|split; [unfold limit; rewrite S1; reflexivity|rewrite (alarmed_dbs E l D); intros N; contradiction]].
    intros k w PK K. rewrite S1. destruct (O k w K) as [[-> ->]|K']; [exact (FV U Fr)|exact (Fr k w PK (aged_cache _ _ _ _ K'))].
Qed.
Lemma trim_last l m : 0 <= m -> trim l m = LoggerSpec.last_n (Z.to_nat m) l.
Proof.
  intros M. unfold LoggerSpec.last_n. induction l as [|x l IH]; [rewrite skipn_nil; reflexivity|]. cbn [trim]. destruct (m <? Z.of_nat (length (x :: l))) eqn:L; cbn [length] in *.
  - rewrite IH. replace (S (length l) - Z.to_nat m)%nat with (S (length l - Z.to_nat m)) by lia. reflexivity.
  - replace (S (length l) - Z.to_nat m)%nat with 0%nat by lia. reflexivity.
Qed.
Lemma plain_max : plain_key Max.
Proof. apply plain_key_of; [split; vm_compute; intuition discriminate|vm_compute; intuition discriminate]. Qed.
Lemma recorded_step E s level x : inv E s -> mSchema E Max <> None -> isdb (level, x) = false ->
  exists t l, recorded E s level x = Some t /\ dbs l /\ step E s t (l ++ [(level, x)]) 1 /\ ((level <=? 2) && inited E = false -> t = say s level x /\ l = []) /\ db t = db s.
Proof.
  intros I M D. unfold recorded. destruct ((level <=? 2) && inited E) eqn:L.
  2:{ exists (say s level x), []. split; [reflexivity|]. split; [constructor|]. split; [apply step_more with 0%nat; [apply step_say; assumption|lia]|]. split; [split; reflexivity|reflexivity]. }
  unfold alarm. fold Max. set (s0 := with_alarms s (alarms s ++ [x])). destruct (look E s0 Max) as [v t] eqn:K.
  assert (I0 : inv E s0) by exact I.
  destruct (look_post E s0 Max v t plain_max I0 K) as (l & DL & (F1 & F2 & F3) & J & (S1 & S2 & S3) & A & T & VN & VS & C & O & X).
  destruct v as [v|]; [|contradiction (M (VN eq_refl))]. eexists. exists l. split; [reflexivity|]. split; [exact DL|]. split; [|split; [discriminate|exact S1]].
  assert (AL : alarmed E (l ++ [(level, x)]) = [x]).
  { rewrite alarmed_app, (alarmed_dbs E l DL). unfold alarms_in. apply Bool.andb_true_iff in L. destruct L as [L1 L2]. rewrite L2. cbn [filter fst]. rewrite L1. reflexivity. }
  assert (W : 0 <= u32 (number v)) by (unfold u32; apply Z.mod_pos_bound; reflexivity).
  assert (AT : trim (alarms t) (u32 (number v)) = LoggerSpec.last_n (Z.to_nat (u32 (number v))) (alarms s ++ [x])) by (rewrite trim_last by exact W; rewrite A; reflexivity).
  split.
  - split; [cbn [say with_alarms out]; rewrite F1, app_assoc; reflexivity|]. cbn [say with_alarms stmts]. split; [exact F2|]. rewrite filter_app, app_length. cbn [filter]. rewrite D. cbn [length]. rewrite F3. cbn [s0 with_alarms stmts]. lia.
  - exact J.
  - split; assumption.
  - cbn [say with_alarms alarms]. rewrite AT, AL. unfold LoggerSpec.last_n. eexists. apply firstn_skipn.
  - rewrite AL. discriminate.
  - intros U Fr. assert (FT : fresh E t).
    { intros k w PK Kw. rewrite S1. change (db s0) with (db s). destruct (O k w Kw) as [[-> ->]|K']; [|exact (Fr k w PK (aged_cache _ _ _ _ K'))].
      destruct X as [(X & _ & _)|(_ & _ & _ & X)]; [exact (Fr Max (Some v) plain_max (aged_cache _ _ _ _ X))|]. rewrite U in X. exact X. }
    split; [exact FT|]. split; [unfold limit; cbn [say with_alarms db]; rewrite S1; reflexivity|]. intros _. cbn [say with_alarms alarms]. rewrite AT, AL. unfold limit.
    pose proof (FT Max (Some v) plain_max C) as Q. rewrite S1 in Q. change (db s0) with (db s) in Q. rewrite <- Q. reflexivity.
Qed.
Lemma wrote_step E s key d : plain_key key -> weqb key Max = false -> plain_text E key d -> inv E s ->
  step E s (wrote E s key d) (if up E (stmts s) then [] else [(3, DbError)]) 1 /\ db (wrote E s key d) = (if up E (stmts s) then replace_row (db s) key (Some d) else db s) /\ stmts (wrote E s key d) = S (stmts s).
Proof.
  intros P NM PT I. unfold wrote. rewrite (refused_set E s key d PT). destruct PT as (K & V & D). unfold command. rewrite (sql_set (mSchema E) key d (db s) K V D).
  destruct (up E (stmts s)) eqn:U; cbn [negb].
  - assert (N : alarmed E [] = []) by (unfold alarms_in; destruct (inited E); reflexivity). split; [split|split; reflexivity].
    + split; [cbn [with_cache stated out]; rewrite app_nil_r; reflexivity|]. cbn [with_cache stated stmts]. split; [lia|]. rewrite failures_one, U. reflexivity.
    + destruct I as [I1 I2]. split; cbn [with_cache stated mCache db].
      * intros k PK. rewrite cfind_cset. destruct (weqb key k); [discriminate|apply I1, PK].
      * intros k v PK. rewrite cfind_cset, prescribed_replace by exact (proj2 V). destruct (weqb key k); [discriminate|apply I2, PK].
    + split; reflexivity.
    + exists []. rewrite N, app_nil_r. reflexivity.
    + reflexivity.
    + intros _ F. split; [|split; [|intros H; contradiction (H N)]].
      * intros k v PK. cbn [with_cache stated mCache db]. rewrite cfind_cset, prescribed_replace by exact (proj2 V). destruct (weqb key k); [intros H; injection H as <-; reflexivity|apply F, PK].
      * unfold limit. cbn [with_cache stated db]. rewrite prescribed_replace by exact (proj2 V). rewrite NM. reflexivity.
  - assert (N : alarmed E [(3, DbError)] = []) by (unfold alarms_in; destruct (inited E); reflexivity). split; [split|split; reflexivity].
    + split; [reflexivity|]. cbn [say stated stmts]. split; [lia|]. rewrite failures_one, U. reflexivity.
    + exact I.
    + split; reflexivity.
    + exists []. rewrite N, app_nil_r. reflexivity.
    + reflexivity.
    + intros A _. rewrite A in U. discriminate.
Qed.

(** *** The level of a file *)
Definition LL : list Z := lit "Log.Level".
Definition names : list (list Z) := map fst LoggerSpec.level_table.
Definition keyOf (f : list Z) : list Z := lit "Log.Level." ++ f.
Lemma plain_keyOf f : quote_free 34 f -> plain_key (keyOf f).
Proof.
  intros [Q N]. apply plain_key_of.
  - split; intros H; apply in_app_or in H; destruct H as [H|H]; [|exact (Q H)| |exact (N H)]; revert H; vm_compute; intuition discriminate.
  - unfold names_column. intros H. change (upper (keyOf f)) with (76 :: skipn 1 (upper (keyOf f))) in H. remember (skipn 1 (upper (keyOf f))) as w. clear Heqw. revert H. vm_compute. intuition discriminate.
Qed.
Lemma plain_LL : plain_key LL.
Proof. apply plain_key_of; [split; vm_compute; intuition discriminate|vm_compute; intuition discriminate]. Qed.
Lemma keyOf_max f : weqb (keyOf f) Max = false.
Proof. reflexivity. Qed.
(** An unknown level is reported and replaced, if the database lets it be. *)
Definition corrected (dflt key v : list Z) (l : list (Z * note)) (r r' : rows) : Prop :=
  (In v names /\ l = [] /\ r' = r) \/
  (~ In v names /\ exists d d', dbs d /\ l = d ++ (2, BadLevel key v) :: d' /\ ((d' = [] /\ r' = replace_row r key (Some dflt)) \/ (d' = [(3, DbError)] /\ r' = r))).
Lemma level2_step E dflt s key v : configured E dflt -> plain_key key -> weqb key Max = false -> inv E s ->
  exists lv t l, lookupLevel2 3 E s key v = Ok (lv, t) /\ step E s t l 2 /\ LoggerSpec.stands_for dflt v lv /\ corrected dflt key v l (db s) (db t).
Proof.
  intros ((text & CL) & CP & CM & CT) P NM I. unfold lookupLevel2. rewrite CL. destruct (LoggerProps.known_dec v) as [K|K].
  - pose proof (LoggerProps.known_level v K) as T. pose proof (LoggerProps.table_nonneg _ _ T). replace (LoggerModel.levelStringToInt v =? -1) with false by lia.
    exists (LoggerModel.levelStringToInt v), s, []. split; [reflexivity|]. split; [apply step_more with 0%nat; [apply step_refl, I|lia]|]. split; [left; exact T|]. left. repeat split. exact K.
  - rewrite (proj2 (LoggerProps.C52_level_names v) K). cbn [Z.eqb Pos.eqb]. rewrite (record_recorded 0).
    destruct (recorded_step E s 2 (BadLevel key v) I CM eq_refl) as (t1 & d & R & D & S1 & _ & B1). rewrite R. cbn [bind]. rewrite set_wrote. cbn [bind].
    destruct (wrote_step E t1 key dflt P NM ltac:(split; [exact (proj1 P)|split; [exact CP|intros d0 t0 H0; exact (CT key d0 t0 H0)]]) (s_inv _ _ _ _ _ S1)) as (S2 & B2 & _).
    eexists _, _, _. split; [reflexivity|]. split; [exact (step_trans E s t1 _ _ _ 1 1 S1 S2)|]. split.
    + right. split; [exact K|]. destruct (LoggerProps.known_dec dflt) as [Dk|Dk]; [left; apply LoggerProps.known_level, Dk|right; split; [exact Dk|exact (proj2 (LoggerProps.C52_level_names dflt) Dk)]].
    + right. split; [exact K|]. eexists d, _. split; [exact D|]. split; [rewrite <- app_assoc; reflexivity|]. rewrite B2, B1. destruct (up E (stmts t1)); [left|right]; split; reflexivity.
Qed.
Lemma dbs_app a b : dbs a -> dbs b -> dbs (a ++ b).
Proof. intros A B. apply Forall_app. split; assumption. Qed.
Lemma look_db E s key : db (snd (look E s key)) = db s.
Proof.
  unfold look, missed. destruct (cfind _ key); [exact (proj1 (aged_eq E s))|]. cbn [snd with_cache db]. destruct (refused _ _ _); cbn [say stated db]; exact (proj1 (aged_eq E s)).
Qed.
Lemma level_step E dflt s : configured E dflt -> inv E s ->
  exists lv v t d l, lookupLevel 3 E s LL = Ok (Some lv, t) /\ dbs d /\ step E s t (d ++ l) 3 /\ LoggerSpec.stands_for dflt v lv /\ corrected dflt LL v l (db s) (db t) /\
    ((forall i, up E i = true) -> fresh E s -> prescribed (mSchema E) (db s) LL = Some v).
Proof.
  intros C I. unfold lookupLevel. rewrite (getStr_got 1). cbn [bind]. unfold got. destruct (look E s LL) as [v t] eqn:K.
  destruct (look_step E s LL v t plain_LL I K) as (d & D & S1 & FV). destruct (look_post E s LL v t plain_LL I K) as (_ & _ & _ & _ & (B & _) & _ & _ & VN & _).
  destruct v as [v|]; [|destruct (proj1 C) as (text & CL); fold LL in CL; rewrite CL in VN; discriminate (VN eq_refl)].
  destruct (level2_step E dflt t LL v C plain_LL eq_refl (s_inv _ _ _ _ _ S1)) as (lv & t2 & l & R & S2 & SF & CO). rewrite R. cbn [bind]. rewrite B in CO.
  exists lv, v, t2, d, l. split; [reflexivity|]. split; [exact D|]. split; [exact (step_trans E s t t2 d l 1 2 S1 S2)|]. split; [exact SF|]. split; [exact CO|]. intros U F. symmetry. exact (FV U F).
Qed.
Definition cfg (E : env) (r : rows) : LoggerModel.config := fun k => prescribed (mSchema E) r k.
(** Which key decides, and what it says. *)
Definition decided (E : env) (dflt : list Z) (s t : st) (f : list Z) (r : option Z) (l : list (Z * note)) : Prop :=
  match r with
  | None => exists d, dbs d /\ d <> [] /\ l = d ++ [(7, Missing (keyOf f))] /\ clock E (S (times s)) <> clock E (times s) /\ mSchema E (keyOf f) = None /\ db t = db s
  | Some lv => exists d l' key v, dbs d /\ l = d ++ l' /\ ((key = keyOf f /\ v <> []) \/ key = LL) /\ LoggerSpec.stands_for dflt v lv /\ corrected dflt key v l' (db s) (db t) /\
      ((forall i, up E i = true) -> fresh E s -> LoggerSpec.deciding_key (cfg E (db s)) f key /\ cfg E (db s) key = Some v)
  end.
Lemma look_purge E s key v t : look E s key = (v, t) -> lastPurge t = lastPurge (aged E s).
Proof.
  unfold look, missed. destruct (cfind _ key); [intros H; injection H as _ <-; reflexivity|]. intros H. injection H as _ <-. cbn [with_cache lastPurge]. destruct (refused _ _ _); reflexivity.
Qed.
Lemma get_step E dflt s f : configured E dflt -> quote_free 34 f -> inv E s ->
  exists r t l, getLoggingLevel 3 E s f = Ok (r, t) /\ step E s t l 5 /\ decided E dflt s t f r l.
Proof.
  intros C Q I. pose proof (plain_keyOf f Q) as P. unfold getLoggingLevel. fold (keyOf f). rewrite (lookup_look 1). cbn [bind]. destruct (look E s (keyOf f)) as [v1 t1] eqn:K1.
  destruct (look_step E s (keyOf f) v1 t1 P I K1) as (d1 & D1 & S1 & FV1).
  destruct (look_post E s (keyOf f) v1 t1 P I K1) as (_ & _ & _ & _ & (B1 & _) & _ & T1 & _ & _ & C1 & _ & _).
  pose proof (s_inv _ _ _ _ _ S1) as I1. fold LL.
  destruct v1 as [v1|].
  2:{ destruct (level_step E dflt t1 C I1) as (lv & v & t2 & d2 & l2 & R & D2 & S2 & SF & CO & PR). exists (Some lv), t2, (d1 ++ d2 ++ l2). split; [exact R|].
      split; [apply step_more with (1 + 3)%nat; [exact (step_trans E s t1 t2 _ _ _ _ S1 S2)|lia]|]. exists (d1 ++ d2), l2, LL, v. split; [exact (dbs_app _ _ D1 D2)|]. split; [apply app_assoc|].
      split; [right; reflexivity|]. split; [exact SF|]. rewrite B1 in CO. split; [exact CO|]. intros U F. rewrite B1 in PR. split; [|exact (PR U (proj1 (s_fresh _ _ _ _ _ S1 U F)))]. right. split; [reflexivity|]. left. symmetry. exact (FV1 U F). }
  rewrite (getStr_got 1). cbn [bind]. unfold got. destruct (look E t1 (keyOf f)) as [v2 t2] eqn:K2.
  destruct (look_step E t1 (keyOf f) v2 t2 P I1 K2) as (d2 & D2 & S2 & FV2).
  destruct (look_post E t1 (keyOf f) v2 t2 P I1 K2) as (d3 & _ & (O3 & _) & _ & (B2 & _) & _ & T2 & VN2 & _ & C2 & _ & X2).
  assert (ED : d3 = d2) by (destruct (s_eff _ _ _ _ _ S2) as (O2 & _); rewrite O3 in O2; exact (app_inv_head _ _ _ O2)). subst d3.
  pose proof (s_inv _ _ _ _ _ S2) as I2. pose proof (step_trans E s t1 t2 d1 d2 1 1 S1 S2) as S12. rewrite B1 in B2.
  destruct v2 as [[|c w]|].
  - destruct (level_step E dflt t2 C I2) as (lv & v & t3 & d4 & l2 & R & D4 & S3 & SF & CO & PR). exists (Some lv), t3, ((d1 ++ d2) ++ d4 ++ l2). split; [exact R|].
    split; [exact (step_trans E s t2 t3 _ _ 2 3 S12 S3)|]. exists ((d1 ++ d2) ++ d4), l2, LL, v. split; [exact (dbs_app _ _ (dbs_app _ _ D1 D2) D4)|]. split; [apply app_assoc|].
    split; [right; reflexivity|]. split; [exact SF|]. rewrite B2 in CO, PR. split; [exact CO|]. intros U F. split; [|exact (PR U (proj1 (s_fresh _ _ _ _ _ S12 U F)))]. right. split; [reflexivity|]. right.
    rewrite <- B1. symmetry. exact (FV2 U (proj1 (s_fresh _ _ _ _ _ S1 U F))).
  - destruct (level2_step E dflt t2 (keyOf f) (c :: w) C P (keyOf_max f) I2) as (lv & t3 & l3 & R & S3 & SF & CO). rewrite R. cbn [bind]. exists (Some lv), t3, ((d1 ++ d2) ++ l3). split; [reflexivity|].
    split; [apply step_more with (2 + 2)%nat; [exact (step_trans E s t2 t3 _ _ 2 2 S12 S3)|lia]|]. exists (d1 ++ d2), l3, (keyOf f), (c :: w). split; [exact (dbs_app _ _ D1 D2)|]. split; [reflexivity|].
    split; [left; split; [reflexivity|discriminate]|]. split; [exact SF|]. rewrite B2 in CO. split; [exact CO|]. intros U F.
    assert (V : cfg E (db s) (keyOf f) = Some (c :: w)) by (unfold cfg; rewrite <- B1; symmetry; exact (FV2 U (proj1 (s_fresh _ _ _ _ _ S1 U F)))).
    split; [|exact V]. left. split; [reflexivity|]. exists (c :: w). split; [exact V|discriminate].
  - exists None, (say t2 7 (Missing (keyOf f))), ((d1 ++ d2) ++ [(7, Missing (keyOf f))]). split; [reflexivity|].
    split; [apply step_more with (2 + 0)%nat; [exact (step_trans E s t2 _ _ _ 2 0 S12 (step_say E t2 7 (Missing (keyOf f)) I2 eq_refl eq_refl))|lia]|].
    exists (d1 ++ d2). split; [exact (dbs_app _ _ D1 D2)|]. split; [|split; [reflexivity|split; [|split; [exact (VN2 eq_refl)|exact B2]]]].
    + destruct X2 as [(X & _ & _)|(_ & _ & -> & X)].
      * apply aged_cache in X. rewrite C1 in X. discriminate.
      * destruct (up E (stmts t1)); [|destruct d1; discriminate]. contradiction (proj2 I1 (keyOf f) v1 P C1). symmetry. exact X.
    + intros EQ. destruct X2 as [(X & _ & _)|(X & _)]; [apply aged_cache in X; rewrite C1 in X; discriminate|].
      assert (Y : mCache (aged E t1) = mCache t1).
      { unfold aged at 1. unfold checkCacheAge. rewrite T1, EQ, (look_purge E s _ _ _ K1). unfold aged. unfold checkCacheAge. destruct (clock E (times s) - lastPurge s <? 3) eqn:A; cbn [lastPurge]; [rewrite A; reflexivity|]. rewrite Z.sub_diag. reflexivity. }
      rewrite Y, C1 in X. discriminate.
Qed.

(** *** The statement *)
Definition bare (s : st) : st := with_levels s [] 0.
Lemma step_bare E s t l n : step E s t l n -> step E (bare s) (bare t) l n.
Proof. intros [A B _ D F G]. split; [exact A|exact B|split; reflexivity|exact D|exact F|exact G]. Qed.
Definition entered (s : st) : st := with_levels s (if 1000 <? sCacheCount s then [] else sLogCache s) ((if 1000 <? sCacheCount s then 0 else sCacheCount s) + 1).
Lemma enter_eq E f s k : gGetLoggingLevel k E s f =
  match remembered s f with
  | Some level => Ok (Some level, entered s)
  | None => do (l, s) <- getLoggingLevel k E (entered s) f;
      match l with Some level => Ok (Some level, with_levels s (LoggerModel.cinsert (sLogCache s) (computeHash f) level) (sCacheCount s)) | None => Ok (None, s) end
  end.
Proof. unfold gGetLoggingLevel, remembered, entered. destruct (1000 <? sCacheCount s); reflexivity. Qed.
Lemma log_step E dflt nd s f level : configured E dflt -> quote_free 34 f -> inv E s -> nd && (level =? 7) = false ->
  exists b t l, log 3 E nd s f level = Ok (b, t) /\ step E (bare s) (bare t) l 6 /\ sCacheCount t = sCacheCount (entered s) /\
    match remembered s f with
    | Some lv => b = true /\ db t = db s /\ sLogCache t = sLogCache s /\ exists d, dbs d /\ l = d ++ own f level lv /\ (2 < level \/ lv < level -> d = [] /\ mCache t = mCache s)
    | None => exists m r l1 d, getLoggingLevel 3 E (entered s) f = Ok (r, m) /\ decided E dflt s m f r l1 /\ dbs d /\ db t = db m /\
        match r with
        | None => b = false /\ l = l1 /\ d = []
        | Some lv => b = true /\ l = l1 ++ d ++ own f level lv /\ LoggerModel.cfind (sLogCache t) (computeHash f) = Some lv
        end
    end.
Proof.
  intros C Q I N. unfold log. rewrite N, enter_eq. destruct (remembered s f) as [lv|] eqn:R.
  - assert (RC : 1000 <? sCacheCount s = false) by (unfold remembered in R; destruct (1000 <? sCacheCount s); [discriminate|reflexivity]).
    cbn [bind]. unfold own. destruct (level <=? lv) eqn:L.
    + rewrite (record_recorded 0). destruct (recorded_step E (entered s) level (Own f level) I (proj1 (proj2 (proj2 C))) eq_refl) as (t & d & Rt & D & S1 & Low & B). rewrite Rt. cbn [bind].
      exists true, t, (d ++ [(level, Own f level)]). split; [reflexivity|]. split; [apply step_more with 1%nat; [exact (step_bare _ _ _ _ _ S1)|lia]|].
      destruct (s_cache _ _ _ _ _ S1) as [X1 X2]. split; [exact X2|]. split; [reflexivity|]. split; [exact B|]. split; [rewrite X1; unfold entered; rewrite RC; reflexivity|]. exists d. split; [exact D|]. split; [reflexivity|].
      intros [H|H]; [|lia]. destruct Low as [-> ->]; [apply Bool.andb_false_iff; left; lia|]. split; reflexivity.
    + exists true, (entered s), []. split; [reflexivity|]. split; [apply step_more with 0%nat; [exact (step_refl E (bare s) I)|lia]|]. split; [reflexivity|]. split; [reflexivity|]. split; [reflexivity|].
      split; [unfold entered; rewrite RC; reflexivity|]. exists []. split; [constructor|]. split; [reflexivity|]. intros _. split; reflexivity.
  - destruct (get_step E dflt (entered s) f C Q I) as (r & m & l1 & G & S1 & D1). rewrite G. cbn [bind].
    assert (RN : LoggerModel.cfind (sLogCache (entered s)) (computeHash f) = None) by (unfold remembered in R; unfold entered; cbn [with_levels sLogCache]; destruct (1000 <? sCacheCount s); [reflexivity|exact R]).
    destruct (s_cache _ _ _ _ _ S1) as [X1 X2].
    destruct r as [lv|]; cbn [bind].
    + rewrite X1. set (m' := with_levels m _ _). assert (CF : LoggerModel.cfind (sLogCache m') (computeHash f) = Some lv).
      { unfold m'. cbn [with_levels sLogCache]. unfold LoggerModel.cinsert. rewrite RN. cbn [LoggerModel.cfind]. rewrite Z.eqb_refl. reflexivity. }
      unfold own. destruct (level <=? lv) eqn:L.
      * rewrite (record_recorded 0). destruct (recorded_step E m' level (Own f level) (s_inv _ _ _ _ _ S1) (proj1 (proj2 (proj2 C))) eq_refl) as (t & d & Rt & D & S2 & Low & B). rewrite Rt. cbn [bind].
        exists true, t, (l1 ++ d ++ [(level, Own f level)]). split; [reflexivity|]. split; [exact (step_trans E (bare s) (bare m) (bare t) _ _ 5 1 (step_bare _ _ _ _ _ S1) (step_bare _ _ _ _ _ S2))|].
        destruct (s_cache _ _ _ _ _ S2) as [Y1 Y2]. split; [rewrite Y2; exact X2|]. exists m, (Some lv), l1, d. split; [reflexivity|]. split; [exact D1|]. split; [exact D|]. split; [exact B|]. split; [reflexivity|]. split; [rewrite L; reflexivity|]. rewrite Y1. exact CF.
      * exists true, m', l1. split; [reflexivity|]. split; [apply step_more with 5%nat; [exact (step_bare _ _ _ _ _ S1)|lia]|]. split; [exact X2|]. exists m, (Some lv), l1, [].
        split; [reflexivity|]. split; [exact D1|]. split; [constructor|]. split; [reflexivity|]. split; [reflexivity|]. split; [rewrite L, app_nil_r; reflexivity|exact CF].
    + exists false, m, l1. split; [reflexivity|]. split; [apply step_more with 5%nat; [exact (step_bare _ _ _ _ _ S1)|lia]|]. split; [exact X2|]. exists m, None, l1, []. split; [reflexivity|]. split; [exact D1|]. split; [constructor|]. split; [reflexivity|]. repeat split.
Qed.
(** *** The words of the specification *)
Lemma value_prescribed E r k : value_of E r k = prescribed (mSchema E) r k.
Proof. unfold value_of, prescribed. rewrite row_of_stored. destruct (stored r k) as [[v|]|]; reflexivity. Qed.
Lemma plain_of_key k : plain_key k -> plain k.
Proof.
  intros [Q (N1 & N2 & N3)]. split; [exact Q|]. unfold names_column. intros [H|[H|H]]; [apply N1; symmetry; exact H|apply N2; symmetry; exact H|].
  enough (X : is_other config_table k = true) by (rewrite X in N3; discriminate). unfold is_other. apply existsb_exists. exists (upper k). split; [exact H|apply weqb_refl].
Qed.
Lemma sound_inv E s : sound E s <-> inv E s.
Proof.
  split.
  - intros H. split; [intros k P C; exact (H k None (plain_of_key k P) C)|intros k v P C; rewrite <- value_prescribed; exact (H k (Some v) (plain_of_key k P) C)].
  - intros [A B] k v [P1 P2] C. pose proof (plain_key_of k P1 P2) as P. destruct v as [v|]; [rewrite value_prescribed; exact (B k v P C)|exact (A k P C)].
Qed.
Lemma agrees_fresh E s : agrees E s <-> fresh E s.
Proof.
  split.
  - intros H k v P C. rewrite <- value_prescribed. exact (H k v (plain_of_key k P) C).
  - intros H k v [P1 P2] C. rewrite value_prescribed. exact (H k v (plain_key_of k P1 P2) C).
Qed.
