(** Property C99: a whole LOG statement, with the configuration and the database behind it. *)
From Verif Require Import Base BaseFacts UtilsModel UtilsSpec UtilsProofs SqlModel SqlProofs KvModel.
From Verif Require LoggerModel LoggerSpec LoggerProps.
From Verif Require Import ConfigModel ConfigSpec ConfigProofs LogStmtModel LogStmtSpec LogStmtProofs.
Local Open Scope Z_scope.

(** The Logger, the configuration and the database call each other no deeper than three times, whatever
    the state, the clock and the failures; more depth changes nothing. *)
Theorem C99_ends fuel E ndebug s f level : (3 <= fuel)%nat ->
  log fuel E ndebug s f level = log 3 E ndebug s f level /\ ((exists b t, log 3 E ndebug s f level = Ok (b, t)) \/ log 3 E ndebug s f level = Abort).
Proof.
  intros H. destruct fuel as [|[|[|k]]]; try lia. split; [apply log_fuel|]. clear H k.
  assert (R : forall s level x, (exists t, record_ 3 E s level x = Ok t) \/ record_ 3 E s level x = Abort).
  { intros s0 l x. rewrite (record_recorded 0). destruct (recorded E s0 l x); [left; eexists; reflexivity|right; reflexivity]. }
  assert (L2 : forall s key v, (exists l t, lookupLevel2 3 E s key v = Ok (l, t)) \/ lookupLevel2 3 E s key v = Abort).
  { intros s0 key v. unfold lookupLevel2. destruct (_ =? -1); [|left; eexists _, _; reflexivity]. destruct (R s0 2 (BadLevel key v)) as [[t ->]| ->]; cbn [bind]; [|right; reflexivity]. rewrite set_wrote. left. eexists _, _. reflexivity. }
  assert (L1 : forall s, (exists l t, lookupLevel 3 E s (lit "Log.Level") = Ok (l, t)) \/ lookupLevel 3 E s (lit "Log.Level") = Abort).
  { intros s0. unfold lookupLevel. rewrite (getStr_got 1). cbn [bind]. destruct (got E s0 _) as [[v|] t]; [|left; eexists _, _; reflexivity]. destruct (L2 t (lit "Log.Level") v) as [(l & t2 & ->)| ->]; cbn [bind]; [left; eexists _, _; reflexivity|right; reflexivity]. }
  assert (G : forall s, (exists l t, getLoggingLevel 3 E s f = Ok (l, t)) \/ getLoggingLevel 3 E s f = Abort).
  { intros s0. unfold getLoggingLevel. rewrite (lookup_look 1). cbn [bind]. destruct (look E s0 _) as [[v|] t]; [|apply L1]. rewrite (getStr_got 1). cbn [bind].
    destruct (got E t _) as [[[|c w]|] t2]; [apply L1| |left; eexists _, _; reflexivity]. destruct (L2 t2 (lit "Log.Level." ++ f) (c :: w)) as [(l & t3 & ->)| ->]; cbn [bind]; [left; eexists _, _; reflexivity|right; reflexivity]. }
  unfold log. destruct (ndebug && _); [left; eexists _, _; reflexivity|]. rewrite enter_eq. destruct (remembered s f) as [lv|].
  - cbn [bind]. destruct (level <=? lv); [|left; eexists _, _; reflexivity]. destruct (R (entered s) level (Own f level)) as [[t ->]| ->]; cbn [bind]; [left; eexists _, _; reflexivity|right; reflexivity].
  - destruct (G (entered s)) as [([lv|] & t & ->)| ->]; cbn [bind]; [|left; eexists _, _; reflexivity|right; reflexivity]. destruct (level <=? lv); [|left; eexists _, _; reflexivity].
    destruct (R (with_levels t (LoggerModel.cinsert (sLogCache t) (computeHash f) lv) (sCacheCount t)) level (Own f level)) as [[t2 ->]| ->]; cbn [bind]; [left; eexists _, _; reflexivity|right; reflexivity].
Qed.
Print Assumptions C99_ends.

(** Compiled with NDEBUG, LOG(DEBUG) does nothing. *)
Theorem C99_ndebug fuel E s f : log fuel E true s f 7 = Ok (true, s).
Proof. reflexivity. Qed.
Print Assumptions C99_ndebug.

(** The records of one statement, whatever fails: one for each failed statement of SQL, at most one about an
    unknown level, and its own.  An exception leaves LOG only if SQL failed and the clock moved. *)
Lemma errors_dbs l : only_db_errors l -> db_errors l = length l.
Proof. intros H. induction H as [|x l X L IH]; [reflexivity|]. rewrite X. unfold db_errors in *. cbn [filter snd length]. rewrite IH. reflexivity. Qed.
Lemma compiled_in ndebug level : ~ (ndebug = true /\ level = 7) -> ndebug && (level =? 7) = false.
Proof. intros H. destruct ndebug; [|reflexivity]. cbn [andb]. destruct (level =? 7) eqn:L; [exfalso; apply H; split; [reflexivity|lia]|reflexivity]. Qed.
Theorem C99_records E dflt ndebug s f level : configured E dflt -> quote_free 34 f -> sound E s -> ~ (ndebug = true /\ level = 7) ->
  exists b t l, log 3 E ndebug s f level = Ok (b, t) /\ sound E t /\
    out t = out s ++ l /\ (stmts s <= stmts t <= stmts s + 6)%nat /\ db_errors l = failures E (stmts s) (stmts t) /\
    (b = true -> exists d bad d' lv, only_db_errors d /\ only_db_errors d' /\ report f bad /\ l = d ++ bad ++ d' ++ own f level lv /\
       LoggerModel.cfind (sLogCache t) (computeHash f) = Some lv /\ (forall x, remembered s f = Some x -> lv = x /\ bad = [])) /\
    (b = false -> exists d, only_db_errors d /\ d <> [] /\ l = d ++ [(7, Missing (lit "Log.Level." ++ f))] /\
       clock E (S (times s)) <> clock E (times s) /\ mSchema E (lit "Log.Level." ++ f) = None /\ remembered s f = None).
Proof.
  intros C Q I N. apply sound_inv in I. apply compiled_in in N. destruct (log_step E dflt ndebug s f level C Q I N) as (b & t & l & R & S & CC & H). exists b, t, l. split; [exact R|].
  split; [apply sound_inv; exact (s_inv _ _ _ _ _ S)|]. destruct (s_eff _ _ _ _ _ S) as (O & M & F). split; [exact O|]. split; [exact M|]. split; [exact F|].
  destruct (remembered s f) as [lv|] eqn:Re.
  - destruct H as (-> & B & SC & d & D & -> & Low). split; [|discriminate]. intros _. exists d, [], [], lv. split; [exact D|]. split; [constructor|]. split; [left; reflexivity|]. split; [reflexivity|].
    split; [rewrite SC; unfold remembered in Re; destruct (1000 <? sCacheCount s); [discriminate|exact Re]|]. intros x X. injection X as <-. split; reflexivity.
  - destruct H as (m & r & l1 & d & G & De & D & B & H). destruct r as [lv|].
    + destruct H as (-> & -> & CF). split; [|discriminate]. intros _. destruct De as (d1 & l2 & key & v & D1 & -> & K & SF & CO & FR).
      assert (KN : key = lit "Log.Level." ++ f \/ key = lit "Log.Level") by (destruct K as [[-> _]| ->]; [left|right]; reflexivity).
      destruct CO as [(KV & -> & RR)|(KV & d2 & d3 & D2 & -> & RR)].
      * exists d1, [], d, lv. split; [exact D1|]. split; [exact D|]. split; [left; reflexivity|]. split; [rewrite app_nil_r; reflexivity|]. split; [exact CF|discriminate].
      * exists (d1 ++ d2), [(2, BadLevel key v)], (d3 ++ d), lv. split; [exact (dbs_app _ _ D1 D2)|].
        split; [apply dbs_app; [destruct RR as [[-> _]|[-> _]]; repeat constructor|exact D]|]. split; [right; exists key, v; repeat split; assumption|].
        split; [rewrite <- !app_assoc; cbn [app]; rewrite <- ?app_assoc; reflexivity|]. split; [exact CF|discriminate].
    + destruct H as (-> & -> & ->). split; [discriminate|]. intros _. destruct De as (d1 & D1 & NE & -> & CK & MS & _). exists d1. repeat split; assumption.
Qed.
Print Assumptions C99_records.

(** While the database answers and the cache agrees with it, LOG consults what is stored: the statement is
    recorded exactly if its level is within the prescribed one; an unknown level is reported and replaced by
    the default; nothing else is stored, nothing else reported, and no exception leaves. *)
Lemma no_failures E a b : (forall i, up E i = true) -> failures E a b = 0%nat.
Proof. intros U. unfold failures. replace (filter _ _) with (@nil nat); [reflexivity|]. induction (seq a (b - a)) as [|x l IH]; [reflexivity|]. cbn [filter]. rewrite U. exact IH. Qed.
Lemma errors_app l m : db_errors (l ++ m) = (db_errors l + db_errors m)%nat.
Proof. unfold db_errors. rewrite filter_app, app_length. reflexivity. Qed.
Lemma errors_nil l : only_db_errors l -> db_errors l = 0%nat -> l = [].
Proof. intros D H. rewrite (errors_dbs l D) in H. destruct l; [reflexivity|discriminate]. Qed.
Theorem C99_prescribed E dflt ndebug s f level : configured E dflt -> quote_free 34 f -> (forall i, up E i = true) -> agrees E s -> ~ (ndebug = true /\ level = 7) -> remembered s f = None ->
  exists t lv key v, log 3 E ndebug s f level = Ok (true, t) /\ agrees E t /\
    LoggerSpec.deciding_key (value_of E (db s)) f key /\ value_of E (db s) key = Some v /\ LoggerSpec.stands_for dflt v lv /\
    LoggerModel.cfind (sLogCache t) (computeHash f) = Some lv /\
    ((known v /\ out t = out s ++ own f level lv /\ db t = db s) \/
     (~ known v /\ out t = out s ++ (2, BadLevel key v) :: own f level lv /\
      forall k, value_of E (db t) k = if weqb key k then Some dflt else value_of E (db s) k)).
Proof.
  intros C Q U A N Re. apply agrees_fresh in A. pose proof (fresh_inv E s A) as I. apply compiled_in in N.
  destruct (log_step E dflt ndebug s f level C Q I N) as (b & t & l & R & S & CC & H). rewrite Re in H. destruct H as (m & r & l1 & d & G & De & D & B & H).
  destruct (s_eff _ _ _ _ _ S) as (O & M & F). rewrite (no_failures E _ _ U) in F. change (db_errors l = 0%nat) in F. cbn [bare with_levels out] in O.
  destruct r as [lv|].
  2:{ exfalso. destruct H as (-> & -> & ->). destruct De as (d1 & D1 & NE & -> & _). rewrite errors_app in F. apply NE, errors_nil; [exact D1|lia]. }
  destruct H as (-> & -> & CF). destruct De as (d1 & l2 & key & v & D1 & -> & K & SF & CO & FR). rewrite !errors_app in F.
  assert (d1 = []) as -> by (apply errors_nil; [exact D1|lia]). assert (d = []) as -> by (apply errors_nil; [exact D|lia]). cbn [app] in *.
  destruct (FR U A) as [DK V].
  exists t, lv, key, v. split; [exact R|]. split; [apply agrees_fresh; exact (proj1 (s_fresh _ _ _ _ _ S U A))|].
  split. { destruct DK as [[E1 (w & W1 & W2)]|[E1 W]]; [left; split; [exact E1|exists w; split; [rewrite value_prescribed; exact W1|exact W2]]|right; split; [exact E1|rewrite value_prescribed; exact W]]. }
  split; [rewrite value_prescribed; exact V|]. split; [exact SF|]. split; [exact CF|].
  destruct CO as [(KV & -> & RR)|(KV & d2 & d3 & D2 & -> & RR)].
  - left. split; [exact KV|]. split; [exact O|]. rewrite B. exact RR.
  - right. rewrite errors_app in F. assert (d2 = []) as -> by (apply errors_nil; [exact D2|lia]). cbn [app] in *.
    destruct RR as [[-> RR]|[-> _]]; [|discriminate F]. split; [exact KV|]. split; [exact O|]. intros k. rewrite !value_prescribed, B, RR. apply prescribed_replace. exact (proj2 (proj1 (proj2 C))).
Qed.
Print Assumptions C99_prescribed.

(** A remembered level decides alone; only an alarm asks for the length of the list. *)
Theorem C99_remembered E dflt ndebug s f level lv : configured E dflt -> quote_free 34 f -> sound E s -> ~ (ndebug = true /\ level = 7) -> remembered s f = Some lv ->
  exists t d, log 3 E ndebug s f level = Ok (true, t) /\ only_db_errors d /\ out t = out s ++ d ++ own f level lv /\ db t = db s /\ sLogCache t = sLogCache s /\ sCacheCount t = sCacheCount s + 1 /\
    (2 < level \/ lv < level -> d = [] /\ mCache t = mCache s /\ alarms t = alarms s).
Proof.
  intros C Q I N Re. apply sound_inv in I. apply compiled_in in N. destruct (log_step E dflt ndebug s f level C Q I N) as (b & t & l & R & S & CC & H). rewrite Re in H.
  destruct H as (-> & B & SC & d & D & -> & Low). exists t, d. split; [exact R|]. split; [exact D|]. split; [exact (proj1 (s_eff _ _ _ _ _ S))|]. split; [exact B|]. split; [exact SC|].
  split; [rewrite CC; unfold entered; unfold remembered in Re; destruct (1000 <? sCacheCount s); [discriminate|reflexivity]|]. intros H. destruct (Low H) as [-> MC]. split; [reflexivity|]. split; [exact MC|].
  apply (s_quiet _ _ _ _ _ S). cbn [app]. unfold own. destruct (level <=? lv) eqn:L; unfold alarms_in; destruct (inited E); try reflexivity. cbn [filter fst]. replace (level <=? 2) with false by lia. reflexivity.
Qed.
Print Assumptions C99_remembered.

(** The alarms: what is listed afterwards are the last of the old ones followed by the new ones; while the
    database answers, exactly as many as prescribed. *)
Theorem C99_alarms E dflt ndebug s f level b t l : configured E dflt -> quote_free 34 f -> sound E s -> log 3 E ndebug s f level = Ok (b, t) -> out t = out s ++ l ->
  (exists lost, lost ++ alarms t = alarms s ++ alarms_in E l) /\
  (alarms_in E l = [] -> alarms t = alarms s) /\
  ((forall i, up E i = true) -> agrees E s -> alarms_in E l <> [] ->
   exists v, value_of E (db s) (lit "Log.Alarms.Max") = Some v /\ alarms t = LoggerSpec.last_n (Z.to_nat (u32 (number v))) (alarms s ++ alarms_in E l)).
Proof.
  intros C Q I R O. apply sound_inv in I. destruct (ndebug && (level =? 7)) eqn:N.
  { unfold log in R. rewrite N in R. apply Ok_inj in R. injection R as <- <-. assert (l = []) as -> by (apply (app_inv_head (out s)); rewrite app_nil_r; symmetry; exact O).
    assert (Z0 : alarms_in E [] = []) by (unfold alarms_in; destruct (inited E); reflexivity). rewrite Z0. split; [exists []; rewrite app_nil_r; reflexivity|]. split; [reflexivity|]. intros _ _ H. contradiction. }
  destruct (log_step E dflt ndebug s f level C Q I N) as (b' & t' & l' & R' & S & _). rewrite R in R'. apply Ok_inj in R'. injection R' as <- <-.
  destruct (s_eff _ _ _ _ _ S) as (O' & _). cbn [bare with_levels out] in O'. rewrite O in O'. apply app_inv_head in O'. subst l'.
  split; [exact (s_alarms _ _ _ _ _ S)|]. split; [exact (s_quiet _ _ _ _ _ S)|]. intros U A NE. apply agrees_fresh in A. destruct (s_fresh _ _ _ _ _ S U A) as (_ & _ & L). specialize (L NE).
  rewrite value_prescribed. unfold limit in L. fold Max. cbn [bare with_levels db] in L. destruct (prescribed (mSchema E) (db s) Max) as [v|] eqn:P.
  - exists v. split; [reflexivity|exact L].
  - exfalso. unfold prescribed in P. destruct C as (_ & _ & CM & _). fold Max in CM. destruct (stored (db s) Max) as [[x|]|]; [discriminate| |]; destruct (mSchema E Max); try discriminate; contradiction (CM eq_refl).
Qed.
Print Assumptions C99_alarms.

(** Any number of statements, whatever fails: the program goes on, and the records of failures count the failures. *)
Theorem C99_run E dflt ndebug l : configured E dflt -> forall s, sound E s -> Forall (fun x => quote_free 34 (fst x)) l ->
  exists bs t m, logs 3 E ndebug s l = Ok (bs, t) /\ length bs = length l /\ sound E t /\ out t = out s ++ m /\ (stmts s <= stmts t)%nat /\ db_errors m = failures E (stmts s) (stmts t) /\
    (exists lost, lost ++ alarms t = alarms s ++ alarms_in E m) /\
    ((forall i, up E i = true) -> agrees E s -> agrees E t /\ Forall (fun b => b = true) bs).
Proof.
  intros C. induction l as [|[f level] l IH]; intros s I Q.
  - exists [], s, []. assert (Z0 : alarms_in E [] = []) by (unfold alarms_in; destruct (inited E); reflexivity). split; [reflexivity|]. split; [reflexivity|]. split; [exact I|]. split; [rewrite app_nil_r; reflexivity|]. split; [lia|].
    split; [rewrite failures_none; reflexivity|]. split; [exists []; rewrite Z0, app_nil_r; reflexivity|]. intros U A. split; [exact A|constructor].
  - inversion Q as [|x y Q1 Q2]. subst x y. cbn [fst] in Q1. cbn [logs].
    assert (H : exists b t1 m1, log 3 E ndebug s f level = Ok (b, t1) /\ step E (bare s) (bare t1) m1 6 /\ ((forall i, up E i = true) -> agrees E s -> b = true)).
    { pose proof (proj1 (sound_inv E s) I) as I'. destruct (ndebug && (level =? 7)) eqn:N.
      - exists true, s, []. unfold log. rewrite N. split; [reflexivity|]. split; [apply step_more with 0%nat; [apply step_refl; exact I'|lia]|reflexivity].
      - destruct (log_step E dflt ndebug s f level C Q1 I' N) as (b & t & m & R & S & _ & H). exists b, t, m. split; [exact R|]. split; [exact S|]. intros U A. destruct b; [reflexivity|exfalso].
        assert (ND : ~ (ndebug = true /\ level = 7)) by (intros [-> ->]; discriminate).
        destruct (remembered s f) as [lv|] eqn:Re; [destruct H; discriminate|]. destruct (C99_prescribed E dflt ndebug s f level C Q1 U A ND Re) as (t' & _ & _ & _ & R' & _). rewrite R in R'. discriminate. }
    destruct H as (b & t1 & m1 & R & S & B). rewrite R. cbn [bind]. destruct (IH t1 (proj2 (sound_inv E t1) (s_inv _ _ _ _ _ S)) Q2) as (bs & t & m & R2 & L2 & I2 & O2 & M2 & F2 & (p2 & A2) & G2). rewrite R2. cbn [bind].
    destruct (s_eff _ _ _ _ _ S) as (O1 & M1 & F1). destruct (s_alarms _ _ _ _ _ S) as (p1 & A1). cbn [bare with_levels out stmts alarms] in *.
    exists (b :: bs), t, (m1 ++ m). split; [reflexivity|]. split; [cbn [length]; rewrite L2; reflexivity|]. split; [exact I2|]. split; [rewrite O2, O1, app_assoc; reflexivity|]. split; [lia|].
    split; [rewrite errors_app, F2, (failures_add E (stmts s) (stmts t1) (stmts t)) by lia; unfold db_errors, isdb in *; rewrite F1; reflexivity|].
    split; [exists (p1 ++ p2); rewrite <- app_assoc, A2, app_assoc, A1, alarmed_app, app_assoc; reflexivity|].
    intros U A. pose proof (proj2 (agrees_fresh E t1) (proj1 (s_fresh _ _ _ _ _ S U (proj1 (agrees_fresh E s) A)))) as A'. destruct (G2 U A') as [G3 G4]. split; [exact G3|]. constructor; [exact (B U A)|exact G4].
Qed.
Print Assumptions C99_run.

(** *** Defects *)
Definition schema0 : schema := fun k =>
  if weqb k (lit "Log.Level") then Some (lit "NOTICE", lit "level") else if weqb k (lit "Log.Alarms.Max") then Some (lit "2", lit "alarms") else None.
Definition start (r : rows) : st := St [] 0 r [] 0 [] [] O O.
Definition summary (r : res (list bool * st)) : list bool * list (Z * note) * list note :=
  match r with Ok (b, s) => (b, out s, alarms s) | _ => ([], [], []) end.
Definition a_debug : rows := [(lit "Log.Level.A.cpp", Some (lit "DEBUG"))].
(** Defect: one statement of SQL that fails, the first, silences a file for the next thousand statements. *)
Theorem C99_silenced_refuted :
  summary (logs 3 (Env (fun n => Z.of_nat n) (fun i => negb (i =? 0)%nat) schema0 true) false (start a_debug) (repeat (lit "A.cpp", 6) 1001)) = (repeat true 1001, [(3, DbError)], []) /\
  summary (logs 3 (Env (fun n => Z.of_nat n) (fun _ => true) schema0 true) false (start a_debug) (repeat (lit "A.cpp", 6) 1001)) = (repeat true 1001, repeat (6, Own (lit "A.cpp") 6) 1001, []).
Proof. split; vm_compute; reflexivity. Qed.
Print Assumptions C99_silenced_refuted.
(** Defect: an exception leaves LOG if the second statement fails and the three seconds end between the two. *)
Theorem C99_throws_refuted :
  summary (logs 3 (Env (fun n => if (n =? 0)%nat then 2 else 3) (fun i => negb (i =? 1)%nat) schema0 true) false (start a_debug) [(lit "A.cpp", 0)]) =
  ([false], [(3, DbError); (7, Missing (lit "Log.Level.A.cpp"))], []).
Proof. vm_compute; reflexivity. Qed.
Print Assumptions C99_throws_refuted.
(** Defect: without "Log.Alarms.Max" in the schema an alarm ends the program. *)
Theorem C99_no_limit_refuted :
  logs 3 (Env (fun _ => 0) (fun _ => true) (fun k => if weqb k (lit "Log.Level") then Some (lit "NOTICE", lit "level") else None) true) false (start []) [(lit "A.cpp", 2)] = Abort.
Proof. vm_compute; reflexivity. Qed.
Print Assumptions C99_no_limit_refuted.
(** Defect: in a database that cannot be written an unknown level is an alarm again and again, and drives the others out. *)
Theorem C99_again_refuted :
  summary (logs 3 (Env (fun _ => 0) (fun i => (i <? 2)%nat) schema0 true) false (start [(lit "Log.Level.A.cpp", Some (lit "VERBOSE"))]) ((lit "A.cpp", 0) :: repeat (lit "A.cpp", 7) 2002)) =
  (repeat true 2003, [(2, BadLevel (lit "Log.Level.A.cpp") (lit "VERBOSE")); (3, DbError); (0, Own (lit "A.cpp") 0);
     (2, BadLevel (lit "Log.Level.A.cpp") (lit "VERBOSE")); (3, DbError); (2, BadLevel (lit "Log.Level.A.cpp") (lit "VERBOSE")); (3, DbError)],
   [BadLevel (lit "Log.Level.A.cpp") (lit "VERBOSE"); BadLevel (lit "Log.Level.A.cpp") (lit "VERBOSE")]).
Proof. vm_compute; reflexivity. Qed.
Print Assumptions C99_again_refuted.

(** *** Examples *)
Definition E0 : env := Env (fun n => Z.of_nat n) (fun _ => true) schema0 true.
Example C99_configured : configured E0 (lit "NOTICE") /\ sound E0 (start a_debug) /\ agrees E0 (start a_debug).
Proof.
  split; [|split; intros k v _ H; discriminate H]. split; [exists (lit "level"); reflexivity|]. split; [split; vm_compute; intuition discriminate|]. split; [discriminate|].
  intros k d text. cbn [mSchema E0]. unfold schema0. destruct (weqb k (lit "Log.Level")); [|destruct (weqb k (lit "Log.Alarms.Max")); [|discriminate]]; intros H; injection H as _ <-; split; vm_compute; intuition discriminate.
Qed.
(** An unknown level is corrected once; the rest as the levels say. *)
Example C99_ex : summary (logs 3 E0 false (start (a_debug ++ [(lit "Log.Level.B.cpp", Some (lit "LOUD"))]))
    [(lit "A.cpp", 7); (lit "B.cpp", 6); (lit "B.cpp", 5); (lit "C.cpp", 6); (lit "A.cpp", 1); (lit "B.cpp", 0)]) =
  (repeat true 6, [(7, Own (lit "A.cpp") 7); (2, BadLevel (lit "Log.Level.B.cpp") (lit "LOUD")); (5, Own (lit "B.cpp") 5); (1, Own (lit "A.cpp") 1); (0, Own (lit "B.cpp") 0)],
   [Own (lit "A.cpp") 1; Own (lit "B.cpp") 0]).
Proof. vm_compute; reflexivity. Qed.
