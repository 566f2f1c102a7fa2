(** Properties of the initialisation of logging and of the log file (C84). *)
From Verif Require Import Base BaseFacts UtilsModel UtilsSpec SqlModel SqlProofs KvModel ConfigModel IsoModel SchemaModel SchemaProps LoggerModel LoggerSpec LoggerProps LogFileModel.
Local Open Scope Z_scope.

(** ** Specification *)
(** Texts are without NUL: those in the configuration, and those of an event. *)
Definition clean_config (c : config) : Prop := forall k v, c k = Some v -> no_nul v.
Definition clean_opt (o : option (list Z)) : Prop := match o with Some v => no_nul v | None => True end.
Definition clean_event (e : event) : Prop :=
  match e with
  | Init name level _ _ stamp => clean_opt level /\ no_nul stamp
  | InitWithFile name level path _ _ stamp => clean_opt level /\ no_nul stamp
  | Log prio f stamp place msg => no_nul f /\ no_nul stamp /\ no_nul place /\ no_nul msg
  | Set_ k v => clean_opt v
  end.
Definition clean (E : env) (w : world) : Prop := no_nul (dflt E) /\ clean_config (lcfg (lg w)).
(** The event opens file p at time now, if none is open. *)
Definition may_open (E : env) (w : world) (e : event) (p : list Z) (now : Z) : Prop :=
  match e with
  | Init _ _ true t _ => t = now /\ lcfg (lg w) (lit "Log.File") = Some p /\ (3 < length p)%nat /\
      exists prefix rest, In prefix [lit "Open"; lit "RMSC"; lit "RangeFinderGW"] /\ cmd E = prefix ++ rest
  | InitWithFile _ _ (Some q) true t _ => t = now /\ q = p /\ p <> []
  | _ => False
  end.
Definition lines (recs : list (Z * list Z)) : list Z := concat (map (fun r => line_of (snd r)) recs).

(** ** Records *)
(** From w to w' only records were written, recs. *)
Definition wrote (recs : list (Z * list Z)) (w w' : world) : Prop :=
  wsys w' = wsys w ++ recs /\ gLogToFile w' = gLogToFile w /\ gPid w' = gPid w /\ gMutexLogLevel w' = gMutexLogLevel w /\
  match gLogToFile w with
  | None => forall q, fs w' q = fs w q
  | Some p => (forall q, q <> p -> fs w' q = fs w q) /\ forall c, fs w p = Some c -> fs w' p = Some (c ++ lines recs)
  end.
Lemma wrote_nil w w' : wsys w' = wsys w -> gLogToFile w' = gLogToFile w -> gPid w' = gPid w -> gMutexLogLevel w' = gMutexLogLevel w -> fs w' = fs w -> wrote [] w w'.
Proof.
  intros A B C D F. unfold wrote. rewrite A, app_nil_r. split; [reflexivity|]. split; [exact B|]. split; [exact C|]. split; [exact D|]. rewrite F. destruct (gLogToFile w); [|reflexivity]. split; [reflexivity|]. intros c H. unfold lines. cbn. rewrite app_nil_r. exact H.
Qed.
Lemma wrote_trans r1 r2 w1 w2 w3 : wrote r1 w1 w2 -> wrote r2 w2 w3 -> wrote (r1 ++ r2) w1 w3.
Proof.
  intros (A1 & B1 & C1 & D1 & F1) (A2 & B2 & C2 & D2 & F2). unfold wrote. rewrite A2, A1, B2, B1, C2, C1, D2, D1, app_assoc. repeat (split; [reflexivity|]). rewrite B1 in F2.
  destruct (gLogToFile w1) as [p|]; [|intros q; rewrite F2; apply F1]. destruct F1 as [F1 G1], F2 as [F2 G2]. split; [intros q N; rewrite F2 by exact N; apply F1, N|]. intros c H. rewrite (G2 _ (G1 _ H)). unfold lines. rewrite map_app, concat_app, app_assoc. reflexivity.
Qed.
Lemma no_nul_app a b : no_nul a -> no_nul b -> no_nul (a ++ b).
Proof. unfold no_nul. intros A B H. apply in_app_iff in H. tauto. Qed.
Lemma dec_digits_pos : forall k n, 0 <= n -> Forall (fun c => 48 <= c) (dec_digits k n).
Proof.
  induction k as [|k IH]; intros n H; cbn [dec_digits]; [constructor|]. apply Forall_app. split; [destruct (n <? 10); [constructor|apply IH; lia]|]. constructor; [lia|constructor].
Qed.
Lemma no_nul_number z : no_nul (sprintf_ld z).
Proof.
  unfold no_nul, sprintf_ld. intros H. destruct (Z.ltb_spec z 0); [destruct H as [H|H]; [lia|]|].
  - pose proof (dec_digits_pos 20 (- z) ltac:(lia)) as F. rewrite Forall_forall in F. specialize (F 0 H). lia.
  - pose proof (dec_digits_pos 20 z ltac:(lia)) as F. rewrite Forall_forall in F. specialize (F 0 H). lia.
Qed.
Ltac nonul := match goal with |- no_nul _ => unfold no_nul; vm_compute; intuition discriminate end.
Lemma Log_get_ok prio n : Log_get prio = Ok n -> exists name, nth_error levelNames (Z.to_nat prio) = Some name /\ 0 <= prio < 8 /\ n = name ++ lit " ".
Proof.
  unfold Log_get, assert_. destruct (Z.ltb_spec prio 8); [|discriminate]. cbn [bind]. destruct (Z.ltb_spec prio 0); [discriminate|]. intros X. apply bind_ok in X. destruct X as (name & R & X). apply Ok_inj in X. apply rd_ok in R. exists name. repeat split; try lia; congruence.
Qed.
Lemma levelNames_clean i name : nth_error levelNames i = Some name -> no_nul name.
Proof. unfold levelNames. do 8 (destruct i as [|i]; [intros H; injection H as <-; nonul|]). destruct i; discriminate. Qed.
Definition text_of (pid : Z) (name stamp place msg : list Z) : list Z := name ++ lit " " ++ sprintf_ld pid ++ lit ":" ++ stamp ++ lit " " ++ place ++ lit ": " ++ msg.
Lemma log_wrote E w prio stamp place msg w' : log_ E w prio stamp place msg = Ok w' -> no_nul stamp -> no_nul place -> no_nul msg ->
  exists name, nth_error levelNames (Z.to_nat prio) = Some name /\ 0 <= prio < 8 /\ lg w' = lg w /\ wrote [(prio, text_of (gPid w) name stamp place msg)] w w'.
Proof.
  intros H N1 N2 N3. unfold log_ in H. apply bind_ok in H. destruct H as (n & G & H). apply Log_get_ok in G. destruct G as (name & L & P & ->). exists name. split; [exact L|]. split; [exact P|].
  set (text := (name ++ lit " ") ++ sprintf_ld (gPid w) ++ lit ":" ++ stamp ++ lit " " ++ place ++ lit ": " ++ msg) in H.
  assert (T : no_nul text). { unfold text. pose proof (levelNames_clean _ _ L). pose proof (no_nul_number (gPid w)). repeat apply no_nul_app; try assumption; nonul. }
  assert (TT : text = text_of (gPid w) name stamp place msg) by (unfold text, text_of; rewrite <- app_assoc; reflexivity). rewrite <- TT. clearbody text. apply Ok_inj in H. subst w'. cbn [lg]. split; [reflexivity|].
  set (b := match gLogToFile w with Some p => match fs w p with Some c => c | None => [] end | None => [] end).
  destruct (C64_record (Out (walarms w) (werr w) (wsys w) b) prio text true (console E) (match gLogToFile w with Some _ => true | None => false end) (limit E) T) as (S & _ & _ & F). cbn [sysout fileout] in S, F.
  unfold wrote. cbn [wsys gLogToFile gPid gMutexLogLevel fs]. rewrite S. repeat (split; [reflexivity|]). unfold b in *. destruct (gLogToFile w) as [p|]; [|reflexivity]. split.
  - intros q N. unfold fset. destruct (weqb p q) eqn:Q; [apply weqb_iff in Q; congruence|reflexivity].
  - intros c C. unfold fset. rewrite weqb_refl. rewrite F, C. unfold lines. cbn [map concat snd]. rewrite app_nil_r. reflexivity.
Qed.
Lemma cset_clean c k v : clean_config c -> no_nul v -> clean_config (cset c k v).
Proof. intros C V x y. unfold cset. destruct (weqb k x); [intros H; injection H as <-; exact V|apply C]. Qed.
Lemma decide_clean c f key val : clean_config c -> no_nul f -> decide c f = (key, Some val) -> no_nul key /\ no_nul val.
Proof.
  intros C F H. unfold decide in H. destruct (c (lit "Log.Level." ++ f)) as [[|x v]|] eqn:G.
  - injection H as <- H. split; [nonul|exact (C _ _ H)].
  - apply pair_equal_spec in H. destruct H as [<- H]. injection H as <-. split; [apply no_nul_app; [nonul|exact F]|exact (C _ _ G)].
  - injection H as <- H. split; [nonul|exact (C _ _ H)].
Qed.
Lemma q_lookup_clean d s f level s' : q_lookup d s f = Ok (level, s') -> no_nul d -> clean_config (lcfg s) -> clean_config (lcfg s').
Proof.
  intros H D C. unfold q_lookup in H. apply bind_ok in H. destruct H as ([l c] & G & H). apply Ok_inj in H. injection H as <- <-. cbn [lcfg]. unfold getLoggingLevel, lookupLevel, lookupLevel2 in G.
  repeat match type of G with context [match ?x with _ => _ end] => destruct x end; try discriminate; apply Ok_inj in G; injection G as _ <-; try assumption; apply cset_clean; assumption.
Qed.
Lemma q_enter_cfg s f hit s' : q_enter s f = (hit, s') -> lcfg s' = lcfg s.
Proof. unfold q_enter. destruct (1000 <? lcount s); intros H; injection H as _ <-; reflexivity. Qed.
Lemma query_wrote E w stamp f level w' : query E w stamp f = Ok (level, w') -> clean E w -> no_nul stamp -> no_nul f -> clean E w' /\ exists recs, wrote recs w w'.
Proof.
  intros H [D C] N F. unfold query in H. destruct (q_enter (lg w) f) as [hit s] eqn:Q. pose proof (q_enter_cfg _ _ _ _ Q) as QC.
  assert (W0 : wrote [] w (with_lg w s)) by (apply wrote_nil; reflexivity).
  destruct hit as [l|]; [apply Ok_inj in H; injection H as _ <-; split; [split; [exact D|cbn [with_lg lg]; rewrite QC; exact C]|exists []; exact W0]|].
  apply bind_ok in H. destruct H as (w1 & M & H). apply bind_ok in H. destruct H as ([l s2] & L & H). apply Ok_inj in H. injection H as _ <-. change (lg (with_lg w s)) with s in M. rewrite QC in M.
  assert (M' : lg w1 = s /\ exists recs, wrote recs w w1).
  { destruct (decide (lcfg (lg w)) f) as [key val] eqn:K. destruct val as [val|]; [|apply Ok_inj in M; subst w1; split; [reflexivity|exists []; exact W0]].
    destruct (levelStringToInt val =? -1); [|apply Ok_inj in M; subst w1; split; [reflexivity|exists []; exact W0]]. destruct (decide_clean _ _ _ _ C F K) as [K1 K2].
    apply log_wrote in M; [|exact N|nonul|]. - destruct M as (name & _ & _ & G & M). split; [exact G|]. exists ([] ++ [(2, text_of (gPid (with_lg w s)) name stamp (lit "Logger.cpp:105:lookupLevel2") (undefined_level (dflt E) key val))]). apply (wrote_trans _ _ _ _ _ W0 M).
    - unfold undefined_level. repeat apply no_nul_app; try assumption; nonul. }
  destruct M' as (G & recs & M'). split.
  - split; [exact D|]. cbn [with_lg lg q_insert lcfg]. apply (q_lookup_clean _ _ _ _ _ L D). rewrite G, QC. exact C.
  - exists (recs ++ []). apply (wrote_trans _ _ _ _ _ M'). apply wrote_nil; reflexivity.
Qed.
Lemma mutex_wrote E w stamp w' : mutex_level E w stamp = Ok w' -> clean E w -> no_nul stamp -> clean E w' /\ exists recs,
  wrote recs w (World (lg w') (gMutexLogLevel w) (gPid w') (gLogToFile w') (fs w') (walarms w') (werr w') (wsys w')).
Proof.
  intros H C N. unfold mutex_level in H. apply bind_ok in H. destruct H as ([l w1] & Q & H). apply Ok_inj in H. subst w'. destruct (query_wrote _ _ _ _ _ _ Q C N ltac:(nonul)) as (C1 & recs & A & B & D & F & G). split; [exact C1|]. exists recs. unfold wrote. cbn. rewrite B in *. auto.
Qed.
(** Writing records, with any change of the level for mutexes, gPid and the configuration. *)
Definition wrote' (recs : list (Z * list Z)) (w w' : world) : Prop :=
  wsys w' = wsys w ++ recs /\ gLogToFile w' = gLogToFile w /\
  match gLogToFile w with
  | None => forall q, fs w' q = fs w q
  | Some p => (forall q, q <> p -> fs w' q = fs w q) /\ forall c, fs w p = Some c -> fs w' p = Some (c ++ lines recs)
  end.
Lemma wrote_weak recs w w' : wrote recs w w' -> wrote' recs w w'.
Proof. intros (A & B & _ & _ & F). repeat split; assumption. Qed.
Lemma set_level_clean E w level : clean E w -> clean_opt level -> clean E (set_level w level).
Proof. intros [D C] L. split; [exact D|]. destruct level as [l|]; [|exact C]. cbn [set_level with_lg lg lcfg]. apply cset_clean; assumption. Qed.
Lemma set_level_file w level : lcfg (lg (set_level w level)) (lit "Log.File") = lcfg (lg w) (lit "Log.File").
Proof. destruct level as [l|]; [|reflexivity]. cbn [set_level with_lg lg lcfg]. unfold cset. change (weqb (lit "Log.Level") (lit "Log.File")) with false. reflexivity. Qed.
Lemma set_level_same w level : gLogToFile (set_level w level) = gLogToFile w /\ fs (set_level w level) = fs w /\ wsys (set_level w level) = wsys w.
Proof. destruct level; repeat split. Qed.
Lemma open_ok E w name p opens now w' : open_file E w name p opens now = Ok w' -> lg w' = lg w /\
  if opens then exists iso, isoTime (off E) now true = Ok iso /\ gLogToFile w' = Some p /\ fs w' = fset (fs w) p (lit "Starting at " ++ iso ++ [10]) /\ wsys w' = wsys w else w' = w.
Proof.
  intros H. unfold open_file in H. destruct opens; [|apply Ok_inj in H; subst; auto]. apply bind_ok in H. destruct H as (iso & I & H). apply Ok_inj in H. subst w'. cbn. split; [reflexivity|]. exists iso. auto.
Qed.
Lemma startsWith_spec b p : startsWith b p = true <-> exists r, b = p ++ r.
Proof.
  unfold startsWith. rewrite weqb_iff. split; [intros H; exists (skipn (length p) b); rewrite <- H at 1; symmetry; apply firstn_skipn|]. intros (r & ->). rewrite firstn_app, Nat.sub_diag, firstn_all, firstn_O, app_nil_r. reflexivity.
Qed.
(** One event: only records, or the file opened and then records. *)
Lemma step_spec E w e w' : step E w e = Ok w' -> clean E w -> clean_event e -> clean E w' /\
  ((exists recs, wrote' recs w w') /\ (gLogToFile w = None -> forall p now, ~ may_open E w e p now) \/
   gLogToFile w = None /\ exists p now iso recs, may_open E w e p now /\ isoTime (off E) now true = Ok iso /\ gLogToFile w' = Some p /\
     wsys w' = wsys w ++ recs /\ fs w' p = Some (lit "Starting at " ++ iso ++ [10] ++ lines recs) /\ forall q, q <> p -> fs w' q = fs w q).
Proof.
  intros H C CE. assert (OPEN : forall w1 w2 p iso stamp, clean E w1 -> no_nul stamp -> gLogToFile w1 = Some p -> fs w1 = fset (fs w) p (lit "Starting at " ++ iso ++ [10]) -> wsys w1 = wsys w -> mutex_level E w1 stamp = Ok w2 ->
     clean E w2 /\ exists recs, gLogToFile w2 = Some p /\ wsys w2 = wsys w ++ recs /\ fs w2 p = Some (lit "Starting at " ++ iso ++ [10] ++ lines recs) /\ forall q, q <> p -> fs w2 q = fs w q).
  { intros w1 w2 p iso stamp C1 N G F S M. destruct (mutex_wrote _ _ _ _ M C1 N) as (C2 & recs & A & B & _ & _ & D). split; [exact C2|]. exists recs. cbn [wsys gLogToFile fs] in *. rewrite G in *. split; [exact B|]. split; [rewrite A, S; reflexivity|]. destruct D as [D1 D2]. split.
    - rewrite (D2 (lit "Starting at " ++ iso ++ [10])); [rewrite <- !app_assoc; reflexivity|]. rewrite F. unfold fset. rewrite weqb_refl. reflexivity.
    - intros q N'. rewrite (D1 q N'), F. unfold fset. destruct (weqb p q) eqn:Q; [apply weqb_iff in Q; congruence|reflexivity]. }
  assert (PLAIN : forall w1 stamp w2, clean E w1 -> no_nul stamp -> gLogToFile w1 = gLogToFile w -> fs w1 = fs w -> wsys w1 = wsys w -> mutex_level E w1 stamp = Ok w2 -> clean E w2 /\ exists recs, wrote' recs w w2).
  { intros w1 stamp w2 C1 N G F S M. destruct (mutex_wrote _ _ _ _ M C1 N) as (C2 & recs & A & B & _ & _ & D). split; [exact C2|]. exists recs. unfold wrote'. cbn [wsys gLogToFile fs] in *. rewrite A, B, S, G. rewrite G in D. rewrite F in D. auto. }
  destruct e as [name level opens now stamp|name level path opens now stamp|prio f stamp place msg|k v]; cbn [step clean_event] in *.
  - destruct CE as [CL CS]. unfold gLogInit in H. pose proof (set_level_clean E w level C CL) as C1. pose proof (set_level_file w level) as SF. destruct (set_level_same w level) as (S1 & S2 & S3). set (w1 := set_level w level) in *.
    set (w1' := World (lg w1) (gMutexLogLevel w1) (pid E) (gLogToFile w1) (fs w1) (walarms w1) (werr w1) (wsys w1)) in H. change (lg w1') with (lg w1) in H. rewrite SF in H.
    destruct (lcfg (lg w) (lit "Log.File")) as [str|] eqn:LF; [|discriminate]. apply bind_ok in H. destruct H as (w2 & O & H). change (gLogToFile w1') with (gLogToFile w1) in O. rewrite S1 in O.
    set (pre := startsWith (cmd E) (lit "Open") || startsWith (cmd E) (lit "RMSC") || startsWith (cmd E) (lit "RangeFinderGW")) in O.
    assert (PRE : pre = true <-> exists prefix rest, In prefix [lit "Open"; lit "RMSC"; lit "RangeFinderGW"] /\ cmd E = prefix ++ rest).
    { unfold pre. rewrite !orb_true_iff, !startsWith_spec. split.
      - intros [[(r & X)|(r & X)]|(r & X)]; [exists (lit "Open")|exists (lit "RMSC")|exists (lit "RangeFinderGW")]; exists r; (split; [cbn [In]; tauto|exact X]).
      - intros (p & r & [<-|[<-|[<-|[]]]] & X); [left; left|left; right|right]; exists r; exact X. }
    destruct (match gLogToFile w with None => true | Some _ => false end && negb (Nat.eqb (length str) 0) && pre && (3 <? length str)%nat && opens) eqn:B.
    + apply andb_true_iff in B. destruct B as [B ->]. apply andb_true_iff in B. destruct B as [B B4]. apply andb_true_iff in B. destruct B as [B B3]. apply andb_true_iff in B. destruct B as [B1 B2].
      rewrite B1, B2, B3, B4 in O. cbn [andb] in O. destruct (open_ok _ _ _ _ _ _ _ O) as (G & iso & I & G1 & G2 & G3). destruct (gLogToFile w) eqn:GN; [discriminate|].
      destruct (OPEN w2 w' str iso stamp) as (C3 & recs & R1 & R2 & R3 & R4); try assumption; [destruct C1 as [D1 D2]; split; [exact D1|rewrite G; exact D2]|rewrite G2; cbn [fs w1']; rewrite S2; reflexivity|rewrite G3; exact S3|].
      split; [exact C3|]. right. split; [reflexivity|]. exists str, now, iso, recs. cbn [may_open]. apply Nat.ltb_lt in B4. apply PRE in B3. auto 10.
    + assert (W2 : w2 = w1').
      { destruct (match gLogToFile w with None => true | Some _ => false end && negb (Nat.eqb (length str) 0) && pre); [|apply Ok_inj in O; congruence]. destruct (3 <? length str)%nat; [|apply Ok_inj in O; congruence]. cbn [andb] in B. subst opens. apply open_ok in O. destruct O as [_ O]. exact O. }
      subst w2. destruct (PLAIN w1' stamp w') as (C3 & R); try assumption. split; [exact C3|]. left. split; [exact R|]. intros GN p t M. cbn [may_open] in M. destruct opens; [|exact M]. destruct M as (_ & M1 & M2 & M3).
      rewrite LF in M1. injection M1 as ->. rewrite GN in B. apply PRE in M3. rewrite M3 in B. cbn [andb] in B. apply Nat.ltb_lt in M2 as M4. rewrite M4 in B. destruct (length p); [lia|]. discriminate.
  - destruct CE as [CL CS]. unfold gLogInitWithFile in H. pose proof (set_level_clean E w level C CL) as C1. destruct (set_level_same w level) as (S1 & S2 & S3). set (w1 := set_level w level) in *. apply bind_ok in H. destruct H as (w2 & O & H). rewrite S1 in O.
    assert (NOT : w2 = w1 -> clean E w' /\ exists recs, wrote' recs w w') by (intros ->; apply (PLAIN w1 stamp w'); assumption).
    destruct (gLogToFile w) as [g|] eqn:GN; [apply Ok_inj in O; destruct (NOT (eq_sym O)) as [N1 N2]; split; [exact N1|]; left; split; [exact N2|discriminate]|].
    destruct path as [[|c p]|].
    + apply Ok_inj in O. destruct (NOT (eq_sym O)) as [N1 N2]. split; [exact N1|]. left. split; [exact N2|]. intros _ p t M. cbn [may_open] in M. destruct opens; [|exact M]. destruct M as (_ & <- & M). apply M. reflexivity.
    + pose proof (open_ok _ _ _ _ _ _ _ O) as (G & OO). destruct opens.
      * destruct OO as (iso & I & G1 & G2 & G3). destruct (OPEN w2 w' (c :: p) iso stamp) as (C3 & recs & R1 & R2 & R3 & R4); try assumption; [destruct C1 as [D1 D2]; split; [exact D1|rewrite G; exact D2]|rewrite G2, S2; reflexivity|rewrite G3; exact S3|].
        split; [exact C3|]. right. split; [reflexivity|]. exists (c :: p), now, iso, recs. split; [|auto 10]. cbn [may_open]. split; [reflexivity|]. split; [reflexivity|discriminate].
      * destruct (NOT OO) as [N1 N2]. split; [exact N1|]. left. split; [exact N2|]. intros _ q t M. exact M.
    + apply Ok_inj in O. destruct (NOT (eq_sym O)) as [N1 N2]. split; [exact N1|]. left. split; [exact N2|]. intros _ p t M. exact M.
  - destruct CE as (N1 & N2 & N3 & N4). unfold LOG in H. apply bind_ok in H. destruct H as ([level w1] & Q & H). destruct (query_wrote _ _ _ _ _ _ Q C N2 N1) as (C1 & r1 & W1). destruct (prio <=? level).
    + apply log_wrote in H; try assumption. destruct H as (nm & _ & _ & G & W2). split; [destruct C1 as [D1 D2]; split; [exact D1|rewrite G; exact D2]|]. left. split; [|intros _ p t M; exact M]. eexists. apply wrote_weak. apply (wrote_trans _ _ _ _ _ W1 W2).
    + apply Ok_inj in H. subst w1. split; [exact C1|]. left. split; [exists r1; apply wrote_weak, W1|intros _ p t M; exact M].
  - apply Ok_inj in H. subst w'. split; [destruct C as [D C]; split; [exact D|]; cbn [with_lg lg lcfg]; intros x y; destruct (weqb k x); [intros ->; exact CE|apply C]|]. left. split; [|intros _ p t M; exact M]. exists []. apply wrote_weak, wrote_nil; reflexivity.
Qed.
Lemma wrote'_trans r1 r2 w1 w2 w3 : wrote' r1 w1 w2 -> wrote' r2 w2 w3 -> wrote' (r1 ++ r2) w1 w3.
Proof.
  intros (A1 & B1 & F1) (A2 & B2 & F2). unfold wrote'. rewrite A2, A1, B2, B1, app_assoc. repeat (split; [reflexivity|]). rewrite B1 in F2.
  destruct (gLogToFile w1) as [p|]; [|intros q; rewrite F2; apply F1]. destruct F1 as [F1 G1], F2 as [F2 G2]. split; [intros q N; rewrite F2 by exact N; apply F1, N|]. intros c H. rewrite (G2 _ (G1 _ H)). unfold lines. rewrite map_app, concat_app, app_assoc. reflexivity.
Qed.
Lemma run_open E : forall l w w' p, run E w l = Ok w' -> clean E w -> Forall clean_event l -> gLogToFile w = Some p -> exists recs, wrote' recs w w'.
Proof.
  induction l as [|e l IH]; intros w w' p H C F G; cbn [run] in H.
  - apply Ok_inj in H. subst w'. exists []. apply wrote_weak, wrote_nil; reflexivity.
  - apply bind_ok in H. destruct H as (w1 & S & H). inversion F as [|? ? F1 F2]. subst. destruct (step_spec _ _ _ _ S C F1) as (C1 & [[(r1 & W1) _]|[X _]]); [|congruence]. destruct (IH w1 w' p H C1 F2) as (r2 & W2); [destruct W1 as (_ & -> & _); exact G|]. exists (r1 ++ r2). apply (wrote'_trans _ _ _ _ _ W1 W2).
Qed.
(** ** The file *)
(** The first event that can opens the file; it then holds the time and all records from then on,
    those that go to syslog, one after the other; no other file changes.  Without such an event
    no file changes. *)
Theorem C84_file : forall E l w w', run E w l = Ok w' -> clean E w -> Forall clean_event l -> gLogToFile w = None ->
  match gLogToFile w' with
  | None => (forall q, fs w' q = fs w q) /\ forall l1 e l2 w1, l = l1 ++ e :: l2 -> run E w l1 = Ok w1 -> forall p now, ~ may_open E w1 e p now
  | Some p => exists l1 e l2 w1 now iso recs, l = l1 ++ e :: l2 /\ run E w l1 = Ok w1 /\ gLogToFile w1 = None /\ may_open E w1 e p now /\
      isoTime (off E) now true = Ok iso /\ wsys w' = wsys w1 ++ recs /\
      fs w' p = Some (lit "Starting at " ++ iso ++ [10] ++ lines recs) /\ forall q, q <> p -> fs w' q = fs w q
  end.
Proof.
  intros E. induction l as [|e l IH]; intros w w' H C F G; cbn [run] in H.
  - apply Ok_inj in H. subst w'. rewrite G. split; [reflexivity|]. intros [|x l1] e l2 w1 X; discriminate.
  - apply bind_ok in H. destruct H as (w1 & S & H). inversion F as [|? ? F1 F2]. subst. destruct (step_spec _ _ _ _ S C F1) as (C1 & [[(r1 & W1) NO]|(_ & p & now & iso & r1 & MO & I & G1 & S1 & FS & OT)]).
    + destruct W1 as (A1 & B1 & D1). rewrite G in B1, D1. specialize (IH w1 w' H C1 F2 B1). destruct (gLogToFile w') as [p|].
      * destruct IH as (l1 & e' & l2 & w2 & now & iso & recs & -> & R & G2 & MO & I & S2 & FS & OT). exists (e :: l1), e', l2, w2, now, iso, recs. split; [reflexivity|]. split; [cbn [run]; rewrite S; exact R|]. repeat (split; [assumption|]). intros q N. rewrite (OT q N). apply D1.
      * destruct IH as [FS NM]. split; [intros q; rewrite FS; apply D1|]. intros [|x l1] e' l2 w2 X R; cbn [app] in X; injection X as -> X; cbn [run] in R.
        -- apply Ok_inj in R. subst w2. exact (NO G).
        -- rewrite S in R. cbn [bind] in R. exact (NM l1 e' l2 w2 X R).
    + destruct (run_open E l w1 w' p H C1 F2 G1) as (r2 & A2 & B2 & D2). rewrite G1 in B2, D2. rewrite B2. destruct D2 as [D2 D3]. exists [], e, l, w, now, iso, (r1 ++ r2). split; [reflexivity|]. split; [reflexivity|]. repeat (split; [assumption|]).
      split; [rewrite A2, S1, app_assoc; reflexivity|]. split; [rewrite (D3 _ FS); unfold lines; rewrite map_app, concat_app, <- !app_assoc; reflexivity|]. intros q N. rewrite (D2 q N). exact (OT q N).
Qed.
Print Assumptions C84_file.
(** An event that can open the file does, unless one is open. *)
Theorem C84_opens : forall E w e w' p, step E w e = Ok w' -> clean E w -> clean_event e ->
  gLogToFile w' = Some p <-> match gLogToFile w with Some q => q = p | None => exists now, may_open E w e p now end.
Proof.
  intros E w e w' p H C F. destruct (step_spec _ _ _ _ H C F) as (_ & [[(r & _ & B & _) NO]|(G & q & now & iso & r & MO & _ & G1 & _)]).
  - rewrite B. destruct (gLogToFile w) as [q|]; [split; congruence|]. split; [discriminate|]. intros (now & M). exfalso. exact (NO eq_refl p now M).
  - rewrite G, G1. split; [intros X; injection X as <-; exists now; exact MO|]. intros (t & M). f_equal. destruct e as [? ? [] ? ?|? ? [q'|] [] ? ?| |]; cbn [may_open] in *; try contradiction; destruct MO as (_ & M1 & _), M as (_ & M2 & _); congruence.
Qed.
Print Assumptions C84_opens.

(** ** Levels *)
Definition known (l : list Z) : Prop := In l (map fst level_table).
Lemma known_iff l : known l <-> levelStringToInt l <> -1.
Proof.
  split.
  - intros H. unfold known in H. apply in_map_iff in H. destruct H as ([n k] & <- & I). cbn [fst]. rewrite (proj1 (C52_level_names n) k I). clear -I. unfold level_table in I. cbn [In] in I. repeat (destruct I as [I|I]; [injection I as _ <-; discriminate|]). destruct I.
  - intros H. destruct (in_dec (list_eq_dec Z.eq_dec) l (map fst level_table)) as [I|N]; [exact I|]. exfalso. apply H. exact (proj2 (C52_level_names l) N).
Qed.
(** The values a query looks at, and what it leaves. *)
Lemma query_config E w stamp f level w' : query E w stamp f = Ok (level, w') -> clean E w -> no_nul stamp -> no_nul f ->
  (lcfg (lg w') = lcfg (lg w) \/ exists key v, deciding_key (lcfg (lg w)) f key /\ lcfg (lg w) key = Some v /\ ~ known v /\ lcfg (lg w') = cset (lcfg (lg w)) key (dflt E)) /\
  (fst (q_enter (lg w) f) = None -> prescribes (dflt E) (lcfg (lg w)) f level).
Proof.
  intros H [D C] N F. unfold query in H. destruct (q_enter (lg w) f) as [hit s] eqn:Q. pose proof (q_enter_cfg _ _ _ _ Q) as QC. cbn [fst].
  destruct hit as [l|]; [apply Ok_inj in H; injection H as _ <-; split; [left; exact QC|discriminate]|].
  apply bind_ok in H. destruct H as (w1 & M & H). apply bind_ok in H. destruct H as ([l s2] & L & H). apply Ok_inj in H. injection H as <- <-. change (lg (with_lg w s)) with s in M. rewrite QC in M.
  assert (G : lg w1 = s).
  { destruct (decide (lcfg (lg w)) f) as [key val] eqn:K. destruct val as [val|]; [|apply Ok_inj in M; subst w1; reflexivity]. destruct (levelStringToInt val =? -1); [|apply Ok_inj in M; subst w1; reflexivity]. destruct (decide_clean _ _ _ _ C F K) as [K1 K2].
    apply log_wrote in M; [|exact N|nonul|]. - destruct M as (name & _ & _ & G & M). exact G. - unfold undefined_level. repeat apply no_nul_app; try assumption; nonul. }
  unfold q_lookup in L. apply bind_ok in L. destruct L as ([l' c'] & GL & L). apply Ok_inj in L. injection L as <- <-. rewrite G, QC in GL. cbn [with_lg lg q_insert lcfg]. split; [|intros _; exact (C52_lookup _ _ _ _ _ GL)].
  destruct (getLoggingLevel_spec _ _ _ _ _ GL) as (key & v & DK & EV & _ & X). destruct X as [[_ X]|X]; [left; exact X|]. right. exists key, v. destruct X as [X1 X2]. auto.
Qed.

Definition level_of (e : event) : option (option (list Z)) := match e with Init _ l _ _ _ | InitWithFile _ l _ _ _ _ => Some l | _ => None end.
Definition stamp_of (e : event) : list Z := match e with Init _ _ _ _ s | InitWithFile _ _ _ _ _ s => s | _ => [] end.
Lemma init_query E w e w' level : step E w e = Ok w' -> level_of e = Some level -> exists w2 l w3,
  query E w2 (stamp_of e) (lit "Mutex.cpp") = Ok (l, w3) /\ lg w2 = lg (set_level w level) /\ wsys w2 = wsys w /\
  gPid w2 = match e with Init _ _ _ _ _ => pid E | _ => gPid w end /\ lg w' = lg w3 /\ wsys w' = wsys w3 /\ gMutexLogLevel w' = l /\ gPid w' = gPid w3.
Proof.
  intros H L. destruct (set_level_same w level) as (_ & _ & S3). assert (S4 : gPid (set_level w level) = gPid w) by (destruct level; reflexivity).
  assert (MU : forall w2 stamp, mutex_level E w2 stamp = Ok w' -> exists l w3, query E w2 stamp (lit "Mutex.cpp") = Ok (l, w3) /\ lg w' = lg w3 /\ wsys w' = wsys w3 /\ gMutexLogLevel w' = l /\ gPid w' = gPid w3).
  { intros w2 stamp M. unfold mutex_level in M. apply bind_ok in M. destruct M as ([l w3] & Q & M). apply Ok_inj in M. subst w'. exists l, w3. auto. }
  assert (OP : forall w1 name p opens now w2, open_file E w1 name p opens now = Ok w2 -> lg w2 = lg w1 /\ wsys w2 = wsys w1 /\ gPid w2 = gPid w1).
  { intros w1 name p opens now w2 O. unfold open_file in O. destruct opens; [|apply Ok_inj in O; subst; auto]. apply bind_ok in O. destruct O as (iso & _ & O). apply Ok_inj in O. subst. auto. }
  destruct e as [name lv opens now stamp|name lv path opens now stamp| |]; cbn [level_of] in L; try discriminate; injection L as ->; cbn [step stamp_of] in *.
  - unfold gLogInit in H. set (w1 := set_level w level) in *. set (w1' := World (lg w1) _ _ _ _ _ _ _) in H. destruct (lcfg (lg w1') (lit "Log.File")) as [str|]; [|discriminate]. apply bind_ok in H. destruct H as (w2 & O & H).
    assert (X : lg w2 = lg w1' /\ wsys w2 = wsys w1' /\ gPid w2 = gPid w1') by (match type of O with (if ?b then _ else _) = _ => destruct b end; [match type of O with (if ?b then _ else _) = _ => destruct b end; [exact (OP _ _ _ _ _ _ O)|]|]; apply Ok_inj in O; subst w2; auto).
    destruct X as (X1 & X2 & X3). destruct (MU _ _ H) as (l & w3 & Q & M). exists w2, l, w3. split; [exact Q|]. split; [exact X1|]. split; [rewrite X2; exact S3|]. split; [exact X3|exact M].
  - unfold gLogInitWithFile in H. set (w1 := set_level w level) in *. apply bind_ok in H. destruct H as (w2 & O & H).
    assert (X : lg w2 = lg w1 /\ wsys w2 = wsys w1 /\ gPid w2 = gPid w1) by (repeat match type of O with (match ?b with _ => _ end) = _ => destruct b end; try (apply Ok_inj in O; subst w2; auto; fail); exact (OP _ _ _ _ _ _ O)).
    destruct X as (X1 & X2 & X3). destruct (MU _ _ H) as (l & w3 & Q & M). exists w2, l, w3. split; [exact Q|]. split; [exact X1|]. split; [rewrite X2; exact S3|]. split; [rewrite X3; exact S4|exact M].
Qed.
(** Initialising sets the level it is given; a name that is not known may have been replaced by
    the default at once.  No other key changes, except that for the file of the mutexes, in the same case. *)
Theorem C84_level : forall E w e w' l, step E w e = Ok w' -> clean E w -> clean_event e -> level_of e = Some (Some l) ->
  (lcfg (lg w') (lit "Log.Level") = Some l \/ ~ known l /\ lcfg (lg w') (lit "Log.Level") = Some (dflt E)) /\
  forall k, k <> lit "Log.Level" -> lcfg (lg w') k = lcfg (lg w) k \/
    k = lit "Log.Level.Mutex.cpp" /\ (exists v, lcfg (lg w) k = Some v /\ ~ known v) /\ lcfg (lg w') k = Some (dflt E).
Proof.
  intros E w e w' l H C CE L. destruct (init_query _ _ _ _ _ H L) as (w2 & lv & w3 & Q & X1 & X2 & X3 & X4 & X5 & X6 & X7).
  assert (CL : clean_opt (Some l) /\ no_nul (stamp_of e)) by (destruct e; cbn [level_of] in L; try discriminate; injection L as ->; exact CE). destruct CL as [CL CS].
  pose proof (set_level_clean E w (Some l) C CL) as C1. assert (C2 : clean E w2) by (destruct C1 as [D1 D2]; split; [exact D1|rewrite X1; exact D2]).
  destruct (query_config _ _ _ _ _ _ Q C2 CS ltac:(nonul)) as [K _]. rewrite X4. rewrite X1 in K. cbn [set_level with_lg lg lcfg] in K. set (c := cset (lcfg (lg w)) (lit "Log.Level") l) in *.
  assert (CL1 : c (lit "Log.Level") = Some l) by (unfold c, cset; rewrite weqb_refl; reflexivity). assert (CK : forall k, k <> lit "Log.Level" -> c k = lcfg (lg w) k) by (intros k N; unfold c, cset; destruct (weqb (lit "Log.Level") k) eqn:Y; [apply weqb_iff in Y; congruence|reflexivity]).
  destruct K as [K|(key & v & DK & EV & NK & K)]; rewrite K; [split; [left; exact CL1|intros k N; left; exact (CK k N)]|]. destruct DK as [[KK _]|[KK _]].
  - change (lit "Log.Level." ++ lit "Mutex.cpp") with (lit "Log.Level.Mutex.cpp") in KK. subst key. split; [left; unfold cset at 1; change (weqb (lit "Log.Level.Mutex.cpp") (lit "Log.Level")) with false; exact CL1|]. intros k N. unfold cset. destruct (weqb (lit "Log.Level.Mutex.cpp") k) eqn:Y; [|left; exact (CK k N)].
    apply weqb_iff in Y. subst k. right. split; [reflexivity|]. split; [|reflexivity]. exists v. rewrite <- (CK _ N). auto.
  - subst key. rewrite CL1 in EV. injection EV as <-. split; [right; split; [exact NK|unfold cset; rewrite weqb_refl; reflexivity]|]. intros k N. left. unfold cset. destruct (weqb (lit "Log.Level") k) eqn:Y; [apply weqb_iff in Y; congruence|exact (CK k N)].
Qed.
Print Assumptions C84_level.
(** The level for mutexes is the one the configuration then prescribes, unless one is cached. *)
Theorem C84_mutex : forall E w e w' level, step E w e = Ok w' -> clean E w -> clean_event e -> level_of e = Some level ->
  lcache (lg w) = [] \/ 1000 < lcount (lg w) -> prescribes (dflt E) (lcfg (lg (set_level w level))) (lit "Mutex.cpp") (gMutexLogLevel w').
Proof.
  intros E w e w' l H C CE L EM. destruct (init_query _ _ _ _ _ H L) as (w2 & lv & w3 & Q & X1 & X2 & X3 & X4 & X5 & X6 & X7).
  assert (CL : clean_opt l /\ no_nul (stamp_of e)) by (destruct e; cbn [level_of] in L; try discriminate; injection L as ->; exact CE). destruct CL as [CL CS].
  pose proof (set_level_clean E w l C CL) as C1. assert (C2 : clean E w2) by (destruct C1 as [D1 D2]; split; [exact D1|rewrite X1; exact D2]).
  destruct (query_config _ _ _ _ _ _ Q C2 CS ltac:(nonul)) as [_ K]. rewrite X1 in K. rewrite X6. apply K. unfold q_enter. assert (LC : lcache (lg (set_level w l)) = lcache (lg w) /\ lcount (lg (set_level w l)) = lcount (lg w)) by (destruct l; split; reflexivity). destruct LC as [-> ->].
  destruct (Z.ltb_spec 1000 (lcount (lg w))); cbn [fst cfind]; [reflexivity|]. destruct EM as [-> |]; [reflexivity|lia].
Qed.
Print Assumptions C84_mutex.
(** Defect: nothing but initialising ever changes it, whatever becomes of the configuration ... *)
Theorem C84_mutex_refuted : forall E l w w', run E w l = Ok w' -> clean E w -> Forall clean_event l -> Forall (fun e => level_of e = None) l -> gMutexLogLevel w' = gMutexLogLevel w.
Proof.
  intros E. induction l as [|e l IH]; intros w w' H C F N; cbn [run] in H; [apply Ok_inj in H; congruence|]. apply bind_ok in H. destruct H as (w1 & S & H). inversion F as [|? ? F1 F2]. inversion N as [|? ? N1 N2]. subst.
  destruct (step_spec _ _ _ _ S C F1) as (C1 & _). rewrite (IH w1 w' H C1 F2 N2). destruct e as [| |prio f stamp place msg|k v]; cbn [level_of] in N1; try discriminate; cbn [step clean_event] in *.
  - destruct F1 as (A1 & A2 & A3 & A4). unfold LOG in S. apply bind_ok in S. destruct S as ([lv w2] & Q & S). destruct (query_wrote _ _ _ _ _ _ Q C A2 A1) as (_ & r & _ & _ & _ & G & _). destruct (prio <=? lv); [|apply Ok_inj in S; congruence].
    apply log_wrote in S; try assumption. destruct S as (nm & _ & _ & _ & _ & _ & _ & G2 & _). congruence.
  - apply Ok_inj in S. subst w1. reflexivity.
Qed.
Print Assumptions C84_mutex_refuted.
(** ... and initialising again does not either, as the first look-up is cached. *)
Lemma level_fresh E w e w' l n : step E w e = Ok w' -> clean E w -> clean_event e -> level_of e = Some (Some l) -> In (l, n) level_table -> lcache (lg w) = [] -> lcount (lg w) <= 1000 ->
  lcfg (lg w) (lit "Log.Level.Mutex.cpp") = None -> lg w' = LState (cset (lcfg (lg w)) (lit "Log.Level") l) [(computeHash (lit "Mutex.cpp"), n)] (lcount (lg w) + 1) /\ gMutexLogLevel w' = n /\ wsys w' = wsys w.
Proof.
  intros H C CE L I EM CT OWN. destruct (init_query _ _ _ _ _ H L) as (w2 & lv & w3 & Q & X1 & X2 & X3 & X4 & X5 & X6 & X7). pose proof (proj1 (C52_level_names l) n I) as LN. assert (KN : n <> -1). { rewrite <- LN. apply known_iff. unfold known. apply in_map_iff. exists (l, n). auto. }
  unfold query in Q. unfold q_enter in Q. rewrite X1 in Q. cbn [set_level with_lg lg lcfg lcache lcount] in Q. rewrite EM in Q. destruct (Z.ltb_spec 1000 (lcount (lg w))); [lia|]. cbn [cfind] in Q. cbn iota beta zeta in Q. set (c := cset (lcfg (lg w)) (lit "Log.Level") l) in *.
  assert (CL1 : c (lit "Log.Level") = Some l) by (unfold c, cset; rewrite weqb_refl; reflexivity). assert (CM : c (lit "Log.Level.Mutex.cpp") = None) by (unfold c, cset; change (weqb (lit "Log.Level") (lit "Log.Level.Mutex.cpp")) with false; exact OWN).
  assert (DE : decide c (lit "Mutex.cpp") = (lit "Log.Level", Some l)) by (unfold decide; change (lit "Log.Level." ++ lit "Mutex.cpp") with (lit "Log.Level.Mutex.cpp"); rewrite CM, CL1; reflexivity).
  cbn [with_lg lg lcfg] in Q. rewrite DE in Q. rewrite LN in Q. destruct (Z.eqb_spec n (-1)); [contradiction|]. cbn [bind] in Q.
  unfold q_lookup, getLoggingLevel, lookupLevel, lookupLevel2 in Q. cbn [with_lg lg lcfg] in Q. change (lit "Log.Level." ++ lit "Mutex.cpp") with (lit "Log.Level.Mutex.cpp") in Q. rewrite CM, CL1 in Q. rewrite LN in Q. destruct (Z.eqb_spec n (-1)); [contradiction|]. cbn [bind lcfg lcache lcount] in Q.
  apply Ok_inj in Q. injection Q as <- <-. rewrite X4, X5, X6. cbn [with_lg lg wsys]. split; [reflexivity|]. split; [reflexivity|exact X2].
Qed.
Theorem C84_mutex_again_refuted : forall E w e w' e' w'' l l' n, step E w e = Ok w' -> step E w' e' = Ok w'' -> clean E w -> clean_event e -> clean_event e' ->
  level_of e = Some (Some l) -> level_of e' = Some (Some l') -> In (l, n) level_table -> lcache (lg w) = [] -> lcount (lg w) < 1000 -> lcfg (lg w) (lit "Log.Level.Mutex.cpp") = None ->
  gMutexLogLevel w'' = n.
Proof.
  intros E w e w' e' w'' l l' n H H' C CE CE' L L' I EM CT OWN. destruct (level_fresh _ _ _ _ _ _ H C CE L I EM ltac:(lia) OWN) as (G & _ & _). destruct (init_query _ _ _ _ _ H' L') as (w2 & lv & w3 & Q & X1 & X2 & X3 & X4 & X5 & X6 & X7).
  unfold query, q_enter in Q. rewrite X1 in Q. cbn [set_level with_lg lg lcfg lcache lcount] in Q. rewrite G in Q. cbn [lcfg lcache lcount] in Q. destruct (Z.ltb_spec 1000 (lcount (lg w) + 1)); [lia|]. cbn [cfind] in Q. rewrite Z.eqb_refl in Q. apply Ok_inj in Q. injection Q as <- <-. exact X6.
Qed.
Print Assumptions C84_mutex_again_refuted.
(** A level that is not known gives one critical record which names it, and is replaced. *)
Theorem C84_complaint : forall E w e w' l, step E w e = Ok w' -> clean E w -> clean_event e -> level_of e = Some (Some l) -> lcache (lg w) = [] ->
  lcfg (lg w) (lit "Log.Level.Mutex.cpp") = None ->
  if in_dec (list_eq_dec Z.eq_dec) l (map fst level_table) then wsys w' = wsys w
  else lcfg (lg w') (lit "Log.Level") = Some (dflt E) /\ exists front, wsys w' = wsys w ++ [(2, lit "CRIT " ++ front ++ lit ": undefined logging level (Log.Level = """ ++ l ++
    lit """) defaulting to """ ++ dflt E ++ lit "."" Valid levels are: EMERG, ALERT, CRIT, ERR, WARNING, NOTICE, INFO or DEBUG")].
Proof.
  intros E w e w' l H C CE L EM OWN. destruct (init_query _ _ _ _ _ H L) as (w2 & lv & w3 & Q & X1 & X2 & X3 & X4 & X5 & X6 & X7).
  assert (CL : clean_opt (Some l) /\ no_nul (stamp_of e)) by (destruct e; cbn [level_of] in L; try discriminate; injection L as ->; exact CE). destruct CL as [CL CS].
  unfold query in Q. unfold q_enter in Q. rewrite X1 in Q. cbn [set_level with_lg lg lcfg lcache lcount] in Q. rewrite EM in Q. set (c := cset (lcfg (lg w)) (lit "Log.Level") l) in *.
  set (ct := (if 1000 <? lcount (lg w) then _ else _) : list (Z * Z) * Z) in Q. assert (CT : fst ct = []) by (unfold ct; destruct (1000 <? lcount (lg w)); reflexivity). destruct ct as [cache count]. cbn [fst] in CT. subst cache. cbn [cfind] in Q.
  assert (CL1 : c (lit "Log.Level") = Some l) by (unfold c, cset; rewrite weqb_refl; reflexivity). assert (CM : c (lit "Log.Level.Mutex.cpp") = None) by (unfold c, cset; change (weqb (lit "Log.Level") (lit "Log.Level.Mutex.cpp")) with false; exact OWN).
  assert (DE : decide c (lit "Mutex.cpp") = (lit "Log.Level", Some l)) by (unfold decide; change (lit "Log.Level." ++ lit "Mutex.cpp") with (lit "Log.Level.Mutex.cpp"); rewrite CM, CL1; reflexivity).
  cbn iota beta zeta in Q. set (s := LState c [] (count + 1)) in Q. change (lcfg s) with c in Q. rewrite DE in Q. apply bind_ok in Q. destruct Q as (w4 & M & Q). apply bind_ok in Q. destruct Q as ([l3 s3] & LU & Q). apply Ok_inj in Q. injection Q as _ <-. cbn [with_lg wsys lg] in X4, X5.
  destruct (in_dec (list_eq_dec Z.eq_dec) l (map fst level_table)) as [K|K].
  - apply known_iff in K. destruct (Z.eqb_spec (levelStringToInt l) (-1)); [contradiction|]. apply Ok_inj in M. subst w4. rewrite X5. exact X2.
  - assert (KN : levelStringToInt l = -1) by exact (proj2 (C52_level_names l) K). rewrite KN in M. change (-1 =? -1) with true in M. cbn iota in M. destruct C as [D C]. apply log_wrote in M; [|exact CS|nonul|unfold undefined_level; repeat apply no_nul_app; try assumption; nonul].
    destruct M as (name & NM & _ & G & W & _). change (Z.to_nat 2) with 2%nat in NM. injection NM as <-. split.
    + rewrite X4. cbn [q_insert lcfg]. unfold q_lookup in LU. apply bind_ok in LU. destruct LU as ([l4 c4] & GL & LU). apply Ok_inj in LU. injection LU as _ <-. cbn [lcfg]. rewrite G in GL. cbn [lg with_lg lcfg s] in GL.
      unfold getLoggingLevel, lookupLevel, lookupLevel2 in GL. change (lit "Log.Level." ++ lit "Mutex.cpp") with (lit "Log.Level.Mutex.cpp") in GL. rewrite CM, CL1, KN in GL. change (-1 =? -1) with true in GL. cbn iota in GL. apply Ok_inj in GL. injection GL as _ <-. unfold cset. rewrite weqb_refl. reflexivity.
    + exists (sprintf_ld (gPid w2) ++ lit ":" ++ stamp_of e ++ lit " " ++ lit "Logger.cpp:105:lookupLevel2"). rewrite X5, W. cbn [with_lg wsys]. rewrite X2. unfold text_of, undefined_level. cbn [gPid with_lg]. f_equal. f_equal. f_equal.
      change (lit "CRIT") with [67; 82; 73; 84]. change (lit "CRIT ") with ([67; 82; 73; 84] ++ lit " "). rewrite <- !app_assoc. reflexivity.
Qed.
Print Assumptions C84_complaint.

(** ** Lines *)
(** The level of a record can be read from its text. *)
Theorem C84_line : forall a b x y, (exists w w' E s p m, log_ E w a s p m = Ok w' /\ no_nul s /\ no_nul p /\ no_nul m /\ wsys w' = wsys w ++ [(a, x)]) ->
  (exists w w' E s p m, log_ E w b s p m = Ok w' /\ no_nul s /\ no_nul p /\ no_nul m /\ wsys w' = wsys w ++ [(b, y)]) -> x = y -> a = b.
Proof.
  assert (G : forall a x, (exists w w' E s p m, log_ E w a s p m = Ok w' /\ no_nul s /\ no_nul p /\ no_nul m /\ wsys w' = wsys w ++ [(a, x)]) -> exists name r, nth_error levelNames (Z.to_nat a) = Some name /\ 0 <= a < 8 /\ x = name ++ 32 :: r).
  { intros a x (w & w' & E & s & p & m & H & N1 & N2 & N3 & S). apply log_wrote in H; try assumption. destruct H as (name & L & P & _ & W & _). rewrite W in S. apply app_inv_head in S. injection S as <-. exists name. eexists. split; [exact L|]. split; [exact P|]. unfold text_of. reflexivity. }
  intros a b x y A B <-. destruct (G a x A) as (n1 & r1 & L1 & P1 & E1), (G b x B) as (n2 & r2 & L2 & P2 & E2). rewrite E1 in E2. clear G A B E1.
  assert (D : forall i n, nth_error levelNames i = Some n -> ~ In 32 n /\ forall j, nth_error levelNames j = Some n -> i = j).
  { intros i n H. unfold levelNames in *. do 8 (destruct i as [|i]; [injection H as <-; split; [vm_compute; intuition discriminate|]; intros j K; do 8 (destruct j as [|j]; [first [reflexivity|discriminate]|]); destruct j; discriminate|]). destruct i; discriminate. }
  destruct (D _ _ L1) as [S1 U1], (D _ _ L2) as [S2 _].
  assert (EQ : n1 = n2). { clear -E2 S1 S2. revert n2 S2 E2. induction n1 as [|c n1 IH]; intros [|d n2] S2 E2; cbn [app] in E2; [reflexivity|injection E2 as <- _; exfalso; apply S2; left; reflexivity|injection E2 as -> _; exfalso; apply S1; left; reflexivity|]. injection E2 as -> E2. f_equal. apply IH; [intros X; apply S1; right; exact X|intros X; apply S2; right; exact X|exact E2]. }
  subst n2. pose proof (U1 _ L2). lia.
Qed.
Print Assumptions C84_line.
(** Levels out of range: refused above, undefined behaviour below. *)
Theorem C84_range : forall E w prio s p m, (prio < 0 -> log_ E w prio s p m = UB) /\ (8 <= prio -> log_ E w prio s p m = Abort) /\ (0 <= prio < 8 -> exists w', log_ E w prio s p m = Ok w').
Proof.
  intros E w prio s p m. unfold log_, Log_get, assert_. destruct (Z.ltb_spec prio 8); destruct (Z.ltb_spec prio 0); try lia; (split; [intros P; try lia|split; [intros P; try lia|intros P; try lia]]); try reflexivity.
  cbn [bind]. destruct (nth_error levelNames (Z.to_nat prio)) as [n|] eqn:N; [|apply nth_error_None in N; change (length levelNames) with 8%nat in N; lia]. unfold rd. rewrite N. cbn [bind]. eexists. reflexivity.
Qed.
Print Assumptions C84_range.
(** Defect: after gLogInitWithFile alone, records carry the process number 0. *)
Theorem C84_pid_refuted : forall E l w w', run E w l = Ok w' -> clean E w -> Forall clean_event l -> Forall (fun e => match e with Init _ _ _ _ _ => False | _ => True end) l -> gPid w' = gPid w.
Proof.
  intros E. induction l as [|e l IH]; intros w w' H C F N; cbn [run] in H; [apply Ok_inj in H; congruence|]. apply bind_ok in H. destruct H as (w1 & S & H). inversion F as [|? ? F1 F2]. inversion N as [|? ? N1 N2]. subst.
  destruct (step_spec _ _ _ _ S C F1) as (C1 & _). rewrite (IH w1 w' H C1 F2 N2). destruct e as [|name lv path opens now stamp|prio f stamp place msg|k v]; [contradiction| | |].
  - destruct (init_query _ _ _ _ lv S eq_refl) as (w2 & l2 & w3 & Q & X1 & X2 & X3 & X4 & X5 & X6 & X7). cbn [clean_event] in F1. destruct F1 as [A1 A2]. pose proof (set_level_clean E w lv C A1) as C3. assert (C2 : clean E w2) by (destruct C3 as [D1 D2]; split; [exact D1|rewrite X1; exact D2]).
    destruct (query_wrote _ _ _ _ _ _ Q C2 A2 ltac:(nonul)) as (_ & r & _ & _ & G & _). congruence.
  - cbn [step clean_event] in *. destruct F1 as (A1 & A2 & A3 & A4). unfold LOG in S. apply bind_ok in S. destruct S as ([lv w2] & Q & S). destruct (query_wrote _ _ _ _ _ _ Q C A2 A1) as (_ & r & _ & _ & G & _). destruct (prio <=? lv); [|apply Ok_inj in S; congruence].
    apply log_wrote in S; try assumption. destruct S as (nm & _ & _ & _ & _ & _ & G2 & _). congruence.
  - apply Ok_inj in S. subst w1. reflexivity.
Qed.
Print Assumptions C84_pid_refuted.
(** gLogInit gives them the number of the process. *)
Theorem C84_pid : forall E w name level opens now stamp w', step E w (Init name level opens now stamp) = Ok w' -> clean E w -> clean_opt level -> no_nul stamp -> gPid w' = pid E.
Proof.
  intros E w name level opens now stamp w' H C CL CS. destruct (init_query _ _ _ _ level H eq_refl) as (w2 & l2 & w3 & Q & X1 & X2 & X3 & X4 & X5 & X6 & X7). pose proof (set_level_clean E w level C CL) as C3. assert (C2 : clean E w2) by (destruct C3 as [D1 D2]; split; [exact D1|rewrite X1; exact D2]).
  destruct (query_wrote _ _ _ _ _ _ Q C2 CS ltac:(nonul)) as (_ & r & _ & _ & G & _). congruence.
Qed.
Print Assumptions C84_pid.

(** ** Program name and groups *)
(** The programs that get a log file are those whose name begins with one of the three prefixes. *)
Theorem C84_cmd : forall buf name, length buf = 20%nat -> no_nul name -> exists b, set_cmd_name buf (Some name) = Ok b /\
  forall prefix, In prefix [lit "Open"; lit "RMSC"; lit "RangeFinderGW"] -> ((exists r, c_str b = prefix ++ r) <-> exists r, name = prefix ++ r).
Proof.
  intros buf name LB N. destruct (C75_name buf name LB N) as (b & E & _ & CB). exists b. split; [exact E|]. rewrite CB. change (lit ":") with [58]. set (t := firstn 18 name).
  intros prefix P. assert (PP : (length prefix <= 13)%nat /\ ~ In 58 prefix) by (cbn [In] in P; destruct P as [<-|[<-|[<-|[]]]]; (split; [vm_compute; lia|vm_compute; intuition discriminate])). destruct PP as [P1 P2]. split.
  - intros (r & X). assert (F1 : firstn (length prefix) (t ++ [58]) = prefix) by (rewrite X, firstn_app, Nat.sub_diag, firstn_all, firstn_O, app_nil_r; reflexivity).
    destruct (Nat.le_gt_cases (length prefix) (length t)) as [LE|GT].
    + rewrite firstn_app in F1. replace (length prefix - length t)%nat with 0%nat in F1 by lia. rewrite firstn_O, app_nil_r in F1. unfold t in F1. rewrite firstn_firstn, Nat.min_l in F1 by lia. exists (skipn (length prefix) name). rewrite <- F1 at 1. symmetry. apply firstn_skipn.
    + exfalso. apply P2. rewrite <- F1. rewrite firstn_app. apply in_app_iff. right. destruct (length prefix - length t)%nat eqn:D; [lia|]. left. reflexivity.
  - intros (r & X). unfold t. rewrite X. rewrite firstn_app. rewrite (firstn_all2 prefix) by lia. rewrite <- app_assoc. eexists. reflexivity.
Qed.
Print Assumptions C84_cmd.
(** The groups' levels start at 0, so that by group only emergencies pass. *)
Theorem C84_groups : exists levels, LogGroupInit = Ok levels /\ forall group level, (group < 6)%nat -> 0 <= level -> checkGroupLogLevel levels group level = Ok (level =? 0).
Proof.
  eexists. split; [vm_compute; reflexivity|]. intros group level G L. assert (X : (level =? 0) = (level <=? 0)) by lia. rewrite X. do 6 (destruct group as [|group]; [reflexivity|]). lia.
Qed.
Print Assumptions C84_groups.
(** Three records, the second below the level, the third without a newline of its own. *)
Definition ex_env : env := Env (lit "NOTICE") (fun _ => 0) 10 (lit "OpenBTS:") 77 false.
Definition ex_world : world := World (LState (fun k => if weqb k (lit "Log.File") then Some (lit "/tmp/log") else if weqb k (lit "Log.Level") then Some (lit "ERR") else None) [] 0) 0 0 None (fun _ => None) [] [] [].
Example C84_ex : exists w, run ex_env ex_world
    [Log 3 (lit "a.cpp") (lit "1") (lit "a.cpp:1:f") (lit "early"); Init (lit "bts") (Some (lit "LOUD")) true 0 (lit "1");
     Log 6 (lit "b.cpp") (lit "1") (lit "b.cpp:2:g") (lit "quiet"); Log 5 (lit "b.cpp") (lit "1") (lit "b.cpp:3:g") (lit "hello");
     InitWithFile (lit "bts") None (Some (lit "/tmp/other")) true 0 (lit "1")] = Ok w /\
  gLogToFile w = Some (lit "/tmp/log") /\ fs w (lit "/tmp/other") = None /\ gPid w = 77 /\ gMutexLogLevel w = 5 /\
  fs w (lit "/tmp/log") = Some (lit "Starting at 1970-01-01T00:00:00" ++ [10] ++
    lit "CRIT 77:1 Logger.cpp:105:lookupLevel2: undefined logging level (Log.Level = ""LOUD"") defaulting to ""NOTICE."" Valid levels are: EMERG, ALERT, CRIT, ERR, WARNING, NOTICE, INFO or DEBUG" ++ [10] ++
    lit "NOTICE 77:1 b.cpp:3:g: hello" ++ [10]).
Proof. eexists. split; [vm_compute; reflexivity|]. repeat split; vm_compute; reflexivity. Qed.
