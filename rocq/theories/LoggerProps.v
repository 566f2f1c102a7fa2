(** Properties C52, C53 and C64: levels, alarms, records and groups of the Logger. *)
From Verif Require Import Base BaseFacts UtilsModel UtilsSpec UtilsProofs SqlModel SqlProofs KvModel KvProps LoggerModel LoggerSpec.
Local Open Scope Z_scope.

(** Exactly thirteen names are known. *)
Theorem C52_level_names name :
  (forall level, In (name, level) level_table -> levelStringToInt name = level) /\
  (~ In name (map fst level_table) -> levelStringToInt name = -1).
Proof.
  split.
  - intros level H. unfold level_table in H. cbn [In] in H. repeat (destruct H as [H|H]; [injection H as <- <-; vm_compute; reflexivity|]). destruct H.
  - intros H. unfold level_table in H. cbn [map fst In] in H. unfold levelStringToInt. cbn [level_loop]. unfold levelNames. cbn [nth].
    repeat match goal with |- context [weqb name ?b] => let K := fresh in destruct (weqb name b) eqn:K; [exfalso; apply weqb_iff in K; apply H; rewrite K; tauto|clear K] end. reflexivity.
Qed.
Print Assumptions C52_level_names.
Lemma known_dec name : In name (map fst level_table) \/ ~ In name (map fst level_table).
Proof. destruct (in_dec (list_eq_dec Z.eq_dec) name (map fst level_table)); [left|right]; assumption. Qed.
Lemma known_level name : In name (map fst level_table) -> In (name, levelStringToInt name) level_table.
Proof.
  intros H. apply in_map_iff in H. destruct H as ([n l] & E & H). cbn [fst] in E. subst n. rewrite (proj1 (C52_level_names name) l H). exact H.
Qed.
Lemma table_nonneg n l : In (n, l) level_table -> 0 <= l.
Proof. intros H. unfold level_table in H. cbn [In] in H. repeat (destruct H as [H|H]; [injection H as _ <-; lia|]). destruct H. Qed.
Lemma lookupLevel2_spec dflt c key v level c' : lookupLevel2 dflt c key v = (level, c') ->
  stands_for dflt v level /\ ((In v (map fst level_table) /\ c' = c) \/ (~ In v (map fst level_table) /\ c' = cset c key dflt)).
Proof.
  unfold lookupLevel2. destruct (known_dec v) as [K|K].
  - pose proof (known_level v K) as T. pose proof (table_nonneg _ _ T). replace (levelStringToInt v =? -1) with false by lia. intros E. injection E as <- <-.
    split; [left; exact T|left; split; [exact K|reflexivity]].
  - rewrite (proj2 (C52_level_names v) K). cbn [Z.eqb Pos.eqb]. intros E. injection E as <- <-. split; [right; split; [exact K|]|right; split; [exact K|reflexivity]].
    destruct (known_dec dflt) as [D|D]; [left; apply known_level, D|right; split; [exact D|apply (proj2 (C52_level_names dflt)), D]].
Qed.
Lemma getLoggingLevel_spec dflt c file level c' : getLoggingLevel dflt c file = Ok (level, c') ->
  exists key v, deciding_key c file key /\ c key = Some v /\ stands_for dflt v level /\
    ((In v (map fst level_table) /\ c' = c) \/ (~ In v (map fst level_table) /\ c' = cset c key dflt)).
Proof.
  unfold getLoggingLevel. intros H.
  assert (D : forall k, (c (lit "Log.Level." ++ file) = None \/ c (lit "Log.Level." ++ file) = Some []) -> k = lit "Log.Level" -> lookupLevel dflt c k = Ok (level, c') ->
    exists key v, deciding_key c file key /\ c key = Some v /\ stands_for dflt v level /\ ((In v (map fst level_table) /\ c' = c) \/ (~ In v (map fst level_table) /\ c' = cset c key dflt))).
  { intros k N -> L. unfold lookupLevel in L. destruct (c (lit "Log.Level")) as [v|] eqn:E; [|discriminate]. apply Ok_inj in L. exists (lit "Log.Level"), v.
    split; [right; split; [reflexivity|exact N]|]. split; [exact E|]. apply (lookupLevel2_spec dflt c (lit "Log.Level") v level c' L). }
  destruct (c (lit "Log.Level." ++ file)) as [v|] eqn:E.
  - destruct v as [|x v]; [exact (D _ (or_intror eq_refl) eq_refl H)|]. change (Nat.eqb (length (x :: v)) 0) with false in H. cbv iota in H. apply Ok_inj in H.
    exists (lit "Log.Level." ++ file), (x :: v). split; [left; split; [reflexivity|exists (x :: v); split; [exact E|discriminate]]|]. split; [exact E|].
    apply (lookupLevel2_spec dflt c (lit "Log.Level." ++ file) (x :: v) level c' H).
  - exact (D _ (or_introl eq_refl) eq_refl H).
Qed.
(** What is looked up is what the configuration prescribes. *)
Theorem C52_lookup dflt c file level c' : getLoggingLevel dflt c file = Ok (level, c') -> prescribes dflt c file level.
Proof. intros H. destruct (getLoggingLevel_spec _ _ _ _ _ H) as (key & v & D & E & S & _). exists key, v. repeat split; assumption. Qed.
Print Assumptions C52_lookup.
(** The prescribed level is unique, so the look-up is exact. *)
Theorem C52_prescribed_unique dflt c file l1 l2 : prescribes dflt c file l1 -> prescribes dflt c file l2 -> l1 = l2.
Proof.
  assert (U : forall v l1 l2, In (v, l1) level_table -> In (v, l2) level_table -> l1 = l2).
  { intros v a b A B. rewrite <- (proj1 (C52_level_names v) a A). apply (proj1 (C52_level_names v)), B. }
  assert (I : forall v l, In (v, l) level_table -> In v (map fst level_table)) by (intros v l H; apply in_map_iff; exists (v, l); split; [reflexivity|exact H]).
  intros (k1 & v1 & D1 & E1 & S1) (k2 & v2 & D2 & E2 & S2).
  assert (v1 = v2) as ->.
  { destruct D1 as [[K1 (w1 & W1 & N1)]|[K1 N1]], D2 as [[K2 (w2 & W2 & N2)]|[K2 N2]]; subst; try congruence; exfalso; [destruct N2|destruct N1]; congruence. }
  destruct S1 as [S1|[N1 S1]], S2 as [S2|[N2 S2]]; [exact (U v2 l1 l2 S1 S2)|contradiction (N2 (I v2 l1 S1))|contradiction (N1 (I v2 l2 S2))|].
  destruct S1 as [S1|[M1 ->]], S2 as [S2|[M2 ->]]; [exact (U dflt l1 l2 S1 S2)|contradiction (M2 (I dflt l1 S1))|contradiction (M1 (I dflt l2 S2))|reflexivity].
Qed.
Print Assumptions C52_prescribed_unique.
(** A query changes the configuration only to replace an unknown level by the default. *)
Theorem C52_corrects dflt s f level s' : gGetLoggingLevel dflt s f = Ok (level, s') ->
  lcfg s' = lcfg s \/
  exists key v, deciding_key (lcfg s) (name_of f) key /\ lcfg s key = Some v /\ ~ In v (map fst level_table) /\ lcfg s' = cset (lcfg s) key dflt.
Proof.
  unfold gGetLoggingLevel. fold (name_of f). intros H. destruct (q_enter s (name_of f)) as [hit s1] eqn:Q.
  assert (C1 : lcfg s1 = lcfg s) by (unfold q_enter in Q; destruct (1000 <? lcount s); injection Q as _ <-; reflexivity).
  destruct hit as [l|]; [apply Ok_inj in H; injection H as _ <-; left; exact C1|].
  apply bind_ok in H. destruct H as ([l s2] & L & H). apply Ok_inj in H. injection H as _ <-. cbn [q_insert lcfg].
  unfold q_lookup in L. apply bind_ok in L. destruct L as ([l' c'] & G & L). apply Ok_inj in L. injection L as _ <-. cbn [lcfg]. rewrite C1 in G.
  destruct (getLoggingLevel_spec _ _ _ _ _ G) as (key & v & D & E & S & [[_ ->]|[K ->]]); [left; reflexivity|right; exists key, v; repeat split; assumption].
Qed.
Print Assumptions C52_corrects.

(** *** Freshness *)
(** Entries were prescribed at a query at most [lcount] queries before the [n]th. *)
Definition fresh (dflt : list Z) (past : list (list Z * config * Z)) (s : lstate) : Prop :=
  0 <= lcount s <= 1001 /\
  forall k level, cfind (lcache s) k = Some level ->
    exists j f c, nth_error past j = Some (f, c, level) /\ prescribes dflt c f level /\ computeHash f = k /\ Z.of_nat (length past) - Z.of_nat j <= lcount s.
Lemma cfind_insert m k v k' w : cfind (cinsert m k v) k' = Some w -> cfind m k' = Some w \/ (k' = k /\ w = v).
Proof.
  unfold cinsert. destruct (cfind m k) as [x|] eqn:E; [intros H; left; exact H|]. cbn [cfind]. destruct (k =? k') eqn:K; [intros H; injection H as <-; right; split; [lia|reflexivity]|intros H; left; exact H].
Qed.
Lemma fresh_step dflt past s f level s' : fresh dflt past s -> gGetLoggingLevel dflt s f = Ok (level, s') ->
  fresh dflt (past ++ [(name_of f, lcfg s, level)]) s' /\
  exists j f' c', nth_error (past ++ [(name_of f, lcfg s, level)]) j = Some (f', c', level) /\ prescribes dflt c' f' level /\ computeHash f' = computeHash (name_of f) /\ Z.of_nat (length past) - Z.of_nat j <= 1000.
Proof.
  intros [[C0 C1] F] H. unfold gGetLoggingLevel in H. fold (name_of f) in H.
  assert (F1 : exists cache count, q_enter s (name_of f) = (cfind cache (computeHash (name_of f)), LState (lcfg s) cache (count + 1)) /\ 0 <= count <= 1000 /\
    forall k l, cfind cache k = Some l -> exists j f c, nth_error past j = Some (f, c, l) /\ prescribes dflt c f l /\ computeHash f = k /\ Z.of_nat (length past) - Z.of_nat j <= count).
  { unfold q_enter. destruct (1000 <? lcount s) eqn:E.
    - exists [], 0. split; [reflexivity|]. split; [lia|]. intros k l K. discriminate.
    - exists (lcache s), (lcount s). split; [reflexivity|]. split; [lia|exact F]. }
  destruct F1 as (cache & count & Q & CC & F1). rewrite Q in H. clear Q F.
  assert (P : forall j (x : list Z * config * Z), nth_error past j = Some x -> nth_error (past ++ [(name_of f, lcfg s, level)]) j = Some x).
  { intros j x E. rewrite nth_error_app1; [exact E|]. apply nth_error_Some. rewrite E. discriminate. }
  destruct (cfind cache (computeHash (name_of f))) as [l|] eqn:E.
  - apply Ok_inj in H. injection H as -> <-. destruct (F1 _ _ E) as (j & f' & c' & N & Pr & Hh & A). split.
    + split; [cbn [lcount]; lia|]. cbn [lcache lcount]. intros k l K. destruct (F1 k l K) as (j' & g & d & N' & Pr' & Hh' & A'). exists j', g, d. split; [apply P, N'|]. split; [exact Pr'|]. split; [exact Hh'|]. rewrite app_length. cbn [length]. lia.
    + exists j, f', c'. split; [apply P, N|]. split; [exact Pr|]. split; [exact Hh|lia].
  - apply bind_ok in H. destruct H as ([l s2] & L & H). apply Ok_inj in H. injection H as -> <-. unfold q_lookup in L. apply bind_ok in L. destruct L as ([l' c'] & G & L). apply Ok_inj in L. injection L as -> <-.
    cbn [lcfg] in G. pose proof (C52_lookup _ _ _ _ _ G) as Pr.
    assert (Here : nth_error (past ++ [(name_of f, lcfg s, level)]) (length past) = Some (name_of f, lcfg s, level)) by (rewrite nth_error_app2, Nat.sub_diag by lia; reflexivity).
    split.
    + split; [cbn [q_insert lcount]; lia|]. cbn [q_insert lcache lcount]. intros k l K. apply cfind_insert in K. destruct K as [K|[-> ->]].
      * destruct (F1 k l K) as (j' & g & d & N' & Pr' & Hh' & A'). exists j', g, d. split; [apply P, N'|]. split; [exact Pr'|]. split; [exact Hh'|]. rewrite app_length. cbn [length]. lia.
      * exists (length past), (name_of f), (lcfg s). split; [exact Here|]. split; [exact Pr|]. split; [reflexivity|]. rewrite app_length. cbn [length]. lia.
    + exists (length past), (name_of f), (lcfg s). split; [exact Here|]. split; [exact Pr|]. split; [reflexivity|lia].
Qed.
Lemma lrun_fresh dflt l : forall past s tr s', fresh dflt past s -> lrun dflt s l = Ok (tr, s') ->
  forall i f c level, nth_error tr i = Some (f, c, level) ->
  exists j f' c', nth_error (past ++ tr) j = Some (f', c', level) /\ prescribes dflt c' f' level /\ computeHash f' = computeHash f /\
    (j <= length past + i)%nat /\ Z.of_nat (length past + i) - Z.of_nat j <= 1000.
Proof.
  induction l as [|[f0|k v] l IH]; intros past s tr s' F R i f c level N; cbn [lrun] in R.
  - apply Ok_inj in R. injection R as <- <-. destruct i; discriminate.
  - apply bind_ok in R. destruct R as ([l0 s1] & G & R). apply bind_ok in R. destruct R as ([tr1 s2] & R1 & R). apply Ok_inj in R. injection R as <- <-.
    destruct (fresh_step _ _ _ _ _ _ F G) as [F1 (j & f' & c' & Nj & Pr & Hh & A)]. destruct i as [|i].
    + cbn [nth_error] in N. injection N as <- <- <-. exists j, f', c'.
      assert (J : (j < length (past ++ [(name_of f0, lcfg s, l0)]))%nat) by (apply nth_error_Some; rewrite Nj; discriminate). rewrite app_length in J. cbn [length] in J.
      split; [|split; [exact Pr|split; [exact Hh|split; [lia|lia]]]].
      change ((name_of f0, lcfg s, l0) :: tr1) with ([(name_of f0, lcfg s, l0)] ++ tr1). rewrite app_assoc, nth_error_app1 by (rewrite app_length; cbn [length]; lia). exact Nj.
    + cbn [nth_error] in N. destruct (IH _ _ _ _ F1 R1 i f c level N) as (j' & g & d & Nj' & Pr' & Hh' & B1 & B2). rewrite <- app_assoc in Nj'. cbn [app] in Nj'. rewrite app_length in B1, B2. cbn [length] in B1, B2.
      exists j', g, d. split; [exact Nj'|]. split; [exact Pr'|]. split; [exact Hh'|]. split; lia.
  - refine (IH past _ tr s' _ R i f c level N). destruct F as [C F]. split; [exact C|]. cbn [lcache lcount]. exact F.
Qed.
(** The [i]th answer is what the configuration prescribed at the same query or at one of the
    1000 queries before, for a file with the same hash. *)
Theorem C52_fresh dflt c0 l tr s' : lrun dflt (LState c0 [] 0) l = Ok (tr, s') ->
  forall i f c level, nth_error tr i = Some (f, c, level) ->
  exists j f' c', nth_error tr j = Some (f', c', level) /\ prescribes dflt c' f' level /\ computeHash f' = computeHash f /\ (j <= i)%nat /\ (i - j <= 1000)%nat.
Proof.
  intros R i f c level N. destruct (lrun_fresh dflt l [] (LState c0 [] 0) tr s' ltac:(split; [cbn [lcount]; lia|intros k x K; discriminate]) R i f c level N) as (j & f' & c' & A & B & C & D & E).
  cbn [app length] in A, D, E. exists j, f', c'. repeat split; try assumption; lia.
Qed.
Print Assumptions C52_fresh.
(** For names of up to nine ASCII characters it is the same file. *)
Theorem C52_fresh_short_names dflt c0 l tr s' : lrun dflt (LState c0 [] 0) l = Ok (tr, s') ->
  (forall i f c level, nth_error tr i = Some (f, c, level) -> Forall ascii f /\ (length f <= 9)%nat) ->
  forall i f c level, nth_error tr i = Some (f, c, level) ->
  exists j c', nth_error tr j = Some (f, c', level) /\ prescribes dflt c' f level /\ (j <= i)%nat /\ (i - j <= 1000)%nat.
Proof.
  intros R A i f c level N. destruct (C52_fresh dflt c0 l tr s' R i f c level N) as (j & f' & c' & Nj & P & Hh & J1 & J2).
  destruct (A i f c level N) as [A1 A2]. destruct (A j f' c' level Nj) as [B1 B2]. assert (f' = f) as -> by (apply C51_nine_ascii; assumption). exists j, c'. repeat split; assumption.
Qed.
Print Assumptions C52_fresh_short_names.
Definition conf (l : list (list Z * list Z)) : config := fun k => match find (fun e => weqb (fst e) k) l with Some e => Some (snd e) | None => None end.
(** 1000 is exact: after a change the old level is still used for 1000 queries, not for more. *)
Definition repeated_query : list levent :=
  [Query (Some (lit "A.cpp")); Change (lit "Log.Level") (Some (lit "DEBUG"))] ++ repeat (Query (Some (lit "A.cpp"))) 1001.
Theorem C52_limit_reached : exists tr s', lrun (lit "NOTICE") (LState (conf [(lit "Log.Level", lit "ERR")]) [] 0) repeated_query = Ok (tr, s') /\
  map snd tr = repeat 3 1001 ++ [7].
Proof.
  destruct (lrun (lit "NOTICE") (LState (conf [(lit "Log.Level", lit "ERR")]) [] 0) repeated_query) as [[tr s']| | |] eqn:E.
  - exists tr, s'. split; [reflexivity|].
    assert (match lrun (lit "NOTICE") (LState (conf [(lit "Log.Level", lit "ERR")]) [] 0) repeated_query with Ok (tr, _) => map snd tr | _ => [] end = repeat 3 1001 ++ [7]) as K by (vm_compute; reflexivity).
    rewrite E in K. exact K.
  - exfalso. assert (match lrun (lit "NOTICE") (LState (conf [(lit "Log.Level", lit "ERR")]) [] 0) repeated_query with Abort => false | _ => true end = true) as K by (vm_compute; reflexivity). rewrite E in K. discriminate.
  - exfalso. assert (match lrun (lit "NOTICE") (LState (conf [(lit "Log.Level", lit "ERR")]) [] 0) repeated_query with UB => false | _ => true end = true) as K by (vm_compute; reflexivity). rewrite E in K. discriminate.
  - exfalso. assert (match lrun (lit "NOTICE") (LState (conf [(lit "Log.Level", lit "ERR")]) [] 0) repeated_query with Diverge => false | _ => true end = true) as K by (vm_compute; reflexivity). rewrite E in K. discriminate.
Qed.
Print Assumptions C52_limit_reached.
(** Defect: two files whose names collide share a level. *)
Definition levels_of (r : res (list (list Z * config * Z) * lstate)) : list Z := match r with Ok (tr, _) => map snd tr | _ => [] end.
Theorem C52_collision_refuted :
  levels_of (lrun (lit "NOTICE") (LState (conf [(lit "Log.Level", lit "ERR"); (lit "Log.Level.jn6zCGLrBz", lit "DEBUG")]) [] 0)
    [Query (Some (lit "jn6zCGLrBz")); Query (Some (lit "U3SIMVm40f"))]) = [7; 7] /\
  levels_of (lrun (lit "NOTICE") (LState (conf [(lit "Log.Level", lit "ERR"); (lit "Log.Level.jn6zCGLrBz", lit "DEBUG")]) [] 0)
    [Query (Some (lit "U3SIMVm40f"))]) = [3].
Proof. split; vm_compute; reflexivity. Qed.
Print Assumptions C52_collision_refuted.

(** *** Several threads *)
Definition cfresh (dflt : list Z) (past : list config) (s : cstate) : Prop :=
  (forall k level, cfind (lcache (cl s)) k = Some level -> exists f c, In c past /\ prescribes dflt c f level /\ computeHash f = k) /\
  (forall t f level, cph s t = CFound f level -> exists c, In c past /\ prescribes dflt c f level).
Lemma cfresh_step dflt past s e o s' : cfresh dflt past s -> In (lcfg (cl s)) past -> cstep_ dflt s e = (o, s') ->
  cfresh dflt past s' /\ (forall f level, o = Some (f, level) -> exists f' c, In c past /\ prescribes dflt c f' level /\ computeHash f' = computeHash f).
Proof.
  intros [F1 F2] I H. destruct e as [t f|t|t|k v]; cbn [cstep_] in H.
  - destruct (cph s t) as [|f0|f0 l0] eqn:P; [|injection H as <- <-; split; [split; assumption|discriminate]|injection H as <- <-; split; [split; assumption|discriminate]].
    unfold q_enter in H.
    assert (F1' : forall k l, cfind (if 1000 <? lcount (cl s) then [] else lcache (cl s)) k = Some l -> exists f c, In c past /\ prescribes dflt c f l /\ computeHash f = k) by (intros k l; destruct (1000 <? lcount (cl s)); [discriminate|apply F1]).
    destruct (1000 <? lcount (cl s)); cbn [cfind] in H.
    + injection H as <- <-. split; [|discriminate]. split; [cbn [cl lcache]; discriminate|]. cbn [cph]. intros t' f' l'. unfold set_phase. destruct (Nat.eqb t t'); [discriminate|apply F2].
    + destruct (cfind (lcache (cl s)) (computeHash f)) as [l|] eqn:C; injection H as <- <-.
      * split; [split; [exact F1'|exact F2]|]. intros f' l' E. injection E as <- <-. destruct (F1' _ _ C) as (g & c & A & B & D). exists g, c. repeat split; assumption.
      * split; [|discriminate]. split; [exact F1'|]. cbn [cph]. intros t' f' l'. unfold set_phase. destruct (Nat.eqb t t'); [discriminate|apply F2].
  - destruct (cph s t) as [|f0|f0 l0] eqn:P; [injection H as <- <-; split; [split; assumption|discriminate]| |injection H as <- <-; split; [split; assumption|discriminate]].
    assert (Quiet : cfresh dflt past (CState (cl s) (set_phase (cph s) t CIdle))).
    { split; [exact F1|]. cbn [cph]. intros t' f' l'. unfold set_phase. destruct (Nat.eqb t t'); [discriminate|apply F2]. }
    destruct (q_lookup dflt (cl s) f0) as [[l s1]| | |] eqn:L; injection H as <- <-; (split; [|discriminate]); try exact Quiet.
    unfold q_lookup in L. apply bind_ok in L. destruct L as ([l' c'] & G & L). apply Ok_inj in L. injection L as -> <-. split; [exact F1|].
    cbn [cph]. intros t' f' l'. unfold set_phase. destruct (Nat.eqb t t'); [|apply F2]. intros E. injection E as <- <-. exists (lcfg (cl s)). split; [exact I|exact (C52_lookup _ _ _ _ _ G)].
  - destruct (cph s t) as [|f0|f0 l0] eqn:P; [injection H as <- <-; split; [split; assumption|discriminate]|injection H as <- <-; split; [split; assumption|discriminate]|].
    injection H as <- <-. destruct (F2 t f0 l0 P) as (c & A & B). split.
    + split.
      * cbn [cl q_insert lcache]. intros k l K. apply cfind_insert in K. destruct K as [K|[-> ->]]; [exact (F1 k l K)|]. exists f0, c. repeat split; assumption.
      * cbn [cph]. intros t' f' l'. unfold set_phase. destruct (Nat.eqb t t'); [discriminate|apply F2].
    + intros f' l' E. injection E as <- <-. exists f0, c. repeat split; assumption.
  - injection H as <- <-. split; [split; [exact F1|exact F2]|discriminate].
Qed.
Lemma cfresh_more dflt past c s : cfresh dflt past s -> cfresh dflt (past ++ [c]) s.
Proof.
  intros [F1 F2]. split; [intros k l K; destruct (F1 k l K) as (f & d & A & B)|intros t f l K; destruct (F2 t f l K) as (d & A & B)].
  - exists f, d. split; [apply in_app_iff; left; exact A|exact B].
  - exists d. split; [apply in_app_iff; left; exact A|exact B].
Qed.
Lemma crun_known dflt l : forall past s os cs s', cfresh dflt past s -> crun dflt s l = (os, cs, s') ->
  forall f level, In (f, level) os -> exists f' c, In c (past ++ cs) /\ prescribes dflt c f' level /\ computeHash f' = computeHash f.
Proof.
  induction l as [|e l IH]; intros past s os cs s' F R f level N; cbn [crun] in R; [injection R as <- <- <-; destruct N|].
  destruct (cstep_ dflt s e) as [o s1] eqn:E. destruct (crun dflt s1 l) as [[os1 cs1] s2] eqn:R1. injection R as <- <- <-.
  destruct (cfresh_step _ (past ++ [lcfg (cl s)]) _ _ _ _ (cfresh_more _ _ (lcfg (cl s)) _ F) ltac:(apply in_app_iff; right; left; reflexivity) E) as [F1 O].
  assert (N' : o = Some (f, level) \/ In (f, level) os1) by (destruct o as [a|]; [destruct N as [->|N]; [left; reflexivity|right; exact N]|right; exact N]).
  destruct N' as [N'|N'].
  - destruct (O f level N') as (f' & c & A & B & D). exists f', c. split; [|split; assumption]. apply in_app_iff in A. apply in_app_iff. destruct A as [A|[A|[]]]; [left; exact A|right; left; exact A].
  - destruct (IH _ _ _ _ _ F1 R1 f level N') as (f' & c & A & B & D). exists f', c. split; [|split; assumption]. rewrite <- app_assoc in A. exact A.
Qed.
(** With threads interleaved in any way, an answer is what some configuration of the history
    prescribed for a file with the same hash. *)
Theorem C52_threads dflt c0 l os cs s' : crun dflt (CState (LState c0 [] 0) (fun _ => CIdle)) l = (os, cs, s') ->
  forall f level, In (f, level) os -> exists f' c, In c cs /\ prescribes dflt c f' level /\ computeHash f' = computeHash f.
Proof.
  intros R f level N. apply (crun_known dflt l [] (CState (LState c0 [] 0) (fun _ => CIdle)) os cs s' ltac:(split; [intros k x K; discriminate|intros t x y K; discriminate]) R f level N).
Qed.
Print Assumptions C52_threads.
(** Defect: a thread that is held up between look-up and insertion brings back a level from
    before any number of queries. *)
Definition held_up (n : nat) : list cevent :=
  [CEnter 0 (lit "A.cpp"); CLookup 0; CChange (lit "Log.Level") (Some (lit "DEBUG"))] ++
  [CEnter 1 (lit "B.cpp"); CLookup 1; CInsert 1] ++ repeat (CEnter 1 (lit "B.cpp")) n ++ [CInsert 0; CEnter 1 (lit "A.cpp")].
Theorem C52_held_up_refuted :
  let '(os, _, _) := crun (lit "NOTICE") (CState (LState (conf [(lit "Log.Level", lit "ERR")]) [] 0) (fun _ => CIdle)) (held_up 2500) in
  last os ([], -1) = (lit "A.cpp", 3).
Proof. vm_compute. reflexivity. Qed.
Print Assumptions C52_held_up_refuted.
Example C52_ex :
  levels_of (lrun (lit "NOTICE") (LState (conf [(lit "Log.Level", lit "ERR"); (lit "Log.Level.A", lit "DEBUG"); (lit "Log.Level.B", []); (lit "Log.Level.C", lit "LOUD")]) [] 0)
    [Query (Some (lit "A")); Query (Some (lit "B")); Query (Some (lit "C")); Query None; Change (lit "Log.Level.A") None; Query (Some (lit "A"))]) = [7; 3; 5; 3; 7].
Proof. vm_compute. reflexivity. Qed.

(** ** C53 *)
Lemma pop_while_spec l max : 0 <= max -> pop_while l max = last_n (Z.to_nat max) l.
Proof.
  intros M. unfold last_n. induction l as [|a l IH]; [reflexivity|]. cbn [pop_while]. destruct (max <? Z.of_nat (length (a :: l))) eqn:E.
  - rewrite IH. replace (length (a :: l) - Z.to_nat max)%nat with (S (length l - Z.to_nat max)) by (cbn [length] in *; lia). reflexivity.
  - replace (length (a :: l) - Z.to_nat max)%nat with O by (cbn [length] in *; lia). reflexivity.
Qed.
Lemma last_n_snoc {A} n m (l : list A) a : (m <= n + 1)%nat -> last_n m (last_n n l ++ [a]) = last_n m (l ++ [a]).
Proof.
  intros H. unfold last_n. set (d := (length l - n)%nat).
  assert (skipn d l ++ [a] = skipn d (l ++ [a])) as -> by (rewrite skipn_app; replace (d - length l)%nat with O by (unfold d; lia); reflexivity).
  rewrite skipn_skipn. f_equal. rewrite skipn_length, app_length. cbn [length]. unfold d. lia.
Qed.
Lemma last_n_length {A} n (l : list A) : length (last_n n l) = Nat.min n (length l).
Proof. unfold last_n. rewrite skipn_length. lia. Qed.
(** With a constant limit the list holds exactly the last alarms. *)
Theorem C53_last_alarms limit texts : 0 <= limit < 2 ^ 32 -> add_all (map (fun s => (s, limit)) texts) = last_n (Z.to_nat limit) texts.
Proof.
  intros H. unfold add_all. induction texts as [|s texts IH] using rev_ind; [reflexivity|]. rewrite map_app, fold_left_app, IH. cbn [map fold_left fst snd].
  unfold addAlarm. assert (u32 limit = limit) as -> by (unfold u32; lia). rewrite pop_while_spec by lia. apply last_n_snoc. lia.
Qed.
Print Assumptions C53_last_alarms.
(** Limits may change.  The list always holds the most recent alarms, no more than the
    limit in force at the last one ... *)
Lemma add_all_suffix l : exists k, add_all l = last_n k (map fst l) /\ forall s limit l', l = l' ++ [(s, limit)] -> Z.of_nat k <= u32 limit.
Proof.
  induction l as [|[s limit] l (k & E & _)] using rev_ind; [exists O; split; [reflexivity|intros s limit l' H; destruct l'; discriminate]|].
  unfold add_all in *. rewrite fold_left_app, E. cbn [fold_left fst snd]. unfold addAlarm. assert (R : 0 <= u32 limit < 2 ^ 32) by (unfold u32; lia). rewrite pop_while_spec by lia.
  exists (Nat.min (Z.to_nat (u32 limit)) (S k)). split.
  - rewrite map_app. cbn [map fst].
    rewrite <- (last_n_snoc k (Nat.min (Z.to_nat (u32 limit)) (S k)) (map fst l) s) by lia. set (x := last_n k (map fst l) ++ [s]).
    assert (length x <= S k)%nat by (unfold x; rewrite app_length, last_n_length; cbn [length]; lia). unfold last_n. f_equal. lia.
  - intros s' limit' l' H. apply app_inj_tail in H. destruct H as [_ H]. injection H as <- <-. lia.
Qed.
Theorem C53_changing_limits l s limit : exists k, add_all (l ++ [(s, limit)]) = last_n k (map fst (l ++ [(s, limit)])) /\ Z.of_nat k <= u32 limit.
Proof. destruct (add_all_suffix (l ++ [(s, limit)])) as (k & E & B). exists k. split; [exact E|exact (B s limit l eq_refl)]. Qed.
Print Assumptions C53_changing_limits.
(** ... and all of the last [n] if the limits allowed for [n] ever since they began. *)
Theorem C53_kept l recent : Forall (fun e => Z.of_nat (length recent) <= u32 (snd e)) recent ->
  exists older, add_all (l ++ recent) = older ++ map fst recent.
Proof.
  intros H.
  assert (G : forall done, (forall e, In e done -> Z.of_nat (length recent) <= u32 (snd e)) -> (length done <= length recent)%nat ->
    exists k, add_all (l ++ done) = last_n k (map fst (l ++ done)) /\ (length done <= k)%nat).
  { induction done as [|[s limit] done IH] using rev_ind; intros A L.
    - destruct (add_all_suffix l) as (k & E & _). exists k. rewrite app_nil_r. split; [exact E|cbn [length]; lia].
    - rewrite app_length in L. cbn [length] in L. destruct (IH ltac:(intros e I; apply A, in_app_iff; left; exact I) ltac:(lia)) as (k & E & B).
      specialize (A (s, limit) ltac:(apply in_app_iff; right; left; reflexivity)). cbn [snd] in A.
      unfold add_all in *. rewrite app_assoc, fold_left_app, E. cbn [fold_left fst snd]. unfold addAlarm. rewrite pop_while_spec by lia.
      exists (Nat.min (Z.to_nat (u32 limit)) (S k)). split; [|rewrite app_length; cbn [length]; lia].
      rewrite (map_app fst (l ++ done)). cbn [map fst]. rewrite <- (last_n_snoc k (Nat.min (Z.to_nat (u32 limit)) (S k)) (map fst (l ++ done)) s) by lia. set (x := last_n k (map fst (l ++ done)) ++ [s]).
      assert (length x <= S k)%nat by (unfold x; rewrite app_length, last_n_length; cbn [length]; lia). unfold last_n. f_equal. lia. }
  destruct (G recent ltac:(rewrite Forall_forall in H; exact H) ltac:(lia)) as (k & E & B). rewrite E, map_app. unfold last_n. rewrite app_length, !map_length.
  exists (skipn (length l + length recent - k) (map fst l)). rewrite skipn_app, map_length. replace (length l + length recent - k - length l)%nat with O by lia. rewrite skipn_O. reflexivity.
Qed.
Print Assumptions C53_kept.
(** A negative limit counts as a very large one. *)
Theorem C53_negative_limit_refuted : add_all [(lit "a", -1); (lit "b", -1)] = [lit "a"; lit "b"].
Proof. vm_compute. reflexivity. Qed.
Print Assumptions C53_negative_limit_refuted.
Example C53_ex : add_all [(lit "a", 2); (lit "b", 2); (lit "c", 2); (lit "d", 5); (lit "e", 5)] = [lit "b"; lit "c"; lit "d"; lit "e"] /\ add_all [(lit "a", 0)] = [].
Proof. split; vm_compute; reflexivity. Qed.

(** ** C64 *)
(** With no group configured, only messages of the highest level pass a group, for others the file decides. *)
Theorem C64_groups_unset c : (forall g, In g groupNames -> (c (lit "Log.Group." ++ g) = None \/ c (lit "Log.Group." ++ g) = Some []) /\ (c (lit "Log.Watch." ++ g) = None \/ c (lit "Log.Watch." ++ g) = Some [])) ->
  exists levels, setAll c = Ok levels /\
  forall dflt s group file level, (group < 6)%nat -> 0 <= level ->
    isLogLevel dflt s levels group file level =
    if level =? 0 then Ok (true, s) else do (l, s') <- gGetLoggingLevel dflt s (Some file); Ok (level <=? l, s').
Proof.
  intros H. exists (repeat (0, 0) 6). split.
  - unfold setAll. change 6%nat with (length groupNames).
    assert (G : forall names, (forall g, In g names -> (c (lit "Log.Group." ++ g) = None \/ c (lit "Log.Group." ++ g) = Some []) /\ (c (lit "Log.Watch." ++ g) = None \/ c (lit "Log.Watch." ++ g) = Some [])) -> setAll_ c names = Ok (repeat (0, 0) (length names))).
    { clear H. induction names as [|g names IH]; intros H; [reflexivity|]. destruct (H g ltac:(left; reflexivity)) as [A B]. cbn [setAll_].
      assert (group_level c (lit "Log.Group." ++ g) = Ok 0) as -> by (unfold group_level; destruct A as [-> | ->]; reflexivity). cbn [bind].
      assert (group_level c (lit "Log.Watch." ++ g) = Ok 0) as -> by (unfold group_level; destruct B as [-> | ->]; reflexivity). cbn [bind].
      rewrite IH by (intros x Hx; apply H; right; exact Hx). reflexivity. }
    apply G. exact H.
  - intros dflt s group file level G L. unfold isLogLevel, checkGroupLogLevel. replace (Nat.ltb group 6) with true by (symmetry; apply Nat.ltb_lt; exact G). cbn [assert_ bind].
    do 6 (destruct group as [|group]; [cbn [rd nth_error repeat bind fst]; destruct (level =? 0) eqn:E; [replace (level <=? 0) with true by lia; reflexivity|replace (level <=? 0) with false by lia; reflexivity]|]). lia.
Qed.
Print Assumptions C64_groups_unset.
(** Defect: any configured group level is read after it was freed. *)
Theorem C64_group_set_refuted c g v : In g groupNames -> v <> [] -> c (lit "Log.Group." ++ g) = Some v \/ c (lit "Log.Watch." ++ g) = Some v -> setAll c = UB.
Proof.
  intros I NE H. unfold setAll. induction groupNames as [|n names IH]; [destruct I|]. cbn [setAll_].
  assert (L : forall p, group_level c p = Ok 0 \/ group_level c p = UB) by (intros p; unfold group_level; destruct (c p) as [[|x w]|]; [left|right|left]; reflexivity).
  assert (U : forall p, c p = Some v -> group_level c p = UB) by (intros p E; unfold group_level; rewrite E; destruct v; [contradiction NE; reflexivity|reflexivity]).
  destruct I as [->|I].
  - destruct H as [H|H].
    + rewrite (U _ H). reflexivity.
    + destruct (L (lit "Log.Group." ++ g)) as [-> | ->]; [|reflexivity]. cbn [bind]. rewrite (U _ H). reflexivity.
  - destruct (L (lit "Log.Group." ++ n)) as [-> | ->]; [|reflexivity]. cbn [bind]. destruct (L (lit "Log.Watch." ++ n)) as [-> | ->]; [|reflexivity]. cbn [bind]. rewrite (IH I). reflexivity.
Qed.
Print Assumptions C64_group_set_refuted.
(** A record goes to syslog once, to the alarms and to stderr exactly from critical up, and
    to the file as one piece that ends in a newline. *)
Definition line_of (text : list Z) : list Z := if Z.eqb (last text 0) 10 then text else text ++ [10].
Lemma last_rev text : match rev text with [] => true | c :: _ => negb (c =? 10) end = negb (last text 0 =? 10).
Proof. destruct text as [|c text _] using rev_ind; [reflexivity|]. rewrite rev_app_distr, last_last. reflexivity. Qed.
Theorem C64_record o prio text inited console file limit : no_nul text ->
  let o' := endrecord o prio text inited console file limit in
  sysout o' = sysout o ++ [(prio, text)] /\
  alarms o' = (if (prio <=? 2) && inited then addAlarm (alarms o) text limit else alarms o) /\
  errout o' = errout o ++ (if prio <=? 2 then text ++ [10] else []) ++ (if console then line_of text else []) /\
  fileout o' = fileout o ++ (if file then line_of text else []).
Proof.
  intros N. cbv zeta. unfold endrecord. cbv zeta. rewrite last_rev, !(c_str_id text N). unfold line_of.
  destruct (prio <=? 2), inited, console, file, (last text 0 =? 10); cbn [negb andb alarms errout sysout fileout]; rewrite ?app_nil_r, ?app_nil_l, <- ?app_assoc; repeat split; reflexivity.
Qed.
Print Assumptions C64_record.
(** Group names are found whatever their case. *)
Theorem C64_group_index name i : nth_error groupNames i = Some name -> forall other, map tolower other = map tolower name -> groupNameToIndex other = Z.of_nat i.
Proof.
  intros H other E. unfold groupNameToIndex, group_loop, groupNames, case_eq. cbn [groupNames]. rewrite E.
  do 6 (destruct i as [|i]; [injection H as <-; vm_compute; reflexivity|]). destruct i; discriminate.
Qed.
Print Assumptions C64_group_index.
(** Any other name gives the number of groups, which every use of a group refuses. *)
Theorem C64_group_unknown name : (forall g, In g groupNames -> map tolower g <> map tolower name) -> groupNameToIndex name = 6 /\
  forall levels group level, (6 <= group)%nat -> checkGroupLogLevel levels group level = Abort.
Proof.
  intros H. split.
  - assert (A : forall g, In g groupNames -> case_eq g name = false) by (intros g Hg; unfold case_eq; apply weqb_neq, H, Hg).
    unfold groupNameToIndex, groupNames in *. cbn [group_loop]. rewrite !A by (cbn [In]; tauto). reflexivity.
  - intros levels group level G. unfold checkGroupLogLevel. replace (Nat.ltb group 6) with false by (symmetry; apply Nat.ltb_ge; exact G). reflexivity.
Qed.
Print Assumptions C64_group_unknown.
(** Two names are the same whatever their case if they differ only in A-Z against a-z. *)
Definition same_letter (a b : Z) : Prop := a = b \/ (65 <= a <= 90 /\ b = a + 32) \/ (65 <= b <= 90 /\ a = b + 32).
Theorem C64_case : forall a b, case_eq a b = true <-> Forall2 same_letter a b.
Proof.
  intros a b. unfold case_eq. rewrite weqb_iff. revert b.
  assert (L : forall x y, tolower x = tolower y <-> same_letter x y).
  { intros x y. unfold tolower, same_letter. destruct (65 <=? x) eqn:A, (x <=? 90) eqn:B, (65 <=? y) eqn:C, (y <=? 90) eqn:D; cbn [andb]; lia. }
  induction a as [|x a IH]; intros [|y b]; cbn [map].
  - split; [constructor|reflexivity].
  - split; [discriminate|intros H; inversion H].
  - split; [discriminate|intros H; inversion H].
  - split.
    + intros H. constructor; [apply L; exact (f_equal (hd 0) H)|apply IH; exact (f_equal (@tl Z) H)].
    + intros H. inversion H; subst. f_equal; [apply L; assumption|apply IH; assumption].
Qed.
Print Assumptions C64_case.
Example C64_ex : setAll (conf [(lit "Log.Group.SMS", lit "DEBUG")]) = UB /\ setAll (conf [(lit "Log.Group.SMS", [])]) = Ok (repeat (0, 0) 6) /\
  groupNameToIndex (lit "layer2") = 4 /\ groupNameToIndex (lit "none") = 6 /\
  fileout (endrecord (Out [] [] [] []) 6 (lit "hello") true true true 10) = lit "hello" ++ [10] /\ alarms (endrecord (Out [] [] [] []) 2 (lit "fire") true true true 10) = [lit "fire"].
Proof. repeat split; vm_compute; reflexivity. Qed.
