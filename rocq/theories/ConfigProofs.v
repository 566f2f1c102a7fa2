(** What the statements of ConfigurationTable do, and the cache. *)
From Verif Require Import Base BaseFacts UtilsModel UtilsSpec UtilsProofs UtilsProofs2 SqlModel SqlProofs ConfigModel.
Local Open Scope Z_scope.

(** Text that goes through double quotes, and through single quotes, unchanged. *)
Definition dq_plain (s : list Z) : Prop := ~ In 34 s /\ no_nul s.
Definition sq_plain (s : list Z) : Prop := ~ In 39 s /\ no_nul s.

Lemma no_nul_app a b : no_nul a -> no_nul b -> no_nul (a ++ b).
Proof. intros A B H. apply in_app_iff in H. destruct H as [H|H]; [exact (A H)|exact (B H)]. Qed.
Ltac nonul := repeat first [apply no_nul_app | assumption | apply no_nul_lit; reflexivity].

Lemma lex_prefix a b l st : lexrun LStart a = Some (l, st) ->
  lex (a ++ b) = match lex_ st b with Some r => Some (l ++ r) | None => None end.
Proof. intros H. unfold lex. rewrite lex_app, H. reflexivity. Qed.

(** Two texts in double quotes, separated by a comma. *)
Lemma lex_pair k v c rest : ~ In 34 k -> ~ In 34 v -> c <> 34 ->
  lex_ (LDq []) (k ++ lit """,""" ++ v ++ 34 :: c :: rest) =
  match lex_ LStart (c :: rest) with Some r => Some (Dq k :: Punct 44 :: Dq v :: r) | None => None end.
Proof.
  intros K V C. rewrite lex_dq by exact K.
  change (lit """,""" ++ v ++ 34 :: c :: rest) with (34 :: 44 :: (34 :: v ++ 34 :: c :: rest)).
  rewrite lex_dq_end by lia.
  rewrite (lex_cons LStart 44 _ [Punct 44] LStart eq_refl), (lex_cons LStart 34 _ [] (LDq []) eq_refl).
  rewrite lex_dq by exact V. rewrite lex_dq_end by exact C.
  destruct (lex_ LStart (c :: rest)); reflexivity.
Qed.

Lemma words_cons w l x t : words (w :: l) (Word x :: t) = if weqb x w then words l t else None.
Proof. reflexivity. Qed.

Lemma sql_set S k v r : dq_plain k -> dq_plain v ->
  (forall d c, S k = Some (d, c) -> sq_plain c) ->
  sql config_table (set_cmd S k v) r = Some ([], replace_row r k (Some v)).
Proof.
  intros [K1 K2] [V1 V2] D. unfold sql, set_cmd. destruct (S k) as [[d desc]|].
  - destruct (D d desc eq_refl) as [C1 C2]. rewrite c_str_id by nonul.
    erewrite lex_prefix by (vm_compute; reflexivity).
    change (lit """,1,'" ++ desc ++ lit "')") with (34 :: 44 :: lit "1,'" ++ desc ++ lit "')").
    rewrite lex_pair by (assumption || lia).
    change (44 :: lit "1,'" ++ desc ++ lit "')") with (lit ",1,'" ++ desc ++ lit "')").
    replace (lex_ LStart (lit ",1,'" ++ desc ++ lit "')"))
      with (Some [Punct 44; Word (lit "1"); Punct 44; Sq desc; Punct 41]).
    2:{ symmetry. rewrite lex_app.
        change (lexrun LStart (lit ",1,'")) with (Some ([Punct 44; Word (lit "1"); Punct 44], LSq [])). cbv iota beta.
        rewrite lex_sq by exact C1. change (lit "')") with [39; 41]. rewrite lex_sq_end by lia. reflexivity. }
    unfold parse. cbn [app]. reflexivity.
  - rewrite c_str_id by nonul.
    erewrite lex_prefix by (vm_compute; reflexivity).
    change (lit """,1)") with (34 :: 44 :: lit "1)").
    rewrite lex_pair by (assumption || lia).
    reflexivity.
Qed.

Lemma sql_remove k r : sq_plain k ->
  sql config_table (remove_cmd k) r = Some ([], filter (fun row => negb (weqb (fst row) k)) r).
Proof.
  intros [K1 K2]. unfold sql, remove_cmd. rewrite c_str_id by nonul.
  erewrite lex_prefix by (vm_compute; reflexivity). rewrite lex_sq by exact K1. change (lit "'") with [39]. rewrite lex_sq_last.
  destruct (match_one config_table (VStr k) k ltac:(discriminate) eq_refl (fun _ => eq_refl) r) as (yes & M & _).
  match goal with |- match parse ?t with _ => _ end = _ => change (parse t) with (Some (SDelete (lit "CONFIG") [(VWord (lit "KEYSTRING"), VStr k)])) end.
  cbv iota beta. unfold exec. rewrite weqb_refl. change (lit "KEYSTRING") with (kcol config_table). rewrite M. reflexivity.
Qed.

Definition plain_key (k : list Z) : Prop := dq_plain k /\ not_column config_table k.
Lemma lookup_sql k r : plain_key k ->
  single_lookup config_table true r k =
  (match stored r k with Some _ => true | None => false end, match stored r k with Some (Some v) => Some (c_str v) | _ => None end).
Proof.
  intros [[K1 K2] (N1 & N2 & N3)]. unfold single_lookup, sql. rewrite (c_str_id k) by exact K2.
  set (q := lit "SELECT " ++ _). replace q with (lit "SELECT VALUESTRING FROM CONFIG WHERE KEYSTRING == """ ++ k ++ lit """") by reflexivity. clear q.
  rewrite c_str_id by nonul.
  erewrite lex_prefix by (vm_compute; reflexivity). rewrite lex_dq by exact K1. change (lit """") with [34]. rewrite lex_dq_last.
  match goal with |- context [parse ?t] => change (parse t) with (Some (SSelect (lit "VALUESTRING") (lit "CONFIG") [(VWord (lit "KEYSTRING"), VName k)])) end.
  assert (Y : forall row, in_row config_table row (VName k) = Some (Some k)).
  { intros row. unfold in_row. rewrite (weqb_neq _ _ N1), (weqb_neq _ _ N2), N3. reflexivity. }
  destruct (match_one config_table (VName k) k ltac:(discriminate) eq_refl Y r) as (yes & M & St).
  cbv iota beta. unfold exec. rewrite !weqb_refl. change (lit "KEYSTRING") with (kcol config_table).
  cbn [andb]. rewrite M, St. destruct yes as [|[x [v|]] yes]; reflexivity.
Qed.

(** ** The cache as a map *)
Lemma cfind_cerase c k j : cfind (cerase c k) j = if weqb k j then None else cfind c j.
Proof. exact (stored_filter c k j). Qed.
Lemma cfind_cset c k v j : cfind (cset c k v) j = if weqb k j then Some v else cfind c j.
Proof. unfold cset. cbn [cfind]. rewrite cfind_cerase. destruct (weqb k j); reflexivity. Qed.

(** What a getter should return: the stored value, else the default. *)
Definition prescribed (S : schema) (r : rows) (k : list Z) : option (list Z) :=
  match stored r k with
  | Some (Some v) => Some (c_str v)
  | _ => option_map fst (S k)
  end.
Lemma miss_prescribed S r k : plain_key k ->
  match snd (single_lookup config_table true r k) with
  | Some v => Some v
  | None => match S k with Some (d, _) => Some d | None => None end
  end = prescribed S r k.
Proof.
  intros P. rewrite lookup_sql by exact P. unfold prescribed. cbn [snd]. destruct (stored r k) as [[v|]|]; destruct (S k) as [[d e]|]; reflexivity.
Qed.
Lemma prescribed_replace S r k v j : no_nul v -> prescribed S (replace_row r k (Some v)) j = if weqb k j then Some v else prescribed S r j.
Proof. intros H. unfold prescribed. rewrite stored_replace. destruct (weqb k j); [rewrite c_str_id by exact H; reflexivity|reflexivity]. Qed.
Lemma prescribed_remove S r k j : prescribed S (filter (fun row => negb (weqb (fst row) k)) r) j = if weqb k j then option_map fst (S j) else prescribed S r j.
Proof. unfold prescribed. rewrite stored_filter. destruct (weqb k j); reflexivity. Qed.

(** ** Histories *)
From Verif Require Import ConfigSpec.
Lemma row_of_stored r k : row_of r k = match stored r k with Some (Some v) => Some (c_str v) | _ => None end.
Proof. induction r as [|[x v] r IH]; [reflexivity|]. cbn [row_of stored]. destruct (weqb x k); [destruct v; reflexivity|exact IH]. Qed.
Lemma plain_key_of k : quote_free 34 k -> ~ names_column k -> plain_key k.
Proof.
  intros Q N. split; [exact Q|]. unfold names_column in N. repeat split.
  - intros H. apply N. rewrite H. left. reflexivity.
  - intros H. apply N. rewrite H. right. left. reflexivity.
  - destruct (is_other config_table k) eqn:E; [|reflexivity]. exfalso. apply N. unfold is_other in E. apply existsb_exists in E.
    destruct E as (x & X & E). apply weqb_iff in E. rewrite E. right. right. exact X.
Qed.

Definition fresh (S : schema) (tb : ctable) : Prop :=
  forall k v, cfind (tcache tb) k = Some v -> plain_key k -> v = prescribed S (tdb tb) k.
Lemma step_set S up c r k v : quote_free 34 k -> quote_free 34 v -> (forall d text, S k = Some (d, text) -> quote_free 39 text) ->
  set_ S up c r k v = (up, if up then (cset c k (Some v), replace_row r k (Some v)) else (c, r)).
Proof.
  intros K V D. unfold set_, command. destruct up; [|reflexivity]. rewrite (sql_set S k v r K V D). reflexivity.
Qed.
Lemma step_remove up c r k : quote_free 39 k ->
  remove_ up c r k = (up, (cerase c k, if up then filter (fun row => negb (weqb (fst row) k)) r else r)).
Proof. intros K. unfold remove_, command. destruct up; [|reflexivity]. rewrite (sql_remove k r K). reflexivity. Qed.
Lemma step_get S now last c r k : quote_free 34 k -> ~ names_column k ->
  exists v last' c', lookup S true now last c r k = (v, (last', c')) /\
    (forall j w, cfind c' j = Some w -> (j = k /\ w = v) \/ cfind c j = Some w) /\
    (cfind c k = Some v \/ v = prescribed S r k).
Proof.
  intros K N. unfold lookup. destruct (checkCacheAge now last c) as [last1 c1] eqn:E.
  assert (Sub : forall j w, cfind c1 j = Some w -> cfind c j = Some w).
  { unfold checkCacheAge in E. destruct (now - last <? 3); injection E as <- <-; [auto|intros j w H; discriminate H]. }
  rewrite (miss_prescribed S r k (plain_key_of k K N)).
  destruct (cfind c1 k) as [v|] eqn:F.
  - exists v, last1, c1. split; [reflexivity|]. split; [intros j w H; right; auto|left; auto].
  - exists (prescribed S r k), last1, (cset c1 k (prescribed S r k)). split; [reflexivity|]. split; [|right; reflexivity].
    intros j w H. rewrite cfind_cset in H. destruct (weqb k j) eqn:G; [|right; auto].
    apply weqb_iff in G. subst j. injection H as <-. left. split; reflexivity.
Qed.

Definition agrees (S : schema) (w : world) (m : written) : Prop :=
  forall t, fresh S (tabs w t) /\ forall k, plain_key k -> prescribed S (tdb (tabs w t)) k = value_of S m t k.

Lemma value_of_put S m t k v t' k' : value_of S (put m t k v) t' k' =
  if (t' =? t)%nat && weqb k k' then match v with Some x => Some x | None => option_map fst (S k') end else value_of S m t' k'.
Proof.
  unfold value_of, put. destruct (t' =? t)%nat; cbn [andb]; [|reflexivity]. destruct (weqb k k'); [|reflexivity].
  destruct v; [reflexivity|]. destruct (S k') as [[d x]|]; reflexivity.
Qed.

Lemma step_agrees S w m e : agrees S w m -> plain_event S e ->
  fst (cstep S w e) = fst (spec_step S m e) /\ agrees S (snd (cstep S w e)) (snd (spec_step S m e)).
Proof.
  intros A P. destruct e as [t k v up|t k up|t k up|t|d|t r]; cbn [cstep spec_step plain_event] in *.
  - destruct P as (K & V & D). rewrite step_set by assumption. destruct up; cbn [fst snd]; (split; [reflexivity|]).
    + intros t'. destruct (A t') as [F G]. unfold set_tab. cbn [tabs]. rewrite (Nat.eqb_sym t' t). destruct (t =? t')%nat eqn:E.
      * apply Nat.eqb_eq in E. subst t'. split.
        -- intros j x Hj Pj. cbn [tcache tdb] in *. rewrite prescribed_replace by (apply V). rewrite cfind_cset in Hj.
           destruct (weqb k j); [congruence|]. apply (F j x Hj Pj).
        -- intros j Pj. cbn [tdb]. rewrite prescribed_replace by (apply V). rewrite value_of_put, Nat.eqb_refl. cbn [andb].
           destruct (weqb k j); [reflexivity|]. apply G. exact Pj.
      * split; [exact F|]. intros j Pj. rewrite value_of_put, Nat.eqb_sym, E. cbn [andb]. apply G. exact Pj.
    + intros t'. destruct (A t') as [F G]. unfold set_tab. cbn [tabs]. destruct (t' =? t)%nat eqn:E.
      * apply Nat.eqb_eq in E. subst t'. split; [intros j x Hj Pj; exact (F j x Hj Pj)|exact G].
      * split; assumption.
  - rewrite step_remove by assumption. cbn [fst snd]. split; [reflexivity|].
    intros t'. destruct (A t') as [F G]. unfold set_tab. cbn [tabs]. destruct (t' =? t)%nat eqn:E.
    + apply Nat.eqb_eq in E. subst t'. split.
      * intros j x Hj Pj. cbn [tcache tdb] in *. rewrite cfind_cerase in Hj. destruct (weqb k j) eqn:E; [discriminate|].
        rewrite (F j x Hj Pj). destruct up; [|reflexivity]. rewrite prescribed_remove, E. reflexivity.
      * intros j Pj. cbn [tdb]. destruct up; [|apply G; exact Pj]. rewrite value_of_put, Nat.eqb_refl, prescribed_remove. cbn [andb].
        destruct (weqb k j); [reflexivity|apply G; exact Pj].
    + split; [exact F|]. intros j Pj. destruct up; [rewrite value_of_put, E; cbn [andb]|]; apply G; exact Pj.
  - destruct P as (K & N & ->).
    destruct (step_get S (now w) (lastPurge w) (tcache (tabs w t)) (tdb (tabs w t)) k K N) as (v & last' & c' & L & C1 & C2).
    rewrite L. cbn [fst snd]. destruct (A t) as [F G]. pose proof (plain_key_of k K N) as PK.
    assert (V : v = prescribed S (tdb (tabs w t)) k) by (destruct C2 as [C2|C2]; [apply F; assumption|exact C2]).
    split; [rewrite V, (G k PK); reflexivity|].
    intros t'. unfold set_tab. cbn [tabs]. destruct (t' =? t)%nat eqn:E; [|exact (A t')].
    apply Nat.eqb_eq in E. subst t'. split; [|exact G].
    intros j x Hj Pj. cbn [tcache tdb] in *. destruct (C1 j x Hj) as [[-> ->]|H]; [exact V|apply F; assumption].
  - cbn [fst snd]. split; [reflexivity|]. intros t'. unfold set_tab. cbn [tabs]. destruct (t' =? t)%nat eqn:E; [|exact (A t')].
    apply Nat.eqb_eq in E. subst t'. split; [intros j x Hj; discriminate Hj|]. apply (A t).
  - cbn [fst snd]. split; [reflexivity|exact A].
  - destruct P.
Qed.
Lemma run_agrees S l : forall w m, agrees S w m -> Forall (plain_event S) l ->
  fst (crun S w l) = fst (spec_run S m l) /\ agrees S (snd (crun S w l)) (snd (spec_run S m l)).
Proof.
  induction l as [|e l IH]; intros w m A P; [split; [reflexivity|exact A]|].
  inversion P as [|? ? P1 P2]; subst. destruct (step_agrees S w m e A P1) as [O A']. cbn [crun spec_run].
  destruct (cstep S w e) as [o w'], (spec_step S m e) as [o' m']. cbn [fst snd] in O, A'. subst o'.
  destruct (IH w' m' A' P2) as [O2 A2]. destruct (crun S w' l), (spec_run S m' l). cbn [fst snd] in *. subst. split; [reflexivity|exact A2].
Qed.
Lemma start_agrees S w : (forall t, tcache (tabs w t) = []) -> agrees S w (contents w).
Proof.
  intros H t. split; [intros j x Hj; rewrite H in Hj; discriminate Hj|].
  intros k _. unfold prescribed, value_of, contents. rewrite row_of_stored. destruct (stored (tdb (tabs w t)) k) as [[v|]|]; [reflexivity| |]; destruct (S k) as [[d x]|]; reflexivity.
Qed.
Lemma crun_app S l1 : forall w l2, crun S w (l1 ++ l2) =
  let (o1, w1) := crun S w l1 in let (o2, w2) := crun S w1 l2 in (o1 ++ o2, w2).
Proof.
  induction l1 as [|e l1 IH]; intros w l2; cbn [app crun]; [destruct (crun S w l2); reflexivity|].
  destruct (cstep S w e) as [o w']. rewrite IH. destruct (crun S w' l1) as [o1 w1]. destruct (crun S w1 l2). reflexivity.
Qed.
Lemma spec_run_app S l1 : forall w l2, spec_run S w (l1 ++ l2) =
  let (o1, w1) := spec_run S w l1 in let (o2, w2) := spec_run S w1 l2 in (o1 ++ o2, w2).
Proof.
  induction l1 as [|e l1 IH]; intros w l2; cbn [app spec_run]; [destruct (spec_run S w l2); reflexivity|].
  destruct (spec_step S w e) as [o w']. rewrite IH. destruct (spec_run S w' l1) as [o1 w1]. destruct (spec_run S w1 l2). reflexivity.
Qed.

(** Histories that do not write a key leave it alone. *)
Definition writes (t : nat) (k : list Z) (e : event) : Prop :=
  match e with ESet t' k' _ _ | ERemove t' k' _ => t' = t /\ k' = k | _ => False end.
Lemma spec_untouched S t k l : forall m, Forall (fun e => ~ writes t k e) l -> snd (spec_run S m l) t k = m t k.
Proof.
  induction l as [|e l IH]; intros m H; [reflexivity|]. inversion H as [|? ? H1 H2]; subst. cbn [spec_run].
  specialize (IH (snd (spec_step S m e)) H2). destruct (spec_step S m e) as [o m'] eqn:E. cbn [snd] in IH.
  destruct (spec_run S m' l) as [os m2]. cbn [snd] in *. rewrite IH.
  destruct e as [t' k' v up|t' k' up|t' k' up|t'|d|t' r]; cbn [spec_step] in E; injection E as <- <-; try reflexivity; destruct up; try reflexivity;
    unfold put; destruct (t =? t')%nat eqn:F; try reflexivity; destruct (weqb k' k) eqn:G; try reflexivity;
    exfalso; apply H1; cbn [writes]; apply weqb_iff in G; split; [lia|exact G|lia|exact G].
Qed.

(** ** Staleness *)
Definition seen (S : schema) (hist : list world) (t : nat) (w : world) : Prop :=
  In w hist /\ lastPurge w <= now w /\
  forall k v, cfind (tcache (tabs w t)) k = Some v -> plain_key k ->
    exists w', In w' hist /\ lastPurge w <= now w' <= now w /\ v = prescribed S (tdb (tabs w' t)) k.
Lemma last_states S l : forall w, In (snd (crun S w l)) (states S w l).
Proof.
  induction l as [|e l IH]; intros w; cbn [crun states]; [left; reflexivity|].
  specialize (IH (snd (cstep S w e))). destruct (cstep S w e) as [o w']. cbn [snd] in *.
  destruct (crun S w' l). cbn [snd] in *. right. exact IH.
Qed.
Lemma states_app S l e : forall w, states S w (l ++ [e]) = states S w l ++ [snd (cstep S (snd (crun S w l)) e)].
Proof.
  induction l as [|a l IH]; intros w; cbn [app states crun]; [reflexivity|].
  rewrite IH. destruct (cstep S w a) as [o w']. cbn [snd]. destruct (crun S w' l). reflexivity.
Qed.
Lemma set_tab_same w last t c r : tabs (set_tab w last t c r) t = CTable c r.
Proof. unfold set_tab. cbn [tabs]. rewrite Nat.eqb_refl. reflexivity. Qed.

Lemma seen_step S hist t w e : seen S hist t w -> only_table t e -> fair_event S e ->
  seen S (hist ++ [snd (cstep S w e)]) t (snd (cstep S w e)).
Proof.
  intros (I & L & H) O F. set (w' := snd (cstep S w e)).
  assert (Me : In w' (hist ++ [w'])) by (apply in_app_iff; right; left; reflexivity).
  assert (Old : forall x, In x hist -> In x (hist ++ [w'])) by (intros x Hx; apply in_app_iff; left; exact Hx).
  split; [exact Me|].
  destruct e as [t0 k v up|t0 k up|t0 k up|t0|d|t0 r]; cbn [cstep only_table fair_event plain_event] in *; try subst t0.
  - destruct F as (K & V & D). unfold w' in *. rewrite step_set in * by assumption.
    destruct up; cbn [snd] in *; (split; [exact L|]); rewrite set_tab_same; cbn [tcache tdb]; intros j x Hj Pj.
    + rewrite cfind_cset in Hj. destruct (weqb k j) eqn:E.
      * injection Hj as <-. eexists. split; [exact Me|]. cbn [now lastPurge set_tab]. split; [lia|].
        rewrite set_tab_same. cbn [tdb]. rewrite prescribed_replace by (apply V). rewrite E. reflexivity.
      * destruct (H j x Hj Pj) as (w0 & I0 & T0 & V0). exists w0. split; [apply Old; exact I0|]. cbn [now lastPurge set_tab]. split; [lia|exact V0].
    + destruct (H j x Hj Pj) as (w0 & I0 & T0 & V0). exists w0. split; [apply Old; exact I0|]. cbn [now lastPurge set_tab]. split; [lia|exact V0].
  - unfold w' in *. rewrite step_remove in * by assumption. cbn [snd] in *. split; [exact L|].
    rewrite set_tab_same. cbn [tcache]. intros j x Hj Pj. rewrite cfind_cerase in Hj. destruct (weqb k j); [discriminate|].
    destruct (H j x Hj Pj) as (w0 & I0 & T0 & V0). exists w0. split; [apply Old; exact I0|]. cbn [now lastPurge set_tab]. split; [lia|exact V0].
  - destruct F as (K & N & ->). unfold w' in *. unfold lookup in *. unfold checkCacheAge in *.
    rewrite (miss_prescribed S _ k (plain_key_of k K N)) in *.
    destruct (now w - lastPurge w <? 3) eqn:E.
    + destruct (cfind (tcache (tabs w t)) k) as [v|] eqn:Fk; cbn [snd] in *; (split; [exact L|]); rewrite set_tab_same; cbn [tcache]; intros j x Hj Pj.
      * destruct (H j x Hj Pj) as (w0 & I0 & T0 & V0). exists w0. split; [apply Old; exact I0|]. cbn [now lastPurge set_tab]. split; [lia|exact V0].
      * rewrite cfind_cset in Hj. destruct (weqb k j) eqn:G.
        -- injection Hj as <-. apply weqb_iff in G. subst j. eexists. split; [exact Me|]. cbn [now lastPurge set_tab]. split; [lia|].
           rewrite set_tab_same. reflexivity.
        -- destruct (H j x Hj Pj) as (w0 & I0 & T0 & V0). exists w0. split; [apply Old; exact I0|]. cbn [now lastPurge set_tab]. split; [lia|exact V0].
    + cbn [cfind snd] in *. split; [cbn [now lastPurge set_tab]; lia|]. rewrite set_tab_same. cbn [tcache]. intros j x Hj Pj.
      rewrite cfind_cset in Hj. destruct (weqb k j) eqn:G; [|discriminate Hj].
      injection Hj as <-. apply weqb_iff in G. subst j. eexists. split; [exact Me|]. cbn [now lastPurge set_tab]. split; [lia|].
      rewrite set_tab_same. reflexivity.
  - split; [exact L|]. unfold w'. cbn [snd]. rewrite set_tab_same. cbn [tcache]. intros j x Hj. discriminate Hj.
  - split; [unfold w'; cbn [snd now lastPurge]; lia|]. unfold w'. cbn [snd now lastPurge tabs].
    intros j x Hj Pj. destruct (H j x Hj Pj) as (w0 & I0 & T0 & V0). exists w0. split; [apply Old; exact I0|]. split; [lia|exact V0].
  - split; [exact L|]. unfold w' in *. cbn [snd] in *. rewrite set_tab_same. cbn [tcache]. intros j x Hj Pj.
    destruct (H j x Hj Pj) as (w0 & I0 & T0 & V0). exists w0. split; [apply Old; exact I0|]. cbn [now lastPurge set_tab]. split; [lia|exact V0].
Qed.
Lemma seen_run S t l w : (forall k, cfind (tcache (tabs w t)) k = None) -> lastPurge w <= now w ->
  Forall (only_table t) l -> Forall (fair_event S) l -> seen S (states S w l) t (snd (crun S w l)).
Proof.
  intros E L. induction l as [|e l IH] using rev_ind; intros O F.
  - cbn [crun states snd]. split; [left; reflexivity|]. split; [exact L|]. intros k v H. rewrite E in H. discriminate H.
  - apply Forall_app in O. destruct O as [O1 O2]. apply Forall_app in F. destruct F as [F1 F2].
    inversion O2; subst. inversion F2; subst. rewrite states_app.
    replace (snd (crun S w (l ++ [e]))) with (snd (cstep S (snd (crun S w l)) e)).
    2:{ rewrite crun_app. destruct (crun S w l) as [o1 w1]. cbn [snd crun]. destruct (cstep S w1 e). reflexivity. }
    apply seen_step; [apply IH; assumption|assumption|assumption].
Qed.
Lemma get_recent S hist t w k : seen S hist t w -> quote_free 34 k -> ~ names_column k ->
  exists w', In w' hist /\ now w - 3 < now w' <= now w /\
    fst (cstep S w (EGet t k true)) = OVal (prescribed S (tdb (tabs w' t)) k).
Proof.
  intros (I & L & H) K N. cbn [cstep]. unfold lookup, checkCacheAge. rewrite (miss_prescribed S _ k (plain_key_of k K N)).
  destruct (now w - lastPurge w <? 3) eqn:E.
  - destruct (cfind (tcache (tabs w t)) k) as [v|] eqn:F; cbn [fst].
    + destruct (H k v F (plain_key_of k K N)) as (w' & I' & T' & V'). exists w'. split; [exact I'|]. split; [lia|congruence].
    + exists w. split; [exact I|]. split; [lia|reflexivity].
  - cbn [cfind fst]. exists w. split; [exact I|]. split; [lia|reflexivity].
Qed.
