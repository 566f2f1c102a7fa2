(** Property C90: construction of a configuration table, tables that could not be opened, hooks. *)
From Verif Require Import Base BaseFacts UtilsModel UtilsSpec UtilsProofs UtilsProofs2 SqlModel SqlProofs ConfigModel ConfigSpec ConfigProofs SchemaModel SchemaSpec SchemaProofs SchemaProps StartModel.
From Verif Require Import ConfigProps.
From Verif Require ValidModel.
Local Open Scope Z_scope.

(** ** What a user expects *)
Definition default_of (m : keymap) (k : list Z) : option (list Z) := option_map (fun e => kdefault (snd e)) (find (fun e => weqb (fst e) k) m).
(** The value of a key: what the database has, else the default. *)
Definition value_in (m : keymap) (w : list Z -> option (list Z)) (k : list Z) : option (list Z) := match w k with Some v => Some v | None => default_of m k end.
Definition plain_name (k : list Z) : Prop := quote_free 34 k /\ ~ names_column k.
(** What is listed at the start for a key of the schema. *)
Definition lines_for (m : keymap) (w : list Z -> option (list Z)) (e : list Z * ckey) : list report :=
  (if weqb (fst e) (kname (snd e)) then [] else [Corrupt (fst e) (kname (snd e))]) ++
  match value_in m w (fst e) with Some v => if weqb v (kdefault (snd e)) then [] else [NonDefault (fst e) v (kdefault (snd e))] | None => [Caught] end.
(** Answers, what a call leaves in the database, the hook. *)
Definition right (m : keymap) (w : list Z -> option (list Z)) (h : option (list Z -> list (list Z))) (up : bool) (q : call) (a : answer) : Prop :=
  match q, a with
  | Get k, Value v => v = value_in m w k
  | Defines k, Flag b => b = true <-> value_in m w k <> None
  | Set_ _ _, Flag b | Remove _, Flag b => b = up
  | Known k, Flag b => b = true <-> exists v, In (k, v) m
  | Static k, Flag b => b = true <-> exists v, In (k, v) m /\ kstatic v = true
  | CrossCheck k, Texts l => l = match h with Some f => f k | None => [] end
  | Find _, Printed _ | AllPairs, Pairs _ | Purge, Nothing | SetUpdateHook _, Nothing | SetCrossCheck _, Nothing => True
  | _, _ => False
  end.
Definition change (w : list Z -> option (list Z)) (k : list Z) (v : option (list Z)) : list Z -> option (list Z) := fun j => if weqb k j then v else w j.
Definition left (w : list Z -> option (list Z)) (up : bool) (q : call) : list Z -> option (list Z) :=
  match q with Set_ k v => if up then change w k (Some v) else w | Remove k => if up then change w k None else w | _ => w end.
Definition hooked (h : option (list Z -> list (list Z))) (q : call) : option (list Z -> list (list Z)) := match q with SetCrossCheck f => f | _ => h end.
Inductive all_right (m : keymap) : (list Z -> option (list Z)) -> option (list Z -> list (list Z)) -> list moment -> list answer -> Prop :=
| right_nil w h : all_right m w h [] []
| right_cons w h now up fires q a l al : right m w h up q a -> all_right m (left w up q) (hooked h q) l al -> all_right m w h ((now, up, fires, q) :: l) (a :: al).
(** Keys and values that cannot be confused with SQL, reads while the database answers. *)
Definition plain_moment (m : keymap) (x : moment) : Prop :=
  let '(_, up, _, q) := x in
  match q with
  | Get k | Defines k => plain_name k /\ up = true
  | Set_ k v => quote_free 34 k /\ quote_free 34 v /\ (forall key, In (k, key) m -> quote_free 39 (kdesc key))
  | Remove k => quote_free 39 k
  | _ => True
  end.

(** ** Lookups *)
Lemma default_find m k : default_of m k = option_map kdefault (mfind m k).
Proof. unfold default_of. induction m as [|[x v] m IH]; [reflexivity|]. cbn [find mfind fst snd]. destruct (weqb x k); [reflexivity|exact IH]. Qed.
Lemma prescribed_value m r k : prescribed (schema_of m) r k = value_in m (row_of r) k.
Proof.
  unfold prescribed, value_in. rewrite row_of_stored, default_find. unfold schema_of. destruct (stored r k) as [[v|]|]; [reflexivity| |]; destruct (mfind m k); reflexivity.
Qed.
Lemma lookup_fresh m now last c r k : fresh (schema_of m) (CTable c r) -> plain_name k ->
  exists last' c', lookup (schema_of m) true now last c r k = (value_in m (row_of r) k, (last', c')) /\ fresh (schema_of m) (CTable c' r).
Proof.
  intros F [Q N]. destruct (step_get (schema_of m) now last c r k Q N) as (v & last' & c' & E & H & V). pose proof (plain_key_of k Q N) as P.
  assert (VE : v = value_in m (row_of r) k) by (rewrite <- prescribed_value; destruct V as [V|V]; [apply (F k v V P)|exact V]). subst v. exists last', c'. split; [exact E|].
  intros j w J PJ. cbn [tcache tdb] in *. destruct (H j w J) as [[-> ->]|K]; [symmetry; apply prescribed_value|exact (F j w K PJ)].
Qed.
Lemma empty_fresh S r : fresh S (CTable [] r).
Proof. intros k v H. discriminate. Qed.

(** ** The list at the start *)
Lemma dump_up m clock r : forall view n last c, fresh (schema_of m) (CTable c r) -> Forall (fun e => plain_name (fst e)) view -> (forall e, In e view -> In e m) -> ascending m ->
  exists last' c', dump (schema_of m) clock (fun _ => true) r n view last c = (flat_map (lines_for m (row_of r)) view, (last', c')) /\ fresh (schema_of m) (CTable c' r).
Proof.
  induction view as [|[name key] view IH]; intros n last c F P I A; cbn [dump flat_map].
  - exists last, c. split; [reflexivity|exact F].
  - inversion P as [|? ? P1 P2]; subst. cbn [fst] in P1. destruct (lookup_fresh m (clock n) last c r name F P1) as (l1 & c1 & E & F1). rewrite E.
    assert (D : default_of m name = Some (kdefault key)) by (rewrite default_find; rewrite (proj2 (mfind_iff m name key A) (I _ (or_introl eq_refl))); reflexivity).
    destruct (IH (n + 1)%nat l1 c1 F1 P2 (fun e H => I e (or_intror H)) A) as (l2 & c2 & E2 & F2). rewrite E2. exists l2, c2. split; [|exact F2].
    unfold lines_for. cbn [fst snd]. unfold value_in. rewrite D. destruct (row_of r name); rewrite <- app_assoc; reflexivity.
Qed.
Lemma similar_all m : ascending m -> getSimilarKeys m [] = m.
Proof.
  intros A. destruct (C75_similar m [] A) as (keep & -> & K & _). rewrite <- (app_nil_r m) at 2. induction m as [|e m IH]; [reflexivity|]. cbn [filter].
  replace (keep e) with true by (symmetry; apply K; exists [], (fst e); reflexivity). cbn [app]. f_equal. apply IH. inversion A; assumption.
Qed.
Lemma schema_ascending w : ascending w -> ascending (make_schema w).
Proof. intros A. exact (proj1 (C75_schema w A)). Qed.
Lemma names_plain w : Forall (fun e => plain_name (fst e)) w -> ascending w -> Forall (fun e => plain_name (fst e)) (make_schema w).
Proof.
  intros P A. apply Forall_forall. intros [k v] H. apply (proj1 (proj2 (C75_schema w A))) in H. cbn [fst]. destruct H as [H|[H _]].
  - assert (K : In k (map fst builtin)) by (apply in_map_iff; exists (k, v); split; [reflexivity|exact H]). rewrite (proj2 (proj2 (C75_schema w A))) in K. cbn [In] in K.
    assert (B : forallb (fun k => forallb (fun c => negb (c =? 34) && negb (c =? 0)) k && negb (existsb (weqb (upper k)) [lit "KEYSTRING"; lit "VALUESTRING"; lit "STATIC"; lit "OPTIONAL"; lit "COMMENTS"; lit "ROWID"; lit "OID"; lit "_ROWID_"]))
      [lit "Control.NumSQLTries"; lit "Log.Alarms.Max"; lit "Log.File"; lit "Log.Level"] = true) by (vm_compute; reflexivity).
    rewrite forallb_forall in B. specialize (B k K). apply andb_prop in B. destruct B as [B1 B2]. rewrite forallb_forall in B1. split.
    + split; intros X; specialize (B1 _ X); discriminate.
    + intros X. apply Bool.negb_true_iff in B2. apply Bool.not_true_iff_false in B2. apply B2. apply existsb_exists. exists (upper k). split; [exact X|apply weqb_refl].
  - rewrite Forall_forall in P. exact (P _ H).
Qed.
Lemma opened creates file buf name w clock last : ascending w -> Forall (fun e => plain_name (fst e)) w -> length buf = 20%nat -> no_nul (match name with Some n => n | None => [] end) ->
  exists t last' buf', construct true creates file buf name w clock (fun _ => true) last =
    Ok ((if creates then [] else [CannotCreate]) ++ Heading (match name with Some n => n | None => [] end) :: flat_map (lines_for (make_schema w) (row_of file)) (make_schema w), (t, last', buf')) /\
    mDB t = Some file /\ mSchema t = make_schema w /\ mCrossCheck t = NoHook /\ fresh (schema_of (make_schema w)) (CTable (mCache t) file).
Proof.
  intros A P L N. unfold construct. assert (B : exists buf', set_cmd_name buf name = Ok buf').
  { destruct name as [n|]; [|exists buf; reflexivity]. destruct (C75_name buf n L N) as (b & E & _). exists b. exact E. }
  destruct B as (buf' & ->). cbn [bind]. rewrite (similar_all _ (schema_ascending w A)).
  destruct (dump_up (make_schema w) clock file (make_schema w) 0 last [] (empty_fresh _ _) (names_plain w P A) (fun _ H => H) (schema_ascending w A)) as (l & c & E & F). rewrite E.
  exists (CT (Some file) (make_schema w) c NoHook false), l, buf'. repeat split. exact F.
Qed.
(** A table that could be opened: it has the schema of the library and the program, the file is not
    changed, there is no cross check; what is logged is the heading and, in the order of the keys,
    what differs from its default. *)
Theorem C90_open creates file buf name w clock last : ascending w -> Forall (fun e => plain_name (fst e)) w -> length buf = 20%nat -> no_nul (match name with Some n => n | None => [] end) ->
  exists t last' buf', construct true creates file buf name w clock (fun _ => true) last =
    Ok ((if creates then [] else [CannotCreate]) ++ Heading (match name with Some n => n | None => [] end) :: flat_map (lines_for (make_schema w) (row_of file)) (make_schema w), (t, last', buf')) /\
    mDB t = Some file /\ mSchema t = make_schema w /\ mCrossCheck t = NoHook.
Proof. intros A P L N. destruct (opened creates file buf name w clock last A P L N) as (t & l & b & E & D & S & H & _). exists t, l, b. repeat split; assumption. Qed.
Print Assumptions C90_open.
(** A value is listed if and only if the database has it and it differs from the default; nothing
    is ever missing. *)
Theorem C90_listed m file : ascending m -> let l := flat_map (lines_for m (row_of file)) m in
  (forall k v d, In (NonDefault k v d) l <-> exists key, In (k, key) m /\ d = kdefault key /\ row_of file k = Some v /\ v <> d) /\
  (forall k n, In (Corrupt k n) l <-> exists key, In (k, key) m /\ n = kname key /\ k <> n) /\ ~ In Caught l.
Proof.
  intros A l. assert (D : forall k key, In (k, key) m -> default_of m k = Some (kdefault key)) by (intros k key H; rewrite default_find; rewrite (proj2 (mfind_iff m k key A) H); reflexivity).
  assert (V : forall k key, In (k, key) m -> value_in m (row_of file) k = Some (match row_of file k with Some v => v | None => kdefault key end)) by (intros k key H; unfold value_in; rewrite (D k key H); destruct (row_of file k); reflexivity).
  unfold l. split; [|split].
  - intros k v d. rewrite in_flat_map. split.
    + intros ([k' key] & M & H). unfold lines_for in H. cbn [fst snd] in H. rewrite (V k' key M) in H. apply in_app_iff in H. destruct H as [H|H].
      * destruct (weqb k' (kname key)); [destruct H|destruct H as [H|[]]; discriminate].
      * destruct (weqb _ (kdefault key)) eqn:E; [destruct H|]. destruct H as [H|[]]. injection H as <- <- <-. exists key. split; [exact M|]. split; [reflexivity|].
        destruct (row_of file k') as [v|]; [|rewrite weqb_refl in E; discriminate]. split; [reflexivity|]. intros ->. rewrite weqb_refl in E. discriminate.
    + intros (key & M & -> & R & N). exists (k, key). split; [exact M|]. unfold lines_for. cbn [fst snd]. rewrite (V k key M), R. apply in_app_iff. right.
      destruct (weqb v (kdefault key)) eqn:E; [apply weqb_iff in E; contradiction|left; reflexivity].
  - intros k n. rewrite in_flat_map. split.
    + intros ([k' key] & M & H). unfold lines_for in H. cbn [fst snd] in H. rewrite (V k' key M) in H. apply in_app_iff in H. destruct H as [H|H].
      * destruct (weqb k' (kname key)) eqn:E; [destruct H|]. destruct H as [H|[]]. injection H as <- <-. exists key. split; [exact M|]. split; [reflexivity|]. intros X. rewrite X, weqb_refl in E. discriminate.
      * destruct (weqb _ (kdefault key)); [destruct H|destruct H as [H|[]]; discriminate].
    + intros (key & M & -> & N). exists (k, key). split; [exact M|]. unfold lines_for. cbn [fst snd]. apply in_app_iff. left. destruct (weqb k (kname key)) eqn:E; [apply weqb_iff in E; contradiction|left; reflexivity].
  - rewrite in_flat_map. intros ([k key] & M & H). unfold lines_for in H. cbn [fst snd] in H. rewrite (V k key M) in H. apply in_app_iff in H. destruct H as [H|H]; [destruct (weqb k (kname key))|destruct (weqb _ (kdefault key))]; try exact H; destruct H as [H|[]]; discriminate.
Qed.
Print Assumptions C90_listed.
(** Whether the database answers or not, whatever the clock: no exception. *)
Definition kept (m : keymap) (c : cache) : Prop := forall k, cfind c k = Some None -> default_of m k = None.
Lemma lookup_kept m up now last c r k : kept m c -> default_of m k <> None -> exists v last' c', lookup (schema_of m) up now last c r k = (Some v, (last', c')) /\ kept m c'.
Proof.
  intros K D. unfold lookup. assert (C : exists last1 c1, checkCacheAge now last c = (last1, c1) /\ kept m c1).
  { unfold checkCacheAge. destruct (_ <? _); [exists last, c; split; [reflexivity|exact K]|exists now, []; split; [reflexivity|intros j; discriminate]]. }
  destruct C as (l1 & c1 & -> & K1). destruct (cfind c1 k) as [v|] eqn:E.
  - destruct v as [v|]; [exists v, l1, c1; split; [reflexivity|exact K1]|]. exfalso. exact (D (K1 k E)).
  - rewrite default_find in D. unfold schema_of. destruct (mfind m k) as [key|]; [|exfalso; apply D; reflexivity]. cbn [option_map].
    assert (V : exists v, match snd (single_lookup config_table up r k) with Some v => Some v | None => Some (kdefault key) end = Some v) by (destruct (snd (single_lookup config_table up r k)) as [v|]; eexists; reflexivity).
    destruct V as (v & ->). exists v, l1, (cset c1 k (Some v)). split; [reflexivity|]. intros j. rewrite cfind_cset. destruct (weqb k j); [discriminate|apply K1].
Qed.
Theorem C90_no_exception w creates file buf name clock up last l s : ascending w -> construct true creates file buf name w clock up last = Ok (l, s) -> ~ In Caught l.
Proof.
  intros A H. unfold construct in H. apply bind_ok in H. destruct H as (b & _ & H). rewrite (similar_all _ (schema_ascending w A)) in H.
  assert (G : forall view n last c, kept (make_schema w) c -> (forall e, In e view -> In e (make_schema w)) -> ~ In Caught (fst (dump (schema_of (make_schema w)) clock up file n view last c))).
  { induction view as [|[k key] view IH]; intros n ls c K I; cbn [dump]; [intros []|].
    assert (D : default_of (make_schema w) k <> None) by (rewrite default_find; rewrite (proj2 (mfind_iff _ k key (schema_ascending w A)) (I _ (or_introl eq_refl))); discriminate).
    destruct (lookup_kept _ (up n) (clock n) ls c file k K D) as (v & l1 & c1 & -> & K1). specialize (IH (n + 1)%nat l1 c1 K1 (fun e J => I e (or_intror J))). destruct (dump _ _ _ _ _ view l1 c1) as [lv sv]. cbn [fst] in *.
    intros J. apply in_app_iff in J. destruct J as [J|J]; [destruct (weqb k (kname key)); [destruct J|destruct J as [J|[]]; discriminate]|]. apply in_app_iff in J. destruct J as [J|J]; [|exact (IH J)]. destruct (weqb v (kdefault key)); [destruct J|destruct J as [J|[]]; discriminate]. }
  specialize (G (make_schema w) 0%nat last [] ltac:(intros k; discriminate) (fun _ J => J)). destruct (dump _ _ _ _ _ _ _ _) as [lv [lt c]]. cbn [fst] in G. apply Ok_inj in H. injection H as <- _.
  intros J. apply in_app_iff in J. destruct J as [J|J]; [destruct creates; [destruct J|destruct J as [J|[]]; discriminate]|]. destruct J as [J|J]; [discriminate|exact (G J)].
Qed.
Print Assumptions C90_no_exception.

(** ** Calls on a table that was opened *)
Lemma default_in m k : ascending m -> (default_of m k <> None <-> exists v, In (k, v) m).
Proof.
  intros A. rewrite default_find. destruct (mfind m k) as [v|] eqn:E; cbn [option_map].
  - split; [intros _; exists v; apply (mfind_iff m k v A); exact E|discriminate].
  - split; [intros H; exfalso; apply H; reflexivity|]. intros (v & H). apply (mfind_iff m k v A) in H. congruence.
Qed.
Definition in_step (m : keymap) (w : list Z -> option (list Z)) (h : option (list Z -> list (list Z))) (t : ct) : Prop :=
  exists r, mDB t = Some r /\ mSchema t = m /\ mCrossCheck t = (match h with Some f => Hook f | None => NoHook end) /\
    fresh (schema_of m) (CTable (mCache t) r) /\ forall k, plain_key k -> prescribed (schema_of m) r k = value_in m w k.
Lemma step_right m w h t now up fires last q : ascending m -> in_step m w h t -> plain_moment m (now, up, fires, q) ->
  exists a t' last', step t now up fires last q = Ok (a, (t', last')) /\ right m w h up q a /\ in_step m (left w up q) (hooked h q) t'.
Proof.
  intros A (r & D & SM & HK & F & V) P. destruct q as [k|k|k v|k|pat| | |on|f|k|k|k]; unfold step; rewrite ?D, ?SM; cbn [plain_moment left hooked] in *.
  - destruct P as [P ->]. destruct (lookup_fresh m now last (mCache t) r k F P) as (l' & c' & -> & F'). eexists _, _, _. split; [reflexivity|]. cbn [right].
    pose proof (V k (plain_key_of k (proj1 P) (proj2 P))) as E. rewrite prescribed_value in E. split; [exact E|]. exists r. cbn [mDB mSchema mCrossCheck mCache]. repeat split; assumption.
  - destruct P as [P ->]. destruct (lookup_fresh m now last (mCache t) r k F P) as (l' & c' & -> & F'). eexists _, _, _. split; [reflexivity|]. cbn [right].
    pose proof (V k (plain_key_of k (proj1 P) (proj2 P))) as E. rewrite prescribed_value in E. rewrite E. split; [unfold defines; destruct (value_in m w k); split; intros; congruence|]. exists r. cbn [mDB mSchema mCrossCheck mCache]. repeat split; assumption.
  - destruct P as (K & W & T). assert (T' : forall d text, schema_of m k = Some (d, text) -> quote_free 39 text).
    { intros d text H. unfold schema_of in H. destruct (mfind m k) as [key|] eqn:E; [|discriminate]. injection H as _ <-. apply (T key). apply (mfind_iff m k key A). exact E. }
    unfold command. destruct up.
    + rewrite (sql_set (schema_of m) k v r K W T'). eexists _, _, _. split; [reflexivity|]. split; [reflexivity|]. exists (replace_row r k (Some v)). cbn [mDB mSchema mCrossCheck mCache]. repeat split; [exact HK| |].
      * intros j x J PJ. cbn [tcache tdb] in *. rewrite cfind_cset in J. rewrite prescribed_replace by exact (proj2 W). destruct (weqb k j); [congruence|]. destruct (fires && purges t); [discriminate|exact (F j x J PJ)].
      * intros j PJ. rewrite prescribed_replace by exact (proj2 W). unfold value_in, change. destruct (weqb k j); [reflexivity|exact (V j PJ)].
    + eexists _, _, _. split; [reflexivity|]. split; [reflexivity|]. exists r. cbn [mDB mSchema mCrossCheck mCache]. repeat split; [exact HK| |exact V]. destruct (fires && purges t); [apply empty_fresh|exact F].
  - unfold command. destruct up.
    + rewrite (sql_remove k r P). eexists _, _, _. split; [reflexivity|]. split; [reflexivity|]. exists (filter (fun row => negb (weqb (fst row) k)) r). cbn [mDB mSchema mCrossCheck mCache]. repeat split; [exact HK| |].
      * destruct (fires && purges t); [apply empty_fresh|]. intros j x J PJ. cbn [tcache tdb] in *. rewrite cfind_cerase in J. rewrite prescribed_remove. destruct (weqb k j); [discriminate|exact (F j x J PJ)].
      * intros j PJ. rewrite prescribed_remove. unfold value_in, change. destruct (weqb k j); [|exact (V j PJ)]. rewrite default_find. unfold schema_of. destruct (mfind m j); reflexivity.
    + eexists _, _, _. split; [reflexivity|]. split; [reflexivity|]. exists r. cbn [mDB mSchema mCrossCheck mCache]. repeat split; [exact HK| |exact V]. destruct (fires && purges t); [apply empty_fresh|]. intros j x J PJ. cbn [tcache tdb] in *. rewrite cfind_cerase in J. destruct (weqb k j); [discriminate|exact (F j x J PJ)].
  - eexists _, _, _. split; [reflexivity|]. split; [exact I|]. exists r. repeat split; assumption.
  - eexists _, _, _. split; [reflexivity|]. split; [exact I|]. exists r. repeat split; assumption.
  - eexists _, _, _. split; [reflexivity|]. split; [exact I|]. exists r. cbn [mDB mSchema mCrossCheck mCache]. repeat split; try assumption. apply empty_fresh.
  - eexists _, _, _. split; [reflexivity|]. split; [exact I|]. exists r. cbn [mDB mSchema mCrossCheck mCache]. repeat split; assumption.
  - eexists _, _, _. split; [reflexivity|]. split; [exact I|]. exists r. cbn [mDB mSchema mCrossCheck mCache]. repeat split; try assumption.
  - rewrite HK. assert (IS : in_step m w h t) by (exists r; repeat split; assumption). destruct h as [f|]; eexists _, _, _; (split; [reflexivity|]); (split; [reflexivity|]); exact IS.
  - eexists _, _, _. split; [reflexivity|]. split; [|exists r; repeat split; assumption]. cbn [right]. rewrite (proj1 (C75_lookup m k A)). rewrite in_map_iff. split; [intros ([x v] & X & H); cbn [fst] in X; subst; exists v; exact H|intros (v & H); exists (k, v); split; [reflexivity|exact H]].
  - eexists _, _, _. split; [reflexivity|]. split; [|exists r; repeat split; assumption]. cbn [right]. apply (proj1 (proj2 (C75_lookup m k A))).
Qed.
Lemma run_right m : ascending m -> forall l w h t last, in_step m w h t -> Forall (plain_moment m) l -> exists al s, run t last l = Ok (al, s) /\ all_right m w h l al.
Proof.
  intros A. induction l as [|[[[now up] fires] q] l IH]; intros w h t last I P; cbn [run].
  - exists [], (t, last). split; [reflexivity|constructor].
  - inversion P as [|? ? P1 P2]; subst. destruct (step_right m w h t now up fires last q A I P1) as (a & t' & last' & -> & R & I'). cbn [bind fst snd].
    destruct (IH _ _ t' last' I' P2) as (al & s & -> & AR). cbn [bind]. exists (a :: al), s. split; [reflexivity|]. constructor; assumption.
Qed.
(** From the construction on, all calls answer like a map with defaults, at any time, with the
    update hook set or not and called by SQLite or not; crossCheck uses the hook set last. *)
Theorem C90_calls creates file buf name w clock last l rep t last' buf' : ascending w -> Forall (fun e => plain_name (fst e)) w -> length buf = 20%nat -> no_nul (match name with Some n => n | None => [] end) ->
  construct true creates file buf name w clock (fun _ => true) last = Ok (rep, (t, last', buf')) -> Forall (plain_moment (make_schema w)) l ->
  exists al s, run t last' l = Ok (al, s) /\ all_right (make_schema w) (row_of file) None l al.
Proof.
  intros A P L N C Q. destruct (opened creates file buf name w clock last A P L N) as (t1 & l1 & b1 & E & D & S & H & F). rewrite C in E. apply Ok_inj in E. injection E as _ <- <- _.
  apply run_right; [apply schema_ascending, A| |exact Q]. exists file. repeat split; try assumption. intros k _. apply prescribed_value.
Qed.
Print Assumptions C90_calls.

(** A value looked up is returned again until three seconds after the last purge, whatever happened
    to the database since. *)
Theorem C90_cached t now up fires last k v t' last' now' up' fires' r' : step t now up fires last (Get k) = Ok (Value v, (t', last')) -> now' - last' < 3 ->
  exists s, step (CT (Some r') (mSchema t') (mCache t') (mCrossCheck t') (purges t')) now' up' fires' last' (Get k) = Ok (Value v, s).
Proof.
  unfold step. destruct (mDB t) as [r|]; [|discriminate]. intros H L.
  assert (C : exists c, lookup (schema_of (mSchema t)) up now last (mCache t) r k = (v, (last', c)) /\ t' = CT (Some r) (mSchema t) c (mCrossCheck t) (purges t)).
  { destruct (lookup _ up now last _ r k) as [v1 [l1 c1]]. apply Ok_inj in H. injection H as <- <- <-. exists c1. split; reflexivity. }
  destruct C as (c & E & ->). cbn [mDB mSchema mCache mCrossCheck purges].
  assert (F : cfind c k = Some v).
  { unfold lookup in E. destruct (checkCacheAge now last (mCache t)) as [l0 c0]. destruct (cfind c0 k) as [x|] eqn:X; [injection E as <- _ <-; exact X|].
    injection E as <- _ <-. rewrite cfind_cset, weqb_refl. reflexivity. }
  unfold lookup, checkCacheAge. replace (now' - last' <? 3) with true by (symmetry; apply Z.ltb_lt; exact L). rewrite F. eexists. reflexivity.
Qed.
Print Assumptions C90_cached.

(** The rows: those of the file, changed by each set and remove that the database carried out. *)
Definition row := (list Z * option (list Z))%type.
Definition rows_after (held : row -> Prop) (x : moment) : row -> Prop :=
  let '(_, up, _, q) := x in
  match q with
  | Set_ k v => if up then fun e => e = (k, Some v) \/ held e /\ fst e <> k else held
  | Remove k => if up then fun e => held e /\ fst e <> k else held
  | _ => held
  end.
Lemma nodup_filter f (r : rows) : NoDup (map fst r) -> NoDup (map fst (filter f r)).
Proof.
  induction r as [|e r IH]; [intros _; constructor|]. intros D. inversion D as [|? ? D1 D2]; subst. cbn [filter]. destruct (f e); [|exact (IH D2)]. cbn [map]. constructor; [|exact (IH D2)].
  intros H. apply D1. apply in_map_iff in H. destruct H as (y & Y & H). apply filter_In in H. apply in_map_iff. exists y. split; [exact Y|exact (proj1 H)].
Qed.
Lemma kept_iff (r : rows) k e : In e (filter (fun row => negb (weqb (fst row) k)) r) <-> In e r /\ fst e <> k.
Proof.
  rewrite filter_In. split; intros [A B]; (split; [exact A|]).
  - intros X. rewrite X, weqb_refl in B. discriminate.
  - rewrite weqb_neq by exact B. reflexivity.
Qed.
Definition rows_in_step (held : row -> Prop) (t : ct) : Prop := exists r, mDB t = Some r /\ NoDup (map fst r) /\ Forall plain_row r /\ forall e, In e r <-> held e.
Lemma step_rows m held t now up fires last q a t' last' : ascending m -> mSchema t = m -> rows_in_step held t -> plain_moment m (now, up, fires, q) -> step t now up fires last q = Ok (a, (t', last')) ->
  mSchema t' = m /\ rows_in_step (rows_after held (now, up, fires, q)) t'.
Proof.
  intros A SM (r & D & U & F & V) P. assert (Same : forall c h u, rows_in_step held (CT (mDB t) (mSchema t) c h u)) by (intros; exists r; repeat split; try assumption; apply V).
  assert (Same' : rows_in_step held t) by (exists r; repeat split; try assumption; apply V).
  destruct q as [k|k|k v|k|pat| | |on|f|k|k|k]; unfold step; rewrite ?D; cbn [plain_moment rows_after] in *; intros H.
  - destruct (lookup _ _ _ _ _ _ _) as [x [y z]]. apply Ok_inj in H. injection H as _ <- _. split; [exact SM|]. rewrite <- D. apply Same.
  - destruct (lookup _ _ _ _ _ _ _) as [x [y z]]. apply Ok_inj in H. injection H as _ <- _. split; [exact SM|]. rewrite <- D. apply Same.
  - destruct P as (K & W & T). assert (T' : forall d text, schema_of m k = Some (d, text) -> quote_free 39 text).
    { intros d text G. unfold schema_of in G. destruct (mfind m k) as [key|] eqn:E; [|discriminate]. injection G as _ <-. apply (T key). apply (mfind_iff m k key A). exact E. }
    rewrite SM in H. unfold command in H. destruct up.
    + rewrite (sql_set (schema_of m) k v r K W T') in H. apply Ok_inj in H. injection H as _ <- _. split; [reflexivity|]. exists (replace_row r k (Some v)). split; [reflexivity|]. unfold replace_row. split; [|split].
      * rewrite map_app. cbn [map fst]. apply NoDup_Add with (a := k) (l := map fst (filter (fun row => negb (weqb (fst row) k)) r)); [|split; [apply nodup_filter, U|]].
        { rewrite <- (app_nil_r (map fst (filter _ r))) at 1. apply Add_app. }
        intros X. apply in_map_iff in X. destruct X as (e & E & X). apply kept_iff in X. exact (proj2 X E).
      * apply Forall_app. split; [apply Forall_forall; intros e X; apply kept_iff in X; rewrite Forall_forall in F; exact (F e (proj1 X))|]. constructor; [|constructor]. split; [exact (proj2 K)|]. cbn [snd]. intros w X. injection X as <-. exact (proj2 W).
      * intros e. rewrite in_app_iff, kept_iff, V. cbn [In]. split; [intros [X|[X|[]]]; [right; exact X|left; symmetry; exact X]|intros [X|X]; [right; left; symmetry; exact X|left; exact X]].
    + apply Ok_inj in H. injection H as _ <- _. split; [reflexivity|]. exists r. repeat split; try assumption; apply V.
  - unfold command in H. destruct up.
    + rewrite (sql_remove k r P) in H. apply Ok_inj in H. injection H as _ <- _. split; [exact SM|]. exists (filter (fun row => negb (weqb (fst row) k)) r). split; [reflexivity|]. split; [apply nodup_filter, U|]. split.
      * apply Forall_forall. intros e X. apply kept_iff in X. rewrite Forall_forall in F. exact (F e (proj1 X)).
      * intros e. rewrite kept_iff, V. reflexivity.
    + apply Ok_inj in H. injection H as _ <- _. split; [exact SM|]. exists r. repeat split; try assumption; apply V.
  - apply Ok_inj in H. injection H as _ <- _. split; [exact SM|exact Same'].
  - apply Ok_inj in H. injection H as _ <- _. split; [exact SM|exact Same'].
  - apply Ok_inj in H. injection H as _ <- _. split; [exact SM|]. exists r. repeat split; try assumption; apply V.
  - apply Ok_inj in H. injection H as _ <- _. split; [exact SM|]. exists r. repeat split; try assumption; apply V.
  - apply Ok_inj in H. injection H as _ <- _. split; [exact SM|]. exists r. repeat split; try assumption; apply V.
  - destruct (mCrossCheck t); try discriminate; apply Ok_inj in H; injection H as _ <- _; (split; [exact SM|exact Same']).
  - apply Ok_inj in H. injection H as _ <- _. split; [exact SM|exact Same'].
  - apply Ok_inj in H. injection H as _ <- _. split; [exact SM|exact Same'].
Qed.
Lemma run_rows m : ascending m -> forall l held t last al t' last', mSchema t = m -> rows_in_step held t -> Forall (plain_moment m) l -> run t last l = Ok (al, (t', last')) -> rows_in_step (fold_left rows_after l held) t'.
Proof.
  intros A. induction l as [|[[[now up] fires] q] l IH]; intros held t last al t' last' SM I P H; cbn [run fold_left] in *.
  - apply Ok_inj in H. injection H as _ <- _. exact I.
  - inversion P as [|? ? P1 P2]; subst. apply bind_ok in H. destruct H as ([a [t1 last1]] & E & H). apply bind_ok in H. destruct H as ([al1 s1] & E2 & H). apply Ok_inj in H. injection H as _ ->.
    destruct (step_rows _ held t now up fires last q a t1 last1 A eq_refl I P1 E) as [S1 I1]. cbn [fst snd] in E2. exact (IH _ t1 last1 al1 t' last' S1 I1 P2 E2).
Qed.
(** After any such calls find prints the rows whose key contains the pattern and getAllPairs returns
    all rows, at once and not from the cache; neither finds anything while the database does not answer. *)
Theorem C90_find creates file buf name w clock last l rep t last' buf' al t' last'' : ascending w -> Forall (fun e => plain_name (fst e)) w -> length buf = 20%nat -> no_nul (match name with Some n => n | None => [] end) ->
  NoDup (map fst file) -> Forall plain_row file ->
  construct true creates file buf name w clock (fun _ => true) last = Ok (rep, (t, last', buf')) -> Forall (plain_moment (make_schema w)) l -> run t last' l = Ok (al, (t', last'')) ->
  let held := fold_left rows_after l (fun e => In e file) in
  (forall now fires pat, no_nul pat -> (forall c, In c (lit """%_") -> ~ In c pat) ->
     exists hits, step t' now true fires last'' (Find pat) = Ok (Printed (lines (map find_text hits)), (t', last'')) /\ NoDup (map fst hits) /\ forall e, In e hits <-> held e /\ contains_nocase (fst e) pat) /\
  (forall now fires, exists c, step t' now true fires last'' AllPairs = Ok (Pairs c, (t', last'')) /\ forall k v, cfind c k = Some v <-> held (k, v)) /\
  (forall now fires pat, step t' now false fires last'' (Find pat) = Ok (Printed [], (t', last''))) /\ (forall now fires, step t' now false fires last'' AllPairs = Ok (Pairs [], (t', last''))).
Proof.
  intros A P L N U F C Q R held. destruct (opened creates file buf name w clock last A P L N) as (t1 & l1 & b1 & E & D & S & _). rewrite C in E. apply Ok_inj in E. injection E as _ <- <- _.
  destruct (run_rows _ (schema_ascending w A) l (fun e => In e file) t last' al t' last'' S ltac:(exists file; repeat split; try assumption; intros X; exact X) Q R) as (r & D' & U' & F' & V). fold held in V.
  split; [|split; [|split]].
  - intros now fires pat N' W. destruct (C74_find pat r N' W F') as (hits & O & keep & -> & K). exists (filter keep r). unfold step. rewrite D', O. split; [reflexivity|]. split; [apply nodup_filter, U'|].
    intros e. rewrite filter_In, <- V. split; intros [X Y]; (split; [exact X|]); apply (K e X); exact Y.
  - intros now fires. exists (getAllPairs r). unfold step. rewrite D'. split; [reflexivity|]. intros k v.
    assert (N0 : forall x v, In (x, v) r -> ~ In 0 x) by (intros x y X; rewrite Forall_forall in F'; exact (proj1 (F' _ X))).
    assert (Cs : forall x y, In (x, y) r -> option_map c_str y = y) by (intros x y X; rewrite Forall_forall in F'; destruct y as [y|]; [|reflexivity]; cbn [option_map]; rewrite c_str_id; [reflexivity|exact (proj2 (F' _ X) y eq_refl)]).
    pose proof (C44_all_pairs r k U' N0) as G. rewrite <- V. destruct (cfind (getAllPairs r) k) as [x|].
    + destruct G as (y & Y & ->). rewrite (Cs k y Y). split; [intros X; injection X as <-; exact Y|]. intros X. f_equal.
      clear - U' X Y. induction r as [|[a b] r IH]; [destruct X|]. cbn [map fst] in U'. inversion U' as [|? ? U1 U2]; subst. destruct X as [X|X], Y as [Y|Y]; [congruence| | |exact (IH U2 Y X)]; exfalso; apply U1.
      * injection X as -> _. apply in_map_iff. exists (k, y). split; [reflexivity|exact Y].
      * injection Y as -> _. apply in_map_iff. exists (k, v). split; [reflexivity|exact X].
    + split; [discriminate|]. intros X. exfalso. exact (G v X).
  - intros now fires pat. unfold step. rewrite D'. reflexivity.
  - intros now fires. unfold step. rewrite D'. reflexivity.
Qed.
Print Assumptions C90_find.

(** ** A table that could not be opened *)
(** The program name is set all the same; every call that needs the database aborts, the others find
    nothing, not even the keys of the library and of the program.  Defect: crossCheck without a hook
    is undefined. *)
Theorem C90_unopened creates file buf name w clock up last rep t last' buf' : construct false creates file buf name w clock up last = Ok (rep, (t, last', buf')) ->
  rep = [CannotOpen] /\ last' = last /\ set_cmd_name buf name = Ok buf' /\
  forall now up' fires q, match q with
    | Get _ | Defines _ | Set_ _ _ | Remove _ | SetUpdateHook _ => step t now up' fires last q = Abort
    | Known _ | Static _ => step t now up' fires last q = Ok (Flag false, (t, last))
    | Find _ => step t now up' fires last q = Ok (Printed [], (t, last))
    | AllPairs => step t now up' fires last q = Ok (Pairs [], (t, last))
    | Purge => step t now up' fires last q = Ok (Nothing, (t, last))
    | SetCrossCheck f => exists t', step t now up' fires last q = Ok (Nothing, (t', last)) /\ forall k, step t' now up' fires last (CrossCheck k) = Ok (Texts (match f with Some f => f k | None => [] end), (t', last))
    | CrossCheck _ => step t now up' fires last q = UB
    end.
Proof.
  intros H. unfold construct in H. apply bind_ok in H. destruct H as (b & B & H). apply Ok_inj in H. injection H as <- <- <- <-. repeat split; [exact B|].
  intros now up' fires q. destruct q; try reflexivity. eexists. split; [reflexivity|]. intros k. destruct f; reflexivity.
Qed.
Print Assumptions C90_unopened.
(** Defect: a database that does not answer during the construction: the defaults are taken for the
    values, nothing is listed, and for three seconds they are returned though the database answers. *)
Definition file1 : rows := [(lit "Log.Level", Some (lit "DEBUG"))].
Theorem C90_not_answering_refuted : exists t last' buf', construct true true file1 (repeat 0 20) (Some (lit "OpenBTS")) [] (fun _ => 100) (fun _ => false) 0 = Ok ([Heading (lit "OpenBTS")], (t, last', buf')) /\
  (exists s, step t 102 true false last' (Get (lit "Log.Level")) = Ok (Value (Some (lit "NOTICE")), s)) /\ (exists s, step t 103 true false last' (Get (lit "Log.Level")) = Ok (Value (Some (lit "DEBUG")), s)).
Proof. eexists _, _, _. split; [vm_compute; reflexivity|]. split; eexists; vm_compute; reflexivity. Qed.
Print Assumptions C90_not_answering_refuted.
Example C90_ex : exists t last' buf', construct true true file1 (repeat 0 20) (Some (lit "OpenBTS")) [sample (lit "A") (lit "1") CUSTOMER ValidModel.STRING [] true []] (fun _ => 100) (fun _ => true) 0 =
    Ok ([Heading (lit "OpenBTS"); NonDefault (lit "Log.Level") (lit "DEBUG") (lit "NOTICE")], (t, last', buf')) /\ c_str buf' = lit "OpenBTS:" /\
  (exists s, run t last' [(101, true, false, Get (lit "A")); (101, true, false, SetUpdateHook true); (102, true, true, Set_ (lit "A") (lit "2")); (102, true, true, Get (lit "A")); (102, true, false, Get (lit "B")); (102, true, false, CrossCheck (lit "A"));
      (103, true, false, Find (lit "log")); (103, true, false, AllPairs); (103, false, false, AllPairs)] =
    Ok ([Value (Some (lit "1")); Nothing; Flag true; Value (Some (lit "2")); Value None; Texts []; Printed (lit "Log.Level DEBUG" ++ [10]); Pairs [(lit "Log.Level", Some (lit "DEBUG")); (lit "A", Some (lit "2"))]; Pairs []], s)).
Proof. eexists _, _, _. split; [vm_compute; reflexivity|]. split; [vm_compute; reflexivity|]. eexists. vm_compute. reflexivity. Qed.
