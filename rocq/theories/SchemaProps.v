(** Properties C72 to C76: the configuration schema as text. *)
From Verif Require Import Base BaseFacts UtilsModel UtilsSpec UtilsProofs SqlModel SqlProofs ConfigModel ValidModel ValidSpec ValidProofs SchemaModel SchemaSpec SchemaProofs.
From Coq Require Import Permutation Sorted.
Local Open Scope Z_scope.

Definition sample (name dflt : list Z) (v : visibility) (t : ktype) (valid : list Z) (st : bool) (desc : list Z) : list Z * ckey :=
  (name, CKey name dflt [] v t valid st desc 0).

(** ** C72: the SQL file with the defaults *)
(** Run on a database the file adds, in the order of the map, one row for each key that is not
    there yet and leaves the rows that are there. *)
Theorem C72_defaults m program version r : one_line program -> one_line version -> Forall quotable m -> NoDup (map fst m) ->
  run_script (getDefaultSQL m program version) r = Some (r ++ map row_for (filter (missing r) m)).
Proof. apply script_spec. Qed.
Print Assumptions C72_defaults.
(** After that every key of the schema has a row, and running the file again changes nothing. *)
Theorem C72_again m program version r r' : one_line program -> one_line version -> Forall quotable m -> NoDup (map fst m) ->
  run_script (getDefaultSQL m program version) r = Some r' ->
  (forall e, In e m -> exists x, In x r' /\ rkey x = fst e) /\ run_script (getDefaultSQL m program version) r' = Some r'.
Proof.
  intros P V Q D H. rewrite script_spec in H by assumption. injection H as <-.
  assert (A : forall e, In e m -> missing (r ++ map row_for (filter (missing r) m)) e = false).
  { intros e He. unfold missing. rewrite existsb_app. destruct (existsb (fun x => weqb (rkey x) (fst e)) r) eqn:X; [reflexivity|]. cbn [orb]. apply negb_false_iff. apply existsb_exists.
    exists (row_for e). split; [|apply weqb_refl]. apply in_map, filter_In. split; [exact He|]. unfold missing. rewrite X. reflexivity. }
  split.
  - intros e He. pose proof (A e He) as X. unfold missing in X. apply negb_false_iff, existsb_exists in X. destruct X as (x & I & E). exists x. split; [exact I|apply weqb_iff, E].
  - rewrite script_spec by assumption. set (r1 := r ++ map row_for (filter (missing r) m)) in *. replace (filter (missing r1) m) with (@nil (list Z * ckey)); [cbn [map]; rewrite app_nil_r; reflexivity|].
    symmetry. clearbody r1. clear -A. induction m as [|e m IH]; [reflexivity|]. cbn [filter]. rewrite (A e) by (left; reflexivity). apply IH. intros k Hk. apply A. right. exact Hk.
Qed.
Print Assumptions C72_again.
(** Defects.  An apostrophe in a default ends the text early: the file is refused, or what follows
    is read as SQL; both kinds of quotes in a description, or a line break in the program name, have
    the file refused as well. *)
Theorem C72_quote_refuted :
  run_script (getDefaultSQL [sample (lit "K") (lit "don't") CUSTOMER STRING [] false []] (lit "p") (lit "v")) [] = None /\
  (exists x, run_script (getDefaultSQL [sample (lit "K") (lit "a',1,1,'b');--") CUSTOMER STRING [] false []] (lit "p") (lit "v")) [] = Some [x] /\ rval x = lit "a" /\ rstatic x = lit "1") /\
  run_script (getDefaultSQL [sample (lit "K") [] CUSTOMER STRING [] false (lit "the ""key"" isn't set")] (lit "p") (lit "v")) [] = None /\
  run_script (getDefaultSQL [] (lit "p" ++ [10] ++ lit "q") (lit "v")) [] = None.
Proof.
  split; [vm_compute; reflexivity|]. split; [|split; vm_compute; reflexivity].
  exists (CRow (lit "K") (lit "a") (lit "1") (lit "1") (lit "b")). split; [vm_compute; reflexivity|]. split; reflexivity.
Qed.
Print Assumptions C72_quote_refuted.
Example C72_ex :
  run_script (getDefaultSQL [sample (lit "A.x") (lit "1") CUSTOMER BOOLEAN [] false (lit "one's"); sample (lit "B") (lit "--;") DEVELOPER STRING [] true (lit "a ""b"";")] (lit "prog") (lit "'1'"))
    [CRow (lit "A.x") (lit "0") (lit "0") (lit "0") []; CRow (lit "C") [] (lit "0") (lit "0") []] =
  Some [CRow (lit "A.x") (lit "0") (lit "0") (lit "0") []; CRow (lit "C") [] (lit "0") (lit "0") []; CRow (lit "B") (lit "--;") (lit "1") (lit "0") (lit "a ""b"";  Static.")] /\
  run_script (getDefaultSQL [sample (lit "A.x") (lit "1") CUSTOMER BOOLEAN [] false (lit "one's")] [] []) [] = Some [CRow (lit "A.x") (lit "1") (lit "0") (lit "0") (lit "1=enabled, 0=disabled - one's")] /\
  run_script (getDefaultSQL builtin (lit "prog") (lit "1")) [] = Some (map row_for builtin).
Proof. vm_compute. repeat split. Qed.

(** ** C73: the TeX list *)
Definition tex_list (l : list (list Z * ckey)) : list Z := lines (lit "\begin{itemize}" :: map (fun e => [9] ++ lit "\item \texttt{" ++ fst e ++ lit "} -- " ++ kdesc (snd e)) l ++ [lit "\end{itemize}"]).
(** Every key is listed once, in the section of its visibility and in the order of the map, and
    every ^ and _ of the text is escaped once. *)
Theorem C73_sections m program version : exists site tune dev,
  getTeX m program version = Ok (tex_escaped (
    lines [lit "% START AUTO-GENERATED CONTENT"; lit "% -- these sections were generated using: " ++ program ++ lit " --gentex"; lit "% -- binary version: " ++ version;
      lit "\section{Customer Site Parameters}"; lit "These parameters must be changed to fit your site."] ++ tex_list site ++
    lines [[]; lit "\section{Customer Tuneable Parameters}"; lit "These parameters can be changed to optimize your site."] ++ tex_list tune ++
    lines [[]; lit "\section{Developer/Factory Parameters}"; lit "These parameters should only be changed by when developing new code."] ++ tex_list dev ++
    lines [lit "% END AUTO-GENERATED CONTENT"; []])) /\
  Permutation (site ++ tune ++ dev) m /\ (forall s a b, In s [site; tune; dev] -> (exists s1 s2 s3, s = s1 ++ a :: s2 ++ b :: s3) -> exists m1 m2 m3, m = m1 ++ a :: m2 ++ b :: m3) /\
  Forall (fun e => kvis (snd e) = CUSTOMERSITE) site /\
  Forall (fun e => kvis (snd e) = CUSTOMER \/ kvis (snd e) = CUSTOMERTUNE \/ kvis (snd e) = CUSTOMERWARN) tune /\
  Forall (fun e => kvis (snd e) = DEVELOPER \/ kvis (snd e) = FACTORY) dev.
Proof.
  exists (filter (fun e => is_site (kvis (snd e))) m), (filter (fun e => is_tune (kvis (snd e))) m), (filter (fun e => is_dev (kvis (snd e))) m). split; [|split; [|split; [|split; [|split]]]].
  - rewrite getTeX_escaped. f_equal. f_equal. unfold tex_text.
    assert (T : forall p rest, tex_items p m ++ rest = tex_list (filter (fun e => p (kvis (snd e))) m) ++ rest).
    { intros p rest. f_equal. unfold tex_items, tex_list. rewrite lines_cons. unfold nl.
      assert (X : concat (map tex_item (filter (fun e => p (kvis (snd e))) m)) = lines (map (fun e => [9] ++ lit "\item \texttt{" ++ fst e ++ lit "} -- " ++ kdesc (snd e)) (filter (fun e => p (kvis (snd e))) m))).
      { unfold lines. rewrite map_map. f_equal. apply map_ext. intros e. unfold tex_item, nl. rewrite <- !app_assoc. reflexivity. }
      rewrite X. unfold lines at 2. rewrite map_app, concat_app. reflexivity. }
    rewrite !T. rewrite !lines_cons. change (lines []) with (@nil Z). unfold nl. rewrite <- !app_assoc. cbn [app]. repeat (f_equal; rewrite <- ?app_assoc; cbn [app]).
  - apply split_three. intros e _. destruct (kvis (snd e)); exact I.
  - intros s a b Hs (s1 & s2 & s3 & E).
    assert (X : forall p, filter p m = s1 ++ a :: s2 ++ b :: s3 -> exists m1 m2 m3, m = m1 ++ a :: m2 ++ b :: m3).
    { intros p. clear. revert s1. induction m as [|e m IH]; intros s1 E; [destruct s1; discriminate|]. cbn [filter] in E. destruct (p e).
      - destruct s1 as [|x s1]; cbn [app] in E.
        + injection E as -> E. assert (Y : exists m1 m2, m = m1 ++ b :: m2).
          { assert (K : In b m) by (apply (filter_In p); rewrite E; apply in_app_iff; right; left; reflexivity). apply in_split in K. exact K. }
          destruct Y as (m1 & m2 & ->). exists [], m1, m2. reflexivity.
        + injection E as -> E. destruct (IH s1 E) as (m1 & m2 & m3 & ->). exists (x :: m1), m2, m3. reflexivity.
      - destruct (IH s1 E) as (m1 & m2 & m3 & ->). exists (e :: m1), m2, m3. reflexivity. }
    destruct Hs as [<-|[<-|[<-|[]]]]; eapply X, E.
  - apply Forall_forall. intros e He. apply filter_In in He. destruct He as [_ He]. destruct (kvis (snd e)); try discriminate; tauto.
  - apply Forall_forall. intros e He. apply filter_In in He. destruct He as [_ He]. destruct (kvis (snd e)); try discriminate; tauto.
  - apply Forall_forall. intros e He. apply filter_In in He. destruct He as [_ He]. destruct (kvis (snd e)); try discriminate; tauto.
Qed.
Print Assumptions C73_sections.
(** Defect: the other special characters of TeX pass unescaped, and an escape already there is undone. *)
Theorem C73_special_refuted s : (forall c, In c s -> c <> 94 /\ c <> 95) -> tex_escaped s = s /\ tex_escaped (lit "\_") = lit "\\_".
Proof.
  intros H. split; [|reflexivity]. unfold tex_escaped. induction s as [|c s IH]; [reflexivity|]. cbn [flat_map]. destruct (H c (or_introl eq_refl)) as [A B].
  replace (c =? 94) with false by lia. replace (c =? 95) with false by lia. cbn [orb app]. f_equal. apply IH. intros x Hx. apply H. right. exact Hx.
Qed.
Print Assumptions C73_special_refuted.
Example C73_ex : exists t, getTeX [sample (lit "A_b") [] CUSTOMERSITE STRING [] false (lit "x^2"); sample (lit "B") [] FACTORY STRING [] false (lit "50% & #1")] (lit "p") (lit "v") = Ok t /\
  occurs (lit "\item \texttt{A\_b} -- x\^2") t /\ occurs (lit "\item \texttt{B} -- 50% & #1") t.
Proof.
  destruct (getTeX [sample (lit "A_b") [] CUSTOMERSITE STRING [] false (lit "x^2"); sample (lit "B") [] FACTORY STRING [] false (lit "50% & #1")] (lit "p") (lit "v")) as [t| | |] eqn:E; [|vm_compute in E; discriminate..].
  exists t. vm_compute in E. injection E as <-. split; [reflexivity|]. 
  assert (X : forall sub s, match UtilsModel.find_ s sub with Some _ => true | None => false end = true -> occurs sub s).
  { intros sub s H. destruct (UtilsModel.find_ s sub) as [i|] eqn:F; [|discriminate]. apply find_some in F. destruct F as (a & b & F & _). exists a, b. exact F. }
  split; apply X; vm_compute; reflexivity.
Qed.

(** ** C74: find *)
Definition find_text (row : list Z * option (list Z)) : list Z := fst row ++ lit " " ++ (match snd row with None | Some [] => lit "(disabled)" | Some v => v end).
Definition plain_row (row : list Z * option (list Z)) : Prop := no_nul (fst row) /\ (forall v, snd row = Some v -> no_nul v).
(** For a pattern without quote and wildcards find prints one line for each row whose key contains
    the pattern, upper and lower case taken as equal, in the order of the table; nothing else. *)
Theorem C74_find pat r : no_nul pat -> (forall c, In c (lit """%_") -> ~ In c pat) -> Forall plain_row r ->
  exists hits, find_out pat r = lines (map find_text hits) /\ (exists keep, hits = filter keep r /\ forall row, In row r -> keep row = true <-> contains_nocase (fst row) pat).
Proof.
  intros N W R. exists (filter (fun row => like (37 :: pat ++ [37]) (fst row)) r). split.
  - rewrite find_out_eq; [|exact N|apply W; left; reflexivity]. unfold lines. rewrite map_map. f_equal. apply map_ext_in. intros row Hr. apply filter_In in Hr. destruct Hr as [Hr _].
    rewrite Forall_forall in R. destruct (R row Hr) as [A B]. unfold find_line, find_text, nl. rewrite c_str_id by exact A. rewrite <- !app_assoc. destruct (snd row) as [v|]; [|reflexivity].
    rewrite c_str_id by (apply B; reflexivity). destruct v; reflexivity.
  - eexists. split; [reflexivity|]. intros row _. apply like_contains; apply W; cbn; tauto.
Qed.
Print Assumptions C74_find.
(** Defects: an underscore in the pattern stands for any character, a percent sign for any text, and
    a double quote has the statement refused, so that nothing is printed. *)
Theorem C74_wildcard_refuted :
  find_out (lit "A_B") [(lit "A_B", Some (lit "1")); (lit "AxB", Some (lit "2"))] = lines [lit "A_B 1"; lit "AxB 2"] /\
  find_out (lit "%") [(lit "K", None)] = lines [lit "K (disabled)"] /\
  find_out (lit "a""b") [(lit "a""b", Some (lit "1"))] = [].
Proof. vm_compute. repeat split. Qed.
Print Assumptions C74_wildcard_refuted.
Example C74_ex : find_out (lit "log") [(lit "Log.Level", Some (lit "INFO")); (lit "GSM.Radio", Some (lit "1")); (lit "Control.LOG", Some []); (lit "Log.File", None)] =
  lines [lit "Log.Level INFO"; lit "Control.LOG (disabled)"; lit "Log.File (disabled)"].
Proof. vm_compute. reflexivity. Qed.

(** ** C75: the schema *)
(** The schema has the keys of the library as the library defines them and all other keys of the
    program, each once, in ascending order. *)
Theorem C75_schema w : ascending w -> let m := make_schema w in
  ascending m /\ (forall k v, In (k, v) m <-> In (k, v) builtin \/ (In (k, v) w /\ ~ In k (map fst builtin))) /\
  map fst builtin = [lit "Control.NumSQLTries"; lit "Log.Alarms.Max"; lit "Log.File"; lit "Log.Level"].
Proof.
  intros W. cbv zeta. assert (M : ascending (make_schema w)) by (apply minsert_ascending, builtin_ascending). split; [exact M|]. split; [|vm_compute; reflexivity]. intros k v.
  rewrite <- !mfind_iff by first [exact M|exact W|exact builtin_ascending]. unfold make_schema. rewrite mfind_insert.
  assert (B : mfind builtin k = None <-> ~ In k (map fst builtin)).
  { clear. induction builtin as [|[x u] t IH]; [split; [intros _ []|reflexivity]|]. cbn [mfind map fst In]. destruct (weqb x k) eqn:E; [apply weqb_iff in E; split; [discriminate|tauto]|].
    rewrite IH. split; [intros H [K|K]; [subst; rewrite weqb_refl in E; discriminate|exact (H K)]|tauto]. }
  destruct (mfind builtin k) as [u|] eqn:E.
  - split; [intros H; left; exact H|]. intros [H|[_ H]]; [exact H|]. apply B in H. discriminate.
  - rewrite <- B. split; [intros H; right; split; [exact H|reflexivity]|]. intros [H|[H _]]; [discriminate|exact H].
Qed.
Print Assumptions C75_schema.
(** The four keys of the library in the schema of every program: default, units, type and who may change them; none
    needs a restart and none is bound to other nodes. *)
Definition library : list (list Z * (list Z * list Z * ktype * visibility)) :=
  [(lit "Control.NumSQLTries", (lit "3", lit "attempts", VALRANGE, DEVELOPER)); (lit "Log.Alarms.Max", (lit "20", lit "alarms", VALRANGE, CUSTOMER));
   (lit "Log.File", ([], [], FILEPATH_OPT, DEVELOPER)); (lit "Log.Level", (lit "NOTICE", [], CHOICE, CUSTOMER))].
Theorem C75_library w k d u t vis : ascending w -> In (k, (d, u, t, vis)) library ->
  exists key, In (k, key) (make_schema w) /\ kname key = k /\ kdefault key = d /\ kunits key = u /\ ktyp key = t /\ kvis key = vis /\
    isStatic (make_schema w) k = false /\ kscope key = 0.
Proof.
  intros W H. pose proof (proj1 (proj2 (C75_schema w W))) as C.
  assert (F : forall key, In (k, key) builtin -> kstatic key = false -> In (k, key) (make_schema w) /\ isStatic (make_schema w) k = false).
  { intros key K E. assert (I : In (k, key) (make_schema w)) by (apply C; left; exact K). split; [exact I|].
    unfold isStatic. apply mfind_iff in I; [|exact (proj1 (C75_schema w W))]. rewrite I. exact E. }
  assert (B : builtin = [(lit "Control.NumSQLTries", key_tries); (lit "Log.Alarms.Max", key_alarms); (lit "Log.File", key_file); (lit "Log.Level", key_level)]) by (vm_compute; reflexivity).
  destruct H as [H|[H|[H|[H|[]]]]]; injection H as <- <- <- <- <-;
    [exists key_tries|exists key_alarms|exists key_file|exists key_level];
    (match goal with |- In (_, ?key) _ /\ _ => destruct (F key) as [I1 I2]; [rewrite B; cbn [In]; tauto|reflexivity|] end);
    (split; [exact I1|]); repeat (split; [reflexivity|]); (split; [exact I2|reflexivity]).
Qed.
Print Assumptions C75_library.
(** Looking up a key, its static flag, its default. *)
Theorem C75_lookup m k : ascending m ->
  (keyDefinedInSchema m k = true <-> In k (map fst m)) /\ (isStatic m k = true <-> exists v, In (k, v) m /\ kstatic v = true) /\
  (forall v, In (k, v) m -> schema_of m k = Some (kdefault v, kdesc v)).
Proof.
  intros M. unfold keyDefinedInSchema, isStatic, schema_of. split; [|split].
  - rewrite in_map_iff. destruct (mfind m k) as [v|] eqn:E.
    + apply mfind_iff in E; [|exact M]. split; [intros _; exists (k, v); split; [reflexivity|exact E]|reflexivity].
    + split; [discriminate|]. intros ([x v] & X & H). cbn [fst] in X. subst x. apply mfind_iff in H; [|exact M]. congruence.
  - destruct (mfind m k) as [v|] eqn:E.
    + split; [intros H; exists v; split; [apply mfind_iff; assumption|exact H]|]. intros (u & H & K). apply mfind_iff in H; [|exact M]. congruence.
    + split; [discriminate|]. intros (u & H & _). apply mfind_iff in H; [|exact M]. congruence.
  - intros v H. apply mfind_iff in H; [|exact M]. rewrite H. reflexivity.
Qed.
Print Assumptions C75_lookup.
(** Validating a value of a known key leaves the schema alone.  Defect: validating a value of an
    unknown key adds the key, and from then on a table without a row for it answers with an empty
    value where it said before that there is no such key. *)
Theorem C75_validate m k flag : In k (map fst m) -> ascending m -> validated m k flag = m.
Proof.
  intros H M. unfold validated. pose proof (proj1 (C75_lookup m k M)) as K. unfold keyDefinedInSchema in K. destruct (mfind m k); [reflexivity|]. apply K in H. discriminate.
Qed.
Print Assumptions C75_validate.
Theorem C75_validate_refuted m k flag up now r : ~ In k (map fst m) -> ascending m -> snd (single_lookup config_table up r k) = None ->
  keyDefinedInSchema m k = false /\ keyDefinedInSchema (validated m k flag) k = true /\
  fst (lookup (schema_of m) up now now [] r k) = None /\ fst (lookup (schema_of (validated m k flag)) up now now [] r k) = Some [].
Proof.
  intros H M L. assert (E : mfind m k = None).
  { pose proof (proj1 (C75_lookup m k M)) as K. unfold keyDefinedInSchema in K. destruct (mfind m k); [exfalso; apply H, K; reflexivity|reflexivity]. }
  unfold keyDefinedInSchema, validated, lookup, schema_of. rewrite E. rewrite !mfind_put, !weqb_refl, L. cbn [option_map kdefault key_unset].
  assert (A : match checkCacheAge now now [] with (_, c) => c = [] end) by (unfold checkCacheAge; destruct (_ <? _); reflexivity).
  destruct (checkCacheAge now now []) as [l c]. subst c. cbn [cfind fst snd]. repeat split; reflexivity.
Qed.
Print Assumptions C75_validate_refuted.
(** getSimilarKeys returns exactly the entries whose key contains the text. *)
Theorem C75_similar m s : ascending m -> exists keep, getSimilarKeys m s = filter keep m /\ (forall e, keep e = true <-> occurs s (fst e)) /\ ascending (getSimilarKeys m s).
Proof.
  intros M. exists (similar s). assert (E : getSimilarKeys m s = filter (similar s) m) by (unfold getSimilarKeys; rewrite similar_loop; [reflexivity|exact M|intros a b []]).
  split; [exact E|]. split; [intros e; apply similar_iff|]. rewrite E. clear E. unfold ascending in *. induction M as [|e t H IH F]; [constructor|]. cbn [filter].
  destruct (similar s e); [|exact IH]. constructor; [exact IH|]. apply Forall_forall. intros b Hb. apply filter_In in Hb. rewrite Forall_forall in F. apply F, Hb.
Qed.
Print Assumptions C75_similar.
(** Whatever the length of the program name, it stays inside the 20 bytes for it: cut to 18
    characters, followed by a colon. *)
Theorem C75_name buf w : length buf = 20%nat -> no_nul w ->
  exists b, set_cmd_name buf (Some w) = Ok b /\ length b = 20%nat /\ c_str b = firstn 18 w ++ lit ":".
Proof.
  intros L N. unfold set_cmd_name. destruct (Nat.le_gt_cases 18 (length w)) as [G|G].
  - replace (18 - length w)%nat with O by lia. cbn [repeat]. rewrite app_nil_r. set (h := firstn 18 w). assert (Lh : length h = 18%nat) by (unfold h; rewrite firstn_length; lia).
    assert (Nh : no_nul h) by (intros K; apply N; unfold h in K; rewrite <- (firstn_skipn 18 w); apply in_app_iff; left; exact K).
    assert (T : exists x y, skipn 18 buf = [x; y]).
    { assert (K : length (skipn 18 buf) = 2%nat) by (rewrite skipn_length; lia). destruct (skipn 18 buf) as [|x [|y [|]]]; try discriminate. exists x, y. reflexivity. }
    destruct T as (x & y & ->). rewrite wr_ok by (rewrite app_length; cbn [length]; lia). cbn [bind].
    assert (U : forall a : list Z, forall i x y z, i = length a -> upd (a ++ x :: y) i z = a ++ z :: y).
    { clear. induction a as [|c a IH]; intros i x y z ->; [reflexivity|]. cbn [length app upd]. f_equal. apply IH. reflexivity. }
    rewrite U by (symmetry; exact Lh). assert (C : c_str (h ++ [0; y]) = h) by (rewrite c_str_app by exact Nh; cbn [c_str]; rewrite app_nil_r; reflexivity).
    rewrite C, Lh. rewrite wr_ok by (rewrite app_length; cbn [length]; lia). cbn [bind]. rewrite U by (symmetry; exact Lh).
    rewrite wr_ok by (rewrite app_length; cbn [length]; lia). exists (h ++ [58; 0]). split.
    + f_equal. change (h ++ [58; y]) with (h ++ [58] ++ [y]). rewrite app_assoc. rewrite U by (rewrite app_length; cbn [length]; lia). rewrite <- app_assoc. reflexivity.
    + split; [rewrite app_length; cbn [length]; lia|]. rewrite c_str_app by exact Nh. reflexivity.
  - rewrite firstn_all2 by lia. destruct (18 - length w)%nat as [|n] eqn:En; [lia|].
    assert (T : exists x y, skipn 18 buf = [x; y]).
    { assert (K : length (skipn 18 buf) = 2%nat) by (rewrite skipn_length; lia). destruct (skipn 18 buf) as [|x [|y [|]]]; try discriminate. exists x, y. reflexivity. }
    destruct T as (x & y & ->). assert (Ln : (length w + S n = 18)%nat) by lia.
    assert (U : forall a : list Z, forall i x y z, i = length a -> upd (a ++ x :: y) i z = a ++ z :: y).
    { clear. induction a as [|c a IH]; intros i x y z ->; [reflexivity|]. cbn [length app upd]. f_equal. apply IH. reflexivity. }
    rewrite wr_ok by (rewrite !app_length, repeat_length; cbn [length]; lia). cbn [bind]. rewrite U by (rewrite app_length, repeat_length; lia).
    assert (R : (w ++ repeat 0 (S n)) ++ [0; y] = w ++ 0 :: 0 :: repeat 0 n ++ [y]).
    { rewrite <- app_assoc. f_equal. cbn [repeat app]. f_equal. clear. induction n as [|n IH]; [reflexivity|]. cbn [repeat app]. f_equal. exact IH. }
    rewrite R. rewrite c_str_app by exact N. cbn [c_str]. change (0 =? 0) with true. cbv iota. rewrite app_nil_r.
    rewrite wr_ok by (rewrite app_length; cbn [length]; lia). cbn [bind]. rewrite U by reflexivity. rewrite wr_ok by (rewrite app_length; cbn [length]; lia).
    exists (w ++ 58 :: 0 :: repeat 0 n ++ [y]). split.
    + f_equal. replace (w ++ 58 :: 0 :: repeat 0 n ++ [y]) with ((w ++ [58]) ++ 0 :: (repeat 0 n ++ [y])) by (rewrite <- app_assoc; reflexivity). rewrite U by (rewrite app_length; cbn [length]; lia). reflexivity.
    + split; [rewrite app_length; cbn [length]; rewrite app_length, repeat_length; cbn [length]; lia|]. rewrite c_str_app by exact N. reflexivity.
Qed.
Print Assumptions C75_name.
Example C75_ex : let m := make_schema [sample (lit "A") (lit "1") CUSTOMER STRING [] true []; sample (lit "Log.Level") (lit "DEBUG") CUSTOMER STRING [] true []] in
  map fst m = [lit "A"; lit "Control.NumSQLTries"; lit "Log.Alarms.Max"; lit "Log.File"; lit "Log.Level"] /\
  isStatic m (lit "A") = true /\ isStatic m (lit "Log.Level") = false /\ option_map fst (schema_of m (lit "Log.Level")) = Some (lit "NOTICE") /\
  map fst (getSimilarKeys m (lit "Log")) = [lit "Log.Alarms.Max"; lit "Log.File"; lit "Log.Level"] /\
  keyDefinedInSchema m (lit "B") = false /\
  match set_cmd_name (repeat 7 20) (Some (lit "a name of some length")) with Ok b => c_str b = lit "a name of some len:" | _ => False end.
Proof. vm_compute. repeat split. Qed.

(** ** C76: printing a key *)
(** Choices with descriptions, and ranges, are printed one line each in order. *)
Theorem C76_choices key l : ktyp key = CHOICE -> l <> [] -> kvalid key = join_with 44 (map (fun e => fst e ++ 124 :: snd e) l) ->
  Forall (fun e => free_of [44; 124] (fst e) /\ free_of [44; 124] (snd e)) l -> Z.of_nat (length (kvalid key)) < 2 ^ 31 ->
  print_valid key = Ok (lines (map (fun e => lit " - valid values:     " ++ fst e ++ lit " = " ++ snd e) l)).
Proof.
  intros T NE E H L. unfold print_valid. rewrite T. fold (described l) in E. rewrite E in *. apply (choice_text l (S (length (described l))) []); [exact NE|exact H|exact L|lia].
Qed.
Print Assumptions C76_choices.
Theorem C76_ranges key l step : ktyp key = VALRANGE -> l <> [] -> kvalid key = join_with 44 (map (fun e => fst e ++ 58 :: snd e) l) ++ step -> step = [] \/ (exists t, step = 40 :: t) ->
  Forall (fun e => free_of [44; 58; 40] (fst e) /\ free_of [44; 58; 40] (snd e)) l -> Z.of_nat (length (kvalid key)) < 2 ^ 31 ->
  print_valid key = Ok (lines (map (fun e => lit " - valid values:     from " ++ fst e ++ lit " to " ++ snd e) l)).
Proof.
  intros T NE E P H L. unfold print_valid. rewrite T. fold (ranges l) in E. rewrite E in *.
  assert (N40 : ~ In 40 (ranges l)).
  { apply join_free; [discriminate|]. apply Forall_forall. intros w Hw K. apply in_map_iff in Hw. destruct Hw as (e & <- & He). rewrite Forall_forall in H. destruct (H e He) as [A B].
    apply in_app_iff in K. destruct K as [K|[K|K]]; [apply (A 40); [cbn; tauto|exact K]|discriminate|apply (B 40); [cbn; tauto|exact K]]. }
  assert (X : (do tmp <- (if s32 (find (ranges l ++ step) 40 0) =? -1 then Ok (ranges l ++ step) else substr (ranges l ++ step) 0 (s32 (find (ranges l ++ step) 40 0))); Ok tmp) = Ok (ranges l)).
  { destruct P as [->|(t & ->)].
    - rewrite app_nil_r, find0_none by exact N40. rewrite s32_npos. reflexivity.
    - rewrite find0_at by exact N40. rewrite app_length in L. pose proof (len_nonneg (ranges l)). rewrite s32_id by (unfold len in *; cbn [length] in L; lia).
      replace (len (ranges l) =? -1) with false by lia. rewrite substr0_at by reflexivity. reflexivity. }
  destruct (if s32 (find (ranges l ++ step) 40 0) =? -1 then Ok (ranges l ++ step) else substr (ranges l ++ step) 0 (s32 (find (ranges l ++ step) 40 0))) as [tmp| | |] eqn:Q; try discriminate X. cbn [bind] in X. apply Ok_inj in X. subst tmp.
  cbv zeta. cbn [bind].
  pose proof (range_text l (S (length (ranges l))) [] NE) as RT. cbn [app] in RT. change (len [] - 1) with (-1) in RT. rewrite RT.
  - f_equal.
  - eapply Forall_impl; [|exact H]. intros e [A B]. split; intros c Hc; [apply A|apply B]; cbn in *; tauto.
  - rewrite app_length in L. unfold len. lia.
  - lia.
Qed.
Print Assumptions C76_ranges.
(** Defect: choices without descriptions are meant to be printed one per line; instead each line has
    all that follows and, as its description, the whole list. *)
Theorem C76_plain_refuted key l : ktyp key = CHOICE -> l <> [] -> kvalid key = join_with 44 l -> Forall (free_of [44; 124]) l -> Z.of_nat (length (kvalid key)) < 2 ^ 31 ->
  print_valid key = Ok (lines (map (fun t => lit " - valid values:     " ++ t ++ lit " = " ++ kvalid key) (tails l))) /\
  (forall i, nth_error (tails l) i = option_map (fun _ => join_with 44 (skipn i l)) (nth_error l i)).
Proof.
  intros T NE E H L. split.
  - unfold print_valid. rewrite T, E in *. apply (choice_text_plain l (S (length (join_with 44 l))) []); [exact NE|exact H|intros []|exact L|lia].
  - clear. induction l as [|a l IH]; intros [|i]; [reflexivity..|]. cbn [tails nth_error]. apply IH.
Qed.
Print Assumptions C76_plain_refuted.
(** Booleans list their two values and strings their expression; the other types, optional choices
    and optional strings among them, show the text of the schema as it is, if there is any. *)
Theorem C76_other key : ktyp key <> VALRANGE -> ktyp key <> CHOICE -> exists l, print_valid key = Ok (lines l) /\
  (ktyp key = BOOLEAN /\ l = [lit " - valid values:     0 = disabled"; lit " - valid values:     1 = enabled"] \/
   ktyp key = STRING /\ l = [lit " - valid val regex:  " ++ kvalid key] \/
   ktyp key <> BOOLEAN /\ ktyp key <> STRING /\ (kvalid key = [] /\ l = [] \/ kvalid key <> [] /\ l = [lit " - raw valid values: " ++ kvalid key])).
Proof.
  intros A B. unfold print_valid. cbv zeta.
  destruct (ktyp key); try (exfalso; congruence);
    try (exists [lit " - valid values:     0 = disabled"; lit " - valid values:     1 = enabled"]; split; [reflexivity|left; split; reflexivity]);
    try (exists [lit " - valid val regex:  " ++ kvalid key]; split; [rewrite lines_cons; change (lines []) with (@nil Z); rewrite <- !app_assoc; reflexivity|right; left; split; reflexivity]);
    (exists (match kvalid key with [] => [] | _ => [lit " - raw valid values: " ++ kvalid key] end); split;
     [destruct (kvalid key); [reflexivity|rewrite lines_cons; change (lines []) with (@nil Z); rewrite <- !app_assoc; reflexivity]
     |right; right; split; [discriminate|]; split; [discriminate|]; destruct (kvalid key); [left; split; reflexivity|right; split; [discriminate|reflexivity]]]).
Qed.
Print Assumptions C76_other.
(** The names of the types and of the visibility levels tell them apart; an optional type has the
    name of the type it belongs to and says that it is optional. *)
Definition type_names : list (ktype * list Z) :=
  [(BOOLEAN, lit "boolean"); (CHOICE, lit "multiple choice"); (CIDR, lit "CIDR notation"); (FILEPATH, lit "file path"); (HOSTANDPORT, lit "hostname or IP address and port");
   (IPADDRESS, lit "IP address"); (IPANDPORT, lit "IP address and port"); (MIPADDRESS, lit "space-separated list of IP addresses"); (PORT, lit "IP port");
   (REGEX, lit "regular expression"); (STRING, lit "string"); (VALRANGE, lit "value range")].
Theorem C76_names : (forall a b, typeToString a = typeToString b -> a = b) /\ (forall a b, visibilityLevelToString a = visibilityLevelToString b -> a = b) /\
  (forall t, exists name, In (required t, name) type_names /\ (t = required t /\ typeToString t = name \/ t <> required t /\ typeToString t = name ++ lit " (optional)")).
Proof.
  split; [|split]; [intros a b; destruct a, b; intros H; try reflexivity; vm_compute in H; discriminate H..|].
  intros t. exists (typeToString (required t)). split; [destruct t; cbn; tauto|]. destruct t; first [left; split; reflexivity|right; split; [discriminate|reflexivity]].
Qed.
Print Assumptions C76_names.
(** A key is marked as default exactly if its value is the default. *)
Theorem C76_key key v : exists mark, printKey key v = lines [kname key ++ lit " " ++ (match v with [] => lit "(disabled)" | _ => v end) ++ mark] /\
  (v = kdefault key /\ mark = lit "     [default]" \/ v <> kdefault key /\ mark = []).
Proof.
  unfold printKey. exists (if weqb v (kdefault key) then lit "     [default]" else []). split.
  - rewrite lines_cons. change (lines []) with (@nil Z). unfold nl. rewrite <- !app_assoc. reflexivity.
  - destruct (weqb v (kdefault key)) eqn:E; [left; split; [apply weqb_iff, E|reflexivity]|right; split; [|reflexivity]]. intros ->. rewrite weqb_refl in E. discriminate.
Qed.
Print Assumptions C76_key.
(** Every other property of the key is on its line; scopes have one line each, except for the defect
    that a value to be the same across neighbours is said so twice. *)
Theorem C76_description key text : print_valid key = Ok text -> exists scope,
  printDescription key = Ok (lines ([lit " - description:      " ++ kdesc key] ++ (match kunits key with [] => [] | u => [lit " - units:            " ++ u] end)
    ++ [lit " - type:             " ++ typeToString (ktyp key)] ++ (match kdefault key with [] => [] | d => [lit " - default value:    " ++ d] end)
    ++ [lit " - visibility level: " ++ visibilityLevelToString (kvis key); lit " - static:           " ++ (if kstatic key then lit "1" else lit "0")]) ++ text ++ lines (map (app (lit " - scope:            ")) scope)) /\
  (In (lit "value must be unique across all nodes") scope <-> Z.testbit (kscope key) 0 = true) /\
  (In (lit "value must be the same across all nodes") scope <-> Z.testbit (kscope key) 1 = true) /\
  (In (lit "value must be unique across all neighbors") scope <-> Z.testbit (kscope key) 2 = true) /\
  (In (lit "value must be the same across all neighbors") scope <-> Z.testbit (kscope key) 3 = true) /\
  (In (lit "must be the same across all neighbors") scope <-> Z.testbit (kscope key) 3 = true) /\
  (In (lit "specific to each individual node") scope <-> Z.testbit (kscope key) 4 = true) /\ (length scope <= 6)%nat.
Proof.
  intros V. assert (B : forall n, 0 <= n -> (Z.land (kscope key) (2 ^ n) =? 0) = negb (Z.testbit (kscope key) n)).
  { intros n Hn. destruct (Z.testbit (kscope key) n) eqn:T; cbn [negb].
    - apply Z.eqb_neq. intros K. assert (Z.testbit (Z.land (kscope key) (2 ^ n)) n = true) by (rewrite Z.land_spec, T, Z.pow2_bits_true by exact Hn; reflexivity). rewrite K, Z.bits_0 in H. discriminate.
    - apply Z.eqb_eq. apply Z.bits_inj'. intros i Hi. rewrite Z.land_spec, Z.bits_0. destruct (Z.eq_dec i n) as [->|NE]; [rewrite T; reflexivity|]. rewrite Z.pow2_bits_false by (intros Q; apply NE; symmetry; exact Q). apply andb_false_r. }
  pose proof (B 0 ltac:(lia)) as B0. pose proof (B 1 ltac:(lia)) as B1. pose proof (B 2 ltac:(lia)) as B2. pose proof (B 3 ltac:(lia)) as B3. pose proof (B 4 ltac:(lia)) as B4. change (2 ^ 0) with 1 in B0. change (2 ^ 1) with 2 in B1. change (2 ^ 2) with 4 in B2. change (2 ^ 3) with 8 in B3. change (2 ^ 4) with 16 in B4. clear B.
  exists (pick (Z.testbit (kscope key) 0) (lit "value must be unique across all nodes") ++ pick (Z.testbit (kscope key) 1) (lit "value must be the same across all nodes")
    ++ pick (Z.testbit (kscope key) 2) (lit "value must be unique across all neighbors") ++ pick (Z.testbit (kscope key) 3) (lit "value must be the same across all neighbors")
    ++ pick (Z.testbit (kscope key) 3) (lit "must be the same across all neighbors") ++ pick (Z.testbit (kscope key) 4) (lit "specific to each individual node")).
  split; [|apply picks, distinct_nodup; vm_compute; reflexivity].
  unfold printDescription. rewrite V. cbn [bind]. f_equal. unfold print_scope. rewrite B0, B1, B2, B3, B4. unfold nl. rewrite !pick_lines.
  assert (X : lines (match kunits key with [] => [] | u => [lit " - units:            " ++ u] end) = match kunits key with [] => [] | _ => lit " - units:            " ++ kunits key ++ [10] end).
  { destruct (kunits key); [reflexivity|]. rewrite lines_cons. rewrite <- app_assoc. reflexivity. }
  assert (Y : lines (match kdefault key with [] => [] | u => [lit " - default value:    " ++ u] end) = match kdefault key with [] => [] | _ => lit " - default value:    " ++ kdefault key ++ [10] end).
  { destruct (kdefault key); [reflexivity|]. rewrite lines_cons. rewrite <- app_assoc. reflexivity. }
  rewrite !map_app, !lines_app, X, Y, !lines_cons. change (lines []) with (@nil Z). clear. rewrite <- !app_assoc. cbn [app]. rewrite <- !app_assoc. reflexivity.
Qed.
Print Assumptions C76_description.
Example C76_ex :
  printDescription key_tries = Ok (lines [lit " - description:      Number of times to retry SQL queries before declaring a database access failure."; lit " - units:            attempts"; lit " - type:             value range";
    lit " - default value:    3"; lit " - visibility level: developer - should only be changed by developers to debug/optimize the implementation"; lit " - static:           0"; lit " - valid values:     from 1 to 10"]) /\
  print_valid (snd (sample (lit "K") [] CUSTOMER CHOICE (lit "A|one,B|two") false [])) = Ok (lines [lit " - valid values:     A = one"; lit " - valid values:     B = two"]) /\
  print_valid (snd (sample (lit "K") [] CUSTOMER CHOICE (lit "A,B") false [])) = Ok (lines [lit " - valid values:     A,B = A,B"; lit " - valid values:     B = A,B"]) /\
  print_valid (snd (sample (lit "K") [] CUSTOMER VALRANGE (lit "1:5,8:9(2)") false [])) = Ok (lines [lit " - valid values:     from 1 to 5"; lit " - valid values:     from 8 to 9"]) /\
  printKey key_tries (lit "3") = lines [lit "Control.NumSQLTries 3     [default]"] /\ printKey key_tries [] = lines [lit "Control.NumSQLTries (disabled)"] /\ print_scope 8 = lines [lit " - scope:            value must be the same across all neighbors"; lit " - scope:            must be the same across all neighbors"].
Proof. vm_compute. repeat split. Qed.
