(** C107: the file of defaults, written by the program and run by sqlite3, seen through the configuration table. *)
From Verif Require Import Base BaseFacts UtilsModel UtilsSpec UtilsProofs UtilsProofs2 SqlModel SqlProofs ConfigModel ConfigSpec ConfigProofs NumProofs ConfigProps
  ValidModel ValidSpec ValidProofs ValidProps SchemaModel SchemaSpec SchemaProofs SchemaProps KvModel LoggerModel LoggerSpec LoggerProps AcceptProps.
Local Open Scope Z_scope.

(** Table CONFIG (Configuration.cpp:229, 256-260) as the columns the getters use: KEYSTRING and VALUESTRING. *)
Definition seen (r : list crow) : rows := map (fun x => (rkey x, Some (rval x))) r.
(** A program that starts with table [t] on a database with the rows [r]: nothing cached. *)
Definition starts_on (w : world) (t : nat) (r : list crow) : Prop := tdb (tabs w t) = seen r /\ forall u, tcache (tabs w u) = [].
(** A schema whose file of defaults can be run: see C72. *)
Definition installable (m : keymap) : Prop := Forall quotable m /\ NoDup (map fst m) /\ Forall (fun e => no_nul (kdefault (snd e))) m.
(** The value of the first row of a key. *)
Fixpoint first_value (r : list crow) (k : list Z) : option (list Z) :=
  match r with [] => None | x :: t => if weqb (rkey x) k then Some (rval x) else first_value t k end.

Lemma row_of_seen r k : row_of (seen r) k = option_map c_str (first_value r k).
Proof. induction r as [|x r IH]; [reflexivity|]. cbn [seen map row_of first_value]. destruct (weqb (rkey x) k); [reflexivity|exact IH]. Qed.
Lemma first_app r q k : first_value (r ++ q) k = match first_value r k with Some v => Some v | None => first_value q k end.
Proof. induction r as [|x r IH]; [reflexivity|]. cbn [app first_value]. destruct (weqb (rkey x) k); [reflexivity|exact IH]. Qed.
Lemma first_none r k v : first_value r k = None -> missing r (k, v) = true.
Proof.
  unfold missing. intros H. apply negb_true_iff. cbn [fst]. induction r as [|x r IH]; [reflexivity|].
  cbn [first_value] in H. cbn [existsb]. destruct (weqb (rkey x) k); [discriminate|exact (IH H)].
Qed.
Lemma first_new r m k : first_value r k = None -> first_value (map row_for (filter (missing r) m)) k = option_map kdefault (mfind m k).
Proof.
  intros H. induction m as [|[x v] m IH]; [reflexivity|]. cbn [filter mfind]. destruct (weqb x k) eqn:E.
  - apply weqb_iff in E. subst x. rewrite (first_none r k v H). cbn [map first_value row_for rkey fst snd rval]. rewrite weqb_refl. reflexivity.
  - destruct (missing r (x, v)); [|exact IH]. cbn [map first_value row_for rkey fst]. rewrite E. exact IH.
Qed.
(** What the file leaves for a key. *)
Lemma first_installed m program version r r' k : one_line program -> one_line version -> installable m ->
  run_script (getDefaultSQL m program version) r = Some r' ->
  first_value r' k = match first_value r k with Some v => Some v | None => option_map kdefault (mfind m k) end.
Proof.
  intros P V (Q & D & _) H. rewrite C72_defaults in H by assumption. injection H as <-. rewrite first_app.
  destruct (first_value r k) eqn:F; [reflexivity|]. apply first_new, F.
Qed.
Lemma mfind_in m k v : NoDup (map fst m) -> In (k, v) m -> mfind m k = Some v.
Proof.
  induction m as [|[x u] m IH]; intros D I; [destruct I|]. cbn [map fst] in D. apply NoDup_cons_iff in D as [D1 D2]. cbn [mfind].
  destruct I as [I|I]; [injection I as -> ->; rewrite weqb_refl; reflexivity|].
  destruct (weqb x k) eqn:E; [|exact (IH D2 I)]. apply weqb_iff in E. subst x. exfalso. apply D1. apply (in_map fst) in I. exact I.
Qed.
Lemma mfind_some m k v : mfind m k = Some v -> In (k, v) m.
Proof.
  induction m as [|[x u] m IH]; [discriminate|]. cbn [mfind]. destruct (weqb x k) eqn:E; intros H; [|right; exact (IH H)].
  apply weqb_iff in E. subst x. injection H as ->. left. reflexivity.
Qed.
(** A get after a history that does not write the key. *)
Lemma get_after S w l t k : (forall u, tcache (tabs w u) = []) -> Forall (plain_event S) l -> plain_event S (EGet t k true) -> Forall (fun e => ~ writes t k e) l ->
  last (fst (ConfigModel.crun S w (l ++ [EGet t k true]))) ONone = OVal (value_of S (contents w) t k).
Proof.
  intros E P G N. rewrite C44_refines_map; [|exact E|apply Forall_app; split; [exact P|constructor; [exact G|constructor]]].
  rewrite spec_run_app. pose proof (spec_untouched S t k l (contents w) N) as U. destruct (spec_run S (contents w) l) as [o m]. cbn [snd] in U.
  cbn [spec_run spec_step fst]. rewrite last_last. unfold value_of. rewrite U. reflexivity.
Qed.

(** ** The value of a key after the file was run *)
(** Whatever was in the database and whatever the program does with other keys: a key of the schema that had
    a row keeps its value, one that had none reads as its default; for any program that reads the table. *)
Theorem C107_installed S m program version r r' w t l k v : one_line program -> one_line version -> installable m ->
  run_script (getDefaultSQL m program version) r = Some r' -> starts_on w t r' -> In (k, v) m ->
  Forall (plain_event S) l -> plain_event S (EGet t k true) -> Forall (fun e => ~ writes t k e) l ->
  last (fst (ConfigModel.crun S w (l ++ [EGet t k true]))) ONone =
  OVal (Some (match first_value r k with Some old => c_str old | None => kdefault v end)).
Proof.
  intros P V I H [W E] K L G N. rewrite get_after by assumption. f_equal. unfold value_of, contents. rewrite W, row_of_seen.
  rewrite (first_installed m program version r r' k P V I H). destruct I as (_ & D & C). rewrite (mfind_in m k v D K).
  destruct (first_value r k) as [old|]; [reflexivity|]. cbn [option_map]. rewrite c_str_id; [reflexivity|].
  rewrite Forall_forall in C. exact (C _ K).
Qed.
Print Assumptions C107_installed.

(** A key that is not in the schema of the file is not touched by it. *)
Theorem C107_others S m program version r r' w w0 t l k : one_line program -> one_line version -> installable m ->
  run_script (getDefaultSQL m program version) r = Some r' -> starts_on w t r' -> starts_on w0 t r -> (forall v, ~ In (k, v) m) ->
  Forall (plain_event S) l -> plain_event S (EGet t k true) -> Forall (fun e => ~ writes t k e) l ->
  last (fst (ConfigModel.crun S w (l ++ [EGet t k true]))) ONone = last (fst (ConfigModel.crun S w0 (l ++ [EGet t k true]))) ONone.
Proof.
  intros P V I H [W E] [W0 E0] K L G N. rewrite !get_after by assumption. f_equal. unfold value_of, contents. rewrite W, W0, !row_of_seen.
  rewrite (first_installed m program version r r' k P V I H). destruct (mfind m k) as [v|] eqn:M; [exfalso; exact (K v (mfind_some _ _ _ M))|].
  destruct (first_value r k); reflexivity.
Qed.
Print Assumptions C107_others.

(** ** For the program that wrote it the file changes nothing *)
Lemma same_values S l : forall m1 m2, (forall t k, value_of S m1 t k = value_of S m2 t k) -> fst (spec_run S m1 l) = fst (spec_run S m2 l).
Proof.
  induction l as [|e l IH]; intros m1 m2 H; [reflexivity|]. cbn [spec_run].
  assert (Put : forall t k v u j, value_of S (put m1 t k v) u j = value_of S (put m2 t k v) u j).
  { intros t k v u j. specialize (H u j). unfold value_of, put in *. destruct (u =? t)%nat; [destruct (weqb k j); [reflexivity|]|]; exact H. }
  assert (Go : forall o1 o2 n1 n2, o1 = o2 -> (forall t k, value_of S n1 t k = value_of S n2 t k) ->
    fst (let (os, m) := spec_run S n1 l in (o1 :: os, m)) = fst (let (os, m) := spec_run S n2 l in (o2 :: os, m))).
  { intros o1 o2 n1 n2 -> X. specialize (IH n1 n2 X). destruct (spec_run S n1 l), (spec_run S n2 l). cbn [fst] in *. congruence. }
  destruct e as [t k v up|t k up|t k up|t|d|t r]; cbn [spec_step]; apply Go; try reflexivity; try exact H.
  - destruct up; [intros u j; apply Put|exact H].
  - destruct up; [intros u j; apply Put|exact H].
  - rewrite (H t k). reflexivity.
Qed.
(** Any history of sets, removes, gets, purges and time gives the same answers with the file run before as without. *)
Theorem C107_transparent m program version r r' w w0 t l : one_line program -> one_line version -> installable m ->
  run_script (getDefaultSQL m program version) r = Some r' -> starts_on w t r' -> starts_on w0 t r ->
  (forall u, u <> t -> tdb (tabs w u) = tdb (tabs w0 u)) -> Forall (plain_event (schema_of m)) l ->
  fst (ConfigModel.crun (schema_of m) w l) = fst (ConfigModel.crun (schema_of m) w0 l).
Proof.
  intros P V I H [W E] [W0 E0] O L. rewrite !C44_refines_map by assumption. apply same_values. intros u k. unfold value_of, contents.
  destruct (Nat.eq_dec u t) as [->|U]; [|rewrite (O u U); reflexivity]. rewrite W, W0, !row_of_seen.
  rewrite (first_installed m program version r r' k P V I H). destruct (first_value r k) as [old|]; [reflexivity|].
  unfold schema_of. destruct (mfind m k) as [v|] eqn:M; [|reflexivity]. cbn [option_map]. rewrite c_str_id; [reflexivity|].
  destruct I as (_ & _ & C). rewrite Forall_forall in C. exact (C _ (mfind_some _ _ _ M)).
Qed.
Print Assumptions C107_transparent.

(** ** The keys of the library *)
(** On a new database they read as defaults that pass validation. *)
Theorem C107_builtin R F S own program version r' w t l k v : one_line program -> one_line version -> installable (make_schema own) ->
  run_script (getDefaultSQL (make_schema own) program version) [] = Some r' -> starts_on w t r' -> In (k, v) builtin ->
  Forall (plain_event S) l -> Forall (fun e => ~ writes t k e) l ->
  last (fst (ConfigModel.crun S w (l ++ [EGet t k true]))) ONone = OVal (Some (kdefault v)) /\
  isValidValue R F (types_of (make_schema own)) k (kdefault v) = Ok true.
Proof.
  intros P V I H W K L N. destruct (C104_defaults R F own k v K) as (A & M & _ & _ & _ & X). split; [|exact A].
  assert (G : plain_event S (EGet t k true)).
  { clear - X. cbn [In] in X. decompose [or] X; try contradiction;
      match goal with Q : (_, _, _, _, _) = _ |- _ => injection Q as Q _ _ _ _; subst k end;
      (split; [split; intros Y; vm_compute in Y; intuition discriminate|split; [intros Y; vm_compute in Y; intuition discriminate|reflexivity]]). }
  rewrite (C107_installed S (make_schema own) program version [] r' w t l k v P V I H W (mfind_some _ _ _ M) L G N). reflexivity.
Qed.
Print Assumptions C107_builtin.

(** ** Defect: defaults that were installed stay when the schema changes *)
(** After the files of two versions, one after the other on a new database, a key nobody ever set reads
    as the default of the old version ... *)
Theorem C107_upgrade_refuted S m1 m2 p1 v1 p2 v2 r1 r2 w t l k a b : one_line p1 -> one_line v1 -> one_line p2 -> one_line v2 -> installable m1 -> installable m2 ->
  run_script (getDefaultSQL m1 p1 v1) [] = Some r1 -> run_script (getDefaultSQL m2 p2 v2) r1 = Some r2 -> starts_on w t r2 ->
  In (k, a) m1 -> In (k, b) m2 -> Forall (plain_event S) l -> plain_event S (EGet t k true) -> Forall (fun e => ~ writes t k e) l ->
  last (fst (ConfigModel.crun S w (l ++ [EGet t k true]))) ONone = OVal (Some (kdefault a)).
Proof.
  intros P1 V1 P2 V2 I1 I2 H1 H2 W K1 K2 L G N. rewrite (C107_installed S m2 p2 v2 r1 r2 w t l k b P2 V2 I2 H2 W K2 L G N).
  rewrite (first_installed m1 p1 v1 [] r1 k P1 V1 I1 H1). destruct I1 as (_ & D & C). rewrite (mfind_in m1 k a D K1). cbn [first_value option_map].
  rewrite c_str_id; [reflexivity|]. rewrite Forall_forall in C. exact (C _ K1).
Qed.
Print Assumptions C107_upgrade_refuted.
(** ... until it is removed: then it reads as the default of the program that runs. *)
Theorem C107_removed m2 w t l1 l2 r2 k b : starts_on w t r2 -> In (k, b) m2 -> NoDup (map fst m2) ->
  Forall (plain_event (schema_of m2)) l1 -> Forall (plain_event (schema_of m2)) l2 -> plain_event (schema_of m2) (ERemove t k true) -> plain_event (schema_of m2) (EGet t k true) ->
  Forall (fun e => ~ writes t k e) l2 ->
  last (fst (ConfigModel.crun (schema_of m2) w (l1 ++ ERemove t k true :: l2 ++ [EGet t k true]))) ONone = OVal (Some (kdefault b)).
Proof.
  intros [_ E] K D L1 L2 R G N. rewrite C44_removed by assumption. unfold schema_of. rewrite (mfind_in m2 k b D K). reflexivity.
Qed.
Print Assumptions C107_removed.

(** ** Example: a timer whose default goes from 30 to 24, a port the user has set. *)
Definition old_schema : keymap := [(lit "GSM.T3212", CKey (lit "GSM.T3212") (lit "30") [] CUSTOMER VALRANGE (lit "0:1530") false (lit "operator's timer") 0);
  (lit "TRX.Port", CKey (lit "TRX.Port") (lit "5700") [] CUSTOMER PORT [] true (lit "port") 0)].
Definition new_schema : keymap := [(lit "GSM.T3212", CKey (lit "GSM.T3212") (lit "24") [] CUSTOMER VALRANGE (lit "0:1530") false (lit "operator's timer") 0);
  (lit "TRX.Port", CKey (lit "TRX.Port") (lit "5700") [] CUSTOMER PORT [] true (lit "port") 0)].
Example C107_ex_installable : installable old_schema /\ installable new_schema.
Proof.
  assert (N : forall c s, existsb (Z.eqb c) s = false -> ~ In c s).
  { intros c s H K. assert (X : existsb (Z.eqb c) s = true) by (apply existsb_exists; exists c; split; [exact K|apply Z.eqb_refl]). congruence. }
  split; (split; [|split]).
  1, 4: repeat constructor; cbn [fst snd kdefault kdesc]; try (apply N; reflexivity); first [left; apply N; reflexivity|right; apply N; reflexivity].
  1, 3: repeat constructor; cbn [fst In]; intuition discriminate.
  all: repeat constructor; apply N; reflexivity.
Qed.
Example C107_ex : let user := [CRow (lit "TRX.Port") (lit "5800") (lit "0") (lit "1") []] in
  exists r1 r2, run_script (getDefaultSQL old_schema (lit "prog") (lit "1")) user = Some r1 /\ run_script (getDefaultSQL new_schema (lit "prog") (lit "2")) r1 = Some r2 /\
  let w := start_world 100 (seen r2) in starts_on w 0 r2 /\
  fst (ConfigModel.crun (schema_of new_schema) w [EGet 0 (lit "GSM.T3212") true; EGet 0 (lit "TRX.Port") true; ERemove 0 (lit "GSM.T3212") true; EGet 0 (lit "GSM.T3212") true;
    ERemove 0 (lit "TRX.Port") true; EGet 0 (lit "TRX.Port") true]) =
  [OVal (Some (lit "30")); OVal (Some (lit "5800")); OBool true; OVal (Some (lit "24")); OBool true; OVal (Some (lit "5700"))].
Proof.
  eexists; eexists. split; [vm_compute; reflexivity|]. split; [vm_compute; reflexivity|]. cbv zeta. split; [|vm_compute; reflexivity].
  split; [reflexivity|]. intros u. cbn. destruct (u =? 0)%nat; reflexivity.
Qed.
