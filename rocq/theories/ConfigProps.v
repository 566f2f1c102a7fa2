(** Properties C44 to C47 and C49: configuration tables. *)
From Verif Require Import Base BaseFacts UtilsModel UtilsSpec UtilsProofs UtilsProofs2 SqlModel SqlProofs ConfigModel ConfigSpec ConfigProofs NumProofs.
Local Open Scope Z_scope.

Definition some_schema : schema := fun k =>
  if weqb k (lit "Log.Level") then Some (lit "NOTICE", lit "logging level")
  else if weqb k (lit "GSM.T3212") then Some (lit "30", lit "operator's timer") else None.
Definition empty_tab : ctable := CTable [] [].
Definition start_world (t : Z) (r : rows) : world := World t 0 (fun i => if (i =? 0)%nat then CTable [] r else empty_tab).

(** ** C44: reading back what was written *)
(** From any database and empty caches, plain histories over any number of tables, with
    any clock, purges and failing writes, answer like a map. *)
Theorem C44_refines_map S w l : (forall t, tcache (tabs w t) = []) -> Forall (plain_event S) l ->
  fst (crun S w l) = fst (spec_run S (contents w) l).
Proof. intros E P. exact (proj1 (run_agrees S l w _ (start_agrees S w E) P)). Qed.
Print Assumptions C44_refines_map.

(** After a successful set every get returns the value until the key is written again. *)
Theorem C44_read_your_writes S w l1 l2 t k v : (forall t, tcache (tabs w t) = []) ->
  Forall (plain_event S) l1 -> Forall (plain_event S) l2 ->
  plain_event S (ESet t k v true) -> plain_event S (EGet t k true) -> Forall (fun e => ~ writes t k e) l2 ->
  last (fst (crun S w (l1 ++ ESet t k v true :: l2 ++ [EGet t k true]))) ONone = OVal (Some v).
Proof.
  intros E P1 P2 PS PG N. rewrite C44_refines_map; [|exact E|].
  2:{ apply Forall_app. split; [exact P1|]. constructor; [exact PS|]. apply Forall_app. split; [exact P2|]. constructor; [exact PG|constructor]. }
  rewrite spec_run_app. destruct (spec_run S (contents w) l1) as [o1 m1]. cbn [spec_run spec_step].
  rewrite spec_run_app. pose proof (spec_untouched S t k l2 (put m1 t k (Some v)) N) as U.
  destruct (spec_run S (put m1 t k (Some v)) l2) as [o2 m2]. cbn [snd] in U. cbn [spec_run spec_step fst].
  rewrite app_comm_cons, app_assoc, last_last. unfold value_of. rewrite U. unfold put. rewrite Nat.eqb_refl, weqb_refl. reflexivity.
Qed.
Print Assumptions C44_read_your_writes.

(** After remove a key of the schema has its default, another key is missing. *)
Theorem C44_removed S w l1 l2 t k : (forall t, tcache (tabs w t) = []) ->
  Forall (plain_event S) l1 -> Forall (plain_event S) l2 ->
  plain_event S (ERemove t k true) -> plain_event S (EGet t k true) -> Forall (fun e => ~ writes t k e) l2 ->
  last (fst (crun S w (l1 ++ ERemove t k true :: l2 ++ [EGet t k true]))) ONone =
  OVal (match S k with Some (default, _) => Some default | None => None end).
Proof.
  intros E P1 P2 PS PG N. rewrite C44_refines_map; [|exact E|].
  2:{ apply Forall_app. split; [exact P1|]. constructor; [exact PS|]. apply Forall_app. split; [exact P2|]. constructor; [exact PG|constructor]. }
  rewrite spec_run_app. destruct (spec_run S (contents w) l1) as [o1 m1]. cbn [spec_run spec_step].
  rewrite spec_run_app. pose proof (spec_untouched S t k l2 (put m1 t k None) N) as U.
  destruct (spec_run S (put m1 t k None) l2) as [o2 m2]. cbn [snd] in U. cbn [spec_run spec_step fst].
  rewrite app_comm_cons, app_assoc, last_last. unfold value_of. rewrite U. unfold put. rewrite Nat.eqb_refl, weqb_refl. reflexivity.
Qed.
Print Assumptions C44_removed.

(** Defect: remove reports success whether or not there was anything to remove. *)
Theorem C44_remove_absent_refuted S w t k : quote_free 39 k -> (forall v, ~ In (k, v) (tdb (tabs w t))) ->
  fst (cstep S w (ERemove t k true)) = OBool true.
Proof. intros Q _. cbn [cstep]. rewrite step_remove by exact Q. reflexivity. Qed.
Print Assumptions C44_remove_absent_refuted.

(** getAllPairs lists the database. *)
Lemma stored_in r k : match stored r k with Some v => In (k, v) r | None => forall v, ~ In (k, v) r end.
Proof.
  induction r as [|[x v] r IH]; [intros v []|]. cbn [stored]. destruct (weqb x k) eqn:E.
  - apply weqb_iff in E. subst. left. reflexivity.
  - destruct (stored r k) as [u|]; [right; exact IH|]. intros u [H|H]; [|exact (IH u H)]. injection H as -> _. rewrite weqb_refl in E. discriminate.
Qed.
Theorem C44_all_pairs r k : NoDup (map fst r) -> (forall x v, In (x, v) r -> ~ In 0 x) ->
  match cfind (getAllPairs r) k with
  | Some v => exists v', In (k, v') r /\ v = option_map c_str v'
  | None => forall v', ~ In (k, v') r
  end.
Proof.
  intros D N. assert (E : cfind (getAllPairs r) k = option_map (option_map c_str) (stored r k)).
  { induction r as [|[x v] r IH]; [reflexivity|]. inversion D as [|? ? D1 D2]; subst. cbn [getAllPairs stored].
    assert (IH' := IH D2 (fun a b H => N a b (or_intror H))). clear IH. rewrite c_str_id by (apply (N x v); left; reflexivity).
    assert (X : cfind (getAllPairs r) x = None).
    { clear IH'. cbn [map fst] in *. revert D2 D1. assert (N' : forall a b, In (a, b) r -> ~ In 0 a) by (intros a b H; apply (N a b); right; exact H).
      clear N D. induction r as [|[y u] r IH]; intros D2 D1; [reflexivity|]. inversion D2 as [|? ? D3 D4]; subst. cbn [getAllPairs].
      assert (R : cfind (getAllPairs r) x = None) by (apply IH; [intros a b H; apply (N' a b); right; exact H|exact D4|intros H; apply D1; right; exact H]).
      rewrite c_str_id by (apply (N' y u); left; reflexivity).
      destruct (cfind (getAllPairs r) y); [exact R|]. cbn [cfind]. rewrite weqb_neq; [exact R|]. intros ->. apply D1. left. reflexivity. }
    rewrite X. cbn [cfind]. destruct (weqb x k); [reflexivity|exact IH']. }
  rewrite E. pose proof (stored_in r k) as H. destruct (stored r k) as [v|]; cbn [option_map]; [exists v; split; [exact H|reflexivity]|exact H].
Qed.
Print Assumptions C44_all_pairs.

Example C44_example :
  fst (crun some_schema (start_world 100 [(lit "A", Some (lit "1")); (lit "B", None)])
    [EGet 0 (lit "A") true; EGet 0 (lit "B") true; ESet 0 (lit "Log.Level") (lit "it's DEBUG") true; EGet 0 (lit "Log.Level") true;
     ETick 10; EGet 0 (lit "Log.Level") true; ERemove 0 (lit "Log.Level") true; EGet 0 (lit "Log.Level") true; EGet 1 (lit "A") true;
     ESet 0 (lit "A") (lit "2") false; EGet 0 (lit "A") true]) =
  [OVal (Some (lit "1")); OVal None; OBool true; OVal (Some (lit "it's DEBUG")); ONone; OVal (Some (lit "it's DEBUG"));
   OBool true; OVal (Some (lit "NOTICE")); OVal None; OBool false; OVal (Some (lit "1"))].
Proof. vm_compute. reflexivity. Qed.

(** ** C45: staleness *)
Definition default_of (S : schema) (k : list Z) : option (list Z) := match S k with Some (d, _) => Some d | None => None end.
(** One table, a clock that is never set back, plain operations, changes by others at any
    time: what a get returns was right at a moment less than three seconds ago. *)
Theorem C45_three_seconds S w l t k : tcache (tabs w t) = [] -> lastPurge w <= now w ->
  Forall (only_table t) l -> Forall (fair_event S) l -> plain_event S (EGet t k true) ->
  exists w', In w' (states S w l) /\ now (snd (crun S w l)) - 3 < now w' <= now (snd (crun S w l)) /\
    fst (cstep S (snd (crun S w l)) (EGet t k true)) =
    OVal (match row_of (tdb (tabs w' t)) k with Some v => Some v | None => default_of S k end).
Proof.
  intros E L O F (K & N & _).
  destruct (get_recent S _ t _ k (seen_run S t l w ltac:(intros j; rewrite E; reflexivity) L O F) K N) as (w' & I & T & G).
  exists w'. split; [exact I|]. split; [exact T|]. rewrite G. rewrite row_of_stored. unfold prescribed, default_of.
  destruct (stored (tdb (tabs w' t)) k) as [[v|]|]; [reflexivity| |]; destruct (S k) as [[d x]|]; reflexivity.
Qed.
Print Assumptions C45_three_seconds.

(** Defect: with a second table in use the first can stay stale for any length of time. *)
Definition busy (n : nat) : list event := concat (repeat [ETick 3; EGet 1 (lit "X") true] n).
Lemma busy_keeps S n : forall w, 3 <= lastPurge w -> now w = lastPurge w -> exists w',
  snd (crun S w (busy n)) = w' /\ now w' = now w + 3 * Z.of_nat n /\ lastPurge w' = now w' /\ tabs w' 0%nat = tabs w 0%nat.
Proof.
  induction n as [|n IH]; intros w L E; [exists w; repeat split; [cbn [busy repeat concat crun snd]; lia|lia]|].
  change (busy (Datatypes.S n)) with ([ETick 3; EGet 1 (lit "X") true] ++ busy n). rewrite crun_app.
  destruct (crun S w [ETick 3; EGet 1 (lit "X") true]) as [o w1] eqn:Q.
  assert (R : w1 = snd (crun S w [ETick 3; EGet 1 (lit "X") true])) by (rewrite Q; reflexivity). clear Q.
  cbn [crun cstep] in R. unfold lookup, checkCacheAge in R. cbn [now lastPurge tabs] in R.
  replace (now w + 3 - lastPurge w <? 3) with false in R by lia. cbn [cfind snd] in R.
  destruct (IH w1) as (w' & H1 & H2 & H3 & H4); [subst w1; cbn [lastPurge set_tab]; lia|subst w1; reflexivity|].
  exists w'. destruct (crun S w1 (busy n)) as [o2 w2]. cbn [snd] in *. subst w2. split; [reflexivity|].
  split; [rewrite H2; subst w1; cbn [now set_tab]; lia|]. split; [exact H3|]. rewrite H4. subst w1. reflexivity.
Qed.
Theorem C45_two_tables_refuted n :
  let w := start_world 100 [(lit "A", Some (lit "old"))] in
  let l := [EGet 0 (lit "A") true; EExternal 0 [(lit "A", Some (lit "new"))]] ++ busy n in
  now (snd (crun some_schema w l)) = 100 + 3 * Z.of_nat n /\
  tdb (tabs (snd (crun some_schema w l)) 0%nat) = [(lit "A", Some (lit "new"))] /\
  fst (cstep some_schema (snd (crun some_schema w l)) (EGet 0 (lit "A") true)) = OVal (Some (lit "old")).
Proof.
  intros w l. unfold l. rewrite crun_app.
  destruct (crun some_schema w [EGet 0 (lit "A") true; EExternal 0 [(lit "A", Some (lit "new"))]]) as [o w1] eqn:Q.
  assert (H : now w1 = 100 /\ lastPurge w1 = 100 /\ tabs w1 0%nat = CTable [(lit "A", Some (lit "old"))] [(lit "A", Some (lit "new"))]).
  { vm_compute in Q. injection Q as _ <-. repeat split. }
  destruct H as (H1 & H2 & H3). destruct (busy_keeps some_schema n w1 ltac:(lia) ltac:(lia)) as (w' & R1 & R2 & R3 & R4).
  destruct (crun some_schema w1 (busy n)) as [o2 w2]. cbn [snd] in *. subst w2. split; [lia|]. rewrite R4, H3. split; [reflexivity|].
  cbn [cstep]. unfold lookup, checkCacheAge. rewrite R3, R4, H3. replace (now w' - now w' <? 3) with true by lia. reflexivity.
Qed.
Print Assumptions C45_two_tables_refuted.

(** Defect: when the clock is set back by n seconds, values stay stale until it has caught up. *)
Theorem C45_clock_set_back_refuted n d : 0 <= n -> 0 <= d < n + 3 ->
  let w := start_world (n + 100) [(lit "A", Some (lit "old"))] in
  let l := [EGet 0 (lit "A") true; EExternal 0 [(lit "A", Some (lit "new"))]; ETick (- n); ETick d] in
  fst (cstep some_schema (snd (crun some_schema w l)) (EGet 0 (lit "A") true)) = OVal (Some (lit "old")).
Proof.
  intros N D. cbn [crun cstep]. unfold lookup, checkCacheAge, start_world. cbn [now lastPurge tabs tcache tdb].
  replace (n + 100 - 0 <? 3) with false by lia. cbn [Nat.eqb tcache tdb cfind].
  replace (snd (single_lookup config_table true [(lit "A", Some (lit "old"))] (lit "A"))) with (Some (lit "old")) by (vm_compute; reflexivity).
  cbn [set_tab now lastPurge tabs snd Nat.eqb tcache tdb].
  replace (n + 100 + - n + d - (n + 100) <? 3) with true by lia. reflexivity.
Qed.
Print Assumptions C45_clock_set_back_refuted.

(** Defect: a read that fails is cached as "not set". *)
Theorem C45_failed_read_cached_refuted :
  fst (crun some_schema (start_world 100 [(lit "Log.Level", Some (lit "DEBUG")); (lit "A", Some (lit "1"))])
    [EGet 0 (lit "Log.Level") false; EGet 0 (lit "A") false; ETick 2; EGet 0 (lit "Log.Level") true; EGet 0 (lit "A") true]) =
  [OVal (Some (lit "NOTICE")); OVal None; ONone; OVal (Some (lit "NOTICE")); OVal None].
Proof. vm_compute. reflexivity. Qed.
Print Assumptions C45_failed_read_cached_refuted.

Example C45_example :   (* stale for two seconds, fresh after three *)
  fst (crun some_schema (start_world 100 [(lit "A", Some (lit "old"))])
    [EGet 0 (lit "A") true; EExternal 0 [(lit "A", Some (lit "new"))]; ETick 2; EGet 0 (lit "A") true; ETick 1; EGet 0 (lit "A") true]) =
  [OVal (Some (lit "old")); ONone; ONone; OVal (Some (lit "old")); ONone; OVal (Some (lit "new"))].
Proof. vm_compute. reflexivity. Qed.

(** ** C46: numbers *)
Lemma sprintf_plain z : - 2 ^ 63 <= z < 2 ^ 63 -> quote_free 34 (sprintf_ld z).
Proof.
  intros R. assert (P : 10 ^ Z.of_nat 20 = 100000000000000000000) by reflexivity.
  assert (One : forall n, 0 <= n < 10 ^ Z.of_nat 20 -> forall c, In c (dec_digits 20 n) -> 48 <= c).
  { intros n B. destruct (dec_digits_spec 20 n B ltac:(lia)) as (d & ds & D & _ & _). intros c Hc.
    induction D as [|x y l s [L C] D IH]; [destruct Hc|]. destruct Hc as [<-|Hc]; [unfold char_of_digit in C; lia|exact (IH Hc)]. }
  assert (H : forall c, In c (sprintf_ld z) -> c = 45 \/ 48 <= c).
  { unfold sprintf_ld. intros c Hc. destruct (z <? 0) eqn:E; [destruct Hc as [<-|Hc]; [left; reflexivity|right; apply (One (- z)); [lia|exact Hc]]|right; apply (One z); [lia|exact Hc]]. }
  split; intros K; apply H in K; lia.
Qed.
(** set(key,long) and getNum. *)
Theorem C46_num_roundtrip S w l1 l2 t k z : - 2 ^ 63 <= z < 2 ^ 63 -> (forall t, tcache (tabs w t) = []) ->
  Forall (plain_event S) l1 -> Forall (plain_event S) l2 ->
  quote_free 34 k -> ~ names_column k -> (forall d text, S k = Some (d, text) -> quote_free 39 text) -> Forall (fun e => ~ writes t k e) l2 ->
  exists v, last (fst (crun S w (l1 ++ ESet t k (sprintf_ld z) true :: l2 ++ [EGet t k true]))) ONone = OVal v /\
    getNum v = Some z /\ getBool v = Some (negb (z =? 0)).
Proof.
  intros Z0 E P1 P2 K NC D N. exists (Some (sprintf_ld z)). split; [|unfold getBool, getNum; cbn [option_map]; rewrite number_sprintf by exact Z0; split; reflexivity].
  apply C44_read_your_writes; try assumption; [split; [exact K|]; split; [apply sprintf_plain; exact Z0|exact D]|split; [exact K|]; split; [exact NC|reflexivity]].
Qed.
Print Assumptions C46_num_roundtrip.
Lemma number_strtol v : ~ In 0 v -> number v = strtol v.
Proof. intros N. unfold number. rewrite c_str_id by exact N. destruct v; reflexivity. Qed.
(** White space, a sign and the digits; what follows is ignored; the value is limited to long. *)
Theorem C46_decimal ws sign d ds s rest : Forall (fun c => isspace c = true) ws -> is_sign sign -> ~ In 0 (ws ++ sign ++ s ++ rest) ->
  digit_string 10 (d :: ds) s -> d <> 0 -> stops 10 rest ->
  getNum (Some (ws ++ sign ++ s ++ rest)) = Some (saturate (sign_of sign * positional 10 (d :: ds))).
Proof. intros W G N D Z0 R. unfold getNum. cbn [option_map]. rewrite number_strtol by exact N. f_equal. apply strtol_dec; assumption. Qed.
Print Assumptions C46_decimal.
Theorem C46_hex ws sign x d ds s rest : Forall (fun c => isspace c = true) ws -> is_sign sign -> x = 120 \/ x = 88 -> ~ In 0 (ws ++ sign ++ 48 :: x :: s ++ rest) ->
  digit_string 16 (d :: ds) s -> stops 16 rest ->
  getNum (Some (ws ++ sign ++ 48 :: x :: s ++ rest)) = Some (saturate (sign_of sign * positional 16 (d :: ds))).
Proof. intros W G X N D R. unfold getNum. cbn [option_map]. rewrite number_strtol by exact N. f_equal. apply strtol_hex; assumption. Qed.
Print Assumptions C46_hex.
Theorem C46_octal ws sign ds s rest : Forall (fun c => isspace c = true) ws -> is_sign sign -> ~ In 0 (ws ++ sign ++ 48 :: s ++ rest) ->
  digit_string 8 ds s -> stops 8 rest ->
  (ds = [] -> match rest with x :: h :: _ => x = 120 \/ x = 88 -> forall d, d < 16 -> ~ char_of_digit d h | _ => True end) ->
  getNum (Some (ws ++ sign ++ 48 :: s ++ rest)) = Some (saturate (sign_of sign * positional 8 ds)).
Proof. intros W G N D R H. unfold getNum. cbn [option_map]. rewrite number_strtol by exact N. f_equal. apply strtol_oct; assumption. Qed.
Print Assumptions C46_octal.
(** Anything else is 0. *)
Theorem C46_no_number ws sign rest : Forall (fun c => isspace c = true) ws -> is_sign sign -> ~ In 0 (ws ++ sign ++ rest) -> stops 10 rest ->
  (sign = [] -> match rest with c :: _ => isspace c = false /\ c <> 43 /\ c <> 45 | [] => True end) ->
  getNum (Some (ws ++ sign ++ rest)) = Some 0.
Proof. intros W G N R H. unfold getNum. cbn [option_map]. rewrite number_strtol by exact N. f_equal. apply strtol_none; assumption. Qed.
Print Assumptions C46_no_number.
(** getBool is true exactly for numbers other than 0; so words are false, "true" too. *)
Theorem C46_bool v : getBool v = match getNum v with Some n => Some (if Z.eq_dec n 0 then false else true) | None => None end.
Proof. unfold getBool. destruct (getNum v) as [n|]; [|reflexivity]. cbn [option_map]. destruct (Z.eq_dec n 0); f_equal; lia. Qed.
Print Assumptions C46_bool.
Theorem C46_words_are_false_refuted : getBool (Some (lit "true")) = Some false /\ getBool (Some (lit "yes")) = Some false.
Proof. split; reflexivity. Qed.
Print Assumptions C46_words_are_false_refuted.
Example C46_example :
  map (fun s => getNum (Some s)) [lit "-42 apples"; lit "0x1F"; lit "017"; lit "9223372036854775808"; lit "-9223372036854775809"; lit " +7"; lit "-"; lit "0x"; lit "08"; []]
  = map Some [-42; 31; 15; 9223372036854775807; -9223372036854775808; 7; 0; 0; 0; 0] /\
  sprintf_ld (-9223372036854775808) = lit "-9223372036854775808".
Proof. split; vm_compute; reflexivity. Qed.

(** ** C47: keys and values in statements *)
Theorem C47_set_verbatim S k v r : quote_free 34 k -> quote_free 34 v -> (forall d text, S k = Some (d, text) -> quote_free 39 text) ->
  exists r', sql config_table (set_cmd S k v) r = Some ([], r') /\
    forall row, In row r' <-> row = (k, Some v) \/ (In row r /\ fst row <> k).
Proof.
  intros K V D. exists (replace_row r k (Some v)). split; [apply sql_set; assumption|]. intros [x u]. unfold replace_row. rewrite in_app_iff, filter_In.
  cbn [In fst]. destruct (weqb x k) eqn:E; cbn [negb].
  - apply weqb_iff in E. split; [intros [[_ H]|[H|[]]]; [discriminate|left; congruence]|intros [H|[_ H]]; [right; left; congruence|contradiction]].
  - assert (x <> k) by (intros ->; rewrite weqb_refl in E; discriminate). split; [intros [[H1 _]|[H1|[]]]; [right; split; assumption|left; congruence]|intros [H1|[H1 _]]; [right; left; congruence|left; split; [exact H1|reflexivity]]].
Qed.
Print Assumptions C47_set_verbatim.
Theorem C47_remove_verbatim k r : quote_free 39 k ->
  exists r', sql config_table (remove_cmd k) r = Some ([], r') /\ forall row, In row r' <-> In row r /\ fst row <> k.
Proof.
  intros K. eexists. split; [apply sql_remove; exact K|]. intros [x u]. rewrite filter_In. cbn [fst]. destruct (weqb x k) eqn:E; cbn [negb].
  - apply weqb_iff in E. split; [intros [_ H]; discriminate|intros [_ H]; contradiction].
  - assert (x <> k) by (intros ->; rewrite weqb_refl in E; discriminate). split; intros [H1 _]; split; auto.
Qed.
Print Assumptions C47_remove_verbatim.
Theorem C47_lookup_verbatim k r v : quote_free 34 k -> ~ names_column k ->
  (forall u, In (k, u) r -> u = v) ->
  (In (k, v) r -> single_lookup config_table true r k = (true, option_map c_str v)) /\
  (~ In (k, v) r -> single_lookup config_table true r k = (false, None)).
Proof.
  intros K N U. rewrite lookup_sql by (apply plain_key_of; assumption). pose proof (stored_in r k) as H. destruct (stored r k) as [u|].
  - assert (E : u = v) by exact (U u H). subst u. split; [intros _; destruct v; reflexivity|intros I; exfalso; exact (I H)].
  - split; [intros I; exfalso; exact (H v I)|reflexivity].
Qed.
Print Assumptions C47_lookup_verbatim.

(** A NUL in a key or a value makes set fail and change nothing. *)
Theorem C47_nul_rejected S k v a b r : (forall d text, S k = Some (d, text) -> quote_free 39 text) ->
  (k = a ++ 0 :: b /\ quote_free 34 a) \/ (quote_free 34 k /\ v = a ++ 0 :: b /\ quote_free 34 a) ->
  sql config_table (set_cmd S k v) r = None.
Proof.
  intros _ H. unfold sql. enough (E : lex (c_str (set_cmd S k v)) = None) by (rewrite E; reflexivity).
  assert (Cut : forall x y, c_str ((a ++ 0 :: x) ++ y) = c_str a).
  { intros x y. rewrite <- app_assoc. generalize a. intros a0. induction a0 as [|c a0 IH]; [reflexivity|]. cbn [app c_str]. destruct (c =? 0); [reflexivity|]. f_equal. exact IH. }
  unfold set_cmd. destruct H as [[-> [A1 A2]]|([K1 K2] & -> & [A1 A2])].
  - destruct (S (a ++ 0 :: b)) as [[d text]|]; rewrite c_str_app by nonul; rewrite Cut, (c_str_id a A2);
      (erewrite lex_prefix by (vm_compute; reflexivity)); rewrite lex_dq_open by exact A1; reflexivity.
  - destruct (S k) as [[d text]|]; rewrite c_str_app by nonul; rewrite (c_str_app k) by exact K2; rewrite c_str_app by nonul; rewrite Cut, (c_str_id a A2);
      (erewrite lex_prefix by (vm_compute; reflexivity)); rewrite lex_dq by exact K1; change (lit """,""" ++ a) with (34 :: 44 :: (34 :: a));
      rewrite lex_dq_end by lia; rewrite (lex_cons LStart 44 _ [Punct 44] LStart eq_refl), (lex_cons LStart 34 _ [] (LDq []) eq_refl), lex_dq_open by exact A1; reflexivity.
Qed.
Print Assumptions C47_nul_rejected.

(** Defects.  A value with double quotes writes other keys. *)
Theorem C47_injection_refuted : exists v,
  sql config_table (set_cmd some_schema (lit "A") v) [(lit "K", Some (lit "1"))] = Some ([], [(lit "A", Some (lit "x")); (lit "K", Some (lit "evil"))]).
Proof. exists (lit "x"",1),(""K"",""evil"). vm_compute. reflexivity. Qed.
Print Assumptions C47_injection_refuted.
(** ... while the cache shows the value as given. *)
Theorem C47_doubled_quote_refuted : exists v,
  fst (crun some_schema (start_world 100 []) [EGet 0 (lit "B") true; ESet 0 (lit "A") v true; EGet 0 (lit "A") true; ETick 3; EGet 0 (lit "A") true]) =
  [OVal None; OBool true; OVal (Some v); ONone; OVal (Some (lit "a""b"))] /\ v <> lit "a""b".
Proof. exists (lit "a""""b"). split; [vm_compute; reflexivity|discriminate]. Qed.
Print Assumptions C47_doubled_quote_refuted.
(** A key with an apostrophe can be set and read but not removed. *)
Theorem C47_apostrophe_key_refuted :
  fst (crun some_schema (start_world 100 []) [ESet 0 (lit "it's") (lit "1") true; ERemove 0 (lit "it's") true; EGet 0 (lit "it's") true]) =
  [OBool true; OBool false; OVal (Some (lit "1"))].
Proof. vm_compute. reflexivity. Qed.
Print Assumptions C47_apostrophe_key_refuted.
(** Removing one unwise key empties any database. *)
Theorem C47_remove_all_refuted r : sql config_table (remove_cmd (lit "' OR ''=='")) r = Some ([], []).
Proof.
  unfold sql. replace (lex (c_str (remove_cmd (lit "' OR ''=='"))))
    with (Some [Word (lit "DELETE"); Word (lit "FROM"); Word (lit "CONFIG"); Word (lit "WHERE"); Word (lit "KEYSTRING"); EqEq; Sq []; Word (lit "OR"); Sq []; EqEq; Sq []]) by (vm_compute; reflexivity).
  match goal with |- match parse ?t with _ => _ end = _ => replace (parse t) with (Some (SDelete (lit "CONFIG") [(VWord (lit "KEYSTRING"), VStr []); (VStr [], VStr [])])) by (vm_compute; reflexivity) end.
  unfold exec. change (weqb (lit "CONFIG") (tname config_table)) with true. cbv iota.
  assert (M : exists y, matching config_table [(VWord (lit "KEYSTRING"), VStr []); (VStr [], VStr [])] r = Some (y, [])).
  { induction r as [|[x v] r [y IH]]; [exists []; reflexivity|]. cbn [matching]. rewrite IH. eexists. cbn [holds].
    change (in_row config_table (x, v) (VWord (lit "KEYSTRING"))) with (Some (Some x)). cbn [in_row]. rewrite weqb_refl, orb_true_l, orb_true_r. reflexivity. }
  destruct M as [y ->]. reflexivity.
Qed.
Print Assumptions C47_remove_all_refuted.
(** Looking up the name of a column finds the first row of any database. *)
Theorem C47_column_name_refuted x v r : single_lookup config_table true ((x, Some v) :: r) (lit "KEYSTRING") = (true, Some (c_str v)).
Proof.
  unfold single_lookup, sql.
  match goal with |- context [lex ?t] => replace (lex t) with (Some [Word (lit "SELECT"); Word (lit "VALUESTRING"); Word (lit "FROM"); Word (lit "CONFIG"); Word (lit "WHERE"); Word (lit "KEYSTRING"); EqEq; Dq (lit "KEYSTRING")]) by (vm_compute; reflexivity) end.
  match goal with |- context [parse ?t] => replace (parse t) with (Some (SSelect (lit "VALUESTRING") (lit "CONFIG") [(VWord (lit "KEYSTRING"), VName (lit "KEYSTRING"))])) by (vm_compute; reflexivity) end.
  unfold exec. change (weqb (lit "CONFIG") (tname config_table) && weqb (lit "VALUESTRING") (vcol config_table)) with true. cbv iota.
  assert (M : forall r, matching config_table [(VWord (lit "KEYSTRING"), VName (lit "KEYSTRING"))] r = Some (r, [])).
  { induction r0 as [|[a b] r0 IH]; [reflexivity|]. cbn [matching]. rewrite IH. cbn [holds].
    change (in_row config_table (a, b) (VWord (lit "KEYSTRING"))) with (Some (Some a)). change (in_row config_table (a, b) (VName (lit "KEYSTRING"))) with (Some (Some a)).
    cbv iota. rewrite weqb_refl. reflexivity. }
  rewrite M. reflexivity.
Qed.
Print Assumptions C47_column_name_refuted.
(** A description with an apostrophe makes its key impossible to set. *)
Theorem C47_description_refuted r v : quote_free 34 v -> sql config_table (set_cmd some_schema (lit "GSM.T3212") v) r = None.
Proof.
  intros [V1 V2]. unfold sql. enough (E : exists t, lex (c_str (set_cmd some_schema (lit "GSM.T3212") v)) = Some t /\ parse t = None \/ lex (c_str (set_cmd some_schema (lit "GSM.T3212") v)) = None).
  { destruct E as [t [[-> ->]| ->]]; reflexivity. }
  exists []. right. unfold set_cmd. replace (some_schema (lit "GSM.T3212")) with (Some (lit "30", lit "operator's timer")) by (vm_compute; reflexivity).
  rewrite c_str_id by nonul. erewrite lex_prefix by (vm_compute; reflexivity).
  change (lit """,1,'" ++ lit "operator's timer" ++ lit "')") with (34 :: 44 :: lit "1,'operator's timer')").
  rewrite lex_pair by (reflexivity || exact V1 || lia || (intros K; vm_compute in K; intuition discriminate)). 
  reflexivity.
Qed.
Print Assumptions C47_description_refuted.
Example C47_example :
  sql config_table (set_cmd some_schema (lit "A,b) --'") (lit "v'); DROP TABLE CONFIG;")) [(lit "K", Some (lit "1"))] =
  Some ([], [(lit "K", Some (lit "1")); (lit "A,b) --'", Some (lit "v'); DROP TABLE CONFIG;"))]).
Proof. vm_compute. reflexivity. Qed.

(** ** C49: vectors *)
(** getVectorOfStrings gives the runs of characters other than space; they are unique. *)
Theorem C49_strings value : ~ In 0 value -> splits value (getVectorOfStrings value).
Proof. intros N. unfold getVectorOfStrings. rewrite c_str_id by exact N. apply vec_strings_splits. lia. Qed.
Print Assumptions C49_strings.
Theorem C49_runs_unique s l1 l2 : splits s l1 -> splits s l2 -> l1 = l2.
Proof. intros A B. exact (splits_unique s l1 A l2 B). Qed.
Print Assumptions C49_runs_unique.
(** A list of words without spaces comes back. *)
Theorem C49_words_roundtrip l : Forall (fun w => w <> [] /\ ~ In 32 w /\ ~ In 0 w) l -> getVectorOfStrings (join_sp l) = l.
Proof.
  intros H. apply (splits_unique (join_sp l)).
  - apply C49_strings. intros K. induction H as [|w l (A & B & C) H IH]; [destruct K|]. destruct l as [|x l]; [exact (C K)|].
    change (join_sp (w :: x :: l)) with (w ++ 32 :: join_sp (x :: l)) in K. apply in_app_iff in K. destruct K as [K|[K|K]]; [exact (C K)|discriminate K|exact (IH K)].
  - apply splits_join. eapply Forall_impl; [|exact H]. intros w (A & B & _). split; assumption.
Qed.
Print Assumptions C49_words_roundtrip.
(** getVector: each run as a number (when the space is the only white space). *)
Theorem C49_numbers value l : ~ In 0 value -> splits value l -> Forall (Forall (fun c => isspace c = false)) l ->
  getVector value = map (fun w => number w mod 2 ^ 32) l.
Proof.
  intros N H F. unfold getVector. rewrite c_str_id by exact N. rewrite (vec_nums_spec _ value l) by (assumption || lia).
  pose proof (splits_words value l H) as W. assert (NW : Forall (fun w => ~ In 0 w) l).
  { clear F W. induction H as [|t l H IH|w rest l Wn Nn R H IH]; [constructor|apply IH; intros K; apply N; right; exact K|].
    constructor; [intros K; apply N; apply in_app_iff; left; exact K|apply IH; intros K; apply N; apply in_app_iff; right; exact K]. }
  clear H F N. induction l as [|w l IH]; [reflexivity|]. inversion W as [|? ? [W1 W2] W3]; inversion NW as [|? ? N1 N2]; subst. cbn [map].
  rewrite (IH W3 N2). f_equal. unfold number. rewrite c_str_id by exact N1. destruct w; [contradiction W1; reflexivity|reflexivity].
Qed.
Print Assumptions C49_numbers.
Theorem C49_numbers_roundtrip ns : Forall (fun n => 0 <= n < 2 ^ 32) ns -> getVector (join_sp (map sprintf_ld ns)) = ns.
Proof.
  intros H. assert (P : 10 ^ Z.of_nat 20 = 100000000000000000000) by reflexivity.
  assert (F : forall n, 0 <= n < 2 ^ 32 -> sprintf_ld n <> [] /\ ~ In 32 (sprintf_ld n) /\ Forall (fun c => isspace c = false) (sprintf_ld n)).
  { intros n B. unfold sprintf_ld. replace (n <? 0) with false by lia. apply dec_digits_fields. lia. }
  rewrite (C49_numbers _ (map sprintf_ld ns)).
  - clear F. induction H as [|n ns Hn H IH]; [reflexivity|]. cbn [map]. rewrite IH, number_sprintf by lia. f_equal. lia.
  - clear P F. induction H as [|n ns Hn H IH]; [intros []|]. pose proof (proj2 (sprintf_plain n ltac:(lia))) as N0. destruct ns as [|m ns]; [exact N0|].
    cbn [map] in *. change (join_sp (sprintf_ld n :: sprintf_ld m :: map sprintf_ld ns)) with (sprintf_ld n ++ 32 :: join_sp (sprintf_ld m :: map sprintf_ld ns)).
    intros K. apply in_app_iff in K. destruct K as [K|[K|K]]; [exact (N0 K)|discriminate K|exact (IH K)].
  - apply splits_join. clear P. induction H as [|n ns Hn H IH]; constructor; [destruct (F n Hn) as (A & B & _); split; assumption|exact IH].
  - clear P. induction H as [|n ns Hn H IH]; constructor; [destruct (F n Hn) as (_ & _ & A); exact A|exact IH].
Qed.
Print Assumptions C49_numbers_roundtrip.
(** Defect: at a tab getVector reads the same number twice, getVectorOfStrings one string. *)
Theorem C49_tab_refuted : getVector (lit "1 " ++ [9] ++ lit " 2") = [1; 2; 2] /\ length (getVectorOfStrings (lit "1 " ++ [9] ++ lit " 2")) = 3%nat.
Proof. split; vm_compute; reflexivity. Qed.
Print Assumptions C49_tab_refuted.
Example C49_example :
  getVectorOfStrings (lit "  a bc   d ") = [lit "a"; lit "bc"; lit "d"] /\ getVector (lit " 1 0x10  -1 x") = [1; 16; 4294967295; 0] /\
  getVector (lit "4294967295 0 77") = [4294967295; 0; 77].
Proof. repeat split; vm_compute; reflexivity. Qed.
