(** C101: UnixSignal objects from construction to destruction. *)
From Verif Require Import Base BaseFacts UtilsModel UtilsSpec UtilsProps ConfigModel PrintfModel PrintfProps SignalModel SigThreadsModel SigThreadsProps SigObjModel SigObjSpec.
Local Open Scope Z_scope.

Lemma run_snoc pid l e : forall p, run pid p (l ++ [e]) = do (xs, p) <- run pid p l; do (x, p) <- step pid p e; Ok (xs ++ [(e, x)], p).
Proof.
  induction l as [|a l IH]; intros p; cbn [app run bind]; [destruct (step pid p e) as [[x m]| | |]; reflexivity|].
  destruct (step pid p a) as [[x m]| | |]; cbn [bind]; try reflexivity. rewrite IH. destruct (run pid m l) as [[xs k]| | |]; cbn [bind]; try reflexivity. destruct (step pid k e) as [[y k']| | |]; reflexivity.
Qed.
Lemma act_snoc inh sig tr x : act inh sig (tr ++ [x]) = act1 sig (act inh sig tr) x.
Proof. unfold act. rewrite fold_left_app. reflexivity. Qed.
Lemma core_snoc i tr x : core_of i (tr ++ [x]) = core1 i (core_of i tr) x.
Proof. unfold core_of. rewrite fold_left_app. reflexivity. Qed.
Lemma tar_snoc i tr x : tar_of i (tr ++ [x]) = tar1 i (tar_of i tr) x.
Proof. unfold tar_of. rewrite fold_left_app. reflexivity. Qed.
Lemma registered_snoc i sig tr x : registered i sig (tr ++ [x]) = registered i sig tr ++ registered i sig [x].
Proof. unfold registered. rewrite flat_map_app. reflexivity. Qed.
Lemma deleted_snoc i tr x : deleted i (tr ++ [x]) = deleted i tr || deleted i [x].
Proof. unfold deleted. rewrite existsb_app. reflexivity. Qed.
Lemma ended_snoc tr x : ended (tr ++ [x]) = ended tr || ended [x].
Proof. unfold ended. rewrite existsb_app. reflexivity. Qed.
Lemma count_snoc tr x : count (tr ++ [x]) = (count tr + (count [x] - 1))%nat.
Proof. unfold count. rewrite filter_app, app_length. lia. Qed.

Lemma count_new tr x : count (tr ++ [(New, x)]) = S (count tr).
Proof. rewrite count_snoc. change (count [(New, x)]) with 2%nat. lia. Qed.
Lemma replace_length l : forall i x, length (replace l i x) = length l.
Proof. induction l as [|y l IH]; intros [|i] x; cbn [replace length]; [reflexivity|reflexivity|reflexivity|rewrite IH; reflexivity]. Qed.
Lemma nth_replace l : forall i j x, nth_error (replace l i x) j = if (i =? j)%nat && (i <? length l)%nat then Some x else nth_error l j.
Proof.
  induction l as [|y l IH]; intros [|i] [|j] x; cbn [replace nth_error length Nat.eqb andb]; try reflexivity; [rewrite Bool.andb_false_r; reflexivity|].
  rewrite IH. change (S i <? S (length l))%nat with (i <? length l)%nat. reflexivity.
Qed.
Lemma sets_eq a sig d y : sets a sig d y = if settable y && (y =? sig) then d else a y.
Proof.
  unfold sets, settable. destruct (Z.eqb_spec y sig) as [->|N]; [rewrite Bool.andb_true_r; destruct (_ && _); [rewrite Z.eqb_refl; reflexivity|reflexivity]|].
  rewrite Bool.andb_false_r. destruct (_ && _); [replace (y =? sig) with false by lia; reflexivity|reflexivity].
Qed.
Lemma reset_eq n : forall a i y, reset n a i y = if settable y && (i <=? y) && (y <? i + Z.of_nat n) then Default else a y.
Proof.
  induction n as [|n IH]; intros a i y; cbn [reset]; [replace ((i <=? y) && (y <? i + Z.of_nat 0)) with false by lia; rewrite <- Bool.andb_assoc; replace ((i <=? y) && (y <? i + Z.of_nat 0)) with false by lia; rewrite Bool.andb_false_r; reflexivity|].
  rewrite IH, sets_eq. destruct (settable y); cbn [andb]; [|reflexivity]. destruct (Z.eqb_spec y i) as [->|N].
  - replace ((i <=? i) && (i <? i + Z.of_nat (S n))) with true by lia. destruct (_ && _); reflexivity.
  - replace ((i + 1 <=? y) && (y <? i + 1 + Z.of_nat n)) with ((i <=? y) && (y <? i + Z.of_nat (S n))) by lia. reflexivity.
Qed.

(** ** The state as the calls tell it *)
Record good (tr : trace) (i : nat) (o : usig) : Prop := Good {
  g_list : forall sig, mListHandlers o sig = registered i sig tr;
  g_core : (mCoreFile o, mAddPid o) = core_of i tr;
  g_tar : tar_of i tr = match mSaveFiles o with Some b => Some (mTarFile o, b) | None => None end }.
Record Inv (inh : Z -> dispo) (tr : trace) (p : prog) : Prop := MkInv {
  v_count : length (objs p) = count tr;
  v_obj : forall i o, nth_error (objs p) i = Some o -> if deleted i tr then o = None else exists u, o = Some u /\ good tr i u;
  v_act : forall sig, acts p sig = act inh sig tr;
  v_over : over p = ended tr;
  v_vector : forall sig, act inh sig tr = Vector -> 1 <= sig < 64;
  v_new : forall i, (count tr <= i)%nat -> (forall sig, registered i sig tr = []) /\ core_of i tr = ([99; 111; 114; 101], false) /\ tar_of i tr = None /\ deleted i tr = false }.
Definition quiet (tr : trace) (x : op * obs) (i : nat) : Prop :=
  (forall sig, registered i sig [x] = []) /\ core1 i (core_of i tr) x = core_of i tr /\ tar1 i (tar_of i tr) x = tar_of i tr /\ deleted i [x] = false.
Lemma quiet_good tr x i u : quiet tr x i -> good tr i u -> good (tr ++ [x]) i u.
Proof.
  intros (Q1 & Q2 & Q3 & _) [A B C]. split.
  - intros sig. rewrite registered_snoc, Q1, app_nil_r. apply A.
  - rewrite core_snoc, Q2. exact B.
  - rewrite tar_snoc, Q3. exact C.
Qed.
(** A call on object [i] that is not its end. *)
Lemma own_inv inh tr p x i u u' a o : Inv inh tr p -> nth_error (objs p) i = Some (Some u) -> count [x] = 1%nat -> (forall j, j <> i -> quiet tr x j) -> deleted i [x] = false ->
  (good tr i u -> good (tr ++ [x]) i u') -> (forall sig, a sig = act1 sig (act inh sig tr) x) -> (forall sig, act1 sig (act inh sig tr) x = Vector -> 1 <= sig < 64) -> o = ended tr || ended [x] ->
  Inv inh (tr ++ [x]) (Prog (replace (objs p) i (Some u')) a o).
Proof.
  intros [C O A E V N] G K Q D Y Ha Hv Ho. assert (L : (i < length (objs p))%nat) by (apply nth_error_Some; rewrite G; discriminate). assert (CT : count (tr ++ [x]) = count tr) by (rewrite count_snoc, K; lia).
  split; cbn [objs acts over].
  - rewrite replace_length, C, CT. reflexivity.
  - intros j w. rewrite nth_replace, deleted_snoc. replace (i <? length (objs p))%nat with true by (symmetry; apply Nat.ltb_lt; exact L). rewrite Bool.andb_true_r. destruct (Nat.eqb_spec i j) as [<-|NE].
    + intros W. injection W as <-. specialize (O i _ G). rewrite D, Bool.orb_false_r. destruct (deleted i tr); [discriminate O|]. destruct O as (u0 & U & GU). injection U as <-. exists u'. split; [reflexivity|apply Y, GU].
    + intros W. specialize (O j w W). destruct (Q j ltac:(congruence)) as (Q1 & Q2 & Q3 & Q4). rewrite Q4, Bool.orb_false_r. destruct (deleted j tr); [exact O|]. destruct O as (u0 & U & GU). exists u0. split; [exact U|apply quiet_good; [exact (Q j ltac:(congruence))|exact GU]].
  - intros sig. rewrite act_snoc. apply Ha.
  - rewrite ended_snoc. exact Ho.
  - intros sig. rewrite act_snoc. apply Hv.
  - intros j J. rewrite CT in J. assert (NE : j <> i) by (rewrite <- C in J; lia). destruct (Q j NE) as (Q1 & Q2 & Q3 & Q4). destruct (N j J) as (N1 & N2 & N3 & N4).
    split; [intros sig; rewrite registered_snoc, N1, Q1; reflexivity|]. split; [rewrite core_snoc, Q2; exact N2|]. split; [rewrite tar_snoc, Q3; exact N3|]. rewrite deleted_snoc, N4, Q4. reflexivity.
Qed.
Lemma replace_same l : forall i x, nth_error l i = Some x -> replace l i x = l.
Proof. induction l as [|y l IH]; intros [|i] x E; cbn [replace nth_error] in *; try discriminate; [injection E as ->; reflexivity|rewrite IH by exact E; reflexivity]. Qed.
(** A call that changes no object. *)
Lemma same_inv inh tr p x a o : Inv inh tr p -> count [x] = 1%nat -> (forall j, quiet tr x j) ->
  (forall sig, a sig = act1 sig (act inh sig tr) x) -> (forall sig, act1 sig (act inh sig tr) x = Vector -> 1 <= sig < 64) -> o = ended tr || ended [x] -> Inv inh (tr ++ [x]) (Prog (objs p) a o).
Proof.
  intros [C O A E V N] K Q Ha Hv Ho. assert (CT : count (tr ++ [x]) = count tr) by (rewrite count_snoc, K; lia). split; cbn [objs acts over].
  - rewrite C, CT. reflexivity.
  - intros j w W. specialize (O j w W). destruct (Q j) as (Q1 & Q2 & Q3 & Q4). rewrite deleted_snoc, Q4, Bool.orb_false_r. destruct (deleted j tr); [exact O|]. destruct O as (u0 & U & GU). exists u0. split; [exact U|apply quiet_good; [exact (Q j)|exact GU]].
  - intros sig. rewrite act_snoc. apply Ha.
  - rewrite ended_snoc. exact Ho.
  - intros sig. rewrite act_snoc. apply Hv.
  - intros j J. rewrite CT in J. destruct (Q j) as (Q1 & Q2 & Q3 & Q4). destruct (N j J) as (N1 & N2 & N3 & N4).
    split; [intros sig; rewrite registered_snoc, N1, Q1; reflexivity|]. split; [rewrite core_snoc, Q2; exact N2|]. split; [rewrite tar_snoc, Q3; exact N3|]. rewrite deleted_snoc, N4, Q4. reflexivity.
Qed.
Lemma no_act inh tr p x : Inv inh tr p -> (forall sig a, act1 sig a x = a) -> (forall sig, acts p sig = act1 sig (act inh sig tr) x) /\ (forall sig, act1 sig (act inh sig tr) x = Vector -> 1 <= sig < 64).
Proof. intros V A. split; intros sig; rewrite A; [apply (v_act _ _ _ V)|apply (v_vector _ _ _ V)]. Qed.
Lemma act1_id sig a x : match x with (Register _ _ _, _) | (Program _ _, _) | (Delete _, _) | (Deliver _, Handled _ _ _ _) => False | _ => True end -> act1 sig a x = a.
Proof. intros H. unfold act1. destruct (settable sig); [|reflexivity]. destruct x as [e y]. destruct e; try contradiction; try reflexivity. destruct y; try contradiction; reflexivity. Qed.

Lemma step_inv inh pid tr p e x p' : proper_op e -> Inv inh tr p -> step pid p e = Ok (x, p') -> Inv inh (tr ++ [(e, x)]) p'.
Proof.
  intros PO V R. unfold step in R. destruct (over p) eqn:OV; [discriminate|]. assert (EN : ended tr = false) by (rewrite <- (v_over _ _ _ V); exact OV).
  assert (QA : forall e y, match e with Register _ _ _ | CoreName _ _ _ | TarName _ _ _ | Delete _ => False | _ => True end -> forall j, quiet tr (e, y) j) by (intros e0 y0 M j; destruct e0; try contradiction; repeat split).
  destruct e as [|i|i h sig|i name b|i name b|i|i sig|sig d|sig].
  - (* New *) apply Ok_inj in R. injection R as <- <-. destruct V as [C O A E VV N]. assert (CT : count (tr ++ [(New, Made (length (objs p)))]) = S (count tr)) by (rewrite count_snoc; cbn; lia).
    assert (Q : forall j, quiet tr (New, Made (length (objs p))) j) by (intros j; repeat split). assert (AA : forall sig a, act1 sig a (New, Made (length (objs p))) = a) by (intros; apply act1_id; exact Logic.I).
    split; cbn [objs acts over].
    + rewrite app_length, CT, C. cbn [length]. lia.
    + intros j w W. rewrite deleted_snoc. destruct (Q j) as (Q1 & Q2 & Q3 & Q4). rewrite Q4, Bool.orb_false_r. destruct (Nat.lt_ge_cases j (length (objs p))) as [L|L].
      * rewrite nth_error_app1 in W by exact L. specialize (O j w W). destruct (deleted j tr); [exact O|]. destruct O as (u & U & GU). exists u. split; [exact U|apply quiet_good; [exact (Q j)|exact GU]].
      * rewrite nth_error_app2 in W by exact L. destruct (j - length (objs p))%nat as [|k] eqn:J; [|cbn [nth_error] in W; destruct k; discriminate W]. injection W as <-. destruct (N j ltac:(lia)) as (N1 & N2 & N3 & N4). rewrite N4.
        exists (fresh false). split; [reflexivity|]. apply quiet_good; [exact (Q j)|]. split; cbn [fresh mListHandlers mCoreFile mAddPid mSaveFiles mTarFile]; [intros sig; symmetry; apply N1|rewrite N2; reflexivity|exact N3].
    + intros sig. rewrite act_snoc, AA. apply A.
    + rewrite ended_snoc, EN. reflexivity.
    + intros sig. rewrite act_snoc, AA. apply VV.
    + intros j J. destruct (N j ltac:(lia)) as (N1 & N2 & N3 & N4). split; [intros sig; rewrite registered_snoc, N1; reflexivity|]. split; [rewrite core_snoc; exact N2|]. split; [rewrite tar_snoc; exact N3|]. rewrite deleted_snoc, N4. reflexivity.
  - (* Delete *) destruct (nth_error (objs p) i) as [[u|]|] eqn:G; try discriminate. apply Ok_inj in R. pose proof (f_equal fst R) as X1; pose proof (f_equal snd R) as X2; cbn [fst snd] in X1, X2; clear R; subst x p'. destruct V as [C O A E VV N]. assert (L : (i < length (objs p))%nat) by (apply nth_error_Some; rewrite G; discriminate).
    assert (CT : count (tr ++ [(Delete i, Nothing)]) = count tr) by (rewrite count_snoc; cbn; lia). assert (Q : forall j, j <> i -> quiet tr (Delete i, Nothing) j).
    { intros j J. repeat split. cbn. rewrite Bool.orb_false_r. apply Nat.eqb_neq. congruence. }
    assert (AC : forall sig a, act1 sig a (Delete i, Nothing) = if settable sig && (sig <? 64) then Default else a) by (intros sig a; unfold act1; destruct (settable sig); reflexivity).
    split; cbn [objs acts over].
    + rewrite replace_length, CT. exact C.
    + intros j w. rewrite nth_replace, deleted_snoc. replace (i <? length (objs p))%nat with true by (symmetry; apply Nat.ltb_lt; exact L). rewrite Bool.andb_true_r. destruct (Nat.eqb_spec i j) as [<-|NE].
      * intros W. injection W as <-. cbn. rewrite Nat.eqb_refl, Bool.orb_true_r. reflexivity.
      * intros W. specialize (O j w W). destruct (Q j ltac:(congruence)) as (Q1 & Q2 & Q3 & Q4). rewrite Q4, Bool.orb_false_r. destruct (deleted j tr); [exact O|]. destruct O as (u0 & U & GU). exists u0. split; [exact U|apply quiet_good; [exact (Q j ltac:(congruence))|exact GU]].
    + intros sig. rewrite act_snoc, AC, reset_eq, A. unfold C_NSIG. change (0 + Z.of_nat (Z.to_nat 64)) with 64. replace (settable sig && (0 <=? sig) && (sig <? 64)) with (settable sig && (sig <? 64)) by (unfold settable; lia). reflexivity.
    + rewrite ended_snoc, EN. reflexivity.
    + intros sig. rewrite act_snoc, AC. destruct (_ && _); [discriminate|apply VV].
    + intros j J. rewrite CT in J. destruct (Q j ltac:(lia)) as (Q1 & Q2 & Q3 & Q4). destruct (N j J) as (N1 & N2 & N3 & N4).
      split; [intros sig; rewrite registered_snoc, N1, Q1; reflexivity|]. split; [rewrite core_snoc, Q2; exact N2|]. split; [rewrite tar_snoc, Q3; exact N3|]. rewrite deleted_snoc, N4, Q4. reflexivity.
  - (* Register *) destruct (nth_error (objs p) i) as [[u|]|] eqn:G; try discriminate. apply Ok_inj in R. injection R as <- <-.
    assert (Q : forall j, j <> i -> quiet tr (Register i h sig, Nothing) j).
    { intros j J. repeat split. intros s. unfold registered. cbn [flat_map fst]. replace (i =? j)%nat with false by (symmetry; apply Nat.eqb_neq; congruence). reflexivity. }
    destruct ((sig <=? 0) || (C_NSIG <=? sig)) eqn:RG; unfold C_NSIG in RG.
    + destruct p as [ob ac ov]. cbn [objs acts over] in *. apply same_inv with (p := Prog ob ac ov); try reflexivity.
      * exact V.
      * intros j. repeat split. intros s. unfold registered. cbn [flat_map fst]. destruct (_ && _) eqn:B; [exfalso; lia|reflexivity].
      * intros s. rewrite <- (v_act _ _ _ V). cbn [acts]. unfold act1. destruct (settable s) eqn:SS; [|reflexivity]. unfold settable in SS. destruct ((sig =? s) && _) eqn:B; [exfalso; lia|reflexivity].
      * intros s. unfold act1. destruct (settable s) eqn:SS; [|apply (v_vector _ _ _ V)]. unfold settable in SS. destruct ((sig =? s) && _) eqn:B; [exfalso; lia|apply (v_vector _ _ _ V)].
      * rewrite OV, EN. reflexivity.
    + unfold change. cbn [objs acts over]. rewrite G. apply own_inv with u; try assumption.
      * reflexivity.
      * reflexivity.
      * intros [A B C]. split; cbn [mListHandlers mCoreFile mAddPid mSaveFiles mTarFile].
        -- intros s. rewrite registered_snoc. unfold registered at 2. cbn [flat_map fst]. rewrite Nat.eqb_refl, app_nil_r. cbn [andb]. rewrite <- !Bool.andb_assoc. rewrite (Z.eqb_sym sig s). destruct (Z.eqb_spec s sig) as [->|]; cbn [andb]; [replace ((1 <=? sig) && (sig <? 64)) with true by lia; rewrite A; reflexivity|rewrite app_nil_r; apply A].
        -- rewrite core_snoc. exact B.
        -- rewrite tar_snoc. exact C.
      * intros s. rewrite sets_eq, (v_act _ _ _ V). unfold act1. rewrite (Z.eqb_sym sig s). destruct (settable s); cbn [andb]; [|reflexivity]. destruct (Z.eqb_spec s sig) as [->|]; cbn [andb]; [replace (sig <? 64) with true by lia; reflexivity|reflexivity].
      * intros s. unfold act1. destruct (settable s) eqn:SS; [|apply (v_vector _ _ _ V)]. unfold settable in SS. destruct ((sig =? s) && _) eqn:B; [intros _; lia|apply (v_vector _ _ _ V)].
      * rewrite EN. reflexivity.
  - destruct (nth_error (objs p) i) as [[u|]|] eqn:G; try discriminate. apply Ok_inj in R. injection R as <- <-. unfold change. rewrite G.
    destruct (no_act inh tr p (CoreName i name b, Nothing) V ltac:(intros; apply act1_id; exact Logic.I)) as [A1 A2]. apply own_inv with u; try assumption; try reflexivity.
    + intros j J. repeat split. cbn [core1 fst]. replace (i =? j)%nat with false by (symmetry; apply Nat.eqb_neq; congruence). reflexivity.
    + intros [A B C]. split; cbn [mListHandlers mCoreFile mAddPid mSaveFiles mTarFile]; [intros s; rewrite registered_snoc; unfold registered at 2; cbn; rewrite app_nil_r; apply A|rewrite core_snoc; cbn [core1 fst]; rewrite Nat.eqb_refl; reflexivity|rewrite tar_snoc; exact C].
    + rewrite EN. first [reflexivity | exact OV].
  - destruct (nth_error (objs p) i) as [[u|]|] eqn:G; try discriminate. apply Ok_inj in R. injection R as <- <-. unfold change. rewrite G.
    destruct (no_act inh tr p (TarName i name b, Nothing) V ltac:(intros; apply act1_id; exact Logic.I)) as [A1 A2]. apply own_inv with u; try assumption; try reflexivity.
    + intros j J. repeat split. cbn [tar1 fst]. replace (i =? j)%nat with false by (symmetry; apply Nat.eqb_neq; congruence). reflexivity.
    + intros [A B C]. split; cbn [mListHandlers mCoreFile mAddPid mSaveFiles mTarFile]; [intros s; rewrite registered_snoc; unfold registered at 2; cbn; rewrite app_nil_r; apply A|rewrite core_snoc; exact B|rewrite tar_snoc; cbn [tar1 fst]; rewrite Nat.eqb_refl; reflexivity].
    + rewrite EN. first [reflexivity | exact OV].
  - destruct (nth_error (objs p) i) as [[u|]|] eqn:G; try discriminate. apply Ok_inj in R. injection R as <- <-. destruct p as [ob ac ov]. cbn [objs acts over] in *.
    destruct (no_act inh tr (Prog ob ac ov) (Dump i, Printed (dump (Z.to_nat C_NSIG) u 0)) V ltac:(intros; apply act1_id; exact Logic.I)) as [A1 A2]. apply same_inv with (p := Prog ob ac ov); try assumption; try reflexivity; [apply QA; exact Logic.I|rewrite OV, EN; reflexivity].
  - destruct (nth_error (objs p) i) as [[u|]|] eqn:G; try discriminate. apply bind_ok in R. destruct R as ([[core tar] calls] & _ & R). apply Ok_inj in R. injection R as <- <-. destruct p as [ob ac ov]. cbn [objs acts over] in *.
    destruct (no_act inh tr (Prog ob ac ov) (Handle i sig, Handled core tar calls false) V ltac:(intros; apply act1_id; exact Logic.I)) as [A1 A2]. apply same_inv with (p := Prog ob ac ov); try assumption; try reflexivity; [apply QA; exact Logic.I|rewrite OV, EN; reflexivity].
  - apply Ok_inj in R. injection R as <- <-. apply same_inv; try assumption; try reflexivity; [apply QA; exact Logic.I| | |rewrite EN; reflexivity].
    + intros s. rewrite sets_eq, (v_act _ _ _ V). unfold act1. rewrite (Z.eqb_sym sig s). destruct (settable s); cbn [andb]; reflexivity.
    + intros s. unfold act1. destruct (settable s); [|apply (v_vector _ _ _ V)]. destruct (sig =? s); [intros ->; exfalso; apply PO; reflexivity|apply (v_vector _ _ _ V)].
  - rewrite (v_act _ _ _ V) in R. destruct p as [ob ac ov]. cbn [objs acts over] in *. destruct (act inh sig tr) as [| | |f] eqn:AC.
    + destruct (terminates sig); apply Ok_inj in R; injection R as <- <-.
      * destruct (no_act inh tr (Prog ob ac ov) (Deliver sig, Ends) V ltac:(intros; apply act1_id; exact Logic.I)) as [A1 A2]. apply same_inv with (p := Prog ob ac ov); try assumption; try reflexivity; [apply QA; exact Logic.I|rewrite EN; reflexivity].
      * destruct (no_act inh tr (Prog ob ac ov) (Deliver sig, Nothing) V ltac:(intros; apply act1_id; exact Logic.I)) as [A1 A2]. apply same_inv with (p := Prog ob ac ov); try assumption; try reflexivity; [apply QA; exact Logic.I|rewrite OV, EN; reflexivity].
    + apply Ok_inj in R. injection R as <- <-. destruct (no_act inh tr (Prog ob ac ov) (Deliver sig, Nothing) V ltac:(intros; apply act1_id; exact Logic.I)) as [A1 A2]. apply same_inv with (p := Prog ob ac ov); try assumption; try reflexivity; [apply QA; exact Logic.I|rewrite OV, EN; reflexivity].
    + pose proof (v_vector _ _ _ V sig AC) as RG. unfold C_NSIG in R. replace ((sig <=? 0) || (64 <=? sig)) with false in R by lia. destruct (nth_error ob 0) as [[u|]|] eqn:G; try discriminate.
      apply bind_ok in R. destruct R as ([[core tar] calls] & _ & R). apply Ok_inj in R. injection R as <- <-. apply same_inv with (p := Prog ob ac ov); try assumption; try reflexivity; [apply QA; exact Logic.I| | |].
      * intros s. rewrite sets_eq. change (ac s) with (acts (Prog ob ac ov) s). rewrite (v_act _ _ _ V). unfold act1. rewrite (Z.eqb_sym sig s). destruct (settable s); cbn [andb]; reflexivity.
      * intros s. unfold act1. destruct (settable s); [|apply (v_vector _ _ _ V)]. destruct (sig =? s); [discriminate|apply (v_vector _ _ _ V)].
      * rewrite EN. cbn. destruct (terminates sig); reflexivity.
    + apply Ok_inj in R. injection R as <- <-. destruct (no_act inh tr (Prog ob ac ov) (Deliver sig, Called f) V ltac:(intros; apply act1_id; exact Logic.I)) as [A1 A2]. apply same_inv with (p := Prog ob ac ov); try assumption; try reflexivity; [apply QA; exact Logic.I|rewrite OV, EN; reflexivity].
Qed.

Definition reached (inh : Z -> dispo) (pid : Z) (tr : trace) (p : prog) : Prop :=
  (forall sig, inh sig = Default \/ inh sig = Ignored) /\ exists l, Forall proper_op l /\ run pid (start inh) l = Ok (tr, p).
Lemma inv0 inh : (forall sig, inh sig = Default \/ inh sig = Ignored) -> Inv inh [] (start inh).
Proof.
  intros I. split; cbn [start objs acts over].
  - reflexivity.
  - intros [|i] o E; [|destruct i; discriminate E]. injection E as <-. exists (fresh true). split; [reflexivity|]. split; intros; reflexivity.
  - reflexivity.
  - reflexivity.
  - intros sig E. unfold act in E. cbn [fold_left] in E. destruct (I sig); congruence.
  - intros [|i] J; [unfold count in J; cbn in J; lia|]. repeat split.
Qed.
Lemma reached_inv inh pid tr p : reached inh pid tr p -> Inv inh tr p.
Proof.
  intros (I & l & F & R). revert tr p R. induction l as [|e l IH] using rev_ind; intros tr p R.
  - apply Ok_inj in R. injection R as <- <-. apply inv0, I.
  - rewrite run_snoc in R. apply bind_ok in R. destruct R as ([xs m] & R1 & R). apply bind_ok in R. destruct R as ([x k] & R2 & R). apply Ok_inj in R. injection R as <- <-.
    apply Forall_app in F. destruct F as [F1 F2]. inversion F2 as [|y z PO _]. subst y z. exact (step_inv inh pid xs m e x k PO (IH F1 xs m R1) R2).
Qed.
Lemma reached_step inh pid tr p e x p' : reached inh pid tr p -> proper_op e -> step pid p e = Ok (x, p') -> reached inh pid (tr ++ [(e, x)]) p'.
Proof.
  intros (I & l & F & R) PO T. split; [exact I|]. exists (l ++ [e]). split; [apply Forall_app; split; [exact F|constructor; [exact PO|constructor]]|]. rewrite run_snoc, R. cbn [bind]. rewrite T. reflexivity.
Qed.
Lemma get_alive inh tr p i : Inv inh tr p -> alive i tr -> exists u, nth_error (objs p) i = Some (Some u) /\ good tr i u.
Proof.
  intros V [A D]. destruct (nth_error (objs p) i) as [o|] eqn:E; [|apply nth_error_None in E; rewrite (v_count _ _ _ V) in E; lia]. pose proof (v_obj _ _ _ V i o E) as X. rewrite D in X. destruct X as (u & -> & G). exists u. split; [reflexivity|exact G].
Qed.

(** The dispositions are those the calls gave: Register of any object, the program, the end of any object. *)
Theorem C101_disposition inh pid tr p sig : reached inh pid tr p -> acts p sig = act inh sig tr /\ (act inh sig tr = Vector -> 1 <= sig < 64) /\ over p = ended tr.
Proof. intros R. pose proof (reached_inv _ _ _ _ R) as V. split; [apply (v_act _ _ _ V)|]. split; [apply (v_vector _ _ _ V)|apply (v_over _ _ _ V)]. Qed.
Print Assumptions C101_disposition.

(** What Handler does for an object: the core file and archive, and the handlers registered with that object. *)
Definition core_text (i : nat) (pid sig : Z) (tr : trace) (core : option (list Z)) : Prop :=
  (dumps_core sig -> exists text, core = Some text /\ let '(name, b) := core_of i tr in text = firstn (Z.to_nat 8190) (if b then name ++ lit "." ++ sprintf_ld pid else name)) /\
  (~ dumps_core sig -> core = None).
Definition tar_text (i : nat) (sig : Z) (tr : trace) (tar : option (list Z)) : Prop :=
  (dumps_core sig -> tar = match tar_of i tr with Some (name, true) => Some name | _ => None end) /\ (~ dumps_core sig -> tar = None).
Lemma core_case_iff sig : core_case sig = true <-> dumps_core sig.
Proof. unfold core_case, dumps_core. rewrite existsb_exists. split; [intros (x & I & Q); replace sig with x by lia; cbn [In] in *; tauto|intros I; exists sig; split; [cbn [In] in *; tauto|lia]]. Qed.
Lemma handle_spec inh tr p i u pid sig : Inv inh tr p -> good tr i u -> in_range false true pid -> no_nul (fst (core_of i tr)) -> 0 <= sig < 64 -> (dumps_core sig -> tar_of i tr <> None) ->
  exists core tar, handle pid u sig = Ok (core, tar, registered i sig tr) /\ core_text i pid sig tr core /\ tar_text i sig tr tar.
Proof.
  intros V [A B C] Rp N S T. unfold handle, C_NSIG. replace ((sig <? 0) || (64 <=? sig)) with false by lia. rewrite A. destruct (core_case sig) eqn:K.
  - apply core_case_iff in K. rewrite <- B in N. cbn [fst] in N. destruct (C96_core (mAddPid u) (mCoreFile u) pid N Rp) as (text & E & _ & W & _). cbv zeta in W. rewrite E. cbn [bind]. specialize (T K). rewrite C in T. destruct (mSaveFiles u) as [b|] eqn:SF; [|congruence].
    exists (Some text), (if b then Some (mTarFile u) else None). split; [reflexivity|]. split; split; try contradiction; intros _; [|rewrite C; destruct b; reflexivity].
    exists text. split; [reflexivity|]. rewrite <- B. exact W.
  - assert (NK : ~ dumps_core sig) by (rewrite <- core_case_iff; congruence). exists None, None. split; [reflexivity|]. split; split; try contradiction; reflexivity.
Qed.
(** A signal that is caught makes exactly the handlers registered with gSigVec run, once each, in order; then it has its default effect. *)
Theorem C101_deliver inh pid tr p sig : reached inh pid tr p -> ended tr = false -> act inh sig tr = Vector -> alive 0 tr -> in_range false true pid -> no_nul (fst (core_of 0 tr)) ->
  exists core tar p', step pid p (Deliver sig) = Ok (Handled core tar (registered 0 sig tr) (terminates sig), p') /\ core_text 0 pid sig tr core /\ tar_text 0 sig tr tar.
Proof.
  intros R E A L Rp N. pose proof (reached_inv _ _ _ _ R) as V. destruct (get_alive inh tr p 0 V L) as (u & G & Y). pose proof (v_vector _ _ _ V sig A) as S.
  assert (T0 : dumps_core sig -> tar_of 0 tr <> None).
  { intros _. clear. unfold tar_of. change (0 =? 0)%nat with true. cbv iota. generalize ([] : list Z, false) as c. induction tr as [|x tr IH]; intros c; cbn [fold_left]; [discriminate|]. unfold tar1 at 2. destruct (fst x); try apply IH. destruct (i =? 0)%nat; apply IH. }
  destruct (handle_spec inh tr p 0 u pid sig V Y Rp N ltac:(lia) T0) as (core & tar & Hd & X1 & X2). exists core, tar. eexists. split; [|split; assumption].
  unfold step. rewrite (v_over _ _ _ V), E, (v_act _ _ _ V), A. unfold C_NSIG. replace ((sig <=? 0) || (64 <=? sig)) with false by lia. rewrite G, Hd. reflexivity.
Qed.
Print Assumptions C101_deliver.
(** Signals that are not caught do what their disposition says. *)
Theorem C101_not_caught inh pid tr p sig : reached inh pid tr p -> ended tr = false ->
  match act inh sig tr with
  | Ignored => step pid p (Deliver sig) = Ok (Nothing, p)
  | Own f => step pid p (Deliver sig) = Ok (Called f, p)
  | Default => exists p', step pid p (Deliver sig) = Ok (if terminates sig then Ends else Nothing, p')
  | Vector => True
  end.
Proof.
  intros R E. pose proof (reached_inv _ _ _ _ R) as V. unfold step. rewrite (v_over _ _ _ V), E, (v_act _ _ _ V). destruct (act inh sig tr); try reflexivity; try exact Logic.I. destruct (terminates sig); eexists; reflexivity.
Qed.
Print Assumptions C101_not_caught.
(** Handler called by the program runs the handlers of that object. *)
Theorem C101_handle inh pid tr p i sig : reached inh pid tr p -> ended tr = false -> alive i tr -> in_range false true pid -> no_nul (fst (core_of i tr)) -> 0 <= sig < 64 -> (dumps_core sig -> tar_of i tr <> None) ->
  exists core tar, step pid p (Handle i sig) = Ok (Handled core tar (registered i sig tr) false, p) /\ core_text i pid sig tr core /\ tar_text i sig tr tar.
Proof.
  intros R E L Rp N S T. pose proof (reached_inv _ _ _ _ R) as V. destruct (get_alive inh tr p i V L) as (u & G & Y). destruct (handle_spec inh tr p i u pid sig V Y Rp N S T) as (core & tar & Hd & X1 & X2).
  exists core, tar. split; [|split; assumption]. unfold step. rewrite (v_over _ _ _ V), E, G, Hd. reflexivity.
Qed.
Print Assumptions C101_handle.
(** A new object has no handlers, the core file core, and changes nothing for any signal; its number was not in use. *)
Theorem C101_new inh pid tr p : reached inh pid tr p -> ended tr = false -> exists i p', step pid p New = Ok (Made i, p') /\ acts p' = acts p /\ ~ alive i tr /\
  let tr' := tr ++ [(New, Made i)] in alive i tr' /\ (forall sig, registered i sig tr' = []) /\ core_of i tr' = (lit "core", false) /\ tar_of i tr' = None /\ forall j, alive j tr -> alive j tr'.
Proof.
  intros R E. pose proof (reached_inv _ _ _ _ R) as V. exists (length (objs p)). eexists. unfold step. rewrite (v_over _ _ _ V), E. split; [reflexivity|]. split; [reflexivity|]. rewrite (v_count _ _ _ V).
  split; [intros [A _]; lia|]. cbv zeta. destruct (v_new _ _ _ V (count tr) (Nat.le_refl _)) as (N1 & N2 & N3 & N4).
  split; [split; [rewrite count_new; lia|rewrite deleted_snoc, N4; reflexivity]|]. split; [intros sig; rewrite registered_snoc, N1; reflexivity|]. split; [rewrite core_snoc; exact N2|]. split; [rewrite tar_snoc; exact N3|].
  intros j [A D]. split; [rewrite count_new; lia|rewrite deleted_snoc, D; reflexivity].
Qed.
Print Assumptions C101_new.

(** Which calls are defined: those on objects not yet destroyed; Handler for signals 0..63, for those with a core file only once the archive was named; a
    signal that is caught, only while gSigVec is there. *)
Theorem C101_defined inh pid tr p e : reached inh pid tr p -> ended tr = false -> in_range false true pid -> (forall i, no_nul (fst (core_of i tr))) ->
  match e with
  | New | Program _ _ => True
  | Delete i | Register i _ _ | CoreName i _ _ | TarName i _ _ | Dump i => alive i tr
  | Handle i sig => alive i tr /\ 0 <= sig < 64 /\ (dumps_core sig -> tar_of i tr <> None)
  | Deliver sig => act inh sig tr = Vector -> alive 0 tr
  end <-> exists x p', step pid p e = Ok (x, p').
Proof.
  intros R E Rp N. pose proof (reached_inv _ _ _ _ R) as V.
  assert (AL : forall i u, nth_error (objs p) i = Some (Some u) -> alive i tr).
  { intros i u G. split; [rewrite <- (v_count _ _ _ V); apply nth_error_Some; rewrite G; discriminate|]. pose proof (v_obj _ _ _ V i _ G) as X. destruct (deleted i tr); [discriminate X|reflexivity]. }
  assert (BK : forall i (k : usig -> res (obs * prog)), (exists x p', match nth_error (objs p) i with Some (Some o) => k o | Some None => UB | None => Diverge end = Ok (x, p')) -> alive i tr /\ exists u x p', nth_error (objs p) i = Some (Some u) /\ k u = Ok (x, p')).
  { intros i k (x & p' & X). destruct (nth_error (objs p) i) as [[u|]|] eqn:G; try discriminate. split; [exact (AL i u G)|]. exists u, x, p'. split; [reflexivity|exact X]. }
  assert (S : step pid p e = step pid p e) by reflexivity. unfold step at 2 in S. rewrite (v_over _ _ _ V), E in S.
  destruct e as [|i|i h sig|i name b|i name b|i|i sig|sig d|sig]; try (split; [intros _; rewrite S; eexists; eexists; reflexivity|intros _; exact Logic.I]).
  - split; [intros A; rewrite S; destruct (get_alive _ _ _ _ V A) as (u & G & _); rewrite G; eexists; eexists; reflexivity|rewrite S; intros X; exact (proj1 (BK _ _ X))].
  - split; [intros A; rewrite S; destruct (get_alive _ _ _ _ V A) as (u & G & _); rewrite G; eexists; eexists; reflexivity|rewrite S; intros X; exact (proj1 (BK _ _ X))].
  - split; [intros A; rewrite S; destruct (get_alive _ _ _ _ V A) as (u & G & _); rewrite G; eexists; eexists; reflexivity|rewrite S; intros X; exact (proj1 (BK _ _ X))].
  - split; [intros A; rewrite S; destruct (get_alive _ _ _ _ V A) as (u & G & _); rewrite G; eexists; eexists; reflexivity|rewrite S; intros X; exact (proj1 (BK _ _ X))].
  - split; [intros A; rewrite S; destruct (get_alive _ _ _ _ V A) as (u & G & _); rewrite G; eexists; eexists; reflexivity|rewrite S; intros X; exact (proj1 (BK _ _ X))].
  - split.
    + intros (A & SG & T). destruct (C101_handle inh pid tr p i sig R E A Rp (N i) SG T) as (core & tar & X & _). exists (Handled core tar (registered i sig tr) false), p. exact X.
    + rewrite S. intros X. destruct (BK _ _ X) as (A & u & x & p' & G & K). split; [exact A|]. pose proof (v_obj _ _ _ V i _ G) as Y. destruct (deleted i tr); [discriminate Y|]. destruct Y as (u' & U & GD). injection U as <-.
      apply bind_ok in K. destruct K as (t & K & _). unfold handle in K. destruct ((sig <? 0) || (C_NSIG <=? sig)) eqn:RG in K; [discriminate|]. unfold C_NSIG in RG. split; [lia|]. intros D T. apply core_case_iff in D. rewrite D in K. pose proof (g_tar _ _ _ GD) as GT. rewrite T in GT. destruct (mSaveFiles u); [discriminate|].
      apply bind_ok in K. destruct K as (ct & K & _). apply bind_ok in K. destruct K as (nm & _ & K). discriminate K.
  - rewrite (v_act _ _ _ V) in S. split.
    + intros A. destruct (act inh sig tr) as [| | |f] eqn:AC.
      * rewrite S. destruct (terminates sig); eexists; eexists; reflexivity.
      * rewrite S. eexists; eexists; reflexivity.
      * destruct (C101_deliver inh pid tr p sig R E AC (A eq_refl) Rp (N 0%nat)) as (core & tar & p' & X & _). exists (Handled core tar (registered 0 sig tr) (terminates sig)), p'. exact X.
      * rewrite S. eexists; eexists; reflexivity.
    + intros X AC. rewrite S, AC in X. pose proof (v_vector _ _ _ V sig AC) as RG. unfold C_NSIG in X. replace ((sig <=? 0) || (64 <=? sig)) with false in X by lia. exact (proj1 (BK _ _ X)).
Qed.
Print Assumptions C101_defined.

(** ** Dump *)
Definition line (i : nat) (tr : trace) (sig : Z) : list Z :=
  lit "Signal vectors for signal " ++ sprintf_ld sig ++ lit ": " ++ separated (map (fun h => lit "0x0x" ++ hex_digits 16 h) (registered i sig tr)) ++ [10].
Definition listed (i : nat) (tr : trace) : list Z := filter (fun sig => match registered i sig tr with [] => false | _ => true end) signals.
Lemma dump_list_spec l : l <> [] -> dump_list true l = separated (map (fun h => lit "0x0x" ++ hex_digits 16 h) l) ++ [10].
Proof.
  assert (G : forall l, l <> [] -> dump_list false l = lit ", " ++ separated (map (fun h => lit "0x0x" ++ hex_digits 16 h) l) ++ [10]).
  { clear. induction l as [|h l IH]; intros N; [congruence|]. cbn [dump_list map]. destruct l as [|h' l]; [cbn [dump_list map separated]; unfold pointer; change (lit "0x0x") with (lit "0x" ++ lit "0x"); rewrite <- ?app_assoc; reflexivity|].
    rewrite IH by discriminate. cbn [map separated]. change (lit ", ") with [44; 32]. unfold pointer. change (lit "0x0x") with (lit "0x" ++ lit "0x"). rewrite <- ?app_assoc. reflexivity. }
  intros N. destruct l as [|h l]; [congruence|]. cbn [dump_list map]. destruct l as [|h' l]; [cbn [dump_list map separated]; unfold pointer; change (lit "0x0x") with (lit "0x" ++ lit "0x"); rewrite <- ?app_assoc; reflexivity|].
  rewrite G by discriminate. cbn [map separated]. change (lit ", ") with [44; 32]. unfold pointer. change (lit "0x0x") with (lit "0x" ++ lit "0x"). rewrite <- ?app_assoc. reflexivity.
Qed.
(** Dump prints a line for each signal that has handlers, with them in order, and nothing else. *)
Theorem C101_dump inh pid tr p i : reached inh pid tr p -> ended tr = false -> alive i tr -> step pid p (Dump i) = Ok (Printed (flat_map (line i tr) (listed i tr)), p).
Proof.
  intros R E A. pose proof (reached_inv _ _ _ _ R) as V. destruct (get_alive _ _ _ _ V A) as (u & G & Y). unfold step. rewrite (v_over _ _ _ V), E, G. do 3 f_equal.
  assert (D : forall n k, dump n u (Z.of_nat k) = flat_map (line i tr) (filter (fun sig => match registered i sig tr with [] => false | _ => true end) (map Z.of_nat (seq k n)))).
  { induction n as [|n IH]; intros k; [reflexivity|]. cbn [dump seq map filter]. replace (Z.of_nat k + 1) with (Z.of_nat (S k)) by lia. rewrite IH. unfold dump_line. rewrite (g_list _ _ _ Y). destruct (registered i (Z.of_nat k) tr) as [|h l] eqn:RL; [reflexivity|].
    cbn [flat_map]. f_equal. unfold line. rewrite RL, dump_list_spec by discriminate. unfold sprintf_ld. replace (Z.of_nat k <? 0) with false by lia. rewrite <- ?app_assoc. reflexivity. }
  exact (D (Z.to_nat C_NSIG) 0%nat).
Qed.
Print Assumptions C101_dump.
Lemma cut_unique (c : Z) (x y r s : list Z) : ~ In c x -> ~ In c y -> x ++ c :: r = y ++ c :: s -> x = y /\ r = s.
Proof.
  revert y. induction x as [|a x IH]; intros [|b y] X Y E; cbn [app] in E.
  - injection E as ->. split; reflexivity.
  - injection E as E1 E2. exfalso. apply Y. left. congruence.
  - injection E as E1 E2. exfalso. apply X. left. congruence.
  - injection E as -> E. destruct (IH y (fun I => X (or_intror I)) (fun I => Y (or_intror I)) E) as [-> ->]. split; reflexivity.
Qed.
Definition hexv (c : Z) : Z := if c <? 58 then c - 48 else c - 87.
Lemma hex_value fuel : forall n, 0 <= n < 16 ^ Z.of_nat fuel -> (0 < fuel)%nat -> fold_left (fun a c => a * 16 + hexv c) (hex_digits fuel n) 0 = n /\ Forall (fun c => 48 <= c <= 102) (hex_digits fuel n).
Proof.
  induction fuel as [|k IH]; intros n R F; [lia|]. assert (M : 0 <= n mod 16 < 16) by (apply Z.mod_pos_bound; lia). assert (C : 48 <= lowhex (n mod 16) <= 102 /\ hexv (lowhex (n mod 16)) = n mod 16).
  { unfold lowhex, hexv. destruct (n mod 16 <? 10) eqn:T; [replace (48 + n mod 16 <? 58) with true by lia|replace (87 + n mod 16 <? 58) with false by lia]; lia. }
  cbn [hex_digits]. rewrite fold_left_app. cbn [fold_left]. rewrite (proj2 C). destruct (n <? 16) eqn:S1.
  - cbn [fold_left app]. rewrite Z.mod_small by lia. split; [lia|]. constructor; [rewrite <- (Z.mod_small n 16) by lia; exact (proj1 C)|constructor].
  - destruct k as [|k]; [exfalso; cbn in R; lia|]. destruct (IH (n / 16)) as [V W]; [split; [apply Z.div_pos; lia|]; apply Z.div_lt_upper_bound; [lia|]; rewrite Nat2Z.inj_succ, Z.pow_succ_r in R by lia; lia|lia|].
    rewrite V. split; [pose proof (Z.div_mod n 16 ltac:(lia)); lia|]. apply Forall_app. split; [exact W|constructor; [exact (proj1 C)|constructor]].
Qed.
Lemma dec_value fuel : forall n, 0 <= n < 10 ^ Z.of_nat fuel -> (0 < fuel)%nat -> fold_left (fun a c => a * 10 + (c - 48)) (dec_digits fuel n) 0 = n /\ Forall (fun c => 48 <= c <= 57) (dec_digits fuel n).
Proof.
  induction fuel as [|k IH]; intros n R F; [lia|]. assert (M : 0 <= n mod 10 < 10) by (apply Z.mod_pos_bound; lia).
  cbn [dec_digits]. rewrite fold_left_app. cbn [fold_left]. destruct (n <? 10) eqn:S1.
  - cbn [fold_left app]. rewrite Z.mod_small by lia. split; [lia|]. constructor; [lia|constructor].
  - destruct k as [|k]; [exfalso; cbn in R; lia|]. destruct (IH (n / 10)) as [V W]; [split; [apply Z.div_pos; lia|]; apply Z.div_lt_upper_bound; [lia|]; rewrite Nat2Z.inj_succ, Z.pow_succ_r in R by lia; lia|lia|].
    rewrite V. split; [pose proof (Z.div_mod n 10 ltac:(lia)); lia|]. apply Forall_app. split; [exact W|constructor; [lia|constructor]].
Qed.
Definition address (h : Z) : Prop := 0 < h < 2 ^ 64.
Lemma not_in_of (P : Z -> Prop) l c : Forall P l -> ~ P c -> ~ In c l.
Proof. intros F N I. rewrite Forall_forall in F. exact (N (F c I)). Qed.
Lemma hex_inj a b : address a -> address b -> hex_digits 16 a = hex_digits 16 b -> a = b.
Proof. intros A B E. unfold address in *. rewrite <- (proj1 (hex_value 16 a ltac:(change (16 ^ Z.of_nat 16) with (2 ^ 64); lia) ltac:(lia))), <- (proj1 (hex_value 16 b ltac:(change (16 ^ Z.of_nat 16) with (2 ^ 64); lia) ltac:(lia))), E. reflexivity. Qed.
Lemma item_chars h : address h -> Forall (fun c => 48 <= c <= 120) (lit "0x0x" ++ hex_digits 16 h).
Proof.
  intros A. unfold address in A. apply Forall_app. split; [apply Forall_forall; intros c I; cbn in I; lia|]. apply (Forall_impl _ (P := fun c => 48 <= c <= 102)); [intros; lia|]. apply (hex_value 16 h); [change (16 ^ Z.of_nat 16) with (2 ^ 64); lia|lia].
Qed.
Lemma separated_chars l : Forall address l -> Forall (fun c => 32 <= c <= 120) (separated (map (fun h => lit "0x0x" ++ hex_digits 16 h) l)).
Proof.
  induction l as [|h l IH]; intros F; [constructor|]. inversion F as [|a b Fh Fl]. subst a b. assert (I : Forall (fun c => 32 <= c <= 120) (lit "0x0x" ++ hex_digits 16 h)) by (apply (Forall_impl _ (P := fun c => 48 <= c <= 120)); [intros; lia|apply item_chars, Fh]).
  cbn [map separated]. destruct (map (fun h => lit "0x0x" ++ hex_digits 16 h) l) as [|x t] eqn:M; [exact I|]. apply Forall_app. split; [exact I|]. cbn [app]. constructor; [lia|]. constructor; [lia|]. exact (IH Fl).
Qed.
Lemma separated_inj l : forall m, Forall address l -> Forall address m -> l <> [] -> m <> [] ->
  separated (map (fun h => lit "0x0x" ++ hex_digits 16 h) l) = separated (map (fun h => lit "0x0x" ++ hex_digits 16 h) m) -> l = m.
Proof.
  assert (NI : forall h, address h -> ~ In 44 (lit "0x0x" ++ hex_digits 16 h)) by (intros h A; apply (not_in_of _ _ _ (item_chars h A)); lia).
  assert (HI : forall a b, address a -> address b -> lit "0x0x" ++ hex_digits 16 a = lit "0x0x" ++ hex_digits 16 b -> a = b) by (intros a b A B E; apply app_inv_head in E; exact (hex_inj a b A B E)).
  induction l as [|a l IH]; intros m F G N M E; [congruence|]. destruct m as [|b m]; [congruence|]. inversion F as [|x y Fa Fl]. inversion G as [|x' y' Gb Gm]. subst.
  destruct l as [|a' l]; destruct m as [|b' m].
  - cbn [map separated] in E. rewrite (HI a b Fa Gb E). reflexivity.
  - exfalso. apply (NI a Fa). change (separated (map (fun h => lit "0x0x" ++ hex_digits 16 h) [a])) with (lit "0x0x" ++ hex_digits 16 a) in E. rewrite E.
    change (In 44 ((lit "0x0x" ++ hex_digits 16 b) ++ [44; 32] ++ separated (map (fun h => lit "0x0x" ++ hex_digits 16 h) (b' :: m)))). apply in_or_app. right. left. reflexivity.
  - exfalso. apply (NI b Gb). change (separated (map (fun h => lit "0x0x" ++ hex_digits 16 h) [b])) with (lit "0x0x" ++ hex_digits 16 b) in E. rewrite <- E.
    change (In 44 ((lit "0x0x" ++ hex_digits 16 a) ++ [44; 32] ++ separated (map (fun h => lit "0x0x" ++ hex_digits 16 h) (a' :: l)))). apply in_or_app. right. left. reflexivity.
  - change ((lit "0x0x" ++ hex_digits 16 a) ++ 44 :: (32 :: separated (map (fun h => lit "0x0x" ++ hex_digits 16 h) (a' :: l))) = (lit "0x0x" ++ hex_digits 16 b) ++ 44 :: (32 :: separated (map (fun h => lit "0x0x" ++ hex_digits 16 h) (b' :: m)))) in E.
    apply cut_unique in E; [|exact (NI a Fa)|exact (NI b Gb)]. destruct E as [E1 E2]. rewrite (HI a b Fa Gb E1). apply (f_equal (@tl Z)) in E2. cbn [tl] in E2. f_equal. apply IH; try assumption; discriminate.
Qed.
Lemma line_inj l m a b : Forall address l -> Forall address m -> l <> [] -> m <> [] -> 0 <= a < 64 -> 0 <= b < 64 -> forall r s,
  (lit "Signal vectors for signal " ++ sprintf_ld a ++ lit ": " ++ separated (map (fun h => lit "0x0x" ++ hex_digits 16 h) l) ++ [10]) ++ r =
  (lit "Signal vectors for signal " ++ sprintf_ld b ++ lit ": " ++ separated (map (fun h => lit "0x0x" ++ hex_digits 16 h) m) ++ [10]) ++ s -> a = b /\ l = m /\ r = s.
Proof.
  intros F G N M A B r s E. rewrite <- !app_assoc in E. apply app_inv_head in E. unfold sprintf_ld in E. replace (a <? 0) with false in E by lia. replace (b <? 0) with false in E by lia.
  destruct (dec_value 20 a ltac:(change (10 ^ Z.of_nat 20) with (10 ^ 20); lia) ltac:(lia)) as [Va Ca]. destruct (dec_value 20 b ltac:(change (10 ^ Z.of_nat 20) with (10 ^ 20); lia) ltac:(lia)) as [Vb Cb].
  change (lit ": ") with [58; 32] in E. cbn [app] in E. apply cut_unique in E; [|apply (not_in_of _ _ _ Ca); lia|apply (not_in_of _ _ _ Cb); lia]. destruct E as [E1 E2]. apply (f_equal (@tl Z)) in E2. cbn [tl] in E2.
  apply cut_unique in E2; [|apply (not_in_of _ _ _ (separated_chars l F)); lia|apply (not_in_of _ _ _ (separated_chars m G)); lia]. destruct E2 as [E2 ->].
  split; [rewrite <- Va, <- Vb, E1; reflexivity|]. split; [|reflexivity]. apply separated_inj; assumption.
Qed.
(** What Dump prints tells exactly which handlers are registered for which signal. *)
Theorem C101_dump_tells i tr j tr' : (forall sig, Forall address (registered i sig tr)) -> (forall sig, Forall address (registered j sig tr')) ->
  flat_map (line i tr) (listed i tr) = flat_map (line j tr') (listed j tr') -> forall sig, registered i sig tr = registered j sig tr'.
Proof.
  intros F G. unfold listed. assert (R : forall i tr sig, ~ In sig signals -> registered i sig tr = []).
  { clear. intros i tr sig N. assert (S : ~ (1 <= sig < 64)) by (intros S; apply N, in_map_iff; exists (Z.to_nat sig); split; [lia|apply in_seq; lia]). unfold registered. induction tr as [|x tr IH]; [reflexivity|]. cbn [flat_map]. rewrite IH, app_nil_r. destruct (fst x); try reflexivity.
    destruct (_ && _) eqn:B; [exfalso; lia|reflexivity]. }
  assert (K : forall l, Forall (fun s => 0 <= s < 64) l -> NoDup l -> flat_map (line i tr) (filter (fun sig => match registered i sig tr with [] => false | _ => true end) l) = flat_map (line j tr') (filter (fun sig => match registered j sig tr' with [] => false | _ => true end) l) ->
    forall sig, In sig l -> registered i sig tr = registered j sig tr').
  { assert (NL : forall i tr s t l, Forall (fun s => 0 <= s < 64) l -> ~ In s l -> 0 <= s < 64 -> registered i s tr <> [] -> (forall sig, Forall address (registered i sig tr)) ->
      forall j tr', (forall sig, Forall address (registered j sig tr')) -> line i tr s ++ t = flat_map (line j tr') (filter (fun sig => match registered j sig tr' with [] => false | _ => true end) l) -> False).
    { clear. intros i tr s t l Fl N S NE Fa j tr' Fb E. induction l as [|b l IH]; [discriminate E|]. inversion Fl as [|x y Fb' Fl']. subst x y. cbn [filter] in E. destruct (registered j b tr') as [|h hs] eqn:RB; [apply IH; try assumption; intros I; apply N; right; exact I|].
      cbn [flat_map] in E. unfold line in E. destruct (line_inj (registered i s tr) (registered j b tr') s b (Fa s) (Fb b) NE ltac:(rewrite RB; discriminate) S Fb' _ _ E) as (X & _). apply N. left. congruence. }
    induction l as [|s l IH]; intros Fl ND E sig I; [destruct I|]. inversion Fl as [|x y Fs Fl']. inversion ND as [|x' y' Ns ND']. subst. cbn [filter] in E.
    destruct (registered i s tr) as [|h hs] eqn:RI; destruct (registered j s tr') as [|k ks] eqn:RJ.
    - destruct I as [<-|I]; [rewrite RI, RJ; reflexivity|exact (IH Fl' ND' E sig I)].
    - exfalso. cbn [flat_map] in E. symmetry in E. exact (NL j tr' s _ l Fl' Ns Fs ltac:(rewrite RJ; discriminate) G i tr F E).
    - exfalso. cbn [flat_map] in E. exact (NL i tr s _ l Fl' Ns Fs ltac:(rewrite RI; discriminate) F j tr' G E).
    - cbn [flat_map] in E. unfold line at 1 3 in E. destruct (line_inj _ _ s s (F s) (G s) ltac:(rewrite RI; discriminate) ltac:(rewrite RJ; discriminate) Fs Fs _ _ E) as (_ & X & Y). destruct I as [<-|I]; [exact X|exact (IH Fl' ND' Y sig I)]. }
  intros E sig. destruct (in_dec Z.eq_dec sig signals) as [I|N]; [|rewrite (R i tr sig N), (R j tr' sig N); reflexivity]. apply (K signals); try assumption.
  - apply Forall_forall. intros x X. apply in_map_iff in X. destruct X as (k & <- & X). apply in_seq in X. lia.
  - unfold signals. apply FinFun.Injective_map_NoDup; [intros a b; lia|apply seq_NoDup].
Qed.
Print Assumptions C101_dump_tells.

(** ** Defects *)
Lemma register_ok inh pid tr p i h sig : reached inh pid tr p -> ended tr = false -> alive i tr -> exists p1, step pid p (Register i h sig) = Ok (Nothing, p1).
Proof. intros R E A. pose proof (reached_inv _ _ _ _ R) as V. destruct (get_alive _ _ _ _ V A) as (u & G & _). unfold step. rewrite (v_over _ _ _ V), E, G. eexists. reflexivity. Qed.
(** Handlers registered with an object other than gSigVec never run: the signal is caught, and what runs are those of gSigVec. *)
Theorem C101_other_refuted inh pid tr p i h sig : reached inh pid tr p -> ended tr = false -> alive i tr -> i <> 0%nat -> alive 0 tr -> 1 <= sig < 64 -> sig <> 9 -> sig <> 19 -> in_range false true pid -> no_nul (fst (core_of 0 tr)) ->
  exists core tar p', run pid p [Register i h sig; Deliver sig] = Ok ([(Register i h sig, Nothing); (Deliver sig, Handled core tar (registered 0 sig tr) (terminates sig))], p').
Proof.
  intros R E A N0 A0 S S9 S19 Rp NN. destruct (register_ok inh pid tr p i h sig R E A) as (p1 & T). pose proof (reached_step inh pid tr p (Register i h sig) _ _ R Logic.I T) as R1. set (x := (Register i h sig, Nothing)) in *.
  assert (AC : act inh sig (tr ++ [x]) = Vector) by (rewrite act_snoc; unfold x, act1, settable; replace ((1 <=? sig) && (sig <=? 64) && negb (sig =? 9) && negb (sig =? 19)) with true by lia; rewrite Z.eqb_refl; replace (sig <? 64) with true by lia; reflexivity).
  assert (RG : registered 0 sig (tr ++ [x]) = registered 0 sig tr).
  { rewrite registered_snoc. unfold registered at 2. cbn [flat_map fst x]. replace (i =? 0)%nat with false by (symmetry; apply Nat.eqb_neq; exact N0). cbn [andb]. rewrite app_nil_r. reflexivity. }
  destruct (C101_deliver inh pid (tr ++ [x]) p1 sig R1) as (core & tar & p2 & D & _); try assumption.
  - rewrite ended_snoc, E. reflexivity.
  - destruct A0 as [A1 A2]. split; [rewrite count_snoc; unfold x; change (count [(Register i h sig, Nothing)]) with 1%nat; lia|rewrite deleted_snoc, A2; reflexivity].
  - rewrite core_snoc. exact NN.
  - exists core, tar, p2. cbn [run]. rewrite T. cbn [bind]. rewrite D, RG. reflexivity.
Qed.
Print Assumptions C101_other_refuted.
(** The end of any object gives every signal below 64 its default effect again, also those handled by gSigVec, ignored or handled by the program. *)
Theorem C101_delete_refuted inh pid tr p i sig : reached inh pid tr p -> ended tr = false -> alive i tr -> 1 <= sig < 64 -> sig <> 9 -> sig <> 19 -> terminates sig = true ->
  exists p', run pid p [Delete i; Deliver sig] = Ok ([(Delete i, Nothing); (Deliver sig, Ends)], p').
Proof.
  intros R E A S S9 S19 T. pose proof (reached_inv _ _ _ _ R) as V. destruct (get_alive _ _ _ _ V A) as (u & G & _).
  assert (D : exists p1, step pid p (Delete i) = Ok (Nothing, p1)) by (unfold step; rewrite (v_over _ _ _ V), E, G; eexists; reflexivity). destruct D as (p1 & D). pose proof (reached_step inh pid tr p (Delete i) _ _ R Logic.I D) as R1.
  pose proof (C101_not_caught inh pid _ p1 sig R1) as X. rewrite ended_snoc, E in X. specialize (X eq_refl). rewrite act_snoc in X. unfold act1, settable in X. replace ((1 <=? sig) && (sig <=? 64) && negb (sig =? 9) && negb (sig =? 19)) with true in X by lia. replace (sig <? 64) with true in X by lia.
  destruct X as (p2 & X). rewrite T in X. exists p2. cbn [run]. rewrite D. cbn [bind]. rewrite X. reflexivity.
Qed.
Print Assumptions C101_delete_refuted.
(** After the end of gSigVec a signal registered with another object is undefined. *)
Theorem C101_late_refuted inh pid tr p i h sig : reached inh pid tr p -> ended tr = false -> alive i tr -> deleted 0 tr = true -> 1 <= sig < 64 -> sig <> 9 -> sig <> 19 -> run pid p [Register i h sig; Deliver sig] = UB.
Proof.
  intros R E A D S S9 S19. destruct (register_ok inh pid tr p i h sig R E A) as (p1 & T). pose proof (reached_step inh pid tr p (Register i h sig) _ _ R Logic.I T) as R1. pose proof (reached_inv _ _ _ _ R1) as V1.
  cbn [run]. rewrite T. cbn [bind]. unfold step. rewrite (v_over _ _ _ V1), ended_snoc, E. cbn. rewrite (v_act _ _ _ V1), act_snoc. unfold act1, settable. replace ((1 <=? sig) && (sig <=? 64) && negb (sig =? 9) && negb (sig =? 19)) with true by lia. rewrite Z.eqb_refl. replace (sig <? 64) with true by lia. cbn [andb].
  unfold C_NSIG. replace ((sig <=? 0) || (64 <=? sig)) with false by lia. destruct (objs p1) as [|o l] eqn:O; [pose proof (v_count _ _ _ V1) as C; rewrite O in C; unfold count in C; cbn in C; lia|].
  pose proof (v_obj _ _ _ V1 0%nat o ltac:(rewrite O; reflexivity)) as X. rewrite deleted_snoc, D in X. cbn in X. subst o. reflexivity.
Qed.
Print Assumptions C101_late_refuted.
(** Handler of an object on the stack reads mSaveFiles, which nothing has set. *)
Theorem C101_uninit_refuted inh pid tr p i sig : reached inh pid tr p -> ended tr = false -> in_range false true pid -> no_nul (fst (core_of i tr)) -> alive i tr -> tar_of i tr = None -> dumps_core sig -> step pid p (Handle i sig) = UB.
Proof.
  intros R E Rp N A T D. pose proof (reached_inv _ _ _ _ R) as V. destruct (get_alive _ _ _ _ V A) as (u & G & [GL GC GT]). unfold step. rewrite (v_over _ _ _ V), E, G. unfold handle. assert (S : 0 <= sig < 64) by (cbn [dumps_core In] in D; unfold dumps_core in D; cbn [In] in D; lia).
  unfold C_NSIG. replace ((sig <? 0) || (64 <=? sig)) with false by lia. apply core_case_iff in D. rewrite D. rewrite <- GC in N. cbn [fst] in N. destruct (C96_core (mAddPid u) (mCoreFile u) pid N Rp) as (text & X & _). rewrite X. rewrite T in GT. destruct (mSaveFiles u); [discriminate|reflexivity].
Qed.
Print Assumptions C101_uninit_refuted.

Definition inh0 : Z -> dispo := fun sig => if sig =? 13 then Ignored else Default.
(** gSigVec with handlers for 15 and 11, a second object that registers for 15 and is dumped; the program ignores 10; signals 10, 13, 28 and 15 come. *)
Example C101_ex : match run 77 (start inh0) [Register 0 4096 28; Register 0 4097 28; New; Register 1 8192 28; Dump 0; Dump 1; Register 1 1 99; CoreName 0 (lit "c") true; TarName 0 (lit "t.tgz") true; Program 10 Ignored; Deliver 10; Deliver 13; Program 12 (Own 5); Deliver 12; Handle 1 28; Handle 0 6;
    Deliver 28; Deliver 28; Register 0 9 11; Deliver 11] with
  | Ok (tr, _) => map snd tr = [Nothing; Nothing; Made 1; Nothing; Printed (lit "Signal vectors for signal 28: 0x0x1000, 0x0x1001" ++ [10]); Printed (lit "Signal vectors for signal 28: 0x0x2000" ++ [10]); Nothing; Nothing; Nothing; Nothing; Nothing; Nothing; Nothing; Called 5;
      Handled None None [8192] false; Handled (Some (lit "c.77")) (Some (lit "t.tgz")) [] false; Handled None None [4096; 4097] false; Nothing; Nothing; Handled (Some (lit "c.77")) (Some (lit "t.tgz")) [9] true]
  | _ => False
  end.
Proof. vm_compute. reflexivity. Qed.
(** The end of the second object: SIGPIPE, ignored so far, ends the process; without it nothing happens. *)
Example C101_pipe_ex : match run 77 (start inh0) [New; Deliver 13; Delete 1; Deliver 13] with Ok (tr, _) => map snd tr = [Made 1; Nothing; Nothing; Ends] | _ => False end /\
  run 77 (start inh0) [New; Delete 0; Register 1 5 15; Deliver 15] = UB /\ run 77 (start inh0) [New; Handle 1 11] = UB /\ run 77 (start inh0) [New; Delete 1; Dump 1] = UB.
Proof. repeat split; vm_compute; reflexivity. Qed.
