(** C113: a Statistic of floats or doubles. *)
From Coq Require Import Lia QArith Qabs Qpower Lqa.
From Verif Require Import Base BaseFacts UtilsModel UtilsSpec UtilsProps ConfigModel ConfigSpec NumProofs IsoModel F16Model F16Spec F16Float F16FloatProofs F16FloatProps FloatNumModel FloatNumProps SecondsModel SecondsProps StatTextModel StatTextProofs StatTextProps PrintModel PrintProps StatFloatModel.
Local Open Scope Z_scope.

(** ** What a user expects *)
(** The finite doubles; every finite float is one. *)
Definition dbl (f : float) : Prop := match f with Fin m e => Z.abs m <= 2 ^ 53 /\ -1074 <= e /\ (e <= 970 \/ e = 971 /\ Z.abs m < 2 ^ 53) | _ => False end.
Definition value (f : float) : Q := match f with Fin m e => fval m e | _ => 0 end.
Fixpoint total (l : list float) : Q := match l with [] => 0 | v :: l => value v + total l end.
(** The sum of the magnitudes. *)
Fixpoint weight (l : list float) : Q := match l with [] => 0 | v :: l => Qabs (value v) + weight l end.
Definition count (l : list float) : Q := inject_Z (Z.of_nat (length l)).
Definition unit53 : Q := 1 # 9007199254740992.
(** Less or equal, with the infinities at the ends; a NaN is not comparable. *)
Definition upto (a b : float) : Prop :=
  match a, b with
  | NaN, _ | _, NaN => False
  | Fin m e, Fin n f => (fval m e <= fval n f)%Q
  | Inf true, _ | _, Inf false => True
  | _, _ => False
  end.
Definition number (f : float) : Prop := f <> NaN.

(** ** Rounding to a double *)
Lemma fval_fneg f : value (fneg f) == - value f.
Proof. destruct f; cbn [fneg value]; [apply fval_opp|reflexivity|reflexivity]. Qed.
Lemma dbl_fneg f : dbl f -> dbl (fneg f).
Proof. destruct f; cbn [fneg dbl]; [rewrite Z.abs_opp; tauto|tauto|tauto]. Qed.
Lemma q64_pos_spec n d : 0 < n -> 0 < d -> let x := (inject_Z n / inject_Z d)%Q in (x < fval 1 1023)%Q ->
  exists m e, q64_pos n d = Fin m e /\ dbl (Fin m e) /\ 0 <= m /\ (Qabs (fval m e - x) <= fval 1 (e - 1))%Q /\ (e = -1074 \/ (fval 1 (e + 52) <= x)%Q).
Proof.
  intros Pn Pd x B. destruct (flog_spec n d Pn Pd) as [F1 F2]. fold x in F1, F2. unfold q64_pos. destruct (Z.eqb_spec n 0); [lia|]. cbv zeta.
  set (F := flog n d) in *. set (e := Z.max (-1074) (F - 52)). pose proof (over_quot n d e Pd) as O. fold x in O.
  assert (FB : F < 1023) by (apply exp_lt; apply Qle_lt_trans with x; assumption).
  set (N := if 0 <=? e then n else n * 2 ^ (- e)) in *. set (D := if 0 <=? e then d * 2 ^ e else d) in *.
  assert (PD : 0 < D) by (unfold D; destruct (Z.leb_spec 0 e); [pose proof (two_pos e ltac:(lia)); nia|exact Pd]).
  assert (PN : 0 <= N) by (unfold N; destruct (Z.leb_spec 0 e); [lia|pose proof (two_pos (- e) ltac:(lia)); nia]).
  assert (Em : (if 0 <=? e then rhe n (d * 2 ^ e) else rhe (n * 2 ^ (- e)) d) = rhe N D) by (unfold N, D; destruct (0 <=? e); reflexivity). rewrite Em. set (m := rhe N D).
  assert (Er : (Qabs (fval m e - x) <= fval 1 (e - 1))%Q).
  { pose proof (dist_over x N D e m PD O) as DO. pose proof (rhe_half N D PD) as H. fold m in H. apply (Qmult_le_r _ _ (inject_Z D) (iz_pos D PD)). rewrite DO.
    assert (E1 : (fval 1 (e - 1) * inject_Z D == fval D (e - 1))%Q) by (unfold fval; ring). rewrite E1. rewrite (fval_down _ e (e - 1)) by lia. apply fval_le. replace (e - (e - 1)) with 1 by lia. lia. }
  assert (M0 : 0 <= m) by (pose proof (rhe_near N D PD) as H; fold m in H; nia).
  assert (M1 : m <= 2 ^ 53).
  { apply Z.lt_succ_r. assert (L : (x < fval (2 ^ 53) e)%Q).
    { apply Qlt_le_trans with (1 := F2). replace (2 ^ 53) with (1 * 2 ^ 53) by lia. rewrite fval_shift by lia. apply fval_mono; lia. }
    assert (L2 : (fval m e < fval (2 ^ 53) e + fval 1 (e - 1))%Q) by (apply qabs_le in Er; lra).
    assert (L3 : (fval (2 ^ 53) e + fval 1 (e - 1) <= fval (2 ^ 53) e + fval 1 e)%Q) by (assert (fval 1 (e - 1) <= fval 1 e)%Q by (apply fval_mono; lia); lra).
    assert (L4 : (fval (2 ^ 53) e + fval 1 e == fval (Z.succ (2 ^ 53)) e)%Q) by (unfold fval; rewrite <- Z.add_1_r, inject_Z_plus; ring).
    rewrite L4 in L3. apply (fval_lt m (Z.succ (2 ^ 53)) e). apply Qlt_le_trans with (1 := L2). exact L3. }
  replace (971 <? e) with false by lia. replace (e =? 971) with false by lia. cbn [orb andb]. exists m, e. split; [reflexivity|]. split; [cbn; lia|]. split; [exact M0|]. split; [exact Er|].
  destruct (Z.max_spec (-1074) (F - 52)) as [[A A2]|[A A2]]; [right|left; unfold e; lia]. replace (e + 52) with F by (unfold e; lia). exact F1.
Qed.
(** A value that is a double is not changed. *)
Lemma q64_pos_exact n d k j : 0 < n -> 0 < d -> (inject_Z n / inject_Z d < fval 1 1023)%Q -> (inject_Z n / inject_Z d == fval k j)%Q -> k <= 2 ^ 53 -> -1074 <= j -> value (q64_pos n d) == inject_Z n / inject_Z d.
Proof.
  intros Pn Pd B V K J. destruct (q64_pos_spec n d Pn Pd B) as (m & e & -> & _ & _ & Er & L). set (x := (inject_Z n / inject_Z d)%Q) in *. cbn [value].
  assert (EX : exists M, (x == fval M e)%Q).
  { destruct (Z.le_gt_cases e j) as [H|H]; [exists (k * 2 ^ (j - e)); rewrite V; apply fval_down; exact H|].
    destruct L as [L|L]; [lia|]. assert (E1 : e + 52 < j + 53 + 1).
    { apply exp_lt. apply Qle_lt_trans with (1 := L). rewrite V. apply Qle_lt_trans with (fval (1 * 2 ^ 53) j); [apply fval_le; lia|]. rewrite fval_shift by lia. apply fval_mono_lt; lia. }
    assert (E2 : e = j + 1) by lia. assert (2 ^ 53 <= k).
    { apply (fval_le (2 ^ 53) k j). rewrite <- V. apply Qle_trans with (2 := L). replace (2 ^ 53) with (1 * 2 ^ 53) by lia. rewrite fval_shift by lia. apply fval_mono; lia. }
    exists (2 ^ 52). rewrite V. replace k with (2 ^ 52 * 2 ^ 1) by (change (2 ^ 52 * 2 ^ 1) with (2 ^ 53); lia). rewrite fval_shift by lia. rewrite <- E2. reflexivity. }
  destruct EX as (M & EX). rewrite EX in *. rewrite fval_sub, fval_abs in Er. rewrite (fval_down _ e (e - 1)) in Er by lia. apply fval_le in Er. replace (e - (e - 1)) with 1 in Er by lia. replace m with M by lia. reflexivity.
Qed.
Lemma q64_opp n d : n <> 0 -> q64 (- n) d = fneg (q64 n d).
Proof.
  intros N. unfold q64. destruct (Z.ltb_spec n 0), (Z.ltb_spec (- n) 0); try lia; [|rewrite Z.opp_involutive; reflexivity].
  destruct (q64_pos (- n) d) as [m e|b|]; cbn [fneg]; [rewrite Z.opp_involutive|rewrite negb_involutive|]; reflexivity.
Qed.
(** Rounding of any quotient. *)
Lemma q64_spec n d : 0 < d -> let x := (inject_Z n / inject_Z d)%Q in (Qabs x < fval 1 1023)%Q -> dbl (q64 n d) /\
  ((Qabs (value (q64 n d) - x) <= unit53 * Qabs x)%Q \/ (Qabs x < fval 1 (-1022))%Q /\ (Qabs (value (q64 n d) - x) <= fval 1 (-1075))%Q) /\
  (forall k j, (x == fval k j)%Q -> Z.abs k <= 2 ^ 53 -> -1074 <= j -> value (q64 n d) == x).
Proof.
  intros Pd x B. assert (P : forall n, 0 < n -> let x := (inject_Z n / inject_Z d)%Q in (x < fval 1 1023)%Q -> dbl (q64 n d) /\
    ((Qabs (value (q64 n d) - x) <= unit53 * x)%Q \/ (x < fval 1 (-1022))%Q /\ (Qabs (value (q64 n d) - x) <= fval 1 (-1075))%Q) /\
    (forall k j, (x == fval k j)%Q -> Z.abs k <= 2 ^ 53 -> -1074 <= j -> value (q64 n d) == x)).
  { clear n x B. intros n Pn x B. unfold q64. replace (n <? 0) with false by lia. split; [|split].
    - destruct (q64_pos_spec n d Pn Pd B) as (m & e & -> & Db & _). exact Db.
    - destruct (q64_pos_spec n d Pn Pd B) as (m & e & -> & Db & _ & Er & L). cbn [value]. fold x in Er, L.
      assert (Rel : forall k, (fval 1 (k + 53) <= x)%Q -> (fval 1 k <= unit53 * x)%Q).
      { intros k H. assert (E : (fval 1 k == unit53 * fval 1 (k + 53))%Q) by (rewrite <- (fval_shift 1 k 53) by lia; unfold unit53; unfold fval; rewrite inject_Z_mult; change (inject_Z (2 ^ 53)) with (9007199254740992 # 1)%Q; ring). rewrite E. apply Qmult_le_l; [reflexivity|exact H]. }
      destruct L as [->|L].
      + destruct (Qlt_le_dec x (fval 1 (-1022))) as [T|T]; [right; split; [exact T|exact Er]|left]. apply Qle_trans with (1 := Er). apply Rel. exact T.
      + left. apply Qle_trans with (1 := Er). apply Rel. replace (e - 1 + 53) with (e + 52) by lia. exact L.
    - intros k j V K J. apply (q64_pos_exact n d k j); try assumption. lia. }
  destruct (Z.lt_total n 0) as [N|[->|N]].
  - specialize (P (- n) ltac:(lia)). cbv zeta in P. assert (E : (inject_Z (- n) / inject_Z d == - x)%Q) by (unfold x; rewrite inject_Z_opp; unfold Qdiv; ring).
    assert (A : (Qabs x == - x)%Q). { unfold x. rewrite abs_quot by exact Pd. rewrite Z.abs_neq by lia. exact E. }
    rewrite q64_opp in P by lia. rewrite E in P. rewrite A in B |- *. destruct (P B) as (P1 & P2 & P3). pose proof (fval_fneg (q64 n d)) as V.
    assert (S : (Qabs (value (fneg (q64 n d)) - - x) == Qabs (value (q64 n d) - x))%Q) by (rewrite V; setoid_replace (- value (q64 n d) - - x)%Q with (- (value (q64 n d) - x))%Q by ring; apply Qabs_opp).
    split; [destruct (q64 n d); cbn [fneg dbl] in *; try tauto; rewrite Z.abs_opp in P1; exact P1|]. split; [rewrite S in P2; exact P2|].
    intros k j Vk K J. specialize (P3 (- k) j). rewrite Z.abs_opp, E in P3. assert (H : (- x == fval (- k) j)%Q) by (rewrite fval_opp, Vk; reflexivity). specialize (P3 H K J). rewrite V in P3. lra.
  - assert (X0 : (x == 0)%Q) by (unfold x, Qdiv; change (inject_Z 0) with 0%Q; ring). change (q64 0 d) with (Fin 0 0). split; [cbn; lia|]. change (value (Fin 0 0)) with (fval 0 0). split; [left; rewrite X0, fval_zero; vm_compute; discriminate|]. intros. rewrite X0. apply fval_zero.
  - assert (A : (Qabs x == x)%Q) by (unfold x; rewrite abs_quot by exact Pd; rewrite Z.abs_eq by lia; reflexivity). rewrite A in B |- *. exact (P n N B).
Qed.
Lemma over_val m e d : 0 < d -> over64 m e d = (if 0 <=? e then q64 (m * 2 ^ e) d else q64 m (d * 2 ^ (- e))) /\
  0 < (if 0 <=? e then d else d * 2 ^ (- e)) /\ (inject_Z (if 0 <=? e then m * 2 ^ e else m) / inject_Z (if 0 <=? e then d else d * 2 ^ (- e)) == fval m e / inject_Z d)%Q.
Proof.
  intros D. split; [reflexivity|]. pose proof (iz_pos d D) as Pd. destruct (Z.leb_spec 0 e) as [H|H]; [split; [exact D|rewrite <- fval_nonneg by exact H; reflexivity]|]. pose proof (two_pos (- e) ltac:(lia)) as P. split; [nia|].
  rewrite inject_Z_mult. pose proof (iz_pos _ P) as Q0. setoid_replace (inject_Z m) with (fval m e * inject_Z (2 ^ (- e)))%Q.
  - field. split; lra.
  - rewrite <- (fval_int m). setoid_replace (fval m 0) with (fval (m * 2 ^ (- e)) e) by (rewrite fval_shift by lia; replace (e + - e) with 0 by lia; reflexivity). unfold fval. rewrite inject_Z_mult. ring.
Qed.
Lemma over64_spec m e d : 0 < d -> let x := (fval m e / inject_Z d)%Q in (Qabs x < fval 1 1023)%Q -> dbl (over64 m e d) /\
  ((Qabs (value (over64 m e d) - x) <= unit53 * Qabs x)%Q \/ (Qabs x < fval 1 (-1022))%Q /\ (Qabs (value (over64 m e d) - x) <= fval 1 (-1075))%Q) /\
  (forall k j, (x == fval k j)%Q -> Z.abs k <= 2 ^ 53 -> -1074 <= j -> value (over64 m e d) == x).
Proof.
  intros D x B. destruct (over_val m e d D) as (E & P & V). fold x in V. pose proof (q64_spec (if 0 <=? e then m * 2 ^ e else m) (if 0 <=? e then d else d * 2 ^ (- e)) P) as S. cbv zeta in S.
  assert (E2 : over64 m e d = q64 (if 0 <=? e then m * 2 ^ e else m) (if 0 <=? e then d else d * 2 ^ (- e))) by (rewrite E; destruct (0 <=? e); reflexivity). rewrite E2. rewrite V in S. destruct (S B) as (S1 & S2 & S3). split; [exact S1|]. split; [exact S2|].
  intros k j Vk. rewrite <- V. apply S3. rewrite V. exact Vk.
Qed.
(** A sum of doubles: only a relative error, since no digit is below the last one of a double. *)
Lemma add64_spec a b : dbl a -> dbl b -> (Qabs (value a + value b) < fval 1 1023)%Q -> dbl (add64 a b) /\ (Qabs (value (add64 a b) - (value a + value b)) <= unit53 * Qabs (value a + value b))%Q /\
  (forall k j, (value a + value b == fval k j)%Q -> Z.abs k <= 2 ^ 53 -> -1074 <= j -> value (add64 a b) == value a + value b).
Proof.
  destruct a as [m x| |]; [|intros []|intros []]. destruct b as [n y| |]; [|intros _ []|intros _ []]. intros Da Db B. change (value (Fin m x)) with (fval m x) in *. change (value (Fin n y)) with (fval n y) in *. unfold add64. cbv zeta. set (M := m * 2 ^ (x - Z.min x y) + n * 2 ^ (y - Z.min x y)). set (z := Z.min x y).
  assert (V : (fval M z == fval m x + fval n y)%Q) by (unfold M, z; rewrite (fval_down m x (Z.min x y)), (fval_down n y (Z.min x y)) by lia; unfold fval; rewrite inject_Z_plus; ring).
  assert (V1 : (fval M z / inject_Z 1 == fval m x + fval n y)%Q) by (rewrite V; change (inject_Z 1) with 1%Q; field). pose proof (over64_spec M z 1 ltac:(lia)) as S. cbv zeta in S. rewrite V1 in S. destruct (S B) as (S1 & S2 & S3).
  split; [exact S1|]. split; [|intros k j Vk; rewrite <- V1; apply S3; rewrite V1; exact Vk].
  destruct S2 as [S2|[T S2]]; [exact S2|]. assert (Z1 : -1074 <= z) by (cbn in Da, Db; unfold z; lia).
  assert (EK : (fval m x + fval n y == fval (M * 2 ^ (z - -1074)) (-1074))%Q) by (rewrite <- V; apply fval_down; lia). set (K := M * 2 ^ (z - -1074)) in *.
  assert (KB : Z.abs K <= 2 ^ 53).
  { rewrite EK, fval_abs in T. apply Z.lt_le_incl. apply (fval_lt (Z.abs K) (2 ^ 53) (-1074)). apply Qlt_le_trans with (1 := T). replace (2 ^ 53) with (1 * 2 ^ 53) by lia. rewrite fval_shift by lia. apply fval_mono; lia. }
  specialize (S3 K (-1074)). rewrite V1 in S3. specialize (S3 EK KB ltac:(lia)). rewrite S3. setoid_replace (fval m x + fval n y - (fval m x + fval n y))%Q with 0%Q by ring. change (Qabs 0) with 0%Q. apply Qmult_le_0_compat; [discriminate|apply Qabs_nonneg].
Qed.

(** ** The order of numbers *)
Lemma flt_upto a b : flt a b = true -> upto a b.
Proof.
  destruct a as [m e|s|], b as [n f|t|]; try discriminate; unfold flt; [rewrite fcompare_spec; cbn [upto]|destruct t|destruct s|destruct s, t]; try exact (fun _ => I); try discriminate.
  destruct (fval m e ?= fval n f)%Q eqn:E; try discriminate. intros _. apply Qlt_le_weak, Qlt_alt, E.
Qed.
Lemma flt_not a b : number a -> number b -> flt a b = false -> upto b a.
Proof.
  intros A B. destruct a as [m e|s|], b as [n f|t|]; try (contradiction A; reflexivity); try (contradiction B; reflexivity); unfold flt; [rewrite fcompare_spec; cbn [upto]|destruct t|destruct s|destruct s, t]; try exact (fun _ => I); try discriminate.
  destruct (fval m e ?= fval n f)%Q eqn:E; try discriminate; intros _; [apply Qeq_alt in E; rewrite E; apply Qle_refl|apply Qlt_le_weak, Qgt_alt, E].
Qed.
Lemma fgt_flt a b : fgt a b = flt b a.
Proof.
  destruct a as [m e|s|], b as [n f|t|]; try reflexivity; unfold fgt, flt; [rewrite !fcompare_spec|destruct t; reflexivity|destruct s; reflexivity|destruct s, t; reflexivity]. rewrite <- (Qcompare_antisym (fval m e) (fval n f)). destruct (fval m e ?= fval n f)%Q; reflexivity.
Qed.
Lemma upto_trans a b c : upto a b -> upto b c -> upto a c.
Proof.
  destruct a as [m e|[|]|], b as [n f|[|]|], c as [k g|[|]|]; cbn [upto]; try tauto. apply Qle_trans.
Qed.
Lemma upto_refl a : number a -> upto a a.
Proof. intros N. destruct a as [m e|[|]|]; cbn [upto]; try exact I; [apply Qle_refl|contradiction N; reflexivity]. Qed.
Lemma flt_nan_l b : flt NaN b = false. Proof. destruct b; reflexivity. Qed.
Lemma flt_nan_r a : flt a NaN = false. Proof. destruct a as [| |]; reflexivity. Qed.
Lemma nan_dec a : {a = NaN} + {number a}.
Proof. destruct a; [right; discriminate|right; discriminate|left; reflexivity]. Qed.

(** ** Count, last, least and greatest *)
Lemma fpoints_snoc l v : fpoints (l ++ [v]) = fadd_point (fpoints l) v.
Proof. unfold fpoints. rewrite fold_left_app. reflexivity. Qed.
Lemma fcount l : Z.of_nat (length l) < 2 ^ 32 -> fCnt (fpoints l) = Z.of_nat (length l).
Proof.
  induction l as [|v l IH] using rev_ind; [reflexivity|]. rewrite app_length, fpoints_snoc. cbn [length fadd_point fCnt]. intros B. rewrite IH by lia. unfold u32. rewrite Z.mod_small; lia.
Qed.
(** Samples that are NaN, except the first, are not counted among the least and the greatest. *)
Theorem C113_extremes v l : number v -> Z.of_nat (length (v :: l)) < 2 ^ 32 -> let s := fpoints (v :: l) in fcurrent s = last l v /\
  (In (fMin s) (v :: l) /\ number (fMin s) /\ forall w, In w (v :: l) -> number w -> upto (fMin s) w) /\
  (In (fMax s) (v :: l) /\ number (fMax s) /\ forall w, In w (v :: l) -> number w -> upto w (fMax s)).
Proof.
  intros N B s. assert (C : fCnt s = Z.of_nat (length (v :: l))) by (apply fcount; exact B). split.
  - unfold fcurrent. rewrite C. replace (Z.of_nat (length (v :: l)) =? 0) with false by (cbn [length]; lia). destruct l as [|w l] using rev_ind; [reflexivity|]. unfold s. rewrite app_comm_cons, fpoints_snoc. cbn [fadd_point fCur]. rewrite last_last. reflexivity.
  - clear C. subst s. induction l as [|w l IH] using rev_ind.
    + unfold fpoints. cbn [fold_left fadd_point fMin fMax fCnt fnew]. replace (0 =? 0) with true by lia. cbn [orb]. split; (split; [left; reflexivity|split; [exact N|]]; intros w [<-|[]] _; apply upto_refl; exact N).
    + rewrite app_comm_cons in *. rewrite app_length in B. cbn [length] in B. destruct (IH ltac:(cbn [length]; lia)) as [(I1 & N1 & M1) (I2 & N2 & M2)]. rewrite fpoints_snoc. set (s := fpoints (v :: l)) in *. cbn [fadd_point fMin fMax].
      assert (C : fCnt s = Z.of_nat (length (v :: l))) by (apply fcount; cbn [length]; lia). rewrite C. replace (Z.of_nat (length (v :: l)) =? 0) with false by (cbn [length]; lia). cbn [orb]. rewrite fgt_flt. split.
      * destruct (flt w (fMin s)) eqn:F.
        -- assert (Nw : number w) by (intros ->; rewrite flt_nan_l in F; discriminate F). apply flt_upto in F. split; [apply in_or_app; right; left; reflexivity|]. split; [exact Nw|]. intros x Ix Nx. apply in_app_or in Ix. destruct Ix as [Ix|[<-|[]]]; [|apply upto_refl; exact Nw]. eapply upto_trans; [exact F|apply M1; assumption].
        -- split; [apply in_or_app; left; exact I1|]. split; [exact N1|]. intros x Ix Nx. apply in_app_or in Ix. destruct Ix as [Ix|[<-|[]]]; [apply M1; assumption|]. apply flt_not; assumption.
      * destruct (flt (fMax s) w) eqn:F.
        -- assert (Nw : number w) by (intros ->; rewrite flt_nan_r in F; discriminate F). apply flt_upto in F. split; [apply in_or_app; right; left; reflexivity|]. split; [exact Nw|]. intros x Ix Nx. apply in_app_or in Ix. destruct Ix as [Ix|[<-|[]]]; [|apply upto_refl; exact Nw]. eapply upto_trans; [apply M2; assumption|exact F].
        -- split; [apply in_or_app; left; exact I2|]. split; [exact N2|]. intros x Ix Nx. apply in_app_or in Ix. destruct Ix as [Ix|[<-|[]]]; [apply M2; assumption|]. apply flt_not; assumption.
Qed.
Print Assumptions C113_extremes.

(** ** The average *)
Lemma total_snoc l v : total (l ++ [v]) == total l + value v.
Proof. induction l as [|w l IH]; cbn [app total]; [ring|rewrite IH; ring]. Qed.
Lemma weight_snoc l v : weight (l ++ [v]) == weight l + Qabs (value v).
Proof. induction l as [|w l IH]; cbn [app weight]; [ring|rewrite IH; ring]. Qed.
Lemma weight_nonneg l : (0 <= weight l)%Q.
Proof. induction l as [|w l IH]; cbn [weight]; [discriminate|]. pose proof (Qabs_nonneg (value w)). lra. Qed.
Lemma total_weight l : (Qabs (total l) <= weight l)%Q.
Proof. induction l as [|w l IH]; cbn [weight total]; [discriminate|]. eapply Qle_trans; [apply Qabs_triangle|]. lra. Qed.
Lemma count_snoc l v : count (l ++ [v]) == count l + 1.
Proof. unfold count. rewrite app_length. cbn [length]. replace (Z.of_nat (length l + 1)) with (Z.of_nat (length l) + 1) by lia. rewrite inject_Z_plus. reflexivity. Qed.
Lemma count_nonneg l : (0 <= count l)%Q.
Proof. unfold count. change 0%Q with (inject_Z 0). rewrite <- Zle_Qle. lia. Qed.
Lemma count_small l : Z.of_nat (length l) < 2 ^ 32 -> (2 * count l * unit53 <= 1 # 1048576)%Q.
Proof. intros B. assert (count l <= 4294967296)%Q by (unfold count; change 4294967296%Q with (inject_Z 4294967296); rewrite <- Zle_Qle; lia). unfold unit53. lra. Qed.
Lemma twice k : (fval 1 (k + 1) == 2 * fval 1 k)%Q.
Proof. rewrite <- (fval_shift 1 k 1) by lia. unfold fval. rewrite inject_Z_mult. change (inject_Z (2 ^ 1)) with 2%Q. ring. Qed.
Theorem C113_sum l : Forall dbl l -> Z.of_nat (length l) < 2 ^ 32 -> (weight l <= fval 1 1022)%Q ->
  dbl (fSum (fpoints l)) /\ (Qabs (value (fSum (fpoints l)) - total l) <= 2 * count l * unit53 * weight l)%Q.
Proof.
  induction l as [|v l IH] using rev_ind.
  { intros _ _ _. split; [cbn; lia|]. change (value (fSum (fpoints []))) with (fval 0 0). rewrite fval_zero. vm_compute. discriminate. }
  intros F B W. apply Forall_app in F. destruct F as [F Fv]. inversion Fv as [|? ? Dv _]; subst. rewrite app_length in B. cbn [length] in B. rewrite weight_snoc in W. pose proof (Qabs_nonneg (value v)) as Pv. pose proof (weight_nonneg l) as Pw.
  destruct (IH F ltac:(lia) ltac:(lra)) as [D E]. rewrite fpoints_snoc. cbn [fadd_point fSum]. set (S0 := fSum (fpoints l)) in *.
  pose proof (count_small l ltac:(lia)) as CS. pose proof (count_nonneg l) as CN. set (P := (2 * count l * unit53)%Q) in *. assert (P0 : (0 <= P)%Q) by (unfold P, unit53; lra).
  assert (PW : (P * weight l <= (1 # 1048576) * weight l)%Q) by (apply Qmult_le_compat_r; assumption).
  assert (PW2 : (0 <= P * Qabs (value v))%Q) by (apply Qmult_le_0_compat; assumption). assert (PW0 : (0 <= P * weight l)%Q) by (apply Qmult_le_0_compat; assumption).
  pose proof (total_weight l) as TW.
  assert (A : (Qabs (value S0 + value v) <= weight l + Qabs (value v) + P * weight l)%Q).
  { setoid_replace (value S0 + value v)%Q with ((value S0 - total l) + (total l + value v))%Q by ring. eapply Qle_trans; [apply Qabs_triangle|]. pose proof (Qabs_triangle (total l) (value v)). lra. }
  assert (TT : (fval 1 1023 == 2 * fval 1 1022)%Q) by apply (twice 1022). assert (T0 : (0 < fval 1 1022)%Q) by (unfold fval; rewrite Qmult_1_l; apply p2_pos).
  destruct (add64_spec S0 v D Dv ltac:(lra)) as (D2 & E2 & _). split; [exact D2|]. rewrite total_snoc, weight_snoc, count_snoc.
  assert (U : (unit53 * Qabs (value S0 + value v) <= unit53 * (2 * (weight l + Qabs (value v))))%Q) by (apply Qmult_le_l; [reflexivity|]; lra).
  setoid_replace (value (add64 S0 v) - (total l + value v))%Q with ((value (add64 S0 v) - (value S0 + value v)) + (value S0 - total l))%Q by ring. eapply Qle_trans; [apply Qabs_triangle|].
  setoid_replace (2 * (count l + 1) * unit53 * (weight l + Qabs (value v)))%Q with (P * weight l + P * Qabs (value v) + unit53 * (2 * (weight l + Qabs (value v))))%Q by (unfold P; ring). lra.
Qed.
Print Assumptions C113_sum.
Lemma count_pos l : l <> [] -> (1 <= count l)%Q.
Proof. intros N. unfold count. change 1%Q with (inject_Z 1). rewrite <- Zle_Qle. destruct l; [congruence|cbn [length]; lia]. Qed.
Lemma avg_over l : l <> [] -> Z.of_nat (length l) < 2 ^ 32 -> forall m e, fSum (fpoints l) = Fin m e -> favg (fpoints l) = over64 m e (Z.of_nat (length l)).
Proof. intros N B m e E. unfold favg. rewrite fcount by exact B. replace (Z.of_nat (length l) =? 0) with false by (destruct l; [congruence|cbn [length]; lia]). rewrite E. reflexivity. Qed.
(** The quotient, for any sum. *)
Lemma quotient l : l <> [] -> Z.of_nat (length l) < 2 ^ 32 -> dbl (fSum (fpoints l)) -> (Qabs (value (fSum (fpoints l))) < fval 1 1023)%Q -> let x := (value (fSum (fpoints l)) / count l)%Q in
  dbl (favg (fpoints l)) /\ (Qabs (value (favg (fpoints l)) - x) <= unit53 * Qabs x + fval 1 (-1075))%Q.
Proof.
  intros N B D K x. destruct (fSum (fpoints l)) as [m e| |] eqn:E; [|destruct D|destruct D]. rewrite (avg_over l N B m e E). cbn [value] in *. pose proof (count_pos l N) as C. unfold count in *. assert (PL : 0 < Z.of_nat (length l)) by (destruct l; [congruence|cbn [length]; lia]).
  assert (KX : (Qabs x < fval 1 1023)%Q).
  { unfold x, Qdiv. rewrite Qabs_Qmult. rewrite (Qabs_pos (/ _)) by (apply Qinv_le_0_compat; lra). apply Qle_lt_trans with (2 := K). rewrite <- (Qmult_1_r (Qabs (fval m e))) at 2. rewrite !(Qmult_comm (Qabs (fval m e))). apply Qmult_le_compat_r; [|apply Qabs_nonneg]. apply Qle_shift_inv_r; lra. }
  destruct (over64_spec m e (Z.of_nat (length l)) PL KX) as (S1 & S2 & _). fold x in S2. split; [exact S1|]. assert (T0 : (0 <= fval 1 (-1075))%Q) by (unfold fval; rewrite Qmult_1_l; apply Qlt_le_weak, p2_pos). assert (U0 : (0 <= unit53 * Qabs x)%Q) by (apply Qmult_le_0_compat; [discriminate|apply Qabs_nonneg]).
  destruct S2 as [S2|[_ S2]]; lra.
Qed.
(** Sums so far below the largest double: the average is off by at most n+1 parts in 2^52 of the average magnitude. *)
Theorem C113_average l : l <> [] -> Forall dbl l -> Z.of_nat (length l) < 2 ^ 32 -> (weight l <= fval 1 1022)%Q ->
  dbl (favg (fpoints l)) /\ (Qabs (value (favg (fpoints l)) - total l / count l) <= (count l + 1) * (1 # 4503599627370496) * (weight l / count l) + fval 1 (-1075))%Q.
Proof.
  intros N F B W. destruct (C113_sum l F B W) as [D E]. set (S0 := fSum (fpoints l)) in *. pose proof (weight_nonneg l) as Pw. pose proof (count_small l ltac:(lia)) as CS. pose proof (count_pos l N) as CP. pose proof (total_weight l) as TW.
  set (P := (2 * count l * unit53)%Q) in *. assert (PW : (P * weight l <= (1 # 1048576) * weight l)%Q) by (apply Qmult_le_compat_r; assumption).
  assert (A : (Qabs (value S0) <= 2 * weight l)%Q).
  { setoid_replace (value S0) with ((value S0 - total l) + total l)%Q by ring. eapply Qle_trans; [apply Qabs_triangle|]. lra. }
  assert (TT : (fval 1 1023 == 2 * fval 1 1022)%Q) by apply (twice 1022). assert (T0 : (0 < fval 1 1022)%Q) by (unfold fval; rewrite Qmult_1_l; apply p2_pos).
  assert (A2 : (Qabs (value S0) <= weight l + (1 # 1048576) * weight l)%Q).
  { setoid_replace (value S0) with ((value S0 - total l) + total l)%Q by ring. eapply Qle_trans; [apply Qabs_triangle|]. lra. }
  destruct (quotient l N B D ltac:(fold S0; lra)) as [D2 Q2]. fold S0 in Q2. split; [exact D2|].
  set (i := (/ count l)%Q). assert (I0 : (0 <= i)%Q) by (apply Qinv_le_0_compat; lra). unfold Qdiv in Q2 |- *. fold i in Q2 |- *.
  assert (X1 : (Qabs (value S0 * i) <= 2 * weight l * i)%Q) by (rewrite Qabs_Qmult, (Qabs_pos i I0); apply Qmult_le_compat_r; assumption).
  assert (X2 : (Qabs (value S0 * i - total l * i) <= P * weight l * i)%Q).
  { setoid_replace (value S0 * i - total l * i)%Q with ((value S0 - total l) * i)%Q by ring. rewrite Qabs_Qmult, (Qabs_pos i I0). apply Qmult_le_compat_r; assumption. }
  assert (X3 : (unit53 * Qabs (value S0 * i) <= unit53 * (2 * weight l * i))%Q) by (apply Qmult_le_l; [reflexivity|exact X1]).
  setoid_replace (value (favg (fpoints l)) - total l * i)%Q with ((value (favg (fpoints l)) - value S0 * i) + (value S0 * i - total l * i))%Q by ring. eapply Qle_trans; [apply Qabs_triangle|].
  setoid_replace ((count l + 1) * (1 # 4503599627370496) * (weight l * i) + fval 1 (-1075))%Q with (P * weight l * i + unit53 * (2 * weight l * i) + fval 1 (-1075))%Q; [lra|]. unfold P. setoid_replace (1 # 4503599627370496) with (2 * unit53)%Q by reflexivity. ring.
Qed.
Print Assumptions C113_average.
(** A Statistic<float>: no sum is too large. *)
Definition finite_float (f : float) : Prop := match f with Fin _ _ => single f | _ => False end.
Lemma float_dbl f : finite_float f -> dbl f /\ (Qabs (value f) <= fval 1 128)%Q.
Proof.
  destruct f as [m e| |]; [|intros []|intros []]. intros [A B]. split; [cbn; change (2 ^ 53) with (2 ^ 24 * 2 ^ 29); pose proof (two_pos 29 ltac:(lia)); lia|]. cbn [value]. rewrite fval_abs. apply Qle_trans with (fval (1 * 2 ^ 24) e); [apply fval_le; lia|]. rewrite fval_shift by lia. apply fval_mono; lia.
Qed.
Lemma floats_small l : Forall finite_float l -> Z.of_nat (length l) < 2 ^ 32 -> Forall dbl l /\ (weight l <= fval 1 1022)%Q.
Proof.
  intros F B. split; [eapply Forall_impl; [|exact F]; intros f H; apply float_dbl; exact H|]. assert (W : (weight l <= count l * fval 1 128)%Q).
  { clear B. induction F as [|f l H F IH]; [vm_compute; discriminate|]. cbn [weight]. unfold count in *. cbn [length]. rewrite Nat2Z.inj_succ, <- Z.add_1_r, inject_Z_plus. change (inject_Z 1) with 1%Q. pose proof (proj2 (float_dbl f H)). lra. }
  assert (E : (count l * fval 1 128 == fval (Z.of_nat (length l)) 128)%Q) by (unfold count, fval; change (inject_Z 1) with 1%Q; ring). rewrite E in W. apply Qle_trans with (1 := W). apply Qle_trans with (fval (1 * 2 ^ 32) 128); [apply fval_le; lia|]. rewrite fval_shift by lia. apply fval_mono; lia.
Qed.
Theorem C113_float_average l : l <> [] -> Forall finite_float l -> Z.of_nat (length l) < 2 ^ 32 ->
  dbl (favg (fpoints l)) /\ (Qabs (value (favg (fpoints l)) - total l / count l) <= (count l + 1) * (1 # 4503599627370496) * (weight l / count l) + fval 1 (-1075))%Q.
Proof. intros N F B. destruct (floats_small l F B) as [D W]. apply C113_average; assumption. Qed.
Print Assumptions C113_float_average.
(** Samples that are multiples of one power of two, with a sum of 53 bits: nothing is lost but in the division. *)
Theorem C113_exact l j : l <> [] -> Forall dbl l -> Z.of_nat (length l) < 2 ^ 32 -> -1074 <= j <= 969 -> Forall (fun v => exists k, (value v == fval k j)%Q) l -> (weight l <= fval (2 ^ 53) j)%Q ->
  (value (fSum (fpoints l)) == total l)%Q /\ (Qabs (value (favg (fpoints l)) - total l / count l) <= unit53 * Qabs (total l / count l) + fval 1 (-1075))%Q.
Proof.
  intros N F B J M W. assert (T : (fval (2 ^ 53) j <= fval 1 1022)%Q) by (replace (2 ^ 53) with (1 * 2 ^ 53) by lia; rewrite fval_shift by lia; apply fval_mono; lia).
  assert (T2 : (fval 1 1022 < fval 1 1023)%Q) by (apply fval_mono_lt; lia).
  assert (S : dbl (fSum (fpoints l)) /\ (value (fSum (fpoints l)) == total l)%Q /\ exists K, (total l == fval K j)%Q).
  { clear N B. induction l as [|v l IH] using rev_ind; [split; [cbn; lia|split; [apply fval_zero|exists 0; rewrite fval_zero; reflexivity]]|].
    apply Forall_app in F. destruct F as [F Fv]. inversion Fv as [|? ? Dv _]; subst. apply Forall_app in M. destruct M as [M Mv]. inversion Mv as [|? ? (k & Vk) _]; subst. rewrite weight_snoc in W. pose proof (Qabs_nonneg (value v)) as Pv.
    destruct (IH F M ltac:(lra)) as (D & E & K & EK). rewrite fpoints_snoc. cbn [fadd_point fSum]. set (S0 := fSum (fpoints l)) in *. rewrite total_snoc.
    assert (Q1 : (Qabs (value S0 + value v) <= fval (2 ^ 53) j)%Q) by (eapply Qle_trans; [apply Qabs_triangle|]; rewrite E; pose proof (total_weight l); lra).
    destruct (add64_spec S0 v D Dv ltac:(lra)) as (D2 & _ & X). assert (EV : (value S0 + value v == fval (K + k) j)%Q) by (rewrite E, EK, Vk; unfold fval; rewrite inject_Z_plus; ring).
    split; [exact D2|]. split; [|exists (K + k); rewrite total_snoc, <- EV, E; reflexivity]. rewrite (X (K + k) j EV); [rewrite E; reflexivity| |lia]. rewrite EV, fval_abs in Q1. apply fval_le in Q1. exact Q1. }
  destruct S as (D & E & _). split; [exact E|]. pose proof (total_weight l). destruct (quotient l N B D ltac:(rewrite E; lra)) as [_ Q2]. unfold Qdiv in *. rewrite E in Q2. exact Q2.
Qed.
Print Assumptions C113_exact.

(** ** What is printed *)
Lemma shown_number f : dbl f -> forall os, exists t q, put_float (plain os) f = plain (os ++ t) /\ stands_for t q /\ (Qabs (q - value f) <= (1 # 199999) * Qabs (value f))%Q.
Proof.
  destruct f as [m e| |]; [|intros []|intros []]. intros D os. cbn [dbl] in D. cbn [value]. destruct (Z.eq_dec m 0) as [->|N].
  - exists (lit "0"), 0%Q. split; [reflexivity|]. split; [apply zero_stands|]. rewrite fval_zero. vm_compute. discriminate.
  - assert (R : (ten (-400) <= Qabs (fval m e))%Q /\ (Qabs (fval m e) < ten 400)%Q).
    { rewrite fval_abs. split.
      - apply Qle_trans with (fval 1 (-1074)); [vm_compute; discriminate|]. apply Qle_trans with (fval 1 e); [apply fval_mono; lia|apply fval_le; lia].
      - apply Qle_lt_trans with (fval 1 1024); [|vm_compute; reflexivity]. apply Qle_trans with (fval (1 * 2 ^ 53) e); [apply fval_le; lia|]. rewrite fval_shift by lia. apply fval_mono; lia. }
    destruct R as [L U]. destruct (C102_number 6 (m, e) ltac:(lia) L U) as (q & x & k & St & W & _ & _ & C). unfold dval in W, C. cbn [fst snd] in W, C.
    exists (general 6 (m, e)), q. split; [reflexivity|]. split; [exact St|].
    assert (Et : (ten (x + 1 - Z.of_nat 6) == (1 # 100000) * ten x)%Q) by (replace (x + 1 - Z.of_nat 6) with (-5 + x) by lia; rewrite ten_add; reflexivity). rewrite Et in C. destruct W as [W _]. pose proof (Qabs_nonneg (fval m e)). lra.
Qed.
(** [t] is printed for [f]: within one part in 199999. *)
Definition prints (t : list Z) (f : float) : Prop := exists q, stands_for t q /\ (Qabs (q - value f) <= (1 # 199999) * Qabs (value f))%Q.
Theorem C113_text front s l : l <> [] -> Forall dbl l -> Z.of_nat (length l) <= 999999 -> (weight l <= fval 1 1022)%Q -> let st := fpoints l in
  exists cur, prints cur (last l (Fin 0 0)) /\
    if Qeq_bool (value (fMin st)) (value (fMax st)) then ftext front (plain s) st = Ok (plain (s ++ lit "(" ++ cur ++ lit ")"))
    else exists lo hi avg, prints lo (fMin st) /\ prints hi (fMax st) /\ prints avg (favg st) /\
      ftext front (plain s) st = Ok (plain (s ++ lit "(" ++ cur ++ lit " min=" ++ lo ++ lit " max=" ++ hi ++ lit " avg=" ++ avg ++ lit " N=" ++ sprintf_ld (Z.of_nat (length l)) ++ lit ")")).
Proof.
  intros N F B W st. destruct l as [|v l]; [congruence|]. assert (B2 : Z.of_nat (length (v :: l)) < 2 ^ 32) by lia. assert (Nv : number v) by (inversion F as [|? ? H _]; subst; intros ->; exact H).
  destruct (C113_extremes v l Nv B2) as (Cu & (I1 & _ & _) & (I2 & _ & _)). fold st in Cu, I1, I2. pose proof (fcount (v :: l) B2) as Cn. fold st in Cn.
  rewrite Forall_forall in F. pose proof (F _ I1) as D1. pose proof (F _ I2) as D2. assert (Cu2 : fCur st = last (v :: l) (Fin 0 0)).
  { unfold fcurrent in Cu. rewrite Cn in Cu. replace (Z.of_nat (length (v :: l)) =? 0) with false in Cu by (cbn [length]; lia). rewrite Cu. clear. revert v. induction l as [|w l IH]; intros v; [reflexivity|]. change (last (v :: w :: l) (Fin 0 0)) with (last (w :: l) (Fin 0 0)). rewrite <- IH. destruct l as [|y l]; [reflexivity|]. change (last (w :: y :: l) v) with (last (y :: l) v). assert (E : forall d d', last (y :: l) d = last (y :: l) d') by (clear; revert y; induction l as [|z l IH]; intros y d d'; [reflexivity|apply IH]). apply E. }
  assert (Dc : dbl (fCur st)) by (rewrite Cu2; apply F; clear; revert v; induction l as [|w l IH]; intros v; [left; reflexivity|right; apply IH]).
  destruct (C113_average (v :: l) N (proj2 (Forall_forall dbl (v :: l)) F) B2 W) as [Da _]. fold st in Da.
  destruct (shown_number _ Dc (s ++ lit "(")) as (cur & q & P & St & Er). exists cur. split; [exists q; rewrite <- Cu2; split; assumption|].
  assert (FE : feq (fMin st) (fMax st) = Qeq_bool (value (fMin st)) (value (fMax st))).
  { destruct (fMin st) as [m e| |]; [|destruct D1|destruct D1]. destruct (fMax st) as [n f| |]; [|destruct D2|destruct D2]. unfold feq. rewrite fcompare_spec. cbn [value]. destruct (fval m e ?= fval n f)%Q eqn:E; symmetry; [apply Qeq_eq_bool, Qeq_alt, E| |]; (destruct (Qeq_bool (fval m e) (fval n f)) eqn:X; [|reflexivity]); apply Qeq_bool_eq in X; apply Qeq_alt in X; congruence. }
  unfold ftext. cbv zeta. change (put (plain s) (lit "(")) with (plain (s ++ lit "(")). rewrite P, FE. destruct (Qeq_bool (value (fMin st)) (value (fMax st))).
  - cbn [bind]. unfold put, plain. cbn [written precision is_fixed]. rewrite <- !app_assoc. reflexivity.
  - destruct (shown_number _ D1 (((s ++ lit "(") ++ cur) ++ lit " min=")) as (lo & q1 & P1 & St1 & Er1). destruct (shown_number _ D2 (((((s ++ lit "(") ++ cur) ++ lit " min=") ++ lo) ++ lit " max=")) as (hi & q2 & P2 & St2 & Er2).
    destruct (shown_number _ Da (((((((s ++ lit "(") ++ cur) ++ lit " min=") ++ lo) ++ lit " max=") ++ hi) ++ lit " avg=")) as (avg & q3 & P3 & St3 & Er3).
    exists lo, hi, avg. split; [exists q1; split; assumption|]. split; [exists q2; split; assumption|]. split; [exists q3; split; assumption|].
    change (put (plain ((s ++ lit "(") ++ cur)) (lit " min=")) with (plain (((s ++ lit "(") ++ cur) ++ lit " min=")). rewrite P1.
    change (put (plain ((((s ++ lit "(") ++ cur) ++ lit " min=") ++ lo)) (lit " max=")) with (plain (((((s ++ lit "(") ++ cur) ++ lit " min=") ++ lo) ++ lit " max=")). rewrite P2.
    change (put (plain ((((((s ++ lit "(") ++ cur) ++ lit " min=") ++ lo) ++ lit " max=") ++ hi)) (lit " avg=")) with (plain (((((((s ++ lit "(") ++ cur) ++ lit " min=") ++ lo) ++ lit " max=") ++ hi) ++ lit " avg=")). rewrite P3.
    rewrite Cn. replace (Z.of_nat (length (v :: l)) <=? 999999) with true by lia. cbn [bind]. unfold put_int, put, plain. cbn [written precision is_fixed]. rewrite <- !app_assoc. reflexivity.
Qed.
Print Assumptions C113_text.

(** ** Defects *)
(** A NaN stays in the sum; the first sample, if NaN, stays the least and the greatest. *)
Lemma add64_nan a : add64 NaN a = NaN /\ add64 a NaN = NaN.
Proof. split; [reflexivity|]. destruct a; reflexivity. Qed.
Theorem C113_nan_refuted l : In NaN l -> Z.of_nat (length l) < 2 ^ 32 -> favg (fpoints l) = NaN.
Proof.
  intros I B. assert (S : fSum (fpoints l) = NaN).
  { clear B. induction l as [|v l IH] using rev_ind; [destruct I|]. rewrite fpoints_snoc. cbn [fadd_point fSum]. apply in_app_or in I. destruct I as [I|[->|[]]]; [rewrite IH by exact I|]; apply add64_nan. }
  unfold favg. rewrite fcount, S by exact B. replace (Z.of_nat (length l) =? 0) with false by (destruct l; [destruct I|cbn [length]; lia]). reflexivity.
Qed.
Print Assumptions C113_nan_refuted.
(** An infinite sample leaves an infinite average or none, two of opposite signs leave none. *)
Theorem C113_infinite_refuted l : Z.of_nat (length l) < 2 ^ 32 ->
  (forall s, In (Inf s) l -> favg (fpoints l) = Inf s \/ favg (fpoints l) = NaN) /\
  (In (Inf true) l -> In (Inf false) l -> favg (fpoints l) = NaN).
Proof.
  intros B. assert (forall s, In (Inf s) l -> favg (fpoints l) = Inf s \/ favg (fpoints l) = NaN) as H.
  { intros s I. assert (fSum (fpoints l) = Inf s \/ fSum (fpoints l) = NaN) as S.
    { clear B. induction l as [|v l IH] using rev_ind; [destruct I|]. rewrite fpoints_snoc. cbn [fadd_point fSum]. apply in_app_or in I. destruct I as [I|[->|[]]].
      - destruct (IH I) as [-> | ->]; [|right; reflexivity]. destruct v as [m e|t|]; cbn [add64]; [left; reflexivity|destruct s, t; cbn [eqb]; auto|right; reflexivity].
      - destruct (fSum (fpoints l)) as [m e|t|]; cbn [add64]; [left; reflexivity|destruct s, t; cbn [eqb]; auto|right; reflexivity]. }
    unfold favg. rewrite fcount by exact B. replace (Z.of_nat (length l) =? 0) with false by (destruct l; [destruct I|cbn [length]; lia]). destruct S as [-> | ->]; auto. }
  split; [exact H|]. intros I J. destruct (H _ I) as [E|E]; [|exact E]. destruct (H _ J) as [F|F]; congruence.
Qed.
Print Assumptions C113_infinite_refuted.
Theorem C113_first_refuted l : Z.of_nat (length (NaN :: l)) < 2 ^ 32 -> fMin (fpoints (NaN :: l)) = NaN /\ fMax (fpoints (NaN :: l)) = NaN.
Proof.
  induction l as [|v l IH] using rev_ind; intros B; [split; reflexivity|]. rewrite app_comm_cons in *. rewrite app_length in B. cbn [length] in B. rewrite fpoints_snoc. destruct (IH ltac:(cbn [length]; lia)) as [A1 A2]. cbn [fadd_point fMin fMax]. rewrite fcount by (cbn [length]; lia). replace (Z.of_nat (length (NaN :: l)) =? 0) with false by (cbn [length]; lia). rewrite A1, A2, fgt_flt, flt_nan_l, flt_nan_r. split; reflexivity.
Qed.
Print Assumptions C113_first_refuted.
(** Ten times 0.1: the average is below every sample. *)
Definition tenth : float := Fin 3602879701896397 (-55).
Theorem C113_between_refuted : let s := fpoints (repeat tenth 10) in fMin s = tenth /\ fMax s = tenth /\ flt (favg s) tenth = true.
Proof. vm_compute. repeat split. Qed.
Print Assumptions C113_between_refuted.
(** The order counts: the true average of both lists is 1/3. *)
Theorem C113_order_refuted : value (favg (fpoints [Fin 1 53; Fin 1 0; Fin (-1) 53])) == 0 /\ favg (fpoints [Fin 1 53; Fin (-1) 53; Fin 1 0]) = Fin 6004799503160661 (-54).
Proof. split; vm_compute; reflexivity. Qed.
Print Assumptions C113_order_refuted.
(** Two samples near the largest double have an infinite average. *)
Theorem C113_overflow_refuted : favg (fpoints [Fin (2 ^ 53 - 1) 971; Fin (2 ^ 53 - 1) 971]) = Inf false /\ favg (fpoints [Fin (2 ^ 53 - 1) 971; Fin 1 970]) = Inf false.
Proof. split; vm_compute; reflexivity. Qed.
Print Assumptions C113_overflow_refuted.
Example C113_ex : (do os <- ftext false (plain []) (fpoints [Fin 3 (-1); Fin (-5) (-2); Fin 7 0]); Ok (written os)) = Ok (lit "(7 min=-1.25 max=7 avg=2.41667 N=3)") /\
  (do os <- ftext false (plain []) (fpoints [Fin 3 (-1); NaN; Inf true]); Ok (written os)) = Ok (lit "(-inf min=-inf max=1.5 avg=nan N=3)") /\
  (do os <- ftext false (plain []) (fpoints [tenth; tenth]); Ok (written os)) = Ok (lit "(0.1)") /\ Forall dbl [Fin 3 (-1); Fin (-5) (-2); tenth] /\ (weight [Fin 3 (-1); Fin (-5) (-2); tenth] <= fval 1 1022)%Q.
Proof. split; [vm_compute; reflexivity|]. split; [vm_compute; reflexivity|]. split; [vm_compute; reflexivity|]. split; [repeat constructor; cbn; lia|vm_compute; discriminate]. Qed.
