(** Lemmas on the float operations of F16.h, in integers. *)
From Verif Require Import Base BaseFacts F16Model F16Float F16Spec.
From Coq Require Import Qabs Qpower Lqa.
Local Open Scope Z_scope.

Lemma two_pos k : 0 <= k -> 0 < 2 ^ k.
Proof. intros H. apply Z.pow_pos_nonneg; lia. Qed.
Lemma two_add a b : 0 <= a -> 0 <= b -> 2 ^ (a + b) = 2 ^ a * 2 ^ b.
Proof. intros. apply Z.pow_add_r; lia. Qed.
Lemma two_le a b : 0 <= a <= b -> 2 ^ a <= 2 ^ b.
Proof. intros. apply Z.pow_le_mono_r; lia. Qed.

Lemma rhe_near n d : 0 < d -> - d <= 2 * (n - d * rhe n d) <= d.
Proof.
  intros D. pose proof (Z.div_mod n d ltac:(lia)) as E. pose proof (Z.mod_pos_bound n d D) as B. unfold rhe.
  set (q := n / d) in *. set (r := n mod d) in *. clearbody q r.
  destruct (Z.ltb_spec (2 * r) d); [nia|]. destruct (Z.ltb_spec d (2 * r)); [nia|]. destruct (Z.even q); nia.
Qed.
Lemma rhe_exact q d : 0 < d -> rhe (q * d) d = q.
Proof. intros D. unfold rhe. rewrite Z.div_mul, Z.mod_mul by lia. destruct (Z.ltb_spec (2 * 0) d); [reflexivity|lia]. Qed.
Lemma rhe_mono n n' d : 0 < d -> n <= n' -> rhe n d <= rhe n' d.
Proof.
  intros D H. destruct (Z.eq_dec n n') as [->|N]; [lia|]. pose proof (rhe_near n d D) as A. pose proof (rhe_near n' d D) as B.
  destruct (Z.le_gt_cases (rhe n d) (rhe n' d)) as [L|L]; [exact L|]. exfalso. nia.
Qed.

(** Rounding to a whole number, toward zero. *)
Definition ztrunc (m e : Z) : Z := if 0 <=? e then m * 2 ^ e else Z.quot m (2 ^ (- e)).
Lemma to_int_fin m e : to_int (Fin m e) = int_ (ztrunc m e).
Proof. reflexivity. Qed.
Lemma ztrunc_opp m e : ztrunc (- m) e = - ztrunc m e.
Proof.
  unfold ztrunc. destruct (Z.leb_spec 0 e); [lia|]. apply Z.quot_opp_l. pose proof (two_pos (- e) ltac:(lia)). lia.
Qed.
Lemma ztrunc_neg m e : e < 0 -> 0 <= m -> ztrunc m e = m / 2 ^ (- e).
Proof. intros E M. unfold ztrunc. destruct (Z.leb_spec 0 e); [lia|]. apply Z.quot_div_nonneg; [lia|]. apply two_pos. lia. Qed.
Lemma ztrunc_nonneg m e : 0 <= e -> ztrunc m e = m * 2 ^ e.
Proof. intros E. unfold ztrunc. destruct (Z.leb_spec 0 e); [reflexivity|lia]. Qed.

Lemma log2_small m b : 0 < m -> 0 <= b -> m < 2 ^ (b + 1) -> Z.log2 m <= b.
Proof. intros M B H. apply Z.log2_lt_pow2 in H; lia. Qed.
Lemma log2_big m b : 0 <= b -> 2 ^ b <= m -> b <= Z.log2 m.
Proof. intros B H. apply Z.log2_le_pow2; [|exact H]. pose proof (two_pos b B). lia. Qed.
Lemma log2_val m b : 0 <= b -> 2 ^ b <= m < 2 ^ (b + 1) -> Z.log2 m = b.
Proof. intros B [H1 H2]. pose proof (two_pos b B). pose proof (log2_small m b ltac:(lia) B H2). pose proof (log2_big m b B H1). lia. Qed.

Lemma finish_fin m e : e <= 103 -> exists M E, finish m e = Fin M E /\ (M, E) = (if m =? 2 ^ 24 then (2 ^ 23, e + 1) else (m, e)).
Proof.
  intros H. unfold finish. destruct (Z.ltb_spec 104 e); [lia|]. destruct (Z.eqb_spec m (2 ^ 24)).
  - destruct (Z.eqb_spec e 104); [lia|]. eexists. eexists. split; reflexivity.
  - eexists. eexists. split; reflexivity.
Qed.
Lemma finish_trunc m e : e <= 103 -> exists M E, finish m e = Fin M E /\ ztrunc M E = ztrunc m e.
Proof.
  intros H. destruct (finish_fin m e H) as (M & E & F & Q). exists M, E. split; [exact F|]. destruct (Z.eqb_spec m (2 ^ 24)) as [->|N]; injection Q as -> ->; [|reflexivity].
  unfold ztrunc. destruct (Z.leb_spec 0 (e + 1)); destruct (Z.leb_spec 0 e); try lia.
  - rewrite two_add by lia. lia.
  - replace e with (-1) by lia. reflexivity.
  - replace (- e) with (- (e + 1) + 1) by lia. rewrite two_add by lia. change (2 ^ 24) with (2 ^ 23 * 2). change (2 ^ 1) with 2.
    pose proof (two_pos (- (e + 1)) ltac:(lia)). rewrite Z.quot_mul_cancel_r by lia. reflexivity.
Qed.

(** The nearest whole number to m * 2^e, ties away from zero. *)
Definition nearest (m e : Z) : Z := if 0 <=? e then m * 2 ^ e else Z.sgn m * ((2 * Z.abs m + 2 ^ (- e)) / (2 * 2 ^ (- e))).
(** Where adding one half is not exact enough: the number below one half, and the odd numbers from 2^23 to 2^24. *)
Definition off (m e : Z) : Prop :=
  (Z.abs m = 2 ^ 24 - 1 /\ e = -25) \/ (e = 0 /\ Z.odd m = true /\ 2 ^ 23 <= Z.abs m < 2 ^ 24).

Lemma add_half m e : 0 < m < 2 ^ 24 -> -149 <= e <= 100 -> ~ off m e ->
  exists M E, fadd (Fin m e) (Fin 1 (-1)) = Fin M E /\ ztrunc M E = nearest m e.
Proof.
  intros Hm He HO. unfold fadd. destruct (Z.le_gt_cases 0 e) as [He0|He0].
  - rewrite Z.min_r by lia. replace (e - -1) with (e + 1) by lia. change (2 ^ (-1 - -1)) with 1.
    pose proof (two_pos e He0) as Pe. rewrite two_add by lia. change (2 ^ 1) with 2. set (x := m * 2 ^ e). assert (X : 0 < x) by (unfold x; nia).
    replace (m * (2 ^ e * 2) + 1 * 1) with (2 * x + 1) by (unfold x; lia). unfold rnd. destruct (Z.ltb_spec (2 * x + 1) 0); [lia|].
    unfold rnd_pos. destruct (Z.eqb_spec (2 * x + 1) 0); [lia|]. assert (NE : nearest m e = x) by (unfold nearest, x; destruct (Z.leb_spec 0 e); [reflexivity|lia]).
    rewrite NE. set (k := Z.max (Z.log2 (2 * x + 1) - 23) (-149 - -1)).
    destruct (Z.lt_ge_cases x (2 ^ 23)) as [S|S].
    + pose proof (log2_small (2 * x + 1) 23 ltac:(lia) ltac:(lia) ltac:(change (2 ^ (23 + 1)) with (2 * 2 ^ 23); lia)). destruct (Z.leb_spec k 0); [|lia].
      destruct (finish_trunc (2 * x + 1) (-1) ltac:(lia)) as (M & E & F & T). exists M, E. split; [exact F|]. rewrite T, ztrunc_neg by lia. change (2 ^ - -1) with 2. lia.
    + destruct (Z.lt_ge_cases x (2 ^ 24)) as [S2|S2].
      * assert (L : Z.log2 (2 * x + 1) = 24) by (apply log2_val; [lia|]; change (2 ^ (24 + 1)) with (2 * 2 ^ 24); change (2 ^ 24) with (2 * 2 ^ 23); lia).
        replace k with 1 by lia. change (1 <=? 0) with false. cbn iota. change (2 ^ 1) with 2. change (-1 + 1) with 0.
        assert (EV : Z.even x = true).
        { destruct (Z.even x) eqn:EV; [reflexivity|]. exfalso. apply HO. right.
          assert (E0 : e = 0).
          { destruct (Z.eq_dec e 0) as [|NZ]; [assumption|]. exfalso. unfold x in EV. replace e with (1 + (e - 1)) in EV by lia. rewrite two_add in EV by lia. change (2 ^ 1) with 2 in EV.
            rewrite Z.mul_assoc, (Z.mul_comm m 2), <- Z.mul_assoc, Z.even_mul in EV. discriminate. }
          assert (XM : x = m) by (unfold x; rewrite E0; change (2 ^ 0) with 1; lia). rewrite XM in *. rewrite <- Z.negb_even, EV. split; [exact E0|]. split; [reflexivity|]. rewrite Z.abs_eq; lia. }
        assert (R : rhe (2 * x + 1) 2 = x).
        { unfold rhe. replace ((2 * x + 1) / 2) with x by lia. replace ((2 * x + 1) mod 2) with 1 by lia. change (2 * 1 <? 2) with false. change (2 <? 2 * 1) with false. cbn iota. rewrite EV. reflexivity. }
        rewrite R. destruct (finish_trunc x 0 ltac:(lia)) as (M & E & F & T). exists M, E. split; [exact F|]. rewrite T, ztrunc_nonneg by lia. lia.
      * assert (K2 : 2 <= k) by (pose proof (log2_big (2 * x + 1) 25 ltac:(lia) ltac:(change (2 ^ 25) with (2 * 2 ^ 24); lia)); lia).
        assert (KE : k <= e + 1).
        { assert (U : 2 * x + 1 < 2 ^ (e + 24 + 1)).
          { replace (e + 24 + 1) with (e + 25) by lia. rewrite two_add by lia. unfold x. change (2 ^ 25) with (2 * 2 ^ 24).
            assert (m * 2 ^ e <= (2 ^ 24 - 1) * 2 ^ e) by (apply Z.mul_le_mono_nonneg_r; lia). lia. }
          pose proof (log2_small (2 * x + 1) (e + 24) ltac:(lia) ltac:(lia) U). lia. }
        destruct (Z.leb_spec k 0); [lia|].
        assert (DV : 2 * x = (m * 2 ^ (e + 1 - k)) * 2 ^ k).
        { unfold x. rewrite <- Z.mul_assoc, <- two_add by lia. replace (e + 1 - k + k) with (e + 1) by lia. rewrite two_add by lia. change (2 ^ 1) with 2. lia. }
        set (y := m * 2 ^ (e + 1 - k)) in *. pose proof (two_le 2 k ltac:(lia)) as P4. change (2 ^ 2) with 4 in P4.
        assert (R : rhe (2 * x + 1) (2 ^ k) = y).
        { unfold rhe. rewrite DV. rewrite Z.add_comm, Z.div_add, Z.mod_add by lia. rewrite (Z.div_small 1), (Z.mod_small 1) by lia.
          destruct (Z.ltb_spec (2 * 1) (2 ^ k)); lia. }
        rewrite R. assert (KB : k <= 101) by lia. destruct (finish_trunc y (-1 + k) ltac:(lia)) as (M & E & F & T). exists M, E. split; [exact F|]. rewrite T, ztrunc_nonneg by lia.
        replace (2 ^ k) with (2 ^ (-1 + k) * 2) in DV by (change 2 with (2 ^ 1) at 2; rewrite <- two_add by lia; f_equal; lia). lia.
  - destruct (Z.eq_dec e (-1)) as [->|Hn1].
    + rewrite Z.min_r by lia. change (2 ^ (-1 - -1)) with 1. replace (m * 1 + 1 * 1) with (m + 1) by lia. unfold rnd. destruct (Z.ltb_spec (m + 1) 0); [lia|].
      unfold rnd_pos. destruct (Z.eqb_spec (m + 1) 0); [lia|]. set (k := Z.max (Z.log2 (m + 1) - 23) (-149 - -1)).
      assert (NE : nearest m (-1) = (m + 1) / 2).
      { unfold nearest. change (0 <=? -1) with false. cbn iota. change (2 ^ - -1) with 2. rewrite Z.sgn_pos, Z.abs_eq by lia. lia. }
      rewrite NE. destruct (Z.eq_dec (m + 1) (2 ^ 24)) as [EQ|NQ].
      * assert (K1 : k = 1) by (unfold k; rewrite EQ; reflexivity). rewrite K1, EQ. exists (2 ^ 23), 0. split; reflexivity.
      * pose proof (log2_small (m + 1) 23 ltac:(lia) ltac:(lia) ltac:(change (2 ^ (23 + 1)) with (2 ^ 24); lia)). destruct (Z.leb_spec k 0); [|lia].
        destruct (finish_trunc (m + 1) (-1) ltac:(lia)) as (M & E & F & T). exists M, E. split; [exact F|]. rewrite T, ztrunc_neg by lia. reflexivity.
    + rewrite Z.min_l by lia. replace (e - e) with 0 by lia. change (2 ^ 0) with 1. set (d := - e) in *. assert (Hd : 2 <= d <= 149) by lia.
      replace (-1 - e) with (d - 1) by lia. replace e with (- d) in * by lia. pose proof (two_pos (d - 1) ltac:(lia)) as Pd.
      set (h := 2 ^ (d - 1)) in *. replace (m * 1 + 1 * h) with (m + h) by lia.
      unfold rnd. destruct (Z.ltb_spec (m + h) 0); [lia|]. unfold rnd_pos. destruct (Z.eqb_spec (m + h) 0); [lia|]. set (k := Z.max (Z.log2 (m + h) - 23) (-149 - - d)).
      assert (D2 : 2 ^ d = 2 * h) by (unfold h; replace d with (1 + (d - 1)) at 1 by lia; rewrite two_add by lia; reflexivity).
      assert (NE : nearest m (- d) = (m + h) / (2 * h)).
      { unfold nearest. destruct (Z.leb_spec 0 (- d)); [lia|]. rewrite Z.opp_involutive, Z.sgn_pos, Z.abs_eq, D2 by lia. rewrite Z.mul_1_l.
        replace (2 * m + 2 * h) with ((m + h) * 2) by lia. replace (2 * (2 * h)) with ((2 * h) * 2) by lia. apply Z.div_mul_cancel_r; lia. }
      rewrite NE. destruct (Z.le_gt_cases 25 d) as [BD|BD].
      * pose proof (two_le 24 (d - 1) ltac:(lia)) as H24. fold h in H24.
        assert (L : Z.log2 (m + h) = d - 1) by (apply log2_val; [lia|]; replace (d - 1 + 1) with d by lia; rewrite D2; fold h; lia).
        assert (K : k = d - 24) by lia. destruct (Z.leb_spec k 0); [lia|].
        assert (HK : h = 2 ^ 23 * 2 ^ k) by (unfold h; rewrite <- two_add by lia; f_equal; lia). pose proof (two_pos k ltac:(lia)) as Pk.
        pose proof (rhe_near (m + h) (2 ^ k) Pk) as RN. set (y := rhe (m + h) (2 ^ k)) in *.
        assert (Y : 0 <= y < 2 ^ 24).
        { split; [nia|]. destruct (Z.lt_ge_cases y (2 ^ 24)) as [G|G]; [exact G|]. exfalso.
          assert (B : 2 ^ k * 2 ^ 24 <= 2 ^ k * y) by (apply Z.mul_le_mono_nonneg_l; lia).
          assert (k = 1 \/ 2 <= k) as [K1|K1] by lia.
          - apply HO. left. rewrite K1 in *. change (2 ^ 1) with 2 in *. split; [rewrite Z.abs_eq by lia; lia|lia].
          - pose proof (two_le 2 k ltac:(lia)) as P4. change (2 ^ 2) with 4 in P4. lia. }
        destruct (finish_trunc y (- d + k) ltac:(lia)) as (M & E & F & T). exists M, E. split; [exact F|]. rewrite T, ztrunc_neg by lia.
        replace (- (- d + k)) with 24 by lia. rewrite Z.div_small by lia. symmetry. apply Z.div_small. lia.
      * assert (U : m + h < 2 ^ 25) by (pose proof (two_le (d - 1) 23 ltac:(lia)) as HH; fold h in HH; change (2 ^ 25) with (2 ^ 24 + 2 * 2 ^ 23); lia).
        destruct (Z.lt_ge_cases (m + h) (2 ^ 24)) as [S|S].
        -- pose proof (log2_small (m + h) 23 ltac:(lia) ltac:(lia) ltac:(change (2 ^ (23 + 1)) with (2 ^ 24); lia)). destruct (Z.leb_spec k 0); [|lia].
           destruct (finish_trunc (m + h) (- d) ltac:(lia)) as (M & E & F & T). exists M, E. split; [exact F|]. rewrite T, ztrunc_neg by lia. rewrite Z.opp_involutive, D2. reflexivity.
        -- assert (L : Z.log2 (m + h) = 24) by (apply log2_val; [lia|]; change (24 + 1) with 25; lia). replace k with 1 by lia. change (1 <=? 0) with false. cbn iota. change (2 ^ 1) with 2.
           destruct (finish_trunc (rhe (m + h) 2) (- d + 1) ltac:(lia)) as (M & E & F & T). exists M, E. split; [exact F|].
           assert (Y : exists y, rhe (m + h) 2 = y /\ 0 <= y /\ (2 * y = m + h \/ 2 * y = m + h + 1 \/ 2 * y = m + h - 1)).
           { eexists. split; [reflexivity|]. pose proof (rhe_near (m + h) 2 ltac:(lia)). lia. }
           destruct Y as (y & RY & Y0 & Y). rewrite T, RY, ztrunc_neg by lia. replace (- (- d + 1)) with (d - 1) by lia. fold h.
           (* y / h and (m + h) / (2 * h): no multiple of h lies between *)
           assert (h24 : exists g, 2 ^ 24 = 2 * g * h).
           { exists (2 ^ (24 - d)). unfold h. rewrite <- Z.mul_assoc, <- two_add by lia. replace (24 - d + (d - 1)) with 23 by lia. reflexivity. }
           destruct h24 as (g & Hg). pose proof (Z.div_mod y h ltac:(lia)) as DM. pose proof (Z.mod_pos_bound y h Pd) as MB.
           destruct Y as [Y|[Y|Y]].
           ++ rewrite <- Y. rewrite Z.div_mul_cancel_l by lia. reflexivity.
           ++ apply Z.div_unique with (r := 2 * (y mod h) - 1); [|lia]. left. split; [|lia].
              destruct (Z.eq_dec (y mod h) 0) as [Z0|]; [|lia]. exfalso. rewrite Z0 in DM. set (q := y / h) in *.
              assert (A1 : 2 * (h * q) - 1 - h < 2 * g * h) by lia. assert (A2 : 2 * g * h < 2 * (h * q)) by lia.
              assert (B1 : g < q) by nia. assert (B2 : 2 * q - 1 <= 2 * g); [|lia]. assert (h * (2 * q - 1) < 2 * g * h + 1) by lia. nia.
           ++ apply Z.div_unique with (r := 2 * (y mod h) + 1); [|lia]. left. lia.
Qed.

(** ** The numbers themselves *)
Definition fval (m e : Z) : Q := inject_Z m * (2 # 1) ^ e.

Lemma p2_pos e : (0 < (2 # 1) ^ e)%Q.
Proof. apply Qpower_0_lt. reflexivity. Qed.
Lemma fval_shift m e s : 0 <= s -> (fval (m * 2 ^ s) e == fval m (e + s))%Q.
Proof.
  intros H. unfold fval. rewrite Qpower_plus by discriminate. rewrite inject_Z_mult, Zpower_Qpower by lia. change (inject_Z 2) with (2 # 1)%Q. ring.
Qed.
Lemma fval_int m : (fval m 0 == inject_Z m)%Q.
Proof. unfold fval. change ((2 # 1) ^ 0)%Q with 1%Q. ring. Qed.
Lemma fval_nonneg m e : 0 <= e -> (fval m e == inject_Z (m * 2 ^ e))%Q.
Proof. intros H. rewrite <- fval_int, fval_shift by exact H. reflexivity. Qed.
Lemma fval_val v : (fval v (-16) == val v)%Q.
Proof. unfold fval, val. change ((2 # 1) ^ (-16))%Q with (1 # 65536)%Q. unfold Qeq, Qmult, inject_Z. cbn [Qnum Qden]. lia. Qed.
Lemma fval_le a b e : (fval a e <= fval b e)%Q <-> a <= b.
Proof. unfold fval. rewrite Qmult_le_r by apply p2_pos. rewrite <- Zle_Qle. reflexivity. Qed.
Lemma fval_lt a b e : (fval a e < fval b e)%Q <-> a < b.
Proof. unfold fval. rewrite Qmult_lt_r by apply p2_pos. rewrite <- Zlt_Qlt. reflexivity. Qed.
Lemma fval_eq a b e : (fval a e == fval b e)%Q <-> a = b.
Proof.
  split; [|intros ->; reflexivity]. intros H. assert (a <= b /\ b <= a); [|lia]. rewrite <- (fval_le a b e), <- (fval_le b a e), H. split; apply Qle_refl.
Qed.
Lemma fval_sub a b e : (fval a e - fval b e == fval (a - b) e)%Q.
Proof. unfold fval. unfold Z.sub. rewrite inject_Z_plus, inject_Z_opp. ring. Qed.
Lemma fval_opp a e : (fval (- a) e == - fval a e)%Q.
Proof. unfold fval. rewrite inject_Z_opp. ring. Qed.
Lemma fval_abs a e : (Qabs (fval a e) == fval (Z.abs a) e)%Q.
Proof.
  unfold fval. rewrite Qabs_Qmult. rewrite (Qabs_pos ((2 # 1) ^ e)) by (apply Qlt_le_weak, p2_pos). reflexivity.
Qed.
Lemma fval_scale c a e : ((Zpos c # 1) * fval a e == fval (Zpos c * a) e)%Q.
Proof. unfold fval. rewrite inject_Z_mult. unfold inject_Z. ring. Qed.
Lemma frac_le c a b e : (fval a e <= (1 # c) * fval b e)%Q <-> Zpos c * a <= b.
Proof.
  rewrite <- (fval_le (Zpos c * a) b e), <- fval_scale. split; intros H.
  - apply (Qmult_le_l _ _ (Zpos c # 1) ltac:(reflexivity)) in H. rewrite Qmult_assoc in H. setoid_replace ((Zpos c # 1) * (1 # c))%Q with 1%Q in H by (unfold Qeq; cbn; lia). rewrite Qmult_1_l in H. exact H.
  - apply (Qmult_le_l _ _ (Zpos c # 1) ltac:(reflexivity)). rewrite Qmult_assoc. setoid_replace ((Zpos c # 1) * (1 # c))%Q with 1%Q by (unfold Qeq; cbn; lia). rewrite Qmult_1_l. exact H.
Qed.
Lemma frac_eq c a b e : (fval a e == (1 # c) * fval b e)%Q <-> Zpos c * a = b.
Proof.
  rewrite <- (fval_eq (Zpos c * a) b e), <- fval_scale. split; intros H.
  - rewrite H, Qmult_assoc. setoid_replace ((Zpos c # 1) * (1 # c))%Q with 1%Q by (unfold Qeq; cbn; lia). apply Qmult_1_l.
  - rewrite <- H, Qmult_assoc. setoid_replace ((1 # c) * (Zpos c # 1))%Q with 1%Q by (unfold Qeq; cbn; lia). symmetry. apply Qmult_1_l.
Qed.
(** Both sides over one exponent. *)
Lemma fval_down m e s : s <= e -> (fval m e == fval (m * 2 ^ (e - s)) s)%Q.
Proof. intros H. rewrite fval_shift by lia. replace (s + (e - s)) with e by lia. reflexivity. Qed.

Lemma nearest_half m e : (Qabs (inject_Z (nearest m e) - fval m e) <= 1 # 2)%Q /\
  ((Qabs (inject_Z (nearest m e) - fval m e) == 1 # 2)%Q -> (Qabs (fval m e) < Qabs (inject_Z (nearest m e)))%Q).
Proof.
  unfold nearest. destruct (Z.leb_spec 0 e) as [E|E].
  - rewrite fval_nonneg by exact E. setoid_replace (inject_Z (m * 2 ^ e) - inject_Z (m * 2 ^ e))%Q with 0%Q by ring. change (Qabs 0) with 0%Q. split; [discriminate|]. intros H. discriminate H.
  - set (P := 2 ^ (- e)). assert (PP : 0 < P) by (apply two_pos; lia). set (n := Z.sgn m * ((2 * Z.abs m + P) / (2 * P))).
    assert (IZ : forall a, (inject_Z a == fval (a * P) e)%Q).
    { intros a. rewrite <- fval_int. unfold P. replace (- e) with (0 - e) by lia. apply fval_down. lia. }
    rewrite IZ. rewrite fval_sub, !fval_abs. assert (ONE : (1 == fval P e)%Q) by (change 1%Q with (inject_Z 1); rewrite IZ; rewrite Z.mul_1_l; reflexivity).
    assert (HF : (1 # 2 == (1 # 2) * fval P e)%Q) by (rewrite <- ONE; reflexivity).
    pose proof (Z.div_mod (2 * Z.abs m + P) (2 * P) ltac:(lia)) as DM. pose proof (Z.mod_pos_bound (2 * Z.abs m + P) (2 * P) ltac:(lia)) as MB.
    set (q := (2 * Z.abs m + P) / (2 * P)) in *. set (r := (2 * Z.abs m + P) mod (2 * P)) in *.
    assert (NP : n * P - m = Z.sgn m * (q * P - Z.abs m)) by (unfold n; rewrite Z.mul_sub_distr_l, (Z.mul_comm (Z.sgn m) (Z.abs m)), Z.abs_sgn; ring).
    assert (Q0 : 0 <= q) by nia.
    assert (C : m = 0 \/ Z.abs (Z.sgn m) = 1) by lia.
    assert (AB : Z.abs (n * P - m) <= Z.abs (q * P - Z.abs m)) by (rewrite NP, Z.abs_mul; destruct C as [->|C]; [cbn [Z.sgn]; lia|rewrite C; lia]).
    split.
    + rewrite HF. apply frac_le. lia.
    + rewrite HF, frac_eq. intros T. apply fval_lt. destruct C as [->|C].
      { unfold n in T. cbn [Z.sgn] in T. lia. }
      unfold n. rewrite (Z.abs_mul _ P), Z.abs_mul, C. rewrite (Z.abs_eq q), (Z.abs_eq P) by lia. lia.
Qed.

(** ** Rounding *)
Lemma finish_val m e M E : finish m e = Fin M E -> (fval M E == fval m e)%Q.
Proof.
  unfold finish. destruct (Z.ltb_spec 104 e) as [L|L].
  - destruct (Z.ltb_spec (m * 2 ^ (e - 104)) (2 ^ 24)) as [X|X]; intros H; [|discriminate H]. injection H as <- <-. rewrite fval_shift by lia. replace (104 + (e - 104)) with e by lia. reflexivity.
  - destruct (Z.eqb_spec m (2 ^ 24)) as [->|N].
    + destruct (Z.eqb_spec e 104) as [X|X]; intros H; [discriminate H|]. injection H as <- <-. change (2 ^ 24) with (2 ^ 23 * 2 ^ 1). rewrite fval_shift by lia. reflexivity.
    + intros H. injection H as <- <-. reflexivity.
Qed.

(** A quotient 2p/n given by its whole part and one more bit, rounded.  With n = 1 and p = M this is 2M. *)
Definition sticky (p n : Z) : Z := 2 * (p / n) + (if p mod n =? 0 then 0 else 1).
(** The whole range below the smallest normal number. *)
Definition tiny (z : Z) (p n W : Z) : Prop := z < -149 /\ p < n * (2 ^ 24 * 2 ^ (-149 - z)) /\ 0 <= W <= 2 ^ 24 * 2 ^ (-149 - z).

Lemma rnd_quot p n z m e : 0 < n -> 0 < p -> 2 ^ 25 <= sticky p n -> rnd_pos (sticky p n) z = Fin m e ->
  exists W, (fval m e == fval W z)%Q /\ 0 <= W /\
    (2 ^ 24 * Z.abs (W * n - 2 * p) <= 2 * p \/ tiny z (2 * p) n W) /\
    (forall a s, 2 * p = n * (a * 2 ^ s) -> 0 <= s -> a < 2 ^ 24 -> -149 <= z + s -> W * n = 2 * p).
Proof.
  intros Hn Hp HQ. set (q := sticky p n) in *. unfold rnd_pos. destruct (Z.eqb_spec q 0); [lia|]. pose proof (log2_big q 25 ltac:(lia) HQ) as LB.
  set (k := Z.max (Z.log2 q - 23) (-149 - z)). destruct (Z.leb_spec k 0); [lia|]. intros F. apply finish_val in F.
  exists (rhe q (2 ^ k) * 2 ^ k). rewrite <- fval_shift in F by lia. split; [exact F|].
  pose proof (two_pos k ltac:(lia)) as Pk. pose proof (rhe_near q (2 ^ k) Pk) as RN. set (r := rhe q (2 ^ k)) in *.
  assert (R0 : 0 <= r) by nia. split; [nia|].
  pose proof (Z.log2_spec q ltac:(lia)) as [L1 L2]. unfold Z.succ in L2.
  assert (K2 : exists h, 2 ^ k = 4 * h /\ 0 < h).
  { exists (2 ^ (k - 2)). split; [|apply two_pos; lia]. change 4 with (2 ^ 2). rewrite <- two_add by lia. f_equal. lia. }
  destruct K2 as (h & K2 & Hh).
  (* the exact quotient is as near to the result as its stand-in *)
  pose proof (Z.div_mod p n ltac:(lia)) as DM. pose proof (Z.mod_pos_bound p n Hn) as MB.
  assert (HT : - (n * 2 ^ k) <= 2 * (2 * p - r * 2 ^ k * n) <= n * 2 ^ k /\ (q * n = 2 * p \/ (Z.odd q = true /\ (q - 1) * n < 2 * p < (q + 1) * n))).
  { unfold q, sticky in RN |- *. destruct (Z.eqb_spec (p mod n) 0) as [M0|M0].
    - rewrite Z.add_0_r in *. assert (P2 : 2 * (p / n) * n = 2 * p) by lia. split; [|left; exact P2]. fold q in RN. rewrite <- P2.
      replace (2 * (2 * (p / n) * n - r * 2 ^ k * n)) with ((2 * (2 * (p / n) - 2 ^ k * r)) * n) by ring. nia.
    - set (g := p / n) in *. assert (O : - (2 ^ k) + 2 <= 2 * (2 * g + 1 - 2 ^ k * r) <= 2 ^ k - 2).
      { rewrite K2 in *. set (x := h * r) in *. replace (4 * h * r) with (4 * x) in * by (unfold x; ring). lia. }
      assert (B : (2 * g) * n < 2 * p < (2 * g + 2) * n) by lia. split.
      + replace (r * 2 ^ k * n) with ((2 ^ k * r) * n) by ring. set (w := 2 ^ k * r) in *. nia.
      + right. replace (2 * g + 1 - 1) with (2 * g) by ring. replace (2 * g + 1 + 1) with (2 * g + 2) by ring. split; [|exact B].
        rewrite Z.odd_add, Z.odd_mul. reflexivity. }
  destruct HT as [HT HQn].
  assert (QL : forall c, 0 < c -> 2 ^ c <= q -> n * 2 ^ c <= 2 * p).
  { intros c Hc Hq. destruct HQn as [<-|(O & B1 & B2)]; [nia|]. assert (q <> 2 ^ c); [|nia]. intros ->. replace c with (1 + (c - 1)) in O by lia. rewrite two_add in O by lia.
    rewrite Z.odd_mul in O. discriminate. }
  assert (QU : forall c, 0 < c -> q < 2 ^ c -> 2 * p < n * 2 ^ c).
  { intros c Hc Hq. destruct HQn as [<-|(O & B1 & B2)]; nia. }
  split.
  - destruct (Z.le_gt_cases (-149 - z) (Z.log2 q - 23)) as [C|C].
    + left. assert (KL : k = Z.log2 q - 23) by lia. pose proof (QL (Z.log2 q) ltac:(lia) L1) as Q1. replace (Z.log2 q) with (k + 23) in Q1 by lia. rewrite two_add in Q1 by lia.
      change (2 ^ 24) with (2 * 2 ^ 23). lia.
    + right. assert (KL : k = -149 - z) by lia. pose proof (QU (Z.log2 q + 1) ltac:(lia) L2) as Q1.
      pose proof (two_le (Z.log2 q + 1) (k + 23) ltac:(lia)) as PL. rewrite (two_add k 23) in PL by lia. unfold tiny. rewrite <- KL. split; [lia|]. split; [|split; [nia|]].
      * change (2 ^ 24) with (2 * 2 ^ 23). nia.
      * assert (r <= 2 ^ 24); [|nia]. destruct (Z.le_gt_cases r (2 ^ 24)) as [|G]; [assumption|exfalso]. change (2 ^ 24) with (2 * 2 ^ 23) in G. nia.
  - intros a s E S0 A ZS. assert (QE : q = a * 2 ^ s).
    { destruct HQn as [Q1|(O & B1 & B2)]; [nia|]. exfalso. unfold q, sticky in O. destruct (Z.eqb_spec (p mod n) 0) as [M0|M0]; [rewrite Z.add_0_r, Z.odd_mul in O; discriminate|].
      assert (S1 : s = 0 \/ 1 <= s) by lia. destruct S1 as [->|S1].
      - change (2 ^ 0) with 1 in E. assert (q - 1 < a * 1 < q + 1) by nia. lia.
      - replace s with (1 + (s - 1)) in E by lia. rewrite two_add in E by lia. change (2 ^ 1) with 2 in E. apply M0.
        assert (EE : p = (a * 2 ^ (s - 1)) * n) by nia. rewrite EE. apply Z.mod_mul. lia. }
    assert (KS : k <= s).
    { pose proof (two_pos s S0). assert (U : q < 2 ^ (s + 23 + 1)). { replace (s + 23 + 1) with (s + 24) by lia. rewrite two_add by lia. nia. }
      pose proof (log2_small q (s + 23) ltac:(lia) ltac:(lia) U). lia. }
    assert (QK : q = (a * 2 ^ (s - k)) * 2 ^ k). { rewrite QE, <- Z.mul_assoc, <- two_add by lia. f_equal. f_equal. lia. }
    unfold r. rewrite QK, rhe_exact by lia. rewrite <- QK, QE. lia.
Qed.

Lemma rnd_pos_val M z m e : 0 <= M -> rnd_pos M z = Fin m e ->
  exists W, (fval m e == fval W z)%Q /\ 0 <= W /\
    (2 ^ 24 * Z.abs (W - M) <= M \/ tiny z M 1 W) /\
    (forall a s, M = a * 2 ^ s -> 0 <= s -> a < 2 ^ 24 -> -149 <= z + s -> W = M).
Proof.
  intros HM. unfold rnd_pos. destruct (Z.eqb_spec M 0) as [->|M0].
  { intros H. injection H as <- <-. exists 0. split; [unfold fval; change (inject_Z 0) with 0%Q; ring|]. split; [lia|]. split; [left; cbn; lia|]. intros. reflexivity. }
  set (k := Z.max (Z.log2 M - 23) (-149 - z)). destruct (Z.leb_spec k 0) as [K|K]; intros F; apply finish_val in F.
  { exists M. split; [exact F|]. split; [lia|]. split; [left; rewrite Z.sub_diag; cbn [Z.abs]; lia|]. intros. reflexivity. }
  exists (rhe M (2 ^ k) * 2 ^ k). rewrite <- fval_shift in F by lia. split; [exact F|].
  pose proof (two_pos k ltac:(lia)) as Pk. pose proof (rhe_near M (2 ^ k) Pk) as RN. set (r := rhe M (2 ^ k)) in *.
  pose proof (Z.log2_spec M ltac:(lia)) as [L1 L2]. unfold Z.succ in L2. pose proof (Z.log2_nonneg M) as L0.
  assert (R0 : 0 <= r) by nia. split; [nia|]. split.
  - destruct (Z.le_gt_cases (-149 - z) (Z.log2 M - 23)) as [C|C].
    + left. assert (KL : k = Z.log2 M - 23) by lia. replace (Z.log2 M) with (k + 23) in L1 by lia. rewrite two_add in L1 by lia. change (2 ^ 24) with (2 * 2 ^ 23). nia.
    + right. assert (KL : k = -149 - z) by lia. assert (PL : M < 2 ^ k * 2 ^ 23) by (rewrite <- two_add by lia; pose proof (two_le (Z.log2 M + 1) (k + 23) ltac:(lia)); lia).
      unfold tiny. rewrite <- KL. split; [lia|]. split; [|split; [nia|]].
      * change (2 ^ 24) with (2 * 2 ^ 23). nia.
      * assert (r <= 2 ^ 24); [|nia]. destruct (Z.le_gt_cases r (2 ^ 24)) as [|G]; [assumption|exfalso]. change (2 ^ 24) with (2 * 2 ^ 23) in G. nia.
  - intros a s E S0 A ZS. assert (KS : k <= s).
    { pose proof (two_pos s S0). assert (U : M < 2 ^ (s + 23 + 1)). { replace (s + 23 + 1) with (s + 24) by lia. rewrite two_add by lia. nia. }
      pose proof (log2_small M (s + 23) ltac:(lia) ltac:(lia) U). lia. }
    assert (QK : M = (a * 2 ^ (s - k)) * 2 ^ k). { rewrite E, <- Z.mul_assoc, <- two_add by lia. f_equal. f_equal. lia. }
    unfold r. rewrite QK, rhe_exact by lia. reflexivity.
Qed.
Lemma rnd_pos_fin M z : 0 <= M -> z + Z.log2 M <= 100 -> exists m e, rnd_pos M z = Fin m e.
Proof.
  intros HM H. unfold rnd_pos. destruct (Z.eqb_spec M 0) as [->|M0]; [eexists; eexists; reflexivity|]. pose proof (Z.log2_nonneg M).
  destruct (Z.leb_spec (Z.max (Z.log2 M - 23) (-149 - z)) 0).
  - destruct (finish_fin M z ltac:(lia)) as (m & e & F & _). eexists. eexists. exact F.
  - destruct (finish_fin (rhe M (2 ^ Z.max (Z.log2 M - 23) (-149 - z))) (z + Z.max (Z.log2 M - 23) (-149 - z)) ltac:(lia)) as (m & e & F & _). eexists. eexists. exact F.
Qed.

(** [y] stands for the exact number [x] after rounding. *)
Definition close (y x : Q) : Prop := (Qabs (y - x) <= (1 # 16777216) * Qabs x)%Q \/ (Qabs x < 1 # 1099511627776 /\ Qabs y < 1 # 1099511627776)%Q.

Lemma tiny_lt z p n W : 0 < n -> 0 <= p -> tiny z p n W -> (fval p z < inject_Z n * (1 # 1099511627776))%Q /\ (fval W z < 1 # 1099511627776)%Q.
Proof.
  intros N P0 (Z1 & P & W0 & W1).
  assert (B : 2 ^ 24 * 2 ^ (-149 - z) < 2 ^ (- z - 40)) by (rewrite <- two_add by lia; apply Z.pow_lt_mono_r; lia).
  assert (IZ : forall a, (inject_Z a * (1 # 1099511627776) == fval (a * 2 ^ (- z - 40)) z)%Q).
  { intros a. rewrite fval_shift by lia. replace (z + (- z - 40)) with (-40) by lia. reflexivity. }
  split; [rewrite IZ|setoid_replace (1 # 1099511627776)%Q with (inject_Z 1 * (1 # 1099511627776))%Q by reflexivity; rewrite IZ]; apply fval_lt; nia.
Qed.

Lemma rnd_close M z m e : rnd M z = Fin m e ->
  close (fval m e) (fval M z) /\
  (forall a s, M = a * 2 ^ s -> 0 <= s -> Z.abs a < 2 ^ 24 -> -149 <= z + s -> (fval m e == fval M z)%Q).
Proof.
  assert (POS : forall M m e, 0 <= M -> rnd_pos M z = Fin m e -> close (fval m e) (fval M z) /\
    (forall a s, M = a * 2 ^ s -> 0 <= s -> Z.abs a < 2 ^ 24 -> -149 <= z + s -> (fval m e == fval M z)%Q)).
  { clear M m e. intros M m e HM H. destruct (rnd_pos_val M z m e HM H) as (W & FW & W0 & CW & EW). split.
    - unfold close. rewrite FW, fval_sub, !fval_abs. destruct CW as [C|C].
      + left. apply frac_le. rewrite (Z.abs_eq M) by lia. exact C.
      + right. rewrite (Z.abs_eq M), (Z.abs_eq W) by lia. destruct (tiny_lt z M 1 W ltac:(lia) HM C) as [A B]. change (inject_Z 1) with 1%Q in A. rewrite Qmult_1_l in A. split; assumption.
    - intros a s E S A Z1. rewrite FW, (EW a s E S ltac:(lia) Z1). reflexivity. }
  unfold rnd. destruct (Z.ltb_spec M 0) as [N|N]; [|apply POS; exact N].
  destruct (rnd_pos (- M) z) as [m' e'| |] eqn:R; intros H; try discriminate H. cbn [fneg] in H. injection H as <- <-.
  destruct (POS (- M) m' e' ltac:(lia) R) as [C X]. split.
  - unfold close in *. rewrite !fval_opp in *. rewrite <- (Qabs_opp (- fval m' e' - fval M z)), <- (Qabs_opp (- fval m' e')). rewrite Qabs_opp in C.
    setoid_replace (- (- fval m' e' - fval M z))%Q with (fval m' e' - - fval M z)%Q by ring. setoid_replace (- - fval m' e')%Q with (fval m' e') by ring. exact C.
  - intros a s E S A Z1. rewrite fval_opp, (X (- a) s ltac:(lia) S ltac:(lia) Z1), fval_opp. ring.
Qed.
Lemma rnd_fin M z : z + Z.log2 (Z.abs M) <= 100 -> exists m e, rnd M z = Fin m e.
Proof.
  intros H. unfold rnd. destruct (Z.ltb_spec M 0) as [N|N].
  - destruct (rnd_pos_fin (- M) z ltac:(lia)) as (m & e & ->); [replace (- M) with (Z.abs M) by lia; exact H|]. eexists. eexists. reflexivity.
  - apply rnd_pos_fin; [exact N|]. replace M with (Z.abs M) by lia. exact H.
Qed.

Lemma trunc_near m e : (Qabs (inject_Z (ztrunc m e) - fval m e) < 1)%Q /\ (Qabs (inject_Z (ztrunc m e)) <= Qabs (fval m e))%Q.
Proof.
  unfold ztrunc. destruct (Z.leb_spec 0 e) as [E|E].
  - rewrite fval_nonneg by exact E. setoid_replace (inject_Z (m * 2 ^ e) - inject_Z (m * 2 ^ e))%Q with 0%Q by ring. split; [reflexivity|apply Qle_refl].
  - set (P := 2 ^ (- e)). assert (PP : 0 < P) by (apply two_pos; lia).
    assert (IZ : forall a, (inject_Z a == fval (a * P) e)%Q).
    { intros a. rewrite <- fval_int. unfold P. replace (- e) with (0 - e) by lia. apply fval_down. lia. }
    change 1%Q with (inject_Z 1). rewrite (IZ 1), (IZ (m ÷ P)). rewrite fval_sub, !fval_abs.
    pose proof (Z.quot_rem m P ltac:(lia)) as QR. pose proof (Z.rem_bound_abs m P ltac:(lia)) as RB.
    assert (SG : Z.abs (m ÷ P * P) <= Z.abs m).
    { rewrite Z.abs_mul, (Z.abs_eq P) by lia. rewrite <- Z.quot_abs by lia. rewrite (Z.abs_eq P) by lia. rewrite Z.quot_div_nonneg by lia. pose proof (Z.mul_div_le (Z.abs m) P PP). lia. }
    split; [apply fval_lt|apply fval_le]; lia.
Qed.
Lemma whole_eq a b : (Qabs (inject_Z a - inject_Z b) < 1)%Q -> a = b.
Proof.
  intros H. apply Qabs_Qlt_condition in H as [H1 H2]. unfold Qminus in *. rewrite <- inject_Z_opp, <- inject_Z_plus in H1, H2.
  change (- (1))%Q with (inject_Z (-1)) in H1. change 1%Q with (inject_Z 1) in H2. rewrite <- Zlt_Qlt in H1, H2. lia.
Qed.
Lemma trunc_exact m e n : (fval m e == inject_Z n)%Q -> ztrunc m e = n.
Proof. intros H. apply whole_eq. rewrite <- H. apply trunc_near. Qed.

Lemma close_trunc m e x : close (fval m e) x -> (Qabs (inject_Z (ztrunc m e) - x) < 1 + (1 # 16777216) * Qabs x)%Q.
Proof.
  intros C. destruct (trunc_near m e) as [T1 T2]. set (y := fval m e) in *. set (t := ztrunc m e) in *. destruct C as [C|[C1 C2]].
  - setoid_replace (inject_Z t - x)%Q with ((inject_Z t - y) + (y - x))%Q by ring. eapply Qle_lt_trans; [apply Qabs_triangle|]. lra.
  - assert (Z0 : t = 0). { apply whole_eq. change (inject_Z 0) with 0%Q. setoid_replace (inject_Z t - 0)%Q with (inject_Z t) by ring. eapply Qle_lt_trans; [exact T2|]. lra. }
    rewrite Z0. change (inject_Z 0) with 0%Q. setoid_replace (0 - x)%Q with (- x)%Q by ring. rewrite Qabs_opp. lra.
Qed.
Lemma close_word m e x : close (fval m e) x -> (Qabs x <= inject_Z (2 ^ 31 - 128))%Q -> is_word (ztrunc m e).
Proof.
  intros C X. destruct (trunc_near m e) as [T1 T2]. assert (Y : (Qabs (fval m e) < inject_Z (2 ^ 31))%Q).
  { destruct C as [C|[C1 C2]].
    - setoid_replace (fval m e) with ((fval m e - x) + x)%Q by ring. eapply Qle_lt_trans; [apply Qabs_triangle|].
      change (inject_Z (2 ^ 31)) with (2147483648 # 1)%Q. change (inject_Z (2 ^ 31 - 128)) with (2147483520 # 1)%Q in X. lra.
    - eapply Qlt_trans; [exact C2|reflexivity]. }
  pose proof (Qle_lt_trans _ _ _ T2 Y) as L. change (Qabs (inject_Z (ztrunc m e))) with (inject_Z (Z.abs (ztrunc m e))) in L. rewrite <- Zlt_Qlt in L. unfold is_word. lia.
Qed.

Lemma finish_single m e M E : 0 <= m <= 2 ^ 24 -> -149 <= e -> finish m e = Fin M E -> 0 <= M < 2 ^ 24 /\ -149 <= E <= 104.
Proof.
  intros Hm He. unfold finish. destruct (Z.ltb_spec 104 e) as [L|L].
  - pose proof (two_pos (e - 104) ltac:(lia)). destruct (Z.ltb_spec (m * 2 ^ (e - 104)) (2 ^ 24)); intros X; [|discriminate X]. injection X as <- <-. split; [nia|lia].
  - destruct (Z.eqb_spec m (2 ^ 24)) as [->|N].
    + destruct (Z.eqb_spec e 104); intros X; [discriminate X|]. injection X as <- <-. lia.
    + intros X. injection X as <- <-. lia.
Qed.
Lemma rnd_single M z : single (rnd M z).
Proof.
  assert (POS : forall N, 0 <= N -> match rnd_pos N z with Fin m e => 0 <= m < 2 ^ 24 /\ -149 <= e <= 104 | _ => True end).
  { intros N HN. unfold rnd_pos. destruct (Z.eqb_spec N 0) as [->|N0]; [lia|]. set (k := Z.max (Z.log2 N - 23) (-149 - z)).
    pose proof (Z.log2_spec N ltac:(lia)) as [L1 L2]. unfold Z.succ in L2. pose proof (Z.log2_nonneg N) as L0.
    destruct (Z.leb_spec k 0) as [K|K].
    - destruct (finish N z) eqn:F; try exact I. apply (finish_single N z); [|lia|exact F]. pose proof (two_le (Z.log2 N + 1) 24 ltac:(lia)). lia.
    - destruct (finish (rhe N (2 ^ k)) (z + k)) eqn:F; try exact I. apply (finish_single _ _ _ _) in F; [exact F| |lia].
      pose proof (two_pos k ltac:(lia)) as Pk. pose proof (rhe_near N (2 ^ k) Pk) as RN. set (r := rhe N (2 ^ k)) in *. split; [nia|].
      assert (PL : N < 2 ^ k * 2 ^ 24) by (rewrite <- two_add by lia; pose proof (two_le (Z.log2 N + 1) (k + 24) ltac:(lia)); lia).
      destruct (Z.le_gt_cases r (2 ^ 24)) as [|G]; [assumption|exfalso]. nia. }
  unfold rnd. destruct (Z.ltb_spec M 0) as [L|L].
  - specialize (POS (- M) ltac:(lia)). destruct (rnd_pos (- M) z); cbn [fneg single]; try exact I. lia.
  - specialize (POS M L). destruct (rnd_pos M z); cbn [single]; try exact I. lia.
Qed.

Lemma p2_lt_inv a b : (fval 1 a < fval 1 b)%Q -> a < b.
Proof.
  intros H. destruct (Z.lt_ge_cases a b) as [|G]; [assumption|exfalso]. rewrite (fval_down 1 a b G) in H. rewrite fval_lt in H. pose proof (two_pos (a - b) ltac:(lia)). lia.
Qed.
Lemma log2_bound M z : M <> 0 -> (Qabs (fval M z) < fval 1 100)%Q -> z + Z.log2 (Z.abs M) <= 100.
Proof.
  intros N H. rewrite fval_abs in H. pose proof (Z.log2_spec (Z.abs M) ltac:(lia)) as [L _]. pose proof (Z.log2_nonneg (Z.abs M)).
  assert (z + Z.log2 (Z.abs M) < 100); [|lia]. apply p2_lt_inv. rewrite <- fval_shift by lia. eapply Qle_lt_trans; [|exact H]. apply fval_le. lia.
Qed.

(** ** The operations *)
Lemma fval_mul a b m e : (fval (a * m) (b + e) == fval a b * fval m e)%Q.
Proof. unfold fval. rewrite Qpower_plus by discriminate. rewrite inject_Z_mult. ring. Qed.

Lemma of_int_close v : is_word v -> exists a b, f_of_int v = Fin a b /\ Z.abs a < 2 ^ 24 /\
  (Qabs (fval a b - inject_Z v) <= (1 # 16777216) * Qabs (inject_Z v))%Q /\ (Z.abs v <= 2 ^ 24 -> (fval a b == inject_Z v)%Q).
Proof.
  intros W. unfold is_word in W. unfold f_of_int. destruct (rnd_fin v 0) as (a & b & R).
  { destruct (Z.eq_dec v 0) as [->|]; [cbn; lia|]. pose proof (Z.log2_le_mono (Z.abs v) (2 ^ 31) ltac:(lia)). change (Z.log2 (2 ^ 31)) with 31 in H. lia. }
  exists a, b. split; [exact R|]. pose proof (rnd_single v 0) as SG. rewrite R in SG. cbn [single] in SG. split; [apply SG|].
  destruct (rnd_close v 0 a b R) as [C X]. unfold close in C. rewrite fval_int in C. split.
  - destruct C as [C|[C1 C2]]; [exact C|]. assert (v = 0). { apply whole_eq. setoid_replace (inject_Z v - inject_Z 0)%Q with (inject_Z v) by (change (inject_Z 0) with 0%Q; ring). eapply Qlt_trans; [exact C1|reflexivity]. }
    subst v. change (rnd 0 0) with (Fin 0 0) in R. injection R as <- <-. vm_compute. discriminate.
  - intros V. assert (V2 : Z.abs v < 2 ^ 24 \/ Z.abs v = 2 ^ 24) by lia. destruct V2 as [V2|V2].
    + rewrite (X v 0 ltac:(lia) ltac:(lia) V2 ltac:(lia)). apply fval_int.
    + rewrite (X (Z.sgn v * 2 ^ 23) 1); [apply fval_int| |lia| |lia].
      * rewrite <- Z.mul_assoc. change (2 ^ 23 * 2 ^ 1) with (2 ^ 24). rewrite <- V2. rewrite Z.mul_comm, Z.abs_sgn. reflexivity.
      * rewrite Z.abs_mul. lia.
Qed.

Lemma fval_zero e : (fval 0 e == 0)%Q.
Proof. unfold fval. change (inject_Z 0) with 0%Q. ring. Qed.
Lemma fval_nz m e : m <> 0 -> ~ (fval m e == 0)%Q.
Proof. intros N H. rewrite <- (fval_zero e) in H. apply fval_eq in H. contradiction. Qed.

Lemma close_opp y x : close y x -> close (- y) (- x).
Proof.
  unfold close. rewrite !Qabs_opp. setoid_replace (- y - - x)%Q with (- (y - x))%Q by ring. rewrite Qabs_opp. exact (fun H => H).
Qed.

Lemma div_pos a b m e : 0 < a < 2 ^ 24 -> 0 < m < 2 ^ 24 ->
  let q := sticky (a * 2 ^ 60) m in let z := b - e - 61 in let x := (fval a b / fval m e)%Q in
  (forall m' e', rnd_pos q z = Fin m' e' -> close (fval m' e') x /\
     (forall c t, 0 < c < 2 ^ 24 -> -149 <= t -> (x == fval c t)%Q -> (fval m' e' == x)%Q)) /\
  ((x < fval 1 99)%Q -> exists m' e', rnd_pos q z = Fin m' e').
Proof.
  intros Ha Hm q z x. set (p := a * 2 ^ 60) in *.
  assert (QB : 2 ^ 25 <= q).
  { unfold q, sticky. assert (2 ^ 36 <= p / m) by (apply Z.div_le_lower_bound; [lia|]; unfold p; change (2 ^ 60) with (2 ^ 24 * 2 ^ 36); nia). destruct (p mod m =? 0); lia. }
  assert (XE : (x * inject_Z m == fval (2 * p) z)%Q).
  { unfold x, fval. unfold p, z. replace (2 * (a * 2 ^ 60)) with (a * 2 ^ 61) by (change (2 ^ 61) with (2 * 2 ^ 60); ring). rewrite inject_Z_mult. change (inject_Z (2 ^ 61)) with ((2 # 1) ^ 61)%Q.
    replace (b - e - 61) with (b + - e + - (61)) by lia. rewrite !Qpower_plus by discriminate. rewrite !Qpower_opp. field. repeat split; try (apply Qnot_eq_sym, Qlt_not_eq, p2_pos). intros C. change 0%Q with (inject_Z 0) in C. rewrite inject_Z_injective in C. lia. }
  assert (MP : (0 < inject_Z m)%Q) by (change 0%Q with (inject_Z 0); rewrite <- Zlt_Qlt; lia).
  assert (XP : (0 < x)%Q).
  { apply (Qmult_lt_r _ _ (inject_Z m) MP). rewrite XE, Qmult_0_l. rewrite <- (fval_zero z). apply fval_lt. lia. }
  split.
  - intros m' e' R. destruct (rnd_quot p m z m' e' ltac:(lia) ltac:(lia) QB R) as (W & FW & W0 & CW & EW). split.
    + unfold close. rewrite FW. rewrite (Qabs_pos x) by lra. destruct CW as [C|C].
      * left. apply (Qmult_le_r _ _ (inject_Z m) MP). rewrite <- (Qabs_pos (inject_Z m)) at 1 by lra. rewrite <- Qabs_Qmult.
        setoid_replace ((fval W z - x) * inject_Z m)%Q with (inject_Z m * fval W z - x * inject_Z m)%Q by ring. rewrite <- Qmult_assoc, XE.
        setoid_replace (inject_Z m * fval W z)%Q with (fval (W * m) z) by (unfold fval; rewrite inject_Z_mult; ring). rewrite fval_sub, fval_abs. apply frac_le. exact C.
      * right. destruct (tiny_lt z (2 * p) m W ltac:(lia) ltac:(lia) C) as [A B]. rewrite fval_abs, (Z.abs_eq W) by lia. split; [|exact B].
        apply (Qmult_lt_r _ _ (inject_Z m) MP). rewrite XE. rewrite Qmult_comm. exact A.
    + intros c t Hc Ht XC. assert (TZ : z <= t).
      { destruct (Z.le_gt_cases z t) as [|G]; [assumption|exfalso]. rewrite XC in XE. setoid_replace (fval c t * inject_Z m)%Q with (fval (c * m) t) in XE by (unfold fval; rewrite inject_Z_mult; ring).
        rewrite (fval_down (2 * p) z t ltac:(lia)) in XE. apply fval_eq in XE. pose proof (two_pos (z - t) ltac:(lia)). assert (2 * p <= c * m) by nia.
        unfold p in H0. change (2 ^ 60) with (2 ^ 24 * 2 ^ 24 * 2 ^ 12) in H0. nia. }
      assert (PE : 2 * p = m * (c * 2 ^ (t - z))).
      { rewrite XC in XE. setoid_replace (fval c t * inject_Z m)%Q with (fval (m * c) t) in XE by (unfold fval; rewrite inject_Z_mult; ring). rewrite (fval_down (m * c) t z TZ) in XE. apply fval_eq in XE. lia. }
      pose proof (EW c (t - z) PE ltac:(lia) ltac:(lia) ltac:(lia)) as WE. rewrite FW.
      apply (Qmult_inj_r _ _ (inject_Z m)); [lra|]. rewrite XE, <- WE. unfold fval. rewrite inject_Z_mult. ring.
  - intros XB. apply rnd_pos_fin; [lia|]. replace q with (Z.abs q) by lia. apply log2_bound; [lia|]. rewrite fval_abs, Z.abs_eq by lia.
    assert (Q2 : q * m <= 2 * (2 * p)).
    { unfold q, sticky. pose proof (Z.mul_div_le p m ltac:(lia)). assert (1 <= p / m) by (apply Z.div_le_lower_bound; unfold p; lia). destruct (p mod m =? 0); nia. }
    apply (Qmult_lt_r _ _ (inject_Z m) MP). setoid_replace (fval q z * inject_Z m)%Q with (fval (q * m) z) by (unfold fval; rewrite inject_Z_mult; ring).
    eapply Qle_lt_trans; [apply fval_le; exact Q2|]. rewrite <- (fval_scale 2), <- XE. setoid_replace (fval 1 100) with ((2 # 1) * fval 1 99)%Q by reflexivity. rewrite Qmult_assoc.
    apply (Qmult_lt_r _ _ (inject_Z m) MP). lra.
Qed.

Lemma close_eq y y' x x' : (y == y')%Q -> (x == x')%Q -> close y x -> close y' x'.
Proof. unfold close. intros H1 H2. rewrite H1, H2. exact (fun H => H). Qed.

Lemma fdiv_close a b m e : Z.abs a < 2 ^ 24 -> Z.abs m < 2 ^ 24 -> m <> 0 -> let x := (fval a b / fval m e)%Q in
  (forall m' e', fdiv (Fin a b) (Fin m e) = Fin m' e' -> close (fval m' e') x /\
     (forall c t, Z.abs c < 2 ^ 24 -> -149 <= t -> (x == fval c t)%Q -> (fval m' e' == x)%Q)) /\
  ((Qabs x < fval 1 99)%Q -> exists m' e', fdiv (Fin a b) (Fin m e) = Fin m' e').
Proof.
  intros Ha Hm M0 x. unfold fdiv. destruct (Z.eqb_spec m 0) as [|_]; [contradiction|]. fold (sticky (Z.abs a * 2 ^ 60) (Z.abs m)).
  destruct (Z.eq_dec a 0) as [->|A0].
  { assert (X0 : (x == 0)%Q) by (unfold x; rewrite fval_zero; unfold Qdiv; ring). change (Z.abs 0 * 2 ^ 60) with 0. unfold sticky. rewrite Z.div_0_l, Z.mod_0_l by lia. change (2 * 0 + (if 0 =? 0 then 0 else 1)) with 0.
    assert (R : forall u, rnd (if xorb (0 <? 0) (m <? 0) then - 0 else 0) u = Fin 0 0) by (intros u; destruct (xorb (0 <? 0) (m <? 0)); reflexivity). rewrite R. split.
    - intros m' e' H. injection H as <- <-. split; [|intros; rewrite X0; apply fval_zero]. left. rewrite X0, fval_zero. discriminate.
    - intros _. eexists. eexists. reflexivity. }
  destruct (div_pos (Z.abs a) b (Z.abs m) e ltac:(lia) ltac:(lia)) as [D1 D2]. set (q := sticky (Z.abs a * 2 ^ 60) (Z.abs m)) in *. set (z := b - e - 61) in *.
  set (s := xorb (a <? 0) (m <? 0)).
  assert (XA : (fval (Z.abs a) b / fval (Z.abs m) e == if s then - x else x)%Q).
  { unfold x, s. pose proof (fval_nz m e M0) as NZ. destruct (Z.ltb_spec a 0); destruct (Z.ltb_spec m 0); cbn [xorb];
      rewrite ?(Z.abs_neq a), ?(Z.abs_eq a), ?(Z.abs_neq m), ?(Z.abs_eq m), ?fval_opp by lia; field; rewrite ?fval_opp; exact NZ. }
  assert (Q0 : 0 < q).
  { unfold q, sticky. assert (1 <= (Z.abs a * 2 ^ 60) / Z.abs m) by (apply Z.div_le_lower_bound; lia). destruct (Z.abs a * 2 ^ 60 mod Z.abs m =? 0); lia. }
  assert (RN : rnd (if s then - q else q) z = if s then fneg (rnd_pos q z) else rnd_pos q z).
  { unfold rnd. destruct s; [destruct (Z.ltb_spec (- q) 0)|destruct (Z.ltb_spec q 0)]; try lia; [rewrite Z.opp_involutive; reflexivity|reflexivity]. }
  assert (XN : (0 < fval (Z.abs a) b / fval (Z.abs m) e)%Q).
  { unfold Qdiv. apply Qmult_lt_0_compat; [|apply Qinv_lt_0_compat]; rewrite <- (fval_zero (if true then b else e)) at 1; [apply fval_lt; lia|]. cbn iota. rewrite (fval_zero b), <- (fval_zero e). apply fval_lt. lia. }
  rewrite RN. split.
  - intros m' e' H. destruct (rnd_pos q z) as [m1 e1| |] eqn:R; try (destruct s; discriminate H). destruct (D1 m1 e1 eq_refl) as [C X].
    assert (FM : (fval m' e' == if s then - fval m1 e1 else fval m1 e1)%Q) by (destruct s; injection H as <- <-; [apply fval_opp|reflexivity]). split.
    + destruct s.
      * apply (close_eq (- fval m1 e1) _ (- - x)); [symmetry; exact FM|ring|]. apply close_opp. exact (close_eq _ _ _ _ ltac:(reflexivity) XA C).
      * exact (close_eq _ _ _ _ ltac:(symmetry; exact FM) XA C).
    + intros c t Hc Ht XC. rewrite FM. assert (C0 : 0 < (if s then - c else c)).
      { rewrite <- (fval_lt _ _ t), fval_zero. eapply Qlt_le_trans; [exact XN|]. rewrite XA. destruct s; rewrite ?fval_opp, XC; apply Qle_refl. }
      assert (EQ : (fval m1 e1 == if s then - x else x)%Q).
      { rewrite <- XA. apply (X (if s then - c else c) t); [destruct s; lia|exact Ht|]. rewrite XA. destruct s; rewrite ?fval_opp, XC; reflexivity. }
      destruct s; rewrite EQ; ring.
  - intros XB. destruct D2 as (m1 & e1 & ->).
    + rewrite XA. eapply Qle_lt_trans; [|exact XB]. destruct s; [rewrite <- Qabs_opp|]; apply Qle_Qabs.
    + destruct s; eexists; eexists; reflexivity.
Qed.

Lemma fmul_close a b m e : let x := (fval a b * fval m e)%Q in
  (forall m' e', fmul (Fin a b) (Fin m e) = Fin m' e' -> close (fval m' e') x /\
     (forall c t, Z.abs c < 2 ^ 24 -> -149 <= t -> (x == fval c t)%Q -> (fval m' e' == x)%Q)) /\
  ((Qabs x < fval 1 99)%Q -> exists m' e', fmul (Fin a b) (Fin m e) = Fin m' e').
Proof.
  intros x. unfold fmul. assert (XE : (fval (a * m) (b + e) == x)%Q) by apply fval_mul. set (M := a * m) in *. set (z := b + e) in *. split.
  - intros m' e' R. destruct (rnd_close M z m' e' R) as [C X]. split; [exact (close_eq _ _ _ _ ltac:(reflexivity) XE C)|].
    intros c t Hc Ht XC. rewrite <- XE. rewrite XC in XE. destruct (Z.le_gt_cases z t) as [L|L].
    + apply (X c (t - z)); try lia. rewrite (fval_down c t z L) in XE. apply fval_eq in XE. exact XE.
    + rewrite (fval_down M z t ltac:(lia)) in XE. apply fval_eq in XE. pose proof (two_pos (z - t) ltac:(lia)). apply (X M 0); lia || nia.
  - intros XB. destruct (Z.eq_dec M 0) as [M0|N]; [rewrite M0; eexists; eexists; reflexivity|].
    apply rnd_fin, log2_bound; [exact N|]. rewrite XE. eapply Qlt_trans; [exact XB|reflexivity].
Qed.
