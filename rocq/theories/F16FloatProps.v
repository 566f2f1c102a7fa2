(** F16 and floats: C59. *)
From Verif Require Import Base BaseFacts F16Model F16Float F16Spec F16FloatProofs.
From Coq Require Import Qabs Qpower Lqa.
Local Open Scope Z_scope.

(** The word nearest to a number, the one farther from zero if there are two. *)
Definition nearest_word (r : Z) (x : Q) : Prop :=
  is_word r /\ (Qabs (val r - x) <= (1 # 2) * ulp)%Q /\ ((Qabs (val r - x) == (1 # 2) * ulp)%Q -> (Qabs x < Qabs (val r))%Q).
(** The numbers where the conversion goes wrong: the last float below half a step, and the odd words whose
    value is from 128 to 256. *)
Definition exceptional (x : Q) : Prop :=
  (Qabs x == 16777215 # 2199023255552)%Q \/
  exists k, Z.odd k = true /\ 2 ^ 23 <= Z.abs k < 2 ^ 24 /\ (x == val k)%Q.

Lemma val_inject r : (val r == inject_Z r * (1 # 65536))%Q.
Proof. unfold val, inject_Z, Qeq, Qmult. cbn [Qnum Qden]. lia. Qed.
Lemma fval_16 m e : (fval m e == fval m (e + 16) * (1 # 65536))%Q.
Proof. unfold fval. rewrite Qpower_plus by discriminate. change ((2 # 1) ^ 16)%Q with (65536 # 1)%Q. ring. Qed.
Lemma off_exceptional m e : off m (e + 16) -> exceptional (fval m e).
Proof.
  intros [[A E]|(E & O & B)].
  - left. replace e with (-41) by lia. rewrite fval_abs, A. reflexivity.
  - right. exists m. split; [exact O|]. split; [exact B|]. replace e with (-16) by lia. apply fval_val.
Qed.
Lemma scale_half a x : (Qabs (a * (1 # 65536) - x * (1 # 65536)) == Qabs (a - x) * (1 # 65536))%Q.
Proof. setoid_replace (a * (1 # 65536) - x * (1 # 65536))%Q with ((a - x) * (1 # 65536))%Q by ring. rewrite Qabs_Qmult. reflexivity. Qed.

Lemma mul_65536 m e : Z.abs m < 2 ^ 24 -> -149 <= e -> (e <= 87 -> fmul (Fin m e) (Fin 1 16) = Fin m (e + 16) \/ m = 0 /\ fmul (Fin m e) (Fin 1 16) = Fin 0 0).
Proof.
  intros M E E2. unfold fmul. rewrite Z.mul_1_r. unfold rnd, rnd_pos. destruct (Z.ltb_spec m 0) as [N|N].
  - left. destruct (Z.eqb_spec (- m) 0); [lia|]. pose proof (log2_small (- m) 23 ltac:(lia) ltac:(lia) ltac:(change (2 ^ (23 + 1)) with (2 ^ 24); lia)).
    destruct (Z.leb_spec (Z.max (Z.log2 (- m) - 23) (-149 - (e + 16))) 0); [|lia]. unfold finish. destruct (Z.ltb_spec 104 (e + 16)); [lia|]. destruct (Z.eqb_spec (- m) (2 ^ 24)); [lia|]. cbn [fneg]. f_equal. lia.
  - destruct (Z.eqb_spec m 0); [right; split; [assumption|reflexivity]|left]. pose proof (log2_small m 23 ltac:(lia) ltac:(lia) ltac:(change (2 ^ (23 + 1)) with (2 ^ 24); lia)).
    destruct (Z.leb_spec (Z.max (Z.log2 m - 23) (-149 - (e + 16))) 0); [|lia]. unfold finish. destruct (Z.ltb_spec 104 (e + 16)); [lia|]. destruct (Z.eqb_spec m (2 ^ 24)); [lia|]. reflexivity.
Qed.
Lemma round_pos m e : 0 < m -> f16_round (Fin m e) = to_int (fadd (Fin m e) (Fin 1 (-1))).
Proof.
  intros M. unfold f16_round, fgt, fcompare. set (z := Z.min e 0). pose proof (two_pos (e - z) ltac:(lia)). destruct (Z.compare_spec (m * 2 ^ (e - z)) (0 * 2 ^ (0 - z))); [nia|nia|reflexivity].
Qed.
Lemma round_neg m e : m < 0 -> f16_round (Fin m e) = to_int (fadd (Fin m e) (Fin (-1) (-1))).
Proof.
  intros M. unfold f16_round, fgt, flt, fcompare. set (z := Z.min e 0). pose proof (two_pos (e - z) ltac:(lia)). destruct (Z.compare_spec (m * 2 ^ (e - z)) (0 * 2 ^ (0 - z))); [nia|reflexivity|nia].
Qed.
Lemma fadd_neg m e n f : 0 < m -> 0 < n -> fadd (Fin (- m) e) (Fin (- n) f) = fneg (fadd (Fin m e) (Fin n f)).
Proof.
  intros M N. unfold fadd. set (z := Z.min e f). pose proof (two_pos (e - z) ltac:(lia)). pose proof (two_pos (f - z) ltac:(lia)). unfold rnd.
  destruct (Z.ltb_spec (- m * 2 ^ (e - z) + - n * 2 ^ (f - z)) 0); [|nia]. destruct (Z.ltb_spec (m * 2 ^ (e - z) + n * 2 ^ (f - z)) 0); [nia|]. f_equal. f_equal. ring.
Qed.
Lemma nearest_opp m e : nearest (- m) e = - nearest m e.
Proof. unfold nearest. destruct (Z.leb_spec 0 e); [lia|]. rewrite Z.abs_opp, Z.sgn_opp. lia. Qed.
Lemma off_opp m e : off (- m) e -> off m e.
Proof. unfold off. rewrite Z.abs_opp, Z.odd_opp. exact (fun H => H). Qed.

(** In range of the rounding: the exponent not large. *)
Lemma convert_core m e : Z.abs m < 2 ^ 24 -> -149 <= e <= 84 -> ~ off m (e + 16) -> f16_of_float (Fin m e) = int_ (nearest m (e + 16)).
Proof.
  intros M E O. unfold f16_of_float. destruct (mul_65536 m e M ltac:(lia) ltac:(lia)) as [->|[-> ->]].
  2:{ unfold nearest. destruct (0 <=? e + 16); reflexivity. }
  assert (C : m = 0 \/ 0 < m \/ m < 0) by lia. destruct C as [->|[P|P]].
  - unfold f16_round, fgt, flt, fcompare. rewrite !Z.mul_0_l. cbn. unfold nearest. destruct (0 <=? e + 16); reflexivity.
  - rewrite round_pos by exact P. destruct (add_half m (e + 16) ltac:(lia) ltac:(lia) O) as (M' & E' & -> & T). rewrite to_int_fin, T. reflexivity.
  - rewrite round_neg by exact P. replace m with (- (- m)) by lia. change (Fin (-1) (-1)) with (Fin (- (1)) (-1)). rewrite fadd_neg by lia.
    destruct (add_half (- m) (e + 16) ltac:(lia) ltac:(lia) (fun H => O (off_opp _ _ H))) as (M' & E' & -> & T). cbn [fneg]. rewrite to_int_fin, ztrunc_opp, T, (nearest_opp (- m)). reflexivity.
Qed.
Lemma int_word z : (is_word z -> int_ z = Ok z) /\ (~ is_word z -> int_ z = UB).
Proof.
  unfold is_word, int_, fits32. split; intros H.
  - destruct (Z.leb_spec (- 2 ^ 31) z); destruct (Z.ltb_spec z (2 ^ 31)); try lia. reflexivity.
  - destruct (Z.leb_spec (- 2 ^ 31) z); destruct (Z.ltb_spec z (2 ^ 31)); try lia; reflexivity.
Qed.

Lemma to_int_ok f r : to_int f = Ok r -> exists m e, f = Fin m e /\ r = ztrunc m e /\ is_word r.
Proof.
  destruct f as [m e| |]; [|discriminate|discriminate]. rewrite to_int_fin. intros H. exists m, e. split; [reflexivity|].
  unfold int_, fits32 in H. unfold is_word. destruct (Z.leb_spec (- 2 ^ 31) (ztrunc m e)); destruct (Z.ltb_spec (ztrunc m e) (2 ^ 31)); try discriminate H. apply Ok_inj in H. subst r. lia.
Qed.
Lemma to_int_cases f : (exists r, to_int f = Ok r) \/ to_int f = UB.
Proof. destruct f as [m e| |]; [|right; reflexivity|right; reflexivity]. rewrite to_int_fin. unfold int_. destruct (fits32 (ztrunc m e)); [left; eexists; reflexivity|right; reflexivity]. Qed.

(** What is known of a rounded result: near the exact one, defined below 2^31, undefined above. *)
Definition result (f : res Z) (x : Q) : Prop :=
  (forall r, f = Ok r -> is_word r /\ (Qabs (inject_Z r - x) < 1 + (1 # 16777216) * Qabs x)%Q) /\
  ((Qabs x <= inject_Z (2 ^ 31 - 128))%Q -> exists r, f = Ok r) /\
  ((inject_Z (2 ^ 31 + 256) <= Qabs x)%Q -> f = UB) /\
  (forall n, Z.abs n <= 2 ^ 24 -> (x == inject_Z n)%Q -> f = Ok n).
Lemma result_of f x :
  (forall m' e', f = Fin m' e' -> close (fval m' e') x /\ (forall c t, Z.abs c < 2 ^ 24 -> -149 <= t -> (x == fval c t)%Q -> (fval m' e' == x)%Q)) ->
  ((Qabs x < fval 1 99)%Q -> exists m' e', f = Fin m' e') -> result (to_int f) x.
Proof.
  intros H1 H2. split; [|split; [|split]].
  - intros r R. apply to_int_ok in R as (m & e & -> & -> & W). split; [exact W|]. apply close_trunc. apply (H1 m e eq_refl).
  - intros X. destruct H2 as (m & e & ->); [eapply Qle_lt_trans; [exact X|reflexivity]|]. rewrite to_int_fin. exists (ztrunc m e). apply int_word. eapply close_word; [apply (H1 m e eq_refl)|exact X].
  - intros X. destruct (to_int_cases f) as [[r R]|U]; [exfalso|exact U]. apply to_int_ok in R as (m & e & -> & -> & W). destruct (H1 m e eq_refl) as [C _]. apply close_trunc in C.
    unfold is_word in W. set (t := ztrunc m e) in *. assert (T : (Qabs (inject_Z t) <= inject_Z (2 ^ 31))%Q) by (change (Qabs (inject_Z t)) with (inject_Z (Z.abs t)); rewrite <- Zle_Qle; lia).
    assert (B : (Qabs x <= Qabs (inject_Z t - x) + Qabs (inject_Z t))%Q).
    { setoid_replace x with (- (inject_Z t - x) + inject_Z t)%Q at 1 by ring. eapply Qle_trans; [apply Qabs_triangle|]. rewrite Qabs_opp. apply Qle_refl. }
    change (inject_Z (2 ^ 31)) with (2147483648 # 1)%Q in T. change (inject_Z (2 ^ 31 + 256)) with (2147483904 # 1)%Q in X. lra.
  - intros n N XN. assert (XA : (Qabs x <= inject_Z (2 ^ 24))%Q). { rewrite XN. change (Qabs (inject_Z n)) with (inject_Z (Z.abs n)). rewrite <- Zle_Qle. exact N. }
    destruct H2 as (m & e & ->); [eapply Qle_lt_trans; [exact XA|reflexivity]|]. destruct (H1 m e eq_refl) as [_ X].
    assert (V2 : exists c t, Z.abs c < 2 ^ 24 /\ -149 <= t /\ (x == fval c t)%Q).
    { assert (D : Z.abs n < 2 ^ 24 \/ Z.abs n = 2 ^ 24) by lia. destruct D as [D|D].
      - exists n, 0. split; [exact D|]. split; [lia|]. rewrite fval_int. exact XN.
      - exists (Z.sgn n * 2 ^ 23), 1. split; [rewrite Z.abs_mul; lia|]. split; [lia|]. rewrite fval_nonneg by lia. rewrite XN. rewrite <- Z.mul_assoc. change (2 ^ 23 * 2 ^ 1) with (2 ^ 24).
        rewrite <- D, Z.mul_comm, Z.abs_sgn. reflexivity. }
    destruct V2 as (c & t & C1 & C2 & C3). rewrite to_int_fin, (trunc_exact m e n); [apply int_word; unfold is_word; lia|]. rewrite (X c t C1 C2 C3). exact XN.
Qed.

Lemma fadd_val m e n f : exists M z, fadd (Fin m e) (Fin n f) = rnd M z /\ (fval M z == fval m e + fval n f)%Q.
Proof.
  unfold fadd. eexists. eexists. split; [reflexivity|]. set (z := Z.min e f). rewrite (fval_down m e z), (fval_down n f z) by lia. unfold fval. rewrite inject_Z_plus. ring.
Qed.
Lemma rnd_result M z : result (to_int (rnd M z)) (fval M z).
Proof.
  apply result_of.
  - intros m e R. destruct (rnd_close M z m e R) as [C X]. split; [exact C|]. intros c t Hc Ht XC. destruct (Z.le_gt_cases z t) as [L|L].
    + apply (X c (t - z)); try lia. rewrite (fval_down c t z L) in XC. apply fval_eq in XC. exact XC.
    + rewrite (fval_down M z t ltac:(lia)) in XC. apply fval_eq in XC. pose proof (two_pos (z - t) ltac:(lia)). apply (X M 0); lia || nia.
  - intros XB. destruct (Z.eq_dec M 0) as [M0|N]; [rewrite M0; eexists; eexists; reflexivity|]. apply rnd_fin, log2_bound; [exact N|]. eapply Qlt_trans; [exact XB|reflexivity].
Qed.
(** A float too large in size. *)
Lemma convert_large m e : Z.abs m < 2 ^ 24 -> 85 <= e -> m <> 0 -> f16_of_float (Fin m e) = UB.
Proof.
  intros M E M0. unfold f16_of_float. assert (XB : (fval 1 85 <= Qabs (fval m (e + 16)))%Q).
  { rewrite fval_abs. rewrite (fval_down (Z.abs m) (e + 16) 85 ltac:(lia)). apply fval_le. pose proof (two_pos (e + 16 - 85) ltac:(lia)). nia. }
  destruct (fmul (Fin m e) (Fin 1 16)) as [m' e'|[|]|] eqn:F.
  - destruct (fmul_close m e 1 16) as [H _]. destruct (H m' e' F) as [_ X]. assert (XE : (fval m e * fval 1 16 == fval m (e + 16))%Q) by (rewrite <- fval_mul; rewrite Z.mul_1_r; reflexivity).
    specialize (X m (e + 16) M ltac:(lia) XE). rewrite XE in X. rewrite <- X in XB. clear F H XE X.
    assert (UBR : forall s, (s = 1 \/ s = -1) -> to_int (fadd (Fin m' e') (Fin s (-1))) = UB).
    { intros s HS. destruct (fadd_val m' e' s (-1)) as (N & z & -> & NV). destruct (rnd_result N z) as (_ & _ & U & _). apply U. rewrite NV.
      assert (SB : (Qabs (fval s (-1)) <= 1)%Q) by (destruct HS as [-> | ->]; vm_compute; discriminate).
      assert (B : (Qabs (fval m' e') <= Qabs (fval m' e' + fval s (-1)) + Qabs (fval s (-1)))%Q).
      { setoid_replace (fval m' e') with ((fval m' e' + fval s (-1)) + - fval s (-1))%Q at 1 by ring. eapply Qle_trans; [apply Qabs_triangle|]. rewrite Qabs_opp. apply Qle_refl. }
      assert (BIG : (inject_Z (2 ^ 31 + 257) <= fval 1 85)%Q) by (vm_compute; discriminate). change (inject_Z (2 ^ 31 + 257)) with (2147483905 # 1)%Q in BIG. change (inject_Z (2 ^ 31 + 256)) with (2147483904 # 1)%Q. lra. }
    assert (C : m' = 0 \/ 0 < m' \/ m' < 0) by lia. destruct C as [->|[P|P]].
    + exfalso. rewrite fval_zero in XB. apply (Qle_not_lt _ _ XB). reflexivity.
    + rewrite round_pos by exact P. apply UBR. lia.
    + rewrite round_neg by exact P. apply UBR. lia.
  - reflexivity.
  - reflexivity.
  - exfalso. unfold fmul, rnd in F. destruct (m * 1 <? 0).
    + unfold rnd_pos in F. destruct (- (m * 1) =? 0); [discriminate F|]. unfold finish in F.
      repeat match type of F with context [if ?b then _ else _] => destruct b end; discriminate F.
    + unfold rnd_pos in F. destruct (m * 1 =? 0); [discriminate F|]. unfold finish in F.
      repeat match type of F with context [if ?b then _ else _] => destruct b end; discriminate F.
Qed.

Lemma range_word m e : in_range (fval m e) -> Z.abs m < 2 ^ 24 -> is_word (nearest m (e + 16)).
Proof.
  intros R M. unfold is_word, nearest. destruct (Z.leb_spec 0 (e + 16)) as [E|E].
  - destruct R as [R1 R2]. rewrite fval_16, fval_nonneg in R1, R2 by exact E. set (n := m * 2 ^ (e + 16)) in *. unfold Qle, Qlt, Qmult, inject_Z in R1, R2. cbn [Qnum Qden] in R1, R2. lia.
  - pose proof (two_pos (- (e + 16)) ltac:(lia)) as P. set (p := 2 ^ (- (e + 16))) in *. assert ((2 * Z.abs m + p) / (2 * p) <= Z.abs m + 1) by (apply Z.div_le_upper_bound; [lia|]; nia).
    assert (0 <= (2 * Z.abs m + p) / (2 * p)) by (apply Z.div_pos; lia). nia.
Qed.
Lemma word_range m e : ~ in_range (fval m e) -> Z.abs m < 2 ^ 24 -> ~ is_word (nearest m (e + 16)).
Proof.
  intros R M W. apply R. unfold is_word, nearest in W. destruct (Z.leb_spec 0 (e + 16)) as [E|E].
  - unfold in_range. rewrite fval_16, fval_nonneg by exact E. set (n := m * 2 ^ (e + 16)) in *. unfold Qle, Qlt, Qmult, inject_Z. cbn [Qnum Qden]. lia.
  - unfold in_range. change (inject_Z (-32768)) with (fval (-32768) 0). change (inject_Z 32768) with (fval 32768 0). rewrite (fval_down (-32768) 0 e), (fval_down 32768 0 e) by lia. rewrite fval_le, fval_lt.
    assert (2 ^ 16 < 2 ^ (0 - e)) by (apply Z.pow_lt_mono_r; lia). lia.
Qed.

Theorem C59_convert : forall m e, single (Fin m e) -> ~ exceptional (fval m e) ->
  (in_range (fval m e) -> exists r, f16_of_float (Fin m e) = Ok r /\ nearest_word r (fval m e)) /\
  (~ in_range (fval m e) -> f16_of_float (Fin m e) = UB).
Proof.
  intros m e [M E] X. destruct (Z.le_gt_cases e 84) as [L|L].
  - rewrite (convert_core m e M ltac:(lia) (fun H => X (off_exceptional m e H))). split; intros R; [|apply int_word, word_range; assumption].
    pose proof (range_word m e R M) as W. exists (nearest m (e + 16)). split; [apply int_word, W|]. split; [exact W|]. destruct (nearest_half m (e + 16)) as [H1 H2].
    rewrite !val_inject, fval_16, scale_half, !Qabs_Qmult. change (Qabs (1 # 65536)) with (1 # 65536)%Q. unfold ulp. split; [lra|]. intros T. assert (T2 : (Qabs (inject_Z (nearest m (e + 16)) - fval m (e + 16)) == 1 # 2)%Q) by lra. specialize (H2 T2). lra.
  - destruct (Z.eq_dec m 0) as [->|N].
    + assert (Z0 : (fval 0 e == 0)%Q) by apply fval_zero. split; intros R.
      * exists 0. split; [reflexivity|]. unfold nearest_word, is_word. rewrite Z0. split; [lia|]. split; [vm_compute; discriminate|]. intros C. discriminate C.
      * exfalso. apply R. unfold in_range. rewrite Z0. split; [discriminate|reflexivity].
    + split; intros R; [exfalso|apply convert_large; assumption || lia]. destruct R as [R1 R2]. change (inject_Z (-32768)) with (fval (-32768) 0) in R1. change (inject_Z 32768) with (fval 32768 0) in R2.
      rewrite (fval_down m e 0 ltac:(lia)) in R1, R2. rewrite fval_le in R1. rewrite fval_lt in R2. assert (2 ^ 16 < 2 ^ (e - 0)) by (apply Z.pow_lt_mono_r; lia). nia.
Qed.
Print Assumptions C59_convert.

(** Half a step off the right way, yet the wrong word: the conversion adds one half in single precision. *)
Theorem C59_convert_refuted :
  (f16_of_float (Fin (2 ^ 24 - 1) (-41)) = Ok 1 /\ f16_of_float (Fin (- (2 ^ 24 - 1)) (-41)) = Ok (-1) /\ (fval (2 ^ 24 - 1) (-41) < (1 # 2) * ulp)%Q) /\
  (forall k, Z.odd k = true -> 2 ^ 23 <= Z.abs k < 2 ^ 24 -> (fval k (-16) == val k)%Q /\ f16_of_float (Fin k (-16)) = Ok (k + Z.sgn k)).
Proof.
  split; [repeat split|]. intros k O B. split; [apply fval_val|]. unfold f16_of_float. destruct (mul_65536 k (-16) ltac:(lia) ltac:(lia) ltac:(lia)) as [->|[-> _]]; [|cbn in B; lia].
  change (-16 + 16) with 0.
  assert (POS : forall j, Z.odd j = true -> 2 ^ 23 <= j < 2 ^ 24 -> exists M E, fadd (Fin j 0) (Fin 1 (-1)) = Fin M E /\ ztrunc M E = j + 1).
  { intros j OJ BJ. unfold fadd. change (Z.min 0 (-1)) with (-1). change (2 ^ (0 - -1)) with 2. change (2 ^ (-1 - -1)) with 1. replace (j * 2 + 1 * 1) with (2 * j + 1) by ring.
    unfold rnd, rnd_pos. destruct (Z.ltb_spec (2 * j + 1) 0); [lia|]. destruct (Z.eqb_spec (2 * j + 1) 0); [lia|].
    assert (L : Z.log2 (2 * j + 1) = 24) by (apply log2_val; [lia|]; change (2 ^ (24 + 1)) with (2 * 2 ^ 24); change (2 ^ 24) with (2 * 2 ^ 23) at 1; lia). rewrite L.
    change (Z.max (24 - 23) (-149 - -1)) with 1. change (1 <=? 0) with false. cbn iota. change (2 ^ 1) with 2. change (-1 + 1) with 0.
    assert (R : rhe (2 * j + 1) 2 = j + 1).
    { unfold rhe. replace ((2 * j + 1) / 2) with j by lia. replace ((2 * j + 1) mod 2) with 1 by lia. change (2 * 1 <? 2) with false. change (2 <? 2 * 1) with false. cbn iota. rewrite <- Z.negb_odd, OJ. reflexivity. }
    rewrite R. destruct (finish_trunc (j + 1) 0 ltac:(lia)) as (M & E & F & T). exists M, E. split; [exact F|]. rewrite T, ztrunc_nonneg by lia. lia. }
  assert (C : 0 < k \/ k < 0) by lia. destruct C as [P|P].
  - rewrite round_pos by exact P. destruct (POS k O ltac:(lia)) as (M & E & -> & T). rewrite to_int_fin, T, Z.sgn_pos by lia. apply int_word. unfold is_word. lia.
  - rewrite round_neg by exact P. replace k with (- (- k)) at 1 by lia. change (Fin (-1) (-1)) with (Fin (- (1)) (-1)). rewrite fadd_neg by lia.
    destruct (POS (- k)) as (M & E & -> & T); [rewrite Z.odd_opp; exact O|lia|]. cbn [fneg]. rewrite to_int_fin, ztrunc_opp, T, Z.sgn_neg by lia. replace (- (- k + 1)) with (k + -1) by lia. apply int_word. unfold is_word. lia.
Qed.
Print Assumptions C59_convert_refuted.

(** What is not a number becomes zero; what is infinite, or out of range, is undefined: no saturation. *)
Theorem C59_not_finite : f16_of_float NaN = Ok 0 /\ f16_of_float (Inf false) = UB /\ f16_of_float (Inf true) = UB.
Proof. repeat split. Qed.
Print Assumptions C59_not_finite.

Lemma convert_ulp m e r : single (Fin m e) -> f16_of_float (Fin m e) = Ok r ->
  (Qabs (val r - fval m e) <= ulp)%Q /\ ((Qabs (fval m e) < 1 # 1099511627776)%Q -> (Qabs (val r - fval m e) <= (1 # 2) * ulp)%Q).
Proof.
  intros SG H. assert (D : off m (e + 16) \/ ~ off m (e + 16)).
  { unfold off. destruct (Z.eq_dec (Z.abs m) (2 ^ 24 - 1)); destruct (Z.eq_dec (e + 16) (-25)); destruct (Z.eq_dec (e + 16) 0); destruct (Z.odd m); destruct (Z.le_gt_cases (2 ^ 23) (Z.abs m)); destruct (Z.lt_ge_cases (Z.abs m) (2 ^ 24)); try lia. }
  destruct D as [D|D].
  - destruct C59_convert_refuted as [(R1 & R2 & _) R3]. destruct D as [[A E]|(E & O & B)].
    + replace e with (-41) in * by lia. assert (C : m = 2 ^ 24 - 1 \/ m = - (2 ^ 24 - 1)) by lia. destruct C as [-> | ->]; [rewrite R1 in H|rewrite R2 in H]; apply Ok_inj in H; subst r; (split; [vm_compute; discriminate|intros C; discriminate C]).
    + replace e with (-16) in * by lia. destruct (R3 m O B) as [V R]. rewrite R in H. apply Ok_inj in H. subst r. split.
      * rewrite V. unfold val. setoid_replace ((m + Z.sgn m # 65536) - (m # 65536))%Q with (Z.sgn m # 65536)%Q by (unfold Qminus, Qeq, Qplus, Qopp; cbn [Qnum Qden]; rewrite Pos2Z.inj_mul; ring).
        unfold Qabs, ulp, Qle. cbn [Qnum Qden]. lia.
      * intros C. exfalso. rewrite fval_abs in C. assert (C2 : (fval (2 ^ 23) (-16) < 1 # 1099511627776)%Q) by (eapply Qle_lt_trans; [apply fval_le; apply B|exact C]). discriminate C2.
  - assert (B : (Qabs (val r - fval m e) <= (1 # 2) * ulp)%Q).
    { destruct SG as [M E]. destruct (Z.le_gt_cases e 84) as [L|L].
      - rewrite (convert_core m e M ltac:(lia) D) in H. destruct (int_word (nearest m (e + 16))) as [I1 I2]. assert (W : is_word (nearest m (e + 16)) \/ ~ is_word (nearest m (e + 16))) by (unfold is_word; lia).
        destruct W as [W|W]; [rewrite (I1 W) in H; apply Ok_inj in H; subst r|rewrite (I2 W) in H; discriminate H]. destruct (nearest_half m (e + 16)) as [H1 _].
        rewrite !val_inject, fval_16, scale_half. unfold ulp. lra.
      - destruct (Z.eq_dec m 0) as [->|N]; [|rewrite convert_large in H by (assumption || lia); discriminate H]. change (f16_of_float (Fin 0 e)) with (Ok 0) in H. apply Ok_inj in H. subst r. rewrite fval_zero. vm_compute. discriminate. }
    split; [|intros _; exact B]. unfold ulp in *. lra.
Qed.
Lemma rnd_id m e : single (Fin m e) -> m <> 0 -> rnd m e = Fin m e.
Proof.
  intros [M E] N0. unfold rnd, rnd_pos. destruct (Z.ltb_spec m 0) as [N|N].
  - destruct (Z.eqb_spec (- m) 0); [lia|]. pose proof (log2_small (- m) 23 ltac:(lia) ltac:(lia) ltac:(change (2 ^ (23 + 1)) with (2 ^ 24); lia)).
    destruct (Z.leb_spec (Z.max (Z.log2 (- m) - 23) (-149 - e)) 0); [|lia]. unfold finish. destruct (Z.ltb_spec 104 e); [lia|]. destruct (Z.eqb_spec (- m) (2 ^ 24)); [lia|]. cbn [fneg]. f_equal. lia.
  - destruct (Z.eqb_spec m 0); [lia|]. pose proof (log2_small m 23 ltac:(lia) ltac:(lia) ltac:(change (2 ^ (23 + 1)) with (2 ^ 24); lia)).
    destruct (Z.leb_spec (Z.max (Z.log2 m - 23) (-149 - e)) 0); [|lia]. unfold finish. destruct (Z.ltb_spec 104 e); [lia|]. destruct (Z.eqb_spec m (2 ^ 24)); [lia|]. reflexivity.
Qed.

(** A double is first rounded to a float. *)
Theorem C59_double : forall m e,
  (forall r, f16_of_double (Fin m e) = Ok r -> (Qabs (val r - fval m e) <= ulp + (1 # 16777216) * Qabs (fval m e))%Q) /\
  (single (Fin m e) -> f16_of_double (Fin m e) = f16_of_float (Fin m e)).
Proof.
  intros m e. split.
  - intros r H. change (f16_of_double (Fin m e)) with (f16_of_float (rnd m e)) in H. pose proof (rnd_single m e) as SG. destruct (rnd m e) as [m' e'|[|]|] eqn:R; try discriminate H.
    + destruct (rnd_close m e m' e' R) as [C _]. destruct (convert_ulp m' e' r SG H) as [U1 U2].
      assert (T : (Qabs (val r - fval m e) <= Qabs (val r - fval m' e') + Qabs (fval m' e' - fval m e))%Q).
      { setoid_replace (val r - fval m e)%Q with ((val r - fval m' e') + (fval m' e' - fval m e))%Q by ring. apply Qabs_triangle. }
      pose proof (Qabs_nonneg (fval m e)). destruct C as [C|[C1 C2]]; [lra|]. specialize (U2 C2).
      assert (T2 : (Qabs (fval m' e' - fval m e) <= Qabs (fval m' e') + Qabs (fval m e))%Q).
      { unfold Qminus. eapply Qle_trans; [apply Qabs_triangle|]. rewrite Qabs_opp. apply Qle_refl. }
      unfold ulp in *. lra.
    + exfalso. clear H SG. unfold rnd, rnd_pos, finish in R. repeat match type of R with context [if ?b then _ else _] => destruct b; try discriminate R end.
  - intros SG. change (f16_of_double (Fin m e)) with (f16_of_float (rnd m e)). destruct (Z.eq_dec m 0) as [->|N]; [reflexivity|]. rewrite rnd_id by assumption. reflexivity.
Qed.
Print Assumptions C59_double.

Lemma rnd_exp M m e : rnd M 0 = Fin m e -> 0 <= e.
Proof.
  assert (FE : forall a b, 0 <= b -> forall m e, finish a b = Fin m e -> 0 <= e).
  { intros a b B m0 e0. unfold finish. destruct (104 <? b); [destruct (a * 2 ^ (b - 104) <? 2 ^ 24)|destruct (a =? 2 ^ 24); [destruct (b =? 104)|]]; intros H; try discriminate H; injection H as <- <-; lia. }
  assert (PE : forall N m e, rnd_pos N 0 = Fin m e -> 0 <= e).
  { intros N m0 e0. unfold rnd_pos. destruct (N =? 0); [intros H; injection H as <- <-; lia|]. destruct (Z.leb_spec (Z.max (Z.log2 N - 23) (-149 - 0)) 0); intros H1; eapply FE; [|exact H1| |exact H1]; lia. }
  unfold rnd. destruct (M <? 0); [|apply PE]. destruct (rnd_pos (- M) 0) eqn:R; intros H; try discriminate H. injection H as <- <-. eapply PE. exact R.
Qed.

(** f() is exact up to 2^24 steps (256), and correctly rounded above. *)
Theorem C59_float : forall v, is_word v -> exists m e, f16_f v = Fin m e /\ single (Fin m e) /\
  (Qabs (fval m e - val v) <= (1 # 16777216) * Qabs (val v))%Q /\ (Z.abs v <= 2 ^ 24 -> (fval m e == val v)%Q).
Proof.
  intros v W. destruct (of_int_close v W) as (a & b & F & A & C & X). unfold f16_f. rewrite F. pose proof (rnd_exp v a b F) as B0.
  destruct (fdiv_close a b 1 16 A ltac:(cbn; lia) ltac:(lia)) as [D1 D2].
  assert (XE : (fval a b / fval 1 16 == fval a (b - 16))%Q).
  { unfold fval. unfold Z.sub. rewrite Qpower_plus by discriminate. change ((2 # 1) ^ (- (16)))%Q with (1 # 65536)%Q. change (inject_Z 1 * (2 # 1) ^ 16)%Q with (65536 # 1)%Q. field. }
  assert (XV : (fval a (b - 16) == fval a b * (1 # 65536))%Q).
  { rewrite (fval_16 a (b - 16)). replace (b - 16 + 16) with b by lia. reflexivity. }
  assert (VA : (Qabs (inject_Z v) <= inject_Z (2 ^ 31))%Q) by (change (Qabs (inject_Z v)) with (inject_Z (Z.abs v)); rewrite <- Zle_Qle; unfold is_word in W; lia).
  assert (T : (Qabs (fval a b) <= Qabs (fval a b - inject_Z v) + Qabs (inject_Z v))%Q).
  { setoid_replace (fval a b) with ((fval a b - inject_Z v) + inject_Z v)%Q at 1 by ring. apply Qabs_triangle. }
  destruct D2 as (m & e & R).
  { rewrite XE, XV, Qabs_Qmult. change (Qabs (1 # 65536)) with (1 # 65536)%Q. change (inject_Z (2 ^ 31)) with (2147483648 # 1)%Q in VA.
    assert (B : (65536 # 1 < fval 1 99)%Q) by reflexivity. lra. }
  exists m, e. split; [exact R|]. destruct (D1 m e R) as [_ D]. specialize (D a (b - 16) A ltac:(lia) XE). rewrite XE, XV in D. split; [|split].
  - unfold fdiv in R. change (1 =? 0) with false in R. cbn iota in R. pose proof (rnd_single (if xorb (a <? 0) (1 <? 0) then - (2 * (Z.abs a * 2 ^ 60 / Z.abs 1) + (if Z.abs a * 2 ^ 60 mod Z.abs 1 =? 0 then 0 else 1))
      else 2 * (Z.abs a * 2 ^ 60 / Z.abs 1) + (if Z.abs a * 2 ^ 60 mod Z.abs 1 =? 0 then 0 else 1)) (b - 16 - 61)) as SG. rewrite R in SG. exact SG.
  - rewrite D, val_inject, scale_half, Qabs_Qmult. change (Qabs (1 # 65536)) with (1 # 65536)%Q. lra.
  - intros V. rewrite D, (X V), val_inject. reflexivity.
Qed.
Print Assumptions C59_float.

(** Writing the float back gives the same word for all words up to 2^24 steps but the exceptional ones ... *)
Theorem C59_roundtrip : forall v, Z.abs v <= 2 ^ 24 -> Z.odd v && (2 ^ 23 <=? Z.abs v) = false -> f16_of_float (f16_f v) = Ok v.
Proof.
  intros v V O. destruct (C59_float v) as (m & e & F & SG & _ & X); [unfold is_word; lia|]. specialize (X V). rewrite F.
  assert (NX : ~ exceptional (fval m e)).
  { intros [C|(k & K1 & K2 & K3)].
    - rewrite X in C. unfold val, Qabs, Qeq in C. cbn [Qnum Qden] in C. lia.
    - rewrite X in K3. unfold val, Qeq in K3. cbn [Qnum Qden] in K3. assert (k = v) by lia. subst k. rewrite K1 in O. destruct (Z.leb_spec (2 ^ 23) (Z.abs v)); [discriminate O|lia]. }
  destruct (C59_convert m e SG NX) as [H _]. destruct H as (r & R & W & B & _).
  - unfold in_range. rewrite X. unfold val, Qle, Qlt, inject_Z. cbn [Qnum Qden]. lia.
  - rewrite R. f_equal. rewrite X in B. rewrite !val_inject, scale_half in B. unfold ulp in B. apply whole_eq. lra.
Qed.
Print Assumptions C59_roundtrip.

(** ... which move a step away from zero; and the largest 64 words become 32768, which has no word. *)
Theorem C59_roundtrip_refuted :
  (forall v, Z.odd v = true -> 2 ^ 23 <= Z.abs v < 2 ^ 24 -> f16_of_float (f16_f v) = Ok (v + Z.sgn v)) /\
  (forall v, 2 ^ 31 - 64 <= v < 2 ^ 31 -> f16_of_float (f16_f v) = UB).
Proof.
  split.
  - intros v O B. destruct C59_convert_refuted as [_ R]. destruct (R v O B) as [_ R2]. rewrite <- R2. f_equal.
    assert (R1 : rnd v 0 = Fin v 0) by (apply rnd_id; [cbn [single]; lia|lia]). unfold f16_f, f_of_int. rewrite R1. unfold fdiv. change (1 =? 0) with false. cbn iota.
    change (Z.abs 1) with 1. rewrite Z.div_1_r, Z.mod_1_r. change (0 =? 0) with true. cbn iota. change (1 <? 0) with false. rewrite xorb_false_r. change (0 - 16 - 61) with (-77).
    assert (RP : forall j, 2 ^ 23 <= j < 2 ^ 24 -> rnd_pos (2 * (j * 2 ^ 60) + 0) (-77) = Fin j (-16)).
    { intros j J. unfold rnd_pos. destruct (Z.eqb_spec (2 * (j * 2 ^ 60) + 0) 0); [lia|].
      assert (L : Z.log2 (2 * (j * 2 ^ 60) + 0) = 84) by (apply log2_val; [lia|]; change (2 ^ 84) with (2 ^ 23 * 2 ^ 61); change (2 ^ (84 + 1)) with (2 ^ 24 * 2 ^ 61); change (2 ^ 61) with (2 * 2 ^ 60); lia).
      rewrite L. change (Z.max (84 - 23) (-149 - -77)) with 61. change (61 <=? 0) with false. cbn iota. replace (2 * (j * 2 ^ 60) + 0) with (j * 2 ^ 61) by (change (2 ^ 61) with (2 * 2 ^ 60); ring).
      rewrite rhe_exact by lia. unfold finish. change (104 <? -77 + 61) with false. cbn iota. destruct (Z.eqb_spec j (2 ^ 24)); [lia|]. reflexivity. }
    unfold rnd. destruct (Z.ltb_spec v 0) as [N|N].
    + destruct (Z.ltb_spec (- (2 * (Z.abs v * 2 ^ 60) + 0)) 0); [|lia]. rewrite Z.opp_involutive, RP by lia. cbn [fneg]. f_equal. lia.
    + destruct (Z.ltb_spec (2 * (Z.abs v * 2 ^ 60) + 0) 0); [lia|]. rewrite RP by lia. f_equal. lia.
  - intros v B. assert (R : rnd v 0 = Fin (2 ^ 23) 8).
    { unfold rnd, rnd_pos. destruct (Z.ltb_spec v 0); [lia|]. destruct (Z.eqb_spec v 0); [lia|]. assert (L : Z.log2 v = 30) by (apply log2_val; [lia|]; change (2 ^ (30 + 1)) with (2 ^ 31); lia).
      rewrite L. change (Z.max (30 - 23) (-149 - 0)) with 7. change (7 <=? 0) with false. cbn iota. change (2 ^ 7) with 128. change (0 + 7) with 7.
      assert (Q : rhe v 128 = 2 ^ 24).
      { unfold rhe. replace (v / 128) with (2 ^ 24 - 1) by lia. assert (64 <= v mod 128) by lia. destruct (Z.ltb_spec (2 * (v mod 128)) 128); [lia|]. destruct (128 <? 2 * (v mod 128)); reflexivity. }
      rewrite Q. reflexivity. }
    unfold f16_f, f_of_int. rewrite R. reflexivity.
Qed.
Print Assumptions C59_roundtrip_refuted.

Lemma fcompare_spec m e n f : fcompare (Fin m e) (Fin n f) = Some (fval m e ?= fval n f)%Q.
Proof.
  unfold fcompare. f_equal. set (z := Z.min e f). rewrite (fval_down m e z), (fval_down n f z) by lia. set (a := m * 2 ^ (e - z)). set (b := n * 2 ^ (f - z)). symmetry.
  destruct (Z.compare_spec a b) as [H|H|H].
  - rewrite H. apply Qeq_alt. reflexivity.
  - apply Qlt_alt, fval_lt, H.
  - apply Qgt_alt, fval_lt, H.
Qed.
(** Comparisons are exact up to 2^24 steps; with what is not a number they are all false. *)
Theorem C59_compare : forall v, Z.abs v <= 2 ^ 24 ->
  (forall m e, (f16_gtf v (Fin m e) = true <-> fval m e < val v)%Q /\ (f16_ltf v (Fin m e) = true <-> val v < fval m e)%Q /\ (f16_eqf v (Fin m e) = true <-> val v == fval m e)%Q) /\
  (f16_gtf v NaN = false /\ f16_ltf v NaN = false /\ f16_eqf v NaN = false) /\
  (forall b, f16_gtf v (Inf b) = b /\ f16_ltf v (Inf b) = negb b /\ f16_eqf v (Inf b) = false).
Proof.
  intros v V. destruct (C59_float v) as (m & e & F & _ & _ & X); [unfold is_word; lia|]. specialize (X V). unfold f16_gtf, f16_ltf, f16_eqf, fgt, flt, feq. rewrite F. split; [|split].
  - intros n f. rewrite fcompare_spec, X. destruct (val v ?= fval n f)%Q eqn:C.
    + apply Qeq_alt in C. repeat split; intros H; try discriminate H; try reflexivity; try exact C; rewrite C in H; destruct (Qlt_irrefl _ H).
    + apply Qlt_alt in C. repeat split; intros H; try discriminate H; try reflexivity; try exact C; exfalso; lra.
    + apply Qgt_alt in C. repeat split; intros H; try discriminate H; try reflexivity; try exact C; exfalso; lra.
  - repeat split.
  - intros [|]; repeat split.
Qed.
Print Assumptions C59_compare.

(** Beyond, different numbers compare equal. *)
Theorem C59_compare_refuted : f16_eqf (2 ^ 24 + 1) (Fin 256 0) = true /\ ~ (val (2 ^ 24 + 1) == fval 256 0)%Q.
Proof. split; [reflexivity|]. intros H. discriminate H. Qed.
Print Assumptions C59_compare_refuted.

Lemma result_scaled f x y : (y == x * (1 # 65536))%Q -> result f x ->
  (forall r, f = Ok r -> is_word r /\ (Qabs (val r - y) < ulp + (1 # 16777216) * Qabs y)%Q) /\
  ((Qabs y <= 32767 # 1)%Q -> exists r, f = Ok r) /\ ((32769 # 1 <= Qabs y)%Q -> f = UB) /\ (forall n, Z.abs n <= 2 ^ 24 -> (y == val n)%Q -> f = Ok n).
Proof.
  intros E (R1 & R2 & R3 & R4). assert (EA : (Qabs y == Qabs x * (1 # 65536))%Q) by (rewrite E, Qabs_Qmult; reflexivity). split; [|split; [|split]].
  - intros r R. destruct (R1 r R) as [W B]. split; [exact W|]. rewrite EA, E, val_inject, scale_half. unfold ulp. lra.
  - intros H. apply R2. change (inject_Z (2 ^ 31 - 128)) with (2147483520 # 1)%Q. lra.
  - intros H. apply R3. change (inject_Z (2 ^ 31 + 256)) with (2147483904 # 1)%Q. lra.
  - intros n N H. apply R4; [exact N|]. rewrite E, val_inject in H. lra.
Qed.
(** The same from a number known to one part in 2^24 only. *)
Lemma result_wide f x x0 y : (y == x * (1 # 65536))%Q -> (Qabs (x0 - x) <= (1 # 16777216) * Qabs x)%Q -> result f x0 ->
  (forall r, f = Ok r -> is_word r /\ (Qabs (val r - y) < ulp + (1 # 4194304) * Qabs y)%Q) /\
  ((Qabs y <= 32767 # 1)%Q -> exists r, f = Ok r) /\ ((32769 # 1 <= Qabs y)%Q -> f = UB).
Proof.
  intros E D (R1 & R2 & R3 & _). assert (EA : (Qabs y == Qabs x * (1 # 65536))%Q) by (rewrite E, Qabs_Qmult; reflexivity).
  assert (T1 : (Qabs x0 <= Qabs (x0 - x) + Qabs x)%Q) by (setoid_replace x0 with ((x0 - x) + x)%Q at 1 by ring; apply Qabs_triangle).
  assert (T2 : (Qabs x <= Qabs (x0 - x) + Qabs x0)%Q).
  { setoid_replace x with (- (x0 - x) + x0)%Q at 1 by ring. eapply Qle_trans; [apply Qabs_triangle|]. rewrite Qabs_opp. apply Qle_refl. }
  pose proof (Qabs_nonneg x). split; [|split].
  - intros r R. destruct (R1 r R) as [W B]. split; [exact W|]. rewrite EA, E, val_inject, scale_half. unfold ulp.
    assert (T3 : (Qabs (inject_Z r - x) <= Qabs (inject_Z r - x0) + Qabs (x0 - x))%Q) by (setoid_replace (inject_Z r - x)%Q with ((inject_Z r - x0) + (x0 - x))%Q by ring; apply Qabs_triangle). lra.
  - intros H1. apply R2. change (inject_Z (2 ^ 31 - 128)) with (2147483520 # 1)%Q. lra.
  - intros H1. apply R3. change (inject_Z (2 ^ 31 + 256)) with (2147483904 # 1)%Q. lra.
Qed.

(** Multiplication by a float: within a step and one part in 2^24 of the exact product, for words up to 2^24
    steps; one part in 2^22 for all; exact when the product is a word of up to 2^24 steps; no saturation. *)
Theorem C59_mul : forall v m e, is_word v -> single (Fin m e) -> let x := (val v * fval m e)%Q in
  (forall r, f16_mulf v (Fin m e) = Ok r -> is_word r /\ (Qabs (val r - x) < ulp + (if Z.abs v <=? 2 ^ 24 then 1 # 16777216 else 1 # 4194304) * Qabs x)%Q) /\
  ((Qabs x <= 32767 # 1)%Q -> exists r, f16_mulf v (Fin m e) = Ok r) /\
  ((32769 # 1 <= Qabs x)%Q -> f16_mulf v (Fin m e) = UB) /\
  (forall n, Z.abs v <= 2 ^ 24 -> Z.abs n <= 2 ^ 24 -> (x == val n)%Q -> f16_mulf v (Fin m e) = Ok n).
Proof.
  intros v m e W SG x. destruct (of_int_close v W) as (a & b & F & A & C & X). unfold f16_mulf. rewrite F. destruct (fmul_close a b m e) as [M1 M2]. pose proof (result_of _ _ M1 M2) as R.
  assert (XE : (x == inject_Z v * fval m e * (1 # 65536))%Q) by (unfold x; rewrite val_inject; ring).
  assert (D : (Qabs (fval a b * fval m e - inject_Z v * fval m e) <= (1 # 16777216) * Qabs (inject_Z v * fval m e))%Q).
  { setoid_replace (fval a b * fval m e - inject_Z v * fval m e)%Q with ((fval a b - inject_Z v) * fval m e)%Q by ring. rewrite !Qabs_Qmult, Qmult_assoc. apply Qmult_le_compat_r; [exact C|apply Qabs_nonneg]. }
  destruct (Z.leb_spec (Z.abs v) (2 ^ 24)) as [V|V].
  - specialize (X V). assert (XE2 : (x == fval a b * fval m e * (1 # 65536))%Q) by (rewrite X; exact XE). destruct (result_scaled _ _ _ XE2 R) as (P1 & P2 & P3 & P4). split; [exact P1|]. split; [exact P2|]. split; [exact P3|]. intros n _. apply P4.
  - destruct (result_wide _ _ _ _ XE D R) as (P1 & P2 & P3). split; [exact P1|]. split; [exact P2|]. split; [exact P3|]. intros n V2. lia.
Qed.
Print Assumptions C59_mul.

(** Division by a float, the same; by zero undefined. *)
Theorem C59_div : forall v m e, is_word v -> single (Fin m e) -> m <> 0 -> let x := (val v / fval m e)%Q in
  (forall r, f16_divf v (Fin m e) = Ok r -> is_word r /\ (Qabs (val r - x) < ulp + (if Z.abs v <=? 2 ^ 24 then 1 # 16777216 else 1 # 4194304) * Qabs x)%Q) /\
  ((Qabs x <= 32767 # 1)%Q -> exists r, f16_divf v (Fin m e) = Ok r) /\
  ((32769 # 1 <= Qabs x)%Q -> f16_divf v (Fin m e) = UB) /\
  (forall n, Z.abs v <= 2 ^ 24 -> Z.abs n <= 2 ^ 24 -> (x == val n)%Q -> f16_divf v (Fin m e) = Ok n).
Proof.
  intros v m e W [M E] M0 x. destruct (of_int_close v W) as (a & b & F & A & C & X). unfold f16_divf. rewrite F. destruct (fdiv_close a b m e A M M0) as [M1 M2]. pose proof (result_of _ _ M1 M2) as R.
  pose proof (fval_nz m e M0) as NZ.
  assert (XE : (x == inject_Z v / fval m e * (1 # 65536))%Q) by (unfold x; rewrite val_inject; field; exact NZ).
  assert (D : (Qabs (fval a b / fval m e - inject_Z v / fval m e) <= (1 # 16777216) * Qabs (inject_Z v / fval m e))%Q).
  { setoid_replace (fval a b / fval m e - inject_Z v / fval m e)%Q with ((fval a b - inject_Z v) / fval m e)%Q by (field; exact NZ). unfold Qdiv. rewrite !Qabs_Qmult, Qmult_assoc. apply Qmult_le_compat_r; [exact C|apply Qabs_nonneg]. }
  destruct (Z.leb_spec (Z.abs v) (2 ^ 24)) as [V|V].
  - specialize (X V). assert (XE2 : (x == fval a b / fval m e * (1 # 65536))%Q) by (rewrite X; exact XE). destruct (result_scaled _ _ _ XE2 R) as (P1 & P2 & P3 & P4). split; [exact P1|]. split; [exact P2|]. split; [exact P3|]. intros n _. apply P4.
  - destruct (result_wide _ _ _ _ XE D R) as (P1 & P2 & P3). split; [exact P1|]. split; [exact P2|]. split; [exact P3|]. intros n V2. lia.
Qed.
Print Assumptions C59_div.
Theorem C59_div_zero : forall v e, is_word v -> f16_divf v (Fin 0 e) = UB.
Proof. intros v e W. destruct (of_int_close v W) as (a & b & F & _). unfold f16_divf. rewrite F. cbn [fdiv Z.eqb]. destruct (a =? 0); reflexivity. Qed.
Print Assumptions C59_div_zero.

(** 1.5, -0.7 (as a float), 200.0000153 (an exceptional number), 1.5 * 0.1f, 10 / 3, 1000 * 1000, 1.5 = 1.5 *)
Example C59_ex :
  f16_of_float (Fin 3 (-1)) = Ok 98304 /\ f16_of_float (Fin (-11744051) (-24)) = Ok (-45875) /\
  f16_of_float (Fin 13107201 (-16)) = Ok 13107202 /\
  f16_mulf 98304 (Fin 13421773 (-27)) = Ok 9830 /\ f16_divf 655360 (Fin 3 0) = Ok 218453 /\ f16_mulf 65536000 (Fin 1000 0) = UB /\
  f16_f 98304 = Fin (3 * 2 ^ 22) (-23) /\ f16_eqf 98304 (Fin 3 (-1)) = true /\ f16_of_double (Fin 3602879701896397 (-55)) = Ok 6554.
Proof. vm_compute. repeat split. Qed.
Example C59_convert_ex : exists m e, single (Fin m e) /\ ~ exceptional (fval m e) /\ in_range (fval m e) /\ ~ (fval m e == 0)%Q.
Proof.
  exists 3, (-1). split; [cbn; lia|]. split; [|split; [split; [discriminate|reflexivity]|discriminate]]. intros [H|(k & _ & K & H)]; [discriminate H|].
  assert (V : (fval 3 (-1) == 3 # 2)%Q) by reflexivity. rewrite V in H. unfold val, Qeq in H. cbn [Qnum Qden] in H. lia.
Qed.
