(** Properties C16, C17. *)
From Verif Require Import Base BaseFacts F16Model F16Spec.
Open Scope Z_scope.

Ltac qz := unfold in_range, val, ulp, is_word, Qminus in *; unfold Qeq, Qle, Qlt, Qplus, Qmult, Qopp, inject_Z in *; cbn [Qnum Qden] in *;
  rewrite ?Pos2Z.inj_mul in *.

Lemma s32_id : forall z, is_word z -> s32 z = z.
Proof. intros z H. unfold s32, is_word in *. rewrite Z.mod_small; lia. Qed.

Lemma int_ok : forall z, is_word z -> int_ z = Ok z.
Proof.
  intros z H. unfold int_, fits32, is_word in *. destruct (Z.leb_spec (- 2 ^ 31) z); [|lia].
  destruct (Z.ltb_spec z (2 ^ 31)); [reflexivity|lia].
Qed.

Lemma int_ub : forall z, ~ is_word z -> int_ z = UB.
Proof.
  intros z H. unfold int_, fits32, is_word in *. destruct (Z.leb_spec (- 2 ^ 31) z); [|reflexivity].
  destruct (Z.ltb_spec z (2 ^ 31)); [lia|reflexivity].
Qed.

(** * C16 *)
Theorem C16_int_exact : forall i, in_range (inject_Z i) -> exists r, f16_of_int i = Ok r /\ is_word r /\ (val r == inject_Z i)%Q.
Proof.
  intros i H. exists (i * 65536). unfold f16_of_int. rewrite s32_id by (qz; lia). split; [reflexivity|]. split; qz; lia.
Qed.
Print Assumptions C16_int_exact.

Theorem C16_add_exact : forall a b, is_word a -> is_word b -> in_range (val a + val b)%Q ->
  exists r, f16_add a b = Ok r /\ is_word r /\ (val r == val a + val b)%Q.
Proof. intros a b A B H. exists (a + b). unfold f16_add. rewrite int_ok by (qz; lia). split; [reflexivity|]. split; qz; lia. Qed.
Print Assumptions C16_add_exact.

Theorem C16_sub_exact : forall a b, is_word a -> is_word b -> in_range (val a - val b)%Q ->
  exists r, f16_sub a b = Ok r /\ is_word r /\ (val r == val a - val b)%Q.
Proof. intros a b A B H. exists (a - b). unfold f16_sub. rewrite int_ok by (qz; lia). split; [reflexivity|]. split; qz; lia. Qed.
Print Assumptions C16_sub_exact.

Theorem C16_mul_floor : forall a b, is_word a -> is_word b -> in_range (val a * val b)%Q ->
  exists r, f16_mul a b = Ok r /\ is_word r /\ (val r <= val a * val b)%Q /\ (val a * val b < val r + ulp)%Q.
Proof.
  intros a b A B H. unfold f16_mul. rewrite Z.shiftr_div_pow2 by lia.
  assert (E : 65536 * (a * b / 2 ^ 16) <= a * b < 65536 * (a * b / 2 ^ 16) + 65536).
  { pose proof (Z.div_mod (a * b) (2 ^ 16) ltac:(lia)) as D. pose proof (Z.mod_pos_bound (a * b) (2 ^ 16) ltac:(lia)).
    change (2 ^ 16) with 65536 in *. lia. }
  set (q := a * b / 2 ^ 16) in *. exists q.
  assert (W : is_word q) by (qz; lia).
  rewrite s32_id by assumption. split; [reflexivity|]. split; [assumption|]. clear W. split; qz; lia.
Qed.
Print Assumptions C16_mul_floor.

(** The quotient is cut toward zero. *)
Theorem C16_div_trunc : forall a b, is_word a -> is_word b -> b <> 0 -> in_range (val a / val b)%Q ->
  exists r, f16_div a b = Ok r /\ is_word r /\
    ((0 <= val a / val b)%Q -> (0 <= val r /\ val r <= val a / val b /\ val a / val b < val r + ulp)%Q) /\
    ((val a / val b <= 0)%Q -> (val r <= 0 /\ val a / val b <= val r /\ val r - ulp < val a / val b)%Q).
Proof.
  intros a b A B N H.
  assert (Eq : (val a / val b == Qmake (a * Z.sgn b) (Z.to_pos (Z.abs b)))%Q).
  { unfold val, Qdiv, Qinv, Qmult, Qeq. destruct b; cbn [Qnum Qden Z.sgn Z.abs Z.to_pos]; try lia. }
  unfold f16_div. destruct (Z.eqb_spec b 0); [lia|].
  assert (Q1 : Z.quot (a * 65536) b = Z.sgn b * Z.quot (a * 65536) (Z.abs b)).
  { destruct b; cbn [Z.sgn Z.abs]; [lia|lia|]. change (Z.neg p) with (- Z.pos p). rewrite Z.quot_opp_r by lia. lia. }
  rewrite Q1. set (d := Z.abs b) in *. assert (Hd : 0 < d) by lia.
  set (q := Z.quot (a * 65536) d).
  assert (Fq : (0 <= a -> 0 <= q /\ d * q <= a * 65536 < d * q + d) /\ (a <= 0 -> q <= 0 /\ d * q - d < a * 65536 <= d * q)).
  { unfold q. split; intros Ha.
    - pose proof (Z.quot_rem' (a * 65536) d). pose proof (Z.rem_bound_pos (a * 65536) d ltac:(lia) Hd).
      pose proof (Z.quot_pos (a * 65536) d ltac:(lia) Hd). lia.
    - pose proof (Z.quot_rem' (- (a * 65536)) d). pose proof (Z.rem_bound_pos (- (a * 65536)) d ltac:(lia) Hd).
      pose proof (Z.quot_pos (- (a * 65536)) d ltac:(lia) Hd). rewrite Z.quot_opp_l, Z.rem_opp_l in * by lia. lia. }
  assert (F0 : a = 0 -> q = 0) by (intros ->; apply Z.quot_0_l; lia).
  clearbody q.
  assert (Hs : Z.sgn b = 1 \/ Z.sgn b = -1) by lia.
  unfold in_range in H. setoid_rewrite Eq in H. setoid_rewrite Eq.
  assert (Hden : Z.pos (Z.to_pos d) = d) by lia.
  exists (Z.sgn b * q).
  assert (W : is_word (Z.sgn b * q)).
  { unfold is_word. unfold inject_Z, Qle, Qlt in H. cbn [Qnum Qden] in H. rewrite Hden in H.
    assert (L : - 2 ^ 31 * d <= (Z.sgn b * q) * d < 2 ^ 31 * d).
    { destruct Hs as [Es|Es]; rewrite Es in *; (destruct (Z.le_ge_cases 0 a) as [Sa|Sa];
      [destruct Fq as [F _]|destruct Fq as [_ F]]; specialize (F Sa); lia). }
    split; [apply (Z.mul_le_mono_pos_r _ _ d); lia|apply (Z.mul_lt_mono_pos_r d); lia]. }
  rewrite s32_id by assumption. split; [reflexivity|]. split; [assumption|].
  unfold Qminus, val, ulp, inject_Z, Qle, Qlt, Qplus, Qopp. cbn [Qnum Qden]. rewrite ?Pos2Z.inj_mul, Hden. 
  split; intros Sg; destruct Hs as [Es|Es]; rewrite Es in *;
    (destruct (Z.eq_dec a 0) as [A0|A0]; [rewrite (F0 A0), A0; lia|];
     destruct (Z.le_ge_cases 0 a) as [Sa|Sa]; [destruct Fq as [F _]|destruct Fq as [_ F]]; specialize (F Sa); lia).
Qed.
Print Assumptions C16_div_trunc.

Theorem C16_compare : forall a b,
  (f16_lt a b = true <-> (val a < val b)%Q) /\ (f16_gt a b = true <-> (val b < val a)%Q) /\ (f16_eq a b = true <-> (val a == val b)%Q).
Proof.
  intros a b. unfold f16_lt, f16_gt, f16_eq. qz. rewrite !Z.ltb_lt, Z.eqb_eq. repeat split; intros; lia.
Qed.
Print Assumptions C16_compare.

Example C16_example : f16_of_int (-3) = Ok (-196608) /\ f16_mul (-196608) 16384 = Ok (-49152) /\
  f16_mul (-1) 1 = Ok (-1) /\ f16_div (-196608) 131072 = Ok (-98304) /\ f16_div (-1) 131072 = Ok 0 /\
  f16_add 98304 (-32768) = Ok 65536 /\ f16_lt (-1) 0 = true.
Proof. repeat split; reflexivity. Qed.

(** * C17 *)
(** No saturation: a sum or difference out of range is undefined behaviour ... *)
Theorem C17_add_overflow : forall a b, is_word a -> is_word b ->
  (~ in_range (val a + val b)%Q -> f16_add a b = UB) /\ (~ in_range (val a - val b)%Q -> f16_sub a b = UB).
Proof.
  intros a b A B. unfold f16_add, f16_sub. split; intros H; apply int_ub; intros W; apply H; qz; lia.
Qed.
Print Assumptions C17_add_overflow.

(** ... a product or quotient wraps around: the low 32 bits of the exact result. *)
Theorem C17_mul_wraps : forall a b, exists r k, f16_mul a b = Ok r /\ is_word r /\
  (let exact := r + k * 2 ^ 32 in exact * 65536 <= a * b < (exact + 1) * 65536).
Proof.
  intros a b. unfold f16_mul. set (z := Z.shiftr (a * b) 16). exists (s32 z), ((z + 2 ^ 31) / 2 ^ 32).
  pose proof (Z.div_mod (z + 2 ^ 31) (2 ^ 32) ltac:(lia)) as D.
  pose proof (Z.mod_pos_bound (z + 2 ^ 31) (2 ^ 32) ltac:(lia)) as M.
  split; [reflexivity|]. split; [unfold is_word, s32; lia|].
  cbn zeta. replace (s32 z + (z + 2 ^ 31) / 2 ^ 32 * 2 ^ 32) with z by (unfold s32; lia).
  unfold z. rewrite Z.shiftr_div_pow2 by lia.
  pose proof (Z.div_mod (a * b) (2 ^ 16) ltac:(lia)). pose proof (Z.mod_pos_bound (a * b) (2 ^ 16) ltac:(lia)).
  change (2 ^ 16) with 65536 in *. lia.
Qed.
Print Assumptions C17_mul_wraps.

(** A value above the range comes out as one of the other sign: never saturated. *)
Theorem C17_mul_saturation_refuted : exists a b r, is_word a /\ is_word b /\ ~ in_range (val a * val b)%Q /\
  (0 < val a * val b)%Q /\ f16_mul a b = Ok r /\ (val r < 0)%Q.
Proof.
  exists (200 * 65536), (200 * 65536), (-1673527296). repeat split; try reflexivity; try (cbv; congruence).
  intros [_ H]. cbv in H. discriminate.
Qed.
Print Assumptions C17_mul_saturation_refuted.

Theorem C17_div_zero : forall a, f16_div a 0 = UB.
Proof. reflexivity. Qed.
Print Assumptions C17_div_zero.

(** [a = b = c]: b gets c; a gets c only if c is zero. *)
Theorem C17_chained_assignment : forall c, is_word c ->
  exists a, f16_chain c = Ok (a, c) /\ is_word a /\ (exists k, a = c * 65536 + k * 2 ^ 32) /\ (a = c <-> c = 0).
Proof.
  intros c W. exists (s32 (c * 65536)). split; [reflexivity|].
  assert (E : exists k, s32 (c * 65536) = c * 65536 + k * 2 ^ 32).
  { exists (- ((c * 65536 + 2 ^ 31) / 2 ^ 32)). unfold s32. rewrite Z.mod_eq by lia. lia. }
  split. { unfold s32, is_word. pose proof (Z.mod_pos_bound (c * 65536 + 2 ^ 31) (2 ^ 32) ltac:(lia)). lia. }
  split; [assumption|]. unfold is_word in W. split; [|intros ->; reflexivity]. destruct E as (k & ->).
  intros H. assert (D : c * 65535 = - k * 2 ^ 32) by lia.
  assert (Dv : (2 ^ 32 | c)).
  { apply (Z.gauss _ 65535); [exists (- k); lia|]. reflexivity. }
  destruct Dv as (m & ->). lia.
Qed.
Print Assumptions C17_chained_assignment.

Example C17_example : f16_add (2 ^ 31 - 1) 1 = UB /\ f16_chain 0 = Ok (0, 0) /\ f16_chain 65537 = Ok (65536, 65537) /\
  f16_assign 3 = Ok (3, 196608) /\ f16_div (- 2 ^ 31) (-1) = Ok 0.
Proof. repeat split; reflexivity. Qed.
