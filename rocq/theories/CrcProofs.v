(** Parity generator: shift registers compute polynomial remainders over GF(2). *)
From Verif Require Import Base BaseFacts BitVectorModel BitVectorSpec BitFieldProofs.
Local Open Scope N_scope.

(** ** Polynomial multiplication *)
Ltac xor_ac :=
  apply N.bits_inj; let k := fresh "k" in intros k; rewrite ?N.lxor_spec, ?N.bits_0;
  repeat match goal with |- context [N.testbit ?a k] => destruct (N.testbit a k) end; reflexivity.

Lemma double_shiftl : forall a, N.double a = N.shiftl a 1.
Proof. intros [|p]; reflexivity. Qed.

Lemma double_lxor : forall a b, N.double (N.lxor a b) = N.lxor (N.double a) (N.double b).
Proof. intros. rewrite !double_shiftl. apply N.shiftl_lxor. Qed.

Lemma pmul_double : forall q g, pmul (N.double q) g = N.double (pmul q g).
Proof. intros [|q] g; reflexivity. Qed.

Lemma pmul_succ_double : forall q g, pmul (N.succ_double q) g = N.lxor g (N.double (pmul q g)).
Proof. intros [|q] g; cbn; [rewrite N.lxor_0_r|]; reflexivity. Qed.

Lemma lxor_double_b : forall q b, N.lxor (N.double q) (N.b2n b) = if b then N.succ_double q else N.double q.
Proof. intros [|q] [|]; cbn; try reflexivity; destruct q; reflexivity. Qed.

Lemma pmul_pos_log2 : forall a b, 0 < b -> N.log2 (pmul_pos a b) = N.log2 (Npos a) + N.log2 b /\ 0 < pmul_pos a b.
Proof.
  induction a as [a IH|a IH|]; intros b Hb.
  - destruct (IH b Hb) as [E P]. cbn [pmul_pos].
    assert (L : N.log2 b < N.log2 (N.double (pmul_pos a b))).
    { rewrite N.double_spec, N.log2_double by lia. rewrite E. lia. }
    assert (D : N.log2 (N.lxor b (N.double (pmul_pos a b))) = N.log2 (N.double (pmul_pos a b))).
    { apply N.log2_bits_unique.
      - rewrite N.lxor_spec. rewrite (N.bits_above_log2 b) by lia.
        rewrite N.bit_log2; [reflexivity|]. rewrite N.double_spec. lia.
      - intros m Hm. rewrite N.lxor_spec. rewrite !N.bits_above_log2 by lia. reflexivity. }
    split.
    + rewrite D, N.double_spec, N.log2_double by lia. rewrite E.
      change (N.pos a~1) with (2 * N.pos a + 1). rewrite N.log2_succ_double by lia. lia.
    + destruct (N.lxor b (N.double (pmul_pos a b))) eqn:X; [|lia].
      cbn in D. lia.
  - destruct (IH b Hb) as [E P]. cbn [pmul_pos]. split.
    + rewrite N.double_spec, N.log2_double by lia. rewrite E.
      change (N.pos a~0) with (2 * N.pos a). rewrite N.log2_double by lia. lia.
    + rewrite N.double_spec. lia.
  - cbn [pmul_pos]. cbn. split; [reflexivity|assumption].
Qed.

Lemma pmul_ge : forall q n c, q <> 0 -> c < 2 ^ n -> 2 ^ n <= pmul q (2 ^ n + c).
Proof.
  intros [|q] n c Hq Hc; [congruence|]. cbn [pmul].
  assert (P : 0 < 2 ^ n + c) by (pose proof (N.pow_nonzero 2 n); lia).
  destruct (pmul_pos_log2 q (2 ^ n + c) P) as [E Q].
  assert (L : N.log2 (2 ^ n + c) = n).
  { apply N.log2_unique; [lia|]. rewrite N.pow_succ_r'. lia. }
  rewrite L in E. pose proof (N.log2_spec (pmul_pos q (2 ^ n + c)) Q) as [S _].
  rewrite E in S. eapply N.le_trans; [|exact S]. apply N.pow_le_mono_r; lia.
Qed.

Lemma succ_double_lxor : forall q, N.succ_double q = N.lxor (N.double q) 1.
Proof. intros q. exact (eq_sym (lxor_double_b q true)). Qed.

Lemma pmul_lxor_l : forall a b g, pmul (N.lxor a b) g = N.lxor (pmul a g) (pmul b g).
Proof.
  intros a. induction a as [|a IH|a IH] using N.binary_ind; intros b g.
  - rewrite !N.lxor_0_l. reflexivity.
  - destruct b as [|b|b] using N.binary_ind.
    + rewrite !N.lxor_0_r. reflexivity.
    + rewrite <- double_lxor, !pmul_double, IH, double_lxor. reflexivity.
    + replace (N.lxor (N.double a) (N.succ_double b)) with (N.succ_double (N.lxor a b))
        by (rewrite !succ_double_lxor, double_lxor; xor_ac).
      rewrite pmul_succ_double, pmul_double, pmul_succ_double, IH, double_lxor.
      xor_ac.
  - destruct b as [|b|b] using N.binary_ind.
    + rewrite !N.lxor_0_r. reflexivity.
    + replace (N.lxor (N.succ_double a) (N.double b)) with (N.succ_double (N.lxor a b))
        by (rewrite !succ_double_lxor, double_lxor; xor_ac).
      rewrite pmul_succ_double, pmul_double, pmul_succ_double, IH, double_lxor.
      xor_ac.
    + replace (N.lxor (N.succ_double a) (N.succ_double b)) with (N.double (N.lxor a b))
        by (rewrite !succ_double_lxor, double_lxor; xor_ac).
      rewrite !pmul_succ_double, pmul_double, IH, double_lxor.
      xor_ac.
Qed.

Lemma lt_pow2_bits : forall a n, a < 2 ^ n <-> (forall k, n <= k -> N.testbit a k = false).
Proof.
  intros a n. split.
  - intros H k Hk. destruct (N.eq_dec a 0) as [->|Z]; [apply N.bits_0|].
    apply N.bits_above_log2. apply N.log2_lt_pow2; [lia|].
    eapply N.lt_le_trans; [exact H|]. apply N.pow_le_mono_r; lia.
  - intros H. destruct (N.eq_dec a 0) as [->|Z].
    + pose proof (N.pow_nonzero 2 n). lia.
    + apply N.log2_lt_pow2; [lia|].
      destruct (N.lt_ge_cases (N.log2 a) n) as [L|L]; [assumption|].
      specialize (H _ L). rewrite N.bit_log2 in H by assumption. discriminate.
Qed.

Lemma lxor_lt_pow2 : forall a b n, a < 2 ^ n -> b < 2 ^ n -> N.lxor a b < 2 ^ n.
Proof.
  intros a b n Ha Hb. rewrite lt_pow2_bits in *. intros k Hk.
  rewrite N.lxor_spec, Ha, Hb by assumption. reflexivity.
Qed.

(** Remainders are unique. *)
Lemma remainder_unique : forall n c p r r',
  is_remainder n c p r -> is_remainder n c p r' -> r = r'.
Proof.
  intros n c p r r' [Hr [q Hq]] [Hr' [q' Hq']].
  assert (Hc : c mod 2 ^ n < 2 ^ n) by (apply N.mod_lt, N.pow_nonzero; lia).
  set (g := 2 ^ n + c mod 2 ^ n) in *.
  assert (E : pmul (N.lxor q q') g = N.lxor r r').
  { rewrite pmul_lxor_l. rewrite Hq in Hq'.
    assert (X : N.lxor (N.lxor (pmul q g) r) (N.lxor (pmul q' g) r') = 0)
      by (rewrite <- Hq'; apply N.lxor_nilpotent).
    apply N.lxor_eq.
    rewrite <- X. apply N.bits_inj. intros k. rewrite !N.lxor_spec.
    destruct (N.testbit (pmul q g) k), (N.testbit (pmul q' g) k), (N.testbit r k), (N.testbit r' k); reflexivity. }
  destruct (N.eq_dec (N.lxor q q') 0) as [Z|Z].
  - rewrite Z in E. cbn in E. symmetry in E. apply N.lxor_eq in E. assumption.
  - pose proof (pmul_ge _ _ _ Z Hc) as G. fold g in G. rewrite E in G.
    pose proof (lxor_lt_pow2 r r' n Hr Hr'). lia.
Qed.

(** ** Bit strings as polynomials *)
Lemma poly_snoc : forall l b, poly_of (l ++ [b]) = N.lxor (N.double (poly_of l)) (N.b2n b).
Proof.
  intros l b. unfold poly_of. rewrite be_value_snoc.
  rewrite lxor_double_b. pose proof (be_value_bounds l).
  destruct b; cbn [Z.b2z]; rewrite ?N.succ_double_spec, ?N.double_spec; lia.
Qed.

Lemma poly_bound : forall l, poly_of l < 2 ^ N.of_nat (length l).
Proof.
  intros l. unfold poly_of. pose proof (be_value_bounds l).
  assert (Z.of_N (2 ^ N.of_nat (length l)) = 2 ^ Z.of_nat (length l))%Z.
  { rewrite N2Z.inj_pow. rewrite nat_N_Z. reflexivity. }
  lia.
Qed.

Lemma mod_pow2_testbit : forall a n k, N.testbit (a mod 2 ^ n) k = (k <? n) && N.testbit a k.
Proof.
  intros a n k. destruct (N.ltb_spec k n).
  - rewrite N.mod_pow2_bits_low by assumption. reflexivity.
  - rewrite N.mod_pow2_bits_high by assumption. reflexivity.
Qed.

Lemma pow2_testbit : forall n k, N.testbit (2 ^ n) k = (k =? n).
Proof.
  intros. destruct (N.eqb_spec k n) as [->|E].
  - apply N.pow2_bits_true.
  - apply N.pow2_bits_false. congruence.
Qed.

(** The polynomial x^n + c as an exclusive or. *)
Lemma g_lxor : forall n c, 2 ^ n + c mod 2 ^ n = N.lxor (2 ^ n) (c mod 2 ^ n).
Proof.
  intros n c. apply N.add_nocarry_lxor.
  apply N.bits_inj. intros k. rewrite N.land_spec, pow2_testbit, mod_pow2_testbit, N.bits_0.
  destruct (N.eqb_spec k n), (N.ltb_spec k n); try reflexivity; lia.
Qed.

Lemma double_testbit : forall a k, N.testbit (N.double a) k = negb (k =? 0) && N.testbit a (k - 1).
Proof.
  intros a k. rewrite N.double_spec. destruct (N.eqb_spec k 0) as [->|E].
  - apply N.testbit_even_0.
  - replace k with (N.succ (k - 1)) at 1 by lia. apply N.testbit_even_succ; lia.
Qed.

Lemma b2n_testbit : forall b k, N.testbit (N.b2n b) k = (k =? 0) && b.
Proof.
  intros b k. destruct (N.eqb_spec k 0) as [->|E].
  - destruct b; reflexivity.
  - destruct b; cbn [N.b2n].
    + change 1 with (2 ^ 0). rewrite pow2_testbit. apply N.eqb_neq in E. rewrite E. reflexivity.
    + rewrite N.bits_0. reflexivity.
Qed.

(** ** The abstract registers *)
Definition syn_abs (n g : N) (r : N) (b : bool) : N :=
  let y := N.lxor (N.double r) (N.b2n b) in
  if N.testbit r (n - 1) then N.lxor y g else y.

Definition enc_abs (n g : N) (r : N) (b : bool) : N :=
  let y := N.double r in
  let y := if N.testbit r (n - 1) then N.lxor y (2 ^ n) else y in
  if xorb (N.testbit r (n - 1)) b then N.lxor y (N.lxor g (2 ^ n)) else y.

Lemma w64_shl_testbit : forall s k, N.testbit (w64 (N.shiftl s 1)) k = (k <? 64) && (negb (k =? 0) && N.testbit s (k - 1)).
Proof.
  intros s k. unfold w64. rewrite mod_pow2_testbit. f_equal.
  rewrite <- double_testbit. rewrite N.shiftl_mul_pow2, N.double_spec, N.mul_comm. reflexivity.
Qed.

Lemma land1 : forall x, N.land x 1 = N.b2n (N.testbit x 0).
Proof.
  intros x. apply N.bits_inj. intros k. rewrite N.land_spec, b2n_testbit.
  change 1 with (2 ^ 0). rewrite pow2_testbit. destruct (N.eqb_spec k 0) as [->|E].
  - rewrite andb_true_r. reflexivity.
  - apply andb_false_r.
Qed.

Lemma b2n_eqb0 : forall b, (N.b2n b =? 0) = negb b.
Proof. destruct b; reflexivity. Qed.

Lemma inbit_odd : forall c, N.testbit (inbit c) 0 = Z.odd c.
Proof.
  intros c. unfold inbit. rewrite N.bit0_odd. unfold u32.
  assert (0 <= c mod 2 ^ 32)%Z by (apply Z.mod_pos_bound; lia).
  replace (N.odd (Z.to_N (c mod 2 ^ 32))) with (Z.odd (c mod 2 ^ 32)).
  - rewrite <- !Z.bit0_odd. rewrite Z.mod_pow2_bits_low by lia. reflexivity.
  - rewrite <- (Z2N.id (c mod 2 ^ 32)) at 1 by assumption.
    destruct (Z.to_N (c mod 2 ^ 32)) as [|p]; [reflexivity|]. destruct p; reflexivity.
Qed.

(** A well-formed generator as built by the constructor. *)
Definition wf_gen (n c : N) (g : generator) : Prop :=
  g_coeff g = c /\ g_mask g = 2 ^ n - 1 /\ g_len g = n /\ g_len_1 g = n - 1.

Lemma mk_generator_ok : forall c n, 1 <= n <= 63 ->
  exists g, mk_generator c n = Ok g /\ wf_gen n c g /\ g_state g = 0.
Proof.
  intros c n H. unfold mk_generator, shl64, assert_.
  replace (n <? 64) with true by lia. cbn [bind].
  eexists. split; [reflexivity|]. unfold wf_gen. cbn [g_coeff g_mask g_len g_len_1 g_state]. repeat split.
  - unfold w64. rewrite N.shiftl_1_l. rewrite N.mod_small; [reflexivity|].
    apply N.pow_lt_mono_r; lia.
  - replace (n + 2 ^ 32 - 1) with ((n - 1) + 1 * 2 ^ 32) by lia.
    rewrite N.mod_add by lia. apply N.mod_small. lia.
Qed.

Ltac bits_cases n k :=
  destruct (N.ltb_spec k n), (N.ltb_spec k 64), (N.eqb_spec k 0), (N.eqb_spec k n);
  try lia; cbn [negb andb].

Lemma mod_lxor : forall a b n, (N.lxor a b) mod 2 ^ n = N.lxor (a mod 2 ^ n) (b mod 2 ^ n).
Proof.
  intros. apply N.bits_inj. intros k. rewrite N.lxor_spec, !mod_pow2_testbit, N.lxor_spec.
  destruct (k <? n); reflexivity.
Qed.

Lemma shift_mod : forall n s, 1 <= n <= 63 ->
  (w64 (N.shiftl s 1)) mod 2 ^ n
  = (if N.testbit (s mod 2 ^ n) (n - 1) then N.lxor (N.double (s mod 2 ^ n)) (2 ^ n) else N.double (s mod 2 ^ n)).
Proof.
  intros n s H. apply N.bits_inj. intros k.
  rewrite mod_pow2_testbit, w64_shl_testbit, mod_pow2_testbit.
  replace (n - 1 <? n) with true by lia. cbn [andb].
  destruct (N.eqb_spec k n) as [->|Hkn].
  - replace (n <? n) with false by lia. cbn [andb].
    destruct (N.testbit s (n - 1)) eqn:T;
      rewrite ?N.lxor_spec, ?pow2_testbit, double_testbit, mod_pow2_testbit, T;
      replace (n =? 0) with false by lia; replace (n - 1 <? n) with true by lia;
      rewrite ?N.eqb_refl; reflexivity.
  - assert (P : N.testbit (2 ^ n) k = false)
      by (rewrite pow2_testbit; apply N.eqb_neq; assumption).
    assert (D : N.testbit (if N.testbit s (n - 1) then N.lxor (N.double (s mod 2 ^ n)) (2 ^ n)
       else N.double (s mod 2 ^ n)) k = N.testbit (N.double (s mod 2 ^ n)) k)
      by (destruct (N.testbit s (n - 1)); rewrite ?N.lxor_spec, ?P, ?xorb_false_r; reflexivity).
    rewrite D, double_testbit, mod_pow2_testbit.
    destruct (N.eqb_spec k 0).
    + cbn [negb andb]. rewrite !andb_false_r. reflexivity.
    + destruct (N.ltb_spec k n), (N.ltb_spec (k - 1) n), (N.ltb_spec k 64); try lia; cbn [negb andb]; auto.
Qed.

Lemma syndromeShift_abs : forall n c g b, 1 <= n <= 63 -> wf_gen n c g ->
  exists g', syndromeShift g b = Ok g' /\ wf_gen n c g' /\
    g_state g' mod 2 ^ n = syn_abs n (2 ^ n + c mod 2 ^ n) (g_state g mod 2 ^ n) (N.testbit b 0).
Proof.
  intros n c g b H (E1 & E2 & E3 & E4).
  unfold syndromeShift, shr64. rewrite E4. replace (n - 1 <? 64) with true by lia. cbn [bind].
  eexists. split; [reflexivity|]. split; [unfold wf_gen; cbn; auto|].
  cbn [with_state g_state]. rewrite land1, N.shiftr_spec' , N.add_0_l, b2n_eqb0, land1, E1.
  unfold syn_abs. rewrite mod_pow2_testbit. replace (n - 1 <? n) with true by lia. cbn [andb].
  assert (B : N.b2n (N.testbit b 0) mod 2 ^ n = N.b2n (N.testbit b 0)).
  { apply N.mod_small. assert (2 ^ 1 <= 2 ^ n) by (apply N.pow_le_mono_r; lia).
    change (2 ^ 1) with 2 in *. destruct (N.testbit b 0); cbn; lia. }
  pose proof (shift_mod n (g_state g) H) as SM.
  rewrite mod_pow2_testbit in SM. replace (n - 1 <? n) with true in SM by lia. cbn [andb] in SM.
  destruct (N.testbit (g_state g) (n - 1)); cbn [negb].
  - rewrite !mod_lxor, SM, B, g_lxor.
    apply N.bits_inj. intros k. rewrite !N.lxor_spec.
    generalize (N.testbit (N.double (g_state g mod 2 ^ n)) k), (N.testbit (2 ^ n) k),
      (N.testbit (c mod 2 ^ n) k), (N.testbit (N.b2n (N.testbit b 0)) k).
    intros [] [] [] []; reflexivity.
  - rewrite mod_lxor, SM, B. reflexivity.
Qed.

Lemma encoderShift_abs : forall n c g b, 1 <= n <= 63 -> wf_gen n c g ->
  exists g', encoderShift g b = Ok g' /\ wf_gen n c g' /\
    g_state g' mod 2 ^ n = enc_abs n (2 ^ n + c mod 2 ^ n) (g_state g mod 2 ^ n) (N.testbit b 0).
Proof.
  intros n c g b H (E1 & E2 & E3 & E4).
  unfold encoderShift, shr64. rewrite E4. replace (n - 1 <? 64) with true by lia. cbn [bind].
  eexists. split; [reflexivity|]. split; [unfold wf_gen; cbn; auto|].
  cbn [with_state g_state]. rewrite land1, N.lxor_spec, N.shiftr_spec', N.add_0_l, b2n_eqb0, E1.
  unfold enc_abs. rewrite mod_pow2_testbit. replace (n - 1 <? n) with true by lia. cbn [andb].
  pose proof (shift_mod n (g_state g) H) as SM.
  rewrite mod_pow2_testbit in SM. replace (n - 1 <? n) with true in SM by lia. cbn [andb] in SM.
  destruct (xorb (N.testbit (g_state g) (n - 1)) (N.testbit b 0)); cbn [negb].
  - rewrite mod_lxor, SM, g_lxor. f_equal.
    rewrite N.lxor_comm, <- N.lxor_assoc, N.lxor_nilpotent, N.lxor_0_l. reflexivity.
  - exact SM.
Qed.

Lemma syn_abs_bound : forall n c r b, 1 <= n -> r < 2 ^ n ->
  syn_abs n (2 ^ n + c mod 2 ^ n) r b < 2 ^ n.
Proof.
  intros n c r b H Hr. unfold syn_abs. rewrite g_lxor. rewrite lt_pow2_bits in *. intros k Hk.
  destruct (N.testbit r (n - 1)) eqn:T;
    rewrite ?N.lxor_spec, double_testbit, b2n_testbit, ?pow2_testbit, ?mod_pow2_testbit;
    destruct (N.eqb_spec k 0), (N.eqb_spec k n), (N.ltb_spec k n); try lia; cbn [negb andb xorb].
  - subst k. rewrite T. reflexivity.
  - rewrite Hr by lia. reflexivity.
  - subst k. rewrite T. reflexivity.
  - rewrite Hr by lia. reflexivity.
Qed.

Lemma enc_abs_bound : forall n c r b, 1 <= n -> r < 2 ^ n ->
  enc_abs n (2 ^ n + c mod 2 ^ n) r b < 2 ^ n.
Proof.
  intros n c r b H Hr. unfold enc_abs. rewrite g_lxor.
  rewrite (N.lxor_comm (2 ^ n) (c mod _)), N.lxor_assoc, N.lxor_nilpotent, N.lxor_0_r.
  assert (Hc : c mod 2 ^ n < 2 ^ n) by (apply N.mod_lt, N.pow_nonzero; lia).
  assert (Y : (if N.testbit r (n - 1) then N.lxor (N.double r) (2 ^ n) else N.double r) < 2 ^ n).
  { rewrite lt_pow2_bits in *. intros k Hk.
    destruct (N.testbit r (n - 1)) eqn:T; rewrite ?N.lxor_spec, double_testbit, ?pow2_testbit;
      destruct (N.eqb_spec k 0), (N.eqb_spec k n); try lia; cbn [negb andb xorb].
    - subst k. rewrite T. reflexivity.
    - rewrite Hr by lia. reflexivity.
    - subst k. assumption.
    - apply Hr. lia. }
  destruct (xorb (N.testbit r (n - 1)) b); [apply lxor_lt_pow2|]; assumption.
Qed.

(** Each step of the syndrome register preserves the remainder relation. *)
Lemma syn_abs_rem : forall n c p r b, 1 <= n ->
  is_remainder n c p r ->
  is_remainder n c (N.lxor (N.double p) (N.b2n b)) (syn_abs n (2 ^ n + c mod 2 ^ n) r b).
Proof.
  intros n c p r b H [Hr [q Hq]]. split; [apply syn_abs_bound; assumption|].
  set (g := 2 ^ n + c mod 2 ^ n) in *.
  exists (if N.testbit r (n - 1) then N.succ_double q else N.double q).
  unfold syn_abs. rewrite Hq, double_lxor.
  destruct (N.testbit r (n - 1)).
  - rewrite pmul_succ_double. apply N.bits_inj. intros k. rewrite !N.lxor_spec.
    generalize (N.testbit (N.double (pmul q g)) k), (N.testbit (N.double r) k), (N.testbit (N.b2n b) k), (N.testbit g k).
    intros [] [] [] []; reflexivity.
  - rewrite pmul_double. apply N.lxor_assoc.
Qed.

Lemma enc_abs_rem : forall n c p r b, 1 <= n ->
  is_remainder n c (p * 2 ^ n) r ->
  is_remainder n c (N.lxor (N.double p) (N.b2n b) * 2 ^ n) (enc_abs n (2 ^ n + c mod 2 ^ n) r b).
Proof.
  intros n c p r b H [Hr [q Hq]]. split; [apply enc_abs_bound; assumption|].
  set (g := 2 ^ n + c mod 2 ^ n) in *.
  exists (if xorb (N.testbit r (n - 1)) b then N.succ_double q else N.double q).
  assert (M : N.lxor (N.double p) (N.b2n b) * 2 ^ n
              = N.lxor (N.double (p * 2 ^ n)) (if b then 2 ^ n else 0)).
  { rewrite <- N.shiftl_mul_pow2, N.shiftl_lxor, !N.shiftl_mul_pow2. f_equal.
    - rewrite !N.double_spec. lia.
    - destruct b; cbn [N.b2n]; lia. }
  rewrite M, Hq, double_lxor. unfold enc_abs.
  assert (PM : pmul (if xorb (N.testbit r (n - 1)) b then N.succ_double q else N.double q) g
     = N.lxor (if xorb (N.testbit r (n - 1)) b then g else 0) (N.double (pmul q g))).
  { destruct (xorb (N.testbit r (n - 1)) b).
    - apply pmul_succ_double.
    - rewrite N.lxor_0_l. apply pmul_double. }
  rewrite PM. clear PM M.
  apply N.bits_inj. intros k. rewrite !N.lxor_spec.
  destruct (N.testbit r (n - 1)), b; cbn [xorb]; rewrite ?N.lxor_spec, ?N.bits_0;
    generalize (N.testbit (N.double (pmul q g)) k), (N.testbit (N.double r) k), (N.testbit (2 ^ n) k), (N.testbit g k);
    intros [] [] [] []; reflexivity.
Qed.

Lemma is_remainder_0 : forall n c, is_remainder n c 0 0.
Proof.
  intros n c. split; [pose proof (N.pow_nonzero 2 n); lia|]. exists 0. reflexivity.
Qed.

(** Running the registers over a vector. *)
Lemma gen_run_syn : forall n c v g l, 1 <= n <= 63 -> wf_gen n c g ->
  is_remainder n c (poly_of l) (g_state g mod 2 ^ n) ->
  exists g', gen_run syndromeShift g v = Ok g' /\ wf_gen n c g' /\
    is_remainder n c (poly_of (l ++ bits_of v)) (g_state g' mod 2 ^ n).
Proof.
  intros n c v. induction v as [|x t IH]; intros g l H W R.
  - exists g. cbn. rewrite app_nil_r. auto.
  - cbn [gen_run]. destruct (syndromeShift_abs n c g (inbit x) H W) as (g1 & E & W1 & S1).
    rewrite E. cbn [bind]. rewrite inbit_odd in S1.
    destruct (IH g1 (l ++ [Z.odd x]) H W1) as (g2 & E2 & W2 & R2).
    + rewrite S1, poly_snoc. apply syn_abs_rem; [lia|assumption].
    + exists g2. split; [assumption|]. split; [assumption|].
      rewrite <- app_assoc in R2. exact R2.
Qed.

Lemma gen_run_enc : forall n c v g l, 1 <= n <= 63 -> wf_gen n c g ->
  is_remainder n c (poly_of l * 2 ^ n) (g_state g mod 2 ^ n) ->
  exists g', gen_run encoderShift g v = Ok g' /\ wf_gen n c g' /\
    is_remainder n c (poly_of (l ++ bits_of v) * 2 ^ n) (g_state g' mod 2 ^ n).
Proof.
  intros n c v. induction v as [|x t IH]; intros g l H W R.
  - exists g. cbn. rewrite app_nil_r. auto.
  - cbn [gen_run]. destruct (encoderShift_abs n c g (inbit x) H W) as (g1 & E & W1 & S1).
    rewrite E. cbn [bind]. rewrite inbit_odd in S1.
    destruct (IH g1 (l ++ [Z.odd x]) H W1) as (g2 & E2 & W2 & R2).
    + rewrite S1, poly_snoc. apply enc_abs_rem; [lia|assumption].
    + exists g2. split; [assumption|]. split; [assumption|].
      rewrite <- app_assoc in R2. exact R2.
Qed.

Lemma gen_state_mod : forall n c g, wf_gen n c g -> gen_state g = g_state g mod 2 ^ n.
Proof.
  intros n c g (_ & E & _). unfold gen_state. rewrite E.
  rewrite <- N.ones_equiv || idtac.
  replace (2 ^ n - 1) with (N.ones n) by (rewrite N.ones_equiv; lia).
  apply N.land_ones.
Qed.

Lemma wf_clear : forall n c g, wf_gen n c g -> wf_gen n c (gen_clear g).
Proof. intros n c g W. exact W. Qed.

Lemma bv_syndrome_rem : forall n c g v, 1 <= n <= 63 -> wf_gen n c g ->
  exists r, bv_syndrome v g = Ok r /\ is_remainder n c (poly_of (bits_of v)) r.
Proof.
  intros n c g v H W. unfold bv_syndrome.
  destruct (gen_run_syn n c v (gen_clear g) [] H (wf_clear _ _ _ W)) as (g' & E & W' & R).
  - cbn [gen_clear g_state]. rewrite N.mod_0_l by (apply N.pow_nonzero; lia). apply is_remainder_0.
  - rewrite E. cbn [bind]. rewrite (gen_state_mod n c) by assumption. eauto.
Qed.

Lemma bv_parity_rem : forall n c g v, 1 <= n <= 63 -> wf_gen n c g ->
  exists r, bv_parity v g = Ok r /\ is_remainder n c (poly_of (bits_of v) * 2 ^ n) r.
Proof.
  intros n c g v H W. unfold bv_parity.
  destruct (gen_run_enc n c v (gen_clear g) [] H (wf_clear _ _ _ W)) as (g' & E & W' & R).
  - cbn [gen_clear g_state]. rewrite N.mod_0_l by (apply N.pow_nonzero; lia). apply is_remainder_0.
  - rewrite E. cbn [bind]. rewrite (gen_state_mod n c) by assumption. eauto.
Qed.

(** ** Codewords *)
Lemma poly_app : forall a b, poly_of (a ++ b) = N.lxor (poly_of a * 2 ^ N.of_nat (length b)) (poly_of b).
Proof.
  intros a b. assert (E : poly_of (a ++ b) = poly_of a * 2 ^ N.of_nat (length b) + poly_of b).
  { unfold poly_of. rewrite be_value_app. pose proof (be_value_bounds a). pose proof (be_value_bounds b).
    rewrite Z2N.inj_add, Z2N.inj_mul, Z2N.inj_pow by lia.
    do 3 f_equal. lia. }
  rewrite E. apply N.add_nocarry_lxor.
  apply N.bits_inj. intros k. rewrite N.land_spec, N.bits_0.
  destruct (N.lt_ge_cases k (N.of_nat (length b))).
  - rewrite N.mul_pow2_bits_low by assumption. reflexivity.
  - pose proof (poly_bound b) as B. rewrite lt_pow2_bits in B. rewrite B by assumption. apply andb_false_r.
Qed.

Lemma poly_field : forall n x, (0 <= x)%Z -> poly_of (bits_of (field_bits n x)) = Z.to_N x mod 2 ^ N.of_nat n.
Proof.
  intros n x H. unfold poly_of. rewrite be_value_field.
  assert (0 < 2 ^ Z.of_nat n)%Z by lia.
  rewrite Z2N.inj_mod by lia. f_equal. rewrite Z2N.inj_pow by lia. f_equal. lia.
Qed.

Lemma codeword_syndrome : forall n c data target inv, 1 <= n <= 63 ->
  length target = N.to_nat n ->
  exists g t', mk_generator c n = Ok g /\
    writeParityWord g data target inv = Ok t' /\
    bv_syndrome (data ++ t') g = Ok (if inv then 2 ^ n - 1 else 0).
Proof.
  intros n c data target inv H L.
  destruct (mk_generator_ok c n H) as (g & Eg & W & _). exists g.
  destruct (bv_parity_rem n c g data H W) as (r & Er & (Hr & q & Hq)).
  unfold writeParityWord. rewrite Er. cbn [bind].
  pose proof W as (_ & _ & Ln & _). rewrite Ln.
  rewrite fillField_spec by lia.
  eexists. split; [assumption|]. split; [reflexivity|].
  set (pw := if inv then not64 r else r).
  assert (S0 : splice 0 (field_bits (N.to_nat n) (Z.of_N pw)) target = field_bits (N.to_nat n) (Z.of_N pw)).
  { unfold splice. cbn [firstn app]. rewrite field_bits_length, skipn_all2 by lia. apply app_nil_r. }
  rewrite S0.
  destruct (bv_syndrome_rem n c g (data ++ field_bits (N.to_nat n) (Z.of_N pw)) H W) as (s & Es & R).
  rewrite Es. f_equal.
  eapply remainder_unique; [exact R|].
  assert (PW : pw mod 2 ^ n = N.lxor r (if inv then 2 ^ n - 1 else 0)).
  { unfold pw. destruct inv.
    - unfold not64. rewrite mod_lxor. rewrite (N.mod_small r) by assumption. f_equal.
      replace (2 ^ 64 - 1) with (N.ones 64) by (rewrite N.ones_equiv; lia).
      replace (2 ^ n - 1) with (N.ones n) by (rewrite N.ones_equiv; lia).
      rewrite N.ones_mod_pow2 by lia. reflexivity.
    - rewrite N.lxor_0_r. apply N.mod_small. assumption. }
  split.
  - pose proof (N.pow_nonzero 2 n). destruct inv; lia.
  - exists q. unfold bits_of. rewrite map_app. fold (bits_of data). fold (bits_of (field_bits (N.to_nat n) (Z.of_N pw))).
    rewrite poly_app, bits_of_field, N2Nat.id. rewrite Hq.
    rewrite poly_field by lia. rewrite N2Z.id, N2Nat.id, PW.
    rewrite N.lxor_assoc. f_equal.
    rewrite <- N.lxor_assoc, N.lxor_nilpotent, N.lxor_0_l. reflexivity.
Qed.

(** ** Linearity and burst detection *)
Lemma poly_xor : forall a b, length a = length b ->
  poly_of (xor_bits a b) = N.lxor (poly_of a) (poly_of b).
Proof.
  intros a b. revert b.
  induction a as [|x a IH] using rev_ind; intros b L.
  - destruct b; [reflexivity|discriminate].
  - destruct b as [|y b _] using rev_ind; [rewrite app_length in L; cbn in L; lia|].
    rewrite !app_length in L. cbn in L. assert (L' : length a = length b) by lia.
    assert (X : xor_bits (a ++ [x]) (b ++ [y]) = xor_bits a b ++ [xorb x y]).
    { revert L'. clear. revert b. induction a as [|h a IH]; intros [|k b] L; cbn in *; try discriminate; auto.
      rewrite IH by lia. reflexivity. }
    rewrite X, !poly_snoc, IH by assumption. rewrite double_lxor.
    replace (N.b2n (xorb x y)) with (N.lxor (N.b2n x) (N.b2n y)) by (destruct x, y; reflexivity).
    apply N.bits_inj. intros k. rewrite !N.lxor_spec.
    generalize (N.testbit (N.double (poly_of a)) k), (N.testbit (N.double (poly_of b)) k), (N.testbit (N.b2n x) k), (N.testbit (N.b2n y) k).
    intros [] [] [] []; reflexivity.
Qed.

Lemma remainder_lxor : forall n c p p' r r',
  is_remainder n c p r -> is_remainder n c p' r' -> is_remainder n c (N.lxor p p') (N.lxor r r').
Proof.
  intros n c p p' r r' [H [q Hq]] [H' [q' Hq']]. split; [apply lxor_lt_pow2; assumption|].
  exists (N.lxor q q'). rewrite pmul_lxor_l. subst.
  apply N.bits_inj. intros k. rewrite !N.lxor_spec.
  generalize (N.testbit (pmul q (2 ^ n + c mod 2 ^ n)) k), (N.testbit (pmul q' (2 ^ n + c mod 2 ^ n)) k), (N.testbit r k), (N.testbit r' k).
  intros [] [] [] []; reflexivity.
Qed.

Lemma syndrome_linear : forall n c g u v w, 1 <= n <= 63 -> wf_gen n c g ->
  length u = length v -> bits_of w = xor_bits (bits_of u) (bits_of v) ->
  exists a b, bv_syndrome u g = Ok a /\ bv_syndrome v g = Ok b /\ bv_syndrome w g = Ok (N.lxor a b).
Proof.
  intros n c g u v w H W L E.
  destruct (bv_syndrome_rem n c g u H W) as (a & Ea & Ra).
  destruct (bv_syndrome_rem n c g v H W) as (b & Eb & Rb).
  destruct (bv_syndrome_rem n c g w H W) as (s & Es & Rs).
  exists a, b. repeat split; try assumption. rewrite Es. f_equal.
  eapply remainder_unique; [exact Rs|]. rewrite E, poly_xor by (unfold bits_of; rewrite !map_length; assumption).
  apply remainder_lxor; assumption.
Qed.

Lemma parity_linear : forall n c g u v w, 1 <= n <= 63 -> wf_gen n c g ->
  length u = length v -> bits_of w = xor_bits (bits_of u) (bits_of v) ->
  exists a b, bv_parity u g = Ok a /\ bv_parity v g = Ok b /\ bv_parity w g = Ok (N.lxor a b).
Proof.
  intros n c g u v w H W L E.
  destruct (bv_parity_rem n c g u H W) as (a & Ea & Ra).
  destruct (bv_parity_rem n c g v H W) as (b & Eb & Rb).
  destruct (bv_parity_rem n c g w H W) as (s & Es & Rs).
  exists a, b. repeat split; try assumption. rewrite Es. f_equal.
  eapply remainder_unique; [exact Rs|]. rewrite E, poly_xor by (unfold bits_of; rewrite !map_length; assumption).
  rewrite <- !N.shiftl_mul_pow2, N.shiftl_lxor, !N.shiftl_mul_pow2.
  apply remainder_lxor; assumption.
Qed.

(** Multiplying by x does not annihilate when the constant term is set. *)
Lemma syn_abs_nonzero : forall n c r, 1 <= n -> N.testbit c 0 = true -> r < 2 ^ n ->
  r <> 0 -> syn_abs n (2 ^ n + c mod 2 ^ n) r false <> 0.
Proof.
  intros n c r H Hc Hr Hz E. unfold syn_abs in E. cbn [N.b2n] in E. rewrite N.lxor_0_r in E.
  destruct (N.testbit r (n - 1)) eqn:T.
  - assert (B : N.testbit (N.lxor (N.double r) (2 ^ n + c mod 2 ^ n)) 0 = false) by (rewrite E; apply N.bits_0).
    rewrite g_lxor, !N.lxor_spec, double_testbit, pow2_testbit, mod_pow2_testbit, Hc in B.
    destruct (N.ltb_spec 0 n); [|lia]. destruct (N.eqb_spec 0 n); [lia|]. discriminate.
  - rewrite N.double_spec in E. lia.
Qed.

Lemma remainder_zeros : forall n c k r, 1 <= n -> N.testbit c 0 = true -> r < 2 ^ n -> r <> 0 ->
  exists s, s <> 0 /\ is_remainder n c (r * 2 ^ N.of_nat k) s.
Proof.
  intros n c k r H Hc Hr Hz. induction k as [|k IH].
  - exists r. split; [assumption|]. split; [assumption|]. exists 0. cbn [pmul]. rewrite N.lxor_0_l.
    cbn. lia.
  - destruct IH as (s & Hs & R). exists (syn_abs n (2 ^ n + c mod 2 ^ n) s false).
    pose proof R as [Rb _]. split; [apply syn_abs_nonzero; assumption|].
    pose proof (syn_abs_rem n c _ _ false H R) as R'. cbn [N.b2n] in R'. rewrite N.lxor_0_r in R'.
    rewrite Nat2N.inj_succ, N.pow_succ_r'. rewrite N.double_spec in R'.
    replace (r * (2 * 2 ^ N.of_nat k)) with (2 * (r * 2 ^ N.of_nat k)) by lia. assumption.
Qed.

Lemma poly_zeros : forall k, poly_of (repeat false k) = 0.
Proof.
  induction k as [|k IH]; [reflexivity|].
  replace (S k) with (k + 1)%nat by lia. rewrite repeat_app. cbn [repeat].
  rewrite poly_snoc, IH. reflexivity.
Qed.

Lemma poly_nonzero : forall l, In true l -> poly_of l <> 0.
Proof.
  induction l as [|b l IH] using rev_ind; intros H; [contradiction|].
  rewrite poly_snoc, lxor_double_b. apply in_app_or in H. destruct H as [H|[H|[]]].
  - specialize (IH H). destruct b; rewrite ?N.succ_double_spec, ?N.double_spec; lia.
  - subst b. rewrite N.succ_double_spec. lia.
Qed.

Lemma burst_detected : forall n c g u w pre burst post, 1 <= n <= 63 -> wf_gen n c g ->
  N.testbit c 0 = true ->
  (length burst <= N.to_nat n)%nat -> In true burst ->
  length u = (pre + length burst + post)%nat ->
  bits_of w = xor_bits (bits_of u) (repeat false pre ++ burst ++ repeat false post) ->
  exists a b, bv_syndrome u g = Ok a /\ bv_syndrome w g = Ok b /\ a <> b.
Proof.
  intros n c g u w pre burst post H W Hc Lb Hb Lu E.
  set (e := repeat false pre ++ burst ++ repeat false post) in *.
  destruct (bv_syndrome_rem n c g u H W) as (a & Ea & Ra).
  destruct (bv_syndrome_rem n c g w H W) as (b & Eb & Rb).
  exists a, b. repeat split; try assumption. intros <-.
  assert (Le : length (bits_of u) = length e).
  { unfold e, bits_of. rewrite map_length, !app_length, !repeat_length. lia. }
  rewrite E, poly_xor in Rb by assumption.
  pose proof (remainder_lxor _ _ _ _ _ _ Ra Rb) as R.
  rewrite <- N.lxor_assoc, N.lxor_nilpotent, N.lxor_0_l, N.lxor_nilpotent in R.
  assert (Pe : poly_of e = poly_of burst * 2 ^ N.of_nat post).
  { unfold e. rewrite !poly_app, !poly_zeros, repeat_length. rewrite N.mul_0_l, N.lxor_0_l, N.lxor_0_r. reflexivity. }
  rewrite Pe in R.
  destruct (remainder_zeros n c post (poly_of burst)) as (s & Hs & Rs).
  - lia.
  - assumption.
  - eapply N.lt_le_trans; [apply poly_bound|]. apply N.pow_le_mono_r; lia.
  - apply poly_nonzero; assumption.
  - apply Hs. eapply remainder_unique; eassumption.
Qed.

(** Lengths outside 1..63 are undefined behaviour in the register operations. *)
Lemma generator_len_0 : forall c b, exists g, mk_generator c 0 = Ok g /\ syndromeShift g b = UB /\ encoderShift g b = UB.
Proof. intros. eexists. repeat split. Qed.

Lemma generator_len_64 : forall c n, 64 <= n -> mk_generator c n = UB.
Proof.
  intros c n H. unfold mk_generator, shl64. replace (n <? 64) with false by lia. reflexivity.
Qed.
