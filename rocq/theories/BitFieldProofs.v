(** Bit-field access: full functional specifications and round trips. *)
From Verif Require Import Base BaseFacts BitVectorModel BitVectorSpec.
Local Open Scope Z_scope.

Lemma bitof_odd : forall c, bitof c = Z.b2z (Z.odd c).
Proof.
  intros c. unfold bitof. change 1 with (Z.ones 1) at 1.
  rewrite Z.land_ones by lia. rewrite Zmod_odd. destruct (Z.odd c); reflexivity.
Qed.

Lemma be_value_acc : forall l a,
  fold_left (fun a b => 2 * a + Z.b2z b) l a = a * 2 ^ Z.of_nat (length l) + be_value l.
Proof.
  unfold be_value.
  induction l as [|b t IH]; intros a.
  - cbn. lia.
  - cbn [fold_left length]. rewrite IH. rewrite (IH (2 * 0 + Z.b2z b)).
    rewrite Nat2Z.inj_succ, Z.pow_succ_r by lia. ring.
Qed.

Lemma be_value_cons : forall b t, be_value (b :: t) = Z.b2z b * 2 ^ Z.of_nat (length t) + be_value t.
Proof.
  intros. unfold be_value at 1. cbn [fold_left]. rewrite be_value_acc. f_equal.
Qed.

Lemma be_value_app : forall a b,
  be_value (a ++ b) = be_value a * 2 ^ Z.of_nat (length b) + be_value b.
Proof.
  intros a b. unfold be_value at 1. rewrite fold_left_app. rewrite be_value_acc. reflexivity.
Qed.

Lemma be_value_snoc : forall a b, be_value (a ++ [b]) = 2 * be_value a + Z.b2z b.
Proof.
  intros. rewrite be_value_app. cbn [length]. unfold be_value at 2. cbn [fold_left].
  change (2 ^ Z.of_nat 1) with 2. lia.
Qed.

Lemma be_value_bounds : forall l, 0 <= be_value l < 2 ^ Z.of_nat (length l).
Proof.
  induction l as [|b t IH].
  - cbn. lia.
  - rewrite be_value_cons. cbn [length]. rewrite Nat2Z.inj_succ, Z.pow_succ_r by lia.
    destruct b; cbn [Z.b2z]; lia.
Qed.

Lemma lor_shift_bit : forall a b, Z.lor (Z.shiftl a 1) (Z.b2z b) = 2 * a + Z.b2z b.
Proof.
  intros a b.
  rewrite Z.shiftl_mul_pow2 by lia. change (2 ^ 1) with 2.
  rewrite Z.mul_comm.
  destruct b; cbn [Z.b2z].
  - apply Z.bits_inj'. intros n Hn.
    rewrite Z.lor_spec. destruct (Z.eq_dec n 0) as [->|E].
    + rewrite Z.testbit_odd_0, Z.testbit_even_0. reflexivity.
    + replace n with (Z.succ (n - 1)) by lia.
      assert (T : Z.testbit 1 (Z.succ (n - 1)) = false)
        by (change 1 with (2 * 0 + 1) at 1; rewrite Z.testbit_odd_succ by lia; apply Z.testbit_0_l).
      rewrite T, Z.testbit_odd_succ, Z.testbit_even_succ by lia. apply orb_false_r.
  - rewrite Z.lor_0_r. lia.
Qed.

Lemma pow64 : 2 ^ 64 = 18446744073709551616. Proof. reflexivity. Qed.

Lemma u64_step : forall a b, u64 (2 * u64 a + b) = u64 (2 * a + b).
Proof.
  intros. unfold u64. rewrite <- Zplus_mod_idemp_l.
  rewrite Zmult_mod_idemp_r. rewrite Zplus_mod_idemp_l. reflexivity.
Qed.

Lemma skipn_cons_nth : forall A (v : list A) i x,
  nth_error v i = Some x -> skipn i v = x :: skipn (S i) v.
Proof.
  induction v as [|h t IH]; intros [|i] x H; cbn in *; try discriminate.
  - congruence.
  - apply IH; assumption.
Qed.

(** peekField: in range it yields the big-endian value modulo 2^64. *)
Lemma peek_loop_spec : forall len v dp a,
  (dp + len <= length v)%nat ->
  peek_loop v dp len (u64 a) =
  Ok (u64 (fold_left (fun a b => 2 * a + Z.b2z b) (bits_of (slice dp len v)) a)).
Proof.
  induction len as [|k IH]; intros v dp a H.
  - reflexivity.
  - cbn [peek_loop].
    destruct (rd_in _ v dp) as [c [E1 E2]]; [lia|].
    rewrite E1. cbn [bind].
    rewrite bitof_odd, lor_shift_bit, u64_step.
    rewrite IH by lia.
    unfold slice. rewrite (skipn_cons_nth _ v dp c E2). reflexivity.
Qed.

Lemma peekField_spec : forall v i n,
  (i + n <= length v)%nat ->
  peekField v i n = Ok (u64 (be_value (bits_of (slice i n v)))).
Proof.
  intros v i n H. unfold peekField. change 0 with (u64 0). rewrite peek_loop_spec by assumption.
  reflexivity.
Qed.

Lemma peek_loop_ub : forall len v dp a,
  (dp <= length v)%nat -> (length v < dp + len)%nat -> peek_loop v dp len a = UB.
Proof.
  induction len as [|k IH]; intros v dp a H1 H2; [lia|].
  cbn [peek_loop]. destruct (Nat.eq_dec dp (length v)) as [E|E].
  - unfold rd. destruct (nth_error v dp) eqn:N; [|reflexivity].
    assert (dp < length v)%nat by (apply nth_error_Some; congruence). lia.
  - destruct (rd_in _ v dp) as [c [E1 E2]]; [lia|]. rewrite E1. cbn [bind]. apply IH; lia.
Qed.

Lemma peekField_ub : forall v i n,
  (n <> 0)%nat -> (length v < i + n)%nat -> peekField v i n = UB.
Proof.
  intros v i n Hn H. unfold peekField.
  destruct (Nat.le_gt_cases i (length v)).
  - apply peek_loop_ub; assumption.
  - destruct n as [|n]; [congruence|]. cbn. unfold rd.
    destruct (nth_error v i) eqn:N; [|reflexivity].
    assert (i < length v)%nat by (apply nth_error_Some; congruence). lia.
Qed.

(** field_bits, recursively *)
Lemma field_bits_length : forall n x, length (field_bits n x) = n.
Proof. intros. unfold field_bits. rewrite map_length, seq_length. reflexivity. Qed.

Lemma map_seq_shift : forall A (f g : nat -> A) n a b,
  (forall k, (k < n)%nat -> f (a + k)%nat = g (b + k)%nat) -> map f (seq a n) = map g (seq b n).
Proof.
  induction n as [|n IH]; intros a b H; cbn; auto.
  f_equal.
  - specialize (H 0%nat). rewrite !Nat.add_0_r in H. apply H. lia.
  - apply IH. intros k Hk. specialize (H (S k)).
    rewrite !Nat.add_succ_r in H. apply H. lia.
Qed.

Lemma field_bits_snoc : forall n x,
  field_bits (S n) x = field_bits n (Z.shiftr x 1) ++ [Z.land x 1].
Proof.
  intros n x. unfold field_bits. rewrite seq_S, map_app. cbn [map].
  f_equal.
  - apply map_seq_shift. intros k Hk.
    rewrite Z.shiftr_spec by lia. do 2 f_equal. lia.
  - f_equal. replace (S n - 1 - (0 + n))%nat with 0%nat by lia.
    cbn [Z.of_nat]. rewrite Z.bit0_odd. change (Z.land x 1) with (bitof x). now rewrite bitof_odd.
Qed.

Lemma field_bits_cons : forall n x,
  field_bits (S n) x = Z.b2z (Z.testbit x (Z.of_nat n)) :: field_bits n x.
Proof.
  intros n x. unfold field_bits. cbn [seq map].
  f_equal.
  - do 2 f_equal. lia.
  - apply map_seq_shift. intros k Hk. do 3 f_equal. lia.
Qed.

Lemma odd_b2z : forall b, Z.odd (Z.b2z b) = b.
Proof. destruct b; reflexivity. Qed.

Lemma bits_of_field : forall n x, length (bits_of (field_bits n x)) = n.
Proof. intros. unfold bits_of. rewrite map_length. apply field_bits_length. Qed.

Lemma be_value_field : forall n x, be_value (bits_of (field_bits n x)) = x mod 2 ^ Z.of_nat n.
Proof.
  induction n as [|n IH]; intros x.
  - cbn. rewrite Z.mod_1_r. reflexivity.
  - rewrite field_bits_snoc. unfold bits_of in *. rewrite map_app. cbn [map].
    rewrite be_value_snoc, IH.
    change (Z.land x 1) with (bitof x). rewrite bitof_odd, odd_b2z.
    rewrite Nat2Z.inj_succ, Z.pow_succ_r by lia.
    rewrite Z.shiftr_div_pow2 by lia. change (2 ^ 1) with 2.
    rewrite Zmod_odd with (a := x) || idtac.
    assert (P : 0 < 2 ^ Z.of_nat n) by lia.
    rewrite Z.rem_mul_r by lia.
    rewrite Zmod_odd. destruct (Z.odd x); cbn [Z.b2z]; lia.
Qed.

(** splice facts *)
Lemma splice_nth : forall A i (w v : list A) j,
  (i + length w <= length v)%nat ->
  nth_error (splice i w v) j =
  if Nat.ltb j i then nth_error v j
  else if Nat.ltb j (i + length w) then nth_error w (j - i)
  else nth_error v j.
Proof.
  intros A i w v j H. unfold splice.
  assert (L : length (firstn i v) = i) by (rewrite firstn_length; lia).
  destruct (Nat.ltb_spec j i).
  - rewrite nth_error_app1 by lia. rewrite nth_error_firstn.
    destruct (Nat.ltb_spec j i); [reflexivity|lia].
  - rewrite nth_error_app2 by lia. rewrite L.
    destruct (Nat.ltb_spec j (i + length w)).
    + rewrite nth_error_app1 by lia. reflexivity.
    + rewrite nth_error_app2 by lia. rewrite nth_error_skipn. f_equal. lia.
Qed.

Lemma splice_length : forall A i (w v : list A),
  (i + length w <= length v)%nat -> length (splice i w v) = length v.
Proof.
  intros. unfold splice. rewrite !app_length, firstn_length, skipn_length. lia.
Qed.

Lemma slice_splice : forall A i (w v : list A),
  (i + length w <= length v)%nat -> slice i (length w) (splice i w v) = w.
Proof.
  intros A i w v H. unfold slice, splice.
  rewrite skipn_app, skipn_firstn_comm, Nat.sub_diag. cbn [firstn app].
  rewrite firstn_length, Nat.min_l by lia. rewrite Nat.sub_diag. cbn [skipn].
  rewrite firstn_app, Nat.sub_diag. cbn [firstn]. rewrite app_nil_r. apply firstn_all2. lia.
Qed.

Lemma splice_snoc_upd : forall A i (w : list A) x v,
  (i + S (length w) <= length v)%nat ->
  splice i w (upd v (i + length w) x) = splice i (w ++ [x]) v.
Proof.
  intros A i w x v H. apply nth_error_ext. intros j.
  assert (L1 : length (w ++ [x]) = S (length w)) by (rewrite app_length; cbn; lia).
  rewrite !splice_nth; rewrite ?upd_length, ?L1; try lia.
  destruct (Nat.ltb_spec j i).
  - apply nth_error_upd_neq. lia.
  - destruct (Nat.ltb_spec j (i + length w)).
    + destruct (Nat.ltb_spec j (i + S (length w))); [|lia].
      rewrite nth_error_app1 by lia. reflexivity.
    + destruct (Nat.ltb_spec j (i + S (length w))).
      * assert (j = i + length w)%nat by lia. subst j.
        rewrite nth_error_upd_eq by lia. rewrite nth_error_app2 by lia.
        replace (i + length w - i - length w)%nat with 0%nat by lia. reflexivity.
      * apply nth_error_upd_neq. lia.
Qed.

Lemma splice_nil : forall A i (v : list A), splice i [] v = v.
Proof.
  intros. unfold splice. cbn [length app]. rewrite Nat.add_0_r. apply firstn_skipn.
Qed.

Lemma fill_loop_spec : forall k v base value,
  (base + k <= length v)%nat ->
  fill_loop v base k value = Ok (splice base (field_bits k value) v).
Proof.
  induction k as [|k IH]; intros v base value H.
  - cbn. rewrite splice_nil. reflexivity.
  - cbn [fill_loop]. rewrite wr_ok by lia. cbn [bind].
    rewrite IH by (rewrite upd_length; lia).
    f_equal. rewrite field_bits_snoc.
    rewrite <- splice_snoc_upd; rewrite field_bits_length; [reflexivity|lia].
Qed.

Lemma fillField_spec : forall v i x n,
  (i + n <= length v)%nat ->
  fillField v i x n = Ok (splice i (field_bits n x) v).
Proof.
  intros v i x [|n] H.
  - cbn. now rewrite splice_nil.
  - unfold fillField. unfold assert_.
    replace (Z.of_nat i + Z.of_nat (S n) - 1 <? Z.of_nat (length v)) with true by lia.
    cbn [bind]. apply fill_loop_spec. assumption.
Qed.

Lemma fillField_abort : forall v i x n,
  (n <> 0)%nat -> (length v < i + n)%nat -> fillField v i x n = Abort.
Proof.
  intros v i x [|n] Hn H; [congruence|].
  unfold fillField, assert_.
  replace (Z.of_nat i + Z.of_nat (S n) - 1 <? Z.of_nat (length v)) with false by lia.
  reflexivity.
Qed.

Lemma splice_cons_upd : forall A i x (w : list A) v,
  (i + S (length w) <= length v)%nat ->
  splice (S i) w (upd v i x) = splice i (x :: w) v.
Proof.
  intros A i x w v H. apply nth_error_ext. intros j.
  rewrite !splice_nth; rewrite ?upd_length; cbn [length]; try lia.
  destruct (Nat.ltb_spec j (S i)).
  - destruct (Nat.ltb_spec j i).
    + apply nth_error_upd_neq. lia.
    + assert (j = i) by lia. subst j.
      rewrite nth_error_upd_eq by lia.
      destruct (Nat.ltb_spec i (i + S (length w))); [|lia].
      rewrite Nat.sub_diag. reflexivity.
  - destruct (Nat.ltb_spec j i); [lia|].
    destruct (Nat.ltb_spec j (S i + length w)).
    + destruct (Nat.ltb_spec j (i + S (length w))); [|lia].
      replace (j - i)%nat with (S (j - S i)) by lia. reflexivity.
    + destruct (Nat.ltb_spec j (i + S (length w))); [lia|].
      apply nth_error_upd_neq. lia.
Qed.

Lemma fillrev_loop_spec : forall k v dp value,
  (dp + k <= length v)%nat ->
  fillrev_loop v dp k value = Ok (splice dp (rev (field_bits k value)) v).
Proof.
  induction k as [|k IH]; intros v dp value H.
  - cbn. rewrite splice_nil. reflexivity.
  - cbn [fillrev_loop]. rewrite wr_ok by lia. cbn [bind].
    rewrite IH by (rewrite upd_length; lia).
    f_equal. rewrite field_bits_snoc, rev_app_distr. cbn [rev app].
    apply splice_cons_upd. rewrite rev_length, field_bits_length. lia.
Qed.

Lemma fillFieldReversed_spec : forall v i x n,
  (i + n <= length v)%nat ->
  fillFieldReversed v i x n = Ok (splice i (rev (field_bits n x)) v).
Proof.
  intros v i x [|n] H.
  - cbn. now rewrite splice_nil.
  - unfold fillFieldReversed. unfold assert_.
    replace (Z.of_nat i + Z.of_nat (S n) - 1 <? Z.of_nat (length v)) with true by lia.
    cbn [bind]. apply fillrev_loop_spec. assumption.
Qed.

Lemma fillFieldReversed_abort : forall v i x n,
  (n <> 0)%nat -> (length v < i + n)%nat -> fillFieldReversed v i x n = Abort.
Proof.
  intros v i x [|n] Hn H; [congruence|].
  unfold fillFieldReversed, assert_.
  replace (Z.of_nat i + Z.of_nat (S n) - 1 <? Z.of_nat (length v)) with false by lia.
  reflexivity.
Qed.

Lemma slice_S : forall A (v : list A) i k x,
  nth_error v (i + k) = Some x -> slice i (S k) v = slice i k v ++ [x].
Proof.
  intros A v i k x H. unfold slice.
  rewrite <- nth_error_skipn in H. revert H. generalize (skipn i v). clear.
  induction k as [|k IH]; intros [|h t] H; cbn in *; try discriminate.
  - congruence.
  - f_equal. apply IH. assumption.
Qed.

Lemma peekrev_loop_spec : forall len v base a,
  (base + len <= length v)%nat ->
  peekrev_loop v base len (u64 a) =
  Ok (u64 (fold_left (fun a b => 2 * a + Z.b2z b) (rev (bits_of (slice base len v))) a)).
Proof.
  induction len as [|k IH]; intros v base a H.
  - reflexivity.
  - cbn [peekrev_loop].
    destruct (rd_in _ v (base + k)) as [c [E1 E2]]; [lia|].
    rewrite E1. cbn [bind].
    rewrite bitof_odd, lor_shift_bit, u64_step.
    rewrite IH by lia.
    rewrite (slice_S _ _ _ _ _ E2). unfold bits_of. rewrite map_app, rev_app_distr. reflexivity.
Qed.

Lemma peekFieldReversed_spec : forall v i n,
  (i + n <= length v)%nat ->
  peekFieldReversed v i n = Ok (u64 (be_value (rev (bits_of (slice i n v))))).
Proof.
  intros v i n H. unfold peekFieldReversed, assert_.
  replace (Z.of_nat i + Z.of_nat n - 1 <? Z.of_nat (length v)) with true by lia.
  cbn [bind]. change 0 with (u64 0). rewrite peekrev_loop_spec by assumption. reflexivity.
Qed.

Lemma peekFieldReversed_abort : forall v i n,
  (length v < i + n)%nat -> peekFieldReversed v i n = Abort.
Proof.
  intros v i n H. unfold peekFieldReversed, assert_.
  replace (Z.of_nat i + Z.of_nat n - 1 <? Z.of_nat (length v)) with false by lia.
  reflexivity.
Qed.

Lemma u64_id : forall x, 0 <= x < 2 ^ 64 -> u64 x = x.
Proof. intros. unfold u64. apply Z.mod_small. assumption. Qed.

Lemma pow_le_64 : forall n, (n <= 64)%nat -> 0 < 2 ^ Z.of_nat n <= 2 ^ 64.
Proof.
  intros n H. split; [lia|]. apply Z.pow_le_mono_r; lia.
Qed.

Lemma u64_be_value : forall l, (length l <= 64)%nat -> u64 (be_value l) = be_value l.
Proof.
  intros l H. apply u64_id. pose proof (be_value_bounds l). pose proof (pow_le_64 _ H). lia.
Qed.

Lemma u64_be_value_long : forall l, u64 (be_value l) = be_value (skipn (length l - 64) l).
Proof.
  intros l. rewrite <- (firstn_skipn (length l - 64) l) at 1.
  rewrite be_value_app. rewrite skipn_length.
  destruct (Nat.le_gt_cases (length l) 64).
  - replace (length l - 64)%nat with 0%nat by lia. cbn [firstn skipn].
    change (be_value []) with 0. rewrite Z.mul_0_l, Z.add_0_l. apply u64_be_value. assumption.
  - replace (length l - (length l - 64))%nat with 64%nat by lia.
    unfold u64. change (Z.of_nat 64) with 64. rewrite Z.add_comm, Z_mod_plus_full.
    fold (u64 (be_value (skipn (length l - 64) l))). apply u64_be_value. rewrite skipn_length. lia.
Qed.

(** Round trips. *)
Lemma fill_peek : forall v i x n,
  (i + n <= length v)%nat ->
  exists v', fillField v i x n = Ok v' /\
    peekField v' i n = Ok (u64 (x mod 2 ^ Z.of_nat n)).
Proof.
  intros v i x n H. eexists. split; [apply fillField_spec; assumption|].
  pose proof (field_bits_length n x) as L.
  rewrite peekField_spec by (rewrite splice_length; lia).
  rewrite <- L at 1. rewrite slice_splice by lia. now rewrite be_value_field.
Qed.

Lemma bits_of_rev : forall l, bits_of (rev l) = rev (bits_of l).
Proof. intros. unfold bits_of. apply map_rev. Qed.

Lemma fillrev_peekrev : forall v i x n,
  (i + n <= length v)%nat ->
  exists v', fillFieldReversed v i x n = Ok v' /\
    peekFieldReversed v' i n = Ok (u64 (x mod 2 ^ Z.of_nat n)).
Proof.
  intros v i x n H. eexists. split; [apply fillFieldReversed_spec; assumption|].
  pose proof (field_bits_length n x) as L.
  assert (L' : length (rev (field_bits n x)) = n) by (rewrite rev_length; apply L).
  rewrite peekFieldReversed_spec by (rewrite splice_length; lia).
  rewrite <- L' at 1. rewrite slice_splice by lia.
  rewrite bits_of_rev, rev_involutive, be_value_field. reflexivity.
Qed.

Lemma mixed_fillrev_peek : forall v i x n,
  (i + n <= length v)%nat -> (n <= 64)%nat ->
  exists v', fillFieldReversed v i x n = Ok v' /\
    peekField v' i n = Ok (reverse_bits n x).
Proof.
  intros v i x n H Hn. eexists. split; [apply fillFieldReversed_spec; assumption|].
  pose proof (field_bits_length n x) as L.
  assert (L' : length (rev (field_bits n x)) = n) by (rewrite rev_length; apply L).
  rewrite peekField_spec by (rewrite splice_length; lia).
  rewrite <- L' at 1. rewrite slice_splice by lia.
  rewrite bits_of_rev. unfold reverse_bits. rewrite u64_be_value; [reflexivity|].
  rewrite rev_length, bits_of_field. assumption.
Qed.

Lemma mixed_fill_peekrev : forall v i x n,
  (i + n <= length v)%nat -> (n <= 64)%nat ->
  exists v', fillField v i x n = Ok v' /\
    peekFieldReversed v' i n = Ok (reverse_bits n x).
Proof.
  intros v i x n H Hn. eexists. split; [apply fillField_spec; assumption|].
  pose proof (field_bits_length n x) as L.
  rewrite peekFieldReversed_spec by (rewrite splice_length; lia).
  rewrite <- L at 1. rewrite slice_splice by lia.
  unfold reverse_bits. rewrite u64_be_value; [reflexivity|].
  rewrite rev_length, bits_of_field. assumption.
Qed.
