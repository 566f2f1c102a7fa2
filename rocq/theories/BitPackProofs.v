(** pack/unpack and hex text. *)
From Verif Require Import Base BaseFacts BitVectorModel BitVectorSpec BitFieldProofs.
Local Open Scope Z_scope.

Lemma u8_small : forall x, 0 <= x < 256 -> u8 x = x.
Proof. intros. unfold u8. apply Z.mod_small. lia. Qed.

Lemma slice_length : forall A i n (v : list A), (i + n <= length v)%nat -> length (slice i n v) = n.
Proof. intros. unfold slice. rewrite firstn_length, skipn_length. lia. Qed.

Lemma bits_slice : forall i n v, bits_of (slice i n v) = slice i n (bits_of v).
Proof.
  intros. unfold slice, bits_of. rewrite <- firstn_map, <- skipn_map. reflexivity.
Qed.

Lemma bits_length : forall v, length (bits_of v) = length v.
Proof. intros. apply map_length. Qed.

Lemma div_ceil_exact : forall n, (n mod 8 = 0)%nat -> ((n + 7) / 8 = n / 8)%nat.
Proof. intros. lia. Qed.

Definition byte_k (l : list bool) (k : nat) : Z := be_value (firstn 8 (skipn (8 * k) l ++ repeat false 7)).

Lemma byte_k_whole : forall l k, (8 * k + 8 <= length l)%nat -> byte_k l k = be_value (slice (8 * k) 8 l).
Proof.
  intros l k H. unfold byte_k, slice. rewrite firstn_app.
  replace (8 - length (skipn (8 * k) l))%nat with 0%nat by (rewrite skipn_length; lia).
  cbn [firstn]. rewrite app_nil_r. reflexivity.
Qed.

Lemma be_value_zeros : forall l m, be_value (l ++ repeat false m) = be_value l * 2 ^ Z.of_nat m.
Proof.
  intros. rewrite be_value_app, repeat_length.
  assert (be_value (repeat false m) = 0).
  { induction m as [|m IH]; [reflexivity|]. cbn [repeat]. rewrite be_value_cons, IH. reflexivity. }
  lia.
Qed.

Lemma firstn_repeat : forall A (x : A) n m, (n <= m)%nat -> firstn n (repeat x m) = repeat x n.
Proof.
  induction n as [|n IH]; intros [|m] H; cbn; try lia; auto. f_equal. apply IH. lia.
Qed.

Lemma byte_k_part : forall l k r, (r <= 8)%nat -> (1 <= r)%nat -> (length l = 8 * k + r)%nat ->
  byte_k l k = be_value (slice (8 * k) r l) * 2 ^ Z.of_nat (8 - r).
Proof.
  intros l k r H H1 L. unfold byte_k, slice. rewrite firstn_app.
  rewrite firstn_all2 by (rewrite skipn_length; lia).
  rewrite firstn_all2 with (n := r) by (rewrite skipn_length; lia).
  rewrite skipn_length. replace (8 - (length l - 8 * k))%nat with (8 - r)%nat by lia.
  rewrite firstn_repeat by lia. apply be_value_zeros.
Qed.

Lemma byte_k_bound : forall l k, 0 <= byte_k l k < 256.
Proof.
  intros. unfold byte_k.
  pose proof (be_value_bounds (firstn 8 (skipn (8 * k) l ++ repeat false 7))) as B.
  assert (length (firstn 8 (skipn (8 * k) l ++ repeat false 7)) <= 8)%nat by (rewrite firstn_length; lia).
  assert (2 ^ Z.of_nat (length (firstn 8 (skipn (8 * k) l ++ repeat false 7))) <= 2 ^ 8)
    by (apply Z.pow_le_mono_r; lia). change (2 ^ 8) with 256 in *. lia.
Qed.

Lemma peek_byte : forall v k, (8 * k + 8 <= length v)%nat ->
  peekField v (k * 8) 8 = Ok (byte_k (bits_of v) k).
Proof.
  intros v k H. rewrite peekField_spec by lia. rewrite (Nat.mul_comm k 8).
  rewrite bits_slice, <- byte_k_whole by (rewrite bits_length; lia).
  pose proof (byte_k_bound (bits_of v) k). rewrite u64_id by lia. reflexivity.
Qed.

Lemma packstr_loop_spec : forall n v i out, (8 * (i + n) <= length v)%nat ->
  packstr_loop v i n out = Ok (out ++ map (byte_k (bits_of v)) (seq i n)).
Proof.
  induction n as [|n IH]; intros v i out H.
  - cbn. rewrite app_nil_r. reflexivity.
  - cbn [packstr_loop]. rewrite peek_byte by lia. cbn [bind]. rewrite IH by lia.
    rewrite u8_small by apply byte_k_bound. rewrite <- app_assoc. reflexivity.
Qed.

Lemma packed_unfold : forall l, packed l = map (byte_k l) (seq 0 ((length l + 7) / 8)).
Proof. reflexivity. Qed.

Lemma packed_length : forall l, length (packed l) = ((length l + 7) / 8)%nat.
Proof. intros. unfold packed. rewrite map_length, seq_length. reflexivity. Qed.

Lemma last_byte : forall v, (length v mod 8 <> 0)%nat ->
  exists b, peekField v (length v / 8 * 8) (length v - length v / 8 * 8) = Ok b /\
    u8 (Z.shiftl b (Z.of_nat (8 - (length v - length v / 8 * 8)))) = byte_k (bits_of v) (length v / 8).
Proof.
  intros v H. set (q := (length v / 8)%nat). set (r := (length v - q * 8)%nat).
  assert (Hr : (1 <= r <= 7)%nat) by (unfold r, q; lia).
  rewrite peekField_spec by (unfold r, q; lia).
  eexists. split; [reflexivity|].
  rewrite u64_be_value by (rewrite bits_length, slice_length; unfold r, q; lia).
  rewrite Z.shiftl_mul_pow2 by lia.
  rewrite (byte_k_part (bits_of v) q r); try lia.
  - rewrite (Nat.mul_comm q 8), bits_slice. apply u8_small.
    rewrite <- (byte_k_part (bits_of v) q r); try lia; [apply byte_k_bound|].
    rewrite bits_length. unfold r, q; lia.
  - rewrite bits_length. unfold r, q; lia.
Qed.

Lemma packToString_spec : forall v, packToString v = Ok (packed (bits_of v)).
Proof.
  intros v. unfold packToString. rewrite packstr_loop_spec by lia. cbn [bind app].
  rewrite packed_unfold, bits_length.
  destruct (length v - length v / 8 * 8)%nat as [|r] eqn:E.
  - f_equal. f_equal. f_equal. lia.
  - destruct (last_byte v) as (b & Eb & Ek); [lia|].
    rewrite <- E. rewrite Eb. cbn [bind]. rewrite Ek.
    replace ((length v + 7) / 8)%nat with (S (length v / 8)) by lia.
    rewrite seq_S, map_app. reflexivity.
Qed.

Lemma firstn_upd_seq : forall A (targ : list A) i x, (i < length targ)%nat ->
  firstn (S i) (upd targ i x) = firstn i targ ++ [x].
Proof.
  induction targ as [|h t IH]; intros [|i] x H; cbn in *; try lia; auto.
  f_equal. apply IH. lia.
Qed.

Lemma skipn_upd : forall A (targ : list A) i x, skipn (S i) (upd targ i x) = skipn (S i) targ.
Proof.
  induction targ as [|h t IH]; intros [|i] x; cbn in *; auto.
Qed.

Lemma pack_loop_spec : forall n v i targ, (8 * (i + n) <= length v)%nat -> (i + n <= length targ)%nat ->
  exists t', pack_loop v i n targ = Ok t' /\ length t' = length targ /\
    firstn (i + n) t' = firstn i targ ++ map (byte_k (bits_of v)) (seq i n) /\
    skipn (i + n) t' = skipn (i + n) targ.
Proof.
  induction n as [|n IH]; intros v i targ H H2.
  - cbn [pack_loop seq map]. exists targ. rewrite Nat.add_0_r, app_nil_r. auto.
  - cbn [pack_loop]. rewrite peek_byte by lia. cbn [bind]. rewrite wr_ok by lia. cbn [bind].
    destruct (IH v (S i) (upd targ i (u8 (byte_k (bits_of v) i)))) as (t' & E & L & F & Sk); try rewrite upd_length; try lia.
    exists t'. rewrite upd_length in L. split; [assumption|]. split; [assumption|].
    rewrite firstn_upd_seq in F by lia.
    replace (i + S n)%nat with (S i + n)%nat by lia. split.
    + rewrite F. rewrite u8_small by apply byte_k_bound. rewrite <- app_assoc. reflexivity.
    + rewrite Sk. replace (S i + n)%nat with (n + S i)%nat by lia.
      rewrite <- !skipn_skipn || idtac.
      apply nth_error_ext. intros j. rewrite !nth_error_skipn. apply nth_error_upd_neq. lia.
Qed.

Lemma pack_spec : forall v targ, ((length v + 7) / 8 <= length targ)%nat ->
  pack v targ = Ok (packed (bits_of v) ++ skipn ((length v + 7) / 8) targ).
Proof.
  intros v targ H. unfold pack.
  destruct (pack_loop_spec (length v / 8) v 0 targ) as (t' & E & L & F & Sk); try lia.
  rewrite E. cbn [bind]. cbn [Nat.add firstn app] in F, Sk.
  rewrite packed_unfold, bits_length.
  destruct (length v - length v / 8 * 8)%nat as [|r] eqn:Er.
  - f_equal. rewrite <- (firstn_skipn (length v / 8) t'). rewrite F, Sk.
    replace ((length v + 7) / 8)%nat with (length v / 8)%nat by lia. reflexivity.
  - destruct (last_byte v) as (b & Eb & Ek); [lia|].
    rewrite <- Er. rewrite Eb. cbn [bind]. rewrite Ek.
    rewrite wr_ok by lia. f_equal.
    replace ((length v + 7) / 8)%nat with (S (length v / 8)) by lia.
    set (q := (length v / 8)%nat) in *.
    rewrite <- (firstn_skipn (S q) (upd t' q _)).
    rewrite firstn_upd_seq by lia. rewrite F. rewrite seq_S, map_app. cbn [map]. f_equal.
    rewrite skipn_upd. apply nth_error_ext. intros j. rewrite !nth_error_skipn.
    assert (X : nth_error (skipn q t') (S j) = nth_error (skipn q targ) (S j)) by (rewrite Sk; reflexivity).
    rewrite !nth_error_skipn in X. replace (S q + j)%nat with (q + S j)%nat by lia. assumption.
Qed.

(** unpack *)
Lemma field_bits_nth : forall n x k, (k < n)%nat ->
  nth_error (field_bits n x) k = Some (Z.b2z (Z.testbit x (Z.of_nat (n - 1 - k)))).
Proof.
  intros n x k H. unfold field_bits.
  rewrite nth_error_map. rewrite (nth_error_nth' _ 0%nat) by (rewrite seq_length; lia).
  rewrite seq_nth by lia. reflexivity.
Qed.

Lemma unpack_loop_spec : forall n v i src, (8 * (i + n) <= length v)%nat -> (i + n <= length src)%nat ->
  exists v', unpack_loop v i n src = Ok v' /\ length v' = length v /\
    forall j, nth_error v' j =
      if Nat.leb (8 * i) j && Nat.ltb j (8 * (i + n))
      then Some (Z.b2z (Z.testbit (nth (j / 8) src 0) (Z.of_nat (7 - j mod 8))))
      else nth_error v j.
Proof.
  induction n as [|n IH]; intros v i src H H2.
  - exists v. cbn [unpack_loop]. split; [reflexivity|]. split; [reflexivity|]. intros j.
    destruct (Nat.leb_spec (8 * i) j), (Nat.ltb_spec j (8 * (i + 0))); cbn [andb]; try reflexivity. lia.
  - cbn [unpack_loop]. destruct (rd_in _ src i) as (b & E1 & E2); [lia|]. rewrite E1. cbn [bind].
    rewrite fillField_spec by lia. cbn [bind].
    set (v1 := splice (i * 8) (field_bits 8 b) v).
    assert (L1 : length v1 = length v) by (apply splice_length; rewrite field_bits_length; lia).
    destruct (IH v1 (S i) src) as (v' & E & L & P); try lia.
    exists v'. split; [assumption|]. split; [congruence|]. intros j. rewrite P.
    unfold v1. rewrite splice_nth by (rewrite field_bits_length; lia). rewrite field_bits_length.
    destruct (Nat.leb_spec (8 * S i) j), (Nat.ltb_spec j (8 * (S i + n))), (Nat.leb_spec (8 * i) j),
       (Nat.ltb_spec j (8 * (i + S n))), (Nat.ltb_spec j (i * 8)), (Nat.ltb_spec j (i * 8 + 8)); cbn [andb];
      try reflexivity; try lia.
    rewrite field_bits_nth by lia.
    assert (D : (j / 8 = i)%nat) by lia. rewrite D.
    rewrite (nth_error_nth _ _ _ E2). do 4 f_equal. lia.
Qed.

Lemma unpacked_length : forall n src, length (unpacked n src) = n.
Proof. intros. unfold unpacked. rewrite map_length, seq_length. reflexivity. Qed.

Lemma unpacked_nth : forall n src j, nth_error (unpacked n src) j =
  if Nat.ltb j n then Some (Z.b2z (Z.testbit (nth (j / 8) src 0) (Z.of_nat (7 - j mod 8)))) else None.
Proof.
  intros n src j. destruct (Nat.ltb_spec j n).
  - unfold unpacked. rewrite nth_error_map. rewrite (nth_error_nth' _ 0%nat) by (rewrite seq_length; lia).
    rewrite seq_nth by lia. reflexivity.
  - apply nth_error_None. rewrite unpacked_length. lia.
Qed.

Lemma unpack_spec : forall v src, ((length v + 7) / 8 <= length src)%nat ->
  unpack v src = Ok (unpacked (length v) src).
Proof.
  intros v src H. unfold unpack.
  destruct (unpack_loop_spec (length v / 8) v 0 src) as (v' & E & L & P); try lia.
  rewrite E. cbn [bind].
  destruct (length v - length v / 8 * 8)%nat as [|r] eqn:Er.
  - f_equal. apply nth_error_ext. intros j. rewrite P, unpacked_nth.
    destruct (Nat.leb_spec (8 * 0) j), (Nat.ltb_spec j (8 * (0 + length v / 8))), (Nat.ltb_spec j (length v)); cbn [andb]; try reflexivity; try lia.
    apply nth_error_None. lia.
  - rewrite <- Er. destruct (rd_in _ src (length v / 8)) as (b & E1 & E2); [lia|]. rewrite E1. cbn [bind].
    rewrite fillField_spec by lia. f_equal.
    apply nth_error_ext. intros j.
    rewrite splice_nth by (rewrite field_bits_length; lia). rewrite field_bits_length, P, unpacked_nth.
    destruct (Nat.ltb_spec j (length v / 8 * 8)), (Nat.leb_spec (8 * 0) j), (Nat.ltb_spec j (8 * (0 + length v / 8))),
      (Nat.ltb_spec j (length v)), (Nat.ltb_spec j (length v / 8 * 8 + (length v - length v / 8 * 8))); cbn [andb]; try reflexivity; try lia.
    + rewrite field_bits_nth by lia. do 2 f_equal.
      rewrite Z.shiftr_spec by lia.
      assert (D : (j / 8 = length v / 8)%nat) by lia. rewrite D.
      rewrite (nth_error_nth _ _ _ E2). f_equal. lia.
    + apply nth_error_None. lia.
Qed.

(** testbit of a big-endian value *)
Lemma be_value_testbit : forall l k, (k < length l)%nat ->
  Z.testbit (be_value l) (Z.of_nat (length l - 1 - k)) = nth k l false.
Proof.
  intros l. induction l as [|b l IH] using rev_ind; intros k H.
  - cbn in H. lia.
  - rewrite app_length in *. cbn [length] in *. rewrite be_value_snoc.
    destruct (Nat.eq_dec k (length l)) as [->|N].
    + replace (length l + 1 - 1 - length l)%nat with 0%nat by lia.
      rewrite app_nth2, Nat.sub_diag by lia. cbn [nth Z.of_nat].
      destruct b; [apply Z.testbit_odd_0|]. cbn [Z.b2z]. rewrite Z.add_0_r. apply Z.testbit_even_0.
    + rewrite app_nth1 by lia.
      replace (Z.of_nat (length l + 1 - 1 - k)) with (Z.succ (Z.of_nat (length l - 1 - k))) by lia.
      rewrite <- IH by lia.
      destruct b; [apply Z.testbit_odd_succ; lia|]. cbn [Z.b2z]. rewrite Z.add_0_r. apply Z.testbit_even_succ; lia.
Qed.

Lemma byte_k_testbit : forall l k m, (m < 8)%nat -> (8 * k < length l)%nat ->
  Z.testbit (byte_k l k) (Z.of_nat (7 - m)) = nth (8 * k + m) l false.
Proof.
  intros l k m Hm Hk. unfold byte_k. set (w := firstn 8 (skipn (8 * k) l ++ repeat false 7)).
  assert (L : length w = 8%nat) by (unfold w; rewrite firstn_length, app_length, skipn_length, repeat_length; lia).
  replace (7 - m)%nat with (length w - 1 - m)%nat by lia. rewrite be_value_testbit by lia.
  unfold w.
  destruct (Nat.lt_ge_cases (8 * k + m) (length l)).
  - assert (E : nth_error (firstn 8 (skipn (8 * k) l ++ repeat false 7)) m = nth_error l (8 * k + m)).
    { rewrite nth_error_firstn. destruct (Nat.ltb_spec m 8); [|lia].
      rewrite nth_error_app1 by (rewrite skipn_length; lia). apply nth_error_skipn. }
    destruct (nth_error l (8 * k + m)) eqn:N.
    + rewrite (nth_error_nth _ _ _ N). apply (nth_error_nth _ _ _ E).
    + apply nth_error_None in N. lia.
  - rewrite (nth_overflow l) by lia.
    destruct (nth_error (firstn 8 (skipn (8 * k) l ++ repeat false 7)) m) eqn:N.
    + rewrite (nth_error_nth _ _ _ N). rewrite nth_error_firstn in N.
      destruct (Nat.ltb_spec m 8); [|lia].
      rewrite nth_error_app2 in N by (rewrite skipn_length; lia).
      rewrite nth_error_repeat_ in N by (rewrite skipn_length; lia). congruence.
    + apply nth_error_None in N. fold w in N. lia.
Qed.

Lemma packed_nth : forall l k, (k < (length l + 7) / 8)%nat -> nth k (packed l) 0 = byte_k l k.
Proof.
  intros l k H. rewrite packed_unfold.
  apply nth_error_nth. rewrite nth_error_map.
  rewrite (nth_error_nth' _ 0%nat) by (rewrite seq_length; lia). rewrite seq_nth by lia. reflexivity.
Qed.

Lemma unpacked_packed : forall l, unpacked (length l) (packed l) = map Z.b2z l.
Proof.
  intros l. apply nth_error_ext. intros j. rewrite unpacked_nth, nth_error_map.
  destruct (Nat.ltb_spec j (length l)).
  - rewrite packed_nth by lia. rewrite byte_k_testbit by lia.
    replace (8 * (j / 8) + j mod 8)%nat with j by lia.
    rewrite (nth_error_nth' l false) by assumption. reflexivity.
  - destruct (nth_error l j) eqn:N; [|reflexivity].
    assert (j < length l)%nat by (apply nth_error_Some; congruence). lia.
Qed.

Lemma bits_of_b2z : forall l, bits_of (map Z.b2z l) = l.
Proof.
  induction l as [|b t IH]; [reflexivity|]. unfold bits_of in *. cbn [map]. rewrite IH, odd_b2z. reflexivity.
Qed.

Lemma pack_unpack_roundtrip : forall v w targ t',
  pack v targ = Ok t' -> ((length v + 7) / 8 <= length targ)%nat -> length w = length v ->
  exists v', unpack w t' = Ok v' /\ bits_of v' = bits_of v /\ length v' = length v.
Proof.
  intros v w targ t' H HL L. rewrite pack_spec in H by assumption.
  assert (Et : t' = packed (bits_of v) ++ skipn ((length v + 7) / 8) targ) by congruence. subst t'.
  rewrite unpack_spec.
  2:{ rewrite app_length, packed_length, bits_length, L, skipn_length. lia. }
  eexists. split; [reflexivity|].
  rewrite L.
  assert (E : unpacked (length v) (packed (bits_of v) ++ skipn ((length v + 7) / 8) targ) = map Z.b2z (bits_of v)).
  { rewrite <- unpacked_packed, bits_length. apply nth_error_ext. intros j. rewrite !unpacked_nth.
    destruct (Nat.ltb_spec j (length v)); [|reflexivity].
    rewrite app_nth1; [reflexivity|]. rewrite packed_length, bits_length. lia. }
  rewrite E. split; [apply bits_of_b2z|]. rewrite map_length. apply bits_length.
Qed.

(** bytes -> vector -> bytes *)
Lemma nat_below_8 : forall m, (m < 8)%nat -> In m [0;1;2;3;4;5;6;7]%nat.
Proof. intros m H. do 8 (destruct m as [|m]; [cbn; tauto|]). lia. Qed.

Lemma byte_bits_inj : forall a b, 0 <= a < 256 -> 0 <= b < 256 ->
  (forall m, (m < 8)%nat -> Z.testbit a (Z.of_nat m) = Z.testbit b (Z.of_nat m)) -> a = b.
Proof.
  intros a b Ha Hb H. apply Z.bits_inj'. intros n Hn.
  destruct (Z.lt_ge_cases n 8).
  - replace n with (Z.of_nat (Z.to_nat n)) by lia. apply H. lia.
  - assert (Hp : 2 ^ 8 <= 2 ^ n) by (apply Z.pow_le_mono_r; lia).
    change (2 ^ 8) with 256 in Hp.
    rewrite <- (Z.mod_small a (2 ^ n)), <- (Z.mod_small b (2 ^ n)) by lia.
    rewrite !Z.mod_pow2_bits_high by lia. reflexivity.
Qed.

Lemma nth_b2z_unpacked : forall n src j, (j < n)%nat ->
  nth j (bits_of (unpacked n src)) false = Z.testbit (nth (j / 8) src 0) (Z.of_nat (7 - j mod 8)).
Proof.
  intros n src j H. apply nth_error_nth. unfold bits_of. rewrite nth_error_map, unpacked_nth.
  destruct (Nat.ltb_spec j n); [|lia]. cbn. rewrite odd_b2z. reflexivity.
Qed.

(** Byte k of a packed unpacked array: the same byte, with the bits beyond the
    vector's end cleared. *)
Lemma packed_unpacked_bit : forall n src k m, (8 * k < n)%nat -> (m < 8)%nat ->
  Z.testbit (nth k (packed (bits_of (unpacked n src))) 0) (Z.of_nat (7 - m))
  = if Nat.ltb (8 * k + m) n then Z.testbit (nth k src 0) (Z.of_nat (7 - m)) else false.
Proof.
  intros n src k m Hk Hm.
  assert (L : length (bits_of (unpacked n src)) = n) by (rewrite bits_length; apply unpacked_length).
  rewrite packed_nth by lia. rewrite byte_k_testbit by lia.
  destruct (Nat.ltb_spec (8 * k + m) n).
  - rewrite nth_b2z_unpacked by assumption.
    replace ((8 * k + m) / 8)%nat with k by lia. replace ((8 * k + m) mod 8)%nat with m by lia. reflexivity.
  - apply nth_overflow. lia.
Qed.

Lemma packed_unpacked_whole : forall src, (forall b, In b src -> 0 <= b < 256) ->
  packed (bits_of (unpacked (8 * length src) src)) = src.
Proof.
  intros src H. apply nth_error_ext. intros k.
  assert (L : length (packed (bits_of (unpacked (8 * length src) src))) = length src).
  { rewrite packed_length, bits_length, unpacked_length. lia. }
  destruct (Nat.lt_ge_cases k (length src)) as [Hk|Hk].
  - rewrite !(nth_error_nth' _ 0) by lia. f_equal.
    apply byte_bits_inj.
    + rewrite packed_nth by (rewrite bits_length, unpacked_length; lia). apply byte_k_bound.
    + apply H. apply nth_In. assumption.
    + intros m Hm. replace m with (7 - (7 - m))%nat by lia.
      rewrite packed_unpacked_bit by lia.
      destruct (Nat.ltb_spec (8 * k + (7 - m)) (8 * length src)); [reflexivity|lia].
  - assert (N1 : nth_error (packed (bits_of (unpacked (8 * length src) src))) k = None) by (apply nth_error_None; lia).
    assert (N2 : nth_error src k = None) by (apply nth_error_None; lia). congruence.
Qed.

(** ** hex *)
Definition nib_k (l : list bool) (k : nat) : Z := be_value (slice (4 * k) 4 l).

Lemma nib_bound : forall l k, 0 <= nib_k l k < 16.
Proof.
  intros. unfold nib_k. pose proof (be_value_bounds (slice (4 * k) 4 l)) as B.
  assert (length (slice (4 * k) 4 l) <= 4)%nat by (unfold slice; rewrite firstn_length; lia).
  assert (2 ^ Z.of_nat (length (slice (4 * k) 4 l)) <= 2 ^ 4) by (apply Z.pow_le_mono_r; lia).
  change (2 ^ 4) with 16 in *. lia.
Qed.

Lemma peek_nib : forall v k, (4 * k + 4 <= length v)%nat ->
  peekField v (4 * k) 4 = Ok (nib_k (bits_of v) k).
Proof.
  intros v k H. rewrite peekField_spec by lia. rewrite bits_slice. fold (nib_k (bits_of v) k).
  pose proof (nib_bound (bits_of v) k). rewrite u64_id by lia. reflexivity.
Qed.

Lemma hex_loop_spec : forall n v i out, (4 * (i + n) <= length v)%nat ->
  hex_loop v (4 * i) n out = Ok (out ++ map (fun k => hexdigit (nib_k (bits_of v) k)) (seq i n)).
Proof.
  induction n as [|n IH]; intros v i out H.
  - cbn. rewrite app_nil_r. reflexivity.
  - cbn [hex_loop]. unfold readField. rewrite peek_nib by lia. cbn [bind fst snd].
    replace (4 * i + 4)%nat with (4 * S i)%nat by lia. rewrite IH by lia.
    rewrite <- app_assoc. reflexivity.
Qed.

Lemma hexdigit_lower : forall d, 0 <= d < 16 -> hexdigit d = lower_hex d.
Proof.
  intros d H. assert (C : forallb (fun d => hexdigit d =? lower_hex d) (map Z.of_nat (seq 0 16)) = true) by (vm_compute; reflexivity).
  rewrite forallb_forall in C. specialize (C d). apply Z.eqb_eq, C.
  apply in_map_iff. exists (Z.to_nat d). split; [lia|]. apply in_seq. lia.
Qed.

Lemma hexval_lower : forall d, 0 <= d < 16 -> hexval (lower_hex d) = Some d /\ isspace (lower_hex d) = false.
Proof.
  intros d H.
  assert (C : forallb (fun d => match hexval (lower_hex d) with Some x => x =? d | None => false end && negb (isspace (lower_hex d)))
     (map Z.of_nat (seq 0 16)) = true) by (vm_compute; reflexivity).
  rewrite forallb_forall in C. specialize (C d).
  assert (I : In d (map Z.of_nat (seq 0 16))).
  { apply in_map_iff. exists (Z.to_nat d). split; [lia|]. apply in_seq. lia. }
  specialize (C I). apply andb_prop in C. destruct C as [C1 C2].
  destruct (hexval (lower_hex d)) as [x|]; [|discriminate].
  apply Z.eqb_eq in C1. subst x. split; [reflexivity|]. destruct (isspace (lower_hex d)); [discriminate|reflexivity].
Qed.

Lemma hexstr_spec : forall v,
  hexstr v = Ok (map (fun k => lower_hex (be_value (slice (4 * k) 4 (bits_of v)))) (seq 0 (length v / 4))).
Proof.
  intros v. unfold hexstr. change 0%nat with (4 * 0)%nat at 1. rewrite hex_loop_spec by lia.
  cbn [app]. f_equal. apply map_ext. intros k. apply hexdigit_lower. apply nib_bound.
Qed.

(** scanning *)
Lemma scan1x_spec : forall s, scan1x s <> None <-> digit_reachable s 0.
Proof.
  induction s as [|c t IH].
  - cbn. split; [congruence|]. intros (j & c & _ & E & _). destruct j; discriminate.
  - cbn [scan1x]. destruct (isspace c) eqn:Sc.
    + rewrite IH. split.
      * intros (j & d & H & E & V & A). exists (S j), d. split; [lia|]. split; [exact E|].
        split; [assumption|]. intros [|k] Hk.
        -- exists c. split; [reflexivity|assumption].
        -- apply A. lia.
      * intros (j & d & H & E & V & A). destruct j as [|j].
        -- cbn in E. injection E as <-. exfalso. apply V. clear -Sc.
           unfold isspace in Sc. unfold hexval.
           destruct ((48 <=? c) && (c <=? 57)) eqn:X1; [lia|].
           destruct ((97 <=? c) && (c <=? 102)) eqn:X2; [lia|].
           destruct ((65 <=? c) && (c <=? 70)) eqn:X3; [lia|]. reflexivity.
        -- exists j, d. split; [lia|]. split; [exact E|]. split; [assumption|].
           intros k Hk. destruct (A (S k)) as (e & He & Se); [lia|]. exists e. split; assumption.
    + split.
      * intros H. exists 0%nat, c. repeat split; auto. intros k Hk. lia.
      * intros (j & d & H & E & V & A). destruct j as [|j].
        -- cbn in E. injection E as <-. assumption.
        -- destruct (A 0%nat) as (e & He & Se); [lia|]. cbn in He. congruence.
Qed.

Lemma digit_reachable_skipn : forall s i, digit_reachable (skipn i s) 0 <-> digit_reachable s i.
Proof.
  intros s i. split.
  - intros (j & c & H & E & V & A). exists (i + j)%nat, c. rewrite nth_error_skipn in E.
    split; [lia|]. split; [assumption|]. split; [assumption|].
    intros k Hk. destruct (A (k - i)%nat) as (d & Hd & Sd); [lia|]. rewrite nth_error_skipn in Hd.
    exists d. replace k with (i + (k - i))%nat by lia. auto.
  - intros (j & c & H & E & V & A). exists (j - i)%nat, c. rewrite nth_error_skipn.
    replace (i + (j - i))%nat with j by lia. split; [lia|]. split; [assumption|]. split; [assumption|].
    intros k Hk. destruct (A (i + k)%nat) as (d & Hd & Sd); [lia|]. exists d. rewrite nth_error_skipn. auto.
Qed.

Lemma scan_at : forall s i, scan1x (skipn i s) <> None <-> digit_reachable s i.
Proof. intros. rewrite scan1x_spec. apply digit_reachable_skipn. Qed.

Lemma digit_in_string : forall s i, digit_reachable s i -> (i < length s)%nat.
Proof.
  intros s i (j & c & H & E & _). assert (j < length s)%nat by (apply nth_error_Some; congruence). lia.
Qed.

Lemma cstr_at_ok : forall s i, (i <= length s)%nat -> cstr_at s i = Ok (skipn i s).
Proof. intros s i H. unfold cstr_at. apply Nat.leb_le in H. rewrite H. reflexivity. Qed.

(** The full behaviour of the digit loop. *)
Lemma unhex_loop_spec : forall n v i src, (4 * (i + n) <= length v)%nat -> (i <= length src)%nat ->
  (exists v', unhex_loop v i n src = Ok (v', true) /\ length v' = length v /\ (i + n <= length src)%nat /\
     (forall k, (i <= k < i + n)%nat -> digit_reachable src k) /\
     (forall j, nth_error v' j =
        if Nat.leb (4 * i) j && Nat.ltb j (4 * (i + n))
        then match scan1x (skipn (j / 4) src) with
             | Some d => Some (Z.b2z (Z.testbit d (Z.of_nat (3 - j mod 4))))
             | None => None
             end
        else nth_error v j)) \/
  (exists v', unhex_loop v i n src = Ok (v', false) /\ length v' = length v /\
     exists k, (i <= k < i + n)%nat /\ ~ digit_reachable src k).
Proof.
  induction n as [|n IH]; intros v i src H Hi.
  - left. exists v. cbn [unhex_loop]. repeat split; try lia.
    intros j. destruct (Nat.leb_spec (4 * i) j), (Nat.ltb_spec j (4 * (i + 0))); cbn [andb]; try reflexivity; lia.
  - cbn [unhex_loop]. rewrite cstr_at_ok by assumption. cbn [bind].
    destruct (scan1x (skipn i src)) as [val|] eqn:Sc.
    + assert (D : digit_reachable src i) by (apply scan_at; congruence).
      pose proof (digit_in_string _ _ D) as Li.
      rewrite fillField_spec by lia. cbn [bind].
      set (v1 := splice (i * 4) (field_bits 4 val) v).
      assert (L1 : length v1 = length v) by (apply splice_length; rewrite field_bits_length; lia).
      destruct (IH v1 (S i) src) as [(v' & E & L & Ln & A & P)|(v' & E & L & k & Hk & Nk)]; try lia.
      * left. exists v'. repeat split; try assumption; try lia.
        -- intros k Hk. destruct (Nat.eq_dec k i) as [->|]; [assumption|]. apply A. lia.
        -- intros j. rewrite P. unfold v1. rewrite splice_nth by (rewrite field_bits_length; lia).
           rewrite field_bits_length.
           destruct (Nat.leb_spec (4 * S i) j), (Nat.ltb_spec j (4 * (S i + n))), (Nat.leb_spec (4 * i) j),
             (Nat.ltb_spec j (4 * (i + S n))), (Nat.ltb_spec j (i * 4)), (Nat.ltb_spec j (i * 4 + 4)); cbn [andb];
             try reflexivity; try lia.
           assert (J : (j / 4 = i)%nat) by lia. rewrite J, Sc.
           rewrite field_bits_nth by lia. do 4 f_equal. lia.
      * right. exists v'. split; [assumption|]. split; [lia|]. exists k. split; [lia|assumption].
    + right. exists v. split; [reflexivity|]. split; [reflexivity|]. exists i. split; [lia|].
      rewrite <- scan_at. congruence.
Qed.

Lemma unhex_total : forall v src,
  exists v' b, unhex v src = Ok (v', b) /\ length v' = length v /\
    (b = true <-> forall k, (k < (length v + 3) / 4)%nat -> digit_reachable src k).
Proof.
  intros v src. unfold unhex.
  destruct (unhex_loop_spec (length v / 4) v 0 src) as [(v' & E & L & Ln & A & P)|(v' & E & L & k & Hk & Nk)]; try lia.
  - rewrite E. cbn [bind fst snd].
    destruct (length v - length v / 4 * 4)%nat as [|r] eqn:Er.
    + exists v', true. repeat split; try assumption. intros _ k Hk. apply A. lia.
    + rewrite cstr_at_ok by lia. cbn [bind].
      destruct (scan1x (skipn (length v / 4) src)) as [val|] eqn:Sc.
      * rewrite fillField_spec by lia. cbn [bind].
        eexists _, true. split; [reflexivity|]. rewrite splice_length by (rewrite field_bits_length; lia).
        split; [assumption|]. split; [|reflexivity]. intros _ k Hk.
        destruct (Nat.eq_dec k (length v / 4)) as [->|].
        -- apply scan_at. congruence.
        -- apply A. lia.
      * exists v', false. repeat split; try assumption; try discriminate.
        intros C. specialize (C (length v / 4)%nat). exfalso.
        assert (X : scan1x (skipn (length v / 4) src) <> None) by (apply scan_at, C; lia). congruence.
  - rewrite E. cbn [bind fst snd]. exists v', false. repeat split; try assumption; try discriminate.
    intros C. exfalso. apply Nk, C. lia.
Qed.

(** Contents after a successful parse: digit k gives elements 4k..4k+3 most
    significant bit first; a last partial group of r elements takes the r low
    bits of its digit. *)
Lemma unhex_contents : forall v src v',
  unhex v src = Ok (v', true) ->
  length v' = length v /\
  forall j, (j < length v)%nat -> exists d, scan1x (skipn (j / 4) src) = Some d /\
    nth_error v' j = Some (Z.b2z (Z.testbit d (Z.of_nat (Nat.min 4 (length v - j / 4 * 4) - 1 - j mod 4)))).
Proof.
  intros v src v2 H. unfold unhex in H.
  destruct (unhex_loop_spec (length v / 4) v 0 src) as [(v' & E & L & Ln & A & P)|(v' & E & L & k & Hk & Nk)]; try lia.
  - rewrite E in H. cbn [bind fst snd] in H.
    destruct (length v - length v / 4 * 4)%nat as [|r] eqn:Er.
    + injection H as <-. split; [assumption|]. intros j Hj. rewrite P.
      destruct (Nat.leb_spec (4 * 0) j), (Nat.ltb_spec j (4 * (0 + length v / 4))); cbn [andb]; try lia.
      assert (D : scan1x (skipn (j / 4) src) <> None) by (apply scan_at, A; lia).
      destruct (scan1x (skipn (j / 4) src)) as [d|]; [|congruence]. exists d. split; [reflexivity|].
      do 4 f_equal. lia.
    + rewrite cstr_at_ok in H by lia. cbn [bind] in H.
      destruct (scan1x (skipn (length v / 4) src)) as [val|] eqn:Sc; [|discriminate].
      rewrite fillField_spec in H by lia. cbn [bind] in H.
      assert (Ev : v2 = splice (length v / 4 * 4) (field_bits (S r) val) v') by congruence. subst v2. clear H.
      split; [rewrite splice_length; [assumption|rewrite field_bits_length; lia]|].
      intros j Hj. rewrite splice_nth by (rewrite field_bits_length; lia). rewrite field_bits_length.
      destruct (Nat.ltb_spec j (length v / 4 * 4)).
      * rewrite P. destruct (Nat.leb_spec (4 * 0) j), (Nat.ltb_spec j (4 * (0 + length v / 4))); cbn [andb]; try lia.
        assert (D : scan1x (skipn (j / 4) src) <> None) by (apply scan_at, A; lia).
        destruct (scan1x (skipn (j / 4) src)) as [d|]; [|congruence]. exists d. split; [reflexivity|].
        do 4 f_equal. lia.
      * destruct (Nat.ltb_spec j (length v / 4 * 4 + S r)); [|lia].
        assert (J : (j / 4 = length v / 4)%nat) by lia. rewrite J. exists val. split; [assumption|].
        rewrite field_bits_nth by lia. do 4 f_equal. lia.
  - rewrite E in H. cbn in H. discriminate.
Qed.

Lemma hexstr_digit : forall v s k, hexstr v = Ok s -> (k < length v / 4)%nat ->
  scan1x (skipn k s) = Some (nib_k (bits_of v) k).
Proof.
  intros v s k H Hk. rewrite hexstr_spec in H. apply Ok_inj in H. subst s.
  match goal with |- scan1x (skipn k ?s) = _ => assert (N : nth_error s k = Some (lower_hex (nib_k (bits_of v) k))) end.
  { rewrite nth_error_map. rewrite (nth_error_nth' _ 0%nat) by (rewrite seq_length; lia). rewrite seq_nth by lia. reflexivity. }
  rewrite (skipn_cons_nth _ _ _ _ N). cbn [scan1x].
  destruct (hexval_lower (nib_k (bits_of v) k)) as [V Sp]; [apply nib_bound|]. rewrite Sp. assumption.
Qed.

Lemma hexstr_length : forall v s, hexstr v = Ok s -> length s = (length v / 4)%nat.
Proof. intros v s H. rewrite hexstr_spec in H. apply Ok_inj in H. subst s. rewrite map_length, seq_length. reflexivity. Qed.

Lemma nib_testbit : forall l k m, (m < 4)%nat -> (4 * k + 4 <= length l)%nat ->
  Z.testbit (nib_k l k) (Z.of_nat (3 - m)) = nth (4 * k + m) l false.
Proof.
  intros l k m Hm Hk. unfold nib_k.
  assert (L : length (slice (4 * k) 4 l) = 4%nat) by (apply slice_length; lia).
  replace (3 - m)%nat with (length (slice (4 * k) 4 l) - 1 - m)%nat by lia.
  rewrite be_value_testbit by lia.
  apply nth_error_nth. unfold slice. rewrite nth_error_firstn. destruct (Nat.ltb_spec m 4); [|lia].
  rewrite nth_error_skipn. apply nth_error_nth'. lia.
Qed.

Lemma hex_roundtrip : forall v w s, (length v mod 4 = 0)%nat -> length w = length v ->
  hexstr v = Ok s ->
  exists v', unhex w s = Ok (v', true) /\ bits_of v' = bits_of v.
Proof.
  intros v w s M L H.
  destruct (unhex_total w s) as (v' & b & E & L' & B).
  assert (b = true).
  { apply B. intros k Hk. apply scan_at. rewrite (hexstr_digit v) by (assumption || lia). discriminate. }
  subst b. exists v'. split; [assumption|].
  destruct (unhex_contents _ _ _ E) as [_ C].
  apply nth_error_ext. intros j. destruct (Nat.lt_ge_cases j (length v)).
  - destruct (C j) as (d & Sd & Nd); [lia|].
    rewrite (hexstr_digit v) in Sd by (assumption || lia). assert (Ed : d = nib_k (bits_of v) (j / 4)) by congruence. subst d. clear Sd.
    unfold bits_of at 1. rewrite nth_error_map, Nd. cbn [option_map]. rewrite odd_b2z.
    rewrite L. replace (Nat.min 4 (length v - j / 4 * 4) - 1 - j mod 4)%nat with (3 - j mod 4)%nat by lia.
    rewrite nib_testbit by (rewrite ?bits_length; lia).
    replace (4 * (j / 4) + j mod 4)%nat with j by lia.
    symmetry. apply nth_error_nth'. rewrite bits_length. assumption.
  - assert (N1 : nth_error (bits_of v') j = None) by (apply nth_error_None; rewrite bits_length; lia).
    assert (N2 : nth_error (bits_of v) j = None) by (apply nth_error_None; rewrite bits_length; lia).
    congruence.
Qed.

Lemma hex_roundtrip_fails : forall v w s, (length v mod 4 <> 0)%nat -> length w = length v ->
  hexstr v = Ok s -> exists v', unhex w s = Ok (v', false).
Proof.
  intros v w s M L H.
  destruct (unhex_total w s) as (v' & b & E & L' & B).
  destruct b; [|eauto]. exfalso.
  destruct (proj1 B eq_refl (length v / 4)%nat) as (j & c & Hj & Ej & _); [lia|].
  assert (j < length s)%nat by (apply nth_error_Some; congruence).
  rewrite (hexstr_length _ _ H) in *. lia.
Qed.

Lemma scan1x_digit : forall s d, scan1x s = Some d ->
  exists k c, nth_error s k = Some c /\    (forall l, (l < k)%nat -> exists e, nth_error s l = Some e /\ isspace e = true) /\ hexval c = Some d.
Proof.
  induction s as [|c t IH]; intros d H; [discriminate|]. cbn [scan1x] in H.
  destruct (isspace c) eqn:Sc.
  - destruct (IH d H) as (k & e & E & A & V). exists (S k), e. split; [assumption|]. split; [|assumption].
    intros [|l] Hl; [exists c; split; [reflexivity|assumption]|]. apply A. lia.
  - exists 0%nat, c. split; [reflexivity|]. split; [intros; lia|assumption].
Qed.
