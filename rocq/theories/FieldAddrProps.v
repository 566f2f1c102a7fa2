(** C95: bit fields with any index and length, in machine arithmetic. *)
From Coq Require Import Lia.
From Verif Require Import Base BaseFacts BitVectorModel BitVectorSpec BitFieldProofs BitVectorProps VectorBoundsModel VectorBoundsProps FieldAddrModel.
Local Open Scope Z_scope.

(** The contents of a vector of [n] chars, the bit of weight 2^[j] of a value. *)
Definition contents (m : memory) (r : range) (n : nat) : list Z := map (fun j => m (first r + Z.of_nat j)) (seq 0 n).
Definition weight (value j : Z) : Z := Z.b2z (Z.testbit value j).
(** The addresses of the first and the last char of a field. *)
Definition lowest (r : range) (index : Z) : Z := (first r + index) mod 2 ^ 64.
Definition highest (r : range) (index length : Z) : Z := (first r + index + length - 1) mod 2 ^ 64.
Definition arguments (index length : Z) : Prop := 0 <= index < 2 ^ 64 /\ 0 < length < 2 ^ 32.
(** Only the chars from [lo] to [hi] differ, and there are the bits of the value, the lowest one at the end
    or, [backwards], at the beginning. *)
Definition written (backwards : bool) (m m' : memory) (lo hi value : Z) : Prop :=
  forall a, m' a = if (lo <=? a) && (a <=? hi) then weight value (if backwards then a - lo else hi - a) else m a.

Lemma land1 v : Z.land v 1 = weight v 0.
Proof. unfold weight. change 1 with (Z.ones 1) at 1. rewrite Z.land_ones by lia. change (2 ^ 1) with 2. rewrite Z.bit0_odd, Zmod_odd. destruct (Z.odd v); reflexivity. Qed.
Lemma weight_shift v j : 0 <= j -> weight (Z.shiftr v 1) j = weight v (j + 1).
Proof. intros J. unfold weight. rewrite Z.shiftr_spec by lia. reflexivity. Qed.
Lemma fill_down_spec : forall n fuel m dp base value, Z.of_nat n = dp - base + 1 -> 0 < base -> dp < 2 ^ 64 -> (n < fuel)%nat ->
  exists m', fill_down fuel m dp base value = Ok m' /\ written false m m' base dp value.
Proof.
  induction n as [|n IH]; intros fuel m dp base value E B D F; (destruct fuel as [|fuel]; [lia|]); cbn [fill_down].
  - replace (base <=? dp) with false by lia. exists m. split; [reflexivity|]. intros a. replace ((base <=? a) && (a <=? dp)) with false by lia. reflexivity.
  - replace (base <=? dp) with true by lia. rewrite u64_id by lia. destruct (IH fuel (store m dp (Z.land value 1)) (dp - 1) base (Z.shiftr value 1) ltac:(lia) B ltac:(lia) ltac:(lia)) as (m' & E' & W).
    exists m'. split; [exact E'|]. intros a. rewrite (W a). unfold store. destruct (Z.eqb_spec a dp) as [->|N].
    + replace ((base <=? dp) && (dp <=? dp - 1)) with false by lia. replace ((base <=? dp) && (dp <=? dp)) with true by lia. rewrite land1. f_equal. lia.
    + destruct ((base <=? a) && (a <=? dp - 1)) eqn:C; [replace ((base <=? a) && (a <=? dp)) with true by lia; rewrite weight_shift by lia; f_equal; lia|replace ((base <=? a) && (a <=? dp)) with false by lia; reflexivity].
Qed.
Lemma fill_up_spec : forall n fuel m dp end_ value, Z.of_nat n = end_ - dp + 1 -> 0 <= dp -> end_ < 2 ^ 64 - 1 -> (n < fuel)%nat ->
  exists m', fill_up fuel m dp end_ value = Ok m' /\ written true m m' dp end_ value.
Proof.
  induction n as [|n IH]; intros fuel m dp end_ value E B D F; (destruct fuel as [|fuel]; [lia|]); cbn [fill_up].
  - replace (dp <=? end_) with false by lia. exists m. split; [reflexivity|]. intros a. replace ((dp <=? a) && (a <=? end_)) with false by lia. reflexivity.
  - replace (dp <=? end_) with true by lia. rewrite u64_id by lia. destruct (IH fuel (store m dp (Z.land value 1)) (dp + 1) end_ (Z.shiftr value 1) ltac:(lia) ltac:(lia) D ltac:(lia)) as (m' & E' & W).
    exists m'. split; [exact E'|]. intros a. rewrite (W a). unfold store. destruct (Z.eqb_spec a dp) as [->|N].
    + replace ((dp + 1 <=? dp) && (dp <=? end_)) with false by lia. replace ((dp <=? dp) && (dp <=? end_)) with true by lia. rewrite land1. f_equal. lia.
    + destruct ((dp + 1 <=? a) && (a <=? end_)) eqn:C; [replace ((dp <=? a) && (a <=? end_)) with true by lia; rewrite weight_shift by lia; f_equal; lia|replace ((dp <=? a) && (a <=? end_)) with false by lia; reflexivity].
Qed.
Lemma u64_fold x y : u64 (u64 x + y) = u64 (x + y).
Proof. unfold u64. rewrite Z.add_mod_idemp_l by lia. reflexivity. Qed.
Lemma lowest_eq r i : ptr_add 1 (first r) i = lowest r i.
Proof. unfold ptr_add, lowest, u64. f_equal. lia. Qed.
Lemma highest_eq r i l : u64 (lowest r i + l - 1) = highest r i l.
Proof. unfold lowest, highest. fold (u64 (first r + i)). fold (u64 (first r + i + l - 1)). replace (u64 (first r + i) + l - 1) with (u64 (first r + i) + (l - 1)) by lia. rewrite u64_fold. f_equal. lia. Qed.
Lemma lowest_range r i : 0 <= lowest r i < 2 ^ 64.
Proof. apply Z.mod_pos_bound. lia. Qed.
Lemma highest_range r i l : 0 <= highest r i l < 2 ^ 64.
Proof. apply Z.mod_pos_bound. lia. Qed.
(** The field is either in one piece or wraps around the end of memory. *)
Lemma piece r i l : 0 < l < 2 ^ 32 -> highest r i l = lowest r i + l - 1 \/ highest r i l = lowest r i + l - 1 - 2 ^ 64.
Proof.
  intros L. rewrite <- highest_eq. pose proof (lowest_range r i). unfold u64. destruct (Z.ltb_spec (lowest r i + l - 1) (2 ^ 64)); [left; apply Z.mod_small; lia|right].
  symmetry. apply Z.mod_unique with (q := 1); lia.
Qed.

(** Every index and length.  The only check is that the last char is before the end of the vector: if it is
    not, the call aborts; otherwise the field is written wherever it is, inside the vector or before it, and
    if it wraps around nothing is written. *)
Theorem C95_fill n r m index value length : holds 1 n r -> arguments index length -> 0 < lowest r index ->
  (past r <= highest r index length -> forall fuel, fillField_at fuel m r index value length = Abort /\ fillFieldReversed_at fuel m r index value length = Abort) /\
  (highest r index length < past r -> forall fuel, (Z.to_nat length < fuel)%nat -> exists m1 m2, fillField_at fuel m r index value length = Ok m1 /\ fillFieldReversed_at fuel m r index value length = Ok m2 /\
     written false m m1 (lowest r index) (highest r index length) value /\ written true m m2 (lowest r index) (highest r index length) value).
Proof.
  intros (K & N & F & P & L) (I & Le) Lo. unfold fillField_at, fillFieldReversed_at. cbv zeta. rewrite lowest_eq, highest_eq. replace (length =? 0) with false by lia. cbv iota.
  pose proof (highest_range r index length) as HR. split.
  - intros A fuel. replace (highest r index length <? past r) with false by lia. split; reflexivity.
  - intros A fuel Fu. replace (highest r index length <? past r) with true by lia. cbn [assert_ bind].
    destruct (Z.leb_spec (lowest r index) (highest r index length)) as [C|C].
    + destruct (piece r index length Le) as [E|E]; [|pose proof (lowest_range r index); lia].
      destruct (fill_down_spec (Z.to_nat length) fuel m (highest r index length) (lowest r index) value ltac:(lia) Lo ltac:(lia) Fu) as (m1 & E1 & W1).
      destruct (fill_up_spec (Z.to_nat length) fuel m (lowest r index) (highest r index length) value ltac:(lia) ltac:(lia) ltac:(lia) Fu) as (m2 & E2 & W2).
      exists m1, m2. auto.
    + exists m, m. destruct fuel as [|fuel]; [lia|]. cbn [fill_down fill_up]. replace (lowest r index <=? highest r index length) with false by lia.
      repeat split; intros a; replace ((lowest r index <=? a) && (a <=? highest r index length)) with false by lia; reflexivity.
Qed.
Print Assumptions C95_fill.
Theorem C95_nothing fuel m r index value : fillField_at fuel m r index value 0 = Ok m /\ fillFieldReversed_at fuel m r index value 0 = Ok m.
Proof. split; reflexivity. Qed.
Print Assumptions C95_nothing.

(** ** Indices that do not wrap: as on lists *)
Lemma contents_length m r n : length (contents m r n) = n.
Proof. unfold contents. rewrite map_length, seq_length. reflexivity. Qed.
Lemma contents_nth m r n j : (j < n)%nat -> nth_error (contents m r n) j = Some (m (first r + Z.of_nat j)).
Proof. intros J. unfold contents. rewrite nth_error_map, nth_error_nth' with (d := 0%nat) by (rewrite seq_length; exact J). rewrite seq_nth by exact J. reflexivity. Qed.
Lemma same_contents m r n v : length v = n -> (forall j, (j < n)%nat -> nth_error v j = Some (m (first r + Z.of_nat j))) -> contents m r n = v.
Proof.
  intros L H. apply nth_error_ext. intros j. destruct (Nat.ltb_spec j n) as [J|J].
  - rewrite contents_nth, H by exact J. reflexivity.
  - rewrite !(proj2 (nth_error_None _ _)) by (rewrite ?contents_length; lia). reflexivity.
Qed.
Definition agrees (n : nat) (r : range) (m : memory) (x : res (list Z)) (y : res memory) : Prop :=
  match x with
  | Ok v => exists m', y = Ok m' /\ contents m' r n = v /\ forall a, a < first r \/ past r <= a -> m' a = m a
  | Abort => y = Abort
  | _ => False
  end.
Theorem C95_as_lists n r m index value length fuel : holds 1 (Z.of_nat n) r -> 0 < first r -> 0 <= index -> 0 <= length < 2 ^ 32 -> first r + index + length - 1 < 2 ^ 64 -> (Z.to_nat length < fuel)%nat ->
  agrees n r m (fillField (contents m r n) (Z.to_nat index) value (Z.to_nat length)) (fillField_at fuel m r index value length) /\
  agrees n r m (fillFieldReversed (contents m r n) (Z.to_nat index) value (Z.to_nat length)) (fillFieldReversed_at fuel m r index value length).
Proof.
  intros H F0 I Le W Fu. pose proof H as (K & N & F & P & L). destruct (Z.eqb_spec length 0) as [->|NZ].
  { split; (exists m; split; [reflexivity|]; split; [reflexivity|]; intros; reflexivity). }
  assert (Hl : lowest r index = first r + index) by (apply Z.mod_small; lia).
  assert (Hh : highest r index length = first r + index + length - 1) by (apply Z.mod_small; lia).
  destruct (C95_fill (Z.of_nat n) r m index value length H ltac:(unfold arguments; lia) ltac:(lia)) as [CA CO]. rewrite Hh in CA, CO. rewrite Hl in CO.
  destruct (C04_write_bounds (contents m r n) (Z.to_nat index) value (Z.to_nat length)) as (_ & A1 & _ & A2 & _). rewrite contents_length in A1, A2.
  destruct (Z.leb_spec (past r) (first r + index + length - 1)) as [C|C].
  - destruct (CA C fuel) as [-> ->]. rewrite (proj2 A1), (proj2 A2) by lia. split; reflexivity.
  - destruct (CO C fuel Fu) as (m1 & m2 & -> & -> & W1 & W2).
    assert (B : (Z.to_nat index + Z.to_nat length <= List.length (contents m r n))%nat) by (rewrite contents_length; lia).
    split.
    + rewrite fillField_spec by exact B. exists m1. split; [reflexivity|]. split; [|intros a Ha; rewrite (W1 a); replace ((first r + index <=? a) && (a <=? first r + index + length - 1)) with false by lia; reflexivity].
      apply same_contents; [rewrite splice_length; rewrite ?field_bits_length, contents_length; try lia|].
      intros j J. rewrite (W1 (first r + Z.of_nat j)). rewrite splice_nth by (rewrite field_bits_length; exact B). rewrite field_bits_length.
      destruct (Nat.ltb_spec j (Z.to_nat index)) as [J1|J1]; [rewrite contents_nth by exact J; replace ((first r + index <=? first r + Z.of_nat j) && (first r + Z.of_nat j <=? first r + index + length - 1)) with false by lia; reflexivity|].
      destruct (Nat.ltb_spec j (Z.to_nat index + Z.to_nat length)) as [J2|J2]; [|rewrite contents_nth by exact J; replace ((first r + index <=? first r + Z.of_nat j) && (first r + Z.of_nat j <=? first r + index + length - 1)) with false by lia; reflexivity].
      replace ((first r + index <=? first r + Z.of_nat j) && (first r + Z.of_nat j <=? first r + index + length - 1)) with true by lia.
      unfold field_bits. rewrite nth_error_map, nth_error_nth' with (d := 0%nat) by (rewrite seq_length; lia). rewrite seq_nth by lia. cbn [option_map]. unfold weight. f_equal. f_equal. f_equal. lia.
    + rewrite fillFieldReversed_spec by exact B. exists m2. split; [reflexivity|]. split; [|intros a Ha; rewrite (W2 a); replace ((first r + index <=? a) && (a <=? first r + index + length - 1)) with false by lia; reflexivity].
      apply same_contents; [rewrite splice_length; rewrite ?rev_length, ?field_bits_length, contents_length; try lia|].
      intros j J. rewrite (W2 (first r + Z.of_nat j)). rewrite splice_nth by (rewrite rev_length, field_bits_length; exact B). rewrite rev_length, field_bits_length.
      destruct (Nat.ltb_spec j (Z.to_nat index)) as [J1|J1]; [rewrite contents_nth by exact J; replace ((first r + index <=? first r + Z.of_nat j) && (first r + Z.of_nat j <=? first r + index + length - 1)) with false by lia; reflexivity|].
      destruct (Nat.ltb_spec j (Z.to_nat index + Z.to_nat length)) as [J2|J2]; [|rewrite contents_nth by exact J; replace ((first r + index <=? first r + Z.of_nat j) && (first r + Z.of_nat j <=? first r + index + length - 1)) with false by lia; reflexivity].
      replace ((first r + index <=? first r + Z.of_nat j) && (first r + Z.of_nat j <=? first r + index + length - 1)) with true by lia.
      unfold field_bits. rewrite <- map_rev, nth_error_map. rewrite nth_error_nth' with (d := 0%nat) by (rewrite rev_length, seq_length; lia). rewrite rev_nth by (rewrite seq_length; lia). rewrite seq_length, seq_nth by lia. cbn [option_map]. unfold weight. f_equal. f_equal. f_equal. lia.
Qed.
Print Assumptions C95_as_lists.

(** ** Reading: the chars at the addresses of the field, whatever they belong to *)
Definition chars (m : memory) (lo : Z) (n : nat) : list Z := map (fun j => m ((lo + Z.of_nat j) mod 2 ^ 64)) (seq 0 n).
Lemma chars_S m lo n : chars m lo (S n) = m (lo mod 2 ^ 64) :: chars m (lo + 1) n.
Proof.
  unfold chars. cbn [seq map]. f_equal; [f_equal; f_equal; lia|]. rewrite <- seq_shift, map_map. apply map_ext. intros j. f_equal. f_equal. lia.
Qed.
Lemma chars_last m lo n : chars m lo (S n) = chars m lo n ++ [m ((lo + Z.of_nat n) mod 2 ^ 64)].
Proof. unfold chars. rewrite seq_S, map_app. reflexivity. Qed.
Lemma peek_up_spec : forall n m dp a, peek_up m (u64 dp) n (u64 a) = u64 (fold_left (fun a b => 2 * a + Z.b2z b) (bits_of (chars m dp n)) a).
Proof.
  induction n as [|n IH]; intros m dp a; [reflexivity|]. cbn [peek_up]. rewrite bitof_odd, lor_shift_bit, u64_step, u64_fold, IH, chars_S. unfold bits_of. cbn [map fold_left]. reflexivity.
Qed.
Lemma peek_down_spec : forall n m dp a, peek_down m (u64 (dp + Z.of_nat n - 1)) n (u64 a) = u64 (fold_left (fun a b => 2 * a + Z.b2z b) (rev (bits_of (chars m dp n))) a).
Proof.
  induction n as [|n IH]; intros m dp a; [reflexivity|]. cbn [peek_down]. rewrite bitof_odd, lor_shift_bit, u64_step.
  replace (u64 (u64 (dp + Z.of_nat (S n) - 1) - 1)) with (u64 (dp + Z.of_nat n - 1)) by (change (u64 (dp + Z.of_nat (S n) - 1) - 1) with (u64 (dp + Z.of_nat (S n) - 1) + -1); rewrite u64_fold; f_equal; lia).
  rewrite IH, chars_last. unfold bits_of. rewrite map_app, rev_app_distr. cbn [map rev app fold_left]. do 5 f_equal. f_equal. unfold u64. f_equal. lia.
Qed.
Theorem C95_peek m r index length : 0 <= length < 2 ^ 32 ->
  peekField_at m r index length = Ok (be_value (bits_of (chars m (first r + index) (Z.to_nat length))) mod 2 ^ 64) /\
  peekFieldReversed_at m r index length =
    (if highest r index length <? past r then Ok (if length <=? 2 ^ 31 then be_value (rev (bits_of (chars m (first r + index) (Z.to_nat length)))) mod 2 ^ 64 else 0) else Abort).
Proof.
  intros L. split.
  - unfold peekField_at, ptr_add. f_equal. change 0 with (u64 0). rewrite peek_up_spec. unfold be_value, u64. do 5 f_equal. lia.
  - unfold peekFieldReversed_at, highest. cbv zeta. fold (u64 (first r + index + length - 1)). destruct (u64 (first r + index + length - 1) <? past r); [|reflexivity]. cbn [assert_ bind]. f_equal.
    assert (E : Z.to_nat (s32 (u32 (length - 1)) + 1) = if length <=? 2 ^ 31 then Z.to_nat length else 0%nat).
    { unfold s32, u32. destruct (Z.eqb_spec length 0) as [->|Z0]; [reflexivity|]. rewrite (Z.mod_small (length - 1)) by lia. destruct (Z.leb_spec length (2 ^ 31)).
      - rewrite Z.mod_small by lia. f_equal. lia.
      - rewrite (Z.mod_eq _ (2 ^ 32)) by lia. replace ((length - 1 + 2 ^ 31) / 2 ^ 32) with 1 by (apply Z.div_unique with (r := length - 1 + 2 ^ 31 - 2 ^ 32); lia). lia. }
    rewrite E. destruct (length <=? 2 ^ 31); [|reflexivity]. change 0 with (u64 0). replace (first r + index + length - 1) with (first r + index + Z.of_nat (Z.to_nat length) - 1) by lia. rewrite peek_down_spec. reflexivity.
Qed.
Print Assumptions C95_peek.
Lemma seq_from i n : seq i n = map (fun j => (i + j)%nat) (seq 0 n).
Proof.
  assert (G : forall n s, seq (i + s) n = map (fun j => (i + j)%nat) (seq s n)).
  { induction n0 as [|k IH]; intros s; [reflexivity|]. cbn [seq map]. f_equal. rewrite <- IH. f_equal. lia. }
  rewrite <- G. f_equal. lia.
Qed.
(** Inside the vector these are its elements. *)
Theorem C95_peek_as_lists n r m index length : holds 1 (Z.of_nat n) r -> 0 <= index -> 0 <= length < 2 ^ 31 -> index + length <= Z.of_nat n ->
  peekField_at m r index length = peekField (contents m r n) (Z.to_nat index) (Z.to_nat length) /\
  (0 < index + first r -> peekFieldReversed_at m r index length = peekFieldReversed (contents m r n) (Z.to_nat index) (Z.to_nat length)).
Proof.
  intros (K & N & F & P & L) I Le B. destruct (C95_peek m r index length ltac:(lia)) as [E1 E2].
  assert (S : chars m (first r + index) (Z.to_nat length) = slice (Z.to_nat index) (Z.to_nat length) (contents m r n)).
  { unfold chars, slice, contents. rewrite skipn_map, firstn_map.
    replace (seq 0 n) with (seq 0 (Z.to_nat index) ++ seq (Z.to_nat index) (Z.to_nat length) ++ seq (Z.to_nat index + Z.to_nat length) (n - Z.to_nat index - Z.to_nat length)) by (rewrite <- !seq_app; f_equal; lia).
    rewrite skipn_app, skipn_all2 by (rewrite seq_length; lia). rewrite seq_length, Nat.sub_diag. cbn [skipn app].
    rewrite firstn_app, firstn_all2 by (rewrite seq_length; lia). rewrite seq_length, Nat.sub_diag. cbn [firstn]. rewrite app_nil_r.
    rewrite (seq_from (Z.to_nat index)).
    rewrite map_map. apply map_ext_in. intros j J. apply in_seq in J. f_equal. rewrite Z.mod_small by lia. lia. }
  assert (B' : (Z.to_nat index + Z.to_nat length <= List.length (contents m r n))%nat) by (rewrite contents_length; lia).
  split.
  - rewrite E1, peekField_spec by exact B'. rewrite S. reflexivity.
  - intros Q. rewrite E2. replace (highest r index length <? past r) with true by (unfold highest; rewrite Z.mod_small by lia; lia). replace (length <=? 2 ^ 31) with true by lia.
    rewrite peekFieldReversed_spec by exact B'. rewrite S. unfold u64. reflexivity.
Qed.
Print Assumptions C95_peek_as_lists.

(** ** Defects *)
(** A negative index that keeps the last char before the end of the vector passes the check: chars before the
    vector are overwritten. *)
Theorem C95_before_refuted n r m back value length fuel : holds 1 n r -> 0 < back < first r -> 0 < length <= back + n -> length < 2 ^ 32 -> (Z.to_nat length < fuel)%nat ->
  exists m1 m2, fillField_at fuel m r (2 ^ 64 - back) value length = Ok m1 /\ fillFieldReversed_at fuel m r (2 ^ 64 - back) value length = Ok m2 /\
    written false m m1 (first r - back) (first r - back + length - 1) value /\ written true m m2 (first r - back) (first r - back + length - 1) value.
Proof.
  intros H B Le L32 Fu. pose proof H as (K & N & F & P & L).
  assert (Hl : lowest r (2 ^ 64 - back) = first r - back) by (unfold lowest; symmetry; apply Z.mod_unique with (q := 1); lia).
  assert (Hh : highest r (2 ^ 64 - back) length = first r - back + length - 1) by (unfold highest; symmetry; apply Z.mod_unique with (q := 1); lia).
  destruct (C95_fill n r m (2 ^ 64 - back) value length H ltac:(unfold arguments; lia) ltac:(lia)) as [_ CO]. rewrite Hh, Hl in CO. apply CO; [lia|exact Fu].
Qed.
Print Assumptions C95_before_refuted.
(** What peekField returns behind the vector depends on the memory there, for each vector and length. *)
Theorem C95_behind_refuted n r m : holds 1 (Z.of_nat n) r -> past r + 1 < 2 ^ 64 ->
  exists m', contents m' r n = contents m r n /\ peekField_at m r (Z.of_nat n) 1 <> peekField_at m' r (Z.of_nat n) 1.
Proof.
  intros (K & N & F & P & L) Q. exists (store m (past r) (m (past r) + 1)). split.
  - apply map_ext_in. intros j J. apply in_seq in J. unfold store. replace (first r + Z.of_nat j =? past r) with false by lia. reflexivity.
  - rewrite !(proj1 (C95_peek _ r (Z.of_nat n) 1 ltac:(lia))). change (Z.to_nat 1) with 1%nat. unfold chars. cbn [seq map]. replace ((first r + Z.of_nat n + Z.of_nat 0) mod 2 ^ 64) with (past r) by (rewrite Z.mod_small; lia).
    unfold store. rewrite Z.eqb_refl. unfold be_value, bits_of. cbn [map fold_left]. rewrite Z.odd_add. destruct (Z.odd (m (past r))); cbn; discriminate.
Qed.
Print Assumptions C95_behind_refuted.
(** More than 2^31 chars read backwards: the answer is 0. *)
Theorem C95_long_refuted m r index length : 2 ^ 31 < length < 2 ^ 32 -> highest r index length < past r -> peekFieldReversed_at m r index length = Ok 0.
Proof. intros L H. rewrite (proj2 (C95_peek m r index length ltac:(lia))). replace (highest r index length <? past r) with true by lia. replace (length <=? 2 ^ 31) with false by lia. reflexivity. Qed.
Print Assumptions C95_long_refuted.

Definition look (x : res memory) (from : Z) (n : nat) : res (list Z) := do m <- x; Ok (map (fun j => m (from + Z.of_nat j)) (seq 0 n)).
Example C95_ex : let r := Range 4096 4104 in let m := fun a : Z => 7 in
  holds 1 8 r /\ look (fillField_at 10 m r 2 5 3) 4096 8 = Ok [7; 7; 1; 0; 1; 7; 7; 7] /\ look (fillFieldReversed_at 10 m r 2 4 3) 4096 8 = Ok [7; 7; 0; 0; 1; 7; 7; 7] /\
  fillField_at 10 m r 6 5 3 = Abort /\ look (fillField_at 10 m r (2 ^ 64 - 2) 5 3) 4092 8 = Ok [7; 7; 1; 0; 1; 7; 7; 7] /\
  peekField_at (store m 4104 0) r 5 4 = Ok 14 /\ peekFieldReversed_at (store m 4103 0) r 5 3 = Ok 3 /\ peekFieldReversed_at m r 6 3 = Abort.
Proof. cbv zeta. split; [unfold holds; cbn [first past]; lia|]. vm_compute. repeat split. Qed.
