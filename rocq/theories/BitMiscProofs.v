(** Field sequences, in-place operations, permutations, puncturing, slicing. *)
From Verif Require Import Base BaseFacts BitVectorModel BitVectorSpec BitFieldProofs BitPackProofs.
Local Open Scope Z_scope.

(** ** Sequences of fields *)
(** The client program: write / read a layout with the matching calls. *)
Fixpoint write_all (v : bv) (i : nat) (fs : list field) : res (bv * nat) :=
  match fs with
  | [] => Ok (v, i)
  | f :: t =>
      do r <- (if f_rev f then writeFieldReversed v i (f_val f) (f_width f)
               else writeField v i (f_val f) (f_width f));
      write_all (fst r) (snd r) t
  end.

Fixpoint read_all (v : bv) (i : nat) (fs : list field) : res (list Z * nat) :=
  match fs with
  | [] => Ok ([], i)
  | f :: t =>
      do r <- (if f_rev f then readFieldReversed v i (f_width f) else readField v i (f_width f));
      do r' <- read_all v (snd r) t;
      Ok (fst r :: fst r', snd r')
  end.

Definition field_elems (f : field) : list Z :=
  if f_rev f then rev (field_bits (f_width f) (f_val f)) else field_bits (f_width f) (f_val f).

Lemma field_elems_length : forall f, length (field_elems f) = f_width f.
Proof. intros f. unfold field_elems. destruct (f_rev f); rewrite ?rev_length; apply field_bits_length. Qed.

Lemma writeField_spec : forall v i x n, (i + n <= length v)%nat ->
  writeField v i x n = Ok (splice i (field_bits n x) v, (i + n)%nat).
Proof.
  intros v i x [|n] H.
  - cbn. rewrite splice_nil, Nat.add_0_r. reflexivity.
  - unfold writeField. rewrite fillField_spec by assumption. reflexivity.
Qed.

Lemma writeFieldReversed_spec : forall v i x n, (i + n <= length v)%nat ->
  writeFieldReversed v i x n = Ok (splice i (rev (field_bits n x)) v, (i + n)%nat).
Proof.
  intros v i x [|n] H.
  - cbn. rewrite splice_nil, Nat.add_0_r. reflexivity.
  - unfold writeFieldReversed. rewrite fillFieldReversed_spec by assumption. reflexivity.
Qed.

Lemma write_one : forall v i f, (i + f_width f <= length v)%nat ->
  (if f_rev f then writeFieldReversed v i (f_val f) (f_width f)
   else writeField v i (f_val f) (f_width f)) = Ok (splice i (field_elems f) v, (i + f_width f)%nat).
Proof.
  intros v i f H. unfold field_elems.
  destruct (f_rev f); [apply writeFieldReversed_spec|apply writeField_spec]; assumption.
Qed.

Lemma splice_app : forall A i (a b v : list A), (i + length a + length b <= length v)%nat ->
  splice (i + length a) b (splice i a v) = splice i (a ++ b) v.
Proof.
  intros A i a b v H. apply nth_error_ext. intros j.
  rewrite !splice_nth; rewrite ?splice_length, ?app_length; try lia.
  destruct (Nat.ltb_spec j (i + length a)), (Nat.ltb_spec j i), (Nat.ltb_spec j (i + length a + length b)),
    (Nat.ltb_spec j (i + (length a + length b))); try lia; try reflexivity.
  - rewrite nth_error_app1 by lia. reflexivity.
  - rewrite nth_error_app2 by lia. f_equal. lia.
Qed.

Lemma flat_length : forall fs, length (flat_map field_elems fs) = total_width fs.
Proof.
  induction fs as [|f t IH]; [reflexivity|]. cbn [flat_map total_width fold_right].
  rewrite app_length, field_elems_length, IH. reflexivity.
Qed.

Lemma write_all_spec : forall fs v i, (i + total_width fs <= length v)%nat ->
  write_all v i fs = Ok (splice i (flat_map field_elems fs) v, (i + total_width fs)%nat).
Proof.
  induction fs as [|f t IH]; intros v i H; cbn [total_width fold_right] in H.
  - cbn. rewrite splice_nil, Nat.add_0_r. reflexivity.
  - cbn [write_all]. fold (total_width t) in H. rewrite write_one by lia. cbn [bind fst snd].
    assert (L : length (field_elems f) = f_width f) by apply field_elems_length.
    rewrite IH by (rewrite splice_length; lia).
    cbn [flat_map total_width fold_right]. fold (total_width t).
    rewrite <- L at 1. rewrite splice_app by (rewrite flat_length; lia).
    f_equal. f_equal. lia.
Qed.

(** Reading a layout from any vector that holds it. *)
Lemma slice_app_l : forall A i (a b : list A) v, slice i (length a + length b) v = a ++ b -> slice i (length a) v = a.
Proof.
  intros A i a b v H. unfold slice in *.
  assert (E : firstn (length a) (firstn (length a + length b) (skipn i v)) = firstn (length a) (a ++ b)) by congruence.
  rewrite firstn_firstn, Nat.min_l in E by lia. rewrite E.
  rewrite firstn_app, Nat.sub_diag, firstn_all. cbn [firstn]. apply app_nil_r.
Qed.

Lemma slice_app_r : forall A i (a b : list A) v, (i + length a + length b <= length v)%nat ->
  slice i (length a + length b) v = a ++ b -> slice (i + length a) (length b) v = b.
Proof.
  intros A i a b v L H. apply nth_error_ext. intros j.
  assert (E : nth_error (slice i (length a + length b) v) (length a + j) = nth_error (a ++ b) (length a + j)) by congruence.
  rewrite nth_error_app2 in E by lia. replace (length a + j - length a)%nat with j in E by lia.
  unfold slice in *. rewrite nth_error_firstn, nth_error_skipn in E. rewrite nth_error_firstn, nth_error_skipn.
  destruct (Nat.ltb_spec j (length b)), (Nat.ltb_spec (length a + j) (length a + length b)); try lia.
  - rewrite <- E. f_equal. lia.
  - assumption.
Qed.

Lemma read_one : forall v i f, (i + f_width f <= length v)%nat -> (f_width f <= 64)%nat ->
  slice i (f_width f) v = field_elems f ->
  (if f_rev f then readFieldReversed v i (f_width f) else readField v i (f_width f))
  = Ok (f_val f mod 2 ^ Z.of_nat (f_width f), (i + f_width f)%nat).
Proof.
  intros v i f H W S. unfold field_elems in S.
  assert (U : u64 (f_val f mod 2 ^ Z.of_nat (f_width f)) = f_val f mod 2 ^ Z.of_nat (f_width f)).
  { pose proof (pow_le_64 _ W). apply u64_id. pose proof (Z.mod_pos_bound (f_val f) (2 ^ Z.of_nat (f_width f))). lia. }
  destruct (f_rev f).
  - unfold readFieldReversed. rewrite peekFieldReversed_spec by assumption. rewrite S.
    rewrite bits_of_rev, rev_involutive, be_value_field, U. reflexivity.
  - unfold readField. rewrite peekField_spec by assumption. rewrite S.
    rewrite be_value_field, U. reflexivity.
Qed.

Lemma read_all_spec : forall fs v i, (i + total_width fs <= length v)%nat ->
  (forall f, In f fs -> (f_width f <= 64)%nat) ->
  slice i (total_width fs) v = flat_map field_elems fs ->
  read_all v i fs = Ok (map (fun f => f_val f mod 2 ^ Z.of_nat (f_width f)) fs, (i + total_width fs)%nat).
Proof.
  induction fs as [|f t IH]; intros v i H W S; cbn [total_width fold_right] in *.
  - cbn. rewrite Nat.add_0_r. reflexivity.
  - fold (total_width t) in *. cbn [flat_map] in S. cbn [read_all].
    assert (L : length (field_elems f) = f_width f) by apply field_elems_length.
    assert (L2 : length (flat_map field_elems t) = total_width t) by apply flat_length.
    rewrite read_one.
    + cbn [bind fst snd]. rewrite IH.
      * cbn [bind fst snd map]. f_equal. f_equal. lia.
      * lia.
      * intros g Hg. apply W. right. assumption.
      * rewrite <- L2. rewrite <- L at 1. rewrite <- L, <- L2 in S. apply slice_app_r; [lia|assumption].
    + lia.
    + apply W. left. reflexivity.
    + rewrite <- L. rewrite <- L, <- L2 in S. eapply slice_app_l. eassumption.
Qed.

Lemma layout_roundtrip : forall fs v i, (i + total_width fs <= length v)%nat ->
  (forall f, In f fs -> (f_width f <= 64)%nat) ->
  exists v', write_all v i fs = Ok (v', (i + total_width fs)%nat) /\
    length v' = length v /\
    (forall j, (j < i)%nat \/ (i + total_width fs <= j)%nat -> nth_error v' j = nth_error v j) /\
    read_all v' i fs = Ok (map (fun f => f_val f mod 2 ^ Z.of_nat (f_width f)) fs, (i + total_width fs)%nat).
Proof.
  intros fs v i H W. exists (splice i (flat_map field_elems fs) v).
  assert (L : length (flat_map field_elems fs) = total_width fs) by apply flat_length.
  split; [apply write_all_spec; assumption|].
  split; [apply splice_length; lia|].
  split.
  - intros j Hj. rewrite splice_nth by lia. rewrite L.
    destruct (Nat.ltb_spec j i), (Nat.ltb_spec j (i + total_width fs)); try lia; reflexivity.
  - apply read_all_spec; try assumption.
    + rewrite splice_length; lia.
    + rewrite <- L. apply slice_splice. lia.
Qed.

(** ** invert *)
Lemma s8_lnot_odd : forall c, Z.odd (s8 (Z.lnot c)) = negb (Z.odd c).
Proof.
  intros c. unfold s8, Z.lnot. replace (Z.pred (- c)) with (- c - 1) by lia.
  rewrite <- !Z.bit0_odd.
  assert (E : ((- c - 1 + 2 ^ 7) mod 2 ^ 8 - 2 ^ 7) mod 2 = (- c - 1) mod 2).
  { change (2 ^ 7) with 128. change (2 ^ 8) with 256. lia. }
  rewrite !Zmod_odd in E. rewrite !Z.bit0_odd.
  replace (Z.odd c) with (negb (Z.odd (- c - 1))).
  - rewrite negb_involutive. destruct (Z.odd ((- c - 1 + 2 ^ 7) mod 2 ^ 8 - 2 ^ 7)), (Z.odd (- c - 1)); congruence.
  - rewrite Z.odd_sub, Z.odd_opp. cbn. rewrite xorb_true_r, negb_involutive. reflexivity.
Qed.

Definition char_range (c : Z) : Prop := -128 <= c <= 127.

Lemma s8_small : forall c, char_range c -> s8 c = c.
Proof. intros c H. unfold s8, char_range in *. change (2 ^ 7) with 128. change (2 ^ 8) with 256. lia. Qed.

Lemma lnot_range : forall c, char_range c -> char_range (Z.lnot c).
Proof. intros c H. unfold char_range, Z.lnot in *. lia. Qed.

Lemma invert_bits : forall v, bits_of (invert v) = map negb (bits_of v).
Proof.
  induction v as [|c t IH]; [reflexivity|]. unfold bits_of, invert in *. cbn [map].
  rewrite s8_lnot_odd. f_equal. assumption.
Qed.

Lemma invert_involutive : forall v, Forall char_range v -> invert (invert v) = v.
Proof.
  induction v as [|c t IH]; intros H; [reflexivity|]. inversion H as [|x y Hc Ht]; subst.
  unfold invert in *. cbn [map]. rewrite IH by assumption. f_equal.
  rewrite (s8_small (Z.lnot c)) by (apply lnot_range; assumption).
  rewrite Z.lnot_involutive. apply s8_small. assumption.
Qed.

Lemma invert_range : forall v, Forall char_range (invert v).
Proof.
  intros v. unfold invert. rewrite Forall_map. apply Forall_forall. intros c _.
  unfold s8, char_range. change (2 ^ 7) with 128. change (2 ^ 8) with 256. lia.
Qed.

Lemma bv_eqb_eq : forall a b, bv_eqb a b = true <-> a = b.
Proof.
  induction a as [|x s IH]; intros [|y t]; cbn; try (split; congruence).
  rewrite andb_true_iff, IH, Z.eqb_eq. split; [intros [-> ->]; reflexivity|]. intros E. injection E. auto.
Qed.

(** An inverted non-empty 0/1 vector is never [==] to a 0/1 vector. *)
Lemma invert_not_equal : forall v w, Forall (fun c => c = 0 \/ c = 1) v -> Forall (fun c => c = 0 \/ c = 1) w ->
  v <> [] -> bv_eqb (invert v) w = false.
Proof.
  intros [|c t] [|d u] Hv Hw N; try congruence; try reflexivity.
  inversion Hv as [|x y Hc Ht]; subst. inversion Hw as [|x' y' Hd Hu]; subst.
  cbn. replace (s8 (Z.lnot c) =? d) with false; [reflexivity|].
  destruct Hc as [->| ->], Hd as [->| ->]; reflexivity.
Qed.

(** ** reverse8 / LSB8MSB *)
Lemma reverse8_spec : forall a0 a1 a2 a3 a4 a5 a6 a7 t,
  reverse8 (a0 :: a1 :: a2 :: a3 :: a4 :: a5 :: a6 :: a7 :: t)
  = Ok (a7 :: a6 :: a5 :: a4 :: a3 :: a2 :: a1 :: a0 :: t).
Proof. intros. reflexivity. Qed.

Lemma reverse8_short : forall v, (length v < 8)%nat -> reverse8 v = Abort.
Proof.
  intros v H. unfold reverse8, assert_. destruct (Nat.leb_spec 8 (length v)); [lia|reflexivity].
Qed.

Lemma split8 : forall A (v : list A), (8 <= length v)%nat ->
  exists a0 a1 a2 a3 a4 a5 a6 a7 t, v = a0 :: a1 :: a2 :: a3 :: a4 :: a5 :: a6 :: a7 :: t.
Proof.
  intros A v H. do 8 (destruct v as [|? v]; [cbn in H; lia|]). repeat eexists.
Qed.

Lemma reverse8_nth : forall v, (8 <= length v)%nat -> exists v', reverse8 v = Ok v' /\ length v' = length v /\
  forall j, nth_error v' j = if Nat.ltb j 8 then nth_error v (7 - j) else nth_error v j.
Proof.
  intros v H. destruct (split8 _ v H) as (a0 & a1 & a2 & a3 & a4 & a5 & a6 & a7 & t & ->).
  rewrite reverse8_spec. eexists. split; [reflexivity|]. split; [reflexivity|]. intros j.
  do 8 (destruct j as [|j]; [reflexivity|]). reflexivity.
Qed.

Lemma reverse8_at_nth : forall v i, (i + 8 <= length v)%nat -> exists v', reverse8_at v i = Ok v' /\ length v' = length v /\
  forall j, nth_error v' j = if Nat.leb i j && Nat.ltb j (i + 8) then nth_error v (i + (7 - (j - i))) else nth_error v j.
Proof.
  intros v i H. unfold reverse8_at, assert_. destruct (Nat.leb_spec (i + 8) (length v)); [|lia]. cbn [bind].
  assert (L : length (firstn 8 (skipn i v)) = 8%nat) by (rewrite firstn_length, skipn_length; lia).
  destruct (reverse8_nth (firstn 8 (skipn i v))) as (s & E & Ls & P); [lia|].
  rewrite E. cbn [bind]. eexists. split; [reflexivity|].
  assert (S : firstn i v ++ s ++ skipn (i + 8) v = splice i s v).
  { unfold splice. rewrite Ls, L. reflexivity. }
  rewrite S. rewrite splice_length by lia. split; [reflexivity|]. intros j.
  rewrite splice_nth by lia. rewrite Ls, L.
  destruct (Nat.ltb_spec j i), (Nat.leb_spec i j), (Nat.ltb_spec j (i + 8)); cbn [andb]; try lia; try reflexivity.
  rewrite P. destruct (Nat.ltb_spec (j - i) 8); [|lia].
  rewrite nth_error_firstn, nth_error_skipn. destruct (Nat.ltb_spec (7 - (j - i)) 8); [reflexivity|lia].
Qed.

Lemma lsb8msb_loop_nth : forall n v i, (8 * (i + n) <= length v)%nat ->
  exists v', lsb8msb_loop v (8 * i) n = Ok v' /\ length v' = length v /\
  forall j, nth_error v' j = if Nat.leb (8 * i) j && Nat.ltb j (8 * (i + n))
    then nth_error v (8 * (j / 8) + (7 - j mod 8)) else nth_error v j.
Proof.
  induction n as [|n IH]; intros v i H.
  - exists v. cbn [lsb8msb_loop]. repeat split. intros j.
    destruct (Nat.leb_spec (8 * i) j), (Nat.ltb_spec j (8 * (i + 0))); cbn [andb]; try lia; reflexivity.
  - cbn [lsb8msb_loop]. destruct (reverse8_at_nth v (8 * i)) as (v1 & E1 & L1 & P1); [lia|].
    rewrite E1. cbn [bind]. replace (8 * i + 8)%nat with (8 * S i)%nat by lia.
    destruct (IH v1 (S i)) as (v' & E & L & P); [lia|].
    exists v'. split; [assumption|]. split; [lia|]. intros j. rewrite P.
    destruct (Nat.leb_spec (8 * S i) j), (Nat.ltb_spec j (8 * (S i + n))), (Nat.leb_spec (8 * i) j),
      (Nat.ltb_spec j (8 * (i + S n))); cbn [andb]; try lia; rewrite P1.
    + destruct (Nat.leb_spec (8 * i) (8 * (j / 8) + (7 - j mod 8))), (Nat.ltb_spec (8 * (j / 8) + (7 - j mod 8)) (8 * i + 8)); cbn [andb]; try lia; reflexivity.
    + destruct (Nat.leb_spec (8 * i) j), (Nat.ltb_spec j (8 * i + 8)); cbn [andb]; try lia; reflexivity.
    + destruct (Nat.leb_spec (8 * i) j), (Nat.ltb_spec j (8 * i + 8)); cbn [andb]; try lia.
      f_equal. lia.
    + destruct (Nat.leb_spec (8 * i) j), (Nat.ltb_spec j (8 * i + 8)); cbn [andb]; try lia; reflexivity.
Qed.

Lemma LSB8MSB_spec : forall v, exists v', LSB8MSB v = Ok v' /\ length v' = length v /\
  forall j, nth_error v' j = nth_error v (byte_reversed v j).
Proof.
  intros v. unfold LSB8MSB, byte_reversed. destruct (Nat.ltb_spec (length v) 8).
  - exists v. repeat split. intros j. replace (length v / 8)%nat with 0%nat by lia.
    destruct (Nat.ltb_spec j (8 * 0)); [lia|reflexivity].
  - change 0%nat with (8 * 0)%nat at 1.
    destruct (lsb8msb_loop_nth (length v / 8) v 0) as (v' & E & L & P); [lia|].
    exists v'. split; [assumption|]. split; [assumption|]. intros j. rewrite P.
    cbn [Nat.add]. destruct (Nat.leb_spec (8 * 0) j); [|lia]. cbn [andb].
    destruct (Nat.ltb_spec j (8 * (length v / 8))); reflexivity.
Qed.

Lemma LSB8MSB_involutive : forall v v', LSB8MSB v = Ok v' -> LSB8MSB v' = Ok v.
Proof.
  intros v v' H.
  destruct (LSB8MSB_spec v) as (w & E & L & P). rewrite E in H. apply Ok_inj in H. subst w.
  destruct (LSB8MSB_spec v') as (w & E' & L' & P'). rewrite E'. f_equal.
  apply nth_error_ext. intros j. rewrite P', P. unfold byte_reversed. rewrite L.
  destruct (Nat.ltb_spec j (8 * (length v / 8))).
  - destruct (Nat.ltb_spec (8 * (j / 8) + (7 - j mod 8)) (8 * (length v / 8))); [|lia]. f_equal. lia.
  - destruct (Nat.ltb_spec j (8 * (length v / 8))); [lia|reflexivity].
Qed.

(** ** sum, print, parse *)
Lemma popcount_range : forall l, 0 <= popcount l <= Z.of_nat (length l).
Proof.
  induction l as [|b t IH]; [cbn; lia|]. unfold popcount in *. cbn [fold_right length]. destruct b; cbn [Z.b2z]; lia.
Qed.

Lemma sum_acc : forall v s, fold_left (fun s c => u32 (s + bitof c)) v (u32 s) = u32 (s + popcount (bits_of v)).
Proof.
  induction v as [|c t IH]; intros s.
  - cbn. f_equal. lia.
  - cbn [fold_left]. rewrite bitof_odd.
    assert (E : u32 (u32 s + Z.b2z (Z.odd c)) = u32 (s + Z.b2z (Z.odd c))) by (unfold u32; rewrite Zplus_mod_idemp_l; reflexivity).
    rewrite E, IH. f_equal. unfold popcount, bits_of. cbn [map fold_right]. lia.
Qed.

Lemma sum_spec : forall v, Z.of_nat (length v) < 2 ^ 32 -> bv_sum v = popcount (bits_of v).
Proof.
  intros v H. unfold bv_sum. change 0 with (u32 0). rewrite sum_acc. cbn [Z.add].
  unfold u32. apply Z.mod_small. pose proof (popcount_range (bits_of v)). rewrite bits_length in *. lia.
Qed.

Lemma print_parse : forall v, bits_of (bv_of_string (bv_print v)) = bits_of v.
Proof.
  induction v as [|c t IH]; [reflexivity|]. unfold bits_of, bv_of_string, bv_print in *. cbn [map].
  rewrite IH. f_equal. rewrite bitof_odd. destruct (Z.odd c); reflexivity.
Qed.

Lemma parse_print : forall s, Forall (fun c => c = 48 \/ c = 49) s -> bv_print (bv_of_string s) = s.
Proof.
  induction s as [|c t IH]; intros H; [reflexivity|]. inversion H as [|x y Hc Ht]; subst.
  unfold bv_print, bv_of_string in *. cbn [map]. rewrite IH by assumption. f_equal. destruct Hc as [->| ->]; reflexivity.
Qed.

Lemma bit_spec : forall v i, bit v i = if Nat.ltb i (length v) then Ok (nth i (bits_of v) false) else Abort.
Proof.
  intros v i. unfold bit, assert_. destruct (Nat.ltb_spec i (length v)); [|reflexivity]. cbn [bind].
  destruct (rd_in _ v i) as (c & E1 & E2); [assumption|]. rewrite E1. cbn [bind]. f_equal.
  rewrite bitof_odd. replace (nth i (bits_of v) false) with (Z.odd c).
  - destruct (Z.odd c); reflexivity.
  - symmetry. apply nth_error_nth. unfold bits_of. rewrite nth_error_map, E2. reflexivity.
Qed.

Lemma settfb_bit : forall v i x, (i < length v)%nat ->
  exists v', settfb v i x = Ok v' /\ length v' = length v /\
    bit v' i = Ok (Z.odd x) /\ forall j, j <> i -> nth_error v' j = nth_error v j.
Proof.
  intros v i x H. unfold settfb, assert_. destruct (Nat.ltb_spec i (length v)); [|lia]. cbn [bind].
  rewrite wr_ok by assumption. eexists. split; [reflexivity|]. rewrite upd_length. split; [reflexivity|]. split.
  - rewrite bit_spec, upd_length. destruct (Nat.ltb_spec i (length v)); [|lia]. f_equal.
    apply nth_error_nth. unfold bits_of. rewrite nth_error_map, nth_error_upd_eq by assumption. cbn. f_equal.
    assert (E : s8 x mod 2 = x mod 2) by (unfold s8; change (2 ^ 7) with 128; change (2 ^ 8) with 256; lia).
    rewrite !Zmod_odd in E. destruct (Z.odd (s8 x)), (Z.odd x); congruence.
  - intros j Hj. apply nth_error_upd_neq. congruence.
Qed.

(** ** map / unmap *)
Lemma map_loop_ok : forall mp src i dest,
  Forall (fun m => (m < length src)%nat) mp -> (i + length mp <= length dest)%nat ->
  exists d', map_loop src mp i dest = Ok d' /\ length d' = length dest /\
    (forall j, (j < i)%nat \/ (i + length mp <= j)%nat -> nth_error d' j = nth_error dest j) /\
    (forall k m, nth_error mp k = Some m -> nth_error d' (i + k) = nth_error src m).
Proof.
  induction mp as [|m t IH]; intros src i dest F H.
  - exists dest. cbn [map_loop]. repeat split; auto. intros [|k] m E; discriminate.
  - inversion F as [|x y Hm Ht]; subst. cbn [length] in H. cbn [map_loop].
    destruct (rd_in _ src m Hm) as (c & E1 & E2). rewrite E1. cbn [bind]. rewrite wr_ok by lia. cbn [bind].
    destruct (IH src (S i) (upd dest i c)) as (d' & E & L & A & B); [assumption|rewrite upd_length; lia|].
    rewrite upd_length in L.
    exists d'. split; [assumption|]. split; [assumption|]. split.
    + intros j Hj. cbn [length] in Hj. rewrite A by lia. apply nth_error_upd_neq. lia.
    + intros [|k] m' Ek; cbn [nth_error] in Ek.
      * injection Ek as <-. rewrite Nat.add_0_r. rewrite A by lia. rewrite nth_error_upd_eq by lia. congruence.
      * replace (i + S k)%nat with (S i + k)%nat by lia. apply B. assumption.
Qed.

Lemma map_loop_ub : forall mp src i dest,
  (~ Forall (fun m => (m < length src)%nat) mp \/ (length dest < i + length mp)%nat) -> (i <= length dest)%nat ->
  map_loop src mp i dest = UB.
Proof.
  induction mp as [|m t IH]; intros src i dest H Hi.
  - destruct H as [H|H]; [exfalso; apply H; constructor|cbn [length] in H; lia].
  - cbn [map_loop]. destruct (Nat.lt_ge_cases m (length src)) as [Hm|Hm].
    + destruct (rd_in _ src m Hm) as (c & E1 & E2). rewrite E1. cbn [bind].
      destruct (Nat.lt_ge_cases i (length dest)) as [Hd|Hd].
      * rewrite wr_ok by assumption. cbn [bind]. apply IH; rewrite upd_length; [|lia].
        destruct H as [H|H]; [left|right; cbn [length] in H; lia].
        intros F. apply H. constructor; assumption.
      * rewrite wr_ub by assumption. reflexivity.
    + unfold rd. destruct (nth_error src m) eqn:N; [|reflexivity].
      assert (m < length src)%nat by (apply nth_error_Some; congruence). lia.
Qed.

Lemma unmap_loop_ok : forall mp src i dest,
  Forall (fun m => (m < length dest)%nat) mp -> (i + length mp <= length src)%nat ->
  exists d', unmap_loop src mp i dest = Ok d' /\ length d' = length dest /\
    (forall j, ~ In j mp -> nth_error d' j = nth_error dest j) /\
    (forall k m, nth_error mp k = Some m -> (forall k', (k < k')%nat -> nth_error mp k' <> Some m) ->
       nth_error d' m = nth_error src (i + k)).
Proof.
  induction mp as [|m t IH]; intros src i dest F H.
  - exists dest. cbn [unmap_loop]. repeat split; auto. intros [|k] m E; discriminate.
  - inversion F as [|x y Hm Ht]; subst. cbn [length] in H. cbn [unmap_loop].
    destruct (rd_in _ src i) as (c & E1 & E2); [lia|]. rewrite E1. cbn [bind]. rewrite wr_ok by assumption. cbn [bind].
    destruct (IH src (S i) (upd dest m c)) as (d' & E & L & A & B).
    { rewrite upd_length. assumption. }
    { lia. }
    rewrite upd_length in L.
    exists d'. split; [assumption|]. split; [assumption|]. split.
    + intros j Hj. cbn [In] in Hj. rewrite A by tauto. apply nth_error_upd_neq. intros ->. tauto.
    + intros [|k] m' Ek Hlast; cbn [nth_error] in Ek.
      * injection Ek as <-. rewrite Nat.add_0_r. rewrite A.
        -- rewrite nth_error_upd_eq by assumption. congruence.
        -- intros I. apply In_nth_error in I. destruct I as (k' & Hk'). apply (Hlast (S k')); [lia|assumption].
      * replace (i + S k)%nat with (S i + k)%nat by lia. apply B; [assumption|].
        intros k' Hk' C. apply (Hlast (S k')); [lia|assumption].
Qed.

Lemma unmap_loop_ub : forall mp src i dest,
  (~ Forall (fun m => (m < length dest)%nat) mp \/ (length src < i + length mp)%nat) -> (i <= length src)%nat ->
  unmap_loop src mp i dest = UB.
Proof.
  induction mp as [|m t IH]; intros src i dest H Hi.
  - destruct H as [H|H]; [exfalso; apply H; constructor|cbn [length] in H; lia].
  - cbn [unmap_loop]. destruct (Nat.lt_ge_cases i (length src)) as [Hs|Hs].
    + destruct (rd_in _ src i Hs) as (c & E1 & E2). rewrite E1. cbn [bind].
      destruct (Nat.lt_ge_cases m (length dest)) as [Hd|Hd].
      * rewrite wr_ok by assumption. cbn [bind]. apply IH; [|lia]. rewrite upd_length.
        destruct H as [H|H]; [left|right; cbn [length] in H; lia].
        intros F. apply H. constructor; assumption.
      * rewrite wr_ub by assumption. reflexivity.
    + unfold rd. destruct (nth_error src i) eqn:N; [|reflexivity].
      assert (i < length src)%nat by (apply nth_error_Some; congruence). lia.
Qed.

Lemma nodup_last : forall (mp : list nat) k m, NoDup mp -> nth_error mp k = Some m ->
  forall k', (k < k')%nat -> nth_error mp k' <> Some m.
Proof.
  intros mp k m ND E k' Hk C. rewrite NoDup_nth_error in ND.
  assert (k = k') by (apply ND; [apply nth_error_Some; congruence|congruence]). lia.
Qed.

Lemma unmap_map : forall src mp d0 u0,
  NoDup mp -> Forall (fun m => (m < length src)%nat) mp -> (length mp <= length d0)%nat -> length u0 = length src ->
  exists d u, bv_map src mp d0 = Ok d /\ bv_unmap d mp u0 = Ok u /\
    (forall m, In m mp -> nth_error u m = nth_error src m) /\
    (forall j, ~ In j mp -> nth_error u j = nth_error u0 j).
Proof.
  intros src mp d0 u0 ND F L Lu. unfold bv_map, bv_unmap.
  destruct (map_loop_ok mp src 0 d0 F) as (d & E & Ld & A & B); [lia|].
  destruct (unmap_loop_ok mp d 0 u0) as (u & E' & Lu' & A' & B'); [rewrite Lu; assumption|lia|].
  exists d, u. split; [assumption|]. split; [assumption|]. split; [|assumption].
  intros m I. apply In_nth_error in I. destruct I as (k & Hk).
  rewrite (B' k m Hk (nodup_last _ _ _ ND Hk)). rewrite (B k m Hk). reflexivity.
Qed.

Lemma map_unmap : forall src mp d0 u0,
  NoDup mp -> Forall (fun m => (m < length d0)%nat) mp -> (length mp <= length src)%nat -> (length mp <= length u0)%nat ->
  exists d u, bv_unmap src mp d0 = Ok d /\ bv_map d mp u0 = Ok u /\
    (forall i, (i < length mp)%nat -> nth_error u i = nth_error src i).
Proof.
  intros src mp d0 u0 ND F L Lu. unfold bv_map, bv_unmap.
  destruct (unmap_loop_ok mp src 0 d0 F) as (d & E & Ld & A & B); [lia|].
  destruct (map_loop_ok mp d 0 u0) as (u & E' & Lu' & A' & B'); [rewrite Ld; assumption|lia|].
  exists d, u. split; [assumption|]. split; [assumption|].
  intros i Hi. destruct (nth_error mp i) as [m|] eqn:Hm.
  - pose proof (B' i m Hm) as X. cbn [Nat.add] in X. rewrite X.
    rewrite (B i m Hm (nodup_last _ _ _ ND Hm)). reflexivity.
  - apply nth_error_None in Hm. lia.
Qed.

(** ** Puncturing *)
Section Puncture.
  Context {A : Type}.
  Implicit Types src dst : list A.

  Lemma copy_n_ok : forall n src srcp dstp dst,
    (srcp + n <= length src)%nat -> (dstp + n <= length dst)%nat ->
    copy_n src n srcp dstp dst = Ok ((srcp + n)%nat, (dstp + n)%nat, splice dstp (slice srcp n src) dst).
  Proof.
    induction n as [|n IH]; intros src srcp dstp dst H1 H2.
    - cbn [copy_n]. unfold slice. cbn [firstn]. rewrite splice_nil, !Nat.add_0_r. reflexivity.
    - cbn [copy_n]. unfold assert_. destruct (Nat.ltb_spec srcp (length src)), (Nat.ltb_spec dstp (length dst)); try lia.
      cbn [andb bind]. destruct (rd_in _ src srcp) as (c & E1 & E2); [lia|]. rewrite E1. cbn [bind].
      rewrite wr_ok by lia. cbn [bind]. rewrite IH by (rewrite ?upd_length; lia).
      f_equal. f_equal; [f_equal; lia|].
      unfold slice at 2. rewrite (skipn_cons_nth _ _ _ _ E2). cbn [firstn]. fold (slice (S srcp) n src).
      rewrite splice_cons_upd; [reflexivity|]. rewrite slice_length; lia.
  Qed.

  Lemma copy_n_abort : forall n src srcp dstp dst,
    (length src < srcp + n)%nat \/ (length dst < dstp + n)%nat -> (srcp <= length src)%nat -> (dstp <= length dst)%nat ->
    copy_n src n srcp dstp dst = Abort.
  Proof.
    induction n as [|n IH]; intros src srcp dstp dst H H1 H2; [lia|].
    cbn [copy_n]. unfold assert_. destruct (Nat.ltb_spec srcp (length src)), (Nat.ltb_spec dstp (length dst)); try reflexivity.
    cbn [andb bind]. destruct (rd_in _ src srcp) as (c & E1 & E2); [lia|]. rewrite E1. cbn [bind].
    rewrite wr_ok by lia. cbn [bind]. apply IH; rewrite ?upd_length; lia.
  Qed.

  Lemma copy_rest_ok : forall n src srcp dstp dst,
    (srcp + n <= length src)%nat -> (dstp + n <= length dst)%nat ->
    copy_rest src n srcp dstp dst = Ok ((srcp + n)%nat, (dstp + n)%nat, splice dstp (slice srcp n src) dst).
  Proof.
    induction n as [|n IH]; intros src srcp dstp dst H1 H2.
    - cbn [copy_rest]. unfold slice. cbn [firstn]. rewrite splice_nil, !Nat.add_0_r. reflexivity.
    - cbn [copy_rest]. unfold assert_. destruct (Nat.ltb_spec dstp (length dst)); try lia.
      cbn [bind]. destruct (rd_in _ src srcp) as (c & E1 & E2); [lia|]. rewrite E1. cbn [bind].
      rewrite wr_ok by lia. cbn [bind]. rewrite IH by (rewrite ?upd_length; lia).
      f_equal. f_equal; [f_equal; lia|].
      unfold slice at 2. rewrite (skipn_cons_nth _ _ _ _ E2). cbn [firstn]. fold (slice (S srcp) n src).
      rewrite splice_cons_upd; [reflexivity|]. rewrite slice_length; lia.
  Qed.

  Lemma s32_diff : forall p q, 0 <= p < 2 ^ 32 -> 0 <= q < 2 ^ 31 ->
    (0 <= s32 (p - q) -> s32 (p - q) = p - q) /\ (0 <= p - q < 2 ^ 31 -> s32 (p - q) = p - q).
  Proof.
    intros p q Hp Hq. unfold s32. change (2 ^ 31) with 2147483648 in *. change (2 ^ 32) with 4294967296 in *. lia.
  Qed.

  (** without *)
  Lemma increasing_ge : forall l lo bound x, increasing_from lo l bound -> In x l -> lo <= x < bound.
  Proof.
    induction l as [|p t IH]; intros lo bound x H I; [contradiction|].
    cbn in H. destruct H as [H1 H2]. destruct I as [->|I]; [lia|]. specialize (IH _ _ _ H2 I). lia.
  Qed.

  Lemma existsb_out : forall k l, (forall x, In x l -> x <> k) -> existsb (Z.eqb k) l = false.
  Proof.
    induction l as [|p t IH]; intros H; [reflexivity|]. cbn.
    replace (k =? p) with false by (specialize (H p (or_introl eq_refl)); lia).
    apply IH. intros x I. apply H. right. assumption.
  Qed.

  Lemma without_keep : forall (v : list A) k l, (forall x, In x l -> Z.of_nat (k + length v) <= x) -> without k l v = v.
  Proof.
    induction v as [|h t IH]; intros k l H; [reflexivity|]. cbn [without].
    rewrite existsb_out.
    - f_equal. apply IH. intros x I. specialize (H x I). cbn [length] in H. lia.
    - intros x I. specialize (H x I). cbn [length] in H. lia.
  Qed.

  Lemma without_app : forall (a b : list A) k l, without k l (a ++ b) = without k l a ++ without (k + length a) l b.
  Proof.
    induction a as [|h t IH]; intros b k l.
    - cbn. rewrite Nat.add_0_r. reflexivity.
    - cbn [without app length]. rewrite IH. replace (S k + length t)%nat with (k + S (length t))%nat by lia.
      destruct (existsb (Z.eqb (Z.of_nat k)) l); reflexivity.
  Qed.

  Lemma without_drop : forall (v : list A) k p l, p < Z.of_nat k -> without k (p :: l) v = without k l v.
  Proof.
    induction v as [|h t IH]; intros k p l H; [reflexivity|]. cbn [without existsb].
    replace (Z.of_nat k =? p) with false by lia. cbn [orb].
    rewrite IH by lia. reflexivity.
  Qed.

  Lemma without_step : forall (v : list A) k p l bound, increasing_from (p + 1) l bound ->
    Z.of_nat k <= p < Z.of_nat (k + length v) ->
    without k (p :: l) v
    = firstn (Z.to_nat (p - Z.of_nat k)) v ++ without (Z.to_nat (p + 1)) l (skipn (Z.to_nat (p + 1 - Z.of_nat k)) v).
  Proof.
    intros v k p l bound I H.
    set (n := Z.to_nat (p - Z.of_nat k)).
    assert (Hn : (n < length v)%nat) by lia.
    rewrite <- (firstn_skipn n v) at 1. rewrite without_app.
    rewrite without_keep.
    2:{ intros x [->|X]; rewrite firstn_length.
        - lia.
        - pose proof (increasing_ge _ _ _ _ I X). lia. }
    f_equal. rewrite firstn_length, Nat.min_l by lia.
    destruct (skipn n v) as [|h t] eqn:Sk.
    { assert (length (skipn n v) = 0)%nat by (rewrite Sk; reflexivity). rewrite skipn_length in *. lia. }
    cbn [without existsb]. replace (Z.of_nat (k + n) =? p) with true by lia. cbn [orb].
    rewrite without_drop by lia.
    replace (S (k + n)) with (Z.to_nat (p + 1)) by lia. f_equal.
    replace (Z.to_nat (p + 1 - Z.of_nat k)) with (S n) by lia.
    assert (E : skipn 1 (skipn n v) = skipn (S n) v) by (rewrite skipn_skipn; f_equal; lia).
    rewrite <- E, Sk. reflexivity.
  Qed.

  Lemma increasing_count : forall l lo bound, increasing_from lo l bound -> lo <= bound -> Z.of_nat (length l) <= bound - lo.
  Proof.
    induction l as [|p t IH]; intros lo bound H Hb; [cbn; lia|].
    cbn in H. destruct H as [H1 H2]. cbn [length]. specialize (IH _ _ H2). lia.
  Qed.

  Lemma increasing_dec : forall l lo bound, increasing_from lo l bound \/ ~ increasing_from lo l bound.
  Proof.
    induction l as [|p t IH]; intros lo bound; cbn.
    - left. exact I.
    - destruct (Z_le_dec lo p), (Z_lt_dec p bound), (IH (p + 1) bound) as [X|X]; [left; split; [lia|assumption]|..];
        right; intros [Y Z]; try lia; contradiction.
  Qed.

  Lemma punct_loop_spec : forall ps src srcp dstp dst,
    Z.of_nat (length src) < 2 ^ 31 ->
    Forall (fun p => 0 <= p < 2 ^ 32) ps ->
    (srcp <= length src)%nat -> (dstp <= length dst)%nat ->
    (dstp + length src = length dst + length ps + srcp)%nat ->
    (increasing_from (Z.of_nat srcp) ps (Z.of_nat (length src)) ->
       punct_loop src srcp dstp dst ps = Ok (firstn dstp dst ++ without srcp ps (skipn srcp src))) /\
    (~ increasing_from (Z.of_nat srcp) ps (Z.of_nat (length src)) -> punct_loop src srcp dstp dst ps = Abort).
  Proof.
    induction ps as [|p ps IH]; intros src srcp dstp dst Hl Hp Hs Hd Inv.
    - split; [|intros N; exfalso; apply N; exact I]. intros _. cbn [length] in Inv.
      cbn [punct_loop]. destruct (Nat.ltb_spec srcp (length src)).
      + rewrite copy_rest_ok by lia. cbn [bind].
        assert (Ls : length (slice srcp (length src - srcp) src) = (length src - srcp)%nat) by (apply slice_length; lia).
        rewrite splice_length by lia. unfold assert_.
        destruct (Nat.eqb_spec (dstp + (length src - srcp)) (length dst)); [|lia]. cbn [bind]. f_equal.
        unfold splice. rewrite Ls. rewrite skipn_all2 by lia. rewrite app_nil_r. f_equal.
        unfold slice. rewrite firstn_all2 by (rewrite skipn_length; lia).
        symmetry. apply without_keep. intros x [].
      + unfold assert_. destruct (Nat.eqb_spec dstp (length dst)); [|lia]. cbn [andb bind]. f_equal.
        rewrite firstn_all2 by lia. rewrite skipn_all2 by lia. cbn. rewrite app_nil_r. reflexivity.
    - inversion Hp as [|x y Hp0 Hps]; subst. cbn [length] in Inv. cbn [punct_loop].
      destruct (Nat.ltb_spec srcp (length src)) as [Hlt|Hge].
      2:{ lia. }
      assert (Hq : 0 <= Z.of_nat srcp < 2 ^ 31) by lia.
      destruct (s32_diff p (Z.of_nat srcp) Hp0 Hq) as [S1 S2].
      unfold assert_. destruct (Z.leb_spec 0 (s32 (p - Z.of_nat srcp))) as [Hn|Hn].
      2:{ split; [|reflexivity]. intros [J _]. exfalso. rewrite S2 in Hn by lia. lia. }
      rewrite S1 in * by assumption. cbn [bind]. clear S1 S2.
      set (n := Z.to_nat (p - Z.of_nat srcp)).
      destruct (Nat.le_gt_cases (srcp + n) (length src)) as [B1|B1].
      2:{ rewrite copy_n_abort by lia. split; [|reflexivity]. intros [J _]. lia. }
      destruct (Nat.le_gt_cases (dstp + n) (length dst)) as [B2|B2].
      2:{ rewrite copy_n_abort by lia. split; [|reflexivity]. intros [J1 J2]. exfalso.
          pose proof (increasing_count _ _ _ J2). lia. }
      rewrite copy_n_ok by assumption. cbn [bind].
      assert (Ls : length (slice srcp n src) = n) by (apply slice_length; lia).
      assert (Hlt2 : (srcp + n < length src)%nat) by lia.
      destruct (IH src (S (srcp + n)) (dstp + n)%nat (splice dstp (slice srcp n src) dst)) as [I1 I2];
        try assumption; try (rewrite splice_length; lia); try lia.
      replace (Z.of_nat (S (srcp + n))) with (p + 1) in * by lia.
      split.
      + intros [J1 J2]. rewrite I1 by assumption. f_equal.
        rewrite (without_step (skipn srcp src) srcp p ps (Z.of_nat (length src))); try assumption.
        2:{ rewrite skipn_length. lia. }
        fold n. rewrite app_assoc. f_equal.
        * unfold splice. rewrite Ls, app_assoc. rewrite firstn_app.
          replace (length (firstn dstp dst ++ slice srcp n src)) with (dstp + n)%nat by (rewrite app_length, firstn_length; lia).
          rewrite Nat.sub_diag. cbn [firstn]. rewrite app_nil_r. apply firstn_all2. rewrite app_length, !firstn_length. lia.
        * replace (Z.to_nat (p + 1)) with (S (srcp + n)) by lia. f_equal. rewrite skipn_skipn. f_equal. lia.
      + intros N. apply I2. intros C. apply N. split; [lia|assumption].
  Qed.

  Lemma copyPunctured_ok : forall src dst ps,
    Z.of_nat (length src) < 2 ^ 31 -> Forall (fun p => 0 <= p < 2 ^ 32) ps ->
    length src = (length dst + length ps)%nat ->
    increasing_from 0 ps (Z.of_nat (length src)) ->
    copyPunctured src dst ps = Ok (without 0 ps src).
  Proof.
    intros src dst ps Hl Hp L I. unfold copyPunctured, assert_.
    replace (u64 (Z.of_nat (length src) - Z.of_nat (length ps)) =? Z.of_nat (length dst)) with true.
    2:{ symmetry. apply Z.eqb_eq. rewrite u64_id; lia. }
    cbn [bind]. destruct (punct_loop_spec ps src 0 0 dst) as [H _]; try assumption; try lia.
    rewrite H by assumption. reflexivity.
  Qed.

  Lemma copyPunctured_abort : forall src dst ps,
    Z.of_nat (length src) < 2 ^ 31 -> Z.of_nat (length dst) < 2 ^ 31 -> Z.of_nat (length ps) < 2 ^ 31 ->
    Forall (fun p => 0 <= p < 2 ^ 32) ps ->
    length src <> (length dst + length ps)%nat \/ ~ increasing_from 0 ps (Z.of_nat (length src)) ->
    copyPunctured src dst ps = Abort.
  Proof.
    intros src dst ps Hl Hd Hps Hp H. unfold copyPunctured, assert_.
    destruct (Z.eqb_spec (u64 (Z.of_nat (length src) - Z.of_nat (length ps))) (Z.of_nat (length dst))) as [E|E]; [|reflexivity].
    cbn [bind].
    assert (L : length src = (length dst + length ps)%nat).
    { unfold u64 in E. change (2 ^ 64) with 18446744073709551616 in *. change (2 ^ 31) with 2147483648 in *. lia. }
    destruct H as [H|H]; [contradiction|].
    destruct (punct_loop_spec ps src 0 0 dst) as [_ X]; try assumption; try lia.
    apply X. assumption.
  Qed.

  (** un-puncturing *)
  Lemma with_erasures_keep : forall n (e : A) k l w, (forall x, In x l -> Z.of_nat (k + n) <= x) -> (n = length w)%nat ->
    with_erasures e k n l w = w.
  Proof.
    induction n as [|n IH]; intros e k l w H L; [destruct w; [reflexivity|discriminate]|].
    destruct w as [|x t]; [discriminate|]. cbn [with_erasures].
    rewrite existsb_out by (intros y Y; specialize (H y Y); lia).
    f_equal. apply IH; [|cbn in L; lia]. intros y Y. specialize (H y Y). lia.
  Qed.

  Lemma with_erasures_app : forall n m (e : A) k l w, (forall x, In x l -> Z.of_nat (k + n) <= x) -> (n <= length w)%nat ->
    with_erasures e k (n + m) l w = firstn n w ++ with_erasures e (k + n) m l (skipn n w).
  Proof.
    induction n as [|n IH]; intros m e k l w H L.
    - cbn [Nat.add firstn skipn app]. rewrite Nat.add_0_r. reflexivity.
    - destruct w as [|x t]; [cbn in L; lia|]. cbn [Nat.add with_erasures firstn skipn app].
      rewrite existsb_out by (intros y Y; specialize (H y Y); lia).
      f_equal. rewrite IH; [|intros y Y; specialize (H y Y); lia|cbn in L; lia].
      replace (S k + n)%nat with (k + S n)%nat by lia. reflexivity.
  Qed.

  Lemma with_erasures_drop : forall n (e : A) k p l w, p < Z.of_nat k -> with_erasures e k n (p :: l) w = with_erasures e k n l w.
  Proof.
    induction n as [|n IH]; intros e k p l w H; [reflexivity|]. cbn [with_erasures existsb].
    replace (Z.of_nat k =? p) with false by lia. cbn [orb].
    destruct (existsb (Z.eqb (Z.of_nat k)) l); [|destruct w]; rewrite ?IH by lia; reflexivity.
  Qed.

  Lemma unpunct_loop_spec : forall ps (e : A) src srcp dstp dst,
    Z.of_nat (length dst) < 2 ^ 31 ->
    Forall (fun p => 0 <= p < 2 ^ 32) ps ->
    (srcp <= length src)%nat -> (dstp <= length dst)%nat ->
    (dstp + length src + length ps = length dst + srcp)%nat ->
    (increasing_from (Z.of_nat dstp) ps (Z.of_nat (length dst)) ->
       unpunct_loop e src srcp dstp dst ps
       = Ok (firstn dstp dst ++ with_erasures e dstp (length dst - dstp) ps (skipn srcp src))) /\
    (~ increasing_from (Z.of_nat dstp) ps (Z.of_nat (length dst)) -> unpunct_loop e src srcp dstp dst ps = Abort).
  Proof.
    induction ps as [|p ps IH]; intros e src srcp dstp dst Hl Hp Hs Hd Inv.
    - split; [|intros N; exfalso; apply N; exact I]. intros _. cbn [length] in Inv.
      cbn [unpunct_loop]. destruct (Nat.ltb_spec dstp (length dst)).
      + rewrite copy_rest_ok by lia. cbn [bind].
        assert (Ls : length (slice srcp (length src - srcp) src) = (length src - srcp)%nat) by (apply slice_length; lia).
        rewrite splice_length by lia.
        destruct (Nat.ltb_spec (dstp + (length src - srcp)) (length dst)); [lia|]. unfold assert_.
        destruct (Nat.eqb_spec (dstp + (length src - srcp)) (length dst)); [|lia]. cbn [bind]. f_equal.
        unfold splice. rewrite Ls. rewrite skipn_all2 by lia. rewrite app_nil_r. f_equal.
        unfold slice. rewrite firstn_all2 by (rewrite skipn_length; lia).
        symmetry. apply with_erasures_keep; [intros x []|]. rewrite skipn_length. lia.
      + unfold assert_. destruct (Nat.eqb_spec dstp (length dst)); [|lia]. cbn [andb bind]. f_equal.
        rewrite firstn_all2 by lia. replace (length dst - dstp)%nat with 0%nat by lia. cbn. rewrite app_nil_r. reflexivity.
    - inversion Hp as [|x y Hp0 Hps]; subst. cbn [length] in Inv. cbn [unpunct_loop].
      destruct (Nat.ltb_spec dstp (length dst)) as [Hlt|Hge].
      2:{ lia. }
      assert (Hq : 0 <= Z.of_nat dstp < 2 ^ 31) by lia.
      destruct (s32_diff p (Z.of_nat dstp) Hp0 Hq) as [S1 S2].
      unfold assert_. destruct (Z.leb_spec 0 (s32 (p - Z.of_nat dstp))) as [Hn|Hn].
      2:{ split; [|reflexivity]. intros [J _]. exfalso. rewrite S2 in Hn by lia. lia. }
      rewrite S1 in * by assumption. cbn [bind]. clear S1 S2.
      set (n := Z.to_nat (p - Z.of_nat dstp)).
      destruct (Nat.le_gt_cases (dstp + n) (length dst)) as [B2|B2].
      2:{ rewrite copy_n_abort by lia. split; [|reflexivity]. intros [J _]. lia. }
      destruct (Nat.le_gt_cases (srcp + n) (length src)) as [B1|B1].
      2:{ rewrite copy_n_abort by lia. split; [|reflexivity]. intros [J1 J2]. exfalso.
          pose proof (increasing_count _ _ _ J2). lia. }
      rewrite copy_n_ok by assumption. cbn [bind].
      assert (Ls : length (slice srcp n src) = n) by (apply slice_length; lia).
      assert (Hlt2 : (dstp + n < length dst)%nat) by lia.
      rewrite wr_ok by (rewrite splice_length; lia). cbn [bind].
      set (d1 := upd (splice dstp (slice srcp n src) dst) (dstp + n) e).
      assert (Ld1 : length d1 = length dst) by (unfold d1; rewrite upd_length, splice_length; lia).
      destruct (IH e src (srcp + n)%nat (S (dstp + n)) d1) as [I1 I2]; try assumption; try lia.
      rewrite Ld1 in *.
      replace (Z.of_nat (S (dstp + n))) with (p + 1) in * by lia.
      split.
      + intros [J1 J2]. rewrite I1 by assumption. f_equal.
        replace (length dst - dstp)%nat with (n + S (length dst - S (dstp + n)))%nat by lia.
        rewrite with_erasures_app.
        2:{ intros x [->|X]; [lia|]. pose proof (increasing_ge _ _ _ _ J2 X). lia. }
        2:{ rewrite skipn_length. lia. }
        cbn [with_erasures existsb]. replace (Z.of_nat (dstp + n) =? p) with true by lia. cbn [orb].
        rewrite with_erasures_drop by lia.
        rewrite skipn_skipn. replace (n + srcp)%nat with (srcp + n)%nat by lia.
        change (firstn n (skipn srcp src)) with (slice srcp n src).
        replace (firstn (S (dstp + n)) d1) with (firstn dstp dst ++ slice srcp n src ++ [e]).
        * rewrite <- !app_assoc. reflexivity.
        * unfold d1. rewrite firstn_upd_seq by (rewrite splice_length; lia).
          unfold splice. rewrite Ls, (app_assoc (firstn dstp dst) (slice srcp n src) (skipn _ _)). rewrite firstn_app.
          replace (length (firstn dstp dst ++ slice srcp n src)) with (dstp + n)%nat by (rewrite app_length, firstn_length; lia).
          rewrite Nat.sub_diag. cbn [firstn]. rewrite app_nil_r.
          rewrite (@firstn_all2 A (dstp + n)) by (rewrite app_length, firstn_length; lia). rewrite app_assoc. reflexivity.
      + intros N. apply I2. intros C. apply N. split; [lia|assumption].
  Qed.

  Lemma copyUnPunctured_ok : forall (e : A) src dst ps,
    Z.of_nat (length dst) < 2 ^ 31 -> Forall (fun p => 0 <= p < 2 ^ 32) ps ->
    length dst = (length src + length ps)%nat ->
    increasing_from 0 ps (Z.of_nat (length dst)) ->
    copyUnPunctured e src dst ps = Ok (with_erasures e 0 (length dst) ps src).
  Proof.
    intros e src dst ps Hl Hp L I. unfold copyUnPunctured, assert_.
    replace (u64 (Z.of_nat (length src) + Z.of_nat (length ps)) =? Z.of_nat (length dst)) with true.
    2:{ symmetry. apply Z.eqb_eq. rewrite u64_id; lia. }
    cbn [bind]. destruct (unpunct_loop_spec ps e src 0 0 dst) as [H _]; try assumption; try lia.
    rewrite H by assumption. rewrite Nat.sub_0_r. reflexivity.
  Qed.

  Lemma copyUnPunctured_abort : forall (e : A) src dst ps,
    Z.of_nat (length src) < 2 ^ 31 -> Z.of_nat (length dst) < 2 ^ 31 -> Z.of_nat (length ps) < 2 ^ 31 ->
    Forall (fun p => 0 <= p < 2 ^ 32) ps ->
    length dst <> (length src + length ps)%nat \/ ~ increasing_from 0 ps (Z.of_nat (length dst)) ->
    copyUnPunctured e src dst ps = Abort.
  Proof.
    intros e src dst ps Hl Hd Hps Hp H. unfold copyUnPunctured, assert_.
    destruct (Z.eqb_spec (u64 (Z.of_nat (length src) + Z.of_nat (length ps))) (Z.of_nat (length dst))) as [E|E]; [|reflexivity].
    cbn [bind]. rewrite u64_id in E by lia.
    assert (L : length dst = (length src + length ps)%nat) by lia.
    destruct H as [H|H]; [contradiction|].
    destruct (unpunct_loop_spec ps e src 0 0 dst) as [_ X]; try assumption; try lia.
    apply X. assumption.
  Qed.

  Lemma with_erasures_without : forall (v : list A) e k l, with_erasures e k (length v) l (without k l v) = erased e k l v.
  Proof.
    induction v as [|x t IH]; intros e k l; [reflexivity|]. cbn [length with_erasures without erased].
    destruct (existsb (Z.eqb (Z.of_nat k)) l); rewrite IH; reflexivity.
  Qed.
End Puncture.

Lemma without_map : forall A B (f : A -> B) v k l, without k l (map f v) = map f (without k l v).
Proof.
  induction v as [|x t IH]; intros k l; [reflexivity|]. cbn [map without].
  destruct (existsb (Z.eqb (Z.of_nat k)) l); cbn [map]; rewrite IH; reflexivity.
Qed.

Lemma puncture_roundtrip : forall (v dst : bv) (sdst : list fl) ps,
  Z.of_nat (length v) < 2 ^ 31 -> Forall (fun p => 0 <= p < 2 ^ 32) ps ->
  length v = (length dst + length ps)%nat -> length sdst = length v ->
  increasing_from 0 ps (Z.of_nat (length v)) ->
  exists p, copyPunctured v dst ps = Ok p /\
    copyUnPunctured fhalf (soft_of_bv p) sdst ps = Ok (erased fhalf 0 ps (soft_of_bv v)).
Proof.
  intros v dst sdst ps Hl Hp L Ls I.
  assert (E : copyPunctured v dst ps = Ok (without 0 ps v)) by (apply copyPunctured_ok; assumption).
  exists (without 0 ps v). split; [assumption|].
  assert (Lw : length (without 0 ps v) = length dst).
  { destruct (punct_loop_spec ps v 0 0 dst) as [H _]; try assumption; try lia.
    specialize (H I). cbn [firstn app skipn] in H.
    clear -L I. 
    assert (G : forall (w : bv) k l, increasing_from (Z.of_nat k) l (Z.of_nat (k + length w)) ->
       (length (without k l w) + length l = length w)%nat).
    { induction w as [|x t IH]; intros k l J.
      - destruct l as [|p q]; [reflexivity|]. cbn in J. lia.
      - cbn [without]. destruct l as [|p q].
        + cbn [existsb]. cbn [length]. rewrite without_keep by (intros ? []). lia.
        + cbn in J. destruct J as [J1 J2]. cbn [existsb].
          destruct (Z.eqb_spec (Z.of_nat k) p) as [<-|N].
          * cbn [orb]. rewrite without_drop by lia. cbn [length].
            specialize (IH (S k) q). replace (Z.of_nat (S k)) with (Z.of_nat k + 1) in IH by lia.
            replace (S k + length t)%nat with (k + length (x :: t))%nat in IH by (cbn [length]; lia).
            specialize (IH J2). lia.
          * cbn [orb]. rewrite existsb_out.
            -- cbn [length]. specialize (IH (S k) (p :: q)). cbn [length] in IH.
               assert (IJ : increasing_from (Z.of_nat (S k)) (p :: q) (Z.of_nat (S k + length t))).
               { cbn [length] in J1, J2. split; [lia|]. replace (S k + length t)%nat with (k + S (length t))%nat by lia. assumption. }
               specialize (IH IJ). lia.
            -- intros y Y. pose proof (increasing_ge _ _ _ _ J2 Y). lia. }
    specialize (G v 0%nat ps I). lia. }
  unfold soft_of_bv at 1. rewrite copyUnPunctured_ok; rewrite ?map_length; try lia; try assumption.
  2:{ rewrite Ls. assumption. }
  f_equal. rewrite <- without_map. fold (soft_of_bv v).
  replace (length sdst) with (length (soft_of_bv v)) by (unfold soft_of_bv; rewrite map_length; lia).
  apply with_erasures_without.
Qed.

(** ** Soft vectors *)
Lemma sliced_soft : forall v, bits_of (sliced (soft_of_bv v)) = bits_of v /\ length (sliced (soft_of_bv v)) = length v.
Proof.
  intros v. split.
  - induction v as [|c t IH]; [reflexivity|]. unfold bits_of, sliced, soft_of_bv in *. cbn [map].
    rewrite IH. f_equal. rewrite bitof_odd. destruct (Z.odd c); reflexivity.
  - unfold sliced, soft_of_bv. rewrite !map_length. reflexivity.
Qed.
