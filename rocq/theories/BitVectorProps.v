(** Properties C01-C11 and C15 (bit vectors). *)
From Verif Require Import Base BaseFacts BitVectorModel BitVectorSpec BitFieldProofs CrcProofs BitPackProofs BitMiscProofs.
Local Open Scope Z_scope.

(** * C01 *)
Theorem C01_field_roundtrip : forall v i x n, (i + n <= length v)%nat -> (n <= 64)%nat ->
  exists v', fillField v i x n = Ok v' /\ writeField v i x n = Ok (v', (i + n)%nat) /\
    length v' = length v /\
    (forall j, (j < i)%nat \/ (i + n <= j)%nat -> nth_error v' j = nth_error v j) /\
    peekField v' i n = Ok (x mod 2 ^ Z.of_nat n) /\
    readField v' i n = Ok (x mod 2 ^ Z.of_nat n, (i + n)%nat).
Proof.
  intros v i x n H Hn. exists (splice i (field_bits n x) v).
  pose proof (field_bits_length n x) as L.
  assert (P : peekField (splice i (field_bits n x) v) i n = Ok (x mod 2 ^ Z.of_nat n)).
  { destruct (fill_peek v i x n H) as (v' & E & P). rewrite fillField_spec in E by assumption.
    apply Ok_inj in E. subst v'. rewrite P. f_equal. apply u64_id.
    pose proof (pow_le_64 _ Hn). pose proof (Z.mod_pos_bound x (2 ^ Z.of_nat n)). lia. }
  split; [apply fillField_spec; assumption|].
  split; [apply writeField_spec; assumption|].
  split; [apply splice_length; lia|].
  split.
  - intros j Hj. rewrite splice_nth by lia. rewrite L.
    destruct (Nat.ltb_spec j i), (Nat.ltb_spec j (i + n)); try lia; reflexivity.
  - split; [assumption|]. unfold readField. rewrite P. reflexivity.
Qed.
Print Assumptions C01_field_roundtrip.

(** A read is the big-endian value of the bits; of more than 64 bits the last 64 count. *)
Theorem C01_peek_value : forall v i n, (i + n <= length v)%nat ->
  peekField v i n = Ok (be_value (skipn (n - 64) (slice i n (bits_of v)))).
Proof.
  intros v i n H. rewrite peekField_spec by assumption. f_equal. rewrite u64_be_value_long.
  replace (bits_of (slice i n v)) with (slice i n (bits_of v)).
  - f_equal. f_equal. unfold slice, bits_of. rewrite firstn_length, skipn_length, map_length. lia.
  - unfold slice, bits_of. rewrite <- firstn_map, <- skipn_map. reflexivity.
Qed.
Print Assumptions C01_peek_value.

(** ... and the bits written are the low bits of the value, most significant first. *)
Theorem C01_fill_bits : forall v i x n v', (i + n <= length v)%nat -> fillField v i x n = Ok v' ->
  forall k, (k < n)%nat -> nth_error v' (i + k) = Some (Z.b2z (Z.testbit x (Z.of_nat (n - 1 - k)))).
Proof.
  intros v i x n v' H E k Hk. rewrite fillField_spec in E by assumption. apply Ok_inj in E. subst v'.
  pose proof (field_bits_length n x) as L.
  rewrite splice_nth by lia. rewrite L.
  destruct (Nat.ltb_spec (i + k) i), (Nat.ltb_spec (i + k) (i + n)); try lia.
  replace (i + k - i)%nat with k by lia. unfold field_bits. rewrite nth_error_map, nth_error_nth' with (d := 0%nat) by (rewrite seq_length; assumption).
  rewrite seq_nth by assumption. reflexivity.
Qed.
Print Assumptions C01_fill_bits.

(** write0 and write1 store one bit at the write index and advance it, and abort at the end. *)
Theorem C01_write_bit : forall v i b, let w := if b : bool then write1 v i else write0 v i in
  if (i <? length v)%nat
  then exists v', w = Ok (v', S i) /\ length v' = length v /\ nth_error v' i = Some (Z.b2z b) /\ forall j, j <> i -> nth_error v' j = nth_error v j
  else w = Abort.
Proof.
  intros v i b w. assert (W : w = writeField v i (Z.b2z b) 1) by (unfold w; destruct b; reflexivity).
  destruct (Nat.ltb_spec i (length v)) as [H|H].
  - destruct (C01_field_roundtrip v i (Z.b2z b) 1 ltac:(lia) ltac:(lia)) as (v' & F & Wr & L & K & _). exists v'. rewrite W, Wr. replace (i + 1)%nat with (S i) by lia.
    split; [reflexivity|]. split; [exact L|]. split; [|intros j J; apply K; lia].
    pose proof (C01_fill_bits v i (Z.b2z b) 1 v' ltac:(lia) F 0%nat ltac:(lia)) as N. rewrite Nat.add_0_r in N. rewrite N. destruct b; reflexivity.
  - rewrite W. unfold writeField, fillField. replace (Z.of_nat i + Z.of_nat 1 - 1 <? Z.of_nat (length v)) with false by lia. reflexivity.
Qed.
Print Assumptions C01_write_bit.

Example C01_example : (exists v', fillField [0;0;-1;0;0;0;0;0] 2 (0xD) 4 = Ok v' /\ v' = [0;0;1;1;0;1;0;0] /\
  peekField v' 2 4 = Ok 13 /\ readField v' 1 5 = Ok (13, 6%nat)) /\
  peekField (repeat 1 66) 1 65 = Ok (2 ^ 64 - 1).
Proof. split; [eexists; repeat split; reflexivity|reflexivity]. Qed.

(** * C02 *)
Theorem C02_reversed_roundtrip : forall v i x n, (i + n <= length v)%nat -> (n <= 64)%nat ->
  exists v', fillFieldReversed v i x n = Ok v' /\ writeFieldReversed v i x n = Ok (v', (i + n)%nat) /\
    length v' = length v /\
    (forall j, (j < i)%nat \/ (i + n <= j)%nat -> nth_error v' j = nth_error v j) /\
    peekFieldReversed v' i n = Ok (x mod 2 ^ Z.of_nat n) /\
    readFieldReversed v' i n = Ok (x mod 2 ^ Z.of_nat n, (i + n)%nat) /\
    peekField v' i n = Ok (reverse_bits n x).
Proof.
  intros v i x n H Hn. exists (splice i (rev (field_bits n x)) v).
  assert (L : length (rev (field_bits n x)) = n) by (rewrite rev_length; apply field_bits_length).
  assert (P : peekFieldReversed (splice i (rev (field_bits n x)) v) i n = Ok (x mod 2 ^ Z.of_nat n)).
  { destruct (fillrev_peekrev v i x n H) as (v' & E & P). rewrite fillFieldReversed_spec in E by assumption.
    apply Ok_inj in E. subst v'. rewrite P. f_equal. apply u64_id.
    pose proof (pow_le_64 _ Hn). pose proof (Z.mod_pos_bound x (2 ^ Z.of_nat n)). lia. }
  split; [apply fillFieldReversed_spec; assumption|].
  split; [apply writeFieldReversed_spec; assumption|].
  split; [apply splice_length; lia|].
  split; [|split; [assumption|split]].
  - intros j Hj. rewrite splice_nth by lia. rewrite L.
    destruct (Nat.ltb_spec j i), (Nat.ltb_spec j (i + n)); try lia; reflexivity.
  - unfold readFieldReversed. rewrite P. reflexivity.
  - destruct (mixed_fillrev_peek v i x n H Hn) as (v' & E & Q). rewrite fillFieldReversed_spec in E by assumption.
    apply Ok_inj in E. subst v'. assumption.
Qed.
Print Assumptions C02_reversed_roundtrip.

Theorem C02_write_normal_read_reversed : forall v i x n, (i + n <= length v)%nat -> (n <= 64)%nat ->
  exists v', fillField v i x n = Ok v' /\ peekFieldReversed v' i n = Ok (reverse_bits n x).
Proof. exact mixed_fill_peekrev. Qed.
Print Assumptions C02_write_normal_read_reversed.

Example C02_example : reverse_bits 4 13 = 11 /\
  exists v', fillFieldReversed [0;0;0;0;0;0] 1 13 4 = Ok v' /\ peekFieldReversed v' 1 4 = Ok 13 /\ peekField v' 1 4 = Ok 11.
Proof. split; [reflexivity|]. eexists; repeat split; reflexivity. Qed.

(** * C03 *)
Theorem C03_layout_roundtrip : forall fs v i, (i + total_width fs <= length v)%nat ->
  (forall f, In f fs -> (f_width f <= 64)%nat) ->
  exists v', write_all v i fs = Ok (v', (i + total_width fs)%nat) /\
    length v' = length v /\
    (forall j, (j < i)%nat \/ (i + total_width fs <= j)%nat -> nth_error v' j = nth_error v j) /\
    read_all v' i fs = Ok (map (fun f => f_val f mod 2 ^ Z.of_nat (f_width f)) fs, (i + total_width fs)%nat).
Proof. exact layout_roundtrip. Qed.
Print Assumptions C03_layout_roundtrip.

Example C03_example :
  let fs := [mkField false 5 3; mkField true 9 4; mkField false 300 8; mkField true 0 0] in
  total_width fs = 15%nat /\
  exists v', write_all (repeat 1 20) 2 fs = Ok (v', 17%nat) /\ read_all v' 2 fs = Ok ([5; 9; 44; 0], 17%nat).
Proof. split; [reflexivity|]. eexists; split; reflexivity. Qed.

(** * C04 *)
Theorem C04_write_bounds : forall v i x n,
  ((exists v', fillField v i x n = Ok v') <-> (n = 0 \/ i + n <= length v)%nat) /\
  (fillField v i x n = Abort <-> (n <> 0 /\ length v < i + n)%nat) /\
  ((exists v', fillFieldReversed v i x n = Ok v') <-> (n = 0 \/ i + n <= length v)%nat) /\
  (fillFieldReversed v i x n = Abort <-> (n <> 0 /\ length v < i + n)%nat) /\
  (n = 0%nat -> fillField v i x n = Ok v /\ fillFieldReversed v i x n = Ok v).
Proof.
  intros v i x n.
  destruct (Nat.eq_dec n 0) as [->|Hn].
  - cbn [fillField fillFieldReversed]. repeat split; intros; try lia; try discriminate; eauto.
  - destruct (Nat.le_gt_cases (i + n) (length v)) as [H|H].
    + rewrite fillField_spec, fillFieldReversed_spec by assumption.
      repeat split; intros; try lia; try discriminate; eauto.
    + rewrite fillField_abort, fillFieldReversed_abort by assumption.
      repeat split; intros; try lia; try discriminate; eauto; destruct H0; congruence.
Qed.
Print Assumptions C04_write_bounds.

Theorem C04_read_bounds : forall v i n,
  ((exists x, peekField v i n = Ok x) <-> (n = 0 \/ i + n <= length v)%nat) /\
  (peekField v i n = UB <-> (n <> 0 /\ length v < i + n)%nat) /\
  ((exists x, peekFieldReversed v i n = Ok x) <-> (i + n <= length v)%nat) /\
  (peekFieldReversed v i n = Abort <-> (length v < i + n)%nat).
Proof.
  intros v i n.
  assert (R : (exists x, peekFieldReversed v i n = Ok x) <-> (i + n <= length v)%nat).
  { destruct (Nat.le_gt_cases (i + n) (length v)) as [H|H].
    - rewrite peekFieldReversed_spec by assumption. split; intros; eauto.
    - rewrite peekFieldReversed_abort by assumption. split; intros; [destruct H0; discriminate|lia]. }
  assert (A : peekFieldReversed v i n = Abort <-> (length v < i + n)%nat).
  { destruct (Nat.le_gt_cases (i + n) (length v)) as [H|H].
    - rewrite peekFieldReversed_spec by assumption. split; intros; [discriminate|lia].
    - rewrite peekFieldReversed_abort by assumption. split; intros; [assumption|reflexivity]. }
  destruct (Nat.eq_dec n 0) as [->|Hn].
  - cbn [peekField peek_loop]. repeat split; intros; try lia; try discriminate; eauto; try (apply R; assumption); apply A; assumption.
  - destruct (Nat.le_gt_cases (i + n) (length v)) as [H|H].
    + rewrite peekField_spec by assumption. repeat split; intros; try lia; try discriminate; eauto; try (apply R; assumption); apply A; assumption.
    + rewrite peekField_ub by assumption. repeat split; intros; try lia; try discriminate; eauto; try (destruct H0; congruence); try (apply R; assumption); apply A; assumption.
Qed.
Print Assumptions C04_read_bounds.

Example C04_example : fillField [0;0;0] 1 7 3 = Abort /\ fillFieldReversed [0;0;0] 2 1 2 = Abort /\
  peekField [0;0;0] 1 3 = UB /\ peekFieldReversed [0;0;0] 1 3 = Abort /\
  fillField [0;0;0] 1 3 2 = Ok [0;1;1].
Proof. repeat split; reflexivity. Qed.

(** * C05 *)
Theorem C05_codeword_syndrome : forall n c data target inv, (1 <= n <= 63)%N ->
  length target = N.to_nat n ->
  exists g t', mk_generator c n = Ok g /\
    writeParityWord g data target inv = Ok t' /\
    bv_syndrome (data ++ t') g = Ok (if inv then (2 ^ n - 1)%N else 0%N).
Proof. exact codeword_syndrome. Qed.
Print Assumptions C05_codeword_syndrome.

Theorem C05_remainders : forall n c v, (1 <= n <= 63)%N ->
  exists g p s, mk_generator c n = Ok g /\
    bv_parity v g = Ok p /\ is_remainder n c (poly_of (bits_of v) * 2 ^ n) p /\
    bv_syndrome v g = Ok s /\ is_remainder n c (poly_of (bits_of v)) s.
Proof.
  intros n c v H. destruct (mk_generator_ok c n H) as (g & Eg & W & _).
  destruct (bv_parity_rem n c g v H W) as (p & Ep & Rp).
  destruct (bv_syndrome_rem n c g v H W) as (s & Es & Rs). exists g, p, s. auto.
Qed.
Print Assumptions C05_remainders.

(** The remainder is determined, so the two theorems fix the numbers returned. *)
Theorem C05_remainder_unique : forall n c p r r',
  is_remainder n c p r -> is_remainder n c p r' -> r = r'.
Proof. exact remainder_unique. Qed.
Print Assumptions C05_remainder_unique.

(** Lengths outside 1..63 are unusable. *)
Theorem C05_length_limits : forall c n b,
  ((64 <= n)%N -> mk_generator c n = UB) /\
  (exists g, mk_generator c 0 = Ok g /\ syndromeShift g b = UB /\ encoderShift g b = UB).
Proof. intros c n b. split; [apply generator_len_64|apply generator_len_0]. Qed.
Print Assumptions C05_length_limits.

Example C05_example :   (* x^8+x^2+x+1 *)
  let g := mkGen 7 0 255 8 7 in let t' := [0;1;1;1;0;1;1;1] in
  mk_generator 7 8 = Ok g /\ writeParityWord g [1;0;1;1;0;0;1] (repeat 0 8) true = Ok t' /\
  bv_syndrome ([1;0;1;1;0;0;1] ++ t') g = Ok 255%N.
Proof. vm_compute. repeat split. Qed.

(** * C06 *)
Theorem C06_linear : forall n c u v w, (1 <= n <= 63)%N ->
  length u = length v -> bits_of w = xor_bits (bits_of u) (bits_of v) ->
  exists g a b pa pb, mk_generator c n = Ok g /\
    bv_syndrome u g = Ok a /\ bv_syndrome v g = Ok b /\ bv_syndrome w g = Ok (N.lxor a b) /\
    bv_parity u g = Ok pa /\ bv_parity v g = Ok pb /\ bv_parity w g = Ok (N.lxor pa pb).
Proof.
  intros n c u v w H L E. destruct (mk_generator_ok c n H) as (g & Eg & W & _).
  destruct (syndrome_linear n c g u v w H W L E) as (a & b & X).
  destruct (parity_linear n c g u v w H W L E) as (pa & pb & Y).
  exists g, a, b, pa, pb. tauto.
Qed.
Print Assumptions C06_linear.

Theorem C06_burst_detected : forall n c u w pre burst post, (1 <= n <= 63)%N ->
  N.testbit c 0 = true ->
  (length burst <= N.to_nat n)%nat -> In true burst ->
  length u = (pre + length burst + post)%nat ->
  bits_of w = xor_bits (bits_of u) (repeat false pre ++ burst ++ repeat false post) ->
  exists g a b, mk_generator c n = Ok g /\ bv_syndrome u g = Ok a /\ bv_syndrome w g = Ok b /\ a <> b.
Proof.
  intros n c u w pre burst post H C L I Lu E. destruct (mk_generator_ok c n H) as (g & Eg & W & _).
  destruct (burst_detected n c g u w pre burst post H W C L I Lu E) as (a & b & X). exists g, a, b. tauto.
Qed.
Print Assumptions C06_burst_detected.

(** Without the constant term (here x^2+x) a two-bit burst can go unnoticed. *)
Example C06_constant_term_needed :
  let g := mkGen 2 0 3 2 1 in
  mk_generator 2 2 = Ok g /\ bv_syndrome [0;0;0;0] g = Ok 0%N /\ bv_syndrome [0;1;1;0] g = Ok 0%N.
Proof. vm_compute. repeat split. Qed.
Example C06_example :
  let g := mkGen 7 0 255 8 7 in
  mk_generator 7 8 = Ok g /\
  bv_syndrome [1;0;1;1;0;0;1;0;1;1] g = Ok 197%N /\ bv_syndrome [1;1;0;1;1;0;1;0;1;1] g = Ok 98%N /\
  bits_of [1;1;0;1;1;0;1;0;1;1] = xor_bits (bits_of [1;0;1;1;0;0;1;0;1;1])
     (repeat false 1 ++ [true;true;false;true] ++ repeat false 5).
Proof. vm_compute. repeat split. Qed.

(** * C07 *)
Theorem C07_pack_bytes : forall v targ, ((length v + 7) / 8 <= length targ)%nat ->
  packToString v = Ok (packed (bits_of v)) /\ length (packed (bits_of v)) = ((length v + 7) / 8)%nat /\
  pack v targ = Ok (packed (bits_of v) ++ skipn ((length v + 7) / 8) targ).
Proof.
  intros v targ H. split; [apply packToString_spec|]. split; [|apply pack_spec; assumption].
  rewrite packed_length, bits_length. reflexivity.
Qed.
Print Assumptions C07_pack_bytes.

Theorem C07_unpack_pack : forall v w targ t', ((length v + 7) / 8 <= length targ)%nat -> length w = length v ->
  pack v targ = Ok t' ->
  exists v', unpack w t' = Ok v' /\ bits_of v' = bits_of v /\ length v' = length v.
Proof. intros v w targ t' H L E. eapply pack_unpack_roundtrip; eassumption. Qed.
Print Assumptions C07_unpack_pack.

Theorem C07_pack_unpack : forall v src, ((length v + 7) / 8 <= length src)%nat ->
  exists v' t', unpack v src = Ok v' /\ packToString v' = Ok t' /\ length t' = ((length v + 7) / 8)%nat /\
    (forall k m, (8 * k < length v)%nat -> (m < 8)%nat ->
       Z.testbit (nth k t' 0) (Z.of_nat (7 - m))
       = if Nat.ltb (8 * k + m) (length v) then Z.testbit (nth k src 0) (Z.of_nat (7 - m)) else false) /\
    (length v = (8 * length src)%nat -> (forall b, In b src -> 0 <= b < 256) -> t' = src).
Proof.
  intros v src H. exists (unpacked (length v) src), (packed (bits_of (unpacked (length v) src))).
  split; [apply unpack_spec; assumption|]. split; [apply packToString_spec|].
  split; [rewrite packed_length, bits_length, unpacked_length; reflexivity|].
  split; [intros; apply packed_unpacked_bit; assumption|].
  intros -> B. apply packed_unpacked_whole. assumption.
Qed.
Print Assumptions C07_pack_unpack.

Example C07_example : packToString [1;0;1;0;1;0;1;1;1;1;0] = Ok [171; 192] /\
  pack [1;0;1;0;1;0;1;1;1;1;0] [0;0;9] = Ok [171;192;9] /\
  unpack (repeat 5 11) [171;223] = Ok [1;0;1;0;1;0;1;1;1;1;0].
Proof. repeat split; reflexivity. Qed.

(** * C08 *)
Theorem C08_hexstr : forall v,
  hexstr v = Ok (map (fun k => lower_hex (be_value (slice (4 * k) 4 (bits_of v)))) (seq 0 (length v / 4))).
Proof. exact hexstr_spec. Qed.
Print Assumptions C08_hexstr.

Theorem C08_hex_roundtrip : forall v w s, length w = length v -> hexstr v = Ok s ->
  ((length v mod 4 = 0)%nat -> exists v', unhex w s = Ok (v', true) /\ bits_of v' = bits_of v) /\
  ((length v mod 4 <> 0)%nat -> exists v', unhex w s = Ok (v', false)).
Proof.
  intros v w s L E. split; intros M; [eapply hex_roundtrip|eapply hex_roundtrip_fails]; eassumption.
Qed.
Print Assumptions C08_hex_roundtrip.

Theorem C08_unhex : forall v src,
  exists v' b, unhex v src = Ok (v', b) /\ length v' = length v /\
    (b = true <-> forall k, (k < (length v + 3) / 4)%nat -> digit_reachable src k) /\
    (b = true -> forall j, (j < length v)%nat -> exists k c d, (j / 4 <= k)%nat /\ nth_error src k = Some c /\
       (forall l, (j / 4 <= l < k)%nat -> exists e, nth_error src l = Some e /\ isspace e = true) /\
       hexval c = Some d /\
       nth_error v' j = Some (Z.b2z (Z.testbit d (Z.of_nat (Nat.min 4 (length v - j / 4 * 4) - 1 - j mod 4))))).
Proof.
  intros v src. destruct (unhex_total v src) as (v' & b & E & L & B). exists v', b.
  repeat (split; [assumption|]). intros -> j Hj.
  destruct (unhex_contents _ _ _ E) as [_ C]. destruct (C j Hj) as (d & S & N).
  destruct (scan1x_digit _ _ S) as (k & c & K1 & K2 & K3).
  rewrite nth_error_skipn in K1. exists (j / 4 + k)%nat, c, d. split; [lia|]. split; [assumption|]. split; [|split; assumption].
  intros l Hl. destruct (K2 (l - j / 4)%nat) as (e & E1 & E2); [lia|].
  rewrite nth_error_skipn in E1. exists e. replace (j / 4 + (l - j / 4))%nat with l in E1 by lia. auto.
Qed.
Print Assumptions C08_unhex.

Example C08_example : hexstr [1;0;1;0;1;1;1;1] = Ok (lit "af") /\
  unhex (repeat 0 8) (lit "aF") = Ok ([1;0;1;0;1;1;1;1], true) /\
  unhex (repeat 0 8) (lit "a") = Ok ([1;0;1;0;0;0;0;0], false) /\
  unhex (repeat 0 6) (lit "a3") = Ok ([1;0;1;0;1;1], true) /\
  hexstr [1;1;1;1;1] = Ok (lit "f") /\ unhex (repeat 0 5) (lit "f") = Ok ([1;1;1;1;0], false).
Proof. repeat split; reflexivity. Qed.

(** * C09 *)
Theorem C09_punctured : forall (src dst : bv) ps,
  Z.of_nat (length src) < 2 ^ 31 -> Z.of_nat (length dst) < 2 ^ 31 -> Z.of_nat (length ps) < 2 ^ 31 ->
  Forall (fun p => 0 <= p < 2 ^ 32) ps ->
  (length src = (length dst + length ps)%nat /\ increasing_from 0 ps (Z.of_nat (length src)) ->
     copyPunctured src dst ps = Ok (without 0 ps src)) /\
  (~ (length src = (length dst + length ps)%nat /\ increasing_from 0 ps (Z.of_nat (length src))) ->
     copyPunctured src dst ps = Abort).
Proof.
  intros src dst ps A B C F. split.
  - intros [L I]. apply copyPunctured_ok; assumption.
  - intros N. apply copyPunctured_abort; try assumption.
    destruct (Nat.eq_dec (length src) (length dst + length ps)); [right; tauto|left; assumption].
Qed.
Print Assumptions C09_punctured.

Theorem C09_unpunctured : forall (src dst : list fl) ps,
  Z.of_nat (length src) < 2 ^ 31 -> Z.of_nat (length dst) < 2 ^ 31 -> Z.of_nat (length ps) < 2 ^ 31 ->
  Forall (fun p => 0 <= p < 2 ^ 32) ps ->
  (length dst = (length src + length ps)%nat /\ increasing_from 0 ps (Z.of_nat (length dst)) ->
     copyUnPunctured fhalf src dst ps = Ok (with_erasures fhalf 0 (length dst) ps src)) /\
  (~ (length dst = (length src + length ps)%nat /\ increasing_from 0 ps (Z.of_nat (length dst))) ->
     copyUnPunctured fhalf src dst ps = Abort).
Proof.
  intros src dst ps A B C F. split.
  - intros [L I]. apply copyUnPunctured_ok; assumption.
  - intros N. apply copyUnPunctured_abort; try assumption.
    destruct (Nat.eq_dec (length dst) (length src + length ps)); [right; tauto|left; assumption].
Qed.
Print Assumptions C09_unpunctured.

Theorem C09_roundtrip : forall (v dst : bv) (sdst : list fl) ps,
  Z.of_nat (length v) < 2 ^ 31 -> Forall (fun p => 0 <= p < 2 ^ 32) ps ->
  length v = (length dst + length ps)%nat -> length sdst = length v ->
  increasing_from 0 ps (Z.of_nat (length v)) ->
  exists p, copyPunctured v dst ps = Ok p /\
    copyUnPunctured fhalf (soft_of_bv p) sdst ps = Ok (erased fhalf 0 ps (soft_of_bv v)).
Proof. exact puncture_roundtrip. Qed.
Print Assumptions C09_roundtrip.

Example C09_example : copyPunctured [1;0;1;1;0] [0;0;0] [1;3] = Ok [1;1;0] /\
  copyPunctured [1;0;1;1;0] [0;0;0] [3;1] = Abort /\ copyPunctured [1;0;1;1;0] [0;0;0] [1;5] = Abort /\
  copyPunctured [1;0;1;1;0] [0;0] [1;3] = Abort /\
  copyUnPunctured fhalf (soft_of_bv [1;1;0]) (repeat FNaN 5) [1;3]
    = Ok [FFin (QArith_base.Qmake 1 1); fhalf; FFin (QArith_base.Qmake 1 1); fhalf; FFin (QArith_base.Qmake 0 1)].
Proof. repeat split; reflexivity. Qed.

(** * C10 *)
Theorem C10_map : forall src mp dest,
  (Forall (fun m => (m < length src)%nat) mp /\ (length mp <= length dest)%nat ->
   exists d, bv_map src mp dest = Ok d /\ length d = length dest /\
     (forall i m, nth_error mp i = Some m -> nth_error d i = nth_error src m) /\
     (forall j, (length mp <= j)%nat -> nth_error d j = nth_error dest j)) /\
  (~ (Forall (fun m => (m < length src)%nat) mp /\ (length mp <= length dest)%nat) -> bv_map src mp dest = UB).
Proof.
  intros src mp dest. unfold bv_map. split.
  - intros [F L]. destruct (map_loop_ok mp src 0 dest F) as (d & E & Ld & A & B); [lia|].
    exists d. repeat split; try assumption. intros j Hj. apply A. lia.
  - intros N. apply map_loop_ub; [|lia]. cbn [Nat.add].
    destruct (Nat.le_gt_cases (length mp) (length dest)); [left; tauto|right; assumption].
Qed.
Print Assumptions C10_map.

Theorem C10_unmap : forall src mp dest,
  (Forall (fun m => (m < length dest)%nat) mp /\ (length mp <= length src)%nat ->
   exists d, bv_unmap src mp dest = Ok d /\ length d = length dest /\
     (forall i m, nth_error mp i = Some m -> (forall i', (i < i')%nat -> nth_error mp i' <> Some m) ->
        nth_error d m = nth_error src i) /\
     (forall j, ~ In j mp -> nth_error d j = nth_error dest j)) /\
  (~ (Forall (fun m => (m < length dest)%nat) mp /\ (length mp <= length src)%nat) -> bv_unmap src mp dest = UB).
Proof.
  intros src mp dest. unfold bv_unmap. split.
  - intros [F L]. destruct (unmap_loop_ok mp src 0 dest F) as (d & E & Ld & A & B); [lia|].
    exists d. repeat split; try assumption.
  - intros N. apply unmap_loop_ub; [|lia]. cbn [Nat.add].
    destruct (Nat.le_gt_cases (length mp) (length src)); [left; tauto|right; assumption].
Qed.
Print Assumptions C10_unmap.

Theorem C10_unmap_map : forall src mp d0 u0,
  NoDup mp -> Forall (fun m => (m < length src)%nat) mp -> (length mp <= length d0)%nat -> length u0 = length src ->
  exists d u, bv_map src mp d0 = Ok d /\ bv_unmap d mp u0 = Ok u /\
    (forall m, In m mp -> nth_error u m = nth_error src m) /\
    (forall j, ~ In j mp -> nth_error u j = nth_error u0 j).
Proof. exact unmap_map. Qed.
Print Assumptions C10_unmap_map.

Theorem C10_map_unmap : forall src mp d0 u0,
  NoDup mp -> Forall (fun m => (m < length d0)%nat) mp -> (length mp <= length src)%nat -> (length mp <= length u0)%nat ->
  exists d u, bv_unmap src mp d0 = Ok d /\ bv_map d mp u0 = Ok u /\
    (forall i, (i < length mp)%nat -> nth_error u i = nth_error src i).
Proof. exact map_unmap. Qed.
Print Assumptions C10_map_unmap.

Example C10_example : bv_map [10;11;12;13] [2;0;3]%nat [0;0;0;9] = Ok [12;10;13;9] /\
  bv_unmap [12;10;13;9] [2;0;3]%nat [7;7;7;7] = Ok [10;7;12;13] /\
  bv_unmap [1;2] [1;1]%nat [0;0] = Ok [0;2] /\ bv_map [1] [1]%nat [0] = UB.
Proof. repeat split; reflexivity. Qed.

(** * C11 *)
Theorem C11_invert : forall v, Forall char_range v ->
  (forall i, (i < length v)%nat -> exists b, bit v i = Ok b /\ bit (invert v) i = Ok (negb b)) /\
  length (invert v) = length v /\ invert (invert v) = v.
Proof.
  intros v H. split; [|split; [apply map_length|apply invert_involutive; assumption]].
  intros i Hi. exists (nth i (bits_of v) false). rewrite !bit_spec, invert_bits.
  unfold invert. rewrite map_length. destruct (Nat.ltb_spec i (length v)); [|lia]. split; [reflexivity|].
  f_equal. rewrite nth_indep with (d' := negb false) by (rewrite map_length, bits_length; assumption).
  apply map_nth.
Qed.
Print Assumptions C11_invert.

Theorem C11_LSB8MSB : forall v, exists v', LSB8MSB v = Ok v' /\ length v' = length v /\
  (forall j, nth_error v' j = nth_error v (byte_reversed v j)) /\ LSB8MSB v' = Ok v.
Proof.
  intros v. destruct (LSB8MSB_spec v) as (v' & E & L & P). exists v'. repeat split; try assumption.
  apply LSB8MSB_involutive. assumption.
Qed.
Print Assumptions C11_LSB8MSB.

Theorem C11_reverse8 : forall v,
  ((length v < 8)%nat -> reverse8 v = Abort) /\
  ((8 <= length v)%nat -> exists v', reverse8 v = Ok v' /\ length v' = length v /\
     forall j, nth_error v' j = if Nat.ltb j 8 then nth_error v (7 - j) else nth_error v j).
Proof. intros v. split; [apply reverse8_short|apply reverse8_nth]. Qed.
Print Assumptions C11_reverse8.

Theorem C11_sum_print : forall v s,
  (Z.of_nat (length v) < 2 ^ 32 -> bv_sum v = popcount (bits_of v)) /\
  bits_of (bv_of_string (bv_print v)) = bits_of v /\
  (Forall (fun c => c = 48 \/ c = 49) s -> bv_print (bv_of_string s) = s).
Proof. intros v s. split; [apply sum_spec|]. split; [apply print_parse|apply parse_print]. Qed.
Print Assumptions C11_sum_print.

(** Any text gives a vector of its length with a 1 exactly where the text has a '1'. *)
Theorem C11_from_text : forall s,
  length (bv_of_string s) = length s /\
  forall i c, nth_error s i = Some c -> nth_error (bv_of_string s) i = Some (Z.b2z (c =? 49)).
Proof.
  intros s. split; [apply map_length|]. intros i c E. unfold bv_of_string.
  rewrite nth_error_map, E. cbn [option_map]. destruct (c =? 49); reflexivity.
Qed.
Print Assumptions C11_from_text.

Example C11_from_text_ex : bv_of_string ([49;120;48;32;49]) = [1;0;0;0;1].
Proof. vm_compute. reflexivity. Qed.

Theorem C11_bit_access : forall v i x,
  bit v i = (if Nat.ltb i (length v) then Ok (nth i (bits_of v) false) else Abort) /\
  ((i < length v)%nat -> exists v', settfb v i x = Ok v' /\ length v' = length v /\
    bit v' i = Ok (Z.odd x) /\ forall j, j <> i -> nth_error v' j = nth_error v j).
Proof. intros v i x. split; [apply bit_spec|apply settfb_bit]. Qed.
Print Assumptions C11_bit_access.
(** Outside the vector [settfb] aborts, as [bit] does. *)
Theorem C11_settfb_outside : forall v i x, (length v <= i)%nat -> settfb v i x = Abort.
Proof. intros v i x L. unfold settfb. apply Nat.ltb_ge in L. rewrite L. reflexivity. Qed.
Print Assumptions C11_settfb_outside.

(** [operator==] is equality of the raw elements ... *)
Theorem C11_equal_raw : forall a b, bv_eqb a b = true <-> a = b.
Proof. exact bv_eqb_eq. Qed.
Print Assumptions C11_equal_raw.

(** ... so it does not decide equality of the bits (defect). *)
Theorem C11_equal_after_invert : forall v w, Forall (fun c => c = 0 \/ c = 1) v -> Forall (fun c => c = 0 \/ c = 1) w ->
  v <> [] -> bv_eqb (invert v) w = false.
Proof. exact invert_not_equal. Qed.
Print Assumptions C11_equal_after_invert.

Theorem C11_equal_bits_refuted : exists a b, bits_of a = bits_of b /\ bv_eqb a b = false.
Proof. exists (invert [0;1]), [1;0]. split; reflexivity. Qed.
Print Assumptions C11_equal_bits_refuted.

Example C11_example : invert [0;1;-1] = [-1;-2;0] /\
  LSB8MSB [1;2;3;4;5;6;7;8;9;10] = Ok [8;7;6;5;4;3;2;1;9;10] /\ reverse8 [1;2;3] = Abort /\
  bv_sum [0;1;-1;2] = 2 /\ bv_print [0;1;-1] = lit "011" /\ bv_of_string (lit "0110") = [0;1;1;0].
Proof. repeat split; reflexivity. Qed.

(** * C15 *)
Theorem C15_slice_soft : forall v,
  bits_of (sliced (soft_of_bv v)) = bits_of v /\ length (sliced (soft_of_bv v)) = length v.
Proof. exact sliced_soft. Qed.
Print Assumptions C15_slice_soft.

Theorem C15_sliced : forall v, length (sliced v) = length v /\
  forall i x, nth_error v i = Some x ->
    nth_error (sliced v) i =
    Some (match x with
          | FNaN => 0
          | FInf neg => if neg then 0 else 1
          | FFin q => if QArith_base.Qlt_le_dec (QArith_base.Qmake 1 2) q then 1 else 0
          end).
Proof.
  intros v. split; [apply map_length|]. intros i x E. unfold sliced. rewrite nth_error_map, E. cbn [option_map]. f_equal.
  destruct x as [|[]|q]; try reflexivity. cbn [flt fhalf].
  destruct (QArith_base.Qlt_le_dec (QArith_base.Qmake 1 2) q) as [H|H].
  - destruct (QArith_base.Qle_bool q (QArith_base.Qmake 1 2)) eqn:B; [|reflexivity].
    apply QArith_base.Qle_bool_iff in B. exfalso. eapply QArith_base.Qlt_not_le; eassumption.
  - apply QArith_base.Qle_bool_iff in H. rewrite H. reflexivity.
Qed.
Print Assumptions C15_sliced.

(** Printed: one character for each entry, 0 below a quarter, 1 above three quarters, - in between and for NaN. *)
Theorem C15_print : forall v, length (soft_print v) = length v /\
  forall i x, nth_error v i = Some x ->
    nth_error (soft_print v) i =
    Some (match x with
          | FNaN => 45
          | FInf neg => if neg then 48 else 49
          | FFin q => if QArith_base.Qlt_le_dec q (QArith_base.Qmake 1 4) then 48
                      else if QArith_base.Qlt_le_dec (QArith_base.Qmake 3 4) q then 49 else 45
          end).
Proof.
  intros v. split; [apply map_length|]. intros i x E. unfold soft_print. rewrite nth_error_map, E. cbn [option_map]. f_equal.
  assert (L : forall a b, flt (FFin a) (FFin b) = if QArith_base.Qlt_le_dec a b then true else false).
  { intros a b. cbn [flt]. destruct (QArith_base.Qlt_le_dec a b) as [H|H].
    - destruct (QArith_base.Qle_bool b a) eqn:B; [|reflexivity]. apply QArith_base.Qle_bool_iff in B. exfalso. eapply QArith_base.Qlt_not_le; eassumption.
    - apply QArith_base.Qle_bool_iff in H. rewrite H. reflexivity. }
  destruct x as [|[]|q]; [reflexivity..|]. rewrite !L.
  destruct (QArith_base.Qlt_le_dec q _); [reflexivity|]. destruct (QArith_base.Qlt_le_dec _ q); reflexivity.
Qed.
Print Assumptions C15_print.
(** Printed certain bits are the bits. *)
Theorem C15_print_bits : forall v, soft_print (soft_of_bv v) = map (fun b : bool => if b then 49 else 48) (bits_of v).
Proof.
  intros v. unfold soft_print, soft_of_bv, bits_of. rewrite !map_map. apply map_ext. intros c. unfold bitof. change 1 with (Z.ones 1). rewrite Z.land_ones by lia. change (2 ^ 1) with 2. rewrite Zmod_odd. destruct (Z.odd c); reflexivity.
Qed.
Print Assumptions C15_print_bits.
(** One entry: [bit] is the entry of [sliced], [softbit] the value itself, and [settfb] changes just
    that entry; outside the vector all three abort. *)
Theorem C15_access : forall v i,
  match nth_error v i with
  | Some x => softbit v i = Ok x /\ (exists b, soft_bit v i = Ok b /\ nth_error (sliced v) i = Some (if b then 1 else 0)) /\
      forall y, exists v', soft_settfb v i y = Ok v' /\ length v' = length v /\ nth_error v' i = Some y /\ forall j, j <> i -> nth_error v' j = nth_error v j
  | None => softbit v i = Abort /\ soft_bit v i = Abort /\ forall y, soft_settfb v i y = Abort
  end.
Proof.
  intros v i. unfold softbit, soft_bit, soft_settfb. destruct (nth_error v i) as [x|] eqn:E.
  - assert (L : (i < length v)%nat) by (apply nth_error_Some; rewrite E; discriminate). assert (B := L). apply Nat.ltb_lt in B. rewrite B. cbn [assert_ bind]. unfold rd. rewrite E. cbn [bind].
    split; [reflexivity|]. split; [exists (flt fhalf x); split; [reflexivity|unfold sliced; rewrite nth_error_map, E; reflexivity]|].
    intros y. exists (upd v i y). rewrite wr_ok by exact L. split; [reflexivity|]. split; [apply upd_length|]. split; [apply nth_error_upd_eq, L|]. intros j N. apply nth_error_upd_neq. congruence.
  - apply nth_error_None in E. apply Nat.ltb_ge in E. rewrite E. repeat split; reflexivity.
Qed.
Print Assumptions C15_access.
(** After [unknown] every entry is one half: as many as before, sliced to zeros and printed as hyphens. *)
Theorem C15_unknown : forall v, soft_unknown v = repeat fhalf (length v) /\ sliced (soft_unknown v) = repeat 0 (length v) /\ soft_print (soft_unknown v) = repeat 45 (length v).
Proof.
  intros v. assert (U : soft_unknown v = repeat fhalf (length v)) by (unfold soft_unknown; induction v as [|x v IH]; [reflexivity|cbn [map length repeat]; rewrite IH; reflexivity]).
  rewrite U. split; [reflexivity|]. unfold sliced, soft_print. clear U. induction (length v) as [|n [IH1 IH2]]; [split; reflexivity|]. cbn [repeat map]. rewrite IH1, IH2. split; reflexivity.
Qed.
Print Assumptions C15_unknown.
Example C15_example : sliced [FFin (QArith_base.Qmake 3 4); fhalf; FNaN; FInf false; FInf true; FFin (QArith_base.Qmake (-3) 1)]
  = [1;0;0;1;0;0] /\ soft_of_bv [0;1;-1] = [FFin (QArith_base.Qmake 0 1); FFin (QArith_base.Qmake 1 1); FFin (QArith_base.Qmake 1 1)].
Proof. split; reflexivity. Qed.
