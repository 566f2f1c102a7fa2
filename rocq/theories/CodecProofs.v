(** Proofs about the text encodings. *)
From Verif Require Import Base BaseFacts CodecModel CodecSpec.
Local Open Scope Z_scope.

Lemma cons_eq {A} (a b : A) l m : a = b -> l = m -> a :: l = b :: m.
Proof. congruence. Qed.

(** ** Numbers *)
Lemma byte_cases (P : Z -> bool) :
  forallb P (map Z.of_nat (seq 0 256)) = true -> forall a, byte a -> P a = true.
Proof.
  intros H a Ha. rewrite forallb_forall in H. apply H. apply in_map_iff.
  exists (Z.to_nat a). unfold byte in Ha. split; [lia|]. apply in_seq. lia.
Qed.

Lemma lor_low a b n : 0 <= n -> 0 <= b < 2 ^ n -> Z.lor (a * 2 ^ n) b = a * 2 ^ n + b.
Proof.
  intros Hn Hb. symmetry. rewrite <- Z.lxor_lor.
  - apply Z.add_nocarry_lxor. rewrite <- (Z.mod_small b (2 ^ n)) by lia. rewrite <- Z.land_ones by lia.
    rewrite <- (Z.shiftl_mul_pow2 a n) by lia.
    apply Z.bits_inj'. intros k Hk. rewrite Z.land_spec, Z.land_spec, Z.bits_0.
    destruct (Z.lt_ge_cases k n).
    + rewrite Z.shiftl_spec_low by lia. reflexivity.
    + rewrite Z.ones_spec_high by lia. rewrite !andb_false_r. reflexivity.
  - rewrite <- (Z.mod_small b (2 ^ n)) by lia. rewrite <- Z.land_ones by lia.
    rewrite <- (Z.shiftl_mul_pow2 a n) by lia.
    apply Z.bits_inj'. intros k Hk. rewrite Z.land_spec, Z.land_spec, Z.bits_0.
    destruct (Z.lt_ge_cases k n).
    + rewrite Z.shiftl_spec_low by lia. reflexivity.
    + rewrite Z.ones_spec_high by lia. rewrite !andb_false_r. reflexivity.
Qed.

Lemma land_63 x : Z.land 63 x = x mod 64.
Proof. rewrite Z.land_comm. change 63 with (Z.ones 6). rewrite Z.land_ones by lia. reflexivity. Qed.
Lemma land_255 x : Z.land 255 x = x mod 256.
Proof. rewrite Z.land_comm. change 255 with (Z.ones 8). rewrite Z.land_ones by lia. reflexivity. Qed.
Lemma land_15 x : Z.land x 15 = x mod 16.
Proof. change 15 with (Z.ones 4). rewrite Z.land_ones by lia. reflexivity. Qed.

Lemma accum3 a b c : byte a -> byte b -> byte c ->
  Z.lor (u32 (Z.shiftl (Z.lor (u32 (Z.shiftl a 8)) b) 8)) c = a * 65536 + b * 256 + c.
Proof.
  unfold byte, u32. intros Ha Hb Hc.
  rewrite (Z.shiftl_mul_pow2 a 8) by lia. rewrite (Z.mod_small (a * 2 ^ 8) (2 ^ 32)) by lia.
  rewrite lor_low by lia. rewrite Z.shiftl_mul_pow2 by lia. rewrite (Z.mod_small _ (2 ^ 32)) by lia.
  rewrite lor_low by lia. lia.
Qed.

Lemma accum2 a b : byte a -> byte b ->
  u32 (Z.shiftl (Z.lor (u32 (Z.shiftl a 8)) b) 8) = a * 65536 + b * 256.
Proof.
  unfold byte, u32. intros Ha Hb.
  rewrite (Z.shiftl_mul_pow2 a 8) by lia. rewrite (Z.mod_small (a * 2 ^ 8) (2 ^ 32)) by lia.
  rewrite lor_low by lia. rewrite Z.shiftl_mul_pow2 by lia. rewrite (Z.mod_small _ (2 ^ 32)) by lia. lia.
Qed.

Lemma accum1 a : byte a -> u32 (Z.shiftl (u32 (Z.shiftl a 8)) 8) = a * 65536.
Proof.
  unfold byte, u32. intros Ha.
  rewrite (Z.shiftl_mul_pow2 a 8) by lia. rewrite (Z.mod_small (a * 2 ^ 8) (2 ^ 32)) by lia.
  rewrite Z.shiftl_mul_pow2 by lia. rewrite (Z.mod_small _ (2 ^ 32)) by lia. lia.
Qed.

Lemma b64out_eq accum s : 0 <= s -> b64out accum s = b64char ((accum / 2 ^ s) mod 64).
Proof. intros Hs. unfold b64out. rewrite land_63, Z.shiftr_div_pow2 by lia. reflexivity. Qed.

Lemma byte_value : forall a, byte a -> bits_value (bits8 a) = a.
Proof.
  intros a Ha. apply Z.eqb_eq. revert a Ha. apply byte_cases. vm_compute. reflexivity.
Qed.

(** A byte as eight bits. *)
Lemma byte_bits a : byte a -> exists b7 b6 b5 b4 b3 b2 b1 b0,
  bits8 a = [b7; b6; b5; b4; b3; b2; b1; b0] /\
  a = 128 * b2z b7 + 64 * b2z b6 + 32 * b2z b5 + 16 * b2z b4 + 8 * b2z b3 + 4 * b2z b2 + 2 * b2z b1 + b2z b0.
Proof.
  intros Ha. exists (Z.testbit a 7), (Z.testbit a 6), (Z.testbit a 5), (Z.testbit a 4),
    (Z.testbit a 3), (Z.testbit a 2), (Z.testbit a 1), (Z.testbit a 0).
  split; [reflexivity|]. transitivity (bits_value (bits8 a)); [symmetry; apply byte_value, Ha|].
  unfold bits_value, bits8. cbn [map fold_left]. lia.
Qed.
Lemma b2z_range b : 0 <= b2z b <= 1.
Proof. destruct b; cbn; lia. Qed.

Lemma sextets6 a b c d e f r : sextets (a :: b :: c :: d :: e :: f :: r) = bits_value [a; b; c; d; e; f] :: sextets r.
Proof. reflexivity. Qed.

Ltac bitranges := repeat match goal with |- context [b2z ?b] =>
    lazymatch goal with _ : 0 <= b2z b <= 1 |- _ => fail | _ => pose proof (b2z_range b) end end.

Lemma group3 a b c r : byte a -> byte b -> byte c ->
  sextets (bits8 a ++ bits8 b ++ bits8 c ++ r) =
  a / 4 :: (a mod 4) * 16 + b / 16 :: (b mod 16) * 4 + c / 64 :: c mod 64 :: sextets r.
Proof.
  intros Ha Hb Hc.
  destruct (byte_bits a Ha) as (a7 & a6 & a5 & a4 & a3 & a2 & a1 & a0 & -> & ->).
  destruct (byte_bits b Hb) as (b7 & b6 & b5 & b4 & b3 & b2 & b1 & b0 & -> & ->).
  destruct (byte_bits c Hc) as (c7 & c6 & c5 & c4 & c3 & c2 & c1 & c0 & -> & ->).
  cbn [app]. rewrite !sextets6. unfold bits_value. cbn [fold_left].
  bitranges. repeat (apply cons_eq; [lia|]). reflexivity.
Qed.

Lemma group2 a b : byte a -> byte b ->
  sextets (bits8 a ++ bits8 b) = [a / 4; (a mod 4) * 16 + b / 16; (b mod 16) * 4].
Proof.
  intros Ha Hb.
  destruct (byte_bits a Ha) as (a7 & a6 & a5 & a4 & a3 & a2 & a1 & a0 & -> & ->).
  destruct (byte_bits b Hb) as (b7 & b6 & b5 & b4 & b3 & b2 & b1 & b0 & -> & ->).
  cbn [app]. rewrite !sextets6. cbn [sextets app firstn repeat]. unfold bits_value. cbn [fold_left].
  bitranges. change (b2z false) with 0. repeat (apply cons_eq; [lia|]). reflexivity.
Qed.

Lemma group1 a : byte a -> sextets (bits8 a) = [a / 4; (a mod 4) * 16].
Proof.
  intros Ha.
  destruct (byte_bits a Ha) as (a7 & a6 & a5 & a4 & a3 & a2 & a1 & a0 & -> & ->).
  rewrite !sextets6. cbn [sextets app firstn repeat]. unfold bits_value. cbn [fold_left].
  bitranges. change (b2z false) with 0. repeat (apply cons_eq; [lia|]). reflexivity.
Qed.

Lemma enc3 a b c r : byte a -> byte b -> byte c ->
  base64EncodeToString (a :: b :: c :: r) =
  b64char (a / 4) :: b64char ((a mod 4) * 16 + b / 16) :: b64char ((b mod 16) * 4 + c / 64) :: b64char (c mod 64)
  :: base64EncodeToString r.
Proof.
  intros Ha Hb Hc. cbn [base64EncodeToString]. rewrite accum3 by assumption.
  rewrite !b64out_eq by lia. unfold byte in *.
  repeat (apply cons_eq; [try reflexivity; f_equal; lia|]). reflexivity.
Qed.
Lemma enc2 a b : byte a -> byte b ->
  base64EncodeToString [a; b] = [b64char (a / 4); b64char ((a mod 4) * 16 + b / 16); b64char ((b mod 16) * 4); 61].
Proof.
  intros Ha Hb. cbn [base64EncodeToString]. rewrite accum2 by assumption.
  rewrite !b64out_eq by lia. unfold byte in *.
  repeat (apply cons_eq; [try reflexivity; f_equal; lia|]). reflexivity.
Qed.
Lemma enc1 a : byte a -> base64EncodeToString [a] = [b64char (a / 4); b64char ((a mod 4) * 16); 61; 61].
Proof.
  intros Ha. cbn [base64EncodeToString]. rewrite accum1 by assumption.
  rewrite !b64out_eq by lia. unfold byte in *.
  repeat (apply cons_eq; [try reflexivity; f_equal; lia|]). reflexivity.
Qed.

(** Induction over groups of three. *)
Lemma list_ind3 {A} (P : list A -> Prop) :
  P [] -> (forall a, P [a]) -> (forall a b, P [a; b]) ->
  (forall a b c r, P r -> P (a :: b :: c :: r)) -> forall l, P l.
Proof.
  intros H0 H1 H2 H3 l. enough (P l /\ (forall a, P (a :: l)) /\ (forall a b, P (a :: b :: l))) by tauto.
  induction l as [|x t (I0 & I1 & I2)]; repeat split; auto.
Qed.

Lemma enc_spec u : Forall byte u -> base64EncodeToString u = base64 u.
Proof.
  pattern u. apply list_ind3; clear u.
  - reflexivity.
  - intros a H. inversion H; subst. rewrite enc1 by assumption. unfold base64.
    cbn [flat_map]. rewrite app_nil_r, group1 by assumption. reflexivity.
  - intros a b H. inversion H as [|? ? Ha H']; subst. inversion H'; subst. rewrite enc2 by assumption. unfold base64.
    cbn [flat_map]. rewrite app_nil_r, group2 by assumption. reflexivity.
  - intros a b c r IH H. inversion H as [|? ? Ha H']; subst. inversion H' as [|? ? Hb H'']; subst.
    inversion H''; subst. rewrite enc3 by assumption. rewrite IH by assumption. unfold base64.
    cbn [flat_map]. rewrite group3 by assumption. cbn [map length app].
    set (n := length (sextets (flat_map bits8 r))).
    replace (S (S (S (S n))) mod 4)%nat with (n mod 4)%nat; [reflexivity|].
    replace (S (S (S (S n)))) with (n + 1 * 4)%nat by lia. rewrite Nat.mod_add by lia. reflexivity.
Qed.

Lemma enc_length u : Z.of_nat (length (base64EncodeToString u)) = 4 * ((Z.of_nat (length u) + 2) / 3).
Proof.
  pattern u. apply list_ind3; clear u; try reflexivity.
  intros a b c r IH. cbn [base64EncodeToString length]. lia.
Qed.

(** ** Decoding base64 *)
Lemma six_cases (P : Z -> bool) :
  forallb P (map Z.of_nat (seq 0 64)) = true -> forall i, 0 <= i < 64 -> P i = true.
Proof.
  intros H a Ha. rewrite forallb_forall in H. apply H. apply in_map_iff.
  exists (Z.to_nat a). split; [lia|]. apply in_seq. lia.
Qed.
Lemma rev_char i : 0 <= i < 64 -> sMapBase64Reverse (b64char i) = i.
Proof. intros. apply Z.eqb_eq. revert i H. apply six_cases. vm_compute. reflexivity. Qed.
Lemma char_plain i : 0 <= i < 64 -> isspace (b64char i) = false /\ (b64char i =? 61) = false.
Proof.
  intros. enough (negb (isspace (b64char i)) && negb (b64char i =? 61) = true).
  { apply andb_true_iff in H0. destruct H0 as [H0 H1].
    apply negb_true_iff in H0. apply negb_true_iff in H1. split; assumption. }
  revert i H. apply six_cases. vm_compute. reflexivity.
Qed.

Lemma group_step i t accum j err : 0 <= i < 64 -> 0 <= j < 4 ->
  b64_group (b64char i :: t) accum j err =
  b64_group t (Z.lor accum (i * 2 ^ ((3 - j) * 6))) (j + 1) err.
Proof.
  intros Hi Hj. cbn [b64_group]. destruct (char_plain i Hi) as [-> ->]. rewrite rev_char by exact Hi.
  replace (j <? 4) with true by lia. replace (64 <=? i) with false by lia.
  rewrite Z.shiftl_mul_pow2 by lia. unfold u32. rewrite Z.mod_small; [reflexivity|].
  assert (j = 0 \/ j = 1 \/ j = 2 \/ j = 3) as [-> | [-> | [-> | ->]]] by lia; cbn -[Z.mul]; lia.
Qed.

Lemma lor_join w x y z : 0 <= w < 64 -> 0 <= x < 64 -> 0 <= y < 64 -> 0 <= z < 64 ->
  Z.lor (Z.lor (Z.lor (Z.lor 0 (w * 2 ^ 18)) (x * 2 ^ 12)) (y * 2 ^ 6)) (z * 2 ^ 0) =
  w * 262144 + x * 4096 + y * 64 + z.
Proof.
  intros Hw Hx Hy Hz. rewrite Z.lor_0_l.
  rewrite (lor_low w (x * 2 ^ 12) 18) by lia.
  replace (w * 2 ^ 18 + x * 2 ^ 12) with ((w * 64 + x) * 2 ^ 12) by lia.
  rewrite (lor_low _ (y * 2 ^ 6) 12) by lia.
  replace ((w * 64 + x) * 2 ^ 12 + y * 2 ^ 6) with (((w * 64 + x) * 64 + y) * 2 ^ 6) by lia.
  rewrite (lor_low _ (z * 2 ^ 0) 6) by lia. lia.
Qed.

Lemma b64_dec_S n c s err : b64_dec (S n) (c :: s) err =
  (let '(r, accum, j, e) := b64_group (c :: s) 0 0 err in
   let (out, e') := b64_dec n r e in (b64_spit accum j ++ out, e')).
Proof. reflexivity. Qed.

Lemma b64_dec_nil n err : b64_dec n [] err = ([], err).
Proof. destruct n; reflexivity. Qed.

Lemma group_full w x y z t err :
  0 <= w < 64 -> 0 <= x < 64 -> 0 <= y < 64 -> 0 <= z < 64 ->
  b64_group (b64char w :: b64char x :: b64char y :: b64char z :: t) 0 0 err =
  (t, w * 262144 + x * 4096 + y * 64 + z, 4, err).
Proof.
  intros Hw Hx Hy Hz. rewrite !group_step by lia.
  change ((3 - 0) * 6) with 18. change ((3 - (0 + 1)) * 6) with 12.
  change ((3 - (0 + 1 + 1)) * 6) with 6. change ((3 - (0 + 1 + 1 + 1)) * 6) with 0.
  rewrite lor_join by assumption. destruct t; reflexivity.
Qed.

Lemma spit4 a b c : byte a -> byte b -> byte c ->
  b64_spit (a / 4 * 262144 + (a mod 4 * 16 + b / 16) * 4096 + (b mod 16 * 4 + c / 64) * 64 + c mod 64) 4 = [a; b; c].
Proof.
  unfold byte. intros Ha Hb Hc. unfold b64_spit. cbn [Z.leb Z.eqb app Z.compare Pos.compare Pos.compare_cont Pos.eqb].
  rewrite !land_255, !Z.shiftr_div_pow2 by lia.
  repeat (apply cons_eq; [lia|]). reflexivity.
Qed.

Lemma dec_enc u n err : Forall byte u -> (length (base64EncodeToString u) <= n)%nat ->
  b64_dec n (base64EncodeToString u) err = (u, err).
Proof.
  revert n. pattern u. apply list_ind3; clear u.
  - intros n _ _. apply b64_dec_nil.
  - intros a n H Hn. inversion H as [|? ? Ha _]; subst. rewrite enc1 in * by assumption.
    destruct n as [|n]; [cbn in Hn; lia|]. rewrite b64_dec_S.
    unfold byte in Ha. rewrite !group_step by lia.
    cbn [b64_group]. change (0 + 1 + 1 <? 4) with true. change (isspace 61) with false. change (61 =? 61) with true.
    cbv iota. change (scan_rest [61] err) with err. rewrite b64_dec_nil.
    change ((3 - 0) * 6) with 18. change ((3 - (0 + 1)) * 6) with 12.
    rewrite Z.lor_0_l. rewrite (lor_low (a / 4) (a mod 4 * 16 * 2 ^ 12) 18) by lia.
    unfold b64_spit. change (1 <=? 0 + 1 + 1) with true. change (3 <=? 0 + 1 + 1) with false.
    change (0 + 1 + 1 =? 4) with false. cbn [app]. rewrite land_255, Z.shiftr_div_pow2 by lia.
    f_equal. f_equal. lia.
  - intros a b n H Hn. inversion H as [|? ? Ha H']; subst. inversion H' as [|? ? Hb _]; subst. rewrite enc2 in * by assumption.
    destruct n as [|n]; [cbn in Hn; lia|]. rewrite b64_dec_S.
    unfold byte in Ha, Hb. rewrite !group_step by lia.
    cbn [b64_group]. change (0 + 1 + 1 + 1 <? 4) with true. change (isspace 61) with false. change (61 =? 61) with true.
    cbv iota. change (scan_rest [] err) with err. rewrite b64_dec_nil.
    change ((3 - 0) * 6) with 18. change ((3 - (0 + 1)) * 6) with 12. change ((3 - (0 + 1 + 1)) * 6) with 6.
    rewrite Z.lor_0_l. rewrite (lor_low (a / 4) _ 18) by lia.
    replace (a / 4 * 2 ^ 18 + (a mod 4 * 16 + b / 16) * 2 ^ 12) with ((a / 4 * 64 + (a mod 4 * 16 + b / 16)) * 2 ^ 12) by lia.
    rewrite (lor_low _ (b mod 16 * 4 * 2 ^ 6) 12) by lia.
    unfold b64_spit. change (1 <=? 0 + 1 + 1 + 1) with true. change (3 <=? 0 + 1 + 1 + 1) with true.
    change (0 + 1 + 1 + 1 =? 4) with false. cbn [app]. rewrite !land_255, !Z.shiftr_div_pow2 by lia.
    f_equal. f_equal; [lia|]. f_equal. lia.
  - intros a b c r IH n H Hn. inversion H as [|? ? Ha H']; subst. inversion H' as [|? ? Hb H'']; subst.
    inversion H'' as [|? ? Hc Hr]; subst. rewrite enc3 in * by assumption.
    destruct n as [|n]; [cbn in Hn; lia|]. rewrite b64_dec_S. pose proof Ha as Ha'. pose proof Hb as Hb'. pose proof Hc as Hc'.
    unfold byte in Ha', Hb', Hc'. rewrite group_full by lia.
    rewrite IH by (try assumption; cbn [length] in Hn; lia). rewrite spit4 by assumption. reflexivity.
Qed.

(** White space does not matter, and enough fuel is enough. *)
Lemma strip_cons c s : strip (c :: s) = if isspace c then strip s else c :: strip s.
Proof. unfold strip. cbn [filter]. destruct (isspace c); reflexivity. Qed.

Lemma scan_strip s err : scan_rest (strip s) err = scan_rest s err.
Proof.
  unfold scan_rest. replace (forallb (fun c => isspace c || (c =? 61)) (strip s)) with
    (forallb (fun c => isspace c || (c =? 61)) s); [reflexivity|].
  induction s as [|c t IH]; [reflexivity|]. rewrite strip_cons. cbn [forallb].
  destruct (isspace c) eqn:E; [exact IH|]. cbn [forallb]. rewrite E, IH. reflexivity.
Qed.

(** [strip] of the rest, everything else the same. *)
Lemma group_strip s : forall accum j err, exists r,
  b64_group s accum j err = (r, snd (fst (fst (b64_group s accum j err))), snd (fst (b64_group s accum j err)), snd (b64_group s accum j err)) /\
  b64_group (strip s) accum j err = (strip r, snd (fst (fst (b64_group s accum j err))), snd (fst (b64_group s accum j err)), snd (b64_group s accum j err)).
Proof.
  induction s as [|c t IH]; intros accum j err.
  - exists []. split; reflexivity.
  - rewrite strip_cons. destruct (j <? 4) eqn:Ej.
    + cbn [b64_group]. rewrite Ej. destruct (isspace c) eqn:Es; [apply IH|].
      cbn [b64_group]. rewrite Ej, Es. destruct (c =? 61).
      * exists []. cbn [fst snd]. rewrite scan_strip. split; reflexivity.
      * destruct (64 <=? sMapBase64Reverse c); apply IH.
    + exists (c :: t). cbn [b64_group]. rewrite Ej. cbn [fst snd]. split; [reflexivity|].
      rewrite strip_cons. destruct (isspace c) eqn:Es; [|cbn [b64_group]; rewrite Ej; reflexivity].
      destruct (strip t) as [|d u]; [reflexivity|]. cbn [b64_group]. rewrite Ej. reflexivity.
Qed.

Lemma group_rest_le s : forall accum j err, (length (fst (fst (fst (b64_group s accum j err)))) <= length s)%nat.
Proof.
  induction s as [|c t IH]; intros accum j err; cbn [b64_group]; [cbn; lia|].
  destruct (j <? 4); [|cbn; lia]. destruct (isspace c); [specialize (IH accum j err); cbn [length]; lia|].
  destruct (c =? 61); [cbn; lia|].
  destruct (64 <=? sMapBase64Reverse c);
    [specialize (IH accum j err_b64)|
     specialize (IH (Z.lor accum (u32 (Z.shiftl (sMapBase64Reverse c) ((3 - j) * 6)))) (j + 1) err)]; cbn [length]; lia.
Qed.
Lemma group_rest_lt c s err : (length (fst (fst (fst (b64_group (c :: s) 0 0 err)))) <= length s)%nat.
Proof.
  cbn [b64_group]. change (0 <? 4) with true. cbv iota.
  destruct (isspace c); [apply group_rest_le|]. destruct (c =? 61); [cbn; lia|].
  destruct (64 <=? sMapBase64Reverse c); apply group_rest_le.
Qed.

Lemma dec_fuel n : forall m s err, (length s <= n)%nat -> (length s <= m)%nat -> b64_dec n s err = b64_dec m s err.
Proof.
  induction n as [|n IH]; intros m s err Hn Hm.
  - destruct s; [|cbn in Hn; lia]. rewrite !b64_dec_nil. reflexivity.
  - destruct s as [|c s]; [rewrite !b64_dec_nil; reflexivity|]. destruct m as [|m]; [cbn in Hm; lia|].
    rewrite !b64_dec_S. pose proof (group_rest_lt c s err) as L.
    destruct (b64_group (c :: s) 0 0 err) as [[[r accum] j] e]. cbn [fst] in L.
    cbn [length] in Hn, Hm. rewrite (IH m r e) by lia. reflexivity.
Qed.

Lemma strip_length s : (length (strip s) <= length s)%nat.
Proof. induction s as [|c t IH]; [cbn; lia|]. rewrite strip_cons. destruct (isspace c); cbn [length]; lia. Qed.

Lemma group_spaces s : strip s = [] -> forall err, b64_group s 0 0 err = ([], 0, 0, err).
Proof.
  induction s as [|c t IH]; intros H err; [reflexivity|]. rewrite strip_cons in H. cbn [b64_group].
  change (0 <? 4) with true. cbv iota. destruct (isspace c); [apply IH, H|discriminate].
Qed.

Lemma dec_strip n : forall s err, (length s <= n)%nat -> b64_dec n s err = b64_dec n (strip s) err.
Proof.
  induction n as [|n IH]; intros s err Hn.
  - destruct s; [reflexivity|cbn in Hn; lia].
  - destruct s as [|c s]; [reflexivity|]. rewrite b64_dec_S.
    destruct (strip (c :: s)) as [|d u] eqn:E.
    + rewrite group_spaces by exact E. rewrite !b64_dec_nil. reflexivity.
    + rewrite b64_dec_S. rewrite <- E. destruct (group_strip (c :: s) 0 0 err) as (r & H1 & H2).
      rewrite H2. pose proof (group_rest_lt c s err) as L. rewrite H1 in L. cbn [fst] in L.
      rewrite H1. cbn [fst snd]. cbn [length] in Hn. rewrite IH by lia. reflexivity.
Qed.

Lemma decode_strip s err : base64DecodeToString s err = base64DecodeToString (strip s) err.
Proof.
  unfold base64DecodeToString. rewrite dec_strip by lia.
  apply dec_fuel; [apply strip_length|lia].
Qed.

(** ** When base64 decoding reports an error *)
Definition bad64b (s : list Z) : bool :=
  (fix go s := match s with
   | [] => false
   | c :: t => if isspace c then go t
               else if c =? 61 then negb (forallb (fun c => isspace c || (c =? 61)) t)
               else (64 <=? sMapBase64Reverse c) || go t
   end) s.
Lemma bad64b_cons c t : bad64b (c :: t) =
  if isspace c then bad64b t
  else if c =? 61 then negb (forallb (fun c => isspace c || (c =? 61)) t)
  else (64 <=? sMapBase64Reverse c) || bad64b t.
Proof. reflexivity. Qed.

(** The message a decoder that met [err] so far ends with. *)
Lemma group_err s : forall accum j err,
  let '(r, _, _, e) := b64_group s accum j err in
  (e <> 0 \/ bad64b r = true) <-> (err <> 0 \/ bad64b s = true).
Proof.
  induction s as [|c t IH]; intros accum j err; cbn [b64_group]; [reflexivity|].
  destruct (j <? 4); [|reflexivity]. rewrite bad64b_cons.
  destruct (isspace c); [apply IH|]. destruct (c =? 61).
  - unfold scan_rest. change (bad64b []) with false. change err_after with 1.
    destruct (forallb (fun c => isspace c || (c =? 61)) t); cbn [negb];
      split; (intros [H|H]; [|discriminate || lia]); try (left; exact H); auto; left; lia.
  - destruct (64 <=? sMapBase64Reverse c) eqn:E.
    + specialize (IH accum j err_b64). destruct (b64_group t accum j err_b64) as [[[r a] k] e].
      cbn [orb]. change err_b64 with 2 in *. split; [auto|]. intros _. apply IH. left. lia.
    + cbn [orb]. apply IH.
Qed.

Lemma dec_err n : forall s err, (length s <= n)%nat ->
  (snd (b64_dec n s err) <> 0 <-> (err <> 0 \/ bad64b s = true)).
Proof.
  induction n as [|n IH]; intros s err Hn.
  - destruct s; [|cbn in Hn; lia]. cbn. intuition discriminate.
  - destruct s as [|c s]; [cbn; intuition discriminate|]. rewrite b64_dec_S.
    pose proof (group_rest_lt c s err) as L. pose proof (group_err (c :: s) 0 0 err) as G.
    destruct (b64_group (c :: s) 0 0 err) as [[[r accum] j] e]. cbn [fst] in L. cbn [length] in Hn.
    specialize (IH r e ltac:(lia)). destruct (b64_dec n r e) as [out e']. cbn [snd] in *. tauto.
Qed.

Lemma index_of_ge l c : forall i, i <= index_of l c i \/ index_of l c i = 255.
Proof. induction l as [|x t IH]; intros i; cbn [index_of]; [auto|]. destruct (x =? c); [lia|]. specialize (IH (i + 1)). lia. Qed.
Lemma index_of_in l c : forall i, In c l -> i <= index_of l c i < i + Z.of_nat (length l).
Proof.
  induction l as [|x t IH]; intros i H; [destruct H|]. cbn [index_of length]. destruct (Z.eqb_spec x c); [lia|].
  destruct H as [H|H]; [congruence|]. specialize (IH (i + 1) H). lia.
Qed.
Lemma index_of_out l c : forall i, ~ In c l -> index_of l c i = 255.
Proof.
  induction l as [|x t IH]; intros i H; [reflexivity|]. cbn [index_of]. destruct (Z.eqb_spec x c); [destruct H; left; assumption|].
  apply IH. intros K. apply H. right. exact K.
Qed.
Lemma rev_valid c : c <> 61 -> ((64 <=? sMapBase64Reverse c) = true <-> ~ In c alphabet64).
Proof.
  intros H. unfold sMapBase64Reverse. replace (c =? 61) with false by lia.
  change alphabet64 with sMapBase64. split; intros K.
  - intros L. pose proof (index_of_in sMapBase64 c 0 L) as B. change (Z.of_nat (length sMapBase64)) with 64 in B. lia.
  - rewrite index_of_out by exact K. reflexivity.
Qed.
Lemma isspace_space c : isspace c = true <-> space c.
Proof. unfold isspace, space. lia. Qed.

Lemma bad64_iff s : bad64b s = true <-> bad64 s.
Proof.
  unfold bad64. induction s as [|c t IH].
  - split; [discriminate|]. intros (s1 & c & s2 & H & _). destruct s1; discriminate.
  - rewrite bad64b_cons. destruct (isspace c) eqn:Es.
    + rewrite IH. split.
      * intros (s1 & d & s2 & -> & H1 & H2 & H3). exists (c :: s1), d, s2. repeat split; auto. destruct H3; [left; right; auto|auto].
      * intros (s1 & d & s2 & E & H1 & H2 & H3). destruct s1 as [|x s1].
        { injection E as <- <-. apply isspace_space in Es. contradiction. }
        injection E as <- ->. exists s1, d, s2. repeat split; auto.
        destruct H3 as [[H3|H3]|H3]; auto. subst c. discriminate.
    + destruct (Z.eqb_spec c 61) as [->|N].
      * rewrite negb_true_iff. split.
        -- intros H. assert (exists d, In d t /\ (isspace d || (d =? 61)) = false) as (d & Hd & Hb).
           { clear IH Es. induction t as [|d t IH]; [discriminate|]. cbn [forallb] in H.
             apply andb_false_iff in H. destruct H as [H|H]; [exists d; split; [left; reflexivity|exact H]|].
             destruct (IH H) as (e & He & Hf). exists e. split; [right|]; assumption. }
           apply in_split in Hd. destruct Hd as (s1 & s2 & ->). exists (61 :: s1), d, s2.
           apply orb_false_iff in Hb. destruct Hb as [Hb1 Hb2]. repeat split.
           ++ intros K. apply isspace_space in K. congruence.
           ++ clear - Hb2. lia.
           ++ left. left. reflexivity.
        -- intros (s1 & d & s2 & E & H1 & H2 & H3). destruct s1 as [|x s1].
           { injection E as E _. congruence. }
           injection E as _ ->. rewrite forallb_app. cbn [forallb].
           replace (isspace d) with false; [|symmetry; apply not_true_iff_false; rewrite isspace_space; exact H1].
           replace (d =? 61) with false by lia. cbn [orb andb]. apply andb_false_r.
      * rewrite orb_true_iff, IH, rev_valid by exact N. split.
        -- intros [H|(s1 & d & s2 & -> & H1 & H2 & H3)].
           ++ exists [], c, t. repeat split; auto. intros K. apply isspace_space in K. congruence.
           ++ exists (c :: s1), d, s2. repeat split; auto. destruct H3; [left; right; auto|auto].
        -- intros (s1 & d & s2 & E & H1 & H2 & H3). destruct s1 as [|x s1].
           { injection E as <- <-. destruct H3 as [[]|H3]. auto. }
           injection E as <- ->. right. exists s1, d, s2. repeat split; auto.
           destruct H3 as [[H3|H3]|H3]; auto.
Qed.

(** ** Hex *)
Definition hx (c accum err : Z) : Z * Z :=
  if 16 <=? sMapHexReverse c then (accum, err_hex) else (u8 (Z.lor (Z.shiftl accum 4) (sMapHexReverse c)), err).
(** What the decoder does with the characters that are not white space. *)
Fixpoint hexpairs (s : list Z) (err : Z) : list Z * Z :=
  match s with
  | [] => ([], err)
  | [a] => let (v, e) := hx a 0 err in ([v], err_odd)
  | a :: b :: t =>
      let (v, e) := hx a 0 err in let (w, e) := hx b v e in
      let (out, e) := hexpairs t e in (w :: out, e)
  end.

Lemma hex_dec_S n c s err : hex_dec (S n) (c :: s) err =
  (let '(r, accum, j, e) := hex_group (c :: s) 0 0 err in
   let e := if j =? 1 then err_odd else e in
   let (out, e') := hex_dec n r e in ((if j =? 0 then [] else [accum]) ++ out, e')).
Proof. reflexivity. Qed.
Lemma hex_dec_nil n err : hex_dec n [] err = ([], err).
Proof. destruct n; reflexivity. Qed.

Lemma hex_group2 s accum err : hex_group s accum 2 err = (s, accum, 2, err).
Proof. destruct s; reflexivity. Qed.

Lemma hex_group1 s : forall accum err,
  match strip s with
  | [] => hex_group s accum 1 err = ([], accum, 1, err)
  | c :: u => exists r, strip r = u /\ (length r <= length s)%nat /\ hex_group s accum 1 err = (r, fst (hx c accum err), 2, snd (hx c accum err))
  end.
Proof.
  induction s as [|c t IH]; intros accum err; [reflexivity|].
  rewrite strip_cons. cbn [hex_group]. change (1 <? 2) with true. cbv iota.
  destruct (isspace c).
  - specialize (IH accum err). destruct (strip t); [exact IH|]. destruct IH as (r & H1 & H2 & H3).
    exists r. cbn [length]. repeat split; auto.
  - exists t. cbn [length]. split; [reflexivity|]. split; [lia|]. unfold hx. change (1 + 1) with 2.
    destruct (16 <=? sMapHexReverse c); apply hex_group2.
Qed.

Lemma hex_group0 s : forall err,
  match strip s with
  | [] => hex_group s 0 0 err = ([], 0, 0, err)
  | [a] => hex_group s 0 0 err = ([], fst (hx a 0 err), 1, snd (hx a 0 err))
  | a :: b :: u => exists r, strip r = u /\ (length r < length s)%nat /\ hex_group s 0 0 err =
      (r, fst (hx b (fst (hx a 0 err)) (snd (hx a 0 err))), 2, snd (hx b (fst (hx a 0 err)) (snd (hx a 0 err))))
  end.
Proof.
  induction s as [|c t IH]; intros err; [reflexivity|].
  rewrite strip_cons. cbn [hex_group]. change (0 <? 2) with true. cbv iota.
  destruct (isspace c).
  - specialize (IH err). destruct (strip t) as [|a [|b u]]; [exact IH|exact IH|]. destruct IH as (r & H1 & H2 & H3).
    exists r. cbn [length]. repeat split; auto.
  - assert (E : (if 16 <=? sMapHexReverse c then hex_group t 0 (0 + 1) err_hex
                 else hex_group t (u8 (Z.lor (Z.shiftl 0 4) (sMapHexReverse c))) (0 + 1) err) =
                hex_group t (fst (hx c 0 err)) 1 (snd (hx c 0 err))).
    { unfold hx. destruct (16 <=? sMapHexReverse c); reflexivity. }
    cbv zeta. rewrite E. pose proof (hex_group1 t (fst (hx c 0 err)) (snd (hx c 0 err))) as G.
    destruct (strip t) as [|b u]; [exact G|]. destruct G as (r & H1 & H2 & H3). exists r. cbn [length].
    repeat split; [exact H1|lia|exact H3].
Qed.

Lemma hex_dec_pairs n : forall s err, (length s <= n)%nat -> hex_dec n s err = hexpairs (strip s) err.
Proof.
  induction n as [|n IH]; intros s err Hn.
  - destruct s; [reflexivity|cbn in Hn; lia].
  - destruct s as [|c s]; [reflexivity|]. rewrite hex_dec_S. pose proof (hex_group0 (c :: s) err) as G.
    destruct (strip (c :: s)) as [|a [|b u]].
    + rewrite G. cbn. rewrite hex_dec_nil. reflexivity.
    + rewrite G. change (1 =? 1) with true. change (1 =? 0) with false. cbv iota zeta. rewrite hex_dec_nil.
      cbn [hexpairs]. destruct (hx a 0 err). reflexivity.
    + destruct G as (r & H1 & H2 & H3). rewrite H3. change (2 =? 1) with false. change (2 =? 0) with false. cbv iota zeta.
      cbn [length] in Hn, H2. rewrite IH by lia. rewrite H1. cbn [hexpairs].
      destruct (hx a 0 err) as [v e]. cbn [fst snd]. destruct (hx b v e) as [w e']. cbn [fst snd].
      destruct (hexpairs u e'). reflexivity.
Qed.

Lemma list_ind2 {A} (P : list A -> Prop) :
  P [] -> (forall a, P [a]) -> (forall a b r, P r -> P (a :: b :: r)) -> forall l, P l.
Proof.
  intros H0 H1 H2 l. enough (P l /\ (forall a, P (a :: l))) by tauto.
  induction l as [|x t (I0 & I1)]; split; auto.
Qed.

Lemma hexrev_digit c v : hexdigit c v -> sMapHexReverse c = v /\ 0 <= v < 16.
Proof.
  unfold hexdigit, sMapHexReverse. intros H.
  destruct H as [[H ->]|[[H ->]|[H ->]]]; (split; [|lia]);
    repeat match goal with |- context [if ?b then _ else _] => destruct b eqn:? end; lia.
Qed.
Lemma hexrev_bad c : 16 <= sMapHexReverse c <-> ~ exists v, hexdigit c v.
Proof.
  split.
  - intros H (v & K). apply hexrev_digit in K. lia.
  - intros H. destruct (Z.le_gt_cases 16 (sMapHexReverse c)) as [L|L]; [exact L|]. exfalso. apply H.
    unfold hexdigit, sMapHexReverse in *.
    destruct ((97 <=? c) && (c <=? 122)) eqn:E1; [exists (c - 87); lia|].
    destruct ((65 <=? c) && (c <=? 90)) eqn:E2; [exists (c - 55); lia|].
    destruct ((48 <=? c) && (c <=? 57)) eqn:E3; [exists (c - 48); lia|lia].
Qed.

Lemma hx_ok c v accum err : hexdigit c v -> 0 <= accum < 16 -> hx c accum err = (16 * accum + v, err).
Proof.
  intros H Ha. apply hexrev_digit in H. destruct H as [H B]. unfold hx. rewrite H.
  replace (16 <=? v) with false by lia. rewrite Z.shiftl_mul_pow2 by lia. rewrite lor_low by lia.
  unfold u8. rewrite (Z.mod_small _ (2 ^ 8)) by lia. f_equal. lia.
Qed.

Lemma hexpairs_ok s u : hexes s u -> forall err, hexpairs s err = (u, err).
Proof.
  induction 1 as [|a b x y s u Ha Hb Hs IH]; intros err; [reflexivity|]. cbn [hexpairs].
  pose proof (hexrev_digit a x Ha) as [_ Bx].
  rewrite (hx_ok a x) by (assumption || lia). rewrite (hx_ok b y) by (assumption || lia). rewrite IH.
  reflexivity.
Qed.

(** When an error is reported. *)
Lemma hx_err c accum err : snd (hx c accum err) <> 0 <-> err <> 0 \/ ~ exists v, hexdigit c v.
Proof.
  unfold hx. pose proof (hexrev_bad c). destruct (16 <=? sMapHexReverse c) eqn:E; cbn [snd].
  - change err_hex with 3. split; [|lia]. intros _. right. apply H. lia.
  - split; [auto|]. intros [K|K]; [exact K|]. apply H in K. lia.
Qed.

Definition bad_hex (s : list Z) : Prop :=
  (exists c, In c s /\ ~ space c /\ ~ exists v, hexdigit c v) \/ Nat.odd (length (strip s)) = true.

Lemma hexpairs_err s : forall err,
  snd (hexpairs s err) <> 0 <->
  err <> 0 \/ (exists c, In c s /\ ~ exists v, hexdigit c v) \/ Nat.odd (length s) = true.
Proof.
  pattern s. apply list_ind2; clear s.
  - intros err. cbn. split; [auto|]. intros [H|[(c & [] & _)|H]]; [exact H|discriminate].
  - intros a err. cbn [hexpairs]. destruct (hx a 0 err). cbn [snd]. change err_odd with 4.
    split; [|lia]. intros _. right. right. reflexivity.
  - intros a b r IH err. cbn [hexpairs].
    pose proof (hx_err a 0 err) as Ea. destruct (hx a 0 err) as [v e]. cbn [snd] in Ea.
    pose proof (hx_err b v e) as Eb. destruct (hx b v e) as [w e']. cbn [snd] in Eb.
    specialize (IH e'). destruct (hexpairs r e') as [out e'']. cbn [snd] in *.
    rewrite IH, Eb, Ea. cbn [length]. change (Nat.odd (S (S (length r)))) with (Nat.odd (length r)).
    cbn [In]. split.
    + intros [[[H|H]|H]|[(c & H & K)|H]]; auto; right; left; [exists a|exists b|exists c]; auto.
    + intros [H|[(c & [H|[H|H]] & K)|H]]; auto; subst; auto. right. left. exists c. auto.
Qed.

Lemma strip_in s c : In c (strip s) <-> In c s /\ ~ space c.
Proof.
  unfold strip. rewrite filter_In, negb_true_iff, <- not_true_iff_false, isspace_space. reflexivity.
Qed.

Lemma hexDecode_err s err : snd (hexDecodeToString s err) <> 0 <-> err <> 0 \/ bad_hex s.
Proof.
  unfold hexDecodeToString, bad_hex. rewrite hex_dec_pairs by lia. rewrite hexpairs_err.
  split; (intros [H|[(c & H & K)|H]]; [auto| |auto]); right; left; exists c.
  - apply strip_in in H. tauto.
  - split; [apply strip_in|]; tauto.
Qed.

(** Encoding *)
Lemma s8_bits c : byte c -> Z.land (Z.shiftr (s8 c) 4) 15 = c / 16 /\ Z.land (s8 c) 15 = c mod 16.
Proof.
  unfold byte, s8. intros H. rewrite !land_15, Z.shiftr_div_pow2 by lia. lia.
Qed.
Lemma tohex1_digit d : 0 <= d < 16 -> hexdigit (tohex1 d) d /\ ~ space (tohex1 d) /\ ~ 97 <= tohex1 d.
Proof.
  intros H. unfold tohex1, hexdigit, space. rewrite land_15, Z.mod_small by lia. destruct (d <=? 9) eqn:E; lia.
Qed.

Lemma hexEncode_hexes u : Forall byte u -> hexes (hexEncode u) u.
Proof.
  induction 1 as [|c u Hc Hu IH]; [constructor|]. unfold hexEncode. cbn [flat_map app]. fold (hexEncode u).
  destruct (s8_bits c Hc) as [-> ->]. unfold byte in Hc. replace c with (16 * (c / 16) + c mod 16) at 3 by lia.
  constructor; [apply tohex1_digit; lia|apply tohex1_digit; lia|exact IH].
Qed.
Lemma hexEncode_upper u : Forall byte u -> Forall (fun c => 48 <= c <= 57 \/ 65 <= c <= 70) (hexEncode u).
Proof.
  induction 1 as [|c u Hc Hu IH]; [constructor|]. unfold hexEncode. cbn [flat_map app]. fold (hexEncode u).
  destruct (s8_bits c Hc) as [-> ->]. unfold byte in Hc.
  destruct (tohex1_digit (c / 16)) as [H1 [_ H1']]; [lia|]. destruct (tohex1_digit (c mod 16)) as [H2 [_ H2']]; [lia|].
  unfold hexdigit in *. repeat (constructor; [lia|]). exact IH.
Qed.
Lemma strip_plain s : Forall (fun c => ~ space c) s -> strip s = s.
Proof.
  induction 1 as [|c s Hc Hs IH]; [reflexivity|]. rewrite strip_cons, IH. rewrite <- isspace_space in Hc.
  destruct (isspace c); [contradiction|reflexivity].
Qed.
Lemma hexes_plain s u : hexes s u -> Forall (fun c => ~ space c) s.
Proof.
  induction 1 as [|a b x y s u Ha Hb Hs IH]; [constructor|]. unfold hexdigit, space in *.
  constructor; [lia|]. constructor; [lia|exact IH].
Qed.

(** ** URLs *)
(** The digit the code writes for a nibble, as a number. *)
Definition garble1 (d : Z) : Z := if d <=? 9 then d else if d =? 10 then 0 else d - 1.
Lemma url_digit_val d : 0 <= d < 16 -> hexval (url_digit d) = Some (garble1 d) /\ url_digit d <> 37.
Proof.
  intros H. assert (exists n, (n < 16)%nat /\ d = Z.of_nat n) as (n & Hn & ->) by (exists (Z.to_nat d); lia).
  do 16 (destruct n as [|n]; [vm_compute; split; [reflexivity|discriminate]|]). lia.
Qed.

Lemma url_keep_iff c : url_keep c = true <-> (unreserved c \/ c = 0).
Proof.
  unfold url_keep, isalnum, strchr_, unreserved. rewrite !orb_true_iff, !andb_true_iff, existsb_exists.
  assert (E : (exists x, In x (lit "-_.!~'()") /\ (x =? c) = true) <-> In c (lit "-_.!~'()")).
  { split; [intros (x & H & K); replace c with x by lia; exact H|intros H; exists c; split; [exact H|lia]]. }
  rewrite E, !Z.leb_le, Z.eqb_eq. tauto.
Qed.

Definition garble (c : Z) : Z :=
  if url_keep c then c else 16 * garble1 (c / 16) + garble1 (c mod 16).

Lemma percent_plain c t : c <> 37 -> percent_decode (c :: t) = c :: percent_decode t.
Proof.
  intros H. cbn [percent_decode]. destruct t as [|a [|b r]]; try reflexivity.
  replace (c =? 37) with false by lia. reflexivity.
Qed.
Lemma percent_triplet a b x y r : hexval a = Some x -> hexval b = Some y ->
  percent_decode (37 :: a :: b :: r) = 16 * x + y :: percent_decode r.
Proof. intros Ha Hb. cbn [percent_decode]. change (37 =? 37) with true. rewrite Ha, Hb. reflexivity. Qed.

Lemma keep_not_percent c : url_keep c = true -> c <> 37.
Proof.
  intros H ->. apply url_keep_iff in H. unfold unreserved in H.
  assert (N : ~ In 37 (lit "-_.!~'()")) by (vm_compute; intuition discriminate).
  destruct H as [[H|[H|[H|H]]]|H]; [lia|lia|lia|exact (N H)|lia].
Qed.

Lemma url_decode s : Forall byte s -> percent_decode (URLEncode s) = map garble s.
Proof.
  induction 1 as [|c s Hc Hs IH]; [reflexivity|]. unfold URLEncode. cbn [flat_map map]. fold (URLEncode s).
  unfold garble at 1. destruct (url_keep c) eqn:E.
  - cbn [app]. rewrite percent_plain by (apply keep_not_percent, E). rewrite IH. reflexivity.
  - destruct (s8_bits c Hc) as [-> ->]. unfold byte in Hc. cbn [app].
    rewrite (percent_triplet _ _ (garble1 (c / 16)) (garble1 (c mod 16))) by (apply url_digit_val; lia).
    rewrite IH. reflexivity.
Qed.

Lemma garble_fix c : byte c -> (garble c = c <-> url_keep c = true \/ (c / 16 <= 9 /\ c mod 16 <= 9)).
Proof.
  unfold byte, garble, garble1. intros H. destruct (url_keep c); [tauto|].
  destruct (c / 16 <=? 9) eqn:E1, (c mod 16 <=? 9) eqn:E2; try destruct (c / 16 =? 10) eqn:E3;
    try destruct (c mod 16 =? 10) eqn:E4; split; intros K; try (destruct K as [K|K]; [discriminate K|]); try lia; right; lia.
Qed.
