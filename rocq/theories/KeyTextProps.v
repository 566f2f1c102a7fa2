(** C128: a bit vector kept as a text in the configuration table. *)
From Verif Require Import Base BaseFacts UtilsModel UtilsSpec BitVectorModel BitVectorSpec BitFieldProofs BitPackProofs BitVectorProps CodecModel CodecSpec CodecProofs CodecProps
  SqlModel SqlProofs ConfigModel ConfigSpec ConfigProofs ConfigProps KeyTextModel.
From Coq Require Import Lia.
Local Open Scope Z_scope.

(** The encodings whose texts are letters, digits and + / =. *)
Definition texty (e : list Z) : Prop := e = lit "hex" \/ e = lit "base16" \/ e = lit "base64".

(** ** Facts *)
Lemma texty_known : forall e, texty e -> known e.
Proof. intros e H; destruct H as [H|H]; [|destruct H as [H|H]]; subst e; unfold known; cbn [In]; auto 10. Qed.
Lemma be_byte : forall l, (length l <= 8)%nat -> byte (be_value l).
Proof.
  intros l H. unfold byte, be_value.
  assert (G : forall l a, 0 <= a -> 0 <= fold_left (fun a b => 2 * a + Z.b2z b) l a < (a + 1) * 2 ^ Z.of_nat (length l)).
  { induction l0 as [|b l0 IH]; intros a A; cbn [fold_left length]; [change (2 ^ Z.of_nat 0) with 1; lia|].
    assert (B : 0 <= Z.b2z b <= 1) by (destruct b; cbn; lia). specialize (IH (2 * a + Z.b2z b) ltac:(lia)). rewrite Nat2Z.inj_succ, Z.pow_succ_r by lia.
    assert (P : 0 < 2 ^ Z.of_nat (length l0)) by (apply Z.pow_pos_nonneg; lia). split; [lia|]. eapply Z.lt_le_trans; [apply IH|].
    replace ((a + 1) * (2 * 2 ^ Z.of_nat (length l0))) with ((2 * a + 2) * 2 ^ Z.of_nat (length l0)) by ring. apply Z.mul_le_mono_nonneg_r; lia. }
  specialize (G l 0 ltac:(lia)). assert (2 ^ Z.of_nat (length l) <= 2 ^ 8) by (apply Z.pow_le_mono_r; lia). change (2 ^ 8) with 256 in *. lia.
Qed.
Lemma packed_bytes : forall l, Forall byte (packed l).
Proof. intros l. unfold packed. apply Forall_forall. intros x I. apply in_map_iff in I. destruct I as (k & <- & _). apply be_byte. rewrite firstn_length. lia. Qed.
Lemma six_range : forall a b c d e f, 0 <= bits_value [a; b; c; d; e; f] < 64.
Proof. intros a b c d e f. destruct a, b, c, d, e, f; vm_compute; split; congruence. Qed.
Lemma sextets_range : forall n l, (length l <= n)%nat -> Forall (fun i => 0 <= i < 64) (sextets l).
Proof.
  induction n as [|n IH]; intros l H.
  - destruct l; [constructor|cbn [length] in H; lia].
  - destruct l as [|a [|b [|c [|d [|e [|f r]]]]]]; [constructor| | | | | |].
    1-5: cbn [sextets firstn repeat app]; constructor; [apply six_range|constructor].
    rewrite sextets6. constructor; [apply six_range|]. apply IH. cbn [length] in H. lia.
Qed.
Lemma base64_chars : forall u c, In c (base64 u) -> In c (alphabet64 ++ [61]).
Proof.
  intros u c I. unfold base64 in I. cbv zeta in I. apply in_app_or in I. apply in_or_app. destruct I as [I|I].
  - apply in_map_iff in I. destruct I as (i & <- & J). left. apply nth_In. assert (R := sextets_range _ _ (le_n (length (flat_map bits8 u)))). rewrite Forall_forall in R.
    specialize (R i J). change (length alphabet64) with (Z.to_nat 64). lia.
  - apply repeat_spec in I. subst. right. left. reflexivity.
Qed.
Lemma alphabet_plain : ~ In 34 (alphabet64 ++ [61]) /\ ~ In 0 (alphabet64 ++ [61]).
Proof. split; intros I; vm_compute in I; repeat (destruct I as [I|I]; [discriminate|]); exact I. Qed.
Lemma texty_enc : forall e u, texty e -> Forall byte u -> exists s, encodeToString u e 0 = (s, 0) /\ quote_free 34 s /\ decodeToString s e 0 = (u, 0).
Proof.
  intros e u T B. assert (R := C35_roundtrip e u 0 (texty_known e T) B). assert (X : exists s, encodeToString u e 0 = (s, 0) /\ quote_free 34 s).
  { assert (HX : is_hex e -> exists s, encodeToString u e 0 = (s, 0) /\ quote_free 34 s).
    { intros He. destruct (C34_encode e u 0 He B) as (s & E & _ & F). exists s. split; [exact E|]. rewrite Forall_forall in F. split; intros I; specialize (F _ I); lia. }
    destruct T as [T|T]; [apply HX; left; exact T|]. destruct T as [T|T]; [apply HX; right; exact T|]. subst e. exists (base64 u). split; [apply C33_encode_rfc4648; exact B|].
    split; intros I; apply base64_chars in I; [apply (proj1 alphabet_plain I)|apply (proj2 alphabet_plain I)]. }
  destruct X as (s & E & Q). exists s. split; [exact E|]. split; [exact Q|]. rewrite E in R. exact R.
Qed.
Lemma unpacked_tail : forall n u x, (n <= 8 * length u)%nat -> unpacked n (u ++ x) = unpacked n u.
Proof.
  intros n u x H. unfold unpacked. apply map_ext_in. intros i I. apply in_seq in I. rewrite app_nth1; [reflexivity|]. apply Nat.div_lt_upper_bound; lia.
Qed.
Lemma bits_b2z : forall l, bits_of (map Z.b2z l) = l.
Proof. induction l as [|b l IH]; [reflexivity|]. cbn [map bits_of]. f_equal; [destruct b; reflexivity|exact IH]. Qed.
Lemma up8 : forall n, (n <= 8 * ((n + 7) / 8))%nat.
Proof. intros n. assert (H := Nat.div_mod (n + 7) 8 ltac:(lia)). assert (L := Nat.mod_upper_bound (n + 7) 8 ltac:(lia)). lia. Qed.
Lemma restore_packed : forall e v s, decodeToString s e 0 = (packed (bits_of v), 0) -> exists v', restore e (length v) s = Ok (v', 0) /\ bits_of v' = bits_of v.
Proof.
  intros e v s E. unfold restore. rewrite E. assert (L : length (packed (bits_of v)) = ((length v + 7) / 8)%nat) by (rewrite packed_length, bits_length; reflexivity).
  rewrite unpack_spec by (rewrite repeat_length, app_length, L; lia). cbn [bind]. eexists. split; [reflexivity|]. rewrite repeat_length, unpacked_tail by (rewrite L; apply up8).
  rewrite <- (bits_length v) at 1. rewrite unpacked_packed. apply bits_b2z.
Qed.
Lemma pack_keep : forall e v, keep e v = Ok (encodeToString (packed (bits_of v)) e 0).
Proof. intros e v. unfold keep. rewrite (proj1 (C07_pack_bytes v (repeat 0 ((length v + 7) / 8)) ltac:(rewrite repeat_length; lia))). reflexivity. Qed.
(** unpack of too few bytes. *)
Lemma short_loop : forall n v i src, (8 * (i + n) <= length v)%nat -> (i <= length src)%nat -> (length src < i + n)%nat -> unpack_loop v i n src = UB.
Proof.
  induction n as [|n IH]; intros v i src V I L; [lia|]. destruct (Nat.eq_dec i (length src)) as [->|N].
  - cbn [unpack_loop]. unfold rd. rewrite (proj2 (nth_error_None src (length src)) (le_n _)). reflexivity.
  - destruct (unpack_loop_spec 1 v i src) as (v' & E & LV & _); [lia|lia|]. cbn [unpack_loop] in E |- *. apply bind_ok in E. destruct E as (b & E1 & E2). rewrite E1. cbn [bind].
    apply bind_ok in E2. destruct E2 as (v1 & E2 & E3). rewrite E2. cbn [bind]. assert (v1 = v') by congruence. subst v1. apply IH; lia.
Qed.
Lemma unpack_short : forall v src, (length src < (length v + 7) / 8)%nat -> unpack v src = UB.
Proof.
  intros v src H. unfold unpack. cbv zeta. assert (D := Nat.div_mod (length v) 8 ltac:(lia)). assert (M := Nat.mod_upper_bound (length v) 8 ltac:(lia)).
  destruct (le_lt_dec (length v / 8) (length src)) as [G|G].
  - destruct (unpack_loop_spec (length v / 8) v 0 src) as (v' & E & LV & _); [lia|lia|]. rewrite E. cbn [bind].
    assert (length src = length v / 8)%nat. { assert ((length v + 7) / 8 <= length v / 8 + 1)%nat; [|lia]. apply Nat.lt_succ_r. apply Nat.div_lt_upper_bound; lia. }
    destruct (length v - length v / 8 * 8)%nat eqn:R; [|unfold rd; rewrite (proj2 (nth_error_None src _)) by lia; reflexivity].
    exfalso. assert ((length v + 7) / 8 <= length v / 8)%nat; [|lia]. apply Nat.lt_succ_r. apply Nat.div_lt_upper_bound; lia.
  - rewrite short_loop; [reflexivity|lia|lia|lia].
Qed.

(** ** C128 *)
(** In an encoding that makes a text, a bit vector of any length is kept by set and comes back from getStr as it was, whatever other calls
    come before and in between, as long as none writes the key. *)
Theorem C128_survives : forall S w l1 l2 t k e v, (forall t, tcache (tabs w t) = []) -> Forall (plain_event S) l1 -> Forall (plain_event S) l2 -> Forall (fun ev => ~ writes t k ev) l2 ->
  quote_free 34 k -> ~ names_column k -> (forall d text, S k = Some (d, text) -> quote_free 39 text) -> texty e ->
  exists s v', keep e v = Ok (s, 0) /\ last (fst (crun S w (l1 ++ ESet t k s true :: l2 ++ [EGet t k true]))) ONone = OVal (Some s) /\
    restore e (length v) s = Ok (v', 0) /\ bits_of v' = bits_of v.
Proof.
  intros S w l1 l2 t k e v C P1 P2 N K NC D T. destruct (texty_enc e (packed (bits_of v)) T (packed_bytes _)) as (s & E & Q & R).
  destruct (restore_packed e v s R) as (v' & R1 & R2). exists s, v'. split; [rewrite pack_keep, E; reflexivity|]. split; [|auto].
  apply C44_read_your_writes; auto; cbn [plain_event]; auto.
Qed.
(** Vectors of one length with different bits have different texts. *)
Theorem C128_distinct : forall e v w s, texty e -> length v = length w -> keep e v = Ok (s, 0) -> keep e w = Ok (s, 0) -> bits_of v = bits_of w.
Proof.
  intros e v w s T L A B. rewrite pack_keep in A, B.
  destruct (texty_enc e (packed (bits_of v)) T (packed_bytes _)) as (s1 & E1 & _ & R1). destruct (texty_enc e (packed (bits_of w)) T (packed_bytes _)) as (s2 & E2 & _ & R2).
  assert (s1 = s) by congruence. assert (s2 = s) by congruence. subst s1 s2.
  destruct (restore_packed e v s R1) as (v1 & F1 & <-). destruct (restore_packed e w s R2) as (v2 & F2 & <-). rewrite L in F1. congruence.
Qed.
(** A text that denotes at least as many bytes as needed is read in bounds and gives their first bits. *)
Theorem C128_long : forall e n s, (n <= 8 * length (fst (decodeToString s e 0)))%nat ->
  restore e n s = Ok (unpacked n (fst (decodeToString s e 0)), snd (decodeToString s e 0)).
Proof.
  intros e n s H. unfold restore. destruct (decodeToString s e 0) as [b err]. cbn [fst snd] in *.
  assert ((n + 7) / 8 <= length b)%nat by (apply Nat.lt_succ_r; apply Nat.div_lt_upper_bound; lia).
  rewrite unpack_spec by (rewrite repeat_length, app_length; lia). cbn [bind]. rewrite repeat_length, unpacked_tail by exact H. reflexivity.
Qed.
(** Defects. A text that was cut short is not noticed: with one byte missing the bits are zeros, with more unpack reads out of bounds. *)
Theorem C128_short_refuted : forall e n s, (length (fst (decodeToString s e 0)) + 1 < (n + 7) / 8)%nat -> restore e n s = UB.
Proof.
  intros e n s H. unfold restore. destruct (decodeToString s e 0) as [b err]. cbn [fst] in H. rewrite unpack_short; [reflexivity|]. rewrite repeat_length, app_length. cbn [length]. lia.
Qed.
Theorem C128_zeros_refuted : forall e n s, (length (fst (decodeToString s e 0)) + 1 = (n + 7) / 8)%nat ->
  exists v', restore e n s = Ok (v', snd (decodeToString s e 0)) /\ length v' = n /\
    forall i, (8 * length (fst (decodeToString s e 0)) <= i < n)%nat -> nth_error v' i = Some 0.
Proof.
  intros e n s H. unfold restore. destruct (decodeToString s e 0) as [b err]. cbn [fst snd] in *. rewrite unpack_spec by (rewrite repeat_length, app_length; cbn [length]; lia).
  cbn [bind]. rewrite repeat_length. eexists. split; [reflexivity|]. split; [apply unpacked_length|]. intros i I. rewrite unpacked_nth, (proj2 (Nat.ltb_lt i n)) by lia.
  assert (length b <= i / 8)%nat by (apply Nat.div_le_lower_bound; lia). assert (i / 8 < length b + 1)%nat by (rewrite H; apply Nat.div_lt_upper_bound; assert (U := up8 n); lia).
  rewrite app_nth2 by lia. replace (i / 8 - length b)%nat with 0%nat by lia. cbn [nth]. rewrite Z.testbit_0_l. reflexivity.
Qed.
(** In the encoding binary a vector with eight zero bits in place, and no quote before, cannot be set at all. *)
Theorem C128_binary_refuted : forall S k v a b r, (forall d text, S k = Some (d, text) -> quote_free 39 text) -> quote_free 34 k -> packed (bits_of v) = a ++ 0 :: b -> quote_free 34 a ->
  keep (lit "binary") v = Ok (packed (bits_of v), 0) /\ sql config_table (set_cmd S k (packed (bits_of v))) r = None.
Proof.
  intros S k v a b r D K E A. split; [rewrite pack_keep, (proj1 (C35_binary_identity _ 0)); reflexivity|]. apply C47_nul_rejected with a b; auto.
Qed.

(** ** Examples *)
Definition key12 : bv := [1; 0; 1; 0; 0; 0; 1; 0; 1; 1; 0; 1].
Example ex_texts : keep (lit "hex") key12 = Ok (lit "A2D0", 0) /\ keep (lit "base64") key12 = Ok (lit "otA=", 0) /\ restore (lit "base64") 12 (lit "otA=") = Ok (key12, 0).
Proof. split; [|split]; vm_compute; reflexivity. Qed.
Example ex_survives : fst (crun some_schema (start_world 100 []) [EGet 0 (lit "Key") true; ESet 0 (lit "Key") (lit "otA=") true; ETick 10; ESet 0 (lit "Other") (lit "1") true; EGet 0 (lit "Key") true]) =
  [OVal None; OBool true; ONone; OBool true; OVal (Some (lit "otA="))].
Proof. vm_compute. reflexivity. Qed.
Example ex_short : restore (lit "hex") 12 (lit "A2") = Ok ([1; 0; 1; 0; 0; 0; 1; 0; 0; 0; 0; 0], 0) /\ restore (lit "hex") 12 [] = UB /\ restore (lit "hex") 8 (lit "A2D0") = Ok ([1; 0; 1; 0; 0; 0; 1; 0], 0).
Proof. split; [|split]; vm_compute; reflexivity. Qed.
(** A zero byte is refused; a quote in the packed bytes ends the text of the statement early. *)
Example ex_binary : keep (lit "binary") (repeat 0 8) = Ok ([0], 0) /\ fst (crun some_schema (start_world 100 []) [ESet 0 (lit "Key") [0] true; EGet 0 (lit "Key") true]) = [OBool false; OVal None] /\
  keep (lit "binary") [0; 0; 1; 0; 0; 0; 1; 0] = Ok ([34], 0) /\ fst (crun some_schema (start_world 100 []) [ESet 0 (lit "Key") [34] true]) = [OBool false].
Proof. split; [|split; [|split]]; vm_compute; reflexivity. Qed.

Print Assumptions C128_survives.
Print Assumptions C128_distinct.
Print Assumptions C128_long.
Print Assumptions C128_short_refuted.
Print Assumptions C128_zeros_refuted.
Print Assumptions C128_binary_refuted.
