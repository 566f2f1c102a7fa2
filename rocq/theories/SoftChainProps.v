(** C108: a message with parity, interleaved, punctured, heard as soft bits and put together again. *)
From Verif Require Import Base BaseFacts BitVectorModel BitVectorSpec BitFieldProofs CrcProofs BitPackProofs BitMiscProofs BitVectorProps ChainProps.
From Coq Require Import QArith.
Local Open Scope Z_scope.

(** The client program that makes the message: fields and parity as in C105 (BitVector.h:76-84, BitVector.cpp:163-171). *)
Definition message (c n : N) (inv : bool) (fs : list field) (v : bv) : res bv :=
  do x <- write_all v 0 fs;
  do g <- mk_generator c n;
  do t <- writeParityWord g (firstn (total_width fs) (fst x)) (skipn (total_width fs) (fst x)) inv;
  Ok (firstn (total_width fs) (fst x) ++ t).
(** The client program that sends: map (BitVector.cpp:226-231), copyPunctured (455-478), SoftVector (282-289). *)
Definition send (perm : list nat) (ps : list Z) (u d1 d2 : bv) : res (list fl) :=
  do a <- bv_map u perm d1;
  do p <- copyPunctured a d2 ps;
  Ok (soft_of_bv p).
(** The client program that receives: copyUnPunctured (BitVector.cpp:480-503), sliced (292-301), unmap (236-241). *)
Definition receive (perm : list nat) (ps : list Z) (s sd : list fl) (wd : bv) : res bv :=
  do a <- copyUnPunctured fhalf s sd ps;
  bv_unmap (sliced a) perm wd.
(** ... and takes the message apart: the syndrome (BitVector.cpp:176-186), then the fields.  [None]: the check failed. *)
Definition check (c n : N) (inv : bool) (fs : list field) (w : bv) : res (option (list Z)) :=
  do g <- mk_generator c n;
  do s <- bv_syndrome w g;
  if (s =? (if inv then 2 ^ n - 1 else 0))%N then do r <- read_all w 0 fs; Ok (Some (fst r)) else Ok None.

(** ** Specification *)
(** Every position of a message of [z] bits once. *)
Definition order (z : nat) (perm : list nat) : Prop := NoDup perm /\ length perm = z /\ Forall (fun j => (j < z)%nat) perm.
Definition punctured (ps : list Z) (i : nat) : Prop := In (Z.of_nat i) ps.
(** The soft bit is on the side of [b]: above one half for 1, not above it for 0. *)
Definition sounds (x : fl) (b : bool) : Prop := flt fhalf x = b.
(** What the receiver makes of the [i]th position on the air, given what was [heard] there. *)
Definition right_at (u : bv) (perm : list nat) (ps : list Z) (heard : list fl) (i : nat) : Prop :=
  let b := nth (nth i perm 0%nat) (bits_of u) false in
  (punctured ps i -> b = false) /\ (~ punctured ps i -> sounds (nth i heard FNaN) b).
(** Sizes and indices that fit together (C09, C10). *)
Definition fits (z : nat) (perm : list nat) (ps : list Z) (d1 d2 : bv) (sd : list fl) (wd : bv) : Prop :=
  order z perm /\ Z.of_nat z < 2 ^ 31 /\ increasing_from 0 ps (Z.of_nat z) /\ length d1 = z /\ (length d2 + length ps = z)%nat /\ length sd = z /\ length wd = z.

(** ** Proofs *)
Lemma message_spec c n inv fs v : (1 <= n <= 63)%N -> (forall f, In f fs -> (f_width f <= 64)%nat) -> length v = size n fs ->
  exists u g i, message c n inv fs v = Ok u /\ length u = size n fs /\ mk_generator c n = Ok g /\
    bv_syndrome u g = Ok (if inv then 2 ^ n - 1 else 0)%N /\ read_all u 0 fs = Ok (values fs, i).
Proof.
  intros H W L. unfold size in *. destruct (C03_layout_roundtrip fs v 0 ltac:(lia) W) as (v1 & WR & L1 & _ & RD). unfold message. rewrite WR. cbn [bind fst]. set (D := total_width fs) in *.
  destruct (C05_codeword_syndrome n c (firstn D v1) (skipn D v1) inv H ltac:(rewrite skipn_length; lia)) as (g & t & G & P & S). rewrite G. cbn [bind]. rewrite P. cbn [bind].
  assert (LT : length t = N.to_nat n).
  { unfold writeParityWord in P. destruct (C05_remainders n c (firstn D v1) H) as (g1 & p & s1 & G1 & PA & _). rewrite G in G1. apply Ok_inj in G1. subst g1. rewrite PA in P. cbn [bind] in P.
    assert (GL : g_len g = n). { unfold mk_generator in G. destruct (shl64 1 n); cbn [bind] in G; try discriminate. destruct (n <? 64)%N; cbn [assert_ bind] in G; [|discriminate]. apply Ok_inj in G. subst g. reflexivity. }
    rewrite GL, fillField_spec in P by (rewrite skipn_length; lia). apply Ok_inj in P. subst t. rewrite splice_length; [rewrite skipn_length; lia|]. rewrite field_bits_length, skipn_length. lia. }
  assert (LU : length (firstn D v1 ++ t) = (D + N.to_nat n)%nat) by (rewrite app_length, firstn_length, LT; lia).
  exists (firstn D v1 ++ t), g, (0 + D)%nat. split; [reflexivity|]. split; [exact LU|]. split; [reflexivity|]. split; [exact S|].
  rewrite <- (read_all_bits fs v1 (firstn D v1 ++ t) 0); [exact RD|fold D; lia|lia|]. intros j J. fold D in J. unfold bits_of. rewrite !nth_error_map. rewrite nth_error_app1 by (rewrite firstn_length; lia). rewrite nth_error_firstn.
  destruct (Nat.ltb_spec j D); [reflexivity|lia].
Qed.

Lemma check_same c n (inv : bool) fs u w g i : (1 <= n <= 63)%N -> length u = size n fs -> length w = size n fs -> mk_generator c n = Ok g ->
  bv_syndrome u g = Ok (if inv then 2 ^ n - 1 else 0)%N -> read_all u 0 fs = Ok (values fs, i) -> bits_of w = bits_of u -> check c n inv fs w = Ok (Some (values fs)).
Proof.
  intros H LU LW G S R E. unfold check. rewrite G. cbn [bind]. rewrite (syndrome_bits n c g u w _ H G (eq_sym E) S). cbn [bind]. rewrite N.eqb_refl.
  rewrite <- (read_all_bits fs u w 0); [rewrite R; reflexivity|rewrite LU; unfold size; lia|lia|]. intros j _. rewrite E. reflexivity.
Qed.
(** A vector that differs from a message in some of [n] consecutive bits is refused. *)
Lemma check_burst c n (inv : bool) fs u w g p : (1 <= n <= 63)%N -> N.testbit c 0 = true -> length u = size n fs -> length w = size n fs -> mk_generator c n = Ok g ->
  bv_syndrome u g = Ok (if inv then 2 ^ n - 1 else 0)%N -> bits_of w <> bits_of u ->
  (forall j, (j < size n fs)%nat -> (j < p)%nat \/ (p + N.to_nat n <= j)%nat -> nth j (bits_of w) false = nth j (bits_of u) false) ->
  check c n inv fs w = Ok None.
Proof.
  intros H C LU LW G S NE A. set (z := size n fs) in *.
  assert (LB : length (bits_of u) = z) by (unfold bits_of; rewrite map_length; exact LU). assert (LB' : length (bits_of w) = z) by (unfold bits_of; rewrite map_length; exact LW).
  set (e := xor_bits (bits_of u) (bits_of w)). assert (LE : length e = z) by (unfold e; rewrite xor_length; lia).
  assert (OUT : forall j, (j < p)%nat \/ (p + N.to_nat n <= j)%nat -> nth j e false = false).
  { intros j J. destruct (Nat.ltb_spec j z) as [JZ|JZ]; [|apply nth_overflow; lia]. unfold e. rewrite xor_nth by lia. rewrite (A j JZ J). apply xorb_nilpotent. }
  assert (T : In true e). { destruct (in_dec bool_dec true e) as [T|T]; [exact T|]. exfalso. apply NE. symmetry. apply xor_false; [lia|exact T]. }
  set (q := Nat.min p z). set (r := Nat.min (N.to_nat n) (z - q)).
  assert (SP : e = repeat false q ++ firstn r (skipn q e) ++ repeat false (z - q - r)).
  { rewrite <- (firstn_skipn q e) at 1. f_equal.
    - assert (X := all_false (firstn q e)). rewrite firstn_length_le in X by lia. apply X. intros j J. assert (nth j (firstn q e) false = nth j e false) as ->; [|apply OUT; lia].
      rewrite <- (firstn_skipn q e) at 2. rewrite app_nth1 by (rewrite firstn_length; lia). reflexivity.
    - rewrite <- (firstn_skipn r (skipn q e)) at 1. f_equal. assert (X := all_false (skipn r (skipn q e))). assert (LS : length (skipn r (skipn q e)) = (z - q - r)%nat) by (rewrite !skipn_length; lia). rewrite LS in X. apply X.
      intros j J. assert (nth j (skipn r (skipn q e)) false = nth (q + r + j) e false) as ->; [|destruct (Nat.le_gt_cases z (q + r + j)); [apply nth_overflow; lia|apply OUT; lia]].
      rewrite <- (firstn_skipn q e) at 2. rewrite app_nth2 by (rewrite firstn_length; lia). rewrite firstn_length, LE. replace (q + r + j - Nat.min q z)%nat with (r + j)%nat by lia.
      rewrite <- (firstn_skipn r (skipn q e)) at 2. rewrite app_nth2 by (rewrite firstn_length; lia). rewrite firstn_length, skipn_length, LE. f_equal. lia. }
  assert (BT : In true (firstn r (skipn q e))).
  { rewrite SP in T. rewrite !in_app_iff in T. destruct T as [T|[T|T]]; [apply repeat_spec in T; discriminate|exact T|apply repeat_spec in T; discriminate]. }
  assert (BL : length (firstn r (skipn q e)) = r) by (rewrite firstn_length, skipn_length; lia).
  destruct (C06_burst_detected n c u w q (firstn r (skipn q e)) (z - q - r) H C) as (g2 & s1 & s2 & G2 & S1 & S2 & D); try assumption; [lia|lia| |].
  - rewrite <- SP. unfold e. rewrite xor_back by lia. reflexivity.
  - rewrite G in G2. apply Ok_inj in G2. subst g2. rewrite S in S1. apply Ok_inj in S1. subst s1. unfold check. rewrite G. cbn [bind]. rewrite S2. cbn [bind].
    destruct (N.eqb_spec s2 (if inv then 2 ^ n - 1 else 0)%N) as [X|X]; [congruence|reflexivity].
Qed.

Lemma in_list i ps : existsb (Z.eqb (Z.of_nat i)) ps = true <-> punctured ps i.
Proof. unfold punctured. rewrite existsb_exists. split; [intros (x & I & E); apply Z.eqb_eq in E; subst x; exact I|intros I; exists (Z.of_nat i); split; [exact I|apply Z.eqb_refl]]. Qed.
Lemma erased_nth (A : Type) (e d : A) ps : forall v k i, (i < length v)%nat -> nth i (erased e k ps v) d = if existsb (Z.eqb (Z.of_nat (k + i))) ps then e else nth i v d.
Proof.
  induction v as [|x v IH]; intros k i L; [cbn in L; lia|]. destruct i as [|i]; cbn [erased nth]; [rewrite Nat.add_0_r; reflexivity|].
  cbn [length] in L. rewrite IH by lia. replace (S k + i)%nat with (k + S i)%nat by lia. reflexivity.
Qed.
Lemma erased_length (A : Type) (e : A) ps : forall v k, length (erased e k ps v) = length v.
Proof. induction v as [|x v IH]; intros k; [reflexivity|]. cbn [erased length]. rewrite IH. reflexivity. Qed.
Lemma incr_bounds ps : forall lo b, increasing_from lo ps b -> Forall (fun p => lo <= p < b) ps.
Proof.
  induction ps as [|p ps IH]; intros lo b H; [constructor|]. destruct H as [A B]. constructor; [exact A|]. apply IH in B. rewrite Forall_forall in *. intros x I. specialize (B x I). lia.
Qed.
Lemma without_length (A : Type) : forall ps (v : list A) k, increasing_from (Z.of_nat k) ps (Z.of_nat (k + length v)) -> (length (without k ps v) + length ps = length v)%nat.
Proof.
  induction ps as [|p ps IH]; intros v k H.
  - rewrite without_keep by (intros x []). cbn [length]. lia.
  - destruct H as [X0 B]. rewrite (without_step v k p ps (Z.of_nat (k + length v)) B) by lia.
    rewrite app_length, firstn_length. assert (X := IH (skipn (Z.to_nat (p + 1 - Z.of_nat k)) v) (Z.to_nat (p + 1))).
    rewrite skipn_length in X. cbn [length]. assert (Y : (length (without (Z.to_nat (p + 1)) ps (skipn (Z.to_nat (p + 1 - Z.of_nat k)) v)) + length ps = length v - Z.to_nat (p + 1 - Z.of_nat k))%nat).
    { apply X. replace (Z.of_nat (Z.to_nat (p + 1))) with (p + 1) by lia. replace (Z.of_nat (Z.to_nat (p + 1) + (length v - Z.to_nat (p + 1 - Z.of_nat k)))) with (Z.of_nat (k + length v)) by lia. exact B. }
    lia.
Qed.
Lemma order_in z perm j : order z perm -> (j < z)%nat -> exists i, (i < z)%nat /\ nth_error perm i = Some j.
Proof.
  intros (N & L & F) J. assert (I : In j perm).
  { apply (@NoDup_length_incl nat perm (seq 0 z) N); [rewrite seq_length; lia| |apply in_seq; lia]. intros x X. rewrite Forall_forall in F. apply in_seq. specialize (F x X). lia. }
  apply In_nth_error in I. destruct I as (i & E). exists i. split; [|exact E]. assert (X : nth_error perm i <> None) by congruence; apply nth_error_Some in X; lia.
Qed.

(** ** The channel *)
(** What is sent: the bits in the order of [perm], without the punctured ones. *)
Theorem C108_sent z perm ps u d1 d2 sd wd : fits z perm ps d1 d2 sd wd -> length u = z ->
  exists s, send perm ps u d1 d2 = Ok s /\ s = without 0 ps (map (fun j => FFin (if nth j (bits_of u) false then 1 else 0)) perm) /\ length s = length d2.
Proof.
  intros (O & Z31 & I & L1 & L2 & L3 & L4) LU. pose proof O as (ND & LP & FP). unfold send.
  destruct (proj1 (C10_map u perm d1)) as (a & E & La & A & _); [split; [rewrite LU; exact FP|lia]|]. rewrite E. cbn [bind].
  assert (B : Forall (fun p => 0 <= p < 2 ^ 32) ps) by (apply incr_bounds in I; rewrite Forall_forall in *; intros x X; specialize (I x X); lia).
  rewrite (proj1 (C09_punctured a d2 ps ltac:(lia) ltac:(lia) ltac:(lia) B)) by (rewrite La, L1; split; [lia|exact I]). cbn [bind].
  eexists. split; [reflexivity|]. assert (S : soft_of_bv a = map (fun j => FFin (if nth j (bits_of u) false then 1 else 0)) perm).
  { apply nth_error_ext. intros i. unfold soft_of_bv. rewrite !nth_error_map. destruct (nth_error perm i) as [j|] eqn:P.
    - rewrite (A i j P). cbn [option_map]. assert (J : (j < length u)%nat) by (rewrite Forall_forall in FP; rewrite LU; apply FP; exact (nth_error_In _ _ P)).
      destruct (nth_error u j) as [x|] eqn:U; [|apply nth_error_None in U; lia]. cbn [option_map]. assert (Q : nth j (bits_of u) false = Z.odd x).
      { apply nth_error_nth. unfold bits_of. rewrite nth_error_map, U. reflexivity. }
      rewrite Q, bitof_odd. destruct (Z.odd x); reflexivity.
    - assert (nth_error a i = None) as ->; [|reflexivity]. apply nth_error_None in P. apply nth_error_None. lia. }
  split; [unfold soft_of_bv at 1; rewrite <- without_map; fold (soft_of_bv a); rewrite S; reflexivity|].
  unfold soft_of_bv. rewrite map_length. assert (X := without_length Z ps a 0). cbn [Nat.add] in X. rewrite La, L1 in X. specialize (X I). lia.
Qed.
Print Assumptions C108_sent.

(** What is received when [heard] is on the air: at every position that was not punctured the bit on whose
    side the soft bit is, at punctured ones 0.  Any vector of the right length is of this form. *)
Theorem C108_received z perm ps d1 d2 sd wd heard : fits z perm ps d1 d2 sd wd -> length heard = z ->
  exists w, receive perm ps (without 0 ps heard) sd wd = Ok w /\ length w = z /\
    forall i, (i < z)%nat -> exists b, nth (nth i perm 0%nat) (bits_of w) false = b /\ (punctured ps i -> b = false) /\ (~ punctured ps i -> sounds (nth i heard FNaN) b).
Proof.
  intros (O & Z31 & I & L1 & L2 & L3 & L4) LH. pose proof O as (ND & LP & FP). unfold receive.
  assert (B : Forall (fun p => 0 <= p < 2 ^ 32) ps) by (apply incr_bounds in I; rewrite Forall_forall in *; intros x X; specialize (I x X); lia).
  assert (LW : (length (without 0 ps heard) + length ps = z)%nat) by (rewrite <- LH; apply without_length; cbn [Nat.add]; rewrite LH; exact I).
  rewrite (proj1 (C09_unpunctured (without 0 ps heard) sd ps ltac:(lia) ltac:(lia) ltac:(lia) B)) by (rewrite L3; split; [lia|exact I]). cbn [bind].
  rewrite L3, <- LH, with_erasures_without. set (er := erased fhalf 0 ps heard). assert (LE : length er = z) by (unfold er; rewrite erased_length; exact LH).
  destruct (proj1 (C10_unmap (sliced er) perm wd)) as (w & E & Lw & A & _); [unfold sliced; rewrite map_length; split; [rewrite L4; exact FP|lia]|].
  exists w. split; [exact E|]. split; [lia|]. intros i Li. eexists. split; [reflexivity|].
  destruct (nth_error perm i) as [j|] eqn:P; [|apply nth_error_None in P; lia]. rewrite (nth_error_nth perm i 0%nat P).
  assert (N1 : forall i', (i < i')%nat -> nth_error perm i' <> Some j).
  { intros i' G Q. assert (X : i' = i); [|lia]. apply (proj1 (NoDup_nth_error perm) ND); [|congruence]. assert (Y : nth_error perm i' <> None) by congruence. apply nth_error_Some in Y. exact Y. }
  assert (Q : nth_error (bits_of w) j = Some (flt fhalf (nth i er FNaN))).
  { unfold bits_of. rewrite nth_error_map, (A i j P N1). unfold sliced. rewrite nth_error_map. destruct (nth_error er i) as [x|] eqn:X; [|apply nth_error_None in X; lia].
    rewrite (nth_error_nth er i FNaN X). cbn [option_map]. destruct (flt fhalf x); reflexivity. }
  rewrite (nth_error_nth _ _ false Q). unfold er. rewrite erased_nth by lia. cbn [Nat.add]. split; intros H.
  - apply in_list in H. rewrite H. reflexivity.
  - destruct (existsb (Z.eqb (Z.of_nat i)) ps) eqn:X; [apply in_list in X; contradiction|reflexivity].
Qed.
Print Assumptions C108_received.
(** Every soft vector that can be un-punctured is what is left of some [heard]. *)
Theorem C108_any z ps (s : list fl) : increasing_from 0 ps (Z.of_nat z) -> (length s + length ps = z)%nat -> exists heard, length heard = z /\ without 0 ps heard = s.
Proof.
  intros I L. assert (G : forall k m (s : list fl), increasing_from (Z.of_nat k) ps (Z.of_nat (k + m)) -> (length s + length ps = m)%nat -> exists h, length h = m /\ without k ps h = s).
  { clear. induction ps as [|p ps IH]; intros k m s I L.
    - exists s. split; [cbn [length] in L; lia|]. apply without_keep. intros x [].
    - destruct I as [B I]. cbn [length] in L. set (q := Z.to_nat (p - Z.of_nat k)).
      assert (I2 := incr_bounds _ _ _ I).
      assert (Lq : (q <= length s)%nat).
      { assert (X : forall ps lo b, increasing_from lo ps b -> lo <= b -> Z.of_nat (length ps) <= b - lo).
        { clear. induction ps as [|x ps IH]; intros lo b H Q; [cbn [length]; lia|]. destruct H as [H1 H2]. apply IH in H2; [|lia]. cbn [length]. lia. }
        apply X in I; [|lia]. unfold q. lia. }
      destruct (IH (Z.to_nat (p + 1)) (m - q - 1)%nat (skipn q s)) as (h & Lh & Eh).
      + replace (Z.of_nat (Z.to_nat (p + 1))) with (p + 1) by lia. replace (Z.of_nat (Z.to_nat (p + 1) + (m - q - 1))) with (Z.of_nat (k + m)) by (unfold q; lia). exact I.
      + rewrite skipn_length. lia.
      + exists (firstn q s ++ fhalf :: h). assert (LL : length (firstn q s ++ fhalf :: h) = m) by (rewrite app_length, firstn_length; cbn [length]; lia). split; [exact LL|].
        rewrite (without_step _ k p ps (Z.of_nat (k + m)) I) by lia. fold q.
        replace (Z.to_nat (p + 1 - Z.of_nat k)) with (S q) by (unfold q; lia).
        rewrite firstn_app, firstn_firstn, firstn_length. replace (q - Nat.min q (length s))%nat with 0%nat by lia. cbn [firstn]. rewrite app_nil_r, Nat.min_id.
        rewrite skipn_app, firstn_length. replace (S q - Nat.min q (length s))%nat with 1%nat by lia. rewrite (skipn_all2 (firstn q s)) by (rewrite firstn_length; lia). change (skipn 1 (fhalf :: h)) with h. cbn [app]. rewrite Eh. apply firstn_skipn. }
  apply (G 0%nat z s); [exact I|exact L].
Qed.
Print Assumptions C108_any.

(** ** The message *)
Lemma right_bits z u w perm ps heard : order z perm -> length u = z -> length w = z ->
  (forall i, (i < z)%nat -> exists b, nth (nth i perm 0%nat) (bits_of w) false = b /\ (punctured ps i -> b = false) /\ (~ punctured ps i -> sounds (nth i heard FNaN) b)) ->
  (forall i, (i < z)%nat -> (right_at u perm ps heard i <-> nth (nth i perm 0%nat) (bits_of w) false = nth (nth i perm 0%nat) (bits_of u) false)) /\
  ((forall i, (i < z)%nat -> right_at u perm ps heard i) <-> bits_of w = bits_of u).
Proof.
  intros O LU LW A. assert (P : forall i, (i < z)%nat -> (right_at u perm ps heard i <-> nth (nth i perm 0%nat) (bits_of w) false = nth (nth i perm 0%nat) (bits_of u) false)).
  { intros i Li. destruct (A i Li) as (b & E & H1 & H2). rewrite E. unfold right_at. set (x := nth (nth i perm 0%nat) (bits_of u) false).
    destruct (in_dec Z.eq_dec (Z.of_nat i) ps) as [I|I]; fold (punctured ps i) in I.
    - rewrite (H1 I). split; [intros [R _]; symmetry; exact (R I)|intros R; split; [intros _; symmetry; exact R|intros X; contradiction]].
    - specialize (H2 I). unfold sounds in *. rewrite H2. split; [intros [_ R]; exact (R I)|intros R; split; [intros X; contradiction|intros _; exact R]]. }
  split; [exact P|]. split.
  - intros R. apply nth_error_ext. intros j. destruct (Nat.ltb_spec j z) as [J|J].
    + destruct (order_in z perm j O J) as (i & Li & E). specialize (R i Li). apply (P i Li) in R. rewrite (nth_error_nth perm i 0%nat E) in R.
      rewrite !(nth_error_nth' _ false) by (unfold bits_of; rewrite map_length; lia). rewrite R. reflexivity.
    + assert (forall v : bv, length v = z -> nth_error (bits_of v) j = None) as X by (intros v L; apply nth_error_None; unfold bits_of; rewrite map_length; lia). rewrite !X by assumption. reflexivity.
  - intros E i Li. apply (P i Li). rewrite E. reflexivity.
Qed.

(** If every punctured bit is 0 and every other one is heard on its side, the receiver has the values of the fields. *)
Theorem C108_delivered c n inv fs v perm ps d1 d2 sd wd : (1 <= n <= 63)%N -> (forall f, In f fs -> (f_width f <= 64)%nat) -> length v = size n fs ->
  fits (size n fs) perm ps d1 d2 sd wd ->
  exists u, message c n inv fs v = Ok u /\ forall heard, length heard = size n fs -> (forall i, (i < size n fs)%nat -> right_at u perm ps heard i) ->
    exists w, receive perm ps (without 0 ps heard) sd wd = Ok w /\ check c n inv fs w = Ok (Some (values fs)).
Proof.
  intros H W L F. destruct (message_spec c n inv fs v H W L) as (u & g & i & M & LU & G & S & R). exists u. split; [exact M|]. intros heard LH A.
  destruct (C108_received _ _ _ _ _ _ _ heard F LH) as (w & E & LW & B). exists w. split; [exact E|].
  apply (check_same c n inv fs u w g i); try assumption. apply (proj2 (right_bits (size n fs) u w perm ps heard (proj1 F) LU LW B)). exact A.
Qed.
Print Assumptions C108_delivered.

(** If the bits that were punctured or heard on the wrong side lie within [n] consecutive bits of the message, it is
    accepted with the right values or refused: accepted exactly if no bit is wrong. *)
Theorem C108_accepted c n inv fs v perm ps d1 d2 sd wd : (1 <= n <= 63)%N -> N.testbit c 0 = true -> (forall f, In f fs -> (f_width f <= 64)%nat) -> length v = size n fs ->
  fits (size n fs) perm ps d1 d2 sd wd ->
  exists u, message c n inv fs v = Ok u /\ forall heard p, length heard = size n fs ->
    (forall i, (i < size n fs)%nat -> ~ right_at u perm ps heard i -> (p <= nth i perm 0 < p + N.to_nat n)%nat) ->
    exists w o, receive perm ps (without 0 ps heard) sd wd = Ok w /\ check c n inv fs w = Ok o /\
      ((forall i, (i < size n fs)%nat -> right_at u perm ps heard i) /\ o = Some (values fs) \/ (exists i, (i < size n fs)%nat /\ ~ right_at u perm ps heard i) /\ o = None).
Proof.
  intros H C W L F. destruct (message_spec c n inv fs v H W L) as (u & g & i & M & LU & G & S & R). exists u. split; [exact M|]. intros heard p LH A.
  destruct (C108_received _ _ _ _ _ _ _ heard F LH) as (w & E & LW & B). destruct (right_bits (size n fs) u w perm ps heard (proj1 F) LU LW B) as [P Q].
  exists w. destruct (list_eq_dec bool_dec (bits_of w) (bits_of u)) as [D|D].
  - exists (Some (values fs)). split; [exact E|]. split; [apply (check_same c n inv fs u w g i); assumption|]. left. split; [apply Q; exact D|reflexivity].
  - exists None. split; [exact E|]. assert (Dec : forall i, (i < size n fs)%nat -> right_at u perm ps heard i \/ ~ right_at u perm ps heard i).
    { intros k Lk. rewrite (P k Lk). destruct (bool_dec (nth (nth k perm 0%nat) (bits_of w) false) (nth (nth k perm 0%nat) (bits_of u) false)); tauto. }
    split.
    + apply (check_burst c n inv fs u w g p); try assumption. intros j J J2. destruct (order_in _ perm j (proj1 F) J) as (k & Lk & Ek). specialize (A k Lk). rewrite (nth_error_nth perm k 0%nat Ek) in A.
      destruct (Dec k Lk) as [K|K]; [apply (P k Lk) in K; rewrite (nth_error_nth perm k 0%nat Ek) in K; exact K|specialize (A K); lia].
    + right. split; [|reflexivity].
      assert (X : forall m, (m <= size n fs)%nat -> (forall k, (k < m)%nat -> right_at u perm ps heard k) \/ exists k, (k < size n fs)%nat /\ ~ right_at u perm ps heard k).
      { induction m as [|m IH]; intros Lm; [left; intros k K; lia|]. destruct IH as [Y|Y]; [lia| |right; exact Y]. destruct (Dec m ltac:(lia)) as [Z0|Z0]; [|right; exists m; split; [lia|exact Z0]].
        left. intros k K. destruct (Nat.eq_dec k m) as [->|Ne]; [exact Z0|apply Y; lia]. }
      destruct (X (size n fs) ltac:(lia)) as [Y|Y]; [|exact Y]. exfalso. apply D, Q, Y.
Qed.
Print Assumptions C108_accepted.

(** ** Noise *)
(** A soft bit that is off by less than one half is on the side of its bit; one half itself is on the side of 0. *)
Theorem C108_noise (b : bool) e : (- (1 # 2) < e < 1 # 2)%Q -> sounds (FFin ((if b then 1 else 0) + e)) b.
Proof.
  intros [A B]. unfold sounds, flt, fhalf. destruct b.
  - apply negb_true_iff. apply not_true_iff_false. rewrite Qle_bool_iff. intros X. apply (Qlt_not_le (1 # 2) (1 + e)); [|exact X].
    setoid_replace (1 # 2)%Q with (1 + - (1 # 2))%Q by reflexivity. apply Qplus_lt_r. exact A.
  - apply negb_false_iff. rewrite Qle_bool_iff. rewrite Qplus_0_l. apply Qlt_le_weak. exact B.
Qed.
Print Assumptions C108_noise.
(** Defect: an erasure is taken for 0, so a message with a single punctured bit that is 1 is refused without any noise. *)
Theorem C108_punctured_refuted c n inv fs v perm i d1 d2 sd wd : (1 <= n <= 63)%N -> N.testbit c 0 = true -> (forall f, In f fs -> (f_width f <= 64)%nat) -> length v = size n fs ->
  fits (size n fs) perm [Z.of_nat i] d1 d2 sd wd ->
  exists u s w, message c n inv fs v = Ok u /\ send perm [Z.of_nat i] u d1 d2 = Ok s /\ receive perm [Z.of_nat i] s sd wd = Ok w /\
    check c n inv fs w = Ok (if nth (nth i perm 0%nat) (bits_of u) false then None else Some (values fs)).
Proof.
  intros H C W L F. destruct (C108_accepted c n inv fs v perm [Z.of_nat i] d1 d2 sd wd H C W L F) as (u & M & A).
  assert (LU : length u = size n fs). { destruct (message_spec c n inv fs v H W L) as (u1 & _ & _ & M1 & L1 & _). rewrite M in M1. apply Ok_inj in M1. subst u1. exact L1. }
  destruct (C108_sent _ _ _ u _ _ _ _ F LU) as (s & E & Es & _). exists u, s. pose proof F as (O & _ & I & _). pose proof O as (_ & LP & _).
  set (heard := map (fun j => FFin (if nth j (bits_of u) false then 1 else 0)) perm) in *.
  assert (LH : length heard = size n fs) by (unfold heard; rewrite map_length; exact LP).
  assert (K : forall k, (k < size n fs)%nat -> k <> i -> right_at u perm [Z.of_nat i] heard k).
  { intros k Lk Nk. unfold right_at, punctured. cbn [In]. split; [intros [X|[]]; lia|]. intros _. unfold heard.
    rewrite (nth_indep _ FNaN (FFin (if nth 0 (bits_of u) false then 1 else 0))) by (rewrite map_length; lia).
    rewrite (map_nth (fun j => FFin (if nth j (bits_of u) false then 1 else 0)) perm 0%nat k). unfold sounds. destruct (nth (nth k perm 0%nat) (bits_of u) false); reflexivity. }
  destruct (A heard (nth i perm 0%nat) LH) as (w & o & Ew & Ec & X).
  { intros k Lk Wk. destruct (Nat.eq_dec k i) as [->|Nk]; [lia|]. contradiction (Wk (K k Lk Nk)). }
  exists w. split; [exact M|]. split; [exact E|]. rewrite Es. split; [exact Ew|]. rewrite Ec. f_equal. destruct I as [Bi _].
  destruct X as [[R ->]|[(k & Lk & Wk) ->]].
  - specialize (R i ltac:(lia)). destruct R as [R _]. rewrite R; [reflexivity|]. left. reflexivity.
  - destruct (Nat.eq_dec k i) as [->|Nk]; [|contradiction (Wk (K k Lk Nk))].
    destruct (nth (nth i perm 0%nat) (bits_of u) false) eqn:Bu; [reflexivity|]. exfalso. apply Wk. unfold right_at. rewrite Bu. split; [reflexivity|]. intros X. contradiction X. left. reflexivity.
Qed.
Print Assumptions C108_punctured_refuted.
(** Two fields of 3 and 5 bits, 4 bits of parity, every fifth bit next; position 1 (a 0) or 4 (a 1) punctured; soft bits
    off by up to 0.49, one bit heard on the wrong side. *)
Example C108_ex : let fs := [mkField false 5 3; mkField true 9 5] in let z := repeat 0 12 in let h := repeat FNaN 12 in
  let perm := map (fun i => (5 * i mod 12)%nat) (seq 0 12) in
  let soft b e := FFin ((if Z.odd b then 1 else 0) + e)%Q in
  size 4 fs = 12%nat /\ message 3 4 true fs z = Ok [1;0;1; 1;0;0;1;0; 1;0;0;0] /\ fits 12 perm [1] z (repeat 0 11) h z /\
  bind (send perm [1] [1;0;1;1;0;0;1;0;1;0;0;0] z (repeat 0 11)) (fun s => receive perm [1] s h z) = Ok [1;0;1;1;0;0;1;0;1;0;0;0] /\
  bind (receive perm [1] (without 0 [1] (map (fun j => soft (nth j [1;0;1;1;0;0;1;0;1;0;0;0] 0) (if Nat.even j then - (49 # 100) else 49 # 100)%Q) perm)) h z) (check 3 4 true fs) = Ok (Some [5; 9]) /\
  bind (receive perm [4] (without 0 [4] (map (fun j => soft (nth j [1;0;1;1;0;0;1;0;1;0;0;0] 0) 0%Q) perm)) h z) (check 3 4 true fs) = Ok None /\
  bind (receive perm [] (map (fun j => soft (nth j [1;0;1;1;0;0;1;0;1;0;0;0] 0) (if Nat.eqb j 7 then 51 # 100 else 0)%Q) perm) h z) (check 3 4 true fs) = Ok None.
Proof.
  cbv zeta. split; [reflexivity|]. split; [vm_compute; reflexivity|]. split.
  { split; [|split; [reflexivity|split; [split; [split; vm_compute; [discriminate|reflexivity]|exact I]|repeat split]]].
    split; [|split; [reflexivity|]]; vm_compute; repeat (constructor; try (cbn [In]; lia)). }
  repeat split; vm_compute; reflexivity.
Qed.
