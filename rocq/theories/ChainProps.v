(** C105: a message of fields with parity, packed, sent over UDP and taken apart again. *)
From Verif Require Import Base BaseFacts BitVectorModel BitVectorSpec BitFieldProofs CrcProofs BitPackProofs BitMiscProofs BitVectorProps.
From Verif Require Import UtilsModel ConfigModel SocketModel NetModel NetSpec NetProofs NetProps.
Local Open Scope Z_scope.

(** The client program that sends: the fields from the start of a vector (C03), the parity of the
    data behind them (Parity::writeParityWord, BitVector.h:76-84 and BitVector.cpp:163-171), packed (BitVector.cpp:447-466). *)
Definition build (c n : N) (inv : bool) (fs : list field) (v : bv) : res (list Z) :=
  do x <- write_all v 0 fs;
  do g <- mk_generator c n;
  do t <- writeParityWord g (firstn (total_width fs) (fst x)) (skipn (total_width fs) (fst x)) inv;
  packToString (firstn (total_width fs) (fst x) ++ t).
(** The client program that receives: unpack into a vector of the size of the message, check the
    syndrome, read the fields.  [None]: the check failed. *)
Definition parse (c n : N) (inv : bool) (fs : list field) (w : bv) (m : list Z) : res (option (list Z)) :=
  do w' <- unpack w m;
  do g <- mk_generator c n;
  do s <- bv_syndrome w' g;
  if (s =? (if inv then 2 ^ n - 1 else 0))%N then do r <- read_all w' 0 fs; Ok (Some (fst r)) else Ok None.

Definition size (n : N) (fs : list field) : nat := (total_width fs + N.to_nat n)%nat.
Definition values (fs : list field) : list Z := map (fun f => f_val f mod 2 ^ Z.of_nat (f_width f)) fs.

(** Syndromes and fields depend on the bits only. *)
Lemma syndrome_bits n c g u v s : (1 <= n <= 63)%N -> mk_generator c n = Ok g -> bits_of u = bits_of v -> bv_syndrome u g = Ok s -> bv_syndrome v g = Ok s.
Proof.
  intros H G E S. destruct (C05_remainders n c u H) as (g1 & p1 & s1 & G1 & _ & _ & S1 & R1). destruct (C05_remainders n c v H) as (g2 & p2 & s2 & G2 & _ & _ & S2 & R2).
  rewrite G in G1. apply Ok_inj in G1. subst g1. rewrite G in G2. apply Ok_inj in G2. subst g2. rewrite S in S1. apply Ok_inj in S1. subst s1. rewrite E in R1. rewrite S2. f_equal. exact (remainder_unique n c _ _ _ R2 R1).
Qed.
Lemma slice_bits i n v : bits_of (slice i n v) = slice i n (bits_of v).
Proof. unfold slice, bits_of. rewrite <- firstn_map, <- skipn_map. reflexivity. Qed.
Lemma read_all_bits fs : forall u v i, (i + total_width fs <= length u)%nat -> (length u <= length v)%nat ->
  (forall j, (i <= j < i + total_width fs)%nat -> nth_error (bits_of u) j = nth_error (bits_of v) j) -> read_all u i fs = read_all v i fs.
Proof.
  induction fs as [|f fs IH]; intros u v i L LV A; [reflexivity|]. cbn [total_width fold_right] in L, A. fold (total_width fs) in L, A.
  assert (SL : slice i (f_width f) (bits_of u) = slice i (f_width f) (bits_of v)).
  { apply nth_error_ext. intros j. unfold slice. rewrite !nth_error_firstn, !nth_error_skipn. destruct (Nat.ltb_spec j (f_width f)); [apply A; lia|reflexivity]. }
  assert (E : (if f_rev f then readFieldReversed u i (f_width f) else readField u i (f_width f)) = (if f_rev f then readFieldReversed v i (f_width f) else readField v i (f_width f))).
  { destruct (f_rev f); unfold readFieldReversed, readField; [rewrite !peekFieldReversed_spec by lia|rewrite !peekField_spec by lia]; rewrite !slice_bits, SL; reflexivity. }
  cbn [read_all]. rewrite E. destruct (if f_rev f then readFieldReversed v i (f_width f) else readField v i (f_width f)) as [r| | |] eqn:Q; try reflexivity. cbn [bind].
  assert (SN : snd r = (i + f_width f)%nat).
  { destruct (f_rev f); unfold readFieldReversed, readField in Q; [rewrite peekFieldReversed_spec in Q by lia|rewrite peekField_spec in Q by lia]; cbn [bind] in Q; apply Ok_inj in Q; subst r; reflexivity. }
  rewrite SN, (IH u v (i + f_width f)%nat); [reflexivity|lia|exact LV|]. intros j J. apply A. lia.
Qed.

Lemma parse_good c n inv fs w m u s : (1 <= n <= 63)%N -> length w = size n fs -> ((length w + 7) / 8 <= length m)%nat -> bits_of (unpacked (length w) m) = bits_of u -> length u = length w ->
  (exists g, mk_generator c n = Ok g /\ bv_syndrome u g = Ok s) ->
  parse c n inv fs w m = if (s =? (if inv then 2 ^ n - 1 else 0))%N then do r <- read_all u 0 fs; Ok (Some (fst r)) else Ok None.
Proof.
  intros H L LM E LU (g & G & S). unfold parse. rewrite unpack_spec by exact LM. cbn [bind]. rewrite G. cbn [bind]. rewrite (syndrome_bits n c g u _ s H G (eq_sym E) S). cbn [bind].
  rewrite (read_all_bits fs (unpacked (length w) m) u 0); [reflexivity| | |]; rewrite ?unpacked_length.
  - rewrite L. unfold size. lia.
  - lia.
  - intros j _. rewrite E. reflexivity.
Qed.

(** What is built: the bytes, and the vector that was packed. *)
Lemma build_spec c n inv fs v : (1 <= n <= 63)%N -> (forall f, In f fs -> (f_width f <= 64)%nat) -> length v = size n fs ->
  exists u g i, build c n inv fs v = Ok (packed (bits_of u)) /\ length u = size n fs /\ mk_generator c n = Ok g /\
    bv_syndrome u g = Ok (if inv then 2 ^ n - 1 else 0)%N /\ read_all u 0 fs = Ok (values fs, i).
Proof.
  intros H W L. unfold size in *. destruct (C03_layout_roundtrip fs v 0 ltac:(lia) W) as (v1 & WR & L1 & _ & RD). unfold build. rewrite WR. cbn [bind fst]. set (D := total_width fs) in *.
  destruct (C05_codeword_syndrome n c (firstn D v1) (skipn D v1) inv H ltac:(rewrite skipn_length; lia)) as (g & t & G & P & S). rewrite G. cbn [bind]. rewrite P. cbn [bind].
  assert (LT : length t = N.to_nat n).
  { unfold writeParityWord in P. destruct (C05_remainders n c (firstn D v1) H) as (g1 & p & s1 & G1 & PA & _). rewrite G in G1. apply Ok_inj in G1. subst g1. rewrite PA in P. cbn [bind] in P.
    assert (GL : g_len g = n). { unfold mk_generator in G. destruct (shl64 1 n); cbn [bind] in G; try discriminate. destruct (n <? 64)%N; cbn [assert_ bind] in G; [|discriminate]. apply Ok_inj in G. subst g. reflexivity. }
    rewrite GL, fillField_spec in P by (rewrite skipn_length; lia). apply Ok_inj in P. subst t. rewrite splice_length; [rewrite skipn_length; lia|]. rewrite field_bits_length, skipn_length. lia. }
  assert (LU : length (firstn D v1 ++ t) = (D + N.to_nat n)%nat) by (rewrite app_length, firstn_length, LT; lia).
  exists (firstn D v1 ++ t), g, (0 + D)%nat. split; [apply packToString_spec|]. split; [exact LU|]. split; [reflexivity|]. split; [exact S|].
  rewrite <- (read_all_bits fs v1 (firstn D v1 ++ t) 0); [exact RD|fold D; lia|lia|]. intros j J. fold D in J. unfold bits_of. rewrite !nth_error_map. rewrite nth_error_app1 by (rewrite firstn_length; lia). rewrite nth_error_firstn.
  destruct (Nat.ltb_spec j D); [reflexivity|lia].
Qed.

(** The message arrives: written to a socket, read by the other and parsed it gives the values
    of the fields, each modulo its width. *)
Theorem C105_delivered H tr s0 i pi j pj a c n inv fs v w : reached H tr s0 -> port_of (bound tr) i = Some pi -> holder (bound tr) pj = Some j -> port_of (bound tr) j = Some pj -> drained H j tr ->
  dest_of H i tr = Some (a, pj) -> own H a = true ->
  (1 <= n <= 63)%N -> (forall f, In f fs -> (f_width f <= 64)%nat) -> length v = size n fs -> length w = size n fs -> Z.of_nat (size n fs) <= 12000 ->
  exists m s', build c n inv fs v = Ok m /\ Z.of_nat (length m) = (Z.of_nat (size n fs) + 7) / 8 /\
    run H s0 [Write i m Arrives; Read j] = Ok ([(Write i m Arrives, Sent (Z.of_nat (length m)) (Some ((a, pj), m)) Arrives);
      (Read j, Got (Z.of_nat (length m)) (map Some m) (map Some (sockaddr (srcof H a) pi)))], s') /\
    parse c n inv fs w m = Ok (Some (values fs)).
Proof.
  intros R Pi Hj Pj D DA O N W LV LW SZ. destruct (build_spec c n inv fs v N W LV) as (u & g & k & B & LU & G & S & RD).
  exists (packed (bits_of u)).
  assert (LP : length (packed (bits_of u)) = ((size n fs + 7) / 8)%nat) by (rewrite packed_length; unfold bits_of; rewrite map_length, LU; reflexivity).
  assert (LP' : (length (packed (bits_of u)) <= 1500)%nat).
  { rewrite LP. apply Nat2Z.inj_le. rewrite Nat2Z.inj_div, Nat2Z.inj_add. apply Z.lt_succ_r, Z.div_lt_upper_bound; lia. }
  destruct (C100_oneway H tr s0 (Write i (packed (bits_of u)) Arrives) i pi j pj a R Logic.I eq_refl Logic.I eq_refl Pi Hj Pj D (eq_sym DA) O ltac:(cbn [text_of]; lia)) as (n1 & n2 & R2 & _).
  exists n2. split; [exact B|]. split; [rewrite LP, Nat2Z.inj_div, Nat2Z.inj_add; reflexivity|]. split.
  - cbn [text_of] in R2. rewrite R2. unfold seen. cbn [fst snd]. rewrite firstn_all2 by exact LP'. reflexivity.
  - rewrite (parse_good c n inv fs w (packed (bits_of u)) u (if inv then 2 ^ n - 1 else 0)%N N LW); [|rewrite LP, LW; lia| |lia|exists g; split; [exact G|exact S]].
    + rewrite N.eqb_refl, RD. reflexivity.
    + rewrite LW, <- LU. replace (length u) with (length (bits_of u)) by (unfold bits_of; apply map_length). rewrite unpacked_packed. unfold bits_of. rewrite !map_map. apply map_ext. intros x. destruct (Z.odd x); reflexivity.
Qed.
Print Assumptions C105_delivered.

Lemma xor_back : forall a b, length a = length b -> xor_bits a (xor_bits a b) = b.
Proof. induction a as [|x a IH]; intros [|y b] L; try discriminate; [reflexivity|]. cbn [xor_bits]. rewrite IH by (injection L as L; exact L). f_equal. destruct x, y; reflexivity. Qed.
Lemma xor_length : forall a b, length a = length b -> length (xor_bits a b) = length a.
Proof. induction a as [|x a IH]; intros [|y b] L; try discriminate; [reflexivity|]. cbn [xor_bits length]. rewrite IH by (injection L as L; exact L). reflexivity. Qed.
Lemma xor_nth : forall a b j, length a = length b -> nth j (xor_bits a b) false = xorb (nth j a false) (nth j b false).
Proof. induction a as [|x a IH]; intros [|y b] [|j] L; try discriminate; try reflexivity. cbn [xor_bits nth]. apply IH. injection L as L. exact L. Qed.
Lemma xor_false : forall a b, length a = length b -> ~ In true (xor_bits a b) -> a = b.
Proof.
  induction a as [|x a IH]; intros [|y b] L N; try discriminate; [reflexivity|]. cbn [xor_bits In] in N. f_equal; [destruct x, y; tauto|apply IH; [injection L as L; exact L|tauto]].
Qed.
Lemma all_false l : (forall j, (j < length l)%nat -> nth j l false = false) -> l = repeat false (length l).
Proof. induction l as [|x l IH]; intros H; [reflexivity|]. cbn [length repeat]. f_equal; [exact (H 0%nat ltac:(cbn [length]; lia))|apply IH; intros j J; exact (H (S j) ltac:(cbn [length]; lia))]. Qed.

(** Damage: a packet [m'] that differs from the message only in [n] consecutive bits, wherever
    they are, is either refused or has the bits of the message. *)
Theorem C105_damaged c n inv fs v w m m' p : (1 <= n <= 63)%N -> N.testbit c 0 = true -> (forall f, In f fs -> (f_width f <= 64)%nat) -> length v = size n fs -> length w = size n fs ->
  build c n inv fs v = Ok m -> length m' = length m ->
  (forall j, (j < size n fs)%nat -> (j < p)%nat \/ (p + N.to_nat n <= j)%nat -> nth j (unpacked (size n fs) m') 0 = nth j (unpacked (size n fs) m) 0) ->
  parse c n inv fs w m' = Ok (if list_eq_dec Z.eq_dec (unpacked (size n fs) m') (unpacked (size n fs) m) then Some (values fs) else None).
Proof.
  intros N C W LV LW B LM A. destruct (build_spec c n inv fs v N W LV) as (u & g & k & B' & LU & G & S & RD). rewrite B in B'. apply Ok_inj in B'. subst m. set (z := size n fs) in *.
  assert (LB : length (bits_of u) = z) by (unfold bits_of; rewrite map_length; exact LU).
  assert (LP : length (packed (bits_of u)) = ((z + 7) / 8)%nat) by (rewrite packed_length, LB; reflexivity).
  assert (UP : unpacked z (packed (bits_of u)) = map Z.b2z (bits_of u)) by (rewrite <- LB at 1; apply unpacked_packed).
  set (u' := unpacked z m'). assert (LU' : length u' = z) by apply unpacked_length. assert (LB' : length (bits_of u') = z) by (unfold bits_of; rewrite map_length; exact LU').
  assert (BU' : u' = map Z.b2z (bits_of u')).
  { unfold u', unpacked, bits_of. rewrite !map_map. apply map_ext. intros x. destruct (Z.testbit _ _); reflexivity. }
  set (e := xor_bits (bits_of u) (bits_of u')). assert (LE : length e = z) by (unfold e; rewrite xor_length; lia).
  assert (EQ : bits_of u' = bits_of u <-> u' = unpacked z (packed (bits_of u))).
  { rewrite UP. split; [intros E; rewrite BU', E; reflexivity|]. intros E. rewrite E. unfold bits_of. rewrite !map_map. apply map_ext. intros x. destruct (Z.odd x); reflexivity. }
  assert (OUT : forall j, (j < p)%nat \/ (p + N.to_nat n <= j)%nat -> nth j e false = false).
  { intros j J. destruct (Nat.ltb_spec j z) as [JZ|JZ]; [|apply nth_overflow; lia]. unfold e. rewrite xor_nth by lia. specialize (A j JZ J). rewrite UP in A. fold u' in A. rewrite BU' in A.
    change 0 with (Z.b2z false) in A. rewrite !map_nth in A. destruct (nth j (bits_of u') false), (nth j (bits_of u) false); try reflexivity; discriminate A. }
  destruct (list_eq_dec Z.eq_dec u' (unpacked z (packed (bits_of u)))) as [E|E].
  - rewrite (parse_good c n inv fs w m' u (if inv then 2 ^ n - 1 else 0)%N N LW); [rewrite N.eqb_refl, RD; reflexivity|rewrite LM, LP, LW; lia|rewrite LW; apply EQ; exact E|lia|exists g; split; [exact G|exact S]].
  - assert (T : In true e). { destruct (in_dec bool_dec true e) as [T|T]; [exact T|]. exfalso. apply E, EQ. symmetry. apply xor_false; [lia|exact T]. }
    set (q := Nat.min p z). set (r := Nat.min (N.to_nat n) (z - q)).
    assert (SP : e = repeat false q ++ firstn r (skipn q e) ++ repeat false (z - q - r)).
    { rewrite <- (firstn_skipn q e) at 1. f_equal.
      - assert (X := all_false (firstn q e)). rewrite firstn_length_le in X by lia. apply X. intros j J. assert (nth j (firstn q e) false = nth j e false) as ->; [|apply OUT; lia].
        rewrite <- (firstn_skipn q e) at 2. rewrite app_nth1; [reflexivity|rewrite firstn_length_le by lia; exact J].
      - rewrite <- (firstn_skipn r (skipn q e)) at 1. f_equal. assert (X := all_false (skipn r (skipn q e))). assert (LS : length (skipn r (skipn q e)) = (z - q - r)%nat) by (rewrite !skipn_length; lia). rewrite LS in X. apply X.
        intros j J. assert (nth j (skipn r (skipn q e)) false = nth (q + (r + j)) e false) as ->; [|apply OUT; lia].
        destruct (nth_error e (q + (r + j))) as [x|] eqn:NE; [|apply nth_error_None in NE; lia]. rewrite (nth_error_nth _ _ false NE). apply nth_error_nth. rewrite !nth_error_skipn. exact NE. }
    assert (BT : In true (firstn r (skipn q e))).
    { rewrite SP in T. rewrite !in_app_iff in T. destruct T as [T|[T|T]]; [apply repeat_spec in T; discriminate|exact T|apply repeat_spec in T; discriminate]. }
    assert (BL : length (firstn r (skipn q e)) = r) by (rewrite firstn_length, skipn_length; lia).
    destruct (C06_burst_detected n c u u' q (firstn r (skipn q e)) (z - q - r) N C ltac:(rewrite BL; lia) BT ltac:(rewrite BL; lia)) as (g2 & s1 & s2 & G2 & S1 & S2 & NE).
    + rewrite <- SP. unfold e. rewrite xor_back by lia. reflexivity.
    + rewrite G in G2. apply Ok_inj in G2. subst g2. rewrite S in S1. apply Ok_inj in S1. subst s1.
      rewrite (parse_good c n inv fs w m' u' s2 N LW); [|rewrite LM, LP, LW; lia|rewrite LW; reflexivity|lia|exists g; split; [exact G|exact S2]].
      destruct (N.eqb_spec s2 (if inv then 2 ^ n - 1 else 0)%N) as [Q|_]; [|reflexivity]. exfalso. apply NE. symmetry. exact Q.
Qed.
Print Assumptions C105_damaged.
(** ... in particular one changed in so many consecutive bytes as the parity has whole bytes. *)
Theorem C105_bytes c n inv fs v w m m' q k : (1 <= n <= 63)%N -> N.testbit c 0 = true -> (forall f, In f fs -> (f_width f <= 64)%nat) -> length v = size n fs -> length w = size n fs ->
  build c n inv fs v = Ok m -> length m' = length m -> (8 * k <= N.to_nat n)%nat ->
  (forall j, (j < q)%nat \/ (q + k <= j)%nat -> nth_error m' j = nth_error m j) ->
  parse c n inv fs w m' = Ok (if list_eq_dec Z.eq_dec (unpacked (size n fs) m') (unpacked (size n fs) m) then Some (values fs) else None).
Proof.
  intros N C W LV LW B LM K A. apply (C105_damaged c n inv fs v w m m' (8 * q) N C W LV LW B LM). intros j J O.
  assert (E : nth (j / 8) m' 0 = nth (j / 8) m 0).
  { assert (X := A (j / 8)%nat ltac:(pose proof (Nat.div_mod j 8 ltac:(discriminate)); pose proof (Nat.mod_upper_bound j 8 ltac:(discriminate)); lia)).
    destruct (nth_error m (j / 8)) as [x|] eqn:Q; [rewrite (nth_error_nth _ _ 0 Q), (nth_error_nth _ _ 0 X); reflexivity|]. apply nth_error_None in Q. rewrite !nth_overflow by lia. reflexivity. }
  assert (U : forall src, nth j (unpacked (size n fs) src) 0 = Z.b2z (Z.testbit (nth (j / 8) src 0) (Z.of_nat (7 - j mod 8)))).
  { intros src. apply nth_error_nth. rewrite unpacked_nth. apply Nat.ltb_lt in J. rewrite J. reflexivity. }
  rewrite !U, E. reflexivity.
Qed.
Print Assumptions C105_bytes.
(** A packet of zeros is refused with inverted parity and passes as a message of zeros without. *)
Theorem C105_zeros c n inv fs w m : (1 <= n <= 63)%N -> length w = size n fs -> ((size n fs + 7) / 8 <= length m)%nat -> Forall (eq 0) m ->
  parse c n inv fs w m = Ok (if inv then None else Some (map (fun _ => 0) fs)).
Proof.
  intros N LW LM F. set (u := unpacked (length w) m). assert (LU : length u = length w) by apply unpacked_length.
  assert (Z0 : u = repeat 0 (length w)).
  { unfold u, unpacked. assert (X : forall i, Z.b2z (Z.testbit (nth (i / 8) m 0) (Z.of_nat (7 - i mod 8))) = 0).
    { intros i. replace (nth (i / 8) m 0) with 0; [rewrite Z.testbit_0_l; reflexivity|]. destruct (nth_in_or_default (i / 8) m 0) as [I|D]; [rewrite Forall_forall in F; exact (F _ I)|symmetry; exact D]. }
    rewrite (map_ext _ (fun _ => 0) X). clear. generalize 0%nat as s. induction (length w) as [|k IH]; intros s; [reflexivity|]. cbn [seq map repeat]. rewrite IH. reflexivity. }
  assert (BX : bits_of u = xor_bits (bits_of u) (bits_of u)) by (rewrite Z0; clear; induction (length w) as [|k IH]; [reflexivity|cbn [repeat bits_of map xor_bits]; f_equal; exact IH]).
  destruct (C06_linear n c u u u N eq_refl BX) as (g & a & b & _ & _ & G & A & B & D & _). rewrite A in D. apply Ok_inj in D. rewrite A in B. apply Ok_inj in B. subst b. rewrite N.lxor_nilpotent in D. subst a.
  rewrite (parse_good c n inv fs w m u 0%N N LW ltac:(rewrite LW; exact LM) eq_refl LU ltac:(exists g; split; [exact G|exact A])). destruct inv.
  - destruct (N.eqb_spec 0 (2 ^ n - 1)) as [E|_]; [|reflexivity]. exfalso. pose proof (N.pow_le_mono_r 2 1 n ltac:(lia) ltac:(lia)) as P. change (2 ^ 1)%N with 2%N in P. lia.
  - cbn [N.eqb]. rewrite Z0.
    assert (R : forall l i, (i + total_width l <= length w)%nat -> read_all (repeat 0 (length w)) i l = Ok (map (fun _ => 0) l, (i + total_width l)%nat)); [|rewrite R by (rewrite LW; unfold size; lia); reflexivity].
    induction l as [|f l IH]; intros i L; [cbn; rewrite Nat.add_0_r; reflexivity|]. cbn [total_width fold_right] in L |- *. fold (total_width l) in L |- *.
    assert (SZ : be_value (bits_of (slice i (f_width f) (repeat 0 (length w)))) = 0 /\ be_value (rev (bits_of (slice i (f_width f) (repeat 0 (length w))))) = 0).
    { assert (X : exists k, bits_of (slice i (f_width f) (repeat 0 (length w))) = repeat false k).
      { exists (f_width f). apply nth_error_ext. intros j. rewrite slice_bits. unfold slice. rewrite nth_error_firstn, nth_error_skipn. unfold bits_of. rewrite nth_error_map.
        destruct (Nat.ltb_spec j (f_width f)) as [J|J]; [rewrite !nth_error_repeat by lia; reflexivity|]. symmetry. apply nth_error_None. rewrite repeat_length. lia. }
      destruct X as (k & ->). assert (RV : rev (repeat false k) = repeat false k). { clear. induction k as [|k IH]; [reflexivity|]. cbn [repeat rev]. rewrite IH, <- repeat_cons. reflexivity. }
      rewrite RV. enough (E : be_value (repeat false k) = 0) by (split; exact E). clear. unfold be_value. induction k as [|k IH]; [reflexivity|cbn [repeat fold_left]; exact IH]. }
    assert (LR : length (repeat 0 (length w)) = length w) by apply repeat_length.
    cbn [read_all map]. destruct (f_rev f); unfold readFieldReversed, readField; [rewrite peekFieldReversed_spec by lia|rewrite peekField_spec by lia]; rewrite ?(proj1 SZ), ?(proj2 SZ); cbn [bind fst snd]; change (u64 0) with 0;
      rewrite IH by lia; cbn [bind fst snd]; rewrite Nat.add_assoc; reflexivity.
Qed.
Print Assumptions C105_zeros.

(** ** Defects *)
(** unpack has no length: of a packet shorter than the message it reads what was never received. *)
Lemma unpack_loop_short k : forall v i src, (i * 8 + 8 * k <= length v)%nat -> (i <= length src)%nat -> (length src < i + k)%nat -> unpack_loop v i k src = UB.
Proof.
  induction k as [|k IH]; intros v i src L I S; [lia|]. cbn [unpack_loop]. unfold rd. destruct (nth_error src i) as [b|] eqn:E; [|reflexivity]. cbn [bind].
  assert ((i < length src)%nat) by (apply nth_error_Some; rewrite E; discriminate). rewrite fillField_spec by lia. cbn [bind]. apply IH; [rewrite splice_length; rewrite ?field_bits_length; lia|lia|lia].
Qed.
Theorem C105_short_refuted c n inv fs w m : length w = size n fs -> (length m < (size n fs + 7) / 8)%nat -> parse c n inv fs w m = UB.
Proof.
  intros LW S. unfold parse, unpack. rewrite LW. set (z := size n fs) in *. pose proof (Nat.div_mod z 8 ltac:(discriminate)) as D. pose proof (Nat.mod_upper_bound z 8 ltac:(discriminate)) as M.
  destruct (Nat.ltb_spec (length m) (z / 8)) as [K|K]; [rewrite unpack_loop_short by lia; reflexivity|].
  destruct (unpack_loop_spec (z / 8) w 0 m) as (v' & E & L & _); try lia. rewrite E. cbn [bind].
  assert (R : (z mod 8 <> 0)%nat).
  { intros Z0. rewrite Z0 in D. assert ((z + 7) / 8 = z / 8)%nat; [|lia]. rewrite D at 1. rewrite Nat.add_0_r, (Nat.mul_comm 8), Nat.div_add_l by discriminate. change (7 / 8)%nat with 0%nat. lia. }
  destruct (z - z / 8 * 8)%nat as [|r] eqn:Q; [lia|]. unfold rd. rewrite (proj2 (nth_error_None m (z / 8))); [reflexivity|].
  assert ((z + 7) / 8 <= z / 8 + 1)%nat; [|lia]. apply Nat.lt_succ_r. apply Nat.div_lt_upper_bound; lia.
Qed.
Print Assumptions C105_short_refuted.
(** So a message of more than 12000 bits, cut to 1500 bytes on its way, is taken apart undefined. *)
Theorem C105_cut_refuted H tr s0 i pi j pj a c n inv fs v w : reached H tr s0 -> port_of (bound tr) i = Some pi -> holder (bound tr) pj = Some j -> port_of (bound tr) j = Some pj -> drained H j tr ->
  dest_of H i tr = Some (a, pj) -> own H a = true ->
  (1 <= n <= 63)%N -> (forall f, In f fs -> (f_width f <= 64)%nat) -> length v = size n fs -> length w = size n fs -> 12000 < Z.of_nat (size n fs) <= 524056 ->
  exists m got s', build c n inv fs v = Ok m /\
    run H s0 [Write i m Arrives; Read j] = Ok ([(Write i m Arrives, Sent (Z.of_nat (length m)) (Some ((a, pj), m)) Arrives);
      (Read j, Got 1500 (map Some got) (map Some (sockaddr (srcof H a) pi)))], s') /\ got = firstn 1500 m /\ parse c n inv fs w got = UB.
Proof.
  intros R Pi Hj Pj D DA O N W LV LW SZ. destruct (build_spec c n inv fs v N W LV) as (u & g & k & B & LU & G & S & RD).
  assert (LP : length (packed (bits_of u)) = ((size n fs + 7) / 8)%nat) by (rewrite packed_length; unfold bits_of; rewrite map_length, LU; reflexivity).
  assert (LZ : Z.of_nat (length (packed (bits_of u))) = (Z.of_nat (size n fs) + 7) / 8) by (rewrite LP, Nat2Z.inj_div, Nat2Z.inj_add; reflexivity).
  assert (LB : 1500 < Z.of_nat (length (packed (bits_of u))) <= 65507) by (rewrite LZ; split; [apply Z.lt_le_trans with 1501; [lia|apply Z.div_le_lower_bound; lia]|apply Z.lt_succ_r, Z.div_lt_upper_bound; lia]).
  destruct (C100_cut_refuted H tr s0 i pi j pj a (packed (bits_of u)) R Pi Hj Pj D DA O LB) as (s' & E).
  exists (packed (bits_of u)), (firstn 1500 (packed (bits_of u))), s'. split; [exact B|]. split; [exact E|]. split; [reflexivity|].
  apply C105_short_refuted; [exact LW|]. rewrite <- LP, firstn_length. lia.
Qed.
Print Assumptions C105_cut_refuted.

(** Three fields, one of them reversed, and eight parity bits: 33 bits in five bytes. *)
Example C105_ex : let fs := [mkField false 5 3; mkField true 300 10; mkField false (-1) 12] in let w := repeat 0 33 in
  size 8 fs = 33%nat /\ build 7 8 true fs w = Ok [166; 151; 255; 176; 0] /\ parse 7 8 true fs w [166; 151; 255; 176; 0] = Ok (Some [5; 300; 4095]) /\
  parse 7 8 true fs w [166; 150; 255; 176; 0] = Ok None /\ parse 7 8 true fs w [166; 151; 255; 176; 127] = Ok (Some [5; 300; 4095]) /\
  parse 7 8 true fs w [166; 151; 255; 176] = UB /\ parse 7 8 false fs w [0; 0; 0; 0; 0] = Ok (Some [0; 0; 0]).
Proof. vm_compute. repeat split. Qed.
