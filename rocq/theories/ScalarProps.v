(** C88: initialised scalars and fields. *)
From Coq Require Import Lia.
From Verif Require Import Base BaseFacts BitVectorModel BitVectorSpec BitMiscProofs BitVectorProps ScalarModel.
Local Open Scope Z_scope.

(** ** What a user expects: the types, and exact integers *)
Definition low (t : stype) : Z := match t with TChar => -128 | TInt16 => -32768 | TInt | TInt32 | TEnum => -2147483648 | _ => 0 end.
Definition high (t : stype) : Z :=
  match t with
  | TChar => 127 | TInt16 => 32767 | TInt | TInt32 | TEnum => 2147483647
  | TUChar => 255 | TUInt16 => 65535 | TUInt | TUInt32 => 4294967295 | TSize => 18446744073709551615 | TBool => 1
  end.
Definition fits (t : stype) (z : Z) : Prop := low t <= z <= high t.
(** The number of values of the type. *)
Definition span (t : stype) : Z := high t - low t + 1.
Definition exact1 (z : Z) (o : sop) : Z :=
  match o with Assign w | Poke w => w | Get => z | PreInc | PostInc => z + 1 | PreDec | PostDec => z - 1 | AddTo w => z + w | SubFrom w => z - w end.
Definition exact (z : Z) (l : list sop) : Z := fold_left exact1 l z.
(** Operators before the variable and assignments give the new value, those after it the old one. *)
Definition gives_old (o : sop) : bool := match o with PostInc | PostDec => true | _ => false end.
Definition operand (o : sop) : option Z := match o with Assign w | Poke w | AddTo w | SubFrom w => Some w | _ => None end.
(** Types in which arithmetic cannot overflow. *)
Definition total (t : stype) : bool := match t with TInt | TInt32 => false | _ => true end.

Lemma conv_fits t z : fits t (conv t z).
Proof. destruct t; unfold fits, conv, low, high; cbn [signed bits]; try (destruct (z =? 0); lia); change (8 - 1) with 7; change (16 - 1) with 15; change (32 - 1) with 31; lia. Qed.
Lemma conv_mod t z : t <> TBool -> exists k, conv t z = z + k * span t.
Proof.
  intros NB. destruct t; try (contradiction NB; reflexivity); unfold conv, span, low, high; cbn [signed bits]; change (8 - 1) with 7; change (16 - 1) with 15; change (32 - 1) with 31;
    match goal with |- context [(?a mod ?m)] => exists (- (a / m)); pose proof (Z.div_mod a m ltac:(lia)); lia end.
Qed.
Lemma conv_id t z : fits t z -> conv t z = z.
Proof. destruct t; unfold fits, conv, low, high; cbn [signed bits]; change (8 - 1) with 7; change (16 - 1) with 15; change (32 - 1) with 31; intros H; try lia. destruct (Z.eqb_spec z 0); lia. Qed.
Lemma conv_unique t a b : fits t a -> fits t b -> (exists k, a = b + k * span t) -> a = b.
Proof. intros A B (k & E). unfold fits, span in *. assert (k = 0 \/ k <= -1 \/ 1 <= k) by lia. destruct t; cbn [low high] in *; lia. Qed.
(** The value of a variable: always one of its type, and the exact result modulo the number of values. *)
Theorem C88_convert t z : fits t (conv t z) /\ (fits t z -> conv t z = z) /\ (t = TBool -> (conv t z = 0 <-> z = 0)) /\ (t <> TBool -> exists k, conv t z = z + k * span t).
Proof. split; [apply conv_fits|]. split; [apply conv_id|]. split; [intros ->; unfold conv; destruct (Z.eqb_spec z 0); lia|apply conv_mod]. Qed.
Print Assumptions C88_convert.
Lemma step_spec t v o : allowed t o = true -> fits t v -> t <> TBool ->
  (total t = true -> exists x v', sstep t v o = Ok (x, v') /\ fits t v' /\ (exists k, v' = exact1 v o + k * span t) /\ x = (if gives_old o then v else v')) /\
  (total t = false -> (forall w, operand o = Some w -> fits t w) -> (fits t (exact1 v o) -> sstep t v o = Ok (if gives_old o then v else exact1 v o, exact1 v o)) /\ (~ fits t (exact1 v o) -> sstep t v o = UB)).
Proof.
  intros AL F NB.
  assert (L01 : low t <= 0 /\ 1 <= high t) by (destruct t; cbn; lia).
  assert (AR : forall z, has_arith t = true -> low t + low t - 1 - high t <= z <= high t + high t - low t -> (total t = true -> exists v', arith t z = Ok v' /\ fits t v' /\ exists k, v' = z + k * span t) /\ (total t = false -> (fits t z -> arith t z = Ok z) /\ (~ fits t z -> arith t z = UB))).
  { intros z HA R. unfold arith. destruct t; try discriminate HA; cbn [bits signed total]; change (8 <? 32) with true; change (16 <? 32) with true; change (32 <? 32) with false; change (64 <? 32) with false; cbv iota;
    (split; intros T; try discriminate T).
    all: try (split; intros F'; unfold int_, fits32; unfold fits, low, high in F'; destruct ((- 2 ^ 31 <=? z) && (z <? 2 ^ 31)) eqn:E; try reflexivity; exfalso; lia).
    all: try (eexists; split; [reflexivity|]; split; [apply conv_fits|apply conv_mod; discriminate]).
    all: unfold int_; replace (fits32 z) with true by (unfold fits32; unfold low, high in R; lia); cbn [bind]; eexists; split; [reflexivity|]; split; [apply conv_fits|apply conv_mod; discriminate]. }
  assert (CB : forall w, low t <= conv t w <= high t) by (intros w; apply conv_fits).
  assert (CM : forall w, exists k, conv t w = w + k * span t) by (intros w; apply conv_mod, NB).
  unfold fits in F. destruct o as [w|w| | | | | |w|w]; cbn [sstep exact1 gives_old operand allowed] in *.
  1,2: split; [intros _; eexists; eexists; split; [reflexivity|]; split; [apply conv_fits|]; split; [apply CM|reflexivity]|]; intros _ W; specialize (W w eq_refl); rewrite conv_id by exact W; split; [reflexivity|intros K; contradiction].
  1: split; [intros _; exists v, v; split; [reflexivity|]; split; [exact F|]; split; [exists 0; lia|reflexivity]|]; intros _ _; split; [reflexivity|intros K; contradiction].
  1,2: destruct (AR (v + 1) AL ltac:(lia)) as [A1 A2].
  3,4: destruct (AR (v - 1) AL ltac:(lia)) as [A1 A2].
  5: destruct (AR (v + conv t w) AL ltac:(specialize (CB w); lia)) as [A1 A2].
  6: destruct (AR (v - conv t w) AL ltac:(specialize (CB w); lia)) as [A1 A2].
  all: split; [intros T; destruct (A1 T) as (v' & -> & F' & k & E); cbn [bind]; eexists; eexists; split; [reflexivity|]; split; [exact F'|]; split; [|reflexivity]|intros T W; destruct (A2 T) as [A3 A4]].
  all: try (specialize (W w eq_refl); rewrite conv_id in A3, A4 |- * by exact W).
  all: try (split; intros K; [rewrite (A3 K)|rewrite (A4 K)]; reflexivity).
  all: try (exists k; exact E).
  all: destruct (CM w) as (k' & E'); first [exists (k + k'); rewrite E, E'; ring|exists (k - k'); rewrite E, E'; ring].
Qed.
Lemma srun_cons t v o l : srun t v (o :: l) = do (x, w) <- sstep t v o; do (xs, w') <- srun t w l; Ok (x :: xs, w').
Proof. reflexivity. Qed.
Lemma exact_shift t l : forall z k, exists k', exact (z + k * span t) l = exact z l + k' * span t.
Proof.
  induction l as [|o l IH]; intros z k; [exists k; reflexivity|]. unfold exact in *. cbn [fold_left].
  destruct o as [w|w| | | | | |w|w]; cbn [exact1]; try (exists 0; lia); try (apply IH).
  - replace (z + k * span t + 1) with (z + 1 + k * span t) by ring. apply IH.
  - replace (z + k * span t + 1) with (z + 1 + k * span t) by ring. apply IH.
  - replace (z + k * span t - 1) with (z - 1 + k * span t) by ring. apply IH.
  - replace (z + k * span t - 1) with (z - 1 + k * span t) by ring. apply IH.
  - replace (z + k * span t + w) with (z + w + k * span t) by ring. apply IH.
  - replace (z + k * span t - w) with (z - w + k * span t) by ring. apply IH.
Qed.
(** Unsigned and narrow types: every sequence of operations is defined, the value is the exact result
    modulo the number of values. *)
Theorem C88_wrap t Init l : total t = true -> t <> TBool -> Forall (fun o => allowed t o = true) l ->
  exists xs v, srun t (make t Init) l = Ok (xs, v) /\ fits t v /\ exists k, v = exact Init l + k * span t.
Proof.
  intros T NB A. assert (H : forall v, fits t v -> exists xs v', srun t v l = Ok (xs, v') /\ fits t v' /\ exists k, v' = exact v l + k * span t).
  { induction A as [|o l AO A IH]; intros v F; [exists [], v; split; [reflexivity|]; split; [exact F|exists 0; unfold exact; cbn [fold_left]; lia]|].
    destruct (step_spec t v o AO F NB) as [S _]. destruct (S T) as (x & v' & E & F' & (k & K) & _). destruct (IH v' F') as (xs & v'' & E' & F'' & (k' & K')).
    exists (x :: xs), v''. rewrite srun_cons, E. cbn [bind]. rewrite E'. split; [reflexivity|]. split; [exact F''|]. change (exact v (o :: l)) with (exact (exact1 v o) l). rewrite K' , K. destruct (exact_shift t l (exact1 v o) k) as (k2 & ->). exists (k2 + k'). ring. }
  destruct (H (make t Init) (conv_fits t Init)) as (xs & v & E & F & k & K). exists xs, v. split; [exact E|]. split; [exact F|]. rewrite K. destruct (conv_mod t Init NB) as (k0 & E0). unfold make. rewrite E0. destruct (exact_shift t l Init k0) as (k2 & ->). exists (k2 + k). ring.
Qed.
Print Assumptions C88_wrap.
(** int: exact as long as every intermediate result is an int, otherwise undefined. *)
Theorem C88_int t v l : total t = false -> fits t v -> (forall o w, In o l -> operand o = Some w -> fits t w) ->
  ((forall p q, l = p ++ q -> fits t (exact v p)) -> exists xs, srun t v l = Ok (xs, exact v l)) /\
  ((exists p q, l = p ++ q /\ ~ fits t (exact v p)) -> srun t v l = UB).
Proof.
  intros T. assert (NB : t <> TBool) by (intros ->; discriminate T). assert (A : forall o, allowed t o = true) by (destruct t; try discriminate T; intros []; reflexivity).
  revert v. induction l as [|o l IH]; intros v F W.
  - split; [intros _; exists []; reflexivity|]. intros (p & q & E & N). destruct p; [|discriminate E]. contradiction.
  - destruct (step_spec t v o (A o) F NB) as [_ S]. destruct (S T (fun w => W o w (or_introl eq_refl))) as [S1 S2]. split.
    + intros H. assert (F1 : fits t (exact1 v o)) by (exact (H [o] l eq_refl)). destruct (IH (exact1 v o) F1 (fun o' w I => W o' w (or_intror I))) as [I1 _].
      destruct (I1 (fun p q E => H (o :: p) q (f_equal (cons o) E))) as (xs & E). rewrite srun_cons, (S1 F1). cbn [bind]. rewrite E. cbn [bind]. eexists. reflexivity.
    + intros (p & q & E & N). destruct p as [|o' p]; [contradiction|]. injection E as <- E. rewrite srun_cons.
      assert (D : fits t (exact1 v o) \/ ~ fits t (exact1 v o)) by (unfold fits; lia). destruct D as [F1|F1]; [|rewrite (S2 F1); reflexivity].
      rewrite (S1 F1). cbn [bind]. destruct (IH (exact1 v o) F1 (fun o' w I => W o' w (or_intror I))) as [_ I2]. rewrite I2; [reflexivity|]. exists p, q. split; [exact E|exact N].
Qed.
Print Assumptions C88_int.
(** What each operation returns; reading changes nothing; after an assignment the past does not matter. *)
Theorem C88_returns t v o x v' : sstep t v o = Ok (x, v') -> x = (if gives_old o then v else v').
Proof. destruct o; cbn [sstep gives_old]; intros H; try (apply Ok_inj in H; congruence); apply bind_ok in H; destruct H as (a & _ & H); apply Ok_inj in H; congruence. Qed.
Print Assumptions C88_returns.
Theorem C88_read t v w u l : sstep t v Get = Ok (v, v) /\ srun t v (Assign w :: l) = srun t u (Assign w :: l) /\ make t 0 = 0 /\ (t = TBool -> sstep t v (Assign w) = Ok (if w =? 0 then (0, 0) else (1, 1))).
Proof. split; [reflexivity|]. split; [reflexivity|]. split; [destruct t; reflexivity|]. intros ->. cbn [sstep conv]. destruct (w =? 0); reflexivity. Qed.
Print Assumptions C88_read.

(** ** Fields *)
Definition as_field (f : fld) : BitVectorSpec.field := mkField false (fvalue f) (fwidth f).
Definition widths (l : list fld) : nat := fold_right (fun f s => (fwidth f + s)%nat) 0%nat l.
Lemma widths_total l : widths l = total_width (map as_field l).
Proof. unfold widths, total_width. induction l as [|f l IH]; [reflexivity|]. cbn [fold_right map]. rewrite IH. reflexivity. Qed.
Lemma write_same b i l : write_fields b i l = write_all b i (map as_field l).
Proof.
  revert b i. induction l as [|f l IH]; intros b i; [reflexivity|]. cbn [write_fields map write_all]. unfold getValue, getWidth. cbn [as_field f_width f_val f_rev].
  destruct (writeField b i (fvalue f) (fwidth f)) as [[b' i']| | |]; cbn [bind]; try reflexivity; apply IH.
Qed.
Lemma read_same b l2 : forall i j l xs, map fwidth l2 = map fwidth l -> read_all b i (map as_field l) = Ok (xs, j) ->
  read_fields b i l2 = Ok (map (fun p => Fld (fst p) (conv TUInt (snd p))) (combine (map fwidth l) xs), j).
Proof.
  induction l2 as [|g l2 IH]; intros i j [|f l] xs E R; try discriminate E.
  - cbn [map read_all] in R. apply Ok_inj in R. injection R as <- <-. reflexivity.
  - cbn [map] in E. injection E as E1 E2. cbn [map read_all as_field f_rev f_width] in R. apply bind_ok in R. destruct R as ([x i'] & R1 & R). apply bind_ok in R. destruct R as ([xs' j'] & R2 & R). cbn [fst snd] in *. apply Ok_inj in R. injection R as <- <-.
    cbn [read_fields]. unfold getWidth. rewrite E1, R1. cbn [bind fstep sstep]. rewrite (IH _ _ _ _ E2 R2). cbn [bind map combine fst snd]. rewrite E1. reflexivity.
Qed.
(** A message of fields: what another one with fields of the same widths reads are the values modulo
    their widths, so exactly what was written if every value has room in its width. *)
Theorem C88_message b i l : (i + widths l <= length b)%nat -> Forall (fun f => (fwidth f <= 64)%nat /\ fits TUInt (fvalue f)) l ->
  exists b', write_fields b i l = Ok (b', (i + widths l)%nat) /\ length b' = length b /\ (forall j, (j < i)%nat \/ (i + widths l <= j)%nat -> nth_error b' j = nth_error b j) /\
    forall l2, map fwidth l2 = map fwidth l ->
      read_fields b' i l2 = Ok (map (fun f => Fld (fwidth f) (fvalue f mod 2 ^ Z.of_nat (fwidth f))) l, (i + widths l)%nat).
Proof.
  intros B F. rewrite widths_total in *. destruct (C03_layout_roundtrip (map as_field l) b i B) as (b' & W & L & O & R).
  - intros f I. apply in_map_iff in I. destruct I as (g & <- & I). rewrite Forall_forall in F. exact (proj1 (F g I)).
  - exists b'. rewrite write_same. split; [exact W|]. split; [exact L|]. split; [exact O|]. intros l2 E. rewrite (read_same _ _ _ _ _ _ E R). f_equal. f_equal. clear -F. induction F as [|f l [Wd V] F IH]; [reflexivity|]. cbn [map combine fst snd as_field f_val f_width]. rewrite IH. f_equal. f_equal. apply conv_id.
    unfold fits, low, high in *. assert (P : 0 < 2 ^ Z.of_nat (fwidth f)) by (apply Z.pow_pos_nonneg; lia). pose proof (Z.mod_pos_bound (fvalue f) _ P). pose proof (Z.mod_le (fvalue f) (2 ^ Z.of_nat (fwidth f)) ltac:(lia) P). lia.
Qed.
Print Assumptions C88_message.
Theorem C88_roundtrip b i l : (i + widths l <= length b)%nat -> Forall (fun f => (fwidth f <= 64)%nat /\ fits TUInt (fvalue f)) l ->
  exists b' j, write_fields b i l = Ok (b', j) /\ ((exists j', read_fields b' i l = Ok (l, j')) <-> Forall (fun f => fvalue f < 2 ^ Z.of_nat (fwidth f)) l).
Proof.
  intros B F. destruct (C88_message b i l B F) as (b' & W & _ & _ & R). exists b', (i + widths l)%nat. split; [exact W|]. rewrite (R l eq_refl). clear -F. split.
  - intros (j' & E). apply Ok_inj in E. injection E as E _. rewrite <- (map_id l) in E at 2. induction F as [|f l [Wd V] F IH]; [constructor|]. cbn [map] in E. injection E as E1 E2. constructor; [|exact (IH E2)].
    destruct f as [w v]. cbn [fwidth fvalue] in *. injection E1 as E1. assert (P : 0 < 2 ^ Z.of_nat w) by (apply Z.pow_pos_nonneg; lia). pose proof (Z.mod_pos_bound v _ P). lia.
  - intros S. eexists. f_equal. f_equal. induction S as [|f l S1 S IH]; [reflexivity|]. inversion F as [|? ? [Wd V] F']. cbn [map]. rewrite (IH F'). f_equal. destruct f as [w v]. cbn [fwidth fvalue] in *. f_equal. apply Z.mod_small. unfold fits, low in V. lia.
Qed.
Print Assumptions C88_roundtrip.
(** A field under any sequence of operations: what the unsigned of its initial value becomes, modulo 2^32
    whatever the width. *)
Fixpoint frun (f : fld) (l : list sop) : res (list Z * fld) :=
  match l with [] => Ok ([], f) | o :: r => do (x, g) <- fstep f o; do (xs, h) <- frun g r; Ok (x :: xs, h) end.
Theorem C88_field w Init l : exists xs g, frun (field w Init) l = Ok (xs, g) /\ getWidth g = w /\ getValue g = exact Init l mod 2 ^ 32 /\ srun TUInt (Init mod 2 ^ 32) l = Ok (xs, getValue g).
Proof.
  destruct (C88_wrap TUInt Init l eq_refl ltac:(discriminate)) as (xs & v & E & F & k & K); [apply Forall_forall; intros [] _; reflexivity|].
  assert (H : forall f, frun f l = do (xs, v) <- srun TUInt (fvalue f) l; Ok (xs, Fld (fwidth f) v)).
  { clear. induction l as [|o l IH]; intros f; [destruct f; reflexivity|]. cbn [frun srun]. unfold fstep. destruct (sstep TUInt (fvalue f) o) as [[x v]| | |]; cbn [bind]; try reflexivity.
    rewrite IH. cbn [fvalue fwidth]. destruct (srun TUInt v l) as [[xs v']| | |]; reflexivity. }
  exists xs, (Fld w v). rewrite H. cbn [field fvalue fwidth]. change (conv TUInt Init) with (Init mod 2 ^ 32) in E. rewrite E. cbn [bind]. split; [reflexivity|]. split; [reflexivity|].
  change (make TUInt Init) with (Init mod 2 ^ 32) in E. cbn [getValue fvalue]. split; [|exact E].
  unfold fits, span, low, high in *. rewrite K. replace (exact Init l + k * (4294967295 - 0 + 1)) with (exact Init l + k * 2 ^ 32) in * by lia.
  apply Z.mod_unique with (q := - k); lia.
Qed.
Print Assumptions C88_field.
(** Defect: the width is only reported, a field counts and holds 32 bits. *)
Theorem C88_width_refuted : exists x f y g b j gs j', fstep (field 3 7) PreInc = Ok (x, f) /\ getValue f = 8 /\ getWidth f = 3%nat /\ fstep f (AddTo 100) = Ok (y, g) /\ y = 108 /\
  write_fields (repeat 0 8) 0 [g] = Ok (b, j) /\ read_fields b 0 [field 3 0] = Ok (gs, j') /\ map getValue gs = [4].
Proof. do 8 eexists. repeat split; vm_compute; reflexivity. Qed.
Print Assumptions C88_width_refuted.
Example C88_ex :
  srun TUInt (make TUInt 0) [PreDec; PostInc; AddTo 5; SubFrom 6; Get] = Ok ([4294967295; 4294967295; 5; 4294967295; 4294967295], 4294967295) /\
  srun TInt (make TInt 7) [AddTo 2147483640; Get] = Ok ([2147483647; 2147483647], 2147483647) /\ srun TInt (make TInt 7) [AddTo 2147483640; PostInc] = UB /\
  srun TInt16 (make TInt16 0) [AddTo 32767; PreInc; PostDec] = Ok ([32767; -32768; -32768], 32767) /\ srun TChar (make TChar 200) [Get] = Ok ([-56], -56) /\
  srun TSize (make TSize 0) [PreDec] = Ok ([18446744073709551615], 18446744073709551615) /\ srun TBool (make TBool 0) [Assign 256; Get] = Ok ([1; 1], 1) /\
  (exists b, write_fields (repeat 1 16) 2 [field 3 5; field 8 200; field 1 0] = Ok (b, 14%nat) /\ read_fields b 2 [field 3 0; field 8 0; field 1 1] = Ok ([field 3 5; field 8 200; field 1 0], 14%nat)).
Proof. do 7 (split; [vm_compute; reflexivity|]). eexists. split; [vm_compute; reflexivity|]. vm_compute; reflexivity. Qed.
