(** C112: what an F16 and a vector print, and reading it back. *)
From Coq Require Import Lia QArith Qabs Qpower Lqa Qround.
From Verif Require Import Base BaseFacts UtilsModel UtilsSpec UtilsProps SqlProofs ConfigModel ConfigSpec ConfigProofs ConfigProps NumProofs TimevalModel IsoModel F16Model F16Spec F16Float F16FloatProofs F16FloatProps FloatNumModel FloatNumProps FloatRangeProps SecondsModel SecondsProps SigObjProps StatTextModel StatTextProofs StatTextProps PrintModel.
Local Open Scope Z_scope.

(** ** A number written with decimals is read as the nearest float *)
Lemma stands_read t q : stands_for t q -> exists f, getFloat (Some t) = Some f /\ nearest_float q f.
Proof.
  intros St. pose proof (stands_chars _ _ St) as C. destruct St as (sign & a & A & b & F & e & X & G & DA & DF & NA & P & -> & Q).
  assert (N0 : ~ In 0 (sign ++ A ++ F ++ X)) by (intros K; rewrite Forall_forall in C; specialize (C _ K); lia).
  destruct (C86_decimal [] sign a A b F e X [] ltac:(constructor) G DA DF) as (f & Nf & E).
  - destruct a; [contradiction NA; reflexivity|discriminate].
  - exact P.
  - unfold ends. destruct X; [|exact I]. split; [exact I|]. split; [intros; exact I|]. intros z t r Pt E. symmetry in E. apply app_eq_nil in E. exact (proj1 E).
  - intros _. exact I.
  - cbn [app]. rewrite app_nil_r. exact N0.
  - cbn [app] in E. rewrite app_nil_r in E. exists f. split.
    + unfold getFloat. cbn [option_map]. rewrite E. reflexivity.
    + fold (decimal_value sign a b e) in Nf. eapply nearest_eq; [|exact Nf]. symmetry. exact Q.
Qed.

(** ** The float nearest to something near a word gives the word *)
Lemma near_single q e D : -149 <= e <= 104 -> (forall m, fval m e == inject_Z m * (1 # D))%Q -> (Qabs q * inject_Z (Z.pos D) <= 16777215)%Q ->
  exists M, single (Fin M e) /\ (Qabs (fval M e - q) <= 1 # 2 * D)%Q.
Proof.
  intros R V B. set (M := Qfloor (q * inject_Z (Z.pos D) + (1 # 2))). exists M.
  assert (PD : (0 < inject_Z (Z.pos D))%Q) by (apply (iz_pos (Z.pos D)); lia).
  pose proof (Qfloor_le (q * inject_Z (Z.pos D) + (1 # 2))) as L. pose proof (Qlt_floor (q * inject_Z (Z.pos D) + (1 # 2))) as U. fold M in L, U.
  rewrite inject_Z_plus in U. change (inject_Z 1) with 1%Q in U.
  assert (B2 : (- (16777215) <= q * inject_Z (Z.pos D) /\ q * inject_Z (Z.pos D) <= 16777215)%Q).
  { rewrite <- (Qabs_pos (inject_Z (Z.pos D))) in B by lra. rewrite <- Qabs_Qmult in B. apply qabs_le in B. exact B. }
  split.
  - split; [|exact R]. assert (inject_Z M < inject_Z 16777216)%Q by (change (inject_Z 16777216) with (16777216)%Q; lra). assert (inject_Z (-16777216) < inject_Z M)%Q by (change (inject_Z (-16777216)) with (-16777216)%Q; lra).
    rewrite <- Zlt_Qlt in *. change (2 ^ 24) with 16777216. lia.
  - rewrite V. assert (I : (inject_Z (Z.pos D) * (1 # D) == 1)%Q) by (unfold Qeq, Qmult, inject_Z; cbn [Qnum Qden]; lia).
    assert (H : ((1 # 2 * D) == (1 # 2) * (1 # D))%Q) by reflexivity. rewrite H.
    assert (PI : (0 < 1 # D)%Q) by reflexivity.
    setoid_replace q with (q * inject_Z (Z.pos D) * (1 # D))%Q by (rewrite <- Qmult_assoc, I; ring). 
    setoid_replace (inject_Z M * (1 # D) - q * inject_Z (Z.pos D) * (1 # D))%Q with ((inject_Z M - q * inject_Z (Z.pos D)) * (1 # D))%Q by ring.
    rewrite Qabs_Qmult, (Qabs_pos (1 # D)) by lra. apply Qmult_le_compat_r; [|lra]. apply qabs_le. lra.
Qed.
Lemma limit_big : (16777216 < limit)%Q.
Proof. vm_compute. reflexivity. Qed.
Lemma back v q f e D : Z.abs v < 2 ^ 23 -> v <> 0 -> -149 <= e <= 104 -> (forall m, fval m e == inject_Z m * (1 # D))%Q -> (Qabs q * inject_Z (Z.pos D) <= 16777215)%Q ->
  (Qabs q <= 129)%Q -> (Qabs (q - val v) + (1 # 2 * D) < 1 # 131072)%Q -> nearest_float q f -> f16_of_float f = Ok v.
Proof.
  intros Bv Nv R V B Bq C Nf. destruct (near_single q e D R V B) as (M & SM & EM). pose proof limit_big as LB.
  destruct f as [m x|s|]; [|exfalso; destruct Nf as [Nf _]; lra|destruct Nf]. destruct Nf as (Sf & _ & Best). pose proof (proj1 (Best _ _ SM)) as Near.
  assert (Close : (Qabs (fval m x - val v) < 1 # 131072)%Q).
  { setoid_replace (fval m x - val v)%Q with ((fval m x - q) + (q - val v))%Q by ring. eapply Qle_lt_trans; [apply Qabs_triangle|]. lra. }
  assert (Vv : (val v == inject_Z v * (1 # 65536))%Q) by apply val_inject.
  assert (Bv' : (-128 <= val v /\ val v <= 128)%Q).
  { assert (inject_Z v <= inject_Z 8388608)%Q by (rewrite <- Zle_Qle; lia). assert (inject_Z (-8388608) <= inject_Z v)%Q by (rewrite <- Zle_Qle; lia).
    change (inject_Z 8388608) with (8388608)%Q in *. change (inject_Z (-8388608)) with (-8388608)%Q in *. lra. }
  apply qabs_lt in Close.
  assert (Bv1 : (val v <= -(1 # 65536) \/ 1 # 65536 <= val v)%Q).
  { destruct (Z.lt_total v 0) as [T|[T|T]]; [left|contradiction|right].
    - assert (inject_Z v <= inject_Z (-1))%Q by (rewrite <- Zle_Qle; lia). change (inject_Z (-1)) with (-1)%Q in *. lra.
    - assert (inject_Z 1 <= inject_Z v)%Q by (rewrite <- Zle_Qle; lia). change (inject_Z 1) with 1%Q in *. lra. }
  assert (Ne : ~ exceptional (fval m x)).
  { intros [K|(k & _ & Bk & K)].
    - destruct (Qlt_le_dec (fval m x) 0) as [T|T]; [rewrite Qabs_neg in K by lra|rewrite Qabs_pos in K by lra]; destruct Bv1; lra.
    - rewrite val_inject in K. assert (Dec : k <= - 8388608 \/ 8388608 <= k) by lia.
      assert (Bm : Z.abs v <= 8388607) by lia. assert (inject_Z v <= inject_Z 8388607)%Q by (rewrite <- Zle_Qle; lia). assert (inject_Z (-8388607) <= inject_Z v)%Q by (rewrite <- Zle_Qle; lia).
      change (inject_Z 8388607) with (8388607)%Q in *. change (inject_Z (-8388607)) with (-8388607)%Q in *.
      destruct Dec as [T|T]; rewrite Zle_Qle in T; [change (inject_Z (-8388608)) with (-8388608)%Q in T|change (inject_Z 8388608) with (8388608)%Q in T]; lra. }
  destruct (proj1 (C59_convert m x Sf Ne)) as (r & E & _ & Rr & _).
  { unfold in_range. change (inject_Z (-32768)) with (-32768)%Q. change (inject_Z 32768) with (32768)%Q. lra. }
  rewrite E. f_equal. apply qabs_le in Rr. unfold ulp in Rr. pose proof (val_inject r) as Vr.
  assert (inject_Z r - inject_Z v < 1)%Q by lra. assert (-1 < inject_Z r - inject_Z v)%Q by lra.
  unfold Qminus in *. rewrite <- inject_Z_opp, <- inject_Z_plus in *. change 1%Q with (inject_Z 1) in *. change (-1)%Q with (inject_Z (-1)) in *. rewrite <- Zlt_Qlt in *. lia.
Qed.

(** ** The text of an F16 *)
Lemma word_size v : is_word v -> v <> 0 -> (1 # 65536 <= Qabs (val v))%Q /\ (Qabs (val v) <= 32768)%Q.
Proof.
  intros W N. unfold is_word in W. assert (E : (Qabs (val v) == inject_Z (Z.abs v) * (1 # 65536))%Q) by (unfold val, Qabs, inject_Z, Qeq, Qmult; cbn [Qnum Qden]; lia).
  assert (inject_Z 1 <= inject_Z (Z.abs v))%Q by (rewrite <- Zle_Qle; lia). assert (inject_Z (Z.abs v) <= inject_Z 2147483648)%Q by (rewrite <- Zle_Qle; lia).
  change (inject_Z 1) with 1%Q in *. change (inject_Z 2147483648) with (2147483648)%Q in *. rewrite E. split; lra.
Qed.
Lemma f16_number v : is_word v -> v <> 0 -> exists m x, f16_f v = Fin m x /\ (ten (-400) <= Qabs (fval m x))%Q /\ (Qabs (fval m x) < ten 400)%Q /\
  (Qabs (fval m x - val v) <= (1 # 16777216) * Qabs (val v))%Q /\ (Z.abs v <= 2 ^ 24 -> (fval m x == val v)%Q).
Proof.
  intros W N. destruct (C59_float v W) as (m & x & E & _ & C & X). destruct (word_size v W N) as [L U].
  assert (T1 : (Qabs (fval m x) <= Qabs (val v) + Qabs (fval m x - val v))%Q) by (setoid_replace (fval m x) with (val v + (fval m x - val v))%Q at 1 by ring; apply Qabs_triangle).
  assert (T2 : (Qabs (val v) <= Qabs (fval m x) + Qabs (fval m x - val v))%Q).
  { setoid_replace (val v) with (fval m x + - (fval m x - val v))%Q at 1 by ring. apply Qle_trans with (1 := Qabs_triangle _ _). rewrite Qabs_opp. apply Qle_refl. }
  exists m, x. split; [exact E|]. split; [|split; [|split; assumption]].
  - apply Qle_trans with (ten (-6)); [apply ten_le; lia|]. change (ten (-6)) with (1 # 1000000)%Q. lra.
  - apply Qlt_le_trans with (ten 6); [|apply ten_le; lia]. change (ten 6) with (1000000)%Q. lra.
Qed.
Lemma zero_text s : put_f16 (plain s) 0 = plain (s ++ lit "0").
Proof. unfold put_f16. assert (E : exists e, f16_f 0 = Fin 0 e) by (vm_compute; eauto). destruct E as [e ->]. reflexivity. Qed.
Lemma zero_stands : stands_for (lit "0") 0.
Proof.
  exists [], [0], [48], [], [], 0, []. split; [left; reflexivity|]. split; [repeat constructor; unfold char_of_digit; lia|]. split; [constructor|]. split; [discriminate|]. split; [constructor|]. split; reflexivity.
Qed.

(** The number printed has at most six digits and is within half a unit of the last one, for numbers up to 256 (the
    words up to 2^24); for larger ones within one part in 190000. *)
Theorem C112_f16 s v : is_word v -> exists t q, put_f16 (plain s) v = plain (s ++ t) /\ stands_for t q /\
  (Qabs (q - val v) <= (1 # 190000) * Qabs (val v))%Q /\
  (Z.abs v <= 2 ^ 24 -> v <> 0 -> exists e k, within e (Qabs (val v)) /\ (q == inject_Z k * ten (e - 5))%Q /\ Z.abs k <= 10 ^ 6 /\ (Qabs (q - val v) <= (1 # 2) * ten (e - 5))%Q).
Proof.
  intros W. destruct (Z.eq_dec v 0) as [->|N].
  - exists (lit "0"), 0%Q. split; [apply zero_text|]. split; [apply zero_stands|]. split; [vm_compute; discriminate|]. intros _ K. contradiction K. reflexivity.
  - destruct (f16_number v W N) as (m & x & E & L & U & C & X). destruct (C102_number 6 (m, x) ltac:(lia) L U) as (q & e & k & St & Wi & Ek & Bk & Cq). unfold dval in Wi, Cq. cbn [fst snd] in Wi, Cq.
    exists (general 6 (m, x)), q. split; [unfold put_f16; rewrite E; reflexivity|]. split; [exact St|]. replace (e + 1 - Z.of_nat 6) with (e - 5) in * by lia. split.
    + assert (T : (Qabs (q - val v) <= Qabs (q - fval m x) + Qabs (fval m x - val v))%Q) by (setoid_replace (q - val v)%Q with ((q - fval m x) + (fval m x - val v))%Q by ring; apply Qabs_triangle).
      assert (T1 : (Qabs (fval m x) <= Qabs (val v) + Qabs (fval m x - val v))%Q) by (setoid_replace (fval m x) with (val v + (fval m x - val v))%Q at 1 by ring; apply Qabs_triangle).
      assert (Et : (ten (e - 5) == (1 # 100000) * ten e)%Q) by (replace (e - 5) with (-5 + e) by lia; rewrite ten_add; reflexivity). rewrite Et in Cq. destruct Wi as [Wi _]. pose proof (Qabs_nonneg (val v)). lra.
    + intros B _. specialize (X B). exists e, k. split; [|split; [exact Ek|split; [exact Bk|]]].
      * eapply within_eq; [|exact Wi]. rewrite X. reflexivity.
      * rewrite <- X. exact Cq.
Qed.
Print Assumptions C112_f16.

(** Numbers below 10 are told apart: read as a float and converted, the text gives the number back. *)
Theorem C112_read_back s v : Z.abs v < 10 * 65536 -> exists t f, put_f16 (plain s) v = plain (s ++ t) /\ getFloat (Some t) = Some f /\ f16_of_float f = Ok v.
Proof.
  intros B. destruct (Z.eq_dec v 0) as [->|N].
  - exists (lit "0"), (Fin 0 0). split; [apply zero_text|]. split; vm_compute; reflexivity.
  - assert (W : is_word v) by (unfold is_word; lia). destruct (C112_f16 s v W) as (t & q & P & St & _ & D). destruct (D ltac:(lia) N) as (e & k & Wi & _ & _ & C). destruct (stands_read t q St) as (f & G & Nf).
    exists t, f. split; [exact P|]. split; [exact G|].
    assert (U : (Qabs (val v) < 10)%Q).
    { assert (E : (Qabs (val v) == inject_Z (Z.abs v) * (1 # 65536))%Q) by (unfold val, Qabs, inject_Z, Qeq, Qmult; cbn [Qnum Qden]; lia). assert (inject_Z (Z.abs v) < inject_Z 655360)%Q by (rewrite <- Zlt_Qlt; lia).
      change (inject_Z 655360) with (655360)%Q in *. rewrite E. lra. }
    assert (Le : e <= 0) by (destruct Wi as [Wi _]; assert (K : (ten e < ten 1)%Q) by (change (ten 1) with 10%Q; lra); apply ten_lt_inv in K; lia).
    pose proof (ten_le (e - 5) (-5) ltac:(lia)) as Lt. change (ten (-5)) with (1 # 100000)%Q in Lt.
    assert (Tq : (Qabs q <= Qabs (val v) + Qabs (q - val v))%Q) by (setoid_replace q with (val v + (q - val v))%Q at 1 by ring; apply Qabs_triangle).
    apply (back v q f (-20) 1048576); try assumption; try lia; try lra.
    + intros m. unfold fval. reflexivity.
    + change (inject_Z (Z.pos 1048576)) with (1048576)%Q. lra.
    + change (1 # 2 * 1048576)%Q with (1 # 2097152)%Q. lra.
Qed.
Print Assumptions C112_read_back.
Theorem C112_tells s v w : Z.abs v < 10 * 65536 -> Z.abs w < 10 * 65536 -> put_f16 (plain s) v = put_f16 (plain s) w -> v = w.
Proof.
  intros V W E. destruct (C112_read_back s v V) as (t & f & P & G & C). destruct (C112_read_back s w W) as (t' & f' & P' & G' & C').
  rewrite P, P' in E. injection E as E. apply app_inv_head in E. subst t'. rewrite G in G'. injection G' as <-. rewrite C in C'. injection C' as <-. reflexivity.
Qed.
Print Assumptions C112_tells.
(** Defect: from 10 on they are not: a number one step above a whole number prints like the whole number. *)
Definition same_text (n : Z) : bool := if list_eq_dec Z.eq_dec (written (put_f16 (plain []) (n * 65536 + 1))) (written (put_f16 (plain []) (n * 65536))) then true else false.
Lemma put_f16_written s v : put_f16 (plain s) v = plain (s ++ written (put_f16 (plain []) v)).
Proof. unfold put_f16, put_float. destruct (f16_f v); reflexivity. Qed.
Lemma large_same n : 256 <= n < 32768 -> f_of_int (n * 65536 + 1) = f_of_int (n * 65536).
Proof.
  intros B. unfold f_of_int, rnd, rnd_pos. replace (n * 65536 + 1 <? 0) with false by lia. replace (n * 65536 <? 0) with false by lia. replace (n * 65536 + 1 =? 0) with false by lia. replace (n * 65536 =? 0) with false by lia.
  pose proof (Z.log2_spec n ltac:(lia)) as L. assert (Lb : 8 <= Z.log2 n < 15).
  { split; [apply Z.log2_le_pow2; lia|apply Z.log2_lt_pow2; lia]. }
  set (j := Z.log2 n) in *.
  assert (P : 2 ^ (j + 16) = 2 ^ j * 65536) by (rewrite Z.pow_add_r by lia; reflexivity).
  assert (P' : 2 ^ Z.succ (j + 16) = 2 ^ Z.succ j * 65536) by (replace (Z.succ (j + 16)) with (Z.succ j + 16) by lia; rewrite Z.pow_add_r by lia; reflexivity).
  replace (Z.log2 (n * 65536 + 1)) with (j + 16) by (symmetry; apply Z.log2_unique; lia).
  replace (Z.log2 (n * 65536)) with (j + 16) by (symmetry; apply Z.log2_unique; lia).
  cbv zeta. replace (Z.max (j + 16 - 23) (-149 - 0)) with (j - 7) by lia. replace (j - 7 <=? 0) with false by lia. f_equal.
  assert (D : j - 7 = 1 \/ j - 7 = 2 \/ j - 7 = 3 \/ j - 7 = 4 \/ j - 7 = 5 \/ j - 7 = 6 \/ j - 7 = 7) by lia. clear -B D.
  assert (R : forall c d, 0 < d -> 65536 = c * d -> rhe (n * 65536) d = n * c) by (intros c d Pd E; apply rhe_unique; nia).
  destruct D as [-> | [-> | [-> | [-> | [-> | [-> | ->]]]]]].
  - rewrite (R 32768) by reflexivity. unfold rhe. change (2 ^ 1) with 2. replace ((n * 65536 + 1) / 2) with (n * 32768) by lia. replace ((n * 65536 + 1) mod 2) with 1 by lia. cbn -[Z.mul Z.even].
    replace (Z.even (n * 32768)) with true; [reflexivity|]. rewrite Z.even_mul. symmetry. apply orb_true_r.
  - rewrite (R 16384) by reflexivity. change (2 ^ 2) with 4. apply rhe_unique; lia.
  - rewrite (R 8192) by reflexivity. change (2 ^ 3) with 8. apply rhe_unique; lia.
  - rewrite (R 4096) by reflexivity. change (2 ^ 4) with 16. apply rhe_unique; lia.
  - rewrite (R 2048) by reflexivity. change (2 ^ 5) with 32. apply rhe_unique; lia.
  - rewrite (R 1024) by reflexivity. change (2 ^ 6) with 64. apply rhe_unique; lia.
  - rewrite (R 512) by reflexivity. change (2 ^ 7) with 128. apply rhe_unique; lia.
Qed.
Theorem C112_ten_refuted s n : 10 <= n < 32768 -> put_f16 (plain s) (n * 65536 + 1) = put_f16 (plain s) (n * 65536).
Proof.
  intros B. destruct (Z.le_gt_cases 256 n) as [L|L]; [unfold put_f16, f16_f; rewrite large_same by lia; reflexivity|].
  assert (H : forallb same_text (map (fun k => 10 + Z.of_nat k) (seq 0 (Z.to_nat 246))) = true) by (vm_compute; reflexivity).
  rewrite forallb_forall in H. specialize (H n). assert (I : In n (map (fun k => 10 + Z.of_nat k) (seq 0 (Z.to_nat 246)))).
  { apply in_map_iff. exists (Z.to_nat (n - 10)). split; [lia|]. apply in_seq. lia. }
  specialize (H I). unfold same_text in H. rewrite (put_f16_written s), (put_f16_written s (n * 65536)). destruct (list_eq_dec _ _ _) as [E|]; [|discriminate]. rewrite E. reflexivity.
Qed.
Print Assumptions C112_ten_refuted.

(** ** On a stream that was made fixed, numbers below 128 are read back *)
Lemma fixed_stands x : Z.abs (units 6 x) < 10 ^ 19 -> stands_for (fixed_text 6 x) (inject_Z (units 6 x) * (1 # 1000000)).
Proof.
  intros B. unfold fixed_text. change (10 ^ Z.of_nat 6) with 1000000. set (n := units 6 x) in *. set (a := Z.abs n).
  assert (Pa : 0 <= a / 1000000 < 10 ^ Z.of_nat 20) by (change (10 ^ Z.of_nat 20) with 100000000000000000000; change (10 ^ 19) with 10000000000000000000 in B; lia). assert (Pm : 0 <= a mod 1000000 < 1000000) by lia.
  destruct (pad0_figures 6 (a mod 1000000) ltac:(lia)) as (F2 & V2 & _ & L2). specialize (L2 ltac:(change (10 ^ Z.of_nat 6) with 1000000; lia) ltac:(lia)).
  destruct (dec_digits_spec 20 (a / 1000000) Pa ltac:(lia)) as (d & ds & D & V1 & _).
  exists (if n <? 0 then [45] else []), (d :: ds), (dec_digits 20 (a / 1000000)), (dg (pad0 6 (a mod 1000000))), (46 :: pad0 6 (a mod 1000000)), 0, [].
  split; [destruct (n <? 0); [right; right; reflexivity|left; reflexivity]|]. split; [exact D|]. split; [constructor; apply dg_string; exact F2|]. split; [discriminate|]. split; [constructor|]. split.
  - rewrite app_nil_r. unfold sprintf_ld. replace (a / 1000000 <? 0) with false by lia. reflexivity.
  - unfold decimal_value. rewrite positional_app by lia. rewrite V1, V2, dg_length, L2. change (10 ^ Z.of_nat 6) with 1000000. change (inject_Z 10 ^ (0 - Z.of_nat 6))%Q with (1 # 1000000)%Q.
    replace (a / 1000000 * 1000000 + a mod 1000000) with a by lia. rewrite Qmult_assoc, <- inject_Z_mult. replace (sign_of (if n <? 0 then [45] else []) * a) with n; [reflexivity|].
    subst a. destruct (Z.ltb_spec n 0); cbn [sign_of]; lia.
Qed.
Theorem C112_fixed s v : Z.abs v < 128 * 65536 -> exists t f, put_f16 (Stream s 6 true) v = Stream (s ++ t) 6 true /\ getFloat (Some t) = Some f /\ f16_of_float f = Ok v.
Proof.
  intros B. destruct (Z.eq_dec v 0) as [->|N].
  - exists (lit "0.000000"), (Fin 0 0). split; [|split; vm_compute; reflexivity]. unfold put_f16. assert (E : f16_f 0 = Fin 0 0) by (vm_compute; reflexivity). rewrite E. reflexivity.
  - assert (W : is_word v) by (unfold is_word; lia). destruct (f16_number v W N) as (m & x & E & _ & _ & _ & X). specialize (X ltac:(lia)).
    pose proof (C89_digits 6 (m, x)) as C. change (10 ^ Z.of_nat 6) with 1000000 in C. unfold dval in C. cbn [fst snd] in C. rewrite X in C. set (u := units 6 (m, x)) in *.
    assert (Vv : (val v == inject_Z v * (1 # 65536))%Q) by apply val_inject.
    assert (inject_Z v <= inject_Z 8388607)%Q by (rewrite <- Zle_Qle; lia). assert (inject_Z (-8388607) <= inject_Z v)%Q by (rewrite <- Zle_Qle; lia).
    change (inject_Z 8388607) with (8388607)%Q in *. change (inject_Z (-8388607)) with (-8388607)%Q in *. change (inject_Z 1000000) with (1000000)%Q in C.
    assert (C' : (- (1 # 2) <= inject_Z u - val v * 1000000 /\ inject_Z u - val v * 1000000 <= 1 # 2)%Q) by (apply qabs_le; lra).
    assert (Bu : Z.abs u < 10 ^ 19).
    { assert (inject_Z u < inject_Z 128000001)%Q by (change (inject_Z 128000001) with (128000001)%Q; lra). assert (inject_Z (-128000001) < inject_Z u)%Q by (change (inject_Z (-128000001)) with (-128000001)%Q; lra).
      rewrite <- Zlt_Qlt in *. change (10 ^ 19) with 10000000000000000000. lia. }
    pose proof (fixed_stands (m, x) Bu) as St. fold u in St. destruct (stands_read _ _ St) as (f & G & Nf). exists (fixed_text 6 (m, x)), f.
    split; [unfold put_f16; rewrite E; reflexivity|]. split; [exact G|].
    assert (Q1 : (Qabs (inject_Z u * (1 # 1000000) - val v) <= 1 # 2000000)%Q) by (apply qabs_le; split; lra).
    assert (Q2 : (Qabs (inject_Z u * (1 # 1000000)) <= 128 - (1 # 65536) + (1 # 2000000))%Q) by (apply qabs_le; split; lra).
    apply (back v (inject_Z u * (1 # 1000000)) f (-17) 131072); try assumption; try lia; try lra.
    + intros k. unfold fval. reflexivity.
    + change (inject_Z (Z.pos 131072)) with (131072)%Q. lra.
    + change (1 # 2 * 131072)%Q with (1 # 262144)%Q. lra.
Qed.
Print Assumptions C112_fixed.
(** 128 is the boundary: the next word is printed exactly enough, but converted to another one (C59). *)
Theorem C112_fixed_refuted s : put_f16 (Stream s 6 true) (128 * 65536 + 1) = Stream (s ++ lit "128.000015") 6 true /\ exists f, getFloat (Some (lit "128.000015")) = Some f /\ f16_of_float f = Ok (128 * 65536 + 2).
Proof.
  split.
  - unfold put_f16. assert (E : f16_f (128 * 65536 + 1) = Fin 8388609 (-16)) by (vm_compute; reflexivity). rewrite E. unfold put_float, put_double. cbn [is_fixed precision].
    assert (T : fixed_text 6 (8388609, -16) = lit "128.000015") by (vm_compute; reflexivity). rewrite T. reflexivity.
  - exists (Fin 8388609 (-16)). split; vm_compute; reflexivity.
Qed.
Print Assumptions C112_fixed_refuted.

(** ** Vectors *)
Lemma vector_text {A : Type} (put1 : stream -> A -> stream) (txt : A -> list Z) l : (forall s x, In x l -> put1 (plain s) x = plain (s ++ txt x)) ->
  forall s, put_vector put1 (plain s) l = plain (s ++ concat (map (fun x => txt x ++ [32]) l)).
Proof.
  induction l as [|x l IH]; intros H s; cbn [put_vector map concat]; [rewrite app_nil_r; reflexivity|].
  rewrite H by (left; reflexivity). change (put (plain (s ++ txt x)) (lit " ")) with (plain ((s ++ txt x) ++ [32])). rewrite IH by (intros; apply H; right; assumption). rewrite <- !app_assoc. reflexivity.
Qed.
Lemma splits_blanks l : Forall (fun w => w <> [] /\ ~ In 32 w) l -> splits (concat (map (fun w => w ++ [32]) l)) l.
Proof.
  intros H. induction H as [|w l [A B] H IH]; [constructor|]. cbn [map concat]. rewrite <- app_assoc. constructor; [exact A|exact B|right; eexists; reflexivity|constructor; exact IH].
Qed.
(** A vector of unsigned numbers, printed and used as the value of a key, is read by getVector as it was. *)
Theorem C112_numbers s l : Forall (fun n => 0 <= n < 2 ^ 32) l -> exists t, put_vector put_int (plain s) l = plain (s ++ t) /\ getVector t = l.
Proof.
  intros H. exists (concat (map (fun x => sprintf_ld x ++ [32]) l)). split; [apply vector_text; intros; reflexivity|].
  assert (F : forall n, 0 <= n < 2 ^ 32 -> sprintf_ld n <> [] /\ ~ In 32 (sprintf_ld n) /\ Forall (fun c => isspace c = false) (sprintf_ld n)).
  { intros n B. unfold sprintf_ld. replace (n <? 0) with false by lia. apply dec_digits_fields. change (10 ^ Z.of_nat 20) with 100000000000000000000. lia. }
  rewrite <- (map_map sprintf_ld (fun w => w ++ [32])). rewrite (C49_numbers _ (map sprintf_ld l)).
  - clear F. induction H as [|n ns Hn H IH]; [reflexivity|]. cbn [map]. rewrite IH, number_sprintf by lia. f_equal. lia.
  - intros K. apply in_concat in K. destruct K as (w & K1 & K2). apply in_map_iff in K1. destruct K1 as (y & <- & K1). apply in_map_iff in K1. destruct K1 as (n & <- & K1). rewrite Forall_forall in H. specialize (H n K1).
    apply in_app_iff in K2. destruct K2 as [K2|[K2|[]]]; [exact (proj2 (sprintf_plain n ltac:(lia)) K2)|discriminate K2].
  - apply splits_blanks. clear -H F. induction H as [|n ns Hn H IH]; constructor; [destruct (F n Hn) as (A & B & _); split; assumption|exact IH].
  - clear -H F. induction H as [|n ns Hn H IH]; constructor; [destruct (F n Hn) as (_ & _ & A); exact A|exact IH].
Qed.
Print Assumptions C112_numbers.
(** A vector of F16 below 10: the words of the text, read as floats and converted, are the vector. *)
Theorem C112_f16s s l : Forall (fun v => Z.abs v < 10 * 65536) l -> exists t fs, put_vector put_f16 (plain s) l = plain (s ++ t) /\
  map (fun w => getFloat (Some w)) (getVectorOfStrings t) = map Some fs /\ map f16_of_float fs = map Ok l.
Proof.
  intros H. set (txt := fun v => written (put_f16 (plain []) v)). exists (concat (map (fun x => txt x ++ [32]) l)).
  assert (T : forall v, In v l -> txt v <> [] /\ ~ In 32 (txt v) /\ ~ In 0 (txt v)).
  { intros v I. rewrite Forall_forall in H. specialize (H v I). destruct (C112_f16 [] v ltac:(unfold is_word; lia)) as (t & q & P & St & _). unfold txt. rewrite P. cbn [app written plain].
    pose proof (stands_chars t q St) as C. rewrite Forall_forall in C. split; [|split; intros K; specialize (C _ K); lia].
    intros ->. destruct St as (sg & a & A & b & F & e & X & _ & DA & _ & NA & _ & E & _). symmetry in E. apply app_eq_nil in E. destruct E as [_ E]. apply app_eq_nil in E. destruct E as [-> _]. inversion DA; subst. contradiction NA. reflexivity. }
  assert (V : getVectorOfStrings (concat (map (fun x => txt x ++ [32]) l)) = map txt l).
  { rewrite <- (map_map txt (fun w => w ++ [32])). eapply C49_runs_unique; [apply C49_strings|apply splits_blanks].
    - intros K. apply in_concat in K. destruct K as (w & K1 & K2). apply in_map_iff in K1. destruct K1 as (y & <- & K1). apply in_map_iff in K1. destruct K1 as (n & <- & K1). apply in_app_iff in K2. destruct K2 as [K2|[K2|[]]]; [exact (proj2 (proj2 (T n K1)) K2)|discriminate K2].
    - apply Forall_forall. intros w K. apply in_map_iff in K. destruct K as (v & <- & K). destruct (T v K) as (A & B & _). split; assumption. }
  rewrite V, map_map. assert (R : forall v, Z.abs v < 10 * 65536 -> exists f, getFloat (Some (txt v)) = Some f /\ f16_of_float f = Ok v).
  { intros v B. destruct (C112_read_back [] v B) as (t & f & P & G & C). exists f. unfold txt. rewrite P. cbn [app written plain]. split; assumption. }
  clear V T. assert (X : exists fs, map (fun v => getFloat (Some (txt v))) l = map Some fs /\ map f16_of_float fs = map Ok l).
  { induction H as [|v l B H IH]; [exists []; split; reflexivity|]. destruct IH as (fs & E1 & E2). destruct (R v B) as (f & G & C). exists (f :: fs). cbn [map]. rewrite E1, E2, G, C. split; reflexivity. }
  destruct X as (fs & E1 & E2). exists fs. split; [|split; assumption]. apply vector_text. intros s' v I. unfold txt. apply put_f16_written.
Qed.
Print Assumptions C112_f16s.
(** A vector of floats is printed with six digits each; different floats then look the same. *)
Theorem C112_float m e : single (Fin m e) -> m <> 0 -> forall s, exists t q, put_float (plain s) (Fin m e) = plain (s ++ t) /\ stands_for t q /\ (Qabs (q - fval m e) <= (1 # 199999) * Qabs (fval m e))%Q.
Proof.
  intros S N s. assert (R : (ten (-400) <= Qabs (fval m e))%Q /\ (Qabs (fval m e) < ten 400)%Q).
  { rewrite fval_abs. destruct S as [S1 S2]. unfold fval. assert (A1 : (1 <= inject_Z (Z.abs m))%Q) by (change 1%Q with (inject_Z 1); rewrite <- Zle_Qle; lia). assert (A2 : (inject_Z (Z.abs m) <= inject_Z (2 ^ 24))%Q) by (rewrite <- Zle_Qle; lia).
    assert (B1 : ((2 # 1) ^ (-149) <= (2 # 1) ^ e)%Q) by (apply Qpower_le_compat_l; [lia|discriminate]). assert (B2 : ((2 # 1) ^ e <= (2 # 1) ^ 104)%Q) by (apply Qpower_le_compat_l; [lia|discriminate]).
    pose proof (p2_pos e) as P. split.
    - apply Qle_trans with ((2 # 1) ^ (-149))%Q; [vm_compute; discriminate|]. apply Qle_trans with (1 := B1). setoid_replace ((2 # 1) ^ e)%Q with (1 * (2 # 1) ^ e)%Q at 1 by ring. apply Qmult_le_compat_r; [exact A1|lra].
    - apply Qle_lt_trans with (inject_Z (2 ^ 24) * (2 # 1) ^ 104)%Q; [|vm_compute; reflexivity]. apply Qle_trans with (inject_Z (2 ^ 24) * (2 # 1) ^ e)%Q; [apply Qmult_le_compat_r; [exact A2|lra]|].
      rewrite !(Qmult_comm (inject_Z (2 ^ 24))). apply Qmult_le_compat_r; [exact B2|vm_compute; discriminate]. }
  destruct R as [L U]. destruct (C102_number 6 (m, e) ltac:(lia) L U) as (q & x & k & St & W & _ & _ & C). unfold dval in W, C. cbn [fst snd] in W, C.
  exists (general 6 (m, e)), q. split; [reflexivity|]. split; [exact St|].
  assert (Et : (ten (x + 1 - Z.of_nat 6) == (1 # 100000) * ten x)%Q) by (replace (x + 1 - Z.of_nat 6) with (-5 + x) by lia; rewrite ten_add; reflexivity). rewrite Et in C. destruct W as [W _]. pose proof (Qabs_nonneg (fval m e)). lra.
Qed.
Print Assumptions C112_float.
Theorem C112_float_refuted s : put_vector put_float (plain s) [Fin 8388609 (-23); Fin 1 0] = plain (s ++ lit "1 1 ") /\ ~ (fval 8388609 (-23) == fval 1 0)%Q.
Proof. split; [|vm_compute; discriminate]. cbn [put_vector put_float]. unfold put_double, plain, put. cbn [is_fixed written precision]. rewrite <- !app_assoc. f_equal. Qed.
Print Assumptions C112_float_refuted.
Example C112_ex : put_vector put_f16 (plain []) [65536; -98304; 1; 655359; 655361; -2147483648] = plain (lit "1 -1.5 1.52588e-05 9.99998 10 -32768 ") /\
  put_f16 (Stream [] 6 true) 655361 = Stream (lit "10.000015") 6 true /\ put_vector put_int (plain []) [7; 0; 4294967295] = plain (lit "7 0 4294967295 ").
Proof. vm_compute. repeat split. Qed.
