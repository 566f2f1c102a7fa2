(** Properties of getEnergy and getSNR (C83). *)
From Verif Require Import Base BaseFacts F16Model F16Float F16Spec F16FloatProofs SoftModel SoftProofs.
From Coq Require Import QArith Qabs Qminmax Qpower Lqa.
Local Open Scope Z_scope.

(** Specification, from SoftProofs.v: [soft b]: a number from 0 to 1, its value [qv b]; its
    confidence [conf] is |2b - 1|, its distance from the nearest of 0 and 1 is [dist]; [conf_of],
    [least] and [noise_of] are the sum and the least of the confidences, and the sum of the
    squares of the distances, all exact; [qn] is the length. *)
Example spec_ex : (conf (1 # 4) == 1 # 2)%Q /\ (dist (3 # 4) == 1 # 4)%Q /\ (conf_of [half; one; zero] == 2)%Q /\ (least [one; Fin 3 (-2)] == 1 # 2)%Q /\
  (noise_of [half; one; Fin 1 (-2)] == 5 # 16)%Q /\ (least [] == 1)%Q.
Proof. repeat split; reflexivity. Qed.

Lemma len_bound v : (0 < length v)%nat -> Z.of_nat (length v) <= 2 ^ 20 -> 0 < Z.of_nat (length v) <= 2 ^ 20 /\ (qn v <= 1048576)%Q /\ (1 <= @qn float v)%Q.
Proof.
  intros A B. split; [lia|]. unfold qn. change 1048576%Q with (inject_Z (2 ^ 20)). change 1%Q with (inject_Z 1). rewrite <- !Zle_Qle. lia.
Qed.
(** ** Energy *)
Theorem C83_energy : forall v, Forall soft v -> (0 < length v)%nat -> Z.of_nat (length v) <= 2 ^ 20 -> let mean := (conf_of v / qn v)%Q in
  exists m e a b, getEnergy v = (Fin m e, Fin a b) /\
    (Qabs (fval m e - mean) <= qn v * ((1 # 2000000) * mean + (1 # 34359738368)))%Q /\
    (Qabs (fval a b - least v) <= 1 # 8388608)%Q.
Proof.
  intros v F L0 L1 mean. destruct (len_bound v L0 L1) as (L & QB & Q1).
  destruct (energy_close (Z.of_nat (length v)) v F L (Qle_refl _)) as (m & e & a & b & E & M & A & C & D). exists m, e, a, b. split; [exact E|]. split; [|exact D].
  fold (@qn float v) in C. fold mean in C. eapply Qle_trans; [exact C|]. pose proof (qn_nonneg v). unfold eps_e, eta_e, eta. assert (0 <= qn v * (mean * 0))%Q by lra. 
  setoid_replace (2 * qn v * (1 # 4000000) * mean)%Q with (qn v * ((1 # 2000000) * mean))%Q by ring. setoid_replace (2 * qn v * (5 * (1 # 549755813888)))%Q with (qn v * (10 # 549755813888))%Q by (unfold Qeq; cbn [Qnum Qden Qmult]; lia).
  rewrite Qmult_plus_distr_r. apply Qplus_le_r. rewrite !(Qmult_comm (qn v)). apply Qmult_le_compat_r; [discriminate|assumption].
Qed.
Print Assumptions C83_energy.
(** Bits that are not numbers make the average one that is not, and do not count for the lowest. *)
Lemma fadd_nan a : fadd a NaN = NaN.
Proof. destruct a; reflexivity. Qed.
Theorem C83_nan : forall v w, fst (getEnergy (v ++ NaN :: w)) = NaN /\ getSNR (v ++ NaN :: w) = NaN.
Proof.
  intros v w. split.
  - unfold getEnergy. generalize (Z.of_nat (length (v ++ NaN :: w))) as len. intros len. generalize zero one. induction v as [|x v IH]; intros a l; cbn [app energy_loop]; [|apply IH].
    change (energy NaN) with NaN. cbn [fdiv]. rewrite fadd_nan. generalize (if flt NaN l then NaN else l). induction w as [|y w IHw]; intros l'; cbn [energy_loop]; [reflexivity|]. cbn [fadd]. apply IHw.
  - assert (N : noise (v ++ NaN :: w) = NaN).
    { unfold noise. rewrite fold_left_app. cbn [fold_left]. generalize (fold_left noise_step v zero). intros s. assert (N : noise_step s NaN = NaN) by (unfold noise_step; cbn; destruct s; reflexivity). rewrite N.
      induction w as [|y w IHw]; [reflexivity|]. cbn [fold_left]. assert (N2 : noise_step NaN y = NaN) by reflexivity. rewrite N2. exact IHw. }
    unfold getSNR. rewrite N. destruct (Z.eqb_spec (Z.of_nat (length (v ++ NaN :: w))) 0) as [H|H]; [rewrite app_length in H; cbn [length] in H; lia|].
    cbn [fmul]. unfold flt. cbn [fcompare]. unfold fdiv. destruct (f_of_double _); reflexivity.
Qed.
Print Assumptions C83_nan.
Theorem C83_empty : getEnergy [] = (zero, one) /\ getSNR [] = zero.
Proof. split; reflexivity. Qed.
Print Assumptions C83_empty.

(** ** Certain bits *)
Definition bits (l : list bool) : list float := map (fun b : bool => if b then one else zero) l.
Theorem C83_certain : forall l, l <> [] -> snd (getEnergy (bits l)) = one /\ getSNR (bits l) = Fin 999 0.
Proof.
  intros l NE. split.
  - unfold getEnergy. generalize (Z.of_nat (length (bits l))) as len. intros len. generalize zero. induction l as [|b l IH]; [contradiction|]. intros a. cbn [bits map energy_loop].
    assert (E : energy (if b then one else zero) = Fin 1 0 \/ energy (if b then one else zero) = Fin 2 (-1)) by (destruct b; [right|right]; vm_compute; reflexivity).
    assert (FL : flt (energy (if b then one else zero)) one = false) by (destruct E as [-> | ->]; reflexivity). rewrite FL. destruct l as [|b' l]; [reflexivity|]. apply IH. discriminate.
  - assert (N : noise (bits l) = zero).
    { unfold noise, bits. clear NE. induction l as [|b l IH]; [reflexivity|]. cbn [map fold_left]. assert (S : noise_step zero (if b then one else zero) = zero) by (destruct b; vm_compute; reflexivity). rewrite S. exact IH. }
    unfold getSNR. rewrite N. unfold bits. rewrite map_length. destruct l as [|b l]; [contradiction|]. destruct (Z.eqb_spec (Z.of_nat (length (b :: l))) 0) as [H|H]; [cbn [length] in H; lia|].
    assert (P : 0 < Z.of_nat (length (b :: l))) by (cbn [length]; lia). set (n := Z.of_nat (length (b :: l))) in *. clearbody n.
    change (fmul zero (Fin 1000 0)) with (Fin 0 0). change (dmul half half) with (Fin 1 (-2)).
    assert (S : exists r, f_of_double (dmul (Fin 1 (-2)) (Fin n 0)) = r /\ flt (Fin 0 0) r = true).
    { eexists. split; [reflexivity|]. destruct (dmul_within 1 (-2) n 0) as (x & y & E & W & _). rewrite E. unfold f_of_double.
      assert (NQ : (1 <= inject_Z n)%Q) by (change 1%Q with (inject_Z 1); rewrite <- Zle_Qle; lia). assert (VQ : (fval 1 (-2) * fval n 0 == (1 # 4) * inject_Z n)%Q) by (rewrite fval_int; reflexivity). rewrite VQ in W.
      apply within_pos in W; [|lra]. unfold eps53 in W. assert (X0 : (1 # 8 <= fval x y)%Q) by lra.
      assert (XP : 0 < x). { apply (fval_lt 0 x y). rewrite fval_zero. lra. }
      unfold rnd. destruct (Z.ltb_spec x 0); [lia|]. destruct (rnd_pos x y) as [m e|s|] eqn:R.
      - destruct (rnd_pos_val x y m e ltac:(lia) R) as (W0 & FW & W1 & [C|C] & _).
        + apply flt_spec. rewrite fval_zero, FW, <- (fval_zero y). apply fval_lt. nia.
        + exfalso. destruct (tiny_lt y x 1 W0 ltac:(lia) ltac:(lia) C) as [T _]. change (inject_Z 1) with 1%Q in T. lra.
      - assert (SF : s = false). { unfold rnd_pos in R. destruct (x =? 0); [discriminate|]. destruct (Z.max (Z.log2 x - 23) (-149 - y) <=? 0); unfold finish in R;
          match type of R with (if ?c then _ else _) = _ => destruct c end; match type of R with (if ?c then _ else _) = _ => destruct c end; try congruence; match type of R with (if ?c then _ else _) = _ => destruct c end; congruence. }
        subst s. reflexivity.
      - exfalso. unfold rnd_pos in R. destruct (x =? 0); [discriminate|]. destruct (Z.max (Z.log2 x - 23) (-149 - y) <=? 0); unfold finish in R;
          match type of R with (if ?c then _ else _) = _ => destruct c end; match type of R with (if ?c then _ else _) = _ => destruct c end; try congruence; match type of R with (if ?c then _ else _) = _ => destruct c end; congruence. }
    destruct S as (r & -> & FL). rewrite FL. reflexivity.
Qed.
Print Assumptions C83_certain.
(** Defect: the average of certain bits is not always 1. *)
Theorem C83_average_refuted : exists l m e, fst (getEnergy (bits l)) = Fin m e /\ (1 < fval m e)%Q.
Proof. exists (repeat true 10), 8388609, (-23). split; [vm_compute; reflexivity|reflexivity]. Qed.
Print Assumptions C83_average_refuted.

(** ** Signal to noise *)
Definition signal (v : list float) : Q := (1 # 4) * qn v.
Lemma signal_spec (v : list float) : (0 < length v)%nat -> Z.of_nat (length v) <= 2 ^ 20 -> exists m e,
  f_of_double (dmul (dmul half half) (Fin (Z.of_nat (length v)) 0)) = Fin m e /\ single (Fin m e) /\ within eps eta (fval m e) (signal v).
Proof.
  intros A B. destruct (len_bound v A B) as (_ & QB & Q1). change (dmul half half) with (Fin 1 (-2)). set (n := Z.of_nat (length v)) in *.
  destruct (dmul_within 1 (-2) n 0) as (x & y & E & W & _). rewrite E. unfold f_of_double. assert (VQ : (fval 1 (-2) * fval n 0 == signal v)%Q) by (rewrite fval_int; reflexivity). rewrite VQ in W.
  unfold signal in *. apply within_pos in W; [|lra]. unfold eps53 in W. destruct (rnd_within x y) as (m & e & R & SG & WF & _). { rewrite Qabs_pos by lra. rewrite v_big. lra. }
  exists m, e. split; [exact R|]. split; [exact SG|]. apply within_pos; [lra|]. apply within_pos in WF; [|lra]. unfold eps, eps24, eta in *. lra.
Qed.
(** The ratio is right to within the errors of adding, or is more than about 1000 and given as 999. *)
Theorem C83_snr : forall v, Forall soft v -> (0 < length v)%nat -> Z.of_nat (length v) <= 2 ^ 20 -> let d := (qn v * (1 # 4000000) + (1 # 2097152))%Q in
  exists m e, getSNR v = Fin m e /\ (0 <= fval m e <= 1001)%Q /\
    ((Qabs (fval m e * noise_of v - signal v) <= d * signal v)%Q \/
     (getSNR v = Fin 999 0 /\ 1000 * noise_of v <= (1 + d) * signal v)%Q).
Proof.
  intros v F L0 L1 d. destruct (len_bound v L0 L1) as (L & QB & Q1). destruct (noise_close v F QB) as (c & ce & EN & SGN & C0 & CN). pose proof (noise_of_range v F) as NR.
  destruct (signal_spec v L0 L1) as (s & se & ES & SGS & WS). assert (SP : (signal v == (1 # 4) * qn v)%Q) by reflexivity. apply within_pos in WS; [|lra]. unfold eps, eta in *.
  unfold getSNR. destruct (Z.eqb_spec (Z.of_nat (length v)) 0); [lia|]. rewrite EN, ES. apply fval_ge0 with (e := ce) in C0. set (K := qn v) in *. set (N := noise_of v) in *. set (S := signal v) in *. set (cq := fval c ce) in *. set (sv := fval s se) in *.
  apply Qabs_Qle_condition in CN. assert (KN : (0 <= K * N)%Q) by (apply Qmult_le_0_compat; lra). assert (KN2 : (K * N <= 1048576 * N)%Q) by (apply Qmult_le_compat_r; lra).
  setoid_replace (2 * K * (1 # 16000000) * N)%Q with ((1 # 8000000) * (K * N))%Q in CN by ring.
  assert (CB : (cq <= 1000000)%Q) by lra.
  assert (KC : (K * N <= K * ((12 # 10) * cq + (4 * K) * (1 # 549755813888)))%Q).
  { rewrite !(Qmult_comm K). apply Qmult_le_compat_r; [|lra]. lra. }
  destruct (fmul_within c ce 1000 0) as (t & te & ET & _ & WT & _). { change (fval 1000 0) with (1000 * 1)%Q. fold cq. rewrite Qabs_pos by lra. rewrite v_big. lra. }
  rewrite ET. change (fval 1000 0) with (1000 * 1)%Q in WT. fold cq in WT. apply within_pos in WT; [|lra]. unfold eps24, eta in WT.
  assert (KK : (0 <= K * K <= 1048576 * K)%Q) by (split; [apply Qmult_le_0_compat; lra|apply Qmult_le_compat_r; lra]).
  destruct (flt (Fin t te) (Fin s se)) eqn:FL.
  - apply flt_spec in FL. fold sv in FL. exists 999, 0. split; [reflexivity|]. split; [split; discriminate|]. right. split; [reflexivity|]. unfold d.
    assert (KS : (K * cq <= K * ((1001 # 1000000) * S))%Q) by (rewrite !(Qmult_comm K); apply Qmult_le_compat_r; lra).
    setoid_replace (K * ((1001 # 1000000) * S))%Q with ((1001 # 1000000) * (K * S))%Q in KS by ring. setoid_replace ((1 + (K * (1 # 4000000) + (1 # 2097152))) * S)%Q with (S + (1 # 4000000) * (K * S) + (1 # 2097152) * S)%Q by ring.
    setoid_replace (K * ((12 # 10) * cq + (4 * K) * (1 # 549755813888)))%Q with ((12 # 10) * (K * cq) + (4 # 549755813888) * (K * K))%Q in KC by ring.
    assert (KS2 : (K * S == (1 # 4) * (K * K))%Q) by (rewrite SP; ring). rewrite KS2 in *. set (kk := (K * K)%Q) in *. set (kc := (K * cq)%Q) in *. set (kn := (K * N)%Q) in *. clearbody kk kc kn. lra.
  - apply flt_false in FL. fold sv in FL. assert (CL : ((99999 # 100000000) * S <= cq)%Q) by lra. assert (S0 : (1 # 4 <= S)%Q) by lra. assert (CP : (0 < cq)%Q) by lra.
    assert (NZ : c <> 0). { intros ->. unfold cq in CP. rewrite fval_zero in CP. lra. }
    destruct SGS as [SGS _]. destruct SGN as [SGN _]. destruct (fdiv_close s se c ce SGS SGN NZ) as [D1 D2]. fold cq sv in D1, D2. set (x := (sv / cq)%Q) in *.
    assert (XC : (x * cq == sv)%Q) by (unfold x; field; lra). assert (X0 : (0 <= x)%Q). { unfold x, Qdiv. apply Qmult_le_0_compat; [lra|]. apply Qlt_le_weak, Qinv_lt_0_compat, CP. }
    assert (XB : (x <= 10001 # 10)%Q). { apply Qle_shift_div_r; [exact CP|]. lra. }
    destruct D2 as (m & e & D). { rewrite Qabs_pos by exact X0. apply Qle_lt_trans with (10001 # 10)%Q; [exact XB|reflexivity]. }
    exists m, e. rewrite D. split; [reflexivity|]. destruct (D1 m e D) as [CLS _]. set (r := fval m e) in *.
    assert (R : (x - ((1 # 16777216) * x + (1 # 549755813888)) <= r <= x + ((1 # 16777216) * x + (1 # 549755813888)))%Q).
    { apply (within_pos (1 # 16777216) (1 # 549755813888)); [exact X0|]. unfold within. destruct CLS as [H|[H1 H2]]; [lra|]. pose proof (Qabs_triangle r (- x)) as T. rewrite Qabs_opp in T. setoid_replace (r - x)%Q with (r + - x)%Q by ring. pose proof (Qabs_nonneg x). lra. }
    assert (R0 : (0 <= r)%Q).
    { assert (X1 : (1 # 1000000 <= x)%Q). { apply Qle_shift_div_l; [exact CP|]. lra. } lra. }
    split; [|left].
    + split; [exact R0|]. lra.
    + assert (PC : (sv - ((1 # 16777216) * sv + (1 # 549755813888) * cq) <= r * cq <= sv + ((1 # 16777216) * sv + (1 # 549755813888) * cq))%Q).
      { destruct R as [Ra Rb]. apply (Qmult_le_compat_r _ _ cq) in Ra; [|lra]. apply (Qmult_le_compat_r _ _ cq) in Rb; [|lra].
        setoid_replace ((x - ((1 # 16777216) * x + (1 # 549755813888))) * cq)%Q with (x * cq - ((1 # 16777216) * (x * cq) + (1 # 549755813888) * cq))%Q in Ra by ring.
        setoid_replace ((x + ((1 # 16777216) * x + (1 # 549755813888))) * cq)%Q with (x * cq + ((1 # 16777216) * (x * cq) + (1 # 549755813888) * cq))%Q in Rb by ring.
        rewrite XC in Ra, Rb. split; assumption. }
      assert (H1 : (r * N - r * cq <= (1 # 8000000) * (K * (r * N)) + (2 # 549755813888) * (r * K))%Q /\ (r * cq - r * N <= (1 # 8000000) * (K * (r * N)) + (2 # 549755813888) * (r * K))%Q).
      { destruct CN as [Ca Cb]. apply (Qmult_le_compat_r _ _ r) in Ca; [|exact R0]. apply (Qmult_le_compat_r _ _ r) in Cb; [|exact R0].
        setoid_replace ((cq - N) * r)%Q with (r * cq - r * N)%Q in Ca by ring. setoid_replace ((cq - N) * r)%Q with (r * cq - r * N)%Q in Cb by ring.
        setoid_replace (((1 # 8000000) * (K * N) + 2 * K * (1 # 549755813888)) * r)%Q with ((1 # 8000000) * (K * (r * N)) + (2 # 549755813888) * (r * K))%Q in Cb by ring.
        setoid_replace (- ((1 # 8000000) * (K * N) + 2 * K * (1 # 549755813888)) * r)%Q with (- ((1 # 8000000) * (K * (r * N)) + (2 # 549755813888) * (r * K)))%Q in Ca by ring. split; lra. }
      assert (P0 : (0 <= r * N)%Q) by (apply Qmult_le_0_compat; lra).
      assert (H2 : (K * (r * N) <= 1048576 * (r * N))%Q) by (apply Qmult_le_compat_r; assumption).
      assert (H3 : (r * K <= 4001 * (r * cq))%Q). { setoid_replace (r * K)%Q with (K * r)%Q by ring. setoid_replace (4001 * (r * cq))%Q with ((4001 * cq) * r)%Q by ring. apply Qmult_le_compat_r; [lra|exact R0]. }
      set (P := (r * N)%Q) in *. set (rc := (r * cq)%Q) in *. set (rK := (r * K)%Q) in *.
      assert (CS : (cq <= 2 * S)%Q) by lra.
      assert (PB : (P <= (12 # 10) * S)%Q) by lra.
      assert (H4 : (K * P <= K * ((12 # 10) * S))%Q) by (rewrite !(Qmult_comm K); apply Qmult_le_compat_r; lra).
      setoid_replace (K * ((12 # 10) * S))%Q with ((12 # 10) * (K * S))%Q in H4 by ring. unfold d. setoid_replace ((K * (1 # 4000000) + (1 # 2097152)) * S)%Q with ((1 # 4000000) * (K * S) + (1 # 2097152) * S)%Q by ring.
      assert (KS0 : (0 <= K * S)%Q) by (apply Qmult_le_0_compat; lra).
      set (KP := (K * P)%Q) in *. set (KS := (K * S)%Q) in *. clearbody KP KS P rc rK. clear CN KC KN KN2 KK. apply Qabs_Qle_condition. split; lra.
Qed.
Print Assumptions C83_snr.

(** ** Unknown bits *)
Lemma rnd53_exact M z c t : (fval M z == fval c t)%Q -> Z.abs c < 2 ^ 53 -> exists m e, rnd53 M z = Fin m e /\ (fval m e == fval c t)%Q.
Proof.
  intros H C. unfold rnd53. destruct (Z.eqb_spec M 0) as [->|N]; [exists 0, 0; split; [reflexivity|]; rewrite <- H, !fval_zero; reflexivity|].
  set (k := Z.log2 (Z.abs M) - 52). destruct (Z.leb_spec k 0) as [K|K]; [exists M, z; split; [reflexivity|exact H]|]. exists (rhe M (2 ^ k)), (z + k). split; [reflexivity|]. rewrite <- H.
  rewrite <- fval_shift by lia. apply fval_eq. pose proof (two_pos k ltac:(lia)) as Pk. destruct (Z.le_gt_cases z t) as [L|L].
  - rewrite (fval_down c t z L) in H. apply fval_eq in H. assert (KS : k <= t - z).
    { unfold k. rewrite H, Z.abs_mul, (Z.abs_eq (2 ^ (t - z))) by (pose proof (two_pos (t - z) ltac:(lia)); lia). rewrite Z.log2_mul_pow2 by lia. pose proof (Z.log2_lt_pow2 (Z.abs c) 53 ltac:(lia)) as [B _]. specialize (B C). lia. }
    assert (QK : M = (c * 2 ^ (t - z - k)) * 2 ^ k). { rewrite H, <- Z.mul_assoc, <- two_add by lia. f_equal. f_equal. lia. }
    rewrite QK at 1. rewrite rhe_exact by lia. symmetry. exact QK.
  - exfalso. rewrite (fval_down M z t ltac:(lia)) in H. apply fval_eq in H. pose proof (two_pos (z - t) ltac:(lia)). assert (Z.abs M < 2 ^ 53) by nia. pose proof (proj1 (Z.log2_lt_pow2 (Z.abs M) 53 ltac:(lia)) ltac:(lia)). lia.
Qed.
Lemma rnd_exact M z c t : (fval M z == fval c t)%Q -> Z.abs c < 2 ^ 24 -> -149 <= t -> t <= 0 -> exists m e, rnd M z = Fin m e /\ single (Fin m e) /\ (fval m e == fval c t)%Q.
Proof.
  intros H C T T0. assert (B : (Qabs (fval M z) < fval 1 100)%Q).
  { rewrite H, fval_abs. eapply Qlt_le_trans; [apply fval_lt; exact C|]. rewrite <- (Z.mul_1_l (2 ^ 24)), fval_shift by lia. apply Qlt_le_weak. rewrite (fval_down 1 100 (t + 24)) by lia. apply fval_lt. pose proof (Z.pow_gt_1 2 (100 - (t + 24)) ltac:(lia)). lia. }
  destruct (rnd_within M z B) as (m & e & R & SG & _). exists m, e. split; [exact R|]. split; [exact SG|]. destruct (rnd_close M z m e R) as [_ X]. rewrite <- H. destruct (Z.le_gt_cases z t) as [L|L].
  - apply (X c (t - z)); try lia. rewrite (fval_down c t z L) in H. apply fval_eq in H. exact H.
  - rewrite (fval_down M z t ltac:(lia)) in H. apply fval_eq in H. pose proof (two_pos (z - t) ltac:(lia)). apply (X M 0); lia || nia.
Qed.
Lemma fval_quarter n : (fval n (-2) == (1 # 4) * inject_Z n)%Q.
Proof. unfold fval. change ((2 # 1) ^ (-2))%Q with (1 # 4)%Q. ring. Qed.
Theorem C83_unknown : forall n, (0 < n)%nat -> Z.of_nat n < 2 ^ 24 ->
  getEnergy (repeat half n) = (zero, zero) /\ exists m e, getSNR (repeat half n) = Fin m e /\ (fval m e == 1)%Q.
Proof.
  intros n N0 N1. split.
  - unfold getEnergy. rewrite repeat_length. destruct (of_int_close (Z.of_nat n)) as (a & b & FI & _ & _ & X); [unfold is_word; lia|]. specialize (X ltac:(lia)).
    assert (A : a <> 0). { intros ->. rewrite fval_zero in X. change 0%Q with (inject_Z 0) in X. apply (proj1 (inject_Z_injective _ _)) in X. lia. }
    assert (D : fadd zero (fdiv zero (f_of_int (Z.of_nat n))) = zero).
    { rewrite FI. unfold zero, fdiv. destruct (Z.eqb_spec a 0); [contradiction|]. change (Z.abs 0 * 2 ^ 60) with 0. rewrite Z.div_0_l, Z.mod_0_l by lia. destruct (xorb (0 <? 0) (a <? 0)); reflexivity. }
    assert (EH : energy half = zero) by (vm_compute; reflexivity). set (len := Z.of_nat n) in *. clearbody len. destruct n as [|n]; [lia|]. clear N0 N1. cbn [repeat energy_loop]. rewrite EH, D. change (flt zero one) with true. cbn iota.
    induction n as [|n IH]; [reflexivity|]. cbn [repeat energy_loop]. rewrite EH, D. change (flt zero zero) with false. cbn iota. exact IH.
  - assert (NS : forall k, Z.of_nat k < 2 ^ 24 -> exists m e, noise (repeat half k) = Fin m e /\ single (Fin m e) /\ (fval m e == fval (Z.of_nat k) (-2))%Q).
    { induction k as [|k IH]; intros K; [exists 0, 0; split; [reflexivity|]; split; [cbn; lia|rewrite !fval_zero; reflexivity]|]. destruct (IH ltac:(lia)) as (m & e & E & _ & V).
      replace (repeat half (S k)) with (repeat half k ++ [half]) by (symmetry; apply (repeat_cons k half)). rewrite noise_snoc, E.
      unfold noise_step. change (flt half half) with false. cbn iota. change (dmul (dsub half one) (dsub half one)) with (Fin 1 (-2)).
      unfold dadd. set (M := m * 2 ^ (e - Z.min e (-2)) + 1 * 2 ^ (-2 - Z.min e (-2))). assert (VM : (fval M (Z.min e (-2)) == fval (Z.of_nat (S k)) (-2))%Q).
      { unfold M. rewrite fval_add2, V, !fval_quarter. rewrite Nat2Z.inj_succ. unfold Z.succ. rewrite inject_Z_plus. ring. }
      destruct (rnd53_exact _ _ _ _ VM ltac:(lia)) as (x & y & E2 & V2). rewrite E2. unfold f_of_double. destruct (rnd_exact x y (Z.of_nat (S k)) (-2) V2 ltac:(lia) ltac:(lia) ltac:(lia)) as (m' & e' & E3 & SG & V3). exists m', e'. auto. }
    destruct (NS n N1) as (c & ce & EN & [SGN _] & VN). unfold getSNR. rewrite repeat_length. destruct (Z.eqb_spec (Z.of_nat n) 0); [lia|]. rewrite EN. change (dmul half half) with (Fin 1 (-2)). cbn [dmul].
    assert (VS : (fval (1 * Z.of_nat n) (-2 + 0) == fval (Z.of_nat n) (-2))%Q) by (rewrite Z.mul_1_l; reflexivity). destruct (rnd53_exact _ _ _ _ VS ltac:(lia)) as (x & y & E2 & V2). rewrite E2. unfold f_of_double.
    destruct (rnd_exact x y (Z.of_nat n) (-2) V2 ltac:(lia) ltac:(lia) ltac:(lia)) as (s & se & E3 & [SGS _] & V3). rewrite E3.
    assert (NQ : (1 <= inject_Z (Z.of_nat n) <= 16777216)%Q). { change 1%Q with (inject_Z 1). change 16777216%Q with (inject_Z (2 ^ 24)). rewrite <- !Zle_Qle. lia. }
    rewrite fval_quarter in VN, V3. destruct (fmul_within c ce 1000 0) as (t & te & ET & _ & WT & _). { change (fval 1000 0) with (1000 * 1)%Q. rewrite Qabs_pos by lra. rewrite v_big. lra. }
    rewrite ET. change (fval 1000 0) with (1000 * 1)%Q in WT. apply within_pos in WT; [|lra]. unfold eps24, eta in WT.
    assert (FL : flt (Fin t te) (Fin s se) = false) by (apply flt_false; lra). rewrite FL.
    assert (C0 : c <> 0). { intros ->. rewrite fval_zero in VN. lra. } destruct (fdiv_close s se c ce SGS SGN C0) as [D1 D2].
    assert (X1 : (fval s se / fval c ce == 1)%Q) by (rewrite V3, VN; field; lra). destruct D2 as (m & e & D); [rewrite X1; reflexivity|]. exists m, e. split; [exact D|]. destruct (D1 m e D) as [_ EX]. rewrite <- X1. apply (EX 1 0); [reflexivity|lia|rewrite X1; reflexivity].
Qed.
Print Assumptions C83_unknown.

(** ** No division by zero *)
Definition good (f : float) : Prop := match f with Fin m _ => 0 <= m | Inf s => s = false | NaN => False end.
Lemma finish_good m e : 0 <= m -> good (finish m e).
Proof.
  intros H. unfold finish. destruct (Z.ltb_spec 104 e).
  - destruct (m * 2 ^ (e - 104) <? 2 ^ 24); [|reflexivity]. cbn [good]. pose proof (two_pos (e - 104) ltac:(lia)). nia.
  - destruct (m =? 2 ^ 24); [destruct (e =? 104); [reflexivity|cbn; lia]|exact H].
Qed.
Lemma rnd_good M z : 0 <= M -> good (rnd M z).
Proof.
  intros H. unfold rnd. destruct (Z.ltb_spec M 0); [lia|]. unfold rnd_pos. destruct (Z.eqb_spec M 0); [cbn; lia|]. destruct (Z.leb_spec (Z.max (Z.log2 M - 23) (-149 - z)) 0) as [K|K]; apply finish_good; [exact H|].
  pose proof (two_pos _ (Z.lt_le_incl _ _ K)) as P. pose proof (rhe_near M _ P). nia.
Qed.
Lemma f_of_double_good d : good d -> good (f_of_double d).
Proof. destruct d; cbn [good f_of_double]; auto. apply rnd_good. Qed.
Lemma square_good d : d <> NaN -> good (dmul d d).
Proof.
  destruct d as [m e|s|]; intros H; [|cbn; apply xorb_nilpotent|congruence]. cbn [dmul]. destruct (rnd53_within (m * m) (e + e)) as (a & b & -> & _ & P). cbn. apply P. nia.
Qed.
Lemma noise_step_good s b : good s -> b <> NaN -> good (noise_step s b).
Proof.
  intros G N. unfold noise_step. apply f_of_double_good. set (d := if flt b half then dsub b zero else dsub b one).
  assert (D : d <> NaN). { unfold d. destruct b as [m e|t|]; [|destruct t; discriminate|congruence]. destruct (flt (Fin m e) half); unfold zero, one; [destruct (dsub_within m e 0 0) as (x & y & -> & _)|destruct (dsub_within m e 1 0) as (x & y & -> & _)]; discriminate. }
  pose proof (square_good d D) as P. destruct (dmul d d) as [m e|t|]; [| |contradiction]; destruct s as [n f|u|]; try contradiction; cbn [good] in *; subst; cbn [dadd good eqb]; auto.
  destruct (rnd53_within (n * 2 ^ (f - Z.min f e) + m * 2 ^ (e - Z.min f e)) (Z.min f e)) as (a & b' & E & _ & PP). rewrite E. apply PP. pose proof (two_pos (f - Z.min f e) ltac:(lia)). pose proof (two_pos (e - Z.min f e) ltac:(lia)). nia.
Qed.
Lemma noise_good v : Forall (fun b => b <> NaN) v -> good (noise v).
Proof.
  induction v as [|b v IH] using rev_ind; intros F; [cbn; lia|]. apply Forall_app in F. destruct F as [F1 F2]. rewrite noise_snoc. apply noise_step_good; [apply IH, F1|inversion F2; assumption].
Qed.
Lemma noise_single v : single (noise v).
Proof. destruct v as [|b v] using rev_ind; [cbn; lia|]. rewrite noise_snoc. unfold noise_step, f_of_double. destruct (dadd _ _); try exact I. apply rnd_single. Qed.
Lemma fdiv_good m e a b m' e' : 0 <= m -> 0 < a -> fdiv (Fin m e) (Fin a b) = Fin m' e' -> 0 <= m'.
Proof.
  intros M A D. unfold fdiv in D. destruct (Z.eqb_spec a 0); [lia|]. destruct (Z.ltb_spec m 0); [lia|]. destruct (Z.ltb_spec a 0); [lia|]. cbn [xorb] in D. set (q := 2 * _ + _) in D.
  assert (Q0 : 0 <= q). { unfold q. assert (0 <= Z.abs m * 2 ^ 60 / Z.abs a) by (apply Z.div_pos; lia). destruct (Z.abs m * 2 ^ 60 mod Z.abs a =? 0); lia. }
  pose proof (rnd_good q (e - b - 61) Q0) as G. rewrite D in G. exact G.
Qed.
(** Whatever numbers or infinities the bits are, the ratio is a number, not negative. *)
Theorem C83_defined : forall v, Forall (fun b => b <> NaN) v -> Z.of_nat (length v) < 2 ^ 31 -> exists m e, getSNR v = Fin m e /\ 0 <= m.
Proof.
  intros v F L. unfold getSNR. destruct (Z.eqb_spec (Z.of_nat (length v)) 0) as [|N]; [exists 0, 0; split; [reflexivity|lia]|]. set (n := Z.of_nat (length v)) in *. assert (P : 0 < n) by lia. clearbody n.
  assert (NQ : (1 <= inject_Z n <= 2147483648)%Q). { change 1%Q with (inject_Z 1). change 2147483648%Q with (inject_Z (2 ^ 31)). rewrite <- !Zle_Qle. lia. }
  assert (S : exists s se, f_of_double (dmul (dmul half half) (Fin n 0)) = Fin s se /\ single (Fin s se) /\ 0 <= s /\ (1 # 8 <= fval s se <= 1000000000)%Q).
  { change (dmul half half) with (Fin 1 (-2)). destruct (dmul_within 1 (-2) n 0) as (x & y & E & W & _). rewrite E. unfold f_of_double. assert (VQ : (fval 1 (-2) * fval n 0 == (1 # 4) * inject_Z n)%Q) by (rewrite fval_int; reflexivity). rewrite VQ in W.
    apply within_pos in W; [|lra]. unfold eps53 in W. destruct (rnd_within x y) as (m & e & R & SG & WF & _). { rewrite Qabs_pos by lra. rewrite v_big. lra. }
    exists m, e. split; [exact R|]. split; [exact SG|]. apply within_pos in WF; [|lra]. unfold eps24, eta in *. assert (V : (1 # 8 <= fval m e <= 1000000000)%Q) by lra. split; [apply fval_ge0 with (e := e); lra|exact V]. }
  destruct S as (s & se & -> & [SGS _] & S0 & SV). pose proof (noise_good v F) as G. pose proof (noise_single v) as SGN. destruct (noise v) as [c ce|t|]; [| |contradiction]; cbn [good single] in *.
  - destruct (Z.eq_dec c 0) as [->|C0].
    { assert (FL : flt (fmul (Fin 0 ce) (Fin 1000 0)) (Fin s se) = true). { cbn [fmul]. change (0 * 1000) with 0. change (rnd 0 (ce + 0)) with (Fin 0 0). apply flt_spec. rewrite fval_zero. lra. }
      rewrite FL. exists 999, 0. split; [reflexivity|lia]. }
    assert (CP : (0 < fval c ce)%Q). { rewrite <- (fval_zero ce). apply fval_lt. lia. }
    destruct (flt (fmul (Fin c ce) (Fin 1000 0)) (Fin s se)) eqn:FL; [exists 999, 0; split; [reflexivity|lia]|].
    assert (CB : (1 # 10000000 <= fval c ce)%Q).
    { destruct (Qlt_le_dec (fval c ce) 1) as [LT|GE]; [|lra]. destruct (fmul_within c ce 1000 0) as (t & te & ET & _ & WT & _). { change (fval 1000 0) with (1000 * 1)%Q. rewrite Qabs_pos by lra. rewrite v_big. lra. }
      rewrite ET in FL. apply flt_false in FL. change (fval 1000 0) with (1000 * 1)%Q in WT. apply within_pos in WT; [|lra]. unfold eps24, eta in WT. lra. }
    destruct SGN as [SGN _]. destruct (fdiv_close s se c ce SGS SGN C0) as [_ D2]. destruct D2 as (m & e & D).
    { rewrite Qabs_pos. - apply Qlt_shift_div_r; [exact CP|]. setoid_replace (fval 1 99) with 633825300114114700748351602688%Q by reflexivity. lra. - unfold Qdiv. apply Qmult_le_0_compat; [lra|]. apply Qlt_le_weak, Qinv_lt_0_compat, CP. }
    exists m, e. split; [exact D|]. apply (fdiv_good s se c ce m e S0 ltac:(lia) D).
  - subst t. exists 0, 0. split; [reflexivity|lia].
Qed.
Print Assumptions C83_defined.

(** Defect: a noisier signal may be given a ratio above 999, the ratio of all clean ones. *)
Theorem C83_clamp_refuted : exists v w m e, Forall soft v /\ Forall soft w /\ (noise_of v < noise_of w)%Q /\ length v = length w /\
  getSNR v = Fin 999 0 /\ getSNR w = Fin m e /\ (999 < fval m e)%Q.
Proof.
  exists [Fin 530542 (-24); one; zero; one], [Fin 530543 (-24); one; zero; one], 16383948, (-14).
  split; [repeat constructor; cbn; vm_compute; discriminate|]. split; [repeat constructor; cbn; vm_compute; discriminate|]. split; [reflexivity|]. split; [reflexivity|]. split; [vm_compute; reflexivity|]. split; [vm_compute; reflexivity|reflexivity].
Qed.
Print Assumptions C83_clamp_refuted.
(** 0.9 and 0.2 (as floats), 1, 0.5 *)
Example C83_ex : let v := [Fin 15099494 (-24); Fin 13421773 (-26); one; half] in
  Forall soft v /\ getEnergy v = (Fin 10066330 (-24), Fin 0 0) /\ getSNR v = Fin 13981013 (-22).
Proof. split; [repeat constructor; vm_compute; discriminate|]. split; vm_compute; reflexivity. Qed.
