(** C89: times as numbers of seconds. *)
From Coq Require Import Lia QArith Qabs Qpower Lqa.
From Verif Require Import Base BaseFacts ConfigModel ConfigSpec NumProofs IsoModel TimevalModel F16Model F16Float F16FloatProofs FloatNumModel FloatNumProps SecondsModel.
Local Open Scope Z_scope.

(** ** What a user expects *)
Definition micros (t : timeval) : Z := tv_sec t * 1000000 + tv_usec t.
Definition dval (x : double) : Q := fval (fst x) (snd x).
(** The number of seconds, to less than half a microsecond. *)
Definition close_to (x : double) (us : Z) : Prop := (Qabs (dval x * 1000000 - inject_Z us) < 1 # 2)%Q.
(** Times before the year 2242, the microseconds as gettimeofday and future give them. *)
Definition usual (t : timeval) : Prop := 0 <= tv_sec t /\ 0 <= tv_usec t <= 1000000 /\ micros t < 2 ^ 33 * 1000000.

(** ** Rounding *)
Lemma round53_spec n d : 0 < n -> 0 < d -> let x := (inject_Z n / inject_Z d)%Q in
  exists e N D, round53 n d = (rhe N D, e) /\ 0 < D /\ over x N D e /\ (fval (2 ^ 52) e <= x)%Q.
Proof.
  intros Pn Pd x. destruct (flog_spec n d Pn Pd) as [F1 F2]. fold x in F1, F2. unfold round53. destruct (Z.eqb_spec n 0); [lia|]. set (e := flog n d - 52).
  pose proof (over_quot n d e Pd) as O. fold x in O. exists e, (if 0 <=? e then n else n * 2 ^ (- e)), (if 0 <=? e then d * 2 ^ e else d).
  split; [cbv zeta; destruct (0 <=? e); reflexivity|]. split; [destruct (Z.leb_spec 0 e); [pose proof (two_pos e ltac:(lia)); nia|exact Pd]|]. split; [exact O|].
  replace (2 ^ 52) with (1 * 2 ^ 52) by lia. rewrite fval_shift by lia. replace (e + 52) with (flog n d) by lia. exact F1.
Qed.
Lemma rhe_half N D : 0 < D -> 2 * Z.abs (D * rhe N D - N) <= D.
Proof. intros P. pose proof (rhe_near N D P). lia. Qed.
Lemma round53_err n d k : 0 <= n -> 0 < d -> (inject_Z n / inject_Z d < fval 1 k)%Q -> (Qabs (dval (round53 n d) - inject_Z n / inject_Z d) <= fval 1 (k - 54))%Q.
Proof.
  intros Pn Pd K. assert (C : n = 0 \/ 0 < n) by lia. destruct C as [->|C].
  - assert (E : (dval (round53 0 d) - inject_Z 0 / inject_Z d == 0)%Q) by (change (round53 0 d) with (0, 0); unfold dval; cbn [fst snd]; rewrite fval_zero; unfold Qdiv; ring). rewrite E. change (Qabs 0) with 0%Q. unfold fval. rewrite Qmult_1_l. apply Qlt_le_weak, p2_pos.
  - destruct (round53_spec n d C Pd) as (e & N & D & E & PD & O & L). set (x := (inject_Z n / inject_Z d)%Q) in *. rewrite E. unfold dval. cbn [fst snd].
    assert (EK : e + 52 < k). { apply exp_lt. apply Qle_lt_trans with (2 := K). replace (2 ^ 52) with (1 * 2 ^ 52) in L by lia. rewrite fval_shift in L by lia. exact L. }
    apply Qle_trans with (fval 1 (e - 1)); [|apply fval_mono; lia].
    pose proof (dist_over x N D e (rhe N D) PD O) as DO. pose proof (rhe_half N D PD) as H. apply (Qmult_le_r _ _ (inject_Z D) (iz_pos D PD)). rewrite DO.
    assert (E1 : (fval 1 (e - 1) * inject_Z D == fval D (e - 1))%Q) by (unfold fval; ring). rewrite E1. rewrite (fval_down _ e (e - 1)) by lia. apply fval_le. replace (e - (e - 1)) with 1 by lia. lia.
Qed.
Lemma dquot_err n d k : 0 < d -> (Qabs (inject_Z n / inject_Z d) < fval 1 k)%Q -> (Qabs (dval (dquot n d) - inject_Z n / inject_Z d) <= fval 1 (k - 54))%Q.
Proof.
  intros Pd K. unfold dquot. destruct (Z.ltb_spec n 0) as [N|N].
  - assert (E : (inject_Z (- n) / inject_Z d == - (inject_Z n / inject_Z d))%Q) by (rewrite inject_Z_opp; unfold Qdiv; ring).
    assert (Q1 : (Qabs (inject_Z n / inject_Z d) == inject_Z (- n) / inject_Z d)%Q). { rewrite E. rewrite Qabs_neg; [reflexivity|]. assert (0 <= inject_Z (- n) / inject_Z d)%Q by (apply Qle_shift_div_l; [apply iz_pos, Pd|]; rewrite Qmult_0_l; change 0%Q with (inject_Z 0); rewrite <- Zle_Qle; lia). lra. }
    rewrite Q1 in K. pose proof (round53_err (- n) d k ltac:(lia) Pd K) as R. destruct (round53 (- n) d) as [m e]. unfold dval in *. cbn [fst snd] in *. rewrite fval_opp. rewrite E in R. setoid_replace (- fval m e - inject_Z n / inject_Z d)%Q with (- (fval m e - - (inject_Z n / inject_Z d)))%Q by ring. rewrite Qabs_opp. exact R.
  - apply round53_err; [exact N|exact Pd|]. apply Qle_lt_trans with (2 := K). apply Qle_Qabs.
Qed.
Lemma dround_err m e k : (Qabs (fval m e) < fval 1 k)%Q -> (Qabs (dval (dround m e) - fval m e) <= fval 1 (k - 54))%Q.
Proof.
  intros K. unfold dround. destruct (Z.leb_spec 0 e) as [H|H].
  - assert (E : (inject_Z (m * 2 ^ e) / inject_Z 1 == fval m e)%Q) by (rewrite fval_nonneg by exact H; change (inject_Z 1) with 1%Q; field). rewrite <- E in K |- *. apply dquot_err; [lia|exact K].
  - pose proof (two_pos (- e) ltac:(lia)) as P. assert (E : (inject_Z m / inject_Z (2 ^ (- e)) == fval m e)%Q).
    { pose proof (iz_pos _ P). rewrite <- (fval_int m). setoid_replace (fval m 0) with (fval (m * 2 ^ (- e)) e) by (rewrite fval_shift by lia; replace (e + - e) with 0 by lia; reflexivity). unfold fval. rewrite inject_Z_mult. field. lra. }
    rewrite <- E in K |- *. apply dquot_err; [exact P|exact K].
Qed.
Lemma of_z_exact z : Z.abs z < 2 ^ 53 -> (dval (of_z z) == inject_Z z)%Q.
Proof.
  assert (H : forall z, 0 <= z < 2 ^ 53 -> (dval (round53 z 1) == inject_Z z)%Q).
  { clear z. intros z R. unfold round53. destruct (Z.eqb_spec z 0) as [->|NZ]; [unfold dval; cbn [fst snd]; rewrite fval_zero; reflexivity|].
    assert (L : Z.log2 z < 53) by (apply Z.log2_lt_pow2; lia). pose proof (Z.log2_nonneg z).
    assert (FL : flog z 1 = Z.log2 z). { unfold flog. change (Z.log2 1) with 0. rewrite Z.sub_0_r. replace (0 <=? Z.log2 z) with true by lia. destruct (Z.log2_spec z ltac:(lia)) as [L1 _]. replace (1 * 2 ^ Z.log2 z <=? z) with true by lia. reflexivity. }
    rewrite FL. cbv zeta. destruct (Z.leb_spec 0 (Z.log2 z - 52)) as [E|E].
    - replace (Z.log2 z - 52) with 0 by lia. change (1 * 2 ^ 0) with 1. unfold dval. cbn [fst snd]. rewrite <- (Z.mul_1_r z) at 1. rewrite rhe_exact by lia. apply fval_int.
    - unfold dval. cbn [fst snd]. rewrite <- (Z.mul_1_r (z * _)). rewrite rhe_exact by lia. rewrite fval_shift by lia. replace (Z.log2 z - 52 + - (Z.log2 z - 52)) with 0 by lia. apply fval_int. }
  intros R. unfold of_z, dquot. destruct (Z.ltb_spec z 0) as [N|N]; [|apply H; lia]. specialize (H (- z) ltac:(lia)). destruct (round53 (- z) 1) as [m e]. unfold dval in *. cbn [fst snd] in *. rewrite fval_opp, H, inject_Z_opp. ring.
Qed.
Lemma dadd_exact x y : (let e := Z.min (snd x) (snd y) in fval (fst x * 2 ^ (snd x - e) + fst y * 2 ^ (snd y - e)) e == dval x + dval y)%Q.
Proof.
  cbv zeta. unfold dval. rewrite (fval_down (fst x) (snd x) (Z.min (snd x) (snd y))) by lia. rewrite (fval_down (fst y) (snd y) (Z.min (snd x) (snd y))) by lia. unfold fval. rewrite inject_Z_plus. ring.
Qed.
Lemma dadd_err x y k : (Qabs (dval x + dval y) < fval 1 k)%Q -> (Qabs (dval (dadd x y) - (dval x + dval y)) <= fval 1 (k - 54))%Q.
Proof. intros K. unfold dadd. rewrite <- (dadd_exact x y) in K |- *. apply dround_err, K. Qed.
Lemma dmul_err x y k : (Qabs (dval x * dval y) < fval 1 k)%Q -> (Qabs (dval (dmul x y) - dval x * dval y) <= fval 1 (k - 54))%Q.
Proof. intros K. unfold dmul. assert (E : (fval (fst x * fst y) (snd x + snd y) == dval x * dval y)%Q) by apply fval_mul. rewrite <- E in K |- *. apply dround_err, K. Qed.
Lemma ddiv_err x d k : 0 < d -> (Qabs (dval x / inject_Z d) < fval 1 k)%Q -> (Qabs (dval (ddiv_z x d) - dval x / inject_Z d) <= fval 1 (k - 54))%Q.
Proof.
  intros P K. unfold ddiv_z. pose proof (iz_pos d P) as PD. destruct (Z.leb_spec 0 (snd x)) as [H|H].
  - assert (E : (inject_Z (fst x * 2 ^ snd x) / inject_Z d == dval x / inject_Z d)%Q) by (unfold dval; rewrite fval_nonneg by exact H; reflexivity). rewrite <- E in K |- *. apply dquot_err; assumption.
  - pose proof (two_pos (- snd x) ltac:(lia)) as P2. pose proof (iz_pos _ P2) as P3. assert (E : (inject_Z (fst x) / inject_Z (d * 2 ^ (- snd x)) == dval x / inject_Z d)%Q).
    { unfold dval. rewrite <- (fval_int (fst x)). setoid_replace (fval (fst x) 0) with (fval (fst x * 2 ^ (- snd x)) (snd x)) by (rewrite fval_shift by lia; replace (snd x + - snd x) with 0 by lia; reflexivity). unfold fval. rewrite !inject_Z_mult. field. split; lra. }
    rewrite <- E in K |- *. apply dquot_err; [nia|exact K].
Qed.
Lemma qabs_le x y : (Qabs x <= y)%Q <-> (- y <= x /\ x <= y)%Q.
Proof. apply Qabs_Qle_condition. Qed.
Lemma qabs_lt x y : (Qabs x < y)%Q <-> (- y < x /\ x < y)%Q.
Proof. apply Qabs_Qlt_condition. Qed.
Lemma iz_le a b : a <= b -> (inject_Z a <= inject_Z b)%Q.
Proof. intros H. rewrite <- Zle_Qle. exact H. Qed.
(** Seconds and microseconds added with a product or quotient exact to 2^-52. *)
Lemma total_close s p t : usual t -> (dval s == inject_Z (tv_sec t))%Q -> (Qabs (dval p - inject_Z (tv_usec t) * (1 # 1000000)) <= 1 # 4503599627370496)%Q ->
  (Qabs (dval s + dval p) < fval 1 33)%Q /\ forall x, (Qabs (dval x - (dval s + dval p)) <= fval 1 (-21))%Q -> close_to x (micros t).
Proof.
  intros (S & U & M) ES EP. apply qabs_le in EP. destruct EP as [P1 P2]. rewrite ES. unfold micros in *.
  assert (M' : (inject_Z (tv_sec t) * 1000000 + inject_Z (tv_usec t) <= 8589934592000000 - 1)%Q). { change 1000000%Q with (inject_Z 1000000). change (8589934592000000 - 1)%Q with (inject_Z (2 ^ 33 * 1000000 - 1)). rewrite <- inject_Z_mult, <- inject_Z_plus. apply iz_le. lia. }
  assert (S' : (0 <= inject_Z (tv_sec t))%Q) by (change 0%Q with (inject_Z 0); apply iz_le; lia). assert (U' : (0 <= inject_Z (tv_usec t))%Q) by (change 0%Q with (inject_Z 0); apply iz_le; lia).
  assert (E33 : (fval 1 33 == 8589934592)%Q) by reflexivity. assert (E21 : (fval 1 (-21) == 1 # 2097152)%Q) by reflexivity. split.
  - rewrite E33. apply qabs_lt. lra.
  - intros x X. rewrite E21 in X. apply qabs_le in X. unfold close_to. apply qabs_lt. rewrite inject_Z_plus, inject_Z_mult. change (inject_Z 1000000) with 1000000%Q. lra.
Qed.
Lemma small_exact z : 0 <= z < 2 ^ 33 -> (dval (of_z z) == inject_Z z)%Q.
Proof. intros R. apply of_z_exact. lia. Qed.
Lemma const_micro : (Qabs (dval (const 1 1000000) - (1 # 1000000)) <= 1 # 9444732965739290427392)%Q.
Proof. vm_compute. discriminate. Qed.
Lemma usual_sec t : usual t -> 0 <= tv_sec t < 2 ^ 33.
Proof. intros (S & U & M). unfold micros in M. lia. Qed.
(** Timeval::seconds and timef: the time to less than half a microsecond. *)
Theorem C89_seconds t : usual t -> close_to (seconds t) (micros t).
Proof.
  intros H. pose proof (usual_sec t H) as SR. destruct H as (S & U & M). assert (H : usual t) by (unfold usual; auto).
  pose proof (small_exact (tv_sec t) SR) as ES. pose proof (small_exact (tv_usec t) ltac:(lia)) as EU. pose proof const_micro as C. apply qabs_le in C. destruct C as [C1 C2].
  assert (U0 : (0 <= inject_Z (tv_usec t))%Q) by (change 0%Q with (inject_Z 0); apply iz_le; lia). assert (U1 : (inject_Z (tv_usec t) <= 1000000)%Q) by (change 1000000%Q with (inject_Z 1000000); apply iz_le; lia).
  set (c := dval (const 1 1000000)) in *. set (u := inject_Z (tv_usec t)) in *.
  assert (Y : (- (1 # 9444732965739290427392) * 1000000 <= c * u - u * (1 # 1000000) /\ c * u - u * (1 # 1000000) <= (1 # 9444732965739290427392) * 1000000)%Q) by (split; nra). destruct Y as [Y1 Y2].
  assert (P : (Qabs (dval (dmul (const 1 1000000) (of_z (tv_usec t))) - u * (1 # 1000000)) <= 1 # 4503599627370496)%Q).
  { pose proof (dmul_err (const 1 1000000) (of_z (tv_usec t)) 1) as E. fold c in E. rewrite EU in E. fold u in E. assert (E1 : (fval 1 1 == 2)%Q) by reflexivity. assert (E2 : (fval 1 (1 - 54) == 1 # 9007199254740992)%Q) by reflexivity. rewrite E1, E2 in E.
    assert (B : (Qabs (c * u) < 2)%Q) by (apply qabs_lt; split; lra). specialize (E B). apply qabs_le in E. apply qabs_le. lra. }
  destruct (total_close _ _ t H ES P) as [B X]. unfold seconds. apply X. exact (dadd_err _ _ 33 B).
Qed.
Print Assumptions C89_seconds.
Theorem C89_timef t : usual t -> close_to (timef t) (micros t).
Proof.
  intros H. pose proof (usual_sec t H) as SR. destruct H as (S & U & M). assert (H : usual t) by (unfold usual; auto).
  pose proof (small_exact (tv_sec t) SR) as ES. pose proof (small_exact (tv_usec t) ltac:(lia)) as EU.
  assert (U0 : (0 <= inject_Z (tv_usec t))%Q) by (change 0%Q with (inject_Z 0); apply iz_le; lia). assert (U1 : (inject_Z (tv_usec t) <= 1000000)%Q) by (change 1000000%Q with (inject_Z 1000000); apply iz_le; lia).
  set (u := inject_Z (tv_usec t)) in *.
  assert (P : (Qabs (dval (ddiv_z (of_z (tv_usec t)) 1000000) - u * (1 # 1000000)) <= 1 # 4503599627370496)%Q).
  { pose proof (ddiv_err (of_z (tv_usec t)) 1000000 1 ltac:(lia)) as E. rewrite EU in E. fold u in E. assert (E1 : (fval 1 1 == 2)%Q) by reflexivity. assert (E2 : (fval 1 (1 - 54) == 1 # 9007199254740992)%Q) by reflexivity. rewrite E1, E2 in E.
    change (inject_Z 1000000) with 1000000%Q in E. assert (EQ : (u / 1000000 == u * (1 # 1000000))%Q) by (unfold Qdiv; reflexivity). rewrite EQ in E. assert (B : (Qabs (u * (1 # 1000000)) < 2)%Q) by (apply qabs_lt; split; lra). specialize (E B). apply qabs_le in E. apply qabs_le. lra. }
  destruct (total_close _ _ t H ES P) as [B X]. unfold timef. apply X. pose proof (dadd_err (ddiv_z (of_z (tv_usec t)) 1000000) (of_z (tv_sec t)) 33) as E. rewrite (Qplus_comm (dval (ddiv_z _ _))) in E. exact (E B).
Qed.
Print Assumptions C89_timef.
(** Later times are larger numbers, whichever function gives them; equal numbers are equal times. *)
Lemma close_lt x y a b : close_to x a -> close_to y b -> a < b -> (dval x < dval y)%Q.
Proof.
  intros A B L. unfold close_to in *. apply qabs_lt in A, B. assert (inject_Z a + 1 <= inject_Z b)%Q by (change 1%Q with (inject_Z 1); rewrite <- inject_Z_plus; apply iz_le; lia). lra.
Qed.
Definition read_by (f : timeval -> double) : Prop := f = seconds \/ f = timef.
Lemma read_close f t : read_by f -> usual t -> close_to (f t) (micros t).
Proof. intros [->| ->]; [apply C89_seconds|apply C89_timef]. Qed.
Theorem C89_order f g t u : read_by f -> read_by g -> usual t -> usual u ->
  (micros t < micros u -> (dval (f t) < dval (g u))%Q) /\ ((dval (f t) <= dval (g u))%Q -> micros t <= micros u) /\ ((dval (f t) == dval (g u))%Q -> micros t = micros u).
Proof.
  intros F G T U. pose proof (read_close f t F T) as A. pose proof (read_close g u G U) as B. split; [exact (close_lt _ _ _ _ A B)|].
  assert (D : forall a b x y, close_to x a -> close_to y b -> (dval x <= dval y)%Q -> a <= b) by (intros a b x y XA YB L; destruct (Z.le_gt_cases a b) as [C|C]; [exact C|]; pose proof (close_lt y x b a YB XA C); lra).
  split; [exact (D _ _ _ _ A B)|]. intros E. apply Z.le_antisymm; [apply (D _ _ _ _ A B)|apply (D _ _ _ _ B A)]; lra.
Qed.
Print Assumptions C89_order.
(** The difference of two readings of the clock, to one microsecond; not negative if the clock did not go back. *)
Theorem C89_elapsed f g t u : read_by f -> read_by g -> usual t -> usual u ->
  (Qabs ((dval (g u) - dval (f t)) * 1000000 - inject_Z (micros u - micros t)) < 1)%Q.
Proof.
  intros F G T U. pose proof (read_close f t F T) as A. pose proof (read_close g u G U) as B. unfold close_to in *. apply qabs_lt in A, B. apply qabs_lt. unfold Z.sub. rewrite inject_Z_plus, inject_Z_opp. lra.
Qed.
Print Assumptions C89_elapsed.

(** ** Printing *)
Lemma rhe_unique n d j : 0 < d -> 2 * Z.abs (d * j - n) < d -> rhe n d = j.
Proof. intros P H. pose proof (rhe_best n d j P) as B. assert (Z.abs (d * (rhe n d - j)) < d) by (replace (d * (rhe n d - j)) with ((d * rhe n d - n) - (d * j - n)) by ring; lia). rewrite Z.abs_mul, (Z.abs_eq d) in H0 by lia. nia. Qed.
Lemma units_close x us : close_to x us -> units 6 x = us.
Proof.
  intros C. unfold close_to in C. unfold units. change (10 ^ Z.of_nat 6) with 1000000. destruct x as [m e]. cbn [fst snd dval] in *. unfold dval in C. cbn [fst snd] in C. destruct (Z.leb_spec 0 e) as [H|H].
  - apply whole_eq. rewrite fval_nonneg in C by exact H. rewrite inject_Z_mult. change (inject_Z 1000000) with 1000000%Q. apply qabs_lt in C. apply qabs_lt. lra.
  - pose proof (two_pos (- e) ltac:(lia)) as P. apply rhe_unique; [exact P|]. pose proof (iz_pos _ P) as P'.
    assert (E : (fval m e * inject_Z (2 ^ (- e)) == inject_Z m)%Q) by (rewrite <- (fval_int m); replace 0 with (e + - e) by lia; rewrite <- fval_shift by lia; unfold fval; rewrite inject_Z_mult; ring).
    rewrite Zlt_Qlt, inject_Z_mult. rewrite <- (fval_int (Z.abs _)), <- fval_abs, fval_int. unfold Z.sub. rewrite inject_Z_plus, inject_Z_opp, !inject_Z_mult, <- E. change (inject_Z 1000000) with 1000000%Q. change (inject_Z 2) with 2%Q. set (w := inject_Z (2 ^ (- e))) in *. set (v := fval m e) in *. set (j := inject_Z us) in *.
    setoid_replace (w * j + - (v * w * 1000000))%Q with (- ((v * 1000000 - j) * w))%Q by ring. rewrite Qabs_opp, Qabs_Qmult, (Qabs_pos w) by lra. nra.
Qed.
(** Six digits. *)
Definition six (n : Z) (s : list Z) : Prop := exists ds, length s = 6%nat /\ digit_string 10 ds s /\ positional 10 ds = n.
Lemma zeros_digits k : digit_string 10 (repeat 0 k) (repeat 48 k).
Proof. induction k as [|k IH]; [constructor|]. cbn [repeat]. constructor; [split; [lia|unfold char_of_digit; lia]|exact IH]. Qed.
Lemma digit_string_app l s l' s' : digit_string 10 l s -> digit_string 10 l' s' -> digit_string 10 (l ++ l') (s ++ s').
Proof. intros A B. induction A as [|d c l s H A IH]; [exact B|]. cbn [app]. constructor; [exact H|exact IH]. Qed.
Lemma positional_zeros k ds : positional 10 (repeat 0 k ++ ds) = positional 10 ds.
Proof. induction k as [|k IH]; [reflexivity|]. cbn [repeat app positional]. rewrite IH. lia. Qed.
Lemma dec_digits_len fuel : forall n k, 0 <= n < 10 ^ Z.of_nat k -> (0 < k)%nat -> (length (dec_digits fuel n) <= k)%nat.
Proof.
  induction fuel as [|fuel IH]; intros n k R K; [cbn; lia|]. cbn [dec_digits]. rewrite app_length. change (length [48 + n mod 10]) with 1%nat. destruct (Z.ltb_spec n 10) as [H|H]; [cbn [length]; lia|].
  destruct k as [|k]; [lia|]. assert (0 < k)%nat by (destruct k; [change (10 ^ Z.of_nat 1) with 10 in R; lia|lia]). rewrite Nat2Z.inj_succ, Z.pow_succ_r in R by lia. specialize (IH (n / 10) k ltac:(lia) ltac:(lia)). lia.
Qed.
Lemma pad0_six n : 0 <= n < 1000000 -> six n (pad0 6 n).
Proof.
  intros R. unfold pad0. replace (n <? 0) with false by lia. rewrite Z.abs_eq by lia. cbn [app].
  assert (P20 : 1000000 < 10 ^ Z.of_nat 20) by reflexivity. destruct (dec_digits_spec 20 n ltac:(lia) ltac:(lia)) as (d & ds & D & V & _). pose proof (dec_digits_len 20 n 6 ltac:(change (10 ^ Z.of_nat 6) with 1000000; lia) ltac:(lia)) as L.
  exists (repeat 0 (6 - length (dec_digits 20 n)) ++ d :: ds). split; [rewrite app_length, repeat_length; lia|]. split; [apply digit_string_app; [apply zeros_digits|exact D]|rewrite positional_zeros; exact V].
Qed.
(** A stream with the usual precision shows seconds, a point and the six digits of the microseconds. *)
Theorem C89_print os t : usual t -> precision os = 6%nat -> exists f, six (micros t mod 1000000) f /\
  put_timeval os t = Stream (written os ++ sprintf_ld (micros t / 1000000) ++ lit "." ++ f) 6 true.
Proof.
  intros U P. pose proof (units_close _ _ (C89_seconds t U)) as N. destruct U as (S & V & M). assert (P0 : 0 <= micros t) by (unfold micros; lia).
  exists (pad0 6 (micros t mod 1000000)). split; [apply pad0_six; lia|]. unfold put_timeval, put. cbn [written precision is_fixed]. rewrite P. unfold fixed_text. rewrite N. cbv zeta. replace (micros t <? 0) with false by lia. rewrite (Z.abs_eq (micros t)) by lia. reflexivity.
Qed.
Print Assumptions C89_print.
(** With another precision it is the nearest number with so many digits. *)
Theorem C89_digits p x : (2 * Qabs (inject_Z (units p x) - dval x * inject_Z (10 ^ Z.of_nat p)) <= 1)%Q.
Proof.
  destruct x as [m e]. unfold units, dval. cbn [fst snd]. destruct (Z.leb_spec 0 e) as [H|H].
  - rewrite fval_nonneg by exact H. rewrite <- inject_Z_mult. setoid_replace (inject_Z (m * 2 ^ e * 10 ^ Z.of_nat p) - inject_Z (m * 2 ^ e * 10 ^ Z.of_nat p))%Q with 0%Q by ring. vm_compute. discriminate.
  - pose proof (two_pos (- e) ltac:(lia)) as P. pose proof (iz_pos _ P) as P'. set (T := 10 ^ Z.of_nat p). pose proof (rhe_half (m * T) (2 ^ (- e)) P) as R.
    assert (E : (fval m e * inject_Z (2 ^ (- e)) == inject_Z m)%Q) by (rewrite <- (fval_int m); replace 0 with (e + - e) by lia; rewrite <- fval_shift by lia; unfold fval; rewrite inject_Z_mult; ring).
    rewrite Zle_Qle, inject_Z_mult in R. rewrite <- (fval_int (Z.abs _)), <- fval_abs, fval_int in R. unfold Z.sub in R. rewrite inject_Z_plus, inject_Z_opp, !inject_Z_mult, <- E in R. change (inject_Z 2) with 2%Q in R. set (w := inject_Z (2 ^ (- e))) in *. set (v := fval m e) in *. set (j := inject_Z (rhe (m * T) (2 ^ (- e)))) in *. set (q := inject_Z T) in *.
    assert (EQ : (w * j + - (v * w * q) == (j - v * q) * w)%Q) by ring. rewrite EQ, Qabs_Qmult, (Qabs_pos w) in R by lra. apply (Qmult_le_r _ _ w P'). lra.
Qed.
Print Assumptions C89_digits.
Theorem C89_timespec os t : put_timespec os (timespec t) = Stream (written os ++ sprintf_ld (tv_sec t) ++ lit "," ++ sprintf_ld (1000 * tv_usec t)) (precision os) (is_fixed os).
Proof. unfold put_timespec, put, timespec. cbn [written precision is_fixed fst snd]. rewrite <- !app_assoc. reflexivity. Qed.
Print Assumptions C89_timespec.
(** Defects: from 2^33 seconds on the microseconds are lost; the stream keeps the fixed format. *)
Theorem C89_limit_refuted : written (put_timeval (Stream [] 6 false) (TV (2 ^ 33) 1)) = lit "8589934592.000002" /\ written (put_timeval (Stream [] 6 false) (TV (2 ^ 34) 1)) = lit "17179869184.000000".
Proof. split; vm_compute; reflexivity. Qed.
Print Assumptions C89_limit_refuted.
Theorem C89_stream_refuted t : is_fixed (Stream [] 6 false) = false /\ is_fixed (put_timeval (Stream [] 6 false) t) = true.
Proof. split; reflexivity. Qed.
Print Assumptions C89_stream_refuted.

(** ** Sleeping *)
Lemma dle_spec x y : dle x y = true <-> (dval x <= dval y)%Q.
Proof.
  unfold dle, dval. rewrite Z.leb_le. set (e := Z.min (snd x) (snd y)). rewrite (fval_down (fst x) (snd x) e) by lia. rewrite (fval_down (fst y) (snd y) e) by lia. symmetry. apply fval_le.
Qed.
Lemma tick : (Qabs (dval (const 1 100000) - (1 # 100000)) <= 1 # 1180591620717411303424)%Q.
Proof. vm_compute. discriminate. Qed.
Lemma truncate_spec x z : truncate x = z -> (0 <= dval x)%Q -> (inject_Z z <= dval x)%Q /\ (dval x < inject_Z z + 1)%Q.
Proof.
  intros <- N. change (truncate x) with (ztrunc (fst x) (snd x)). destruct (trunc_near (fst x) (snd x)) as [A B]. fold (dval x) in A, B. rewrite (Qabs_pos (dval x)) in B by exact N. apply qabs_lt in A. apply qabs_le in B. split; [lra|lra].
Qed.
(** The power of two just above a positive number. *)
Lemma exponent_of x : (0 < dval x)%Q -> exists k, (fval 1 (k - 1) <= dval x)%Q /\ (dval x < fval 1 k)%Q.
Proof.
  intros P. destruct x as [m e]. unfold dval in *. cbn [fst snd] in *. assert (M : 0 < m) by (apply (fval_lt 0 m e); rewrite fval_zero; exact P). destruct (Z.log2_spec m M) as [L1 L2]. pose proof (Z.log2_nonneg m). unfold Z.succ in L2.
  exists (e + (Z.log2 m + 1)). split.
  - replace (e + (Z.log2 m + 1) - 1) with (e + Z.log2 m) by lia. rewrite <- fval_shift by lia. apply fval_le. lia.
  - rewrite <- fval_shift by lia. apply fval_lt. lia.
Qed.
Lemma million_x x : exists y, (dval y == dval x * 1000000)%Q.
Proof. exists (fst x * 1000000, snd x). unfold dval, fval. cbn [fst snd]. rewrite inject_Z_mult. change (inject_Z 1000000) with 1000000%Q. ring. Qed.
Definition million : (dval (of_z 1000000) == 1000000)%Q := of_z_exact 1000000 eq_refl.
(** Up to ten microseconds it does not sleep; then for the time asked for, to little more than one
    microsecond; from 2^32 microseconds on it is undefined.  A tenth of a nanosecond around the limits
    is left open. *)
Theorem C89_sleepf x : let us := (dval x * 1000000)%Q in
  ((us <= 10 - (1 # 10000))%Q -> sleepf (Number x) = Ok None) /\
  ((10 + (1 # 10000) <= us)%Q -> (us < 4294967296 - (1 # 10000))%Q -> exists n, sleepf (Number x) = Ok (Some n) /\ (- (1 + (1 # 1000000)) < inject_Z n - us)%Q /\ (inject_Z n - us < 1 # 1000000)%Q) /\
  ((4294967296 + (1 # 10000) <= us)%Q -> sleepf (Number x) = UB).
Proof.
  intros us. pose proof tick as T. apply qabs_le in T. destruct T as [T1 T2]. assert (SM : forall k, (- fval 1 k < dval (of_z 1000000) * dval x)%Q -> (dval (of_z 1000000) * dval x < fval 1 k)%Q -> (Qabs (dval (dmul (of_z 1000000) x) - us) <= fval 1 (k - 54))%Q).
  { intros k B1 B2. pose proof (dmul_err (of_z 1000000) x k ltac:(apply qabs_lt; split; assumption)) as E. rewrite million in E. unfold us. rewrite (Qmult_comm (dval x)). exact E. }
  assert (EQ : (dval (of_z 1000000) * dval x == us)%Q) by (rewrite million; unfold us; ring). setoid_rewrite EQ in SM. unfold sleepf. split; [|split].
  - intros H. assert (D : dle x (const 1 100000) = true) by (apply dle_spec; unfold us in H; lra). rewrite D. reflexivity.
  - intros L H. assert (D : dle x (const 1 100000) = false) by (apply Bool.not_true_iff_false; rewrite dle_spec; unfold us in L; lra). rewrite D.
    specialize (SM 32). assert (E1 : (fval 1 32 == 4294967296)%Q) by reflexivity. assert (E2 : (fval 1 (32 - 54) == 1 # 4194304)%Q) by reflexivity. rewrite E1, E2 in SM. specialize (SM ltac:(lra) ltac:(lra)). apply qabs_le in SM.
    destruct (truncate_spec (dmul (of_z 1000000) x) _ eq_refl ltac:(lra)) as [A B]. set (z := truncate (dmul (of_z 1000000) x)) in *. unfold to_unsigned. fold z.
    assert (Z1 : 0 <= z). { assert (-1 < z); [|lia]. rewrite Zlt_Qlt. change (inject_Z (-1)) with (-1)%Q. lra. }
    assert (Z2 : z < 2 ^ 32). { rewrite Zlt_Qlt. change (inject_Z (2 ^ 32)) with 4294967296%Q. lra. }
    replace ((0 <=? z) && (z <? 2 ^ 32)) with true by lia. cbn [bind]. exists z. split; [reflexivity|]. split; lra.
  - intros L. assert (D : dle x (const 1 100000) = false) by (apply Bool.not_true_iff_false; rewrite dle_spec; unfold us in L; lra). rewrite D.
    assert (P : (4294967296 <= dval (dmul (of_z 1000000) x))%Q).
    { destruct (million_x x) as (y & Y). fold us in Y. destruct (exponent_of y ltac:(lra)) as (k & K1 & K2). rewrite Y in K1, K2. assert (B : (- fval 1 k < us)%Q) by lra. specialize (SM k B K2). apply qabs_le in SM.
      assert (E : (fval 1 (k - 54) == fval 1 (k - 1) * (1 # 9007199254740992))%Q) by (pose proof (fval_mul 1 (-53) 1 (k - 1)) as F; change (1 * 1) with 1 in F; replace (-53 + (k - 1)) with (k - 54) in F by lia; rewrite F, Qmult_comm; reflexivity). rewrite E in SM. lra. }
    unfold to_unsigned. destruct (truncate_spec (dmul (of_z 1000000) x) _ eq_refl ltac:(lra)) as [A B]. set (z := truncate (dmul (of_z 1000000) x)) in *.
    assert (Z2 : 2 ^ 32 <= z). { assert (2 ^ 32 - 1 < z); [|lia]. rewrite Zlt_Qlt. change (inject_Z (2 ^ 32 - 1)) with 4294967295%Q. lra. }
    replace ((0 <=? z) && (z <? 2 ^ 32)) with false by lia. reflexivity.
Qed.
Print Assumptions C89_sleepf.
(** A sleep of n microseconds, written as n/1000000, lasts n microseconds or one less. *)
Theorem C89_sleepf_whole n : 11 <= n < 2 ^ 32 -> sleepf (Number (dquot n 1000000)) = Ok (Some n) \/ sleepf (Number (dquot n 1000000)) = Ok (Some (n - 1)).
Proof.
  intros R. set (x := dquot n 1000000). assert (X : (Qabs (dval x - inject_Z n / inject_Z 1000000) <= fval 1 (13 - 54))%Q).
  { apply dquot_err; [lia|]. rewrite Qabs_pos by (unfold Qdiv; apply Qmult_le_0_compat; [change 0%Q with (inject_Z 0); rewrite <- Zle_Qle; lia|discriminate]). assert (B : (inject_Z n < 4294967296)%Q) by (change 4294967296%Q with (inject_Z 4294967296); rewrite <- Zlt_Qlt; lia). assert (E : (inject_Z n / inject_Z 1000000 == inject_Z n * (1 # 1000000))%Q) by reflexivity. rewrite E. assert (F : (fval 1 13 == 8192)%Q) by reflexivity. rewrite F. lra. }
  assert (E : (inject_Z n / inject_Z 1000000 == inject_Z n * (1 # 1000000))%Q) by reflexivity. assert (F : (fval 1 (13 - 54) == 1 # 2199023255552)%Q) by reflexivity. rewrite E, F in X. apply qabs_le in X.
  assert (B1 : (11 <= inject_Z n)%Q) by (change 11%Q with (inject_Z 11); rewrite <- Zle_Qle; lia). assert (B2 : (inject_Z n <= 4294967295)%Q) by (change 4294967295%Q with (inject_Z 4294967295); rewrite <- Zle_Qle; lia).
  destruct (C89_sleepf x) as (_ & H & _). destruct H as (z & -> & Z1 & Z2); [lra|lra|].
  assert (A1 : n - 2 < z) by (rewrite Zlt_Qlt; unfold Z.sub; rewrite inject_Z_plus; change (inject_Z (- (2))) with (-2)%Q; lra).
  assert (A2 : z < n + 1) by (rewrite Zlt_Qlt, inject_Z_plus; change (inject_Z 1) with 1%Q; lra).
  assert (C : z = n \/ z = n - 1) by lia. destruct C as [->| ->]; [left|right]; reflexivity.
Qed.
Print Assumptions C89_sleepf_whole.
(** Defect: it can be one less, 0.000249 seconds sleeps 248 microseconds. *)
Theorem C89_sleepf_refuted : sleepf (Number (dquot 249 1000000)) = Ok (Some 248) /\ sleepf (Infinite false) = UB /\ sleepf NotANumber = UB.
Proof. split; [vm_compute; reflexivity|]. split; reflexivity. Qed.
Print Assumptions C89_sleepf_refuted.
(** Milliseconds: exact up to 4294967, then what is left of the product modulo 2^32. *)
Theorem C89_msleep v : (0 <= v <= 4294967 -> msleep v = Ok (1000 * v)) /\ (forall us, msleep v = Ok us -> 0 <= us < 2 ^ 32 /\ exists k, us = 1000 * v + k * 2 ^ 32) /\ (- 2 ^ 63 <= 1000 * v < 2 ^ 63 <-> msleep v <> UB).
Proof.
  unfold msleep. split; [|split].
  - intros R. replace ((- 2 ^ 63 <=? v * 1000) && (v * 1000 <? 2 ^ 63)) with true by lia. rewrite Z.mod_small by lia. f_equal. lia.
  - intros us H. destruct ((- 2 ^ 63 <=? v * 1000) && (v * 1000 <? 2 ^ 63)); [|discriminate]. apply Ok_inj in H. subst us. split; [apply Z.mod_pos_bound; lia|]. exists (- (v * 1000 / 2 ^ 32)). pose proof (Z.div_mod (v * 1000) (2 ^ 32) ltac:(lia)). lia.
  - destruct ((- 2 ^ 63 <=? v * 1000) && (v * 1000 <? 2 ^ 63)) eqn:B; split; intros H; try discriminate; try lia; try congruence.
Qed.
Print Assumptions C89_msleep.
Theorem C89_msleep_refuted : msleep 4294968 = Ok 704 /\ msleep (-1) = Ok 4294966296.
Proof. split; reflexivity. Qed.
Print Assumptions C89_msleep_refuted.
Example C89_ex : written (put_timeval (Stream (lit "at ") 6 false) (TV 1700000000 123456)) = lit "at 1700000000.123456" /\ sleepf (Number (const 15 10)) = Ok (Some 1500000) /\ sleepf (Number (const 1 100000)) = Ok None /\ msleep 250 = Ok 250000.
Proof. split; [vm_compute; reflexivity|]. split; [vm_compute; reflexivity|]. split; vm_compute; reflexivity. Qed.
