(** Lemmas on getEnergy and getSNR. *)
From Verif Require Import Base BaseFacts F16Model F16Float F16Spec F16FloatProofs SoftModel.
From Coq Require Import QArith Qabs Qminmax Qpower Lqa.
From Verif Require F16FloatProps.
Local Open Scope Z_scope.

(** ** Rounding errors *)
Definition within (u h y x : Q) : Prop := (Qabs (y - x) <= u * Qabs x + h)%Q.
Lemma within_pos u h y x : (0 <= x)%Q -> within u h y x <-> (x - (u * x + h) <= y <= x + (u * x + h))%Q.
Proof.
  intros P. unfold within. rewrite Qabs_Qle_condition, (Qabs_pos x P). split; intros [A B]; split; lra.
Qed.
Definition eps24 : Q := 1 # 16777216.
Definition eps53 : Q := 1 # 9007199254740992.
Definition eta : Q := 1 # 549755813888.
Lemma rnd_within M z : (Qabs (fval M z) < fval 1 100)%Q -> exists m e, rnd M z = Fin m e /\ single (Fin m e) /\ within eps24 eta (fval m e) (fval M z) /\ (0 <= M -> 0 <= m).
Proof.
  intros B. destruct (Z.eq_dec M 0) as [->|N].
  { exists 0, 0. split; [reflexivity|]. split; [cbn; lia|]. split; [unfold within; rewrite !fval_zero; discriminate|lia]. }
  destruct (rnd_fin M z (log2_bound M z N B)) as (m & e & R). exists m, e. split; [exact R|]. split; [pose proof (rnd_single M z) as S; rewrite R in S; exact S|].
  destruct (rnd_close M z m e R) as [C X]. split.
  - unfold within, eps24, eta. destruct C as [C|[C1 C2]]; [lra|]. pose proof (Qabs_triangle (fval m e) (- fval M z)) as T. rewrite Qabs_opp in T.
    setoid_replace (fval m e - fval M z)%Q with (fval m e + - fval M z)%Q by ring. pose proof (Qabs_nonneg (fval M z)). lra.
  - intros P. unfold rnd in R. destruct (Z.ltb_spec M 0); [lia|]. destruct (rnd_pos_val M z m e P R) as (W & FW & W0 & _).
    rewrite <- (fval_le 0 m e), fval_zero, FW, <- (fval_zero z). apply fval_le. exact W0.
Qed.
Lemma rnd53_within M z : exists m e, rnd53 M z = Fin m e /\ within eps53 0 (fval m e) (fval M z) /\ (0 <= M -> 0 <= m).
Proof.
  unfold rnd53. destruct (Z.eqb_spec M 0) as [->|N].
  { exists 0, 0. split; [reflexivity|]. split; [unfold within; rewrite !fval_zero; discriminate|lia]. }
  set (k := Z.log2 (Z.abs M) - 52). destruct (Z.leb_spec k 0) as [K|K].
  { exists M, z. split; [reflexivity|]. split; [|lia]. unfold within. setoid_replace (fval M z - fval M z)%Q with 0%Q by ring. change (Qabs 0) with 0%Q. pose proof (Qabs_nonneg (fval M z)). unfold eps53. lra. }
  exists (rhe M (2 ^ k)), (z + k). split; [reflexivity|]. pose proof (two_pos k ltac:(lia)) as Pk. pose proof (rhe_near M (2 ^ k) Pk) as RN. set (r := rhe M (2 ^ k)) in *.
  pose proof (Z.log2_spec (Z.abs M) ltac:(lia)) as [L1 L2]. replace (Z.log2 (Z.abs M)) with (k + 52) in L1 by lia. rewrite two_add in L1 by lia. split.
  - unfold within. rewrite <- fval_shift by lia. rewrite fval_sub, !fval_abs, Qplus_0_r. unfold eps53. apply frac_le. change (Z.pos 9007199254740992) with (2 * 2 ^ 52). nia.
  - intros P. nia.
Qed.
Lemma fval_add2 m x n y : (fval (m * 2 ^ (x - Z.min x y) + n * 2 ^ (y - Z.min x y)) (Z.min x y) == fval m x + fval n y)%Q.
Proof.
  set (z := Z.min x y). rewrite (fval_down m x z), (fval_down n y z) by lia. unfold fval. rewrite inject_Z_plus. ring.
Qed.
Lemma fval_ge0 m e : (0 <= fval m e)%Q <-> 0 <= m.
Proof. rewrite <- (fval_zero e). apply fval_le. Qed.
Lemma dadd_within m x n y : exists a b, dadd (Fin m x) (Fin n y) = Fin a b /\ within eps53 0 (fval a b) (fval m x + fval n y) /\ ((0 <= fval m x + fval n y)%Q -> 0 <= a).
Proof.
  unfold dadd. destruct (rnd53_within (m * 2 ^ (x - Z.min x y) + n * 2 ^ (y - Z.min x y)) (Z.min x y)) as (a & b & E & W & P). exists a, b. split; [exact E|]. unfold within in *. rewrite fval_add2 in W. split; [exact W|].
  intros H. apply P. rewrite <- (fval_add2 m x n y) in H. apply fval_ge0 in H. exact H.
Qed.
Lemma dsub_within m x n y : exists a b, dsub (Fin m x) (Fin n y) = Fin a b /\ within eps53 0 (fval a b) (fval m x - fval n y) /\ ((0 <= fval m x - fval n y)%Q -> 0 <= a).
Proof.
  unfold dsub. cbn [fneg]. destruct (dadd_within m x (- n) y) as (a & b & E & W & P). exists a, b. split; [exact E|]. unfold within in *. rewrite fval_opp in W, P. auto.
Qed.
Lemma dmul_within m x n y : exists a b, dmul (Fin m x) (Fin n y) = Fin a b /\ within eps53 0 (fval a b) (fval m x * fval n y) /\ ((0 <= fval m x * fval n y)%Q -> 0 <= a).
Proof.
  unfold dmul. destruct (rnd53_within (m * n) (x + y)) as (a & b & E & W & P). exists a, b. split; [exact E|]. unfold within in *. rewrite fval_mul in W. split; [exact W|].
  intros H. apply P. rewrite <- fval_mul in H. apply fval_ge0 in H. exact H.
Qed.
Lemma fadd_within m x n y : (Qabs (fval m x + fval n y) < fval 1 100)%Q -> exists a b, fadd (Fin m x) (Fin n y) = Fin a b /\ single (Fin a b) /\ within eps24 eta (fval a b) (fval m x + fval n y) /\ ((0 <= fval m x + fval n y)%Q -> 0 <= a).
Proof.
  intros B. unfold fadd. rewrite <- fval_add2 in B. destruct (rnd_within _ _ B) as (a & b & E & S & W & P). exists a, b. split; [exact E|]. split; [exact S|]. unfold within in *. rewrite fval_add2 in W. split; [exact W|].
  intros H. apply P. rewrite <- (fval_add2 m x n y) in H. apply fval_ge0 in H. exact H.
Qed.
Lemma fmul_within m x n y : (Qabs (fval m x * fval n y) < fval 1 100)%Q -> exists a b, fmul (Fin m x) (Fin n y) = Fin a b /\ single (Fin a b) /\ within eps24 eta (fval a b) (fval m x * fval n y) /\ ((0 <= fval m x * fval n y)%Q -> 0 <= a).
Proof.
  intros B. unfold fmul. rewrite <- fval_mul in B. destruct (rnd_within _ _ B) as (a & b & E & S & W & P). exists a, b. split; [exact E|]. split; [exact S|]. unfold within in *. rewrite fval_mul in W. split; [exact W|].
  intros H. apply P. rewrite <- fval_mul in H. apply fval_ge0 in H. exact H.
Qed.
Lemma flt_spec m e n f : flt (Fin m e) (Fin n f) = true <-> (fval m e < fval n f)%Q.
Proof. unfold flt. rewrite F16FloatProps.fcompare_spec. rewrite Qlt_alt. destruct (fval m e ?= fval n f)%Q; split; intros H; congruence. Qed.
Lemma flt_false m e n f : flt (Fin m e) (Fin n f) = false <-> (fval n f <= fval m e)%Q.
Proof. split; intros H; [apply Qnot_lt_le; intros L; apply flt_spec in L; congruence|]. destruct (flt (Fin m e) (Fin n f)) eqn:E; [|reflexivity]. apply flt_spec in E. exfalso. apply (Qlt_not_le _ _ E H). Qed.
Lemma within_abs u h y x b : within u h y x -> (Qabs x <= b)%Q -> (0 <= u)%Q -> (Qabs y <= b + (u * b + h))%Q.
Proof.
  intros W B U. unfold within in W. pose proof (Qabs_triangle (y - x) x) as T. setoid_replace (y - x + x)%Q with y in T by ring. assert (u * Qabs x <= u * b)%Q by (apply Qmult_le_compat_nonneg; split; auto using Qabs_nonneg, Qle_refl). lra.
Qed.
Definition v_half : (fval 1 (-1) == 1 # 2)%Q. Proof. reflexivity. Qed.
Definition v_one : (fval 1 0 == 1)%Q. Proof. reflexivity. Qed.
Definition v_big : (fval 1 100 == 1267650600228229401496703205376)%Q. Proof. reflexivity. Qed.

(** ** One turn of each loop *)
Definition soft (f : float) : Prop := match f with Fin m e => (0 <= fval m e <= 1)%Q | _ => False end.
Definition qv (f : float) : Q := match f with Fin m e => fval m e | _ => 0 end.
Definition sq (x : Q) : Q := x * x.
Definition dist (b : Q) : Q := Qmin b (1 - b).
Global Instance sq_comp : Proper (Qeq ==> Qeq) sq. Proof. intros x y H. unfold sq. rewrite H. reflexivity. Qed.
Global Instance within_comp : Proper (Qeq ==> Qeq ==> Qeq ==> Qeq ==> iff) within.
Proof. intros u u' U h h' H y y' Y x x' X. unfold within. rewrite U, H, Y, X. reflexivity. Qed.
Definition eps : Q := 1 # 16000000.

Lemma sq_dist b : (0 <= b <= 1)%Q -> (0 <= sq (dist b) <= 1 # 4)%Q.
Proof.
  intros H. unfold dist, sq. destruct (Qlt_le_dec b (1 # 2)) as [L|L].
  - rewrite Q.min_l by lra. nra.
  - rewrite Q.min_r by lra. nra.
Qed.
Lemma noise_step_spec m e bit : soft bit -> 0 <= m -> (fval m e <= 1000000000)%Q ->
  exists m' e', noise_step (Fin m e) bit = Fin m' e' /\ single (Fin m' e') /\ 0 <= m' /\
    within eps eta (fval m' e') (fval m e + sq (dist (qv bit))).
Proof.
  intros S M B. destruct bit as [a b| |]; try contradiction. cbn [soft qv] in *. apply fval_ge0 with (e := e) in M.
  assert (D : exists x y, (if flt (Fin a b) half then dsub (Fin a b) zero else dsub (Fin a b) one) = Fin x y /\
     (sq (dist (fval a b)) * (1 - 3 * eps53) <= sq (fval x y) <= sq (dist (fval a b)) * (1 + 3 * eps53))%Q).
  { assert (G : forall X Y, within eps53 0 Y X -> (sq X * (1 - 3 * eps53) <= sq Y <= sq X * (1 + 3 * eps53))%Q).
    { intros X Y W. unfold within, eps53 in *. unfold sq. rewrite Qplus_0_r in W.
      assert (SX : (X * X == Qabs X * Qabs X)%Q) by (rewrite <- Qabs_Qmult; rewrite Qabs_pos; [reflexivity|nra]). pose proof (Qabs_nonneg X) as P.
      apply Qabs_Qle_condition in W. rewrite SX. set (P0 := Qabs X) in *. assert (C : (X == P0 \/ X == - P0)%Q). { unfold P0. destruct (Qlt_le_dec X 0) as [L|L]; [right; rewrite Qabs_neg by lra; ring|left; rewrite Qabs_pos by lra; ring]. } clearbody P0.
      destruct C as [C|C]; rewrite C in W; split; nra. }
    unfold dist. destruct (flt (Fin a b) half) eqn:F; unfold half, zero, one in *.
    - apply flt_spec in F. rewrite v_half in F. destruct (dsub_within a b 0 0) as (x & y & E & W & _). exists x, y. split; [exact E|]. rewrite Q.min_l by lra. setoid_replace (fval a b - fval 0 0)%Q with (fval a b) in W by (rewrite fval_zero; ring). apply G, W.
    - apply flt_false in F. rewrite v_half in F. destruct (dsub_within a b 1 0) as (x & y & E & W & _). exists x, y. split; [exact E|]. rewrite Q.min_r by lra.
      rewrite v_one in W. apply G in W. unfold sq in *. setoid_replace ((1 - fval a b) * (1 - fval a b))%Q with ((fval a b - 1) * (fval a b - 1))%Q by ring. exact W. }
  destruct D as (x & y & ED & WD). pose proof (sq_dist _ S) as T. set (t := sq (dist (fval a b))) in *. clearbody t.
  unfold noise_step. rewrite ED. destruct (dmul_within x y x y) as (p & q & EP & WP & PP). rewrite EP.
  assert (SX : (0 <= fval x y * fval x y)%Q) by nra. specialize (PP SX). apply within_pos in WP; [|exact SX]. fold (sq (fval x y)) in WP. set (d2 := sq (fval x y)) in *. clearbody d2. apply fval_ge0 with (e := q) in PP.
  set (P := fval p q) in *. unfold eps53 in *.
  destruct (dadd_within m e p q) as (s & z & ES & WS & PS). rewrite ES. fold P in WS, PS. assert (S0 : (0 <= fval m e + P)%Q) by lra. specialize (PS S0). apply within_pos in WS; [|exact S0]. unfold eps53 in WS.
  unfold f_of_double. apply fval_ge0 with (e := z) in PS. destruct (rnd_within s z) as (m' & e' & E & SG & W & PF).
  { rewrite Qabs_pos by exact PS. rewrite v_big. unfold P in *. lra. }
  exists m', e'. split; [exact E|]. split; [exact SG|]. split; [apply PF; apply fval_ge0 in PS; exact PS|]. apply within_pos; [lra|]. apply within_pos in W; [|exact PS]. unfold eps24, eta, eps in *. lra.
Qed.

Definition conf (b : Q) : Q := Qabs (2 * b - 1).
Lemma energy_spec bit : soft bit -> exists m e, energy bit = Fin m e /\ single (Fin m e) /\ 0 <= m /\ within eps eta (fval m e) (conf (qv bit)) /\ (0 <= conf (qv bit) <= 1)%Q.
Proof.
  intros S. destruct bit as [a b| |]; try contradiction. cbn [soft qv] in *.
  assert (D : exists x y, (if flt (Fin a b) half then dsub half (Fin a b) else dsub (Fin a b) half) = Fin x y /\ 0 <= x /\ within eps53 0 (fval x y) ((1 # 2) * conf (fval a b))).
  { unfold conf. destruct (flt (Fin a b) half) eqn:F; unfold half in *.
    - apply flt_spec in F. rewrite v_half in F. destruct (dsub_within 1 (-1) a b) as (x & y & E & W & P). exists x, y. split; [exact E|]. rewrite v_half in *. split; [apply P; lra|]. unfold within in *.
      rewrite (Qabs_neg (2 * fval a b - 1)) by lra. setoid_replace ((1 # 2) * - (2 * fval a b - 1))%Q with ((1 # 2) - fval a b)%Q by ring. exact W.
    - apply flt_false in F. rewrite v_half in F. destruct (dsub_within a b 1 (-1)) as (x & y & E & W & P). exists x, y. split; [exact E|]. rewrite v_half in *. split; [apply P; lra|]. unfold within in *.
      rewrite (Qabs_pos (2 * fval a b - 1)) by lra. setoid_replace ((1 # 2) * (2 * fval a b - 1))%Q with (fval a b - (1 # 2))%Q by ring. exact W. }
  assert (C : (0 <= conf (fval a b) <= 1)%Q). { unfold conf. split; [apply Qabs_nonneg|]. apply Qabs_Qle_condition. lra. }
  set (c := conf (fval a b)) in *. clearbody c. destruct D as (x & y & ED & X0 & W). unfold energy. rewrite ED. apply within_pos in W; [|lra]. apply fval_ge0 with (e := y) in X0.
  destruct (dmul_within 2 0 x y) as (s & z & ES & WS & PS). rewrite ES. change (fval 2 0) with (2 * 1)%Q in WS, PS. assert (S0 : (0 <= 2 * 1 * fval x y)%Q) by lra. specialize (PS S0). apply within_pos in WS; [|exact S0].
  unfold f_of_double. apply fval_ge0 with (e := z) in PS. unfold eps53 in *. destruct (rnd_within s z) as (m' & e' & E & SG & WF & PF).
  { rewrite Qabs_pos by exact PS. rewrite v_big. lra. }
  exists m', e'. split; [exact E|]. split; [exact SG|]. split; [apply PF; apply fval_ge0 in PS; exact PS|]. split; [|exact C]. apply within_pos; [lra|]. apply within_pos in WF; [|exact PS]. unfold eps24, eta, eps in *. lra.
Qed.

(** ** Sums *)
Definition sum (l : list Q) : Q := fold_right Qplus 0%Q l.
Lemma sum_snoc l x : (sum (l ++ [x]) == sum l + x)%Q.
Proof. induction l as [|y l IH]; cbn [app sum fold_right]; [ring|]. fold (sum (l ++ [x])). fold (sum l). rewrite IH. ring. Qed.
Definition qn {A} (l : list A) : Q := inject_Z (Z.of_nat (length l)).
Lemma qn_snoc {A} (l : list A) x : (qn (l ++ [x]) == qn l + 1)%Q.
Proof. unfold qn. rewrite app_length. cbn [length]. rewrite Nat2Z.inj_add, inject_Z_plus. reflexivity. Qed.
Lemma qn_nonneg {A} (l : list A) : (0 <= qn l)%Q.
Proof. unfold qn. change 0%Q with (inject_Z 0). rewrite <- Zle_Qle. lia. Qed.
(** Errors add up. *)
Lemma add_up u h K T c t c' : (0 <= u)%Q -> (0 <= h)%Q -> (0 <= K)%Q -> (2 * K * u <= 1)%Q -> (0 <= T)%Q -> (0 <= t)%Q -> (0 <= c)%Q ->
  (Qabs (c - T) <= 2 * K * u * T + 2 * K * h)%Q -> within u h c' (c + t) ->
  (Qabs (c' - (T + t)) <= 2 * (K + 1) * u * (T + t) + 2 * (K + 1) * h)%Q.
Proof.
  intros U H KP KU T0 t0 c0 E W. apply within_pos in W; [|lra]. apply Qabs_Qle_condition in E. apply Qabs_Qle_condition.
  assert (A1 : (2 * K * u * (u * T) <= 1 * (u * T))%Q) by (apply Qmult_le_compat_r; [exact KU|nra]).
  assert (A2 : (2 * K * u * h <= 1 * h)%Q) by (apply Qmult_le_compat_r; assumption).
  assert (A3 : (0 <= K * u * t)%Q) by (repeat apply Qmult_le_0_compat; assumption).
  assert (A4 : (u * c <= u * (T + (2 * K * u * T + 2 * K * h)))%Q) by (rewrite !(Qmult_comm u); apply Qmult_le_compat_r; [lra|exact U]).
  assert (A5 : (0 <= u * T)%Q) by (apply Qmult_le_0_compat; assumption). assert (A6 : (0 <= u * t)%Q) by (apply Qmult_le_0_compat; assumption).
  set (kut := (K * u * T)%Q) in *. set (kh := (K * h)%Q).
  assert (R1 : (2 * (K + 1) * u * (T + t) == 2 * kut + 2 * (K * u * t) + 2 * (u * T) + 2 * (u * t))%Q) by (unfold kut; ring).
  assert (R2 : (2 * (K + 1) * h == 2 * kh + 2 * h)%Q) by (unfold kh; ring).
  assert (R3 : (u * (T + (2 * K * u * T + 2 * K * h)) == u * T + 2 * K * u * (u * T) + 2 * K * u * h)%Q) by ring.
  assert (R4 : (2 * K * u * T == 2 * kut)%Q) by (unfold kut; ring). assert (R5 : (2 * K * h == 2 * kh)%Q) by (unfold kh; ring).
  rewrite R3 in A4. rewrite R4, R5 in E. rewrite R1, R2. split; lra.
Qed.
Lemma qn_small {A} (l : list A) : (length l <= 2 ^ 20)%nat -> (qn l <= 1048576)%Q.
Proof. intros H. unfold qn. change 1048576%Q with (inject_Z 1048576). rewrite <- Zle_Qle. apply Nat2Z.inj_le in H. change (Z.of_nat (2 ^ 20)) with 1048576 in H. exact H. Qed.

Definition noise_of (v : list float) : Q := sum (map (fun b => sq (dist (qv b))) v).
Lemma noise_of_snoc v b : (noise_of (v ++ [b]) == noise_of v + sq (dist (qv b)))%Q.
Proof. unfold noise_of. rewrite map_app. apply sum_snoc. Qed.
Lemma soft_range b : soft b -> (0 <= qv b <= 1)%Q.
Proof. destruct b; cbn; tauto. Qed.
Lemma noise_of_range v : Forall soft v -> (0 <= noise_of v <= (1 # 4) * qn v)%Q.
Proof.
  induction v as [|b v IH] using rev_ind; intros F; [split; discriminate|]. apply Forall_app in F. destruct F as [F1 F2]. specialize (IH F1). rewrite noise_of_snoc, qn_snoc.
  pose proof (sq_dist _ (soft_range b ltac:(inversion F2; assumption))). lra.
Qed.
Lemma noise_snoc v b : noise (v ++ [b]) = noise_step (noise v) b.
Proof. unfold noise. apply fold_left_app. Qed.
Lemma noise_close v : Forall soft v -> (qn v <= 1048576)%Q -> exists m e, noise v = Fin m e /\ single (Fin m e) /\ 0 <= m /\
  (Qabs (fval m e - noise_of v) <= 2 * qn v * eps * noise_of v + 2 * qn v * eta)%Q.
Proof.
  induction v as [|b v IH] using rev_ind; intros F L.
  { exists 0, 0. split; [reflexivity|]. split; [cbn; lia|]. split; [lia|]. vm_compute. discriminate. }
  apply Forall_app in F. destruct F as [F1 F2]. rewrite qn_snoc in L. destruct (IH F1 ltac:(lra)) as (m & e & E & SG & M & C). assert (SB : soft b) by (inversion F2; assumption).
  pose proof (noise_of_range v F1) as NR. pose proof (qn_nonneg v) as QN. pose proof (sq_dist _ (soft_range b SB)) as SD.
  destruct (noise_step_spec m e b SB M) as (m' & e' & E' & SG' & M' & W).
  { apply Qabs_Qle_condition in C. unfold eps, eta in C. nra. }
  exists m', e'. rewrite noise_snoc, E. split; [exact E'|]. split; [exact SG'|]. split; [exact M'|]. rewrite noise_of_snoc, qn_snoc.
  apply (add_up eps eta (qn v) (noise_of v) (fval m e)); try (unfold eps, eta in *; lra); [apply fval_ge0; exact M|exact W].
Qed.

(** ** Energy *)
Lemma energy_loop_snoc len v b a l : energy_loop len (v ++ [b]) a l =
  (fadd (fst (energy_loop len v a l)) (fdiv (energy b) (f_of_int len)), if flt (energy b) (snd (energy_loop len v a l)) then energy b else snd (energy_loop len v a l)).
Proof. revert a l. induction v as [|x v IH]; intros a l; [reflexivity|]. cbn [app energy_loop]. apply IH. Qed.
Definition conf_of (v : list float) : Q := sum (map (fun b => conf (qv b)) v).
Definition least (v : list float) : Q := fold_right Qmin 1%Q (map (fun b => conf (qv b)) v).
Lemma least_snoc v b : (conf (qv b) <= 1)%Q -> (least (v ++ [b]) == Qmin (least v) (conf (qv b)))%Q.
Proof.
  intros B. unfold least. rewrite map_app. induction v as [|x v IH]; cbn [map app fold_right]; [rewrite Q.min_comm; reflexivity|]. rewrite IH. apply Q.min_assoc.
Qed.
Lemma conf_of_snoc v b : (conf_of (v ++ [b]) == conf_of v + conf (qv b))%Q.
Proof. unfold conf_of. rewrite map_app. apply sum_snoc. Qed.
Lemma conf_range b : soft b -> (0 <= conf (qv b) <= 1)%Q.
Proof. intros S. destruct (energy_spec b S) as (_ & _ & _ & _ & _ & _ & H). exact H. Qed.
Lemma conf_of_range v : Forall soft v -> (0 <= conf_of v <= qn v)%Q.
Proof.
  induction v as [|b v IH] using rev_ind; intros F; [split; discriminate|]. apply Forall_app in F. destruct F as [F1 F2]. specialize (IH F1). rewrite conf_of_snoc, qn_snoc.
  pose proof (conf_range b ltac:(inversion F2; assumption)). lra.
Qed.
Lemma least_range v : Forall soft v -> (0 <= least v <= 1)%Q.
Proof.
  induction v as [|b v IH] using rev_ind; intros F; [split; discriminate|]. apply Forall_app in F. destruct F as [F1 F2]. specialize (IH F1). pose proof (conf_range b ltac:(inversion F2; assumption)) as C. rewrite least_snoc by lra.
  destruct (Q.min_spec (least v) (conf (qv b))) as [[_ E]|[_ E]]; rewrite E; lra.
Qed.
Definition eps_e : Q := 1 # 4000000.
Definition eta_e : Q := 5 * eta.
Lemma energy_term bit len : soft bit -> 0 < len <= 2 ^ 20 -> exists m e, fdiv (energy bit) (f_of_int len) = Fin m e /\ (0 <= fval m e)%Q /\
  within (1 # 7000000) (3 * eta) (fval m e) (conf (qv bit) / inject_Z len).
Proof.
  intros S L. destruct (energy_spec bit S) as (m & e & E & [SG _] & M & W & C). rewrite E. destruct (of_int_close len) as (a & b & FI & A & _ & X); [unfold is_word; lia|]. specialize (X ltac:(lia)). rewrite FI.
  assert (LQ : (1 <= inject_Z len)%Q) by (change 1%Q with (inject_Z 1); rewrite <- Zle_Qle; lia).
  assert (A0 : a <> 0). { intros ->. rewrite fval_zero in X. lra. }
  destruct (fdiv_close m e a b SG A A0) as [D1 D2]. set (x := (fval m e / fval a b)%Q) in *.
  assert (XE : (x == fval m e * / inject_Z len)%Q) by (unfold x, Qdiv; rewrite X; reflexivity).
  assert (IP : (0 < / inject_Z len <= 1)%Q). { split; [apply Qinv_lt_0_compat; lra|]. setoid_replace 1%Q with (/ 1)%Q by reflexivity. destruct (Qlt_le_dec 1 (inject_Z len)) as [G|G]; [apply Qlt_le_weak; apply (Qinv_lt_contravar 1 (inject_Z len)); lra|]. setoid_replace (inject_Z len) with 1%Q by lra. apply Qle_refl. }
  set (i := / inject_Z len) in *. apply fval_ge0 with (e := e) in M. apply within_pos in W; [|lra]. set (c := conf (qv bit)) in *. clearbody c. unfold eps, eta in W.
  assert (X0 : (0 <= x)%Q) by (rewrite XE; apply Qmult_le_0_compat; lra).
  assert (X2 : (x <= 2)%Q). { rewrite XE. apply Qle_trans with (2 * 1)%Q; [|discriminate]. apply Qle_trans with (2 * i)%Q; [apply Qmult_le_compat_r; lra|lra]. }
  destruct D2 as (m' & e' & D). { rewrite Qabs_pos by exact X0. apply Qle_lt_trans with 2%Q; [exact X2|reflexivity]. }
  exists m', e'. split; [exact D|]. destruct (D1 m' e' D) as [CL _].
  assert (WX : (x - (eps24 * x + eta) <= fval m' e' <= x + (eps24 * x + eta))%Q).
  { apply within_pos; [exact X0|]. unfold within, eps24, eta. destruct CL as [CL|[CL1 CL2]]; [lra|]. pose proof (Qabs_triangle (fval m' e') (- x)) as T. rewrite Qabs_opp in T.
    setoid_replace (fval m' e' - x)%Q with (fval m' e' + - x)%Q by ring. pose proof (Qabs_nonneg x). lra. }
  assert (POS : (0 <= fval m' e')%Q).
  { unfold fdiv in D. destruct (Z.eqb_spec a 0); [contradiction|]. apply fval_ge0 in M. assert (0 < a). { assert (0 <= a) by (apply fval_ge0 with (e := b); rewrite X; lra). lia. }
    destruct (Z.ltb_spec m 0); [lia|]. destruct (Z.ltb_spec a 0); [lia|]. cbn [xorb] in D. set (q := 2 * _ + _) in D. assert (Q0 : 0 <= q). { unfold q. assert (0 <= Z.abs m * 2 ^ 60 / Z.abs a) by (apply Z.div_pos; lia). destruct (Z.abs m * 2 ^ 60 mod Z.abs a =? 0); lia. }
    clearbody q. unfold rnd in D. destruct (Z.ltb_spec q 0); [lia|]. destruct (rnd_pos_val q _ m' e' Q0 D) as (W0 & FW & WP & _). rewrite FW. apply fval_ge0. exact WP. }
  split; [exact POS|]. unfold Qdiv. fold i. assert (CI : (0 <= c * i)%Q) by (apply Qmult_le_0_compat; lra). apply within_pos; [exact CI|].
  assert (B1 : (x <= (c + ((1 # 16000000) * c + (1 # 549755813888))) * i)%Q) by (rewrite XE; apply Qmult_le_compat_r; lra).
  assert (B2 : ((c - ((1 # 16000000) * c + (1 # 549755813888))) * i <= x)%Q) by (rewrite XE; apply Qmult_le_compat_r; lra).
  set (ci := (c * i)%Q) in *. setoid_replace ((c + ((1 # 16000000) * c + (1 # 549755813888))) * i)%Q with (ci + ((1 # 16000000) * ci + (1 # 549755813888) * i))%Q in B1 by (unfold ci; ring).
  setoid_replace ((c - ((1 # 16000000) * c + (1 # 549755813888))) * i)%Q with (ci - ((1 # 16000000) * ci + (1 # 549755813888) * i))%Q in B2 by (unfold ci; ring). clearbody ci. unfold eps24, eta in *. split; lra.
Qed.
Lemma energy_close len v : Forall soft v -> 0 < len <= 2 ^ 20 -> (qn v <= inject_Z len)%Q ->
  exists m e a b, energy_loop len v zero one = (Fin m e, Fin a b) /\ (0 <= fval m e)%Q /\ (0 <= fval a b)%Q /\
    (Qabs (fval m e - conf_of v / inject_Z len) <= 2 * qn v * eps_e * (conf_of v / inject_Z len) + 2 * qn v * eta_e)%Q /\
    (Qabs (fval a b - least v) <= 1 # 8388608)%Q.
Proof.
  intros F L. revert F. assert (LQ : (1 <= inject_Z len)%Q) by (change 1%Q with (inject_Z 1); rewrite <- Zle_Qle; lia).
  assert (LB : (inject_Z len <= 1048576)%Q) by (change 1048576%Q with (inject_Z 1048576); rewrite <- Zle_Qle; lia).
  induction v as [|bit v IH] using rev_ind; intros F B.
  { exists 0, 0, 1, 0. split; [reflexivity|]. split; [discriminate|]. split; [discriminate|]. split; [|vm_compute; discriminate]. unfold conf_of, qn. cbn [map sum fold_right length]. change (inject_Z (Z.of_nat 0)) with 0%Q.
    setoid_replace (0 / inject_Z len)%Q with 0%Q by (unfold Qdiv; ring). vm_compute. discriminate. }
  apply Forall_app in F. destruct F as [F1 F2]. rewrite qn_snoc in B. assert (SB : soft bit) by (inversion F2; assumption). destruct (IH F1 ltac:(lra)) as (m & e & a & b & E & M & A & C & D).
  pose proof (qn_nonneg v) as QN. pose proof (conf_of_range v F1) as CR. pose proof (conf_range bit SB) as CB.
  destruct (energy_term bit len SB L) as (n & f & ET & NP & WT). destruct (energy_spec bit SB) as (x & y & EX & _ & X0 & WX & _).
  assert (IP : (0 < / inject_Z len)%Q) by (apply Qinv_lt_0_compat; lra).
  assert (CI1 : (0 <= conf (qv bit) / inject_Z len <= 1)%Q).
  { unfold Qdiv. split; [apply Qmult_le_0_compat; lra|]. apply Qle_shift_div_r; lra. }
  assert (CT : (0 <= conf_of v / inject_Z len <= 1)%Q).
  { unfold Qdiv. split; [apply Qmult_le_0_compat; lra|]. apply Qle_shift_div_r; lra. }
  rewrite energy_loop_snoc, E. cbn [fst snd]. rewrite ET, EX.
  assert (MB : (fval m e <= 10000000)%Q). { apply Qabs_Qle_condition in C. unfold eps_e, eta_e, eta in C. set (T := (conf_of v / inject_Z len)%Q) in *. clearbody T. assert (H : (T * qn v <= 1 * qn v)%Q) by (apply Qmult_le_compat_r; lra). setoid_replace (2 * qn v * (1 # 4000000) * T)%Q with ((1 # 2000000) * (T * qn v))%Q in C by ring. set (kT := (T * qn v)%Q) in *. clearbody kT. lra. }
  apply within_pos in WT; [|lra]. unfold eta in WT.
  destruct (fadd_within m e n f) as (m' & e' & EF & _ & WF & PF). { rewrite Qabs_pos by lra. rewrite v_big. lra. }
  exists m', e'. rewrite EF. specialize (PF ltac:(lra)). apply within_pos in WF; [|lra].
  assert (AVG : (Qabs (fval m' e' - conf_of (v ++ [bit]) / inject_Z len) <= 2 * qn (v ++ [bit]) * eps_e * (conf_of (v ++ [bit]) / inject_Z len) + 2 * qn (v ++ [bit]) * eta_e)%Q).
  { rewrite qn_snoc. assert (CE : (conf_of (v ++ [bit]) / inject_Z len == conf_of v / inject_Z len + conf (qv bit) / inject_Z len)%Q) by (rewrite conf_of_snoc; unfold Qdiv; ring). rewrite CE. clear CE.
    apply (add_up eps_e eta_e (qn v) _ (fval m e)); [discriminate|discriminate|exact QN|unfold eps_e; lra|lra|lra|exact M|exact C|].
    apply within_pos; [lra|]. unfold eps_e, eta_e, eps24, eta in *. lra. }
  destruct (flt (Fin x y) (Fin a b)) eqn:FL; [exists x, y|exists a, b]; (split; [reflexivity|]; split; [apply fval_ge0; exact PF|]).
  all: apply fval_ge0 with (e := y) in X0; apply within_pos in WX; [|lra]; unfold eps, eta in WX; apply Qabs_Qle_condition in D; pose proof (least_range v F1) as LR; rewrite least_snoc by lra.
  - split; [exact X0|]. split; [exact AVG|]. apply flt_spec in FL. apply Qabs_Qle_condition. destruct (Q.min_spec (least v) (conf (qv bit))) as [[H1 H2]|[H1 H2]]; rewrite H2; lra.
  - split; [exact A|]. split; [exact AVG|]. apply flt_false in FL. apply Qabs_Qle_condition. destruct (Q.min_spec (least v) (conf (qv bit))) as [[H1 H2]|[H1 H2]]; rewrite H2; lra.
Qed.
