(** C86: configuration values read as floats. *)
From Coq Require Import Lia QArith Qabs Qpower Lqa.
From Verif Require Import Base BaseFacts UtilsModel UtilsSpec SqlModel SqlProofs ConfigModel ConfigSpec ConfigProofs NumProofs ConfigProps F16Model F16Float F16FloatProofs FloatNumModel.
Local Open Scope Z_scope.

(** ** What a user expects *)
(** Half way between the largest float and the next power of two. *)
Definition limit : Q := fval (2 ^ 25 - 1) 103.
(** The usual way to write a float: 24 bits, or fewer with the smallest exponent. *)
Definition canonical (m e : Z) : Prop := single (Fin m e) /\ (2 ^ 23 <= Z.abs m \/ e = -149).
(** [f] is the float nearest to [x]; the even one of two equally near; infinite from the limit on. *)
Definition nearest_float (x : Q) (f : float) : Prop :=
  match f with
  | Fin m e => single f /\ (Qabs x < limit)%Q /\
      forall m' e', single (Fin m' e') ->
        (Qabs (fval m e - x) <= Qabs (fval m' e' - x))%Q /\
        ((Qabs (fval m e - x) == Qabs (fval m' e' - x))%Q -> (fval m' e' == fval m e)%Q \/ forall M E, canonical M E -> (fval M E == fval m e)%Q -> Z.even M = true)
  | Inf s => (limit <= Qabs x)%Q /\ if s then (x < 0)%Q else (0 < x)%Q
  | NaN => False
  end.

(** ** Rounding *)
Lemma rhe_best n d j : 0 < d -> Z.abs (d * rhe n d - n) <= Z.abs (d * j - n).
Proof.
  intros D. pose proof (rhe_near n d D) as H. destruct (Z.eq_dec j (rhe n d)) as [->|N]; [lia|].
  assert (d <= Z.abs (d * (j - rhe n d))) by (rewrite Z.abs_mul, (Z.abs_eq d) by lia; nia). replace (d * (j - rhe n d)) with (d * j - d * rhe n d) in * by ring. lia.
Qed.
Lemma rhe_tie n d j : 0 < d -> Z.abs (d * rhe n d - n) = Z.abs (d * j - n) -> j <> rhe n d -> Z.even (rhe n d) = true.
Proof.
  intros D T N. pose proof (rhe_near n d D) as H. assert (T2 : 2 * Z.abs (d * rhe n d - n) = d).
  { assert (d <= Z.abs (d * (j - rhe n d))) by (rewrite Z.abs_mul, (Z.abs_eq d) by lia; nia). replace (d * (j - rhe n d)) with (d * j - d * rhe n d) in * by ring. lia. }
  clear T N H. revert T2. unfold rhe. pose proof (Z.div_mod n d ltac:(lia)) as E. pose proof (Z.mod_pos_bound n d D) as B. set (q := n / d) in *. set (r := n mod d) in *. clearbody q r.
  destruct (Z.ltb_spec (2 * r) d); [nia|]. destruct (Z.ltb_spec d (2 * r)); [nia|]. destruct (Z.even q) eqn:Eq; [intros _; exact Eq|]. intros _. rewrite Z.add_1_r, Z.even_succ, <- Z.negb_even, Eq. reflexivity.
Qed.
Lemma p2_nz e : ~ ((2 # 1) ^ e == 0)%Q.
Proof. pose proof (p2_pos e). lra. Qed.
Lemma iz_pos d : 0 < d -> (0 < inject_Z d)%Q.
Proof. intros H. change 0%Q with (inject_Z 0). rewrite <- Zlt_Qlt. exact H. Qed.
(** The distance of j * 2^e from x, when x = N/D * 2^e. *)
Definition over (x : Q) (N D e : Z) : Prop := (x * inject_Z D == fval N e)%Q.
Lemma dist_over x N D e j : 0 < D -> over x N D e -> (Qabs (fval j e - x) * inject_Z D == fval (Z.abs (D * j - N)) e)%Q.
Proof.
  intros P O. rewrite <- fval_abs. rewrite <- (Qabs_pos (inject_Z D)) by (apply Qlt_le_weak, iz_pos, P). rewrite <- Qabs_Qmult. apply Qabs_wd.
  setoid_replace ((fval j e - x) * inject_Z D)%Q with (fval j e * inject_Z D - x * inject_Z D)%Q by ring. unfold over in O. rewrite O. rewrite <- fval_sub. unfold fval. rewrite inject_Z_mult. ring.
Qed.
Lemma dist_le x N D e i j : 0 < D -> over x N D e -> (Qabs (fval i e - x) <= Qabs (fval j e - x))%Q <-> Z.abs (D * i - N) <= Z.abs (D * j - N).
Proof. intros P O. rewrite <- (fval_le _ _ e), <- !(dist_over x N D e _ P O), Qmult_le_r by (apply iz_pos, P). reflexivity. Qed.
Lemma dist_eq x N D e i j : 0 < D -> over x N D e -> (Qabs (fval i e - x) == Qabs (fval j e - x))%Q -> Z.abs (D * i - N) = Z.abs (D * j - N).
Proof.
  intros P O H. assert (A : Z.abs (D * i - N) <= Z.abs (D * j - N)) by (apply (dist_le x N D e i j P O); rewrite H; apply Qle_refl). assert (B : Z.abs (D * j - N) <= Z.abs (D * i - N)) by (apply (dist_le x N D e j i P O); rewrite H; apply Qle_refl). lia.
Qed.
Lemma over_lt x N D e j : 0 < D -> over x N D e -> (x < fval j e)%Q <-> N < D * j.
Proof.
  intros P O. rewrite <- (fval_lt N (D * j) e). unfold over in O. rewrite <- O. assert (E : (fval (D * j) e == fval j e * inject_Z D)%Q) by (unfold fval; rewrite inject_Z_mult; ring). rewrite E, Qmult_lt_r by (apply iz_pos, P). reflexivity.
Qed.
Lemma over_le x N D e j : 0 < D -> over x N D e -> (fval j e <= x)%Q <-> D * j <= N.
Proof.
  intros P O. rewrite <- (fval_le (D * j) N e). unfold over in O. rewrite <- O. assert (E : (fval (D * j) e == fval j e * inject_Z D)%Q) by (unfold fval; rewrite inject_Z_mult; ring). rewrite E, Qmult_le_r by (apply iz_pos, P). reflexivity.
Qed.
Lemma over_quot n d e : 0 < d -> over (inject_Z n / inject_Z d) (if 0 <=? e then n else n * 2 ^ (- e)) (if 0 <=? e then d * 2 ^ e else d) e.
Proof.
  intros P. unfold over. pose proof (iz_pos d P) as D. destruct (Z.leb_spec 0 e) as [H|H].
  - unfold fval. rewrite inject_Z_mult, Zpower_Qpower by lia. change (inject_Z 2) with (2 # 1)%Q. field. lra.
  - rewrite fval_shift by lia. replace (e + - e) with 0 by lia. rewrite fval_int. field. lra.
Qed.
Lemma flog_spec n d : 0 < n -> 0 < d -> (fval 1 (flog n d) <= inject_Z n / inject_Z d)%Q /\ (inject_Z n / inject_Z d < fval 1 (flog n d + 1))%Q.
Proof.
  intros N D. set (x := (inject_Z n / inject_Z d)%Q). unfold flog. set (k := Z.log2 n - Z.log2 d).
  destruct (Z.log2_spec n N) as [N1 N2]. destruct (Z.log2_spec d D) as [D1 D2]. unfold Z.succ in *. pose proof (Z.log2_nonneg n). pose proof (Z.log2_nonneg d).
  assert (U : (x < fval 1 (k + 1))%Q).
  { pose proof (over_quot n d (k + 1) D) as O. destruct (Z.leb_spec 0 (k + 1)) as [K|K].
    - assert (PP : 0 < d * 2 ^ (k + 1)) by (pose proof (two_pos (k + 1) K); nia). apply (over_lt x _ _ (k + 1) 1 PP O). rewrite Z.mul_1_r. apply Z.lt_le_trans with (1 := N2). replace (Z.log2 n + 1) with (Z.log2 d + (k + 1)) by lia. rewrite two_add by lia. pose proof (two_pos (k + 1) K). nia.
    - apply (over_lt x _ _ (k + 1) 1 D O). rewrite Z.mul_1_r. apply Z.lt_le_trans with (2 := D1). replace (Z.log2 d) with ((Z.log2 n + 1) + - (k + 1)) by lia. rewrite two_add by lia. pose proof (two_pos (- (k + 1)) ltac:(lia)). nia. }
  assert (L : (fval 1 (k - 1) <= x)%Q).
  { pose proof (over_quot n d (k - 1) D) as O. destruct (Z.leb_spec 0 (k - 1)) as [K|K].
    - assert (PP : 0 < d * 2 ^ (k - 1)) by (pose proof (two_pos (k - 1) K); nia). apply (over_le x _ _ (k - 1) 1 PP O). rewrite Z.mul_1_r. apply Z.le_trans with (2 := N1). replace (Z.log2 n) with ((Z.log2 d + 1) + (k - 1)) by lia. rewrite two_add by lia. pose proof (two_pos (k - 1) K). nia.
    - apply (over_le x _ _ (k - 1) 1 D O). rewrite Z.mul_1_r. apply Z.lt_le_incl. apply Z.lt_le_trans with (1 := D2). replace (Z.log2 d + 1) with (Z.log2 n + - (k - 1)) by lia. rewrite two_add by lia. pose proof (two_pos (- (k - 1)) ltac:(lia)). nia. }
  pose proof (over_quot n d k D) as O. fold x in O. destruct (Z.leb_spec 0 k) as [K|K].
  - assert (P : 0 < d * 2 ^ k) by (pose proof (two_pos k K); nia). destruct (Z.leb_spec (d * 2 ^ k) n) as [C|C].
    + split; [|exact U]. apply (over_le x _ _ k 1 P O). lia.
    + split; [exact L|]. replace (k - 1 + 1) with k by lia. apply (over_lt x _ _ k 1 P O). lia.
  - destruct (Z.leb_spec d (n * 2 ^ (- k))) as [C|C].
    + split; [|exact U]. apply (over_le x _ _ k 1 D O). lia.
    + split; [exact L|]. replace (k - 1 + 1) with k by lia. apply (over_lt x _ _ k 1 D O). lia.
Qed.
Lemma fval_mono m a b : 0 <= m -> a <= b -> (fval m a <= fval m b)%Q.
Proof. intros M H. rewrite (fval_down m b a H). apply fval_le. pose proof (two_pos (b - a) ltac:(lia)). nia. Qed.
Lemma fval_mono_lt m a b : 0 < m -> a < b -> (fval m a < fval m b)%Q.
Proof. intros M H. rewrite (fval_down m b a) by lia. apply fval_lt. assert (2 ^ 1 <= 2 ^ (b - a)) by (apply two_le; lia). nia. Qed.
Lemma exp_lt a b : (fval 1 a < fval 1 b)%Q -> a < b.
Proof. apply p2_lt_inv. Qed.
(** The float before it is put into range. *)
Lemma round_spec n d : 0 < n -> 0 < d -> let x := (inject_Z n / inject_Z d)%Q in exists m e N D, round n d = finish m e /\ 0 < D /\ over x N D e /\ m = rhe N D /\ -149 <= e /\
  0 <= m <= 2 ^ 24 /\ (x < fval (2 ^ 24) e)%Q /\ (e <> -149 -> (fval (2 ^ 23) e <= x)%Q /\ 2 ^ 23 <= m).
Proof.
  intros Pn Pd x. destruct (flog_spec n d Pn Pd) as [F1 F2]. fold x in F1, F2. unfold round. destruct (Z.eqb_spec n 0); [lia|]. set (e := Z.max (-149) (flog n d - 23)).
  pose proof (over_quot n d e Pd) as O. fold x in O.
  exists (rhe (if 0 <=? e then n else n * 2 ^ (- e)) (if 0 <=? e then d * 2 ^ e else d)), e, (if 0 <=? e then n else n * 2 ^ (- e)), (if 0 <=? e then d * 2 ^ e else d).
  set (N := if 0 <=? e then n else n * 2 ^ (- e)) in *. set (D := if 0 <=? e then d * 2 ^ e else d) in *.
  assert (PD : 0 < D) by (unfold D; destruct (Z.leb_spec 0 e); [pose proof (two_pos e ltac:(lia)); nia|exact Pd]).
  assert (PN : 0 < N) by (unfold N; destruct (Z.leb_spec 0 e); [exact Pn|pose proof (two_pos (- e) ltac:(lia)); nia]).
  split; [unfold N, D; destruct (0 <=? e); reflexivity|]. split; [exact PD|]. split; [exact O|]. split; [reflexivity|]. split; [lia|].
  assert (X : (x < fval (2 ^ 24) e)%Q).
  { apply Qlt_le_trans with (1 := F2). replace (2 ^ 24) with (1 * 2 ^ 24) by lia. rewrite fval_shift by lia. apply fval_mono; lia. }
  assert (X1 : N < D * 2 ^ 24) by (apply (over_lt x N D e _ PD O); exact X).
  split; [|split; [exact X|]].
  - split.
    + pose proof (rhe_mono (0 * D) N D PD ltac:(lia)) as M. rewrite rhe_exact in M by exact PD. exact M.
    + pose proof (rhe_mono N (2 ^ 24 * D) D PD ltac:(lia)) as M. rewrite rhe_exact in M by exact PD. exact M.
  - intros E. assert (L : (fval (2 ^ 23) e <= x)%Q).
    { replace (2 ^ 23) with (1 * 2 ^ 23) by lia. rewrite fval_shift by lia. replace (e + 23) with (flog n d) by lia. exact F1. }
    split; [exact L|]. apply (over_le x N D e _ PD O) in L. pose proof (rhe_mono (2 ^ 23 * D) N D PD ltac:(lia)) as M. rewrite rhe_exact in M by exact PD. exact M.
Qed.
Lemma canonical_even m e : -149 <= e -> 0 <= m <= 2 ^ 24 -> (e <> -149 -> 2 ^ 23 <= m) -> Z.even m = true -> forall M E, canonical M E -> (fval M E == fval m e)%Q -> Z.even M = true.
Proof.
  intros He Hm Hn Ev M E [[S1 S2] C] Eq. destruct (Z.lt_trichotomy E e) as [L|[->|L]].
  - rewrite (fval_down m e E) in Eq by lia. apply fval_eq in Eq. assert (2 ^ 1 <= 2 ^ (e - E)) by (apply two_le; lia). specialize (Hn ltac:(lia)). nia.
  - apply fval_eq in Eq. congruence.
  - rewrite (fval_down M E e) in Eq by lia. apply fval_eq in Eq. assert (2 ^ 1 <= 2 ^ (E - e)) by (apply two_le; lia). assert (Z.abs M = M) by nia. destruct C as [C|C]; [|lia].
    assert (M = 2 ^ 23) by nia. subst M. reflexivity.
Qed.
Lemma limit_val : (limit == fval (2 ^ 24) 104 - fval 1 103)%Q.
Proof. unfold limit. rewrite (fval_down (2 ^ 24) 104 103) by lia. rewrite fval_sub. reflexivity. Qed.
(** Rounding a quotient gives the nearest float. *)
Lemma round_nearest n d : 0 <= n -> 0 < d -> nearest_float (inject_Z n / inject_Z d) (round n d).
Proof.
  intros Pn Pd. destruct (Z.eq_dec n 0) as [->|Nz].
  { change (round 0 d) with (Fin 0 0). assert (E : (inject_Z 0 / inject_Z d == 0)%Q) by (unfold Qdiv; ring). cbn [nearest_float]. split; [split; lia|].
    assert (A : forall m e, (Qabs (fval m e - inject_Z 0 / inject_Z d) == Qabs (fval m e))%Q) by (intros m e; rewrite E; apply Qabs_wd; ring).
    split; [rewrite E; unfold limit; change (Qabs 0) with 0%Q; rewrite <- (fval_zero 103); apply fval_lt; lia|]. intros m' e' S. rewrite !A, fval_zero. change (Qabs 0) with 0%Q. split; [apply Qabs_nonneg|]. intros T. left. symmetry in T.
    destruct (Qlt_le_dec 0 (fval m' e')) as [L|L]; [rewrite Qabs_pos in T by lra; exact T|rewrite Qabs_neg in T by exact L; lra]. }
  assert (N0 : 0 < n) by lia. clear Pn Nz. pose proof (round_spec n d N0 Pd) as H. cbv zeta in H. set (x := (inject_Z n / inject_Z d)%Q) in *. destruct H as (m & e & N & D & R & PD & O & Em & He & Hm & X & C). rewrite R. clear R.
  assert (X0 : (0 < x)%Q) by (unfold x; apply Qlt_shift_div_l; [apply iz_pos, Pd|]; rewrite Qmult_0_l; apply iz_pos, N0).
  assert (Ax : (Qabs x == x)%Q) by (apply Qabs_pos; lra).
  (* best among all floats *)
  assert (Best : forall m' e', single (Fin m' e') -> (Qabs (fval m e - x) <= Qabs (fval m' e' - x))%Q /\
    ((Qabs (fval m e - x) == Qabs (fval m' e' - x))%Q -> (fval m' e' == fval m e)%Q \/ Z.even m = true)).
  { intros m' e' [S1 S2]. destruct (Z.le_gt_cases e e') as [L|L].
    - rewrite (fval_down m' e' e L). split.
      + apply (dist_le x N D e _ _ PD O). rewrite Em. apply rhe_best, PD.
      + intros T. apply (dist_eq x N D e _ _ PD O) in T. rewrite Em in *. destruct (Z.eq_dec (m' * 2 ^ (e' - e)) (rhe N D)) as [->|Ne]; [left; reflexivity|right]. exact (rhe_tie _ _ _ PD T Ne).
    - destruct (C ltac:(lia)) as [C1 C2]. assert (Y : (fval m' e' < fval (2 ^ 23) e)%Q).
      { rewrite (fval_down (2 ^ 23) e e') by lia. apply fval_lt. assert (2 ^ 1 <= 2 ^ (e - e')) by (apply two_le; lia). lia. }
      assert (B : (Qabs (fval m e - x) <= Qabs (fval (2 ^ 23) e - x))%Q) by (apply (dist_le x N D e _ _ PD O); rewrite Em; apply rhe_best, PD).
      rewrite (Qabs_neg (fval (2 ^ 23) e - x)) in B by lra. rewrite (Qabs_neg (fval m' e' - x)) by lra. split; [lra|]. intros T. lra. }
  destruct (finish m e) as [M E|s|] eqn:F.
  - pose proof (finish_val m e M E F) as V. pose proof (finish_single m e M E Hm He F) as [S1 S2]. cbn [nearest_float]. split; [split; lia|]. split.
    + rewrite Ax. destruct (Qlt_le_dec x limit) as [L|L]; [exact L|]. exfalso.
      assert (E1 : e = 104).
      { unfold finish in F. destruct (Z.ltb_spec 104 e) as [G|G].
        - destruct (C ltac:(lia)) as [_ C2]. destruct (Z.ltb_spec (m * 2 ^ (e - 104)) (2 ^ 24)) as [Y|Y]; [|discriminate F]. assert (2 ^ 1 <= 2 ^ (e - 104)) by (apply two_le; lia). nia.
        - destruct (Z.eq_dec e 104) as [Y|Y]; [exact Y|exfalso]. apply Qlt_not_le with (1 := X). apply Qle_trans with (2 := L). unfold limit. rewrite (fval_down (2 ^ 25 - 1) 103 e) by lia. apply fval_le. assert (2 ^ 0 <= 2 ^ (103 - e)) by (apply two_le; lia). change (2 ^ 0) with 1 in *. nia. }
      subst e. unfold finish in F. change (104 <? 104) with false in F. cbn iota in F. destruct (Z.eqb_spec m (2 ^ 24)) as [Y|Y]; [discriminate F|]. apply Y. rewrite Em in *. clear F Y.
      (* 2N >= D(2^25-1) *)
      assert (O3 : over x (2 * N) D 103) by (unfold over in *; rewrite O; replace (2 * N) with (N * 2 ^ 1) by lia; rewrite fval_shift by lia; reflexivity).
      apply (over_le x (2 * N) D 103 _ PD O3) in L. pose proof (rhe_near N D PD) as RN. assert (G : 2 ^ 24 - 1 <= rhe N D) by nia. destruct (Z.eq_dec (rhe N D) (2 ^ 24 - 1)) as [Y|Y]; [|lia].
      exfalso. assert (T : Z.abs (D * rhe N D - N) = Z.abs (D * 2 ^ 24 - N)) by (rewrite Y in *; nia). pose proof (rhe_tie N D (2 ^ 24) PD T ltac:(lia)) as Ev. rewrite Y in Ev. discriminate Ev.
    + intros m' e' S. destruct (Best m' e' S) as [B1 B2]. split; [rewrite V; exact B1|]. intros T. rewrite V in T. destruct (B2 T) as [W|W]; [left; rewrite V; exact W|right]. intros M' E' Cn Eq. rewrite V in Eq. exact (canonical_even m e He Hm (fun K => proj2 (C K)) W M' E' Cn Eq).
  - assert (Sf : s = false /\ (104 < e \/ e = 104 /\ m = 2 ^ 24)).
    { unfold finish in F. destruct (Z.ltb_spec 104 e) as [G|G].
      - destruct (m * 2 ^ (e - 104) <? 2 ^ 24); [discriminate F|]. injection F as <-. split; [reflexivity|left; exact G].
      - destruct (Z.eqb_spec m (2 ^ 24)) as [Y|Y]; [|discriminate F]. destruct (Z.eqb_spec e 104) as [Z0|Z0]; [|discriminate F]. injection F as <-. split; [reflexivity|right; split; assumption]. }
    destruct Sf as [-> Sf]. cbn [nearest_float]. rewrite Ax. split; [|exact X0]. destruct Sf as [G|[-> G]].
    + destruct (C ltac:(lia)) as [C1 _]. apply Qle_trans with (2 := C1). unfold limit. rewrite (fval_down (2 ^ 23) e 103) by lia. apply fval_le. assert (2 ^ 2 <= 2 ^ (e - 103)) by (apply two_le; lia). lia.
    + assert (O3 : over x (2 * N) D 103) by (unfold over in *; rewrite O; replace (2 * N) with (N * 2 ^ 1) by lia; rewrite fval_shift by lia; reflexivity).
      apply (over_le x (2 * N) D 103 _ PD O3). pose proof (rhe_near N D PD) as RN. rewrite <- Em, G in RN. nia.
  - unfold finish in F. destruct (104 <? e); [destruct (_ <? _); discriminate F|]. destruct (m =? 2 ^ 24); [destruct (e =? 104)|]; discriminate F.
Qed.
Lemma nearest_eq x y f : (x == y)%Q -> nearest_float x f -> nearest_float y f.
Proof.
  intros E. destruct f as [m e|s|]; cbn [nearest_float]; [|destruct s; rewrite E; exact (fun H => H)|exact (fun H => H)]. intros (S & L & B). split; [exact S|]. split; [rewrite <- E; exact L|].
  intros m' e' S'. destruct (B m' e' S') as [B1 B2]. rewrite <- E. split; assumption.
Qed.
Lemma nearest_neg x f : nearest_float x f -> nearest_float (- x) (fneg f).
Proof.
  destruct f as [m e|s|]; cbn [nearest_float fneg]; [|destruct s; cbn [negb]; rewrite Qabs_opp; intros [A B]; (split; [exact A|lra])|exact (fun H => H)].
  assert (D : forall a b, (Qabs (fval a b - - x) == Qabs (fval (- a) b - x))%Q) by (intros a b; rewrite fval_opp, <- (Qabs_opp (fval a b - - x)); apply Qabs_wd; ring).
  intros ([S1 S2] & L & B). split; [split; [rewrite Z.abs_opp; exact S1|exact S2]|]. split; [rewrite Qabs_opp; exact L|]. intros m' e' [S1' S2']. rewrite !D, Z.opp_involutive. destruct (B (- m') e' ltac:(split; lia)) as [B1 B2].
  split; [exact B1|]. intros T. destruct (B2 T) as [W|W].
  - left. rewrite fval_opp in *. rewrite <- W. ring.
  - right. intros M E [[C1 C2] C3] Eq. rewrite <- Z.even_opp. apply (W (- M) E); [unfold canonical; cbn [single]; lia|]. rewrite fval_opp in *. rewrite Eq. ring.
Qed.
Lemma qpow_pos b e : 0 < b -> (0 < inject_Z b ^ e)%Q.
Proof. intros H. apply Qpower_0_lt. apply iz_pos, H. Qed.
Lemma scaled_nearest m b e : 0 <= m -> 0 < b -> nearest_float (inject_Z m * inject_Z b ^ e) (scaled m b e).
Proof.
  intros M B. unfold scaled. destruct (Z.leb_spec 0 e) as [H|H].
  - apply nearest_eq with (x := (inject_Z (m * b ^ e) / inject_Z 1)%Q); [|apply round_nearest; [pose proof (Z.pow_nonneg b e ltac:(lia)); nia|lia]]. rewrite inject_Z_mult, Zpower_Qpower by lia. change (inject_Z 1) with 1%Q. field.
  - apply nearest_eq with (x := (inject_Z m / inject_Z (b ^ (- e)))%Q); [|apply round_nearest; [exact M|apply Z.pow_pos_nonneg; lia]]. rewrite Zpower_Qpower by lia. rewrite Qpower_opp. pose proof (qpow_pos b e B). field; lra.
Qed.

(** ** Texts *)
(** A point and digits, or nothing. *)
Inductive fraction (base : Z) : list Z -> list Z -> Prop :=
| NoPoint : fraction base [] []
| Point b s : digit_string base b s -> fraction base b (46 :: s).
(** A letter, a sign and decimal digits, or nothing. *)
Inductive power (letter : Z) : Z -> list Z -> Prop :=
| NoPower : power letter 0 []
| Power x sign ds s : x = letter \/ x = letter - 32 -> is_sign sign -> ds <> [] -> digit_string 10 ds s -> power letter (sign_of sign * positional 10 ds) (x :: sign ++ s).
(** What follows is no further part of the number. *)
Definition ends (base letter : Z) (fr ex rest : list Z) : Prop :=
  match ex with
  | [] => stops base rest /\ (fr = [] -> match rest with c :: _ => c <> 46 | [] => True end) /\ forall z t r, power letter z t -> rest = t ++ r -> t = []
  | _ => stops 10 rest
  end.

Lemma num_positional base ds : 0 < base -> num base ds = positional base ds.
Proof.
  intros B. unfold num. enough (H : forall v, fold_left (fun v d => base * v + d) ds v = v * base ^ Z.of_nat (length ds) + positional base ds) by (rewrite H; lia).
  induction ds as [|d ds IH]; intros v; cbn [fold_left length positional]; [change (base ^ Z.of_nat 0) with 1; lia|]. rewrite IH. rewrite Nat2Z.inj_succ, Z.pow_succ_r by lia. ring.
Qed.
Lemma positional_nonneg base ds s : 0 < base <= 36 -> digit_string base ds s -> 0 <= positional base ds.
Proof.
  intros B D. induction D as [|d c ds s [L C] D IH]; cbn [positional]; [lia|]. assert (0 <= d) by (unfold char_of_digit in C; lia). pose proof (Z.pow_nonneg base (Z.of_nat (length ds)) ltac:(lia)). nia.
Qed.
Lemma scan_app base ds s rest : base <= 36 -> digit_string base ds s -> stops base rest -> scan base (s ++ rest) = (ds, rest).
Proof.
  intros B D R. induction D as [|d c ds s [L C] D IH]; cbn [app scan].
  - destruct rest as [|c t]; cbn [scan]; [reflexivity|]. rewrite (stops_digit base c t B R). reflexivity.
  - rewrite (digit_val_some base d c B L C), IH. reflexivity.
Qed.
Lemma stops_nil_scan base s : base <= 36 -> stops base s -> scan base s = ([], s).
Proof. intros B R. exact (scan_app base [] [] s B (Forall2_nil _) R). Qed.
Lemma stops_char base c t : (c < 48 \/ c = 95) -> stops base (c :: t).
Proof. intros H. cbn [stops]. intros d L C. unfold char_of_digit in C. lia. Qed.
Lemma scan_inv base s ds r : base <= 36 -> scan base s = (ds, r) -> exists t, s = t ++ r /\ digit_string base ds t /\ stops base r.
Proof.
  intros B. revert ds r. induction s as [|c s IH]; intros ds r H; cbn [scan] in H.
  - injection H as <- <-. exists []. split; [reflexivity|]. split; [constructor|exact I].
  - destruct (digit_val base c) as [d|] eqn:E.
    + destruct (scan base s) as [ds' r'] eqn:E2. injection H as <- <-. destruct (IH _ _ eq_refl) as (t & -> & D & R). exists (c :: t). split; [reflexivity|]. split; [constructor; [exact (digit_val_inv base c d B E)|exact D]|exact R].
    + injection H as <- <-. exists []. split; [reflexivity|]. split; [constructor|]. cbn [stops]. intros d L C. rewrite (digit_val_some base d c B L C) in E. discriminate E.
Qed.
(** Digits and fraction are taken up to what follows. *)
Lemma mantissa_app base a A b F tail : base <= 36 -> digit_string base a A -> fraction base b F -> a ++ b <> [] -> stops base tail -> (F = [] -> match tail with c :: _ => c <> 46 | [] => True end) ->
  mantissa base (A ++ F ++ tail) = Some (a, b, tail).
Proof.
  intros B DA DF NE R P. unfold mantissa. destruct DF as [|b s DB].
  - cbn [app]. rewrite (scan_app base a A tail B DA R). specialize (P eq_refl). destruct tail as [|c t]; [|replace (c =? 46) with false by lia]; (destruct (a ++ []) eqn:E; [contradiction NE; reflexivity|reflexivity]).
  - cbn [app]. rewrite (scan_app base a A (46 :: s ++ tail) B DA) by (apply stops_char; lia). change (46 =? 46) with true. cbv iota. rewrite (scan_app base b s tail B DB R). destruct (a ++ b); [contradiction NE; reflexivity|reflexivity].
Qed.
Lemma exponent_app letter e X rest : 65 <= letter - 32 -> power letter e X -> match X with [] => forall z t r, power letter z t -> rest = t ++ r -> t = [] | _ => stops 10 rest end -> exponent letter (X ++ rest) = (e, rest).
Proof.
  intros Hl P R. destruct P as [|x sign ds s Hx G NE D].
  - cbn [app]. unfold exponent. destruct rest as [|x t]; [reflexivity|]. destruct ((x =? letter) || (x =? letter - 32)) eqn:E; [|reflexivity].
    assert (Hx : x = letter \/ x = letter - 32) by lia.
    assert (No : forall sign s', t = sign ++ s' -> is_sign sign -> fst (scan 10 s') = []).
    { intros sign s' -> G. destruct (scan 10 s') as [ds r] eqn:Sc. destruct (scan_inv 10 s' ds r ltac:(lia) Sc) as (u & -> & D & _). destruct ds as [|d ds]; [reflexivity|]. exfalso.
      assert (K : x :: sign ++ u = []); [|discriminate K]. apply (R (sign_of sign * positional 10 (d :: ds)) (x :: sign ++ u) r); [apply (Power letter x sign (d :: ds) u Hx G); [discriminate|exact D]|cbn [app]; rewrite app_assoc; reflexivity]. }
    destruct t as [|c t]; [reflexivity|]. destruct (Z.eqb_spec c 45) as [->|C1]; [|destruct (Z.eqb_spec c 43) as [->|C2]].
    + specialize (No [45] t eq_refl ltac:(right; right; reflexivity)). destruct (scan 10 t) as [ds r]. cbn [fst] in No. subst ds. reflexivity.
    + specialize (No [43] t eq_refl ltac:(right; left; reflexivity)). destruct (scan 10 t) as [ds r]. cbn [fst] in No. subst ds. reflexivity.
    + specialize (No [] (c :: t) eq_refl ltac:(left; reflexivity)). destruct (scan 10 (c :: t)) as [ds r]. cbn [fst] in No. subst ds. reflexivity.
  - cbn [app]. unfold exponent. replace ((x =? letter) || (x =? letter - 32)) with true by lia.
    destruct ds as [|d ds]; [contradiction NE; reflexivity|]. inversion D as [|? c ? s' [L C] D']; subst.
    assert (Sc : scan 10 ((c :: s') ++ rest) = (d :: ds, rest)) by (apply scan_app; [lia|exact D|exact R]).
    assert (c <> 45 /\ c <> 43) by (unfold char_of_digit in C; lia).
    destruct G as [->|[->| ->]]; cbn [app] in *.
    + replace (c =? 45) with false by lia. replace (c =? 43) with false by lia. rewrite Sc, num_positional by lia. reflexivity.
    + change (43 =? 45) with false. change (43 =? 43) with true. cbv iota beta. rewrite Sc, num_positional by lia. reflexivity.
    + change (45 =? 45) with true. cbv iota beta. rewrite Sc, num_positional by lia. reflexivity.
Qed.
Lemma power_stops base letter e X rest : base <= 16 -> base = 10 \/ base = 16 -> letter = 101 /\ base = 10 \/ letter = 112 -> power letter e X -> (X = [] -> stops base rest) -> stops base (X ++ rest).
Proof.
  intros B B2 L P R. destruct P as [|x sign ds s Hx G NE D]; [exact (R eq_refl)|]. cbn [app stops]. intros d Ld C. unfold char_of_digit in C. lia.
Qed.
Definition head_not (cs : list Z) (s : list Z) : Prop := match s with c :: _ => ~ In c cs | [] => True end.
Lemma after_none w s c t : s = c :: t -> (exists x w', w = x :: w' /\ lower c <> x) -> after w s = None.
Proof. intros -> (x & w' & -> & N). cbn [after]. replace (lower c =? x) with false by lia. reflexivity. Qed.
(** A text that begins with a digit or a point is no word. *)
Lemma no_word c t : 46 <= c <= 57 -> after (lit "infinity") (c :: t) = None /\ after (lit "inf") (c :: t) = None /\ after (lit "nan") (c :: t) = None.
Proof.
  intros H. assert (E : lower c = c) by (unfold lower; replace (65 <=? c) with false by lia; reflexivity).
  repeat split; (eapply after_none; [reflexivity|]); [exists 105, (lit "nfinity")|exists 105, (lit "nf")|exists 110, (lit "an")]; (split; [reflexivity|lia]).
Qed.
Lemma number_head a A b F tail : digit_string 10 a A -> fraction 10 b F -> a ++ b <> [] -> exists c t, A ++ F ++ tail = c :: t /\ 46 <= c <= 57.
Proof.
  intros DA DF NE. destruct DA as [|d c a A [L C] DA].
  - destruct DF as [|b s DB]; [contradiction NE; reflexivity|]. exists 46, (s ++ tail). split; [reflexivity|lia].
  - exists c, (A ++ F ++ tail). split; [reflexivity|]. unfold char_of_digit in C. lia.
Qed.
Lemma decimal_app a A b F e X rest : digit_string 10 a A -> fraction 10 b F -> a ++ b <> [] -> power 101 e X -> ends 10 101 F X rest ->
  decimal (A ++ F ++ X ++ rest) = Some (scaled (positional 10 (a ++ b)) 10 (e - Z.of_nat (length b)), rest).
Proof.
  intros DA DF NE P E. unfold decimal. rewrite (mantissa_app 10 a A b F (X ++ rest)); try assumption; try lia.
  - rewrite (exponent_app 101 e X rest); [rewrite num_positional by lia; reflexivity|lia|exact P|]. unfold ends in E. destruct X; [apply E|exact E].
  - apply (power_stops 10 101 e X rest); try lia; [exact P|]. intros ->. apply E.
  - intros ->. destruct X as [|x X]; [cbn [app]; unfold ends in E; apply E; reflexivity|]. cbn [app]. inversion P; subst. lia.
Qed.
Lemma unsigned_decimal a A b F e X rest : digit_string 10 a A -> fraction 10 b F -> a ++ b <> [] -> power 101 e X -> ends 10 101 F X rest ->
  (A ++ F ++ X = [48] -> head_not [120; 88] rest) ->
  unsigned (A ++ F ++ X ++ rest) = Some (scaled (positional 10 (a ++ b)) 10 (e - Z.of_nat (length b)), rest).
Proof.
  intros DA DF NE P E H0. rewrite <- (decimal_app a A b F e X rest DA DF NE P E). destruct (number_head a A b F (X ++ rest) DA DF NE) as (c & t & Eq & Hc). rewrite Eq in *. destruct (no_word c t Hc) as (W1 & W2 & W3). unfold unsigned. rewrite W1, W2, W3.
  destruct t as [|x t]; [reflexivity|]. destruct ((c =? 48) && (lower x =? 120)) eqn:Q; [|reflexivity]. exfalso.
  assert (Cx : c = 48 /\ (x = 120 \/ x = 88)). { unfold lower in Q. destruct ((65 <=? x) && (x <=? 90)) eqn:L; lia. } destruct Cx as [-> Cx].
  destruct DA as [|d c a A [L C] DA].
  - destruct DF as [|b s DB]; [contradiction NE; reflexivity|]. cbn [app] in Eq. injection Eq as Eq _. discriminate Eq.
  - cbn [app] in Eq. injection Eq as -> Eq. destruct DA as [|d2 c2 a A [L2 C2] DA].
    + destruct DF as [|b s DB]; [|cbn [app] in Eq; injection Eq as Eq _; lia]. cbn [app] in Eq. destruct P as [|y sign ds s Hy G Ns D]; [|cbn [app] in Eq; injection Eq as Eq _; lia].
      cbn [app] in Eq. subst rest. specialize (H0 eq_refl). cbn [head_not In] in H0. lia.
    + cbn [app] in Eq. injection Eq as -> _. unfold char_of_digit in C2. lia.
Qed.
Lemma unsigned_hex x a A b F e X rest : x = 120 \/ x = 88 -> digit_string 16 a A -> fraction 16 b F -> a ++ b <> [] -> power 112 e X -> ends 16 112 F X rest ->
  unsigned (48 :: x :: A ++ F ++ X ++ rest) = Some (scaled (positional 16 (a ++ b)) 2 (e - 4 * Z.of_nat (length b)), rest).
Proof.
  intros Hx DA DF NE P E. destruct (no_word 48 (x :: A ++ F ++ X ++ rest) ltac:(lia)) as (W1 & W2 & W3). unfold unsigned. rewrite W1, W2, W3.
  replace ((48 =? 48) && (lower x =? 120)) with true by (destruct Hx as [->| ->]; reflexivity). rewrite (mantissa_app 16 a A b F (X ++ rest)); try assumption; try lia.
  - rewrite (exponent_app 112 e X rest); [rewrite num_positional by lia; reflexivity|lia|exact P|]. unfold ends in E. destruct X; [apply E|exact E].
  - apply (power_stops 16 112 e X rest); try lia; [exact P|]. intros ->. apply E.
  - intros ->. destruct X as [|y X]; [cbn [app]; unfold ends in E; apply E; reflexivity|]. cbn [app]. inversion P; subst. lia.
Qed.
Definition signed (sign : list Z) (f : float) : float := match sign with [45] => fneg f | _ => f end.
Lemma strtof_signed ws sign s f rest : Forall (fun c => isspace c = true) ws -> is_sign sign -> unsigned s = Some (f, rest) -> match s with c :: _ => isspace c = false /\ c <> 43 /\ c <> 45 | [] => False end ->
  strtof (ws ++ sign ++ s) = (signed sign f, rest).
Proof.
  intros W G U H. unfold strtof. rewrite skip_space_app by exact W. destruct s as [|c s]; [destruct H|]. destruct H as (H1 & H2 & H3). destruct G as [->|[->| ->]].
  - cbn [app skip_space]. rewrite H1. replace (c =? 45) with false by lia. replace (c =? 43) with false by lia. rewrite U. reflexivity.
  - cbn [app]. change (skip_space (43 :: c :: s)) with (43 :: c :: s). cbv iota. change (43 =? 45) with false. change (43 =? 43) with true. cbv iota. rewrite U. reflexivity.
  - cbn [app]. change (skip_space (45 :: c :: s)) with (45 :: c :: s). cbv iota. change (45 =? 45) with true. cbv iota. rewrite U. reflexivity.
Qed.
Lemma signed_nearest sign x f : is_sign sign -> nearest_float x f -> nearest_float (inject_Z (sign_of sign) * x) (signed sign f).
Proof.
  intros [->|[->| ->]] N; cbn [signed].
  - apply nearest_eq with (x := x); [change (inject_Z (sign_of [])) with 1%Q; ring|exact N].
  - apply nearest_eq with (x := x); [change (inject_Z (sign_of [43])) with 1%Q; ring|exact N].
  - apply nearest_eq with (x := (- x)%Q); [change (inject_Z (sign_of [45])) with (-1)%Q; ring|apply nearest_neg, N].
Qed.
Lemma floatNumber_strtof v f rest : ~ In 0 v -> v <> [] -> strtof v = (f, rest) ->
  floatNumber (Record_ v false) = (f, Record_ v (match rest with [] => false | _ => true end), match rest with [] => [] | _ => [Partly] end).
Proof. intros N NE E. unfold floatNumber. cbn [FloatNumModel.value warned]. destruct v as [|c v]; [contradiction NE; reflexivity|]. rewrite c_str_id by exact N. rewrite E. destruct rest; reflexivity. Qed.

(** ** The theorems *)
(** White space, a sign and a decimal number: the nearest float.  What follows is ignored, with
    a warning. *)
Theorem C86_decimal ws sign a A b F e X rest : Forall (fun c => isspace c = true) ws -> is_sign sign -> digit_string 10 a A -> fraction 10 b F -> a ++ b <> [] -> power 101 e X -> ends 10 101 F X rest ->
  (A ++ F ++ X = [48] -> head_not [120; 88] rest) -> ~ In 0 (ws ++ sign ++ A ++ F ++ X ++ rest) ->
  let r := Record_ (ws ++ sign ++ A ++ F ++ X ++ rest) false in
  exists f, nearest_float (inject_Z (sign_of sign) * (inject_Z (positional 10 (a ++ b)) * inject_Z 10 ^ (e - Z.of_nat (length b)))) f /\
    floatNumber r = (f, Record_ (FloatNumModel.value r) (match rest with [] => false | _ => true end), match rest with [] => [] | _ => [Partly] end).
Proof.
  intros W G DA DF NE P E H0 N r. pose proof (unsigned_decimal a A b F e X rest DA DF NE P E H0) as U. destruct (number_head a A b F (X ++ rest) DA DF NE) as (c & t & Eq & Hc).
  exists (signed sign (scaled (positional 10 (a ++ b)) 10 (e - Z.of_nat (length b)))). split.
  - apply signed_nearest; [exact G|]. apply scaled_nearest; [|lia]. rewrite positional_app by lia. assert (0 <= positional 10 a) by (eapply positional_nonneg; [|exact DA]; lia). assert (0 <= positional 10 b) by (destruct DF as [|b s DB]; [cbn [positional]; lia|eapply positional_nonneg; [|exact DB]; lia]).
    pose proof (Z.pow_nonneg 10 (Z.of_nat (length b)) ltac:(lia)). nia.
  - subst r. cbn [FloatNumModel.value]. apply floatNumber_strtof; [exact N| |].
    + rewrite Eq. intros K. apply app_eq_nil in K. destruct K as [_ K]. apply app_eq_nil in K. destruct K as [_ K]. discriminate K.
    + apply strtof_signed; try assumption. rewrite Eq. split; [|lia]. unfold isspace. lia.
Qed.
Print Assumptions C86_decimal.
(** The same for hexadecimal numbers. *)
Theorem C86_hex ws sign x a A b F e X rest : Forall (fun c => isspace c = true) ws -> is_sign sign -> x = 120 \/ x = 88 -> digit_string 16 a A -> fraction 16 b F -> a ++ b <> [] -> power 112 e X -> ends 16 112 F X rest ->
  ~ In 0 (ws ++ sign ++ 48 :: x :: A ++ F ++ X ++ rest) ->
  let r := Record_ (ws ++ sign ++ 48 :: x :: A ++ F ++ X ++ rest) false in
  exists f, nearest_float (inject_Z (sign_of sign) * (inject_Z (positional 16 (a ++ b)) * inject_Z 2 ^ (e - 4 * Z.of_nat (length b)))) f /\
    floatNumber r = (f, Record_ (FloatNumModel.value r) (match rest with [] => false | _ => true end), match rest with [] => [] | _ => [Partly] end).
Proof.
  intros W G Hx DA DF NE P E N r. pose proof (unsigned_hex x a A b F e X rest Hx DA DF NE P E) as U.
  exists (signed sign (scaled (positional 16 (a ++ b)) 2 (e - 4 * Z.of_nat (length b)))). split.
  - apply signed_nearest; [exact G|]. apply scaled_nearest; [|lia]. rewrite positional_app by lia. assert (0 <= positional 16 a) by (eapply positional_nonneg; [|exact DA]; lia). assert (0 <= positional 16 b) by (destruct DF as [|b s DB]; [cbn [positional]; lia|eapply positional_nonneg; [|exact DB]; lia]).
    pose proof (Z.pow_nonneg 16 (Z.of_nat (length b)) ltac:(lia)). nia.
  - subst r. cbn [FloatNumModel.value]. apply floatNumber_strtof; [exact N| |].
    + intros K. apply app_eq_nil in K. destruct K as [_ K]. apply app_eq_nil in K. destruct K as [_ K]. discriminate K.
    + apply strtof_signed; try assumption. split; [reflexivity|lia].
Qed.
Print Assumptions C86_hex.
(** The words, in any case. *)
Lemma after_app w s rest : map lower s = w -> after w (s ++ rest) = Some rest.
Proof. intros <-. induction s as [|c s IH]; [reflexivity|]. cbn [map app after]. rewrite Z.eqb_refl. exact IH. Qed.
Lemma after_inv w s r : after w s = Some r -> exists t, s = t ++ r /\ map lower t = w.
Proof.
  revert s. induction w as [|x w IH]; intros s H; cbn [after] in H; [injection H as <-; exists []; split; reflexivity|]. destruct s as [|c s]; [discriminate|]. destruct (Z.eqb_spec (lower c) x) as [E|E]; [|discriminate].
  destruct (IH _ H) as (t & -> & Ht). exists (c :: t). split; [reflexivity|]. cbn [map]. congruence.
Qed.
Lemma lower_space c : isspace c = true \/ c = 43 \/ c = 45 -> lower c = c.
Proof. unfold isspace, lower. intros H. destruct ((65 <=? c) && (c <=? 90)) eqn:E; lia. Qed.
Lemma word_head w s rest c0 w0 : w = c0 :: w0 -> 97 <= c0 -> map lower s = w -> match s ++ rest with c :: _ => isspace c = false /\ c <> 43 /\ c <> 45 | [] => False end.
Proof.
  intros -> Hc M. destruct s as [|c s]; [discriminate M|]. cbn [map app] in *. injection M as M _.
  assert (K : ~ (isspace c = true \/ c = 43 \/ c = 45)) by (intros K; pose proof (lower_space c K); unfold isspace in K; lia). destruct (isspace c); [contradiction K; left; reflexivity|]. repeat split; intros ->; apply K; [right; left|right; right]; reflexivity.
Qed.
Theorem C86_words ws sign w rest : Forall (fun c => isspace c = true) ws -> is_sign sign ->
  (map lower w = lit "infinity" \/ map lower w = lit "inf" /\ (forall t r, map lower t = lit "inity" -> rest <> t ++ r) -> strtof (ws ++ sign ++ w ++ rest) = (Inf match sign with [45] => true | _ => false end, rest)) /\
  (map lower w = lit "nan" -> head_not [40] rest -> strtof (ws ++ sign ++ w ++ rest) = (NaN, rest)).
Proof.
  intros W G. split.
  - intros H. assert (U : unsigned (w ++ rest) = Some (Inf false, rest)).
    { destruct H as [M|[M NR]]; unfold unsigned; [rewrite (after_app _ w rest M); reflexivity|]. destruct (after (lit "infinity") (w ++ rest)) as [r|] eqn:A.
      - exfalso. destruct (after_inv _ _ _ A) as (t & Et & Mt). change (lit "infinity") with (lit "inf" ++ lit "inity") in Mt.
        assert (Lw : length w = 3%nat) by (rewrite <- (map_length lower w), M; reflexivity).
        apply (NR (skipn 3 t) r); [rewrite <- skipn_map, Mt; reflexivity|].
        assert (Lt : (3 <= length t)%nat) by (rewrite <- (map_length lower t), Mt; vm_compute; lia).
        apply (f_equal (skipn 3)) in Et. rewrite skipn_app, Lw, Nat.sub_diag in Et. rewrite (skipn_all2 w) in Et by lia. change ([] ++ skipn 0 rest) with rest in Et. rewrite Et, skipn_app. replace (3 - length t)%nat with 0%nat by lia. reflexivity.
      - rewrite (after_app _ w rest M). reflexivity. }
    rewrite (strtof_signed ws sign (w ++ rest) _ _ W G U); [destruct G as [->|[->| ->]]; reflexivity|]. destruct H as [M|[M _]]; eapply (word_head _ w rest 105); try exact M; try reflexivity; lia.
  - intros M H. assert (Lw : length w = 3%nat) by (rewrite <- (map_length lower w), M; reflexivity).
    destruct w as [|c1 [|c2 [|c3 [|]]]]; try discriminate Lw. cbn [map] in M. injection M as M1 M2 M3.
    assert (U : unsigned (([c1; c2; c3]) ++ rest) = Some (NaN, rest)).
    { unfold unsigned. cbn [app]. rewrite (after_none (lit "infinity") _ c1 (c2 :: c3 :: rest) eq_refl ltac:(exists 105, (lit "nfinity"); split; [reflexivity|lia])). rewrite (after_none (lit "inf") _ c1 (c2 :: c3 :: rest) eq_refl ltac:(exists 105, (lit "nf"); split; [reflexivity|lia])).
      change (c1 :: c2 :: c3 :: rest) with ([c1; c2; c3] ++ rest). rewrite (after_app (lit "nan") [c1; c2; c3] rest) by (cbn [map]; rewrite M1, M2, M3; reflexivity). destruct rest as [|c t]; [reflexivity|]. cbn [head_not In] in H. replace (c =? 40) with false by lia. reflexivity. }
    rewrite (strtof_signed ws sign _ _ _ W G U); [destruct G as [->|[->| ->]]; reflexivity|]. eapply (word_head (lit "nan") [c1; c2; c3] rest 110); [reflexivity|lia|cbn [map]; rewrite M1, M2, M3; reflexivity].
Qed.
Print Assumptions C86_words.
(** Anything else is 0, with a warning. *)
Theorem C86_no_number v : ~ In 0 v -> v <> [] -> (forall ws sign s, v = ws ++ sign ++ s -> Forall (fun c => isspace c = true) ws -> is_sign sign -> head_not [105; 73; 110; 78] s /\ stops 10 s /\ match s with 46 :: t => stops 10 t | _ => True end) ->
  floatNumber (Record_ v false) = (Fin 0 0, Record_ v true, [Partly]).
Proof.
  intros N NE H. assert (U : forall ws sign s, v = ws ++ sign ++ s -> Forall (fun c => isspace c = true) ws -> is_sign sign -> unsigned s = None).
  { intros ws sign s E W G. destruct (H ws sign s E W G) as (H1 & H2 & H3). unfold unsigned. destruct s as [|c s]; [reflexivity|]. cbn [head_not In] in H1.
    assert (L : lower c <> 105 /\ lower c <> 110) by (unfold lower; destruct ((65 <=? c) && (c <=? 90)) eqn:Q; lia).
    rewrite (after_none (lit "infinity") _ c s eq_refl ltac:(exists 105, (lit "nfinity"); split; [reflexivity|lia])). rewrite (after_none (lit "inf") _ c s eq_refl ltac:(exists 105, (lit "nf"); split; [reflexivity|lia])). rewrite (after_none (lit "nan") _ c s eq_refl ltac:(exists 110, (lit "an"); split; [reflexivity|lia])).
    assert (D : decimal (c :: s) = None).
    { unfold decimal, mantissa. rewrite (stops_nil_scan 10 (c :: s) ltac:(lia) H2). destruct (Z.eqb_spec c 46) as [->|C]; [|reflexivity]. rewrite (stops_nil_scan 10 s ltac:(lia) H3). reflexivity. }
    destruct s as [|x t]; [exact D|]. destruct (Z.eqb_spec c 48) as [->|C]; [|exact D]. exfalso. apply (H2 0); [lia|]. left. lia. }
  assert (SP : exists ws, v = ws ++ skip_space v /\ Forall (fun c => isspace c = true) ws).
  { clear. induction v as [|c v (ws & E & W)]; [exists []; split; [reflexivity|constructor]|]. cbn [skip_space]. destruct (isspace c) eqn:S; [|exists []; split; [reflexivity|constructor]]. exists (c :: ws). split; [cbn [app]; congruence|constructor; assumption]. }
  destruct SP as (ws & E & W). assert (S : strtof v = (Fin 0 0, v)).
  { unfold strtof. destruct (skip_space v) as [|c t] eqn:Sv; [reflexivity|]. destruct (Z.eqb_spec c 45) as [->|C1].
    - rewrite (U ws [45] t); [reflexivity|exact E|exact W|right; right; reflexivity].
    - destruct (Z.eqb_spec c 43) as [->|C2]; [rewrite (U ws [43] t); [reflexivity|exact E|exact W|right; left; reflexivity]|rewrite (U ws [] (c :: t)); [reflexivity|exact E|exact W|left; reflexivity]]. }
  rewrite (floatNumber_strtof v _ _ N NE S). destruct v; [contradiction NE; reflexivity|reflexivity].
Qed.
Print Assumptions C86_no_number.

(** A number that is a float is read exactly. *)
Theorem C86_exact x f m e : nearest_float x f -> single (Fin m e) -> (x == fval m e)%Q -> exists m' e', f = Fin m' e' /\ (fval m' e' == x)%Q.
Proof.
  intros N S E. destruct f as [m' e'|s|]; cbn [nearest_float] in N; [|exfalso|destruct N].
  - destruct N as (_ & _ & B). destruct (B m e S) as [B1 _]. exists m', e'. split; [reflexivity|]. assert (Z0 : (Qabs (fval m e - x) == 0)%Q) by (rewrite E; setoid_replace (fval m e - fval m e)%Q with 0%Q by ring; reflexivity). rewrite Z0 in B1.
    destruct (Qlt_le_dec 0 (fval m' e' - x)) as [L|L]; [rewrite Qabs_pos in B1 by lra|rewrite Qabs_neg in B1 by exact L]; lra.
  - destruct N as [N _]. rewrite E, fval_abs in N. apply Qle_not_lt in N. apply N. destruct S as [S1 S2]. apply Qle_lt_trans with (y := fval (2 ^ 24 - 1) 104).
    + apply Qle_trans with (y := fval (2 ^ 24 - 1) e); [apply fval_le; lia|apply fval_mono; lia].
    + unfold limit. rewrite (fval_down _ 104 103) by lia. apply fval_lt. reflexivity.
Qed.
Print Assumptions C86_exact.
(** A number nearer to a float than half way to any other is read as that float: enough digits
    of a float give it back. *)
Theorem C86_roundtrip x f m e : nearest_float x f -> (Qabs x < limit)%Q -> single (Fin m e) ->
  (forall m' e', single (Fin m' e') -> ~ (fval m' e' == fval m e)%Q -> (2 * Qabs (x - fval m e) < Qabs (fval m' e' - fval m e))%Q) ->
  exists m' e', f = Fin m' e' /\ (fval m' e' == fval m e)%Q.
Proof.
  intros N L S H. destruct f as [m' e'|s|]; cbn [nearest_float] in N; [|exfalso; destruct N as [N _]; lra|destruct N].
  destruct N as (S' & _ & B). destruct (B m e S) as [B1 _]. exists m', e'. split; [reflexivity|]. destruct (Qeq_dec (fval m' e') (fval m e)) as [E|E]; [exact E|exfalso]. specialize (H m' e' S' E).
  assert (T : (Qabs (fval m' e' - fval m e) <= Qabs (fval m' e' - x) + Qabs (x - fval m e))%Q) by (setoid_replace (fval m' e' - fval m e)%Q with ((fval m' e' - x) + (x - fval m e))%Q by ring; apply Qabs_triangle).
  assert (Y : (Qabs (fval m e - x) == Qabs (x - fval m e))%Q) by (rewrite <- Qabs_opp; apply Qabs_wd; ring). rewrite Y in B1. lra.
Qed.
Print Assumptions C86_roundtrip.
Lemma canonical_exists m e : single (Fin m e) -> exists M E, canonical M E /\ (fval M E == fval m e)%Q.
Proof.
  intros [S1 S2]. destruct (Z.eq_dec m 0) as [->|NZ]; [exists 0, (-149); split; [split; [split; lia|right; reflexivity]|rewrite !fval_zero; reflexivity]|].
  pose proof (Z.log2_spec (Z.abs m) ltac:(lia)) as [L1 L2]. assert (L3 : Z.log2 (Z.abs m) < 24) by (apply Z.log2_lt_pow2; lia). pose proof (Z.log2_nonneg (Z.abs m)) as L4.
  set (l := Z.log2 (Z.abs m)) in *. clearbody l. set (k := Z.min (23 - l) (e + 149)). assert (K : 0 <= k) by (subst k; lia).
  exists (m * 2 ^ k), (e - k). assert (PK : 0 < 2 ^ k) by (apply Z.pow_pos_nonneg; lia). split; [|rewrite fval_shift by exact K; replace (e - k + k) with e by lia; reflexivity]. split.
  - split; [|subst k; lia]. rewrite Z.abs_mul, (Z.abs_eq (2 ^ k)) by lia. apply Z.lt_le_trans with (m := 2 ^ Z.succ l * 2 ^ k); [nia|]. rewrite <- Z.pow_add_r by lia. apply Z.pow_le_mono_r; subst k; lia.
  - destruct (Z_le_gt_dec (23 - l) (e + 149)) as [C|C]; [left|right; subst k; lia]. assert (k = 23 - l) by (subst k; lia). rewrite Z.abs_mul, (Z.abs_eq (2 ^ k)) by lia. apply Z.le_trans with (m := 2 ^ l * 2 ^ k); [rewrite <- Z.pow_add_r by lia; apply Z.pow_le_mono_r; lia|nia].
Qed.
(** Of two neighbours one is odd. *)
Lemma neighbours M E M' E' : canonical M E -> canonical M' E' -> 0 < M -> (fval M' E' < fval M E)%Q -> (forall a b, single (Fin a b) -> (fval M' E' < fval a b)%Q -> (fval a b < fval M E)%Q -> False) -> Z.even M = true -> Z.even M' = true -> False.
Proof.
  intros [[S1 S2] C] [[S1' S2'] C'] P L B Ev Ev'. assert (M2 : 2 <= M) by (destruct (Z.eq_dec M 1) as [->|]; [discriminate Ev|lia]).
  assert (V : (fval (M - 1) E <= fval M' E')%Q).
  { destruct (Qlt_le_dec (fval M' E') (fval (M - 1) E)) as [K|K]; [|exact K]. exfalso. apply (B (M - 1) E); [split; lia|exact K|apply fval_lt; lia]. }
  destruct (Z_le_gt_dec E E') as [G|G].
  - rewrite (fval_down M' E' E) in L, V by lia. apply fval_lt in L. apply fval_le in V. assert (EQ : M' * 2 ^ (E' - E) = M - 1) by lia.
    assert (O : Z.even (M' * 2 ^ (E' - E)) = true) by (rewrite Z.even_mul, Ev'; reflexivity). rewrite EQ in O. rewrite Z.sub_1_r, Z.even_pred, <- Z.negb_even, Ev in O. discriminate O.
  - destruct C as [C|C]; [|lia]. rewrite (fval_down (M - 1) E E') in V by lia. rewrite (fval_down M E E') in L by lia. apply fval_le in V. apply fval_lt in L. assert (T : 2 ^ 1 <= 2 ^ (E - E')) by (apply two_le; lia). assert (M = 2 ^ 23) by nia. subst M.
    assert (V2 : (fval (2 ^ 24 - 1) (E - 1) <= fval M' E')%Q).
    { destruct (Qlt_le_dec (fval M' E') (fval (2 ^ 24 - 1) (E - 1))) as [K|K]; [|exact K]. exfalso. apply (B (2 ^ 24 - 1) (E - 1)); [split; lia|exact K|]. rewrite (fval_down (2 ^ 23) E (E - 1)) by lia. apply fval_lt. replace (E - (E - 1)) with 1 by lia. reflexivity. }
    rewrite (fval_down (2 ^ 24 - 1) (E - 1) E') in V2 by lia. apply fval_le in V2. destruct (Z.eq_dec E' (E - 1)) as [->|NE].
    + rewrite Z.sub_diag in V2. assert (M' = 2 ^ 24 - 1) by lia. subst M'. discriminate Ev'.
    + assert (2 ^ 1 <= 2 ^ (E - 1 - E')) by (apply two_le; lia). nia.
Qed.
Lemma canonical_neg M E : canonical M E -> canonical (- M) E.
Proof. intros [[S1 S2] C]. split; [split|]; rewrite ?Z.abs_opp; assumption. Qed.
Lemma no_two_even m e m' e' x : single (Fin m e) -> single (Fin m' e') -> (fval m' e' < fval m e)%Q ->
  (forall M E, canonical M E -> (fval M E == fval m e)%Q -> Z.even M = true) -> (forall M E, canonical M E -> (fval M E == fval m' e')%Q -> Z.even M = true) ->
  (forall a b, single (Fin a b) -> (Qabs (fval m e - x) <= Qabs (fval a b - x))%Q) -> (2 * x == fval m e + fval m' e')%Q -> False.
Proof.
  intros S S' L E1 E2 B X. destruct (canonical_exists m e S) as (M & E & C & V). destruct (canonical_exists m' e' S') as (M' & E' & C' & V').
  assert (Z0 : forall a b, single (Fin a b) -> (fval M' E' < fval a b)%Q -> (fval a b < fval M E)%Q -> False).
  { intros a b Sab H1 H2. rewrite V' in H1. rewrite V in H2. specialize (B a b Sab). rewrite (Qabs_pos (fval m e - x)) in B by lra. destruct (Qlt_le_dec 0 (fval a b - x)) as [K|K]; [rewrite Qabs_pos in B by lra|rewrite Qabs_neg in B by exact K]; lra. }
  assert (EM := E1 M E C V). assert (EM' := E2 M' E' C' V'). rewrite <- V, <- V' in L. destruct (Z_lt_le_dec 0 M) as [P|P]; [exact (neighbours M E M' E' C C' P L Z0 EM EM')|].
  assert (P' : M' < 0). { destruct (Z_lt_le_dec M' 0) as [Q|Q]; [exact Q|exfalso]. assert (fval 0 E <= fval 0 E')%Q by (rewrite !fval_zero; apply Qle_refl). assert (fval M E <= fval 0 E)%Q by (apply fval_le; exact P). assert (fval 0 E' <= fval M' E')%Q by (apply fval_le; exact Q). lra. }
  apply (neighbours (- M') E' (- M) E (canonical_neg _ _ C') (canonical_neg _ _ C)); [lia|rewrite !fval_opp; lra| |rewrite Z.even_opp; exact EM'|rewrite Z.even_opp; exact EM].
  intros a b [Sa Sb] H1 H2. apply (Z0 (- a) b); [split; [rewrite Z.abs_opp; exact Sa|exact Sb]| |]; rewrite !fval_opp in *; lra.
Qed.
(** Larger numbers are not read as smaller floats. *)
Definition float_le (f g : float) : Prop :=
  match f, g with
  | Fin m e, Fin m' e' => (fval m e <= fval m' e')%Q
  | Inf true, Fin _ _ | Fin _ _, Inf false | Inf true, Inf _ | Inf false, Inf false => True
  | _, _ => False
  end.
Theorem C86_monotone x y f g : nearest_float x f -> nearest_float y g -> (x <= y)%Q -> float_le f g.
Proof.
  intros Nx Ny L. assert (Lp : (0 < limit)%Q) by (unfold limit; rewrite <- (fval_zero 103); apply fval_lt; reflexivity).
  destruct f as [m e|s|], g as [m' e'|s'|]; cbn [nearest_float float_le] in *; try (destruct Nx; fail); try (destruct Ny; fail).
  - destruct Nx as (Sx & Lx & Bx). destruct Ny as (Sy & Ly & By_). destruct (Qlt_le_dec (fval m' e') (fval m e)) as [C|C]; [|exact C]. exfalso. destruct (Bx m' e' Sy) as [B1 T1]. destruct (By_ m e Sx) as [B2 T2].
    assert (M1 : (fval m e + fval m' e' <= 2 * x)%Q).
    { revert B1. destruct (Qlt_le_dec 0 (fval m e - x)) as [A|A]; [rewrite (Qabs_pos (fval m e - x)) by lra|rewrite (Qabs_neg (fval m e - x)) by exact A]; (destruct (Qlt_le_dec 0 (fval m' e' - x)) as [A'|A']; [rewrite (Qabs_pos (fval m' e' - x)) by lra|rewrite (Qabs_neg (fval m' e' - x)) by exact A']); intros B1; lra. }
    assert (M2 : (2 * y <= fval m e + fval m' e')%Q).
    { revert B2. destruct (Qlt_le_dec 0 (fval m e - y)) as [A|A]; [rewrite (Qabs_pos (fval m e - y)) by lra|rewrite (Qabs_neg (fval m e - y)) by exact A]; (destruct (Qlt_le_dec 0 (fval m' e' - y)) as [A'|A']; [rewrite (Qabs_pos (fval m' e' - y)) by lra|rewrite (Qabs_neg (fval m' e' - y)) by exact A']); intros B2; lra. }
    assert (X : (x == y)%Q) by lra.
    (* x = y half way: both even, so equal *)
    assert (Tx : (Qabs (fval m e - x) == Qabs (fval m' e' - x))%Q).
    { rewrite (Qabs_pos (fval m e - x)) by lra. rewrite (Qabs_neg (fval m' e' - x)) by lra. lra. }
    assert (Ty : (Qabs (fval m' e' - y) == Qabs (fval m e - y))%Q) by (rewrite <- X; symmetry; exact Tx).
    destruct (T1 Tx) as [E|E1]; [lra|]. destruct (T2 Ty) as [E|E2]; [lra|]. exact (no_two_even m e m' e' x Sx Sy C E1 E2 (fun a b Sab => proj1 (Bx a b Sab)) ltac:(lra)).
  - destruct s'; [|exact I]. destruct Nx as (_ & Lx & _). destruct Ny as [Ly Sy]. rewrite Qabs_neg in Ly by lra. destruct (Qlt_le_dec 0 x) as [A|A]; [lra|]. rewrite Qabs_neg in Lx by exact A. lra.
  - destruct s; [exact I|]. destruct Ny as (_ & Ly & _). destruct Nx as [Lx Sx]. rewrite Qabs_pos in Lx by lra. rewrite Qabs_pos in Ly by lra. lra.
  - destruct s, s'; try exact I. destruct Nx as [_ Nx], Ny as [_ Ny]. lra.
Qed.
Print Assumptions C86_monotone.

(** ** Integers *)
Lemma empty_ends base letter : ends base letter [] [] [].
Proof. split; [exact I|]. split; [intros _; exact I|]. intros z t r _ E. symmetry in E. apply app_eq_nil in E. apply E. Qed.
(** A long stored as %ld is read as the nearest float, without a warning; exactly if it has at most 24 bits. *)
Theorem C86_integer z : - 2 ^ 63 <= z < 2 ^ 63 -> exists f, nearest_float (inject_Z z) f /\ floatNumber (Record_ (sprintf_ld z) false) = (f, Record_ (sprintf_ld z) false, []) /\
  (Z.abs z <= 2 ^ 24 -> exists m e, f = Fin m e /\ (fval m e == inject_Z z)%Q).
Proof.
  intros R. assert (P : 10 ^ Z.of_nat 20 = 100000000000000000000) by reflexivity.
  assert (H : exists f, nearest_float (inject_Z z) f /\ floatNumber (Record_ (sprintf_ld z) false) = (f, Record_ (sprintf_ld z) false, [])).
  { assert (One : forall n sign, 0 <= n < 10 ^ Z.of_nat 20 -> is_sign sign -> ~ In 0 sign -> exists f, nearest_float (inject_Z (sign_of sign * n)) f /\ floatNumber (Record_ (sign ++ dec_digits 20 n) false) = (f, Record_ (sign ++ dec_digits 20 n) false, [])).
    { intros n sign B G NS. destruct (dec_digits_spec 20 n B ltac:(lia)) as (d & ds & D & V & N).
      assert (NN : ~ In 0 ([] ++ sign ++ dec_digits 20 n ++ [] ++ [] ++ [])) by (cbn [app]; rewrite app_nil_r, in_app_iff; intros [K|K]; [exact (NS K)|exact (digits_no_nul _ _ _ D K)]).
      destruct (C86_decimal [] sign (d :: ds) (dec_digits 20 n) [] [] 0 [] [] ltac:(constructor) G D (NoPoint 10) ltac:(discriminate) (NoPower 101) (empty_ends 10 101) ltac:(intros _; exact I) NN) as (f & F1 & F2).
      exists f. split; [|cbn [app FloatNumModel.value] in F2; rewrite !app_nil_r in F2; exact F2]. eapply nearest_eq; [|exact F1]. rewrite app_nil_r, V. change (0 - Z.of_nat (length (@nil Z))) with 0. rewrite inject_Z_mult. change (inject_Z 10 ^ 0)%Q with 1%Q. ring. }
    unfold sprintf_ld. destruct (Z.ltb_spec z 0) as [E|E].
    - destruct (One (- z) [45] ltac:(lia) ltac:(right; right; reflexivity) ltac:(intros [K|[]]; discriminate K)) as (f & F1 & F2). exists f. split; [|exact F2]. change (sign_of [45]) with (-1) in F1. replace (-1 * - z) with z in F1 by lia. exact F1.
    - destruct (One z [] ltac:(lia) ltac:(left; reflexivity) ltac:(intros [])) as (f & F1 & F2). exists f. split; [|exact F2]. change (sign_of []) with 1 in F1. rewrite Z.mul_1_l in F1. exact F1. }
  destruct H as (f & F1 & F2). exists f. split; [exact F1|]. split; [exact F2|]. intros A.
  destruct (Z.eq_dec (Z.abs z) (2 ^ 24)) as [T|T].
  - assert (S : single (Fin (z / 2) 1)) by (split; lia). apply (C86_exact (inject_Z z) f (z / 2) 1 F1 S). rewrite fval_nonneg by lia. change (2 ^ 1) with 2. replace (z / 2 * 2) with z by lia. reflexivity.
  - apply (C86_exact (inject_Z z) f z 0 F1); [split; lia|]. rewrite fval_int. reflexivity.
Qed.
Print Assumptions C86_integer.
(** set(key,long), other events, getFloat(key). *)
Theorem C86_set S w l1 l2 t k z : - 2 ^ 63 <= z < 2 ^ 63 -> (forall t, tcache (tabs w t) = []) ->
  Forall (plain_event S) l1 -> Forall (plain_event S) l2 ->
  quote_free 34 k -> ~ names_column k -> (forall d text, S k = Some (d, text) -> quote_free 39 text) -> Forall (fun e => ~ writes t k e) l2 ->
  exists v f, last (fst (crun S w (l1 ++ ESet t k (sprintf_ld z) true :: l2 ++ [EGet t k true]))) ONone = OVal v /\
    getFloat v = Some f /\ nearest_float (inject_Z z) f.
Proof.
  intros Z0 E P1 P2 K NC D N. destruct (C86_integer z Z0) as (f & F1 & F2 & _). exists (Some (sprintf_ld z)), f. split; [|split; [|exact F1]].
  - apply C44_read_your_writes; try assumption; [split; [exact K|]; split; [apply sprintf_plain; exact Z0|exact D]|split; [exact K|]; split; [exact NC|reflexivity]].
  - unfold getFloat. cbn [option_map]. rewrite F2. reflexivity.
Qed.
Print Assumptions C86_set.
(** A decimal integer without a leading 0 means the same to getNum and getFloat. *)
Theorem C86_agree ws sign d ds s : Forall (fun c => isspace c = true) ws -> is_sign sign -> digit_string 10 (d :: ds) s -> d <> 0 -> ~ In 0 (ws ++ sign ++ s) ->
  let n := sign_of sign * positional 10 (d :: ds) in
  exists f, getNum (Some (ws ++ sign ++ s)) = Some (saturate n) /\ getFloat (Some (ws ++ sign ++ s)) = Some f /\ nearest_float (inject_Z n) f.
Proof.
  intros W G D NZ N n. assert (N' : ~ In 0 (ws ++ sign ++ s ++ [] ++ [] ++ [])) by (cbn [app]; rewrite app_nil_r; exact N).
  destruct (C86_decimal ws sign (d :: ds) s [] [] 0 [] [] W G D (NoPoint 10) ltac:(discriminate) (NoPower 101) (empty_ends 10 101) ltac:(intros _; exact I) N') as (f & F1 & F2).
  exists f. split; [|split].
  - pose proof (C46_decimal ws sign d ds s [] W G ltac:(rewrite app_nil_r; exact N) D NZ I) as H. rewrite app_nil_r in H. exact H.
  - unfold getFloat. cbn [option_map]. cbn [app FloatNumModel.value] in F2. rewrite !app_nil_r in F2. rewrite F2. reflexivity.
  - eapply nearest_eq; [|exact F1]. subst n. rewrite app_nil_r. change (0 - Z.of_nat (length (@nil Z))) with 0. rewrite inject_Z_mult. change (inject_Z 10 ^ 0)%Q with 1%Q. ring.
Qed.
Print Assumptions C86_agree.
(** With one it does not: getNum takes octal digits. *)
Theorem C86_octal_refuted : getNum (Some (lit "017")) = Some 15 /\ exists m e, getFloat (Some (lit "017")) = Some (Fin m e) /\ (fval m e == 17)%Q.
Proof. split; [reflexivity|]. eexists. eexists. split; [vm_compute; reflexivity|reflexivity]. Qed.
Print Assumptions C86_octal_refuted.

(** ** Warnings *)
Lemma rest_signed ws sign s r : Forall (fun c => isspace c = true) ws -> is_sign sign -> strtol_unsigned s = Some r -> match s with c :: _ => isspace c = false /\ c <> 43 /\ c <> 45 | [] => False end ->
  strtol_rest (ws ++ sign ++ s) = r.
Proof.
  intros W G U H. unfold strtol_rest. rewrite skip_space_app by exact W. destruct s as [|c s]; [destruct H|]. destruct H as (H1 & H2 & H3). destruct G as [->|[->| ->]].
  - cbn [app skip_space]. rewrite H1. replace ((c =? 45) || (c =? 43)) with false by lia. rewrite U. reflexivity.
  - cbn [app]. change (skip_space (43 :: c :: s)) with (43 :: c :: s). cbv iota. change ((43 =? 45) || (43 =? 43)) with true. cbv iota. rewrite U. reflexivity.
  - cbn [app]. change (skip_space (45 :: c :: s)) with (45 :: c :: s). cbv iota. change ((45 =? 45) || (45 =? 43)) with true. cbv iota. rewrite U. reflexivity.
Qed.
Lemma number_rest v r : ~ In 0 v -> v <> [] -> strtol_rest v = r -> number_ (Record_ v false) = (number v, Record_ v (match r with [] => false | _ => true end), match r with [] => [] | _ => [Partly] end).
Proof. intros N NE E. rewrite number_strtol by exact N. unfold number_. cbn [FloatNumModel.value warned]. destruct v as [|c v]; [contradiction NE; reflexivity|]. rewrite c_str_id by exact N. rewrite E. destruct r; reflexivity. Qed.
(** number() warns exactly when something follows the digits. *)
Theorem C86_number ws sign p base ds s rest : Forall (fun c => isspace c = true) ws -> is_sign sign -> digit_string base ds s -> stops base rest -> ~ In 0 (ws ++ sign ++ p ++ s ++ rest) ->
  (base = 10 /\ p = [] /\ (exists d ds', ds = d :: ds' /\ d <> 0) \/ base = 16 /\ (p = lit "0x" \/ p = lit "0X") /\ ds <> [] \/
   base = 8 /\ p = lit "0" /\ (ds = [] -> match rest with x :: h :: _ => x = 120 \/ x = 88 -> forall d, d < 16 -> ~ char_of_digit d h | _ => True end)) ->
  let v := ws ++ sign ++ p ++ s ++ rest in
  number_ (Record_ v false) = (saturate (sign_of sign * positional base ds), Record_ v (match rest with [] => false | _ => true end), match rest with [] => [] | _ => [Partly] end).
Proof.
  intros W G D R N H v.
  assert (NE : p ++ s ++ rest <> [] -> v <> []) by (intros Q K; subst v; apply app_eq_nil in K; destruct K as [_ K]; apply app_eq_nil in K; destruct K as [_ K]; exact (Q K)).
  destruct H as [(-> & -> & d & ds' & -> & NZ)|[(-> & Hp & ND)|(-> & -> & H)]].
  - inversion D as [|? c ? s' [L C] D']; subst. destruct (digit_nospace 10 d c ltac:(lia) L C) as (A1 & A2 & A3 & _).
    subst v. rewrite (number_rest _ rest N); [|apply NE; discriminate|].
    + rewrite number_strtol by exact N. cbn [app]. change (c :: s' ++ rest) with ((c :: s') ++ rest). rewrite (strtol_dec ws sign d ds' (c :: s') rest W G D NZ R). reflexivity.
    + apply rest_signed; [exact W|exact G| |cbn [app]; repeat split; assumption]. cbn [app]. pose proof (scan_app 10 (d :: ds') (c :: s') rest ltac:(lia) D R) as Q. cbn [app] in Q.
      assert (c <> 48) by (unfold char_of_digit in C; lia). unfold strtol_unsigned. rewrite Q. destruct (s' ++ rest) as [|x [|h t]]; replace (c =? 48) with false by lia; reflexivity.
  - destruct ds as [|d ds]; [contradiction ND; reflexivity|]. inversion D as [|? c ? s' [L C] D']; subst.
    assert (X : exists x, p = [48; x] /\ (x = 120 \/ x = 88)) by (destruct Hp as [->| ->]; [exists 120|exists 88]; split; auto). destruct X as (x & -> & Hx).
    subst v. rewrite (number_rest _ rest N); [|apply NE; discriminate|].
    + rewrite number_strtol by exact N. cbn [app]. change (c :: s' ++ rest) with ((c :: s') ++ rest). rewrite (strtol_hex ws sign x d ds (c :: s') rest W G Hx D R). reflexivity.
    + apply rest_signed; [exact W|exact G| |cbn [app]; split; [reflexivity|lia]]. cbn [app]. pose proof (scan_app 16 (d :: ds) (c :: s') rest ltac:(lia) D R) as Q. cbn [app] in Q.
      unfold strtol_unsigned. rewrite Q. rewrite (digit_val_some 16 d c ltac:(lia) L C). replace (lower x =? 120) with true by (destruct Hx as [->| ->]; reflexivity). reflexivity.
  - change (lit "0") with [48] in *. subst v. rewrite (number_rest _ rest N); [|apply NE; discriminate|].
    + rewrite number_strtol by exact N. cbn [app]. rewrite (strtol_oct ws sign ds s rest W G D R H). reflexivity.
    + apply rest_signed; [exact W|exact G| |cbn [app]; split; [reflexivity|lia]]. cbn [app].
      assert (D0 : digit_string 8 (0 :: ds) (48 :: s)) by (constructor; [split; [lia|left; split; [lia|reflexivity]]|exact D]). pose proof (scan_app 8 (0 :: ds) (48 :: s) rest ltac:(lia) D0 R) as Q. cbn [app] in Q.
      unfold strtol_unsigned. rewrite Q. change (48 =? 48) with true. cbn [andb snd]. destruct (s ++ rest) as [|x [|h t]] eqn:E; [reflexivity|reflexivity|].
      destruct ((lower x =? 120) && match digit_val 16 h with Some _ => true | None => false end) eqn:B; [|reflexivity]. exfalso. apply andb_true_iff in B. destruct B as [B1 B2]. assert (X : x = 120 \/ x = 88) by (unfold lower in B1; destruct ((65 <=? x) && (x <=? 90)); lia). destruct D as [|d c ds s [L C] D].
      * cbn [app] in E. subst rest. specialize (H eq_refl). cbv iota beta in H. destruct (digit_val 16 h) as [d|] eqn:E2; [|discriminate]. destruct (digit_val_inv 16 h d ltac:(lia) E2) as [L C]. exact (H X d L C).
      * cbn [app] in E. injection E as E1 E2. subst c. unfold char_of_digit in C. lia.
Qed.
Print Assumptions C86_number.
(** The results do not depend on whether there was a warning before. *)
Theorem C86_values v b : fst (fst (floatNumber (Record_ v b))) = fst (fst (floatNumber (Record_ v false))) /\ fst (fst (number_ (Record_ v b))) = number v.
Proof.
  unfold floatNumber, number_, number. cbn [FloatNumModel.value warned]. destruct v as [|c v]; [destruct b; split; reflexivity|]. destruct b, (strtof (c_str (c :: v))) as [f [|x r]], (strtol_rest (c_str (c :: v))) as [|y r']; split; reflexivity.
Qed.
Print Assumptions C86_values.
(** However often a value is asked for, there is at most one warning: that of the first request
    that warns on a fresh record. *)
Definition warns (v : list Z) (q : request) : list message := snd (requests (Record_ v false) [q]).
Definition is_bad (v : list Z) (q : request) : bool := match warns v q with [] => false | _ => true end.
Theorem C86_warn v l : snd (requests (Record_ v false) l) = match find (is_bad v) l with Some q => warns v q | None => [] end /\
  (length (snd (requests (Record_ v false) l)) <= 1)%nat /\ snd (requests (Record_ v true) l) = [] /\ fst (requests (Record_ v true) l) = Record_ v true.
Proof.
  assert (T : forall l, requests (Record_ v true) l = (Record_ v true, [])).
  { intros l'. induction l' as [|q l' IH]; [reflexivity|]. cbn [requests]. assert (E : (match q with AsNumber => let '(_, r1, m) := number_ (Record_ v true) in (r1, m) | AsFloat => let '(_, r1, m) := floatNumber (Record_ v true) in (r1, m) end) = (Record_ v true, [])).
    { destruct q; unfold number_, floatNumber; cbn [FloatNumModel.value warned]; destruct v as [|c v']; try reflexivity; try (destruct (strtol_rest (c_str (c :: v'))); reflexivity); try (destruct (strtof []) as [? [|? ?]]; reflexivity); destruct (strtof (c_str (c :: v'))) as [? [|? ?]]; reflexivity. }
    rewrite E, IH. reflexivity. }
  assert (W : forall q, exists b m, (match q with AsNumber => let '(_, r1, m) := number_ (Record_ v false) in (r1, m) | AsFloat => let '(_, r1, m) := floatNumber (Record_ v false) in (r1, m) end) = (Record_ v b, m) /\ warns v q = m /\ (b = false /\ m = [] \/ b = true /\ length m = 1%nat)).
  { intros q. unfold warns. cbn [requests]. destruct q; unfold number_, floatNumber; cbn [FloatNumModel.value warned]; destruct v as [|c v'].
    - exists true, [Null]. auto.
    - destruct (strtol_rest (c_str (c :: v'))); [exists false, []|exists true, [Partly]]; auto.
    - exists true, [Null]. auto.
    - destruct (strtof (c_str (c :: v'))) as [f [|x r]]; [exists false, []|exists true, [Partly]]; auto. }
  assert (M : snd (requests (Record_ v false) l) = match find (is_bad v) l with Some q => warns v q | None => [] end).
  { induction l as [|q l IH]; [reflexivity|]. cbn [requests find]. destruct (W q) as (b & m & E & Wq & Hb). rewrite E. unfold is_bad at 1. rewrite Wq. destruct Hb as [[-> ->]|[-> Lm]].
    - destruct (requests (Record_ v false) l) as [r2 m2]. cbn [snd] in IH. exact IH.
    - rewrite T. destruct m; [discriminate Lm|]. cbn [snd]. rewrite app_nil_r. symmetry. exact Wq. }
  split; [exact M|]. split; [|rewrite T; split; reflexivity]. rewrite M. destruct (find (is_bad v) l) as [q|]; [|cbn [length]; lia]. destruct (W q) as (b & m & _ & -> & [[_ ->]|[_ ->]]); cbn [length]; lia.
Qed.
Print Assumptions C86_warn.
Example C86_ex :
  map (fun s => floatNumber (Record_ s false)) [lit "0.1"; lit "-1.5e2 dB"; lit "0x1.8p-1"; lit "3.4028236e38"; lit "1e-46"; lit "16777217"; lit " .5"; lit "-INFINITY"; lit "nan(12)x"; lit "e5"; lit ""]
  = [(Fin 13421773 (-27), Record_ (lit "0.1") false, []); (Fin (-9830400) (-16), Record_ (lit "-1.5e2 dB") true, [Partly]); (Fin 12582912 (-24), Record_ (lit "0x1.8p-1") false, []); (Inf false, Record_ (lit "3.4028236e38") false, []); (Fin 0 (-149), Record_ (lit "1e-46") false, []); (Fin 8388608 1, Record_ (lit "16777217") false, []); (Fin 8388608 (-24), Record_ (lit " .5") false, []); (Inf true, Record_ (lit "-INFINITY") false, []); (NaN, Record_ (lit "nan(12)x") true, [Partly]); (Fin 0 0, Record_ (lit "e5") true, [Partly]); (Fin 0 0, Record_ [] true, [Null])]
  /\ snd (requests (Record_ (lit "1.5") false) [AsFloat; AsFloat; AsNumber; AsNumber]) = [Partly] /\ snd (requests (Record_ (lit "1.5") false) [AsFloat; AsFloat]) = [].
Proof. split; [|split]; vm_compute; reflexivity. Qed.
