(** C102: lemmas about the conversion %g. *)
From Coq Require Import Lia QArith Qabs Qpower Lqa.
From Verif Require Import Base BaseFacts UtilsModel ConfigModel ConfigSpec NumProofs IsoModel F16Model F16Float F16FloatProofs FloatNumModel FloatNumProps FloatRangeProps SecondsModel SecondsProps SigObjProps StatTextModel.
Local Open Scope Z_scope.

(** ** What a user expects *)
Definition ten (k : Z) : Q := inject_Z 10 ^ k.
(** A decimal number, with or without exponent, and nothing else. *)
Definition stands_for (t : list Z) (q : Q) : Prop := exists sign a A b F e X, is_sign sign /\ digit_string 10 a A /\ fraction 10 b F /\ a <> [] /\ power 101 e X /\
  t = sign ++ A ++ F ++ X /\ (q == decimal_value sign a b e)%Q.

(** ** Powers of ten *)
Lemma ten_pos k : (0 < ten k)%Q.
Proof. apply qpow_pos. lia. Qed.
Lemma ten_add a b : (ten (a + b) == ten a * ten b)%Q.
Proof. unfold ten. apply Qpower_plus. discriminate. Qed.
Lemma ten_int k : 0 <= k -> (ten k == inject_Z (10 ^ k))%Q.
Proof. intros K. unfold ten. symmetry. apply Zpower_Qpower. exact K. Qed.
Lemma ten_0 : (ten 0 == 1)%Q. Proof. reflexivity. Qed.
Lemma ten_opp k : (ten k * ten (- k) == 1)%Q.
Proof. rewrite <- ten_add. replace (k + - k) with 0 by lia. reflexivity. Qed.
Lemma pow10_pos k : 0 <= k -> 0 < 10 ^ k.
Proof. intros K. apply Z.pow_pos_nonneg; lia. Qed.
Lemma pow10_add a b : 0 <= a -> 0 <= b -> 10 ^ (a + b) = 10 ^ a * 10 ^ b.
Proof. intros A B. apply Z.pow_add_r; assumption. Qed.

(** ** The first digit *)
Lemma tens_spec fuel : forall q, 1 <= q -> Z.log2 q <= Z.of_nat fuel -> let x := tens fuel q in 0 <= x /\ 10 ^ x <= q < 10 ^ (x + 1).
Proof.
  induction fuel as [|fuel IH]; intros q Q L.
  - assert (q = 1). { assert (Z.log2 q = 0) by (pose proof (Z.log2_nonneg q); lia). apply Z.log2_null in H. lia. } subst q. cbn [tens]. split; [lia|]. change (10 ^ 0) with 1. change (10 ^ (0 + 1)) with 10. lia.
  - cbn [tens]. destruct (Z.ltb_spec q 10) as [H|H]; [split; [lia|]; change (10 ^ 0) with 1; change (10 ^ (0 + 1)) with 10; lia|].
    assert (L' : Z.log2 (q / 10) <= Z.of_nat fuel).
    { apply Z.le_trans with (Z.log2 (q / 2)); [apply Z.log2_le_mono; lia|]. replace (q / 2) with (Z.shiftr q 1) by (rewrite Z.shiftr_div_pow2 by lia; reflexivity). rewrite Z.log2_shiftr by lia. lia. }
    destruct (IH (q / 10) ltac:(lia) L') as (P & A). set (x := tens fuel (q / 10)) in *. split; [lia|]. replace (1 + x + 1) with (1 + (x + 1)) by lia. rewrite !pow10_add by lia. change (10 ^ 1) with 10 in *. rewrite pow10_add in A by lia. change (10 ^ 1) with 10 in A. lia.
Qed.
Lemma tenths_spec fuel : forall n d, 0 < n -> 0 < d -> d < n * 2 ^ Z.of_nat fuel -> let x := tenths fuel n d in x <= 0 /\ d <= n * 10 ^ (- x) /\ (x < 0 -> n * 10 ^ (- x - 1) < d).
Proof.
  induction fuel as [|fuel IH]; intros n d N D H.
  - cbn [tenths]. change (2 ^ Z.of_nat 0) with 1 in H. split; [lia|]. change (10 ^ (- 0)) with 1. lia.
  - cbn [tenths]. destruct (Z.leb_spec d n) as [L|L]; [split; [lia|]; change (10 ^ (- 0)) with 1; lia|].
    rewrite Nat2Z.inj_succ, Z.pow_succ_r in H by lia. pose proof (two_pos (Z.of_nat fuel) ltac:(lia)).
    destruct (IH (n * 10) d ltac:(lia) D ltac:(nia)) as (A & B & C). set (x := tenths fuel (n * 10) d) in *. split; [lia|]. split.
    + replace (- (x - 1)) with (1 + - x) by lia. rewrite pow10_add by lia. change (10 ^ 1) with 10. lia.
    + intros _. replace (- (x - 1) - 1) with (- x) by lia. destruct (Z.eq_dec x 0) as [E|E]; [rewrite E; change (10 ^ (- 0)) with 1; lia|].
      specialize (C ltac:(lia)). replace (- x) with (1 + (- x - 1)) by lia. rewrite pow10_add by lia. change (10 ^ 1) with 10. lia.
Qed.
Lemma tlog_spec n d : 0 < n -> 0 < d -> let x := tlog n d in
  (0 <= x /\ d * 10 ^ x <= n < d * 10 ^ (x + 1)) \/ (x < 0 /\ d <= n * 10 ^ (- x) /\ n * 10 ^ (- x - 1) < d).
Proof.
  intros N D. unfold tlog. destruct (Z.leb_spec d n) as [L|L].
  - left. assert (1 <= n / d) by (apply Z.div_le_lower_bound; lia). destruct (tens_spec (Z.to_nat (Z.log2 (n / d))) (n / d) H ltac:(pose proof (Z.log2_nonneg (n / d)); lia)) as (P & A & B).
    set (x := tens _ _) in *. pose proof (Z.div_mod n d ltac:(lia)). pose proof (Z.mod_pos_bound n d D). cbv zeta. split; [exact P|]. nia.
  - right. pose proof (Z.log2_nonneg d). destruct (tenths_spec (Z.to_nat (Z.log2 d + 1)) n d N D) as (P & A & B).
    { rewrite Z2Nat.id by lia. destruct (Z.log2_spec d D) as [_ U]. unfold Z.succ in U. nia. }
    set (x := tenths _ _ _) in *. cbv zeta. assert (x < 0). { destruct (Z.eq_dec x 0) as [E|E]; [rewrite E in A; change (10 ^ (- 0)) with 1 in A; lia|lia]. } auto.
Qed.

(** ** The digits *)
Lemma rhe_between n d a b : 0 < d -> a * d <= n <= b * d -> a <= rhe n d <= b.
Proof. intros D [A B]. pose proof (rhe_mono _ _ d D A) as A'. pose proof (rhe_mono _ _ d D B) as B'. rewrite rhe_exact in A', B' by exact D. lia. Qed.
(** The quotient between powers of ten. *)
Definition within (x : Z) (q : Q) : Prop := (ten x <= q /\ q < ten (x + 1))%Q.
Lemma within_eq x q q' : (q == q')%Q -> within x q -> within x q'.
Proof. intros E [A B]. split; lra. Qed.
Lemma tlog_within n d : 0 < n -> 0 < d -> within (tlog n d) (inject_Z n / inject_Z d).
Proof.
  intros N D. pose proof (iz_pos d D) as D'. pose proof (tlog_spec n d N D) as T. cbv zeta in T. set (x := tlog n d) in *. unfold within.
  destruct T as [(P & A & B)|(P & A & B)].
  - rewrite !ten_int by lia. split; [apply Qle_shift_div_l|apply Qlt_shift_div_r]; try exact D'; rewrite <- inject_Z_mult; [rewrite <- Zle_Qle; lia|rewrite <- Zlt_Qlt; lia].
  - split.
    + apply Qle_shift_div_l; [exact D'|]. rewrite Zle_Qle, inject_Z_mult, <- ten_int in A by lia. pose proof (ten_pos x) as T0. pose proof (ten_opp x) as T1.
      assert (H : (inject_Z d * ten x <= inject_Z n * ten (- x) * ten x)%Q) by (apply Qmult_le_compat_r; [exact A|lra]). setoid_replace (inject_Z n * ten (- x) * ten x)%Q with (inject_Z n * (ten x * ten (- x)))%Q in H by ring. rewrite T1 in H. lra.
    + apply Qlt_shift_div_r; [exact D'|]. rewrite Zlt_Qlt, inject_Z_mult, <- ten_int in B by lia. replace (- x - 1) with (- (x + 1)) in B by lia. pose proof (ten_pos (x + 1)) as T0. pose proof (ten_opp (x + 1)) as T1.
      assert (H : (inject_Z n * ten (- (x + 1)) * ten (x + 1) < inject_Z d * ten (x + 1))%Q) by (apply Qmult_lt_compat_r; [exact T0|exact B]). setoid_replace (inject_Z n * ten (- (x + 1)) * ten (x + 1))%Q with (inject_Z n * (ten (x + 1) * ten (- (x + 1))))%Q in H by ring. rewrite T1 in H. lra.
Qed.
Lemma digits_spec p n d : (1 <= p)%nat -> 0 < n -> 0 < d -> let q := (inject_Z n / inject_Z d)%Q in let x := tlog n d in
  let (m, X) := digits_of p n d in 10 ^ (Z.of_nat p - 1) <= m < 10 ^ Z.of_nat p /\ (X = x \/ X = x + 1) /\
  (Qabs (inject_Z m * ten (X + 1 - Z.of_nat p) - q) <= (1 # 2) * ten (x + 1 - Z.of_nat p))%Q /\
  exists k, (inject_Z m * ten (X + 1 - Z.of_nat p) == inject_Z k * ten (x + 1 - Z.of_nat p))%Q /\ 0 <= k <= 10 ^ Z.of_nat p.
Proof.
  intros P N D q x. unfold digits_of. cbv zeta. fold x. set (k := Z.of_nat p - 1 - x).
  pose proof (tlog_spec n d N D) as T. cbv zeta in T. fold x in T. pose proof (iz_pos d D) as D'.
  assert (S : exists M W, (if 0 <=? k then rhe (n * 10 ^ k) d else rhe n (d * 10 ^ (- k))) = rhe M W /\ 0 < W /\ 10 ^ (Z.of_nat p - 1) * W <= M <= 10 ^ Z.of_nat p * W /\ (inject_Z M == q * ten k * inject_Z W)%Q).
  { assert (Pp : 10 ^ Z.of_nat p = 10 * 10 ^ (Z.of_nat p - 1)) by (replace (Z.of_nat p) with (1 + (Z.of_nat p - 1)) at 1 by lia; rewrite pow10_add by lia; reflexivity).
    pose proof (pow10_pos (Z.of_nat p - 1) ltac:(lia)) as Pm.
    destruct (Z.leb_spec 0 k) as [K|K].
    - exists (n * 10 ^ k), d. split; [reflexivity|]. split; [exact D|]. split.
      + destruct T as [(X0 & A & B)|(X0 & A & B)].
        * assert (E : 10 ^ (Z.of_nat p - 1) = 10 ^ x * 10 ^ k) by (rewrite <- pow10_add by lia; f_equal; lia). rewrite Pp, E. rewrite pow10_add in B by lia. change (10 ^ 1) with 10 in B. pose proof (pow10_pos k K). nia.
        * assert (E : 10 ^ k = 10 ^ (- x) * 10 ^ (Z.of_nat p - 1)) by (rewrite <- pow10_add by lia; f_equal; lia). assert (E' : 10 ^ k = 10 ^ (- x - 1) * 10 ^ Z.of_nat p) by (rewrite <- pow10_add by lia; f_equal; lia).
          pose proof (pow10_pos (Z.of_nat p) ltac:(lia)). split; [rewrite E; nia|rewrite E'; nia].
      + rewrite inject_Z_mult, ten_int by lia. unfold q. field. lra.
    - exists n, (d * 10 ^ (- k)). split; [reflexivity|]. pose proof (pow10_pos (- k) ltac:(lia)) as Pk. split; [nia|]. split.
      + destruct T as [(X0 & A & B)|(X0 & A & B)]; [|lia].
        assert (E : 10 ^ x = 10 ^ (Z.of_nat p - 1) * 10 ^ (- k)) by (rewrite <- pow10_add by lia; f_equal; lia). rewrite pow10_add in B by lia. change (10 ^ 1) with 10 in B. rewrite Pp. nia.
      + rewrite inject_Z_mult, <- ten_int by lia. pose proof (ten_opp k). unfold q. setoid_replace (inject_Z n / inject_Z d * ten k * (inject_Z d * ten (- k)))%Q with (inject_Z n * (ten k * ten (- k)))%Q by (field; lra). rewrite H. ring. }
  destruct S as (M & W & Em & PW & R & V). rewrite Em. set (m := rhe M W). pose proof (rhe_between M W _ _ PW R) as Rm. fold m in Rm. pose proof (rhe_half M W PW) as Hh. fold m in Hh. pose proof (iz_pos W PW) as W'.
  assert (C : (Qabs (inject_Z m * ten (- k) - q) <= (1 # 2) * ten (- k))%Q).
  { rewrite Zle_Qle, !inject_Z_mult in Hh. rewrite <- (fval_int (Z.abs _)), <- fval_abs, fval_int in Hh. unfold Z.sub in Hh. rewrite inject_Z_plus, inject_Z_opp, inject_Z_mult, V in Hh. change (inject_Z 2) with 2%Q in Hh.
    setoid_replace (inject_Z W * inject_Z m + - (q * ten k * inject_Z W))%Q with ((inject_Z m - q * ten k) * inject_Z W)%Q in Hh by ring. rewrite Qabs_Qmult, (Qabs_pos (inject_Z W)) in Hh by lra.
    assert (H1 : (Qabs (inject_Z m - q * ten k) <= 1 # 2)%Q) by (apply (Qmult_le_r _ _ (inject_Z W) W'); lra).
    pose proof (ten_opp k) as To. pose proof (ten_pos (- k)) as Tp. setoid_replace (inject_Z m * ten (- k) - q)%Q with ((inject_Z m - q * ten k) * ten (- k))%Q by (setoid_replace ((inject_Z m - q * ten k) * ten (- k))%Q with (inject_Z m * ten (- k) - q * (ten k * ten (- k)))%Q by ring; rewrite To; ring).
    rewrite Qabs_Qmult, (Qabs_pos (ten (- k))) by lra. apply Qmult_le_compat_r; lra. }
  replace (x + 1 - Z.of_nat p) with (- k) by lia.
  destruct (Z.eqb_spec m (10 ^ Z.of_nat p)) as [E|E].
  - split; [split; [lia|apply Z.pow_lt_mono_r; lia]|]. split; [right; reflexivity|].
    assert (Ev : (inject_Z (10 ^ (Z.of_nat p - 1)) * ten (x + 1 + 1 - Z.of_nat p) == inject_Z m * ten (- k))%Q).
    { rewrite E, <- !ten_int by lia. rewrite <- !ten_add. replace (Z.of_nat p - 1 + (x + 1 + 1 - Z.of_nat p)) with (Z.of_nat p + - k) by lia. reflexivity. }
    split; [rewrite Ev; exact C|]. pose proof (pow10_pos (Z.of_nat p - 1) ltac:(lia)). exists m. split; [exact Ev|lia].
  - split; [lia|]. split; [left; reflexivity|]. replace (x + 1 - Z.of_nat p) with (- k) by lia. split; [exact C|]. pose proof (pow10_pos (Z.of_nat p - 1) ltac:(lia)). exists m. split; [reflexivity|lia].
Qed.

(** ** The text *)
Definition dg (s : list Z) : list Z := map (fun c => c - 48) s.
Definition figures (s : list Z) : Prop := Forall (fun c => 48 <= c <= 57) s.
Lemma dg_string s : figures s -> digit_string 10 (dg s) s.
Proof. intros F. induction F as [|c s H F IH]; [constructor|]. constructor; [split; [lia|left; lia]|exact IH]. Qed.
Lemma dg_app a b : dg (a ++ b) = dg a ++ dg b.
Proof. apply map_app. Qed.
Lemma dg_length s : length (dg s) = length s.
Proof. apply map_length. Qed.
Lemma dg_zeros j : dg (repeat 48 j) = repeat 0 j.
Proof. induction j as [|j IH]; [reflexivity|]. cbn [repeat dg map]. f_equal. exact IH. Qed.
Lemma positional_fold s : positional 10 (dg s) = fold_left (fun a c => a * 10 + (c - 48)) s 0.
Proof.
  assert (G : forall s v, fold_left (fun a c => a * 10 + (c - 48)) s v = v * 10 ^ Z.of_nat (length s) + positional 10 (dg s)).
  { clear s. induction s as [|c s IH]; intros v; [cbn [fold_left dg map positional length]; change (10 ^ Z.of_nat 0) with 1; lia|]. cbn [fold_left dg map positional length]. fold (dg s). rewrite IH, dg_length, Nat2Z.inj_succ, Z.pow_succ_r by lia. ring. }
  rewrite G. lia.
Qed.
Lemma positional_zero j : positional 10 (repeat 0 j) = 0.
Proof. induction j as [|j IH]; [reflexivity|]. cbn [repeat positional]. rewrite IH. lia. Qed.
Lemma figures_bound s : figures s -> 0 <= positional 10 (dg s) < 10 ^ Z.of_nat (length s).
Proof.
  intros F. induction F as [|c s H F IH]; [cbn; lia|]. cbn [dg map positional length]. fold (dg s). rewrite dg_length, Nat2Z.inj_succ, Z.pow_succ_r by lia. nia.
Qed.
Lemma dec_figures p m : (1 <= p)%nat -> 10 ^ (Z.of_nat p - 1) <= m < 10 ^ Z.of_nat p -> let s := dec_digits p m in figures s /\ length s = p /\ positional 10 (dg s) = m.
Proof.
  intros P R s. pose proof (pow10_pos (Z.of_nat p - 1) ltac:(lia)). destruct (dec_value p m ltac:(lia) ltac:(lia)) as [V F]. fold s in V, F. split; [exact F|]. rewrite <- positional_fold in V. split; [|exact V].
  pose proof (figures_bound s F) as B. rewrite V in B. assert (L : (length s <= p)%nat) by (apply dec_digits_len; lia).
  destruct (Nat.eq_dec (length s) p) as [E|E]; [exact E|]. assert (10 ^ Z.of_nat (length s) <= 10 ^ (Z.of_nat p - 1)) by (apply Z.pow_le_mono_r; lia). lia.
Qed.
Lemma no_zeros_spec l : exists j, l = no_zeros l ++ repeat 48 j.
Proof.
  induction l as [|c l (j & IH)]; [exists 0%nat; reflexivity|]. cbn [no_zeros]. destruct (no_zeros l) as [|d t] eqn:E.
  - cbn [app] in IH. destruct (Z.eqb_spec c 48) as [->|N]; [exists (S j); cbn [app repeat]; f_equal; exact IH|exists j; cbn [app]; f_equal; exact IH].
  - exists j. cbn [app] in *. f_equal. exact IH.
Qed.
Lemma no_zeros_last l : match rev (no_zeros l) with [] => True | c :: _ => c <> 48 end.
Proof.
  induction l as [|c l IH]; [exact I|]. cbn [no_zeros]. destruct (no_zeros l) as [|d t] eqn:E; [destruct (Z.eqb_spec c 48) as [H|H]; [exact I|exact H]|].
  cbn [rev] in *. destruct (rev t ++ [d]) as [|x r] eqn:Er; [destruct (rev t); discriminate Er|]. cbn [app]. exact IH.
Qed.
Lemma pointed_spec whole part : figures whole -> figures part ->
  exists b F, fraction 10 b F /\ pointed whole part = whole ++ F /\ (length F <= S (length part))%nat /\ ~ In 101 F /\
    (inject_Z (positional 10 (dg whole ++ b)) * ten (- Z.of_nat (length b)) == inject_Z (positional 10 (dg (whole ++ part))) * ten (- Z.of_nat (length part)))%Q.
Proof.
  intros W P. unfold pointed. destruct (no_zeros_spec part) as (j & E). set (t := no_zeros part) in *.
  assert (Ft : figures t) by (unfold figures in P; rewrite E in P; apply Forall_app in P; apply P).
  assert (V : forall b, b = dg t -> (inject_Z (positional 10 (dg whole ++ b)) * ten (- Z.of_nat (length b)) == inject_Z (positional 10 (dg (whole ++ part))) * ten (- Z.of_nat (length part)))%Q).
  { intros b ->. rewrite E. rewrite !dg_app, dg_zeros, app_assoc. rewrite (positional_app 10 (dg whole ++ dg t)) by lia. rewrite positional_zero, repeat_length, Z.add_0_r, inject_Z_mult, app_length, repeat_length, dg_length, <- ten_int by lia.
    rewrite <- Qmult_assoc, <- ten_add. replace (Z.of_nat j + - Z.of_nat (length t + j)) with (- Z.of_nat (length t)) by lia. reflexivity. }
  assert (L : (length t <= length part)%nat) by (apply (f_equal (@length Z)) in E; rewrite app_length in E; lia).
  destruct t as [|c t'] eqn:Et.
  - exists [], []. split; [constructor|]. split; [reflexivity|]. split; [cbn; lia|]. split; [intros []|apply V; reflexivity].
  - exists (dg (c :: t')), (46 :: c :: t'). split; [constructor; apply dg_string; exact Ft|]. split; [reflexivity|]. split; [cbn [length] in *; lia|]. split; [|apply V; reflexivity].
    intros [H|H]; [discriminate H|]. unfold figures in Ft. rewrite Forall_forall in Ft. specialize (Ft _ H). lia.
Qed.
Lemma ten_le a b : a <= b -> (ten a <= ten b)%Q.
Proof.
  intros H. replace b with (a + (b - a)) by lia. rewrite ten_add, (ten_int (b - a)) by lia. pose proof (ten_pos a). assert (1 <= inject_Z (10 ^ (b - a)))%Q by (change 1%Q with (inject_Z 1); rewrite <- Zle_Qle; pose proof (pow10_pos (b - a) ltac:(lia)); lia). nra.
Qed.
Lemma ten_lt_inv a b : (ten a < ten b)%Q -> a < b.
Proof. intros H. destruct (Z.lt_ge_cases a b) as [L|L]; [exact L|]. pose proof (ten_le b a L). lra. Qed.
Lemma within_range x q lo hi : within x q -> (ten lo <= q)%Q -> (q < ten hi)%Q -> lo <= x < hi.
Proof. intros [A B] L H. split; [assert (lo < x + 1) by (apply ten_lt_inv; lra); lia|apply ten_lt_inv; lra]. Qed.
Lemma within_unique x y q : within x q -> within y q -> x = y.
Proof. intros [A B] [C D]. assert (x < y + 1) by (apply ten_lt_inv; lra). assert (y < x + 1) by (apply ten_lt_inv; lra). lia. Qed.
Lemma pad0_figures k n : 0 <= n < 10 ^ 20 -> figures (pad0 k n) /\ positional 10 (dg (pad0 k n)) = n /\ pad0 k n <> [] /\ (n < 10 ^ Z.of_nat k -> (0 < k)%nat -> length (pad0 k n) = k).
Proof.
  intros R. unfold pad0. replace (n <? 0) with false by lia. rewrite Z.abs_eq by lia. cbn [app]. change (10 ^ 20) with (10 ^ Z.of_nat 20) in R. destruct (dec_value 20 n R ltac:(lia)) as [V F].
  split; [apply Forall_app; split; [apply Forall_forall; intros c H; apply repeat_spec in H; lia|exact F]|].
  split; [rewrite dg_app, dg_zeros, positional_zeros, positional_fold; exact V|].
  split.
  - intros E. apply app_eq_nil in E as [_ E]. cbn [dec_digits] in E. destruct (_ ++ _) eqn:X in E; [apply app_eq_nil in X as [_ X]; discriminate X|discriminate E].
  - intros B K. rewrite app_length, repeat_length. pose proof (dec_digits_len 20 n k ltac:(lia) K). lia.
Qed.

(** The parts of the text, and the number they make. *)
Lemma general_pos_spec p n d : (1 <= p)%nat -> 0 < n -> 0 < d -> -1000 <= tlog n d <= 1000 ->
  exists A b F e X, figures A /\ A <> [] /\ fraction 10 b F /\ power 101 e X /\ general_pos p n d = A ++ F ++ X /\ ~ In 101 (A ++ F) /\
    (length (A ++ F) <= p + 5)%nat /\
    (let (m, x) := digits_of p n d in (inject_Z (positional 10 (dg A ++ b)) * ten (e - Z.of_nat (length b)) == inject_Z m * ten (x + 1 - Z.of_nat p))%Q /\
       (Z.of_nat p <= x -> X = 101 :: 43 :: pad0 2 x /\ (length (A ++ F) <= p + 1)%nat) /\ (-4 <= x < Z.of_nat p -> X = [])).
Proof.
  intros P N D R. pose proof (digits_spec p n d P N D) as S. unfold general_pos. cbv zeta in S. destruct (digits_of p n d) as [m x]. destruct S as (Rm & Hx & _). cbv zeta.
  destruct (dec_figures p m P Rm) as (Fs & Ls & Vs). set (s := dec_digits p m) in *.
  assert (Fi : forall k, figures (firstn k s) /\ figures (skipn k s)) by (intros k; unfold figures in *; rewrite <- (firstn_skipn k s) in Fs; apply Forall_app in Fs; exact Fs).
  assert (NoE : forall A, figures A -> ~ In 101 A) by (intros A FA I; unfold figures in FA; rewrite Forall_forall in FA; specialize (FA _ I); lia).
  destruct ((x <? -4) || (Z.of_nat p <=? x)) eqn:Big.
  - destruct (Fi 1%nat) as [F1 F2]. destruct (pointed_spec _ _ F1 F2) as (b & F & Fr & E & LF & NF & V). rewrite firstn_skipn in V. rewrite Vs in V. rewrite skipn_length, Ls in V, LF.
    destruct (pad0_figures 2 (Z.abs x) ltac:(lia)) as (Fp & Vp & Np & _).
    exists (firstn 1 s), b, F, x, (101 :: (if x <? 0 then 45 else 43) :: pad0 2 (Z.abs x)). split; [exact F1|]. split; [intros Z0; apply (f_equal (@length Z)) in Z0; rewrite firstn_length, Ls in Z0; cbn [length] in Z0; lia|]. split; [exact Fr|].
    split. { assert (Pw : power 101 (sign_of [if x <? 0 then 45 else 43] * positional 10 (dg (pad0 2 (Z.abs x)))) (101 :: [if x <? 0 then 45 else 43] ++ pad0 2 (Z.abs x))).
      { constructor; [left; reflexivity|destruct (x <? 0); [right; right; reflexivity|right; left; reflexivity]| |apply dg_string; exact Fp]. intros Z0. apply Np. apply map_eq_nil in Z0. exact Z0. }
      rewrite Vp in Pw. replace (sign_of [if x <? 0 then 45 else 43] * Z.abs x) with x in Pw by (destruct (Z.ltb_spec x 0); cbn [sign_of]; lia). exact Pw. }
    split; [rewrite E, app_assoc; reflexivity|]. split; [intros I; apply in_app_or in I as [I|I]; [exact (NoE _ F1 I)|exact (NF I)]|].
    assert (L2 : (length (firstn 1 s ++ F) <= p + 1)%nat) by (rewrite app_length, firstn_length, Ls; lia). split; [lia|]. split.
    + unfold Z.sub at 1. rewrite ten_add, Qmult_assoc, (Qmult_comm _ (ten x)), <- Qmult_assoc, V. rewrite Qmult_assoc, (Qmult_comm (ten x)), <- Qmult_assoc, <- ten_add. replace (x + - Z.of_nat (p - 1)) with (x + 1 - Z.of_nat p) by lia. reflexivity.
    + split; [intros H; replace (x <? 0) with false by lia; rewrite Z.abs_eq by lia; split; [reflexivity|exact L2]|lia].
  - destruct (Z.leb_spec 0 x) as [H|H].
    + set (k := Z.to_nat (x + 1)). destruct (Fi k) as [F1 F2]. destruct (pointed_spec _ _ F1 F2) as (b & F & Fr & E & LF & NF & V). rewrite firstn_skipn, Vs in V. rewrite skipn_length, Ls in V, LF.
      exists (firstn k s), b, F, 0, []. split; [exact F1|]. split; [intros Z0; apply (f_equal (@length Z)) in Z0; rewrite firstn_length, Ls in Z0; cbn [length] in Z0; lia|]. split; [exact Fr|]. split; [constructor|]. split; [rewrite E, app_nil_r; reflexivity|].
      split; [intros I; apply in_app_or in I as [I|I]; [exact (NoE _ F1 I)|exact (NF I)]|]. split; [rewrite app_length, firstn_length, Ls; lia|]. split; [|split; [lia|reflexivity]].
      change (0 - Z.of_nat (length b)) with (- Z.of_nat (length b)). rewrite V. replace (x + 1 - Z.of_nat p) with (- Z.of_nat (p - k)) by lia. reflexivity.
    + set (z := Z.to_nat (- x - 1)). assert (F2 : figures (repeat 48 z ++ s)) by (apply Forall_app; split; [apply Forall_forall; intros c I; apply repeat_spec in I; lia|exact Fs]).
      assert (F1 : figures [48]) by (constructor; [lia|constructor]). destruct (pointed_spec _ _ F1 F2) as (b & F & Fr & E & LF & NF & V).
      rewrite dg_app, dg_app, dg_zeros in V. change (dg [48]) with (repeat 0 1) in V at 2. rewrite !positional_zeros, Vs in V. rewrite app_length, repeat_length, Ls in V, LF.
      exists [48], b, F, 0, []. split; [exact F1|]. split; [discriminate|]. split; [exact Fr|]. split; [constructor|]. split; [rewrite E, app_nil_r; reflexivity|].
      split; [intros I; apply in_app_or in I as [I|I]; [exact (NoE _ F1 I)|exact (NF I)]|]. split; [rewrite app_length; cbn [length]; lia|]. split; [|split; [lia|reflexivity]].
      change (0 - Z.of_nat (length b)) with (- Z.of_nat (length b)). rewrite V. replace (x + 1 - Z.of_nat p) with (- Z.of_nat (z + p)) by lia. reflexivity.
Qed.

(** ** Doubles *)
Definition numer (x : double) : Z := if 0 <=? snd x then Z.abs (fst x) * 2 ^ snd x else Z.abs (fst x).
Definition denom (x : double) : Z := if 0 <=? snd x then 1 else 2 ^ (- snd x).
Lemma denom_pos x : 0 < denom x.
Proof. unfold denom. destruct (Z.leb_spec 0 (snd x)); [lia|]. apply two_pos. lia. Qed.
Lemma dval_quot x : (Qabs (dval x) == inject_Z (numer x) / inject_Z (denom x))%Q.
Proof.
  destruct x as [m e]. unfold dval, numer, denom. cbn [fst snd]. rewrite fval_abs. destruct (Z.leb_spec 0 e) as [H|H].
  - rewrite fval_nonneg by exact H. change (inject_Z 1) with 1%Q. field.
  - pose proof (iz_pos _ (two_pos (- e) ltac:(lia))). assert (E : (fval (Z.abs m) e * inject_Z (2 ^ (- e)) == inject_Z (Z.abs m))%Q).
    { rewrite <- (fval_int (Z.abs m)). setoid_replace (fval (Z.abs m) 0) with (fval (Z.abs m * 2 ^ (- e)) e) by (rewrite fval_shift by lia; replace (e + - e) with 0 by lia; reflexivity). unfold fval. rewrite inject_Z_mult. ring. }
    rewrite <- E. field. lra.
Qed.
Lemma numer_pos x : fst x <> 0 -> 0 < numer x.
Proof. intros H. unfold numer. destruct (Z.leb_spec 0 (snd x)) as [L|L]; [pose proof (two_pos (snd x) L); nia|lia]. Qed.
Lemma general_eq p x : (1 <= p)%nat -> fst x <> 0 -> general p x = (if fst x <? 0 then [45] else []) ++ general_pos p (numer x) (denom x).
Proof. intros P N. unfold general. replace (match p with O => 1%nat | _ => p end) with p by (destruct p; [lia|reflexivity]). replace (fst x =? 0) with false by lia. reflexivity. Qed.
