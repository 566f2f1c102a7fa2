(** C102: what a Statistic prints. *)
From Coq Require Import Lia QArith Qabs Qpower Lqa.
From Verif Require Import Base BaseFacts UtilsModel UtilsSpec UtilsProps ConfigModel ConfigSpec NumProofs TimevalModel IsoModel F16Model F16Float F16FloatProofs FloatNumModel FloatNumProps FloatRangeProps SecondsModel SecondsProps SigObjProps StatTextModel StatTextProofs.
Local Open Scope Z_scope.

(** ** The number *)
(** The text of a double stands for a number with at most [p] digits, none nearer than half a unit of the last one. *)
Theorem C102_number p x : (1 <= p)%nat -> (ten (-400) <= Qabs (dval x))%Q -> (Qabs (dval x) < ten 400)%Q ->
  exists q e k, stands_for (general p x) q /\ within e (Qabs (dval x)) /\ (q == inject_Z k * ten (e + 1 - Z.of_nat p))%Q /\ Z.abs k <= 10 ^ Z.of_nat p /\
    (Qabs (q - dval x) <= (1 # 2) * ten (e + 1 - Z.of_nat p))%Q.
Proof.
  intros P L H. assert (N : fst x <> 0).
  { intros Z0. destruct x as [m e]. cbn [fst] in Z0. subst m. unfold dval in L. cbn [fst snd] in L. rewrite fval_zero in L. change (Qabs 0) with 0%Q in L. pose proof (ten_pos (-400)). lra. }
  pose proof (numer_pos x N) as Pn. pose proof (denom_pos x) as Pd. pose proof (tlog_within _ _ Pn Pd) as W. apply (within_eq _ _ _ (Qeq_sym _ _ (dval_quot x))) in W. set (e := tlog (numer x) (denom x)) in *.
  pose proof (within_range e _ _ _ W L H) as R. destruct (general_pos_spec p _ _ P Pn Pd ltac:(fold e; lia)) as (A & b & F & y & X & FA & NA & Fr & Pw & E & _ & _ & V).
  pose proof (digits_spec p _ _ P Pn Pd) as S. cbv zeta in S. destruct (digits_of p (numer x) (denom x)) as [m z]. destruct S as (Rm & _ & C & k & Ek & Bk). destruct V as (V & _). rewrite <- dval_quot in C. fold e in C, Ek.
  set (sign := if fst x <? 0 then [45] else [] : list Z). set (sg := sign_of sign).
  assert (Sg : (dval x == inject_Z sg * Qabs (dval x))%Q /\ (sg = 1 \/ sg = -1)).
  { unfold sg, sign. destruct x as [a c]. cbn [fst]. unfold dval. cbn [fst snd]. rewrite fval_abs. destruct (Z.ltb_spec a 0) as [T|T]; (split; [|cbn; lia]); unfold fval, sign_of.
    - rewrite Z.abs_neq, inject_Z_opp by lia. change (inject_Z (-1)) with (-1 # 1)%Q. ring.
    - rewrite Z.abs_eq by lia. change (inject_Z 1) with 1%Q. ring. }
  destruct Sg as [Sg Sg1]. exists (inject_Z sg * (inject_Z m * ten (z + 1 - Z.of_nat p)))%Q, e, (sg * k). split; [|split; [exact W|split; [rewrite Ek, inject_Z_mult; ring|split; [destruct Sg1 as [-> | ->]; lia|]]]].
  - exists sign, (dg A), A, b, F, y, X. split; [unfold sign; destruct (fst x <? 0); [right; right; reflexivity|left; reflexivity]|]. split; [apply dg_string; exact FA|]. split; [exact Fr|].
    split; [intros Z0; apply map_eq_nil in Z0; exact (NA Z0)|]. split; [exact Pw|]. split; [rewrite general_eq by assumption; rewrite E; reflexivity|]. unfold decimal_value. fold sg. unfold ten in V. rewrite V. reflexivity.
  - setoid_replace (inject_Z sg * (inject_Z m * ten (z + 1 - Z.of_nat p)) - dval x)%Q with (inject_Z sg * (inject_Z m * ten (z + 1 - Z.of_nat p) - Qabs (dval x)))%Q by (rewrite Sg at 1; ring).
    rewrite Qabs_Qmult. replace (Qabs (inject_Z sg)) with 1%Q by (destruct Sg1 as [-> | ->]; reflexivity). rewrite Qmult_1_l. exact C.
Qed.
Print Assumptions C102_number.
Theorem C102_zero p e : general p (0, e) = lit "0".
Proof. reflexivity. Qed.
Print Assumptions C102_zero.

(** ** The average *)
Lemma abs_quot n d : 0 < d -> (Qabs (inject_Z n / inject_Z d) == inject_Z (Z.abs n) / inject_Z d)%Q.
Proof.
  intros D. pose proof (iz_pos d D). unfold Qdiv. rewrite Qabs_Qmult, (Qabs_pos (/ _)) by (apply Qlt_le_weak, Qinv_lt_0_compat; assumption). rewrite <- (fval_int n), fval_abs, fval_int. reflexivity.
Qed.
Lemma dquot_rel n d : 0 < d -> n <> 0 -> let a := (inject_Z n / inject_Z d)%Q in (Qabs (dval (dquot n d) - a) <= (1 # 9007199254740992) * Qabs a)%Q.
Proof.
  intros D N a. destruct (flog_spec (Z.abs n) d ltac:(lia) D) as [F1 F2]. rewrite <- (abs_quot n d D) in F1, F2. fold a in F1, F2. set (k := flog (Z.abs n) d) in *.
  pose proof (dquot_err n d (k + 1) D F2) as E. fold a in E. apply Qle_trans with (1 := E). replace (k + 1 - 54) with (k + - 53) by lia.
  assert (X : (fval 1 (k + - 53) == (1 # 9007199254740992) * fval 1 k)%Q).
  { replace (fval 1 (k + - 53)) with (fval (1 * 1) (k + -53)) by reflexivity. rewrite fval_mul. rewrite Qmult_comm. apply Qmult_comp; reflexivity. }
  rewrite X. apply Qmult_le_l; [reflexivity|exact F1].
Qed.
Definition mean (n d : Z) : Q := inject_Z n / inject_Z d.
Lemma mean_range n d : 0 < d <= 999999 -> n <> 0 -> Z.abs n <= 2 ^ 53 -> (ten (-7) <= Qabs (mean n d) /\ Qabs (mean n d) <= inject_Z (2 ^ 53))%Q.
Proof.
  intros D N B. unfold mean. rewrite abs_quot by lia. pose proof (iz_pos d ltac:(lia)) as P. split.
  - apply Qle_shift_div_l; [exact P|]. apply Qle_trans with 1%Q; [|change 1%Q with (inject_Z 1); rewrite <- Zle_Qle; lia]. assert (inject_Z d <= inject_Z 999999)%Q by (rewrite <- Zle_Qle; lia). change (ten (-7)) with (1 # 10000000)%Q. change (inject_Z 999999) with (999999 # 1)%Q in *. lra.
  - apply Qle_shift_div_r; [exact P|]. rewrite <- inject_Z_mult, <- Zle_Qle. nia.
Qed.
Lemma double_range n d : 0 < d <= 999999 -> n <> 0 -> Z.abs n <= 2 ^ 53 -> let x := dquot n d in
  (ten (-400) <= Qabs (dval x))%Q /\ (Qabs (dval x) < ten 400)%Q /\ (Qabs (dval x) <= Qabs (mean n d) * (9007199254740993 # 9007199254740992))%Q /\ (Qabs (dval x - mean n d) <= (1 # 9007199254740992) * Qabs (mean n d))%Q.
Proof.
  intros D N B x. pose proof (dquot_rel n d ltac:(lia) N) as R. cbv zeta in R. fold (mean n d) in R. fold x in R. destruct (mean_range n d D N B) as [L U].
  assert (T1 : (Qabs (dval x) <= Qabs (mean n d) + Qabs (dval x - mean n d))%Q) by (setoid_replace (dval x) with (mean n d + (dval x - mean n d))%Q at 1 by ring; apply Qabs_triangle).
  assert (T2 : (Qabs (mean n d) <= Qabs (dval x) + Qabs (dval x - mean n d))%Q).
  { setoid_replace (mean n d) with (dval x + - (dval x - mean n d))%Q at 1 by ring. apply Qle_trans with (1 := Qabs_triangle _ _). rewrite Qabs_opp. apply Qle_refl. }
  assert (P7 : (ten (-7) == 1 # 10000000)%Q) by reflexivity. rewrite P7 in L.
  split; [|split; [|split]].
  - apply Qle_trans with (ten (-8)); [apply ten_le; lia|]. assert (P8 : (ten (-8) == 1 # 100000000)%Q) by reflexivity. rewrite P8. lra.
  - apply Qlt_le_trans with (ten 17); [|apply ten_le; lia]. assert (P17 : (ten 17 == 100000000000000000)%Q) by reflexivity. rewrite P17. change (inject_Z (2 ^ 53)) with (9007199254740992 # 1)%Q in U. lra.
  - lra.
  - exact R.
Qed.
(** Six digits of the average: within one part in 199999. *)
Lemma average_text n d : 0 < d <= 999999 -> n <> 0 -> Z.abs n <= 2 ^ 53 ->
  exists q, stands_for (general 6 (dquot n d)) q /\ (Qabs (q - mean n d) <= Qabs (mean n d) * (1 # 199999))%Q.
Proof.
  intros D N B. destruct (double_range n d D N B) as (L & H & U & R). set (x := dquot n d) in *.
  destruct (C102_number 6 x ltac:(lia) L H) as (q & e & k & St & W & _ & _ & C). exists q. split; [exact St|].
  assert (T : (Qabs (q - mean n d) <= Qabs (q - dval x) + Qabs (dval x - mean n d))%Q) by (setoid_replace (q - mean n d)%Q with ((q - dval x) + (dval x - mean n d))%Q by ring; apply Qabs_triangle).
  assert (E : (ten (e + 1 - Z.of_nat 6) == (1 # 100000) * ten e)%Q) by (replace (e + 1 - Z.of_nat 6) with (-5 + e) by lia; rewrite ten_add; reflexivity). rewrite E in C. destruct W as [W _]. pose proof (Qabs_nonneg (mean n d)). lra.
Qed.

(** ** The text *)
Definition least_of (l : list Z) (lo : Z) : Prop := In lo l /\ forall v, In v l -> lo <= v.
Definition greatest_of (l : list Z) (hi : Z) : Prop := In hi l /\ forall v, In v l -> v <= hi.
(** The usual stream. *)
Definition plain (s : list Z) : stream := Stream s 6 false.
Lemma sum_bound l B : 0 <= B -> Forall (fun v => Z.abs v <= B) l -> Z.abs (sum l) <= B * Z.of_nat (length l).
Proof. intros P F. induction F as [|v l H F IH]; [cbn; lia|]. cbn [sum fold_right length]. fold (sum l). lia. Qed.
Lemma points_fields l : l <> [] -> Z.of_nat (length l) <= 999999 -> Forall (fun v => Z.abs v <= 2 ^ 32) l ->
  mCnt (points l) = Z.of_nat (length l) /\ mSum (points l) = sum l /\ mCurrent (points l) = last l 0 /\ Z.abs (sum l) <= 2 ^ 53.
Proof.
  intros N L F. assert (C : mCnt (points l) = Z.of_nat (length l)) by (apply C43_count; lia). split; [exact C|].
  assert (S : forall k, Z.abs (sum (firstn k l)) <= 2 ^ 53).
  { intros k. assert (Fk : Forall (fun v => Z.abs v <= 2 ^ 32) (firstn k l)) by (rewrite <- (firstn_skipn k l) in F; apply Forall_app in F; apply F). pose proof (sum_bound (firstn k l) (2 ^ 32) ltac:(lia) Fk). rewrite firstn_length in H. lia. }
  destruct (C43_average l N ltac:(lia) S) as [A Cu]. unfold getAvg, getCurrent in *. rewrite C in *. assert (length l <> O) by (destruct l; [congruence|discriminate]). replace (Z.of_nat (length l) =? 0) with false in * by lia.
  injection A as A. split; [exact A|]. split; [exact Cu|]. specialize (S (length l)). rewrite firstn_all in S. exact S.
Qed.
(** What is printed for any samples, fewer than a million. *)
Theorem C102_text front s l lo hi : l <> [] -> Z.of_nat (length l) <= 999999 -> Forall (fun v => Z.abs v <= 2 ^ 32) l -> least_of l lo -> greatest_of l hi ->
  exists t, text front (plain s) (points l) = Ok (plain (s ++ t)) /\
    if lo =? hi then t = lit "(" ++ sprintf_ld (last l 0) ++ lit ")"
    else exists avg q, stands_for avg q /\ (Qabs (q - mean (sum l) (Z.of_nat (length l))) <= Qabs (mean (sum l) (Z.of_nat (length l))) * (1 # 199999))%Q /\
      t = lit "(" ++ sprintf_ld (last l 0) ++ lit " min=" ++ sprintf_ld lo ++ lit " max=" ++ sprintf_ld hi ++ lit " avg=" ++ avg ++ lit " N=" ++ sprintf_ld (Z.of_nat (length l)) ++ lit ")".
Proof.
  intros N L F Lo Hi. destruct (points_fields l N L F) as (Cn & Su & Cu & SB). assert (Ln : 0 < Z.of_nat (length l) <= 999999) by (assert (length l <> O) by (destruct l; [congruence|discriminate]); lia).
  destruct (C43_min_max l N ltac:(lia)) as [[M1 M2] [X1 X2]]. assert (Em : mMin (points l) = lo) by (destruct Lo as [A B]; pose proof (M2 _ A); pose proof (B _ M1); lia). assert (Ex : mMax (points l) = hi) by (destruct Hi as [A B]; pose proof (X2 _ A); pose proof (B _ X1); lia).
  unfold text. rewrite Em, Ex, Cu, Cn. cbv zeta. destruct (Z.eqb_spec lo hi) as [E|E].
  - cbn [bind]. unfold put_int, put, plain. cbn [written precision is_fixed]. eexists. split; [rewrite <- !app_assoc; reflexivity|reflexivity].
  - replace (Z.of_nat (length l) <=? 999999) with true by lia. cbn [bind]. unfold put_int, put_double, put, plain. cbn [written precision is_fixed].
    assert (A : exists q, stands_for (general 6 (average (points l))) q /\ (Qabs (q - mean (sum l) (Z.of_nat (length l))) <= Qabs (mean (sum l) (Z.of_nat (length l))) * (1 # 199999))%Q).
    { unfold average. rewrite Cn, Su. replace (Z.of_nat (length l) =? 0) with false by lia. destruct (Z.eq_dec (sum l) 0) as [Z0|Z0]; [|apply average_text; assumption].
      rewrite Z0. exists 0%Q. split.
      - exists [], [0], [48], [], [], 0, []. split; [left; reflexivity|]. split; [constructor; [split; [lia|left; lia]|constructor]|]. split; [constructor|]. split; [discriminate|]. split; [constructor|]. split; reflexivity.
      - assert (M0 : (mean 0 (Z.of_nat (length l)) == 0)%Q) by (unfold mean, Qdiv; change (inject_Z 0) with 0%Q; ring). rewrite M0. vm_compute. discriminate. }
    destruct A as (q & St & C). eexists. split; [rewrite <- !app_assoc; reflexivity|]. exists (general 6 (average (points l))), q. split; [exact St|]. split; [exact C|]. reflexivity.
Qed.
Print Assumptions C102_text.
(** Before the first sample. *)
Theorem C102_empty front s : text front (plain s) (points []) = Ok (plain (s ++ lit "(0)")).
Proof. unfold text. cbn [points fold_left stat0 mMin mMax mCurrent]. cbv zeta. change (0 =? 0) with true. cbn [bind]. unfold put_int, put, plain. cbn [written precision is_fixed]. rewrite <- !app_assoc. reflexivity. Qed.
Print Assumptions C102_empty.

(** ** From a million samples on *)
Lemma from_app c a e r : ~ In c a -> e = c -> from c (a ++ e :: r) = Some (a, e :: r).
Proof. intros N ->. induction a as [|x a IH]; cbn [app from]; [rewrite Z.eqb_refl; reflexivity|]. destruct (Z.eqb_spec x c) as [E|E]; [destruct N; left; exact E|]. rewrite IH; [reflexivity|]. intros I. apply N. right. exact I. Qed.
Lemma digit_string_unique s : forall d d', digit_string 10 d s -> digit_string 10 d' s -> d = d'.
Proof.
  induction s as [|c s IH]; intros d d' H H'; inversion H; inversion H'; subst; [reflexivity|]. f_equal; [|apply IH; assumption]. unfold char_of_digit in *. lia.
Qed.
Lemma power_plus e X E : power 101 e X -> X = 101 :: 43 :: E -> figures E -> e = positional 10 (dg E).
Proof.
  intros H. destruct H as [|x sg ds s Q1 Q2 Q3 Q4]; intros EX F; [discriminate EX|]. injection EX as -> EX. destruct Q2 as [->|[->| ->]]; cbn [app] in EX.
  - subst s. inversion Q4 as [|d0 c0 ds0 s1 [D1 D2] D3]. unfold char_of_digit in D2. lia.
  - injection EX as ->. cbn [sign_of]. rewrite (digit_string_unique _ _ _ Q4 (dg_string _ F)). lia.
  - discriminate EX.
Qed.
Lemma short_spec n : 1000000 <= n < 2 ^ 32 -> short false n = UB /\
  exists a E q, general 3 (of_z n) = a ++ 101 :: 43 :: E /\ short true n = Ok (a ++ 101 :: E) /\ (length (a ++ 101%Z :: E) <= 8)%nat /\ stands_for (a ++ 101 :: E) q /\ (Qabs (q - inject_Z n) <= inject_Z n * (1 # 200))%Q.
Proof.
  intros R. set (x := of_z n). assert (V : (dval x == inject_Z n)%Q) by (apply of_z_exact; lia). pose proof (iz_pos n ltac:(lia)) as Pn'.
  assert (Av : (Qabs (dval x) == inject_Z n)%Q) by (rewrite V; apply Qabs_pos; lra).
  assert (Nz : fst x <> 0). { intros Z0. unfold dval in V. rewrite Z0, fval_zero in V. lra. }
  assert (Sg : (fst x <? 0) = false). { destruct (Z.ltb_spec (fst x) 0) as [H|H]; [|reflexivity]. exfalso. unfold dval in V. assert (fval (fst x) (snd x) < fval 0 (snd x))%Q by (apply fval_lt; exact H). rewrite fval_zero in H0. lra. }
  pose proof (numer_pos x Nz) as Pn. pose proof (denom_pos x) as Pd. pose proof (tlog_within _ _ Pn Pd) as W. apply (within_eq _ _ _ (Qeq_sym _ _ (dval_quot x))) in W. apply (within_eq _ _ _ Av) in W.
  assert (Lo : (ten 6 <= inject_Z n)%Q) by (rewrite ten_int by lia; rewrite <- Zle_Qle; change (10 ^ 6) with 1000000; lia). assert (Hi : (inject_Z n < ten 10)%Q) by (rewrite ten_int by lia; rewrite <- Zlt_Qlt; change (10 ^ 10) with 10000000000; lia).
  pose proof (within_range _ _ _ _ W Lo Hi) as T. set (e := tlog (numer x) (denom x)) in *.
  destruct (general_pos_spec 3 _ _ ltac:(lia) Pn Pd ltac:(fold e; lia)) as (A & b & F & y & X & FA & NA & Fr & Pw & G & NE & LA & K).
  pose proof (digits_spec 3 _ _ ltac:(lia) Pn Pd) as S. cbv zeta in S. destruct (digits_of 3 (numer x) (denom x)) as [m z]. fold e in S. destruct S as (Rm & Hz & C & _). rewrite <- dval_quot, Av in C. destruct K as (Vl & Big & _). destruct (Big ltac:(lia)) as [EX L4]. clear Big LA.
  destruct (pad0_figures 2 z ltac:(lia)) as (Fp & Vp & Np & Lp). specialize (Lp ltac:(change (10 ^ Z.of_nat 2) with 100; lia) ltac:(lia)). set (E := pad0 2 z) in *.
  assert (Gx : general 3 x = (A ++ F) ++ 101 :: 43 :: E) by (rewrite general_eq by (lia || exact Nz); rewrite Sg, G, EX; cbn [app]; rewrite app_assoc; reflexivity).
  assert (Lg : (10 <=? length (general 3 x))%nat = false) by (rewrite Gx, app_length; cbn [length]; rewrite Lp; apply Nat.leb_gt; lia).
  assert (Sh : forall front, short front n = match E with [] => Ok ((A ++ F) ++ [101]) | _ => if front then Ok ((A ++ F) ++ 101 :: E) else UB end).
  { intros front. unfold short. cbv zeta. fold x. rewrite Lg, Gx, (from_app 101 (A ++ F) 101 (43 :: E) NE eq_refl). reflexivity. }
  clearbody E. destruct E as [|c E']; [discriminate Lp|]. split; [rewrite Sh; reflexivity|].
  exists (A ++ F), (c :: E'), (inject_Z m * ten (z + 1 - Z.of_nat 3))%Q. split; [exact Gx|]. split; [rewrite Sh; reflexivity|]. split; [rewrite app_length; cbn [length] in *; lia|]. split.
  - exists [], (dg A), A, b, F, y, (101 :: c :: E'). split; [left; reflexivity|]. split; [apply dg_string; exact FA|]. split; [exact Fr|]. split; [intros Z0; apply map_eq_nil in Z0; exact (NA Z0)|].
    assert (Ey : y = z) by (rewrite (power_plus y X _ Pw EX Fp); exact Vp).
    subst y. split.
    + assert (Pw' : power 101 (sign_of [] * positional 10 (dg (c :: E'))) (101 :: [] ++ c :: E')) by (constructor; [left; reflexivity|left; reflexivity|discriminate|apply dg_string; exact Fp]). rewrite Vp in Pw'. cbn [sign_of app] in Pw'. replace (1 * z) with z in Pw' by lia. exact Pw'.
    + split; [cbn [app]; rewrite app_assoc; reflexivity|]. unfold decimal_value. cbn [sign_of]. change (inject_Z 1) with 1%Q. rewrite Qmult_1_l. unfold ten in Vl |- *. rewrite Vl. reflexivity.
  - assert (Et : (ten (e + 1 - Z.of_nat 3) == (1 # 100) * ten e)%Q) by (replace (e + 1 - Z.of_nat 3) with (-2 + e) by lia; rewrite ten_add; reflexivity). rewrite Et in C. destruct W as [W _]. lra.
Qed.
(** Defect: the text of a Statistic of more than 999999 samples that are not all the same is made with strcpy between places that overlap. *)
Theorem C102_million_refuted os s : 0 <= mCnt s < 2 ^ 32 -> (text false os s = UB <-> mMin s <> mMax s /\ 999999 < mCnt s) /\ (text false os s = UB \/ exists os', text false os s = Ok os').
Proof.
  intros R. unfold text. cbv zeta. destruct (Z.eqb_spec (mMin s) (mMax s)) as [E|E]; cbn [bind].
  - split; [split; [discriminate|intros [H _]; contradiction]|right; eexists; reflexivity].
  - destruct (Z.leb_spec (mCnt s) 999999) as [H|H]; cbn [bind].
    + split; [split; [discriminate|lia]|right; eexists; reflexivity].
    + rewrite (proj1 (short_spec (mCnt s) ltac:(lia))). cbn [bind]. split; [split; [intros _; split; [exact E|exact H]|reflexivity]|left; reflexivity].
Qed.
Print Assumptions C102_million_refuted.
(** Where strcpy copies from the front the number of samples shows with three digits. *)
Theorem C102_front s st : 1000000 <= mCnt st < 2 ^ 32 -> mMin st <> mMax st ->
  exists t n q, text true (plain s) st = Ok (plain (s ++ t ++ lit " N=" ++ n ++ lit ")")) /\ stands_for n q /\ (Qabs (q - inject_Z (mCnt st)) <= inject_Z (mCnt st) * (1 # 200))%Q /\ (length n <= 8)%nat.
Proof.
  intros R N. destruct (short_spec (mCnt st) R) as (_ & a & E & q & _ & S & L & St & C). unfold text. cbv zeta. replace (mMin st =? mMax st) with false by lia. replace (mCnt st <=? 999999) with false by lia. rewrite S. cbn [bind].
  unfold put_int, put_double, put, plain. cbn [written precision is_fixed].
  exists (lit "(" ++ sprintf_ld (mCurrent st) ++ lit " min=" ++ sprintf_ld (mMin st) ++ lit " max=" ++ sprintf_ld (mMax st) ++ lit " avg=" ++ general 6 (average st)), (a ++ 101 :: E), q.
  split; [rewrite <- !app_assoc; reflexivity|]. split; [exact St|]. split; [exact C|exact L].
Qed.
Print Assumptions C102_front.

(** ** What the text tells *)
Lemma stands_chars t q : stands_for t q -> Forall (fun c => 33 <= c) t.
Proof.
  assert (D : forall d s, digit_string 10 d s -> Forall (fun c => 33 <= c) s) by (intros d s H; induction H as [|x c d s [A B] H IH]; constructor; [unfold char_of_digit in B; lia|exact IH]).
  assert (Sg : forall sg, is_sign sg -> Forall (fun c => 33 <= c) sg) by (intros sg [->|[->| ->]]; repeat constructor; lia).
  intros (sign & a & A & b & F & e & X & G & DA & DF & _ & P & -> & _). apply Forall_app. split; [apply Sg; exact G|]. apply Forall_app. split; [exact (D _ _ DA)|]. apply Forall_app. split.
  - destruct DF as [|b s DB]; constructor; [lia|exact (D _ _ DB)].
  - destruct P as [|x sg ds s H1 H2 _ H3]; constructor; [lia|]. apply Forall_app. split; [apply Sg; exact H2|exact (D _ _ H3)].
Qed.
Lemma sprintf_chars z : Z.abs z < 10 ^ 20 -> Forall (fun c => 45 <= c <= 57) (sprintf_ld z).
Proof.
  intros R. change (10 ^ 20) with (10 ^ Z.of_nat 20) in R. unfold sprintf_ld. destruct (Z.ltb_spec z 0) as [H|H].
  - constructor; [lia|]. apply (Forall_impl _ (P := fun c => 48 <= c <= 57)); [intros; lia|]. apply (dec_value 20 (- z)); lia.
  - apply (Forall_impl _ (P := fun c => 48 <= c <= 57)); [intros; lia|]. apply (dec_value 20 z); lia.
Qed.
Lemma sprintf_inj z z' : Z.abs z < 10 ^ 20 -> Z.abs z' < 10 ^ 20 -> sprintf_ld z = sprintf_ld z' -> z = z'.
Proof.
  intros A B. change (10 ^ 20) with (10 ^ Z.of_nat 20) in A, B. unfold sprintf_ld.
  assert (V : forall n, 0 <= n < 10 ^ Z.of_nat 20 -> fold_left (fun a c => a * 10 + (c - 48)) (dec_digits 20 n) 0 = n /\ Forall (fun c => 48 <= c <= 57) (dec_digits 20 n)) by (intros n Hn; apply dec_value; [exact Hn|lia]).
  destruct (Z.ltb_spec z 0) as [H|H], (Z.ltb_spec z' 0) as [H'|H']; intros E.
  - assert (E1 : dec_digits 20 (- z) = dec_digits 20 (- z')) by exact (f_equal (@tl Z) E). clear E. rename E1 into E. pose proof (proj1 (V (- z) ltac:(lia))) as V1. pose proof (proj1 (V (- z') ltac:(lia))) as V2. rewrite E, V2 in V1. lia.
  - pose proof (proj2 (V z' ltac:(lia))) as F. rewrite <- E in F. inversion F; subst. lia.
  - pose proof (proj2 (V z ltac:(lia))) as F. rewrite E in F. inversion F; subst. lia.
  - pose proof (proj1 (V z ltac:(lia))) as V1. pose proof (proj1 (V z' ltac:(lia))) as V2. rewrite E, V2 in V1. lia.
Qed.
Lemma int_cut z z' r r' c c' : Z.abs z < 10 ^ 20 -> Z.abs z' < 10 ^ 20 -> sprintf_ld z ++ c :: r = sprintf_ld z' ++ c' :: r' -> c < 45 -> c' < 45 -> z = z' /\ c = c' /\ r = r'.
Proof.
  intros Z1 Z2 E C C'. pose proof (sprintf_chars z Z1) as F. pose proof (sprintf_chars z' Z2) as F'. enough (Q : sprintf_ld z = sprintf_ld z' /\ c :: r = c' :: r').
  { destruct Q as [Q1 Q2]. injection Q2 as -> ->. split; [apply sprintf_inj; assumption|split; reflexivity]. }
  revert F F' E. generalize (sprintf_ld z) (sprintf_ld z'). intros a. induction a as [|x a IH]; intros [|y b] F F' E; cbn [app] in E.
  - split; [reflexivity|exact E].
  - injection E as -> _. inversion F'; subst. lia.
  - injection E as <- _. inversion F; subst. lia.
  - injection E as -> E. inversion F; inversion F'; subst. destruct (IH b ltac:(assumption) ltac:(assumption) E) as [-> Q]. split; [reflexivity|exact Q].
Qed.
(** The parts of a text show in it: current value, and if the samples differ the least, the greatest and the number. *)
Theorem C102_tells front s l l' t : l <> [] -> Z.of_nat (length l) <= 999999 -> Forall (fun v => Z.abs v <= 2 ^ 32) l -> l' <> [] -> Z.of_nat (length l') <= 999999 -> Forall (fun v => Z.abs v <= 2 ^ 32) l' ->
  text front (plain s) (points l) = Ok t -> text front (plain s) (points l') = Ok t ->
  last l 0 = last l' 0 /\ mMin (points l) = mMin (points l') /\ mMax (points l) = mMax (points l') /\ (mMin (points l) <> mMax (points l) -> length l = length l').
Proof.
  intros N L F N' L' F' E E'. assert (G : forall k : list Z, k <> [] -> Z.of_nat (length k) <= 999999 -> Z.of_nat (length k) < 2 ^ 32) by (intros k _ H; lia).
  destruct (C43_min_max l N (G l N L)) as [[M1 M2] [X1 X2]]. destruct (C43_min_max l' N' (G l' N' L')) as [[M1' M2'] [X1' X2']].
  destruct (C102_text front s l _ _ N L F (conj M1 M2) (conj X1 X2)) as (a & T & B). destruct (C102_text front s l' _ _ N' L' F' (conj M1' M2') (conj X1' X2')) as (a' & T' & B').
  rewrite T in E. rewrite T' in E'. apply Ok_inj in E. apply Ok_inj in E'. rewrite <- E' in E. apply (f_equal written) in E. cbn [plain written] in E. apply app_inv_head in E. subst a'. clear T T' E'.
  assert (Bd : forall k v, Forall (fun v => Z.abs v <= 2 ^ 32) k -> In v k -> Z.abs v < 10 ^ 20) by (intros k v Fk I; rewrite Forall_forall in Fk; specialize (Fk _ I); change (10 ^ 20) with 100000000000000000000; lia).
  assert (Bl : forall k, k <> [] -> Forall (fun v => Z.abs v <= 2 ^ 32) k -> Z.abs (last k 0) < 10 ^ 20).
  { intros k Nk Fk. apply (Bd k _ Fk). destruct k as [|v k _] using rev_ind; [contradiction|]. rewrite last_last. apply in_or_app. right. left. reflexivity. }
  assert (Bn : forall k : list Z, Z.of_nat (length k) <= 999999 -> Z.abs (Z.of_nat (length k)) < 10 ^ 20) by (intros k H; change (10 ^ 20) with 100000000000000000000; lia).
  set (lo := mMin (points l)) in *. set (hi := mMax (points l)) in *. set (lo' := mMin (points l')) in *. set (hi' := mMax (points l')) in *.
  assert (One : forall k lo hi, lo = hi -> In lo k -> (forall v, In v k -> lo <= v) -> (forall v, In v k -> v <= hi) -> k <> [] -> lo = last k 0).
  { intros k p q Epq I A B0 Nk. assert (Il : In (last k 0) k) by (destruct k as [|v k _] using rev_ind; [contradiction|]; rewrite last_last; apply in_or_app; right; left; reflexivity). pose proof (A _ Il). pose proof (B0 _ Il). lia. }
  destruct (Z.eqb_spec lo hi) as [D|D], (Z.eqb_spec lo' hi') as [D'|D'].
  - rewrite B in B'. cbn [lit app] in B'. injection B' as B'. destruct (int_cut _ _ _ _ _ _ (Bl l N F) (Bl l' N' F') B' eq_refl eq_refl) as (Q & _ & _). split; [exact Q|].
    pose proof (One l lo hi D M1 M2 X2 N). pose proof (One l' lo' hi' D' M1' M2' X2' N'). split; [lia|]. split; [lia|]. contradiction.
  - destruct B' as (avg & q & _ & _ & B'). rewrite B in B'. cbn [lit app] in B'. injection B' as B'. destruct (int_cut _ _ _ _ _ _ (Bl l N F) (Bl l' N' F') B' eq_refl eq_refl) as (_ & Q & _). discriminate Q.
  - destruct B as (avg & q & _ & _ & B). rewrite B in B'. cbn [lit app] in B'. injection B' as B'. destruct (int_cut _ _ _ _ _ _ (Bl l N F) (Bl l' N' F') B' eq_refl eq_refl) as (_ & Q & _). discriminate Q.
  - destruct B as (avg & q & St & _ & B). destruct B' as (avg' & q' & St' & _ & B'). rewrite B in B'. clear B. cbn [lit app] in B'. injection B' as B'.
    destruct (int_cut _ _ _ _ _ _ (Bl l N F) (Bl l' N' F') B' eq_refl eq_refl) as (Q & _ & R). clear B'. injection R as R.
    destruct (int_cut _ _ _ _ _ _ (Bd l lo F M1) (Bd l' lo' F' M1') R eq_refl eq_refl) as (Q1 & _ & R1). clear R. injection R1 as R1.
    destruct (int_cut _ _ _ _ _ _ (Bd l hi F X1) (Bd l' hi' F' X1') R1 eq_refl eq_refl) as (Q2 & _ & R2). clear R1. injection R2 as R2.
    apply (cut_unique 32) in R2; [|apply (not_in_of (fun c => 33 <= c)); [eapply stands_chars; exact St|lia]|apply (not_in_of (fun c => 33 <= c)); [eapply stands_chars; exact St'|lia]]. destruct R2 as [_ R3]. injection R3 as R3.
    destruct (int_cut _ _ _ _ _ _ (Bn l L) (Bn l' L') R3 eq_refl eq_refl) as (Q4 & _ & _). split; [exact Q|]. split; [exact Q1|]. split; [exact Q2|]. intros _. lia.
Qed.
Print Assumptions C102_tells.

(** ** Defects and examples *)
Definition shown (l : list Z) : res (list Z) := do os <- text false (plain []) (points l); Ok (written os).
(** Defect: with six digits the average shown can be greater than the greatest value shown. *)
Theorem C102_average_refuted : shown [1234567; 1234568] = Ok (lit "(1234568 min=1234567 max=1234568 avg=1.23457e+06 N=2)") /\ stands_for (lit "1.23457e+06") 1234570.
Proof.
  split; [vm_compute; reflexivity|]. exists [], [1], [49], [2; 3; 4; 5; 7], (lit ".23457"), 6, (lit "e+06"). split; [left; reflexivity|].
  assert (D : forall d c, 0 <= d < 10 -> c = 48 + d -> d < 10 /\ char_of_digit d c) by (intros d c H E; split; [lia|left; lia]).
  split; [repeat constructor; cbn; lia|]. split; [constructor; repeat constructor; cbn; lia|]. split; [discriminate|]. split; [|split; reflexivity].
  assert (P : power 101 (sign_of [43] * positional 10 [0; 6]) (101 :: [43] ++ [48; 54])) by (constructor; [left; reflexivity|right; left; reflexivity|discriminate|repeat constructor; cbn; lia]). exact P.
Qed.
Print Assumptions C102_average_refuted.
(** Defect: printing a Timeval changes how every later average on that stream is printed. *)
Theorem C102_sticky_refuted : shown [1; 2] = Ok (lit "(2 min=1 max=2 avg=1.5 N=2)") /\
  (do os <- text false (put_timeval (plain []) (TV 3 0)) (points [1; 2]); Ok (written os)) = Ok (lit "3.000000(2 min=1 max=2 avg=1.500000 N=2)").
Proof. split; vm_compute; reflexivity. Qed.
Print Assumptions C102_sticky_refuted.
Example C102_ex : shown [5; 5; 5] = Ok (lit "(5)") /\ shown [3; 4; 8] = Ok (lit "(8 min=3 max=8 avg=5 N=3)") /\ shown [-1; 0; 0] = Ok (lit "(0 min=-1 max=0 avg=-0.333333 N=3)") /\
  shown [5; -5] = Ok (lit "(-5 min=-5 max=5 avg=0 N=2)") /\ shown [1000000; 999999] = Ok (lit "(999999 min=999999 max=1000000 avg=1e+06 N=2)") /\ short true 1234567 = Ok (lit "1.23e06") /\ short true 4294967295 = Ok (lit "4.29e09").
Proof. repeat split; vm_compute; reflexivity. Qed.
