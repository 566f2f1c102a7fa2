(** C37-C39, C41-C43 and C60-C62: number and string helpers. *)
From Verif Require Import Base BaseFacts UtilsModel UtilsSpec UtilsProofs UtilsProofs2.
Local Open Scope Z_scope.

(** ** C37: gcd *)
(** Positive numbers: the greatest common divisor, found within 2 log2(min) + 3 calls. *)
Theorem C37_positive x y n : 0 < x -> 0 < y -> (2 * Z.to_nat (Z.log2 (Z.min x y)) + 3 <= n)%nat ->
  exists d, gcd_ n x y = Ok d /\ is_gcd x y d.
Proof. apply gcd_pos. Qed.
Print Assumptions C37_positive.
(** Division by zero. *)
Theorem C37_zero x n : 0 <= x -> gcd_ (S n) 0 x = UB /\ gcd_ (S n) x 0 = UB.
Proof.
  intros H. rewrite !gcd_S. split.
  - replace (x <? 0) with false by lia. reflexivity.
  - destruct (0 <? x) eqn:E; [reflexivity|]. replace (x =? 0) with true by lia. reflexivity.
Qed.
Print Assumptions C37_zero.

Lemma gcd_stuck n : forall x r, x < 0 -> 0 < r < - x -> gcd_ n x r = Diverge.
Proof.
  induction n as [|n IH]; intros x r Hx Hr; [reflexivity|]. rewrite gcd_S. replace (r <? x) with false by lia. replace (x =? 0) with false by lia.
  assert (E : Z.rem r x = r) by (rewrite <- (Z.opp_involutive x), Z.rem_opp_r by lia; apply Z.rem_small; lia).
  rewrite E. replace (r =? 0) with false by lia. apply IH; assumption.
Qed.
Lemma gcd_stuck_neg n : forall x y, x < y < 0 -> gcd_ n x y = Diverge.
Proof.
  induction n as [|n IH]; intros x y H; [reflexivity|]. rewrite gcd_S. replace (y <? x) with false by lia. replace (x =? 0) with false by lia.
  assert (E : Z.rem y x = y).
  { rewrite <- (Z.opp_involutive x), Z.rem_opp_r by lia. rewrite <- (Z.opp_involutive y), Z.rem_opp_l by lia. rewrite (Z.rem_small (- y) (- x)) by lia. reflexivity. }
  rewrite E. replace (y =? 0) with false by lia. apply IH, H.
Qed.
(** Numbers of different sign, neither dividing the other way round, never return; nor do two
    different negative numbers. *)
Theorem C37_mixed_signs x y n : x < 0 < y -> ~ (x | y) -> gcd_ n x y = Diverge /\ gcd_ n y x = Diverge.
Proof.
  intros H D. assert (R : 0 < Z.rem y x < - x).
  { rewrite <- (Z.opp_involutive x) at 1 2. rewrite Z.rem_opp_r by lia. pose proof (Z.rem_bound_pos y (- x)) as B.
    assert (Z.rem y (- x) <> 0); [|lia]. intros K. apply D. apply Z.divide_opp_l. apply Z.rem_divide; [lia|exact K]. }
  destruct n as [|n]; [split; reflexivity|]. rewrite !gcd_S.
  replace (y <? x) with false by lia. replace (x <? y) with true by lia. replace (x =? 0) with false by lia.
  replace (Z.rem y x =? 0) with false by lia. split; apply gcd_stuck; lia.
Qed.
Print Assumptions C37_mixed_signs.
Theorem C37_both_negative x y n : x < 0 -> y < 0 -> x <> y -> gcd_ n x y = Diverge.
Proof.
  intros Hx Hy D. destruct (Z.lt_ge_cases x y) as [L|L]; [apply gcd_stuck_neg; lia|].
  destruct n as [|n]; [reflexivity|]. rewrite gcd_S. replace (y <? x) with true by lia. replace (y =? 0) with false by lia.
  assert (E : Z.rem x y = x).
  { rewrite <- (Z.opp_involutive y), Z.rem_opp_r by lia. rewrite <- (Z.opp_involutive x), Z.rem_opp_l by lia. rewrite (Z.rem_small (- x) (- y)) by lia. reflexivity. }
  rewrite E. replace (x =? 0) with false by lia. apply gcd_stuck_neg. lia.
Qed.
Print Assumptions C37_both_negative.
Example C37_ex : gcd_ 20 1071 462 = Ok 21 /\ gcd_ 20 462 1071 = Ok 21 /\ gcd_ 20 7 7 = Ok 7 /\ gcd_ 50 (-4) 6 = Diverge.
Proof. vm_compute. repeat split. Qed.

(** ** C38: replaceAll *)
Theorem C38_replaced input search rep : search <> [] ->
  exists out, replaceAll (S (length input)) input search rep = Ok out /\ replaced search rep input out.
Proof.
  intros H. destruct (replace_spec search rep H (S (length input)) input [] ltac:(lia)) as (s' & E & R). exists s'. split; assumption.
Qed.
Print Assumptions C38_replaced.
(** The specification leaves no choice. *)
Theorem C38_unique search rep s u v : search <> [] -> replaced search rep s u -> replaced search rep s v -> u = v.
Proof. intros H A B. exact (replaced_det search rep H s u A v B). Qed.
Print Assumptions C38_unique.
Theorem C38_absent input search rep : search <> [] -> ~ occurs search input ->
  replaceAll (S (length input)) input search rep = Ok input.
Proof.
  intros H N. destruct (C38_replaced input search rep H) as (out & E & R). rewrite E. f_equal.
  apply (C38_unique search rep input); [exact H|exact R|]. apply rep_none, N.
Qed.
Print Assumptions C38_absent.
(** Defect: an empty search string and a non-empty input never return. *)
Theorem C38_empty_search input rep n : input <> [] -> replaceAll n input [] rep = Diverge.
Proof. intros H. apply replace_empty. destruct input; [congruence|cbn; lia]. Qed.
Print Assumptions C38_empty_search.
Example C38_ex : replaceAll 20 (lit "aXbXc") (lit "X") (lit "XX") = Ok (lit "aXXbXXc") /\
  replaceAll 20 (lit "aaa") (lit "aa") (lit "a") = Ok (lit "aa") /\ replaceAll 5 [] [] (lit "x") = Ok [].
Proof. vm_compute. repeat split. Qed.

(** ** C39: splitting *)
(** The string [s] lies in memory between [pre] and its NUL.  The pointers returned are
    the first [maxargc] fields; only separators are overwritten, all other memory keeps
    its contents. *)
Theorem C39_cstrSplit pre s junk maxargc splitchars :
  let sep := in_set (match splitchars with Some l => l | None => lit " " ++ [9; 13; 10] end) in
  no_nul s -> exists m argv,
  cstrSplit (pre ++ s ++ 0 :: junk) (length pre) maxargc splitchars = Ok (pre ++ m ++ 0 :: junk, argv) /\
  Forall2 (fun x y => y = x \/ (sep x = true /\ y = 0)) s m /\
  map (str_at (pre ++ m ++ 0 :: junk)) argv = firstn (Z.to_nat maxargc) (fields sep s).
Proof. intros sep H. apply split_spec, H. Qed.
Print Assumptions C39_cstrSplit.
Theorem C39_stringSplit result s : no_nul s ->
  stringSplit result s = Ok (result ++ firstn 40 (fields (in_set [32; 9; 13; 10]) s)).
Proof.
  intros H. unfold stringSplit. assert (c_str s = s) as ->.
  { clear -H. induction s as [|c t IH]; [reflexivity|]. cbn [c_str]. replace (c =? 0) with false by (destruct (c =? 0) eqn:E; [exfalso; apply H; left; lia|reflexivity]).
    f_equal. apply IH. intros K. apply H. right. exact K. }
  destruct (C39_cstrSplit [] s [] 40 None H) as (m & argv & E & _ & A). cbn [app length] in *.
  rewrite E. cbn [bind]. do 2 f_equal. exact A.
Qed.
Print Assumptions C39_stringSplit.
(** The separators are the characters given. *)
Theorem C39_separators set c : in_set set c = true <-> In c set.
Proof.
  unfold in_set. rewrite existsb_exists. split.
  - intros (x & H & E). apply Z.eqb_eq in E. subst x. exact H.
  - intros H. exists c. split; [exact H|apply Z.eqb_refl].
Qed.
Print Assumptions C39_separators.
(** The n-th field of [s]: where it starts and how long it is. *)
Theorem C39_cstrGetArg pre s junk n : no_nul s -> 1 <= n ->
  match nth_error (fields isspace s) (Z.to_nat n - 1) with
  | Some w => exists a b, nth_field isspace s (Z.to_nat n - 1) a w b /\
      cstrGetArg (pre ++ s ++ 0 :: junk) (length pre) n = Ok (Some (length pre + length a, length w)%nat)
  | None => cstrGetArg (pre ++ s ++ 0 :: junk) (length pre) n = Ok None
  end.
Proof.
  intros H N. pose proof (getarg_spec junk (Z.to_nat n - 1) s pre H) as G. unfold cstrGetArg.
  replace (S (Z.to_nat n - 1)) with (Z.to_nat n) in G by lia. exact G.
Qed.
Print Assumptions C39_cstrGetArg.
Theorem C39_no_field pre s junk n : n <= 0 -> cstrGetArg (pre ++ s ++ 0 :: junk) (length pre) n = Ok None.
Proof.
  intros N. unfold cstrGetArg. replace (Z.to_nat n) with O by lia. cbn [getarg_loop]. rewrite rd_mid. cbn [bind]. destruct (_ =? 0); reflexivity.
Qed.
Print Assumptions C39_no_field.
Example C39_ex : stringSplit [lit "x"] (lit " ab  c d ") = Ok [lit "x"; lit "ab"; lit "c"; lit "d"] /\
  cstrGetArg (lit "ab  cde f" ++ [0]) 0 2 = Ok (Some (4, 3)%nat) /\ cstrGetArg (lit "ab " ++ [0]) 0 2 = Ok None /\
  cstrSplit (lit "a,b,c" ++ [0]) 0 2 (Some (lit ",")) = Ok (lit "a" ++ [0] ++ lit "b" ++ [0] ++ lit "c" ++ [0], [0; 2]%nat).
Proof. vm_compute. repeat split. Qed.

(** ** C41: 128-bit numbers as hex *)
Lemma uintToString_hexn h l : 0 <= h -> 0 <= l -> uintToString h l = hexn 16 h ++ hexn 16 l.
Proof. intros H L. unfold uintToString. rewrite !(pad_hexn 15) by assumption. reflexivity. Qed.
Theorem C41_roundtrip h l : 0 <= h < 2 ^ 64 -> 0 <= l < 2 ^ 64 -> stringToUint (uintToString h l) = Ok (h, l).
Proof.
  intros H L. rewrite uintToString_hexn by lia. unfold stringToUint. rewrite app_length, !hexn_length. cbn [Nat.add Nat.eqb assert_ bind].
  rewrite firstn_app, hexn_length, Nat.sub_diag, firstn_O, app_nil_r, firstn_all2 by (rewrite hexn_length; lia).
  rewrite skipn_app, hexn_length, Nat.sub_diag, skipn_all2 by (rewrite hexn_length; lia). cbn [skipn app].
  rewrite firstn_all2 by (rewrite hexn_length; lia).
  unfold stream_hex64. rewrite !parse_hexn. change (Z.of_nat 16) with 16. change (16 ^ 16) with (2 ^ 64).
  rewrite (Z.mod_small h), (Z.mod_small l) by lia. do 2 f_equal; lia.
Qed.
Print Assumptions C41_roundtrip.
(** The text: 32 lower-case digits, the most significant first. *)
Lemma lowhex_digit d : 0 <= d < 16 -> nth_error (lit "0123456789abcdef") (Z.to_nat d) = Some (lowhex d).
Proof.
  intros H. assert (K : forallb (fun d => match nth_error (lit "0123456789abcdef") (Z.to_nat d) with Some c => c =? lowhex d | None => false end) [0;1;2;3;4;5;6;7;8;9;10;11;12;13;14;15] = true) by (vm_compute; reflexivity).
  rewrite forallb_forall in K. specialize (K d ltac:(cbn [In]; lia)). destruct (nth_error (lit "0123456789abcdef") (Z.to_nat d)); [apply Z.eqb_eq in K; subst; reflexivity|discriminate].
Qed.
Theorem C41_digits h l i : 0 <= h < 2 ^ 64 -> 0 <= l < 2 ^ 64 -> (i < 32)%nat ->
  nth_error (uintToString h l) i = nth_error (lit "0123456789abcdef") (Z.to_nat (((h * 2 ^ 64 + l) / 16 ^ (31 - Z.of_nat i)) mod 16)) /\ length (uintToString h l) = 32%nat.
Proof.
  intros H L I. rewrite lowhex_digit by lia. rewrite uintToString_hexn by lia. split; [|rewrite app_length, !hexn_length; reflexivity].
  destruct (Nat.lt_ge_cases i 16) as [J|J].
  - rewrite nth_error_app1 by (rewrite hexn_length; exact J). rewrite hexn_nth by exact J. do 2 f_equal. f_equal.
    replace (31 - Z.of_nat i) with (16 + Z.of_nat (16 - 1 - i)) by lia. rewrite Z.pow_add_r by lia. rewrite <- Z.div_div by (try apply Z.pow_pos_nonneg; lia).
    f_equal. change (16 ^ 16) with (2 ^ 64). rewrite Z.div_add_l by lia. rewrite (Z.div_small l) by lia. lia.
  - rewrite nth_error_app2 by (rewrite hexn_length; exact J). rewrite hexn_length, hexn_nth by lia. do 2 f_equal.
    set (k := 31 - Z.of_nat i). replace (Z.of_nat (16 - 1 - (i - 16))) with k by (unfold k; lia).
    assert (K : 0 <= k < 16) by (unfold k; lia). replace (2 ^ 64) with (16 * 16 ^ (15 - k) * 16 ^ k).
    + rewrite Z.mul_assoc, Z.div_add_l by (apply Z.pow_nonzero; lia). rewrite Z.add_comm, (Z.mul_comm 16), Z.mul_assoc, Z.mod_add by lia. reflexivity.
    + rewrite <- Z.mul_assoc, <- Z.pow_add_r by lia. replace (15 - k + k) with 15 by lia. reflexivity.
Qed.
Print Assumptions C41_digits.
(** The 32-bit version. *)
Theorem C41_digits32 x i : 0 <= x < 2 ^ 32 -> (i < 8)%nat ->
  nth_error (uintToString32 x) i = nth_error (lit "0123456789abcdef") (Z.to_nat ((x / 16 ^ (7 - Z.of_nat i)) mod 16)) /\ length (uintToString32 x) = 8%nat.
Proof.
  intros H I. rewrite lowhex_digit by lia. unfold uintToString32. rewrite (pad_hexn 7) by lia. split; [|apply hexn_length]. rewrite hexn_nth by exact I. do 5 f_equal. lia.
Qed.
Print Assumptions C41_digits32.
Theorem C41_wrong_length s : length s <> 32%nat -> stringToUint s = Abort.
Proof. intros H. unfold stringToUint. apply Nat.eqb_neq in H. rewrite H. reflexivity. Qed.
Print Assumptions C41_wrong_length.
Example C41_ex : uintToString 0x123 0xabcdef0000000001 = lit "0000000000000123abcdef0000000001" /\
  uintToString32 0xbeef = lit "0000beef" /\ stringToUint (lit "0000000000000123ABCDEF0000000001") = Ok (0x123, 0xabcdef0000000001).
Proof. vm_compute. repeat split. Qed.

(** ** C42: format and osprintf *)
Lemma buf_text size text : no_nul text -> c_str (vsnprintf_buf size text) = firstn (size - 1) text.
Proof. intros H. unfold vsnprintf_buf. apply (c_str_full (firstn (size - 1) text) []), no_nul_firstn, H. Qed.
Theorem C42_format_whole text : no_nul text -> (length text <> 199)%nat -> Z.of_nat (length text) <= 5000 -> format text = text.
Proof.
  intros H N L. unfold format. destruct (Z.of_nat (length text) <=? 199) eqn:E.
  - rewrite buf_text by exact H. apply firstn_all2. lia.
  - replace (5000 <? Z.of_nat (length text)) with false by lia. rewrite buf_text by exact H. apply firstn_all2. lia.
Qed.
Print Assumptions C42_format_whole.
Theorem C42_format_long text : no_nul text -> 5000 < Z.of_nat (length text) -> format text = firstn (Z.to_nat 5000) text.
Proof.
  intros H L. unfold format. replace (Z.of_nat (length text) <=? 199) with false by lia. replace (5000 <? Z.of_nat (length text)) with true by lia.
  rewrite buf_text by exact H. f_equal.
Qed.
Print Assumptions C42_format_long.
(** Defect: a text of exactly 199 characters loses its last one. *)
Theorem C42_format_199 text : no_nul text -> length text = 199%nat -> format text = firstn 198 text /\ format text <> text.
Proof.
  intros H L. assert (E : format text = firstn 198 text).
  { unfold format. rewrite L. change (Z.of_nat 199 <=? 199) with true. cbv iota. rewrite buf_text by exact H. reflexivity. }
  split; [exact E|]. rewrite E. intros K. apply (f_equal (@length Z)) in K. rewrite firstn_length, L in K. discriminate.
Qed.
Print Assumptions C42_format_199.
Theorem C42_osprintf text : no_nul text ->
  osprintf text = if (length text <? 296)%nat then text else firstn 296 text ++ lit "...".
Proof.
  intros H. unfold osprintf. destruct (Nat.ltb_spec (length text) 296) as [L|L].
  - replace (300 - 4 <=? Z.of_nat (length text)) with false by lia. rewrite buf_text by exact H. apply firstn_all2. lia.
  - replace (300 - 4 <=? Z.of_nat (length text)) with true by lia. change (Z.to_nat (300 - 4)) with 296%nat. unfold vsnprintf_buf.
    rewrite firstn_app, firstn_firstn, firstn_length. replace (296 - Nat.min (300 - 1) (length text))%nat with O by lia.
    rewrite firstn_O, app_nil_r. change (Nat.min 296 (300 - 1)) with 296%nat. rewrite app_assoc. apply (c_str_full _ []).
    intros K. apply in_app_or in K. destruct K as [K|K]; [exact (no_nul_firstn 296 text H K)|]. cbn in K. intuition discriminate.
Qed.
Print Assumptions C42_osprintf.
Example C42_ex : format (repeat 65 198) = repeat 65 198 /\ format (repeat 65 199) = repeat 65 198 /\ format (repeat 65 200) = repeat 65 200 /\
  length (osprintf (repeat 65 296)) = 299%nat /\ osprintf (repeat 65 295) = repeat 65 295.
Proof. vm_compute. repeat split. Qed.

(** ** C43: Statistic *)
Definition points (l : list Z) : stat := fold_left addPoint l stat0.
Lemma points_snoc l v : points (l ++ [v]) = addPoint (points l) v.
Proof. unfold points. rewrite fold_left_app. reflexivity. Qed.
Lemma points_cnt l : mCnt (points l) = u32 (Z.of_nat (length l)).
Proof.
  induction l as [|v l IH] using rev_ind; [reflexivity|]. rewrite points_snoc, app_length. cbn [addPoint mCnt length]. rewrite IH.
  unfold u32. rewrite Zplus_mod_idemp_l. f_equal. lia.
Qed.
Theorem C43_count l : Z.of_nat (length l) < 2 ^ 32 -> mCnt (points l) = Z.of_nat (length l).
Proof. intros H. rewrite points_cnt. unfold u32. apply Z.mod_small. lia. Qed.
Print Assumptions C43_count.
(** Before the first point everything shown is 0. *)
Theorem C43_initial : let s := points [] in getCurrent s = 0 /\ fst (getAvg s) = 0 /\ mCurrent s = 0 /\ mMin s = 0 /\ mMax s = 0 /\ mCnt s = 0 /\ mSum s = 0.
Proof. repeat split. Qed.
Print Assumptions C43_initial.
Theorem C43_min_max l : l <> [] -> Z.of_nat (length l) < 2 ^ 32 ->
  (In (mMin (points l)) l /\ forall v, In v l -> mMin (points l) <= v) /\
  (In (mMax (points l)) l /\ forall v, In v l -> v <= mMax (points l)).
Proof.
  induction l as [|v l IH] using rev_ind; intros N H; [congruence|]. rewrite points_snoc. rewrite app_length in H. cbn [length] in H. cbn [addPoint mMin mMax].
  rewrite C43_count by lia. destruct l as [|w l].
  - cbn. repeat split; try (left; reflexivity); intros u [->|[]]; lia.
  - destruct IH as [[A B] [C D]]; [discriminate|lia|]. replace (Z.of_nat (length (w :: l)) =? 0) with false by (cbn [length]; lia). cbn [orb].
    split; split.
    + destruct (v <? mMin (points (w :: l))); apply in_or_app; [right; left; reflexivity|left; exact A].
    + intros u Hu. apply in_app_or in Hu. destruct Hu as [Hu|[<-|[]]]; [apply B in Hu|]; destruct (v <? mMin (points (w :: l))) eqn:E; lia.
    + destruct (mMax (points (w :: l)) <? v); apply in_or_app; [right; left; reflexivity|left; exact C].
    + intros u Hu. apply in_app_or in Hu. destruct Hu as [Hu|[<-|[]]]; [apply D in Hu|]; destruct (mMax (points (w :: l)) <? v) eqn:E; lia.
Qed.
Print Assumptions C43_min_max.
Lemma sum_snoc l v : sum (l ++ [v]) = sum l + v.
Proof. unfold sum. induction l as [|x l IH]; cbn [fold_right app] in *; lia. Qed.
Theorem C43_average l : l <> [] -> Z.of_nat (length l) < 2 ^ 32 -> (forall k, Z.abs (sum (firstn k l)) <= 2 ^ 53) ->
  getAvg (points l) = (sum l, Z.of_nat (length l)) /\ getCurrent (points l) = last l 0.
Proof.
  intros N H B. assert (S1 : mSum (points l) = sum l).
  { clear H N. induction l as [|v l IH] using rev_ind; [reflexivity|]. rewrite points_snoc. cbn [addPoint mSum]. rewrite IH.
    - rewrite sum_snoc. rewrite <- sum_snoc. apply to_double_exact. specialize (B (length (l ++ [v]))). rewrite firstn_all in B. exact B.
    - intros k. destruct (Nat.le_gt_cases k (length l)) as [L|L].
      + specialize (B k). rewrite firstn_app in B. replace (k - length l)%nat with O in B by lia. rewrite firstn_O, app_nil_r in B. exact B.
      + specialize (B (length l)). rewrite firstn_app, Nat.sub_diag, firstn_O, app_nil_r in B. rewrite firstn_all in B. rewrite firstn_all2 by lia. exact B. }
  unfold getAvg, getCurrent. rewrite C43_count by exact H. assert (length l <> O) by (destruct l; [congruence|discriminate]).
  replace (Z.of_nat (length l) =? 0) with false by lia. rewrite S1. split; [reflexivity|].
  destruct l as [|v l _] using rev_ind; [congruence|]. rewrite points_snoc, last_last. reflexivity.
Qed.
Print Assumptions C43_average.
Theorem C43_empty : getCurrent (points []) = 0 /\ getAvg (points []) = (0, 1).
Proof. split; reflexivity. Qed.
Print Assumptions C43_empty.
(** Defect: after 2^32 samples the count is 0 again and the minimum and maximum are forgotten. *)
Theorem C43_wrap_refuted : exists l v, In v l /\ v < mMin (points l).
Proof.
  exists (repeat 0 (Z.to_nat (2 ^ 32)) ++ [1]), 0. split.
  - apply in_or_app. left. assert (forall n, (0 < n)%nat -> In 0 (repeat 0 n)) as R by (intros [|n]; [lia|left; reflexivity]). apply R. lia.
  - rewrite points_snoc. cbn [addPoint mMin]. rewrite points_cnt, repeat_length, Z2Nat.id by lia. reflexivity.
Qed.
Print Assumptions C43_wrap_refuted.
(** Each sum is rounded to a nearest number of 53 significant bits, of two the even one. *)
Theorem C43_rounding s v : let t := mSum s + v in let x := mSum (addPoint s v) in
  exists k, 0 <= k /\ Z.abs t < 2 ^ (k + 53) /\ (0 < k -> 2 ^ (k + 52) <= Z.abs t) /\
    exists m, x = m * 2 ^ k /\ (forall n, Z.abs (t - x) <= Z.abs (t - n * 2 ^ k)) /\
      (forall n, n <> m -> Z.abs (t - x) = Z.abs (t - n * 2 ^ k) -> Z.even m = true).
Proof.
  cbv zeta. cbn [addPoint mSum]. set (t := mSum s + v). unfold to_double.
  destruct (Z.eq_dec t 0) as [Z0|NZ].
  { rewrite Z0. exists 0. split; [lia|]. split; [reflexivity|]. split; [lia|]. exists 0. split; [reflexivity|].
    split; intros n; change (2 ^ 0) with 1; rewrite ?Z.mul_1_r; [cbn; lia|]. intros; reflexivity. }
  destruct (Z.log2_spec (Z.abs t) ltac:(lia)) as [L1 L2]. pose proof (Z.log2_nonneg (Z.abs t)) as L0.
  destruct (Z.leb_spec (Z.log2 (Z.abs t) + 1 - 53) 0) as [K|K].
  - exists 0. split; [lia|]. split.
    { eapply Z.lt_le_trans; [exact L2|]. apply Z.pow_le_mono_r; lia. }
    split; [lia|]. exists t. change (2 ^ 0) with 1. split; [lia|]. split; intros; lia.
  - remember (Z.log2 (Z.abs t) + 1 - 53) as k eqn:Ek. exists k. split; [lia|].
    replace (k + 53) with (Z.succ (Z.log2 (Z.abs t))) by lia. replace (k + 52) with (Z.log2 (Z.abs t)) by lia.
    split; [exact L2|]. split; [intros _; exact L1|]. exists (round_even t k). split; [reflexivity|].
    unfold round_even. set (h := 2 ^ k). assert (P : 0 < h) by (apply Z.pow_pos_nonneg; lia).
    pose proof (Z.div_mod t h ltac:(lia)) as D. pose proof (Z.mod_pos_bound t h P) as B.
    set (q := t / h) in *. set (r := t mod h) in *.
    assert (F : forall n, n <= q \/ q + 1 <= n) by (intros; lia).
    assert (G : forall n, n <= q -> n * h <= q * h) by (intros; apply Z.mul_le_mono_nonneg_r; lia).
    assert (G' : forall n, q + 1 <= n -> q * h + h <= n * h) by (intros n A; replace (q * h + h) with ((q + 1) * h) by ring; apply Z.mul_le_mono_nonneg_r; lia).
    assert (N : forall n, n < q -> n * h + h <= q * h) by (intros n A; replace (n * h + h) with ((n + 1) * h) by ring; apply Z.mul_le_mono_nonneg_r; lia).
    assert (N' : forall n, q + 1 < n -> q * h + 2 * h <= n * h) by (intros n A; replace (q * h + 2 * h) with ((q + 2) * h) by ring; apply Z.mul_le_mono_nonneg_r; lia).
    assert (Q1 : (q + 1) * h = q * h + h) by ring. assert (D' : t = q * h + r) by (rewrite D; ring). clear D. clearbody q r h t.
    destruct (Z.ltb_spec (2 * r) h) as [R|R].
    + split; intros n.
      * destruct (F n) as [A|A]; [pose proof (G n A)|pose proof (G' n A)]; lia.
      * intros Ne E. exfalso. destruct (Z.lt_trichotomy n q) as [A|[A|A]]; [pose proof (N n A)|lia|pose proof (G' n ltac:(lia))]; lia.
    + destruct (Z.ltb_spec h (2 * r)) as [R'|R'].
      * split; intros n.
        -- destruct (F n) as [A|A]; [pose proof (G n A)|pose proof (G' n A)]; lia.
        -- intros Ne E. exfalso. destruct (Z.lt_trichotomy n (q + 1)) as [A|[A|A]]; [pose proof (G n ltac:(lia))|lia|pose proof (N' n ltac:(lia))]; lia.
      * destruct (Z.even q) eqn:Ev.
        -- split; intros n; [|intros; exact Ev].
           destruct (F n) as [A|A]; [pose proof (G n A)|pose proof (G' n A)]; lia.
        -- split; intros n.
           ++ destruct (F n) as [A|A]; [pose proof (G n A)|pose proof (G' n A)]; lia.
           ++ intros; replace (q + 1) with (Z.succ q) by lia; rewrite Z.even_succ, <- Z.negb_even, Ev; reflexivity.
Qed.
Print Assumptions C43_rounding.
(** Beyond 2^53 the sum is rounded. *)
Theorem C43_sum_rounded_refuted : exists s, getAvg (addPoint s 1) = (mSum s, 3) /\ mSum s = 2 ^ 53 /\ mCnt s = 2.
Proof. exists (Stat 0 0 0 2 (2 ^ 53)). vm_compute. repeat split. Qed.
Print Assumptions C43_sum_rounded_refuted.
Example C43_ex : let s := points [5; -3; 10] in (getCurrent s, mMin s, mMax s, mCnt s, getAvg s) = (10, -3, 10, 3, (12, 3)).
Proof. reflexivity. Qed.

(** ** C60: firstlines and stringcat *)
Theorem C60_firstlines msg n : firstlines msg n = concat (firstn (Z.to_nat (Z.max 1 n)) (lines msg)).
Proof.
  destruct (Z.le_gt_cases 1 n) as [L|L]; [replace (Z.max 1 n) with n by lia; apply firstlines_spec, L|].
  rewrite <- (firstlines_spec msg (Z.max 1 n)) by lia. unfold firstlines. replace (Z.to_nat (Z.max 1 n - 1)) with (Z.to_nat (n - 1)) by lia. reflexivity.
Qed.
Print Assumptions C60_firstlines.
(** [lines] takes the text apart: each line but the last ends with its only newline. *)
Theorem C60_lines_complete s : concat (lines s) = s.
Proof. apply lines_concat. Qed.
Print Assumptions C60_lines_complete.
Theorem C60_lines_shape s k l : nth_error (lines s) k = Some l ->
  exists w, ~ In 10 w /\ (l = w ++ [10] \/ (l = w /\ w <> [] /\ S k = length (lines s))).
Proof.
  revert k l. induction s as [|c t IH]; intros k l; cbn [lines]; [destruct k; discriminate|].
  destruct (c =? 10) eqn:E.
  - assert (c = 10) by lia. subst c. destruct k as [|k]; cbn [nth_error].
    + intros H. injection H as <-. exists []. split; [intros []|left; reflexivity].
    + intros H. destruct (IH k l H) as (w & W & [A|(A & B & C)]); exists w; (split; [exact W|]); [left; exact A|right; cbn [length]; auto].
  - assert (NC : c <> 10) by lia. destruct (lines t) as [|l0 r] eqn:El.
    + destruct k as [|k]; cbn [nth_error]; [|destruct k; discriminate]. intros H. injection H as <-. exists [c].
      split; [intros [K|[]]; congruence|]. right. repeat split; discriminate.
    + destruct k as [|k]; cbn [nth_error].
      * intros H. injection H as <-. destruct (IH O l0 eq_refl) as (w & W & [A|(A & B & C)]); exists (c :: w).
        -- split; [intros [K|K]; [congruence|exact (W K)]|]. left. subst l0. reflexivity.
        -- split; [intros [K|K]; [congruence|exact (W K)]|]. right. subst l0. repeat split; [discriminate|exact C].
      * intros H. destruct (IH (S k) l H) as (w & W & D). exists w. split; [exact W|]. exact D.
Qed.
Print Assumptions C60_lines_shape.
Theorem C60_stringcat a b c d e f g :
  stringcat2 a b = concat [a; b] /\ stringcat3 a b c = concat [a; b; c] /\ stringcat4 a b c d = concat [a; b; c; d] /\
  stringcat5 a b c d e = concat [a; b; c; d; e] /\ stringcat6 a b c d e f = concat [a; b; c; d; e; f] /\
  stringcat7 a b c d e f g = concat [a; b; c; d; e; f; g].
Proof.
  unfold stringcat2, stringcat3, stringcat4, stringcat5, stringcat6, emptystring.
  assert (H : forall a b c d e f g, stringcat7 a b c d e f g = concat [a; b; c; d; e; f; g]).
  { intros. unfold stringcat7. cbn [concat app]. rewrite app_nil_r, <- !app_assoc. reflexivity. }
  rewrite !H. cbn [concat app]. rewrite !app_nil_r. repeat split.
Qed.
Print Assumptions C60_stringcat.
Example C60_ex : let m := lit "one" ++ [10] ++ lit "two" ++ [10] ++ lit "three" in
  firstlines m 2 = lit "one" ++ [10] ++ lit "two" ++ [10] /\ firstlines m 7 = m /\ firstlines m 0 = lit "one" ++ [10].
Proof. vm_compute. repeat split. Qed.

(** ** C61: printPrettyTable *)
(** The column where column [col] starts: the same in all rows. *)
Fixpoint start (w : nat -> nat) (col : nat) : nat := match col with O => O | S k => (start w k + w k + 1)%nat end.
Definition text_of (cell : list Z) : list Z := if list_eq_dec Z.eq_dec cell (lit "_") then [] else cell.

Lemma shown_text cell : no_nul cell -> shown cell = text_of cell.
Proof.
  intros H. unfold shown, text_of. assert (c_str cell = cell) as ->; [|reflexivity].
  clear -H. induction cell as [|c t IH]; [reflexivity|]. cbn [c_str]. replace (c =? 0) with false by (destruct (c =? 0) eqn:E; [exfalso; apply H; left; lia|reflexivity]).
  f_equal. apply IH. intros K. apply H. right. exact K.
Qed.
Lemma cells_at w : forall cells c0 k cell, nth_error cells k = Some cell ->
  (forall j c, nth_error cells j = Some c -> (length (shown c) <= w (c0 + j))%nat /\ (w (c0 + j) <= 100)%nat) ->
  exists a b, print_cells false w c0 cells = a ++ (shown cell ++ repeat 32 (w (c0 + k)%nat - length (shown cell)) ++ [32]) ++ b /\
    (start w c0 + length a = start w (c0 + k))%nat.
Proof.
  induction cells as [|c cells IH]; intros c0 k cell H B; [destruct k; discriminate|]. cbn [print_cells].
  destruct (B O c eq_refl) as [B1 B2]. rewrite Nat.add_0_r in B1, B2. rewrite padded_fit by lia.
  destruct k as [|k].
  - cbn in H. injection H as ->. exists [], (print_cells false w (S c0) cells). rewrite Nat.add_0_r. cbn [app length]. split; [reflexivity|lia].
  - cbn in H. destruct (IH (S c0) k cell H) as (a & b & E & L).
    + intros j d Hj. specialize (B (S j) d Hj). replace (S c0 + j)%nat with (c0 + S j)%nat by lia. exact B.
    + exists ((shown c ++ repeat 32 (w c0 - length (shown c)) ++ [32]) ++ a), b. rewrite E. replace (S c0 + k)%nat with (c0 + S k)%nat in * by lia.
      split; [rewrite <- !app_assoc; reflexivity|]. rewrite app_length, app_length, app_length, repeat_length. cbn [length]. cbn [start] in L. lia.
Qed.
(** Rows of at most 30 cells of at most 100 characters: the cell in column [col] is printed,
    padded with spaces, from position [start col] of its line. *)
Theorem C61_aligned tab row col cell : In row tab -> (length row <= 30)%nat -> Forall (fun c => (length c <= 100)%nat /\ no_nul c) row ->
  nth_error row col = Some cell ->
  exists a b, print_row tab false row = a ++ text_of cell ++ repeat 32 (widths tab col + 1 - length (text_of cell)) ++ b /\
    length a = start (widths tab) col /\ (length (text_of cell) <= widths tab col)%nat.
Proof.
  intros HI HL HF HN. rewrite Forall_forall in HF. unfold print_row. change maxcols with 30%nat. rewrite firstn_all2 by exact HL.
  assert (B : forall j c, nth_error row j = Some c -> (length (shown c) <= widths tab (0 + j))%nat /\ (widths tab (0 + j) <= 100)%nat).
  { intros j c Hj. split; [|apply widths_le]. assert (j < length row)%nat as J by (apply nth_error_Some; congruence).
    pose proof (widths_ge tab row j HI J) as G. unfold cell_at in G. rewrite (nth_error_nth row j [] Hj) in G. unfold colwidth in G.
    destruct (HF c (nth_error_In _ _ Hj)) as [C _]. pose proof (shown_le c). cbn [Nat.add]. lia. }
  destruct (cells_at (widths tab) row 0 col cell HN B) as (a & b & E & L). destruct (B col cell HN) as [B1 _]. cbn [Nat.add] in *.
  destruct (HF cell (nth_error_In _ _ HN)) as [_ NN]. rewrite (shown_text cell NN) in *.
  exists a, (b ++ [10]). split; [|split; [exact L|exact B1]]. rewrite E.
  replace (widths tab col + 1 - length (text_of cell))%nat with (widths tab col - length (text_of cell) + 1)%nat by lia.
  rewrite repeat_app. cbn [repeat]. rewrite <- !app_assoc. reflexivity.
Qed.
Print Assumptions C61_aligned.
(** A column is as wide as its longest cell. *)
Theorem C61_width tab col : (forall row cell, In row tab -> nth_error row col = Some cell -> (length cell <= 100)%nat -> (length cell <= widths tab col)%nat) /\
  (widths tab col = O \/ exists row cell, In row tab /\ nth_error row col = Some cell /\ (widths tab col <= length cell)%nat).
Proof.
  split.
  - intros row cell HI HN HL. assert (col < length row)%nat as J by (apply nth_error_Some; congruence).
    pose proof (widths_ge tab row col HI J) as G. unfold cell_at in G. rewrite (nth_error_nth row col [] HN) in G. unfold colwidth in G. lia.
  - induction tab as [|r tab IH] using rev_ind; [left; reflexivity|].
    assert (E : widths (tab ++ [r]) col = if (col <? length r)%nat then Nat.max (widths tab col) (colwidth (cell_at r col)) else widths tab col)
      by (unfold widths; rewrite fold_left_app; reflexivity).
    assert (G : widths tab col = O \/ exists row cell, In row (tab ++ [r]) /\ nth_error row col = Some cell /\ (widths tab col <= length cell)%nat).
    { destruct IH as [IH|(row & cell & I1 & I2 & I3)]; [left; exact IH|right]. exists row, cell. split; [apply in_or_app; left; exact I1|auto]. }
    rewrite E. destruct (Nat.ltb_spec col (length r)) as [L|L]; [|exact G].
    destruct (Nat.le_gt_cases (colwidth (cell_at r col)) (widths tab col)) as [M|M]; [rewrite Nat.max_l by exact M; exact G|].
    rewrite Nat.max_r by lia. right. exists r, (cell_at r col). split; [apply in_or_app; right; left; reflexivity|].
    split; [unfold cell_at; apply nth_error_nth', L|unfold colwidth; lia].
Qed.
Print Assumptions C61_width.
(** Tab-separated output. *)
Fixpoint join (sep : Z) (l : list (list Z)) : list Z :=
  match l with [] => [] | [x] => x | x :: t => x ++ [sep] ++ join sep t end.
Theorem C61_tabs tab row : (length row <= 30)%nat -> Forall no_nul row ->
  print_row tab true row = join 9 (map text_of row) ++ [10].
Proof.
  intros HL HF. unfold print_row. change maxcols with 30%nat. rewrite firstn_all2 by exact HL. f_equal.
  assert (G : forall w cells c0, Forall no_nul cells -> print_cells true w (S c0) cells = flat_map (fun c => 9 :: text_of c) cells).
  { intros w. induction cells as [|c cells IH]; intros c0 F; [reflexivity|]. inversion F; subst. cbn [print_cells flat_map Nat.eqb app].
    rewrite IH by assumption. rewrite shown_text by assumption. reflexivity. }
  destruct row as [|c row]; [reflexivity|]. inversion HF as [|? ? H1 H2]; subst. cbn [print_cells Nat.eqb app]. rewrite shown_text, G by assumption.
  clear. revert c. induction row as [|d row IH]; intros c; [cbn; rewrite app_nil_r; reflexivity|].
  cbn [flat_map map join app]. rewrite IH. cbn [map]. reflexivity.
Qed.
Print Assumptions C61_tabs.
Theorem C61_table tab b : printPrettyTable tab b = concat (map (print_row tab b) tab) ++ [10].
Proof. unfold printPrettyTable. rewrite flat_map_concat_map. reflexivity. Qed.
Print Assumptions C61_table.
(** Defects: columns from the 31st on are dropped; a cell of 249 characters or more is cut and
    runs into the next one. *)
Theorem C61_columns_dropped tab b row more : length row = 30%nat -> print_row tab b (row ++ more) = print_row tab b row.
Proof. intros H. unfold print_row. change maxcols with 30%nat. rewrite firstn_app, H, Nat.sub_diag, firstn_O, app_nil_r. reflexivity. Qed.
Print Assumptions C61_columns_dropped.
Theorem C61_long_cell w cell : no_nul cell -> (249 <= length cell)%nat -> padded w (shown cell) = firstn 249 cell.
Proof.
  intros H L. rewrite shown_text by exact H. unfold text_of. destruct (list_eq_dec Z.eq_dec cell (lit "_")) as [->|N]; [cbn in L; lia|].
  unfold padded. rewrite firstn_app. replace (249 - length cell)%nat with O by lia. rewrite firstn_O, app_nil_r. reflexivity.
Qed.
Print Assumptions C61_long_cell.
Example C61_ex : printPrettyTable [[lit "ab"; lit "_"; lit "c"]; [lit "a"; lit "xyz"; lit "dd"]] false =
  lit "ab     c  " ++ [10] ++ lit "a  xyz dd " ++ [10; 10].
Proof. vm_compute. reflexivity. Qed.

(** ** C62: BitSet *)
Lemma land_lnot32 x m : 0 <= x < 2 ^ 32 -> 0 <= m < 32 -> Z.land x (u32 (Z.lnot (2 ^ m))) = Z.clearbit x m.
Proof.
  intros H M. apply Z.bits_inj'. intros k K. rewrite Z.land_spec, Z.clearbit_eqb by lia. unfold u32.
  destruct (Z.lt_ge_cases k 32) as [L|L].
  - rewrite Z.mod_pow2_bits_low by lia. rewrite Z.lnot_spec by lia. rewrite Z.pow2_bits_eqb by lia. destruct (Z.testbit x k), (m =? k); reflexivity.
  - rewrite Z.mod_pow2_bits_high by lia. rewrite andb_false_r. destruct (Z.eq_dec x 0) as [->|N]; [rewrite Z.bits_0; reflexivity|].
    rewrite (Z.bits_above_log2 x k); [reflexivity|lia|]. assert (Z.log2 x < 32) by (apply Z.log2_lt_pow2; lia). lia.
Qed.
(** Bit numbers below 32: setting and clearing change that bit only. *)
Theorem C62_set_clear bits w k : 0 <= bits < 2 ^ 32 -> 0 <= w < 32 -> 0 <= k < 32 ->
  (exists b, setBit bits w = Ok b /\ 0 <= b < 2 ^ 32 /\ isSet b k = Ok (if k =? w then true else Z.testbit bits k)) /\
  (exists b, clearBit bits w = Ok b /\ 0 <= b < 2 ^ 32 /\ isSet b k = Ok (if k =? w then false else Z.testbit bits k)) /\
  isSet bits k = Ok (Z.testbit bits k) /\ getBit bits k = Ok (if Z.testbit bits k then 2 ^ k else 0).
Proof.
  intros H W K.
  assert (G : forall x, 0 <= x -> Z.land x (2 ^ k) = if Z.testbit x k then 2 ^ k else 0).
  { intros x Hx. apply Z.bits_inj'. intros j J. rewrite Z.land_spec, Z.pow2_bits_eqb by lia. destruct (Z.eqb_spec k j) as [->|N].
    - rewrite andb_true_r. destruct (Z.testbit x j) eqn:T; [rewrite Z.pow2_bits_true by lia; reflexivity|rewrite Z.bits_0; reflexivity].
    - rewrite andb_false_r. destruct (Z.testbit x k); [rewrite Z.pow2_bits_false by lia; reflexivity|rewrite Z.bits_0; reflexivity]. }
  assert (I : forall x, 0 <= x -> isSet x k = Ok (Z.testbit x k)).
  { intros x Hx. unfold isSet, bit_. replace (k <? 32) with true by lia. cbn [bind]. rewrite G by exact Hx. f_equal.
    destruct (Z.testbit x k); [|reflexivity]. pose proof (Z.pow_pos_nonneg 2 k). replace (2 ^ k =? 0) with false by lia. reflexivity. }
  assert (R : forall x, 0 <= x -> (forall j, 32 <= j -> Z.testbit x j = false) -> x < 2 ^ 32).
  { intros x Hx B. destruct (Z.eq_dec x 0) as [->|N]; [lia|]. apply Z.log2_lt_pow2; [lia|]. destruct (Z.lt_ge_cases (Z.log2 x) 32) as [L|L]; [exact L|].
    specialize (B _ L). rewrite Z.bit_log2 in B by lia. discriminate. }
  assert (HB : forall j, 32 <= j -> Z.testbit bits j = false).
  { intros j J. destruct (Z.eq_dec bits 0) as [->|N]; [apply Z.bits_0|]. apply Z.bits_above_log2; [lia|].
    assert (Z.log2 bits < 32) by (apply Z.log2_lt_pow2; lia). lia. }
  split; [|split; [|split]].
  - exists (Z.lor bits (2 ^ w)). unfold setBit, bit_. replace (w <? 32) with true by lia. split; [reflexivity|].
    assert (P : 0 <= Z.lor bits (2 ^ w)) by (apply Z.lor_nonneg; split; [lia|apply Z.pow_nonneg; lia]).
    split; [split; [exact P|apply R; [exact P|]]|].
    + intros j J. rewrite Z.lor_spec, HB, Z.pow2_bits_false by lia. reflexivity.
    + rewrite I by exact P. rewrite Z.lor_spec, Z.pow2_bits_eqb by lia. rewrite (Z.eqb_sym w k). destruct (k =? w), (Z.testbit bits k); reflexivity.
  - exists (Z.clearbit bits w). unfold clearBit, bit_. replace (w <? 32) with true by lia. cbn [bind]. rewrite land_lnot32 by lia. split; [reflexivity|].
    assert (P : 0 <= Z.clearbit bits w) by (rewrite <- land_lnot32 by lia; apply Z.land_nonneg; left; lia).
    split; [split; [exact P|apply R; [exact P|]]|].
    + intros j J. rewrite Z.clearbit_eqb by lia. rewrite HB by exact J. reflexivity.
    + rewrite I by exact P. rewrite Z.clearbit_eqb by lia. rewrite (Z.eqb_sym w k). destruct (k =? w), (Z.testbit bits k); reflexivity.
  - apply I. lia.
  - unfold getBit, bit_. replace (k <? 32) with true by lia. cbn [bind]. rewrite G by lia. reflexivity.
Qed.
Print Assumptions C62_set_clear.
(** Defect: bit numbers from 32 on are not checked. *)
Theorem C62_large_undefined bits w : 32 <= w -> setBit bits w = UB /\ clearBit bits w = UB /\ isSet bits w = UB /\ getBit bits w = UB.
Proof. intros H. unfold setBit, clearBit, isSet, getBit, bit_. replace (w <? 32) with false by lia. repeat split. Qed.
Print Assumptions C62_large_undefined.
Example C62_ex : setBit 5 1 = Ok 7 /\ clearBit 7 0 = Ok 6 /\ isSet 6 2 = Ok true /\ isSet 6 3 = Ok false /\ setBit 0 31 = Ok (2 ^ 31).
Proof. vm_compute. repeat split. Qed.
