(** Proofs about the string and number helpers. *)
From Verif Require Import Base BaseFacts UtilsModel UtilsSpec.
Local Open Scope Z_scope.

(** ** gcd *)
Lemma is_gcd_sym x y d : is_gcd x y d -> is_gcd y x d.
Proof. unfold is_gcd. intros (H & Hx & Hy & Hm). repeat split; auto. Qed.
Lemma is_gcd_div x y : 0 < y -> (y | x) -> is_gcd x y y.
Proof. intros H D. repeat split; auto. apply Z.divide_refl. Qed.
Lemma is_gcd_rem x y d : 0 < y -> is_gcd y (Z.rem x y) d -> is_gcd x y d.
Proof.
  intros Hy (H & D1 & D2 & M). pose proof (Z.quot_rem x y ltac:(lia)) as E. repeat split; auto.
  - rewrite E. apply Z.divide_add_r; [apply Z.divide_mul_l, D1|exact D2].
  - intros e Hx Hy'. apply M; [exact Hy'|].
    replace (Z.rem x y) with (x - y * Z.quot x y) by lia. apply Z.divide_sub_r; [exact Hx|apply Z.divide_mul_l, Hy'].
Qed.

Lemma gcd_S n x y : gcd_ (S n) x y =
  (if y <? x then
     if y =? 0 then UB else if Z.rem x y =? 0 then Ok y else gcd_ n y (Z.rem x y)
   else
     if x =? 0 then UB else if Z.rem y x =? 0 then Ok x else gcd_ n x (Z.rem y x)).
Proof. reflexivity. Qed.

(** One call with the greater number first. *)
Lemma gcd_step n x y : 0 < y < x ->
  (exists d, gcd_ (S n) x y = Ok d /\ is_gcd x y d) \/
  (0 < x mod y < y /\ gcd_ (S n) x y = gcd_ n y (x mod y) /\ forall d, is_gcd y (x mod y) d -> is_gcd x y d).
Proof.
  intros H. rewrite gcd_S. replace (y <? x) with true by lia. replace (y =? 0) with false by lia.
  rewrite Z.rem_mod_nonneg by lia. destruct (x mod y =? 0) eqn:E1.
  - left. exists y. split; [reflexivity|]. apply is_gcd_div; [lia|]. apply Z.mod_divide; lia.
  - right. pose proof (Z.mod_pos_bound x y ltac:(lia)) as B. split; [lia|]. split; [reflexivity|].
    intros d Hd. apply is_gcd_rem; [lia|]. rewrite Z.rem_mod_nonneg by lia. exact Hd.
Qed.

Lemma gcd_gt k : forall x y n, 0 < y < x -> y < 2 ^ Z.of_nat k -> (2 * k <= n)%nat ->
  exists d, gcd_ n x y = Ok d /\ is_gcd x y d.
Proof.
  induction k as [|k IH]; intros x y n Hxy Hk Hn; [change (2 ^ Z.of_nat 0) with 1 in Hk; lia|].
  destruct n as [|[|n]]; [lia|lia|].
  destruct (gcd_step (S n) x y Hxy) as [G|(B1 & -> & G1)]; [exact G|].
  destruct (gcd_step n y (x mod y) B1) as [(d & Hd & Gd)|(B2 & -> & G2)].
  { exists d. split; [exact Hd|apply G1, Gd]. }
  set (r := x mod y) in *.
  destruct (IH r (y mod r) n) as (d & Hd & Gd); [lia| |lia|].
  - rewrite Nat2Z.inj_succ, Z.pow_succ_r in Hk by lia.
    assert (y = r * (y / r) + y mod r) by (apply Z.div_mod; lia).
    assert (1 <= y / r) by (apply Z.div_le_lower_bound; lia). nia.
  - exists d. split; [exact Hd|apply G1, G2, Gd].
Qed.

(** One more call may swap the arguments. *)
Lemma gcd_pos x y n : 0 < x -> 0 < y -> (2 * Z.to_nat (Z.log2 (Z.min x y)) + 3 <= n)%nat ->
  exists d, gcd_ n x y = Ok d /\ is_gcd x y d.
Proof.
  intros Hx Hy Hn. set (k := Z.to_nat (Z.log2 (Z.min x y)) ) in *.
  assert (K : Z.min x y < 2 ^ Z.of_nat (S k)).
  { unfold k. rewrite Nat2Z.inj_succ, Z2Nat.id by apply Z.log2_nonneg. apply Z.log2_spec. lia. }
  destruct (Z.lt_ge_cases y x) as [L|L].
  - apply (gcd_gt (S k)); [lia| |lia]. rewrite Z.min_r in K by lia. exact K.
  - rewrite Z.min_l in K by lia. destruct n as [|n]; [lia|]. cbn [gcd_].
    replace (y <? x) with false by lia. replace (x =? 0) with false by lia. rewrite Z.rem_mod_nonneg by lia.
    destruct (y mod x =? 0) eqn:E.
    { exists x. split; [reflexivity|]. apply is_gcd_sym, is_gcd_div; [lia|]. apply Z.mod_divide; lia. }
    pose proof (Z.mod_pos_bound y x ltac:(lia)) as B.
    destruct (gcd_gt (S k) x (y mod x) n) as (d & Hd & Gd); [lia|lia|lia|].
    exists d. split; [exact Hd|]. apply is_gcd_sym, is_gcd_rem; [lia|]. rewrite Z.rem_mod_nonneg by lia. exact Gd.
Qed.

Lemma app_eq_len {A} (a b : list A) : forall x y, length a = length b -> a ++ x = b ++ y -> a = b /\ x = y.
Proof.
  revert b. induction a as [|c a IH]; intros [|d b] x y L E; try discriminate; [split; [reflexivity|exact E]|].
  cbn [app] in E. injection E as -> E. destruct (IH b x y) as [-> ->]; [cbn [length] in L; lia|exact E|]. split; reflexivity.
Qed.

(** ** find *)
Lemma prefix_iff p : forall s, prefix p s = true <-> exists b, s = p ++ b.
Proof.
  induction p as [|x p IH]; intros s.
  - split; [exists s; reflexivity|reflexivity].
  - destruct s as [|y s]; cbn [prefix].
    + split; [discriminate|intros (b & H); discriminate].
    + rewrite andb_true_iff, IH, Z.eqb_eq. split.
      * intros [-> (b & ->)]. exists b. reflexivity.
      * intros (b & H). cbn [app] in H. injection H as -> ->. split; [reflexivity|exists b; reflexivity].
Qed.

Lemma find_some sub s i : find_ s sub = Some i ->
  exists a b, s = a ++ sub ++ b /\ length a = i /\
    forall a' c, s = a' ++ sub ++ c -> (i <= length a')%nat.
Proof.
  revert i. induction s as [|x t IH]; intros i H; cbn [find_] in H.
  - destruct (prefix sub []) eqn:E; [|discriminate]. injection H as <-. apply prefix_iff in E. destruct E as (b & E).
    exists [], b. repeat split; [exact E|]. intros. lia.
  - destruct (prefix sub (x :: t)) eqn:E.
    + injection H as <-. apply prefix_iff in E. destruct E as (b & E). exists [], b. repeat split; [exact E|]. intros. lia.
    + destruct (find_ t sub) as [j|] eqn:F; [|discriminate]. cbn [option_map] in H. injection H as <-.
      destruct (IH j eq_refl) as (a & b & -> & Ha & M). exists (x :: a), b. repeat split; [cbn [length]; lia|].
      intros a' c K. destruct a' as [|z a'].
      * assert (prefix sub (x :: a ++ sub ++ b) = true) by (apply prefix_iff; exists c; exact K). congruence.
      * cbn [app] in K. injection K as -> K. apply M in K. cbn [length]. lia.
Qed.
Lemma find_none sub s : find_ s sub = None -> ~ occurs sub s.
Proof.
  induction s as [|x t IH]; intros H (a & b & E); cbn [find_] in H.
  - destruct (prefix sub []) eqn:P; [discriminate|]. destruct a; [|discriminate].
    assert (prefix sub [] = true) by (apply prefix_iff; exists b; exact E). congruence.
  - destruct (prefix sub (x :: t)) eqn:P; [discriminate|]. destruct (find_ t sub) eqn:F; [discriminate|].
    destruct a as [|z a].
    + assert (prefix sub (x :: t) = true) by (apply prefix_iff; exists b; exact E). congruence.
    + cbn [app] in E. injection E as -> E. apply (IH eq_refl). exists a, b. exact E.
Qed.

(** ** replaceAll *)
Lemma replace_spec search rep : search <> [] -> forall n s pre, (length s < n)%nat ->
  exists s', replace_loop n search rep (pre ++ s) (length pre) = Ok (pre ++ s') /\ replaced search rep s s'.
Proof.
  intros Hs. induction n as [|n IH]; intros s pre Hn; [lia|]. cbn [replace_loop].
  rewrite app_length. destruct (length pre <? length pre + length s)%nat eqn:E.
  - unfold find_from. replace (length pre <=? length (pre ++ s))%nat with true by (rewrite app_length; lia).
    rewrite skipn_app, skipn_all, Nat.sub_diag. cbn [skipn app].
    destruct (find_ s search) as [i|] eqn:F; cbn [option_map].
    + apply find_some in F. destruct F as (a & b & -> & Ha & M).
      replace (firstn (length pre + i) (pre ++ a ++ search ++ b)) with (pre ++ a).
      2:{ rewrite firstn_app_2. f_equal. rewrite <- Ha, firstn_app, firstn_all, Nat.sub_diag. cbn [firstn]. rewrite app_nil_r. reflexivity. }
      replace (skipn (length pre + i + length search) (pre ++ a ++ search ++ b)) with b.
      2:{ replace (pre ++ a ++ search ++ b) with ((pre ++ a ++ search) ++ b) by (rewrite <- !app_assoc; reflexivity).
          rewrite skipn_app, skipn_all2 by (rewrite !app_length; lia).
          replace (length pre + i + length search - length (pre ++ a ++ search))%nat with O by (rewrite !app_length; lia).
          reflexivity. }
      destruct (IH b (pre ++ a ++ rep)) as (b' & Hb & Rb).
      { rewrite !app_length in Hn. destruct search; [congruence|]. cbn [length] in Hn. lia. }
      exists (a ++ rep ++ b'). split.
      * replace ((pre ++ a) ++ rep ++ b) with ((pre ++ a ++ rep) ++ b) by (rewrite <- !app_assoc; reflexivity).
        replace (length pre + i + length rep)%nat with (length (pre ++ a ++ rep)) by (rewrite !app_length; lia).
        rewrite Hb. rewrite <- !app_assoc. reflexivity.
      * apply rep_some; [|exact Rb]. intros a' c K. rewrite Ha. eapply M, K.
    + exists s. split; [reflexivity|]. apply rep_none. apply find_none, F.
  - destruct s as [|x s]; [|cbn [length] in E; lia]. exists []. split; [reflexivity|]. apply rep_none.
    intros (a & b & K). destruct a; [|discriminate]. destruct search; [congruence|discriminate].
Qed.

Lemma replaced_det search rep : search <> [] -> forall s u, replaced search rep s u ->
  forall v, replaced search rep s v -> u = v.
Proof.
  intros Hs s u H. induction H as [s N|a b b' M Rb IH]; intros v K.
  - inversion K as [|a b b' M R E1 E2]; subst; [reflexivity|]. destruct N. exists a, b. reflexivity.
  - inversion K as [t N E1 E2|a2 b2 b2' M2 R2 E1 E2]; subst.
    + destruct N. exists a, b. reflexivity.
    + assert (L : length a = length a2).
      { apply Nat.le_antisymm; [eapply M; symmetry; exact E1|eapply M2; exact E1]. }
      assert (a2 = a /\ b2 = b) as [-> ->].
      { apply app_eq_len in E1; [|lia]. destruct E1 as [-> E1]. apply app_inv_head in E1. split; [reflexivity|exact E1]. }
      rewrite (IH b2' R2). reflexivity.
Qed.

(** An empty search string is found everywhere. *)
Lemma replace_empty rep : forall n s i, (i < length s)%nat -> replace_loop n [] rep s i = Diverge.
Proof.
  induction n as [|n IH]; intros s i H; [reflexivity|]. cbn [replace_loop].
  replace (i <? length s)%nat with true by lia. unfold find_from. replace (i <=? length s)%nat with true by lia.
  assert (F : find_ (skipn i s) [] = Some O) by (destruct (skipn i s); reflexivity). rewrite F. cbn [option_map].
  rewrite !Nat.add_0_r. apply IH. cbn [length]. rewrite !app_length, firstn_length, skipn_length. lia.
Qed.
