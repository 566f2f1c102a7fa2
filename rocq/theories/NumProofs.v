(** Numbers and vectors in configuration values. *)
From Verif Require Import Base BaseFacts UtilsModel UtilsSpec UtilsProofs UtilsProofs2 SqlModel SqlProofs ConfigModel ConfigSpec.
Local Open Scope Z_scope.

Lemma digit_val_some base d c : base <= 36 -> d < base -> char_of_digit d c -> digit_val base c = Some d.
Proof.
  intros B D H. unfold digit_val.
  assert (E : (if (48 <=? c) && (c <=? 57) then c - 48 else if (97 <=? c) && (c <=? 122) then c - 87 else if (65 <=? c) && (c <=? 90) then c - 55 else 99) = d).
  { destruct H as [[H ->]|[H [-> | ->]]].
    - replace ((48 <=? 48 + d) && (48 + d <=? 57)) with true by lia. lia.
    - replace ((48 <=? 97 + (d - 10)) && (97 + (d - 10) <=? 57)) with false by lia.
      replace ((97 <=? 97 + (d - 10)) && (97 + (d - 10) <=? 122)) with true by lia. lia.
    - replace ((48 <=? 65 + (d - 10)) && (65 + (d - 10) <=? 57)) with false by lia.
      replace ((97 <=? 65 + (d - 10)) && (65 + (d - 10) <=? 122)) with false by lia.
      replace ((65 <=? 65 + (d - 10)) && (65 + (d - 10) <=? 90)) with true by lia. lia. }
  rewrite E. replace (d <? base) with true by lia. reflexivity.
Qed.
Lemma digit_val_inv base c d : base <= 36 -> digit_val base c = Some d -> d < base /\ char_of_digit d c.
Proof.
  intros B H. unfold digit_val in H. unfold char_of_digit.
  destruct ((48 <=? c) && (c <=? 57)) eqn:E1; [destruct (c - 48 <? base) eqn:L; [injection H as <-; lia|discriminate]|].
  destruct ((97 <=? c) && (c <=? 122)) eqn:E2; [destruct (c - 87 <? base) eqn:L; [injection H as <-; lia|discriminate]|].
  destruct ((65 <=? c) && (c <=? 90)) eqn:E3; [destruct (c - 55 <? base) eqn:L; [injection H as <-; lia|discriminate]|].
  destruct (99 <? base) eqn:L; [lia|discriminate].
Qed.
Lemma stops_digit base c t : base <= 36 -> stops base (c :: t) -> digit_val base c = None.
Proof.
  intros B H. cbn [stops] in H. destruct (digit_val base c) as [d|] eqn:E; [|reflexivity].
  destruct (digit_val_inv base c d B E) as [L K]. exfalso. exact (H d L K).
Qed.
Lemma digits_val_spec base : 0 < base <= 36 -> forall ds s rest v, digit_string base ds s -> stops base rest ->
  digits_val base (s ++ rest) v = v * base ^ Z.of_nat (length ds) + positional base ds.
Proof.
  intros B ds s rest. induction ds as [|d ds IH] in s |- *; intros v D R; inversion D as [|? c ? s' [L C] D']; subst.
  - cbn [app length positional]. change (base ^ Z.of_nat 0) with 1. destruct rest as [|c t]; cbn [digits_val]; [lia|].
    rewrite (stops_digit base c t) by (assumption || lia). lia.
  - cbn [app digits_val]. rewrite (digit_val_some base d c) by (assumption || lia). rewrite IH by assumption.
    cbn [length positional]. rewrite Nat2Z.inj_succ, Z.pow_succ_r by lia. ring.
Qed.

Lemma skip_space_app ws s : Forall (fun c => isspace c = true) ws -> skip_space (ws ++ s) = skip_space s.
Proof. intros H. induction H as [|c ws Hc H IH]; [reflexivity|]. cbn [app skip_space]. rewrite Hc. exact IH. Qed.
Lemma saturate_clamp z : saturate z = clamp z.
Proof. unfold saturate, clamp. destruct (z <? - 2 ^ 63) eqn:A; [lia|]. destruct (z <? 2 ^ 63) eqn:B; lia. Qed.

(** strtol of white space, a sign and the rest. *)
Lemma strtol_signed ws sign c t : Forall (fun c => isspace c = true) ws -> is_sign sign -> isspace c = false -> c <> 43 -> c <> 45 ->
  strtol (ws ++ sign ++ c :: t) = saturate (sign_of sign * magnitude (c :: t)).
Proof.
  intros W G C P M. unfold strtol. rewrite skip_space_app by exact W. rewrite saturate_clamp. destruct G as [->|[->| ->]].
  - cbn [app skip_space]. rewrite C. change (sign_of []) with 1. rewrite Z.mul_1_l.
    replace (c =? 45) with false by lia. replace (c =? 43) with false by lia. reflexivity.
  - cbn [app]. change (skip_space (43 :: c :: t)) with (43 :: c :: t). cbv iota. change (43 =? 45) with false. change (43 =? 43) with true. cbv iota. change (sign_of [43]) with 1. rewrite Z.mul_1_l. reflexivity.
  - cbn [app]. change (skip_space (45 :: c :: t)) with (45 :: c :: t). cbv iota. change (45 =? 45) with true. cbv iota. change (sign_of [45]) with (-1). replace (-1 * magnitude (c :: t)) with (- magnitude (c :: t)) by lia. reflexivity.
Qed.

Lemma magnitude_not0 c t : c <> 48 -> magnitude (c :: t) = digits_val 10 (c :: t) 0.
Proof.
  intros H. unfold magnitude. replace (c =? 48) with false by lia. reflexivity.
Qed.
Lemma digit_nospace base d c : base <= 36 -> d < base -> char_of_digit d c -> isspace c = false /\ c <> 43 /\ c <> 45 /\ c <> 32.
Proof. intros B D H. unfold char_of_digit in H. unfold isspace. split; lia. Qed.

Lemma strtol_dec ws sign d ds s rest : Forall (fun c => isspace c = true) ws -> is_sign sign ->
  digit_string 10 (d :: ds) s -> d <> 0 -> stops 10 rest ->
  strtol (ws ++ sign ++ s ++ rest) = saturate (sign_of sign * positional 10 (d :: ds)).
Proof.
  intros W G D N R. pose proof (digits_val_spec 10 ltac:(lia) (d :: ds) s rest 0 D R) as V.
  inversion D as [|? c ? s' [L C] D']; subst. cbn [app] in *. destruct (digit_nospace 10 d c ltac:(lia) L C) as (A1 & A2 & A3 & _).
  rewrite strtol_signed by assumption. rewrite magnitude_not0 by (unfold char_of_digit in C; lia). rewrite V. reflexivity.
Qed.
Lemma strtol_hex ws sign x d ds s rest : Forall (fun c => isspace c = true) ws -> is_sign sign -> x = 120 \/ x = 88 ->
  digit_string 16 (d :: ds) s -> stops 16 rest ->
  strtol (ws ++ sign ++ 48 :: x :: s ++ rest) = saturate (sign_of sign * positional 16 (d :: ds)).
Proof.
  intros W G X D R. pose proof (digits_val_spec 16 ltac:(lia) (d :: ds) s rest 0 D R) as V.
  rewrite strtol_signed by (assumption || reflexivity || lia). f_equal. f_equal.
  inversion D as [|? c ? s' [L C] D']; subst. cbn [app] in *. unfold magnitude.
  rewrite (digit_val_some 16 d c) by (assumption || lia). replace ((x =? 120) || (x =? 88)) with true by lia. exact V.
Qed.
Lemma strtol_oct ws sign ds s rest : Forall (fun c => isspace c = true) ws -> is_sign sign ->
  digit_string 8 ds s -> stops 8 rest ->
  (ds = [] -> match rest with x :: h :: _ => x = 120 \/ x = 88 -> forall d, d < 16 -> ~ char_of_digit d h | _ => True end) ->
  strtol (ws ++ sign ++ 48 :: s ++ rest) = saturate (sign_of sign * positional 8 ds).
Proof.
  intros W G D R H. assert (D0 : digit_string 8 (0 :: ds) (48 :: s)).
  { constructor; [split; [lia|left; split; [lia|reflexivity]]|exact D]. }
  pose proof (digits_val_spec 8 ltac:(lia) (0 :: ds) (48 :: s) rest 0 D0 R) as V. cbn [positional app] in V. rewrite !Z.mul_0_l, !Z.add_0_l in V.
  rewrite strtol_signed by (assumption || reflexivity || lia). f_equal. f_equal.
  unfold magnitude. destruct (s ++ rest) as [|x [|h t]] eqn:E; [exact V|exact V|].
  destruct (((x =? 120) || (x =? 88)) && match digit_val 16 h with Some _ => true | None => false end) eqn:B; [|exact V].
  exfalso. apply andb_true_iff in B. destruct B as [B1 B2]. destruct D as [|d c ds s [L C] D].
  - cbn [app] in E. subst rest. specialize (H eq_refl). cbv iota beta in H. destruct (digit_val 16 h) as [d|] eqn:E2; [|discriminate].
    destruct (digit_val_inv 16 h d ltac:(lia) E2) as [L C]. exact (H ltac:(lia) d L C).
  - cbn [app] in E. injection E as E1 E2. subst c. unfold char_of_digit in C. lia.
Qed.
(** No digits: 0. *)
Lemma strtol_none ws sign rest : Forall (fun c => isspace c = true) ws -> is_sign sign -> stops 10 rest ->
  (sign = [] -> match rest with c :: _ => isspace c = false /\ c <> 43 /\ c <> 45 | [] => True end) -> strtol (ws ++ sign ++ rest) = 0.
Proof.
  intros W G R H. destruct rest as [|c t].
  - rewrite app_nil_r. unfold strtol. rewrite skip_space_app by exact W. destruct G as [->|[->| ->]]; reflexivity.
  - assert (Z0 : digits_val 10 (c :: t) 0 = 0) by (cbn [digits_val]; rewrite (stops_digit 10 c t ltac:(lia) R); reflexivity).
    assert (N48 : c <> 48) by (intros ->; apply (R 0); [lia|left; split; [lia|reflexivity]]).
    assert (M : magnitude (c :: t) = 0) by (rewrite magnitude_not0 by exact N48; exact Z0).
    destruct G as [->|G].
    + destruct (H eq_refl) as (A & B & C). rewrite (strtol_signed ws [] c t W ltac:(left; reflexivity) A B C). rewrite M. reflexivity.
    + unfold strtol. rewrite skip_space_app by exact W. destruct G as [->| ->]; cbn [app].
      * change (skip_space (43 :: c :: t)) with (43 :: c :: t). cbv iota. change (43 =? 45) with false. change (43 =? 43) with true. cbv iota. rewrite M. reflexivity.
      * change (skip_space (45 :: c :: t)) with (45 :: c :: t). cbv iota. change (45 =? 45) with true. cbv iota. rewrite M. reflexivity.
Qed.

(** ** %ld *)
Lemma positional_app base a b : 0 < base -> positional base (a ++ b) = positional base a * base ^ Z.of_nat (length b) + positional base b.
Proof.
  intros B. induction a as [|d a IH]; [cbn [app positional]; lia|]. cbn [app positional]. rewrite IH, app_length, Nat2Z.inj_add, Z.pow_add_r by lia. ring.
Qed.
Lemma dec_digits_spec fuel : forall n, 0 <= n < 10 ^ Z.of_nat fuel -> (0 < fuel)%nat ->
  exists d ds, digit_string 10 (d :: ds) (dec_digits fuel n) /\ positional 10 (d :: ds) = n /\ (d = 0 -> n = 0 /\ ds = []).
Proof.
  induction fuel as [|fuel IH]; intros n R F; [lia|]. cbn [dec_digits].
  assert (L : n mod 10 < 10 /\ char_of_digit (n mod 10) (48 + n mod 10)) by (unfold char_of_digit; lia).
  destruct (n <? 10) eqn:E.
  - exists (n mod 10), []. split; [constructor; [exact L|constructor]|]. split; [cbn [positional length]; change (10 ^ Z.of_nat 0) with 1; lia|]. intros H. split; [lia|reflexivity].
  - destruct fuel as [|fuel]; [change (10 ^ Z.of_nat 1) with 10 in R; lia|].
    rewrite Nat2Z.inj_succ, Z.pow_succ_r in R by lia.
    destruct (IH (n / 10) ltac:(lia) ltac:(lia)) as (d & ds & D & V & N).
    exists d, (ds ++ [n mod 10]). split; [|split].
    + change (d :: ds ++ [n mod 10]) with ((d :: ds) ++ [n mod 10]). apply Forall2_app; [exact D|constructor; [exact L|constructor]].
    + change (d :: ds ++ [n mod 10]) with ((d :: ds) ++ [n mod 10]). rewrite positional_app by lia. rewrite V. cbn [length positional]. change (10 ^ Z.of_nat 1) with 10. change (10 ^ Z.of_nat 0) with 1. lia.
    + intros H. destruct (N H). lia.
Qed.
Lemma digits_no_nul base ds s : digit_string base ds s -> no_nul s.
Proof.
  intros H K. induction H as [|d c ds s [L C] H IH]; [destruct K|]. destruct K as [K|K]; [unfold char_of_digit in C; lia|exact (IH K)].
Qed.
Lemma number_sprintf z : - 2 ^ 63 <= z < 2 ^ 63 -> number (sprintf_ld z) = z.
Proof.
  intros R. assert (P : 10 ^ Z.of_nat 20 = 100000000000000000000) by reflexivity.
  assert (One : forall n, 0 <= n < 10 ^ Z.of_nat 20 -> forall sign, is_sign sign ->
    strtol (sign ++ dec_digits 20 n) = saturate (sign_of sign * n) /\ no_nul (dec_digits 20 n) /\ dec_digits 20 n <> []).
  { intros n B sign G. destruct (dec_digits_spec 20 n B ltac:(lia)) as (d & ds & D & V & N). split; [|split].
    - destruct (Z.eq_dec d 0) as [->|Hd].
      + destruct (N eq_refl) as [-> ->]. destruct G as [->|[->| ->]]; reflexivity.
      + pose proof (strtol_dec [] sign d ds _ [] ltac:(constructor) G D Hd I) as T. rewrite app_nil_r in T. cbn [app] in T. rewrite T, V. reflexivity.
    - exact (digits_no_nul _ _ _ D).
    - intros E. rewrite E in D. inversion D. }
  unfold sprintf_ld. destruct (z <? 0) eqn:E.
  - destruct (One (- z) ltac:(lia) [45] ltac:(right; right; reflexivity)) as (T & N & _).
    unfold number. rewrite c_str_id.
    + change (45 :: dec_digits 20 (- z)) with ([45] ++ dec_digits 20 (- z)). rewrite T. change (sign_of [45]) with (-1). rewrite saturate_clamp. unfold clamp. lia.
    + intros [K|K]; [discriminate K|exact (N K)].
  - destruct (One z ltac:(lia) [] ltac:(left; reflexivity)) as (T & N & M).
    unfold number. destruct (dec_digits 20 z) as [|c s] eqn:F; [contradiction M; reflexivity|]. rewrite c_str_id by exact N. cbn [app] in T. rewrite T.
    change (sign_of []) with 1. rewrite saturate_clamp. unfold clamp. lia.
Qed.

(** ** Vectors *)
Lemma splits_blank s l : splits s l -> splits (skip_blank s) l /\ (length (skip_blank s) <= length s)%nat.
Proof.
  intros H. induction H as [|t l H IH|w rest l W N R H IH].
  - split; [constructor|reflexivity].
  - cbn [skip_blank]. change (32 =? 32) with true. cbv iota. destruct IH as [A B]. split; [exact A|cbn [length]; lia].
  - assert (E : skip_blank (w ++ rest) = w ++ rest).
    { destruct w as [|c w]; [contradiction W; reflexivity|]. cbn [app skip_blank]. replace (c =? 32) with false; [reflexivity|].
      destruct (c =? 32) eqn:E; [exfalso; apply N; left; lia|reflexivity]. }
    rewrite E. split; [constructor; assumption|lia].
Qed.
Lemma skip_blank_head s : skip_blank s = [] \/ exists c t, skip_blank s = c :: t /\ c <> 32.
Proof.
  induction s as [|c t IH]; [left; reflexivity|]. cbn [skip_blank]. destruct (c =? 32) eqn:E; [exact IH|]. right. exists c, t. split; [reflexivity|lia].
Qed.
Lemma strsep_spec s : exists f, ~ In 32 f /\
  ((s = f /\ strsep s = (f, None)) \/ exists t, s = f ++ 32 :: t /\ strsep s = (f, Some t)).
Proof.
  induction s as [|c s IH]; [exists []; split; [intros []|left; split; reflexivity]|]. cbn [strsep]. destruct (c =? 32) eqn:E.
  - exists []. split; [intros []|]. right. exists s. split; [replace c with 32 by lia; reflexivity|reflexivity].
  - destruct IH as (f & N & H). exists (c :: f). split; [intros [K|K]; [lia|exact (N K)]|].
    destruct H as [[-> H]|(t & -> & H)]; [left|right; exists t]; rewrite H; split; reflexivity.
Qed.
Lemma splits_of_blank s l : splits (skip_blank s) l -> splits s l.
Proof.
  induction s as [|c t IH]; [auto|]. cbn [skip_blank]. destruct (c =? 32) eqn:E; [|auto].
  intros H. replace c with 32 by lia. constructor. apply IH. exact H.
Qed.
Lemma skip_blank_len s : (length (skip_blank s) <= length s)%nat.
Proof. induction s as [|c t IH]; [reflexivity|]. cbn [skip_blank]. destruct (c =? 32); cbn [length]; lia. Qed.
Lemma vec_strings_splits fuel : forall s, (length s < fuel)%nat -> splits s (vec_strings fuel s).
Proof.
  induction fuel as [|fuel IH]; intros s L; [lia|]. cbn [vec_strings]. apply splits_of_blank. pose proof (skip_blank_len s).
  destruct (skip_blank_head s) as [E|(c & t & E & C)]; rewrite E in *; [constructor|].
  destruct (strsep_spec (c :: t)) as (f & N & [[Hs St]|(t2 & Hs & St)]); rewrite St.
  - rewrite Hs. rewrite <- (app_nil_r f) at 1. apply splits_word; [rewrite <- Hs; discriminate|exact N|left; reflexivity|constructor].
  - rewrite Hs. apply splits_word; [|exact N|right; exists t2; reflexivity|].
    + intros ->. cbn [app] in Hs. injection Hs as -> _. apply C. reflexivity.
    + constructor. apply IH. apply (f_equal (@length Z)) in Hs. rewrite app_length in Hs. cbn [length] in Hs, H. lia.
Qed.
(** The runs are unique. *)
Lemma word_unique w1 : forall w2 r1 r2, ~ In 32 w1 -> ~ In 32 w2 -> (r1 = [] \/ exists t, r1 = 32 :: t) -> (r2 = [] \/ exists t, r2 = 32 :: t) ->
  w1 ++ r1 = w2 ++ r2 -> w1 = w2 /\ r1 = r2.
Proof.
  induction w1 as [|c w1 IH]; intros w2 r1 r2 N1 N2 R1 R2 E.
  - destruct w2 as [|d w2]; [split; [reflexivity|exact E]|]. cbn [app] in E. destruct R1 as [->|(t & ->)]; [discriminate|].
    injection E as E _. exfalso. apply N2. left. lia.
  - destruct w2 as [|d w2]; cbn [app] in E.
    + destruct R2 as [->|(t & ->)]; [discriminate|]. injection E as E _. exfalso. apply N1. left. lia.
    + injection E as -> E. destruct (IH w2 r1 r2) as [-> ->]; [intros K; apply N1; right; exact K|intros K; apply N2; right; exact K|exact R1|exact R2|exact E|]. split; reflexivity.
Qed.
Lemma splits_empty s l : splits s l -> s = [] -> l = [].
Proof. intros H. destruct H as [|t l H|w rest l W N R H]; intros E; [reflexivity|discriminate|]. destruct w; [contradiction W; reflexivity|discriminate]. Qed.
Lemma splits_sp s l : splits s l -> forall t, s = 32 :: t -> splits t l.
Proof.
  intros H. destruct H as [|t l H|w rest l W N R H]; intros t0 E; [discriminate|injection E as <-; exact H|].
  destruct w as [|c w]; [contradiction W; reflexivity|]. cbn [app] in E. injection E as -> _. exfalso. apply N. left. reflexivity.
Qed.
Lemma splits_first s l : splits s l -> forall w rest, s = w ++ rest -> w <> [] -> ~ In 32 w -> (rest = [] \/ exists t, rest = 32 :: t) ->
  exists l', l = w :: l' /\ splits rest l'.
Proof.
  intros H. destruct H as [|t l H|w' rest' l W' N' R' H]; intros w rest E W N R.
  - destruct w; [contradiction W; reflexivity|discriminate].
  - destruct w as [|c w]; [contradiction W; reflexivity|]. cbn [app] in E. injection E as <- _. exfalso. apply N. left. reflexivity.
  - destruct (word_unique w' w rest' rest N' N R' R E) as [-> ->]. exists l. split; [reflexivity|exact H].
Qed.
Lemma splits_unique s l1 : splits s l1 -> forall l2, splits s l2 -> l1 = l2.
Proof.
  intros H. induction H as [|t l H IH|w rest l W N R H IH]; intros l2 K.
  - symmetry. exact (splits_empty [] l2 K eq_refl).
  - apply IH. exact (splits_sp (32 :: t) l2 K t eq_refl).
  - destruct (splits_first _ l2 K w rest eq_refl W N R) as (l' & -> & H'). f_equal. apply IH. exact H'.
Qed.
Lemma splits_join l : Forall (fun w => w <> [] /\ ~ In 32 w) l -> splits (join_sp l) l.
Proof.
  intros H. induction H as [|w l [W N] H IH]; [constructor|]. destruct l as [|x l].
  - cbn [join_sp]. rewrite <- (app_nil_r w) at 1. apply splits_word; [exact W|exact N|left; reflexivity|constructor].
  - change (join_sp (w :: x :: l)) with (w ++ 32 :: join_sp (x :: l)). apply splits_word; [exact W|exact N|right; eexists; reflexivity|constructor; exact IH].
Qed.
Lemma splits_words s l : splits s l -> Forall (fun w => w <> [] /\ ~ In 32 w) l.
Proof. intros H. induction H as [|t l H IH|w rest l W N R H IH]; [constructor|exact IH|constructor; [split; assumption|exact IH]]. Qed.

(** strtol stops at the end of the field. *)
Lemma digits_val_field base w t : base <= 36 -> forall v, digits_val base (w ++ 32 :: t) v = digits_val base w v.
Proof.
  intros B. induction w as [|c w IH]; intros v; cbn [app digits_val].
  - rewrite (stops_digit base 32 t B); [reflexivity|]. cbn [stops]. intros d _ H. unfold char_of_digit in H. lia.
  - destruct (digit_val base c); [apply IH|reflexivity].
Qed.
Lemma magnitude_field w t : magnitude (w ++ 32 :: t) = magnitude w.
Proof.
  destruct w as [|a w]; [cbn [app]; rewrite magnitude_not0 by lia; exact (digits_val_field 10 [] t ltac:(lia) 0)|].
  destruct (Z.eq_dec a 48) as [->|N].
  - destruct w as [|x [|h w]]; cbn [app].
    + destruct t as [|y t]; unfold magnitude; [reflexivity|]. change ((32 =? 120) || (32 =? 88)) with false. cbn [andb]. exact (digits_val_field 8 [48] (y :: t) ltac:(lia) 0).
    + unfold magnitude. change (digit_val 16 32) with (@None Z). rewrite andb_false_r. exact (digits_val_field 8 [48; x] t ltac:(lia) 0).
    + unfold magnitude. destruct (((x =? 120) || (x =? 88)) && match digit_val 16 h with Some _ => true | None => false end).
      * exact (digits_val_field 16 (h :: w) t ltac:(lia) 0).
      * exact (digits_val_field 8 (48 :: x :: h :: w) t ltac:(lia) 0).
  - cbn [app]. rewrite !magnitude_not0 by exact N. exact (digits_val_field 10 (a :: w) t ltac:(lia) 0).
Qed.
Lemma strtol_field w t : w <> [] -> Forall (fun c => isspace c = false) w -> strtol (w ++ 32 :: t) = strtol w.
Proof.
  intros W H. destruct w as [|c w]; [contradiction W; reflexivity|]. inversion H; subst. unfold strtol. cbn [app skip_space]. rewrite H2.
  pose proof (magnitude_field (c :: w) t) as M1. pose proof (magnitude_field w t) as M2. cbn [app] in M1.
  destruct (c =? 45); [rewrite M2; reflexivity|]. destruct (c =? 43); [rewrite M2; reflexivity|]. rewrite M1. reflexivity.
Qed.
Lemma vec_nums_spec fuel : forall s l, (length s < fuel)%nat -> splits s l -> Forall (Forall (fun c => isspace c = false)) l ->
  vec_nums fuel s = map (fun w => u32 (strtol w)) l.
Proof.
  induction fuel as [|fuel IH]; intros s l L Sp F; [lia|]. cbn [vec_nums]. destruct (splits_blank s l Sp) as [Sp' L'].
  destruct (skip_blank_head s) as [E|(c & t & E & C)]; rewrite E in *.
  - rewrite (splits_unique [] l Sp' [] splits_nil). reflexivity.
  - destruct (strsep_spec (c :: t)) as (f & Nf & [[Hs St]|(t2 & Hs & St)]); rewrite St; cbn [snd].
    + destruct (splits_first _ l Sp' f [] ltac:(rewrite app_nil_r; exact Hs) ltac:(rewrite <- Hs; discriminate) Nf ltac:(left; reflexivity)) as (l' & -> & H').
      rewrite (splits_empty _ l' H' eq_refl), Hs. reflexivity.
    + assert (Wf : f <> []) by (intros ->; cbn [app] in Hs; injection Hs as -> _; apply C; reflexivity).
      destruct (splits_first _ l Sp' f (32 :: t2) Hs Wf Nf ltac:(right; eexists; reflexivity)) as (l' & -> & H').
      inversion F as [|? ? F1 F2]; subst. cbn [map]. rewrite Hs, strtol_field by assumption. f_equal. apply IH; [|exact (splits_sp _ l' H' t2 eq_refl)|exact F2].
      rewrite Hs, app_length in L'. cbn [length] in L'. lia.
Qed.
Lemma dec_digits_fields n : 0 <= n < 10 ^ Z.of_nat 20 -> dec_digits 20 n <> [] /\ ~ In 32 (dec_digits 20 n) /\ Forall (fun c => isspace c = false) (dec_digits 20 n).
Proof.
  intros B. destruct (dec_digits_spec 20 n B ltac:(lia)) as (d & ds & D & _ & _). split; [intros E; rewrite E in D; inversion D|].
  generalize dependent (dec_digits 20 n). generalize (d :: ds). intros l s D. induction D as [|x c l s [L C] D [I1 I2]]; [split; [intros []|constructor]|].
  destruct (digit_nospace 10 x c ltac:(lia) L C) as (A & _ & _ & A2). split; [intros [K|K]; [exact (A2 K)|exact (I1 K)]|constructor; assumption].
Qed.
