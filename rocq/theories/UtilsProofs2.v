(** Proofs about splitting, hex numbers, formatting, statistics, bit sets, lines, tables. *)
From Verif Require Import Base BaseFacts UtilsModel UtilsSpec UtilsProofs.
Local Open Scope Z_scope.

Ltac lapp := repeat (progress (cbn [app]; rewrite <- ?app_assoc)); reflexivity.

Lemma nth_error_nil {A} k : nth_error (@nil A) k = None.
Proof. destruct k; reflexivity. Qed.

(** ** Fields *)
Definition starts_sep (sep : Z -> bool) (s : list Z) : Prop := match s with [] => True | c :: _ => sep c = true end.
Definition ends_sep (sep : Z -> bool) (s : list Z) : Prop := s = [] \/ exists a c, s = a ++ [c] /\ sep c = true.

Lemma fields_skip sep c t : sep c = true -> fields sep (c :: t) = fields sep t.
Proof. intros H. unfold fields. cbn [pieces]. rewrite H. reflexivity. Qed.
Lemma fields_skips sep s1 s2 : Forall (fun c => sep c = true) s1 -> fields sep (s1 ++ s2) = fields sep s2.
Proof. induction 1 as [|c s Hc Hs IH]; [reflexivity|]. cbn [app]. rewrite fields_skip by exact Hc. exact IH. Qed.

Lemma pieces_word sep w rest : Forall (fun c => sep c = false) w -> starts_sep sep rest ->
  pieces sep (w ++ rest) = match rest with [] => [w] | _ :: t => w :: pieces sep t end.
Proof.
  intros H R. induction H as [|c w Hc Hw IH].
  - cbn [app]. destruct rest as [|d t]; [reflexivity|]. cbn [starts_sep] in R. cbn [pieces]. rewrite R. reflexivity.
  - cbn [app pieces]. rewrite Hc, IH. destruct rest; reflexivity.
Qed.
Lemma fields_word sep w rest : w <> [] -> Forall (fun c => sep c = false) w -> starts_sep sep rest ->
  fields sep (w ++ rest) = w :: fields sep rest.
Proof.
  intros N H R. unfold fields. rewrite pieces_word by assumption. destruct w as [|c w]; [congruence|].
  destruct rest as [|d t]; [reflexivity|]. cbn [starts_sep] in R. cbn [pieces]. rewrite R. reflexivity.
Qed.

(** ** Scanning memory *)
Lemma rd_mid (pre s junk : list Z) : rd (pre ++ s ++ 0 :: junk) (length pre) = Ok (match s with [] => 0 | c :: _ => c end).
Proof.
  unfold rd. rewrite nth_error_app2 by lia. rewrite Nat.sub_diag. destruct s; reflexivity.
Qed.

Lemma scan_spec ok junk : forall s pre fuel, no_nul s -> (length s <= fuel)%nat ->
  exists s1 s2, s = s1 ++ s2 /\ Forall (fun c => ok c = true) s1 /\ match s2 with [] => True | c :: _ => ok c = false end /\
    scan_while fuel ok (pre ++ s ++ 0 :: junk) (length pre) = Ok (length pre + length s1)%nat.
Proof.
  induction s as [|c t IH]; intros pre fuel N L.
  - exists [], []. repeat split; [constructor|]. destruct fuel; cbn [scan_while]; rewrite rd_mid; cbn; f_equal; lia.
  - assert (Hc : (c =? 0) = false) by (destruct (Z.eqb_spec c 0); [subst; destruct N; left; reflexivity|reflexivity]).
    destruct (ok c) eqn:E.
    + destruct fuel as [|fuel]; [cbn in L; lia|].
      destruct (IH (pre ++ [c]) fuel) as (s1 & s2 & -> & F & M & Sc); [intros K; apply N; right; exact K|cbn [length] in L; lia|].
      exists (c :: s1), s2. repeat split; [constructor; assumption|exact M|].
      cbn [scan_while]. rewrite rd_mid. cbn [bind]. rewrite Hc, E. cbn [orb negb].
      replace (pre ++ (c :: s1 ++ s2) ++ 0 :: junk) with ((pre ++ [c]) ++ (s1 ++ s2) ++ 0 :: junk) by lapp.
      replace (S (length pre)) with (length (pre ++ [c])) by (rewrite app_length; cbn [length]; lia).
      rewrite Sc. f_equal. rewrite app_length. cbn [length]. lia.
    + exists [], (c :: t). repeat split; [constructor|exact E|].
      destruct fuel; cbn [scan_while]; rewrite rd_mid; cbn [bind]; rewrite Hc, E; cbn; f_equal; lia.
Qed.

Lemma skip_scan fuel sep buf : forall p, skip_sep fuel sep buf p = scan_while fuel sep buf p.
Proof. reflexivity. Qed.
Lemma pbrk_scan sep buf : forall fuel p, strpbrk_ fuel sep buf p =
  (do e <- scan_while fuel (fun c => negb (sep c)) buf p; do c <- rd buf e; Ok (if c =? 0 then None else Some e)).
Proof.
  induction fuel as [|n IH]; intros p; cbn [strpbrk_ scan_while]; destruct (rd buf p) as [c| | |] eqn:E; cbn [bind]; try reflexivity;
    rewrite negb_involutive; destruct (c =? 0) eqn:E0; cbn [orb].
  - cbn [bind]. rewrite E. cbn [bind]. rewrite E0. reflexivity.
  - destruct (sep c); cbn [bind]; [rewrite E; cbn [bind]; rewrite E0|]; reflexivity.
  - cbn [bind]. rewrite E. cbn [bind]. rewrite E0. reflexivity.
  - destruct (sep c); cbn [bind]; [rewrite E; cbn [bind]; rewrite E0; reflexivity|]. apply IH.
Qed.

Lemma str_at_word pre w rest : no_nul w -> str_at (pre ++ w ++ 0 :: rest) (length pre) = w.
Proof.
  intros N. unfold str_at. rewrite skipn_app, skipn_all, Nat.sub_diag. cbn [skipn app].
  induction w as [|c w IH]; [reflexivity|]. cbn [app c_str].
  replace (c =? 0) with false by (destruct (Z.eqb_spec c 0); [subst; destruct N; left; reflexivity|reflexivity]).
  f_equal. apply IH. intros K. apply N. right. exact K.
Qed.

Lemma upd_mid (pre : list Z) c t x : upd (pre ++ c :: t) (length pre) x = pre ++ x :: t.
Proof. induction pre as [|d pre IH]; [reflexivity|]. cbn [app length upd]. rewrite IH. reflexivity. Qed.

Lemma no_nul_app a b : no_nul (a ++ b) <-> no_nul a /\ no_nul b.
Proof. unfold no_nul. rewrite in_app_iff. tauto. Qed.

Lemma split_spec sep junk : forall slots s pre, no_nul s -> exists m argv,
  split_loop slots sep (pre ++ s ++ 0 :: junk) (length pre) = Ok (pre ++ m ++ 0 :: junk, argv) /\
  Forall2 (fun x y => y = x \/ (sep x = true /\ y = 0)) s m /\
  map (str_at (pre ++ m ++ 0 :: junk)) argv = firstn slots (fields sep s).
Proof.
  assert (R : forall s : list Z, Forall2 (fun x y => y = x \/ (sep x = true /\ y = 0)) s s)
    by (induction s; constructor; auto).
  induction slots as [|k IH]; intros s pre N.
  - exists s, []. repeat split. apply R.
  - cbn [split_loop]. rewrite skip_scan.
    destruct (scan_spec sep junk s pre (length (pre ++ s ++ 0 :: junk)) N) as (s1 & s2 & E & F1 & M1 & S1).
    { rewrite !app_length. lia. }
    rewrite S1. cbn [bind]. clear S1. subst s. apply no_nul_app in N. destruct N as [N1 N2].
    replace (pre ++ (s1 ++ s2) ++ 0 :: junk) with ((pre ++ s1) ++ s2 ++ 0 :: junk) by lapp.
    replace (length pre + length s1)%nat with (length (pre ++ s1)) by (rewrite app_length; reflexivity).
    rewrite rd_mid. cbn [bind]. rewrite fields_skips by exact F1.
    destruct s2 as [|c t].
    { cbn. exists s1, []. rewrite <- app_assoc. rewrite app_nil_r. repeat split. apply R. }
    assert (Hc : (c =? 0) = false) by (destruct (Z.eqb_spec c 0); [subst; destruct N2; left; reflexivity|reflexivity]).
    rewrite Hc. rewrite pbrk_scan.
    destruct (scan_spec (fun c => negb (sep c)) junk (c :: t) (pre ++ s1) (length ((pre ++ s1) ++ (c :: t) ++ 0 :: junk)) N2)
      as (w & rest & E & F2 & M2 & S2).
    { rewrite !app_length. lia. }
    rewrite S2. cbn [bind]. clear S2.
    assert (W : w <> []). { intros ->. cbn [app] in E. subst rest. rewrite M1 in M2. discriminate. }
    rewrite E in *. clear E. apply no_nul_app in N2. destruct N2 as [Nw Nr].
    assert (Fw : Forall (fun c => sep c = false) w) by (eapply Forall_impl; [|exact F2]; cbn; intros a Ha; destruct (sep a); [discriminate|reflexivity]).
    assert (Sr : starts_sep sep rest) by (destruct rest as [|d r]; [exact I|cbn; destruct (sep d); [reflexivity|discriminate M2]]).
    rewrite fields_word by assumption.
    replace ((pre ++ s1) ++ (w ++ rest) ++ 0 :: junk) with ((pre ++ s1 ++ w) ++ rest ++ 0 :: junk) by lapp.
    replace (length (pre ++ s1) + length w)%nat with (length (pre ++ s1 ++ w)) by (rewrite !app_length; lia).
    rewrite rd_mid. cbn [bind].
    destruct rest as [|d r].
    { cbn. exists (s1 ++ w), [length (pre ++ s1)].
      replace (pre ++ (s1 ++ w) ++ 0 :: junk) with ((pre ++ s1) ++ w ++ 0 :: junk) by lapp.
      replace ((pre ++ s1 ++ w) ++ 0 :: junk) with ((pre ++ s1) ++ w ++ 0 :: junk) by lapp.
      split; [reflexivity|]. rewrite app_nil_r. split; [apply R|]. cbn [map]. rewrite str_at_word by exact Nw.
      unfold fields. cbn. rewrite firstn_nil. reflexivity. }
    assert (Hd : (d =? 0) = false) by (destruct (Z.eqb_spec d 0); [subst; destruct Nr; left; reflexivity|reflexivity]).
    rewrite Hd. unfold wr. replace (length (pre ++ s1 ++ w) <? length ((pre ++ s1 ++ w) ++ (d :: r) ++ 0%Z :: junk))%nat with true
      by (rewrite !app_length; cbn [length]; lia). cbn [bind].
    cbn [app]. rewrite upd_mid. cbn [starts_sep] in Sr.
    destruct (IH r (pre ++ s1 ++ w ++ [0])) as (m & argv & Sm & Fm & Am); [intros K; apply Nr; right; exact K|].
    replace ((pre ++ s1 ++ w) ++ 0 :: r ++ 0 :: junk) with ((pre ++ s1 ++ w ++ [0]) ++ r ++ 0 :: junk) by lapp.
    replace (S (length (pre ++ s1 ++ w))) with (length (pre ++ s1 ++ w ++ [0])) by (rewrite !app_length; cbn [length]; lia).
    rewrite Sm. cbn [bind]. exists (s1 ++ w ++ 0 :: m), (length (pre ++ s1) :: argv).
    split; [|split].
    + f_equal. f_equal. lapp.
    + apply Forall2_app; [apply R|]. apply Forall2_app; [apply R|]. constructor; [right; auto|exact Fm].
    + cbn [map firstn]. f_equal.
      * replace (pre ++ (s1 ++ w ++ 0 :: m) ++ 0 :: junk) with ((pre ++ s1) ++ w ++ 0 :: m ++ 0 :: junk) by lapp.
        apply str_at_word, Nw.
      * rewrite fields_skip by exact Sr. rewrite <- Am.
        replace (pre ++ (s1 ++ w ++ 0 :: m) ++ 0 :: junk) with ((pre ++ s1 ++ w ++ [0]) ++ m ++ 0 :: junk); [reflexivity|].
        lapp.
Qed.

(** ** cstrGetArg *)
Definition nth_field (sep : Z -> bool) (s : list Z) (n : nat) (a w b : list Z) : Prop :=
  s = a ++ w ++ b /\ w <> [] /\ Forall (fun c => sep c = false) w /\ ends_sep sep a /\ starts_sep sep b /\
  length (fields sep a) = n.

Lemma ends_sep_app sep x a : ends_sep sep a -> a <> [] -> ends_sep sep (x ++ a).
Proof. intros [->|(b & c & -> & H)] N; [congruence|]. right. exists (x ++ b), c. rewrite app_assoc. auto. Qed.
Lemma ends_sep_all sep s : Forall (fun c => sep c = true) s -> ends_sep sep s.
Proof.
  intros H. destruct s as [|x s'] using rev_ind; [left; reflexivity|]. right. exists s', x. split; [reflexivity|].
  apply Forall_app in H. destruct H as [_ H]. inversion H. assumption.
Qed.

Lemma getarg_spec junk : forall k s pre, no_nul s ->
  match nth_error (fields isspace s) k with
  | Some w => exists a b, nth_field isspace s k a w b /\
      getarg_loop (S k) (pre ++ s ++ 0 :: junk) (length pre) = Ok (Some (length pre + length a, length w)%nat)
  | None => getarg_loop (S k) (pre ++ s ++ 0 :: junk) (length pre) = Ok None
  end.
Proof.
  induction k as [|k IH]; intros s pre N; rewrite ?nth_error_nil.
  all: destruct s as [|c0 t0]; [rewrite ?nth_error_nil; cbn [fields pieces filter]; rewrite ?nth_error_nil; cbn [getarg_loop];
    rewrite rd_mid; reflexivity|].
  all: assert (H0 : (c0 =? 0) = false) by (destruct (Z.eqb_spec c0 0); [subst; destruct N; left; reflexivity|reflexivity]).
  all: cbn [getarg_loop]; rewrite rd_mid; cbn [bind]; rewrite H0; set (s := c0 :: t0) in *.
  all: destruct (scan_spec isspace junk s pre (length (pre ++ s ++ 0 :: junk)) N) as (s1 & s2 & E & F1 & M1 & S1);
    [rewrite !app_length; lia|]; rewrite S1; cbn [bind]; clear S1; clearbody s; subst s;
    apply no_nul_app in N; destruct N as [N1 N2]; rewrite fields_skips by exact F1;
    replace (pre ++ (s1 ++ s2) ++ 0 :: junk) with ((pre ++ s1) ++ s2 ++ 0 :: junk) by lapp;
    replace (length pre + length s1)%nat with (length (pre ++ s1)) by (rewrite app_length; reflexivity);
    destruct (scan_spec (fun c => negb (isspace c)) junk s2 (pre ++ s1) (length ((pre ++ s1) ++ s2 ++ 0 :: junk)) N2)
      as (w & rest & E & F2 & M2 & S2); [rewrite !app_length; lia|]; rewrite S2; cbn [bind]; clear S2.
  all: assert (Fw : Forall (fun c => isspace c = false) w) by (eapply Forall_impl; [|exact F2]; cbn; intros a Ha; destruct (isspace a); [discriminate|reflexivity]).
  all: assert (Sr : starts_sep isspace rest) by (destruct rest as [|d r]; [exact I|cbn; destruct (isspace d); [reflexivity|discriminate M2]]).
  - destruct w as [|x w].
    + cbn [app] in E. subst rest. destruct s2 as [|d r]; [|cbn in M2, M1; rewrite M1 in M2; discriminate].
      cbn [fields pieces filter nth_error length]. replace (length (pre ++ s1) + 0 - length (pre ++ s1))%nat with O by lia. reflexivity.
    + subst s2. rewrite fields_word by (discriminate || assumption). cbn [nth_error].
      exists s1, rest. split.
      * repeat split; [discriminate|exact Fw|apply ends_sep_all, F1|exact Sr|].
        rewrite <- (app_nil_r s1), fields_skips by exact F1. reflexivity.
      * replace (length (pre ++ s1) + length (x :: w) - length (pre ++ s1))%nat with (length (x :: w)) by lia.
        cbn [length Nat.eqb]. rewrite app_length. reflexivity.
  - destruct w as [|x w].
    + cbn [app] in E. subst rest. destruct s2 as [|d r]; [|cbn in M2, M1; rewrite M1 in M2; discriminate].
      cbn [fields pieces filter nth_error length]. specialize (IH [] (pre ++ s1) N2). cbn [fields pieces filter] in IH.
      rewrite nth_error_nil in IH. rewrite Nat.add_0_r. exact IH.
    + subst s2. rewrite fields_word by (discriminate || assumption). cbn [nth_error].
      apply no_nul_app in N2. destruct N2 as [Nw Nr]. specialize (IH rest (pre ++ s1 ++ x :: w) Nr).
      replace ((pre ++ s1) ++ ((x :: w) ++ rest) ++ 0 :: junk) with ((pre ++ s1 ++ x :: w) ++ rest ++ 0 :: junk) by lapp.
      replace (length (pre ++ s1) + length (x :: w))%nat with (length (pre ++ s1 ++ x :: w)) by (rewrite !app_length; lia).
      destruct (nth_error (fields isspace rest) k) as [v|] eqn:En; [|exact IH].
      destruct IH as (a & b & (E1 & E2 & E3 & E4 & E5 & E6) & G). exists (s1 ++ (x :: w) ++ a), b. split.
      * assert (Ha : a <> [] /\ starts_sep isspace a).
        { destruct a as [|y a]; [|split; [discriminate|subst rest; exact Sr]]. cbn [app] in E1. subst rest.
          destruct v as [|z v]; [congruence|]. inversion E3; subst. cbn [app starts_sep] in Sr. congruence. }
        destruct Ha as [Ha1 Ha2]. repeat split.
        -- rewrite E1. lapp.
        -- exact E2.
        -- exact E3.
        -- rewrite app_assoc. apply ends_sep_app; assumption.
        -- exact E5.
        -- rewrite fields_skips by exact F1. rewrite fields_word by (discriminate || assumption). cbn [length]. lia.
      * etransitivity; [exact G|]. f_equal. f_equal. f_equal. rewrite !app_length. lia.
Qed.

(** ** Hex numbers *)
Fixpoint hexn (w : nat) (n : Z) : list Z :=
  match w with O => [] | S k => hexn k (n / 16) ++ [lowhex (n mod 16)] end.
Lemma hexn_length w : forall n, length (hexn w n) = w.
Proof. induction w as [|w IH]; intros n; [reflexivity|]. cbn [hexn]. rewrite app_length, IH. cbn [length]. lia. Qed.
Lemma hexn_zero w : hexn w 0 = repeat 48 w.
Proof.
  induction w as [|w IH]; [reflexivity|]. cbn [hexn]. change (0 / 16) with 0. rewrite IH.
  change (lowhex (0 mod 16)) with 48. rewrite <- repeat_cons. reflexivity.
Qed.
Lemma hex_digits_len w : forall n, (length (hex_digits w n) <= w)%nat.
Proof.
  induction w as [|w IH]; intros n; [cbn; lia|]. cbn [hex_digits]. rewrite app_length. cbn [length].
  specialize (IH (n / 16)). destruct (n <? 16); cbn [length]; lia.
Qed.
Lemma hex_digits_S k n : hex_digits (S k) n = (if n <? 16 then [] else hex_digits k (n / 16)) ++ [lowhex (n mod 16)].
Proof. reflexivity. Qed.
Lemma pad_hexn w : forall n, 0 <= n -> pad_left (S w) 48 (hex_digits (S w) n) = hexn (S w) n.
Proof.
  induction w as [|w IH]; intros n Hn.
  - cbn [hex_digits hexn]. unfold pad_left. destruct (n <? 16); reflexivity.
  - rewrite hex_digits_S. change (hexn (S (S w)) n) with (hexn (S w) (n / 16) ++ [lowhex (n mod 16)]).
    destruct (n <? 16) eqn:E.
    + cbn [app]. unfold pad_left. cbn [length]. replace (n / 16) with 0 by lia. rewrite hexn_zero. f_equal.
    + rewrite <- IH by lia. unfold pad_left. rewrite app_length. cbn [length]. rewrite <- app_assoc.
      f_equal. f_equal. lia.
Qed.
Lemma lowhex_val d : 0 <= d < 16 -> hexval (lowhex d) = Some d.
Proof.
  intros H. unfold lowhex, hexval.
  destruct (d <? 10) eqn:E; repeat match goal with |- context [if ?b then _ else _] => destruct b eqn:? end; try lia; f_equal; lia.
Qed.
Lemma parse_app a b v : (forall c, In c a -> hexval c <> None) -> parse_hex (a ++ b) v = parse_hex b (parse_hex a v).
Proof.
  revert v. induction a as [|c a IH]; intros v H; [reflexivity|]. cbn [app parse_hex].
  destruct (hexval c) eqn:E; [|destruct (H c (or_introl eq_refl) E)]. apply IH. intros d Hd. apply H. right. exact Hd.
Qed.
Lemma hexn_hex w : forall n c, In c (hexn w n) -> hexval c <> None.
Proof.
  induction w as [|w IH]; intros n c H; [destruct H|]. cbn [hexn] in H. apply in_app_iff in H. destruct H as [H|[<-|[]]]; [eapply IH, H|].
  rewrite lowhex_val by lia. discriminate.
Qed.
Lemma parse_hexn w : forall n v, parse_hex (hexn w n) v = v * 16 ^ Z.of_nat w + n mod 16 ^ Z.of_nat w.
Proof.
  induction w as [|w IH]; intros n v.
  - cbn [hexn parse_hex]. change (16 ^ Z.of_nat 0) with 1. rewrite Z.mod_1_r. lia.
  - cbn [hexn]. rewrite parse_app by apply hexn_hex. rewrite IH. cbn [parse_hex]. rewrite lowhex_val by lia.
    rewrite Nat2Z.inj_succ, Z.pow_succ_r by lia. set (p := 16 ^ Z.of_nat w). assert (0 < p) by (unfold p; apply Z.pow_pos_nonneg; lia).
    rewrite Z.rem_mul_r by lia. lia.
Qed.
Lemma hexn_nth w : forall n i, (i < w)%nat -> nth_error (hexn w n) i = Some (lowhex ((n / 16 ^ Z.of_nat (w - 1 - i)) mod 16)).
Proof.
  induction w as [|w IH]; intros n i H; [lia|]. cbn [hexn].
  destruct (Nat.eq_dec i w) as [->|N].
  - rewrite nth_error_app2 by (rewrite hexn_length; lia). rewrite hexn_length, Nat.sub_diag.
    replace (S w - 1 - w)%nat with O by lia. change (16 ^ Z.of_nat 0) with 1. rewrite Z.div_1_r. reflexivity.
  - rewrite nth_error_app1 by (rewrite hexn_length; lia). rewrite IH by lia. do 2 f_equal.
    replace (S w - 1 - i)%nat with (S (w - 1 - i)) by lia. rewrite Nat2Z.inj_succ, Z.pow_succ_r by lia.
    rewrite Z.div_div by (try lia; apply Z.pow_pos_nonneg; lia). reflexivity.
Qed.

(** ** Formatting *)
Lemma c_str_full s t : no_nul s -> c_str (s ++ 0 :: t) = s.
Proof. intros N. exact (str_at_word [] s t N). Qed.
Lemma no_nul_firstn n s : no_nul s -> no_nul (firstn n s).
Proof. intros N K. apply N. rewrite <- (firstn_skipn n s). apply in_app_iff. left. exact K. Qed.

(** ** Statistic *)
Lemma to_double_exact z : Z.abs z <= 2 ^ 53 -> to_double z = z.
Proof.
  intros H. unfold to_double. destruct (Z.log2 (Z.abs z) + 1 - 53 <=? 0) eqn:E; [reflexivity|].
  assert (L : 53 <= Z.log2 (Z.abs z)) by lia.
  assert (z = 2 ^ 53 \/ z = - 2 ^ 53) as [-> | ->]; [|reflexivity|reflexivity].
  assert (Z.abs z <> 0) by (intros K; rewrite K in L; cbn in L; lia).
  apply Z.log2_le_pow2 in L; [|lia]. lia.
Qed.

(** ** Lines *)
Lemma lines_concat s : concat (lines s) = s.
Proof.
  induction s as [|c t IH]; [reflexivity|]. cbn [lines]. destruct (c =? 10).
  - cbn [concat app]. rewrite IH. reflexivity.
  - destruct (lines t) as [|l r]; cbn [concat app] in *; rewrite <- IH; reflexivity.
Qed.
Lemma lines_nl a b : ~ In 10 a -> lines (a ++ 10 :: b) = (a ++ [10]) :: lines b.
Proof.
  induction a as [|c a IH]; intros N; [reflexivity|]. cbn [app lines].
  replace (c =? 10) with false by (destruct (Z.eqb_spec c 10); [subst; destruct N; left; reflexivity|reflexivity]).
  rewrite IH by (intros K; apply N; right; exact K). reflexivity.
Qed.
Lemma lines_none a : ~ In 10 a -> a <> [] -> lines a = [a].
Proof.
  induction a as [|c a IH]; intros N H; [congruence|]. cbn [lines].
  replace (c =? 10) with false by (destruct (Z.eqb_spec c 10); [subst; destruct N; left; reflexivity|reflexivity]).
  destruct a as [|d a]; [reflexivity|]. rewrite IH by (try discriminate; intros K; apply N; right; exact K). reflexivity.
Qed.

Definition upto (msg : list Z) (pos : option nat) : list Z := match pos with None => msg | Some p => firstn p msg end.

Lemma firstlines_step pre rest : rest <> [] ->
  (exists a b, rest = a ++ 10 :: b /\ ~ In 10 a /\
     past (pre ++ rest) (find_from (pre ++ rest) [10] (length pre)) = Some (length (pre ++ a ++ [10]))) \/
  (~ In 10 rest /\ past (pre ++ rest) (find_from (pre ++ rest) [10] (length pre)) = None).
Proof.
  intros R. unfold find_from. replace (length pre <=? length (pre ++ rest))%nat with true by (rewrite app_length; lia).
  rewrite skipn_app, skipn_all, Nat.sub_diag. cbn [skipn app].
  destruct (find_ rest [10]) as [i|] eqn:F; cbn [option_map past].
  - left. apply find_some in F. destruct F as (a & b & -> & Ha & M). exists a, b. split; [reflexivity|]. split.
    + intros K. apply in_split in K. destruct K as (a1 & a2 & ->). specialize (M a1 (a2 ++ [10] ++ b)).
      rewrite <- app_assoc in M. specialize (M eq_refl). rewrite app_length in Ha. cbn [length] in Ha. lia.
    + replace (length pre + i <? length (pre ++ a ++ [10%Z] ++ b))%nat with true by (rewrite !app_length; cbn [length]; lia).
      f_equal. rewrite !app_length. cbn [length]. lia.
  - right. split; [|reflexivity]. apply find_none in F. intros K. apply in_split in K. destruct K as (a & b & ->). apply F. exists a, b. reflexivity.
Qed.

Lemma firstlines_loop_spec k : forall pre rest,
  upto (pre ++ rest) (firstlines_loop k (pre ++ rest) (Some (length pre))) = pre ++ concat (firstn k (lines rest)).
Proof.
  induction k as [|k IH]; intros pre rest.
  - cbn. rewrite firstn_app, firstn_all, Nat.sub_diag. cbn [firstn]. reflexivity.
  - cbn [firstlines_loop]. destruct rest as [|c rest'].
    + rewrite app_nil_r. replace (length pre <? length pre)%nat with false by lia. cbn. rewrite firstn_all, app_nil_r. reflexivity.
    + set (rest := c :: rest'). replace (length pre <? length (pre ++ rest))%nat with true by (rewrite app_length; unfold rest; cbn [length]; lia).
      destruct (firstlines_step pre rest) as [(a & b & E & N & ->)|(N & ->)]; [discriminate| |].
      * rewrite E. replace (pre ++ a ++ 10 :: b) with ((pre ++ a ++ [10]) ++ b) by lapp.
        rewrite IH, lines_nl by exact N. cbn [firstn concat]. lapp.
      * rewrite lines_none by (exact N || discriminate). cbn [firstn concat]. rewrite firstn_nil. cbn [concat]. rewrite app_nil_r.
        destruct k; reflexivity.
Qed.

Lemma firstlines_spec msg n : 1 <= n -> firstlines msg n = concat (firstn (Z.to_nat n) (lines msg)).
Proof.
  intros H. unfold firstlines. replace (Z.to_nat n) with (S (Z.to_nat (n - 1))) by lia. set (k := Z.to_nat (n - 1)).
  change (upto msg (firstlines_loop k msg (past msg (find_from msg [10] 0))) = concat (firstn (S k) (lines msg))).
  destruct msg as [|c t].
  - cbn. destruct k; reflexivity.
  - set (msg := c :: t). pose proof (firstlines_loop_spec (S k) [] msg) as E. cbn [firstlines_loop app length] in E.
    replace (0 <? length msg)%nat with true in E by (unfold msg; cbn [length]; lia). exact E.
Qed.

(** ** Tables *)
Lemma widths_fold col tab : forall w,
  fold_left (fun w row => if (col <? length row)%nat then Nat.max w (colwidth (cell_at row col)) else w) tab w =
  Nat.max w (widths tab col).
Proof.
  unfold widths. induction tab as [|row tab IH]; intros w; cbn [fold_left]; [lia|].
  rewrite IH. rewrite (IH (if (col <? length row)%nat then Nat.max 0 (colwidth (cell_at row col)) else 0%nat)).
  destruct (col <? length row)%nat; lia.
Qed.
Lemma widths_ge tab row col : In row tab -> (col < length row)%nat -> (colwidth (cell_at row col) <= widths tab col)%nat.
Proof.
  induction tab as [|r tab IH]; intros H L; [destruct H|]. unfold widths. cbn [fold_left]. rewrite widths_fold.
  destruct H as [->|H]; [replace (col <? length row)%nat with true by lia; lia|]. specialize (IH H L). lia.
Qed.
Lemma widths_le tab col : (widths tab col <= 100)%nat.
Proof.
  induction tab as [|r tab IH]; [cbn; lia|]. unfold widths. cbn [fold_left]. rewrite widths_fold. unfold colwidth at 1.
  destruct (col <? length r)%nat; lia.
Qed.
Lemma c_str_le m : (length (c_str m) <= length m)%nat.
Proof. induction m as [|c t IH]; [cbn; lia|]. cbn [c_str]. destruct (c =? 0); cbn [length]; lia. Qed.
Lemma shown_le cell : (length (shown cell) <= length cell)%nat.
Proof. unfold shown. destruct (list_eq_dec Z.eq_dec (c_str cell) (lit "_")); [cbn; lia|apply c_str_le]. Qed.
Lemma padded_fit w v : (length v <= w)%nat -> (w <= 248)%nat -> padded w v = v ++ repeat 32 (w - length v) ++ [32].
Proof. intros H1 H2. unfold padded. apply firstn_all2. rewrite !app_length, repeat_length. cbn [length]. lia. Qed.
