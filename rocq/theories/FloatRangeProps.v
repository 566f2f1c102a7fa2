(** C94: ranges of floats, and what is read of values in a range. *)
From Coq Require Import Lia QArith Qabs Qpower Lqa.
From Verif Require Import Base BaseFacts UtilsModel UtilsSpec SqlModel SqlProofs ConfigModel ConfigSpec ConfigProofs NumProofs ConfigProps ValidModel ValidSpec ValidProofs ValidProps
  F16Model F16Float F16FloatProofs FloatNumModel FloatNumProps FloatRangeModel.
Local Open Scope Z_scope.

(** ** What a user expects *)
(** A text begins with a decimal number, after white space and a sign; without one it counts as 0. *)
Definition decimal_value (sign a b : list Z) (e : Z) : Q := inject_Z (sign_of sign) * (inject_Z (positional 10 (a ++ b)) * inject_Z 10 ^ (e - Z.of_nat (length b))).
Inductive reads : list Z -> Q -> Prop :=
| ReadsNumber ws sign a A b F e X rest : blank ws -> is_sign sign -> digit_string 10 a A -> fraction 10 b F -> a ++ b <> [] -> power 101 e X -> ends 10 101 F X rest ->
    (X = [] -> head_not [101; 69] rest) -> reads (ws ++ sign ++ A ++ F ++ X ++ rest) (decimal_value sign a b e)
| ReadsNone ws sign rest : blank ws -> is_sign sign -> stops 10 rest -> match rest with c :: t => c = 46 -> stops 10 t | [] => True end ->
    (sign = [] -> match rest with c :: _ => isspace c = false /\ c <> 43 /\ c <> 45 | [] => False end) -> reads (ws ++ sign ++ rest) 0.
(** The nearest float, the largest one for what is too large. *)
Definition nearest_finite (x : Q) (f : float) : Prop := exists g, nearest_float x g /\ f = match g with Inf s => if s then Fin (- (2 ^ 24 - 1)) 104 else Fin (2 ^ 24 - 1) 104 | _ => g end.
Definition at_most (x y : Q) : Prop := exists f g, nearest_finite x f /\ nearest_finite y g /\ float_le f g.

(** ** Reading *)
Lemma nearest_zero : nearest_float 0 (Fin 0 0).
Proof. apply nearest_eq with (x := (inject_Z 0 * inject_Z 10 ^ 0)%Q); [reflexivity|]. change (Fin 0 0) with (scaled 0 10 0). apply scaled_nearest; lia. Qed.
Lemma read_signed ws sign s : blank ws -> is_sign sign -> match s with c :: _ => isspace c = false /\ c <> 43 /\ c <> 45 | [] => sign <> [] end \/ sign <> [] ->
  read_float (ws ++ sign ++ s) = Some (signed sign (read_unsigned s)).
Proof.
  intros W G H. unfold read_float. rewrite skip_space_app by exact W. destruct G as [->|[->| ->]]; [|reflexivity|reflexivity].
  destruct H as [H|H]; [|contradiction H; reflexivity]. destruct s as [|c s]; [contradiction H; reflexivity|]. destruct H as (H1 & H2 & H3).
  cbn [app skip_space]. rewrite H1. replace (c =? 45) with false by lia. replace (c =? 43) with false by lia. reflexivity.
Qed.
Lemma signed_limited sign x f : is_sign sign -> nearest_float x f -> nearest_finite (inject_Z (sign_of sign) * x) (signed sign (limited f)).
Proof.
  intros G N. exists (signed sign f). split; [apply signed_nearest; assumption|].
  destruct G as [->|[->| ->]]; cbn [signed]; destruct f as [m e|[]|]; reflexivity.
Qed.
Theorem read_float_spec s x : reads s x -> exists f, read_float s = Some f /\ nearest_finite x f.
Proof.
  intros [ws sign a A b F e X rest W G DA DF NE P E H|ws sign rest W G R P H].
  - destruct (number_head a A b F (X ++ rest) DA DF NE) as (c & t & Eq & Hc).
    assert (M : mantissa 10 (A ++ F ++ X ++ rest) = Some (a, b, X ++ rest)).
    { apply mantissa_app; try assumption; try lia.
      - apply (power_stops 10 101 e X rest); try lia; [exact P|]. intros ->. apply E.
      - intros ->. destruct X as [|x' X]; [cbn [app]; unfold ends in E; apply E; reflexivity|]. cbn [app]. inversion P; subst. lia. }
    assert (EX : exponent 101 (X ++ rest) = (e, rest)).
    { apply exponent_app; [lia|exact P|]. unfold ends in E. destruct X; [apply E|exact E]. }
    assert (IN : incomplete (X ++ rest) rest = false).
    { unfold incomplete. destruct X as [|y X].
      - cbn [app]. specialize (H eq_refl). destruct rest as [|y r]; [reflexivity|]. cbn [head_not In] in H. replace ((y =? 101) || (y =? 69)) with false by lia. reflexivity.
      - cbn [app]. unfold len. cbn [length]. rewrite app_length. replace (Z.of_nat (S (length X + length rest)) =? Z.of_nat (length rest)) with false by lia. apply andb_false_r. }
    assert (U : read_unsigned (A ++ F ++ X ++ rest) = limited (scaled (positional 10 (a ++ b)) 10 (e - Z.of_nat (length b)))).
    { unfold read_unsigned. rewrite M, EX, IN, num_positional by lia. reflexivity. }
    exists (signed sign (limited (scaled (positional 10 (a ++ b)) 10 (e - Z.of_nat (length b))))). split.
    + rewrite read_signed, U; [reflexivity|exact W|exact G|]. left. rewrite Eq. split; [|lia]. unfold isspace. lia.
    + unfold decimal_value. apply signed_limited; [exact G|]. apply scaled_nearest; [|lia]. rewrite positional_app by lia.
      assert (0 <= positional 10 a) by (eapply positional_nonneg; [|exact DA]; lia). assert (0 <= positional 10 b) by (destruct DF as [|b0 s0 DB]; [cbn [positional]; lia|eapply positional_nonneg; [|exact DB]; lia]).
      pose proof (Z.pow_nonneg 10 (Z.of_nat (length b)) ltac:(lia)). nia.
  - assert (M : mantissa 10 rest = None).
    { unfold mantissa. rewrite (stops_nil_scan 10 rest ltac:(lia) R). destruct rest as [|c t]; [reflexivity|]. destruct (Z.eqb_spec c 46) as [E|E]; [|reflexivity].
      rewrite (stops_nil_scan 10 t ltac:(lia) (P E)). reflexivity. }
    assert (U : read_unsigned rest = Fin 0 0) by (unfold read_unsigned; rewrite M; reflexivity).
    exists (Fin 0 0). split.
    + rewrite read_signed; [|exact W|exact G|].
      * rewrite U. destruct G as [->|[->| ->]]; reflexivity.
      * destruct G as [->|[->| ->]]; [left|right; discriminate|right; discriminate]. specialize (H eq_refl). destruct rest; [contradiction|exact H].
    + exists (Fin 0 0). split; [exact nearest_zero|reflexivity].
Qed.
(** ** Comparing *)
Definition finite (f : float) : Prop := match f with Fin _ _ => True | _ => False end.
Lemma nearest_finite_finite x f : nearest_finite x f -> finite f.
Proof. intros (g & N & ->). destruct g as [m e|[]|]; [exact I|exact I|exact I|destruct N]. Qed.
Lemma fle_spec f g : finite f -> finite g -> fle f g = true <-> float_le f g.
Proof.
  destruct f as [m e| |], g as [m' e'| |]; try contradiction. intros _ _. unfold fle, fcompare, float_le. cbv zeta. set (z := Z.min e e').
  rewrite (fval_down m e z), (fval_down m' e' z), fval_le by lia.
  destruct (Z.compare_spec (m * 2 ^ (e - z)) (m' * 2 ^ (e' - z))); split; intros; try discriminate; try reflexivity; lia.
Qed.
Lemma float_le_trans f g h : finite g -> float_le f g -> float_le g h -> float_le f h.
Proof. destruct f as [m e|[]|], g as [m' e'|[]|], h as [m2 e2|[]|]; cbn; try tauto. intros _ A B. eapply Qle_trans; eassumption. Qed.
Lemma largest_single : single (Fin (2 ^ 24 - 1) 104) /\ single (Fin (- (2 ^ 24 - 1)) 104).
Proof. split; (split; [reflexivity|lia]). Qed.
Lemma single_bound m e : single (Fin m e) -> (fval m e <= fval (2 ^ 24 - 1) 104)%Q /\ (fval (- (2 ^ 24 - 1)) 104 <= fval m e)%Q.
Proof.
  intros [A B]. rewrite (fval_down (2 ^ 24 - 1) 104 e), (fval_down (- (2 ^ 24 - 1)) 104 e), !fval_le by lia.
  assert (2 ^ 0 <= 2 ^ (104 - e)) by (apply two_le; lia). rewrite Z.pow_0_r in *. nia.
Qed.
Lemma finite_monotone x y f g : nearest_finite x f -> nearest_finite y g -> (x <= y)%Q -> float_le f g.
Proof.
  intros (f0 & Nf & ->) (g0 & Ng & ->) L. pose proof (C86_monotone x y f0 g0 Nf Ng L) as M.
  destruct f0 as [m e|[]|], g0 as [m' e'|[]|]; cbn [float_le] in *; try contradiction; try exact M; try apply Qle_refl.
  - apply single_bound. apply Nf.
  - apply single_bound. apply Ng.
  - rewrite fval_le. lia.
Qed.
Lemma finite_unique x f g : nearest_finite x f -> nearest_finite x g -> float_le f g /\ float_le g f.
Proof. intros A B. split; eapply finite_monotone; eauto; apply Qle_refl. Qed.
Lemma at_most_fle x y f g : nearest_finite x f -> nearest_finite y g -> fle f g = true <-> at_most x y.
Proof.
  intros A B. rewrite fle_spec by (eapply nearest_finite_finite; eassumption). split; [intros L; exists f, g; auto|].
  intros (f' & g' & A' & B' & L). destruct (finite_unique x f f' A A') as [L1 _]. destruct (finite_unique y g' g B' B) as [L2 _].
  eapply float_le_trans; [|exact L1|]; [eapply nearest_finite_finite; exact A'|]. eapply float_le_trans; [|exact L|exact L2]. eapply nearest_finite_finite; exact B'.
Qed.
(** Every value of digits, points and hyphens can be read. *)
Definition float_text (s : list Z) : Prop := s <> [] /\ Forall (fun c => 48 <= c <= 57 \/ c = 45 \/ c = 46) s.
Lemma mantissa_inv s a b r : mantissa 10 s = Some (a, b, r) -> exists A F, s = A ++ F ++ r /\ digit_string 10 a A /\ fraction 10 b F /\ a ++ b <> [] /\ stops 10 r /\ (F = [] -> match r with c :: _ => c <> 46 | [] => True end).
Proof.
  unfold mantissa. destruct (scan 10 s) as [a' s1] eqn:S. destruct (scan_inv 10 s a' s1 ltac:(lia) S) as (A & -> & DA & R).
  destruct s1 as [|c t].
  - destruct (a' ++ []) eqn:E; [discriminate|]. intros H. injection H as <- <- <-. exists A, []. repeat split; auto; try constructor. rewrite E. discriminate.
  - destruct (Z.eqb_spec c 46) as [->|C].
    + destruct (scan 10 t) as [b' s2] eqn:S2. destruct (scan_inv 10 t b' s2 ltac:(lia) S2) as (B & -> & DB & R2). destruct (a' ++ b') eqn:E; [discriminate|].
      intros H. injection H as <- <- <-. exists A, (46 :: B). split; [reflexivity|]. split; [exact DA|]. split; [constructor; exact DB|]. split; [rewrite E; discriminate|]. split; [exact R2|discriminate].
    + destruct (a' ++ []) eqn:E; [discriminate|]. intros H. injection H as <- <- <-. exists A, []. repeat split; auto; try constructor. rewrite E. discriminate.
Qed.
Lemma mantissa_none s : mantissa 10 s = None -> stops 10 s /\ match s with c :: t => c = 46 -> stops 10 t | [] => True end.
Proof.
  unfold mantissa. destruct (scan 10 s) as [a s1] eqn:S. destruct (scan_inv 10 s a s1 ltac:(lia) S) as (A & -> & DA & R). intros H.
  assert (a = []).
  { destruct a; [reflexivity|]. destruct (match s1 with [] => _ | _ => _ end) as [b s2]. cbn [app] in H. discriminate H. }
  subst a. inversion DA; subst. cbn [app] in *. split; [exact R|]. destruct s1 as [|c t]; [exact I|]. intros ->. change (46 =? 46) with true in H. cbv iota in H.
  destruct (scan 10 t) as [b s2] eqn:S2. destruct (scan_inv 10 t b s2 ltac:(lia) S2) as (B & -> & DB & R2). destruct b; [|discriminate H]. inversion DB; subst. exact R2.
Qed.
Lemma reads_exists s : float_text s -> exists x, reads s x.
Proof.
  intros [NE F].
  assert (K : exists sign t, s = sign ++ t /\ (sign = [] \/ sign = [45]) /\ (sign = [] -> match t with c :: _ => c <> 45 | [] => False end)).
  { destruct s as [|c t]; [contradiction NE; reflexivity|]. destruct (Z.eq_dec c 45) as [->|N]; [exists [45], t; intuition discriminate|exists [], (c :: t); auto]. }
  destruct K as (sign & t & -> & G & H). apply Forall_app in F. destruct F as [_ F].
  assert (GS : is_sign sign) by (destruct G as [->| ->]; [left|right; right]; reflexivity).
  destruct (mantissa 10 t) as [[[a b] r]|] eqn:M.
  - destruct (mantissa_inv t a b r M) as (A & Fr & -> & DA & DF & NE2 & R & P). exists (decimal_value sign a b 0).
    assert (HR : head_not [101; 69] r).
    { destruct r as [|c r]; [exact I|]. cbn [head_not In]. rewrite Forall_forall in F. specialize (F c). rewrite !in_app_iff in F. cbn [In] in F. specialize (F ltac:(tauto)). lia. }
    apply (ReadsNumber [] sign a A b Fr 0 [] r); try assumption; [constructor|constructor| |intros _; exact HR].
    split; [exact R|]. split; [exact P|]. intros z u q PW E. destruct PW as [|x sg ds w X _ _ _]; [reflexivity|]. subst r. cbn [app head_not In] in HR. lia.
  - destruct (mantissa_none t M) as [R P]. exists 0%Q. apply (ReadsNone [] sign t); try assumption; [constructor|].
    intros E. specialize (H E). destruct t as [|c t]; [contradiction|]. inversion F; subst. split; [unfold isspace; lia|lia].
Qed.
Lemma first_split (c : Z) s : In c s -> exists a b, s = a ++ c :: b /\ ~ In c a.
Proof.
  induction s as [|x s IH]; [intros []|]. intros I. destruct (Z.eq_dec x c) as [->|N]; [exists [], s; auto|].
  destruct I as [I|I]; [contradiction|]. destruct (IH I) as (a & b & -> & NA). exists (x :: a), b. split; [reflexivity|]. intros [K|K]; auto.
Qed.
(** ** The theorems *)
Definition bounds_text (smin smax steps : list Z) : Prop :=
  free_of (lit "(:") smin /\ free_of (lit "(,:") smax /\ (steps = [] \/ exists t, steps = 40 :: t) /\ Z.of_nat (length (smin ++ 58 :: smax ++ steps)) < 2 ^ 31.
(** A range with a point in it accepts the texts of digits, points and hyphens that begin with a number in the
    range, where numbers count as the floats nearest to them. *)
Theorem C94_range R S name smin smax steps lo hi val : declared S name VALRANGE (smin ++ 58 :: smax ++ steps) -> bounds_text smin smax steps -> In 46 (smin ++ 58 :: smax ++ steps) ->
  reads smin lo -> reads smax hi -> no_nul val ->
  decides (isValidValue R float_range S name val) (float_text val /\ exists x, reads val x /\ at_most lo x /\ at_most x hi).
Proof.
  intros D (Hm & Hx & Hs & L) P Rlo Rhi N. unfold isValidValue. rewrite D. cbn [optional andb base_valid].
  change (lit "(:") with [40; 58] in Hm. change (lit "(,:") with [40; 44; 58] in Hx.
  assert (FD : negb (find (smin ++ 58 :: smax ++ steps) 46 0 =? npos) = true).
  { set (vv := smin ++ 58 :: smax ++ steps) in *. destruct (first_split 46 vv P) as (a & b & E & NA). rewrite E in *. rewrite (find0_at a 46 b NA).
    unfold npos, len. rewrite app_length in L. apply negb_true_iff, Z.eqb_neq. lia. }
  rewrite FD, c_str_id by exact N.
  assert (FC : forall c, float_char c = true <-> 48 <= c <= 57 \/ c = 45 \/ c = 46) by (intros c; unfold float_char, range_char; lia).
  pose proof (plus_of_spec _ _ val FC) as PV. fold (float_text val) in PV. destruct (plus_of float_char val) eqn:E.
  - pose proof (proj1 PV eq_refl) as FT. unfold float_range. rewrite getMinMax_spec by assumption. cbn [bind].
    destruct (reads_exists val FT) as (x & Rx). destruct (read_float_spec val x Rx) as (f & -> & Nf).
    destruct (read_float_spec smin lo Rlo) as (flo & -> & Nlo). destruct (read_float_spec smax hi Rhi) as (fhi & -> & Nhi).
    eexists. split; [reflexivity|]. rewrite andb_true_iff, (at_most_fle lo x flo f Nlo Nf), (at_most_fle x hi f fhi Nf Nhi). split.
    + intros [A B]. split; [exact FT|]. exists x. auto.
    + intros (_ & y & Ry & A & B). destruct (read_float_spec val y Ry) as (g & Eg & Ng). destruct (read_float_spec val x Rx) as (f' & Ef & Nf').
      rewrite Ef in Eg. injection Eg as ->. split.
      * apply (at_most_fle lo x flo g Nlo Nf'), (at_most_fle lo y flo g Nlo Ng), A.
      * apply (at_most_fle x hi g fhi Nf' Nhi), (at_most_fle y hi g fhi Ng Nhi), B.
  - eexists. split; [reflexivity|]. split; [discriminate|]. intros (FT & _). apply PV, FT.
Qed.
Print Assumptions C94_range.
(** Numbers between the bounds are accepted. *)
Theorem C94_within R S name smin smax steps lo hi val x : declared S name VALRANGE (smin ++ 58 :: smax ++ steps) -> bounds_text smin smax steps -> In 46 (smin ++ 58 :: smax ++ steps) ->
  reads smin lo -> reads smax hi -> no_nul val -> float_text val -> reads val x -> (lo <= x <= hi)%Q -> isValidValue R float_range S name val = Ok true.
Proof.
  intros D B P Rlo Rhi N FT Rx [L1 L2]. destruct (C94_range R S name smin smax steps lo hi val D B P Rlo Rhi N) as (b & E & H). rewrite E. f_equal. apply H.
  split; [exact FT|]. exists x. split; [exact Rx|].
  destruct (read_float_spec val x Rx) as (f & _ & Nf). destruct (read_float_spec smin lo Rlo) as (flo & _ & Nlo). destruct (read_float_spec smax hi Rhi) as (fhi & _ & Nhi).
  split; [exists flo, f|exists f, fhi]; (split; [assumption|split; [assumption|]]); eapply finite_monotone; eassumption.
Qed.
Print Assumptions C94_within.
(** What is accepted outside is the same float as the bound. *)
Definition same_float (x y : Q) : Prop := exists m e m' e', nearest_finite x (Fin m e) /\ nearest_finite y (Fin m' e') /\ (fval m e == fval m' e')%Q.
Lemma at_most_cases x y : at_most x y -> (x <= y)%Q \/ same_float x y.
Proof.
  intros (f & g & Nf & Ng & L). destruct (Qlt_le_dec y x) as [C|C]; [right|left; exact C].
  pose proof (finite_monotone y x g f Ng Nf ltac:(lra)) as L2. pose proof (nearest_finite_finite x f Nf) as Ff. pose proof (nearest_finite_finite y g Ng) as Fg.
  destruct f as [m e| |]; try contradiction. destruct g as [m' e'| |]; try contradiction. exists m, e, m', e'. split; [exact Nf|]. split; [exact Ng|]. cbn in L, L2. lra.
Qed.
Theorem C94_outside R S name smin smax steps lo hi val : declared S name VALRANGE (smin ++ 58 :: smax ++ steps) -> bounds_text smin smax steps -> In 46 (smin ++ 58 :: smax ++ steps) ->
  reads smin lo -> reads smax hi -> no_nul val -> isValidValue R float_range S name val = Ok true ->
  float_text val /\ exists x, reads val x /\ ((lo <= x)%Q \/ same_float lo x) /\ ((x <= hi)%Q \/ same_float x hi).
Proof.
  intros D B P Rlo Rhi N V. destruct (C94_range R S name smin smax steps lo hi val D B P Rlo Rhi N) as (b & E & H). rewrite V in E. injection E as <-.
  destruct (proj1 H eq_refl) as (FT & x & Rx & A1 & A2). split; [exact FT|]. exists x. split; [exact Rx|]. split; apply at_most_cases; assumption.
Qed.
Print Assumptions C94_outside.

(** ** What the program reads of an accepted value *)
Lemma limited_neg f : limited (fneg f) = fneg (limited f).
Proof. destruct f as [m e|[]|]; reflexivity. Qed.
Lemma unsigned_text t : Forall (fun c => 48 <= c <= 57 \/ c = 45 \/ c = 46) t -> unsigned t = decimal t.
Proof.
  intros F. unfold unsigned. destruct t as [|c t]; [reflexivity|]. inversion F as [|? ? C F2]; subst.
  assert (E : lower c = c) by (unfold lower; replace (65 <=? c) with false by lia; reflexivity).
  rewrite (after_none (lit "infinity") _ c t eq_refl ltac:(exists 105, (lit "nfinity"); split; [reflexivity|lia])).
  rewrite (after_none (lit "inf") _ c t eq_refl ltac:(exists 105, (lit "nf"); split; [reflexivity|lia])).
  rewrite (after_none (lit "nan") _ c t eq_refl ltac:(exists 110, (lit "an"); split; [reflexivity|lia])).
  destruct t as [|x t]; [reflexivity|]. inversion F2 as [|? ? X F3]; subst.
  assert (E2 : lower x = x) by (unfold lower; replace (65 <=? x) with false by lia; reflexivity). rewrite E2. replace (x =? 120) with false by lia. rewrite andb_false_r. reflexivity.
Qed.
Lemma unsigned_read t : Forall (fun c => 48 <= c <= 57 \/ c = 45 \/ c = 46) t -> read_unsigned t = match unsigned t with Some x => limited (fst x) | None => Fin 0 0 end.
Proof.
  intros F. rewrite unsigned_text by exact F. unfold read_unsigned, decimal. destruct (mantissa 10 t) as [[[a b] r]|] eqn:M; [|reflexivity].
  destruct (mantissa_inv t a b r M) as (A & Fr & -> & _ & _ & _ & _ & _).
  assert (H : match r with c :: _ => c <> 101 /\ c <> 69 | [] => True end).
  { destruct r as [|c r]; [exact I|]. rewrite Forall_forall in F. specialize (F c). rewrite !in_app_iff in F. cbn [In] in F. specialize (F ltac:(tauto)). lia. }
  destruct (exponent 101 r) as [e r']. unfold incomplete. destruct r as [|c r]; [reflexivity|]. replace ((c =? 101) || (c =? 69)) with false by lia. reflexivity.
Qed.
Lemma read_strtof s : float_text s -> read_float s = Some (limited (fst (strtof s))).
Proof.
  intros [NE F]. destruct s as [|c t]; [contradiction NE; reflexivity|]. inversion F as [|? ? C F2]; subst.
  assert (SK : skip_space (c :: t) = c :: t) by (cbn [skip_space]; replace (isspace c) with false by (unfold isspace; lia); reflexivity).
  unfold read_float, strtof. rewrite SK. cbv zeta. destruct (Z.eqb_spec c 45) as [->|N].
  - rewrite (unsigned_read t F2). destruct (unsigned t) as [[g r]|]; cbn [option_map fst snd]; [rewrite limited_neg; reflexivity|reflexivity].
  - replace (c =? 43) with false by lia. rewrite (unsigned_read (c :: t) F). destruct (unsigned (c :: t)) as [[g r]|]; reflexivity.
Qed.
(** getFloat of an accepted value is in the range; only if it is too large for a float it is infinite. *)
Theorem C94_getFloat R S name smin smax steps lo hi val : declared S name VALRANGE (smin ++ 58 :: smax ++ steps) -> bounds_text smin smax steps -> In 46 (smin ++ 58 :: smax ++ steps) ->
  reads smin lo -> reads smax hi -> no_nul val -> isValidValue R float_range S name val = Ok true ->
  exists f flo fhi, getFloat (Some val) = Some f /\ nearest_finite lo flo /\ nearest_finite hi fhi /\
    match f with
    | Fin _ _ => float_le flo f /\ float_le f fhi
    | Inf s => if s then float_le flo (Fin (- (2 ^ 24 - 1)) 104) else float_le (Fin (2 ^ 24 - 1) 104) fhi
    | NaN => False
    end.
Proof.
  intros D B P Rlo Rhi N V. destruct (C94_range R S name smin smax steps lo hi val D B P Rlo Rhi N) as (b & E & H). rewrite V in E. injection E as <-.
  destruct (proj1 H eq_refl) as (FT & x & Rx & A1 & A2). pose proof (read_strtof val FT) as RS.
  destruct (read_float_spec val x Rx) as (g & Eg & Ng). destruct (read_float_spec smin lo Rlo) as (flo & _ & Nlo). destruct (read_float_spec smax hi Rhi) as (fhi & _ & Nhi).
  apply (at_most_fle lo x flo g Nlo Ng) in A1. apply (at_most_fle x hi g fhi Ng Nhi) in A2.
  pose proof (nearest_finite_finite _ _ Ng) as Fg. apply fle_spec in A1; [|eapply nearest_finite_finite; eassumption|exact Fg]. apply fle_spec in A2; [|exact Fg|eapply nearest_finite_finite; eassumption].
  exists (fst (strtof val)), flo, fhi. split; [|split; [exact Nlo|split; [exact Nhi|]]].
  - unfold getFloat, option_map, floatNumber. cbn [FloatNumModel.value warned]. destruct FT as [NE _]. destruct val as [|c v]; [contradiction NE; reflexivity|].
    rewrite c_str_id by exact N. destruct (strtof (c :: v)) as [f [|r rest]]; reflexivity.
  - rewrite RS in Eg. injection Eg as Eg. destruct (fst (strtof val)) as [m e|[]|]; cbn [limited] in Eg; subst g; [split; assumption|exact A1|exact A2|contradiction].
Qed.
Print Assumptions C94_getFloat.
(** getNum of a value accepted for a range of integers is in the range, unless the value has a leading zero. *)
Theorem C94_getNum R F S name smin smax steps lo hi val : declared S name VALRANGE (smin ++ 58 :: smax ++ steps) ->
  free_of (lit "(:.") smin -> free_of (lit "(,:.") smax -> steps = [] \/ (exists t, steps = 40 :: t /\ free_of (lit ".") t) ->
  Z.of_nat (length (smin ++ 58 :: smax ++ steps)) < 2 ^ 31 ->
  leading_number smin lo -> leading_number smax hi -> - 2 ^ 31 < lo -> hi < 2 ^ 31 - 1 -> lo < 2 ^ 31 - 1 -> - 2 ^ 31 < hi -> no_nul val ->
  (forall sign c t, is_sign sign -> val = sign ++ 48 :: c :: t -> ~ (48 <= c <= 57)) ->
  isValidValue R F S name val = Ok true -> exists z, getNum (Some val) = Some z /\ lo <= z <= hi.
Proof.
  intros D Hm Hx Hs L Nlo Nhi B1 B2 B3 B4 N OCT V. destruct (C48_range R F S name smin smax steps lo hi val D Hm Hx Hs L Nlo Nhi B1 B2 B3 B4 N) as (b & E & H).
  rewrite V in E. injection E as <-. destruct (proj1 H eq_refl) as (NE & Fv & z & Nz & Bz). clear H V.
  assert (GN : getNum (Some val) = Some (strtol val)) by (unfold getNum, option_map, number; destruct val; [contradiction NE; reflexivity|rewrite c_str_id by exact N; reflexivity]).
  exists z. split; [|exact Bz]. rewrite GN. f_equal.
  assert (W0 : forall ws r, val = ws ++ r -> blank ws -> ws = []).
  { intros ws r Ev W. destruct ws as [|c ws]; [reflexivity|]. exfalso. subst val. inversion W as [|? ? Sp _]; subst. inversion Fv as [|? ? Rc _]; subst. unfold isspace in Sp. lia. }
  destruct Nz as [ws sign ds s rest W G DS NE2 R2|ws sign rest W G R2 H].
  - assert (ws = []) by (eapply W0; [reflexivity|exact W]). subst ws. cbn [app] in *.
    assert (SAT : forall y, lo <= y <= hi -> saturate y = y) by (intros y By; unfold saturate; destruct (Z.ltb_spec y (- 2 ^ 63)); [lia|]; destruct (Z.ltb_spec y (2 ^ 63)); lia).
    destruct ds as [|d ds]; [contradiction NE2; reflexivity|]. destruct (Z.eq_dec d 0) as [->|D0].
    + inversion DS as [|? c ? s' [Ld C] DS']; subst. assert (c = 48) by (unfold char_of_digit in C; lia). subst c.
      assert (s' = [] /\ ds = []) as [-> ->].
      { destruct DS' as [|d2 c2 ds s' [L2 C2] DS']; [auto|]. exfalso. apply (OCT sign c2 (s' ++ rest) G eq_refl). unfold char_of_digit in C2. lia. }
      cbn [app] in *. pose proof (strtol_oct [] sign [] [] rest (Forall_nil _) G (Forall2_nil _)) as O. cbn [app] in O. rewrite O.
      * change (positional 8 []) with 0. change (positional 10 [0]) with 0 in *. rewrite Z.mul_0_r in *. reflexivity.
      * destruct rest as [|c t]; [exact I|]. cbn [stops] in *. intros d Ld8 Cd. apply (R2 d); [lia|exact Cd].
      * intros _. destruct rest as [|x [|h t]]; try exact I. intros X. exfalso. rewrite Forall_forall in Fv. specialize (Fv x). rewrite in_app_iff in Fv. cbn [In] in Fv. specialize (Fv ltac:(tauto)). lia.
    + pose proof (strtol_dec [] sign d ds s rest (Forall_nil _) G DS D0 R2) as O. cbn [app] in O. rewrite O. apply SAT, Bz.
  - apply strtol_none; try assumption. intros E. specialize (H E). destruct H as (c & t & -> & A1 & A2 & A3). auto.
Qed.
Print Assumptions C94_getNum.

(** ** Defects *)
Definition checkf (vv val : list Z) : res bool := isValidValue noregex float_range (S1 VALRANGE vv) (lit "k") val.
(** Behind the number anything may follow, and a value without digits is 0. *)
Theorem C94_trailing_refuted :
  checkf (lit "0.5:2.5(0.5)") (lit "1.2.3.4") = Ok true /\ checkf (lit "0.5:2.5(0.5)") (lit "2-7") = Ok true /\ checkf (lit "-1.0:1.0") (lit "-") = Ok true /\
  checkf (lit "-1.0:1.0") (lit ".") = Ok true /\ checkf (lit "-1.0:1.0") (lit "--5") = Ok true.
Proof. repeat split; vm_compute; reflexivity. Qed.
Print Assumptions C94_trailing_refuted.
(** Numbers a little outside are accepted, and the stepping is not looked at. *)
Theorem C94_rounding_refuted :
  checkf (lit "0.5:3.0(0.5)") (lit "3.0000001") = Ok true /\ checkf (lit "0.5:3.0(0.5)") (lit "3.000001") = Ok false /\ checkf (lit "0.5:3.0(0.5)") (lit "0.7") = Ok true.
Proof. repeat split; vm_compute; reflexivity. Qed.
Print Assumptions C94_rounding_refuted.
(** A bound that is missing is an uninitialised variable. *)
Theorem C94_bound_refuted : checkf (lit "0.5:") (lit "1") = UB /\ checkf (lit ":0.5") (lit "0") = UB.
Proof. split; vm_compute; reflexivity. Qed.
Print Assumptions C94_bound_refuted.
(** Values with a leading zero are checked as decimal and read as octal numbers. *)
Theorem C94_octal_refuted : check VALRANGE (lit "10:20") (lit "010") = Ok true /\ getNum (Some (lit "010")) = Some 8 /\ check VALRANGE (lit "10:20") (lit "8") = Ok false.
Proof. repeat split; vm_compute; reflexivity. Qed.
Print Assumptions C94_octal_refuted.

Lemma reads_1_5 : exists x, reads (lit "1.5") x /\ (x == 3 # 2)%Q.
Proof.
  assert (E : reads ([] ++ [] ++ [49] ++ [46; 53] ++ [] ++ []) (decimal_value [] [1] [5] 0)).
  { apply ReadsNumber.
    - constructor.
    - left; reflexivity.
    - constructor; [split; [lia|left; lia]|constructor].
    - constructor. constructor; [split; [lia|left; lia]|constructor].
    - discriminate.
    - constructor.
    - split; [exact I|]. split; [discriminate|]. intros z t r _ E. symmetry in E. apply app_eq_nil in E. apply E.
    - intros _. exact I. }
  eexists. split; [exact E|reflexivity].
Qed.
Example C94_ex :
  checkf (lit "0.5:2.5(0.5)") (lit "1.5") = Ok true /\ checkf (lit "0.5:2.5(0.5)") (lit "2.6") = Ok false /\ checkf (lit "-1.5:1.5") (lit "-1.5") = Ok true /\ checkf (lit "-1.5:1.5") (lit "-1.6") = Ok false /\
  checkf (lit "0:10(0.1)") (lit "3") = Ok true /\ checkf (lit "0:10(0.1)") (lit "1e1") = Ok false /\ checkf (lit "0.0:1e1") (lit "10.0") = Ok true /\
  read_float (lit "1e") = Some (Fin 0 0) /\ read_float (lit " ") = None /\ read_float (lit "1e99") = Some largest.
Proof. vm_compute. repeat split. Qed.
