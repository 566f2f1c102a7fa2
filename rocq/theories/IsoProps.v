(** Properties of isoTime and timestr (C81). *)
From Verif Require Import Base BaseFacts ConfigModel UtilsModel UtilsSpec UtilsProps IsoModel.
Local Open Scope Z_scope.

(** ** Specification: the calendar, day by day *)
Definition divides (k y : Z) : Prop := exists q, y = k * q.
Definition leap_year (y : Z) : Prop := divides 4 y /\ (~ divides 100 y \/ divides 400 y).
Inductive month_len (y : Z) : Z -> Z -> Prop :=
| ml31 m : In m [1; 3; 5; 7; 8; 10; 12] -> month_len y m 31
| ml30 m : In m [4; 6; 9; 11] -> month_len y m 30
| ml29 : leap_year y -> month_len y 2 29
| ml28 : ~ leap_year y -> month_len y 2 28.
Inductive next_date : Z * Z * Z -> Z * Z * Z -> Prop :=
| nd_day y m d len : month_len y m len -> 1 <= d < len -> next_date (y, m, d) (y, m, d + 1)
| nd_month y m len : month_len y m len -> m < 12 -> next_date (y, m, len) (y, m + 1, 1)
| nd_year y : next_date (y, 12, 31) (y + 1, 1, 1).
(** Numbers with leading zeros. *)
Definition two (n : Z) : list Z := [48 + n / 10; 48 + n mod 10].
Definition four (n : Z) : list Z := two (n / 100) ++ two (n mod 100).
(** Order of texts. *)
Definition sorted_before (a b : list Z) : Prop := exists p c d x y, a = p ++ c :: x /\ b = p ++ d :: y /\ c < d.

(** ** Calendar lemmas *)
Lemma divides_mod k y : 0 < k -> divides k y <-> y mod k = 0.
Proof. intros K. unfold divides. split; [intros (q & ->); rewrite Z.mul_comm; apply Z_mod_mult|intros H; exists (y / k); pose proof (Z.div_mod y k); lia]. Qed.
Lemma leap_iff y : leap y = true <-> leap_year y.
Proof. unfold leap, leap_year. rewrite !divides_mod by lia. lia. Qed.
Lemma before_next y : days_before (y + 1) = days_before y + (if leap y then 366 else 365).
Proof.
  unfold days_before, leap. replace (y + 1 - 1) with y by lia.
  destruct (Z.eqb_spec (y mod 4) 0); destruct (Z.eqb_spec (y mod 100) 0); destruct (Z.eqb_spec (y mod 400) 0); cbn [negb andb orb]; lia.
Qed.
Lemma before_mono y y' : y < y' -> days_before (y + 1) <= days_before y'.
Proof.
  intros H. assert (G : forall k : nat, days_before (y + 1) <= days_before (y + 1 + Z.of_nat k)).
  { induction k as [|k IH]; [rewrite Z.add_0_r; lia|]. replace (y + 1 + Z.of_nat (S k)) with (y + 1 + Z.of_nat k + 1) by lia.
    rewrite (before_next (y + 1 + Z.of_nat k)). destruct (leap _); lia. }
  specialize (G (Z.to_nat (y' - (y + 1)))). replace (y + 1 + Z.of_nat (Z.to_nat (y' - (y + 1)))) with y' in G by lia. exact G.
Qed.
Lemma before_bounds y : 400 * days_before y <= 146097 * (y - 1970) + 600 /\ 146097 * (y - 1970) - 600 <= 400 * days_before y.
Proof. unfold days_before. lia. Qed.
Lemma year_spec day : days_before (year_of day) <= day < days_before (year_of day + 1).
Proof.
  unfold year_of. set (y := 1970 + 400 * day / 146097).
  assert (B : 146097 * (y - 1970) <= 400 * day < 146097 * (y - 1970) + 146097) by (subst y; lia). clearbody y.
  pose proof (before_bounds (y - 1)). pose proof (before_bounds (y + 1 + 1)).
  pose proof (before_next y). pose proof (before_next (y + 1)). pose proof (before_next (y - 1)) as P. replace (y - 1 + 1) with y in P by lia.
  destruct (Z.ltb_spec day (days_before y)).
  - replace (y - 1 + 1) with y by lia. lia.
  - destruct (Z.leb_spec (days_before (y + 1)) day); lia.
Qed.
Lemma year_unique day y : days_before y <= day < days_before (y + 1) -> year_of day = y.
Proof.
  intros H. pose proof (year_spec day) as Y. destruct (Z.lt_trichotomy (year_of day) y) as [L|[E|L]]; auto.
  - pose proof (before_mono _ _ L). lia.
  - pose proof (before_mono _ _ L). lia.
Qed.
Lemma month_next l : forall m yd, Forall (fun len => 0 < len) l -> 0 <= yd -> yd + 1 < fold_right Z.add 0 l ->
  exists len, nth_error l (Z.to_nat (fst (month_of l m yd) - m)) = Some len /\ m <= fst (month_of l m yd) < m + Z.of_nat (length l) /\
   ((snd (month_of l m yd) < len /\ 1 <= snd (month_of l m yd) /\ month_of l m (yd + 1) = (fst (month_of l m yd), snd (month_of l m yd) + 1)) \/
    (snd (month_of l m yd) = len /\ fst (month_of l m yd) + 1 < m + Z.of_nat (length l) /\ month_of l m (yd + 1) = (fst (month_of l m yd) + 1, 1))).
Proof.
  induction l as [|len l IH]; intros m yd F P T; cbn [fold_right] in T; [lia|]. inversion F as [|? ? F1 F2]. subst. cbn [month_of length].
  destruct (Z.ltb_spec yd len) as [L|L].
  - cbn [fst snd]. rewrite Z.sub_diag. exists len. split; [reflexivity|]. split; [lia|]. destruct (Z.ltb_spec (yd + 1) len) as [L2|L2].
    + left. repeat split; lia.
    + right. replace (yd + 1 - len) with 0 by lia. destruct l as [|len2 l]; [cbn [fold_right] in T; lia|]. inversion F2. subst. cbn [month_of length].
      destruct (Z.ltb_spec 0 len2); [|lia]. repeat split; lia.
  - destruct (Z.ltb_spec (yd + 1) len); [lia|]. replace (yd + 1 - len) with (yd - len + 1) by lia.
    destruct (IH (m + 1) (yd - len) F2 ltac:(lia) ltac:(lia)) as (x & N & B & C). exists x.
    replace (Z.to_nat (fst (month_of l (m + 1) (yd - len)) - m)) with (S (Z.to_nat (fst (month_of l (m + 1) (yd - len)) - (m + 1)))) by lia.
    cbn [nth_error]. split; [exact N|]. split; [lia|]. destruct C as [C|C]; [left; exact C|right]. destruct C as (C1 & C2 & C3). repeat split; auto. lia.
Qed.
Lemma months_sum y : fold_right Z.add 0 (months y) = if leap y then 366 else 365.
Proof. unfold months. cbn [fold_right]. destruct (leap y); reflexivity. Qed.
Lemma months_len y m len : 1 <= m <= 12 -> nth_error (months y) (Z.to_nat (m - 1)) = Some len -> month_len y m len.
Proof.
  intros M H. assert (C : m = 1 \/ m = 2 \/ m = 3 \/ m = 4 \/ m = 5 \/ m = 6 \/ m = 7 \/ m = 8 \/ m = 9 \/ m = 10 \/ m = 11 \/ m = 12) by lia.
  pose proof (leap_iff y) as LY. unfold months in H.
  repeat (destruct C as [->|C]; [cbn in H; injection H as <-; first [apply ml31; cbn; tauto|apply ml30; cbn; tauto|destruct (leap y); constructor; intuition congruence]|]).
  subst m. cbn in H. injection H as <-. apply ml31. cbn. tauto.
Qed.
Lemma months_pos y : Forall (fun len => 0 < len) (months y).
Proof. unfold months. repeat constructor. destruct (leap y); lia. Qed.
Lemma sum_nonneg l : Forall (fun len => 0 < len) l -> 0 <= fold_right Z.add 0 l.
Proof. induction 1; cbn [fold_right]; lia. Qed.
Lemma last_month l : forall m yd, Forall (fun len => 0 < len) l -> l <> [] -> yd + 1 = fold_right Z.add 0 l ->
  month_of l m yd = (m + Z.of_nat (length l) - 1, last l 0).
Proof.
  induction l as [|len l IH]; intros m yd F N E; [congruence|]. inversion F as [|? ? F1 F2]. subst. cbn [month_of fold_right] in *.
  destruct l as [|len2 l].
  - cbn [fold_right] in E. destruct (Z.ltb_spec yd len); [|lia]. cbn [length last]. f_equal; lia.
  - inversion F2 as [|? ? F3 F4]. subst. pose proof (sum_nonneg l F4). cbn [fold_right] in E. destruct (Z.ltb_spec yd len); [lia|].
    rewrite IH; [|auto|discriminate|cbn [fold_right]; lia]. change (last (len :: len2 :: l) 0) with (last (len2 :: l) 0). f_equal. cbn [length]. lia.
Qed.
Lemma month_range l : forall m yd, Forall (fun len => 0 < len) l -> 0 <= yd < fold_right Z.add 0 l ->
  m <= fst (month_of l m yd) < m + Z.of_nat (length l) /\
  exists len, nth_error l (Z.to_nat (fst (month_of l m yd) - m)) = Some len /\ 1 <= snd (month_of l m yd) <= len.
Proof.
  induction l as [|len l IH]; intros m yd F P; cbn [fold_right] in P; [lia|]. inversion F as [|? ? F1 F2]. subst. cbn [month_of length].
  destruct (Z.ltb_spec yd len) as [L|L].
  - cbn [fst snd]. rewrite Z.sub_diag. split; [lia|]. exists len. split; [reflexivity|lia].
  - destruct (IH (m + 1) (yd - len) F2 ltac:(lia)) as (B & x & N & C). split; [lia|]. exists x. split; [|exact C].
    replace (Z.to_nat (fst (month_of l (m + 1) (yd - len)) - m)) with (S (Z.to_nat (fst (month_of l (m + 1) (yd - len)) - (m + 1)))) by lia. exact N.
Qed.
Lemma month_mono l : forall m yd yd', Forall (fun len => 0 < len) l -> 0 <= yd < yd' -> yd' < fold_right Z.add 0 l ->
  fst (month_of l m yd) < fst (month_of l m yd') \/ (fst (month_of l m yd) = fst (month_of l m yd') /\ snd (month_of l m yd) < snd (month_of l m yd')).
Proof.
  induction l as [|len l IH]; intros m yd yd' F P T; cbn [fold_right] in T; [lia|]. inversion F as [|? ? F1 F2]. subst. cbn [month_of].
  destruct (Z.ltb_spec yd len) as [L|L]; destruct (Z.ltb_spec yd' len) as [L'|L']; cbn [fst snd]; [lia| |lia|].
  - destruct (month_range l (m + 1) (yd' - len) F2 ltac:(lia)). lia.
  - apply IH; auto; lia.
Qed.
Lemma date_eq day : date_of day = (year_of day, fst (month_of (months (year_of day)) 1 (day - days_before (year_of day))), snd (month_of (months (year_of day)) 1 (day - days_before (year_of day)))).
Proof. unfold date_of. destruct (month_of (months (year_of day)) 1 (day - days_before (year_of day))). reflexivity. Qed.

(** ** C81 *)
(** The calendar: 1970-01-01 is day 0 and each day is followed by the next date. *)
Theorem C81_calendar : date_of 0 = (1970, 1, 1) /\ forall day, next_date (date_of day) (date_of (day + 1)).
Proof.
  split; [vm_compute; reflexivity|]. intros day. pose proof (year_spec day) as Y. pose proof (before_next (year_of day)) as N.
  set (y := year_of day) in *. rewrite <- months_sum in N.
  destruct (Z.lt_ge_cases (day + 1) (days_before (y + 1))) as [L|L].
  - assert (Y2 : year_of (day + 1) = y) by (apply year_unique; lia). rewrite !date_eq. rewrite Y2. fold y.
    replace (day + 1 - days_before y) with (day - days_before y + 1) by lia.
    destruct (month_next (months y) 1 (day - days_before y) (months_pos y) ltac:(lia) ltac:(lia)) as (len & NE & B & C). cbn [length months] in B, C.
    apply months_len in NE; [|lia].
    destruct C as [(C1 & C2 & C3)|(C1 & C2 & C3)]; rewrite C3; cbn [fst snd].
    + eapply nd_day; eauto.
    + rewrite <- C1 in NE. apply nd_month with (1 := NE). lia.
  - assert (Y2 : year_of (day + 1) = y + 1).
    { apply year_unique. rewrite (before_next (y + 1)). destruct (leap (y + 1)); lia. }
    rewrite !date_eq. rewrite Y2. fold y.
    rewrite (last_month (months y) 1 (day - days_before y) (months_pos y) ltac:(discriminate) ltac:(lia)).
    replace (day + 1 - days_before (y + 1)) with 0 by lia. cbn [length months last fst snd month_of].
    change (0 <? 31) with true. cbn iota. cbn [fst snd]. exact (nd_year y).
Qed.
Print Assumptions C81_calendar.

Lemma dec2 n : 0 <= n < 100 -> dec_digits 20 n = if n <? 10 then [48 + n] else two n.
Proof.
  intros H. cbn [dec_digits]. destruct (Z.ltb_spec n 10); cbn [app].
  - f_equal. lia.
  - destruct (Z.ltb_spec (n / 10) 10); [|lia]. cbn [app]. unfold two. f_equal. lia.
Qed.
Lemma pad2 n : 0 <= n < 100 -> pad0 2 n = two n.
Proof.
  intros H. unfold pad0. destruct (Z.ltb_spec n 0); [lia|]. rewrite Z.abs_eq by lia. rewrite dec2 by auto.
  destruct (Z.ltb_spec n 10); cbn [app length Nat.sub repeat]; [|reflexivity]. unfold two. f_equal; [lia|f_equal; lia].
Qed.
Lemma pad1 n : 0 <= n < 10 -> pad0 1 n = [48 + n].
Proof.
  intros H. unfold pad0. destruct (Z.ltb_spec n 0); [lia|]. rewrite Z.abs_eq by lia. rewrite dec2 by lia.
  destruct (Z.ltb_spec n 10); [reflexivity|lia].
Qed.
Lemma dec_more fuel n : dec_digits (S fuel) n = (if n <? 10 then [] else dec_digits fuel (n / 10)) ++ [48 + n mod 10].
Proof. reflexivity. Qed.
Lemma pad4 n : 0 <= n < 10000 -> pad0 4 n = four n.
Proof.
  intros H. unfold pad0. destruct (Z.ltb_spec n 0); [lia|]. rewrite Z.abs_eq by lia. unfold four, two.
  rewrite dec_more. destruct (Z.ltb_spec n 10).
  { cbn [app length Nat.sub repeat]. repeat (f_equal; [lia|]). f_equal. lia. }
  rewrite dec_more. destruct (Z.ltb_spec (n / 10) 10).
  { cbn [app length Nat.sub repeat]. repeat (f_equal; [lia|]). f_equal. lia. }
  rewrite dec_more. destruct (Z.ltb_spec (n / 10 / 10) 10).
  { cbn [app length Nat.sub repeat]. repeat (f_equal; [lia|]). f_equal. lia. }
  rewrite dec_more. destruct (Z.ltb_spec (n / 10 / 10 / 10) 10); [|lia].
  cbn [app length Nat.sub repeat]. repeat (f_equal; [lia|]). f_equal. lia.
Qed.
Lemma dec_chars fuel : forall n, 0 <= n -> Forall (fun c => 48 <= c <= 57) (dec_digits fuel n) /\ (length (dec_digits fuel n) <= fuel)%nat.
Proof.
  induction fuel as [|fuel IH]; intros n H; [split; [constructor|cbn; lia]|]. rewrite dec_more. rewrite app_length. cbn [length].
  destruct (IH (n / 10) ltac:(lia)) as [F L]. split.
  - apply Forall_app. split; [|constructor; [lia|constructor]]. destruct (n <? 10); [constructor|exact F].
  - destruct (n <? 10); cbn [length]; lia.
Qed.
Lemma pad0_chars k v : (k <= 20)%nat -> Forall (fun c => 45 <= c <= 57) (pad0 k v) /\ (length (pad0 k v) <= 21)%nat.
Proof.
  intros K. unfold pad0. destruct (dec_chars 20 (Z.abs v) (Z.abs_nonneg v)) as [F L]. split.
  - apply Forall_app. split; [destruct (v <? 0); repeat constructor; lia|]. apply Forall_app. split.
    + apply Forall_forall. intros x X. apply repeat_spec in X. lia.
    + eapply Forall_impl; [|exact F]. cbn beta. lia.
  - rewrite !app_length, repeat_length. destruct (v <? 0); cbn [length]; lia.
Qed.
Definition date_text (y m d h mi s : Z) : list Z :=
  pad0 4 y ++ lit "-" ++ two m ++ lit "-" ++ two d ++ lit "T" ++ two h ++ lit ":" ++ two mi ++ lit ":" ++ two s.
Lemma two_pos n : 0 <= n < 100 -> Forall (fun c => c <> 0) (two n).
Proof. intros H. unfold two. repeat constructor; lia. Qed.
Lemma no_nul_forall l : Forall (fun c => c <> 0) l -> no_nul l.
Proof. intros F I. rewrite Forall_forall in F. exact (F 0 I eq_refl). Qed.
Lemma date_facts day : exists y m d, date_of day = (y, m, d) /\ y = year_of day /\ 1 <= m <= 12 /\ 1 <= d <= 31 /\ (exists len, month_len y m len /\ d <= len).
Proof.
  rewrite date_eq. pose proof (year_spec day) as Y. rewrite before_next, <- months_sum in Y. set (y := year_of day) in *.
  destruct (month_range (months y) 1 (day - days_before y) (months_pos y) ltac:(lia)) as (B & len & N & C). cbn [length months] in B.
  eexists _, _, _. split; [reflexivity|]. split; [reflexivity|]. apply months_len in N; [|lia]. split; [lia|]. split; [|exists len; split; [exact N|lia]].
  inversion N; lia.
Qed.
(** The fields of a time. *)
Record fields_of (t y m d h mi s : Z) : Prop := {
  f_date : date_of (t / 86400) = (y, m, d);
  f_time : t mod 86400 = h * 3600 + mi * 60 + s;
  f_ranges : 0 <= h < 24 /\ 0 <= mi < 60 /\ 0 <= s < 60 }.
Lemma text_ok y m d h mi s tail : 1 <= m <= 12 -> 1 <= d <= 31 -> 0 <= h < 24 -> 0 <= mi < 60 -> 0 <= s < 60 -> Forall (fun c => c <> 0) tail -> (length tail <= 10)%nat ->
  no_nul (date_text y m d h mi s ++ tail) /\ (length (date_text y m d h mi s ++ tail) <= 60)%nat.
Proof.
  intros M D H MI S T LT. destruct (pad0_chars 4 y ltac:(lia)) as [F L]. split.
  - apply no_nul_forall. unfold date_text. rewrite <- !app_assoc. apply Forall_app. split; [eapply Forall_impl; [|exact F]; cbn beta; lia|].
    repeat (apply Forall_app; split; [first [apply two_pos; lia|repeat constructor; discriminate]|]). exact T.
  - unfold date_text. rewrite !app_length. change (length (lit "-")) with 1%nat. change (length (lit ":")) with 1%nat. change (length (lit "T")) with 1%nat. unfold two. cbn [length]. lia.
Qed.
Lemma gm_eq t y m d h mi s : fields_of t y m d h mi s ->
  gmtime_r t = if fits32 (y - 1900) then Some (Tm (y - 1900) (m - 1) d h mi s) else None.
Proof.
  intros [D T (H & MI & S)]. unfold gmtime_r. rewrite D. destruct (fits32 (y - 1900)); [|reflexivity]. f_equal.
  f_equal; rewrite T; lia.
Qed.
Lemma fields_exist t : exists y m d h mi s, fields_of t y m d h mi s.
Proof.
  destruct (date_facts (t / 86400)) as (y & m & d & E & _). exists y, m, d, (t mod 86400 / 3600), (t mod 86400 / 60 mod 60), (t mod 86400 mod 60).
  constructor; [exact E|lia|lia].
Qed.
Lemma fields_range t y m d h mi s : fields_of t y m d h mi s -> 1 <= m <= 12 /\ 1 <= d <= 31 /\ y = year_of (t / 86400).
Proof. intros [D _ _]. destruct (date_facts (t / 86400)) as (y' & m' & d' & E & Y & M & DD & _). rewrite D in E. injection E as -> -> ->. auto. Qed.
Lemma iso_text off t (isLocal : bool) y m d h mi s : fields_of (if isLocal then t + off t else t) y m d h mi s ->
  isoTime off t isLocal = if fits32 (y - 1900) && fits32 y then Ok (date_text y m d h mi s ++ (if isLocal then [] else lit "Z")) else UB.
Proof.
  intros F. unfold isoTime, localtime_r.
  assert (E : (if isLocal then gmtime_r (t + off t) else gmtime_r t) = if fits32 (y - 1900) then Some (Tm (y - 1900) (m - 1) d h mi s) else None).
  { destruct isLocal; apply gm_eq; exact F. }
  rewrite E. destruct (fits32 (y - 1900)) eqn:FY; [|reflexivity]. cbn [tm_year tm_mon tm_mday tm_hour tm_min tm_sec andb].
  replace (y - 1900 + 1900) with y by lia. replace (m - 1 + 1) with m by lia. destruct (fields_range _ _ _ _ _ _ _ F) as (M & D & Y).
  destruct F as [_ _ (H & MI & S)].
  unfold int_ at 1. destruct (fits32 y) eqn:FY2; [|reflexivity]. cbn [bind]. unfold int_. replace (fits32 m) with true by (unfold fits32; lia). cbn [bind].
  rewrite !pad2 by lia. f_equal.
  pose proof (text_ok y m d h mi s (if Bool.eqb isLocal false then lit "Z" else []) M D H MI S) as X.
  destruct X as [X1 X2]; [destruct isLocal; repeat constructor; discriminate|destruct isLocal; cbn; lia|].
  replace (pad0 4 y ++ lit "-" ++ two m ++ lit "-" ++ two d ++ lit "T" ++ two h ++ lit ":" ++ two mi ++ lit ":" ++ two s ++ (if Bool.eqb isLocal false then lit "Z" else []))
    with (date_text y m d h mi s ++ (if Bool.eqb isLocal false then lit "Z" else [])) by (unfold date_text; rewrite <- !app_assoc; reflexivity).
  rewrite buf_text by exact X1. rewrite firstn_all2 by lia. destruct isLocal; reflexivity.
Qed.
(** For the years 0 to 9999 isoTime prints the date and time of day in 20 characters, for local time in 19. *)
Theorem C81_iso : forall off t (isLocal : bool) y m d h mi s, fields_of (if isLocal then t + off t else t) y m d h mi s -> 0 <= y <= 9999 ->
  isoTime off t isLocal =
  Ok (four y ++ lit "-" ++ two m ++ lit "-" ++ two d ++ lit "T" ++ two h ++ lit ":" ++ two mi ++ lit ":" ++ two s ++ (if isLocal then [] else lit "Z")).
Proof.
  intros off t isLocal y m d h mi s F Y. rewrite (iso_text _ _ _ _ _ _ _ _ _ F). replace (fits32 (y - 1900) && fits32 y) with true by (unfold fits32; lia).
  unfold date_text. rewrite pad4 by lia. rewrite <- !app_assoc. reflexivity.
Qed.
Print Assumptions C81_iso.
(** Every time has such fields, and only one choice of them. *)
Theorem C81_fields : forall t, exists y m d h mi s, fields_of t y m d h mi s /\ (exists len, month_len y m len /\ 1 <= d <= len) /\ 1 <= m <= 12.
Proof.
  intros t. destruct (fields_exist t) as (y & m & d & h & mi & s & F). exists y, m, d, h, mi, s. split; [exact F|].
  destruct F as [D _ _]. destruct (date_facts (t / 86400)) as (y' & m' & d' & E & Y & M & DD & len & ML & DL). rewrite D in E. injection E as -> -> ->.
  split; [exists len; split; [exact ML|lia]|exact M].
Qed.
Print Assumptions C81_fields.
(** Undefined exactly if the year is beyond an int or less than 1900 above its lower end. *)
Theorem C81_undefined : forall off t isLocal,
  isoTime off t isLocal = UB <-> (year_of ((if isLocal then t + off t else t) / 86400) < - 2 ^ 31 + 1900 \/ 2 ^ 31 <= year_of ((if isLocal then t + off t else t) / 86400)).
Proof.
  intros off t isLocal. destruct (fields_exist (if isLocal then t + off t else t)) as (y & m & d & h & mi & s & F).
  rewrite (iso_text _ _ _ _ _ _ _ _ _ F). destruct (fields_range _ _ _ _ _ _ _ F) as (_ & _ & <-).
  destruct (fits32 (y - 1900) && fits32 y) eqn:X; unfold fits32 in X; split; intros H; try discriminate; try reflexivity; lia.
Qed.
Print Assumptions C81_undefined.

(** *** Order *)
Lemma sb_head p a b : sorted_before a b -> sorted_before (p ++ a) (p ++ b).
Proof. intros (q & c & d & x & y & -> & -> & L). exists (p ++ q), c, d, x, y. rewrite <- !app_assoc. auto. Qed.
Lemma sb_two n m x y : 0 <= n < m -> m < 100 -> sorted_before (two n ++ x) (two m ++ y).
Proof.
  intros H L. unfold two. cbn [app]. destruct (Z.eq_dec (n / 10) (m / 10)) as [E|E].
  - rewrite E. exists [48 + m / 10]. cbn [app]. do 4 eexists. repeat split. lia.
  - exists []. cbn [app]. do 4 eexists. repeat split. lia.
Qed.
Lemma sb_four n m x y : 0 <= n < m -> m < 10000 -> sorted_before (four n ++ x) (four m ++ y).
Proof.
  intros H L. unfold four. rewrite <- !app_assoc. destruct (Z.eq_dec (n / 100) (m / 100)) as [E|E].
  - rewrite E. apply sb_head, sb_two; lia.
  - apply sb_two; lia.
Qed.
Lemma sb_lit a n m : sorted_before n m -> sorted_before (lit a ++ n) (lit a ++ m).
Proof. apply sb_head. Qed.
Lemma date_inv day y m d : date_of day = (y, m, d) -> y = year_of day /\
  m = fst (month_of (months (year_of day)) 1 (day - days_before (year_of day))) /\ d = snd (month_of (months (year_of day)) 1 (day - days_before (year_of day))).
Proof.
  rewrite date_eq. generalize (fst (month_of (months (year_of day)) 1 (day - days_before (year_of day)))) (snd (month_of (months (year_of day)) 1 (day - days_before (year_of day)))).
  intros a b E. injection E as -> -> ->. auto.
Qed.
Lemma date_mono day day' y m d y' m' d' : date_of day = (y, m, d) -> date_of day' = (y', m', d') -> day < day' ->
  y < y' \/ (y = y' /\ (m < m' \/ (m = m' /\ d < d'))).
Proof.
  intros E E' L. apply date_inv in E, E'. destruct E as (-> & -> & ->). destruct E' as (-> & -> & ->).
  pose proof (year_spec day) as Y. pose proof (year_spec day') as Y'. destruct (Z.lt_trichotomy (year_of day) (year_of day')) as [X|[X|X]]; [auto| |].
  - right. split; [exact X|]. rewrite <- X in *. rewrite before_next, <- months_sum in Y'. apply month_mono; [apply months_pos|lia|lia].
  - pose proof (before_mono _ _ X). lia.
Qed.
(** Texts of the years 0 to 9999 sort like the times. *)
Theorem C81_order : forall off t t' a b, t < t' ->
  0 <= year_of (t / 86400) -> year_of (t' / 86400) <= 9999 ->
  isoTime off t false = Ok a -> isoTime off t' false = Ok b -> sorted_before a b.
Proof.
  intros off t t' a b L Y Y' A B.
  destruct (fields_exist t) as (y & m & d & h & mi & s & F). destruct (fields_exist t') as (y' & m' & d' & h' & mi' & s' & F').
  destruct (fields_range _ _ _ _ _ _ _ F) as (M & D & EY). destruct (fields_range _ _ _ _ _ _ _ F') as (M' & D' & EY').
  assert (YY : y <= y').
  { destruct (Z.eq_dec (t / 86400) (t' / 86400)) as [E|E]; [rewrite EY, EY', E; lia|]. destruct F as [FD _ _]. destruct F' as [FD' _ _].
    pose proof (date_mono _ _ _ _ _ _ _ _ FD FD' ltac:(lia)). lia. }
  rewrite (C81_iso off t false _ _ _ _ _ _ F) in A by lia. rewrite (C81_iso off t' false _ _ _ _ _ _ F') in B by lia.
  apply Ok_inj in A, B. subst a b. destruct F as [FD FT (R1 & R2 & R3)]. destruct F' as [FD' FT' (R1' & R2' & R3')].
  assert (C : y < y' \/ (y = y' /\ (m < m' \/ (m = m' /\ (d < d' \/ (d = d' /\ (h < h' \/ (h = h' /\ (mi < mi' \/ (mi = mi' /\ s < s')))))))))).
  { destruct (Z.eq_dec (t / 86400) (t' / 86400)) as [E|E].
    - rewrite E, FD' in FD. injection FD as -> -> ->. assert (t mod 86400 < t' mod 86400) by lia. lia.
    - pose proof (date_mono _ _ _ _ _ _ _ _ FD FD' ltac:(lia)). lia. }
  destruct C as [C|(<- & C)]; [apply sb_four; lia|]. apply sb_head, sb_lit.
  destruct C as [C|(<- & C)]; [apply sb_two; lia|]. apply sb_head, sb_lit.
  destruct C as [C|(<- & C)]; [apply sb_two; lia|]. apply sb_head, sb_lit.
  destruct C as [C|(<- & C)]; [apply sb_two; lia|]. apply sb_head, sb_lit.
  destruct C as [C|(<- & C)]; [apply sb_two; lia|]. apply sb_head, sb_lit. apply sb_two; lia.
Qed.
Print Assumptions C81_order.
(** *** The text determines the time, whatever the year *)
Definition val (l : list Z) (a : Z) : Z := fold_left (fun a c => 10 * a + (c - 48)) l a.
Lemma val_dec fuel : forall n, 0 <= n < 10 ^ Z.of_nat fuel -> (0 < fuel)%nat -> val (dec_digits fuel n) 0 = n.
Proof.
  induction fuel as [|fuel IH]; intros n R P; [lia|]. rewrite dec_more. unfold val in *. rewrite fold_left_app. cbn [fold_left].
  destruct (Z.ltb_spec n 10); [cbn [fold_left]; lia|]. destruct fuel as [|fuel]; [change (10 ^ Z.of_nat 1) with 10 in R; lia|].
  rewrite IH; [lia| |lia]. rewrite Nat2Z.inj_succ, Z.pow_succ_r in R by lia. lia.
Qed.
Lemma val_zeros k l : val (repeat 48 k ++ l) 0 = val l 0.
Proof. induction k as [|k IH]; [reflexivity|]. cbn [repeat app]. unfold val in *. cbn [fold_left]. exact IH. Qed.
Lemma dec_head n : 0 <= n -> forall j, exists c l, repeat 48 j ++ dec_digits 20 n = c :: l /\ 48 <= c.
Proof.
  intros H [|j]; [|exists 48, (repeat 48 j ++ dec_digits 20 n); split; [reflexivity|lia]].
  destruct (dec_chars 20 n H) as [F _]. rewrite (dec_more 19 n) in *. cbn [repeat app].
  destruct (if n <? 10 then [] else dec_digits 19 (n / 10)) as [|c l]; cbn [app] in *; inversion F; eexists _, _; (split; [reflexivity|lia]).
Qed.
Lemma val_20 n : 0 <= n < 2 ^ 32 -> val (dec_digits 20 n) 0 = n.
Proof. intros H. apply val_dec; [|lia]. replace (10 ^ Z.of_nat 20) with 100000000000000000000 by reflexivity. lia. Qed.
Lemma pad0_inj k v v' : - 2 ^ 32 < v < 2 ^ 32 -> - 2 ^ 32 < v' < 2 ^ 32 -> pad0 k v = pad0 k v' -> v = v'.
Proof.
  intros R R' E. unfold pad0 in E.
  pose proof (val_20 (Z.abs v) ltac:(lia)) as V. pose proof (val_20 (Z.abs v') ltac:(lia)) as V'.
  pose proof (dec_head (Z.abs v) ltac:(lia)) as HD. pose proof (dec_head (Z.abs v') ltac:(lia)) as HD'.
  revert E V V' HD HD'. generalize (dec_digits 20 (Z.abs v)) (dec_digits 20 (Z.abs v')). intros d d' E V V' HD HD'.
  destruct (Z.ltb_spec v 0); destruct (Z.ltb_spec v' 0); cbn [app] in E.
  - injection E as E. apply (f_equal (fun l => val l 0)) in E. rewrite !val_zeros, V, V' in E. lia.
  - destruct (HD' (k - length d')%nat) as (c & l & X & L). rewrite X in E. injection E as E _. lia.
  - destruct (HD (k - length d)%nat) as (c & l & X & L). rewrite X in E. injection E as E _. lia.
  - apply (f_equal (fun l => val l 0)) in E. rewrite !val_zeros, V, V' in E. lia.
Qed.
Lemma app_inj_len {A} (a b c d : list A) : length b = length d -> a ++ b = c ++ d -> a = c /\ b = d.
Proof.
  intros L E. assert (length a = length c) by (apply (f_equal (@length A)) in E; rewrite !app_length in E; lia).
  revert c E H. induction a as [|x a IH]; intros [|y c] E H; try discriminate H; [auto|]. cbn [app] in E. injection E as -> E. destruct (IH c E ltac:(cbn in H; lia)). split; congruence.
Qed.
Lemma two_inj n n' x x' : 0 <= n < 100 -> 0 <= n' < 100 -> two n ++ x = two n' ++ x' -> n = n' /\ x = x'.
Proof. intros H H' E. unfold two in E. cbn [app] in E.
  pose proof (f_equal (fun l => nth 0 l 0) E) as E1. pose proof (f_equal (fun l => nth 1 l 0) E) as E2. cbn [nth] in E1, E2.
  split; [lia|]. exact (f_equal (skipn 2) E).
Qed.
Theorem C81_injective : forall off t t' a, isoTime off t false = Ok a -> isoTime off t' false = Ok a -> t = t'.
Proof.
  intros off t t' a A B.
  destruct (fields_exist t) as (y & m & d & h & mi & s & F). destruct (fields_exist t') as (y' & m' & d' & h' & mi' & s' & F').
  destruct (fields_range _ _ _ _ _ _ _ F) as (M & D & EY). destruct (fields_range _ _ _ _ _ _ _ F') as (M' & D' & EY').
  rewrite (iso_text _ _ false _ _ _ _ _ _ F) in A. rewrite (iso_text _ _ false _ _ _ _ _ _ F') in B.
  destruct (fits32 (y - 1900) && fits32 y) eqn:X; [|discriminate]. destruct (fits32 (y' - 1900) && fits32 y') eqn:X'; [|discriminate].
  apply Ok_inj in A, B. subst a. unfold date_text in B. rewrite <- !app_assoc in B. apply app_inj_len in B; [|reflexivity]. destruct B as [BY B].
  apply pad0_inj in BY; [|unfold fits32 in *; lia|unfold fits32 in *; lia].
  destruct F as [FD FT (R1 & R2 & R3)]. destruct F' as [FD' FT' (R1' & R2' & R3')].
  assert (EE : m' = m /\ d' = d /\ h' = h /\ mi' = mi /\ s' = s).
  { apply app_inv_head in B. apply two_inj in B; [|lia|lia]. destruct B as [B1 B]. apply app_inv_head in B. apply two_inj in B; [|lia|lia]. destruct B as [B2 B].
    apply app_inv_head in B. apply two_inj in B; [|lia|lia]. destruct B as [B3 B]. apply app_inv_head in B. apply two_inj in B; [|lia|lia]. destruct B as [B4 B].
    apply app_inv_head in B. apply two_inj in B; [|lia|lia]. tauto. }
  destruct EE as (-> & -> & -> & -> & ->). clear B.
  subst. assert (E : t / 86400 = t' / 86400).
  { destruct (Z.lt_trichotomy (t / 86400) (t' / 86400)) as [L|[E|L]]; auto; exfalso.
    - pose proof (date_mono _ _ _ _ _ _ _ _ FD FD' L). lia.
    - pose proof (date_mono _ _ _ _ _ _ _ _ FD' FD L). lia. }
  pose proof (Z.div_mod t 86400). pose proof (Z.div_mod t' 86400). lia.
Qed.
Print Assumptions C81_injective.
(** Local time has the text of the shifted clock, without zone.  Defect: two times have the same text whenever the clock was put back. *)
Theorem C81_local : forall off t, isoTime off t true = match isoTime off (t + off t) false with Ok a => Ok (removelast a) | x => x end.
Proof.
  intros off t. destruct (fields_exist (t + off t)) as (y & m & d & h & mi & s & F). rewrite (iso_text off t true _ _ _ _ _ _ F), (iso_text off (t + off t) false _ _ _ _ _ _ F).
  destruct (fits32 (y - 1900) && fits32 y); [|reflexivity]. change (lit "Z") with [90]. rewrite removelast_last, app_nil_r. reflexivity.
Qed.
Print Assumptions C81_local.
Theorem C81_local_refuted : forall off t t', t + off t = t' + off t' -> isoTime off t true = isoTime off t' true.
Proof. intros off t t' E. rewrite !C81_local, E. reflexivity. Qed.
Print Assumptions C81_local_refuted.

(** *** timestr *)
(** timestr is the end of the text of the local time with tenths, at most fieldwidth characters. *)
Theorem C81_timestr : forall off sec usec fw (addDate : bool) y m d h mi s, fields_of (sec + off sec) y m d h mi s -> 0 <= y <= 9999 -> 0 <= usec < 1000000 -> 0 <= fw ->
  exists whole result, timestr off sec usec fw addDate = Ok result /\
    whole = lit " " ++ (if addDate then four y ++ lit "-" ++ two m ++ lit "-" ++ two d ++ lit "T" else []) ++
            two h ++ lit ":" ++ two mi ++ lit ":" ++ two s ++ lit "." ++ [48 + usec / 100000] /\
    Z.of_nat (length result) = Z.min fw (if addDate then 22 else 11) /\ exists dropped, whole = dropped ++ result.
Proof.
  intros off sec usec fw addDate y m d h mi s F Y U W. unfold timestr, localtime_r. rewrite (gm_eq _ _ _ _ _ _ _ F).
  replace (fits32 (y - 1900)) with true by (unfold fits32; lia). cbn [tm_year tm_mon tm_mday tm_hour tm_min tm_sec].
  replace (y - 1900 + 1900) with y by lia. replace (m - 1 + 1) with m by lia. destruct (fields_range _ _ _ _ _ _ _ F) as (M & D & _).
  destruct F as [_ _ (H & MI & S)]. unfold int_. replace (fits32 y) with true by (unfold fits32; lia). replace (fits32 m) with true by (unfold fits32; lia). cbn [bind].
  assert (TQ : u32 (Z.quot usec 100000) = usec / 100000) by (unfold u32; rewrite Z.quot_div_nonneg by lia; apply Z.mod_small; lia). rewrite TQ.
  assert (TT : 0 <= usec / 100000 < 10) by lia. rewrite !pad2, pad4, pad1 by lia.
  set (whole := lit " " ++ (if addDate then four y ++ lit "-" ++ two m ++ lit "-" ++ two d ++ lit "T" else []) ++
            two h ++ lit ":" ++ two mi ++ lit ":" ++ two s ++ lit "." ++ [48 + usec / 100000]).
  assert (LW : length whole = if addDate then 22%nat else 11%nat).
  { subst whole. destruct addDate; rewrite !app_length; cbn; reflexivity. }
  assert (NW : format whole = whole).
  { apply C42_format_whole; [|rewrite LW; destruct addDate; lia|rewrite LW; destruct addDate; lia].
    apply no_nul_forall. subst whole. destruct addDate; repeat (apply Forall_app; split; [first [apply two_pos; lia|apply Forall_app; split; apply two_pos; lia|repeat constructor; discriminate|idtac]|]);
      try (repeat constructor; lia); repeat (apply Forall_app; split; [first [apply two_pos; lia|apply Forall_app; split; apply two_pos; lia|repeat constructor; discriminate]|]); repeat constructor; try discriminate; lia. }
  exists whole, (skipn (Z.to_nat (if Z.of_nat (length whole) <=? fw then 0 else Z.of_nat (length whole) - fw)) whole).
  split.
  - destruct addDate; subst whole; cbn [bind app] in *; rewrite <- ?app_assoc in NW; rewrite <- ?app_assoc; rewrite NW; reflexivity.
  - split; [reflexivity|]. split.
    + rewrite skipn_length, LW. destruct addDate; destruct (Z.leb_spec (Z.of_nat 22) fw); destruct (Z.leb_spec (Z.of_nat 11) fw); lia.
    + eexists. symmetry. apply firstn_skipn.
Qed.
Print Assumptions C81_timestr.
(** timestr() is the whole time of day, without the date. *)
Theorem C81_default : forall off sec usec y m d h mi s, fields_of (sec + off sec) y m d h mi s -> 0 <= y <= 9999 -> 0 <= usec < 1000000 ->
  timestr_default off sec usec = Ok (lit " " ++ two h ++ lit ":" ++ two mi ++ lit ":" ++ two s ++ lit "." ++ [48 + usec / 100000]).
Proof.
  intros off sec usec y m d h mi s F Y U. destruct (C81_timestr off sec usec 12 false y m d h mi s F Y U ltac:(lia)) as (whole & result & E & W & L & dropped & D).
  unfold timestr_default. rewrite E. f_equal. rewrite W in D. cbn [app] in D. assert (LD : length dropped = 0%nat). { apply (f_equal (@length Z)) in D. rewrite !app_length in D. cbn in D. lia. }
  destruct dropped; [|discriminate LD]. cbn [app] in D. symmetry. exact D.
Qed.
Print Assumptions C81_default.

Example C81_ex : isoTime (fun _ => 0) 951782400 false = Ok (lit "2000-02-29T00:00:00Z") /\ isoTime (fun _ => -18000) 951782399 true = Ok (lit "2000-02-28T18:59:59")
  /\ isoTime (fun _ => 0) (-2203891201) false = Ok (lit "1900-02-28T23:59:59Z") /\ isoTime (fun _ => 0) (-2203891200) false = Ok (lit "1900-03-01T00:00:00Z")
  /\ isoTime (fun _ => 0) (-62167219201) false = Ok (lit "-001-12-31T23:59:59Z") /\ isoTime (fun _ => 0) (2 ^ 62) false = UB
  /\ timestr (fun _ => 3600) 1479290399 987654 12 false = Ok (lit " 10:59:59.9") /\ timestr (fun _ => 3600) 1479290399 987654 4 true = Ok (lit "59.9").
Proof. vm_compute. repeat split. Qed.
