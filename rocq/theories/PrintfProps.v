(** C91: what the formats of printf denote. *)
From Verif Require Import Base BaseFacts SqlModel SqlProofs ConfigModel ConfigSpec NumProofs UtilsModel UtilsSpec UtilsProps IsoModel ReportModel PrintfModel.
Local Open Scope Z_scope.

(** ** What the C standard says *)
(** Flags in any order: is there a minus, is there a zero? *)
Definition flagged (m z : bool) (f : list Z) : Prop :=
  Forall (fun c => c = 45 \/ c = 48) f /\ (In 45 f <-> m = true) /\ (In 48 f <-> z = true).
(** A width, written in the format or given by an argument; a negative argument means to the left. *)
Inductive amount : bool -> Z -> list Z -> list arg -> Prop :=
| Absent : amount false 0 [] []
| Written d ds s : digit_string 10 (d :: ds) s -> d <> 0 -> amount false (positional 10 (d :: ds)) s []
| Starred n : 0 <= n < 2 ^ 31 -> amount false n (lit "*") [AInt n]
| Backwards n : - 2 ^ 31 <= n < 0 -> amount true (- n) (lit "*") [AInt n].
(** A precision; a negative argument counts as none. *)
Inductive exactness : option Z -> list Z -> list arg -> Prop :=
| NoDot : exactness None [] []
| Dot ds s : digit_string 10 ds s -> exactness (Some (positional 10 ds)) (lit "." ++ s) []
| DotStar n : 0 <= n < 2 ^ 31 -> exactness (Some n) (lit ".*") [AInt n]
| DotNeg n : - 2 ^ 31 <= n < 0 -> exactness None (lit ".*") [AInt n].
Definition lengthy (l : bool) (s : list Z) : Prop := (l = false /\ s = []) \/ (l = true /\ (s = lit "l" \/ s = lit "ll")).
(** The letter of a conversion, the base of the digits, capitals, signed. *)
Definition kind (c base : Z) (capitals signed : bool) : Prop :=
  In (c, base, capitals, signed) [(100, 10, false, true); (105, 10, false, true); (117, 10, false, false); (120, 16, false, false); (88, 16, true, false)].
Definition in_range (l signed : bool) (n : Z) : Prop :=
  if signed then (if l then - 2 ^ 63 <= n < 2 ^ 63 else - 2 ^ 31 <= n < 2 ^ 31) else (if l then 0 <= n < 2 ^ 64 else 0 <= n < 2 ^ 32).
(** At least [p] digits, and more only without leading zeros. *)
Definition numeral (base : Z) (capitals : bool) (p n : Z) (s : list Z) : Prop :=
  exists ds, digit_string base ds s /\ positional base ds = n /\ p <= Z.of_nat (length ds) /\ (hd 1 ds = 0 -> Z.of_nat (length ds) = p) /\
    Forall (fun c => if capitals then c <= 90 else c <= 57 \/ 97 <= c) s.
(** Filled up to the width on one side. *)
Definition justified (m z : bool) (w : Z) (sign body text : list Z) : Prop :=
  exists pad, Z.of_nat (length text) = Z.max w (Z.of_nat (length (sign ++ body))) /\ Forall (fun c => c = if z && negb m then 48 else 32) pad /\
    text = if m then sign ++ body ++ pad else if z then sign ++ pad ++ body else pad ++ sign ++ body.
Definition none (p : option Z) : bool := match p with None => true | Some _ => false end.
(** The characters of a text up to its first zero. *)
Definition visible (s v : list Z) : Prop := ~ In 0 v /\ (s = v \/ exists rest, s = v ++ 0 :: rest).
(** A part of a format, its arguments and the text it stands for. *)
Inductive part : list Z -> list arg -> list Z -> Prop :=
| Plain c : c <> 37 -> c <> 0 -> part [c] [] [c]
| Percent : part (lit "%%") [] (lit "%")
| Integer m z f left w ws wa p ps pa l ll c base capitals signed n body text :
    flagged m z f -> amount left w ws wa -> exactness p ps pa -> lengthy l ll -> kind c base capitals signed -> in_range l signed n ->
    numeral base capitals (match p with Some p => p | None => 1 end) (Z.abs n) body ->
    justified (m || left) (z && none p) w (if n <? 0 then lit "-" else []) body text ->
    part (lit "%" ++ f ++ ws ++ ps ++ ll ++ [c]) (wa ++ pa ++ [if l then ALong n else AInt n]) text
| Chars m f left w ws wa p ps pa s v text :
    flagged m false f -> amount left w ws wa -> exactness p ps pa -> visible s v ->
    justified (m || left) false w [] (match p with Some p => firstn (Z.to_nat p) v | None => v end) text ->
    part (lit "%" ++ f ++ ws ++ ps ++ lit "s") (wa ++ pa ++ [AStr (Some s)]) text
| Char m f left w ws wa p ps pa n text :
    flagged m false f -> amount left w ws wa -> exactness p ps pa -> p = None -> - 2 ^ 31 <= n < 2 ^ 31 ->
    justified (m || left) false w [] [n mod 256] text ->
    part (lit "%" ++ f ++ ws ++ ps ++ lit "c") (wa ++ pa ++ [AInt n]) text.

(** ** Proofs *)
Definition not_flag (r : list Z) : Prop := match r with [] => True | c :: _ => c <> 45 /\ c <> 48 end.
Definition not_digit (r : list Z) : Prop := match r with [] => True | c :: _ => c < 48 \/ 57 < c end.
Lemma flags_app f r : Forall (fun c => c = 45 \/ c = 48) f -> not_flag r -> forall m z,
  exists m' z', flags (f ++ r) m z = (m', z', r) /\ (m' = true <-> m = true \/ In 45 f) /\ (z' = true <-> z = true \/ In 48 f).
Proof.
  intros F R. induction F as [|c f [->| ->] F IH]; intros m z.
  - exists m, z. split; [|split; cbn [In]; tauto]. cbn [app]. destruct r as [|c r]; [reflexivity|]. destruct R. cbn [flags].
    destruct (Z.eqb_spec c 45); [contradiction|]. destruct (Z.eqb_spec c 48); [contradiction|]. reflexivity.
  - destruct (IH true z) as (m' & z' & E & A & B). exists m', z'. split; [exact E|]. cbn [In]. split; [split; intros _; [right; left; reflexivity|apply A; left; reflexivity]|rewrite B; split; [tauto|intros [X|[X|X]]; [tauto|discriminate|tauto]]].
  - destruct (IH m true) as (m' & z' & E & A & B). exists m', z'. split; [exact E|]. cbn [In]. split; [rewrite A; split; [tauto|intros [X|[X|X]]; [tauto|discriminate|tauto]]|split; intros _; [right; left; reflexivity|apply B; left; reflexivity]].
Qed.
Lemma flagged_flags m z f r : flagged m z f -> not_flag r -> flags (f ++ r) false false = (m, z, r).
Proof.
  intros (F & M & Zr) R. destruct (flags_app f r F R false false) as (m' & z' & E & A & B). rewrite E.
  assert (m' = m). { destruct m', m; try reflexivity; exfalso. - assert (X : In 45 f) by (destruct (proj1 A eq_refl); [discriminate|assumption]). apply M in X. discriminate. - assert (X : false = true) by (apply A; right; apply M; reflexivity). discriminate. }
  assert (z' = z). { destruct z', z; try reflexivity; exfalso. - assert (X : In 48 f) by (destruct (proj1 B eq_refl); [discriminate|assumption]). apply Zr in X. discriminate. - assert (X : false = true) by (apply B; right; apply Zr; reflexivity). discriminate. }
  subst. reflexivity.
Qed.
Lemma flags_inv s : exists f r, s = f ++ r /\ Forall (fun c => c = 45 \/ c = 48) f /\ not_flag r.
Proof.
  induction s as [|c s (f & r & -> & F & R)]; [exists [], []; repeat constructor|].
  destruct (Z.eq_dec c 45) as [->|N]; [exists (45 :: f), r; split; [reflexivity|]; split; [constructor; auto|exact R]|].
  destruct (Z.eq_dec c 48) as [->|N2]; [exists (48 :: f), r; split; [reflexivity|]; split; [constructor; auto|exact R]|].
  exists [], (c :: f ++ r). split; [reflexivity|]. split; [constructor|split; assumption].
Qed.
Lemma flagged_in f : Forall (fun c => c = 45 \/ c = 48) f -> exists m z, flagged m z f.
Proof.
  intros F. exists (existsb (Z.eqb 45) f), (existsb (Z.eqb 48) f). split; [exact F|].
  split; (rewrite existsb_exists; split; [intros H; eexists; split; [exact H|apply Z.eqb_refl]|intros (x & I & E); apply Z.eqb_eq in E; subst; exact I]).
Qed.
Lemma string_length base ds s : digit_string base ds s -> length ds = length s.
Proof. intros D. induction D; cbn [length]; [reflexivity|lia]. Qed.
Lemma digits_app ds s r : digit_string 10 ds s -> not_digit r -> forall n, digits (s ++ r) n = (n * 10 ^ Z.of_nat (length s) + positional 10 ds, r).
Proof.
  intros D R. induction D as [|d c ds s [L C] D IH]; intros n.
  - cbn [app length positional]. change (10 ^ Z.of_nat 0) with 1. destruct r as [|c r]; [cbn [digits]; f_equal; lia|]. cbn [digits]. cbn in R.
    replace ((48 <=? c) && (c <=? 57)) with false by lia. f_equal. lia.
  - cbn [app digits length positional]. unfold char_of_digit in C. replace ((48 <=? c) && (c <=? 57)) with true by lia. rewrite IH.
    replace (c - 48) with d by lia. assert (length s = length ds) as -> by (symmetry; exact (string_length _ _ _ D)).
    rewrite Nat2Z.inj_succ, Z.pow_succ_r by lia. f_equal. ring.
Qed.
Lemma digits_inv s : exists ds t r, s = t ++ r /\ digit_string 10 ds t /\ not_digit r.
Proof.
  induction s as [|c s (ds & t & r & -> & D & R)]; [exists [], [], []; repeat constructor|].
  destruct (Z_le_dec 48 c) as [A|A]; [destruct (Z_le_dec c 57) as [B|B]|].
  - exists (c - 48 :: ds), (c :: t), r. split; [reflexivity|]. split; [constructor; [split; [lia|left; lia]|exact D]|exact R].
  - exists [], [], (c :: t ++ r). split; [reflexivity|]. split; [constructor|cbn; lia].
  - exists [], [], (c :: t ++ r). split; [reflexivity|]. split; [constructor|cbn; lia].
Qed.
(** A number of a format and how it is written. *)
Inductive numbered : number -> list Z -> Prop :=
| NDigits ds s : digit_string 10 ds s -> numbered (Num (positional 10 ds)) s
| NStar : numbered Star (lit "*").
Lemma number_of_app n s r : numbered n s -> not_digit r -> (s = [] -> hd 0 r <> 42) -> number_of (s ++ r) = (n, r).
Proof.
  intros N R K. destruct N as [ds s D|]; [|reflexivity].
  pose proof (digits_app ds s r D R 0) as E. destruct D as [|d c ds s [L C] D].
  - cbn [app] in *. destruct r as [|c r]; [reflexivity|]. unfold number_of. destruct (Z.eqb_spec c 42) as [->|_]; [exfalso; apply K; reflexivity|]. rewrite E. reflexivity.
  - cbn [app] in *. unfold number_of. unfold char_of_digit in C. replace (c =? 42) with false by lia. rewrite E. reflexivity.
Qed.
Lemma number_of_inv s : exists n t r, s = t ++ r /\ numbered n t /\ ((not_digit r /\ (t = [] -> hd 0 r <> 42)) \/ t = lit "*") /\ number_of s = (n, r).
Proof.
  destruct s as [|c s]; [exists (Num 0), [], []; split; [reflexivity|]; split; [apply (NDigits [] []); constructor|]; split; [left; split; [exact I|intros _; discriminate]|reflexivity]|].
  destruct (Z.eq_dec c 42) as [->|N]; [exists Star, (lit "*"), s; split; [reflexivity|]; split; [constructor|]; split; [right; reflexivity|reflexivity]|].
  destruct (digits_inv (c :: s)) as (ds & t & r & E & D & R). exists (Num (positional 10 ds)), t, r. rewrite E.
  assert (K : t = [] -> hd 0 r <> 42) by (intros ->; cbn [app] in E; subst r; exact N).
  split; [reflexivity|]. split; [constructor; exact D|]. split; [left; split; assumption|]. apply number_of_app; [constructor; exact D|exact R|exact K].
Qed.
(** How a directive is written. *)
Inductive spelled : directive -> list Z -> Prop :=
| Spelled m z f w ws p ps l ll c : flagged m z f -> numbered w ws -> hd 0 ws <> 48 -> (p = None /\ ps = [] \/ exists n s, p = Some n /\ ps = lit "." ++ s /\ numbered n s) ->
    lengthy l ll -> spelled (Directive m z w p l c) (f ++ ws ++ ps ++ ll ++ [c]).
Definition letter (c : Z) : Prop := In c [100; 105; 117; 120; 88; 99; 115].
Lemma parse_spelled d s rest : spelled d s -> letter (conversion d) -> parse (s ++ rest) = Some (d, rest).
Proof.
  intros Hs Hl. destruct Hs as [m z f w ws p ps l ll c F W NZ P L]. cbn [conversion] in Hl.
  assert (C : c <> 45 /\ c <> 48 /\ (c < 48 \/ 57 < c) /\ c <> 42 /\ c <> 46 /\ c <> 108) by (cbn in Hl; lia).
  rewrite <- !app_assoc. cbn [app]. unfold parse.
  assert (T4 : not_flag (ll ++ c :: rest) /\ not_digit (ll ++ c :: rest) /\ hd 0 (ll ++ c :: rest) <> 42 /\ hd 0 (ll ++ c :: rest) <> 46).
  { destruct L as [[_ ->]|[_ [->| ->]]]; cbn; lia. }
  assert (T3 : not_flag (ps ++ ll ++ c :: rest) /\ not_digit (ps ++ ll ++ c :: rest) /\ hd 0 (ps ++ ll ++ c :: rest) <> 42).
  { destruct P as [[_ ->]|(n & s & _ & -> & _)]; [cbn [app]; tauto|cbn; lia]. }
  assert (T2 : not_flag (ws ++ ps ++ ll ++ c :: rest)).
  { destruct W as [ds s D|]; [|cbn; lia]. destruct D as [|d c' ds s [Lt C'] D]; [exact (proj1 T3)|]. cbn in NZ |- *. unfold char_of_digit in C'. lia. }
  rewrite (flagged_flags m z f _ F T2). rewrite (number_of_app w ws _ W) by (try intros _; tauto).
  assert (S3' : forall X, X = ps ++ ll ++ c :: rest -> match X with c :: t => if c =? 46 then let (p, r) := number_of t in (Some p, r) else (None, X) | [] => (None, []) end = (p, ll ++ c :: rest)).
  { intros X ->. destruct P as [[-> ->]|(n & s & -> & -> & N)].
    - cbn [app]. destruct (ll ++ c :: rest) as [|x t] eqn:E; [reflexivity|]. cbn [hd] in T4. destruct (Z.eqb_spec x 46); [tauto|reflexivity].
    - change (lit "." ++ s) with (46 :: s). cbn [app]. change (46 =? 46) with true. cbv iota. rewrite (number_of_app n s _ N) by (try intros _; tauto). reflexivity. }
  rewrite S3' by reflexivity.
  assert (S4 : skip_l (ll ++ c :: rest) = (l, c :: rest)).
  { destruct L as [[-> ->]|[-> [->| ->]]]; cbn [app lit skip_l]; [destruct (Z.eqb_spec c 108); [lia|reflexivity]| |reflexivity].
    change (skip_l (lit "l" ++ c :: rest)) with (if c =? 108 then (true, rest) else (true, c :: rest)). destruct (Z.eqb_spec c 108); [lia|reflexivity]. }
  rewrite S4. reflexivity.
Qed.
Lemma parse_inv s d rest : parse s = Some (d, rest) -> exists t, s = t ++ rest /\ spelled d t.
Proof.
  intros H. destruct (flags_inv s) as (f & s1 & -> & F & R1). destruct (flagged_in f F) as (m & z & Fl).
  destruct (number_of_inv s1) as (w & ws & s2 & -> & W & _ & E2).
  assert (NZ : hd 0 ws <> 48). { destruct ws as [|c ws]; [discriminate|]. cbn in R1 |- *. tauto. }
  unfold parse in H. rewrite (flagged_flags m z f _ Fl R1), E2 in H.
  assert (P : exists p ps s3, s2 = ps ++ s3 /\ (p = None /\ ps = [] \/ exists n s, p = Some n /\ ps = lit "." ++ s /\ numbered n s) /\
    match s2 with c :: t => if c =? 46 then let (p, r) := number_of t in (Some p, r) else (None, s2) | [] => (None, []) end = (p, s3)).
  { destruct s2 as [|c t]; [exists None, [], []; auto|]. destruct (Z.eqb_spec c 46) as [->|N].
    - destruct (number_of_inv t) as (n & s & s3 & -> & Nn & _ & E3). exists (Some n), (46 :: s), s3. split; [reflexivity|]. split; [right; exists n, s; auto|]. rewrite E3. reflexivity.
    - exists None, [], (c :: t). auto. }
  destruct P as (p & ps & s3 & -> & Pp & EP). rewrite EP in H. clear EP.
  assert (L : exists l ll s4, s3 = ll ++ s4 /\ lengthy l ll /\ skip_l s3 = (l, s4)).
  { destruct s3 as [|c t]; [exists false, [], []; split; [reflexivity|]; split; [left; auto|reflexivity]|]. unfold skip_l. destruct (Z.eqb_spec c 108) as [->|N].
    - destruct t as [|c' t']; [exists true, (lit "l"), []; split; [reflexivity|]; split; [right; auto|reflexivity]|]. destruct (Z.eqb_spec c' 108) as [->|N].
      + exists true, (lit "ll"), t'. split; [reflexivity|]. split; [right; auto|reflexivity].
      + exists true, (lit "l"), (c' :: t'). split; [reflexivity|]. split; [right; auto|reflexivity].
    - exists false, [], (c :: t). split; [reflexivity|]. split; [left; auto|reflexivity]. }
  destruct L as (l & ll & s4 & -> & Ll & EL). rewrite EL in H. destruct s4 as [|c t]; [discriminate|]. inversion H; subst.
  exists (f ++ ws ++ ps ++ ll ++ [c]). split; [rewrite <- !app_assoc; reflexivity|]. constructor; assumption.
Qed.
(** *** Digits *)
Lemma positional_bound base ds s : 2 <= base <= 36 -> digit_string base ds s -> 0 <= positional base ds < base ^ Z.of_nat (length ds).
Proof.
  intros B D. induction D as [|d c ds s [L C] D IH]; cbn [positional length]; [change (base ^ Z.of_nat 0) with 1; lia|].
  rewrite Nat2Z.inj_succ, Z.pow_succ_r by lia. unfold char_of_digit in C. nia.
Qed.
Lemma positional_first base d ds s : 2 <= base <= 36 -> digit_string base (d :: ds) s -> d <> 0 -> base ^ Z.of_nat (length ds) <= positional base (d :: ds).
Proof.
  intros B D N. inversion D as [|? ? ? ? [L C] D']; subst. cbn [positional]. pose proof (positional_bound base ds _ B D'). unfold char_of_digit in C.
  assert (0 < base ^ Z.of_nat (length ds)) by (apply Z.pow_pos_nonneg; lia). nia.
Qed.
Lemma positional_inj base : 2 <= base <= 36 -> forall ds s ds' s', digit_string base ds s -> digit_string base ds' s' -> length ds = length ds' ->
  positional base ds = positional base ds' -> ds = ds'.
Proof.
  intros B ds s ds' s' D. revert ds' s'. induction D as [|d c ds s [L C] D IH]; intros ds' s' D' E P.
  - destruct ds'; [reflexivity|discriminate].
  - destruct D' as [|d' c' ds' s' [L' C'] D']; [discriminate|]. cbn [length] in E. injection E as E. cbn [positional] in P. rewrite E in P.
    pose proof (positional_bound base ds s B D) as B1. pose proof (positional_bound base ds' s' B D') as B2. rewrite E in B1.
    assert (d = d') by (unfold char_of_digit in *; nia). subst d'. f_equal. apply (IH ds' s'); [exact D'|exact E|lia].
Qed.
Lemma positional_longer base p : 2 <= base <= 36 -> forall ds s ds' s', digit_string base ds s -> digit_string base ds' s' ->
  positional base ds = positional base ds' -> p <= Z.of_nat (length ds') -> (hd 1 ds = 0 -> Z.of_nat (length ds) = p) -> (length ds <= length ds')%nat.
Proof.
  intros B ds s ds' s' D D' E P Q. destruct (le_lt_dec (length ds) (length ds')) as [|G]; [assumption|exfalso].
  destruct D as [|d c ds s L D]; [cbn in G; lia|]. assert (N : d <> 0) by (intros ->; specialize (Q eq_refl); lia).
  pose proof (positional_first base d ds (c :: s) B ltac:(constructor; assumption) N). pose proof (positional_bound base ds' s' B D').
  assert (base ^ Z.of_nat (length ds') <= base ^ Z.of_nat (length ds)) by (apply Z.pow_le_mono_r; cbn [length] in G; lia). lia.
Qed.
Lemma chars_unique base (capitals : bool) ds s : digit_string base ds s -> forall s', digit_string base ds s' -> base <= 36 ->
  Forall (fun c => if capitals then c <= 90 else c <= 57 \/ 97 <= c) s -> Forall (fun c => if capitals then c <= 90 else c <= 57 \/ 97 <= c) s' -> s = s'.
Proof.
  intros D. induction D as [|d c ds s [L C] D IH]; intros s' D' B F F'; inversion D' as [|? c' ? t [L' C'] D'']; subst; [reflexivity|].
  inversion F; subst. inversion F'; subst. f_equal; [|apply IH; assumption]. unfold char_of_digit in *. destruct capitals; lia.
Qed.
Lemma numeral_unique base capitals p n s s' : 2 <= base <= 36 -> numeral base capitals p n s -> numeral base capitals p n s' -> s = s'.
Proof.
  intros B (ds & D & V & P & Q & F) (ds' & D' & V' & P' & Q' & F').
  assert (E : length ds = length ds').
  { apply Nat.le_antisymm; [apply (positional_longer base p B ds s ds' s' D D')|apply (positional_longer base p B ds' s' ds s D' D)]; try assumption; congruence. }
  assert (ds = ds') by (apply (positional_inj base B ds s ds' s' D D' E); congruence). subst. apply (chars_unique base capitals ds'); try assumption. lia.
Qed.
Lemma spell_spec base letter : (base = 10 \/ base = 16) -> (letter = 97 \/ letter = 65) -> forall fuel n, 0 <= n < base ^ Z.of_nat fuel -> (0 < fuel)%nat ->
  exists d ds, digit_string base (d :: ds) (spell fuel base letter n) /\ positional base (d :: ds) = n /\ (d = 0 -> n = 0 /\ ds = []) /\
    Forall (fun c => if letter =? 65 then c <= 90 else c <= 57 \/ 97 <= c) (spell fuel base letter n).
Proof.
  intros B Lt. induction fuel as [|fuel IH]; intros n R F; [lia|]. cbn [spell].
  assert (L : n mod base < base /\ char_of_digit (n mod base) (digit_char letter (n mod base)) /\
    (if letter =? 65 then digit_char letter (n mod base) <= 90 else digit_char letter (n mod base) <= 57 \/ 97 <= digit_char letter (n mod base))).
  { unfold digit_char, char_of_digit. assert (0 <= n mod base < base) as Hm by (apply Z.mod_pos_bound; lia). revert Hm. generalize (n mod base). intros r Hm. split; [lia|].
    destruct (Z.ltb_spec r 10); (split; [lia|]); destruct (Z.eqb_spec letter 65); lia. }
  destruct L as (L1 & L2 & L3). destruct (Z.ltb_spec n base) as [E|E].
  - exists (n mod base), []. split; [constructor; [split; assumption|constructor]|]. rewrite Z.mod_small by lia. split; [cbn [positional length]; change (base ^ Z.of_nat 0) with 1; lia|].
    split; [intros H; split; [exact H|reflexivity]|]. rewrite Z.mod_small in L3 by lia. constructor; [exact L3|constructor].
  - assert (Fu : (0 < fuel)%nat) by (destruct fuel; [change (base ^ Z.of_nat 1) with (base ^ 1) in R; rewrite Z.pow_1_r in R; lia|lia]).
    assert (Rq : 0 <= n / base < base ^ Z.of_nat fuel).
    { split; [apply Z.div_pos; lia|]. apply Z.div_lt_upper_bound; [lia|]. rewrite Nat2Z.inj_succ, Z.pow_succ_r in R by lia. lia. }
    destruct (IH (n / base) Rq Fu) as (d & ds & D & V & N & C). exists d, (ds ++ [n mod base]).
    split; [apply (Forall2_app (l1 := d :: ds) (l2 := [n mod base])); [exact D|constructor; [split; assumption|constructor]]|].
    split.
    + change (d :: ds ++ [n mod base]) with ((d :: ds) ++ [n mod base]). rewrite positional_app, V by lia. cbn [length positional]. change (Z.of_nat 1) with 1. change (base ^ Z.of_nat 0) with 1.
      rewrite Z.pow_1_r. pose proof (Z.div_mod n base ltac:(lia)). lia.
    + split; [|apply Forall_app; split; [exact C|constructor; [exact L3|constructor]]].
      intros ->. destruct (N eq_refl) as [X _]. exfalso. pose proof (Z.div_mod n base ltac:(lia)). pose proof (Z.mod_pos_bound n base ltac:(lia)). rewrite X in *. lia.
Qed.
Lemma zeros_digits base k : 2 <= base -> digit_string base (repeat 0 k) (repeat 48 k).
Proof. intros B. induction k; cbn [repeat]; [constructor|]. constructor; [split; [lia|left; lia]|assumption]. Qed.
Lemma zeros_positional base k ds : 0 < base -> positional base (repeat 0 k ++ ds) = positional base ds.
Proof. intros B. induction k; cbn [repeat app positional]; [reflexivity|]. rewrite IHk. lia. Qed.
Definition wanted (p : option Z) : Z := match p with Some p => p | None => 1 end.
Lemma body_numeral base (capitals : bool) p n : (base = 10 \/ base = 16) -> 0 <= n < 2 ^ 64 -> 0 <= wanted p ->
  numeral base capitals (wanted p) n (body_of p base (if capitals then 65 else 97) n).
Proof.
  intros B R P. set (letter := if capitals then 65 else 97).
  assert (Lt : letter = 97 \/ letter = 65) by (subst letter; destruct capitals; auto).
  assert (Ru : 0 <= n < base ^ Z.of_nat 64).
  { split; [lia|]. apply Z.lt_le_trans with (2 ^ 64); [lia|]. change (Z.of_nat 64) with 64. apply Z.pow_le_mono_l; lia. }
  destruct (spell_spec base letter B Lt 64%nat n Ru ltac:(lia)) as (d & ds & D & V & N & C).
  assert (C' : Forall (fun c => if capitals then c <= 90 else c <= 57 \/ 97 <= c) (spell 64 base letter n)) by (subst letter; destruct capitals; exact C). clear C.
  pose proof (string_length _ _ _ D) as SL. destruct p as [p|]; cbn [wanted] in *; unfold body_of.
  - destruct ((n =? 0) && (p =? 0)) eqn:Z0.
    + assert (n = 0 /\ p = 0) as [-> ->] by lia. exists []. unfold zeros. cbn [length app]. change (Z.to_nat (0 - Z.of_nat 0)) with 0%nat. cbn [repeat app].
      split; [constructor|]. split; [reflexivity|]. split; [cbn; lia|]. split; [discriminate|constructor].
    + set (k := Z.to_nat (p - Z.of_nat (length (spell 64 base letter n)))). exists (repeat 0 k ++ d :: ds).
      split; [apply Forall2_app; [apply zeros_digits; lia|exact D]|]. split; [rewrite zeros_positional by lia; exact V|].
      assert (LL : length (repeat 0 k ++ d :: ds) = (k + length (spell 64 base letter n))%nat) by (rewrite app_length, repeat_length, SL; reflexivity).
      rewrite LL. split; [lia|]. split; [|apply Forall_app; split; [|exact C']].
      * intros H. destruct k as [|k'] eqn:Ek; [|lia]. cbn [repeat app hd] in H. destruct (N H) as [N0 ->]. cbn [length] in SL. subst n. lia.
      * unfold zeros. apply Forall_forall. intros x X. apply repeat_spec in X. subst x. destruct capitals; lia.
  - exists (d :: ds). split; [exact D|]. split; [exact V|]. split; [cbn [length]; lia|]. split; [|exact C'].
    cbn [hd]. intros H. destruct (N H) as [_ ->]. reflexivity.
Qed.
Lemma all_repeat (x : Z) l : Forall (fun c => c = x) l -> l = repeat x (length l).
Proof. intros F. induction F; cbn [length repeat]; [reflexivity|]. subst. f_equal. assumption. Qed.
Lemma justified_fill m z w sign body text : justified m z w sign body text <-> text = fill m z w sign body.
Proof.
  unfold justified, fill, blanks, zeros. set (k := Z.to_nat (w - Z.of_nat (length (sign ++ body)))). split.
  - intros (pad & L & F & ->). assert (K : length pad = k).
    { destruct m; [|destruct z]; rewrite !app_length in L; subst k; rewrite !app_length; lia. }
    apply all_repeat in F. rewrite K in F. subst pad. destruct m; [rewrite andb_false_r; reflexivity|]. rewrite andb_true_r. destruct z; reflexivity.
  - intros ->. exists (repeat (if z && negb m then 48 else 32) k). split; [|split].
    + destruct m; [|destruct z]; rewrite !app_length, !repeat_length; subst k; rewrite !app_length; lia.
    + apply Forall_forall. intros x X. apply repeat_spec in X. exact X.
    + destruct m; [rewrite andb_false_r; reflexivity|]. rewrite andb_true_r. destruct z; reflexivity.
Qed.
(** *** Arguments *)
Lemma amount_value left w ws wa r : amount left w ws wa -> exists n, numbered n ws /\ hd 0 ws <> 48 /\ value_of n (wa ++ r) = Ok (if left then - w else w, r) /\ 0 <= w /\ (left = true -> 0 < w).
Proof.
  intros H. destruct H as [|d ds s D N|n R|n R].
  - exists (Num 0). split; [apply (NDigits [] []); constructor|]. split; [discriminate|]. split; [reflexivity|]. split; [lia|discriminate].
  - exists (Num (positional 10 (d :: ds))). split; [constructor; exact D|]. split.
    + inversion D as [|? c ? t [L C] D']; subst. cbn [hd]. unfold char_of_digit in C. lia.
    + split; [reflexivity|]. split; [apply (positional_bound 10 _ s); [lia|exact D]|discriminate].
  - exists Star. split; [constructor|]. split; [discriminate|]. split; [|split; [lia|discriminate]]. cbn [value_of take app integer bind]. replace ((- 2 ^ 31 <=? n) && (n <? 2 ^ 31)) with true by lia. reflexivity.
  - exists Star. split; [constructor|]. split; [discriminate|]. split; [|split; [lia|intros _; lia]]. cbn [value_of take app integer bind]. replace ((- 2 ^ 31 <=? n) && (n <? 2 ^ 31)) with true by lia. rewrite Z.opp_involutive. reflexivity.
Qed.
Lemma star_inv args v r : value_of Star args = Ok (v, r) -> args = AInt v :: r /\ - 2 ^ 31 <= v < 2 ^ 31.
Proof.
  cbn [value_of]. destruct args as [|a args]; [discriminate|]. cbn [take bind]. destruct a as [z|z|s|]; cbn [integer bind]; try discriminate.
  destruct ((- 2 ^ 31 <=? z) && (z <? 2 ^ 31)) eqn:E; [|discriminate]. cbn [bind]. intros H. inversion H; subst. split; [reflexivity|lia].
Qed.
Lemma value_amount n ws args v r : numbered n ws -> hd 0 ws <> 48 -> value_of n args = Ok (v, r) -> exists wa, args = wa ++ r /\ amount (v <? 0) (Z.abs v) ws wa.
Proof.
  intros N Hd H. destruct N as [ds s D|].
  - cbn [value_of] in H. inversion H; subst. exists []. split; [reflexivity|].
    pose proof (positional_bound 10 ds s ltac:(lia) D). replace (positional 10 ds <? 0) with false by lia. rewrite Z.abs_eq by lia.
    destruct D as [|d c ds s [L C] D]; [constructor|]. constructor; [constructor; [split; assumption|exact D]|]. cbn [hd] in Hd. unfold char_of_digit in C. lia.
  - destruct (star_inv _ _ _ H) as [-> R]. exists [AInt v]. split; [reflexivity|]. destruct (Z.ltb_spec v 0); [rewrite Z.abs_neq by lia|rewrite Z.abs_eq by lia]; constructor; lia.
Qed.
Lemma exactness_value p ps pa r : exactness p ps pa -> exists n, (n = None /\ ps = [] \/ exists k s, n = Some k /\ ps = lit "." ++ s /\ numbered k s) /\
  precision_of n (pa ++ r) = Ok (p, r) /\ 0 <= wanted p.
Proof.
  intros H. destruct H as [|ds s D|n R|n R].
  - exists None. split; [left; auto|]. split; [reflexivity|cbn; lia].
  - exists (Some (Num (positional 10 ds))). split; [right; eexists _, s; split; [reflexivity|]; split; [reflexivity|constructor; exact D]|].
    pose proof (positional_bound 10 ds s ltac:(lia) D). cbn [precision_of value_of bind app wanted]. replace (positional 10 ds <? 0) with false by lia. split; [reflexivity|lia].
  - exists (Some Star). split; [right; eexists _, (lit "*"); split; [reflexivity|]; split; [reflexivity|constructor]|].
    cbn [precision_of value_of take app integer bind wanted]. replace ((- 2 ^ 31 <=? n) && (n <? 2 ^ 31)) with true by lia. cbn [bind]. replace (n <? 0) with false by lia. split; [reflexivity|lia].
  - exists (Some Star). split; [right; eexists _, (lit "*"); split; [reflexivity|]; split; [reflexivity|constructor]|].
    cbn [precision_of value_of take app integer bind wanted]. replace ((- 2 ^ 31 <=? n) && (n <? 2 ^ 31)) with true by lia. cbn [bind]. replace (n <? 0) with true by lia. split; [reflexivity|lia].
Qed.
Lemma value_exactness n ps args p r : (n = None /\ ps = [] \/ exists k s, n = Some k /\ ps = lit "." ++ s /\ numbered k s) -> precision_of n args = Ok (p, r) ->
  exists pa, args = pa ++ r /\ exactness p ps pa.
Proof.
  intros [[-> ->]|(k & s & -> & -> & N)] H.
  - cbn [precision_of] in H. inversion H; subst. exists []. split; [reflexivity|constructor].
  - cbn [precision_of] in H. destruct (value_of k args) as [[v r']| | |] eqn:E; try discriminate. cbn [bind] in H. inversion H; subst. destruct N as [ds s D|].
    + cbn [value_of] in E. inversion E; subst. exists []. split; [reflexivity|]. pose proof (positional_bound 10 ds s ltac:(lia) D).
      replace (positional 10 ds <? 0) with false by lia. constructor; exact D.
    + destruct (star_inv _ _ _ E) as [-> R]. exists [AInt v]. split; [reflexivity|]. destruct (Z.ltb_spec v 0); constructor; lia.
Qed.
Lemma integer_range l signed n : in_range l signed n <-> integer (if l then ALong n else AInt n) l signed = Ok n.
Proof.
  unfold in_range. destruct l, signed; cbn [integer].
  - destruct ((- 2 ^ 63 <=? n) && (n <? 2 ^ 63)) eqn:E; split; intros H; try reflexivity; try discriminate; lia.
  - destruct ((0 <=? n) && (n <? 2 ^ 64)) eqn:E; split; intros H; try reflexivity; try discriminate; lia.
  - destruct ((- 2 ^ 31 <=? n) && (n <? 2 ^ 31)) eqn:E; split; intros H; try reflexivity; try discriminate; lia.
  - destruct ((0 <=? n) && (n <? 2 ^ 32)) eqn:E; split; intros H; try reflexivity; try discriminate; lia.
Qed.
Lemma integer_inv a l signed n : integer a l signed = Ok n -> a = (if l then ALong n else AInt n) /\ in_range l signed n.
Proof.
  intros H. assert (E : a = if l then ALong n else AInt n).
  { destruct a as [z|z|s|]; destruct l; cbn [integer] in H; try discriminate; destruct signed;
    match type of H with (if ?b then _ else _) = _ => destruct b; [|discriminate] end; inversion H; reflexivity. }
  split; [exact E|]. subst a. apply integer_range. exact H.
Qed.
(** *** Directives *)
Lemma in_range_abs l signed n : in_range l signed n -> 0 <= Z.abs n < 2 ^ 64.
Proof. unfold in_range. destruct signed, l; lia. Qed.
Lemma visible_c_str s v : visible s v -> c_str s = v.
Proof. intros [N [->|[rest ->]]]; [apply c_str_id; exact N|rewrite c_str_app by exact N; cbn [c_str]; apply app_nil_r]. Qed.
Lemma visible_of s : visible s (c_str s).
Proof.
  induction s as [|c s IH]; [split; [intros []|left; reflexivity]|]. cbn [c_str]. destruct (Z.eqb_spec c 0) as [->|N]; [split; [intros []|right; exists s; reflexivity]|].
  destruct IH as [A B]. split; [intros [X|X]; [congruence|exact (A X)]|]. destruct B as [B|[r B]]; [left; congruence|right; exists r; cbn [app]; congruence].
Qed.
Lemma kind_base c base capitals signed : kind c base capitals signed -> base = 10 \/ base = 16.
Proof. unfold kind; cbn [In]. intros [K|[K|[K|[K|[K|[]]]]]]; inversion K; auto. Qed.
Lemma part_print f a t : part f a t -> forall rest args k, print (S k) (f ++ rest) (a ++ args) = bind (print k rest args) (fun r => Ok (t ++ r)).
Proof.
  intros H rest args k. destruct H as [c N N0| |m z f left w ws wa p ps pa l ll c base capitals signed n body text F A X L K R Nu J|m f left w ws wa p ps pa s v text F A X V J|m f left w ws wa p ps pa n text F A X P R J].
  - cbn [app print]. destruct (Z.eqb_spec c 37); [contradiction|reflexivity].
  - reflexivity.
  - destruct (amount_value left w ws wa (pa ++ (if l then ALong n else AInt n) :: args) A) as (nw & W & Hd & EV & W0 & Wl).
    destruct (exactness_value p ps pa ((if l then ALong n else AInt n) :: args) X) as (np & P & EP & P0).
    assert (S : spelled (Directive m z nw np l c) (f ++ ws ++ ps ++ ll ++ [c])) by (constructor; assumption).
    assert (Lc : letter c) by (unfold kind in K; cbn in K; unfold letter; cbn; intuition congruence).
    pose proof (parse_spelled _ _ rest S Lc) as PS. change ((lit "%" ++ f ++ ws ++ ps ++ ll ++ [c]) ++ rest) with (37 :: (f ++ ws ++ ps ++ ll ++ [c]) ++ rest).
    set (q := (f ++ ws ++ ps ++ ll ++ [c]) ++ rest) in *. cbn [print]. change (37 =? 37) with true. cbv iota.
    assert (Q : exists x y, q = x :: y /\ x <> 37).
    { subst q. destruct F as (F & _). destruct F as [|x f' Fx F']; [|exists x; eexists; split; [reflexivity|lia]]. cbn [app].
      inversion W as [ds s D E1|E1]; subst; [|eexists _, _; split; [reflexivity|discriminate]].
      destruct D as [|d' c' ds' s' [_ C'] D']; [|eexists _, _; split; [reflexivity|unfold char_of_digit in C'; lia]]. cbn [app].
      destruct P as [[_ ->]|(k' & s & _ & -> & _)]; [|eexists _, _; split; [reflexivity|discriminate]]. cbn [app].
      destruct L as [[_ ->]|[_ [->| ->]]]; [|eexists _, _; split; [reflexivity|discriminate]|eexists _, _; split; [reflexivity|discriminate]].
      eexists _, _; split; [reflexivity|]. unfold letter in Lc; cbn in Lc; lia. }
    destruct Q as (x & y & Eq & Nx). rewrite Eq in *. destruct (Z.eqb_spec x 37); [contradiction|]. rewrite PS. rewrite <- !app_assoc. cbn [app].
    assert (C : convert (Directive m z nw np l c) (wa ++ pa ++ (if l then ALong n else AInt n) :: args) = Ok (text, args)).
    { apply justified_fill in J. unfold convert. cbn [width precision minus zero long conversion]. rewrite EV. cbn [bind]. rewrite EP. cbn [bind].
      replace ((if left then - w else w) <? 0) with left by (destruct left; [specialize (Wl eq_refl)|]; lia).
      replace (Z.abs (if left then - w else w)) with w by (destruct left; lia). cbn [take bind].
      assert (B : body = body_of p base (if capitals then 65 else 97) (Z.abs n)).
      { apply (numeral_unique base capitals (wanted p) (Z.abs n)); [destruct (kind_base _ _ _ _ K); lia|exact Nu|].
        apply body_numeral; [exact (kind_base _ _ _ _ K)|exact (in_range_abs _ _ _ R)|exact P0]. }
      rewrite J, B. apply integer_range in R.
      unfold kind in K; cbn [In] in K. destruct K as [K|[K|[K|[K|[K|[]]]]]]; inversion K; subst c base capitals signed;
      cbn [Z.eqb Pos.eqb orb]; rewrite R; cbn [bind]; reflexivity. }
    rewrite C. reflexivity.
  - destruct (amount_value left w ws wa (pa ++ AStr (Some s) :: args) A) as (nw & W & Hd & EV & W0 & Wl).
    destruct (exactness_value p ps pa (AStr (Some s) :: args) X) as (np & P & EP & P0).
    assert (S : spelled (Directive m false nw np false 115) (f ++ ws ++ ps ++ [] ++ [115])) by (constructor; [assumption..|left; auto]).
    assert (Lc : letter 115) by (unfold letter; cbn; tauto).
    pose proof (parse_spelled _ _ rest S Lc) as PS. change ((lit "%" ++ f ++ ws ++ ps ++ lit "s") ++ rest) with (37 :: (f ++ ws ++ ps ++ [] ++ [115]) ++ rest).
    set (q := (f ++ ws ++ ps ++ [] ++ [115]) ++ rest) in *. cbn [print]. change (37 =? 37) with true. cbv iota.
    assert (Q : exists x y, q = x :: y /\ x <> 37).
    { subst q. destruct F as (F & _). destruct F as [|x f' Fx F']; [|exists x; eexists; split; [reflexivity|lia]]. cbn [app].
      inversion W as [ds t D E1|E1]; subst; [|eexists _, _; split; [reflexivity|discriminate]].
      destruct D as [|d' c' ds' s' [_ C'] D']; [|eexists _, _; split; [reflexivity|unfold char_of_digit in C'; lia]]. cbn [app].
      destruct P as [[_ ->]|(k' & t & _ & -> & _)]; eexists _, _; (split; [reflexivity|discriminate]). }
    destruct Q as (x & y & Eq & Nx). rewrite Eq in *. destruct (Z.eqb_spec x 37); [contradiction|]. rewrite PS. rewrite <- !app_assoc. cbn [app].
    assert (C : convert (Directive m false nw np false 115) (wa ++ pa ++ AStr (Some s) :: args) = Ok (text, args)).
    { apply justified_fill in J. unfold convert. cbn [width precision minus zero long conversion]. rewrite EV. cbn [bind]. rewrite EP. cbn [bind].
      replace ((if left then - w else w) <? 0) with left by (destruct left; [specialize (Wl eq_refl)|]; lia).
      replace (Z.abs (if left then - w else w)) with w by (destruct left; lia). cbn [take bind Z.eqb Pos.eqb orb andb negb].
      rewrite (visible_c_str s v V), J. reflexivity. }
    rewrite C. reflexivity.
  - destruct (amount_value left w ws wa (pa ++ AInt n :: args) A) as (nw & W & Hd & EV & W0 & Wl).
    destruct (exactness_value p ps pa (AInt n :: args) X) as (np & P' & EP & P0).
    assert (S : spelled (Directive m false nw np false 99) (f ++ ws ++ ps ++ [] ++ [99])) by (constructor; [assumption..|left; auto]).
    assert (Lc : letter 99) by (unfold letter; cbn; tauto).
    pose proof (parse_spelled _ _ rest S Lc) as PS. change ((lit "%" ++ f ++ ws ++ ps ++ lit "c") ++ rest) with (37 :: (f ++ ws ++ ps ++ [] ++ [99]) ++ rest).
    set (q := (f ++ ws ++ ps ++ [] ++ [99]) ++ rest) in *. cbn [print]. change (37 =? 37) with true. cbv iota.
    assert (Q : exists x y, q = x :: y /\ x <> 37).
    { subst q. destruct F as (F & _). destruct F as [|x f' Fx F']; [|exists x; eexists; split; [reflexivity|lia]]. cbn [app].
      inversion W as [ds t D E1|E1]; subst; [|eexists _, _; split; [reflexivity|discriminate]].
      destruct D as [|d' c' ds' s' [_ C'] D']; [|eexists _, _; split; [reflexivity|unfold char_of_digit in C'; lia]]. cbn [app].
      destruct P' as [[_ ->]|(k' & t & _ & -> & _)]; eexists _, _; (split; [reflexivity|discriminate]). }
    destruct Q as (x & y & Eq & Nx). rewrite Eq in *. destruct (Z.eqb_spec x 37); [contradiction|]. rewrite PS. rewrite <- !app_assoc. cbn [app].
    assert (C : convert (Directive m false nw np false 99) (wa ++ pa ++ AInt n :: args) = Ok (text, args)).
    { apply justified_fill in J. unfold convert. cbn [width precision minus zero long conversion]. rewrite EV. cbn [bind]. rewrite EP. cbn [bind].
      replace ((if left then - w else w) <? 0) with left by (destruct left; [specialize (Wl eq_refl)|]; lia).
      replace (Z.abs (if left then - w else w)) with w by (destruct left; lia). subst p. cbn [take bind Z.eqb Pos.eqb orb andb negb].
      cbn [integer]. replace ((- 2 ^ 31 <=? n) && (n <? 2 ^ 31)) with true by lia. cbn [bind]. rewrite J. reflexivity. }
    rewrite C. reflexivity.
Qed.
Lemma convert_part d s args text r : spelled d s -> convert d args = Ok (text, r) -> exists a, args = a ++ r /\ part (lit "%" ++ s) a text /\ s <> [].
Proof.
  intros S H. destruct S as [m z f w ws p ps l ll c F W NZ P L]. unfold convert in H. cbn [width precision minus zero long conversion] in H.
  destruct (value_of w args) as [[v r1]| | |] eqn:EV; try discriminate. cbn [bind] in H.
  destruct (precision_of p r1) as [[q r2]| | |] eqn:EP; try discriminate. cbn [bind] in H.
  destruct (value_amount w ws args v r1 W NZ EV) as (wa & -> & A). destruct (value_exactness p ps r1 q r2 P EP) as (pa & -> & X).
  assert (Q0 : 0 <= wanted q). { destruct (exactness_value q ps pa [] X) as (_ & _ & _ & Q). exact Q. }
  assert (NE : f ++ ws ++ ps ++ ll ++ [c] <> []) by (rewrite !app_assoc; intros E; apply app_eq_nil in E; destruct E; discriminate).
  assert (Num : forall base capitals signed, kind c base capitals signed ->
    (do (a, args) <- take r2; do z0 <- integer a l signed;
     Ok (fill (m || (v <? 0)) (z && match q with None => true | Some _ => false end) (Z.abs v) (if z0 <? 0 then [45] else []) (body_of q base (if capitals then 65 else 97) (Z.abs z0)), args)) = Ok (text, r) ->
    exists a, wa ++ pa ++ r2 = a ++ r /\ part (lit "%" ++ f ++ ws ++ ps ++ ll ++ [c]) a text).
  { intros base capitals signed K E. destruct r2 as [|a r2]; [discriminate|]. cbn [take bind] in E. destruct (integer a l signed) as [n| | |] eqn:EI; try discriminate. cbn [bind] in E.
    inversion E; subst. destruct (integer_inv _ _ _ _ EI) as [-> R]. exists (wa ++ pa ++ [if l then ALong n else AInt n]). split; [rewrite <- !app_assoc; reflexivity|].
    eapply Integer; [exact F|exact A|exact X|exact L|exact K|exact R| |apply justified_fill; reflexivity].
    apply body_numeral; [exact (kind_base _ _ _ _ K)|exact (in_range_abs _ _ _ R)|exact Q0]. }
  assert (Fin : (exists a, wa ++ pa ++ r2 = a ++ r /\ part (lit "%" ++ f ++ ws ++ ps ++ ll ++ [c]) a text)).
  { destruct ((c =? 100) || (c =? 105)) eqn:C1; [apply (Num 10 false true); [unfold kind; cbn; assert (c = 100 \/ c = 105) as [->| ->] by lia; auto|exact H]|].
    destruct (Z.eqb_spec c 117) as [->|C2]; [apply (Num 10 false false); [unfold kind; cbn; auto|exact H]|].
    destruct (Z.eqb_spec c 120) as [->|C3]; [apply (Num 16 false false); [unfold kind; cbn; auto|exact H]|].
    destruct (Z.eqb_spec c 88) as [->|C4]; [apply (Num 16 true false); [unfold kind; cbn; tauto|exact H]|].
    destruct ((c =? 99) && negb l && negb z && match q with None => true | Some _ => false end) eqn:C5.
    - assert (c = 99 /\ l = false /\ z = false /\ q = None) as (-> & -> & -> & ->) by (destruct l, z, q; try (rewrite ?andb_false_r in C5; discriminate); rewrite !andb_true_r in C5; repeat split; lia).
      destruct r2 as [|a r2]; [discriminate|]. cbn [take bind] in H. destruct (integer a false true) as [n| | |] eqn:EI; try discriminate. cbn [bind] in H. inversion H; subst.
      destruct (integer_inv _ _ _ _ EI) as [-> R]. destruct L as [[_ ->]|[X' _]]; [|discriminate]. exists (wa ++ pa ++ [AInt n]). split; [rewrite <- !app_assoc; reflexivity|].
      eapply (Char m f (v <? 0) (Z.abs v) ws wa None); [exact F|exact A|exact X|reflexivity|exact R|apply justified_fill; reflexivity].
    - destruct ((c =? 115) && negb l && negb z) eqn:C6; [|discriminate].
      assert (c = 115 /\ l = false /\ z = false) as (-> & -> & ->) by (destruct l, z; try (rewrite ?andb_false_r in C6; discriminate); rewrite !andb_true_r in C6; repeat split; lia).
      destruct r2 as [|a r2]; [discriminate|]. cbn [take bind] in H. destruct a as [z|z|[s|]|]; try discriminate. inversion H; subst.
      destruct L as [[_ ->]|[X' _]]; [|discriminate]. exists (wa ++ pa ++ [AStr (Some s)]). split; [rewrite <- !app_assoc; reflexivity|].
      eapply (Chars m f (v <? 0) (Z.abs v) ws wa q ps pa s (c_str s)); [exact F|exact A|exact X|apply visible_of|apply justified_fill; reflexivity]. }
  destruct Fin as (a & E & Pa). exists a. split; [exact E|]. split; [exact Pa|exact NE].
Qed.
(** ** C91 *)
Definition pieces := list (list Z * list arg * list Z).
Definition format_of (l : pieces) : list Z := concat (map (fun x => fst (fst x)) l).
Definition args_of (l : pieces) : list arg := concat (map (fun x => snd (fst x)) l).
Definition text_of (l : pieces) : list Z := concat (map snd l).
Definition proper (l : pieces) : Prop := Forall (fun x => part (fst (fst x)) (snd (fst x)) (snd x)) l.

Lemma part_no_nul f a t : part f a t -> no_nul f /\ f <> [].
Proof.
  assert (Fl : forall m z f, flagged m z f -> no_nul f).
  { intros m z g (F & _) I. rewrite Forall_forall in F. specialize (F 0 I). lia. }
  assert (Am : forall l w ws wa, amount l w ws wa -> no_nul ws).
  { intros l w ws wa A. destruct A as [|d ds s D _| |]; [intros []|exact (digits_no_nul _ _ _ D)|intros [X|[]]; discriminate|intros [X|[]]; discriminate]. }
  assert (Ex : forall p ps pa, exactness p ps pa -> no_nul ps).
  { intros p ps pa X. destruct X as [|ds s D| |]; [intros []|intros [X|X]; [discriminate|exact (digits_no_nul _ _ _ D X)]|intros [X|[X|[]]]; discriminate|intros [X|[X|[]]]; discriminate]. }
  assert (Ap : forall a b, no_nul a -> no_nul b -> no_nul (a ++ b)) by (intros x y X Y I; apply in_app_or in I; destruct I; [exact (X H)|exact (Y H)]).
  intros H. destruct H; (split; [|discriminate]).
  - intros [X|[]]; contradiction.
  - intros [X|[X|[]]]; discriminate.
  - apply Ap; [intros [X|[]]; discriminate|]. apply Ap; [eauto|]. apply Ap; [eauto|]. apply Ap; [eauto|]. apply Ap.
    + destruct H2 as [[_ ->]|[_ [->| ->]]]; [intros []|intros [X|[]]; discriminate|intros [X|[X|[]]]; discriminate].
    + intros [X|[]]. subst c. unfold kind in H3; cbn in H3; intuition congruence.
  - apply Ap; [intros [X|[]]; discriminate|]. apply Ap; [eauto|]. apply Ap; [eauto|]. apply Ap; [eauto|]. intros [X|[]]; discriminate.
  - apply Ap; [intros [X|[]]; discriminate|]. apply Ap; [eauto|]. apply Ap; [eauto|]. apply Ap; [eauto|]. intros [X|[]]; discriminate.
Qed.
Lemma proper_no_nul l : proper l -> no_nul (format_of l).
Proof.
  intros F. unfold format_of. induction F as [|x l P F IH]; [intros []|]. cbn [map concat]. intros I. apply in_app_or in I.
  destruct I as [I|I]; [exact (proj1 (part_no_nul _ _ _ P) I)|exact (IH I)].
Qed.
Lemma print_proper l : proper l -> forall fuel extra, (length (format_of l) < fuel)%nat -> print fuel (format_of l) (args_of l ++ extra) = Ok (text_of l).
Proof.
  unfold format_of, args_of, text_of. intros F. induction F as [|x l P F IH]; intros fuel extra L; [destruct fuel; reflexivity|]. destruct fuel as [|k]; [lia|].
  cbn [map concat] in *. rewrite <- app_assoc. rewrite (part_print _ _ _ P). rewrite app_length in L.
  destruct (part_no_nul _ _ _ P) as [_ NE]. assert (1 <= length (fst (fst x)))%nat by (destruct (fst (fst x)); [contradiction|cbn [length]; lia]).
  rewrite IH by lia. reflexivity.
Qed.
(** A format made of parts, with an argument of the right type and range for each directive, gives
    the texts of the parts one after the other; arguments left over do not matter. *)
Theorem C91_render l extra tail : proper l -> tail = [] \/ hd 1 tail = 0 -> denotes (format_of l ++ tail) (args_of l ++ extra) = Ok (text_of l).
Proof.
  intros P T. unfold denotes. rewrite c_str_app by (apply proper_no_nul; exact P).
  replace (c_str tail) with (@nil Z) by (destruct T as [->|T]; [reflexivity|]; destruct tail; [discriminate|]; cbn [hd] in T; subst; reflexivity).
  rewrite app_nil_r. apply print_proper; [exact P|lia].
Qed.
Print Assumptions C91_render.
Lemma print_inv fuel : forall f args t, (length f < fuel)%nat -> no_nul f -> print fuel f args = Ok t -> exists l extra, proper l /\ f = format_of l /\ args = args_of l ++ extra /\ t = text_of l.
Proof.
  induction fuel as [|k IH]; intros f args t L N H; [lia|]. destruct f as [|c f].
  - exists [], args. cbn [print] in H. inversion H; subst. split; [constructor|]. auto.
  - cbn [length] in L. assert (Nf : no_nul f) by (intros I; apply N; right; exact I). cbn [print] in H. destruct (Z.eqb_spec c 37) as [->|C].
    + destruct f as [|c' f']; [discriminate|]. cbn [length] in L. destruct (Z.eqb_spec c' 37) as [->|C'].
      * destruct (print k f' args) as [r| | |] eqn:E; try discriminate. cbn [bind] in H. inversion H; subst.
        destruct (IH f' args r ltac:(lia) ltac:(intros I; apply Nf; right; exact I) E) as (l & extra & P & -> & -> & ->).
        exists ((lit "%%", [], lit "%") :: l), extra. split; [constructor; [constructor|exact P]|]. split; [reflexivity|]. split; reflexivity.
      * destruct (parse (c' :: f')) as [[d rest]|] eqn:EP; [|discriminate]. destruct (parse_inv _ _ _ EP) as (s & Es & Sp).
        destruct (convert d args) as [[tx ar]| | |] eqn:EC; try discriminate. cbn [bind] in H. destruct (print k rest ar) as [r| | |] eqn:E; try discriminate. cbn [bind] in H. inversion H; subst.
        destruct (convert_part _ _ _ _ _ Sp EC) as (a & -> & Pa & NE).
        assert (LR : (length (c' :: f') = length s + length rest)%nat) by (rewrite Es, app_length; reflexivity). cbn [length] in LR.
        assert (NR : no_nul rest) by (intros I; apply Nf; rewrite Es; apply in_or_app; right; exact I).
        destruct (IH rest ar r ltac:(lia) NR E) as (l & extra & P & Er & -> & ->).
        exists ((lit "%" ++ s, a, tx) :: l), extra. split; [constructor; [exact Pa|exact P]|]. split; [rewrite Es, Er; reflexivity|]. split; [unfold args_of; cbn [map concat fst snd]; apply app_assoc|reflexivity].
    + destruct (print k f args) as [r| | |] eqn:E; try discriminate. cbn [bind] in H. inversion H; subst.
      destruct (IH f args r ltac:(lia) Nf E) as (l & extra & P & -> & -> & ->).
      exists (([c], [], [c]) :: l), extra. split; [constructor; [|exact P]|]; [constructor; [exact C|intros ->; apply N; left; reflexivity]|]. split; [reflexivity|]. split; reflexivity.
Qed.
(** Nothing else is defined: a format with a stray percent sign, a directive without its argument or
    with one of another type, or a NULL text. *)
Theorem C91_defined fmt args text : denotes fmt args = Ok text -> exists l extra, proper l /\ visible fmt (format_of l) /\ args = args_of l ++ extra /\ text = text_of l.
Proof.
  unfold denotes. intros H. pose proof (visible_of fmt) as V. destruct (print_inv _ _ _ _ ltac:(apply Nat.lt_succ_diag_r) (proj1 V) H) as (l & extra & P & E & A & T).
  exists l, extra. rewrite E in V. auto.
Qed.
Print Assumptions C91_defined.
(** Each directive has exactly one text for its arguments. *)
Theorem C91_unique f a t t' : part f a t -> part f a t' -> t = t'.
Proof.
  intros P P'. pose proof (C91_render [(f, a, t)] [] [] ltac:(constructor; [exact P|constructor]) (or_introl eq_refl)) as A.
  pose proof (C91_render [(f, a, t')] [] [] ltac:(constructor; [exact P'|constructor]) (or_introl eq_refl)) as B.
  unfold format_of, args_of, text_of in A, B. cbn [map concat fst snd] in A, B. rewrite !app_nil_r in A, B. rewrite A in B. inversion B. reflexivity.
Qed.
Print Assumptions C91_unique.
Theorem C91_exists m z f left w ws wa p ps pa l ll c base capitals signed n :
  flagged m z f -> amount left w ws wa -> exactness p ps pa -> lengthy l ll -> kind c base capitals signed -> in_range l signed n ->
  exists text, part (lit "%" ++ f ++ ws ++ ps ++ ll ++ [c]) (wa ++ pa ++ [if l then ALong n else AInt n]) text.
Proof.
  intros F A X L K R. eexists. eapply Integer; [exact F|exact A|exact X|exact L|exact K|exact R| |apply justified_fill; reflexivity].
  destruct (exactness_value p ps pa [] X) as (_ & _ & _ & Q). apply body_numeral; [exact (kind_base _ _ _ _ K)|exact (in_range_abs _ _ _ R)|exact Q].
Qed.
Print Assumptions C91_exists.
(** No field is cut, whatever its width. *)
Theorem C91_not_cut m z f left w ws wa p ps pa l ll c base capitals signed n body text :
  flagged m z f -> amount left w ws wa -> exactness p ps pa -> lengthy l ll -> kind c base capitals signed -> in_range l signed n ->
  numeral base capitals (match p with Some p => p | None => 1 end) (Z.abs n) body ->
  denotes (lit "%" ++ f ++ ws ++ ps ++ ll ++ [c]) (wa ++ pa ++ [if l then ALong n else AInt n]) = Ok text ->
  Z.of_nat (length text) = Z.max w (Z.of_nat (length body) + if n <? 0 then 1 else 0) /\ exists a b, text = a ++ body ++ b.
Proof.
  intros F A X L K R N H. set (sign := if n <? 0 then lit "-" else []).
  assert (P : part (lit "%" ++ f ++ ws ++ ps ++ ll ++ [c]) (wa ++ pa ++ [if l then ALong n else AInt n]) (fill (m || left) (z && none p) w sign body)).
  { eapply Integer; [exact F|exact A|exact X|exact L|exact K|exact R|exact N|apply justified_fill; reflexivity]. }
  pose proof (C91_render [(_, _, _)] [] [] ltac:(constructor; [exact P|constructor]) (or_introl eq_refl)) as E.
  unfold format_of, args_of, text_of in E. cbn [map concat fst snd] in E. rewrite !app_nil_r in E. rewrite E in H. inversion H as [T]. clear H E.
  destruct (proj2 (justified_fill (m || left) (z && none p) w sign body _) eq_refl) as (pad & Le & _ & Te). rewrite Le, app_length.
  split; [subst sign; destruct (n <? 0); [change (length (lit "-")) with 1%nat|cbn [length]]; lia|]. rewrite Te.
  destruct (m || left); [exists sign, pad; reflexivity|]. destruct (z && none p); [exists (sign ++ pad), []|exists (pad ++ sign), []]; rewrite app_nil_r, <- app_assoc; reflexivity.
Qed.
Print Assumptions C91_not_cut.
(** ** The formats of the library *)
Lemma flag_none : flagged false false [].
Proof. split; [constructor|]. split; (split; [intros []|discriminate]). Qed.
Lemma flag_zero : flagged false true (lit "0").
Proof. split; [repeat constructor; right; reflexivity|]. split; split; intros X; [destruct X as [X|[]]; discriminate|discriminate|reflexivity|left; reflexivity]. Qed.
Lemma flag_minus : flagged true false (lit "-").
Proof. split; [repeat constructor; left; reflexivity|]. split; split; intros X; [reflexivity|left; reflexivity|destruct X as [X|[]]; discriminate|discriminate]. Qed.
Lemma one_digit d : 1 <= d <= 9 -> amount false d [48 + d] [].
Proof.
  intros R. replace d with (positional 10 [d]) at 1 by (cbn [positional length]; change (10 ^ Z.of_nat 0) with 1; lia).
  apply Written; [|lia]. constructor; [split; [lia|left; lia]|constructor].
Qed.
Lemma spell_dec n : 0 <= n < 10 ^ 20 -> spell 64 10 97 n = dec_digits 20 n.
Proof.
  intros R. apply (numeral_unique 10 false 1 n); [lia| |].
  - destruct (spell_spec 10 97 (or_introl eq_refl) (or_introl eq_refl) 64%nat n ltac:(split; [lia|]; apply Z.lt_trans with (10 ^ 20); [lia|reflexivity]) ltac:(lia)) as (d & ds & D & V & N & C).
    exists (d :: ds). split; [exact D|]. split; [exact V|]. split; [cbn [length]; lia|]. split; [cbn [hd]; intros H; destruct (N H) as [_ ->]; reflexivity|exact C].
  - destruct (dec_digits_spec 20 n R ltac:(lia)) as (d & ds & D & V & N). exists (d :: ds). split; [exact D|]. split; [exact V|]. split; [cbn [length]; lia|].
    split; [cbn [hd]; intros H; destruct (N H) as [_ ->]; reflexivity|]. clear - D. induction D as [|? ? ? ? [L C] D IH]; constructor; [unfold char_of_digit in C; lia|exact IH].
Qed.
Lemma fill_plain m z s sign : fill m z 0 sign s = sign ++ s.
Proof.
  unfold fill, blanks, zeros. replace (Z.to_nat (0 - Z.of_nat (length (sign ++ s)))) with O by lia. cbn [repeat]. destruct m; [rewrite app_nil_r; reflexivity|]. destruct z; reflexivity.
Qed.
Lemma dec_numeral n : 0 <= n < 2 ^ 64 -> numeral 10 false 1 n (dec_digits 20 n).
Proof.
  intros R. rewrite <- spell_dec by lia. exact (body_numeral 10 false None n (or_introl eq_refl) R ltac:(cbn; lia)).
Qed.
Lemma part_number (l signed : bool) c n : In (l, signed, c) [(false, true, lit "d"); (false, false, lit "u"); (true, true, lit "ld")] -> in_range l signed n ->
  part (lit "%" ++ c) [if l then ALong n else AInt n] (sprintf_ld n).
Proof.
  intros I R. pose proof (in_range_abs _ _ _ R) as B. replace (sprintf_ld n) with (fill false false 0 (if n <? 0 then lit "-" else []) (dec_digits 20 (Z.abs n))).
  2: { rewrite fill_plain. unfold sprintf_ld. destruct (Z.ltb_spec n 0); [rewrite Z.abs_neq by lia; reflexivity|rewrite Z.abs_eq by lia; reflexivity]. }
  destruct I as [I|[I|[I|[]]]]; inversion I; subst l signed c;
  [change (lit "%" ++ lit "d") with (lit "%" ++ [] ++ [] ++ [] ++ [] ++ [100])|change (lit "%" ++ lit "u") with (lit "%" ++ [] ++ [] ++ [] ++ [] ++ [117])|change (lit "%" ++ lit "ld") with (lit "%" ++ [] ++ [] ++ [] ++ lit "l" ++ [100])].
  - change [if false then ALong n else AInt n] with ([] ++ [] ++ [if false then ALong n else AInt n]).
    eapply (Integer false false [] false 0 [] [] None [] [] false [] 100 10 false true n); [exact flag_none|constructor|constructor|left; auto|left; reflexivity|exact R|apply dec_numeral; exact B|apply justified_fill; reflexivity].
  - change [if false then ALong n else AInt n] with ([] ++ [] ++ [if false then ALong n else AInt n]).
    eapply (Integer false false [] false 0 [] [] None [] [] false [] 117 10 false false n); [exact flag_none|constructor|constructor|left; auto|right; right; left; reflexivity|exact R|apply dec_numeral; exact B|apply justified_fill; reflexivity].
  - change [if true then ALong n else AInt n] with ([] ++ [] ++ [if true then ALong n else AInt n]).
    eapply (Integer false false [] false 0 [] [] None [] [] true (lit "l") 100 10 false true n); [exact flag_none|constructor|constructor|right; auto|left; reflexivity|exact R|apply dec_numeral; exact B|apply justified_fill; reflexivity].
Qed.
Lemma part_pad (zero : bool) k n : 1 <= k <= 9 -> in_range false true n -> (zero = false -> k = 1) -> part (lit "%" ++ (if zero then lit "0" else []) ++ [48 + k; 100]) [AInt n] (pad0 (Z.to_nat k) n).
Proof.
  intros K R Zk. pose proof (in_range_abs _ _ _ R) as B.
  replace (pad0 (Z.to_nat k) n) with (fill false zero k (if n <? 0 then lit "-" else []) (dec_digits 20 (Z.abs n))).
  - change [48 + k; 100] with ([48 + k] ++ [] ++ [] ++ [100]). change [AInt n] with ([] ++ [] ++ [if false then ALong n else AInt n]).
    eapply (Integer false zero (if zero then lit "0" else []) false k [48 + k] [] None [] [] false [] 100 10 false true n);
    [destruct zero; [exact flag_zero|exact flag_none]|apply one_digit; exact K|constructor|left; auto|left; reflexivity|exact R|apply dec_numeral; exact B|apply justified_fill; rewrite andb_true_r; reflexivity].
  - destruct (dec_digits_spec 20 (Z.abs n) ltac:(change (10 ^ Z.of_nat 20) with (10 ^ 20); lia) ltac:(lia)) as (d & ds & D & _ & _). pose proof (string_length _ _ _ D) as SL. cbn [length] in SL.
    unfold fill, pad0, zeros. rewrite app_length. destruct (Z.ltb_spec n 0) as [L|L].
    + change (length (lit "-")) with 1%nat. destruct zero; [f_equal; f_equal; f_equal; lia|]. specialize (Zk eq_refl). subst k. unfold blanks.
      replace (Z.to_nat (1 - Z.of_nat (1 + length (dec_digits 20 (Z.abs n))))) with O by lia. replace (Z.to_nat 1 - 1 - length (dec_digits 20 (Z.abs n)))%nat with O by lia. reflexivity.
    + cbn [length app]. destruct zero; [f_equal; f_equal; lia|]. specialize (Zk eq_refl). subst k. unfold blanks.
      replace (Z.to_nat (1 - Z.of_nat (0 + length (dec_digits 20 (Z.abs n))))) with O by lia. replace (Z.to_nat 1 - length (dec_digits 20 (Z.abs n)))%nat with O by lia. reflexivity.
Qed.
Lemma part_s s : part (lit "%s") [AStr (Some s)] (c_str s).
Proof.
  change (lit "%s") with (lit "%" ++ [] ++ [] ++ [] ++ lit "s"). change [AStr (Some s)] with ([] ++ [] ++ [AStr (Some s)]).
  eapply (Chars false [] false 0 [] [] None [] [] s); [exact flag_none|constructor|constructor|apply visible_of|apply justified_fill; symmetry; apply fill_plain].
Qed.
Definition plain (s : list Z) : pieces := map (fun c => ([c], [], [c])) s.
Definition dn (n : Z) : pieces := [(lit "%d", [AInt n], sprintf_ld n)].
Definition un (n : Z) : pieces := [(lit "%u", [AInt n], sprintf_ld n)].
Definition ldn (n : Z) : pieces := [(lit "%ld", [ALong n], sprintf_ld n)].
Definition sn (s : list Z) : pieces := [(lit "%s", [AStr (Some s)], c_str s)].
Definition padn (k n : Z) : pieces := [(lit "%0" ++ [48 + k; 100], [AInt n], pad0 (Z.to_nat k) n)].
Lemma proper_plain s : Forall (fun c => c <> 37 /\ c <> 0) s -> proper (plain s).
Proof. intros F. unfold proper, plain. apply Forall_map. apply Forall_impl with (2 := F). intros c [A B]. apply Plain; assumption. Qed.
Lemma proper_app a b : proper a -> proper b -> proper (a ++ b).
Proof. intros A B. apply Forall_app. split; assumption. Qed.
Lemma proper_d n : in_range false true n -> proper (dn n).
Proof. intros R. constructor; [|constructor]. apply (part_number false true (lit "d") n); [left; reflexivity|exact R]. Qed.
Lemma proper_u n : in_range false false n -> proper (un n).
Proof. intros R. constructor; [|constructor]. apply (part_number false false (lit "u") n); [right; left; reflexivity|exact R]. Qed.
Lemma proper_ld n : in_range true true n -> proper (ldn n).
Proof. intros R. constructor; [|constructor]. apply (part_number true true (lit "ld") n); [right; right; left; reflexivity|exact R]. Qed.
Lemma proper_s s : proper (sn s).
Proof. constructor; [apply part_s|constructor]. Qed.
Lemma proper_pad k n : 1 <= k <= 9 -> in_range false true n -> proper (padn k n).
Proof. intros K R. constructor; [|constructor]. apply (part_pad true k n K R). discriminate. Qed.
Lemma use l fmt args text : proper l -> format_of l = fmt -> args_of l = args -> text_of l = text -> denotes fmt args = Ok text.
Proof. intros P <- <- <-. pose proof (C91_render l [] [] P (or_introl eq_refl)) as R. rewrite !app_nil_r in R. exact R. Qed.
Ltac proper_pieces := repeat match goal with
  | |- proper (_ ++ _) => apply proper_app
  | |- proper (plain _) => apply proper_plain; repeat constructor; discriminate
  | |- proper (dn _) => apply proper_d
  | |- proper (un _) => apply proper_u
  | |- proper (ldn _) => apply proper_ld
  | |- proper (sn _) => apply proper_s
  | |- proper (padn _ _) => apply proper_pad; [lia|]
  end.
Lemma text_app a b : text_of (a ++ b) = text_of a ++ text_of b.
Proof. unfold text_of. rewrite map_app, concat_app. reflexivity. Qed.
Lemma text_plain s : text_of (plain s) = s.
Proof. unfold text_of, plain. rewrite map_map. cbn [snd]. induction s; cbn [map concat app]; [reflexivity|f_equal; assumption]. Qed.
Lemma text_one x : text_of [x] = snd x.
Proof. unfold text_of. cbn [map concat]. apply app_nil_r. Qed.
Ltac text_pieces := rewrite ?text_app, ?text_plain; unfold dn, un, ldn, sn, padn; rewrite ?text_one; cbn [snd]; rewrite <- ?app_assoc.
Ltac use_pieces l := apply (use l); [proper_pieces|reflexivity|reflexivity|text_pieces].

(** %ld, %d and %u give the shortest decimal numeral, which strtol reads back. *)
Theorem C91_decimal n :
  (in_range true true n -> denotes (lit "%ld") [ALong n] = Ok (sprintf_ld n) /\ strtol (sprintf_ld n) = n) /\
  (in_range false true n -> denotes (lit "%d") [AInt n] = Ok (sprintf_ld n) /\ strtol (sprintf_ld n) = n) /\
  (in_range false false n -> denotes (lit "%u") [AInt n] = Ok (sprintf_ld n) /\ strtol (sprintf_ld n) = n).
Proof.
  assert (S : - 2 ^ 63 <= n < 2 ^ 63 -> strtol (sprintf_ld n) = n).
  { intros R. pose proof (number_sprintf n R) as N. unfold ConfigModel.number in N.
    assert (NN : no_nul (sprintf_ld n) /\ sprintf_ld n <> []).
    { assert (0 <= Z.abs n < 10 ^ Z.of_nat 20) by (change (10 ^ Z.of_nat 20) with (10 ^ 20); lia). destruct (dec_digits_spec 20 (Z.abs n) H ltac:(lia)) as (d & ds & D & _). unfold sprintf_ld. destruct (Z.ltb_spec n 0).
      - rewrite Z.abs_neq in D by lia. split; [|discriminate]. intros [X|X]; [discriminate|exact (digits_no_nul _ _ _ D X)].
      - rewrite Z.abs_eq in D by lia. split; [exact (digits_no_nul _ _ _ D)|]. intros X. rewrite X in D. inversion D. }
    destruct NN as [N0 N1]. rewrite c_str_id in N by exact N0. destruct (sprintf_ld n); [contradiction|exact N]. }
  split; [|split]; intros R; (split; [|apply S; unfold in_range in R; lia]).
  - use_pieces (ldn n); [exact R|reflexivity].
  - use_pieces (dn n); [exact R|reflexivity].
  - use_pieces (un n); [exact R|reflexivity].
Qed.
Print Assumptions C91_decimal.
(** The formats of the times. *)
Theorem C91_times y mo d h mi s tenths z : in_range false true y -> in_range false true mo -> in_range false true d -> in_range false true h -> in_range false true mi ->
  in_range false true s -> in_range false true tenths ->
  denotes (lit "%04d-%02d-%02dT%02d:%02d:%02d%s") [AInt y; AInt mo; AInt d; AInt h; AInt mi; AInt s; AStr (Some z)] =
    Ok (pad0 4 y ++ lit "-" ++ pad0 2 mo ++ lit "-" ++ pad0 2 d ++ lit "T" ++ pad0 2 h ++ lit ":" ++ pad0 2 mi ++ lit ":" ++ pad0 2 s ++ c_str z) /\
  denotes (lit " %02d:%02d:%02d.%1d") [AInt h; AInt mi; AInt s; AInt tenths] =
    Ok (lit " " ++ pad0 2 h ++ lit ":" ++ pad0 2 mi ++ lit ":" ++ pad0 2 s ++ lit "." ++ pad0 1 tenths) /\
  denotes (lit " %04d-%02d-%02dT%02d:%02d:%02d.%1d") [AInt y; AInt mo; AInt d; AInt h; AInt mi; AInt s; AInt tenths] =
    Ok (lit " " ++ pad0 4 y ++ lit "-" ++ pad0 2 mo ++ lit "-" ++ pad0 2 d ++ lit "T" ++ pad0 2 h ++ lit ":" ++ pad0 2 mi ++ lit ":" ++ pad0 2 s ++ lit "." ++ pad0 1 tenths).
Proof.
  intros Ry Rmo Rd Rh Rmi Rs Rt.
  assert (PT : proper [(lit "%1d", [AInt tenths], pad0 1 tenths)]).
  { constructor; [|constructor]. apply (part_pad false 1 tenths); [lia|exact Rt|reflexivity]. }
  split; [|split].
  - use_pieces (padn 4 y ++ plain (lit "-") ++ padn 2 mo ++ plain (lit "-") ++ padn 2 d ++ plain (lit "T") ++ padn 2 h ++ plain (lit ":") ++ padn 2 mi ++ plain (lit ":") ++ padn 2 s ++ sn z); try assumption. reflexivity.
  - use_pieces (plain (lit " ") ++ padn 2 h ++ plain (lit ":") ++ padn 2 mi ++ plain (lit ":") ++ padn 2 s ++ plain (lit ".") ++ [(lit "%1d", [AInt tenths], pad0 1 tenths)]); try assumption. reflexivity.
  - use_pieces (plain (lit " ") ++ padn 4 y ++ plain (lit "-") ++ padn 2 mo ++ plain (lit "-") ++ padn 2 d ++ plain (lit "T") ++ padn 2 h ++ plain (lit ":") ++ padn 2 mi ++ plain (lit ":") ++ padn 2 s ++ plain (lit ".") ++ [(lit "%1d", [AInt tenths], pad0 1 tenths)]); try assumption. reflexivity.
Qed.
Print Assumptions C91_times.
(** The statements given to the database, with the texts of ReportModel, RowModel and SqlModel. *)
Theorem C91_statements name v now a b c d n : no_nul name -> in_range false false v -> in_range true true now -> in_range false false n ->
  denotes (lit "INSERT OR IGNORE INTO REPORTING (NAME,CLEAREDTIME) VALUES (""%s"",%ld)") [AStr (Some name); ALong now] = Ok (create_text name now) /\
  denotes (lit "UPDATE REPORTING SET VALUE=MAX(VALUE,%u), UPDATETIME=%ld WHERE NAME=""%s""") [AInt v; ALong now; AStr (Some name)] = Ok (max_text name v now) /\
  denotes (lit "UPDATE REPORTING SET VALUE=0, UPDATETIME=0, CLEAREDTIME=%ld WHERE NAME=""%s""") [ALong now; AStr (Some name)] = Ok (clear_text name now) /\
  denotes (lit "UPDATE REPORTING SET VALUE=VALUE+%u, UPDATETIME=%ld WHERE NAME=""%s""") [AInt v; ALong now; AStr (Some name)] = Ok (commit_text name v now) /\
  denotes (lit "%s.%u") [AStr (Some name); AInt n] = Ok (index_text name n) /\
  denotes (lit "SELECT %s FROM %s %s") [AStr (Some a); AStr (Some b); AStr (Some c)] = Ok (lit "SELECT " ++ c_str a ++ lit " FROM " ++ c_str b ++ lit " " ++ c_str c) /\
  denotes (lit "SELECT %s FROM %s WHERE %s == ""%s""") [AStr (Some a); AStr (Some b); AStr (Some c); AStr (Some d)] =
    Ok (lit "SELECT " ++ c_str a ++ lit " FROM " ++ c_str b ++ lit " WHERE " ++ c_str c ++ lit " == """ ++ c_str d ++ lit """") /\
  denotes (lit "SELECT %s FROM %s WHERE %s == %u") [AStr (Some a); AStr (Some b); AStr (Some c); AInt n] =
    Ok (lit "SELECT " ++ c_str a ++ lit " FROM " ++ c_str b ++ lit " WHERE " ++ c_str c ++ lit " == " ++ sprintf_ld n) /\
  denotes (lit "WHERE %s == '%s'") [AStr (Some a); AStr (Some b)] = Ok (lit "WHERE " ++ c_str a ++ lit " == '" ++ c_str b ++ lit "'") /\
  denotes (lit "WHERE %s == %u") [AStr (Some a); AInt n] = Ok (lit "WHERE " ++ c_str a ++ lit " == " ++ sprintf_ld n).
Proof.
  intros N Rv Rn Ri.
  repeat match goal with |- _ /\ _ => split end.
  - use_pieces (plain (lit "INSERT OR IGNORE INTO REPORTING (NAME,CLEAREDTIME) VALUES (""") ++ sn name ++ plain (lit """,") ++ ldn now ++ plain (lit ")")); try assumption. rewrite (c_str_id name N). reflexivity.
  - use_pieces (plain (lit "UPDATE REPORTING SET VALUE=MAX(VALUE,") ++ un v ++ plain (lit "), UPDATETIME=") ++ ldn now ++ plain (lit " WHERE NAME=""") ++ sn name ++ plain (lit """")); try assumption. rewrite (c_str_id name N). reflexivity.
  - use_pieces (plain (lit "UPDATE REPORTING SET VALUE=0, UPDATETIME=0, CLEAREDTIME=") ++ ldn now ++ plain (lit " WHERE NAME=""") ++ sn name ++ plain (lit """")); try assumption. rewrite (c_str_id name N). reflexivity.
  - use_pieces (plain (lit "UPDATE REPORTING SET VALUE=VALUE+") ++ un v ++ plain (lit ", UPDATETIME=") ++ ldn now ++ plain (lit " WHERE NAME=""") ++ sn name ++ plain (lit """")); try assumption. rewrite (c_str_id name N). reflexivity.
  - use_pieces (sn name ++ plain (lit ".") ++ un n); try assumption. rewrite (c_str_id name N). reflexivity.
  - use_pieces (plain (lit "SELECT ") ++ sn a ++ plain (lit " FROM ") ++ sn b ++ plain (lit " ") ++ sn c); try assumption. reflexivity.
  - use_pieces (plain (lit "SELECT ") ++ sn a ++ plain (lit " FROM ") ++ sn b ++ plain (lit " WHERE ") ++ sn c ++ plain (lit " == """) ++ sn d ++ plain (lit """")); try assumption. reflexivity.
  - use_pieces (plain (lit "SELECT ") ++ sn a ++ plain (lit " FROM ") ++ sn b ++ plain (lit " WHERE ") ++ sn c ++ plain (lit " == ") ++ un n); try assumption. reflexivity.
  - use_pieces (plain (lit "WHERE ") ++ sn a ++ plain (lit " == '") ++ sn b ++ plain (lit "'")); try assumption. reflexivity.
  - use_pieces (plain (lit "WHERE ") ++ sn a ++ plain (lit " == ") ++ un n); try assumption. reflexivity.
Qed.
Print Assumptions C91_statements.
(** A cell of printPrettyTable. *)
Theorem C91_cell w v : 0 <= w < 2 ^ 31 -> no_nul v ->
  denotes (lit "%-*s ") [AInt w; AStr (Some v)] = Ok (v ++ repeat 32 (Z.to_nat w - length v) ++ lit " ").
Proof.
  intros R N. apply (use ([(lit "%-*s", [AInt w; AStr (Some v)], v ++ repeat 32 (Z.to_nat w - length v))] ++ plain (lit " "))); [|reflexivity|reflexivity|text_pieces; reflexivity].
  apply proper_app; [|proper_pieces]. constructor; [|constructor]. cbn [fst snd].
  change (lit "%-*s") with (lit "%" ++ lit "-" ++ lit "*" ++ [] ++ lit "s"). change [AInt w; AStr (Some v)] with ([AInt w] ++ [] ++ [AStr (Some v)]).
  eapply (Chars true (lit "-") false w (lit "*") [AInt w] None [] [] v v); [exact flag_minus|constructor; exact R|constructor|split; [exact N|left; reflexivity]|].
  apply justified_fill. unfold fill, blanks. cbn [orb app]. f_equal. f_equal. lia.
Qed.
Print Assumptions C91_cell.
(** Mutex::mutext: the number of locks and the places of the first five of them, a question mark for
    a place that is not known. *)
Definition place (x : option (list Z) * Z) : list Z := match fst x with Some f => lit " " ++ f ++ lit ":" ++ sprintf_ld (snd x) | None => lit " ?" end.
Theorem C91_mutext n files lines : 0 <= n < 2 ^ 31 -> length files = 5%nat -> length lines = 5%nat -> Forall (fun l => 0 <= l < 2 ^ 32) lines ->
  Forall (fun f => forall s, f = Some s -> no_nul s /\ (length s < 180)%nat) files ->
  mutext n files lines = Ok (lit "lockcnt=" ++ sprintf_ld n ++ concat (map place (firstn (Z.to_nat n) (combine files lines)))).
Proof.
  intros R Lf Ll Fl Ff. unfold mutext, format_.
  assert (E : denotes (lit "lockcnt=%d") [AInt n] = Ok (lit "lockcnt=" ++ sprintf_ld n)).
  { use_pieces (plain (lit "lockcnt=") ++ dn n); [unfold in_range; lia|reflexivity]. }
  rewrite E. cbn [bind].
  assert (Short : forall z, in_range false false z -> no_nul (sprintf_ld z) /\ (length (sprintf_ld z) <= 10)%nat).
  { intros z Rz. unfold in_range in Rz. unfold sprintf_ld. replace (z <? 0) with false by lia.
    destruct (dec_digits_spec 20 z ltac:(change (10 ^ Z.of_nat 20) with (10 ^ 20); lia) ltac:(lia)) as (d & ds & D & V & N0). split; [exact (digits_no_nul _ _ _ D)|].
    rewrite <- (string_length _ _ _ D). destruct (le_lt_dec (length (d :: ds)) 10) as [|G]; [assumption|exfalso]. cbn [length] in G.
    assert (Nd : d <> 0) by (intros X; destruct (N0 X) as [_ ->]; cbn in G; lia).
    pose proof (positional_first 10 d ds _ ltac:(lia) D Nd) as B. rewrite V in B.
    assert (10 ^ 10 <= 10 ^ Z.of_nat (length ds)) by (apply Z.pow_le_mono_r; lia). lia. }
  assert (Ap : forall a b, no_nul a -> no_nul b -> no_nul (a ++ b)) by (intros x y X Y I; apply in_app_or in I; destruct I; [exact (X H)|exact (Y H)]).
  assert (W : forall text, no_nul text -> (length text < 199)%nat -> format text = text).
  { intros text A B. apply C42_format_whole; [exact A|lia|lia]. }
  destruct (Short n ltac:(unfold in_range; lia)) as [Sn Sl].
  rewrite W; [|apply Ap; [intros I; cbn in I; intuition discriminate|exact Sn]|rewrite app_length; change (length (lit "lockcnt=")) with 8%nat; lia].
  assert (P : forall k fs ls, (k <= length fs)%nat -> (k <= length ls)%nat -> Forall (fun l => 0 <= l < 2 ^ 32) ls -> Forall (fun f => forall s, f = Some s -> no_nul s /\ (length s < 180)%nat) fs ->
    places k fs ls = Ok (concat (map place (firstn k (combine fs ls))))).
  { induction k as [|k IH]; intros fs ls A B Fl' Ff'; [reflexivity|]. destruct fs as [|f fs]; [cbn in A; lia|]. destruct ls as [|l ls]; [cbn in B; lia|].
    inversion Fl' as [|? ? Rl Fl'']; subst. inversion Ff' as [|? ? Hf Ff'']; subst. cbn [length] in A, B. cbn [map places combine firstn]. unfold format_.
    destruct f as [f|]; [|cbn [bind]; rewrite IH by (try assumption; lia); reflexivity]. destruct (Hf f eq_refl) as [Nf Lf'].
    assert (E2 : denotes (lit " %s:%u") [AStr (Some f); AInt l] = Ok (lit " " ++ f ++ lit ":" ++ sprintf_ld l)).
    { use_pieces (plain (lit " ") ++ sn f ++ plain (lit ":") ++ un l); [exact Rl|]. rewrite (c_str_id f Nf). reflexivity. }
    rewrite E2. cbn [bind]. destruct (Short l Rl) as [Nl Ls].
    rewrite W; [|apply Ap; [intros [X|[]]; discriminate|]; apply Ap; [exact Nf|]; apply Ap; [intros [X|[]]; discriminate|exact Nl]|rewrite !app_length; change (length (lit " ")) with 1%nat; change (length (lit ":")) with 1%nat; lia].
    rewrite IH by (try assumption; lia). reflexivity. }
  rewrite P by (try assumption; lia). cbn [bind].
  replace (firstn (Z.to_nat (Z.min n 5)) (combine files lines)) with (firstn (Z.to_nat n) (combine files lines)).
  2:{ assert (L5 : length (combine files lines) = 5%nat) by (rewrite combine_length; lia). destruct (Z_le_gt_dec n 5) as [H5|H5]; [rewrite Z.min_l by lia; reflexivity|].
      rewrite Z.min_r by lia. rewrite (firstn_all2 (n := Z.to_nat n)) by lia. rewrite firstn_all2 by (rewrite L5; change (Z.to_nat 5) with 5%nat; lia). reflexivity. }
 rewrite <- app_assoc. reflexivity.
Qed.
Print Assumptions C91_mutext.
(** Defects of use: zeros in front make an octal number of it when it is read back as a configuration
    value; a text used as a format must not contain a percent sign; a std::string that contains a
    zero is printed up to there. *)
Theorem C91_octal_refuted : exists n text, in_range false true n /\ denotes (lit "%03d") [AInt n] = Ok text /\ strtol text <> n.
Proof. exists 10, (lit "010"). split; [unfold in_range; lia|]. split; [vm_compute; reflexivity|vm_compute; discriminate]. Qed.
Print Assumptions C91_octal_refuted.
Theorem C91_text_as_format s : no_nul s -> ~ In 37 s -> denotes s [] = Ok s.
Proof.
  intros N P. apply (use (plain s)).
  - apply proper_plain. apply Forall_forall. intros c I. split; intros ->; contradiction.
  - unfold format_of, plain. rewrite map_map. cbn [fst]. induction s; [reflexivity|]. cbn [map concat app]. f_equal. apply IHs; [intros I; apply N; right; exact I|intros I; apply P; right; exact I].
  - unfold args_of, plain. rewrite map_map. cbn [fst snd]. clear. induction s; [reflexivity|exact IHs].
  - apply text_plain.
Qed.
Print Assumptions C91_text_as_format.
Theorem C91_text_as_format_refuted : denotes (lit "100% sure") [] = UB /\ denotes (lit "100%") [] = UB /\ denotes (lit "%s") [] = UB /\
  denotes (lit "%s") [AStr (Some (lit "100% sure"))] = Ok (lit "100% sure") /\ denotes (lit "%d") [ALong 1] = UB /\ denotes (lit "%s") [AStr None] = UB /\
  denotes (lit "%s!") [AStr (Some [65; 0; 66])] = Ok (lit "A!").
Proof. repeat match goal with |- _ /\ _ => split end; vm_compute; reflexivity. Qed.
Print Assumptions C91_text_as_format_refuted.
Example C91_ex :
  denotes (lit "%5d|%-5d|%05d|%5.3d|%.0d|%x|%08lX|%c|%%|%.2s|%*s|%-*s|%u") [AInt (-42); AInt 7; AInt (-42); AInt 7; AInt 0; AInt 48879; ALong 48879; AInt 65; AStr (Some (lit "abc")); AInt 4; AStr (Some (lit "de")); AInt (-4); AStr (Some (lit "fg")); AInt 4294967295]
  = Ok (lit "  -42|7    |-0042|  007||beef|0000BEEF|A|%|ab|  de|fg  |4294967295") /\
  denotes (lit "lockcnt=%d") [AInt 3] = Ok (lit "lockcnt=3") /\ mutext 1 (Some (lit "Logger.cpp") :: repeat None 4) (7 :: repeat 0 4) = Ok (lit "lockcnt=1 Logger.cpp:7") /\
  mutext 2 (repeat None 5) (repeat 0 5) = Ok (lit "lockcnt=2 ? ?") /\ mutext 7 (repeat None 5) (repeat 0 5) = Ok (lit "lockcnt=7 ? ? ? ? ?").
Proof. repeat match goal with |- _ /\ _ => split end; vm_compute; reflexivity. Qed.
