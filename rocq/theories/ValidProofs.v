(** Lemmas about isValidValue. *)
From Verif Require Import Base BaseFacts UtilsModel UtilsSpec UtilsProofs UtilsProofs2 SqlModel SqlProofs ConfigModel ConfigSpec ConfigProofs NumProofs ValidModel ValidSpec.
Local Open Scope Z_scope.

Lemma len_app a b : len (a ++ b) = len a + len b.
Proof. unfold len. rewrite app_length. lia. Qed.
Lemma len_cons c s : len (c :: s) = 1 + len s.
Proof. unfold len. cbn [length]. lia. Qed.
Lemma len_nonneg s : 0 <= len s.
Proof. unfold len. lia. Qed.
Lemma drop_app p s : drop (len p) (p ++ s) = s.
Proof.
  induction p as [|c p IH]; [destruct s; reflexivity|]. rewrite len_cons. pose proof (len_nonneg p). cbn [app drop].
  replace (1 + len p <=? 0) with false by lia. replace (1 + len p - 1) with (len p) by lia. exact IH.
Qed.
Lemma drop_0 s : drop 0 s = s.
Proof. destruct s; reflexivity. Qed.
Lemma take_app a b : take (len a) (a ++ b) = a.
Proof.
  induction a as [|c a IH]; [destruct b; reflexivity|]. rewrite len_cons. pose proof (len_nonneg a). cbn [app take].
  replace (1 + len a <=? 0) with false by lia. replace (1 + len a - 1) with (len a) by lia. rewrite IH. reflexivity.
Qed.
Lemma take_all n s : len s <= n -> take n s = s.
Proof.
  revert n. induction s as [|c s IH]; intros n H; [reflexivity|]. rewrite len_cons in H. pose proof (len_nonneg s). cbn [take].
  replace (n <=? 0) with false by lia. rewrite IH by lia. reflexivity.
Qed.
Lemma find__at c a b : ~ In c a -> forall i, find_ c (a ++ c :: b) i = i + len a.
Proof.
  induction a as [|x a IH]; intros N i; cbn [app find_].
  - rewrite Z.eqb_refl. unfold len. cbn [length]. lia.
  - replace (x =? c) with false by (destruct (x =? c) eqn:E; [exfalso; apply N; left; lia|reflexivity]). rewrite IH by (intros K; apply N; right; exact K). rewrite len_cons. lia.
Qed.
Lemma find__none c a : ~ In c a -> forall i, find_ c a i = npos.
Proof.
  induction a as [|x a IH]; intros N i; cbn [find_]; [reflexivity|].
  replace (x =? c) with false by (destruct (x =? c) eqn:E; [exfalso; apply N; left; lia|reflexivity]). apply IH. intros K. apply N. right. exact K.
Qed.
Lemma find_at p a c b : ~ In c a -> find (p ++ a ++ c :: b) c (len p) = len p + len a.
Proof. intros N. unfold find. rewrite drop_app. apply find__at. exact N. Qed.
Lemma find_none p a c : ~ In c a -> find (p ++ a) c (len p) = npos.
Proof. intros N. unfold find. rewrite drop_app. apply find__none. exact N. Qed.
Lemma find0_at a c b : ~ In c a -> find (a ++ c :: b) c 0 = len a.
Proof. intros N. pose proof (find_at [] a c b N) as H. cbn [app] in H. change (len []) with 0 in H. rewrite H. lia. Qed.
Lemma find0_none a c : ~ In c a -> find a c 0 = npos.
Proof. intros N. pose proof (find_none [] a c N) as H. cbn [app] in H. change (len []) with 0 in H. exact H. Qed.
Lemma substr_at p a b n : len a = n -> substr (p ++ a ++ b) (len p) n = Ok a.
Proof.
  intros <-. unfold substr. rewrite !len_app. pose proof (len_nonneg a). pose proof (len_nonneg b). replace (len p + (len a + len b) <? len p) with false by lia.
  rewrite drop_app, take_app. reflexivity.
Qed.
Lemma substr_rest p a n : len a <= n -> substr (p ++ a) (len p) n = Ok a.
Proof. intros H. unfold substr. rewrite len_app. pose proof (len_nonneg a). replace (len p + len a <? len p) with false by lia. rewrite drop_app, take_all by exact H. reflexivity. Qed.
Lemma substr0_at a b n : len a = n -> substr (a ++ b) 0 n = Ok a.
Proof. intros H. pose proof (substr_at [] a b n H) as E. cbn [app] in E. exact E. Qed.
Lemma substr0_rest a n : len a <= n -> substr a 0 n = Ok a.
Proof. intros H. pose proof (substr_rest [] a n H) as E. cbn [app] in E. exact E. Qed.
Lemma u32_id z : 0 <= z < 2 ^ 32 -> u32 z = z.
Proof. intros H. unfold u32. apply Z.mod_small. exact H. Qed.
Lemma s32_id z : 0 <= z < 2 ^ 31 -> s32 z = z.
Proof. intros H. unfold s32. lia. Qed.
Lemma u32_npos : u32 npos = 2 ^ 32 - 1.
Proof. reflexivity. Qed.
Lemma s32_npos : s32 npos = -1.
Proof. reflexivity. Qed.
Lemma streq_iff a b : streq a b = true <-> a = b.
Proof. unfold streq. destruct (list_eq_dec Z.eq_dec a b); split; congruence. Qed.
Lemma in_split_first (c : Z) (s : list Z) : In c s -> exists a b, s = a ++ c :: b /\ ~ In c a.
Proof.
  induction s as [|x s IH]; intros H; [destruct H|]. destruct (Z.eq_dec x c) as [->|N]; [exists [], s; split; [reflexivity|intros []]|].
  destruct H as [H|H]; [contradiction|]. destruct (IH H) as (a & b & -> & Na). exists (x :: a), b. split; [reflexivity|intros [K|K]; [exact (N K)|exact (Na K)]].
Qed.

(** ** Addresses *)
Definition digit (c : Z) : Prop := 48 <= c <= 57.
Lemma digit_string_map s : Forall digit s <-> exists ds, digit_string 10 ds s.
Proof.
  split.
  - intros H. induction H as [|c s Hc H (ds & IH)]; [exists []; constructor|]. exists (c - 48 :: ds). unfold digit in Hc. constructor; [split; [lia|left; split; lia]|exact IH].
  - intros (ds & H). induction H as [|d c ds s [L C] H IH]; constructor; [unfold digit, char_of_digit in *; lia|exact IH].
Qed.
Lemma positional_cons d ds : positional 10 (d :: ds) = d * 10 ^ Z.of_nat (length ds) + positional 10 ds.
Proof. reflexivity. Qed.
Lemma positional_nonneg ds s : digit_string 10 ds s -> 0 <= positional 10 ds.
Proof. intros H. induction H as [|d c ds s [L C] H IH]; [reflexivity|]. rewrite positional_cons. unfold char_of_digit in C. assert (0 <= 10 ^ Z.of_nat (length ds)) by lia. nia. Qed.

(** Reading the rest of an octet. *)
Lemma pton_saw s : forall k cur, 0 <= cur <= 255 ->
  inet_pton_ s k cur true = true <->
  exists ds t rest, s = t ++ rest /\ digit_string 10 ds t /\ (ds = [] \/ cur <> 0) /\ cur * 10 ^ Z.of_nat (length ds) + positional 10 ds <= 255 /\
    ((4 <= k /\ rest = []) \/ (k <> 4 /\ exists s', rest = 46 :: s' /\ inet_pton_ s' k 0 false = true)).
Proof.
  induction s as [|c s IH]; intros k cur R; cbn [inet_pton_].
  - split.
    + intros H. exists [], [], []. split; [reflexivity|]. split; [constructor|]. split; [left; reflexivity|]. split; [cbn [length positional]; change (10 ^ Z.of_nat 0) with 1; lia|left; split; [lia|reflexivity]].
    + intros (ds & t & rest & E & D & _ & _ & H). symmetry in E. apply app_eq_nil in E. destruct E as [-> ->]. destruct H as [[H _]|(_ & s' & H & _)]; [lia|discriminate].
  - destruct ((48 <=? c) && (c <=? 57)) eqn:Dg; cbn [andb].
    + destruct (cur =? 0) eqn:C0.
      * split; [discriminate|]. intros (ds & t & rest & E & D & [->|Z0] & _ & H); [|lia]. inversion D; subst. cbn [app] in E. subst rest.
        destruct H as [[_ H]|(_ & s' & H & _)]; [discriminate|]. injection H as -> _. lia.
      * destruct (255 <? cur * 10 + (c - 48)) eqn:B.
        -- split; [discriminate|]. intros (ds & t & rest & E & D & _ & V & H). destruct D as [|d x ds t [L C] D].
           { cbn [app] in E. subst rest. destruct H as [[_ H]|(_ & s' & H & _)]; [discriminate|]. injection H as -> _. lia. }
           cbn [app] in E. injection E as -> E. pose proof (positional_nonneg ds t D) as P. rewrite positional_cons in V. cbn [length] in V. rewrite Nat2Z.inj_succ, Z.pow_succ_r in V by lia.
           assert (1 <= 10 ^ Z.of_nat (length ds)) by (assert (0 < 10 ^ Z.of_nat (length ds)) by lia; lia). unfold char_of_digit in C. nia.
        -- rewrite IH by lia. split.
           ++ intros (ds & t & rest & -> & D & Z0 & V & H). exists (c - 48 :: ds), (c :: t), rest. split; [reflexivity|]. split; [constructor; [split; [lia|left; split; lia]|exact D]|].
              split; [right; lia|]. split; [|exact H]. rewrite positional_cons. cbn [length]. rewrite Nat2Z.inj_succ, Z.pow_succ_r by lia. nia.
           ++ intros (ds & t & rest & E & D & Z0 & V & H). destruct D as [|d x ds t [L C] D].
              { cbn [app] in E. subst rest. destruct H as [[_ H]|(_ & s' & H & _)]; [discriminate|]. injection H as -> _. lia. }
              cbn [app] in E. injection E as -> E. exists ds, t, rest. split; [exact E|]. split; [exact D|]. split; [right; unfold char_of_digit in C; lia|]. split; [|exact H].
              rewrite positional_cons in V. cbn [length] in V. rewrite Nat2Z.inj_succ, Z.pow_succ_r in V by lia. assert (d = x - 48) by (unfold char_of_digit in C; lia). nia.
    + rewrite andb_true_r. destruct (c =? 46) eqn:Dot.
      * destruct (k =? 4) eqn:K4.
        -- split; [discriminate|]. intros (ds & t & rest & E & D & _ & _ & H). destruct D as [|d x ds t [L C] D]; [|cbn [app] in E; injection E as -> _; unfold char_of_digit in C; lia].
           cbn [app] in E. subst rest. destruct H as [[_ H]|(H & _)]; [discriminate|lia].
        -- split.
           ++ intros H. exists [], [], (c :: s). split; [reflexivity|]. split; [constructor|]. split; [left; reflexivity|]. split; [cbn [length positional]; change (10 ^ Z.of_nat 0) with 1; lia|].
              right. split; [lia|]. exists s. split; [f_equal; lia|exact H].
           ++ intros (ds & t & rest & E & D & _ & _ & H). destruct D as [|d x ds t [L C] D]; [|cbn [app] in E; injection E as -> _; unfold char_of_digit in C; lia].
              cbn [app] in E. subst rest. destruct H as [[_ H]|(_ & s' & H & P)]; [discriminate|]. injection H as _ <-. exact P.
      * split; [discriminate|]. intros (ds & t & rest & E & D & _ & _ & H). destruct D as [|d x ds t [L C] D]; [|cbn [app] in E; injection E as -> _; unfold char_of_digit in C; lia].
        cbn [app] in E. subst rest. destruct H as [[_ H]|(_ & s' & H & _)]; [discriminate|]. injection H as -> _. lia.
Qed.
Lemma pton_start s k : k < 4 -> inet_pton_ s k 0 false = true <->
  exists o rest, s = o ++ rest /\ octet o /\ ((4 <= k + 1 /\ rest = []) \/ (k + 1 <> 4 /\ exists s', rest = 46 :: s' /\ inet_pton_ s' (k + 1) 0 false = true)).
Proof.
  intros K. destruct s as [|c s]; cbn [inet_pton_].
  - split; [lia|]. intros (o & rest & E & (d & ds & D & _) & _). inversion D; subst. discriminate.
  - destruct ((48 <=? c) && (c <=? 57)) eqn:Dg; cbn [andb].
    + replace (255 <? 0 * 10 + (c - 48)) with false by lia. replace (4 <? k + 1) with false by lia. rewrite Z.mul_0_l, Z.add_0_l.
      rewrite pton_saw by lia. split.
      * intros (ds & t & rest & -> & D & Z0 & V & H). exists (c :: t), rest. split; [reflexivity|]. split; [|exact H].
        exists (c - 48), ds. split; [constructor; [split; [lia|left; split; lia]|exact D]|]. split; [rewrite positional_cons; lia|]. intros E. destruct Z0 as [->|Z0]; [reflexivity|contradiction].
      * intros (o & rest & E & (d & ds & D & V & Z0) & H). inversion D as [|? x ? t [L C] D']; subst. cbn [app] in E. injection E as -> ->.
        exists ds, t, rest. split; [reflexivity|]. split; [exact D'|]. assert (d = x - 48) by (unfold char_of_digit in C; lia). subst d.
        split; [destruct (Z.eq_dec (x - 48) 0) as [E|E]; [left; apply Z0; exact E|right; exact E]|]. split; [rewrite positional_cons in V; exact V|exact H].
    + rewrite andb_false_r. split; [discriminate|]. intros (o & rest & E & (d & ds & D & V & Z0) & H). inversion D as [|? x ? t [L C] D']; subst. cbn [app] in E. injection E as -> _. unfold char_of_digit in C. lia.
Qed.
Lemma pton_spec s : inet_pton_ s 0 0 false = true <-> dotted_quad s.
Proof.
  rewrite pton_start by lia. split.
  - intros (a & ra & -> & A & [[H _]|(_ & sa & -> & Ha)]); [lia|]. rewrite pton_start in Ha by lia.
    destruct Ha as (b & rb & -> & B & [[H _]|(_ & sb & -> & Hb)]); [lia|]. rewrite pton_start in Hb by lia.
    destruct Hb as (c & rc & -> & C & [[H _]|(_ & sc & -> & Hc)]); [lia|]. rewrite pton_start in Hc by lia.
    destruct Hc as (d & rd & -> & D & [[_ ->]|(H & _)]); [|lia]. exists a, b, c, d. rewrite app_nil_r. repeat split; assumption.
  - intros (a & b & c & d & A & B & C & D & ->).
    exists a, (46 :: b ++ 46 :: c ++ 46 :: d). split; [reflexivity|]. split; [exact A|]. right. split; [lia|]. eexists. split; [reflexivity|].
    rewrite pton_start by lia. exists b, (46 :: c ++ 46 :: d). split; [reflexivity|]. split; [exact B|]. right. split; [lia|]. eexists. split; [reflexivity|].
    rewrite pton_start by lia. exists c, (46 :: d). split; [reflexivity|]. split; [exact C|]. right. split; [lia|]. eexists. split; [reflexivity|].
    rewrite pton_start by lia. exists d, []. split; [rewrite app_nil_r; reflexivity|]. split; [exact D|]. left. split; [lia|reflexivity].
Qed.
Lemma isValidIP_spec s : no_nul s -> isValidIP s = true <-> dotted_quad s.
Proof. intros N. unfold isValidIP. rewrite c_str_id by exact N. apply pton_spec. Qed.

(** ** Numbers *)
Lemma digits_prefix s : exists ds t rest, s = t ++ rest /\ digit_string 10 ds t /\ stops 10 rest.
Proof.
  induction s as [|c s (ds & t & rest & -> & D & R)]; [exists [], [], []; repeat split; constructor|].
  destruct (digit_val 10 c) as [d|] eqn:E.
  - destruct (digit_val_inv 10 c d ltac:(lia) E) as [L C]. exists (d :: ds), (c :: t), rest. split; [reflexivity|]. split; [constructor; [split; assumption|exact D]|exact R].
  - exists [], [], (c :: t ++ rest). split; [reflexivity|]. split; [constructor|]. cbn [stops]. intros d L C. rewrite (digit_val_some 10 d c ltac:(lia) L C) in E. discriminate.
Qed.
Lemma stops_zero rest : stops 10 rest -> digits_val 10 rest 0 = 0.
Proof. intros R. pose proof (digits_val_spec 10 ltac:(lia) [] [] rest 0 ltac:(constructor) R) as H. cbn [app] in H. exact H. Qed.
Lemma read_int_blank s : blank s -> read_int s = None.
Proof. intros B. unfold read_int. rewrite <- (app_nil_r s), skip_space_app by exact B. reflexivity. Qed.
Lemma read_int_number s z : leading_number s z -> read_int s = Some (clamp_int z).
Proof.
  intros H. unfold read_int. destruct H as [ws sign ds s rest W G D NE R|ws sign rest W G R H]; rewrite skip_space_app by exact W.
  - pose proof (digits_val_spec 10 ltac:(lia) ds s rest 0 D R) as V. rewrite Z.mul_0_l, Z.add_0_l in V.
    destruct D as [|d c ds s [L C] D]; [contradiction NE; reflexivity|]. cbn [app] in *. destruct (digit_nospace 10 d c ltac:(lia) L C) as (A1 & A2 & A3 & _).
    destruct G as [->|[->| ->]]; cbn [app].
    + cbn [skip_space]. rewrite A1. replace (c =? 45) with false by lia. replace (c =? 43) with false by lia. rewrite V. change (sign_of []) with 1. rewrite Z.mul_1_l. reflexivity.
    + change (skip_space (43 :: c :: s ++ rest)) with (43 :: c :: s ++ rest). change (43 =? 45) with false. change (43 =? 43) with true. cbv iota. rewrite V. change (sign_of [43]) with 1. rewrite Z.mul_1_l. reflexivity.
    + change (skip_space (45 :: c :: s ++ rest)) with (45 :: c :: s ++ rest). change (45 =? 45) with true. cbv iota. rewrite V. change (sign_of [45]) with (-1). do 2 f_equal; lia.
  - pose proof (stops_zero rest R) as Z0. destruct G as [->|[->| ->]]; cbn [app].
    + destruct (H eq_refl) as (c & t & -> & A1 & A2 & A3). cbn [skip_space]. rewrite A1. replace (c =? 45) with false by lia. replace (c =? 43) with false by lia. rewrite Z0. reflexivity.
    + change (skip_space (43 :: rest)) with (43 :: rest). change (43 =? 45) with false. change (43 =? 43) with true. cbv iota. rewrite Z0. reflexivity.
    + change (skip_space (45 :: rest)) with (45 :: rest). change (45 =? 45) with true. cbv iota. rewrite Z0. reflexivity.
Qed.
Lemma split_blanks s : exists ws t, s = ws ++ t /\ blank ws /\ (t = [] \/ exists c r, t = c :: r /\ isspace c = false).
Proof.
  induction s as [|c s (ws & t & -> & W & H)]; [exists [], []; repeat split; [constructor|left; reflexivity]|].
  destruct (isspace c) eqn:E; [exists (c :: ws), t; repeat split; [constructor; assumption|exact H]|].
  exists [], (c :: ws ++ t). repeat split; [constructor|]. right. exists c, (ws ++ t). split; [reflexivity|exact E].
Qed.
Lemma leading_exists s : blank s \/ exists z, leading_number s z.
Proof.
  destruct (split_blanks s) as (ws & t & -> & W & [->|(c & r & -> & E)]); [left; rewrite app_nil_r; exact W|]. right.
  assert (Go : forall sign u, is_sign sign -> (sign = [] -> exists c t, u = c :: t /\ isspace c = false /\ c <> 43 /\ c <> 45) -> exists z, leading_number (ws ++ sign ++ u) z).
  { intros sign u G H. destruct (digits_prefix u) as (ds & t & rest & -> & D & R). destruct ds as [|d ds].
    - inversion D; subst. cbn [app] in *. exists 0. apply ln_none; assumption.
    - eexists. apply (ln_digits ws sign (d :: ds)); try assumption. discriminate. }
  destruct (Z.eq_dec c 43) as [->|N43]; [apply (Go [43] r); [right; left; reflexivity|discriminate]|].
  destruct (Z.eq_dec c 45) as [->|N45]; [apply (Go [45] r); [right; right; reflexivity|discriminate]|].
  apply (Go [] (c :: r)); [left; reflexivity|]. intros _. exists c, r. repeat split; assumption.
Qed.
Lemma leading_not_blank s z : leading_number s z -> ~ blank s.
Proof.
  intros H B. pose proof (read_int_number s z H) as R. rewrite read_int_blank in R by exact B. discriminate.
Qed.
(** A range test on the number behind a delimiter, with -1 for a blank text. *)
Lemma extract_range s lo hi : 0 <= lo -> hi < 2 ^ 31 - 1 -> lo <= extract s (-1) <= hi <-> exists z, leading_number s z /\ lo <= z <= hi.
Proof.
  intros L H. unfold extract. destruct (leading_exists s) as [B|(z & N)].
  - rewrite read_int_blank by exact B. split; [lia|]. intros (z & N & _). exfalso. exact (leading_not_blank s z N B).
  - rewrite (read_int_number s z N). unfold clamp_int. split; [intros R; exists z; split; [exact N|lia]|].
    intros (z' & N' & R). pose proof (read_int_number s z N) as E. rewrite (read_int_number s z' N') in E. injection E as E. unfold clamp_int in E. lia.
Qed.

(** ** Delimited values *)
Lemma split_at_found ip c tail : ~ In c ip -> len (ip ++ c :: tail) < 2 ^ 31 -> split_at (ip ++ c :: tail) c = Ok (ip, extract tail (-1)).
Proof.
  intros N L. unfold split_at. rewrite find0_at by exact N. rewrite len_app, len_cons in L. pose proof (len_nonneg ip). pose proof (len_nonneg tail).
  rewrite u32_id by lia. replace (len ip =? npos) with false by (unfold npos; lia). cbn [negb]. rewrite u32_id by lia.
  rewrite (substr0_at ip (c :: tail) (len ip) eq_refl). cbn [bind].
  replace (ip ++ c :: tail) with ((ip ++ [c]) ++ tail) by (rewrite <- app_assoc; reflexivity).
  replace (len ip + 1) with (len (ip ++ [c])) by (rewrite len_app; reflexivity).
  rewrite substr_rest by (unfold npos; lia). reflexivity.
Qed.
Lemma split_at_missing val c : ~ In c val -> len val < 2 ^ 31 -> split_at val c = Ok (val, extract val (-1)).
Proof.
  intros N L. unfold split_at. rewrite find0_none by exact N. rewrite u32_npos. replace (2 ^ 32 - 1 =? npos) with false by reflexivity. cbn [negb].
  rewrite substr0_rest by lia. cbn [bind]. change (u32 (2 ^ 32 - 1 + 1)) with 0. rewrite substr0_rest by (unfold npos; lia). reflexivity.
Qed.

Lemma join_free sep c l : c <> sep -> Forall (fun w => ~ In c w) l -> ~ In c (join_with sep l).
Proof.
  intros N H. induction H as [|x l Hx H IH]; [intros []|]. destruct l as [|y l]; [exact Hx|].
  change (join_with sep (x :: y :: l)) with (x ++ sep :: join_with sep (y :: l)). intros K. apply in_app_iff in K. destruct K as [K|[K|K]]; [exact (Hx K)|apply N; symmetry; exact K|exact (IH K)].
Qed.
(** ** Choices *)
Definition described (l : list (list Z * list Z)) : list Z := join_with 44 (map (fun e => fst e ++ 124 :: snd e) l).
Lemma choice_described val l : forall fuel p, l <> [] -> Forall (fun e => free_of [44; 124] (fst e) /\ free_of [44; 124] (snd e)) l ->
  len (p ++ described l) < 2 ^ 31 -> (length (described l) < fuel)%nat ->
  choice_loop fuel val (p ++ described l) (len p - 1) = Ok (existsb (streq val) (map fst l)).
Proof.
  induction l as [|[a d] l IH]; intros fuel p NE H L F; [contradiction NE; reflexivity|]. inversion H as [|? ? [Ha Hd] Hl]; subst. cbn [fst snd] in Ha, Hd.
  destruct fuel as [|fuel]; [lia|]. cbn [choice_loop map existsb fst]. replace (len p - 1 + 1) with (len p) by lia.
  assert (T : exists r, described ((a, d) :: l) = a ++ 124 :: d ++ r /\ (l = [] /\ r = [] \/ l <> [] /\ r = 44 :: described l)).
  { unfold described. destruct l as [|e l]; [exists []; split; [cbn [map join_with fst snd]; rewrite app_nil_r; reflexivity|left; split; reflexivity]|].
    exists (44 :: described (e :: l)). split; [|right; split; [discriminate|reflexivity]]. cbn [map]. change (join_with 44 ((fst (a, d) ++ 124 :: snd (a, d)) :: (fst e ++ 124 :: snd e) :: map (fun e => fst e ++ 124 :: snd e) l))
      with ((a ++ 124 :: d) ++ 44 :: described (e :: l)). rewrite <- app_assoc. reflexivity. }
  destruct T as (r & T & Hr). rewrite T in *. pose proof (len_nonneg p). pose proof (len_nonneg a). pose proof (len_nonneg d). pose proof (len_nonneg r).
  rewrite len_app, len_app, len_cons, len_app in L.
  rewrite find_at by (apply Ha; right; left; reflexivity). rewrite (u32_id (len p + len a)) by lia. replace (len p + len a =? npos) with false by (unfold npos; lia). cbn [negb].
  rewrite u32_id by lia. rewrite substr_at by lia. cbn [bind]. destruct (streq val a) eqn:E; [reflexivity|]. cbn [orb].
  assert (N44 : ~ In 44 (a ++ 124 :: d)).
  { intros K. apply in_app_iff in K. destruct K as [K|[K|K]]; [exact (Ha 44 ltac:(left; reflexivity) K)|discriminate K|exact (Hd 44 ltac:(left; reflexivity) K)]. }
  destruct Hr as [[-> ->]|[NEl ->]].
  - rewrite app_nil_r. rewrite find_none by exact N44. rewrite s32_npos. reflexivity.
  - replace (a ++ 124 :: d ++ 44 :: described l) with ((a ++ 124 :: d) ++ 44 :: described l) by (rewrite <- app_assoc; reflexivity).
    rewrite find_at by exact N44. rewrite len_app, len_cons. rewrite len_cons in L. pose proof (len_nonneg (described l)). rewrite s32_id by lia. replace (len p + (len a + (1 + len d)) =? -1) with false by lia.
    replace (p ++ (a ++ 124 :: d) ++ 44 :: described l) with ((p ++ (a ++ 124 :: d) ++ [44]) ++ described l) by (rewrite <- !app_assoc; reflexivity).
    replace (len p + (len a + (1 + len d))) with (len (p ++ (a ++ 124 :: d) ++ [44]) - 1) by (rewrite !len_app, len_cons; change (len [44]) with 1; lia).
    apply IH; [exact NEl|exact Hl| |].
    + rewrite !len_app, len_cons. change (len [44]) with 1. lia.
    + rewrite app_length in F. cbn [length] in F. rewrite app_length in F. cbn [length] in F. lia.
Qed.
(** Without descriptions the value is compared with everything from an alternative on. *)
Fixpoint tails (l : list (list Z)) : list (list Z) :=
  match l with [] => [] | _ :: t => join_with 44 l :: tails t end.
Lemma choice_plain val l : forall fuel p, l <> [] -> Forall (free_of [44; 124]) l -> len (p ++ join_with 44 l) < 2 ^ 31 -> (length (join_with 44 l) < fuel)%nat ->
  choice_loop fuel val (p ++ join_with 44 l) (len p - 1) = Ok (existsb (streq val) (tails l)).
Proof.
  induction l as [|a l IH]; intros fuel p NE H L F; [contradiction NE; reflexivity|]. inversion H as [|? ? Ha Hl]; subst.
  destruct fuel as [|fuel]; [lia|]. cbn [choice_loop tails existsb]. replace (len p - 1 + 1) with (len p) by lia. pose proof (len_nonneg p).
  assert (N124 : ~ In 124 (join_with 44 (a :: l))).
  { apply join_free; [discriminate|]. eapply Forall_impl; [|exact H]. intros w Hw. cbv beta in Hw. apply Hw. cbn [In]. tauto. }
  rewrite find_none by exact N124. rewrite u32_npos. replace (2 ^ 32 - 1 =? npos) with false by reflexivity. cbn [negb]. rewrite len_app in L. pose proof (len_nonneg (join_with 44 (a :: l))).
  rewrite u32_id by lia. rewrite substr_rest by lia. cbn [bind]. destruct (streq val (join_with 44 (a :: l))) eqn:E; [reflexivity|]. cbn [orb].
  pose proof (Ha 44 ltac:(left; reflexivity)) as N44. destruct l as [|b l].
  - cbn [join_with tails existsb]. rewrite find_none by exact N44. rewrite s32_npos. reflexivity.
  - change (join_with 44 (a :: b :: l)) with (a ++ 44 :: join_with 44 (b :: l)) in *. rewrite len_app, len_cons in *. pose proof (len_nonneg a). pose proof (len_nonneg (join_with 44 (b :: l))).
    rewrite find_at by exact N44. rewrite s32_id by lia. replace (len p + len a =? -1) with false by lia.
    replace (p ++ a ++ 44 :: join_with 44 (b :: l)) with ((p ++ a ++ [44]) ++ join_with 44 (b :: l)) by (rewrite <- !app_assoc; reflexivity).
    replace (len p + len a) with (len (p ++ a ++ [44]) - 1) by (rewrite !len_app; change (len [44]) with 1; lia).
    apply IH; [discriminate|exact Hl| |].
    + rewrite !len_app. change (len [44]) with 1. lia.
    + rewrite app_length in F. cbn [length] in F. lia.
Qed.

(** ** Lists of addresses without ports *)
Lemma mip_plain l : forall fuel p, l <> [] -> Forall (fun w => free_of [32; 58; 0] w) l -> free_of [58; 0] p -> len (p ++ join_with 32 l) < 2 ^ 31 -> (length (join_with 32 l) < fuel)%nat ->
  mip_loop fuel (p ++ join_with 32 l) (len p - 1) = Ok (forallb isValidIP l).
Proof.
  induction l as [|a l IH]; intros fuel p NE H Hp L F; [contradiction NE; reflexivity|]. inversion H as [|? ? Ha Hl]; subst.
  destruct fuel as [|fuel]; [lia|]. cbn [mip_loop forallb]. replace (len p - 1 + 1) with (len p) by lia. pose proof (len_nonneg p). pose proof (len_nonneg a).
  pose proof (Ha 32 ltac:(left; reflexivity)) as N32.
  assert (N58 : ~ In 58 (p ++ join_with 32 (a :: l))).
  { intros K. apply in_app_iff in K. destruct K as [K|K]; [exact (Hp 58 ltac:(left; reflexivity) K)|]. revert K. apply join_free; [discriminate|]. eapply Forall_impl; [|exact H]. intros w Hw. cbv beta in Hw. apply Hw. cbn [In]. tauto. }
  destruct l as [|b l].
  - cbn [join_with] in *. rewrite find_none by exact N32. rewrite u32_npos. rewrite len_app in L. rewrite u32_id by lia. rewrite substr_rest by lia. cbn [bind].
    rewrite find0_none by exact N58. rewrite u32_npos. replace (2 ^ 32 - 1 =? npos) with false by reflexivity. cbn [negb].
    destruct (isValidIP a) eqn:V; cbn [bind andb]; [reflexivity|]. rewrite substr_rest by lia. cbn [bind].
    change (u32 (2 ^ 32 - 1 + 1)) with 0. rewrite substr0_rest by (rewrite len_app; lia). cbn [bind]. rewrite V. reflexivity.
  - change (join_with 32 (a :: b :: l)) with (a ++ 32 :: join_with 32 (b :: l)) in *. rewrite find_at by exact N32. rewrite !len_app, len_cons in L. pose proof (len_nonneg (join_with 32 (b :: l))).
    rewrite (u32_id (len p + len a)) by lia. rewrite u32_id by lia. rewrite substr_at by lia. cbn [bind].
    rewrite find0_none by exact N58. rewrite u32_npos. replace (2 ^ 32 - 1 =? npos) with false by reflexivity. cbn [negb].
    destruct (isValidIP a) eqn:V; cbn [bind andb].
    + rewrite s32_id by lia. replace (len p + len a =? -1) with false by lia.
      replace (p ++ a ++ 32 :: join_with 32 (b :: l)) with ((p ++ a ++ [32]) ++ join_with 32 (b :: l)) by (rewrite <- !app_assoc; reflexivity).
      replace (len p + len a) with (len (p ++ a ++ [32]) - 1) by (rewrite !len_app; change (len [32]) with 1; lia).
      apply IH; [discriminate|exact Hl| | |].
      * intros c Hc K. apply in_app_iff in K. destruct K as [K|K]; [exact (Hp c Hc K)|]. apply in_app_iff in K. destruct K as [K|[K|[]]]; [apply (Ha c); [destruct Hc as [<-|[<-|[]]]; [right; left; reflexivity|right; right; left; reflexivity]|exact K]|].
        subst c. destruct Hc as [Hc|[Hc|[]]]; discriminate Hc.
      * rewrite !len_app. change (len [32]) with 1. lia.
      * rewrite app_length in F. cbn [length] in F. lia.
    + rewrite substr_rest by (rewrite len_app, len_cons; lia). cbn [bind].
      change (u32 (2 ^ 32 - 1 + 1)) with (len []). unfold substr at 1. replace (len (p ++ a ++ 32 :: join_with 32 (b :: l)) <? len []) with false by (rewrite !len_app, len_cons; change (len []) with 0; lia). cbn [bind].
      replace (isValidIP (a ++ 32 :: join_with 32 (b :: l))) with false; [reflexivity|]. symmetry. destruct (isValidIP (a ++ 32 :: join_with 32 (b :: l))) eqn:W; [|reflexivity]. exfalso.
      apply isValidIP_spec in W.
      * destruct W as (w & x & y & z & Ow & Ox & Oy & Oz & E). assert (K : In 32 (w ++ 46 :: x ++ 46 :: y ++ 46 :: z)) by (rewrite <- E; apply in_app_iff; right; left; reflexivity).
        assert (Oct : forall o, octet o -> ~ In 32 o).
        { intros o (d & ds & D & _) I. induction D as [|? c ? s [_ C] D IHo]; [destruct I|]. destruct I as [->|I]; [unfold char_of_digit in C; lia|exact (IHo I)]. }
        apply in_app_iff in K. destruct K as [K|[K|K]]; [exact (Oct w Ow K)|discriminate K|]. apply in_app_iff in K. destruct K as [K|[K|K]]; [exact (Oct x Ox K)|discriminate K|].
        apply in_app_iff in K. destruct K as [K|[K|K]]; [exact (Oct y Oy K)|discriminate K|exact (Oct z Oz K)].
      * intros K. apply in_app_iff in K. destruct K as [K|[K|K]]; [exact (Ha 0 ltac:(right; right; left; reflexivity) K)|discriminate K|]. revert K. apply join_free; [discriminate|]. eapply Forall_impl; [|exact Hl]. intros w Hw. cbv beta in Hw. apply Hw. cbn [In]. tauto.
Qed.

(** ** Ranges *)
Lemma getMinMax_spec smin smax steps : free_of [40; 58] smin -> free_of [40; 44; 58] smax -> steps = [] \/ (exists t, steps = 40 :: t) ->
  len (smin ++ 58 :: smax ++ steps) < 2 ^ 31 -> getMinMax (smin ++ 58 :: smax ++ steps) = Ok (smin, smax).
Proof.
  intros Hm Hx Hs L. unfold getMinMax. rewrite len_app, len_cons, len_app in L. pose proof (len_nonneg smin). pose proof (len_nonneg smax). pose proof (len_nonneg steps).
  assert (N40 : ~ In 40 (smin ++ 58 :: smax)).
  { intros K. apply in_app_iff in K. destruct K as [K|[K|K]]; [exact (Hm 40 ltac:(left; reflexivity) K)|discriminate K|exact (Hx 40 ltac:(left; reflexivity) K)]. }
  assert (T : (if negb (s32 (find (smin ++ 58 :: smax ++ steps) 40 0) =? -1) then substr (smin ++ 58 :: smax ++ steps) 0 (s32 (find (smin ++ 58 :: smax ++ steps) 40 0)) else Ok (smin ++ 58 :: smax ++ steps)) = Ok (smin ++ 58 :: smax)).
  { destruct Hs as [->|(t & ->)].
    - rewrite app_nil_r. rewrite find0_none by exact N40. rewrite s32_npos. reflexivity.
    - replace (smin ++ 58 :: smax ++ 40 :: t) with ((smin ++ 58 :: smax) ++ 40 :: t) by (rewrite <- app_assoc; reflexivity). rewrite find0_at by exact N40. rewrite len_app, len_cons.
      rewrite s32_id by lia. replace (len smin + (1 + len smax) =? -1) with false by lia. cbn [negb].
      apply substr0_at. rewrite len_app, len_cons. reflexivity. }
  rewrite T. cbn [bind]. rewrite find0_at by (apply Hm; right; left; reflexivity). rewrite (u32_id (len smin)) by lia. rewrite substr0_at by reflexivity. cbn [bind].
  rewrite u32_id by lia.
  replace (find (smin ++ 58 :: smax) 44 (len smin)) with npos.
  2:{ symmetry. apply find_none. intros [K|K]; [discriminate K|exact (Hx 44 ltac:(right; left; reflexivity) K)]. }
  replace (smin ++ 58 :: smax) with ((smin ++ [58]) ++ smax) by (rewrite <- app_assoc; reflexivity). replace (len smin + 1) with (len (smin ++ [58])) by (rewrite len_app; reflexivity).
  rewrite substr_rest; [reflexivity|]. unfold u64, npos. rewrite Z.mod_small; [lia|]. change (2 ^ 64) with 18446744073709551616. change (2 ^ 31) with 2147483648 in L. lia.
Qed.
