(** Properties C50 and C51: key=value items and string hashes. *)
From Verif Require Import Base BaseFacts UtilsModel UtilsSpec UtilsProofs UtilsProofs2 SqlModel SqlProofs ConfigModel ConfigSpec ConfigProofs NumProofs KvModel.
Local Open Scope Z_scope.

(** ** C50 *)
(** Fields between single spaces. *)
Definition word_ok (w : list Z) : Prop := ~ In 32 w /\ ~ In 0 w.
Lemma strsep_field w t : ~ In 32 w -> strsep (w ++ 32 :: t) = (w, Some t).
Proof.
  intros N. induction w as [|c w IH]; [reflexivity|]. cbn [app strsep]. replace (c =? 32) with false by (destruct (c =? 32) eqn:E; [exfalso; apply N; left; lia|reflexivity]).
  rewrite IH by (intros K; apply N; right; exact K). reflexivity.
Qed.
Lemma strsep_last w : ~ In 32 w -> strsep w = (w, None).
Proof.
  intros N. induction w as [|c w IH]; [reflexivity|]. cbn [strsep]. replace (c =? 32) with false by (destruct (c =? 32) eqn:E; [exfalso; apply N; left; lia|reflexivity]).
  rewrite IH by (intros K; apply N; right; exact K). reflexivity.
Qed.
Lemma addItems_fold l : forall fuel m, (length (join_sp l) < fuel)%nat -> l <> [] -> Forall word_ok l ->
  addItems_ fuel m (Some (join_sp l)) = fold_left addItem l m.
Proof.
  induction l as [|w l IH]; intros fuel m F NE H; [contradiction NE; reflexivity|]. inversion H as [|? ? [H1 H2] H3]; subst.
  destruct fuel as [|fuel]; [lia|]. cbn [addItems_]. destruct l as [|x l].
  - cbn [join_sp fold_left]. rewrite strsep_last by exact H1. destruct fuel; reflexivity.
  - change (join_sp (w :: x :: l)) with (w ++ 32 :: join_sp (x :: l)) in *. rewrite strsep_field by exact H1. rewrite app_length in F. cbn [length] in F.
    rewrite IH by (assumption || discriminate || lia). reflexivity.
Qed.
Lemma join_no_nul l : Forall word_ok l -> no_nul (join_sp l).
Proof.
  intros H. induction H as [|w l [A B] H IH]; [intros []|]. destruct l as [|x l]; [exact B|].
  change (join_sp (w :: x :: l)) with (w ++ 32 :: join_sp (x :: l)). intros K. apply in_app_iff in K. destruct K as [K|[K|K]]; [exact (B K)|discriminate K|exact (IH K)].
Qed.
Lemma addItems_spec m l : l <> [] -> Forall word_ok l ->
  mMap (addItems m (join_sp l)) = mMap (fold_left addItem l m) /\ leaked (addItems m (join_sp l)) = leaked (fold_left addItem l m) + 1.
Proof.
  intros NE H. unfold addItems. rewrite c_str_id by (apply join_no_nul; exact H). rewrite addItems_fold by (assumption || lia). split; reflexivity.
Qed.
Lemma strchr_some s : match strchr_eq s with Some (a, b) => s = a ++ 61 :: b /\ ~ In 61 a | None => ~ In 61 s end.
Proof.
  induction s as [|c s IH]; [intros []|]. cbn [strchr_eq]. destruct (c =? 61) eqn:E; [split; [replace c with 61 by lia; reflexivity|intros []]|].
  destruct (strchr_eq s) as [[a b]|]; [destruct IH as [-> N]; split; [reflexivity|intros [K|K]; [lia|exact (N K)]]|intros [K|K]; [lia|exact (IH K)]].
Qed.
Lemma split_unique a : forall a' b b', a ++ 61 :: b = a' ++ 61 :: b' -> ~ In 61 a -> ~ In 61 a' -> a = a' /\ b = b'.
Proof.
  induction a as [|c a IH]; intros a' b b' E N N'; destruct a' as [|c' a']; cbn [app] in E.
  - injection E as ->. split; reflexivity.
  - injection E as E _. exfalso. apply N'. left. lia.
  - injection E as E _. exfalso. apply N. left. lia.
  - injection E as -> E. destruct (IH a' b b' E) as [-> ->]; [intros K; apply N; right; exact K|intros K; apply N'; right; exact K|split; reflexivity].
Qed.
Lemma kvfind_filter m k j : kvfind (filter (fun e => negb (weqb (fst e) k)) m) j = if weqb k j then None else kvfind m j.
Proof.
  induction m as [|[x v] m IH]; [destruct (weqb k j); reflexivity|]. cbn [filter fst]. destruct (weqb x k) eqn:E; cbn [negb].
  - rewrite IH. apply weqb_iff in E. subst x. cbn [kvfind]. destruct (weqb k j); reflexivity.
  - cbn [kvfind]. rewrite IH. destruct (weqb x j) eqn:F; [|reflexivity]. apply weqb_iff in F. subst x.
    destruct (weqb k j) eqn:G; [|reflexivity]. apply weqb_iff in G. subst. rewrite weqb_refl in E. discriminate.
Qed.
Lemma addItem_find m w k : no_nul w -> ~ In 61 k -> kvfind (mMap (addItem m w)) k =
  match strchr_eq w with Some (a, v) => if weqb a k then Some v else kvfind (mMap m) k | None => kvfind (mMap m) k end.
Proof.
  intros N K. unfold addItem. rewrite c_str_id by exact N. destruct (strchr_eq w) as [[a v]|]; [|reflexivity]. cbn [mMap kvfind].
  rewrite kvfind_filter. destruct (weqb a k); reflexivity.
Qed.
Lemma fold_find_none l k : Forall word_ok l -> ~ In 61 k -> forall m, (forall v, ~ In (k ++ 61 :: v) l) ->
  kvfind (mMap (fold_left addItem l m)) k = kvfind (mMap m) k.
Proof.
  intros H K. induction H as [|w l [H1 H2] H IH]; intros m N; [reflexivity|]. cbn [fold_left]. rewrite IH by (intros v I; apply (N v); right; exact I).
  rewrite addItem_find by assumption. pose proof (strchr_some w) as S1. destruct (strchr_eq w) as [[a v]|]; [|reflexivity].
  destruct (weqb a k) eqn:E; [|reflexivity]. apply weqb_iff in E. subst a. destruct S1 as [-> _]. exfalso. apply (N v). left. reflexivity.
Qed.
Lemma kv_get_find m k : no_nul k -> (forall v, kvfind (mMap m) k = Some v -> no_nul v) -> kv_get m k = kvfind (mMap m) k.
Proof.
  intros N V. unfold kv_get. rewrite (c_str_id k N). destruct (kvfind (mMap m) k) as [v|] eqn:E; [|reflexivity]. cbn [option_map]. rewrite c_str_id by (apply V; reflexivity). reflexivity.
Qed.

(** The last item of the form key=value decides. *)
Theorem C50_get_last m l1 k v l2 : Forall word_ok (l1 ++ (k ++ 61 :: v) :: l2) -> ~ In 61 k -> (forall v', ~ In (k ++ 61 :: v') l2) ->
  kv_get (addItems m (join_sp (l1 ++ (k ++ 61 :: v) :: l2))) k = Some v.
Proof.
  intros H K N. assert (NE : l1 ++ (k ++ 61 :: v) :: l2 <> []) by (intros E; apply app_eq_nil in E; destruct E; discriminate).
  destruct (addItems_spec m _ NE H) as [M _]. apply Forall_app in H. destruct H as [H1 H2]. inversion H2 as [|? ? [A B] H3]; subst.
  assert (Nk : no_nul k) by (intros I; apply B; apply in_app_iff; left; exact I).
  assert (Nv : no_nul v) by (intros I; apply B; apply in_app_iff; right; right; exact I).
  assert (F : kvfind (mMap (addItems m (join_sp (l1 ++ (k ++ 61 :: v) :: l2)))) k = Some v).
  { rewrite M, fold_left_app. cbn [fold_left]. rewrite fold_find_none by assumption. rewrite addItem_find by assumption.
    pose proof (strchr_some (k ++ 61 :: v)) as S1. destruct (strchr_eq (k ++ 61 :: v)) as [[a b]|].
    - destruct S1 as [E N1]. destruct (split_unique k a v b E K N1) as [<- <-]. rewrite weqb_refl. reflexivity.
    - exfalso. apply S1. apply in_app_iff. right. left. reflexivity. }
  rewrite kv_get_find; [exact F|exact Nk|]. intros v' E. rewrite F in E. injection E as <-. exact Nv.
Qed.
Print Assumptions C50_get_last.
(** Keys that no item sets keep their value, or stay absent. *)
Theorem C50_get_other m l k : l <> [] -> Forall word_ok l -> ~ In 61 k -> (forall v, ~ In (k ++ 61 :: v) l) -> ~ In 0 k ->
  kv_get (addItems m (join_sp l)) k = kv_get m k.
Proof.
  intros NE H K N Nk. destruct (addItems_spec m l NE H) as [M _]. unfold kv_get. rewrite (c_str_id k Nk), M, fold_find_none by assumption. reflexivity.
Qed.
Print Assumptions C50_get_other.
(** A key that contains '=' is never found. *)
Theorem C50_key_with_equals_refuted l k : l <> [] -> Forall word_ok l -> In 61 k -> ~ In 0 k ->
  kv_get (addItems (Kv [] 0) (join_sp l)) k = None.
Proof.
  intros NE H K Nk. destruct (addItems_spec (Kv [] 0) l NE H) as [M _]. unfold kv_get. rewrite (c_str_id k Nk), M.
  enough (F : forall l m, Forall word_ok l -> kvfind (mMap m) k = None -> kvfind (mMap (fold_left addItem l m)) k = None) by (rewrite F; [reflexivity|exact H|reflexivity]).
  clear -K. induction l as [|w l IH]; intros m H E; [exact E|]. inversion H as [|? ? [H1 H2] H3]; subst. cbn [fold_left]. apply IH; [exact H3|].
  unfold addItem. rewrite c_str_id by exact H2. pose proof (strchr_some w) as S1. destruct (strchr_eq w) as [[a v]|]; [|exact E]. cbn [mMap kvfind].
  rewrite weqb_neq by (intros ->; apply (proj2 S1); exact K). rewrite kvfind_filter, E. destruct (weqb a k); reflexivity.
Qed.
Print Assumptions C50_key_with_equals_refuted.
(** Every text without NUL is a join of such fields. *)
Theorem C50_all_texts s : ~ In 0 s -> exists l, l <> [] /\ Forall word_ok l /\ s = join_sp l.
Proof.
  intros N. remember (length s) as n eqn:E. revert s N E. induction n as [n IH] using lt_wf_ind. intros s N E.
  destruct (strsep_spec s) as (f & F & [[-> _]|(t & -> & _)]).
  - exists [f]. split; [discriminate|]. split; [constructor; [split; assumption|constructor]|reflexivity].
  - rewrite app_length in E. cbn [length] in E. destruct (IH (length t) ltac:(lia) t) as (l & A & B & C); [intros K; apply N; apply in_app_iff; right; right; exact K|reflexivity|].
    exists (f :: l). split; [discriminate|]. split; [constructor; [split; [exact F|intros K; apply N; apply in_app_iff; left; exact K]|exact B]|].
    rewrite C. destruct l as [|x l]; [contradiction A; reflexivity|reflexivity].
Qed.
Print Assumptions C50_all_texts.
(** Defect: memory is lost with every call, and once more for every item without '='. *)
Theorem C50_leak_refuted m l : l <> [] -> Forall word_ok l ->
  leaked (addItems m (join_sp l)) = leaked m + 1 + Z.of_nat (length (filter (fun w => negb (existsb (Z.eqb 61) w)) l)).
Proof.
  intros NE H. destruct (addItems_spec m l NE H) as [_ ->]. clear NE. revert m. induction H as [|w l [H1 H2] H IH]; intros m; [cbn [fold_left filter length]; lia|].
  cbn [fold_left filter]. specialize (IH (addItem m w)).
  assert (S1 : leaked (addItem m w) = leaked m + if existsb (Z.eqb 61) w then 0 else 1).
  { unfold addItem. rewrite c_str_id by exact H2. pose proof (strchr_some w) as S1. destruct (strchr_eq w) as [[a v]|]; cbn [leaked].
    - destruct S1 as [-> _]. replace (existsb (Z.eqb 61) (a ++ 61 :: v)) with true; [lia|]. symmetry. apply existsb_exists. exists 61. split; [apply in_app_iff; right; left; reflexivity|reflexivity].
    - destruct (existsb (Z.eqb 61) w) eqn:X; [|reflexivity]. apply existsb_exists in X. destruct X as (c & I & X). exfalso. apply S1. replace 61 with c by lia. exact I. }
  destruct (existsb (Z.eqb 61) w); cbn [negb]; [|cbn [length]]; lia.
Qed.
Print Assumptions C50_leak_refuted.
(** getNum: defect: the flag is never set to true. *)
Theorem C50_getNum_flag_refuted m k b : snd (kv_getNum m k b) = true -> b = true.
Proof. unfold kv_getNum. destruct (kv_get m k); cbn [snd]; [auto|discriminate]. Qed.
Print Assumptions C50_getNum_flag_refuted.
Theorem C50_getNum m k : (kv_get m k = None -> kv_getNum m k true = (Ok 0, false)) /\
  (forall v, kv_get m k = Some v -> snd (kv_getNum m k true) = true /\
     forall ws sign d ds s rest, v = ws ++ sign ++ s ++ rest -> Forall (fun c => isspace c = true) ws -> is_sign sign ->
       digit_string 10 (d :: ds) s -> stops 10 rest -> - 2 ^ 63 <= sign_of sign * positional 10 (d :: ds) < 2 ^ 63 ->
       fst (kv_getNum m k true) = Ok (sign_of sign * positional 10 (d :: ds))).
Proof.
  split; [intros E; unfold kv_getNum; rewrite E; reflexivity|]. intros v E. unfold kv_getNum. rewrite E. split; [reflexivity|].
  intros ws sign d ds s rest -> W G D R B. cbn [fst]. unfold atol. rewrite skip_space_app by exact W.
  pose proof (digits_val_spec 10 ltac:(lia) (d :: ds) s rest 0 D R) as V. rewrite Z.mul_0_l, Z.add_0_l in V.
  inversion D as [|? c ? s' [L C] D']; subst. cbn [app] in *. destruct (digit_nospace 10 d c ltac:(lia) L C) as (A1 & A2 & A3 & _).
  set (z := match _ with [] => 0 | _ => _ end).
  assert (Ez : z = sign_of sign * positional 10 (d :: ds)).
  { unfold z. destruct G as [->|[->| ->]]; cbn [app].
    - cbn [skip_space]. rewrite A1. replace (c =? 45) with false by lia. replace (c =? 43) with false by lia. rewrite V. change (sign_of []) with 1. lia.
    - change (skip_space (43 :: c :: s' ++ rest)) with (43 :: c :: s' ++ rest). cbv iota. change (43 =? 45) with false. change (43 =? 43) with true. cbv iota. rewrite V. change (sign_of [43]) with 1. lia.
    - change (skip_space (45 :: c :: s' ++ rest)) with (45 :: c :: s' ++ rest). cbv iota. change (45 =? 45) with true. cbv iota. rewrite V. change (sign_of [45]) with (-1). lia. }
  rewrite Ez. replace ((- 2 ^ 63 <=? sign_of sign * positional 10 (d :: ds)) && (sign_of sign * positional 10 (d :: ds) <? 2 ^ 63)) with true by lia. reflexivity.
Qed.
Print Assumptions C50_getNum.
Example C50_example :
  let m := addItems (Kv [] 0) (lit "A=1  B C=x=y A=2 =e") in
  map (kv_get m) [lit "A"; lit "B"; lit "C"; []] = [Some (lit "2"); None; Some (lit "x=y"); Some (lit "e")] /\ leaked m = 3 /\
  kv_getNum m (lit "A") true = (Ok 2, true) /\ kv_getNum m (lit "B") true = (Ok 0, false) /\ kv_getNum m (lit "A") false = (Ok 2, false).
Proof. vm_compute. repeat split. Qed.

(** ** C51: hashes *)
Definition mix (h : Z) : Z := Z.lxor h (Z.shiftr h 32).
Lemma mix_mix h : 0 <= h < 2 ^ 64 -> mix (mix h) = h.
Proof.
  intros H. unfold mix. apply Z.bits_inj'. intros n N. rewrite !Z.lxor_spec, !Z.shiftr_spec, !Z.lxor_spec by lia. rewrite Z.shiftr_spec by lia.
  replace (Z.testbit h (n + 32 + 32)) with false.
  - destruct (Z.testbit h n), (Z.testbit h (n + 32)); reflexivity.
  - symmetry. destruct (Z.eq_dec h 0) as [->|N0]; [apply Z.bits_0|]. apply Z.bits_above_log2; [lia|]. assert (Z.log2 h < 64) by (apply Z.log2_lt_pow2; lia). lia.
Qed.
Lemma mix_range m h : 0 <= m -> 0 <= h < 2 ^ m -> 0 <= mix h < 2 ^ m.
Proof.
  intros M H. unfold mix. assert (S1 : 0 <= Z.shiftr h 32 <= h) by (rewrite Z.shiftr_div_pow2 by lia; change (2 ^ 32) with 4294967296; lia).
  assert (N : 0 <= Z.lxor h (Z.shiftr h 32)) by (apply Z.lxor_nonneg; lia). split; [exact N|].
  destruct (Z.eq_dec (Z.lxor h (Z.shiftr h 32)) 0) as [->|NZ]; [lia|]. destruct (Z.eq_dec m 0) as [->|M0].
  { change (2 ^ 0) with 1 in *. assert (h = 0) by lia. subst h. exfalso. apply NZ. reflexivity. }
  apply Z.log2_lt_pow2; [lia|]. eapply Z.le_lt_trans; [apply Z.log2_lxor; lia|].
  apply Z.max_lub_lt; [destruct (Z.eq_dec h 0) as [->|]; [change (Z.log2 0) with 0; lia|apply Z.log2_lt_pow2; lia]|].
  destruct (Z.eq_dec (Z.shiftr h 32) 0) as [->|]; [change (Z.log2 0) with 0; lia|apply Z.log2_lt_pow2; lia].
Qed.
Lemma hash_step_range h c : 0 <= hash_step h c < 2 ^ 64.
Proof. unfold hash_step, u64. apply Z.mod_pos_bound. lia. Qed.
Lemma hash_step_inj h1 h2 c : 0 <= h1 < 2 ^ 64 -> 0 <= h2 < 2 ^ 64 -> hash_step h1 c = hash_step h2 c -> h1 = h2.
Proof.
  intros R1 R2 E. unfold hash_step in E. fold (mix h1) (mix h2) in E. pose proof (mix_range 64 h1 ltac:(lia) R1) as M1. pose proof (mix_range 64 h2 ltac:(lia) R2) as M2.
  rewrite <- (mix_mix h1 R1), <- (mix_mix h2 R2). f_equal. revert M1 M2 E. generalize (mix h1) (mix h2). intros x y M1 M2 E. unfold u64 in E.
  assert (D : ((x - y) * 127) mod 2 ^ 64 = 0).
  { replace ((x - y) * 127) with ((x * 127 + s8 c) - (y * 127 + s8 c)) by lia. rewrite Zminus_mod, E, Z.sub_diag. reflexivity. }
  assert (D2 : (x - y) mod 2 ^ 64 = 0).
  { replace ((x - y) mod 2 ^ 64) with (((x - y) * 127 * 9150747060186627967) mod 2 ^ 64).
    - rewrite Zmult_mod, D. reflexivity.
    - replace ((x - y) * 127 * 9150747060186627967) with ((x - y) + ((x - y) * 63) * 2 ^ 64) by lia. apply Z.mod_add. lia. }
  lia.
Qed.
Lemma fold_inj s : forall h1 h2, 0 <= h1 < 2 ^ 64 -> 0 <= h2 < 2 ^ 64 -> fold_left hash_step s h1 = fold_left hash_step s h2 -> h1 = h2.
Proof.
  induction s as [|c s IH]; intros h1 h2 R1 R2 E; [exact E|]. cbn [fold_left] in E. apply IH in E; [|apply hash_step_range|apply hash_step_range].
  exact (hash_step_inj h1 h2 c R1 R2 E).
Qed.
Lemma fold_range s : forall h, 0 <= h < 2 ^ 64 -> 0 <= fold_left hash_step s h < 2 ^ 64.
Proof. induction s as [|c s IH]; intros h R; [exact R|]. cbn [fold_left]. apply IH, hash_step_range. Qed.

(** Strings that differ in one character have different hashes. *)
Theorem C51_one_character a c d b : 0 <= c < 256 -> 0 <= d < 256 -> c <> d -> computeHash (a ++ c :: b) <> computeHash (a ++ d :: b).
Proof.
  intros C D N E. unfold computeHash in E. rewrite !fold_left_app in E. cbn [fold_left] in E. apply fold_inj in E; [|apply hash_step_range|apply hash_step_range].
  unfold hash_step, u64 in E. set (x := Z.lxor _ _ * 127) in E.
  assert (S1 : s8 c <> s8 d /\ -128 <= s8 c < 128 /\ -128 <= s8 d < 128) by (unfold s8; lia).
  assert (D2 : (s8 c - s8 d) mod 2 ^ 64 = 0).
  { replace (s8 c - s8 d) with ((x + s8 c) - (x + s8 d)) by lia. rewrite Zminus_mod, E, Z.sub_diag. reflexivity. }
  lia.
Qed.
Print Assumptions C51_one_character.

(** Up to nine ASCII characters the hash identifies the string. *)
Definition ascii (c : Z) : Prop := 1 <= c <= 127.
Lemma ascii_step n h c : 0 <= n <= 8 -> 0 <= h < 2 ^ (7 * n) -> ascii c -> hash_step h c = 127 * mix h + c /\ 0 < hash_step h c < 2 ^ (7 * (n + 1)).
Proof.
  intros N H C. unfold ascii in C. pose proof (mix_range (7 * n) h ltac:(lia) H) as M. unfold hash_step. fold (mix h). revert M. generalize (mix h). intros x M.
  assert (P : 2 ^ (7 * (n + 1)) = 128 * 2 ^ (7 * n)) by (replace (7 * (n + 1)) with (7 + 7 * n) by lia; rewrite Z.pow_add_r by lia; reflexivity).
  assert (Q : 2 ^ (7 * n) <= 2 ^ 56) by (apply Z.pow_le_mono_r; lia). change (2 ^ 56) with 72057594037927936 in Q.
  replace (s8 c) with c by (unfold s8; lia). unfold u64. rewrite Z.mod_small by (change (2 ^ 64) with 18446744073709551616; lia). rewrite P. lia.
Qed.
Lemma ascii_range s : Forall ascii s -> (length s <= 9)%nat -> 0 <= computeHash s < 2 ^ (7 * Z.of_nat (length s)).
Proof.
  induction s as [|c s IH] using rev_ind; intros H L; [change (computeHash []) with 0; cbn [length]; lia|].
  apply Forall_app in H. destruct H as [H1 H2]. inversion H2; subst. rewrite app_length in *. cbn [length] in *.
  unfold computeHash. rewrite fold_left_app. cbn [fold_left]. fold (computeHash s).
  pose proof (ascii_step (Z.of_nat (length s)) (computeHash s) c ltac:(lia) (IH H1 ltac:(lia)) ltac:(assumption)) as [_ R].
  replace (7 * Z.of_nat (length s + 1)) with (7 * (Z.of_nat (length s) + 1)) by lia. lia.
Qed.
Theorem C51_nine_ascii a b : Forall ascii a -> Forall ascii b -> (length a <= 9)%nat -> (length b <= 9)%nat ->
  computeHash a = computeHash b -> a = b.
Proof.
  revert b. induction a as [|c a IH] using rev_ind; intros b A B La Lb E; destruct b as [|d b _] using rev_ind.
  - reflexivity.
  - exfalso. apply Forall_app in B. destruct B as [B1 B2]. inversion B2; subst. rewrite app_length in Lb. cbn [length] in Lb.
    unfold computeHash in E. rewrite fold_left_app in E. cbn [fold_left] in E. fold (computeHash b) in E.
    pose proof (ascii_step (Z.of_nat (length b)) (computeHash b) d ltac:(lia) (ascii_range b B1 ltac:(lia)) ltac:(assumption)) as [_ R]. lia.
  - exfalso. apply Forall_app in A. destruct A as [A1 A2]. inversion A2; subst. rewrite app_length in La. cbn [length] in La.
    unfold computeHash in E. rewrite fold_left_app in E. cbn [fold_left] in E. fold (computeHash a) in E.
    pose proof (ascii_step (Z.of_nat (length a)) (computeHash a) c ltac:(lia) (ascii_range a A1 ltac:(lia)) ltac:(assumption)) as [_ R]. lia.
  - apply Forall_app in A. destruct A as [A1 A2]. inversion A2 as [|? ? A3 _]; subst. apply Forall_app in B. destruct B as [B1 B2]. inversion B2 as [|? ? B3 _]; subst.
    rewrite app_length in La, Lb. cbn [length] in La, Lb. unfold computeHash in E. rewrite !fold_left_app in E. cbn [fold_left] in E. fold (computeHash a) (computeHash b) in E.
    pose proof (ascii_range a A1 ltac:(lia)) as Ra. pose proof (ascii_range b B1 ltac:(lia)) as Rb.
    destruct (ascii_step (Z.of_nat (length a)) (computeHash a) c ltac:(lia) Ra A3) as [Ea _].
    destruct (ascii_step (Z.of_nat (length b)) (computeHash b) d ltac:(lia) Rb B3) as [Eb _].
    unfold ascii in A3, B3. assert (c = d /\ mix (computeHash a) = mix (computeHash b)) as [-> M] by lia.
    f_equal. apply IH; try assumption; try lia.
    rewrite <- (mix_mix (computeHash a)), <- (mix_mix (computeHash b)), M; [reflexivity| |].
    + pose proof (fold_range b 0 ltac:(lia)). assumption.
    + pose proof (fold_range a 0 ltac:(lia)). assumption.
Qed.
Print Assumptions C51_nine_ascii.
(** Defects: ten letters and digits can collide, and so can two bytes above 127; then
    operator== calls the strings equal. *)
Theorem C51_ten_characters_refuted : hs_eq (lit "jn6zCGLrBz") (lit "U3SIMVm40f") = true /\ lit "jn6zCGLrBz" <> lit "U3SIMVm40f".
Proof. split; [vm_compute; reflexivity|discriminate]. Qed.
Print Assumptions C51_ten_characters_refuted.
Theorem C51_bytes_refuted : hs_eq [1; 1] [2; 130] = true.
Proof. vm_compute. reflexivity. Qed.
Print Assumptions C51_bytes_refuted.
(** Defect: operator> is operator<. *)
Theorem C51_greater_refuted : hs_gt (lit "a") (lit "b") = true /\ hs_lt (lit "a") (lit "b") = true.
Proof. split; vm_compute; reflexivity. Qed.
Print Assumptions C51_greater_refuted.
(** The order is a strict one: exactly one of less, equal and greater the other way round holds, and it is transitive; operator> never differs from operator<. *)
Theorem C51_order a b c : (if hs_eq a b then hs_lt a b = false /\ hs_lt b a = false else hs_lt a b = negb (hs_lt b a)) /\
  (hs_lt a b = true -> hs_lt b c = true -> hs_lt a c = true) /\ hs_gt a b = hs_lt a b /\ hs_eq a b = hs_eq b a /\ hs_eq a a = true.
Proof. unfold hs_eq, hs_lt, hs_gt. destruct (Z.eqb_spec (computeHash a) (computeHash b)); repeat split; lia. Qed.
Print Assumptions C51_order.
Example C51_example : computeHash (lit "Log.Level.File") = 4295098241017137075 /\ hs_eq (lit "Log.Level") (lit "Log.Lever") = false /\ hs_eq (lit "GSM.A") (lit "GSM.A") = true.
Proof. repeat split; vm_compute; reflexivity. Qed.
