(** C31, C32: Timeval. *)
From Verif Require Import Base BaseFacts TimevalModel.
Local Open Scope Z_scope.
Ltac Zify.zify_post_hook ::= Z.to_euclidean_division_equations.

(** The instant a pair of fields denotes, in microseconds. *)
Definition instant (t : timeval) : Z := 1000000 * tv_sec t + tv_usec t.
Definition normal (t : timeval) : Prop := 0 <= tv_usec t < 1000000.

(** ** C31 future *)
Theorem C31_future_exact : forall now ms, 0 <= ms -> instant (future now ms) = instant now + 1000 * ms.
Proof. intros [s u] ms H. unfold instant, future. cbn [tv_sec tv_usec]. destruct (Z.ltb_spec 1000000 (u + ms mod 1000 * 1000)); cbn [tv_sec tv_usec]; lia. Qed.
Print Assumptions C31_future_exact.

Theorem C31_future_normal_iff : forall now ms, normal now -> 0 <= ms ->
  (normal (future now ms) <-> tv_usec now + 1000 * (ms mod 1000) <> 1000000) /\
  (~ normal (future now ms) -> tv_usec (future now ms) = 1000000).
Proof.
  intros [s u] ms N H. unfold normal, future in *. cbn [tv_sec tv_usec] in *.
  destruct (Z.ltb_spec 1000000 (u + ms mod 1000 * 1000)); cbn [tv_sec tv_usec]; lia.
Qed.
Print Assumptions C31_future_normal_iff.

(** The deadline handed to the system is valid exactly when the time is normal. *)
Theorem C31_timespec_valid_iff : forall t, 0 <= tv_usec t -> (0 <= snd (timespec t) < 1000000000 <-> normal t).
Proof. intros [s u] H. unfold timespec, normal. cbn [tv_sec tv_usec snd] in *. lia. Qed.
Print Assumptions C31_timespec_valid_iff.

(** Defect: for every offset that is not a whole number of seconds there is a clock value,
    once every second, for which the deadline is invalid. *)
Theorem C31_invalid_deadline : forall s ms, 0 <= ms -> ms mod 1000 <> 0 ->
  exists u, normal (TV s u) /\ snd (timespec (future (TV s u) ms)) = 1000000000.
Proof.
  intros s ms H N. exists (1000000 - 1000 * (ms mod 1000)). unfold normal, future, timespec. cbn [tv_sec tv_usec].
  split; [lia|]. destruct (Z.ltb_spec 1000000 (1000000 - 1000 * (ms mod 1000) + ms mod 1000 * 1000)); cbn [tv_sec tv_usec snd]; lia.
Qed.
Print Assumptions C31_invalid_deadline.

Example C31_ex : future (TV 100 999999) 2500 = TV 103 499999 /\ normal (TV 100 999999) /\
  future (TV 100 500000) 2500 = TV 102 1000000 /\ timespec (TV 102 1000000) = (102, 1000000000).
Proof. repeat split; vm_compute; reflexivity || discriminate. Qed.

(** ** C32 delta, remaining, passed *)
Lemma int_ok : forall z, - 2 ^ 31 <= z < 2 ^ 31 -> int_ z = Ok z.
Proof. intros z H. unfold int_, fits32. destruct (Z.leb_spec (- 2 ^ 31) z); [|lia]. destruct (Z.ltb_spec z (2 ^ 31)); [reflexivity|lia]. Qed.

Lemma s32_diff : forall a b, - 2 ^ 31 <= b - a < 2 ^ 31 -> s32 (u32 b - u32 a) = b - a.
Proof.
  intros a b H. unfold s32, u32. replace (b mod 2 ^ 32 - a mod 2 ^ 32 + 2 ^ 31) with ((b - a + 2 ^ 31) + (a / 2 ^ 32 - b / 2 ^ 32) * 2 ^ 32) by lia.
  rewrite Z.mod_add by lia. rewrite Z.mod_small by lia. lia.
Qed.

(** Seconds apart for which the computation stays within 32 bits. *)
Definition near (a b : timeval) : Prop := Z.abs (tv_sec b - tv_sec a) <= 2147482.

Lemma delta_value : forall a b, normal a -> normal b -> near a b ->
  delta a b = Ok (1000 * (tv_sec b - tv_sec a) + Z.quot (tv_usec b - tv_usec a) 1000).
Proof.
  intros a b Na Nb H. unfold normal, near in *. unfold delta, sec_, usec_. rewrite !s32_diff by lia. rewrite int_ok by lia. cbn [bind].
  apply int_ok. lia.
Qed.

Theorem C32_delta_accurate : forall a b, normal a -> normal b -> near a b ->
  exists d, delta a b = Ok d /\ Z.abs (1000 * d - (instant b - instant a)) < 1000.
Proof.
  intros a b Na Nb H. rewrite delta_value by assumption. eexists. split; [reflexivity|]. unfold instant, normal, near in *. lia.
Qed.
Print Assumptions C32_delta_accurate.

Theorem C32_delta_antisymmetric : forall a b, normal a -> normal b -> near a b -> exists d, delta a b = Ok d /\ delta b a = Ok (- d).
Proof.
  intros a b Na Nb H. assert (near b a) by (unfold near in *; lia). rewrite !delta_value by assumption. eexists. split; [reflexivity|]. f_equal. lia.
Qed.
Print Assumptions C32_delta_antisymmetric.

Lemma quot_add : forall x y, Z.abs (Z.quot x 1000 + Z.quot y 1000 - Z.quot (x + y) 1000) <= 1.
Proof. intros x y. lia. Qed.

Theorem C32_delta_additive : forall a b c x y z, normal a -> normal b -> normal c -> near a b -> near b c -> near a c ->
  delta a b = Ok x -> delta b c = Ok y -> delta a c = Ok z -> Z.abs (x + y - z) <= 1.
Proof.
  intros a b c x y z Na Nb Nc H1 H2 H3. rewrite !delta_value by assumption. intros E1 E2 E3. apply Ok_inj in E1. apply Ok_inj in E2. apply Ok_inj in E3. subst.
  pose proof (quot_add (tv_usec b - tv_usec a) (tv_usec c - tv_usec b)) as Q.
  replace (tv_usec b - tv_usec a + (tv_usec c - tv_usec b)) with (tv_usec c - tv_usec a) in Q by ring.
  revert Q. generalize (Z.quot (tv_usec b - tv_usec a) 1000) (Z.quot (tv_usec c - tv_usec b) 1000) (Z.quot (tv_usec c - tv_usec a) 1000).
  clear. intros. lia.
Qed.
Print Assumptions C32_delta_additive.

(** A deadline computed by future at [t0] has, at the same clock reading, the whole
    offset remaining (up to a day of offset and more). *)
Theorem C32_remaining_of_future : forall t0 ms, normal t0 -> 0 <= ms < 2147482000 -> normal (future t0 ms) ->
  remaining (future t0 ms) t0 = Ok ms.
Proof.
  intros [s u] ms N H F. unfold remaining, elapsed. rewrite delta_value; [|assumption|assumption|].
  - cbn [bind]. f_equal. revert F. unfold future, normal in *. cbn [tv_sec tv_usec] in *.
    destruct (Z.ltb_spec 1000000 (u + ms mod 1000 * 1000)); cbn [tv_sec tv_usec]; lia.
  - unfold near, future, normal in *. cbn [tv_sec tv_usec] in *.
    destruct (Z.ltb_spec 1000000 (u + ms mod 1000 * 1000)); cbn [tv_sec tv_usec]; lia.
Qed.
Print Assumptions C32_remaining_of_future.

Theorem C32_passed_iff_later : forall t now, normal t -> normal now -> (passed t now = true <-> instant t < instant now).
Proof. intros [s u] [s' u'] N N'. unfold passed, instant, normal in *. cbn [tv_sec tv_usec] in *. repeat match goal with |- context [?a <? ?b] => destruct (Z.ltb_spec a b) end; split; intros; try discriminate; try reflexivity; lia. Qed.
Print Assumptions C32_passed_iff_later.

Theorem C32_remaining_passed : forall t now r, normal t -> normal now -> near t now -> remaining t now = Ok r ->
  (0 < r -> passed t now = false) /\ (r < 0 -> passed t now = true) /\ (r = 0 -> Z.abs (instant now - instant t) < 1000).
Proof.
  intros t now r N N' H R. unfold remaining, elapsed in R. rewrite delta_value in R by assumption. cbn [bind] in R. apply Ok_inj in R. subst.
  pose proof (C32_passed_iff_later t now N N') as P. unfold instant, normal in *. split; [|split]; intros.
  - destruct (passed t now); [|reflexivity]. exfalso. assert (X : true = true) by reflexivity. apply P in X. lia.
  - apply P. lia.
  - lia.
Qed.
Print Assumptions C32_remaining_passed.

(** Defect: 2147484 seconds (24.9 days, not four years) apart the computation overflows. *)
Theorem C32_delta_overflows : forall a b, normal a -> normal b -> 2147484 <= Z.abs (tv_sec b - tv_sec a) < 2 ^ 31 -> delta a b = UB.
Proof.
  intros a b Na Nb H. unfold delta, sec_. rewrite s32_diff by lia. unfold int_ at 1, fits32.
  destruct (Z.leb_spec (- 2 ^ 31) (1000 * (tv_sec b - tv_sec a))); [|reflexivity].
  destruct (Z.ltb_spec (1000 * (tv_sec b - tv_sec a)) (2 ^ 31)); [|reflexivity]. exfalso. lia.
Qed.
Print Assumptions C32_delta_overflows.

(** Defect: for a deadline that future left unnormalised, passed() can say true when the
    clock shows exactly the deadline, though it is documented and otherwise behaves as
    strictly later. *)
Theorem C32_passed_unnormalised_refuted : exists t0 ms now, normal t0 /\ normal now /\
  instant now = instant (future t0 ms) /\ passed (future t0 ms) now = true.
Proof. exists (TV 100 500000), 500, (TV 101 0). repeat split; vm_compute; reflexivity || discriminate. Qed.
Print Assumptions C32_passed_unnormalised_refuted.

Theorem C32_addMinutes_exact_iff : forall t m, 0 <= m < 2 ^ 32 ->
  (instant (addMinutes t m) = instant t + 60000000 * m <-> m < 71582789).
Proof. intros [s u] m H. unfold instant, addMinutes, u32. cbn [tv_sec tv_usec]. lia. Qed.
Print Assumptions C32_addMinutes_exact_iff.

Example C32_ex : delta (TV 4294967295 999999) (TV 4294967297 1) = Ok 1001 /\ near (TV 4294967295 999999) (TV 4294967297 1) /\
  passed (TV 10 5) (TV 10 6) = true /\ passed (TV 10 5) (TV 10 5) = false /\ remaining (TV 10 999) (TV 10 0) = Ok 0 /\
  delta (TV 0 0) (TV 2147484 0) = UB.
Proof. repeat split; vm_compute; reflexivity || discriminate. Qed.
