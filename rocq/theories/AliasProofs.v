(** Lemmas for C106. *)
From Coq Require Import ZArith List Bool Lia.
From Verif Require Import Base BaseFacts BitVectorModel BitVectorSpec BitFieldProofs BitPackProofs BitMiscProofs AliasModel.
Import ListNotations.
Local Open Scope nat_scope.

(** [n] steps; step [k] replaces the cells from [g k] on by [w k] of the memory it finds. *)
Fixpoint steps {A} (g : nat -> nat) (w : nat -> list A -> list A) (n : nat) (M : list A) : list A :=
  match n with
  | O => M
  | S k => splice (g k) (w k (steps g w k M)) (steps g w k M)
  end.

Lemma splice_in : forall A i (w v : list A) q, i + length w <= length v -> q < length w ->
  nth_error (splice i w v) (i + q) = nth_error w q.
Proof.
  intros A i w v q H Q. rewrite splice_nth by assumption.
  destruct (Nat.ltb_spec (i + q) i); [lia|]. destruct (Nat.ltb_spec (i + q) (i + length w)); [|lia].
  f_equal. lia.
Qed.

Lemma splice_out : forall A i (w v : list A) a, i + length w <= length v -> a < i \/ i + length w <= a ->
  nth_error (splice i w v) a = nth_error v a.
Proof.
  intros A i w v a H Q. rewrite splice_nth by assumption.
  destruct (Nat.ltb_spec a i); [reflexivity|]. destruct (Nat.ltb_spec a (i + length w)); [lia|reflexivity].
Qed.

Definition wf {A} (g l : nat -> nat) (w : nat -> list A -> list A) (n : nat) (M : list A) : Prop :=
  (forall k X, k < n -> length X = length M -> length (w k X) = l k) /\
  (forall k, k < n -> g k + l k <= length M) /\
  (forall j k, j < k -> k < n -> g j + l j <= g k \/ g k + l k <= g j).

Lemma steps_spec : forall A g l (w : nat -> list A -> list A) M n, wf g l w n M ->
  length (steps g w n M) = length M /\
  (forall a, (forall k, k < n -> a < g k \/ g k + l k <= a) -> nth_error (steps g w n M) a = nth_error M a) /\
  (forall k q, k < n -> q < l k -> nth_error (steps g w n M) (g k + q) = nth_error (w k (steps g w k M)) q).
Proof.
  induction n as [|n IH]; intros (W1 & W2 & W3).
  - split; [reflexivity|]. split; [reflexivity|]. intros; lia.
  - destruct IH as (L & O & I).
    { repeat split; intros; [apply W1|apply W2|apply W3]; lia. }
    assert (Lw : length (w n (steps g w n M)) = l n) by (apply W1; lia).
    assert (B : g n + l n <= length M) by (apply W2; lia).
    cbn [steps]. split; [rewrite splice_length; lia|]. split.
    + intros a H. rewrite splice_out; [apply O; intros k Hk; apply H; lia|lia|].
      rewrite Lw. apply H. lia.
    + intros k q Hk Hq. destruct (Nat.eq_dec k n) as [->|N].
      * apply splice_in; lia.
      * rewrite splice_out; [apply I; lia|lia|]. rewrite Lw. specialize (W3 k n). lia.
Qed.

(** If every step finds what it would have found at the start, the result is right. *)
Lemma steps_right : forall A g l (w : nat -> list A -> list A) M n, wf g l w n M ->
  (forall k X, k < n -> length X = length M ->
     (forall a, (forall j, j < k -> a < g j \/ g j + l j <= a) -> nth_error X a = nth_error M a) ->
     (forall j q, j < k -> q < l j -> nth_error X (g j + q) = nth_error (w j M) q) ->
     w k X = w k M) ->
  forall k q, k < n -> q < l k -> nth_error (steps g w n M) (g k + q) = nth_error (w k M) q.
Proof.
  intros A g l w M n W H.
  assert (E : forall k, k < n -> w k (steps g w k M) = w k M).
  { induction k as [k IH] using lt_wf_ind. intros Hk.
    assert (Wk : wf g l w k M).
    { destruct W as (W1 & W2 & W3). repeat split; intros; [apply W1|apply W2|apply W3]; lia. }
    destruct (steps_spec _ _ _ _ _ _ Wk) as (L & O & I).
    apply H; auto. intros j q Hj Hq. rewrite I by assumption. rewrite IH by lia. reflexivity. }
  intros k q Hk Hq. destruct (steps_spec _ _ _ _ _ _ W) as (_ & _ & I). rewrite I by assumption.
  rewrite E by assumption. reflexivity.
Qed.

(** If the result is right, every step found, among the cells written before, the right
    ones. *)
Lemma steps_back : forall A g l (w : nat -> list A -> list A) M n, wf g l w n M ->
  (forall k q, k < n -> q < l k -> nth_error (steps g w n M) (g k + q) = nth_error (w k M) q) ->
  forall k, k < n -> exists X, length X = length M /\
    (forall a, (forall j, j < k -> a < g j \/ g j + l j <= a) -> nth_error X a = nth_error M a) /\
    (forall j q, j < k -> q < l j -> nth_error X (g j + q) = nth_error (w j M) q) /\
    w k X = w k M.
Proof.
  intros A g l w M n W H k Hk.
  assert (Wk : forall k, k <= n -> wf g l w k M).
  { intros i Hi. destruct W as (W1 & W2 & W3). repeat split; intros; [apply W1|apply W2|apply W3]; lia. }
  assert (E : forall i, i < n -> w i (steps g w i M) = w i M).
  { intros i Hi. pose proof (steps_spec _ _ _ _ _ _ (Wk i ltac:(lia))) as (L & _ & _).
    pose proof (steps_spec _ _ _ _ _ _ W) as (_ & _ & I).
    destruct W as (W1 & _ & _).
    pose proof (W1 i _ Hi L) as L1. pose proof (W1 i M Hi eq_refl) as L2.
    apply nth_error_ext. intros q. destruct (Nat.lt_ge_cases q (l i)) as [Q|Q].
    - rewrite <- I by assumption. apply H; assumption.
    - transitivity (@None A); [|symmetry]; apply nth_error_None; lia. }
  exists (steps g w k M). pose proof (steps_spec _ _ _ _ _ _ (Wk k ltac:(lia))) as (L & O & I).
  split; [exact L|]. split; [exact O|]. split; [|apply E; exact Hk].
  intros j q Hj Hq. rewrite I by assumption. rewrite E by lia. reflexivity.
Qed.

Lemma upd_splice1 : forall A (v : list A) i x, i < length v -> upd v i x = splice i [x] v.
Proof.
  intros A v i x H. apply nth_error_ext. intros a. rewrite splice_nth by (cbn [length]; lia). cbn [length].
  destruct (Nat.ltb_spec a i); [apply nth_error_upd_neq; lia|].
  destruct (Nat.ltb_spec a (i + 1)).
  - replace a with i by lia. rewrite nth_error_upd_eq by assumption. rewrite Nat.sub_diag. reflexivity.
  - apply nth_error_upd_neq. lia.
Qed.

Lemma rd_nth : forall v i, i < length v -> rd v i = Ok (nth i v 0%Z).
Proof. intros v i H. apply rd_ok. apply nth_error_nth'. assumption. Qed.

Lemma nth_err_nth : forall (X M : list Z) a b, nth_error X a = nth_error M b -> nth a X 0%Z = nth b M 0%Z.
Proof.
  intros X M a b H. destruct (nth_error M b) eqn:E.
  - rewrite (nth_error_nth _ _ _ H), (nth_error_nth _ _ _ E). reflexivity.
  - apply nth_error_None in E. apply nth_error_None in H. rewrite !nth_overflow by assumption. reflexivity.
Qed.

Lemma nth_error_eq_nth : forall (X : list Z) a c, a < length X -> nth_error X a = Some c -> nth a X 0%Z = c.
Proof. intros X a c _ H. apply nth_error_nth. assumption. Qed.

(** * map *)
Definition wm (s : nat) (mp : list nat) (k : nat) (X : list Z) : list Z := [nth (s + nth k mp 0) X 0%Z].

Lemma map_in_steps : forall t mp i s d M0, skipn i mp = t ->
  (forall m, In m mp -> s + m < length M0) -> d + length mp <= length M0 -> i <= length mp ->
  length (steps (fun k => d + k) (wm s mp) i M0) = length M0 ->
  map_in (steps (fun k => d + k) (wm s mp) i M0) s d i t = Ok (steps (fun k => d + k) (wm s mp) (length mp) M0).
Proof.
  induction t as [|m t IH]; intros mp i s d M0 E F B Hi L.
  - cbn [map_in]. assert (length (skipn i mp) = 0) by (rewrite E; reflexivity). rewrite skipn_length in H.
    replace (length mp) with i by lia. reflexivity.
  - assert (Hn : nth_error mp i = Some m).
    { rewrite <- (Nat.add_0_r i), <- nth_error_skipn, E. reflexivity. }
    assert (Hl : i < length mp) by (apply nth_error_Some; congruence).
    assert (Hm : s + m < length M0) by (apply F; eapply nth_error_In; eassumption).
    assert (Es : upd (steps (fun k => d + k) (wm s mp) i M0) (d + i) (nth (s + m) (steps (fun k => d + k) (wm s mp) i M0) 0%Z)
                 = steps (fun k => d + k) (wm s mp) (S i) M0).
    { cbn [steps]. rewrite upd_splice1 by lia. remember (steps (fun k => d + k) (wm s mp) i M0) as X eqn:EX.
      clear EX. unfold wm. rewrite (nth_error_nth _ _ _ Hn). reflexivity. }
    cbn [map_in]. rewrite rd_nth by lia. cbn [bind]. rewrite wr_ok by lia. cbn [bind]. rewrite Es.
    apply IH; auto.
    + apply nth_error_ext. intros a. rewrite nth_error_skipn.
      assert (X : nth_error (skipn i mp) (S a) = nth_error t a) by (rewrite E; reflexivity).
      rewrite nth_error_skipn in X. rewrite <- X. f_equal. lia.
    + rewrite <- Es, upd_length. exact L.
Qed.

Lemma wm_wf : forall s d mp M, d + length mp <= length M -> wf (fun k => d + k) (fun _ => 1) (wm s mp) (length mp) M.
Proof. intros s d mp M H. repeat split; intros; cbn beta in *; try lia. Qed.

Lemma slice_nth : forall A i n (v : list A) a, a < n -> nth_error (slice i n v) a = nth_error v (i + a).
Proof.
  intros A i n v a H. unfold slice. rewrite nth_error_firstn, nth_error_skipn.
  destruct (Nat.ltb_spec a n); [reflexivity|lia].
Qed.

Lemma seen_before : forall (P : nat -> nat -> bool) k, {j | j < k /\ P j k = true} + {forall j, j < k -> P j k = false}.
Proof.
  intros P k.
  assert (H : forall n, {j | j < n /\ P j k = true} + {forall j, j < n -> P j k = false}).
  { induction n as [|n [(j & Hj & E)|N]].
    - right. intros; lia.
    - left. exists j. split; [lia|exact E].
    - destruct (P n k) eqn:E.
      + left. exists n. split; [lia|exact E].
      + right. intros j Hj. destruct (Nat.eq_dec j n) as [->|]; [exact E|apply N; lia]. }
  apply H.
Qed.

(** Two memories that agree outside a window and inside it. *)
Lemma is_splice : forall A (M M' D : list A) d, d + length D <= length M -> length M' = length M ->
  (forall a, a < d \/ d + length D <= a -> nth_error M' a = nth_error M a) ->
  (forall q, q < length D -> nth_error M' (d + q) = nth_error D q) -> M' = splice d D M.
Proof.
  intros A M M' D d H L O I. apply nth_error_ext. intros a.
  destruct (Nat.lt_ge_cases a d) as [X|X]; [rewrite splice_out by lia; apply O; lia|].
  destruct (Nat.lt_ge_cases a (d + length D)) as [Y|Y]; [|rewrite splice_out by lia; apply O; lia].
  replace a with (d + (a - d)) by lia. rewrite splice_in by lia. apply I. lia.
Qed.

Lemma map_right : forall M s n d k mp,
  s + n <= length M -> d + k <= length M -> Forall (fun m => m < n) mp -> length mp <= k ->
  (forall i j mi mj, j < i -> nth_error mp i = Some mi -> nth_error mp j = Some mj -> d + j = s + mi -> mj = mi) ->
  map_in M s d 0 mp = (do D <- bv_map (slice s n M) mp (slice d k M); Ok (splice d D M)).
Proof.
  intros M s n d k mp Hs Hd F Hk C.
  assert (F' : forall m, In m mp -> m < n) by (apply Forall_forall; exact F).
  pose proof (map_in_steps mp mp 0 s d M eq_refl) as E. cbn [steps] in E.
  rewrite E; [|intros m Hm; apply F' in Hm; lia|lia|lia|reflexivity]. clear E.
  assert (W : wf (fun k => d + k) (fun _ => 1) (wm s mp) (length mp) M) by (apply wm_wf; lia).
  destruct (steps_spec _ _ _ _ _ _ W) as (L & O & _).
  assert (R := steps_right _ _ _ _ _ _ W).
  unfold bv_map. destruct (map_loop_ok mp (slice s n M) 0 (slice d k M)) as (D & ED & LD & A & B).
  { eapply Forall_impl; [|exact F]. cbn. intros m Hm. rewrite slice_length; lia. }
  { rewrite slice_length; lia. }
  rewrite slice_length in LD by lia.
  rewrite ED. cbn [bind]. f_equal. apply is_splice; [lia|exact L| |].
  - intros a Ha. apply O. intros i Hi. lia.
  - intros q Hq. destruct (Nat.lt_ge_cases q (length mp)) as [Q|Q].
    + destruct (nth_error mp q) as [m|] eqn:Em; [|apply nth_error_None in Em; lia].
      pose proof (B q m Em) as Bq. rewrite Nat.add_0_l in Bq. rewrite Bq.
      rewrite slice_nth by (apply F'; eapply nth_error_In; eassumption).
      replace (d + q) with (d + q + 0) by lia. rewrite (R) with (k := q) (q := 0); [| |exact Q|lia].
      * unfold wm. rewrite (nth_error_nth _ _ _ Em). cbn [nth_error]. symmetry. apply nth_error_nth'.
        apply nth_error_In in Em. apply F' in Em. lia.
      * intros i X Hi LX OX IX. unfold wm. f_equal.
        destruct (nth_error mp i) as [mi|] eqn:Ei; [|apply nth_error_None in Ei; lia].
        rewrite (nth_error_nth _ _ _ Ei).
        destruct (seen_before (fun j _ => d + j =? s + mi) i) as [(j & Hj & Ej)|N].
        -- apply Nat.eqb_eq in Ej. specialize (IX j 0 Hj ltac:(lia)). rewrite Nat.add_0_r in IX.
           destruct (nth_error mp j) as [mj|] eqn:Emj; [|apply nth_error_None in Emj; lia].
           rewrite (C i j mi mj Hj Ei Emj Ej) in Emj.
           unfold wm in IX. rewrite (nth_error_nth _ _ _ Emj) in IX. rewrite <- Ej.
           cbn [nth_error] in IX. rewrite (nth_error_nth _ _ _ IX). congruence.
        -- apply nth_err_nth. apply OX. intros j Hj. specialize (N j Hj). apply Nat.eqb_neq in N. lia.
    + rewrite A by lia. rewrite slice_nth by lia. apply O. intros i Hi. lia.
Qed.

(** A memory of zeros with a one at [b]. *)
Definition one_at (L b : nat) : list Z := map (fun a => if a =? b then 1%Z else 0%Z) (seq 0 L).

Lemma one_at_length : forall L b, length (one_at L b) = L.
Proof. intros. unfold one_at. rewrite map_length, seq_length. reflexivity. Qed.

Lemma one_at_nth : forall L b a, a < L -> nth a (one_at L b) 0%Z = if a =? b then 1%Z else 0%Z.
Proof.
  intros L b a H. unfold one_at. apply nth_error_nth. apply map_nth_error with (f := fun a => if a =? b then 1%Z else 0%Z).
  rewrite (nth_error_nth' (seq 0 L) 0) by (rewrite seq_length; lia). rewrite seq_nth by lia. reflexivity.
Qed.

Lemma one_at_bits : forall L b, Forall (fun c => c = 0%Z \/ c = 1%Z) (one_at L b).
Proof.
  intros. unfold one_at. apply Forall_forall. intros x H. apply in_map_iff in H. destruct H as (a & <- & _).
  destruct (a =? b); auto.
Qed.

Lemma map_only : forall L s n d k mp,
  s + n <= L -> d + k <= L -> Forall (fun m => m < n) mp -> length mp <= k ->
  (forall M, length M = L -> Forall (fun c => c = 0%Z \/ c = 1%Z) M ->
     map_in M s d 0 mp = (do D <- bv_map (slice s n M) mp (slice d k M); Ok (splice d D M))) ->
  forall i j mi mj, j < i -> nth_error mp i = Some mi -> nth_error mp j = Some mj -> d + j = s + mi -> mj = mi.
Proof.
  intros L s n d k mp Hs Hd F Hk H i j mi mj Hij Ei Ej Eq.
  assert (F' : forall m, In m mp -> m < n) by (apply Forall_forall; exact F).
  destruct (Nat.eq_dec mj mi) as [|N]; [assumption|exfalso].
  pose proof (F' mi (nth_error_In _ _ Ei)) as Fi. pose proof (F' mj (nth_error_In _ _ Ej)) as Fj.
  assert (Hi : i < length mp) by (apply nth_error_Some; congruence).
  remember (one_at L (s + mi)) as M eqn:EM.
  assert (LM : length M = L) by (subst M; apply one_at_length).
  specialize (H M LM ltac:(subst M; apply one_at_bits)).
  pose proof (map_in_steps mp mp 0 s d M eq_refl) as E. cbn [steps] in E.
  rewrite E in H; [|intros m Hm; apply F' in Hm; lia|lia|lia|reflexivity]. clear E.
  assert (W : wf (fun k => d + k) (fun _ => 1) (wm s mp) (length mp) M) by (apply wm_wf; lia).
  unfold bv_map in H. destruct (map_loop_ok mp (slice s n M) 0 (slice d k M)) as (D & ED & LD & A & B).
  { eapply Forall_impl; [|exact F]. cbn. intros m Hm. rewrite slice_length; lia. }
  { rewrite slice_length; lia. }
  rewrite slice_length in LD by lia.
  rewrite ED in H. cbn [bind] in H. apply Ok_inj in H.
  assert (RR : forall k q, k < length mp -> q < 1 ->
     nth_error (steps (fun k => d + k) (wm s mp) (length mp) M) (d + k + q) = nth_error (wm s mp k M) q).
  { intros q z Hq Hz. assert (z = 0) as -> by lia. rewrite Nat.add_0_r, H, splice_in by lia.
    destruct (nth_error mp q) as [m|] eqn:Em; [|apply nth_error_None in Em; lia].
    pose proof (B q m Em) as Bq. rewrite Nat.add_0_l in Bq. rewrite Bq.
    pose proof (F' m (nth_error_In _ _ Em)).
    rewrite slice_nth by assumption. unfold wm. rewrite (nth_error_nth _ _ _ Em). cbn [nth_error].
    apply nth_error_nth'. lia. }
  destruct (steps_back _ _ _ _ _ _ W RR i Hi) as (X & LX & _ & IX & EX).
  specialize (IX j 0 Hij ltac:(lia)). rewrite Nat.add_0_r in IX. unfold wm in IX, EX.
  rewrite (nth_error_nth _ _ _ Ei) in EX. rewrite (nth_error_nth _ _ _ Ej) in IX. cbn [nth_error] in IX.
  rewrite <- Eq in EX. rewrite (nth_error_nth _ _ _ IX) in EX.
  injection EX as EX. rewrite Eq in EX. subst M. rewrite !one_at_nth in EX by lia.
  rewrite Nat.eqb_refl in EX. destruct (Nat.eqb_spec (s + mj) (s + mi)); [lia|discriminate].
Qed.

(** * unmap *)
Definition wu (s : nat) (k : nat) (X : list Z) : list Z := [nth (s + k) X 0%Z].
Definition gu (d : nat) (mp : list nat) (k : nat) : nat := d + nth k mp 0.

Lemma unmap_in_steps : forall t mp i s d M0, skipn i mp = t ->
  (forall m, In m mp -> d + m < length M0) -> s + length mp <= length M0 -> i <= length mp ->
  length (steps (gu d mp) (wu s) i M0) = length M0 ->
  unmap_in (steps (gu d mp) (wu s) i M0) s d i t = Ok (steps (gu d mp) (wu s) (length mp) M0).
Proof.
  induction t as [|m t IH]; intros mp i s d M0 E F B Hi L.
  - cbn [unmap_in]. assert (length (skipn i mp) = 0) by (rewrite E; reflexivity). rewrite skipn_length in H.
    replace (length mp) with i by lia. reflexivity.
  - assert (Hn : nth_error mp i = Some m).
    { rewrite <- (Nat.add_0_r i), <- nth_error_skipn, E. reflexivity. }
    assert (Hl : i < length mp) by (apply nth_error_Some; congruence).
    assert (Hm : d + m < length M0) by (apply F; eapply nth_error_In; eassumption).
    assert (Es : upd (steps (gu d mp) (wu s) i M0) (d + m) (nth (s + i) (steps (gu d mp) (wu s) i M0) 0%Z)
                 = steps (gu d mp) (wu s) (S i) M0).
    { cbn [steps]. rewrite upd_splice1 by lia. unfold gu at 3. rewrite (nth_error_nth _ _ _ Hn). reflexivity. }
    cbn [unmap_in]. rewrite rd_nth by lia. cbn [bind]. rewrite wr_ok by lia. cbn [bind]. rewrite Es.
    apply IH; auto.
    + apply nth_error_ext. intros a. rewrite nth_error_skipn.
      assert (X : nth_error (skipn i mp) (S a) = nth_error t a) by (rewrite E; reflexivity).
      rewrite nth_error_skipn in X. rewrite <- X. f_equal. lia.
    + rewrite <- Es, upd_length. exact L.
Qed.

Lemma wu_wf : forall s d mp M, NoDup mp -> (forall m, In m mp -> d + m < length M) ->
  wf (gu d mp) (fun _ => 1) (wu s) (length mp) M.
Proof.
  intros s d mp M N H. split; [reflexivity|]. split.
  - intros k Hk. unfold gu. specialize (H (nth k mp 0) (nth_In _ _ Hk)). lia.
  - intros j k Hj Hk. unfold gu. assert (nth j mp 0 <> nth k mp 0); [|lia].
    intros E. apply NoDup_nth in E; auto; lia.
Qed.

(** What the separate model does, as blocks. *)
Lemma unmap_apart : forall M s n d k mp,
  s + n <= length M -> d + k <= length M -> NoDup mp -> Forall (fun m => m < k) mp -> length mp <= n ->
  exists D, bv_unmap (slice s n M) mp (slice d k M) = Ok D /\ length D = k /\
    (forall q, ~ In q mp -> q < k -> nth_error D q = nth_error M (d + q)) /\
    (forall i m, nth_error mp i = Some m -> nth_error D m = nth_error M (s + i)).
Proof.
  intros M s n d k mp Hs Hd N F Hn.
  unfold bv_unmap. destruct (unmap_loop_ok mp (slice s n M) 0 (slice d k M)) as (D & ED & LD & A & B).
  { eapply Forall_impl; [|exact F]. cbn. intros m Hm. rewrite slice_length; lia. }
  { rewrite slice_length; lia. }
  rewrite slice_length in LD by lia. exists D. split; [exact ED|]. split; [exact LD|]. split.
  - intros q Hq Lq. rewrite A by assumption. apply slice_nth. exact Lq.
  - intros i m Em. assert (i < length mp) by (apply nth_error_Some; congruence).
    rewrite (B i m Em).
    + rewrite Nat.add_0_l. apply slice_nth. lia.
    + intros i' Hi' E'. assert (i = i'); [|lia].
      eapply NoDup_nth_error; [exact N|assumption|]. congruence.
Qed.

Lemma in_nth_err : forall (mp : list nat) m, In m mp -> exists i, nth_error mp i = Some m.
Proof. intros mp m H. apply In_nth_error. exact H. Qed.

Lemma unmap_right : forall M s n d k mp,
  s + n <= length M -> d + k <= length M -> NoDup mp -> Forall (fun m => m < k) mp -> length mp <= n ->
  (forall i j mj, j < i -> i < length mp -> nth_error mp j = Some mj -> d + mj <> s + i) ->
  unmap_in M s d 0 mp = (do D <- bv_unmap (slice s n M) mp (slice d k M); Ok (splice d D M)).
Proof.
  intros M s n d k mp Hs Hd N F Hn C.
  assert (F' : forall m, In m mp -> m < k) by (apply Forall_forall; exact F).
  pose proof (unmap_in_steps mp mp 0 s d M eq_refl) as E. cbn [steps] in E.
  rewrite E; [|intros m Hm; apply F' in Hm; lia|lia|lia|reflexivity]. clear E.
  assert (W : wf (gu d mp) (fun _ => 1) (wu s) (length mp) M)
    by (apply wu_wf; [exact N|intros m Hm; apply F' in Hm; lia]).
  destruct (steps_spec _ _ _ _ _ _ W) as (L & O & _).
  assert (R := steps_right _ _ _ _ _ _ W).
  destruct (unmap_apart M s n d k mp Hs Hd N F Hn) as (D & ED & LD & A & B).
  rewrite ED. cbn [bind]. f_equal. apply is_splice; [lia|exact L| |].
  - intros a Ha. apply O. intros i Hi. pose proof (F' _ (nth_In mp 0 Hi)). unfold gu. lia.
  - intros q Hq. destruct (in_dec Nat.eq_dec q mp) as [Q|Q].
    + destruct (in_nth_err _ _ Q) as (i & Ei). assert (Hi : i < length mp) by (apply nth_error_Some; congruence).
      rewrite (B i q Ei).
      assert (G : gu d mp i = d + q) by (unfold gu; rewrite (nth_error_nth _ _ _ Ei); reflexivity).
      rewrite <- G. replace (gu d mp i) with (gu d mp i + 0) by lia.
      rewrite R with (k := i) (q := 0); [| |exact Hi|lia].
      * unfold wu. cbn [nth_error]. symmetry. apply nth_error_nth'. lia.
      * intros i' X Hi' LX OX IX. unfold wu. f_equal. apply nth_err_nth. apply OX. intros j Hj.
        assert (Hjl : j < length mp) by lia. pose proof (nth_error_nth' mp 0 Hjl) as Ej.
        specialize (C i' j _ Hj Hi' Ej). unfold gu. lia.
    + rewrite A by (assumption || lia). apply O. intros i Hi. unfold gu.
      assert (nth i mp 0 <> q) by (intros <-; apply Q; apply nth_In; exact Hi). lia.
Qed.

Lemma unmap_only : forall L s n d k mp,
  s + n <= L -> d + k <= L -> NoDup mp -> Forall (fun m => m < k) mp -> length mp <= n ->
  (forall M, length M = L -> Forall (fun c => c = 0%Z \/ c = 1%Z) M ->
     unmap_in M s d 0 mp = (do D <- bv_unmap (slice s n M) mp (slice d k M); Ok (splice d D M))) ->
  forall i j mj, j < i -> i < length mp -> nth_error mp j = Some mj -> d + mj <> s + i.
Proof.
  intros L s n d k mp Hs Hd N F Hn H i j mj Hij Hi Ej Eq.
  assert (F' : forall m, In m mp -> m < k) by (apply Forall_forall; exact F).
  remember (one_at L (s + i)) as M eqn:EM.
  assert (LM : length M = L) by (subst M; apply one_at_length).
  specialize (H M LM ltac:(subst M; apply one_at_bits)).
  pose proof (unmap_in_steps mp mp 0 s d M eq_refl) as E. cbn [steps] in E.
  rewrite E in H; [|intros m Hm; apply F' in Hm; lia|lia|lia|reflexivity]. clear E.
  assert (W : wf (gu d mp) (fun _ => 1) (wu s) (length mp) M)
    by (apply wu_wf; [exact N|intros m Hm; apply F' in Hm; lia]).
  destruct (unmap_apart M s n d k mp) as (D & ED & LD & A & B); try assumption; try lia.
  rewrite ED in H. cbn [bind] in H. apply Ok_inj in H.
  assert (RR : forall k q, k < length mp -> q < 1 ->
     nth_error (steps (gu d mp) (wu s) (length mp) M) (gu d mp k + q) = nth_error (wu s k M) q).
  { intros q z Hq Hz. assert (z = 0) as -> by lia. pose proof (nth_error_nth' mp 0 Hq) as Eq'.
    pose proof (F' _ (nth_In mp 0 Hq)). unfold gu at 2.
    rewrite Nat.add_0_r, H, splice_in by lia. rewrite (B _ _ Eq'). unfold wu. cbn [nth_error].
    apply nth_error_nth'. lia. }
  destruct (steps_back _ _ _ _ _ _ W RR i Hi) as (X & LX & _ & IX & EX).
  specialize (IX j 0 Hij ltac:(lia)). rewrite Nat.add_0_r in IX. unfold wu in IX, EX. unfold gu in IX.
  rewrite (nth_error_nth _ _ _ Ej) in IX. cbn [nth_error] in IX.
  rewrite <- Eq in EX. rewrite (nth_error_nth _ _ _ IX) in EX.
  injection EX as EX. rewrite Eq in EX. subst M. rewrite !one_at_nth in EX by lia.
  rewrite Nat.eqb_refl in EX. destruct (Nat.eqb_spec (s + j) (s + i)); [lia|discriminate].
Qed.

(** * Permutations in place *)
Lemma perm_up : forall mp n, NoDup mp -> Forall (fun m => m < n) mp -> length mp = n ->
  (forall i m, nth_error mp i = Some m -> i <= m) -> mp = seq 0 n.
Proof.
  intros mp n N F L H.
  assert (F' : forall m, In m mp -> m < n) by (apply Forall_forall; exact F).
  assert (K : forall k i m, n - i <= k -> nth_error mp i = Some m -> m = i).
  { induction k as [|k IH]; intros i m Hk E.
    - assert (i < length mp) by (apply nth_error_Some; congruence). lia.
    - pose proof (H i m E). destruct (Nat.eq_dec m i) as [|X]; [assumption|exfalso].
      pose proof (F' m (nth_error_In _ _ E)).
      destruct (nth_error mp m) as [m'|] eqn:E'; [|apply nth_error_None in E'; lia].
      assert (m' = m) by (eapply IH; [|exact E']; lia). subst m'.
      apply X. symmetry. eapply NoDup_nth_error; [exact N| |congruence].
      apply nth_error_Some; congruence. }
  apply nth_error_ext. intros i. destruct (Nat.lt_ge_cases i n) as [Q|Q].
  - destruct (nth_error mp i) as [m|] eqn:E; [|apply nth_error_None in E; lia].
    rewrite (K _ _ _ (Nat.le_refl _) E). symmetry.
    rewrite (nth_error_nth' (seq 0 n) 0) by (rewrite seq_length; lia). rewrite seq_nth by lia. reflexivity.
  - transitivity (@None nat); [|symmetry]; apply nth_error_None; rewrite ?seq_length; lia.
Qed.

Lemma perm_down : forall mp n, NoDup mp -> Forall (fun m => m < n) mp -> length mp = n ->
  (forall i m, nth_error mp i = Some m -> m <= i) -> mp = seq 0 n.
Proof.
  intros mp n N F L H.
  assert (K : forall i m, nth_error mp i = Some m -> m = i).
  { induction i as [i IH] using lt_wf_ind. intros m E.
    pose proof (H i m E). destruct (Nat.eq_dec m i) as [|X]; [assumption|exfalso].
    assert (i < length mp) by (apply nth_error_Some; congruence).
    destruct (nth_error mp m) as [m'|] eqn:E'; [|apply nth_error_None in E'; lia].
    assert (m' = m) by (eapply IH; [|exact E']; lia). subst m'.
    apply X. eapply NoDup_nth_error; [exact N| |congruence]. lia. }
  apply nth_error_ext. intros i. destruct (Nat.lt_ge_cases i n) as [Q|Q].
  - destruct (nth_error mp i) as [m|] eqn:E; [|apply nth_error_None in E; lia].
    rewrite (K _ _ E). symmetry.
    rewrite (nth_error_nth' (seq 0 n) 0) by (rewrite seq_length; lia). rewrite seq_nth by lia. reflexivity.
  - transitivity (@None nat); [|symmetry]; apply nth_error_None; rewrite ?seq_length; lia.
Qed.

Lemma seq_nth_error : forall n i m, nth_error (seq 0 n) i = Some m -> m = i /\ i < n.
Proof.
  intros n i m E. assert (H : i < length (seq 0 n)) by (apply nth_error_Some; congruence).
  rewrite seq_length in H. rewrite (nth_error_nth' (seq 0 n) 0) in E by (rewrite seq_length; lia).
  rewrite seq_nth in E by lia. injection E as <-. lia.
Qed.

Lemma map_in_place : forall L s n mp, s + n <= L -> NoDup mp -> Forall (fun m => m < n) mp -> length mp = n ->
  ((forall M, length M = L -> Forall (fun c => c = 0%Z \/ c = 1%Z) M ->
      map_in M s s 0 mp = (do D <- bv_map (slice s n M) mp (slice s n M); Ok (splice s D M)))
   <-> mp = seq 0 n).
Proof.
  intros L s n mp Hs N F Ln. split.
  - intros H. pose proof (map_only L s n s n mp Hs Hs F ltac:(lia) H) as C.
    apply perm_up; auto. intros i m E. destruct (Nat.le_gt_cases i m) as [|G]; [assumption|exfalso].
    assert (Hm : m < length mp) by (assert (i < length mp) by (apply nth_error_Some; congruence); lia).
    pose proof (nth_error_nth' mp 0 Hm) as Em.
    pose proof (C i m m _ G E Em eq_refl) as X. rewrite X in Em.
    assert (m = i); [|lia]. eapply NoDup_nth_error; [exact N|exact Hm|congruence].
  - intros E M LM _. apply map_right; try lia; auto.
    intros i j mi mj Hij Ei Ej Eq. subst mp. apply seq_nth_error in Ei. apply seq_nth_error in Ej. lia.
Qed.

Lemma unmap_in_place : forall L s n mp, s + n <= L -> NoDup mp -> Forall (fun m => m < n) mp -> length mp = n ->
  ((forall M, length M = L -> Forall (fun c => c = 0%Z \/ c = 1%Z) M ->
      unmap_in M s s 0 mp = (do D <- bv_unmap (slice s n M) mp (slice s n M); Ok (splice s D M)))
   <-> mp = seq 0 n).
Proof.
  intros L s n mp Hs N F Ln. split.
  - intros H. pose proof (unmap_only L s n s n mp Hs Hs N F ltac:(lia) H) as C.
    apply perm_down; auto. intros i m E. destruct (Nat.le_gt_cases m i) as [|G]; [assumption|exfalso].
    pose proof (nth_error_In _ _ E) as I. rewrite Forall_forall in F. apply F in I.
    apply (C m i m G ltac:(lia) E eq_refl).
  - intros E M LM _. apply unmap_right; try lia; auto.
    intros i j mj Hij Hi Ej Eq. subst mp. apply seq_nth_error in Ej. lia.
Qed.

(** * fill *)
Lemma fill_in_spec : forall n M s a x, s + n <= length M -> nth_error M a = Some x ->
  fill_in M s n a = Ok (splice s (repeat x n) M).
Proof.
  induction n as [|n IH]; intros M s a x H E.
  - cbn [fill_in repeat]. rewrite splice_nil. reflexivity.
  - cbn [fill_in]. rewrite (proj2 (rd_ok _ M a x) E). cbn [bind]. rewrite wr_ok by lia. cbn [bind].
    rewrite (IH _ _ _ x).
    + cbn [repeat]. rewrite splice_cons_upd; [reflexivity|rewrite repeat_length; lia].
    + rewrite upd_length. lia.
    + destruct (Nat.eq_dec a s) as [->|X]; [apply nth_error_upd_eq; lia|].
      rewrite nth_error_upd_neq by congruence. exact E.
Qed.

(** * pack *)
Definition byte_in (s n k : nat) (X : list Z) : Z := s8 (byte_k (bits_of (slice s n X)) k).
Definition wp (s n k : nat) (X : list Z) : list Z := [byte_in s n k X].

Lemma slice_slice : forall A s n i m (X : list A), i + m <= n -> slice (s + i) m X = slice i m (slice s n X).
Proof.
  intros A s n i m X H. apply nth_error_ext. intros a. destruct (Nat.lt_ge_cases a m) as [Q|Q].
  - rewrite !slice_nth by lia. f_equal. lia.
  - unfold slice. rewrite !nth_error_firstn. destruct (Nat.ltb_spec a m); [lia|reflexivity].
Qed.

Lemma s8_u8 : forall x, s8 (u8 x) = s8 x.
Proof. intros. unfold s8, u8. rewrite Z.add_mod_idemp_l by discriminate. reflexivity. Qed.

Lemma u8_s8 : forall x, u8 (s8 x) = u8 x.
Proof.
  intros. unfold s8, u8. rewrite Zminus_mod_idemp_l. f_equal. lia.
Qed.

Lemma s8_odd : forall x, Z.odd (s8 x) = Z.odd x.
Proof.
  intros x. unfold s8. rewrite Z.odd_sub. change (Z.odd (2 ^ 7)) with false. rewrite xorb_false_r.
  rewrite <- !Z.bit0_odd. rewrite Z.mod_pow2_bits_low by lia. rewrite !Z.bit0_odd, Z.odd_add.
  change (Z.odd (2 ^ 7)) with false. apply xorb_false_r.
Qed.

Lemma peek_window : forall X s n j m, s + n <= length X -> j + m <= n ->
  peekField X (s + j) m = peekField (slice s n X) j m.
Proof.
  intros X s n j m H J. rewrite !peekField_spec; [|rewrite slice_length; lia|lia].
  rewrite <- slice_slice by assumption. reflexivity.
Qed.

Lemma pack_loop_steps : forall k i M0 s n t, s + n <= length M0 -> t + (i + k) <= length M0 -> 8 * (i + k) <= n ->
  length (steps (fun j => t + j) (wp s n) i M0) = length M0 ->
  pack_in_loop (steps (fun j => t + j) (wp s n) i M0) s t i k = Ok (steps (fun j => t + j) (wp s n) (i + k) M0).
Proof.
  induction k as [|k IH]; intros i M0 s n t Hs Ht Hn L.
  - rewrite Nat.add_0_r. reflexivity.
  - cbn [pack_in_loop]. rewrite (peek_window _ s n) by lia. rewrite peek_byte by (rewrite slice_length; lia).
    cbn [bind]. rewrite wr_ok by lia. cbn [bind].
    assert (Es : upd (steps (fun j => t + j) (wp s n) i M0) (t + i)
              (s8 (byte_k (bits_of (slice s n (steps (fun j => t + j) (wp s n) i M0))) i))
              = steps (fun j => t + j) (wp s n) (S i) M0).
    { cbn [steps]. rewrite upd_splice1 by lia. reflexivity. }
    rewrite Es. rewrite IH; [f_equal; f_equal; lia|lia|lia|lia|].
    rewrite <- Es, upd_length. exact L.
Qed.

Lemma wp_wf : forall s n t M B, t + B <= length M -> wf (fun k => t + k) (fun _ => 1) (wp s n) B M.
Proof. intros s n t M B H. repeat split; intros; cbn beta in *; lia. Qed.

Lemma pack_in_steps : forall M s n t, s + n <= length M -> t + (n + 7) / 8 <= length M ->
  pack_in M s n t = Ok (steps (fun j => t + j) (wp s n) ((n + 7) / 8) M).
Proof.
  intros M s n t Hs Ht. unfold pack_in.
  pose proof (pack_loop_steps (n / 8) 0 M s n t Hs ltac:(lia) ltac:(lia) eq_refl) as E. cbn [steps] in E.
  rewrite E. clear E. cbn [bind]. rewrite Nat.add_0_l.
  destruct (n - n / 8 * 8) as [|r] eqn:Er.
  - f_equal. f_equal. lia.
  - destruct (steps_spec _ _ _ _ _ _ (wp_wf s n t M (n / 8) ltac:(lia))) as (L & _ & _).
    remember (steps (fun j => t + j) (wp s n) (n / 8) M) as X eqn:EX.
    rewrite (peek_window X s n) by lia.
    assert (LX : length (slice s n X) = n) by (apply slice_length; lia).
    destruct (last_byte (slice s n X)) as (b & Eb & Ek); [rewrite LX; lia|].
    rewrite LX in Eb, Ek. rewrite Er in Eb, Ek. rewrite Eb. cbn [bind]. rewrite wr_ok by lia.
    replace ((n + 7) / 8) with (S (n / 8)) by lia. cbn [steps]. rewrite <- EX.
    rewrite upd_splice1 by lia. f_equal. f_equal. unfold wp, byte_in. rewrite <- Ek, s8_u8. reflexivity.
Qed.

Lemma byte_agree : forall s n k X M, s + n <= length X -> length X = length M ->
  (forall a, s + 8 * k <= a < s + 8 * k + 8 -> a < s + n -> nth_error X a = nth_error M a) ->
  byte_in s n k X = byte_in s n k M.
Proof.
  intros s n k X M H L A. unfold byte_in, byte_k. f_equal. f_equal.
  rewrite !firstn_app. f_equal.
  - rewrite !bits_slice. unfold bits_of at 1 2.
    apply nth_error_ext. intros q. rewrite !nth_error_firstn. destruct (Nat.ltb_spec q 8); [|reflexivity].
    rewrite !nth_error_skipn. unfold slice. rewrite !nth_error_firstn.
    destruct (Nat.ltb_spec (8 * k + q) n); [|reflexivity]. rewrite !nth_error_skipn, !nth_error_map.
    rewrite A by lia. reflexivity.
  - rewrite !skipn_length, !bits_length, !slice_length by lia. reflexivity.
Qed.

Lemma pack_right : forall M s n t, s + n <= length M -> t + (n + 7) / 8 <= length M -> t <= s + 7 \/ s + n <= t ->
  pack_in M s n t = Ok (splice t (map s8 (packed (bits_of (slice s n M)))) M).
Proof.
  intros M s n t Hs Ht C. rewrite pack_in_steps by assumption. f_equal.
  assert (W := wp_wf s n t M ((n + 7) / 8) Ht).
  destruct (steps_spec _ _ _ _ _ _ W) as (L & O & _).
  assert (LP : length (map s8 (packed (bits_of (slice s n M)))) = (n + 7) / 8).
  { rewrite map_length, packed_length, bits_length, slice_length by lia. reflexivity. }
  apply is_splice; [lia|exact L| |]; rewrite LP.
  - intros a Ha. apply O. intros k Hk. lia.
  - intros q Hq. replace (t + q) with (t + q + 0) by lia.
    rewrite (steps_right _ _ _ _ _ _ W) with (k := q) (q := 0); [| |exact Hq|lia].
    + rewrite packed_unfold, bits_length, slice_length by lia. rewrite map_map. unfold wp. cbn [nth_error]. symmetry.
      apply map_nth_error with (f := fun x => s8 (byte_k (bits_of (slice s n M)) x)).
      rewrite (nth_error_nth' (seq 0 ((n + 7) / 8)) 0) by (rewrite seq_length; lia). rewrite seq_nth by lia. reflexivity.
    + intros k X Hk LX OX _. unfold wp. f_equal. apply byte_agree; [lia|exact LX|].
      intros a Ha Hn. apply OX. intros j Hj. lia.
Qed.

Lemma s8_inj : forall a b, (0 <= a < 256)%Z -> (0 <= b < 256)%Z -> s8 a = s8 b -> a = b.
Proof.
  intros a b A B E. rewrite <- (u8_small a A), <- (u8_small b B), <- (u8_s8 a), <- (u8_s8 b), E. reflexivity.
Qed.

Lemma bits_window : forall s n X a, s + n <= length X -> a < n ->
  nth a (bits_of (slice s n X)) false = Z.odd (nth (s + a) X 0%Z).
Proof.
  intros s n X a H A. apply nth_error_nth. unfold bits_of. apply map_nth_error.
  rewrite slice_nth by assumption. apply nth_error_nth'. lia.
Qed.

Lemma pack_only : forall L s n t, s + n <= L -> t + (n + 7) / 8 <= L ->
  (forall M, length M = L -> Forall (fun c => c = 0%Z \/ c = 1%Z) M ->
     pack_in M s n t = Ok (splice t (map s8 (packed (bits_of (slice s n M)))) M)) ->
  t <= s + 7 \/ s + n <= t.
Proof.
  intros L s n t Hs Ht H.
  destruct (Nat.le_gt_cases t (s + 7)) as [|T1]; [left; assumption|].
  destruct (Nat.le_gt_cases (s + n) t) as [|T2]; [right; assumption|exfalso].
  remember (one_at L (s + 7)) as M eqn:EM.
  assert (LM : length M = L) by (subst M; apply one_at_length).
  specialize (H M LM ltac:(subst M; apply one_at_bits)).
  rewrite pack_in_steps in H by lia. apply Ok_inj in H.
  assert (W := wp_wf s n t M ((n + 7) / 8) ltac:(lia)).
  assert (LP : length (map s8 (packed (bits_of (slice s n M)))) = (n + 7) / 8).
  { rewrite map_length, packed_length, bits_length, slice_length by lia. reflexivity. }
  assert (RR : forall k q, k < (n + 7) / 8 -> q < 1 ->
     nth_error (steps (fun k => t + k) (wp s n) ((n + 7) / 8) M) (t + k + q) = nth_error (wp s n k M) q).
  { intros q z Hq Hz. assert (z = 0) as -> by lia. rewrite Nat.add_0_r, H, splice_in by lia.
    rewrite packed_unfold, bits_length, slice_length by lia. rewrite map_map. unfold wp. cbn [nth_error].
    apply map_nth_error with (f := fun x => s8 (byte_k (bits_of (slice s n M)) x)).
    rewrite (nth_error_nth' (seq 0 ((n + 7) / 8)) 0) by (rewrite seq_length; lia). rewrite seq_nth by lia. reflexivity. }
  set (x := t - s) in *. assert (Hk : x / 8 < (n + 7) / 8) by lia.
  destruct (steps_back _ _ _ _ _ _ W RR (x / 8) Hk) as (X & LX & _ & IX & EX).
  specialize (IX 0 0 ltac:(lia) ltac:(lia)). rewrite !Nat.add_0_r in IX. unfold wp in IX, EX. cbn [nth_error] in IX.
  assert (EY : byte_in s n (x / 8) X = byte_in s n (x / 8) M) by congruence. clear EX. rename EY into EX.
  unfold byte_in in EX. apply s8_inj in EX; [|apply byte_k_bound|apply byte_k_bound].
  assert (T : forall Y, length Y = L ->
    Z.testbit (byte_k (bits_of (slice s n Y)) (x / 8)) (Z.of_nat (7 - x mod 8)) = Z.odd (nth t Y 0%Z)).
  { intros Y LY. rewrite byte_k_testbit; [|lia|rewrite bits_length, slice_length; lia].
    replace (8 * (x / 8) + x mod 8) with x by lia. rewrite bits_window by lia. f_equal. f_equal. lia. }
  pose proof (T X ltac:(lia)) as TX. pose proof (T M LM) as TM. rewrite EX, TM in TX.
  rewrite (nth_error_nth _ _ _ IX) in TX. unfold byte_in in TX. rewrite s8_odd in TX.
  assert (T0 : Z.odd (byte_k (bits_of (slice s n M)) 0) = nth (8 * 0 + 7) (bits_of (slice s n M)) false).
  { rewrite <- byte_k_testbit; [|lia|rewrite bits_length, slice_length; lia]. symmetry. apply Z.bit0_odd. }
  rewrite T0 in TX.
  rewrite bits_window in TX by lia. subst M. rewrite !one_at_nth in TX by lia.
  destruct (Nat.eqb_spec t (s + 7)); [lia|]. destruct (Nat.eqb_spec (s + (8 * 0 + 7)) (s + 7)); [discriminate|lia].
Qed.

(** * unpack *)
Definition lu (n k : nat) : nat := Nat.min 8 (n - 8 * k).
Definition wk (n u k : nat) (X : list Z) : list Z :=
  field_bits (lu n k) (Z.shiftr (u8 (nth (u + k) X 0%Z)) (Z.of_nat (8 - lu n k))).

Lemma wk_wf : forall s n u M B, s + n <= length M -> B <= (n + 7) / 8 ->
  wf (fun k => s + k * 8) (lu n) (wk n u) B M.
Proof.
  intros s n u M B H HB. split; [|split].
  - intros. unfold wk. apply field_bits_length.
  - intros k Hk. unfold lu. lia.
  - intros j k Hj Hk. unfold lu. lia.
Qed.

Lemma wk_nth : forall n u k X q, q < lu n k ->
  nth_error (wk n u k X) q = Some (Z.b2z (Z.testbit (u8 (nth (u + k) X 0%Z)) (Z.of_nat (7 - q)))).
Proof.
  intros n u k X q H. unfold wk. rewrite field_bits_nth by assumption. rewrite Z.shiftr_spec by lia.
  do 3 f_equal. unfold lu in *. lia.
Qed.

Lemma fill_in_field_ok : forall M s n i v len, s + n <= length M -> i + len <= n ->
  fill_in_field M s n i v len = Ok (splice (s + i) (field_bits len v) M).
Proof.
  intros M s n i v len H L. unfold fill_in_field. destruct len as [|len].
  - change (field_bits 0 v) with (@nil Z). rewrite splice_nil. reflexivity.
  - unfold assert_. replace (Z.of_nat i + Z.of_nat (S len) - 1 <? Z.of_nat n)%Z with true by lia.
    cbn [bind]. apply fill_loop_spec. lia.
Qed.

Lemma unpack_loop_steps : forall k i M0 s n u, s + n <= length M0 -> u + (i + k) <= length M0 -> 8 * (i + k) <= n ->
  length (steps (fun j => s + j * 8) (wk n u) i M0) = length M0 ->
  unpack_in_loop (steps (fun j => s + j * 8) (wk n u) i M0) s n u i k
  = Ok (steps (fun j => s + j * 8) (wk n u) (i + k) M0).
Proof.
  induction k as [|k IH]; intros i M0 s n u Hs Hu Hn L.
  - rewrite Nat.add_0_r. reflexivity.
  - cbn [unpack_in_loop]. rewrite rd_nth by lia. cbn [bind]. rewrite fill_in_field_ok by lia. cbn [bind].
    assert (Es : splice (s + i * 8) (field_bits 8 (u8 (nth (u + i) (steps (fun j => s + j * 8) (wk n u) i M0) 0%Z)))
                   (steps (fun j => s + j * 8) (wk n u) i M0) = steps (fun j => s + j * 8) (wk n u) (S i) M0).
    { cbn [steps]. f_equal. remember (steps (fun j => s + j * 8) (wk n u) i M0) as X eqn:EX. clear EX.
      unfold wk. assert (lu n i = 8) as -> by (unfold lu; lia).
      rewrite Nat.sub_diag, Z.shiftr_0_r. reflexivity. }
    rewrite Es. rewrite IH; [f_equal; f_equal; lia|lia|lia|lia|].
    rewrite <- Es, splice_length; [exact L|]. rewrite field_bits_length. lia.
Qed.

Lemma unpack_in_steps : forall M s n u, s + n <= length M -> u + (n + 7) / 8 <= length M ->
  unpack_in M s n u = Ok (steps (fun j => s + j * 8) (wk n u) ((n + 7) / 8) M).
Proof.
  intros M s n u Hs Hu. unfold unpack_in.
  pose proof (unpack_loop_steps (n / 8) 0 M s n u Hs ltac:(lia) ltac:(lia) eq_refl) as E. cbn [steps] in E.
  rewrite E. clear E. cbn [bind]. rewrite Nat.add_0_l.
  destruct (n - n / 8 * 8) as [|r] eqn:Er.
  - f_equal. f_equal. lia.
  - destruct (steps_spec _ _ _ _ _ _ (wk_wf s n u M (n / 8) Hs ltac:(lia))) as (L & _ & _).
    remember (steps (fun j => s + j * 8) (wk n u) (n / 8) M) as X eqn:EX.
    rewrite rd_nth by lia. cbn [bind]. rewrite fill_in_field_ok by lia.
    replace ((n + 7) / 8) with (S (n / 8)) by lia. cbn [steps]. rewrite <- EX. f_equal. f_equal.
    unfold wk. assert (lu n (n / 8) = S r) as -> by (unfold lu; lia). reflexivity.
Qed.

Lemma unpack_right : forall M s n u, s + n <= length M -> u + (n + 7) / 8 <= length M ->
  u + (n + 7) / 8 <= s \/ s + 7 * ((n + 7) / 8 - 1) <= u ->
  unpack_in M s n u = Ok (splice s (unpacked n (map u8 (slice u ((n + 7) / 8) M))) M).
Proof.
  intros M s n u Hs Hu C. rewrite unpack_in_steps by assumption. f_equal.
  assert (W := wk_wf s n u M ((n + 7) / 8) Hs ltac:(lia)).
  destruct (steps_spec _ _ _ _ _ _ W) as (L & O & _).
  apply is_splice; rewrite ?unpacked_length; [lia|exact L| |].
  - intros a Ha. apply O. intros k Hk. unfold lu. lia.
  - intros q Hq. replace (s + q) with (s + q / 8 * 8 + q mod 8) by lia.
    rewrite (steps_right _ _ _ _ _ _ W) with (k := q / 8) (q := q mod 8); [| |lia|unfold lu; lia].
    + rewrite wk_nth by (unfold lu; lia). rewrite unpacked_nth. destruct (Nat.ltb_spec q n); [|lia].
      do 4 f_equal. symmetry. apply nth_error_nth. apply map_nth_error. rewrite slice_nth by lia.
      apply nth_error_nth'. lia.
    + intros k X Hk LX OX _. unfold wk. do 3 f_equal. apply nth_err_nth. apply OX.
      intros j Hj. unfold lu. lia.
Qed.

(** A memory of zeros with the byte 255 at [b]. *)
Definition ff_at (L b : nat) : list Z := map (fun a => if a =? b then (-1)%Z else 0%Z) (seq 0 L).

Lemma ff_at_length : forall L b, length (ff_at L b) = L.
Proof. intros. unfold ff_at. rewrite map_length, seq_length. reflexivity. Qed.

Lemma ff_at_nth : forall L b a, a < L -> nth a (ff_at L b) 0%Z = if a =? b then (-1)%Z else 0%Z.
Proof.
  intros L b a H. unfold ff_at. apply nth_error_nth. apply map_nth_error with (f := fun a => if a =? b then (-1)%Z else 0%Z).
  rewrite (nth_error_nth' (seq 0 L) 0) by (rewrite seq_length; lia). rewrite seq_nth by lia. reflexivity.
Qed.

Lemma ff_at_char : forall L b, Forall (fun c => (-128 <= c < 128)%Z) (ff_at L b).
Proof.
  intros. unfold ff_at. apply Forall_forall. intros x H. apply in_map_iff in H. destruct H as (a & <- & _).
  destruct (a =? b); lia.
Qed.

Lemma unpack_only : forall L s n u, s + n <= L -> u + (n + 7) / 8 <= L ->
  (forall M, length M = L -> Forall (fun c => (-128 <= c < 128)%Z) M ->
     unpack_in M s n u = Ok (splice s (unpacked n (map u8 (slice u ((n + 7) / 8) M))) M)) ->
  u + (n + 7) / 8 <= s \/ s + 7 * ((n + 7) / 8 - 1) <= u.
Proof.
  intros L s n u Hs Hu H.
  destruct (Nat.le_gt_cases (u + (n + 7) / 8) s) as [|T1]; [left; assumption|].
  destruct (Nat.le_gt_cases (s + 7 * ((n + 7) / 8 - 1)) u) as [|T2]; [right; assumption|exfalso].
  set (k := (n + 7) / 8 - 1) in *.
  remember (ff_at L (u + k)) as M eqn:EM.
  assert (LM : length M = L) by (subst M; apply ff_at_length).
  specialize (H M LM ltac:(subst M; apply ff_at_char)).
  rewrite unpack_in_steps in H by lia. apply Ok_inj in H.
  assert (W := wk_wf s n u M ((n + 7) / 8) ltac:(lia) ltac:(lia)).
  assert (RR : forall k q, k < (n + 7) / 8 -> q < lu n k ->
     nth_error (steps (fun k => s + k * 8) (wk n u) ((n + 7) / 8) M) (s + k * 8 + q) = nth_error (wk n u k M) q).
  { intros j q Hj Hq. assert (8 * j + q < n) by (unfold lu in Hq; lia). rewrite H.
    replace (s + j * 8 + q) with (s + (8 * j + q)) by lia. rewrite splice_in by (rewrite unpacked_length; lia).
    rewrite wk_nth by assumption. rewrite unpacked_nth. destruct (Nat.ltb_spec (8 * j + q) n); [|lia].
    assert (q < 8) by (unfold lu in Hq; lia).
    replace ((8 * j + q) / 8) with j by lia. replace ((8 * j + q) mod 8) with q by lia. do 4 f_equal.
    apply nth_error_nth. apply map_nth_error. rewrite slice_nth by lia. apply nth_error_nth'. lia. }
  assert (Hk : k < (n + 7) / 8) by lia.
  destruct (steps_back _ _ _ _ _ _ W RR k Hk) as (X & LX & _ & IX & EX).
  assert (L0 : 0 < lu n k) by (unfold lu; lia).
  pose proof (wk_nth n u k X 0 L0) as NX. rewrite EX, wk_nth in NX by assumption.
  assert (EM1 : nth (u + k) M 0%Z = (-1)%Z).
  { subst M. rewrite ff_at_nth by lia. rewrite Nat.eqb_refl. reflexivity. }
  (* the cell was overwritten by block (u + k - s) / 8 *)
  set (j := (u + k - s) / 8). set (q := (u + k - s) mod 8).
  assert (Hj : j < k) by (unfold j; lia).
  assert (Hq : q < lu n j) by (unfold lu, q, j in *; lia).
  specialize (IX j q Hj Hq). replace (s + j * 8 + q) with (u + k) in IX by (unfold j, q; lia).
  rewrite wk_nth in IX by assumption. rewrite (nth_error_nth _ _ _ IX), EM1 in NX.
  destruct (Z.testbit (u8 (nth (u + j) M 0%Z)) (Z.of_nat (7 - q))); vm_compute in NX; discriminate.
Qed.

(** * Puncturing *)
Lemma splice_upd : forall A d (dst M : list A) q c, d + length dst <= length M -> q < length dst ->
  upd (splice d dst M) (d + q) c = splice d (upd dst q c) M.
Proof.
  intros A d dst M q c H Q. apply is_splice; rewrite ?upd_length.
  - exact H.
  - apply splice_length. exact H.
  - intros a Ha. rewrite nth_error_upd_neq by lia. apply splice_out; assumption.
  - intros p Hp. destruct (Nat.eq_dec p q) as [->|N].
    + rewrite !nth_error_upd_eq; [reflexivity|assumption|]. rewrite splice_length by exact H. lia.
    + rewrite !nth_error_upd_neq by lia. apply splice_in; assumption.
Qed.

(** The destination holds, from [dstp] on, what the memory held at first. *)
Definition inv {A} (M : list A) (d dl dstp : nat) (dst : list A) : Prop :=
  length dst = dl /\ forall q, dstp <= q -> q < dl -> nth_error dst q = nth_error M (d + q).

Lemma inv_upd : forall A (M : list A) d dl dstp dst c, inv M d dl dstp dst -> inv M d dl (S dstp) (upd dst dstp c).
Proof.
  intros A M d dl dstp dst c (L & I). split; [rewrite upd_length; exact L|].
  intros q Hq Hd. rewrite nth_error_upd_neq by lia. apply I; lia.
Qed.

Lemma read_same : forall A (M dst : list A) s sl d dl srcp dstp, s + sl <= length M -> d + dl <= length M ->
  inv M d dl dstp dst -> srcp < sl -> s + srcp < d \/ d + dstp <= s + srcp ->
  rd (splice d dst M) (s + srcp) = rd (slice s sl M) srcp.
Proof.
  intros A M dst s sl d dl srcp dstp Hs Hd (L & I) Hr C. unfold rd. rewrite slice_nth by assumption.
  rewrite splice_nth by lia. rewrite L. destruct (Nat.ltb_spec (s + srcp) d); [reflexivity|].
  destruct (Nat.ltb_spec (s + srcp) (d + dl)); [|reflexivity].
  rewrite I by lia. replace (d + (s + srcp - d)) with (s + srcp) by lia. reflexivity.
Qed.

Lemma copy_in_sim : forall A (M : list A) s sl d dl dl' n srcp dstp dst, s + sl <= length M -> d + dl <= length M ->
  d + dl' <= s \/ s + sl <= d -> dstp <= srcp + dl' ->
  inv M d dl dstp dst ->
  copy_in (splice d dst M) s sl d dl n srcp dstp
  = (do st <- copy_n (slice s sl M) n srcp dstp dst; let '(a, b, dst') := st in Ok (a, b, splice d dst' M)) /\
  (forall a b dst', copy_n (slice s sl M) n srcp dstp dst = Ok (a, b, dst') ->
     a = srcp + n /\ b = dstp + n /\ inv M d dl b dst' /\ (srcp <= sl -> a <= sl)).
Proof.
  induction n as [|n IH]; intros srcp dstp dst Hs Hd C D I.
  - cbn [copy_in copy_n bind]. split; [reflexivity|]. intros a b dst' E. injection E as <- <- <-.
    rewrite !Nat.add_0_r. auto.
  - assert (L : length dst = dl) by apply I.
    cbn [copy_in copy_n]. rewrite slice_length by assumption. rewrite L. unfold assert_.
    destruct (Nat.ltb_spec srcp sl) as [Hr|Hr]; [|cbn [andb bind]; split; [reflexivity|discriminate]].
    destruct (Nat.ltb_spec dstp dl) as [Hq|Hq]; [|cbn [andb bind]; split; [reflexivity|discriminate]].
    cbn [andb bind]. rewrite (read_same _ M dst s sl d dl srcp dstp) by (assumption || lia).
    destruct (rd_in _ (slice s sl M) srcp) as (c & Ec & _); [rewrite slice_length; lia|].
    rewrite Ec. cbn [bind]. rewrite !wr_ok; [|lia|rewrite splice_length; lia]. cbn [bind].
    rewrite splice_upd by lia.
    destruct (IH (S srcp) (S dstp) (upd dst dstp c)) as (E & F); try assumption; try lia.
    { apply inv_upd. exact I. }
    rewrite E. split; [reflexivity|]. intros a b dst' G. destruct (F a b dst' G) as (-> & -> & J & K).
    split; [lia|]. split; [lia|]. split; [exact J|]. intros _. apply K. lia.
Qed.

Lemma rest_in_sim : forall A (M : list A) s sl d dl dl' n srcp dstp dst, s + sl <= length M -> d + dl <= length M ->
  d + dl' <= s \/ s + sl <= d -> dstp <= srcp + dl' -> srcp + n <= sl ->
  inv M d dl dstp dst ->
  rest_in (splice d dst M) s d dl n srcp dstp
  = (do st <- copy_rest (slice s sl M) n srcp dstp dst; let '(a, b, dst') := st in Ok (a, b, splice d dst' M)) /\
  (forall a b dst', copy_rest (slice s sl M) n srcp dstp dst = Ok (a, b, dst') -> length dst' = dl).
Proof.
  induction n as [|n IH]; intros srcp dstp dst Hs Hd C D N I.
  - cbn [rest_in copy_rest bind]. split; [reflexivity|]. intros a b dst' E. injection E as <- <- <-. apply I.
  - assert (L : length dst = dl) by apply I.
    cbn [rest_in copy_rest]. rewrite L. unfold assert_.
    destruct (Nat.ltb_spec dstp dl) as [Hq|Hq]; [|cbn [andb bind]; split; [reflexivity|discriminate]].
    cbn [bind]. rewrite (read_same _ M dst s sl d dl srcp dstp) by (assumption || lia).
    destruct (rd_in _ (slice s sl M) srcp) as (c & Ec & _); [rewrite slice_length; lia|].
    rewrite Ec. cbn [bind]. rewrite !wr_ok; [|lia|rewrite splice_length; lia]. cbn [bind].
    rewrite splice_upd by lia.
    destruct (IH (S srcp) (S dstp) (upd dst dstp c)) as (E & F); try assumption; try lia.
    { apply inv_upd. exact I. }
    rewrite E. split; [reflexivity|exact F].
Qed.

Lemma punct_loop_sim : forall A ps (M : list A) s sl d dl srcp dstp dst, s + sl <= length M -> d + dl <= length M ->
  d <= s \/ s + sl <= d -> dstp <= srcp -> inv M d dl dstp dst ->
  punct_in_loop (splice d dst M) s sl d dl srcp dstp ps
  = (do D <- punct_loop (slice s sl M) srcp dstp dst ps; Ok (splice d D M)).
Proof.
  induction ps as [|p ps IH]; intros M s sl d dl srcp dstp dst Hs Hd C D I;
    cbn [punct_in_loop punct_loop]; rewrite slice_length by assumption;
    assert (L : length dst = dl) by apply I.
  - destruct (Nat.ltb_spec srcp sl) as [Hr|Hr].
    + destruct (rest_in_sim A M s sl d dl 0 (sl - srcp) srcp dstp dst) as (E & F); try assumption; try lia.
      rewrite E. destruct (copy_rest (slice s sl M) (sl - srcp) srcp dstp dst) as [((a, b), dst')| | |] eqn:G; cbn [bind]; try reflexivity.
      rewrite (F a b dst' eq_refl). unfold assert_. destruct (Nat.eqb b dl); reflexivity.
    + rewrite L. unfold assert_. destruct (Nat.eqb dstp dl); reflexivity.
  - destruct (Nat.ltb_spec srcp sl) as [Hr|Hr].
    + cbv zeta. unfold assert_. destruct (0 <=? s32 (p - Z.of_nat srcp))%Z eqn:Ep; cbn [bind]; [|reflexivity].
      destruct (copy_in_sim A M s sl d dl 0 (Z.to_nat (s32 (p - Z.of_nat srcp))) srcp dstp dst) as (E & F); try assumption; try lia.
      rewrite E. destruct (copy_n (slice s sl M) (Z.to_nat (s32 (p - Z.of_nat srcp))) srcp dstp dst) as [((a, b), dst')| | |] eqn:G; cbn [bind]; try reflexivity.
      destruct (F a b dst' eq_refl) as (-> & -> & J & _). apply IH; try assumption. lia.
    + rewrite L. unfold assert_. destruct (Nat.eqb dstp dl); reflexivity.
Qed.

Lemma unpunct_loop_sim : forall A e ps (M : list A) s sl d dl dl' srcp dstp dst, s + sl <= length M -> d + dl <= length M ->
  d + dl' <= s \/ s + sl <= d -> dstp + length ps <= srcp + dl' -> srcp <= sl -> inv M d dl dstp dst ->
  unpunct_loop e (slice s sl M) srcp dstp dst ps <> UB ->
  unpunct_in_loop e (splice d dst M) s sl d dl srcp dstp ps
  = (do D <- unpunct_loop e (slice s sl M) srcp dstp dst ps; Ok (splice d D M)).
Proof.
  induction ps as [|p ps IH]; intros M s sl d dl dl' srcp dstp dst Hs Hd C D Hsl I U; cbn [length] in D;
    cbn [unpunct_in_loop unpunct_loop]; cbn [unpunct_loop] in U;
    assert (L : length dst = dl) by apply I; rewrite L in *.
  - destruct (Nat.ltb_spec dstp dl) as [Hr|Hr].
    + rewrite slice_length in * by assumption.
      destruct (rest_in_sim A M s sl d dl dl' (sl - srcp) srcp dstp dst) as (E & F); try assumption; try lia.
      rewrite E. destruct (copy_rest (slice s sl M) (sl - srcp) srcp dstp dst) as [((a, b), dst')| | |] eqn:G; cbn [bind]; try reflexivity.
      rewrite (F a b dst' eq_refl). destruct (Nat.ltb b dl); [reflexivity|].
      unfold assert_. destruct (Nat.eqb b dl); reflexivity.
    + unfold assert_. destruct (Nat.eqb dstp dl); reflexivity.
  - destruct (Nat.ltb_spec dstp dl) as [Hr|Hr].
    + cbv zeta in *. unfold assert_ in *. destruct (0 <=? s32 (p - Z.of_nat dstp))%Z eqn:Ep; cbn [bind] in *; [|reflexivity].
      destruct (copy_in_sim A M s sl d dl dl' (Z.to_nat (s32 (p - Z.of_nat dstp))) srcp dstp dst) as (E & F); try assumption; try lia.
      rewrite E. destruct (copy_n (slice s sl M) (Z.to_nat (s32 (p - Z.of_nat dstp))) srcp dstp dst) as [((a, b), dst')| | |] eqn:G; cbn [bind] in *; try reflexivity.
      destruct (F a b dst' eq_refl) as (-> & -> & J & K). assert (L' : length dst' = dl) by apply J.
      destruct (Nat.lt_ge_cases (dstp + Z.to_nat (s32 (p - Z.of_nat dstp))) dl) as [Q|Q].
      * rewrite (wr_ok _ dst') in U |- * by lia. cbn [bind] in *. rewrite wr_ok by (rewrite splice_length; lia). cbn [bind].
        rewrite splice_upd by lia. apply (IH M s sl d dl dl'); try assumption; [lia|lia|]. apply inv_upd. exact J.
      * rewrite wr_ub in U by lia. cbn [bind] in U. congruence.
    + unfold assert_. destruct (Nat.eqb dstp dl); reflexivity.
Qed.

Lemma splice_self : forall A d dl (M : list A), d + dl <= length M -> splice d (slice d dl M) M = M.
Proof.
  intros A d dl M H. symmetry. apply is_splice; rewrite ?slice_length by assumption; auto.
  intros q Hq. symmetry. apply slice_nth. exact Hq.
Qed.

Lemma inv_start : forall A d dl (M : list A), d + dl <= length M -> inv M d dl 0 (slice d dl M).
Proof.
  intros A d dl M H. split; [apply slice_length; exact H|]. intros q _ Hq. apply slice_nth. exact Hq.
Qed.

Lemma punct_sim : forall A (M : list A) s sl d dl ps, s + sl <= length M -> d + dl <= length M ->
  d <= s \/ s + sl <= d ->
  punct_in M s sl d dl ps = (do D <- copyPunctured (slice s sl M) (slice d dl M) ps; Ok (splice d D M)).
Proof.
  intros A M s sl d dl ps Hs Hd C. unfold punct_in, copyPunctured. rewrite !slice_length by assumption.
  unfold assert_. destruct (_ =? _)%Z; cbn [bind]; [|reflexivity].
  rewrite <- (splice_self A d dl M Hd) at 1. apply punct_loop_sim; try assumption; [lia|].
  apply inv_start. exact Hd.
Qed.

Lemma unpunct_sim : forall A (e : A) (M : list A) s sl d dl ps, s + sl <= length M -> d + dl <= length M ->
  d + length ps <= s \/ s + sl <= d ->
  copyUnPunctured e (slice s sl M) (slice d dl M) ps <> UB ->
  unpunct_in e M s sl d dl ps = (do D <- copyUnPunctured e (slice s sl M) (slice d dl M) ps; Ok (splice d D M)).
Proof.
  intros A e M s sl d dl ps Hs Hd C U. unfold unpunct_in, copyUnPunctured in *. rewrite !slice_length in * by assumption.
  unfold assert_ in *. destruct (_ =? _)%Z; cbn [bind] in *; [|reflexivity].
  rewrite <- (splice_self A d dl M Hd) at 1. apply unpunct_loop_sim with (dl' := length ps); try assumption; try lia.
  apply inv_start. exact Hd.
Qed.

(** In place, the erasure is copied on. *)
Lemma copy_smear : forall A (e : A) n (M : list A) sl d dl srcp dstp, d + dl <= length M -> srcp + n <= sl -> dstp + n <= dl ->
  srcp < dstp -> (forall a, d + srcp <= a < d + dstp -> nth_error M a = Some e) ->
  copy_in M d sl d dl n srcp dstp = Ok (srcp + n, dstp + n, splice (d + dstp) (repeat e n) M).
Proof.
  induction n as [|n IH]; intros M sl d dl srcp dstp Hd H1 H2 H3 H4.
  - cbn [copy_in repeat]. rewrite splice_nil, !Nat.add_0_r. reflexivity.
  - cbn [copy_in]. unfold assert_. destruct (Nat.ltb_spec srcp sl); [|lia]. destruct (Nat.ltb_spec dstp dl); [|lia].
    cbn [andb bind]. rewrite (proj2 (rd_ok _ M (d + srcp) e)) by (apply H4; lia). cbn [bind].
    rewrite wr_ok by lia. cbn [bind]. rewrite IH; try lia.
    + cbn [repeat]. replace (d + S dstp) with (S (d + dstp)) by lia.
      rewrite splice_cons_upd by (rewrite repeat_length; lia). do 3 f_equal; lia.
    + rewrite upd_length. lia.
    + intros a Ha. destruct (Nat.eq_dec a (d + dstp)) as [->|N]; [apply nth_error_upd_eq; lia|].
      rewrite nth_error_upd_neq by lia. apply H4. lia.
Qed.

Lemma rest_smear : forall A (e : A) n (M : list A) d dl srcp dstp, d + dl <= length M -> dstp + n <= dl ->
  srcp < dstp -> (forall a, d + srcp <= a < d + dstp -> nth_error M a = Some e) ->
  rest_in M d d dl n srcp dstp = Ok (srcp + n, dstp + n, splice (d + dstp) (repeat e n) M).
Proof.
  induction n as [|n IH]; intros M d dl srcp dstp Hd H2 H3 H4.
  - cbn [rest_in repeat]. rewrite splice_nil, !Nat.add_0_r. reflexivity.
  - cbn [rest_in]. unfold assert_. destruct (Nat.ltb_spec dstp dl); [|lia].
    cbn [andb bind]. rewrite (proj2 (rd_ok _ M (d + srcp) e)) by (apply H4; lia). cbn [bind].
    rewrite wr_ok by lia. cbn [bind]. rewrite IH; try lia.
    + cbn [repeat]. replace (d + S dstp) with (S (d + dstp)) by lia.
      rewrite splice_cons_upd by (rewrite repeat_length; lia). do 3 f_equal; lia.
    + rewrite upd_length. lia.
    + intros a Ha. destruct (Nat.eq_dec a (d + dstp)) as [->|N]; [apply nth_error_upd_eq; lia|].
      rewrite nth_error_upd_neq by lia. apply H4. lia.
Qed.

Lemma splice_twice : forall A (e : A) i n m (M : list A), i + n + m <= length M ->
  splice (i + n) (repeat e m) (splice i (repeat e n) M) = splice i (repeat e (n + m)) M.
Proof.
  intros A e i n m M H.
  assert (L : length (splice i (repeat e n) M) = length M) by (apply splice_length; rewrite repeat_length; lia).
  apply is_splice; rewrite ?repeat_length.
  - lia.
  - rewrite splice_length; [exact L|]. rewrite repeat_length, L. lia.
  - intros a Ha. rewrite splice_out by (rewrite repeat_length; lia). apply splice_out; rewrite repeat_length; lia.
  - intros q Hq. rewrite nth_error_repeat_ by lia. destruct (Nat.lt_ge_cases q n).
    + rewrite splice_out by (rewrite repeat_length; lia). rewrite splice_in by (rewrite repeat_length; lia).
      apply nth_error_repeat_. lia.
    + replace (i + q) with (i + n + (q - n)) by lia. rewrite splice_in by (rewrite repeat_length; lia).
      apply nth_error_repeat_. lia.
Qed.

Lemma s32_small : forall x, (0 <= x < 2 ^ 31)%Z -> s32 x = x.
Proof. intros x H. unfold s32. rewrite Z.mod_small by lia. lia. Qed.

Lemma increasing_le : forall l lo b, increasing_from lo l b -> (lo <= b)%Z -> (Z.of_nat (length l) <= b - lo)%Z.
Proof.
  induction l as [|p t IH]; intros lo b H L; cbn [length].
  - lia.
  - destruct H as (H1 & H2). apply IH in H2; lia.
Qed.

Lemma unpunct_smear : forall A (e : A) ps (M : list A) sl d dl srcp dstp, d + dl <= length M ->
  (Z.of_nat dl < 2 ^ 31)%Z -> increasing_from (Z.of_nat dstp) ps (Z.of_nat dl) ->
  dstp + sl + length ps = dl + srcp -> srcp <= sl -> dstp <= dl ->
  srcp < dstp -> (forall a, d + srcp <= a < d + dstp -> nth_error M a = Some e) ->
  unpunct_in_loop e M d sl d dl srcp dstp ps = Ok (splice (d + dstp) (repeat e (dl - dstp)) M).
Proof.
  induction ps as [|p ps IH]; intros M sl d dl srcp dstp Hd Hl I Hn Hs Hq H3 H4; cbn [length] in Hn.
  - cbn [unpunct_in_loop]. destruct (Nat.ltb_spec dstp dl) as [Q|Q].
    + rewrite (rest_smear A e) by (assumption || lia). cbn [bind].
      destruct (Nat.ltb_spec (dstp + (sl - srcp)) dl); [lia|]. unfold assert_.
      destruct (Nat.eqb_spec (dstp + (sl - srcp)) dl); [|lia]. cbn [bind]. do 3 f_equal. lia.
    + unfold assert_. destruct (Nat.eqb_spec dstp dl); [|lia]. cbn [andb bind].
      replace (dl - dstp) with 0 by lia. cbn [repeat]. rewrite splice_nil. reflexivity.
  - cbn [increasing_from] in I. destruct I as (I1 & I2). cbn [unpunct_in_loop].
    pose proof (increasing_le _ _ _ I2 ltac:(lia)) as K.
    destruct (Nat.ltb_spec dstp dl) as [Q|Q]; [|lia]. cbv zeta. rewrite s32_small by lia. unfold assert_.
    destruct (Z.leb_spec 0 (p - Z.of_nat dstp)); [|lia]. cbn [bind].
    remember (Z.to_nat (p - Z.of_nat dstp)) as n eqn:En.
    rewrite (copy_smear A e) by (assumption || lia). cbn [bind].
    assert (L1 : length (splice (d + dstp) (repeat e n) M) = length M)
      by (apply splice_length; rewrite repeat_length; lia).
    rewrite wr_ok by lia. cbn [bind].
    rewrite upd_splice1 by lia. change [e] with (repeat e 1). replace (d + (dstp + n)) with (d + dstp + n) by lia.
    rewrite splice_twice by lia.
    assert (L2 : length (splice (d + dstp) (repeat e (n + 1)) M) = length M)
      by (apply splice_length; rewrite repeat_length; lia).
    rewrite IH; try lia.
    + replace (d + S (dstp + n)) with (d + dstp + (n + 1)) by lia. rewrite splice_twice by lia. do 3 f_equal. lia.
    + replace (Z.of_nat (S (dstp + n))) with (p + 1)%Z by lia. exact I2.
    + intros a Ha. destruct (Nat.lt_ge_cases a (d + dstp)).
      * rewrite splice_out by (rewrite repeat_length; lia). apply H4. lia.
      * replace a with (d + dstp + (a - d - dstp)) by lia. rewrite splice_in by (rewrite repeat_length; lia).
        apply nth_error_repeat_. lia.
Qed.

Lemma upd_same : forall A (v : list A) i x, nth_error v i = Some x -> upd v i x = v.
Proof.
  intros A v i x H. apply nth_error_ext. intros a.
  assert (i < length v) by (apply nth_error_Some; congruence).
  destruct (Nat.eq_dec a i) as [->|N]; [rewrite nth_error_upd_eq by assumption; congruence|].
  apply nth_error_upd_neq. congruence.
Qed.

Lemma copy_still : forall A n (M : list A) sl d dl p, d + dl <= length M -> p + n <= sl -> p + n <= dl ->
  copy_in M d sl d dl n p p = Ok (p + n, p + n, M).
Proof.
  induction n as [|n IH]; intros M sl d dl p Hd H1 H2.
  - cbn [copy_in]. rewrite !Nat.add_0_r. reflexivity.
  - cbn [copy_in]. unfold assert_. destruct (Nat.ltb_spec p sl); [|lia]. destruct (Nat.ltb_spec p dl); [|lia].
    cbn [andb bind]. destruct (rd_in _ M (d + p)) as (c & E1 & E2); [lia|]. rewrite E1. cbn [bind].
    rewrite wr_ok by lia. cbn [bind]. rewrite upd_same by assumption. rewrite IH by lia. do 3 f_equal; lia.
Qed.

Lemma unpunct_in_place : forall A (e : A) (M : list A) d dl sl p ps, d + dl <= length M ->
  (Z.of_nat dl < 2 ^ 31)%Z -> dl = sl + length (p :: ps) -> increasing_from 0 (p :: ps) (Z.of_nat dl) ->
  unpunct_in e M d sl d dl (p :: ps) = Ok (splice (d + Z.to_nat p) (repeat e (dl - Z.to_nat p)) M).
Proof.
  intros A e M d dl sl p ps Hd Hl Hn I. unfold unpunct_in, assert_. cbn [length] in Hn |- *.
  replace (u64 (Z.of_nat sl + Z.of_nat (S (length ps))) =? Z.of_nat dl)%Z with true.
  2:{ symmetry. apply Z.eqb_eq. unfold u64. rewrite Z.mod_small by lia. lia. }
  cbn [bind unpunct_in_loop]. destruct I as (I1 & I2).
  pose proof (increasing_le _ _ _ I2 ltac:(lia)) as K.
  destruct (Nat.ltb_spec 0 dl); [|lia]. cbv zeta. change (Z.of_nat 0) with 0%Z. rewrite Z.sub_0_r.
  rewrite s32_small by lia. unfold assert_. destruct (Z.leb_spec 0 p); [|lia]. cbn [bind].
  remember (Z.to_nat p) as n eqn:En. rewrite copy_still by lia. cbn [bind]. rewrite Nat.add_0_l.
  rewrite wr_ok by lia. cbn [bind]. rewrite upd_splice1 by lia. change [e] with (repeat e 1).
  assert (L2 : length (splice (d + n) (repeat e 1) M) = length M)
    by (apply splice_length; rewrite repeat_length; lia).
  rewrite unpunct_smear; try lia.
  - replace (d + S n) with (d + n + 1) by lia. rewrite splice_twice by lia. do 3 f_equal. lia.
  - replace (Z.of_nat (S n)) with (p + 1)%Z by lia. exact I2.
  - intros a Ha. replace a with (d + n + 0) by lia. rewrite splice_in by (rewrite repeat_length; lia). reflexivity.
Qed.
