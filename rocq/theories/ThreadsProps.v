(** C28, C29, C30: Mutex, timedlock, ScopedLockMultiple. *)
From Verif Require Import Base BaseFacts TimevalModel ThreadsModel ThreadsProofs ScopedLockProofs ScopedLockProofs2.
Local Open Scope Z_scope.

(** ** C28 *)

(** The client's view: thread [t] has made [d] lock calls more than unlock calls and is
    not asleep in a wait. *)
Definition holds_with (s : mstate) (t : nat) (d : nat) : Prop :=
  exists x, nth_error (s_t s) t = Some x /\ length (t_sites x) = d /\ t_pc x <> TWait.
Definition asleep_with (s : mstate) (t : nat) (d : nat) : Prop :=
  exists x, nth_error (s_t s) t = Some x /\ length (t_sites x) = d /\ t_pc x = TWait.

Theorem C28_mutual_exclusion : forall n tr s t u d e, mreach n tr s ->
  holds_with s t (S d) -> holds_with s u (S e) -> t = u.
Proof.
  intros n tr s t u d e R (x & N & L & W) (y & N' & L' & W'). assert (I := minv_reach _ _ _ R).
  assert (A : forall v z k, nth_error (s_t s) v = Some z -> length (t_sites z) = S k -> t_pc z <> TWait -> m_own (s_m s) = Some v).
  { intros v z k Nv Lv Wv. destruct (m_own (s_m s)) as [o|] eqn:E; [destruct (Nat.eq_dec o v) as [->|Ne]; [reflexivity|]|];
      (assert (X : lv (s_t s) v = 0%nat) by (apply (mi_oth _ I); congruence); rewrite (lv_at _ _ _ Nv) in X; unfold lvl in X; destruct (t_pc z); [lia|lia|lia|congruence]). }
  assert (B := A _ _ _ N L W). rewrite (A _ _ _ N' L' W') in B. congruence.
Qed.
Print Assumptions C28_mutual_exclusion.

(** lockcnt() is the number of lock calls not yet undone, over all threads, those asleep
    in a wait included. *)
Theorem C28_lockcnt : forall n tr s, mreach n tr s ->
  m_cnt (s_m s) = Z.of_nat (fold_right (fun x a => length (t_sites x) + a)%nat 0%nat (s_t s)).
Proof.
  intros n tr s R. rewrite (mi_cnt _ (minv_reach _ _ _ R)). f_equal. unfold total, list_sum. generalize (s_t s). clear.
  induction l as [|a l IH]; [reflexivity|]. cbn [map fold_right]. rewrite IH. reflexivity.
Qed.
Print Assumptions C28_lockcnt.

(** Hence with nobody asleep in a wait it is the depth of the holder. *)
Theorem C28_lockcnt_depth : forall n tr s t d, mreach n tr s -> holds_with s t (S d) ->
  (forall u e, ~ asleep_with s u e) -> m_cnt (s_m s) = Z.of_nat (S d).
Proof.
  intros n tr s t d R H NW. rewrite (C28_lockcnt _ _ _ R). f_equal.
  assert (O : forall u x, nth_error (s_t s) u = Some x -> u <> t -> length (t_sites x) = 0%nat).
  { intros u x N Ne. destruct (length (t_sites x)) as [|k] eqn:L; [reflexivity|]. exfalso. apply Ne.
    apply (C28_mutual_exclusion n tr s u t k d R); [|exact H]. exists x. repeat split; try assumption. intros W. apply (NW u (S k)). exists x. auto. }
  destruct H as (x & N & L & _). revert t x N L O. generalize (s_t s). clear.
  induction l as [|a l IH]; intros t x N L O; [destruct t; discriminate|]. cbn [fold_right]. destruct t as [|t].
  - injection N as ->. rewrite L. assert (Z : fold_right (fun x a => length (t_sites x) + a)%nat 0%nat l = 0%nat); [|lia].
    assert (Q : forall u y, nth_error l u = Some y -> length (t_sites y) = 0%nat) by (intros u y Hy; apply (O (S u) y Hy); lia). clear -Q.
    induction l as [|b l IH]; [reflexivity|]. cbn [fold_right]. rewrite (Q 0%nat b eq_refl). apply IH. intros u y Hy. apply (Q (S u) y Hy).
  - assert (Z := O 0%nat a eq_refl ltac:(lia)). rewrite Z. apply (IH t x N L). intros u y Hu Ne. apply (O (S u) y Hu). lia.
Qed.
Print Assumptions C28_lockcnt_depth.

(** Every step a thread takes has a defined effect: in particular the accesses to
    mLockerFile are inside the array, at any depth. *)
Theorem C28_sites_in_bounds : forall n tr s e r, mreach n tr s -> mstep s e = Some r -> exists s', r = Ok s'.
Proof. intros n tr s e r R H. destruct (minv_step _ _ _ (minv_reach _ _ _ R) H) as (s' & -> & _). eauto. Qed.
Print Assumptions C28_sites_in_bounds.

(** A thread that has unlocked as often as it locked has released the mutex; when no
    thread has any lock call outstanding, any thread can take it. *)
Theorem C28_released : forall n tr s t, mreach n tr s -> nth_error (s_t s) t = Some (Thr TOut []) -> m_own (s_m s) <> Some t.
Proof.
  intros n tr s t R N E. assert (I := minv_reach _ _ _ R). pose proof (mi_pos _ I _ E) as P. rewrite (mi_dep _ I), E, (lv_at _ _ _ N) in P. cbn in P. lia.
Qed.
Print Assumptions C28_released.

Theorem C28_free_when_idle : forall n tr s u f, mreach n tr s -> (u < n)%nat ->
  (forall t x, nth_error (s_t s) t = Some x -> x = Thr TOut []) -> exists s', mstep s (Acquire u f) = Some (Ok s').
Proof.
  intros n tr s u f R L A. cbn [mstep]. rewrite <- (threads_reach _ _ _ R) in L.
  destruct (nth_error (s_t s) u) as [x|] eqn:N; [|apply nth_error_None in N; lia]. rewrite (A _ _ N).
  assert (E : m_own (s_m s) = None).
  { destruct (m_own (s_m s)) as [v|] eqn:E; [|reflexivity]. exfalso. destruct (nth_error (s_t s) v) as [y|] eqn:Nv.
    - apply (C28_released _ _ _ v R); [|exact E]. rewrite Nv. f_equal. exact (A _ _ Nv).
    - assert (I := minv_reach _ _ _ R). pose proof (mi_pos _ I _ E) as P. rewrite (mi_dep _ I), E in P. unfold lv in P. rewrite Nv in P. lia. }
  unfold avail. rewrite E. eauto.
Qed.
Print Assumptions C28_free_when_idle.

(** While nobody uses condition waits, mutext() lists the sites where the holder locked
    (the first five), oldest first. *)
Theorem C28_mutext_names_holder : forall n tr s t d i f, mreach n tr s -> no_sleep tr -> holds_with s t (S d) -> (i < 5)%nat ->
  nth_error (rev (sites_of s t)) i = Some f -> nth_error (mutext (s_m s)) i = Some f.
Proof.
  intros n tr s t d i f R NS H Hi Hf. assert (I := minv_reach _ _ _ R). assert (F := finv_reach _ _ _ R NS).
  assert (Ow : m_own (s_m s) = Some t).
  { destruct H as (x & N & L & W). destruct (m_own (s_m s)) as [o|] eqn:E; [destruct (Nat.eq_dec o t) as [->|Ne]; [reflexivity|]|];
      (assert (X : lv (s_t s) t = 0%nat) by (apply (mi_oth _ I); congruence); rewrite (lv_at _ _ _ N) in X; unfold lvl in X; destruct (t_pc x); [lia|lia|lia|congruence]). }
  unfold mutext. assert (i < length (sites_of s t))%nat by (rewrite <- rev_length; eapply nth_error_lt; eassumption).
  rewrite (mi_cnt _ I), (sites_total _ _ _ _ R F Ow), Nat2Z.id. rewrite !nth_error_firstn. unfold maxLocks.
  destruct (Nat.ltb_spec i (length (sites_of s t))); [|lia]. destruct (Nat.ltb_spec i 5); [|lia].
  exact (fi_file _ F _ Ow i f Hi Hf).
Qed.
Print Assumptions C28_mutext_names_holder.

(** Waiting on a condition with the mutex locked twice keeps it locked: nobody else can
    take it, so nobody can bring about the condition. *)
Theorem C28_recursive_wait_keeps_mutex : forall n tr s t d, mreach n tr s -> asleep_with s t (S (S d)) ->
  forall u f, u <> t -> mstep s (Acquire u f) = None /\ mstep s (Wake u) = None.
Proof.
  intros n tr s t d R (x & N & L & W) u f Ne. assert (I := minv_reach _ _ _ R).
  assert (E : m_own (s_m s) = Some t).
  { destruct (m_own (s_m s)) as [o|] eqn:E; [destruct (Nat.eq_dec o t) as [->|No]; [reflexivity|]|];
      (assert (X : lv (s_t s) t = 0%nat) by (apply (mi_oth _ I); congruence); rewrite (lv_at _ _ _ N) in X; unfold lvl in X; rewrite W, L in X; discriminate). }
  assert (A : avail (s_m s) u = false) by (unfold avail; rewrite E; apply Nat.eqb_neq; congruence).
  cbn [mstep]. destruct (nth_error (s_t s) u) as [[[| | |] l]|]; rewrite ?A; auto.
Qed.
Print Assumptions C28_recursive_wait_keeps_mutex.

Fixpoint mrun (s : mstate) (tr : list mevent) : option mstate :=
  match tr with [] => Some s | e :: r => match mstep s e with Some (Ok s') => mrun s' r | _ => None end end.
Lemma mrun_reach : forall n tr tr0 s s', mreach n tr0 s -> mrun s tr = Some s' -> mreach n (tr0 ++ tr) s'.
Proof.
  induction tr as [|e tr IH]; intros tr0 s s' R H; cbn [mrun] in H.
  - injection H as <-. rewrite app_nil_r. exact R.
  - destruct (mstep s e) as [[s1| | |]|] eqn:E; try discriminate. change (e :: tr) with ([e] ++ tr). rewrite app_assoc. apply (IH _ s1); [|exact H].
    exact (mreachS _ _ _ _ _ R E).
Qed.

(** Defect: lockcnt() counts threads asleep in a wait, so ScopedLockMultiple's assertion
    that it is 1 for an owned mutex (Threads.cpp:234) can fail though the caller holds
    the mutex exactly once. *)
Theorem C28_lockcnt_waiter_refuted : exists n tr s t, mreach n tr s /\ holds_with s t 1 /\ m_cnt (s_m s) = 2.
Proof.
  exists 2%nat, [Acquire 0 7; Note 0; Sleep 0; Acquire 1 8; Note 1],
    (MS (Mtx (Some 1%nat) 1 2 [7; 8; 0; 0; 0]) [Thr TWait [7]; Thr TOut [8]]), 1%nat.
  split; [|split; [exists (Thr TOut [8]); repeat split; discriminate|reflexivity]].
  apply (mrun_reach 2 _ [] (minit 2)); [apply mreach0|vm_compute; reflexivity].
Qed.
Print Assumptions C28_lockcnt_waiter_refuted.

Example C28_ex : mrun (minit 2) [Acquire 0 7; Note 0; TryFail 1; Acquire 0 9; Note 0; Uncount 0; Release 0; TryFail 1; Uncount 0; Release 0; Acquire 1 5; Note 1]
  = Some (MS (Mtx (Some 1%nat) 1 1 [5; 9; 0; 0; 0]) [Thr TOut []; Thr TOut [5]]).
Proof. vm_compute. reflexivity. Qed.
(** Six levels: the sixth site is not noted and nothing is written out of bounds. *)
Example C28_ex_deep : match mrun (minit 1) (concat (map (fun f => [Acquire 0 f; Note 0]) [1; 2; 3; 4; 5; 6])) with
  | Some s => m_cnt (s_m s) = 6 /\ mutext (s_m s) = [1; 2; 3; 4; 5] | None => False end.
Proof. vm_compute. repeat split. Qed.

(** ** C29 *)

(** A clock reading: microseconds below a million. *)
Definition normal_clock (t : timeval) : Prop := 0 <= tv_usec t < 1000000.

(** With a valid deadline timedlock answers truthfully, whatever the contention. *)
Theorem C29_timedlock_sound : forall clock msecs now later, normal_clock clock ->
  tv_usec clock + 1000 * (u32 msecs mod 1000) <> 1000000 ->
  fst (timedlock clock msecs now later) = snd (timedlock clock msecs now later).
Proof.
  intros clock msecs now later N H. unfold timedlock. cbn [fst snd]. unfold pthread_mutex_timedlock. destruct now; [reflexivity|].
  replace ((0 <=? snd (timespec (future clock (u32 msecs)))) && (snd (timespec (future clock (u32 msecs))) <? 1000000000))%bool with true.
  - destruct later; reflexivity.
  - symmetry. unfold normal_clock, timespec, future in *. cbn [snd]. destruct (Z.ltb_spec 1000000 (tv_usec clock + u32 msecs mod 1000 * 1000)); cbn [tv_usec]; lia.
Qed.
Print Assumptions C29_timedlock_sound.

(** Defect: otherwise, when the mutex is taken by someone else, it returns true at once
    and the caller does not have the mutex. *)
Theorem C29_timedlock_wrong : forall clock msecs later, normal_clock clock ->
  tv_usec clock + 1000 * (u32 msecs mod 1000) = 1000000 ->
  timedlock clock msecs false later = (true, false).
Proof.
  intros clock msecs later N H. unfold timedlock, pthread_mutex_timedlock.
  replace ((0 <=? snd (timespec (future clock (u32 msecs)))) && (snd (timespec (future clock (u32 msecs))) <? 1000000000))%bool with false; [reflexivity|].
  symmetry. unfold timespec, future, normal_clock in *. cbn [snd]. destruct (Z.ltb_spec 1000000 (tv_usec clock + u32 msecs mod 1000 * 1000)); cbn [tv_usec]; lia.
Qed.
Print Assumptions C29_timedlock_wrong.

(** It gives up (false) only without the mutex, always. *)
Theorem C29_timedlock_false : forall clock msecs now later, fst (timedlock clock msecs now later) = false -> snd (timedlock clock msecs now later) = false.
Proof.
  intros clock msecs now later. unfold timedlock. cbn [fst snd]. destruct (pthread_mutex_timedlock now later _); intros H; [discriminate|reflexivity|discriminate].
Qed.
Print Assumptions C29_timedlock_false.

(** lock(file,line), whose timeout is a whole second, is not affected: it goes on only
    with the mutex held. *)
Theorem C29_lock_has_mutex : forall file clock now later, normal_clock clock -> lock_has_mutex file clock now later = true.
Proof.
  intros file clock now later N. unfold lock_has_mutex. destruct file; [|reflexivity].
  assert (S := C29_timedlock_sound clock 1000 now later N). destruct (timedlock clock 1000 now later) as [r got]. cbn [fst snd] in S.
  destruct r; [|reflexivity]. symmetry. apply S. unfold normal_clock in N. change (u32 1000 mod 1000) with 0. lia.
Qed.
Print Assumptions C29_lock_has_mutex.

(** The only timeouts never affected are those of whole seconds. *)
Theorem C29_affected_timeouts : forall msecs, 0 <= msecs < 2 ^ 31 -> msecs mod 1000 <> 0 ->
  exists clock, normal_clock clock /\ timedlock clock msecs false true = (true, false).
Proof.
  intros msecs H N. exists (TV 0 (1000000 - 1000 * (msecs mod 1000))).
  assert (X : normal_clock (TV 0 (1000000 - 1000 * (msecs mod 1000)))) by (unfold normal_clock; cbn [tv_usec]; lia).
  split; [exact X|]. apply C29_timedlock_wrong; [exact X|]. unfold u32. rewrite (Z.mod_small msecs (2 ^ 32)) by lia. cbn [tv_usec]. lia.
Qed.
Print Assumptions C29_affected_timeouts.

Example C29_ex : timedlock (TV 5 999999) 1500 false true = (true, true) /\ timedlock (TV 5 999999) 1500 false false = (false, false) /\
  timedlock (TV 5 500000) 1500 false false = (true, false).
Proof. vm_compute. repeat split. Qed.

(** ** C30 *)
Local Open Scope nat_scope.

(** Number of threads and truthful owner bits are arbitrary; [st_pc = 15]: the constructor
    has returned; [st_pc = 19]: the destructor has. *)
Theorem C30_constructor_holds_all : forall s0 s t x w, sstart s0 -> sreach s0 s -> nth_error (ss_t s) t = Some x ->
  st_pc x = 15 -> w < 3 -> 0 < depth (ss_mx s) (mid x w) t.
Proof.
  intros s0 s t x w S R N Pc Hw. assert (I := sinv_reach _ _ S R). destruct (si_wf _ I _ _ N) as (_ & _ & _ & L).
  rewrite (si_mx _ I _ _ (L _ Hw)), N. apply slots_bit; [exact Hw|]. pose proof (si_pc _ I _ _ N) as P. unfold pcinv in P. rewrite Pc in P.
  destruct P as (A & B & C). destruct w as [|[|[|w]]]; [exact A|exact B|exact C|lia].
Qed.
Print Assumptions C30_constructor_holds_all.

Theorem C30_scopes_exclude : forall s0 s t u x y w v, sstart s0 -> sreach s0 s -> nth_error (ss_t s) t = Some x -> nth_error (ss_t s) u = Some y ->
  st_pc x = 15 -> st_pc y = 15 -> w < 3 -> v < 3 -> t <> u -> mid x w <> mid y v.
Proof.
  intros s0 s t u x y w v S R Nx Ny Px Py Hw Hv Ne E.
  pose proof (C30_constructor_holds_all _ _ _ _ _ S R Nx Px Hw) as A. pose proof (C30_constructor_holds_all _ _ _ _ _ S R Ny Py Hv) as B.
  rewrite E in A. unfold depth in A, B. destruct (nth_error (ss_mx s) (mid y v)) as [[[o d]|]|]; try lia.
  destruct (Nat.eqb_spec o t); destruct (Nat.eqb_spec o u); lia.
Qed.
Print Assumptions C30_scopes_exclude.

Theorem C30_destructor_restores : forall s0 s t x j, sstart s0 -> sreach s0 s -> nth_error (ss_t s) t = Some x ->
  st_pc x = 19 -> j < length (ss_mx s) -> depth (ss_mx s) j t = slots x (st_own x) j.
Proof.
  intros s0 s t x j S R N Pc Hj. assert (I := sinv_reach _ _ S R). rewrite (si_mx _ I _ _ Hj), N.
  pose proof (si_pc _ I _ _ N) as P. unfold pcinv in P. rewrite Pc in P. destruct P as (A & B & C). unfold slots. rewrite A, B, C. reflexivity.
Qed.
Print Assumptions C30_destructor_restores.

(** Without owner bits a thread that has to wait holds none of the mutexes. *)
Theorem C30_no_hold_and_wait : forall s0 s t x j, sstart s0 -> free_start s0 -> sreach s0 s -> nth_error (ss_t s) t = Some x ->
  sstep s (SRun t) = None -> j < length (ss_mx s) -> depth (ss_mx s) j t = 0.
Proof.
  intros s0 s t x j S F R N H Hj. assert (I := sinv_reach _ _ S R). destruct (si_wf _ I _ _ N) as (_ & _ & L3 & _).
  rewrite (si_mx _ I _ _ Hj), N. cbn [sstep] in H. rewrite N in H.
  destruct (sexec (ss_mx s) t x) as [[mx x']|] eqn:E; [discriminate|].
  destruct (blocked_empty _ _ _ L3 (si_pc _ I _ _ N) (free_reach _ _ S F R _ _ N) E) as [Z _]. apply Z.
Qed.
Print Assumptions C30_no_hold_and_wait.

(** So as long as some thread has not ended, some thread can run: no deadlock. *)
Theorem C30_no_deadlock : forall s0 s t x, sstart s0 -> free_start s0 -> sreach s0 s -> nth_error (ss_t s) t = Some x ->
  st_pc x <> 19 -> exists u s', sstep s (SRun u) = Some s'.
Proof.
  intros s0 s t x S F R N Pc. destruct (sstep s (SRun t)) as [s'|] eqn:Et; [eauto|].
  assert (I := sinv_reach _ _ S R). destruct (si_wf _ I _ _ N) as (_ & _ & L3 & L4).
  assert (Et' := Et). cbn [sstep] in Et'. rewrite N in Et'. destruct (sexec (ss_mx s) t x) as [[mx x']|] eqn:E; [discriminate|]. clear Et'.
  destruct (blocked_empty _ _ _ L3 (si_pc _ I _ _ N) (free_reach _ _ S F R _ _ N) E) as [_ [X|(w & Hw & A)]]; [contradiction|].
  specialize (L4 _ Hw). unfold acq in A. destruct (nth_error (ss_mx s) (mid x w)) as [[[u d]|]|] eqn:M; [|discriminate|apply nth_error_None in M; lia].
  destruct (Nat.eqb_spec u t) as [->|Ne]; [discriminate|]. exists u. destruct (sstep s (SRun u)) as [s'|] eqn:Eu; [eauto|]. exfalso.
  assert (D : depth (ss_mx s) (mid x w) u = d) by (unfold depth; rewrite M, Nat.eqb_refl; reflexivity).
  pose proof (si_pos _ I _ _ _ M) as P. destruct (nth_error (ss_t s) u) as [y|] eqn:Nu.
  - pose proof (C30_no_hold_and_wait _ _ _ _ (mid x w) S F R Nu Eu L4). lia.
  - rewrite (si_mx _ I _ _ L4), Nu in D. lia.
Qed.
Print Assumptions C30_no_deadlock.

(** Defect: with owner bits two threads can block each other for ever, at once. *)
Definition two_owners : sstate :=
  SS [Some (1, 1); Some (0, 1); None; None] [sinit [false; true; false] [0; 1; 2]; sinit [false; true; false] [1; 0; 3]].
Theorem C30_deadlock_refuted : exists s0 s, sstart s0 /\ sreach s0 s /\
  (forall t x, nth_error (ss_t s) t = Some x -> st_pc x <> 19) /\ forall e, sstep s e = None.
Proof.
  exists two_owners, two_owners. split; [|split; [constructor|split]].
  - constructor.
    + intros [|[|[|t]]] x H; try discriminate; injection H as <-; (eexists; eexists; split; [reflexivity|]; cbn; repeat split; repeat constructor).
    + intros [|[|[|[|j]]]] [|[|[|t]]] H; try (vm_compute; reflexivity); cbn in H; lia.
    + intros [|[|[|[|[|j]]]]] u H; cbn in H; discriminate.
  - intros [|[|[|t]]] x H; try discriminate; injection H as <-; discriminate.
  - intros [[|[|[|t]]]|[|[|[|t]]] ms]; reflexivity.
Qed.
Print Assumptions C30_deadlock_refuted.

(** A run of two threads, the second with its mutexes in the other order. *)
Definition two_free : sstate := SS [None; None; None; None] [sinit [false; false; false] [0; 1; 2]; sinit [false; false; false] [1; 0; 3]].
Fixpoint srun (s : sstate) (l : list nat) : option sstate :=
  match l with [] => Some s | t :: r => match sstep s (SRun t) with Some s' => srun s' r | None => None end end.
Example C30_ex : exists s, srun two_free [0; 1; 0; 0; 0; 0] = None /\
  srun two_free [0; 1; 0; 0; 0; 1; 1; 1; 1; 1; 1; 0; 0; 0] = Some s /\ map st_pc (ss_t s) = [15; 19].
Proof. eexists. vm_compute. repeat split. Qed.
