(** C20-C27: the monitors of Interthread.h under every schedule. *)
From Coq Require Import Permutation.
From Verif Require Import Base BaseFacts Monitor MonitorProofs WakeProofs InterthreadModel InterthreadSpec InterthreadProofs InterthreadProofs2.
Local Open Scope Z_scope.

(** Proves [at_rest] of a concrete state. *)
Ltac rest := apply shape_rest; let p := fresh in let H := fresh in intros p H; cbn in H;
  repeat (destruct H as [H|H]; [subst p; first [left; reflexivity | right; eexists; eexists; reflexivity]|]); destruct H.

(** Proves that something is in a concrete list. *)
Ltac inl := cbn; repeat first [left; reflexivity | right].

(** ** C20 InterthreadQueue delivers every item exactly once in FIFO order *)
(** Every execution is equivalent, call by call and in real-time order, to one thread
    working on a double-ended queue. *)
Theorem C20_linearizable : linearizable q_body [] deque_passes deque_does.
Proof. exact q_lin. Qed.
Print Assumptions C20_linearizable.

(** Without write_front: everything taken, followed by everything still queued, is
    everything written, in the order of writing. *)
Theorem C20_fifo : forall m, reach q_body [] m -> no_front (history m) ->
  nz (q_puts (history m)) = nz (q_takes (history m)) ++ nz (sh m).
Proof. intros m R N. destruct (q_lin m R) as [L _]. apply (deque_fifo _ _ _ L N). Qed.
Print Assumptions C20_fifo.

(** With write_front: nothing is lost, duplicated or invented. *)
Theorem C20_exactly_once : forall m, reach q_body [] m -> Permutation (nz (q_puts (history m))) (nz (q_takes (history m)) ++ nz (sh m)).
Proof. intros m R. destruct (q_lin m R) as [L _]. apply (deque_bag _ _ _ L). Qed.
Print Assumptions C20_exactly_once.

Theorem C20_read_not_null : forall m t e r, reach q_body [] m -> In (HDone t QRead e r) (history m) -> exists x, r = RPtr x /\ x <> 0.
Proof.
  intros m t e r R I. destruct (q_lin m R) as [L _]. destruct (seq_run_done _ _ _ _ _ _ _ _ L _ _ _ _ I) as (s1 & s2 & x & N & _ & ->). eauto.
Qed.
Print Assumptions C20_read_not_null.

(** What a call returns is what its effect under the mutex gave. *)
Theorem C20_returned_is_taken : forall m t r, reach q_body [] m -> In (HRet t r) (of_thread t (history m)) ->
  exists op e, In (HDone t op e r) (history m).
Proof.
  intros m t r R I. destruct (q_lin m R) as [_ W]. destruct (W t) as (st & Wt).
  destruct (proj2 (wf_ret_done _ _ _ _ Wt) _ _ I) as (u & op & e & H). unfold of_thread in H. apply filter_In in H. destruct H as [H E].
  apply Nat.eqb_eq in E. cbn in E. subst u. eauto.
Qed.
Print Assumptions C20_returned_is_taken.

(** Two writers and a reader: 7 is written before 9 but the writer of 9 signals first. *)
Definition c20_ex : list (event qop) :=
  [ECall 2 QRead; ELock 2; EBody 2 Early;
   ECall 0 (QWrite 7); ELock 0; EBody 0 Early; EUnlock 0;
   ECall 1 (QWrite 9); ELock 1; EBody 1 Early; EUnlock 1; EFire 1 (Some 2%nat); EReturn 1;
   ELock 2; EBody 2 Early; EUnlock 2; EReturn 2].
Example C20_ex : exists m, run q_body (init [] 3) c20_ex = Some m /\ sh m = [9] /\ q_takes (history m) = [7] /\ q_puts (history m) = [7; 9] /\
  In (HRet 2 (RPtr 7)) (history m).
Proof. eexists. split; [vm_compute; reflexivity|]. repeat match goal with |- _ /\ _ => split end; first [reflexivity | inl]. Qed.

(** ** C21 No lost wake-up on an unconnected queue *)
(** While anybody sleeps in a read, every queued item has a reader on the way to it or a
    signal still to be sent. *)
Theorem C21_wakeups_cover_items : forall m, reach q_body [] m -> never_null (hist m) ->
  (exists t op, sleeps m t op 0) -> (length (sh m) <= total (on_the_way reader_op) (pcs m))%nat.
Proof. exact q_count. Qed.
Print Assumptions C21_wakeups_cover_items.

Theorem C21_no_lost_wakeup : forall m t op c, reach q_body [] m -> never_null (hist m) -> at_rest q_body m -> sleeps m t op c -> sh m = [].
Proof.
  intros m t op c R N Q Sl.
  assert (c = 0%nat).
  { assert (W : forall m, reach q_body [] m -> forall t op d, sleeps m t op d -> d = 0%nat).
    { clear. apply (reach_ind q_body (fun m => forall t op d, sleeps m t op d -> d = 0%nat) []).
      - intros n t op d H. apply nth_error_In in H. apply repeat_spec in H. discriminate.
      - intros m ev m' IH S t op d H. unfold sleeps in *.
        destruct ev as [u o|u|u e|u v|u|u|u]; cbn [step] in S.
        + destruct (nth_error (pcs m) u) as [[]|]; try discriminate. injection S as <-. apply nth_upd_some in H. destruct H as [[_ X]|[_ H]]; [discriminate|eauto].
        + destruct (holder m); [discriminate|]. destruct (nth_error (pcs m) u) as [[]|]; try discriminate; injection S as <-; apply nth_upd_some in H; (destruct H as [[_ X]|[_ H]]; [discriminate|eauto]).
        + destruct (nth_error (pcs m) u) as [[]|]; try discriminate. injection S as <-.
          destruct (q_body (sh m) op0 e) as [s c|s|s r i a] eqn:B; cbn [pcs] in H; try (apply nth_upd_some in H; destruct H as [[_ X]|[_ H]]; [|eauto]); eauto; try discriminate.
          injection X as _ ->. destruct op0; cbn in B; try discriminate.
          * destruct (q_get (sh m)) as [p q]. destruct (p =? 0); [|discriminate]. congruence.
          * destruct (sh m); cbn in B; [|discriminate]. destruct e; congruence.
          * destruct (q_get (sh m)); discriminate.
        + destruct (nth_error (pcs m) u) as [[| | | | |o r [|g ins] aft|o r [|g aft]]|]; try discriminate;
            (destruct (fire g v (pcs m)) as [l|] eqn:F; [|discriminate]); injection S as <-; apply nth_upd_some in H; (destruct H as [[_ X]|[_ H]]; [discriminate|]);
            (destruct (fire_other _ _ _ _ _ _ F H) as [H'|(o' & c' & _ & _ & X)]; [eauto|discriminate]).
        + destruct (nth_error (pcs m) u) as [[| | | | |o r [|g ins] aft|]|]; try discriminate. injection S as <-. apply nth_upd_some in H. destruct H as [[_ X]|[_ H]]; [discriminate|eauto].
        + destruct (nth_error (pcs m) u) as [[| | | | | |o r [|g aft]]|]; try discriminate. injection S as <-. apply nth_upd_some in H. destruct H as [[_ X]|[_ H]]; [discriminate|eauto].
        + destruct (nth_error (pcs m) u) as [[]|]; try discriminate. injection S as <-. apply nth_upd_some in H. destruct H as [[_ X]|[_ H]]; [discriminate|eauto]. }
    eapply W; eassumption. }
  subst c. pose proof (q_count m R N (ex_intro _ t (ex_intro _ op Sl))) as L. rewrite (rest_total _ _ _ _ _ _ _ R Q) in L. destruct (sh m); [reflexivity|cbn in L; lia].
Qed.
Print Assumptions C21_no_lost_wakeup.

(** Defect: if NULL may be written, the system can come to rest with an item queued and
    its reader asleep: read() takes the NULL and sleeps without looking again. *)
Theorem C21_null_write_refuted : exists m t, reach q_body [] m /\ at_rest q_body m /\ sleeps m t QRead 0 /\ sh m = [5].
Proof.
  eexists. exists 1%nat. split; [exists 2%nat, [ECall 0 (QWrite 0); ELock 0; EBody 0 Early; EUnlock 0; EFire 0 None; EReturn 0;
    ECall 0 (QWrite 5); ELock 0; EBody 0 Early; EUnlock 0; EFire 0 None; EReturn 0; ECall 1 QRead; ELock 1; EBody 1 Early]; vm_compute; reflexivity|].
  split; [rest|]. split; reflexivity.
Qed.
Print Assumptions C21_null_write_refuted.

(** Two readers asleep, two items queued, both signals still to come. *)
Example C21_ex : exists m, run q_body (init [] 4)
  [ECall 2 QRead; ELock 2; EBody 2 Early; ECall 3 QReadT; ELock 3; EBody 3 Early;
   ECall 0 (QWrite 7); ELock 0; EBody 0 Early; EUnlock 0; ECall 1 (QWrite 9); ELock 1; EBody 1 Early; EUnlock 1] = Some m /\
  never_null (hist m) /\ sleeps m 2 QRead 0 /\ sleeps m 3 QReadT 0 /\ sh m = [7; 9] /\ total (on_the_way reader_op) (pcs m) = 2%nat.
Proof.
  eexists. split; [vm_compute; reflexivity|]. split; [|repeat split].
  intros t op H. cbn in H. repeat (destruct H as [H|H]; [inversion H; subst; cbn; try exact I; lia|]). destruct H.
Qed.

(** ** C22 Connected queues and iqWaitForEither *)
(** With a single waiting thread no wake-up is lost: at rest it sleeps only if what it
    waits for is absent. *)
Theorem C22_single_waiter : forall m t0 t op, reach c_body ([], []) m -> c_never_null (hist m) -> only_waiter t0 (hist m) ->
  at_rest c_body m -> sleeps m t op 0 -> ~ c_ready (sh m) op.
Proof. exact c_rest. Qed.
Print Assumptions C22_single_waiter.

(** Defect: once the time has run out with both queues empty the waiting thread keeps
    the mutex whatever anybody does, and no call on either queue takes effect any more. *)
Theorem C22_timeout_spins_forever : forall evs m t m', reach c_body ([], []) m ->
  nth_error (pcs m) t = Some (PBody WaitEitherT) -> sh m = ([], []) ->
  (forall e, In (EBody t e) evs -> e = Late) -> run c_body m evs = Some m' ->
  nth_error (pcs m') t = Some (PBody WaitEitherT) /\ holder m' = Some t /\ sh m' = ([], []) /\ dones (hist m') = dones (hist m).
Proof. intros evs m t m' R N E L H. destruct (c_spin_forever _ _ _ _ R N E L H) as (A & B & C & D). auto. Qed.
Print Assumptions C22_timeout_spins_forever.

(** The situation of the previous theorem is reached, with a writer waiting outside. *)
Example C22_spin_ex : exists m, run c_body (init ([], []) 2)
  [ECall 0 WaitEitherT; ELock 0; EBody 0 Early; EWake 0; ELock 0; ECall 1 (OnB (QWrite 5)); EBody 0 Late; EBody 0 Late] = Some m /\
  nth_error (pcs m) 0 = Some (PBody WaitEitherT) /\ sh m = ([], []) /\ nth_error (pcs m) 1 = Some (PLock (OnB (QWrite 5))) /\ step c_body m (ELock 1) = None.
Proof. eexists. split; [vm_compute; reflexivity|]. repeat split. Qed.

(** Defect: two readers of two connected queues: the signal for an item wakes the
    other reader, and the item stays with its reader asleep. *)
Theorem C22_wrong_reader_refuted : exists m, reach c_body ([], []) m /\ c_never_null (hist m) /\ at_rest c_body m /\
  sleeps m 0 (OnA QRead) 0 /\ sleeps m 1 (OnB QRead) 0 /\ sh m = ([], [5]).
Proof.
  eexists. split; [exists 3%nat, [ECall 0 (OnA QRead); ELock 0; EBody 0 Early; ECall 1 (OnB QRead); ELock 1; EBody 1 Early;
    ECall 2 (OnB (QWrite 5)); ELock 2; EBody 2 Early; EUnlock 2; EFire 2 (Some 0%nat); EReturn 2; ELock 0; EBody 0 Early]; vm_compute; reflexivity|].
  split; [|split; [rest|repeat split]].
  intros t op H. cbn in H. repeat (destruct H as [H|H]; [inversion H; subst; cbn; try exact I; lia|]). destruct H.
Qed.
Print Assumptions C22_wrong_reader_refuted.

Example C22_ex : exists m, run c_body (init ([], []) 2)
  [ECall 0 WaitEither; ELock 0; EBody 0 Early; ECall 1 (OnB (QWrite 5)); ELock 1; EBody 1 Early; EUnlock 1; EFire 1 (Some 0%nat); EReturn 1;
   ELock 0; EBody 0 Early; EUnlock 0; EReturn 0] = Some m /\ sh m = ([], [5]) /\ In (HRet 0 RNone) (hist m).
Proof. eexists. split; [vm_compute; reflexivity|]. split; [reflexivity|]. inl. Qed.

(** ** C23 InterthreadQueueWithWait *)
Theorem C23_linearizable : linearizable w_body [] wq_passes wq_does.
Proof. exact w_lin. Qed.
Print Assumptions C23_linearizable.

Theorem C23_fifo : forall m, reach w_body [] m -> nz (w_puts (history m)) = nz (w_takes (history m)) ++ nz (sh m).
Proof. intros m R. destruct (w_lin m R) as [L _]. apply (wq_fifo _ _ _ L). Qed.
Print Assumptions C23_fifo.

(** A single thread in wait(n) sleeps at rest only while more than n are queued. *)
Theorem C23_single_drainer : forall m t0 t n, reach w_body [] m -> w_never_null (hist m) -> only_drainer t0 (hist m) ->
  at_rest w_body m -> sleeps m t (WWait n) 1 -> (n < length (sh m))%nat.
Proof. exact w_drain_rest. Qed.
Print Assumptions C23_single_drainer.

(** Readers are not forgotten either. *)
Theorem C23_readers_woken : forall m t op, reach w_body [] m -> w_never_null (hist m) -> at_rest w_body m -> sleeps m t op 0 -> sh m = [].
Proof.
  intros m t op R N Q Sl. pose proof (w_count m R N (ex_intro _ t (ex_intro _ op Sl))) as L.
  rewrite (rest_total _ _ _ _ _ _ _ R Q) in L. destruct (sh m); [reflexivity|cbn in L; lia].
Qed.
Print Assumptions C23_readers_woken.

(** Defect: with two threads in wait(0), clear() wakes only one of them. *)
Theorem C23_two_drainers_refuted : exists m, reach w_body [] m /\ w_never_null (hist m) /\ at_rest w_body m /\ sleeps m 1 (WWait 0) 1 /\ sh m = [].
Proof.
  eexists. split; [exists 3%nat, [ECall 2 (WWrite 5); ELock 2; EBody 2 Early; EUnlock 2; EFire 2 None; EReturn 2;
    ECall 0 (WWait 0); ELock 0; EBody 0 Early; ECall 1 (WWait 0); ELock 1; EBody 1 Early;
    ECall 2 WClear; ELock 2; EBody 2 Early; EFire 2 (Some 0%nat); EUnlock 2; EReturn 2; ELock 0; EBody 0 Early; EUnlock 0; EReturn 0]; vm_compute; reflexivity|].
  split; [|split; [rest|repeat split]].
  intros t op H. cbn in H. repeat (destruct H as [H|H]; [inversion H; subst; cbn; try exact I; lia|]). destruct H.
Qed.
Print Assumptions C23_two_drainers_refuted.

(** Defect: taking a NULL from the queue does not wake the thread waiting for it to drain. *)
Theorem C23_null_refuted : exists m, reach w_body [] m /\ only_drainer 0 (hist m) /\ at_rest w_body m /\ sleeps m 0 (WWait 0) 1 /\ sh m = [].
Proof.
  eexists. split; [exists 2%nat, [ECall 1 (WWrite 0); ELock 1; EBody 1 Early; EUnlock 1; EFire 1 None; EReturn 1;
    ECall 0 (WWait 0); ELock 0; EBody 0 Early; ECall 1 WReadNB; ELock 1; EBody 1 Early; EUnlock 1; EReturn 1]; vm_compute; reflexivity|].
  split; [|split; [rest|repeat split]].
  intros t n H. cbn in H. repeat (destruct H as [H|H]; [inversion H; subst; reflexivity|]). destruct H.
Qed.
Print Assumptions C23_null_refuted.

Example C23_ex : exists m, run w_body (init [] 2)
  [ECall 1 (WWrite 5); ELock 1; EBody 1 Early; EUnlock 1; EFire 1 None; EReturn 1; ECall 0 (WWait 0); ELock 0; EBody 0 Early;
   ECall 1 WRead; ELock 1; EBody 1 Early; EFire 1 (Some 0%nat); EUnlock 1; EReturn 1; ELock 0; EBody 0 Early; EUnlock 0; EReturn 0] = Some m /\
  sh m = [] /\ In (HRet 0 RNone) (hist m) /\ In (HRet 1 (RPtr 5)) (hist m).
Proof. eexists. split; [vm_compute; reflexivity|]. repeat match goal with |- _ /\ _ => split end; first [reflexivity | inl]. Qed.

(** ** C24 InterthreadMap is a linearizable map with blocking get *)
Theorem C24_linearizable : linearizable m_body [] map_passes map_does.
Proof. exact m_lin. Qed.
Print Assumptions C24_linearizable.

(** The contents are, key by key, the last write not removed since. *)
Theorem C24_contents : forall m k, reach m_body [] m -> lookup (sh m) k = latest (hist m) k.
Proof.
  intros m k R. destruct (m_lin m R) as [L _]. pose proof (m_latest _ _ _ L [] (fun _ => eq_refl) k) as H.
  unfold history in H. rewrite rev_involutive, app_nil_r in H. symmetry. exact H.
Qed.
Print Assumptions C24_contents.

(** Every successful get returned the last write of its key not removed before. *)
Theorem C24_get_latest : forall m h1 h2 t op e v k, reach m_body [] m -> hist m = h2 ++ HDone t op e (RFound v) :: h1 ->
  (waits_for op k \/ exists rm, op = MGetNB k rm) -> latest h1 k = Some v.
Proof.
  intros m h1 h2 t op e v k R E W. destruct (m_lin m R) as [L _]. unfold history in L. rewrite E, rev_app_distr in L. cbn [rev] in L. rewrite <- app_assoc in L.
  destruct (seq_run_split _ _ _ _ _ _ _ _ _ L) as (s1 & L1 & L2). cbn [app] in L2. inversion L2; subst.
  pose proof (m_latest _ _ _ L1 [] (fun _ => eq_refl) k) as H. rewrite rev_involutive, app_nil_r in H. rewrite H.
  assert (G : forall rm s9, map_gets s1 k rm (RFound v) s9 -> lookup s1 k = Some v) by (intros rm s9 (v' & Lk & X & _); congruence).
  destruct W as [W|(rm & ->)].
  - destruct op; cbn [waits_for] in W; try contradiction; subst k0; cbn [map_does] in *.
    + eapply G; eassumption.
    + match goal with H : _ \/ _ |- _ => destruct H as [X|(_ & _ & X & _)]; [eapply G; eassumption|discriminate] end.
  - match goal with H : map_does _ _ _ _ _ |- _ => destruct H as [X|(_ & X & _)]; [eapply G; eassumption|discriminate] end.
Qed.
Print Assumptions C24_get_latest.

(** No getter is left asleep while its key is present. *)
Theorem C24_no_lost_wakeup : forall m t op k, reach m_body [] m -> at_rest m_body m -> sleeps m t op 0 -> waits_for op k -> lookup (sh m) k = None.
Proof. exact m_rest. Qed.
Print Assumptions C24_no_lost_wakeup.

Example C24_ex : exists m, run m_body (init [] 3)
  [ECall 0 (MGet 4 true); ELock 0; EBody 0 Early; ECall 1 (MGet 4 false); ELock 1; EBody 1 Early;
   ECall 2 (MWrite 3 8); ELock 2; EBody 2 Early; EFire 2 None; EUnlock 2; EReturn 2; ELock 0; EBody 0 Early; ELock 1; EBody 1 Early;
   ECall 2 (MWrite 4 9); ELock 2; EBody 2 Early; EFire 2 None; EUnlock 2; EReturn 2; ELock 0; EBody 0 Early; EUnlock 0; EReturn 0; ELock 1; EBody 1 Early] = Some m /\
  at_rest m_body m /\ sleeps m 1 (MGet 4 false) 0 /\ sh m = [(3, 8)] /\ In (HRet 0 (RFound 9)) (hist m).
Proof. eexists. split; [vm_compute; reflexivity|]. split; [rest|]. split; [reflexivity|]. split; [reflexivity|]. inl. Qed.

(** ** C25 Ownership of stored pointers *)
(** Each write is accounted for exactly once: deleted, handed out, or stored. *)
Theorem C25_accounting : forall m, reach m_body [] m ->
  Permutation (m_puts (history m)) (m_deleted (history m) ++ m_handed (history m) ++ map snd (sh m)).
Proof. exact m_account. Qed.
Print Assumptions C25_accounting.

(** So if no pointer is written twice, nothing is deleted twice, nothing handed out or
    still stored has been deleted, and nothing handed out is still stored. *)
Theorem C25_deleted_once : forall m, reach m_body [] m -> NoDup (m_puts (history m)) ->
  NoDup (m_deleted (history m) ++ m_handed (history m) ++ map snd (sh m)).
Proof. intros m R N. eapply Permutation_NoDup; [apply m_account; assumption|assumption]. Qed.
Print Assumptions C25_deleted_once.

(** write and remove delete what they displace. *)
Theorem C25_displaced_deleted : forall m t k v e m', reach m_body [] m -> step m_body m (EBody t e) = Some m' ->
  lookup (sh m) k = Some v ->
  ((exists w, nth_error (pcs m) t = Some (PBody (MWrite k w))) \/ nth_error (pcs m) t = Some (PBody (MRemove k))) ->
  m_deleted (history m') = m_deleted (history m) ++ [v].
Proof.
  intros m t k v e m' R S L W. cbn [step] in S. unfold m_deleted, history. destruct W as [(w & N)|N]; rewrite N in S; cbn [m_body] in S; rewrite L in S; injection S as <-;
    cbn [hist rev]; rewrite flat_map_app; reflexivity.
Qed.
Print Assumptions C25_displaced_deleted.

(** Defect: writing the pointer that is stored already deletes it and keeps it. *)
Theorem C25_rewrite_dangles : forall s k p e, lookup s k = Some p ->
  m_body s (MWrite k p) e = ODone (assign s k p) (RWrote (Some p)) [Bcast 0] [] /\ lookup (assign s k p) k = Some p.
Proof. intros s k p e L. cbn [m_body]. rewrite L. split; [reflexivity|]. rewrite (lookup_assign s k p k), Z.eqb_refl. reflexivity. Qed.
Print Assumptions C25_rewrite_dangles.
Theorem C25_rewrite_refuted : exists m p, reach m_body [] m /\ In p (m_deleted (history m)) /\ In p (map snd (sh m)).
Proof.
  eexists. exists 7. split; [exists 1%nat, [ECall 0 (MWrite 4 7); ELock 0; EBody 0 Early; EFire 0 None; EUnlock 0; EReturn 0; ECall 0 (MWrite 4 7); ELock 0; EBody 0 Early]; vm_compute; reflexivity|].
  split; inl.
Qed.
Print Assumptions C25_rewrite_refuted.

(** Defect: the destructor of InterthreadMap deletes nothing, whatever is stored. *)
Theorem C25_destructor_leaks : forall m, reach m_body [] m -> m_destroy (sh m) = [].
Proof. intros m _. unfold m_destroy. induction (sh m) as [|kv s IH]; [reflexivity|exact IH]. Qed.
Print Assumptions C25_destructor_leaks.

Example C25_ex : exists m, run m_body (init [] 1)
  [ECall 0 (MWrite 4 7); ELock 0; EBody 0 Early; EFire 0 None; EUnlock 0; EReturn 0; ECall 0 (MWrite 4 8); ELock 0; EBody 0 Early; EFire 0 None; EUnlock 0; EReturn 0;
   ECall 0 (MWrite 5 9); ELock 0; EBody 0 Early; EFire 0 None; EUnlock 0; EReturn 0; ECall 0 (MGetNB 4 true); ELock 0; EBody 0 Early] = Some m /\
  m_puts (history m) = [7; 8; 9] /\ m_deleted (history m) = [7] /\ m_handed (history m) = [8] /\ sh m = [(5, 9)].
Proof. eexists. split; [vm_compute; reflexivity|]. repeat split. Qed.

(** ** C26 InterthreadPriorityQueue *)
Theorem C26_linearizable : forall gt, strict_order gt -> linearizable (p_body gt) [] pq_passes (pq_does gt).
Proof. exact p_lin. Qed.
Print Assumptions C26_linearizable.

(** Every successful read or peek gave an element than which none of those then queued
    (written and not taken before) is smaller. *)
Theorem C26_read_least : forall gt m h1 h2 t op e x, strict_order gt -> reach (p_body gt) [] m ->
  hist m = h2 ++ HDone t op e (RPtr x) :: h1 -> x <> 0 ->
  exists q, Permutation (nz (p_puts (rev h1))) (nz (p_takes (rev h1)) ++ nz q) /\ In x q /\ forall y, In y q -> gt x y = false.
Proof.
  intros gt m h1 h2 t op e x G R E N. destruct (p_lin gt G m R) as [L _].
  unfold history in L. rewrite E, rev_app_distr in L. cbn [rev] in L. rewrite <- app_assoc in L.
  destruct (seq_run_split _ _ _ _ _ _ _ _ _ L) as (q & L1 & L2). cbn [app] in L2. inversion L2; subst. clear L L2.
  match goal with H : pq_does _ _ _ _ _ _ |- _ => rename H into D end.
  exists q. split; [exact (pq_bag gt _ _ _ L1)|].
  assert (T : forall y q1, takes_least gt q y q1 -> In y q /\ forall z, In z q -> gt y z = false).
  { intros y q1 [P M]. split; [|exact M]. apply (Permutation_in y (Permutation_sym P)). left. reflexivity. }
  destruct op; cbn [pq_does] in D.
  - destruct D as [_ X]. discriminate.
  - destruct D as (y & Tl & X). injection X as ->. eapply T; eassumption.
  - destruct D as [(y & Tl & X)|(_ & _ & _ & X)]; injection X as ->; [eapply T; eassumption|congruence].
  - destruct D as [(y & Tl & X)|(_ & _ & X)]; injection X as ->; [eapply T; eassumption|congruence].
  - destruct D as (_ & [(_ & X)|(y & q1 & Tl & X)]); injection X as ->; [congruence|eapply T; eassumption].
  - destruct D as [_ X]. discriminate.
  - destruct D as [_ X]. discriminate.
Qed.
Print Assumptions C26_read_least.

Theorem C26_exactly_once : forall gt m, strict_order gt -> reach (p_body gt) [] m ->
  Permutation (nz (p_puts (history m))) (nz (p_takes (history m)) ++ nz (sh m)).
Proof. intros gt m G R. destruct (p_lin gt G m R) as [L _]. apply (pq_bag gt _ _ _ L). Qed.
Print Assumptions C26_exactly_once.

Theorem C26_no_lost_wakeup : forall gt m t op, strict_order gt -> reach (p_body gt) [] m -> at_rest (p_body gt) m -> sleeps m t op 0 -> sh m = [].
Proof.
  intros gt m t op G R Q Sl. pose proof (p_count gt G m R (ex_intro _ t (ex_intro _ op Sl))) as L.
  rewrite (rest_total _ _ _ _ _ _ _ R Q) in L. destruct (sh m); [reflexivity|cbn in L; lia].
Qed.
Print Assumptions C26_no_lost_wakeup.

(** Pointers 12 and 22 have equal priority; either may come first. *)
Definition c26_gt (x y : Z) : bool := (x mod 10 >? y mod 10).
Definition c26_evs (pick : nat) : list (event pop) :=
  let w v := [ECall 0 (PWrite v); ELock 0; EBody 0 Early; EUnlock 0; EFire 0 None; EReturn 0] in
  w 15 ++ w 12 ++ w 37 ++ w 22 ++ [ECall 0 (PRead pick); ELock 0; EBody 0 Early; EUnlock 0; EReturn 0].
Example C26_ex : strict_order c26_gt /\
  (exists m, run (p_body c26_gt) (init [] 1) (c26_evs 0) = Some m /\ In (HRet 0 (RPtr 12)) (hist m) /\ sh m = [15; 37; 22]) /\
  (exists m, run (p_body c26_gt) (init [] 1) (c26_evs 1) = Some m /\ In (HRet 0 (RPtr 22)) (hist m) /\ sh m = [15; 12; 37]).
Proof.
  split; [split; intros; unfold c26_gt in *; lia|].
  split; (eexists; split; [vm_compute; reflexivity|]; split; [inl|reflexivity]).
Qed.

(** ** C27 Semaphore *)
Theorem C27_linearizable : linearizable s_body false sem_passes sem_does.
Proof. exact s_lin. Qed.
Print Assumptions C27_linearizable.

(** While the flag is set and somebody sleeps, somebody else is on the way. *)
Theorem C27_wakeup_on_the_way : forall m, reach s_body false m -> sh m = true -> (exists t op, sleeps m t op 0) ->
  (1 <= total (on_the_way s_taker) (pcs m))%nat.
Proof. exact s_count. Qed.
Print Assumptions C27_wakeup_on_the_way.
Theorem C27_no_lost_wakeup : forall m t op, reach s_body false m -> at_rest s_body m -> sleeps m t op 0 -> sh m = false.
Proof.
  intros m t op R Q Sl. destruct (sh m) eqn:F; [|reflexivity]. exfalso. pose proof (s_count m R F (ex_intro _ t (ex_intro _ op Sl))) as L.
  rewrite (rest_total _ _ _ _ _ _ _ R Q) in L. lia.
Qed.
Print Assumptions C27_no_lost_wakeup.

Theorem C27_gets_bounded : forall m, reach s_body false m -> (s_gets (history m) + (if sh m then 1 else 0) <= s_posts (history m))%nat.
Proof. intros m R. destruct (s_lin m R) as [L _]. pose proof (sem_count _ _ _ L) as H. unfold b1 in H. lia. Qed.
Print Assumptions C27_gets_bounded.

(** Two posts, two sleepers, one get: the second post is coalesced with the first when
    nobody has taken it yet. *)
Example C27_ex : exists m, run s_body (init false 3)
  [ECall 0 SGet; ELock 0; EBody 0 Early; ECall 1 SGet; ELock 1; EBody 1 Early;
   ECall 2 SPost; ELock 2; EBody 2 Early; EFire 2 (Some 0%nat); EUnlock 2; EReturn 2;
   ECall 2 SPost; ELock 2; EBody 2 Early; EFire 2 (Some 1%nat); EUnlock 2; EReturn 2;
   ELock 1; EBody 1 Early; EUnlock 1; EReturn 1; ELock 0; EBody 0 Early] = Some m /\
  at_rest s_body m /\ sleeps m 0 SGet 0 /\ sh m = false /\ s_posts (history m) = 2%nat /\ s_gets (history m) = 1%nat.
Proof. eexists. split; [vm_compute; reflexivity|]. split; [rest|]. repeat split. Qed.
