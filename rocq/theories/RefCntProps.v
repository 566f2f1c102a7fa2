(** C40: RefCntPointer keeps its target alive exactly as long as it is referred to. *)
From Verif Require Import Base BaseFacts RefCntModel RefCntProofs.
Local Open Scope Z_scope.

(** ** Specification: the pointers that refer to an object *)
Definition pointers (s : heap) (o : nat) : list nat :=
  filter (fun i => constructed (slots s i) && match rcPointer (slots s i) with Some p => (p =? o)%nat | None => false end)
         (seq 0 (nslots s)).

(** Every operation of the history is [allowed] (RefCntProofs): the pointers it names are
    constructed, raw pointers refer to objects that are alive, a member pointer is
    assigned or freed only while some variable keeps its owner alive, only variables go out of
    scope, and a count does not pass 32767 (assignment needs two spare). *)
Fixpoint lawful (s : heap) (l : list op) : Prop :=
  match l with
  | [] => True
  | x :: t => allowed s x /\ forall s', step s x = Ok s' -> lawful s' t
  end.
(** States a lawful program reaches. *)
Definition reached (s : heap) : Prop := exists l, lawful empty l /\ run empty l = Ok s.

Lemma refs_pointers s o : refs s [] o = Z.of_nat (length (pointers s o)).
Proof. reflexivity. Qed.
Lemma run_good l : forall s, Inv s -> lawful s l -> exists s', run s l = Ok s' /\ Inv s'.
Proof.
  induction l as [|x l IH]; intros s W H; [exists s; split; [reflexivity|exact W]|].
  destruct H as [A H]. destruct (step_good s x W A) as (s1 & E & W1 & _).
  destruct (IH s1 W1 (H s1 E)) as (s2 & E2 & W2). exists s2. cbn [run]. rewrite E. split; assumption.
Qed.
Lemma reached_inv s : reached s -> Inv s.
Proof.
  intros (l & L & R). destruct (run_good l empty empty_inv L) as (s' & R' & W). rewrite R in R'. apply Ok_inj in R'. subst. exact W.
Qed.

(** No lawful program uses a dead object or a dead pointer, and no assertion fails. *)
Theorem C40_safe l : lawful empty l -> exists s, run empty l = Ok s.
Proof. intros H. destruct (run_good l empty empty_inv H) as (s & R & _). exists s. exact R. Qed.
Print Assumptions C40_safe.

Theorem C40_count s o c : reached s -> objs s o = Alive c -> c = Z.of_nat (length (pointers s o)).
Proof.
  intros R H. apply reached_inv in R. destruct (wf_cnt _ _ _ R o c H) as [E _]. rewrite refs_pointers in E. unfold zero in E. lia.
Qed.
Print Assumptions C40_count.

Theorem C40_pointee_alive s i o : reached s -> constructed (slots s i) = true -> rcPointer (slots s i) = Some o ->
  exists c, objs s o = Alive c /\ 1 <= c.
Proof. intros R. apply (pointee s zero), reached_inv, R. Qed.
Print Assumptions C40_pointee_alive.

Theorem C40_deleted_once s : reached s ->
  NoDup (deleted s) /\ forall o, In o (deleted s) <-> objs s o = Dead.
Proof. intros R. apply reached_inv in R. split; apply R. Qed.
Print Assumptions C40_deleted_once.

(** An operation deletes an object exactly when nothing refers to the object after it, and
    something did before it or the operation took it over by a raw pointer. *)
Theorem C40_last_release s x s' o c : reached s -> allowed s x -> step s x = Ok s' -> objs s o = Alive c ->
  (objs s' o = Dead <-> pointers s' o = [] /\ (pointers s o <> [] \/ raw x o)).
Proof.
  intros R A E H. apply reached_inv in R. destruct (step_good s x R A) as (s1 & E1 & W & KK). rewrite E in E1. apply Ok_inj in E1. subst s1.
  destruct (wf_cnt _ _ _ R o c H) as [C _]. rewrite refs_pointers in C. unfold zero in C. split.
  - intros D. split.
    + destruct (wf_dead _ _ _ W o) as [Z0 _]; [rewrite D; auto|]. rewrite refs_pointers in Z0. apply length_zero_iff_nil. lia.
    + destruct (pointers s o) as [|i t] eqn:P; [|left; discriminate].
      assert (RD : raw x o \/ ~ raw x o).
      { destruct x as [k| |j|[q|]|i j|i [q|]|i|i]; cbn [raw]; try (right; intros []; fail); try (right; discriminate);
          (destruct (Nat.eq_dec q o) as [->|N]; [left; reflexivity|right; congruence]). }
      destruct RD as [RD|RD]; [right; exact RD|]. cbn in C. subst c. rewrite (k_keep _ _ _ KK o H RD) in D. discriminate.
  - intros [P Q]. destruct (objs s' o) as [|c'|] eqn:Ho; [| |reflexivity]; exfalso.
    + apply (wf_objs _ _ _ W) in Ho. pose proof (k_nobjs _ _ _ KK).
      assert (objs s o = Absent) by (apply (wf_objs _ _ _ R); lia). congruence.
    + destruct (wf_cnt _ _ _ W o c' Ho) as [C' _]. rewrite refs_pointers, P in C'. unfold zero in C'. cbn in C'. subst c'.
      destruct (k_zero _ _ _ KK o Ho) as [[H0 N]|N].
      * rewrite H in H0. injection H0 as H0. destruct Q as [Q|Q]; [|exact (N Q)]. apply Q, length_zero_iff_nil. lia.
      * apply (wf_objs _ _ _ R) in N. congruence.
Qed.
Print Assumptions C40_last_release.

Theorem C40_dead_stays_dead s x s' o : reached s -> allowed s x -> step s x = Ok s' -> objs s o = Dead -> objs s' o = Dead.
Proof.
  intros R A E. apply reached_inv in R. destruct (step_good s x R A) as (s1 & E1 & _ & KK). rewrite E in E1. apply Ok_inj in E1. subst s1. apply KK.
Qed.
Print Assumptions C40_dead_stays_dead.

(** Defect: the count is a short.  The 32768th pointer makes it negative, and from then on copying
    or destroying any of the pointers fails an assertion. *)
Lemma copies n : Z.of_nat n <= 32767 -> exists s,
  run empty (New 0 :: OfRaw (Some 0%nat) :: repeat (CopyOf 0) n) = Ok s /\
  objs s 0%nat = Alive (s16 (Z.of_nat n + 1)) /\ slots s 0%nat = Slot None true (Some 0%nat) /\ length (pointers s 0) = S n /\ nslots s = S n.
Proof.
  induction n as [|n IH]; intros L.
  - eexists. split; [reflexivity|]. repeat split.
  - destruct IH as (s & R & O & S0 & P & N); [lia|]. set (c := s16 (Z.of_nat n + 1)) in *.
    assert (C : c = Z.of_nat n + 1) by (apply s16_small; lia).
    assert (T : step s (CopyOf 0) = Ok (set_obj (new_slot s (Slot None true (Some 0%nat))) 0 (Alive (s16 (c + 1))))).
    { cbn [step]. unfold get_slot. rewrite S0. cbn [constructed bind rcPointer]. unfold construct, rcInc, get_slot. cbn [new_slot slots]. rewrite set_eq.
      cbn [constructed bind rcPointer]. unfold incRefCnt. cbn [new_slot objs]. rewrite O. replace (c <? 0) with false by lia. reflexivity. }
    eexists. split; [|split; [|split; [|split]]].
    + cbn [repeat]. rewrite repeat_cons. change (New 0 :: OfRaw (Some 0%nat) :: repeat (CopyOf 0) n ++ [CopyOf 0]) with ((New 0 :: OfRaw (Some 0%nat) :: repeat (CopyOf 0) n) ++ [CopyOf 0]).
      assert (RA : forall l m a b, run a l = Ok b -> run a (l ++ m) = run b m).
      { induction l as [|y l IHl]; intros m a b; [cbn; intros E; apply Ok_inj in E; subst; reflexivity|].
        cbn [run app]. destruct (step a y); cbn [bind]; try discriminate. apply IHl. }
      rewrite (RA _ _ _ _ R). cbn [run]. rewrite T. reflexivity.
    + cbn [set_obj objs new_slot]. rewrite set_eq. rewrite C. do 2 f_equal. lia.
    + cbn [set_obj slots new_slot]. rewrite set_neq by lia. exact S0.
    + unfold pointers. cbn [set_obj new_slot nslots slots]. rewrite seq_S, filter_app, app_length. cbn [filter Nat.add]. rewrite set_eq. cbn.
      rewrite <- P, Nat.add_comm. cbn. f_equal. unfold pointers. f_equal. apply filter_ext_in. intros j Hj. apply in_seq in Hj. rewrite set_neq by lia. reflexivity.
    + cbn. rewrite N. reflexivity.
Qed.
Theorem C40_overflow_refuted : exists l s, run empty l = Ok s /\ Z.of_nat (length (pointers s 0)) = 32768 /\
  objs s 0%nat = Alive (-32768) /\ step s (CopyOf 0) = Abort /\ step s (Destroy 0) = Abort.
Proof.
  destruct (copies (Z.to_nat 32767)) as (s & R & O & S0 & P & N); [lia|]. rewrite Z2Nat.id in O by lia. change (s16 (32767 + 1)) with (-32768) in O.
  eexists _, s. split; [exact R|]. split; [rewrite P; lia|]. split; [exact O|]. split.
  - cbn [step]. unfold get_slot. rewrite S0. cbn [constructed bind rcPointer]. unfold construct, rcInc, get_slot. cbn [new_slot slots]. rewrite set_eq.
    cbn [constructed bind rcPointer]. unfold incRefCnt. cbn [new_slot objs]. rewrite O. reflexivity.
  - cbn [step]. unfold destroy, rcDec, get_slot. rewrite S0. cbn [constructed bind rcPointer]. unfold dec_. cbn [decRefCnt]. rewrite O. reflexivity.
Qed.
Print Assumptions C40_overflow_refuted.

(** Limit: an object that refers to itself is never deleted. *)
Theorem C40_cycle_leaks : exists s, reached s /\ objs s 0%nat = Alive 1 /\ pointers s 0 = [0%nat] /\ owner (slots s 0) = Some 0%nat.
Proof.
  eexists. split; [exists [New 1; OfRaw (Some 0%nat); Assign 0 1; Destroy 1]; split|].
  - cbn [lawful allowed]. split; [exact I|]. intros s1 E1. apply Ok_inj in E1. subst s1. cbn [room].
    split; [exists 0; split; [reflexivity|lia]|]. intros s2 E2. vm_compute in E2. apply Ok_inj in E2. subst s2. split.
    + split; [reflexivity|]. split; [reflexivity|]. split; [|exists 1; split; [reflexivity|lia]].
      intros a Ho _. cbn in Ho. injection Ho as <-. exists 1%nat. repeat split.
    + intros s3 E3. vm_compute in E3. apply Ok_inj in E3. subst s3. split; [split; reflexivity|auto].
  - vm_compute. reflexivity.
  - repeat split.
Qed.
Print Assumptions C40_cycle_leaks.

(** Limit: assigning to or freeing a member pointer that alone keeps its own object alive
    writes to freed memory. *)
Theorem C40_member_release_refuted : exists s, reached s /\
  constructed (slots s 0) = true /\ step s (Free 0) = UB /\ step s (Assign 0 2) = UB /\
  exists s', step s (AssignRaw 0 None) = Ok s' /\ objs s' 0%nat = Dead.
Proof.
  eexists. split; [exists [New 1; OfRaw (Some 0%nat); Declare; Assign 0 1; Destroy 1]; split|].
  - cbn [lawful allowed]. split; [exact I|]. intros s1 E1. apply Ok_inj in E1. subst s1. cbn [room].
    split; [exists 0; split; [reflexivity|lia]|]. intros s2 E2. vm_compute in E2. apply Ok_inj in E2. subst s2. split; [exact I|].
    intros s2 E2. vm_compute in E2. apply Ok_inj in E2. subst s2. split.
    + split; [reflexivity|]. split; [reflexivity|]. split; [|exists 1; split; [reflexivity|lia]].
      intros a Ho _. cbn in Ho. injection Ho as <-. exists 1%nat. repeat split.
    + intros s3 E3. vm_compute in E3. apply Ok_inj in E3. subst s3. split; [split; reflexivity|auto].
  - vm_compute. reflexivity.
  - split; [reflexivity|]. split; [vm_compute; reflexivity|]. split; [vm_compute; reflexivity|].
    eexists. split; [vm_compute; reflexivity|reflexivity].
Qed.
Print Assumptions C40_member_release_refuted.

(** ** Tests *)
(* p = new A; q = p; p.free(); q = q; q destroyed: deleted once, at the end. *)
Definition ex_ops : list op := [New 0; OfRaw (Some 0%nat); CopyOf 0; Free 0; Assign 1 1].
Example C40_ex1 : exists s, run empty ex_ops = Ok s /\ objs s 0%nat = Alive 1 /\ deleted s = [] /\
  exists s', step s (Destroy 1) = Ok s' /\ objs s' 0%nat = Dead /\ deleted s' = [0%nat].
Proof.
  eexists. split; [vm_compute; reflexivity|]. repeat split. eexists. split; [vm_compute; reflexivity|]. repeat split.
Qed.
(* a chain of three objects: releasing the head deletes all three *)
Example C40_ex2 : exists s, run empty [New 1; New 1; New 1; OfRaw (Some 0%nat); AssignRaw 0 (Some 1%nat); AssignRaw 1 (Some 2%nat); Destroy 3] = Ok s /\
  deleted s = [2%nat; 1%nat; 0%nat].
Proof. eexists. split; vm_compute; reflexivity. Qed.
Example C40_ex3 : reached empty.
Proof. exists []. split; [exact I|reflexivity]. Qed.
