(** Properties C12-C14. *)
From Verif Require Import Base BaseFacts VectorHeapModel VectorHeapSpec VectorHeapProofs VectorAliasProofs.

(** * C12 *)
Theorem C12_no_double_free : forall ops, vrun empty_world ops <> VBadFree.
Proof. exact no_double_free. Qed.
Print Assumptions C12_no_double_free.

Theorem C12_one_owner : forall w, reachable w ->
  (forall b, allocated w b -> exists v, owns w v b /\ forall u, owns w u b -> u = v) /\
  (forall v b, owns w v b -> allocated w b /\ contents w v <> None).
Proof.
  intros w (ops & R). split.
  - intros b A. exact (one_owner ops w b R A).
  - intros v b O. split; [exact (owned_allocated ops w v b R O)|exact (owner_contents ops w v b R O)].
Qed.
Print Assumptions C12_one_owner.

Theorem C12_no_leak : forall w, reachable w -> (forall v, ~ alive w v) -> forall b, ~ allocated w b.
Proof. intros w (ops & R). exact (no_leak ops w R). Qed.
Print Assumptions C12_no_leak.

(** A destructor always succeeds, also for a vector that dangles. *)
Theorem C12_destroy : forall w v, reachable w -> alive w v -> exists w', destroy w v = VOk w' /\ ~ alive w' v.
Proof. intros w v R. apply destroy_ok. apply reachable_inv. assumption. Qed.
Print Assumptions C12_destroy.

Example C12_example :
  let ops := [ONew 3; OFill 0 7; OSegment 0 1 2; OCopyBV 0; OConcat 0 1; OShift 2 3; OAssign 0 2; OResize 1 4] in
  (exists w, vrun empty_world ops = VOk w /\ is_owner w 0 /\ is_owner w 1 /\ is_owner w 2 /\ ~ is_owner w 3) /\
  (exists w, vrun empty_world (ops ++ [ODestroy 0; ODestroy 1; ODestroy 2; ODestroy 3]) = VOk w /\ Forall (fun b => b = None) (heap w)).
Proof.
  split.
  - eexists. split; [vm_compute; reflexivity|].
    repeat split; try (eexists; eexists; split; reflexivity).
    intros (b & x & H & D). vm_compute in H. injection H as <-. discriminate.
  - eexists. split; [vm_compute; reflexivity|]. repeat constructor.
Qed.

(** * C13 *)
(** A segment and its parent show the same storage, whatever is written afterwards
    through whatever vector ... *)
Theorem C13_segment_shares : forall w o s n w1 t cs, reachable w -> contents w o = Some cs -> segment w o s n = VOk (w1, t) ->
  contents w1 t = Some (firstn n (skipn s cs)) /\
  forall ops w2, Forall (is_write (fun _ => True)) ops -> vrun w1 ops = VOk w2 ->
    forall k, k < n -> read w2 t k = read w2 o (s + k).
Proof.
  intros w o s n w1 t cs _ C H. split; [eapply segment_contents; eassumption|].
  intros ops w2 F R. eapply segment_shares; eassumption.
Qed.
Print Assumptions C13_segment_shares.

(** ... and a written element is what is read next. *)
Theorem C13_write_read : forall w v i z w', write w v i z = VOk w' ->
  read w' v i = VOk (Some z) /\ forall j, j <> i -> read w' v j = read w v j.
Proof. exact write_read. Qed.
Print Assumptions C13_write_read.

(** When a segment may be taken. *)
Theorem C13_segment_bounds : forall w o s n cs, contents w o = Some cs ->
  (s + n <= length cs -> exists w1 t, segment w o s n = VOk (w1, t)) /\
  (length cs < s + n -> segment w o s n = VAbort).
Proof.
  intros w o s n cs C. destruct (contents_inv _ _ _ C) as (y & E & _ & L).
  unfold segment. rewrite (getv_some _ _ _ E). cbn [vbind]. unfold vassert. rewrite L. rewrite push_eq.
  destruct (Nat.leb_spec (s + n) (v_len y)); cbn [vbind]; split; try lia; eauto.
Qed.
Print Assumptions C13_segment_bounds.

(** [t] was made as a copy showing [cs]: it does, the source still does, and later
    element writes never cross. *)
Definition independent_copy (w' : world) (t o : nat) (cs : list cell) : Prop :=
  t <> o /\ contents w' t = Some cs /\
  forall ops w2, vrun w' ops = VOk w2 ->
    (Forall (is_write (fun u => u <> t)) ops -> contents w2 t = Some cs) /\
    (Forall (is_write (fun u => u = t)) ops -> forall u, u <> t -> contents w2 u = contents w' u).

Lemma exclusive_independent : forall w' t o cs, t <> o -> contents w' t = Some cs -> exclusive w' t -> independent_copy w' t o cs.
Proof.
  intros w' t o cs N C X. split; [assumption|]. split; [assumption|]. intros ops w2 R.
  destruct (exclusive_writes _ _ _ _ X R) as [A B]. split; [|assumption]. intros F. rewrite (A F). assumption.
Qed.

Theorem C13_copy_of_owner : forall w o, reachable w -> is_owner w o ->
  exists w' t cs, copy_bv w o = VOk (w', t) /\ contents w o = Some cs /\ contents w' o = Some cs /\ independent_copy w' t o cs.
Proof.
  intros w o R (b & O). destruct (copy_owner w o b (reachable_inv _ R) O) as (w' & t & cs & E & C & Ct & Co & N & X).
  exists w', t, cs. do 3 (split; [assumption|]). apply exclusive_independent; assumption.
Qed.
Print Assumptions C13_copy_of_owner.

Theorem C13_const_copy : forall w o cs, reachable w -> contents w o = Some cs ->
  exists w' t, copy_const w o = VOk (w', t) /\ contents w' o = Some cs /\ independent_copy w' t o cs.
Proof.
  intros w o cs R C. destruct (copy_const_spec w o cs (reachable_inv _ R) C) as (w' & t & E & Ct & Co & N & X).
  exists w', t. split; [assumption|]. split; [assumption|]. apply exclusive_independent; assumption.
Qed.
Print Assumptions C13_const_copy.

Theorem C13_clone_segment : forall w o s n cs, reachable w -> contents w o = Some cs -> s + n <= length cs ->
  exists w' t, cloneSegment w o s n = VOk (w', t) /\ contents w' o = Some cs /\ independent_copy w' t o (firstn n (skipn s cs)).
Proof.
  intros w o s n cs R C L. destruct (cloneSegment_spec w o s n cs (reachable_inv _ R) C L) as (w' & t & E & Ct & Co & N & X).
  exists w', t. split; [assumption|]. split; [assumption|]. apply exclusive_independent; assumption.
Qed.
Print Assumptions C13_clone_segment.

(** The copy of a vector that owns nothing shares the storage. *)
Theorem C13_copy_of_alias : forall w o, alive w o -> ~ is_owner w o ->
  exists w' t, copy_bv w o = VOk (w', t) /\ t <> o /\
    forall ops w2, Forall (is_write (fun _ => True)) ops -> vrun w' ops = VOk w2 ->
      contents w2 t = contents w2 o /\ forall k, read w2 t k = read w2 o k.
Proof.
  intros w o (y & E) N. destruct (v_data y) as [b|] eqn:D.
  { exfalso. apply N. exists b, y. auto. }
  destruct (copy_alias w o y E D) as (w' & t & H & Nt & Eo & Et & _). exists w', t. split; [assumption|]. split; [assumption|].
  intros ops w2 F R. exact (same_view_reads _ _ _ _ _ _ Et Eo F R).
Qed.
Print Assumptions C13_copy_of_alias.

Example C13_example :
  exists w, vrun empty_world [ONew 4; OFill 0 5; OSegment 0 1 2; OCloneSegment 0 1 2; OCopyBV 0; OCopyBV 1; OWrite 1 0 9; OWrite 0 2 8; OFill 3 1] = VOk w /\
  map (contents w) [0;1;2;3;4;5] =
   [Some [Some 5; Some 9; Some 8; Some 5]; Some [Some 9; Some 8]; None; Some [Some 1; Some 1]; Some [Some 5; Some 5; Some 5; Some 5]; Some [Some 9; Some 8]]%Z.
Proof. eexists. split; vm_compute; reflexivity. Qed.

(** * C14 *)
(** Assignment between different vectors, the source not being a view into the
    destination's own block: the destination shows the source's elements. *)
Theorem C14_assign_distinct : forall w v o cs, reachable w -> v <> o -> alive w v -> contents w o = Some cs -> ~ looks_into w o v ->
  exists w', assign w v o = VOk w' /\ contents w' v = Some cs /\ contents w' o = Some cs.
Proof. intros w v o cs R. apply assign_distinct. apply reachable_inv. assumption. Qed.
Print Assumptions C14_assign_distinct.

Theorem C14_shift_distinct : forall w v o cs, reachable w -> v <> o -> alive w v -> contents w o = Some cs -> ~ looks_into w o v ->
  exists w', shiftMem w v o = VOk w' /\ contents w' v = Some cs /\ contents w' o = Some cs /\
    (forall b, owns w' v b <-> owns w o b) /\ ~ is_owner w' o.
Proof.
  intros w v o cs R N A C L. destruct (shift_distinct w v o cs (reachable_inv _ R) N A C L) as (w' & E & Cv & Co & O1 & O2).
  exists w'. repeat (split; [assumption|]). intros (b & B). exact (O2 b B).
Qed.
Print Assumptions C14_shift_distinct.

(** Defects: *)
Theorem C14_self_assign_loses_contents : forall w v, reachable w -> is_owner w v ->
  exists w' cs, assign w v v = VOk w' /\ contents w v = Some cs /\ contents w' v = Some (repeat None (length cs)).
Proof. intros w v R (b & O). exact (assign_self_owner w v b (reachable_inv _ R) O). Qed.
Print Assumptions C14_self_assign_loses_contents.

(** Assigning from any non-empty view of one's own block leaves one pointing into
    freed memory. *)
Theorem C14_assign_own_view_dangles : forall w v o cs, reachable w -> v <> o -> contents w o = Some cs -> cs <> [] -> looks_into w o v ->
  exists w', assign w v o = VOk w' /\ contents w' v = None /\ forall i, i < length cs -> read w' v i = VBadAccess.
Proof.
  intros w v o cs R N C Nc L. destruct (contents_inv _ _ _ C) as (y & E & _ & Ly).
  destruct (assign_from_inside w v o y (reachable_inv _ R) N E) as (w' & H & Cv & Rd); [destruct cs; [congruence|cbn in Ly; lia]|assumption|].
  exists w'. split; [assumption|]. split; [assumption|]. intros i Hi. rewrite Rd. destruct (Nat.ltb_spec i (v_len y)); [reflexivity|lia].
Qed.
Print Assumptions C14_assign_own_view_dangles.

(** Self-assignment of a vector that owns nothing is harmless. *)
Theorem C14_self_assign_alias : forall w v, alive w v -> ~ is_owner w v ->
  exists w', assign w v v = VOk w' /\ contents w' v = contents w v.
Proof.
  intros w v (y & E) N. destruct (v_data y) as [b|] eqn:D.
  { exfalso. apply N. exists b, y. auto. }
  unfold assign, makeAlias. rewrite (getv_some _ _ _ E). cbn [vbind]. rewrite D. cbn [vbind]. rewrite (getv_some _ _ _ E). cbn [vbind]. rewrite D.
  eexists. split; [reflexivity|]. unfold contents. cbn [setv env]. rewrite upd_same by (eapply nth_lt; eassumption). rewrite E. cbn [v_start v_len].
  reflexivity.
Qed.
Print Assumptions C14_self_assign_alias.

Theorem C14_self_shift_empties : forall w v, reachable w -> alive w v ->
  exists w', shiftMem w v v = VOk w' /\ contents w' v = Some [].
Proof. intros w v R. apply shift_self. apply reachable_inv. assumption. Qed.
Print Assumptions C14_self_shift_empties.

Theorem C14_self_assign_keeps_refuted : exists w v w' cs, reachable w /\ contents w v = Some cs /\ assign w v v = VOk w' /\ contents w' v <> Some cs.
Proof.
  exists (mkW [Some [Some 3%Z]] [Some (mkVec (Some 0) (Some (0, 0)) 1)]), 0.
  eexists. exists [Some 3%Z]. split; [exists [ONew 1; OFill 0 3]; reflexivity|]. split; [reflexivity|]. split; [reflexivity|]. discriminate.
Qed.
Print Assumptions C14_self_assign_keeps_refuted.

Example C14_example :
  (exists w, vrun empty_world [ONew 2; OFill 0 5; ONew 1; OAssign 1 0] = VOk w /\ contents w 1 = Some [Some 5; Some 5]%Z) /\
  (exists w, vrun empty_world [ONew 2; OFill 0 5; OSegment 0 0 1; OAssign 0 1] = VOk w /\ contents w 0 = None /\ read w 0 0 = VBadAccess).
Proof. split; eexists; repeat split; vm_compute; reflexivity. Qed.
