(** Properties C18, C19. *)
From Verif Require Import Base BaseFacts ListModel ListSpec ListProofs.

(** * C18 *)
(** Every history gives exactly the observations of an ideal deque (size() modulo
    2^32), without undefined behaviour; the nodes ever allocated are as many as the
    queue held at its fullest, so recycling loses none. *)
Theorem C18_fifo_refines_deque : forall ops,
  exists f, frun fifo_empty ops = Ok (f, snd (drun [] ops)) /\ length (f_cells f) = high_water [] ops.
Proof.
  intros ops. destruct (frun_refines ops _ _ _ _ finv_empty) as (f & l & fr & E & _ & L). exists f. split; [assumption|].
  cbn [fifo_empty f_cells length] in L. lia.
Qed.
Print Assumptions C18_fifo_refines_deque.

(** After any history the nodes are split into those reachable from mHead, holding
    the deque in order, and those reachable from mFreeList; no node is in both or
    twice, and mTail is the last of the first. *)
Theorem C18_no_crosslink : forall ops f os, frun fifo_empty ops = Ok (f, os) ->
  exists l fr,
    let next p := option_map fst (nth_error (f_cells f) p) in
    chain next (f_head f) l /\ chain next (f_free f) fr /\ NoDup (l ++ fr) /\ (forall p, In p (l ++ fr) <-> p < length (f_cells f)) /\
    f_tail f = last_opt l /\ map (fun p => option_map snd (nth_error (f_cells f) p)) l = map Some (fst (drun [] ops)).
Proof.
  intros ops f os H. destruct (frun_refines ops _ _ _ _ finv_empty) as (f' & l & fr & E & I & _).
  rewrite E in H. injection H as <- <-. exists l, fr.
  split; [apply (F_chain _ _ _ _ I)|]. split; [apply (F_free _ _ _ _ I)|].
  split; [eapply perm_nodup; apply (F_perm _ _ _ _ I)|]. split.
  - intros p. split; intros P.
    + eapply perm_lt; [apply (F_perm _ _ _ _ I)|assumption].
    + apply (Permutation.Permutation_in _ (Permutation.Permutation_sym (F_perm _ _ _ _ I))). apply in_seq. lia.
  - split; [apply (F_tail _ _ _ _ I)|apply (F_data _ _ _ _ I)].
Qed.
Print Assumptions C18_no_crosslink.

(** A stored NULL cannot be told from an empty queue by get(). *)
Theorem C18_null_ambiguous : exists f g f' g', frun fifo_empty [] = Ok (f, []) /\ frun fifo_empty [FPut 0] = Ok (g, [0%Z]) /\
  fifo_get f = Ok (f', 0%Z) /\ fifo_get g = Ok (g', 0%Z) /\ fifo_sz f = 0%Z /\ fifo_sz g = 1%Z.
Proof. eexists _, _, _, _. repeat split; vm_compute; reflexivity. Qed.
Print Assumptions C18_null_ambiguous.

Example C18_example : exists f,
  frun fifo_empty [FPut 1; FPut 2; FGet; FPushFront 3; FPut 4; FSize; FGet; FFront; FGet; FGet; FGet; FPut 5; FSize] =
    Ok (f, [0; 0; 1; 0; 0; 3; 3; 2; 2; 4; 0; 0; 1]%Z) /\ length (f_cells f) = 3 /\ f_free f <> None.
Proof. eexists. split; [vm_compute; reflexivity|]. split; [reflexivity|discriminate]. Qed.

(** * C19 *)
(** For clients that push only nodes not in the list and leave the size of queued
    nodes alone, every history gives the observations of an ideal deque of nodes. *)
Theorem C19_list_refines_deque : forall ops m, allowed_run (length m) [] ops ->
  exists m' s', srun m sll_empty ops = Ok (m', s', snd (sdrun (fun p => match nth_error m p with Some n => sl_size n | None => 0%Z end) [] ops)).
Proof.
  intros ops m A. apply srun_refines; [|assumption]. constructor; try reflexivity; try (cbn; tauto).
  - constructor.
  - intros p P. unfold ssz. destruct (nth_error m p) eqn:E; [reflexivity|]. apply nth_error_None in E. lia.
Qed.
Print Assumptions C19_list_refines_deque.

(** Without those duties the claims fail: pushing the only node again makes it its
    own successor, and the assertion in pop_front fires; ... *)
Theorem C19_double_push_refuted : exists m m1 s1 os, srun m sll_empty [SPushBack 0; SPushBack 0] = Ok (m1, s1, os) /\
  nth_error m1 0 = Some (mkSl (Some 0) 5%Z) /\ sl_pop_front m1 s1 = Abort.
Proof. exists [mkSl None 5%Z]. eexists _, _, _. repeat split; vm_compute; reflexivity. Qed.
Print Assumptions C19_double_push_refuted.

(** ... and a node that changes size while queued leaves totalSize() wrong for the
    empty list. *)
Theorem C19_resized_node_refuted : exists m m1 s1 os, srun m sll_empty [SPushBack 0; SResize 0 7; SPop; SCount; STotal] = Ok (m1, s1, os) /\
  os = [ONone; ONone; ONode (Some 0); ONum 0; ONum (2 ^ 32 - 2)].
Proof. exists [mkSl None 5%Z]. eexists _, _, _. split; vm_compute; reflexivity. Qed.
Print Assumptions C19_resized_node_refuted.

Example C19_example : exists m s,
  srun [mkSl None 5%Z; mkSl (Some 1) 6%Z; mkSl None 7%Z] sll_empty
    [SPushBack 0; SPushBack 1; SPushFront 2; SCount; STotal; SBack; SPop; SPop; SPop; SPop; STotal; SResize 1 9; SPushBack 1; STotal; SFront] =
    Ok (m, s, [ONone; ONone; ONone; ONum 3; ONum 18; ONode (Some 1); ONode (Some 2); ONode (Some 0); ONode (Some 1); ONode None; ONum 0; ONone; ONone; ONum 9; ONode (Some 1)]).
Proof. eexists _, _. vm_compute. reflexivity. Qed.
