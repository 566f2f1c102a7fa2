(** Invariant of the ScopedLockMultiple machine. *)
From Verif Require Import Base BaseFacts TimevalModel ThreadsModel ThreadsProofs.

(** Depth to which thread [t] holds mutex [j]. *)
Definition depth (mx : mutexes) (j t : nat) : nat :=
  match nth_error mx j with Some (Some (u, d)) => if Nat.eqb u t then d else 0 | _ => 0 end.

Definition one (b : bool) : nat := if b then 1 else 0.
(** Number of slots of [x] whose bit in [l] is set and that refer to mutex [j]. *)
Definition slots (x : sthr) (l : list bool) (j : nat) : nat :=
  one (bit l 0 && Nat.eqb (mid x 0) j) + one (bit l 1 && Nat.eqb (mid x 1) j) + one (bit l 2 && Nat.eqb (mid x 2) j).

Definition swf (mx : mutexes) (x : sthr) : Prop :=
  length (st_m x) = 3 /\ length (st_own x) = 3 /\ length (st_state x) = 3 /\ forall w, w < 3 -> mid x w < length mx.

(** What the state bits are at each statement: [only i] = held only if owned on entry. *)
Definition pcinv (x : sthr) : Prop :=
  let s := bit (st_state x) in
  let o := bit (st_own x) in
  let only i := s i = true -> o i = true in
  match st_pc x with
  | 0 => only 0 /\ only 1 /\ only 2
  | 1 => s 0 = true /\ only 1 /\ only 2
  | 2 => s 0 = true /\ s 1 = true /\ only 2
  | 3 => s 0 = true /\ only 2
  | 4 => only 1 /\ only 2
  | 5 => only 0 /\ only 1 /\ only 2
  | 6 => s 1 = true /\ only 0 /\ only 2
  | 7 => s 1 = true /\ s 0 = true /\ only 2
  | 8 => only 2
  | 9 => only 0 /\ only 2
  | 10 => only 0 /\ only 1 /\ only 2
  | 11 => s 2 = true /\ only 0 /\ only 1
  | 12 => s 2 = true /\ s 0 = true /\ only 1
  | 13 => only 1
  | 14 => only 0 /\ only 1
  | 15 | 16 => s 0 = true /\ s 1 = true /\ s 2 = true
  | 17 => s 0 = o 0 /\ s 1 = true /\ s 2 = true
  | 18 => s 0 = o 0 /\ s 1 = o 1 /\ s 2 = true
  | 19 => s 0 = o 0 /\ s 1 = o 1 /\ s 2 = o 2
  | _ => False
  end.

Record sinv (s : sstate) : Prop := {
  si_wf : forall t x, nth_error (ss_t s) t = Some x -> swf (ss_mx s) x;
  si_pc : forall t x, nth_error (ss_t s) t = Some x -> pcinv x;
  si_mx : forall j t, j < length (ss_mx s) ->
    depth (ss_mx s) j t = match nth_error (ss_t s) t with Some x => slots x (st_state x) j | None => 0 end;
  si_pos : forall j u d, nth_error (ss_mx s) j = Some (Some (u, d)) -> 0 < d
}.

Lemma three : forall A (l : list A), length l = 3 -> exists a b c, l = [a; b; c].
Proof. intros A [|a [|b [|c [|]]]] H; try discriminate. eauto. Qed.

Lemma acq_length : forall mx j t mx', acq mx j t = Some mx' -> length mx' = length mx.
Proof.
  unfold acq. intros mx j t mx' H. destruct (nth_error mx j) as [[[u d]|]|]; [destruct (Nat.eqb u t)| |]; try discriminate; injection H as <-; apply upd_length.
Qed.
Lemma rel_length : forall mx j t, length (rel mx j t) = length mx.
Proof.
  unfold rel. intros. destruct (nth_error mx j) as [[[u [|d]]|]|]; try reflexivity. destruct (Nat.eqb u t); [apply upd_length|reflexivity].
Qed.

Definition pos (mx : mutexes) : Prop := forall j u d, nth_error mx j = Some (Some (u, d)) -> 0 < d.

Lemma acq_spec : forall mx j t mx', pos mx -> acq mx j t = Some mx' ->
  pos mx' /\ forall i u, depth mx' i u = depth mx i u + one (Nat.eqb i j && Nat.eqb u t).
Proof.
  intros mx j t mx' P H. unfold acq in H. destruct (nth_error mx j) as [[[v d]|]|] eqn:E; [destruct (Nat.eqb_spec v t) as [->|Ne]| |]; try discriminate; injection H as <-.
  - split.
    + intros i u e Hi. destruct (Nat.eq_dec j i) as [->|Nj].
      * rewrite nth_error_upd_eq in Hi by (eapply nth_error_lt; eassumption). injection Hi as <- <-. lia.
      * rewrite nth_error_upd_neq in Hi by congruence. exact (P _ _ _ Hi).
    + intros i u. unfold depth. destruct (Nat.eqb_spec i j) as [->|Nj].
      * rewrite nth_error_upd_eq by (eapply nth_error_lt; eassumption). rewrite E. cbn [andb]. rewrite (Nat.eqb_sym u t). destruct (Nat.eqb t u); cbn [one]; lia.
      * rewrite nth_error_upd_neq by congruence. cbn [andb one]. lia.
  - split.
    + intros i u e Hi. destruct (Nat.eq_dec j i) as [->|Nj].
      * rewrite nth_error_upd_eq in Hi by (eapply nth_error_lt; eassumption). injection Hi as <- <-. lia.
      * rewrite nth_error_upd_neq in Hi by congruence. exact (P _ _ _ Hi).
    + intros i u. unfold depth. destruct (Nat.eqb_spec i j) as [->|Nj].
      * rewrite nth_error_upd_eq by (eapply nth_error_lt; eassumption). rewrite E. cbn [andb]. rewrite (Nat.eqb_sym u t). destruct (Nat.eqb t u); cbn [one]; lia.
      * rewrite nth_error_upd_neq by congruence. cbn [andb one]. lia.
Qed.

Lemma rel_spec : forall mx j t, pos mx -> 0 < depth mx j t ->
  pos (rel mx j t) /\ forall i u, depth (rel mx j t) i u + one (Nat.eqb i j && Nat.eqb u t) = depth mx i u.
Proof.
  intros mx j t P D. unfold depth in D. destruct (nth_error mx j) as [[[v d]|]|] eqn:E; try lia.
  destruct (Nat.eqb_spec v t) as [->|Ne]; [|lia]. unfold rel. rewrite E. destruct d as [|d]; [lia|]. rewrite Nat.eqb_refl. split.
  - intros i u e Hi. destruct (Nat.eq_dec j i) as [->|Nj].
    + rewrite nth_error_upd_eq in Hi by (eapply nth_error_lt; eassumption). destruct d; [discriminate|]. injection Hi as <- <-. lia.
    + rewrite nth_error_upd_neq in Hi by congruence. exact (P _ _ _ Hi).
  - intros i u. unfold depth. destruct (Nat.eqb_spec i j) as [->|Nj].
    + rewrite nth_error_upd_eq by (eapply nth_error_lt; eassumption). rewrite E. cbn [andb]. rewrite (Nat.eqb_sym u t). destruct d; destruct (Nat.eqb t u); cbn [one]; lia.
    + rewrite nth_error_upd_neq by congruence. cbn [andb one]. lia.
Qed.

Lemma slots_set : forall x w b pc j, length (st_state x) = 3 -> w < 3 ->
  slots (setst x w b pc) (st_state (setst x w b pc)) j + one (bit (st_state x) w && Nat.eqb (mid x w) j)
  = slots x (st_state x) j + one (b && Nat.eqb (mid x w) j).
Proof.
  intros [pc0 ms ow st] w b pc j L W. cbn [st_state] in L. destruct (three _ _ L) as (a0 & a1 & a2 & ->).
  unfold slots, setst, mid. cbn [st_state st_m st_own]. destruct w as [|[|[|w]]]; [..|lia]; cbn [upd bit nth]; lia.
Qed.

Lemma slots_bit : forall x w, w < 3 -> bit (st_state x) w = true -> 0 < slots x (st_state x) (mid x w).
Proof.
  intros x w W B. unfold slots. destruct w as [|[|[|w]]]; [..|lia]; rewrite B, Nat.eqb_refl; cbn [andb one]; lia.
Qed.

(** What one statement does to the thread and to the mutexes. *)
Inductive seff (mx : mutexes) (t : nat) (x : sthr) : mutexes -> sthr -> Prop :=
| se_goto : forall pc, seff mx t x mx (goto x pc)
| se_acq : forall w pc mx', w < 3 -> bit (st_state x) w = false -> acq mx (mid x w) t = Some mx' -> seff mx t x mx' (setst x w true pc)
| se_rel : forall w pc, w < 3 -> bit (st_state x) w = true -> seff mx t x (rel mx (mid x w) t) (setst x w false pc)
| se_clr : forall w pc, w < 3 -> bit (st_state x) w = false -> seff mx t x mx (setst x w false pc).


Lemma sexec_eff : forall mx t x mx' x', sexec mx t x = Some (mx', x') -> seff mx t x mx' x'.
Proof.
  intros mx t x mx' x' H. unfold sexec in H. set (pc := st_pc x) in H. clearbody pc.
  do 19 (try (destruct pc as [|pc])); cbn [prog] in H; try discriminate;
  repeat match type of H with
  | context [if ?b then _ else _] => let E := fresh "E" in destruct b eqn:E
  | context [match acq ?a ?b ?c with _ => _ end] => let E := fresh "A" in destruct (acq a b c) eqn:E
  end; try discriminate; injection H as <- <-;
  try apply andb_prop in E; try apply andb_prop in E0;
  first [apply se_goto | apply se_acq; [lia| |assumption]; first [assumption|destruct E; destruct (bit (st_state x) _); [discriminate|reflexivity]|destruct E0 as [_ E0]; apply negb_true_iff in E0; exact E0] | apply se_rel; [lia|]; first [assumption|apply E] | apply se_clr; [lia|assumption]].
Qed.

Lemma sexec_pc : forall mx t x mx' x', length (st_state x) = 3 -> length (st_own x) = 3 -> pcinv x ->
  sexec mx t x = Some (mx', x') -> pcinv x' /\ st_own x' = st_own x /\ st_m x' = st_m x.
Proof.
  intros mx t [pc ms ow st] mx' x' L Lo I H. cbn [st_state st_own] in L, Lo. destruct (three _ _ L) as (a0 & a1 & a2 & ->). clear L.
  destruct (three _ _ Lo) as (o0 & o1 & o2 & ->). clear Lo.
  unfold sexec in H. unfold pcinv in I. cbn [st_pc st_state st_own] in *.
  do 20 (try (destruct pc as [|pc])); try contradiction; cbn [prog] in H; cbn [bit nth] in I, H;
  destruct a0, a1, a2, o0, o1, o2; cbn [negb andb] in H; try (exfalso; intuition discriminate);
  try match type of H with
  | context [match acq ?a ?b ?c with _ => _ end] => let E := fresh "A" in destruct (acq a b c) eqn:E
  end; try discriminate; injection H as <- <-; (split; [|split; reflexivity]);
  unfold pcinv, goto, setst; cbn [st_pc st_state st_own upd bit nth]; repeat split; intros; first [reflexivity|discriminate|assumption].
Qed.
