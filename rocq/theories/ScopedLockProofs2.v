(** The ScopedLockMultiple invariant holds in all reachable states; no deadlock. *)
From Verif Require Import Base BaseFacts TimevalModel ThreadsModel ThreadsProofs ScopedLockProofs.

Lemma seff_inv : forall s t x mx' x', sinv s -> nth_error (ss_t s) t = Some x ->
  seff (ss_mx s) t x mx' x' -> pcinv x' -> sinv (SS mx' (upd (ss_t s) t x')).
Proof.
  intros s t x mx' x' [W P M Q] N E Px.
  assert (Lt := nth_error_lt _ _ _ _ N). destruct (W _ _ N) as (L1 & L2 & L3 & L4).
  assert (Len : length mx' = length (ss_mx s)).
  { destruct E; try reflexivity; [eapply acq_length; eassumption|apply rel_length]. }
  assert (Sw : swf mx' x').
  { destruct E; unfold swf, goto, setst, mid; cbn [st_m st_own st_state]; rewrite ?upd_length; repeat split; try assumption; intros w0 Hw0; fold (mid x w0); unfold mid in Len; rewrite ?Len; apply L4; exact Hw0. }
  assert (K : pos mx' /\ forall j u, depth mx' j u + (if Nat.eqb u t then slots x (st_state x) j else 0) =
                depth (ss_mx s) j u + (if Nat.eqb u t then slots x' (st_state x') j else 0)).
  { assert (Q' : pos (ss_mx s)) by exact Q. destruct E as [pc|w pc mx' Hw B A|w pc Hw B|w pc Hw B].
    - split; [exact Q'|]. intros j u. reflexivity.
    - destruct (acq_spec _ _ _ _ Q' A) as [P1 D1]. split; [exact P1|]. intros j u. rewrite D1.
      pose proof (slots_set x w true pc j L3 Hw) as SS. rewrite B in SS. cbn [andb one] in SS. rewrite (Nat.eqb_sym j (mid x w)).
      destruct (Nat.eqb u t); destruct (Nat.eqb (mid x w) j); cbn [andb one] in *; lia.
    - assert (D0 : 0 < depth (ss_mx s) (mid x w) t). { rewrite (M _ _ (L4 _ Hw)), N. apply slots_bit; assumption. }
      destruct (rel_spec _ _ _ Q' D0) as [P1 D1]. split; [exact P1|]. intros j u. rewrite <- (D1 j u).
      pose proof (slots_set x w false pc j L3 Hw) as SS. rewrite B in SS. cbn [andb one] in SS. rewrite (Nat.eqb_sym j (mid x w)).
      destruct (Nat.eqb u t); destruct (Nat.eqb (mid x w) j); cbn [andb one] in *; lia.
    - split; [exact Q'|]. intros j u.
      pose proof (slots_set x w false pc j L3 Hw) as SS. rewrite B in SS. cbn [andb one] in SS.
      destruct (Nat.eqb u t); lia. }
  destruct K as [Pm Dm]. constructor; cbn [ss_mx ss_t].
  - intros u y H. destruct (Nat.eq_dec t u) as [->|Ne].
    + rewrite nth_error_upd_eq in H by assumption. injection H as <-. exact Sw.
    + rewrite nth_error_upd_neq in H by congruence. destruct (W _ _ H) as (A1 & A2 & A3 & A4). unfold swf. rewrite Len. auto.
  - intros u y H. destruct (Nat.eq_dec t u) as [->|Ne].
    + rewrite nth_error_upd_eq in H by assumption. injection H as <-. exact Px.
    + rewrite nth_error_upd_neq in H by congruence. exact (P _ _ H).
  - intros j u Hj. rewrite Len in Hj. specialize (Dm j u). specialize (M j u Hj). destruct (Nat.eqb_spec u t) as [->|Ne].
    + rewrite nth_error_upd_eq by assumption. rewrite N in M. lia.
    + rewrite nth_error_upd_neq by congruence. lia.
  - exact Pm.
Qed.

Lemma all_false : forall l, length l = 3 -> existsb (fun b => b) l = false -> l = [false; false; false].
Proof. intros l L H. destruct (three _ _ L) as (a & b & c & ->). cbn in H. destruct a, b, c; try discriminate. reflexivity. Qed.

Lemma sinv_step : forall s e s', sinv s -> sstep s e = Some s' -> sinv s'.
Proof.
  intros s e s' I H. destruct e as [t|t ms]; cbn [sstep] in H; (destruct (nth_error (ss_t s) t) as [x|] eqn:N; [|discriminate]).
  - destruct (sexec (ss_mx s) t x) as [[mx x']|] eqn:E; [|discriminate]. injection H as <-.
    destruct (si_wf _ I _ _ N) as (L1 & L2 & L3 & L4).
    destruct (sexec_pc _ _ _ _ _ L3 L2 (si_pc _ I _ _ N) E) as (Px & _ & _).
    exact (seff_inv _ _ _ _ _ I N (sexec_eff _ _ _ _ _ E) Px).
  - destruct (Nat.eqb_spec (st_pc x) 19) as [Ep|]; [|discriminate]. destruct (Nat.eqb_spec (length ms) 3) as [Lm|]; [|discriminate].
    destruct (forallb (fun j => Nat.ltb j (length (ss_mx s))) ms) eqn:Fa; [|discriminate].
    destruct (existsb (fun b => b) (st_own x)) eqn:Ex; [discriminate|]. injection H as <-.
    destruct (si_wf _ I _ _ N) as (L1 & L2 & L3 & L4). assert (O := all_false _ L2 Ex).
    pose proof (si_pc _ I _ _ N) as P. unfold pcinv in P. rewrite Ep, O in P. cbn [bit nth] in P. destruct P as (P0 & P1 & P2).
    assert (Z : forall j, slots x (st_state x) j = 0) by (intros; unfold slots; unfold bit in *; rewrite P0, P1, P2; reflexivity).
    destruct I as [W P M Q]. assert (Lt := nth_error_lt _ _ _ _ N). constructor; cbn [ss_mx ss_t].
    + intros u y H. destruct (Nat.eq_dec t u) as [->|Ne].
      * rewrite nth_error_upd_eq in H by assumption. injection H as <-. unfold swf, sinit, mid. cbn [st_m st_own st_state length]. repeat split; try assumption.
        intros w Hw. rewrite forallb_forall in Fa. apply Nat.ltb_lt. apply Fa. apply nth_In. lia.
      * rewrite nth_error_upd_neq in H by congruence. exact (W _ _ H).
    + intros u y H. destruct (Nat.eq_dec t u) as [->|Ne].
      * rewrite nth_error_upd_eq in H by assumption. injection H as <-. unfold pcinv. cbn. repeat split; discriminate.
      * rewrite nth_error_upd_neq in H by congruence. exact (P _ _ H).
    + intros j u Hj. rewrite (M j u Hj). destruct (Nat.eq_dec t u) as [->|Ne].
      * rewrite nth_error_upd_eq by assumption. rewrite N, Z. reflexivity.
      * rewrite nth_error_upd_neq by congruence. reflexivity.
    + exact Q.
Qed.

(** Starting states: every thread is about to run a constructor, the owner bits are
    truthful, and nobody else holds anything. *)
Record sstart (s : sstate) : Prop := {
  st_thr : forall t x, nth_error (ss_t s) t = Some x ->
    exists own ms, x = sinit own ms /\ length own = 3 /\ length ms = 3 /\ Forall (fun j => j < length (ss_mx s)) ms;
  st_held : forall j t, j < length (ss_mx s) ->
    depth (ss_mx s) j t = match nth_error (ss_t s) t with Some x => slots x (st_own x) j | None => 0 end;
  st_pos : forall j u, nth_error (ss_mx s) j <> Some (Some (u, 0))
}.

Inductive sreach (s0 : sstate) : sstate -> Prop :=
| sreach0 : sreach s0 s0
| sreachS : forall s e s', sreach s0 s -> sstep s e = Some s' -> sreach s0 s'.

Lemma sstart_inv : forall s, sstart s -> sinv s.
Proof.
  intros s [T H P]. constructor.
  - intros t x N. destruct (T _ _ N) as (own & ms & -> & L1 & L2 & F). unfold swf, sinit, mid. cbn [st_m st_own st_state]. repeat split; try assumption.
    intros w Hw. rewrite Forall_forall in F. apply F. apply nth_In. lia.
  - intros t x N. destruct (T _ _ N) as (own & ms & -> & L1 & L2 & F). unfold pcinv, sinit. cbn [st_pc st_state st_own]. repeat split; auto.
  - intros j t Hj. rewrite (H j t Hj). destruct (nth_error (ss_t s) t) as [x|] eqn:N; [|reflexivity].
    destruct (T _ _ N) as (own & ms & -> & _). reflexivity.
  - intros j u d N. destruct d; [exfalso; exact (P _ _ N)|lia].
Qed.

Lemma sinv_reach : forall s0 s, sstart s0 -> sreach s0 s -> sinv s.
Proof. intros s0 s S R. induction R as [|s e s' R IH H]; [apply sstart_inv; exact S|]. exact (sinv_step _ _ _ IH H). Qed.

(** No owner bits. *)
Definition free_start (s : sstate) : Prop := forall t x, nth_error (ss_t s) t = Some x -> st_own x = [false; false; false].

Lemma free_reach : forall s0 s, sstart s0 -> free_start s0 -> sreach s0 s -> free_start s.
Proof.
  intros s0 s S F R. induction R as [|s e s' R IH H]; [exact F|]. assert (I := sinv_reach _ _ S R).
  destruct e as [t|t ms]; cbn [sstep] in H; (destruct (nth_error (ss_t s) t) as [x|] eqn:N; [|discriminate]).
  - destruct (sexec (ss_mx s) t x) as [[mx x']|] eqn:E; [|discriminate]. injection H as <-.
    destruct (si_wf _ I _ _ N) as (L1 & L2 & L3 & L4). destruct (sexec_pc _ _ _ _ _ L3 L2 (si_pc _ I _ _ N) E) as (_ & Po & _).
    intros u y H. cbn [ss_t] in H. destruct (Nat.eq_dec t u) as [->|Ne].
    + rewrite nth_error_upd_eq in H by (eapply nth_error_lt; eassumption). injection H as <-. rewrite Po. exact (IH _ _ N).
    + rewrite nth_error_upd_neq in H by congruence. exact (IH _ _ H).
  - destruct (_ && _)%bool; [|discriminate]. injection H as <-. intros u y H. cbn [ss_t] in H. destruct (Nat.eq_dec t u) as [->|Ne].
    + rewrite nth_error_upd_eq in H by (eapply nth_error_lt; eassumption). injection H as <-. reflexivity.
    + rewrite nth_error_upd_neq in H by congruence. exact (IH _ _ H).
Qed.

(** A thread that cannot run has ended or waits, holding nothing, for a mutex. *)
Lemma blocked_empty : forall mx t x, length (st_state x) = 3 -> pcinv x -> st_own x = [false; false; false] -> sexec mx t x = None ->
  (forall j, slots x (st_state x) j = 0) /\ (st_pc x = 19 \/ exists w, w < 3 /\ acq mx (mid x w) t = None).
Proof.
  intros mx t [pc ms ow st] L I O H. cbn [st_state st_own] in L, O. subst ow. destruct (three _ _ L) as (a0 & a1 & a2 & ->). clear L.
  unfold sexec in H. unfold pcinv in I. cbn [st_pc st_state st_own] in *.
  do 20 (try (destruct pc as [|pc])); try contradiction; cbn [prog] in H; cbn [bit nth] in I, H;
  destruct a0, a1, a2; cbn [negb andb] in H; try (exfalso; intuition discriminate); try discriminate;
  try match type of H with
  | context [match acq ?a ?b ?c with _ => _ end] => let E := fresh "A" in destruct (acq a b c) eqn:E
  end; try discriminate; (split; [intros; reflexivity|]);
  first [left; reflexivity | right; eexists; split; [|eassumption]; lia].
Qed.
