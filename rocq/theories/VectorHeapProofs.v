(** Ownership invariant of the vector heap. *)
From Verif Require Import Base BaseFacts VectorHeapModel VectorHeapSpec.

Record Inv (w : world) : Prop := {
  I_own : forall v x b, nth_error (env w) v = Some (Some x) -> v_data x = Some b ->
    exists blk, nth_error (heap w) b = Some (Some blk) /\ v_start x = Some (b, 0) /\ v_len x = length blk;
  I_uniq : forall v v' b, owns w v b -> owns w v' b -> v = v';
  I_cover : forall b, allocated w b -> exists v, owns w v b;
  I_view : forall v x b off, nth_error (env w) v = Some (Some x) -> v_start x = Some (b, off) ->
    b < length (heap w) /\ forall blk, nth_error (heap w) b = Some (Some blk) -> off + v_len x <= length blk;
  I_null : forall v x, nth_error (env w) v = Some (Some x) -> v_start x = None -> v_len x = 0
}.

Lemma nth_upd : forall A (l : list A) i j x, nth_error (upd l i x) j =
  if Nat.eq_dec j i then (if Nat.ltb i (length l) then Some x else None) else nth_error l j.
Proof.
  intros A l i j x. destruct (Nat.eq_dec j i) as [->|N].
  - destruct (Nat.ltb_spec i (length l)).
    + apply nth_error_upd_eq. assumption.
    + apply nth_error_None. rewrite upd_length. assumption.
  - apply nth_error_upd_neq. congruence.
Qed.

Lemma nth_lt : forall A (l : list A) i x, nth_error l i = Some x -> i < length l.
Proof. intros A l i x H. apply nth_error_Some. congruence. Qed.

Lemma ltb_of_nth : forall A (l : list A) i x, nth_error l i = Some x -> Nat.ltb i (length l) = true.
Proof. intros. apply Nat.ltb_lt. eapply nth_lt. eassumption. Qed.

Lemma upd_upd : forall A (l : list A) i x y, upd (upd l i x) i y = upd l i y.
Proof. induction l as [|h t IH]; intros [|i] x y; cbn; try reflexivity. now rewrite IH. Qed.

Lemma nth_app1 : forall A (l : list A) x j, nth_error (l ++ [x]) j =
  if Nat.ltb j (length l) then nth_error l j else if Nat.eqb j (length l) then Some x else None.
Proof.
  intros A l x j. destruct (Nat.ltb_spec j (length l)).
  - apply nth_error_app1. assumption.
  - destruct (Nat.eqb_spec j (length l)) as [->|N].
    + rewrite nth_error_app2, Nat.sub_diag by lia. reflexivity.
    + apply nth_error_None. rewrite app_length. cbn. lia.
Qed.

Lemma inv_empty : Inv empty_world.
Proof.
  constructor; cbn.
  - intros [|v] x b H; discriminate.
  - intros v v' b (x & H & _). destruct v; discriminate.
  - intros b (blk & H). destruct b; discriminate.
  - intros [|v] x b off H; discriminate.
  - intros [|v] x H; discriminate.
Qed.

(** Release of a vector's block; the vector becomes null. *)
Definition released (w : world) (x : vec) : list (option (list cell)) :=
  match v_data x with Some b => upd (heap w) b None | None => heap w end.

Lemma inv_clear : forall w v x, Inv w -> nth_error (env w) v = Some (Some x) ->
  Inv (mkW (released w x) (upd (env w) v (Some null_vec))).
Proof.
  intros w v x I E. unfold released. destruct (v_data x) as [b|] eqn:D.
  - destruct (I_own _ I _ _ _ E D) as (blk & Hb & Hs & Hl).
    assert (Ob : owns w v b) by (exists x; auto).
    constructor; cbn [heap env]; unfold owns, allocated; cbn [heap env].
    + intros u y c Hu Hd. rewrite nth_upd in Hu. destruct (Nat.eq_dec u v) as [->|N].
      { rewrite (ltb_of_nth _ _ _ _ E) in Hu. injection Hu as <-. discriminate. }
      destruct (I_own _ I _ _ _ Hu Hd) as (k & A & B & C). exists k. split; [|auto].
      rewrite nth_upd. destruct (Nat.eq_dec c b) as [->|M]; [|assumption].
      exfalso. apply N. apply (I_uniq _ I u v b); [exists y; auto|assumption].
    + intros u u' c (y & Hu & Hd) (y' & Hu' & Hd'). rewrite nth_upd in Hu, Hu'.
      destruct (Nat.eq_dec u v) as [->|N].
      { rewrite (ltb_of_nth _ _ _ _ E) in Hu. injection Hu as <-. discriminate. }
      destruct (Nat.eq_dec u' v) as [->|N'].
      { rewrite (ltb_of_nth _ _ _ _ E) in Hu'. injection Hu' as <-. discriminate. }
      apply (I_uniq _ I u u' c); [exists y|exists y']; auto.
    + intros c (k & Hc). rewrite nth_upd in Hc. destruct (Nat.eq_dec c b) as [->|M].
      { rewrite (ltb_of_nth _ _ _ _ Hb) in Hc. discriminate. }
      destruct (I_cover _ I c) as (u & y & Hu & Hd); [exists k; assumption|].
      exists u, y. split; [|assumption]. rewrite nth_upd. destruct (Nat.eq_dec u v) as [->|N]; [|assumption].
      exfalso. apply M. congruence.
    + intros u y c off Hu Hy. rewrite nth_upd in Hu. destruct (Nat.eq_dec u v) as [->|N].
      { rewrite (ltb_of_nth _ _ _ _ E) in Hu. injection Hu as <-. discriminate. }
      destruct (I_view _ I _ _ _ _ Hu Hy) as [A B]. rewrite upd_length. split; [assumption|].
      intros k Hk. rewrite nth_upd in Hk. destruct (Nat.eq_dec c b) as [->|M].
      { rewrite (ltb_of_nth _ _ _ _ Hb) in Hk. discriminate. }
      apply B. assumption.
    + intros u y Hu Hy. rewrite nth_upd in Hu. destruct (Nat.eq_dec u v) as [->|N].
      { rewrite (ltb_of_nth _ _ _ _ E) in Hu. injection Hu as <-. reflexivity. }
      eapply I_null; eassumption.
  - constructor; cbn [heap env]; unfold owns, allocated; cbn [heap env].
    + intros u y c Hu Hd. rewrite nth_upd in Hu. destruct (Nat.eq_dec u v) as [->|N].
      { rewrite (ltb_of_nth _ _ _ _ E) in Hu. injection Hu as <-. discriminate. }
      eapply I_own; eassumption.
    + intros u u' c (y & Hu & Hd) (y' & Hu' & Hd'). rewrite nth_upd in Hu, Hu'.
      destruct (Nat.eq_dec u v) as [->|N].
      { rewrite (ltb_of_nth _ _ _ _ E) in Hu. injection Hu as <-. discriminate. }
      destruct (Nat.eq_dec u' v) as [->|N'].
      { rewrite (ltb_of_nth _ _ _ _ E) in Hu'. injection Hu' as <-. discriminate. }
      apply (I_uniq _ I u u' c); [exists y|exists y']; auto.
    + intros c Hc. destruct (I_cover _ I c Hc) as (u & y & Hu & Hd).
      exists u, y. split; [|assumption]. rewrite nth_upd. destruct (Nat.eq_dec u v) as [->|N]; [congruence|assumption].
    + intros u y c off Hu Hy. rewrite nth_upd in Hu. destruct (Nat.eq_dec u v) as [->|N].
      { rewrite (ltb_of_nth _ _ _ _ E) in Hu. injection Hu as <-. discriminate. }
      eapply I_view; eassumption.
    + intros u y Hu Hy. rewrite nth_upd in Hu. destruct (Nat.eq_dec u v) as [->|N].
      { rewrite (ltb_of_nth _ _ _ _ E) in Hu. injection Hu as <-. reflexivity. }
      eapply I_null; eassumption.
Qed.

Definition fresh_vec (b n : nat) : vec := mkVec (Some b) (Some (b, 0)) n.

Lemma inv_init : forall w v x n, Inv w -> nth_error (env w) v = Some (Some x) -> v_data x = None ->
  Inv (mkW (heap w ++ [Some (repeat None n)]) (upd (env w) v (Some (fresh_vec (length (heap w)) n)))).
Proof.
  intros w v x n I E D.
  assert (Fr : forall u y c, nth_error (env w) u = Some (Some y) -> v_data y = Some c -> c < length (heap w)).
  { intros u y c Hu Hd. destruct (I_own _ I _ _ _ Hu Hd) as (k & A & _). eapply nth_lt. eassumption. }
  constructor; cbn [heap env]; unfold owns, allocated; cbn [heap env].
  - intros u y c Hu Hd. rewrite nth_upd in Hu. rewrite nth_app1. destruct (Nat.eq_dec u v) as [->|N].
    + rewrite (ltb_of_nth _ _ _ _ E) in Hu. injection Hu as <-. cbn in Hd. injection Hd as <-.
      rewrite Nat.ltb_irrefl, Nat.eqb_refl.
      eexists. split; [reflexivity|]. split; [reflexivity|]. cbn. now rewrite repeat_length.
    + pose proof (Fr _ _ _ Hu Hd). destruct (Nat.ltb_spec c (length (heap w))); [|lia].
      eapply I_own; eassumption.
  - intros u u' c (y & Hu & Hd) (y' & Hu' & Hd'). rewrite nth_upd in Hu, Hu'.
    destruct (Nat.eq_dec u v) as [->|N]; destruct (Nat.eq_dec u' v) as [->|N']; try reflexivity.
    + rewrite (ltb_of_nth _ _ _ _ E) in Hu. injection Hu as <-. cbn in Hd. injection Hd as <-.
      pose proof (Fr _ _ _ Hu' Hd'). lia.
    + rewrite (ltb_of_nth _ _ _ _ E) in Hu'. injection Hu' as <-. cbn in Hd'. injection Hd' as <-.
      pose proof (Fr _ _ _ Hu Hd). lia.
    + apply (I_uniq _ I u u' c); [exists y|exists y']; auto.
  - intros c (k & Hc). rewrite nth_app1 in Hc. destruct (Nat.ltb_spec c (length (heap w))).
    + destruct (I_cover _ I c) as (u & y & Hu & Hd); [exists k; assumption|].
      exists u, y. split; [|assumption]. rewrite nth_upd. destruct (Nat.eq_dec u v) as [->|N]; [congruence|assumption].
    + destruct (Nat.eqb_spec c (length (heap w))) as [->|M]; [|discriminate].
      exists v, (fresh_vec (length (heap w)) n). split; [|reflexivity].
      rewrite nth_upd. destruct (Nat.eq_dec v v); [|congruence]. now rewrite (ltb_of_nth _ _ _ _ E).
  - intros u y c off Hu Hy. rewrite app_length. cbn [length]. rewrite nth_app1. rewrite nth_upd in Hu.
    destruct (Nat.eq_dec u v) as [->|N].
    + rewrite (ltb_of_nth _ _ _ _ E) in Hu. injection Hu as <-. cbn in Hy. injection Hy as <- <-.
      split; [lia|]. intros k Hk. rewrite Nat.ltb_irrefl, Nat.eqb_refl in Hk. injection Hk as <-. rewrite repeat_length. cbn. lia.
    + destruct (I_view _ I _ _ _ _ Hu Hy) as [A B]. split; [lia|]. intros k Hk.
      destruct (Nat.ltb_spec c (length (heap w))); [|lia]. apply B. assumption.
  - intros u y Hu Hy. rewrite nth_upd in Hu. destruct (Nat.eq_dec u v) as [->|N].
    + rewrite (ltb_of_nth _ _ _ _ E) in Hu. injection Hu as <-. discriminate.
    + eapply I_null; eassumption.
Qed.

Definition view_ok (w : world) (p : ptr) (n : nat) : Prop :=
  (p = None -> n = 0) /\
  (forall b off, p = Some (b, off) -> b < length (heap w) /\ forall blk, nth_error (heap w) b = Some (Some blk) -> off + n <= length blk).

Lemma inv_view : forall w v x p n, Inv w -> nth_error (env w) v = Some (Some x) -> v_data x = None -> view_ok w p n ->
  Inv (setv w v (Some (mkVec None p n))).
Proof.
  intros w v x p n I E D [V1 V2]. unfold setv.
  constructor; cbn [heap env]; unfold owns, allocated; cbn [heap env].
  - intros u y c Hu Hd. rewrite nth_upd in Hu. destruct (Nat.eq_dec u v) as [->|N].
    { rewrite (ltb_of_nth _ _ _ _ E) in Hu. injection Hu as <-. discriminate. }
    eapply I_own; eassumption.
  - intros u u' c (y & Hu & Hd) (y' & Hu' & Hd'). rewrite nth_upd in Hu, Hu'.
    destruct (Nat.eq_dec u v) as [->|N].
    { rewrite (ltb_of_nth _ _ _ _ E) in Hu. injection Hu as <-. discriminate. }
    destruct (Nat.eq_dec u' v) as [->|N'].
    { rewrite (ltb_of_nth _ _ _ _ E) in Hu'. injection Hu' as <-. discriminate. }
    apply (I_uniq _ I u u' c); [exists y|exists y']; auto.
  - intros c Hc. destruct (I_cover _ I c Hc) as (u & y & Hu & Hd).
    exists u, y. split; [|assumption]. rewrite nth_upd. destruct (Nat.eq_dec u v) as [->|N]; [congruence|assumption].
  - intros u y c off Hu Hy. rewrite nth_upd in Hu. destruct (Nat.eq_dec u v) as [->|N].
    { rewrite (ltb_of_nth _ _ _ _ E) in Hu. injection Hu as <-. cbn in Hy. apply V2 in Hy. exact Hy. }
    eapply I_view; eassumption.
  - intros u y Hu Hy. rewrite nth_upd in Hu. destruct (Nat.eq_dec u v) as [->|N].
    { rewrite (ltb_of_nth _ _ _ _ E) in Hu. injection Hu as <-. apply V1. exact Hy. }
    eapply I_null; eassumption.
Qed.

Lemma inv_move : forall w v o x y, Inv w -> v <> o -> nth_error (env w) v = Some (Some x) -> v_data x = None ->
  nth_error (env w) o = Some (Some y) ->
  Inv (setv (setv w v (Some y)) o (Some (mkVec None (v_start y) (v_len y)))).
Proof.
  intros w v o x y I N E D Eo. unfold setv. cbn [heap env].
  assert (Q : forall u z, nth_error (upd (upd (env w) v (Some y)) o (Some (mkVec None (v_start y) (v_len y)))) u = Some (Some z) ->
     (u = o /\ z = mkVec None (v_start y) (v_len y)) \/ (u = v /\ z = y) \/ (u <> o /\ u <> v /\ nth_error (env w) u = Some (Some z))).
  { intros u z H. rewrite nth_upd in H. destruct (Nat.eq_dec u o) as [->|No].
    - rewrite upd_length, (ltb_of_nth _ _ _ _ Eo) in H. left. split; congruence.
    - rewrite nth_upd in H. destruct (Nat.eq_dec u v) as [->|Nv].
      + rewrite (ltb_of_nth _ _ _ _ E) in H. right. left. split; congruence.
      + right. right. auto. }
  constructor; cbn [heap env]; unfold owns, allocated; cbn [heap env].
  - intros u z c Hu Hd. apply Q in Hu. destruct Hu as [[-> ->]|[[-> ->]|(A & B & Hu)]].
    + discriminate.
    + eapply (I_own _ I o); eassumption.
    + eapply I_own; eassumption.
  - intros u u' c (z & Hu & Hd) (z' & Hu' & Hd'). apply Q in Hu. apply Q in Hu'.
    destruct Hu as [[-> ->]|[[-> ->]|(A & B & Hu)]]; [discriminate| |];
    destruct Hu' as [[-> ->]|[[-> ->]|(A' & B' & Hu')]]; try discriminate; try reflexivity.
    + exfalso. apply A'. apply (I_uniq _ I u' o c); [exists z'|exists y]; auto.
    + exfalso. apply A. apply (I_uniq _ I u o c); [exists z|exists y]; auto.
    + apply (I_uniq _ I u u' c); [exists z|exists z']; auto.
  - intros c Hc. destruct (I_cover _ I c Hc) as (u & z & Hu & Hd).
    destruct (Nat.eq_dec u o) as [->|No].
    + exists v, y. split; [|congruence]. rewrite nth_upd. destruct (Nat.eq_dec v o); [congruence|].
      rewrite nth_upd. destruct (Nat.eq_dec v v); [|congruence]. now rewrite (ltb_of_nth _ _ _ _ E).
    + exists u, z. split; [|assumption]. rewrite nth_upd. destruct (Nat.eq_dec u o); [congruence|].
      rewrite nth_upd. destruct (Nat.eq_dec u v) as [->|Nv]; [congruence|assumption].
  - intros u z c off Hu Hy. apply Q in Hu. destruct Hu as [[-> ->]|[[-> ->]|(A & B & Hu)]].
    + cbn in *. eapply (I_view _ I o); eassumption.
    + eapply (I_view _ I o); eassumption.
    + eapply I_view; eassumption.
  - intros u z Hu Hy. apply Q in Hu. destruct Hu as [[-> ->]|[[-> ->]|(A & B & Hu)]].
    + cbn in *. eapply (I_null _ I o); eassumption.
    + eapply (I_null _ I o); eassumption.
    + eapply I_null; eassumption.
Qed.

Lemma push_eq : forall w, push w = (mkW (heap w) (env w ++ [Some null_vec]), length (env w)).
Proof. reflexivity. Qed.

Lemma push_get : forall w, nth_error (env (fst (push w))) (length (env w)) = Some (Some null_vec).
Proof. intros w. cbn. rewrite nth_app1. destruct (Nat.ltb_spec (length (env w)) (length (env w))); [lia|]. now rewrite Nat.eqb_refl. Qed.

Lemma push_old : forall w u z, nth_error (env w) u = Some z -> nth_error (env (fst (push w))) u = Some z.
Proof. intros w u z H. cbn. rewrite nth_app1, (ltb_of_nth _ _ _ _ H). assumption. Qed.

Lemma inv_push : forall w, Inv w -> Inv (fst (push w)).
Proof.
  intros w I.
  assert (Q : forall u z, nth_error (env w ++ [Some null_vec]) u = Some (Some z) -> nth_error (env w) u = Some (Some z) \/ z = null_vec).
  { intros u z H. rewrite nth_app1 in H. destruct (Nat.ltb u (length (env w))); [left; assumption|].
    destruct (Nat.eqb u (length (env w))); [right; congruence|discriminate]. }
  constructor; cbn [push fst heap env]; unfold owns, allocated; cbn [push fst heap env].
  - intros u z c Hu Hd. apply Q in Hu. destruct Hu as [Hu| ->]; [|discriminate]. eapply I_own; eassumption.
  - intros u u' c (z & Hu & Hd) (z' & Hu' & Hd'). apply Q in Hu. apply Q in Hu'.
    destruct Hu as [Hu| ->]; [|discriminate]. destruct Hu' as [Hu'| ->]; [|discriminate].
    apply (I_uniq _ I u u' c); [exists z|exists z']; auto.
  - intros c Hc. destruct (I_cover _ I c Hc) as (u & z & Hu & Hd). exists u, z. split; [|assumption].
    rewrite nth_app1, (ltb_of_nth _ _ _ _ Hu). assumption.
  - intros u z c off Hu Hy. apply Q in Hu. destruct Hu as [Hu| ->]; [|discriminate]. eapply I_view; eassumption.
  - intros u z Hu Hy. apply Q in Hu. destruct Hu as [Hu| ->]; [|reflexivity]. eapply I_null; eassumption.
Qed.

Lemma inv_kill : forall w v x, Inv w -> nth_error (env w) v = Some (Some x) -> v_data x = None -> Inv (setv w v None).
Proof.
  intros w v x I E D. unfold setv.
  assert (Q : forall u z, nth_error (upd (env w) v None) u = Some (Some z) -> nth_error (env w) u = Some (Some z)).
  { intros u z H. rewrite nth_upd in H. destruct (Nat.eq_dec u v) as [->|N]; [|assumption].
    rewrite (ltb_of_nth _ _ _ _ E) in H. discriminate. }
  constructor; cbn [heap env]; unfold owns, allocated; cbn [heap env].
  - intros u z c Hu Hd. eapply I_own; eauto.
  - intros u u' c (z & Hu & Hd) (z' & Hu' & Hd'). apply (I_uniq _ I u u' c); [exists z|exists z']; auto.
  - intros c Hc. destruct (I_cover _ I c Hc) as (u & z & Hu & Hd). exists u, z. split; [|assumption].
    rewrite nth_upd. destruct (Nat.eq_dec u v) as [->|N]; [congruence|assumption].
  - intros u z c off Hu Hy. eapply I_view; eauto.
  - intros u z Hu Hy. eapply I_null; eauto.
Qed.

(** Same shape: a block content replaced by one of the same length. *)
Lemma inv_block : forall w b blk blk', Inv w -> nth_error (heap w) b = Some (Some blk) -> length blk' = length blk ->
  Inv (mkW (upd (heap w) b (Some blk')) (env w)).
Proof.
  intros w b blk blk' I E L.
  constructor; cbn [heap env]; unfold owns, allocated; cbn [heap env].
  - intros u z c Hu Hd. destruct (I_own _ I _ _ _ Hu Hd) as (k & A & B & C).
    rewrite nth_upd. destruct (Nat.eq_dec c b) as [->|N].
    + rewrite (ltb_of_nth _ _ _ _ E). exists blk'. rewrite A in E. injection E as ->. repeat split; try assumption. congruence.
    + exists k. auto.
  - intros u u' c H H'. apply (I_uniq _ I u u' c); assumption.
  - intros c (k & Hc). apply (I_cover _ I). rewrite nth_upd in Hc. destruct (Nat.eq_dec c b) as [->|N].
    + exists blk. assumption.
    + exists k. assumption.
  - intros u z c off Hu Hy. destruct (I_view _ I _ _ _ _ Hu Hy) as [A B]. rewrite upd_length. split; [assumption|].
    intros k Hk. rewrite nth_upd in Hk. destruct (Nat.eq_dec c b) as [->|N].
    + rewrite (ltb_of_nth _ _ _ _ E) in Hk. injection Hk as <-. rewrite L. apply B. assumption.
    + apply B. assumption.
  - intros u z Hu Hy. eapply I_null; eassumption.
Qed.

(** Results that keep the invariant and never free a block twice. *)
Definition good (r : vout world) : Prop := r <> VBadFree /\ forall w, r = VOk w -> Inv w.

Lemma good_ok : forall w, Inv w -> good (VOk w).
Proof. intros w I. split; [discriminate|]. intros w' E. injection E as <-. assumption. Qed.
Lemma good_abort : good VAbort. Proof. split; [discriminate|]. discriminate. Qed.
Lemma good_bad : good VBadAccess. Proof. split; [discriminate|]. discriminate. Qed.
Lemma good_client : good VClient. Proof. split; [discriminate|]. discriminate. Qed.
Local Hint Resolve good_ok good_abort good_bad good_client : core.

Lemma good_bind : forall r f, good r -> (forall w, r = VOk w -> Inv w -> good (f w)) -> good (vbind r f).
Proof.
  intros r f [N G] H. destruct r; cbn [vbind]; auto. congruence.
Qed.

Lemma getv_cases : forall w v, (exists x, getv w v = VOk x /\ nth_error (env w) v = Some (Some x)) \/ getv w v = VClient.
Proof.
  intros w v. unfold getv. destruct (nth_error (env w) v) as [[x|]|]; eauto.
Qed.

Lemma getv_some : forall w v x, nth_error (env w) v = Some (Some x) -> getv w v = VOk x.
Proof. intros w v x H. unfold getv. now rewrite H. Qed.

(** The exact effect of resize. *)
Lemma resize_eq : forall w v x n, Inv w -> nth_error (env w) v = Some (Some x) ->
  resize w v n = VOk (match n with
                      | O => mkW (released w x) (upd (env w) v (Some null_vec))
                      | _ => mkW (released w x ++ [Some (repeat None n)])
                                 (upd (env w) v (Some (fresh_vec (length (released w x)) n)))
                      end).
Proof.
  intros w v x n I E. unfold resize. rewrite (getv_some _ _ _ E). cbn [vbind].
  unfold released. destruct (v_data x) as [b|] eqn:D.
  - destruct (I_own _ I _ _ _ E D) as (blk & Hb & _). unfold free_block. rewrite Hb. cbn [vbind].
    unfold vInit, getv. cbn [env heap]. rewrite E. cbn [vbind]. destruct n; reflexivity.
  - cbn [vbind]. unfold vInit. rewrite (getv_some _ _ _ E). cbn [vbind]. destruct n; reflexivity.
Qed.

Lemma resize_inv : forall w v x n w', Inv w -> nth_error (env w) v = Some (Some x) -> resize w v n = VOk w' -> Inv w'.
Proof.
  intros w v x n w' I E H. rewrite (resize_eq _ _ _ _ I E) in H. injection H as <-.
  pose proof (inv_clear _ _ _ I E) as J. destruct n as [|n]; [assumption|].
  assert (E' : nth_error (env (mkW (released w x) (upd (env w) v (Some null_vec)))) v = Some (Some null_vec)).
  { cbn [env]. rewrite nth_upd. destruct (Nat.eq_dec v v); [|congruence]. now rewrite (ltb_of_nth _ _ _ _ E). }
  pose proof (inv_init _ _ _ (S n) J E' eq_refl) as K. cbn [heap env] in K. rewrite upd_upd in K. exact K.
Qed.

Lemma resize_good : forall w v n, Inv w -> good (resize w v n).
Proof.
  intros w v n I. destruct (getv_cases w v) as [(x & G & E)|G].
  - split; [rewrite (resize_eq _ _ _ _ I E); discriminate|]. intros w' H. eapply resize_inv; eassumption.
  - unfold resize. rewrite G. auto.
Qed.

(** After a resize, vector [v] is a fresh vector of that size and the others are unchanged. *)
Lemma resize_env : forall w v x n w', Inv w -> nth_error (env w) v = Some (Some x) -> resize w v n = VOk w' ->
  length (env w') = length (env w) /\
  (forall u, u <> v -> nth_error (env w') u = nth_error (env w) u) /\
  (exists x', nth_error (env w') v = Some (Some x') /\ v_len x' = n /\ (n = 0 -> x' = null_vec)) /\
  (forall b, b < length (heap w') ->
     (b < length (heap w) /\ (v_data x = Some b \/ nth_error (heap w') b = nth_error (heap w) b)) \/ length (heap w) <= b).
Proof.
  intros w v x n w' I E H. rewrite (resize_eq _ _ _ _ I E) in H.
  assert (L : length (released w x) = length (heap w)) by (unfold released; destruct (v_data x); rewrite ?upd_length; reflexivity).
  assert (R : forall b, v_data x = Some b \/ nth_error (released w x) b = nth_error (heap w) b).
  { intros b. unfold released. destruct (v_data x) as [c|]; [|right; reflexivity].
    destruct (Nat.eq_dec b c) as [->|N]; [left; reflexivity|]. right. apply nth_error_upd_neq. congruence. }
  destruct n as [|n]; injection H as <-; cbn [env heap].
  - rewrite upd_length. split; [reflexivity|]. split; [intros u N; apply nth_error_upd_neq; congruence|].
    split.
    + exists null_vec. rewrite nth_error_upd_eq by (eapply nth_lt; eassumption). auto.
    + intros b Hb. left. rewrite L in Hb. auto.
  - rewrite upd_length. split; [reflexivity|]. split; [intros u N; apply nth_error_upd_neq; congruence|].
    split.
    + exists (fresh_vec (length (released w x)) (S n)). rewrite nth_error_upd_eq by (eapply nth_lt; eassumption).
      split; [reflexivity|]. split; [reflexivity|]. discriminate.
    + intros b Hb. destruct (Nat.lt_ge_cases b (length (heap w))) as [Hl|Hl]; [|right; assumption]. left. split; [assumption|].
      rewrite nth_app1, L. destruct (Nat.ltb_spec b (length (heap w))); [|lia]. apply R.
Qed.

Lemma store_good : forall w p cs, Inv w -> good (store w p cs).
Proof.
  intros w p [|c cs] I; [apply good_ok; assumption|]. unfold store. destruct p as [[b off]|]; [|auto].
  destruct (nth_error (heap w) b) as [[blk|]|] eqn:E; try auto.
  destruct (Nat.leb_spec (off + length (c :: cs)) (length blk)); [|auto].
  apply good_ok. eapply inv_block; [assumption|eassumption|].
  rewrite !app_length, firstn_length, skipn_length. lia.
Qed.

Lemma store_env : forall w p cs w', store w p cs = VOk w' -> env w' = env w /\ length (heap w') = length (heap w).
Proof.
  intros w p [|c cs] w' H; cbn in H; [injection H as <-; auto|]. destruct p as [[b off]|]; [|discriminate].
  destruct (nth_error (heap w) b) as [[blk|]|]; try discriminate.
  destruct (Nat.leb (off + length (c :: cs)) (length blk)) eqn:X; cbn [length] in X; rewrite X in H; [|discriminate].
  injection H as <-. cbn [heap env]. rewrite upd_length. auto.
Qed.

Lemma load_notfree : forall w p n, load w p n <> VBadFree.
Proof.
  intros w p [|n]; [discriminate|]. cbn [load]. destruct p as [[b off]|]; [|discriminate].
  destruct (nth_error (heap w) b) as [[blk|]|]; try discriminate.
  destruct (Nat.leb (off + S n) (length blk)); discriminate.
Qed.

Lemma memcpy_good : forall w d s n, Inv w -> good (memcpy w d s n).
Proof.
  intros w d s n I. unfold memcpy. destruct (overlap d s n); [auto|].
  pose proof (load_notfree w s n). destruct (load w s n) as [cs| | | |]; cbn [vbind]; auto; [apply store_good; assumption|congruence].
Qed.

Lemma memcpy_env : forall w d s n w', memcpy w d s n = VOk w' -> env w' = env w /\ length (heap w') = length (heap w).
Proof.
  intros w d s n w' H. unfold memcpy in H. destruct (overlap d s n); [discriminate|].
  destruct (load w s n) as [cs| | | |]; cbn [vbind] in H; try discriminate. eapply store_env. eassumption.
Qed.

Lemma clone_good : forall w v o, Inv w -> good (clone w v o).
Proof.
  intros w v o I. unfold clone. destruct (getv_cases w o) as [(y & -> & Eo)| ->]; [|auto]. cbn [vbind].
  apply good_bind; [apply resize_good; assumption|]. intros w1 E1 I1.
  destruct (getv_cases w1 v) as [(x & -> & Ex)| ->]; [|auto]. cbn [vbind].
  destruct (getv_cases w1 o) as [(y1 & -> & Ey1)| ->]; [|auto]. cbn [vbind].
  apply memcpy_good. assumption.
Qed.

Lemma clear_good : forall w v, Inv w -> good (clear w v).
Proof. intros. apply resize_good. assumption. Qed.

Lemma view_of : forall w v x, Inv w -> nth_error (env w) v = Some (Some x) -> view_ok w (v_start x) (v_len x).
Proof.
  intros w v x I E. split; [eapply I_null; eassumption|]. intros b off H. eapply I_view; eassumption.
Qed.

Lemma clear_get : forall w v w', Inv w -> clear w v = VOk w' -> nth_error (env w') v = Some (Some null_vec).
Proof.
  intros w v w' I H. unfold clear in H. destruct (getv_cases w v) as [(x & G & E)|G].
  - destruct (resize_env _ _ _ _ _ I E H) as (_ & _ & (x' & A & _ & C) & _). rewrite (C eq_refl) in A. assumption.
  - unfold resize in H. rewrite G in H. discriminate.
Qed.

Lemma shiftMem_good : forall w v o, Inv w -> good (shiftMem w v o).
Proof.
  intros w v o I. unfold shiftMem. apply good_bind; [apply clear_good; assumption|]. intros w1 E1 I1.
  pose proof (clear_get _ _ _ I E1) as Ev.
  destruct (getv_cases w1 o) as [(y & -> & Eo)| ->]; [|auto]. cbn [vbind].
  destruct (Nat.eq_dec v o) as [<-|N].
  - assert (y = null_vec) by congruence. subst y.
    unfold getv at 1. cbn [setv env]. rewrite nth_error_upd_eq by (eapply nth_lt; eassumption). cbn [vbind].
    apply good_ok. unfold setv. cbn [heap env]. rewrite upd_upd.
    apply (inv_view w1 v null_vec None 0 I1 Ev eq_refl). split; [reflexivity|discriminate].
  - unfold getv at 1. cbn [setv env]. rewrite nth_error_upd_neq by congruence. rewrite Eo. cbn [vbind].
    apply good_ok. apply (inv_move _ _ _ _ _ I1 N Ev eq_refl Eo).
Qed.

Lemma makeAlias_good : forall w v o, Inv w -> good (makeAlias w v o).
Proof.
  intros w v o I. unfold makeAlias.
  destruct (getv_cases w v) as [(x & -> & Ev)| ->]; [|auto]. cbn [vbind].
  destruct (getv_cases w o) as [(y & -> & Eo)| ->]; [|auto]. cbn [vbind].
  assert (K : forall w1 x1, Inv w1 -> nth_error (env w1) v = Some (Some x1) -> v_data x1 = None ->
    good (vdo x1 <- getv w1 v; vdo y1 <- getv w1 o; VOk (setv w1 v (Some (mkVec (v_data x1) (v_start y1) (v_len y1)))))).
  { intros w1 x1 I1 E1 D1. rewrite (getv_some _ _ _ E1). cbn [vbind].
    destruct (getv_cases w1 o) as [(y1 & -> & Eo1)| ->]; [|auto]. cbn [vbind]. rewrite D1.
    apply good_ok. eapply inv_view; try eassumption. eapply view_of; eassumption. }
  destruct (v_data x) as [b|] eqn:D.
  - unfold vassert. destruct (match v_data y with Some c => negb (Nat.eqb b c) | None => true end); [|auto]. cbn [vbind].
    apply good_bind; [apply clear_good; assumption|]. intros w1 E1 I1.
    eapply K; [assumption|exact (clear_get _ _ _ I E1)|reflexivity].
  - cbn [vbind]. eapply K; eassumption.
Qed.

Lemma assign_good : forall w v o, Inv w -> good (assign w v o).
Proof.
  intros w v o I. unfold assign. destruct (getv_cases w o) as [(y & -> & Eo)| ->]; [|auto]. cbn [vbind].
  destruct (v_data y); [apply clone_good|apply makeAlias_good]; assumption.
Qed.

(** Constructors *)
Definition goodp (r : vout (world * nat)) : Prop := good (fstw r).

Lemma goodp_bind : forall r v, good r -> goodp (vdo w2 <- r; VOk (w2, v)).
Proof. intros r v [N G]. unfold goodp, fstw. destruct r; cbn [vbind]; auto. congruence. Qed.

Lemma vInit_push_good : forall w n, Inv w -> good (vInit (fst (push w)) (length (env w)) n).
Proof.
  intros w n I. pose proof (inv_push _ I) as J. pose proof (push_get w) as E.
  unfold vInit. rewrite (getv_some _ _ _ E). cbn [vbind]. destruct n as [|n]; apply good_ok.
  - apply (inv_view _ _ _ None 0 J E eq_refl). split; [reflexivity|discriminate].
  - apply (inv_init _ _ _ (S n) J E eq_refl).
Qed.

Lemma new_vec_good : forall w n, Inv w -> goodp (new_vec w n).
Proof. intros w n I. unfold new_vec. rewrite push_eq. apply goodp_bind. apply (vInit_push_good w n I). Qed.

Lemma copy_bv_good : forall w o, Inv w -> goodp (copy_bv w o).
Proof.
  intros w o I. unfold copy_bv. destruct (getv_cases w o) as [(y & -> & Eo)| ->]; [|unfold goodp, fstw; cbn; auto]. cbn [vbind].
  rewrite push_eq. apply goodp_bind. destruct (v_data y); [apply clone_good|apply makeAlias_good]; apply (inv_push _ I).
Qed.

Lemma copy_const_good : forall w o, Inv w -> goodp (copy_const w o).
Proof. intros w o I. unfold copy_const. rewrite push_eq. apply goodp_bind. apply clone_good. apply (inv_push _ I). Qed.

Lemma copy_shift_good : forall w o, Inv w -> goodp (copy_shift w o).
Proof.
  intros w o I. unfold copy_shift. destruct (getv_cases w o) as [(y & -> & Eo)| ->]; [|unfold goodp, fstw; cbn; auto]. cbn [vbind].
  rewrite push_eq. unfold goodp, fstw. cbn [vbind]. apply good_ok.
  apply (inv_move (fst (push w)) (length (env w)) o null_vec y).
  - apply inv_push. assumption.
  - pose proof (nth_lt _ _ _ _ Eo). lia.
  - apply push_get.
  - reflexivity.
  - apply push_old. assumption.
Qed.

Lemma concat_good : forall w a b, Inv w -> goodp (concat w a b).
Proof.
  intros w a b I. unfold concat.
  destruct (getv_cases w a) as [(ya & -> & Ea)| ->]; [|unfold goodp, fstw; cbn; auto]. cbn [vbind].
  destruct (getv_cases w b) as [(yb & -> & Eb)| ->]; [|unfold goodp, fstw; cbn; auto]. cbn [vbind].
  rewrite push_eq.
  pose proof (resize_good _ (length (env w)) (v_len ya + v_len yb) (inv_push _ I)) as G. cbn [push fst] in G.
  unfold goodp, fstw. destruct (resize _ _ _) as [w2| | | |]; cbn [vbind]; try solve [auto | destruct G; congruence].
  assert (I2 : Inv w2) by (apply G; reflexivity).
  destruct (getv_cases w2 (length (env w))) as [(x & -> & Ex)| ->]; [|auto]. cbn [vbind].
  pose proof (memcpy_good w2 (v_start x) (v_start ya) (v_len ya) I2) as G3.
  destruct (memcpy _ _ _ _) as [w3| | | |]; cbn [vbind]; try solve [auto | destruct G3; congruence].
  assert (I3 : Inv w3) by (apply G3; reflexivity).
  pose proof (memcpy_good w3 (padd (v_start x) (v_len ya)) (v_start yb) (v_len yb) I3) as G4.
  destruct (memcpy w3 _ _ _) as [w4| | | |]; cbn [vbind]; solve [auto | destruct G4; congruence].
Qed.

Lemma segment_good : forall w o s n, Inv w -> goodp (segment w o s n).
Proof.
  intros w o s n I. unfold segment, goodp, fstw.
  destruct (getv_cases w o) as [(y & -> & Eo)| ->]; [|cbn; auto]. cbn [vbind].
  unfold vassert. destruct (Nat.leb_spec (s + n) (v_len y)) as [H|H]; [|cbn; auto]. cbn [vbind]. rewrite push_eq. cbn [vbind].
  apply good_ok. apply (inv_view (fst (push w)) _ null_vec).
  - apply inv_push. assumption.
  - apply push_get.
  - reflexivity.
  - destruct (view_of _ _ _ I Eo) as [A B]. split.
    + intros P. destruct (v_start y) as [[b off]|]; [discriminate|]. rewrite A in H by reflexivity. lia.
    + intros b off P. destruct (v_start y) as [[b' off']|]; [|discriminate]. cbn in P. injection P as <- <-.
      destruct (B _ _ eq_refl) as [B1 B2]. split; [assumption|]. intros blk Hb. specialize (B2 _ Hb). lia.
Qed.

Lemma destroy_good : forall w v, Inv w -> good (destroy w v).
Proof.
  intros w v I. unfold destroy. apply good_bind; [apply clear_good; assumption|]. intros w1 E1 I1.
  apply good_ok. eapply inv_kill; [assumption|exact (clear_get _ _ _ I E1)|reflexivity].
Qed.

Lemma goodp_bind2 : forall r f, goodp r -> (forall w v, r = VOk (w, v) -> Inv w -> goodp (f (w, v))) -> goodp (vbind r f).
Proof.
  intros r f [N G] H. unfold goodp, fstw in *. destruct r as [[w v]| | | |]; cbn [vbind] in *; auto.
  congruence.
Qed.

Lemma cloneSegment_good : forall w o s n, Inv w -> goodp (cloneSegment w o s n).
Proof.
  intros w o s n I. unfold cloneSegment. apply goodp_bind2; [apply segment_good; assumption|]. intros w1 t E1 I1.
  apply goodp_bind2; [apply new_vec_good; assumption|]. intros w2 r E2 I2.
  unfold goodp, fstw. pose proof (clone_good w2 r t I2) as G3.
  destruct (clone w2 r t) as [w3| | | |]; cbn [vbind]; try solve [auto | destruct G3; congruence].
  assert (I3 : Inv w3) by (apply G3; reflexivity).
  pose proof (destroy_good w3 t I3) as G4. destruct (destroy w3 t) as [w4| | | |]; cbn [vbind]; solve [auto | destruct G4; congruence].
Qed.

Lemma vstep_good : forall w op, Inv w -> good (vstep w op).
Proof.
  intros w op I. destruct op; cbn [vstep].
  - apply new_vec_good; assumption.
  - apply copy_bv_good; assumption.
  - apply copy_const_good; assumption.
  - apply copy_shift_good; assumption.
  - apply concat_good; assumption.
  - apply segment_good; assumption.
  - apply cloneSegment_good; assumption.
  - apply resize_good; assumption.
  - apply clear_good; assumption.
  - apply clone_good; assumption.
  - apply assign_good; assumption.
  - apply shiftMem_good; assumption.
  - unfold dup. apply good_bind; [apply makeAlias_good; assumption|]. intros w1 E1 I1.
    destruct (getv_cases w1 v) as [(x & -> & Ex)| ->]; [|auto]. cbn [vbind].
    destruct (getv_cases w1 o) as [(y & -> & Ey)| ->]; [|auto]. cbn [vbind].
    unfold vassert. destruct (match v_start x with Some _ => _ | None => _ end); cbn [vbind]; auto.
  - unfold read. destruct (getv_cases w v) as [(x & -> & Ex)| ->]; [|cbn; auto]. cbn [vbind].
    unfold vassert. destruct (Nat.ltb i (v_len x)); cbn [vbind]; [|auto].
    pose proof (load_notfree w (padd (v_start x) i) 1). destruct (load w (padd (v_start x) i) 1) as [[|c [|]]| | | |]; cbn [vbind]; auto. congruence.
  - unfold write. destruct (getv_cases w v) as [(x & -> & Ex)| ->]; [|cbn; auto]. cbn [vbind].
    unfold vassert. destruct (Nat.ltb i (v_len x)); cbn [vbind]; [|auto]. apply store_good. assumption.
  - unfold fill. destruct (getv_cases w v) as [(x & -> & Ex)| ->]; [|cbn; auto]. cbn [vbind]. apply store_good. assumption.
  - unfold fill_range. destruct (getv_cases w v) as [(x & -> & Ex)| ->]; [|cbn; auto]. cbn [vbind].
    unfold vassert. destruct (Nat.leb (start + n) (v_len x)); cbn [vbind]; [|auto]. apply store_good. assumption.
  - unfold copyToSegment. destruct (getv_cases w v) as [(x & -> & Ex)| ->]; [|auto]. cbn [vbind].
    destruct (getv_cases w o) as [(y & -> & Ey)| ->]; [|auto]. cbn [vbind]. unfold vassert.
    destruct (Nat.leb (start + span) (v_len y)); cbn [vbind]; [|auto].
    destruct (Nat.leb span (v_len x)); cbn [vbind]; [|auto]. apply memcpy_good. assumption.
  - unfold segmentCopyTo. destruct (getv_cases w v) as [(x & -> & Ex)| ->]; [|auto]. cbn [vbind].
    destruct (getv_cases w o) as [(y & -> & Ey)| ->]; [|auto]. cbn [vbind]. unfold vassert.
    destruct (Nat.leb (start + span) (v_len x)); cbn [vbind]; [|auto].
    destruct (Nat.leb span (v_len y)); cbn [vbind]; [|auto]. apply memcpy_good. assumption.
  - apply destroy_good; assumption.
Qed.

Lemma vrun_good : forall ops w, Inv w -> good (vrun w ops).
Proof.
  induction ops as [|op t IH]; intros w I; cbn [vrun]; [auto|].
  apply good_bind; [apply vstep_good; assumption|]. intros w1 _ I1. apply IH. assumption.
Qed.

(** ** C12 *)
Lemma no_double_free : forall ops, vrun empty_world ops <> VBadFree.
Proof. intros ops. apply (vrun_good ops _ inv_empty). Qed.

Lemma one_owner : forall ops w b, vrun empty_world ops = VOk w -> allocated w b ->
  exists v, owns w v b /\ forall v', owns w v' b -> v' = v.
Proof.
  intros ops w b H A. assert (I : Inv w) by (apply (vrun_good ops _ inv_empty); assumption).
  destruct (I_cover _ I b A) as (v & O). exists v. split; [assumption|]. intros v' O'. eapply I_uniq; eassumption.
Qed.

Lemma owned_allocated : forall ops w v b, vrun empty_world ops = VOk w -> owns w v b -> allocated w b.
Proof.
  intros ops w v b H (x & E & D). assert (I : Inv w) by (apply (vrun_good ops _ inv_empty); assumption).
  destruct (I_own _ I _ _ _ E D) as (blk & A & _). exists blk. assumption.
Qed.

Lemma no_leak : forall ops w, vrun empty_world ops = VOk w -> (forall v, ~ alive w v) -> forall b, ~ allocated w b.
Proof.
  intros ops w H N b A. destruct (one_owner ops w b H A) as (v & (x & E & D) & _). apply (N v). exists x. assumption.
Qed.

(** An owner can always be read, written and destroyed. *)
Lemma owner_contents : forall ops w v b, vrun empty_world ops = VOk w -> owns w v b -> contents w v <> None.
Proof.
  intros ops w v b H (x & E & D). assert (I : Inv w) by (apply (vrun_good ops _ inv_empty); assumption).
  destruct (I_own _ I _ _ _ E D) as (blk & A & St & L). unfold contents. rewrite E, St. unfold load.
  destruct (v_len x) as [|k] eqn:Lx; [discriminate|]. rewrite A.
  destruct (Nat.leb_spec (0 + S k) (length blk)); [discriminate|lia].
Qed.

Lemma destroy_ok : forall w v, Inv w -> alive w v -> exists w', destroy w v = VOk w' /\ ~ alive w' v.
Proof.
  intros w v I (x & E). unfold destroy, clear. rewrite (resize_eq _ _ _ _ I E). cbn [vbind].
  eexists. split; [reflexivity|]. intros (z & Z). cbn [setv env] in Z. rewrite nth_upd in Z.
  destruct (Nat.eq_dec v v); [|congruence]. rewrite upd_length, (ltb_of_nth _ _ _ _ E) in Z. discriminate.
Qed.
