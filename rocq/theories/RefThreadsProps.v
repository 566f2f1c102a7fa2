(** C97: RefCntPointer with threads. *)
From Verif Require Import Base BaseFacts RefCntModel RefThreadsModel.
Local Open Scope Z_scope.

(** ** Counting *)
Definition sumf {A} (f : A -> nat) (l : list A) : nat := list_sum (map f l).
Lemma sumf_cons {A} (f : A -> nat) a l : sumf f (a :: l) = (f a + sumf f l)%nat.
Proof. reflexivity. Qed.
Lemma sumf_app {A} (f : A -> nat) l l' : sumf f (l ++ l') = (sumf f l + sumf f l')%nat.
Proof. unfold sumf. rewrite map_app, list_sum_app. reflexivity. Qed.
Lemma sumf_upd {A} (f : A -> nat) l i x y : nth_error l i = Some x -> (sumf f (upd l i y) + f x = sumf f l + f y)%nat.
Proof. revert i. induction l as [|a l IH]; intros [|i] E; try discriminate; cbn [nth_error] in E; cbn [upd]; rewrite !sumf_cons; [inversion E; lia|]. specialize (IH i E). lia. Qed.
Lemma sumf_ge {A} (f : A -> nat) l i x : nth_error l i = Some x -> (f x <= sumf f l)%nat.
Proof. revert i. induction l as [|a l IH]; intros [|i] E; try discriminate; cbn [nth_error] in E; rewrite sumf_cons; [inversion E; lia|]. specialize (IH i E). lia. Qed.
Lemma sumf_pos {A} (f : A -> nat) l : (1 <= sumf f l)%nat -> exists i x, nth_error l i = Some x /\ (1 <= f x)%nat.
Proof.
  induction l as [|a l IH]; intros H; [cbn in H; lia|]. rewrite sumf_cons in H. destruct (f a) eqn:E; [|exists 0%nat, a; split; [reflexivity|lia]].
  destruct (IH ltac:(lia)) as (i & x & P & Q). exists (S i), x. auto.
Qed.
Lemma sumf_two {A} (f : A -> nat) l i j x y : i <> j -> nth_error l i = Some x -> nth_error l j = Some y -> (f x + f y <= sumf f l)%nat.
Proof.
  revert i j. induction l as [|a l IH]; intros [|i] [|j] N E F; try discriminate; try congruence; cbn [nth_error] in *; rewrite sumf_cons.
  - inversion E; subst. pose proof (sumf_ge f l j y F). lia.
  - inversion F; subst. pose proof (sumf_ge f l i x E). lia.
  - specialize (IH i j ltac:(congruence) E F). lia.
Qed.
Definition one (b : bool) : nat := if b then 1%nat else 0%nat.
(** How often a list of objects has [o]. *)
Definition occ (o : nat) (l : list nat) : nat := count_occ Nat.eq_dec l o.
Definition fv (o : nat) (x : option (nat * nat)) : nat := match x with Some (_, o') => one (o' =? o)%nat | None => 0%nat end.
Definition fm (o : nat) (r : object) : nat := occ o (members r).
Definition fd (o : nat) (k : work) : nat :=
  match k with
  | Rel (RRead | RLock | RSub) o' rest => (one (o' =? o)%nat + occ o rest)%nat
  | Rel _ o' rest => occ o rest
  | _ => 0%nat
  end.
Definition fx (o : nat) (k : work) : nat :=
  match k with
  | Rel (RUnlock save) o' _ => if save <=? 0 then one (o' =? o)%nat else 0%nat
  | Rel RDelete o' _ => one (o' =? o)%nat
  | _ => 0%nat
  end.
(** The pointers to [o], in variables and members, and those about to be released. *)
Definition refs (s : state) (o : nat) : nat := (sumf (fv o) (vars s) + sumf (fm o) (objs s))%nat.
Definition N (s : state) (o : nat) : nat := (refs s o + sumf (fd o) (works s))%nat.
Definition X (s : state) (o : nat) : nat := sumf (fx o) (works s).
Definition holds (k : work) : option nat :=
  match k with Inc (IAdd | IUnlock) o _ => Some o | Rel (RSub | RUnlock _) o _ => Some o | _ => None end.
Definition is_steal (l : label) : bool := match l with LSteal _ _ => true | _ => false end.

Record Inv (s : state) : Prop := {
  i_alive : forall o r, nth_error (objs s) o = Some r -> alive r = true ->
    cnt r = s16 (Z.of_nat (N s o)) /\ Z.of_nat (N s o) <= 32768 /\ ((X s o = 0%nat /\ (1 <= N s o)%nat) \/ (X s o = 1%nat /\ N s o = 0%nat));
  i_dead : forall o r, nth_error (objs s) o = Some r -> alive r = false -> N s o = 0%nat /\ X s o = 0%nat /\ members r = [];
  i_none : forall o, nth_error (objs s) o = None -> N s o = 0%nat /\ X s o = 0%nat;
  i_held : forall t k o, nth_error (works s) t = Some k -> holds k = Some o -> exists r, nth_error (objs s) o = Some r /\ lockedby r = Some t;
  i_holder : forall o r t, nth_error (objs s) o = Some r -> lockedby r = Some t -> exists k, nth_error (works s) t = Some k /\ holds k = Some o;
  i_source : forall t st o v, nth_error (works s) t = Some (Inc st o v) -> nth_error (vars s) v = Some (Some (t, o));
  i_save : forall t save o rest, nth_error (works s) t = Some (Rel (RUnlock save) o rest) -> Z.of_nat (N s o) = save;
  i_members : forall o r, nth_error (objs s) o = Some r -> Forall (fun m => (m < o)%nat) (members r) }.

Lemma s16_id z : -32768 <= z <= 32767 -> s16 z = z.
Proof. intros H. unfold s16. rewrite Z.mod_small by lia. lia. Qed.
Lemma occ_cons o a l : occ o (a :: l) = (one (a =? o)%nat + occ o l)%nat.
Proof. unfold occ. cbn [count_occ]. destruct (Nat.eq_dec a o) as [->|H]; [rewrite Nat.eqb_refl; reflexivity|]. apply Nat.eqb_neq in H. rewrite H. reflexivity. Qed.
Lemma occ_app o l l' : occ o (l ++ l') = (occ o l + occ o l')%nat.
Proof. unfold occ. apply count_occ_app. Qed.
Lemma occ_rev o l : occ o (rev l) = occ o l.
Proof. induction l as [|a l IH]; [reflexivity|]. cbn [rev]. rewrite occ_app, occ_cons, IH, occ_cons. cbn [occ count_occ]. lia. Qed.
Lemma fd_next o rest : fd o (next rest) = occ o rest.
Proof. destruct rest as [|a rest]; [reflexivity|]. cbn [next fd]. rewrite occ_cons. reflexivity. Qed.
Lemma fx_next o rest : fx o (next rest) = 0%nat.
Proof. destruct rest; reflexivity. Qed.
Lemma nth_upd {A} (l : list A) i j x y : nth_error (upd l i x) j = Some y -> (i = j /\ y = x /\ (i < length l)%nat) \/ (i <> j /\ nth_error l j = Some y).
Proof.
  destruct (Nat.eq_dec i j) as [->|H]; [|rewrite nth_error_upd_neq by exact H; auto]. intros E. left.
  assert (L : (j < length l)%nat) by (rewrite <- (upd_length _ l j x); apply nth_error_Some; congruence). rewrite nth_error_upd_eq in E by exact L. inversion E. auto.
Qed.
Lemma nth_upd_same {A} (l : list A) i x y : nth_error l i = Some y -> nth_error (upd l i x) i = Some x.
Proof. intros E. apply nth_error_upd_eq. apply nth_error_Some. congruence. Qed.
Lemma nth_upd_none {A} (l : list A) i j x : nth_error (upd l i x) j = None -> nth_error l j = None.
Proof. rewrite !nth_error_None, upd_length. auto. Qed.
Lemma nth_snoc {A} (l : list A) x j y : nth_error (l ++ [x]) j = Some y -> nth_error l j = Some y \/ (j = length l /\ y = x).
Proof.
  intros E. destruct (Nat.lt_ge_cases j (length l)) as [L|L]; [rewrite nth_error_app1 in E by exact L; auto|].
  rewrite nth_error_app2 in E by exact L. destruct (j - length l)%nat eqn:D; [inversion E; right; split; [lia|reflexivity]|]. destruct n; discriminate.
Qed.

Ltac fields s :=
  let a := eval unfold s in (objs s) in let a := eval cbn [with_work with_obj with_var objs vars works] in a in change (objs s) with a;
  let a := eval unfold s in (vars s) in let a := eval cbn [with_work with_obj with_var objs vars works] in a in change (vars s) with a;
  let a := eval unfold s in (works s) in let a := eval cbn [with_work with_obj with_var objs vars works] in a in change (works s) with a.

(** ** Steps that change no count: the work of [t] changes, and possibly the lock of [o] *)
Lemma inv_lock s t o k k' r l' :
  Inv s -> nth_error (works s) t = Some k -> nth_error (objs s) o = Some r -> alive r = true ->
  (forall z, fd z k' = fd z k) -> (forall z, fx z k' = fx z k) -> lockedby r = None -> holds k = None -> holds k' = Some o -> l' = Some t ->
  (forall st z v, k' = Inc st z v -> exists st', k = Inc st' z v) -> (forall save z rest, k' <> Rel (RUnlock save) z rest) ->
  Inv (with_work (with_obj s o (Object (cnt r) true l' (members r))) t k').
Proof.
  intros I Ew Eo Al Fd Fx Lr Hk Hk' -> Src NoU.
  set (s' := with_work _ _ _).
  assert (EN : forall z, N s' z = N s z).
  { intros z. unfold N, refs, s'. cbn [with_work with_obj objs vars works]. pose proof (sumf_upd (fm z) _ _ _ (Object (cnt r) true (Some t) (members r)) Eo) as A.
    pose proof (sumf_upd (fd z) _ _ _ k' Ew) as B. rewrite Fd in B. unfold fm in A at 2 4. cbn [members] in A. lia. }
  assert (EX : forall z, X s' z = X s z).
  { intros z. unfold X, s'. cbn [with_work with_obj works]. pose proof (sumf_upd (fx z) _ _ _ k' Ew) as B. rewrite Fx in B. lia. }
  constructor; fields s'.
  - intros z r' E A. rewrite EN, EX. apply nth_upd in E as [(<- & -> & _)|(_ & E)]; [apply (i_alive _ I o r Eo Al)|exact (i_alive _ I z r' E A)].
  - intros z r' E A. rewrite EN, EX. apply nth_upd in E as [(<- & -> & _)|(_ & E)]; [discriminate|exact (i_dead _ I z r' E A)].
  - intros z E. rewrite EN, EX. apply (i_none _ I). exact (nth_upd_none _ _ _ _ E).
  - intros u k0 z E H. apply nth_upd in E as [(<- & -> & _)|(Nu & E)].
    + rewrite Hk' in H. inversion H; subst. eexists. split; [apply (nth_upd_same _ _ _ _ Eo)|reflexivity].
    + destruct (i_held _ I u k0 z E H) as (r0 & Er & Lo). exists r0. split; [|exact Lo]. rewrite nth_error_upd_neq; [exact Er|]. intros <-. congruence.
  - intros z r' u E L. apply nth_upd in E as [(<- & -> & _)|(Nz & E)].
    + cbn [lockedby] in L. inversion L; subst. exists k'. split; [apply (nth_upd_same _ _ _ _ Ew)|exact Hk'].
    + destruct (i_holder _ I z r' u E L) as (k0 & Ek & Hz). exists k0. split; [|exact Hz]. rewrite nth_error_upd_neq; [exact Ek|]. intros <-. congruence.
  - intros u st z v E. apply nth_upd in E as [(<- & E & _)|(_ & E)]; [|exact (i_source _ I _ _ _ _ E)]. destruct (Src st z v (eq_sym E)) as (st' & ->). exact (i_source _ I _ _ _ _ Ew).
  - intros u save z rest E. rewrite EN. apply nth_upd in E as [(<- & E & _)|(_ & E)]; [destruct (NoU _ _ _ (eq_sym E))|exact (i_save _ I _ _ _ _ E)].
  - intros z r' E. apply nth_upd in E as [(<- & -> & _)|(_ & E)]; [exact (i_members _ I o r Eo)|exact (i_members _ I z r' E)].
Qed.
(** Unlocking: [k] holds the lock, [k'] does not. *)
Lemma inv_unlock s t o k k' r :
  Inv s -> nth_error (works s) t = Some k -> nth_error (objs s) o = Some r -> alive r = true ->
  (forall z, fd z k' = fd z k) -> (forall z, fx z k' = fx z k) -> holds k = Some o -> holds k' = None ->
  (forall st z v, k' <> Inc st z v) -> (forall save z rest, k' <> Rel (RUnlock save) z rest) ->
  Inv (with_work (with_obj s o (Object (cnt r) true None (members r))) t k').
Proof.
  intros I Ew Eo Al Fd Fx Hk Hk' Src NoU.
  set (s' := with_work _ _ _).
  assert (EN : forall z, N s' z = N s z).
  { intros z. unfold N, refs, s'. cbn [with_work with_obj objs vars works]. pose proof (sumf_upd (fm z) _ _ _ (Object (cnt r) true None (members r)) Eo) as A.
    pose proof (sumf_upd (fd z) _ _ _ k' Ew) as B. rewrite Fd in B. unfold fm in A at 2 4. cbn [members] in A. lia. }
  assert (EX : forall z, X s' z = X s z).
  { intros z. unfold X, s'. cbn [with_work with_obj works]. pose proof (sumf_upd (fx z) _ _ _ k' Ew) as B. rewrite Fx in B. lia. }
  constructor; fields s'.
  - intros z r' E A. rewrite EN, EX. apply nth_upd in E as [(<- & -> & _)|(_ & E)]; [apply (i_alive _ I o r Eo Al)|exact (i_alive _ I z r' E A)].
  - intros z r' E A. rewrite EN, EX. apply nth_upd in E as [(<- & -> & _)|(_ & E)]; [discriminate|exact (i_dead _ I z r' E A)].
  - intros z E. rewrite EN, EX. apply (i_none _ I). exact (nth_upd_none _ _ _ _ E).
  - intros u k0 z E H. apply nth_upd in E as [(<- & -> & _)|(Nu & E)]; [congruence|].
    destruct (i_held _ I u k0 z E H) as (r0 & Er & Lo). exists r0. split; [|exact Lo]. rewrite nth_error_upd_neq; [exact Er|]. intros <-.
    destruct (i_held _ I t k o Ew Hk) as (r1 & Er1 & Lo1). congruence.
  - intros z r' u E L. apply nth_upd in E as [(<- & -> & _)|(Nz & E)]; [discriminate|].
    destruct (i_holder _ I z r' u E L) as (k0 & Ek & Hz). exists k0. split; [|exact Hz]. rewrite nth_error_upd_neq; [exact Ek|]. intros <-. congruence.
  - intros u st z v E. apply nth_upd in E as [(<- & E & _)|(_ & E)]; [destruct (Src _ _ _ (eq_sym E))|exact (i_source _ I _ _ _ _ E)].
  - intros u save z rest E. rewrite EN. apply nth_upd in E as [(<- & E & _)|(_ & E)]; [destruct (NoU _ _ _ (eq_sym E))|exact (i_save _ I _ _ _ _ E)].
  - intros z r' E. apply nth_upd in E as [(<- & -> & _)|(_ & E)]; [exact (i_members _ I o r Eo)|exact (i_members _ I z r' E)].
Qed.
(** An object somebody is about to use is alive. *)
Lemma N_alive s o : Inv s -> (1 <= N s o)%nat -> exists r, nth_error (objs s) o = Some r /\ alive r = true /\ X s o = 0%nat.
Proof.
  intros I L. destruct (nth_error (objs s) o) as [r|] eqn:E; [|pose proof (i_none _ I o E); lia]. exists r. split; [reflexivity|].
  destruct (alive r) eqn:A; [|pose proof (i_dead _ I o r E A); lia]. split; [reflexivity|]. pose proof (i_alive _ I o r E A). lia.
Qed.
Lemma X_alive s o : Inv s -> (1 <= X s o)%nat -> exists r, nth_error (objs s) o = Some r /\ alive r = true /\ X s o = 1%nat /\ N s o = 0%nat.
Proof.
  intros I L. destruct (nth_error (objs s) o) as [r|] eqn:E; [|pose proof (i_none _ I o E); lia]. exists r. split; [reflexivity|].
  destruct (alive r) eqn:A; [|pose proof (i_dead _ I o r E A); lia]. split; [reflexivity|]. pose proof (i_alive _ I o r E A). lia.
Qed.
Lemma inc_N s t st o v : Inv s -> nth_error (works s) t = Some (Inc st o v) -> (1 <= refs s o)%nat.
Proof.
  intros I E. pose proof (i_source _ I _ _ _ _ E) as V. pose proof (sumf_ge (fv o) _ _ _ V) as G. cbn [fv] in G. rewrite Nat.eqb_refl in G. unfold refs. cbn [one] in G. lia.
Qed.
Lemma rel_N s t st o rest : Inv s -> nth_error (works s) t = Some (Rel st o rest) -> match st with RRead | RLock | RSub => True | _ => False end -> (1 <= N s o)%nat.
Proof.
  intros I E P. pose proof (sumf_ge (fd o) _ _ _ E) as G. unfold N. destruct st; try destruct P; cbn [fd] in G; rewrite Nat.eqb_refl in G; cbn [one] in G; lia.
Qed.
Lemma one_refl o : one (o =? o)%nat = 1%nat.
Proof. rewrite Nat.eqb_refl. reflexivity. Qed.
Lemma one_other o z : o <> z -> one (o =? z)%nat = 0%nat.
Proof. intros H. apply Nat.eqb_neq in H. rewrite H. reflexivity. Qed.

Lemma inv_micro s t s' : Inv s -> micro s t = Ok s' -> Inv s'.
Proof.
  intros I E. unfold micro in E. destruct (nth_error (works s) t) as [k|] eqn:Ew; [|discriminate].
  destruct k as [|st o v|st o rest]; [discriminate| |].
  - pose proof (inc_N _ _ _ _ _ I Ew) as Lr. destruct (N_alive s o I) as (r & Er & Al & X0); [unfold N; lia|]. unfold touch, locked, unlocked, touch in E. rewrite Er, Al in E. cbn [bind] in E. destruct st.
    + destruct (lockedby r) eqn:L; [discriminate|]. apply Ok_inj in E. subst s'. eapply inv_lock; try eassumption; try reflexivity; [|discriminate].
      intros st z v0 Q. inversion Q; subst. eauto.
    + destruct (Z.ltb_spec (cnt r) 0) as [|Cn]; [discriminate|]. apply Ok_inj in E. subst s'. set (s' := State _ _ _).
      destruct (i_alive _ I o r Er Al) as (Ec & Lc & _).
      assert (EN : forall z, N s' z = (N s z + one (o =? z)%nat)%nat).
      { intros z. unfold N, refs, s'. cbn [with_work with_obj objs vars works]. rewrite sumf_app, sumf_cons. cbn [fv].
        pose proof (sumf_upd (fm z) _ _ _ (Object (s16 (cnt r + 1)) true (lockedby r) (members r)) Er) as A. pose proof (sumf_upd (fd z) _ _ _ (Inc IUnlock o v) Ew) as B. cbn [fd] in B.
        unfold fm in A at 2 4. cbn [members] in A. unfold sumf at 2. cbn [map list_sum fold_right]. lia. }
      assert (EX : forall z, X s' z = X s z).
      { intros z. unfold X, s'. cbn [with_work with_obj works]. pose proof (sumf_upd (fx z) _ _ _ (Inc IUnlock o v) Ew) as B. cbn [fx] in B. lia. }
      assert (No : Z.of_nat (N s o) <= 32767).
      { destruct (Z.eq_dec (Z.of_nat (N s o)) 32768) as [Q|]; [|lia]. rewrite Q in Ec. change (s16 32768) with (-32768) in Ec. lia. }
      rewrite (s16_id (Z.of_nat (N s o))) in Ec by lia.
      constructor; fields s'.
      * intros z r' E A. rewrite EN, EX. apply nth_upd in E as [(<- & -> & _)|(Nz & E)].
        -- rewrite one_refl. cbn [cnt]. rewrite Ec. split; [f_equal; lia|]. split; [lia|]. left. lia.
        -- rewrite one_other by exact Nz. rewrite Nat.add_0_r. exact (i_alive _ I z r' E A).
      * intros z r' E A. rewrite EN, EX. apply nth_upd in E as [(<- & -> & _)|(Nz & E)]; [discriminate|]. rewrite one_other by exact Nz. rewrite Nat.add_0_r. exact (i_dead _ I z r' E A).
      * intros z E. rewrite EN, EX. apply nth_upd_none in E. rewrite one_other by congruence. rewrite Nat.add_0_r. exact (i_none _ I z E).
      * intros u k0 z E H. apply nth_upd in E as [(<- & -> & _)|(Nu & E)].
        -- cbn [holds] in H. inversion H; subst. eexists. split; [apply (nth_upd_same _ _ _ _ Er)|]. cbn [lockedby]. destruct (i_held _ I t _ z Ew eq_refl) as (r1 & Er1 & Lo). congruence.
        -- destruct (i_held _ I u k0 z E H) as (r0 & Er0 & Lo). destruct (Nat.eq_dec o z) as [->|Nz].
           ++ eexists. split; [apply (nth_upd_same _ _ _ _ Er)|]. cbn [lockedby]. congruence.
           ++ exists r0. split; [rewrite nth_error_upd_neq by exact Nz; exact Er0|exact Lo].
      * intros z r' u E L. assert (Q : exists k0, nth_error (works s) u = Some k0 /\ holds k0 = Some z).
        { apply nth_upd in E as [(<- & -> & _)|(Nz & E)]; [exact (i_holder _ I o r u Er L)|exact (i_holder _ I z r' u E L)]. }
        destruct Q as (k0 & Ek & Hk). destruct (Nat.eq_dec t u) as [<-|Nu]; [|exists k0; split; [rewrite nth_error_upd_neq by exact Nu; exact Ek|exact Hk]].
        exists (Inc IUnlock o v). split; [apply (nth_upd_same _ _ _ _ Ew)|]. rewrite Ew in Ek. inversion Ek; subst. exact Hk.
      * intros u st z v0 E. rewrite nth_error_app1; [|]. 2:{ apply nth_error_Some. apply nth_upd in E as [(<- & E & _)|(_ & E)]; [inversion E; subst; rewrite (i_source _ I _ _ _ _ Ew); discriminate|rewrite (i_source _ I _ _ _ _ E); discriminate]. }
        apply nth_upd in E as [(<- & E & _)|(_ & E)]; [inversion E; subst; exact (i_source _ I _ _ _ _ Ew)|exact (i_source _ I _ _ _ _ E)].
      * intros u save z rest E. rewrite EN. apply nth_upd in E as [(<- & E & _)|(Nu & E)]; [discriminate|]. rewrite one_other; [rewrite Nat.add_0_r; exact (i_save _ I _ _ _ _ E)|].
        intros <-. destruct (i_held _ I t _ o Ew eq_refl) as (r1 & Er1 & Lo1). destruct (i_held _ I u _ o E eq_refl) as (r2 & Er2 & Lo2). congruence.
      * intros z r' E. apply nth_upd in E as [(<- & -> & _)|(_ & E)]; [exact (i_members _ I o r Er)|exact (i_members _ I z r' E)].
    + apply Ok_inj in E. subst s'. eapply inv_unlock; try eassumption; try reflexivity; discriminate.
  - destruct st as [| | |save|].
    + pose proof (rel_N _ _ _ _ _ I Ew Logic.I) as L. destruct (N_alive s o I L) as (r & Er & Al & X0). unfold touch in E. rewrite Er, Al in E. cbn [bind] in E. apply Ok_inj in E. subst s'.
      set (s' := with_work _ _ _).
      assert (EN : forall z, N s' z = N s z).
      { intros z. unfold N, refs, s'. cbn [with_work objs vars works]. pose proof (sumf_upd (fd z) _ _ _ (Rel RLock o rest) Ew) as B. cbn [fd] in B. lia. }
      assert (EX : forall z, X s' z = X s z).
      { intros z. unfold X, s'. cbn [with_work works]. pose proof (sumf_upd (fx z) _ _ _ (Rel RLock o rest) Ew) as B. cbn [fx] in B. lia. }
      constructor; fields s'.
      * intros z r' E A. rewrite EN, EX. exact (i_alive _ I z r' E A).
      * intros z r' E A. rewrite EN, EX. exact (i_dead _ I z r' E A).
      * intros z E. rewrite EN, EX. exact (i_none _ I z E).
      * intros u k0 z E H. apply nth_upd in E as [(<- & -> & _)|(Nu & E)]; [discriminate|]. exact (i_held _ I u k0 z E H).
      * intros z r' u E L'. destruct (i_holder _ I z r' u E L') as (k0 & Ek & Hk). exists k0. split; [|exact Hk]. rewrite nth_error_upd_neq; [exact Ek|]. intros <-. rewrite Ew in Ek. inversion Ek; subst. discriminate.
      * intros u st z v0 E. apply nth_upd in E as [(<- & E & _)|(_ & E)]; [discriminate|exact (i_source _ I _ _ _ _ E)].
      * intros u save z rest' E. rewrite EN. apply nth_upd in E as [(<- & E & _)|(Nu & E)]; [discriminate|]. exact (i_save _ I _ _ _ _ E).
      * exact (i_members _ I).
    + pose proof (rel_N _ _ _ _ _ I Ew Logic.I) as L. destruct (N_alive s o I L) as (r & Er & Al & X0). unfold locked, touch in E. rewrite Er, Al in E. cbn [bind] in E.
      destruct (lockedby r) eqn:Lk; [discriminate|]. apply Ok_inj in E. subst s'. eapply inv_lock; try eassumption; try reflexivity; discriminate.
    + pose proof (rel_N _ _ _ _ _ I Ew Logic.I) as L. destruct (N_alive s o I L) as (r & Er & Al & X0). unfold touch in E. rewrite Er, Al in E. cbn [bind] in E.
      destruct (Z.ltb_spec (cnt r) 0) as [|Cn]; [discriminate|]. cbn zeta in E.
      destruct (i_alive _ I o r Er Al) as (Ec & Lc & _).
      assert (No : Z.of_nat (N s o) <= 32767).
      { destruct (Z.eq_dec (Z.of_nat (N s o)) 32768) as [Q|]; [|lia]. rewrite Q in Ec. change (s16 32768) with (-32768) in Ec. lia. }
      rewrite (s16_id (Z.of_nat (N s o))) in Ec by lia. rewrite (s16_id (cnt r - 1)) in E by lia. apply Ok_inj in E. subst s'. set (s' := with_work _ _ _).
      assert (EN : forall z, (N s' z + one (o =? z))%nat = N s z).
      { intros z. unfold N, refs, s'. cbn [with_work with_obj objs vars works].
        pose proof (sumf_upd (fm z) _ _ _ (Object (cnt r - 1) true (lockedby r) (members r)) Er) as A. pose proof (sumf_upd (fd z) _ _ _ (Rel (RUnlock (cnt r - 1)) o rest) Ew) as B. cbn [fd] in B.
        unfold fm in A at 2 4. cbn [members] in A. lia. }
      assert (EX : forall z, X s' z = (X s z + if (cnt r - 1 <=? 0)%Z then one (o =? z)%nat else 0)%nat).
      { intros z. unfold X, s'. cbn [with_work with_obj works]. pose proof (sumf_upd (fx z) _ _ _ (Rel (RUnlock (cnt r - 1)) o rest) Ew) as B. cbn [fx] in B. lia. }
      assert (EXo : forall z, o <> z -> X s' z = X s z). { intros z Nz. rewrite EX, one_other by exact Nz. destruct (_ <=? _); lia. }
      assert (ENo : forall z, o <> z -> N s' z = N s z). { intros z Nz. specialize (EN z). rewrite one_other in EN by exact Nz. lia. }
      assert (Eo : Z.of_nat (N s' o) = cnt r - 1). { specialize (EN o). rewrite one_refl in EN. lia. }
      constructor; fields s'.
      * intros z r' E A. apply nth_upd in E as [(<- & -> & _)|(Nz & E)].
        -- cbn [cnt]. split; [rewrite Eo, s16_id by lia; reflexivity|]. split; [lia|]. rewrite EX, one_refl, X0. destruct (Z.leb_spec (cnt r - 1) 0); lia.
        -- rewrite ENo, EXo by exact Nz. exact (i_alive _ I z r' E A).
      * intros z r' E A. apply nth_upd in E as [(<- & -> & _)|(Nz & E)]; [discriminate|]. rewrite ENo, EXo by exact Nz. exact (i_dead _ I z r' E A).
      * intros z E. apply nth_upd_none in E. rewrite ENo, EXo by congruence. exact (i_none _ I z E).
      * intros u k0 z E H. apply nth_upd in E as [(<- & -> & _)|(Nu & E)].
        -- cbn [holds] in H. inversion H; subst. eexists. split; [apply (nth_upd_same _ _ _ _ Er)|]. cbn [lockedby]. destruct (i_held _ I t _ z Ew eq_refl) as (r1 & Er1 & Lo). congruence.
        -- destruct (i_held _ I u k0 z E H) as (r0 & Er0 & Lo). destruct (Nat.eq_dec o z) as [->|Nz].
           ++ eexists. split; [apply (nth_upd_same _ _ _ _ Er)|]. cbn [lockedby]. congruence.
           ++ exists r0. split; [rewrite nth_error_upd_neq by exact Nz; exact Er0|exact Lo].
      * intros z r' u E L'. assert (Q : exists k0, nth_error (works s) u = Some k0 /\ holds k0 = Some z).
        { apply nth_upd in E as [(<- & -> & _)|(Nz & E)]; [exact (i_holder _ I o r u Er L')|exact (i_holder _ I z r' u E L')]. }
        destruct Q as (k0 & Ek & Hk). destruct (Nat.eq_dec t u) as [<-|Nu]; [|exists k0; split; [rewrite nth_error_upd_neq by exact Nu; exact Ek|exact Hk]].
        eexists. split; [apply (nth_upd_same _ _ _ _ Ew)|]. rewrite Ew in Ek. inversion Ek; subst. exact Hk.
      * intros u st z v0 E. apply nth_upd in E as [(<- & E & _)|(_ & E)]; [discriminate|exact (i_source _ I _ _ _ _ E)].
      * intros u save z rest' E. apply nth_upd in E as [(<- & E & _)|(Nu & E)]; [inversion E; subst; exact Eo|].
        rewrite ENo; [exact (i_save _ I _ _ _ _ E)|]. intros <-. destruct (i_held _ I t _ o Ew eq_refl) as (r1 & Er1 & Lo1). destruct (i_held _ I u _ o E eq_refl) as (r2 & Er2 & Lo2). congruence.
      * intros z r' E. apply nth_upd in E as [(<- & -> & _)|(_ & E)]; [exact (i_members _ I o r Er)|exact (i_members _ I z r' E)].
    + pose proof (i_save _ I _ _ _ _ Ew) as Sv.
      assert (Q : exists r, nth_error (objs s) o = Some r /\ alive r = true).
      { destruct (N s o) as [|n] eqn:En.
        - destruct (X_alive s o I) as (r & Er & Al & _); [|eauto]. pose proof (sumf_ge (fx o) _ _ _ Ew) as G. cbn [fx] in G. rewrite one_refl in G. destruct (Z.leb_spec save 0); [exact G|lia].
        - destruct (N_alive s o I ltac:(lia)) as (r & Er & Al & _). eauto. }
      destruct Q as (r & Er & Al). unfold unlocked, touch in E. rewrite Er, Al in E. cbn [bind] in E. apply Ok_inj in E. subst s'.
      eapply inv_unlock; try eassumption; try reflexivity.
      * intros z. destruct (save <=? 0); [reflexivity|apply fd_next].
      * intros z. cbn [fx]. destruct (save <=? 0); [reflexivity|apply fx_next].
      * destruct (save <=? 0); [reflexivity|destruct rest; reflexivity].
      * intros st z v. destruct (save <=? 0); [discriminate|destruct rest; discriminate].
      * intros sv z rest'. destruct (save <=? 0); [discriminate|destruct rest; discriminate].
    + destruct (X_alive s o I) as (r & Er & Al & X1 & N0); [pose proof (sumf_ge (fx o) _ _ _ Ew) as G; cbn [fx] in G; rewrite one_refl in G; exact G|].
      unfold touch in E. rewrite Er, Al in E. cbn [bind] in E. apply Ok_inj in E. subst s'. set (s' := with_work _ _ _).
      assert (EN : forall z, N s' z = N s z).
      { intros z. unfold N, refs, s'. cbn [with_work with_obj objs vars works].
        pose proof (sumf_upd (fm z) _ _ _ (Object (cnt r) false (lockedby r) []) Er) as A. pose proof (sumf_upd (fd z) _ _ _ (next (rev (members r) ++ rest)) Ew) as B. rewrite fd_next, occ_app, occ_rev in B. cbn [fd] in B.
        unfold fm in A at 2 4. cbn [members occ count_occ] in A. lia. }
      assert (EX : forall z, (X s' z + one (o =? z))%nat = X s z).
      { intros z. unfold X, s'. cbn [with_work with_obj works]. pose proof (sumf_upd (fx z) _ _ _ (next (rev (members r) ++ rest)) Ew) as B. rewrite fx_next in B. cbn [fx] in B. lia. }
      assert (EXo : forall z, o <> z -> X s' z = X s z). { intros z Nz. specialize (EX z). rewrite one_other in EX by exact Nz. lia. }
      assert (Hn : holds (next (rev (members r) ++ rest)) = None) by (destruct (rev (members r) ++ rest); reflexivity).
      constructor; fields s'.
      * intros z r' E A. rewrite EN. apply nth_upd in E as [(<- & -> & _)|(Nz & E)]; [discriminate|]. rewrite EXo by exact Nz. exact (i_alive _ I z r' E A).
      * intros z r' E A. rewrite EN. apply nth_upd in E as [(<- & -> & _)|(Nz & E)].
        -- specialize (EX o). rewrite one_refl in EX. split; [exact N0|]. split; [lia|reflexivity].
        -- rewrite EXo by exact Nz. exact (i_dead _ I z r' E A).
      * intros z E. rewrite EN. apply nth_upd_none in E. rewrite EXo by congruence. exact (i_none _ I z E).
      * intros u k0 z E H. apply nth_upd in E as [(<- & -> & _)|(Nu & E)]; [congruence|].
        destruct (i_held _ I u k0 z E H) as (r0 & Er0 & Lo). destruct (Nat.eq_dec o z) as [->|Nz].
        -- eexists. split; [apply (nth_upd_same _ _ _ _ Er)|]. cbn [lockedby]. congruence.
        -- exists r0. split; [rewrite nth_error_upd_neq by exact Nz; exact Er0|exact Lo].
      * intros z r' u E L'. assert (Q : exists k0, nth_error (works s) u = Some k0 /\ holds k0 = Some z).
        { apply nth_upd in E as [(<- & -> & _)|(Nz & E)]; [exact (i_holder _ I o r u Er L')|exact (i_holder _ I z r' u E L')]. }
        destruct Q as (k0 & Ek & Hk). exists k0. split; [|exact Hk]. rewrite nth_error_upd_neq; [exact Ek|]. intros <-. rewrite Ew in Ek. inversion Ek; subst. discriminate.
      * intros u st z v0 E. apply nth_upd in E as [(<- & E & _)|(_ & E)]; [destruct (rev (members r) ++ rest); discriminate|exact (i_source _ I _ _ _ _ E)].
      * intros u save z rest' E. rewrite EN. apply nth_upd in E as [(<- & E & _)|(Nu & E)]; [destruct (rev (members r) ++ rest); discriminate|exact (i_save _ I _ _ _ _ E)].
      * intros z r' E. apply nth_upd in E as [(<- & -> & _)|(_ & E)]; [constructor|exact (i_members _ I z r' E)].
Qed.

(** ** The other steps *)
Lemma upd_id {A} (l : list A) i x : nth_error l i = Some x -> upd l i x = l.
Proof. revert i. induction l as [|a l IH]; intros [|i] E; try discriminate; cbn [nth_error upd] in *; [congruence|]. rewrite IH by exact E. reflexivity. Qed.
Lemma inv_begin s t k' vars' :
  Inv s -> nth_error (works s) t = Some Idle -> holds k' = None -> (forall save z rest, k' <> Rel (RUnlock save) z rest) ->
  (forall z, (sumf (fv z) vars' + fd z k' = sumf (fv z) (vars s))%nat) -> (forall z, fx z k' = 0%nat) ->
  (forall v u o, u <> t -> nth_error (vars s) v = Some (Some (u, o)) -> nth_error vars' v = Some (Some (u, o))) ->
  (forall st o v, k' = Inc st o v -> nth_error vars' v = Some (Some (t, o))) ->
  Inv (State (objs s) vars' (upd (works s) t k')).
Proof.
  intros I Ew Hk NoU Fv Fx Oth Src. set (s' := State _ _ _).
  assert (EN : forall z, N s' z = N s z).
  { intros z. unfold N, refs, s'. cbn [objs vars works]. pose proof (sumf_upd (fd z) _ _ _ k' Ew) as B. cbn [fd] in B. specialize (Fv z). lia. }
  assert (EX : forall z, X s' z = X s z).
  { intros z. unfold X, s'. cbn [works]. pose proof (sumf_upd (fx z) _ _ _ k' Ew) as B. rewrite Fx in B. cbn [fx] in B. lia. }
  constructor; fields s'.
  - intros z r' E A. rewrite EN, EX. exact (i_alive _ I z r' E A).
  - intros z r' E A. rewrite EN, EX. exact (i_dead _ I z r' E A).
  - intros z E. rewrite EN, EX. exact (i_none _ I z E).
  - intros u k0 z E H. apply nth_upd in E as [(<- & -> & _)|(Nu & E)]; [congruence|]. exact (i_held _ I u k0 z E H).
  - intros z r' u E L. destruct (i_holder _ I z r' u E L) as (k0 & Ek & Hz). exists k0. split; [|exact Hz]. rewrite nth_error_upd_neq; [exact Ek|]. intros <-. rewrite Ew in Ek. inversion Ek; subst. discriminate.
  - intros u st z v E. apply nth_upd in E as [(<- & E & _)|(Nu & E)]; [exact (Src st z v (eq_sym E))|]. apply Oth; [congruence|]. exact (i_source _ I _ _ _ _ E).
  - intros u save z rest E. rewrite EN. apply nth_upd in E as [(<- & E & _)|(_ & E)]; [destruct (NoU _ _ _ (eq_sym E))|exact (i_save _ I _ _ _ _ E)].
  - exact (i_members _ I).
Qed.
Lemma idle_work s t : idle s t = true -> nth_error (works s) t = Some Idle.
Proof. unfold idle. destruct (nth_error (works s) t) as [[| |]|]; congruence. Qed.
Lemma mine_var s t v o : mine s t v = Some o -> nth_error (vars s) v = Some (Some (t, o)).
Proof. unfold mine. destruct (nth_error (vars s) v) as [[(t', o')|]|] eqn:E; try discriminate. destruct (Nat.eqb_spec t' t) as [->|]; [|discriminate]. congruence. Qed.
Lemma take_all_spec vs : forall s t os s', take_all s t vs = Some (os, s') ->
  objs s' = objs s /\ works s' = works s /\ (forall z, (sumf (fv z) (vars s') + occ z os = sumf (fv z) (vars s))%nat) /\
  (forall v u o, u <> t -> nth_error (vars s) v = Some (Some (u, o)) -> nth_error (vars s') v = Some (Some (u, o))).
Proof.
  induction vs as [|v vs IH]; intros s t os s' E; cbn [take_all] in E.
  - inversion E; subst. repeat split; auto.
  - destruct (mine s t v) as [o|] eqn:M; [|discriminate]. apply mine_var in M. destruct (take_all _ t vs) as [(os', s'')|] eqn:T; [|discriminate]. inversion E; subst.
    destruct (IH _ _ _ _ T) as (A & B & C & D). cbn [with_var objs works vars] in *. split; [exact A|]. split; [exact B|]. split.
    + intros z. specialize (C z). pose proof (sumf_upd (fv z) _ _ _ None M) as U. cbn [fv] in U. rewrite occ_cons. lia.
    + intros w u o' Nu Ew. apply D; [exact Nu|]. rewrite nth_error_upd_neq; [exact Ew|]. intros <-. congruence.
Qed.
Lemma inv_step s a s' : Inv s -> is_steal a = false -> step s a = Ok s' -> Inv s'.
Proof.
  intros I St E. destruct a as [t vs|t v|t v t'|t v|t v|t v|t]; cbn [step] in E; try discriminate St; [| | | | |exact (inv_micro s t s' I E)];
    (destruct (idle s t) eqn:Id; [|discriminate]; apply idle_work in Id).
  - destruct (take_all s t vs) as [(os, s1)|] eqn:T; [|discriminate]. apply Ok_inj in E. subst s'. destruct (take_all_spec _ _ _ _ _ T) as (A & B & C & D). rewrite A, B.
    set (n := length (objs s)). set (s' := State _ _ _). assert (Nn : nth_error (objs s) n = None) by (apply nth_error_None; unfold n; lia).
    assert (EN : forall z, N s' z = (N s z + one (n =? z))%nat).
    { intros z. unfold N, refs, s'. cbn [objs vars works]. rewrite !sumf_app, !sumf_cons. unfold fm at 2. cbn [members fv]. unfold sumf at 2 4. cbn [map list_sum fold_right]. specialize (C z). lia. }
    assert (EX : forall z, X s' z = X s z) by reflexivity.
    constructor; fields s'.
    + intros z r E Al. rewrite EN, EX. apply nth_snoc in E as [E|(-> & ->)].
      * rewrite one_other, Nat.add_0_r by congruence. exact (i_alive _ I z r E Al).
      * fold n. destruct (i_none _ I n Nn) as (-> & ->). rewrite one_refl. cbn [cnt]. split; [reflexivity|lia].
    + intros z r E Al. rewrite EN, EX. apply nth_snoc in E as [E|(-> & ->)]; [|discriminate]. rewrite one_other, Nat.add_0_r by congruence. exact (i_dead _ I z r E Al).
    + intros z E. rewrite EN, EX. apply nth_error_None in E. rewrite app_length in E. cbn [length] in E. rewrite one_other, Nat.add_0_r by (unfold n; lia). apply (i_none _ I). apply nth_error_None. lia.
    + intros u k z E H. destruct (i_held _ I u k z E H) as (r & Er & L). exists r. split; [|exact L]. rewrite nth_error_app1; [exact Er|]. apply nth_error_Some. congruence.
    + intros z r u E L. apply nth_snoc in E as [E|(-> & ->)]; [exact (i_holder _ I z r u E L)|discriminate].
    + intros u st o v E. pose proof (i_source _ I _ _ _ _ E) as V. assert (Nu : u <> t) by congruence. specialize (D v u o Nu V). rewrite nth_error_app1; [exact D|]. apply nth_error_Some. congruence.
    + intros u save z rest E. rewrite EN. assert (Nz : n <> z). { intros <-. destruct (i_held _ I u _ n E eq_refl) as (r & Er & _). congruence. } rewrite one_other, Nat.add_0_r by exact Nz. exact (i_save _ I _ _ _ _ E).
    + intros z r E. apply nth_snoc in E as [E|(-> & ->)]; [exact (i_members _ I z r E)|]. cbn [members]. apply Forall_forall. intros m Hm.
      assert (O : (1 <= occ m os)%nat) by (apply count_occ_In; exact Hm). specialize (C m).
      destruct (N_alive s m I) as (r & Er & _); [unfold N, refs; lia|]. apply nth_error_Some. congruence.
  - destruct (mine s t v) as [o|] eqn:M; [|discriminate]. apply mine_var in M. apply Ok_inj in E. subst s'. apply (inv_begin s t (Inc ILock o v) (vars s)); try assumption; try reflexivity; try discriminate.
    + intros z. cbn [fd]. lia.
    + auto.
    + intros st o' v' Q. inversion Q; subst. exact M.
  - destruct (mine s t v) as [o|] eqn:M; [|discriminate]. apply mine_var in M. apply Ok_inj in E. subst s'. unfold with_var. rewrite <- (upd_id _ _ _ Id). apply (inv_begin s t Idle); try assumption; try reflexivity; try discriminate.
    + intros z. pose proof (sumf_upd (fv z) _ _ _ (Some (t', o)) M) as U. cbn [fv fd] in *. lia.
    + intros w u o' Nu Ew. rewrite nth_error_upd_neq; [exact Ew|]. intros <-. congruence.
  - destruct (mine s t v) as [o|] eqn:M; [|discriminate]. apply mine_var in M. apply Ok_inj in E. subst s'. apply (inv_begin s t (Rel RLock o []) (upd (vars s) v None)); try assumption; try reflexivity; try discriminate.
    + intros z. pose proof (sumf_upd (fv z) _ _ _ None M) as U. cbn [fv fd occ count_occ] in *. lia.
    + intros w u o' Nu Ew. rewrite nth_error_upd_neq; [exact Ew|]. intros <-. congruence.
  - destruct (mine s t v) as [o|] eqn:M; [|discriminate]. apply mine_var in M. apply Ok_inj in E. subst s'. apply (inv_begin s t (Rel RRead o []) (upd (vars s) v None)); try assumption; try reflexivity; try discriminate.
    + intros z. pose proof (sumf_upd (fv z) _ _ _ None M) as U. cbn [fv fd occ count_occ] in *. lia.
    + intros w u o' Nu Ew. rewrite nth_error_upd_neq; [exact Ew|]. intros <-. congruence.
Qed.
Lemma nth_repeat_idle n t k : nth_error (repeat Idle n) t = Some k -> k = Idle.
Proof. intros E. apply nth_error_In, repeat_spec in E. exact E. Qed.
Lemma sumf_idle f n : f Idle = 0%nat -> sumf f (repeat Idle n) = 0%nat.
Proof. intros H. induction n as [|n IH]; [reflexivity|]. cbn [repeat]. rewrite sumf_cons, H, IH. reflexivity. Qed.
Lemma inv_start n : Inv (start n).
Proof.
  assert (EN : forall z, N (start n) z = 0%nat) by (intros z; unfold N, refs, start; cbn [objs vars works]; rewrite sumf_idle by reflexivity; reflexivity).
  assert (EX : forall z, X (start n) z = 0%nat) by (intros z; unfold X, start; cbn [works]; apply sumf_idle; reflexivity).
  constructor; unfold start at 1; cbn [objs vars works].
  - intros o r E. destruct o; discriminate.
  - intros o r E. destruct o; discriminate.
  - intros o _. auto.
  - intros t k o E H. apply nth_repeat_idle in E. subst k. discriminate.
  - intros o r t E. destruct o; discriminate.
  - intros t st o v E. apply nth_repeat_idle in E. discriminate.
  - intros t save o rest E. apply nth_repeat_idle in E. discriminate.
  - intros o r E. destruct o; discriminate.
Qed.
Definition plain (l : list label) : Prop := forallb (fun a => negb (is_steal a)) l = true.
Lemma inv_runs l : forall s s', Inv s -> plain l -> runs s l = Ok s' -> Inv s'.
Proof.
  induction l as [|a l IH]; intros s s' I P E; [cbn [runs] in E; congruence|]. cbn [runs] in E. unfold plain in P. cbn [forallb] in P. apply andb_prop in P as (Pa & P).
  apply bind_ok in E as (s1 & E1 & E). apply (IH s1 s'); [|exact P|exact E]. apply (inv_step s a s1 I); [|exact E1]. destruct (is_steal a); [discriminate|reflexivity].
Qed.

(** ** What a step may do *)
Lemma micro_safe s t : Inv s -> micro s t <> UB.
Proof.
  intros I. unfold micro. destruct (nth_error (works s) t) as [k|] eqn:Ew; [|discriminate]. destruct k as [|st o v|st o rest]; [discriminate| |].
  - pose proof (inc_N _ _ _ _ _ I Ew) as Lr. destruct (N_alive s o I) as (r & Er & Al & X0); [unfold N; lia|]. unfold locked, unlocked, touch. rewrite Er, Al. cbn [bind].
    destruct st; [destruct (lockedby r)|destruct (cnt r <? 0)|]; discriminate.
  - assert (Q : exists r, nth_error (objs s) o = Some r /\ alive r = true).
    { destruct st as [| | |save|].
      1-3: pose proof (rel_N _ _ _ _ _ I Ew Logic.I) as L; destruct (N_alive s o I L) as (r & Er & Al & _); eauto.
      - pose proof (i_save _ I _ _ _ _ Ew) as Sv. destruct (N s o) as [|n] eqn:En.
        + destruct (X_alive s o I) as (r & Er & Al & _); [|eauto]. pose proof (sumf_ge (fx o) _ _ _ Ew) as G. cbn [fx] in G. rewrite one_refl in G. destruct (Z.leb_spec save 0); [exact G|lia].
        + destruct (N_alive s o I ltac:(lia)) as (r & Er & Al & _). eauto.
      - destruct (X_alive s o I) as (r & Er & Al & _); [|eauto]. pose proof (sumf_ge (fx o) _ _ _ Ew) as G. cbn [fx] in G. rewrite one_refl in G. exact G. }
    destruct Q as (r & Er & Al). unfold locked, unlocked, touch. rewrite Er, Al. cbn [bind]. destruct st; [|destruct (lockedby r)|destruct (cnt r <? 0)| |]; discriminate.
Qed.
Lemma step_safe s a : Inv s -> is_steal a = false -> step s a <> UB.
Proof.
  intros I St. destruct a as [t vs|t v|t v t'|t v|t v|t v|t]; cbn [step]; try discriminate St; [| | | | |exact (micro_safe s t I)]; (destruct (idle s t); [|discriminate]).
  - destruct (take_all s t vs) as [(os, s1)|]; discriminate.
  - destruct (mine s t v); discriminate.
  - destruct (mine s t v); discriminate.
  - destruct (mine s t v); discriminate.
  - destruct (mine s t v); discriminate.
Qed.

(** Whatever the threads do, and in whatever order their steps come, no deleted object is touched, and so
    none is deleted twice. *)
Theorem C97_safe n l : plain l -> runs (start n) l <> UB.
Proof.
  intros P. assert (G : forall s, Inv s -> runs s l <> UB); [|exact (G _ (inv_start n))]. induction l as [|a l IH]; intros s I; [discriminate|].
  unfold plain in P. cbn [forallb] in P. apply andb_prop in P as (Pa & P). assert (St : is_steal a = false) by (destruct (is_steal a); [discriminate|reflexivity]).
  cbn [runs]. pose proof (step_safe s a I St) as Sf. destruct (step s a) as [s1| | |] eqn:E; cbn [bind]; try congruence. apply (IH P). exact (inv_step s a s1 I St E).
Qed.
Print Assumptions C97_safe.

(** What a variable points to is alive, and so is what a member of an object that is alive points to. *)
Theorem C97_alive n l s : plain l -> runs (start n) l = Ok s ->
  (forall v t o, nth_error (vars s) v = Some (Some (t, o)) -> exists r, nth_error (objs s) o = Some r /\ alive r = true) /\
  (forall p q o, nth_error (objs s) p = Some q -> alive q = true -> In o (members q) -> exists r, nth_error (objs s) o = Some r /\ alive r = true).
Proof.
  intros P E. pose proof (inv_runs l _ s (inv_start n) P E) as I. split.
  - intros v t o V. pose proof (sumf_ge (fv o) _ _ _ V) as G. cbn [fv] in G. rewrite one_refl in G. destruct (N_alive s o I) as (r & Er & Al & _); [unfold N, refs; lia|eauto].
  - intros p q o Ep _ M. pose proof (sumf_ge (fm o) _ _ _ Ep) as G. unfold fm in G at 1. apply (count_occ_In Nat.eq_dec) in M. fold (occ o (members q)) in M.
    destruct (N_alive s o I) as (r & Er & Al & _); [unfold N, refs; lia|eauto].
Qed.
Print Assumptions C97_alive.

(** ** The spec: how many pointers refer to [o] *)
Definition var_refs (s : state) (o : nat) : nat := length (filter (fun x => match x with Some (_, o') => (o' =? o)%nat | None => false end) (vars s)).
Definition member_refs (s : state) (o : nat) : nat := length (filter (fun m => (m =? o)%nat) (concat (map members (filter alive (objs s))))).
Definition quiet (s : state) : Prop := forall t k, nth_error (works s) t = Some k -> k = Idle.

Lemma var_refs_sum s o : var_refs s o = sumf (fv o) (vars s).
Proof.
  unfold var_refs. induction (vars s) as [|x l IH]; [reflexivity|]. rewrite sumf_cons, <- IH. cbn [filter]. destruct x as [(t, o')|]; cbn [fv]; [|reflexivity].
  destruct (o' =? o)%nat; reflexivity.
Qed.
Lemma occ_filter o l : length (filter (fun m => (m =? o)%nat) l) = occ o l.
Proof. induction l as [|a l IH]; [reflexivity|]. rewrite occ_cons, <- IH. cbn [filter]. destruct (a =? o)%nat; reflexivity. Qed.
Lemma member_refs_sum s o : Inv s -> member_refs s o = sumf (fm o) (objs s).
Proof.
  intros I. unfold member_refs. rewrite occ_filter. assert (D : Forall (fun r => alive r = false -> members r = []) (objs s)).
  { apply Forall_forall. intros r Hr A. apply In_nth_error in Hr as (z & Ez). apply (i_dead _ I z r Ez A). }
  induction (objs s) as [|r l IH]; [reflexivity|]. inversion D as [|? ? Dr Dl]; subst. rewrite sumf_cons, <- (IH Dl). unfold fm. cbn [filter]. destruct (alive r) eqn:A.
  - cbn [map concat]. rewrite occ_app. reflexivity.
  - rewrite (Dr eq_refl). reflexivity.
Qed.
Lemma refs_spec s o : Inv s -> refs s o = (var_refs s o + member_refs s o)%nat.
Proof. intros I. unfold refs. rewrite var_refs_sum, member_refs_sum by exact I. reflexivity. Qed.
Lemma sumf_zero {A} (f : A -> nat) l : (forall i x, nth_error l i = Some x -> f x = 0%nat) -> sumf f l = 0%nat.
Proof.
  intros H. destruct (sumf f l) eqn:E; [reflexivity|]. destruct (sumf_pos f l ltac:(lia)) as (i & x & Ei & Li). rewrite (H i x Ei) in Li. lia.
Qed.

(** Between calls an object is alive exactly while pointers refer to it, and its count is their number
    (as a short); no lock is left taken. *)
Theorem C97_count n l s o r : plain l -> runs (start n) l = Ok s -> quiet s -> nth_error (objs s) o = Some r ->
  (alive r = true <-> (1 <= var_refs s o + member_refs s o)%nat) /\
  (alive r = true -> cnt r = s16 (Z.of_nat (var_refs s o + member_refs s o)) /\ Z.of_nat (var_refs s o + member_refs s o) <= 32768 /\ lockedby r = None).
Proof.
  intros P E Q Er. pose proof (inv_runs l _ s (inv_start n) P E) as I. rewrite <- refs_spec by exact I.
  assert (EN : N s o = refs s o). { unfold N. rewrite (sumf_zero (fd o)); [lia|]. intros t k Ek. rewrite (Q t k Ek). reflexivity. }
  assert (EX : X s o = 0%nat). { unfold X. apply sumf_zero. intros t k Ek. rewrite (Q t k Ek). reflexivity. }
  split; [split|].
  - intros A. pose proof (i_alive _ I o r Er A). lia.
  - intros L. destruct (alive r) eqn:A; [reflexivity|]. pose proof (i_dead _ I o r Er A). lia.
  - intros A. destruct (i_alive _ I o r Er A) as (C & L & _). rewrite EN in C, L. split; [exact C|]. split; [exact L|].
    destruct (lockedby r) as [t|] eqn:Lk; [|reflexivity]. destruct (i_holder _ I o r t Er Lk) as (k & Ek & H). rewrite (Q t k Ek) in H. discriminate.
Qed.
Print Assumptions C97_count.

(** At any time: the count of an object alive is the number of pointers to it plus the releases begun but
    not yet counted. *)
Definition releasing (s : state) (o : nat) : nat :=
  length (filter (fun m => (m =? o)%nat)
    (concat (map (fun k => match k with Rel (RRead | RLock | RSub) o' rest => o' :: rest | Rel _ _ rest => rest | _ => [] end) (works s)))).
Lemma releasing_sum s o : releasing s o = sumf (fd o) (works s).
Proof.
  unfold releasing. rewrite occ_filter. induction (works s) as [|k l IH]; [reflexivity|]. cbn [map concat]. rewrite occ_app, sumf_cons, IH. f_equal.
  destruct k as [| |[| | | |] o' rest]; cbn [fd]; try reflexivity; apply occ_cons.
Qed.
Theorem C97_count_always n l s o r : plain l -> runs (start n) l = Ok s -> nth_error (objs s) o = Some r -> alive r = true ->
  cnt r = s16 (Z.of_nat (var_refs s o + member_refs s o + releasing s o)) /\ Z.of_nat (var_refs s o + member_refs s o + releasing s o) <= 32768.
Proof.
  intros P E Er A. pose proof (inv_runs l _ s (inv_start n) P E) as I. rewrite <- refs_spec, releasing_sum by exact I. destruct (i_alive _ I o r Er A) as (C & L & _). auto.
Qed.
Print Assumptions C97_count_always.

(** When no variable is left and nobody is at work, every object has been deleted. *)
Theorem C97_no_leak n l s : plain l -> runs (start n) l = Ok s -> quiet s -> (forall v x, nth_error (vars s) v = Some x -> x = None) ->
  forall o r, nth_error (objs s) o = Some r -> alive r = false.
Proof.
  intros P E Q V. pose proof (inv_runs l _ s (inv_start n) P E) as I.
  assert (G : forall k o r, (length (objs s) <= o + k)%nat -> nth_error (objs s) o = Some r -> alive r = false); [|intros o r; apply (G (length (objs s))); lia].
  induction k as [|k IH]; intros o r L Er.
  { assert (o < length (objs s))%nat by (apply nth_error_Some; congruence). lia. }
  destruct (alive r) eqn:A; [|reflexivity]. exfalso. apply (proj1 (proj1 (C97_count n l s o r P E Q Er))) in A. rewrite <- refs_spec in A by exact I. unfold refs in A.
  rewrite (sumf_zero (fv o)) in A; [|intros v x Ev; rewrite (V v x Ev); reflexivity]. destruct (sumf_pos (fm o) (objs s) A) as (p & q & Ep & Lp).
  unfold fm in Lp. assert (In o (members q)) as M by (apply (count_occ_In Nat.eq_dec); exact Lp).
  pose proof (i_members _ I p q Ep) as F. rewrite Forall_forall in F. specialize (F o M). assert (Dq : alive q = false) by (apply (IH p q); [lia|exact Ep]).
  destruct (i_dead _ I p q Ep Dq) as (_ & _ & Mq). rewrite Mq in M. destruct M.
Qed.
Print Assumptions C97_no_leak.

(** The assertions of incRefCnt and decRefCnt fail only for an object with 32768 pointers. *)
Theorem C97_abort n l s a : plain l -> runs (start n) l = Ok s -> is_steal a = false -> step s a = Abort ->
  exists o r, nth_error (objs s) o = Some r /\ alive r = true /\ Z.of_nat (var_refs s o + member_refs s o + releasing s o) = 32768.
Proof.
  intros P E St Ab. pose proof (inv_runs l _ s (inv_start n) P E) as I.
  assert (G : forall o r, nth_error (objs s) o = Some r -> alive r = true -> cnt r < 0 ->
    exists o r, nth_error (objs s) o = Some r /\ alive r = true /\ Z.of_nat (var_refs s o + member_refs s o + releasing s o) = 32768).
  { intros o r Er A C. exists o, r. split; [exact Er|]. split; [exact A|]. destruct (C97_count_always n l s o r P E Er A) as (Ec & L).
    destruct (Z.eq_dec (Z.of_nat (var_refs s o + member_refs s o + releasing s o)) 32768) as [|Ne]; [assumption|]. rewrite s16_id in Ec by lia. lia. }
  destruct a as [t vs|t v|t v t'|t v|t v|t v|t]; cbn [step] in Ab; try discriminate St.
  1: destruct (idle s t); [|discriminate]; destruct (take_all s t vs) as [(os, s1)|]; discriminate.
  1-4: destruct (idle s t); [|discriminate]; destruct (mine s t v); discriminate.
  unfold micro in Ab. destruct (nth_error (works s) t) as [k|] eqn:Ew; [|discriminate].
  destruct k as [|[| |] o v|[| | |save|] o rest]; try discriminate; unfold locked, unlocked, touch in Ab; destruct (nth_error (objs s) o) as [r|] eqn:Er; try discriminate; destruct (alive r) eqn:A; try discriminate; cbn [bind] in Ab.
  - destruct (lockedby r); discriminate.
  - destruct (Z.ltb_spec (cnt r) 0); [|discriminate]. exact (G o r Er A ltac:(lia)).
  - destruct (lockedby r); discriminate.
  - destruct (Z.ltb_spec (cnt r) 0); [|discriminate]. exact (G o r Er A ltac:(lia)).
Qed.
Print Assumptions C97_abort.

(** ** No deadlock, and an end *)
Theorem C97_progress n l s : plain l -> runs (start n) l = Ok s -> ~ quiet s -> exists t, micro s t <> Diverge.
Proof.
  intros P E NQ. pose proof (inv_runs l _ s (inv_start n) P E) as I.
  assert (B : exists t k, nth_error (works s) t = Some k /\ k <> Idle).
  { assert (D : forall w, (forall t k, nth_error w t = Some k -> k = Idle) \/ exists t k, nth_error w t = Some k /\ k <> Idle).
    { induction w as [|k w [IH|(t & k' & Ek & Nk)]]; [left; intros [|t] k; discriminate| |right; exists (S t), k'; auto].
      destruct k; [left; intros [|t] k; cbn [nth_error]; [congruence|apply IH]|right; exists 0%nat; eexists; split; [reflexivity|discriminate]..]. }
    destruct (D (works s)) as [H|H]; [destruct (NQ H)|exact H]. }
  destruct B as (t & k & Ek & Nk).
  assert (H1 : forall u k0 o, nth_error (works s) u = Some k0 -> holds k0 = Some o -> micro s u <> Diverge).
  { intros u k0 o Eu H. unfold micro. rewrite Eu. destruct (i_held _ I u k0 o Eu H) as (r & Er & _).
    destruct k0 as [|[| |] o' v|[| | |save|] o' rest]; try discriminate; cbn [holds] in H; inversion H; subst; unfold unlocked, touch; rewrite Er; destruct (alive r); cbn [bind]; try discriminate; destruct (cnt r <? 0); discriminate. }
  destruct (micro s t) as [s1| | |] eqn:M; [exists t; congruence|exists t; congruence|exists t; congruence|].
  unfold micro in M. rewrite Ek in M. assert (G : forall o r, nth_error (objs s) o = Some r -> lockedby r <> None -> exists u, micro s u <> Diverge).
  { intros o r Er Lk. destruct (lockedby r) as [u|] eqn:Lu; [|congruence]. destruct (i_holder _ I o r u Er Lu) as (k0 & E0 & H0). exists u. exact (H1 u k0 o E0 H0). }
  destruct k as [|[| |] o v|[| | |save|] o rest]; try congruence; unfold locked, unlocked, touch in M; destruct (nth_error (objs s) o) as [r|] eqn:Er; try discriminate; destruct (alive r) eqn:A; try discriminate; cbn [bind] in M.
  - apply (G o r Er). destruct (lockedby r); [discriminate|discriminate].
  - destruct (cnt r <? 0); discriminate.
  - apply (G o r Er). destruct (lockedby r); [discriminate|discriminate].
  - destruct (cnt r <? 0); discriminate.
Qed.
Print Assumptions C97_progress.

(** How many steps are left at most. *)
Definition left_work (k : work) : nat :=
  match k with
  | Idle => 0
  | Inc ILock _ _ => 3 | Inc IAdd _ _ => 2 | Inc IUnlock _ _ => 1
  | Rel st _ rest => (match st with RRead => 5 | RLock => 4 | RSub => 3 | RUnlock _ => 2 | RDelete => 1 end + 4 * length rest)%nat
  end.
Definition left_steps (s : state) : nat := (sumf left_work (works s) + sumf (fun r => 4 * length (members r)) (objs s))%nat.
Lemma left_next rest : left_work (next rest) = (4 * length rest)%nat.
Proof. destruct rest; cbn [next left_work length]; lia. Qed.
Lemma micro_left s t s' : micro s t = Ok s' -> (left_steps s' < left_steps s)%nat.
Proof.
  intros E. unfold micro in E. destruct (nth_error (works s) t) as [k|] eqn:Ew; [|discriminate]. set (f := fun r => (4 * length (members r))%nat).
  assert (G : forall o r r' k' vs, nth_error (objs s) o = Some r -> (f r' + left_work k' < f r + left_work k)%nat -> (left_steps (State (upd (objs s) o r') vs (upd (works s) t k')) < left_steps s)%nat).
  { intros o r r' k' vs Er L. unfold left_steps. cbn [objs works]. fold f. pose proof (sumf_upd left_work _ _ _ k' Ew). pose proof (sumf_upd f _ _ _ r' Er). lia. }
  destruct k as [|[| |] o v|[| | |save|] o rest]; try discriminate; unfold locked, unlocked, touch in E; destruct (nth_error (objs s) o) as [r|] eqn:Er; try discriminate; destruct (alive r) eqn:A; try discriminate; cbn [bind] in E.
  - destruct (lockedby r); [discriminate|]. apply Ok_inj in E. subst s'. apply (G o r _ _ _ Er). unfold f. cbn [members left_work]. lia.
  - destruct (cnt r <? 0); [discriminate|]. apply Ok_inj in E. subst s'. apply (G o r _ _ _ Er). unfold f. cbn [members left_work]. lia.
  - apply Ok_inj in E. subst s'. apply (G o r _ _ _ Er). unfold f. cbn [members left_work]. lia.
  - apply Ok_inj in E. subst s'. unfold left_steps. cbn [with_work objs works]. pose proof (sumf_upd left_work _ _ _ (Rel RLock o rest) Ew). cbn [left_work] in *. lia.
  - destruct (lockedby r); [discriminate|]. apply Ok_inj in E. subst s'. apply (G o r _ _ _ Er). unfold f. cbn [members left_work]. lia.
  - destruct (cnt r <? 0); [discriminate|]. apply Ok_inj in E. subst s'. apply (G o r _ _ _ Er). unfold f. cbn [members left_work]. lia.
  - apply Ok_inj in E. subst s'. apply (G o r _ _ _ Er). destruct (save <=? 0); [unfold f; cbn [members left_work]; lia|]. rewrite left_next. unfold f. cbn [members left_work]. lia.
  - apply Ok_inj in E. subst s'. apply (G o r _ _ _ Er). rewrite left_next, app_length, rev_length. unfold f. cbn [members left_work length]. lia.
Qed.
(** However the threads are scheduled, the calls begun come to an end after a bounded number of steps: they
    can always be completed. *)
Theorem C97_ends n l s : plain l -> runs (start n) l = Ok s ->
  (forall ts s', runs s (map LStep ts) = Ok s' -> (length ts <= left_steps s)%nat) /\
  (exists ts, (exists s', runs s (map LStep ts) = Ok s' /\ quiet s') \/ runs s (map LStep ts) = Abort).
Proof.
  intros P E. split.
  - clear P E. intros ts. revert s. induction ts as [|t ts IH]; intros s s' R; cbn [map runs length] in *; [lia|]. apply bind_ok in R as (s1 & E1 & R). cbn [step] in E1.
    pose proof (micro_left s t s1 E1). specialize (IH s1 s' R). lia.
  - remember (left_steps s) as m eqn:Hm. revert l s P E Hm. induction m as [m IH] using lt_wf_ind. intros l s P E Hm.
    assert (D : quiet s \/ ~ quiet s).
    { unfold quiet. induction (works s) as [|k w [IHw|IHw]]; [left; intros [|t] k; discriminate| |right; intros H; apply IHw; intros t; apply (H (S t))].
      destruct k; [left; intros [|t] k; cbn [nth_error]; [congruence|apply IHw]|right; intros H; specialize (H 0%nat _ eq_refl); discriminate..]. }
    destruct D as [D|D]; [exists []; left; exists s; auto|]. destruct (C97_progress n l s P E D) as (t & Mt). pose proof (inv_runs l _ s (inv_start n) P E) as I.
    destruct (micro s t) as [s1| | |] eqn:M; [|exists [t]; right; cbn [map runs step]; rewrite M; reflexivity|destruct (micro_safe s t I M)|congruence].
    assert (P1 : plain (l ++ [LStep t])) by (unfold plain in *; rewrite forallb_app, P; reflexivity).
    assert (E1 : runs (start n) (l ++ [LStep t]) = Ok s1).
    { clear - E M. revert E. generalize (start n). induction l as [|a l IHl]; intros s0 E; cbn [runs app] in *; [apply Ok_inj in E; subst; cbn [step]; rewrite M; reflexivity|].
      apply bind_ok in E as (s2 & E2 & E). rewrite E2. cbn [bind]. exact (IHl s2 E). }
    pose proof (micro_left s t s1 M) as Lt. destruct (IH (left_steps s1) ltac:(lia) _ s1 P1 E1 eq_refl) as (ts & [(s' & R & Q)|R]).
    + exists (t :: ts). left. exists s'. cbn [map runs step]. rewrite M. cbn [bind]. auto.
    + exists (t :: ts). right. cbn [map runs step]. rewrite M. cbn [bind]. exact R.
Qed.
Print Assumptions C97_ends.

(** ** Defects and limits *)
Definition copy_all (v : nat) : list label := [LCopy 0 v; LStep 0; LStep 0; LStep 0].
Lemma runs_app l : forall s l' s', runs s l = Ok s' -> runs s (l ++ l') = runs s' l'.
Proof.
  induction l as [|a l IH]; intros s l' s' E; cbn [runs app] in *; [congruence|]. apply bind_ok in E as (s1 & E1 & E). rewrite E1. cbn [bind]. exact (IH s1 l' s' E).
Qed.
Lemma many k : Z.of_nat k <= 32767 ->
  runs (start 1) (LNew 0 [] :: concat (repeat (copy_all 0) k)) = Ok (State [Object (s16 (1 + Z.of_nat k)) true None []] (repeat (Some (0%nat, 0%nat)) (1 + k)) [Idle]).
Proof.
  induction k as [|k IH]; intros L; [reflexivity|]. replace (repeat (copy_all 0) (S k)) with (repeat (copy_all 0) k ++ [copy_all 0]) by (symmetry; exact (repeat_cons k (copy_all 0))).
  rewrite concat_app. rewrite app_comm_cons. erewrite runs_app by (apply IH; lia). rewrite (s16_id (1 + Z.of_nat k)) by lia.
  cbn [concat app copy_all runs step idle works nth_error mine vars repeat Nat.add Nat.eqb bind with_work objs upd micro locked touch alive lockedby with_obj cnt members].
  replace (1 + Z.of_nat k <? 0) with false by (symmetry; apply Z.ltb_ge; lia). cbn [bind objs vars works runs step micro nth_error unlocked touch alive cnt members with_work with_obj upd lockedby].
  replace (1 + Z.of_nat (S k)) with (1 + Z.of_nat k + 1) by lia. unfold with_work, with_obj. cbn [objs vars works upd]. do 2 f_equal. exact (eq_sym (repeat_cons (S k) (Some (0%nat, 0%nat)))).
Qed.
(** Defect: the count is a short: with 32768 pointers it is negative, and the next copy, but also the
    destruction of any of them, fails an assertion. *)
Theorem C97_limit_refuted : exists l s, plain l /\ runs (start 1) l = Ok s /\ Z.of_nat (var_refs s 0) = 32768 /\
  (exists r, nth_error (objs s) 0 = Some r /\ cnt r = -32768) /\
  runs s [LCopy 0 0; LStep 0; LStep 0] = Abort /\ runs s [LDestroy 0 0; LStep 0; LStep 0] = Abort.
Proof.
  set (k := Z.to_nat 32767). exists (LNew 0 [] :: concat (repeat (copy_all 0) k)). eexists. split; [|split; [apply many; unfold k; lia|]].
  - unfold plain. cbn [forallb is_steal negb andb]. induction k as [|k IH]; [reflexivity|]. cbn [repeat concat]. rewrite forallb_app, IH. reflexivity.
  - split; [|split; [eexists; split; [reflexivity|]; cbn [cnt]; unfold k; rewrite Z2Nat.id by lia; reflexivity|]].
    + unfold var_refs. cbn [vars]. assert (G : forall m, length (filter (fun x : option (nat * nat) => match x with Some (_, o') => (o' =? 0)%nat | None => false end) (repeat (Some (0%nat, 0%nat)) m)) = m) by (induction m as [|m IHm]; [reflexivity|cbn [repeat filter Nat.eqb length]; rewrite IHm; reflexivity]).
      rewrite G. unfold k. lia.
    + replace (s16 (1 + Z.of_nat k)) with (-32768) by (unfold k; rewrite Z2Nat.id by lia; reflexivity). split; reflexivity.
Qed.
Print Assumptions C97_limit_refuted.
(** Defect: free() reads the count without the lock: another thread may be writing it at that moment. *)
Theorem C97_race_refuted : exists l s, plain l /\ runs (start 2) l = Ok s /\
  nth_error (works s) 0 = Some (Inc IAdd 0 0) /\ nth_error (works s) 1 = Some (Rel RRead 0 []).
Proof.
  exists [LNew 0 []; LCopy 0 0; LStep 0; LStep 0; LStep 0; LGive 0 1 1; LCopy 0 0; LStep 0; LFree 1 1]. eexists. split; [reflexivity|]. split; [vm_compute; reflexivity|]. split; reflexivity.
Qed.
Print Assumptions C97_race_refuted.
(** Defect: a thread that copies a variable of another thread may touch an object that has been deleted:
    the lock is inside the object. *)
Theorem C97_steal_refuted : exists l, runs (start 2) l = UB.
Proof. exists [LNew 0 []; LSteal 1 0; LDestroy 0 0; LStep 0; LStep 0; LStep 0; LStep 0; LStep 1]. vm_compute. reflexivity. Qed.
Print Assumptions C97_steal_refuted.

(** Two threads; object 1 has a pointer to object 0 as its member, both threads have a pointer to object 1
    and release it at the same time: the second one to count deletes both. *)
Example C97_ex : exists s,
  runs (start 2) [LNew 0 []; LNew 0 [0%nat]; LCopy 0 1; LStep 0; LStep 0; LStep 0; LGive 0 2 1;
                  LDestroy 0 1; LFree 1 2; LStep 1; LStep 1; LStep 1; LStep 1; LStep 0; LStep 0; LStep 0; LStep 0;
                  LStep 0; LStep 0; LStep 0; LStep 0] = Ok s /\ quiet s /\
  map alive (objs s) = [false; false] /\ vars s = [None; None; None].
Proof.
  eexists. split; [vm_compute; reflexivity|]. split; [|split; reflexivity]. intros [|[|[|t]]] k E; cbn [nth_error works] in E; congruence.
Qed.
(** While object 1 is held by one thread, the other waits. *)
Example C97_ex_waits : exists s,
  runs (start 2) [LNew 0 []; LCopy 0 0; LStep 0; LStep 0; LStep 0; LGive 0 1 1; LDestroy 0 0; LDestroy 1 1; LStep 1] = Ok s /\ step s (LStep 0) = Diverge /\ left_steps s = 7%nat.
Proof. eexists. split; [vm_compute; reflexivity|]. split; reflexivity. Qed.
