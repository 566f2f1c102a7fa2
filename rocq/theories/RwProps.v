(** Properties of RWLock (C82). *)
From Verif Require Import Base BaseFacts RwModel.
Local Open Scope nat_scope.

(** ** Specification: what a thread may believe from the calls it made *)
Inductive status := Free | Reading | Writing.
Definition after (st : status) (o : op) (v : bool) : status :=
  match o, v with
  | WLock, _ | TryW, true => Writing
  | RLock, _ | TryR, true => Reading
  | Unlock, _ => Free
  | _, _ => st
  end.
Definition status_of (t : tid) (l : list event) : status :=
  fold_left (fun st '(t', o, v) => if Nat.eqb t' t then after st o v else st) l Free.
(** Threads lock only what they have not locked, and unlock only what they have. *)
Definition proper (st : status) (o : op) : Prop := match o with Unlock => st <> Free | _ => st = Free end.
Inductive disciplined : list event -> Prop :=
| d_nil : disciplined []
| d_snoc l t o v : disciplined l -> proper (status_of t l) o -> disciplined (l ++ [(t, o, v)]).

(** ** Lemmas *)
Lemma status_snoc t l t' o v : status_of t (l ++ [(t', o, v)]) = if Nat.eqb t' t then after (status_of t l) o v else status_of t l.
Proof. unfold status_of. rewrite fold_left_app. reflexivity. Qed.
Lemma snoc_inj {A} (l l' : list A) x y : l ++ [x] = l' ++ [y] -> l = l' /\ x = y.
Proof. intros H. apply app_inj_tail in H. exact H. Qed.
Lemma disciplined_snoc l e : disciplined (l ++ [e]) -> disciplined l /\ proper (status_of (fst (fst e)) l) (snd (fst e)).
Proof.
  intros H. inversion H as [E|l' t o v D P E]; [destruct l; discriminate|]. apply snoc_inj in E. destruct E as [-> <-]. auto.
Qed.
Lemma in_remove x t l : NoDup l -> In x (remove_one t l) <-> In x l /\ x <> t.
Proof.
  induction 1 as [|y l N D IH]; cbn [remove_one In]; [tauto|]. destruct (Nat.eqb_spec y t) as [->|E].
  - split; [intros H; split; auto; intros ->; contradiction|intros [[H|H] X]; [congruence|exact H]].
  - cbn [In]. rewrite IH. split; [intros [H|H]; [subst; auto|tauto]|tauto].
Qed.
Lemma nodup_remove t l : NoDup l -> NoDup (remove_one t l).
Proof.
  induction 1 as [|y l N D IH]; cbn [remove_one]; [constructor|]. destruct (Nat.eqb_spec y t); [exact D|]. constructor; [|exact IH].
  rewrite in_remove by exact D. tauto.
Qed.
Record inv (s : rw) (l : list event) : Prop := {
  i_w : forall t, writer s = Some t <-> status_of t l = Writing;
  i_r : forall t, In t (readers s) <-> status_of t l = Reading;
  i_n : NoDup (readers s);
  i_x : writer s = None \/ readers s = [] }.
Lemma status_cases t l : status_of t l = Free \/ status_of t l = Reading \/ status_of t l = Writing.
Proof. destruct (status_of t l); auto. Qed.
Lemma inv_holds s l s' : history s l s' -> s = rw0 -> disciplined l -> inv s' l.
Proof.
  intros H. induction H as [s|s l s' t o v s2 H IH S]; intros E D.
  - subst s. constructor; cbn; auto; try (intros t; split; [discriminate|intros X; discriminate X]); try (intros t; split; [tauto|discriminate]). constructor.
  - destruct (disciplined_snoc _ _ D) as [D1 P]. cbn [fst snd] in P. specialize (IH E D1). clear E H D. destruct IH as [W R N X].
    assert (NW : o <> Unlock -> is_writer s' t = false).
    { intros NU. unfold is_writer. destruct (writer s') as [w|] eqn:EW; [|reflexivity]. destruct (Nat.eqb_spec w t) as [->|]; [|reflexivity].
      exfalso. assert (status_of t l = Writing) by (apply W; reflexivity). destruct o; cbn [proper] in P; congruence. }
    assert (LK : forall x, writer s' = None -> readers s' = [] -> status_of x l = Free).
    { intros x A B. destruct (status_cases x l) as [C|[C|C]]; auto; [apply R in C; rewrite B in C; destruct C|apply W in C; congruence]. }
    destruct o; cbn [step] in S; cbn [proper] in P.
    + rewrite NW in S by discriminate. destruct (writer s') eqn:EW; [discriminate|]. destruct (readers s') eqn:ER; [|discriminate]. injection S as <- <-.
      constructor; cbn [writer readers]; auto.
      * intros x. rewrite status_snoc. destruct (Nat.eqb_spec t x) as [->|NE]; cbn [after]; [tauto|]. rewrite LK by auto. split; intros Y; congruence.
      * intros x. rewrite status_snoc. destruct (Nat.eqb_spec t x) as [->|NE]; cbn [after In]; [split; [intros []|discriminate]|]. rewrite LK by auto. split; [intros []|discriminate].
    + rewrite NW in S by discriminate. destruct (writer s') eqn:EW; [discriminate|]. injection S as <- <-.
      constructor; cbn [writer readers]; auto.
      * intros x. rewrite status_snoc. destruct (Nat.eqb_spec t x) as [->|NE]; cbn [after]; [split; discriminate|apply W].
      * intros x. rewrite status_snoc. cbn [In]. destruct (Nat.eqb_spec t x) as [->|NE]; cbn [after]; [tauto|]. rewrite R. tauto.
      * constructor; auto. rewrite R. congruence.
    + destruct (writer s') eqn:EW; [injection S as <- <-; constructor; try rewrite EW; auto;
        [intros x; rewrite status_snoc; destruct (Nat.eqb_spec t x) as [->|]; cbn [after]; apply W
        |intros x; rewrite status_snoc; destruct (Nat.eqb_spec t x) as [->|]; cbn [after]; apply R]|].
      destruct (readers s') eqn:ER; injection S as <- <-.
      * constructor; cbn [writer readers]; auto.
        -- intros x. rewrite status_snoc. destruct (Nat.eqb_spec t x) as [->|NE]; cbn [after]; [tauto|]. rewrite LK by auto. split; intros Y; congruence.
        -- intros x. rewrite status_snoc. destruct (Nat.eqb_spec t x) as [->|NE]; cbn [after In]; [split; [intros []|discriminate]|]. rewrite LK by auto. split; [intros []|discriminate].
      * constructor; try rewrite EW; try rewrite ER; auto;
        [intros x; rewrite status_snoc; destruct (Nat.eqb_spec t x) as [->|]; cbn [after]; apply W
        |intros x; rewrite status_snoc; destruct (Nat.eqb_spec t x) as [->|]; cbn [after]; apply R].
    + destruct (writer s') eqn:EW; injection S as <- <-.
      * constructor; try rewrite EW; auto;
        [intros x; rewrite status_snoc; destruct (Nat.eqb_spec t x) as [->|]; cbn [after]; apply W
        |intros x; rewrite status_snoc; destruct (Nat.eqb_spec t x) as [->|]; cbn [after]; apply R].
      * constructor; cbn [writer readers]; auto.
        -- intros x. rewrite status_snoc. destruct (Nat.eqb_spec t x) as [->|NE]; cbn [after]; [split; discriminate|apply W].
        -- intros x. rewrite status_snoc. cbn [In]. destruct (Nat.eqb_spec t x) as [->|NE]; cbn [after]; [tauto|]. rewrite R. tauto.
        -- constructor; auto. rewrite R. congruence.
    + unfold is_writer in S. destruct (writer s') as [w|] eqn:EW.
      * destruct (Nat.eqb_spec w t) as [->|NE].
        -- injection S as <- <-. destruct X as [X|X]; [discriminate|]. constructor; cbn [writer readers]; auto.
           ++ intros x. rewrite status_snoc. destruct (Nat.eqb_spec t x) as [->|NE]; cbn [after]; [split; discriminate|]. rewrite <- W. split; intros Y; congruence.
           ++ intros x. rewrite status_snoc. destruct (Nat.eqb_spec t x) as [->|NE]; cbn [after]; [rewrite X; split; [intros []|discriminate]|apply R].
        -- destruct X as [X|X]; [discriminate|]. rewrite X in S. discriminate.
      * destruct (existsb (Nat.eqb t) (readers s')) eqn:EX; [|discriminate]. injection S as <- <-. constructor; cbn [writer readers]; auto.
        -- intros x. rewrite status_snoc. destruct (Nat.eqb_spec t x) as [->|NE]; cbn [after]; [split; discriminate|apply W].
        -- intros x. rewrite status_snoc. rewrite in_remove by exact N. destruct (Nat.eqb_spec t x) as [->|NE]; cbn [after]; [split; [intros [_ Y]; congruence|discriminate]|]. rewrite R. split; [intros [Y _]; exact Y|auto].
        -- apply nodup_remove. exact N.
Qed.

(** ** C82 *)
(** A thread that locked for writing excludes all others; readers exclude writers. *)
Theorem C82_exclusion : forall l s t t', history rw0 l s -> disciplined l -> t <> t' ->
  status_of t l = Writing -> status_of t' l = Free.
Proof.
  intros l s t t' H D N S. destruct (inv_holds _ _ _ H eq_refl D) as [W R ND X]. apply W in S.
  destruct (status_cases t' l) as [C|[C|C]]; auto; exfalso; [apply R in C|apply W in C; congruence].
  destruct X as [X|X]; [congruence|]. rewrite X in C. destruct C.
Qed.
Print Assumptions C82_exclusion.
(** A call waits exactly while a thread has the lock in a way that excludes it; the try forms tell
    exactly that; unlocking what one has always works. *)
Theorem C82_calls : forall l s t, history rw0 l s -> disciplined l ->
  let busy := exists t', status_of t' l <> Free in let written := exists t', status_of t' l = Writing in
  (status_of t l = Free ->
    (step s t WLock = Waits <-> busy) /\ (step s t RLock = Waits <-> written) /\
    (step s t TryW = Returns false s <-> busy) /\ (step s t TryR = Returns false s <-> written) /\
    (forall o, In o [WLock; RLock; TryW; TryR] -> step s t o = Waits \/ step s t o = Returns false s \/ exists s', step s t o = Returns true s') /\
    step s t TryW <> Waits /\ step s t TryR <> Waits) /\
  (status_of t l <> Free -> exists s', step s t Unlock = Returns true s').
Proof.
  intros l s t H D busy written. destruct (inv_holds _ _ _ H eq_refl D) as [W R ND X].
  assert (B : busy <-> ~ (writer s = None /\ readers s = [])).
  { unfold busy. split.
    - intros (x & Y) [A1 A2]. destruct (status_cases x l) as [C|[C|C]]; [auto|apply R in C; rewrite A2 in C; destruct C|apply W in C; congruence].
    - intros Y. destruct (writer s) as [w|] eqn:EW; [exists w; rewrite (proj1 (W w) eq_refl); discriminate|].
      destruct (readers s) as [|r rs] eqn:ER; [tauto|]. exists r. rewrite (proj1 (R r) (or_introl eq_refl)). discriminate. }
  assert (Wr : written <-> writer s <> None).
  { unfold written. split; [intros (x & Y); apply W in Y; congruence|]. intros Y. destruct (writer s) as [w|] eqn:EW; [|congruence]. exists w. apply W. reflexivity. }
  split.
  - intros F. assert (NW : is_writer s t = false).
    { unfold is_writer. destruct (writer s) as [w|] eqn:EW; [|reflexivity]. destruct (Nat.eqb_spec w t) as [->|]; [|reflexivity].
      pose proof (proj1 (W t) eq_refl). congruence. }
    assert (ALL : forall o, In o [WLock; RLock; TryW; TryR] -> step s t o = Waits \/ step s t o = Returns false s \/ exists s', step s t o = Returns true s').
    { intros o [<-|[<-|[<-|[<-|[]]]]]; cbn [step]; rewrite ?NW; destruct (writer s); eauto; destruct (readers s); eauto. }
    rewrite B, Wr. split; [|split; [|split; [|split; [|split; [exact ALL|]]]]]; cbn [step]; rewrite ?NW;
      (destruct (writer s) as [w|] eqn:EW; [|destruct (readers s) as [|r rs] eqn:ER]); split; intros Y; try discriminate; try reflexivity; try (intros [A1 A2]; discriminate);
      try (exfalso; apply Y; auto; fail); try congruence.
  - intros F. cbn [step]. unfold is_writer. destruct (status_cases t l) as [C|[C|C]]; [contradiction| |].
    + destruct (writer s) as [w|] eqn:EW.
      * destruct X as [X|X]; [discriminate|]. apply R in C. rewrite X in C. destruct C.
      * apply R in C. assert (EX : existsb (Nat.eqb t) (readers s) = true) by (apply existsb_exists; exists t; split; [exact C|apply Nat.eqb_refl]). rewrite EX. eauto.
    + apply W in C. rewrite C, Nat.eqb_refl. eauto.
Qed.
Print Assumptions C82_calls.
(** Defect: a thread that has the lock for writing and locks it again is told nothing, gets no second
    lock, and after its first unlock another thread may write while it still believes to have it. *)
Theorem C82_relock_refuted : forall o, o = WLock \/ o = RLock -> exists s,
  history rw0 [(0, WLock, true); (0, o, true); (0, Unlock, true); (1, WLock, true)] s /\ step s 0 Unlock = Undefined.
Proof.
  intros o H. exists (Rw (Some 1) []). split; [|reflexivity].
  apply (h_snoc rw0 [(0, WLock, true); (0, o, true); (0, Unlock, true)] (Rw None [])); [|reflexivity].
  apply (h_snoc rw0 [(0, WLock, true); (0, o, true)] (Rw (Some 0) [])); [|reflexivity].
  apply (h_snoc rw0 [(0, WLock, true)] (Rw (Some 0) [])); [|destruct H as [-> | ->]; reflexivity].
  apply (h_snoc rw0 [] rw0); [constructor|reflexivity].
Qed.
Print Assumptions C82_relock_refuted.
(** Defect: a thread that has the lock for reading and locks it for writing waits for ever, whatever
    the others do. *)
Theorem C82_upgrade_refuted : forall s l s' t, In t (readers s) -> history s l s' -> (forall o v, ~ In (t, o, v) l) ->
  writer s = None -> step s' t WLock = Waits.
Proof.
  intros s l s' t I H N W.
  assert (G : In t (readers s') /\ writer s' = None).
  { induction H as [s|s l s' t' o v s2 H IH S]; [auto|]. destruct IH as [A B]; auto.
    { intros o' v' Y. apply (N o' v'), in_or_app. auto. }
    assert (NT : t' <> t) by (intros ->; apply (N o v), in_or_app; right; left; reflexivity).
    assert (NR : readers s' <> []) by (intros Y; rewrite Y in A; destruct A).
    unfold step, is_writer in S. rewrite B in S. destruct o.
    - destruct (readers s'); [congruence|discriminate].
    - injection S as <- <-. cbn. auto.
    - destruct (readers s') eqn:ER; [congruence|]. injection S as <- <-. rewrite ER. auto.
    - injection S as <- <-. cbn. auto.
    - destruct (existsb (Nat.eqb t') (readers s')); [|discriminate]. injection S as <- <-. cbn [readers writer]. split; [|auto].
      clear - A NT. induction (readers s') as [|x l IH]; [destruct A|]. cbn [remove_one]. destruct (Nat.eqb_spec x t') as [->|E]; [destruct A; [congruence|auto]|]. destruct A as [A|A]; [left; auto|right; auto]. }
  destruct G as [A B]. unfold step, is_writer. rewrite B. destruct (readers s'); [destruct A|reflexivity].
Qed.
Print Assumptions C82_upgrade_refuted.
(** Defect: readers that overlap keep a writer out for ever: however many calls are made, it may still have to wait. *)
Theorem C82_starvation_refuted : forall n, exists l s, history rw0 l s /\ disciplined l /\ (n <= length l)%nat /\ step s 2 WLock = Waits.
Proof.
  assert (G : forall n, exists l s, history rw0 l s /\ disciplined l /\ (n <= length l)%nat /\ s = Rw None [0] /\ status_of 0 l = Reading /\ status_of 1 l = Free).
  { induction n as [|n (l & s & H & D & L & S & S0 & S1)].
    - exists [(0, RLock, true)], (Rw None [0]). split; [|split; [|split; [apply Nat.le_0_l|auto]]].
      + apply (h_snoc rw0 [] rw0); [constructor|reflexivity].
      + apply (d_snoc [] 0 RLock true); [constructor|reflexivity].
    - exists ((((l ++ [(1, RLock, true)]) ++ [(0, Unlock, true)]) ++ [(0, RLock, true)]) ++ [(1, Unlock, true)]), (Rw None [0]). subst s.
      split; [|split; [|split; [|split; [reflexivity|split]]]].
      + apply (h_snoc _ _ (Rw None [0; 1])); [|reflexivity]. apply (h_snoc _ _ (Rw None [1])); [|reflexivity]. apply (h_snoc _ _ (Rw None [1; 0])); [|reflexivity].
        apply (h_snoc _ _ (Rw None [0])); [exact H|reflexivity].
      + repeat apply d_snoc; auto; cbn [proper]; rewrite ?status_snoc; cbn [Nat.eqb after]; rewrite ?S0; congruence.
      + rewrite !app_length. cbn [length]. lia.
      + rewrite !status_snoc. reflexivity.
      + rewrite !status_snoc. reflexivity. }
  intros n. destruct (G n) as (l & s & H & D & L & S & _). exists l, s. subst s. auto.
Qed.
Print Assumptions C82_starvation_refuted.
Example C82_ex : exists s, history rw0 [(0, RLock, true); (1, RLock, true); (2, TryW, false); (0, Unlock, true); (1, Unlock, true); (2, TryW, true); (0, TryR, false)] s /\
  disciplined [(0, RLock, true); (1, RLock, true); (2, TryW, false); (0, Unlock, true); (1, Unlock, true); (2, TryW, true); (0, TryR, false)] /\ step s 1 RLock = Waits.
Proof.
  exists (Rw (Some 2) []). split; [|split; [|reflexivity]].
  - apply (h_snoc rw0 [(0, RLock, true); (1, RLock, true); (2, TryW, false); (0, Unlock, true); (1, Unlock, true); (2, TryW, true)] (Rw (Some 2) [])); [|reflexivity].
    apply (h_snoc rw0 [(0, RLock, true); (1, RLock, true); (2, TryW, false); (0, Unlock, true); (1, Unlock, true)] (Rw None [])); [|reflexivity].
    apply (h_snoc rw0 [(0, RLock, true); (1, RLock, true); (2, TryW, false); (0, Unlock, true)] (Rw None [1])); [|reflexivity].
    apply (h_snoc rw0 [(0, RLock, true); (1, RLock, true); (2, TryW, false)] (Rw None [1; 0])); [|reflexivity].
    apply (h_snoc rw0 [(0, RLock, true); (1, RLock, true)] (Rw None [1; 0])); [|reflexivity].
    apply (h_snoc rw0 [(0, RLock, true)] (Rw None [0])); [|reflexivity].
    apply (h_snoc rw0 [] rw0); [constructor|reflexivity].
  - apply (d_snoc [(0, RLock, true); (1, RLock, true); (2, TryW, false); (0, Unlock, true); (1, Unlock, true); (2, TryW, true)]); [|reflexivity].
    apply (d_snoc [(0, RLock, true); (1, RLock, true); (2, TryW, false); (0, Unlock, true); (1, Unlock, true)]); [|reflexivity].
    apply (d_snoc [(0, RLock, true); (1, RLock, true); (2, TryW, false); (0, Unlock, true)]); [|discriminate].
    apply (d_snoc [(0, RLock, true); (1, RLock, true); (2, TryW, false)]); [|discriminate].
    apply (d_snoc [(0, RLock, true); (1, RLock, true)]); [|reflexivity].
    apply (d_snoc [(0, RLock, true)]); [|reflexivity].
    apply (d_snoc []); [constructor|reflexivity].
Qed.
