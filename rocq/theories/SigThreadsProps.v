(** C96: UnixSignal with threads, and signals at any moment. *)
From Verif Require Import Base BaseFacts UtilsModel UtilsSpec UtilsProps SqlProofs ConfigModel PrintfModel PrintfProps SignalModel SigThreadsModel.
From Coq Require Import Permutation.
Local Open Scope Z_scope.

(** ** Independent notions *)
(** The thread has the lock of the signal. *)
Definition crit (sig : Z) (f : frame) : bool :=
  match f with
  | Reg _ s pc => (s =? sig) && match pc with RLock => false | _ => true end
  | Han s pc _ => (s =? sig) && match pc with HCall _ => true | _ => false end
  end.
Definition idle (w : world) : Prop := forall i, stack w i = [].
Definition is_reg (l : label) : bool := match l with LReg _ _ _ => true | _ => false end.
Definition is_step (l : label) : bool := match l with LStep _ => true | _ => false end.
Definition is_delivery (l : label) : bool := match l with LDeliver _ _ => true | _ => false end.
(** What the delivery with this number called. *)
Definition called_by (w : world) (id : nat) : list Z := map snd (filter (fun c => (fst c =? id)%nat) (calls w)).
(** The handlers given to Register for a signal. *)
Definition registered (sig : Z) (l : list label) : list Z :=
  flat_map (fun a => match a with LReg _ h s => if (s =? sig) && (0 <? s) && (s <? 64) then [h] else [] | _ => [] end) l.

(** ** Facts *)
Lemma setn_same {A} (f : nat -> A) i x : setn f i x i = x.
Proof. unfold setn. rewrite Nat.eqb_refl. reflexivity. Qed.
Lemma setn_other {A} (f : nat -> A) i j x : j <> i -> setn f i x j = f j.
Proof. intros H. unfold setn. apply Nat.eqb_neq in H. rewrite H. reflexivity. Qed.
Lemma setz_same {A} (f : Z -> A) i x : setz f i x i = x.
Proof. unfold setz. rewrite Z.eqb_refl. reflexivity. Qed.
Lemma setz_other {A} (f : Z -> A) i j x : j <> i -> setz f i x j = f j.
Proof. intros H. unfold setz. apply Z.eqb_neq in H. rewrite H. reflexivity. Qed.
Lemma runs_app w l l' : runs w (l ++ l') = do w <- runs w l; runs w l'.
Proof. revert w. induction l as [|a l IH]; intros w; [reflexivity|]. cbn [app runs]. destruct (step w a); [apply IH|reflexivity..]. Qed.
Lemma runs_snoc w l a : runs w (l ++ [a]) = do w <- runs w l; step w a.
Proof. rewrite runs_app. destruct (runs w l) as [x| | |]; [|reflexivity..]. cbn [bind runs]. destruct (step x a); reflexivity. Qed.

Definition cnt (s : Z) (st : list frame) : nat := length (filter (crit s) st).
Definition cntO (o : option (nat * nat)) (j : nat) : nat := match o with Some (k, n) => if (k =? j)%nat then n else 0%nat | None => 0%nat end.
Definition M (w : world) : Prop :=
  (forall s j, cnt s (stack w j) = cntO (owner w s) j) /\ (forall s j n, owner w s = Some (j, n) -> (1 <= n)%nat).
Definition T (w : world) : Prop := forall s, torn w s = true -> exists j h, In (Reg h s RLink) (stack w j).

Lemma cnt_cons s f st : cnt s (f :: st) = ((if crit s f then 1 else 0) + cnt s st)%nat.
Proof. unfold cnt. cbn [filter]. destruct (crit s f); reflexivity. Qed.
(** What a step does to the stack of its thread and to the locks. *)
Lemma M_move w w' i f g below :
  M w -> stack w i = f :: below -> stack w' = setn (stack w) i (g ++ below) -> owner w' = owner w ->
  (forall s, cnt s g = if crit s f then 1%nat else 0%nat) -> M w'.
Proof.
  intros [A B] E Hst O C. split; [|rewrite O; exact B].
  intros s j. rewrite Hst, O, <- A. destruct (Nat.eq_dec j i) as [->|N]; [|rewrite setn_other by exact N; reflexivity].
  rewrite setn_same, E, cnt_cons, <- C. unfold cnt. rewrite filter_app, app_length. reflexivity.
Qed.
Lemma M_lock w w1 w' i f g below sig :
  M w -> stack w i = f :: below -> lock w i sig = Some w1 -> stack w' = setn (stack w1) i (g :: below) -> owner w' = owner w1 ->
  (forall s, crit s f = false) -> (forall s, crit s g = (sig =? s)) -> M w'.
Proof.
  intros [A B] E L Hst O F G. unfold lock in L.
  assert (St : stack w1 = stack w) by (destruct (owner w sig) as [[k n]|]; [destruct (k =? i)%nat|]; inversion L; reflexivity).
  assert (Ow : exists n, owner w1 = setz (owner w) sig (Some (i, S n)) /\ cntO (owner w sig) i = n /\ (forall j, j <> i -> cntO (owner w sig) j = 0%nat)).
  { destruct (owner w sig) as [[k n]|] eqn:Eo; [destruct (Nat.eqb_spec k i); [|discriminate]|]; inversion L; subst.
    - exists n. cbn [with_owner owner cntO]. rewrite Nat.eqb_refl. split; [reflexivity|split; [reflexivity|]].
      intros j N. cbn [cntO]. destruct (Nat.eqb_spec i j); [congruence|reflexivity].
    - exists 0%nat. split; [reflexivity|split; [reflexivity|]]. intros; reflexivity. }
  destruct Ow as (n & Ow & C & C'). split.
  - intros s j. rewrite Hst, O, Ow, St. destruct (Z.eq_dec s sig) as [->|Ns].
    + rewrite setz_same. cbn [cntO]. destruct (Nat.eq_dec j i) as [->|N].
      * rewrite setn_same, Nat.eqb_refl, cnt_cons, G, Z.eqb_refl. specialize (A sig i). rewrite E, cnt_cons, F in A. lia.
      * rewrite setn_other by exact N. rewrite A, (C' j N). destruct (Nat.eqb_spec i j); [congruence|reflexivity].
    + rewrite setz_other by exact Ns. rewrite <- A. destruct (Nat.eq_dec j i) as [->|N]; [|rewrite setn_other by exact N; reflexivity].
      rewrite setn_same, E, !cnt_cons, F, G. destruct (Z.eqb_spec sig s); [congruence|reflexivity].
  - intros s j m. rewrite O, Ow. destruct (Z.eq_dec s sig) as [->|Ns].
    + rewrite setz_same. intros H. inversion H. lia.
    + rewrite setz_other by exact Ns. apply B.
Qed.
Lemma M_unlock w w' i f g below sig :
  M w -> stack w i = f :: below -> stack w' = setn (stack w) i (g ++ below) -> owner w' = owner (unlock w sig) ->
  (forall s, crit s f = (sig =? s)) -> (forall s, cnt s g = 0%nat) -> M w'.
Proof.
  intros [A B] E Hst O F G. pose proof (A sig i) as Ai. rewrite E, cnt_cons, F, Z.eqb_refl in Ai.
  destruct (owner w sig) as [[k n]|] eqn:Eo; [|cbn [cntO] in Ai; lia].
  cbn [cntO] in Ai. destruct (Nat.eqb_spec k i) as [->|]; [|lia].
  assert (Ow : owner (unlock w sig) = setz (owner w) sig (match n with S (S m) => Some (i, S m) | _ => None end)).
  { unfold unlock. rewrite Eo. destruct n as [|[|m]]; reflexivity. }
  assert (Gb : forall s, cnt s (g ++ below) = cnt s below).
  { intros s. unfold cnt. rewrite filter_app, app_length. specialize (G s). unfold cnt in G. rewrite G. reflexivity. }
  split.
  - intros s j. rewrite Hst, O, Ow. destruct (Z.eq_dec s sig) as [->|Ns].
    + rewrite setz_same. destruct (Nat.eq_dec j i) as [->|N].
      * rewrite setn_same, Gb. destruct n as [|[|m]]; cbn [cntO]; rewrite ?Nat.eqb_refl; lia.
      * rewrite setn_other by exact N. rewrite A, Eo. cbn [cntO]. destruct (Nat.eqb_spec i j); [congruence|].
        destruct n as [|[|m]]; cbn [cntO]; try reflexivity. destruct (Nat.eqb_spec i j); [congruence|reflexivity].
    + rewrite setz_other by exact Ns. rewrite <- A. destruct (Nat.eq_dec j i) as [->|N]; [|rewrite setn_other by exact N; reflexivity].
      rewrite setn_same, E, Gb, cnt_cons, F. destruct (Z.eqb_spec sig s); [congruence|reflexivity].
  - intros s j m. rewrite O, Ow. destruct (Z.eq_dec s sig) as [->|Ns].
    + rewrite setz_same. destruct n as [|[|m']]; intros H; inversion H. lia.
    + rewrite setz_other by exact Ns. apply B.
Qed.
Lemma raise_fields w s : lists (raise w s) = lists w /\ torn (raise w s) = torn w /\ dispo (raise w s) = dispo w /\ owner (raise w s) = owner w /\
  stack (raise w s) = stack w /\ count (raise w s) = count w /\ calls (raise w s) = calls w.
Proof. unfold raise. destruct (dispo w s); [destruct (terminates s)|..]; repeat split; reflexivity. Qed.
Lemma unlock_fields w s : lists (unlock w s) = lists w /\ torn (unlock w s) = torn w /\ dispo (unlock w s) = dispo w /\
  stack (unlock w s) = stack w /\ count (unlock w s) = count w /\ calls (unlock w s) = calls w /\ dead (unlock w s) = dead w.
Proof. unfold unlock. destruct (owner w s) as [[j [|[|n]]]|]; repeat split; reflexivity. Qed.
Lemma lock_fields w i s w' : lock w i s = Some w' -> lists w' = lists w /\ torn w' = torn w /\ dispo w' = dispo w /\
  stack w' = stack w /\ count w' = count w /\ calls w' = calls w /\ dead w' = dead w.
Proof. unfold lock. destruct (owner w s) as [[j n]|]; [destruct (j =? i)%nat|]; intros H; inversion H; subst; repeat split; reflexivity. Qed.

Lemma crit_han s sig pc id : crit s (Han sig pc id) = (sig =? s) && match pc with HCall _ => true | _ => false end.
Proof. reflexivity. Qed.
Lemma M_micro w i w' : M w -> micro w i = Ok w' -> M w'.
Proof.
  intros H E. unfold micro in E. destruct (stack w i) as [|f below] eqn:St; [discriminate|].
  destruct f as [h sig pc|sig pc id]; destruct pc.
  - destruct (lock w i sig) as [w1|] eqn:L; [|discriminate]. apply Ok_inj in E. subst w'.
    eapply (M_lock w w1); [exact H|exact St|exact L|reflexivity|reflexivity|intros; cbn [crit]; apply andb_false_r|intros; cbn [crit]; apply andb_true_r].
  - apply Ok_inj in E. subst w'. eapply (M_move w _ i _ [_]); [exact H|exact St|reflexivity|reflexivity|].
    intros s. rewrite cnt_cons. cbn [crit cnt filter length]. destruct (sig =? s); reflexivity.
  - destruct (torn w sig); [discriminate|]. apply Ok_inj in E. subst w'. eapply (M_move w _ i _ [_]); [exact H|exact St|reflexivity|reflexivity|].
    intros s. rewrite cnt_cons. cbn [crit cnt filter length]. destruct (sig =? s); reflexivity.
  - apply Ok_inj in E. subst w'. eapply (M_move w _ i _ [_]); [exact H|exact St|reflexivity|reflexivity|].
    intros s. rewrite cnt_cons. cbn [crit cnt filter length]. destruct (sig =? s); reflexivity.
  - apply Ok_inj in E. subst w'. eapply (M_unlock w _ i _ []); [exact H|exact St| | | |].
    + cbn [to stack app]. destruct (unlock_fields w sig) as (_ & _ & _ & -> & _). reflexivity.
    + reflexivity.
    + intros. cbn [crit]. apply andb_true_r.
    + intros. reflexivity.
  - apply Ok_inj in E. subst w'. eapply (M_move w _ i _ [_]); [exact H|exact St|reflexivity|reflexivity|].
    intros s. rewrite cnt_cons. cbn [crit cnt filter length]. destruct (sig =? s); reflexivity.
  - destruct (lock w i sig) as [w1|] eqn:L; [|discriminate]. apply Ok_inj in E. subst w'.
    eapply (M_lock w w1); [exact H|exact St|exact L|reflexivity|reflexivity|intros; cbn [crit]; apply andb_false_r|intros; cbn [crit]; apply andb_true_r].
  - destruct (torn w sig); [discriminate|]. destruct (nth_error (lists w sig) i0); apply Ok_inj in E; subst w'.
    + eapply (M_move w _ i _ [_]); [exact H|exact St|reflexivity|reflexivity|].
      intros s. rewrite cnt_cons. cbn [crit cnt filter length]. destruct (sig =? s); reflexivity.
    + eapply (M_unlock w _ i _ [_]); [exact H|exact St| | | |].
      * cbn [to stack app]. destruct (unlock_fields w sig) as (_ & _ & _ & -> & _). reflexivity.
      * reflexivity.
      * intros. cbn [crit]. apply andb_true_r.
      * intros s. rewrite cnt_cons. cbn [crit cnt filter length]. rewrite andb_false_r. reflexivity.
  - apply Ok_inj in E. subst w'. eapply (M_move w _ i _ [_]); [exact H|exact St|reflexivity|reflexivity|].
    intros s. rewrite cnt_cons. cbn [crit cnt filter length]. destruct (sig =? s); reflexivity.
  - apply Ok_inj in E. subst w'. eapply (M_move w _ i _ []); [exact H|exact St| | |].
    + cbn [to stack app]. destruct (raise_fields w sig) as (_ & _ & _ & _ & -> & _). reflexivity.
    + cbn [to owner]. apply raise_fields.
    + intros s. cbn [crit cnt filter length]. rewrite andb_false_r. reflexivity.
Qed.
Lemma M_step w a w' : M w -> step w a = Ok w' -> M w'.
Proof.
  intros H E. unfold step in E. destruct (dead w); [discriminate|]. destruct a as [i h sig|i|i sig].
  - destruct (stack w i) eqn:St; [|discriminate].
    assert (G : forall f, (forall s, crit s f = false) -> M (to w i [f])).
    { intros f F. destruct H as [A B]. split; [|exact B]. intros s j. cbn [to stack owner]. rewrite <- A.
      destruct (Nat.eq_dec j i) as [->|N]; [|rewrite setn_other by exact N; reflexivity]. rewrite setn_same, St, cnt_cons, F. reflexivity. }
    destruct (_ || _); apply Ok_inj in E; subst w'.
    + destruct H as [A B]. split; [|exact B]. intros s j. cbn [to stack owner]. rewrite <- A.
      destruct (Nat.eq_dec j i) as [->|N]; [|rewrite setn_other by exact N; reflexivity]. rewrite setn_same, St. reflexivity.
    + apply G. intros. cbn [crit]. apply andb_false_r.
  - exact (M_micro _ _ _ H E).
  - assert (G : forall v, owner v = owner w -> stack v = stack w -> M (to v i (stack w i))).
    { intros v Ov Sv. destruct H as [A B]. split; cbn [to stack owner]; rewrite Ov; [|exact B]. intros s j. rewrite Sv, <- A.
      destruct (Nat.eq_dec j i) as [->|N]; [|rewrite setn_other by exact N; reflexivity]. rewrite setn_same. reflexivity. }
    destruct (dispo w sig) eqn:D; [| |destruct (existsb _ _); [discriminate|]]; apply Ok_inj in E; subst w'.
    + apply G; apply raise_fields.
    + apply G; reflexivity.
    + destruct H as [A B]. split; [|exact B]. intros s j. cbn [to stack owner]. rewrite <- A.
      destruct (Nat.eq_dec j i) as [->|N]; [|rewrite setn_other by exact N; reflexivity]. rewrite setn_same, cnt_cons. cbn [crit]. rewrite andb_false_r. reflexivity.
Qed.
Lemma M_fresh : M fresh.
Proof. split; [reflexivity|discriminate]. Qed.

(** A change of the stack of [i] that replaces the top frame by frames, none of them having left the middle of an insertion. *)
Lemma in_setn (st : nat -> list frame) i new f j : In f (st j) -> (j = i -> In f new) -> In f (setn st i new j).
Proof. intros H N. destruct (Nat.eq_dec j i) as [->|X]; [rewrite setn_same; auto|rewrite setn_other by exact X; exact H]. Qed.
Lemma T_keep w w' i f below new :
  T w -> stack w i = f :: below -> torn w' = torn w -> stack w' = setn (stack w) i (new ++ below) ->
  (forall h s, f <> Reg h s RLink) -> T w'.
Proof.
  intros H St Et Es N s Hs. rewrite Et in Hs. destruct (H s Hs) as (j & h & I). exists j, h. rewrite Es. apply in_setn; [exact I|].
  intros ->. rewrite St in I. destruct I as [I|I]; [destruct (N h s I)|apply in_or_app; right; exact I].
Qed.
Lemma T_micro w i w' : T w -> micro w i = Ok w' -> T w'.
Proof.
  intros H E. unfold micro in E. destruct (stack w i) as [|f below] eqn:St; [discriminate|].
  destruct f as [h sig pc|sig pc id]; destruct pc.
  - destruct (lock w i sig) as [w1|] eqn:L; [|discriminate]. apply Ok_inj in E. subst w'. destruct (lock_fields _ _ _ _ L) as (_ & Lt & _ & Ls & _).
    eapply (T_keep w _ i _ _ [_]); [exact H|exact St|exact Lt|cbn [to stack]; rewrite Ls; reflexivity|discriminate].
  - apply Ok_inj in E. subst w'. eapply (T_keep w _ i _ _ [_]); [exact H|exact St|reflexivity|reflexivity|discriminate].
  - destruct (torn w sig) eqn:Tn; [discriminate|]. apply Ok_inj in E. subst w'. intros s Hs. cbn [to with_list torn stack] in *.
    destruct (Z.eq_dec s sig) as [->|Ns].
    + exists i, h. rewrite setn_same. left. reflexivity.
    + rewrite setz_other in Hs by exact Ns. destruct (H s Hs) as (j & h' & I). exists j, h'. apply in_setn; [exact I|]. intros ->. rewrite St in I.
      destruct I as [I|I]; [discriminate|right; exact I].
  - apply Ok_inj in E. subst w'. intros s Hs. cbn [to with_list torn stack] in *.
    destruct (Z.eq_dec s sig) as [->|Ns]; [rewrite setz_same in Hs; discriminate|].
    rewrite setz_other in Hs by exact Ns. destruct (H s Hs) as (j & h' & I). exists j, h'. apply in_setn; [exact I|]. intros ->. rewrite St in I.
    destruct I as [I|I]; [congruence|right; exact I].
  - apply Ok_inj in E. subst w'. destruct (unlock_fields w sig) as (_ & Ut & _ & Us & _).
    eapply (T_keep w _ i _ _ []); [exact H|exact St|exact Ut|cbn [to stack app]; rewrite Us; reflexivity|discriminate].
  - apply Ok_inj in E. subst w'. eapply (T_keep w _ i _ _ [_]); [exact H|exact St|reflexivity|reflexivity|discriminate].
  - destruct (lock w i sig) as [w1|] eqn:L; [|discriminate]. apply Ok_inj in E. subst w'. destruct (lock_fields _ _ _ _ L) as (_ & Lt & _ & Ls & _).
    eapply (T_keep w _ i _ _ [_]); [exact H|exact St|exact Lt|cbn [to stack]; rewrite Ls; reflexivity|discriminate].
  - destruct (torn w sig) eqn:Tn; [discriminate|]. destruct (nth_error (lists w sig) i0); apply Ok_inj in E; subst w'.
    + eapply (T_keep w _ i _ _ [_]); [exact H|exact St|reflexivity|reflexivity|discriminate].
    + destruct (unlock_fields w sig) as (_ & Ut & _ & Us & _).
      eapply (T_keep w _ i _ _ [_]); [exact H|exact St|exact Ut|cbn [to stack app]; rewrite Us; reflexivity|discriminate].
  - apply Ok_inj in E. subst w'. eapply (T_keep w _ i _ _ [_]); [exact H|exact St|reflexivity|reflexivity|discriminate].
  - apply Ok_inj in E. subst w'. destruct (raise_fields w sig) as (_ & Ut & _ & _ & Us & _).
    eapply (T_keep w _ i _ _ []); [exact H|exact St|exact Ut|cbn [to stack app]; rewrite Us; reflexivity|discriminate].
Qed.
Lemma T_step w a w' : T w -> step w a = Ok w' -> T w'.
Proof.
  intros H E. unfold step in E. destruct (dead w); [discriminate|]. destruct a as [i h sig|i|i sig].
  - destruct (stack w i) eqn:St; [|discriminate].
    assert (G : forall n, T (to w i n)).
    { intros n s Hs. destruct (H s Hs) as (j & h' & I). exists j, h'. cbn [to stack]. apply in_setn; [exact I|]. intros ->. rewrite St in I. destruct I. }
    destruct (_ || _); apply Ok_inj in E; subst w'; apply G.
  - exact (T_micro _ _ _ H E).
  - assert (G : forall v n, torn v = torn w -> stack v = stack w -> T (to v i (n ++ stack w i))).
    { intros v n Tv Sv s Hs. cbn [to torn stack] in *. rewrite Tv in Hs. destruct (H s Hs) as (j & h' & I). exists j, h'. rewrite Sv. apply in_setn; [exact I|].
      intros ->. apply in_or_app. right. exact I. }
    destruct (dispo w sig) eqn:D; [| |destruct (existsb _ _); [discriminate|]]; apply Ok_inj in E; subst w'.
    + apply (G _ []); apply raise_fields.
    + apply (G _ []); reflexivity.
    + apply (G _ [_]); reflexivity.
Qed.
Lemma MT_runs w l w' : M w -> T w -> runs w l = Ok w' -> M w' /\ T w'.
Proof.
  revert w. induction l as [|a l IH]; intros w HM HT E; [apply Ok_inj in E; subst; auto|]. cbn [runs] in E. apply bind_ok in E as (v & Ev & E).
  apply (IH v); [exact (M_step _ _ _ HM Ev)|exact (T_step _ _ _ HT Ev)|exact E].
Qed.
Lemma MT_fresh l w : runs fresh l = Ok w -> M w /\ T w.
Proof. apply MT_runs; [exact M_fresh|discriminate]. Qed.

(** ** Whatever threads and signals do *)
(** Two threads never have the lock of a signal at the same time. *)
Lemma crit_cnt s st f : In f st -> crit s f = true -> (1 <= cnt s st)%nat.
Proof.
  intros I C. unfold cnt. assert (X : In f (filter (crit s) st)) by (apply filter_In; auto). destruct (filter (crit s) st); [destruct X|cbn [length]; lia].
Qed.
Theorem C96_exclusion l w sig i j f g : runs fresh l = Ok w -> In f (stack w i) -> In g (stack w j) -> crit sig f = true -> crit sig g = true -> i = j.
Proof.
  intros R If Ig Cf Cg. destruct (MT_fresh l w R) as [[A _] _]. pose proof (crit_cnt _ _ _ If Cf) as X. pose proof (crit_cnt _ _ _ Ig Cg) as Y.
  rewrite A in X, Y. unfold cntO in X, Y. destruct (owner w sig) as [[k n]|]; [|lia].
  destruct (Nat.eqb_spec k i); [|lia]. destruct (Nat.eqb_spec k j); [congruence|lia].
Qed.
Print Assumptions C96_exclusion.
(** A list is never used in the middle of an insertion, but by a handler that interrupted that insertion. *)
Theorem C96_torn l w i : runs fresh l = Ok w -> micro w i = UB ->
  exists h sig, In (Reg h sig RLink) (tl (stack w i)) /\ match hd (Reg 0 0 RLock) (stack w i) with Han s (HCall _) _ => s = sig | Reg _ s RInsert => s = sig | _ => False end.
Proof.
  intros R U. destruct (MT_fresh l w R) as [HM HT]. unfold micro in U. destruct (stack w i) as [|f below] eqn:St; [discriminate|]. cbn [tl hd].
  assert (K : forall sig, crit sig f = true -> torn w sig = true -> (forall h, f <> Reg h sig RLink) -> exists h, In (Reg h sig RLink) below).
  { intros sig C Hs N. destruct (HT sig Hs) as (j & h & I). exists h.
    assert (i = j) as <-. { apply (C96_exclusion l w sig i j f (Reg h sig RLink) R); [rewrite St; left; reflexivity|exact I|exact C|cbn [crit]; rewrite Z.eqb_refl; reflexivity]. }
    rewrite St in I. destruct I as [I|I]; [destruct (N h I)|exact I]. }
  destruct f as [h sig pc|sig pc id]; destruct pc; try discriminate.
  - destruct (lock w i sig); discriminate.
  - destruct (torn w sig) eqn:Hs; [|discriminate]. destruct (K sig) as (h' & I); [cbn [crit]; rewrite Z.eqb_refl; reflexivity|exact Hs|discriminate|]. exists h', sig. auto.
  - destruct (lock w i sig); discriminate.
  - destruct (torn w sig) eqn:Hs; [|destruct (nth_error _ _); discriminate]. destruct (K sig) as (h' & I); [cbn [crit]; rewrite Z.eqb_refl; reflexivity|exact Hs|discriminate|]. exists h', sig. auto.
Qed.
Print Assumptions C96_torn.

(** ** Facts about numbers and dispositions *)
Definition catch (s : Z) : bool := (1 <=? s) && (s <=? 64) && negb (s =? 9) && negb (s =? 19).
Lemma signal_same d s x : catch s = true -> signal_ d s x s = x.
Proof. unfold catch, signal_. intros ->. rewrite Z.eqb_refl. reflexivity. Qed.
Lemma signal_other d s x y : y <> s -> signal_ d s x y = d y.
Proof. intros N. unfold signal_. destruct (_ && _); [|reflexivity]. apply Z.eqb_neq in N. rewrite N. reflexivity. Qed.
Lemma signal_refused d s x : catch s = false -> signal_ d s x = d.
Proof. unfold catch, signal_. intros ->. reflexivity. Qed.
Lemma signal_catch d s x y : (forall z, d z <> Dfl -> catch z = true) -> signal_ d s x y <> Dfl -> catch y = true.
Proof.
  intros H. destruct (catch s) eqn:C; [|rewrite signal_refused by exact C; apply H].
  destruct (Z.eq_dec y s) as [->|N]; [intros; exact C|rewrite signal_other by exact N; apply H].
Qed.
Definition K (w : world) : Prop :=
  (forall i s pc id, In (Han s pc id) (stack w i) -> (id < count w)%nat) /\
  (forall id h, In (id, h) (calls w) -> (id < count w)%nat) /\ (forall s, dispo w s <> Dfl -> catch s = true).
Lemma K_gen w w' i new :
  K w -> stack w' = setn (stack w) i new -> count w' = S (count w) -> calls w' = calls w ->
  (forall s pc id, In (Han s pc id) new -> (id < S (count w))%nat) -> (forall s, dispo w' s <> Dfl -> catch s = true) -> K w'.
Proof.
  intros (A & B & C) Es Ec El N D. rewrite <- Ec in N. split; [|split; [|exact D]].
  - intros j s pc id I. rewrite Es in I. destruct (Nat.eq_dec j i) as [->|X].
    + rewrite setn_same in I. exact (N _ _ _ I).
    + rewrite setn_other in I by exact X. specialize (A _ _ _ _ I). lia.
  - intros id h I. rewrite El in I. specialize (B _ _ I). lia.
Qed.
Lemma K_micro w i w' : K w -> micro w i = Ok w' -> K w'.
Proof.
  intros H E. pose proof H as (A & B & C). unfold micro in E. destruct (stack w i) as [|f below] eqn:St; [discriminate|].
  assert (Bel : forall s pc id, In (Han s pc id) below -> (id < S (count w))%nat).
  { intros s pc id I. specialize (A i s pc id ltac:(rewrite St; right; exact I)). lia. }
  assert (New : forall g, (forall s pc id, g = Han s pc id -> exists pc', In (Han s pc' id) (stack w i)) -> forall s pc id, In (Han s pc id) (g :: below) -> (id < S (count w))%nat).
  { intros g G s pc id [I|I]; [|exact (Bel _ _ _ I)]. destruct (G s pc id I) as (pc' & I'). specialize (A _ _ _ _ I'). lia. }
  destruct f as [h sig pc|sig pc id]; destruct pc.
  - destruct (lock w i sig) as [w1|] eqn:L; [|discriminate]. apply Ok_inj in E. subst w'. destruct (lock_fields _ _ _ _ L) as (_ & _ & Ld & Ls & Lc & La & _).
    eapply (K_gen w); [exact H|cbn [to stack]; rewrite Ls; reflexivity|cbn [to count]; rewrite Lc; reflexivity|exact La|apply New; discriminate|cbn [to dispo]; rewrite Ld; exact C].
  - apply Ok_inj in E. subst w'. eapply (K_gen w); [exact H|reflexivity|reflexivity|reflexivity|apply New; discriminate|]. intros s. cbn [to with_dispo dispo]. apply signal_catch. exact C.
  - destruct (torn w sig); [discriminate|]. apply Ok_inj in E. subst w'. eapply (K_gen w); [exact H|reflexivity|reflexivity|reflexivity|apply New; discriminate|exact C].
  - apply Ok_inj in E. subst w'. eapply (K_gen w); [exact H|reflexivity|reflexivity|reflexivity|apply New; discriminate|exact C].
  - apply Ok_inj in E. subst w'. destruct (unlock_fields w sig) as (_ & _ & Ud & Us & Uc & Ua & _).
    eapply (K_gen w); [exact H|cbn [to stack]; rewrite Us; reflexivity|cbn [to count]; rewrite Uc; reflexivity|exact Ua|exact Bel|cbn [to dispo]; rewrite Ud; exact C].
  - apply Ok_inj in E. subst w'. eapply (K_gen w); [exact H|reflexivity|reflexivity|reflexivity|apply New|].
    + intros s pc id' Q. inversion Q; subst. eexists. rewrite St. left. reflexivity.
    + intros s. cbn [to with_dispo dispo]. apply signal_catch. exact C.
  - destruct (lock w i sig) as [w1|] eqn:L; [|discriminate]. apply Ok_inj in E. subst w'. destruct (lock_fields _ _ _ _ L) as (_ & _ & Ld & Ls & Lc & La & _).
    eapply (K_gen w); [exact H|cbn [to stack]; rewrite Ls; reflexivity|cbn [to count]; rewrite Lc; reflexivity|exact La|apply New|cbn [to dispo]; rewrite Ld; exact C].
    intros s pc id' Q. inversion Q; subst. eexists. rewrite St. left. reflexivity.
  - destruct (torn w sig); [discriminate|]. destruct (nth_error (lists w sig) i0); apply Ok_inj in E; subst w'.
    + split; [|split; [|exact C]].
      * intros j s pc id' I. cbn [to called stack count] in *. destruct (Nat.eq_dec j i) as [->|X].
        -- rewrite setn_same in I. revert I. apply New. intros s' pc' id'' Q. inversion Q; subst. eexists. rewrite St. left. reflexivity.
        -- rewrite setn_other in I by exact X. specialize (A _ _ _ _ I). lia.
      * intros id' h I. cbn [to called calls count] in *. apply in_app_or in I as [I|[I|[]]].
        -- specialize (B _ _ I). lia.
        -- inversion I; subst. specialize (A i sig (HCall i0) id' ltac:(rewrite St; left; reflexivity)). lia.
    + destruct (unlock_fields w sig) as (_ & _ & Ud & Us & Uc & Ua & _).
      eapply (K_gen w); [exact H|cbn [to stack]; rewrite Us; reflexivity|cbn [to count]; rewrite Uc; reflexivity|exact Ua|apply New|cbn [to dispo]; rewrite Ud; exact C].
      intros s pc id' Q. inversion Q; subst. eexists. rewrite St. left. reflexivity.
  - apply Ok_inj in E. subst w'. eapply (K_gen w); [exact H|reflexivity|reflexivity|reflexivity|apply New|].
    + intros s pc id' Q. inversion Q; subst. eexists. rewrite St. left. reflexivity.
    + intros s. cbn [to with_dispo dispo]. apply signal_catch. exact C.
  - apply Ok_inj in E. subst w'. destruct (raise_fields w sig) as (_ & _ & Ud & _ & Us & Uc & Ua).
    eapply (K_gen w); [exact H|cbn [to stack]; rewrite Us; reflexivity|cbn [to count]; rewrite Uc; reflexivity|exact Ua|exact Bel|cbn [to dispo]; rewrite Ud; exact C].
Qed.
Lemma K_step w a w' : K w -> step w a = Ok w' -> K w'.
Proof.
  intros H E. pose proof H as (A & B & C). unfold step in E. destruct (dead w); [discriminate|]. destruct a as [i h sig|i|i sig].
  - destruct (stack w i) eqn:St; [|discriminate].
    destruct (_ || _); apply Ok_inj in E; subst w'; (eapply (K_gen w); [exact H|reflexivity|reflexivity|reflexivity| |exact C]).
    + intros s pc id [].
    + intros s pc id [I|[]]. discriminate.
  - exact (K_micro _ _ _ H E).
  - assert (Old : forall s pc id, In (Han s pc id) (stack w i) -> (id < S (count w))%nat). { intros s pc id I. specialize (A _ _ _ _ I). lia. }
    destruct (dispo w sig) eqn:D; [| |destruct (existsb _ _); [discriminate|]]; apply Ok_inj in E; subst w'.
    + destruct (raise_fields w sig) as (_ & _ & Ud & _ & Us & Uc & Ua).
      eapply (K_gen w); [exact H|cbn [to stack]; rewrite Us; reflexivity|cbn [to count]; rewrite Uc; reflexivity|exact Ua|exact Old|cbn [to dispo]; rewrite Ud; exact C].
    + eapply (K_gen w); [exact H|reflexivity|reflexivity|reflexivity|exact Old|exact C].
    + eapply (K_gen w); [exact H|reflexivity|reflexivity|reflexivity| |exact C]. intros s pc id [I|I]; [inversion I; lia|exact (Old _ _ _ I)].
Qed.
Lemma K_fresh l w : runs fresh l = Ok w -> K w.
Proof.
  assert (G : forall v, K v -> runs v l = Ok w -> K w).
  { induction l as [|a l IH]; intros v H E; [apply Ok_inj in E; subst; exact H|]. cbn [runs] in E. apply bind_ok in E as (u & Eu & E). exact (IH u (K_step _ _ _ H Eu) E). }
  apply G. split; [|split]; [intros i s pc id []|intros id h []|intros s D; destruct (D eq_refl)].
Qed.

(** ** Signals when nobody registers *)
Definition so_far (L : list Z) (pc : hpc) : list Z :=
  match pc with HIgnore | HLock => [] | HCall k => firstn k L | HDefault | HRaise => L end.
(** [g]: the step in which a signal was first ignored. *)
Definition above (g : Z -> option nat) (f f' : frame) : Prop :=
  match f, f' with
  | Han _ _ id, Han s' pc' id' => (id' < id)%nat /\ (pc' <> HIgnore -> forall t, g s' = Some t -> (t < id)%nat)
  | _, _ => False
  end.
Definition frame_ok (g : Z -> option nat) (w1 : world) (l : list label) (w : world) (i : nat) (f : frame) : Prop :=
  match f with
  | Reg _ _ _ => False
  | Han s pc id =>
      (count w1 <= id < count w)%nat /\ nth_error l (id - count w1) = Some (LDeliver i s) /\ catch s = true /\
      (g s = None -> pc = HIgnore) /\ (forall t, g s = Some t -> (id < t)%nat) /\
      called_by w id = so_far (lists w1 s) pc /\ match pc with HCall k => (k <= length (lists w1 s))%nat | _ => True end
  end.
Record H (w1 : world) (l : list label) (g : Z -> option nat) (w : world) : Prop := {
  h_lists : forall s, lists w s = lists w1 s;
  h_torn : forall s, torn w s = false;
  h_count : count w = (count w1 + length l)%nat;
  h_frames : forall i f, In f (stack w i) -> frame_ok g w1 l w i f;
  h_order : forall i, ForallOrdPairs (above g) (stack w i);
  h_g : forall s t, g s = Some t -> (t < count w)%nat /\ dispo w s <> Ours;
  h_none : forall s, g s = None -> dispo w s = dispo w1 s;
  h_later : forall id, (count w <= id)%nat -> called_by w id = [] }.
Lemma nth_error_snoc {A} (l : list A) a k x : nth_error l k = Some x -> nth_error (l ++ [a]) k = Some x.
Proof. intros E. rewrite nth_error_app1; [exact E|]. apply nth_error_Some. congruence. Qed.
Lemma ordpairs_inv {A} (R : A -> A -> Prop) a l : ForallOrdPairs R (a :: l) -> Forall (R a) l /\ ForallOrdPairs R l.
Proof. intros X. inversion X; auto. Qed.
Definition ext (g g' : Z -> option nat) (s : Z) (n : nat) : Prop :=
  (forall s0 t, g s0 = Some t -> g' s0 = Some t) /\ (forall s0 t, g' s0 = Some t -> g s0 = Some t \/ (g s0 = None /\ s0 = s /\ t = n)) /\ g' s <> None.
Lemma H_move w1 l g g' w w' i s pc id below new :
  H w1 l g w -> stack w i = Han s pc id :: below -> ext g g' s (count w) ->
  (new = [] \/ exists pc', new = [Han s pc' id] /\ called_by w' id = so_far (lists w1 s) pc' /\ match pc' with HCall k => (k <= length (lists w1 s))%nat | _ => True end) ->
  (forall id', id' <> id -> called_by w' id' = called_by w id') ->
  (forall z, lists w' z = lists w z) -> (forall z, torn w' z = torn w z) -> count w' = S (count w) -> stack w' = setn (stack w) i (new ++ below) ->
  (forall z t, g' z = Some t -> dispo w' z <> Ours) -> (forall z, g' z = None -> dispo w' z = dispo w z) ->
  H w1 (l ++ [LStep i]) g' w'.
Proof.
  intros Hw St (X1 & X2 & X3) New Cl Li To Co Es Dg Dn.
  assert (Mono : forall j f, In f (stack w j) -> (j <> i \/ In f below) -> frame_ok g' w1 (l ++ [LStep i]) w' j f).
  { intros j f I J. pose proof (h_frames _ _ _ _ Hw j f I) as F. destruct f as [? ? ?|s0 pc0 id0]; [exact F|]. cbn [frame_ok] in *.
    destruct F as (F1 & F2 & F3 & F4 & F5 & F6 & F7).
    assert (id0 <> id).
    { intros ->. destruct J as [J|J].
      - pose proof (h_frames _ _ _ _ Hw i (Han s pc id) ltac:(rewrite St; left; reflexivity)) as G. cbn [frame_ok] in G. destruct G as (_ & G2 & _). congruence.
      - pose proof (h_order _ _ _ _ Hw i) as O. rewrite St in O. apply ordpairs_inv in O as [O _]. rewrite Forall_forall in O. specialize (O _ J). cbn [above] in O. lia. }
    split; [lia|]. split; [apply nth_error_snoc; exact F2|]. split; [exact F3|].
    split; [intros G; apply F4; destruct (g s0) eqn:Eg; [rewrite (X1 _ _ Eg) in G; discriminate|reflexivity]|].
    split; [intros t G; destruct (X2 _ _ G) as [G'|(_ & _ & ->)]; [exact (F5 t G')|lia]|].
    rewrite Cl by assumption. auto. }
  pose proof (h_order _ _ _ _ Hw i) as O. rewrite St in O. apply ordpairs_inv in O as [O1 O2].
  assert (Pair : forall f f', (forall s0 pc0 id0, f' = Han s0 pc0 id0 -> g s0 = None -> pc0 = HIgnore) -> above g f f' -> above g' f f').
  { intros [? ? ?|s0 pc0 id0] [? ? ?|s' pc' id'] G A; cbn [above] in *; try exact A. destruct A as [A1 A2]. split; [exact A1|]. intros N t E.
    destruct (X2 _ _ E) as [E'|(E' & _ & _)]; [exact (A2 N t E')|]. destruct (N (G _ _ _ eq_refl E')). }
  assert (Fr : forall j f', In f' (stack w j) -> forall s0 pc0 id0, f' = Han s0 pc0 id0 -> g s0 = None -> pc0 = HIgnore).
  { intros j f' I s0 pc0 id0 ->. pose proof (h_frames _ _ _ _ Hw j _ I) as F. cbn [frame_ok] in F. tauto. }
  assert (Pairs : forall j st, (forall f, In f st -> In f (stack w j)) -> ForallOrdPairs (above g) st -> ForallOrdPairs (above g') st).
  { intros j st. induction st as [|f st IH]; intros S0 F; [constructor|]. apply ordpairs_inv in F as [Fa Fb]. constructor; [|apply IH; [intros; apply S0; right; assumption|exact Fb]].
    rewrite Forall_forall in *. intros f' I. apply Pair; [apply (Fr j); apply S0; right; exact I|exact (Fa _ I)]. }
  pose proof (h_frames _ _ _ _ Hw i (Han s pc id) ltac:(rewrite St; left; reflexivity)) as G. cbn [frame_ok] in G. destruct G as (G1 & G2 & G3 & G4 & G5 & G6 & G7).
  constructor.
  - intros z. rewrite Li. apply Hw.
  - intros z. rewrite To. apply Hw.
  - rewrite Co, (h_count _ _ _ _ Hw), app_length. cbn [length]. lia.
  - intros j f I. rewrite Es in I. destruct (Nat.eq_dec j i) as [->|N].
    + rewrite setn_same in I. apply in_app_or in I as [I|I]; [|apply Mono; [rewrite St; right; exact I|right; exact I]].
      destruct New as [->|(pc' & -> & New1 & New2)]; [destruct I|]. destruct I as [<-|[]]. cbn [frame_ok].
      split; [lia|]. split; [apply nth_error_snoc; exact G2|]. split; [exact G3|]. split; [intros E; destruct (X3 E)|].
      split; [|auto]. intros t E. destruct (X2 _ _ E) as [E'|(_ & _ & ->)]; [exact (G5 t E')|lia].
    + rewrite setn_other in I by exact N. apply Mono; [exact I|left; exact N].
  - intros j. rewrite Es. destruct (Nat.eq_dec j i) as [->|N].
    + rewrite setn_same.
      assert (B : ForallOrdPairs (above g') below) by (apply (Pairs i); [intros; rewrite St; right; assumption|exact O2]).
      destruct New as [->|(pc' & -> & _)]; [exact B|]. constructor; [|exact B]. rewrite Forall_forall in *. intros f' I. specialize (O1 _ I).
      pose proof (Pair _ _ (Fr i f' ltac:(rewrite St; right; exact I)) O1) as Q. destruct f'; exact Q.
    + rewrite setn_other by exact N. apply (Pairs j); [auto|apply Hw].
  - intros z t E. split; [|exact (Dg z t E)]. rewrite Co. destruct (X2 _ _ E) as [E'|(_ & _ & ->)]; [|lia]. pose proof (h_g _ _ _ _ Hw z t E'). lia.
  - intros z E. rewrite Dn by exact E. apply Hw. destruct (g z) eqn:Eg; [rewrite (X1 _ _ Eg) in E; discriminate|reflexivity].
  - intros id' L. rewrite Cl by lia. apply Hw. lia.
Qed.
Lemma ext_refl g s n t : g s = Some t -> ext g g s n.
Proof. intros E. split; [auto|split; [auto|congruence]]. Qed.
Lemma ext_set g s n : ext g (match g s with None => setz g s (Some n) | Some _ => g end) s n.
Proof.
  destruct (g s) eqn:E; [exact (ext_refl _ _ _ _ E)|]. split; [|split].
  - intros s0 t E0. rewrite setz_other; [exact E0|congruence].
  - intros s0 t E0. destruct (Z.eq_dec s0 s) as [->|N]; [rewrite setz_same in E0; inversion E0; auto|rewrite setz_other in E0 by exact N; auto].
  - rewrite setz_same. discriminate.
Qed.
Lemma called_by_app w id h id' : called_by (called w id h) id' = called_by w id' ++ (if (id =? id')%nat then [h] else []).
Proof. unfold called_by, called. cbn [calls]. rewrite filter_app, map_app. cbn [filter fst]. destruct (id =? id')%nat; reflexivity. Qed.
Lemma called_by_calls w w' id : calls w' = calls w -> called_by w' id = called_by w id.
Proof. unfold called_by. intros ->. reflexivity. Qed.
Lemma firstn_S {A} (l : list A) k x : nth_error l k = Some x -> firstn (S k) l = firstn k l ++ [x].
Proof.
  revert k. induction l as [|a l IH]; intros [|k] E; try discriminate; [inversion E; reflexivity|].
  change (a :: firstn (S k) l = a :: firstn k l ++ [x]). rewrite (IH k E). reflexivity.
Qed.
Lemma H_micro w1 l g w i w' : H w1 l g w -> micro w i = Ok w' ->
  exists g', H w1 (l ++ [LStep i]) g' w'.
Proof.
  intros Hw E. unfold micro in E. destruct (stack w i) as [|f below] eqn:St; [discriminate|].
  pose proof (h_frames _ _ _ _ Hw i f ltac:(rewrite St; left; reflexivity)) as F. destruct f as [h sig pc|s pc id]; [destruct F|]. cbn [frame_ok] in F.
  destruct F as (F1 & F2 & F3 & F4 & F5 & F6 & F7).
  assert (Some_g : pc <> HIgnore -> exists t, g s = Some t). { intros N. destruct (g s) as [t|]; [exists t; reflexivity|destruct (N (F4 eq_refl))]. }
  destruct pc as [| |k| |].
  - apply Ok_inj in E. subst w'. eexists. eapply (H_move _ _ _ _ _ _ i s HIgnore id below [Han s HLock id]); [exact Hw|exact St|apply ext_set| | | | | | | |].
    + right. eexists. split; [reflexivity|]. split; [exact F6|exact I].
    + reflexivity.
    + reflexivity.
    + reflexivity.
    + reflexivity.
    + reflexivity.
    + intros z t. cbn [to with_dispo dispo]. destruct (Z.eq_dec z s) as [->|N]; [rewrite signal_same by exact F3; discriminate|]. rewrite signal_other by exact N.
      intros G. apply (h_g _ _ _ _ Hw z t). destruct (g s); [exact G|rewrite setz_other in G by exact N; exact G].
    + intros z G. cbn [to with_dispo dispo]. apply signal_other. intros ->. destruct (g s) eqn:Eg; [congruence|rewrite setz_same in G; discriminate].
  - destruct (lock w i s) as [v|] eqn:L; [|discriminate]. apply Ok_inj in E. subst w'. destruct (lock_fields _ _ _ _ L) as (L1 & L2 & L3 & L4 & L5 & L6 & L7).
    destruct (Some_g ltac:(discriminate)) as (t & Eg). exists g.
    eapply (H_move _ _ _ _ _ _ i s HLock id below [Han s (HCall 0) id]); [exact Hw|exact St|exact (ext_refl _ _ _ _ Eg)| | | | | | | |].
    + right. eexists. split; [reflexivity|]. split; [|cbv beta iota; lia]. rewrite (called_by_calls w) by exact L6. exact F6.
    + intros. apply called_by_calls. exact L6.
    + intros. cbn [to lists]. rewrite L1. reflexivity.
    + intros. cbn [to torn]. rewrite L2. reflexivity.
    + cbn [to count]. rewrite L5. reflexivity.
    + cbn [to stack]. rewrite L4. reflexivity.
    + intros z t' G. cbn [to dispo]. rewrite L3. apply (h_g _ _ _ _ Hw z t' G).
    + intros. cbn [to dispo]. rewrite L3. reflexivity.
  - rewrite (h_torn _ _ _ _ Hw) in E. destruct (Some_g ltac:(discriminate)) as (t & Eg). exists g.
    destruct (nth_error (lists w s) k) as [h|] eqn:En; apply Ok_inj in E; subst w'; rewrite (h_lists _ _ _ _ Hw) in En.
    + eapply (H_move _ _ _ _ _ _ i s (HCall k) id below [Han s (HCall (S k)) id]); [exact Hw|exact St|exact (ext_refl _ _ _ _ Eg)| |..]; try reflexivity.
      * right. eexists. split; [reflexivity|]. split.
        -- cbn [so_far]. rewrite (firstn_S _ _ _ En). etransitivity; [exact (called_by_app w id h id)|]. rewrite Nat.eqb_refl, F6. reflexivity.
        -- apply nth_error_Some. congruence.
      * intros id' N. etransitivity; [exact (called_by_app w id h id')|]. destruct (Nat.eqb_spec id id'); [congruence|apply app_nil_r].
      * intros z t' G. apply (h_g _ _ _ _ Hw z t' G).
    + destruct (unlock_fields w s) as (L1 & L2 & L3 & L4 & L5 & L6 & L7).
      eapply (H_move _ _ _ _ _ _ i s (HCall k) id below [Han s HDefault id]); [exact Hw|exact St|exact (ext_refl _ _ _ _ Eg)| | | | | | | |].
      * right. eexists. split; [reflexivity|]. split; [|exact I]. rewrite (called_by_calls w) by exact L6. rewrite F6. cbn [so_far].
        apply nth_error_None in En. apply firstn_all2. exact En.
      * intros. apply called_by_calls. exact L6.
      * intros. cbn [to lists]. rewrite L1. reflexivity.
      * intros. cbn [to torn]. rewrite L2. reflexivity.
      * cbn [to count]. rewrite L5. reflexivity.
      * cbn [to stack]. rewrite L4. reflexivity.
      * intros z t' G. cbn [to dispo]. rewrite L3. apply (h_g _ _ _ _ Hw z t' G).
      * intros. cbn [to dispo]. rewrite L3. reflexivity.
  - apply Ok_inj in E. subst w'. destruct (Some_g ltac:(discriminate)) as (t & Eg). exists g.
    eapply (H_move _ _ _ _ _ _ i s HDefault id below [Han s HRaise id]); [exact Hw|exact St|exact (ext_refl _ _ _ _ Eg)| |..]; try reflexivity.
    + right. eexists. split; [reflexivity|]. split; [exact F6|exact I].
    + intros z t'. cbn [to with_dispo dispo]. destruct (Z.eq_dec z s) as [->|N]; [rewrite signal_same by exact F3; discriminate|]. rewrite signal_other by exact N.
      apply (h_g _ _ _ _ Hw z t').
    + intros z G. cbn [to with_dispo dispo]. apply signal_other. intros ->. congruence.
  - apply Ok_inj in E. subst w'. destruct (Some_g ltac:(discriminate)) as (t & Eg). exists g. destruct (raise_fields w s) as (L1 & L2 & L3 & _ & L4 & L5 & L6).
    eapply (H_move _ _ _ _ _ _ i s HRaise id below []); [exact Hw|exact St|exact (ext_refl _ _ _ _ Eg)| | | | | | | |].
    + left. reflexivity.
    + intros. apply called_by_calls. exact L6.
    + intros. cbn [to lists]. rewrite L1. reflexivity.
    + intros. cbn [to torn]. rewrite L2. reflexivity.
    + cbn [to count]. rewrite L5. reflexivity.
    + cbn [to stack]. rewrite L4. reflexivity.
    + intros z t' G. cbn [to dispo]. rewrite L3. apply (h_g _ _ _ _ Hw z t' G).
    + intros. cbn [to dispo]. rewrite L3. reflexivity.
Qed.
(** A delivery. *)
Lemma H_push w1 l g w w' i s new :
  H w1 l g w -> (new = [] \/ (new = [Han s HIgnore (count w)] /\ dispo w s = Ours /\ catch s = true)) ->
  (forall z, lists w' z = lists w z) -> (forall z, torn w' z = torn w z) -> count w' = S (count w) -> stack w' = setn (stack w) i (new ++ stack w i) ->
  calls w' = calls w -> dispo w' = dispo w -> H w1 (l ++ [LDeliver i s]) g w'.
Proof.
  intros Hw New Li To Co Es Ca Di.
  assert (Cl : forall id, called_by w' id = called_by w id) by (intros; apply called_by_calls; exact Ca).
  assert (Mono : forall j f, In f (stack w j) -> frame_ok g w1 (l ++ [LDeliver i s]) w' j f).
  { intros j f I. pose proof (h_frames _ _ _ _ Hw j f I) as F. destruct f as [? ? ?|s0 pc0 id0]; [exact F|]. cbn [frame_ok] in *.
    destruct F as (F1 & F2 & F3 & F4 & F5 & F6 & F7). split; [lia|]. split; [apply nth_error_snoc; exact F2|]. rewrite Cl. auto. }
  constructor.
  - intros z. rewrite Li. apply Hw.
  - intros z. rewrite To. apply Hw.
  - rewrite Co, (h_count _ _ _ _ Hw), app_length. cbn [length]. lia.
  - intros j f I. rewrite Es in I. destruct (Nat.eq_dec j i) as [->|N].
    + rewrite setn_same in I. apply in_app_or in I as [I|I]; [|apply Mono; exact I].
      destruct New as [->|(-> & D & C)]; [destruct I|]. destruct I as [<-|[]]. cbn [frame_ok].
      pose proof (h_count _ _ _ _ Hw) as Hc. split; [lia|]. split; [rewrite nth_error_app2 by lia; replace (count w - count w1 - length l)%nat with 0%nat by lia; reflexivity|].
      split; [exact C|]. split; [reflexivity|]. split; [intros t G; destruct (proj2 (h_g _ _ _ _ Hw s t G) D)|]. split; [|exact Logic.I].
      rewrite Cl. apply Hw. lia.
    + rewrite setn_other in I by exact N. apply Mono. exact I.
  - intros j. rewrite Es. destruct (Nat.eq_dec j i) as [->|N]; [|rewrite setn_other by exact N; apply Hw].
    rewrite setn_same. destruct New as [->|(-> & D & C)]; [apply Hw|]. constructor; [|apply Hw]. rewrite Forall_forall. intros f I.
    pose proof (h_frames _ _ _ _ Hw i f I) as F. destruct f as [? ? ?|s0 pc0 id0]; [exact F|]. cbn [frame_ok above] in *. split; [lia|].
    intros _ t G. apply (h_g _ _ _ _ Hw s0 t G).
  - intros z t G. rewrite Co, Di. pose proof (h_g _ _ _ _ Hw z t G). split; [lia|tauto].
  - intros z G. rewrite Di. apply Hw. exact G.
  - intros id L. rewrite Cl. apply Hw. lia.
Qed.
Lemma H_step w1 l g w a w' : H w1 l g w -> K w -> is_reg a = false -> step w a = Ok w' -> exists g', H w1 (l ++ [a]) g' w'.
Proof.
  intros Hw Hk N E. unfold step in E. destruct (dead w); [discriminate|]. destruct a as [i h s|i|i s]; [discriminate|exact (H_micro _ _ _ _ _ _ Hw E)|].
  exists g. destruct (dispo w s) eqn:D; [| |destruct (existsb _ _); [discriminate|]]; apply Ok_inj in E; subst w'.
  - destruct (raise_fields w s) as (L1 & L2 & L3 & _ & L4 & L5 & L6). eapply (H_push _ _ _ w _ i s []); [exact Hw|left; reflexivity|..]; cbn [to lists torn count stack calls dispo app]; intros; congruence.
  - eapply (H_push _ _ _ w _ i s []); [exact Hw|left; reflexivity|..]; reflexivity.
  - eapply (H_push _ _ _ w _ i s [_]); [exact Hw|right; split; [reflexivity|]; split; [exact D|]|..]; try reflexivity. apply Hk. congruence.
Qed.
Lemma H_runs w1 l w : K w1 -> T w1 -> idle w1 -> runs w1 l = Ok w -> forallb (fun a => negb (is_reg a)) l = true -> (exists g, H w1 l g w) /\ K w.
Proof.
  intros Hk Ht Hi. revert w. induction l as [|a l IH] using rev_ind; intros w E N.
  - apply Ok_inj in E. subst w. split; [|exact Hk]. exists (fun _ => None). constructor.
    + reflexivity.
    + intros s. destruct (torn w1 s) eqn:X; [|reflexivity]. destruct (Ht s X) as (j & h & I). rewrite Hi in I. destruct I.
    + cbn [length]. lia.
    + intros i f I. rewrite Hi in I. destruct I.
    + intros i. rewrite Hi. constructor.
    + discriminate.
    + reflexivity.
    + intros id L. unfold called_by. replace (filter (fun c => (fst c =? id)%nat) (calls w1)) with (@nil (nat * Z)); [reflexivity|]. symmetry.
      destruct (filter (fun c => (fst c =? id)%nat) (calls w1)) as [|[id' h] r] eqn:Ef; [reflexivity|].
      assert (X : In (id', h) (filter (fun c => (fst c =? id)%nat) (calls w1))) by (rewrite Ef; left; reflexivity).
      apply filter_In in X as [X Y]. cbn [fst] in Y. apply Nat.eqb_eq in Y. subst id'. apply Hk in X. lia.
  - rewrite runs_snoc in E. apply bind_ok in E as (v & Ev & E). rewrite forallb_app in N. apply andb_prop in N as [N1 N2]. cbn [forallb] in N2.
    destruct (IH v Ev N1) as [(g & Hg) Kv]. split; [|exact (K_step _ _ _ Kv E)]. apply (H_step _ _ g v); [exact Hg|exact Kv|destruct (is_reg a); [discriminate|reflexivity]|exact E].
Qed.
Definition no_reg (l : list label) : Prop := forallb (fun a => negb (is_reg a)) l = true.
Lemma H_start l1 w1 l w : runs fresh l1 = Ok w1 -> idle w1 -> runs w1 l = Ok w -> no_reg l -> (exists g, H w1 l g w) /\ K w /\ M w.
Proof.
  intros R I E N. pose proof (K_fresh _ _ R) as Hk. destruct (MT_fresh _ _ R) as [Hm Ht]. destruct (H_runs w1 l w Hk Ht I E N) as [Hg Kw].
  split; [exact Hg|]. split; [exact Kw|]. exact (proj1 (MT_runs _ _ _ Hm Ht E)).
Qed.
Lemma no_reg_app l l' : no_reg (l ++ l') -> no_reg l /\ no_reg l'.
Proof. unfold no_reg. rewrite forallb_app. apply andb_prop. Qed.
(** When nobody registers no list is read in the middle of a change. *)
Theorem C96_defined l1 w1 l : runs fresh l1 = Ok w1 -> idle w1 -> no_reg l -> runs w1 l <> UB.
Proof.
  intros R I. induction l as [|a l IH] using rev_ind; intros N; [discriminate|]. apply no_reg_app in N as [N1 N2]. rewrite runs_snoc.
  destruct (runs w1 l) as [v| | |] eqn:E; [|discriminate|destruct (IH N1 eq_refl)|discriminate].
  destruct (H_start _ _ _ _ R I E N1) as ((g & Hg) & _). cbn [bind]. unfold step. destruct (dead v); [discriminate|].
  destruct a as [i h s|i|i s]; [discriminate| |].
  - unfold micro. destruct (stack v i) as [|f below] eqn:St; [discriminate|].
    pose proof (h_frames _ _ _ _ Hg i f ltac:(rewrite St; left; reflexivity)) as F. destruct f as [h sig pc|s pc id]; [destruct F|].
    destruct pc; try discriminate; [destruct (lock v i s); discriminate|]. rewrite (h_torn _ _ _ _ Hg). destruct (nth_error _ _); discriminate.
  - destruct (dispo v s); [discriminate|discriminate|]. destruct (existsb _ _); discriminate.
Qed.
Print Assumptions C96_defined.

(** What becomes of a delivery. *)
Definition under_way (w : world) (i : nat) (s : Z) (id : nat) : Prop := exists pc, In (Han s pc id) (stack w i).
Lemma no_reg_one a : no_reg [a] -> is_reg a = false.
Proof. unfold no_reg. cbn [forallb]. destruct (is_reg a); [discriminate|reflexivity]. Qed.
Lemma micro_han w i s pc id below w' : stack w i = Han s pc id :: below -> micro w i = Ok w' ->
  (exists pc', stack w' = setn (stack w) i (Han s pc' id :: below)) \/ (pc = HRaise /\ stack w' = setn (stack w) i below).
Proof.
  intros St E. unfold micro in E. rewrite St in E. destruct pc as [| |k| |].
  - apply Ok_inj in E. subst w'. left. eexists. reflexivity.
  - destruct (lock w i s) as [v|] eqn:L; [|discriminate]. apply Ok_inj in E. subst w'. left. eexists. cbn [to stack]. destruct (lock_fields _ _ _ _ L) as (_ & _ & _ & -> & _). reflexivity.
  - destruct (torn w s); [discriminate|]. destruct (nth_error _ _); apply Ok_inj in E; subst w'; left; eexists; cbn [to stack]; [reflexivity|].
    destruct (unlock_fields w s) as (_ & _ & _ & -> & _). reflexivity.
  - apply Ok_inj in E. subst w'. left. eexists. reflexivity.
  - apply Ok_inj in E. subst w'. right. split; [reflexivity|]. cbn [to stack]. destruct (raise_fields w s) as (_ & _ & _ & _ & -> & _). reflexivity.
Qed.
(** The only other handler that a step adds to is the one at the top. *)
Lemma micro_calls w i w' id : micro w i = Ok w' -> called_by w' id = called_by w id \/ exists s k below, stack w i = Han s (HCall k) id :: below.
Proof.
  intros E. unfold micro in E. destruct (stack w i) as [|f below] eqn:St; [discriminate|]. destruct f as [h s pc|s pc id']; destruct pc.
  - destruct (lock w i s) as [v|] eqn:L; [|discriminate]. apply Ok_inj in E. subst w'. left. apply called_by_calls. apply (lock_fields _ _ _ _ L).
  - apply Ok_inj in E. subst w'. left. reflexivity.
  - destruct (torn w s); [discriminate|]. apply Ok_inj in E. subst w'. left. reflexivity.
  - apply Ok_inj in E. subst w'. left. reflexivity.
  - apply Ok_inj in E. subst w'. left. apply called_by_calls. apply (unlock_fields w s).
  - apply Ok_inj in E. subst w'. left. reflexivity.
  - destruct (lock w i s) as [v|] eqn:L; [|discriminate]. apply Ok_inj in E. subst w'. left. apply called_by_calls. apply (lock_fields _ _ _ _ L).
  - destruct (torn w s); [discriminate|]. destruct (nth_error _ _) as [h|]; apply Ok_inj in E; subst w'.
    + destruct (Nat.eq_dec id' id) as [->|N]; [right; eauto|]. left. etransitivity; [exact (called_by_app w id' h id)|]. destruct (Nat.eqb_spec id' id); [congruence|apply app_nil_r].
    + left. apply called_by_calls. apply (unlock_fields w s).
  - apply Ok_inj in E. subst w'. left. reflexivity.
  - apply Ok_inj in E. subst w'. left. apply called_by_calls. apply (raise_fields w s).
Qed.
Lemma deliver_fields w i s w' : step w (LDeliver i s) = Ok w' ->
  calls w' = calls w /\ ((dispo w s = Ours /\ stack w' = setn (stack w) i (Han s HIgnore (count w) :: stack w i)) \/ (dispo w s <> Ours /\ stack w' = setn (stack w) i (stack w i))).
Proof.
  unfold step. destruct (dead w); [discriminate|]. intros E. destruct (dispo w s) eqn:D; [| |destruct (existsb _ _); [discriminate|]]; apply Ok_inj in E; subst w'; cbn [to calls stack].
  - destruct (raise_fields w s) as (_ & _ & _ & _ & Rs & _ & Rc). rewrite Rs, Rc. split; [reflexivity|]. right. split; [discriminate|reflexivity].
  - split; [reflexivity|]. right. split; [discriminate|reflexivity].
  - split; [reflexivity|]. left. auto.
Qed.
(** Other frames stay when a thread moves. *)
Lemma in_setn' (st : nat -> list frame) i new f j : In f (setn st i new j) -> (j = i /\ In f new) \/ (j <> i /\ In f (st j)).
Proof. destruct (Nat.eq_dec j i) as [->|X]; [rewrite setn_same; auto|rewrite setn_other by exact X; auto]. Qed.
(** A delivery that was not taken, or is over, is never resumed. *)
Lemma gone_step w1 l g w a w' i s id : H w1 l g w -> is_reg a = false -> step w a = Ok w' -> (id < count w)%nat ->
  (forall j s0 pc, ~ In (Han s0 pc id) (stack w j)) -> (forall j s0 pc, ~ In (Han s0 pc id) (stack w' j)) /\ called_by w' id = called_by w id /\ (under_way w i s id -> False).
Proof.
  intros Hw N E Lt No. split; [|split; [|intros (pc & I); exact (No _ _ _ I)]].
  - intros j s0 pc I. destruct a as [|k|k s1]; [discriminate| |].
    + unfold step in E. destruct (dead w); [discriminate|]. pose proof E as E'. unfold micro in E'. destruct (stack w k) as [|f below] eqn:St; [discriminate|]. clear E'.
      pose proof (h_frames _ _ _ _ Hw k f ltac:(rewrite St; left; reflexivity)) as F. destruct f as [? ? ?|s2 pc2 id2]; [destruct F|].
      destruct (micro_han _ _ _ _ _ _ _ St E) as [(pc' & Es)|(_ & Es)]; rewrite Es in I; apply in_setn' in I as [(-> & I)|(_ & I)]; try exact (No _ _ _ I).
      * destruct I as [I|I]; [inversion I; subst; apply (No k s0 pc2); rewrite St; left; reflexivity|apply (No k s0 pc); rewrite St; right; exact I].
      * apply (No k s0 pc). rewrite St. right. exact I.
    + apply deliver_fields in E as (_ & [(D & Es)|(D & Es)]); rewrite Es in I; apply in_setn' in I as [(-> & I)|(_ & I)]; try exact (No _ _ _ I).
      destruct I as [I|I]; [inversion I; lia|exact (No _ _ _ I)].
  - destruct a as [|k|k s1]; [discriminate| |].
    + unfold step in E. destruct (dead w); [discriminate|]. destruct (micro_calls _ _ _ id E) as [?|(s0 & k0 & below & St)]; [assumption|].
      destruct (No k s0 (HCall k0)). rewrite St. left. reflexivity.
    + apply deliver_fields in E as (Ec & _). apply called_by_calls. exact Ec.
Qed.
Lemma under_way_step w1 l g w a w' i s id : H w1 l g w -> is_reg a = false -> step w a = Ok w' -> under_way w i s id ->
  under_way w' i s id \/ ((forall j s0 pc, ~ In (Han s0 pc id) (stack w' j)) /\ called_by w' id = lists w1 s).
Proof.
  intros Hw N E (pc & I). destruct a as [|k|k s1]; [discriminate| |].
  - unfold step in E. destruct (dead w); [discriminate|]. pose proof E as E'. unfold micro in E'. destruct (stack w k) as [|f below] eqn:St; [discriminate|]. clear E'.
    pose proof (h_frames _ _ _ _ Hw k f ltac:(rewrite St; left; reflexivity)) as F. destruct f as [? ? ?|s2 pc2 id2]; [destruct F|].
    destruct (micro_han _ _ _ _ _ _ _ St E) as [(pc' & Es)|(-> & Es)].
    + left. destruct (Nat.eq_dec i k) as [->|Ni].
      * rewrite St in I. destruct I as [I|I].
        -- inversion I; subst. exists pc'. rewrite Es, setn_same. left. reflexivity.
        -- exists pc. rewrite Es, setn_same. right. exact I.
      * exists pc. rewrite Es, setn_other by exact Ni. exact I.
    + destruct (Nat.eq_dec i k) as [->|Ni]; [|left; exists pc; rewrite Es, setn_other by exact Ni; exact I].
      rewrite St in I. destruct I as [I|I]; [|left; exists pc; rewrite Es, setn_same; exact I]. inversion I; subst. right.
      cbn [frame_ok] in F. destruct F as (F1 & F2 & F3 & F4 & F5 & F6 & F7). split.
      * intros j s0 pc0 J. rewrite Es in J. apply in_setn' in J as [(-> & J)|(Nj & J)].
        -- pose proof (h_order _ _ _ _ Hw k) as O. rewrite St in O. apply ordpairs_inv in O as [O _]. rewrite Forall_forall in O. specialize (O _ J). cbn [above] in O. lia.
        -- pose proof (h_frames _ _ _ _ Hw j _ J) as Fj. cbn [frame_ok] in Fj. destruct Fj as (_ & Fj & _). congruence.
      * destruct (micro_calls _ _ _ id E) as [->|(s0 & k0 & b & St')]; [exact F6|congruence].
  - left. apply deliver_fields in E as (_ & [(D & Es)|(D & Es)]); exists pc; rewrite Es.
    + apply in_setn; [exact I|]. intros ->. right. exact I.
    + apply in_setn; [exact I|]. intros ->. exact I.
Qed.
(** Each signal that is caught makes the thread call the handlers registered for it, all of them and in
    their order; one that is not caught calls none. *)
Theorem C96_calls l1 w1 l0 w0 i s l w : runs fresh l1 = Ok w1 -> idle w1 -> no_reg (l0 ++ LDeliver i s :: l) ->
  runs w1 l0 = Ok w0 -> runs w0 (LDeliver i s :: l) = Ok w ->
  (dispo w0 s = Ours -> (exists k, called_by w (count w0) = firstn k (lists w1 s)) /\ (~ under_way w i s (count w0) -> called_by w (count w0) = lists w1 s)) /\
  (dispo w0 s <> Ours -> called_by w (count w0) = []).
Proof.
  intros R I N E0 E.
  enough (Q : (dispo w0 s = Ours -> under_way w i s (count w0) \/ ((forall j s0 pc, ~ In (Han s0 pc (count w0)) (stack w j)) /\ called_by w (count w0) = lists w1 s)) /\
              (dispo w0 s <> Ours -> (forall j s0 pc, ~ In (Han s0 pc (count w0)) (stack w j)) /\ called_by w (count w0) = [])).
  { destruct Q as [Q1 Q2]. split; [|intros D; apply Q2; exact D]. intros D. destruct (Q1 D) as [(pc & U)|(_ & U)].
    - split; [|intros Z0; destruct Z0; exists pc; exact U].
      assert (E' : runs w1 (l0 ++ LDeliver i s :: l) = Ok w) by (rewrite runs_app, E0; exact E).
      destruct (H_start _ _ _ _ R I E' N) as ((g & Hg) & _). pose proof (h_frames _ _ _ _ Hg i _ U) as F. cbn [frame_ok] in F. destruct F as (_ & _ & _ & _ & _ & F & _). rewrite F.
      destruct pc; cbn [so_far]; [exists 0%nat; reflexivity|exists 0%nat; reflexivity|eexists; reflexivity|exists (length (lists w1 s)); symmetry; apply firstn_all|exists (length (lists w1 s)); symmetry; apply firstn_all].
    - split; [exists (length (lists w1 s)); rewrite firstn_all; exact U|intros; exact U]. }
  revert w E. induction l as [|a l IH] using rev_ind; intros w E.
  - cbn [runs] in E. apply bind_ok in E as (v & E & Ev). apply Ok_inj in Ev. subst v. apply no_reg_app in N as [N _].
    destruct (H_start _ _ _ _ R I E0 N) as ((g & Hg) & Kw & _). destruct (deliver_fields _ _ _ _ E) as (Ec & [(D & Es)|(D & Es)]); (split; intros D'; [|]); try congruence.
    + left. exists HIgnore. rewrite Es, setn_same. left. reflexivity.
    + split; [|rewrite (called_by_calls w0) by exact Ec; apply Hg; lia]. intros j s0 pc J. rewrite Es in J. apply in_setn' in J as [(-> & J)|(_ & J)]; apply Kw in J; lia.
  - change (LDeliver i s :: l ++ [a]) with ((LDeliver i s :: l) ++ [a]) in *. rewrite app_assoc in N. apply no_reg_app in N as [N Na]. apply no_reg_one in Na.
    rewrite runs_snoc in E. apply bind_ok in E as (v & Ev & E). destruct (IH N v Ev) as [Q1 Q2].
    assert (E' : runs w1 (l0 ++ LDeliver i s :: l) = Ok v) by (rewrite runs_app, E0; exact Ev).
    destruct (H_start _ _ _ _ R I E' N) as ((g & Hg) & _).
    assert (Lt : (count w0 < count v)%nat).
    { apply no_reg_app in N as [N _]. destruct (H_start _ _ _ _ R I E0 N) as ((g0 & Hg0) & _). rewrite (h_count _ _ _ _ Hg), (h_count _ _ _ _ Hg0), app_length. cbn [length]. lia. }
    split; intros D.
    + destruct (Q1 D) as [U|(U1 & U2)]; [exact (under_way_step _ _ _ _ _ _ _ _ _ Hg Na E U)|]. right.
      destruct (gone_step _ _ _ _ _ _ i s _ Hg Na E Lt U1) as (G1 & G2 & _). rewrite G2. auto.
    + destruct (Q2 D) as (U1 & U2). destruct (gone_step _ _ _ _ _ _ i s _ Hg Na E Lt U1) as (G1 & G2 & _). rewrite G2. auto.
Qed.
Print Assumptions C96_calls.

(** ** No deadlock *)
Lemma cnt_in s st : (1 <= cnt s st)%nat -> exists f, In f st /\ crit s f = true.
Proof.
  unfold cnt. intros L. destruct (filter (crit s) st) as [|f r] eqn:E; [cbn [length] in L; lia|].
  assert (X : In f (filter (crit s) st)) by (rewrite E; left; reflexivity). apply filter_In in X. eauto.
Qed.
Lemma waits w i s id below : M w -> stack w i = Han s HLock id :: below -> (forall w', micro w i <> Ok w') -> exists j f, j <> i /\ In f (stack w j) /\ crit s f = true.
Proof.
  intros [A B] St N. unfold micro in N. rewrite St in N. unfold lock in N. destruct (owner w s) as [[j n]|] eqn:O; [|destruct (N _ eq_refl)].
  destruct (Nat.eqb_spec j i) as [->|Nj]; [destruct (N _ eq_refl)|]. exists j. destruct (cnt_in s (stack w j)) as (f & I & C).
  - rewrite A, O. cbn [cntO]. rewrite Nat.eqb_refl. exact (B _ _ _ O).
  - exists f. auto.
Qed.
Lemma can_step w1 l g w i s pc id below : H w1 l g w -> stack w i = Han s pc id :: below -> pc <> HLock -> exists w', micro w i = Ok w'.
Proof.
  intros Hw St N. unfold micro. rewrite St. destruct pc as [| |k| |]; [eauto|congruence| |eauto|eauto]. rewrite (h_torn _ _ _ _ Hw). destruct (nth_error _ _); eauto.
Qed.
Lemma no_cycle w1 l g w : H w1 l g w -> M w -> forall n i s id below t, stack w i = Han s HLock id :: below -> g s = Some t -> (count w - t <= n)%nat ->
  exists j w', micro w j = Ok w'.
Proof.
  intros Hw Hm. induction n as [|n IH]; intros i s id below t St Eg L.
  { pose proof (h_g _ _ _ _ Hw s t Eg). lia. }
  destruct (micro w i) as [w'| | |] eqn:Em; [eauto|..].
  all: destruct (waits _ _ _ _ _ Hm St ltac:(intros w' Q; congruence)) as (j & f & Nj & I & C).
  all: destruct (stack w j) as [|top r] eqn:Sj; [destruct I|].
  all: pose proof (h_frames _ _ _ _ Hw j top ltac:(rewrite Sj; left; reflexivity)) as F; destruct top as [? ? ?|s' pc' id']; [destruct F|].
  all: cbn [frame_ok] in F; destruct F as (F1 & F2 & F3 & F4 & F5 & F6 & F7).
  all: assert (D : pc' = HLock \/ pc' <> HLock) by (destruct pc'; (left; reflexivity) || (right; discriminate)).
  all: destruct D as [->|D]; [|destruct (can_step _ _ _ _ _ _ _ _ _ Hw Sj D) as (w' & E'); eauto].
  all: destruct (g s') as [t'|] eqn:Eg'; [|specialize (F4 eq_refl); discriminate].
  all: apply (IH j s' id' r t' Sj Eg'); specialize (F5 t' eq_refl).
  all: destruct I as [<-|I]; [cbn [crit] in C; rewrite andb_false_r in C; discriminate|].
  all: pose proof (h_order _ _ _ _ Hw j) as O; rewrite Sj in O; apply ordpairs_inv in O as [O _]; rewrite Forall_forall in O; specialize (O _ I).
  all: pose proof (h_frames _ _ _ _ Hw j f ltac:(rewrite Sj; right; exact I)) as Ff; destruct f as [? ? ?|s2 pc2 id2]; [destruct Ff|].
  all: cbn [crit] in C; apply andb_prop in C as [C1 C2]; apply Z.eqb_eq in C1; subst s2; cbn [above] in O; destruct O as [_ O].
  all: assert (P : pc2 <> HIgnore) by (intros ->; discriminate); specialize (O P t Eg); lia.
Qed.
(** As long as a handler is under way some thread can go on. *)
Theorem C96_progress l1 w1 l w i : runs fresh l1 = Ok w1 -> idle w1 -> runs w1 l = Ok w -> no_reg l -> stack w i <> [] -> exists j w', micro w j = Ok w'.
Proof.
  intros R I E N Ne. destruct (H_start _ _ _ _ R I E N) as ((g & Hg) & _ & Hm). destruct (stack w i) as [|f below] eqn:St; [congruence|].
  pose proof (h_frames _ _ _ _ Hg i f ltac:(rewrite St; left; reflexivity)) as F. destruct f as [? ? ?|s pc id]; [destruct F|]. cbn [frame_ok] in F.
  destruct F as (_ & _ & _ & F4 & _).
  assert (D : pc = HLock \/ pc <> HLock) by (destruct pc; (left; reflexivity) || (right; discriminate)).
  destruct D as [->|D]; [|destruct (can_step _ _ _ _ _ _ _ _ _ Hg St D) as (w' & E'); eauto].
  destruct (g s) as [t|] eqn:Eg; [|specialize (F4 eq_refl); discriminate]. exact (no_cycle _ _ _ _ Hg Hm _ _ _ _ _ _ St Eg (Nat.le_refl _)).
Qed.
Print Assumptions C96_progress.

(** ** The end *)
Definition rem (L : Z -> list Z) (f : frame) : nat :=
  match f with
  | Reg _ _ _ => 0
  | Han s pc _ => match pc with HIgnore => 6 + length (L s) | HLock => 5 + length (L s) | HCall k => 4 + (length (L s) - k) | HDefault => 2 | HRaise => 1 end
  end%nat.
Definition total (L : Z -> list Z) (w : world) (ts : list nat) : nat := list_sum (map (fun i => list_sum (map (rem L) (stack w i))) ts).
Lemma micro_rem w1 l g w i w' : H w1 l g w -> micro w i = Ok w' ->
  exists new, stack w' = setn (stack w) i new /\ (list_sum (map (rem (lists w1)) new) < list_sum (map (rem (lists w1)) (stack w i)))%nat.
Proof.
  intros Hw E. unfold micro in E. destruct (stack w i) as [|f below] eqn:St; [discriminate|].
  pose proof (h_frames _ _ _ _ Hw i f ltac:(rewrite St; left; reflexivity)) as F. destruct f as [? ? ?|s pc id]; [destruct F|]. cbn [frame_ok] in F.
  destruct F as (_ & _ & _ & _ & _ & _ & F7). destruct pc as [| |k| |].
  - apply Ok_inj in E. subst w'. eexists. split; [reflexivity|]. cbn [map list_sum fold_right rem]. lia.
  - destruct (lock w i s) as [v|] eqn:L; [|discriminate]. apply Ok_inj in E. subst w'. eexists. cbn [to stack]. destruct (lock_fields _ _ _ _ L) as (_ & _ & _ & -> & _).
    split; [reflexivity|]. cbn [map list_sum fold_right rem]. lia.
  - destruct (torn w s); [discriminate|]. rewrite (h_lists _ _ _ _ Hw) in E. destruct (nth_error _ _) eqn:En; apply Ok_inj in E; subst w'; eexists; cbn [to stack].
    + split; [reflexivity|]. cbn [map list_sum fold_right rem]. assert (k < length (lists w1 s))%nat by (apply nth_error_Some; congruence). lia.
    + destruct (unlock_fields w s) as (_ & _ & _ & -> & _). split; [reflexivity|]. cbn [map list_sum fold_right rem]. lia.
  - apply Ok_inj in E. subst w'. eexists. split; [reflexivity|]. cbn [map list_sum fold_right rem]. lia.
  - apply Ok_inj in E. subst w'. eexists. cbn [to stack]. destruct (raise_fields w s) as (_ & _ & _ & _ & -> & _). split; [reflexivity|]. cbn [map list_sum fold_right rem]. unfold list_sum. lia.
Qed.
Lemma sum_le {A} (f g : A -> nat) ts : (forall x, In x ts -> (f x <= g x)%nat) -> (list_sum (map f ts) <= list_sum (map g ts))%nat.
Proof. induction ts as [|a ts IH]; intros F; [apply Nat.le_refl|]. cbn [map list_sum fold_right]. pose proof (F a (or_introl eq_refl)). specialize (IH (fun x I => F x (or_intror I))). unfold list_sum in IH. lia. Qed.
Lemma sum_lt {A} (f g : A -> nat) ts i : (forall x, (f x <= g x)%nat) -> In i ts -> (f i < g i)%nat -> (list_sum (map f ts) < list_sum (map g ts))%nat.
Proof.
  induction ts as [|a ts IH]; intros F I L; [destruct I|]. cbn [map list_sum fold_right]. pose proof (F a). destruct I as [->|I].
  - pose proof (sum_le f g ts (fun x _ => F x)) as Q. unfold list_sum in Q. lia.
  - specialize (IH F I L). unfold list_sum in IH. lia.
Qed.
Lemma step_stack w a w' : step w a = Ok w' -> exists i new, stack w' = setn (stack w) i new.
Proof.
  unfold step. destruct (dead w); [discriminate|]. intros E. destruct a as [i h s|i|i s]; exists i.
  - destruct (stack w i); [|discriminate]. destruct (_ || _); apply Ok_inj in E; subst w'; eexists; reflexivity.
  - unfold micro in E. destruct (stack w i) as [|f below]; [discriminate|]. destruct f as [h s pc|s pc id]; destruct pc.
    + destruct (lock w i s) as [v|] eqn:L; [|discriminate]. apply Ok_inj in E. subst w'. eexists. cbn [to stack]. destruct (lock_fields _ _ _ _ L) as (_ & _ & _ & -> & _). reflexivity.
    + apply Ok_inj in E. subst w'. eexists. reflexivity.
    + destruct (torn w s); [discriminate|]. apply Ok_inj in E. subst w'. eexists. reflexivity.
    + apply Ok_inj in E. subst w'. eexists. reflexivity.
    + apply Ok_inj in E. subst w'. eexists. cbn [to stack]. destruct (unlock_fields w s) as (_ & _ & _ & -> & _). reflexivity.
    + apply Ok_inj in E. subst w'. eexists. reflexivity.
    + destruct (lock w i s) as [v|] eqn:L; [|discriminate]. apply Ok_inj in E. subst w'. eexists. cbn [to stack]. destruct (lock_fields _ _ _ _ L) as (_ & _ & _ & -> & _). reflexivity.
    + destruct (torn w s); [discriminate|]. destruct (nth_error _ _); apply Ok_inj in E; subst w'; eexists; cbn [to stack]; [reflexivity|].
      destruct (unlock_fields w s) as (_ & _ & _ & -> & _). reflexivity.
    + apply Ok_inj in E. subst w'. eexists. reflexivity.
    + apply Ok_inj in E. subst w'. eexists. cbn [to stack]. destruct (raise_fields w s) as (_ & _ & _ & _ & -> & _). reflexivity.
  - destruct (dispo w s); [| |destruct (existsb _ _); [discriminate|]]; apply Ok_inj in E; subst w'; eexists; cbn [to stack]; [|reflexivity|reflexivity].
    destruct (raise_fields w s) as (_ & _ & _ & _ & -> & _). reflexivity.
Qed.
Lemma finite_threads w l w' : idle w -> runs w l = Ok w' -> exists ts, forall i, stack w' i <> [] -> In i ts.
Proof.
  intros I. revert w'. induction l as [|a l IH] using rev_ind; intros w' E.
  - apply Ok_inj in E. subst w'. exists []. intros i N. destruct (N (I i)).
  - rewrite runs_snoc in E. apply bind_ok in E as (v & Ev & E). destruct (IH v Ev) as (ts & Hts). destruct (step_stack _ _ _ E) as (i & new & Es).
    exists (i :: ts). intros j N. rewrite Es in N. destruct (Nat.eq_dec j i) as [->|X]; [left; reflexivity|]. rewrite setn_other in N by exact X. right. apply Hts. exact N.
Qed.
(** The threads can go on until the process has ended or no handler is under way, without further signals. *)
Theorem C96_end l1 w1 l w : runs fresh l1 = Ok w1 -> idle w1 -> runs w1 l = Ok w -> no_reg l ->
  exists l' w', forallb is_step l' = true /\ runs w l' = Ok w' /\ (dead w' = true \/ idle w').
Proof.
  intros R I E N. destruct (finite_threads _ _ _ I E) as (ts & Hts).
  remember (total (lists w1) w ts) as n eqn:En. assert (Le : (total (lists w1) w ts <= n)%nat) by lia. clear En. revert l w E N Hts Le.
  induction n as [n IH] using lt_wf_ind. intros l w E N Hts Le. destruct (dead w) eqn:Dw; [exists [], w; auto|].
  destruct (forallb (fun i => match stack w i with [] => true | _ => false end) ts) eqn:Fb.
  - exists [], w. split; [reflexivity|]. split; [reflexivity|]. right. intros i. destruct (stack w i) eqn:St; [reflexivity|].
    rewrite forallb_forall in Fb. specialize (Fb i (Hts i ltac:(congruence))). rewrite St in Fb. discriminate.
  - assert (Ex : exists i, stack w i <> []).
    { clear -Fb. induction ts as [|i ts IH]; [discriminate|]. cbn [forallb] in Fb. destruct (stack w i) eqn:St; [exact (IH Fb)|exists i; congruence]. }
    destruct Ex as (i & Ne). destruct (C96_progress _ _ _ _ i R I E N Ne) as (j & v & Ev).
    destruct (H_start _ _ _ _ R I E N) as ((g & Hg) & _). destruct (micro_rem _ _ _ _ _ _ Hg Ev) as (new & Es & Lt).
    assert (Nj : stack w j <> []) by (intros Q; rewrite Q in Lt; cbn [map list_sum fold_right] in Lt; lia).
    assert (Lt' : (total (lists w1) v ts < total (lists w1) w ts)%nat).
    { unfold total. apply (sum_lt _ _ _ j); [|apply Hts; exact Nj|rewrite Es, setn_same; exact Lt].
      intros x. rewrite Es. destruct (Nat.eq_dec x j) as [->|X]; [rewrite setn_same; lia|rewrite setn_other by exact X; lia]. }
    assert (Sv : step w (LStep j) = Ok v) by (unfold step; rewrite Dw; exact Ev).
    destruct (IH (total (lists w1) v ts) ltac:(lia) (l ++ [LStep j]) v) as (l' & w' & A & B & C).
    + rewrite runs_snoc, E. exact Sv.
    + unfold no_reg in *. rewrite forallb_app, N. reflexivity.
    + intros k Nk. rewrite Es in Nk. destruct (Nat.eq_dec k j) as [->|X]; [apply Hts; exact Nj|rewrite setn_other in Nk by exact X; apply Hts; exact Nk].
    + lia.
    + exists (LStep j :: l'), w'. split; [exact A|]. split; [|exact C]. cbn [runs]. rewrite Sv. exact B.
Qed.
Print Assumptions C96_end.

(** ** The process dies of the signal *)
Definition doomed (w : world) (s : Z) : Prop :=
  (dispo w s = Ours /\ exists j id, In (Han s HIgnore id) (stack w j)) \/
  (dispo w s = Ign /\ exists j pc id, In (Han s pc id) (stack w j) /\ match pc with HLock | HCall _ | HDefault => True | _ => False end) \/
  (dispo w s = Dfl /\ exists j id, In (Han s HRaise id) (stack w j)).
Lemma kept (st : nat -> list frame) i top below new f j : st i = top :: below -> In f (st j) -> f <> top -> In f (setn st i (new ++ below) j).
Proof. intros St I N. apply in_setn; [exact I|]. intros ->. rewrite St in I. destruct I as [I|I]; [congruence|apply in_or_app; right; exact I]. Qed.
Lemma doomed_other w w' i s s' pc id below new : doomed w s -> stack w i = Han s' pc id :: below -> s' <> s -> stack w' = setn (stack w) i (new ++ below) -> dispo w' s = dispo w s -> doomed w' s.
Proof.
  intros D St Ne Es Ed. unfold doomed. rewrite Ed, Es. destruct D as [(D & j & id' & I)|[(D & j & pc' & id' & I & P)|(D & j & id' & I)]].
  - left. split; [exact D|]. exists j, id'. apply (kept _ _ (Han s' pc id)); [exact St|exact I|congruence].
  - right. left. split; [exact D|]. exists j, pc', id'. split; [|exact P]. apply (kept _ _ (Han s' pc id)); [exact St|exact I|congruence].
  - right. right. split; [exact D|]. exists j, id'. apply (kept _ _ (Han s' pc id)); [exact St|exact I|congruence].
Qed.
Lemma doomed_micro w1 l g w i w' s : H w1 l g w -> terminates s = true -> doomed w s -> micro w i = Ok w' -> dead w' = true \/ doomed w' s.
Proof.
  intros Hw Te D E. unfold micro in E. destruct (stack w i) as [|f below] eqn:St; [discriminate|].
  pose proof (h_frames _ _ _ _ Hw i f ltac:(rewrite St; left; reflexivity)) as F. destruct f as [? ? ?|s' pc id]; [destruct F|]. cbn [frame_ok] in F.
  destruct F as (_ & _ & Ca & _).
  destruct (Z.eq_dec s' s) as [->|Ne].
  2:{ right. destruct pc as [| |k| |].
    - apply Ok_inj in E. subst w'. apply (doomed_other w _ i s s' HIgnore id below [Han s' HLock id] D St Ne); [reflexivity|]. apply signal_other. congruence.
    - destruct (lock w i s') as [v|] eqn:L; [|discriminate]. apply Ok_inj in E. subst w'. destruct (lock_fields _ _ _ _ L) as (_ & _ & Ld & Ls & _).
      apply (doomed_other w _ i s s' HLock id below [Han s' (HCall 0) id] D St Ne); cbn [to stack dispo app]; congruence.
    - destruct (torn w s'); [discriminate|]. destruct (nth_error _ _); apply Ok_inj in E; subst w'.
      + apply (doomed_other w _ i s s' _ id below [Han s' (HCall (S k)) id] D St Ne); reflexivity.
      + destruct (unlock_fields w s') as (_ & _ & Ld & Ls & _). apply (doomed_other w _ i s s' _ id below [Han s' HDefault id] D St Ne); cbn [to stack dispo app]; congruence.
    - apply Ok_inj in E. subst w'. apply (doomed_other w _ i s s' HDefault id below [Han s' HRaise id] D St Ne); [reflexivity|]. apply signal_other. congruence.
    - apply Ok_inj in E. subst w'. destruct (raise_fields w s') as (_ & _ & Ld & _ & Ls & _). apply (doomed_other w _ i s s' _ id below [] D St Ne); cbn [to stack dispo app]; congruence. }
  destruct pc as [| |k| |].
  - apply Ok_inj in E. subst w'. right. right. left. split; [apply signal_same; exact Ca|]. exists i, HLock, id. split; [|exact I]. cbn [to stack]. rewrite setn_same. left. reflexivity.
  - destruct (lock w i s) as [v|] eqn:L; [|discriminate]. apply Ok_inj in E. subst w'. destruct (lock_fields _ _ _ _ L) as (_ & _ & Ld & Ls & _). right. unfold doomed. cbn [to stack dispo]. rewrite Ld, Ls.
    destruct D as [(D & j & id' & J)|[(D & _)|(D & j & id' & J)]].
    + left. split; [exact D|]. exists j, id'. apply (kept _ _ (Han s HLock id) below [_]); [exact St|exact J|congruence].
    + right. left. split; [exact D|]. exists i, (HCall 0), id. split; [|exact I]. rewrite setn_same. left. reflexivity.
    + right. right. split; [exact D|]. exists j, id'. apply (kept _ _ (Han s HLock id) below [_]); [exact St|exact J|congruence].
  - assert (Q : exists pc', stack w' = setn (stack w) i (Han s pc' id :: below) /\ dispo w' = dispo w /\ match pc' with HLock | HCall _ | HDefault => True | _ => False end).
    { destruct (torn w s); [discriminate|]. destruct (nth_error _ _); apply Ok_inj in E; subst w'.
      - eexists. split; [reflexivity|]. split; [reflexivity|exact I].
      - destruct (unlock_fields w s) as (_ & _ & Ld & Ls & _). exists HDefault. cbn [to stack dispo]. rewrite Ls. auto. }
    destruct Q as (pc' & Es & Ed & P). right. unfold doomed. rewrite Es, Ed. destruct D as [(D & j & id' & J)|[(D & _)|(D & j & id' & J)]].
    + left. split; [exact D|]. exists j, id'. apply (kept _ _ (Han s (HCall k) id) below [_]); [exact St|exact J|congruence].
    + right. left. split; [exact D|]. exists i, pc', id. split; [|exact P]. rewrite setn_same. left. reflexivity.
    + right. right. split; [exact D|]. exists j, id'. apply (kept _ _ (Han s (HCall k) id) below [_]); [exact St|exact J|congruence].
  - apply Ok_inj in E. subst w'. right. right. right. split; [apply signal_same; exact Ca|]. exists i, id. cbn [to stack]. rewrite setn_same. left. reflexivity.
  - apply Ok_inj in E. subst w'. destruct (raise_fields w s) as (_ & _ & Ld & _ & Ls & _). destruct D as [(D & j & id' & J)|[(D & j & pc' & id' & J & P)|(D & _)]].
    + right. left. cbn [to stack dispo]. rewrite Ld, Ls. split; [exact D|]. exists j, id'. apply (kept _ _ (Han s HRaise id) below []); [exact St|exact J|congruence].
    + right. right. left. cbn [to stack dispo]. rewrite Ld, Ls. split; [exact D|]. exists j, pc', id'. split; [|exact P]. apply (kept _ _ (Han s HRaise id) below []); [exact St|exact J|]. intros Q. inversion Q; subst. exact P.
    + left. unfold raise. rewrite D, Te. reflexivity.
Qed.
Lemma untouched l1 w1 l w s : runs fresh l1 = Ok w1 -> idle w1 -> runs w1 l = Ok w -> no_reg l -> (forall k, ~ In (LDeliver k s) l) -> dispo w s = dispo w1 s.
Proof.
  intros R I. revert w. induction l as [|a l IH] using rev_ind; intros w E N No; [apply Ok_inj in E; subst; reflexivity|].
  rewrite runs_snoc in E. apply bind_ok in E as (v & Ev & E). apply no_reg_app in N as [N Na]. apply no_reg_one in Na.
  destruct (H_start _ _ _ _ R I Ev N) as ((g & Hg) & _). rewrite <- (IH v Ev N (fun k J => No k (in_or_app _ _ _ (or_introl J)))).
  unfold step in E. destruct (dead v); [discriminate|]. destruct a as [|k|k s1]; [discriminate| |].
  - unfold micro in E. destruct (stack v k) as [|f below] eqn:St; [discriminate|].
    pose proof (h_frames _ _ _ _ Hg k f ltac:(rewrite St; left; reflexivity)) as F. destruct f as [? ? ?|s' pc id]; [destruct F|]. cbn [frame_ok] in F.
    destruct F as (_ & F & _). apply nth_error_In in F.
    assert (Ne : s <> s') by (intros ->; apply (No k); apply in_or_app; left; exact F).
    destruct pc as [| |n| |].
    + apply Ok_inj in E. subst w. apply signal_other. exact Ne.
    + destruct (lock v k s') as [u|] eqn:L; [|discriminate]. apply Ok_inj in E. subst w. destruct (lock_fields _ _ _ _ L) as (_ & _ & Ld & _). cbn [to dispo]. rewrite Ld. reflexivity.
    + destruct (torn v s'); [discriminate|]. destruct (nth_error _ _); apply Ok_inj in E; subst w; [reflexivity|]. destruct (unlock_fields v s') as (_ & _ & Ld & _). cbn [to dispo]. rewrite Ld. reflexivity.
    + apply Ok_inj in E. subst w. apply signal_other. exact Ne.
    + apply Ok_inj in E. subst w. destruct (raise_fields v s') as (_ & _ & Ld & _). cbn [to dispo]. rewrite Ld. reflexivity.
  - destruct (dispo v s1); [| |destruct (existsb _ _); [discriminate|]]; apply Ok_inj in E; subst w; [|reflexivity|reflexivity].
    destruct (raise_fields v s1) as (_ & _ & Ld & _). cbn [to dispo]. rewrite Ld. reflexivity.
Qed.
(** Every process to which a signal was sent whose default action ends a process is ended by it, once the handlers are through. *)
Theorem C96_dies l1 w1 l w i s : runs fresh l1 = Ok w1 -> idle w1 -> runs w1 l = Ok w -> no_reg l ->
  In (LDeliver i s) l -> terminates s = true -> dispo w1 s <> Ign -> idle w -> dead w = true.
Proof.
  intros R I E N Il Te Ni Iw.
  assert (Ex : exists k, In (LDeliver k s) l) by eauto. clear Il.
  enough (Q : dead w = true \/ doomed w s).
  { destruct Q as [Q|Q]; [exact Q|]. destruct Q as [(_ & j & id & J)|[(_ & j & pc & id & J & _)|(_ & j & id & J)]]; rewrite Iw in J; destruct J. }
  clear Iw. revert w E. induction l as [|a l IH] using rev_ind; intros w E; [destruct Ex as (k & [])|].
  rewrite runs_snoc in E. apply bind_ok in E as (v & Ev & E). apply no_reg_app in N as [N Na]. apply no_reg_one in Na.
  destruct (H_start _ _ _ _ R I Ev N) as ((g & Hg) & Kv & _).
  assert (Dv : dead v = false) by (unfold step in E; destruct (dead v); [discriminate|reflexivity]).
  assert (Deliver : forall k, doomed v s \/ dispo v s <> Ign -> step v (LDeliver k s) = Ok w -> dead w = true \/ doomed w s).
  { intros k D S. unfold step in S. rewrite Dv in S. destruct (dispo v s) eqn:Dd.
    - apply Ok_inj in S. subst w. left. unfold raise. rewrite Dd, Te. reflexivity.
    - destruct D as [D|D]; [|congruence]. apply Ok_inj in S. subst w. right. unfold doomed in *. cbn [to stack dispo]. rewrite Dd in *.
      destruct D as [(D & _)|[(D & j & pc & id & J & P)|(D & _)]]; [discriminate| |discriminate]. right. left. split; [reflexivity|]. exists j, pc, id. split; [|exact P]. apply in_setn; [exact J|]. intros ->. exact J.
    - destruct (existsb _ _); [discriminate|]. apply Ok_inj in S. subst w. right. left. split; [exact Dd|]. exists k, (count v). cbn [to stack]. rewrite setn_same. left. reflexivity. }
  assert (Old : (exists k, In (LDeliver k s) l) -> dead w = true \/ doomed w s).
  { intros J. destruct (IH N J v Ev) as [Q|D]; [congruence|]. destruct a as [|k|k s1]; [discriminate| |].
    - unfold step in E. rewrite Dv in E. exact (doomed_micro _ _ _ _ _ _ _ Hg Te D E).
    - destruct (Z.eq_dec s1 s) as [->|Ne]; [apply (Deliver k); [left; exact D|exact E]|]. right.
      assert (Q : exists new, stack w = setn (stack v) k (new ++ stack v k) /\ dispo w = dispo v).
      { unfold step in E. rewrite Dv in E. destruct (dispo v s1) eqn:Dd; [| |destruct (existsb _ _); [discriminate|]]; apply Ok_inj in E; subst w; cbn [to stack dispo].
        - destruct (raise_fields v s1) as (_ & _ & Ld & _ & Ls & _). exists []. rewrite Ld, Ls. auto.
        - exists []. auto.
        - exists [Han s1 HIgnore (count v)]. auto. }
      destruct Q as (new & Es & Ed). unfold doomed in *. rewrite Es, Ed.
      assert (Kp : forall j f, In f (stack v j) -> In f (setn (stack v) k (new ++ stack v k) j)) by (intros j f X; apply in_setn; [exact X|intros ->; apply in_or_app; right; exact X]).
      destruct D as [(D & j & id & X)|[(D & j & pc & id & X & P)|(D & j & id & X)]].
      + left. split; [exact D|]. exists j, id. apply Kp. exact X.
      + right. left. split; [exact D|]. exists j, pc, id. split; [apply Kp; exact X|exact P].
      + right. right. split; [exact D|]. exists j, id. apply Kp. exact X. }
  destruct (existsb (fun a => match a with LDeliver _ s0 => s0 =? s | _ => false end) l) eqn:B.
  - apply existsb_exists in B as (b & J & B). destruct b as [| |k s0]; try discriminate. apply Z.eqb_eq in B. subst s0. apply Old. exists k. exact J.
  - assert (No : forall k, ~ In (LDeliver k s) l).
    { intros k J. rewrite (proj2 (existsb_exists _ _)) in B; [discriminate|]. exists (LDeliver k s). split; [exact J|apply Z.eqb_refl]. }
    destruct Ex as (k & J). apply in_app_or in J as [J|[J|[]]]; [destruct (No k J)|]. subst a. apply (Deliver k); [|exact E].
    right. rewrite (untouched _ _ _ _ _ R I Ev N No). exact Ni.
Qed.
Print Assumptions C96_dies.

(** A signal can arrive in a thread at any time, unless our handler for the same signal is already running in that thread. *)
Theorem C96_arrives w i s : dead w = false ->
  (exists w', step w (LDeliver i s) = Ok w') \/ (dispo w s = Ours /\ exists pc id, In (Han s pc id) (stack w i)).
Proof.
  intros D. unfold step. rewrite D. destruct (dispo w s); try (left; eexists; reflexivity).
  destruct (existsb (handling s) (stack w i)) eqn:E; [right|left; eexists; reflexivity]. split; [reflexivity|].
  apply existsb_exists in E. destruct E as (f & I & E). destruct f as [|s' pc id]; [discriminate|]. apply Z.eqb_eq in E. subst s'. exists pc, id. exact I.
Qed.
Print Assumptions C96_arrives.
(** Nothing else ends it: whatever is registered and delivered when, a process that has ended was sent a signal whose default action ends a process. *)
Theorem C96_killed l w : runs fresh l = Ok w -> dead w = true -> exists i s, In (LDeliver i s) l /\ terminates s = true.
Proof.
  intros E D.
  enough (Q : (forall j s pc id, In (Han s pc id) (stack w j) -> exists i, In (LDeliver i s) l) /\ (dead w = true -> exists i s, In (LDeliver i s) l /\ terminates s = true)) by (destruct Q as [_ Q]; exact (Q D)).
  clear D. revert w E. induction l as [|a l IH] using rev_ind; intros w E; [apply Ok_inj in E; subst w; split; [intros ? ? ? ? []|discriminate]|].
  rewrite runs_snoc in E. apply bind_ok in E as (v & Ev & E). destruct (IH v Ev) as [A B]. clear IH.
  assert (Dv : dead v = false) by (unfold step in E; destruct (dead v); [discriminate|reflexivity]).
  assert (A' : forall j s pc id, In (Han s pc id) (stack v j) -> exists i, In (LDeliver i s) (l ++ [a])) by (intros j s pc id J; destruct (A _ _ _ _ J) as (i & X); exists i; apply in_or_app; left; exact X).
  assert (Gen : forall i new, stack w = setn (stack v) i new -> (forall s pc id, In (Han s pc id) new -> exists k, In (LDeliver k s) (l ++ [a])) ->
    forall j s pc id, In (Han s pc id) (stack w j) -> exists k, In (LDeliver k s) (l ++ [a])).
  { intros i new Es Hn j s pc id J. rewrite Es in J. apply in_setn' in J as [[_ J]|[_ J]]; [exact (Hn _ _ _ J)|exact (A' _ _ _ _ J)]. }
  assert (Ra : forall s x, (exists k, In (LDeliver k s) (l ++ [a])) -> dead (raise x s) = true -> dead x = false -> exists i s, In (LDeliver i s) (l ++ [a]) /\ terminates s = true).
  { intros s x (k & Ik) X Dx. exists k, s. split; [exact Ik|]. unfold raise in X. destruct (dispo x s); [|congruence..]. destruct (terminates s); [reflexivity|congruence]. }
  unfold step in E. rewrite Dv in E. destruct a as [i h s|i|i s].
  - destruct (stack v i) eqn:Si; [|discriminate]. destruct (_ || _); apply Ok_inj in E; subst w; (split; [eapply Gen; [reflexivity|]|cbn [to dead]; congruence]); intros ? ? ? J; [destruct J|destruct J as [J|[]]; discriminate J].
  - unfold micro in E. destruct (stack v i) as [|f below] eqn:Si; [discriminate|].
    assert (Bel : forall s pc id, In (Han s pc id) below -> exists k, In (LDeliver k s) (l ++ [LStep i])) by (intros s pc id J; apply (A' i s pc id); rewrite Si; right; exact J).
    assert (Reg' : forall h s pc new, f = Reg h s pc -> (new = below \/ exists pc', new = Reg h s pc' :: below) -> stack w = setn (stack v) i new -> dead w = dead v ->
       (forall j s pc id, In (Han s pc id) (stack w j) -> exists k, In (LDeliver k s) (l ++ [LStep i])) /\ (dead w = true -> exists i0 s, In (LDeliver i0 s) (l ++ [LStep i]) /\ terminates s = true)).
    { intros h s pc new _ Hn Es Ed. split; [apply (Gen i new Es); intros s' pc' id' J|congruence].
      destruct Hn as [->|(q & ->)]; [exact (Bel _ _ _ J)|]. destruct J as [J|J]; [discriminate J|exact (Bel _ _ _ J)]. }
    assert (Han' : forall s pc id new, f = Han s pc id -> (new = below \/ exists pc', new = Han s pc' id :: below) -> stack w = setn (stack v) i new -> (dead w = true -> exists i0 s, In (LDeliver i0 s) (l ++ [LStep i]) /\ terminates s = true) ->
       (forall j s pc id, In (Han s pc id) (stack w j) -> exists k, In (LDeliver k s) (l ++ [LStep i])) /\ (dead w = true -> exists i0 s, In (LDeliver i0 s) (l ++ [LStep i]) /\ terminates s = true)).
    { intros s pc id new -> Hn Es Ed. split; [apply (Gen i new Es); intros s' pc' id' J|exact Ed].
      destruct Hn as [->|(q & ->)]; [exact (Bel _ _ _ J)|]. destruct J as [J|J]; [injection J as <- _ _; apply (A' i s pc id); rewrite Si; left; reflexivity|exact (Bel _ _ _ J)]. }
    destruct f as [h s pc|s pc id]; destruct pc.
    + destruct (lock v i s) as [u|] eqn:L; [|discriminate]. destruct (lock_fields _ _ _ _ L) as (_ & _ & _ & Ls & _ & _ & Ld). apply Ok_inj in E. subst w. eapply Reg'; [reflexivity|right; eexists; reflexivity|cbn [to stack]; rewrite Ls; reflexivity|exact Ld].
    + apply Ok_inj in E. subst w. eapply Reg'; [reflexivity|right; eexists; reflexivity|reflexivity|reflexivity].
    + destruct (torn v s); [discriminate|]. apply Ok_inj in E. subst w. eapply Reg'; [reflexivity|right; eexists; reflexivity|reflexivity|reflexivity].
    + apply Ok_inj in E. subst w. eapply Reg'; [reflexivity|right; eexists; reflexivity|reflexivity|reflexivity].
    + destruct (unlock_fields v s) as (_ & _ & _ & Ls & _ & _ & Ld). apply Ok_inj in E. subst w. eapply Reg'; [reflexivity|left; reflexivity|cbn [to stack]; rewrite Ls; reflexivity|exact Ld].
    + apply Ok_inj in E. subst w. eapply Han'; [reflexivity|right; eexists; reflexivity|reflexivity|cbn [to with_dispo dead]; congruence].
    + destruct (lock v i s) as [u|] eqn:L; [|discriminate]. destruct (lock_fields _ _ _ _ L) as (_ & _ & _ & Ls & _ & _ & Ld). apply Ok_inj in E. subst w. eapply Han'; [reflexivity|right; eexists; reflexivity|cbn [to stack]; rewrite Ls; reflexivity|cbn [to dead]; congruence].
    + destruct (torn v s); [discriminate|]. destruct (nth_error _ _); apply Ok_inj in E; subst w; (eapply Han'; [reflexivity|right; eexists; reflexivity|..]).
      * reflexivity.
      * cbn [to called dead]. congruence.
      * destruct (unlock_fields v s) as (_ & _ & _ & Ls & _). cbn [to stack]. rewrite Ls. reflexivity.
      * destruct (unlock_fields v s) as (_ & _ & _ & _ & _ & _ & Ld). cbn [to dead]. congruence.
    + apply Ok_inj in E. subst w. eapply Han'; [reflexivity|right; eexists; reflexivity|reflexivity|cbn [to with_dispo dead]; congruence].
    + destruct (raise_fields v s) as (_ & _ & _ & _ & Ls & _). apply Ok_inj in E. subst w. eapply Han'; [reflexivity|left; reflexivity|cbn [to stack]; rewrite Ls; reflexivity|].
      cbn [to dead]. intros X. apply (Ra s v); [|exact X|exact Dv]. apply (A' i s HRaise id). rewrite Si. left. reflexivity.
  - assert (Last : In (LDeliver i s) (l ++ [LDeliver i s])) by (apply in_or_app; right; left; reflexivity).
    destruct (dispo v s) eqn:Dd; [| |destruct (existsb _ _); [discriminate|]]; apply Ok_inj in E; subst w.
    + destruct (raise_fields v s) as (_ & _ & _ & _ & Ls & _). split; [eapply Gen; [cbn [to stack]; rewrite Ls; reflexivity|intros s' pc id J; exact (A' _ _ _ _ J)]|].
      cbn [to dead]. intros X. apply (Ra s v); [exists i; exact Last|exact X|exact Dv].
    + split; [eapply Gen; [reflexivity|intros s' pc id J; exact (A' _ _ _ _ J)]|cbn [to dead]; congruence].
    + split; [eapply Gen; [reflexivity|]|cbn [to dead]; congruence]. intros s' pc id [J|J]; [injection J as <- _ _; exists i; exact Last|exact (A' _ _ _ _ J)].
Qed.
Print Assumptions C96_killed.

(** ** Threads that register *)
Definition no_delivery (l : list label) : Prop := forallb (fun a => negb (is_delivery a)) l = true.
Definition in_bounds (s : Z) : Prop := 0 < s < 64.
Definition for_sig (s : Z) (P : list (nat * (Z * Z))) : list Z := map (fun x => fst (snd x)) (filter (fun x => snd (snd x) =? s) P).
Record Rg (l : list label) (w : world) (P : list (nat * (Z * Z))) : Prop := {
  r_stack : forall i, stack w i = [] \/ exists h s pc, stack w i = [Reg h s pc] /\ in_bounds s;
  r_keys : NoDup (map fst P);
  r_pend : forall i h s, In (i, (h, s)) P <-> exists pc, pc <> RUnlock /\ stack w i = [Reg h s pc];
  r_perm : forall s, Permutation (lists w s ++ for_sig s P) (registered s l);
  r_ours : forall s, catch s = true -> lists w s <> [] \/ (exists i h pc, stack w i = [Reg h s pc] /\ (pc = RInsert \/ pc = RLink)) -> dispo w s = Ours;
  r_known : forall s, registered s l = [] -> dispo w s = Dfl;
  r_calls : calls w = [];
  r_dead : dead w = false }.
Lemma registered_app s l l' : registered s (l ++ l') = registered s l ++ registered s l'.
Proof. unfold registered. apply flat_map_app. Qed.
Lemma for_sig_app s P Q : for_sig s (P ++ Q) = for_sig s P ++ for_sig s Q.
Proof. unfold for_sig. rewrite filter_app, map_app. reflexivity. Qed.
Lemma for_sig_one s i h s0 : for_sig s [(i, (h, s0))] = if s0 =? s then [h] else [].
Proof. unfold for_sig. cbn [filter snd]. destruct (s0 =? s); reflexivity. Qed.
Lemma app_nil_inv {A} (l l' : list A) : l ++ l' = [] -> l = [] /\ l' = [].
Proof. apply app_eq_nil. Qed.
(** Steps that move a registration on without finishing the insertion. *)
Lemma Rg_move l w P i h s pc pc' w' :
  Rg l w P -> stack w i = [Reg h s pc] -> in_bounds s -> pc <> RUnlock -> pc' <> RUnlock ->
  stack w' = setn (stack w) i [Reg h s pc'] -> (forall z, lists w' z = lists w z) -> calls w' = calls w -> dead w' = dead w ->
  (forall z, dispo w z = Ours -> dispo w' z = Ours) -> (forall z, z <> s -> dispo w' z = dispo w z) ->
  (catch s = true -> pc' = RInsert \/ pc' = RLink -> dispo w' s = Ours) -> Rg (l ++ [LStep i]) w' P.
Proof.
  intros R St B U U' Es Li Ca De Do Dz Dn.
  assert (Pi : In (i, (h, s)) P) by (apply (r_pend _ _ _ R); exists pc; auto).
  constructor.
  - intros j. rewrite Es. destruct (Nat.eq_dec j i) as [->|N]; [rewrite setn_same; right; eauto|rewrite setn_other by exact N; apply R].
  - apply R.
  - intros j h0 s0. rewrite (r_pend _ _ _ R), Es. destruct (Nat.eq_dec j i) as [->|N]; [|rewrite setn_other by exact N; reflexivity]. rewrite setn_same, St.
    split; intros (pc0 & V & Q); inversion Q; subst; eexists; (split; [|reflexivity]); assumption.
  - intros z. rewrite Li, registered_app. cbn [registered flat_map]. rewrite app_nil_r. apply R.
  - intros z C [Q|(j & h0 & pc0 & Q & V)].
    + apply Do. rewrite Li in Q. apply (r_ours _ _ _ R); [exact C|left; exact Q].
    + rewrite Es in Q. destruct (Nat.eq_dec j i) as [->|N].
      * rewrite setn_same in Q. inversion Q; subst. apply Dn; [exact C|exact V].
      * rewrite setn_other in Q by exact N. apply Do. apply (r_ours _ _ _ R); [exact C|right; eauto].
  - intros z Q. rewrite registered_app in Q. apply app_nil_inv in Q as [Q _]. destruct (Z.eq_dec z s) as [->|N].
    + pose proof (r_perm _ _ _ R s) as X. rewrite Q in X. apply Permutation_sym, Permutation_nil in X. apply app_nil_inv in X as [_ X].
      apply in_split in Pi as (P1 & P2 & ->). rewrite for_sig_app in X. apply app_nil_inv in X as [_ X]. unfold for_sig in X. cbn [filter snd] in X. rewrite Z.eqb_refl in X. discriminate.
    + rewrite Dz by exact N. apply R. exact Q.
  - rewrite Ca. apply R.
  - rewrite De. apply R.
Qed.
Lemma Rg_step l w P a w' : M w -> T w -> Rg l w P -> is_delivery a = false -> step w a = Ok w' -> exists P', Rg (l ++ [a]) w' P'.
Proof.
  intros Hm Ht R Na E. unfold step in E. destruct (dead w); [discriminate|]. destruct a as [i h s|i|]; [| |discriminate].
  - destruct (stack w i) as [|] eqn:St; [|discriminate].
    destruct (_ || _) eqn:Bo; apply Ok_inj in E; subst w'.
    + exists P. assert (Rn : forall z, registered z [LReg i h s] = []).
      { intros z. cbn [registered flat_map]. rewrite app_nil_r. unfold C_NSIG in Bo. destruct (s =? z); [|reflexivity]. destruct (Z.ltb_spec 0 s); [|reflexivity]. destruct (Z.ltb_spec s 64); [|reflexivity]. exfalso. lia. }
      assert (Sk : forall j, setn (stack w) i [] j = stack w j) by (intros j; destruct (Nat.eq_dec j i) as [->|N]; [rewrite setn_same; auto|rewrite setn_other by exact N; reflexivity]).
      constructor; cbn [to stack lists dispo calls dead]; try apply R.
      * intros j. rewrite Sk. apply R.
      * intros j h0 s0. rewrite Sk. apply R.
      * intros z. rewrite registered_app, Rn, app_nil_r. apply R.
      * intros z C [Q|(j & h0 & pc0 & Q & V)]; apply (r_ours _ _ _ R); auto. rewrite Sk in Q. right. eauto.
      * intros z Q. rewrite registered_app in Q. apply app_nil_inv in Q as [Q _]. apply R. exact Q.
    + unfold C_NSIG in Bo. apply orb_false_iff in Bo as [B1 B2]. apply Z.leb_gt in B1, B2. exists (P ++ [(i, (h, s))]). constructor; cbn [to stack lists dispo calls dead]; try apply R.
      * intros j. destruct (Nat.eq_dec j i) as [->|N]; [rewrite setn_same; right; do 3 eexists; split; [reflexivity|unfold in_bounds; lia]|rewrite setn_other by exact N; apply R].
      * rewrite map_app. cbn [map fst]. apply (Permutation_NoDup (l := i :: map fst P)); [apply Permutation_cons_append|]. constructor; [|apply R].
        intros X. apply in_map_iff in X as ((j & h0 & s0) & X & Y). cbn [fst] in X. subst j. apply (r_pend _ _ _ R) in Y as (pc & _ & Y). congruence.
      * intros j h0 s0. split.
        -- intros X. apply in_app_or in X as [X|[X|[]]].
           ++ pose proof X as Y. apply (r_pend _ _ _ R) in Y as (pc & V & Y). exists pc. split; [exact V|]. rewrite setn_other; [exact Y|]. intros ->. congruence.
           ++ inversion X; subst. exists RLock. split; [discriminate|]. apply setn_same.
        -- intros (pc & V & X). apply in_or_app. destruct (Nat.eq_dec j i) as [->|N].
           ++ rewrite setn_same in X. inversion X; subst. right. left. reflexivity.
           ++ rewrite setn_other in X by exact N. left. apply (r_pend _ _ _ R). eauto.
      * intros z. rewrite for_sig_app, for_sig_one, registered_app, app_assoc. apply Permutation_app; [apply R|]. cbn [registered flat_map]. rewrite app_nil_r.
        destruct (s =? z); [|constructor]. destruct (Z.ltb_spec 0 s); [|lia]. destruct (Z.ltb_spec s 64); [|lia]. reflexivity.
      * intros z C [Q|(j & h0 & pc0 & Q & V)]; [apply (r_ours _ _ _ R); auto|]. apply (r_ours _ _ _ R); [exact C|]. right. exists j, h0, pc0. split; [|exact V].
        rewrite setn_other in Q; [exact Q|]. intros ->. rewrite setn_same in Q. inversion Q; subst. destruct V; discriminate.
      * intros z Q. rewrite registered_app in Q. apply app_nil_inv in Q as [Q _]. apply R. exact Q.
  - unfold micro in E. destruct (r_stack _ _ _ R i) as [St|(h & s & pc & St & B)]; rewrite St in E; [discriminate|]. destruct pc.
    + destruct (lock w i s) as [v|] eqn:L; [|discriminate]. apply Ok_inj in E. subst w'. destruct (lock_fields _ _ _ _ L) as (L1 & L2 & L3 & L4 & L5 & L6 & L7).
      exists P. eapply (Rg_move l w P i h s RLock RSignal); [exact R|exact St|exact B|discriminate|discriminate|..]; cbn [to stack lists dispo calls dead]; try congruence.
      intros _ [Q|Q]; discriminate.
    + apply Ok_inj in E. subst w'. exists P. eapply (Rg_move l w P i h s RSignal RInsert); [exact R|exact St|exact B|discriminate|discriminate|..]; try reflexivity.
      * intros z Q. cbn [to with_dispo dispo]. destruct (Z.eq_dec z s) as [->|N]; [|rewrite signal_other by exact N; exact Q].
        destruct (catch s) eqn:C; [apply signal_same; exact C|rewrite signal_refused by exact C; exact Q].
      * intros z N. apply signal_other. exact N.
      * intros C _. apply signal_same. exact C.
    + destruct (torn w s); [discriminate|]. apply Ok_inj in E. subst w'. exists P. eapply (Rg_move l w P i h s RInsert RLink); [exact R|exact St|exact B|discriminate|discriminate|..]; try reflexivity.
      * intros z. cbn [to with_list lists]. destruct (Z.eq_dec z s) as [->|N]; [apply setz_same|apply setz_other; exact N].
      * intros z Q. exact Q.
      * intros C _. apply (r_ours _ _ _ R); [exact C|]. right. exists i, h, RInsert. auto.
    + apply Ok_inj in E. subst w'.
      assert (Pi : In (i, (h, s)) P) by (apply (r_pend _ _ _ R); exists RLink; split; [discriminate|exact St]).
      apply in_split in Pi as (P1 & P2 & EP). exists (P1 ++ P2). pose proof (r_keys _ _ _ R) as Kd. rewrite EP, map_app in Kd. cbn [map fst] in Kd. pose proof (NoDup_remove_2 _ _ _ Kd) as Ki.
      constructor; cbn [to with_list stack lists dispo calls dead]; try apply R.
      * intros j. destruct (Nat.eq_dec j i) as [->|N]; [rewrite setn_same; right; eauto|rewrite setn_other by exact N; apply R].
      * rewrite map_app. exact (NoDup_remove_1 _ _ _ Kd).
      * intros j h0 s0. split.
        -- intros X. assert (j <> i). { intros ->. apply Ki. rewrite <- map_app. apply (in_map fst) in X. exact X. }
           rewrite setn_other by assumption. apply (r_pend _ _ _ R). rewrite EP. apply in_app_or in X as [X|X]; apply in_or_app; [left|right; right]; exact X.
        -- intros (pc & V & X). destruct (Nat.eq_dec j i) as [->|N]; [rewrite setn_same in X; inversion X; subst; congruence|]. rewrite setn_other in X by exact N.
           assert (Y : In (j, (h0, s0)) P) by (apply (r_pend _ _ _ R); eauto). rewrite EP in Y. apply in_app_or in Y as [Y|[Y|Y]]; apply in_or_app; [left; exact Y|congruence|right; exact Y].
      * intros z. rewrite registered_app. cbn [registered flat_map]. rewrite app_nil_r. pose proof (r_perm _ _ _ R z) as X. rewrite EP, for_sig_app in X.
        change ((i, (h, s)) :: P2) with ([(i, (h, s))] ++ P2) in X. rewrite for_sig_app, for_sig_one in X. rewrite for_sig_app. etransitivity; [|exact X].
        destruct (Z.eq_dec z s) as [->|N].
        -- rewrite setz_same, Z.eqb_refl, <- app_assoc. apply Permutation_app_head. cbn [app]. apply Permutation_middle.
        -- rewrite setz_other by exact N. destruct (Z.eqb_spec s z); [congruence|reflexivity].
      * intros z C [Q|(j & h0 & pc0 & Q & V)].
        -- destruct (Z.eq_dec z s) as [->|N]; [apply (r_ours _ _ _ R); [exact C|right; exists i, h, RLink; auto]|]. rewrite setz_other in Q by exact N. apply (r_ours _ _ _ R); auto.
        -- apply (r_ours _ _ _ R); [exact C|]. right. exists j, h0, pc0. split; [|exact V]. rewrite setn_other in Q; [exact Q|]. intros ->. rewrite setn_same in Q. inversion Q; subst. destruct V; discriminate.
      * intros z Q. rewrite registered_app in Q. apply app_nil_inv in Q as [Q _]. apply R. exact Q.
    + apply Ok_inj in E. subst w'. exists P. destruct (unlock_fields w s) as (L1 & L2 & L3 & L4 & L5 & L6 & L7).
      constructor; cbn [to stack lists dispo calls dead]; rewrite ?L1, ?L3, ?L4, ?L6, ?L7; try apply R.
      * intros j. destruct (Nat.eq_dec j i) as [->|N]; [rewrite setn_same; left; reflexivity|rewrite setn_other by exact N; apply R].
      * intros j h0 s0. rewrite (r_pend _ _ _ R). destruct (Nat.eq_dec j i) as [->|N]; [|rewrite setn_other by exact N; reflexivity]. rewrite setn_same, St.
        split; intros (pc & V & Q); [inversion Q; congruence|discriminate].
      * intros z. rewrite registered_app. cbn [registered flat_map]. rewrite app_nil_r. apply R.
      * intros z C [Q|(j & h0 & pc0 & Q & V)]; apply (r_ours _ _ _ R); auto. right. exists j, h0, pc0. split; [|exact V]. rewrite setn_other in Q; [exact Q|]. intros ->. rewrite setn_same in Q. discriminate.
      * intros z Q. rewrite registered_app in Q. apply app_nil_inv in Q as [Q _]. apply R. exact Q.
Qed.
Lemma Rg_runs l w : runs fresh l = Ok w -> no_delivery l -> exists P, Rg l w P.
Proof.
  revert w. induction l as [|a l IH] using rev_ind; intros w E N.
  - apply Ok_inj in E. subst w. exists []. constructor; try reflexivity.
    + intros i. left. reflexivity.
    + constructor.
    + intros i h s. split; [intros []|intros (pc & _ & Q); discriminate].
    + intros s C [Q|(i & h & pc & Q & _)]; [destruct (Q eq_refl)|discriminate].
  - rewrite runs_snoc in E. apply bind_ok in E as (v & Ev & E). unfold no_delivery in N. rewrite forallb_app in N. apply andb_prop in N as [N1 N2]. cbn [forallb] in N2.
    destruct (IH v Ev N1) as (P & Hp). destruct (MT_fresh _ _ Ev) as [Hm Ht]. apply (Rg_step l v P a); [exact Hm|exact Ht|exact Hp|destruct (is_delivery a); [discriminate|reflexivity]|exact E].
Qed.
(** Whatever the order in which threads register handlers: when they are through each list has exactly the
    handlers registered for its signal, and exactly the signals that have any and can be caught are caught. *)
Theorem C96_register l w : runs fresh l = Ok w -> no_delivery l -> idle w ->
  (forall s, Permutation (lists w s) (registered s l)) /\
  (forall s, dispo w s = Ours <-> registered s l <> [] /\ s <> 9 /\ s <> 19) /\ (forall s, dispo w s <> Ign) /\ calls w = [] /\ dead w = false.
Proof.
  intros E N I. destruct (Rg_runs l w E N) as (P & R). pose proof (K_fresh _ _ E) as (_ & _ & Kd).
  assert (P = []) as ->. { destruct P as [|(i & h & s) P]; [reflexivity|]. destruct (proj1 (r_pend _ _ _ R i h s) (or_introl eq_refl)) as (pc & _ & Q). rewrite I in Q. discriminate. }
  assert (Pm : forall s, Permutation (lists w s) (registered s l)). { intros s. pose proof (r_perm _ _ _ R s) as X. cbn [for_sig filter map] in X. unfold for_sig in X. cbn [filter map] in X. rewrite app_nil_r in X. exact X. }
  assert (Rn : forall s, registered s l <> [] -> 0 < s < 64).
  { intros s Q. clear -Q. induction l as [|a l IH]; [destruct (Q eq_refl)|]. change (a :: l) with ([a] ++ l) in Q. rewrite registered_app in Q. destruct a as [i h s0|i|i s0]; cbn [registered flat_map app] in Q; [|exact (IH Q)|exact (IH Q)].
    destruct (Z.eqb_spec s0 s) as [->|]; [|exact (IH Q)]. destruct (Z.ltb_spec 0 s); [|exact (IH Q)]. destruct (Z.ltb_spec s 64); [lia|exact (IH Q)]. }
  assert (Iff : forall s, dispo w s <> Dfl -> registered s l <> [] /\ s <> 9 /\ s <> 19).
  { intros s D. split; [intros Q; apply D; apply R; exact Q|]. specialize (Kd s D). unfold catch in Kd. lia. }
  assert (Ours_ : forall s, registered s l <> [] /\ s <> 9 /\ s <> 19 -> dispo w s = Ours).
  { intros s (Q & N9 & N19). specialize (Rn s Q). apply (r_ours _ _ _ R); [unfold catch; lia|]. left. intros X. apply Q. specialize (Pm s). rewrite X in Pm. apply Permutation_nil in Pm. exact Pm. }
  split; [exact Pm|]. split; [|split; [|split; apply R]].
  - intros s. split; [intros D; apply Iff; congruence|apply Ours_].
  - intros s D. specialize (Ours_ s (Iff s ltac:(congruence))). congruence.
Qed.
Print Assumptions C96_register.
(** While threads only register, nothing is undefined and some thread can go on. *)
Theorem C96_register_progress l : no_delivery l -> runs fresh l <> UB /\ forall w i, runs fresh l = Ok w -> stack w i <> [] -> exists j w', step w (LStep j) = Ok w'.
Proof.
  intros N.
  assert (Go : forall l w i, no_delivery l -> runs fresh l = Ok w -> micro w i <> UB).
  { intros l0 w i N0 E U. destruct (C96_torn _ _ _ E U) as (h & s & I & _). destruct (Rg_runs _ _ E N0) as (P & R). destruct (r_stack _ _ _ R i) as [Q|(h' & s' & pc & Q & _)]; rewrite Q in I; destruct I. }
  split.
  - induction l as [|a l IH] using rev_ind; [discriminate|]. rewrite runs_snoc. unfold no_delivery in N. rewrite forallb_app in N. apply andb_prop in N as [N1 N2].
    destruct (runs fresh l) as [v| | |] eqn:E; [|discriminate|destruct (IH N1 eq_refl)|discriminate]. cbn [bind]. unfold step. destruct (dead v); [discriminate|].
    destruct a as [i h s|i|i s]; [|exact (Go l v i N1 E)|discriminate]. destruct (stack v i); [|discriminate]. destruct (_ || _); discriminate.
  - intros w i E Ne. destruct (Rg_runs _ _ E N) as (P & R). destruct (MT_fresh _ _ E) as [Hm Ht].
    assert (St0 : forall j pc h s, stack w j = [Reg h s pc] -> pc <> RLock -> exists w', step w (LStep j) = Ok w').
    { intros j pc h s St Np. pose proof (Go _ _ j N E) as Nu. unfold step. rewrite (r_dead _ _ _ R). unfold micro in *. rewrite St in *. destruct pc; try (eexists; reflexivity); [congruence|]. destruct (torn w s); [congruence|eauto]. }
    destruct (r_stack _ _ _ R i) as [Q|(h & s & pc & St & _)]; [congruence|].
    assert (D : pc = RLock \/ pc <> RLock) by (destruct pc; (left; reflexivity) || (right; discriminate)). destruct D as [->|D]; [|exists i; exact (St0 _ _ _ _ St D)].
    destruct Hm as [A B]. destruct (owner w s) as [[j n]|] eqn:O.
    + destruct (cnt_in s (stack w j)) as (f & If & C); [rewrite A, O; cbn [cntO]; rewrite Nat.eqb_refl; exact (B _ _ _ O)|].
      destruct (r_stack _ _ _ R j) as [Q|(h' & s' & pc' & Sj & _)]; [rewrite Q in If; destruct If|]. rewrite Sj in If. destruct If as [<-|[]].
      exists j. apply (St0 _ _ _ _ Sj). intros ->. cbn [crit] in C. rewrite andb_false_r in C. discriminate.
    + exists i. unfold step. rewrite (r_dead _ _ _ R). unfold micro, lock. rewrite St, O. eauto.
Qed.
Print Assumptions C96_register_progress.
(** A single thread that registers: the handlers are in the order of the calls. *)
Definition pending (s : Z) (st : list frame) : list Z :=
  match st with [Reg h s0 pc] => if (s0 =? s) && match pc with RUnlock => false | _ => true end then [h] else [] | _ => [] end.
Theorem C96_order i l w : runs fresh l = Ok w -> no_delivery l -> (forall j h s, In (LReg j h s) l -> j = i) -> idle w -> forall s, lists w s = registered s l.
Proof.
  intros E N One I s.
  assert (Q : lists w s ++ pending s (stack w i) = registered s l /\ forall j, j <> i -> stack w j = []).
  { clear I. revert w E. induction l as [|a l IH] using rev_ind; intros w E; [apply Ok_inj in E; subst w; auto|].
    rewrite runs_snoc in E. apply bind_ok in E as (v & Ev & E). pose proof N as N'. unfold no_delivery in N. rewrite forallb_app in N. apply andb_prop in N as [N1 N2].
    destruct (IH N1 (fun j h s0 J => One j h s0 (in_or_app _ _ _ (or_introl J))) v Ev) as [A B]. destruct (Rg_runs _ _ Ev N1) as (P & R). rewrite registered_app, <- A.
    unfold step in E. destruct (dead v); [discriminate|]. destruct a as [j h s0|j|]; [| |discriminate].
    - assert (j = i) as -> by (apply (One j h s0); apply in_or_app; right; left; reflexivity). destruct (stack v i) eqn:St; [|discriminate].
      unfold C_NSIG in E. destruct (_ || _) eqn:Bo; apply Ok_inj in E; subst w; cbn [to lists stack]; rewrite setn_same.
      + split; [|intros j Nj; rewrite setn_other by exact Nj; auto]. cbn [pending registered flat_map]. rewrite !app_nil_r.
        destruct (s0 =? s); [|rewrite app_nil_r; reflexivity]. destruct (Z.ltb_spec 0 s0), (Z.ltb_spec s0 64); cbn [andb]; try (rewrite app_nil_r; reflexivity). exfalso. lia.
      + split; [|intros j Nj; rewrite setn_other by exact Nj; auto]. cbn [pending registered flat_map]. rewrite !app_nil_r.
        destruct (s0 =? s); [|cbn [andb]; reflexivity]. destruct (Z.ltb_spec 0 s0), (Z.ltb_spec s0 64); cbn [andb]; try lia. reflexivity.
    - destruct (Nat.eq_dec j i) as [->|Nj]; [|unfold micro in E; rewrite (B j Nj) in E; discriminate].
      cbn [registered flat_map]. rewrite app_nil_r. unfold micro in E. destruct (r_stack _ _ _ R i) as [St|(h & s0 & pc & St & _)]; rewrite St in E; [discriminate|]. rewrite St. destruct pc.
      + destruct (lock v i s0) as [u|] eqn:L; [|discriminate]. apply Ok_inj in E. subst w. destruct (lock_fields _ _ _ _ L) as (L1 & _ & _ & L4 & _). cbn [to lists stack]. rewrite L1, L4, setn_same.
        split; [reflexivity|intros k Nk; rewrite setn_other by exact Nk; auto].
      + apply Ok_inj in E. subst w. cbn [to with_dispo lists stack]. rewrite setn_same. split; [reflexivity|intros k Nk; rewrite setn_other by exact Nk; auto].
      + destruct (torn v s0); [discriminate|]. apply Ok_inj in E. subst w. cbn [to with_list lists stack]. rewrite setn_same. split; [|intros k Nk; rewrite setn_other by exact Nk; auto].
        destruct (Z.eq_dec s s0) as [->|Ns]; [rewrite setz_same; reflexivity|rewrite setz_other by exact Ns; reflexivity].
      + apply Ok_inj in E. subst w. cbn [to with_list lists stack]. rewrite setn_same. split; [|intros k Nk; rewrite setn_other by exact Nk; auto]. cbn [pending].
        destruct (Z.eq_dec s s0) as [->|Ns]; [rewrite setz_same, Z.eqb_refl; cbn [andb]; apply app_nil_r|rewrite setz_other by exact Ns]. destruct (Z.eqb_spec s0 s); [congruence|reflexivity].
      + apply Ok_inj in E. subst w. destruct (unlock_fields v s0) as (L1 & _ & _ & L4 & _). cbn [to lists stack]. rewrite L1, L4, setn_same.
        split; [|intros k Nk; rewrite setn_other by exact Nk; auto]. cbn [pending]. rewrite andb_false_r. reflexivity. }
  destruct Q as [Q _]. rewrite I in Q. cbn [pending] in Q. rewrite app_nil_r in Q. exact Q.
Qed.
Print Assumptions C96_order.

(** ** Defects and examples *)
Definition steps (i : nat) (n : nat) : list label := repeat (LStep i) n.
(** Thread 0 registers 100 for SIGINT and 200 for SIGTERM. *)
Definition begun : list label := LReg 0 100 2 :: steps 0 5 ++ LReg 0 200 15 :: steps 0 5.
(** Defect: two threads that register are interrupted, each by the signal the other one registers for: no thread can go on, and none dies. *)
Theorem C96_deadlock_refuted : exists l w, runs fresh l = Ok w /\ dead w = false /\ stack w 1 <> [] /\ stack w 2 <> [] /\ forall i, micro w i = Diverge.
Proof.
  exists (begun ++ [LReg 1 101 2; LStep 1; LReg 2 201 15; LStep 2; LDeliver 1 15; LDeliver 2 2; LStep 1; LStep 2]). eexists.
  split; [vm_compute; reflexivity|]. split; [reflexivity|]. split; [discriminate|]. split; [discriminate|]. intros [|[|[|i]]]; reflexivity.
Qed.
Print Assumptions C96_deadlock_refuted.
(** Defect: a thread that registers is interrupted by that signal in the middle of the insertion, and the handler walks the list. *)
Theorem C96_interrupted_refuted : runs fresh (begun ++ LReg 1 101 2 :: steps 1 3 ++ LDeliver 1 2 :: steps 1 3) = UB.
Proof. vm_compute. reflexivity. Qed.
Print Assumptions C96_interrupted_refuted.
(** Defect: the signal is caught before the first handler is in the list: the process dies and the handler is not called. *)
Theorem C96_early_refuted : exists w, runs fresh (LReg 1 100 2 :: steps 1 2 ++ LDeliver 1 2 :: steps 1 5) = Ok w /\ dead w = true /\ calls w = [].
Proof. eexists. split; [vm_compute; reflexivity|]. split; reflexivity. Qed.
Print Assumptions C96_early_refuted.
(** Defect: two threads that are sent the signal before either ignores it both call the handlers. *)
Theorem C96_twice_refuted : exists w, runs fresh (begun ++ [LDeliver 1 2; LDeliver 2 2] ++ steps 1 4 ++ steps 2 4) = Ok w /\ map snd (calls w) = [100; 100] /\ dead w = false.
Proof. eexists. split; [vm_compute; reflexivity|]. split; reflexivity. Qed.
Print Assumptions C96_twice_refuted.
(** Defect: a signal that does not end a process, as SIGCHLD, is handled once only. *)
Theorem C96_once_refuted : exists w, runs fresh (LReg 0 100 17 :: steps 0 5 ++ LDeliver 0 17 :: steps 0 6 ++ [LDeliver 0 17; LDeliver 1 17]) = Ok w /\ map snd (calls w) = [100] /\ idle w /\ dead w = false.
Proof. eexists. split; [vm_compute; reflexivity|]. split; [reflexivity|]. split; [|reflexivity]. intros [|[|i]]; reflexivity. Qed.
Print Assumptions C96_once_refuted.
(** A signal in the middle of the handling of another one, in the same thread, and a second thread with both. *)
Example C96_ex : exists w, runs fresh (begun ++ [LDeliver 1 2; LStep 1; LStep 1; LDeliver 1 15; LDeliver 2 15; LStep 1; LStep 1; LStep 2; LStep 1; LStep 1; LStep 2; LStep 2] ++ steps 2 3) = Ok w /\
  map snd (calls w) = [200; 200] /\ dead w = true.
Proof. eexists. split; [vm_compute; reflexivity|]. split; reflexivity. Qed.
Example C96_begun : exists w, runs fresh begun = Ok w /\ lists w 2 = [100] /\ lists w 15 = [200] /\ dispo w 2 = Ours /\ dispo w 3 = Dfl /\ idle w.
Proof. eexists. split; [vm_compute; reflexivity|]. repeat split; try reflexivity. intros [|i]; reflexivity. Qed.

(** ** The name of the core file *)
Theorem C96_core add name pid : no_nul name -> in_range false true pid ->
  exists text, core_name add name pid = Ok text /\ (length text <= Z.to_nat 8190)%nat /\
    let whole := if add then name ++ lit "." ++ sprintf_ld pid else name in
    text = firstn (Z.to_nat 8190) whole /\ ((length whole <= Z.to_nat 8190)%nat -> text = whole).
Proof.
  intros N Rp. set (whole := if add then name ++ lit "." ++ sprintf_ld pid else name). exists (firstn (Z.to_nat 8190) whole).
  assert (D : (if add then denotes (lit "%s.%d") [AStr (Some name); AInt pid] else denotes (lit "%s") [AStr (Some name)]) = Ok whole).
  { unfold whole. destruct add.
    - use_pieces (sn name ++ plain (lit ".") ++ dn pid); try assumption. rewrite (c_str_id name N). reflexivity.
    - use_pieces (sn name); try assumption. rewrite (c_str_id name N). reflexivity. }
  split; [unfold core_name; rewrite D; reflexivity|]. split; [rewrite firstn_length; lia|]. split; [reflexivity|]. intros L. apply firstn_all2. exact L.
Qed.
Print Assumptions C96_core.
