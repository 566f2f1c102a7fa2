(** Properties of class Thread (C77). *)
From Verif Require Import Base BaseFacts TaskModel.
Local Open Scope Z_scope.

(** ** Specification: the history of one thread and of one Thread object, read off the observations *)
Definition about (t : nat) (o : obs) : bool :=
  match o with
  | Made _ => false
  | Started _ u _ _ _ | Ran u _ _ | Returned u | Joined _ u => Nat.eqb u t
  end.
Definition life (t : nat) (tr : list obs) : list obs := filter (about t) tr.
(** The thread that object i stands for: started last and not joined since. *)
Definition current (i : nat) (tr : list obs) : option nat :=
  fold_left (fun c o => match o with
                        | Started j t _ _ _ => if Nat.eqb j i then Some t else c
                        | Joined j _ => if Nat.eqb j i then None else c
                        | _ => c
                        end) tr None.
Definition whole_life (i t : nat) (task arg stack : Z) : list obs :=
  [Started i t task arg stack; Ran t task arg; Returned t; Joined i t].

(** ** Maps *)
Lemma get_put {A} (l : list (nat * A)) k v x : get (put l k v) x = if Nat.eqb k x then Some v else get l x.
Proof.
  unfold put. cbn [get]. destruct (Nat.eqb_spec k x); auto.
  induction l as [|[y w] l IH]; auto. unfold remove. cbn [filter fst].
  destruct (Nat.eqb_spec y k); cbn [negb get].
  - subst y. destruct (Nat.eqb_spec k x); [congruence|]. exact IH.
  - destruct (Nat.eqb y x); auto.
Qed.
Lemma get_remove {A} (l : list (nat * A)) k x : get (remove l k) x = if Nat.eqb k x then None else get l x.
Proof.
  induction l as [|[y w] l IH]; [destruct (Nat.eqb k x); auto|]. unfold remove in *. cbn [filter fst].
  destruct (Nat.eqb_spec y k); cbn [negb get].
  - subst y. rewrite IH. destruct (Nat.eqb k x); auto.
  - destruct (Nat.eqb_spec y x); [|exact IH]. subst y. destruct (Nat.eqb_spec k x); auto. congruence.
Qed.
Lemma get_cons {A} (l : list (nat * A)) k v x : get ((k, v) :: l) x = if Nat.eqb k x then Some v else get l x.
Proof. reflexivity. Qed.
Lemma get_none {A} (l : list (nat * A)) : (forall k, get l k = None) -> l = [].
Proof. destruct l as [|[k v] l]; auto. intros H. specialize (H k). cbn [get] in H. now rewrite Nat.eqb_refl in H. Qed.

Lemma life_app t a b : life t (a ++ b) = life t a ++ life t b.
Proof. apply filter_app. Qed.
Lemma current_app i a o : current i (a ++ [o]) =
  match o with
  | Started j t _ _ _ => if Nat.eqb j i then Some t else current i a
  | Joined j _ => if Nat.eqb j i then None else current i a
  | _ => current i a
  end.
Proof. unfold current. rewrite fold_left_app. reflexivity. Qed.

Lemma run_app l1 : forall w l2,
  run w (l1 ++ l2) = do (w1, a) <- run w l1; do (w2, b) <- run w1 l2; Ok (w2, a ++ b).
Proof.
  induction l1 as [|e l1 IH]; intros w l2; cbn [app run].
  - cbn [bind]. destruct (run w l2) as [[w2 b]| | |]; reflexivity.
  - destruct (step w e) as [[w1 a]| | |]; cbn [bind]; auto. rewrite IH.
    destruct (run w1 l1) as [[w2 b]| | |]; cbn [bind]; auto.
    destruct (run w2 l2) as [[w3 c]| | |]; cbn [bind]; auto. now rewrite app_assoc.
Qed.
Lemma run_snoc w l e w' tr : run w (l ++ [e]) = Ok (w', tr) ->
  exists w1 a b, run w l = Ok (w1, a) /\ step w1 e = Ok (w', b) /\ tr = a ++ b.
Proof.
  rewrite run_app. cbn [run]. destruct (run w l) as [[w1 a]| | |]; cbn [bind]; try discriminate.
  destruct (step w1 e) as [[w2 b]| | |] eqn:E; cbn [bind]; try discriminate.
  intros H. apply Ok_inj in H. inversion H. subst. rewrite app_nil_r. exists w1, a, b. auto.
Qed.

(** ** The invariant *)
Definition at_pc (w : world) (t : nat) (c : pc) (tr : list obs) : Prop :=
  exists i task arg st,
    match c with
    | Enter p => t = S p /\ get (heap w) p = Some (task, arg) /\ life t tr = [Started i t task arg st]
    | HasTask p task' => t = S p /\ task' = task /\ get (heap w) p = Some (task, arg) /\ life t tr = [Started i t task arg st]
    | HasBoth p task' arg' => t = S p /\ task' = task /\ arg' = arg /\ get (heap w) p = Some (task, arg) /\ life t tr = [Started i t task arg st]
    | Calling task' arg' => task' = task /\ arg' = arg /\ life t tr = [Started i t task arg st]
    | InTask => life t tr = [Started i t task arg st; Ran t task arg]
    | Finished => life t tr = [Started i t task arg st; Ran t task arg; Returned t]
    end.
Definition holds (c : pc) : option nat := match c with Enter p | HasTask p _ | HasBoth p _ _ => Some p | _ => None end.
Record inv (w : world) (tr : list obs) : Prop := {
  i_thr : forall t c, get (threads w) t = Some c -> at_pc w t c tr;
  i_gone : forall t, get (threads w) t = None -> life t tr = [] \/ exists i task arg st, life t tr = whole_life i t task arg st;
  i_heap : forall p b, get (heap w) p = Some b -> exists c, get (threads w) (S p) = Some c /\ holds c = Some p;
  i_obj : forall i o, get (objs w) i = Some o -> mThread o = current i tr;
  i_cur : forall i t, get (objs w) i <> None -> current i tr = Some t ->
            get (threads w) t <> None /\ exists task arg st rest, life t tr = Started i t task arg st :: rest;
  i_fresh : forall t, (fresh w <= t)%nat -> get (threads w) t = None /\ get (heap w) t = None /\ life t tr = [] /\ get (objs w) t = None /\ current t tr = None;
  i_pos : get (threads w) 0 = None /\ life 0 tr = [];
  i_curt : forall i t, current i tr = Some t -> (t < fresh w)%nat }.

Lemma inv0 : inv world0 [].
Proof. constructor; cbn; intros; try discriminate; try congruence; auto. Qed.

Lemma life1 t tr o : life t (tr ++ [o]) = life t tr ++ (if about t o then [o] else []).
Proof. rewrite life_app. unfold life at 2. cbn [filter]. destruct (about t o); reflexivity. Qed.

Ltac nb := match goal with
  | |- context [Nat.eqb ?a ?b] => destruct (Nat.eqb_spec a b)
  | H : context [Nat.eqb ?a ?b] |- _ => destruct (Nat.eqb_spec a b)
  end.

Lemma inv_start w tr i o0 o task arg code w' b :
  inv w tr -> get (objs w) i = Some o0 -> mThread o = mThread o0 ->
  start w i o task arg code = Ok (w', b) -> inv w' (tr ++ b).
Proof.
  intros I G E. unfold start, assert_. rewrite E. pose proof (i_obj _ _ I _ _ G) as EC.
  destruct (mThread o0) eqn:E0; [discriminate|]. cbn [bind].
  destruct (negb (to_bool (setstacksize (mStackSize o)))); [|discriminate]. cbn [bind].
  destruct (negb (to_bool code)); [|discriminate]. cbn [bind]. intros H. apply Ok_inj in H. inversion H. subst w' b. clear H.
  set (p := fresh w) in *.
  destruct (i_fresh _ _ I p ltac:(lia)) as (F1 & F2 & F3 & F4 & F5).
  destruct (i_fresh _ _ I (S p) ltac:(lia)) as (G1 & G2 & G3 & G4 & G5).
  assert (NI : (i < p)%nat).
  { destruct (Nat.lt_ge_cases i p) as [|C]; auto. destruct (i_fresh _ _ I i C) as (_ & _ & _ & X & _). congruence. }
  constructor; cbn [heap threads objs fresh].
  - intros t c. rewrite get_cons. nb.
    + intros X. injection X as <-. subst t. exists i, task, arg, (mStackSize o). cbn [heap]. rewrite get_cons, Nat.eqb_refl.
      repeat split; auto. rewrite life1, G3. cbn [about]. now rewrite Nat.eqb_refl.
    + intros X. pose proof (i_thr _ _ I _ _ X) as (i' & ta & ar & st & Y). exists i', ta, ar, st.
      assert (LE : life t (tr ++ [Started i (S p) task arg (mStackSize o)]) = life t tr).
      { rewrite life1. cbn [about]. destruct (Nat.eqb_spec (S p) t); [congruence|]. apply app_nil_r. }
      rewrite LE. destruct c; cbn [heap]; rewrite ?get_cons; auto.
      * destruct Y as (Y1 & Y2 & Y3). assert (NP : p <> p0) by (intros ->; congruence).
        destruct (Nat.eqb_spec p p0); [congruence|]. auto.
      * destruct Y as (Y1 & Y0 & Y2 & Y3). destruct (Nat.eqb_spec p p0); [congruence|]. auto.
      * destruct Y as (Y1 & Y0 & Y4 & Y2 & Y3). destruct (Nat.eqb_spec p p0); [congruence|]. auto.
  - intros t. rewrite get_cons. nb; [discriminate|]. intros X.
    rewrite life1. cbn [about]. destruct (Nat.eqb_spec (S p) t); [congruence|]. rewrite app_nil_r. apply (i_gone _ _ I _ X).
  - intros q bl. rewrite get_cons. nb.
    + intros _. subst q. rewrite get_cons, Nat.eqb_refl. exists (Enter p). auto.
    + intros X. destruct (i_heap _ _ I _ _ X) as (c & Y1 & Y2). exists c. split; auto.
      rewrite get_cons. destruct (Nat.eqb_spec (S p) (S q)); [congruence|]. auto.
  - intros j x. rewrite get_put, current_app. nb.
    + intros X. injection X as <-. reflexivity.
    + apply (i_obj _ _ I).
  - intros j t. rewrite get_put, current_app, get_cons. destruct (Nat.eqb_spec i j) as [Ej|Ej].
    + intros _ X. injection X as <-. rewrite Nat.eqb_refl. split; [discriminate|].
      exists task, arg, (mStackSize o), []. subst j. rewrite life1, G3. cbn [about]. now rewrite Nat.eqb_refl.
    + intros X Y. destruct (i_cur _ _ I _ _ X Y) as (Z1 & ta & ar & st & rest & Z2).
      assert (t <> S p) by congruence.
      destruct (Nat.eqb_spec (S p) t); [congruence|]. split; auto.
      exists ta, ar, st, rest. rewrite life1. cbn [about]. destruct (Nat.eqb_spec (S p) t); [congruence|]. now rewrite app_nil_r.
  - intros t L. destruct (i_fresh _ _ I t ltac:(lia)) as (X1 & X2 & X3 & X4 & X5).
    rewrite !get_cons, get_put, current_app, life1. cbn [about].
    destruct (Nat.eqb_spec (S p) t); [lia|]. destruct (Nat.eqb_spec p t); [lia|]. destruct (Nat.eqb_spec i t); [lia|].
    rewrite app_nil_r. auto.
  - rewrite get_cons, life1. cbn [about Nat.eqb]. rewrite app_nil_r. apply (i_pos _ _ I).
  - intros j t. rewrite current_app. nb.
    + intros X. injection X as <-. lia.
    + intros X. pose proof (i_curt _ _ I _ _ X). fold p in H. lia.
Qed.

(** A step of thread t that adds observations only about t, and touches only its own block. *)
Lemma inv_move w tr t c h c' b :
  inv w tr -> get (threads w) t = Some c ->
  (forall q, get h q = get (heap w) q \/ (get h q = None /\ t = S q)) ->
  (forall q, get h q <> None -> t = S q -> holds c' = Some q) ->
  (b = [] \/ exists ta ar, b = [Ran t ta ar]) \/ b = [Returned t] ->
  at_pc (World h (put (threads w) t c') (objs w) (fresh w)) t c' (tr ++ b) ->
  inv (World h (put (threads w) t c') (objs w) (fresh w)) (tr ++ b).
Proof.
  intros I G HH HP HB HA.
  assert (LB : forall u, u <> t -> life u (tr ++ b) = life u tr).
  { intros u Nu. rewrite life_app. replace (life u b) with (@nil obs); [apply app_nil_r|].
    destruct HB as [[->|(ta & ar & ->)]| ->]; unfold life; cbn [filter about]; auto;
      (destruct (Nat.eqb_spec t u); [congruence|]; reflexivity). }
  assert (CB : forall i, current i (tr ++ b) = current i tr).
  { intros i. destruct HB as [[->|(ta & ar & ->)]| ->]; [now rewrite app_nil_r| |]; rewrite current_app; reflexivity. }
  constructor; cbn [heap threads objs fresh].
  - intros u x. rewrite get_put. nb.
    + intros X. injection X as <-. now subst u.
    + intros X. pose proof (i_thr _ _ I _ _ X) as (i' & ta & ar & st & Y). exists i', ta, ar, st.
      rewrite (LB u) by congruence.
      assert (KEEP : forall q v, u = S q -> get (heap w) q = Some v -> get h q = Some v).
      { intros q v Eq Gq. destruct (HH q) as [->|(_ & Z)]; auto. congruence. }
      destruct x; cbn [heap]; auto.
      * destruct Y as (Y1 & Y2 & Y3). auto.
      * destruct Y as (Y1 & Y0 & Y2 & Y3). auto.
      * destruct Y as (Y1 & Y0 & Y4 & Y2 & Y3). auto 6.
  - intros u. rewrite get_put. nb; [discriminate|]. intros X. rewrite (LB u) by congruence. apply (i_gone _ _ I _ X).
  - intros q bl X. rewrite get_put. nb.
    + exists c'. split; auto. apply (HP q); congruence.
    + apply (i_heap _ _ I q bl). destruct (HH q) as [<-|(Z & _)]; auto. congruence.
  - intros i o X. rewrite CB. apply (i_obj _ _ I _ _ X).
  - intros i u X Y. rewrite CB in Y. destruct (i_cur _ _ I _ _ X Y) as (Z1 & ta & ar & st & rest & Z2).
    split; [rewrite get_put; nb; congruence|].
    destruct (Nat.eq_dec u t) as [->|Nu].
    + rewrite life_app, Z2. cbn [app]. exists ta, ar, st. eexists. reflexivity.
    + rewrite (LB u Nu). exists ta, ar, st, rest. auto.
  - intros u L. destruct (i_fresh _ _ I u L) as (X1 & X2 & X3 & X4 & X5).
    assert (Nu : u <> t) by congruence. rewrite (LB u Nu), CB, get_put.
    destruct (Nat.eqb_spec t u); [congruence|]. repeat split; auto.
    destruct (HH u) as [->|(Z & _)]; auto.
  - destruct (i_pos _ _ I) as (X1 & X2). assert (Nu : 0%nat <> t) by congruence.
    rewrite (LB 0%nat Nu), get_put. destruct (Nat.eqb_spec t 0); [congruence|]. auto.
  - intros i u. rewrite CB. apply (i_curt _ _ I).
Qed.

Lemma inv_step w tr e w' b : inv w tr -> step w e = Ok (w', b) -> inv w' (tr ++ b).
Proof.
  intros I. destruct e as [stack|i task arg code|i task arg stack code|b0 i|i|t]; cbn [step].
  - intros H. apply Ok_inj in H. inversion H. subst w' b. clear H.
    destruct (i_fresh _ _ I (fresh w) ltac:(lia)) as (F1 & F2 & F3 & F4 & F5).
    assert (LE : forall t, life t (tr ++ [Made (fresh w)]) = life t tr).
    { intros t. rewrite life1. cbn [about]. apply app_nil_r. }
    constructor; cbn [heap threads objs fresh].
    + intros t c X. pose proof (i_thr _ _ I _ _ X) as Y. unfold at_pc in *. cbn [heap]. now rewrite LE.
    + intros t X. rewrite LE. apply (i_gone _ _ I _ X).
    + apply (i_heap _ _ I).
    + intros i o. rewrite get_put, current_app. nb; [|apply (i_obj _ _ I)].
      intros X. injection X as <-. subst i. now rewrite F5.
    + intros i t. rewrite get_put, current_app. nb.
      * subst i. congruence.
      * intros X Y. rewrite LE. apply (i_cur _ _ I _ _ X Y).
    + intros t L. destruct (i_fresh _ _ I t ltac:(lia)) as (X1 & X2 & X3 & X4 & X5).
      rewrite LE, current_app, get_put. nb; [lia|]. auto.
    + rewrite LE. apply (i_pos _ _ I).
    + intros i t. rewrite current_app. intros X. pose proof (i_curt _ _ I _ _ X). lia.
  - destruct (get (objs w) i) as [o|] eqn:G; [|discriminate]. intros H. exact (inv_start _ _ _ _ _ _ _ _ _ _ I G eq_refl H).
  - destruct (get (objs w) i) as [o|] eqn:G; [|discriminate]. intros H. exact (inv_start _ _ _ _ (Thread_ (mThread o) (u64 stack)) _ _ _ _ _ I G eq_refl H).
  - destruct (get (objs w) i) as [o|] eqn:G; [|discriminate]. unfold join.
    destruct (mThread o) as [t|] eqn:ET; [|discriminate]. unfold assert_.
    destruct (negb _); [|discriminate]. cbn [bind].
    destruct (get (threads w) t) as [c|] eqn:GT; [|discriminate]. destruct c; try discriminate.
    intros H. apply Ok_inj in H. inversion H. subst w' b. clear H.
    pose proof (i_obj _ _ I _ _ G) as EC. rewrite ET in EC. symmetry in EC.
    destruct (i_cur _ _ I i t ltac:(congruence) EC) as (_ & ta & ar & st & rest & EL).
    destruct (i_thr _ _ I _ _ GT) as (i' & ta' & ar' & st' & EL').
    rewrite EL in EL'. injection EL' as <- <- <- <- ->.
    assert (LE : forall u, u <> t -> life u (tr ++ [Joined i t]) = life u tr).
    { intros u Nu. rewrite life1. cbn [about]. destruct (Nat.eqb_spec t u); [congruence|]. apply app_nil_r. }
    assert (LT : (i < fresh w)%nat).
    { destruct (Nat.lt_ge_cases i (fresh w)) as [|C]; auto. destruct (i_fresh _ _ I i C) as (_ & _ & _ & X & _). congruence. }
    constructor; cbn [heap threads objs fresh].
    + intros u x. rewrite get_remove. nb; [discriminate|]. intros X.
      pose proof (i_thr _ _ I _ _ X) as Y. unfold at_pc in *. cbn [heap]. rewrite (LE u) by congruence. exact Y.
    + intros u. rewrite get_remove. nb.
      * intros _. subst u. right. exists i, ta, ar, st. rewrite life1, EL. cbn [about]. rewrite Nat.eqb_refl. reflexivity.
      * intros X. rewrite (LE u) by congruence. apply (i_gone _ _ I _ X).
    + intros p bl X. destruct (i_heap _ _ I _ _ X) as (c & Y1 & Y2). exists c. split; auto.
      rewrite get_remove. nb; auto. subst t. rewrite GT in Y1. injection Y1 as <-. discriminate.
    + intros j x. rewrite get_put, current_app. nb; [|apply (i_obj _ _ I)]. intros X. injection X as <-. reflexivity.
    + intros j u. rewrite get_put, current_app. nb; [intros _ X; discriminate|]. intros X Y.
      destruct (i_cur _ _ I _ _ X Y) as (Z1 & ta2 & ar2 & st2 & rest2 & Z2).
      assert (Nu : u <> t) by (intros ->; rewrite EL in Z2; congruence).
      rewrite get_remove, (LE u Nu). destruct (Nat.eqb_spec t u); [congruence|]. split; auto.
      exists ta2, ar2, st2, rest2. auto.
    + intros u L. destruct (i_fresh _ _ I u L) as (X1 & X2 & X3 & X4 & X5).
      assert (Nu : u <> t) by congruence. rewrite (LE u Nu), get_remove, get_put, current_app, X1, X2, X4, X5.
      destruct (Nat.eqb t u); destruct (Nat.eqb_spec i u); auto; lia.
    + destruct (i_pos _ _ I) as (X1 & X2). assert (Nu : 0%nat <> t) by congruence.
      rewrite (LE _ Nu), get_remove, X1. destruct (Nat.eqb t 0); auto.
    + intros j u. rewrite current_app. nb; [discriminate|]. apply (i_curt _ _ I).
  - destruct (get (objs w) i) as [o|] eqn:G; [|discriminate].
    intros H. apply Ok_inj in H. inversion H. subst w' b. clear H. rewrite app_nil_r.
    destruct I as [I1 I2 I3 I4 I5 I6 I7 I8]. constructor; cbn [heap threads objs fresh]; auto.
    + intros j x. rewrite get_remove. nb; [discriminate|]. apply I4.
    + intros j t. rewrite get_remove. nb; [congruence|]. apply I5.
    + intros t L. destruct (I6 t L) as (X1 & X2 & X3 & X4 & X5). rewrite get_remove, X4. destruct (Nat.eqb i t); auto.
  - unfold step_thread. destruct (get (threads w) t) as [c|] eqn:GT; [|discriminate].
    pose proof (i_thr _ _ I _ _ GT) as (i' & ta & ar & st & Y).
    assert (HE : forall q, get (heap w) q <> None -> t = S q -> holds c = Some q).
    { intros q Hq ->. destruct (get (heap w) q) as [bl|] eqn:Gq; [|congruence].
      destruct (i_heap _ _ I _ _ Gq) as (c2 & Y1 & Y2). congruence. }
    destruct c as [p|p task|p task arg|task arg| |]; try discriminate.
    + destruct Y as (Y1 & Y2 & Y3). rewrite Y2. intros H. apply Ok_inj in H. inversion H. subst w' b.
      apply inv_move with (c := Enter p); auto. exists i', ta, ar, st. cbn [heap]. rewrite app_nil_r. auto.
    + destruct Y as (Y1 & Y0 & Y2 & Y3). rewrite Y2. intros H. apply Ok_inj in H. inversion H. subst w' b.
      apply inv_move with (c := HasTask p task); auto. exists i', ta, ar, st. cbn [heap]. rewrite app_nil_r. auto.
    + destruct Y as (Y1 & Y0 & Y4 & Y2 & Y3). rewrite Y2. intros H. apply Ok_inj in H. inversion H. subst w' b.
      apply inv_move with (c := HasBoth p task arg); auto.
      * intros q. rewrite get_remove. destruct (Nat.eqb_spec p q); auto. subst. auto.
      * intros q. rewrite get_remove. destruct (Nat.eqb_spec p q); congruence.
      * exists i', ta, ar, st. cbn [heap]. rewrite app_nil_r. auto.
    + destruct Y as (Y0 & Y4 & Y3). intros H. apply Ok_inj in H. inversion H. subst w' b.
      apply inv_move with (c := Calling task arg); auto.
      * left. right. eauto.
      * exists i', ta, ar, st. rewrite life1, Y3. cbn [about]. rewrite Nat.eqb_refl. subst. reflexivity.
    + intros H. apply Ok_inj in H. inversion H. subst w' b.
      apply inv_move with (c := InTask); auto.
      exists i', ta, ar, st. rewrite life1, Y. cbn [about]. rewrite Nat.eqb_refl. reflexivity.
Qed.

Lemma reach l : forall w tr, run world0 l = Ok (w, tr) -> inv w tr.
Proof.
  induction l as [|e l IH] using rev_ind; intros w tr H.
  - apply Ok_inj in H. inversion H. subst. apply inv0.
  - destruct (run_snoc _ _ _ _ _ H) as (w1 & a & b & H1 & H2 & ->). eapply inv_step; eauto.
Qed.

(** ** C77 *)
(** Whatever the schedule, the history of each thread is an initial part of: started, its task
    called once with its argument, returned, joined by the object that started it. *)
Theorem C77_life : forall l w tr t, run world0 l = Ok (w, tr) ->
  exists i task arg stack rest, life t tr ++ rest = whole_life i t task arg stack.
Proof.
  intros l w tr t H. pose proof (reach _ _ _ H) as I.
  destruct (get (threads w) t) as [c|] eqn:G.
  - destruct (i_thr _ _ I _ _ G) as (i & ta & ar & st & Y). exists i, ta, ar, st.
    destruct c; repeat match type of Y with _ /\ _ => destruct Y as [_ Y] end; rewrite Y; unfold whole_life; eexists; reflexivity.
  - destruct (i_gone _ _ I _ G) as [E|(i & ta & ar & st & E)]; rewrite E.
    + exists 0%nat, 0, 0, 0. eexists. reflexivity.
    + exists i, ta, ar, st, []. apply app_nil_r.
Qed.
Print Assumptions C77_life.

Lemma life_in t tr o : about t o = true -> In o (life t tr) <-> In o tr.
Proof. unfold life. rewrite filter_In. tauto. Qed.
Lemma seen tr t : (exists i task arg st, In (Started i t task arg st) tr) -> life t tr <> [].
Proof.
  intros (i & ta & ar & st & X) E. apply (life_in t) in X; [|cbn [about]; apply Nat.eqb_refl]. rewrite E in X. destruct X.
Qed.
Lemma returned_in tr t : In (Returned t) tr <-> In (Returned t) (life t tr).
Proof. symmetry. apply life_in. cbn [about]. apply Nat.eqb_refl. Qed.

(** A thread that was started and has not returned can always go on: thread_main never uses
    a wrapArgs that is gone. *)
Theorem C77_goes_on : forall l w tr i t task arg stack, run world0 l = Ok (w, tr) ->
  In (Started i t task arg stack) tr -> ~ In (Returned t) tr ->
  exists w' b, step w (Step t) = Ok (w', b).
Proof.
  intros l w tr i t task arg stack H HS HR. pose proof (reach _ _ _ H) as I.
  assert (NE : life t tr <> []) by (apply seen; eauto). rewrite returned_in in HR.
  cbn [step]. unfold step_thread. destruct (get (threads w) t) as [c|] eqn:G.
  - destruct (i_thr _ _ I _ _ G) as (i' & ta & ar & st & Y). destruct c.
    + destruct Y as (_ & -> & _). eauto.
    + destruct Y as (_ & _ & -> & _). eauto.
    + destruct Y as (_ & _ & _ & -> & _). eauto.
    + eauto.
    + eauto.
    + exfalso. apply HR. rewrite Y. cbn [In]. auto.
  - exfalso. destruct (i_gone _ _ I _ G) as [E|(i' & ta & ar & st & E)]; [auto|].
    apply HR. rewrite E. cbn [In whole_life]. auto.
Qed.
Print Assumptions C77_goes_on.

(** Undefined behaviour: exactly the use of an object that does not exist, and joining an object
    that was not started or was joined already. *)
Theorem C77_undefined : forall l w tr e, run world0 l = Ok (w, tr) ->
  step w e = UB <->
  match e with
  | Start i _ _ _ | Start2 i _ _ _ _ | Destroy i => get (objs w) i = None
  | Join _ i => get (objs w) i = None \/ current i tr = None
  | New _ | Step _ => False
  end.
Proof.
  intros l w tr e H. pose proof (reach _ _ _ H) as I.
  assert (ST : forall i o ta ar co, start w i o ta ar co <> UB).
  { intros i o ta ar co. unfold start, assert_. destruct (mThread o); [discriminate|]. cbn [bind].
    destruct (negb (to_bool (setstacksize (mStackSize o)))); [|discriminate]. cbn [bind].
    destruct (negb (to_bool co)); discriminate. }
  destruct e as [stack|i task arg code|i task arg stack code|b0 i|i|t]; cbn [step].
  - split; [discriminate|tauto].
  - destruct (get (objs w) i); split; intros X; congruence.
  - destruct (get (objs w) i); split; intros X; congruence.
  - destruct (get (objs w) i) as [o|] eqn:G; [|split; auto].
    pose proof (i_obj _ _ I _ _ G) as EC. unfold join. rewrite EC.
    destruct (current i tr) as [t|] eqn:C; [|split; auto].
    destruct (i_cur _ _ I i t ltac:(congruence) C) as (NT & _).
    destruct (get (threads w) t) as [c|]; [|congruence].
    split; [|intros [X|X]; congruence]. unfold assert_. destruct (negb _); [|discriminate]. cbn [bind].
    destruct c; discriminate.
  - destruct (get (objs w) i); split; congruence.
  - split; [|tauto]. unfold step_thread. destruct (get (threads w) t) as [c|] eqn:G; [|discriminate].
    destruct (i_thr _ _ I _ _ G) as (i' & ta & ar & st & Y). destruct c; try discriminate.
    + destruct Y as (_ & -> & _). discriminate.
    + destruct Y as (_ & _ & -> & _). discriminate.
    + destruct Y as (_ & _ & _ & -> & _). discriminate.
Qed.
Print Assumptions C77_undefined.

(** start aborts exactly if the object was started and not joined since (even if the task has
    returned), if the stack is below 16384 bytes, or if the thread cannot be made.  Otherwise a
    new thread is started.  start2 sets the stack size first; a negative one is a huge one. *)
Definition start_spec (w : world) (tr : list obs) (i : nat) (task arg code stack : Z) (r : res (world * list obs)) : Prop :=
  (current i tr <> None \/ stack < 16384 \/ code <> 0 -> r = Abort) /\
  (current i tr = None -> 16384 <= stack -> code = 0 ->
     exists w' t, r = Ok (w', [Started i t task arg stack]) /\ life t tr = [] /\ exists o, get (objs w') i = Some o /\ mStackSize o = stack).
Lemma start_ok w tr i o o0 task arg code : inv w tr -> get (objs w) i = Some o0 -> mThread o = mThread o0 ->
  start_spec w tr i task arg code (mStackSize o) (start w i o task arg code).
Proof.
  intros I G E. pose proof (i_obj _ _ I _ _ G) as EC. unfold start_spec, start, assert_. rewrite E, EC.
  unfold setstacksize, to_bool, EINVAL. split.
  - intros [X|[X|X]].
    + destruct (current i tr); [reflexivity|congruence].
    + destruct (current i tr); [reflexivity|]. cbn [bind]. destruct (Z.ltb_spec (mStackSize o) 16384); [reflexivity|lia].
    + destruct (current i tr); [reflexivity|]. cbn [bind].
      destruct (Z.ltb (mStackSize o) 16384); [reflexivity|]. cbn. destruct (Z.eqb_spec code 0); [congruence|reflexivity].
  - intros -> X ->. cbn [bind]. destruct (Z.ltb_spec (mStackSize o) 16384); [lia|]. cbn [Z.eqb negb bind]. eexists. exists (S (fresh w)).
    split; [reflexivity|]. split.
    + destruct (i_fresh _ _ I (S (fresh w)) ltac:(lia)) as (_ & _ & Y & _). exact Y.
    + eexists. cbn [objs]. rewrite get_put, Nat.eqb_refl. split; reflexivity.
Qed.
Theorem C77_start : forall l w tr i o task arg code, run world0 l = Ok (w, tr) -> get (objs w) i = Some o ->
  start_spec w tr i task arg code (mStackSize o) (step w (Start i task arg code)).
Proof.
  intros l w tr i o task arg code H G. pose proof (reach _ _ _ H) as I. cbn [step]. rewrite G.
  exact (start_ok _ _ _ _ _ _ _ _ I G eq_refl).
Qed.
Print Assumptions C77_start.
Theorem C77_start2 : forall l w tr i o task arg code stack, run world0 l = Ok (w, tr) -> get (objs w) i = Some o ->
  -2^31 <= stack < 2^31 ->
  start_spec w tr i task arg code (if stack <? 0 then stack + 2^64 else stack) (step w (Start2 i task arg stack code)).
Proof.
  intros l w tr i o task arg code stack H G R. pose proof (reach _ _ _ H) as I. cbn [step]. rewrite G.
  replace (if stack <? 0 then stack + 2 ^ 64 else stack) with (mStackSize (Thread_ (mThread o) (u64 stack))).
  - exact (start_ok _ _ _ (Thread_ (mThread o) (u64 stack)) _ _ _ _ I G eq_refl).
  - cbn [mStackSize]. unfold u64. destruct (Z.ltb_spec stack 0); lia.
Qed.
Print Assumptions C77_start2.

(** join waits for the task of the last start to return; then the object can be started again. *)
Theorem C77_join : forall l w tr i o t b, run world0 l = Ok (w, tr) -> get (objs w) i = Some o -> current i tr = Some t ->
  (b = Some t -> step w (Join b i) = Abort) /\
  (b <> Some t -> ~ In (Returned t) tr -> step w (Join b i) = Diverge) /\
  (b <> Some t -> In (Returned t) tr -> exists w', step w (Join b i) = Ok (w', [Joined i t]) /\ current i (tr ++ [Joined i t]) = None
     /\ get (objs w') i = Some (Thread_ None (mStackSize o))).
Proof.
  intros l w tr i o t b H G C. pose proof (reach _ _ _ H) as I. cbn [step]. rewrite G. unfold join.
  pose proof (i_obj _ _ I _ _ G) as EC. rewrite EC, C. rewrite returned_in.
  destruct (i_cur _ _ I i t ltac:(congruence) C) as (NT & ta & ar & st & rest & EL).
  destruct (get (threads w) t) as [c|] eqn:GT; [|congruence].
  assert (EB : match b with Some b => Nat.eqb b t | None => false end = true <-> b = Some t).
  { destruct b as [b|]; [|split; discriminate]. rewrite Nat.eqb_eq. split; congruence. }
  unfold assert_. destruct (match b with Some b => Nat.eqb b t | None => false end); cbn [negb].
  - destruct EB as [EB _]. specialize (EB eq_refl). subst b. repeat split; try congruence. 
  - destruct EB as [_ EB]. split; [intros X; specialize (EB X); discriminate|]. cbn [bind].
    destruct (i_thr _ _ I _ _ GT) as (i' & ta' & ar' & st' & Y).
    destruct c; (split; [intros NB NR|intros NB IR]);
      repeat match type of Y with _ /\ _ => destruct Y as [_ Y] end; rewrite Y in *; cbn [In] in *;
      try reflexivity; try (exfalso; destruct IR as [X|X]; [discriminate X|]; tauto);
      try (exfalso; intuition discriminate).
    eexists. split; [reflexivity|]. rewrite current_app, Nat.eqb_refl. split; auto. cbn [objs get put]. now rewrite Nat.eqb_refl.
Qed.
Print Assumptions C77_join.

(** Each start's wrapArgs is freed before the task is called; none is left when all tasks were called. *)
Theorem C77_freed : forall l w tr, run world0 l = Ok (w, tr) ->
  (forall i t task arg stack, In (Started i t task arg stack) tr -> In (Ran t task arg) tr) -> heap w = [].
Proof.
  intros l w tr H A. pose proof (reach _ _ _ H) as I. apply get_none. intros p.
  destruct (get (heap w) p) as [bl|] eqn:G; auto. exfalso.
  destruct (i_heap _ _ I _ _ G) as (c & G1 & G2). destruct (i_thr _ _ I _ _ G1) as (i & ta & ar & st & Y).
  assert (E : life (S p) tr = [Started i (S p) ta ar st]).
  { destruct c; try discriminate; decompose [and] Y; auto. }
  assert (X : In (Ran (S p) ta ar) tr).
  { apply (A i (S p) ta ar st). apply (life_in (S p)); [apply Nat.eqb_refl|]. rewrite E. left. reflexivity. }
  apply (life_in (S p)) in X; [|apply Nat.eqb_refl]. rewrite E in X. destruct X as [X|[]]. discriminate X.
Qed.
Print Assumptions C77_freed.

(** The system keeps a thread exactly until it is joined: destroying the object does not end it,
    and what was not joined is never released. *)
Theorem C77_unjoined : forall l w tr t, run world0 l = Ok (w, tr) ->
  get (threads w) t <> None <->
  (exists i task arg stack, In (Started i t task arg stack) tr) /\ ~ (exists i, In (Joined i t) tr).
Proof.
  intros l w tr t H. pose proof (reach _ _ _ H) as I.
  assert (EJ : (exists i, In (Joined i t) tr) <-> exists i, In (Joined i t) (life t tr)).
  { split; intros (i & X); exists i; apply (life_in t); auto; cbn [about]; apply Nat.eqb_refl. }
  assert (ES : (exists i task arg stack, In (Started i t task arg stack) tr) <-> exists i task arg stack, In (Started i t task arg stack) (life t tr)).
  { split; intros (i & ta & ar & st & X); exists i, ta, ar, st; apply (life_in t); auto; cbn [about]; apply Nat.eqb_refl. }
  rewrite EJ, ES. destruct (get (threads w) t) as [c|] eqn:G.
  - split; [intros _|discriminate]. destruct (i_thr _ _ I _ _ G) as (i & ta & ar & st & Y).
    destruct c; repeat match type of Y with _ /\ _ => destruct Y as [_ Y] end; rewrite Y; cbn [In];
      (split; [exists i, ta, ar, st; auto|intros (i2 & X); intuition discriminate]).
  - split; [congruence|]. intros ((i & ta & ar & st & X) & NJ). exfalso.
    destruct (i_gone _ _ I _ G) as [E|(i' & ta' & ar' & st' & E)]; rewrite E in *.
    + destruct X.
    + apply NJ. exists i'. unfold whole_life. cbn [In]. auto.
Qed.
Print Assumptions C77_unjoined.

(** Defect: the alert for a failed start names error 1 (operation not permitted) whatever went wrong. *)
Theorem C77_alert_refuted : forall code, code <> 0 -> alert_error code = Some 1.
Proof. intros code H. unfold alert_error, to_bool. destruct (Z.eqb_spec code 0); [congruence|reflexivity]. Qed.
Print Assumptions C77_alert_refuted.

(** A Thread made with a stack size has it and has not been started; nothing else changes. *)
Theorem C77_new : forall l w tr stack, run world0 l = Ok (w, tr) -> exists i w', step w (New stack) = Ok (w', [Made i]) /\
  get (objs w) i = None /\ get (objs w') i = Some (Thread_ None stack) /\ current i (tr ++ [Made i]) = None /\
  (forall j, j <> i -> get (objs w') j = get (objs w) j) /\ heap w' = heap w /\ threads w' = threads w.
Proof.
  intros l w tr stack H. pose proof (reach _ _ _ H) as I. destruct (i_fresh _ _ I (fresh w) (le_n _)) as (_ & _ & _ & F4 & F5).
  exists (fresh w). eexists. split; [reflexivity|]. cbn [objs heap threads]. split; [exact F4|]. split; [rewrite get_put, Nat.eqb_refl; reflexivity|].
  split; [unfold current in *; rewrite fold_left_app, F5; reflexivity|]. split; [|split; reflexivity]. intros j N. rewrite get_put. destruct (Nat.eqb_spec (fresh w) j); [congruence|reflexivity].
Qed.
Print Assumptions C77_new.

(** Two threads with their steps mixed, the first joined and its object started again. *)
Example C77_ex : exists w,
  run world0 [New 65536; New 65536; Start 0 7 70 0; Start2 1 8 80 20000 0; Step 3; Step 5; Step 5; Step 3; Step 3; Step 3; Step 3;
              Step 5; Join None 0; Start 0 9 90 0; Step 5]
  = Ok (w, [Made 0; Made 1; Started 0 3 7 70 65536; Started 1 5 8 80 20000; Ran 3 7 70; Returned 3; Joined 0 3;
            Started 0 7 9 90 65536; Ran 5 8 80]) /\ heap w = [(6%nat, (9, 90))] /\ map fst (threads w) = [5%nat; 7%nat].
Proof. vm_compute. eexists. repeat split. Qed.
Example C77_ex_restart : run world0 [New 65536; Start 0 7 70 0; Step 2; Step 2; Step 2; Step 2; Step 2; Start 0 7 71 0] = Abort.
Proof. reflexivity. Qed.
Example C77_ex_join_twice : run world0 [New 65536; Start 0 7 70 0; Step 2; Step 2; Step 2; Step 2; Step 2; Join None 0; Join None 0] = UB.
Proof. reflexivity. Qed.
Example C77_ex_stack : run world0 [New 65536; Start2 0 7 70 16383 0] = Abort /\ run world0 [New 65536; Start2 0 7 70 (-1) 11] = Abort.
Proof. split; reflexivity. Qed.
