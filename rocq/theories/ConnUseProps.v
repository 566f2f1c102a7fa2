(** C125: iqConnect on a queue in use. *)
From Verif Require Import Base BaseFacts ConnUseModel.
From Coq Require Import Lia.
Local Open Scope nat_scope.

(** Is the thread in the middle of a call on A? *)
Definition in_A (x : thread) : bool :=
  match at_ x, todo x with Idle, _ => false | _, c :: _ => match on c with Some A => true | _ => false end | _, _ => false end.
(** iqConnect goes on only while no other thread is in a call on A. *)
Definition calm (s : state) (l : label) : Prop :=
  match l with
  | Step t => match nth_error (threads s) t with
              | Some (T _ (Connect :: _)) => forall u x, u <> t -> nth_error (threads s) u = Some x -> in_A x = false
              | _ => True
              end
  | _ => True
  end.
Inductive calmly (progs : list (list call)) : state -> Prop :=
  | calmly_0 : calmly progs (start progs)
  | calmly_S : forall s l s', calmly progs s -> calm s l -> step s l = Ok s' -> calmly progs s'.
(** What was written to a queue and what was read from it. *)
Fixpoint puts (q : queue) (l : list event) : list nat := match l with [] => [] | Put r v :: l => if same q r then v :: puts q l else puts q l | _ :: l => puts q l end.
Fixpoint gets (q : queue) (l : list event) : list nat := match l with [] => [] | Got r v :: l => if same q r then v :: gets q l else gets q l | _ :: l => gets q l end.
(** A thread in a call on the queue with the mutex. *)
Definition within (q : queue) (x : thread) : Prop :=
  exists m c r, todo x = c :: r /\ on c = Some q /\ (at_ x = Locked m \/ at_ x = Busy m \/ at_ x = Unlocking m).

(** ** Facts *)
Definition holds (x : thread) (m : nat) : Prop := at_ x = Locked m \/ at_ x = Busy m \/ at_ x = Unlocking m.
Definition wf (s : state) (t : nat) (x : thread) : Prop :=
  match at_ x with
  | Idle => True
  | Between => exists r, todo x = Connect :: r
  | Signalling => exists q v r, todo x = Write q v :: r
  | Locked m | Busy m | Unlocking m => exists c q r, todo x = c :: r /\ on c = Some q /\ m = lockof s q /\ owner s m = Some t
  | Asleep c m => exists q r, todo x = Read q :: r /\ m = lockof s q /\ c = sigof s q
  | Woken m => exists q r, todo x = Read q :: r /\ m = lockof s q
  end.
Record Inv (s : state) : Prop := I_ {
  iw : forall t x, nth_error (threads s) t = Some x -> wf s t x;
  io : forall m t, m <= 1 -> owner s m = Some t -> exists x, nth_error (threads s) t = Some x /\ holds x m;
  ih : forall q, puts q (trace s) = gets q (trace s) ++ items s q }.

Lemma lock_le : forall s q, lockof s q <= 1.
Proof. intros s []; cbn [lockof]; [destruct (1 <=? conn s)|]; lia. Qed.
Lemma same_iff : forall q r, same q r = true <-> q = r.
Proof. intros [] []; cbn; split; congruence. Qed.
Lemma owner_set : forall s m m' o, m <= 1 -> m' <= 1 -> owner (set_owner s m o) m' = if m =? m' then o else owner s m'.
Proof. intros s m m' o H H'. destruct m as [|[|]]; destruct m' as [|[|]]; try lia; reflexivity. Qed.
Lemma lock_set : forall s m o q, lockof (set_owner s m o) q = lockof s q.
Proof. intros s [|m] o []; reflexivity. Qed.
Lemma sig_set : forall s m o q, sigof (set_owner s m o) q = sigof s q.
Proof. intros s [|m] o []; reflexivity. Qed.
Lemma items_set : forall s m o q, items (set_owner s m o) q = items s q.
Proof. intros s [|m] o []; reflexivity. Qed.
Lemma thr_set : forall s m o, threads (set_owner s m o) = threads s.
Proof. intros s [|m] o; reflexivity. Qed.
Lemma trace_set : forall s m o, trace (set_owner s m o) = trace s.
Proof. intros s [|m] o; reflexivity. Qed.
Lemma nth_upd_cases : forall (ws : list thread) i j w x, nth_error (upd ws i w) j = Some x -> (i = j /\ x = w) \/ (i <> j /\ nth_error ws j = Some x).
Proof.
  intros ws i j w x H. destruct (Nat.eq_dec i j) as [<-|N].
  - destruct (Nat.lt_ge_cases i (length ws)) as [L|L].
    + rewrite nth_error_upd_eq in H by auto. injection H as <-. auto.
    + rewrite (proj2 (nth_error_None _ _)) in H; [discriminate|]. rewrite upd_length. auto.
  - rewrite nth_error_upd_neq in H by auto. auto.
Qed.
(** A step of thread [t] that changes no pointer, and no owner but that of a mutex which was free or its own. *)
Lemma keep : forall s s' t x x' m, Inv s -> nth_error (threads s) t = Some x -> threads s' = upd (threads s) t x' ->
  (forall q, lockof s' q = lockof s q) -> (forall q, sigof s' q = sigof s q) ->
  (forall m', m' <= 1 -> m' <> m -> owner s' m' = owner s m') ->
  (owner s m = None \/ owner s m = Some t) -> (owner s' m = None \/ (owner s' m = Some t /\ holds x' m)) ->
  (forall m', holds x m' -> m' = m) -> wf s' t x' ->
  (forall q, puts q (trace s') = gets q (trace s') ++ items s' q) -> Inv s'.
Proof.
  intros s s' t x x' m H N TH LK SG OW O1 O2 HX W HI. assert (LT : t < length (threads s)) by (apply nth_error_Some; congruence). constructor; auto.
  - intros u y Q. rewrite TH in Q. apply nth_upd_cases in Q. destruct Q as [(<- & ->)|(D & Q)]; [auto|].
    assert (V := iw s H u y Q). unfold wf in *.
    assert (OK : forall q, owner s (lockof s q) = Some u -> owner s' (lockof s q) = Some u).
    { intros q E. rewrite OW; auto. { apply lock_le. } intros X. subst m. destruct O1; congruence. }
    destruct (at_ y); auto.
    + destruct V as (c & q & r & V1 & V2 & -> & V4). exists c, q, r. rewrite LK. auto.
    + destruct V as (c & q & r & V1 & V2 & -> & V4). exists c, q, r. rewrite LK. auto.
    + destruct V as (q & r & V1 & -> & ->). exists q, r. rewrite LK, SG. auto.
    + destruct V as (q & r & V1 & ->). exists q, r. rewrite LK. auto.
    + destruct V as (c & q & r & V1 & V2 & -> & V4). exists c, q, r. rewrite LK. auto.
  - intros m' u L E. rewrite TH. destruct (Nat.eq_dec m' m) as [->|D].
    + destruct O2 as [O2|(O2 & HD)]; [congruence|]. assert (u = t) by congruence. subst u. exists x'. rewrite nth_error_upd_eq by auto. auto.
    + rewrite OW in E by auto. destruct (io s H m' u L E) as (y & Y & HY). destruct (Nat.eq_dec t u) as [<-|DU].
      * exfalso. apply D. apply HX. congruence.
      * exists y. rewrite nth_error_upd_neq by auto. auto.
Qed.
Lemma puts_app : forall q a b, puts q (a ++ b) = puts q a ++ puts q b.
Proof. induction a as [|[r v|r v] a IH]; intros b; cbn [puts app]; auto. destruct (same q r); cbn [app]; rewrite IH; reflexivity. Qed.
Lemma gets_app : forall q a b, gets q (a ++ b) = gets q a ++ gets q b.
Proof. induction a as [|[r v|r v] a IH]; intros b; cbn [gets app]; auto. destruct (same q r); cbn [app]; rewrite IH; reflexivity. Qed.
Lemma hist_put : forall s q v, Inv s -> forall r, let s' := set_items s q (items s q ++ [v]) (Put q v) in puts r (trace s') = gets r (trace s') ++ items s' r.
Proof.
  intros s q v H r s'. assert (Q := ih s H r). replace (trace s') with (trace s ++ [Put q v]) by (destruct q; reflexivity).
  rewrite puts_app, gets_app. cbn [puts gets]. rewrite app_nil_r. destruct q, r; cbn [same s' items set_items inA inB] in *; rewrite Q, ?app_nil_r, ?app_assoc; reflexivity.
Qed.
Lemma hist_got : forall s q v l, Inv s -> items s q = v :: l -> forall r, let s' := set_items s q l (Got q v) in puts r (trace s') = gets r (trace s') ++ items s' r.
Proof.
  intros s q v l H E r s'. assert (Q := ih s H r). replace (trace s') with (trace s ++ [Got q v]) by (destruct q; reflexivity).
  rewrite puts_app, gets_app. cbn [puts gets]. rewrite app_nil_r. destruct q, r; cbn [same s' items set_items inA inB] in *; rewrite Q, ?E, ?app_nil_r, <- ?app_assoc; reflexivity.
Qed.
Lemma inside_alone : forall s t x q, Inv s -> nth_error (threads s) t = Some x -> at_ x = Locked (lockof s q) -> owner s (lockof s q) = Some t -> existsb (inside q) (threads s) = false.
Proof.
  intros s t x q H N K O. destruct (existsb (inside q) (threads s)) eqn:E; [|auto]. exfalso. apply existsb_exists in E. destruct E as (y & I & Y).
  apply In_nth_error in I. destruct I as (u & U). assert (W := iw s H u y U). unfold inside in Y. unfold wf in W. destruct (at_ y) eqn:AY; try discriminate.
  destruct W as (c & p & r & W1 & W2 & W3 & W4). rewrite W1, W2 in Y. apply same_iff in Y. subst p. subst m. assert (u = t) by congruence. subst u. congruence.
Qed.
Lemma woken_inv : forall s u c m p, Inv s -> nth_error (threads s) u = Some (T (Asleep c m) p) -> Inv (set_at s u (T (Woken m) p)).
Proof.
  intros s u c m p H N. assert (W := iw s H u _ N). unfold wf in W. cbn [at_ todo] in W. destruct W as (q & r & W1 & W2 & W3).
  constructor.
  - intros t x Q. cbn [set_at threads] in Q. apply nth_upd_cases in Q. destruct Q as [(<- & ->)|(D & Q)].
    + unfold wf. cbn [at_ todo]. exists q, r. auto.
    + assert (V := iw s H t x Q). exact V.
  - intros m' t L E. destruct (io s H m' t L E) as (y & Y & HY). destruct (Nat.eq_dec u t) as [<-|D].
    + exfalso. rewrite N in Y. injection Y as <-. unfold holds in HY. cbn [at_] in HY. intuition discriminate.
    + exists y. cbn [set_at threads]. rewrite nth_error_upd_neq by auto. auto.
  - intros q'. apply (ih s H).
Qed.
Lemma idle_inv : forall s t k p p', Inv s -> nth_error (threads s) t = Some (T k p) -> k = Signalling -> Inv (set_at s t (T Idle p')).
Proof.
  intros s t k p p' H N ->. constructor.
  - intros u x Q. cbn [set_at threads] in Q. apply nth_upd_cases in Q. destruct Q as [(<- & ->)|(D & Q)]; [exact Logic.I|]. exact (iw s H u x Q).
  - intros m' u L E. destruct (io s H m' u L E) as (y & Y & HY). destruct (Nat.eq_dec t u) as [<-|D].
    + exfalso. rewrite N in Y. injection Y as <-. unfold holds in HY. cbn [at_] in HY. intuition discriminate.
    + exists y. cbn [set_at threads]. rewrite nth_error_upd_neq by auto. auto.
  - intros q'. apply (ih s H).
Qed.
Lemma conn_inv : forall s t k n p k' p', Inv s -> nth_error (threads s) t = Some (T k p) -> (k = Idle \/ k = Between) -> (k' = Idle \/ k' = Between /\ exists r, p' = Connect :: r) ->
  (forall u x, u <> t -> nth_error (threads s) u = Some x -> in_A x = false) -> Inv (set_at (set_conn s n) t (T k' p')).
Proof.
  intros s t k n p k' p' H N K K' CALM. constructor.
  - intros u x Q. cbn [set_at set_conn threads] in Q. apply nth_upd_cases in Q. destruct Q as [(<- & ->)|(D & Q)].
    + unfold wf. cbn [at_ todo]. destruct K' as [->|(-> & K')]; auto.
    + assert (V := iw s H u x Q). assert (C := CALM u x (fun e => D (eq_sym e)) Q). unfold wf, in_A in *.
      destruct (at_ x); auto.
      * destruct V as (c & q & r & V1 & V2 & V3 & V4). rewrite V1, V2 in C. destruct q; [discriminate|]. exists c, B, r. auto.
      * destruct V as (c & q & r & V1 & V2 & V3 & V4). rewrite V1, V2 in C. destruct q; [discriminate|]. exists c, B, r. auto.
      * destruct V as (q & r & V1 & V2 & V3). rewrite V1 in C. cbn [on] in C. destruct q; [discriminate|]. exists B, r. auto.
      * destruct V as (q & r & V1 & V2). rewrite V1 in C. cbn [on] in C. destruct q; [discriminate|]. exists B, r. auto.
      * destruct V as (c & q & r & V1 & V2 & V3 & V4). rewrite V1, V2 in C. destruct q; [discriminate|]. exists c, B, r. auto.
  - intros m' u L E. replace (owner (set_at (set_conn s n) t (T k' p')) m') with (owner s m') in E by (destruct m'; reflexivity).
    destruct (io s H m' u L E) as (y & Y & HY). destruct (Nat.eq_dec t u) as [<-|D].
    + exfalso. rewrite N in Y. injection Y as <-. unfold holds in HY. cbn [at_] in HY. destruct K as [->| ->]; intuition discriminate.
    + exists y. cbn [set_at set_conn threads]. rewrite nth_error_upd_neq by auto. auto.
  - intros q'. exact (ih s H q').
Qed.
Lemma own_at : forall s t x m, owner (set_at s t x) m = owner s m.
Proof. intros s t x [|m]; reflexivity. Qed.
Lemma lock_at : forall s t x q, lockof (set_at s t x) q = lockof s q.
Proof. intros s t x []; reflexivity. Qed.
Lemma sig_at : forall s t x q, sigof (set_at s t x) q = sigof s q.
Proof. intros s t x []; reflexivity. Qed.
Lemma own_it : forall s q l e m, owner (set_items s q l e) m = owner s m.
Proof. intros s [] l e [|m]; reflexivity. Qed.
Lemma lock_it : forall s q l e r, lockof (set_items s q l e) r = lockof s r.
Proof. intros s [] l e []; reflexivity. Qed.
Lemma sig_it : forall s q l e r, sigof (set_items s q l e) r = sigof s r.
Proof. intros s [] l e []; reflexivity. Qed.
Lemma thr_it : forall s q l e, threads (set_items s q l e) = threads s.
Proof. intros s [] l e; reflexivity. Qed.
Lemma items_at : forall s t x q, items (set_at s t x) q = items s q.
Proof. intros s t x []; reflexivity. Qed.

(** Taking a mutex, going on with it, giving it back. *)
Lemma lock_inv : forall s t k c r q m, Inv s -> nth_error (threads s) t = Some (T k (c :: r)) -> (k = Idle \/ k = Woken m) -> on c = Some q -> m = lockof s q -> owner s m = None ->
  Inv (set_at (set_owner s m (Some t)) t (T (Locked m) (c :: r))).
Proof.
  intros s t k c r q m H N K C M O. assert (L := lock_le s q). rewrite <- M in L.
  apply keep with s t (T k (c :: r)) (T (Locked m) (c :: r)) m; auto.
  - cbn [set_at threads]. rewrite thr_set. reflexivity.
  - intros p. rewrite lock_at. apply lock_set.
  - intros p. rewrite sig_at. apply sig_set.
  - intros m' L' D. rewrite own_at, owner_set by auto. destruct (Nat.eqb_spec m m'); congruence.
  - right. rewrite own_at, owner_set by auto. rewrite Nat.eqb_refl. split; [auto|]. left. reflexivity.
  - intros m' HD. unfold holds in HD. cbn [at_] in HD. destruct K as [->| ->]; intuition discriminate.
  - unfold wf. cbn [at_ todo]. exists c, q, r. rewrite lock_at, lock_set, own_at, owner_set by auto. rewrite Nat.eqb_refl. auto.
  - intros p. rewrite items_at, items_set. cbn [set_at trace]. rewrite trace_set. apply (ih s H).
Qed.
Lemma go_inv : forall s t k k' c r q m s1, Inv s -> nth_error (threads s) t = Some (T k (c :: r)) -> (k = Locked m \/ k = Busy m) -> (k' = Busy m \/ k' = Unlocking m) ->
  on c = Some q -> m = lockof s q -> owner s m = Some t ->
  (forall p, lockof s1 p = lockof s p) -> (forall p, sigof s1 p = sigof s p) -> (forall n, owner s1 n = owner s n) -> threads s1 = threads s ->
  (forall p, puts p (trace s1) = gets p (trace s1) ++ items s1 p) -> Inv (set_at s1 t (T k' (c :: r))).
Proof.
  intros s t k k' c r q m s1 H N K K' C M O E1 E2 E3 E4 E5. apply keep with s t (T k (c :: r)) (T k' (c :: r)) m; auto.
  - cbn [set_at threads]. rewrite E4. reflexivity.
  - intros m' _ _. rewrite own_at. auto.
  - right. rewrite own_at, E3. split; [auto|]. unfold holds. cbn [at_]. destruct K' as [->| ->]; auto.
  - intros m' HD. unfold holds in HD. cbn [at_] in HD. destruct K as [->| ->]; intuition congruence.
  - unfold wf. cbn [at_ todo]. destruct K' as [->| ->]; exists c, q, r; rewrite lock_at, own_at, E1, E3; auto.
Qed.
Lemma unlock_inv : forall s t k c r q m x', Inv s -> nth_error (threads s) t = Some (T k (c :: r)) -> (k = Busy m \/ k = Unlocking m) -> on c = Some q -> m = lockof s q -> owner s m = Some t ->
  (at_ x' = Idle \/ (at_ x' = Signalling /\ exists p v r, todo x' = Write p v :: r) \/ (at_ x' = Asleep (sigof s q) m /\ exists r, todo x' = Read q :: r)) ->
  Inv (set_at (set_owner s m None) t x').
Proof.
  intros s t k c r q m x' H N K C M O X. assert (L := lock_le s q). rewrite <- M in L.
  apply keep with s t (T k (c :: r)) x' m; auto.
  - cbn [set_at threads]. rewrite thr_set. reflexivity.
  - intros p. rewrite lock_at. apply lock_set.
  - intros p. rewrite sig_at. apply sig_set.
  - intros m' L' D. rewrite own_at, owner_set by auto. destruct (Nat.eqb_spec m m'); congruence.
  - left. rewrite own_at, owner_set by auto. rewrite Nat.eqb_refl. auto.
  - intros m' HD. unfold holds in HD. cbn [at_] in HD. destruct K as [->| ->]; intuition congruence.
  - unfold wf. destruct X as [X|[(X & Y)|(X & (r' & Y))]]; rewrite X; auto. exists q, r'. rewrite sig_at, sig_set. rewrite lock_at, lock_set. auto.
  - intros p. rewrite items_at, items_set. cbn [set_at trace]. rewrite trace_set. apply (ih s H).
Qed.
Lemma step_inv : forall s l, Inv s -> calm s l -> step s l = Diverge \/ exists s', step s l = Ok s' /\ Inv s'.
Proof.
  intros s l H C. destruct l as [t|t u|u]; cbn [step].
  - destruct (nth_error (threads s) t) as [[k [|c r]]|] eqn:N; auto. assert (W := iw s H t _ N). unfold wf in W. cbn [at_ todo] in W.
    cbn [calm] in C. rewrite N in C.
    destruct c as [q v|q|]; destruct k; cbn [advance]; auto.
    + destruct (owner s (lockof s q)) eqn:O; auto. right. eexists. split; [reflexivity|]. eapply lock_inv with (k := Idle) (q := q); eauto.
    + destruct W as (c & p & r' & W1 & W2 & W3 & W4). injection W1 as <- <-. injection W2 as <-. subst m. rewrite (inside_alone s t _ q H N); auto.
      right. eexists. split; [reflexivity|]. eapply go_inv with (s := s) (q := q); eauto. apply (ih s H).
    + destruct W as (c & p & r' & W1 & W2 & W3 & W4). injection W1 as <- <-. injection W2 as <-. right. eexists. split; [reflexivity|].
      eapply go_inv with (s := s) (q := q); eauto. { intros; apply lock_it. } { intros; apply sig_it. } { intros; apply own_it. } { apply thr_it. } { apply hist_put. auto. }
    + destruct W as (c & p & r' & W1 & W2 & W3 & W4). injection W1 as <- <-. injection W2 as <-. right. eexists. split; [reflexivity|].
      eapply unlock_inv with (s := s) (q := q); eauto. right. left. split; [reflexivity|]. cbn [todo]. eauto.
    + destruct (existsb (sleeps (sigof s q)) (threads s)); auto. right. eexists. split; [reflexivity|]. eapply idle_inv; eauto.
    + destruct (owner s (lockof s q)) eqn:O; auto. right. eexists. split; [reflexivity|]. eapply lock_inv with (k := Idle) (q := q); eauto.
    + destruct W as (c & p & r' & W1 & W2 & W3 & W4). injection W1 as <- <-. injection W2 as <-. subst m. rewrite (inside_alone s t _ q H N); auto.
      right. eexists. split; [reflexivity|]. eapply go_inv with (s := s) (q := q); eauto. apply (ih s H).
    + destruct W as (c & p & r' & W1 & W2 & W3 & W4). injection W1 as <- <-. injection W2 as <-. right. destruct (items s q) as [|x l] eqn:E.
      * rewrite <- W3, Nat.eqb_refl. eexists. split; [reflexivity|]. eapply unlock_inv with (s := s) (q := q); eauto. right. right. cbn [at_ todo]. eauto.
      * eexists. split; [reflexivity|]. eapply go_inv with (s := s) (q := q); eauto. { intros; apply lock_it. } { intros; apply sig_it. } { intros; apply own_it. } { apply thr_it. }
        { apply hist_got; auto. }
    + destruct W as (q' & r' & W1 & W2). injection W1 as <- <-. destruct (owner s m) eqn:O; auto. right. eexists. split; [reflexivity|]. eapply lock_inv with (k := Woken m) (q := q); eauto.
    + destruct W as (c & p & r' & W1 & W2 & W3 & W4). injection W1 as <- <-. injection W2 as <-. right. eexists. split; [reflexivity|].
      eapply unlock_inv with (s := s) (q := q); eauto.
    + right. eexists. split; [reflexivity|]. eapply conn_inv; eauto.
    + right. eexists. split; [reflexivity|]. eapply conn_inv; eauto.
  - destruct (nth_error (threads s) t) as [[k p]|] eqn:N; auto. destruct k; auto. destruct p as [|[q v|q|] r]; auto.
    destruct (nth_error (threads s) u) as [[k' p']|] eqn:NU; auto. destruct k'; auto. destruct (c =? sigof s q); auto. right. eexists. split; [reflexivity|].
    eapply idle_inv; [eapply woken_inv; eauto| |reflexivity]. cbn [set_at threads]. rewrite nth_error_upd_neq by congruence. exact N.
  - destruct (nth_error (threads s) u) as [[k' p']|] eqn:NU; auto. destruct k'; auto. right. eexists. split; [reflexivity|]. eapply woken_inv; eauto.
Qed.
Lemma inv_start : forall progs, Inv (start progs).
Proof.
  intros progs. constructor.
  - intros t x N. cbn [start threads] in N. rewrite nth_error_map in N. destruct (nth_error progs t); [|discriminate]. injection N as <-. exact Logic.I.
  - intros [|[|m]] t L E; try lia; discriminate.
  - intros []; reflexivity.
Qed.
Lemma calmly_inv : forall progs s, calmly progs s -> Inv s.
Proof.
  intros progs s C. induction C as [|s l s' C IH CL E]; [apply inv_start|]. destruct (step_inv s l IH CL) as [Q|(s2 & Q & H)]; congruence.
Qed.

(** ** Theorems *)
(** If iqConnect finds no other thread in a call on A, nothing undefined happens, before or after. *)
Theorem C125_defined : forall progs s l, calmly progs s -> calm s l -> step s l <> UB /\ step s l <> Abort.
Proof. intros progs s l C CL. destruct (step_inv s l (calmly_inv _ _ C) CL) as [Q|(s2 & Q & H)]; rewrite Q; split; discriminate. Qed.
Print Assumptions C125_defined.

(** One thread at a time has a queue, and once they are connected one thread at a time has either of them. *)
Theorem C125_alone : forall progs s t u x y q q', calmly progs s -> nth_error (threads s) t = Some x -> nth_error (threads s) u = Some y -> within q x -> within q' y ->
  q = q' \/ 1 <= conn s -> t = u.
Proof.
  intros progs s t u x y q q' C N M (m & c & r & A1 & A2 & A3) (n & d & p & B1 & B2 & B3) Q. assert (H := calmly_inv _ _ C).
  assert (WX : owner s (lockof s q) = Some t).
  { assert (W := iw s H t x N). unfold wf in W. destruct A3 as [A3|[A3|A3]]; rewrite A3 in W; destruct W as (c' & q2 & r' & W1 & W2 & W3 & W4); rewrite A1 in W1; injection W1 as <- <-;
    rewrite A2 in W2; injection W2 as <-; congruence. }
  assert (WY : owner s (lockof s q') = Some u).
  { assert (W := iw s H u y M). unfold wf in W. destruct B3 as [B3|[B3|B3]]; rewrite B3 in W; destruct W as (c' & q2 & r' & W1 & W2 & W3 & W4); rewrite B1 in W1; injection W1 as <- <-;
    rewrite B2 in W2; injection W2 as <-; congruence. }
  assert (E : lockof s q = lockof s q').
  { destruct Q as [->|Q]; [reflexivity|]. destruct q, q'; cbn [lockof]; destruct (Nat.leb_spec 1 (conn s)); auto; lia. }
  congruence.
Qed.
Print Assumptions C125_alone.

(** Each queue is first in, first out: what was written to it is what was read from it, in the same order, and then what is in it. *)
Theorem C125_fifo : forall progs s q, calmly progs s -> puts q (trace s) = gets q (trace s) ++ items s q.
Proof. intros progs s q C. apply (ih s (calmly_inv _ _ C)). Qed.
Print Assumptions C125_fifo.

(** *** The one reader *)
(** No call of the list is a read. *)
Definition no_read (p : list call) : Prop := forall q, ~ In (Read q) p.
Record Wake (r : nat) (s : state) : Prop := W_ {
  wr_ : forall t x, t <> r -> nth_error (threads s) t = Some x -> no_read (todo x);
  ws_ : forall c m q p, nth_error (threads s) r = Some (T (Asleep c m) (Read q :: p)) -> items s q <> [] ->
        exists u k v p', nth_error (threads s) u = Some (T k (Write q v :: p')) /\ (k = Signalling \/ exists n, k = Unlocking n) }.
(** Thread [t] goes on and the contents stay. *)
Lemma wake_keep : forall r s s' t k k' p p', Wake r s -> nth_error (threads s) t = Some (T k p) -> threads s' = upd (threads s) t (T k' p') -> (forall c, In c p' -> In c p) ->
  (forall q, items s' q = items s q) ->
  (forall c m q pp, t = r -> k' = Asleep c m -> p' = Read q :: pp -> items s q = []) ->
  (forall q v pp, p = Write q v :: pp -> (k = Signalling \/ exists n, k = Unlocking n) ->
     (p' = p /\ (k' = Signalling \/ exists n, k' = Unlocking n)) \/ (forall c m pp', nth_error (threads s) r <> Some (T (Asleep c m) (Read q :: pp')))) ->
  Wake r s'.
Proof.
  intros r s s' t k k' p p' H N TH SUB IT SL WR. assert (LT : t < length (threads s)) by (apply nth_error_Some; congruence). constructor.
  - intros u x D Q. rewrite TH in Q. apply nth_upd_cases in Q. destruct Q as [(<- & ->)|(D2 & Q)].
    + cbn [todo]. intros q I. exact (wr_ r s H t _ D N q (SUB _ I)).
    + exact (wr_ r s H u x D Q).
  - intros c m q pp Q NE. rewrite IT in NE. rewrite TH in Q. apply nth_upd_cases in Q. destruct Q as [(-> & E)|(D & Q)].
    + injection E as <- <-. exfalso. apply NE. eapply SL; eauto.
    + destruct (ws_ r s H c m q pp Q NE) as (u & k2 & v & p2 & U & K2). destruct (Nat.eq_dec t u) as [<-|DU].
      * rewrite N in U. injection U as -> ->. destruct (WR q v p2 eq_refl K2) as [(-> & K')|X].
        -- exists t, k', v, p2. rewrite TH, nth_error_upd_eq by auto. auto.
        -- exfalso. exact (X c m pp Q).
      * exists u, k2, v, p2. rewrite TH, nth_error_upd_neq by auto. auto.
Qed.
Ltac wk := try solve [assumption | reflexivity | cbn [set_at threads]; rewrite ?thr_set; reflexivity | intros; right; assumption | intros; assumption
  | intros []; reflexivity | intros ?; rewrite ?items_at; apply items_set | intros ?; apply items_at | intros; discriminate
  | intros ? ? ? _ [X|(? & X)]; discriminate | intros ? ? ? EQ _; left; split; [reflexivity|eauto]].
Lemma wake_wake : forall r s u c m p, Wake r s -> Inv s -> nth_error (threads s) u = Some (T (Asleep c m) p) -> u = r /\ Wake r (set_at s u (T (Woken m) p)).
Proof.
  intros r s u c m p H V N. assert (W := iw s V u _ N). unfold wf in W. cbn [at_ todo] in W. destruct W as (q & p2 & -> & _).
  assert (u = r). { destruct (Nat.eq_dec u r); [auto|]. exfalso. apply (wr_ r s H u _ n N q). left. reflexivity. }
  split; [auto|]. eapply (wake_keep r s); [exact H|exact N|..]; wk.
Qed.
Lemma sleeps_all : forall s r c m p d, nth_error (threads s) r = Some (T (Asleep c m) p) -> existsb (sleeps d) (threads s) = false -> c <> d.
Proof.
  intros s r c m p d N E ->. apply nth_error_In in N. assert (X : existsb (sleeps d) (threads s) = true). { apply existsb_exists. eexists. split; [exact N|]. cbn. apply Nat.eqb_refl. }
  congruence.
Qed.
Lemma items_it : forall s q l e r, items (set_items s q l e) r = if same q r then l else items s r.
Proof. intros s [] l e []; reflexivity. Qed.
Lemma wake_step : forall r s l s', Wake r s -> Inv s -> step s l = Ok s' -> Wake r s'.
Proof.
  intros r s l s' H V E. destruct l as [t|t u|u]; cbn [step] in E.
  - destruct (nth_error (threads s) t) as [[k [|c p]]|] eqn:N; try discriminate. assert (W := iw s V t _ N). unfold wf in W. cbn [at_ todo] in W.
    destruct c as [q v|q|]; destruct k; cbn [advance] in E; try discriminate.
    + destruct (owner s (lockof s q)); [discriminate|]. injection E as <-. eapply (wake_keep r s); [exact H|exact N|..]; wk.
    + destruct (existsb (inside q) (threads s)); [discriminate|]. injection E as <-. eapply (wake_keep r s); [exact H|exact N|..]; wk.
    + injection E as <-. assert (LT : t < length (threads s)) by (apply nth_error_Some; congruence). constructor.
      * intros u x D Q. cbn [set_at threads] in Q. rewrite thr_it in Q. apply nth_upd_cases in Q. destruct Q as [(<- & ->)|(D2 & Q)].
        -- exact (wr_ r s H t _ D N).
        -- exact (wr_ r s H u x D Q).
      * intros c0 m0 q0 pp Q NE. cbn [set_at threads] in *. rewrite thr_it in *. rewrite items_at, items_it in NE. apply nth_upd_cases in Q. destruct Q as [(-> & E)|(D & Q)]; [discriminate|].
        destruct (same q q0) eqn:SQ.
        -- apply same_iff in SQ. subst q0. exists t, (Unlocking m), v, p. rewrite nth_error_upd_eq by auto. eauto.
        -- destruct (ws_ r s H c0 m0 q0 pp Q NE) as (u & k2 & v2 & p2 & U & K2). assert (t <> u).
           { intros <-. rewrite N in U. injection U as <- <- <- <-. destruct K2 as [K2|(n & K2)]; discriminate. }
           exists u, k2, v2, p2. rewrite nth_error_upd_neq by auto. auto.
    + injection E as <-. eapply (wake_keep r s); [exact H|exact N|..]; wk.
    + destruct (existsb (sleeps (sigof s q)) (threads s)) eqn:SL; [discriminate|]. injection E as <-. eapply (wake_keep r s); [exact H|exact N|..]; wk.
      intros q0 v0 pp EQ _. injection EQ as <- <- <-. right. intros c m pp' Q. apply (sleeps_all s r c m _ _ Q SL).
        assert (WR := iw s V r _ Q). unfold wf in WR. cbn [at_ todo] in WR. destruct WR as (q1 & p1 & WR1 & _ & WR3). injection WR1 as <- <-. exact WR3.
    + destruct (owner s (lockof s q)); [discriminate|]. injection E as <-. eapply (wake_keep r s); [exact H|exact N|..]; wk.
    + destruct (existsb (inside q) (threads s)); [discriminate|]. injection E as <-. eapply (wake_keep r s); [exact H|exact N|..]; wk.
    + assert (t = r). { destruct (Nat.eq_dec t r); [auto|]. exfalso. apply (wr_ r s H t _ n N q). left. reflexivity. } subst t.
      assert (LT : r < length (threads s)) by (apply nth_error_Some; congruence). destruct (items s q) as [|x l] eqn:IT.
      * destruct (lockof s q =? m); [|discriminate]. injection E as <-. eapply (wake_keep r s); [exact H|exact N|..]; wk.
        intros c0 m0 q0 pp _ E1 E2. injection E2 as <- <-. exact IT.
      * injection E as <-. constructor.
        -- intros u y D Q. cbn [set_at threads] in Q. rewrite thr_it in Q. rewrite nth_error_upd_neq in Q by auto. exact (wr_ r s H u y D Q).
        -- intros c0 m0 q0 pp Q NE. cbn [set_at threads] in Q. rewrite thr_it, nth_error_upd_eq in Q by auto. discriminate.
    + destruct (owner s m); [discriminate|]. injection E as <-. eapply (wake_keep r s); [exact H|exact N|..]; wk.
    + injection E as <-. eapply (wake_keep r s); [exact H|exact N|..]; wk.
    + injection E as <-. eapply (wake_keep r s); [exact H|exact N|..]; wk.
    + injection E as <-. eapply (wake_keep r s); [exact H|exact N|..]; wk.
  - destruct (nth_error (threads s) t) as [[k p]|] eqn:N; try discriminate. destruct k; try discriminate. destruct p as [|[q v|q|] p]; try discriminate.
    destruct (nth_error (threads s) u) as [[k' p']|] eqn:NU; try discriminate. destruct k'; try discriminate. destruct (c =? sigof s q); [|discriminate]. injection E as <-.
    destruct (wake_wake r s u c m p' H V NU) as (-> & H1). assert (LT : r < length (threads s)) by (apply nth_error_Some; congruence).
    eapply wake_keep with (s := set_at s r (T (Woken m) p')); [exact H1| |reflexivity| | | |].
    + cbn [set_at threads]. rewrite nth_error_upd_neq by congruence. exact N.
    + intros; right; auto.
    + intros r0. apply items_at.
    + intros; discriminate.
    + intros q0 v0 pp _ _. right. intros c0 m0 pp' Q. cbn [set_at threads] in Q. rewrite nth_error_upd_eq in Q by auto. discriminate.
  - destruct (nth_error (threads s) u) as [[k' p']|] eqn:NU; try discriminate. destruct k'; try discriminate. injection E as <-. eapply wake_wake; eauto.
Qed.
Lemma calmly_wake : forall progs s r, (forall t p, t <> r -> nth_error progs t = Some p -> no_read p) -> calmly progs s -> Wake r s.
Proof.
  intros progs s r NR C. induction C as [|s l s' C IH CL E].
  - constructor.
    + intros t x D N. cbn [start threads] in N. rewrite nth_error_map in N. destruct (nth_error progs t) as [p|] eqn:P; [|discriminate]. injection N as <-. exact (NR t p D P).
    + intros c m q p N. cbn [start threads] in N. rewrite nth_error_map in N. destruct (nth_error progs r); discriminate.
  - eapply wake_step; eauto. eapply calmly_inv; eauto.
Qed.
(** With one reading thread no element is slept through: if it sleeps before a queue that is not empty, a writer of that queue is
    about to wake it. *)
Theorem C125_wakes : forall progs s r c m q p, (forall t p, t <> r -> nth_error progs t = Some p -> no_read p) -> calmly progs s ->
  nth_error (threads s) r = Some (T (Asleep c m) (Read q :: p)) -> items s q <> [] ->
  exists t s', (step s (Step t) = Ok s' /\ exists n v p', nth_error (threads s) t = Some (T (Unlocking n) (Write q v :: p'))) \/
               (step s (Signal t r) = Ok s' /\ nth_error (threads s') r = Some (T (Woken m) (Read q :: p))).
Proof.
  intros progs s r c m q p NR C N NE. assert (H := calmly_wake progs s r NR C). assert (V := calmly_inv _ _ C).
  assert (W := iw s V r _ N). unfold wf in W. cbn [at_ todo] in W. destruct W as (q1 & p1 & W1 & W2 & W3). injection W1 as <- <-.
  destruct (ws_ r s H c m q p N NE) as (u & k & v & p' & U & [->|(n & ->)]).
  - exists u. eexists. right. cbn [step]. rewrite U, N. rewrite W3, Nat.eqb_refl. split; [reflexivity|]. cbn [set_at threads].
    rewrite nth_error_upd_neq by congruence. apply nth_error_upd_eq. apply nth_error_Some. congruence.
  - exists u. eexists. left. cbn [step]. rewrite U. cbn [advance]. split; [reflexivity|]. eauto.
Qed.
Print Assumptions C125_wakes.
(** At rest, with one reading thread, a thread asleep in read has nothing to read. *)
Theorem C125_rest : forall progs s r c m q p, (forall t p, t <> r -> nth_error progs t = Some p -> no_read p) -> calmly progs s ->
  (forall t s', step s (Step t) <> Ok s') -> (forall t u s', step s (Signal t u) <> Ok s') ->
  nth_error (threads s) r = Some (T (Asleep c m) (Read q :: p)) -> items s q = [].
Proof.
  intros progs s r c m q p NR C R1 R2 N. destruct (items s q) as [|a l] eqn:E; [auto|]. exfalso.
  destruct (C125_wakes progs s r c m q p NR C N) as (t & s' & [(X & _)|(X & _)]); [congruence|exact (R1 _ _ X)|exact (R2 _ _ _ X)].
Qed.
Print Assumptions C125_rest.

(** ** Defects *)
(** Nothing goes on from a state but by a wake-up without a signal. *)
Definition stuck (s : state) : Prop := (forall t s', step s (Step t) <> Ok s') /\ (forall t u s', step s (Signal t u) <> Ok s').
(** Connected while a thread sleeps in read: the write that comes after wakes nobody, and the reader sleeps before its element. *)
Theorem C125_sleeper_refuted : exists s, run (start [[Read A]; [Connect; Write A 7]]) (map Step [0; 0; 0; 1; 1; 1; 1; 1; 1; 1]) = Ok s /\
  items s A = [7] /\ nth_error (threads s) 0 = Some (T (Asleep 0 0) [Read A]) /\ nth_error (threads s) 1 = Some (T Idle []) /\ stuck s.
Proof.
  eexists. split; [vm_compute; reflexivity|]. split; [reflexivity|]. split; [reflexivity|]. split; [reflexivity|]. split.
  - intros [|[|[|t]]] s'; vm_compute; discriminate.
  - intros [|[|[|t]]] u s'; vm_compute; discriminate.
Qed.
Print Assumptions C125_sleeper_refuted.
(** Connected while a thread sleeps in read: woken with nothing to read, it waits again, with a mutex that is not its own. *)
Theorem C125_wait_refuted : run (start [[Read A]; [Connect]]) ([Step 0; Step 0; Step 0; Step 1; Step 1; Spurious 0; Step 0; Step 0; Step 0]) = UB.
Proof. vm_compute. reflexivity. Qed.
Print Assumptions C125_wait_refuted.
(** Connected in the middle of a write: another thread takes the new mutex, and two threads are in one list. *)
Theorem C125_writer_refuted : run (start [[Write A 1]; [Connect]; [Write A 2]]) (map Step [0; 0; 1; 2; 2]) = UB.
Proof. vm_compute. reflexivity. Qed.
Print Assumptions C125_writer_refuted.
(** Connected before anything else, but read by two threads: the signal for A may wake the reader of B, which sleeps again, and the
    reader of A sleeps before its element. *)
Theorem C125_readers_refuted : exists s, run (start [[Connect; Write A 7]; [Read A]; [Read B]])
    (map Step [0; 0; 1; 1; 1; 2; 2; 2; 0; 0; 0; 0] ++ [Signal 0 2] ++ map Step [2; 2; 2]) = Ok s /\
  items s A = [7] /\ nth_error (threads s) 1 = Some (T (Asleep 1 1) [Read A]) /\ stuck s.
Proof.
  eexists. split; [vm_compute; reflexivity|]. split; [reflexivity|]. split; [reflexivity|]. split.
  - intros [|[|[|[|t]]]] s'; vm_compute; discriminate.
  - intros [|[|[|[|t]]]] u s'; vm_compute; discriminate.
Qed.
Print Assumptions C125_readers_refuted.

(** ** Examples *)
(** Connected first, then written to and read; the write to B wakes the reader of A, which sleeps again. *)
Example C125_ex : exists s, run (start [[Connect; Read A; Read B]; [Write B 5; Write A 6]])
    (map Step [0; 0; 0; 0; 0; 1; 1; 1; 1] ++ [Signal 1 0] ++ map Step [0; 0; 0; 1; 1; 1; 1] ++ [Signal 1 0] ++ map Step [0; 0; 0; 0; 0; 0; 0; 0]) = Ok s /\
  trace s = [Put B 5; Put A 6; Got A 6; Got B 5] /\ conn s = 2.
Proof. eexists. split; [vm_compute; reflexivity|]. split; reflexivity. Qed.
Fixpoint calm_run (s : state) (ls : list label) : Prop := match ls with [] => True | l :: ls => calm s l /\ (exists s', step s l = Ok s' /\ calm_run s' ls) end.
Lemma calm_run_ok : forall progs ls s s', calmly progs s -> calm_run s ls -> run s ls = Ok s' -> calmly progs s'.
Proof.
  intros progs ls. induction ls as [|l ls IH]; intros s s' C R E; cbn [run calm_run] in R, E.
  - injection E as <-. exact C.
  - destruct R as (R1 & s2 & R2 & R3). rewrite R2 in E. cbn [bind] in E. apply (IH s2 s'); auto. apply calmly_S with s l; auto.
Qed.
(** A calm run in which the other thread is in a call on B while A is connected, and the reader then sleeps before A. *)
Example C125_ex_calm : exists s, calmly [[Connect; Read A]; [Write B 5; Write A 6]] s /\
  nth_error (threads s) 0 = Some (T (Asleep 1 1) [Read A]) /\ items s A = [6] /\ nth_error (threads s) 1 = Some (T (Unlocking 1) [Write A 6]).
Proof.
  eexists. split.
  - eapply calm_run_ok with (ls := map Step [1; 1; 0; 0; 1; 1; 1; 0; 0; 0; 1; 1; 1]); [apply calmly_0| |vm_compute; reflexivity].
    cbn [map]. do 13 (split; [hnf; first [exact Logic.I | intros [|[|[|u]]] x D N; vm_compute in N; first [congruence | injection N as <-; reflexivity | discriminate]]|
      eexists; split; [vm_compute; reflexivity|]]).
    exact Logic.I.
  - split; [reflexivity|]. split; reflexivity.
Qed.
