(** C109: iterating a queue while other threads use it, and connected queues. *)
From Verif Require Import Base BaseFacts IterModel.
Local Open Scope Z_scope.

(** ** Specification *)
Definition reached (h : list event) (w : world) : Prop := exists tr, run world0 h = Ok (tr, w).
Definition connects (q : nat) (e : event) : Prop := match e with Connect _ a _ => a = q | _ => False end.
(** for (it = q.begin(); ...; it++) use of *it, [k] turns. *)
Definition turns (t : nat) (k : nat) : list event := concat (repeat [Deref t; Next t] k).
Definition loop (t q k : nat) : list event := Begin t q :: turns t k.
Definition of_thread (t : nat) (l : list event) : list event := filter (fun e => (thread e =? t)%nat) l.
(** The pointers a thread has found by *it. *)
Fixpoint visited (t : nat) (tr : list (event * out)) : list Z :=
  match tr with
  | (Deref u, Ptr p) :: r => if (u =? t)%nat then p :: visited t r else visited t r
  | _ :: r => visited t r
  | [] => []
  end.
Definition elements (w : world) (q : nat) : list Z := map snd (list_of w q).
Definition holds (w : world) (t m : nat) : Prop := exists d, own w m = Some (t, S d).
Definition share (w : world) (a b : nat) : Prop := lockp w a = lockp w b.
(** An event of another thread that needs what is in queue [q]. *)
Definition uses (q : nat) (e : event) : Prop := match e with Call _ q' _ | Read _ q' => q' = q | _ => False end.
Definition waiting (w : world) (m : nat) : nat := length (filter (fun s => (snd s =? m)%nat) (sleepers w)).
Definition depth (w : world) (m : nat) : nat := match own w m with Some (_, d) => d | None => 0 end.

(** ** Facts about steps *)
Lemma at_same A (f : nat -> A) i x : at_ f i x i = x.
Proof. unfold at_. rewrite Nat.eqb_refl. reflexivity. Qed.
Lemma at_other A (f : nat -> A) i j x : j <> i -> at_ f i x j = f j.
Proof. intros H. unfold at_. replace (j =? i)%nat with false by lia. reflexivity. Qed.
Lemma run_app l1 : forall w l2, run w (l1 ++ l2) = (do (a, w1) <- run w l1; do (b, w2) <- run w1 l2; Ok (a ++ b, w2)).
Proof.
  induction l1 as [|e l1 IH]; intros w l2; cbn [run app bind]; [destruct (run w l2) as [[b w2]| | |]; reflexivity|].
  destruct (step w e) as [[o w1]| | |]; cbn [bind]; try reflexivity. rewrite IH. destruct (run w1 l1) as [[a w2]| | |]; cbn [bind]; try reflexivity.
  destruct (run w2 l2) as [[b w3]| | |]; reflexivity.
Qed.

(** What is true of every world that can be reached: nodes are used once, mutexes are held at least once, the counter
    counts the locks of the holder and the sleeping threads; a thread sleeps once. *)
Definition inv (w : world) : Prop :=
  (forall q, NoDup (map fst (list_of w q)) /\ Forall (fun x => (fst x < fresh w)%nat) (list_of w q)) /\
  (forall m, own w m <> None -> exists t d, own w m = Some (t, S d)) /\
  (forall m, cnt w m = Z.of_nat (depth w m + waiting w m)) /\
  NoDup (map (fun s => fst (fst s)) (sleepers w)).

Lemma c_get_tail l p r : c_get l = (p, r) -> (l = [] /\ p = 0 /\ r = []) \/ exists n, l = (n, p) :: r.
Proof. destruct l as [|[n x] l]; cbn [c_get]; intros H; injection H as <- <-; [left; auto|right; exists n; reflexivity]. Qed.
Lemma nodes_ok_tail (f : nat) l p r : c_get l = (p, r) -> NoDup (map fst l) /\ Forall (fun x : nat * Z => (fst x < f)%nat) l -> NoDup (map fst r) /\ Forall (fun x : nat * Z => (fst x < f)%nat) r.
Proof.
  intros H [N F]. apply c_get_tail in H. destruct H as [(-> & _ & ->)|(n & ->)]; [split; assumption|].
  cbn [map] in N. apply NoDup_cons_iff in N. inversion F. split; [tauto|assumption].
Qed.
Lemma asleep_some w t q m : asleep w t = Some (q, m) -> In (t, q, m) (sleepers w).
Proof.
  unfold asleep. destruct (find _ _) as [[[u a] b]|] eqn:E; [|discriminate]. intros H. injection H as <- <-. apply find_some in E. cbn [fst snd] in E. destruct E as [I E].
  apply Nat.eqb_eq in E. subst u. exact I.
Qed.
Lemma asleep_none w t : asleep w t = None <-> ~ In t (map (fun s => fst (fst s)) (sleepers w)).
Proof.
  unfold asleep. destruct (find _ _) as [s|] eqn:E.
  - apply find_some in E. destruct E as [I E]. apply Nat.eqb_eq in E. split; [discriminate|]. intros N. contradiction N. apply in_map_iff. exists s. split; assumption.
  - split; [|reflexivity]. intros _ I. apply in_map_iff in I. destruct I as (s & E2 & I). apply (find_none _ _ E) in I. apply Nat.eqb_neq in I. contradiction.
Qed.
Lemma awake_waiting t q m l : NoDup (map (fun s : nat * nat * nat => fst (fst s)) l) -> In (t, q, m) l ->
  forall x, length (filter (fun s => (snd s =? x)%nat) l) = (length (filter (fun s => (snd s =? x)%nat) (awake l t)) + (if (m =? x)%nat then 1 else 0))%nat.
Proof.
  induction l as [|s l IH]; intros N I x; [destruct I|]. cbn [map] in N. apply NoDup_cons_iff in N. destruct N as [N1 N2].
  unfold awake. cbn [filter]. fold (awake l t). destruct I as [->|I].
  - cbn [fst snd]. rewrite Nat.eqb_refl. cbn [negb]. assert (awake l t = l) as ->.
    { unfold awake. cbn [fst] in N1. clear -N1. induction l as [|s l IH]; [reflexivity|]. cbn [map In filter] in *. replace (fst (fst s) =? t)%nat with false by (symmetry; apply Nat.eqb_neq; tauto). cbn [negb]. rewrite IH by tauto. reflexivity. }
    destruct (m =? x)%nat; cbn [length]; lia.
  - assert (fst (fst s) <> t) as D by (intros E; apply N1; apply in_map_iff; exists (t, q, m); split; [cbn [fst]; symmetry; exact E|exact I]).
    replace (fst (fst s) =? t)%nat with false by (symmetry; apply Nat.eqb_neq; exact D). cbn [negb filter]. specialize (IH N2 I x). destruct (snd s =? x)%nat; cbn [length]; lia.
Qed.
Lemma awake_nodup t l : NoDup (map (fun s : nat * nat * nat => fst (fst s)) l) -> NoDup (map (fun s => fst (fst s)) (awake l t)) /\ forall u, u <> t -> In u (map (fun s => fst (fst s)) l) -> In u (map (fun s => fst (fst s)) (awake l t)).
Proof.
  induction l as [|s l IH]; intros N; [split; [exact N|intros u _ []]|]. cbn [map] in N. apply NoDup_cons_iff in N. destruct N as [N1 N2]. destruct (IH N2) as [A B].
  unfold awake. cbn [filter]. fold (awake l t). destruct (Nat.eqb_spec (fst (fst s)) t) as [E|E]; cbn [negb map].
  - split; [exact A|]. intros u D [X|X]; [congruence|exact (B u D X)].
  - split; [|intros u D [X|X]; [left; exact X|right; exact (B u D X)]]. constructor; [|exact A]. intros X. apply N1. apply in_map_iff in X. destruct X as (y & X1 & X2). unfold awake in X2. apply filter_In in X2. apply in_map_iff. exists y. tauto.
Qed.
Lemma awake_in t l s : In s (awake l t) <-> In s l /\ fst (fst s) <> t.
Proof. unfold awake. rewrite filter_In, negb_true_iff, Nat.eqb_neq. reflexivity. Qed.

Lemma inv0 : inv world0.
Proof. split; [|split; [|split]]; cbn; intros; [split; constructor|contradiction|reflexivity|constructor]. Qed.
Lemma list_ok_at f w q l : (forall q, NoDup (map fst (list_of w q)) /\ Forall (fun x => (fst x < f)%nat) (list_of w q)) ->
  NoDup (map fst l) /\ Forall (fun x => (fst x < f)%nat) l -> forall j, NoDup (map fst (at_ (list_of w) q l j)) /\ Forall (fun x => (fst x < f)%nat) (at_ (list_of w) q l j).
Proof. intros A B j. destruct (Nat.eq_dec j q) as [->|D]; [rewrite at_same; exact B|rewrite at_other by exact D; apply A]. Qed.

Lemma step_inv w e o w' : inv w -> step w e = Ok (o, w') -> inv w'.
Proof.
  intros (A & B & C & D) H. unfold step in H.
  destruct e as [t q|t q|t q p|t q|t|t q|t|t|t a b]; cbn [thread] in H; (destruct (asleep w t) as [[sq sm]|] eqn:SL; try discriminate); try apply asleep_none in SL.
    + destruct (own w q) as [[h d]|] eqn:O; [destruct (Nat.eqb_spec h t) as [->|]; [|discriminate]|]; apply Ok_inj in H; injection H as <- <-; (split; [|split; [|split]]; cbn [with_mutex list_of own cnt sleepers fresh]; try assumption).
      all: try (intros m X; unfold at_ in *; destruct (m =? q)%nat; [eexists; eexists; reflexivity|exact (B _ X)]).
      all: intros m; unfold depth, waiting; cbn [own sleepers with_mutex]; specialize (C m); unfold depth, waiting in C; unfold at_; destruct (Nat.eqb_spec m q) as [->|Ne]; [rewrite O in C; lia|lia].
    + destruct (own w q) as [[h [|d]]|] eqn:O; try discriminate. destruct (Nat.eqb_spec h t) as [->|]; [|discriminate]. apply Ok_inj in H; injection H as <- <-; (split; [|split; [|split]]; cbn [with_mutex list_of own cnt sleepers fresh]; try assumption).
      * intros m X. unfold at_ in *. destruct (m =? q)%nat; [destruct d; [contradiction|eexists; eexists; reflexivity]|exact (B _ X)].
      * intros m; unfold depth, waiting; cbn [own sleepers with_mutex]; specialize (C m); unfold depth, waiting in C; unfold at_; destruct (Nat.eqb_spec m q) as [->|Ne]; [rewrite O in C; destruct d; lia|lia].
    + destruct (can w (lockp w q) t); [|discriminate]. apply Ok_inj in H. destruct p as [v|v| | | |]; cbn [call] in H; injection H as <- <-; try (split; [|split; [|split]]; assumption).
      all: split; [|split; [|split]]; cbn [with_list list_of own cnt sleepers fresh]; try assumption.
      all: intros j; destruct (Nat.eq_dec j q) as [->|Ne]; [rewrite at_same|rewrite at_other by exact Ne].
      * destruct (A q) as [N F]. rewrite map_app. split; [|apply Forall_app; split; [eapply Forall_impl; [|exact F]; cbn beta; lia|constructor; [cbn [fst]; lia|constructor]]].
        cbn [map fst]. assert (NoDup (fresh w :: map fst (list_of w q))) as X.
        { constructor; [|exact N]. intros I. apply in_map_iff in I. destruct I as (x & E & I). rewrite Forall_forall in F. specialize (F x I). lia. }
        apply NoDup_Add with (a := fresh w) (l := map fst (list_of w q)); [|apply NoDup_cons_iff in X; tauto]. pose proof (Add_app (fresh w) (map fst (list_of w q)) []) as Y. rewrite app_nil_r in Y. exact Y.
      * destruct (A j) as [N F]. split; [exact N|eapply Forall_impl; [|exact F]; cbn beta; lia].
      * destruct (A q) as [N F]. cbn [map fst]. split; [|constructor; [cbn [fst]; lia|eapply Forall_impl; [|exact F]; cbn beta; lia]]. constructor; [|exact N]. intros I. apply in_map_iff in I. destruct I as (x & E & I). rewrite Forall_forall in F. specialize (F x I). lia.
      * destruct (A j) as [N F]. split; [exact N|eapply Forall_impl; [|exact F]; cbn beta; lia].
      * destruct (c_get (list_of w q)) as [y r] eqn:G. exact (nodes_ok_tail _ _ _ _ G (A q)).
      * apply A.
      * split; constructor.
      * apply A.
    + destruct (can w (lockp w q) t); [|discriminate]. destruct (c_get (list_of w q)) as [p l] eqn:G. pose proof (nodes_ok_tail _ _ _ _ G (A q)) as L. destruct (p =? 0); apply Ok_inj in H; injection H as <- <-; (split; [|split; [|split]]; cbn [with_list with_mutex with_sleepers list_of own cnt sleepers fresh]; try assumption).
      * apply list_ok_at; assumption.
      * intros m X. unfold at_ in *. destruct (m =? lockp w q)%nat; exact (B _ X).
      * intros m. unfold depth, waiting. cbn [own sleepers with_list with_mutex with_sleepers filter snd]. specialize (C m). unfold depth, waiting in C. unfold at_. rewrite (Nat.eqb_sym (lockp w q) m). destruct (Nat.eqb_spec m (lockp w q)) as [Eq|Ne]; [rewrite <- Eq|]; cbn [length]; lia.
      * cbn [map fst]. constructor; assumption.
      * apply list_ok_at; assumption.
    + apply asleep_some in SL. destruct (can w sm t); [|discriminate]. destruct (c_get (list_of w sq)) as [p l] eqn:G. pose proof (nodes_ok_tail _ _ _ _ G (A sq)) as L.
    destruct (p =? 0).
      * destruct (lockp w sq =? sm)%nat; [|discriminate]. apply Ok_inj in H. injection H as <- <-. split; [|split; [|split]]; cbn [with_list list_of own cnt sleepers fresh]; try assumption. apply list_ok_at; assumption.
      * apply Ok_inj in H. injection H as <- <-. split; [|split; [|split]]; cbn [with_list with_mutex with_sleepers list_of own cnt sleepers fresh].
        -- apply list_ok_at; assumption.
        -- intros m X. destruct (Nat.eq_dec m sm) as [->|Ne]; [rewrite at_same in *|rewrite at_other in * by exact Ne]; exact (B _ X).
        -- intros m. unfold depth, waiting. cbn [own sleepers with_list with_mutex with_sleepers]. specialize (C m). unfold depth, waiting in C. rewrite (awake_waiting t sq sm _ D SL m) in C. unfold at_. destruct (Nat.eqb_spec m sm) as [->|Ne]; [rewrite Nat.eqb_refl in C; lia|].
        replace (sm =? m)%nat with false in C by lia. lia.
        -- exact (proj1 (awake_nodup t _ D)).
    + destruct (negb (cnt w q =? 0)); cbn [assert_ bind] in H; [|discriminate]. apply Ok_inj in H. injection H as <- <-. split; [|split; [|split]]; assumption.
    + destruct (iter w t) as [[q [n|]]|]; try discriminate. destruct (value_at (list_of w q) n); [|discriminate]. apply Ok_inj in H. injection H as <- <-. split; [|split; [|split]]; assumption.
    + destruct (iter w t) as [[q [n|]]|]; try discriminate. destruct (after (list_of w q) n); [|discriminate]. apply Ok_inj in H. injection H as <- <-. split; [|split; [|split]]; assumption.
    + apply Ok_inj in H. injection H as <- <-. split; [|split; [|split]]; assumption.
Qed.
Lemma run_inv (P : world -> Prop) (Q : event -> Prop) : (forall w e o w', P w -> Q e -> step w e = Ok (o, w') -> P w') -> forall l w tr w', P w -> Forall Q l -> run w l = Ok (tr, w') -> P w'.
Proof.
  intros S l. induction l as [|e l IH]; intros w tr w' H F R; cbn [run] in R; [apply Ok_inj in R; injection R as _ <-; exact H|].
  apply bind_ok in R. destruct R as ([o w1] & E & R). apply bind_ok in R. destruct R as ([os w2] & E2 & R). apply Ok_inj in R. injection R as _ <-. inversion F. subst. apply (IH w1 os w2); [eapply S; eassumption|assumption|exact E2].
Qed.
Lemma reached_inv h w : reached h w -> inv w.
Proof. intros (tr & R). apply (run_inv inv (fun _ => True)) in R; [exact R|intros w1 e o w2 I _ E; exact (step_inv _ _ _ _ I E)|exact inv0|apply Forall_forall; auto]. Qed.

(** ** Steps of other threads *)
Definition plain (w : world) (q : nat) : Prop := lockp w q = q /\ forall t m, In (t, q, m) (sleepers w) -> m = q.
Lemma plain0 q : plain world0 q.
Proof. split; [reflexivity|intros t m []]. Qed.
Lemma find_awake t u l : u <> t -> find (fun s : nat * nat * nat => (fst (fst s) =? t)%nat) (awake l u) = find (fun s => (fst (fst s) =? t)%nat) l.
Proof.
  intros D. induction l as [|s l IH]; [reflexivity|]. unfold awake. cbn [filter]. fold (awake l u). destruct (Nat.eqb_spec (fst (fst s)) u) as [E|E]; cbn [negb find]; rewrite IH; [|reflexivity].
  replace (fst (fst s) =? t)%nat with false by lia. reflexivity.
Qed.
Lemma step_asleep w e o w' t : thread e <> t -> step w e = Ok (o, w') -> asleep w' t = asleep w t.
Proof.
  intros D H. unfold step in H. unfold asleep at 1 2. f_equal.
  destruct e as [u q|u q|u q p|u q|u|u q|u|u|u a b]; cbn [thread] in H, D; (destruct (asleep w u) as [[sq sm]|] eqn:SL; try discriminate).
  - destruct (own w q) as [[h d]|]; [destruct (h =? u)%nat; [|discriminate]|]; apply Ok_inj in H; injection H as <- <-; reflexivity.
  - destruct (own w q) as [[h [|d]]|]; try discriminate. destruct (h =? u)%nat; [|discriminate]. apply Ok_inj in H; injection H as <- <-; reflexivity.
  - destruct (can w (lockp w q) u); [|discriminate]. apply Ok_inj in H. destruct p; cbn [call] in H; injection H as <- <-; reflexivity.
  - destruct (can w (lockp w q) u); [|discriminate]. destruct (c_get (list_of w q)) as [p l]. destruct (p =? 0); apply Ok_inj in H; injection H as <- <-; [|reflexivity].
    cbn [sleepers with_sleepers find fst]. replace (u =? t)%nat with false by lia. reflexivity.
  - destruct (can w sm u); [|discriminate]. destruct (c_get (list_of w sq)) as [p l]. destruct (p =? 0).
    + destruct (lockp w sq =? sm)%nat; [|discriminate]. apply Ok_inj in H; injection H as <- <-; reflexivity.
    + apply Ok_inj in H; injection H as <- <-. cbn [sleepers with_sleepers]. apply find_awake; exact D.
  - destruct (negb (cnt w q =? 0)); cbn [assert_ bind] in H; [|discriminate]. apply Ok_inj in H. injection H as <- <-. reflexivity.
  - destruct (iter w u) as [[q [n|]]|]; try discriminate. destruct (value_at (list_of w q) n); [|discriminate]. apply Ok_inj in H. injection H as <- <-. reflexivity.
  - destruct (iter w u) as [[q [n|]]|]; try discriminate. destruct (after (list_of w q) n); [|discriminate]. apply Ok_inj in H. injection H as <- <-. reflexivity.
  - apply Ok_inj in H. injection H as <- <-. reflexivity.
Qed.
Lemma step_plain w e o w' q : plain w q -> ~ connects q e -> step w e = Ok (o, w') -> plain w' q.
Proof.
  intros [L P] D H. unfold step in H.
  destruct e as [u x|u x|u x p|u x|u|u x|u|u|u a b]; cbn [thread] in H; (destruct (asleep w u) as [[sq sm]|] eqn:SL; try discriminate).
  - destruct (own w x) as [[h d]|]; [destruct (h =? u)%nat; [|discriminate]|]; apply Ok_inj in H; injection H as <- <-; split; assumption.
  - destruct (own w x) as [[h [|d]]|]; try discriminate. destruct (h =? u)%nat; [|discriminate]. apply Ok_inj in H; injection H as <- <-; split; assumption.
  - destruct (can w (lockp w x) u); [|discriminate]. apply Ok_inj in H. destruct p; cbn [call] in H; injection H as <- <-; split; assumption.
  - destruct (can w (lockp w x) u); [|discriminate]. destruct (c_get (list_of w x)) as [p l]. destruct (p =? 0); apply Ok_inj in H; injection H as <- <-; [|split; assumption].
    split; [exact L|]. cbn [sleepers with_sleepers In]. intros t m [E|I]; [injection E as _ -> <-; exact L|exact (P _ _ I)].
  - destruct (can w sm u); [|discriminate]. destruct (c_get (list_of w sq)) as [p l]. destruct (p =? 0).
    + destruct (lockp w sq =? sm)%nat; [|discriminate]. apply Ok_inj in H; injection H as <- <-; split; assumption.
    + apply Ok_inj in H; injection H as <- <-. split; [exact L|]. cbn [sleepers with_sleepers]. intros t m I. apply awake_in in I. exact (P _ _ (proj1 I)).
  - destruct (negb (cnt w x =? 0)); cbn [assert_ bind] in H; [|discriminate]. apply Ok_inj in H. injection H as <- <-. split; assumption.
  - destruct (iter w u) as [[x [n|]]|]; try discriminate. destruct (value_at (list_of w x) n); [|discriminate]. apply Ok_inj in H. injection H as <- <-. split; assumption.
  - destruct (iter w u) as [[x [n|]]|]; try discriminate. destruct (after (list_of w x) n); [|discriminate]. apply Ok_inj in H. injection H as <- <-. split; assumption.
  - apply Ok_inj in H. injection H as <- <-. cbn [connects] in D. split; [cbn [lockp]; rewrite at_other by congruence; exact L|exact P].
Qed.
Lemma step_other w e o w' t m d : own w m = Some (t, S d) -> thread e <> t -> step w e = Ok (o, w') ->
  own w' m = Some (t, S d) /\ iter w' t = iter w t /\
  (forall q, lockp w q = m -> (forall u x, In (u, q, x) (sleepers w) -> x = m) -> list_of w' q = list_of w q).
Proof.
  intros O D H. unfold step in H.
  assert (forall u, u <> t -> can w m u = false) as CA by (intros u X; unfold can; rewrite O; lia).
  assert (forall u x, u <> t -> can w x u = true -> x <> m) as CN by (intros u x X Y ->; rewrite CA in Y by exact X; discriminate).
  destruct e as [u x|u x|u x p|u x|u|u x|u|u|u a b]; cbn [thread] in H, D; (destruct (asleep w u) as [[sq sm]|] eqn:SL; try discriminate).
  - destruct (own w x) as [[h d2]|] eqn:E; [destruct (Nat.eqb_spec h u) as [->|]; [|discriminate]|]; apply Ok_inj in H; injection H as <- <-; cbn [own list_of iter with_mutex]; (split; [rewrite at_other by congruence; exact O|split; [|intros; reflexivity]]); reflexivity.
  - destruct (own w x) as [[h [|d2]]|] eqn:E; try discriminate. destruct (Nat.eqb_spec h u) as [->|]; [|discriminate]. apply Ok_inj in H; injection H as <- <-; cbn [own list_of iter with_mutex]; (split; [rewrite at_other by congruence; exact O|split; [reflexivity|intros; reflexivity]]).
  - destruct (can w (lockp w x) u) eqn:K; [|discriminate]. apply (CN _ _ D) in K. apply Ok_inj in H. destruct p; cbn [call] in H; injection H as <- <-; cbn [own list_of iter with_list]; (split; [exact O|split; [reflexivity|intros q Q _; try reflexivity; apply at_other; congruence]]).
  - destruct (can w (lockp w x) u) eqn:K; [|discriminate]. apply (CN _ _ D) in K. destruct (c_get (list_of w x)) as [p l]. destruct (p =? 0); apply Ok_inj in H; injection H as <- <-; cbn [own list_of iter with_list with_mutex with_sleepers].
    + split; [rewrite at_other by congruence; exact O|split; [reflexivity|intros q Q _; apply at_other; congruence]].
    + split; [exact O|split; [reflexivity|intros q Q _; apply at_other; congruence]].
  - apply asleep_some in SL. destruct (can w sm u) eqn:K; [|discriminate]. apply (CN _ _ D) in K. destruct (c_get (list_of w sq)) as [p l]. destruct (p =? 0).
    + destruct (lockp w sq =? sm)%nat; [|discriminate]. apply Ok_inj in H; injection H as <- <-. split; [exact O|split; [reflexivity|]]. intros q Q F. cbn [list_of with_list]. apply at_other. intros ->. apply F in SL. contradiction.
    + apply Ok_inj in H; injection H as <- <-. cbn [own list_of iter with_list with_mutex with_sleepers]. split; [rewrite at_other by congruence; exact O|split; [reflexivity|]]. intros q Q F. apply at_other. intros ->. apply F in SL. contradiction.
  - destruct (negb (cnt w x =? 0)); cbn [assert_ bind] in H; [|discriminate]. apply Ok_inj in H. injection H as <- <-. split; [exact O|split; [cbn [iter with_iter]; apply at_other; congruence|reflexivity]].
  - destruct (iter w u) as [[x [n|]]|]; try discriminate. destruct (value_at (list_of w x) n); [|discriminate]. apply Ok_inj in H. injection H as <- <-. split; [exact O|split; reflexivity].
  - destruct (iter w u) as [[x [n|]]|]; try discriminate. destruct (after (list_of w x) n); [|discriminate]. apply Ok_inj in H. injection H as <- <-. split; [exact O|split; [cbn [iter with_iter]; apply at_other; congruence|reflexivity]].
  - apply Ok_inj in H. injection H as <- <-. split; [exact O|split; reflexivity].
Qed.

(** ** The loop *)
Lemma value_at_nth l i n p : NoDup (map fst l) -> nth_error l i = Some (n, p) -> value_at l n = Some p.
Proof.
  revert i. induction l as [|[x y] l IH]; intros [|i] N H; try discriminate; cbn [nth_error value_at map fst] in *; apply NoDup_cons_iff in N; destruct N as [N1 N2].
  - injection H as <- <-. rewrite Nat.eqb_refl. reflexivity.
  - destruct (Nat.eqb_spec x n) as [->|]; [|exact (IH i N2 H)]. contradiction N1. apply in_map_iff. exists (n, p). split; [reflexivity|exact (nth_error_In _ _ H)].
Qed.
Lemma after_nth l i n p : NoDup (map fst l) -> nth_error l i = Some (n, p) -> after l n = Some (nth_error (map fst l) (S i)).
Proof.
  revert i. induction l as [|[x y] l IH]; intros [|i] N H; try discriminate; cbn [nth_error after map fst] in *; apply NoDup_cons_iff in N; destruct N as [N1 N2].
  - injection H as <- <-. rewrite Nat.eqb_refl. destruct l as [|[a b] l]; reflexivity.
  - destruct (Nat.eqb_spec x n) as [->|]; [|exact (IH i N2 H)]. contradiction N1. apply in_map_iff. exists (n, p). split; [reflexivity|exact (nth_error_In _ _ H)].
Qed.
(** The state of a thread that holds the mutex of a queue whose elements are [l]. *)
Definition guarded (w : world) (t q d : nat) (l : nodes) : Prop := inv w /\ plain w q /\ own w q = Some (t, S d) /\ asleep w t = None /\ list_of w q = l.
Lemma guarded_other w e o w' t q d l : guarded w t q d l -> thread e <> t -> ~ connects q e -> step w e = Ok (o, w') -> guarded w' t q d l /\ iter w' t = iter w t.
Proof.
  intros (I & P & O & A & L) D C H. destruct (step_other _ _ _ _ _ _ _ O D H) as (O2 & It & Li). split; [|exact It]. split; [exact (step_inv _ _ _ _ I H)|split; [exact (step_plain _ _ _ _ _ P C H)|split; [exact O2|split]]].
  - rewrite (step_asleep _ _ _ _ _ D H). exact A.
  - rewrite Li; [exact L|exact (proj1 P)|exact (proj2 P)].
Qed.
Lemma guarded_begin w t q d l : guarded w t q d l -> step w (Begin t q) = Ok (Nothing, with_iter w t (Some (q, nth_error (map fst l) 0))).
Proof.
  intros ((_ & _ & C & _) & P & O & A & L). unfold step. cbn [thread]. rewrite A, (C q), L. unfold depth. rewrite O.
  replace (Z.of_nat (S d + waiting w q) =? 0) with false by lia. cbn [negb assert_ bind]. destruct l as [|[n p] l]; reflexivity.
Qed.
Lemma guarded_iter w t q d l i : guarded w t q d l -> guarded (with_iter w t i) t q d l.
Proof. intros ((I1 & I2 & I3 & I4) & P & O & A & L). split; [split; [|split; [|split]]; assumption|]. split; [exact P|split; [exact O|split; [exact A|exact L]]]. Qed.
Lemma guarded_deref w t q d l i n p : guarded w t q d l -> nth_error l i = Some (n, p) -> iter w t = Some (q, nth_error (map fst l) i) -> step w (Deref t) = Ok (Ptr p, w).
Proof.
  intros ((I & _) & P & O & A & L) N It. unfold step. cbn [thread]. rewrite A, It, nth_error_map, N. cbn [option_map fst]. rewrite L, (value_at_nth l i n p); [reflexivity| |exact N]. rewrite <- L. apply I.
Qed.
Lemma guarded_next w t q d l i n p : guarded w t q d l -> nth_error l i = Some (n, p) -> iter w t = Some (q, nth_error (map fst l) i) -> step w (Next t) = Ok (Nothing, with_iter w t (Some (q, nth_error (map fst l) (S i)))).
Proof.
  intros ((I & _) & P & O & A & L) N It. unfold step. cbn [thread]. rewrite A, It, nth_error_map, N. cbn [option_map fst]. rewrite L, (after_nth l i n p); [reflexivity| |exact N]. rewrite <- L. apply I.
Qed.
(** What the thread still has to do: maybe a step of the iterator, then turns. *)
Definition rest (t : nat) (b : bool) (j : nat) : list event := (if b then [Next t] else []) ++ turns t j.
Definition one (b : bool) : nat := if b then 1 else 0.
Lemma of_thread_cons t e l : of_thread t (e :: l) = if (thread e =? t)%nat then e :: of_thread t l else of_thread t l.
Proof. reflexivity. Qed.
Lemma visited_other t e o tr : thread e <> t -> visited t ((e, o) :: tr) = visited t tr.
Proof. intros D. destruct e; cbn [visited thread] in *; try reflexivity. destruct o; try reflexivity. replace (t0 =? t)%nat with false by lia. reflexivity. Qed.
Lemma nth_ex (l : nodes) i : (i < length l)%nat -> exists n p, nth_error l i = Some (n, p).
Proof. intros H. destruct (nth_error l i) as [[n p]|] eqn:E; [exists n, p; reflexivity|]. apply nth_error_None in E. lia. Qed.
Lemma rest_step t b j e r : rest t b j = e :: r -> (b = true /\ e = Next t /\ r = rest t false j) \/ (exists k, b = false /\ j = S k /\ e = Deref t /\ r = rest t true k).
Proof.
  unfold rest. destruct b; cbn [app]; intros H; [injection H as <- <-; left; auto|]. destruct j as [|k]; [discriminate|]. unfold turns in *. cbn [repeat concat app] in H. injection H as <- <-. right. exists k. auto.
Qed.
Lemma body_run t q d l evs : forall w b j i tr w', guarded w t q d l -> (forall e, In e evs -> ~ connects q e) -> of_thread t evs = rest t b j ->
  iter w t = Some (q, nth_error (map fst l) i) -> (i + one b + j <= length l)%nat -> run w evs = Ok (tr, w') ->
  guarded w' t q d l /\ visited t tr = firstn j (skipn (i + one b) (map snd l)) /\ iter w' t = Some (q, nth_error (map fst l) (i + one b + j)).
Proof.
  induction evs as [|e evs IH]; intros w b j i tr w' G C F It Le R; cbn [run] in R.
  - apply Ok_inj in R. injection R as <- <-. destruct b; [discriminate|]. destruct j; [|discriminate]. cbn [one]. rewrite !Nat.add_0_r. split; [exact G|split; [reflexivity|exact It]].
  - apply bind_ok in R. destruct R as ([o w1] & E & R). apply bind_ok in R. destruct R as ([os w2] & E2 & R). apply Ok_inj in R. injection R as <- <-.
    rewrite of_thread_cons in F. destruct (Nat.eqb_spec (thread e) t) as [T|T].
    + destruct (rest_step _ _ _ _ _ (eq_sym (eq_sym (eq_sym F)))) as [(-> & -> & F2)|(k & -> & -> & -> & F2)]; cbn [one] in *.
      * destruct (nth_ex l i) as (n & p & N); [lia|]. rewrite (guarded_next _ _ _ _ _ _ _ _ G N It) in E. apply Ok_inj in E. injection E as <- <-.
        assert (iter (with_iter w t (Some (q, nth_error (map fst l) (S i)))) t = Some (q, nth_error (map fst l) (S i))) as It2 by (cbn [iter with_iter]; apply at_same).
        destruct (IH _ false j (S i) os w2 (guarded_iter _ _ _ _ _ _ G) (fun e H => C e (or_intror H)) F2 It2 ltac:(cbn [one]; lia) E2) as (G2 & V & I2). cbn [one] in *. rewrite Nat.add_0_r in *. cbn [visited]. rewrite Nat.add_1_r. auto.
      * destruct (nth_ex l i) as (n & p & N); [lia|]. rewrite (guarded_deref _ _ _ _ _ _ _ _ G N It) in E. apply Ok_inj in E. injection E as <- <-.
        destruct (IH _ true k i os w2 G (fun e H => C e (or_intror H)) F2 It ltac:(cbn [one]; lia) E2) as (G2 & V & I2). cbn [one] in *. split; [exact G2|split].
        -- cbn [visited]. rewrite Nat.eqb_refl, V, Nat.add_0_r. rewrite (Nat.add_1_r i).
           assert (nth_error (map snd l) i = Some p) as M by (rewrite nth_error_map, N; reflexivity). clear -M.
           revert i M. induction (map snd l) as [|y ys IH]; intros [|i] M; try discriminate; [injection M as ->; reflexivity|exact (IH i M)].
        -- rewrite I2. f_equal. f_equal. f_equal. lia.
    + destruct (guarded_other _ _ _ _ _ _ _ _ G T (C e (or_introl eq_refl)) E) as [G2 It2]. rewrite visited_other by exact T. apply (IH w1 b j i os w2); try assumption; [intros x X; apply C; right; exact X|rewrite It2; exact It].
Qed.
Lemma body_safe t q d l e evs2 evs : forall w b j i tr w', guarded w t q d l -> (forall e, In e evs -> ~ connects q e) -> thread e = t -> of_thread t (evs ++ e :: evs2) = rest t b j ->
  iter w t = Some (q, nth_error (map fst l) i) -> (i + one b + j <= length l)%nat -> run w evs = Ok (tr, w') -> exists o w2, step w' e = Ok (o, w2).
Proof.
  induction evs as [|x evs IH]; intros w b j i tr w' G C T F It Le R; cbn [run app] in *; rewrite of_thread_cons in F.
  - apply Ok_inj in R. injection R as <- <-. rewrite T, Nat.eqb_refl in F.
    destruct (rest_step _ _ _ _ _ (eq_sym (eq_sym (eq_sym F)))) as [(-> & -> & F2)|(k & -> & -> & -> & F2)]; cbn [one] in *; (destruct (nth_ex l i) as (n & p & N); [lia|]).
    + rewrite (guarded_next _ _ _ _ _ _ _ _ G N It). eexists. eexists. reflexivity.
    + rewrite (guarded_deref _ _ _ _ _ _ _ _ G N It). eexists. eexists. reflexivity.
  - apply bind_ok in R. destruct R as ([o w1] & E & R). apply bind_ok in R. destruct R as ([os w2] & E2 & R). apply Ok_inj in R. injection R as <- <-.
    destruct (Nat.eqb_spec (thread x) t) as [T2|T2].
    + destruct (rest_step _ _ _ _ _ (eq_sym (eq_sym (eq_sym F)))) as [(-> & -> & F2)|(k & -> & -> & -> & F2)]; cbn [one] in *; (destruct (nth_ex l i) as (n & p & N); [lia|]).
      * rewrite (guarded_next _ _ _ _ _ _ _ _ G N It) in E. apply Ok_inj in E. injection E as <- <-.
        apply (IH (with_iter w t (Some (q, nth_error (map fst l) (S i)))) false j (S i) os w2); try assumption; [intros y Y; apply C; right; exact Y|cbn [iter with_iter]; apply at_same|cbn [one]; lia].
      * rewrite (guarded_deref _ _ _ _ _ _ _ _ G N It) in E. apply Ok_inj in E. injection E as <- <-.
        apply (IH w true k i os w2); try assumption; [intros y Y; apply C; right; exact Y|cbn [one]; lia].
    + destruct (guarded_other _ _ _ _ _ _ _ _ G T2 (C x (or_introl eq_refl)) E) as [G2 It2]. apply (IH w1 b j i os w2); try assumption; [intros y Y; apply C; right; exact Y|rewrite It2; exact It].
Qed.
Lemma loop_run t q d l evs : forall w k tr w', guarded w t q d l -> (forall e, In e evs -> ~ connects q e) -> of_thread t evs = loop t q k -> (k <= length l)%nat -> run w evs = Ok (tr, w') ->
  guarded w' t q d l /\ visited t tr = firstn k (map snd l) /\ iter w' t = Some (q, nth_error (map fst l) k).
Proof.
  induction evs as [|e evs IH]; intros w k tr w' G C F Le R; cbn [run] in R; [discriminate|].
  apply bind_ok in R. destruct R as ([o w1] & E & R). apply bind_ok in R. destruct R as ([os w2] & E2 & R). apply Ok_inj in R. injection R as <- <-.
  rewrite of_thread_cons in F. destruct (Nat.eqb_spec (thread e) t) as [T|T].
  - unfold loop in F. injection F as -> F. rewrite (guarded_begin _ _ _ _ _ G) in E. apply Ok_inj in E. injection E as <- <-. cbn [visited].
    apply (body_run t q d l evs _ false k 0%nat os w2) in E2; [exact E2|apply guarded_iter; exact G|intros y Y; apply C; right; exact Y|exact F|cbn [iter with_iter]; apply at_same|cbn [one]; lia].
  - destruct (guarded_other _ _ _ _ _ _ _ _ G T (C e (or_introl eq_refl)) E) as [G2 It2]. rewrite visited_other by exact T. apply (IH w1 k os w2); try assumption. intros y Y; apply C; right; exact Y.
Qed.
Lemma loop_safe t q d l e evs2 evs : forall w k tr w', guarded w t q d l -> (forall e, In e evs -> ~ connects q e) -> thread e = t -> of_thread t (evs ++ e :: evs2) = loop t q k -> (k <= length l)%nat -> run w evs = Ok (tr, w') ->
  exists o w2, step w' e = Ok (o, w2).
Proof.
  induction evs as [|x evs IH]; intros w k tr w' G C T F Le R; cbn [run app] in *; rewrite of_thread_cons in F.
  - apply Ok_inj in R. injection R as <- <-. rewrite T, Nat.eqb_refl in F. unfold loop in F. injection F as -> F. rewrite (guarded_begin _ _ _ _ _ G). eexists. eexists. reflexivity.
  - apply bind_ok in R. destruct R as ([o w1] & E & R). apply bind_ok in R. destruct R as ([os w2] & E2 & R). apply Ok_inj in R. injection R as <- <-. destruct (Nat.eqb_spec (thread x) t) as [T2|T2].
    + unfold loop in F. injection F as -> F. rewrite (guarded_begin _ _ _ _ _ G) in E. apply Ok_inj in E. injection E as <- <-.
      apply (body_safe t q d l e evs2 evs _ false k 0%nat os w2) in E2; [exact E2|apply guarded_iter; exact G|intros y Y; apply C; right; exact Y|exact T|exact F|cbn [iter with_iter]; apply at_same|cbn [one]; lia].
    + destruct (guarded_other _ _ _ _ _ _ _ _ G T2 (C x (or_introl eq_refl)) E) as [G2 It2]. apply (IH w1 k os w2); try assumption. intros y Y; apply C; right; exact Y.
Qed.
Lemma start_guarded h w t q d : reached h w -> (forall e, In e h -> ~ connects q e) -> own w q = Some (t, S d) -> asleep w t = None -> guarded w t q d (list_of w q).
Proof.
  intros R C O A. pose proof (reached_inv _ _ R) as I. destruct R as (tr & R). split; [exact I|split; [|split; [exact O|split; [exact A|reflexivity]]]].
  apply (run_inv (fun w => plain w q) (fun e => ~ connects q e)) in R; [exact R|intros a e o b P X Y; exact (step_plain _ _ _ _ _ P X Y)|apply plain0|apply Forall_forall; exact C].
Qed.

(** ** The theorems *)

(** While a thread holds the lock of qGetLock of a queue that is not connected, its loop over the queue finds the
    elements that were there, in order, whatever the other threads do in between; the queue is as it was, and after
    all elements the iterator is at the end. *)
Theorem C109_loop h w t q evs k tr w' : reached h w -> (forall e, In e (h ++ evs) -> ~ connects q e) -> holds w t q -> asleep w t = None ->
  of_thread t evs = loop t q k -> (k <= length (elements w q))%nat -> run w evs = Ok (tr, w') ->
  visited t tr = firstn k (elements w q) /\ elements w' q = elements w q /\ holds w' t q /\ (k = length (elements w q) -> iter w' t = Some (q, None)).
Proof.
  intros R C (d & O) A F Le E. unfold elements in *. rewrite map_length in *. destruct (loop_run t q d (list_of w q) evs w k tr w') as ((_ & _ & O2 & _ & L) & V & I); try assumption.
  - apply (start_guarded h); try assumption. intros e X. apply C, in_or_app. left. exact X.
  - intros e X. apply C, in_or_app. right. exact X.
  - split; [exact V|split; [rewrite L; reflexivity|split; [exists d; exact O2|]]]. intros ->. rewrite I. do 2 f_equal. apply nth_error_None. rewrite map_length. lia.
Qed.
Print Assumptions C109_loop.

(** None of its steps is undefined, fails an assertion or has to wait. *)
Theorem C109_loop_defined h w t q evs1 e evs2 k tr w' : reached h w -> (forall x, In x (h ++ evs1) -> ~ connects q x) -> holds w t q -> asleep w t = None ->
  thread e = t -> of_thread t (evs1 ++ e :: evs2) = loop t q k -> (k <= length (elements w q))%nat -> run w evs1 = Ok (tr, w') -> exists o w2, step w' e = Ok (o, w2).
Proof.
  intros R C (d & O) A T F Le E. unfold elements in *. rewrite map_length in *. apply (loop_safe t q d (list_of w q) e evs2 evs1 w k tr w'); try assumption.
  - apply (start_guarded h); try assumption. intros x X. apply C, in_or_app. left. exact X.
  - intros x X. apply C, in_or_app. right. exact X.
Qed.
Print Assumptions C109_loop_defined.

(** While a thread holds the mutex a queue uses, every other thread that needs the queue has to wait. *)
Theorem C109_excluded w t q e : holds w t (lockp w q) -> thread e <> t -> uses q e -> step w e = Diverge.
Proof.
  intros (d & O) D U. destruct e as [u x|u x|u x p|u x|u|u x|u|u|u a b]; cbn [uses] in U; try contradiction; subst x; unfold step; cbn [thread] in *; destruct (asleep w u) as [[sq sm]|]; try reflexivity.
  - unfold can. rewrite O. replace (t =? u)%nat with false by lia. reflexivity.
  - unfold can. rewrite O. replace (t =? u)%nat with false by lia. reflexivity.
Qed.
Print Assumptions C109_excluded.

(** begin() fails exactly if nobody, the caller or another, holds the lock and no thread sleeps in read() with it. *)
Theorem C109_assert h w t q : reached h w -> asleep w t = None ->
  (step w (Begin t q) = Abort <-> own w q = None /\ forall u x, ~ In (u, x, q) (sleepers w)) /\
  (step w (Begin t q) <> Abort -> exists w', step w (Begin t q) = Ok (Nothing, w') /\ elements w' q = elements w q).
Proof.
  intros R A. destruct (reached_inv _ _ R) as (_ & B & C & _). unfold step. cbn [thread]. rewrite A, (C q).
  assert ((depth w q + waiting w q = 0)%nat <-> own w q = None /\ forall u x, ~ In (u, x, q) (sleepers w)) as Z0.
  { unfold depth, waiting. split.
    - intros Z0. split.
      + destruct (own w q) eqn:O; [|reflexivity]. destruct (B q) as (u & d & X); [rewrite O; discriminate|]. rewrite O in X. injection X as ->. lia.
      + intros u x I. assert (In (u, x, q) (filter (fun s => (snd s =? q)%nat) (sleepers w))) as J by (apply filter_In; split; [exact I|cbn [snd]; apply Nat.eqb_refl]).
        destruct (filter (fun s => (snd s =? q)%nat) (sleepers w)); [destruct J|cbn [length] in Z0; lia].
    - intros [O N]. rewrite O. destruct (filter (fun s => (snd s =? q)%nat) (sleepers w)) as [|[[u x] m] r] eqn:F; [reflexivity|]. assert (In (u, x, m) (filter (fun s => (snd s =? q)%nat) (sleepers w))) as J by (rewrite F; left; reflexivity).
      apply filter_In in J. destruct J as [J E]. cbn [snd] in E. apply Nat.eqb_eq in E. subst m. destruct (N _ _ J). }
  destruct (Z.eqb_spec (Z.of_nat (depth w q + waiting w q)) 0) as [E|E]; cbn [negb assert_ bind].
  - split; [split; [intros _; apply Z0; lia|reflexivity]|intros X; contradiction X; reflexivity].
  - split; [split; [discriminate|intros X; apply Z0 in X; lia]|]. intros _. eexists. split; reflexivity.
Qed.
Print Assumptions C109_assert.

(** Defect: the assertion does not see whose lock it is; with another thread in read(), or with the lock held by
    another thread, begin() passes without the lock and the iterator may be left without its element. *)
Theorem C109_assert_refuted :
  (exists tr w, run world0 [Read 1 0; Call 2 0 (Write 7); Begin 3 0; Wake 1] = Ok (tr, w) /\ own w 0 = None /\ step w (Deref 3) = UB) /\
  (exists tr w, run world0 [Call 2 0 (Write 7); Lock 1 0; Begin 3 0; Call 1 0 ReadNB] = Ok (tr, w) /\ ~ holds w 3 0 /\ step w (Deref 3) = UB).
Proof.
  split; eexists; eexists; (split; [vm_compute; reflexivity|]); (split; [|reflexivity]).
  - reflexivity.
  - intros (d & H). discriminate.
Qed.
Print Assumptions C109_assert_refuted.

(** Defect: qGetLock is the lock of the queue itself, not the one it uses since iqConnect.  A thread locks it and
    iterates; another thread takes the element. *)
Theorem C109_connected_refuted :
  exists tr w, run world0 [Call 1 0 (Write 7); Connect 1 0 5; Lock 3 0; Begin 3 0; Call 1 0 ReadNB] = Ok (tr, w) /\ holds w 3 0 /\ step w (Deref 3) = UB.
Proof. eexists. eexists. split; [vm_compute; reflexivity|]. split; [exists 0%nat; reflexivity|reflexivity]. Qed.
Print Assumptions C109_connected_refuted.

(** The elements seen by an iterator need the mutex in use; that mutex keeps the others out, connected or not: with
    it the queue is changed by nobody else, as long as it is not connected again. *)
Lemma step_lockp w e o w' q : ~ connects q e -> step w e = Ok (o, w') -> lockp w' q = lockp w q.
Proof.
  intros D H. unfold step in H.
  destruct e as [u x|u x|u x p|u x|u|u x|u|u|u a b]; cbn [thread] in H; (destruct (asleep w u) as [[sq sm]|] eqn:SL; try discriminate).
  - destruct (own w x) as [[h d]|]; [destruct (h =? u)%nat; [|discriminate]|]; apply Ok_inj in H; injection H as <- <-; reflexivity.
  - destruct (own w x) as [[h [|d]]|]; try discriminate. destruct (h =? u)%nat; [|discriminate]. apply Ok_inj in H; injection H as <- <-; reflexivity.
  - destruct (can w (lockp w x) u); [|discriminate]. apply Ok_inj in H. destruct p; cbn [call] in H; injection H as <- <-; reflexivity.
  - destruct (can w (lockp w x) u); [|discriminate]. destruct (c_get (list_of w x)) as [p l]. destruct (p =? 0); apply Ok_inj in H; injection H as <- <-; reflexivity.
  - destruct (can w sm u); [|discriminate]. destruct (c_get (list_of w sq)) as [p l]. destruct (p =? 0).
    + destruct (lockp w sq =? sm)%nat; [|discriminate]. apply Ok_inj in H; injection H as <- <-; reflexivity.
    + apply Ok_inj in H; injection H as <- <-. reflexivity.
  - destruct (negb (cnt w x =? 0)); cbn [assert_ bind] in H; [|discriminate]. apply Ok_inj in H. injection H as <- <-. reflexivity.
  - destruct (iter w u) as [[x [n|]]|]; try discriminate. destruct (value_at (list_of w x) n); [|discriminate]. apply Ok_inj in H. injection H as <- <-. reflexivity.
  - destruct (iter w u) as [[x [n|]]|]; try discriminate. destruct (after (list_of w x) n); [|discriminate]. apply Ok_inj in H. injection H as <- <-. reflexivity.
  - apply Ok_inj in H. injection H as <- <-. cbn [connects lockp] in *. apply at_other. congruence.
Qed.
Lemma run_lockp l : forall w tr w' q, (forall e, In e l -> ~ connects q e) -> run w l = Ok (tr, w') -> lockp w' q = lockp w q.
Proof.
  induction l as [|e l IH]; intros w tr w' q C R; cbn [run] in R; [apply Ok_inj in R; injection R as _ <-; reflexivity|].
  apply bind_ok in R. destruct R as ([o w1] & E & R). apply bind_ok in R. destruct R as ([os w2] & E2 & R). apply Ok_inj in R. injection R as _ <-.
  rewrite (IH _ _ _ q (fun x X => C x (or_intror X)) E2). exact (step_lockp _ _ _ _ _ (C e (or_introl eq_refl)) E).
Qed.
(** Connected queues use one mutex for as long as neither is connected again: a thread that holds it keeps the others
    out of both. *)
Theorem C109_connect w t a b l tr w' : (forall e, In e l -> ~ connects a e /\ ~ connects b e) -> run w (Connect t a b :: l) = Ok (tr, w') ->
  share w' a b /\ lockp w' b = lockp w b /\
  (forall u e, holds w' u (lockp w b) -> thread e <> u -> uses a e \/ uses b e -> step w' e = Diverge).
Proof.
  intros C R. cbn [run] in R. apply bind_ok in R. destruct R as ([o w1] & E & R). apply bind_ok in R. destruct R as ([os w2] & E2 & R). apply Ok_inj in R. injection R as _ <-.
  assert (lockp w2 a = lockp w b /\ lockp w2 b = lockp w b) as [A B].
  { rewrite (run_lockp _ _ _ _ a (fun e X => proj1 (C e X)) E2), (run_lockp _ _ _ _ b (fun e X => proj2 (C e X)) E2). unfold step in E. cbn [thread] in E. destruct (asleep w t) as [[? ?]|]; [discriminate|].
    apply Ok_inj in E. injection E as <- <-. cbn [lockp]. rewrite at_same. split; [reflexivity|]. unfold at_. destruct (b =? a)%nat; reflexivity. }
  split; [unfold share; congruence|split; [exact B|]]. intros u e H D [U|U].
  - apply (C109_excluded w2 u a); [rewrite A; exact H|exact D|exact U].
  - apply (C109_excluded w2 u b); [rewrite B; exact H|exact D|exact U].
Qed.
Print Assumptions C109_connect.

(** Three queues: connected from the last to the first they all share; the other way round, the first has been left
    with the old mutex of the second. *)
Theorem C109_chain w t a b c : asleep w t = None -> a <> b -> a <> c -> b <> c ->
  (exists tr w', run w [Connect t b c; Connect t a b] = Ok (tr, w') /\ share w' a b /\ share w' b c) /\
  (exists tr w', run w [Connect t a b; Connect t b c] = Ok (tr, w') /\ share w' b c /\ (share w' a b <-> share w b c)).
Proof.
  intros A D1 D2 D3. assert (forall x y, asleep (W (list_of w) x (own w) (cnt w) y (sleepers w) (fresh w)) t = None) as A2 by (intros; exact A).
  split; eexists; eexists; (split; [cbn [run]; unfold step; cbn [thread bind]; rewrite A; cbn [bind]; unfold asleep in *; cbn [sleepers] in *; rewrite ?A; cbn [bind]; rewrite ?A; cbn [bind]; reflexivity|]); unfold share; cbn [lockp].
  all: unfold at_; rewrite !Nat.eqb_refl; replace (a =? b)%nat with false by lia; replace (b =? a)%nat with false by lia; replace (c =? a)%nat with false by lia; replace (c =? b)%nat with false by lia; rewrite ?Nat.eqb_refl.
  - split; reflexivity.
  - split; reflexivity.
Qed.
Print Assumptions C109_chain.

(** A thread asleep in read() of an empty queue, with the queue's mutex still held. *)
Definition stuck (w : world) (t q m d : nat) : Prop := list_of w q = [] /\ lockp w q = m /\ asleep w t = Some (q, m) /\ own w m = Some (t, S d).
Lemma step_stuck w1 t q m d e o w2 : ~ connects q e -> step w1 e = Ok (o, w2) -> stuck w1 t q m d -> stuck w2 t q m d /\ forall p, (e, o) <> (Wake t, Ptr p).
Proof.
  intros C E (L & Lo & A & O). destruct (Nat.eq_dec (thread e) t) as [T|T].
  - unfold step in E. destruct e as [u x|u x|u x p|u x|u|u x|u|u|u a b]; cbn [thread] in *; rewrite T in E; rewrite A in E; try discriminate. destruct (can w1 m t); [|discriminate]. rewrite L in E. cbn [c_get] in E. change (0 =? 0) with true in E. cbv iota in E. destruct (lockp w1 q =? m)%nat; [|discriminate]. apply Ok_inj in E. injection E as <- <-.
      split; [|discriminate]. unfold stuck. cbn [list_of lockp own with_list]. rewrite at_same. auto.
  - split; [|intros p X; injection X as -> _; apply T; reflexivity].
      split; [|split; [rewrite (step_lockp _ _ _ _ _ C E); exact Lo|split; [rewrite (step_asleep _ _ _ _ _ T E); exact A|exact (proj1 (step_other _ _ _ _ _ _ _ O T E))]]].
      (* another thread's step on the queue: it cannot write *)
      unfold step in E. destruct e as [u x|u x|u x p|u x|u|u x|u|u|u a b]; cbn [thread] in E, T; (destruct (asleep w1 u) as [[sq sm]|] eqn:SL; try discriminate).
      + destruct (own w1 x) as [[h d2]|]; [destruct (h =? u)%nat; [|discriminate]|]; apply Ok_inj in E; injection E as <- <-; exact L.
      + destruct (own w1 x) as [[h [|d2]]|]; try discriminate. destruct (h =? u)%nat; [|discriminate]. apply Ok_inj in E; injection E as <- <-; exact L.
      + destruct (Nat.eq_dec q x) as [<-|X]; [unfold can in E; rewrite Lo, O in E; replace (t =? u)%nat with false in E by lia; discriminate|].
        destruct (can w1 (lockp w1 x) u); [|discriminate]. apply Ok_inj in E. destruct p; cbn [call] in E; injection E as <- <-; cbn [list_of with_list]; rewrite ?at_other by exact X; exact L.
      + destruct (Nat.eq_dec q x) as [<-|X]; [unfold can in E; rewrite Lo, O in E; replace (t =? u)%nat with false in E by lia; discriminate|].
        destruct (can w1 (lockp w1 x) u); [|discriminate]. destruct (c_get (list_of w1 x)) as [p l]. destruct (p =? 0); apply Ok_inj in E; injection E as <- <-; cbn [list_of with_list with_mutex with_sleepers]; rewrite ?at_other by exact X; exact L.
      + destruct (can w1 sm u); [|discriminate]. destruct (Nat.eq_dec q sq) as [<-|X].
        * rewrite L in E. cbn [c_get] in E. change (0 =? 0) with true in E. cbv iota in E. destruct (lockp w1 q =? sm)%nat; [|discriminate]. apply Ok_inj in E. injection E as <- <-. cbn [list_of with_list]. apply at_same.
        * destruct (c_get (list_of w1 sq)) as [p l]. destruct (p =? 0); [destruct (lockp w1 sq =? sm)%nat; [|discriminate]|]; apply Ok_inj in E; injection E as <- <-; cbn [list_of with_list with_mutex with_sleepers]; rewrite ?at_other by exact X; exact L.
      + destruct (negb (cnt w1 x =? 0)); cbn [assert_ bind] in E; [|discriminate]. apply Ok_inj in E. injection E as <- <-. exact L.
      + destruct (iter w1 u) as [[x [n|]]|]; try discriminate. destruct (value_at (list_of w1 x) n); [|discriminate]. apply Ok_inj in E. injection E as <- <-. exact L.
      + destruct (iter w1 u) as [[x [n|]]|]; try discriminate. destruct (after (list_of w1 x) n); [|discriminate]. apply Ok_inj in E. injection E as <- <-. exact L.
      + apply Ok_inj in E. injection E as <- <-. exact L.
Qed.

(** A thread that reads an empty queue while it holds the lock sleeps with the lock held: nobody can write, it never
    gets an element. *)
Theorem C109_read_under_lock w t q o w1 l tr w' : holds w t (lockp w q) -> elements w q = [] -> step w (Read t q) = Ok (o, w1) ->
  (forall e, In e l -> ~ connects q e) -> run w1 l = Ok (tr, w') ->
  elements w' q = [] /\ asleep w' t = Some (q, lockp w q) /\ holds w' t (lockp w q) /\ (forall u v, u <> t -> step w' (Call u q (Write v)) = Diverge) /\ (forall p, ~ In (Wake t, Ptr p) tr).
Proof.
  intros (d & O) L E C R. apply map_eq_nil in L.
  assert (list_of w1 q = [] /\ lockp w1 q = lockp w q /\ asleep w1 t = Some (q, lockp w q) /\ own w1 (lockp w q) = Some (t, S d)) as P.
  { unfold step in E. cbn [thread] in E. destruct (asleep w t) as [[? ?]|]; [discriminate|]. destruct (can w (lockp w q) t); [|discriminate]. rewrite L in E. cbn [c_get] in E. change (0 =? 0) with true in E. cbv iota in E. apply Ok_inj in E. injection E as _ <-.
    cbn [list_of lockp own with_sleepers with_mutex with_list]. rewrite !at_same. split; [reflexivity|split; [reflexivity|split; [|exact O]]]. unfold asleep. cbn [sleepers with_sleepers find fst]. rewrite Nat.eqb_refl. reflexivity. }
  clear E o. set (m := lockp w q) in *. clearbody m. clear O L w. change (stuck w1 t q m d) in P.
  assert (stuck w' t q m d /\ forall p, ~ In (Wake t, Ptr p) tr) as [(L & Lo & A & O) N].
  { revert w1 tr P R. induction l as [|e l IH]; intros w1 tr P R; cbn [run] in R; [apply Ok_inj in R; injection R as <- <-; split; [exact P|intros p []]|].
    apply bind_ok in R. destruct R as ([o w2] & E & R). apply bind_ok in R. destruct R as ([os w3] & E2 & R). apply Ok_inj in R. injection R as <- <-.
    destruct (step_stuck _ _ _ _ _ _ _ _ (C e (or_introl eq_refl)) E P) as [P2 N]. destruct (IH (fun x X => C x (or_intror X)) _ _ P2 E2) as [P3 N3]. split; [exact P3|]. intros p [X|X]; [exact (N p X)|exact (N3 p X)]. }
  split; [unfold elements; rewrite L; reflexivity|split; [exact A|split; [exists d; exact O|split; [|exact N]]]].
  intros u v D. apply (C109_excluded w' t q); [rewrite Lo; exists d; exact O|exact D|reflexivity].
Qed.
Print Assumptions C109_read_under_lock.

(** ** Examples *)
(** Thread 3 iterates queue 0 while thread 1 waits in read() of queue 4 and thread 2 fills queue 4. *)
Definition ex_h : list event := [Call 1 0 (Write 10); Call 2 0 (Write 20); Call 1 0 (WriteFront 5); Lock 3 0].
Definition ex_l : list event := [Read 1 4; Begin 3 0; Call 2 4 (Write 30); Deref 3; Next 3; Wake 1; Deref 3; Call 1 4 Size; Next 3; Deref 3; Next 3].
Example C109_ex_loop : exists tr w tr2 w', run world0 ex_h = Ok (tr, w) /\ holds w 3 0 /\ asleep w 3 = None /\ (forall e, In e (ex_h ++ ex_l) -> ~ connects 0 e) /\ of_thread 3 ex_l = loop 3 0 3 /\
  run w ex_l = Ok (tr2, w') /\ elements w 0 = [5; 10; 20] /\ visited 3 tr2 = [5; 10; 20] /\ iter w' 3 = Some (0%nat, None) /\ In (Wake 1, Ptr 30) tr2 /\ step w' (Call 1 0 (Write 9)) = Diverge.
Proof.
  eexists. eexists. eexists. eexists. split; [vm_compute; reflexivity|]. split; [exists 0%nat; reflexivity|]. split; [reflexivity|]. split; [cbn; intros e X; intuition; subst e; assumption|].
  split; [reflexivity|]. split; [vm_compute; reflexivity|]. vm_compute. repeat split; tauto.
Qed.
(** Without the lock begin() fails when nobody holds it. *)
Example C109_ex_assert : exists w, run world0 [Call 1 0 (Write 10)] = Ok ([(Call 1 0 (Write 10), Nothing)], w) /\ step w (Begin 3 0) = Abort.
Proof. eexists. split; [vm_compute; reflexivity|reflexivity]. Qed.
(** Connected queues, and the chain in both orders. *)
Example C109_ex_chain :
  (exists w tr, run world0 [Connect 1 1 2; Connect 1 0 1; Lock 3 2] = Ok (tr, w) /\ map (fun q => step w (Call 4 q Size)) [0; 1; 2]%nat = [Diverge; Diverge; Diverge]) /\
  (exists w tr o w', run world0 [Connect 1 0 1; Connect 1 1 2; Lock 3 2] = Ok (tr, w) /\ step w (Call 4 1 Size) = Diverge /\ step w (Call 4 0 Size) = Ok (o, w')).
Proof. split; eexists; eexists; [split; vm_compute; reflexivity|]. eexists. eexists. repeat split; vm_compute; reflexivity. Qed.
(** read() under the lock: asleep for ever. *)
Example C109_ex_read : exists tr w, run world0 [Lock 3 0; Read 3 0; Wake 3; Call 1 4 (Write 1); Wake 3] = Ok (tr, w) /\ asleep w 3 = Some (0, 0)%nat /\ step w (Call 1 0 (Write 7)) = Diverge.
Proof. eexists. eexists. repeat split; vm_compute; reflexivity. Qed.
