(** C129: memory leak counters with threads. *)
From Verif Require Import Base BaseFacts MemThrModel.
From Coq Require Import Lia.
Local Open Scope Z_scope.

(** ** What the counters are to be *)
Definition is_new (x : nat) (c : call) : bool := match c with New y => Nat.eqb x y | _ => false end.
Definition is_del (x : nat) (c : call) : bool := match c with Del y => Nat.eqb x y | _ => false end.
(** How many calls of a kind there are in a program, in all programs. *)
Definition count (p : call -> bool) (l : list call) : Z := Z.of_nat (length (filter p l)).
Definition sum (l : list Z) : Z := fold_right Z.add 0 l.
Definition counts (p : call -> bool) (progs : list (list call)) : Z := sum (map (count p) progs).
(** Calls that use mMemMap, and text(). *)
Definition maps (c : call) : bool := match c with Del _ | Label => true | _ => false end.
Definition prints (c : call) : bool := match c with Text => true | _ => false end.
(** No two threads use mMemMap, and none prints. *)
Definition safe (progs : list (list call)) : Prop :=
  (forall t u p q, nth_error progs t = Some p -> nth_error progs u = Some q -> existsb maps p = true -> existsb maps q = true -> t = u) /\
  (forall p, In p progs -> existsb prints p = false).
(** How many steps a call takes: for the counters lock, read, write, unlock; for mMemMap and for text() in and out. *)
Definition cost (c : call) : Z := match c with New _ => 4 | Del _ => 6 | Label | Text => 2 end.
Definition costs (l : list call) : Z := sum (map cost l).
(** All threads are through. *)
Definition over (s : state) : Prop := forall x, In x (threads s) -> todo x = [].

(** ** Facts *)
Lemma count_app : forall p a b, count p (a ++ b) = count p a + count p b.
Proof. intros p a b. unfold count. rewrite filter_app, app_length. lia. Qed.
Lemma count_cons : forall p c l, count p (c :: l) = (if p c then 1 else 0) + count p l.
Proof. intros p c l. unfold count. cbn [filter]. destruct (p c); cbn [length]; lia. Qed.
Lemma sum_upd : forall (f : thread -> Z) l t a b, nth_error l t = Some a -> sum (map f (upd l t b)) = sum (map f l) - f a + f b.
Proof.
  induction l as [|h l IH]; intros [|t] a b E; cbn [nth_error] in E; try discriminate.
  - injection E as <-. cbn [upd map sum fold_right]. lia.
  - cbn [upd map sum fold_right]. fold (sum (map f (upd l t b))). fold (sum (map f l)). rewrite (IH t a b E). lia.
Qed.
Definition holds (x : thread) : bool := match at_ x with Locked | Got _ _ | Written => true | _ => false end.
(** The calls of a thread that have not been counted. *)
Definition rest (x : thread) : list call := match at_ x with Written | Free | InMap => tl (todo x) | _ => todo x end.
Record inv (progs : list (list call)) (s : state) : Prop := Inv {
  i_own : forall t x, nth_error (threads s) t = Some x -> holds x = true -> owner s = Some t;
  i_held : forall t, owner s = Some t -> exists x, nth_error (threads s) t = Some x /\ holds x = true;
  i_got : forall t n m c r, nth_error (threads s) t = Some (T (Got n m) (c :: r)) -> exists y, (c = New y \/ c = Del y) /\ n = now s y /\ m = total s y;
  i_now : forall y, now s y = count (is_new y) (trace s) - count (is_del y) (trace s);
  i_tot : forall y, total s y = count (is_new y) (trace s);
  i_sum : forall y, count (is_new y) (trace s) + sum (map (fun x => count (is_new y) (rest x)) (threads s)) = counts (is_new y) progs /\
                    count (is_del y) (trace s) + sum (map (fun x => count (is_del y) (rest x)) (threads s)) = counts (is_del y) progs;
  i_stage : forall t x, nth_error (threads s) t = Some x -> at_ x <> Idle -> exists c r, todo x = c :: r /\
     match at_ x with Free => exists y, c = Del y | InMap => maps c = true | Printing => c = Text | _ => exists y, c = New y \/ c = Del y end }.
Lemma start_inv : forall progs, inv progs (start progs).
Proof.
  intros progs. assert (N : forall t x, nth_error (threads (start progs)) t = Some x -> at_ x = Idle).
  { intros t x E. apply nth_error_In in E. unfold start in E. cbn [threads] in E. apply in_map_iff in E. destruct E as (p & <- & _). reflexivity. }
  constructor; cbn [start owner now total trace].
  - intros t x E H. unfold holds in H. rewrite (N t x E) in H. discriminate.
  - discriminate.
  - intros t n m c r E. apply N in E. discriminate.
  - reflexivity.
  - reflexivity.
  - intros y. unfold counts. cbn [start threads]. rewrite !map_map. split; reflexivity.
  - intros t x E H. destruct (H (N t x E)).
Qed.
(** One thread moves, the counters stay. *)
Lemma move_inv : forall progs s t a b o, inv progs s -> nth_error (threads s) t = Some a ->
  (holds b = true -> o = Some t) -> (holds b = false -> o <> Some t) -> (owner s = None \/ owner s = o \/ owner s = Some t) -> (o = None \/ o = owner s \/ o = Some t) ->
  (o <> owner s -> o = None -> owner s = Some t) ->
  (forall n m c r, b = T (Got n m) (c :: r) -> exists y, (c = New y \/ c = Del y) /\ n = now s y /\ m = total s y) ->
  (forall y, count (is_new y) (rest b) = count (is_new y) (rest a) /\ count (is_del y) (rest b) = count (is_del y) (rest a)) ->
  (at_ b <> Idle -> exists c r, todo b = c :: r /\ match at_ b with Free => exists y, c = Del y | InMap => maps c = true | Printing => c = Text | _ => exists y, c = New y \/ c = Del y end) ->
  inv progs (State o (now s) (total s) (upd (threads s) t b) (trace s)).
Proof.
  intros progs s t a b o [I1 I2 I3 I4 I5 I6 I7] E H1 H0 O1 O2 O3 G C ST. assert (L : (t < length (threads s))%nat) by (apply nth_error_Some; congruence).
  constructor; cbn [owner now total threads trace]; auto.
  - intros u x X HX. destruct (Nat.eq_dec t u) as [<-|N]; [rewrite nth_error_upd_eq in X by exact L; injection X as <-; auto|]. rewrite nth_error_upd_neq in X by exact N.
    assert (Q := I1 u x X HX). destruct O1 as [O1|[O1|O1]]; congruence.
  - intros u X. destruct (Nat.eq_dec t u) as [<-|N].
    + exists b. rewrite nth_error_upd_eq by exact L. split; [reflexivity|]. destruct (holds b); auto. destruct (H0 eq_refl X).
    + rewrite nth_error_upd_neq by exact N. apply I2. destruct O2 as [O2|[O2|O2]]; congruence.
  - intros u n m c r X. destruct (Nat.eq_dec t u) as [<-|N]; [rewrite nth_error_upd_eq in X by exact L; injection X as X; apply (G n m c r X)|]. rewrite nth_error_upd_neq in X by exact N. exact (I3 u n m c r X).
  - intros y. rewrite !(sum_upd _ _ _ a b E). destruct (C y) as (-> & ->). destruct (I6 y). split; lia.
  - intros u x X. destruct (Nat.eq_dec t u) as [<-|N]; [rewrite nth_error_upd_eq in X by exact L; injection X as <-; exact ST|]. rewrite nth_error_upd_neq in X by exact N. exact (I7 u x X).
Qed.
Lemma write_inv : forall progs s t n m c r y nw tt_, inv progs s -> nth_error (threads s) t = Some (T (Got n m) (c :: r)) ->
  (c = New y /\ nw = put (now s) y (n + 1) /\ tt_ = put (total s) y (m + 1)) \/ (c = Del y /\ nw = put (now s) y (n - 1) /\ tt_ = total s) ->
  inv progs (State (owner s) nw tt_ (upd (threads s) t (T Written (c :: r))) (trace s ++ [c])).
Proof.
  intros progs s t n m c r y nw tt_ [I1 I2 I3 I4 I5 I6 I7] E W. assert (L : (t < length (threads s))%nat) by (apply nth_error_Some; congruence).
  assert (OT : owner s = Some t) by (apply (I1 t _ E); reflexivity).
  destruct (I3 t n m c r E) as (y' & Cy & Hn & Hm). assert (y' = y) by (destruct W as [(-> & _)|(-> & _)], Cy as [Q|Q]; congruence). subst y'.
  assert (one : forall p, count p [c] = if p c then 1 else 0) by (intros p; rewrite count_cons; unfold count; cbn; destruct (p c); reflexivity).
  constructor; cbn [owner now total threads trace].
  - intros u x X HX. destruct (Nat.eq_dec t u) as [<-|N]; [exact OT|]. rewrite nth_error_upd_neq in X by exact N. exact (I1 u x X HX).
  - intros u X. assert (u = t) by congruence. subst u. exists (T Written (c :: r)). rewrite nth_error_upd_eq by exact L. auto.
  - intros u n' m' c' r' X. destruct (Nat.eq_dec t u) as [<-|N]; [rewrite nth_error_upd_eq in X by exact L; discriminate|]. rewrite nth_error_upd_neq in X by exact N.
    assert (Q := I1 u _ X eq_refl). congruence.
  - intros z. rewrite !count_app, !one. specialize (I4 z). destruct W as [(-> & -> & _)|(-> & -> & _)]; cbn [is_new is_del]; unfold put; destruct (Nat.eqb z y) eqn:Z; try lia;
      apply Nat.eqb_eq in Z; subst z; lia.
  - intros z. rewrite count_app, one. specialize (I5 z). destruct W as [(-> & _ & ->)|(-> & _ & ->)]; cbn [is_new]; unfold put; try lia. destruct (Nat.eqb z y) eqn:Z; try lia.
    apply Nat.eqb_eq in Z; subst z; lia.
  - intros z. rewrite !(sum_upd _ _ _ _ _ E), !count_app, !one. unfold rest. cbn [at_ todo tl]. fold rest. rewrite !count_cons. destruct (I6 z) as (A & B). unfold rest in A, B. split; lia.
  - intros u x X. destruct (Nat.eq_dec t u) as [<-|N]; [rewrite nth_error_upd_eq in X by exact L; injection X as <-|rewrite nth_error_upd_neq in X by exact N; exact (I7 u x X)].
    intros _. cbn [todo at_]. exists c, r. split; [reflexivity|]. exists y. exact Cy.
Qed.
Lemma holds_own : forall progs s t x, inv progs s -> nth_error (threads s) t = Some x -> holds x = true -> owner s = Some t.
Proof. intros progs s t x I. apply (i_own progs s I). Qed.
Lemma free_own : forall progs s t x, inv progs s -> nth_error (threads s) t = Some x -> holds x = false -> owner s <> Some t.
Proof. intros progs s t x I E H Q. destruct (i_held progs s I t Q) as (x' & E' & H'). congruence. Qed.
Lemma step_inv : forall progs s t s', inv progs s -> step s t = Ok s' -> inv progs s'.
Proof.
  intros progs s t s' I X. unfold step in X. destruct (nth_error (threads s) t) as [[k l]|] eqn:E; [|discriminate]. destruct l as [|c r]; [discriminate|].
  assert (HO := holds_own progs s t _ I E). assert (FO := free_own progs s t _ I E).
  unfold holds in HO, FO. cbn [at_] in HO, FO.
  unfold advance in X. destruct c as [y|y| |], k as [| |n m| | | |]; try discriminate X;
    try match type of X with match owner s with _ => _ end = _ => destruct (owner s) eqn:OW; [discriminate X|] end;
    try match type of X with (if ?b then _ else _) = _ => destruct b; [discriminate X|] end; injection X as <-.
  (* the two writes *)
  all: unfold move, set_owner; cbn [owner now total threads trace].
  all: try (eapply (write_inv progs s t n m _ r y); [exact I|exact E|first [left; split; [reflexivity|split; reflexivity]|right; split; [reflexivity|split; reflexivity]]]).
  all: try specialize (HO eq_refl); try specialize (FO eq_refl).
  all: (eapply move_inv; [exact I|exact E|..]); unfold holds, rest; cbn [at_ todo tl]; try congruence; auto.
  all: try (intros; discriminate).
  all: try (intros n0 m0 c0 r0 Q; injection Q as <- <- <- <-; eauto; fail).
  all: try (intros z; rewrite ?count_cons; cbn [is_new is_del]; split; lia).
  all: try (intros _; eexists; eexists; split; [reflexivity|]; eauto; fail).
Qed.

Lemma run_inv : forall progs l s s', inv progs s -> run s l = Ok s' -> inv progs s'.
Proof.
  intros progs l. induction l as [|t l IH]; intros s s' I X; cbn [run] in X; [injection X as <-; exact I|]. apply bind_ok in X. destruct X as (s1 & X1 & X2).
  exact (IH s1 s' (step_inv progs s t s1 I X1) X2).
Qed.
Lemma sum0 : forall (f : thread -> Z) l, (forall x, In x l -> f x = 0) -> sum (map f l) = 0.
Proof. induction l as [|x l IH]; intros H; [reflexivity|]. cbn [map sum fold_right]. fold (sum (map f l)). rewrite IH by (intros y J; apply H; right; exact J). rewrite (H x (or_introl eq_refl)). lia. Qed.
(** The programs a state stems from: what threads still do was in their programs. *)
Definition from (progs : list (list call)) (s : state) : Prop := length (threads s) = length progs /\
  forall t x p, nth_error (threads s) t = Some x -> nth_error progs t = Some p -> forall c, In c (todo x) -> In c p.
Lemma step_threads : forall s t s', step s t = Ok s' -> exists k c r x, nth_error (threads s) t = Some (T k (c :: r)) /\ threads s' = upd (threads s) t x /\ (todo x = c :: r \/ todo x = r).
Proof.
  intros s t s' X. unfold step in X. destruct (nth_error (threads s) t) as [[k l]|] eqn:E; [|discriminate]. destruct l as [|c r]; [discriminate|]. exists k, c, r.
  unfold advance in X. destruct c as [y|y| |], k as [| |n m| | | |]; try discriminate X;
    try match type of X with match owner s with _ => _ end = _ => destruct (owner s) eqn:OW; [discriminate X|] end;
    try match type of X with (if ?b then _ else _) = _ => destruct b; [discriminate X|] end; injection X as <-; cbn [move threads set_owner]; eexists; (split; [reflexivity|]); (split; [reflexivity|]); cbn [todo]; auto.
Qed.
Lemma step_from : forall progs s t s', from progs s -> step s t = Ok s' -> from progs s'.
Proof.
  intros progs s t s' (L & F) X. destruct (step_threads s t s' X) as (k & c & r & x & E & ET & D). split; [rewrite ET, upd_length; exact L|].
  assert (LT : (t < length (threads s))%nat) by (apply nth_error_Some; congruence). intros u z p U P d J. rewrite ET in U.
  destruct (Nat.eq_dec t u) as [<-|N]; [|rewrite nth_error_upd_neq in U by exact N; exact (F u z p U P d J)]. rewrite nth_error_upd_eq in U by exact LT. injection U as <-.
  apply (F t _ p E P). cbn [todo]. destruct D as [D|D]; rewrite D in J; [exact J|right; exact J].
Qed.
Lemma start_from : forall progs, from progs (start progs).
Proof.
  intros progs. split; [cbn [start threads]; apply map_length|]. intros t x p E P c I. cbn [start threads] in E. rewrite nth_error_map, P in E. cbn [option_map] in E. injection E as <-. exact I.
Qed.
Lemma exists_in : forall f (l : list thread), existsb f l = true -> exists t x, nth_error l t = Some x /\ f x = true.
Proof. intros f l H. apply existsb_exists in H. destruct H as (x & I & F). apply In_nth_error in I. destruct I as (t & E). eauto. Qed.
Lemma step_safe : forall progs s t, safe progs -> inv progs s -> from progs s -> step s t <> UB.
Proof.
  intros progs s t (SM & SP) I (L & F) X. unfold step in X. destruct (nth_error (threads s) t) as [[k l]|] eqn:E; [|discriminate]. destruct l as [|c r]; [discriminate|].
  assert (PR : forall u x, nth_error (threads s) u = Some x -> exists p, nth_error progs u = Some p /\ In p progs /\ forall c, In c (todo x) -> In c p).
  { intros u x U. destruct (nth_error progs u) as [p|] eqn:P; [|apply nth_error_None in P; rewrite <- L in P; apply nth_error_None in P; congruence].
    exists p. split; [reflexivity|]. split; [apply nth_error_In with u; exact P|]. exact (F u x p U P). }
  assert (NP : forall u x, nth_error (threads s) u = Some x -> ~ In Text (todo x)).
  { intros u x U J. destruct (PR u x U) as (p & _ & IP & Q). assert (Z := SP p IP). assert (existsb prints p = true) by (apply existsb_exists; exists Text; auto). congruence. }
  assert (MAP : forall c k, maps c = true -> nth_error (threads s) t = Some (T k (c :: r)) -> k <> InMap -> existsb in_map (threads s) = false).
  { intros d k' M E' NK. destruct (existsb in_map (threads s)) eqn:B; auto. exfalso. destruct (exists_in _ _ B) as (u & x & U & IM). unfold in_map in IM. destruct (at_ x) eqn:A; try discriminate.
    destruct (i_stage progs s I u x U) as (c' & r' & TD & ST). { congruence. } rewrite A in ST. destruct (PR u x U) as (p & P1 & _ & P2). destruct (PR t _ E') as (q & Q1 & _ & Q2).
    assert (t = u). { apply (SM t u q p Q1 P1); apply existsb_exists; [exists d; split; [apply Q2; left; reflexivity|exact M]|exists c'; split; [apply P2; rewrite TD; left; reflexivity|exact ST]]. }
    subst u. rewrite E' in U. injection U as <-. cbn [at_] in A. congruence. }
  assert (CNT : owner s = Some t -> k = Locked -> (existsb printing (threads s) || existsb counting (threads s))%bool = false).
  { intros O K. apply Bool.orb_false_iff. split.
    - destruct (existsb printing (threads s)) eqn:B; auto. exfalso. destruct (exists_in _ _ B) as (u & x & U & IM). unfold printing in IM. destruct (at_ x) eqn:A; try discriminate.
      destruct (i_stage progs s I u x U) as (c' & r' & TD & ST). { congruence. } rewrite A in ST. subst c'. apply (NP u x U). rewrite TD. left. reflexivity.
    - destruct (existsb counting (threads s)) eqn:B; auto. exfalso. destruct (exists_in _ _ B) as (u & x & U & IM). unfold counting in IM. destruct (at_ x) eqn:A; try discriminate.
      assert (owner s = Some u) by (apply (i_own progs s I u x U); unfold holds; rewrite A; reflexivity). assert (u = t) by congruence. subst u. rewrite E in U. injection U as <-. cbn [at_] in A. congruence. }
  unfold advance in X. destruct c as [y|y| |], k as [| |n m| | | |]; try discriminate X;
    try match type of X with match owner s with _ => _ end = _ => destruct (owner s) eqn:OW; discriminate X end.
  - rewrite (CNT (i_own progs s I t _ E eq_refl) eq_refl) in X. discriminate.
  - rewrite (CNT (i_own progs s I t _ E eq_refl) eq_refl) in X. discriminate.
  - rewrite (MAP (Del y) Free eq_refl E) in X by discriminate. discriminate.
  - rewrite (MAP Label Idle eq_refl E) in X by discriminate. discriminate.
  - apply (NP t _ E). left. reflexivity.
Qed.

(** Steps of a thread still to come. *)
Definition gone (k : stage) (c : call) : Z :=
  match c, k with (New _ | Del _), Locked => 1 | (New _ | Del _), Got _ _ => 2 | (New _ | Del _), Written => 3 | Del _, Free => 4 | Del _, InMap => 5 | Label, InMap | Text, Printing => 1 | _, _ => 0 end.
Definition left_ (x : thread) : Z := match todo x with [] => 0 | c :: r => cost c - gone (at_ x) c + costs r end.
Lemma costs_cons : forall c r, costs (c :: r) = cost c + costs r.
Proof. reflexivity. Qed.
Lemma costs_nonneg : forall l, 0 <= costs l.
Proof. induction l as [|c l IH]; [unfold costs; cbn; lia|]. rewrite costs_cons. destruct c; cbn [cost]; lia. Qed.
Lemma left_pos : forall x, 0 <= left_ x /\ (todo x <> [] -> 0 < left_ x).
Proof.
  intros [k [|c r]]; unfold left_; cbn [todo at_]; [split; [lia|congruence]|]. assert (H := costs_nonneg r). enough (gone k c < cost c) by (split; intros; lia).
  destruct c, k; cbn [gone cost]; lia.
Qed.
Lemma left_idle : forall l, left_ (T Idle l) = costs l.
Proof. intros [|c r]; [reflexivity|]. unfold left_. cbn [todo at_]. rewrite costs_cons. destruct c; cbn [gone]; lia. Qed.
Lemma step_left : forall s t s', step s t = Ok s' -> sum (map left_ (threads s')) = sum (map left_ (threads s)) - 1.
Proof.
  intros s t s' X. unfold step in X. destruct (nth_error (threads s) t) as [[k l]|] eqn:E; [|discriminate]. destruct l as [|c r]; [discriminate|].
  unfold advance in X. destruct c as [y|y| |], k as [| |n m| | | |]; try discriminate X;
    try match type of X with match owner s with _ => _ end = _ => destruct (owner s) eqn:OW; [discriminate X|] end;
    try match type of X with (if ?b then _ else _) = _ => destruct b; [discriminate X|] end; injection X as <-; cbn [move threads set_owner];
    rewrite (sum_upd left_ _ _ _ _ E); generalize (sum (map left_ (threads s))); intros w; rewrite ?left_idle, ?costs_cons; unfold left_; cbn [todo at_ cost gone]; lia.
Qed.
Lemma run_left : forall l s s', run s l = Ok s' -> Z.of_nat (length l) + sum (map left_ (threads s')) = sum (map left_ (threads s)).
Proof.
  induction l as [|t l IH]; intros s s' X; cbn [run] in X; [injection X as <-; reflexivity|]. apply bind_ok in X. destruct X as (s1 & X1 & X2).
  specialize (IH s1 s' X2). rewrite (step_left s t s1 X1) in IH. cbn [length]. lia.
Qed.
Lemma left_over : forall l, 0 <= sum (map left_ l) /\ ((forall x, In x l -> todo x = []) <-> sum (map left_ l) = 0).
Proof.
  induction l as [|x l (N & H)]; [split; [cbn; lia|split; [reflexivity|intros _ x []]]|]. cbn [map sum fold_right]. fold (sum (map left_ l)). destruct (left_pos x) as (P & Q).
  split; [lia|]. split.
  - intros A. rewrite (proj1 H) by (intros y J; apply A; right; exact J). unfold left_. rewrite (A x (or_introl eq_refl)). reflexivity.
  - intros A y J. destruct J as [J|J]; [subst y|apply (proj2 H); [lia|exact J]]. destruct (todo x) eqn:TD; [reflexivity|]. specialize (Q ltac:(discriminate)). lia.
Qed.

(** ** C129 *)
(** At every moment of every run the counters of a class are those of the updates made; when all threads are through they are the numbers
    of objects constructed, and constructed less destroyed, of the programs. *)
Theorem C129_counts : forall progs l s, run (start progs) l = Ok s ->
  (forall y, now s y = count (is_new y) (trace s) - count (is_del y) (trace s) /\ total s y = count (is_new y) (trace s)) /\
  (over s -> forall y, now s y = counts (is_new y) progs - counts (is_del y) progs /\ total s y = counts (is_new y) progs).
Proof.
  intros progs l s R. assert (I := run_inv progs l _ s (start_inv progs) R). split; [intros y; split; [apply (i_now progs s I)|apply (i_tot progs s I)]|].
  intros O y. assert (Z : forall p, sum (map (fun x => count p (rest x)) (threads s)) = 0).
  { intros p. apply sum0. intros x J. unfold rest. rewrite (O x J). destruct (at_ x); reflexivity. }
  destruct (i_sum progs s I y) as (A & B). rewrite Z in A, B. rewrite (i_now progs s I), (i_tot progs s I). lia.
Qed.
(** If only one thread destroys or labels checked objects and none prints, nothing undefined happens, though all threads construct. *)
Theorem C129_defined : forall progs l, safe progs -> run (start progs) l <> UB.
Proof.
  intros progs l S. assert (G : forall l s, inv progs s -> from progs s -> run s l <> UB).
  { induction l0 as [|t l0 IH]; intros s I F; cbn [run]; [discriminate|]. destruct (step s t) as [s1| | |] eqn:X; cbn [bind]; try discriminate.
    - exact (IH s1 (step_inv progs s t s1 I X) (step_from progs s t s1 F X)).
    - destruct (step_safe progs s t S I F X). }
  apply G; [apply start_inv|apply start_from].
Qed.
(** As long as a thread is not through some thread can go on. *)
Theorem C129_progress : forall progs l s, run (start progs) l = Ok s -> ~ over s -> exists t, step s t <> Diverge.
Proof.
  intros progs l s R N. assert (I := run_inv progs l _ s (start_inv progs) R).
  destruct (owner s) as [t|] eqn:O.
  - exists t. destruct (i_held progs s I t O) as ([k l'] & E & H). destruct (i_stage progs s I t _ E) as (c & r & TD & ST). { intros Q. unfold holds in H. cbn [at_] in *. rewrite Q in H. discriminate. }
    cbn [todo at_] in TD, ST. subst l'. unfold step. rewrite E. unfold advance. unfold holds in H. cbn [at_] in H.
    destruct k as [| |n m| | | |]; try discriminate H; destruct ST as (y & ST); destruct ST as [ST|ST]; subst c; try discriminate; destruct (_ || _)%bool; discriminate.
  - assert (X : exists x, In x (threads s) /\ todo x <> []).
    { unfold over in N. destruct (existsb (fun x => match todo x with [] => false | _ => true end) (threads s)) eqn:B.
      - apply existsb_exists in B. destruct B as (x & J & Q). exists x. split; [exact J|]. destruct (todo x); [discriminate|discriminate].
      - exfalso. apply N. intros x J. destruct (todo x) eqn:TD; auto. exfalso. assert (existsb (fun x => match todo x with [] => false | _ => true end) (threads s) = true); [|congruence].
        apply existsb_exists. exists x. rewrite TD. auto. }
    destruct X as ([k l'] & J & TD). apply In_nth_error in J. destruct J as (t & E). exists t. cbn [todo] in TD. destruct l' as [|c r]; [congruence|].
    assert (NH : holds (T k (c :: r)) = false). { destruct (holds (T k (c :: r))) eqn:H; auto. assert (Q := i_own progs s I t _ E H). congruence. }
    assert (ST : k <> Idle -> match k with Free => exists y, c = Del y | InMap => maps c = true | Printing => c = Text | _ => exists y, c = New y \/ c = Del y end).
    { intros Q. destruct (i_stage progs s I t _ E Q) as (c' & r' & T1 & S1). cbn [todo at_] in T1, S1. injection T1 as <- <-. exact S1. }
    unfold step. rewrite E. unfold advance. rewrite O. unfold holds in NH. cbn [at_] in NH.
    destruct k as [| |n m| | | |]; try discriminate NH.
    + destruct c; try discriminate; match goal with |- (if ?b then _ else _) <> _ => destruct b; discriminate end.
    + destruct (ST ltac:(discriminate)) as (y & ->). match goal with |- (if ?b then _ else _) <> _ => destruct b; discriminate end.
    + specialize (ST ltac:(discriminate)). destruct c; try discriminate ST; discriminate.
    + rewrite (ST ltac:(discriminate)). discriminate.
Qed.
(** A run takes at most as many steps as the calls of the programs, and all threads are through exactly when it has taken them. *)
Theorem C129_ends : forall progs l s, run (start progs) l = Ok s -> Z.of_nat (length l) <= sum (map costs progs) /\ (over s <-> Z.of_nat (length l) = sum (map costs progs)).
Proof.
  intros progs l s R. assert (X := run_left l _ s R). assert (E : sum (map left_ (threads (start progs))) = sum (map costs progs)).
  { cbn [start threads]. rewrite map_map. f_equal. apply map_ext. intros p. apply left_idle. }
  rewrite E in X. destruct (left_over (threads s)) as (N & H). split; [lia|]. unfold over. rewrite H. lia.
Qed.
(** Defects. Two threads that each destroy a checked object, of whatever classes, labelled or not, may be in mMemMap at the same time. *)
Theorem C129_destroy_refuted : forall x y p q, exists l, run (start [Del x :: p; Del y :: q]) l = UB.
Proof. intros x y p q. exists [0%nat; 0%nat; 0%nat; 0%nat; 0%nat; 1%nat; 1%nat; 1%nat; 1%nat; 1%nat]. reflexivity. Qed.
(** So may a thread that labels and one that destroys. *)
Theorem C129_label_refuted : forall x p q, exists l, run (start [Label :: p; Del x :: q]) l = UB.
Proof. intros x p q. exists [0%nat; 1%nat; 1%nat; 1%nat; 1%nat; 1%nat]. reflexivity. Qed.
(** text() takes no lock: it reads counters while a thread constructs an object. *)
Theorem C129_text_refuted : forall x p q, exists l, run (start [New x :: p; Text :: q]) l = UB.
Proof. intros x p q. exists [0%nat; 0%nat; 1%nat]. reflexivity. Qed.

(** ** Examples *)
Definition ex : list (list call) := [[New 1; New 2]; [New 1; Del 1; Label]; [New 1]]%nat.
Example ex_safe : safe ex.
Proof.
  split.
  - intros t u p q A B MA MB. assert (G : forall t p, nth_error ex t = Some p -> existsb maps p = true -> t = 1%nat).
    { intros t0 p0 E M. destruct t0 as [|[|[|t0]]]; cbn in E; [injection E as <-; discriminate|reflexivity|injection E as <-; discriminate|destruct t0; discriminate]. }
    rewrite (G t p A MA), (G u q B MB). reflexivity.
  - intros p I. cbn in I. destruct I as [<-|[<-|[<-|[]]]]; reflexivity.
Qed.
Example ex_runs : exists s, run (start ex) [0; 0; 0; 0; 1; 1; 1; 2; 0; 1; 2]%nat = Diverge /\
  run (start ex) [0; 0; 0; 0; 1; 1; 1; 1; 2; 2; 2; 2; 1; 1; 1; 1; 0; 0; 1; 0; 1; 0; 1; 1]%nat = Ok s /\ over s /\ now s 1%nat = 2 /\ total s 1%nat = 3 /\ now s 2%nat = 1.
Proof.
  eexists. split; [vm_compute; reflexivity|]. split; [vm_compute; reflexivity|]. split; [|split; [reflexivity|split; reflexivity]].
  intros x I. cbn in I. destruct I as [<-|[<-|[<-|[]]]]; reflexivity.
Qed.

Print Assumptions C129_counts.
Print Assumptions C129_defined.
Print Assumptions C129_progress.
Print Assumptions C129_ends.
Print Assumptions C129_destroy_refuted.
Print Assumptions C129_label_refuted.
Print Assumptions C129_text_refuted.
