(** General facts about monitors. *)
From Verif Require Import Base BaseFacts Monitor.

Section P.
Context {St Op Res : Type}.
Variable body : St -> Op -> clk -> outcome St Res.
Notation mst := (mstate St Op Res).
Notation pcT := (pc Op Res).

Lemma run_app : forall evs1 evs2 (m : mst), run body m (evs1 ++ evs2) =
  match run body m evs1 with Some m1 => run body m1 evs2 | None => None end.
Proof. induction evs1 as [|e t IH]; intros evs2 m; cbn [app run]; [reflexivity|]. destruct (step body m e); [apply IH|reflexivity]. Qed.

(** Invariants by induction over steps. *)
Lemma reach_ind : forall (P : mst -> Prop) s0,
  (forall n, P (init s0 n)) -> (forall m ev m', P m -> step body m ev = Some m' -> P m') -> forall m, reach body s0 m -> P m.
Proof.
  intros P s0 H0 HS m (n & evs & R).
  assert (G : forall evs m1, P m1 -> forall m2, run body m1 evs = Some m2 -> P m2).
  { clear - HS. induction evs as [|e t IH]; intros m1 H m2 E; cbn [run] in E; [injection E as <-; assumption|].
    destruct (step body m1 e) as [m3|] eqn:Es; [|discriminate]. eapply IH; [eapply HS; eassumption|eassumption]. }
  eapply G; [apply H0|eassumption].
Qed.

Lemma reach_step : forall s0 (m m' : mst) ev, reach body s0 m -> step body m ev = Some m' -> reach body s0 m'.
Proof.
  intros s0 m m' ev (n & evs & R) S. exists n, (evs ++ [ev]). rewrite run_app, R. cbn [run]. rewrite S. reflexivity.
Qed.

(** ** List facts *)
Lemma nth_error_lt : forall A (l : list A) i x, nth_error l i = Some x -> i < length l.
Proof. intros A l i x H. apply nth_error_Some. congruence. Qed.

Lemma nth_upd_some : forall A (l : list A) i j x y, nth_error (upd l i x) j = Some y ->
  (j = i /\ y = x) \/ (j <> i /\ nth_error l j = Some y).
Proof.
  intros A l i j x y H. destruct (Nat.eq_dec j i) as [->|N].
  - left. split; [reflexivity|]. pose proof (nth_error_lt _ _ _ _ H) as L. rewrite upd_length in L.
    rewrite nth_error_upd_eq in H by assumption. congruence.
  - right. split; [assumption|]. rewrite nth_error_upd_neq in H by congruence. assumption.
Qed.

Lemma nth_upd_same : forall A (l : list A) i x y, nth_error l i = Some y -> nth_error (upd l i x) i = Some x.
Proof. intros A l i x y H. apply nth_error_upd_eq. eapply nth_error_lt. eassumption. Qed.

(** What firing a signal does to a thread. *)
Lemma fire_other : forall g u (l l' : list pcT) t p, fire g u l = Some l' -> nth_error l' t = Some p ->
  nth_error l t = Some p \/ exists op c, nth_error l t = Some (PSleep op c) /\ sig_cond g = c /\ p = PWoken op.
Proof.
  intros [c|c] u l l' t p F H; cbn [fire] in F.
  - destruct u as [v|].
    + destruct (nth_error l v) as [q|] eqn:E; [|discriminate]. destruct (asleep c q) eqn:A; [|discriminate]. injection F as <-.
      apply nth_upd_some in H. destruct H as [[-> ->]|[N H]]; [|left; assumption]. right.
      destruct q as [| | | |op d| |]; cbn in A; try discriminate. apply Nat.eqb_eq in A. subst d. exists op, c. auto.
    + destruct (existsb (asleep c) l); [discriminate|]. injection F as <-. left. assumption.
  - injection F as <-. unfold wake_all in H. rewrite nth_error_map in H. destruct (nth_error l t) as [q|] eqn:E; [|discriminate].
    cbn [option_map] in H. injection H as <-. destruct (asleep c q) eqn:A; [|left; reflexivity]. right.
    destruct q as [| | | |op d| |]; cbn in A; try discriminate. apply Nat.eqb_eq in A. subst d. exists op, c. auto.
Qed.

Lemma fire_fwd : forall g u (l l' : list pcT) t p, fire g u l = Some l' -> nth_error l t = Some p ->
  nth_error l' t = Some p \/ exists op, p = PSleep op (sig_cond g) /\ nth_error l' t = Some (PWoken op).
Proof.
  intros [c|c] u l l' t p F H; cbn [fire] in F.
  - destruct u as [v|].
    + destruct (nth_error l v) as [q|] eqn:E; [|discriminate]. destruct (asleep c q) eqn:A; [|discriminate]. injection F as <-.
      destruct (Nat.eq_dec t v) as [->|N].
      * right. rewrite E in H. injection H as ->. destruct p as [| | | |op d| |]; cbn in A; try discriminate.
        apply Nat.eqb_eq in A. subst d. exists op. split; [reflexivity|]. eapply nth_upd_same; eassumption.
      * left. rewrite nth_error_upd_neq by congruence. assumption.
    + destruct (existsb (asleep c) l); [discriminate|]. injection F as <-. left. assumption.
  - injection F as <-. unfold wake_all. rewrite nth_error_map, H. cbn [option_map].
    destruct (asleep c p) eqn:A; [|left; reflexivity]. right.
    destruct p as [| | | |op d| |]; cbn in A; try discriminate. apply Nat.eqb_eq in A. subst d. exists op. auto.
Qed.

Lemma fire_length : forall g u (l l' : list pcT), fire g u l = Some l' -> length l' = length l.
Proof.
  intros [c|c] u l l' F; cbn [fire] in F.
  - destruct u as [v|].
    + destruct (nth_error l v) as [q|]; [|discriminate]. destruct (asleep c q); [|discriminate]. injection F as <-. apply upd_length.
    + destruct (existsb (asleep c) l); [discriminate|]. injection F as <-. reflexivity.
  - injection F as <-. apply map_length.
Qed.

(** ** Mutual exclusion *)
Definition holding (p : pcT) : bool := match p with PBody _ | PIn _ _ _ _ => true | _ => false end.

Definition excl (m : mst) : Prop := forall t p, nth_error (pcs m) t = Some p -> (holding p = true <-> holder m = Some t).

Lemma excl_upd : forall (m : mst) t p q h, excl m -> nth_error (pcs m) t = Some p -> holding p = holding q ->
  forall hs s, h = holder m -> excl (mkM s h (upd (pcs m) t q) hs).
Proof.
  intros m t p q h E N H hs s -> u r R. cbn [pcs holder] in *. apply nth_upd_some in R. destruct R as [[-> ->]|[Nu R]]; [rewrite <- H|]; apply E; assumption.
Qed.

Lemma excl_fire : forall (m : mst) g u l t p q, excl m -> fire g u (pcs m) = Some l -> nth_error (pcs m) t = Some p -> holding p = holding q ->
  excl (mkM (sh m) (holder m) (upd l t q) (hist m)).
Proof.
  intros m g u l t p q E F N H v r R. cbn [pcs holder] in *. apply nth_upd_some in R. destruct R as [[-> ->]|[Nu R]].
  - rewrite <- H. apply E. assumption.
  - destruct (fire_other _ _ _ _ _ _ F R) as [R'|(op & c & R' & _ & ->)]; [apply E; assumption|].
    apply E in R'. cbn [holding] in *. assumption.
Qed.

Lemma reach_excl : forall s0 (m : mst), reach body s0 m -> excl m.
Proof.
  intros s0 m R. revert m R. apply reach_ind.
  - intros n t p H. cbn [init pcs holder] in *. apply nth_error_In in H. apply repeat_spec in H. subst p. cbn. split; discriminate.
  - intros m ev m' E S. destruct ev as [t op|t|t e|t u|t|t|t]; cbn [step] in S.
    + destruct (nth_error (pcs m) t) as [[]|] eqn:N; try discriminate. injection S as <-. eapply excl_upd; try eassumption; reflexivity.
    + destruct (holder m) eqn:Hh; [discriminate|].
      assert (K : forall op, nth_error (pcs m) t = Some (PLock op) \/ nth_error (pcs m) t = Some (PWoken op) ->
         excl (mkM (sh m) (Some t) (upd (pcs m) t (PBody op)) (hist m))).
      { intros op N u r R. cbn [pcs holder] in *. apply nth_upd_some in R. destruct R as [[-> ->]|[Nu R]]; [split; reflexivity|].
        apply E in R. rewrite Hh in R. rewrite R. split; [discriminate|congruence]. }
      destruct (nth_error (pcs m) t) as [[]|] eqn:N; try discriminate; injection S as <-; apply K; auto.
    + destruct (nth_error (pcs m) t) as [[]|] eqn:N; try discriminate. injection S as <-.
      destruct (body (sh m) op e) as [s c|s|s r ins aft].
      * pose proof (proj1 (E _ _ N) eq_refl) as Hh. intros u r R. cbn [pcs holder] in *. apply nth_upd_some in R.
        destruct R as [[-> ->]|[Nu R]]; [split; discriminate|]. apply E in R. rewrite Hh in R. rewrite R. split; congruence.
      * intros u r R. cbn [pcs holder] in *. apply E. assumption.
      * eapply excl_upd; try eassumption; reflexivity.
    + destruct (nth_error (pcs m) t) as [[| | | | |op r [|g ins] aft|op r [|g aft]]|] eqn:N; try discriminate;
        (destruct (fire g u (pcs m)) as [l|] eqn:F; [|discriminate]); injection S as <-; eapply excl_fire; try eassumption; reflexivity.
    + destruct (nth_error (pcs m) t) as [[| | | | |op r [|g ins] aft|]|] eqn:N; try discriminate. injection S as <-.
      pose proof (proj1 (E _ _ N) eq_refl) as Hh. intros u q R. cbn [pcs holder] in *. apply nth_upd_some in R.
      destruct R as [[-> ->]|[Nu R]]; [split; discriminate|]. apply E in R. rewrite Hh in R. rewrite R. split; congruence.
    + destruct (nth_error (pcs m) t) as [[| | | | | |op r [|g aft]]|] eqn:N; try discriminate. injection S as <-. eapply excl_upd; try eassumption; reflexivity.
    + destruct (nth_error (pcs m) t) as [[]|] eqn:N; try discriminate. injection S as <-. eapply excl_upd; try eassumption; reflexivity.
Qed.

Lemma two_holders : forall s0 (m : mst) t u p q, reach body s0 m -> nth_error (pcs m) t = Some p -> nth_error (pcs m) u = Some q ->
  holding p = true -> holding q = true -> t = u.
Proof.
  intros s0 m t u p q R P Q Hp Hq. pose proof (reach_excl _ _ R) as E. apply (E _ _ P) in Hp. apply (E _ _ Q) in Hq. congruence.
Qed.

(** The holder exists. *)
Lemma holder_in : forall s0 (m : mst), reach body s0 m -> forall t, holder m = Some t -> exists p, nth_error (pcs m) t = Some p /\ holding p = true.
Proof.
  intros s0 m R. assert (B : forall t, holder m = Some t -> t < length (pcs m)).
  { revert m R. apply (reach_ind (fun m => forall t, holder m = Some t -> t < length (pcs m)) s0); [intros n t H; discriminate|].
    intros m ev m' E S v Hv. destruct ev as [t op|t|t e|t u|t|t|t]; cbn [step] in S.
    - destruct (nth_error (pcs m) t) as [[]|]; try discriminate. injection S as <-. cbn [holder pcs] in *. rewrite upd_length. auto.
    - destruct (holder m); [discriminate|]. destruct (nth_error (pcs m) t) as [[]|] eqn:N; try discriminate; injection S as <-; cbn [holder pcs] in *;
        rewrite upd_length; injection Hv as ->; eapply nth_error_lt; eassumption.
    - destruct (nth_error (pcs m) t) as [[]|]; try discriminate. injection S as <-.
      destruct (body (sh m) op e); cbn [holder pcs] in *; rewrite ?upd_length; auto; discriminate.
    - destruct (nth_error (pcs m) t) as [[| | | | |op r [|g ins] aft|op r [|g aft]]|] eqn:N; try discriminate;
        (destruct (fire g u (pcs m)) as [l|] eqn:F; [|discriminate]); injection S as <-; cbn [holder pcs] in *; rewrite upd_length, (fire_length _ _ _ _ F); auto.
    - destruct (nth_error (pcs m) t) as [[| | | | |op r [|g ins] aft|]|] eqn:N; try discriminate. injection S as <-. discriminate.
    - destruct (nth_error (pcs m) t) as [[| | | | | |op r [|g aft]]|] eqn:N; try discriminate. injection S as <-. cbn [holder pcs] in *. rewrite upd_length. auto.
    - destruct (nth_error (pcs m) t) as [[]|]; try discriminate. injection S as <-. cbn [setpc holder pcs] in *. rewrite upd_length. auto. }
  intros t H. pose proof (B t H) as L. destruct (nth_error (pcs m) t) as [p|] eqn:N.
  - exists p. split; [reflexivity|]. apply (reach_excl _ _ R _ _ N). assumption.
  - apply nth_error_None in N. lia.
Qed.

(** ** Rest *)
Lemma fire_possible : forall g (l : list pcT), exists u l', fire g u l = Some l'.
Proof.
  intros [c|c] l.
  - destruct (existsb (asleep c) l) eqn:X.
    + apply existsb_exists in X. destruct X as (p & I & A). apply In_nth_error in I. destruct I as (v & N).
      exists (Some v). cbn [fire]. rewrite N, A. eauto.
    + exists None. cbn [fire]. rewrite X. eauto.
  - exists None. cbn. eauto.
Qed.

(** At rest everybody is outside or asleep. *)
Lemma rest_shape : forall s0 (m : mst), reach body s0 m -> at_rest body m ->
  forall t p, nth_error (pcs m) t = Some p -> p = PIdle \/ exists op c, p = PSleep op c.
Proof.
  intros s0 m R Q.
  assert (NH : forall t p, nth_error (pcs m) t = Some p -> holding p = false).
  { intros t p N. destruct p as [|op|op|op|op c|op r ins aft|op r aft]; try reflexivity; exfalso.
    - specialize (Q (EBody t Early) I). cbn [step] in Q. rewrite N in Q. discriminate.
    - destruct ins as [|g ins].
      + specialize (Q (EUnlock t) I). cbn [step] in Q. rewrite N in Q. discriminate.
      + destruct (fire_possible g (pcs m)) as (u & l & F). specialize (Q (EFire t u) I). cbn [step] in Q. rewrite N, F in Q. discriminate. }
  assert (HN : holder m = None).
  { destruct (holder m) as [t|] eqn:H; [|reflexivity]. destruct (holder_in _ _ R t H) as (p & N & Hp). rewrite (NH _ _ N) in Hp. discriminate. }
  intros t p N. destruct p as [|op|op|op|op c|op r ins aft|op r aft].
  - left; reflexivity.
  - exfalso. specialize (Q (ELock t) I). cbn [step] in Q. rewrite HN, N in Q. discriminate.
  - exfalso. specialize (Q (ELock t) I). cbn [step] in Q. rewrite HN, N in Q. discriminate.
  - exfalso. specialize (NH _ _ N). discriminate.
  - right. eauto.
  - exfalso. specialize (NH _ _ N). discriminate.
  - exfalso. destruct aft as [|g aft].
    + specialize (Q (EReturn t) I). cbn [step] in Q. rewrite N in Q. discriminate.
    + destruct (fire_possible g (pcs m)) as (u & l & F). specialize (Q (EFire t u) I). cbn [step] in Q. rewrite N, F in Q. discriminate.
Qed.

(** ** Linearizability *)
Definition stage_of (p : pcT) : stage (Op := Op) (Res := Res) :=
  match p with
  | PIdle => Outside
  | PLock op | PWoken op | PBody op | PSleep op _ => Inside op
  | PIn op r _ _ | PAft op r _ => Effective op r
  end.

Section Lin.
Variable passes : St -> Op -> clk -> St -> Prop.
Variable does : St -> Op -> clk -> Res -> St -> Prop.
(** An invariant of the data that every body keeps. *)
Variable I : St -> Prop.
Hypothesis H_wait : forall s op e s' c, I s -> body s op e = OWait s' c -> passes s op e s' /\ I s'.
Hypothesis H_spin : forall s op e s', I s -> body s op e = OSpin s' -> passes s op e s' /\ I s'.
Hypothesis H_done : forall s op e s' r ins aft, I s -> body s op e = ODone s' r ins aft -> does s op e r s' /\ I s'.

Lemma seq_run_app : forall l s s1 l' s2, seq_run passes does s l s1 -> seq_run passes does s1 l' s2 -> seq_run passes does s (l ++ l') s2.
Proof.
  intros l s s1 l' s2 H. revert l' s2. induction H; intros l' s2 K; cbn [app]; [assumption| | | |].
  - apply seq_call. auto.
  - apply seq_ret. auto.
  - eapply seq_pass; [eassumption|auto].
  - eapply seq_done; [eassumption|auto].
Qed.

Record LinInv (s0 : St) (m : mst) : Prop := {
  L_inv : I (sh m);
  L_seq : seq_run passes does s0 (history m) (sh m);
  L_wf : forall t, well_formed (of_thread t (history m)) (match nth_error (pcs m) t with Some p => stage_of p | None => Outside end)
}.

Lemma history_cons : forall s h l e es, history (mkM s h l (e :: es) : mst) = history (mkM s h l es : mst) ++ [e].
Proof. reflexivity. Qed.

Lemma of_thread_app : forall t (a b : list (hevent Op Res)), of_thread t (a ++ b) = of_thread t a ++ of_thread t b.
Proof. intros. apply filter_app. Qed.

Lemma lin_event : forall s0 (m : mst) t p p' h s, LinInv s0 m -> nth_error (pcs m) t = Some p -> thread_of h = t ->
  I s -> seq_run passes does (sh m) [h] s ->
  (forall l, well_formed l (stage_of p) -> well_formed (l ++ [h]) (stage_of p')) ->
  forall hd, LinInv s0 (mkM s hd (upd (pcs m) t p') (h :: hist m)).
Proof.
  intros s0 m t p p' h s [LI L W] N T Is Q F hd. constructor; cbn [sh pcs]; [exact Is| |].
  - rewrite history_cons. eapply seq_run_app; [exact L|exact Q].
  - intros u. rewrite history_cons, of_thread_app. cbn [of_thread filter]. rewrite T.
    destruct (Nat.eqb_spec t u) as [<-|Nu].
    + rewrite (nth_upd_same _ _ _ _ _ N). apply F. specialize (W t). rewrite N in W. exact W.
    + rewrite app_nil_r. rewrite nth_error_upd_neq by congruence. apply W.
Qed.

Lemma lin_silent : forall s0 (m : mst) l hd, LinInv s0 m ->
  (forall t, match nth_error l t with Some p => stage_of p | None => Outside end = match nth_error (pcs m) t with Some p => stage_of p | None => Outside end) ->
  LinInv s0 (mkM (sh m) hd l (hist m)).
Proof.
  intros s0 m l hd [LI L W] E. constructor; cbn [sh pcs]; [exact LI|exact L|]. intros t. rewrite E. apply W.
Qed.

Lemma lin_upd : forall s0 (m : mst) t p p' hd, LinInv s0 m -> nth_error (pcs m) t = Some p -> stage_of p' = stage_of p ->
  LinInv s0 (mkM (sh m) hd (upd (pcs m) t p') (hist m)).
Proof.
  intros s0 m t p p' hd L N E. apply lin_silent; [assumption|]. intros u. destruct (Nat.eq_dec u t) as [->|Nu].
  - rewrite (nth_upd_same _ _ _ _ _ N), N. assumption.
  - rewrite nth_error_upd_neq by congruence. reflexivity.
Qed.

Lemma lin_fire : forall s0 (m : mst) g u l t p p' hd, LinInv s0 m -> fire g u (pcs m) = Some l -> nth_error (pcs m) t = Some p -> stage_of p' = stage_of p ->
  LinInv s0 (mkM (sh m) hd (upd l t p') (hist m)).
Proof.
  intros s0 m g u l t p p' hd L F N E. apply lin_silent; [assumption|]. intros v. destruct (Nat.eq_dec v t) as [->|Nv].
  - rewrite N. assert (Lt : t < length l) by (rewrite (fire_length _ _ _ _ F); eapply nth_error_lt; eassumption).
    rewrite nth_error_upd_eq by assumption. assumption.
  - rewrite nth_error_upd_neq by congruence. destruct (nth_error (pcs m) v) as [q|] eqn:Q.
    + destruct (fire_fwd _ _ _ _ _ _ F Q) as [->|(op & -> & ->)]; reflexivity.
    + assert (X : nth_error l v = None) by (apply nth_error_None; rewrite (fire_length _ _ _ _ F); apply nth_error_None; assumption). rewrite X. reflexivity.
Qed.

Lemma lin_inv : forall s0 (m : mst), I s0 -> reach body s0 m -> LinInv s0 m.
Proof.
  intros s0 m I0 R. revert m R. apply reach_ind.
  - intros n. constructor; [exact I0|constructor|]. intros t. cbn [init pcs]. destruct (nth_error (repeat PIdle n) t) as [p|] eqn:N.
    + apply nth_error_In in N. apply repeat_spec in N. subst p. constructor.
    + constructor.
  - intros m ev m' L S. pose proof (L_inv _ _ L) as Im. destruct ev as [t op|t|t e|t u|t|t|t]; cbn [step] in S.
    + destruct (nth_error (pcs m) t) as [[]|] eqn:N; try discriminate. injection S as <-.
      eapply lin_event; try eassumption; [reflexivity|constructor; constructor|]. intros l W. cbn [stage_of] in *. constructor. assumption.
    + destruct (holder m); [discriminate|]. destruct (nth_error (pcs m) t) as [[]|] eqn:N; try discriminate; injection S as <-;
        eapply lin_upd; try eassumption; reflexivity.
    + destruct (nth_error (pcs m) t) as [[]|] eqn:N; try discriminate. injection S as <-.
      destruct (body (sh m) op e) as [s c|s|s r ins aft] eqn:B.
      * eapply lin_event; try eassumption; [reflexivity|eapply H_wait; eassumption|econstructor; [eapply H_wait; eassumption|constructor]|].
        intros l W. cbn [stage_of] in *. constructor. assumption.
      * replace (pcs m) with (upd (pcs m) t (PBody op)).
        -- eapply lin_event; try eassumption; [reflexivity|eapply H_spin; eassumption|econstructor; [eapply H_spin; eassumption|constructor]|].
           intros l W. cbn [stage_of] in *. constructor. assumption.
        -- apply nth_error_ext. intros i. destruct (Nat.eq_dec i t) as [->|Ni]; [rewrite (nth_upd_same _ _ _ _ _ N); congruence|].
           rewrite nth_error_upd_neq by congruence. reflexivity.
      * eapply lin_event; try eassumption; [reflexivity|eapply H_done; eassumption|econstructor; [eapply H_done; eassumption|constructor]|].
        intros l W. cbn [stage_of] in *. constructor. assumption.
    + destruct (nth_error (pcs m) t) as [[| | | | |op r [|g ins] aft|op r [|g aft]]|] eqn:N; try discriminate;
        (destruct (fire g u (pcs m)) as [l|] eqn:F; [|discriminate]); injection S as <-; eapply lin_fire; try eassumption; reflexivity.
    + destruct (nth_error (pcs m) t) as [[| | | | |op r [|g ins] aft|]|] eqn:N; try discriminate. injection S as <-. eapply lin_upd; try eassumption; reflexivity.
    + destruct (nth_error (pcs m) t) as [[| | | | | |op r [|g aft]]|] eqn:N; try discriminate. injection S as <-.
      eapply lin_event; try eassumption; [reflexivity|constructor; constructor|]. intros l W. cbn [stage_of] in *. eapply wf_ret. eassumption.
    + destruct (nth_error (pcs m) t) as [[]|] eqn:N; try discriminate. injection S as <-. eapply lin_upd; try eassumption; reflexivity.
Qed.

Theorem lin_intro : forall s0, I s0 -> linearizable body s0 passes does.
Proof.
  intros s0 I0 m R. destruct (lin_inv _ _ I0 R) as [_ L W]. split; [assumption|]. intros t. eexists. apply W.
Qed.
End Lin.

(** ** Sums over the threads *)
Fixpoint sum (f : pcT -> nat) (l : list pcT) : nat := match l with [] => 0 | p :: t => f p + sum f t end.

Lemma sum_upd : forall f l t p q, nth_error l t = Some p -> sum f (upd l t q) + f p = sum f l + f q.
Proof.
  induction l as [|x l IH]; intros [|t] p q H; try discriminate; cbn [nth_error upd sum] in *.
  - injection H as ->. lia.
  - specialize (IH _ _ q H). lia.
Qed.

Lemma sum_ge : forall f l t p, nth_error l t = Some p -> f p <= sum f l.
Proof. induction l as [|x l IH]; intros [|t] p H; try discriminate; cbn [nth_error sum] in *; [injection H as ->; lia|]. specialize (IH _ _ H). lia. Qed.

Lemma sum_zero : forall f l, sum f l = 0 <-> forall t p, nth_error l t = Some p -> f p = 0.
Proof.
  intros f l. split.
  - intros Z t p H. pose proof (sum_ge f _ _ _ H). lia.
  - induction l as [|x l IH]; intros H; cbn [sum]; [reflexivity|]. rewrite (H 0 x eq_refl), IH; [reflexivity|]. intros t p N. apply (H (S t) p N).
Qed.

Lemma sum_pos : forall f l, 0 < sum f l -> exists t p, nth_error l t = Some p /\ 0 < f p.
Proof.
  induction l as [|x l IH]; cbn [sum]; intros H; [lia|]. destruct (f x) eqn:E.
  - destruct IH as (t & p & N & P); [lia|]. exists (S t), p. auto.
  - exists 0, x. split; [reflexivity|]. lia.
Qed.

Lemma sum_repeat : forall f n p, sum f (repeat p n) = n * f p.
Proof. induction n as [|n IH]; intros p; cbn [repeat sum]; [reflexivity|]. rewrite IH. lia. Qed.

(** A single signal either moves one sleeper on its condition to [PWoken] or finds none. *)
Lemma fire_sig_sum : forall c u (l l' : list pcT), fire (Sig c) u l = Some l' ->
  (l' = l /\ forall t op, nth_error l t <> Some (PSleep op c)) \/
  (exists v op, nth_error l v = Some (PSleep op c) /\ l' = upd l v (PWoken op)).
Proof.
  intros c u l l' F. cbn [fire] in F. destruct u as [v|].
  - destruct (nth_error l v) as [q|] eqn:E; [|discriminate]. destruct (asleep c q) eqn:A; [|discriminate]. injection F as <-. right.
    destruct q as [| | | |op d| |]; cbn in A; try discriminate. apply Nat.eqb_eq in A. subst d. exists v, op. auto.
  - destruct (existsb (asleep c) l) eqn:X; [discriminate|]. injection F as <-. left. split; [reflexivity|].
    intros t op H. assert (existsb (asleep c) l = true); [|congruence]. apply existsb_exists. exists (PSleep op c).
    split; [eapply nth_error_In; eassumption|]. cbn. apply Nat.eqb_refl.
Qed.
End P.
