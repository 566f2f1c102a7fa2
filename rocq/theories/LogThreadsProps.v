(** C98: log records and alarms with threads. *)
From Verif Require Import Base BaseFacts UtilsModel UtilsSpec UtilsProofs LoggerModel LoggerSpec LoggerProps LogThreadsModel.
Local Open Scope Z_scope.

(** ** The spec *)
(** The entries of thread [t], in their order. *)
Definition of_ {A} (t : nat) (l : list (nat * A)) : list A := map snd (filter (fun x => (fst x =? t)%nat) l).
(** The records the threads began to finish, in the order of the beginnings. *)
Definition logs (l : list label) : list (nat * rec) := concat (map (fun a => match a with LLog t r | LConfLog t r => [(t, r)] | _ => [] end) l).
Definition limits (l : list label) : list (option Z) := concat (map (fun a => match a with LLimit m => [m] | _ => [] end) l).
(** The limit of the alarms is always configured or has a default. *)
Definition limited (l : list label) : Prop := ~ In None (limits l).
(** What the system log gets of a record, and its line in the file. *)
Definition as_text (r : rec) : rec := (fst r, c_str (snd r)).
Definition line (r : rec) : list Z := c_str (snd r) ++ (if last (snd r) 0 =? 10 then [] else [10]).
Definition all_idle (s : sys) : Prop := forall t f, nth_error (frames s) t = Some f -> f = Frame Idle false.

(** ** Locks *)
Definition owns (k : mutex) (t n : nat) : Prop := match n with O => forall m, k <> Some (t, m) | S _ => k = Some (t, n) end.
Definition hA (f : frame) : nat := match pc f with Push _ | CLock _ | Limit _ | CUnlock _ _ | Trim _ _ | AUnlock _ | GCopy | GUnlock _ => 1 | _ => 0 end.
Definition hC (f : frame) : nat := ((if inconf f then 1 else 0) + match pc f with Limit _ | CUnlock _ _ => 1 | _ => 0 end)%nat.
Definition hL (f : frame) : nat := match pc f with Con _ | ConNl _ | File _ | FileNl _ | LUnlock _ => 1 | _ => 0 end.
Definition okf (f : frame) : Prop := match pc f with Conf | GLock | GCopy | GUnlock _ => inconf f = false | CUnlock _ None => False | _ => True end.
Record Locks (s : sys) : Prop := {
  l_limit : limit s <> None;
  l_frame : forall t f, nth_error (frames s) t = Some f -> owns (lkA s) t (hA f) /\ owns (lkC s) t (hC f) /\ owns (lkL s) t (hL f) /\ okf f;
  l_A : forall t n, lkA s = Some (t, n) -> (t < length (frames s))%nat;
  l_C : forall t n, lkC s = Some (t, n) -> (t < length (frames s))%nat;
  l_L : forall t n, lkL s = Some (t, n) -> (t < length (frames s))%nat }.

Lemma take_owns k t n k' : owns k t n -> take k t = Some k' -> owns k' t (S n) /\ (forall u m, u <> t -> owns k u m -> owns k' u m) /\ (forall u j, k' = Some (u, j) -> u = t).
Proof.
  intros O E. unfold take in E. destruct k as [(u, j)|].
  - destruct (Nat.eqb_spec u t) as [->|]; [|discriminate]. inversion E; subst. split; [|split].
    + destruct n as [|n]; [destruct (O j eq_refl)|]. inversion O. reflexivity.
    + intros u m N Ou. destruct m; [intros m Q; congruence|inversion Ou; congruence].
    + intros u m Q. congruence.
  - inversion E; subst. split; [|split].
    + destruct n as [|n]; [reflexivity|discriminate O].
    + intros u m N Ou. destruct m; [intros m Q; congruence|discriminate Ou].
    + intros u m Q. congruence.
Qed.
Lemma give_owns k t n : owns k t (S n) -> exists k', give k t = Ok k' /\ owns k' t n /\ (forall u m, u <> t -> owns k u m -> owns k' u m) /\ (forall u j, k' = Some (u, j) -> u = t).
Proof.
  intros O. cbn [owns] in O. subst k. unfold give. rewrite Nat.eqb_refl. eexists. split; [reflexivity|]. split; [|split].
  - destruct n; [discriminate|reflexivity].
  - intros u m N Ou. destruct m; [destruct n; [discriminate|intros m Q; congruence]|inversion Ou; congruence].
  - intros u j Q. destruct n; congruence.
Qed.
Lemma nth_upd {A} (l : list A) i j x y : nth_error (upd l i x) j = Some y -> (i = j /\ y = x) \/ (i <> j /\ nth_error l j = Some y).
Proof.
  destruct (Nat.eq_dec i j) as [->|H]; [|rewrite nth_error_upd_neq by exact H; auto]. intros E. left.
  assert (L : (j < length l)%nat) by (rewrite <- (upd_length _ l j x); apply nth_error_Some; congruence). rewrite nth_error_upd_eq in E by exact L. inversion E. auto.
Qed.
Lemma nth_upd_same {A} (l : list A) i x y : nth_error l i = Some y -> nth_error (upd l i x) i = Some x.
Proof. intros E. apply nth_error_upd_eq. apply nth_error_Some. congruence. Qed.
Lemma nth_bound {A} (l : list A) i x : nth_error l i = Some x -> (i < length l)%nat.
Proof. intros E. apply nth_error_Some. congruence. Qed.

(** A step of [t]: its frame becomes [f'], and of the locks at most one changes hands. *)
Lemma locks_put s t f f' s' :
  Locks s -> nth_error (frames s) t = Some f -> frames s' = upd (frames s) t f' -> limit s' = limit s -> okf f' ->
  (lkA s' = lkA s /\ hA f' = hA f \/ take (lkA s) t = Some (lkA s') /\ hA f' = S (hA f) \/ give (lkA s) t = Ok (lkA s') /\ S (hA f') = hA f) ->
  (lkC s' = lkC s /\ hC f' = hC f \/ take (lkC s) t = Some (lkC s') /\ hC f' = S (hC f) \/ give (lkC s) t = Ok (lkC s') /\ S (hC f') = hC f) ->
  (lkL s' = lkL s /\ hL f' = hL f \/ take (lkL s) t = Some (lkL s') /\ hL f' = S (hL f) \/ give (lkL s) t = Ok (lkL s') /\ S (hL f') = hL f) -> Locks s'.
Proof.
  intros I Et Ef El Ok' DA DC DL. destruct (l_frame _ I t f Et) as (OA & OC & OL & _).
  assert (G : forall k k' a a', owns k t a -> (k' = k /\ a' = a \/ take k t = Some k' /\ a' = S a \/ give k t = Ok k' /\ S a' = a) ->
    owns k' t a' /\ (forall u m, u <> t -> owns k u m -> owns k' u m) /\ (forall u j, k' = Some (u, j) -> u = t \/ k = Some (u, j))).
  { intros k k' a a' O [(-> & ->)|[(T & ->)|(Gv & <-)]].
    - auto.
    - destruct (take_owns k t a k' O T) as (A & B & C). split; [exact A|]. split; [exact B|]. intros u j Q. left. exact (C u j Q).
    - destruct (give_owns k t a' O) as (k2 & E2 & A & B & C). assert (k2 = k') by (rewrite E2 in Gv; apply Ok_inj in Gv; exact Gv). subst k2. split; [exact A|]. split; [exact B|]. intros u j Q. left. exact (C u j Q). }
  destruct (G _ _ _ _ OA DA) as (A1 & A2 & A3). destruct (G _ _ _ _ OC DC) as (C1 & C2 & C3). destruct (G _ _ _ _ OL DL) as (L1 & L2 & L3).
  pose proof (nth_bound _ _ _ Et) as Bt.
  constructor.
  - rewrite El. apply (l_limit _ I).
  - intros u g E. rewrite Ef in E. apply nth_upd in E as [(<- & ->)|(N & E)]; [auto|]. destruct (l_frame _ I u g E) as (X1 & X2 & X3 & X4). split; [|split; [|split]]; auto.
  - intros u n Q. rewrite Ef, upd_length. destruct (A3 u n Q) as [->|Q']; [exact Bt|exact (l_A _ I u n Q')].
  - intros u n Q. rewrite Ef, upd_length. destruct (C3 u n Q) as [->|Q']; [exact Bt|exact (l_C _ I u n Q')].
  - intros u n Q. rewrite Ef, upd_length. destruct (L3 u n Q) as [->|Q']; [exact Bt|exact (l_L _ I u n Q')].
Qed.
Lemma waits_ok k f s' : waits k f = Ok s' -> exists k', k = Some k' /\ s' = f k'.
Proof. destruct k as [k|]; intros E; [|discriminate]. apply Ok_inj in E. eauto. Qed.
Ltac flags_ := repeat match goal with |- context [console ?F] => destruct (console F) | |- context [tofile ?F] => destruct (tofile F) end.
Ltac sides := unfold hA, hC, hL; cbn [pc inconf put with_A with_C with_L with_alarms with_err with_syslog with_file with_copies lkA lkC lkL Nat.add];
  solve [left; split; reflexivity | right; left; split; [eassumption|reflexivity] | right; right; split; [eassumption|reflexivity] | right; left; split; [eassumption|lia] | right; right; split; [eassumption|lia]].
Lemma locks_micro F s t s' : Locks s -> micro F s t = Ok s' -> Locks s'.
Proof.
  intros I E. unfold micro in E. destruct (nth_error (frames s) t) as [[p c]|] eqn:Et; [|discriminate]. destruct (l_frame _ I t _ Et) as (OA & OC & OL & Okf).
  destruct p as [|r|r|r|r|r m|r m|r|r|r|r|r|r|r|r|r|r| | | |xs]; try discriminate; try (destruct m as [m|]; [|destruct Okf]);
    try (unfold okf in Okf; cbn [pc inconf] in Okf; subst c);
    first [apply waits_ok in E as (k & Ek & ->) | apply bind_ok in E as (k & Ek & E); apply Ok_inj in E; subst s' | apply Ok_inj in E; subst s'];
    flags_; cbn [orb];
    (eapply (locks_put s t _ _ _ I Et); [reflexivity|reflexivity| |sides..]); try exact Logic.I; try reflexivity.
  unfold okf. cbn [pc]. destruct (limit s) eqn:El; [exact Logic.I|exact (l_limit _ I El)].
Qed.
Lemma locks_step F s a s' : Locks s -> (forall m, a = LLimit m -> m <> None) -> step F s a = Ok s' -> Locks s'.
Proof.
  intros I Lm E. destruct a as [t r|t r|t|t|t|m|t]; cbn [step] in E.
  1-5: destruct (nth_error (frames s) t) as [[p c]|] eqn:Et; [|discriminate]; destruct p; try discriminate; destruct c; try discriminate.
  - apply Ok_inj in E. subst s'. unfold first. destruct (fst r <=? 2); [destruct (inited F)|]; (eapply (locks_put s t _ _ _ I Et); [reflexivity|reflexivity|exact Logic.I|sides..]).
  - apply Ok_inj in E. subst s'. unfold first. destruct (fst r <=? 2); [destruct (inited F)|]; (eapply (locks_put s t _ _ _ I Et); [reflexivity|reflexivity|exact Logic.I|sides..]).
  - apply Ok_inj in E. subst s'. eapply (locks_put s t _ _ _ I Et); [reflexivity|reflexivity|reflexivity|sides..].
  - apply bind_ok in E as (k & Ek & E). apply Ok_inj in E. subst s'. eapply (locks_put s t _ _ _ I Et); [reflexivity|reflexivity|exact Logic.I|sides..].
  - apply Ok_inj in E. subst s'. eapply (locks_put s t _ _ _ I Et); [reflexivity|reflexivity|reflexivity|sides..].
  - apply Ok_inj in E. subst s'. constructor; cbn [limit frames lkA lkC lkL]; [exact (Lm m eq_refl)|apply (l_frame _ I)|apply (l_A _ I)|apply (l_C _ I)|apply (l_L _ I)].
  - exact (locks_micro F s t s' I E).
Qed.
Lemma locks_start n m : Locks (start n (Some m)).
Proof.
  constructor; cbn [start limit frames lkA lkC lkL]; try discriminate. intros t f E. apply nth_error_In, repeat_spec in E. subst f. repeat split; discriminate.
Qed.
Lemma runs_app F l : forall s l' s', runs F s l = Ok s' -> runs F s (l ++ l') = runs F s' l'.
Proof.
  induction l as [|a l IH]; intros s l' s' E; cbn [runs app] in *; [congruence|]. apply bind_ok in E as (s1 & E1 & E). rewrite E1. cbn [bind]. exact (IH s1 l' s' E).
Qed.
Lemma runs_snoc F l a s s' : runs F s (l ++ [a]) = Ok s' -> exists s1, runs F s l = Ok s1 /\ step F s1 a = Ok s'.
Proof.
  revert s. induction l as [|b l IH]; intros s E; cbn [runs app] in *.
  - apply bind_ok in E as (s1 & E1 & E). exists s. split; [reflexivity|]. congruence.
  - apply bind_ok in E as (s1 & E1 & E). destruct (IH s1 E) as (s2 & E2 & E3). exists s2. rewrite E1. auto.
Qed.
Lemma limited_snoc l a : limited (l ++ [a]) -> limited l /\ forall m, a = LLimit m -> m <> None.
Proof.
  unfold limited, limits. rewrite map_app, concat_app. intros H. split; [intros Q; apply H, in_or_app; auto|]. intros m -> ->. apply H, in_or_app. right. left. reflexivity.
Qed.
Lemma locks_runs F n m l : forall s, limited l -> runs F (start n (Some m)) l = Ok s -> Locks s.
Proof.
  induction l as [|a l IH] using rev_ind; intros s Lm E; [cbn [runs] in E; apply Ok_inj in E; subst s; apply locks_start|].
  apply limited_snoc in Lm as (Lm & La). apply runs_snoc in E as (s1 & E1 & E). exact (locks_step F s1 a s (IH s1 Lm E1) La E).
Qed.

(** ** Nothing is undefined *)
Theorem C98_defined F n m l : limited l -> runs F (start n (Some m)) l <> UB /\ runs F (start n (Some m)) l <> Abort.
Proof.
  induction l as [|a l IH] using rev_ind; intros Lm; [split; discriminate|]. apply limited_snoc in Lm as (Lm & La). specialize (IH Lm).
  destruct (runs F (start n (Some m)) l) as [s| | |] eqn:E.
  - rewrite (runs_app F l _ [a] s E). cbn [runs]. pose proof (locks_runs F n m l s Lm E) as I.
    assert (G : step F s a <> UB /\ step F s a <> Abort).
    { assert (Gv : forall k t j, owns k t (S j) -> exists k', give k t = Ok k') by (intros k t j O; destruct (give_owns k t j O) as (k' & Ek & _); eauto).
      assert (W : forall k f, waits k f <> UB /\ waits k f <> Abort) by (intros [k|] f; split; discriminate).
      destruct a as [t r|t r|t|t|t|x|t]; cbn [step]; try (split; discriminate).
      1-5: destruct (nth_error (frames s) t) as [[p c]|] eqn:Et; [|split; discriminate]; destruct p; try (split; discriminate); destruct c; try (split; discriminate).
      - destruct (l_frame _ I t _ Et) as (_ & OC & _). destruct (Gv _ _ _ OC) as (k' & ->). split; discriminate.
      - unfold micro. destruct (nth_error (frames s) t) as [[p c]|] eqn:Et; [|split; discriminate]. destruct (l_frame _ I t _ Et) as (OA & OC & OL & _).
        destruct p; try (split; discriminate); try apply W.
        + unfold hC in OC. cbn [pc inconf] in OC. rewrite Nat.add_1_r in OC. destruct (Gv _ _ _ OC) as (k' & ->). split; discriminate.
        + destruct (Gv _ _ _ OA) as (k' & ->). split; discriminate.
        + destruct (Gv _ _ _ OL) as (k' & ->). split; discriminate.
        + destruct (Gv _ _ _ OA) as (k' & ->). split; discriminate. }
    destruct G as (G1 & G2). destruct (step F s a); cbn [bind]; split; congruence.
  - destruct IH as (_ & IH). congruence.
  - destruct IH as (IH & _). congruence.
  - assert (D : forall l s, runs F s l = Diverge -> runs F s (l ++ [a]) = Diverge).
    { clear. induction l as [|b l IHl]; intros s E; [discriminate|]. cbn [runs app] in *. destruct (step F s b); cbn [bind] in *; try discriminate; [apply IHl, E|reflexivity]. }
    rewrite (D l _ E). split; discriminate.
Qed.
Print Assumptions C98_defined.

(** ** The system log *)
Lemma of_app {A} t (l l' : list (nat * A)) : of_ t (l ++ l') = of_ t l ++ of_ t l'.
Proof. unfold of_. rewrite filter_app, map_app. reflexivity. Qed.
Lemma of_same {A} t (x : A) : of_ t [(t, x)] = [x].
Proof. unfold of_. cbn [filter fst]. rewrite Nat.eqb_refl. reflexivity. Qed.
Lemma of_other {A} t u (x : A) : u <> t -> of_ t [(u, x)] = [].
Proof. intros H. unfold of_. cbn [filter fst]. apply Nat.eqb_neq in H. rewrite H. reflexivity. Qed.
Lemma logs_snoc l a : logs (l ++ [a]) = logs l ++ match a with LLog t r | LConfLog t r => [(t, r)] | _ => [] end.
Proof. unfold logs. rewrite map_app, concat_app. cbn [map concat]. rewrite app_nil_r. reflexivity. Qed.
(** The record that has not reached the system log, the file, the alarms. *)
Definition pend_sys (p : place) : list rec :=
  match p with ALock r | Push r | CLock r | Limit r | CUnlock r _ | Trim r _ | AUnlock r | Echo r | EchoNl r | Syslog r => [r] | _ => [] end.
Definition pend_file (p : place) : list rec :=
  match p with ALock r | Push r | CLock r | Limit r | CUnlock r _ | Trim r _ | AUnlock r | Echo r | EchoNl r | Syslog r
             | LLock r | Con r | ConNl r | File r | FileNl r | LUnlock r => [r] | _ => [] end.
Definition pend_add (p : place) : list rec :=
  match p with ALock r | Push r | CLock r | Limit r | CUnlock r _ | Trim r _ => [r] | _ => [] end.
(** The thread a label belongs to, the outputs it changes. *)
Definition Sysl (s : sys) (l : list label) : Prop :=
  forall t f, nth_error (frames s) t = Some f -> of_ t (syslogged s) ++ map as_text (pend_sys (pc f)) = map as_text (of_ t (logs l)).
Lemma sysl_put s l t f f' s' a x :
  Sysl s l -> nth_error (frames s) t = Some f -> frames s' = upd (frames s) t f' -> syslogged s' = syslogged s ++ x -> (forall u, u <> t -> of_ u x = []) ->
  (forall u r, a = LLog u r \/ a = LConfLog u r -> u = t) ->
  of_ t x ++ map as_text (pend_sys (pc f')) = map as_text (pend_sys (pc f)) ++ map as_text (match a with LLog _ r | LConfLog _ r => [r] | _ => [] end) -> Sysl s' (l ++ [a]).
Proof.
  intros I Et Ef Es Ox Oa Q u g E. rewrite Ef in E. rewrite Es, of_app, logs_snoc, of_app, map_app. apply nth_upd in E as [(<- & ->)|(N & E)].
  - rewrite <- app_assoc, Q, app_assoc, (I t f Et). f_equal. destruct a as [v r|v r| | | | |]; try reflexivity; rewrite (Oa v r) by auto; rewrite of_same; reflexivity.
  - rewrite Ox, app_nil_r, (I u g E) by congruence. destruct a as [v r|v r| | | | |]; try (rewrite app_nil_r; reflexivity); rewrite (Oa v r) by auto; rewrite of_other by exact N; rewrite app_nil_r; reflexivity.
Qed.
Lemma sysl_step F s a s' l : Locks s -> Sysl s l -> step F s a = Ok s' -> Sysl s' (l ++ [a]).
Proof.
  intros Lk I E. destruct a as [t r|t r|t|t|t|m|t]; cbn [step] in E.
  1-5: destruct (nth_error (frames s) t) as [[p c]|] eqn:Et; [|discriminate]; destruct p; try discriminate; destruct c; try discriminate.
  - apply Ok_inj in E. subst s'. eapply (sysl_put s l t _ _ _ _ [] I Et); [reflexivity|symmetry; apply app_nil_r|reflexivity|intros u r' [Q|Q]; congruence|].
    unfold first. destruct (fst r <=? 2); [destruct (inited F)|]; reflexivity.
  - apply Ok_inj in E. subst s'. eapply (sysl_put s l t _ _ _ _ [] I Et); [reflexivity|symmetry; apply app_nil_r|reflexivity|intros u r' [Q|Q]; congruence|].
    unfold first. destruct (fst r <=? 2); [destruct (inited F)|]; reflexivity.
  - apply Ok_inj in E. subst s'. eapply (sysl_put s l t _ _ _ _ [] I Et); [reflexivity|symmetry; apply app_nil_r|reflexivity|intros u r' [Q|Q]; congruence|reflexivity].
  - apply bind_ok in E as (k & Ek & E). apply Ok_inj in E. subst s'. eapply (sysl_put s l t _ _ _ _ [] I Et); [reflexivity|symmetry; apply app_nil_r|reflexivity|intros u r' [Q|Q]; congruence|reflexivity].
  - apply Ok_inj in E. subst s'. eapply (sysl_put s l t _ _ _ _ [] I Et); [reflexivity|symmetry; apply app_nil_r|reflexivity|intros u r' [Q|Q]; congruence|reflexivity].
  - apply Ok_inj in E. subst s'. intros t f Et. rewrite logs_snoc, app_nil_r. exact (I t f Et).
  - unfold micro in E. destruct (nth_error (frames s) t) as [[p c]|] eqn:Et; [|discriminate]. destruct (l_frame _ Lk t _ Et) as (_ & _ & _ & Okf).
    destruct p as [|r|r|r|r|r m|r m|r|r|r|r|r|r|r|r|r|r| | | |xs]; try discriminate; try (destruct m as [m|]; [|destruct Okf]);
    first [apply waits_ok in E as (k & Ek & ->) | apply bind_ok in E as (k & Ek & E); apply Ok_inj in E; subst s' | apply Ok_inj in E; subst s'];
    try (eapply (sysl_put s l t _ _ _ _ [] I Et); [reflexivity|symmetry; apply app_nil_r|reflexivity|intros u r' [Q|Q]; congruence|flags_; reflexivity]).
    eapply (sysl_put s l t _ _ _ _ [(t, (fst r, c_str (snd r)))] I Et); [reflexivity|reflexivity|intros u N; apply of_other; congruence|intros u r' [Q|Q]; congruence|].
    rewrite of_same. destruct (console F || tofile F); reflexivity.
Qed.
(** Each record a thread finishes goes to the system log exactly once, in the order of that thread. *)
Theorem C98_syslog F n m l s t f : limited l -> runs F (start n (Some m)) l = Ok s -> nth_error (frames s) t = Some f ->
  of_ t (syslogged s) ++ map as_text (pend_sys (pc f)) = map as_text (of_ t (logs l)).
Proof.
  intros Lm E. revert t f. change (Sysl s l). revert s Lm E. induction l as [|a l IH] using rev_ind; intros s Lm E.
  - cbn [runs] in E. apply Ok_inj in E. subst s. intros t f Et. cbn [start frames] in Et. apply nth_error_In, repeat_spec in Et. subst f. reflexivity.
  - apply limited_snoc in Lm as (Lm & La). apply runs_snoc in E as (s1 & E1 & E). exact (sysl_step F s1 a s l (locks_runs F n m l s1 Lm E1) (IH s1 Lm E1) E).
Qed.
Print Assumptions C98_syslog.

(** ** The file *)
Definition partial (p : place) : list Z := match p with FileNl r => c_str (snd r) | LUnlock r => line r | _ => [] end.
Definition holder (k : mutex) (s : sys) : place := match k with Some (u, _) => match nth_error (frames s) u with Some f => pc f | None => Idle end | None => Idle end.
Lemma holder_same k s s' t f f' n : owns k t n -> nth_error (frames s) t = Some f -> frames s' = upd (frames s) t f' ->
  holder k s' = match n with O => holder k s | _ => pc f' end.
Proof.
  intros O Et Ef. unfold holder. destruct n as [|n].
  - destruct k as [(u, j)|]; [|reflexivity]. rewrite Ef, nth_error_upd_neq; [reflexivity|]. intros ->. exact (O j eq_refl).
  - cbn [owns] in O. subst k. rewrite Ef, (nth_upd_same _ _ _ _ Et). reflexivity.
Qed.
Lemma holder_own k s t f n : owns k t (S n) -> nth_error (frames s) t = Some f -> holder k s = pc f.
Proof. intros O Et. cbn [owns] in O. subst k. unfold holder. rewrite Et. reflexivity. Qed.
Lemma holder_take k k' s s' t f f' : owns k t 0 -> take k t = Some k' -> nth_error (frames s) t = Some f -> frames s' = upd (frames s) t f' -> holder k s = Idle /\ holder k' s' = pc f'.
Proof.
  intros O T Et Ef. unfold take in T. destruct k as [(u, j)|].
  - destruct (Nat.eqb_spec u t) as [->|]; [destruct (O j eq_refl)|discriminate].
  - inversion T; subst. split; [reflexivity|]. unfold holder. rewrite Ef, (nth_upd_same _ _ _ _ Et). reflexivity.
Qed.
Lemma holder_give k k' s s' t f f' : owns k t 1 -> give k t = Ok k' -> nth_error (frames s) t = Some f -> frames s' = upd (frames s) t f' -> holder k s = pc f /\ holder k' s' = Idle.
Proof.
  intros O G Et Ef. split; [exact (holder_own k s t f 0 O Et)|]. cbn [owns] in O. subst k. unfold give in G. rewrite Nat.eqb_refl in G. apply Ok_inj in G. subst k'. reflexivity.
Qed.
Definition Filei (s : sys) (l : list label) (rs : list (nat * rec)) : Prop :=
  file s = concat (map line (map snd rs)) ++ partial (holder (lkL s) s) /\
  forall t f, nth_error (frames s) t = Some f -> of_ t rs ++ pend_file (pc f) = of_ t (logs l).
Lemma filei_put s l rs t f f' s' a x :
  Filei s l rs -> nth_error (frames s) t = Some f -> frames s' = upd (frames s) t f' -> (forall u, u <> t -> of_ u x = []) ->
  (forall u r, a = LLog u r \/ a = LConfLog u r -> u = t) ->
  of_ t x ++ pend_file (pc f') = pend_file (pc f) ++ (match a with LLog _ r | LConfLog _ r => [r] | _ => [] end) ->
  (file s' = concat (map line (map snd (rs ++ x))) ++ partial (holder (lkL s') s')) -> Filei s' (l ++ [a]) (rs ++ x).
Proof.
  intros (_ & I) Et Ef Ox Oa Q Ff. split; [exact Ff|]. intros u g E. rewrite Ef in E. rewrite of_app, logs_snoc, of_app. apply nth_upd in E as [(<- & ->)|(N & E)].
  - rewrite <- app_assoc, Q, app_assoc, (I t f Et). f_equal. destruct a as [v r|v r| | | | |]; try reflexivity; rewrite (Oa v r) by auto; rewrite of_same; reflexivity.
  - rewrite Ox, app_nil_r, (I u g E) by congruence. destruct a as [v r|v r| | | | |]; try (rewrite app_nil_r; reflexivity); rewrite (Oa v r) by auto; rewrite of_other by exact N; rewrite app_nil_r; reflexivity.
Qed.
(** Steps outside gLogToLock that leave the file alone. *)
Lemma filei_out s l rs t f f' s' a :
  Locks s -> Filei s l rs -> nth_error (frames s) t = Some f -> frames s' = upd (frames s) t f' -> file s' = file s -> lkL s' = lkL s -> hL f = 0%nat ->
  (forall u r, a = LLog u r \/ a = LConfLog u r -> u = t) ->
  pend_file (pc f') = pend_file (pc f) ++ (match a with LLog _ r | LConfLog _ r => [r] | _ => [] end) -> Filei s' (l ++ [a]) rs.
Proof.
  intros Lk I Et Ef Ff El Hl Oa Q. rewrite <- (app_nil_r rs). apply (filei_put s l rs t f f' s' a [] I Et Ef); [reflexivity|exact Oa|exact Q|]. rewrite app_nil_r. destruct (l_frame _ Lk t f Et) as (_ & _ & OL & _). rewrite Hl in OL.
  rewrite Ff, El, (holder_same _ s s' t f f' 0 OL Et Ef). apply I.
Qed.
Lemma nl_line text : nl text = if last text 0 =? 10 then [] else [10].
Proof. unfold nl. rewrite last_rev. destruct (last text 0 =? 10); reflexivity. Qed.
Lemma filei_step F s a s' l rs : tofile F = true -> Locks s -> Filei s l rs -> step F s a = Ok s' -> exists x, Filei s' (l ++ [a]) (rs ++ x).
Proof.
  intros TF Lk I E. destruct a as [t r|t r|t|t|t|m|t]; cbn [step] in E.
  1-5: exists []; rewrite app_nil_r; destruct (nth_error (frames s) t) as [[p c]|] eqn:Et; [|discriminate]; destruct p; try discriminate; destruct c; try discriminate.
  - apply Ok_inj in E. subst s'. eapply (filei_out s l rs t _ _ _ _ Lk I Et); try reflexivity; [intros u r' [Q|Q]; congruence|]. unfold first. destruct (fst r <=? 2); [destruct (inited F)|]; reflexivity.
  - apply Ok_inj in E. subst s'. eapply (filei_out s l rs t _ _ _ _ Lk I Et); try reflexivity; [intros u r' [Q|Q]; congruence|]. unfold first. destruct (fst r <=? 2); [destruct (inited F)|]; reflexivity.
  - apply Ok_inj in E. subst s'. eapply (filei_out s l rs t _ _ _ _ Lk I Et); try reflexivity; intros u r' [Q|Q]; congruence.
  - apply bind_ok in E as (k & Ek & E). apply Ok_inj in E. subst s'. eapply (filei_out s l rs t _ _ _ _ Lk I Et); try reflexivity; intros u r' [Q|Q]; congruence.
  - apply Ok_inj in E. subst s'. eapply (filei_out s l rs t _ _ _ _ Lk I Et); try reflexivity; intros u r' [Q|Q]; congruence.
  - exists []. rewrite app_nil_r. apply Ok_inj in E. subst s'. split; [apply I|]. intros t f Et. rewrite logs_snoc, app_nil_r. exact (proj2 I t f Et).
  - unfold micro in E. destruct (nth_error (frames s) t) as [[p c]|] eqn:Et; [|discriminate]. destruct (l_frame _ Lk t _ Et) as (_ & _ & OL & Okf). rewrite TF, orb_true_r in E.
    destruct p as [|r|r|r|r|r m|r m|r|r|r|r|r|r|r|r|r|r| | | |xs]; try discriminate; try (destruct m as [m|]; [|destruct Okf]);
    first [apply waits_ok in E as (k & Ek & ->) | apply bind_ok in E as (k & Ek & E); apply Ok_inj in E; subst s' | apply Ok_inj in E; subst s'];
    try (exists []; rewrite app_nil_r; eapply (filei_out s l rs t _ _ _ _ Lk I Et); try reflexivity; intros u r' [Q|Q]; congruence).
    (* gLogToLock is taken *)
    + exists []. eapply (filei_put s l rs t _ _ _ _ [] I Et); [reflexivity|reflexivity|intros u r' [Q|Q]; congruence|flags_; reflexivity|]. rewrite app_nil_r.
      cbn [put with_L file lkL]. set (s' := put _ _ _). destruct (holder_take _ k s s' t _ _ OL Ek Et eq_refl) as (H1 & H2). rewrite H2. destruct I as (I & _). rewrite I, H1. flags_; reflexivity.
    + exists []. eapply (filei_put s l rs t _ _ _ _ [] I Et); [reflexivity|reflexivity|intros u r' [Q|Q]; congruence|reflexivity|]. rewrite app_nil_r.
      cbn [put with_err file lkL]. set (s' := put _ _ _). rewrite (holder_same _ s s' t _ _ 1 OL Et eq_refl). destruct I as (I & _). rewrite I, (holder_own _ _ _ _ _ OL Et). reflexivity.
    + exists []. eapply (filei_put s l rs t _ _ _ _ [] I Et); [reflexivity|reflexivity|intros u r' [Q|Q]; congruence|reflexivity|]. rewrite app_nil_r.
      cbn [put with_err file lkL]. set (s' := put _ _ _). rewrite (holder_same _ s s' t _ _ 1 OL Et eq_refl). destruct I as (I & _). rewrite I, (holder_own _ _ _ _ _ OL Et). reflexivity.
    + exists []. eapply (filei_put s l rs t _ _ _ _ [] I Et); [reflexivity|reflexivity|intros u r' [Q|Q]; congruence|reflexivity|]. rewrite app_nil_r.
      cbn [put with_file file lkL]. set (s' := put _ _ _). rewrite (holder_same _ s s' t _ _ 1 OL Et eq_refl). destruct I as (I & _). rewrite I, (holder_own _ _ _ _ _ OL Et). cbn [pc partial]. rewrite app_nil_r. reflexivity.
    + exists []. eapply (filei_put s l rs t _ _ _ _ [] I Et); [reflexivity|reflexivity|intros u r' [Q|Q]; congruence|reflexivity|]. rewrite app_nil_r.
      cbn [put with_file file lkL]. set (s' := put _ _ _). rewrite (holder_same _ s s' t _ _ 1 OL Et eq_refl). destruct I as (I & _). rewrite I, (holder_own _ _ _ _ _ OL Et). cbn [pc partial]. rewrite nl_line, <- app_assoc. reflexivity.
    + exists [(t, r)]. eapply (filei_put s l rs t _ _ _ _ [(t, r)] I Et); [reflexivity|intros u N; apply of_other; congruence|intros u r' [Q|Q]; congruence|rewrite of_same; reflexivity|].
      cbn [put with_L file lkL]. set (s' := put _ _ _). destruct (holder_give _ k s s' t _ _ OL Ek Et eq_refl) as (H1 & H2). rewrite H2. destruct I as (I & _). rewrite I, H1. cbn [pc partial].
      rewrite !map_app, concat_app. cbn [map concat snd]. rewrite !app_nil_r. reflexivity.
Qed.
Lemma start_idle n m t f : nth_error (frames (start n m)) t = Some f -> f = Frame Idle false.
Proof. cbn [start frames]. intros E. apply nth_error_In, repeat_spec in E. exact E. Qed.
Lemma filei_runs F n m l : tofile F = true -> forall s, limited l -> runs F (start n (Some m)) l = Ok s -> exists rs, Filei s l rs.
Proof.
  intros TF. induction l as [|a l IH] using rev_ind; intros s Lm E.
  - cbn [runs] in E. apply Ok_inj in E. subst s. exists []. split; [reflexivity|]. intros t f Et. apply start_idle in Et. subst f. reflexivity.
  - apply limited_snoc in Lm as (Lm & La). apply runs_snoc in E as (s1 & E1 & E). destruct (IH s1 Lm E1) as (rs & I). destruct (filei_step F s1 a s l rs TF (locks_runs F n m l s1 Lm E1) I E) as (x & I'). eauto.
Qed.
(** The log file consists of whole lines, one for each record that is through, in an order in which those of
    one thread have their order; only while a thread holds gLogToLock the last line may be incomplete. *)
Theorem C98_file F n m l s : tofile F = true -> limited l -> runs F (start n (Some m)) l = Ok s ->
  exists rs rest, file s = concat (map line (map snd rs)) ++ rest /\ (lkL s = None -> rest = []) /\
    forall t f, nth_error (frames s) t = Some f -> of_ t rs ++ pend_file (pc f) = of_ t (logs l).
Proof.
  intros TF Lm E. destruct (filei_runs F n m l TF s Lm E) as (rs & I1 & I2). exists rs, (partial (holder (lkL s) s)). split; [exact I1|]. split; [|exact I2]. intros ->. reflexivity.
Qed.
Print Assumptions C98_file.

(** ** The alarms *)
Definition text_of (r : rec) : list Z := c_str (snd r).
(** The texts of the alarms of thread [t]. *)
Definition alarms_of (F : flags) (l : list label) (t : nat) : list (list Z) :=
  if inited F then map text_of (filter (fun r => fst r <=? 2) (of_ t (logs l))) else [].
Definition half (p : place) : list (list Z) := match p with CLock r | Limit r | CUnlock r _ | Trim r _ => [text_of r] | _ => [] end.
Definition texts (added : list (nat * (list Z * Z))) : list (nat * list Z) := map (fun x => (fst x, fst (snd x))) added.
Definition lim (p : place) : option Z := match p with CUnlock _ m => m | Trim _ m => Some m | _ => None end.
Record Al (F : flags) (s : sys) (m0 : Z) (l : list label) (added : list (nat * (list Z * Z))) : Prop := {
  a_list : alarmlist s = add_all (map snd added) ++ half (holder (lkA s) s);
  a_of : forall t f, nth_error (frames s) t = Some f -> of_ t (texts added) ++ map text_of (pend_add (pc f)) = alarms_of F l t;
  a_limit : In (limit s) (Some m0 :: limits l);
  a_lim : forall t f m, nth_error (frames s) t = Some f -> lim (pc f) = Some m -> In (Some m) (Some m0 :: limits l);
  a_added : forall t x m, In (t, (x, m)) added -> In (Some m) (Some m0 :: limits l) }.
Lemma limits_snoc l a : limits (l ++ [a]) = limits l ++ match a with LLimit m => [m] | _ => [] end.
Proof. unfold limits. rewrite map_app, concat_app. cbn [map concat]. rewrite app_nil_r. reflexivity. Qed.
Lemma in_limits m m0 l a : In m (Some m0 :: limits l) -> In m (Some m0 :: limits (l ++ [a])).
Proof. rewrite limits_snoc. intros [H|H]; [left; exact H|right; apply in_or_app; auto]. Qed.
Definition new_alarm (F : flags) (a : label) : list (list Z) :=
  match a with LLog _ r | LConfLog _ r => if inited F then if fst r <=? 2 then [text_of r] else [] else [] | _ => [] end.
Lemma alarms_snoc F l a t : alarms_of F (l ++ [a]) t = alarms_of F l t ++ (match a with LLog u _ | LConfLog u _ => if (u =? t)%nat then new_alarm F a else [] | _ => [] end).
Proof.
  unfold alarms_of, new_alarm. rewrite logs_snoc, of_app, filter_app, map_app. destruct (inited F); [|destruct a as [u r|u r| | | | |]; try reflexivity; destruct (u =? t)%nat; reflexivity]. f_equal.
  destruct a as [u r|u r| | | | |]; try reflexivity; unfold of_; cbn [filter fst]; destruct (u =? t)%nat; try reflexivity; cbn [map snd filter]; destruct (fst r <=? 2); reflexivity.
Qed.
Lemma al_put F s m0 l added t f f' s' a x :
  Al F s m0 l added -> nth_error (frames s) t = Some f -> frames s' = upd (frames s) t f' -> limit s' = limit s ->
  (forall u, u <> t -> of_ u (texts x) = []) -> (forall u r, a = LLog u r \/ a = LConfLog u r -> u = t) ->
  of_ t (texts x) ++ map text_of (pend_add (pc f')) = map text_of (pend_add (pc f)) ++ new_alarm F a ->
  (forall m, lim (pc f') = Some m -> lim (pc f) = Some m \/ limit s = Some m) -> (forall u y m, In (u, (y, m)) x -> lim (pc f) = Some m) ->
  alarmlist s' = add_all (map snd (added ++ x)) ++ half (holder (lkA s') s') -> Al F s' m0 (l ++ [a]) (added ++ x).
Proof.
  intros I Et Ef El Ox Oa Q Ql Qx Fl. constructor.
  - exact Fl.
  - intros u g E. unfold texts. rewrite map_app, of_app. fold (texts added) (texts x). rewrite Ef in E. rewrite alarms_snoc. apply nth_upd in E as [(<- & ->)|(N & E)].
    + rewrite <- app_assoc, Q, app_assoc, (a_of _ _ _ _ _ I t f Et). f_equal. destruct a as [v r|v r| | | | |]; try reflexivity; rewrite (Oa v r) by auto; rewrite Nat.eqb_refl; reflexivity.
    + rewrite Ox, app_nil_r, (a_of _ _ _ _ _ I u g E) by congruence. apply Nat.eqb_neq in N. destruct a as [v r|v r| | | | |]; try (rewrite app_nil_r; reflexivity); rewrite (Oa v r) by auto; rewrite N, app_nil_r; reflexivity.
  - rewrite El. apply in_limits, (a_limit _ _ _ _ _ I).
  - intros u g m E Em. rewrite Ef in E. apply in_limits. apply nth_upd in E as [(<- & ->)|(N & E)]; [|exact (a_lim _ _ _ _ _ I u g m E Em)].
    destruct (Ql m Em) as [Q'|Q']; [exact (a_lim _ _ _ _ _ I t f m Et Q')|]. rewrite <- Q'. apply (a_limit _ _ _ _ _ I).
  - intros u y m Hin. apply in_limits. apply in_app_or in Hin as [Hin|Hin]; [exact (a_added _ _ _ _ _ I u y m Hin)|]. exact (a_lim _ _ _ _ _ I t f m Et (Qx u y m Hin)).
Qed.
(** Steps that leave the list of alarms and its lock alone. *)
Lemma al_out F s m0 l added t f f' s' a :
  Locks s -> Al F s m0 l added -> nth_error (frames s) t = Some f -> frames s' = upd (frames s) t f' -> limit s' = limit s -> alarmlist s' = alarmlist s -> lkA s' = lkA s ->
  (hA f = 0%nat \/ half (pc f') = half (pc f)) -> (forall u r, a = LLog u r \/ a = LConfLog u r -> u = t) ->
  map text_of (pend_add (pc f')) = map text_of (pend_add (pc f)) ++ new_alarm F a ->
  (forall m, lim (pc f') = Some m -> lim (pc f) = Some m \/ limit s = Some m) -> Al F s' m0 (l ++ [a]) added.
Proof.
  intros Lk I Et Ef El Ea Ek D Oa Q Ql. rewrite <- (app_nil_r added). apply (al_put F s m0 l added t f f' s' a [] I Et Ef El); [reflexivity|exact Oa|exact Q|exact Ql|intros u y m []|]. rewrite app_nil_r. destruct (l_frame _ Lk t f Et) as (OA & _).
  rewrite Ea, Ek, (holder_same _ s s' t f f' _ OA Et Ef), (a_list _ _ _ _ _ I). f_equal. destruct (hA f) as [|h] eqn:Eh; [reflexivity|]. destruct D as [D|D]; [discriminate|]. rewrite (holder_own _ _ _ _ _ OA Et). congruence.
Qed.
Lemma add_all_snoc added text m : add_all (added ++ [(text, m)]) = pop_while (add_all added ++ [text]) (u32 m).
Proof. unfold add_all. rewrite fold_left_app. reflexivity. Qed.
Lemma al_step F s m0 a s' l added : Locks s -> Al F s m0 l added -> step F s a = Ok s' -> exists x, Al F s' m0 (l ++ [a]) (added ++ x).
Proof.
  intros Lk I E. destruct a as [t r|t r|t|t|t|m|t]; cbn [step] in E.
  1-5: exists []; rewrite app_nil_r; destruct (nth_error (frames s) t) as [[p c]|] eqn:Et; [|discriminate]; destruct p; try discriminate; destruct c; try discriminate.
  - apply Ok_inj in E. subst s'. eapply (al_out F s m0 l added t _ _ _ _ Lk I Et); try reflexivity; [left; reflexivity|intros u r' [Q|Q]; congruence| |]; unfold first, new_alarm; destruct (fst r <=? 2), (inited F); try reflexivity; discriminate.
  - apply Ok_inj in E. subst s'. eapply (al_out F s m0 l added t _ _ _ _ Lk I Et); try reflexivity; [left; reflexivity|intros u r' [Q|Q]; congruence| |]; unfold first, new_alarm; destruct (fst r <=? 2), (inited F); try reflexivity; discriminate.
  - apply Ok_inj in E. subst s'. eapply (al_out F s m0 l added t _ _ _ _ Lk I Et); try reflexivity; [left; reflexivity|intros u r' [Q|Q]; congruence|discriminate].
  - apply bind_ok in E as (k & Ek & E). apply Ok_inj in E. subst s'. eapply (al_out F s m0 l added t _ _ _ _ Lk I Et); try reflexivity; [left; reflexivity|intros u r' [Q|Q]; congruence|discriminate].
  - apply Ok_inj in E. subst s'. eapply (al_out F s m0 l added t _ _ _ _ Lk I Et); try reflexivity; [left; reflexivity|intros u r' [Q|Q]; congruence|discriminate].
  - exists []. rewrite app_nil_r. apply Ok_inj in E. subst s'. constructor; cbn [limit alarmlist frames].
    + apply (a_list _ _ _ _ _ I).
    + intros t f Et. rewrite alarms_snoc, app_nil_r. exact (a_of _ _ _ _ _ I t f Et).
    + rewrite limits_snoc. right. apply in_or_app. right. left. reflexivity.
    + intros t f m' Et Em. apply in_limits. exact (a_lim _ _ _ _ _ I t f m' Et Em).
    + intros t x m' Hin. apply in_limits. exact (a_added _ _ _ _ _ I t x m' Hin).
  - unfold micro in E. destruct (nth_error (frames s) t) as [[p c]|] eqn:Et; [|discriminate]. destruct (l_frame _ Lk t _ Et) as (OA & _ & _ & Okf).
    destruct p as [|r|r|r|r|r m|r m|r|r|r|r|r|r|r|r|r|r| | | |xs]; try discriminate; try (destruct m as [m|]; [|destruct Okf]);
    first [apply waits_ok in E as (k & Ek & ->) | apply bind_ok in E as (k & Ek & E); apply Ok_inj in E; subst s' | apply Ok_inj in E; subst s'];
    try (exists []; rewrite app_nil_r; eapply (al_out F s m0 l added t _ _ _ _ Lk I Et);
         [reflexivity|reflexivity|reflexivity|reflexivity|first [right; reflexivity|left; reflexivity]|intros u r' [Q|Q]; congruence|flags_; reflexivity|
          flags_; cbn [pc lim]; first [discriminate|intros m' Hm; left; exact Hm|intros m' Hm; right; exact Hm]]; fail).
    + exists []. rewrite app_nil_r. rewrite <- (app_nil_r added). eapply al_put; try exact I; try exact Et; try reflexivity; [intros u r' [Q|Q]; congruence|discriminate|intros u y m []|]. rewrite app_nil_r.
      cbn [put with_A alarmlist lkA]. set (s' := put _ _ _). destruct (holder_take _ k s s' t _ _ OA Ek Et eq_refl) as (H1 & H2). rewrite H2, (a_list _ _ _ _ _ I), H1. reflexivity.
    + exists []. rewrite app_nil_r. rewrite <- (app_nil_r added). eapply al_put; try exact I; try exact Et; try reflexivity; [intros u r' [Q|Q]; congruence|discriminate|intros u y m []|]. rewrite app_nil_r.
      cbn [put with_alarms alarmlist lkA]. set (s' := put _ _ _). rewrite (holder_same _ s s' t _ _ 1 OA Et eq_refl), (a_list _ _ _ _ _ I), (holder_own _ _ _ _ _ OA Et). cbn [pc half]. rewrite app_nil_r. reflexivity.
    + exists [(t, (text_of r, m))]. eapply (al_put F s m0 l added t _ _ _ _ [(t, (text_of r, m))] I Et); [reflexivity|reflexivity|intros u N; unfold texts; cbn [map fst snd]; apply of_other; congruence|intros u r' [Q|Q]; congruence|unfold texts; cbn [map fst snd]; rewrite of_same; reflexivity|discriminate|intros u y m' [Q|[]]; inversion Q; reflexivity|].
      cbn [put with_alarms alarmlist lkA]. set (s' := put _ _ _). rewrite (holder_same _ s s' t _ _ 1 OA Et eq_refl), (a_list _ _ _ _ _ I), (holder_own _ _ _ _ _ OA Et). cbn [pc half]. rewrite app_nil_r, map_app. cbn [map snd]. rewrite add_all_snoc. reflexivity.
    + exists []. rewrite app_nil_r. rewrite <- (app_nil_r added). eapply al_put; try exact I; try exact Et; try reflexivity; [intros u r' [Q|Q]; congruence|discriminate|intros u y m []|]. rewrite app_nil_r.
      cbn [put with_A alarmlist lkA]. set (s' := put _ _ _). destruct (holder_give _ k s s' t _ _ OA Ek Et eq_refl) as (H1 & H2). rewrite H2, (a_list _ _ _ _ _ I), H1. reflexivity.
    + exists []. rewrite app_nil_r. rewrite <- (app_nil_r added). eapply al_put; try exact I; try exact Et; try reflexivity; [intros u r' [Q|Q]; congruence|discriminate|intros u y m []|]. rewrite app_nil_r.
      cbn [put with_A alarmlist lkA]. set (s' := put _ _ _). destruct (holder_take _ k s s' t _ _ OA Ek Et eq_refl) as (H1 & H2). rewrite H2, (a_list _ _ _ _ _ I), H1. reflexivity.
    + exists []. rewrite app_nil_r. rewrite <- (app_nil_r added). eapply al_put; try exact I; try exact Et; try reflexivity; [intros u r' [Q|Q]; congruence|discriminate|intros u y m []|]. rewrite app_nil_r.
      cbn [put with_A with_copies alarmlist lkA]. set (s' := put _ _ _). destruct (holder_give _ k s s' t _ _ OA Ek Et eq_refl) as (H1 & H2). rewrite H2, (a_list _ _ _ _ _ I), H1. reflexivity.
Qed.
Lemma al_start F n m : Al F (start n (Some m)) m [] [].
Proof.
  constructor; try reflexivity; [| |intros t f m' E|intros t x m' []].
  - intros t f E. apply start_idle in E. subst f. unfold alarms_of. destruct (inited F); reflexivity.
  - left. reflexivity.
  - apply start_idle in E. subst f. discriminate.
Qed.
Lemma al_runs F n m l : forall s, limited l -> runs F (start n (Some m)) l = Ok s -> exists added, Al F s m l added.
Proof.
  induction l as [|a l IH] using rev_ind; intros s Lm E.
  - cbn [runs] in E. apply Ok_inj in E. subst s. exists []. apply al_start.
  - apply limited_snoc in Lm as (Lm & La). apply runs_snoc in E as (s1 & E1 & E). destruct (IH s1 Lm E1) as (added & I). destruct (al_step F s1 m a s l added (locks_runs F n m l s1 Lm E1) I E) as (x & I'). eauto.
Qed.
(** While nobody holds alarmsLock the list of alarms is what the alarms that are through, added one after the
    other, leave (C53), in an order in which those of one thread have their order; the limits are ones that
    were configured. *)
Theorem C98_alarms F n m l s : limited l -> runs F (start n (Some m)) l = Ok s -> lkA s = None ->
  exists added, alarmlist s = add_all (map snd added) /\
    (forall t f, nth_error (frames s) t = Some f -> of_ t (texts added) ++ map text_of (pend_add (pc f)) = alarms_of F l t) /\
    (forall t x m', In (t, (x, m')) added -> In (Some m') (Some m :: limits l)).
Proof.
  intros Lm E Lk. destruct (al_runs F n m l s Lm E) as (added & I). exists added. split; [|split; [exact (a_of _ _ _ _ _ I)|exact (a_added _ _ _ _ _ I)]].
  rewrite (a_list _ _ _ _ _ I), Lk. apply app_nil_r.
Qed.
Print Assumptions C98_alarms.
(** With a limit that does not change: the last alarms. *)
Theorem C98_last_alarms F n m l s : limits l = [] -> 0 <= m < 2 ^ 32 -> runs F (start n (Some m)) l = Ok s -> lkA s = None ->
  exists order, alarmlist s = last_n (Z.to_nat m) (map snd order) /\
    (forall t f, nth_error (frames s) t = Some f -> of_ t order ++ map text_of (pend_add (pc f)) = alarms_of F l t).
Proof.
  intros L0 R E Lk. destruct (C98_alarms F n m l s) as (added & A & B & C); [unfold limited; rewrite L0; intros []|exact E|exact Lk|]. exists (texts added). split; [|exact B].
  rewrite A, <- C53_last_alarms by exact R. f_equal. rewrite L0 in C. clear - C. induction added as [|(t, (x, m')) added IH]; [reflexivity|]. unfold texts. cbn [map fst snd]. f_equal.
  - destruct (C t x m' (or_introl eq_refl)) as [Q|[]]. congruence.
  - apply IH. intros u y m'' H. apply (C u y m''). right. exact H.
Qed.
Print Assumptions C98_last_alarms.

(** ** Copies of the list *)
(** What [t] copies from now on ([b] copies were made before) is the list after at least [j] of the alarms. *)
Definition Fresh (s : sys) (added : list (nat * (list Z * Z))) (t b j : nat) : Prop :=
  (b <= length (copies s))%nat /\ (j <= length added)%nat /\
  forall xs, ((exists c, nth_error (frames s) t = Some (Frame (GUnlock xs) c)) \/ In (t, xs) (skipn b (copies s))) ->
    exists k, (j <= k <= length added)%nat /\ xs = add_all (map snd (firstn k added)).
Lemma fresh_more s added t b j x : Fresh s added t b j -> Fresh s (added ++ x) t b j.
Proof.
  intros (B & L & H). split; [exact B|]. rewrite app_length. split; [lia|]. intros xs Hx. destruct (H xs Hx) as (k & Lk & E). exists k. split; [lia|].
  rewrite firstn_app. replace (k - length added)%nat with 0%nat by lia. rewrite firstn_O, app_nil_r. exact E.
Qed.
Lemma skipn_snoc {A} b (l : list A) x : (b <= length l)%nat -> skipn b (l ++ [x]) = skipn b l ++ [x].
Proof. intros H. rewrite skipn_app. replace (b - length l)%nat with 0%nat by lia. reflexivity. Qed.
Lemma fresh_step F s m0 a s' l added t b j : Locks s -> Al F s m0 l added -> Fresh s added t b j -> step F s a = Ok s' -> Fresh s' added t b j.
Proof.
  intros Lk I (B & L & H) E.
  (* a step that makes no copy and does not go to GUnlock *)
  assert (G : forall f', copies s' = copies s -> (exists u, frames s' = upd (frames s) u f') \/ frames s' = frames s -> (forall xs, pc f' <> GUnlock xs) -> Fresh s' added t b j).
  { intros f' Ec Ef Nf. split; [rewrite Ec; exact B|]. split; [exact L|]. intros xs Hx. apply H. rewrite Ec in Hx. destruct Hx as [(c & Ex)|Hx]; [|right; exact Hx]. left. exists c.
    destruct Ef as [(u & Ef)|Ef]; rewrite Ef in Ex; [|exact Ex]. apply nth_upd in Ex as [(_ & Q)|(_ & Ex)]; [|exact Ex]. subst f'. destruct (Nf xs eq_refl). }
  destruct a as [u r|u r|u|u|u|m|u]; cbn [step] in E.
  1-5: destruct (nth_error (frames s) u) as [[p c]|] eqn:Et; [|discriminate]; destruct p; try discriminate; destruct c; try discriminate.
  - apply Ok_inj in E. subst s'. eapply G; [reflexivity|left; exists u; reflexivity|]. intros xs. unfold first. cbn [pc]. destruct (fst r <=? 2); [destruct (inited F)|]; discriminate.
  - apply Ok_inj in E. subst s'. eapply G; [reflexivity|left; exists u; reflexivity|]. intros xs. unfold first. cbn [pc]. destruct (fst r <=? 2); [destruct (inited F)|]; discriminate.
  - apply Ok_inj in E. subst s'. eapply G; [reflexivity|left; exists u; reflexivity|]. discriminate.
  - apply bind_ok in E as (k & Ek & E). apply Ok_inj in E. subst s'. eapply G; [reflexivity|left; exists u; reflexivity|]. discriminate.
  - apply Ok_inj in E. subst s'. eapply G; [reflexivity|left; exists u; reflexivity|]. discriminate.
  - apply Ok_inj in E. subst s'. apply (G (Frame Idle false)); [reflexivity|right; reflexivity|]. discriminate.
  - unfold micro in E. destruct (nth_error (frames s) u) as [[p c]|] eqn:Et; [|discriminate]. destruct (l_frame _ Lk u _ Et) as (OA & _ & _ & Okf).
    destruct p as [|r|r|r|r|r m|r m|r|r|r|r|r|r|r|r|r|r| | | |xs]; try discriminate; try (destruct m as [m|]; [|destruct Okf]);
    first [apply waits_ok in E as (k & Ek & ->) | apply bind_ok in E as (k & Ek & E); apply Ok_inj in E; subst s' | apply Ok_inj in E; subst s'];
    try (eapply G; [reflexivity|left; exists u; reflexivity|flags_; discriminate]; fail).
    + split; [exact B|]. split; [exact L|]. cbn [put frames copies]. intros xs [(c' & Ex)|Hx]; [|apply H; right; exact Hx].
      apply nth_upd in Ex as [(-> & Q)|(_ & Ex)]; [|apply H; left; exists c'; exact Ex]. inversion Q; subst. exists (length added). split; [lia|]. rewrite firstn_all, (a_list _ _ _ _ _ I), (holder_own _ _ _ _ _ OA Et). apply app_nil_r.
    + split; [cbn [put with_copies copies]; rewrite app_length; lia|]. split; [exact L|]. cbn [put with_copies with_A frames copies]. rewrite skipn_snoc by exact B. intros ys [(c' & Ex)|Hx].
      * apply nth_upd in Ex as [(-> & Q)|(_ & Ex)]; [discriminate|apply H; left; exists c'; exact Ex].
      * apply in_app_or in Hx as [Hx|[Hx|[]]]; [apply H; right; exact Hx|]. inversion Hx; subst. apply H. left. exists c. exact Et.
Qed.
(** What gGetLoggerAlarms returns is the list of alarms as it was at one moment of the call: it has all
    alarms that were through when it was called. *)
Theorem C98_copy F n m l1 s1 l2 s2 t f : limited (l1 ++ l2) -> runs F (start n (Some m)) l1 = Ok s1 -> nth_error (frames s1) t = Some f -> (forall xs, pc f <> GUnlock xs) ->
  lkA s1 = None -> runs F s1 l2 = Ok s2 ->
  exists added x, alarmlist s1 = add_all (map snd added) /\
    (forall u g, nth_error (frames s1) u = Some g -> of_ u (texts added) ++ map text_of (pend_add (pc g)) = alarms_of F l1 u) /\
    (forall u g, nth_error (frames s2) u = Some g -> of_ u (texts (added ++ x)) ++ map text_of (pend_add (pc g)) = alarms_of F (l1 ++ l2) u) /\
    forall xs, In (t, xs) (skipn (length (copies s1)) (copies s2)) -> exists k, xs = add_all (map snd (added ++ firstn k x)).
Proof.
  intros Lm E1 Et Nf Lk E2. assert (Lm1 : limited l1). { intros Q. apply Lm. unfold limits in *. rewrite map_app, concat_app. apply in_or_app. auto. }
  destruct (al_runs F n m l1 s1 Lm1 E1) as (added & I). exists added.
  assert (G : exists x, Al F s2 m (l1 ++ l2) (added ++ x) /\ Fresh s2 (added ++ x) t (length (copies s1)) (length added)).
  { revert s2 Lm E2. induction l2 as [|a l2 IH] using rev_ind; intros s2 Lm E2.
    - cbn [runs] in E2. apply Ok_inj in E2. subst s2. exists []. rewrite !app_nil_r. split; [exact I|]. split; [lia|]. split; [lia|]. intros xs [(c & Q)|Q].
      + rewrite Et in Q. inversion Q; subst. destruct (Nf xs eq_refl).
      + rewrite skipn_all in Q. destruct Q.
    - apply runs_snoc in E2 as (s3 & E3 & E2). rewrite app_assoc in Lm. apply limited_snoc in Lm as (Lm & La). destruct (IH s3 Lm E3) as (x & I3 & F3).
      assert (Lk3 : Locks s3) by (apply (locks_runs F n m (l1 ++ l2) s3 Lm); rewrite (runs_app F l1 _ l2 s1 E1); exact E3).
      destruct (al_step F s3 m a s2 (l1 ++ l2) (added ++ x) Lk3 I3 E2) as (y & I2). exists (x ++ y). rewrite !app_assoc in *. split; [exact I2|]. apply fresh_more. exact (fresh_step F s3 m a s2 _ _ t _ _ Lk3 I3 F3 E2). }
  destruct G as (x & I2 & _ & _ & H). exists x. split; [rewrite (a_list _ _ _ _ _ I), Lk; apply app_nil_r|]. split; [exact (a_of _ _ _ _ _ I)|]. split; [exact (a_of _ _ _ _ _ I2)|].
  intros xs Hx. destruct (H xs (or_intror Hx)) as (k & Lk' & ->). exists (k - length added)%nat. do 2 f_equal. rewrite firstn_app, firstn_all2 by lia. reflexivity.
Qed.
Print Assumptions C98_copy.

(** ** No deadlock, and an end *)
(** No alarm is raised inside gConfig. *)
Definition polite (F : flags) (l : list label) : Prop := forall t r, In (LConfLog t r) l -> inited F = true -> 2 < fst r.
Definition Polite (s : sys) : Prop := forall t f, nth_error (frames s) t = Some f -> inconf f = true -> match pc f with ALock _ | GLock | CLock _ | Conf => False | _ => hA f = 0%nat end.
Lemma polite_step F s a s' : Locks s -> Polite s -> (forall t r, a = LConfLog t r -> inited F = true -> 2 < fst r) -> step F s a = Ok s' -> Polite s'.
Proof.
  intros Lk I Pa E.
  assert (G : forall u f', frames s' = upd (frames s) u f' -> (inconf f' = true -> match pc f' with ALock _ | GLock | CLock _ | Conf => False | _ => hA f' = 0%nat end) -> Polite s').
  { intros u f' Ef H t f Et C. rewrite Ef in Et. apply nth_upd in Et as [(<- & ->)|(_ & Et)]; [exact (H C)|exact (I t f Et C)]. }
  destruct a as [u r|u r|u|u|u|m|u]; cbn [step] in E.
  1-5: destruct (nth_error (frames s) u) as [[p c]|] eqn:Et; [|discriminate]; destruct p; try discriminate; destruct c; try discriminate.
  - apply Ok_inj in E. subst s'. eapply G; [reflexivity|discriminate].
  - apply Ok_inj in E. subst s'. eapply G; [reflexivity|]. intros _. unfold first. cbn [pc]. destruct (Z.leb_spec (fst r) 2); [|reflexivity]. destruct (inited F) eqn:In; [|reflexivity]. specialize (Pa u r eq_refl eq_refl). lia.
  - apply Ok_inj in E. subst s'. eapply G; [reflexivity|discriminate].
  - apply bind_ok in E as (k & Ek & E). apply Ok_inj in E. subst s'. eapply G; [reflexivity|discriminate].
  - apply Ok_inj in E. subst s'. eapply G; [reflexivity|discriminate].
  - apply Ok_inj in E. subst s'. exact I.
  - unfold micro in E. destruct (nth_error (frames s) u) as [[p c]|] eqn:Et; [|discriminate]. destruct (l_frame _ Lk u _ Et) as (_ & _ & _ & Okf). pose proof (I u _ Et) as Iu. cbn [inconf pc] in Iu.
    destruct p as [|r|r|r|r|r m|r m|r|r|r|r|r|r|r|r|r|r| | | |xs]; try discriminate; try (destruct m as [m|]; [|destruct Okf]);
    first [apply waits_ok in E as (k & Ek & ->) | apply bind_ok in E as (k & Ek & E); apply Ok_inj in E; subst s' | apply Ok_inj in E; subst s'];
    (eapply G; [reflexivity|]; cbn [inconf pc]; intros C; flags_; first [reflexivity|specialize (Iu C); first [discriminate Iu|contradiction]]).
Qed.
Lemma polite_runs F n m l : forall s, limited l -> polite F l -> runs F (start n (Some m)) l = Ok s -> Polite s.
Proof.
  induction l as [|a l IH] using rev_ind; intros s Lm P E.
  - cbn [runs] in E. apply Ok_inj in E. subst s. intros t f Et. apply start_idle in Et. subst f. discriminate.
  - apply limited_snoc in Lm as (Lm & La). apply runs_snoc in E as (s1 & E1 & E). apply (polite_step F s1 a s (locks_runs F n m l s1 Lm E1)); [|intros t r ->; apply (P t r); apply in_or_app; right; left; reflexivity|exact E].
    apply (IH s1 Lm); [|exact E1]. intros t r H. apply (P t r). apply in_or_app. auto.
Qed.
Definition can_go (F : flags) (s : sys) : Prop := exists t s', step F s (LStep t) = Ok s' \/ step F s (LConfEnd t) = Ok s'.
Lemma free_owner k s h : (forall t f, nth_error (frames s) t = Some f -> owns k t (h f)) -> (forall t n, k = Some (t, n) -> (t < length (frames s))%nat) ->
  k = None \/ exists t f n, nth_error (frames s) t = Some f /\ h f = S n.
Proof.
  intros O B. destruct k as [(t, n)|]; [|left; reflexivity]. right. specialize (B t n eq_refl). destruct (nth_error (frames s) t) as [f|] eqn:Et; [|apply nth_error_None in Et; lia].
  exists t, f. specialize (O t f Et). destruct (h f) as [|j] eqn:Eh; [destruct (O n eq_refl)|eauto].
Qed.
Lemma give_some k t n : owns k t (S n) -> exists k', give k t = Ok k'.
Proof. intros O. destruct (give_owns k t n O) as (k' & E & _). eauto. Qed.
(** As long as a thread is at work or inside gConfig, some thread can go on. *)
Theorem C98_progress F n m l s : limited l -> polite F l -> runs F (start n (Some m)) l = Ok s -> ~ all_idle s -> can_go F s.
Proof.
  intros Lm P E NI. pose proof (locks_runs F n m l s Lm E) as Lk. pose proof (polite_runs F n m l s Lm P E) as Po.
  destruct (free_owner (lkL s) s hL (fun t f H => proj1 (proj2 (proj2 (l_frame _ Lk t f H)))) (l_L _ Lk)) as [NL|(t & [p c] & j & Et & H)].
  2:{ exists t. destruct (l_frame _ Lk t _ Et) as (_ & _ & OL & _). rewrite H in OL. destruct (give_some _ _ _ OL) as (k' & Ek).
      cbn [step]. unfold micro. rewrite Et. unfold hL in H. cbn [pc] in H. destruct p; try discriminate H; try (eexists; left; reflexivity). rewrite Ek. eexists. left. reflexivity. }
  destruct (free_owner (lkC s) s hC (fun t f H => proj1 (proj2 (l_frame _ Lk t f H))) (l_C _ Lk)) as [NC|(t & [p c] & j & Et & H)].
  2:{ exists t. destruct (l_frame _ Lk t _ Et) as (OA & OC & OL & _). rewrite H in OC. destruct (give_some _ _ _ OC) as (k' & Ek).
      cbn [step]. unfold micro. rewrite Et. unfold hC in H. cbn [pc inconf] in H. destruct c.
      - pose proof (Po t _ Et eq_refl) as Pt. unfold hA in Pt. cbn [pc] in Pt. destruct p; try discriminate Pt; try destruct Pt; try (eexists; left; reflexivity).
        + rewrite Ek. eexists. right. reflexivity.
        + rewrite NL. eexists. left. reflexivity.
        + unfold hL in OL. cbn [pc owns] in OL. rewrite NL in OL. discriminate.
      - destruct p; try discriminate H; try (eexists; left; reflexivity). rewrite Ek. eexists. left. reflexivity. }
  destruct (free_owner (lkA s) s hA (fun t f H => proj1 (l_frame _ Lk t f H)) (l_A _ Lk)) as [NA|(t & [p c] & j & Et & H)].
  2:{ exists t. destruct (l_frame _ Lk t _ Et) as (OA & OC & _). rewrite H in OA. destruct (give_some _ _ _ OA) as (k' & Ek).
      cbn [step]. unfold micro. rewrite Et. unfold hA in H. cbn [pc] in H. destruct p; try discriminate H; try (eexists; left; reflexivity).
      - rewrite NC. eexists. left. reflexivity.
      - unfold hC in OC. cbn [pc inconf] in OC. rewrite NC, Nat.add_1_r in OC. discriminate.
      - rewrite Ek. eexists. left. reflexivity.
      - rewrite Ek. eexists. left. reflexivity. }
  assert (B : exists t f, nth_error (frames s) t = Some f /\ f <> Frame Idle false).
  { assert (D : forall w, (forall t f, nth_error w t = Some f -> f = Frame Idle false) \/ exists t f, nth_error w t = Some f /\ f <> Frame Idle false).
    { induction w as [|k w [IH|(t & k' & Ek & Nk)]]; [left; intros [|t] k; discriminate| |right; exists (S t), k'; auto].
      assert (Dk : k = Frame Idle false \/ k <> Frame Idle false) by (destruct k as [[] []]; try (left; reflexivity); right; discriminate).
      destruct Dk as [->|Dk]; [left; intros [|t] f; cbn [nth_error]; [congruence|apply IH]|right; exists 0%nat, k; auto]. }
    destruct (D (frames s)) as [H|H]; [destruct (NI H)|exact H]. }
  destruct B as (t & [p c] & Et & Nf). exists t. destruct (l_frame _ Lk t _ Et) as (OA & OC & OL & _). unfold hA in OA. unfold hC in OC. unfold hL in OL. cbn [pc inconf] in OA, OC, OL. rewrite NA in OA. rewrite NC in OC. rewrite NL in OL.
  destruct c; [destruct p; discriminate OC|]. cbn [step]. unfold micro. rewrite Et, NA, NC, NL. destruct p; try congruence; try discriminate OA; try discriminate OL; eexists; left; reflexivity.
Qed.
Print Assumptions C98_progress.
(** Steps left. *)
Definition left_ (f : frame) : nat :=
  ((if inconf f then 1 else 0) +
   match pc f with
   | Idle => 0 | ALock _ => 16 | Push _ => 15 | CLock _ => 14 | Limit _ => 13 | CUnlock _ _ => 12 | Trim _ _ => 11 | AUnlock _ => 10
   | Echo _ => 9 | EchoNl _ => 8 | Syslog _ => 7 | LLock _ => 6 | Con _ => 5 | ConNl _ => 4 | File _ => 3 | FileNl _ => 2 | LUnlock _ => 1
   | Conf => 2 | GLock => 3 | GCopy => 2 | GUnlock _ => 1
   end)%nat.
Definition left_all (s : sys) : nat := list_sum (map left_ (frames s)).
Lemma left_upd w t f f' : nth_error w t = Some f -> (list_sum (map left_ (upd w t f')) + left_ f = list_sum (map left_ w) + left_ f')%nat.
Proof. unfold list_sum. revert t. induction w as [|a w IH]; intros [|t] E; try discriminate; cbn [nth_error] in E; cbn [upd map fold_right]; [inversion E; lia|]. specialize (IH t E). lia. Qed.
Lemma left_step F s a s' : Locks s -> (exists t, a = LStep t \/ a = LConfEnd t) -> step F s a = Ok s' -> (left_all s' < left_all s)%nat.
Proof.
  intros Lk (t & [->| ->]) E; cbn [step] in E.
  - unfold micro in E. destruct (nth_error (frames s) t) as [[p c]|] eqn:Et; [|discriminate]. destruct (l_frame _ Lk t _ Et) as (_ & _ & _ & Okf).
    assert (G : forall f', frames s' = upd (frames s) t f' -> (left_ f' < left_ (Frame p c))%nat -> (left_all s' < left_all s)%nat).
    { intros f' Ef L. unfold left_all. rewrite Ef. pose proof (left_upd _ _ _ f' Et). lia. }
    destruct p as [|r|r|r|r|r m|r m|r|r|r|r|r|r|r|r|r|r| | | |xs]; try discriminate; try (destruct m as [m|]; [|destruct Okf]);
    first [apply waits_ok in E as (k & Ek & ->) | apply bind_ok in E as (k & Ek & E); apply Ok_inj in E; subst s' | apply Ok_inj in E; subst s'];
    (eapply G; [reflexivity|]; unfold left_; cbn [inconf pc]; flags_; cbn [orb]; destruct c; lia).
  - destruct (nth_error (frames s) t) as [[p c]|] eqn:Et; [|discriminate]. destruct p; try discriminate. destruct c; try discriminate. apply bind_ok in E as (k & Ek & E). apply Ok_inj in E. subst s'.
    unfold left_all. cbn [put with_C frames]. pose proof (left_upd _ _ _ (Frame Idle false) Et) as L. unfold left_ in L at 2 4. cbn [inconf pc] in L. lia.
Qed.
Definition goes_on (a : label) : Prop := exists t, a = LStep t \/ a = LConfEnd t.
(** All threads come to the end of what they do, after a bounded number of steps. *)
Theorem C98_ends F n m l s : limited l -> polite F l -> runs F (start n (Some m)) l = Ok s ->
  (forall l' s', Forall goes_on l' -> runs F s l' = Ok s' -> (length l' <= left_all s)%nat) /\
  exists l' s', Forall goes_on l' /\ runs F s l' = Ok s' /\ all_idle s'.
Proof.
  intros Lm P E. split.
  - pose proof (locks_runs F n m l s Lm E) as Lk. clear - Lk. intros l'. revert s Lk. induction l' as [|a l' IH]; intros s Lk s' Fo R; [cbn [length]; lia|]. inversion Fo as [|? ? Ga Gl]; subst.
    cbn [runs length] in *. apply bind_ok in R as (s1 & E1 & R). pose proof (left_step F s a s1 Lk Ga E1). assert (Lk1 : Locks s1) by (apply (locks_step F s a s1 Lk); [intros m ->; destruct Ga as (t & [Q|Q]); discriminate|exact E1]).
    specialize (IH s1 Lk1 s' Gl R). lia.
  - remember (left_all s) as w eqn:Hw. revert l s Lm P E Hw. induction w as [w IH] using lt_wf_ind. intros l s Lm P E Hw.
    assert (D : all_idle s \/ ~ all_idle s).
    { unfold all_idle. induction (frames s) as [|k x [IHx|IHx]]; [left; intros [|t] k; discriminate| |right; intros H; apply IHx; intros t; apply (H (S t))].
      assert (Dk : k = Frame Idle false \/ k <> Frame Idle false) by (destruct k as [[] []]; try (left; reflexivity); right; discriminate).
      destruct Dk as [->|Dk]; [left; intros [|t] f; cbn [nth_error]; [congruence|apply IHx]|right; intros H; apply Dk; exact (H 0%nat k eq_refl)]. }
    destruct D as [D|D]; [exists [], s; auto|]. pose proof (locks_runs F n m l s Lm E) as Lk.
    assert (G : exists a s1, goes_on a /\ step F s a = Ok s1). { destruct (C98_progress F n m l s Lm P E D) as (t & s1 & [H|H]); [exists (LStep t), s1|exists (LConfEnd t), s1]; (split; [exists t; auto|exact H]). }
    destruct G as (a & s1 & Ga & Ea). pose proof (left_step F s a s1 Lk Ga Ea) as Lt.
    destruct (IH (left_all s1) ltac:(lia) (l ++ [a]) s1) as (l' & s' & Fo & R & Q).
    + unfold limited. rewrite limits_snoc. destruct Ga as (t & [->| ->]); rewrite app_nil_r; exact Lm.
    + intros t r H. apply in_app_or in H as [H|[H|[]]]; [exact (P t r H)|]. destruct Ga as (u & [->| ->]); discriminate.
    + rewrite (runs_app F l _ [a] s E). cbn [runs]. rewrite Ea. reflexivity.
    + reflexivity.
    + exists (a :: l'), s'. split; [constructor; assumption|]. split; [cbn [runs]; rewrite Ea; exact R|exact Q].
Qed.
Print Assumptions C98_ends.

(** ** One record alone *)
Lemma upd_upd {A} (l : list A) i x y : upd (upd l i x) i y = upd l i y.
Proof. revert i. induction l as [|a l IH]; intros [|i]; cbn [upd]; try reflexivity. rewrite IH. reflexivity. Qed.
Lemma upd_id {A} (l : list A) i x : nth_error l i = Some x -> upd l i x = l.
Proof. revert i. induction l as [|a l IH]; intros [|i] E; try discriminate; cbn [nth_error upd] in *; [congruence|]. rewrite IH by exact E. reflexivity. Qed.
Definition reach (F : flags) (t : nat) (s s' : sys) : Prop := exists k, runs F s (repeat (LStep t) k) = Ok s'.
Lemma reach_refl F t s : reach F t s s.
Proof. exists 0%nat. reflexivity. Qed.
Lemma reach_step F t s s1 s' : micro F s t = Ok s1 -> reach F t s1 s' -> reach F t s s'.
Proof. intros E (k & R). exists (S k). cbn [repeat runs step]. rewrite E. exact R. Qed.
Ltac go1 B := eapply reach_step; [unfold micro; cbn [frames]; rewrite (nth_error_upd_eq _ _ _ _ B);
  cbn [console tofile orb limit alarmlist err syslogged file copies lkA lkC lkL put with_A with_C with_L with_alarms with_err with_syslog with_file with_copies waits take give bind fst snd frames];
  rewrite ?Nat.eqb_refl; cbn [bind]; unfold put, with_A, with_C, with_L, with_alarms, with_err, with_syslog, with_file, with_copies;
  cbn [limit alarmlist err syslogged file copies lkA lkC lkL frames]; rewrite ?upd_upd; reflexivity|].
(** A record that is finished while no other thread is at work has the effects of C64. *)
Theorem C98_alone F s t r m : nth_error (frames s) t = Some (Frame Idle false) -> lkA s = None -> lkC s = None -> lkL s = None -> limit s = Some m ->
  exists k s', runs F s (LLog t r :: repeat (LStep t) k) = Ok s' /\ frames s' = frames s /\ lkA s' = None /\ lkC s' = None /\ lkL s' = None /\
    Out (alarmlist s') (err s') (map snd (syslogged s')) (file s') =
    endrecord (Out (alarmlist s) (err s) (map snd (syslogged s)) (file s)) (fst r) (snd r) (inited F) (console F) (tofile F) m.
Proof.
  intros Et A C L M. destruct s as [lm al er sy fi co kA kC kL fs]. cbn [frames lkA lkC lkL limit] in *. subst. assert (B : (t < length fs)%nat) by exact (nth_bound _ _ _ Et).
  assert (G : exists s', reach F t (Sys (Some m) al er sy fi co None None None (upd fs t (Frame (first F r) false))) s' /\ frames s' = upd fs t (Frame Idle false) /\ lkA s' = None /\ lkC s' = None /\ lkL s' = None /\
    Out (alarmlist s') (err s') (map snd (syslogged s')) (file s') = endrecord (Out al er (map snd sy) fi) (fst r) (snd r) (inited F) (console F) (tofile F) m).
  { unfold endrecord, first. destruct F as [Fi Fc Ff], r as [pr tx]. cbn [inited console tofile fst snd].
    destruct (pr <=? 2), Fi, Fc, Ff; (eexists; split; [repeat go1 B; apply reach_refl|]; cbn [frames lkA lkC lkL alarmlist err syslogged file alarms errout sysout fileout]; repeat (split; [reflexivity|]); rewrite map_app, <- ?app_assoc; reflexivity). }
  destruct G as (s' & (k & R) & G). exists k, s'. cbn [runs step frames]. rewrite Et. split; [exact R|]. rewrite (upd_id fs t _ Et) in G. exact G.
Qed.
Print Assumptions C98_alone.

(** ** Defects *)
(** Defect: stderr is written without the lock: the texts of two alarms come on one line. *)
Theorem C98_mixed_refuted : exists F l s, limited l /\ runs F (start 2 (Some 10)) l = Ok s /\ all_idle s /\ err s = [97; 98; 10; 10].
Proof.
  exists (Flags true false false), ([LLog 0 (2, [97]); LLog 1 (2, [98])] ++ repeat (LStep 0) 8 ++ repeat (LStep 1) 9 ++ [LStep 0; LStep 0; LStep 1]). eexists.
  split; [intros []|]. split; [vm_compute; reflexivity|]. split; [|reflexivity]. intros [|[|[|t]]] f E; cbn [frames nth_error] in E; congruence.
Qed.
Print Assumptions C98_mixed_refuted.
(** Defect: addAlarm asks gConfig for the limit while it holds alarmsLock: if a record of a critical level is
    finished inside gConfig, two threads can wait for each other for ever. *)
Theorem C98_deadlock_refuted : exists F l s, limited l /\ runs F (start 2 (Some 10)) l = Ok s /\ ~ all_idle s /\ ~ can_go F s.
Proof.
  exists (Flags true false true), [LConf 0; LStep 0; LLog 1 (2, [97]); LStep 1; LStep 1; LConfLog 0 (2, [98])]. eexists. split; [intros []|]. split; [vm_compute; reflexivity|]. split.
  - intros H. specialize (H 0%nat _ eq_refl). discriminate.
  - intros ([|[|[|t]]] & s' & [H|H]); vm_compute in H; discriminate.
Qed.
Print Assumptions C98_deadlock_refuted.
(** Defect: if Log.Alarms.Max is not configured and has no default, an alarm throws out of the destructor
    with alarmsLock held: the record gets nowhere, and the next thread with an alarm, or reading the alarms,
    waits for ever. *)
Theorem C98_throw_refuted : exists F l s, runs F (start 2 None) l = Ok s /\ nth_error (frames s) 0 = Some (Frame Idle false) /\
  syslogged s = [] /\ err s = [] /\ file s = [] /\ alarmlist s = [[97]] /\
  runs F s [LLog 1 (2, [98]); LStep 1] = Diverge /\ runs F s [LAlarms 1; LStep 1] = Diverge.
Proof.
  exists (Flags true false true), (LLog 0 (2, [97]) :: repeat (LStep 0) 5). eexists. split; [vm_compute; reflexivity|]. repeat split; reflexivity.
Qed.
Print Assumptions C98_throw_refuted.

(** Two threads; thread 0 raises an alarm, thread 1 reports and then reads the alarms; they meet at
    gLogToLock. *)
Example C98_ex : exists s,
  runs (Flags true true true) (start 2 (Some 10))
    ([LLog 0 (1, lit "fire"); LLog 1 (6, lit "ok" ++ [10])] ++ repeat (LStep 0) 13 ++ [LStep 1] ++ repeat (LStep 0) 3 ++ repeat (LStep 1) 6 ++ [LAlarms 1; LStep 1; LStep 1; LStep 1]) = Ok s /\
  all_idle s /\ file s = lit "fire" ++ [10] ++ lit "ok" ++ [10] /\ alarmlist s = [lit "fire"] /\ copies s = [(1%nat, [lit "fire"])] /\
  syslogged s = [(0%nat, (1, lit "fire")); (1%nat, (6, lit "ok" ++ [10]))].
Proof.
  eexists. split; [vm_compute; reflexivity|]. split; [|repeat split; reflexivity]. intros [|[|[|t]]] f E; cbn [frames nth_error] in E; congruence.
Qed.
