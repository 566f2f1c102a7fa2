(** Two general arguments that wake-ups are not lost. *)
From Verif Require Import Base BaseFacts Monitor MonitorProofs.

Section W.
Context {St Op Res : Type}.
Variable body : St -> Op -> clk -> outcome St Res.
Notation mst := (mstate St Op Res).
Notation pcT := (pc Op Res).

(** Restriction on the calls, and what it implies for the data. *)
Variable K : nat -> Op -> Prop.
Variable J : St -> Prop.
Hypothesis J_wait : forall s t op e s' c, J s -> K t op -> body s op e = OWait s' c -> J s'.
Hypothesis J_spin : forall s t op e s', J s -> K t op -> body s op e = OSpin s' -> J s'.
Hypothesis J_done : forall s t op e s' r ins aft, J s -> K t op -> body s op e = ODone s' r ins aft -> J s'.

Definition calls_ok (m : mst) : Prop := forall t op, In (HCall t op) (hist m) -> K t op.
Definition op_of (p : pcT) : option Op :=
  match p with
  | PIdle => None
  | PLock op | PWoken op | PBody op | PSleep op _ | PIn op _ _ _ | PAft op _ _ => Some op
  end.
Definition ops_ok (l : list pcT) : Prop := forall t p op, nth_error l t = Some p -> op_of p = Some op -> K t op.

Lemma calls_ok_step : forall m ev m', step body m ev = Some m' -> calls_ok m' -> calls_ok m.
Proof.
  intros m ev m' S C t op I. apply C. destruct ev; cbn [step] in S;
    repeat match type of S with
    | context [match ?x with _ => _ end] => destruct x; try discriminate
    end; injection S as <-; cbn [hist setpc]; try right; assumption.
Qed.

Lemma ops_upd : forall l t p q, ops_ok l -> nth_error l t = Some p -> (op_of q = None \/ op_of q = op_of p) -> ops_ok (upd l t q).
Proof.
  intros l t p q O N E u r op H Hr. apply nth_upd_some in H. destruct H as [[-> ->]|[Nu H]]; [|eapply O; eassumption].
  destruct E as [E|E]; rewrite E in Hr; [discriminate|]. eapply O; eassumption.
Qed.

Lemma ops_fire : forall g u l l', ops_ok l -> fire g u l = Some l' -> ops_ok l'.
Proof.
  intros g u l l' O F t p op H Hp. destruct (fire_other _ _ _ _ _ _ F H) as [H'|(op' & c & H' & _ & ->)]; [eapply O; eassumption|].
  eapply O; [eassumption|exact Hp].
Qed.

Definition base_inv (m : mst) : Prop := calls_ok m -> J (sh m) /\ ops_ok (pcs m).

Lemma base_step : forall m ev m', base_inv m -> step body m ev = Some m' -> base_inv m'.
Proof.
  intros m ev m' B S C. pose proof (calls_ok_step _ _ _ S C) as C0. destruct (B C0) as [Js O].
  destruct ev as [t op|t|t e|t u|t|t|t]; cbn [step] in S.
  - destruct (nth_error (pcs m) t) as [[]|] eqn:N; try discriminate. injection S as <-. cbn [sh pcs]. split; [assumption|].
    intros u r o H Hr. apply nth_upd_some in H. destruct H as [[-> ->]|[Nu H]]; [|eapply O; eassumption].
    cbn in Hr. injection Hr as <-. apply C. left. reflexivity.
  - destruct (holder m); [discriminate|]. destruct (nth_error (pcs m) t) as [[]|] eqn:N; try discriminate; injection S as <-; cbn [sh pcs];
      (split; [assumption|eapply ops_upd; try eassumption; right; reflexivity]).
  - destruct (nth_error (pcs m) t) as [[]|] eqn:N; try discriminate. injection S as <-.
    pose proof (O t _ op N eq_refl) as Kt.
    destruct (body (sh m) op e) as [s c|s|s r ins aft] eqn:E; cbn [sh pcs].
    + split; [eapply J_wait; eassumption|eapply ops_upd; try eassumption; right; reflexivity].
    + split; [eapply J_spin; eassumption|assumption].
    + split; [eapply J_done; eassumption|eapply ops_upd; try eassumption; right; reflexivity].
  - destruct (nth_error (pcs m) t) as [[| | | | |op r [|g ins] aft|op r [|g aft]]|] eqn:N; try discriminate;
      (destruct (fire g u (pcs m)) as [l|] eqn:F; [|discriminate]); injection S as <-; cbn [sh pcs]; (split; [assumption|]);
      (destruct (fire_fwd _ _ _ _ _ _ F N) as [N'|(op' & X & _)]; [|discriminate]);
      (eapply ops_upd; [eapply ops_fire; eassumption|exact N'|right; reflexivity]).
  - destruct (nth_error (pcs m) t) as [[| | | | |op r [|g ins] aft|]|] eqn:N; try discriminate. injection S as <-. cbn [sh pcs].
    split; [assumption|eapply ops_upd; try eassumption; right; reflexivity].
  - destruct (nth_error (pcs m) t) as [[| | | | | |op r [|g aft]]|] eqn:N; try discriminate. injection S as <-. cbn [sh pcs].
    split; [assumption|eapply ops_upd; try eassumption; left; reflexivity].
  - destruct (nth_error (pcs m) t) as [[]|] eqn:N; try discriminate. injection S as <-. cbn [setpc sh pcs].
    split; [assumption|eapply ops_upd; try eassumption; right; reflexivity].
Qed.

Lemma base_init : forall s0 n, J s0 -> base_inv (init s0 n).
Proof.
  intros s0 n H _. split; [assumption|]. intros t p op N E. apply nth_error_In in N. apply repeat_spec in N. subst p. discriminate.
Qed.

Lemma base_reach : forall s0 m, J s0 -> reach body s0 m -> base_inv m.
Proof. intros s0 m H R. revert m R. apply reach_ind; [intros; apply base_init; assumption|exact base_step]. Qed.

(** Signals on a condition that are still to be fired. *)
Variable c : nat.
Definition nsig (l : list sig) : nat := length (filter (fun g => Nat.eqb (sig_cond g) c) l).
Definition pend (p : pcT) : nat := match p with PIn _ _ ins aft => nsig ins + nsig aft | PAft _ _ aft => nsig aft | _ => 0 end.
Definition slp (p : pcT) : nat := match p with PSleep _ d => if Nat.eqb d c then 1 else 0 | _ => 0 end.

Lemma nsig_cons : forall g l, nsig (g :: l) = (if Nat.eqb (sig_cond g) c then 1 else 0) + nsig l.
Proof. intros g l. unfold nsig. cbn [filter]. destruct (Nat.eqb (sig_cond g) c); reflexivity. Qed.

Lemma fire_sum_mono : forall (f : pcT -> nat) g u l l', fire g u l = Some l' -> (forall op d, f (PSleep op d) <= f (PWoken op)) -> sum f l <= sum f l'.
Proof.
  intros f g u l l' F H. destruct g as [d|d].
  - destruct (fire_sig_sum _ _ _ _ F) as [[-> _]|(v & op & N & ->)]; [lia|]. pose proof (sum_upd f _ _ _ (PWoken op) N). specialize (H op d). lia.
  - cbn [fire] in F. injection F as <-. induction l as [|p l IH]; cbn [wake_all map sum]; [lia|].
    unfold wake_all in IH. destruct (asleep d p) eqn:A; [|lia]. destruct p as [| | | |op x| |]; cbn in A; try discriminate. cbn [wake]. specialize (H op x). lia.
Qed.

Lemma fire_slp : forall g u l l', fire g u l = Some l' -> sum slp l' <= sum slp l.
Proof.
  intros g u l l' F. destruct g as [d|d].
  - destruct (fire_sig_sum _ _ _ _ F) as [[-> _]|(v & op & N & ->)]; [lia|]. pose proof (sum_upd slp _ _ _ (PWoken op) N). cbn [slp] in *. lia.
  - cbn [fire] in F. injection F as <-. induction l as [|p l IH]; cbn [wake_all map sum]; [lia|].
    unfold wake_all in IH. destruct (asleep d p) eqn:A; [|lia]. destruct p as [| | | |op x| |]; cbn in A; try discriminate. cbn [wake slp]. lia.
Qed.

Lemma bcast_slp : forall u l l', fire (Bcast c) u l = Some l' -> sum slp l' = 0.
Proof.
  intros u l l' F. cbn [fire] in F. injection F as <-. induction l as [|p l IH]; cbn [wake_all map sum]; [lia|].
  unfold wake_all in IH. rewrite IH. destruct (asleep c p) eqn:A; destruct p as [| | | |op x| |]; cbn in *; try reflexivity; try discriminate.
  rewrite A. reflexivity.
Qed.

(** ** Counting argument *)
Section Count.
Variable need : St -> nat.
Variable cons : Op -> bool.
Definition c1 (op : Op) : nat := if cons op then 1 else 0.
Hypothesis C_wait : forall s t op e s', J s -> K t op -> body s op e = OWait s' c -> need s' = 0 /\ cons op = true.
Hypothesis C_wait_other : forall s t op e s' d, J s -> K t op -> body s op e = OWait s' d -> d <> c -> need s' <= need s - c1 op.
Hypothesis C_spin : forall s t op e s', J s -> K t op -> body s op e = OSpin s' -> need s' <= need s.
Hypothesis C_done : forall s t op e s' r ins aft, J s -> K t op -> body s op e = ODone s' r ins aft ->
  need s' <= need s - c1 op + nsig ins + nsig aft.

Definition act (p : pcT) : nat := match p with PLock op | PWoken op | PBody op => c1 op | _ => 0 end.
Definition fa (p : pcT) : nat := pend p + act p.
Definition sleepers_cons (l : list pcT) : Prop := forall t op, nth_error l t = Some (PSleep op c) -> cons op = true.
Definition count_inv (m : mst) : Prop := calls_ok m ->
  sleepers_cons (pcs m) /\ (sum slp (pcs m) = 0 \/ need (sh m) <= sum fa (pcs m)).

Lemma sc_upd : forall l t q, sleepers_cons l -> (forall op, q = PSleep op c -> cons op = true) -> sleepers_cons (upd l t q).
Proof. intros l t q H Q u op N. apply nth_upd_some in N. destruct N as [[-> E]|[Nu N]]; [apply Q; congruence|eapply H; eassumption]. Qed.

Lemma sc_fire : forall g u l l', sleepers_cons l -> fire g u l = Some l' -> sleepers_cons l'.
Proof.
  intros g u l l' H F t op N. destruct (fire_other _ _ _ _ _ _ F N) as [N'|(o & d & _ & _ & X)]; [eapply H; eassumption|discriminate].
Qed.

Lemma fire_count : forall g u l l' t p q n, fire g u l = Some l' -> sleepers_cons l -> nth_error l t = Some p ->
  (forall op d, p <> PSleep op d) -> (forall op d, q <> PSleep op d) ->
  fa q + (if Nat.eqb (sig_cond g) c then 1 else 0) = fa p ->
  (sum slp l = 0 \/ n <= sum fa l) -> (sum slp (upd l' t q) = 0 \/ n <= sum fa (upd l' t q)).
Proof.
  intros g u l l' t p q n F SC N Np Nq E H.
  assert (Sp : slp p = 0) by (destruct p; try reflexivity; exfalso; eapply Np; reflexivity).
  assert (Sq : slp q = 0) by (destruct q; try reflexivity; exfalso; eapply Nq; reflexivity).
  destruct (fire_fwd _ _ _ _ _ _ F N) as [N'|(op' & X & _)]; [|exfalso; eapply Np; eassumption].
  pose proof (sum_upd slp _ _ _ q N') as U1. pose proof (sum_upd fa _ _ _ q N') as U2.
  pose proof (fire_slp _ _ _ _ F) as M1.
  destruct (Nat.eqb_spec (sig_cond g) c) as [Ec|Nc].
  - destruct g as [d|d]; cbn [sig_cond] in Ec; subst d.
    + destruct (fire_sig_sum _ _ _ _ F) as [[-> Z]|(v & op & Nv & ->)].
      * left. assert (sum slp l = 0); [|lia]. apply sum_zero. intros v r Hv. destruct r as [| | | |o d| |]; try reflexivity.
        cbn. destruct (Nat.eqb_spec d c) as [->|]; [|reflexivity]. exfalso. eapply Z; eassumption.
      * pose proof (sum_upd fa _ _ _ (PWoken op) Nv) as U3.
        destruct H as [H|H]; [left; lia|right]. unfold fa at 2 4 in U3. cbn [pend act] in U3. unfold c1 in U3. rewrite (SC _ _ Nv) in U3. lia.
    + left. rewrite (bcast_slp _ _ _ F) in *. lia.
  - assert (M2 : sum fa l <= sum fa l'). { eapply fire_sum_mono; [eassumption|]. intros op d. unfold fa. cbn [pend act]. lia. }
    destruct H as [H|H]; [left; lia|right; lia].
Qed.

Lemma count_step : forall m ev m', base_inv m -> count_inv m -> step body m ev = Some m' -> count_inv m'.
Proof.
  intros m ev m' B Iv S C. pose proof (calls_ok_step _ _ _ S C) as C0. destruct (B C0) as [Js O]. destruct (Iv C0) as [SC H].
  destruct ev as [t op|t|t e|t u|t|t|t]; cbn [step] in S.
  - destruct (nth_error (pcs m) t) as [[]|] eqn:N; try discriminate. injection S as <-. cbn [sh pcs]. split; [apply sc_upd; [assumption|discriminate]|].
    pose proof (sum_upd slp _ _ _ (PLock op) N) as U1. pose proof (sum_upd fa _ _ _ (PLock op) N) as U2. unfold fa at 2 4 in U2. cbn [slp pend act] in *. lia.
  - destruct (holder m); [discriminate|]. destruct (nth_error (pcs m) t) as [[]|] eqn:N; try discriminate; injection S as <-; cbn [sh pcs];
      (split; [apply sc_upd; [assumption|discriminate]|]);
      pose proof (sum_upd slp _ _ _ (PBody op) N) as U1; pose proof (sum_upd fa _ _ _ (PBody op) N) as U2; unfold fa at 2 4 in U2; cbn [slp pend act] in *; lia.
  - destruct (nth_error (pcs m) t) as [[]|] eqn:N; try discriminate. injection S as <-.
    pose proof (O t _ op N eq_refl) as Kt.
    destruct (body (sh m) op e) as [s d|s|s r ins aft] eqn:E; cbn [sh pcs].
    + destruct (Nat.eq_dec d c) as [->|Nd].
      * destruct (C_wait _ _ _ _ _ Js Kt E) as [Z Co]. split; [apply sc_upd; [assumption|congruence]|]. right. lia.
      * pose proof (C_wait_other _ _ _ _ _ _ Js Kt E Nd) as L. split; [apply sc_upd; [assumption|congruence]|].
        pose proof (sum_upd slp _ _ _ (PSleep op d) N) as U1. pose proof (sum_upd fa _ _ _ (PSleep op d) N) as U2.
        pose proof (sum_ge fa _ _ _ N) as G. unfold fa at 1 in G. unfold fa at 2 4 in U2. cbn [slp pend act] in *.
        destruct (Nat.eqb_spec d c); [congruence|]. lia.
    + pose proof (C_spin _ _ _ _ _ Js Kt E). split; [assumption|]. lia.
    + pose proof (C_done _ _ _ _ _ _ _ _ Js Kt E) as L. split; [apply sc_upd; [assumption|discriminate]|].
      pose proof (sum_upd slp _ _ _ (PIn op r ins aft) N) as U1. pose proof (sum_upd fa _ _ _ (PIn op r ins aft) N) as U2.
      pose proof (sum_ge fa _ _ _ N) as G. unfold fa at 1 in G. unfold fa at 2 4 in U2. cbn [slp pend act] in *. lia.
  - destruct (nth_error (pcs m) t) as [[| | | | |op r [|g ins] aft|op r [|g aft]]|] eqn:N; try discriminate;
      (destruct (fire g u (pcs m)) as [l|] eqn:F; [|discriminate]); injection S as <-; cbn [sh pcs];
      (split; [apply sc_upd; [eapply sc_fire; eassumption|discriminate]|]);
      (eapply fire_count; try eassumption; try discriminate; unfold fa; cbn [pend act]; rewrite nsig_cons; lia).
  - destruct (nth_error (pcs m) t) as [[| | | | |op r [|g ins] aft|]|] eqn:N; try discriminate. injection S as <-. cbn [sh pcs].
    split; [apply sc_upd; [assumption|discriminate]|].
    pose proof (sum_upd slp _ _ _ (PAft op r aft) N) as U1. pose proof (sum_upd fa _ _ _ (PAft op r aft) N) as U2. unfold fa at 2 4 in U2. cbn [slp pend act] in *.
    change (nsig []) with 0 in U2. lia.
  - destruct (nth_error (pcs m) t) as [[| | | | | |op r [|g aft]]|] eqn:N; try discriminate. injection S as <-. cbn [sh pcs].
    split; [apply sc_upd; [assumption|discriminate]|].
    pose proof (sum_upd slp _ _ _ PIdle N) as U1. pose proof (sum_upd fa _ _ _ PIdle N) as U2. unfold fa at 2 4 in U2. cbn [slp pend act] in *.
    change (nsig []) with 0 in U2. lia.
  - destruct (nth_error (pcs m) t) as [[]|] eqn:N; try discriminate. injection S as <-. cbn [setpc sh pcs].
    split; [apply sc_upd; [assumption|discriminate]|].
    pose proof (sum_upd slp _ _ _ (PWoken op) N) as U1. pose proof (sum_upd fa _ _ _ (PWoken op) N) as U2. unfold fa at 2 4 in U2. cbn [slp pend act] in *. lia.
Qed.

Lemma count_reach : forall s0 m, J s0 -> reach body s0 m -> count_inv m.
Proof.
  intros s0 m H R.
  assert (G : base_inv m /\ count_inv m); [|apply G].
  revert m R. apply reach_ind.
  - intros n. split; [apply base_init; assumption|]. intros _. split.
    + intros t op N. apply nth_error_In in N. apply repeat_spec in N. discriminate.
    + left. cbn [init pcs]. rewrite sum_repeat. cbn [slp]. lia.
  - intros m ev m' [B Iv] S. split; [eapply base_step; eassumption|eapply count_step; eassumption].
Qed.

Lemma count_rest : forall s0 m t op, J s0 -> reach body s0 m -> calls_ok m -> at_rest body m -> sleeps m t op c -> need (sh m) = 0.
Proof.
  intros s0 m t op H R C Q N. destruct (count_reach _ _ H R C) as [_ [Z|Z]].
  - pose proof (sum_ge slp _ _ _ N) as G. cbn [slp] in G. rewrite Nat.eqb_refl in G. lia.
  - assert (sum fa (pcs m) = 0); [|lia]. apply sum_zero. intros v p P.
    destruct (rest_shape _ _ _ R Q _ _ P) as [->|(o & d & ->)]; reflexivity.
Qed.
End Count.

(** ** Predicate argument: broadcast, or a single sleeper *)
Section Pred.
Variable ready : St -> Op -> bool.
Hypothesis R_wait : forall s t op e s', J s -> K t op -> body s op e = OWait s' c -> ready s' op = false.
Hypothesis R_wait_keep : forall s t op e s' d o, J s -> K t op -> body s op e = OWait s' d -> ready s' o = true -> ready s o = true.
Hypothesis R_spin_keep : forall s t op e s' o, J s -> K t op -> body s op e = OSpin s' -> ready s' o = true -> ready s o = true.
Hypothesis R_done : forall s t op e s' r ins aft o, J s -> K t op -> body s op e = ODone s' r ins aft -> ready s' o = true ->
  ready s o = true \/ 0 < nsig ins + nsig aft.
(** Either nothing signals [c] except by broadcast, or only thread [t0] can sleep on it. *)
Variable only : option nat.
Hypothesis R_only : match only with
  | None => forall s t op e s' r ins aft g, J s -> K t op -> body s op e = ODone s' r ins aft -> In g (ins ++ aft) -> sig_cond g = c -> g = Bcast c
  | Some t0 => forall s t op e s', J s -> K t op -> body s op e = OWait s' c -> t = t0
  end.

Definition sigs_of (p : pcT) : list sig := match p with PIn _ _ ins aft => ins ++ aft | PAft _ _ aft => aft | _ => [] end.
Definition only_inv (l : list pcT) : Prop := match only with
  | None => forall t p g, nth_error l t = Some p -> In g (sigs_of p) -> sig_cond g = c -> g = Bcast c
  | Some t0 => forall t op, nth_error l t = Some (PSleep op c) -> t = t0
  end.
Definition pred_inv (m : mst) : Prop := calls_ok m ->
  only_inv (pcs m) /\ forall t op, sleeps m t op c -> ready (sh m) op = true -> 0 < sum pend (pcs m).

Lemma only_upd : forall l t p q, only_inv l -> nth_error l t = Some p -> (forall op, q <> PSleep op c) -> (forall g, In g (sigs_of q) -> In g (sigs_of p)) -> only_inv (upd l t q).
Proof.
  intros l t p q H N Q G. unfold only_inv in *. destruct only.
  - intros u op U. apply nth_upd_some in U. destruct U as [[-> E]|[Nu U]]; [exfalso; eapply Q; symmetry; eassumption|eapply H; eassumption].
  - intros u r g U I E. apply nth_upd_some in U. destruct U as [[-> ->]|[Nu U]]; [eapply H; [exact N|auto|assumption]|eapply H; eassumption].
Qed.

Lemma only_fire : forall g u l l', only_inv l -> fire g u l = Some l' -> only_inv l'.
Proof.
  intros g u l l' H F. unfold only_inv in *. destruct only.
  - intros t op N. destruct (fire_other _ _ _ _ _ _ F N) as [N'|(o & d & _ & _ & X)]; [eapply H; eassumption|discriminate].
  - intros t p x N I E. destruct (fire_other _ _ _ _ _ _ F N) as [N'|(o & d & _ & _ & ->)]; [eapply H; eassumption|destruct I].
Qed.

(** Updating a thread that is not and does not go to sleep, and keeps its signals. *)
Lemma pend_upd : forall l t p q, nth_error l t = Some p -> pend p <= pend q -> 0 < sum pend l -> 0 < sum pend (upd l t q).
Proof. intros l t p q N L H. pose proof (sum_upd pend _ _ _ q N). lia. Qed.

Lemma pred_step : forall m ev m', base_inv m -> pred_inv m -> step body m ev = Some m' -> pred_inv m'.
Proof.
  intros m ev m' B Iv S C. pose proof (calls_ok_step _ _ _ S C) as C0. destruct (B C0) as [Js O]. destruct (Iv C0) as [ON H].
  unfold sleeps in *.
  assert (keep : forall t p q, nth_error (pcs m) t = Some p -> (forall op, q <> PSleep op c) -> pend p <= pend q ->
     forall v op, nth_error (upd (pcs m) t q) v = Some (PSleep op c) -> ready (sh m) op = true -> 0 < sum pend (upd (pcs m) t q)).
  { intros t p q N Q L v op V Rd. apply nth_upd_some in V. destruct V as [[-> E]|[Nv V]]; [exfalso; eapply Q; symmetry; eassumption|].
    eapply pend_upd; try eassumption. eapply H; eassumption. }
  destruct ev as [t op|t|t e|t u|t|t|t]; cbn [step] in S.
  - destruct (nth_error (pcs m) t) as [[]|] eqn:N; try discriminate. injection S as <-. cbn [sh pcs].
    split; [eapply only_upd; try eassumption; [discriminate|cbn; tauto]|]. apply (keep t _ _ N); [discriminate|cbn; lia].
  - destruct (holder m); [discriminate|]. destruct (nth_error (pcs m) t) as [[]|] eqn:N; try discriminate; injection S as <-; cbn [sh pcs];
      (split; [eapply only_upd; try eassumption; [discriminate|cbn; tauto]|apply (keep t _ _ N); [discriminate|cbn; lia]]).
  - destruct (nth_error (pcs m) t) as [[]|] eqn:N; try discriminate. injection S as <-.
    pose proof (O t _ op N eq_refl) as Kt.
    destruct (body (sh m) op e) as [s d|s|s r ins aft] eqn:E; cbn [sh pcs].
    + split.
      * unfold only_inv in *. destruct only as [t0|].
        -- intros u o U. apply nth_upd_some in U. destruct U as [[-> X]|[Nu U]]; [|eapply ON; eassumption]. injection X as <- <-. eapply R_only; eassumption.
        -- intros u p g U I Eg. apply nth_upd_some in U. destruct U as [[-> ->]|[Nu U]]; [destruct I|eapply ON; eassumption].
      * intros v o V Rd. apply nth_upd_some in V. destruct V as [[-> X]|[Nv V]].
        -- injection X as <- <-. rewrite (R_wait _ _ _ _ _ Js Kt E) in Rd. discriminate.
        -- eapply pend_upd; [exact N|cbn; lia|]. eapply H; [eassumption|]. eapply R_wait_keep; eassumption.
    + split; [assumption|]. intros v o V Rd. eapply H; [eassumption|]. eapply R_spin_keep; eassumption.
    + split.
      * unfold only_inv in *. destruct only as [t0|].
        -- intros u o U. apply nth_upd_some in U. destruct U as [[-> X]|[Nu U]]; [discriminate|eapply ON; eassumption].
        -- intros u p g U I Eg. apply nth_upd_some in U. destruct U as [[-> ->]|[Nu U]]; [|eapply ON; eassumption]. eapply R_only; eassumption.
      * intros v o V Rd. apply nth_upd_some in V. destruct V as [[-> X]|[Nv V]]; [discriminate|].
        destruct (R_done _ _ _ _ _ _ _ _ _ Js Kt E Rd) as [Rs|G].
        -- eapply pend_upd; [exact N|cbn; lia|]. eapply H; eassumption.
        -- pose proof (sum_upd pend _ _ _ (PIn op r ins aft) N) as U. cbn [pend] in U. lia.
  - assert (FF : forall g l p q, nth_error (pcs m) t = Some p -> fire g u (pcs m) = Some l -> (forall op d, p <> PSleep op d) -> (forall op, q <> PSleep op c) ->
        sigs_of p = g :: sigs_of q \/ (forall x, In x (sigs_of p) <-> x = g \/ In x (sigs_of q)) ->
        pend p = (if Nat.eqb (sig_cond g) c then 1 else 0) + pend q ->
        only_inv (upd l t q) /\ forall v op, nth_error (upd l t q) v = Some (PSleep op c) -> ready (sh m) op = true -> 0 < sum pend (upd l t q)).
    { intros g l p q N F Np Nq Sg P.
      destruct (fire_fwd _ _ _ _ _ _ F N) as [N'|(op' & X & _)]; [|exfalso; eapply Np; eassumption].
      assert (Sg' : forall x, In x (sigs_of p) <-> x = g \/ In x (sigs_of q)).
      { destruct Sg as [-> | Sg]; [|exact Sg]. intros x. split; [intros [<-|I]; auto|intros [->|I]; [left; reflexivity|right; assumption]]. }
      split; [eapply only_upd; [eapply only_fire; eassumption|exact N'|exact Nq|intros x I; apply Sg'; right; assumption]|].
      intros v op V Rd. apply nth_upd_some in V. destruct V as [[-> E]|[Nv V]]; [exfalso; eapply Nq; symmetry; eassumption|].
      assert (V0 : nth_error (pcs m) v = Some (PSleep op c)).
      { destruct (fire_other _ _ _ _ _ _ F V) as [V0|(o & d & _ & _ & X)]; [assumption|discriminate]. }
      pose proof (H _ _ V0 Rd) as Pos. pose proof (sum_upd pend _ _ _ q N') as U.
      assert (M : sum pend (pcs m) <= sum pend l) by (eapply fire_sum_mono; [eassumption|intros; cbn; lia]).
      destruct (Nat.eqb_spec (sig_cond g) c) as [Ec|Nc]; [|lia]. exfalso.
      unfold only_inv in ON. destruct only as [t0|].
      - destruct g as [d|d]; cbn [sig_cond] in Ec; subst d.
        + destruct (fire_sig_sum _ _ _ _ F) as [[-> Z]|(w & o & Nw & ->)]; [eapply Z; eassumption|].
          pose proof (ON _ _ V0). pose proof (ON _ _ Nw). subst. rewrite (nth_upd_same _ _ _ _ _ Nw) in V. discriminate.
        + pose proof (bcast_slp _ _ _ F) as Z. pose proof (sum_ge slp _ _ _ V) as G. cbn [slp] in G. rewrite Nat.eqb_refl in G. lia.
      - assert (X : g = Bcast c) by (eapply ON; [exact N|apply Sg'; left; reflexivity|assumption]). subst g.
        pose proof (bcast_slp _ _ _ F) as Z. pose proof (sum_ge slp _ _ _ V) as G. cbn [slp] in G. rewrite Nat.eqb_refl in G. lia. }
    destruct (nth_error (pcs m) t) as [[| | | | |op r [|g ins] aft|op r [|g aft]]|] eqn:N; try discriminate;
      (destruct (fire g u (pcs m)) as [l|] eqn:F; [|discriminate]); injection S as <-; cbn [sh pcs];
      (eapply FF; try eassumption; try reflexivity; try discriminate; [left; reflexivity|cbn [pend]; rewrite nsig_cons; lia]).
  - destruct (nth_error (pcs m) t) as [[| | | | |op r [|g ins] aft|]|] eqn:N; try discriminate. injection S as <-. cbn [sh pcs].
    split; [eapply only_upd; try eassumption; [discriminate|cbn; tauto]|]. apply (keep t _ _ N); [discriminate|cbn; lia].
  - destruct (nth_error (pcs m) t) as [[| | | | | |op r [|g aft]]|] eqn:N; try discriminate. injection S as <-. cbn [sh pcs].
    split; [eapply only_upd; try eassumption; [discriminate|cbn; tauto]|]. apply (keep t _ _ N); [discriminate|cbn; lia].
  - destruct (nth_error (pcs m) t) as [[]|] eqn:N; try discriminate. injection S as <-. cbn [setpc sh pcs].
    split; [eapply only_upd; try eassumption; [discriminate|cbn; tauto]|]. apply (keep t _ _ N); [discriminate|cbn; lia].
Qed.

Lemma pred_reach : forall s0 m, J s0 -> reach body s0 m -> pred_inv m.
Proof.
  intros s0 m H R.
  assert (G : base_inv m /\ pred_inv m); [|apply G].
  revert m R. apply reach_ind.
  - intros n. split; [apply base_init; assumption|]. intros _. split.
    + unfold only_inv. destruct only.
      * intros t op N. apply nth_error_In in N. apply repeat_spec in N. discriminate.
      * intros t p g N I. apply nth_error_In in N. apply repeat_spec in N. subst p. destruct I.
    + intros t op N. apply nth_error_In in N. apply repeat_spec in N. discriminate.
  - intros m ev m' [B Iv] S. split; [eapply base_step; eassumption|eapply pred_step; eassumption].
Qed.

Lemma pred_rest : forall s0 m t op, J s0 -> reach body s0 m -> calls_ok m -> at_rest body m -> sleeps m t op c -> ready (sh m) op = false.
Proof.
  intros s0 m t op H R C Q N. destruct (ready (sh m) op) eqn:Rd; [|reflexivity]. exfalso.
  destruct (pred_reach _ _ H R C) as [_ P]. specialize (P _ _ N Rd).
  assert (sum pend (pcs m) = 0); [|lia]. apply sum_zero. intros v p V.
  destruct (rest_shape _ _ _ R Q _ _ V) as [->|(o & d & ->)]; reflexivity.
Qed.
End Pred.

(** Everybody outside or asleep: nothing happens any more. *)
Lemma shape_rest : forall m : mst, (forall p, In p (pcs m) -> p = PIdle \/ exists op d, p = PSleep op d) -> at_rest body m.
Proof.
  intros m H ev E. destruct ev as [t op|t|t e|t u|t|t|t]; cbn [step]; try contradiction;
    (destruct (nth_error (pcs m) t) as [p|] eqn:N; [|try reflexivity; destruct (holder m); reflexivity]);
    apply nth_error_In in N; destruct (H _ N) as [->|(o & d & ->)]; try reflexivity; destruct (holder m); reflexivity.
Qed.
End W.
