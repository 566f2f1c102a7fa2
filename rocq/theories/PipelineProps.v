(** C116: a chain of threads joined by queues. *)
From Coq Require Import Permutation.
From Verif Require Import Base BaseFacts PipelineModel.
Local Open Scope nat_scope.

(** ** What is claimed *)
(** What the producers put, without NULL. *)
Definition nz (l : list Z) : list Z := filter (fun x => negb (x =? 0)%Z) l.
Definition puts (es : list event) : list Z := flat_map (fun e => match e with Put x => [x] | _ => [] end) es.
Definition spurious (es : list event) : nat := length (filter (fun e => match e with Spurious _ => true | _ => false end) es).
(** Nothing can happen any more unless a producer puts something or a thread wakes without cause. *)
Definition at_rest (w : world) : Prop := forall e, step w e <> None -> match e with Put _ | Spurious _ => True | _ => False end.

(** ** Sums *)
Fixpoint wsum (f : nat * phase -> nat) (l : list (nat * phase)) : nat := match l with [] => 0 | p :: l => f p + wsum f l end.
Fixpoint qsum (g : nat -> list Z -> nat) (q : nat -> list Z) (n : nat) : nat := match n with O => g 0 (q 0) | S m => g n (q n) + qsum g q m end.
Lemma wsum_upd f l t p p' : nth_error l t = Some p -> wsum f (upd l t p') + f p = wsum f l + f p'.
Proof.
  revert t. induction l as [|a l IH]; intros [|t] H; try discriminate; cbn [nth_error upd wsum] in *.
  - injection H as ->. lia.
  - specialize (IH t H). lia.
Qed.
Lemma wsum_zero f l : wsum f l = 0 <-> forall p, In p l -> f p = 0.
Proof.
  induction l as [|a l IH]; cbn [wsum In]; [split; [intros _ p []|reflexivity]|]. split.
  - intros H p [<-|I]; [lia|]. apply IH; [lia|exact I].
  - intros H. rewrite (H a) by auto. apply IH. auto.
Qed.
Lemma qsum_ext g q q' n : (forall i, i <= n -> q' i = q i) -> qsum g q' n = qsum g q n.
Proof. induction n as [|n IH]; intros H; cbn [qsum]; rewrite H by lia; [reflexivity|]. rewrite IH; [reflexivity|]. intros i L. apply H. lia. Qed.
Lemma set_same q i l : set_q q i l i = l.
Proof. unfold set_q. rewrite Nat.eqb_refl. reflexivity. Qed.
Lemma set_other q i l j : j <> i -> set_q q i l j = q j.
Proof. intros H. unfold set_q. replace (j =? i) with false by lia. reflexivity. Qed.
Lemma qsum_set g q i l n : i <= n -> qsum g (set_q q i l) n + g i (q i) = qsum g q n + g i l.
Proof.
  induction n as [|n IH]; intros H; cbn [qsum].
  - replace i with 0 by lia. rewrite set_same. lia.
  - destruct (Nat.eq_dec i (S n)) as [->|D]; [rewrite set_same, (qsum_ext g q); [lia|intros j J; apply set_other; lia]|]. rewrite set_other by lia. specialize (IH ltac:(lia)). lia.
Qed.
Lemma run_cons w e es w' : run w (e :: es) = Some w' -> exists w1, step w e = Some w1 /\ run w1 es = Some w'.
Proof. cbn [run]. destruct (step w e) as [w1|]; [|discriminate]. intros H. exists w1. auto. Qed.

(** ** What a step does *)
(** All workers have stages below [n]. *)
Definition below (n : nat) (w : world) : Prop := forall t i p, nth_error (workers w) t = Some (i, p) -> i < n.
Lemma below_phase n w t i p q k : below n w -> i < n -> below n (W q (to_phase w t i p) k).
Proof.
  intros B L u j r. unfold to_phase. cbn [workers]. intros H. destruct (Nat.eq_dec u t) as [->|D]; [|rewrite nth_error_upd_neq in H by congruence; exact (B _ _ _ H)].
  destruct (Nat.lt_ge_cases t (length (workers w))) as [T|T]; [rewrite nth_error_upd_eq in H by exact T; injection H as <- _; exact L|].
  assert (nth_error (upd (workers w) t (i, p)) t = None) as X by (apply nth_error_None; rewrite upd_length; exact T). congruence.
Qed.
Lemma signal_cases w i u w' : signal w i u = Some w' ->
  (w' = w /\ forall p, In p (workers w) -> sleeps_at i p = false) \/
  (exists v, nth_error (workers w) v = Some (i, Asleep) /\ w' = W (qs w) (to_phase w v i Woken) (pend w)).
Proof.
  unfold signal. destruct u as [v|].
  - destruct (nth_error (workers w) v) as [[j p]|] eqn:E; [|discriminate]. unfold sleeps_at. cbn [fst snd]. destruct (Nat.eqb_spec j i) as [->|]; [|discriminate]. destruct p; try discriminate. intros H. injection H as <-. right. exists v. split; [exact E|reflexivity].
  - destruct (existsb (sleeps_at i) (workers w)) eqn:E; [discriminate|]. intros H. injection H as <-. left. split; [reflexivity|]. intros p I. destruct (sleeps_at i p) eqn:S1; [|reflexivity].
    assert (existsb (sleeps_at i) (workers w) = true) as X by (apply existsb_exists; exists p; auto). congruence.
Qed.
Lemma read_cases w t i : 
  (qs w i = [] /\ read w t i = W (qs w) (to_phase w t i Asleep) (pend w)) \/
  (exists r, qs w i = 0%Z :: r /\ read w t i = W (set_q (qs w) i r) (to_phase w t i Asleep) (pend w)) \/
  (exists x r, x <> 0%Z /\ qs w i = x :: r /\ read w t i = W (set_q (qs w) i r) (to_phase w t i (Hand x)) (pend w)).
Proof.
  unfold read. destruct (qs w i) as [|x r]; [left; auto|right]. destruct (Z.eqb_spec x 0) as [->|N]; [left; exists r; auto|right; exists x, r; auto].
Qed.
Lemma step_below n w e w' : below n w -> step w e = Some w' -> below n w'.
Proof.
  intros B H. destruct e as [x|u|t|t|t|t u]; cbn [step] in H.
  - injection H as <-. exact B.
  - destruct (pend w) as [|k]; [discriminate|]. apply signal_cases in H. destruct H as [[-> _]|(v & E & ->)]; [exact B|]. apply (below_phase n (W (qs w) (workers w) k)); [exact B|exact (B _ _ _ E)].
  - destruct (nth_error (workers w) t) as [[i p]|] eqn:E; [|discriminate]. pose proof (B _ _ _ E) as L. destruct p; try discriminate; injection H as <-; (destruct (read_cases w t i) as [(_ & ->)|[(r & _ & ->)|(x & r & _ & _ & ->)]]); apply below_phase; assumption.
  - destruct (nth_error (workers w) t) as [[i p]|] eqn:E; [|discriminate]. destruct p; try discriminate. injection H as <-. apply below_phase; [exact B|exact (B _ _ _ E)].
  - destruct (nth_error (workers w) t) as [[i p]|] eqn:E; [|discriminate]. destruct p; try discriminate. injection H as <-. apply below_phase; [exact B|exact (B _ _ _ E)].
  - destruct (nth_error (workers w) t) as [[i p]|] eqn:E; [|discriminate]. destruct p; try discriminate. pose proof (below_phase n w t i Idle (qs w) (pend w) B (B _ _ _ E)) as B1. apply signal_cases in H. destruct H as [[-> _]|(v & E2 & ->)]; [exact B1|]. apply below_phase; [exact B1|exact (B1 _ _ _ E2)].
Qed.
Lemma start_below n stages : (forall i, In i stages -> i < n) -> below n (start stages).
Proof. intros H t i p E. unfold start in E. cbn [workers] in E. apply nth_error_In in E. apply in_map_iff in E. destruct E as (j & X & I). injection X as -> _. exact (H _ I). Qed.

(** ** Conservation *)
Definition occ (v : Z) (l : list Z) : nat := count_occ Z.eq_dec l v.
Definition held (v : Z) (p : nat * phase) : nat := match snd p with Hand x => if Z.eq_dec x v then 1 else 0 | _ => 0 end.
Definition total (n : nat) (v : Z) (w : world) : nat := qsum (fun _ l => occ v l) (qs w) n + wsum (held v) (workers w).
Lemma occ_app v a b : occ v (a ++ b) = occ v a + occ v b.
Proof. apply count_occ_app. Qed.
Lemma occ_cons v x l : occ v (x :: l) = (if Z.eq_dec x v then 1 else 0) + occ v l.
Proof. unfold occ. cbn [count_occ]. destruct (Z.eq_dec x v); reflexivity. Qed.
Lemma signal_total n v w i u w' : signal w i u = Some w' -> total n v w' = total n v w.
Proof.
  intros H. apply signal_cases in H. destruct H as [[-> _]|(k & E & ->)]; [reflexivity|]. unfold total, to_phase. cbn [qs workers]. pose proof (wsum_upd (held v) _ _ _ (i, Woken) E) as X. cbn [held snd] in X. lia.
Qed.
Lemma phase_total n v w t i p p' q k : nth_error (workers w) t = Some (i, p) -> total n v (W q (to_phase w t i p') k) + held v (i, p) = qsum (fun _ l => occ v l) q n + wsum (held v) (workers w) + held v (i, p').
Proof. intros E. unfold total, to_phase. cbn [qs workers]. pose proof (wsum_upd (held v) _ _ _ (i, p') E). lia. Qed.
Lemma step_total n v w e w' : v <> 0%Z -> below n w -> step w e = Some w' -> total n v w' = total n v w + occ v (match e with Put x => [x] | _ => [] end).
Proof.
  intros V B H. destruct e as [x|u|t|t|t|t u]; cbn [step] in H; try change (occ v []) with 0; rewrite ?Nat.add_0_r.
  - injection H as <-. unfold total. cbn [qs workers]. pose proof (qsum_set (fun _ l => occ v l) (qs w) 0 (qs w 0 ++ [x]) n ltac:(lia)) as X. cbv beta in X. rewrite occ_app in X. lia.
  - destruct (pend w) as [|k]; [discriminate|]. apply (signal_total n v) in H. exact H.
  - destruct (nth_error (workers w) t) as [[i p]|] eqn:E; [|discriminate]. pose proof (B _ _ _ E) as L.
    assert (held v (i, p) = 0 /\ w' = read w t i) as [Hp ->] by (destruct p; try discriminate; injection H as <-; auto). clear H.
    destruct (read_cases w t i) as [(Q & ->)|[(r & Q & ->)|(x & r & X0 & Q & ->)]].
    + pose proof (phase_total n v w t i p Asleep (qs w) (pend w) E) as X. unfold total at 2. cbn [held snd] in X. lia.
    + pose proof (phase_total n v w t i p Asleep (set_q (qs w) i r) (pend w) E) as X. pose proof (qsum_set (fun _ l => occ v l) (qs w) i r n ltac:(lia)) as Y. cbv beta in Y. rewrite Q, occ_cons in Y. destruct (Z.eq_dec 0 v); [congruence|]. unfold total at 2. cbn [held snd] in X. lia.
    + pose proof (phase_total n v w t i p (Hand x) (set_q (qs w) i r) (pend w) E) as X. pose proof (qsum_set (fun _ l => occ v l) (qs w) i r n ltac:(lia)) as Y. cbv beta in Y. rewrite Q, occ_cons in Y. unfold total at 2. cbn [held snd] in X. lia.
  - destruct (nth_error (workers w) t) as [[i p]|] eqn:E; [|discriminate]. destruct p; try discriminate. injection H as <-. pose proof (phase_total n v w t i Asleep Woken (qs w) (pend w) E) as X. unfold total at 2. cbn [held snd] in X. lia.
  - destruct (nth_error (workers w) t) as [[i p]|] eqn:E; [|discriminate]. destruct p as [| | |x|]; try discriminate. injection H as <-. pose proof (B _ _ _ E) as L.
    pose proof (phase_total n v w t i (Hand x) After (set_q (qs w) (S i) (qs w (S i) ++ [x])) (pend w) E) as X. pose proof (qsum_set (fun _ l => occ v l) (qs w) (S i) (qs w (S i) ++ [x]) n ltac:(lia)) as Y. cbv beta in Y. rewrite occ_app, occ_cons in Y. change (occ v []) with 0 in Y. unfold total at 2. cbn [held snd] in X. lia.
  - destruct (nth_error (workers w) t) as [[i p]|] eqn:E; [|discriminate]. destruct p; try discriminate. apply (signal_total n v) in H. rewrite H. pose proof (phase_total n v w t i After Idle (qs w) (pend w) E) as X. unfold total at 2. cbn [held snd] in X. lia.
Qed.
Lemma run_total n v es : forall w w', v <> 0%Z -> below n w -> run w es = Some w' -> total n v w' = total n v w + occ v (puts es).
Proof.
  induction es as [|e es IH]; intros w w' V B R; [cbn in R; injection R as <-; unfold occ; cbn; lia|]. apply run_cons in R. destruct R as (w1 & E & R).
  rewrite (IH w1 w' V (step_below _ _ _ _ B E) R), (step_total n v _ _ _ V B E). unfold puts. cbn [flat_map]. rewrite occ_app. lia.
Qed.
Definition hands (w : world) : list Z := flat_map (fun p => match snd p with Hand x => [x] | _ => [] end) (workers w).
Definition queued (n : nat) (w : world) : list Z := flat_map (fun i => qs w i) (seq 0 (S n)).
Lemma occ_hands v w : occ v (hands w) = wsum (held v) (workers w).
Proof. unfold hands. induction (workers w) as [|[i p] l IH]; [reflexivity|]. cbn [flat_map wsum]. rewrite occ_app, IH. f_equal. unfold held. cbn [snd]. destruct p; reflexivity. Qed.
Lemma occ_queued v n w : occ v (queued n w) = qsum (fun _ l => occ v l) (qs w) n.
Proof.
  unfold queued. induction n as [|n IH]; [cbn [seq flat_map qsum]; rewrite app_nil_r; reflexivity|]. rewrite seq_S, flat_map_app, occ_app, IH. cbn [plus flat_map qsum]. rewrite app_nil_r. lia.
Qed.
Lemma occ_nz v l : v <> 0%Z -> occ v (nz l) = occ v l.
Proof.
  intros V. induction l as [|x l IH]; [reflexivity|]. unfold nz. cbn [filter]. destruct (Z.eqb_spec x 0) as [->|N]; cbn [negb]; rewrite !occ_cons; fold (nz l); rewrite IH; [|reflexivity]. destruct (Z.eq_dec 0 v); [congruence|reflexivity].
Qed.
Lemma nz_zero l : occ 0 (nz l) = 0.
Proof. induction l as [|x l IH]; [reflexivity|]. unfold nz. cbn [filter]. destruct (Z.eqb_spec x 0) as [->|N]; cbn [negb]; [exact IH|]. rewrite occ_cons. fold (nz l). rewrite IH. destruct (Z.eq_dec x 0); [contradiction|reflexivity]. Qed.
Lemma start_total n v stages : total n v (start stages) = 0.
Proof.
  unfold total, start. cbn [qs workers]. replace (qsum (fun _ l => occ v l) (fun _ => []) n) with 0 by (induction n as [|n IH]; [reflexivity|cbn [qsum]; rewrite <- IH; reflexivity]). apply wsum_zero. intros p I. apply in_map_iff in I. destruct I as (j & <- & _). reflexivity.
Qed.

(** Nothing but NULL is lost, nothing is doubled: whatever the schedule and however many workers a stage has, what the
    producers put is in the queues and the hands of the workers. *)
Theorem C116_conserved : forall n stages es w, (forall i, In i stages -> i < n) -> run (start stages) es = Some w ->
  Permutation (nz (puts es)) (nz (queued n w ++ hands w)).
Proof.
  intros n stages es w L R. apply (Permutation_count_occ Z.eq_dec). intros v. change (occ v (nz (puts es)) = occ v (nz (queued n w ++ hands w))). destruct (Z.eq_dec v 0) as [->|V]; [rewrite !nz_zero; reflexivity|].
  rewrite !occ_nz by exact V. rewrite occ_app, occ_queued, occ_hands. pose proof (run_total n v es _ _ V (start_below _ _ L) R) as X. rewrite start_total in X. unfold total in X. lia.
Qed.
Print Assumptions C116_conserved.

(** ** Order *)
Definition hand (w : world) (i : nat) : list Z := match nth_error (workers w) i with Some (_, Hand x) => [x] | _ => [] end.
(** What is under way to queue [n], the oldest first. *)
Fixpoint flow (w : world) (n : nat) : list Z := match n with O => qs w 0 | S m => qs w n ++ hand w m ++ flow w m end.
Definition one_each (w : world) : Prop := forall t i p, nth_error (workers w) t = Some (i, p) -> i = t.
Lemma flow_ext w w' n : (forall i, i <= n -> qs w' i = qs w i) -> (forall i, i < n -> hand w' i = hand w i) -> flow w' n = flow w n.
Proof. induction n as [|n IH]; intros Q H; cbn [flow]; rewrite Q by lia; [reflexivity|]. rewrite H by lia. rewrite IH; [reflexivity| |]; intros i L; [apply Q|apply H]; lia. Qed.
Lemma hand_phase w t i p q k j : t < length (workers w) -> hand (W q (to_phase w t i p) k) j = if j =? t then match p with Hand x => [x] | _ => [] end else hand w j.
Proof. intros L. unfold hand, to_phase. cbn [workers]. destruct (Nat.eqb_spec j t) as [->|D]; [rewrite nth_error_upd_eq by exact L; reflexivity|]. rewrite nth_error_upd_neq by congruence. reflexivity. Qed.
Lemma one_phase w t i p q k : one_each w -> i = t -> one_each (W q (to_phase w t i p) k).
Proof.
  intros B -> u j r. unfold to_phase. cbn [workers]. intros H. destruct (Nat.eq_dec u t) as [->|D]; [|rewrite nth_error_upd_neq in H by congruence; exact (B _ _ _ H)].
  destruct (Nat.lt_ge_cases t (length (workers w))) as [T|T]; [rewrite nth_error_upd_eq in H by exact T; injection H as <- _; reflexivity|].
  assert (nth_error (upd (workers w) t (t, p)) t = None) as X by (apply nth_error_None; rewrite upd_length; exact T). congruence.
Qed.
Lemma nth_lt {A} (l : list A) t p : nth_error l t = Some p -> t < length l.
Proof. intros H. apply nth_error_Some. congruence. Qed.
Lemma signal_flow w i u w' n : one_each w -> signal w i u = Some w' -> one_each w' /\ flow w' n = flow w n.
Proof.
  intros B H. apply signal_cases in H. destruct H as [[-> _]|(v & E & ->)]; [auto|]. split; [apply one_phase; [exact B|exact (B _ _ _ E)]|]. apply flow_ext; [reflexivity|]. intros j _. rewrite hand_phase by exact (nth_lt _ _ _ E).
  destruct (Nat.eqb_spec j v) as [->|]; [|reflexivity]. unfold hand. rewrite E. reflexivity.
Qed.
Lemma nz_app a b : nz (a ++ b) = nz a ++ nz b.
Proof. apply filter_app. Qed.
Lemma flow_put w x n : flow (W (set_q (qs w) 0 (qs w 0 ++ [x])) (workers w) (S (pend w))) n = flow w n ++ [x].
Proof.
  induction n as [|n IH]; cbn [flow qs]; [apply set_same|]. rewrite set_other by lia. rewrite IH. unfold hand. cbn [workers]. rewrite <- !app_assoc. reflexivity.
Qed.
Lemma step_flow n w e w' : one_each w -> length (workers w) <= n -> step w e = Some w' -> one_each w' /\ nz (flow w' n) = nz (flow w n) ++ nz (match e with Put x => [x] | _ => [] end).
Proof.
  intros B LN H. destruct e as [x|u|t|t|t|t u]; cbn [step] in H; try change (nz []) with (@nil Z); rewrite ?app_nil_r.
  - injection H as <-. split; [exact B|]. rewrite flow_put, nz_app. reflexivity.
  - destruct (pend w) as [|k]; [discriminate|]. destruct (signal_flow (W (qs w) (workers w) k) _ _ _ n B H) as [A C]. split; [exact A|]. rewrite C. f_equal. apply flow_ext; reflexivity.
  - destruct (nth_error (workers w) t) as [[i p]|] eqn:E; [|discriminate]. pose proof (nth_lt _ _ _ E) as T. pose proof (B _ _ _ E) as ->.
    assert (hand w t = [] /\ w' = read w t t) as [Hp ->] by (unfold hand; rewrite E; destruct p; try discriminate; injection H as <-; auto). clear H.
    destruct (read_cases w t t) as [(Q & ->)|[(r & Q & ->)|(x & r & X0 & Q & ->)]].
    + split; [apply one_phase; auto|]. f_equal. apply flow_ext; [reflexivity|]. intros j _. rewrite hand_phase by exact T. destruct (Nat.eqb_spec j t) as [->|]; [rewrite Hp|]; reflexivity.
    + split; [apply one_phase; auto|]. clear E.
      assert (forall j, hand (W (set_q (qs w) t r) (to_phase w t t Asleep) (pend w)) j = hand w j) as HH by (intros j; rewrite hand_phase by exact T; destruct (Nat.eqb_spec j t) as [->|]; [rewrite Hp|]; reflexivity).
      clear LN. induction n as [|n IH]; cbn [flow qs]; rewrite ?HH.
      * destruct (Nat.eq_dec 0 t) as [<-|D]; [rewrite set_same, Q; reflexivity|rewrite set_other by exact D; reflexivity].
      * rewrite !nz_app, IH. destruct (Nat.eq_dec (S n) t) as [<-|D]; [rewrite set_same, Q; reflexivity|rewrite set_other by exact D; reflexivity].
    + split; [apply one_phase; auto|]. f_equal. assert (t < n) as TN by lia. clear LN E.
      assert (forall j, hand (W (set_q (qs w) t r) (to_phase w t t (Hand x)) (pend w)) j = if j =? t then [x] else hand w j) as HH by (intros j; apply hand_phase; exact T).
      induction n as [|n IH]; [lia|]. cbn [flow qs]. rewrite HH, set_other by lia. destruct (Nat.eqb_spec n t) as [->|D]; [|rewrite IH by lia; reflexivity]. rewrite Hp. f_equal.
      destruct t as [|t]; cbn [flow qs]; rewrite set_same, Q; [reflexivity|]. rewrite HH. replace (t =? S t) with false by lia. cbn [app]. do 2 f_equal.
      f_equal. apply flow_ext; [intros j J; apply set_other; lia|]. intros j J. rewrite HH. replace (j =? S t) with false by lia. reflexivity.
  - destruct (nth_error (workers w) t) as [[i p]|] eqn:E; [|discriminate]. pose proof (nth_lt _ _ _ E) as T. destruct p; try discriminate. injection H as <-. split; [apply one_phase; [exact B|exact (B _ _ _ E)]|]. f_equal. apply flow_ext; [reflexivity|].
    intros j _. rewrite hand_phase by exact T. destruct (Nat.eqb_spec j t) as [->|]; [unfold hand; rewrite E|]; reflexivity.
  - destruct (nth_error (workers w) t) as [[i p]|] eqn:E; [|discriminate]. pose proof (nth_lt _ _ _ E) as T. pose proof (B _ _ _ E) as ->. destruct p as [| | |x|]; try discriminate. injection H as <-. split; [apply one_phase; auto|]. f_equal.
    assert (hand w t = [x]) as Hp by (unfold hand; rewrite E; reflexivity). assert (t < n) as TN by lia. clear LN E.
    set (w1 := W (set_q (qs w) (S t) (qs w (S t) ++ [x])) (to_phase w t t After) (pend w)).
    assert (forall j, hand w1 j = if j =? t then [] else hand w j) as HH by (intros j; apply hand_phase; exact T).
    assert (flow w1 t = flow w t) as F1 by (apply flow_ext; [intros j J; apply set_other; lia|intros j J; rewrite HH; replace (j =? t) with false by lia; reflexivity]).
    induction n as [|n IH]; [lia|]. cbn [flow]. rewrite HH. destruct (Nat.eqb_spec n t) as [->|D].
    + rewrite F1, Hp. unfold w1 at 1. cbn [qs]. rewrite set_same, <- app_assoc. reflexivity.
    + rewrite IH by lia. unfold w1 at 1. cbn [qs]. rewrite set_other by lia. reflexivity.
  - destruct (nth_error (workers w) t) as [[i p]|] eqn:E; [|discriminate]. pose proof (nth_lt _ _ _ E) as T. destruct p; try discriminate.
    destruct (signal_flow (W (qs w) (to_phase w t i Idle) (pend w)) _ _ _ n (one_phase _ _ _ _ _ _ B (B _ _ _ E)) H) as [A C]. split; [exact A|]. rewrite C. f_equal. apply flow_ext; [reflexivity|]. intros j _. rewrite hand_phase by exact T. destruct (Nat.eqb_spec j t) as [->|]; [unfold hand; rewrite E|]; reflexivity.
Qed.
Lemma step_length w e w' : step w e = Some w' -> length (workers w') = length (workers w).
Proof.
  assert (forall w i u w', signal w i u = Some w' -> length (workers w') = length (workers w)) as SL by (intros x i u x' H; apply signal_cases in H; destruct H as [[-> _]|(v & _ & ->)]; [reflexivity|apply upd_length]).
  intros H. destruct e as [x|u|t|t|t|t u]; cbn [step] in H.
  - injection H as <-. reflexivity.
  - destruct (pend w); [discriminate|]. apply SL in H. exact H.
  - destruct (nth_error (workers w) t) as [[i p]|]; [|discriminate]. destruct p; try discriminate; injection H as <-; (destruct (read_cases w t i) as [(_ & ->)|[(r & _ & ->)|(x & r & _ & _ & ->)]]); apply upd_length.
  - destruct (nth_error (workers w) t) as [[i p]|]; [|discriminate]. destruct p; try discriminate. injection H as <-. apply upd_length.
  - destruct (nth_error (workers w) t) as [[i p]|]; [|discriminate]. destruct p; try discriminate. injection H as <-. apply upd_length.
  - destruct (nth_error (workers w) t) as [[i p]|]; [|discriminate]. destruct p; try discriminate. apply SL in H. rewrite H. apply upd_length.
Qed.
Lemma run_flow n es : forall w w', one_each w -> length (workers w) <= n -> run w es = Some w' -> nz (flow w' n) = nz (flow w n) ++ nz (puts es).
Proof.
  induction es as [|e es IH]; intros w w' B L R; [cbn in R; injection R as <-; cbn; rewrite app_nil_r; reflexivity|]. apply run_cons in R. destruct R as (w1 & E & R).
  destruct (step_flow n _ _ _ B L E) as [B1 F1]. rewrite (IH w1 w' B1); [|rewrite (step_length _ _ _ E); exact L|exact R]. rewrite F1, <- app_assoc, <- nz_app. reflexivity.
Qed.
Lemma start_one n : one_each (start (seq 0 n)).
Proof.
  intros t i p E. unfold start in E. cbn [workers] in E. rewrite nth_error_map in E. destruct (nth_error (seq 0 n) t) as [j|] eqn:Q; [|discriminate]. cbn [option_map] in E. injection E as <- _.
  pose proof (nth_lt _ _ _ Q) as L. rewrite seq_length in L. apply (nth_error_nth _ _ 0) in Q. rewrite seq_nth in Q by exact L. lia.
Qed.
Lemma start_flow n stages : flow (start stages) n = [].
Proof.
  induction n as [|n IH]; [reflexivity|]. cbn [flow]. rewrite IH, app_nil_r. unfold hand, start. cbn [qs workers app]. rewrite nth_error_map. destruct (nth_error stages n); reflexivity.
Qed.

(** With one worker for each stage what has come out is the beginning of what was put, in order; and what is under way
    follows in order. *)
Theorem C116_order : forall n es w, run (start (seq 0 n)) es = Some w -> nz (puts es) = nz (flow w n) /\ exists more, nz (puts es) = nz (qs w n) ++ more.
Proof.
  intros n es w R. pose proof (run_flow n es _ _ (start_one n) ltac:(unfold start; cbn [workers]; rewrite map_length, seq_length; lia) R) as X. rewrite start_flow in X. cbn [app nz filter] in X. split; [symmetry; exact X|].
  rewrite <- X. destruct n as [|n]; cbn [flow]; [exists []; rewrite app_nil_r; reflexivity|]. rewrite nz_app. eexists. reflexivity.
Qed.
Print Assumptions C116_order.

(** ** Coming to rest *)
Definition asleep_at (i : nat) (p : nat * phase) : nat := match snd p with Asleep => if fst p =? i then 1 else 0 | _ => 0 end.
Definition woken_at (i : nat) (p : nat * phase) : nat := match snd p with Woken => if fst p =? i then 1 else 0 | _ => 0 end.
Definition signalling (i : nat) (p : nat * phase) : nat := match snd p with After => if S (fst p) =? i then 1 else 0 | _ => 0 end.
Definition coming (w : world) (i : nat) : nat := (if i =? 0 then pend w else wsum (signalling i) (workers w)) + wsum (woken_at i) (workers w).
(** The queues have no NULL, and where a worker sleeps there is a wake-up on its way for each item. *)
Definition covered (w : world) : Prop := (forall i, ~ In 0%Z (qs w i)) /\ (forall t i x, nth_error (workers w) t = Some (i, Hand x) -> x <> 0%Z) /\
  forall i, wsum (asleep_at i) (workers w) <> 0 -> length (qs w i) <= coming w i.
Lemma hand_kept w t i p : (forall x, p <> Hand x) -> (forall u j x, nth_error (workers w) u = Some (j, Hand x) -> x <> 0%Z) -> forall u j x, nth_error (to_phase w t i p) u = Some (j, Hand x) -> x <> 0%Z.
Proof.
  intros P H u j x. unfold to_phase. destruct (Nat.eq_dec u t) as [->|D]; [|rewrite nth_error_upd_neq by congruence; apply H].
  destruct (Nat.lt_ge_cases t (length (workers w))) as [T|T]; [rewrite nth_error_upd_eq by exact T; intros E; injection E as _ E; contradiction (P x E)|].
  intros E. assert (nth_error (upd (workers w) t (i, p)) t = None) as X by (apply nth_error_None; rewrite upd_length; exact T). congruence.
Qed.
Lemma sums_phase w t i p p' j : nth_error (workers w) t = Some (i, p) ->
  wsum (asleep_at j) (to_phase w t i p') + asleep_at j (i, p) = wsum (asleep_at j) (workers w) + asleep_at j (i, p') /\
  wsum (woken_at j) (to_phase w t i p') + woken_at j (i, p) = wsum (woken_at j) (workers w) + woken_at j (i, p') /\
  wsum (signalling j) (to_phase w t i p') + signalling j (i, p) = wsum (signalling j) (workers w) + signalling j (i, p').
Proof. intros E. unfold to_phase. split; [|split]; apply wsum_upd; exact E. Qed.

Lemma sleeps_asleep i p : sleeps_at i p = false -> asleep_at i p = 0.
Proof. destruct p as [j p]. unfold sleeps_at, asleep_at. cbn [fst snd]. destruct p; try reflexivity. rewrite andb_true_r. intros ->. reflexivity. Qed.
(** A signal that is due at queue [k] and is given. *)
Lemma signal_covered w k u w' : (forall i, ~ In 0%Z (qs w i)) -> (forall t i x, nth_error (workers w) t = Some (i, Hand x) -> x <> 0%Z) ->
  (forall i, wsum (asleep_at i) (workers w) <> 0 -> length (qs w i) <= coming w i + (if k =? i then 1 else 0)) -> signal w k u = Some w' -> covered w'.
Proof.
  intros Z0 H0 C H. apply signal_cases in H. destruct H as [[-> N]|(v & E & ->)].
  - split; [exact Z0|split; [exact H0|]]. intros i A. specialize (C i A). destruct (Nat.eqb_spec k i) as [K|K]; [subst i|lia]. contradiction A. apply wsum_zero. intros p I. apply sleeps_asleep, N, I.
  - split; [exact Z0|split; [apply (hand_kept w); [discriminate|exact H0]|]]. cbn [qs workers]. intros i A. destruct (sums_phase w v k Asleep Woken i E) as (S1 & S2 & S3). unfold coming in *. cbn [pend workers] in *. specialize (C i).
    unfold asleep_at at 2 4 in S1. unfold woken_at at 2 4 in S2. unfold signalling at 2 4 in S3. cbn [fst snd] in *. destruct (k =? i), (i =? 0); lia.
Qed.
Lemma notin_tail {x : Z} {q r : list Z} : ~ In 0%Z q -> q = x :: r -> ~ In 0%Z r.
Proof. intros N -> I. apply N. right. exact I. Qed.
Lemma step_covered w e w' : covered w -> (forall x, e = Put x -> x <> 0%Z) -> step w e = Some w' -> covered w'.
Proof.
  intros (Z0 & H0 & C) P H. destruct e as [x|u|t|t|t|t u]; cbn [step] in H.
  - injection H as <-. split; [|split; [exact H0|]]; cbn [qs workers].
    + intros i. unfold set_q. destruct (i =? 0); [|apply Z0]. intros I. apply in_app_or in I. destruct I as [I|[I|[]]]; [exact (Z0 _ I)|exact (P x eq_refl I)].
    + intros i A. specialize (C i A). unfold coming in *. cbn [pend workers]. unfold set_q. destruct (Nat.eqb_spec i 0) as [K|K]; [subst i|lia]. rewrite app_length. cbn [length]. lia.
  - destruct (pend w) as [|k] eqn:K; [discriminate|]. revert H. apply signal_covered; cbn [qs workers]; [exact Z0|exact H0|]. intros i A. specialize (C i A). unfold coming in *. cbn [pend workers]. rewrite K in C. rewrite (Nat.eqb_sym 0 i). destruct (i =? 0); lia.
  - destruct (nth_error (workers w) t) as [[i p]|] eqn:E; [|discriminate].
    assert ((p = Idle \/ p = Woken) /\ w' = read w t i) as [Hp ->] by (destruct p; try discriminate; injection H as <-; auto). clear H.
    destruct (read_cases w t i) as [(Q & ->)|[(r & Q & ->)|(x & r & X0 & Q & ->)]].
    + split; [exact Z0|split; [apply (hand_kept w); [discriminate|exact H0]|]]. cbn [qs workers]. intros j A. destruct (sums_phase w t i p Asleep j E) as (S1 & S2 & S3). specialize (C j). unfold coming in *. cbn [pend workers] in *.
      unfold asleep_at at 2 4 in S1. unfold woken_at at 2 4 in S2. unfold signalling at 2 4 in S3. cbn [fst snd] in *. destruct (Nat.eqb_spec i j) as [D|D]; [subst j; rewrite Q; cbn [length]; lia|]. destruct Hp as [-> | ->]; destruct (j =? 0); lia.
    + contradiction (Z0 i). rewrite Q. left. reflexivity.
    + split; [|split]; cbn [qs workers].
      * intros j. unfold set_q. destruct (j =? i); [exact (notin_tail (Z0 i) Q)|apply Z0].
      * intros u j y. unfold to_phase. destruct (Nat.eq_dec u t) as [->|D]; [|rewrite nth_error_upd_neq by congruence; apply H0]. rewrite nth_error_upd_eq by exact (nth_lt _ _ _ E). intros X. injection X as _ <-. exact X0.
      * intros j A. destruct (sums_phase w t i p (Hand x) j E) as (S1 & S2 & S3). specialize (C j). unfold coming in *. cbn [pend workers] in *.
        unfold asleep_at at 2 4 in S1. unfold woken_at at 2 4 in S2. unfold signalling at 2 4 in S3. cbn [fst snd] in *. unfold set_q. rewrite (Nat.eqb_sym j i). destruct (Nat.eqb_spec i j) as [D|D]; [subst j; rewrite Q in C; cbn [length] in C|]; destruct Hp as [-> | ->]; destruct (_ =? 0); lia.
  - destruct (nth_error (workers w) t) as [[i p]|] eqn:E; [|discriminate]. destruct p; try discriminate. injection H as <-. split; [exact Z0|split; [apply (hand_kept w); [discriminate|exact H0]|]]. cbn [qs workers]. intros j A. destruct (sums_phase w t i Asleep Woken j E) as (S1 & S2 & S3). specialize (C j). unfold coming in *. cbn [pend workers] in *.
    unfold asleep_at at 2 4 in S1. unfold woken_at at 2 4 in S2. unfold signalling at 2 4 in S3. cbn [fst snd] in *. destruct (i =? j), (j =? 0); lia.
  - destruct (nth_error (workers w) t) as [[i p]|] eqn:E; [|discriminate]. destruct p as [| | |x|]; try discriminate. injection H as <-. pose proof (H0 _ _ _ E) as X0. split; [|split; [apply (hand_kept w); [discriminate|exact H0]|]]; cbn [qs workers].
    + intros j. unfold set_q. destruct (j =? S i); [|apply Z0]. intros I. apply in_app_or in I. destruct I as [I|[I|[]]]; [exact (Z0 _ I)|exact (X0 I)].
    + intros j A. destruct (sums_phase w t i (Hand x) After j E) as (S1 & S2 & S3). specialize (C j). unfold coming in *. cbn [pend workers] in *.
      unfold asleep_at at 2 4 in S1. unfold woken_at at 2 4 in S2. unfold signalling at 2 4 in S3. cbn [fst snd] in *. unfold set_q. rewrite (Nat.eqb_sym j (S i)). destruct (Nat.eqb_spec (S i) j) as [D|D]; [subst j; rewrite app_length; cbn [length Nat.eqb] in *; lia|]. destruct (j =? 0); lia.
  - destruct (nth_error (workers w) t) as [[i p]|] eqn:E; [|discriminate]. destruct p; try discriminate. revert H. apply signal_covered; cbn [qs workers]; [exact Z0|apply (hand_kept w); [discriminate|exact H0]|].
    intros j A. destruct (sums_phase w t i After Idle j E) as (S1 & S2 & S3). specialize (C j). unfold coming in *. cbn [pend workers] in *.
    unfold asleep_at at 2 4 in S1. unfold woken_at at 2 4 in S2. unfold signalling at 2 4 in S3. cbn [fst snd] in *. destruct (Nat.eqb_spec (S i) j) as [D|D]; [subst j; cbn [Nat.eqb] in *; lia|]. destruct (j =? 0); lia.
Qed.
Lemma run_covered es : forall w w', covered w -> ~ In 0%Z (puts es) -> run w es = Some w' -> covered w'.
Proof.
  induction es as [|e es IH]; intros w w' C N R; [cbn in R; injection R as <-; exact C|]. apply run_cons in R. destruct R as (w1 & E & R). unfold puts in N. cbn [flat_map] in N. apply (IH w1); [|intros I; apply N, in_or_app; right; exact I|exact R].
  apply (step_covered w e); [exact C| |exact E]. intros x -> ->. apply N. left. reflexivity.
Qed.
Lemma start_covered stages : covered (start stages).
Proof.
  split; [intros i []|split].
  - intros t i x E. unfold start in E. cbn [workers] in E. apply nth_error_In, in_map_iff in E. destruct E as (j & X & _). discriminate.
  - intros i _. cbn [start qs length]. lia.
Qed.
Lemma step_stages w e w' : step w e = Some w' -> map fst (workers w') = map fst (workers w).
Proof.
  assert (forall w t i p p', nth_error (workers w) t = Some (i, p) -> map fst (to_phase w t i p') = map fst (workers w)) as UP.
  { intros x t i p p'. unfold to_phase. generalize (workers x). intros l. revert t. induction l as [|a l IH]; intros [|t] E; try discriminate; cbn [nth_error upd map] in *; [injection E as ->; reflexivity|f_equal; exact (IH _ E)]. }
  assert (forall w i u w', signal w i u = Some w' -> map fst (workers w') = map fst (workers w)) as SL by (intros x i u x' H; apply signal_cases in H; destruct H as [[-> _]|(v & E & ->)]; [reflexivity|exact (UP _ _ _ _ _ E)]).
  intros H. destruct e as [x|u|t|t|t|t u]; cbn [step] in H.
  - injection H as <-. reflexivity.
  - destruct (pend w); [discriminate|]. apply SL in H. exact H.
  - destruct (nth_error (workers w) t) as [[i p]|] eqn:E; [|discriminate]. destruct p; try discriminate; injection H as <-; (destruct (read_cases w t i) as [(_ & ->)|[(r & _ & ->)|(x & r & _ & _ & ->)]]); exact (UP _ _ _ _ _ E).
  - destruct (nth_error (workers w) t) as [[i p]|] eqn:E; [|discriminate]. destruct p; try discriminate. injection H as <-. exact (UP _ _ _ _ _ E).
  - destruct (nth_error (workers w) t) as [[i p]|] eqn:E; [|discriminate]. destruct p; try discriminate. injection H as <-. exact (UP _ _ _ _ _ E).
  - destruct (nth_error (workers w) t) as [[i p]|] eqn:E; [|discriminate]. destruct p; try discriminate. apply SL in H. rewrite H. exact (UP _ _ _ _ _ E).
Qed.
Lemma run_stages es : forall w w', run w es = Some w' -> map fst (workers w') = map fst (workers w).
Proof. induction es as [|e es IH]; intros w w' R; [cbn in R; injection R as <-; reflexivity|]. apply run_cons in R. destruct R as (w1 & E & R). rewrite (IH _ _ R). exact (step_stages _ _ _ E). Qed.
Lemma can_signal w i : exists u, signal w i u <> None.
Proof.
  destruct (existsb (sleeps_at i) (workers w)) eqn:E; [|exists None; unfold signal; rewrite E; discriminate]. apply existsb_exists in E. destruct E as (p & I & S1). apply In_nth_error in I. destruct I as (v & N). exists (Some v). unfold signal. rewrite N, S1. discriminate.
Qed.
(** At rest all workers sleep and no signal is due. *)
Lemma rest_asleep w : at_rest w -> pend w = 0 /\ forall t i p, nth_error (workers w) t = Some (i, p) -> p = Asleep.
Proof.
  intros R. split.
  - destruct (pend w) as [|k] eqn:K; [reflexivity|exfalso]. destruct (can_signal (W (qs w) (workers w) k) 0) as (u & U). apply (R (PSignal u)). cbn [step]. rewrite K. exact U.
  - intros t i p E. destruct p as [| | |x|]; [exfalso|reflexivity|exfalso|exfalso|exfalso].
    + apply (R (Read t)). cbn [step]. rewrite E. discriminate.
    + apply (R (Read t)). cbn [step]. rewrite E. discriminate.
    + apply (R (Pass t)). cbn [step]. rewrite E. discriminate.
    + destruct (can_signal (W (qs w) (to_phase w t i Idle) (pend w)) (S i)) as (u & U). apply (R (Signal t u)). cbn [step]. rewrite E. exact U.
Qed.
Lemma asleep_zero w (f : nat * phase -> nat) : (forall t j p, nth_error (workers w) t = Some (j, p) -> p = Asleep) -> (forall j, f (j, Asleep) = 0) -> wsum f (workers w) = 0.
Proof. intros A F. apply wsum_zero. intros [j p] I. apply In_nth_error in I. destruct I as (t & E). rewrite (A _ _ _ E). apply F. Qed.

(** No wake-up is lost: if no NULL is put and every queue but the last has a worker, then when nothing can happen any
    more the workers sleep, the queues are empty, and the last queue has all that was put. *)
Theorem C116_rest : forall n stages es w, (forall i, i < n <-> In i stages) -> ~ In 0%Z (puts es) -> run (start stages) es = Some w -> at_rest w ->
  (forall i, i < n -> qs w i = []) /\ hands w = [] /\ Permutation (puts es) (qs w n).
Proof.
  intros n stages es w L N R A. destruct (rest_asleep w A) as [P S1]. pose proof (run_covered es _ _ (start_covered stages) N R) as (Z0 & _ & C). pose proof (run_stages es _ _ R) as ST. unfold start in ST at 1. cbn [workers] in ST. rewrite map_map, map_id in ST.
  assert (hands w = []) as HH.
  { unfold hands. assert (forall p, In p (workers w) -> snd p = Asleep) as X by (intros [j p] I; apply In_nth_error in I; destruct I as (t & E); exact (S1 _ _ _ E)). clear -X. induction (workers w) as [|p l IH]; [reflexivity|]. cbn [flat_map]. rewrite (X p) by (left; reflexivity). apply IH. intros y I. apply X. right. exact I. }
  assert (forall i, i < n -> qs w i = []) as E.
  { intros i I. apply L in I. rewrite <- ST in I. apply in_map_iff in I. destruct I as ([j p] & <- & I). cbn [fst]. pose proof I as I2. apply In_nth_error in I2. destruct I2 as (t & T). pose proof (S1 _ _ _ T) as ->.
    specialize (C j). unfold coming in C. rewrite P, (asleep_zero w (signalling j) S1 (fun _ => eq_refl)), (asleep_zero w (woken_at j) S1 (fun _ => eq_refl)) in C. destruct (qs w j); [reflexivity|]. cbn [length] in C. exfalso.
    assert (wsum (asleep_at j) (workers w) <> 0) as X by (intros X; pose proof (proj1 (wsum_zero _ _) X _ I) as Y; unfold asleep_at in Y; cbn [fst snd] in Y; rewrite Nat.eqb_refl in Y; discriminate).
    specialize (C X). destruct (j =? 0); lia. }
  split; [exact E|split; [exact HH|]]. assert (forall l, ~ In 0%Z l -> nz l = l) as NZ.
  { induction l as [|x l IH]; intros I; [reflexivity|]. unfold nz. cbn [filter]. destruct (Z.eqb_spec x 0) as [->|]; [contradiction I; left; reflexivity|]. cbn [negb]. f_equal. apply IH. intros J. apply I. right. exact J. }
  pose proof (C116_conserved n stages es w (fun i I => proj2 (L i) I) R) as X. rewrite HH, app_nil_r in X. assert (queued n w = qs w n) as Q.
  { unfold queued. rewrite seq_S, flat_map_app. cbn [plus flat_map]. rewrite app_nil_r. replace (flat_map (fun i => qs w i) (seq 0 n)) with (@nil Z); [reflexivity|]. clear -E. assert (forall i, In i (seq 0 n) -> qs w i = []) as X by (intros i I; apply E; apply in_seq in I; lia). revert X. induction (seq 0 n) as [|a l IH]; intros X; [reflexivity|]. cbn [flat_map]. rewrite (X a) by (left; reflexivity). apply IH. intros i I. apply X. right. exact I. }
  rewrite Q, !NZ in X by (try exact N; apply Z0). exact X.
Qed.
Print Assumptions C116_rest.

(** ** How many steps *)
Definition work_q (n i : nat) (l : list Z) : nat := 4 * (n - i) * length l.
Definition work_w (n : nat) (p : nat * phase) : nat := match snd p with Idle | Woken => 1 | Asleep => 0 | Hand _ => 4 * (n - fst p) | After => 3 end.
Definition work (n : nat) (w : world) : nat := qsum (work_q n) (qs w) n + wsum (work_w n) (workers w) + 2 * pend w.
Definition cost (n : nat) (e : event) : nat := match e with Put _ => 4 * n + 3 | Spurious _ => 2 | _ => 0 end.
Lemma work_phase n w t i p p' q k : nth_error (workers w) t = Some (i, p) -> work n (W q (to_phase w t i p') k) + work_w n (i, p) = qsum (work_q n) q n + wsum (work_w n) (workers w) + 2 * k + work_w n (i, p').
Proof. intros E. unfold work, to_phase. cbn [qs workers pend]. pose proof (wsum_upd (work_w n) _ _ _ (i, p') E). lia. Qed.
Lemma signal_work n w i u w' : signal w i u = Some w' -> work n w' <= work n w + 1.
Proof.
  intros H. apply signal_cases in H. destruct H as [[-> _]|(v & E & ->)]; [lia|]. pose proof (work_phase n w v i Asleep Woken (qs w) (pend w) E) as X. change (work_w n (i, Asleep)) with 0 in X. change (work_w n (i, Woken)) with 1 in X. unfold work at 2. lia.
Qed.
Lemma step_work n w e w' : below n w -> step w e = Some w' -> S (work n w') <= work n w + cost n e.
Proof.
  intros B H. destruct e as [x|u|t|t|t|t u]; cbn [step cost] in *.
  - injection H as <-. unfold work. cbn [qs workers pend]. pose proof (qsum_set (work_q n) (qs w) 0 (qs w 0 ++ [x]) n ltac:(lia)) as X. unfold work_q at 2 4 in X. rewrite app_length in X. cbn [length] in X. rewrite Nat.sub_0_r in X. lia.
  - destruct (pend w) as [|k] eqn:K; [discriminate|]. apply (signal_work n) in H. unfold work at 2. unfold work at 2 in H. cbn [qs workers pend] in H. lia.
  - destruct (nth_error (workers w) t) as [[i p]|] eqn:E; [|discriminate]. pose proof (B _ _ _ E) as L.
    assert (work_w n (i, p) = 1 /\ w' = read w t i) as [Hp ->] by (destruct p; try discriminate; injection H as <-; auto). clear H. unfold work at 2.
    destruct (read_cases w t i) as [(Q & ->)|[(r & Q & ->)|(x & r & X0 & Q & ->)]].
    + pose proof (work_phase n w t i p Asleep (qs w) (pend w) E) as X. change (work_w n (i, Asleep)) with 0 in X. lia.
    + pose proof (work_phase n w t i p Asleep (set_q (qs w) i r) (pend w) E) as X. change (work_w n (i, Asleep)) with 0 in X. pose proof (qsum_set (work_q n) (qs w) i r n ltac:(lia)) as Y. unfold work_q at 2 4 in Y. rewrite Q in Y. cbn [length] in Y. lia.
    + pose proof (work_phase n w t i p (Hand x) (set_q (qs w) i r) (pend w) E) as X. change (work_w n (i, Hand x)) with (4 * (n - i)) in X. pose proof (qsum_set (work_q n) (qs w) i r n ltac:(lia)) as Y. unfold work_q at 2 4 in Y. rewrite Q in Y. cbn [length] in Y. lia.
  - destruct (nth_error (workers w) t) as [[i p]|] eqn:E; [|discriminate]. destruct p; try discriminate. injection H as <-. pose proof (work_phase n w t i Asleep Woken (qs w) (pend w) E) as X. change (work_w n (i, Asleep)) with 0 in X. change (work_w n (i, Woken)) with 1 in X. unfold work at 2. lia.
  - destruct (nth_error (workers w) t) as [[i p]|] eqn:E; [|discriminate]. destruct p as [| | |x|]; try discriminate. injection H as <-. pose proof (B _ _ _ E) as L. unfold work at 2.
    pose proof (work_phase n w t i (Hand x) After (set_q (qs w) (S i) (qs w (S i) ++ [x])) (pend w) E) as X. change (work_w n (i, Hand x)) with (4 * (n - i)) in X. change (work_w n (i, After)) with 3 in X. pose proof (qsum_set (work_q n) (qs w) (S i) (qs w (S i) ++ [x]) n ltac:(lia)) as Y. unfold work_q at 2 4 in Y. rewrite app_length in Y. cbn [length] in Y. lia.
  - destruct (nth_error (workers w) t) as [[i p]|] eqn:E; [|discriminate]. destruct p; try discriminate. apply (signal_work n) in H. pose proof (work_phase n w t i After Idle (qs w) (pend w) E) as X. change (work_w n (i, After)) with 3 in X. change (work_w n (i, Idle)) with 1 in X. unfold work at 2. lia.
Qed.
Lemma run_work n es : forall w w', below n w -> run w es = Some w' -> length es + work n w' <= work n w + (4 * n + 3) * length (puts es) + 2 * spurious es.
Proof.
  induction es as [|e es IH]; intros w w' B R; [cbn in R; injection R as <-; cbn [length]; lia|]. apply run_cons in R. destruct R as (w1 & E & R). pose proof (step_work n _ _ _ B E) as X. specialize (IH w1 w' (step_below _ _ _ _ B E) R).
  unfold puts, spurious in *. destruct e; cbn [flat_map filter length app cost] in *; lia.
Qed.

(** The chain comes to rest: a schedule has a bounded number of steps for each item put and each wake-up without cause. *)
Theorem C116_bound : forall n stages es w, (forall i, In i stages -> i < n) -> run (start stages) es = Some w ->
  length es <= length stages + (4 * n + 3) * length (puts es) + 2 * spurious es.
Proof.
  intros n stages es w L R. pose proof (run_work n es _ _ (start_below _ _ L) R) as X. assert (work n (start stages) = length stages) as Y; [|lia].
  unfold work, start. cbn [qs workers pend]. replace (qsum (work_q n) (fun _ => []) n) with 0. { induction stages as [|a l IH]; [reflexivity|]. cbn [map wsum length]. assert (forall i, In i l -> i < n) as L2 by (intros i I; apply L; right; exact I). clear -IH L2. assert (forall l, wsum (work_w n) (map (fun i => (i, Idle)) l) = length l) as G by (induction l0 as [|b m IM]; [reflexivity|cbn [map wsum length]; rewrite IM; reflexivity]). rewrite G. cbn [work_w snd]. lia. }
  assert (forall m, qsum (work_q n) (fun _ => []) m = 0) as G; [|symmetry; apply G]. induction m as [|m IH]; cbn [qsum]; unfold work_q at 1; cbn [length]; lia.
Qed.
Print Assumptions C116_bound.

(** With one worker for each stage everything comes out in the order in which it was put. *)
Theorem C116_through : forall n es w, ~ In 0%Z (puts es) -> run (start (seq 0 n)) es = Some w -> at_rest w -> qs w n = puts es.
Proof.
  intros n es w N R A. destruct (C116_rest n (seq 0 n) es w) as (_ & _ & P); try assumption; [intros i; rewrite in_seq; lia|]. destruct (C116_order n es w R) as (_ & more & E).
  assert (forall l, ~ In 0%Z l -> nz l = l) as NZ.
  { induction l as [|x l IH]; intros I; [reflexivity|]. unfold nz. cbn [filter]. destruct (Z.eqb_spec x 0) as [->|]; [contradiction I; left; reflexivity|]. cbn [negb]. f_equal. apply IH. intros J. apply I. right. exact J. }
  rewrite !NZ in E; [|intros I; apply N; apply (Permutation_in _ (Permutation_sym P)); exact I|exact N]. apply Permutation_length in P. rewrite E, app_length in P. destruct more; [rewrite app_nil_r in E; symmetry; exact E|cbn [length] in P; lia].
Qed.
Print Assumptions C116_through.

Definition asleep_all (w : world) : bool := match pend w with O => forallb (fun p => match snd p with Asleep => true | _ => false end) (workers w) | _ => false end.
Lemma asleep_rest w : asleep_all w = true -> at_rest w.
Proof.
  unfold asleep_all. destruct (pend w) eqn:K; [|discriminate]. intros F e. rewrite forallb_forall in F.
  assert (forall t i p, nth_error (workers w) t = Some (i, p) -> p = Asleep) as S1 by (intros t i p E; apply nth_error_In, F in E; cbn [snd] in E; destruct p; congruence).
  destruct e as [x|u|t|t|t|t u]; cbn [step]; try exact (fun _ => Logic.I); rewrite ?K; intros X; [contradiction X; reflexivity| | |]; (destruct (nth_error (workers w) t) as [[i p]|] eqn:E; [pose proof (S1 _ _ _ E) as ->|]; contradiction X; reflexivity).
Qed.
Lemma not_asleep w : asleep_all w = false -> exists e w', step w e = Some w' /\ match e with Put _ | Spurious _ => False | _ => True end.
Proof.
  assert (forall w e, step w e <> None -> exists w', step w e = Some w') as D by (intros x e; destruct (step x e) as [y|]; [exists y; reflexivity|congruence]).
  intros F. enough (exists e, step w e <> None /\ match e with Put _ | Spurious _ => False | _ => True end) as (e & X & Y) by (destruct (D _ _ X) as (w' & Z1); exists e, w'; auto).
  unfold asleep_all in F. destruct (pend w) as [|k] eqn:K.
  - assert (exists p, In p (workers w) /\ snd p <> Asleep) as ([i p] & I & P).
    { clear K. induction (workers w) as [|[i p] l IH]; [discriminate|]. cbn [forallb snd] in F. destruct p; cbn [andb] in F; try (eexists; split; [left; reflexivity|discriminate]). destruct (IH F) as (p & I & P). exists p. split; [right; exact I|exact P]. }
    apply In_nth_error in I. destruct I as (t & E). cbn [snd] in P. destruct p as [| | |x|]; [exists (Read t)|congruence|exists (Read t)|exists (Pass t)|]; try (cbn [step]; rewrite E; split; [discriminate|exact Logic.I]).
    destruct (can_signal (W (qs w) (to_phase w t i Idle) (pend w)) (S i)) as (u & U). exists (Signal t u). cbn [step]. rewrite E. auto.
  - destruct (can_signal (W (qs w) (workers w) k) 0) as (u & U). exists (PSignal u). cbn [step]. rewrite K. auto.
Qed.
Lemma run_app es : forall fs w w1, run w es = Some w1 -> run w (es ++ fs) = run w1 fs.
Proof. induction es as [|e es IH]; intros fs w w1 R; [cbn in R; injection R as <-; reflexivity|]. apply run_cons in R. destruct R as (w2 & E & R). cbn [app run]. rewrite E. exact (IH fs _ _ R). Qed.

(** From every state the chain can reach it can come to rest without further items. *)
Theorem C116_finishes : forall n stages es w, (forall i, In i stages -> i < n) -> run (start stages) es = Some w ->
  exists more w', run (start stages) (es ++ more) = Some w' /\ at_rest w' /\ puts more = [] /\ spurious more = 0.
Proof.
  intros n stages es w L R. enough (forall k w, below n w -> work n w <= k -> exists more w', run w more = Some w' /\ at_rest w' /\ puts more = [] /\ spurious more = 0) as G.
  { assert (below n w) as B. { clear -L R. pose proof (start_below _ _ L) as B. revert B R. generalize (start stages). induction es as [|e es IH]; intros v B R; [cbn in R; injection R as <-; exact B|]. apply run_cons in R. destruct R as (v1 & E & R). exact (IH v1 (step_below _ _ _ _ B E) R). }
    destruct (G _ w B (le_n _)) as (more & w' & R2 & X). exists more, w'. rewrite (run_app _ _ _ _ R). auto. }
  clear. induction k as [|k IH]; intros w B K; (destruct (asleep_all w) eqn:A; [exists [], w; split; [reflexivity|split; [apply asleep_rest; exact A|split; reflexivity]]|]); destruct (not_asleep w A) as (e & w1 & E & C); pose proof (step_work n _ _ _ B E) as S1; assert (cost n e = 0) as C0 by (destruct e; try contradiction; reflexivity); [lia|].
  destruct (IH w1 (step_below _ _ _ _ B E) ltac:(lia)) as (more & w' & R & A2 & P & Q). exists (e :: more), w'. cbn [run]. rewrite E. split; [exact R|split; [exact A2|]]. unfold puts, spurious in *. destruct e; try contradiction; cbn [flat_map filter app]; auto.
Qed.
Print Assumptions C116_finishes.

(** ** Defects *)
(** Two workers for a stage can change the order: all is delivered, the second item first. *)
Theorem C116_reorder_refuted : exists es w, run (start [0; 0]) es = Some w /\ at_rest w /\ puts es = [1; 2]%Z /\ qs w 1 = [2; 1]%Z.
Proof.
  exists [Put 1%Z; Put 2%Z; PSignal None; PSignal None; Read 0; Read 1; Pass 1; Signal 1 None; Pass 0; Signal 0 None; Read 0; Read 1]. eexists. split; [vm_compute; reflexivity|]. split; [apply asleep_rest; vm_compute; reflexivity|]. vm_compute. auto.
Qed.
Print Assumptions C116_reorder_refuted.
(** A NULL stops the chain: the worker that is awakened for it goes to sleep again, although behind it there is an item
    whose signal was given before the worker came to run. *)
Theorem C116_null_refuted : exists es w, run (start [0]) es = Some w /\ at_rest w /\ puts es = [0; 7]%Z /\ qs w 0 = [7]%Z /\ qs w 1 = [].
Proof.
  exists [Read 0; Put 0%Z; PSignal (Some 0); Put 7%Z; PSignal None; Read 0]. eexists. split; [vm_compute; reflexivity|]. split; [apply asleep_rest; vm_compute; reflexivity|]. vm_compute. auto.
Qed.
Print Assumptions C116_null_refuted.

(** ** Examples *)
(** Two stages, two items, a worker asleep, a wake-up without cause. *)
Example C116_ex : exists w, run (start [0; 1]) [Read 1; Read 0; Put 5%Z; Put 6%Z; PSignal (Some 0); Read 0; Pass 0; Spurious 1; Signal 0 None; Read 0; PSignal None; Pass 0; Read 1; Signal 0 None; Pass 1; Signal 1 None; Read 1; Read 0; Pass 1; Signal 1 None; Read 1] = Some w
  /\ at_rest w /\ qs w 2 = [5; 6]%Z.
Proof. eexists. split; [vm_compute; reflexivity|]. split; [apply asleep_rest; vm_compute; reflexivity|]. vm_compute. reflexivity. Qed.
(** On the way: one item in the first queue, one in the hand of the second worker. *)
Example C116_ex_flow : exists w, run (start [0; 1]) [Put 5%Z; Put 6%Z; Read 0; Pass 0; Signal 0 None; Read 1] = Some w /\ flow w 2 = [5; 6]%Z /\ qs w 0 = [6]%Z /\ hands w = [5]%Z /\ qs w 2 = [].
Proof. eexists. split; [vm_compute; reflexivity|]. vm_compute. repeat split. Qed.
(** A signal may not be given to nobody while a worker sleeps. *)
Example C116_ex_signal : run (start [0]) [Read 0; Put 5%Z; PSignal None] = None.
Proof. vm_compute. reflexivity. Qed.
