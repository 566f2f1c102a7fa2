(** C118: the text and the memory of a backtrace. *)
From Verif Require Import Base BaseFacts UtilsModel BacktraceModel.
Local Open Scope Z_scope.

(** ** What is claimed *)
(** The text for a list of names. *)
Definition listing (names : list (list Z)) : list Z := lit "backtrace:" ++ flat_map (fun s => 32 :: c_str s) names.
Definition failure : list Z := lit "backtrace failed".

(** ** Lemmas *)
Lemma ask_blocks m ok m' : ask m = (ok, m') -> blocks m' = blocks m.
Proof. unfold ask. destruct (answers m); intros H; injection H as <- <-; reflexivity. Qed.
Lemma give_up_cases m o m' : give_up m = (o, m') -> (o = Returns failure \/ o = Throws) /\ blocks m' = blocks m.
Proof. unfold give_up. destruct (ask m) as [ok n] eqn:A. intros H. injection H as <- <-. split; [destruct ok; auto|exact (ask_blocks _ _ _ A)]. Qed.
Lemma collect_cases names : forall r m o m', collect names r m = (o, m') -> blocks m' = blocks m /\ match o with Some t => t = r ++ flat_map (fun s => 32 :: c_str s) names | None => In false (answers m) end.
Proof.
  induction names as [|s names IH]; intros r m o m' H; cbn [collect] in H; [injection H as <- <-; cbn [flat_map]; rewrite app_nil_r; auto|]. destruct (ask m) as [ok n] eqn:A. pose proof (ask_blocks _ _ _ A) as B. unfold ask in A. destruct ok.
  - apply IH in H. destruct H as [H1 H2]. split; [congruence|]. destruct o; [rewrite H2, <- app_assoc; reflexivity|]. destruct (answers m) eqn:E; [injection A as <-; rewrite E in H2; exact H2|injection A as _ <-; right; exact H2].
  - injection H as <- <-. split; [exact B|]. destruct (answers m); [discriminate|injection A as A _; left; exact A].
Qed.
Lemma collect_all names : forall r m, answers m = [] -> collect names r m = (Some (r ++ flat_map (fun s => 32 :: c_str s) names), m).
Proof.
  induction names as [|s names IH]; intros r m A; cbn [collect flat_map]; [rewrite app_nil_r; reflexivity|]. unfold ask. rewrite A, IH by exact A. rewrite <- app_assoc. reflexivity.
Qed.
Lemma app_not_failure names : listing names <> failure.
Proof. unfold listing, failure. intros H. vm_compute in H. discriminate. Qed.

(** A call gives the names of the up to 30 innermost functions, each after a space, or that it failed, or throws; while
    there is memory it gives the names, unless the stack cannot be read. *)
Theorem C118_text : forall stack m, let o := fst (rn_backtrace stack m) in
  (o = Returns (listing (firstn 30 stack)) \/ o = Returns failure \/ o = Throws) /\
  (answers m = [] -> o = Returns (match stack with [] => failure | _ => listing (firstn 30 stack) end)).
Proof.
  intros stack m o. unfold o, rn_backtrace. destruct stack as [|a stack].
  - cbn [firstn]. destruct (give_up m) as [x n] eqn:G. cbn [fst]. split; [destruct (give_up_cases _ _ _ G) as [[-> | ->] _]; auto|]. intros A. unfold give_up, ask in G. rewrite A in G. injection G as <- <-. reflexivity.
  - change (firstn 30 (a :: stack)) with (a :: firstn 29 stack). cbv iota. set (names := a :: firstn 29 stack). split.
    + destruct (ask m) as [ok n]. destruct ok.
      * destruct (collect names (lit "backtrace:") _) as [[t|] k] eqn:C.
        -- apply collect_cases in C. destruct C as [_ C]. left. rewrite C. reflexivity.
        -- destruct (give_up k) as [x y] eqn:G. destruct (give_up_cases _ _ _ G) as [[-> | ->] _]; auto.
      * destruct (give_up n) as [x y] eqn:G. destruct (give_up_cases _ _ _ G) as [[-> | ->] _]; auto.
    + intros A. unfold ask. rewrite A. cbv iota beta. rewrite collect_all by exact A. reflexivity.
Qed.
Print Assumptions C118_text.

(** The names can be told from a failure. *)
Theorem C118_told : forall stack m, stack <> [] -> fst (rn_backtrace stack m) = Returns failure -> In false (answers m).
Proof.
  intros stack m N H. unfold rn_backtrace in H. destruct stack as [|a stack]; [contradiction N; reflexivity|]. change (firstn 30 (a :: stack)) with (a :: firstn 29 stack) in H. cbv iota in H. destruct (ask m) as [ok n] eqn:A. unfold ask in A. destruct ok.
  - destruct (collect (a :: firstn 29 stack) (lit "backtrace:") _) as [[t|] k] eqn:C.
    + apply collect_cases in C. destruct C as [_ C]. cbn [fst] in H. injection H as H. rewrite C in H. contradiction (app_not_failure (a :: firstn 29 stack)).
    + apply collect_cases in C. destruct C as [_ C]. cbn [answers] in C. destruct (answers m) as [|x y] eqn:E; [injection A as <-; rewrite E in C; contradiction|injection A as _ <-; right; exact C].
  - destruct (answers m) as [|b r]; [discriminate|]. injection A as A _. left. exact A.
Qed.
Print Assumptions C118_told.

(** A call that gives the names has given its memory back; so any number of them need no more memory than before. *)
Theorem C118_memory : forall stacks m os m', calls stacks m = (os, m') -> (forall o, In o os -> exists names, o = Returns (listing names)) -> blocks m' = blocks m.
Proof.
  induction stacks as [|s r IH]; intros m os m' H N; cbn [calls] in H; [injection H as <- <-; reflexivity|]. destruct (rn_backtrace s m) as [o n] eqn:R. destruct (calls r n) as [os2 k] eqn:C. injection H as <- <-.
  rewrite (IH n os2 k C) by (intros x I; apply N; right; exact I). destruct (N o (or_introl eq_refl)) as (names & ->).
  assert (forall m x y, give_up m = (x, y) -> x <> Returns (listing names)) as G by (intros m0 x y G E; destruct (give_up_cases _ _ _ G) as [[-> | ->] _]; [apply (app_not_failure names); congruence|discriminate]).
  unfold rn_backtrace in R. destruct (firstn 30 s) as [|a l]; [contradiction (G _ _ _ R); reflexivity|]. destruct (ask m) as [ok q] eqn:A. destruct ok; [|contradiction (G _ _ _ R); reflexivity].
  destruct (collect (a :: l) (lit "backtrace:") _) as [[t|] p] eqn:E; [|contradiction (G _ _ _ R); reflexivity]. apply collect_cases in E. destruct E as [E _]. injection R as _ <-. cbn [blocks] in *. rewrite E. cbn [pred]. exact (ask_blocks _ _ _ A).
Qed.
Print Assumptions C118_memory.

(** ** Defects *)
(** Each call in which the memory runs out while the names are put together loses a block for good: after [n] such calls
    there are [n] more. *)
Theorem C118_leak_refuted : forall n stack b, stack <> [] -> exists as_ os m', calls (repeat stack n) (M b as_) = (os, m') /\ Forall (fun o => o = Returns failure) os /\ blocks m' = (n + b)%nat.
Proof.
  intros n stack b N. destruct stack as [|a stack]; [contradiction N; reflexivity|]. exists (concat (repeat [true; false; true] n)). revert b. induction n as [|n IH]; intros b; [exists [], (M b []); repeat split; constructor|].
  destruct (IH (S b)) as (os & m' & C & F & B). exists (Returns failure :: os), m'. cbn [repeat concat app calls]. unfold rn_backtrace. change (firstn 30 (a :: stack)) with (a :: firstn 29 stack). cbv iota. unfold ask at 1. cbn [answers blocks collect]. unfold ask at 1. cbn [answers blocks]. unfold give_up, ask. cbn [answers blocks].
  rewrite C. split; [reflexivity|]. split; [constructor; [reflexivity|exact F]|]. rewrite B. lia.
Qed.
Print Assumptions C118_leak_refuted.
(** Though every exception is caught, the call throws if there is no memory for the copy of the message either. *)
Theorem C118_throws_refuted : forall stack b, fst (rn_backtrace stack (M b [false; false])) = Throws \/ stack = [].
Proof. intros stack b. destruct stack as [|a stack]; [right; reflexivity|left; reflexivity]. Qed.
Print Assumptions C118_throws_refuted.
(** The 31st function is not shown, and nothing says that some are missing: different stacks look the same. *)
Theorem C118_depth_refuted : forall a b c m, length a = 30%nat -> rn_backtrace (a ++ b) m = rn_backtrace (a ++ c) m.
Proof. intros a b c m L. unfold rn_backtrace. assert (forall x, firstn 30 (a ++ x) = a) as F; [|rewrite !F; reflexivity]. intros x. rewrite firstn_app, L, Nat.sub_diag, firstn_O, app_nil_r, <- L. apply firstn_all. Qed.
Print Assumptions C118_depth_refuted.

(** ** Examples *)
Example C118_ex : rn_backtrace [[102; 0; 103]; [109]] (M 3 []) = (Returns (lit "backtrace: f m"), M 3 []).
Proof. vm_compute. reflexivity. Qed.
Example C118_ex_fail : calls [[[102]; [109]]; []; [[102]]] (M 0 [true; true; false; true; true]) = ([Returns failure; Returns failure; Returns (lit "backtrace: f")], M 1 []).
Proof. vm_compute. reflexivity. Qed.
