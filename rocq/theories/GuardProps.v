(** C119: ScopedLock in programs that return and throw. *)
From Verif Require Import Base BaseFacts GuardModel.
Local Open Scope nat_scope.

(** ** What is claimed *)
(** The program uses ScopedLock only, and copies none. *)
Fixpoint scoped (s : stmt) : bool :=
  match s with
  | Act | Throw | Return => true
  | Seq s t | Choose s t | Try s t => scoped s && scoped t
  | Loop s | Scoped _ s => scoped s
  | Bare _ _ | Copied _ _ => false
  end.
(** A thread is within so many blocks with a ScopedLock of [m]. *)
Definition is_scope (m : nat) (k : frame) : bool := match k with KScope j => j =? m | _ => false end.
Definition inside (m : nat) (w : world) (t : nat) : nat := match nth_error (threads w) t with Some (_, ks) => length (filter (is_scope m) ks) | None => 0 end.
Definition over (w : world) (t : nat) : Prop := exists c, nth_error (threads w) t = Some (c, []) /\ forall s, c <> Exec s.
Definition depth (w : world) (t m : nat) : nat := match own w m with Some (h, d) => if h =? t then d else 0 | None => 0 end.
(** Mutexes are locked in ascending order, those a thread has already excepted. *)
Fixpoint ordered (held : list nat) (s : stmt) : bool :=
  match s with
  | Act | Throw | Return => true
  | Seq s t | Choose s t | Try s t => ordered held s && ordered held t
  | Loop s => ordered held s
  | Scoped m s | Bare m s | Copied m s => (existsb (Nat.eqb m) held || forallb (fun j => j <? m) held) && ordered (m :: held) s
  end.

(** ** The invariant *)
Definition fscoped (k : frame) : bool := match k with KSeq s | KLoop s | KTry s => scoped s | KScope _ => true | KUnlock _ => false end.
Definition cscoped (c : control) : bool := match c with Exec s => scoped s | _ => true end.
Definition tscoped (p : control * list frame) : Prop := cscoped (fst p) = true /\ forallb fscoped (snd p) = true.
Definition scopes (m : nat) (ks : list frame) : nat := length (filter (is_scope m) ks).
Definition INV (w : world) : Prop :=
  (forall t p, nth_error (threads w) t = Some p -> tscoped p) /\
  (forall t m, depth w t m = inside m w t) /\
  (forall m h d, own w m = Some (h, d) -> d <> 0) /\
  (forall m, cnt w m = match own w m with Some (_, d) => Z.of_nat d | None => 0%Z end).
Lemma nth_lt {A} (l : list A) t p : nth_error l t = Some p -> t < length l.
Proof. intros H. apply nth_error_Some. congruence. Qed.
Lemma inside_at m w t c ks : nth_error (threads w) t = Some (c, ks) -> inside m w t = scopes m ks.
Proof. intros E. unfold inside. rewrite E. reflexivity. Qed.
Lemma inside_goto m w t c ks u : t < length (threads w) -> inside m (goto w t c ks) u = if u =? t then scopes m ks else inside m w u.
Proof. intros L. unfold inside, goto. cbn [threads]. destruct (Nat.eqb_spec u t) as [->|D]; [rewrite nth_error_upd_eq by exact L; reflexivity|rewrite nth_error_upd_neq by congruence; reflexivity]. Qed.
Lemma tscoped_goto w t c ks : t < length (threads w) -> (forall u p, nth_error (threads w) u = Some p -> tscoped p) -> tscoped (c, ks) -> forall u p, nth_error (threads (goto w t c ks)) u = Some p -> tscoped p.
Proof.
  intros L H T u p. unfold goto. cbn [threads]. destruct (Nat.eq_dec u t) as [->|D]; [rewrite nth_error_upd_eq by exact L; intros E; injection E as <-; exact T|rewrite nth_error_upd_neq by congruence; apply H].
Qed.
(** Going on without touching a mutex. *)
Lemma inv_goto w t c0 ks0 c ks : INV w -> nth_error (threads w) t = Some (c0, ks0) -> (forall m, scopes m ks = scopes m ks0) -> tscoped (c, ks) -> INV (goto w t c ks).
Proof.
  intros (A & B & C & D) E S1 T. pose proof (nth_lt _ _ _ E) as L. split; [apply tscoped_goto; assumption|]. split; [|split; [exact C|exact D]].
  intros u m. rewrite inside_goto by exact L. change (depth (goto w t c ks) u m) with (depth w u m). rewrite B. destruct (Nat.eqb_spec u t) as [Q0|]; [subst u|reflexivity]. rewrite S1. exact (inside_at m w t c0 ks0 E).
Qed.
Lemma lock_cases w t m w' : lock w t m = Some w' ->
  threads w' = threads w /\ (exists d, own w' m = Some (t, S d) /\ (own w m = None /\ d = 0 \/ own w m = Some (t, d))) /\ (forall k, k <> m -> own w' k = own w k) /\ (forall k, cnt w' k = if k =? m then (cnt w m + 1)%Z else cnt w k).
Proof.
  unfold lock. destruct (own w m) as [[h d]|] eqn:O.
  - destruct (Nat.eqb_spec h t) as [->|]; [|discriminate]. intros H. injection H as <-. cbn [threads own cnt]. split; [reflexivity|]. split; [exists d; rewrite Nat.eqb_refl; auto|]. split; [|reflexivity]. intros k K. replace (k =? m) with false by lia. reflexivity.
  - intros H. injection H as <-. cbn [threads own cnt]. split; [reflexivity|]. split; [exists 0; rewrite Nat.eqb_refl; auto|]. split; [|reflexivity]. intros k K. replace (k =? m) with false by lia. reflexivity.
Qed.
Lemma inv_lock w t m w' c0 ks s : INV w -> nth_error (threads w) t = Some (c0, ks) -> lock w t m = Some w' -> tscoped (Exec s, KScope m :: ks) -> INV (goto w' t (Exec s) (KScope m :: ks)).
Proof.
  intros (A & B & C & D) E K T. pose proof (nth_lt _ _ _ E) as L. apply lock_cases in K. destruct K as (Th & (d & O & O0) & Ot & Cn).
  assert (t < length (threads w')) as L' by (rewrite Th; exact L). split; [apply tscoped_goto; [exact L'|rewrite Th; exact A|exact T]|]. split; [|split].
  - intros u j. rewrite inside_goto by exact L'. change (depth (goto w' t (Exec s) (KScope m :: ks)) u j) with (depth w' u j). unfold inside at 1. rewrite Th. fold (inside j w u). specialize (B u j). unfold depth in *. destruct (Nat.eq_dec j m) as [Q1|J]; [subst j|].
    + rewrite O. rewrite (Nat.eqb_sym t u). destruct (Nat.eqb_spec u t) as [Q0|U]; [subst u|].
      * unfold scopes. cbn [filter is_scope]. rewrite Nat.eqb_refl. cbn [length]. f_equal. rewrite (inside_at m w t c0 ks E) in B. unfold scopes in B. rewrite <- B. destruct O0 as [[-> ->]| ->]; [reflexivity|]. rewrite Nat.eqb_refl. reflexivity.
      * rewrite <- B. destruct O0 as [[-> _]| ->]; [reflexivity|]. replace (t =? u) with false by lia. reflexivity.
    + rewrite Ot by exact J. rewrite B. destruct (Nat.eqb_spec u t) as [Q0|]; [subst u|reflexivity]. rewrite (inside_at j w t c0 ks E). unfold scopes. cbn [filter is_scope]. replace (m =? j) with false by lia. reflexivity.
  - intros j h e H. cbn [goto own] in H. destruct (Nat.eq_dec j m) as [->|J]; [rewrite O in H; injection H as _ <-; discriminate|]. rewrite Ot in H by exact J. exact (C _ _ _ H).
  - intros j. cbn [goto cnt own]. rewrite Cn. destruct (Nat.eqb_spec j m) as [->|J]; [|rewrite Ot by exact J; apply D]. rewrite O, D. destruct O0 as [[-> ->]| ->]; lia.
Qed.
Lemma inv_unlock w t m c ks : INV w -> nth_error (threads w) t = Some (c, KScope m :: ks) -> INV (goto (unlock w t m) t c ks).
Proof.
  intros (A & B & C & D) E. pose proof (nth_lt _ _ _ E) as L. pose proof (A _ _ E) as [T1 T2]. cbn [fst snd forallb fscoped andb] in T1, T2.
  pose proof (B t m) as Bm. rewrite (inside_at m w t c _ E) in Bm. unfold scopes in Bm. cbn [filter is_scope] in Bm. rewrite Nat.eqb_refl in Bm. cbn [length] in Bm. unfold depth in Bm. destruct (own w m) as [[h d]|] eqn:O; [|discriminate]. destruct (Nat.eqb_spec h t) as [->|]; [|discriminate]. subst d.
  assert (t < length (threads (unlock w t m))) as L' by exact L.
  assert (forall j, own (unlock w t m) j = if j =? m then (match scopes m ks with S d => Some (t, S d) | O => None end) else own w j) as OW.
  { intros j. unfold unlock. cbn [own]. rewrite O, Nat.eqb_refl. unfold scopes. destruct (length (filter (is_scope m) ks)); reflexivity. }
  split; [apply tscoped_goto; [exact L'|exact A|split; assumption]|]. split; [|split].
  - intros u j. rewrite inside_goto by exact L'. change (depth (goto (unlock w t m) t c ks) u j) with (depth (unlock w t m) u j). change (inside j (unlock w t m) u) with (inside j w u). specialize (B u j). unfold depth in *. rewrite OW. destruct (Nat.eqb_spec j m) as [Q1|J]; [subst j|].
    + rewrite O in B. rewrite (Nat.eqb_sym t u) in B. destruct (Nat.eqb_spec u t) as [Q0|U]; [subst u|].
      * destruct (scopes m ks); [reflexivity|]. rewrite Nat.eqb_refl. reflexivity.
      * rewrite <- B. destruct (scopes m ks); [reflexivity|]. replace (t =? u) with false by lia. reflexivity.
    + rewrite B. destruct (Nat.eqb_spec u t) as [Q0|]; [subst u|reflexivity]. rewrite (inside_at j w t c _ E). unfold scopes. cbn [filter is_scope]. replace (m =? j) with false by lia. reflexivity.
  - intros j h e H. cbn [goto own] in H. rewrite OW in H. destruct (j =? m); [|exact (C _ _ _ H)]. destruct (scopes m ks); [discriminate|]. injection H as _ <-. discriminate.
  - intros j. cbn [goto cnt own]. rewrite OW. unfold unlock. cbn [cnt]. destruct (Nat.eqb_spec j m) as [->|J]; [|apply D]. rewrite D, O. unfold scopes. destruct (length (filter (is_scope m) ks)); lia.
Qed.
Lemma step_inv w t b w' : INV w -> step w t b = Some w' -> INV w'.
Proof.
  intros I H. unfold step in H. destruct (nth_error (threads w) t) as [[c ks]|] eqn:E; [|discriminate]. pose proof (proj1 I _ _ E) as [T1 T2]. cbn [fst snd] in T1, T2.
  assert (forall c' ks', cscoped c' = true -> forallb fscoped ks' = true -> (forall m, scopes m ks' = scopes m ks) -> INV (goto w t c' ks')) as G by (intros c' ks' X Y Z1; apply (inv_goto w t c ks); [exact I|exact E|exact Z1|split; assumption]).
  destruct c as [s| | |].
  - destruct s as [|s s'|s s'|s|m s|m s|m s|s s'| |]; cbn [cscoped scoped] in T1; try discriminate T1; try apply andb_prop in T1.
    + injection H as <-. apply G; auto.
    + injection H as <-. apply G; [apply T1|cbn [forallb fscoped]; rewrite (proj2 T1); exact T2|reflexivity].
    + injection H as <-. apply G; [destruct b; apply T1|exact T2|reflexivity].
    + injection H as <-. destruct b; apply G; auto; cbn [forallb fscoped]; rewrite T1; exact T2.
    + destruct (lock w t m) as [w1|] eqn:K; [|discriminate]. injection H as <-. apply (inv_lock w t m w1 (Exec (Scoped m s))); [exact I|exact E|exact K|split; [exact T1|exact T2]].
    + injection H as <-. apply G; [apply T1|cbn [forallb fscoped]; rewrite (proj2 T1); exact T2|reflexivity].
    + injection H as <-. apply G; auto.
    + injection H as <-. apply G; auto.
  - destruct ks as [|k ks]; [discriminate|]. cbn [forallb] in T2. apply andb_prop in T2. destruct T2 as [T2 T3]. destruct k as [s|s|m|m|s]; cbn [fscoped] in T2; try discriminate T2; injection H as <-; try (apply G; auto; fail). apply inv_unlock; assumption.
  - destruct ks as [|k ks]; [discriminate|]. cbn [forallb] in T2. apply andb_prop in T2. destruct T2 as [T2 T3]. destruct k as [s|s|m|m|s]; cbn [fscoped] in T2; try discriminate T2; injection H as <-; try (apply G; auto; fail). apply inv_unlock; assumption.
  - destruct ks as [|k ks]; [discriminate|]. cbn [forallb] in T2. apply andb_prop in T2. destruct T2 as [T2 T3]. destruct k as [s|s|m|m|s]; cbn [fscoped] in T2; try discriminate T2; injection H as <-; try (apply G; auto; fail). apply inv_unlock; assumption.
Qed.
Lemma run_inv es : forall w w', INV w -> run w es = Some w' -> INV w'.
Proof. induction es as [|[t b] es IH]; intros w w' I R; cbn [run] in R; [injection R as <-; exact I|]. destruct (step w t b) as [w1|] eqn:E; [|discriminate]. exact (IH w1 w' (step_inv _ _ _ _ I E) R). Qed.
Lemma start_nth ps t p : nth_error (threads (start ps)) t = Some p -> exists s, nth_error ps t = Some s /\ p = (Exec s, []).
Proof. unfold start. cbn [threads]. rewrite nth_error_map. destruct (nth_error ps t) as [s|]; [|discriminate]. intros H. injection H as <-. exists s. auto. Qed.
Lemma start_inv ps : (forall s, In s ps -> scoped s = true) -> INV (start ps).
Proof.
  intros H. split; [|split; [|split]].
  - intros t p E. apply start_nth in E. destruct E as (s & N & ->). split; [exact (H _ (nth_error_In _ _ N))|reflexivity].
  - intros t m. unfold inside. destruct (nth_error (threads (start ps)) t) as [p|] eqn:E; [|reflexivity]. apply start_nth in E. destruct E as (s & _ & ->). reflexivity.
  - intros m h d E. discriminate.
  - reflexivity.
Qed.

(** A thread holds a mutex exactly as often as it is within a block with a ScopedLock of it; no two threads are within
    such blocks at a time; lockcnt() is how often the mutex is held. *)
Theorem C119_held : forall ps es w, (forall s, In s ps -> scoped s = true) -> run (start ps) es = Some w -> forall m,
  (forall t, depth w t m = inside m w t) /\ (forall t u, inside m w t <> 0 -> inside m w u <> 0 -> t = u) /\
  ((forall t, inside m w t = 0) -> own w m = None /\ cnt w m = 0%Z) /\ (forall t, inside m w t <> 0 -> cnt w m = Z.of_nat (inside m w t)).
Proof.
  intros ps es w H R m. destruct (run_inv es _ _ (start_inv ps H) R) as (_ & B & C & D). split; [intros t; apply B|]. split; [|split].
  - intros t u T U. rewrite <- B in T, U. unfold depth in T, U. destruct (own w m) as [[h d]|]; [|congruence]. destruct (Nat.eqb_spec h t), (Nat.eqb_spec h u); congruence.
  - intros Z0. specialize (D m). destruct (own w m) as [[h d]|] eqn:O; [|auto]. exfalso. specialize (B h m). rewrite Z0 in B. unfold depth in B. rewrite O, Nat.eqb_refl in B. exact (C _ _ _ O B).
  - intros t T. rewrite D. rewrite <- B in *. unfold depth in *. destruct (own w m) as [[h d]|]; [|congruence]. destruct (h =? t); [reflexivity|congruence].
Qed.
Print Assumptions C119_held.

(** A thread that is over, at its end, by a return or by an exception that nobody caught, holds no mutex; and when all
    are over every mutex is free and its lockcnt() is 0. *)
Theorem C119_released : forall ps es w, (forall s, In s ps -> scoped s = true) -> run (start ps) es = Some w ->
  (forall t m, over w t -> depth w t m = 0) /\ ((forall t, t < length (threads w) -> over w t) -> forall m, own w m = None /\ cnt w m = 0%Z).
Proof.
  intros ps es w H R. assert (forall t m, over w t -> inside m w t = 0) as Z0 by (intros t m (c & E & _); rewrite (inside_at m w t c [] E); reflexivity). split.
  - intros t m O. rewrite (proj1 (C119_held ps es w H R m)). exact (Z0 t m O).
  - intros A m. apply (C119_held ps es w H R m). intros t. destruct (Nat.lt_ge_cases t (length (threads w))) as [L|L]; [apply Z0, A, L|]. unfold inside. rewrite (proj2 (nth_error_None _ _) L). reflexivity.
Qed.
Print Assumptions C119_released.

(** ** Order *)
Fixpoint heldby (ks : list frame) : list nat := match ks with [] => [] | KScope m :: ks => m :: heldby ks | _ :: ks => heldby ks end.
Fixpoint kordered (ks : list frame) : bool := match ks with [] => true | k :: r => (match k with KSeq s | KLoop s | KTry s => ordered (heldby r) s | _ => true end) && kordered r end.
Definition tordered (p : control * list frame) : Prop := match fst p with Exec s => ordered (heldby (snd p)) s = true | _ => True end /\ kordered (snd p) = true.
Definition ORD (w : world) : Prop := forall t p, nth_error (threads w) t = Some p -> tordered p.
Lemma ord_goto w t c ks ths : threads w = ths -> t < length ths -> (forall u p, nth_error ths u = Some p -> tordered p) -> tordered (c, ks) -> ORD (goto w t c ks).
Proof.
  intros <- L H T u p. unfold goto. cbn [threads]. destruct (Nat.eq_dec u t) as [->|D]; [rewrite nth_error_upd_eq by exact L; intros E; injection E as <-; exact T|rewrite nth_error_upd_neq by congruence; apply H].
Qed.
Lemma step_ord w t b w' : INV w -> ORD w -> step w t b = Some w' -> ORD w'.
Proof.
  intros I0 I H. unfold step in H. destruct (nth_error (threads w) t) as [[c ks]|] eqn:E; [|discriminate]. pose proof (I _ _ E) as [T1 T2]. pose proof (proj1 I0 _ _ E) as [U1 U2]. cbn [fst snd] in T1, T2, U1, U2. pose proof (nth_lt _ _ _ E) as L.
  assert (forall c' ks', tordered (c', ks') -> ORD (goto w t c' ks')) as G by (intros c' ks' X; apply (ord_goto w t c' ks' _ eq_refl); [exact L|exact I|exact X]).
  assert (forall m c' ks', tordered (c', ks') -> ORD (goto (unlock w t m) t c' ks')) as GU by (intros m c' ks' X; apply (ord_goto (unlock w t m) t c' ks' (threads w) eq_refl); [exact L|exact I|exact X]).
  destruct c as [s| | |].
  - destruct s as [|s s'|s s'|s|m s|m s|m s|s s'| |]; cbn [cscoped scoped] in U1; try discriminate U1; cbn [ordered] in T1; try apply andb_prop in T1.
    + injection H as <-. apply G. split; [exact Logic.I|exact T2].
    + injection H as <-. apply G. split; [apply T1|cbn [snd kordered]; rewrite (proj2 T1); exact T2].
    + injection H as <-. apply G. split; [destruct b; apply T1|exact T2].
    + injection H as <-. destruct b; apply G; (split; [|cbn [snd kordered]; rewrite ?T1; exact T2]); [exact T1|exact Logic.I].
    + destruct (lock w t m) as [w1|] eqn:K; [|discriminate]. injection H as <-. apply lock_cases in K. destruct K as (Th & _). apply (ord_goto _ t _ _ (threads w) Th); [exact L|exact I|]. split; [apply T1|exact T2].
    + injection H as <-. apply G. split; [apply T1|cbn [snd kordered]; rewrite (proj2 T1); exact T2].
    + injection H as <-. apply G. split; [exact Logic.I|exact T2].
    + injection H as <-. apply G. split; [exact Logic.I|exact T2].
  - destruct ks as [|k ks]; [discriminate|]. cbn [kordered] in T2. apply andb_prop in T2. destruct T2 as [T2 T3]. destruct k as [s|s|m|m|s]; injection H as <-; first [apply GU|apply G]; (split; [first [exact Logic.I|exact T2]|exact T3]).
  - destruct ks as [|k ks]; [discriminate|]. cbn [kordered] in T2. apply andb_prop in T2. destruct T2 as [T2 T3]. destruct k as [s|s|m|m|s]; injection H as <-; first [apply GU|apply G]; (split; [first [exact Logic.I|exact T2]|exact T3]).
  - destruct ks as [|k ks]; [discriminate|]. cbn [kordered] in T2. apply andb_prop in T2. destruct T2 as [T2 T3]. destruct k as [s|s|m|m|s]; injection H as <-; first [apply GU|apply G]; (split; [first [exact Logic.I|exact T2]|exact T3]).
Qed.
Lemma run_ord es : forall w w', INV w -> ORD w -> run w es = Some w' -> ORD w'.
Proof. induction es as [|[t b] es IH]; intros w w' I O R; cbn [run] in R; [injection R as <-; exact O|]. destruct (step w t b) as [w1|] eqn:E; [|discriminate]. exact (IH w1 w' (step_inv _ _ _ _ I E) (step_ord _ _ _ _ I O E) R). Qed.
Lemma scopes_held m ks : scopes m ks <> 0 <-> In m (heldby ks).
Proof.
  unfold scopes. induction ks as [|k ks IH]; [split; [intros H; contradiction H; reflexivity|intros []]|]. cbn [filter heldby]. destruct k as [s|s|j|j|s]; cbn [is_scope]; try exact IH. cbn [In]. destruct (Nat.eqb_spec j m) as [->|J]; cbn [length]; [split; [auto|discriminate]|]. rewrite IH. split; [auto|intros [K|K]; [contradiction|exact K]].
Qed.
(** The mutex a thread waits for. *)
Definition wants (w : world) (t m : nat) : Prop := exists s ks, nth_error (threads w) t = Some (Exec (Scoped m s), ks) /\ lock w t m = None.
Lemma stuck_wants w t : INV w -> t < length (threads w) -> ~ over w t -> (forall b, step w t b = None) -> exists m, wants w t m.
Proof.
  intros I L N S1. destruct (nth_error (threads w) t) as [[c ks]|] eqn:E; [|apply nth_error_None in E; lia]. pose proof (proj1 I _ _ E) as [U1 U2]. cbn [fst snd] in U1, U2. specialize (S1 true). unfold step in S1. rewrite E in S1. destruct c as [s| | |].
  - destruct s as [|s s'|s s'|s|m s|m s|m s|s s'| |]; cbn [cscoped scoped] in U1; try discriminate U1; try discriminate S1. exists m, s, ks. split; [exact E|]. destruct (lock w t m); [discriminate|reflexivity].
  - destruct ks as [|k ks]; [contradiction N; exists Norm; split; [exact E|discriminate]|]. destruct k; discriminate.
  - destruct ks as [|k ks]; [contradiction N; exists Exc; split; [exact E|discriminate]|]. destruct k; discriminate.
  - destruct ks as [|k ks]; [contradiction N; exists Ret; split; [exact E|discriminate]|]. destruct k; discriminate.
Qed.
(** Who waits for [m] waits for a thread that, if it waits too, waits for a greater one. *)
Lemma chain w t m : INV w -> ORD w -> wants w t m -> exists h, h < length (threads w) /\ ~ over w h /\ forall j, wants w h j -> m < j.
Proof.
  intros I O (s & ks & E & K). unfold lock in K. destruct (own w m) as [[h d]|] eqn:Ow; [|discriminate]. destruct (Nat.eqb_spec h t) as [|Ht]; [discriminate|]. destruct I as (A & B & C & D). pose proof (B h m) as Bh. unfold depth in Bh. rewrite Ow, Nat.eqb_refl in Bh. pose proof (C _ _ _ Ow) as Dn.
  unfold inside in Bh. destruct (nth_error (threads w) h) as [[c ks']|] eqn:Eh; [|congruence]. exists h. split; [exact (nth_lt _ _ _ Eh)|]. split; [intros (c' & X & _); rewrite Eh in X; injection X as -> ->; cbn in Bh; congruence|].
  assert (In m (heldby ks')) as Hm by (apply scopes_held; unfold scopes; congruence).
  intros j (s' & ks2 & X & K2). rewrite Eh in X. injection X as -> <-. destruct (O _ _ Eh) as [O1 _]. cbn [fst snd ordered] in O1. apply andb_prop in O1. destruct O1 as [O1 _]. apply orb_prop in O1. destruct O1 as [O1|O1].
  - exfalso. apply existsb_exists in O1. destruct O1 as (x & Ix & Ex). apply Nat.eqb_eq in Ex. subst x. apply scopes_held in Ix. pose proof (B h j) as Bj. unfold inside in Bj. rewrite Eh in Bj. unfold depth in Bj. unfold lock in K2. destruct (own w j) as [[hh dd]|]; [|discriminate]. destruct (hh =? h); [discriminate|]. unfold scopes in Ix. congruence.
  - rewrite forallb_forall in O1. specialize (O1 m Hm). lia.
Qed.

(** If all programs lock the mutexes in ascending order there is no deadlock: while some thread is not over, some thread
    can go on. *)
Theorem C119_progress : forall ps es w, (forall s, In s ps -> scoped s = true /\ ordered [] s = true) -> run (start ps) es = Some w ->
  (exists t, t < length (threads w) /\ ~ over w t) -> exists t b w', step w t b = Some w'.
Proof.
  intros ps es w H R (t & L & N). pose proof (start_inv ps (fun s I => proj1 (H s I))) as I0. pose proof (run_inv es _ _ I0 R) as I.
  assert (ORD (start ps)) as O0 by (intros u p E; apply start_nth in E; destruct E as (s & Ns & ->); split; [exact (proj2 (H _ (nth_error_In _ _ Ns)))|reflexivity]). pose proof (run_ord es _ _ I0 O0 R) as O.
  assert (forall u, (exists b w', step w u b = Some w') \/ forall b, step w u b = None) as DEC.
  { intros u. destruct (step w u true) as [x|] eqn:S1; [left; exists true, x; exact S1|]. destruct (step w u false) as [x|] eqn:S2; [left; exists false, x; exact S2|]. right. intros [|]; assumption. }
  (* all mutexes wanted are below a bound *)
  assert (exists M, forall u m, wants w u m -> m < M) as (M & BM).
  { assert (forall l : list (control * list frame), exists M, forall u m s ks, nth_error l u = Some (Exec (Scoped m s), ks) -> m < M) as X.
    { induction l as [|p l (M & IH)]; [exists 0; intros [|u] m s ks X; discriminate|]. exists (match p with (Exec (Scoped m _), _) => Nat.max M (S m) | _ => M end). intros [|u] m s ks X; cbn [nth_error] in X; [injection X as ->; lia|]. apply IH in X. destruct p as [[[]| | |] ?]; lia. }
    destruct (X (threads w)) as (M & X1). exists M. intros u m (s & ks & E & _). exact (X1 _ _ _ _ E). }
  assert (forall k u, u < length (threads w) -> ~ over w u -> (forall j, wants w u j -> M - k <= j) -> exists t b w', step w t b = Some w') as G; [|apply (G M t L N); intros j _; lia].
  induction k as [|k IH]; intros u Lu Nu W0; (destruct (DEC u) as [(b & w' & S1)|S1]; [exists u, b, w'; exact S1|]); destruct (stuck_wants w u I Lu Nu S1) as (m & Wm); [specialize (W0 m Wm); specialize (BM u m Wm); lia|].
  destruct (chain w u m I O Wm) as (h & Lh & Nh & Gh). apply (IH h Lh Nh). intros j Wj. specialize (Gh j Wj). specialize (W0 m Wm). lia.
Qed.
Print Assumptions C119_progress.

(** ** Defects *)
(** With lock() and unlock() instead: an exception, or a return, leaves the mutex locked after the end of the thread,
    and another thread waits for ever. *)
Theorem C119_bare_refuted : exists es w, run (start [Bare 0 Throw; Scoped 0 Act]) es = Some w /\ over w 0 /\ depth w 0 0 = 1 /\ ~ over w 1 /\ forall t b, step w t b = None.
Proof.
  exists [(0, true); (0, true); (0, true)]. eexists. split; [vm_compute; reflexivity|]. split; [exists Exc; split; [reflexivity|discriminate]|]. split; [reflexivity|]. split; [intros (c & E & N); injection E as <-; exact (N _ eq_refl)|].
  intros [|[|t]] b; [reflexivity|reflexivity|]. unfold step. cbn [threads goto]. destruct t; reflexivity.
Qed.
Print Assumptions C119_bare_refuted.
(** Two threads that lock two mutexes in different order can stop for ever. *)
Theorem C119_order_refuted : exists es w, run (start [Scoped 0 (Scoped 1 Act); Scoped 1 (Scoped 0 Act)]) es = Some w /\ ~ over w 0 /\ ~ over w 1 /\ forall t b, step w t b = None.
Proof.
  exists [(0, true); (1, true)]. eexists. split; [vm_compute; reflexivity|]. split; [intros (c & E & N); injection E as <-; exact (N _ eq_refl)|]. split; [intros (c & E & N); injection E as <-; exact (N _ eq_refl)|].
  intros [|[|t]] b; [reflexivity|reflexivity|]. unfold step. cbn [threads goto]. destruct t; reflexivity.
Qed.
Print Assumptions C119_order_refuted.
(** A ScopedLock can be copied, and then unlocks twice: two threads are within blocks of the same mutex; and after the
    end of all lockcnt() is -1. *)
Theorem C119_copy_refuted : (exists es w, run (start [Scoped 0 (Seq (Copied 0 Act) Act); Scoped 0 Act]) es = Some w /\ inside 0 w 0 = 1 /\ inside 0 w 1 = 1) /\
  exists es w, run (start [Copied 0 Act]) es = Some w /\ over w 0 /\ own w 0 = None /\ cnt w 0 = (-1)%Z.
Proof.
  split.
  - exists [(0, true); (0, true); (0, true); (0, true); (0, true); (0, true); (1, true)]. eexists. split; [vm_compute; reflexivity|]. split; reflexivity.
  - exists [(0, true); (0, true); (0, true); (0, true)]. eexists. split; [vm_compute; reflexivity|]. split; [exists Norm; split; [reflexivity|discriminate]|]. split; reflexivity.
Qed.
Print Assumptions C119_copy_refuted.

(** ** Examples *)
(** A throw through two blocks into a catch within a third, and another thread in between. *)
Example C119_ex : exists w, run (start [Scoped 0 (Try (Scoped 1 (Scoped 2 (Seq Throw Act))) (Scoped 1 Return)); Scoped 1 Act])
  [(0, true); (0, true); (0, true); (0, true); (0, true); (0, true); (0, true); (0, true); (0, true); (1, true); (1, true); (1, true); (0, true); (0, true); (0, true); (0, true); (0, true)] = Some w /\ over w 1 /\ own w 2 = None /\ cnt w 1 = 0%Z.
Proof. eexists. split; [vm_compute; reflexivity|]. split; [exists Norm; split; [reflexivity|discriminate]|]. split; reflexivity. Qed.
Example C119_ex_ordered : ordered [] (Scoped 0 (Try (Scoped 1 (Scoped 0 (Seq Throw Act))) (Scoped 1 Return))) = true /\ ordered [] (Scoped 1 (Scoped 0 Act)) = false.
Proof. split; reflexivity. Qed.
Example C119_ex_recursive : exists w, run (start [Scoped 0 (Scoped 0 Act)]) [(0, true); (0, true)] = Some w /\ own w 0 = Some (0, 2) /\ cnt w 0 = 2%Z /\ inside 0 w 0 = 2.
Proof. eexists. split; [vm_compute; reflexivity|]. repeat split. Qed.
