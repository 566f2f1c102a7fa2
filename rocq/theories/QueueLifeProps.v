(** C120: the life of queues and who deletes what is in them. *)
From Coq Require Import Permutation.
From Verif Require Import Base BaseFacts QueueLifeModel.
Local Open Scope nat_scope.

(** ** What is claimed *)
Definition alive (w : world) (i : nat) : Prop := exists q, nth_error (queues w) i = Some (Some q).
(** The elements that are the user's: made or taken, and not written or deleted since. *)
Definition next (mine : list nat) (o : op) (r : out) : list nat :=
  match o, r with
  | Make, Number x => x :: mine
  | Take _, Item (Some x) => x :: mine
  | Write _ x, _ | Delete x, _ => remove Nat.eq_dec x mine
  | _, _ => mine
  end.
(** The rules: queues are used while they are there, are not copied, and are destroyed after those connected to them;
    the user writes and deletes what is his. *)
Definition unused (w : world) (i : nat) : Prop := forall k q, k <> i -> nth_error (queues w) k = Some (Some q) -> lockof q <> i.
Definition allowed (w : world) (mine : list nat) (o : op) : Prop :=
  match o with
  | New | Make => True
  | Copy _ | Assign _ _ => False
  | Connect i j => alive w i /\ alive w j
  | Destroy i => alive w i /\ unused w i
  | Clear i | Flush i | Take i | Size i => alive w i
  | Write i x => alive w i /\ In x mine
  | Delete x => In x mine
  end.
(** Programs that keep the rules. *)
Inductive keeps : world -> list nat -> list op -> world -> list nat -> Prop :=
| keeps_nil w mine : keeps w mine [] w mine
| keeps_cons w mine o r w1 os w2 mine2 : allowed w mine o -> step w o = Ok (r, w1) -> keeps w1 (next mine o r) os w2 mine2 -> keeps w mine (o :: os) w2 mine2.
(** All that is in queues, and whether an element is there. *)
Definition content (q : option queue) : list nat := match q with Some q => items q | None => [] end.
Definition queued (w : world) : list nat := flat_map content (queues w).
Definition there (w : world) (x : nat) : Prop := nth_error (heap w) x = Some true.
Definition no_flush (os : list op) : Prop := forall i, ~ In (Flush i) os.

(** ** Lemmas *)
Lemma flat_map_upd (l : list (option queue)) i q q' : nth_error l i = Some q -> exists a b, flat_map content l = a ++ content q ++ b /\ flat_map content (upd l i q') = a ++ content q' ++ b.
Proof.
  revert i. induction l as [|x l IH]; intros [|i] E; try discriminate; cbn [nth_error upd flat_map] in *.
  - injection E as ->. exists [], (flat_map content l). auto.
  - destruct (IH i E) as (a & b & A & B). exists (content x ++ a), b. rewrite A, B, <- !app_assoc. auto.
Qed.
Lemma nth_lt {A} (l : list A) t p : nth_error l t = Some p -> t < length l.
Proof. intros H. apply nth_error_Some. congruence. Qed.
Lemma upd_cases {A} (l : list A) i x k y : nth_error (upd l i x) k = Some y -> (k = i /\ y = x) \/ (k <> i /\ nth_error l k = Some y).
Proof.
  destruct (Nat.eq_dec k i) as [->|D]; intros H; [|right; split; [exact D|rewrite nth_error_upd_neq in H by congruence; exact H]]. left. split; [reflexivity|].
  destruct (Nat.lt_ge_cases i (length l)) as [L|L]; [rewrite nth_error_upd_eq in H by exact L; congruence|]. assert (nth_error (upd l i x) i = None) as N by (apply nth_error_None; rewrite upd_length; exact L). congruence.
Qed.
(** All mutexes in use are there. *)
Definition LOCKS (w : world) : Prop := forall i q, nth_error (queues w) i = Some (Some q) -> alive w (lockof q).
(** Nothing is in two places, and all is there. *)
Definition OWNED (w : world) (mine : list nat) : Prop := NoDup (mine ++ queued w) /\ forall x, In x (mine ++ queued w) -> there w x.
Definition ALL (w : world) (mine : list nat) : Prop := forall x, there w x -> In x (mine ++ queued w).
Lemma locked_ok w i q : LOCKS w -> nth_error (queues w) i = Some (Some q) -> locked w i = Ok q.
Proof. intros L E. unfold locked, find_queue. rewrite E. cbn [bind]. destruct (L i q E) as (p & P). rewrite P. reflexivity. Qed.
Lemma alive_upd w i q k h : (exists q0, nth_error (queues w) i = Some (Some q0)) -> alive w k -> alive (W (upd (queues w) i (Some q)) h) k.
Proof.
  intros (q0 & E) (p & P). unfold alive. cbn [queues]. destruct (Nat.eq_dec k i) as [->|D]; [exists q; apply nth_error_upd_eq; exact (nth_lt _ _ _ E)|exists p; rewrite nth_error_upd_neq by congruence; exact P].
Qed.
Lemma delete_all_ok l : forall h, NoDup l -> (forall x, In x l -> nth_error h x = Some true) -> exists h', delete_all h l = Ok h' /\ length h' = length h /\ forall x, nth_error h' x = if in_dec Nat.eq_dec x l then Some false else nth_error h x.
Proof.
  induction l as [|a l IH]; intros h N T; [exists h; split; [reflexivity|split; [reflexivity|]]; intros x; destruct (in_dec Nat.eq_dec x []) as [[]|]; reflexivity|]. inversion N as [|? ? Na Nl]; subst.
  cbn [delete_all]. unfold delete. rewrite (T a) by (left; reflexivity). cbn [bind]. pose proof (nth_lt _ _ _ (T a (or_introl eq_refl))) as La. destruct (IH (upd h a false) Nl) as (h' & E & L & S1).
  - intros x I. rewrite nth_error_upd_neq by (intros ->; contradiction). apply T. right. exact I.
  - exists h'. split; [exact E|]. split; [rewrite L; apply upd_length|]. intros x. rewrite S1. destruct (in_dec Nat.eq_dec x l) as [I|I]; destruct (in_dec Nat.eq_dec x (a :: l)) as [J|J]; try reflexivity.
    + contradiction J. right. exact I.
    + destruct J as [->|J]; [apply nth_error_upd_eq; exact La|contradiction].
    + apply nth_error_upd_neq. intros ->. apply J. left. reflexivity.
Qed.
Lemma remove_perm x l : NoDup l -> In x l -> Permutation l (x :: remove Nat.eq_dec x l).
Proof.
  induction l as [|a l IH]; intros N I; [contradiction|]. inversion N as [|? ? Na Nl]; subst. cbn [remove]. destruct (Nat.eq_dec x a) as [->|D].
  - rewrite notin_remove by exact Na. reflexivity.
  - destruct I as [->|I]; [congruence|]. rewrite (IH Nl I) at 1. apply perm_swap.
Qed.
Lemma app_nodup_l {A} (a b : list A) : NoDup (a ++ b) -> NoDup a.
Proof. induction a as [|x a IH]; intros N; [constructor|]. inversion N as [|? ? X Y]; subst. constructor; [intros I; apply X, in_or_app; auto|exact (IH Y)]. Qed.
(** The places after a step, as a permutation of those before with some taken away. *)
Lemma owned_perm w mine w' mine' gone : OWNED w mine -> Permutation (mine ++ queued w) (gone ++ mine' ++ queued w') -> (forall x, ~ In x gone -> there w x -> there w' x) -> OWNED w' mine'.
Proof.
  intros [N T] P K. pose proof (Permutation_NoDup P N) as N2. split.
  - clear - N2. induction gone as [|g gone IH]; [exact N2|]. inversion N2; subst. auto.
  - intros x I. apply K; [|apply T; apply (Permutation_in _ (Permutation_sym P)); apply in_or_app; right; exact I]. intros G. clear - N2 G I. induction gone as [|g gone IH]; [contradiction|]. cbn [app] in N2. inversion N2 as [|? ? X Y]; subst. destruct G as [->|G]; [apply X, in_or_app; right; exact I|exact (IH Y G)].
Qed.
Lemma all_perm w mine w' mine' gone : ALL w mine -> Permutation (mine ++ queued w) (gone ++ mine' ++ queued w') -> (forall x, there w' x -> there w x /\ ~ In x gone) -> ALL w' mine'.
Proof.
  intros A P K x T. destruct (K x T) as [T1 G]. apply A in T1. apply (Permutation_in _ P) in T1. apply in_app_or in T1. destruct T1 as [T1|T1]; [contradiction|exact T1].
Qed.

(** ** A step by the rules *)
Lemma step_keeps w mine o : LOCKS w -> OWNED w mine -> allowed w mine o ->
  exists r w', step w o = Ok (r, w') /\ LOCKS w' /\ OWNED w' (next mine o r) /\ (ALL w mine -> (forall i, o <> Flush i) -> ALL w' (next mine o r)).
Proof.
  intros L O A. pose proof O as [N T]. destruct o as [|j|i j|i j|i|i|i|i x|i|i| |x]; cbn [allowed] in A; try contradiction; cbn [step].
  - (* New *) eexists _, _. split; [reflexivity|]. assert (queued (W (queues w ++ [Some (Q [] (length (queues w)))]) (heap w)) = queued w) as Qd by (unfold queued; cbn [queues]; rewrite flat_map_app; cbn [flat_map content items app]; apply app_nil_r). split; [|split].
    + intros k q E. cbn [queues] in E. assert (forall m, alive w m -> alive (W (queues w ++ [Some (Q [] (length (queues w)))]) (heap w)) m) as AL by (intros m (p & P); exists p; cbn [queues]; rewrite nth_error_app1 by exact (nth_lt _ _ _ P); exact P).
      destruct (Nat.lt_ge_cases k (length (queues w))) as [K|K]; [rewrite nth_error_app1 in E by exact K; apply AL, (L k q E)|]. rewrite nth_error_app2 in E by exact K. destruct (k - length (queues w)) as [|z]; [|destruct z; discriminate]. injection E as <-. cbn [lockof]. exists (Q [] (length (queues w))). cbn [queues]. rewrite nth_error_app2, Nat.sub_diag by lia. reflexivity.
    + unfold OWNED. rewrite Qd. exact O.
    + intros AL _. unfold ALL. rewrite Qd. exact AL.
  - (* Connect *) destruct A as ((p & P) & (q & Eq)). unfold find_queue. rewrite P, Eq. cbn [bind]. eexists _, _. split; [reflexivity|]. destruct (flat_map_upd (queues w) i _ (Some (Q (items p) (lockof q))) P) as (a & b & F1 & F2).
    assert (queued (set_queue w i (Some (Q (items p) (lockof q)))) = queued w) as Qd by (unfold queued, set_queue; cbn [queues]; rewrite F1, F2; reflexivity). split; [|split].
    + intros k r E. apply upd_cases in E. destruct E as [(-> & E)|(D & E)]; [injection E as ->; cbn [lockof]|]; apply alive_upd; try (exists p; exact P); [exact (L j q Eq)|exact (L k r E)].
    + unfold OWNED. rewrite Qd. exact O.
    + intros AL _. unfold ALL. rewrite Qd. exact AL.
  - (* Destroy *) destruct A as ((p & P) & U). rewrite (locked_ok w i p L P). cbn [bind]. destruct (flat_map_upd (queues w) i _ None P) as (a & b & F1 & F2). cbn [content app] in F1, F2.
    assert (Permutation (mine ++ queued w) (items p ++ mine ++ queued (W (upd (queues w) i None) (heap w)))) as PM by (unfold queued; cbn [queues]; rewrite F1, F2, !app_assoc; apply Permutation_app_tail; rewrite <- (app_assoc (items p)); apply Permutation_app_comm).
    assert (NoDup (items p)) as Np by (apply (app_nodup_l _ (mine ++ queued (W (upd (queues w) i None) (heap w)))); exact (Permutation_NoDup PM N)).
    destruct (delete_all_ok (items p) (heap w) Np) as (h & E & Lh & S1); [intros x I; apply T; apply (Permutation_in _ (Permutation_sym PM)); apply in_or_app; left; exact I|]. rewrite E. cbn [bind]. change (queued (W (upd (queues w) i None) (heap w))) with (queued (W (upd (queues w) i None) h)) in PM. eexists _, _. split; [reflexivity|]. split; [|split].
    + intros k r Ek. apply upd_cases in Ek. destruct Ek as [(_ & Ek)|(D & Ek)]; [discriminate|]. destruct (L k r Ek) as (s & Es). exists s. cbn [queues]. rewrite nth_error_upd_neq; [exact Es|]. intros X. apply (U k r D Ek). congruence.
    + apply (owned_perm w mine _ _ (items p) O PM). intros x G Tx. unfold there. cbn [heap]. rewrite S1. destruct (in_dec Nat.eq_dec x (items p)); [contradiction|exact Tx].
    + intros AL _. apply (all_perm w mine _ _ (items p) AL PM). intros x Tx. unfold there in Tx. cbn [heap] in Tx. rewrite S1 in Tx. destruct (in_dec Nat.eq_dec x (items p)); [discriminate|auto].
  - (* Clear *) destruct A as (p & P). rewrite (locked_ok w i p L P). cbn [bind]. destruct (flat_map_upd (queues w) i _ (Some (Q [] (lockof p))) P) as (a & b & F1 & F2). cbn [content items app] in F1, F2.
    assert (Permutation (mine ++ queued w) (items p ++ mine ++ queued (W (upd (queues w) i (Some (Q [] (lockof p)))) (heap w)))) as PM by (unfold queued; cbn [queues]; rewrite F1, F2, !app_assoc; apply Permutation_app_tail; rewrite <- (app_assoc (items p)); apply Permutation_app_comm).
    assert (NoDup (items p)) as Np by (apply (app_nodup_l _ (mine ++ queued (W (upd (queues w) i (Some (Q [] (lockof p)))) (heap w)))); exact (Permutation_NoDup PM N)).
    destruct (delete_all_ok (items p) (heap w) Np) as (h & E & Lh & S1); [intros x I; apply T; apply (Permutation_in _ (Permutation_sym PM)); apply in_or_app; left; exact I|]. rewrite E. cbn [bind]. change (queued (W (upd (queues w) i (Some (Q [] (lockof p)))) (heap w))) with (queued (W (upd (queues w) i (Some (Q [] (lockof p)))) h)) in PM. eexists _, _. split; [reflexivity|]. split; [|split].
    + intros k r Ek. apply upd_cases in Ek. destruct Ek as [(-> & Ek)|(D & Ek)]; [injection Ek as ->; cbn [lockof]|]; apply alive_upd; try (exists p; exact P); [exact (L i p P)|exact (L k r Ek)].
    + apply (owned_perm w mine _ _ (items p) O PM). intros x G Tx. unfold there. cbn [heap]. rewrite S1. destruct (in_dec Nat.eq_dec x (items p)); [contradiction|exact Tx].
    + intros AL _. apply (all_perm w mine _ _ (items p) AL PM). intros x Tx. unfold there in Tx. cbn [heap] in Tx. rewrite S1 in Tx. destruct (in_dec Nat.eq_dec x (items p)); [discriminate|auto].
  - (* Flush *) destruct A as (p & P). rewrite (locked_ok w i p L P). cbn [bind]. destruct (flat_map_upd (queues w) i _ (Some (Q [] (lockof p))) P) as (a & b & F1 & F2). cbn [content items app] in F1, F2.
    assert (Permutation (mine ++ queued w) (items p ++ mine ++ queued (set_queue w i (Some (Q [] (lockof p)))))) as PM by (unfold queued, set_queue; cbn [queues]; rewrite F1, F2, !app_assoc; apply Permutation_app_tail; rewrite <- (app_assoc (items p)); apply Permutation_app_comm).
    eexists _, _. split; [reflexivity|]. split; [|split].
    + intros k r Ek. apply upd_cases in Ek. destruct Ek as [(-> & Ek)|(D & Ek)]; [injection Ek as ->; cbn [lockof]|]; apply alive_upd; try (exists p; exact P); [exact (L i p P)|exact (L k r Ek)].
    + apply (owned_perm w mine _ _ (items p) O PM). auto.
    + intros _ F. contradiction (F i). reflexivity.
  - (* Write *) destruct A as ((p & P) & I). rewrite (locked_ok w i p L P). cbn [bind next]. destruct (flat_map_upd (queues w) i _ (Some (Q (items p ++ [x]) (lockof p))) P) as (a & b & F1 & F2). cbn [content items] in F1, F2.
    assert (Permutation (mine ++ queued w) ([] ++ remove Nat.eq_dec x mine ++ queued (set_queue w i (Some (Q (items p ++ [x]) (lockof p)))))) as PM.
    { unfold queued, set_queue. cbn [queues app]. rewrite F1, F2. rewrite (remove_perm x mine) at 1; [|exact (app_nodup_l _ _ N)|exact I]. cbn [app]. rewrite <- app_assoc. cbn [app]. rewrite !app_assoc. apply Permutation_cons_app. rewrite <- !app_assoc. reflexivity. }
    eexists _, _. split; [reflexivity|]. split; [|split].
    + intros k r Ek. apply upd_cases in Ek. destruct Ek as [(-> & Ek)|(D & Ek)]; [injection Ek as ->; cbn [lockof]|]; apply alive_upd; try (exists p; exact P); [exact (L i p P)|exact (L k r Ek)].
    + apply (owned_perm w mine _ _ [] O PM). auto.
    + intros AL _. apply (all_perm w mine _ _ [] AL PM). auto.
  - (* Take *) destruct A as (p & P). rewrite (locked_ok w i p L P). cbn [bind]. destruct (items p) as [|x l] eqn:Ip.
    + eexists _, _. split; [reflexivity|]. auto.
    + destruct (flat_map_upd (queues w) i _ (Some (Q l (lockof p))) P) as (a & b & F1 & F2). cbn [content items] in F1, F2. rewrite Ip in F1.
      assert (Permutation (mine ++ queued w) ([] ++ (x :: mine) ++ queued (set_queue w i (Some (Q l (lockof p)))))) as PM.
      { unfold queued, set_queue. cbn [queues app]. rewrite F1, F2. cbn [app]. rewrite !app_assoc. symmetry. apply Permutation_cons_app. rewrite <- !app_assoc. reflexivity. }
      eexists _, _. split; [reflexivity|]. cbn [next]. split; [|split].
      * intros k r Ek. apply upd_cases in Ek. destruct Ek as [(-> & Ek)|(D & Ek)]; [injection Ek as ->; cbn [lockof]|]; apply alive_upd; try (exists p; exact P); [exact (L i p P)|exact (L k r Ek)].
      * apply (owned_perm w mine _ _ [] O PM). auto.
      * intros AL _. apply (all_perm w mine _ _ [] AL PM). auto.
  - (* Size *) destruct A as (p & P). rewrite (locked_ok w i p L P). cbn [bind]. eexists _, _. split; [reflexivity|]. auto.
  - (* Make *) eexists _, _. split; [reflexivity|]. cbn [next]. split; [exact L|]. assert (forall x, there w x -> there (W (queues w) (heap w ++ [true])) x) as TH by (intros x X; unfold there in *; cbn [heap]; rewrite nth_error_app1 by exact (nth_lt _ _ _ X); exact X). split.
    + split; [cbn [app]; constructor; [|exact N]|].
      * intros I. apply T in I. apply nth_lt in I. lia.
      * intros x [<-|I]; [|exact (TH x (T x I))]. unfold there. cbn [heap]. rewrite nth_error_app2, Nat.sub_diag by lia. reflexivity.
    + intros AL _ x X. unfold there in X. cbn [heap] in X. destruct (Nat.lt_ge_cases x (length (heap w))) as [K|K]; [rewrite nth_error_app1 in X by exact K; right; exact (AL x X)|]. rewrite nth_error_app2 in X by exact K. left. destruct (x - length (heap w)) as [|z] eqn:D; [lia|destruct z; discriminate].
  - (* Delete *) assert (there w x) as Tx by (apply T, in_or_app; left; exact A). unfold delete. unfold there in Tx. rewrite Tx. cbn [bind]. eexists _, _. split; [reflexivity|]. cbn [next]. pose proof (nth_lt _ _ _ Tx) as Lx.
    assert (Permutation (mine ++ queued w) ([x] ++ remove Nat.eq_dec x mine ++ queued (W (queues w) (upd (heap w) x false)))) as PM by (unfold queued at 2; cbn [queues]; fold (queued w); rewrite (remove_perm x mine) at 1; [reflexivity|exact (app_nodup_l _ _ N)|exact A]).
    split; [exact L|split].
    + apply (owned_perm w mine _ _ [x] O PM). intros y G Ty. unfold there. cbn [heap]. rewrite nth_error_upd_neq; [exact Ty|]. intros ->. apply G. left. reflexivity.
    + intros AL _. apply (all_perm w mine _ _ [x] AL PM). intros y Ty. apply upd_cases in Ty. destruct Ty as [(_ & Ty)|(D & Ty)]; [discriminate|]. split; [exact Ty|]. intros [->|[]]. congruence.
Qed.
Lemma keeps_inv w mine os w' mine' : keeps w mine os w' mine' -> LOCKS w -> OWNED w mine -> LOCKS w' /\ OWNED w' mine' /\ (ALL w mine -> no_flush os -> ALL w' mine').
Proof.
  induction 1 as [w mine|w mine o r w1 os w2 mine2 A E K IH]; intros L O; [auto|]. destruct (step_keeps w mine o L O A) as (r' & w' & E' & L' & O' & F'). rewrite E in E'. injection E' as <- <-. destruct (IH L' O') as (X & Y & Z). split; [exact X|split; [exact Y|]].
  intros AL NF. apply Z; [apply F'; [exact AL|]|]; intros i; [intros ->; apply (NF i); left; reflexivity|intros I; apply (NF i); right; exact I].
Qed.
Lemma world0_inv : LOCKS world0 /\ OWNED world0 [] /\ ALL world0 [].
Proof. split; [intros [|i] q E; discriminate|]. split; [split; [constructor|intros x []]|]. intros [|x] T; discriminate. Qed.

(** A program that keeps the rules can always go on: no call, and no destructor, is undefined. *)
Theorem C120_defined : forall os w mine o, keeps world0 [] os w mine -> allowed w mine o -> exists r w', step w o = Ok (r, w').
Proof.
  intros os w mine o K A. destruct world0_inv as (L0 & O0 & _). destruct (keeps_inv _ _ _ _ _ K L0 O0) as (L & O & _). destruct (step_keeps w mine o L O A) as (r & w' & E & _). exists r, w'. exact E.
Qed.
Print Assumptions C120_defined.

(** Every element that is the user's or in a queue is there, and it is in one place; if flushNoDelete is not called
    nothing else is there.  So each is deleted once, by the queue that has it when it is cleared or destroyed, or by the
    user; and when all queues are destroyed only what is the user's is left. *)
Theorem C120_owned : forall os w mine, keeps world0 [] os w mine ->
  NoDup (mine ++ queued w) /\ (forall x, In x (mine ++ queued w) -> there w x) /\ (no_flush os -> forall x, there w x -> In x (mine ++ queued w)) /\
  (no_flush os -> (forall i, ~ alive w i) -> forall x, there w x <-> In x mine).
Proof.
  intros os w mine K. destruct world0_inv as (L0 & O0 & A0). destruct (keeps_inv _ _ _ _ _ K L0 O0) as (L & (N & T) & A). split; [exact N|split; [exact T|split; [intros F; exact (A A0 F)|]]].
  intros F D x. assert (queued w = []) as Qe.
  { unfold queued. assert (forall q, In q (queues w) -> content q = []) as E by (intros [q|] I; [|reflexivity]; apply In_nth_error in I; destruct I as (i & I); contradiction (D i); exists q; exact I). revert E. generalize (queues w). induction l as [|q l IH]; intros E; [reflexivity|]. cbn [flat_map]. rewrite (E q) by (left; reflexivity). apply IH. intros r I. apply E. right. exact I. }
  specialize (A A0 F x). specialize (T x). rewrite Qe, app_nil_r in *. split; assumption.
Qed.
Print Assumptions C120_owned.

(** The queues of a program whose connections go to earlier queues can be destroyed in the reverse order, as local
    variables are: the last queue there is is used by no other. *)
Definition backwards (os : list op) : Prop := forall i j, In (Connect i j) os -> j <= i.
Theorem C120_reverse : forall os w mine i, keeps world0 [] os w mine -> backwards os -> alive w i -> (forall k, alive w k -> k <= i) -> allowed w mine (Destroy i).
Proof.
  intros os w mine i K B A M. split; [exact A|]. enough (forall w0 m0, keeps w0 m0 os w mine -> (forall k q, nth_error (queues w0) k = Some (Some q) -> lockof q <= k) -> forall k q, nth_error (queues w) k = Some (Some q) -> lockof q <= k) as G.
  { intros k q D E X. pose proof (G _ _ K ltac:(intros [|z] q0 E0; discriminate) k q E) as Y. assert (k <= i) as Z by (apply M; exists q; exact E). lia. }
  clear K A M i. intros w0 m0 K. induction K as [|w mine o r w1 os w2 mine2 A E K IH]; intros H; [exact H|]. apply IH; [intros i j I; apply B; right; exact I|]. clear IH K.
  assert (forall i p h k q, nth_error (queues w) i = Some (Some p) -> forall l, nth_error (queues (W (upd (queues w) i (Some (Q l (lockof p)))) h)) k = Some (Some q) -> lockof q <= k) as G.
  { intros i p h k q P l X. apply upd_cases in X. destruct X as [(-> & X)|(_ & X)]; [injection X as ->; exact (H i p P)|exact (H k q X)]. }
  assert (forall i q, locked w i = Ok q -> nth_error (queues w) i = Some (Some q)) as LK.
  { intros i q X. unfold locked, find_queue in X. destruct (nth_error (queues w) i) as [[p|]|]; try discriminate. cbn [bind] in X. destruct (nth_error (queues w) (lockof p)) as [[p2|]|]; try discriminate. cbn [bind] in X. injection X as ->. reflexivity. }
  destruct o as [|j|i j|i j|i|i|i|i x|i|i| |x]; cbn [allowed] in A; try contradiction; cbn [step] in E.
  - injection E as <- <-. intros k q X. cbn [queues] in X. destruct (Nat.lt_ge_cases k (length (queues w))) as [Y|Y]; [rewrite nth_error_app1 in X by exact Y; exact (H k q X)|]. rewrite nth_error_app2 in X by exact Y. destruct (k - length (queues w)) as [|z]; [|destruct z; discriminate]. injection X as <-. exact Y.
  - destruct A as ((p & P) & (q & Eq)). unfold find_queue in E. rewrite P, Eq in E. cbn [bind] in E. injection E as <- <-. intros k s X. apply upd_cases in X. destruct X as [(-> & X)|(_ & X)]; [injection X as ->; cbn [lockof]|exact (H k s X)]. pose proof (H j q Eq) as Y. pose proof (B i j (or_introl eq_refl)). lia.
  - destruct (locked w i) as [p| | |] eqn:P; try discriminate. cbn [bind] in E. destruct (delete_all (heap w) (items p)); try discriminate. cbn [bind] in E. injection E as <- <-. intros k q X. apply upd_cases in X. destruct X as [(_ & X)|(_ & X)]; [discriminate|exact (H k q X)].
  - destruct (locked w i) as [p| | |] eqn:P; try discriminate. cbn [bind] in E. destruct (delete_all (heap w) (items p)) as [h| | |]; try discriminate. cbn [bind] in E. injection E as <- <-. intros k q X. exact (G i p h k q (LK i p P) _ X).
  - destruct (locked w i) as [p| | |] eqn:P; try discriminate. cbn [bind] in E. injection E as <- <-. intros k q X. exact (G i p (heap w) k q (LK i p P) _ X).
  - destruct (locked w i) as [p| | |] eqn:P; try discriminate. cbn [bind] in E. injection E as <- <-. intros k q X. exact (G i p (heap w) k q (LK i p P) _ X).
  - destruct (locked w i) as [p| | |] eqn:P; try discriminate. cbn [bind] in E. destruct (items p) as [|x l]; injection E as <- <-; [exact H|]. intros k q X. exact (G i p (heap w) k q (LK i p P) _ X).
  - destruct (locked w i) as [p| | |] eqn:P; try discriminate. cbn [bind] in E. injection E as <- <-. exact H.
  - injection E as <- <-. exact H.
  - destruct (delete (heap w) x) as [h| | |]; try discriminate. cbn [bind] in E. injection E as <- <-. exact H.
Qed.
Print Assumptions C120_reverse.

(** ** Defects *)
(** Of two local queues the first is connected to the second: its destructor locks a mutex that is gone. *)
Theorem C120_connect_refuted : run world0 [New; New; Connect 0 1; Destroy 1; Destroy 0] = UB /\ exists w, run world0 [New; New; Connect 1 0; Destroy 1; Destroy 0] = Ok ([Number 0; Number 1; Nothing; Nothing; Nothing], w).
Proof. split; [vm_compute; reflexivity|]. eexists. vm_compute. reflexivity. Qed.
Print Assumptions C120_connect_refuted.
(** In general: once a queue is destroyed, no member of those still connected to it, or copied from it, can be called, and
    they cannot be destroyed. *)
Definition calls (i : nat) (o : op) : Prop := o = Destroy i \/ o = Clear i \/ o = Flush i \/ o = Take i \/ o = Size i \/ exists x, o = Write i x.
Theorem C120_dangling_refuted : forall w i q j w1 r o, nth_error (queues w) i = Some (Some q) -> i <> j -> lockof q = j -> step w (Destroy j) = Ok (r, w1) -> calls i o -> step w1 o = UB.
Proof.
  intros w i q j w1 r o E D J S1 C. assert (locked w1 i = UB) as U.
  { cbn [step] in S1. destruct (locked w j) as [p| | |] eqn:P; try discriminate. cbn [bind] in S1. destruct (delete_all (heap w) (items p)) as [h| | |]; try discriminate. cbn [bind] in S1. injection S1 as <- <-. unfold locked, find_queue. cbn [queues]. rewrite nth_error_upd_neq by congruence. rewrite E. cbn [bind]. rewrite J, nth_error_upd_eq; [reflexivity|].
    unfold locked, find_queue in P. destruct (nth_error (queues w) j) as [[?|]|] eqn:X; try discriminate. exact (nth_lt _ _ _ X). }
  destruct C as [->|[->|[->|[->|[->|(x & ->)]]]]]; cbn [step]; rewrite U; reflexivity.
Qed.
Print Assumptions C120_dangling_refuted.
(** A copy of a queue that is not empty: the end of both deletes the elements twice. *)
Theorem C120_copy_refuted : forall w j q, nth_error (queues w) j = Some (Some q) -> items q <> [] ->
  exists n w1, step w (Copy j) = Ok (Number n, w1) /\ run w1 [Destroy n; Destroy j] = UB.
Proof.
  intros w j q E N. pose proof (nth_lt _ _ _ E) as Lj. cbn [step]. unfold find_queue at 1. rewrite E. cbn [bind]. eexists _, _. split; [reflexivity|]. set (w1 := W (queues w ++ [Some q]) (heap w)). assert (find_queue w1 (length (queues w)) = Ok q) as F by (unfold find_queue, w1; cbn [queues]; rewrite nth_error_app2, Nat.sub_diag by lia; reflexivity).
  cbn [run step]. unfold locked at 1. rewrite F. cbn [bind]. destruct (find_queue w1 (lockof q)) as [s| | |] eqn:S1; try reflexivity; try (exfalso; unfold find_queue in S1; destruct (nth_error (queues w1) (lockof q)) as [[?|]|]; discriminate). cbn [bind]. destruct (delete_all (heap w1) (items q)) as [h| | |] eqn:D; cbn [bind].
  - cbn [fst snd]. set (w2 := W (upd (queues w1) (length (queues w)) None) h). assert (find_queue w2 j = Ok q) as F2 by (unfold find_queue, w2, w1; cbn [queues]; rewrite nth_error_upd_neq by lia; rewrite nth_error_app1 by exact Lj; rewrite E; reflexivity).
    unfold locked. rewrite F2. cbn [bind]. destruct (find_queue w2 (lockof q)) as [s2| | |] eqn:S2; try reflexivity; try (exfalso; unfold find_queue in S2; destruct (nth_error (queues w2) (lockof q)) as [[?|]|]; discriminate). cbn [bind heap w2].
    assert (forall l h h' x, delete_all h l = Ok h' -> nth_error h x <> Some true -> nth_error h' x <> Some true) as KEEP.
    { induction l as [|a l IH]; intros h0 h1 x X Y; cbn [delete_all] in X; [injection X as <-; exact Y|]. unfold delete in X. destruct (nth_error h0 a) as [[|]|]; try discriminate. cbn [bind] in X. apply (IH _ _ x X). intros Z. apply upd_cases in Z. destruct Z as [(_ & Z)|(_ & Z)]; [discriminate|contradiction]. }
    destruct (items q) as [|x l]; [contradiction N; reflexivity|]. cbn [delete_all] in D |- *. unfold delete in D at 1. destruct (nth_error (heap w1) x) as [[|]|] eqn:X; try discriminate. cbn [bind] in D. assert (nth_error h x <> Some true) as HX by (apply (KEEP l _ _ x D); rewrite nth_error_upd_eq by exact (nth_lt _ _ _ X); discriminate).
    unfold delete. destruct (nth_error h x) as [[|]|]; [congruence|reflexivity|reflexivity].
  - exfalso. clear -D. revert D. generalize (heap w1). induction (items q) as [|a l IH]; intros h D; cbn [delete_all] in D; [discriminate|]. unfold delete in D. destruct (nth_error h a) as [[|]|]; try discriminate. exact (IH _ D).
  - reflexivity.
  - exfalso. clear -D. revert D. generalize (heap w1). induction (items q) as [|a l IH]; intros h D; cbn [delete_all] in D; [discriminate|]. unfold delete in D. destruct (nth_error h a) as [[|]|]; try discriminate. exact (IH _ D).
Qed.
Print Assumptions C120_copy_refuted.
(** Even an empty copy locks the mutex of the original: it cannot be used once that is gone. *)
Theorem C120_outlives_refuted : run world0 [New; Copy 0; Destroy 0; Size 1] = UB /\ run world0 [New; New; Assign 0 1; Destroy 1; Destroy 0] = UB.
Proof. split; vm_compute; reflexivity. Qed.
Print Assumptions C120_outlives_refuted.
(** flushNoDelete loses the elements: they are there but no queue has them. *)
Theorem C120_flush_refuted : exists w, run world0 [New; Make; Write 0 0; Flush 0; Destroy 0] = Ok ([Number 0; Number 0; Nothing; Nothing; Nothing], w) /\ there w 0 /\ queued w = [].
Proof. eexists. split; [vm_compute; reflexivity|]. split; reflexivity. Qed.
Print Assumptions C120_flush_refuted.

(** ** Examples *)
(** Two connected queues, elements written, taken, passed on, and all destroyed in reverse order. *)
Definition tour : list op := [New; New; Connect 1 0; Make; Make; Make; Write 0 0; Write 0 1; Write 1 2; Take 0; Write 1 0; Size 1; Take 1; Delete 2; Destroy 1; Destroy 0].
Example C120_ex : exists w mine, keeps world0 [] tour w mine /\ mine = [] /\ heap w = [false; false; false].
Proof.
  eexists _, _. split; [|split; [|]].
  { unfold tour. repeat (eapply keeps_cons; [|vm_compute; reflexivity|]); [..|apply keeps_nil]; cbn [allowed next remove Nat.eq_dec]; repeat split; try (eexists; reflexivity); try (intros [|[|[|k]]] q D E; cbn in E; try discriminate; try (injection E as <-); try congruence; cbn; congruence); vm_compute; auto. }
  { reflexivity. }
  { reflexivity. }
Qed.
Example C120_ex_run : exists w, run world0 tour = Ok ([Number 0; Number 1; Nothing; Number 0; Number 1; Number 2; Nothing; Nothing; Nothing; Item (Some 0); Nothing; Number 2; Item (Some 2); Nothing; Nothing; Nothing], w).
Proof. eexists. vm_compute. reflexivity. Qed.
(** Three queues, connected each to the one before: all lock the mutex of the first. *)
Example C120_ex_three : exists w, run world0 [New; New; New; Connect 1 0; Connect 2 1] = Ok ([Number 0; Number 1; Number 2; Nothing; Nothing], w) /\ map (option_map lockof) (queues w) = [Some 0; Some 0; Some 0].
Proof. eexists. split; vm_compute; reflexivity. Qed.
