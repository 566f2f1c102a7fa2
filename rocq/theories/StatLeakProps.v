(** C130: static objects with a memory leak detector. *)
From Verif Require Import Base BaseFacts StatLeakModel.
From Coq Require Import Lia.
Local Open Scope Z_scope.

(** ** What the counters are to be *)
(** The static objects of a class. *)
Definition statics (c : nat) (l : list obj) : Z := Z.of_nat (length (filter (same (U c)) l)).
(** Constructions and destructions of a class in main. *)
Definition news (c : nat) (l : list op) : Z := Z.of_nat (length (filter (fun o => match o with New d => Nat.eqb c d | _ => false end) l)).
Definition dels (c : nat) (l : list op) : Z := Z.of_nat (length (filter (fun o => match o with Del d => Nat.eqb c d | _ => false end) l)).
Definition checked (l : list obj) : Prop := forall o, In o l -> exists c, o = U c.

(** ** Facts *)
Lemma use_in : forall s o, In o (stack s) -> use s o = Ok tt.
Proof.
  intros s o I. unfold use. replace (existsb (same o) (stack s)) with true; [reflexivity|]. symmetry. apply existsb_exists. exists o. split; [exact I|].
  destruct o; cbn [same]; auto. apply Nat.eqb_refl.
Qed.
Lemma use_checked : forall s o, checked (stack s) -> o = Stats \/ o = Lock -> use s o = UB.
Proof.
  intros s o C O. unfold use. destruct (existsb (same o) (stack s)) eqn:E; auto. exfalso. apply existsb_exists in E. destruct E as (x & I & Q). destruct (C x I) as (c & ->).
  destruct O as [O|O]; subst o; discriminate.
Qed.
Lemma lock_in : forall b s, In Lock (stack s) -> lock b s = Ok tt.
Proof. intros [|] s I; [apply use_in; exact I|reflexivity]. Qed.
Lemma put_eq : forall h c v x, put h c v x = if Nat.eqb x c then v else h x.
Proof. reflexivity. Qed.
Lemma builds_app : forall b x y s, builds b s (x ++ y) = (do s <- builds b s x; builds b s y).
Proof. induction x as [|o x IH]; intros y s; [reflexivity|]. cbn [app builds]. destruct (build b s o); cbn [bind]; auto. Qed.
Lemma statics_cons : forall c o l, statics c (o :: l) = (if same (U c) o then 1 else 0) + statics c l.
Proof. intros c o l. unfold statics. cbn [filter]. destruct (same (U c) o); cbn [length]; lia. Qed.
Lemma builds_ok : forall b d s, checked d -> (b = false \/ In Lock (stack s)) -> exists s', builds b s d = Ok s' /\ stack s' = rev d ++ stack s /\
  forall c, now s' c = now s c + statics c d /\ total s' c = total s c + statics c d.
Proof.
  intros b d. induction d as [|o d IH]; intros s C L; cbn [builds].
  - exists s. split; [reflexivity|]. split; [reflexivity|]. intros c. unfold statics. cbn. lia.
  - destruct (C o (or_introl eq_refl)) as (k & ->). cbn [build]. unfold new_. assert (LK : lock b s = Ok tt) by (destruct L as [-> | L]; [reflexivity|apply lock_in; exact L]). rewrite LK. cbn [bind stack now total].
    destruct (IH (State (U k :: stack s) (put (now s) k (now s k + 1)) (put (total s) k (total s k + 1)))) as (s' & E & S & N).
    { intros x I. apply C. right. exact I. } { destruct L as [L|L]; [left; exact L|right; right; exact L]. }
    exists s'. split; [exact E|]. cbn [stack now total] in S, N. split; [rewrite S; cbn [rev]; rewrite <- app_assoc; reflexivity|]. intros c. destruct (N c) as (-> & ->). rewrite statics_cons, !put_eq. cbn [same].
    destruct (Nat.eqb c k) eqn:Q; [apply Nat.eqb_eq in Q; subst; lia|lia].
Qed.
Lemma news_cons : forall c o l, news c (o :: l) = (match o with New d => if Nat.eqb c d then 1 else 0 | _ => 0 end) + news c l.
Proof. intros c [d|d] l; unfold news; cbn [filter]; [destruct (Nat.eqb c d); cbn [length]; lia|lia]. Qed.
Lemma dels_cons : forall c o l, dels c (o :: l) = (match o with Del d => if Nat.eqb c d then 1 else 0 | _ => 0 end) + dels c l.
Proof. intros c [d|d] l; unfold dels; cbn [filter]; [lia|destruct (Nat.eqb c d); cbn [length]; lia]. Qed.
Lemma ops_ok : forall b l s, In Stats (stack s) -> In Lock (stack s) -> exists s', ops b s l = Ok s' /\ stack s' = stack s /\
  forall c, now s' c = now s c + news c l - dels c l /\ total s' c = total s c + news c l.
Proof.
  intros b l. induction l as [|o l IH]; intros s S L; cbn [ops].
  - exists s. split; [reflexivity|]. split; [reflexivity|]. intros c. unfold news, dels. cbn. lia.
  - destruct o as [k|k]; unfold new_, del_; rewrite (lock_in b s L); cbn [bind].
    + destruct (IH (State (stack s) (put (now s) k (now s k + 1)) (put (total s) k (total s k + 1))) S L) as (s' & E & ST & N). exists s'. split; [exact E|]. split; [exact ST|]. cbn [now total] in N.
      intros c. destruct (N c) as (-> & ->). rewrite news_cons, dels_cons, !put_eq. destruct (Nat.eqb c k) eqn:Q; [apply Nat.eqb_eq in Q; subst; lia|lia].
    + rewrite use_in by exact S. cbn [bind]. destruct (IH (State (stack s) (put (now s) k (now s k - 1)) (total s)) S L) as (s' & E & ST & N). exists s'. split; [exact E|]. split; [exact ST|]. cbn [now total] in N.
      intros c. destruct (N c) as (-> & ->). rewrite news_cons, dels_cons, put_eq. destruct (Nat.eqb c k) eqn:Q; [apply Nat.eqb_eq in Q; subst; lia|lia].
Qed.
Lemma unwind_ok : forall b d s r, checked d -> In Stats r -> In Lock r -> exists s', unwind b s (d ++ r) = unwind b s' r /\
  forall c, now s' c = now s c - statics c d /\ total s' c = total s c.
Proof.
  intros b d. induction d as [|o d IH]; intros s r C S L; cbn [app].
  - exists s. split; [reflexivity|]. intros c. unfold statics. cbn. lia.
  - destruct (C o (or_introl eq_refl)) as (k & ->). cbn [unwind]. unfold del_. rewrite lock_in by (cbn [stack]; apply in_or_app; right; exact L). cbn [bind].
    rewrite use_in by (cbn [stack]; apply in_or_app; right; exact S). cbn [bind stack now total].
    destruct (IH (State (d ++ r) (put (now s) k (now s k - 1)) (total s)) r) as (s' & E & N); auto. { intros x I. apply C. right. exact I. }
    exists s'. split; [exact E|]. cbn [now total] in N. intros c. destruct (N c) as (-> & ->). rewrite statics_cons, put_eq. cbn [same]. destruct (Nat.eqb c k) eqn:Q; [apply Nat.eqb_eq in Q; subst; lia|lia].
Qed.
Lemma checked_rev : forall l, checked l -> checked (rev l).
Proof. intros l C o I. apply C. rewrite in_rev. exact I. Qed.
Lemma statics_rev : forall c l, statics c (rev l) = statics c l.
Proof.
  intros c l. induction l as [|o l IH]; [reflexivity|]. cbn [rev]. rewrite statics_cons, <- IH. unfold statics. rewrite filter_app, app_length. cbn [filter]. destruct (same (U c) o); cbn [length]; lia.
Qed.
(** Construction with objects before Utils.cpp's, if zeros work as a mutex: what they counted is gone. *)
Lemma builds_lenient : forall b a d, checked a -> checked d -> (b = false \/ a = []) -> exists s, builds b start (a ++ [Stats; Lock] ++ d) = Ok s /\ stack s = rev d ++ [Lock; Stats] ++ rev a /\
  forall c, now s c = statics c d /\ total s c = statics c d.
Proof.
  intros b a d CA CD B. rewrite builds_app. assert (X : exists s, builds b start a = Ok s /\ stack s = rev a).
  { destruct B as [-> | ->]; [|exists start; auto]. destruct (builds_ok false a start CA (or_introl eq_refl)) as (s & E & S & _). exists s. split; [exact E|]. rewrite S. cbn [start stack]. apply app_nil_r. }
  destruct X as (s & E & S). rewrite E. cbn [bind app builds build stack now total].
  destruct (builds_ok b d (State (Lock :: Stats :: stack s) (fun _ => 0) (fun _ => 0)) CD) as (s' & E' & S' & N). { right. left. reflexivity. }
  exists s'. split; [exact E'|]. split; [rewrite S'; cbn [stack]; rewrite S; reflexivity|]. intros c. destruct (N c) as (A & B'). cbn [now total] in A, B'. lia.
Qed.

(** ** C130 *)
(** If Utils.cpp's objects come first, nothing is undefined, at the start of main the counters are the numbers of static objects, and at the
    end mMemNow is what main has left behind. *)
Theorem C130_settled : forall b d main, checked d -> exists s1 s, builds b start ([Stats; Lock] ++ d) = Ok s1 /\ (forall c, now s1 c = statics c d /\ total s1 c = statics c d) /\
  run b ([Stats; Lock] ++ d) main = Ok s /\ forall c, now s c = news c main - dels c main /\ total s c = statics c d + news c main.
Proof.
  intros b d main C. destruct (builds_lenient b [] d ltac:(intros o []) C (or_intror eq_refl)) as (s1 & E1 & S1 & N1). cbn [app rev] in E1, S1. exists s1.
  destruct (ops_ok b main s1) as (s2 & E2 & S2 & N2). { rewrite S1. apply in_or_app. right. right. left. reflexivity. } { rewrite S1. apply in_or_app. right. left. reflexivity. }
  destruct (unwind_ok b (rev d) s2 [Lock; Stats] (checked_rev d C)) as (s3 & E3 & N3). { right. left. reflexivity. } { left. reflexivity. }
  exists (State [] (now s3) (total s3)). split; [exact E1|]. split; [exact N1|]. split.
  - unfold run. cbn [app]. rewrite E1. cbn [bind]. rewrite E2. cbn [bind]. rewrite S2, S1. rewrite E3. reflexivity.
  - intros c. cbn [now total]. destruct (N3 c) as (-> & ->), (N2 c) as (-> & ->), (N1 c) as (-> & ->). rewrite statics_rev. lia.
Qed.
(** Exactly then: a single static object constructed before memChkLock makes the program undefined. *)
Theorem C130_iff : forall a d main, checked a -> checked d -> (run true (a ++ [Stats; Lock] ++ d) main <> UB <-> a = []).
Proof.
  intros a d main CA CD. split.
  - intros R. destruct a as [|o a]; [reflexivity|]. exfalso. apply R. destruct (CA o (or_introl eq_refl)) as (c & ->). reflexivity.
  - intros ->. destruct (C130_settled true d main CD) as (s1 & s & _ & _ & R & _). cbn [app] in *. rewrite R. discriminate.
Qed.
(** Even where zeros work as a mutex the objects constructed before are not counted in main, as the constructor of gMemStats clears the
    counters; and their destructors use mMemMap after it is destroyed. *)
Theorem C130_cleared_refuted : forall a d main, checked a -> checked d -> a <> [] ->
  (exists s, builds false start (a ++ [Stats; Lock] ++ d) = Ok s /\ forall c, now s c = statics c d) /\ run false (a ++ [Stats; Lock] ++ d) main = UB.
Proof.
  intros a d main CA CD NA. destruct (builds_lenient false a d CA CD (or_introl eq_refl)) as (s1 & E1 & S1 & N1). split; [exists s1; split; [exact E1|]; intros c; apply N1|].
  unfold run. rewrite E1. cbn [bind].
  destruct (ops_ok false main s1) as (s2 & E2 & S2 & _). { rewrite S1. apply in_or_app. right. right. left. reflexivity. } { rewrite S1. apply in_or_app. right. left. reflexivity. }
  rewrite E2. cbn [bind]. rewrite S2, S1. destruct (unwind_ok false (rev d) s2 ([Lock; Stats] ++ rev a) (checked_rev d CD)) as (s3 & E3 & _). { right. left. reflexivity. } { left. reflexivity. }
  rewrite E3. cbn [app unwind]. assert (CR := checked_rev a CA). destruct (rev a) as [|o r] eqn:RA. { exfalso. apply NA. rewrite <- (rev_involutive a), RA. reflexivity. }
  destruct (CR o (or_introl eq_refl)) as (c & ->). cbn [unwind]. unfold del_. cbn [lock bind]. rewrite use_checked; [reflexivity| |left; reflexivity]. cbn [stack]. intros x I. apply CR. right. exact I.
Qed.

(** ** Examples *)
Example ex_settled : exists s, run true [Stats; Lock; U 1; U 2; U 1]%nat [New 1; New 3; Del 1]%nat = Ok s /\ now s 1%nat = 0 /\ total s 1%nat = 3 /\ now s 3%nat = 1 /\ now s 2%nat = 0.
Proof. eexists. split; [vm_compute; reflexivity|]. split; [reflexivity|]. split; [reflexivity|]. split; reflexivity. Qed.
Example ex_before : run true [U 1; Stats; Lock]%nat [] = UB /\ run false [U 1; Stats; Lock]%nat [] = UB /\
  exists s, builds false start [U 1; U 1; Stats; Lock; U 1]%nat = Ok s /\ now s 1%nat = 1.
Proof. split; [reflexivity|]. split; [reflexivity|]. eexists. split; [vm_compute; reflexivity|]. reflexivity. Qed.

Print Assumptions C130_settled.
Print Assumptions C130_iff.
Print Assumptions C130_cleared_refuted.
