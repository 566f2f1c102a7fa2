(** The search follows the meaning of the expressions. *)
From Verif Require Import Base BaseFacts UtilsModel SqlModel SqlProofs ConfigModel ConfigSpec RegexModel RegexSpec.
From Coq Require Import Lia.
Local Open Scope Z_scope.

Lemma in_class_spec k c : in_class k c = true <-> of_class k c.
Proof. destruct k; cbn [in_class of_class]; rewrite ?orb_true_iff, ?andb_true_iff, ?Z.leb_le, ?Z.eqb_eq; lia. Qed.
Lemma in_item_spec i c : in_item i c = true <-> of_item i c.
Proof.
  destruct i; cbn [in_item of_item]; [apply Z.eqb_eq| rewrite andb_true_iff, !Z.leb_le; reflexivity| apply in_class_spec].
Qed.
Lemma in_set_spec f c : in_set f c = true <-> of_set f c.
Proof.
  unfold in_set, of_set. destruct (neg f).
  - rewrite xorb_true_l, negb_true_iff, <- not_true_iff_false, existsb_exists. split.
    + intros H i I O. apply H. exists i. split; [exact I|]. apply in_item_spec, O.
    + intros H (i & I & O). apply (H i I), in_item_spec, O.
  - rewrite xorb_false_l, existsb_exists. split; intros (i & I & O); exists i; (split; [exact I|apply in_item_spec, O]).
Qed.

Lemma app_cut (a b c d : list Z) : a ++ b = c ++ d -> length a = length c -> a = c /\ b = d.
Proof.
  revert c. induction a as [|x a IH]; intros [|y c] E L; cbn in *; try discriminate; [auto|].
  injection E as -> E. injection L as L. destruct (IH _ E L) as [-> ->]. auto.
Qed.
Definition lead (t : list Z) (D : list Z -> list Z -> list Z -> Prop) (i j : nat) : Prop :=
  exists u v w, t = u ++ v ++ w /\ i = length u /\ j = (i + length v)%nat /\ D u v w.
Fixpoint pow (R : nat -> nat -> Prop) (k i j : nat) : Prop :=
  match k with O => i = j | S k => exists m, R i m /\ pow R k m j end.
Lemma lead_le t D i j : lead t D i j -> (i <= j <= length t)%nat.
Proof. intros (u & v & w & -> & -> & -> & _). rewrite !app_length. lia. Qed.
Lemma lead_comp t A B i j :
  lead t (fun u v w => exists x y, v = x ++ y /\ A u x (y ++ w) /\ B (u ++ x) y w) i j <-> exists m, lead t A i m /\ lead t B m j.
Proof.
  split.
  - intros (u & v & w & E & -> & -> & x & y & -> & HA & HB). exists (length u + length x)%nat. split.
    + exists u, x, (y ++ w). rewrite E, <- !app_assoc. auto.
    + exists (u ++ x), y, w. rewrite E, <- !app_assoc, !app_length. split; [reflexivity|]. split; [lia|]. split; [lia|exact HB].
  - intros (m & (u & x & w1 & E & -> & -> & HA) & (u2 & y & w & E2 & L & -> & HB)).
    rewrite E, app_assoc in E2. apply app_cut in E2; [|rewrite app_length; lia]. destruct E2 as [<- ->].
    exists u, (x ++ y), w. rewrite E, <- !app_assoc, app_length. split; [reflexivity|]. split; [reflexivity|]. split; [lia|]. exists x, y. auto.
Qed.
Lemma lead_empty t D i j : lead t (fun u v w => v = [] /\ D u w) i j <-> i = j /\ exists u w, t = u ++ w /\ i = length u /\ D u w.
Proof.
  split.
  - intros (u & v & w & -> & -> & -> & -> & H). cbn. split; [lia|]. eauto.
  - intros (<- & u & w & -> & -> & H). exists u, [], w. cbn. repeat split; auto.
Qed.
Lemma lead_ext t A B i j : (forall u v w, A u v w <-> B u v w) -> lead t A i j <-> lead t B i j.
Proof. intros H. split; intros (u & v & w & E & L1 & L2 & K); exists u, v, w; repeat split; auto; apply H; exact K. Qed.
Lemma lead_times t D k : forall i j, lead t (times D k) i j <-> pow (lead t D) k i j /\ (i <= length t)%nat.
Proof.
  induction k as [|k IH]; intros i j; cbn [times pow].
  - rewrite (lead_ext _ _ (fun u v w => v = [] /\ True)) by (intros; intuition). rewrite lead_empty. split.
    + intros (-> & u & w & -> & -> & _). rewrite app_length. split; [reflexivity|lia].
    + intros (-> & L). split; [reflexivity|]. exists (firstn j t), (skipn j t). rewrite firstn_skipn, firstn_length. repeat split; lia.
  - rewrite lead_comp. split.
    + intros (m & HA & HB). split; [|apply lead_le in HA; lia]. exists m. split; [exact HA|]. apply IH, HB.
    + intros ((m & HA & HB) & L). exists m. split; [exact HA|]. apply IH. split; [exact HB|]. apply lead_le in HA. lia.
Qed.
Lemma lead_Rep t D lo hi i j : (i <= length t)%nat ->
  lead t (fun u v w => exists k, (lo <= k)%nat /\ match hi with Some h => (k <= h)%nat | None => True end /\ times D k u v w) i j <->
  exists k, (lo <= k)%nat /\ match hi with Some h => (k <= h)%nat | None => True end /\ pow (lead t D) k i j.
Proof.
  intros L. split.
  - intros (u & v & w & E & L1 & L2 & k & K1 & K2 & T). exists k. split; [exact K1|]. split; [exact K2|].
    apply (lead_times t D k i j). exists u, v, w. auto.
  - intros (k & K1 & K2 & T). assert (Q : lead t (times D k) i j) by (apply lead_times; auto).
    destruct Q as (u & v & w & E & L1 & L2 & Q). exists u, v, w. repeat split; auto. exists k. auto.
Qed.
Lemma pow_snoc R k : forall i j, pow R (S k) i j <-> exists m, pow R k i m /\ R m j.
Proof.
  induction k as [|k IH]; intros i j.
  - cbn. split; [intros (m & H & ->)|intros (m & -> & H)]; eauto.
  - change (pow R (S (S k)) i j) with (exists m, R i m /\ pow R (S k) m j). split.
    + intros (m & H & K). apply IH in K. destruct K as (q & K & K2). exists q. split; [|exact K2]. exists m. auto.
    + intros (m & (q & H & K) & K2). exists q. split; [exact H|]. apply IH. eauto.
Qed.
Lemma pow_add R a b i j : pow R (a + b) i j <-> exists m, pow R a i m /\ pow R b m j.
Proof.
  revert i. induction a as [|a IH]; intros i; cbn [Nat.add pow].
  - split; [intros H; exists i; auto|intros (m & -> & H); exact H].
  - split.
    + intros (q & H & K). apply IH in K. destruct K as (m & K1 & K2). exists m. split; [|exact K2]. exists q. auto.
    + intros (m & (q & H & K1) & K2). exists q. split; [exact H|]. apply IH. eauto.
Qed.
Lemma pow_le (R : nat -> nat -> Prop) n k : (forall i j, R i j -> (i <= j <= n)%nat) ->
  forall i j, (i <= n)%nat -> pow R k i j -> (i <= j <= n)%nat /\ exists m, (m <= j - i)%nat /\ pow R m i j.
Proof.
  intros H. induction k as [|k IH]; intros i j L; cbn [pow].
  - intros <-. split; [lia|]. exists 0%nat. split; [lia|reflexivity].
  - intros (q & Q & K). pose proof (H _ _ Q) as B. destruct (IH q j ltac:(lia) K) as (B2 & m & M & K2). split; [lia|].
    destruct (Nat.eq_dec i q) as [E|N].
    + subst q. exists m. auto.
    + exists (S m). split; [lia|]. exists q. auto.
Qed.

(** ** The sets of positions *)
Definition at_ (P : list bool) (j : nat) : Prop := nth j P false = true.
Lemma at_lt P j : at_ P j -> (j < length P)%nat.
Proof. intros H. destruct (Nat.lt_ge_cases j (length P)) as [L|L]; [exact L|]. unfold at_ in H. rewrite nth_overflow in H by exact L. discriminate. Qed.
Lemma join_length a b : length a = length b -> length (join a b) = length a.
Proof. intros L. unfold join. rewrite map_length, combine_length. lia. Qed.
Lemma join_at a : forall b j, length a = length b -> at_ (join a b) j <-> at_ a j \/ at_ b j.
Proof.
  unfold at_, join. induction a as [|x a IH]; intros [|y b] j L; cbn in L; try discriminate.
  - cbn. destruct j; intuition discriminate.
  - injection L as L. destruct j as [|j]; cbn [combine map nth]; [apply orb_true_iff|apply IH, L].
Qed.
Lemma advance_length f t P : length P = S (length t) -> length (advance_ f t P) = S (length t).
Proof. intros L. unfold advance_. cbn [length]. rewrite map_length, combine_length. lia. Qed.
Lemma advance_at f t : forall P j, length P = S (length t) ->
  at_ (advance_ f t P) j <-> exists i c, j = S i /\ at_ P i /\ nth_error t i = Some c /\ in_set f c = true.
Proof.
  intros P j L. unfold at_, advance_. destruct j as [|j].
  - cbn. split; [discriminate|]. intros (i & c & E & _). discriminate.
  - cbn [nth]. transitivity (exists c, nth j P false = true /\ nth_error t j = Some c /\ in_set f c = true).
    + revert P j L. induction t as [|d t IH]; intros P j L.
      * destruct P as [|p [|q P]]; cbn in L; try discriminate. cbn. split; [destruct j; discriminate|]. intros (c & _ & E & _). destruct j; discriminate.
      * destruct P as [|p P]; cbn in L; [discriminate|]. injection L as L. destruct j as [|j]; cbn [combine map nth nth_error].
        -- rewrite andb_true_iff. split; [intros [A B]; eauto|]. intros (c & A & E & B). injection E as ->. auto.
        -- apply IH, L.
    + split; [intros (c & H); exists j, c; intuition|]. intros (i & c & E & H). injection E as ->. exists c. exact H.
Qed.
Lemma repeat_at n j : at_ (repeat true n) j <-> (j < n)%nat.
Proof.
  unfold at_. revert j. induction n as [|n IH]; intros [|j]; cbn; try (split; [discriminate|lia]).
  - split; [lia|reflexivity].
  - rewrite IH. lia.
Qed.
Lemma falses_at {A} (l : list A) j : ~ at_ (map (fun _ => false) l) j.
Proof. unfold at_. revert j. induction l as [|x l IH]; intros [|j]; cbn; try discriminate. apply IH. Qed.
Lemma iter_length (n : nat) (f : list bool -> list bool) k P : (forall Q, length Q = n -> length (f Q) = n) -> length P = n -> length (Nat.iter k f P) = n.
Proof. intros F L. induction k as [|k IH]; [exact L|]. cbn. apply F, IH. Qed.
Lemma iter_S {A} k (f : A -> A) x : Nat.iter (S k) f x = f (Nat.iter k f x).
Proof. reflexivity. Qed.
Lemma img_length t r : forall P, length P = S (length t) -> length (img t r P) = S (length t).
Proof.
  induction r as [|f| | |a IHa b IHb|a IHa b IHb|a IH lo hi]; intros P L; cbn [img].
  - exact L.
  - apply advance_length, L.
  - destruct P; [discriminate|]. cbn in *. rewrite map_length. exact L.
  - destruct (rev P) as [|p Q] eqn:E; apply (f_equal (@length bool)) in E; rewrite rev_length, L in E; [discriminate|].
    rewrite app_length, map_length. cbn in *. lia.
  - auto.
  - rewrite join_length; [apply IHa, L|]. rewrite IHa, IHb; auto.
  - apply iter_length; [|apply iter_length; auto]. intros Q LQ. rewrite join_length; [exact LQ|]. rewrite IH; auto.
Qed.
Theorem img_spec t r : bounded r -> forall P j, length P = S (length t) -> at_ (img t r P) j <-> exists i, at_ P i /\ lead t (den r) i j.
Proof.
  induction r as [|f| | |a IHa b IHb|a IHa b IHb|a IH lo hi]; intros BD P j L; cbn [bounded] in BD.
  - cbn [img den]. split.
    + intros H. pose proof (at_lt _ _ H). exists j. split; [exact H|]. exists (firstn j t), [], (skipn j t).
      cbn [app length]. rewrite firstn_skipn, firstn_length. repeat split; lia.
    + intros (i & H & u & v & w & _ & -> & -> & ->). cbn. rewrite Nat.add_0_r. exact H.
  - cbn [img den]. rewrite advance_at by exact L. split.
    + intros (i & c & -> & H & E & S). exists i. split; [exact H|]. destruct (nth_error_split _ _ E) as (u & w & -> & <-).
      exists u, [c], w. cbn. repeat split; [lia|]. exists c. split; [reflexivity|]. apply in_set_spec, S.
    + intros (i & H & u & v & w & -> & -> & -> & c & -> & S). exists (length u), c. cbn [length]. split; [lia|]. split; [exact H|].
      split; [|apply in_set_spec, S]. rewrite nth_error_app2, Nat.sub_diag by lia. reflexivity.
  - destruct P as [|p P]; [discriminate|]. cbn [img den]. split.
    + intros H. destruct j as [|j]; [|exfalso; eapply falses_at, H]. exists 0%nat. split; [exact H|]. exists [], [], t. auto.
    + intros (i & H & u & v & w & E & -> & -> & -> & ->). cbn in *. exact H.
  - cbn [img den]. destruct (rev P) as [|p Q] eqn:E.
    + apply (f_equal (@length bool)) in E. rewrite rev_length, L in E. discriminate.
    + assert (EP : P = rev Q ++ [p]) by (rewrite <- (rev_involutive P), E; reflexivity).
      assert (LQ : length Q = length t) by (rewrite EP, app_length, rev_length in L; cbn in L; lia).
      assert (Z1 : forall A : list bool, at_ (A ++ [p]) (length A) <-> p = true).
      { intros A. unfold at_. rewrite app_nth2, Nat.sub_diag by lia. reflexivity. }
      split.
      * intros H. pose proof (at_lt _ _ H) as B. rewrite app_length, map_length in B. cbn in B.
        destruct (Nat.eq_dec j (length Q)) as [->|N].
        -- exists (length Q). split.
           ++ rewrite EP. pose proof (Z1 (rev Q)) as Z2. rewrite rev_length in Z2. apply Z2.
              pose proof (Z1 (map (fun _ => false) Q)) as Z3. rewrite map_length in Z3. apply Z3, H.
           ++ exists t, [], []. rewrite !app_nil_r. cbn. repeat split; lia.
        -- exfalso. unfold at_ in H. rewrite app_nth1 in H by (rewrite map_length; lia). eapply falses_at, H.
      * intros (i & H & u & v & w & E1 & -> & -> & -> & ->). cbn [app] in E1. rewrite app_nil_r in E1. subst u. cbn. rewrite Nat.add_0_r.
        rewrite <- LQ in H |- *. rewrite EP in H. pose proof (Z1 (rev Q)) as Z2. rewrite rev_length in Z2. apply Z2 in H.
        pose proof (Z1 (map (fun _ => false) Q)) as Z3. rewrite map_length in Z3. apply Z3, H.
  - destruct BD as [BD1 BD2]. specialize (IHa BD1). specialize (IHb BD2). cbn [img]. rewrite IHb by (apply img_length, L). setoid_rewrite (fun i j => lead_comp t (den a) (den b) i j : lead t (den (Seq a b)) i j <-> _). split.
    + intros (m & H & K). apply IHa in H; [|exact L]. destruct H as (i & H & K1). exists i. split; [exact H|]. exists m. auto.
    + intros (i & H & m & K1 & K2). exists m. split; [|exact K2]. apply IHa; [exact L|]. exists i. auto.
  - destruct BD as [BD1 BD2]. specialize (IHa BD1). specialize (IHb BD2). cbn [img]. rewrite join_at by (rewrite !img_length; auto). rewrite IHa, IHb by exact L. split.
    + intros [(i & H & u & v & w & E & L1 & L2 & K)|(i & H & u & v & w & E & L1 & L2 & K)]; exists i; (split; [exact H|]); exists u, v, w; cbn [den]; auto.
    + intros (i & H & u & v & w & E & L1 & L2 & [K|K]); [left|right]; exists i; (split; [exact H|]); exists u, v, w; auto.
  - destruct BD as [BD1 BD2]. specialize (IH BD1). cbn [img]. set (n := length t) in *.
    assert (IT : forall k P j, length P = S n -> at_ (Nat.iter k (img t a) P) j <-> exists i, at_ P i /\ pow (lead t (den a)) k i j).
    { induction k as [|k IK]; intros P2 j2 L2.
      - cbn. split; [eauto|]. intros (i & H & <-). exact H.
      - rewrite iter_S. rewrite IH by (apply iter_length; [intros; apply img_length; assumption|exact L2]). setoid_rewrite pow_snoc. split.
        + intros (m & H & K). apply IK in H; [|exact L2]. destruct H as (i & H & K2). exists i. split; [exact H|]. exists m. auto.
        + intros (i & H & m & K1 & K2). exists m. split; [|exact K2]. apply IK; [exact L2|]. exists i. auto. }
    assert (LM : forall Q, length Q = S n -> length (join Q (img t a Q)) = S n) by (intros Q LQ; rewrite join_length; [exact LQ|rewrite img_length; auto]).
    assert (MO : forall k P j, length P = S n -> at_ (Nat.iter k (fun Y => join Y (img t a Y)) P) j <-> exists m i, (m <= k)%nat /\ at_ P i /\ pow (lead t (den a)) m i j).
    { induction k as [|k IK]; intros P2 j2 L2.
      - cbn [Nat.iter nat_rect]. split; [intros H; exists 0%nat, j2; split; [lia|split; [exact H|reflexivity]]|]. intros (m & i & M & HI & K). assert (m = 0%nat) by lia. subst m. cbn in K. subst i. exact HI.
      - rewrite iter_S.
        assert (L3 : length (Nat.iter k (fun Y => join Y (img t a Y)) P2) = S n) by (apply iter_length; assumption).
        rewrite join_at by (rewrite img_length; auto). rewrite IH by exact L3. rewrite IK by exact L2. split.
        + intros [(m & i & M & H & K)|(q & H & K)]; [exists m, i; split; [lia|auto]|].
          apply IK in H; [|exact L2]. destruct H as (m & i & M & H & K2). exists (S m), i. split; [lia|]. split; [exact H|]. apply pow_snoc. eauto.
        + intros (m & i & M & H & K). destruct (Nat.eq_dec m (S k)) as [->|N].
          * right. apply pow_snoc in K. destruct K as (q & K & K2). exists q. split; [|exact K2]. apply IK; [exact L2|]. exists k, i. auto.
          * left. exists m, i. split; [lia|]. auto. }
    assert (L0 : length (Nat.iter lo (img t a) P) = S n) by (apply iter_length; [intros; apply img_length; assumption|exact L]).
    rewrite MO by exact L0. split.
    + intros (m & q & M & H & K). apply IT in H; [|exact L]. destruct H as (i & H & K2). exists i. split; [exact H|].
      pose proof (at_lt _ _ H) as Li. apply lead_Rep; [unfold n in *; lia|]. exists (lo + m)%nat. split; [lia|]. split.
      * destruct hi as [h|]; [|exact I]. lia.
      * apply pow_add. eauto.
    + intros (i & H & K). pose proof (at_lt _ _ H) as Li. apply lead_Rep in K; [|unfold n in *; lia]. destruct K as (k & K1 & K2 & K).
      replace k with (lo + (k - lo))%nat in K by lia. apply pow_add in K. destruct K as (q & Q1 & Q2).
      assert (HQ : at_ (Nat.iter lo (img t a) P) q) by (apply IT; [exact L|]; exists i; auto).
      destruct hi as [h|].
      * exists (k - lo)%nat, q. split; [lia|]. auto.
      * pose proof (at_lt _ _ HQ) as Lq. rewrite L0 in Lq.
        destruct (pow_le (lead t (den a)) n (k - lo) (fun i j X => lead_le t (den a) i j X) q j ltac:(lia) Q2) as (B & m & M & Q3).
        exists m, q. split; [lia|]. auto.
Qed.
