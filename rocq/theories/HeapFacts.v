(** Facts on the heap of HeapModel. *)
From Verif Require Import Base BaseFacts HeapModel.
From Coq Require Import Lia ZifyNat Permutation.
Local Open Scope nat_scope.
Ltac Zify.zify_post_hook ::= Z.div_mod_to_equations.

Lemma nth_upd : forall (l : list ptr) i j x d, i < length l -> nth j (upd l i x) d = if i =? j then x else nth j l d.
Proof.
  intros l i j x d L. destruct (Nat.eqb_spec i j) as [E|E].
  - subst. apply nth_error_nth. apply nth_error_upd_eq. exact L.
  - destruct (nth_error l j) eqn:N.
    + rewrite (nth_error_nth _ _ d N). apply nth_error_nth. rewrite nth_error_upd_neq; auto.
    + rewrite !nth_overflow; auto; rewrite ?upd_length; apply nth_error_None; auto.
Qed.
Lemma rd_nth : forall (l : list ptr) i, i < length l -> rd l i = Ok (nth i l None).
Proof. intros. apply rd_ok. apply nth_error_nth'. auto. Qed.
Lemma rd_nth' : forall (l : list ptr) i x, rd l i = Ok x -> i < length l /\ x = nth i l None.
Proof. intros l i x H. apply rd_ok in H. split. { apply nth_error_Some. congruence. } symmetry. apply nth_error_nth. auto. Qed.
Lemma upd_perm : forall (l : list ptr) i x, i < length l -> Permutation (nth i l None :: upd l i x) (x :: l).
Proof.
  induction l as [|a l IH]; intros i x L; [inversion L|]. destruct i; cbn [nth upd].
  - apply perm_swap.
  - cbn [length] in L. rewrite perm_swap. rewrite (IH i x) by lia. apply perm_swap.
Qed.
Lemma move_perm : forall (l : list ptr) h p v, h < length l -> p < length l -> h <> p ->
  Permutation (upd (upd l h (nth p l None)) p v) (upd l h v).
Proof.
  intros l h p v H P N. set (x := nth p l None). set (y := nth h l None).
  assert (A : Permutation (x :: upd (upd l h x) p v) (v :: upd l h x)).
  { replace x with (nth p (upd l h x) None) at 1. { apply upd_perm. rewrite upd_length. auto. }
    rewrite nth_upd by auto. destruct (Nat.eqb_spec h p); [contradiction|reflexivity]. }
  assert (B := upd_perm l h x H). assert (C := upd_perm l h v H). fold y in B, C.
  apply Permutation_cons_inv with (a := x). apply Permutation_cons_inv with (a := y).
  rewrite A. rewrite perm_swap. rewrite B. rewrite perm_swap. rewrite <- C. apply perm_swap.
Qed.

Ltac mgo H := apply bind_ok in H; let x := fresh "x" in let A := fresh "A" in destruct H as (x & A & H).
Lemma push_heap_perm : forall f w l h v l', push_heap f w l h v = Ok l' -> h < length l -> Permutation l' (upd l h v).
Proof.
  induction f as [|f IH]; intros w l h v l' E L; [discriminate|]. cbn [push_heap] in E. destruct h.
  - injection E as <-. reflexivity.
  - mgo E. mgo E. apply rd_nth' in A. destruct A as [P ->]. destruct x0.
    + apply IH in E; [|rewrite upd_length; lia]. rewrite E. apply move_perm; lia.
    + injection E as <-. reflexivity.
Qed.
Lemma sift_down_perm : forall f w l h l' h', sift_down f w l h = Ok (l', h') -> h < length l ->
  length l' = length l /\ h' < length l /\ forall v, Permutation (upd l' h' v) (upd l h v).
Proof.
  induction f as [|f IH]; intros w l h l' h' E L; [discriminate|]. cbn [sift_down] in E.
  destruct (Nat.ltb_spec h ((length l - 1) / 2)) as [Q|Q].
  - mgo E. mgo E. mgo E. mgo E. apply rd_nth' in A2. destruct A2 as [P ->].
    set (s := if x1 then _ else _) in *. assert (s <> h). { unfold s. destruct x1; lia. }
    apply IH in E; [|rewrite upd_length; auto]. rewrite upd_length in E. destruct E as (E1 & E2 & E3). split; [auto|]. split; [auto|].
    intros v. rewrite E3. apply move_perm; lia.
  - injection E as <- <-. split; [auto|]. split; [auto|]. intros. reflexivity.
Qed.
Lemma adjust_perm : forall w l v l', adjust_heap w l v = Ok l' -> 0 < length l -> Permutation l' (upd l 0 v).
Proof.
  unfold adjust_heap. intros w l v l' E L. mgo E. destruct x as [m h]. apply sift_down_perm in A; auto. destruct A as (A1 & A2 & A3).
  destruct (Nat.even (length m) && (h =? (length m - 2) / 2)).
  - mgo E. apply rd_nth' in A. destruct A as [P ->]. apply push_heap_perm in E; [|rewrite upd_length; auto].
    rewrite E. rewrite <- (A3 v). apply move_perm; lia.
  - apply push_heap_perm in E; [|lia]. rewrite E. auto.
Qed.
Lemma upd_last : forall (l : list ptr) x v, upd (l ++ [x]) (length l) v = l ++ [v].
Proof. induction l; intros; cbn [upd app length]; [reflexivity|]. rewrite IHl. reflexivity. Qed.
Lemma push_perm : forall w l v l', push w l v = Ok l' -> Permutation l' (v :: l).
Proof.
  unfold push. intros w l v l' E. apply push_heap_perm in E; [|rewrite app_length; cbn [length]; lia].
  rewrite E, upd_last. symmetry. apply Permutation_cons_append.
Qed.
Lemma pop_shape : forall (t : ptr) r, r <> [] -> exists m v, r = m ++ [v] /\ firstn (length r) (t :: r) = t :: m /\ nth (length r) (t :: r) None = v.
Proof.
  intros t r N. destruct (exists_last N) as (m & v & ->). exists m, v. split; [reflexivity|].
  rewrite app_length. cbn [length]. replace (length m + 1) with (S (length m)) by lia. cbn [firstn nth]. split.
  - rewrite firstn_app, firstn_all, Nat.sub_diag. cbn [firstn]. rewrite app_nil_r. reflexivity.
  - rewrite app_nth2 by lia. rewrite Nat.sub_diag. reflexivity.
Qed.
Lemma pop_perm : forall w t r l', pop w (t :: r) = Ok l' -> Permutation l' r.
Proof.
  unfold pop. intros w t r l' E. destruct r as [|a r]. { injection E as <-. reflexivity. }
  cbn [length] in E. destruct (pop_shape t (a :: r)) as (m & v & E1 & E2 & E3); [discriminate|]. cbn [length] in E2, E3.
  mgo E. apply rd_nth' in A. destruct A as [P ->]. rewrite E2, E3 in E. apply adjust_perm in E; [|cbn [length]; lia].
  cbn [upd] in E. rewrite E, E1. apply Permutation_cons_append.
Qed.

(** Order. *)
Definition live (w : list (option Z)) (p : ptr) : Prop := exists z, deref w p = Ok z.
Definition pr (w : list (option Z)) (p : ptr) : Z := match deref w p with Ok z => z | _ => 0%Z end.
Definition val (w : list (option Z)) (l : list ptr) (i : nat) : Z := pr w (nth i l None).
Definition heap (w : list (option Z)) (l : list ptr) : Prop := forall i, 0 < i < length l -> (val w l ((i - 1) / 2) <= val w l i)%Z.
Lemma greater_live : forall w p q, live w p -> live w q -> greater w p q = Ok (pr w p >? pr w q)%Z.
Proof. intros w p q (a & A) (b & B). unfold greater, pr. rewrite A, B. reflexivity. Qed.
Lemma val_upd : forall w l i j x, i < length l -> val w (upd l i x) j = if i =? j then pr w x else val w l j.
Proof. intros. unfold val. rewrite nth_upd by auto. destruct (i =? j); reflexivity. Qed.

Lemma push_heap_ok : forall f w l h v, h < f -> h < length l ->
  (forall i, i < length l -> i <> h -> live w (nth i l None)) -> live w v ->
  (forall i, 0 < i < length l -> i <> h -> (i - 1) / 2 <> h -> (val w l ((i - 1) / 2) <= val w l i)%Z) ->
  (forall i, 0 < i < length l -> (i - 1) / 2 = h -> (pr w v <= val w l i)%Z /\ (0 < h -> (val w l ((h - 1) / 2) <= val w l i)%Z)) ->
  exists l', push_heap f w l h v = Ok l' /\ heap w l'.
Proof.
  induction f as [|f IH]; intros w l h v F L G V O C; [lia|]. cbn [push_heap].
  assert (FIN : (0 < h -> (val w l ((h - 1) / 2) <= pr w v)%Z) -> heap w (upd l h v)).
  { intros T i I. rewrite upd_length in I. rewrite !val_upd by auto.
    destruct (Nat.eqb_spec h ((i - 1) / 2)) as [A|A].
    - destruct (Nat.eqb_spec h i); [lia|]. apply C; auto.
    - destruct (Nat.eqb_spec h i) as [B|B]. { subst i. apply T. lia. } apply O; auto. }
  destruct h as [|k].
  - eexists. split; [reflexivity|]. apply FIN. lia.
  - replace (S k - 1) with k in * by lia. assert (k / 2 < S k) by lia. assert (k / 2 < length l) by (eapply Nat.lt_trans; eauto). rewrite rd_nth by auto. cbn [bind].
    rewrite greater_live; auto; [|apply G; lia]. cbn [bind]. fold (val w l (k / 2)).
    destruct (Z.gtb_spec (val w l (k / 2)) (pr w v)) as [T|T].
    + apply IH; try rewrite upd_length; try lia.
      * intros i I N. rewrite nth_upd by auto. destruct (Nat.eqb_spec (S k) i). { apply G; lia. } apply G; auto.
      * auto.
      * intros i I N1 N2. rewrite !val_upd by auto. fold (val w l (k / 2)).
        destruct (Nat.eqb_spec (S k) i) as [B|B]. { subst i. replace (S k - 1) with k in N2 by lia. contradiction. }
        destruct (Nat.eqb_spec (S k) ((i - 1) / 2)) as [A|A]. { apply C; [auto|auto|lia]. }
        apply O; auto.
      * intros i I N. rewrite !val_upd by auto. fold (val w l (k / 2)).
        assert (P : 0 < k / 2 -> (val w l ((k / 2 - 1) / 2) <= val w l (k / 2))%Z). { intros. apply O; lia. }
        destruct (Nat.eqb_spec (S k) i) as [B|B].
        { split; [lia|]. intros J. destruct (Nat.eqb_spec (S k) ((k / 2 - 1) / 2)); [lia|]. apply P. auto. }
        assert (Q : (val w l (k / 2) <= val w l i)%Z). { rewrite <- N. apply O; auto. lia. }
        split; [lia|]. intros J. destruct (Nat.eqb_spec (S k) ((k / 2 - 1) / 2)); [lia|]. specialize (P J). lia.
    + eexists. split; [reflexivity|]. apply FIN. intros. lia.
Qed.

Definition hole_ok (w : list (option Z)) (l : list ptr) (h : nat) : Prop :=
  (forall i, i < length l -> i <> h -> live w (nth i l None)) /\
  (forall i, 0 < i < length l -> i <> h -> (i - 1) / 2 <> h -> (val w l ((i - 1) / 2) <= val w l i)%Z) /\
  (forall i, 0 < i < length l -> (i - 1) / 2 = h -> 0 < h -> (val w l ((h - 1) / 2) <= val w l i)%Z).
Lemma hole_down : forall w l h s, hole_ok w l h -> h < length l -> 0 < s < length l -> (s - 1) / 2 = h ->
  (forall i, 0 < i < length l -> (i - 1) / 2 = h -> (val w l s <= val w l i)%Z) ->
  hole_ok w (upd l h (nth s l None)) s.
Proof.
  intros w l h s (G & O & C) H S P M. assert (NE : s <> h) by lia. unfold hole_ok. rewrite upd_length. split; [|split].
  - intros i I N. rewrite nth_upd by auto. destruct (Nat.eqb_spec h i). { apply G; lia. } apply G; auto.
  - intros i I N1 N2. rewrite !val_upd by auto. fold (val w l s).
    destruct (Nat.eqb_spec h ((i - 1) / 2)) as [A|A].
    + destruct (Nat.eqb_spec h i); [lia|]. apply M; auto.
    + destruct (Nat.eqb_spec h i) as [B|B].
      * subst i. apply C; auto; lia.
      * apply O; auto.
  - intros i I N J. rewrite !val_upd by auto. fold (val w l s). rewrite P. rewrite Nat.eqb_refl.
    destruct (Nat.eqb_spec h i); [lia|]. rewrite <- N at 1. apply O; try lia.
Qed.
Lemma sift_down_ok : forall f w l h, length l < f + h -> h < length l -> hole_ok w l h ->
  exists l' h', sift_down f w l h = Ok (l', h') /\ length l' = length l /\ h' < length l /\ (length l - 1) / 2 <= h' /\ hole_ok w l' h'.
Proof.
  induction f as [|f IH]; intros w l h F L H; [lia|]. cbn [sift_down]. destruct (Nat.ltb_spec h ((length l - 1) / 2)) as [Q|Q].
  - assert (G := proj1 H). rewrite rd_nth by lia. cbn [bind]. rewrite rd_nth by lia. cbn [bind].
    rewrite greater_live; try (apply G; lia). cbn [bind].
    set (s := if (_ : bool) then (_ : nat) else _). fold (val w l (2 * (h + 1))) in s. fold (val w l (2 * (h + 1) - 1)) in s.
    assert (S : 0 < s < length l /\ (s - 1) / 2 = h /\ forall i, 0 < i < length l -> (i - 1) / 2 = h -> (val w l s <= val w l i)%Z).
    { unfold s. destruct (Z.gtb_spec (val w l (2 * (h + 1))) (val w l (2 * (h + 1) - 1))) as [T|T]; (split; [lia|split; [lia|]]);
      intros i I J; assert (K : i = 2 * (h + 1) \/ i = 2 * (h + 1) - 1) by lia; destruct K as [K|K]; rewrite K in *; lia. }
    destruct S as (S1 & S2 & S3). rewrite rd_nth by lia. cbn [bind].
    destruct (IH w (upd l h (nth s l None)) s) as (l' & h' & E & A & B & C & D); try (rewrite upd_length; lia).
    { apply hole_down; auto. }
    rewrite upd_length in *. exists l', h'. auto.
  - exists l, h. auto.
Qed.
Lemma adjust_ok : forall w l v, 0 < length l -> hole_ok w l 0 -> live w v -> exists l', adjust_heap w l v = Ok l' /\ heap w l'.
Proof.
  intros w l v L H V. unfold adjust_heap. destruct (sift_down_ok (S (length l)) w l 0) as (m & h & E & A & B & C & D); auto; [lia|].
  rewrite E. cbn [bind]. rewrite A.
  assert (END : forall n k, length n = length l -> k < length l -> length l <= 2 * k + 1 -> hole_ok w n k -> exists l', push_heap (S (length l)) w n k v = Ok l' /\ heap w l').
  { intros n k N K T (G & O & CH). apply push_heap_ok; auto; try lia. }
  destruct (Nat.even (length l)) eqn:EV; cbn [andb].
  - apply Nat.even_spec in EV. destruct EV as (q & Q). destruct (Nat.eqb_spec h ((length l - 2) / 2)) as [J|J].
    + rewrite rd_nth by lia. cbn [bind]. apply END; try rewrite upd_length; try lia. apply hole_down; auto; try lia.
      intros i I P. replace i with (2 * h + 1) by lia. lia.
    + apply END; auto. lia.
  - apply END; auto. assert (OD : Nat.odd (length l) = true) by (unfold Nat.odd; rewrite EV; reflexivity).
    apply Nat.odd_spec in OD. destruct OD as (q & Q). lia.
Qed.
Lemma all_nth : forall w (l : list ptr), (forall p, In p l -> live w p) -> forall i, i < length l -> live w (nth i l None).
Proof. intros. apply H. apply nth_In. auto. Qed.
Lemma push_ok : forall w l v, heap w l -> (forall p, In p l -> live w p) -> live w v -> exists l', push w l v = Ok l' /\ heap w l'.
Proof.
  intros w l v H G V. unfold push.
  assert (X : forall i, i < length l -> nth i (l ++ [v]) None = nth i l None) by (intros; apply app_nth1; auto).
  apply push_heap_ok; try rewrite app_length; cbn [length]; auto; try lia.
  - intros i I N. rewrite X by lia. apply all_nth; auto. lia.
  - intros i I N1 N2. unfold val. rewrite !X by lia. apply H. lia.
Qed.
Lemma pop_ok : forall w t r, heap w (t :: r) -> (forall p, In p (t :: r) -> live w p) -> exists l', pop w (t :: r) = Ok l' /\ heap w l'.
Proof.
  intros w t r H G. unfold pop. destruct r as [|a r]. { eexists. split; [reflexivity|]. intros i I. cbn [length] in I. lia. }
  cbn [length]. destruct (pop_shape t (a :: r)) as (m & v & E1 & E2 & E3); [discriminate|]. cbn [length] in E2, E3.
  rewrite rd_nth by (cbn [length]; lia). cbn [bind]. rewrite E2, E3. rewrite E1 in H, G.
  assert (X : forall i, i < length (t :: m) -> nth i ((t :: m) ++ [v]) None = nth i (t :: m) None) by (intros; apply app_nth1; auto).
  apply adjust_ok.
  - cbn [length]. lia.
  - change (t :: m ++ [v]) with ((t :: m) ++ [v]) in *. split; [|split].
    + intros i I _. rewrite <- X by auto. apply all_nth; auto. rewrite app_length. lia.
    + intros i I _ _. unfold val. rewrite <- !X by lia. apply H. rewrite app_length. lia.
    + intros i I _ J. lia.
  - apply G. right. apply in_or_app. right. left. reflexivity.
Qed.
Lemma heap_top : forall w t r, heap w (t :: r) -> forall p, In p (t :: r) -> (pr w t <= pr w p)%Z.
Proof.
  intros w t r H p I. apply (In_nth _ _ None) in I. destruct I as (i & L & <-). revert L.
  induction i as [i IH] using lt_wf_ind. intros L. destruct i. { cbn [nth]. lia. }
  assert (Q := H (S i)). assert (A := IH ((S i - 1) / 2)). unfold val in Q. lia.
Qed.
