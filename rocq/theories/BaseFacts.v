(** Facts about the common vocabulary. *)
From Verif Require Export Base.
Ltac Zify.zify_post_hook ::= Z.div_mod_to_equations.

Lemma bind_ok : forall A B (x : res A) (f : A -> res B) b,
  bind x f = Ok b -> exists a, x = Ok a /\ f a = Ok b.
Proof. intros A B [a| | |] f b H; cbn in H; try discriminate; eauto. Qed.

Lemma Ok_inj : forall A (a b : A), Ok a = Ok b -> a = b.
Proof. congruence. Qed.

Lemma upd_length : forall A (v : list A) i x, length (upd v i x) = length v.
Proof.
  induction v as [|h t IH]; intros [|i] x; cbn; auto.
Qed.

Lemma nth_error_upd_eq : forall A (v : list A) i x,
  i < length v -> nth_error (upd v i x) i = Some x.
Proof.
  induction v as [|h t IH]; intros [|i] x H; cbn in *; try lia; auto.
  apply IH; lia.
Qed.

Lemma nth_error_upd_neq : forall A (v : list A) i j x,
  i <> j -> nth_error (upd v i x) j = nth_error v j.
Proof.
  induction v as [|h t IH]; intros [|i] [|j] x H; cbn; auto; try lia.
Qed.

Lemma upd_out : forall A (v : list A) i x, length v <= i -> upd v i x = v.
Proof.
  induction v as [|h t IH]; intros [|i] x H; cbn in *; auto; try lia.
  f_equal; apply IH; lia.
Qed.

Lemma nth_error_ext : forall A (l l' : list A),
  (forall i, nth_error l i = nth_error l' i) -> l = l'.
Proof.
  induction l as [|h t IH]; intros [|h' t'] H.
  - reflexivity.
  - specialize (H 0); discriminate.
  - specialize (H 0); discriminate.
  - f_equal.
    + specialize (H 0); cbn in H; congruence.
    + apply IH; intros i; apply (H (S i)).
Qed.

Lemma rd_ok : forall A (v : list A) i x, rd v i = Ok x <-> nth_error v i = Some x.
Proof.
  intros A v i x; unfold rd; destruct (nth_error v i); split; congruence.
Qed.

Lemma rd_in : forall A (v : list A) i, i < length v -> exists x, rd v i = Ok x /\ nth_error v i = Some x.
Proof.
  intros A v i H; unfold rd; destruct (nth_error v i) eqn:E; eauto.
  apply nth_error_None in E; lia.
Qed.

Lemma wr_ok : forall A (v : list A) i x, i < length v -> wr v i x = Ok (upd v i x).
Proof. intros A v i x H; unfold wr; apply Nat.ltb_lt in H; rewrite H; reflexivity. Qed.

Lemma wr_ub : forall A (v : list A) i x, length v <= i -> wr v i x = UB.
Proof. intros A v i x H; unfold wr; apply Nat.ltb_ge in H; rewrite H; reflexivity. Qed.

Lemma upd_app_l : forall A (a b : list A) i x,
  i < length a -> upd (a ++ b) i x = upd a i x ++ b.
Proof.
  induction a as [|h t IH]; intros b [|i] x H; cbn in *; try lia; auto.
  f_equal; apply IH; lia.
Qed.

Lemma upd_app_r : forall A (a b : list A) i x,
  upd (a ++ b) (length a + i) x = a ++ upd b i x.
Proof.
  induction a as [|h t IH]; intros b i x; cbn; auto.
  f_equal; apply IH.
Qed.

Lemma nth_error_skipn : forall A n (l : list A) i, nth_error (skipn n l) i = nth_error l (n + i).
Proof.
  induction n as [|n IH]; intros [|h t] i; cbn; auto.
  destruct i; reflexivity.
Qed.

Lemma nth_error_nil_ : forall A i, nth_error (@nil A) i = None.
Proof. intros A [|i]; reflexivity. Qed.

Lemma nth_error_firstn : forall A n (l : list A) i,
  nth_error (firstn n l) i = if Nat.ltb i n then nth_error l i else None.
Proof.
  induction n as [|n IH]; intros l i.
  - cbn. rewrite nth_error_nil_. reflexivity.
  - destruct l as [|h t]; cbn [firstn].
    + rewrite !nth_error_nil_. destruct (Nat.ltb i (S n)); reflexivity.
    + destruct i as [|i]; [reflexivity|].
      cbn [nth_error]. rewrite IH. reflexivity.
Qed.

Lemma nth_error_repeat_ : forall A (x : A) n i, i < n -> nth_error (repeat x n) i = Some x.
Proof.
  induction n as [|n IH]; intros [|i] H; cbn; try lia; auto.
  apply IH; lia.
Qed.

Lemma skipn_skipn : forall A (n m : nat) (l : list A), skipn n (skipn m l) = skipn (n + m) l.
Proof.
  intros A n m l. apply nth_error_ext. intros j. rewrite !nth_error_skipn. f_equal. lia.
Qed.
