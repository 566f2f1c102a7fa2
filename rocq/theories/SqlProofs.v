(** Reading back the statements the library writes. *)
From Verif Require Import Base BaseFacts UtilsModel UtilsSpec UtilsProofs UtilsProofs2 SqlModel.
Local Open Scope Z_scope.

(** ** Retrying *)
Lemma retry_spec n call : forall i src,
  exists k, (k <= n)%nat /\ retry_loop n call i src = (match k with O => src | S j => call (i + j)%nat end, (i + k)%nat) /\
    (forall j, (j < k - 1)%nat -> call (i + j)%nat = SQLITE_BUSY \/ call (i + j)%nat = SQLITE_LOCKED) /\
    (k = n \/ ((0 < k)%nat /\ call (i + (k - 1))%nat <> SQLITE_BUSY /\ call (i + (k - 1))%nat <> SQLITE_LOCKED)).
Proof.
  induction n as [|n IH]; intros i src; cbn [retry_loop].
  - exists O. split; [lia|]. split; [f_equal; lia|]. split; [intros j Hj; lia|left; reflexivity].
  - destruct (negb (call i =? SQLITE_BUSY) && negb (call i =? SQLITE_LOCKED)) eqn:E.
    + exists 1%nat. split; [lia|]. split; [rewrite Nat.add_0_r, Nat.add_1_r; reflexivity|]. split; [intros j Hj; lia|right].
      cbn [Nat.sub]. rewrite Nat.add_0_r. lia.
    + destruct (IH (S i) (call i)) as (k & K1 & K2 & K3 & K4). exists (S k). split; [lia|]. split; [|split].
      * rewrite K2. replace (i + S k)%nat with (S i + k)%nat by lia. destruct k as [|j]; [rewrite !Nat.add_0_r; reflexivity|].
        replace (i + S j)%nat with (S i + j)%nat by lia. reflexivity.
      * intros j Hj. destruct j as [|j]; [rewrite Nat.add_0_r; lia|]. replace (i + S j)%nat with (S i + j)%nat by lia. apply K3. lia.
      * destruct K4 as [->|(P & Q1 & Q2)]; [left; reflexivity|right]. cbn [Nat.sub]. replace (i + (k - 0))%nat with (S i + (k - 1))%nat by lia. split; [lia|split; assumption].
Qed.

(** ** Reading text *)
Fixpoint lexrun (st : lstate) (s : list Z) : option (list tok * lstate) :=
  match s with
  | [] => Some ([], st)
  | c :: t =>
      match lex_step st c with
      | Some (l, st') => match lexrun st' t with Some (r, st2) => Some (l ++ r, st2) | None => None end
      | None => None
      end
  end.
Lemma lex_app a : forall st b, lex_ st (a ++ b) =
  match lexrun st a with
  | Some (l, st') => match lex_ st' b with Some r => Some (l ++ r) | None => None end
  | None => None
  end.
Proof.
  induction a as [|c a IH]; intros st b; cbn [app lexrun lex_].
  - destruct (lex_ st b); reflexivity.
  - destruct (lex_step st c) as [[l st']|]; [|reflexivity]. rewrite IH. destruct (lexrun st' a) as [[r st2]|]; [|reflexivity].
    destruct (lex_ st2 b); [rewrite app_assoc|]; reflexivity.
Qed.
Lemma lexrun_dq k : forall a, ~ In 34 k -> lexrun (LDq a) k = Some ([], LDq (rev k ++ a)).
Proof.
  induction k as [|c k IH]; intros a H; [reflexivity|]. cbn [lexrun lex_step].
  replace (c =? 34) with false by (destruct (c =? 34) eqn:E; [exfalso; apply H; left; lia|reflexivity]).
  rewrite IH by (intros K; apply H; right; exact K). cbn [rev app]. rewrite <- app_assoc. reflexivity.
Qed.
Lemma lexrun_sq k : forall a, ~ In 39 k -> lexrun (LSq a) k = Some ([], LSq (rev k ++ a)).
Proof.
  induction k as [|c k IH]; intros a H; [reflexivity|]. cbn [lexrun lex_step].
  replace (c =? 39) with false by (destruct (c =? 39) eqn:E; [exfalso; apply H; left; lia|reflexivity]).
  rewrite IH by (intros K; apply H; right; exact K). cbn [rev app]. rewrite <- app_assoc. reflexivity.
Qed.
(** One quoted text and what follows. *)
Lemma lex_dq k rest : ~ In 34 k -> lex_ (LDq []) (k ++ rest) = lex_ (LDq (rev k)) rest.
Proof. intros H. rewrite lex_app, lexrun_dq by exact H. rewrite app_nil_r. destruct (lex_ (LDq (rev k)) rest); reflexivity. Qed.
Lemma lex_sq k rest : ~ In 39 k -> lex_ (LSq []) (k ++ rest) = lex_ (LSq (rev k)) rest.
Proof. intros H. rewrite lex_app, lexrun_sq by exact H. rewrite app_nil_r. destruct (lex_ (LSq (rev k)) rest); reflexivity. Qed.
Lemma lex_cons st c t l st' : lex_step st c = Some (l, st') ->
  lex_ st (c :: t) = match lex_ st' t with Some r => Some (l ++ r) | None => None end.
Proof. intros H. cbn [lex_]. rewrite H. reflexivity. Qed.
(** A closing quote followed by something that is not a quote. *)
Lemma lex_dq_end k c rest : c <> 34 -> lex_ (LDq (rev k)) (34 :: c :: rest) =
  match lex_ LStart (c :: rest) with Some r => Some (Dq k :: r) | None => None end.
Proof.
  intros H. rewrite (lex_cons (LDq (rev k)) 34 _ [] (LDqEnd (rev k)) eq_refl). cbn [lex_ lex_step]. replace (c =? 34) with false by lia. rewrite rev_involutive.
  destruct (start_tok c) as [[l st]|]; [|reflexivity]. cbn [emit]. destruct (lex_ st rest); reflexivity.
Qed.
Lemma lex_dq_last k : lex_ (LDq (rev k)) [34] = Some [Dq k].
Proof. rewrite (lex_cons (LDq (rev k)) 34 _ [] (LDqEnd (rev k)) eq_refl). cbn [lex_ lex_end app]. rewrite rev_involutive. reflexivity. Qed.
Lemma lex_sq_end k c rest : c <> 39 -> lex_ (LSq (rev k)) (39 :: c :: rest) =
  match lex_ LStart (c :: rest) with Some r => Some (Sq k :: r) | None => None end.
Proof.
  intros H. rewrite (lex_cons (LSq (rev k)) 39 _ [] (LSqEnd (rev k)) eq_refl). cbn [lex_ lex_step]. replace (c =? 39) with false by lia. rewrite rev_involutive.
  destruct (start_tok c) as [[l st]|]; [|reflexivity]. cbn [emit]. destruct (lex_ st rest); reflexivity.
Qed.
Lemma lex_sq_last k : lex_ (LSq (rev k)) [39] = Some [Sq k].
Proof. rewrite (lex_cons (LSq (rev k)) 39 _ [] (LSqEnd (rev k)) eq_refl). cbn [lex_ lex_end app]. rewrite rev_involutive. reflexivity. Qed.
(** Text cut inside quotes. *)
Lemma lex_dq_open k : ~ In 34 k -> lex_ (LDq []) k = None.
Proof. intros H. rewrite <- (app_nil_r k), lex_dq by exact H. reflexivity. Qed.
Lemma lex_sq_open k : ~ In 39 k -> lex_ (LSq []) k = None.
Proof. intros H. rewrite <- (app_nil_r k), lex_sq by exact H. reflexivity. Qed.

Lemma c_str_id s : no_nul s -> c_str s = s.
Proof.
  induction s as [|c t IH]; intros H; [reflexivity|]. cbn [c_str].
  replace (c =? 0) with false by (destruct (c =? 0) eqn:E; [exfalso; apply H; left; lia|reflexivity]).
  f_equal. apply IH. intros K. apply H. right. exact K.
Qed.
Lemma c_str_app a b : no_nul a -> c_str (a ++ b) = a ++ c_str b.
Proof.
  induction a as [|c a IH]; intros H; [reflexivity|]. cbn [app c_str].
  replace (c =? 0) with false by (destruct (c =? 0) eqn:E; [exfalso; apply H; left; lia|reflexivity]).
  f_equal. apply IH. intros K. apply H. right. exact K.
Qed.
Lemma no_nul_lit s : existsb (Z.eqb 0) s = false -> no_nul s.
Proof. intros H K. assert (existsb (Z.eqb 0) s = true) by (apply existsb_exists; exists 0; split; [exact K|reflexivity]). congruence. Qed.
Lemma weqb_iff a b : weqb a b = true <-> a = b.
Proof. unfold weqb. destruct (list_eq_dec Z.eq_dec a b); split; congruence. Qed.
Lemma weqb_refl a : weqb a a = true.
Proof. apply weqb_iff. reflexivity. Qed.
Lemma weqb_neq a b : a <> b -> weqb a b = false.
Proof. intros H. unfold weqb. destruct (list_eq_dec Z.eq_dec a b); congruence. Qed.

(** ** Tables *)
(** What is stored under a key. *)
Fixpoint stored (r : rows) (k : list Z) : option (option (list Z)) :=
  match r with
  | [] => None
  | (x, v) :: t => if weqb x k then Some v else stored t k
  end.
Lemma stored_filter r k j : stored (filter (fun row => negb (weqb (fst row) k)) r) j = if weqb k j then None else stored r j.
Proof.
  induction r as [|[x v] r IH]; [destruct (weqb k j); reflexivity|]. cbn [filter fst]. destruct (weqb x k) eqn:E.
  - cbn [negb]. rewrite IH. apply weqb_iff in E. subst x. cbn [stored]. destruct (weqb k j); reflexivity.
  - cbn [negb stored]. rewrite IH. destruct (weqb x j) eqn:F; [|reflexivity]. apply weqb_iff in F. subst x.
    destruct (weqb k j) eqn:G; [|reflexivity]. apply weqb_iff in G. subst. rewrite weqb_refl in E. discriminate.
Qed.
Lemma stored_app r s j : stored (r ++ s) j = match stored r j with Some v => Some v | None => stored s j end.
Proof. induction r as [|[x v] r IH]; [reflexivity|]. cbn [app stored]. destruct (weqb x j); [reflexivity|exact IH]. Qed.
Lemma stored_replace r k v j : stored (replace_row r k v) j = if weqb k j then Some v else stored r j.
Proof.
  unfold replace_row. rewrite stored_app, stored_filter. cbn [stored]. destruct (weqb k j); [reflexivity|]. destruct (stored r j); reflexivity.
Qed.

(** A text that is not the name of a column. *)
Definition not_column (T : table) (k : list Z) : Prop :=
  upper k <> kcol T /\ upper k <> vcol T /\ is_other T k = false.

Lemma match_one T y k : kcol T <> vcol T ->
  upper (kcol T) = kcol T ->
  (forall row, in_row T row y = Some (Some k)) -> forall r,
  exists yes, matching T [(VWord (kcol T), y)] r = Some (yes, filter (fun row => negb (weqb (fst row) k)) r) /\
    stored r k = match yes with [] => None | (_, v) :: _ => Some v end.
Proof.
  intros D U Y. induction r as [|[x v] r IH]; [exists []; split; reflexivity|]. destruct IH as (yes & M & S1).
  cbn [matching]. rewrite M. cbn [holds]. rewrite Y. unfold in_row. rewrite U, weqb_refl. cbn [fst]. rewrite orb_false_r.
  cbn [filter fst stored]. destruct (weqb x k) eqn:E; cbn [negb].
  - exists ((x, v) :: yes). split; reflexivity.
  - exists yes. split; [reflexivity|exact S1].
Qed.
