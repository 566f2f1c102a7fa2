(** Proofs about the queue with wait, the map, the priority queue and the semaphore. *)
From Coq Require Import Permutation.
From Verif Require Import Base BaseFacts Monitor MonitorProofs WakeProofs InterthreadModel InterthreadSpec InterthreadProofs.
Local Open Scope Z_scope.

(** ** C23 *)
Lemma w_lin : linearizable w_body [] wq_passes wq_does.
Proof.
  apply (lin_intro w_body wq_passes wq_does (fun _ => True)); [| | |exact I].
  - intros s op e s' c _ H. split; [|exact I]. destruct op; cbn [w_body] in H; try discriminate.
    + destruct s as [|x s]; cbn in H; [injection H as <- _; left; auto|].
      destruct (Z.eqb_spec x 0); [|discriminate]. injection H as <- _. right. congruence.
    + destruct s as [|x s]; cbn in H; [|discriminate]. destruct e; try discriminate. injection H as <- _. cbn. repeat split. discriminate.
    + destruct (q_get s); discriminate.
    + destruct (Nat.ltb_spec n (length s)); [|discriminate]. injection H as <- _. cbn. auto.
  - intros s op e s' _ H. split; [|exact I]. destruct op; cbn [w_body] in H; try discriminate.
    + destruct (q_get s) as [p q]. destruct (p =? 0); discriminate.
    + destruct s as [|x s]; cbn in H; [|discriminate]. destruct e; try discriminate. injection H as <-. cbn. repeat split. discriminate.
    + destruct (q_get s); discriminate.
    + destruct (Nat.ltb n (length s)); discriminate.
  - intros s op e s' r ins aft _ H. split; [|exact I]. destruct op; cbn [w_body wq_does] in *.
    + injection H as <- <- _ _. auto.
    + destruct s as [|x s]; cbn in H; [discriminate|]. destruct (Z.eqb_spec x 0) as [|N]; [discriminate|]. injection H as <- <- _ _. eauto.
    + destruct s as [|x s]; cbn in H; [destruct e; try discriminate; injection H as <- <- _ _; right; auto|injection H as <- <- _ _; left; eauto].
    + destruct s as [|x s]; cbn in H; injection H as <- <- _ _; [right; auto|left; eauto].
    + injection H as <- <- _ _. auto.
    + injection H as <- <- _ _. auto.
    + destruct (Nat.ltb_spec n (length s)); [discriminate|]. injection H as <- <- _ _. auto.
Qed.

Lemma wq_fifo : forall s h s', seq_run wq_passes wq_does s h s' -> nz s ++ nz (w_puts h) = nz (w_takes h) ++ nz s'.
Proof.
  intros s h s' R. induction R as [s|s l s' t op R IH|s l s' t r R IH|s s1 l s' t op e P R IH|s s1 l s' t op e r D R IH].
  - cbn. rewrite app_nil_r. reflexivity.
  - exact IH.
  - exact IH.
  - change (w_puts (HPass t op e :: l)) with (w_puts l). change (w_takes (HPass t op e :: l)) with (w_takes l).
    destruct op; cbn in P; try contradiction.
    + destruct P as [[-> ->]| ->]; [exact IH|rewrite nz_zero; exact IH].
    + destruct P as (-> & -> & _). exact IH.
    + destruct P as (_ & ->). exact IH.
  - unfold w_puts, w_takes in *. cbn [flat_map].
    destruct op; cbn [wq_does] in D; rewrite ?app_nil_l.
    + destruct D as [-> ->]. rewrite nz_app in IH. rewrite ?app_nil_l, <- IH. rewrite (nz_app [v]), app_assoc. reflexivity.
    + destruct D as (x & Nx & -> & ->). rewrite (nz_app [x]). cbn [app]. rewrite !nz_cons by assumption. cbn [app]. rewrite IH. reflexivity.
    + destruct D as [(x & -> & ->)|(-> & -> & _ & ->)].
      * change (x :: s1) with ([x] ++ s1). rewrite !nz_app, <- !app_assoc, IH. reflexivity.
      * rewrite nz_app. exact IH.
    + destruct D as [(x & -> & ->)|(-> & -> & ->)].
      * change (x :: s1) with ([x] ++ s1). rewrite !nz_app, <- !app_assoc, IH. reflexivity.
      * rewrite nz_app. exact IH.
    + destruct D as [-> ->]. rewrite nz_app, <- app_assoc, <- IH. reflexivity.
    + destruct D as [-> ->]. exact IH.
    + destruct D as (_ & -> & ->). exact IH.
Qed.

Lemma w_J : forall s op e s', no_null s -> w_not_null op ->
  (exists c, w_body s op e = OWait s' c) \/ w_body s op e = OSpin s' \/ (exists r i a, w_body s op e = ODone s' r i a) -> no_null s'.
Proof.
  intros s op e s' J K H. destruct op; cbn [w_body w_not_null] in H, K.
  - destruct H as [(c & H)|[H|(r & i & a & H)]]; try discriminate. injection H as <- _ _ _. intros X. apply in_app_or in X. destruct X as [X|[X|[]]]; auto.
  - destruct s as [|x s]; cbn in H.
    + destruct H as [(c & H)|[H|(r & i & a & H)]]; try discriminate. injection H as <- _. auto.
    + apply no_null_cons in J. destruct J as [Nx J]. destruct (Z.eqb_spec x 0); [contradiction|].
      destruct H as [(c & H)|[H|(r & i & a & H)]]; try discriminate. injection H as <- _ _ _. auto.
  - destruct s as [|x s]; cbn in H.
    + destruct e; destruct H as [(c & H)|[H|(r & i & a & H)]]; try discriminate; injection H; intros; subst; auto.
    + apply no_null_cons in J. destruct J as [Nx J]. destruct H as [(c & H)|[H|(r & i & a & H)]]; try discriminate. injection H as <- _ _ _. auto.
  - destruct s as [|x s]; cbn in H; destruct H as [(c & H)|[H|(r & i & a & H)]]; try discriminate; injection H as <- _ _ _; [auto|].
    apply no_null_cons in J. apply J.
  - destruct H as [(c & H)|[H|(r & i & a & H)]]; try discriminate. injection H as <- _ _ _. intros [].
  - destruct H as [(c & H)|[H|(r & i & a & H)]]; try discriminate. injection H as <- _ _ _. auto.
  - destruct (Nat.ltb n (length s)); destruct H as [(c & H)|[H|(r & i & a & H)]]; try discriminate; injection H; intros; subst; auto.
Qed.

Definition w_K (t0 t : nat) (op : wop) : Prop := w_not_null op /\ forall n, op = WWait n -> t = t0.
Definition w_rdy (s : list Z) (op : wop) : bool := match op with WWait n => (length s <=? n)%nat | _ => false end.

Lemma w_waits : forall s op e s' c, no_null s -> w_body s op e = OWait s' c ->
  (c = 0%nat /\ s = [] /\ s' = [] /\ w_reader_op op = true) \/ (c = 1%nat /\ s' = s /\ exists n, op = WWait n /\ (n < length s)%nat).
Proof.
  intros s op e s' c J H. destruct op; cbn [w_body] in H; try discriminate.
  - destruct s as [|x s]; cbn in H; [injection H as <- <-; auto|]. apply no_null_cons in J. destruct (Z.eqb_spec x 0); [tauto|discriminate].
  - destruct s as [|x s]; cbn in H; [|discriminate]. destruct e; try discriminate. injection H as <- <-. auto.
  - destruct (q_get s); discriminate.
  - destruct (Nat.ltb_spec n (length s)); [|discriminate]. injection H as <- <-. eauto 6.
Qed.

Lemma w_spin0 : forall s op e s', w_body s op e = OSpin s' -> s' = s.
Proof.
  intros s op e s' H. destruct op; cbn [w_body] in H; try discriminate.
  - destruct (q_get s) as [p q]. destruct (p =? 0); discriminate.
  - destruct s as [|x s]; cbn in H; [|discriminate]. destruct e; try discriminate. injection H as <-. reflexivity.
  - destruct (q_get s); discriminate.
  - destruct (Nat.ltb n (length s)); discriminate.
Qed.

Lemma w_done0 : forall s op e s' r ins aft, w_body s op e = ODone s' r ins aft ->
  (length s' <= length s - (if w_reader_op op then 1 else 0) + nsig 0 ins + nsig 0 aft)%nat.
Proof.
  intros s op e s' r ins aft H. destruct op; cbn [w_body] in H.
  - injection H as <- _ <- <-. rewrite app_length. cbn. lia.
  - destruct s as [|x s]; cbn in H; [discriminate|]. destruct (x =? 0); [discriminate|]. injection H as <- _ <- <-. cbn. lia.
  - destruct s as [|x s]; cbn in H; [destruct e; try discriminate|]; injection H as <- _ <- <-; cbn; lia.
  - destruct s as [|x s]; cbn in H; injection H as <- _ <- <-; cbn; lia.
  - injection H as <- _ <- <-. cbn. lia.
  - injection H as <- _ <- <-. cbn. lia.
  - destruct (Nat.ltb n (length s)); [discriminate|]. injection H as <- _ <- <-. cbn. lia.
Qed.

Lemma w_done1 : forall s op e s' r ins aft, no_null s -> w_body s op e = ODone s' r ins aft ->
  (length s' < length s)%nat -> (0 < nsig 1 ins + nsig 1 aft)%nat.
Proof.
  intros s op e s' r ins aft J H L. destruct op; cbn [w_body] in H.
  - injection H as <- _ <- <-. rewrite app_length in L. cbn in L. lia.
  - destruct s as [|x s]; cbn in H; [discriminate|]. destruct (x =? 0); [discriminate|]. injection H as <- _ <- <-. cbn. lia.
  - destruct s as [|x s]; cbn in H; [destruct e; try discriminate; injection H as <- _ <- <-; cbn in L; lia|].
    injection H as <- _ <- <-. apply no_null_cons in J. unfold w_sig. destruct (Z.eqb_spec x 0); [tauto|]. cbn. lia.
  - destruct s as [|x s]; cbn in H; [injection H as <- _ <- <-; cbn in L; lia|].
    injection H as <- _ <- <-. apply no_null_cons in J. unfold w_sig. destruct (Z.eqb_spec x 0); [tauto|]. cbn. lia.
  - injection H as <- _ <- <-. cbn. lia.
  - injection H as <- _ <- <-. lia.
  - destruct (Nat.ltb n (length s)); [discriminate|]. injection H as <- _ <- <-. lia.
Qed.

Lemma w_drain_rest : forall m t0 t n, reach w_body [] m -> w_never_null (hist m) -> only_drainer t0 (hist m) ->
  at_rest w_body m -> sleeps m t (WWait n) 1 -> (n < length (sh m))%nat.
Proof.
  intros m t0 t n R NN OW Q Sl.
  assert (F : w_rdy (sh m) (WWait n) = false).
  { apply (pred_rest w_body (w_K t0) no_null) with (ready := w_rdy) (only := Some t0) (c := 1%nat) (s0 := []) (t := t); try assumption.
    - intros s u o e s' c J K H. eapply w_J; [exact J|apply K|]. eauto.
    - intros s u o e s' J K H. eapply w_J; [exact J|apply K|]. eauto.
    - intros s u o e s' r i a J K H. eapply w_J; [exact J|apply K|]. eauto 6.
    - intros s u o e s' J K H. destruct (w_waits _ _ _ _ _ J H) as [(X & _)|(_ & -> & k & -> & L)]; [discriminate|]. cbn. lia.
    - intros s u o e s' d o' J K H. destruct (w_waits _ _ _ _ _ J H) as [(_ & -> & -> & _)|(_ & -> & _)]; auto.
    - intros s u o e s' o' J K H. rewrite (w_spin0 _ _ _ _ H). auto.
    - intros s u o e s' r i a o' J K H Rd. destruct (Nat.lt_ge_cases (length s') (length s)) as [L|L].
      + right. eapply w_done1; eassumption.
      + left. destruct o'; cbn in *; try discriminate. lia.
    - intros s u o e s' J K H. destruct (w_waits _ _ _ _ _ J H) as [(X & _)|(_ & _ & k & -> & _)]; [discriminate|]. eapply K. reflexivity.
    - intros X; exact X.
    - intros u o I. split; [eapply NN; eassumption|intros k ->; eapply OW; eassumption]. }
  cbn in F. lia.
Qed.

Lemma w_count : forall m, reach w_body [] m -> w_never_null (hist m) ->
  (exists t op, sleeps m t op 0) -> (length (sh m) <= total (on_the_way w_reader_op) (pcs m))%nat.
Proof.
  intros m R NN (t & op & Sl).
  assert (C : count_inv (fun _ => w_not_null) 0 (@length Z) w_reader_op m).
  { apply (count_reach w_body (fun _ => w_not_null) no_null) with (s0 := []).
    - intros s u o e s' c J K H. eapply w_J; eauto.
    - intros s u o e s' J K H. eapply w_J; eauto.
    - intros s u o e s' r i a J K H. eapply w_J; eauto 6.
    - intros s u o e s' J K H. destruct (w_waits _ _ _ _ _ J H) as [(_ & _ & -> & Ro)|(X & _)]; [auto|discriminate].
    - intros s u o e s' d J K H Nd. destruct (w_waits _ _ _ _ _ J H) as [(-> & _)|(_ & -> & k & -> & _)]; [congruence|]. unfold c1. cbn. lia.
    - intros s u o e s' J K H. rewrite (w_spin0 _ _ _ _ H). lia.
    - intros s u o e s' r i a J K H. apply (w_done0 _ _ _ _ _ _ _ H).
    - intros X. exact X.
    - exact R. }
  destruct (C NN) as [_ [Z|Z]].
  - pose proof (sum_ge (slp 0) _ _ _ Sl) as G. cbn [slp] in G. change (Nat.eqb 0 0) with true in G. cbn iota in G. lia.
  - rewrite sum_total in Z. rewrite <- (total_ext _ (fa 0 w_reader_op)); [exact Z|]. intros x. apply on_the_way_fa.
Qed.

(** ** C24, C25 *)
Definition m_I (s : list (Z * Z)) : Prop := NoDup (map fst s).

Lemma lookup_none : forall s k, ~ In k (map fst s) -> lookup s k = None.
Proof.
  induction s as [|[j x] s IH]; intros k H; [reflexivity|]. cbn [lookup]. cbn [map fst] in H.
  destruct (Z.eqb_spec j k) as [->|N]; [exfalso; apply H; left; reflexivity|]. apply IH. intros X. apply H. right. exact X.
Qed.

Lemma lookup_assign : forall s k v, same_but s (assign s k v) k (Some v).
Proof.
  intros s k v j. induction s as [|[i x] s IH]; cbn [assign lookup].
  - rewrite Z.eqb_sym. reflexivity.
  - destruct (Z.eqb_spec i k) as [->|N]; cbn [lookup].
    + destruct (Z.eqb_spec k j) as [<-|N]; [rewrite Z.eqb_refl; reflexivity|]. destruct (Z.eqb_spec j k); [congruence|reflexivity].
    + rewrite IH. destruct (Z.eqb_spec i j) as [<-|N2]; [|reflexivity]. destruct (Z.eqb_spec i k); [congruence|reflexivity].
Qed.

Lemma keys_assign : forall s k v, forall j, In j (map fst (assign s k v)) -> j = k \/ In j (map fst s).
Proof.
  induction s as [|[i x] s IH]; intros k v j H; cbn [assign map fst] in H.
  - destruct H as [<-|[]]. auto.
  - destruct (Z.eqb_spec i k) as [->|N]; cbn [map fst] in *; [tauto|]. destruct H as [<-|H]; [right; left; reflexivity|].
    destruct (IH _ _ _ H); [auto|right; right; assumption].
Qed.

Lemma assign_I : forall s k v, m_I s -> m_I (assign s k v).
Proof.
  unfold m_I. induction s as [|[i x] s IH]; intros k v H; cbn [assign map fst]; [constructor; [intros []|constructor]|].
  cbn [map fst] in H. inversion H; subst. destruct (Z.eqb_spec i k) as [->|N]; cbn [map fst]; constructor; auto.
  intros X. destruct (keys_assign _ _ _ _ X); [congruence|contradiction].
Qed.

Lemma keys_erase : forall s k j, In j (map fst (erase s k)) -> In j (map fst s).
Proof.
  induction s as [|[i x] s IH]; intros k j H; cbn [erase map fst] in *; [assumption|].
  destruct (Z.eqb_spec i k); cbn [map fst] in *; [right; assumption|]. destruct H as [H|H]; [left; exact H|right; exact (IH _ _ H)].
Qed.

Lemma erase_I : forall s k, m_I s -> m_I (erase s k).
Proof.
  unfold m_I. induction s as [|[i x] s IH]; intros k H; cbn [erase map fst]; [constructor|].
  cbn [map fst] in H. inversion H; subst. destruct (Z.eqb_spec i k) as [->|N]; cbn [map fst]; [assumption|]. constructor; auto.
  intros X. apply keys_erase in X. contradiction.
Qed.

Lemma lookup_erase : forall s k, m_I s -> same_but s (erase s k) k None.
Proof.
  unfold m_I. induction s as [|[i x] s IH]; intros k H j; cbn [erase lookup].
  - destruct (j =? k); reflexivity.
  - cbn [map fst] in H. inversion H; subst. destruct (Z.eqb_spec i k) as [->|N]; cbn [lookup].
    + destruct (Z.eqb_spec k j) as [<-|N]; [rewrite Z.eqb_refl; apply lookup_none; assumption|]. destruct (Z.eqb_spec j k); [congruence|reflexivity].
    + rewrite (IH k H3 j). destruct (Z.eqb_spec i j) as [<-|N2]; [|reflexivity]. destruct (Z.eqb_spec i k); [congruence|reflexivity].
Qed.

Lemma same_but_refl : forall s k v, lookup s k = Some v -> same_but s s k (Some v).
Proof. intros s k v H j. destruct (Z.eqb_spec j k) as [->|]; [assumption|reflexivity]. Qed.

Lemma take_gets : forall s k v rm s' r ins aft, m_I s -> lookup s k = Some v -> m_take s k v rm = ODone s' r ins aft -> map_gets s k rm r s' /\ m_I s'.
Proof.
  intros s k v rm s' r ins aft J L H. unfold m_take in H. injection H as <- <- _ _. split.
  - exists v. split; [assumption|]. split; [reflexivity|]. destruct rm; [apply lookup_erase; assumption|apply same_but_refl; assumption].
  - destruct rm; [apply erase_I|]; assumption.
Qed.

Lemma m_wait0 : forall s op e s' c, m_body s op e = OWait s' c -> s' = s /\ c = 0%nat /\ map_passes s op e s'.
Proof.
  intros s op e s' c H. destruct op; cbn in H; try discriminate.
  - destruct (lookup s k) eqn:L; cbn in H; [discriminate|]. injection H as <- <-. cbn. auto.
  - destruct (lookup s k) eqn:L; cbn in H; [discriminate|]. destruct e; try discriminate. injection H as <- <-. cbn. repeat split; auto. discriminate.
  - destruct (lookup s k); discriminate.
  - destruct (lookup s k); discriminate.
Qed.

Lemma m_spin0 : forall s op e s', m_body s op e = OSpin s' -> s' = s /\ map_passes s op e s'.
Proof.
  intros s op e s' H. destruct op; cbn in H; try discriminate.
  - destruct (lookup s k); discriminate.
  - destruct (lookup s k) eqn:L; cbn in H; [discriminate|]. destruct e; try discriminate. injection H as <-. cbn. repeat split; auto. discriminate.
  - destruct (lookup s k); discriminate.
  - destruct (lookup s k); discriminate.
Qed.

Lemma m_done0 : forall s op e s' r ins aft, m_I s -> m_body s op e = ODone s' r ins aft -> map_does s op e r s' /\ m_I s'.
Proof.
  intros s op e s' r ins aft J H. destruct op; cbn in H |- *.
  - injection H as <- <- _ _. split; [split; [reflexivity|apply lookup_assign]|apply assign_I; assumption].
  - destruct (lookup s k) eqn:L; [|discriminate]. eapply take_gets; eassumption.
  - destruct (lookup s k) eqn:L.
    + destruct (take_gets _ _ _ _ _ _ _ _ J L H) as [G I0]. auto.
    + destruct e; try discriminate. injection H as <- <- _ _. auto 6.
  - destruct (lookup s k) eqn:L.
    + destruct (take_gets _ _ _ _ _ _ _ _ J L H) as [G I0]. auto.
    + injection H as <- <- _ _. auto 6.
  - destruct (lookup s k) eqn:L; injection H as <- <- _ _.
    + split; [split; [reflexivity|apply lookup_erase; assumption]|apply erase_I; assumption].
    + split; [split; [reflexivity|]|assumption]. intros j. destruct (Z.eqb_spec j k) as [->|]; [assumption|reflexivity].
Qed.

Lemma m_lin : linearizable m_body [] map_passes map_does.
Proof.
  apply (lin_intro m_body map_passes map_does m_I).
  - intros s op e s' c J H. destruct (m_wait0 _ _ _ _ _ H) as (-> & _ & P). auto.
  - intros s op e s' J H. destruct (m_spin0 _ _ _ _ H) as (-> & P). auto.
  - intros s op e s' r ins aft J H. eapply m_done0; eassumption.
  - constructor.
Qed.

(** The history determines the contents. *)
Lemma latest_app_step : forall ev h k, latest (ev :: h) k = match ev with
  | HDone _ (MWrite j v) _ _ => if j =? k then Some v else latest h k
  | HDone _ (MGet j true | MGetT j true | MGetNB j true) _ (RFound _) => if j =? k then None else latest h k
  | HDone _ (MRemove j) _ _ => if j =? k then None else latest h k
  | _ => latest h k
  end.
Proof. intros [t op|t op e|t op e r|t r] h k; try reflexivity; destruct op as [? ?|? []|? []|? []|?]; try reflexivity; destruct r; reflexivity. Qed.

Lemma m_latest : forall s h s', seq_run map_passes map_does s h s' -> forall h0, (forall k, latest h0 k = lookup s k) ->
  forall k, latest (rev h ++ h0) k = lookup s' k.
Proof.
  intros s h s' R. induction R as [s|s l s' t op R IH|s l s' t r R IH|s s1 l s' t op e P R IH|s s1 l s' t op e r D R IH]; intros h0 H k;
    cbn [rev]; rewrite <- ?app_assoc; cbn [app]; [apply H|apply IH|apply IH|apply IH|apply IH]; intros j; rewrite ?latest_app_step; try apply H.
  - destruct op; cbn in P; try contradiction; destruct P as [-> _]; apply H.
  - assert (G : forall k rm, map_gets s k rm r s1 -> (if rm then (if k =? j then None else latest h0 j) else latest h0 j) = lookup s1 j /\ exists v, r = RFound v).
    { intros i rm (v & L & -> & Sb). split; [|eauto]. rewrite (Sb j), H, (Z.eqb_sym j i). destruct rm; [reflexivity|]. destruct (Z.eqb_spec i j) as [->|]; [assumption|reflexivity]. }
    destruct op as [i v|i rm|i rm|i rm|i]; cbn [map_does] in D.
    + destruct D as [-> Sb]. rewrite (Sb j), H, (Z.eqb_sym j i). reflexivity.
    + destruct (G _ _ D) as [<- (v & ->)]. destruct rm; reflexivity.
    + destruct D as [D|(L & _ & -> & ->)]; [destruct (G _ _ D) as [<- (v & ->)]|]; destruct rm; try reflexivity; apply H.
    + destruct D as [D|(L & -> & ->)]; [destruct (G _ _ D) as [<- (v & ->)]|]; destruct rm; try reflexivity; apply H.
    + destruct D as [-> Sb]. rewrite (Sb j), H, (Z.eqb_sym j i). reflexivity.
Qed.

Lemma seq_run_split : forall St Op Res (ps : St -> Op -> clk -> St -> Prop) (ds : St -> Op -> clk -> Res -> St -> Prop) h1 s h2 s',
  seq_run ps ds s (h1 ++ h2) s' -> exists s1, seq_run ps ds s h1 s1 /\ seq_run ps ds s1 h2 s'.
Proof.
  intros St Op Res ps ds h1. induction h1 as [|ev h1 IH]; intros s h2 s' R; cbn [app] in R; [exists s; split; [constructor|assumption]|].
  inversion R; subst.
  - destruct (IH _ _ _ H3) as (s1 & A & B). exists s1. split; [constructor; assumption|assumption].
  - destruct (IH _ _ _ H3) as (s1 & A & B). exists s1. split; [constructor; assumption|assumption].
  - destruct (IH _ _ _ H4) as (s3 & A & B). exists s3. split; [econstructor; eassumption|assumption].
  - destruct (IH _ _ _ H4) as (s3 & A & B). exists s3. split; [econstructor; eassumption|assumption].
Qed.

(** Ownership: over the body of one step. *)
Lemma assign_perm : forall s k v, Permutation (v :: map snd s) (match lookup s k with Some o => [o] | None => [] end ++ map snd (assign s k v)).
Proof.
  induction s as [|[i x] s IH]; intros k v; cbn [assign lookup map snd]; [apply Permutation_refl|].
  destruct (Z.eqb_spec i k); cbn [map snd app].
  - apply perm_swap.
  - eapply perm_trans; [apply perm_swap|]. eapply perm_trans; [apply perm_skip; apply IH|]. apply Permutation_middle.
Qed.

Lemma erase_perm : forall s k v, lookup s k = Some v -> Permutation (map snd s) (v :: map snd (erase s k)).
Proof.
  induction s as [|[i x] s IH]; intros k v H; cbn [erase lookup map snd] in *; [discriminate|].
  destruct (Z.eqb_spec i k); cbn [map snd]; [injection H as ->; apply Permutation_refl|].
  eapply perm_trans; [apply perm_skip; apply IH; eassumption|]. apply perm_swap.
Qed.

Lemma m_app : forall a b, m_puts (a ++ b) = m_puts a ++ m_puts b /\ m_deleted (a ++ b) = m_deleted a ++ m_deleted b /\ m_handed (a ++ b) = m_handed a ++ m_handed b.
Proof. intros a b. unfold m_puts, m_deleted, m_handed. rewrite !flat_map_app. auto. Qed.

Lemma m_account : forall m, reach m_body [] m -> Permutation (m_puts (history m)) (m_deleted (history m) ++ m_handed (history m) ++ map snd (sh m)).
Proof.
  apply (reach_ind m_body (fun m => Permutation (m_puts (history m)) (m_deleted (history m) ++ m_handed (history m) ++ map snd (sh m))) []).
  - intros n. apply Permutation_refl.
  - intros m ev m' IH S.
    assert (Same : forall h (s : list (Z * Z)) hd l, history (mkM s hd l (h :: hist m)) = history m ++ [h]) by reflexivity.
    destruct ev as [t op|t|t e|t u|t|t|t]; cbn [step] in S.
    + destruct (nth_error (pcs m) t) as [[]|]; try discriminate. injection S as <-. rewrite Same. rewrite !(proj1 (m_app _ _)), !(proj1 (proj2 (m_app _ _))), !(proj2 (proj2 (m_app _ _))). cbn [m_puts m_deleted m_handed flat_map sh]. rewrite !app_nil_r. exact IH.
    + destruct (holder m); [discriminate|]. destruct (nth_error (pcs m) t) as [[]|]; try discriminate; injection S as <-; exact IH.
    + destruct (nth_error (pcs m) t) as [[]|]; try discriminate. injection S as <-.
      destruct (m_body (sh m) op e) as [s c|s|s r ins aft] eqn:B; rewrite Same, !(proj1 (m_app _ _)), !(proj1 (proj2 (m_app _ _))), !(proj2 (proj2 (m_app _ _))); cbn [sh]; unfold m_puts at 2, m_deleted at 2, m_handed at 2; cbn [flat_map]; rewrite !app_nil_r.
      * destruct (m_wait0 _ _ _ _ _ B) as (-> & _). exact IH.
      * destruct (m_spin0 _ _ _ _ B) as (-> & _). exact IH.
      * set (P := m_puts (history m)) in *. set (D := m_deleted (history m)) in *. set (Hd := m_handed (history m)) in *.
        assert (T : forall k v (rm : bool), lookup (sh m) k = Some v -> Permutation (D ++ (Hd ++ (if rm then [v] else [])) ++ map snd (if rm then erase (sh m) k else sh m)) (D ++ Hd ++ map snd (sh m))).
        { intros k v rm L. apply Permutation_app_head. rewrite <- app_assoc. apply Permutation_app_head. destruct rm; [|apply Permutation_refl].
          cbn [app]. apply Permutation_sym. apply erase_perm. assumption. }
        destruct op as [k v|k rm|k rm|k rm|k]; cbn in B.
        -- injection B as <- <- _ _. rewrite ?app_nil_r.
           eapply perm_trans; [apply Permutation_app_tail; exact IH|].
           eapply perm_trans; [apply Permutation_app_comm|]. cbn [app].
           rewrite <- app_assoc. eapply perm_trans; [apply Permutation_middle|]. apply Permutation_app_head.
           eapply perm_trans; [apply Permutation_middle|].
           eapply perm_trans; [apply Permutation_app_head; apply (assign_perm (sh m) k v)|].
           destruct (lookup (sh m) k); [|apply Permutation_refl]. cbn [app]. apply Permutation_sym. apply Permutation_middle.
        -- destruct (lookup (sh m) k) as [v|] eqn:L; [|discriminate]. unfold m_take in B. injection B as <- <- _ _. rewrite ?app_nil_r. eapply perm_trans; [exact IH|].
           apply Permutation_sym. destruct rm; [apply (T k v true L)|rewrite ?app_nil_r; apply Permutation_refl].
        -- destruct (lookup (sh m) k) as [v|] eqn:L.
           ++ unfold m_take in B. injection B as <- <- _ _. rewrite ?app_nil_r. eapply perm_trans; [exact IH|].
              apply Permutation_sym. destruct rm; [apply (T k v true L)|rewrite ?app_nil_r; apply Permutation_refl].
           ++ destruct e; try discriminate. injection B as <- <- _ _. destruct rm; rewrite ?app_nil_r; exact IH.
        -- destruct (lookup (sh m) k) as [v|] eqn:L.
           ++ unfold m_take in B. injection B as <- <- _ _. rewrite ?app_nil_r. eapply perm_trans; [exact IH|].
              apply Permutation_sym. destruct rm; [apply (T k v true L)|rewrite ?app_nil_r; apply Permutation_refl].
           ++ injection B as <- <- _ _. destruct rm; rewrite ?app_nil_r; exact IH.
        -- destruct (lookup (sh m) k) as [v|] eqn:L; injection B as <- <- _ _; rewrite ?app_nil_r; [|exact IH].
           eapply perm_trans; [exact IH|]. rewrite <- app_assoc. apply Permutation_app_head. cbn [app].
           eapply perm_trans; [apply Permutation_app_head; apply (erase_perm _ _ _ L)|]. apply Permutation_sym. apply Permutation_middle.
    + destruct (nth_error (pcs m) t) as [[| | | | |op r [|g ins] aft|op r [|g aft]]|]; try discriminate;
        (destruct (fire g u (pcs m)); [|discriminate]); injection S as <-; exact IH.
    + destruct (nth_error (pcs m) t) as [[| | | | |op r [|g ins] aft|]|]; try discriminate. injection S as <-. exact IH.
    + destruct (nth_error (pcs m) t) as [[| | | | | |op r [|g aft]]|]; try discriminate. injection S as <-. rewrite Same. rewrite !(proj1 (m_app _ _)), !(proj1 (proj2 (m_app _ _))), !(proj2 (proj2 (m_app _ _))). cbn [m_puts m_deleted m_handed flat_map sh]. rewrite !app_nil_r. exact IH.
    + destruct (nth_error (pcs m) t) as [[]|]; try discriminate. injection S as <-. exact IH.
Qed.

Definition m_rdy (s : list (Z * Z)) (op : mop) : bool :=
  match op with MGet k _ | MGetT k _ => match lookup s k with Some _ => true | None => false end | _ => false end.

Lemma m_rest : forall m t op k, reach m_body [] m -> at_rest m_body m -> sleeps m t op 0 -> waits_for op k -> lookup (sh m) k = None.
Proof.
  intros m t op k R Q Sl W.
  assert (F : m_rdy (sh m) op = false).
  { apply (pred_rest m_body (fun _ _ => True) m_I) with (ready := m_rdy) (only := None) (c := 0%nat) (s0 := []) (t := t); try assumption.
    - intros s u o e s' c J K H. destruct (m_wait0 _ _ _ _ _ H) as (-> & _). exact J.
    - intros s u o e s' J K H. destruct (m_spin0 _ _ _ _ H) as (-> & _). exact J.
    - intros s u o e s' r i a J K H. apply (m_done0 _ _ _ _ _ _ _ J H).
    - intros s u o e s' J K H. destruct (m_wait0 _ _ _ _ _ H) as (-> & _ & P). destruct o; cbn in *; try reflexivity; destruct P as [_ P]; [|destruct P as [P _]]; rewrite P; reflexivity.
    - intros s u o e s' d o' J K H. destruct (m_wait0 _ _ _ _ _ H) as (-> & _). auto.
    - intros s u o e s' o' J K H. destruct (m_spin0 _ _ _ _ H) as (-> & _). auto.
    - intros s u o e s' r i a o' J K H Rd. destruct (m_done0 _ _ _ _ _ _ _ J H) as [D _].
      assert (Z : forall j rm, map_gets s j rm r s' -> m_rdy s o' = true).
      { intros j rm (v & L & _ & Sb). destruct o'; cbn in *; try discriminate; rewrite (Sb k0) in Rd; destruct (Z.eqb_spec k0 j) as [->|]; try assumption; rewrite L; reflexivity. }
      destruct o as [j v|j rm|j rm|j rm|j]; cbn [map_does] in D.
      + right. cbn in H. injection H as _ _ <- <-. cbn. lia.
      + left. eapply Z. eassumption.
      + left. destruct D as [D|(_ & _ & _ & ->)]; [eapply Z; eassumption|assumption].
      + left. destruct D as [D|(_ & _ & ->)]; [eapply Z; eassumption|assumption].
      + left. destruct D as [_ Sb]. destruct o'; cbn in *; try discriminate; rewrite (Sb k0) in Rd; destruct (k0 =? j); try assumption; discriminate.
    - intros s u o e s' r i a g J K H In0 Ec. destruct o as [j v|j rm|j rm|j rm|j]; cbn in H.
      + injection H as _ _ <- <-. destruct In0 as [<-|[]]. reflexivity.
      + destruct (lookup s j); [|discriminate]. unfold m_take in H. injection H as _ _ <- <-. destruct In0.
      + destruct (lookup s j); [unfold m_take in H|destruct e; try discriminate]; injection H as _ _ <- <-; destruct In0.
      + destruct (lookup s j); [unfold m_take in H|]; injection H as _ _ <- <-; destruct In0.
      + destruct (lookup s j); injection H as _ _ <- <-; destruct In0.
    - constructor.
    - intros u o _. exact I. }
  destruct op; cbn in *; try contradiction; subst; destruct (lookup (sh m) k); congruence.
Qed.

(** ** C26 *)
Section PQ.
Variable gt : Z -> Z -> bool.
Hypothesis G : strict_order gt.

Lemma least_exists : forall q, q <> [] -> exists x, In x q /\ forall y, In y q -> gt x y = false.
Proof.
  destruct G as [Ir Tr]. induction q as [|a q IH]; intros N; [congruence|]. destruct q as [|b q].
  - exists a. split; [left; reflexivity|]. intros y [<-|[]]. apply Ir.
  - destruct IH as (x & I & M); [discriminate|]. destruct (gt x a) eqn:E.
    + exists a. split; [left; reflexivity|]. intros y [<-|Iy]; [apply Ir|]. destruct (gt a y) eqn:Ey; [|reflexivity].
      rewrite <- (M y Iy). symmetry. eapply Tr; eassumption.
    + exists x. split; [right; assumption|]. intros y [<-|Iy]; auto.
Qed.

Lemma p_top_least : forall q pick, q <> [] -> In (p_top gt q pick) q /\ forall y, In y q -> gt (p_top gt q pick) y = false.
Proof.
  intros q pick N. assert (T : In (p_top gt q pick) (p_tops gt q)).
  { unfold p_top. apply nth_In. apply Nat.mod_upper_bound. destruct (least_exists q N) as (x & I & M).
    assert (X : In x (p_tops gt q)). { unfold p_tops. apply filter_In. split; [assumption|]. apply forallb_forall. intros y Iy. rewrite (M y Iy). reflexivity. }
    destruct (p_tops gt q); [destruct X|discriminate]. }
  unfold p_tops in T at 1. apply filter_In in T. destruct T as [I F]. split; [assumption|].
  intros y Iy. rewrite forallb_forall in F. specialize (F y Iy). destruct (gt (p_top gt q pick) y); [discriminate|reflexivity].
Qed.

Lemma p_pop_perm : forall q x, In x q -> Permutation q (x :: p_pop q x).
Proof.
  induction q as [|a q IH]; intros x I; [destruct I|]. cbn [p_pop]. destruct (Z.eqb_spec a x) as [->|N]; [apply Permutation_refl|].
  destruct I as [I|I]; [congruence|]. eapply perm_trans; [apply perm_skip; apply (IH x I)|]. apply perm_swap.
Qed.

Lemma p_takes_least : forall q pick, q <> [] -> takes_least gt q (p_top gt q pick) (p_pop q (p_top gt q pick)).
Proof. intros q pick N. destruct (p_top_least q pick N) as [I M]. split; [apply p_pop_perm; assumption|assumption]. Qed.

Lemma p_get_done : forall q pick s' r ins aft, p_get gt q pick = ODone s' r ins aft ->
  (exists x, takes_least gt q x s' /\ r = RPtr x) \/ (q = [] /\ s' = [] /\ r = RPtr 0).
Proof.
  intros q pick s' r ins aft H. destruct q as [|a q]; cbn [p_get] in H; injection H as <- <- _ _; [auto|].
  left. exists (p_top gt (a :: q) pick). split; [|reflexivity]. apply (p_takes_least (a :: q) pick). discriminate.
Qed.

Lemma p_get_nw : forall q pick s c, p_get gt q pick = OWait s c -> False.
Proof. intros [|a q] pick s c H; discriminate. Qed.
Lemma p_get_ns : forall q pick s, p_get gt q pick = OSpin s -> False.
Proof. intros [|a q] pick s H; discriminate. Qed.

Lemma p_lin : linearizable (p_body gt) [] pq_passes (pq_does gt).
Proof.
  apply (lin_intro (p_body gt) pq_passes (pq_does gt) (fun _ => True)); [| | |exact I].
  - intros s op e s' c _ H. split; [|exact I]. destruct op; cbn [p_body] in H; try discriminate.
    + destruct s; [|exfalso; first [eapply p_get_nw; eassumption | eapply p_get_ns; eassumption]]. injection H as <- _. cbn. auto.
    + destruct s; [|exfalso; first [eapply p_get_nw; eassumption | eapply p_get_ns; eassumption]]. destruct e; try discriminate. injection H as <- _. cbn. repeat split. discriminate.
    + exfalso; first [eapply p_get_nw; eassumption | eapply p_get_ns; eassumption].
  - intros s op e s' _ H. split; [|exact I]. destruct op; cbn [p_body] in H; try discriminate.
    + destruct s; [discriminate|exfalso; first [eapply p_get_nw; eassumption | eapply p_get_ns; eassumption]].
    + destruct s; [|exfalso; first [eapply p_get_nw; eassumption | eapply p_get_ns; eassumption]]. destruct e; try discriminate. injection H as <-. cbn. repeat split. discriminate.
    + exfalso; first [eapply p_get_nw; eassumption | eapply p_get_ns; eassumption].
  - intros s op e s' r ins aft _ H. split; [|exact I]. destruct op; cbn [p_body pq_does] in *.
    + injection H as <- <- _ _. split; [|reflexivity]. apply Permutation_sym. apply Permutation_cons_append.
    + destruct s as [|a s]; [discriminate|]. destruct (p_get_done _ _ _ _ _ _ H) as [X|(X & _)]; [exact X|discriminate].
    + destruct s as [|a s]; [destruct e; try discriminate; injection H as <- <- _ _; right; auto|].
      destruct (p_get_done _ _ _ _ _ _ H) as [X|(X & _)]; [auto|discriminate].
    + destruct (p_get_done _ _ _ _ _ _ H) as [X|X]; auto.
    + injection H as <- <- _ _. split; [reflexivity|]. destruct s as [|a s]; [auto|]. right. exists (p_top gt (a :: s) pick), (p_pop (a :: s) (p_top gt (a :: s) pick)). split; [|reflexivity]. apply (p_takes_least (a :: s) pick). discriminate.
    + injection H as <- <- _ _. auto.
    + injection H as <- <- _ _. auto.
Qed.

Lemma pq_bag : forall s h s', seq_run pq_passes (pq_does gt) s h s' -> Permutation (nz s ++ nz (p_puts h)) (nz (p_takes h) ++ nz s').
Proof.
  intros s h s' R. induction R as [s|s l s' t op R IH|s l s' t r R IH|s s1 l s' t op e P R IH|s s1 l s' t op e r D R IH].
  - cbn. rewrite app_nil_r. apply Permutation_refl.
  - exact IH.
  - exact IH.
  - change (p_puts (HPass t op e :: l)) with (p_puts l). change (p_takes (HPass t op e :: l)) with (p_takes l).
    destruct op; cbn in P; try contradiction.
    + destruct P as (-> & ->). exact IH.
    + destruct P as (-> & -> & _). exact IH.
  - assert (T : forall x, takes_least gt s x s1 -> Permutation (nz s ++ nz (p_puts l)) (nz ([x] ++ p_takes l) ++ nz s')).
    { intros x [Pm _]. apply Permutation_nz in Pm. change (x :: s1) with ([x] ++ s1) in Pm. rewrite nz_app in Pm.
      eapply perm_trans; [apply Permutation_app_tail; exact Pm|]. rewrite nz_app, <- !app_assoc. apply Permutation_app_head. exact IH. }
    unfold p_puts, p_takes in *. cbn [flat_map]. destruct op; cbn [pq_does] in D; rewrite ?app_nil_l.
    + destruct D as [Pm ->]. eapply perm_trans; [|exact IH]. apply Permutation_nz in Pm. change (v :: s) with ([v] ++ s) in Pm. rewrite nz_app in Pm.
      rewrite (nz_app [v]), app_assoc. apply Permutation_app_tail. eapply perm_trans; [apply Permutation_app_comm|]. apply Permutation_sym. exact Pm.
    + destruct D as (x & L & ->). apply T. exact L.
    + destruct D as [(x & L & ->)|(-> & -> & _ & ->)]; [apply T; exact L|]. rewrite nz_app. exact IH.
    + destruct D as [(x & L & ->)|(-> & -> & ->)]; [apply T; exact L|]. rewrite nz_app. exact IH.
    + destruct D as [-> _]. destruct r; exact IH.
    + destruct D as [-> ->]. rewrite nz_app, <- app_assoc. apply Permutation_app_head. exact IH.
    + destruct D as [-> ->]. exact IH.
Qed.

Lemma p_pop_length : forall q x, In x q -> S (length (p_pop q x)) = length q.
Proof. intros q x I. pose proof (Permutation_length (p_pop_perm q x I)) as L. cbn [length] in L. lia. Qed.

Lemma p_count : forall m, reach (p_body gt) [] m -> (exists t op, sleeps m t op 0) -> (length (sh m) <= total (on_the_way p_reader_op) (pcs m))%nat.
Proof.
  intros m R (t & op & Sl).
  assert (Gl : forall s k s' r i a, p_get gt s k = ODone s' r i a -> (length s' <= length s - 1)%nat /\ i = [] /\ a = []).
  { intros s k s' r i a H. destruct s as [|x s]; cbn [p_get] in H; injection H as <- _ <- <-; [cbn; auto|]. split; [|auto].
    pose proof (p_pop_length (x :: s) (p_top gt (x :: s) k)) as L. cbn [p_pop] in L. rewrite <- L; [lia|]. apply p_top_least. discriminate. }
  assert (C : count_inv (fun _ _ => True) 0 (@length Z) p_reader_op m).
  { apply (count_reach (p_body gt) (fun _ _ => True) (fun _ => True)) with (s0 := []); try (intros; exact I).
    - intros s u o e s' _ _ H. destruct o; cbn [p_body] in H; try discriminate.
      + destruct s; [injection H as <-; auto|exfalso; first [eapply p_get_nw; eassumption | eapply p_get_ns; eassumption]].
      + destruct s; [|exfalso; first [eapply p_get_nw; eassumption | eapply p_get_ns; eassumption]]. destruct e; try discriminate. injection H as <-. auto.
      + exfalso; first [eapply p_get_nw; eassumption | eapply p_get_ns; eassumption].
    - intros s u o e s' d _ _ H Nd. destruct o; cbn [p_body] in H; try discriminate.
      + destruct s; [injection H as <- <-; congruence|exfalso; first [eapply p_get_nw; eassumption | eapply p_get_ns; eassumption]].
      + destruct s; [|exfalso; first [eapply p_get_nw; eassumption | eapply p_get_ns; eassumption]]. destruct e; try discriminate. injection H as <- <-. congruence.
      + exfalso; first [eapply p_get_nw; eassumption | eapply p_get_ns; eassumption].
    - intros s u o e s' _ _ H. destruct o; cbn [p_body] in H; try discriminate.
      + destruct s; [discriminate|exfalso; first [eapply p_get_nw; eassumption | eapply p_get_ns; eassumption]].
      + destruct s; [|exfalso; first [eapply p_get_nw; eassumption | eapply p_get_ns; eassumption]]. destruct e; try discriminate. injection H as <-. auto.
      + exfalso; first [eapply p_get_nw; eassumption | eapply p_get_ns; eassumption].
    - intros s u o e s' r i a _ _ H. unfold c1. destruct o; cbn [p_body p_reader_op] in *.
      + injection H as <- _ <- <-. rewrite app_length. cbn. lia.
      + destruct s; [discriminate|]. destruct (Gl _ _ _ _ _ _ H) as (L & -> & ->). cbn [nsig filter length] in *. lia.
      + destruct s; [destruct e; try discriminate; injection H as <- _ <- <-; cbn; lia|]. destruct (Gl _ _ _ _ _ _ H) as (L & -> & ->). cbn [nsig filter length] in *. lia.
      + destruct (Gl _ _ _ _ _ _ H) as (L & -> & ->). cbn [nsig filter length] in *. lia.
      + injection H as <- _ <- <-. cbn. lia.
      + injection H as <- _ <- <-. cbn. lia.
      + injection H as <- _ <- <-. cbn. lia.
    - exact R. }
  destruct (C (fun _ _ _ => I)) as [_ [Z|Z]].
  - pose proof (sum_ge (slp 0) _ _ _ Sl) as X. cbn [slp] in X. change (Nat.eqb 0 0) with true in X. cbn iota in X. lia.
  - rewrite sum_total in Z. rewrite <- (total_ext _ (fa 0 p_reader_op)); [exact Z|]. intros x. apply on_the_way_fa.
Qed.
End PQ.

(** ** C27 *)
Lemma s_lin : linearizable s_body false sem_passes sem_does.
Proof.
  apply (lin_intro s_body sem_passes sem_does (fun _ => True)); [| | |exact I].
  - intros s op e s' c _ H. split; [|exact I]. destruct op; cbn in H; try discriminate. destruct s; [discriminate|]. injection H as <- _. repeat split.
  - intros s op e s' _ H. destruct op; cbn in H; try discriminate. destruct s; discriminate.
  - intros s op e s' r i a _ H. split; [|exact I]. destruct op; cbn in H |- *.
    + injection H as <- _ _ _. reflexivity.
    + destruct s; [|discriminate]. injection H as <- _ _ _. auto.
    + injection H as <- <- _ _. auto.
Qed.

Definition b1 (b : bool) : nat := if b then 1 else 0.
Lemma sem_count : forall s h s', seq_run sem_passes sem_does s h s' -> (s_gets h + b1 s' <= s_posts h + b1 s)%nat.
Proof.
  intros s h s' R. induction R as [s|s l s' t op R IH|s l s' t r R IH|s s1 l s' t op e P R IH|s s1 l s' t op e r D R IH].
  - cbn. lia.
  - exact IH.
  - exact IH.
  - destruct P as (-> & -> & ->). exact IH.
  - unfold s_gets, s_posts in *. cbn [filter]. destruct op; cbn [sem_does] in D.
    + subst s1. cbn [length b1] in *. unfold b1 in *. destruct s; lia.
    + destruct D as [-> ->]. cbn [length b1] in *. lia.
    + destruct D as [-> ->]. unfold b1 in *. destruct s; cbn [length] in *; lia.
Qed.

Lemma s_count : forall m, reach s_body false m -> sh m = true -> (exists t op, sleeps m t op 0) -> (1 <= total (on_the_way s_taker) (pcs m))%nat.
Proof.
  intros m R F (t & op & Sl).
  assert (C : count_inv (fun _ _ => True) 0 b1 s_taker m).
  { apply (count_reach s_body (fun _ _ => True) (fun _ => True)) with (s0 := false); try (intros; exact I).
    - intros s u o e s' _ _ H. destruct o; cbn in H; try discriminate. destruct s; [discriminate|]. injection H as <-. auto.
    - intros s u o e s' d _ _ H N. destruct o; cbn in H; try discriminate. destruct s; [discriminate|]. injection H as <- <-. congruence.
    - intros s u o e s' _ _ H. destruct o; cbn in H; try discriminate. destruct s; discriminate.
    - intros s u o e s' r i a _ _ H. unfold c1. destruct o; cbn in H |- *.
      + injection H as <- _ <- <-. cbn. lia.
      + destruct s; [|discriminate]. injection H as <- _ <- <-. cbn. lia.
      + injection H as <- _ <- <-. cbn. lia.
    - exact R. }
  destruct (C (fun _ _ _ => I)) as [_ [Z|Z]].
  - pose proof (sum_ge (slp 0) _ _ _ Sl) as X. cbn [slp] in X. change (Nat.eqb 0 0) with true in X. cbn iota in X. lia.
  - rewrite sum_total in Z. rewrite <- (total_ext _ (fa 0 s_taker)); [|intros x; apply on_the_way_fa]. rewrite F in Z. exact Z.
Qed.
