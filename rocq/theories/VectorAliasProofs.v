(** Sharing and copying of vector storage. *)
From Verif Require Import Base BaseFacts VectorHeapModel VectorHeapSpec VectorHeapProofs.

Lemma reachable_inv : forall w, reachable w -> Inv w.
Proof. intros w (ops & H). apply (vrun_good ops _ inv_empty). assumption. Qed.

(** ** Element writes *)
Lemma store_other : forall w p cs w' c, store w p cs = VOk w' -> (forall i, p <> Some (c, i)) ->
  nth_error (heap w') c = nth_error (heap w) c.
Proof.
  intros w p [|x cs] w' c H N; cbn [store] in H; [injection H as <-; reflexivity|].
  destruct p as [[b off]|]; [|discriminate].
  destruct (nth_error (heap w) b) as [[blk|]|]; try discriminate.
  destruct (Nat.leb (off + length (x :: cs)) (length blk)); [|discriminate]. injection H as <-. cbn [heap length].
  apply nth_error_upd_neq. intros ->. apply (N off). reflexivity.
Qed.

Lemma padd_some : forall p k c i, padd p k = Some (c, i) -> exists j, p = Some (c, j).
Proof. intros [[b off]|] k c i H; [|discriminate]. cbn in H. injection H as <- _. eauto. Qed.

Lemma memcpy_other : forall w d s n w' c, memcpy w d s n = VOk w' -> (forall i, d <> Some (c, i)) ->
  nth_error (heap w') c = nth_error (heap w) c.
Proof.
  intros w d s n w' c H N. unfold memcpy in H. destruct (overlap d s n); [discriminate|].
  destruct (load w s n); try discriminate. cbn [vbind] in H. eapply store_other; eassumption.
Qed.

Ltac vinv H := match type of H with
  | vbind ?r _ = VOk _ => let E := fresh "E" in destruct r eqn:E; cbn [vbind] in H; try discriminate H
  end.

Lemma getv_inv : forall w v x, getv w v = VOk x -> nth_error (env w) v = Some (Some x).
Proof. intros w v x H. unfold getv in H. destruct (nth_error (env w) v) as [[y|]|]; congruence. Qed.


Lemma write_step : forall w op w' vs, is_write vs op -> vstep w op = VOk w' ->
  env w' = env w /\ (forall c, (forall v, vs v -> ~ in_block w v c) -> nth_error (heap w') c = nth_error (heap w) c).
Proof.
  intros w op w' vs W H. destruct op; try contradiction; cbn [is_write vstep] in *.
  - unfold write in H. vinv H. vinv H. apply getv_inv in E. split; [eapply store_env; eassumption|].
    intros c N. eapply store_other; [eassumption|]. intros j P. apply padd_some in P. destruct P as (k & P).
    apply (N v W). exists a, k. auto.
  - unfold fill in H. vinv H. apply getv_inv in E. split; [eapply store_env; eassumption|].
    intros c N. eapply store_other; [eassumption|]. intros j P. apply (N v W). exists a, j. auto.
  - unfold fill_range in H. vinv H. vinv H. apply getv_inv in E. split; [eapply store_env; eassumption|].
    intros c N. eapply store_other; [eassumption|]. intros j P. apply padd_some in P. destruct P as (k & P).
    apply (N v W). exists a, k. auto.
  - unfold copyToSegment in H. do 4 vinv H. apply getv_inv in E0. split; [eapply memcpy_env; eassumption|].
    intros c N. eapply memcpy_other; [eassumption|]. intros j P. apply padd_some in P. destruct P as (k & P).
    apply (N o W). exists a0, k. auto.
  - unfold segmentCopyTo in H. do 4 vinv H. apply getv_inv in E0. split; [eapply memcpy_env; eassumption|].
    intros c N. eapply memcpy_other; [eassumption|]. intros j P.
    apply (N o W). exists a0, j. auto.
Qed.

Lemma write_run : forall ops w w' vs, Forall (is_write vs) ops -> vrun w ops = VOk w' ->
  env w' = env w /\ (forall c, (forall v, vs v -> ~ in_block w v c) -> nth_error (heap w') c = nth_error (heap w) c).
Proof.
  induction ops as [|op t IH]; intros w w' vs F H; cbn [vrun] in H.
  - injection H as <-. auto.
  - inversion F as [|a b Fa Fb]; subst. vinv H. destruct (write_step _ _ _ _ Fa E) as [A B].
    destruct (IH _ _ _ Fb H) as [C D]. split; [congruence|]. intros c N. rewrite D, B; auto.
    intros v V (x & i & X1 & X2). apply (N v V). exists x, i. rewrite <- A. auto.
Qed.

Lemma load_cong : forall w w' p n, (forall c i, p = Some (c, i) -> nth_error (heap w') c = nth_error (heap w) c) ->
  load w' p n = load w p n.
Proof.
  intros w w' p [|n] H; [reflexivity|]. cbn [load]. destruct p as [[c i]|]; [|reflexivity]. rewrite (H c i eq_refl). reflexivity.
Qed.

Lemma contents_cong : forall w w' v, nth_error (env w') v = nth_error (env w) v ->
  (forall c, in_block w v c -> nth_error (heap w') c = nth_error (heap w) c) -> contents w' v = contents w v.
Proof.
  intros w w' v E H. unfold contents. rewrite E. destruct (nth_error (env w) v) as [[x|]|] eqn:Ev; try reflexivity.
  rewrite (load_cong w w'); [reflexivity|]. intros c i P. apply H. exists x, i. auto.
Qed.

(** ** Segments *)
Lemma segment_inv : forall w o s n w1 t, segment w o s n = VOk (w1, t) ->
  exists y, nth_error (env w) o = Some (Some y) /\ s + n <= v_len y /\ t = length (env w) /\ heap w1 = heap w /\
    env w1 = env w ++ [Some (mkVec None (padd (v_start y) s) n)].
Proof.
  intros w o s n w1 t H. unfold segment in H. vinv H. apply getv_inv in E. exists a.
  unfold vassert in H. destruct (Nat.leb_spec (s + n) (v_len a)) as [L|L]; [|discriminate]. cbn [vbind] in H.
  rewrite push_eq in H. injection H as <- <-. repeat split; try assumption. cbn [setv env].
  clear. induction (env w) as [|h l IH]; cbn; [reflexivity|]. f_equal. apply IH.
Qed.

Lemma padd_padd : forall p a b, padd (padd p a) b = padd p (a + b).
Proof. intros [[c i]|] a b; cbn; [|reflexivity]. do 2 f_equal. lia. Qed.

Lemma nth_last : forall A (l : list A) x, nth_error (l ++ [x]) (length l) = Some x.
Proof. intros. rewrite nth_error_app2, Nat.sub_diag by lia. reflexivity. Qed.

Lemma nth_app_old : forall A (l : list A) x i z, nth_error l i = Some z -> nth_error (l ++ [x]) i = Some z.
Proof. intros A l x i z H. rewrite nth_error_app1; [assumption|]. eapply nth_lt. eassumption. Qed.

Lemma segment_shares : forall w o s n w1 t ops w2, segment w o s n = VOk (w1, t) ->
  Forall (is_write (fun _ => True)) ops -> vrun w1 ops = VOk w2 ->
  forall k, k < n -> read w2 t k = read w2 o (s + k).
Proof.
  intros w o s n w1 t ops w2 H F R k Hk. apply segment_inv in H. destruct H as (y & Ey & L & -> & Hh & He).
  destruct (write_run _ _ _ _ F R) as [A _].
  unfold read, getv. rewrite A, He, nth_last, (nth_app_old _ _ _ _ _ Ey). cbn [vbind v_len v_start].
  unfold vassert. destruct (Nat.ltb_spec k n), (Nat.ltb_spec (s + k) (v_len y)); try lia. cbn [vbind].
  rewrite padd_padd. reflexivity.
Qed.

Lemma VOk_inj : forall A (a b : A), VOk a = VOk b -> a = b.
Proof. congruence. Qed.

Lemma write_read : forall w v i z w', write w v i z = VOk w' ->
  read w' v i = VOk (Some z) /\ forall j, j <> i -> read w' v j = read w v j.
Proof.
  intros w v i z w' H. unfold write in H. vinv H. vinv H. apply getv_inv in E.
  unfold vassert in E0. destruct (Nat.ltb_spec i (v_len a)) as [L|L]; [|discriminate].
  pose proof (store_env _ _ _ _ H) as [EE _].
  unfold read, getv. rewrite EE, E. cbn [vbind]. unfold vassert.
  cbn [store] in H. destruct (v_start a) as [[b off]|]; cbn [padd] in *; [|discriminate].
  destruct (nth_error (heap w) b) as [[blk|]|] eqn:B; try discriminate.
  cbn [length] in H. destruct (Nat.leb_spec (off + i + 1) (length blk)) as [M|M]; [|discriminate].
  apply VOk_inj in H. subst w'. cbn [heap].
  set (blk' := firstn (off + i) blk ++ [Some z] ++ skipn (off + i + 1) blk).
  assert (Lb : length blk' = length blk) by (unfold blk'; rewrite !app_length, firstn_length, skipn_length; cbn [length]; lia).
  assert (Nb : forall q, nth_error blk' q = if Nat.eq_dec q (off + i) then Some (Some z) else nth_error blk q).
  { intros q. unfold blk'. destruct (Nat.eq_dec q (off + i)) as [->|N].
    - rewrite nth_error_app2 by (rewrite firstn_length; lia). rewrite firstn_length.
      replace (off + i - Nat.min (off + i) (length blk)) with 0 by lia. reflexivity.
    - destruct (Nat.lt_ge_cases q (off + i)).
      + rewrite nth_error_app1 by (rewrite firstn_length; lia). rewrite nth_error_firstn. destruct (Nat.ltb_spec q (off + i)); [reflexivity|lia].
      + rewrite nth_error_app2 by (rewrite firstn_length; lia). rewrite firstn_length.
        replace (q - Nat.min (off + i) (length blk)) with (S (q - off - i - 1)) by lia. cbn [app nth_error].
        rewrite nth_error_skipn. f_equal. lia. }
  assert (Cell : forall q x, nth_error x q = None -> firstn 1 (skipn q x) = @nil (option Z)).
  { intros q x N. apply nth_error_None in N. rewrite skipn_all2 by assumption. reflexivity. }
  assert (Cell2 : forall q x c, nth_error x q = Some c -> firstn 1 (skipn q x) = [c : option Z]).
  { clear. induction q as [|q IH]; intros [|h t] c N; try discriminate; cbn in *; [congruence|]. apply IH. assumption. }
  cbn [load heap]. rewrite nth_error_upd_eq by (eapply nth_lt; eassumption). rewrite Lb, B.
  split.
  - destruct (Nat.ltb_spec i (v_len a)); [|lia]. cbn [vbind].
    destruct (Nat.leb_spec (off + i + 1) (length blk)); [|lia]. cbn [vbind].
    rewrite (Cell2 _ _ (Some z)); [reflexivity|]. rewrite Nb. destruct (Nat.eq_dec (off + i) (off + i)); congruence.
  - intros j N. destruct (Nat.ltb j (v_len a)); [|reflexivity]. cbn [vbind].
    destruct (Nat.leb_spec (off + j + 1) (length blk)); [|reflexivity]. cbn [vbind].
    replace (firstn 1 (skipn (off + j) blk')) with (firstn 1 (skipn (off + j) blk)); [reflexivity|].
    destruct (nth_error blk (off + j)) as [c|] eqn:Ec.
    + rewrite (Cell2 _ _ _ Ec). symmetry. apply Cell2. rewrite Nb. destruct (Nat.eq_dec (off + j) (off + i)); [lia|assumption].
    + apply nth_error_None in Ec. lia.
Qed.

(** ** Cloning *)
Lemma upd_same : forall A (l : list A) v x, v < length l -> nth_error (upd l v x) v = Some x.
Proof. intros. apply nth_error_upd_eq. assumption. Qed.

Lemma load_some : forall w p n cs, load w p n = VOk cs -> length cs = n.
Proof.
  intros w p [|n] cs H; cbn [load] in H; [injection H as <-; reflexivity|].
  destruct p as [[b off]|]; [|discriminate]. destruct (nth_error (heap w) b) as [[blk|]|]; try discriminate.
  destruct (Nat.leb_spec (off + S n) (length blk)); [|discriminate]. apply VOk_inj in H. subst cs.
  rewrite firstn_length, skipn_length. lia.
Qed.

Lemma contents_inv : forall w v cs, contents w v = Some cs ->
  exists x, nth_error (env w) v = Some (Some x) /\ load w (v_start x) (v_len x) = VOk cs /\ length cs = v_len x.
Proof.
  intros w v cs H. unfold contents in H. destruct (nth_error (env w) v) as [[x|]|]; try discriminate.
  exists x. split; [reflexivity|]. destruct (load w (v_start x) (v_len x)) as [c| | | |] eqn:E; try discriminate.
  injection H as ->. split; [reflexivity|]. eapply load_some. eassumption.
Qed.

Lemma clone_spec : forall w v o x y cs, Inv w -> v <> o ->
  nth_error (env w) v = Some (Some x) -> nth_error (env w) o = Some (Some y) -> contents w o = Some cs ->
  (forall b i, v_data x = Some b -> v_start y <> Some (b, i)) ->
  exists w', clone w v o = VOk w' /\ contents w' v = Some cs /\
    (forall u, u <> v -> nth_error (env w') u = nth_error (env w) u) /\
    (forall c, c < length (heap w) -> v_data x <> Some c -> nth_error (heap w') c = nth_error (heap w) c) /\
    length (env w') = length (env w) /\
    (exists x', nth_error (env w') v = Some (Some x') /\ v_len x' = v_len y /\
       (v_len y = 0 -> x' = null_vec) /\ (v_len y <> 0 -> x' = fresh_vec (length (heap w)) (v_len y))).
Proof.
  intros w v o x y cs I N Ev Eo C D.
  destruct (contents_inv _ _ _ C) as (y' & Eo' & Lo & Lc). assert (y' = y) by congruence. subst y'.
  unfold clone. rewrite (getv_some _ _ _ Eo). cbn [vbind]. rewrite (resize_eq _ _ _ _ I Ev). cbn [vbind].
  assert (Lr : length (released w x) = length (heap w)) by (unfold released; destruct (v_data x); rewrite ?upd_length; reflexivity).
  assert (Rr : forall c, v_data x <> Some c -> nth_error (released w x) c = nth_error (heap w) c).
  { intros c Hc. unfold released. destruct (v_data x) as [b|]; [|reflexivity]. apply nth_error_upd_neq. congruence. }
  pose proof (nth_lt _ _ _ _ Ev) as Lv.
  destruct (v_len y) as [|n] eqn:Ly.
  - assert (cs = []) by (destruct cs; [reflexivity|discriminate]). subst cs.
    unfold getv. cbn [env]. rewrite upd_same by assumption. rewrite nth_error_upd_neq by congruence. rewrite Eo. cbn [vbind null_vec v_data].
    rewrite Ly. unfold memcpy. cbn [overlap load vbind store]. eexists. split; [reflexivity|].
    unfold contents. cbn [env heap]. rewrite upd_same by assumption. cbn [null_vec v_start v_len load].
    split; [reflexivity|]. split; [intros u Hu; apply nth_error_upd_neq; congruence|].
    split; [intros c Hc Hd; apply Rr; assumption|]. split; [apply upd_length|].
    exists null_vec. repeat split; congruence.
  - unfold getv. cbn [env]. rewrite upd_same by assumption. rewrite nth_error_upd_neq by congruence. rewrite Eo.
    cbn [vbind fresh_vec v_data]. rewrite Ly, Lr.
    destruct (v_start y) as [[b off]|] eqn:Sy; [|cbn in Lo; discriminate].
    assert (Hb : b < length (heap w)) by (apply (I_view _ I _ _ _ _ Eo Sy)).
    assert (Nb : v_data x <> Some b) by (intros X; apply (D b off X); reflexivity).
    unfold memcpy. cbn [overlap]. replace (Nat.eqb (length (heap w)) b) with false by (symmetry; apply Nat.eqb_neq; lia).
    cbn [andb]. 
    set (w1 := mkW (released w x ++ [Some (repeat None (S n))]) (upd (env w) v (Some (fresh_vec (length (heap w)) (S n))))).
    assert (Lw : load w1 (Some (b, off)) (S n) = VOk cs).
    { rewrite <- Lo. apply load_cong. intros c i P. injection P as <- <-. unfold w1. cbn [heap].
      rewrite nth_error_app1 by lia. apply Rr. assumption. }
    fold w1. rewrite Lw. cbn [vbind].
    destruct cs as [|c0 cs]; [discriminate|].
    assert (Hl : nth_error (heap w1) (length (heap w)) = Some (Some (repeat None (S n)))).
    { unfold w1. cbn [heap]. rewrite <- Lr. apply nth_last. }
    unfold store. rewrite Hl. rewrite repeat_length.
    destruct (Nat.leb_spec (0 + length (c0 :: cs)) (S n)) as [M|M]; [|lia]. cbn [firstn app].
    replace (skipn (0 + length (c0 :: cs)) (repeat None (S n))) with (@nil (option Z)).
    2:{ symmetry. apply skipn_all2. rewrite repeat_length. lia. }
    rewrite app_nil_r. eexists. split; [reflexivity|].
    assert (Hx : nth_error (env w1) v = Some (Some (fresh_vec (length (heap w)) (S n)))).
    { unfold w1. cbn [env]. apply upd_same. assumption. }
    unfold contents. cbn [env heap]. rewrite Hx. cbn [fresh_vec v_start v_len load].
    cbn [heap]. rewrite nth_error_upd_eq by (eapply nth_lt; eassumption).
    destruct (Nat.leb_spec (0 + S n) (length (c0 :: cs))) as [M'|M']; [|lia].
    split; [cbn [skipn]; rewrite firstn_all2 by lia; reflexivity|].
    split; [intros u Hu; apply nth_error_upd_neq; congruence|].
    split.
    { intros c Hc Hd. rewrite nth_error_upd_neq by lia. unfold w1. cbn [heap]. rewrite nth_error_app1 by lia. apply Rr. assumption. }
    split; [unfold w1; apply upd_length|].
    exists (fresh_vec (length (heap w)) (S n)). repeat split; congruence.
Qed.

(** A vector whose storage no other vector uses. *)
Definition exclusive (w : world) (t : nat) : Prop := forall u c, u <> t -> in_block w t c -> ~ in_block w u c.

Lemma exclusive_writes : forall w t ops w', exclusive w t -> vrun w ops = VOk w' ->
  (Forall (is_write (fun u => u <> t)) ops -> contents w' t = contents w t) /\
  (Forall (is_write (fun u => u = t)) ops -> forall u, u <> t -> contents w' u = contents w u).
Proof.
  intros w t ops w' X R. split; intros F.
  - destruct (write_run _ _ _ _ F R) as [A B]. apply contents_cong; [rewrite A; reflexivity|].
    intros c Hc. apply B. intros v V. apply X; assumption.
  - intros u Hu. destruct (write_run _ _ _ _ F R) as [A B]. apply contents_cong; [rewrite A; reflexivity|].
    intros c Hc. apply B. intros v -> K. exact (X u c Hu K Hc).
Qed.

(** After cloning into a new object. *)
Lemma clone_new : forall w o cs, Inv w -> contents w o = Some cs ->
  exists w', clone (fst (push w)) (length (env w)) o = VOk w' /\ contents w' (length (env w)) = Some cs /\
    exclusive w' (length (env w)) /\
    (forall u, u < length (env w) -> nth_error (env w') u = nth_error (env w) u /\ contents w' u = contents w u) /\
    length (env w') = S (length (env w)) /\
    (exists x', nth_error (env w') (length (env w)) = Some (Some x') /\
       (cs = [] -> x' = null_vec) /\ (cs <> [] -> v_data x' = Some (length (heap w)))).
Proof.
  intros w o cs I C. set (t := length (env w)).
  destruct (contents_inv _ _ _ C) as (y & Eo & Lo & Lc).
  pose proof (nth_lt _ _ _ _ Eo) as Ho.
  assert (Cp : contents (fst (push w)) o = Some cs).
  { unfold contents. rewrite (push_old _ _ _ Eo). unfold load in *. cbn [push fst heap]. rewrite Lo. reflexivity. }
  destruct (clone_spec (fst (push w)) t o null_vec y cs) as (w' & E & Cw & En & Hh & Ln & x' & Ex & Lx & X0 & X1).
  - apply inv_push. assumption.
  - unfold t. lia.
  - apply push_get.
  - apply push_old. assumption.
  - assumption.
  - discriminate.
  - exists w'. cbn [push fst heap] in Hh, X1.
    assert (Old : forall u, u < t -> nth_error (env w') u = nth_error (env w) u).
    { intros u Hu. rewrite En by lia. cbn [push fst env]. apply nth_error_app1. assumption. }
    assert (Hold : forall c, c < length (heap w) -> nth_error (heap w') c = nth_error (heap w) c).
    { intros c Hc. apply Hh; [assumption|discriminate]. }
    assert (LE : length (env w') = S t) by (rewrite Ln; cbn [push fst env]; rewrite app_length; cbn [length]; unfold t; lia).
    split; [assumption|]. split; [assumption|]. split.
    { intros u c Hu (x2 & i & P1 & P2) (z & j & Z1 & Z2).
      rewrite Ex in P1. injection P1 as <-.
      pose proof (nth_lt _ _ _ _ Z1).
      rewrite Old in Z1 by lia. pose proof (I_view _ I _ _ _ _ Z1 Z2) as [Hc _].
      destruct (Nat.eq_dec (v_len y) 0) as [Zy|Zy].
      - rewrite (X0 Zy) in P2. discriminate.
      - rewrite (X1 Zy) in P2. cbn in P2. injection P2 as <- <-. lia. }
    split.
    { intros u Hu. split; [apply Old; assumption|]. apply contents_cong; [apply Old; assumption|].
      intros c (z & j & Z1 & Z2). apply Hold. apply (I_view _ I _ _ _ _ Z1 Z2). }
    split; [assumption|]. exists x'. split; [assumption|]. split.
    + intros ->. apply X0. cbn in Lc. congruence.
    + intros Nc. rewrite X1; [reflexivity|]. destruct cs; [congruence|]. cbn in Lc. lia.
Qed.

Lemma copy_owner : forall w o b, Inv w -> owns w o b ->
  exists w' t cs, copy_bv w o = VOk (w', t) /\ contents w o = Some cs /\ contents w' t = Some cs /\
    contents w' o = Some cs /\ t <> o /\ exclusive w' t.
Proof.
  intros w o b I (y & Eo & Dy).
  destruct (I_own _ I _ _ _ Eo Dy) as (blk & A & St & L).
  assert (C : contents w o = Some blk).
  { unfold contents. rewrite Eo, St, L. unfold load. destruct blk as [|c0 blk]; [reflexivity|]. cbn [length].
    rewrite A. destruct (Nat.leb_spec (0 + S (length blk)) (length (c0 :: blk))) as [M|M]; [|cbn [length] in M; lia].
    cbn [skipn]. rewrite firstn_all2 by (cbn [length]; lia). reflexivity. }
  destruct (clone_new w o blk I C) as (w' & E & Ct & X & Old & _).
  exists w', (length (env w)), blk. unfold copy_bv. rewrite (getv_some _ _ _ Eo). cbn [vbind]. rewrite push_eq, Dy.
  cbn [push fst] in E. rewrite E. cbn [vbind]. split; [reflexivity|]. split; [assumption|]. split; [assumption|].
  pose proof (nth_lt _ _ _ _ Eo). split; [|split; [lia|assumption]].
  destruct (Old o) as [_ ->]; assumption.
Qed.

Lemma copy_const_spec : forall w o cs, Inv w -> contents w o = Some cs ->
  exists w' t, copy_const w o = VOk (w', t) /\ contents w' t = Some cs /\ contents w' o = Some cs /\ t <> o /\ exclusive w' t.
Proof.
  intros w o cs I C. destruct (clone_new w o cs I C) as (w' & E & Ct & X & Old & _).
  exists w', (length (env w)). unfold copy_const. rewrite push_eq. cbn [push fst] in E. rewrite E. cbn [vbind].
  destruct (contents_inv _ _ _ C) as (y & Eo & _). pose proof (nth_lt _ _ _ _ Eo).
  split; [reflexivity|]. split; [assumption|]. destruct (Old o) as [_ ->]; [assumption|]. split; [assumption|]. split; [lia|assumption].
Qed.

(** Copying an alias gives an alias of the same storage. *)
Lemma copy_alias : forall w o y, nth_error (env w) o = Some (Some y) -> v_data y = None ->
  exists w' t, copy_bv w o = VOk (w', t) /\ t <> o /\ nth_error (env w') o = Some (Some y) /\ nth_error (env w') t = Some (Some y) /\ heap w' = heap w.
Proof.
  intros w o y Eo D. exists (mkW (heap w) (env w ++ [Some y])), (length (env w)).
  unfold copy_bv. rewrite (getv_some _ _ _ Eo). cbn [vbind]. rewrite D, push_eq. unfold makeAlias.
  pose proof (push_get w) as G. pose proof (push_old _ _ _ Eo) as Go. cbn [push fst] in G, Go.
  rewrite (getv_some _ _ _ G). cbn [vbind]. rewrite (getv_some _ _ _ Go). cbn [vbind null_vec v_data].
  rewrite (getv_some _ _ _ G). cbn [vbind]. rewrite (getv_some _ _ _ Go). cbn [vbind null_vec v_data].
  pose proof (nth_lt _ _ _ _ Eo). split.
  - f_equal. f_equal. unfold setv. cbn [heap env]. f_equal. destruct y as [d s l]. cbn in D. subst d. cbn [v_start v_len].
    clear. induction (env w) as [|h t IH]; cbn; [reflexivity|]. f_equal. apply IH.
  - split; [lia|]. cbn [env]. split; [apply nth_app_old; assumption|]. split; [apply nth_last|reflexivity].
Qed.

Lemma same_view_reads : forall w ops w' u v y, nth_error (env w) u = Some (Some y) -> nth_error (env w) v = Some (Some y) ->
  Forall (is_write (fun _ => True)) ops -> vrun w ops = VOk w' -> contents w' u = contents w' v /\ forall k, read w' u k = read w' v k.
Proof.
  intros w ops w' u v y Eu Ev F R. destruct (write_run _ _ _ _ F R) as [A _]. split.
  - unfold contents. rewrite A, Eu, Ev. reflexivity.
  - intros k. unfold read, getv. rewrite A, Eu, Ev. reflexivity.
Qed.

(** cloneSegment *)
Lemma segment_contents : forall w o s n w1 t cs, contents w o = Some cs -> segment w o s n = VOk (w1, t) ->
  contents w1 t = Some (firstn n (skipn s cs)).
Proof.
  intros w o s n w1 t cs C H. apply segment_inv in H. destruct H as (y & Ey & L & -> & Hh & He).
  destruct (contents_inv _ _ _ C) as (y' & Ey' & Lo & Lc). assert (y' = y) by congruence. subst y'.
  unfold contents. rewrite He, nth_last. cbn [v_start v_len]. unfold load in *. rewrite Hh.
  destruct n as [|n]; [reflexivity|]. destruct (v_len y) as [|m] eqn:Ly; [lia|].
  destruct (v_start y) as [[b off]|]; [|discriminate]. cbn [padd].
  destruct (nth_error (heap w) b) as [[blk|]|]; try discriminate.
  destruct (Nat.leb_spec (off + S m) (length blk)) as [M|M]; [|discriminate].
  destruct (Nat.leb_spec (off + s + S n) (length blk)) as [M'|M']; [|lia].
  apply VOk_inj in Lo. subst cs. f_equal. apply nth_error_ext. intros j.
  rewrite !nth_error_firstn. destruct (Nat.ltb_spec j (S n)); [|reflexivity].
  rewrite !nth_error_skipn, nth_error_firstn, nth_error_skipn.
  destruct (Nat.ltb_spec (s + j) (S m)); [f_equal; lia|lia].
Qed.

Lemma cloneSegment_spec : forall w o s n cs, Inv w -> contents w o = Some cs -> s + n <= length cs ->
  exists w' t, cloneSegment w o s n = VOk (w', t) /\ contents w' t = Some (firstn n (skipn s cs)) /\
    contents w' o = Some cs /\ t <> o /\ exclusive w' t.
Proof.
  intros w o s n cs I C L.
  destruct (contents_inv _ _ _ C) as (y & Eo & Lo & Lc). pose proof (nth_lt _ _ _ _ Eo) as Ho.
  assert (E1 : exists w1, segment w o s n = VOk (w1, length (env w))).
  { unfold segment. rewrite (getv_some _ _ _ Eo). cbn [vbind]. unfold vassert.
    destruct (Nat.leb_spec (s + n) (v_len y)); [|lia]. cbn [vbind]. rewrite push_eq. eauto. }
  destruct E1 as (w1 & E1). set (g := length (env w)) in *.
  pose proof (segment_contents _ _ _ _ _ _ _ C E1) as C1.
  assert (I1 : Inv w1). { pose proof (segment_good w o s n I) as [_ G]. apply G. unfold fstw. rewrite E1. reflexivity. }
  destruct (segment_inv _ _ _ _ _ _ E1) as (y1 & Ey1 & _ & _ & Hh1 & He1).
  assert (Co1 : contents w1 o = Some cs).
  { rewrite <- C. apply contents_cong; [rewrite He1; apply nth_error_app1; assumption|]. intros c _. rewrite Hh1. reflexivity. }
  set (seg := firstn n (skipn s cs)) in *.
  destruct (clone_new w1 g seg I1 C1) as (w3 & E3 & C3 & X3 & Old & Len3 & x' & Ex' & _).
  assert (Lg : length (env w1) = S g) by (rewrite He1, app_length; cbn [length]; unfold g; lia).
  set (r := length (env w1)) in *.
  assert (I3 : Inv w3). { pose proof (clone_good _ r g (inv_push _ I1)) as [_ G]. apply G. exact E3. }
  assert (Eg : nth_error (env w3) g = Some (Some (mkVec None (padd (v_start y1) s) n))).
  { destruct (Old g) as [-> _]; [lia|]. rewrite He1. apply nth_last. }
  set (w4 := mkW (heap w3) (upd (env w3) g None)).
  exists w4, r. unfold cloneSegment. rewrite E1. cbn [vbind].
  unfold new_vec. rewrite push_eq. unfold vInit.
  pose proof (push_get w1) as Gr. cbn [push fst] in Gr. rewrite (getv_some _ _ _ Gr). cbn [vbind].
  replace (setv {| heap := heap w1; env := env w1 ++ [Some null_vec] |} (length (env w1)) (Some null_vec)) with (fst (push w1)).
  2:{ cbn [push fst]. unfold setv. cbn [heap env]. f_equal. clear. induction (env w1) as [|h t IH]; cbn; [reflexivity|]. f_equal. apply IH. }
  fold r. rewrite E3. cbn [vbind].
  assert (De : destroy w3 g = VOk w4).
  { unfold destroy, clear. rewrite (resize_eq _ _ _ _ I3 Eg). cbn [vbind]. unfold released. cbn [v_data].
    unfold setv, w4. cbn [heap env]. rewrite upd_upd. reflexivity. }
  rewrite De. cbn [vbind]. split; [reflexivity|].
  assert (K : forall u, u <> g -> nth_error (env w4) u = nth_error (env w3) u) by (intros u Hu; unfold w4; cbn [env]; apply nth_error_upd_neq; congruence).
  assert (Cc : forall u, u <> g -> contents w4 u = contents w3 u).
  { intros u Hu. apply contents_cong; [apply K; assumption|]. intros; reflexivity. }
  split; [rewrite Cc by lia; assumption|].
  split.
  { rewrite Cc by lia. destruct (Old o) as [_ ->]; [lia|]. assumption. }
  split; [lia|].
  intros u c Hu (z & i & Z1 & Z2) (z' & i' & Z1' & Z2').
  rewrite K in Z1 by lia. destruct (Nat.eq_dec u g) as [->|Ng].
  - unfold w4 in Z1'. cbn [env] in Z1'. rewrite upd_same in Z1' by lia. discriminate.
  - rewrite K in Z1' by assumption. apply (X3 u c Hu); [exists z, i|exists z', i']; auto.
Qed.

(** ** Assignment (C14) *)
Lemma assign_self_owner : forall w v b, Inv w -> owns w v b ->
  exists w' cs, assign w v v = VOk w' /\ contents w v = Some cs /\ contents w' v = Some (repeat None (length cs)).
Proof.
  intros w v b I (x & E & D).
  destruct (I_own _ I _ _ _ E D) as (blk & A & St & L).
  assert (C : contents w v = Some blk).
  { unfold contents. rewrite E, St, L. unfold load. destruct blk as [|c0 blk]; [reflexivity|]. cbn [length].
    rewrite A. destruct (Nat.leb_spec (0 + S (length blk)) (length (c0 :: blk))) as [M|M]; [|cbn [length] in M; lia].
    cbn [skipn]. rewrite firstn_all2 by (cbn [length]; lia). reflexivity. }
  unfold assign. rewrite (getv_some _ _ _ E). cbn [vbind]. rewrite D. unfold clone. rewrite (getv_some _ _ _ E). cbn [vbind].
  rewrite (resize_eq _ _ _ _ I E). cbn [vbind]. rewrite L. pose proof (nth_lt _ _ _ _ E) as Lv.
  destruct blk as [|c0 blk]; cbn [length].
  - unfold getv. cbn [env]. rewrite upd_same by assumption. cbn [vbind null_vec v_data v_start v_len]. unfold memcpy. cbn [overlap load vbind store].
    eexists. exists []. split; [reflexivity|]. split; [assumption|]. unfold contents. cbn [env]. rewrite upd_same by assumption. reflexivity.
  - set (n := S (length blk)). unfold getv. cbn [env]. rewrite upd_same by assumption. cbn [vbind fresh_vec v_data v_start v_len].
    set (h := released w x). unfold memcpy. cbn [overlap]. rewrite !Nat.eqb_refl. cbn [negb andb].
    assert (Hn : nth_error (h ++ [Some (repeat None n)]) (length h) = Some (Some (repeat (@None Z) n))) by apply nth_last.
    set (w1 := mkW (h ++ [Some (repeat None n)]) (upd (env w) v (Some (fresh_vec (length h) n)))).
    assert (Lw : load w1 (Some (length h, 0)) n = VOk (repeat None n)).
    { unfold load, n at 1, w1. cbn [heap]. rewrite Hn, repeat_length. fold n.
      destruct (Nat.leb_spec (0 + n) n); [|lia]. cbn [skipn]. rewrite firstn_all2 by (rewrite repeat_length; lia). reflexivity. }
    fold w1. rewrite Lw. cbn [vbind].
    assert (Sw : store w1 (Some (length h, 0)) (repeat None n) = VOk (mkW (upd (heap w1) (length h) (Some (repeat None n))) (env w1))).
    { unfold store, n at 1. cbn [repeat]. change (None :: repeat None (length blk)) with (repeat (@None Z) n).
      unfold w1 at 1. cbn [heap]. rewrite Hn, !repeat_length. destruct (Nat.leb_spec (0 + n) n); [|lia]. cbn [firstn app].
      rewrite skipn_all2 by (rewrite repeat_length; lia). rewrite app_nil_r. reflexivity. }
    rewrite Sw. eexists. exists (c0 :: blk). split; [reflexivity|]. split; [assumption|].
    unfold contents. cbn [env heap]. unfold w1 at 1. cbn [env]. rewrite upd_same by assumption. cbn [fresh_vec v_start v_len].
    unfold load, n at 1. cbn [heap].
    rewrite nth_error_upd_eq by (unfold w1; cbn [heap]; rewrite app_length; cbn [length]; lia).
    rewrite repeat_length. fold n. destruct (Nat.leb_spec (0 + n) n); [|lia]. cbn [skipn length]. fold n.
    rewrite firstn_all2 by (rewrite repeat_length; lia). reflexivity.
Qed.

Lemma shift_self : forall w v, Inv w -> alive w v -> exists w', shiftMem w v v = VOk w' /\ contents w' v = Some [].
Proof.
  intros w v I (x & E). unfold shiftMem, clear. rewrite (resize_eq _ _ _ _ I E). cbn [vbind].
  pose proof (nth_lt _ _ _ _ E) as Lv.
  unfold getv. cbn [env]. rewrite upd_same by assumption. cbn [vbind setv env heap]. rewrite upd_upd, upd_same by assumption. cbn [vbind].
  eexists. split; [reflexivity|]. unfold contents. cbn [setv env]. rewrite !upd_upd, upd_same by assumption. reflexivity.
Qed.


Lemma assign_from_inside : forall w v o y, Inv w -> v <> o -> nth_error (env w) o = Some (Some y) -> v_len y <> 0 ->
  looks_into w o v ->
  exists w', assign w v o = VOk w' /\ contents w' v = None /\
    forall i, read w' v i = if Nat.ltb i (v_len y) then VBadAccess else VAbort.
Proof.
  intros w v o y I N Eo Ny (b & (x & Ev & Dx) & (y' & i & Eo' & Sy)).
  assert (y' = y) by congruence. subst y'.
  assert (Dy : v_data y = None).
  { destruct (v_data y) as [c|] eqn:Dy; [|reflexivity]. exfalso. apply N.
    destruct (I_own _ I _ _ _ Eo Dy) as (blk & _ & St & _). rewrite Sy in St. injection St as -> ->.
    apply (I_uniq _ I v o c); [exists x|exists y]; auto. }
  unfold assign. rewrite (getv_some _ _ _ Eo). cbn [vbind]. rewrite Dy. unfold makeAlias.
  rewrite (getv_some _ _ _ Ev). cbn [vbind]. rewrite (getv_some _ _ _ Eo). cbn [vbind]. rewrite Dx, Dy. cbn [vassert vbind].
  unfold clear. rewrite (resize_eq _ _ _ _ I Ev). cbn [vbind]. pose proof (nth_lt _ _ _ _ Ev) as Lv.
  unfold getv. cbn [env]. rewrite upd_same by assumption. rewrite nth_error_upd_neq by congruence. rewrite Eo. cbn [vbind null_vec v_data].
  eexists. split; [reflexivity|].
  assert (Hb : nth_error (released w x) b = Some None).
  { unfold released. rewrite Dx. apply upd_same. destruct (I_own _ I _ _ _ Ev Dx) as (blk & A & _). eapply nth_lt. eassumption. }
  assert (En : forall k, nth_error (env (setv (mkW (released w x) (upd (env w) v (Some null_vec))) v k)) v = Some k).
  { intros k. cbn [setv env]. rewrite upd_upd. apply upd_same. assumption. }
  split.
  - unfold contents. rewrite En. cbn [v_start v_len]. rewrite Sy. unfold load. destruct (v_len y); [congruence|].
    cbn [setv heap]. rewrite Hb. reflexivity.
  - intros k. unfold read, getv. rewrite En. cbn [vbind v_start v_len]. rewrite Sy. cbn [padd load setv heap]. rewrite Hb.
    unfold vassert. destruct (Nat.ltb k (v_len y)); reflexivity.
Qed.

Lemma alias_store_same : forall w v o x y cs, Inv w -> v <> o ->
  nth_error (env w) v = Some (Some x) -> nth_error (env w) o = Some (Some y) -> contents w o = Some cs ->
  (forall b i, v_data x = Some b -> v_start y <> Some (b, i)) -> v_data y = None ->
  exists w', makeAlias w v o = VOk w' /\ contents w' v = Some cs /\ contents w' o = Some cs.
Proof.
  intros w v o x y cs I N Ev Eo C D Dy. pose proof (nth_lt _ _ _ _ Ev) as Lv.
  destruct (contents_inv _ _ _ C) as (y' & Eo' & Lo & Lc). assert (y' = y) by congruence. subst y'.
  unfold makeAlias. rewrite (getv_some _ _ _ Ev). cbn [vbind]. rewrite (getv_some _ _ _ Eo). cbn [vbind].
  assert (K : forall h d, (forall c i, v_start y = Some (c, i) -> nth_error h c = nth_error (heap w) c) ->
    contents (mkW h (upd (env w) v (Some (mkVec d (v_start y) (v_len y))))) v = Some cs /\
    contents (mkW h (upd (env w) v (Some (mkVec d (v_start y) (v_len y))))) o = Some cs).
  { intros h d Hh. unfold contents. cbn [env]. rewrite upd_same by assumption. rewrite nth_error_upd_neq by congruence. rewrite Eo. cbn [v_start v_len].
    assert (Lx : load (mkW h (upd (env w) v (Some (mkVec d (v_start y) (v_len y))))) (v_start y) (v_len y) = VOk cs).
    { rewrite <- Lo. apply load_cong. exact Hh. }
    rewrite Lx. auto. }
  destruct (v_data x) as [b|] eqn:Dx.
  - rewrite Dy. cbn [vassert vbind]. unfold clear. rewrite (resize_eq _ _ _ _ I Ev). cbn [vbind].
    unfold getv. cbn [env]. rewrite upd_same by assumption. rewrite nth_error_upd_neq by congruence. rewrite Eo. cbn [vbind null_vec v_data].
    eexists. split; [reflexivity|]. unfold setv. cbn [heap env]. rewrite upd_upd. apply K.
    intros c i P. unfold released. rewrite Dx. apply nth_error_upd_neq. intros ->. exact (D c i eq_refl P).
  - cbn [vbind]. rewrite (getv_some _ _ _ Ev). cbn [vbind]. rewrite (getv_some _ _ _ Eo). cbn [vbind].
    eexists. split; [reflexivity|]. apply K. reflexivity.
Qed.

Lemma assign_distinct : forall w v o cs, Inv w -> v <> o -> alive w v -> contents w o = Some cs -> ~ looks_into w o v ->
  exists w', assign w v o = VOk w' /\ contents w' v = Some cs /\ contents w' o = Some cs.
Proof.
  intros w v o cs I N (x & Ev) C L. destruct (contents_inv _ _ _ C) as (y & Eo & Lo & Lc).
  assert (D : forall b i, v_data x = Some b -> v_start y <> Some (b, i)).
  { intros b i Dx P. apply L. exists b. split; [exists x; auto|exists y, i; auto]. }
  unfold assign. rewrite (getv_some _ _ _ Eo). cbn [vbind]. destruct (v_data y) as [c|] eqn:Dy.
  - destruct (clone_spec w v o x y cs I N Ev Eo C D) as (w' & E & Cw & En & Hh & _).
    exists w'. split; [assumption|]. split; [assumption|]. rewrite <- C. apply contents_cong; [apply En; congruence|].
    intros b (y' & i & Y1 & Y2). assert (y' = y) by congruence. subst y'. apply Hh.
    + apply (I_view _ I _ _ _ _ Y1 Y2).
    + intros X. exact (D b i X Y2).
  - eapply alias_store_same; eassumption.
Qed.

Lemma shift_distinct : forall w v o cs, Inv w -> v <> o -> alive w v -> contents w o = Some cs -> ~ looks_into w o v ->
  exists w', shiftMem w v o = VOk w' /\ contents w' v = Some cs /\ contents w' o = Some cs /\
    (forall b, owns w' v b <-> owns w o b) /\ (forall b, ~ owns w' o b).
Proof.
  intros w v o cs I N (x & Ev) C L. destruct (contents_inv _ _ _ C) as (y & Eo & Lo & Lc).
  assert (D : forall b i, v_data x = Some b -> v_start y <> Some (b, i)).
  { intros b i Dx P. apply L. exists b. split; [exists x; auto|exists y, i; auto]. }
  pose proof (nth_lt _ _ _ _ Ev) as Lv. pose proof (nth_lt _ _ _ _ Eo) as Lo'.
  unfold shiftMem, clear. rewrite (resize_eq _ _ _ _ I Ev). cbn [vbind].
  unfold getv. cbn [env setv heap]. rewrite nth_error_upd_neq by congruence. rewrite Eo. cbn [vbind]. rewrite upd_upd.
  rewrite nth_error_upd_neq by congruence. rewrite Eo. cbn [vbind].
  set (e := upd (upd (env w) v (Some y)) o (Some (mkVec None (v_start y) (v_len y)))).
  exists (mkW (released w x) e).
  assert (E1 : nth_error e v = Some (Some y)).
  { unfold e. rewrite nth_error_upd_neq by congruence. apply upd_same. assumption. }
  assert (E2 : nth_error e o = Some (Some (mkVec None (v_start y) (v_len y)))).
  { unfold e. apply upd_same. rewrite upd_length. assumption. }
  split; [unfold setv; cbn [heap env]; rewrite upd_upd; reflexivity|].
  assert (Lx : load (mkW (released w x) e) (v_start y) (v_len y) = VOk cs).
  { rewrite <- Lo. apply load_cong. intros c i P. cbn [heap]. unfold released. destruct (v_data x) as [b|]; [|reflexivity].
    apply nth_error_upd_neq. intros ->. exact (D c i eq_refl P). }
  unfold contents. cbn [env]. rewrite E1, E2. cbn [v_start v_len]. rewrite Lx. split; [reflexivity|]. split; [reflexivity|].
  unfold owns. cbn [env]. rewrite E1, E2, Eo. split.
  - intros b. split; intros (z & Z1 & Z2); exists z; auto.
  - intros b (z & Z1 & Z2). injection Z1 as <-. discriminate.
Qed.
