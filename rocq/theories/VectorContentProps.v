(** Property C65: what concatenation, filling and copying leave in the vectors. *)
From Verif Require Import Base BaseFacts VectorHeapModel VectorHeapSpec VectorHeapProofs VectorAliasProofs VectorHeapProps.

(** Spec: [new] put over the elements of [cs] from [off] on. *)
Definition splice (cs : list cell) (off : nat) (new : list cell) : list cell := firstn off cs ++ new ++ skipn (off + length new) cs.
(** Spec: where element [k] of vector [v] is stored. *)
Definition place (w : world) (v k : nat) : option (nat * nat) :=
  match nth_error (env w) v with
  | Some (Some x) => if Nat.ltb k (v_len x) then match v_start x with Some (b, i) => Some (b, i + k) | None => None end else None
  | _ => None
  end.

(** A cell of the memory. *)
Definition mem (w : world) (b i : nat) : option cell := match nth_error (heap w) b with Some (Some blk) => nth_error blk i | _ => None end.
Lemma load_mem w b off n cs : load w (Some (b, off)) n = VOk cs -> length cs = n /\ forall k, k < n -> mem w b (off + k) = nth_error cs k.
Proof.
  destruct n as [|n]; intros H; [apply VOk_inj in H; subst; split; [reflexivity|lia]|]. unfold load in H. unfold mem. destruct (nth_error (heap w) b) as [[blk|]|]; try discriminate.
  destruct (Nat.leb_spec (off + S n) (length blk)) as [L|L]; [|discriminate]. apply VOk_inj in H. subst cs. split; [rewrite firstn_length, skipn_length; lia|].
  intros k K. rewrite nth_error_firstn, nth_error_skipn. destruct (Nat.ltb_spec k (S n)); [reflexivity|lia].
Qed.
Lemma mem_load w b off n cs : 0 < n -> length cs = n -> (forall k, k < n -> mem w b (off + k) = nth_error cs k) -> load w (Some (b, off)) n = VOk cs.
Proof.
  intros P L M. destruct n as [|n]; [lia|]. unfold load. unfold mem in M. destruct (nth_error (heap w) b) as [[blk|]|].
  - assert (S0 : off + S n <= length blk). { specialize (M n ltac:(lia)). destruct (nth_error cs n) eqn:Q; [|apply nth_error_None in Q; lia]. assert (off + n < length blk) by (apply nth_error_Some; rewrite M; discriminate). lia. }
    destruct (Nat.leb_spec (off + S n) (length blk)); [|lia]. f_equal. apply nth_error_ext. intros k. rewrite nth_error_firstn, nth_error_skipn. destruct (Nat.ltb_spec k (S n)); [apply M; assumption|]. symmetry. apply nth_error_None. lia.
  - specialize (M 0 ltac:(lia)). symmetry in M. apply nth_error_None in M. lia.
  - specialize (M 0 ltac:(lia)). symmetry in M. apply nth_error_None in M. lia.
Qed.
Lemma nth_splice cs off new k : off + length new <= length cs -> nth_error (splice cs off new) k = if Nat.leb off k && Nat.ltb k (off + length new) then nth_error new (k - off) else nth_error cs k.
Proof.
  intros L. unfold splice. destruct (Nat.leb_spec off k); cbn [andb].
  - rewrite nth_error_app2 by (rewrite firstn_length; lia). rewrite firstn_length. replace (Nat.min off (length cs)) with off by lia. destruct (Nat.ltb_spec k (off + length new)).
    + apply nth_error_app1. lia.
    + rewrite nth_error_app2 by lia. rewrite nth_error_skipn. f_equal. lia.
  - rewrite nth_error_app1 by (rewrite firstn_length; lia). rewrite nth_error_firstn. destruct (Nat.ltb_spec k off); [reflexivity|lia].
Qed.
Lemma splice_length cs off new : off + length new <= length cs -> length (splice cs off new) = length cs.
Proof. intros L. unfold splice. rewrite !app_length, firstn_length, skipn_length. lia. Qed.

(** What a store does to the memory. *)
Lemma store_mem w b off new w' : store w (Some (b, off)) new = VOk w' ->
  env w' = env w /\ forall c i, mem w' c i = if Nat.eqb c b && (Nat.leb off i && Nat.ltb i (off + length new)) then nth_error new (i - off) else mem w c i.
Proof.
  intros H. split; [apply (store_env _ _ _ _ H)|]. intros c i. destruct new as [|n0 new].
  - cbn [store] in H. apply VOk_inj in H. subst w'. cbn [length]. destruct (Nat.leb_spec off i), (Nat.ltb_spec i (off + 0)); try lia; rewrite ?andb_false_r; reflexivity.
  - unfold store in H. destruct (nth_error (heap w) b) as [[blk|]|] eqn:B; try discriminate. destruct (Nat.leb_spec (off + length (n0 :: new)) (length blk)) as [L|L]; [|discriminate]. apply VOk_inj in H. subst w'.
    unfold mem. cbn [heap]. destruct (Nat.eqb_spec c b) as [->|N]; cbn [andb].
    + rewrite nth_error_upd_eq by (eapply nth_lt; eassumption). rewrite B. apply (nth_splice blk off (n0 :: new) i L).
    + rewrite nth_error_upd_neq by congruence. reflexivity.
Qed.
Lemma store_ok w b off new : (forall k, k < length new -> mem w b (off + k) <> None) -> exists w', store w (Some (b, off)) new = VOk w'.
Proof.
  intros M. destruct new as [|n0 new]; [exists w; reflexivity|]. unfold store. unfold mem in M. destruct (nth_error (heap w) b) as [[blk|]|].
  - specialize (M (length new) ltac:(cbn [length]; lia)). apply nth_error_Some in M. destruct (Nat.leb_spec (off + length (n0 :: new)) (length blk)) as [L|L]; [eexists; reflexivity|cbn [length] in L; lia].
  - contradiction (M 0 ltac:(cbn [length]; lia)). reflexivity.
  - contradiction (M 0 ltac:(cbn [length]; lia)). reflexivity.
Qed.
Lemma read_mem w v k x b i : nth_error (env w) v = Some (Some x) -> k < v_len x -> v_start x = Some (b, i) -> read w v k = match mem w b (i + k) with Some c => VOk c | None => VBadAccess end.
Proof.
  intros E K St. unfold read. rewrite (getv_some _ _ _ E). cbn [vbind]. unfold vassert. destruct (Nat.ltb_spec k (v_len x)); [|lia]. cbn [vbind]. rewrite St. cbn [padd]. unfold load, mem.
  destruct (nth_error (heap w) b) as [[blk|]|]; try reflexivity. destruct (Nat.leb_spec (i + k + 1) (length blk)) as [L|L].
  - cbn [vbind]. destruct (nth_error blk (i + k)) as [c|] eqn:Q; [|apply nth_error_None in Q; lia]. assert (firstn 1 (skipn (i + k) blk) = [c]) as ->; [|reflexivity]. apply nth_error_ext. intros [|j]; [rewrite nth_error_firstn, nth_error_skipn, Nat.add_0_r; exact Q|rewrite nth_error_firstn; destruct (Nat.ltb_spec (S j) 1); [lia|destruct j; reflexivity]].
  - replace (nth_error blk (i + k)) with (@None cell) by (symmetry; apply nth_error_None; lia). reflexivity.
Qed.

(** [new] was put over the elements of [v] from [off] on and nothing else changed. *)
Definition changed (w w' : world) (v off : nat) (new : list cell) : Prop :=
  (forall cs, contents w v = Some cs -> contents w' v = Some (splice cs off new)) /\
  (forall u k, (forall j, off <= j < off + length new -> place w u k <> place w v j) -> read w' u k = read w u k) /\
  (forall u k j, off <= j < off + length new -> place w u k = place w v j -> read w' u k = read w' v j).
Lemma store_changed w v x off new w' : nth_error (env w) v = Some (Some x) -> off + length new <= v_len x -> store w (padd (v_start x) off) new = VOk w' -> changed w w' v off new.
Proof.
  intros E L H. destruct (v_start x) as [[b i]|] eqn:S; cbn [padd] in H.
  - destruct (store_mem _ _ _ _ _ H) as [EE M]. split; [|split].
    + intros cs C. destruct (contents_inv _ _ _ C) as (x' & E' & Lo & Lc). assert (x' = x) as -> by congruence. unfold contents. rewrite EE, E. rewrite S in *.
      destruct (Nat.eq_dec (v_len x) 0) as [Z|Z].
      * rewrite Z in *. destruct cs; [|discriminate]. destruct new; [|cbn [length] in L; lia]. assert (off = 0) as -> by (cbn [length] in L; lia). reflexivity.
      * destruct (load_mem _ _ _ _ _ Lo) as [_ Mo]. rewrite (mem_load w' b i (v_len x) (splice cs off new)); [reflexivity|lia|rewrite splice_length; lia|].
        intros k K. rewrite M, Nat.eqb_refl, nth_splice by lia. cbn [andb]. destruct (Nat.leb_spec off k), (Nat.ltb_spec k (off + length new)), (Nat.leb_spec (i + off) (i + k)), (Nat.ltb_spec (i + k) (i + off + length new)); try lia; cbn [andb]; try (apply Mo; assumption). f_equal. lia.
    + intros u k N. destruct (nth_error (env w) u) as [[y|]|] eqn:Eu; [|unfold read, getv; rewrite EE, Eu; reflexivity|unfold read, getv; rewrite EE, Eu; reflexivity].
      destruct (Nat.lt_ge_cases k (v_len y)) as [K|K]; [|unfold read, getv, vassert; rewrite EE, Eu; cbn [vbind]; destruct (Nat.ltb_spec k (v_len y)); [lia|reflexivity]].
      destruct (v_start y) as [[c j]|] eqn:Sy; [|unfold read, getv, vassert; rewrite EE, Eu; cbn [vbind]; rewrite Sy; reflexivity].
      rewrite (read_mem w u k y c j Eu K Sy), (read_mem w' u k y c j); [|rewrite EE; exact Eu|exact K|exact Sy]. rewrite M. destruct (Nat.eqb_spec c b) as [->|Nc]; cbn [andb]; [|reflexivity].
      destruct (Nat.leb_spec (i + off) (j + k)), (Nat.ltb_spec (j + k) (i + off + length new)); cbn [andb]; try reflexivity. exfalso. apply (N (j + k - i) ltac:(lia)). unfold place. rewrite Eu, E, Sy, S.
      destruct (Nat.ltb_spec k (v_len y)), (Nat.ltb_spec (j + k - i) (v_len x)); try lia. do 2 f_equal. lia.
    + intros u k j R P. unfold place in P. rewrite E, S in P. destruct (Nat.ltb_spec j (v_len x)) as [J|J]; [|lia].
      destruct (nth_error (env w) u) as [[y|]|] eqn:Eu; try discriminate. destruct (Nat.ltb_spec k (v_len y)) as [K|K]; [|discriminate]. destruct (v_start y) as [[c q]|] eqn:Sy; [|discriminate]. injection P as -> P.
      rewrite (read_mem w' u k y b q), (read_mem w' v j x b i); rewrite ?EE; try assumption. rewrite P. reflexivity.
  - assert (new = []) as -> by (destruct new; [reflexivity|discriminate]). cbn [store] in H. apply VOk_inj in H. subst w'. split; [|split].
    + intros cs C. rewrite C. f_equal. unfold splice. cbn [app length]. rewrite Nat.add_0_r. symmetry. apply firstn_skipn.
    + reflexivity.
    + intros u k j R. cbn [length] in R. lia.
Qed.
Lemma store_in w v x cs off new : contents w v = Some cs -> nth_error (env w) v = Some (Some x) -> off + length new <= v_len x -> exists w', store w (padd (v_start x) off) new = VOk w'.
Proof.
  intros C E L. destruct (contents_inv _ _ _ C) as (x' & E' & Lo & Lc). assert (x' = x) as -> by congruence. destruct (v_start x) as [[b i]|]; cbn [padd].
  - destruct (Nat.eq_dec (v_len x) 0) as [Z|Z]; [destruct new; [exists w; reflexivity|cbn [length] in L; lia]|]. destruct (load_mem _ _ _ _ _ Lo) as [_ M]. apply store_ok. intros k K. rewrite <- Nat.add_assoc, M by lia. intros Q. apply nth_error_None in Q. lia.
  - destruct new as [|n0 new]; [exists w; reflexivity|]. destruct (v_len x); [cbn [length] in L; lia|discriminate].
Qed.

(** Filling. *)
Theorem C65_fill w v z cs : contents w v = Some cs -> exists w', fill w v z = VOk w' /\ contents w' v = Some (repeat (Some z) (length cs)) /\ changed w w' v 0 (repeat (Some z) (length cs)).
Proof.
  intros C. destruct (contents_inv _ _ _ C) as (x & E & Lo & Lc). destruct (store_in w v x cs 0 (repeat (Some z) (length cs)) C E ltac:(rewrite repeat_length; lia)) as (w' & H).
  pose proof (store_changed w v x 0 (repeat (Some z) (length cs)) w' E ltac:(rewrite repeat_length; lia) H) as Ch. exists w'. assert (P : padd (v_start x) 0 = v_start x) by (destruct (v_start x) as [[b i]|]; cbn [padd]; rewrite ?Nat.add_0_r; reflexivity). rewrite P in H.
  split; [unfold fill; rewrite (getv_some _ _ _ E); cbn [vbind]; rewrite <- Lc; exact H|]. split; [|exact Ch]. rewrite (proj1 Ch cs C). f_equal. unfold splice. cbn [firstn app]. rewrite repeat_length, skipn_all2, app_nil_r by lia. reflexivity.
Qed.
Print Assumptions C65_fill.
Theorem C65_fill_range w v z start n cs : contents w v = Some cs ->
  (start + n <= length cs -> exists w', fill_range w v z start n = VOk w' /\ changed w w' v start (repeat (Some z) n)) /\
  (length cs < start + n -> fill_range w v z start n = VAbort).
Proof.
  intros C. destruct (contents_inv _ _ _ C) as (x & E & Lo & Lc). unfold fill_range. rewrite (getv_some _ _ _ E). cbn [vbind]. unfold vassert. split; intros L.
  - destruct (store_in w v x cs start (repeat (Some z) n) C E ltac:(rewrite repeat_length; lia)) as (w' & H). exists w'. destruct (Nat.leb_spec (start + n) (v_len x)); [|lia]. cbn [vbind]. split; [exact H|]. apply (store_changed w v x start _ w' E); [rewrite repeat_length; lia|exact H].
  - destruct (Nat.leb_spec (start + n) (v_len x)); [lia|]. reflexivity.
Qed.
Print Assumptions C65_fill_range.

(** Copying: the ranges must be the same or disjoint. *)
Definition apart (w : world) (o d v s n : nat) : Prop := forall j k, j < n -> k < n -> j <> k -> place w o (d + j) <> place w v (s + k).
Lemma memcpy_changed w o d v s n y x co cv : contents w o = Some co -> contents w v = Some cv -> nth_error (env w) o = Some (Some y) -> nth_error (env w) v = Some (Some x) ->
  d + n <= v_len y -> s + n <= v_len x -> apart w o d v s n ->
  exists w', memcpy w (padd (v_start y) d) (padd (v_start x) s) n = VOk w' /\ changed w w' o d (firstn n (skipn s cv)).
Proof.
  intros Co Cv Ey Ex Ly Lx A. destruct (contents_inv _ _ _ Cv) as (x' & E' & Lo & Lc). assert (x' = x) as -> by congruence.
  assert (F : length (firstn n (skipn s cv)) = n) by (rewrite firstn_length, skipn_length; lia).
  assert (Ld : load w (padd (v_start x) s) n = VOk (firstn n (skipn s cv))).
  { destruct (Nat.eq_dec n 0) as [->|Z]; [reflexivity|]. destruct (v_start x) as [[b i]|]; [|destruct (v_len x); [lia|discriminate]]. cbn [padd]. destruct (load_mem _ _ _ _ _ Lo) as [_ M]. apply mem_load; [lia|exact F|]. intros k K. rewrite <- Nat.add_assoc, M by lia. rewrite nth_error_firstn, nth_error_skipn. destruct (Nat.ltb_spec k n); [reflexivity|lia]. }
  assert (Ov : overlap (padd (v_start y) d) (padd (v_start x) s) n = false).
  { destruct (v_start y) as [[b i]|] eqn:Sy; [|reflexivity]. destruct (v_start x) as [[c j]|] eqn:Sx; [|reflexivity]. cbn [padd overlap]. destruct (Nat.eqb_spec b c) as [->|]; [|reflexivity]. destruct (Nat.eqb_spec (i + d) (j + s)); [reflexivity|]. cbn [negb andb].
    destruct (Nat.ltb_spec (i + d) (j + s + n)), (Nat.ltb_spec (j + s) (i + d + n)); try reflexivity. exfalso.
    destruct (Nat.lt_ge_cases (i + d) (j + s)) as [Q|Q].
    - apply (A (j + s - (i + d)) 0); try lia. unfold place. rewrite Ey, Ex, Sy, Sx. destruct (Nat.ltb_spec (d + (j + s - (i + d))) (v_len y)), (Nat.ltb_spec (s + 0) (v_len x)); try lia. do 2 f_equal. lia.
    - apply (A 0 (i + d - (j + s))); try lia. unfold place. rewrite Ey, Ex, Sy, Sx. destruct (Nat.ltb_spec (d + 0) (v_len y)), (Nat.ltb_spec (s + (i + d - (j + s))) (v_len x)); try lia. do 2 f_equal. lia. }
  unfold memcpy. rewrite Ov, Ld. cbn [vbind]. destruct (store_in w o y co d (firstn n (skipn s cv)) Co Ey ltac:(lia)) as (w' & H). exists w'. split; [exact H|]. apply (store_changed w o y d _ w' Ey); [lia|exact H].
Qed.
Lemma padd_0 p : padd p 0 = p.
Proof. destruct p as [[b i]|]; cbn [padd]; rewrite ?Nat.add_0_r; reflexivity. Qed.
Theorem C65_copyToSegment w v o start span cv co : contents w v = Some cv -> contents w o = Some co ->
  (start + span <= length co -> span <= length cv -> apart w o start v 0 span -> exists w', copyToSegment w v o start span = VOk w' /\ changed w w' o start (firstn span cv)) /\
  (length co < start + span \/ length cv < span -> copyToSegment w v o start span = VAbort).
Proof.
  intros Cv Co. destruct (contents_inv _ _ _ Cv) as (x & Ex & _ & Lx). destruct (contents_inv _ _ _ Co) as (y & Ey & _ & Ly). unfold copyToSegment. rewrite (getv_some _ _ _ Ex), (getv_some _ _ _ Ey). cbn [vbind]. unfold vassert. split.
  - intros A B Ap. destruct (Nat.leb_spec (start + span) (v_len y)); [|lia]. destruct (Nat.leb_spec span (v_len x)); [|lia]. cbn [vbind].
    destruct (memcpy_changed w o start v 0 span y x co cv Co Cv Ey Ex ltac:(lia) ltac:(lia) Ap) as (w1 & Hm & Ch). rewrite padd_0 in Hm. exists w1. split; assumption.
  - intros A. destruct (Nat.leb_spec (start + span) (v_len y)); [|reflexivity]. destruct (Nat.leb_spec span (v_len x)); [lia|reflexivity].
Qed.
Print Assumptions C65_copyToSegment.
Theorem C65_segmentCopyTo w v o start span cv co : contents w v = Some cv -> contents w o = Some co ->
  (start + span <= length cv -> span <= length co -> apart w o 0 v start span -> exists w', segmentCopyTo w v o start span = VOk w' /\ changed w w' o 0 (firstn span (skipn start cv))) /\
  (length cv < start + span \/ length co < span -> segmentCopyTo w v o start span = VAbort).
Proof.
  intros Cv Co. destruct (contents_inv _ _ _ Cv) as (x & Ex & _ & Lx). destruct (contents_inv _ _ _ Co) as (y & Ey & _ & Ly). unfold segmentCopyTo. rewrite (getv_some _ _ _ Ex), (getv_some _ _ _ Ey). cbn [vbind]. unfold vassert. split.
  - intros A B Ap. destruct (Nat.leb_spec (start + span) (v_len x)); [|lia]. destruct (Nat.leb_spec span (v_len y)); [|lia]. cbn [vbind].
    destruct (memcpy_changed w o 0 v start span y x co cv Co Cv Ey Ex ltac:(lia) ltac:(lia) Ap) as (w1 & Hm & Ch). rewrite padd_0 in Hm. exists w1. split; assumption.
  - intros A. destruct (Nat.leb_spec (start + span) (v_len x)); [|reflexivity]. destruct (Nat.leb_spec span (v_len y)); [lia|reflexivity].
Qed.
Print Assumptions C65_segmentCopyTo.
(** Defect: a vector cannot be shifted within itself: copying part of it to an overlapping part is undefined. *)
Theorem C65_overlap_refuted w v o start span cv co j k : contents w v = Some cv -> contents w o = Some co -> start + span <= length co -> span <= length cv ->
  j < span -> k < span -> j <> k -> place w o (start + j) = place w v k -> place w v k <> None -> copyToSegment w v o start span = VBadAccess.
Proof.
  intros Cv Co A B J K N P Q. destruct (contents_inv _ _ _ Cv) as (x & Ex & _ & Lx). destruct (contents_inv _ _ _ Co) as (y & Ey & _ & Ly). unfold copyToSegment. rewrite (getv_some _ _ _ Ex), (getv_some _ _ _ Ey). cbn [vbind]. unfold vassert.
  destruct (Nat.leb_spec (start + span) (v_len y)); [|lia]. destruct (Nat.leb_spec span (v_len x)); [|lia]. cbn [vbind]. unfold memcpy.
  unfold place in P, Q. rewrite Ex in Q, P. rewrite Ey in P. destruct (Nat.ltb_spec k (v_len x)); [|congruence]. destruct (v_start x) as [[c i]|]; [|congruence]. destruct (Nat.ltb_spec (start + j) (v_len y)); [|lia]. destruct (v_start y) as [[b q]|]; [|discriminate]. injection P as -> P. cbn [padd overlap].
  destruct (Nat.eqb_spec c c); [|lia]. destruct (Nat.eqb_spec (q + start) i); [lia|]. destruct (Nat.ltb_spec (q + start) (i + span)); [|lia]. destruct (Nat.ltb_spec i (q + start + span)); [|lia]. reflexivity.
Qed.
Print Assumptions C65_overlap_refuted.

Lemma upd_snoc {A} (l : list A) x y : upd (l ++ [x]) (length l) y = l ++ [y].
Proof. pose proof (upd_app_r A l [x] 0 y) as H. rewrite Nat.add_0_r in H. exact H. Qed.
(** Concatenation: a new vector of its own storage with the elements of both. *)
Lemma memcpy_fresh h e B src n cs off blk : length h = B -> load (mkW h e) src n = VOk cs -> length cs = n -> (forall c i, src = Some (c, i) -> c < B) -> off + n <= length blk ->
  forall e', memcpy (mkW (h ++ [Some blk]) e') (Some (B, off)) src n = VOk (mkW (h ++ [Some (splice blk off cs)]) e').
Proof.
  intros LB Ld Lc Src L e'. unfold memcpy. assert (Ov : overlap (Some (B, off)) src n = false).
  { destruct src as [[c i]|]; [|reflexivity]. cbn [overlap]. destruct (Nat.eqb_spec B c) as [Q|]; [specialize (Src c i eq_refl); lia|reflexivity]. }
  rewrite Ov. assert (L2 : load (mkW (h ++ [Some blk]) e') src n = VOk cs).
  { rewrite <- Ld. apply load_cong. intros c i Q. cbn [heap]. apply nth_error_app1. specialize (Src c i Q). lia. }
  rewrite L2. cbn [vbind]. destruct cs as [|c0 cs].
  - cbn [store]. do 4 f_equal. unfold splice. cbn [app length]. rewrite Nat.add_0_r, firstn_skipn. reflexivity.
  - unfold store. cbn [heap env]. subst B. rewrite nth_last. destruct (Nat.leb_spec (off + length (c0 :: cs)) (length blk)); [|lia]. do 2 f_equal. rewrite upd_snoc. reflexivity.
Qed.
Theorem C65_concat w a b ca cb : reachable w -> contents w a = Some ca -> contents w b = Some cb ->
  exists w' t, concat w a b = VOk (w', t) /\ independent_copy w' t a (ca ++ cb) /\ independent_copy w' t b (ca ++ cb) /\ forall u, u <> t -> contents w' u = contents w u.
Proof.
  intros R Ca Cb. pose proof (reachable_inv _ R) as I. destruct (contents_inv _ _ _ Ca) as (x & Ex & La & Na). destruct (contents_inv _ _ _ Cb) as (y & Ey & Lb & Nb). pose proof (nth_lt _ _ _ _ Ex). pose proof (nth_lt _ _ _ _ Ey).
  set (t := length (env w)). set (B := length (heap w)).
  set (nx := match v_len x + v_len y with 0 => null_vec | n => fresh_vec B n end).
  set (w' := mkW (match v_len x + v_len y with 0 => heap w | _ => heap w ++ [Some (ca ++ cb)] end) (env w ++ [Some nx])).
  assert (Hc : concat w a b = VOk (w', t)).
  { unfold concat. rewrite (getv_some _ _ _ Ex), (getv_some _ _ _ Ey). cbn [vbind]. rewrite push_eq. fold t. pose proof (inv_push w I) as I1. rewrite push_eq in I1. cbn [fst] in I1.
    rewrite (resize_eq _ t null_vec (v_len x + v_len y) I1 (nth_last _ _ _)). cbn [vbind]. unfold w', nx. destruct (v_len x + v_len y) as [|n] eqn:Sz.
    - cbn [released v_data null_vec heap env]. unfold getv. cbn [env]. unfold t. rewrite upd_snoc, nth_last. cbn [vbind].
      replace (v_len x) with 0 by lia. replace (v_len y) with 0 by lia. reflexivity.
    - cbn [released v_data null_vec heap env]. unfold getv. cbn [env]. unfold t. rewrite upd_snoc, nth_last. cbn [vbind fresh_vec v_start padd].
      fold B. assert (Sx : forall c i, v_start x = Some (c, i) -> c < B) by (intros c i Q; apply (I_view _ I _ _ _ _ Ex Q)). assert (Sy : forall c i, v_start y = Some (c, i) -> c < B) by (intros c i Q; apply (I_view _ I _ _ _ _ Ey Q)).
      rewrite (memcpy_fresh (heap w) (env w) B (v_start x) (v_len x) ca 0 (repeat None (S n)) eq_refl); [|destruct w; exact La|exact Na|exact Sx|rewrite repeat_length; lia]. cbn [vbind].
      rewrite (memcpy_fresh (heap w) (env w) B (v_start y) (v_len y) cb (v_len x) _ eq_refl); [|destruct w; exact Lb|exact Nb|exact Sy|rewrite splice_length; rewrite repeat_length; lia]. cbn [vbind].
      do 6 f_equal. apply nth_error_ext. intros k. cbn [Nat.add]. rewrite nth_splice by (rewrite splice_length; rewrite repeat_length; lia). rewrite nth_splice by (rewrite repeat_length; lia). rewrite Na, Nb. cbn [Nat.leb Nat.add].
      destruct (Nat.ltb_spec k (v_len x)).
      + destruct (Nat.leb_spec (v_len x) k); [lia|]. cbn [andb]. rewrite nth_error_app1 by lia. f_equal. lia.
      + destruct (Nat.leb_spec (v_len x) k); [|lia]. cbn [andb]. rewrite nth_error_app2 by lia. rewrite Na. destruct (Nat.ltb_spec k (v_len x + v_len y)); [reflexivity|]. rewrite (proj2 (nth_error_None (repeat None (S n)) k)) by (rewrite repeat_length; lia). symmetry. apply nth_error_None. lia. }
  assert (Et : nth_error (env w') t = Some (Some nx)) by apply nth_last.
  assert (Old : forall u, u <> t -> nth_error (env w') u = nth_error (env w) u).
  { intros u N. unfold w'. cbn [env]. destruct (Nat.lt_ge_cases u t) as [Q|Q]; [apply nth_error_app1; exact Q|]. transitivity (@None (option vec)); [|symmetry]; apply nth_error_None; [rewrite app_length; cbn [length]; unfold t in *; lia|exact Q]. }
  assert (Hold : forall c, c < B -> nth_error (heap w') c = nth_error (heap w) c).
  { intros c Q. unfold w'. cbn [heap]. destruct (v_len x + v_len y); [reflexivity|apply nth_error_app1; exact Q]. }
  assert (Ct : contents w' t = Some (ca ++ cb)).
  { unfold contents. rewrite Et. unfold nx, w', load. destruct (v_len x + v_len y) as [|n] eqn:Sz.
    - cbn [null_vec v_len]. destruct ca; [|cbn [length] in Na; lia]. destruct cb; [reflexivity|cbn [length] in Nb; lia].
    - cbn [fresh_vec v_len v_start heap]. unfold B. rewrite nth_last. rewrite app_length. destruct (Nat.leb_spec (0 + S n) (length ca + length cb)); [|lia]. cbn [skipn]. rewrite firstn_all2 by (rewrite app_length; lia). reflexivity. }
  assert (Xc : exclusive w' t).
  { intros u c N (x2 & i & P1 & P2) (z & j & Z1 & Z2). rewrite Et in P1. injection P1 as <-. rewrite (Old u N) in Z1. pose proof (I_view _ I _ _ _ _ Z1 Z2) as [Hc1 _]. unfold nx in P2. destruct (v_len x + v_len y); [discriminate|]. cbn in P2. injection P2 as <- <-. unfold B in *. lia. }
  exists w', t. split; [exact Hc|]. split; [apply exclusive_independent; [unfold t; lia|exact Ct|exact Xc]|]. split; [apply exclusive_independent; [unfold t; lia|exact Ct|exact Xc]|].
  intros u N. apply contents_cong; [apply Old; exact N|]. intros c (z & j & Z1 & Z2). apply Hold. apply (I_view _ I _ _ _ _ Z1 Z2).
Qed.
Print Assumptions C65_concat.
Example C65_example :
  exists w, vrun empty_world [ONew 4; OFill 0 5; OSegment 0 1 2; OFillRange 0 7 1 1; OConcat 1 0; OWrite 2 0 9; OCopyTo 2 0 1 3; OSegCopyTo 2 1 4 2] = VOk w /\
  map (contents w) [0;1;2] = [Some [Some 5; Some 5; Some 5; Some 5]; Some [Some 5; Some 5]; Some [Some 9; Some 5; Some 5; Some 7; Some 5; Some 5]]%Z.
Proof. eexists. split; vm_compute; reflexivity. Qed.
