(** Invariants of the mutex machine and of the ScopedLockMultiple machine. *)
From Verif Require Import Base BaseFacts TimevalModel ThreadsModel.

(** ** Mutex *)

(** Levels of the pthread mutex a thread has. *)
Definition lvl (x : thr) : nat :=
  match t_pc x with
  | TOut => length (t_sites x)
  | TRec _ | TRel => S (length (t_sites x))
  | TWait => pred (length (t_sites x))
  end.
Definition lv (ts : list thr) (t : nat) : nat := match nth_error ts t with Some x => lvl x | None => 0 end.
Definition total (ts : list thr) : nat := list_sum (map (fun x => length (t_sites x)) ts).

Record minv (s : mstate) : Prop := {
  mi_file : length (m_file (s_m s)) = maxLocks;
  mi_cnt : m_cnt (s_m s) = Z.of_nat (total (s_t s));
  mi_wait : forall t l, nth_error (s_t s) t = Some (Thr TWait l) -> l <> [];
  mi_dep : m_dep (s_m s) = match m_own (s_m s) with None => 0 | Some u => lv (s_t s) u end;
  mi_pos : forall u, m_own (s_m s) = Some u -> 0 < m_dep (s_m s);
  mi_oth : forall t, m_own (s_m s) <> Some t -> lv (s_t s) t = 0
}.

Lemma nth_error_lt : forall A (l : list A) i x, nth_error l i = Some x -> i < length l.
Proof. intros. apply nth_error_Some. congruence. Qed.

Lemma lv_upd_eq : forall ts t x y, nth_error ts t = Some x -> lv (upd ts t y) t = lvl y.
Proof. intros. unfold lv. rewrite nth_error_upd_eq; [reflexivity|]. eapply nth_error_lt; eassumption. Qed.
Lemma lv_upd_neq : forall ts t u y, t <> u -> lv (upd ts t y) u = lv ts u.
Proof. intros. unfold lv. rewrite nth_error_upd_neq by congruence. reflexivity. Qed.
Lemma lv_at : forall ts t x, nth_error ts t = Some x -> lv ts t = lvl x.
Proof. intros. unfold lv. rewrite H. reflexivity. Qed.

Lemma total_upd : forall ts t x y, nth_error ts t = Some x ->
  total (upd ts t y) + length (t_sites x) = total ts + length (t_sites y).
Proof.
  unfold total. induction ts as [|a r IH]; intros [|t] x y H; cbn [nth_error] in H; try discriminate.
  - injection H as ->. cbn [upd map]. unfold list_sum. cbn [fold_right]. lia.
  - specialize (IH _ _ y H). cbn [upd map]. unfold list_sum in *. cbn [fold_right]. lia.
Qed.

Lemma minv_init : forall n, minv (minit n).
Proof.
  intros n. assert (E : forall t x, nth_error (repeat (Thr TOut []) n) t = Some x -> x = Thr TOut []).
  { intros t x H. apply nth_error_In in H. apply repeat_spec in H. exact H. }
  constructor; cbn [minit s_m s_t m_file m_cnt m_own m_dep].
  - reflexivity.
  - unfold total. induction n as [|n IH]; [reflexivity|]. cbn [repeat map]. change (list_sum (length (t_sites (Thr TOut [])) :: map (fun x => length (t_sites x)) (repeat (Thr TOut []) n))) with (0 + list_sum (map (fun x => length (t_sites x)) (repeat (Thr TOut []) n))).
    rewrite IH; [reflexivity|]. intros t x H. apply (E (S t)). exact H.
  - intros t l H. apply E in H. discriminate.
  - reflexivity.
  - discriminate.
  - intros t _. unfold lv. destruct (nth_error (repeat (Thr TOut []) n) t) eqn:H; [|reflexivity]. apply E in H. subst. reflexivity.
Qed.

(** Moving one thread while the mutex keeps its owner and depth. *)
Lemma minv_same : forall s t x y m, minv s -> nth_error (s_t s) t = Some x -> lvl y = lvl x ->
  (t_pc y = TWait -> t_sites y <> []) ->
  m_own m = m_own (s_m s) -> m_dep m = m_dep (s_m s) -> length (m_file m) = maxLocks ->
  (m_cnt m + Z.of_nat (length (t_sites x)) = m_cnt (s_m s) + Z.of_nat (length (t_sites y)))%Z ->
  minv (with_t s t m y).
Proof.
  intros s t x y m [F C W D P O] N L Wy Eo Ed Ef Ec. unfold with_t. constructor; cbn [s_m s_t].
  - exact Ef.
  - pose proof (total_upd _ _ _ y N). lia.
  - intros u l H. destruct (Nat.eq_dec t u) as [->|Ne].
    + rewrite nth_error_upd_eq in H by (eapply nth_error_lt; eassumption). injection H as ->. apply Wy. reflexivity.
    + rewrite nth_error_upd_neq in H by congruence. exact (W _ _ H).
  - rewrite Eo, Ed, D. destruct (m_own (s_m s)) as [u|]; [|reflexivity]. destruct (Nat.eq_dec t u) as [->|Ne].
    + rewrite (lv_upd_eq _ _ _ _ N), (lv_at _ _ _ N). congruence.
    + rewrite lv_upd_neq by assumption. reflexivity.
  - intros u H. rewrite Ed. apply (P u). congruence.
  - intros u H. rewrite Eo in H. destruct (Nat.eq_dec t u) as [->|Ne].
    + rewrite (lv_upd_eq _ _ _ _ N), L. rewrite <- (lv_at _ _ _ N). apply O. exact H.
    + rewrite lv_upd_neq by assumption. apply O. exact H.
Qed.

Lemma minv_take : forall s t x y, minv s -> nth_error (s_t s) t = Some x -> avail (s_m s) t = true ->
  lvl y = S (lvl x) -> (t_pc y = TWait -> t_sites y <> []) -> t_sites y = t_sites x ->
  minv (with_t s t (take (s_m s) t) y).
Proof.
  intros s t x y [F C W D P O] N A L Wy Es. unfold with_t, take. constructor; cbn [s_m s_t m_file m_cnt m_own m_dep].
  - exact F.
  - pose proof (total_upd _ _ _ y N). rewrite Es in *. lia.
  - intros u l H. destruct (Nat.eq_dec t u) as [->|Ne].
    + rewrite nth_error_upd_eq in H by (eapply nth_error_lt; eassumption). injection H as ->. apply Wy. reflexivity.
    + rewrite nth_error_upd_neq in H by congruence. exact (W _ _ H).
  - rewrite (lv_upd_eq _ _ _ _ N), L. f_equal. rewrite D. unfold avail in A. destruct (m_own (s_m s)) as [u|] eqn:E.
    + apply Nat.eqb_eq in A. subst u. apply (lv_at _ _ _ N).
    + rewrite <- (lv_at _ _ _ N). symmetry. apply O. congruence.
  - intros. lia.
  - intros u H. assert (t <> u) by congruence. rewrite lv_upd_neq by assumption. apply O.
    unfold avail in A. destruct (m_own (s_m s)) as [v|]; [|congruence]. apply Nat.eqb_eq in A. congruence.
Qed.

Lemma minv_give : forall s t x y, minv s -> nth_error (s_t s) t = Some x -> lvl x = S (lvl y) ->
  (t_pc y = TWait -> t_sites y <> []) -> t_sites y = t_sites x ->
  minv (with_t s t (give (s_m s)) y).
Proof.
  intros s t x y [F C W D P O] N L Wy Es. assert (Own : m_own (s_m s) = Some t).
  { destruct (m_own (s_m s)) as [u|] eqn:E.
    - destruct (Nat.eq_dec u t) as [->|Ne]; [reflexivity|]. assert (X : lv (s_t s) t = 0) by (apply O; congruence). rewrite (lv_at _ _ _ N) in X. lia.
    - assert (X : lv (s_t s) t = 0) by (apply O; congruence). rewrite (lv_at _ _ _ N) in X. lia. }
  rewrite Own in D. rewrite (lv_at _ _ _ N), L in D.
  assert (Cn : m_cnt (give (s_m s)) = m_cnt (s_m s)) by (unfold give; destruct (m_dep (s_m s)) as [|[|d]]; reflexivity).
  assert (Fl : m_file (give (s_m s)) = m_file (s_m s)) by (unfold give; destruct (m_dep (s_m s)) as [|[|d]]; reflexivity).
  assert (Dp : m_dep (give (s_m s)) = lvl y) by (unfold give; rewrite D; destruct (lvl y); reflexivity).
  assert (Ow : m_own (give (s_m s)) = match lvl y with O => None | _ => Some t end) by (unfold give; rewrite D; destruct (lvl y); [reflexivity|exact Own]).
  unfold with_t. constructor; cbn [s_m s_t].
  - rewrite Fl. exact F.
  - rewrite Cn. pose proof (total_upd _ _ _ y N). rewrite Es in *. lia.
  - intros u l H. destruct (Nat.eq_dec t u) as [->|Ne].
    + rewrite nth_error_upd_eq in H by (eapply nth_error_lt; eassumption). injection H as ->. apply Wy. reflexivity.
    + rewrite nth_error_upd_neq in H by congruence. exact (W _ _ H).
  - rewrite Dp, Ow. destruct (lvl y) eqn:E; [reflexivity|]. rewrite (lv_upd_eq _ _ _ _ N). congruence.
  - intros u H. rewrite Dp. rewrite Ow in H. destruct (lvl y); [discriminate|lia].
  - intros u H. destruct (Nat.eq_dec t u) as [->|Ne].
    + rewrite (lv_upd_eq _ _ _ _ N). rewrite Ow in H. destruct (lvl y); [reflexivity|]. congruence.
    + rewrite lv_upd_neq by assumption. apply O. congruence.
Qed.

Lemma note_ok : forall m f, length (m_file m) = maxLocks -> exists fl, note m f = Ok (Mtx (m_own m) (m_dep m) (m_cnt m + 1) fl) /\ length fl = maxLocks /\
  fl = (if ((0 <=? m_cnt m) && (m_cnt m <? Z.of_nat maxLocks))%Z then upd (m_file m) (Z.to_nat (m_cnt m)) f else m_file m).
Proof.
  intros m f H. unfold note. destruct ((0 <=? m_cnt m)%Z && (m_cnt m <? Z.of_nat maxLocks)%Z)%bool eqn:E.
  - rewrite wr_ok by lia. cbn [bind]. eexists. split; [reflexivity|]. split; [|reflexivity]. rewrite upd_length. exact H.
  - cbn [bind]. eexists. split; [reflexivity|]. split; [exact H|reflexivity].
Qed.

Lemma uncount_ok : forall m, length (m_file m) = maxLocks -> uncount m = Ok (Mtx (m_own m) (m_dep m) (m_cnt m - 1) (m_file m)).
Proof.
  intros m H. unfold uncount, lockerFile.
  destruct ((0 <=? m_cnt m - 1)%Z && (m_cnt m - 1 <? Z.of_nat maxLocks)%Z)%bool eqn:E; [|reflexivity].
  destruct (rd_in _ (m_file m) (Z.to_nat (m_cnt m - 1))) as [x [-> _]]; [lia|]. reflexivity.
Qed.

Lemma minv_step : forall s e r, minv s -> mstep s e = Some r -> exists s', r = Ok s' /\ minv s'.
Proof.
  intros s e r I H. pose proof (mi_file _ I) as F. destruct e as [t f|t|t|t|t|t|t]; cbn [mstep] in H;
    (destruct (nth_error (s_t s) t) as [[p l]|] eqn:N; [|discriminate]).
  - destruct p; try discriminate. destruct (avail (s_m s) t) eqn:A; [|discriminate]. injection H as <-. eexists. split; [reflexivity|].
    eapply minv_take; try eassumption; try reflexivity. discriminate.
  - destruct p; try discriminate. destruct (avail (s_m s) t) eqn:A; [discriminate|]. injection H as <-. eexists. split; [reflexivity|exact I].
  - destruct p as [|f| |]; try discriminate. injection H as <-. destruct (note_ok (s_m s) f F) as (fl & -> & Lf & _). cbn [bind].
    eexists. split; [reflexivity|]. eapply minv_same; try eassumption; try reflexivity; [discriminate|]. cbn [m_cnt t_sites length]. lia.
  - destruct p; try discriminate. destruct l as [|f l]; [discriminate|]. injection H as <-. rewrite uncount_ok by assumption. cbn [bind].
    eexists. split; [reflexivity|]. eapply minv_same; try eassumption; try reflexivity; [discriminate|]. cbn [m_cnt t_sites length]. lia.
  - destruct p; try discriminate. injection H as <-. eexists. split; [reflexivity|]. eapply minv_give; try eassumption; try reflexivity. discriminate.
  - destruct p; try discriminate. destruct l as [|f l]; [discriminate|]. injection H as <-. eexists. split; [reflexivity|].
    eapply minv_give; try eassumption; try reflexivity. discriminate.
  - destruct p; try discriminate. destruct (avail (s_m s) t) eqn:A; [|discriminate]. injection H as <-. eexists. split; [reflexivity|].
    eapply minv_take; try eassumption; try reflexivity; [|discriminate].
    unfold lvl. cbn [t_pc t_sites]. pose proof (mi_wait _ I _ _ N). destruct l; [congruence|reflexivity].
Qed.

Lemma minv_reach : forall n tr s, mreach n tr s -> minv s.
Proof.
  induction 1 as [|tr s e s' R IH H]; [apply minv_init|]. destruct (minv_step _ _ _ IH H) as (s2 & E & I). apply Ok_inj in E. subst. exact I.
Qed.

Lemma threads_reach : forall n tr s, mreach n tr s -> length (s_t s) = n.
Proof.
  induction 1 as [|tr s e s' R IH H]; [cbn; apply repeat_length|].
  assert (L : forall t m x, length (s_t (with_t s t m x)) = n) by (intros; cbn [with_t s_t]; rewrite upd_length; exact IH).
  destruct e as [t f|t|t|t|t|t|t]; cbn [mstep] in H;
    (destruct (nth_error (s_t s) t) as [[p l]|] eqn:N; [|discriminate]).
  - destruct p; try discriminate. destruct (avail (s_m s) t); [|discriminate]. injection H as <-. apply L.
  - destruct p; try discriminate. destruct (avail (s_m s) t); [discriminate|]. injection H as <-. exact IH.
  - destruct p; try discriminate. destruct (note (s_m s) file); cbn [bind] in H; try discriminate. injection H as <-. apply L.
  - destruct p; try discriminate. destruct l; [discriminate|]. destruct (uncount (s_m s)); cbn [bind] in H; try discriminate. injection H as <-. apply L.
  - destruct p; try discriminate. injection H as <-. apply L.
  - destruct p; try discriminate. destruct l; [discriminate|]. injection H as <-. apply L.
  - destruct p; try discriminate. destruct (avail (s_m s) t); [|discriminate]. injection H as <-. apply L.
Qed.

(** *** The noted sites, when nobody ever sleeps in a wait *)

Definition no_sleep (tr : list mevent) : Prop := forall t, ~ In (Sleep t) tr.

(** Outstanding lock sites of the holder. *)
Definition sites_of (s : mstate) (u : nat) : list Z := match nth_error (s_t s) u with Some x => t_sites x | None => [] end.

Record finv (s : mstate) : Prop := {
  fi_wait : forall t l, nth_error (s_t s) t <> Some (Thr TWait l);
  fi_none : forall t, m_own (s_m s) <> Some t -> sites_of s t = [];
  fi_file : forall u, m_own (s_m s) = Some u ->
    forall i f, i < maxLocks -> nth_error (rev (sites_of s u)) i = Some f -> nth_error (m_file (s_m s)) i = Some f
}.

Lemma sites_total : forall n tr s u, mreach n tr s -> finv s -> m_own (s_m s) = Some u -> total (s_t s) = length (sites_of s u).
Proof.
  intros n tr s u R [_ Z _] Ou. assert (X : forall v, v <> u -> sites_of s v = []) by (intros; apply Z; congruence). clear Z. unfold sites_of in *.
  assert (G : forall ts u, (forall v, v <> u -> match nth_error ts v with Some x => t_sites x | None => [] end = []) ->
     total ts = length match nth_error ts u with Some x => t_sites x | None => [] end).
  { clear. unfold total, list_sum. induction ts as [|a r IH]; intros u X; [destruct u; reflexivity|]. destruct u as [|u]; cbn [map fold_right nth_error].
    - assert (Y : fold_right Nat.add 0 (map (fun x => length (t_sites x)) r) = 0); [|lia].
      rewrite (IH (length r)).
      + rewrite (proj2 (nth_error_None r (length r))) by lia. reflexivity.
      + intros v _. apply (X (S v)). lia.
    - assert (Y := X 0 ltac:(lia)). cbn [nth_error] in Y. rewrite Y. cbn [length]. rewrite (IH u); [lia|]. intros v Ne. apply (X (S v)). lia. }
  apply G. exact X.
Qed.

Lemma sites_with : forall s t m y x u, nth_error (s_t s) t = Some x -> sites_of (with_t s t m y) u = if Nat.eqb t u then t_sites y else sites_of s u.
Proof.
  intros. unfold sites_of, with_t. cbn [s_t]. destruct (Nat.eqb_spec t u) as [->|Ne].
  - rewrite nth_error_upd_eq by (eapply nth_error_lt; eassumption). reflexivity.
  - rewrite nth_error_upd_neq by congruence. reflexivity.
Qed.

Lemma sites_at : forall s t x, nth_error (s_t s) t = Some x -> sites_of s t = t_sites x.
Proof. intros. unfold sites_of. rewrite H. reflexivity. Qed.

Lemma wait_with : forall s t m p l, (forall t l, nth_error (s_t s) t <> Some (Thr TWait l)) -> p <> TWait -> forall u k, nth_error (s_t (with_t s t m (Thr p l))) u <> Some (Thr TWait k).
Proof.
  intros s t m p l W P u k. unfold with_t. cbn [s_t]. destruct (Nat.eq_dec t u) as [->|Ne].
  - destruct (Nat.ltb_spec u (length (s_t s))).
    + rewrite nth_error_upd_eq by assumption. congruence.
    + rewrite upd_out by assumption. apply W.
  - rewrite nth_error_upd_neq by congruence. apply W.
Qed.

Lemma finv_reach : forall n tr s, mreach n tr s -> no_sleep tr -> finv s.
Proof.
  induction 1 as [|tr s e s' R IH H]; intros NS.
  - assert (E : forall t x, nth_error (repeat (Thr TOut []) n) t = Some x -> x = Thr TOut []).
    { intros t x H. apply nth_error_In in H. apply repeat_spec in H. exact H. }
    constructor; cbn [minit s_m s_t m_own].
    + intros t l H. apply E in H. discriminate.
    + intros t _. unfold sites_of. cbn [minit s_t]. destruct (nth_error (repeat (Thr TOut []) n) t) eqn:H; [|reflexivity]. apply E in H. subst. reflexivity.
    + discriminate.
  - assert (I : finv s) by (apply IH; intros t Hin; apply (NS t); apply in_or_app; left; exact Hin).
    assert (MI := minv_reach _ _ _ R).
    assert (ST' := fun u => sites_total n tr s u R I). clear IH.
    assert (NSe : forall t, e <> Sleep t) by (intros t ->; apply (NS t); apply in_or_app; right; left; reflexivity).
    destruct I as [W Z F]. pose proof (mi_file _ MI) as FL.
    destruct e as [t f|t|t|t|t|t|t]; cbn [mstep] in H;
    (destruct (nth_error (s_t s) t) as [[p l]|] eqn:N; [|discriminate]); [ | | | | |congruence| ].
    + (* Acquire *)
      destruct p; try discriminate. destruct (avail (s_m s) t) eqn:A; [|discriminate]. injection H as <-. constructor.
      * apply wait_with; [exact W|discriminate].
      * intros u. cbn [with_t s_m take m_own]. intros Ne. rewrite (sites_with _ _ _ _ _ _ N). destruct (Nat.eqb_spec t u) as [->|Nu]; [congruence|]. apply Z.
        unfold avail in A. destruct (m_own (s_m s)) as [v|]; [|congruence]. apply Nat.eqb_eq in A. congruence.
      * intros u. cbn [with_t s_m take m_own m_file]. intros E i g Hi Hn. injection E as <-. rewrite (sites_with _ _ _ _ _ _ N), Nat.eqb_refl in Hn. cbn [t_sites] in Hn.
        unfold avail in A. destruct (m_own (s_m s)) as [v|] eqn:Eo.
        -- apply Nat.eqb_eq in A. subst v. apply (F t eq_refl i g Hi). rewrite (sites_at _ _ _ N). exact Hn.
        -- assert (X : sites_of s t = []) by (apply Z; congruence). rewrite (sites_at _ _ _ N) in X. cbn [t_sites] in X. subst l. destruct i; discriminate.
    + (* TryFail *)
      destruct p; try discriminate. destruct (avail (s_m s) t) eqn:A; [discriminate|]. injection H as <-. constructor; assumption.
    + (* Note *)
      destruct p as [|f| |]; try discriminate. destruct (note_ok (s_m s) f FL) as (fl & E & Lf & Ef). rewrite E in H. cbn [bind] in H. injection H as <-.
      assert (Own : m_own (s_m s) = Some t).
      { destruct (m_own (s_m s)) as [u|] eqn:Eo; [destruct (Nat.eq_dec u t) as [->|Ne]; [reflexivity|]|];
          (assert (X : lv (s_t s) t = 0) by (apply (mi_oth _ MI); congruence); rewrite (lv_at _ _ _ N) in X; discriminate). }
      assert (Cnt : m_cnt (s_m s) = Z.of_nat (length l)) by (rewrite (mi_cnt _ MI), (ST' t Own), (sites_at _ _ _ N); reflexivity).
      constructor.
      * apply wait_with; [exact W|discriminate].
      * intros u. cbn [with_t s_m m_own]. intros Ne. rewrite (sites_with _ _ _ _ _ _ N). destruct (Nat.eqb_spec t u) as [->|Nu]; [congruence|]. apply Z. exact Ne.
      * intros u. cbn [with_t s_m m_own m_file]. intros Eu i g Hi Hn. assert (u = t) by congruence. subst u. rewrite (sites_with _ _ _ _ _ _ N), Nat.eqb_refl in Hn.
        cbn [t_sites rev] in Hn. rewrite Cnt in Ef. rewrite Nat2Z.id in Ef. unfold maxLocks in *.
        destruct (Nat.eq_dec i (length l)) as [->|Ni].
        -- rewrite nth_error_app2, rev_length, Nat.sub_diag in Hn by (rewrite rev_length; lia). cbn [nth_error] in Hn. injection Hn as <-.
           replace ((0 <=? Z.of_nat (length l))%Z && (Z.of_nat (length l) <? Z.of_nat 5)%Z)%bool with true in Ef by lia. subst fl.
           apply nth_error_upd_eq. lia.
        -- assert (Hlt : i < length l). { apply nth_error_lt in Hn. rewrite app_length, rev_length in Hn. cbn [length] in Hn. lia. }
           rewrite nth_error_app1 in Hn by (rewrite rev_length; exact Hlt).
           assert (X : nth_error (m_file (s_m s)) i = Some g) by (apply (F t Own i g Hi); rewrite (sites_at _ _ _ N); exact Hn).
           subst fl. destruct ((0 <=? Z.of_nat (length l))%Z && (Z.of_nat (length l) <? Z.of_nat 5)%Z)%bool; [|exact X].
           rewrite nth_error_upd_neq by congruence. exact X.
    + (* Uncount *)
      destruct p; try discriminate. destruct l as [|f l]; [discriminate|]. rewrite uncount_ok in H by assumption. cbn [bind] in H. injection H as <-.
      constructor.
      * apply wait_with; [exact W|discriminate].
      * intros u. cbn [with_t s_m m_own]. intros Ne. rewrite (sites_with _ _ _ _ _ _ N). destruct (Nat.eqb_spec t u) as [->|Nu]; [|apply Z; exact Ne].
        apply Z in Ne. rewrite (sites_at _ _ _ N) in Ne. discriminate.
      * intros u. cbn [with_t s_m m_own m_file]. intros Eu i g Hi Hn. rewrite (sites_with _ _ _ _ _ _ N) in Hn. destruct (Nat.eqb_spec t u) as [->|Nu].
        -- apply (F u Eu i g Hi). rewrite (sites_at _ _ _ N). cbn [t_sites rev] in *. rewrite nth_error_app1; [exact Hn|]. eapply nth_error_lt; eassumption.
        -- apply (F u Eu i g Hi). exact Hn.
    + (* Release *)
      destruct p; try discriminate. injection H as <-.
      assert (Own : m_own (s_m s) = Some t).
      { destruct (m_own (s_m s)) as [u|] eqn:Eo; [destruct (Nat.eq_dec u t) as [->|Ne]; [reflexivity|]|];
          (assert (X : lv (s_t s) t = 0) by (apply (mi_oth _ MI); congruence); rewrite (lv_at _ _ _ N) in X; discriminate). }
      assert (D : m_dep (s_m s) = S (length l)) by (rewrite (mi_dep _ MI), Own, (lv_at _ _ _ N); reflexivity).
      assert (Fl : m_file (give (s_m s)) = m_file (s_m s)) by (unfold give; rewrite D; destruct l; reflexivity).
      constructor.
      * apply wait_with; [exact W|discriminate].
      * intros u. cbn [with_t s_m]. intros Ne. rewrite (sites_with _ _ _ _ _ _ N). destruct (Nat.eqb_spec t u) as [->|Nu]; [|apply Z; congruence].
        cbn [t_sites]. unfold give in Ne. rewrite D in Ne. destruct l; [reflexivity|]. cbn [length m_own] in Ne. congruence.
      * intros u. cbn [with_t s_m]. intros Eu i g Hi Hn. assert (u = t). { unfold give in Eu. rewrite D in Eu. destruct l; cbn [length m_own] in Eu; congruence. }
        subst u. rewrite (sites_with _ _ _ _ _ _ N), Nat.eqb_refl in Hn. cbn [t_sites] in Hn. rewrite Fl. apply (F t Own i g Hi). rewrite (sites_at _ _ _ N). exact Hn.
    + (* Wake *)
      destruct p; try discriminate. exfalso. exact (W _ _ N).
Qed.
