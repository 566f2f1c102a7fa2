(** Properties of myscanf (C80). *)
From Verif Require Import Base BaseFacts ScanModel.
Local Open Scope Z_scope.

(** ** Specification *)
Definition space (c : Z) : Prop := c = 32 \/ 9 <= c <= 13.
(** The characters a conversion takes. *)
Definition belongs (k : kind) (c : Z) : Prop :=
  match k with
  | KStr => ~ space c
  | KSet false l => exists a b, In (a, b) l /\ a <= c <= b
  | KSet true l => forall a b, In (a, b) l -> ~ a <= c <= b
  | KPct => c = 37
  | KChr => True
  | KOpen => False
  end.
(** t, followed by s, is the longest text the conversion can take: not empty, not longer than its width. *)
Definition longest (k : kind) (w : Z) (t s : list Z) : Prop :=
  t <> [] /\ Forall (belongs k) t /\
  let w := match k with KPct => 1 | _ => w end in
  (w = -1 \/ Z.of_nat (length t) <= w) /\
  (Z.of_nat (length t) = w \/ match s with [] => True | c :: _ => ~ belongs k c end).
(** The text is the directives with each conversion replaced by what it takes (ts: those not
    suppressed), followed by r. *)
Inductive fills : list dir -> list Z -> list (list Z) -> list Z -> Prop :=
| fl_nil r : fills [] r [] r
| fl_white ds sp s ts r : Forall space sp -> match s with [] => True | c :: _ => ~ space c end ->
    fills ds s ts r -> fills (White :: ds) (sp ++ s) ts r
| fl_char ds c s ts r : fills ds s ts r -> fills (Char c :: ds) (c :: s) ts r
| fl_conv ds sup w k sp t s ts r :
    match k with KStr | KPct => Forall space sp | _ => sp = [] end ->
    longest k w t s -> fills ds s ts r ->
    fills (Conv sup w k :: ds) (sp ++ t ++ s) (if sup then ts else t :: ts) r.
(** Directive d cannot go on with r. *)
Definition stuck (d : dir) (r : list Z) : Prop := forall ts r', ~ fills [d] r ts r'.
(** There is nothing left of the text for directive d. *)
Definition used_up (d : dir) (r : list Z) : Prop :=
  match d with
  | Conv _ _ KStr | Conv _ _ KPct => Forall space r
  | _ => r = []
  end.
(** The value returned when m pieces were taken. *)
Definition answer (n : Z) (m : nat) (rest : list dir) (r : list Z) : Prop :=
  match rest with
  | [] => n = Z.of_nat m
  | d :: _ => stuck d r /\ (m = O /\ used_up d r -> n = -1) /\ (~ (m = O /\ used_up d r) -> n = Z.of_nat m)
  end.
(** Conversions are %s, %[...] and %% only, also suppressed or with a width. *)
Definition good (d : dir) : Prop :=
  match d with
  | Conv sup w k => (w = -1 \/ 0 < w) /\ match k with KStr | KSet _ _ | KOpen => True | KPct => sup = true | KChr => False end
  | Bad => False
  | _ => True
  end.
Definition assigns (ds : list dir) : nat := length (filter (fun d => match d with Conv false _ _ => true | _ => false end) ds).

(** ** Lemmas *)
Lemma isspace_iff c : isspace c = true <-> space c.
Proof. unfold isspace, space. lia. Qed.
Lemma accepts_iff k c : accepts k c = true <-> belongs k c.
Proof.
  destruct k as [|neg l| | |]; cbn [accepts belongs].
  - pose proof (isspace_iff c). destruct (isspace c); cbn [negb]; intuition congruence.
  - assert (E : in_ranges l c = true <-> exists a b, In (a, b) l /\ a <= c <= b).
    { unfold in_ranges. rewrite existsb_exists. split.
      - intros ((a & b) & I & H). exists a, b. split; auto. lia.
      - intros (a & b & I & H). exists (a, b). split; auto. lia. }
    destruct neg; [|destruct (in_ranges l c); cbn [xorb]; exact E].
    destruct (in_ranges l c); cbn [xorb].
    + split; [discriminate|]. intros H. destruct (proj1 E eq_refl) as (a & b & I & X). destruct (H a b I X).
    + split; auto. intros _ a b I X. assert (false = true); [|discriminate]. apply E. eauto.
  - split; [discriminate|contradiction].
  - tauto.
  - lia.
Qed.
Lemma skip_white_spec s : exists sp, s = sp ++ skip_white s /\ Forall space sp /\ match skip_white s with [] => True | c :: _ => ~ space c end.
Proof.
  induction s as [|c s (sp & E & F & H)]; [exists []; repeat split; constructor|]. cbn [skip_white]. pose proof (isspace_iff c) as X. destruct (isspace c).
  - exists (c :: sp). cbn [app]. rewrite <- E. repeat split; auto. constructor; auto. apply X. reflexivity.
  - exists []. repeat split; auto. intros S. apply X in S. discriminate.
Qed.
Lemma skip_white_app sp s : Forall space sp -> match s with [] => True | c :: _ => ~ space c end -> skip_white (sp ++ s) = s.
Proof.
  intros F H. induction F as [|c sp C F IH]; cbn [app].
  - destruct s as [|c s]; [reflexivity|]. cbn [skip_white]. pose proof (isspace_iff c). destruct (isspace c); [tauto|reflexivity].
  - cbn [skip_white]. apply isspace_iff in C. rewrite C. exact IH.
Qed.
Lemma take_neg p : forall s v v', v < 0 -> v' < 0 -> take p v s = take p v' s.
Proof.
  induction s as [|c s IH]; intros v v' A B; auto. cbn [take]. destruct (Z.eqb_spec v 0); [lia|]. destruct (Z.eqb_spec v' 0); [lia|].
  rewrite (IH (v - 1) (v' - 1)) by lia. reflexivity.
Qed.
Lemma take_spec p w s t r : (w = -1 \/ 0 <= w) -> take p w s = (t, r) ->
  s = t ++ r /\ Forall (fun c => p c = true) t /\ (w = -1 \/ Z.of_nat (length t) <= w) /\
  (Z.of_nat (length t) = w \/ match r with [] => True | c :: _ => p c = false end).
Proof.
  revert w t r. induction s as [|c s IH]; intros w t r W H; cbn [take] in H.
  - injection H as <- <-. repeat split; auto; cbn; try lia.
  - destruct (Z.eqb_spec w 0) as [E|E]; cbn [negb andb] in H.
    + injection H as <- <-. repeat split; auto; cbn; lia.
    + destruct (p c) eqn:P.
      * destruct (Z.eq_dec w (-1)) as [->|NW].
        -- destruct (take p (-1 - 1) s) as [t' r'] eqn:T. injection H as <- <-.
           rewrite (take_neg p s (-1 - 1) (-1)) in T by lia. destruct (IH (-1) t' r') as (E1 & F & _ & L); auto.
           repeat split; auto. { cbn [app]. congruence. } right. destruct L as [L|L]; auto. lia.
        -- destruct (take p (w - 1) s) as [t' r'] eqn:T. injection H as <- <-.
           destruct (IH (w - 1) t' r') as (E1 & F & L1 & L2); auto; [lia|].
           repeat split; auto. { cbn [app]. congruence. } { cbn [length]. lia. } destruct L2; [left; cbn [length]; lia|right; auto].
      * injection H as <- <-. repeat split; auto.
Qed.
Lemma take_is p w t r : (w = -1 \/ 0 <= w) -> Forall (fun c => p c = true) t -> (w = -1 \/ Z.of_nat (length t) <= w) ->
  (Z.of_nat (length t) = w \/ match r with [] => True | c :: _ => p c = false end) -> take p w (t ++ r) = (t, r).
Proof.
  intros W F. revert w W. induction F as [|c t C F IH]; intros w W L1 L2; cbn [app].
  - destruct r as [|c r]; [reflexivity|]. cbn [take]. destruct (Z.eqb_spec w 0); [reflexivity|]. cbn in L2. destruct L2 as [L2|L2]; [lia|]. rewrite L2. reflexivity.
  - cbn [take length] in *. rewrite C. destruct (Z.eqb_spec w 0); [lia|]. cbn [negb andb].
    destruct (Z.eq_dec w (-1)) as [->|NW].
    + rewrite (take_neg p _ (-1 - 1) (-1)) by lia. rewrite IH; auto. right. destruct L2; [lia|auto].
    + rewrite IH; auto; [lia|lia|destruct L2; [left; lia|right; auto]].
Qed.
Lemma not_accepts k c : accepts k c = false <-> ~ belongs k c.
Proof. pose proof (accepts_iff k c). destruct (accepts k c); intuition congruence. Qed.
Lemma limit_ok k w : (w = -1 \/ 0 < w) -> k <> KChr -> limit k w = match k with KPct => 1 | _ => w end.
Proof. intros W N. destruct k; cbn [limit]; auto. congruence. Qed.
Lemma longest_take k w t s : (w = -1 \/ 0 < w) -> k <> KChr -> longest k w t s -> take (accepts k) (limit k w) (t ++ s) = (t, s).
Proof.
  intros W N (T & F & L1 & L2). rewrite limit_ok by auto. apply take_is; auto.
  - destruct k; lia.
  - eapply Forall_impl; [|exact F]. intros c. apply accepts_iff.
  - destruct L2 as [L2|L2]; auto. right. destruct s; auto. apply not_accepts. exact L2.
Qed.
Lemma take_longest k w s t r : (w = -1 \/ 0 < w) -> k <> KChr -> take (accepts k) (limit k w) s = (t, r) -> t <> [] -> s = t ++ r /\ longest k w t r.
Proof.
  intros W N H T. rewrite limit_ok in H by auto. apply take_spec in H; [|destruct k; lia]. destruct H as (E & F & L1 & L2). split; auto.
  split; auto. split; [eapply Forall_impl; [|exact F]; intros c; apply accepts_iff|]. split; auto.
  destruct L2 as [L2|L2]; auto. right. destruct r; auto. apply not_accepts. exact L2.
Qed.
Lemma longest_head k w t s : match k with KStr | KPct => True | _ => False end -> longest k w t s -> match t ++ s with [] => True | c :: _ => ~ space c end.
Proof.
  intros K (T & F & _). destruct t as [|c t]; [congruence|]. cbn [app]. inversion F as [|? ? C _]. subst.
  destruct k; try contradiction; cbn [belongs] in C; auto. unfold space. lia.
Qed.
(** fills is a function: what the pieces and the rest are is determined. *)
Lemma fills_unique ds s ts r : Forall good ds -> fills ds s ts r -> forall ts' r', fills ds s ts' r' -> ts' = ts /\ r' = r.
Proof.
  intros G H. induction H as [r|ds sp s ts r F NS H IH|ds c s ts r H IH|ds sup w k sp t s ts r SP L H IH]; intros ts' r' H'.
  - inversion H'. auto.
  - inversion G as [|? ? _ G2]. subst. inversion H' as [|? sp' s' ? ? F' NS' H2 E1 E2| |]. subst.
    pose proof (skip_white_app sp' s' F' NS') as X. rewrite E2, (skip_white_app sp s F NS) in X. subst s'. auto.
  - inversion G as [|? ? _ G2]. subst. inversion H'. subst. auto.
  - inversion G as [|? ? G1 G2]. subst. cbn [good] in G1. destruct G1 as [W K].
    assert (NC : k <> KChr) by (intros ->; exact K).
    inversion H' as [| | |? ? ? ? sp' t' s' ts2 ? SP' L' H2 E1 E2]. subst.
    assert (E : t' ++ s' = t ++ s).
    { destruct k; try (subst sp sp'; exact E2); try contradiction.
      - pose proof (skip_white_app sp (t ++ s) SP (longest_head KStr w t s I L)) as X. rewrite <- E2 in X.
        rewrite (skip_white_app sp' (t' ++ s') SP' (longest_head KStr w t' s' I L')) in X. exact X.
      - pose proof (skip_white_app sp (t ++ s) SP (longest_head KPct w t s I L)) as X. rewrite <- E2 in X.
        rewrite (skip_white_app sp' (t' ++ s') SP' (longest_head KPct w t' s' I L')) in X. exact X. }
    pose proof (longest_take _ _ _ _ W NC L) as T1. rewrite <- E, (longest_take _ _ _ _ W NC L') in T1. injection T1 as -> ->.
    destruct (IH G2 _ _ H2) as [-> ->]. auto.
Qed.
Lemma put_spec : forall t b1 b2, (length t <= length b2)%nat ->
  put (b1 ++ b2) (length b1) t = Ok (b1 ++ map Some t ++ skipn (length t) b2).
Proof.
  induction t as [|c t IH]; intros b1 b2 L; cbn [put length]; [reflexivity|].
  destruct b2 as [|x b2]; cbn [length] in L; [lia|]. rewrite wr_ok by (rewrite app_length; cbn [length]; lia). cbn [bind].
  pose proof (upd_app_r _ b1 (x :: b2) O (Some c)) as U. rewrite Nat.add_0_r in U. rewrite U. cbn [upd].
  replace (b1 ++ Some c :: b2) with ((b1 ++ [Some c]) ++ b2) by (rewrite <- app_assoc; reflexivity).
  replace (S (length b1)) with (length (b1 ++ [Some c])) by (rewrite app_length; cbn [length]; lia).
  rewrite IH by lia. rewrite <- app_assoc. reflexivity.
Qed.
Lemma assign_spec t x : ~ In 0 t -> assign (map Some (t ++ [0]) ++ x) = Ok t.
Proof.
  induction t as [|c t IH]; intros N; cbn [map app assign]; [reflexivity|].
  destruct (Z.eqb_spec c 0); [exfalso; apply N; left; auto|]. rewrite IH by (intros I; apply N; right; auto). reflexivity.
Qed.
Lemma fills_len ds s ts r : fills ds s ts r -> forall t, In t ts -> (length t <= length s)%nat /\ incl t s.
Proof.
  intros H. induction H as [r|ds sp s ts r F NS H IH|ds c s ts r H IH|ds sup w k sp t s ts r SP L H IH]; intros t' I.
  - destruct I.
  - destruct (IH t' I). rewrite app_length. split; [lia|]. apply incl_appr. auto.
  - destruct (IH t' I). cbn [length]. split; [lia|]. apply incl_tl. auto.
  - rewrite !app_length. assert (X : t' = t \/ In t' ts) by (destruct sup; [auto|destruct I as [->|I]; auto]).
    destruct X as [->|X]; [split; [lia|apply incl_appr, incl_appl, incl_refl]|]. destruct (IH t' X). split; [lia|]. apply incl_appr, incl_appr. auto.
Qed.
Lemma stuck_conv sup w k s : (w = -1 \/ 0 < w) -> k <> KChr ->
  (if skips k then skip_white s else s) = [] \/ fst (take (accepts k) (limit k w) (if skips k then skip_white s else s)) = [] ->
  stuck (Conv sup w k) s.
Proof.
  intros W N H ts r' F. inversion F as [| | |? ? ? ? sp t s' ts2 ? SP L H2 E1 E2]. subst.
  assert (E : (if skips k then skip_white (sp ++ t ++ s') else sp ++ t ++ s') = t ++ s').
  { destruct k; cbn [skips]; try (subst sp; reflexivity); apply skip_white_app; auto; eapply longest_head; try exact L; exact I. }
  rewrite E in H. destruct L as (T & L). destruct H as [H|H].
  - apply app_eq_nil in H. tauto.
  - rewrite longest_take in H by (auto; split; auto). cbn [fst] in H. auto.
Qed.
Lemma stop ds d s done bufs n : stuck d s -> (done = O /\ used_up d s -> n = -1) -> (~ (done = O /\ used_up d s) -> n = Z.of_nat done) ->
  sscanf_ (d :: ds) s done bufs = Ok (n, bufs) ->
  exists ds1 ds2 ts r n bufs', d :: ds = ds1 ++ ds2 /\ fills ds1 s ts r /\ answer n (done + length ts) ds2 r /\
    sscanf_ (d :: ds) s done bufs = Ok (n, bufs') /\ length bufs' = length bufs /\
    (forall j, (j < done)%nat -> nth_error bufs' j = nth_error bufs j) /\
    (forall i t, nth_error ts i = Some t -> exists b, nth_error bufs' (done + i) = Some (map Some (t ++ [0]) ++ b)) /\
    (length ts = O -> bufs' = bufs).
Proof.
  intros S A B R. exists [], (d :: ds), [], s, n, bufs. cbn [app length answer]. rewrite Nat.add_0_r.
  split; [reflexivity|]. split; [constructor|]. split; [auto|]. split; [exact R|]. split; [reflexivity|]. split; [auto|].
  split; [|auto]. intros i t H. rewrite nth_error_nil_ in H. discriminate.
Qed.
Lemma conv_end ds sup w k s done bufs : negb sup && (length bufs <=? done)%nat = false -> (if skips k then skip_white s else s) = [] ->
  sscanf_ (Conv sup w k :: ds) s done bufs = Ok (at_end (Z.of_nat done), bufs).
Proof. intros A E. cbn [sscanf_]. rewrite A, E. reflexivity. Qed.
Lemma conv_none ds sup w k s done bufs : negb sup && (length bufs <=? done)%nat = false ->
  forall s2, (if skips k then skip_white s else s) <> [] -> take (accepts k) (limit k w) (if skips k then skip_white s else s) = ([], s2) ->
  sscanf_ (Conv sup w k :: ds) s done bufs = Ok (Z.of_nat done, bufs).
Proof.
  intros A s2 N E. cbn [sscanf_]. rewrite A. destruct (if skips k then skip_white s else s) as [|x s']; [congruence|]. rewrite E. reflexivity.
Qed.
Lemma conv_some ds sup w k s done bufs : negb sup && (length bufs <=? done)%nat = false ->
  forall t s2, (if skips k then skip_white s else s) <> [] -> take (accepts k) (limit k w) (if skips k then skip_white s else s) = (t, s2) -> t <> [] ->
  sscanf_ (Conv sup w k :: ds) s done bufs =
  if sup then sscanf_ ds s2 done bufs
  else do b <- rd bufs done; do b <- put b 0 (match k with KChr => t | _ => t ++ [0] end); sscanf_ ds s2 (S done) (upd bufs done b).
Proof.
  intros A t s2 N E T. cbn [sscanf_]. rewrite A. destruct (if skips k then skip_white s else s) as [|x s']; [congruence|]. rewrite E.
  destruct t; [congruence|reflexivity].
Qed.
Lemma core : forall ds s done bufs, Forall good ds -> (done + assigns ds <= length bufs)%nat ->
  (forall j b, (done <= j)%nat -> nth_error bufs j = Some b -> (length s < length b)%nat) ->
  exists ds1 ds2 ts r n bufs', ds = ds1 ++ ds2 /\ fills ds1 s ts r /\ answer n (done + length ts) ds2 r /\
    sscanf_ ds s done bufs = Ok (n, bufs') /\ length bufs' = length bufs /\
    (forall j, (j < done)%nat -> nth_error bufs' j = nth_error bufs j) /\
    (forall i t, nth_error ts i = Some t -> exists b, nth_error bufs' (done + i) = Some (map Some (t ++ [0]) ++ b)) /\
    (length ts = O -> bufs' = bufs).
Proof.
  unfold buf. induction ds as [|d ds IH]; intros s done bufs G A B.
  - exists [], [], [], s, (Z.of_nat done), bufs. cbn [sscanf_ answer app length]. rewrite Nat.add_0_r. repeat split; auto; [constructor|].
    intros i t H. rewrite nth_error_nil_ in H. discriminate.
  - inversion G as [|? ? G1 G2]. subst. destruct d as [|c|sup w k|]; [| | |contradiction].
    + destruct (skip_white_spec s) as (sp & E & F & H). cbn [sscanf_].
      destruct (IH (skip_white s) done bufs) as (ds1 & ds2 & ts & r & n & bufs' & E1 & FI & AN & R); auto.
      { intros j b J N. specialize (B j b J N). rewrite E, app_length in B. lia. }
      exists (White :: ds1), ds2, ts, r, n, bufs'. subst ds. split; [reflexivity|]. split; [|auto]. rewrite E. constructor; auto.
    + destruct s as [|x s].
      * apply (stop ds (Char c) [] done bufs (at_end (Z.of_nat done))); [intros ts r' F; inversion F| | |reflexivity].
        -- intros [M _]. subst done. reflexivity.
        -- intros M. unfold at_end. destruct (Z.eqb_spec (Z.of_nat done) 0); [|lia].
           destruct M. cbn [used_up]. split; [lia|auto].
      * destruct (Z.eqb_spec x c) as [->|N].
        -- cbn [sscanf_]. rewrite Z.eqb_refl. destruct (IH s done bufs) as (ds1 & ds2 & ts & r & n & bufs' & E1 & FI & AN & R); auto.
           { intros j b J N. specialize (B j b J N). cbn [length] in B. lia. }
           exists (Char c :: ds1), ds2, ts, r, n, bufs'. subst ds. split; [reflexivity|]. split; [|auto]. constructor; auto.
        -- apply (stop ds (Char c) (x :: s) done bufs (Z.of_nat done)); [intros ts r' F; inversion F; congruence| |auto|].
           ++ intros [_ M]. discriminate M.
           ++ cbn [sscanf_]. destruct (Z.eqb_spec x c); [contradiction|reflexivity].
    + cbn [good] in G1. destruct G1 as [W K]. assert (NC : k <> KChr) by (intros ->; exact K).
      assert (A' : negb sup && (length bufs <=? done)%nat = false).
      { destruct sup; [reflexivity|]. unfold assigns in A. cbn [filter length] in A. cbn [negb andb]. apply Nat.leb_gt. lia. }
      pose proof (conv_end ds sup w k s done bufs A') as R0. pose proof (conv_none ds sup w k s done bufs A') as R1. pose proof (conv_some ds sup w k s done bufs A') as R2.
      set (s1 := if skips k then skip_white s else s).
      assert (SP : exists sp, s = sp ++ s1 /\ match k with KStr | KPct => Forall space sp | _ => sp = [] end /\ (length s1 <= length s)%nat /\
                  (s1 = [] -> used_up (Conv sup w k) s) /\ (used_up (Conv sup w k) s -> s1 = [])).
      { subst s1. destruct (skip_white_spec s) as (sp & E & F & H).
        assert (U : skip_white s = [] <-> Forall space s).
        { split; intros X; [rewrite E, X, app_nil_r; auto|]. pose proof (skip_white_app s [] X I) as Y. rewrite app_nil_r in Y. exact Y. }
        destruct k; cbn [skips used_up]; try (exists []; repeat split; auto; fail);
          exists sp; (split; [exact E|]; split; [exact F|]; split; [rewrite E at 2; rewrite app_length; lia|]; tauto). }
      destruct SP as (sp & ES & SP & LS & U1 & U2).
      assert (ST : s1 = [] \/ fst (take (accepts k) (limit k w) s1) = [] -> stuck (Conv sup w k) s) by (apply stuck_conv; auto).
      fold s1 in R0, R1, R2. clearbody s1.
      destruct s1 as [|x s1'] eqn:ES1.
      * apply (stop ds (Conv sup w k) s done bufs (at_end (Z.of_nat done))); [auto| | |exact (R0 eq_refl)].
        -- intros [M _]. subst done. reflexivity.
        -- intros M. unfold at_end. destruct (Z.eqb_spec (Z.of_nat done) 0); [|lia].
           destruct M. split; [lia|auto].
      * rewrite <- ES1 in *. assert (NE : s1 <> []) by congruence. clear ES1.
        destruct (take (accepts k) (limit k w) s1) as [t s2] eqn:T.
        destruct t as [|y t'] eqn:ET.
        -- apply (stop ds (Conv sup w k) s done bufs (Z.of_nat done)); [auto| |auto|exact (R1 s2 NE eq_refl)].
           intros [_ M]. destruct (NE (U2 M)).
        -- rewrite <- ET in *. assert (NT : t <> []) by congruence. clear ET. rewrite (R2 t s2 NE eq_refl NT). clear R0 R1 R2.
           destruct (take_longest _ _ _ _ _ W NC T NT) as [E1 LO].
           assert (LL : (length t + length s2 <= length s)%nat) by (rewrite E1, app_length in LS; lia).
           destruct sup.
           ++ destruct (IH s2 done bufs) as (ds1 & ds2 & ts & r & n & bufs' & E2 & FI & AN & R); auto.
              { intros j b J N. specialize (B j b J N). lia. }
              exists (Conv true w k :: ds1), ds2, ts, r, n, bufs'. subst ds. split; [reflexivity|]. split; [|auto].
              rewrite ES, E1. apply (fl_conv ds1 true w k sp t s2 ts r); auto.
           ++ unfold assigns in A. cbn [filter length] in A. fold (assigns ds) in A.
              destruct (nth_error bufs done) as [b|] eqn:NB; [|apply nth_error_None in NB; lia].
              assert (RB : rd bufs done = Ok b) by (apply rd_ok; exact NB). unfold buf. rewrite RB. cbn [bind].
              pose proof (B done b (Nat.le_refl _) NB) as LB.
              replace (match k with KChr => t | _ => t ++ [0] end) with (t ++ [0]) by (destruct k; congruence).
              pose proof (put_spec (t ++ [0]) [] b) as P. cbn [app length] in P. rewrite P by (rewrite app_length; cbn [length]; lia). cbn [bind].
              set (b' := map Some (t ++ [0]) ++ skipn (length (t ++ [0])) b).
              destruct (IH s2 (S done) (upd bufs done b')) as (ds1 & ds2 & ts & r & n & bufs' & E2 & FI & AN & R1 & R2 & R3 & R4 & R5); auto.
              { rewrite upd_length. lia. }
              { intros j x' J N. rewrite nth_error_upd_neq in N by lia. specialize (B j x' ltac:(lia) N). lia. }
              exists (Conv false w k :: ds1), ds2, (t :: ts), r, n, bufs'. subst ds. split; [reflexivity|].
              split; [rewrite ES, E1; apply (fl_conv ds1 false w k sp t s2 ts r); auto|].
              cbn [length]. replace (done + S (length ts))%nat with (S done + length ts)%nat by lia. split; [exact AN|]. split; [exact R1|].
              split; [rewrite R2, upd_length; reflexivity|].
              split; [intros j J; rewrite R3 by lia; apply nth_error_upd_neq; lia|]. split; [|lia].
              intros [|i] u H; cbn [nth_error] in H.
              ** injection H as <-. rewrite Nat.add_0_r. rewrite R3 by lia. rewrite nth_error_upd_eq by lia. exists (skipn (length (t ++ [0])) b). reflexivity.
              ** replace (done + S i)%nat with (S done + i)%nat by lia. apply R4. exact H.
Qed.
Lemma assign_first_spec : forall ts bufs ss, (length ts <= length ss)%nat -> length bufs = length ss ->
  (forall t, In t ts -> ~ In 0 t) ->
  (forall i t, nth_error ts i = Some t -> exists b, nth_error bufs i = Some (map Some (t ++ [0]) ++ b)) ->
  assign_first (length ts) bufs ss = Ok (ts ++ skipn (length ts) ss).
Proof.
  induction ts as [|t ts IH]; intros bufs ss L LB N H; cbn [length assign_first app skipn]; [reflexivity|].
  destruct ss as [|s ss]; cbn [length] in L; [lia|]. destruct bufs as [|b bufs]; [discriminate LB|]. cbn [length skipn] in *.
  rewrite (IH bufs ss); [|lia|lia|intros u U; apply N; right; auto|intros i u X; apply (H (S i) u X)]. cbn [bind].
  destruct (H O t eq_refl) as (x & E). cbn [nth_error] in E. injection E as ->. rewrite assign_spec by (apply N; left; auto). reflexivity.
Qed.

(** ** C80 *)
(** With two or more strings: the format is followed as far as the text allows; exactly the strings of
    the pieces taken are set, to the pieces; no buffer overflows. *)
Theorem C80_scan : forall str fmt ss, ~ In 0 str -> Forall good (dirs fmt) -> (assigns (dirs fmt) <= length ss)%nat ->
  exists done rest pieces r n, dirs fmt = done ++ rest /\ fills done str pieces r /\ answer n (length pieces) rest r /\
    (length pieces <= length ss)%nat /\
    myscanf str fmt ss = Ok (n, pieces ++ skipn (length pieces) ss).
Proof.
  intros str fmt ss N G A. unfold myscanf, sscanf. set (bufs := repeat (repeat None (S (length str))) (length ss)).
  assert (LB : length bufs = length ss) by apply repeat_length.
  destruct (core (dirs fmt) str 0 bufs G) as (ds1 & ds2 & ts & r & n & bufs' & E & F & AN & R1 & R2 & R3 & R4 & R5); [lia| |].
  { intros j b _ H. apply nth_error_In in H. apply repeat_spec in H. subst b. rewrite repeat_length. lia. }
  rewrite R1. cbn [bind Nat.add] in *. exists ds1, ds2, ts, r, n. split; auto. split; auto. split; auto.
  assert (LT : (length ts <= length ss)%nat).
  { assert (forall i, (i < length ts)%nat -> (i < length ss)%nat).
    { intros i I. destruct (nth_error ts i) as [t|] eqn:X; [|apply nth_error_None in X; lia]. destruct (R4 i t X) as (b & Y).
      assert (i < length bufs')%nat by (apply nth_error_Some; congruence). lia. }
    destruct (length ts) as [|m] eqn:LM; [lia|]. specialize (H m ltac:(lia)). lia. }
  split; auto.
  assert (C : n = Z.of_nat (length ts) \/ (n = -1 /\ length ts = O)).
  { unfold answer in AN. destruct ds2 as [|d ds2]; [auto|]. destruct AN as (_ & A1 & A2). destruct (Nat.eq_dec (length ts) 0) as [Z0|Z0].
    - assert (DU : used_up d r \/ ~ used_up d r).
      { destruct d as [|c|sup w k|]; cbn [used_up]; try (destruct r; [left; auto|right; discriminate]).
        assert (FS : forall r, Forall space r \/ ~ Forall space r).
        { clear. induction r as [|c r [H|H]]; [left; constructor| |].
          - pose proof (isspace_iff c). destruct (isspace c); [left; constructor; tauto|right; intros X; inversion X; intuition congruence].
          - right. intros X. inversion X. auto. }
        destruct k; try apply FS; (destruct r; [left; auto|right; discriminate]). }
      destruct DU as [DU|DU]; [right; auto|left; apply A2; tauto].
    - left. apply A2. tauto. }
  destruct C as [->|[-> C]].
  - destruct (Z.leb_spec 1 (Z.of_nat (length ts))) as [P|P]; cbn [andb].
    + replace (Z.of_nat (length ts) <=? Z.of_nat (length ss)) with true by lia. rewrite Nat2Z.id.
      rewrite (assign_first_spec ts bufs' ss); [reflexivity|exact LT|exact (eq_trans R2 LB)| |exact R4]. intros t I Z0. destruct (fills_len _ _ _ _ F t I) as [_ X]. apply N, X, Z0.
    + destruct ts; [|cbn [length] in P; lia]. reflexivity.
  - destruct ts; [|discriminate C]. reflexivity.
Qed.
Print Assumptions C80_scan.
(** The pieces are determined by the format and the text. *)
Theorem C80_determined : forall ds s ts r ts' r', Forall good ds -> fills ds s ts r -> fills ds s ts' r' -> ts' = ts /\ r' = r.
Proof. intros ds s ts r ts' r' G H H'. exact (fills_unique ds s ts r G H ts' r' H'). Qed.
Print Assumptions C80_determined.
(** With one string: it is set to the piece if there is one; otherwise the buffer is read though
    nothing was written to it. *)
Theorem C80_one : forall str fmt s1, ~ In 0 str -> Forall good (dirs fmt) -> (assigns (dirs fmt) <= 1)%nat ->
  exists done rest pieces r, dirs fmt = done ++ rest /\ fills done str pieces r /\
    (rest = [] \/ exists d rest', rest = d :: rest' /\ stuck d r) /\
    ((exists t, pieces = [t] /\ myscanf1 str fmt s1 = Ok (1, t)) \/ (pieces = [] /\ myscanf1 str fmt s1 = UB)).
Proof.
  intros str fmt s1 N G A. unfold myscanf1, sscanf. set (bufs := [repeat None (S (length str))]).
  destruct (core (dirs fmt) str 0 bufs G) as (ds1 & ds2 & ts & r & n & bufs' & E & F & AN & R1 & R2 & R3 & R4 & R5); [exact A| |].
  { intros [|j] b _ H; cbn [nth_error bufs] in H; [|rewrite nth_error_nil_ in H; discriminate]. injection H as <-. cbn [length]. rewrite repeat_length. lia. }
  rewrite R1. cbn [bind Nat.add] in *. exists ds1, ds2, ts, r. split; auto. split; auto.
  split; [destruct ds2 as [|d ds2]; [auto|right; exists d, ds2; split; auto; apply AN]|].
  destruct ts as [|t [|t2 ts]].
  - right. split; auto. rewrite R5 by reflexivity. subst bufs. cbn [rd nth_error bind repeat assign]. reflexivity.
  - left. exists t. split; auto. destruct (R4 O t eq_refl) as (b & Y). cbn [Nat.add] in Y.
    replace (rd bufs' 0) with (@Ok buf (map Some (t ++ [0]) ++ b)) by (unfold rd; rewrite Y; reflexivity). cbn [bind].
    rewrite assign_spec by (intros Z0; destruct (fills_len _ _ _ _ F t (or_introl eq_refl)) as [_ X]; apply N, X, Z0). cbn [bind].
    f_equal. f_equal. unfold answer in AN. cbn [length] in AN. destruct ds2; [lia|]. destruct AN as (_ & _ & A2). apply A2. lia.
  - exfalso. destruct (R4 1%nat t2 eq_refl) as (b & Y). assert (1 < length bufs')%nat by (apply nth_error_Some; cbn [Nat.add] in Y; congruence).
    rewrite R2 in H. cbn in H. lia.
Qed.
Print Assumptions C80_one.
(** Defect: so the one-string form has undefined behaviour whenever the text does not match. *)
Theorem C80_one_refuted : forall fmt s1 sup w k ds, dirs fmt = Conv sup w k :: ds -> Forall good (dirs fmt) -> (assigns (dirs fmt) <= 1)%nat ->
  myscanf1 [] fmt s1 = UB.
Proof.
  intros fmt s1 sup w k ds E G A. destruct (C80_one [] fmt s1 ltac:(auto) G A) as (d1 & d2 & ts & r & E1 & F & _ & [(t & -> & _)|[_ H]]); auto.
  exfalso. rewrite E in E1. destruct d1 as [|d d1]; [inversion F|]. injection E1 as <- _.
  inversion F as [| | |? ? ? ? sp t' s' ts2 ? SP L H2 X1 X2]. destruct L as (T & _). apply app_eq_nil in X2. destruct X2 as [_ X2]. apply app_eq_nil in X2. tauto.
Qed.
Print Assumptions C80_one_refuted.
(** Defect: %c writes no NUL, so the string is read on into memory that was not written. *)
Theorem C80_chr_refuted : forall c str s1 s2, c <> 0 -> myscanf1 (c :: str) (lit "%c") s1 = UB /\ myscanf (c :: str) (lit "%c") [s1; s2] = UB.
Proof.
  intros c str s1 s2 C. unfold myscanf1, myscanf, sscanf. replace (dirs (lit "%c")) with [Conv false (-1) KChr] by (vm_compute; reflexivity).
  assert (T : take (accepts KChr) (limit KChr (-1)) (c :: str) = ([c], str)).
  { change (limit KChr (-1)) with 1. cbn [take accepts]. change (negb (1 =? 0) && true) with true. change (1 - 1) with 0. destruct str; reflexivity. }
  cbn [length repeat].
  pose proof (fun b bs => conv_some [] false (-1) KChr (c :: str) 0 (b :: bs) eq_refl [c] str ltac:(discriminate) T ltac:(discriminate)) as CS.
  rewrite !CS. clear CS T.
  destruct c as [|p|p]; [contradiction|split; reflexivity|split; reflexivity].
Qed.
Print Assumptions C80_chr_refuted.
Lemma fills_split : forall a b s ts r, fills (a ++ b) s ts r -> exists t1 t2 m, fills a s t1 m /\ fills b m t2 r.
Proof.
  induction a as [|x a IH]; intros b s ts r H; cbn [app] in H.
  - exists [], ts, s. split; [constructor|exact H].
  - inversion H as [|? ? s' ? ? A1 A2 A3|? c s' ? ? A3|? sup w k sp t s' ts' ? A1 A2 A3]; subst;
      destruct (IH _ _ _ _ A3) as (t1 & t2 & m & H1 & H2).
    + exists t1, t2, m. split; [constructor|]; auto.
    + exists t1, t2, m. split; [constructor|]; auto.
    + exists (if sup then t1 else t :: t1), t2, m. split; [constructor|]; auto.
Qed.
(** If the text fills the whole format, all its pieces are returned. *)
Theorem C80_all : forall str fmt ss ts r, ~ In 0 str -> Forall good (dirs fmt) -> (assigns (dirs fmt) <= length ss)%nat ->
  fills (dirs fmt) str ts r -> myscanf str fmt ss = Ok (Z.of_nat (length ts), ts ++ skipn (length ts) ss).
Proof.
  intros str fmt ss ts r N G A FF.
  destruct (C80_scan str fmt ss N G A) as (d1 & d2 & ts' & r' & n & E & F & AN & L & R). rewrite R.
  destruct d2 as [|d d2].
  - rewrite app_nil_r in E. rewrite E in *. destruct (fills_unique _ _ _ _ G FF _ _ F) as [-> ->]. cbn [answer] in AN. subst n. reflexivity.
  - exfalso. rewrite E in FF, G. destruct (fills_split _ _ _ _ _ FF) as (t1 & t2 & m & H1 & H2).
    change (d :: d2) with ([d] ++ d2) in H2. destruct (fills_split _ _ _ _ _ H2) as (t3 & t4 & m2 & H3 & _).
    apply Forall_app in G. destruct G as [G1 _]. destruct (fills_unique _ _ _ _ G1 H1 _ _ F) as [_ ->]. destruct AN as (ST & _). exact (ST _ _ H3).
Qed.
Print Assumptions C80_all.
(** Settings such as key=value come apart again. *)
Theorem C80_pair : forall key value s1 s2, key <> [] -> value <> [] -> ~ In 61 key -> Forall (fun c => ~ space c) value -> ~ In 0 key -> ~ In 0 value ->
  myscanf (key ++ 61 :: value) (lit "%[^=]=%s") [s1; s2] = Ok (2, [key; value]).
Proof.
  intros key value s1 s2 K V NE SV K0 V0.
  assert (D : dirs (lit "%[^=]=%s") = [Conv false (-1) (KSet true [(61, 61)]); Char 61; Conv false (-1) KStr]) by (vm_compute; reflexivity).
  rewrite (C80_all (key ++ 61 :: value) (lit "%[^=]=%s") [s1; s2] [key; value] []); [reflexivity| | | |].
  - rewrite in_app_iff. cbn [In]. intros [H|[H|H]]; [tauto|lia|tauto].
  - rewrite D. repeat constructor; cbn; lia.
  - rewrite D. cbn. lia.
  - rewrite D. apply (fl_conv _ false (-1) (KSet true [(61, 61)]) [] key (61 :: value) [value] []); [reflexivity| |].
    + split; [auto|]. split; [|split; [auto|right; cbn [belongs]; intros H; apply (H 61 61); [left; auto|lia]]].
      apply Forall_forall. intros c I a b [X|[]] H. injection X as <- <-. apply NE. replace 61 with c by lia. exact I.
    + constructor. rewrite <- (app_nil_r value) at 1. apply (fl_conv [] false (-1) KStr [] value [] [] []); [constructor| |constructor].
      split; [auto|]. split; [exact SV|]. split; auto.
Qed.
Print Assumptions C80_pair.
(** What sets written in the format mean. *)
Lemma set_body_plain : forall cs prev acc rest, ~ In 93 cs -> ~ In 45 cs ->
  set_body prev (cs ++ 93 :: rest) acc = Some (rev (map (fun c => (c, c)) cs) ++ acc, rest).
Proof.
  induction cs as [|c cs IH]; intros prev acc rest N M; [reflexivity|]. cbn [app set_body In map rev] in *.
  destruct (Z.eqb_spec c 93); [tauto|]. destruct (Z.eqb_spec c 45); [tauto|]. cbn [andb].
  assert (E : set_body c (cs ++ 93 :: rest) ((c, c) :: acc) = Some ((rev (map (fun c => (c, c)) cs) ++ [(c, c)]) ++ acc, rest)).
  { rewrite IH by tauto. rewrite <- app_assoc. reflexivity. }
  destruct (cs ++ 93 :: rest) eqn:X; [destruct cs; discriminate|]. exact E.
Qed.
Lemma dirs_set neg w f ranges : set_of f = (KSet neg ranges, []) -> w = [] ->
  dirs (37 :: w ++ 91 :: f) = [Conv false (-1) (KSet neg ranges)].
Proof.
  intros E ->. unfold dirs. cbn [app length dirs_]. change (isspace 37) with false. cbn iota. change (37 =? 37) with true. cbn iota.
  unfold conv_of. change (91 =? 42) with false. cbn iota beta zeta. cbn [number_of]. change ((48 <=? 91) && (91 <=? 57)) with false. cbn iota beta zeta.
  change (91 =? 115) with false. change (91 =? 91) with true. cbn iota. rewrite E. destruct (length f); reflexivity.
Qed.
Theorem C80_set : forall neg cs c, cs <> [] -> ~ In 93 cs -> ~ In 45 cs -> ~ In 94 cs ->
  exists k, dirs (lit "%[" ++ (if neg : bool then lit "^" else []) ++ cs ++ lit "]") = [Conv false (-1) k] /\
  (belongs k c <-> if neg then ~ In c cs else In c cs).
Proof.
  intros neg cs c NE N1 N2 N3.
  assert (S : set_of ((if neg then lit "^" else []) ++ cs ++ lit "]") = (KSet neg (rev (map (fun c => (c, c)) cs)), [])).
  { destruct cs as [|d cs]; [congruence|]. cbn [In] in *.
    assert (B : set_body 0 ((d :: cs) ++ 93 :: []) [] = Some (rev (map (fun c => (c, c)) (d :: cs)) ++ [], []))
      by (apply set_body_plain; cbn [In]; tauto).
    rewrite app_nil_r in B. change (lit "]") with [93]. unfold set_of.
    destruct neg; [change (lit "^") with [94]; cbn [app]; change (94 =? 94) with true|cbn [app]; destruct (Z.eqb_spec d 94); [tauto|]]; cbn iota beta zeta;
      (destruct (Z.eqb_spec d 93); [tauto|]; destruct (Z.eqb_spec d 45); [tauto|]; cbn [orb]; cbn [app] in B; rewrite B; reflexivity). }
  exists (KSet neg (rev (map (fun c => (c, c)) cs))). split; [exact (dirs_set neg [] _ _ S eq_refl)|].
  assert (I : (exists a b, In (a, b) (rev (map (fun c => (c, c)) cs)) /\ a <= c <= b) <-> In c cs).
  { split.
    - intros (a & b & H & L). apply in_rev, in_map_iff in H. destruct H as (x & E & H). injection E as <- <-. replace c with x by lia. exact H.
    - intros H. exists c, c. split; [|lia]. apply in_rev. rewrite rev_involutive. apply in_map_iff. eauto. }
  destruct neg; cbn [belongs]; [|exact I]. rewrite <- I. split; [intros H (a & b & X & L); exact (H a b X L)|intros H a b X L; apply H; eauto].
Qed.
Print Assumptions C80_set.
Theorem C80_range : forall a b c, 0 < a <= b -> a <> 93 -> a <> 94 -> a <> 45 -> b <> 93 -> b <> 45 ->
  exists k, dirs (lit "%[" ++ [a] ++ lit "-" ++ [b] ++ lit "]") = [Conv false (-1) k] /\ (belongs k c <-> a <= c <= b).
Proof.
  intros a b c L N1 N2 N3 N4 N5.
  assert (S : set_of ([a] ++ lit "-" ++ [b] ++ lit "]") = (KSet false [(b, b); (a, b - 1); (a, a)], [])).
  { change (lit "-") with [45]. change (lit "]") with [93]. cbn [app]. unfold set_of.
    destruct (Z.eqb_spec a 94); [tauto|]. cbn iota beta zeta. destruct (Z.eqb_spec a 93); [tauto|]. destruct (Z.eqb_spec a 45); [tauto|]. cbn [orb].
    cbn [set_body]. destruct (Z.eqb_spec a 93); [tauto|]. destruct (Z.eqb_spec a 45); [tauto|]. cbn [andb]. change (45 =? 93) with false.
    change (45 =? 45) with true. destruct (Z.eqb_spec b 93); [tauto|]. destruct (Z.leb_spec a b); [|lia]. cbn [negb andb].
    destruct (Z.eqb_spec b 45); [tauto|]. cbn [andb]. reflexivity. }
  eexists. split; [exact (dirs_set false [] _ _ S eq_refl)|]. cbn [belongs]. split.
  - intros (x & y & H & B). cbn [In] in H. destruct H as [H|[H|[H|[]]]]; injection H as <- <-; lia.
  - intros H. destruct (Z.eq_dec c b) as [->|NB]; [exists b, b; split; [left; auto|lia]|]. exists a, (b - 1). split; [right; left; auto|lia].
Qed.
Print Assumptions C80_range.
(** ** Formats in general *)
Inductive item := One (c : Z) | Span (a b : Z) | Back (a b : Z).   (* c, a-b in order, a-b not in order *)
Inductive part :=
| PSpace (c : Z)
| PChar (c : Z)
| PPct
| PChr (sup : bool) (w : list Z)
| PStr (sup : bool) (w : list Z)
| PSet (sup : bool) (w : list Z) (neg : bool) (first : option Z) (items : list item) (last : bool).   (* w: decimal digits *)
Definition text_item (i : item) : list Z := match i with One c => [c] | Span a b | Back a b => [a; 45; b] end.
Definition start (sup : bool) (w : list Z) : list Z := lit "%" ++ (if sup then lit "*" else []) ++ map (fun d => 48 + d) w.
Definition text (p : part) : list Z :=
  match p with
  | PSpace c | PChar c => [c]
  | PPct => lit "%%"
  | PChr sup w => start sup w ++ lit "c"
  | PStr sup w => start sup w ++ lit "s"
  | PSet sup w neg first items last =>
      start sup w ++ lit "[" ++ (if neg then lit "^" else []) ++ (match first with Some c => [c] | None => [] end) ++
      flat_map text_item items ++ (if last then lit "-" else []) ++ lit "]"
  end.
(** The number with these digits, none if there are none or if it is 0. *)
Fixpoint number (w : list Z) : Z := match w with [] => 0 | d :: w => d * 10 ^ Z.of_nat (length w) + number w end.
Definition width (w : list Z) : Z := if number w =? 0 then -1 else number w.
Definition member (c : Z) (i : item) : Prop := match i with One x => c = x | Span a b => a <= c <= b | Back a b => c = a \/ c = 45 \/ c = b end.
Definition means (p : part) (d : dir) : Prop :=
  match p with
  | PSpace _ => d = White
  | PChar c => d = Char c
  | PPct => d = Conv true (-1) KPct
  | PChr sup w => d = Conv sup (width w) KChr
  | PStr sup w => d = Conv sup (width w) KStr
  | PSet sup w neg first items last => exists k, d = Conv sup (width w) k /\
      forall c, belongs k c <-> (if neg then not else id) (first = Some c \/ Exists (member c) items \/ last = true /\ c = 45)
  end.
Definition usual (c : Z) : Prop := c <> 93 /\ c <> 45.
Definition item_ok (i : item) : Prop :=
  match i with One c => usual c | Span a b => usual a /\ usual b /\ a <= b | Back a b => usual a /\ usual b /\ b < a end.
Definition part_ok (p : part) : Prop :=
  match p with
  | PSpace c => space c
  | PChar c => ~ space c /\ c <> 37
  | PPct => True
  | PChr _ w | PStr _ w => Forall (fun d => 0 <= d <= 9) w
  | PSet _ w neg first items last => Forall (fun d => 0 <= d <= 9) w /\ Forall item_ok items /\
      match first with
      | Some c => c = 93 \/ c = 45
      | None => match items with One c :: _ | Span c _ :: _ | Back c _ :: _ => neg = false -> c <> 94 | [] => False end
      end
  end.
Lemma number_of_text : forall w acc f, Forall (fun d => 0 <= d <= 9) w -> match f with [] => True | c :: _ => 57 < c end ->
  number_of (map (fun d => 48 + d) w ++ f) acc = (acc * 10 ^ Z.of_nat (length w) + number w, f).
Proof.
  induction w as [|d w IH]; intros acc f W F; cbn [map app number length].
  - change (10 ^ Z.of_nat 0) with 1. replace (acc * 1 + 0) with acc by lia. destruct f as [|c f]; [reflexivity|]. cbn [number_of]. destruct (Z.leb_spec c 57); [lia|]. rewrite andb_false_r. reflexivity.
  - cbn [number_of]. inversion W as [|? ? D W']. subst. destruct (Z.leb_spec 48 (48 + d)); [|lia]. destruct (Z.leb_spec (48 + d) 57); [|lia]. cbn [andb]. rewrite IH by assumption. f_equal.
    rewrite Nat2Z.inj_succ, Z.pow_succ_r by lia. ring.
Qed.
Definition conv_at (sup : bool) (w : Z) (f : list Z) : dir * list Z :=
  match f with
  | c :: f' =>
      if c =? 115 then (Conv sup w KStr, f')
      else if c =? 91 then let '(k, f') := set_of f' in (Conv sup w k, f')
      else if c =? 99 then (Conv sup w KChr, f')
      else if c =? 37 then (Conv true w KPct, f')
      else (Bad, f')
  | [] => (Bad, [])
  end.
Lemma conv_start sup w f : Forall (fun d => 0 <= d <= 9) w -> match f with [] => False | c :: _ => 57 < c end ->
  conv_of ((if sup : bool then lit "*" else []) ++ map (fun d => 48 + d) w ++ f) = conv_at sup (width w) f.
Proof.
  intros W F. assert (F' : match f with [] => True | c :: _ => 57 < c end) by (destruct f; tauto). pose proof (number_of_text w 0 f W F') as N. unfold conv_of.
  assert (S : match (if sup : bool then lit "*" else []) ++ map (fun d => 48 + d) w ++ f with
     | c :: f' => if c =? 42 then (true, f') else (false, (if sup : bool then lit "*" else []) ++ map (fun d => 48 + d) w ++ f) | [] => (false, (if sup : bool then lit "*" else []) ++ map (fun d => 48 + d) w ++ f) end = (sup, map (fun d => 48 + d) w ++ f)).
  { destruct sup; [reflexivity|]. cbn [app]. destruct w as [|d w]; cbn [map app].
    - destruct f as [|c f]; [reflexivity|]. destruct (Z.eqb_spec c 42); [lia|reflexivity].
    - inversion W. subst. destruct (Z.eqb_spec (48 + d) 42); [lia|reflexivity]. }
  rewrite S, N. rewrite Z.mul_0_l, Z.add_0_l. reflexivity.
Qed.
Lemma in_ranges_cons a b l c : in_ranges ((a, b) :: l) c = true <-> a <= c <= b \/ in_ranges l c = true.
Proof. unfold in_ranges. cbn [existsb]. rewrite orb_true_iff, andb_true_iff, !Z.leb_le. tauto. Qed.
(** Reading the items one by one. *)
Lemma set_body_one prev c d f acc : usual c -> set_body prev (c :: d :: f) acc = set_body c (d :: f) ((c, c) :: acc).
Proof. intros [A B]. cbn [set_body]. destruct (Z.eqb_spec c 93); [tauto|]. destruct (Z.eqb_spec c 45); [tauto|]. reflexivity. Qed.
Lemma set_body_items : forall items prev acc (last : bool) rest, Forall item_ok items -> exists rs,
  set_body prev (flat_map text_item items ++ (if last then lit "-" else []) ++ lit "]" ++ rest) acc = Some (rs, rest) /\
  forall c, in_ranges rs c = true <-> Exists (member c) items \/ last = true /\ c = 45 \/ in_ranges acc c = true.
Proof.
  induction items as [|i items IH]; intros prev acc last rest W.
  - change (lit "-") with [45]. change (lit "]") with [93]. cbn [flat_map app]. destruct last; cbn [app].
    + exists ((45, 45) :: acc). split; [reflexivity|]. intros c. rewrite in_ranges_cons, Exists_nil. assert (45 <= c <= 45 <-> c = 45) by lia. tauto.
    + exists acc. split; [reflexivity|]. intros c. rewrite Exists_nil. intuition discriminate.
  - inversion W as [|? ? I W']. subst. cbn [flat_map]. set (tl := flat_map text_item items ++ (if last then lit "-" else []) ++ lit "]" ++ rest) in *.
    assert (T : exists d f, tl = d :: f) by (unfold tl; destruct items as [|[] items]; cbn; [destruct last; cbn; eauto|eauto ..]). destruct T as (d & f & T).
    destruct i as [x|a b|a b]; cbn [text_item item_ok member] in *; rewrite <- app_assoc; fold tl; cbn [app].
    + rewrite T, set_body_one by assumption. rewrite <- T. destruct (IH x ((x, x) :: acc) last rest W') as (rs & E & H). exists rs. split; [exact E|]. intros c. rewrite H, in_ranges_cons, Exists_cons. cbn [member]. assert (x <= c <= x <-> c = x) by lia. tauto.
    + destruct I as (A & B & L). rewrite set_body_one by assumption. assert (E1 : set_body a (45 :: b :: tl) ((a, a) :: acc) = set_body 45 (b :: tl) ((a, b - 1) :: (a, a) :: acc)).
      { remember (b :: tl) as g eqn:G. cbn [set_body]. subst g. change (45 =? 93) with false. change (45 =? 45) with true. destruct B as [B1 B2]. destruct (Z.eqb_spec b 93); [tauto|]. destruct (Z.leb_spec a b); [|lia]. reflexivity. }
      rewrite E1, T, set_body_one by assumption. rewrite <- T. destruct (IH b ((b, b) :: (a, b - 1) :: (a, a) :: acc) last rest W') as (rs & E & H). exists rs. split; [exact E|]. intros c. rewrite H, !in_ranges_cons, Exists_cons. cbn [member].
      assert (a <= c <= b <-> b <= c <= b \/ a <= c <= b - 1 \/ a <= c <= a) by lia. tauto.
    + destruct I as (A & B & L). rewrite set_body_one by assumption. assert (E1 : set_body a (45 :: b :: tl) ((a, a) :: acc) = set_body 45 (b :: tl) ((45, 45) :: (a, a) :: acc)).
      { remember (b :: tl) as g eqn:G. cbn [set_body]. subst g. change (45 =? 93) with false. change (45 =? 45) with true. destruct B as [B1 B2]. destruct (Z.eqb_spec b 93); [tauto|]. destruct (Z.leb_spec a b); [lia|]. reflexivity. }
      rewrite E1, T, set_body_one by assumption. rewrite <- T. destruct (IH b ((b, b) :: (45, 45) :: (a, a) :: acc) last rest W') as (rs & E & H). exists rs. split; [exact E|]. intros c. rewrite H, !in_ranges_cons, Exists_cons. cbn [member].
      assert ((c = a \/ c = 45 \/ c = b) <-> b <= c <= b \/ 45 <= c <= 45 \/ a <= c <= a) by lia. tauto.
Qed.
Lemma set_of_text sup w neg first items last rest : part_ok (PSet sup w neg first items last) -> exists k,
  set_of ((if neg then lit "^" else []) ++ (match first with Some c => [c] | None => [] end) ++ flat_map text_item items ++ (if last then lit "-" else []) ++ lit "]" ++ rest) = (k, rest) /\
  forall c, belongs k c <-> (if neg then not else id) (first = Some c \/ Exists (member c) items \/ last = true /\ c = 45).
Proof.
  intros (_ & I & F). set (body := (match first with Some c => [c] | None => [] end) ++ flat_map text_item items ++ (if last then lit "-" else []) ++ lit "]" ++ rest).
  assert (R : exists rs, match body with c :: f' => if (c =? 93) || (c =? 45) then set_body c f' [(c, c)] else set_body 0 body [] | [] => None end = Some (rs, rest) /\
     forall c, in_ranges rs c = true <-> (first = Some c \/ Exists (member c) items \/ last = true /\ c = 45)).
  { unfold body. destruct first as [x|].
    - cbn [app]. assert (X : (x =? 93) || (x =? 45) = true) by (destruct F as [-> | ->]; reflexivity). rewrite X. destruct (set_body_items items x [(x, x)] last rest I) as (rs & E & H). exists rs. split; [exact E|]. intros c. rewrite H, in_ranges_cons.
      assert (Some x = Some c <-> x <= c <= x) by (split; [intros Q; injection Q; lia|intros; f_equal; lia]). assert (in_ranges [] c = true <-> False) by (split; [discriminate|tauto]). tauto.
    - cbn [app]. destruct (set_body_items items 0 [] last rest I) as (rs & E & H). exists rs. split.
      + rewrite <- E. destruct items as [|i items]; [tauto|]. inversion I as [|? ? I1 _]. subst. destruct i as [x|x y|x y]; cbn [flat_map text_item app] in *; cbn [item_ok] in I1;
          (assert (X : (x =? 93) || (x =? 45) = false) by (unfold usual in I1; destruct (Z.eqb_spec x 93); [tauto|]; destruct (Z.eqb_spec x 45); [tauto|reflexivity])); rewrite X; reflexivity.
      + intros c. rewrite H. assert (in_ranges [] c = true <-> False) by (split; [discriminate|tauto]). assert (@None Z = Some c <-> False) by (split; [discriminate|tauto]). tauto. }
  destruct R as (rs & E & H). exists (KSet neg rs). split.
  - unfold set_of. assert (N : match (if neg then lit "^" else []) ++ body with c :: f' => if c =? 94 then (true, f') else (false, (if neg then lit "^" else []) ++ body) | [] => (false, (if neg then lit "^" else []) ++ body) end = (neg, body)).
    { destruct neg; [reflexivity|]. cbn [app]. unfold body. destruct first as [x|]; cbn [app].
      - destruct F as [-> | ->]; reflexivity.
      - destruct items as [|i items]; [tauto|]. destruct i as [x|x y|x y]; cbn [flat_map text_item app] in *; (destruct (Z.eqb_spec x 94); [exfalso; apply F; [reflexivity|assumption]|reflexivity]). }
    rewrite N. rewrite E. reflexivity.
  - intros c. destruct neg; cbn [belongs]; rewrite <- H; unfold in_ranges; [|unfold id; rewrite existsb_exists].
    + rewrite existsb_exists. split; intros A; [intros ((x & y) & Q1 & Q2); apply andb_true_iff in Q2; rewrite !Z.leb_le in Q2; exact (A x y Q1 Q2)|]. intros x y Q1 Q2. apply A. exists (x, y). split; [exact Q1|]. apply andb_true_iff. rewrite !Z.leb_le. exact Q2.
    + split; [intros (x & y & Q1 & Q2); exists (x, y); split; [exact Q1|]; apply andb_true_iff; rewrite !Z.leb_le; exact Q2|]. intros ((x & y) & Q1 & Q2). apply andb_true_iff in Q2. rewrite !Z.leb_le in Q2. exists x, y. auto.
Qed.
(** Formats mean what they should. *)
Theorem C80_format : forall ps, Forall part_ok ps -> Forall2 means ps (dirs (flat_map text ps)).
Proof.
  intros ps W. unfold dirs. assert (G : forall n, (length (flat_map text ps) <= n)%nat -> Forall2 means ps (dirs_ n (flat_map text ps))); [|apply G; lia].
  induction ps as [|p ps IH]; intros n L; [destruct n; constructor|]. inversion W as [|? ? P W']. subst. specialize (IH W'). cbn [flat_map] in *. rewrite app_length in L.
  destruct n as [|n]; [exfalso; destruct p; cbn in L; rewrite ?app_length in L; cbn in L; lia|].
  assert (CV : forall sup w f rest d, Forall (fun d => 0 <= d <= 9) w -> text p = start sup w ++ f -> match f with [] => False | c :: _ => 57 < c end -> conv_at sup (width w) (f ++ flat_map text ps) = (d, flat_map text ps) -> means p d -> rest = text p ++ flat_map text ps ->
     Forall2 means (p :: ps) (dirs_ (S n) rest)).
  { intros sup w f rest d Dg T F C M ->. rewrite T. unfold start. change (lit "%") with [37]. rewrite <- !app_assoc. cbn [app dirs_]. change (isspace 37) with false. change (37 =? 37) with true. cbn iota.
    rewrite (conv_start sup w (f ++ flat_map text ps) Dg) by (destruct f; [tauto|exact F]). rewrite C. constructor; [exact M|]. apply IH. rewrite T in L. unfold start in L. rewrite !app_length in L. cbn [length lit] in L. change (length (lit "%")) with 1%nat in L. lia. }
  destruct p as [c|c| |sup w|sup w|sup w neg first items last]; cbn [part_ok] in P.
  - cbn [text app dirs_]. rewrite (proj2 (isspace_iff c) P). constructor; [reflexivity|]. apply IH. cbn in L. lia.
  - cbn [text app dirs_]. destruct P as [P1 P2]. destruct (isspace c) eqn:E; [apply isspace_iff in E; tauto|]. destruct (Z.eqb_spec c 37); [tauto|]. constructor; [reflexivity|]. apply IH. cbn in L. lia.
  - cbn [text app]. change (lit "%%") with [37; 37]. cbn [app dirs_]. change (isspace 37) with false. change (37 =? 37) with true. cbn iota. unfold conv_of. change (37 =? 42) with false. cbn iota beta zeta. cbn [number_of]. change ((48 <=? 37) && (37 <=? 57)) with false. cbn iota beta zeta.
    change (37 =? 115) with false. change (37 =? 91) with false. change (37 =? 99) with false. change (0 =? 0) with true. change (37 =? 37) with true. cbn iota. constructor; [reflexivity|]. apply IH. cbn in L. lia.
  - apply (CV sup w (lit "c") _ (Conv sup (width w) KChr) P); reflexivity.
  - apply (CV sup w (lit "s") _ (Conv sup (width w) KStr) P); reflexivity.
  - destruct (set_of_text sup w neg first items last (flat_map text ps) P) as (k & E & H).
    apply (CV sup w (lit "[" ++ (if neg then lit "^" else []) ++ (match first with Some c => [c] | None => [] end) ++ flat_map text_item items ++ (if last then lit "-" else []) ++ lit "]") _ (Conv sup (width w) k) (proj1 P)); try reflexivity.
    + change (lit "[") with [91]. rewrite <- !app_assoc. cbn [app]. unfold conv_at. change (91 =? 115) with false. change (91 =? 91) with true. cbn iota. rewrite E. reflexivity.
    + cbn [means]. exists k. auto.
Qed.
Print Assumptions C80_format.
Example C80_ex_format : flat_map text [PStr true []; PSpace 32; PSet false [1; 2] true (Some 93) [One 97; Span 48 57; Back 122 120] true; PPct] = lit "%*s %12[^]a0-9z-x-]%%" /\
  Forall part_ok [PStr true []; PSpace 32; PSet false [1; 2] true (Some 93) [One 97; Span 48 57; Back 122 120] true; PPct] /\ width [1; 2] = 12.
Proof. split; [vm_compute; reflexivity|]. split; [repeat constructor; cbn; unfold usual, space; lia|reflexivity]. Qed.

Example C80_ex : myscanf (lit "  abc  12,34:xyz") (lit "%s%*[ ]%2[0-9],%[^:]:%s") [lit "a"; lit "b"; lit "c"; lit "d"] = Ok (4, [lit "abc"; lit "12"; lit "34"; lit "xyz"])
  /\ myscanf (lit "abc") (lit "%s %s") [lit "a"; lit "b"] = Ok (1, [lit "abc"; lit "b"])
  /\ myscanf (lit "  ") (lit "%s %s") [lit "a"; lit "b"] = Ok (-1, [lit "a"; lit "b"])
  /\ myscanf (lit "+1") (lit "-%s%s") [lit "a"; lit "b"] = Ok (0, [lit "a"; lit "b"])
  /\ myscanf1 (lit "+1") (lit "-%s") (lit "a") = UB.
Proof. vm_compute. repeat split. Qed.
Example C80_ex_good : Forall good (dirs (lit "%s%*[ ]%2[0-9],%[^:]:%s %%")) /\ assigns (dirs (lit "%s%*[ ]%2[0-9],%[^:]:%s %%")) = 4%nat.
Proof. vm_compute. split; [|reflexivity]. repeat constructor; right; reflexivity. Qed.
