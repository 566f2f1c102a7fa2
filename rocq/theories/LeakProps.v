(** Properties of the memory leak detector (C79). *)
From Verif Require Import Base BaseFacts LeakModel.
Local Open Scope Z_scope.

(** ** Specification: counting *)
Definition number {A} (f : A -> bool) (l : list A) : Z := Z.of_nat (length (filter f l)).
Definition in_class (c : nat) (o : obj) : bool := Nat.eqb (oclass o) c.
Definition has_key (k : list Z) (o : obj) : bool := if list_eq_dec Z.eq_dec (okey o) k then true else false.
(** How many objects of class c were made by copying; cs: the classes of the objects made before, in order. *)
Fixpoint copies (c : nat) (cs : list nat) (l : list event) : Z :=
  match l with
  | [] => 0
  | Construct d :: l => copies c (cs ++ [d]) l
  | Copy i :: l => (if Nat.eqb (nth i cs O) c then 1 else 0) + copies c (cs ++ [nth i cs O]) l
  | _ :: l => copies c cs l
  end.
Definition is_construct (c : nat) (e : event) : bool := match e with Construct d => Nat.eqb d c | _ => false end.
Definition is_copy (e : event) : bool := match e with Copy _ => true | _ => false end.

(** ** Lemmas *)
Lemma number_cons {A} (f : A -> bool) x l : number f (x :: l) = (if f x then 1 else 0) + number f l.
Proof. unfold number. cbn [filter]. destruct (f x); cbn [length]; lia. Qed.
Lemma number_nonneg {A} (f : A -> bool) l : 0 <= number f l.
Proof. unfold number. lia. Qed.
Lemma at_in l i o : at_ l i = Some o -> In o l /\ oid o = i.
Proof. unfold at_. intros H. apply find_some in H. destruct H as [H1 H2]. apply Nat.eqb_eq in H2. auto. Qed.
Lemma without_none l i : ~ In i (map oid l) -> without l i = l.
Proof.
  induction l as [|o l IH]; cbn [map In]; intros H; auto. unfold without in *. cbn [filter].
  destruct (Nat.eqb_spec (oid o) i); [tauto|]. cbn [negb]. f_equal. tauto.
Qed.
Lemma number_without f l i o : NoDup (map oid l) -> at_ l i = Some o ->
  number f (without l i) = number f l - (if f o then 1 else 0).
Proof.
  intros N H. unfold at_ in H. induction l as [|x l IH]; cbn [List.find] in H; [discriminate|].
  cbn [map] in N. inversion N as [|? ? N1 N2]. subst. unfold without. cbn [filter].
  destruct (Nat.eqb_spec (oid x) i) as [E|E].
  - injection H as ->. cbn [negb]. fold (without l i). rewrite without_none by congruence. rewrite number_cons. lia.
  - cbn [negb]. fold (without l i). rewrite !number_cons, IH by auto. lia.
Qed.
Lemma map_set_key l i k : map oid (set_key l i k) = map oid l.
Proof. unfold set_key. rewrite map_map. apply map_ext. intros o. destruct (Nat.eqb (oid o) i); reflexivity. Qed.
Lemma class_set_key c l i k : number (in_class c) (set_key l i k) = number (in_class c) l.
Proof.
  induction l as [|o l IH]; [reflexivity|]. unfold set_key in *. cbn [map]. rewrite !number_cons, IH.
  destruct (Nat.eqb (oid o) i); reflexivity.
Qed.
Lemma set_key_none l i k : ~ In i (map oid l) -> set_key l i k = l.
Proof.
  induction l as [|o l IH]; cbn [map In]; intros H; auto. unfold set_key in *. cbn [map].
  destruct (Nat.eqb_spec (oid o) i); [tauto|]. f_equal. tauto.
Qed.
Lemma key_set_key k' l i k o : NoDup (map oid l) -> at_ l i = Some o ->
  number (has_key k') (set_key l i k) = number (has_key k') l - (if has_key k' o then 1 else 0) + (if list_eq_dec Z.eq_dec k k' then 1 else 0).
Proof.
  intros N H. unfold at_ in H. induction l as [|x l IH]; cbn [List.find] in H; [discriminate|].
  cbn [map] in N. inversion N as [|? ? N1 N2]. subst. unfold set_key. cbn [map]. fold (set_key l i k).
  destruct (Nat.eqb_spec (oid x) i) as [E|E].
  - injection H as ->. rewrite set_key_none by congruence. rewrite !number_cons. unfold has_key at 1. cbn [okey].
    destruct (list_eq_dec Z.eq_dec k k'); lia.
  - rewrite !number_cons, IH by auto. lia.
Qed.
Lemma incl_without l i : incl (map oid (without l i)) (map oid l).
Proof. intros x. rewrite !in_map_iff. intros (o & E & H). apply filter_In in H. exists o. tauto. Qed.
Lemma nodup_without l i : NoDup (map oid l) -> NoDup (map oid (without l i)).
Proof.
  induction l as [|o l IH]; cbn [map]; intros N; [constructor|]. inversion N as [|? ? N1 N2]. subst.
  unfold without. cbn [filter]. destruct (negb (Nat.eqb (oid o) i)); cbn [map]; fold (without l i); auto.
  constructor; auto. intros H. apply N1. apply (incl_without l i). exact H.
Qed.

Lemma new_ok m c m' : memChkNew m c = Ok m' ->
  length (mMemNow m') = length (mMemNow m) /\ length (mMemTotal m') = length (mMemTotal m) /\ mMemMap m' = mMemMap m /\ (c < length (mMemNow m))%nat /\
  (forall d, nth d (mMemNow m') 0 = nth d (mMemNow m) 0 + (if Nat.eqb c d then 1 else 0)) /\
  (forall d, nth d (mMemTotal m') 0 = nth d (mMemTotal m) 0 + (if Nat.eqb c d then 1 else 0)).
Proof.
  unfold memChkNew. intros H.
  apply bind_ok in H. destruct H as (n & R & H). apply bind_ok in H. destruct H as (n1 & I & H).
  apply bind_ok in H. destruct H as (now & W & H). apply bind_ok in H. destruct H as (k & R2 & H).
  apply bind_ok in H. destruct H as (k1 & I2 & H). apply bind_ok in H. destruct H as (tot & W2 & H). apply Ok_inj in H. subst m'.
  apply rd_ok in R, R2. unfold int_ in I, I2. destruct (fits32 (n + 1)); [|discriminate]. destruct (fits32 (k + 1)); [|discriminate].
  apply Ok_inj in I, I2. subst n1 k1.
  assert (L1 : (c < length (mMemNow m))%nat) by (apply nth_error_Some; congruence).
  assert (L2 : (c < length (mMemTotal m))%nat) by (apply nth_error_Some; congruence).
  rewrite wr_ok in W, W2 by auto. apply Ok_inj in W, W2. subst now tot. cbn [mMemNow mMemTotal mMemMap]. rewrite !upd_length.
  repeat split; auto; intros d; destruct (Nat.eqb_spec c d) as [->|E].
  - erewrite nth_error_nth by (apply nth_error_upd_eq; auto). apply nth_error_nth with (d := 0) in R. lia.
  - destruct (nth_error (upd (mMemNow m) c (n + 1)) d) as [y|] eqn:Y.
    + rewrite (nth_error_nth _ _ _ Y). rewrite nth_error_upd_neq in Y by auto. rewrite (nth_error_nth _ _ _ Y). lia.
    + pose proof Y as Y2. rewrite nth_error_upd_neq in Y by auto. apply nth_error_None in Y, Y2. rewrite !nth_overflow; auto.
  - erewrite nth_error_nth by (apply nth_error_upd_eq; auto). apply nth_error_nth with (d := 0) in R2. lia.
  - destruct (nth_error (upd (mMemTotal m) c (k + 1)) d) as [y|] eqn:Y.
    + rewrite (nth_error_nth _ _ _ Y). rewrite nth_error_upd_neq in Y by auto. rewrite (nth_error_nth _ _ _ Y). lia.
    + pose proof Y as Y2. rewrite nth_error_upd_neq in Y by auto. apply nth_error_None in Y, Y2. rewrite !nth_overflow; auto.
Qed.
Lemma del_ok b m c m' : memChkDel b m c = Ok m' ->
  length (mMemNow m') = length (mMemNow m) /\ mMemTotal m' = mMemTotal m /\ mMemMap m' = mMemMap m /\
  (forall d, nth d (mMemNow m') 0 = nth d (mMemNow m) 0 - (if Nat.eqb c d then 1 else 0)).
Proof.
  unfold memChkDel. intros H.
  apply bind_ok in H. destruct H as (n & R & H). apply bind_ok in H. destruct H as (n1 & I & H).
  apply bind_ok in H. destruct H as (now & W & H). apply bind_ok in H. destruct H as ([] & A & H). apply Ok_inj in H. subst m'.
  apply rd_ok in R. unfold int_ in I. destruct (fits32 (n - 1)); [|discriminate]. apply Ok_inj in I. subst n1.
  assert (L1 : (c < length (mMemNow m))%nat) by (apply nth_error_Some; congruence).
  rewrite wr_ok in W by auto. apply Ok_inj in W. subst now. cbn [mMemNow mMemTotal mMemMap]. rewrite !upd_length.
  repeat split; auto; intros d; destruct (Nat.eqb_spec c d) as [->|E].
  - erewrite nth_error_nth by (apply nth_error_upd_eq; auto). apply nth_error_nth with (d := 0) in R. lia.
  - destruct (nth_error (upd (mMemNow m) c (n - 1)) d) as [y|] eqn:Y.
    + rewrite (nth_error_nth _ _ _ Y). rewrite nth_error_upd_neq in Y by auto. rewrite (nth_error_nth _ _ _ Y). lia.
    + pose proof Y as Y2. rewrite nth_error_upd_neq in Y by auto. apply nth_error_None in Y, Y2. rewrite !nth_overflow; auto.
Qed.

(** ** The counters *)
Record wf (h : heap) (cs : list nat) : Prop := {
  w_nodup : NoDup (map oid (live h));
  w_made : made h = length cs;
  w_ids : forall o, In o (live h) -> (oid o < length cs)%nat /\ nth (oid o) cs O = oclass o;
  w_len : length (mMemNow (st h)) = mMax /\ length (mMemTotal (st h)) = mMax }.
Lemma wf0 : wf heap0 [].
Proof. constructor; cbn; auto. - constructor. - tauto. Qed.
Definition next_cs (cs : list nat) (e : event) : list nat :=
  match e with Construct c => cs ++ [c] | Copy i => cs ++ [nth i cs O] | _ => cs end.
Lemma wf_fresh h cs : wf h cs -> ~ In (made h) (map oid (live h)).
Proof. intros W. rewrite in_map_iff. intros (o & E & H). destruct (w_ids _ _ W _ H) as [L _]. rewrite (w_made _ _ W) in E. lia. Qed.
Lemma wf_more h cs c k s : wf h cs -> length (mMemNow s) = mMax /\ length (mMemTotal s) = mMax ->
  wf (Heap s (Obj (made h) c k :: live h) (S (made h))) (cs ++ [c]).
Proof.
  intros W LN. constructor; cbn [live made st]; auto.
  - cbn [map oid]. constructor; [exact (wf_fresh _ _ W)|apply (w_nodup _ _ W)].
  - rewrite app_length. cbn [length]. rewrite (w_made _ _ W). lia.
  - intros o [<-|H]; cbn [oid oclass]; rewrite app_length; cbn [length].
    + rewrite (w_made _ _ W), app_nth2 by lia. rewrite Nat.sub_diag. split; [lia|reflexivity].
    + destruct (w_ids _ _ W _ H) as [L E]. rewrite app_nth1 by auto. split; [lia|exact E].
Qed.
Lemma step_wf b h cs e h' : wf h cs -> step b h e = Ok h' -> wf h' (next_cs cs e).
Proof.
  intros W H. destruct e as [c|i|i j|i k|i]; cbn [step next_cs] in *.
  - apply bind_ok in H. destruct H as (s & HN & H). apply Ok_inj in H. subst h'.
    destruct (new_ok _ _ _ HN) as (L1 & L2 & _). destruct (w_len _ _ W) as [A B]. apply wf_more; auto. split; congruence.
  - destruct (at_ (live h) i) as [o|] eqn:E; [|discriminate]. apply Ok_inj in H. subst h'.
    destruct (at_in _ _ _ E) as [IO EO]. destruct (w_ids _ _ W _ IO) as [L EC]. rewrite EO in EC. rewrite EC.
    apply wf_more; auto. apply (w_len _ _ W).
  - destruct (at_ (live h) i) as [o|] eqn:E; [|discriminate]. destruct (at_ (live h) j) as [o'|] eqn:E'; [|discriminate]. apply Ok_inj in H. subst h'.
    constructor; cbn [live made st]; try apply W.
    + rewrite map_set_key. apply W.
    + intros x HX. unfold set_key in HX. apply in_map_iff in HX. destruct HX as (y & <- & HY). destruct (Nat.eqb (oid y) i); apply (w_ids _ _ W _ HY).
  - destruct (at_ (live h) i) as [o|] eqn:E; [|discriminate]. apply bind_ok in H. destruct H as (n & _ & H). apply Ok_inj in H. subst h'.
    constructor; cbn [live made st mMemNow mMemTotal]; try apply W.
    + rewrite map_set_key. apply W.
    + intros x HX. unfold set_key in HX. apply in_map_iff in HX. destruct HX as (y & <- & HY). destruct (Nat.eqb (oid y) i); apply (w_ids _ _ W _ HY).
  - destruct (at_ (live h) i) as [o|] eqn:E; [|discriminate]. apply bind_ok in H. destruct H as (s & HD & H).
    apply bind_ok in H. destruct H as (n & _ & H). apply Ok_inj in H. subst h'.
    destruct (del_ok _ _ _ _ HD) as (L1 & L2 & _). destruct (w_len _ _ W) as [A B].
    constructor; cbn [live made st mMemNow mMemTotal].
    + apply nodup_without, W.
    + apply W.
    + intros x HX. apply filter_In in HX. apply (w_ids _ _ W). tauto.
    + rewrite L2. split; congruence.
Qed.
Lemma step_now b h cs e h' c : wf h cs -> step b h e = Ok h' ->
  nth c (mMemNow (st h')) 0 - number (in_class c) (live h') =
  nth c (mMemNow (st h)) 0 - number (in_class c) (live h) - copies c cs [e].
Proof.
  intros W H. destruct e as [d|i|i j|i k|i]; cbn [step copies] in *.
  - apply bind_ok in H. destruct H as (s & HN & H). apply Ok_inj in H. subst h'. cbn [st live].
    destruct (new_ok _ _ _ HN) as (_ & _ & _ & _ & E & _). rewrite E, number_cons. unfold in_class at 1. cbn [oclass]. destruct (Nat.eqb d c); lia.
  - destruct (at_ (live h) i) as [o|] eqn:E; [|discriminate]. apply Ok_inj in H. subst h'. cbn [st live].
    destruct (at_in _ _ _ E) as [IO EO]. destruct (w_ids _ _ W _ IO) as [_ EC]. rewrite EO in EC. rewrite EC, number_cons.
    unfold in_class at 1. cbn [oclass]. destruct (Nat.eqb (oclass o) c); lia.
  - destruct (at_ (live h) i) as [o|] eqn:E; [|discriminate]. destruct (at_ (live h) j) as [o'|] eqn:E'; [|discriminate]. apply Ok_inj in H. subst h'.
    cbn [st live]. rewrite class_set_key. lia.
  - destruct (at_ (live h) i) as [o|] eqn:E; [|discriminate]. apply bind_ok in H. destruct H as (n & _ & H). apply Ok_inj in H. subst h'.
    cbn [st live mMemNow]. rewrite class_set_key. lia.
  - destruct (at_ (live h) i) as [o|] eqn:E; [|discriminate]. apply bind_ok in H. destruct H as (s & HD & H).
    apply bind_ok in H. destruct H as (n & _ & H). apply Ok_inj in H. subst h'. cbn [st live mMemNow].
    destruct (del_ok _ _ _ _ HD) as (_ & _ & _ & ED). rewrite ED, (number_without _ _ _ _ (w_nodup _ _ W) E).
    unfold in_class at 2. destruct (Nat.eqb (oclass o) c); lia.
Qed.
Lemma copies_cons c cs e l : copies c cs (e :: l) = copies c cs [e] + copies c (next_cs cs e) l.
Proof. destruct e; cbn [copies next_cs]; lia. Qed.
Lemma run_now b c : forall l h cs h', wf h cs -> run b h l = Ok h' ->
  nth c (mMemNow (st h')) 0 - number (in_class c) (live h') = nth c (mMemNow (st h)) 0 - number (in_class c) (live h) - copies c cs l.
Proof.
  induction l as [|e l IH]; intros h cs h' W H; cbn [run] in H.
  - apply Ok_inj in H. subst. cbn [copies]. lia.
  - apply bind_ok in H. destruct H as (h1 & H1 & H2). rewrite (IH h1 (next_cs cs e) h' (step_wf _ _ _ _ _ W H1) H2).
    rewrite (step_now _ _ _ _ _ c W H1), (copies_cons c cs e l). lia.
Qed.

(** ** C79 *)
(** In every program, mMemNow of a class is the number of its objects less the number of copies ever made. *)
Theorem C79_law : forall debug l h c, run debug heap0 l = Ok h ->
  nth c (mMemNow (st h)) 0 = number (in_class c) (live h) - copies c [] l.
Proof.
  intros debug l h c H. pose proof (run_now debug c l heap0 [] h wf0 H) as E.
  replace (nth c (mMemNow (st heap0)) 0) with 0 in E.
  - unfold number in E at 2. cbn in E. lia.
  - cbn [heap0 st stats0 mMemNow]. destruct (nth_in_or_default c (repeat 0 mMax) 0) as [X|X]; [apply repeat_spec in X|]; congruence.
Qed.
Print Assumptions C79_law.
Lemma no_copies c l : forallb (fun e => negb (is_copy e)) l = true -> forall cs, copies c cs l = 0.
Proof.
  induction l as [|e l IH]; intros H cs; cbn [copies forallb] in *; auto. apply andb_prop in H. destruct H as [H1 H2].
  destruct e; try discriminate; auto.
Qed.
(** Without copies, mMemNow counts the objects alive and mMemTotal the objects made. *)
Theorem C79_now : forall debug l h c, forallb (fun e => negb (is_copy e)) l = true -> run debug heap0 l = Ok h ->
  nth c (mMemNow (st h)) 0 = number (in_class c) (live h).
Proof. intros debug l h c N H. rewrite (C79_law _ _ _ c H), (no_copies c l N). lia. Qed.
Print Assumptions C79_now.
Theorem C79_total : forall debug l h c, run debug heap0 l = Ok h ->
  nth c (mMemTotal (st h)) 0 = number (is_construct c) l.
Proof.
  assert (G : forall debug c l h0 h, run debug h0 l = Ok h ->
    nth c (mMemTotal (st h)) 0 = nth c (mMemTotal (st h0)) 0 + number (is_construct c) l).
  { intros debug c. induction l as [|e l IH]; intros h0 h H; cbn [run] in H.
    - apply Ok_inj in H. subst. unfold number. cbn. lia.
    - apply bind_ok in H. destruct H as (h1 & H1 & H2). rewrite (IH _ _ H2), number_cons, Z.add_assoc. f_equal.
      destruct e as [d|i|i j|i k|i]; cbn [step is_construct] in *.
      + apply bind_ok in H1. destruct H1 as (s & HN & H1). apply Ok_inj in H1. subst h1. cbn [st].
        destruct (new_ok _ _ _ HN) as (_ & _ & _ & _ & _ & E). rewrite E. reflexivity.
      + destruct (at_ (live h0) i) as [o|]; [|discriminate]. apply Ok_inj in H1. subst h1. cbn [st]. lia.
      + destruct (at_ (live h0) i) as [o|]; [|discriminate]. destruct (at_ (live h0) j) as [o'|]; [|discriminate]. apply Ok_inj in H1. subst h1. cbn [st]. lia.
      + destruct (at_ (live h0) i) as [o|]; [|discriminate]. apply bind_ok in H1. destruct H1 as (n & _ & H1). apply Ok_inj in H1. subst h1. cbn [st mMemTotal]. lia.
      + destruct (at_ (live h0) i) as [o|]; [|discriminate]. apply bind_ok in H1. destruct H1 as (s & HD & H1).
        apply bind_ok in H1. destruct H1 as (n & _ & H1). apply Ok_inj in H1. subst h1. cbn [st mMemTotal].
        destruct (del_ok _ _ _ _ HD) as (_ & -> & _). lia. }
  intros debug l h c H. rewrite (G _ _ _ _ _ H). cbn [heap0 st stats0 mMemTotal].
  destruct (nth_in_or_default c (repeat 0 mMax) 0) as [X|X]; [apply repeat_spec in X|]; rewrite X; lia.
Qed.
Print Assumptions C79_total.
(** Without copies the debugging assertion never fails. *)
Theorem C79_no_alarm : forall debug l, forallb (fun e => negb (is_copy e)) l = true -> run debug heap0 l <> Abort.
Proof.
  intros debug l N.
  assert (G : forall l h cs, wf h cs -> (forall c, nth c (mMemNow (st h)) 0 = number (in_class c) (live h)) ->
    forallb (fun e => negb (is_copy e)) l = true -> run debug h l <> Abort).
  { clear. induction l as [|e l IH]; intros h cs W E N; cbn [run]; [discriminate|].
    cbn [forallb] in N. apply andb_prop in N. destruct N as [N1 N2].
    destruct (step debug h e) as [h1| | |] eqn:HS; cbn [bind]; try discriminate.
    - apply (IH h1 (next_cs cs e)); auto; [eapply step_wf; eauto|]. intros c. pose proof (step_now _ _ _ _ _ c W HS) as X.
      rewrite (no_copies c [e]) in X by (cbn [forallb]; rewrite N1; reflexivity). rewrite E in X. lia.
    - exfalso. destruct e as [d|i|i j|i k|i]; cbn [step] in HS.
      + unfold memChkNew in HS. destruct (rd (mMemNow (st h)) d) as [n| | |] eqn:R; cbn [bind] in HS; try discriminate;
          [|unfold rd in R; destruct (nth_error (mMemNow (st h)) d); discriminate].
        unfold int_, wr, rd in HS. destruct (fits32 (n + 1)); cbn [bind] in HS; [|discriminate].
        destruct (Nat.ltb d (length (mMemNow (st h)))); cbn [bind] in HS; [|discriminate].
        destruct (nth_error (mMemTotal (st h)) d); cbn [bind] in HS; [|discriminate].
        destruct (fits32 (z + 1)); cbn [bind] in HS; [|discriminate].
        destruct (Nat.ltb d (length (mMemTotal (st h)))); discriminate.
      + destruct (at_ (live h) i); discriminate.
      + destruct (at_ (live h) i); [|discriminate]. destruct (at_ (live h) j); discriminate.
      + destruct (at_ (live h) i); [|discriminate]. unfold int_ in HS. destruct (fits32 _); discriminate.
      + destruct (at_ (live h) i) as [o|] eqn:A; [|discriminate]. unfold memChkDel in HS.
        destruct (rd (mMemNow (st h)) (oclass o)) as [n| | |] eqn:R; cbn [bind] in HS; try discriminate;
          [|unfold rd in R; destruct (nth_error (mMemNow (st h)) (oclass o)); discriminate].
        unfold int_, wr in HS. destruct (fits32 (n - 1)); cbn [bind] in HS; [|discriminate].
        destruct (Nat.ltb (oclass o) (length (mMemNow (st h)))); cbn [bind] in HS; [|discriminate].
        assert (P : 1 <= n).
        { apply rd_ok in R. apply nth_error_nth with (d := 0) in R. rewrite E in R. rewrite <- R.
          pose proof (number_without (in_class (oclass o)) _ _ _ (w_nodup _ _ W) A) as X.
          pose proof (number_nonneg (in_class (oclass o)) (without (live h) i)). unfold in_class at 3 in X. rewrite Nat.eqb_refl in X. lia. }
        replace (n - 1 <? 0) with false in HS by (destruct (Z.ltb_spec (n - 1) 0); lia).
        rewrite andb_false_r in HS. cbn [negb assert_ bind] in HS.
        destruct (fits32 _) in HS; discriminate. }
  apply (G l heap0 []); auto; [apply wf0|]. intros c. exact (C79_now debug [] heap0 c eq_refl eq_refl).
Qed.
Print Assumptions C79_no_alarm.

(** Defect: copies are not counted when made but when destroyed. *)
Theorem C79_copy_refuted : forall c, (c < mMax)%nat ->
  (exists h, run false heap0 [Construct c; Copy 0; Destroy 0; Destroy 1] = Ok h /\ live h = [] /\ nth c (mMemNow (st h)) 0 = -1) /\
  run true heap0 [Construct c; Copy 0; Destroy 0; Destroy 1] = Abort.
Proof.
  intros c L. unfold mMax in L. do 30 (destruct c as [|c]; [split; [eexists; vm_compute; repeat split|vm_compute; reflexivity]|]). lia.
Qed.
Print Assumptions C79_copy_refuted.

(** *** Labels *)
Definition label_of (e : event) : list nat := match e with Label i _ => [i] | _ => [] end.
(** No copies or assignments, each object labelled at most once, with a label that is not empty. *)
Definition plain (e : event) : Prop := match e with Copy _ | Assign _ _ => False | Label _ k => k <> [] | _ => True end.
Definition labels_once (l : list event) : Prop := Forall plain l /\ NoDup (concat (map label_of l)).
(** Then mMemMap counts the objects alive with that label. *)
Theorem C79_labels : forall debug l h k, labels_once l -> run debug heap0 l = Ok h -> k <> [] ->
  mMemMap (st h) k = number (has_key k) (live h).
Proof.
  assert (G : forall debug l h0 h cs used, wf h0 cs -> run debug h0 l = Ok h -> Forall plain l ->
    NoDup (used ++ concat (map label_of l)) ->
    (forall o, In o (live h0) -> okey o <> [] -> In (oid o) used) ->
    (forall k, k <> [] -> mMemMap (st h0) k = number (has_key k) (live h0)) ->
    forall k, k <> [] -> mMemMap (st h) k = number (has_key k) (live h)).
  { intros debug. induction l as [|e l IH]; intros h0 h cs used W H F N U E k K; cbn [run] in H.
    - apply Ok_inj in H. subst. auto.
    - apply bind_ok in H. destruct H as (h1 & H1 & H2). inversion F as [|? ? F1 F2]. subst.
      pose proof (step_wf _ _ _ _ _ W H1) as W1.
      cbn [map concat] in N. rewrite app_assoc in N.
      apply (IH h1 h (next_cs cs e) (used ++ label_of e)); auto.
      + clear IH H2 K k. intros o HO KO. destruct e as [c|i|i j|i k|i]; cbn [plain] in F1; try contradiction; cbn [step label_of] in *.
        * apply bind_ok in H1. destruct H1 as (s & HN & H1). apply Ok_inj in H1. subst h1. cbn [live] in HO. destruct HO as [<-|HO]; [cbn [okey] in KO; congruence|].
          apply in_or_app. left. auto.
        * destruct (at_ (live h0) i) as [o'|] eqn:A; [|discriminate]. apply bind_ok in H1. destruct H1 as (n & _ & H1). apply Ok_inj in H1. subst h1.
          cbn [live] in HO. unfold set_key in HO. apply in_map_iff in HO. destruct HO as (x & <- & HX). apply in_or_app.
          destruct (Nat.eqb_spec (oid x) i); [right; left; cbn [oid]; auto|left; auto].
        * destruct (at_ (live h0) i) as [o'|] eqn:A; [|discriminate]. apply bind_ok in H1. destruct H1 as (s & HD & H1).
          apply bind_ok in H1. destruct H1 as (n & _ & H1). apply Ok_inj in H1. subst h1. cbn [live] in HO. apply filter_In in HO.
          apply in_or_app. left. apply U; tauto.
      + clear IH H2 k K. intros k K. destruct e as [c|i|i j|i k'|i]; cbn [plain] in F1; try contradiction; cbn [step label_of] in *.
        * apply bind_ok in H1. destruct H1 as (s & HN & H1). apply Ok_inj in H1. subst h1. cbn [live st].
          destruct (new_ok _ _ _ HN) as (_ & _ & -> & _). rewrite number_cons, E by auto. unfold has_key at 2. cbn [okey].
          destruct (list_eq_dec Z.eq_dec [] k); [congruence|]. lia.
        * destruct (at_ (live h0) i) as [o|] eqn:A; [|discriminate]. apply bind_ok in H1. destruct H1 as (n & HI & H1). apply Ok_inj in H1. subst h1.
          cbn [live st mMemMap]. rewrite (key_set_key _ _ _ _ _ (w_nodup _ _ W) A). destruct (at_in _ _ _ A) as [IO EO].
          assert (KE : okey o = []).
          { destruct (list_eq_dec Z.eq_dec (okey o) []) as [X|X]; auto. exfalso. specialize (U o IO X). rewrite EO in U.
            apply NoDup_remove_2 with (l := used) (l' := concat (map label_of l)) (a := i); [rewrite <- app_assoc in N; exact N|].
            apply in_or_app. auto. }
          unfold has_key at 2. rewrite KE. unfold int_ in HI. destruct (fits32 _); [|discriminate]. apply Ok_inj in HI. subst n.
          unfold set_map. destruct (list_eq_dec Z.eq_dec [] k); [congruence|].
          destruct (list_eq_dec Z.eq_dec k k'); destruct (list_eq_dec Z.eq_dec k' k); try congruence.
          -- subst k'. rewrite E by auto. lia.
          -- rewrite E by auto. lia.
        * destruct (at_ (live h0) i) as [o|] eqn:A; [|discriminate]. apply bind_ok in H1. destruct H1 as (s & HD & H1).
          apply bind_ok in H1. destruct H1 as (n & HI & H1). apply Ok_inj in H1. subst h1. cbn [live st mMemMap].
          destruct (del_ok _ _ _ _ HD) as (_ & _ & EM & _). rewrite EM in *. unfold int_ in HI. destruct (fits32 _); [|discriminate]. apply Ok_inj in HI. subst n.
          rewrite (number_without _ _ _ _ (w_nodup _ _ W) A). unfold set_map, has_key at 2.
          destruct (list_eq_dec Z.eq_dec k (okey o)) as [X|X]; destruct (list_eq_dec Z.eq_dec (okey o) k) as [Y|Y]; try congruence.
          -- rewrite <- X, E by auto. lia.
          -- rewrite E by auto. lia. }
  intros debug l h k (F & N) H K. apply (G debug l heap0 h [] []); auto; try apply wf0.
Qed.
Print Assumptions C79_labels.
Lemma eq_dec_same {B} (k : list Z) (x y : B) : (if list_eq_dec Z.eq_dec k k then x else y) = x.
Proof. destruct (list_eq_dec Z.eq_dec k k); congruence. Qed.
Lemma eq_dec_diff {B} (k k' : list Z) (x y : B) : k <> k' -> (if list_eq_dec Z.eq_dec k k' then x else y) = y.
Proof. destruct (list_eq_dec Z.eq_dec k k'); congruence. Qed.
Ltac labels_tac := eexists; repeat (first [rewrite eq_dec_same | rewrite eq_dec_diff by congruence
   | progress (cbn -[list_eq_dec fits32]; unfold set_map, int_; cbn -[list_eq_dec fits32])
   | match goal with |- context [fits32 ?v] => replace (fits32 v) with true by reflexivity end ]); repeat split; cbn -[list_eq_dec];
   rewrite ?eq_dec_same; repeat rewrite eq_dec_diff by congruence; rewrite ?eq_dec_same; reflexivity.
(** Defects: an object never labelled is taken off the count of the empty label; labelling twice, or
    assigning, leaves counts of objects that are gone. *)
Theorem C79_labels_refuted : forall c k k', (c < mMax)%nat -> k <> [] -> k' <> k ->
  (exists h, run true heap0 [Construct c; Destroy 0] = Ok h /\ live h = [] /\ mMemMap (st h) [] = -1) /\
  (exists h, run true heap0 [Construct c; Label 0 k; Label 0 k'; Destroy 0] = Ok h /\ live h = [] /\ mMemMap (st h) k = 1) /\
  (exists h, run true heap0 [Construct c; Construct c; Label 0 k; Assign 0 1; Destroy 0; Destroy 1] = Ok h /\ live h = [] /\ mMemMap (st h) k = 1).
Proof.
  intros c k k' L K K'. unfold mMax in L. split; [|split].
  - do 30 (destruct c as [|c]; [eexists; vm_compute; repeat split|]). lia.
  - do 30 (destruct c as [|c]; [labels_tac|]). lia.
  - do 30 (destruct c as [|c]; [labels_tac|]). lia.
Qed.
Print Assumptions C79_labels_refuted.

Example C79_ex : exists h, run true heap0 [Construct 3; Construct 3; Label 1 (lit "a"); Construct 5; Destroy 0; Construct 3] = Ok h /\
  nth 3 (mMemNow (st h)) 0 = 2 /\ nth 3 (mMemTotal (st h)) 0 = 3 /\ nth 5 (mMemNow (st h)) 0 = 1 /\ mMemMap (st h) (lit "a") = 1.
Proof. vm_compute. eexists. repeat split. Qed.
