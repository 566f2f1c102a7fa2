(** Proofs about the monitors of Interthread.h. *)
From Coq Require Import Permutation.
From Verif Require Import Base BaseFacts Monitor MonitorProofs WakeProofs InterthreadModel InterthreadSpec.
Local Open Scope Z_scope.

(** ** General *)
Lemma sum_total : forall Op Res (f : pc Op Res -> nat) l, sum f l = total f l.
Proof. intros Op Res f l. unfold total. induction l as [|p l IH]; [reflexivity|]. cbn [sum map list_sum fold_right]. rewrite IH. reflexivity. Qed.

Lemma on_the_way_fa : forall Op Res (cons : Op -> bool) (p : pc Op Res), fa 0 cons p = on_the_way cons p.
Proof.
  intros Op Res cons p. unfold fa. destruct p; cbn [pend act on_the_way]; unfold c1, nsig; try lia.
  rewrite filter_app, app_length. lia.
Qed.

Lemma total_ext : forall A (f g : A -> nat) l, (forall x, f x = g x) -> total f l = total g l.
Proof. intros A f g l H. unfold total. f_equal. apply map_ext. assumption. Qed.

Lemma nz_app : forall a b, nz (a ++ b) = nz a ++ nz b.
Proof. intros. apply filter_app. Qed.
Lemma nz_cons : forall x l, x <> 0 -> nz (x :: l) = x :: nz l.
Proof. intros x l H. cbn [nz filter]. destruct (Z.eqb_spec x 0); [contradiction|reflexivity]. Qed.
Lemma nz_zero : forall l, nz (0 :: l) = nz l.
Proof. reflexivity. Qed.

Lemma no_null_cons : forall x l, ~ In 0 (x :: l) -> x <> 0 /\ ~ In 0 l.
Proof. intros x l H. split; intros E; apply H; [left|right]; assumption. Qed.

(** ** C20 *)
Lemma q_lin : linearizable q_body [] deque_passes deque_does.
Proof.
  apply (lin_intro q_body deque_passes deque_does (fun _ => True)); [| | |exact I].
  - intros s op e s' c _ H. split; [|exact I]. destruct op; cbn in H; try discriminate.
    + destruct s as [|x s]; cbn in H; [injection H as <- _; left; auto|].
      destruct (Z.eqb_spec x 0); [|discriminate]. injection H as <- _. right. congruence.
    + destruct s as [|x s]; cbn in H; [|discriminate]. destruct e; try discriminate. injection H as <- _. cbn. repeat split. discriminate.
    + destruct (q_get s); discriminate.
  - intros s op e s' _ H. split; [|exact I]. destruct op; cbn in H; try discriminate.
    + destruct (q_get s) as [p q]. destruct (p =? 0); discriminate.
    + destruct s as [|x s]; cbn in H; [|discriminate]. destruct e; try discriminate. injection H as <-. cbn. repeat split. discriminate.
    + destruct (q_get s); discriminate.
  - intros s op e s' r ins aft _ H. split; [|exact I]. destruct op; cbn in H |- *.
    + injection H as <- <- _ _. auto.
    + injection H as <- <- _ _. auto.
    + destruct s as [|x s]; cbn in H; [discriminate|]. destruct (Z.eqb_spec x 0) as [|N]; [discriminate|]. injection H as <- <- _ _. eauto.
    + destruct s as [|x s]; cbn in H; [destruct e; try discriminate; injection H as <- <- _ _; right; auto|injection H as <- <- _ _; left; eauto].
    + destruct s as [|x s]; cbn in H; injection H as <- <- _ _; [right; auto|left; eauto].
    + injection H as <- <- _ _. auto.
    + injection H as <- <- _ _. auto.
    + injection H as <- <- _ _. auto.
    + injection H as <- <- _ _. split; [reflexivity|]. destruct s; reflexivity.
Qed.

Lemma no_front_cons : forall ev h, no_front (ev :: h) -> no_front h.
Proof. intros ev h H t v e r I. eapply H. right. eassumption. Qed.

(** Over a sequential run: what was there and was put in front of what was taken. *)
Lemma deque_fifo : forall s h s', seq_run deque_passes deque_does s h s' -> no_front h ->
  nz s ++ nz (q_puts h) = nz (q_takes h) ++ nz s'.
Proof.
  intros s h s' R. induction R as [s|s l s' t op R IH|s l s' t r R IH|s s1 l s' t op e P R IH|s s1 l s' t op e r D R IH]; intros N.
  - cbn. rewrite app_nil_r. reflexivity.
  - apply IH. eapply no_front_cons; eassumption.
  - apply IH. eapply no_front_cons; eassumption.
  - specialize (IH (no_front_cons _ _ N)). change (q_puts (HPass t op e :: l)) with (q_puts l). change (q_takes (HPass t op e :: l)) with (q_takes l).
    destruct op; cbn in P; try contradiction.
    + destruct P as [[-> ->]| ->]; [exact IH|rewrite nz_zero; exact IH].
    + destruct P as (-> & -> & _). exact IH.
  - specialize (IH (no_front_cons _ _ N)). unfold q_puts, q_takes in *. cbn [flat_map].
    destruct op; cbn [deque_does] in D; rewrite ?app_nil_l.
    + destruct D as [-> ->]. rewrite nz_app in IH. rewrite ?app_nil_l, <- IH. rewrite (nz_app [v]), app_assoc. reflexivity.
    + exfalso. eapply N. left. reflexivity.
    + destruct D as (x & Nx & -> & ->). rewrite (nz_app [x]). cbn [app]. rewrite !nz_cons by assumption. cbn [app]. rewrite IH. reflexivity.
    + destruct D as [(x & -> & ->)|(-> & -> & _ & ->)].
      * change (x :: s1) with ([x] ++ s1). rewrite !nz_app, <- !app_assoc, IH. reflexivity.
      * rewrite nz_app. exact IH.
    + destruct D as [(x & -> & ->)|(-> & -> & ->)].
      * change (x :: s1) with ([x] ++ s1). rewrite !nz_app, <- !app_assoc, IH. reflexivity.
      * rewrite nz_app. exact IH.
    + destruct D as [-> ->]. rewrite nz_app, <- app_assoc, <- IH. reflexivity.
    + destruct D as [-> ->]. rewrite nz_app, <- app_assoc, <- IH. reflexivity.
    + destruct D as [-> ->]. exact IH.
    + destruct D as [-> ->]. exact IH.
Qed.

Lemma Permutation_nz : forall a b, Permutation a b -> Permutation (nz a) (nz b).
Proof.
  intros a b H. induction H; [constructor| | |eapply perm_trans; eassumption].
  - cbn [nz filter]. destruct (negb (x =? 0)); [constructor|]; assumption.
  - cbn [nz filter]. destruct (negb (x =? 0)), (negb (y =? 0)); try apply perm_swap; apply Permutation_refl.
Qed.

Lemma deque_bag : forall s h s', seq_run deque_passes deque_does s h s' ->
  Permutation (nz s ++ nz (q_puts h)) (nz (q_takes h) ++ nz s').
Proof.
  intros s h s' R. induction R as [s|s l s' t op R IH|s l s' t r R IH|s s1 l s' t op e P R IH|s s1 l s' t op e r D R IH].
  - cbn. rewrite app_nil_r. apply Permutation_refl.
  - exact IH.
  - exact IH.
  - change (q_puts (HPass t op e :: l)) with (q_puts l). change (q_takes (HPass t op e :: l)) with (q_takes l).
    destruct op; cbn in P; try contradiction.
    + destruct P as [[-> ->]| ->]; [exact IH|rewrite nz_zero; exact IH].
    + destruct P as (-> & -> & _). exact IH.
  - unfold q_puts, q_takes in *. cbn [flat_map].
    destruct op; cbn [deque_does] in D; rewrite ?app_nil_l.
    + destruct D as [-> ->]. rewrite nz_app in IH. rewrite (nz_app [v]), app_assoc. exact IH.
    + destruct D as [-> ->]. eapply perm_trans; [|exact IH]. change (v :: s) with ([v] ++ s). rewrite !(nz_app [v]), <- app_assoc.
      rewrite !app_assoc. apply Permutation_app_tail. apply Permutation_app_comm.
    + destruct D as (x & Nx & -> & ->). rewrite (nz_app [x]). cbn [app]. rewrite !nz_cons by assumption. cbn [app]. constructor. exact IH.
    + destruct D as [(x & -> & ->)|(-> & -> & _ & ->)].
      * change (x :: s1) with ([x] ++ s1). rewrite !nz_app, <- !app_assoc. apply Permutation_app_head. exact IH.
      * rewrite nz_app. exact IH.
    + destruct D as [(x & -> & ->)|(-> & -> & ->)].
      * change (x :: s1) with ([x] ++ s1). rewrite !nz_app, <- !app_assoc. apply Permutation_app_head. exact IH.
      * rewrite nz_app. exact IH.
    + destruct D as [-> ->]. rewrite nz_app, <- app_assoc. apply Permutation_app_head. exact IH.
    + destruct D as [-> ->]. rewrite nz_app, <- app_assoc. apply Permutation_app_head. exact IH.
    + destruct D as [-> ->]. exact IH.
    + destruct D as [-> ->]. exact IH.
Qed.

(** An event of the history was allowed by the sequential object. *)
Lemma seq_run_done : forall St Op Res (ps : St -> Op -> clk -> St -> Prop) (ds : St -> Op -> clk -> Res -> St -> Prop) s h s',
  seq_run ps ds s h s' -> forall t op e r, In (HDone t op e r) h -> exists s1 s2, ds s1 op e r s2.
Proof.
  intros St Op Res ps ds s h s' R. induction R as [s|s l s' t0 o R IH|s l s' t0 r0 R IH|s s1 l s' t0 o e0 P R IH|s s1 l s' t0 o e0 r0 D R IH]; intros t op e r In0.
  - destruct In0.
  - destruct In0 as [X|In0]; [discriminate|eauto].
  - destruct In0 as [X|In0]; [discriminate|eauto].
  - destruct In0 as [X|In0]; [discriminate|eauto].
  - destruct In0 as [X|In0]; [injection X as -> -> -> ->; eauto|eauto].
Qed.

(** The result returned is the result of the effect. *)
Lemma wf_ret_done : forall Op Res (l : list (hevent Op Res)) st, well_formed l st ->
  (forall op r, st = Effective op r -> exists t e, In (HDone t op e r) l) /\
  (forall t r, In (HRet t r) l -> exists u op e, In (HDone u op e r) l).
Proof.
  intros Op Res l st W. induction W as [|l t op W [IH1 IH2]|l t op e W [IH1 IH2]|l t op e r W [IH1 IH2]|l t op r W [IH1 IH2]]; split; intros; try discriminate.
  - destruct H.
  - apply in_app_or in H. destruct H as [H|[X|[]]]; [|discriminate]. destruct (IH2 _ _ H) as (u & o & e & In0). exists u, o, e. apply in_or_app. auto.
  - apply in_app_or in H. destruct H as [H|[X|[]]]; [|discriminate]. destruct (IH2 _ _ H) as (u & o & e0 & In0). exists u, o, e0. apply in_or_app. auto.
  - injection H as -> ->. exists t, e. apply in_or_app. right. left. reflexivity.
  - apply in_app_or in H. destruct H as [H|[X|[]]]; [|discriminate]. destruct (IH2 _ _ H) as (u & o & e0 & In0). exists u, o, e0. apply in_or_app. auto.
  - apply in_app_or in H. destruct H as [H|[X|[]]].
    + destruct (IH2 _ _ H) as (u & o & e0 & In0). exists u, o, e0. apply in_or_app. auto.
    + injection X as _ <-. destruct (IH1 _ _ eq_refl) as (u & e0 & In0). exists u, op, e0. apply in_or_app. auto.
Qed.

(** ** C21 *)
Lemma q_J : forall s op e s', ~ In 0 s -> not_null op ->
  (exists c, q_body s op e = OWait s' c) \/ q_body s op e = OSpin s' \/ (exists r i a, q_body s op e = ODone s' r i a) -> ~ In 0 s'.
Proof.
  intros s op e s' J K H. destruct op; cbn in H, K.
  - destruct H as [(c & H)|[H|(r & i & a & H)]]; try discriminate. injection H as <- _ _ _. intros X. apply in_app_or in X. destruct X as [X|[X|[]]]; auto.
  - destruct H as [(c & H)|[H|(r & i & a & H)]]; try discriminate. injection H as <- _ _ _. intros [X|X]; auto.
  - destruct s as [|x s]; cbn in H.
    + destruct H as [(c & H)|[H|(r & i & a & H)]]; try discriminate. injection H as <- _. auto.
    + apply no_null_cons in J. destruct J as [Nx J]. destruct (Z.eqb_spec x 0); [contradiction|].
      destruct H as [(c & H)|[H|(r & i & a & H)]]; try discriminate. injection H as <- _ _ _. auto.
  - destruct s as [|x s]; cbn in H.
    + destruct e; destruct H as [(c & H)|[H|(r & i & a & H)]]; try discriminate; injection H; intros; subst; auto.
    + apply no_null_cons in J. destruct J as [Nx J]. destruct H as [(c & H)|[H|(r & i & a & H)]]; try discriminate. injection H as <- _ _ _. auto.
  - destruct s as [|x s]; cbn in H; destruct H as [(c & H)|[H|(r & i & a & H)]]; try discriminate; injection H as <- _ _ _; [auto|].
    apply no_null_cons in J. apply J.
  - destruct H as [(c & H)|[H|(r & i & a & H)]]; try discriminate. injection H as <- _ _ _. auto.
  - destruct H as [(c & H)|[H|(r & i & a & H)]]; try discriminate. injection H as <- _ _ _. auto.
  - destruct H as [(c & H)|[H|(r & i & a & H)]]; try discriminate. injection H as <- _ _ _. auto.
  - destruct H as [(c & H)|[H|(r & i & a & H)]]; try discriminate. injection H as <- _ _ _. auto.
Qed.

Definition q_K (_ : nat) (op : qop) : Prop := not_null op.
Definition no_null (s : list Z) : Prop := ~ In 0 s.

Lemma q_wait0 : forall s op e s' c, no_null s -> q_body s op e = OWait s' c -> c = 0%nat /\ s' = [] /\ reader_op op = true.
Proof.
  intros s op e s' c J H. destruct op; cbn in H; try discriminate.
  - destruct s as [|x s]; cbn in H; [injection H as <- <-; auto|]. apply no_null_cons in J. destruct (Z.eqb_spec x 0); [tauto|discriminate].
  - destruct s as [|x s]; cbn in H; [|discriminate]. destruct e; try discriminate. injection H as <- <-. auto.
  - destruct (q_get s); discriminate.
Qed.

Lemma q_spin0 : forall s op e s', q_body s op e = OSpin s' -> s' = s.
Proof.
  intros s op e s' H. destruct op; cbn in H; try discriminate.
  - destruct (q_get s) as [p q]. destruct (p =? 0); discriminate.
  - destruct s as [|x s]; cbn in H; [|discriminate]. destruct e; try discriminate. injection H as <-. reflexivity.
  - destruct (q_get s); discriminate.
Qed.

Lemma q_done0 : forall s op e s' r ins aft, q_body s op e = ODone s' r ins aft ->
  (length s' <= length s - (if reader_op op then 1 else 0) + nsig 0 ins + nsig 0 aft)%nat.
Proof.
  intros s op e s' r ins aft H. destruct op; cbn in H.
  - injection H as <- _ <- <-. rewrite app_length. cbn. lia.
  - injection H as <- _ <- <-. cbn. lia.
  - destruct s as [|x s]; cbn in H; [discriminate|]. destruct (x =? 0); [discriminate|]. injection H as <- _ <- <-. cbn. lia.
  - destruct s as [|x s]; cbn in H; [destruct e; try discriminate|]; injection H as <- _ <- <-; cbn; lia.
  - destruct s as [|x s]; cbn in H; injection H as <- _ <- <-; cbn; lia.
  - injection H as <- _ <- <-. cbn. lia.
  - injection H as <- _ <- <-. cbn. lia.
  - injection H as <- _ <- <-. cbn. lia.
  - injection H as <- _ <- <-. cbn. lia.
Qed.

Lemma q_count : forall m, reach q_body [] m -> never_null (hist m) ->
  (exists t op, sleeps m t op 0) -> (length (sh m) <= total (on_the_way reader_op) (pcs m))%nat.
Proof.
  intros m R NN (t & op & Sl).
  assert (C : count_inv q_K 0 (@length Z) reader_op m).
  { apply (count_reach q_body q_K no_null) with (s0 := []).
    - intros s u o e s' c J K H. eapply q_J; eauto.
    - intros s u o e s' J K H. eapply q_J; eauto.
    - intros s u o e s' r i a J K H. eapply q_J; eauto 6.
    - intros s u o e s' J K H. destruct (q_wait0 _ _ _ _ _ J H) as (_ & -> & Ro). auto.
    - intros s u o e s' d J K H Nd. destruct (q_wait0 _ _ _ _ _ J H) as (-> & _). congruence.
    - intros s u o e s' J K H. rewrite (q_spin0 _ _ _ _ H). lia.
    - intros s u o e s' r i a J K H. apply (q_done0 _ _ _ _ _ _ _ H).
    - intros X. exact X.
    - exact R. }
  destruct (C NN) as [_ [Z|Z]].
  - pose proof (sum_ge (slp 0) _ _ _ Sl) as G. cbn [slp] in G. change (Nat.eqb 0 0) with true in G. cbn iota in G. lia.
  - rewrite sum_total in Z. rewrite <- (total_ext _ (fa 0 reader_op)); [exact Z|]. intros x. apply on_the_way_fa.
Qed.

Lemma rest_total : forall St Op Res (body : St -> Op -> clk -> outcome St Res) s0 (m : mstate St Op Res) takes,
  reach body s0 m -> at_rest body m -> total (on_the_way takes) (pcs m) = 0%nat.
Proof.
  intros St Op Res body s0 m takes R Q. rewrite <- sum_total. apply sum_zero. intros t p N.
  destruct (rest_shape _ _ _ R Q _ _ N) as [->|(op & c & ->)]; reflexivity.
Qed.

(** ** C22 *)
Definition c_J (s : list Z * list Z) : Prop := no_null (fst s) /\ no_null (snd s).
Definition c_K (t0 t : nat) (op : cop) : Prop :=
  match op with OnA o | OnB o => not_null o | _ => True end /\ (may_wait op = true -> t = t0).
Definition c_rdy (s : list Z * list Z) (op : cop) : bool :=
  match op with
  | OnA _ => match fst s with [] => false | _ => true end
  | OnB _ => match snd s with [] => false | _ => true end
  | _ => negb (both_empty s)
  end.

Lemma q_grow : forall s op e s' r ins aft, q_body s op e = ODone s' r ins aft -> s = [] -> s' <> [] -> (0 < nsig 0 ins + nsig 0 aft)%nat.
Proof.
  intros s op e s' r ins aft H -> N. destruct op; cbn in H; try (injection H as <- _ <- <-); try discriminate; try congruence; cbn; try lia.
  destruct e; try discriminate. injection H as <- _ <- <-. congruence.
Qed.

Lemma q_wait_op : forall s op e s' c, q_body s op e = OWait s' c -> op = QRead \/ op = QReadT.
Proof.
  intros s op e s' c H. destruct op; cbn in H; try discriminate; auto. destruct (q_get s); discriminate.
Qed.

Lemma c_J_step : forall s op e s', c_J s -> match op with OnA o | OnB o => not_null o | _ => True end ->
  (exists c, c_body s op e = OWait s' c) \/ c_body s op e = OSpin s' \/ (exists r i a, c_body s op e = ODone s' r i a) -> c_J s'.
Proof.
  intros [a b] op e s' [Ja Jb] K H. cbn [fst snd] in *. destruct op as [o|o| |]; cbn [c_body fst snd] in H.
  - destruct (q_body a o e) as [s c|s|s r i f] eqn:E; cbn [on_fst] in H;
      (destruct H as [(x & H)|[H|(x & y & z & H)]]; try discriminate); injection H; intros; subst s'; (split; [|exact Jb]); cbn [fst];
      refine (q_J a o e _ Ja K _); rewrite E; eauto 6.
  - destruct (q_body b o e) as [s c|s|s r i f] eqn:E; cbn [on_snd] in H;
      (destruct H as [(x & H)|[H|(x & y & z & H)]]; try discriminate); injection H; intros; subst s'; (split; [exact Ja|]); cbn [snd];
      refine (q_J b o e _ Jb K _); rewrite E; eauto 6.
  - destruct (both_empty (a, b)); destruct H as [(x & H)|[H|(x & y & z & H)]]; try discriminate; injection H; intros; subst s'; split; assumption.
  - destruct (both_empty (a, b)); [destruct e|]; destruct H as [(x & H)|[H|(x & y & z & H)]]; try discriminate; injection H; intros; subst s'; split; assumption.
Qed.

Lemma c_wait0 : forall s op e s' c, c_J s -> c_body s op e = OWait s' c -> c = 0%nat /\ may_wait op = true /\ c_rdy s' op = false /\ s' = s.
Proof.
  intros [a b] op e s' c [Ja Jb] H. destruct op as [o|o| |]; cbn [c_body fst snd] in H.
  - destruct (q_body a o e) as [s d|s|s r i f] eqn:E; cbn [on_fst] in H; try discriminate. injection H as <- <-.
    destruct (q_wait0 _ _ _ _ _ Ja E) as (-> & -> & _). split; [reflexivity|]. 
    assert (a = []). { destruct a as [|x a]; [reflexivity|]. destruct o; cbn in E; try discriminate.
      apply no_null_cons in Ja. destruct (Z.eqb_spec x 0); [tauto|discriminate]. }
    subst a. destruct (q_wait_op _ _ _ _ _ E) as [-> | ->]; auto.
  - destruct (q_body b o e) as [s d|s|s r i f] eqn:E; cbn [on_snd] in H; try discriminate. injection H as <- <-.
    destruct (q_wait0 _ _ _ _ _ Jb E) as (-> & -> & _). split; [reflexivity|]. 
    assert (b = []). { destruct b as [|x b]; [reflexivity|]. destruct o; cbn in E; try discriminate.
      apply no_null_cons in Jb. destruct (Z.eqb_spec x 0); [tauto|discriminate]. }
    subst b. destruct (q_wait_op _ _ _ _ _ E) as [-> | ->]; auto.
  - destruct (both_empty (a, b)) eqn:B; [|discriminate]. injection H as <- <-. cbn [may_wait c_rdy]. rewrite B. auto.
  - destruct (both_empty (a, b)) eqn:B; [|discriminate]. destruct e; try discriminate. injection H as <- <-. cbn [may_wait c_rdy]. rewrite B. auto.
Qed.

Lemma c_spin0 : forall s op e s', c_body s op e = OSpin s' -> s' = s.
Proof.
  intros [a b] op e s' H. destruct op as [o|o| |]; cbn [c_body fst snd] in H.
  - destruct (q_body a o e) as [s d|s|s r i f] eqn:E; cbn [on_fst] in H; try discriminate. injection H as <-. rewrite (q_spin0 _ _ _ _ E). reflexivity.
  - destruct (q_body b o e) as [s d|s|s r i f] eqn:E; cbn [on_snd] in H; try discriminate. injection H as <-. rewrite (q_spin0 _ _ _ _ E). reflexivity.
  - destruct (both_empty (a, b)); discriminate.
  - destruct (both_empty (a, b)); [|discriminate]. destruct e; try discriminate; injection H as <-; reflexivity.
Qed.

Lemma c_done0 : forall s op e s' r ins aft o, c_body s op e = ODone s' r ins aft -> c_rdy s' o = true ->
  c_rdy s o = true \/ (0 < nsig 0 ins + nsig 0 aft)%nat.
Proof.
  intros [a b] op e s' r ins aft o H Rd.
  assert (Q : forall x x' f, q_body x f e = ODone x' r ins aft -> x <> [] \/ x' = [] \/ (0 < nsig 0 ins + nsig 0 aft)%nat).
  { intros x x' f E. destruct x as [|y x]; [|left; discriminate]. destruct x' as [|y x']; [right; left; reflexivity|].
    right; right. eapply q_grow; [exact E|reflexivity|discriminate]. }
  destruct op as [f|f| |]; cbn [c_body fst snd] in H.
  - destruct (q_body a f e) as [s d|s|s r' i' f'] eqn:E; cbn [on_fst] in H; try discriminate. injection H as <- -> -> ->.
    destruct (Q _ _ _ E) as [N|[->|P]]; [| |auto].
    + left. destruct a; [congruence|]. destruct o; cbn in *; auto.
    + left. destruct o, a, b; cbn in *; auto.
  - destruct (q_body b f e) as [s d|s|s r' i' f'] eqn:E; cbn [on_snd] in H; try discriminate. injection H as <- -> -> ->.
    destruct (Q _ _ _ E) as [N|[->|P]]; [| |auto].
    + left. destruct b; [congruence|]. destruct o, a; cbn in *; auto.
    + left. destruct o, a, b; cbn in *; auto.
  - destruct (both_empty (a, b)); [discriminate|]. injection H as <- _ _ _. auto.
  - destruct (both_empty (a, b)); [destruct e; discriminate|]. injection H as <- _ _ _. auto.
Qed.

Lemma c_rest : forall m t0 t op, reach c_body ([], []) m -> c_never_null (hist m) -> only_waiter t0 (hist m) ->
  at_rest c_body m -> sleeps m t op 0 -> ~ c_ready (sh m) op.
Proof.
  intros m t0 t op R NN OW Q Sl.
  assert (F : c_rdy (sh m) op = false).
  { apply (pred_rest c_body (c_K t0) c_J) with (ready := c_rdy) (only := Some t0) (c := 0%nat) (s0 := ([], [])) (t := t); try assumption.
    - intros s u o e s' c J K H. eapply c_J_step; [exact J|apply K|]. eauto.
    - intros s u o e s' J K H. eapply c_J_step; [exact J|apply K|]. eauto.
    - intros s u o e s' r i a J K H. eapply c_J_step; [exact J|apply K|]. eauto 6.
    - intros s u o e s' J K H. apply (c_wait0 _ _ _ _ _ J H).
    - intros s u o e s' d o' J K H. destruct (c_wait0 _ _ _ _ _ J H) as (_ & _ & _ & ->). auto.
    - intros s u o e s' o' J K H. rewrite (c_spin0 _ _ _ _ H). auto.
    - intros s u o e s' r i a o' J K H. apply (c_done0 _ _ _ _ _ _ _ _ H).
    - intros s u o e s' J K H. apply K. apply (c_wait0 _ _ _ _ _ J H).
    - split; intros X; exact X.
    - intros u o I. split; [eapply NN; eassumption|intros W; eapply OW; eassumption]. }
  intros Rd. destruct (sh m) as [a b]. destruct op; cbn in *; try (destruct a; congruence); try (destruct b; congruence);
    destruct a, b; cbn in *; try discriminate; destruct Rd; congruence.
Qed.

(** A timed wait that has run out keeps the mutex for ever. *)
Definition dones {Op Res} (h : list (hevent Op Res)) : nat :=
  length (filter (fun ev => match ev with HDone _ _ _ _ => true | _ => false end) h).
Lemma c_spin_forever : forall evs m t m', reach c_body ([], []) m -> nth_error (pcs m) t = Some (PBody WaitEitherT) -> sh m = ([], []) ->
  (forall e, In (EBody t e) evs -> e = Late) -> run c_body m evs = Some m' ->
  sh m' = ([], []) /\ nth_error (pcs m') t = Some (PBody WaitEitherT) /\ holder m' = Some t /\ dones (hist m') = dones (hist m).
Proof.
  induction evs as [|ev evs IH]; intros m t m' R N E L H; cbn [run] in H.
  - injection H as <-. pose proof (reach_excl _ _ _ R t _ N) as X. cbn in X. repeat split; try assumption. apply X. reflexivity.
  - destruct (step c_body m ev) as [m1|] eqn:S; [|discriminate].
    assert (G : sh m1 = ([], []) /\ nth_error (pcs m1) t = Some (PBody WaitEitherT) /\ dones (hist m1) = dones (hist m)).
    { pose proof (reach_excl _ _ _ R) as X. pose proof (proj1 (X t _ N) eq_refl) as Hd.
      destruct ev as [u op|u|u e|u v|u|u|u]; cbn [step] in S.
      - destruct (nth_error (pcs m) u) as [[]|] eqn:U; try discriminate. injection S as <-. cbn [sh pcs hist].
        split; [exact E|]. split; [|reflexivity]. destruct (Nat.eq_dec u t) as [->|Nu]; [congruence|rewrite nth_error_upd_neq by congruence; exact N].
      - rewrite Hd in S. discriminate.
      - destruct (nth_error (pcs m) u) as [[]|] eqn:U; try discriminate.
        pose proof (proj1 (X u _ U) eq_refl) as Hu. assert (u = t) by congruence. subst u. rewrite U in N. injection N as ->.
        rewrite (L e) in S by (left; reflexivity). rewrite E in S. cbn [c_body both_empty] in S. injection S as <-. cbn [sh pcs hist]. auto.
      - destruct (nth_error (pcs m) u) as [[| | | | |op r [|g ins] aft|op r [|g aft]]|] eqn:U; try discriminate;
          (destruct (fire g v (pcs m)) as [l|] eqn:F; [|discriminate]); injection S as <-; cbn [sh pcs hist]; (split; [exact E|]); (split; [|reflexivity]);
          (assert (Nu : u <> t) by congruence); rewrite nth_error_upd_neq by congruence;
          (destruct (fire_fwd _ _ _ _ _ _ F N) as [K|(o & K & _)]; [exact K|discriminate]).
      - destruct (nth_error (pcs m) u) as [[| | | | |op r [|g ins] aft|]|] eqn:U; try discriminate.
        pose proof (proj1 (X u _ U) eq_refl) as Hu. assert (u = t) by congruence. congruence.
      - destruct (nth_error (pcs m) u) as [[| | | | | |op r [|g aft]]|] eqn:U; try discriminate. injection S as <-. cbn [sh pcs hist].
        split; [exact E|]. split; [|reflexivity]. destruct (Nat.eq_dec u t) as [->|Nu]; [congruence|rewrite nth_error_upd_neq by congruence; exact N].
      - destruct (nth_error (pcs m) u) as [[]|] eqn:U; try discriminate. injection S as <-. cbn [setpc sh pcs hist].
        split; [exact E|]. split; [|reflexivity]. destruct (Nat.eq_dec u t) as [->|Nu]; [congruence|rewrite nth_error_upd_neq by congruence; exact N]. }
    destruct G as (E1 & N1 & D1).
    destruct (IH m1 t m' (reach_step _ _ _ _ _ R S) N1 E1) as (A & B & C & D); [intros e I; apply L; right; exact I|exact H|].
    repeat split; try assumption. congruence.
Qed.
